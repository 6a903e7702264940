(** C21: PMAC. *)
From Verif Require Import Base BlockModeModel BlockModeSpec StreamSpec StreamProofs ToolBytesModel ToolBytesSpec ToolBytesProofs HashSpec
  MacModel MacSpec MacProofs MacProps OffsetSpec PmacModel PmacSpec PmacProofs.
Set Implicit Arguments. Unset Strict Implicit.
Local Open Scope nat_scope.

(** The constructor accepts exactly these sizes. *)
Theorem C21_params : forall c ts,
  (exists d, pmac_new c ts = Ok d) <-> (1 <= ts <= Z.of_nat (bsz c))%Z /\ In (bsz c) [8; 16; 32; 64; 128].
Proof.
  intros c ts. unfold pmac_new. split.
  - intros [d H]. destruct (Z.leb_spec ts 0); [discriminate|]. destruct (Z.ltb_spec (Z.of_nat (bsz c)) ts); [discriminate|].
    cbn [orb] in H. split; [lia|].
    destruct ((bsz c =? 8) || (bsz c =? 16) || (bsz c =? 32) || (bsz c =? 64) || (bsz c =? 128))%bool eqn:E; [|discriminate].
    rewrite !orb_true_iff, !Nat.eqb_eq in E. cbn [In]. intuition.
  - intros [H1 H2]. destruct (Z.leb_spec ts 0); [lia|]. destruct (Z.ltb_spec (Z.of_nat (bsz c)) ts); [lia|]. cbn [orb].
    assert (E : ((bsz c =? 8) || (bsz c =? 16) || (bsz c =? 32) || (bsz c =? 64) || (bsz c =? 128))%bool = true).
    { rewrite !orb_true_iff, !Nat.eqb_eq. cbn [In] in H2. intuition. }
    rewrite E. eexists; reflexivity.
Qed.
Print Assumptions C21_params.

Lemma pmac_new_inv c ts d : pmac_new c ts = Ok d -> d = st c (Z.to_nat ts) [] (zeros (bsz c)) 0.
Proof.
  unfold pmac_new. destruct ((ts <=? 0) || (Z.of_nat (bsz c) <? ts))%Z; [discriminate|].
  destruct ((bsz c =? 8) || (bsz c =? 16) || (bsz c =? 32) || (bsz c =? 64) || (bsz c =? 128))%bool; [|discriminate].
  intro H. injection H as <-. reflexivity.
Qed.
Lemma inv_start c ts : inv c ts (st c ts [] (zeros (bsz c)) 0) [].
Proof.
  exists [], [], (zeros (bsz c)). repeat split; auto; try constructor; [cbn; lia|apply repeat_length].
Qed.
Lemma half_L c : lawful c -> is_half (bsz c) 135 (enc c (zeros (bsz c))) (pmac_half 135 (enc c (zeros (bsz c)))).
Proof.
  intro HL. destruct (L_block HL) as [L1 O1]. pose proof (law_pos HL).
  destruct (@pmac_half_spec 135 (enc c (zeros (bsz c)))) as (A & B & D); auto; [unfold is_byte; lia| |].
  - intros E. rewrite E in L1. cbn in L1. lia.
  - rewrite L1 in *. repeat split; auto.
Qed.

(** L * x^-1 is determined by L. *)
Theorem C21_half_unique : forall n p L h h', is_byte p -> (p mod 2 = 1)%Z -> 0 < n ->
  is_half n p L h -> is_half n p L h' -> h = h'.
Proof.
  intros n p L h h' Hp Ho Hn (L1 & O1 & E1) (L2 & O2 & E2). apply be_val_inj; auto; [congruence|].
  assert (E : double n p h = double n p h') by congruence. unfold double in E. apply (f_equal be_val) in E.
  pose proof (be_val_bound O1) as B1. pose proof (be_val_bound O2) as B2. rewrite L1 in B1. rewrite L2 in B2.
  set (v := be_val h) in *. set (w := be_val h') in *. rewrite !be_val_bytes in E.
  rewrite <- pow8 in *. set (N := (2 ^ (8 * Z.of_nat n))%Z) in *.
  assert (HN : (exists M, N = 2 * M)%Z).
  { exists (2 ^ (8 * Z.of_nat n - 1))%Z. unfold N. rewrite <- Z.pow_succ_r by lia. f_equal. lia. }
  assert (Pn : (0 <= p < N)%Z).
  { unfold is_byte in Hp. assert (256 <= N)%Z; [|lia]. unfold N. change 256%Z with (2 ^ 8)%Z. apply Z.pow_le_mono_r; lia. }
  assert (B : forall u, (0 <= u < N)%Z -> (0 <= double_val n p u < N)%Z /\ (double_val n p u mod 2 = if (2 * u <? N)%Z then 0 else 1)%Z).
  { intros u Hu. unfold double_val. fold N. destruct (Z.ltb_spec (2 * u) N).
    - split; [lia|]. rewrite Z.mul_comm. apply Z.mod_mul. lia.
    - split; [unfold N in *; apply lxor_bound; lia|].
      rewrite <- land1. rewrite Z.land_comm, <- (Z.land_diag 1) , (Z.land_comm 1).
      apply Z.bits_inj'. intros i Hi. rewrite !Z.land_spec, Z.lxor_spec.
      destruct (Z.eq_dec i 0) as [->|Hi0].
      + destruct HN as [M EM]. replace (2 * u - N)%Z with (2 * (u - M))%Z by lia. rewrite Z.testbit_even_0.
        replace p with (2 * (p / 2) + 1)%Z by (pose proof (Z.div_mod p 2); lia). rewrite Z.testbit_odd_0. reflexivity.
      + assert (Z.testbit 1 i = false) as ->; [|now rewrite !andb_false_r].
        destruct i as [|q|q]; [lia| |lia]. now destruct q. }
  destruct (B v B1) as [R1 P1]. destruct (B w B2) as [R2 P2]. rewrite !Z.mod_small in E by auto.
  rewrite E in P1. rewrite P1 in P2. unfold double_val in E. fold N in E.
  destruct (Z.ltb_spec (2 * v) N), (Z.ltb_spec (2 * w) N); try discriminate; [lia|].
  apply (f_equal (fun z => Z.lxor z p)) in E. rewrite !Z.lxor_assoc, !Z.lxor_nilpotent, !Z.lxor_0_r in E. lia.
Qed.
Print Assumptions C21_half_unique.

(** For every history in which Sum is followed by a Reset, and which never writes more than
    2^(2n-1) blocks in a row, every Sum appends the PMAC of what was written. *)
Theorem C21_streaming : forall c ts d h ops, lawful c -> pmac_new c ts = Ok d -> Forall hop_ok ops ->
  is_half (bsz c) 135 (enc c (repeat 0%Z (bsz c))) h ->
  reset_after_sum false ops -> written_max 0 ops <= bsz c * 2 ^ (2 * bsz c - 1) ->
  pmac_run c d ops = Ok (expected (fun m => firstn (Z.to_nat ts) (pmac_full (bsz c) 135 (enc c) h m)) [] ops).
Proof.
  intros c ts d h ops HL Hd Hops Hh Hr Hw. pose proof (law_pos HL) as Hn.
  assert (Eh : h = pmac_half 135 (enc c (zeros (bsz c)))).
  { apply (@C21_half_unique (bsz c) 135 (enc c (zeros (bsz c)))); auto; [unfold is_byte; lia|apply (half_L HL)]. }
  rewrite (pmac_new_inv Hd).
  assert (K : forall ops, Forall hop_ok ops -> forall d m,
     (exists dg, inv c (Z.to_nat ts) (pm_with d dg (pm_offset d) (pm_buf d) (pm_pos d) (pm_ctr d)) m) -> bytes_ok m ->
     (reset_after_sum true ops \/ inv c (Z.to_nat ts) d m /\ reset_after_sum false ops) -> written_max (length m) ops <= bsz c * 2 ^ (2 * bsz c - 1) ->
     pmac_run c d ops = Ok (expected (fun m => firstn (Z.to_nat ts) (pmac_full (bsz c) 135 (enc c) h m)) m ops)).
  { clear ops Hops Hr Hw d Hd. induction 1 as [|o ops Ho _ IH]; intros d m Hd Hm Hcase Hw; [reflexivity|].
    destruct o as [x|i|]; cbn [pmac_run expected hop_ok reset_after_sum written_max] in *.
    - destruct Hcase as [[Hf _]|[Hi [_ Hr]]]; [discriminate|].
      assert (Hb : length (m ++ x) <= bsz c * lim c).
      { rewrite app_length. unfold lim. etransitivity; [|exact Hw]. clear. generalize (length m + length x). 
        induction ops as [|[y|y|] ops IH]; intro k; cbn [written_max]; [lia| | |lia].
        - etransitivity; [|apply IH]. lia.
        - apply IH. }
      destruct (write_ok HL Hi Hm Ho Hb) as (d' & E & Hi'). rewrite E. cbn [rbind]. apply IH.
      + exists (pm_digest d'). destruct d'; exact Hi'.
      + apply bytes_ok_app; auto.
      + right; auto.
      + now rewrite app_length.
    - destruct Hcase as [[Hf _]|[Hi [_ Hr]]]; [discriminate|].
      destruct (pmac_sum c d i) as [d' out] eqn:Es.
      assert (Eo : out = i ++ firstn (Z.to_nat ts) (pmac_full (bsz c) 135 (enc c) h m)).
      { change out with (snd (d', out)). rewrite <- Es, Eh. apply (sum_ok HL); auto. }
      rewrite (IH d' m); [cbn [rbind]; now rewrite Eo| |auto|now left|auto].
      exists (pm_digest d). unfold pmac_sum in Es. injection Es as <- _. destruct d; exact Hi.
    - assert (Ed : pmac_reset c d = st c (Z.to_nat ts) [] (zeros (bsz c)) 0).
      { destruct Hd as (dg & bl & t & buf & _ & _ & _ & _ & E & _). unfold pmac_reset, st. unfold pm_with in *. injection E as -> -> _ _ _ _ _ ->. reflexivity. }
      rewrite Ed. apply IH; [|constructor| |cbn [length]; lia].
      + exists (pm_digest (st c (Z.to_nat ts) [] (zeros (bsz c)) 0)). apply inv_start.
      + right. split; [apply inv_start|]. tauto. }
  apply (K ops Hops _ []); auto; [|constructor|].
  - exists (pm_digest (st c (Z.to_nat ts) [] (zeros (bsz c)) 0)). apply inv_start.
  - right. split; [apply inv_start|auto].
Qed.
Print Assumptions C21_streaming.

(** Verify accepts exactly the PMAC of the message. *)
Theorem C21_verify : forall c ts h mac msg, lawful c -> (1 <= ts <= Z.of_nat (bsz c))%Z -> In (bsz c) [8; 16; 32; 64; 128] ->
  is_half (bsz c) 135 (enc c (repeat 0%Z (bsz c))) h -> bytes_ok msg -> length msg <= bsz c * 2 ^ (2 * bsz c - 1) ->
  exists b, pmac_verify c ts mac msg = Ok b /\
    (b = true <-> mac = firstn (Z.to_nat ts) (pmac_full (bsz c) 135 (enc c) h msg)).
Proof.
  intros c ts h mac msg HL Ht Hn Hh Hm Hl. destruct (proj2 (C21_params c ts) (conj Ht Hn)) as [d Hd].
  pose proof (@C21_streaming c ts d h [HWrite msg; HSum []] HL Hd) as S. cbn [pmac_run expected app] in S.
  specialize (S ltac:(repeat constructor; exact Hm) Hh ltac:(cbn; auto) Hl).
  unfold pmac_verify, pmac_oneshot. rewrite Hd. cbn [rbind].
  destruct (pmac_write c d msg) as [d1| |]; cbn [rbind] in S |- *; [|discriminate|discriminate].
  destruct (pmac_sum c d1 []) as [d2 out]. cbn [rbind snd] in *. injection S as ->.
  eexists. split; [reflexivity|]. apply bytes_eqb_eq.
Qed.
Print Assumptions C21_verify.

(** Longer messages crash: more than 2^(2n-1) blocks (32768 blocks, 256 KiB, for a 64-bit cipher). *)
Theorem C21_long_message_refuted : forall c ts d msg, lawful c -> pmac_new c ts = Ok d -> bytes_ok msg ->
  bsz c * 2 ^ (2 * bsz c - 1) < length msg -> pmac_write c d msg = Panic.
Proof.
  intros c ts d msg HL Hd Hm Hl. rewrite (pmac_new_inv Hd).
  apply (write_panic HL (inv_start c (Z.to_nat ts))); auto; [constructor|cbn; lia].
Qed.
Print Assumptions C21_long_message_refuted.

(** Sum overwrites the digest: a second Sum, or writing on, gives other values. *)
Theorem C21_sum_disturbs_refuted :
  exists c d m, lawful c /\ pmac_new c 16 = Ok d /\ bytes_ok m /\
    pmac_run c d [HWrite m; HSum []; HSum []] <>
      Ok (expected (fun m => pmac_full 16 135 (enc c) (pmac_half 135 (enc c (repeat 0%Z 16))) m) [] [HWrite m; HSum []; HSum []]) /\
    pmac_run c d [HWrite m; HSum []; HWrite m; HSum []] <>
      Ok (expected (fun m => pmac_full 16 135 (enc c) (pmac_half 135 (enc c (repeat 0%Z 16))) m) [] [HWrite m; HSum []; HWrite m; HSum []]).
Proof.
  exists (toyn 16). destruct (pmac_new (toyn 16) 16) as [d| |] eqn:E; [|discriminate|discriminate]. exists d, [1; 2; 3]%Z.
  split; [apply toyn_lawful; lia|]. split; [reflexivity|]. split; [repeat constructor; unfold is_byte; lia|].
  injection E as <-. split; vm_compute; discriminate.
Qed.
Print Assumptions C21_sum_disturbs_refuted.

(** For 64-bit ciphers the polynomial is not the one PMAC names (x^64+x^4+x^3+x+1, 0x1b). *)
Theorem C21_64bit_refuted :
  exists c d m, lawful c /\ bsz c = 8 /\ pmac_new c 8 = Ok d /\ bytes_ok m /\
    forall h, pmac_run c d [HWrite m; HSum []] <> Ok [pmac_full 8 27 (enc c) h m].
Proof.
  exists (flip 8). destruct (pmac_new (flip 8) 8) as [d| |] eqn:E; [|discriminate|discriminate]. exists d, (repeat 1%Z 17).
  split; [apply flip_lawful; lia|]. split; [reflexivity|]. split; [reflexivity|]. split; [repeat constructor; unfold is_byte; lia|].
  injection E as <-. intro h. vm_compute. discriminate.
Qed.
Print Assumptions C21_64bit_refuted.

Example C21_instance : lawful (toyn 16) /\
  exists d h, pmac_new (toyn 16) 12 = Ok d /\ is_half 16 135 (enc (toyn 16) (repeat 0%Z 16)) h /\
    pmac_run (toyn 16) d [HWrite (map Z.of_nat (seq 0 37)); HWrite (map Z.of_nat (seq 37 40)); HSum [9]%Z; HReset; HWrite (repeat 5%Z 32); HSum []]
    = Ok [9%Z :: firstn 12 (pmac_full 16 135 (enc (toyn 16)) h (map Z.of_nat (seq 0 77)));
          firstn 12 (pmac_full 16 135 (enc (toyn 16)) h (repeat 5%Z 32))].
Proof.
  split; [apply toyn_lawful; lia|]. destruct (pmac_new (toyn 16) 12) as [d| |] eqn:E; [|discriminate|discriminate].
  exists d, (pmac_half 135 (enc (toyn 16) (repeat 0%Z 16))). split; [reflexivity|]. split.
  - apply (@half_L (toyn 16)). apply toyn_lawful; lia.
  - injection E as <-. vm_compute. reflexivity.
Qed.
