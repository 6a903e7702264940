(** C15: EAX (mode/eax/eax.go). *)
From Verif Require Import Base BlockModeModel StreamSpec StreamProofs AeadSpec ToolBytesModel ToolBytesSpec ToolBytesProofs
  MacModel MacSpec MacProofs EaxModel EaxSpec.
Set Implicit Arguments. Unset Strict Implicit.
Local Open Scope nat_scope.

Lemma cbc_blocks_last c bl : forall iv, bl <> [] -> exists pre, cbc_blocks c iv bl = pre ++ [chain (enc c) iv bl].
Proof.
  induction bl as [|b bl IH]; intros iv Hne; [congruence|]. cbn [cbc_blocks chain fold_left]. rewrite (xorl_comm b iv).
  destruct bl as [|b' bl]; [exists []; reflexivity|].
  destruct (IH (enc c (xorl iv b)) ltac:(discriminate)) as [pre E]. rewrite E. eexists (_ :: pre). reflexivity.
Qed.

Section eax.
  Variable c : cipher.
  Hypothesis HL : lawful c.
  Hypothesis Hs : bsz c = 16.

  Lemma chunks_blocks (m : bytes) k : bytes_ok m -> length m = 16 * k -> Forall (isblock 16) (chunks 16 m).
  Proof.
    intros O L. assert (A : all_len 16 (chunks 16 m)) by (apply chunks_all_len with (k := k); lia).
    assert (Oc : bytes_ok (concat (chunks 16 m))) by (rewrite chunks_concat by lia; auto). apply bytes_ok_concat in Oc.
    unfold all_len in A. rewrite Forall_forall in *. intros x Hx. split; auto.
  Qed.
  Lemma omac_eq m : bytes_ok m -> m <> [] -> eax_omac c m = Ok (cmac_full 16 135 (enc c) m).
  Proof.
    intros Hm Hne. unfold eax_omac. rewrite Hs. destruct (L_block HL) as [L1 O1]. rewrite Hs in L1, O1. unfold zeros in L1, O1.
    rewrite GfnDouble_spec by auto. cbn [rbind]. rewrite GfnDouble_spec by (apply double_length || apply double_ok). cbn [rbind].
    unfold eax_pad, cmac_full. rewrite Hs. set (K1 := double 16 135 (enc c (repeat 0%Z 16))). set (K2 := double 16 135 K1).
    assert (LK1 : length K1 = 16) by apply double_length. assert (LK2 : length K2 = 16) by apply double_length.
    assert (Fin : forall p, (exists k, length p = 16 * S k) -> bytes_ok p -> forall K, length K = 16 -> bytes_ok K ->
      rbind (RightXOR p K) (fun padded => Ok (skipn (length (go_cbc c (repeat 0%Z 16) padded) - 16) (go_cbc c (repeat 0%Z 16) padded)))
      = Ok (chain (enc c) (repeat 0%Z 16) (chunks 16 (xor_end p K)))).
    { intros p [k Lp] Op K LK OK. unfold RightXOR. destruct (Nat.ltb_spec (length p) (length K)); [lia|]. cbn [rbind].
      change (firstn (length p - length K) p ++ xorl (skipn (length p - length K) p) K) with (xor_end p K).
      assert (Lx : length (xor_end p K) = 16 * S k).
      { unfold xor_end. rewrite app_length, firstn_length, xorl_length, skipn_length. lia. }
      assert (Ox : bytes_ok (xor_end p K)).
      { unfold xor_end. apply bytes_ok_app. split; [now apply bytes_ok_firstn|]. apply xorl_ok; auto. now apply bytes_ok_skipn. }
      unfold go_cbc. rewrite Hs. pose proof (chunks_blocks Ox Lx) as B.
      assert (Hc : chunks 16 (xor_end p K) <> []).
      { rewrite chunks_cons; [discriminate|lia|]. intro H0. rewrite H0 in Lx. cbn in Lx. lia. }
      destruct (@cbc_blocks_last c (chunks 16 (xor_end p K)) (repeat 0%Z 16) Hc) as [pre E]. rewrite E, concat_app. cbn [concat]. rewrite app_nil_r.
      f_equal. apply skipn_app_exact. rewrite app_length.
      assert (Lc : length (chain (enc c) (repeat 0%Z 16) (chunks 16 (xor_end p K))) = 16).
      { rewrite <- Hs at 1 3. rewrite <- Hs in B. apply (chain_block HL); [apply zeros_block|]. rewrite Hs in *. exact B. }
      lia. }
    destruct (negb (length m =? 0) && (length m mod 16 =? 0))%bool eqn:Ec.
    - apply andb_true_iff in Ec as [E1 E2]. apply negb_true_iff, Nat.eqb_neq in E1. apply Nat.eqb_eq in E2.
      apply Fin; auto; [|apply double_ok]. apply Nat.mod_divides in E2 as [k E2]; [|lia]. exists (k - 1). lia.
    - assert (Ep : m ++ 128%Z :: repeat 0%Z (16 - length m mod 16 - 1) = pad2 16 m).
      { unfold pad2. do 3 f_equal. lia. }
      rewrite Ep. apply Fin; auto; [|now apply pad2_ok|apply double_ok]. exists (length m / 16).
      unfold pad2. rewrite app_length. cbn [length]. rewrite repeat_length.
      pose proof (Nat.div_mod (length m) 16 ltac:(lia)). pose proof (Nat.mod_upper_bound (length m) 16 ltac:(lia)). lia.
  Qed.
  Lemma omact_eq t m : (0 <= t < 256)%Z -> bytes_ok m -> eax_omact c t m = Ok (omac_t (enc c) t m).
  Proof.
    intros Ht Hm. unfold eax_omact, omac_t. rewrite Hs.
    assert (E : repeat 0%Z (16 - 1) ++ [t] = be_bytes 16 t).
    { apply be_val_inj.
      - apply bytes_ok_app. split; [apply bytes_ok_repeat; unfold is_byte; lia|repeat constructor; unfold is_byte; lia].
      - apply be_bytes_ok.
      - now rewrite be_bytes_length.
      - rewrite be_val_snoc, be_val_zeros, be_val_bytes. rewrite Z.mod_small; [lia|]. change (256 ^ Z.of_nat 16)%Z with (2 ^ 128)%Z. lia. }
    rewrite E. apply omac_eq; [|intro H; apply (f_equal (@length Z)) in H; rewrite app_length, be_bytes_length in H; cbn in H; lia].
    apply bytes_ok_app. split; auto. apply be_bytes_ok.
  Qed.
  Lemma omact_block t m : bytes_ok m -> isblock 16 (omac_t (enc c) t m).
  Proof.
    intro Hm. unfold omac_t. set (x := be_bytes 16 t ++ m).
    assert (Ox : bytes_ok x) by (apply bytes_ok_app; split; auto; apply be_bytes_ok).
    assert (Hne : x <> []) by (intro H; apply (f_equal (@length Z)) in H; unfold x in H; rewrite app_length, be_bytes_length in H; cbn in H; lia).
    destruct (@decompose 16 x ltac:(lia) Hne) as (bl & tail & E & A & L). rewrite E. rewrite E in Ox. apply bytes_ok_app in Ox as [Ob Ot].
    apply bytes_ok_concat in Ob. unfold all_len in A.
    assert (B : Forall (isblock 16) bl) by (rewrite Forall_forall in *; intros y Hy; split; auto).
    rewrite <- Hs in *. rewrite (cmac_full_decomp HL 135 A L). apply (law_enc HL). apply xorl_block.
    - apply (chain_block HL); auto. apply zeros_block.
    - destruct (Nat.eqb_spec (length tail) (bsz c)).
      + apply xorl_block; [split; auto|apply double_block].
      + apply xorl_block; [apply pad2_isblock; auto; lia|apply double_block].
  Qed.
End eax.

Definition eax_ok (nsz : nat) (nonce pt ad : bytes) : Prop :=
  length nonce <= nsz /\ bytes_ok nonce /\ bytes_ok pt /\ bytes_ok ad.

Section props.
  Variable c : cipher.
  Variables nsz tsz : nat.
  Hypothesis HL : lawful c.
  Hypothesis Hs : bsz c = 16.
  Hypothesis Ht : tsz <= 16.

  Definition eax_t nonce ad ct : bytes :=
    firstn tsz (xorl (omac_t (enc c) 0 nonce) (xorl (omac_t (enc c) 1 ad) (omac_t (enc c) 2 ct))).
  Lemma tag_eq a b d : eax_tag tsz d a b = firstn tsz (xorl a (xorl b d)).
  Proof. unfold eax_tag. f_equal. rewrite (xorl_comm d), xorl_assoc. f_equal. apply xorl_comm. Qed.
  Lemma eax_t_len nonce ad ct : bytes_ok nonce -> bytes_ok ad -> bytes_ok ct -> length (eax_t nonce ad ct) = tsz.
  Proof.
    intros H1 H2 H3. unfold eax_t. rewrite firstn_length, !xorl_length.
    rewrite (proj1 (omact_block HL Hs 0 H1)), (proj1 (omact_block HL Hs 1 H2)), (proj1 (omact_block HL Hs 2 H3)). lia.
  Qed.
  Lemma seal_eq dst nonce pt ad : eax_ok nsz nonce pt ad ->
    eax_seal c nsz tsz dst nonce pt ad = Ok (dst ++ eax_spec c tsz nonce ad pt).
  Proof.
    intros (O1 & O2 & O3 & O4). unfold eax_seal. destruct (Nat.ltb_spec nsz (length nonce)); [lia|].
    rewrite !(omact_eq HL Hs) by (auto; lia). cbn [rbind].
    rewrite (omact_eq HL Hs) by (try lia; apply go_ctr_ok; auto). cbn [rbind]. rewrite tag_eq. reflexivity.
  Qed.
  Lemma open_eq dst nonce body tag ad : eax_ok nsz nonce body ad -> length tag = tsz ->
    eax_open c nsz tsz dst nonce (body ++ tag) ad =
    if bytes_eqb tag (eax_t nonce ad body) then Ok (firstn (length body) (dst ++ go_ctr c (omac_t (enc c) 0 nonce) body)) else Err.
  Proof.
    intros (O1 & O2 & O3 & O4) Lt. unfold eax_open. destruct (Nat.ltb_spec nsz (length nonce)); [lia|].
    rewrite app_length, Lt. destruct (Nat.ltb_spec (length body + tsz) tsz); [lia|].
    replace (length body + tsz - tsz) with (length body) by lia. cbv zeta.
    rewrite firstn_app_exact, skipn_app_exact by reflexivity.
    rewrite !(omact_eq HL Hs) by (auto; lia). cbn [rbind]. rewrite tag_eq. fold (eax_t nonce ad body). destruct (bytes_eqb _ _); reflexivity.
  Qed.
End props.

(** Seal appends the EAX ciphertext and tag; every accepted nonce length works. *)
Theorem C15_seal_computes : forall c nsz tsz dst nonce pt ad, lawful c -> bsz c = 16 -> tsz <= 16 -> eax_ok nsz nonce pt ad ->
  eax_seal c nsz tsz dst nonce pt ad = Ok (dst ++ eax_spec c tsz nonce ad pt).
Proof. intros. now apply seal_eq. Qed.
Print Assumptions C15_seal_computes.

(** With an empty dst, Open inverts Seal. *)
Theorem C15_roundtrip : forall c nsz tsz dst nonce pt ad, lawful c -> bsz c = 16 -> tsz <= 16 -> eax_ok nsz nonce pt ad ->
  exists ct, eax_seal c nsz tsz dst nonce pt ad = Ok (dst ++ ct) /\ length ct = length pt + tsz /\
    eax_open c nsz tsz [] nonce ct ad = Ok pt.
Proof.
  intros c nsz tsz dst nonce pt ad HL Hs Ht Hok. exists (eax_spec c tsz nonce ad pt).
  split; [now apply seal_eq|]. destruct Hok as (O1 & O2 & O3 & O4). unfold eax_spec.
  set (N := omac_t (enc c) 0 nonce). assert (Oc : bytes_ok (go_ctr c N pt)) by (apply go_ctr_ok; auto).
  pose proof (@eax_t_len c tsz HL Hs Ht nonce ad (go_ctr c N pt) O2 O4 Oc) as Lt.
  fold N in Lt. unfold eax_t in Lt. fold N in Lt. split; [rewrite app_length, go_ctr_length by auto; lia|].
  rewrite (open_eq HL Hs Ht) by (auto; repeat split; auto). unfold eax_t. fold N. rewrite bytes_eqb_refl.
  cbn [app]. rewrite go_ctr_inv by auto. f_equal. rewrite go_ctr_length by auto. apply firstn_all.
Qed.
Print Assumptions C15_roundtrip.

(** Open accepts only strings that Seal outputs for a text of which the result is a prefix of
    dst ++ text; with an empty dst the result is that text. *)
Theorem C15_opens_only_sealed : forall c nsz tsz dst nonce ct ad r, lawful c -> bsz c = 16 -> tsz <= 16 -> eax_ok nsz nonce ct ad ->
  eax_open c nsz tsz dst nonce ct ad = Ok r ->
  exists pt, eax_seal c nsz tsz [] nonce pt ad = Ok ct /\ r = firstn (length pt) (dst ++ pt).
Proof.
  intros c nsz tsz dst nonce ct ad r HL Hs Ht (O1 & O2 & O3 & O4) E.
  destruct (Nat.ltb_spec (length ct) tsz) as [Hlt|Hge].
  { exfalso. unfold eax_open in E. destruct (nsz <? length nonce); [discriminate|]. destruct (Nat.ltb_spec (length ct) tsz); [discriminate|lia]. }
  set (body := firstn (length ct - tsz) ct). set (tag := skipn (length ct - tsz) ct).
  assert (Ec : ct = body ++ tag) by (symmetry; apply firstn_skipn).
  assert (Lt : length tag = tsz) by (unfold tag; rewrite skipn_length; lia).
  assert (Ob : bytes_ok body) by now apply bytes_ok_firstn.
  rewrite Ec in E. rewrite (open_eq HL Hs Ht) in E by (auto; repeat split; auto).
  destruct (bytes_eqb tag _) eqn:Eb; [|discriminate]. apply bytes_eqb_eq in Eb.
  exists (go_ctr c (omac_t (enc c) 0 nonce) body). split.
  - rewrite seal_eq by (auto; repeat split; auto; apply go_ctr_ok; auto). unfold eax_spec. rewrite go_ctr_inv by auto.
    cbn [app]. f_equal. rewrite Ec, Eb. reflexivity.
  - assert (Er : Ok (firstn (length body) (dst ++ go_ctr c (omac_t (enc c) 0 nonce) body)) = Ok r) by exact E.
    injection Er as <-. now rewrite go_ctr_length by auto.
Qed.
Print Assumptions C15_opens_only_sealed.

(** With a non-empty dst, Open drops the last len(dst) bytes of the result. *)
Theorem C15_open_dst_refuted : forall c nsz tsz dst nonce pt ad, lawful c -> bsz c = 16 -> tsz <= 16 -> eax_ok nsz nonce pt ad ->
  exists ct, eax_seal c nsz tsz [] nonce pt ad = Ok ct /\
    eax_open c nsz tsz dst nonce ct ad = Ok (firstn (length pt) (dst ++ pt)) /\
    (dst <> [] -> firstn (length pt) (dst ++ pt) <> dst ++ pt).
Proof.
  intros c nsz tsz dst nonce pt ad HL Hs Ht Hok. destruct (C15_roundtrip [] HL Hs Ht Hok) as (ct & E1 & L & _). cbn [app] in E1.
  exists ct. split; [exact E1|]. rewrite seal_eq in E1 by auto. cbn [app] in E1. assert (Ec : ct = eax_spec c tsz nonce ad pt) by (injection E1; auto).
  clear E1. subst ct. destruct Hok as (O1 & O2 & O3 & O4). unfold eax_spec in *.
  set (N := omac_t (enc c) 0 nonce) in *. assert (Oc : bytes_ok (go_ctr c N pt)) by (apply go_ctr_ok; auto). split.
  - rewrite app_length, go_ctr_length in L by auto. rewrite (open_eq HL Hs Ht) by (try lia; repeat split; auto).
    unfold eax_t. fold N. rewrite bytes_eqb_refl, go_ctr_inv, go_ctr_length by auto. reflexivity.
  - intros Hd H. apply (f_equal (@length Z)) in H. rewrite firstn_length, app_length in H. destruct dst; [congruence|]. cbn [length] in H. lia.
Qed.
Print Assumptions C15_open_dst_refuted.

(** A tag size of zero passes the constructor; then every string opens: no authentication. *)
Theorem C15_zero_tag_refuted : forall c nonce ct ad nsz, lawful c -> bsz c = 16 -> eax_ok nsz nonce ct ad -> 1 <= nsz ->
  eax_new c (Z.of_nat nsz) 0 = Ok (Z.of_nat nsz, 0%Z) /\ exists pt, eax_open c nsz 0 [] nonce ct ad = Ok pt.
Proof.
  intros c nonce ct ad nsz HL Hs Hok Hn. split.
  - unfold eax_new. destruct (Z.ltb_spec (Z.of_nat nsz) 1); [lia|]. destruct (Z.ltb_spec (Z.of_nat (bsz c)) 0); [lia|reflexivity].
  - rewrite <- (app_nil_r ct). rewrite (open_eq HL Hs (tsz := 0)) by (auto; lia). cbn [eax_t firstn bytes_eqb]. eexists. reflexivity.
Qed.
Print Assumptions C15_zero_tag_refuted.

(** A cipher of another block size passes the constructor, then Seal panics. *)
Theorem C15_block_size_refuted : forall c nsz tsz dst nonce pt ad, lawful c -> bsz c <> 16 -> 1 <= nsz -> tsz <= bsz c ->
  eax_new c (Z.of_nat nsz) (Z.of_nat tsz) = Ok (Z.of_nat nsz, Z.of_nat tsz) /\ eax_seal c nsz tsz dst nonce pt ad = Panic.
Proof.
  intros c nsz tsz dst nonce pt ad HL Hs Hn Ht. split.
  - unfold eax_new. destruct (Z.ltb_spec (Z.of_nat nsz) 1); [lia|]. destruct (Z.ltb_spec (Z.of_nat (bsz c)) (Z.of_nat tsz)); [lia|reflexivity].
  - unfold eax_seal, eax_omact, eax_omac, GfnDouble. destruct (nsz <? length nonce); [reflexivity|].
    destruct (L_block HL) as [L1 _]. unfold zeros in L1. rewrite L1. destruct (Nat.eqb_spec (bsz c) 16); [congruence|]. reflexivity.
Qed.
Print Assumptions C15_block_size_refuted.

(** Guards. *)
Theorem C15_guards : forall c nsz tsz dst nonce x ad,
  (nsz < length nonce -> eax_seal c nsz tsz dst nonce x ad = Panic /\ eax_open c nsz tsz dst nonce x ad = Panic) /\
  (length nonce <= nsz -> length x < tsz -> eax_open c nsz tsz dst nonce x ad = Err).
Proof.
  intros. unfold eax_seal, eax_open. split.
  - intro H. destruct (Nat.ltb_spec nsz (length nonce)); [auto|lia].
  - intros H1 H2. destruct (Nat.ltb_spec nsz (length nonce)); [lia|]. destruct (Nat.ltb_spec (length x) tsz); [reflexivity|lia].
Qed.
Print Assumptions C15_guards.

Example C15_instance : lawful (toyn 16) /\ eax_ok 16 [1; 2; 3]%Z (map Z.of_nat (seq 0 37)) [5; 6]%Z /\
  exists ct, eax_seal (toyn 16) 16 12 [] [1; 2; 3]%Z (map Z.of_nat (seq 0 37)) [5; 6]%Z = Ok ct /\ length ct = 49 /\
    eax_open (toyn 16) 16 12 [] [1; 2; 3]%Z ct [5; 6]%Z = Ok (map Z.of_nat (seq 0 37)) /\
    eax_open (toyn 16) 16 12 [] [1; 2; 3]%Z ct [5; 7]%Z = Err /\
    eax_open (toyn 16) 16 12 [255]%Z [1; 2; 3]%Z ct [5; 6]%Z = Ok (255%Z :: map Z.of_nat (seq 0 36)).
Proof.
  split; [apply toyn_lawful; lia|]. split.
  - split; [cbn; lia|]. split; [repeat constructor; unfold is_byte; lia|]. split; [|repeat constructor; unfold is_byte; lia].
    apply Forall_forall. intros x Hx. apply in_map_iff in Hx as (y & <- & Hy). apply in_seq in Hy. unfold is_byte. lia.
  - eexists. split; [vm_compute; reflexivity|]. repeat split; vm_compute; reflexivity.
Qed.
