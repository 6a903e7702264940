(** Proofs for BIGN and deterministic ECDSA. *)
From Verif Require Import Base BigModel NumLib ModRw ElgProofs CurveModel CurveSpec EcSigModel EcSigSpec EcSigProofs EcSigProofs2 Hash3Model Ec2Model Ec2Spec Ec2Proofs.
Set Implicit Arguments. Unset Strict Implicit.
Local Open Scope Z_scope.

Lemma rev_be n z : rev (be_bytes n z) = le_bytes n z.
Proof. apply rev_involutive. Qed.
Lemma be_val_rev l : be_val (rev l) = le_val l.
Proof. unfold be_val. now rewrite rev_involutive. Qed.
Lemma gocopy_full (A : Type) (a b : list A) : length a = length b -> gocopy a b = b.
Proof. intros H. unfold gocopy. rewrite <- H, skipn_all, app_nil_r, H. apply firstn_all. Qed.
Lemma fill_abs n x : Z.abs x < 256 ^ Z.of_nat n -> fill_bytes n x = Ok (be_bytes n (Z.abs x)).
Proof. intros H. unfold fill_bytes. destruct (Z.ltb_spec (Z.abs x) (256 ^ Z.of_nat n)); [reflexivity|lia]. Qed.
Lemma fill_abs_panics n x : 256 ^ Z.of_nat n <= Z.abs x -> fill_bytes n x = Panic.
Proof. intros H. unfold fill_bytes. destruct (Z.ltb_spec (Z.abs x) (256 ^ Z.of_nat n)); [lia|reflexivity]. Qed.
Lemma le_val_fit n z : 0 <= z < 256 ^ Z.of_nat n -> le_val (le_bytes n z) = z.
Proof. intros H. rewrite le_val_bytes. now apply Z.mod_small. Qed.
Lemma shl_256 n : Z.shiftl 1 (8 * Z.of_nat n) = 256 ^ Z.of_nat n.
Proof. rewrite Z.shiftl_mul_pow2, Z.mul_1_l by lia. change 256 with (2 ^ 8). now rewrite <- Z.pow_mul_r by lia. Qed.

Section bign.
Variable (c : curve) (pt : Z -> Z * Z) (L : lawful_curve c pt) (Sz : sized c).
Variable (h : hasher) (Hh : hasher_ok h) (bh : bytes -> bytes).
Notation N := (cN c).
Notation l := (Nat.div (flen c) 2).
Hypothesis Hbh : forall m, bytes_ok (bh m) /\ (l <= length (bh m))%nat.
Hypothesis Hhs : (l <= hsize h)%nat.
Hypothesis Hpl : (l <= plen c)%nat.

Definition bS0 (oid hd : bytes) (W : Z * Z) : bytes := firstn l (bh (oid ++ firstn (2 * l) (point_le (plen c) W) ++ hd)).
Lemma bS0_len oid hd W : length (bS0 oid hd W) = l /\ bytes_ok (bS0 oid hd W).
Proof. unfold bS0. split; [apply firstn_length_le; apply Hbh|apply bytes_ok_firstn, Hbh]. Qed.
Lemma bign_s0_eq adata oid hd k : get_oid adata = Ok oid -> bign_s0 bh c h adata hd (pt k) = Ok (bS0 oid hd (pt k)).
Proof.
  intros E. unfold bign_s0. rewrite E. cbn [rbind]. destruct (coord_fits L k) as [Hx Hy]. rewrite !fill_bytes_fits by auto. cbn [rbind].
  rewrite !rev_be. destruct (Nat.ltb_spec (2 * plen c) (2 * l)); [lia|].
  rewrite Nat.min_l by exact Hhs. fold (point_le (plen c) (pt k)). set (m := oid ++ _). destruct (Nat.ltb_spec (length (bh m)) l); [pose proof (Hbh m); lia|].
  rewrite gocopy_full; [reflexivity|]. rewrite repeat_length, firstn_length_le; [reflexivity|apply Hbh].
Qed.

Definition bign_s1 (D : Z) (hd s0 : bytes) (k : Z) : Z := (k - le_val hd - (le_val s0 + 256 ^ Z.of_nat l) * D) mod N.
Lemma bign_sign_k_eq key msg adata oid k : get_oid adata = Ok oid -> 0 <= k < N ->
  let hd := hsum h msg in let s0 := bS0 oid hd (pt k) in
  bign_sign_k bh c h k key msg adata = Ok (be_val s0, be_val (le_bytes (flen c) (bign_s1 (eD key) hd s0 k))).
Proof.
  intros E Hk hd s0. unfold bign_sign_k. rewrite (base_pt L) by lia. fold hd. rewrite (bign_s0_eq _ _ E). fold s0. cbn [rbind].
  rewrite shl_256, !be_val_rev. set (s1 := (((k - _) mod N - _) mod N)). assert (E1 : s1 = bign_s1 (eD key) hd s0 k).
  { unfold s1, bign_s1. to_zq. rewrite !zq_mod. replace (k - le_val hd - (le_val s0 + 256 ^ Z.of_nat l) * eD key) with (k - (le_val s0 + 256 ^ Z.of_nat l) * eD key - le_val hd) by ring. reflexivity. }
  rewrite E1. rewrite fill_bytes_fits by (apply (flen_N (c := c)); [exact Sz|apply (modN L)]). cbn [rbind]. now rewrite rev_be.
Qed.
Lemma bign_cong D hd s0 s1 k : s1 = bign_s1 D hd s0 k -> D * (((256 ^ Z.of_nat l) mod N + le_val s0) mod N) + (le_val hd mod N + s1) mod N =[N]= k.
Proof.
  intros ->. unfold bign_s1. to_zq. rewrite !zq_mod.
  replace (D * (256 ^ Z.of_nat l + le_val s0) + (le_val hd + (k - le_val hd - (le_val s0 + 256 ^ Z.of_nat l) * D))) with k by ring. reflexivity.
Qed.
Lemma bign_cong2 D hd s0 s1 : 0 <= s1 < N -> s1 = bign_s1 D hd s0 ((D * (((256 ^ Z.of_nat l) mod N + le_val s0) mod N) + (le_val hd mod N + s1) mod N) mod N).
Proof.
  intros H. unfold bign_s1. apply mod_eq_small; [lia|]. to_zq. rewrite !zq_mod.
  replace (D * (256 ^ Z.of_nat l + le_val s0) + (le_val hd + s1) - le_val hd - (le_val s0 + 256 ^ Z.of_nat l) * D) with s1 by ring. reflexivity.
Qed.
Lemma bign_verify_eq key msg adata oid r s : straight_key c pt key -> get_oid adata = Ok oid ->
  bign_verify bh c h (ePub key) msg adata r s = Ok true <->
  Z.abs r < 256 ^ Z.of_nat l /\ 0 < s < 256 ^ Z.of_nat (flen c) /\
  bign_pair N pt (eD key) l (flen c) (bS0 oid (hsum h msg)) (hsum h msg) (be_bytes l (Z.abs r)) (be_bytes (flen c) s).
Proof.
  intros K E. unfold bign_verify. rewrite (straight_on L K). cbn [negb]. destruct K as [HD ->]. pose proof (N_pos L) as HN.
  destruct (Z.leb_spec s 0); [split; [discriminate|lia]|].
  destruct (Z.ltb_spec (Z.abs r) (256 ^ Z.of_nat l)) as [Hr|Hr].
  2:{ rewrite fill_abs_panics by lia. cbn [rbind]. split; [discriminate|lia]. }
  rewrite fill_abs by lia. cbn [rbind].
  destruct (Z.ltb_spec s (256 ^ Z.of_nat (flen c))) as [Hs|Hs].
  2:{ rewrite (fill_bytes_panics (x := s)) by lia. cbn [rbind]. split; [discriminate|lia]. }
  rewrite (fill_bytes_fits (x := s)) by lia. cbn [rbind]. rewrite !be_val_rev, shl_256. set (rb := be_bytes l (Z.abs r)). set (sb := be_bytes (flen c) s).
  set (hd := hsum h msg). assert (Hsb : 0 <= le_val sb) by (pose proof (le_val_bound (be_bytes_ok (flen c) s)); unfold sb; lia).
  destruct (Z.leb_spec N (le_val sb)) as [Hb|Hb].
  { split; [discriminate|]. intros (_ & _ & k & Hk & _ & Es). rewrite Es, le_val_fit in Hb; [|apply (flen_N Sz), (modN L)]. pose proof (modN L (k - le_val hd - (le_val rb + 256 ^ Z.of_nat l) * eD key)). lia. }
  rewrite (lin_pt L) by apply (modN L). set (k := (eD key * (((256 ^ Z.of_nat l) mod N + le_val rb) mod N) + (le_val hd mod N + le_val sb) mod N) mod N).
  replace (pt (eD key * _ + _)) with (pt k) by (apply (lc_mod L)). rewrite (bign_s0_eq _ _ E), Nat.min_l by exact Hhs.
  rewrite fill_abs by lia. cbn [rbind]. fold rb. rewrite (gocopy_full (b := rb)) by (unfold rb; now rewrite repeat_length, be_bytes_length).
  split.
  - intros [= B]. apply beq_true in B. split; [lia|]. split; [lia|]. exists k. split; [apply (modN L)|]. split; [now symmetry|].
    pose proof (bign_cong2 (eD key) hd rb (conj Hsb Hb)) as E1. fold k in E1. unfold bign_s1 in E1. rewrite <- E1.
    symmetry. apply le_bytes_val; [apply be_bytes_ok|apply be_bytes_length].
  - intros (_ & _ & k' & Hk & E1 & E2). f_equal. apply beq_true.
    assert (E3 : le_val sb = bign_s1 (eD key) hd rb k') by (rewrite E2, le_val_fit; [reflexivity|apply (flen_N Sz), (modN L)]).
    apply bign_cong in E3. replace (pt k) with (pt k'); [now symmetry|]. apply (pt_cong L). unfold k. now rewrite Z.mod_mod by lia.
Qed.
Lemma bign_verify_panics key msg adata oid r s : straight_key c pt key -> get_oid adata = Ok oid ->
  (bign_verify bh c h (ePub key) msg adata r s = Panic <-> 0 < s /\ (256 ^ Z.of_nat l <= Z.abs r \/ 256 ^ Z.of_nat (flen c) <= s)).
Proof.
  intros K E. unfold bign_verify. rewrite (straight_on L K). cbn [negb]. destruct K as [HD ->]. pose proof (N_pos L) as HN.
  destruct (Z.leb_spec s 0); [split; [discriminate|lia]|].
  destruct (Z.ltb_spec (Z.abs r) (256 ^ Z.of_nat l)) as [Hr|Hr].
  2:{ rewrite fill_abs_panics by lia. cbn [rbind]. split; [lia|reflexivity]. }
  rewrite fill_abs by lia. cbn [rbind].
  destruct (Z.ltb_spec s (256 ^ Z.of_nat (flen c))) as [Hs|Hs].
  2:{ rewrite (fill_bytes_panics (x := s)) by lia. cbn [rbind]. split; [lia|reflexivity]. }
  rewrite (fill_bytes_fits (x := s)) by lia. cbn [rbind]. destruct (_ <=? _); [split; [discriminate|lia]|].
  rewrite (lin_pt L) by apply (modN L). rewrite (bign_s0_eq _ _ E), Nat.min_l by exact Hhs. rewrite fill_abs by lia. cbn [rbind]. split; [discriminate|lia].
Qed.
End bign.

(** ** The deterministic nonce of BIGN *)
Lemma splice_mid (A : Type) (a b d e : list A) o : length a = o -> length b = length d -> splice o d (a ++ b ++ e) = a ++ d ++ e.
Proof.
  intros <- H. unfold splice. rewrite firstn_app_exact by reflexivity. rewrite <- H. f_equal. f_equal. rewrite app_assoc. apply skipn_app_exact.
  now rewrite app_length.
Qed.
Lemma slice_mid (A : Type) (a b d : list A) o n : length a = o -> length b = n -> slice o n (a ++ b ++ d) = b.
Proof. intros <- <-. unfold slice. rewrite skipn_app_exact by reflexivity. now apply firstn_app_exact. Qed.
Lemma slices_blocks (bs : list bytes) e : all_len 16 bs -> map (fun j => slice (16 * j) 16 (concat bs ++ e)) (seq 0 (length bs)) = bs.
Proof.
  induction bs as [|b bs IH]; intros H; [reflexivity|]. inversion_clear H as [|? ? Hb Hbs]. cbn [length seq map concat].
  rewrite <- !app_assoc. f_equal.
  - change (16 * 0)%nat with 0%nat. unfold slice. cbn [skipn]. now apply firstn_app_exact.
  - rewrite <- seq_shift, map_map. transitivity (map (fun j => slice (16 * j) 16 (concat bs ++ e)) (seq 0 (length bs))); [|exact (IH Hbs)]. apply map_ext_in. intros j _. unfold slice.
    replace (16 * S j)%nat with (length b + 16 * j)%nat by lia. rewrite <- skipn_skipn'. now rewrite skipn_app_exact.
Qed.
Lemma fold_slices (r : bytes) js a : fold_left (fun s j => xorl s (slice (16 * j) 16 r)) js a = fold_left xorl (map (fun j => slice (16 * j) 16 r) js) a.
Proof. revert a. induction js; intros; cbn [fold_left map]; auto. Qed.
Lemma xors_len bs a : all_len 16 bs -> length a = 16%nat -> length (fold_left xorl bs a) = 16%nat.
Proof. revert a. induction bs as [|b bs IH]; intros a H Ha; [exact Ha|]. inversion_clear H. cbn [fold_left]. apply IH; auto. rewrite xorl_length. lia. Qed.
Lemma le_bytes_16 i : 0 <= i < 4294967296 -> le_bytes 4 i ++ repeat 0 12 = le_bytes 16 i.
Proof.
  intros H. assert (E : i / 256 / 256 / 256 / 256 = 0) by (rewrite !Z.div_div by lia; apply Z.div_small; lia).
  unfold le_bytes at 2. fold le_bytes. cbn [le_bytes]. rewrite E. reflexivity.
Qed.
Lemma blocks_shape (bs : list bytes) n : length bs = n -> (2 <= n)%nat -> exists b1 mid bn, bs = b1 :: mid ++ [bn] /\ length mid = (n - 2)%nat.
Proof.
  intros H Hn. destruct bs as [|b1 t]; cbn in H; [lia|]. destruct (@exists_last _ t) as (mid & bn & E); [intros ->; cbn in H; lia|].
  exists b1, mid, bn. rewrite E in *. split; auto. rewrite app_length in H. cbn in H. lia.
Qed.
Section nonce.
Variable (bl : bytes -> bytes -> bytes) (theta : bytes).
Hypothesis Hbl : forall b, length (bl theta b) = 16%nat.
Lemma stb_step_len i bs n : all_len 16 bs -> length bs = n -> (2 <= n)%nat -> all_len 16 (stb_step (bl theta) i bs) /\ length (stb_step (bl theta) i bs) = n.
Proof.
  intros Ha Hl Hn. destruct (blocks_shape Hl Hn) as (b1 & mid & bn & -> & Hm). unfold stb_step.
  rewrite app_comm_cons, removelast_last, last_last. cbn [tl].
  unfold all_len in *. rewrite app_comm_cons, Forall_app in Ha. destruct Ha as [Ha Hb]. inversion_clear Ha. inversion_clear Hb.
  split.
  - apply Forall_app. split; [assumption|]. constructor; [|constructor; [|constructor]].
    + rewrite !xorl_length, Hbl, le_bytes_length. lia.
    + apply xors_len; [constructor; assumption|now rewrite repeat_length].
  - rewrite app_length. cbn [length]. lia.
Qed.
Lemma bign_pass_eq n i bs e : all_len 16 bs -> length bs = n -> (2 <= n)%nat -> 0 <= i < 4294967296 ->
  bign_pass bl theta n i (concat bs ++ e) = concat (stb_step (bl theta) i bs) ++ e.
Proof.
  intros Ha Hl Hn Hi. destruct (blocks_shape Hl Hn) as (b1 & mid & bn & E & Hm). subst bs.
  pose proof Ha as Ha0. unfold all_len in Ha. rewrite app_comm_cons, Forall_app in Ha. destruct Ha as [Ha Hb].
  assert (Hbn : length bn = 16%nat) by (now inversion Hb). pose proof Ha as Hbm. inversion_clear Ha as [|? ? Hb1 Hmid].
  unfold bign_pass, stb_step. rewrite app_comm_cons, removelast_last, last_last. cbn [tl].
  assert (Es : bign_xor n (concat (b1 :: mid ++ [bn]) ++ e) = fold_left xorl (b1 :: mid) (repeat 0 16)).
  { unfold bign_xor. rewrite fold_slices. f_equal. rewrite app_comm_cons, concat_app, <- app_assoc.
    replace (n - 1)%nat with (length (b1 :: mid)) by (cbn [length]; lia). now apply slices_blocks. }
  set (s := fold_left xorl (b1 :: mid) (repeat 0 16)) in *. rewrite app_comm_cons in Es.
  assert (Hs : length s = 16%nat) by (apply xors_len; [exact Hbm|apply repeat_length]).
  rewrite Es. replace (concat ((b1 :: mid) ++ [bn]) ++ e) with (b1 ++ concat mid ++ bn ++ e)
    by (cbn [app concat]; rewrite concat_app; cbn [concat]; rewrite app_nil_r, <- !app_assoc; reflexivity).
  set (M := concat mid). assert (HM : length M = (16 * (n - 2))%nat) by (unfold M; rewrite (concat_all_len Hmid); lia).
  rewrite (@slice_mid _ b1 M (bn ++ e)) by lia.
  set (X := skipn (length M) (b1 ++ M)). assert (HX : length X = 16%nat) by (unfold X; rewrite skipn_length, app_length; lia).
  assert (E1 : splice 0 M (b1 ++ M ++ bn ++ e) = M ++ X ++ bn ++ e).
  { unfold splice. cbn [firstn app Nat.add]. f_equal. unfold X. rewrite app_assoc, skipn_app.
    replace (length M - length (b1 ++ M))%nat with 0%nat by (rewrite app_length; lia). reflexivity. }
  rewrite E1. rewrite (@splice_mid _ M X (bl theta s)) by (rewrite ?Hbl; lia).
  rewrite (@slice_mid _ M (bl theta s) (bn ++ e)) by (rewrite ?Hbl; lia).
  assert (E2 : slice ((n - 1) * 16) 16 (M ++ bl theta s ++ bn ++ e) = bn).
  { rewrite (app_assoc M). apply slice_mid; [rewrite app_length, Hbl; lia|exact Hbn]. }
  rewrite E2, le_bytes_16 by exact Hi. set (x := xorl _ _). assert (Hx : length x = 16%nat) by (unfold x; rewrite !xorl_length, Hbl, le_bytes_length; lia).
  rewrite (@splice_mid _ M (bl theta s) x) by (rewrite ?Hbl; lia).
  rewrite (app_assoc M). rewrite (@splice_mid _ (M ++ x) bn s) by (rewrite ?app_length; lia).
  rewrite concat_app. cbn [concat]. rewrite app_nil_r, <- !app_assoc. reflexivity.
Qed.
Definition stb_cand (qbits : nat) (bs : list bytes) : Z := le_val (concat bs) mod 2 ^ Z.of_nat qbits.
Lemma le_val_firstn n (b : bytes) : bytes_ok b -> le_val (firstn n b) = le_val b mod 256 ^ Z.of_nat n.
Proof.
  intros H. destruct (Nat.leb_spec (length b) n) as [Hn|Hn].
  - rewrite firstn_all2 by lia. pose proof (le_val_bound H). rewrite Z.mod_small; [reflexivity|].
    assert (256 ^ Z.of_nat (length b) <= 256 ^ Z.of_nat n) by (apply Z.pow_le_mono_r; lia). lia.
  - rewrite <- (firstn_skipn n b) at 2. rewrite <- (rev_involutive (firstn n b ++ _)), rev_app_distr.
    fold (be_val (rev (skipn n b) ++ rev (firstn n b))). change (le_val (rev (rev (skipn n b) ++ rev (firstn n b)))) with (be_val (rev (skipn n b) ++ rev (firstn n b))).
    rewrite be_val_app, rev_length, firstn_length_le, !be_val_rev by lia.
    pose proof (le_val_bound (bytes_ok_firstn n H)) as B. rewrite firstn_length_le in B by lia.
    rewrite Z.add_comm, Z.mod_add by lia. now rewrite Z.mod_small.
Qed.
Lemma bign_cand_eq qbits n bs e : (qbits mod 8 = 0)%nat -> all_len 16 bs -> length bs = n -> Forall bytes_ok bs ->
  bign_cand qbits n (concat bs ++ e) = stb_cand qbits bs.
Proof.
  intros Hq Ha Hl Ho. unfold bign_cand, stb_cand. assert (Hc : length (concat bs) = (n * 16)%nat) by (rewrite (concat_all_len Ha); lia).
  assert (Ho' : bytes_ok (concat bs)) by (clear - Ho; induction Ho; cbn [concat]; [constructor|apply bytes_ok_app; auto]).
  apply Nat.mod_divides in Hq as [m ->]; [|lia]. replace (byteceil (8 * m)) with m by (unfold byteceil; rewrite (Nat.mul_comm 8), Nat.div_add_l by lia; cbn; lia).
  replace (2 ^ Z.of_nat (8 * m)) with (256 ^ Z.of_nat m) by (rewrite Nat2Z.inj_mul; change 256 with (2 ^ 8); now rewrite <- Z.pow_mul_r by lia).
  rewrite (Nat.mul_comm 8 m), Nat.mod_mul by lia. cbn [Nat.eqb].
  destruct (Nat.ltb_spec m (n * 16)) as [Hm|Hm]; rewrite be_val_rev.
  - rewrite firstn_app. replace (m - length (concat bs))%nat with 0%nat by lia. cbn [firstn]. rewrite app_nil_r. now apply le_val_firstn.
  - rewrite firstn_app_exact by exact Hc. pose proof (le_val_bound Ho') as B. rewrite Z.mod_small; [reflexivity|].
    assert (256 ^ Z.of_nat (length (concat bs)) <= 256 ^ Z.of_nat m) by (apply Z.pow_le_mono_r; lia). lia.
Qed.
Hypothesis Hblo : forall b, bytes_ok (bl theta b).
Lemma stb_step_ok i bs n : Forall bytes_ok bs -> length bs = n -> (2 <= n)%nat -> Forall bytes_ok (stb_step (bl theta) i bs).
Proof.
  intros Ho Hl Hn. destruct (blocks_shape Hl Hn) as (b1 & mid & bn & -> & Hm). unfold stb_step.
  rewrite app_comm_cons, removelast_last, last_last. cbn [tl]. rewrite app_comm_cons, Forall_app in Ho. destruct Ho as [Ho Hb]. inversion_clear Hb.
  apply Forall_app. split; [now inversion_clear Ho|]. constructor; [|constructor; [|constructor]].
  - apply xorl_ok; auto. apply xorl_ok; auto. apply le_bytes_ok.
  - assert (G : forall ls a, Forall bytes_ok ls -> bytes_ok a -> bytes_ok (fold_left xorl ls a)).
    { induction ls as [|b ls IH]; intros a Hls Ha; [exact Ha|]. inversion_clear Hls. cbn [fold_left]. apply IH; auto. now apply xorl_ok. }
    apply G; auto. apply bytes_ok_repeat. unfold is_byte. lia.
Qed.
Lemma bign_loop_eq q qbits n fuel : (qbits mod 8 = 0)%nat -> (2 <= n)%nat -> forall i bs e k, all_len 16 bs -> length bs = n -> Forall bytes_ok bs -> 1 <= i -> i < 4294967295 ->
  bign_loop bl fuel theta q qbits n i (concat bs ++ e) = Ok k ->
  exists m, (1 <= m)%nat /\ 2 * Z.of_nat n < i + Z.of_nat m /\ k = stb_cand qbits (stb_steps (bl theta) m i bs) /\ 0 < k < q /\
    forall m', (1 <= m' < m)%nat -> 2 * Z.of_nat n < i + Z.of_nat m' -> ~ 0 < stb_cand qbits (stb_steps (bl theta) m' i bs) < q.
Proof.
  intros Hq Hn. induction fuel as [|f IH]; intros i bs e k Ha Hl Ho Hi Hi2; cbn [bign_loop]; [discriminate|].
  rewrite (bign_pass_eq e Ha Hl Hn) by lia. destruct (stb_step_len i Ha Hl Hn) as [Ha' Hl']. pose proof (stb_step_ok i Ho Hl Hn) as Ho'.
  set (bs' := stb_step (bl theta) i bs) in *. rewrite (bign_cand_eq e Hq Ha' Hl' Ho').
  assert (Hc : 0 <= stb_cand qbits bs') by (unfold stb_cand; apply Z.mod_pos_bound, Z.pow_pos_nonneg; lia).
  destruct ((2 * Z.of_nat n <=? i) && (stb_cand qbits bs' <? q) && negb (stb_cand qbits bs' =? 0)) eqn:T.
  - intros [= <-]. apply andb_prop in T as [T T3]. apply andb_prop in T as [T1 T2]. apply Z.leb_le in T1. apply Z.ltb_lt in T2. apply negb_true_iff, Z.eqb_neq in T3.
    exists 1%nat. cbn [stb_steps]. fold bs'. split; [lia|]. split; [lia|]. split; [reflexivity|]. split; [lia|]. lia.
  - destruct (Z.leb_spec 4294967295 (i + 1)); [discriminate|]. intros E.
    destruct (IH (i + 1) bs' e k Ha' Hl' Ho' ltac:(lia) ltac:(lia) E) as (m & Hm & H2 & Ek & Hk & Hmin).
    exists (S m). cbn [stb_steps]. fold bs'. split; [lia|]. split; [lia|]. split; [exact Ek|]. split; [exact Hk|].
    intros m' Hm' H2'. destruct m' as [|m']; [lia|]. cbn [stb_steps]. fold bs'. destruct m' as [|m'].
    + cbn [stb_steps]. intros Hr. rewrite (proj2 (Z.leb_le _ _)) in T by lia. rewrite (proj2 (Z.ltb_lt _ _)) in T by lia.
      rewrite (proj2 (Z.eqb_neq _ _)) in T by lia. discriminate.
    + apply Hmin; lia.
Qed.
End nonce.
