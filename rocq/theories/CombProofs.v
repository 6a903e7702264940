(** Proofs about tool/math, cascade and lion. *)
From Verif Require Import Base BlockModeModel BlkSpec CipherLaws HbufProofs CombModel.
From Coq Require Import Lia Znumtheory.
Set Implicit Arguments. Unset Strict Implicit.
Local Open Scope Z_scope.

Lemma i64_id x : - 2 ^ 63 <= x < 2 ^ 63 -> i64 x = x.
Proof. intros H. unfold i64. rewrite Z.mod_small by lia. lia. Qed.
Lemma rem_lt a b : b <> 0 -> Z.abs (Z.rem a b) < Z.abs b.
Proof. intros. apply Z.rem_bound_abs. auto. Qed.
Lemma gcd_rem a b : b <> 0 -> Z.gcd b (Z.rem a b) = Z.gcd a b.
Proof.
  intros N. pose proof (Z.quot_rem' a b) as Q. replace (Z.rem a b) with (a + (- Z.quot a b) * b) by lia.
  rewrite Z.gcd_add_mult_diag_r, Z.gcd_comm. reflexivity.
Qed.
Lemma gcd_rec_ok fuel : forall a b, (Z.abs_nat b < fuel)%nat -> exists g, gcd_rec fuel a b = Some g /\ Z.abs g = Z.gcd a b /\ (0 <= a -> 0 <= b -> 0 <= g).
Proof.
  induction fuel as [|f IH]; intros a b F; [lia|]. cbn [gcd_rec]. destruct (Z.eqb_spec b 0) as [->|N].
  - exists a. split; auto. split; [now rewrite Z.gcd_0_r|auto].
  - pose proof (rem_lt a N). destruct (IH b (Z.rem a b) ltac:(lia)) as (g & E & G & P). exists g. split; auto. split; [rewrite G; now apply gcd_rem|].
    intros A B. apply P; auto. apply Z.rem_nonneg; auto.
Qed.
(** Extended, with the bounds that keep int64 from wrapping *)
Definition M63 := 2 ^ 63.
Lemma extended_ok fuel : forall a b, 0 <= a < M63 -> 0 <= b < M63 -> (Z.to_nat a < fuel)%nat ->
  exists x y, extended fuel a b = Some (Z.gcd a b, x, y) /\ a * x + b * y = Z.gcd a b /\ Z.abs x <= Z.max 1 b /\ Z.abs y <= Z.max 1 a /\ (a = 0 -> x = 0 /\ y = 1).
Proof.
  unfold M63. induction fuel as [|f IH]; intros a b A B F; [lia|]. cbn [extended]. destruct (Z.eqb_spec a 0) as [->|N].
  - exists 0, 1. rewrite Z.gcd_0_l, Z.abs_eq by lia. split; auto. lia.
  - rewrite Z.rem_mod_nonneg, Z.quot_div_nonneg by lia. pose proof (Z.mod_pos_bound b a ltac:(lia)) as MB. pose proof (Z.div_mod b a N) as DM. assert (D0 : 0 <= b / a) by (apply Z.div_pos; lia).
    destruct (IH (b mod a) a ltac:(lia) ltac:(lia) ltac:(lia)) as (x' & y' & E & Bz & Bx & By & Z0). rewrite E.
    assert (G : Z.gcd (b mod a) a = Z.gcd a b) by (rewrite Z.gcd_mod by auto; apply Z.gcd_comm || reflexivity).
    assert (Q : b / a < 2 ^ 63) by (apply Z.div_lt_upper_bound; nia). rewrite (@i64_id (b / a)) by lia.
    assert (Bnd : Z.abs (b / a * x') <= b /\ Z.abs (y' - b / a * x') <= Z.max 1 b).
    { destruct (Z.eq_dec (b mod a) 0) as [M0|M0].
      - destruct (Z0 M0) as [-> ->]. lia.
      - assert (Z.abs (b / a * x') <= b / a * a) by (rewrite Z.abs_mul, (Z.abs_eq (b / a)) by lia; nia). lia. }
    destruct Bnd as [Bn1 Bn2]. rewrite (@i64_id (b / a * x')) by lia. rewrite i64_id by lia. rewrite G in *.
    exists (y' - b / a * x'), x'. split; [reflexivity|]. split; [assert (K : b * x' = (a * (b / a) + b mod a) * x') by (f_equal; exact DM); rewrite K, <- Bz; ring|]. split; [exact Bn2|]. split; [lia|]. lia.
Qed.
Lemma extended_rec_ok fuel : forall a b, 0 <= a < M63 -> 0 <= b < M63 -> (Z.to_nat b < fuel)%nat ->
  exists x y, extended_rec fuel a b = Some (Z.gcd a b, x, y) /\ a * x + b * y = Z.gcd a b /\ Z.abs x <= Z.max 1 b /\ Z.abs y <= Z.max 1 a /\ (b = 0 -> x = 1 /\ y = 0).
Proof.
  unfold M63. induction fuel as [|f IH]; intros a b A B F; [lia|]. cbn [extended_rec]. destruct (Z.ltb_spec 0 b) as [N|N].
  2:{ assert (b = 0) by lia. subst b. exists 1, 0. rewrite Z.gcd_0_r, Z.abs_eq by lia. split; auto. lia. }
  rewrite Z.rem_mod_nonneg, Z.quot_div_nonneg by lia. pose proof (Z.mod_pos_bound a b ltac:(lia)) as MB. pose proof (Z.div_mod a b ltac:(lia)) as DM. assert (D0 : 0 <= a / b) by (apply Z.div_pos; lia).
  destruct (IH b (a mod b) ltac:(lia) ltac:(lia) ltac:(lia)) as (y & x & E & Bz & By & Bx & Z0). rewrite E.
  assert (G : Z.gcd b (a mod b) = Z.gcd a b) by (rewrite Z.gcd_comm, Z.gcd_mod by lia; apply Z.gcd_comm).
  assert (Q : a / b < 2 ^ 63) by (apply Z.div_lt_upper_bound; nia). rewrite (@i64_id (a / b)) by lia.
  assert (Bnd : Z.abs (a / b * x) <= a /\ Z.abs (y - a / b * x) <= Z.max 1 a).
  { destruct (Z.eq_dec (a mod b) 0) as [M0|M0].
    - destruct (Z0 M0) as [-> ->]. lia.
    - assert (Z.abs (a / b * x) <= a / b * b) by (rewrite Z.abs_mul, (Z.abs_eq (a / b)) by lia; nia). lia. }
  destruct Bnd as [Bn1 Bn2]. rewrite (@i64_id (a / b * x)) by lia. rewrite i64_id by lia. rewrite G in *.
  exists x, (y - a / b * x). split; [reflexivity|]. split; [assert (K : a * x = (b * (a / b) + a mod b) * x) by (f_equal; exact DM); rewrite K, <- Bz; ring|]. split; [lia|]. split; [exact Bn2|]. lia.
Qed.
(** the invariant of the loop: the cofactors alternate in sign, and both numbers are combinations *)
Lemma mag e X : e = 1 \/ e = -1 -> 0 <= X < M63 -> i64 (e * X) = e * X /\ i64 (- e * X) = - e * X.
Proof. unfold M63. intros [->| ->] H; rewrite !i64_id by lia; lia. Qed.
Lemma ext_loop_ok a0 b0 fuel : 0 <= a0 < M63 -> 0 <= b0 < M63 -> forall e U V X Y a b, e = 1 \/ e = -1 -> 0 <= U < M63 -> 0 <= V < M63 -> 0 <= X < M63 -> 0 <= Y < M63 ->
  0 <= a < M63 -> 0 <= b < M63 -> (Z.to_nat a < fuel)%nat -> Z.gcd a b = Z.gcd a0 b0 -> U * b + X * a = b0 -> V * b + Y * a = a0 ->
  b = - e * X * a0 + e * Y * b0 -> a = e * U * a0 - e * V * b0 ->
  exists x' y', ext_loop fuel a b (e * U) (e * Y) (- e * V) (- e * X) = Some (Z.gcd a0 b0, x', y') /\ a0 * x' + b0 * y' = Z.gcd a0 b0.
Proof.
  intros A0 B0. induction fuel as [|f IH]; intros e U V X Y a b He HU HV HX HY HA HB F G I1 I2 Eb Ea; [lia|]. cbn [ext_loop].
  destruct (Z.ltb_spec 0 a) as [P|P].
  2:{ assert (Z0 : a = 0) by lia. rewrite Z0, Z.gcd_0_l, Z.abs_eq in G by lia. exists (- e * X), (e * Y). rewrite <- G. split; [reflexivity|lia]. }
  rewrite Z.quot_div_nonneg by lia. pose proof (Z.div_mod b a ltac:(lia)) as DM. pose proof (Z.mod_pos_bound b a ltac:(lia)) as MB. assert (Q0 : 0 <= b / a) by (apply Z.div_pos; lia).
  assert (GG : Z.gcd (b mod a) a = Z.gcd a0 b0) by (rewrite <- G; apply Z.gcd_mod; lia).
  set (q := b / a) in *. set (m := b mod a) in *. clearbody q m.
  assert (QB : q <= b) by (clear - P DM MB Q0; nia). assert (QA : q * a = b - m) by lia.
  assert (KU : 0 <= q * U <= U * b) by (clear - HU QB Q0; nia). assert (KV : 0 <= q * V <= V * b) by (clear - HV QB Q0; nia).
  assert (KX : X <= X * a) by (clear - HX P; nia). assert (KY : Y <= Y * a) by (clear - HY P; nia).
  unfold M63 in *. rewrite (@i64_id q) by lia. rewrite (@i64_id (q * a)) by lia. replace (b - q * a) with m by lia. rewrite (@i64_id m) by lia.
  replace (q * (e * U)) with (e * (q * U)) by ring. replace (q * (- e * V)) with (- e * (q * V)) by ring.
  rewrite (proj1 (@mag e (q * U) He ltac:(unfold M63; lia))), (proj2 (@mag e (q * V) He ltac:(unfold M63; lia))).
  replace (- e * X - e * (q * U)) with (- e * (X + q * U)) by ring. replace (e * Y - - e * (q * V)) with (e * (Y + q * V)) by ring.
  rewrite (proj2 (@mag e (X + q * U) He ltac:(unfold M63; lia))), (proj1 (@mag e (Y + q * V) He ltac:(unfold M63; lia))).
  specialize (IH (- e) (X + q * U) (Y + q * V) U V m a).
  replace (- - e) with e in IH by ring. apply IH; try lia; auto.
Qed.
Lemma extended_iter_ok fuel a b : 0 <= a < M63 -> 0 <= b < M63 -> (Z.to_nat a < fuel)%nat ->
  exists x y, extended_iter fuel a b = Some (Z.gcd a b, x, y) /\ a * x + b * y = Z.gcd a b.
Proof.
  intros A B F. destruct (@ext_loop_ok a b fuel A B 1 1 0 0 1 a b) as (x & y & E & Bz); unfold M63 in *; try lia; auto. exists x, y. auto.
Qed.
Lemma lcm_ok fuel a b : 0 < a -> 0 < b -> a * b <= 2 ^ 53 -> (Z.to_nat b < fuel)%nat -> lcm_go fuel a b = Some (Z.lcm a b).
Proof.
  intros A B P F. unfold lcm_go. rewrite Z.abs_eq by nia. replace (2 ^ 53 <? a * b) with false by lia. destruct (@gcd_rec_ok fuel a b ltac:(lia)) as (g & -> & G & N).
  specialize (N ltac:(lia) ltac:(lia)). rewrite Z.abs_eq in G by auto. assert (0 < g). { rewrite G. pose proof (Z.gcd_nonneg a b). assert (Z.gcd a b <> 0) by (intros Q; apply Z.gcd_eq_0 in Q; lia). lia. }
  replace (g =? 0) with false by lia. f_equal. rewrite Z.quot_div_nonneg by nia. unfold Z.lcm. rewrite <- G.
  destruct (Z.gcd_divide_r a b) as [k Hk]. rewrite <- G in Hk. rewrite Hk. rewrite Z.div_mul by lia. rewrite Z.mul_assoc, Z.div_mul by lia. rewrite Z.abs_eq; nia.
Qed.

(** * Rationals *)
Lemma ceil_ok n : 0 < rd n -> rat_ceil n * rd n >= rn n /\ (rat_ceil n - 1) * rd n < rn n.
Proof.
  intros D. unfold rat_ceil. pose proof (Z.div_mod (rn n) (rd n) ltac:(lia)) as Q. pose proof (Z.mod_pos_bound (rn n) (rd n) D). destruct (Z.eqb_spec (rn n mod rd n) 0); nia.
Qed.
Lemma round_neg n : 0 < rd n -> rn n < 0 -> 2 * Z.abs (rn n - rat_round n * rd n) <= rd n /\ (2 * Z.abs (rn n - rat_round n * rd n) = rd n -> rat_round n * rd n < rn n).
Proof.
  intros D S. unfold rat_round. replace (rn n <? 0) with true by lia. pose proof (@ceil_ok (Rat (2 * rn n - rd n) (2 * rd n)) ltac:(cbn [rd]; lia)) as [A B]. cbn [rn rd] in *. set (k := rat_ceil _) in *. clearbody k.
  split; [|intros E]; nia.
Qed.
Lemma round_nonneg n : 0 < rd n -> 0 <= rn n -> ((2 * rn n) mod (2 * rd n) = rd n -> 2 * (rat_round n * rd n - rn n) = rd n) /\ ((2 * rn n) mod (2 * rd n) <> rd n -> 2 * Z.abs (rn n - (rat_round n - 1) * rd n) < rd n).
Proof.
  intros D S. unfold rat_round. replace (rn n <? 0) with false by lia. unfold rat_ceil. cbn [rn rd].
  pose proof (Z.div_mod (2 * rn n + rd n) (2 * rd n) ltac:(lia)) as Q. pose proof (Z.mod_pos_bound (2 * rn n + rd n) (2 * rd n) ltac:(lia)) as MB.
  pose proof (Z.div_mod (2 * rn n) (2 * rd n) ltac:(lia)) as Q'. pose proof (Z.mod_pos_bound (2 * rn n) (2 * rd n) ltac:(lia)) as MB'.
  set (m := (2 * rn n + rd n) mod (2 * rd n)) in *. set (k := (2 * rn n + rd n) / (2 * rd n)) in *. set (m' := (2 * rn n) mod (2 * rd n)) in *. set (k' := (2 * rn n) / (2 * rd n)) in *. clearbody m k m' k'.
  split; intros M; destruct (Z.eqb_spec m 0); try nia.
  all: exfalso; assert (k = k' + 1 \/ k = k') by nia; nia.
Qed.

(** * Rotation *)
Lemma mask_ones s : 0 <= s -> mask s = Z.ones s.
Proof. intros. unfold mask. rewrite Z.ones_equiv, Z.shiftl_1_l. reflexivity. Qed.
Lemma rotl_bit x r s i : 0 <= r <= s -> 0 <= i ->
  Z.testbit (rotate_left x r s (mask s)) i = (i <? s) && Z.testbit x ((i - r) mod s).
Proof.
  intros R I. unfold rotate_left. rewrite mask_ones by lia. rewrite Z.lor_spec, Z.land_spec, Z.shiftl_spec, Z.shiftr_spec, !Z.land_spec by lia. rewrite !Z.testbit_ones by lia.
  replace (0 <=? i) with true by lia. cbn [andb]. replace (0 <=? i + (s - r)) with true by lia. cbn [andb]. destruct (Z.ltb_spec i s) as [L|L]; cbn [andb].
  - rewrite !andb_true_r. destruct (Z.ltb_spec i r).
    + rewrite (Z.testbit_neg_r x (i - r)) by lia. cbn [andb orb]. replace (i + (s - r) <? s) with true by lia. rewrite andb_true_r. f_equal. apply Z.mod_unique with (q := -1); lia.
    + replace (0 <=? i - r) with true by lia. replace (i - r <? s) with true by lia. cbn [andb]. rewrite andb_true_r. rewrite (Z.mod_small (i - r)) by lia.
      replace (i + (s - r) <? s) with false by lia. now rewrite andb_false_r, orb_false_r.
  - rewrite andb_false_r. cbn [orb]. replace (i + (s - r) <? s) with false by lia. now rewrite andb_false_r.
Qed.

Local Open Scope nat_scope.
(** * cascade *)
Lemma each_length n f k l : (forall b, isblock n b -> isblock n (f b)) -> bytes_ok l -> length l = k * n -> 0 < n -> length (each n f l) = k * n /\ bytes_ok (each n f l).
Proof.
  intros Hf O L N. unfold each. destruct (@chunks_all_len Z n l k N L) as [A B]. rewrite <- B.
  assert (G : Forall (isblock n) (chunks n l)).
  { apply Forall_forall. intros b I. split; [unfold all_len in A; rewrite Forall_forall in A; auto|]. apply Forall_forall. intros x X. rewrite <- (@chunks_concat Z n l N) in O.
    unfold bytes_ok in O. rewrite Forall_forall in O. apply O. apply in_concat. eauto. }
  clear A B L. induction G as [|b bs Hb _ IH]; cbn [map concat length]; [split; [reflexivity|constructor]|].
  destruct IH as [I1 I2]. destruct (Hf b Hb) as [L1 O1]. rewrite app_length, L1, I1. split; [lia|]. apply Forall_app; auto.
Qed.
Lemma each_inv n f g k l : (forall b, isblock n b -> isblock n (f b)) -> (forall b, isblock n b -> g (f b) = b) -> bytes_ok l -> length l = k * n -> 0 < n ->
  each n g (each n f l) = l.
Proof.
  intros Hf Hg O L N. unfold each. destruct (@chunks_all_len Z n l k N L) as [A B].
  assert (G : Forall (isblock n) (chunks n l)).
  { apply Forall_forall. intros b I. split; [unfold all_len in A; rewrite Forall_forall in A; auto|]. apply Forall_forall. intros x X. rewrite <- (@chunks_concat Z n l N) in O.
    unfold bytes_ok in O. rewrite Forall_forall in O. apply O. apply in_concat. eauto. }
  rewrite chunks_of_concat; auto.
  - rewrite map_map. rewrite <- (@chunks_concat Z n l N) at 2. f_equal. rewrite <- (map_id (chunks n l)) at 2. apply map_ext_in. intros b I. apply Hg. rewrite Forall_forall in G. auto.
  - apply Forall_map, Forall_forall. intros b I. rewrite Forall_forall in G. apply Hf. auto.
Qed.

Section casc.
Variables c1 c2 : cipher.
Hypothesis L1 : lawful c1.
Hypothesis L2 : lawful c2.
Variable bs : nat.
Hypothesis D1 : exists k, bs = k * bsz c1.
Hypothesis D2 : exists k, bs = k * bsz c2.
Lemma casc_undone : undone_by bs (cascade_encrypt (Cascade c1 c2 bs)) (cascade_decrypt (Cascade c1 c2 bs)) /\ undone_by bs (cascade_decrypt (Cascade c1 c2 bs)) (cascade_encrypt (Cascade c1 c2 bs)).
Proof.
  destruct D1 as [k1 K1]. destruct D2 as [k2 K2]. pose proof (law_pos L1) as P1. pose proof (law_pos L2) as P2.
  split; intros dst dst' src O Od Ls Ld Ld'; unfold cascade_encrypt, cascade_decrypt; cbn [csB cs1 cs2].
  - replace (length src <? bs) with false by (symmetry; apply Nat.ltb_ge; lia). replace (length dst <? bs) with false by (symmetry; apply Nat.ltb_ge; lia). replace (length dst' <? bs) with false by (symmetry; apply Nat.ltb_ge; lia).
    assert (Lf : length (firstn bs src) = bs) by (rewrite firstn_length; lia). assert (Of : bytes_ok (firstn bs src)) by now apply bytes_ok_firstn.
    destruct (@each_length (bsz c1) (enc c1) k1 (firstn bs src) (law_enc L1) Of ltac:(lia) P1) as [A1 A2]. set (m := each _ (enc c1) _) in *.
    destruct (@each_length (bsz c2) (enc c2) k2 m (law_enc L2) A2 ltac:(lia) P2) as [B1 B2].
    eexists. split; [reflexivity|]. split; [rewrite app_length, skipn_length; lia|]. split; [apply Forall_app; split; [auto|now apply bytes_ok_skipn]|].
    split; [rewrite skipn_app_exact by lia; reflexivity|]. rewrite app_length. replace (_ + _ <? bs) with false by (symmetry; apply Nat.ltb_ge; lia). eexists. split; [reflexivity|].
    match goal with |- context [firstn bs (?X ++ skipn bs dst)] => replace (firstn bs (X ++ skipn bs dst)) with X by (symmetry; apply firstn_app_exact; lia) end. rewrite (@each_inv (bsz c2) (enc c2) (dec c2) k2) by (auto using law_enc, law_inv; lia).
    unfold m. rewrite (@each_inv (bsz c1) (enc c1) (dec c1) k1) by (auto using law_enc, law_inv; lia). split; [rewrite firstn_app_exact by lia; reflexivity|rewrite skipn_app_exact by lia; reflexivity].
  - replace (length src <? bs) with false by (symmetry; apply Nat.ltb_ge; lia). replace (length dst <? bs) with false by (symmetry; apply Nat.ltb_ge; lia). replace (length dst' <? bs) with false by (symmetry; apply Nat.ltb_ge; lia).
    assert (Lf : length (firstn bs src) = bs) by (rewrite firstn_length; lia). assert (Of : bytes_ok (firstn bs src)) by now apply bytes_ok_firstn.
    destruct (@each_length (bsz c2) (dec c2) k2 (firstn bs src) (law_dec L2) Of ltac:(lia) P2) as [A1 A2]. set (m := each _ (dec c2) _) in *.
    destruct (@each_length (bsz c1) (dec c1) k1 m (law_dec L1) A2 ltac:(lia) P1) as [B1 B2].
    eexists. split; [reflexivity|]. split; [rewrite app_length, skipn_length; lia|]. split; [apply Forall_app; split; [auto|now apply bytes_ok_skipn]|].
    split; [rewrite skipn_app_exact by lia; reflexivity|]. rewrite app_length. replace (_ + _ <? bs) with false by (symmetry; apply Nat.ltb_ge; lia). eexists. split; [reflexivity|].
    match goal with |- context [firstn bs (?X ++ skipn bs dst)] => replace (firstn bs (X ++ skipn bs dst)) with X by (symmetry; apply firstn_app_exact; lia) end. rewrite (@each_inv (bsz c1) (dec c1) (enc c1) k1) by (auto using law_dec, (lawful_surj L1); lia).
    unfold m. rewrite (@each_inv (bsz c2) (dec c2) (enc c2) k2) by (auto using law_dec, (lawful_surj L2); lia). split; [rewrite firstn_app_exact by lia; reflexivity|rewrite skipn_app_exact by lia; reflexivity].
Qed.
Lemma casc_block : block_cipher bs (cascade_encrypt (Cascade c1 c2 bs)) (cascade_decrypt (Cascade c1 c2 bs)).
Proof.
  destruct casc_undone as [A B]. split; auto.
  - intros dst src L. unfold cascade_encrypt. cbn [csB]. rewrite firstn_length, firstn_firstn, Nat.min_id. replace (Nat.min bs (length src)) with bs by lia.
    rewrite Nat.ltb_irrefl. replace (length src <? bs) with false by (symmetry; apply Nat.ltb_ge; lia). reflexivity.
  - intros dst src L. unfold cascade_decrypt. cbn [csB]. rewrite firstn_length, firstn_firstn, Nat.min_id. replace (Nat.min bs (length src)) with bs by lia.
    rewrite Nat.ltb_irrefl. replace (length src <? bs) with false by (symmetry; apply Nat.ltb_ge; lia). reflexivity.
  - intros dst src [L|L]; unfold cascade_encrypt; cbn [csB]; destruct (Nat.ltb_spec (length src) bs); auto; [lia|]. destruct (Nat.ltb_spec (length dst) bs); auto; lia.
  - intros dst src [L|L]; unfold cascade_decrypt; cbn [csB]; destruct (Nat.ltb_spec (length src) bs); auto; [lia|]. destruct (Nat.ltb_spec (length dst) bs); auto; lia.
Qed.
End casc.
Lemma casc_new fuel c1 c2 : lawful c1 -> lawful c2 -> (Z.of_nat (bsz c1) * Z.of_nat (bsz c2) <= 2 ^ 53)%Z -> bsz c2 < fuel ->
  cascade_new fuel c1 c2 = Ok (Cascade c1 c2 (Nat.lcm (bsz c1) (bsz c2))).
Proof.
  intros L1 L2 P F. pose proof (law_pos L1). pose proof (law_pos L2). unfold cascade_new. rewrite lcm_ok by lia.
  assert (E : Z.to_nat (Z.lcm (Z.of_nat (bsz c1)) (Z.of_nat (bsz c2))) = Nat.lcm (bsz c1) (bsz c2)).
  { rewrite <- (Nat2Z.id (Nat.lcm _ _)). f_equal. apply Z.divide_antisym_nonneg; [apply Z.lcm_nonneg|lia| |].
    - apply Z.lcm_least; [destruct (Nat.divide_lcm_l (bsz c1) (bsz c2)) as [k K]|destruct (Nat.divide_lcm_r (bsz c1) (bsz c2)) as [k K]]; exists (Z.of_nat k); rewrite K; lia.
    - set (z := Z.lcm _ _). assert (Hz : (0 <= z)%Z) by apply Z.lcm_nonneg. rewrite <- (Z2Nat.id z Hz).
      assert (D : Nat.divide (Nat.lcm (bsz c1) (bsz c2)) (Z.to_nat z)).
      { apply Nat.lcm_least; [destruct (Z.divide_lcm_l (Z.of_nat (bsz c1)) (Z.of_nat (bsz c2))) as [k K]|destruct (Z.divide_lcm_r (Z.of_nat (bsz c1)) (Z.of_nat (bsz c2))) as [k K]]; fold z in K; exists (Z.to_nat k);
          rewrite K; rewrite Z2Nat.inj_mul, Nat2Z.id by nia; reflexivity. }
      destruct D as [k K]. exists (Z.of_nat k). rewrite K. lia. }
  rewrite E. destruct (Nat.divide_lcm_l (bsz c1) (bsz c2)) as [k K]. destruct (Nat.divide_lcm_r (bsz c1) (bsz c2)) as [k' K'].
  replace (Nat.lcm (bsz c1) (bsz c2) mod bsz c1) with 0 by (rewrite K at 1; rewrite Nat.mod_mul; lia). replace (Nat.lcm (bsz c1) (bsz c2) mod bsz c2) with 0 by (rewrite K' at 1; rewrite Nat.mod_mul; lia). reflexivity.
Qed.

(** * lion *)
Section lion.
Variable hs : nat.
Variable H : bytes -> bytes.
Variable stream : bytes -> option (nat -> bytes).
Hypothesis HL : forall m, length (H m) = hs.
Hypothesis SL : forall k, exists ks, stream k = Some ks /\ forall n, length (ks n) = n.
Lemma ks_twice k d d' s r : length d = length s -> length d' = length s -> xor_ks stream k d s = Ok r -> length r = length s /\ xor_ks stream k d' r = Ok s.
Proof.
  intros L L' E. destruct (SL k) as (ks & K & KL). unfold xor_ks in *. rewrite K in *. replace (length d <? length s) with false in E by (symmetry; apply Nat.ltb_ge; lia). injection E as <-.
  rewrite skipn_all2, app_nil_r by lia. assert (LX : length (xorl s (ks (length s))) = length s) by (rewrite xorl_length, KL; lia). rewrite LX. split; auto.
  replace (length d' <? length s) with false by (symmetry; apply Nat.ltb_ge; lia). rewrite skipn_all2, app_nil_r by lia. now rewrite xorl_cancel_r by (rewrite KL; lia).
Qed.
Lemma ks_ok k d s : length d = length s -> exists r, xor_ks stream k d s = Ok r /\ length r = length s.
Proof.
  intros L. destruct (SL k) as (ks & K & KL). unfold xor_ks. rewrite K. replace (length d <? length s) with false by (symmetry; apply Nat.ltb_ge; lia). eexists. split; [reflexivity|].
  rewrite app_length, xorl_length, KL, skipn_length. lia.
Qed.
Lemma lion_inv bs ka kb dst dst' src : 2 * hs + 1 <= bs -> bs <= length src -> length dst = length src -> length dst' = length src ->
  exists ct, lion_crypt hs H stream bs ka kb dst src = Ok ct /\ length ct = length src /\ lion_crypt hs H stream bs kb ka dst' ct = Ok src.
Proof.
  intros B L Ld Ld'. unfold lion_crypt at 1. replace (length src <? bs) with false by (symmetry; apply Nat.ltb_ge; lia). replace (length dst <? bs) with false by (symmetry; apply Nat.ltb_ge; lia).
  set (sl := firstn hs src). set (sr := skipn hs src). assert (Lsl : length sl = hs) by (unfold sl; rewrite firstn_length; lia). assert (Lsr : length sr = length src - hs) by (unfold sr; now rewrite skipn_length).
  destruct (@ks_ok (xorl sl ka) (skipn hs dst) sr ltac:(rewrite skipn_length; lia)) as (r1 & E1 & R1). rewrite E1. cbn [rbind].
  set (l := xorl sl (H r1)). assert (Ll : length l = hs) by (unfold l; rewrite xorl_length, HL; lia).
  destruct (@ks_ok (xorl l kb) r1 r1 eq_refl) as (r2 & E2 & R2). rewrite E2. cbn [rbind]. exists (l ++ r2). split; [reflexivity|]. split; [rewrite app_length; lia|].
  unfold lion_crypt. rewrite app_length. replace (length l + length r2 <? bs) with false by (symmetry; apply Nat.ltb_ge; lia). replace (length dst' <? bs) with false by (symmetry; apply Nat.ltb_ge; lia).
  rewrite firstn_app_exact, skipn_app_exact by auto.
  destruct (@ks_twice (xorl l kb) r1 (skipn hs dst') r1 r2 eq_refl ltac:(rewrite skipn_length; lia) E2) as [_ E2']. rewrite E2'. cbn [rbind].
  assert (Esl : xorl l (H r1) = sl) by (unfold l; rewrite xorl_cancel_r; [reflexivity|rewrite HL; lia]). rewrite Esl.
  destruct (@ks_twice (xorl sl ka) (skipn hs dst) r1 sr r1 ltac:(rewrite skipn_length; lia) R1 E1) as [_ E1']. rewrite E1'. cbn [rbind]. f_equal. apply firstn_skipn.
Qed.
Lemma lion_src_long bs ka kb dst src : length dst < length src -> hs <= length dst -> lion_crypt hs H stream bs ka kb dst src = Panic.
Proof.
  intros L Lh. unfold lion_crypt. destruct (length src <? bs); auto. destruct (length dst <? bs); auto. unfold xor_ks at 1. destruct (stream _); auto.
  rewrite !skipn_length. replace (length dst - hs <? length src - hs) with true by (symmetry; apply Nat.ltb_lt; lia). reflexivity.
Qed.
End lion.
