From Verif Require Import Base ToolBytesModel ToolBytesSpec.
Set Implicit Arguments. Unset Strict Implicit.

(** ** Numbers *)
Lemma pow8 n : (2 ^ (8 * Z.of_nat n) = 256 ^ Z.of_nat n)%Z.
Proof. rewrite Z.pow_mul_r by lia. reflexivity. Qed.
Lemma pow256_S n : (256 ^ Z.of_nat (S n) = 256 * 256 ^ Z.of_nat n)%Z.
Proof. rewrite Nat2Z.inj_succ, Z.pow_succ_r by lia. reflexivity. Qed.
Lemma pow256_pos n : (0 < 256 ^ Z.of_nat n)%Z.
Proof. apply Z.pow_pos_nonneg; lia. Qed.

Lemma le_val_app a b : le_val (a ++ b) = (le_val a + 256 ^ Z.of_nat (length a) * le_val b)%Z.
Proof.
  induction a as [|x a IH]; [cbn [app le_val length]; change (Z.of_nat 0) with 0%Z; rewrite Z.pow_0_r; lia|].
  cbn [app le_val length]. rewrite IH, pow256_S. ring.
Qed.
Lemma be_val_cons x l : be_val (x :: l) = (x * 256 ^ Z.of_nat (length l) + be_val l)%Z.
Proof. unfold be_val. cbn [rev]. rewrite le_val_app, rev_length. cbn [le_val]. ring. Qed.
Lemma be_val_nil : be_val [] = 0%Z. Proof. reflexivity. Qed.
Lemma be_val_snoc l x : be_val (l ++ [x]) = (256 * be_val l + x)%Z.
Proof. unfold be_val. rewrite rev_app_distr. cbn [rev app le_val]. ring. Qed.
Lemma be_val_inj a b : bytes_ok a -> bytes_ok b -> length a = length b -> be_val a = be_val b -> a = b.
Proof. intros Ha Hb L E. transitivity (be_bytes (length b) (be_val a)); [symmetry; now apply be_bytes_val|]. rewrite E. now apply be_bytes_val. Qed.

Lemma lor_disj a b k : (0 <= k)%Z -> (0 <= b < 2 ^ k)%Z -> Z.lor (a * 2 ^ k) b = (a * 2 ^ k + b)%Z.
Proof.
  intros Hk Hb. rewrite <- Z.shiftl_mul_pow2 by lia.
  assert (D : Z.land (Z.shiftl a k) b = 0%Z).
  { apply Z.bits_inj'. intros i Hi. rewrite Z.land_spec, Z.bits_0. destruct (Z.ltb_spec i k).
    - rewrite Z.shiftl_spec_low by lia. reflexivity.
    - rewrite <- (Z.mod_small b (2 ^ k)) by lia. rewrite Z.mod_pow2_bits_high by lia. apply andb_false_r. }
  rewrite <- Z.lxor_lor by exact D. rewrite <- Z.add_nocarry_lxor by exact D. reflexivity.
Qed.
Lemma lxor_low a z p k : (0 <= k)%Z -> (0 <= z < 2 ^ k)%Z -> (0 <= p < 2 ^ k)%Z ->
  Z.lxor (a * 2 ^ k + z) p = (a * 2 ^ k + Z.lxor z p)%Z.
Proof.
  intros Hk Hz Hp. rewrite <- (lor_disj a Hk Hz).
  assert (Hx : (0 <= Z.lxor z p < 2 ^ k)%Z).
  { split; [apply Z.lxor_nonneg; lia|]. destruct (Z.eq_dec (Z.lxor z p) 0) as [->|Hne]; [apply Z.pow_pos_nonneg; lia|].
    assert (0 <= Z.lxor z p)%Z by (apply Z.lxor_nonneg; lia).
    apply Z.log2_lt_pow2; [lia|]. 
    destruct (Z.eq_dec k 0) as [->|]; [change (2 ^ 0)%Z with 1%Z in *; assert (z = 0 /\ p = 0)%Z as [-> ->] by lia; now cbn in Hne|].
    eapply Z.le_lt_trans; [apply Z.log2_lxor; lia|].
    assert (forall q, (0 <= q < 2 ^ k)%Z -> (Z.log2 q < k)%Z).
    { intros q Hq. destruct (Z.eq_dec q 0) as [->|]; [cbn; lia|]. apply Z.log2_lt_pow2; lia. }
    apply Z.max_lub_lt; auto. }
  rewrite <- (lor_disj a Hk Hx). apply Z.bits_inj'. intros i Hi.
  rewrite Z.lxor_spec, !Z.lor_spec, Z.lxor_spec. destruct (Z.ltb_spec i k).
  - rewrite Z.mul_pow2_bits_low by lia. reflexivity.
  - assert (Hh : forall q, (0 <= q < 2 ^ k)%Z -> Z.testbit q i = false).
    { intros q Hq. rewrite <- (Z.mod_small q (2 ^ k)) by lia. apply Z.mod_pow2_bits_high. lia. }
    rewrite (Hh z), (Hh p) by assumption. cbn. rewrite orb_false_r, xorb_false_r. reflexivity.
Qed.

(** ** Shifts *)
Lemma shr7 a : is_byte a -> shr8 7 a = (a / 128)%Z /\ (shr8 7 a = 0 \/ shr8 7 a = 1)%Z.
Proof.
  intros Ha. unfold shr8. rewrite Z.shiftr_div_pow2 by lia. change (2 ^ 7)%Z with 128%Z. split; [reflexivity|].
  unfold is_byte in Ha. assert (0 <= a / 128 < 2)%Z by (split; [apply Z.div_pos; lia|apply Z.div_lt_upper_bound; lia]). lia.
Qed.
Lemma shl1 a : is_byte a -> shl8 1 a = ((a mod 128) * 2 ^ 1)%Z.
Proof.
  intros Ha. unfold shl8, to_byte. rewrite Z.shiftl_mul_pow2 by lia. change (2 ^ 1)%Z with 2%Z. unfold is_byte in Ha.
  change 256%Z with (128 * 2)%Z. rewrite Z.mul_mod_distr_r by lia. reflexivity.
Qed.
Lemma lor_shl1 a z : is_byte a -> (z = 0 \/ z = 1)%Z ->
  Z.lor (shl8 1 a) z = (2 * (a mod 128) + z)%Z /\ is_byte (Z.lor (shl8 1 a) z).
Proof.
  intros Ha Hz. rewrite shl1, lor_disj by (auto; destruct Hz; subst; lia).
  change (2 ^ 1)%Z with 2%Z. pose proof (Z.mod_pos_bound a 128 ltac:(lia)). unfold is_byte. split; lia.
Qed.

Lemma shift_carry_spec x : bytes_ok x ->
  let '(r, z) := shift_carry x in
  length r = length x /\ bytes_ok r /\ (z = 0 \/ z = 1)%Z /\
  (x <> [] -> (2 * be_val x = z * 256 ^ Z.of_nat (length x) + be_val r)%Z).
Proof.
  induction x as [|a x IH]; intro H.
  - cbn. split; [reflexivity|]. split; [constructor|]. split; [now left|]. intro N; now elim N.
  - assert (Ha : is_byte a) by now inversion H. assert (Hx : bytes_ok x) by now inversion H.
    specialize (IH Hx). cbn [shift_carry]. destruct (shift_carry x) as [r z] eqn:Ex. destruct IH as (L & O & Z01 & E).
    destruct (shr7 Ha) as [E7 Z7]. destruct (lor_shl1 Ha Z01) as [E1 B1].
    split; [cbn; lia|]. split; [constructor; auto|]. split; [exact Z7|]. intros _.
    rewrite !be_val_cons, L, E1, E7. cbn [length]. rewrite pow256_S.
    pose proof (Z.div_mod a 128 ltac:(lia)) as D. set (P := (256 ^ Z.of_nat (length x))%Z).
    assert (E' : (2 * be_val x = z * P + be_val r)%Z).
    { destruct x as [|b x]; [|apply E; discriminate]. cbn in Ex. injection Ex as <- <-. reflexivity. }
    rewrite D at 1. lia.
Qed.
Lemma shift_left_fwd_eq x : shift_left_fwd x = fst (shift_carry x).
Proof.
  induction x as [|a [|b x] IH]; [reflexivity| |].
  - cbn. now rewrite Z.lor_0_r.
  - change (shift_left_fwd (a :: b :: x)) with (Z.lor (shl8 1 a) (shr8 7 b) :: shift_left_fwd (b :: x)).
    rewrite IH. cbn [shift_carry]. destruct (shift_carry x) as [r z]. reflexivity.
Qed.

Lemma xor_last_length p x : length (xor_last p x) = length x.
Proof. induction x as [|a [|b x] IH]; auto. cbn [xor_last length] in *. lia. Qed.
Lemma xor_last_snoc p x a : xor_last p (x ++ [a]) = x ++ [Z.lxor a p].
Proof. induction x as [|b x IH]; [reflexivity|]. cbn [app xor_last]. rewrite IH. destruct x; reflexivity. Qed.
Lemma xor_last_ok p x : is_byte p -> bytes_ok x -> bytes_ok (xor_last p x).
Proof.
  intros Hp Hx.
  destruct x as [|b x]; [constructor|]. destruct (@exists_last _ (b :: x) ltac:(discriminate)) as (l & a & E).
  rewrite E in *. rewrite xor_last_snoc. apply bytes_ok_app in Hx as [H1 H2]. apply bytes_ok_app. split; auto.
  constructor; [|constructor]. apply lxor_byte; auto. now inversion H2.
Qed.
Lemma xor_last_val p x : is_byte p -> bytes_ok x -> x <> [] -> be_val (xor_last p x) = Z.lxor (be_val x) p.
Proof.
  intros Hp Hx Hne. destruct (@exists_last _ x Hne) as (l & a & ->). apply bytes_ok_app in Hx as [H1 H2].
  assert (Ha : is_byte a) by now inversion H2. rewrite xor_last_snoc, !be_val_snoc.
  rewrite !(Z.mul_comm 256). change 256%Z with (2 ^ 8)%Z. rewrite lxor_low; [reflexivity|lia| |]; unfold is_byte in *; lia.
Qed.
Lemma xor_last_0 x : xor_last 0 x = x.
Proof. induction x as [|a [|b x] IH]; auto. - cbn. now rewrite Z.lxor_0_r. - cbn [xor_last] in *. now rewrite IH. Qed.

(** Doubling computed with the carry loop. *)
Lemma carry_double p x : is_byte p -> bytes_ok x -> x <> [] ->
  xor_last (if (snd (shift_carry x) =? 0)%Z then 0 else p)%Z (fst (shift_carry x)) = double (length x) p x.
Proof.
  intros Hp Hx Hne. pose proof (shift_carry_spec Hx) as S. destruct (shift_carry x) as [r z]. cbn [fst snd].
  destruct S as (L & O & Z01 & E). specialize (E Hne). unfold double, double_val.
  rewrite pow8. pose proof (be_val_bound O) as Br. rewrite L in Br.
  set (P := (256 ^ Z.of_nat (length x))%Z) in *.
  assert (Hrne : r <> []) by (destruct r; [destruct x; [congruence|discriminate]|discriminate]).
  destruct Z01 as [-> | ->]; cbn [Z.eqb].
  - rewrite xor_last_0. destruct (Z.ltb_spec (2 * be_val x) P); [|lia]. rewrite E. rewrite Z.mul_0_l, Z.add_0_l.
    symmetry. apply be_bytes_val; auto.
  - destruct (Z.ltb_spec (2 * be_val x) P); [lia|]. replace (2 * be_val x - P)%Z with (be_val r) by lia.
    rewrite <- (xor_last_val Hp O Hrne). symmetry. apply be_bytes_val; [apply xor_last_ok; auto|].
    rewrite xor_last_length. auto.
Qed.
Lemma double_length n p x : length (double n p x) = n.
Proof. apply be_bytes_length. Qed.
Lemma double_ok n p x : bytes_ok (double n p x).
Proof. apply be_bytes_ok. Qed.

Lemma GfnDouble_spec x : length x = 16 -> bytes_ok x -> GfnDouble x = Ok (double 16 135 x).
Proof.
  intros L H. unfold GfnDouble. rewrite L. cbn [Nat.eqb negb]. destruct x as [|a x]; [discriminate|].
  unfold ShiftLeft. cbn [rbind hd]. f_equal.
  rewrite <- L, <- (@carry_double 135 (a :: x)) by (auto; unfold is_byte; try lia; discriminate).
  rewrite shift_left_fwd_eq. f_equal.
  assert (Ha : is_byte a) by now inversion H.
  destruct (shr7 Ha) as [_ Z7]. cbn [shift_carry]. destruct (shift_carry x) as [r z]. cbn [snd].
  destruct Z7 as [-> | ->]; reflexivity.
Qed.

(** ** Shifts by several bits *)
Lemma byte_split a k : is_byte a -> (0 <= k <= 8)%Z ->
  shl8 k a = (a mod 2 ^ (8 - k) * 2 ^ k)%Z /\ (0 <= a / 2 ^ (8 - k) < 2 ^ k)%Z.
Proof.
  intros Ha Hk. assert (E : (2 ^ (8 - k) * 2 ^ k = 256)%Z) by (rewrite <- Z.pow_add_r by lia; replace (8 - k + k)%Z with 8%Z by lia; reflexivity).
  assert (P1 : (0 < 2 ^ k)%Z) by (apply Z.pow_pos_nonneg; lia). assert (P2 : (0 < 2 ^ (8 - k))%Z) by (apply Z.pow_pos_nonneg; lia).
  split.
  - unfold shl8, to_byte. rewrite Z.shiftl_mul_pow2 by lia. rewrite <- E. apply Z.mul_mod_distr_r; lia.
  - unfold is_byte in Ha. split; [apply Z.div_pos; lia|]. apply Z.div_lt_upper_bound; lia.
Qed.
Lemma shift_bits_spec k : (0 <= k <= 8)%Z -> forall d, bytes_ok d ->
  length (shift_bits k d) = length d /\ bytes_ok (shift_bits k d) /\
  (be_val d * 2 ^ k = (hd 0 d / 2 ^ (8 - k)) * 256 ^ Z.of_nat (length d) + be_val (shift_bits k d))%Z.
Proof.
  intros Hk. assert (P1 : (0 < 2 ^ k)%Z) by (apply Z.pow_pos_nonneg; lia). assert (P2 : (0 < 2 ^ (8 - k))%Z) by (apply Z.pow_pos_nonneg; lia).
  assert (E : (2 ^ (8 - k) * 2 ^ k = 256)%Z) by (rewrite <- Z.pow_add_r by lia; replace (8 - k + k)%Z with 8%Z by lia; reflexivity).
  assert (Sp : forall a, is_byte a -> (a * 2 ^ k = (a / 2 ^ (8 - k)) * 256 + a mod 2 ^ (8 - k) * 2 ^ k)%Z).
  { intros a Ha. rewrite <- E. pose proof (Z.div_mod a (2 ^ (8 - k)) ltac:(lia)) as D. rewrite D at 1. ring. }
  induction d as [|a d IH]; intro H.
  - cbn [shift_bits length hd]. split; [auto|]. split; [constructor|]. rewrite Z.div_0_l by lia. reflexivity.
  - assert (Ha : is_byte a) by now inversion H. assert (Hd : bytes_ok d) by now inversion H.
    destruct (byte_split Ha Hk) as [E1 B1]. specialize (IH Hd). destruct IH as (L & O & V).
    assert (M1 : (0 <= a mod 2 ^ (8 - k) < 2 ^ (8 - k))%Z) by (apply Z.mod_pos_bound; lia).
    destruct d as [|b d].
    + cbn [shift_bits length hd]. rewrite E1. split; [auto|]. split.
      * constructor; [|constructor]. unfold is_byte. nia.
      * rewrite !be_val_cons, !be_val_nil. change (256 ^ Z.of_nat (length (@nil Z)))%Z with 1%Z. change (256 ^ Z.of_nat 1)%Z with 256%Z.
        rewrite !Z.mul_1_r, !Z.add_0_r. now apply Sp.
    + assert (Hb : is_byte b) by now inversion Hd. destruct (byte_split Hb Hk) as [_ Bb].
      change (shift_bits k (a :: b :: d)) with (Z.lor (shl8 k a) (Z.shiftr b (8 - k)) :: shift_bits k (b :: d)).
      rewrite E1, Z.shiftr_div_pow2 by lia. rewrite lor_disj by lia.
      split; [cbn [length] in *; lia|]. split.
      * constructor; auto. unfold is_byte. nia.
      * rewrite (be_val_cons a), (be_val_cons (_ + _)), L. cbn [hd] in *. change (length (a :: b :: d)) with (S (length (b :: d))). rewrite pow256_S.
        set (Q := (256 ^ Z.of_nat (length (b :: d)))%Z) in *. rewrite Z.mul_add_distr_r, V. pose proof (Sp a Ha) as S1.
        replace (a * Q * 2 ^ k)%Z with (a * 2 ^ k * Q)%Z by ring. rewrite S1. ring.
Qed.
Lemma shift_bits_eq k d : (0 <= k <= 8)%Z -> bytes_ok d -> shift_bits k d = shl_bits k d.
Proof.
  intros Hk Hd. destruct (shift_bits_spec Hk Hd) as (L & O & V). unfold shl_bits. apply be_val_inj; auto; [apply be_bytes_ok|now rewrite be_bytes_length|].
  rewrite be_val_bytes, V, Z.add_comm, Z_mod_plus_full. symmetry. apply Z.mod_small. pose proof (be_val_bound O) as B. now rewrite L in B.
Qed.
Lemma be_val_app' a b : be_val (a ++ b) = (be_val a * 256 ^ Z.of_nat (length b) + be_val b)%Z.
Proof. unfold be_val. rewrite rev_app_distr, le_val_app, rev_length. ring. Qed.
Lemma be_val_zeros n : be_val (repeat 0%Z n) = 0%Z.
Proof. induction n as [|n IH]; [reflexivity|]. cbn [repeat]. rewrite be_val_cons, IH. ring. Qed.

Lemma ShiftLeftN_spec x n : bytes_ok x -> x <> [] -> n / 8 <= length x ->
  ShiftLeftN (repeat 0%Z (length x)) x n = Ok (shl_bits (Z.of_nat n) x).
Proof.
  intros Hx Hne Hn. unfold ShiftLeftN. destruct (Nat.ltb_spec (length x) (n / 8)); [lia|].
  destruct (repeat 0%Z (length x)) eqn:Er; [destruct x; [congruence|discriminate]|]. rewrite <- Er. f_equal.
  set (q := n / 8) in *. set (r := n mod 8).
  assert (Enr : n = 8 * q + r) by apply Nat.div_mod_eq. assert (Hr : r < 8) by (apply Nat.mod_upper_bound; lia).
  assert (Eg : gocopy (repeat 0%Z (length x)) (skipn q x) = skipn q x ++ repeat 0%Z q).
  { unfold gocopy. rewrite repeat_length, firstn_all2 by (rewrite skipn_length; lia). f_equal.
    rewrite skipn_length. replace (length x) with (length x - q + q) at 2 by lia. rewrite repeat_app.
    apply skipn_app_exact. apply repeat_length. }
  rewrite Eg. assert (Og : bytes_ok (skipn q x ++ repeat 0%Z q)).
  { apply bytes_ok_app. split; [now apply bytes_ok_skipn|apply bytes_ok_repeat; unfold is_byte; lia]. }
  rewrite shift_bits_eq by (auto; lia). unfold shl_bits.
  assert (Lg : length (skipn q x ++ repeat 0%Z q) = length x) by (rewrite app_length, skipn_length, repeat_length; lia).
  rewrite Lg. apply be_val_inj; try apply be_bytes_ok; [now rewrite !be_bytes_length|]. rewrite !be_val_bytes.
  rewrite be_val_app', repeat_length, be_val_zeros, Z.add_0_r.
  assert (Ex : be_val x = (be_val (firstn q x) * 256 ^ Z.of_nat (length x - q) + be_val (skipn q x))%Z).
  { rewrite <- (firstn_skipn q x) at 1. rewrite be_val_app', skipn_length. reflexivity. }
  rewrite Ex. replace (Z.of_nat n) with (8 * Z.of_nat q + Z.of_nat r)%Z by lia. rewrite Z.pow_add_r, pow8 by lia.
  rewrite Z.mul_add_distr_r.
  replace (be_val (firstn q x) * 256 ^ Z.of_nat (length x - q) * (256 ^ Z.of_nat q * 2 ^ Z.of_nat r))%Z
    with (be_val (firstn q x) * 2 ^ Z.of_nat r * 256 ^ Z.of_nat (length x))%Z.
  - rewrite Z.add_comm, Z_mod_plus_full. f_equal. ring.
  - replace (length x) with ((length x - q) + q) at 1 by lia. rewrite Nat2Z.inj_add, Z.pow_add_r by lia. ring.
Qed.

(** ** Rotation right *)
Lemma shr1 a : is_byte a -> shr8 1 a = (a / 2)%Z /\ (0 <= a / 2 < 128)%Z /\ shl8 7 a = (a mod 2 * 128)%Z.
Proof.
  intro Ha. unfold shr8. rewrite Z.shiftr_div_pow2 by lia. split; [reflexivity|]. unfold is_byte in Ha.
  split; [split; [apply Z.div_pos; lia|apply Z.div_lt_upper_bound; lia]|].
  destruct (byte_split Ha (k := 7) ltac:(lia)) as [-> _]. reflexivity.
Qed.
Lemma lor128 h l : (0 <= h < 128)%Z -> (l = 0 \/ l = 128)%Z -> Z.lor h l = (h + l)%Z.
Proof.
  intros Hh [-> | ->]; [rewrite Z.lor_0_r; lia|]. rewrite Z.lor_comm. change 128%Z with (1 * 2 ^ 7)%Z. rewrite lor_disj by lia. lia.
Qed.
Lemma shift_right_loop_spec x : forall lsb, (lsb = 0 \/ lsb = 128)%Z -> bytes_ok x ->
  let '(r, z) := shift_right_loop lsb x in
  length r = length x /\ bytes_ok r /\
  (x <> [] -> (z = be_val x mod 2 * 128 /\ 256 * be_val r = 128 * (be_val x - be_val x mod 2) + lsb * 256 ^ Z.of_nat (length x))%Z).
Proof.
  induction x as [|a x IH]; intros lsb Hl Hx.
  - cbn. split; auto. split; [constructor|congruence].
  - assert (Ha : is_byte a) by now inversion Hx. assert (Hx' : bytes_ok x) by now inversion Hx.
    destruct (shr1 Ha) as (E1 & B1 & E7). cbn [shift_right_loop]. rewrite E7, E1, lor128 by auto.
    assert (Hm : (a mod 2 * 128 = 0 \/ a mod 2 * 128 = 128)%Z) by (pose proof (Z.mod_pos_bound a 2 ltac:(lia)); lia).
    specialize (IH (a mod 2 * 128)%Z Hm Hx'). destruct (shift_right_loop (a mod 2 * 128) x) as [r z] eqn:Es. destruct IH as (L & O & V).
    split; [cbn; lia|]. split; [constructor; auto; unfold is_byte; lia|]. intros _.
    pose proof (Z.div_mod a 2 ltac:(lia)) as D. rewrite !be_val_cons, L. cbn [length]. rewrite pow256_S.
    destruct x as [|b x].
    + cbn in Es. injection Es as <- <-. rewrite !be_val_nil. change (256 ^ Z.of_nat (length (@nil Z)))%Z with 1%Z.
      rewrite !Z.mul_1_r, !Z.add_0_r. split; [reflexivity|]. lia.
    + destruct (V ltac:(discriminate)) as [Vz Vr].
      set (Q := (256 ^ Z.of_nat (length (b :: x)))%Z) in *. set (v := be_val (b :: x)) in *.
      assert (Em : ((a * Q + v) mod 2 = v mod 2)%Z).
      { assert (HQ : exists k, Q = (2 * k)%Z).
        { unfold Q. cbn [length]. rewrite pow256_S. exists (128 * 256 ^ Z.of_nat (length x))%Z. ring. }
        destruct HQ as [k ->]. replace (a * (2 * k) + v)%Z with (v + (a * k) * 2)%Z by ring. apply Z_mod_plus_full. }
      rewrite Em. split; [exact Vz|]. nia.
Qed.
Lemma shift_right_eq x : bytes_ok x -> x <> [] -> shift_right x = ror1 x.
Proof.
  intros Hx Hne. unfold shift_right. pose proof (@shift_right_loop_spec x 0 ltac:(now left) Hx) as S.
  destruct (shift_right_loop 0 x) as [r z]. destruct S as (L & O & V). destruct (V Hne) as [Vz Vr]. clear V.
  destruct r as [|a t]; [destruct x; [congruence|discriminate]|].
  assert (Ha : is_byte a) by now inversion O. assert (Ot : bytes_ok t) by now inversion O.
  pose proof (be_val_bound Hx) as Bx. pose proof (be_val_bound Ot) as Bt.
  assert (M : (0 <= be_val x mod 2 < 2)%Z) by (apply Z.mod_pos_bound; lia).
  assert (Hh : (be_val (a :: t) = be_val x / 2)%Z).
  { pose proof (Z.div_mod (be_val x) 2 ltac:(lia)). lia. }
  assert (Lx : length x = S (length t)) by (cbn in L; lia).
  assert (Ha7 : (a < 128)%Z).
  { rewrite Lx, pow256_S in Bx. rewrite be_val_cons in Hh. set (Q := (256 ^ Z.of_nat (length t))%Z) in *.
    assert (be_val x / 2 < 128 * Q)%Z by (apply Z.div_lt_upper_bound; lia). nia. }
  assert (El : Z.lxor a z = (a + z)%Z).
  { assert (Hz : (z = 0 \/ z = 128)%Z) by lia. destruct Hz as [-> | ->]; [now rewrite Z.lxor_0_r, Z.add_0_r|].
    unfold is_byte in Ha. change 128%Z with (1 * 2 ^ 7)%Z at 1. rewrite Z.lxor_comm.
    rewrite <- (Z.add_0_r (1 * 2 ^ 7)), lxor_low by lia. rewrite Z.lxor_0_l. lia. }
  rewrite El. unfold ror1. apply be_val_inj.
  - constructor; auto. unfold is_byte in *. lia.
  - apply be_bytes_ok.
  - rewrite be_bytes_length. cbn. lia.
  - assert (EP : (256 ^ Z.of_nat (length x) = 2 * 2 ^ (8 * Z.of_nat (length x) - 1))%Z).
    { rewrite <- pow8. rewrite <- Z.pow_succ_r by lia. f_equal. lia. }
    rewrite be_val_bytes, Z.mod_small.
    + rewrite <- Hh, !be_val_cons, Vz, Lx. rewrite Lx, pow256_S in EP. nia.
    + rewrite EP in *. pose proof (Z.div_mod (be_val x) 2 ltac:(lia)).
      assert (be_val x / 2 < 2 ^ (8 * Z.of_nat (length x) - 1))%Z by (apply Z.div_lt_upper_bound; lia).
      assert (0 <= be_val x / 2)%Z by (apply Z.div_pos; lia). nia.
Qed.

(** ** Division by x *)
Lemma land1 a : (Z.land a 1 = a mod 2)%Z.
Proof. change 1%Z with (Z.ones 1). rewrite Z.land_ones by lia. reflexivity. Qed.
Lemma shift_right_from_eq x : forall lsb prev, bytes_ok x -> lsb = (if (Z.land prev 1 =? 0)%Z then 0 else 128)%Z ->
  shift_right_from prev x = fst (shift_right_loop lsb x).
Proof.
  induction x as [|a x IH]; intros lsb prev Hx ->; [reflexivity|]. cbn [shift_right_from shift_right_loop].
  assert (Ha : is_byte a) by now inversion Hx. destruct (shr1 Ha) as (_ & _ & E7).
  rewrite (IH (shl8 7 a) a); [|now inversion Hx|].
  - destruct (shift_right_loop (shl8 7 a) x). reflexivity.
  - rewrite E7, land1. pose proof (Z.mod_pos_bound a 2 ltac:(lia)). destruct (Z.eqb_spec (a mod 2) 0); lia.
Qed.
Lemma lxor_double a b : Z.lxor (2 * a) (2 * b) = (2 * Z.lxor a b)%Z.
Proof. rewrite !(Z.mul_comm 2). change 2%Z with (2 ^ 1)%Z. rewrite <- !Z.shiftl_mul_pow2 by lia. symmetry. apply Z.shiftl_lxor. Qed.
Lemma lxor_bound k a b : (0 <= k)%Z -> (0 <= a < 2 ^ k)%Z -> (0 <= b < 2 ^ k)%Z -> (0 <= Z.lxor a b < 2 ^ k)%Z.
Proof.
  intros Hk Ha Hb. split; [apply Z.lxor_nonneg; lia|].
  rewrite <- (Z.mod_small a (2 ^ k)), <- (Z.mod_small b (2 ^ k)) by lia. 
  assert (E : Z.lxor (a mod 2 ^ k) (b mod 2 ^ k) = (Z.lxor a b mod 2 ^ k)%Z).
  { apply Z.bits_inj'. intros i Hi. rewrite Z.lxor_spec. destruct (Z.ltb_spec i k).
    - rewrite !Z.mod_pow2_bits_low by lia. now rewrite Z.lxor_spec.
    - rewrite !Z.mod_pow2_bits_high by lia. reflexivity. }
  rewrite E. apply Z.mod_pos_bound. apply Z.pow_pos_nonneg; lia.
Qed.
Lemma last_mod2 x : bytes_ok x -> (Z.land (last x 0) 1 = be_val x mod 2)%Z.
Proof.
  intro Hx. destruct x as [|a x]; [reflexivity|]. destruct (@exists_last _ (a :: x) ltac:(discriminate)) as (l & b & E).
  rewrite E, last_last, be_val_snoc, land1. replace (256 * be_val l + b)%Z with (b + (128 * be_val l) * 2)%Z by ring.
  symmetry. apply Z_mod_plus_full.
Qed.
(** [pmac_half R] really divides by x: doubling it gives the argument back. *)
Lemma pmac_half_spec R x : is_byte R -> (R mod 2 = 1)%Z -> bytes_ok x -> x <> [] ->
  length (pmac_half R x) = length x /\ bytes_ok (pmac_half R x) /\ double (length x) R (pmac_half R x) = x.
Proof.
  intros HR Ro Hx Hne. unfold pmac_half. rewrite last_mod2 by auto.
  rewrite (@shift_right_from_eq x 0 0) by auto.
  pose proof (@shift_right_loop_spec x 0 ltac:(now left) Hx) as S. destruct (shift_right_loop 0 x) as [r z]. cbn [fst].
  destruct S as (L & O & V). destruct (V Hne) as [_ Vr]. clear V z.
  destruct r as [|a t]; [destruct x; [congruence|discriminate]|].
  assert (Ha : is_byte a) by now inversion O. assert (Ot : bytes_ok t) by now inversion O.
  pose proof (be_val_bound Hx) as Bx. pose proof (be_val_bound Ot) as Bt. pose proof (be_val_bound O) as Br.
  assert (Lx : length x = S (length t)) by (cbn in L; lia).
  assert (Hm : (be_val x mod 2 = 0 \/ be_val x mod 2 = 1)%Z) by (pose proof (Z.mod_pos_bound (be_val x) 2 ltac:(lia)); lia).
  assert (EP : (256 ^ Z.of_nat (length x) = 2 * 2 ^ (8 * Z.of_nat (length x) - 1))%Z).
  { rewrite <- pow8. rewrite <- Z.pow_succ_r by lia. f_equal. lia. }
  destruct Hm as [Hm|Hm]; rewrite Hm in *; cbn [Z.eqb].
  - rewrite Z.lxor_0_r, xor_last_0. split; [exact L|]. split; [exact O|]. unfold double, double_val. rewrite pow8.
    assert (E2 : (2 * be_val (a :: t) = be_val x)%Z) by lia. rewrite E2. destruct (Z.ltb_spec (be_val x) (256 ^ Z.of_nat (length x))); [|lia].
    apply be_bytes_val; auto.
  - assert (E2 : (2 * be_val (a :: t) + 1 = be_val x)%Z) by lia.
    assert (Ha7 : (a < 128)%Z).
    { rewrite Lx, pow256_S in Bx. rewrite be_val_cons in E2. set (Q := (256 ^ Z.of_nat (length t))%Z) in *. nia. }
    unfold is_byte in Ha. assert (El : Z.lxor a 128 = (a + 128)%Z).
    { change 128%Z with (1 * 2 ^ 7)%Z at 1. rewrite Z.lxor_comm, <- (Z.add_0_r (1 * 2 ^ 7)), lxor_low by lia. rewrite Z.lxor_0_l. lia. }
    rewrite El. assert (Rh : (Z.shiftr R 1 = R / 2)%Z) by (rewrite Z.shiftr_div_pow2 by lia; reflexivity).
    assert (Rb : (0 <= R / 2 < 128)%Z) by (unfold is_byte in HR; split; [apply Z.div_pos; lia|apply Z.div_lt_upper_bound; lia]).
    assert (O2 : bytes_ok ((a + 128)%Z :: t)) by (constructor; auto; unfold is_byte; lia).
    assert (Hb2 : is_byte (R / 2)) by (unfold is_byte; lia).
    rewrite Rh. split; [rewrite xor_last_length; exact L|]. split; [now apply xor_last_ok|].
    unfold double, double_val. rewrite pow8, xor_last_val by (auto; discriminate).
    set (M := (2 ^ (8 * Z.of_nat (length x) - 1))%Z) in *.
    assert (Ev : (be_val ((a + 128)%Z :: t) = 1 * M + be_val (a :: t))%Z).
    { rewrite !be_val_cons. rewrite Lx, pow256_S in EP. nia. }
    assert (Bv : (0 <= be_val (a :: t) < M)%Z) by lia.
    assert (HM : (128 <= M)%Z).
    { unfold M. change 128%Z with (2 ^ 7)%Z. apply Z.pow_le_mono_r; lia. }
    rewrite Ev. unfold M at 1 3. rewrite lxor_low by (fold M; lia). fold M.
    pose proof (@lxor_bound (8 * Z.of_nat (length x) - 1) (be_val (a :: t)) (R / 2) ltac:(lia) ltac:(fold M; lia) ltac:(fold M; lia)) as Bl. fold M in Bl.
    destruct (Z.ltb_spec (2 * (1 * M + Z.lxor (be_val (a :: t)) (R / 2))) (256 ^ Z.of_nat (length x))); [lia|].
    replace (2 * (1 * M + Z.lxor (be_val (a :: t)) (R / 2)) - 256 ^ Z.of_nat (length x))%Z with (2 * Z.lxor (be_val (a :: t)) (R / 2))%Z by lia.
    rewrite <- lxor_double, Z.lxor_assoc.
    assert (ER : Z.lxor (2 * (R / 2)) R = 1%Z).
    { pose proof (Z.div_mod R 2 ltac:(lia)) as D. rewrite Ro in D. rewrite D at 2.
      rewrite Z.lxor_comm. rewrite (Z.mul_comm 2). change 2%Z with (2 ^ 1)%Z at 2 3.
      assert (Hx1 : forall u, Z.lxor (u * 2 ^ 1 + 1) (u * 2 ^ 1) = 1%Z).
      { intro u. rewrite <- (@lor_disj u 1 1) by lia. apply Z.bits_inj'. intros i Hi. rewrite Z.lxor_spec, Z.lor_spec.
        destruct (Z.eq_dec i 0) as [->|].
        - rewrite Z.mul_pow2_bits_low by lia. reflexivity.
        - replace (Z.testbit 1 i) with false by (symmetry; apply Z.bits_above_log2; cbn; lia). rewrite orb_false_r. apply xorb_nilpotent. }
      apply Hx1. }
    rewrite ER. rewrite (Z.mul_comm 2). change 2%Z with (2 ^ 1)%Z.
    rewrite <- (Z.add_0_r (be_val (a :: t) * 2 ^ 1)), lxor_low by lia. rewrite Z.lxor_0_l.
    change (2 ^ 1)%Z with 2%Z. replace (be_val (a :: t) * 2 + 1)%Z with (be_val x) by lia. apply be_bytes_val; auto.
Qed.
