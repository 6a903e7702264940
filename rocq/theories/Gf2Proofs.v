(** Facts about polynomials over GF(2). *)
From Verif Require Import Base Gf2Spec.
Set Implicit Arguments. Unset Strict Implicit.
Local Open Scope Z_scope.

Lemma lxor_double a b : 2 * Z.lxor a b = Z.lxor (2 * a) (2 * b).
Proof. rewrite !(Z.mul_comm 2). change 2 with (2 ^ 1). rewrite <- !Z.shiftl_mul_pow2 by lia. apply Z.shiftl_lxor. Qed.
Lemma lxor4 a b c d : Z.lxor (Z.lxor a b) (Z.lxor c d) = Z.lxor (Z.lxor a c) (Z.lxor b d).
Proof. rewrite !Z.lxor_assoc. f_equal. rewrite <- !Z.lxor_assoc. f_equal. apply Z.lxor_comm. Qed.
Lemma clp_nonneg a p : 0 <= a -> 0 <= clp a p.
Proof. intro H. induction p; cbn [clp]; auto; [apply Z.lxor_nonneg; lia|lia]. Qed.
Lemma clmul_nonneg a b : 0 <= a -> 0 <= clmul a b.
Proof. intro H. destruct b; cbn [clmul]; try lia. now apply clp_nonneg. Qed.
Lemma clp_lxor_l a b p : clp (Z.lxor a b) p = Z.lxor (clp a p) (clp b p).
Proof.
  induction p as [p IH|p IH|]; cbn [clp]; auto; rewrite IH, lxor_double; auto. apply lxor4.
Qed.
Lemma clmul_lxor_l a b c : clmul (Z.lxor a b) c = Z.lxor (clmul a c) (clmul b c).
Proof. destruct c; cbn [clmul]; auto. apply clp_lxor_l. Qed.
Lemma clmul_0_r a : clmul a 0 = 0. Proof. reflexivity. Qed.
Lemma clmul_0_l b : clmul 0 b = 0.
Proof. destruct b as [|p|]; auto. cbn [clmul]. induction p as [p IH|p IH|]; cbn [clp]; auto; rewrite IH; auto. Qed.
Lemma clp_double_l a p : clp (2 * a) p = 2 * clp a p.
Proof. induction p as [p IH|p IH|]; cbn [clp]; auto; rewrite IH; auto. now rewrite lxor_double. Qed.
Lemma clmul_double_l a b : clmul (2 * a) b = 2 * clmul a b.
Proof. destruct b; cbn [clmul]; auto. apply clp_double_l. Qed.
(** one step by the low bit of the second factor *)
Lemma clmul_step a b : 0 <= b -> clmul a b = Z.lxor (if Z.odd b then a else 0) (2 * clmul a (b / 2)).
Proof.
  intro H. rewrite <- Z.div2_div. destruct b as [|p|p]; [reflexivity| |lia]. destruct p; cbn [Z.odd Z.div2 clmul clp]; rewrite ?Z.lxor_0_l, ?Z.mul_0_r, ?Z.lxor_0_r; reflexivity.
Qed.
Lemma lxor_half a b : Z.lxor a b / 2 = Z.lxor (a / 2) (b / 2).
Proof. change 2 with (2 ^ 1). rewrite <- !Z.shiftr_div_pow2 by lia. apply Z.shiftr_lxor. Qed.
Lemma odd_lxor a b : Z.odd (Z.lxor a b) = xorb (Z.odd a) (Z.odd b).
Proof. rewrite <- !Z.bit0_odd. apply Z.lxor_spec. Qed.
Lemma clmul_lxor_r a b c : 0 <= b -> 0 <= c -> clmul a (Z.lxor b c) = Z.lxor (clmul a b) (clmul a c).
Proof.
  assert (G : forall n b c, 0 <= b < 2 ^ Z.of_nat n -> 0 <= c < 2 ^ Z.of_nat n -> clmul a (Z.lxor b c) = Z.lxor (clmul a b) (clmul a c)).
  { induction n as [|n IH]; intros x y Hx Hy.
    - cbn in Hx, Hy. assert (x = 0) by lia. assert (y = 0) by lia. subst. reflexivity.
    - assert (E : 2 ^ Z.of_nat (S n) = 2 * 2 ^ Z.of_nat n) by (rewrite Nat2Z.inj_succ, Z.pow_succ_r; lia).
      rewrite E in *. rewrite (clmul_step a (b := x)), (clmul_step a (b := y)), (clmul_step a (b := Z.lxor x y)) by (try apply Z.lxor_nonneg; lia).
      rewrite lxor_half, odd_lxor. rewrite IH by (split; [apply Z.div_pos; lia|apply Z.div_lt_upper_bound; lia]).
      rewrite lxor_double, lxor4. f_equal. destruct (Z.odd x), (Z.odd y); cbn [xorb]; rewrite ?Z.lxor_0_l, ?Z.lxor_0_r, ?Z.lxor_nilpotent; reflexivity. }
  intros Hb Hc. set (n := Z.to_nat (Z.max b c)). apply (G n); (split; [auto|]);
    (eapply Z.le_lt_trans; [|apply Z.pow_gt_lin_r; lia]; unfold n; lia).
Qed.
Lemma clmul_double_r a b : 0 <= b -> clmul a (2 * b) = 2 * clmul a b.
Proof.
  intro H. rewrite clmul_step by lia. rewrite Z.odd_mul. cbn [Z.odd]. cbn [andb]. rewrite Z.lxor_0_l. rewrite (Z.mul_comm 2 b), Z.div_mul by lia. reflexivity.
Qed.
Lemma clmul_shift_r a b k : 0 <= b -> 0 <= k -> clmul a (Z.shiftl b k) = Z.shiftl (clmul a b) k.
Proof.
  intros Hb Hk. revert k Hk. apply natlike_ind; [now rewrite !Z.shiftl_0_r|]. intros k Hk IH.
  assert (E : forall z, Z.shiftl z (Z.succ k) = 2 * Z.shiftl z k) by (intro z; rewrite !Z.shiftl_mul_pow2, Z.pow_succ_r by lia; ring).
  rewrite !E, clmul_double_r, IH by (apply Z.shiftl_nonneg; auto). reflexivity.
Qed.
Lemma clmul_shift_l a b k : 0 <= k -> clmul (Z.shiftl a k) b = Z.shiftl (clmul a b) k.
Proof.
  intro Hk. revert k Hk. apply natlike_ind; [now rewrite !Z.shiftl_0_r|]. intros k Hk IH.
  assert (E : forall z, Z.shiftl z (Z.succ k) = 2 * Z.shiftl z k) by (intro z; rewrite !Z.shiftl_mul_pow2, Z.pow_succ_r by lia; ring).
  rewrite !E, clmul_double_l, IH. reflexivity.
Qed.
Lemma clmul_1_l b : 0 <= b -> clmul 1 b = b.
Proof.
  intro H. destruct b as [|p|]; [reflexivity| |lia]. cbn [clmul]. induction p as [p IH|p IH|]; cbn [clp]; auto; rewrite IH by lia; [|reflexivity].
  change (2 * Z.pos p) with (Z.pos (xO p)). reflexivity.
Qed.
Lemma clmul_comm a b : 0 <= a -> 0 <= b -> clmul a b = clmul b a.
Proof.
  intros Ha Hb. revert a Ha.
  assert (G : forall n a, 0 <= a < 2 ^ Z.of_nat n -> clmul a b = clmul b a).
  { induction n as [|n IH]; intros a Ha.
    - cbn in Ha. assert (a = 0) by lia. subst. now rewrite clmul_0_l.
    - assert (E : 2 ^ Z.of_nat (S n) = 2 * 2 ^ Z.of_nat n) by (rewrite Nat2Z.inj_succ, Z.pow_succ_r; lia). rewrite E in Ha.
      rewrite (clmul_step b (b := a)) by lia. rewrite <- IH by (split; [apply Z.div_pos; lia|apply Z.div_lt_upper_bound; lia]).
      rewrite <- clmul_double_l. rewrite <- (clmul_1_l Hb) at 2.
      replace (if Z.odd a then clmul 1 b else 0) with (clmul (if Z.odd a then 1 else 0) b) by (destruct (Z.odd a); [reflexivity|apply clmul_0_l]).
      rewrite <- clmul_lxor_l. f_equal. apply Z.bits_inj'. intros i Hi. rewrite Z.lxor_spec.
      rewrite (Z.div_mod a 2) at 1 by lia. rewrite Zmod_odd. destruct (Z.eq_dec i 0) as [->|Hn].
      + rewrite !Z.bit0_odd, Z.odd_add, Z.odd_mul. cbn [Z.odd andb]. destruct (Z.odd a); reflexivity.
      + replace i with (Z.succ (i - 1)) by lia. rewrite Z.double_bits_succ. destruct (Z.odd a).
        * rewrite Z.testbit_odd_succ by lia. change 1 with (2 * 0 + 1) at 2. rewrite Z.testbit_odd_succ by lia. rewrite Z.bits_0. now destruct (Z.testbit _ _).
        * rewrite Z.add_0_r, Z.double_bits_succ, Z.bits_0. now destruct (Z.testbit _ _). }
  intros a Ha. apply (G (Z.to_nat a)). split; [auto|]. eapply Z.le_lt_trans; [|apply Z.pow_gt_lin_r; lia]. lia.
Qed.
Lemma clmul_assoc a b c : 0 <= a -> 0 <= b -> 0 <= c -> clmul (clmul a b) c = clmul a (clmul b c).
Proof.
  intros Ha Hb Hc. destruct c as [|p|]; [now rewrite !clmul_0_r| |lia]. cbn [clmul]. clear Hc. induction p as [p IH|p IH|]; cbn [clp]; auto.
  - rewrite IH, clmul_lxor_r, clmul_double_r; auto; [apply clp_nonneg; auto|pose proof (@clp_nonneg b p Hb); lia].
  - rewrite IH, clmul_double_r; auto. apply clp_nonneg; auto.
Qed.
(** degrees add *)
Lemma clmul_log2 a b : 0 < a -> 0 < b -> 0 < clmul a b /\ Z.log2 (clmul a b) = Z.log2 a + Z.log2 b.
Proof.
  intros Ha Hb. destruct b as [|p|]; [lia| |lia]. cbn [clmul]. clear Hb. induction p as [p IH|p IH|]; cbn [clp].
  - destruct IH as [Hp Hl]. assert (H2 : Z.log2 (2 * clp a p) = Z.succ (Z.log2 a + Z.log2 (Z.pos p))) by (rewrite Z.log2_double by lia; lia).
    assert (E : Z.log2 (Z.lxor a (2 * clp a p)) = Z.log2 (2 * clp a p)).
    { assert (Hx : 0 <= Z.lxor a (2 * clp a p)) by (apply Z.lxor_nonneg; lia). pose proof (Z.log2_nonneg (Z.pos p)). pose proof (Z.log2_nonneg a).
      assert (B : Z.testbit (Z.lxor a (2 * clp a p)) (Z.log2 (2 * clp a p)) = true).
      { rewrite Z.lxor_spec, Z.bit_log2 by lia. rewrite Z.bits_above_log2 by lia. reflexivity. }
      apply Z.le_antisymm.
      - pose proof (Z.log2_lxor a (2 * clp a p) ltac:(lia) ltac:(lia)). lia.
      - destruct (Z.le_gt_cases (Z.log2 (2 * clp a p)) (Z.log2 (Z.lxor a (2 * clp a p)))); auto.
        rewrite Z.bits_above_log2 in B by lia. discriminate. }
    split.
    + destruct (Z.eq_dec (Z.lxor a (2 * clp a p)) 0) as [E0|E0]; [|pose proof (proj2 (Z.lxor_nonneg a (2 * clp a p)) ltac:(lia)); lia].
      rewrite E0 in E. change (Z.log2 0) with 0 in E. pose proof (Z.log2_nonneg (Z.pos p)). pose proof (Z.log2_nonneg a). lia.
    + rewrite E, H2. change (Z.pos p~1) with (2 * Z.pos p + 1). rewrite Z.log2_succ_double by lia. lia.
  - destruct IH as [Hp Hl]. split; [lia|]. rewrite Z.log2_double by lia. change (Z.pos p~0) with (2 * Z.pos p). rewrite Z.log2_double by lia. lia.
  - split; [auto|]. cbn. lia.
Qed.

(** ** Congruence *)
Section eqp.
  Variable P : Z.
  Hypothesis HP : 0 <= P.
  Lemma eqp_refl a : eqp P a a.
  Proof. exists 0. rewrite Z.lxor_nilpotent, clmul_0_l. auto with zarith. Qed.
  Lemma eqp_sym a b : eqp P a b -> eqp P b a.
  Proof. intros (q & H1 & H2). exists q. now rewrite Z.lxor_comm. Qed.
  Lemma eqp_trans a b c : eqp P a b -> eqp P b c -> eqp P a c.
  Proof.
    intros (q & H1 & H2) (r & H3 & H4). exists (Z.lxor q r). split; [apply Z.lxor_nonneg; lia|].
    rewrite clmul_lxor_l, <- H2, <- H4. rewrite Z.lxor_assoc. f_equal. now rewrite <- Z.lxor_assoc, Z.lxor_nilpotent, Z.lxor_0_l.
  Qed.
  Lemma eqp_lxor a b c d : eqp P a b -> eqp P c d -> eqp P (Z.lxor a c) (Z.lxor b d).
  Proof.
    intros (q & H1 & H2) (r & H3 & H4). exists (Z.lxor q r). split; [apply Z.lxor_nonneg; lia|].
    rewrite clmul_lxor_l, <- H2, <- H4. apply lxor4.
  Qed.
  Lemma eqp_double a b : eqp P a b -> eqp P (2 * a) (2 * b).
  Proof. intros (q & H1 & H2). exists (2 * q). split; [lia|]. rewrite clmul_double_l, <- H2. symmetry. apply lxor_double. Qed.
  Lemma eqp_P k : 0 <= k -> eqp P (Z.shiftl P k) 0.
  Proof.
    intro Hk. exists (Z.shiftl 1 k). split; [apply Z.shiftl_nonneg; lia|]. rewrite Z.lxor_0_r, clmul_shift_l, clmul_1_l by auto. reflexivity.
  Qed.
  Lemma eqp_clmul a b c : 0 <= c -> eqp P a b -> eqp P (clmul a c) (clmul b c).
  Proof.
    intros Hc (q & H1 & H2). exists (clmul q c). split; [now apply clmul_nonneg|].
    rewrite <- clmul_lxor_l, H2. rewrite !clmul_assoc by auto. f_equal. now apply clmul_comm.
  Qed.
  (** remainders are unique *)
  Lemma eqp_unique d a b : Z.log2 P = d -> 0 < P -> 0 <= a < 2 ^ d -> 0 <= b < 2 ^ d -> eqp P a b -> a = b.
  Proof.
    intros Hd Hp Ha Hb (q & H1 & H2). assert (0 <= d) by (subst d; apply Z.log2_nonneg).
    destruct (Z.eq_dec q 0) as [->|Hq].
    - rewrite clmul_0_l in H2. now apply Z.lxor_eq.
    - exfalso. destruct (@clmul_log2 q P ltac:(lia) Hp) as [H3 H4]. rewrite <- H2 in H3, H4.
      assert (Z.lxor a b < 2 ^ d).
      { destruct (Z.lt_ge_cases (Z.lxor a b) (2 ^ d)) as [|G]; auto. exfalso. apply Z.log2_le_pow2 in G; [|auto].
        assert (Z.testbit (Z.lxor a b) (Z.log2 (Z.lxor a b)) = true) by now apply Z.bit_log2.
        rewrite Z.lxor_spec in H0. assert (forall x, 0 <= x < 2 ^ d -> Z.testbit x (Z.log2 (Z.lxor a b)) = false).
        { intros x Hx. destruct (Z.eq_dec x 0) as [->|]; [apply Z.bits_0|]. apply Z.bits_above_log2; [lia|]. apply Z.lt_le_trans with d; auto. apply Z.log2_lt_pow2; lia. }
        rewrite !H5 in H0 by auto. discriminate. }
      apply Z.log2_lt_pow2 in H0; auto. pose proof (Z.log2_nonneg q). lia.
  Qed.
End eqp.

Lemma pmod_eqp P d n z : 0 <= P -> eqp P (pmod P d n z) z.
Proof.
  intro HP. revert z. induction n as [|n IH]; intro z; cbn [pmod]; [apply eqp_refl|].
  eapply eqp_trans; [apply IH|]. destruct (Z.testbit _ _); [|apply eqp_refl].
  rewrite <- (Z.lxor_0_r z) at 2. apply eqp_lxor; [apply eqp_refl|]. apply eqp_P; lia.
Qed.
Lemma lt_pow2_bits z d : 0 <= z -> 0 <= d -> (forall i, d <= i -> Z.testbit z i = false) -> z < 2 ^ d.
Proof.
  intros Hz Hd H. destruct (Z.eq_dec z 0) as [->|]; [apply Z.pow_pos_nonneg; lia|].
  apply Z.log2_lt_pow2; [lia|]. destruct (Z.lt_ge_cases (Z.log2 z) d); auto. specialize (H (Z.log2 z) H0). rewrite Z.bit_log2 in H by lia. discriminate.
Qed.
Lemma bits_lt_pow2 z d i : 0 <= z < 2 ^ d -> d <= i -> 0 <= d -> Z.testbit z i = false.
Proof.
  intros Hz Hi Hd. destruct (Z.eq_dec z 0) as [->|]; [apply Z.bits_0|]. apply Z.bits_above_log2; [lia|]. apply Z.lt_le_trans with d; auto. apply Z.log2_lt_pow2; lia.
Qed.
Lemma pmod_bound P d n z : 0 < P -> Z.log2 P = d -> 0 <= z < 2 ^ (d + Z.of_nat n) -> 0 <= pmod P d n z < 2 ^ d.
Proof.
  intros HP Hd. assert (Hd0 : 0 <= d) by (subst d; apply Z.log2_nonneg).
  revert z. induction n as [|n IH]; intros z Hz; cbn [pmod]; [now rewrite Z.add_0_r in Hz|].
  apply IH. destruct (Z.testbit z (d + Z.of_nat n)) eqn:E.
  - assert (H0 : 0 <= Z.lxor z (Z.shiftl P (Z.of_nat n))) by (apply Z.lxor_nonneg; split; intros _; [apply Z.shiftl_nonneg; lia|lia]).
    split; [auto|]. apply lt_pow2_bits; [auto|lia|]. intros i Hi. rewrite Z.lxor_spec, Z.shiftl_spec by lia.
    destruct (Z.eq_dec i (d + Z.of_nat n)) as [->|].
    + rewrite E. replace (d + Z.of_nat n - Z.of_nat n) with (Z.log2 P) by lia. now rewrite Z.bit_log2.
    + rewrite (@bits_lt_pow2 z (d + Z.of_nat (S n))) by (auto; lia). rewrite Z.bits_above_log2 by lia. reflexivity.
  - split; [lia|]. apply lt_pow2_bits; [lia|lia|]. intros i Hi. destruct (Z.eq_dec i (d + Z.of_nat n)) as [->|]; auto.
    apply (@bits_lt_pow2 z (d + Z.of_nat (S n))); auto; lia.
Qed.
Lemma clmul_bound x y d : 0 <= d -> 0 <= x < 2 ^ d -> 0 <= y < 2 ^ d -> 0 <= clmul x y < 2 ^ (d + d).
Proof.
  intros Hd Hx Hy. split; [now apply clmul_nonneg|]. assert (0 < 2 ^ (d + d)) by (apply Z.pow_pos_nonneg; lia).
  destruct (Z.eq_dec x 0) as [->|]; [now rewrite clmul_0_l|]. destruct (Z.eq_dec y 0) as [->|]; [now rewrite clmul_0_r|].
  destruct (@clmul_log2 x y ltac:(lia) ltac:(lia)) as [H1 H2]. apply Z.log2_lt_pow2; [auto|].
  assert (Z.log2 x < d) by (apply Z.log2_lt_pow2; lia). assert (Z.log2 y < d) by (apply Z.log2_lt_pow2; lia). lia.
Qed.
(** gfmul is the one residue below 2^d congruent to the product *)
Lemma gfmul_spec P d x y : 0 < P -> Z.log2 P = Z.of_nat d -> 0 <= x < 2 ^ Z.of_nat d -> 0 <= y < 2 ^ Z.of_nat d ->
  0 <= gfmul P d x y < 2 ^ Z.of_nat d /\ eqp P (gfmul P d x y) (clmul x y).
Proof.
  intros HP Hd Hx Hy. split; [apply pmod_bound; auto; apply clmul_bound; auto; lia|apply pmod_eqp; lia].
Qed.
Lemma gfmul_unique P d x y z : 0 < P -> Z.log2 P = Z.of_nat d -> 0 <= x < 2 ^ Z.of_nat d -> 0 <= y < 2 ^ Z.of_nat d ->
  0 <= z < 2 ^ Z.of_nat d -> eqp P z (clmul x y) -> z = gfmul P d x y.
Proof.
  intros HP Hd Hx Hy Hz He. destruct (gfmul_spec HP Hd Hx Hy) as [H1 H2].
  apply (@eqp_unique P (Z.of_nat d)); auto. eapply eqp_trans; [exact He|]. now apply eqp_sym.
Qed.
