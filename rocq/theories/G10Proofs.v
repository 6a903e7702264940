(** Proofs about the curve arithmetic of pubkey/gost. *)
From Verif Require Import Base BigModel NumLib ModRw ElgProofs CurveModel G10Model G10Spec.
Set Implicit Arguments. Unset Strict Implicit.
Local Open Scope Z_scope.

Lemma mod_eq_small' x y m : 0 <= x < m -> x mod m = y mod m -> y mod m = x.
Proof. intros H E. rewrite <- E. now apply Z.mod_small. Qed.
Lemma g_pos_mod c x : 0 < gP c -> g_pos c (x mod gP c) = x mod gP c.
Proof. intros H. unfold g_pos. pose proof (Z.mod_pos_bound x (gP c) H). destruct (Z.ltb_spec (x mod gP c) 0); [lia|reflexivity]. Qed.
Lemma mod_inv_or_prime old x m : prime m -> x mod m <> 0 -> exists i, mod_inv_or old x m = i /\ 0 <= i < m /\ i * x =[m]= 1.
Proof.
  intros Hp Hx. assert (0 < m) by (destruct Hp; lia). destruct (@mod_inverse_ok x m) as [i Hi]; auto; [now apply prime_gcd_mod|].
  unfold mod_inv_or. rewrite Hi. exists i. split; auto. now apply mod_inverse_some in Hi.
Qed.
Lemma mod_inv_or_zero old x m : 1 < m -> x mod m = 0 -> mod_inv_or old x m = old.
Proof.
  intros Hm Hx. unfold mod_inv_or. rewrite mod_inverse_none; auto. intros E.
  apply Z.mod_divide in Hx; [|lia]. pose proof (Z.gcd_greatest x m m Hx (Z.divide_refl m)) as D. rewrite E in D. apply Z.divide_1_r_nonneg in D; lia.
Qed.

(** The formulas of [g_add] with the slope named. *)
Definition g_from (c : gcurve) (t : Z) (p1 p2 : Z * Z) : Z * Z :=
  let tx := (t * t - fst p1 - fst p2) mod gP c in (tx, ((fst p1 - tx) * t - snd p1) mod gP c).
Lemma g_from_ok c t l p1 p2 p3 : 0 < gP c -> 0 <= fst p3 < gP c -> 0 <= snd p3 < gP c -> t =[gP c]= l ->
  fst p3 mod gP c = (l ^ 2 - fst p1 - fst p2) mod gP c -> snd p3 mod gP c = (l * (fst p1 - fst p3) - snd p1) mod gP c -> g_from c t p1 p2 = p3.
Proof.
  intros HP Hx Hy Ht Ex Ey. destruct p1 as [x1 y1], p2 as [x2 y2], p3 as [x3 y3]. unfold g_from. cbn [fst snd] in *. zq_of Ht. zq_of Ex. zq_of Ey.
  assert (E1 : (t * t - x1 - x2) mod gP c = x3).
  { apply mod_eq_small'; auto. to_zq. rewrite Ex, Ht. replace (l ^ 2) with (l * l) by ring. reflexivity. }
  rewrite E1. f_equal. apply mod_eq_small'; auto. to_zq. rewrite Ey, Ht. replace ((x1 - x3) * l) with (l * (x1 - x3)) by ring. reflexivity.
Qed.

Section Curve.
Variables (c : gcurve) (pt : Z -> Z * Z).
Hypothesis HL : lawful_gost c pt.
Notation P := (gP c). Notation Q := (gQ c).

Lemma gP_pos : 3 < P. Proof. exact (lg_P2 HL). Qed.
Lemma gQ_pos : 2 < Q. Proof. exact (lg_Q2 HL). Qed.

Lemma prime_or p a b : prime p -> (a * b) mod p = 0 -> a mod p = 0 \/ b mod p = 0.
Proof.
  intros Hp H. assert (p <> 0) by (destruct Hp; lia). apply Z.mod_divide in H; auto. apply prime_mult in H as [H|H]; auto; [left|right]; now apply Z.mod_divide.
Qed.
Lemma neg_nz a : a mod Q <> 0 -> (- a) mod Q <> 0.
Proof. intros H E. apply H. pose proof gQ_pos. apply Z.mod_divide in E; [|lia]. apply Z.mod_divide; [lia|]. apply -> Z.divide_opp_r in E. exact E. Qed.
Lemma dbl_nz a : a mod Q <> 0 -> (a + a) mod Q <> 0.
Proof.
  intros H E. replace (a + a) with (2 * a) in E by ring. apply prime_or in E as [E|E]; auto; [|exact (lg_Q HL)].
  pose proof gQ_pos. rewrite Z.mod_small in E; lia.
Qed.
Lemma y_nz a : a mod Q <> 0 -> snd (pt a) <> 0.
Proof.
  intros H E. pose proof gP_pos. pose proof gQ_pos. destruct (lg_neg HL H) as [X Y]. pose proof (lg_coord HL H) as [_ B]. pose proof (lg_coord HL (neg_nz H)) as [_ B'].
  rewrite E, Z.add_0_r, Z.mod_small in Y by lia.
  assert (S : pt (- a) = pt a) by (destruct (pt a), (pt (- a)); cbn in *; congruence).
  apply lg_inj with (1 := HL) in S; auto using neg_nz. apply (dbl_nz H).
  apply cong_div in S; [|lia]. apply Z.mod_divide; [lia|]. apply -> Z.divide_opp_r. replace (- (a + a)) with (- a - a) by ring. exact S.
Qed.
(** Two multiples with the same x coordinate are equal or opposite. *)
Lemma same_x a b : a mod Q <> 0 -> b mod Q <> 0 -> fst (pt a) = fst (pt b) -> pt a = pt b \/ (a + b) mod Q = 0.
Proof.
  intros Ha Hb E. pose proof gP_pos. pose proof gQ_pos. pose proof (lg_on HL Ha) as Ea. pose proof (lg_on HL Hb) as Eb. rewrite E in Ea. rewrite <- Ea in Eb. symmetry in Eb.
  destruct (lg_coord HL Ha) as [_ Ba]. destruct (lg_coord HL Hb) as [_ Bb].
  apply cong_div in Eb; [|lia]. replace (snd (pt a) ^ 2 - snd (pt b) ^ 2) with ((snd (pt a) - snd (pt b)) * (snd (pt a) + snd (pt b))) in Eb by ring.
  apply prime_mult in Eb as [D|D]; [| |exact (lg_P HL)].
  - left. destruct D as [q D]. assert (q = 0) by nia. subst q. destruct (pt a), (pt b); cbn in *. f_equal; lia.
  - right. destruct (lg_neg HL Hb) as [X Y]. destruct (lg_coord HL (neg_nz Hb)) as [_ Bn].
    assert (S : pt a = pt (- b)).
    { destruct (pt a) as [xa ya], (pt (- b)) as [xn yn], (pt b) as [xb yb]. cbn [fst snd] in *. f_equal; [congruence|].
      apply Z.mod_divide in Y; [|lia]. destruct D as [q D], Y as [q' Y]. assert (E0 : ya - yn = (q - q') * P) by lia. assert (E1 : -P < (q - q') * P < P) by lia. assert (q - q' = 0) by (clear - E1 H; nia). lia. }
    apply lg_inj with (1 := HL) in S; auto using neg_nz. apply cong_div in S; [|lia]. apply Z.mod_divide; [lia|]. now replace (a + b) with (a - - b) by ring.
Qed.
Lemma on_pt a : a mod Q <> 0 -> g_on c (pt a) = true.
Proof.
  intros H. pose proof gP_pos. unfold g_on, g_poly. rewrite g_pos_mod by lia. apply Z.eqb_eq. pose proof (lg_on HL H) as E.
  replace (snd (pt a) * snd (pt a)) with (snd (pt a) ^ 2) by ring. rewrite E. f_equal. ring.
Qed.
Lemma guard_pt (A : Type) a (k : res A) : a mod Q <> 0 -> g_guard c (pt a) k = k.
Proof. intros H. unfold g_guard. rewrite on_pt by auto. now destruct (_ && _). Qed.

Lemma slope_eq t l k w i : prime P -> k mod P <> 0 -> (l * k) mod P = w mod P -> i * k =[P]= 1 -> t = (w * i) mod P -> t =[P]= l.
Proof.
  intros Hp Hk El Ei ->. pose proof gP_pos. apply (@cong_cancel _ _ k); [lia|now apply prime_gcd_mod|].
  zq_of El. zq_of Ei. to_zq. rewrite zq_mod. replace (w * i * k) with (w * (i * k)) by ring. rewrite Ei, El. rewrite Z.mul_1_r. reflexivity.
Qed.
Lemma sub_nz x y : 0 <= x < P -> 0 <= y < P -> x <> y -> (x - y) mod P <> 0.
Proof. intros Hx Hy N E. apply Z.mod_divide in E; [|lia]. destruct E as [q E]. assert (q = 0) by nia. subst. lia. Qed.

(** ** The addition *)
Lemma g_add_pt a b : a mod Q <> 0 -> b mod Q <> 0 -> (a + b) mod Q <> 0 -> g_add c (pt a) (pt b) = pt (a + b).
Proof.
  intros Ha Hb Hab. pose proof gP_pos. pose proof (lg_add HL Ha Hb Hab) as HS. pose proof (@same_x a b Ha Hb) as HX. pose proof (y_nz Ha) as HY.
  destruct (lg_coord HL Ha) as [Ax Ay], (lg_coord HL Hb) as [Bx By], (lg_coord HL Hab) as [Cx Cy].
  destruct (pt a) as [x1 y1], (pt b) as [x2 y2], (pt (a + b)) as [x3 y3]. cbn [fst snd] in *. destruct HS as (l & Hl & E3 & E4).
  unfold g_add. rewrite !g_pos_mod by lia.
  match goal with |- ((?t0 * _ - _ - _) mod _, _) = _ => change (g_from c t0 (x1, y1) (x2, y2) = (x3, y3)) end.
  apply g_from_ok with (l := l); auto; [lia|].
  destruct (Z.eqb_spec x1 x2) as [->|Nx]; cbn [andb].
  - destruct (Z.eq_dec x2 x2); [|congruence].
    assert (y1 = y2) by (destruct (HX eq_refl) as [E|E]; [congruence|contradiction]). subst y2. rewrite Z.eqb_refl.
    assert (K : (2 * y1) mod P <> 0).
    { intros E. apply prime_or in E as [E|E]; [| |exact (lg_P HL)]; rewrite Z.mod_small in E; lia. }
    destruct (@mod_inv_or_prime (2 * y1) (2 * y1) P (lg_P HL) K) as (i & -> & Bi & Ei).
    apply (@slope_eq _ _ (2 * y1) (3 * x2 ^ 2 + gA c) i); auto; [exact (lg_P HL)|]. f_equal. ring.
  - destruct (Z.eq_dec x1 x2); [contradiction|].
    assert (K : (x2 - x1) mod P <> 0) by (apply sub_nz; auto).
    assert (K' : ((x2 - x1) mod P) mod P <> 0) by now rewrite Z.mod_mod by lia.
    destruct (@mod_inv_or_prime 0 _ P (lg_P HL) K') as (i & -> & Bi & Ei). rewrite Zmult_mod_idemp_r.
    apply (@slope_eq _ _ (x2 - x1) (y2 - y1) i); auto; [exact (lg_P HL)| |now rewrite Z.mul_comm].
    rewrite <- Ei, Zmult_mod_idemp_r. reflexivity.
Qed.

(** ** Multiples *)
Lemma exp_loop_pt d a u v : a mod Q <> 0 -> 0 < u <= v -> v mod Q <> 0 -> u + Zpos d * v < Q ->
  g_exp_loop c d (pt (a * u)) (pt (a * v)) = pt (a * (u + Zpos d * v)).
Proof.
  pose proof gQ_pos as HQ.
  assert (M : forall k, k mod Q <> 0 -> a mod Q <> 0 -> (a * k) mod Q <> 0) by (intros k Hk Ha E; apply prime_or in E as [E|E]; auto; exact (lg_Q HL)).
  revert u v. induction d as [d IH|d IH|]; intros u v Ha Hu Hv Hb; cbn [g_exp_loop].
  - rewrite !g_add_pt; try apply M; auto; try (rewrite Z.mod_small; nia); try (rewrite <- Z.mul_add_distr_l; apply M; auto; try (rewrite Z.mod_small; nia); now apply dbl_nz).
    rewrite <- !Z.mul_add_distr_l. rewrite IH; auto; try lia; [|now apply dbl_nz]. f_equal. rewrite Pos2Z.inj_xI. ring.
  - rewrite g_add_pt; try apply M; auto; [|rewrite <- Z.mul_add_distr_l; apply M; auto; now apply dbl_nz].
    rewrite <- !Z.mul_add_distr_l. rewrite IH; auto; try lia; [|now apply dbl_nz]. f_equal. rewrite Pos2Z.inj_xO. ring.
  - rewrite g_add_pt; try apply M; auto; try (rewrite Z.mod_small; lia); [|rewrite <- Z.mul_add_distr_l; apply M; auto; rewrite Z.mod_small; lia].
    f_equal. ring.
Qed.
Lemma mul_nz a b : a mod Q <> 0 -> b mod Q <> 0 -> (a * b) mod Q <> 0.
Proof. intros Ha Hb E. apply prime_or in E as [E|E]; auto. exact (lg_Q HL). Qed.
Lemma exp_pt a k : a mod Q <> 0 -> 0 < k < Q -> g_exp c k (pt a) = Ok (pt (a * k)).
Proof.
  intros Ha Hk. unfold g_exp. destruct (Z.eqb_spec k 0); [lia|]. f_equal. destruct (k - 1) as [|d|d] eqn:E; try lia.
  - replace k with 1 by lia. now rewrite Z.mul_1_r.
  - pose proof (@exp_loop_pt d a 1 1 Ha ltac:(lia) ltac:(rewrite Z.mod_small; pose proof gQ_pos; lia) ltac:(lia)) as H. rewrite Z.mul_1_r in H. rewrite H. f_equal. f_equal. lia.
Qed.
Lemma pt_eq a b : a mod Q = b mod Q -> pt a = pt b.
Proof. intros E. rewrite <- (lg_mod HL a), <- (lg_mod HL b). congruence. Qed.
Lemma mult_pt a key : a mod Q <> 0 -> be_val key mod Q <> 0 -> g_mult c (pt a) key = Ok (pt (a * be_val key)).
Proof.
  intros Ha Hk. pose proof gQ_pos. unfold g_mult. rewrite guard_pt by auto. cbv zeta.
  destruct (Z.eqb_spec (be_val key) 0) as [E|_]; [rewrite E, Zmod_0_l in Hk; congruence|].
  pose proof (Z.mod_pos_bound (be_val key) Q ltac:(lia)). rewrite exp_pt by (auto; lia). f_equal. apply pt_eq. now rewrite Zmult_mod_idemp_r.
Qed.
Lemma mult_panics a key : be_val key mod Q = 0 -> g_mult c (pt a) key = Panic.
Proof.
  intros E. unfold g_mult, g_guard, g_exp. rewrite E. cbn [Z.eqb]. destruct (_ && _); [now destruct (be_val key =? 0)|]. destruct (g_on c (pt a)); [|reflexivity]. cbn [negb]. now destruct (be_val key =? 0).
Qed.
Lemma one_nz : 1 mod Q <> 0. Proof. pose proof gQ_pos. rewrite Z.mod_small; lia. Qed.
Lemma base_pt' key : be_val key mod Q <> 0 -> g_base c key = Ok (pt (be_val key)).
Proof. intros H. unfold g_base. rewrite <- (lg_base HL). rewrite mult_pt; auto using one_nz. now rewrite Z.mul_1_l. Qed.
Lemma base_panics key : be_val key mod Q = 0 -> g_base c key = Panic.
Proof. intros H. unfold g_base. rewrite <- (lg_base HL). now apply mult_panics. Qed.
End Curve.
