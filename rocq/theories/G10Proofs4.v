(** Proofs about the twisted Edwards coordinates of pubkey/gost. *)
From Verif Require Import Base BigModel NumLib ModRw ElgProofs G10Model G10Spec G10Proofs.
Set Implicit Arguments. Unset Strict Implicit.
Local Open Scope Z_scope.

Section Edwards.
Variable c : gcurve.
Notation P := (gP c).
Hypothesis Pp : prime P.
Hypothesis P3 : 3 < P.
Variables e d s t : Z.
Hypothesis HE : gE c = Some e.
Hypothesis HD : gD c = Some d.
Hypothesis Hpar : edwards_params P (gA c) (gB c) e d s t.
Hypothesis Hs : s mod P <> 0.
Notation "a == b" := (zq P a b) (at level 70).

Lemma zpos v : g_pos c v == v.
Proof. unfold g_pos. destruct (v <? 0); [|reflexivity]. apply Zq. replace (v + P) with (v + 1 * P) by ring. apply Z_mod_plus_full. Qed.
Lemma zcancel k a b : k mod P <> 0 -> a * k == b * k -> a == b.
Proof. intros Hk [E]. apply Zq. apply (@cong_cancel a b k); [lia|now apply prime_gcd_mod|exact E]. Qed.
Lemma nz_zq a b : a == b -> b mod P <> 0 -> a mod P <> 0.
Proof. intros [E] H. now rewrite E. Qed.
Lemma nz_mul a b : a mod P <> 0 -> b mod P <> 0 -> (a * b) mod P <> 0.
Proof. intros Ha Hb E. apply prime_or in E as [E|E]; auto. Qed.
Lemma nz_small k : 0 < k < P -> k mod P <> 0. Proof. intros H. rewrite Z.mod_small; lia. Qed.
Lemma nz_2 : 2 mod P <> 0. Proof. apply nz_small. lia. Qed.
Lemma nz_4 : 4 mod P <> 0. Proof. change 4 with (2 * 2). apply nz_mul; apply nz_2. Qed.
Lemma nz_6 : 6 mod P <> 0. Proof. change 6 with (2 * 3). apply nz_mul; apply nz_small; lia. Qed.
Lemma zinv old x : x mod P <> 0 -> mod_inv_or old x P * x == 1.
Proof. intros H. destruct (@mod_inv_or_prime old x P Pp H) as (i & -> & _ & E). now apply Zq. Qed.
Lemma inv_nz i x : i * x == 1 -> i mod P <> 0.
Proof.
  intros H E. assert (X : zq P i 0) by (apply Zq; now rewrite E, Zmod_0_l). rewrite X in H. apply zq_eq in H. rewrite Z.mul_0_l, Zmod_0_l, Z.mod_small in H; lia.
Qed.

Lemma st_ok : fst (g_edwards_st c e d) == s /\ snd (g_edwards_st c e d) == t.
Proof.
  destruct Hpar as (E4 & E6 & _ & _). zq_of E4. zq_of E6. unfold g_edwards_st. cbn [fst snd]. split.
  - apply zcancel with (k := 4); [exact nz_4|]. rewrite zq_mod, zpos. replace ((e - d) * mod_inv_or 4 4 P * 4) with ((e - d) * (mod_inv_or 4 4 P * 4)) by ring.
    rewrite (zinv 4 nz_4), <- E4. replace (4 * s * 1) with (s * 4) by ring. reflexivity.
  - apply zcancel with (k := 6); [exact nz_6|]. rewrite zq_mod. replace ((e + d) * mod_inv_or 6 6 P * 6) with ((e + d) * (mod_inv_or 6 6 P * 6)) by ring.
    rewrite (zinv 6 nz_6), <- E6. replace (6 * t * 1) with (t * 6) by ring. reflexivity.
Qed.
Lemma ed_e : e == 2 * s + 3 * t.
Proof.
  destruct Hpar as (E4 & E6 & _ & _). zq_of E4. zq_of E6. apply zcancel with (k := 2); [exact nz_2|].
  replace (e * 2) with ((e - d) + (e + d)) by ring. rewrite <- E4, <- E6. replace (4 * s + 6 * t) with ((2 * s + 3 * t) * 2) by ring. reflexivity.
Qed.
Lemma ed_d : d == 3 * t - 2 * s.
Proof.
  destruct Hpar as (E4 & E6 & _ & _). zq_of E4. zq_of E6. apply zcancel with (k := 2); [exact nz_2|].
  replace (d * 2) with ((e + d) - (e - d)) by ring. rewrite <- E4, <- E6. replace (6 * t - 4 * s) with ((3 * t - 2 * s) * 2) by ring. reflexivity.
Qed.
(** The curve equation in the shifted coordinate T = x - t. *)
Lemma weier T x : x == T + t -> x ^ 3 + gA c * x + gB c == T * (T * T + 3 * t * T + s * s).
Proof.
  destruct Hpar as (_ & _ & EA & EB). zq_of EA. zq_of EB. intros Ex. replace (x ^ 3) with (x * x * x) by ring. rewrite EA, EB, Ex.
  match goal with |- zq _ ?a ?b => replace b with a by ring end. reflexivity.
Qed.

(** The relations both maps establish: T = x - t, u y = T, v (T + s) = T - s. *)
Definition ed_rel (x y u v : Z) : Prop := u * y == x - t /\ v * (x - t + s) == x - t - s.

Lemma ed_curve x y u v : ed_rel x y u v -> y mod P <> 0 -> (x - t) mod P <> 0 -> (x - t + s) mod P <> 0 ->
  (y ^ 2 == x ^ 3 + gA c * x + gB c <-> e * u ^ 2 + v ^ 2 == 1 + d * u ^ 2 * v ^ 2).
Proof.
  intros [Ru Rv] Ny NT NTs. set (T := x - t) in *. rewrite (@weier T x) by (unfold T; replace (x - t + t) with x by ring; reflexivity).
  set (W := T * (T * T + 3 * t * T + s * s)).
  assert (K : (e * u ^ 2 + v ^ 2 - (1 + d * u ^ 2 * v ^ 2)) * (y * y * ((T + s) * (T + s))) == (4 * s * T) * (W - y ^ 2)).
  { match goal with |- zq _ ?a _ => replace a with (e * ((u * y) * (u * y)) * ((T + s) * (T + s)) + (v * (T + s)) * (v * (T + s)) * (y * y) - y * y * ((T + s) * (T + s)) - d * ((u * y) * (u * y)) * ((v * (T + s)) * (v * (T + s)))) by ring end.
    rewrite Ru, Rv, ed_e, ed_d. unfold W. match goal with |- zq _ ?a ?b => replace b with a by ring end. reflexivity. }
  assert (N1 : (y * y * ((T + s) * (T + s))) mod P <> 0) by (repeat apply nz_mul; auto).
  assert (N2 : (4 * s * T) mod P <> 0) by (repeat apply nz_mul; auto; exact nz_4).
  split; intros H.
  - assert (Z0 : W - y ^ 2 == 0) by (rewrite H; rewrite Z.sub_diag; reflexivity). rewrite Z0 in K.
    assert (X : e * u ^ 2 + v ^ 2 - (1 + d * u ^ 2 * v ^ 2) == 0). { apply zcancel with (k := y * y * ((T + s) * (T + s))); auto. rewrite K. rewrite Z.mul_0_r, Z.mul_0_l. reflexivity. }
    replace (e * u ^ 2 + v ^ 2) with (e * u ^ 2 + v ^ 2 - (1 + d * u ^ 2 * v ^ 2) + (1 + d * u ^ 2 * v ^ 2)) by ring. rewrite X. rewrite Z.add_0_l. reflexivity.
  - assert (Z0 : e * u ^ 2 + v ^ 2 - (1 + d * u ^ 2 * v ^ 2) == 0) by (rewrite H; rewrite Z.sub_diag; reflexivity). rewrite Z0 in K.
    assert (X : W - y ^ 2 == 0). { apply zcancel with (k := 4 * s * T); auto. replace ((W - y ^ 2) * (4 * s * T)) with (4 * s * T * (W - y ^ 2)) by ring. rewrite <- K. rewrite !Z.mul_0_l. reflexivity. }
    replace W with (W - y ^ 2 + y ^ 2) by ring. rewrite X. rewrite Z.add_0_l. reflexivity.
Qed.

Lemma xy2uv_rel x y : y mod P <> 0 -> (x - t + s) mod P <> 0 ->
  exists u v, g_xy2uv c (x, y) = Ok (u, v) /\ 0 <= u < P /\ 0 <= v < P /\ ed_rel x y u v.
Proof.
  intros Ny NTs. unfold g_xy2uv. rewrite HE, HD. destruct st_ok as [ES ET]. destruct (g_edwards_st c e d) as [S T]. cbn [fst snd] in *.
  eexists. eexists. split; [reflexivity|]. split; [apply Z.mod_pos_bound; lia|]. split; [apply Z.mod_pos_bound; lia|]. split.
  - rewrite zq_mod, zpos, ET. match goal with |- zq _ (?i * ?k * y) _ => replace (i * k * y) with (k * (i * y)) by ring end. rewrite (zinv 0 Ny). rewrite Z.mul_1_r. reflexivity.
  - assert (E : g_pos c (x - T) + S == x - t + s) by (rewrite zpos, ET, ES; reflexivity).
    rewrite zq_mod. rewrite <- E. rewrite <- Z.mul_assoc, zinv by (now apply (nz_zq E)). rewrite !zpos, ET, ES, Z.mul_1_r. reflexivity.
Qed.
Lemma uv2xy_rel u v : u mod P <> 0 -> (1 - v) mod P <> 0 -> (1 + v) mod P <> 0 ->
  exists x y, g_uv2xy c (u, v) = Ok (x, y) /\ 0 <= x < P /\ 0 <= y < P /\ ed_rel x y u v /\ y mod P <> 0 /\ (x - t) mod P <> 0 /\ (x - t + s) mod P <> 0.
Proof.
  intros Nu Nm Np. unfold g_uv2xy. rewrite HE, HD. destruct st_ok as [ES ET]. destruct (g_edwards_st c e d) as [S T]. cbn [fst snd] in *.
  assert (Ey : g_pos c (1 - v) == 1 - v) by apply zpos.
  assert (N1 : g_pos c (1 - v) mod P <> 0) by now apply (nz_zq Ey).
  assert (N2 : (u * g_pos c (1 - v)) mod P <> 0) by now apply nz_mul.
  pose proof (zinv 0 N1) as I1. set (i1 := mod_inv_or 0 (g_pos c (1 - v)) P) in *. pose proof (zinv (u * g_pos c (1 - v)) N2) as I2. set (i2 := mod_inv_or (u * g_pos c (1 - v)) (u * g_pos c (1 - v)) P) in *.
  rewrite Ey in I1, I2.
  eexists. eexists. split; [reflexivity|]. split; [apply Z.mod_pos_bound; lia|]. split; [apply Z.mod_pos_bound; lia|].
  set (tx := ((1 + v) * S) mod P). assert (Etx : tx == (1 + v) * s) by (unfold tx; rewrite zq_mod, ES; reflexivity).
  set (x := (i1 * tx + T) mod P). set (y := (i2 * tx) mod P).
  assert (X : x - t == i1 * ((1 + v) * s)). { unfold x. rewrite zq_mod, Etx, ET. match goal with |- zq _ ?a ?b => replace a with b by ring end. reflexivity. }
  assert (Y : y == i2 * ((1 + v) * s)) by (unfold y; rewrite zq_mod, Etx; reflexivity).
  assert (NT : (x - t) mod P <> 0). { apply (nz_zq X). apply nz_mul; [exact (inv_nz I1)|now apply nz_mul]. }
  assert (A : (x - t) * (1 - v) == (1 + v) * s). { rewrite X. replace (i1 * ((1 + v) * s) * (1 - v)) with (i1 * (1 - v) * ((1 + v) * s)) by ring. rewrite I1, Z.mul_1_l. reflexivity. }
  split; [split|split; [|split; [exact NT|]]].
  - apply zcancel with (k := 1 - v); auto. rewrite A, Y. replace (u * (i2 * ((1 + v) * s)) * (1 - v)) with (i2 * (u * (1 - v)) * ((1 + v) * s)) by ring. rewrite I2, Z.mul_1_l. reflexivity.
  - apply zcancel with (k := 1 - v); auto. replace (v * (x - t + s) * (1 - v)) with (v * ((x - t) * (1 - v)) + v * s * (1 - v)) by ring. replace ((x - t - s) * (1 - v)) with ((x - t) * (1 - v) - s * (1 - v)) by ring.
    rewrite A. match goal with |- zq _ ?a ?b => replace b with a by ring end. reflexivity.
  - apply (nz_zq Y). apply nz_mul; [exact (inv_nz I2)|now apply nz_mul].
  - intros E. assert (B : (x - t + s) * (1 - v) == 2 * s). { replace ((x - t + s) * (1 - v)) with ((x - t) * (1 - v) + s * (1 - v)) by ring. rewrite A. match goal with |- zq _ ?a ?b => replace b with a by ring end. reflexivity. }
    assert (Z0 : x - t + s == 0) by (apply Zq; rewrite E; now rewrite Zmod_0_l). rewrite Z0, Z.mul_0_l in B. apply (nz_mul nz_2 Hs). rewrite <- (zq_eq B). apply Zmod_0_l.
Qed.

(** Each side determines the other. *)
Lemma rel_nz x y u v : ed_rel x y u v -> y mod P <> 0 -> (x - t) mod P <> 0 -> (x - t + s) mod P <> 0 -> u mod P <> 0 /\ (1 - v) mod P <> 0 /\ (1 + v) mod P <> 0.
Proof.
  intros [Ru Rv] Ny NT NTs. split; [|split]; intros E.
  - assert (Z0 : u == 0) by (apply Zq; rewrite E; now rewrite Zmod_0_l). rewrite Z0, Z.mul_0_l in Ru. apply NT. rewrite <- (zq_eq Ru). apply Zmod_0_l.
  - assert (B : (1 - v) * (x - t + s) == 2 * s). { replace ((1 - v) * (x - t + s)) with (x - t + s - v * (x - t + s)) by ring. rewrite Rv. match goal with |- zq _ ?a ?b => replace b with a by ring end. reflexivity. }
    assert (Z0 : 1 - v == 0) by (apply Zq; rewrite E; now rewrite Zmod_0_l). rewrite Z0, Z.mul_0_l in B. apply (nz_mul nz_2 Hs). rewrite <- (zq_eq B). apply Zmod_0_l.
  - assert (B : (1 + v) * (x - t + s) == 2 * (x - t)). { replace ((1 + v) * (x - t + s)) with (x - t + s + v * (x - t + s)) by ring. rewrite Rv. match goal with |- zq _ ?a ?b => replace b with a by ring end. reflexivity. }
    assert (Z0 : 1 + v == 0) by (apply Zq; rewrite E; now rewrite Zmod_0_l). rewrite Z0, Z.mul_0_l in B. apply (nz_mul nz_2 NT). rewrite <- (zq_eq B). apply Zmod_0_l.
Qed.
Lemma zq_same a b : 0 <= a < P -> 0 <= b < P -> a == b -> a = b.
Proof. intros Ha Hb [E]. now rewrite !Z.mod_small in E. Qed.
Lemma rel_uv x y u v u' v' : ed_rel x y u v -> ed_rel x y u' v' -> y mod P <> 0 -> (x - t + s) mod P <> 0 -> 0 <= u < P -> 0 <= v < P -> 0 <= u' < P -> 0 <= v' < P -> (u, v) = (u', v').
Proof.
  intros [R1 R2] [R3 R4] Ny NTs Bu Bv Bu' Bv'. f_equal; apply zq_same; auto.
  - apply zcancel with (k := y); auto. now rewrite R1, R3.
  - apply zcancel with (k := x - t + s); auto. now rewrite R2, R4.
Qed.
Lemma rel_xy x y u v x' y' : ed_rel x y u v -> ed_rel x' y' u v -> u mod P <> 0 -> (1 - v) mod P <> 0 -> 0 <= x < P -> 0 <= y < P -> 0 <= x' < P -> 0 <= y' < P -> (x, y) = (x', y').
Proof.
  intros [R1 R2] [R3 R4] Nu Nm Bx By Bx' By'.
  assert (G : forall x, v * (x - t + s) == x - t - s -> (x - t) * (1 - v) == (1 + v) * s).
  { intros z R. replace ((z - t) * (1 - v)) with ((z - t - s) - v * (z - t + s) + (1 + v) * s) by ring. rewrite R. rewrite Z.sub_diag, Z.add_0_l. reflexivity. }
  assert (X : x - t == x' - t) by (apply zcancel with (k := 1 - v); auto; now rewrite (G _ R2), (G _ R4)).
  f_equal; apply zq_same; auto.
  - replace x with (x - t + t) by ring. rewrite X. replace (x' - t + t) with x' by ring. reflexivity.
  - apply zcancel with (k := u); auto. replace (y * u) with (u * y) by ring. replace (y' * u) with (u * y') by ring. now rewrite R1, R3.
Qed.
End Edwards.
