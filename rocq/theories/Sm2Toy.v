(** The toy curve of ToyCurve with an on-curve test that also refuses negative coordinates: it meets [full_curve]. *)
From Verif Require Import Base BigModel NumLib CurveModel CurveSpec ToyCurve Sm2Spec.
Set Implicit Arguments. Unset Strict Implicit.
Local Open Scope Z_scope.

Definition toy2_on (p : Z * Z) : bool := (0 <=? fst p) && (0 <=? snd p) && toy_on p.
Definition toy2 : curve := Curve toyP toyN 6 toy2_on toy_add (fun p k => toy_mulz p (be_val k)) (fun k => toy_mulz toyG (be_val k)).

Lemma toy_mul_all a k : toy_mulz (toy_pt a) k = toy_pt (a * Z.max 0 k).
Proof.
  destruct k as [|k|k]; try (cbn [toy_mulz]; rewrite Z.max_l by lia; rewrite Z.mul_0_r; reflexivity).
  rewrite Z.max_r by lia. cbn [toy_mulz]. pose proof (lc_add toy_lawful) as A. cbn [cadd toy] in A.
  induction k as [k IH|k IH|]; cbn [toy_mul_pos].
  - rewrite IH, !A. f_equal. rewrite (Pos2Z.inj_xI k). ring.
  - rewrite IH, !A. f_equal. rewrite (Pos2Z.inj_xO k). ring.
  - now rewrite Z.mul_1_r.
Qed.
Lemma toy_base_pt : toyG = toy_pt 1. Proof. reflexivity. Qed.

Definition all43 (f : Z -> bool) : bool := forallb (fun i => f (Z.of_nat i)) (seq 0 43).
Lemma all43_spec f : all43 f = true -> forall a, 0 <= a < 43 -> f a = true.
Proof.
  intros H a Ha. unfold all43 in H. rewrite forallb_forall in H. specialize (H (Z.to_nat a)).
  rewrite Z2Nat.id in H by lia. apply H, in_seq. lia.
Qed.
Theorem toy2_full : full_curve toy2 toy_pt.
Proof.
  pose proof toy_lawful as T. constructor.
  - destruct T. constructor; auto.
    intros a Ha. cbn. unfold toy2_on. destruct (lc_coord a) as [X Y]. cbn in X, Y.
    specialize (lc_on a Ha). cbn in lc_on. rewrite lc_on.
    replace (0 <=? fst (toy_pt a)) with true by lia. replace (0 <=? snd (toy_pt a)) with true by lia. reflexivity.
  - exact toy_sized.
  - intros k Hk. cbn [cbase toy2]. rewrite toy_base_pt, toy_mul_all, Z.mul_1_l. pose proof (be_val_bound Hk). f_equal. lia.
  - intros a k Hk. cbn [cmul toy2]. rewrite toy_mul_all. pose proof (be_val_bound Hk). do 2 f_equal. lia.
  - assert (E : all43 (fun x => all43 (fun y => negb (toy_on (x, y)) || existsb (fun i => pt_eqb (x, y) (toy_pt (Z.of_nat i))) (seq 0 31))) = true)
      by (vm_compute; reflexivity).
    intros [x y] Hp. cbn in Hp. unfold toy2_on in Hp. apply andb_prop in Hp as [Hp O]. apply andb_prop in Hp as [X Y]. cbn in X, Y.
    assert (R : x < 43 /\ y < 43). { unfold toy_on in O. cbn [fst snd] in O. apply andb_prop in O as [O O3]. apply andb_prop in O as [_ O2]. lia. }
    assert (Hx : 0 <= x < 43) by lia. assert (Hy : 0 <= y < 43) by lia.
    pose proof (all43_spec (all43_spec E Hx) Hy) as W. cbn beta in W. rewrite O in W. cbn [negb orb] in W.
    apply existsb_exists in W as (i & _ & W). exists (Z.of_nat i). now apply pt_eqb_eq.
Qed.
