(** A concrete curve for the examples: y^2 = x^3 + 7 over the field of 43 elements (31 points, a
    prime), with the textbook affine addition and double-and-add multiplication.  It is checked to
    meet [lawful_curve]. *)
From Verif Require Import Base BigModel NumLib CurveModel CurveSpec.
Set Implicit Arguments. Unset Strict Implicit.
Local Open Scope Z_scope.

Definition toyP := 43.
Definition toyN := 31.
Definition inv43 (x : Z) : Z := powm x 41 43.
Definition toy_add (p q : Z * Z) : Z * Z :=
  let (x1, y1) := p in let (x2, y2) := q in
  if (x1 =? 0) && (y1 =? 0) then q
  else if (x2 =? 0) && (y2 =? 0) then p
  else if (x1 =? x2) && negb (y1 =? y2) then (0, 0)
  else let l := if x1 =? x2 then (3 * x1 * x1 * inv43 (2 * y1)) mod 43
                else ((y2 - y1) * inv43 ((x2 - x1) mod 43)) mod 43 in
       let x3 := (l * l - x1 - x2) mod 43 in (x3, (l * (x1 - x3) - y1) mod 43).
Fixpoint toy_mul_pos (p : Z * Z) (k : positive) : Z * Z :=
  match k with
  | xH => p
  | xO k' => let t := toy_mul_pos p k' in toy_add t t
  | xI k' => let t := toy_mul_pos p k' in toy_add p (toy_add t t)
  end.
Definition toy_mulz (p : Z * Z) (k : Z) : Z * Z := match k with Zpos q => toy_mul_pos p q | _ => (0, 0) end.
Definition toyG : Z * Z := (2, 12).
Definition toy_on (p : Z * Z) : bool := ((snd p * snd p - fst p * fst p * fst p - 7) mod 43 =? 0) && (fst p <? 43) && (snd p <? 43).
Definition toy : curve := Curve toyP toyN 6 toy_on toy_add (fun p k => toy_mulz p (be_val k)) (fun k => toy_mulz toyG (be_val k)).
Definition toy_pt (a : Z) : Z * Z := toy_mulz toyG (a mod 31).

Definition all31 (f : Z -> bool) : bool := forallb (fun i => f (Z.of_nat i)) (seq 0 31).
Lemma all31_spec f : all31 f = true -> forall a, 0 <= a < 31 -> f a = true.
Proof.
  intros H a Ha. unfold all31 in H. rewrite forallb_forall in H. specialize (H (Z.to_nat a)).
  rewrite Z2Nat.id in H by lia. apply H, in_seq. lia.
Qed.
Definition pt_eqb (p q : Z * Z) : bool := (fst p =? fst q) && (snd p =? snd q).
Lemma pt_eqb_eq p q : pt_eqb p q = true -> p = q.
Proof.
  destruct p, q. unfold pt_eqb. cbn. intros H. apply andb_prop in H as [H1 H2].
  apply Z.eqb_eq in H1, H2. congruence.
Qed.
Lemma toy_pt_mod a : toy_pt a = toy_pt (a mod 31). Proof. unfold toy_pt. now rewrite Z.mod_mod. Qed.

Theorem toy_lawful : lawful_curve toy toy_pt.
Proof.
  assert (R : forall a, 0 <= a mod 31 < 31) by (intros; apply Z.mod_pos_bound; lia).
  constructor.
  - apply primeb_prime. vm_compute. reflexivity.
  - cbn. unfold toyN. lia.
  - reflexivity.
  - intros a. cbn. unfold toyN, toy_pt. now rewrite Z.mod_mod.
  - assert (E : all31 (fun a => let p := toy_mulz toyG a in (0 <=? fst p) && (fst p <? 43) && (0 <=? snd p) && (snd p <? 43)) = true) by (vm_compute; reflexivity).
    intros a. specialize (all31_spec E (R a)). cbn beta zeta. unfold toy_pt. intros H.
    repeat (apply andb_prop in H as [H ?]). cbn. unfold toyP. split; split; lia.
  - assert (E : all31 (fun a => (a =? 0) || toy_on (toy_mulz toyG a)) = true) by (vm_compute; reflexivity).
    intros a Ha. specialize (all31_spec E (R a)). cbn beta. intros H. apply orb_prop in H as [H|H]; [apply Z.eqb_eq in H; contradiction|exact H].
  - vm_compute. reflexivity.
  - intros k Hk Hn. cbn in *. unfold toyN in Hn. unfold toy_pt. rewrite Z.mod_small; auto. pose proof (be_val_bound Hk). lia.
  - assert (E : all31 (fun a => all31 (fun b => pt_eqb (toy_mulz (toy_mulz toyG a) b) (toy_mulz toyG ((a * b) mod 31)))) = true) by (vm_compute; reflexivity).
    intros a k Hk Hn. change (be_val k < 31) in Hn. cbn [cmul toy]. pose proof (be_val_bound Hk) as Hb.
    pose proof (all31_spec (all31_spec E (R a)) (conj (proj1 Hb) Hn)) as H. apply pt_eqb_eq in H.
    unfold toy_pt. rewrite H. now rewrite Zmult_mod_idemp_l.
  - assert (E : all31 (fun a => all31 (fun b => pt_eqb (toy_add (toy_mulz toyG a) (toy_mulz toyG b)) (toy_mulz toyG ((a + b) mod 31)))) = true) by (vm_compute; reflexivity).
    intros a b. cbn [cadd toy]. pose proof (all31_spec (all31_spec E (R a)) (R b)) as H. apply pt_eqb_eq in H.
    unfold toy_pt. rewrite H. now rewrite <- Zplus_mod.
Qed.
Lemma toy_sized : sized toy.
Proof. unfold sized. cbn. unfold toyP, toyN. lia. Qed.

(** A digest for the examples: two bytes, sum and count of the message bytes. *)
Definition toy_hash : hasher := Hasher 2 4 (fun m => [fold_left (fun a b => (a * 3 + b) mod 256) m 5; (fold_left Z.add m 7) mod 256]).
Lemma toy_hash_ok : hasher_ok toy_hash.
Proof.
  intros m. cbn. split; auto. repeat constructor; try (apply Z.mod_pos_bound; lia).
  all: destruct (rev m) as [|b t] eqn:E; [apply (f_equal (@rev Z)) in E; rewrite rev_involutive in E; subst; cbn; lia|].
  all: apply (f_equal (@rev Z)) in E; rewrite rev_involutive in E; cbn in E; subst; rewrite fold_left_app; cbn; apply Z.mod_pos_bound; lia.
Qed.
