(** Setoid rewriting modulo m: [zq m a b] is [a mod m = b mod m] kept opaque to [rewrite]. *)
From Coq Require Import ZArith Lia Setoid Morphisms.
Set Implicit Arguments. Unset Strict Implicit.
Local Open Scope Z_scope.

Inductive zq (m a b : Z) : Prop := Zq : a mod m = b mod m -> zq m a b.
Arguments Zq {m a b}.
Global Instance zq_equiv m : Equivalence (zq m).
Proof.
  split; [intros a; now constructor|intros a b [H]; now constructor|intros a b c [H] [H']; constructor; congruence].
Qed.
Global Instance zq_add m : Proper (zq m ==> zq m ==> zq m) Z.add.
Proof. intros a b [H] c d [H']. constructor. rewrite Zplus_mod, H, H', <- Zplus_mod. reflexivity. Qed.
Global Instance zq_mul m : Proper (zq m ==> zq m ==> zq m) Z.mul.
Proof. intros a b [H] c d [H']. constructor. rewrite Zmult_mod, H, H', <- Zmult_mod. reflexivity. Qed.
Global Instance zq_opp m : Proper (zq m ==> zq m) Z.opp.
Proof.
  intros a b H. replace (- a) with ((-1) * a) by ring. replace (- b) with ((-1) * b) by ring. now rewrite H.
Qed.
Global Instance zq_sub m : Proper (zq m ==> zq m ==> zq m) Z.sub.
Proof. intros a b H c d H'. unfold Z.sub. now rewrite H, H'. Qed.
Lemma zq_mod m a : zq m (a mod m) a.
Proof. constructor. apply Zmod_mod. Qed.
Lemma zq_eq m a b : zq m a b -> a mod m = b mod m. Proof. now intros []. Qed.
Lemma zq_self m : zq m m 0.
Proof. constructor. now rewrite Z_mod_same_full, Zmod_0_l. Qed.
Ltac to_zq := match goal with |- ?a mod ?m = ?b mod ?m => apply zq_eq | |- ?a mod ?m = ?b => apply zq_eq end.
Ltac zq_of H := apply Zq in H.
