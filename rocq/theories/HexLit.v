(** Reading hexadecimal literals, for the known-answer examples. *)
From Verif Require Import Base.
From Coq Require Import String Ascii.
Set Implicit Arguments. Unset Strict Implicit.
Local Open Scope nat_scope.
Definition hexdigit (a : ascii) : Z :=
  let c := Z.of_nat (nat_of_ascii a) in
  if (c <? 58)%Z then (c - 48)%Z else if (c <? 71)%Z then (c - 55)%Z else (c - 87)%Z.
Fixpoint hx (s : string) : bytes :=
  match s with
  | String a (String b t) => (16 * hexdigit a + hexdigit b)%Z :: hx t
  | _ => []
  end.
(** the answer of a freshly made cipher in a zeroed buffer *)
Definition run {C : Type} (new : res C) (F : C -> bytes -> bytes -> res bytes) (src : string) : res bytes :=
  match new with Ok c => F c (repeat 0%Z (List.length (hx src))) (hx src) | Err => Err | Panic => Panic end.
(** a published answer is met both ways *)
Definition kat {C : Type} (new : res C) (E D : C -> bytes -> bytes -> res bytes) (pt ct : string) : Prop :=
  run new E pt = Ok (hx ct) /\ run new D ct = Ok (hx pt).
Ltac kats := repeat (match goal with |- _ /\ _ => split | |- kat _ _ _ _ _ => split end); vm_compute; reflexivity.
