(** The contract of a streaming hash.Hash object. *)
From Verif Require Import Base.
Set Implicit Arguments. Unset Strict Implicit.

(** A history of calls on one object. *)
Inductive hop := HWrite (m : bytes) | HSum (inp : bytes) | HReset.
Definition hop_ok (o : hop) : Prop := match o with HWrite m => bytes_ok m | _ => True end.

(** What the Sum calls of a history must return, when the object computes [f]: each appends to
    its argument the value of [f] on all that was written since the start or the last Reset. *)
Fixpoint expected (f : bytes -> bytes) (acc : bytes) (ops : list hop) : list bytes :=
  match ops with
  | [] => []
  | HWrite m :: r => expected f (acc ++ m) r
  | HSum i :: r => (i ++ f acc) :: expected f acc r
  | HReset :: r => expected f [] r
  end.

(** Running an object. *)
Section run.
  Variable S : Type.
  Variable write : S -> bytes -> S.
  Variable sum : S -> bytes -> bytes.
  Variable reset : S -> S.
  Fixpoint hrun (d : S) (ops : list hop) : list bytes :=
    match ops with
    | [] => []
    | HWrite m :: r => hrun (write d m) r
    | HSum i :: r => sum d i :: hrun d r
    | HReset :: r => hrun (reset d) r
    end.
End run.
