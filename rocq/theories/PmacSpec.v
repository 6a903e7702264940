(** Specification of PMAC (Rogaway, "PMAC: a parallelizable message authentication code") for a
    block size of n bytes and the polynomial x^(8n) + p. *)
From Verif Require Import Base ToolBytesSpec MacSpec OffsetSpec HashSpec.
Set Implicit Arguments. Unset Strict Implicit.

(** [h] is L * x^-1. *)
Definition is_half (n : nat) (p : Z) (L h : bytes) : Prop :=
  length h = n /\ bytes_ok h /\ double n p h = L.
(** [lst] is the last block (of 1..n bytes, empty only for the empty message), [bl] the others. *)
Definition pmac_blocks (n : nat) (p : Z) (E : bytes -> bytes) (h : bytes) (bl : list bytes) (lst : bytes) : bytes :=
  let L := E (repeat 0%Z n) in
  let S := xsum (fun k b => E (xorl b (delta n p L (repeat 0%Z n) k))) 0 (repeat 0%Z n) bl in
  E (if length lst =? n then xorl (xorl S lst) h else xorl S (pad2 n lst)).
Definition pmac_full (n : nat) (p : Z) (E : bytes -> bytes) (h m : bytes) : bytes :=
  let bl := chunks n m in pmac_blocks n p E h (removelast bl) (last bl []).

(** Histories in which a Sum is followed by nothing but a Reset. *)
Fixpoint reset_after_sum (dirty : bool) (ops : list hop) : Prop :=
  match ops with
  | [] => True
  | HReset :: r => reset_after_sum false r
  | HWrite _ :: r => dirty = false /\ reset_after_sum false r
  | HSum _ :: r => dirty = false /\ reset_after_sum true r
  end.
(** The most bytes ever written between two Resets. *)
Fixpoint written_max (acc : nat) (ops : list hop) : nat :=
  match ops with
  | [] => acc
  | HReset :: r => Nat.max acc (written_max 0 r)
  | HWrite m :: r => written_max (acc + length m) r
  | HSum _ :: r => written_max acc r
  end.
