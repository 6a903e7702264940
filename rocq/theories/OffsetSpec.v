(** Offsets of the parallel modes (PMAC, OCB): running sums of L(ntz i) with L(i) = x^i * L in GF(2^(8n)). *)
From Verif Require Import Base ToolBytesSpec.
Set Implicit Arguments. Unset Strict Implicit.

(** Number of trailing zero bits of a positive number. *)
Fixpoint ntz_pos (p : positive) : nat := match p with xO q => S (ntz_pos q) | _ => 0 end.
Definition ntz (i : nat) : nat := match Z.of_nat i with Zpos p => ntz_pos p | _ => 0 end.
(** L(i) = x^i * L *)
Definition xpow (n : nat) (p : Z) (L : bytes) (i : nat) : bytes := Nat.iter i (double n p) L.
(** offset number k: start + L(ntz 1) + ... + L(ntz k) *)
Fixpoint delta (n : nat) (p : Z) (L start : bytes) (k : nat) : bytes :=
  match k with O => start | S j => xorl (delta n p L start j) (xpow n p L (ntz (S j))) end.
(** Sum of F k b_k over the blocks, numbered from 1. *)
Fixpoint xsum (F : nat -> bytes -> bytes) (k : nat) (acc : bytes) (bl : list bytes) : bytes :=
  match bl with [] => acc | b :: r => xsum F (S k) (xorl acc (F (S k) b)) r end.
