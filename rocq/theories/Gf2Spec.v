(** Polynomials over GF(2) as non-negative numbers: bit i is the coefficient of x^i. *)
From Verif Require Import Base.
Set Implicit Arguments. Unset Strict Implicit.
Local Open Scope Z_scope.

(** Product without carries. *)
Fixpoint clp (a : Z) (p : positive) : Z :=
  match p with
  | xH => a
  | xO q => 2 * clp a q
  | xI q => Z.lxor a (2 * clp a q)
  end.
Definition clmul (a b : Z) : Z := match b with Zpos p => clp a p | _ => 0 end.
(** Congruence modulo the polynomial P. *)
Definition eqp (P a b : Z) : Prop := exists q, 0 <= q /\ Z.lxor a b = clmul q P.
(** Remainder of long division by a polynomial P of degree d; n quotient bits. *)
Fixpoint pmod (P d : Z) (n : nat) (z : Z) : Z :=
  match n with
  | O => z
  | S k => pmod P d k (if Z.testbit z (d + Z.of_nat k) then Z.lxor z (Z.shiftl P (Z.of_nat k)) else z)
  end.
(** The product in GF(2)[x]/P, for operands of degree below d. *)
Definition gfmul (P : Z) (d : nat) (x y : Z) : Z := pmod P (Z.of_nat d) d (clmul x y).
