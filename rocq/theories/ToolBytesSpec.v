(** Specification of the byte-string helpers: bit strings are read as big-endian numbers. *)
From Verif Require Import Base.
Set Implicit Arguments. Unset Strict Implicit.

(** Multiplication by x in GF(2)[x] modulo x^(8n) + p, on n-byte strings. *)
Definition double_val (n : nat) (p v : Z) : Z :=
  let N := (2 ^ (8 * Z.of_nat n))%Z in
  if (2 * v <? N)%Z then (2 * v)%Z else Z.lxor (2 * v - N) p.
Definition double (n : nat) (p : Z) (x : bytes) : bytes := be_bytes n (double_val n p (be_val x)).

(** Shift by k bits to the left, dropping what leaves at the top. *)
Definition shl_bits (k : Z) (x : bytes) : bytes := be_bytes (length x) (be_val x * 2 ^ k).
(** Rotation right by one bit. *)
Definition ror1 (x : bytes) : bytes :=
  be_bytes (length x) (be_val x / 2 + (be_val x mod 2) * 2 ^ (8 * Z.of_nat (length x) - 1)).
