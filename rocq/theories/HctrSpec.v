(** Specification of HCTR (Wang, Feng, Wu 2005; GB/T 17964-2021) with the polynomial hash over
    GF(2^128) in the bit order of GCM. *)
From Verif Require Import Base BlockModeModel Gf2Spec CcmSpec.
Set Implicit Arguments. Unset Strict Implicit.
Local Open Scope nat_scope.

(** The k low bits of v in reverse order. *)
Fixpoint rev_bits (k : nat) (v : Z) : Z :=
  match k with O => 0%Z | S j => (v mod 2 * 2 ^ Z.of_nat j + rev_bits j (v / 2))%Z end.
(** x^128 + x^7 + x^2 + x + 1 *)
Definition hctr_poly : Z := (2 ^ 128 + 135)%Z.
(** The first bit of a block is the coefficient of x^0. *)
Definition gmul (a b : bytes) : bytes :=
  be_bytes 16 (rev_bits 128 (gfmul hctr_poly 128 (rev_bits 128 (be_val a)) (rev_bits 128 (be_val b)))).
(** The hash of m and the tweak: the blocks of m || tweak, filled up with zeros, and a block with
    the bit length of m || tweak, evaluated as a polynomial at the hash key. *)
Definition uhash_spec (hkey tweak m : bytes) : bytes :=
  fold_left (fun y b => gmul (xorl y b) hkey)
    (chunks 16 (zpad16 (m ++ tweak)) ++ [be_bytes 16 (8 * Z.of_nat (length (m ++ tweak)))]) (repeat 0%Z 16).
(** Counter mode: block i (from 1) of the key stream is E(S xor i). *)
Definition hctr_stream (E : bytes -> bytes) (S m : bytes) : bytes :=
  xorl m (concat (map (fun i => E (xorl S (be_bytes 16 (Z.of_nat i)))) (seq 1 (length m)))).
(** HCTR with a hash function U; E and Dx are the block cipher and its inverse. *)
Section hctr.
  Variables (E Dx U : bytes -> bytes).
  Definition hctr_enc_spec (p : bytes) : bytes :=
    let '(p0, p1) := (firstn 16 p, skipn 16 p) in
    let mm := xorl p0 (U p1) in
    let cc := E mm in
    let c1 := hctr_stream E (xorl mm cc) p1 in
    xorl cc (U c1) ++ c1.
  Definition hctr_dec_spec (c : bytes) : bytes :=
    let '(c0, c1) := (firstn 16 c, skipn 16 c) in
    let cc := xorl c0 (U c1) in
    let mm := Dx cc in
    let p1 := hctr_stream E (xorl mm cc) c1 in
    xorl mm (U p1) ++ p1.
End hctr.
