(** MGM (RFC 9058) for a 128-bit block cipher E. *)
From Verif Require Import Base Gf2Spec CcmSpec.
Set Implicit Arguments. Unset Strict Implicit.

(** the field of RFC 9058: x^128 + x^7 + x^2 + x + 1 *)
Definition mgm_poly : Z := (2 ^ 128 + 135)%Z.
Definition mgm_times (a b : bytes) : bytes := be_bytes 16 (gfmul mgm_poly 128 (be_val a) (be_val b)).

Section mgm.
  Variable E : bytes -> bytes.
  (** Y_1 = E(0 || ICN), Y_(i+1) = incr_r(Y_i): the low half counts *)
  Definition mgm_Y (N : bytes) (i : nat) : bytes :=
    let y := E N in firstn 8 y ++ be_bytes 8 (be_val (skipn 8 y) + Z.of_nat i).
  (** Z_1 = E(1 || ICN), Z_(i+1) = incr_l(Z_i): the high half counts *)
  Definition mgm_Z (N : bytes) (i : nat) : bytes :=
    let z := E (be_bytes 16 (2 ^ 127 + be_val N)) in be_bytes 8 (be_val (firstn 8 z) + Z.of_nat i) ++ skipn 8 z.
  Definition mgm_stream (N P : bytes) : bytes :=
    xorl P (concat (map (fun i => E (mgm_Y N i)) (seq 0 (S (length P / 16))))).
  (** sum of H_i (x) B_i *)
  Fixpoint mgm_sum (N : bytes) (i : nat) (bl : list bytes) : bytes :=
    match bl with
    | [] => repeat 0%Z 16
    | b :: r => xorl (mgm_times (E (mgm_Z N i)) b) (mgm_sum N (S i) r)
    end.
  Definition mgm_tag (N A C : bytes) : bytes :=
    let len x := be_bytes 8 (8 * Z.of_nat (@length Z x)) in
    E (mgm_sum N 0 (chunks 16 (zpad16 A) ++ chunks 16 (zpad16 C) ++ [len A ++ len C])).
  Definition mgm_encrypt (N A P : bytes) : bytes :=
    let C := mgm_stream N P in C ++ mgm_tag N A C.
End mgm.
