(** EAX (Bellare, Rogaway, Wagner 2004) for a 128-bit block cipher. *)
From Verif Require Import Base BlockModeModel AeadSpec MacSpec.
Set Implicit Arguments. Unset Strict Implicit.

(** OMAC^t(M) = OMAC([t]_128 || M) *)
Definition omac_t (E : bytes -> bytes) (t : Z) (m : bytes) : bytes := cmac_full 16 135 E (be_bytes 16 t ++ m).
(** ciphertext || tag of tau bytes; counter mode starts at N = OMAC^0(nonce) *)
Definition eax_spec (c : cipher) (tau : nat) (nonce ad m : bytes) : bytes :=
  let N := omac_t (enc c) 0 nonce in
  let H := omac_t (enc c) 1 ad in
  let C := go_ctr c N m in
  C ++ firstn tau (xorl N (xorl H (omac_t (enc c) 2 C))).
