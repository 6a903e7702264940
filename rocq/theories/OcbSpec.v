(** OCB as in RFC 7253, for a 128-bit block cipher E and tags of [tag] bytes. *)
From Verif Require Import Base ToolBytesSpec MacSpec OffsetSpec.
Set Implicit Arguments. Unset Strict Implicit.

(** The complete 16-byte blocks of a message, and what is left over. *)
Definition whole (m : bytes) : list bytes := chunks 16 (firstn (16 * (length m / 16)) m).
Definition tail (m : bytes) : bytes := skipn (16 * (length m / 16)) m.
(** F applied to blocks numbered from k+1. *)
Fixpoint mapk (F : nat -> bytes -> bytes) (k : nat) (bl : list bytes) : list bytes :=
  match bl with [] => [] | b :: r => F (S k) b :: mapk F (S k) r end.

Section ocb.
  Variable E : bytes -> bytes.
  Variable tag : nat.
  Definition zero16 : bytes := repeat 0%Z 16.
  Definition Lstar : bytes := E zero16.
  Definition Ldollar : bytes := double 16 135 Lstar.
  Definition L0 : bytes := double 16 135 Ldollar.

  (** HASH(K, A) *)
  Definition ocb_hash (A : bytes) : bytes :=
    let D := delta 16 135 L0 zero16 in
    let S := xsum (fun k b => E (xorl b (D k))) 0 zero16 (whole A) in
    match tail A with
    | [] => S
    | t => xorl S (E (xorl (pad2 16 t) (xorl (D (length (whole A))) Lstar)))
    end.

  (** Nonce = num2str(TAGLEN mod 128, 7) || zeros(120 - bitlen(N)) || 1 || N, as a number *)
  Definition nonce_val (N : bytes) : Z :=
    ((8 * Z.of_nat tag) mod 128 * 2 ^ 121 + 2 ^ (8 * Z.of_nat (length N)) + be_val N)%Z.
  (** Offset_0 *)
  Definition ocb_start (N : bytes) : bytes :=
    let v := nonce_val N in
    let bottom := (v mod 64)%Z in
    let Ktop := E (be_bytes 16 (v - bottom)) in
    let Stretch := Ktop ++ xorl (firstn 8 Ktop) (slice 1 8 Ktop) in
    be_bytes 16 (be_val Stretch / 2 ^ (64 - bottom)).

  Definition ocb_tag (A checksum offset : bytes) : bytes :=
    firstn tag (xorl (E (xorl (xorl checksum offset) Ldollar)) (ocb_hash A)).
  Definition checksum (bl : list bytes) : bytes := fold_left xorl bl zero16.

  (** OCB-ENCRYPT(K, N, A, P): ciphertext followed by the tag *)
  Definition ocb_encrypt (N A P : bytes) : bytes :=
    let D := delta 16 135 L0 (ocb_start N) in
    let bl := whole P in
    let C := concat (mapk (fun k b => xorl (E (xorl b (D k))) (D k)) 0 bl) in
    match tail P with
    | [] => C ++ ocb_tag A (checksum bl) (D (length bl))
    | t => let Ds := xorl (D (length bl)) Lstar in
           C ++ xorl t (E Ds) ++ ocb_tag A (xorl (checksum bl) (pad2 16 t)) Ds
    end.
End ocb.
