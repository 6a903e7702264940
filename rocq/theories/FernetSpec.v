(** Specification of Fernet tokens (github.com/fernet/spec): version byte, 8-byte big-endian
    seconds since 1970, IV, AES-CBC ciphertext of the PKCS #7 padded message, HMAC. *)
From Verif Require Import Base BlockModeModel.
Set Implicit Arguments. Unset Strict Implicit.
Local Open Scope nat_scope.

(** CBC on lists of blocks. *)
Fixpoint cbc_enc (E : bytes -> bytes) (iv : bytes) (ps : list bytes) : list bytes :=
  match ps with [] => [] | p :: ps' => let c := E (xorl p iv) in c :: cbc_enc E c ps' end.
Fixpoint cbc_dec (Dx : bytes -> bytes) (iv : bytes) (cs : list bytes) : list bytes :=
  match cs with [] => [] | c :: cs' => xorl (Dx c) iv :: cbc_dec Dx c cs' end.

(** An instant: nanoseconds since 1970. *)
Definition instant (sec nsec : Z) : Z := (sec * 10 ^ 9 + nsec)%Z.
(** A token of second [ts] is stale at [now] for a positive time to live [ttl] (nanoseconds). *)
Definition stale (ttl now ts : Z) : Prop :=
  (0 < ttl)%Z /\ (now > instant ts 0 + ttl \/ instant ts 0 > now + 60 * 10 ^ 9)%Z.

Section tok.
  (** the block cipher and the MAC of a key *)
  Variables (aes : bytes -> cipher) (mac : bytes -> bytes -> bytes).
  Definition sign_half (k : bytes) : bytes := firstn 16 k.
  Definition crypt_half (k : bytes) : bytes := skipn 16 k.
  (** PKCS #7 padding to 16 bytes *)
  Definition pad16 (m : bytes) : bytes :=
    let n := 16 - length m mod 16 in m ++ repeat (Z.of_nat n) n.
  (** the signed part *)
  Definition body (k : bytes) (ts : Z) (iv m : bytes) : bytes :=
    [128%Z] ++ be_bytes 8 ts ++ iv ++ concat (cbc_enc (enc (aes (crypt_half k))) iv (chunks 16 (pad16 m))).
  Definition token (k : bytes) (ts : Z) (iv m : bytes) : bytes :=
    body k ts iv m ++ mac (sign_half k) (body k ts iv m).
  (** t is an authentic token with second ts whose payload decrypts to m: m is what stands before
      k bytes of value k, where k is the last byte (k = 0 is accepted too, see C02). *)
  Definition authentic (k : bytes) (t : bytes) (ts : Z) (m : bytes) : Prop :=
    exists (iv : bytes) cs (s : bytes), length iv = 16 /\ all_len 16 cs /\ cs <> [] /\
      (let b := [128%Z] ++ be_bytes 8 ts ++ iv ++ concat cs in t = b ++ mac (sign_half k) b) /\
      s = concat (cbc_dec (dec (aes (crypt_half k))) iv cs) /\
      s = m ++ repeat (last s 0%Z) (Z.to_nat (last s 0%Z)).
End tok.
