(** RFC 3610 (CCM) with M = tag length and nonce length 15 - L. *)
From Verif Require Import Base BlockModeModel.
Set Implicit Arguments. Unset Strict Implicit.

(** Zero-pad to a multiple of 16 bytes and cut into blocks. *)
Definition zpad16 (l : bytes) : bytes := l ++ repeat 0%Z ((16 - length l mod 16) mod 16).

Section rfc3610.
  Variable E : bytes -> bytes.
  Variables M L : nat.
  (** 2.2: CBC-MAC *)
  Definition cbc_mac (b0 : bytes) (bs : list bytes) : bytes :=
    fold_left (fun x b => E (xorl x b)) bs (E b0).
  (** 2.2: B_0 = Flags || N || l(m) *)
  Definition rfc_b0 (n ad m : bytes) : bytes :=
    (64 * (match ad with [] => 0 | _ => 1 end) + 8 * ((Z.of_nat M - 2) / 2) + (Z.of_nat L - 1))%Z
      :: n ++ be_bytes L (Z.of_nat (length m)).
  (** 2.2: encoding of l(a) *)
  Definition rfc_adlen (n : Z) : bytes :=
    if (n <? 2 ^ 16 - 2 ^ 8)%Z then be_bytes 2 n
    else if (n <? 2 ^ 32)%Z then [255; 254]%Z ++ be_bytes 4 n
    else [255; 255]%Z ++ be_bytes 8 n.
  Definition rfc_adblocks (ad : bytes) : list bytes :=
    if length ad =? 0 then [] else chunks 16 (zpad16 (rfc_adlen (Z.of_nat (length ad)) ++ ad)).
  Definition rfc_T (n ad m : bytes) : bytes :=
    firstn M (cbc_mac (rfc_b0 n ad m) (rfc_adblocks ad ++ chunks 16 (zpad16 m))).
  (** 2.3: A_i = Flags || N || counter i *)
  Definition rfc_S (n : bytes) (i : nat) : bytes :=
    E ((Z.of_nat L - 1)%Z :: n ++ be_bytes L (Z.of_nat i)).
  Definition rfc_seal (n ad m : bytes) : bytes :=
    xorl m (concat (map (rfc_S n) (seq 1 ((length m + 15) / 16)))) ++
    xorl (rfc_T n ad m) (firstn M (rfc_S n 0)).
End rfc3610.
