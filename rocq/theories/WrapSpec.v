(** RFC 3394 section 2.2.1 and 2.2.2, index-based, for a 128-bit permutation E. *)
From Verif Require Import Base BlockModeModel.
Set Implicit Arguments.

Definition update {A} (i : nat) (x : A) (l : list A) : list A := firstn i l ++ x :: skipn (S i) l.

Section rfc3394.
  Variable E : bytes -> bytes.
  (** Step s = 1 .. 6n, with i = s mod n (R numbered from 0) and t = s:
      B = E(A | R[i]); A = MSB(64, B) xor t; R[i] = LSB(64, B). *)
  Definition rfc_step (n : nat) (st : bytes * list bytes) (s : nat) : bytes * list bytes :=
    let '(a, r) := st in
    let i := (s - 1) mod n in
    let b := E (a ++ nth i r []) in
    (xorl (firstn 8 b) (be_bytes 8 (Z.of_nat s)), update i (skipn 8 b) r).
  Definition rfc_wrap (iv : bytes) (p : list bytes) : list bytes :=
    let n := length p in
    let '(a, r) := fold_left (rfc_step n) (seq 1 (6 * n)) (iv, p) in a :: r.
End rfc3394.

(** A 128-bit block cipher whose two directions are mutually inverse. *)
Record perm16 (c : cipher) : Prop := {
  p16_size : bsz c = 16;
  p16_law : lawful c;
  p16_inv : forall b, isblock 16 b -> enc c (dec c b) = b
}.
(** A key of n semiblocks that the RFC allows, within the code's limit. *)
Definition wrappable (k : bytes) : Prop :=
  bytes_ok k /\ length k mod 8 = 0 /\ 16 <= length k /\ (Z.of_nat (length k) <= 2 ^ 31)%Z.
