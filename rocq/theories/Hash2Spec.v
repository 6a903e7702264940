(** The digests of BELT hash and Bash as standardized. *)
From Verif Require Import Base WordModel HbufSpec BeltModel Hash2Model HashSpec.
Set Implicit Arguments. Unset Strict Implicit.
Local Open Scope nat_scope.

(** zero bytes up to a multiple of n *)
Definition zero_pad (n : nat) (m : bytes) : bytes := m ++ repeat 0%Z ((n - length m mod n) mod n).

(** STB 34.101.31, 6.9: the words X1..Xn of 256 bits (the last one filled with zeros) update (s, h), starting with
    s = 0 and the constant h; then sigma2 of the bit length (128 bits), s and h. *)
Definition belt_step (st : bytes * bytes) (x : bytes) : bytes * bytes :=
  (xorl (fst st) (bh_sigma1 x (snd st)), bh_sigma2 x (snd st)).
Definition belt_digest (m : bytes) : bytes :=
  let st := iterated 32 belt_step (repeat 0%Z 16, bh_iv) (zero_pad 32 m) in
  bh_sigma2 (le_bytes 16 (8 * Z.of_nat (length m)) ++ fst st) (snd st).

(** STB 34.101.77: a sponge with rate 192 - 2 hs bytes; 0x40 and zeros are appended, each block is xored into the first
    bytes of the state, and the first hs bytes are the digest. *)
Definition bash_padded (hs : nat) (m : bytes) : bytes := zero_pad (bash_bs hs) (m ++ [64%Z]).
Definition bash_absorb (hs : nat) (s : list Z) (b : bytes) : list Z :=
  bash_f (xorl s (ldw_be 8 (b ++ repeat 0%Z (2 * hs)))).
Definition bash_digest (hs : nat) (m : bytes) : bytes :=
  firstn hs (stw_be 8 (iterated (bash_bs hs) (bash_absorb hs) (bash_iv hs) (bash_padded hs m))).

(** No Write of the history goes beyond the end of the current block: [pos] bytes of it are filled. *)
Fixpoint fits (bs pos : nat) (ops : list hop) : Prop :=
  match ops with
  | [] => True
  | HWrite p :: r => pos + length p <= bs /\ fits bs ((pos + length p) mod bs) r
  | HSum _ :: r => fits bs pos r
  | HReset :: r => fits bs 0 r
  end.
