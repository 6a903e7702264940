(** The block interface of the ciphers that convert the whole of src to words, encrypt the first block and copy all
    the words back: on a source longer than a block the words behind the block are written too, as zeros. *)
From Verif Require Import Base BlkSpec.
Set Implicit Arguments. Unset Strict Implicit.
Local Open Scope nat_scope.

(** With whole words of w bytes: dst gets the block, then zeros for each further whole word of src, as far as dst goes. *)
Definition tail_zeroed (bs w : nat) (F : bytes -> bytes -> res bytes) : Prop :=
  forall dst src, bytes_ok src -> bs <= length src -> bs <= length dst ->
  exists blk, length blk = bs /\ (forall d, length d = bs -> F d (firstn bs src) = Ok blk) /\
  F dst src = Ok (blk ++ gocopy (skipn bs dst) (repeat 0%Z (w * (length src / w) - bs))).
Record zblock_cipher (bs w : nat) (E D : bytes -> bytes -> res bytes) : Prop := {
  zc_ed : undone_exact bs E D;
  zc_de : undone_exact bs D E;
  zc_e1 : tail_zeroed bs w E;
  zc_d1 : tail_zeroed bs w D;
  zc_es : panics_if_short bs E;
  zc_ds : panics_if_short bs D }.
Definition zcipher_for (C : Type) (lens : list nat) (bs w : nat) (new : bytes -> res C) (E D : C -> bytes -> bytes -> res bytes) : Prop :=
  forall key, bytes_ok key ->
  (In (length key) lens -> exists c, new key = Ok c /\ zblock_cipher bs w (E c) (D c)) /\
  (~ In (length key) lens -> new key = Err).
