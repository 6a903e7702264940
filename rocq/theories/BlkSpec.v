(** What a user of a cipher.Block relies on, in terms of Encrypt and Decrypt on slices. *)
From Verif Require Import Base.
Set Implicit Arguments. Unset Strict Implicit.
Local Open Scope nat_scope.

(** F writes one block over the start of dst, leaves the rest of dst alone, and G takes the block back. *)
Definition undone_by (bs : nat) (F G : bytes -> bytes -> res bytes) : Prop :=
  forall dst dst' src, bytes_ok src -> bytes_ok dst -> bs <= length src -> bs <= length dst -> bs <= length dst' ->
  exists ct, F dst src = Ok ct /\ length ct = length dst /\ bytes_ok ct /\ skipn bs ct = skipn bs dst /\
  exists pt, G dst' ct = Ok pt /\ firstn bs pt = firstn bs src /\ skipn bs pt = skipn bs dst'.
(** only the first block of src matters *)
Definition one_block (bs : nat) (F : bytes -> bytes -> res bytes) : Prop :=
  forall dst src, bs <= length src -> F dst src = F dst (firstn bs src).
Definition panics_if_short (bs : nat) (F : bytes -> bytes -> res bytes) : Prop :=
  forall dst src, length src < bs \/ length dst < bs -> F dst src = Panic.
Record block_cipher (bs : nat) (E D : bytes -> bytes -> res bytes) : Prop := {
  bc_ed : undone_by bs E D;
  bc_de : undone_by bs D E;
  bc_e1 : one_block bs E;
  bc_d1 : one_block bs D;
  bc_es : panics_if_short bs E;
  bc_ds : panics_if_short bs D }.
(** NewCipher takes exactly the keys whose length is listed, and gives a block cipher of block size bs for each. *)
Definition cipher_for (C : Type) (lens : list nat) (bs : nat) (new : bytes -> res C) (E D : C -> bytes -> bytes -> res bytes) : Prop :=
  forall key, bytes_ok key ->
  (In (length key) lens -> exists c, new key = Ok c /\ block_cipher bs (E c) (D c)) /\
  (~ In (length key) lens -> new key = Err).
(** as undone_by, for calls whose source is exactly one block *)
Definition undone_exact (bs : nat) (F G : bytes -> bytes -> res bytes) : Prop :=
  forall dst dst' src, bytes_ok src -> bytes_ok dst -> length src = bs -> bs <= length dst -> bs <= length dst' ->
  exists ct, F dst src = Ok ct /\ length ct = length dst /\ bytes_ok ct /\ skipn bs ct = skipn bs dst /\
  exists pt, G dst' (firstn bs ct) = Ok pt /\ firstn bs pt = src /\ skipn bs pt = skipn bs dst'.
