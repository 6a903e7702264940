(** Machine words of w bits as integers in 0..2^w-1: Go's +, -, ^, bits.RotateLeft on unsigned integers, the
    loading and storing of words by encoding/binary, and the frame that the block ciphers of /repo/cipher share. *)
From Verif Require Import Base BlockModeModel.
Set Implicit Arguments. Unset Strict Implicit.
Local Open Scope nat_scope.

Definition wadd (w a b : Z) : Z := ((a + b) mod 2 ^ w)%Z.
Definition wsub (w a b : Z) : Z := ((a - b) mod 2 ^ w)%Z.
Definition wmul (w a b : Z) : Z := ((a * b) mod 2 ^ w)%Z.
Definition wnot (w a : Z) : Z := Z.lxor a (2 ^ w - 1)%Z.
Definition wshl (w a k : Z) : Z := (Z.shiftl a k mod 2 ^ w)%Z.
(** bits.RotateLeft32 and RotateLeft64; a negative k rotates to the right *)
Definition rotl (w k x : Z) : Z :=
  let s := (k mod w)%Z in Z.lor (Z.shiftl x s mod 2 ^ w)%Z (Z.shiftr x (w - s)).
(** the repository's rotate right: rotate left by w - n *)
Definition rotr (w k x : Z) : Z := rotl w (w - k) x.

(** binary.LittleEndian / BigEndian: n-byte words *)
Definition ldw (n : nat) (b : bytes) : list Z := map le_val (chunks n b).
Definition stw (n : nat) (ws : list Z) : bytes := concat (map (le_bytes n) ws).
Definition ldw_be (n : nat) (b : bytes) : list Z := map be_val (chunks n b).
Definition stw_be (n : nat) (ws : list Z) : bytes := concat (map (be_bytes n) ws).

(** Encrypt / Decrypt of a cipher.Block that first checks both lengths (and overlap, not modelled): panic, or
    write the result of one block over the start of dst *)
Definition blk_call (bs : nat) (f : bytes -> bytes) (dst src : bytes) : res bytes :=
  if length src <? bs then Panic
  else if length dst <? bs then Panic
  else Ok (splice 0 (f (firstn bs src)) dst).
Definition word_cipher (n m : nat) (E D : list Z -> list Z) : cipher :=
  {| bsz := m * n; enc := fun b => stw n (E (ldw n b)); dec := fun b => stw n (D (ldw n b)) |}.
Definition word_cipher_be (n m : nat) (E D : list Z -> list Z) : cipher :=
  {| bsz := m * n; enc := fun b => stw_be n (E (ldw_be n b)); dec := fun b => stw_be n (D (ldw_be n b)) |}.

(** Go arrays: assignment to an element, and the index sequences of counting loops *)
Fixpoint upd (i : nat) (v : Z) (l : list Z) : list Z :=
  match l, i with
  | [], _ => []
  | _ :: t, O => v :: t
  | x :: t, S j => x :: upd j v t
  end.
Notation "l .[ i ]" := (nth i l 0%Z) (at level 1, format "l .[ i ]").
(** for i := a; n times; i += st *)
Definition ups (a n st : nat) : list nat := map (fun i => a + st * i) (seq 0 n).
(** for i := a; n times; i -= st *)
Definition downs (a n st : nat) : list nat := map (fun i => a - st * i) (seq 0 n).
