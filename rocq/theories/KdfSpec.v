(** Specification of the key derivation functions: RFC 8018 (PBKDF2), RFC 7292 B.2, NIST SP 800-108, RFC 7836 4.5, RFC 7296
    2.13 (prf+), ANSI X9.63, RFC 4880 3.7.1 and bcrypt_pbkdf. Keys are described byte by byte. *)
From Verif Require Import Base WordModel.
Set Implicit Arguments. Unset Strict Implicit.
Local Open Scope nat_scope.

(** The computation ends with r when it may run long enough; it never ends. *)
Definition returns {A} (f : nat -> option A) (r : A) : Prop := exists n, forall m, n <= m -> f m = Some r.
Definition never_returns {A} (f : nat -> option A) : Prop := forall m, f m = None.

(** key is the first n bytes of the blocks T 0, T 1, ..., of h bytes each. *)
Definition by_blocks (h : nat) (T : nat -> bytes) (n : Z) (key : bytes) : Prop :=
  Z.of_nat (length key) = n /\ forall p, p < length key -> key.[p] = (T (p / h)).[p mod h].
(** The first n bytes of l, l, l, ... *)
Definition repeated (n : nat) (l : bytes) : bytes := if length l =? 0 then [] else map (fun x => l.[x mod length l]) (seq 0 n).
(** The bytewise sum of strings of h bytes. *)
Definition xor_of (h : nat) (ls : list bytes) : bytes := map (fun x => fold_right Z.lxor 0%Z (map (fun l => l.[x]) ls)) (seq 0 h).

(** RFC 2104 *)
Definition hmac_of (H : bytes -> bytes) (bs : nat) (K m : bytes) : bytes :=
  let K0 := if bs <? length K then H K else K in
  let K0 := K0 ++ repeat 0%Z (bs - length K0) in
  H (xorl K0 (repeat 92%Z bs) ++ H (xorl K0 (repeat 54%Z bs) ++ m)).

(** RFC 8018 5.2: block number i (from 0) is the sum of c strings, the first PRF(salt || INT(i + 1)), each next one the PRF of
    the one before. *)
Definition pbkdf2_block (prf : bytes -> bytes) (h : nat) (salt : bytes) (c i : nat) : bytes :=
  xor_of h (map (fun j => Nat.iter j prf (prf (salt ++ be_bytes 4 (Z.of_nat (i + 1))))) (seq 0 c)).
(** Zero padding of gost_pbkdf2: to the next multiple of bs, a whole block when the length is one already. *)
Definition pad_beyond (bs : nat) (K : bytes) : bytes := K ++ repeat 0%Z (bs - length K mod bs).
Definition nested (H : bytes -> bytes) (K m : bytes) : bytes :=
  H (xorl K (repeat 92%Z (length K)) ++ H (xorl K (repeat 54%Z (length K)) ++ m)).

(** RFC 7292 B.2 *)
Definition ceil_to (v n : nat) : nat := v * ((n + v - 1) / v).
Section p12.
  Variable H : bytes -> bytes.
  Variables (v : nat) (r : nat) (ID : Z).
  Definition p12_A (I : bytes) : bytes := Nat.iter r H (repeat ID v ++ I).
  Definition p12_next (I : bytes) : bytes :=
    concat (map (fun Ij => be_bytes v (be_val Ij + be_val (repeated v (p12_A I)) + 1)) (chunks v I)).
  Definition p12_block (salt password : bytes) (i : nat) : bytes :=
    p12_A (Nat.iter i p12_next (repeated (ceil_to v (length salt)) salt ++ repeated (ceil_to v (length password)) password)).
End p12.

(** The shortest big-endian coding of v, one byte at least. *)
Definition shortest_be (v : Z) (L : bytes) : Prop :=
  bytes_ok L /\ be_val L = v /\ 0 < length L /\ (length L = 1 \/ L.[0] <> 0%Z).
(** SP 800-108: fixed input data and the three modes; block i is counted from 0, the counter from 1. *)
Definition fixed_input (label context L : bytes) : bytes := label ++ [0%Z] ++ context ++ L.
Definition counter_of (cs i : nat) : bytes := be_bytes cs (Z.of_nat (i + 1)).
Section kb.
  Variable prf : bytes -> bytes.
  Variables (cs : nat) (fixed : bytes).
  Definition kb_counter_block (i : nat) : bytes := prf (counter_of cs i ++ fixed).
  Fixpoint kb_feedback_block (iv : bytes) (i : nat) : bytes :=
    prf (match i with O => iv | S i' => kb_feedback_block iv i' end ++ counter_of cs i ++ fixed).
  Definition kb_pipeline_block (i : nat) : bytes := prf (Nat.iter (S i) prf fixed ++ counter_of cs i ++ fixed).
End kb.

(** RFC 7836 4.5 with R = 1 *)
Definition kt_block (M : bytes -> bytes) (label seed : bytes) (len : Z) (i : nat) : bytes :=
  M ([Z.of_nat (i + 1)] ++ label ++ [0%Z] ++ seed ++ be_bytes 2 (8 * len)).
(** RFC 7296 2.13 *)
Fixpoint prfplus_block (M : bytes -> bytes) (salt : bytes) (i : nat) : bytes :=
  M (match i with O => [] | S i' => prfplus_block M salt i' end ++ salt ++ [to_byte (Z.of_nat (i + 1))]).
(** ANSI X9.63 *)
Definition x963_block (H : bytes -> bytes) (z : bytes) (i : nat) : bytes := H (z ++ be_bytes 4 (Z.of_nat (i + 1))).

(** RFC 4880 3.7.1: the i-th context starts with i zero bytes; count bytes are hashed, but the whole input once at least. *)
Definition s2k_block (H : bytes -> bytes) (salt password : bytes) (count : Z) (i : nat) : bytes :=
  H (repeat 0%Z i ++ repeated (Z.to_nat (Z.max count (Z.of_nat (length (salt ++ password))))) (salt ++ password)).
(** RFC 4880 3.7.1.3: the coded count c *)
Definition rfc4880_count (c : Z) : Z := ((16 + c mod 16) * 2 ^ (c / 16 + 6))%Z.

(** bcrypt_pbkdf: nb blocks of 32 bytes, spread over the key. *)
Definition bcrypt_block (sha : bytes -> bytes) (bh : bytes -> bytes -> bytes) (password salt : bytes) (rounds i : nat) : bytes :=
  let g := fun m => bh (sha password) (sha m) in
  xor_of 32 (map (fun j => Nat.iter j g (g (salt ++ be_bytes 4 (Z.of_nat (i + 1))))) (seq 0 rounds)).
