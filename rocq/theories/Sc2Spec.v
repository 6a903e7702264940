(** HC-128 and HC-256, from their descriptions: two tables of N words, one word per step. *)
From Verif Require Import Base WordModel.
Set Implicit Arguments. Unset Strict Implicit.
Local Open Scope nat_scope.

Definition hcf1 (x : Z) : Z := Z.lxor (Z.lxor (rotr 32 7 x) (rotr 32 18 x)) (Z.shiftr x 3).
Definition hcf2 (x : Z) : Z := Z.lxor (Z.lxor (rotr 32 17 x) (rotr 32 19 x)) (Z.shiftr x 10).
(** byte k of a word *)
Definition byte_no (x k : Z) : nat := Z.to_nat (x / 2 ^ (8 * k) mod 256).
Section tables.
  (** [change T U j]: the new value of entry j of table T; [filter x U]: the output filter *)
  Variable N : nat.
  Variables changeP changeQ : list Z -> list Z -> nat -> Z.
  Variable filter : Z -> list Z -> Z.
  (** the entry d places before j, cyclically *)
  Definition back (T : list Z) (j d : nat) : Z := T.[(j + N - d) mod N].
  (** the tables and the number of the step *)
  Definition hc_step (s : list Z * list Z * nat) : list Z * list Z * nat :=
    let '(P, Q, i) := s in let j := i mod N in
    if i mod (2 * N) <? N then (upd j (changeP P Q j) P, Q, i + 1) else (P, upd j (changeQ Q P j) Q, i + 1).
  (** the word that the step puts out *)
  Definition hc_out (s : list Z * list Z * nat) : Z :=
    let '(P, Q, i) := s in let j := i mod N in let '(P', Q', _) := hc_step s in
    if i mod (2 * N) <? N then Z.lxor (filter (back P' j 12) Q) P'.[j] else Z.lxor (filter (back Q' j 12) P) Q'.[j].
  (** byte n of the keystream *)
  Definition hc_stream (s : list Z * list Z * nat) (n : nat) : Z := (le_bytes 4 (hc_out (Nat.iter (n / 4) hc_step s))).[n mod 4].
End tables.
(** the expanded key W, entry i *)
Section expand.
  Variable first : list Z.
  Fixpoint hcW (n : nat) : list Z :=
    match n with
    | O => first
    | S m => let w := hcW m in let i := 16 + m in
        w ++ [((hcf2 w.[i - 2] + w.[i - 7] + hcf1 w.[i - 15] + w.[i - 16] + Z.of_nat i) mod 2 ^ 32)%Z]
    end.
End expand.
(** HC-128 *)
Definition hc128_h (x : Z) (U : list Z) : Z := wadd 32 U.[byte_no x 0] U.[256 + byte_no x 2].
Definition hc128_P (T U : list Z) (j : nat) : Z :=
  let b := back 512 T j in ((T.[j] + (Z.lxor (rotr 32 10 (b 3%nat)) (rotr 32 23 (b 511%nat)) + rotr 32 8 (b 10%nat))) mod 2 ^ 32)%Z.
Definition hc128_Q (T U : list Z) (j : nat) : Z :=
  let b := back 512 T j in ((T.[j] + (Z.lxor (rotl 32 10 (b 3%nat)) (rotl 32 23 (b 511%nat)) + rotl 32 8 (b 10%nat))) mod 2 ^ 32)%Z.
(** in the set-up the output replaces the entry *)
Definition hc128_setup (c : list Z -> list Z -> nat -> Z) (T U : list Z) (j : nat) : Z := Z.lxor (c T U j) (hc128_h (back 512 T j 12) U).
Definition hc128_start (key iv : bytes) : list Z * list Z * nat :=
  let k := ldw 4 key in let v := ldw 4 iv in let W := hcW (k ++ k ++ v ++ v) 1264 in
  Nat.iter 1024 (hc_step 512 (hc128_setup hc128_P) (hc128_setup hc128_Q)) (slice 256 512 W, slice 768 512 W, 0).
Definition hc128_ks (key iv : bytes) : nat -> Z := hc_stream 512 hc128_P hc128_Q hc128_h (hc128_start key iv).
(** HC-256 *)
Definition hc256_h (x : Z) (U : list Z) : Z :=
  ((U.[byte_no x 0] + U.[256 + byte_no x 1] + U.[512 + byte_no x 2] + U.[768 + byte_no x 3]) mod 2 ^ 32)%Z.
Definition hc256_c (T U : list Z) (j : nat) : Z :=
  let b := back 1024 T j in
  ((T.[j] + b 10%nat + (Z.lxor (rotr 32 10 (b 3%nat)) (rotr 32 23 (b 1023%nat)) + U.[Z.to_nat (Z.lxor (b 3%nat) (b 1023%nat) mod 1024)])) mod 2 ^ 32)%Z.
Definition hc256_start (key iv : bytes) : list Z * list Z * nat :=
  let W := hcW (ldw 4 key ++ ldw 4 iv) 2544 in
  Nat.iter 4096 (hc_step 1024 hc256_c hc256_c) (slice 512 1024 W, slice 1536 1024 W, 0).
Definition hc256_ks (key iv : bytes) : nat -> Z := hc_stream 1024 hc256_c hc256_c hc256_h (hc256_start key iv).
