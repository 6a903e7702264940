(** The digests of Streebog and GOST R 34.11-94, and key derivation without a cache. *)
From Verif Require Import Base WordModel HbufSpec Hash3Model.
Set Implicit Arguments. Unset Strict Implicit.
Local Open Scope nat_scope.

(** A message cut into whole blocks of n bytes and the rest. *)
Definition whole (n : nat) (m : bytes) : list bytes := chunks n (firstn (length m / n * n) m).
Definition rest (n : nat) (m : bytes) : bytes := skipn (length m / n * n) m.

(** GOST R 34.11-2012, 8: g_N(h, m) with N, h and m of 64 bytes *)
Definition g_N (N h m : bytes) : bytes := xorl (xorl (stb_e (stb_l (stb_ps (xorl h N))) m) h) m.
(** N of each block counts the bits before it; then the rest with a 1 appended, the length and the sum of the blocks.
    All three are 512-bit little-endian numbers; N and the length are taken modulo [M] (the standard has M = 2^512). *)
Definition stb_pad (t : bytes) : bytes := t ++ [1%Z] ++ repeat 0%Z (63 - length t).
Definition streebog (M : Z) (size : nat) (m : bytes) : bytes :=
  let bs := whole 64 m in
  let p := stb_pad (rest 64 m) in
  let num z := le_bytes 64 (z mod M) in
  let h := fold_left (fun h ib => g_N (num (512 * Z.of_nat (fst ib))%Z) h (snd ib)) (combine (seq 0 (length bs)) bs)
             (repeat (if size =? 32 then 1%Z else 0%Z) 64) in
  let h := g_N (num (512 * Z.of_nat (length bs))%Z) h p in
  let h := g_N (num 0%Z) h (num (8 * Z.of_nat (length m))%Z) in
  let h := g_N (num 0%Z) h (le_bytes 64 (fold_right Z.add 0 (map le_val (bs ++ [p])))%Z) in
  if size =? 32 then skipn 32 h else h.

(** RFC 5831, 7: the blocks, byte-reversed, the last one filled with zeros, then the bit length and the sum of the blocks
    modulo 2^256 go through the step function; the result is reversed. *)
Definition gost94 (E : bytes -> bytes -> bytes) (m : bytes) : bytes :=
  let r := rest 32 m in
  let bs := whole 32 m ++ (if length r =? 0 then [] else [r ++ repeat 0%Z (32 - length r)]) in
  let h := fold_left (fun h b => g94_step E h (rev b)) bs (repeat 0%Z 32) in
  let h := g94_step E h (repeat 0%Z 24 ++ be_bytes 8 (8 * Z.of_nat (length m))) in
  rev (g94_step E h (be_bytes 32 (fold_right Z.add 0 (map le_val bs)))%Z).
