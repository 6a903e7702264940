(** ZUC as GM/T 0001 and the ZUC-256 paper state it: a register of sixteen elements of GF(2^31 - 1), written 1 .. 2^31 - 1,
    and the finite state machine F; 128-EEA3, 128-EIA3 and the ZUC-256 MAC on the bits of the keystream. The S-boxes and
    the constants D are data and are those of the model. *)
From Verif Require Import Base BlockModeModel WordModel StreamSpec Sc3Model.
Set Implicit Arguments. Unset Strict Implicit.
Local Open Scope nat_scope.

Section numbers.
Local Open Scope Z_scope.
Definition p31 : Z := 2 ^ 31 - 1.
(** the representative of v modulo 2^31 - 1 in 1 .. 2^31 - 1 *)
Definition cell (v : Z) : Z := if v mod p31 =? 0 then p31 else v mod p31.
(** s16 = 2^15 s15 + 2^17 s13 + 2^21 s10 + 2^20 s4 + (1 + 2^8) s0 + u *)
Definition sp_shift (u : Z) (l : list Z) : list Z :=
  skipn 1 l ++ [cell (2 ^ 15 * l.[15] + 2 ^ 17 * l.[13] + 2 ^ 21 * l.[10] + 2 ^ 20 * l.[4] + (1 + 2 ^ 8) * l.[0] + u)].
(** bits 30 .. 15 and 15 .. 0 of a cell; two halves put together *)
Definition sH (s : Z) : Z := s / 2 ^ 15.
Definition sL (s : Z) : Z := s mod 2 ^ 16.
Definition cat16 (h l : Z) : Z := h * 2 ^ 16 + l.
Definition spX0 (l : list Z) := cat16 (sH l.[15]) (sL l.[14]).
Definition spX1 (l : list Z) := cat16 (sL l.[11]) (sH l.[9]).
Definition spX2 (l : list Z) := cat16 (sL l.[7]) (sH l.[5]).
Definition spX3 (l : list Z) := cat16 (sL l.[2]) (sH l.[0]).
Definition xors (l : list Z) : Z := fold_left Z.lxor l 0.
Definition spL1 (x : Z) := xors (map (fun k => rotl 32 k x) [0; 2; 10; 18; 24]).
Definition spL2 (x : Z) := xors (map (fun k => rotl 32 k x) [0; 8; 14; 22; 30]).
(** the four bytes of a word, most significant first, through S0, S1, S0, S1 *)
Definition spS (x : Z) : Z :=
  match be_bytes 4 x with
  | [a; b; c; d] => be_val [zuc_S0.[Z.to_nat a]; zuc_S1.[Z.to_nat b]; zuc_S0.[Z.to_nat c]; zuc_S1.[Z.to_nat d]]
  | _ => 0
  end.
Definition spR (l : list Z) (r1 r2 : Z) : Z * Z :=
  let w1 := (r1 + spX1 l) mod 2 ^ 32 in
  let w2 := Z.lxor r2 (spX2 l) in
  (spS (spL1 (cat16 (w1 mod 2 ^ 16) (w2 / 2 ^ 16))), spS (spL2 (cat16 (w2 mod 2 ^ 16) (w1 / 2 ^ 16)))).
Definition spW (l : list Z) (r1 r2 : Z) : Z := (Z.lxor (spX0 l) r1 + r2) mod 2 ^ 32.
End numbers.

(** one step of the initialisation, one of the working stage, and the word the latter puts out *)
Definition sp_init_step (s : zst) : zst :=
  Zst (sp_shift (spW (z_l s) (z_r1 s) (z_r2 s) / 2) (z_l s)) (fst (spR (z_l s) (z_r1 s) (z_r2 s))) (snd (spR (z_l s) (z_r1 s) (z_r2 s))).
Definition sp_next (s : zst) : zst :=
  Zst (sp_shift 0 (z_l s)) (fst (spR (z_l s) (z_r1 s) (z_r2 s))) (snd (spR (z_l s) (z_r1 s) (z_r2 s))).
Definition sp_out (s : zst) : Z := Z.lxor (spX3 (z_l s)) (spW (z_l s) (z_r1 s) (z_r2 s)).
(** 32 initialisation steps, one working step whose word is discarded, then word i of the keystream *)
Definition sp_words (cells : list Z) (i : nat) : Z :=
  sp_out (Nat.iter (1 + i) sp_next (Nat.iter 32 sp_init_step (Zst cells 0 0))).
(** cells of ZUC-128: k_i || d_i || iv_i *)
Definition zuc_cells (key iv : bytes) : list Z :=
  map (fun i => key.[i] * 2 ^ 23 + zuc_KD.[i] * 2 ^ 8 + iv.[i])%Z (seq 0 16).
Definition zuc_words (key iv : bytes) : nat -> Z := sp_words (zuc_cells key iv).
(** cells of ZUC-256: iv_0 .. iv_16 are bytes, iv_17 .. iv_24 are the eight 6-bit groups of the last six bytes *)
Definition iv6 (iv : bytes) (j : nat) : Z := (be_val (slice 17 6 iv) / 2 ^ (6 * (7 - (Z.of_nat j - 17))) mod 2 ^ 6)%Z.
Definition zuc256_cells (key iv d : bytes) : list Z :=
  let c a b e f := (a * 2 ^ 23 + b * 2 ^ 16 + e * 2 ^ 8 + f)%Z in
  let k i := key.[i] in let v i := iv.[i] in let dg i j := (d.[i] + iv6 iv j)%Z in
  [c (k 0) d.[0] (k 21) (k 16); c (k 1) d.[1] (k 22) (k 17); c (k 2) d.[2] (k 23) (k 18); c (k 3) d.[3] (k 24) (k 19);
   c (k 4) d.[4] (k 25) (k 20);
   c (v 0) (dg 5 17) (k 5) (k 26); c (v 1) (dg 6 18) (k 6) (k 27); c (v 10) (dg 7 19) (k 7) (v 2);
   c (k 8) (dg 8 20) (v 3) (v 11); c (k 9) (dg 9 21) (v 12) (v 4); c (v 5) (dg 10 22) (k 10) (k 28);
   c (k 11) (dg 11 23) (v 6) (v 13); c (k 12) (dg 12 24) (v 7) (v 14); c (k 13) d.[13] (v 15) (v 8);
   c (k 14) (d.[14] + key.[31] / 16)%Z (v 16) (v 9); c (k 15) (d.[15] + key.[31] mod 16)%Z (k 30) (k 29)].
(** the constants for the keystream alone and for tags of 32, 64 and 128 bits *)
Definition zuc256_d (tag_words : nat) : list Z := nth (match tag_words with 4 => 3 | n => n end) z256_D [].
Definition zuc256_words (tag_words : nat) (key iv : bytes) : nat -> Z := sp_words (zuc256_cells key iv (zuc256_d tag_words)).

(** * Keystreams by byte and by bit *)
Definition ks_bytes (w : nat -> Z) (i : nat) : Z := (be_bytes 4 (w (i / 4))).[i mod 4].
Definition ks_bit (w : nat -> Z) (i : nat) : bool := Z.testbit (w (i / 32)) (Z.of_nat (31 - i mod 32)).
Definition bits_val (l : list bool) : Z := fold_left (fun a b => 2 * a + Z.b2z b)%Z l 0%Z.
(** the 32-bit word that starts at bit i *)
Definition ks_at (w : nat -> Z) (i : nat) : Z := bits_val (map (fun j => ks_bit w (i + j)) (seq 0 32)).
Definition byte_bits (b : Z) : list bool := map (fun j => Z.testbit b (Z.of_nat (7 - j))) (seq 0 8).
Definition msg_bits (data : bytes) : list bool := concat (map byte_bits data).

(** the XOR of the words z_(off+i) for the bits i of the message that are set *)
Definition mac_sum (w : nat -> Z) (off : nat) (m : list bool) : Z :=
  xors (map (fun i => ks_at w (off + i)) (filter (fun i => nth i m false) (seq 0 (length m)))).
(** 128-EIA3: z_i over the set bits, z_LENGTH, and the last of ceil(LENGTH/32) + 2 words *)
Definition eia3 (w : nat -> Z) (m : list bool) : Z :=
  Z.lxor (Z.lxor (mac_sum w 0 m) (ks_at w (length m))) (w ((length m + 31) / 32 + 1)).
(** ZUC-256 MAC of 32 n bits, word j: the first n words, then the n words from bit 32 n + i on for every set bit i and
    for i = LENGTH *)
Definition zuc256_mac (n : nat) (w : nat -> Z) (m : list bool) : list Z :=
  map (fun j => Z.lxor (Z.lxor (w j) (mac_sum w (32 * (n + j)) m)) (ks_at w (32 * (n + j) + length m))) (seq 0 n).
(** IVs: COUNT || BEARER || DIRECTION || 0.., twice *)
Definition eea3_iv (count bearer direction : Z) : bytes :=
  let h := be_bytes 4 count ++ [bearer * 8 + direction * 4; 0; 0; 0]%Z in h ++ h.
Definition eia3_iv (count bearer direction : Z) : bytes :=
  let h := be_bytes 4 count ++ [bearer * 8; 0; 0; 0]%Z in
  h ++ match h with
       | [a; b; c; d; e; f; g; i] => [Z.lxor a (direction * 128); b; c; d; e; f; Z.lxor g (direction * 128); i]%Z
       | _ => []
       end.
(** * The buffering object: when t bytes have gone in, the 4 (t/4) bytes of the complete words have come out *)
Definition ready (t n : nat) : nat := 4 * ((t + n) / 4) - 4 * (t / 4).
(** calls are Write(in, out); out has room for what the call puts out *)
Fixpoint room (t : nat) (calls : list (bytes * bytes)) : Prop :=
  match calls with
  | [] => True
  | (src, out) :: r => ready t (length src) <= length out /\ room (t + length src) r
  end.
(** what the calls have put at the start of the buffers, one after the other; the rest of each is as it was *)
Fixpoint produced (t : nat) (calls : list (bytes * bytes)) (outs : list bytes) : bytes :=
  match calls, outs with
  | (src, _) :: r, o :: os => firstn (ready t (length src)) o ++ produced (t + length src) r os
  | _, _ => []
  end.
Fixpoint rest_kept (t : nat) (calls : list (bytes * bytes)) (outs : list bytes) : Prop :=
  match calls, outs with
  | [], [] => True
  | (src, out) :: r, o :: os =>
      skipn (ready t (length src)) o = skipn (ready t (length src)) out /\ rest_kept (t + length src) r os
  | _, _ => False
  end.
(** bit i of a list of words, most significant bit of the first word first *)
Definition wbit (l : list Z) (i : nat) : bool := Z.testbit l.[i / 32] (Z.of_nat (31 - i mod 32)).
