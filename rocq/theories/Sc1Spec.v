(** Keystreams of Trivium, Rabbit (RFC 4503) and Salsa20/20, written from their descriptions. *)
From Verif Require Import Base WordModel.
Set Implicit Arguments. Unset Strict Implicit.
Local Open Scope nat_scope.

(** * Trivium: 288 state bits s1 .. s288 *)
Definition tri_step (s : list bool) : list bool * bool :=
  let b n := nth (n - 1) s false in
  let t1 := xorb (b 66) (b 93) in
  let t2 := xorb (b 162) (b 177) in
  let t3 := xorb (b 243) (b 288) in
  let u1 := xorb (xorb t1 (b 91 && b 92)) (b 171) in
  let u2 := xorb (xorb t2 (b 175 && b 176)) (b 264) in
  let u3 := xorb (xorb t3 (b 286 && b 287)) (b 69) in
  ((u3 :: slice 0 92 s) ++ (u1 :: slice 93 83 s) ++ (u2 :: slice 177 110 s), xorb (xorb t1 t2) t3).
(** Keys and IVs are numbered from the most significant bit of their last byte on. *)
Definition tri_bits_of (k : bytes) : list bool := concat (map (fun b => map (Z.testbit b) [7;6;5;4;3;2;1;0]%Z) (rev k)).
Definition tri_start (key iv : bytes) : list bool :=
  (tri_bits_of key ++ repeat false 13) ++ (tri_bits_of iv ++ repeat false 4) ++ (repeat false 108 ++ [true; true; true]).
Definition tri_after (n : nat) (s : list bool) : list bool := Nat.iter n (fun s => fst (tri_step s)) s.
(** bit t of the keystream, after 4 * 288 blank rounds; byte i has the bits 8i .. 8i+7, the first one lowest *)
Definition tri_z (key iv : bytes) (t : nat) : bool := snd (tri_step (tri_after t (tri_after (4 * 288) (tri_start key iv)))).
Definition byte_of_bits (f : nat -> bool) (i : nat) : Z := fold_right (fun j a => (Z.b2z (f (8 * i + j)%nat) + 2 * a)%Z) 0%Z (seq 0 8).
Definition tri_ks (key iv : bytes) : nat -> Z := byte_of_bits (tri_z key iv).

(** * Rabbit, RFC 4503: eight counters and eight state words, all octet strings little-endian *)
Fixpoint rab_counters (a c : list Z) (carry : Z) : Z * list Z :=
  match a, c with
  | a :: a', c :: c' =>
      let t := (c + a + carry)%Z in
      let '(carry', r) := rab_counters a' c' (t / 2 ^ 32) in (carry', (t mod 2 ^ 32)%Z :: r)
  | _, _ => (carry, [])
  end.
Definition rab_A : list Z := [0x4D34D34D; 0xD34D34D3; 0x34D34D34; 0x4D34D34D; 0xD34D34D3; 0x34D34D34; 0x4D34D34D; 0xD34D34D3]%Z.
Definition rab_g (u v : Z) : Z := let q := (((u + v) mod 2 ^ 32) * ((u + v) mod 2 ^ 32))%Z in Z.lxor (q mod 2 ^ 32) (q / 2 ^ 32).
Definition rab_next (s : list Z * list Z * Z) : list Z * list Z * Z :=
  let '(x, c, b) := s in
  let '(b', c') := rab_counters rab_A c b in
  let g := map (fun i => rab_g x.[i] c'.[i]) (seq 0 8) in
  let G j := g.[(j + 8) mod 8] in
  let even j := ((G j + rotl 32 16 (G (j + 7)%nat) + rotl 32 16 (G (j + 6)%nat)) mod 2 ^ 32)%Z in
  let odd j := ((G j + rotl 32 8 (G (j + 7)%nat) + G (j + 6)%nat) mod 2 ^ 32)%Z in
  ([even 0; odd 1; even 2; odd 3; even 4; odd 5; even 6; odd 7], c', b').
Definition rab_setup (k : bytes) : list Z * list Z * Z :=
  let K j := le_val (slice (2 * (j mod 8)) 2 k) in
  let x j := if Nat.even j then (K (j + 1)%nat * 2 ^ 16 + K j)%Z else (K (j + 5)%nat * 2 ^ 16 + K (j + 4)%nat)%Z in
  let c j := if Nat.even j then (K (j + 4)%nat * 2 ^ 16 + K (j + 5)%nat)%Z else (K j * 2 ^ 16 + K (j + 1)%nat)%Z in
  let '(x, c, b) := Nat.iter 4 rab_next (map x (seq 0 8), map c (seq 0 8), 0%Z) in
  (x, map (fun j => Z.lxor c.[j] x.[(j + 4) mod 8]) (seq 0 8), b).
Definition rab_block (s : list Z * list Z * Z) : bytes :=
  let x := fst (fst (rab_next s)) in
  let w a b c := le_bytes 2 (Z.lxor (x.[a] mod 2 ^ 16) (x.[b] / 2 ^ 16)) ++ le_bytes 2 (Z.lxor (x.[a] / 2 ^ 16) (x.[c] mod 2 ^ 16)) in
  w 0 5 3 ++ w 2 7 5 ++ w 4 1 7 ++ w 6 3 1.
(** the keystream without an IV *)
Definition rab_ks (key : bytes) (i : nat) : Z := (rab_block (Nat.iter (i / 16) rab_next (rab_setup key))).[i mod 16].

(** * Salsa20/20 *)
Definition salsa_qr (y : list Z) (i : nat * nat * nat * nat) : list Z :=
  let '(a, b, c, d) := i in
  let y := upd b (Z.lxor y.[b] (rotl 32 7 (wadd 32 y.[a] y.[d]))) y in
  let y := upd c (Z.lxor y.[c] (rotl 32 9 (wadd 32 y.[b] y.[a]))) y in
  let y := upd d (Z.lxor y.[d] (rotl 32 13 (wadd 32 y.[c] y.[b]))) y in
  upd a (Z.lxor y.[a] (rotl 32 18 (wadd 32 y.[d] y.[c]))) y.
Definition salsa_cols : list (nat * nat * nat * nat) := [(0,4,8,12); (5,9,13,1); (10,14,2,6); (15,3,7,11)].
Definition salsa_rows : list (nat * nat * nat * nat) := [(0,1,2,3); (5,6,7,4); (10,11,8,9); (15,12,13,14)].
Definition salsa_core (x : list Z) : bytes :=
  let y := Nat.iter 10 (fun y => fold_left salsa_qr (salsa_cols ++ salsa_rows) y) x in
  stw 4 (map (fun '(a, b) => wadd 32 a b) (combine x y)).
(** the block number n of a key of 32 bytes and a nonce of 8 *)
Definition salsa_block (key nonce : bytes) (n : Z) : bytes :=
  let s := ldw 4 [101;120;112;97;110;100;32;51;50;45;98;121;116;101;32;107]%Z in
  let k := ldw 4 key in let v := ldw 4 (nonce ++ le_bytes 8 n) in
  salsa_core ([s.[0]] ++ firstn 4 k ++ [s.[1]] ++ v ++ [s.[2]] ++ skipn 4 k ++ [s.[3]]).
(** byte i of the stream that starts at byte c *)
Definition salsa_ks (key nonce : bytes) (c : Z) (i : nat) : Z :=
  let p := (c + Z.of_nat i)%Z in (salsa_block key nonce (p / 64)).[Z.to_nat (p mod 64)].
