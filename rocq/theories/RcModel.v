(** Model of the block ciphers cipher/rc2, cipher/rc5 and cipher/rc6: key expansion, Encrypt and Decrypt. The
    overlap check is not modelled. *)
From Verif Require Import Base BlockModeModel WordModel.
Set Implicit Arguments. Unset Strict Implicit.
Local Open Scope nat_scope.

(** rc2.go:247-264 *)
Definition rc2_pi : list Z :=
  [217; 120; 249; 196; 25; 221; 181; 237; 40; 233; 253; 121; 74; 160; 216; 157;
   198; 126; 55; 131; 43; 118; 83; 142; 98; 76; 100; 136; 68; 139; 251; 162;
   23; 154; 89; 245; 135; 179; 79; 19; 97; 69; 109; 141; 9; 129; 125; 50;
   189; 143; 64; 235; 134; 183; 123; 11; 240; 149; 33; 34; 92; 107; 78; 130;
   84; 214; 101; 147; 206; 96; 178; 28; 115; 86; 192; 20; 167; 140; 241; 220;
   18; 117; 202; 31; 59; 190; 228; 209; 66; 61; 212; 48; 163; 60; 182; 38;
   111; 191; 14; 218; 70; 105; 7; 87; 39; 242; 29; 155; 188; 148; 67; 3;
   248; 17; 199; 246; 144; 239; 62; 231; 6; 195; 213; 47; 200; 102; 30; 215;
   8; 232; 234; 222; 128; 82; 238; 247; 132; 170; 114; 172; 53; 77; 106; 42;
   150; 26; 210; 113; 90; 21; 73; 116; 75; 159; 208; 94; 4; 24; 164; 236;
   194; 224; 65; 110; 15; 81; 203; 204; 36; 145; 175; 80; 161; 244; 112; 57;
   153; 124; 58; 133; 35; 184; 180; 122; 252; 2; 54; 91; 37; 85; 151; 49;
   45; 93; 250; 152; 227; 138; 146; 174; 5; 223; 41; 16; 103; 108; 186; 201;
   211; 0; 230; 207; 225; 158; 168; 44; 99; 22; 1; 63; 88; 226; 137; 169;
   13; 56; 52; 27; 171; 51; 255; 176; 187; 72; 12; 95; 185; 177; 205; 46;
   197; 243; 219; 71; 229; 165; 156; 119; 10; 166; 32; 104; 254; 127; 193; 173]%Z.
(** piTable[x], x a byte *)
Definition rc2_p (x : Z) : Z := rc2_pi.[Z.to_nat x].
(** rc2.go:276-278: l[i] = piTable[l[i-1] + l[i-t]] *)
Definition rc2_fwd (t : nat) (l : bytes) (i : nat) : bytes :=
  upd i (rc2_p (to_byte (l.[i - 1] + l.[i - t]))) l.
(** rc2.go:282-284: l[i] = piTable[l[i+1] ^ l[i+t8]] *)
Definition rc2_bwd (t8 : nat) (l : bytes) (i : nat) : bytes :=
  upd i (rc2_p (Z.lxor l.[i + 1] l.[i + t8])) l.
(** rc2.go:266-292 for 1 <= t1 <= 1024 and a key that is not empty *)
Definition rc2_expand (key : bytes) (t1 : Z) : list Z :=
  let l := gocopy (repeat 0%Z 128) key in
  let t := length key in
  let t8 := ((t1 + 7) / 8)%Z in
  let tm := to_byte (255 mod 2 ^ (8 + t1 - 8 * t8))%Z in
  let n8 := Z.to_nat t8 in
  let l := fold_left (rc2_fwd t) (ups t (128 - t) 1) l in
  let l := upd (128 - n8) (rc2_p (Z.land l.[128 - n8] tm)) l in
  let l := fold_left (rc2_bwd n8) (downs (127 - n8) (128 - n8) 1) l in
  map (fun i => (l.[2 * i] + l.[2 * i + 1] * 256)%Z) (seq 0 64).
(** rc2.go:18-23, 266-292: NewCipher never returns an error. Index panics: l[-1] for the empty key; l[128 - t8] for
    t1 < 1 and for t1 > 1024 (for t1 far below 0 a division by zero comes first). *)
Definition rc2_new (key : bytes) (t1 : Z) : res (list Z) :=
  if (length key =? 0) || (t1 <? 1)%Z || (1024 <? t1)%Z then Panic else Ok (rc2_expand key t1).
(** rc2.go:70-91: r = r + k + (a & b) + (^a & c), then rotl16 by n *)
Definition rc2_mix1 (n r k a b c : Z) : Z :=
  rotl 16 n (wadd 16 (wadd 16 (wadd 16 r k) (Z.land a b)) (Z.land (wnot 16 a) c)).
Definition rc2_mix (k : list Z) (r : list Z) (j : nat) : list Z :=
  let r0 := rc2_mix1 1 r.[0] k.[j] r.[3] r.[2] r.[1] in
  let r1 := rc2_mix1 2 r.[1] k.[j + 1] r0 r.[3] r.[2] in
  let r2 := rc2_mix1 3 r.[2] k.[j + 2] r1 r0 r.[3] in
  let r3 := rc2_mix1 5 r.[3] k.[j + 3] r2 r1 r0 in
  [r0; r1; r2; r3].
(** rc2.go:94-97 *)
Definition rc2_key (k : list Z) (x : Z) : Z := k.[Z.to_nat (Z.land x 63)].
Definition rc2_mash (k : list Z) (r : list Z) : list Z :=
  let r0 := wadd 16 r.[0] (rc2_key k r.[3]) in
  let r1 := wadd 16 r.[1] (rc2_key k r0) in
  let r2 := wadd 16 r.[2] (rc2_key k r1) in
  let r3 := wadd 16 r.[3] (rc2_key k r2) in
  [r0; r1; r2; r3].
(** rc2.go:60-152 *)
Definition rc2_enc (k : list Z) (r : list Z) : list Z :=
  let r := fold_left (rc2_mix k) (ups 0 5 4) r in
  let r := rc2_mash k r in
  let r := fold_left (rc2_mix k) (ups 20 6 4) r in
  let r := rc2_mash k r in
  fold_left (rc2_mix k) (ups 44 5 4) r.
(** rc2.go:164-183: j is the index of the first of the four keys, used for r3 *)
Definition rc2_unmix1 (n r k a b c : Z) : Z :=
  wsub 16 (wsub 16 (wsub 16 (rotl 16 (16 - n) r) k) (Z.land a b)) (Z.land (wnot 16 a) c).
Definition rc2_unmix (k : list Z) (r : list Z) (j : nat) : list Z :=
  let r3 := rc2_unmix1 5 r.[3] k.[j] r.[2] r.[1] r.[0] in
  let r2 := rc2_unmix1 3 r.[2] k.[j - 1] r.[1] r.[0] r3 in
  let r1 := rc2_unmix1 2 r.[1] k.[j - 2] r.[0] r3 r2 in
  let r0 := rc2_unmix1 1 r.[0] k.[j - 3] r3 r2 r1 in
  [r0; r1; r2; r3].
(** rc2.go:186-189 *)
Definition rc2_unmash (k : list Z) (r : list Z) : list Z :=
  let r3 := wsub 16 r.[3] (rc2_key k r.[2]) in
  let r2 := wsub 16 r.[2] (rc2_key k r.[1]) in
  let r1 := wsub 16 r.[1] (rc2_key k r.[0]) in
  let r0 := wsub 16 r.[0] (rc2_key k r3) in
  [r0; r1; r2; r3].
(** rc2.go:154-245 *)
Definition rc2_dec (k : list Z) (r : list Z) : list Z :=
  let r := fold_left (rc2_unmix k) (downs 63 5 4) r in
  let r := rc2_unmash k r in
  let r := fold_left (rc2_unmix k) (downs 43 6 4) r in
  let r := rc2_unmash k r in
  fold_left (rc2_unmix k) (downs 19 5 4) r.
Definition rc2_cph (k : list Z) : cipher := word_cipher 2 4 (rc2_enc k) (rc2_dec k).
(** rc2.go:29-58 *)
Definition rc2_encrypt k := blk_call 8 (enc (rc2_cph k)).
Definition rc2_decrypt k := blk_call 8 (dec (rc2_cph k)).

(** RC5 with words of w bits, n = w/8 bytes *)
Record rc5_cipher := { rc5_n : nat; rc5_rounds : nat; rc5_rk : list Z }.
Definition rc5_w (n : nat) : Z := (8 * Z.of_nat n)%Z.
(** the constants P and Q: cipher16.go:16-17, cipher32.go:12-13, cipher64.go:12-13 *)
Definition rc5_p (n : nat) : Z := match n with 2 => 0xb7e1%Z | 4 => 0xB7E15163%Z | _ => 0xB7E151628AED2A6B%Z end.
Definition rc5_q (n : nat) : Z := match n with 2 => 0x9e37%Z | 4 => 0x9E3779B9%Z | _ => 0x9E3779B97F4A7C15%Z end.
(** cipher32.go:95-101, cipher16.go:103-113 *)
Definition rc5_table (n t : nat) : list Z := fold_left (fun s _ => s ++ [wadd (rc5_w n) (last s 0%Z) (rc5_q n)]) (seq 1 (t - 1)) [rc5_p n].
(** one step of the key mixing: cipher32.go:107-114, cipher16.go:137-142 (also rc6.go:107-115) *)
Definition rc5_step (w : Z) (st : list Z * list Z * Z * Z * nat * nat) (_ : nat) : list Z * list Z * Z * Z * nat * nat :=
  let '(s, l, a, b, i, j) := st in
  let a' := rotl w 3 (wadd w s.[i] (wadd w a b)) in
  let b' := rotl w (wadd w a' b) (wadd w l.[j] (wadd w a' b)) in
  (upd i a' s, upd j b' l, a', b', (i + 1) mod length s, (j + 1) mod length l).
Definition rc5_schedule (w : Z) (s l : list Z) (k : nat) : list Z :=
  let '(s, _, _, _, _, _) := fold_left (rc5_step w) (seq 0 k) (s, l, 0%Z, 0%Z, 0, 0) in s.
(** cipher32.go:83-115, cipher64.go:83-115, cipher16.go:34-36, 103-145 *)
Definition rc5_expand (n rounds : nat) (key : bytes) : list Z :=
  let t := 2 * (rounds + 1) in
  let l := ldw n (firstn (n * (length key / n)) key) in
  let k := if (n =? 2) && (t <? length l) then 3 * length l else 3 * t in
  rc5_schedule (rc5_w n) (rc5_table n t) l k.
(** rc5.go:24-47, cipher16.go:28-47, cipher32.go:21-27, cipher64.go:21-28. wordSize and r are uints. *)
Definition rc5_new (key : bytes) (wordsize rounds : nat) : res rc5_cipher :=
  if existsb (Nat.eqb (length key)) [8; 16; 24; 32] then
    if (rounds <? 8) || (127 <? rounds) then Err
    else match wordsize with
         | 16 => Ok {| rc5_n := 2; rc5_rounds := rounds; rc5_rk := rc5_expand 2 rounds key |}
         | 32 => Ok {| rc5_n := 4; rc5_rounds := rounds; rc5_rk := rc5_expand 4 rounds key |}
         | 64 => Ok {| rc5_n := 8; rc5_rounds := rounds; rc5_rk := rc5_expand 8 rounds key |}
         | _ => Err
         end
  else Err.
(** cipher32.go:49-52, cipher16.go:69-72: the rotation count B&15 and int(B) both mean B modulo w *)
Definition rc5_rnd (w : Z) (rk : list Z) (s : Z * Z) (r : nat) : Z * Z :=
  let '(a, b) := s in
  let a := wadd w (rotl w b (Z.lxor a b)) rk.[2 * r] in
  let b := wadd w (rotl w a (Z.lxor b a)) rk.[2 * r + 1] in (a, b).
(** cipher32.go:74-77, cipher16.go:92-95 *)
Definition rc5_unrnd (w : Z) (rk : list Z) (s : Z * Z) (r : nat) : Z * Z :=
  let '(a, b) := s in
  let b := Z.lxor a (rotl w (- a) (wsub w b rk.[2 * r + 1])) in
  let a := Z.lxor b (rotl w (- b) (wsub w a rk.[2 * r])) in (a, b).
(** cipher32.go:46-56 *)
Definition rc5_enc (w : Z) (rounds : nat) (rk x : list Z) : list Z :=
  let '(a, b) := fold_left (rc5_rnd w rk) (ups 1 rounds 1) (wadd w x.[0] rk.[0], wadd w x.[1] rk.[1]) in [a; b].
(** cipher32.go:71-81 *)
Definition rc5_dec (w : Z) (rounds : nat) (rk x : list Z) : list Z :=
  let '(a, b) := fold_left (rc5_unrnd w rk) (downs rounds rounds 1) (x.[0], x.[1]) in [wsub w a rk.[0]; wsub w b rk.[1]].
Definition rc5_cph (c : rc5_cipher) : cipher :=
  word_cipher (rc5_n c) 2 (rc5_enc (rc5_w (rc5_n c)) (rc5_rounds c) (rc5_rk c)) (rc5_dec (rc5_w (rc5_n c)) (rc5_rounds c) (rc5_rk c)).
(** cipher32.go:33-44, 58-69 *)
Definition rc5_encrypt c := blk_call (2 * rc5_n c) (enc (rc5_cph c)).
Definition rc5_decrypt c := blk_call (2 * rc5_n c) (dec (rc5_cph c)).

(** rc6.go:23-30 *)
Definition rc6_table : list Z :=
  [3084996963; 1444465436; 4098901205; 2458369678; 817838151; 3472273920; 1831742393; 191210866; 2845646635; 1205115108; 3859550877; 2219019350; 578487823; 3232923592; 1592392065; 4246827834;
   2606296307; 965764780; 3620200549; 1979669022; 339137495; 2993573264; 1353041737; 4007477506; 2366945979; 726414452; 3380850221; 1740318694; 99787167; 2754222936; 1113691409; 3768127178;
   2127595651; 487064124; 3141499893; 1500968366; 4155404135; 2514872608; 874341081; 3528776850; 1888245323; 247713796; 2902149565; 1261618038]%Z.
(** rc6.go:45-54, 92-116: NewCipher; the value is rk *)
Definition rc6_new (key : bytes) : res (list Z) :=
  if length key =? 16 then Ok (rc5_schedule 32 rc6_table (ldw 4 key) (3 * 44)) else Err.
(** B*(2*B+1) rotated by 5 *)
Definition rc6_t (b : Z) : Z := rotl 32 5 (wmul 32 b (wadd 32 (wmul 32 2 b) 1)).
(** rc6.go:125-131 *)
Definition rc6_rnd (rk : list Z) (s : list Z) (i : nat) : list Z :=
  let t := rc6_t s.[1] in let u := rc6_t s.[3] in
  let a := wadd 32 (rotl 32 u (Z.lxor s.[0] t)) rk.[2 * i] in
  let c := wadd 32 (rotl 32 t (Z.lxor s.[2] u)) rk.[2 * i + 1] in
  [s.[1]; c; s.[3]; a].
(** rc6.go:151-157 *)
Definition rc6_unrnd (rk : list Z) (s : list Z) (i : nat) : list Z :=
  let a := s.[3] in let b := s.[0] in let c := s.[1] in let d := s.[2] in
  let u := rc6_t d in let t := rc6_t b in
  let c := Z.lxor (rotl 32 (- t) (wsub 32 c rk.[2 * i + 1])) u in
  let a := Z.lxor (rotl 32 (- u) (wsub 32 a rk.[2 * i])) t in
  [a; b; c; d].
(** rc6.go:121-122 and 132-133: key words added before and after the rounds *)
Definition rc6_pre (rk x : list Z) : list Z := [x.[0]; wadd 32 x.[1] rk.[0]; x.[2]; wadd 32 x.[3] rk.[1]].
Definition rc6_post (rk x : list Z) : list Z := [wadd 32 x.[0] rk.[42]; x.[1]; wadd 32 x.[2] rk.[43]; x.[3]].
(** rc6.go:147-148, 158-159 *)
Definition rc6_unpost (rk x : list Z) : list Z := [wsub 32 x.[0] rk.[42]; x.[1]; wsub 32 x.[2] rk.[43]; x.[3]].
Definition rc6_unpre (rk x : list Z) : list Z := [x.[0]; wsub 32 x.[1] rk.[0]; x.[2]; wsub 32 x.[3] rk.[1]].
(** rc6.go:117-140 *)
Definition rc6_enc (rk x : list Z) : list Z := rc6_post rk (fold_left (rc6_rnd rk) (ups 1 20 1) (rc6_pre rk x)).
(** rc6.go:142-166 *)
Definition rc6_dec (rk x : list Z) : list Z := rc6_unpre rk (fold_left (rc6_unrnd rk) (downs 20 20 1) (rc6_unpost rk x)).
Definition rc6_cph (rk : list Z) : cipher := word_cipher 4 4 (rc6_enc rk) (rc6_dec rk).
(** rc6.go:60-90 *)
Definition rc6_encrypt rk := blk_call 16 (enc (rc6_cph rk)).
Definition rc6_decrypt rk := blk_call 16 (dec (rc6_cph rk)).
