(** Model of /repo/cipher/belt and of the copy of the cipher in /repo/hash/belt/utils.go: the two differ only in the
    direction of the rotation inside G. *)
From Verif Require Import Base BlockModeModel CipherLaws WordModel.
Set Implicit Arguments. Unset Strict Implicit.
Local Open Scope nat_scope.

(** cipher/belt/sboxs.go:3-20 and hash/belt/sbox.go:3-20: the same table *)
Definition belt_S : list Z :=
  [177; 148; 186; 200; 10; 8; 245; 59; 54; 109; 0; 142; 88; 74; 93; 228;
   133; 4; 250; 157; 27; 182; 199; 172; 37; 46; 114; 194; 2; 253; 206; 13;
   91; 227; 214; 18; 23; 185; 97; 129; 254; 103; 134; 173; 113; 107; 137; 11;
   92; 176; 192; 255; 51; 195; 86; 184; 53; 196; 5; 174; 216; 224; 127; 153;
   225; 43; 220; 26; 226; 130; 87; 236; 112; 63; 204; 240; 149; 238; 141; 241;
   193; 171; 118; 56; 159; 230; 120; 202; 247; 198; 248; 96; 213; 187; 156; 79;
   243; 60; 101; 123; 99; 124; 48; 106; 221; 78; 167; 121; 158; 178; 61; 49;
   62; 152; 181; 110; 39; 211; 188; 207; 89; 30; 24; 31; 76; 90; 183; 147;
   233; 222; 231; 44; 143; 12; 15; 166; 45; 219; 73; 244; 111; 115; 150; 71;
   6; 7; 83; 22; 237; 36; 122; 55; 57; 203; 163; 131; 3; 169; 139; 246;
   146; 189; 155; 28; 229; 209; 65; 1; 84; 69; 251; 201; 94; 77; 14; 242;
   104; 32; 128; 170; 34; 125; 100; 47; 38; 135; 249; 52; 144; 64; 85; 17;
   190; 50; 151; 19; 67; 252; 154; 72; 160; 42; 136; 95; 25; 75; 9; 161;
   126; 205; 164; 208; 21; 68; 175; 140; 165; 132; 80; 191; 102; 210; 232; 138;
   162; 215; 70; 82; 66; 168; 223; 179; 105; 116; 197; 81; 235; 35; 41; 33;
   212; 239; 217; 180; 58; 98; 40; 117; 145; 20; 16; 234; 119; 108; 218; 29]%Z.
(** cipher/belt/sboxs.go:22-31, hash/belt/sbox.go:22-31: KIdx, as indices of 32-bit words of ks *)
Definition belt_KIdx : list (list nat) :=
  [[0; 1; 2; 3; 4; 5; 6]; [7; 0; 1; 2; 3; 4; 5]; [6; 7; 0; 1; 2; 3; 4]; [5; 6; 7; 0; 1; 2; 3];
   [4; 5; 6; 7; 0; 1; 2]; [3; 4; 5; 6; 7; 0; 1]; [2; 3; 4; 5; 6; 7; 0]; [1; 2; 3; 4; 5; 6; 7]].
(** utils.go: SB(x, a) = S[byte(x >> a)] << a *)
Definition belt_SB (x a : Z) : Z := wshl 32 belt_S.[Z.to_nat (Z.land (Z.shiftr x a) 255)] a.
Notation "a +w b" := (wadd 32 a b) (at level 50, left associativity).
Notation "a -w b" := (wsub 32 a b) (at level 50, left associativity).

Section belt.
  (** ROTL_BELT: hash/belt/utils.go:48-50 rotates left, cipher/belt/utils.go:24-26 rotates right *)
  Variable rot : Z -> Z -> Z.
  (** utils.go: G *)
  Definition belt_G (x r : Z) : Z :=
    rot r (Z.lor (Z.lor (Z.lor (belt_SB x 24) (belt_SB x 16)) (belt_SB x 8)) (belt_SB x 0)).
  Variable ks : list Z.
  (** getu32(ks[4*KIdx[i][n]:]) *)
  Definition belt_key (i n : nat) : Z := ks.[nth n (nth i belt_KIdx []) 0].
  (** cipher/belt/belt.go:91-119, hash/belt/utils.go:105-135: round i *)
  Definition belt_rnd (s : list Z) (i : nat) : list Z :=
    match s with
    | [a; b; c; d] =>
        let b := Z.lxor b (belt_G (a +w belt_key i 0) 5) in
        let c := Z.lxor c (belt_G (d +w belt_key i 1) 21) in
        let a := a -w belt_G (b +w belt_key i 2) 13 in
        let e := Z.lxor (belt_G (b +w c +w belt_key i 3) 21) (Z.of_nat (i + 1)) in
        let b := b +w e in
        let c := c -w e in
        let d := d +w belt_G (c +w belt_key i 4) 13 in
        let b := Z.lxor b (belt_G (a +w belt_key i 5) 21) in
        let c := Z.lxor c (belt_G (d +w belt_key i 6) 5) in
        let '(a, b) := (b, a) in
        let '(c, d) := (d, c) in
        let '(b, c) := (c, b) in
        [a; b; c; d]
    | _ => s
    end.
  (** cipher/belt/belt.go:141-169, hash/belt/utils.go:152-183: the pass with j = 7 - i *)
  Definition belt_unrnd (s : list Z) (j : nat) : list Z :=
    match s with
    | [a; b; c; d] =>
        let b := Z.lxor b (belt_G (a +w belt_key j 6) 5) in
        let c := Z.lxor c (belt_G (d +w belt_key j 5) 21) in
        let a := a -w belt_G (b +w belt_key j 4) 13 in
        let e := Z.lxor (belt_G (b +w c +w belt_key j 3) 21) (Z.of_nat (j + 1)) in
        let b := b +w e in
        let c := c -w e in
        let d := d +w belt_G (c +w belt_key j 2) 13 in
        let b := Z.lxor b (belt_G (a +w belt_key j 1) 21) in
        let c := Z.lxor c (belt_G (d +w belt_key j 0) 5) in
        let '(a, b) := (b, a) in
        let '(c, d) := (d, c) in
        let '(a, d) := (d, a) in
        [a; b; c; d]
    | _ => s
    end.
  (** cipher/belt/belt.go:121-124 and 172-175: the order in which the words are stored *)
  Definition belt_out (s : list Z) : list Z := [s.[1]; s.[3]; s.[0]; s.[2]].
  Definition belt_unout (s : list Z) : list Z := [s.[2]; s.[0]; s.[3]; s.[1]].
  (** cipher/belt/belt.go:78-125, hash/belt/utils.go:96-141 *)
  Definition belt_enc (s : list Z) : list Z := belt_out (fold_left belt_rnd (ups 0 8 1) s).
  (** cipher/belt/belt.go:127-176, hash/belt/utils.go:143-189 *)
  Definition belt_dec (s : list Z) : list Z := belt_unout (fold_left belt_unrnd (downs 7 8 1) s).
End belt.

(** cipher/belt/belt.go:178-204, hash/belt/utils.go:68-94 *)
Definition belt_expand (k : bytes) : bytes :=
  match length k with
  | 16 => k ++ k
  | 24 => k ++ map (fun i => Z.lxor (Z.lxor k.[i - 24] k.[i - 20]) k.[i - 16]) (seq 24 8)
  | _ => k
  end.
(** cipher/belt/belt.go:27-40; the 32 bytes of ks are kept as eight words *)
Definition belt_new (key : bytes) : res (list Z) :=
  match length key with 16 | 24 | 32 => Ok (ldw 4 (belt_expand key)) | _ => Err end.
(** a cipher with G rotating by [rot] *)
Definition belt_cph (rot : Z -> Z -> Z) (ks : list Z) : cipher := word_cipher 4 4 (belt_enc rot ks) (belt_dec rot ks).
(** cipher/belt/belt.go:46-76 *)
Definition belt_encrypt (ks : list Z) := blk_call 16 (enc (belt_cph (rotr 32) ks)).
Definition belt_decrypt (ks : list Z) := blk_call 16 (dec (belt_cph (rotr 32) ks)).
(** hash/belt/utils.go:96-141 on 16 bytes, with 32 bytes of key schedule; hash/belt/utils.go:143-189 *)
Definition hbelt_encrypt (ks b : bytes) : bytes := enc (belt_cph (rotl 32) (ldw 4 ks)) b.
Definition hbelt_decrypt (ks b : bytes) : bytes := dec (belt_cph (rotl 32) (ldw 4 ks)) b.
