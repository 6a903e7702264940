(** Model of the block ciphers cipher/hight, cipher/noekeon, cipher/gost and cipher/magma: key expansion, Encrypt and
    Decrypt. The overlap checks are not modelled. *)
From Verif Require Import Base BlockModeModel WordModel ZtailModel.
Set Implicit Arguments. Unset Strict Implicit.
Local Open Scope nat_scope.

(** hight/sbox.go:4-21, 23-56, 58-91 *)
Definition hight_delta : list Z :=
  [90; 109; 54; 27; 13; 6; 3; 65; 96; 48; 24; 76; 102; 51; 89; 44;
   86; 43; 21; 74; 101; 114; 57; 28; 78; 103; 115; 121; 60; 94; 111; 55;
   91; 45; 22; 11; 5; 66; 33; 80; 40; 84; 42; 85; 106; 117; 122; 125;
   62; 95; 47; 23; 75; 37; 82; 41; 20; 10; 69; 98; 49; 88; 108; 118;
   59; 29; 14; 71; 99; 113; 120; 124; 126; 127; 63; 31; 15; 7; 67; 97;
   112; 56; 92; 110; 119; 123; 61; 30; 79; 39; 83; 105; 52; 26; 77; 38;
   19; 73; 36; 18; 9; 4; 2; 1; 64; 32; 16; 8; 68; 34; 17; 72;
   100; 50; 25; 12; 70; 35; 81; 104; 116; 58; 93; 46; 87; 107; 53; 90]%Z.
Definition hight_f0 : list Z :=
  [0; 134; 13; 139; 26; 156; 23; 145; 52; 178; 57; 191; 46; 168; 35; 165;
   104; 238; 101; 227; 114; 244; 127; 249; 92; 218; 81; 215; 70; 192; 75; 205;
   208; 86; 221; 91; 202; 76; 199; 65; 228; 98; 233; 111; 254; 120; 243; 117;
   184; 62; 181; 51; 162; 36; 175; 41; 140; 10; 129; 7; 150; 16; 155; 29;
   161; 39; 172; 42; 187; 61; 182; 48; 149; 19; 152; 30; 143; 9; 130; 4;
   201; 79; 196; 66; 211; 85; 222; 88; 253; 123; 240; 118; 231; 97; 234; 108;
   113; 247; 124; 250; 107; 237; 102; 224; 69; 195; 72; 206; 95; 217; 82; 212;
   25; 159; 20; 146; 3; 133; 14; 136; 45; 171; 32; 166; 55; 177; 58; 188;
   67; 197; 78; 200; 89; 223; 84; 210; 119; 241; 122; 252; 109; 235; 96; 230;
   43; 173; 38; 160; 49; 183; 60; 186; 31; 153; 18; 148; 5; 131; 8; 142;
   147; 21; 158; 24; 137; 15; 132; 2; 167; 33; 170; 44; 189; 59; 176; 54;
   251; 125; 246; 112; 225; 103; 236; 106; 207; 73; 194; 68; 213; 83; 216; 94;
   226; 100; 239; 105; 248; 126; 245; 115; 214; 80; 219; 93; 204; 74; 193; 71;
   138; 12; 135; 1; 144; 22; 157; 27; 190; 56; 179; 53; 164; 34; 169; 47;
   50; 180; 63; 185; 40; 174; 37; 163; 6; 128; 11; 141; 28; 154; 17; 151;
   90; 220; 87; 209; 64; 198; 77; 203; 110; 232; 99; 229; 116; 242; 121; 255]%Z.
Definition hight_f1 : list Z :=
  [0; 88; 176; 232; 97; 57; 209; 137; 194; 154; 114; 42; 163; 251; 19; 75;
   133; 221; 53; 109; 228; 188; 84; 12; 71; 31; 247; 175; 38; 126; 150; 206;
   11; 83; 187; 227; 106; 50; 218; 130; 201; 145; 121; 33; 168; 240; 24; 64;
   142; 214; 62; 102; 239; 183; 95; 7; 76; 20; 252; 164; 45; 117; 157; 197;
   22; 78; 166; 254; 119; 47; 199; 159; 212; 140; 100; 60; 181; 237; 5; 93;
   147; 203; 35; 123; 242; 170; 66; 26; 81; 9; 225; 185; 48; 104; 128; 216;
   29; 69; 173; 245; 124; 36; 204; 148; 223; 135; 111; 55; 190; 230; 14; 86;
   152; 192; 40; 112; 249; 161; 73; 17; 90; 2; 234; 178; 59; 99; 139; 211;
   44; 116; 156; 196; 77; 21; 253; 165; 238; 182; 94; 6; 143; 215; 63; 103;
   169; 241; 25; 65; 200; 144; 120; 32; 107; 51; 219; 131; 10; 82; 186; 226;
   39; 127; 151; 207; 70; 30; 246; 174; 229; 189; 85; 13; 132; 220; 52; 108;
   162; 250; 18; 74; 195; 155; 115; 43; 96; 56; 208; 136; 1; 89; 177; 233;
   58; 98; 138; 210; 91; 3; 235; 179; 248; 160; 72; 16; 153; 193; 41; 113;
   191; 231; 15; 87; 222; 134; 110; 54; 125; 37; 205; 149; 28; 68; 172; 244;
   49; 105; 129; 217; 80; 8; 224; 184; 243; 171; 67; 27; 146; 202; 34; 122;
   180; 236; 4; 92; 213; 141; 101; 61; 118; 46; 198; 158; 23; 79; 167; 255]%Z.
(** hight.go:143-158 *)
Definition hight_expand (key : bytes) : list Z :=
  map (fun i => key.[i + 12]) (seq 0 4) ++ map (fun i => key.[i]) (seq 0 4) ++
  flat_map (fun i =>
    map (fun k => wadd 8 key.[Z.to_nat (Z.land (Z.of_nat k - Z.of_nat i) 7)] hight_delta.[16 * i + k]) (seq 0 8) ++
    map (fun k => wadd 8 key.[Z.to_nat (Z.land (Z.of_nat k - Z.of_nat i) 7) + 8] hight_delta.[16 * i + k + 8]) (seq 0 8)) (seq 0 8).
(** hight.go:27-37 *)
Definition hight_new (key : bytes) : res (list Z) := if length key =? 16 then Ok (hight_expand key) else Err.
Definition hf0 (x : Z) : Z := hight_f0.[Z.to_nat x].
Definition hf1 (x : Z) : Z := hight_f1.[Z.to_nat x].
(** hight.go:76, 77, 112: XX[i] ^= f0[XX[j]] + k, XX[i] += f1[XX[j]] ^ k, XX[i] -= f1[XX[j]] ^ k *)
Definition hight_xor (i j : nat) (k : Z) (x : list Z) : list Z := upd i (Z.lxor x.[i] (wadd 8 (hf0 x.[j]) k)) x.
Definition hight_add (i j : nat) (k : Z) (x : list Z) : list Z := upd i (wadd 8 x.[i] (Z.lxor (hf1 x.[j]) k)) x.
Definition hight_sub (i j : nat) (k : Z) (x : list Z) : list Z := upd i (wsub 8 x.[i] (Z.lxor (hf1 x.[j]) k)) x.
(** hight.go:75-80 and 97, round i, j = i - 2 *)
Definition hight_eix (i m : nat) : nat := 7 - (i - 2 + m) mod 8.
Definition hight_rnd (rk : list Z) (x : list Z) (i : nat) : list Z :=
  let x := hight_xor (hight_eix i 0) (hight_eix i 1) rk.[4 * i + 3] x in
  let x := hight_add (hight_eix i 2) (hight_eix i 3) rk.[4 * i + 2] x in
  let x := hight_xor (hight_eix i 4) (hight_eix i 5) rk.[4 * i + 1] x in
  hight_add (hight_eix i 6) (hight_eix i 7) rk.[4 * i] x.
(** hight.go:83-92, 101-108 *)
Definition hight_pre (rk : list Z) (x : list Z) : list Z :=
  [wadd 8 x.[0] rk.[0]; x.[1]; Z.lxor x.[2] rk.[1]; x.[3]; wadd 8 x.[4] rk.[2]; x.[5]; Z.lxor x.[6] rk.[3]; x.[7]].
Definition hight_post (rk : list Z) (x : list Z) : list Z :=
  [wadd 8 x.[1] rk.[4]; x.[2]; Z.lxor x.[3] rk.[5]; x.[4]; wadd 8 x.[5] rk.[6]; x.[6]; Z.lxor x.[7] rk.[7]; x.[0]].
(** hight.go:82-109 *)
Definition hight_enc (rk x : list Z) : list Z := hight_post rk (fold_left (hight_rnd rk) (ups 2 32 1) (hight_pre rk x)).
(** hight.go:111-116 and 132, round i, j = 33 - i *)
Definition hight_dix (i m : nat) : nat := (7 - m + (33 - i)) mod 8.
Definition hight_unrnd (rk : list Z) (x : list Z) (i : nat) : list Z :=
  let x := hight_sub (hight_dix i 1) (hight_dix i 2) rk.[4 * i + 2] x in
  let x := hight_xor (hight_dix i 3) (hight_dix i 4) rk.[4 * i + 1] x in
  let x := hight_sub (hight_dix i 5) (hight_dix i 6) rk.[4 * i] x in
  hight_xor (hight_dix i 7) (hight_dix i 0) rk.[4 * i + 3] x.
(** hight.go:119-128, 135-142 *)
Definition hight_unpost (rk : list Z) (x : list Z) : list Z :=
  [x.[7]; wsub 8 x.[0] rk.[4]; x.[1]; Z.lxor x.[2] rk.[5]; x.[3]; wsub 8 x.[4] rk.[6]; x.[5]; Z.lxor x.[6] rk.[7]].
Definition hight_unpre (rk : list Z) (x : list Z) : list Z :=
  [wsub 8 x.[0] rk.[0]; x.[1]; Z.lxor x.[2] rk.[1]; x.[3]; wsub 8 x.[4] rk.[2]; x.[5]; Z.lxor x.[6] rk.[3]; x.[7]].
(** hight.go:118-143 *)
Definition hight_dec (rk x : list Z) : list Z := hight_unpre rk (fold_left (hight_unrnd rk) (downs 33 32 1) (hight_unpost rk x)).
Definition hight_cph (rk : list Z) : cipher := word_cipher 1 8 (hight_enc rk) (hight_dec rk).
(** hight.go:43-73 *)
Definition hight_encrypt rk := blk_call 8 (enc (hight_cph rk)).
Definition hight_decrypt rk := blk_call 8 (dec (hight_cph rk)).

(** noekeon/utils.go:56-62 *)
Definition noekeon_rc : list Z :=
  [128; 27; 54; 108; 216; 171; 77; 154; 47; 94; 188; 99; 198; 151; 53; 106;
   212]%Z.
(** noekeon/utils.go:68-69: temp ^ ROLc(temp, 8) ^ RORc(temp, 8) *)
Definition nk_t (x : Z) : Z := Z.lxor (Z.lxor x (rotl 32 8 x)) (rotr 32 8 x).
(** noekeon/utils.go:82-96 *)
Definition nk_theta (k : list Z) (s : list Z) : list Z :=
  let t := nk_t (Z.lxor s.[0] s.[2]) in
  let b := Z.lxor s.[1] (Z.lxor t k.[1]) in
  let d := Z.lxor s.[3] (Z.lxor t k.[3]) in
  let t := nk_t (Z.lxor b d) in
  [Z.lxor s.[0] (Z.lxor t k.[0]); b; Z.lxor s.[2] (Z.lxor t k.[2]); d].
(** noekeon/utils.go:64-80 *)
Definition nk_ktheta (s : list Z) : list Z :=
  let t := nk_t (Z.lxor s.[0] s.[2]) in
  let b := Z.lxor s.[1] t in
  let d := Z.lxor s.[3] t in
  let t := nk_t (Z.lxor b d) in
  [Z.lxor s.[0] t; b; Z.lxor s.[2] t; d].
(** noekeon/utils.go:98-107 *)
Definition nk_gamma (s : list Z) : list Z :=
  let a := s.[0] in let b := s.[1] in let c := s.[2] in let d := s.[3] in
  let b := Z.lxor b (wnot 32 (Z.lor d c)) in
  let a := Z.lxor a (Z.land c b) in
  let '(d, a) := (a, d) in
  let c := Z.lxor c (Z.lxor (Z.lxor a b) d) in
  let b := Z.lxor b (wnot 32 (Z.lor d c)) in
  let a := Z.lxor a (Z.land c b) in [a; b; c; d].
(** noekeon/utils.go:109-113, 115-119 *)
Definition nk_pi1 (s : list Z) : list Z := [s.[0]; rotl 32 1 s.[1]; rotl 32 5 s.[2]; rotl 32 2 s.[3]].
Definition nk_pi2 (s : list Z) : list Z := [s.[0]; rotr 32 1 s.[1]; rotr 32 5 s.[2]; rotr 32 2 s.[3]].
Definition nk_rc (s : list Z) (i : nat) : list Z := [Z.lxor s.[0] noekeon_rc.[i]; s.[1]; s.[2]; s.[3]].
(** noekeon.go:102-110, 137-145 *)
Definition nk_rnd (k : list Z) (s : list Z) (i : nat) : list Z := nk_pi2 (nk_gamma (nk_pi1 (nk_theta k (nk_rc s i)))).
Definition nk_unrnd (dk : list Z) (s : list Z) (i : nat) : list Z := nk_pi2 (nk_gamma (nk_pi1 (nk_rc (nk_theta dk s) i))).
(** noekeon.go:112-135 *)
Definition nk_enc (k : list Z) (s : list Z) : list Z := nk_theta k (nk_rc (fold_left (nk_rnd k) (seq 0 16) s) 16).
(** noekeon.go:147-170 *)
Definition nk_dec (dk : list Z) (s : list Z) : list Z := nk_rc (nk_theta dk (fold_left (nk_unrnd dk) (downs 16 16 1) s)) 0.
Record noekeon_cipher := { nk_k : list Z; nk_dk : list Z }.
(** noekeon.go:23-36, 86-100 *)
Definition noekeon_new (key : bytes) : res noekeon_cipher :=
  if length key =? 16 then Ok {| nk_k := ldw_be 4 key; nk_dk := nk_ktheta (ldw_be 4 key) |} else Err.
Definition noekeon_cph (c : noekeon_cipher) : cipher := word_cipher_be 4 4 (nk_enc (nk_k c)) (nk_dec (nk_dk c)).
(** noekeon.go:42-84 *)
Definition noekeon_encrypt c := zblk_call 16 4 (enc (noekeon_cph c)).
Definition noekeon_decrypt c := zblk_call 16 4 (dec (noekeon_cph c)).

(** gost/utils.go:41-60: sboxExpansion *)
Definition gost_kbox (s : list (list Z)) : list (list Z) :=
  let row := fun h l => map (fun i => Z.lor (wshl 8 (nth h s []).[i / 16] 4) (nth l s []).[i mod 16]) (seq 0 256) in
  [row 7 6; row 5 4; row 3 2; row 1 0].
(** gost/utils.go:63-71 *)
Definition gost_cycle (k : list (list Z)) (x : Z) : Z :=
  let at_ := fun t sh => (nth t k []).[Z.to_nat (Z.land (Z.shiftr x sh) 255)] in
  rotl 32 11 (Z.lor (Z.lor (Z.lor (Z.shiftl (at_ 0 24%Z) 24) (Z.shiftl (at_ 1 16%Z) 16)) (Z.shiftl (at_ 2 8%Z) 8)) (at_ 3 0%Z)).
Record gost_cipher := { gost_key : list Z; gost_k : list (list Z) }.
(** gost.go:37-56, 160-168 *)
Definition gost_new (key : bytes) (sbox : list (list Z)) : res gost_cipher :=
  if negb (length key =? 32) then Err
  else if negb (length sbox =? 8) then Err
  else if negb (forallb (fun r => length r =? 16) sbox) then Err
  else Ok {| gost_key := ldw 4 key; gost_k := gost_kbox sbox |}.
(** gost.go:111-117: left selects the half that is changed: n2 when true, n1 otherwise *)
Definition gost_half (c : gost_cipher) (n2nd : bool) (s : list Z) (j : nat) : list Z :=
  if n2nd then [s.[0]; Z.lxor s.[1] (gost_cycle (gost_k c) (wadd 32 s.[0] (gost_key c).[j]))]
  else [Z.lxor s.[0] (gost_cycle (gost_k c) (wadd 32 s.[1] (gost_key c).[j])); s.[1]].
(** keys upwards, even j change n2; keys downwards, odd j change n2 *)
Definition gost_up (c : gost_cipher) (s : list Z) : list Z := fold_left (fun s j => gost_half c (Nat.even j) s j) (seq 0 8) s.
Definition gost_down (c : gost_cipher) (s : list Z) : list Z := fold_left (fun s j => gost_half c (Nat.odd j) s j) (downs 7 8 1) s.
Definition gost_swap (s : list Z) : list Z := [s.[1]; s.[0]].
(** gost.go:106-131 *)
Definition gost_enc (c : gost_cipher) (s : list Z) : list Z := gost_swap (gost_down c (gost_up c (gost_up c (gost_up c s)))).
(** gost.go:134-157 *)
Definition gost_dec (c : gost_cipher) (s : list Z) : list Z := gost_swap (gost_down c (gost_down c (gost_down c (gost_up c s)))).
Definition gost_cph (c : gost_cipher) : cipher := word_cipher 4 2 (gost_enc c) (gost_dec c).
(** gost.go:61-103 *)
Definition gost_encrypt c := zblk_call 8 4 (enc (gost_cph c)).
Definition gost_decrypt c := zblk_call 8 4 (dec (gost_cph c)).

(** gost/sbox.go:56-65 *)
Definition magma_sbox : list (list Z) :=
  [[12; 4; 6; 2; 10; 5; 11; 9; 14; 8; 13; 7; 0; 3; 15; 1];
  [6; 8; 2; 3; 9; 10; 5; 12; 1; 14; 4; 7; 11; 13; 0; 15];
  [11; 3; 5; 8; 2; 15; 10; 13; 14; 1; 7; 4; 12; 9; 6; 0];
  [12; 8; 2; 1; 13; 4; 15; 6; 7; 0; 10; 5; 3; 14; 9; 11];
  [7; 15; 5; 10; 8; 1; 6; 13; 0; 9; 3; 14; 11; 4; 2; 12];
  [5; 13; 15; 6; 9; 2; 12; 10; 11; 7; 8; 1; 4; 3; 14; 0];
  [8; 14; 2; 5; 6; 9; 1; 12; 15; 4; 11; 0; 13; 10; 3; 7];
  [1; 7; 14; 13; 0; 5; 8; 3; 4; 15; 10; 6; 9; 12; 11; 2]]%Z.
(** gost/sbox.go:43-52 *)
Definition gost_sbox_cb : list (list Z) :=
  [[1; 15; 13; 0; 5; 7; 10; 4; 9; 2; 3; 14; 6; 11; 8; 2];
  [13; 11; 4; 1; 3; 15; 5; 9; 0; 10; 14; 7; 6; 8; 2; 12];
  [4; 11; 10; 0; 7; 2; 1; 13; 3; 6; 8; 5; 9; 12; 15; 14];
  [6; 12; 7; 1; 5; 15; 13; 8; 4; 10; 9; 14; 0; 3; 11; 2];
  [7; 13; 10; 1; 0; 8; 9; 15; 14; 4; 6; 12; 11; 2; 5; 3];
  [5; 8; 1; 13; 10; 3; 4; 2; 14; 15; 12; 7; 6; 0; 9; 11];
  [14; 11; 4; 12; 6; 13; 15; 10; 2; 3; 8; 1; 0; 7; 5; 9];
  [4; 10; 9; 2; 13; 8; 0; 14; 6; 11; 1; 12; 7; 15; 5; 3]]%Z.
(** magma.go:87-104: each four bytes of the key reversed *)
Definition magma_key (key : bytes) : bytes := concat (map (@rev Z) (chunks 4 key)).
(** magma.go:28-41 *)
Definition magma_new (key : bytes) : res gost_cipher :=
  if length key =? 32 then gost_new (magma_key key) magma_sbox else Err.
(** magma.go:47-85: the block reversed, through gost, reversed again. src[7] and dst[7] are indexed, so a short slice
    panics (on a short dst after some bytes have been written, which is not modelled). The scratch array c.blk is
    overwritten by each call and never read before that; concurrent use is not modelled. *)
Definition magma_call (f : bytes -> bytes -> res bytes) (dst src : bytes) : res bytes :=
  if length src <? 8 then Panic
  else rbind (f (rev (firstn 8 src)) (rev (firstn 8 src))) (fun o => if length dst <? 8 then Panic else Ok (splice 0 (rev o) dst)).
Definition magma_encrypt c := magma_call (gost_encrypt c).
Definition magma_decrypt c := magma_call (gost_decrypt c).
