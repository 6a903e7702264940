(** Model of /repo/hash/md2, /repo/hash/sm3 (digest, the portable block function, state marshalling) and
    /repo/hash/has160. The assembly block functions of sm3 are not modelled. *)
From Verif Require Import Base WordModel HbufModel.
Set Implicit Arguments. Unset Strict Implicit.
Local Open Scope nat_scope.

(** * MD2 *)
(** md2/sbox.go *)
Definition md2_sbox : list Z :=
  [41; 46; 67; 201; 162; 216; 124; 1; 61; 54; 84; 161; 236; 240; 6; 19;
   98; 167; 5; 243; 192; 199; 115; 140; 152; 147; 43; 217; 188; 76; 130; 202;
   30; 155; 87; 60; 253; 212; 224; 22; 103; 66; 111; 24; 138; 23; 229; 18;
   190; 78; 196; 214; 218; 158; 222; 73; 160; 251; 245; 142; 187; 47; 238; 122;
   169; 104; 121; 145; 21; 178; 7; 63; 148; 194; 16; 137; 11; 34; 95; 33;
   128; 127; 93; 154; 90; 144; 50; 39; 53; 62; 204; 231; 191; 247; 151; 3;
   255; 25; 48; 179; 72; 165; 181; 209; 215; 94; 146; 42; 172; 86; 170; 198;
   79; 184; 56; 210; 150; 164; 125; 182; 118; 252; 107; 226; 156; 116; 4; 241;
   69; 157; 112; 89; 100; 113; 135; 32; 134; 91; 207; 101; 230; 45; 168; 2;
   27; 96; 37; 173; 174; 176; 185; 246; 28; 70; 97; 105; 52; 64; 126; 15;
   85; 71; 163; 35; 221; 81; 175; 58; 195; 92; 249; 206; 186; 197; 234; 38;
   44; 83; 13; 110; 133; 40; 132; 9; 211; 223; 205; 244; 65; 129; 77; 82;
   106; 220; 55; 200; 108; 193; 171; 250; 36; 225; 123; 8; 12; 189; 177; 74;
   120; 136; 149; 139; 227; 99; 232; 109; 233; 203; 213; 254; 59; 0; 29; 57;
   242; 239; 183; 14; 102; 88; 208; 228; 166; 119; 114; 248; 235; 117; 75; 10;
   49; 68; 80; 180; 143; 237; 31; 26; 219; 153; 141; 51; 159; 17; 131; 20]%Z.
Definition md2_sub (t : Z) : Z := md2_sbox.[Z.to_nat t].
(** digest.go:110-113: for j { s[j] ^= sbox[t]; t = s[j] } *)
Fixpoint md2_pass (t : Z) (s : bytes) : bytes * Z :=
  match s with
  | [] => ([], t)
  | a :: r => let a' := Z.lxor a (md2_sub t) in let '(r', t') := md2_pass a' r in (a' :: r', t')
  end.
(** digest.go:109-115: 18 passes, t += i after pass i *)
Definition md2_mix (x : bytes) : bytes :=
  fst (fold_left (fun st i => let '(s, t) := md2_pass (snd st) (fst st) in (s, to_byte (t + Z.of_nat i))) (seq 0 18) (x, 0%Z)).
(** digest.go:117-122: the checksum array, from t = digest[15] *)
Fixpoint md2_chk (t : Z) (d p : bytes) : bytes :=
  match d, p with
  | c :: d', b :: p' => let c' := Z.lxor c (md2_sub (Z.lxor b t)) in c' :: md2_chk c' d' p'
  | _, _ => []
  end.
(** digest.go:101-124; the state is the array s and the array digest *)
Definition md2_block (st : bytes * bytes) (p : bytes) : bytes * bytes :=
  let '(s, d) := st in
  (md2_mix (firstn 16 s ++ p ++ xorl p (firstn 16 s)), md2_chk d.[15] d p).
Notation md2_st := (bufst (bytes * bytes)).
(** digest.go:24-37 *)
Definition md2_new : md2_st := Buf (repeat 0%Z 48, repeat 0%Z 16) (repeat 0%Z 16) 0 0.
Definition md2_reset (_ : md2_st) : md2_st := md2_new.
(** digest.go:48-72 *)
Definition md2_write : md2_st -> bytes -> md2_st := bwrite md2_block 16.
(** digest.go:81-99 *)
Definition md2_checksum (d : md2_st) : res bytes :=
  let padding := 16 - b_nx d in
  let d1 := md2_write d (repeat (to_byte (Z.of_nat padding)) padding) in
  if negb (b_nx d1 =? 0) then Panic
  else let d2 := md2_write d1 (snd (b_s d1)) in
       if negb (b_nx d2 =? 0) then Panic else Ok (firstn 16 (fst (b_s d2))).
(** digest.go:74-79, on a copy *)
Definition md2_sum (d : md2_st) (inp : bytes) : res bytes := rbind (md2_checksum d) (fun h => Ok (inp ++ h)).
(** md2.go: Sum *)
Definition md2_oneshot (data : bytes) : res bytes := md2_sum (md2_write md2_new data) [].

(** * SM3 *)
(** sm3/sbox.go *)
Definition sm3_iv : list Z :=
  [1937774191; 1226093241; 388252375; 3666478592; 2842636476; 372324522; 3817729613; 2969243214]%Z.
Definition sm3_T : list Z :=
  [2043430169; 4086860338; 3878753381; 3462539467; 2630111639; 965255983; 1930511966; 3861023932; 3427080569; 2559193843; 823420391; 1646840782; 3293681564; 2292395833; 289824371; 579648742;
   2643098247; 991229199; 1982458398; 3964916796; 3634866297; 2974765299; 1654563303; 3309126606; 2323285917; 351604539; 703209078; 1406418156; 2812836312; 1330705329; 2661410658; 1027854021;
   2055708042; 4111416084; 3927864873; 3560762451; 2826557607; 1358147919; 2716295838; 1137624381; 2275248762; 255530229; 511060458; 1022120916; 2044241832; 4088483664; 3882000033; 3469032771;
   2643098247; 991229199; 1982458398; 3964916796; 3634866297; 2974765299; 1654563303; 3309126606; 2323285917; 351604539; 703209078; 1406418156; 2812836312; 1330705329; 2661410658; 1027854021]%Z.
Notation "a +w b" := (wadd 32 a b) (at level 50, left associativity).
Notation "a ^w b" := (Z.lxor a b) (at level 50, left associativity).
Definition ROL (n x : Z) : Z := rotl 32 n x.
(** utils.go:20-42 *)
Definition sm3_P0 (x : Z) : Z := x ^w ROL 9 x ^w ROL 17 x.
Definition sm3_P1 (x : Z) : Z := x ^w ROL 15 x ^w ROL 23 x.
Definition sm3_FF (j : nat) (x y z : Z) : Z :=
  if j <? 16 then x ^w y ^w z else Z.lor (Z.lor (Z.land x y) (Z.land x z)) (Z.land y z).
Definition sm3_GG (j : nat) (x y z : Z) : Z :=
  if j <? 16 then x ^w y ^w z else Z.land (y ^w z) x ^w z.
(** block.go:20-27: the 68 words; each pass appends W[j] *)
Definition sm3_W (data : bytes) : list Z :=
  fold_left (fun W j => W ++ [sm3_P1 (W.[j - 16] ^w W.[j - 9] ^w ROL 15 W.[j - 3]) ^w ROL 7 W.[j - 13] ^w W.[j - 6]])
    (seq 16 52) (ldw_be 4 data).
(** block.go:29-61 *)
Definition sm3_round (W : list Z) (v : list Z) (j : nat) : list Z :=
  match v with
  | [A; B; C; D; E; F; G; H] =>
      let SS1 := ROL 7 (ROL 12 A +w E +w sm3_T.[j]) in
      let SS2 := SS1 ^w ROL 12 A in
      let TT1 := sm3_FF j A B C +w D +w SS2 +w (W.[j] ^w W.[j + 4]) in
      let TT2 := sm3_GG j E F G +w H +w SS1 +w W.[j] in
      [TT1; A; ROL 9 B; C; sm3_P0 TT2; E; ROL 19 F; G]
  | _ => v
  end.
(** block.go:3-70 *)
Definition sm3_block (s : list Z) (data : bytes) : list Z :=
  xorl s (fold_left (sm3_round (sm3_W data)) (seq 0 64) s).
Notation sm3_st := (bufst (list Z)).
(** digest.go:17-29 *)
Definition sm3_new : sm3_st := Buf sm3_iv (repeat 0%Z 64) 0 0.
Definition sm3_reset (_ : sm3_st) : sm3_st := sm3_new.
(** digest.go:40-64 *)
Definition sm3_write : sm3_st -> bytes -> sm3_st := bwrite sm3_block 64.
(** digest.go:73-98; x[nx] panics when nx = 64, which nx &= 0x3f excludes *)
Definition sm3_checksum (d : sm3_st) : bytes :=
  let nx := b_nx d mod 64 in
  let x1 := copyat (nx + 1) (repeat 0%Z 64) (upd nx 128%Z (b_x d)) in
  let '(s, x2) := if 64 - nx <? 9 then (sm3_block (b_s d) x1, copyat 0 (repeat 0%Z 64) x1) else (b_s d, x1) in
  let bcount := (b_len d / 64)%Z in
  let x3 := copyat 56 (be_bytes 4 (Z.shiftr bcount 23)) x2 in
  let x4 := copyat 60 (be_bytes 4 (wadd 64 (wshl 64 bcount 9) (wshl 64 (Z.of_nat nx) 3))) x3 in
  stw_be 4 (sm3_block s x4).
(** digest.go:66-71, on a copy *)
Definition sm3_sum (d : sm3_st) (inp : bytes) : res bytes := Ok (inp ++ sm3_checksum d).
(** sm3.go: Sum *)
Definition sm3_oneshot (data : bytes) : res bytes := sm3_sum (sm3_write sm3_new data) [].

(** binary.go:12: "sm3\x03" *)
Definition sm3_magic : bytes := [115; 109; 51; 3]%Z.
(** binary.go:16-36: the buffered bytes are followed by zeros up to 64; the slice b[:len(b)+64-nx] shows what make zeroed *)
Definition sm3_marshal (d : sm3_st) : bytes :=
  sm3_magic ++ stw_be 4 (b_s d) ++ (firstn (b_nx d) (b_x d) ++ repeat 0%Z (64 - b_nx d)) ++ be_bytes 8 (b_len d).
(** binary.go:38-71 *)
Definition sm3_unmarshal (d : sm3_st) (b : bytes) : res sm3_st :=
  if (length b <? 4) || negb (bytes_eqb (firstn 4 b) sm3_magic) then Err
  else if negb (length b =? 4 + 32 + 64 + 8) then Err
  else let len := be_val (slice 100 8 b) in
       Ok (Buf (ldw_be 4 (slice 4 32 b)) (copyat 0 (slice 36 72 b) (b_x d)) (Z.to_nat (len mod 64)%Z) len).

(** * HAS-160 *)
(** has160/sbox.go *)
Definition has_initH : list Z :=
  [1732584193; 4023233417; 2562383102; 271733878; 3285377520]%Z.
Definition has_s1 : list Z :=
  [5; 11; 7; 15; 6; 13; 8; 14; 7; 12; 9; 11; 8; 15; 6; 12;
   9; 14; 5; 13]%Z.
Definition has_x1 : list Z :=
  [18; 0; 1; 2; 3; 19; 4; 5; 6; 7; 16; 8; 9; 10; 11; 17;
   12; 13; 14; 15]%Z.
Definition has_x2 : list Z :=
  [18; 3; 6; 9; 12; 19; 15; 2; 5; 8; 16; 11; 14; 1; 4; 17;
   7; 10; 13; 0]%Z.
Definition has_x3 : list Z :=
  [18; 12; 5; 14; 7; 19; 0; 9; 2; 11; 16; 4; 13; 6; 15; 17;
   8; 1; 10; 3]%Z.
Definition has_x4 : list Z :=
  [18; 7; 2; 13; 8; 19; 3; 14; 9; 4; 16; 15; 10; 5; 0; 17;
   11; 6; 1; 12]%Z.
(** utils.go:50-68: the four step functions; the boolean function, the index table, the constant and the rotation of h[b] *)
Definition has_F (r : nat) (b c d : Z) : Z :=
  match r with
  | 0 => Z.lor (Z.land b c) (Z.land (wnot 32 b) d)
  | 1 => b ^w c ^w d
  | 2 => c ^w Z.lor b (wnot 32 d)
  | _ => b ^w c ^w d
  end.
Definition has_X (r : nat) : list Z := match r with 0 => has_x1 | 1 => has_x2 | 2 => has_x3 | _ => has_x4 end.
Definition has_K (r : nat) : Z := match r with 0 => 0%Z | 1 => 1518500249%Z | 2 => 1859775393%Z | _ => 2400959708%Z end.
Definition has_R (r : nat) : Z := match r with 0 => 10%Z | 1 => 17%Z | 2 => 25%Z | _ => 30%Z end.
(** digest.go:109-144: step i of round r works on h[4-(4+i)%5], ... *)
Definition has_step (r : nat) (x h : list Z) (i : nat) : list Z :=
  let a := 4 - (4 + i) mod 5 in
  let b := 4 - (3 + i) mod 5 in
  let c := 4 - (2 + i) mod 5 in
  let d := 4 - (1 + i) mod 5 in
  let e := 4 - i mod 5 in
  let h1 := upd e (h.[e] +w (ROL has_s1.[i] h.[a] +w x.[Z.to_nat (has_X r).[i]] +w has_K r +w has_F r h.[b] h.[c] h.[d])) h in
  upd b (ROL (has_R r) h1.[b]) h1.
(** digest.go:106-109, 115-118, 124-127, 133-136: which words are xored into x[16..19] *)
Definition has_mix (r : nat) : list (list nat) :=
  match r with
  | 0 => [[0; 1; 2; 3]; [4; 5; 6; 7]; [8; 9; 10; 11]; [12; 13; 14; 15]]
  | 1 => [[3; 6; 9; 12]; [2; 5; 8; 15]; [1; 4; 11; 14]; [0; 7; 10; 13]]
  | 2 => [[5; 7; 12; 14]; [0; 2; 9; 11]; [4; 6; 13; 15]; [1; 3; 8; 10]]
  | _ => [[2; 7; 8; 13]; [3; 4; 9; 14]; [0; 5; 10; 15]; [1; 6; 11; 12]]
  end.
Definition has_words (r : nat) (w : list Z) : list Z :=
  w ++ map (fun l => match l with [a; b; c; d] => w.[a] ^w w.[b] ^w w.[c] ^w w.[d] | _ => 0%Z end) (has_mix r).
Definition has_round (w h : list Z) (r : nat) : list Z := fold_left (has_step r (has_words r w)) (seq 0 20) h.
(** digest.go:96-150 *)
Definition has_block (s : list Z) (block : bytes) : list Z :=
  let h := fold_left (has_round (ldw 4 block)) (seq 0 4) s in
  map (fun p => fst p +w snd p) (combine s h).
Notation has_st := (bufst (list Z)).
(** digest.go:17-39 *)
Definition has_new : has_st := Buf has_initH (repeat 0%Z 64) 0 0.
Definition has_reset (_ : has_st) : has_st := has_new.
(** digest.go:41-66 *)
Definition has_write : has_st -> bytes -> has_st := bwrite has_block 64.
(** digest.go:74-94 *)
Definition has_checksum (d : has_st) : res bytes :=
  if length (b_x d) <=? b_nx d then Panic else
  let x0 := upd (b_nx d) 128%Z (b_x d) in
  let nx := b_nx d + 1 in
  let '(s, x1, nx1) := if 64 - 8 <? nx
                       then let x' := copyat nx (repeat 0%Z 64) x0 in (has_block (b_s d) x', x', 0)
                       else (b_s d, x0, nx) in
  let x2 := copyat nx1 (repeat 0%Z 64) x1 in
  let x3 := copyat 56 (le_bytes 8 (wmul 64 (b_len d) 8)) x2 in
  Ok (stw 4 (has_block s x3)).
(** digest.go:68-72, on a copy *)
Definition has_sum (d : has_st) (inp : bytes) : res bytes := rbind (has_checksum d) (fun h => Ok (inp ++ h)).
(** has160.go: Sum *)
Definition has_oneshot (data : bytes) : res bytes := has_sum (has_write has_new data) [].
