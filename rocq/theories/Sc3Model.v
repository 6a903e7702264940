(** Model of /repo/gm/zuc: the ZUC-128 and ZUC-256 generators, the cipher.Stream objects, the buffering Zuc object
    (Write / Sum), 128-EEA3 and the MACs (ZucMac, EiaGenerateMac, Zuc256Mac). Words are 32-bit, the LFSR cells
    31-bit. Buffers do not overlap unless a definition says so; a slice is taken to have no capacity beyond its
    length; nbits and macbits are not negative. *)
From Verif Require Import Base BlockModeModel WordModel StreamModel.
Set Implicit Arguments. Unset Strict Implicit.
Local Open Scope nat_scope.

(** sbox.go:3-6, 8-25, 27-44 *)
Definition zuc_KD : list Z :=
  [17623; 9916; 25195; 4958; 22409; 13794; 28981; 2479; 19832; 12051; 27588; 6897; 24102; 15437; 30874; 18348]%Z.
Definition zuc_S0 : list Z :=
  [62; 114; 91; 71; 202; 224; 0; 51; 4; 209; 84; 152; 9; 185; 109; 203;
   123; 27; 249; 50; 175; 157; 106; 165; 184; 45; 252; 29; 8; 83; 3; 144;
   77; 78; 132; 153; 228; 206; 217; 145; 221; 182; 133; 72; 139; 41; 110; 172;
   205; 193; 248; 30; 115; 67; 105; 198; 181; 189; 253; 57; 99; 32; 212; 56;
   118; 125; 178; 167; 207; 237; 87; 197; 243; 44; 187; 20; 33; 6; 85; 155;
   227; 239; 94; 49; 79; 127; 90; 164; 13; 130; 81; 73; 95; 186; 88; 28;
   74; 22; 213; 23; 168; 146; 36; 31; 140; 255; 216; 174; 46; 1; 211; 173;
   59; 75; 218; 70; 235; 201; 222; 154; 143; 135; 215; 58; 128; 111; 47; 200;
   177; 180; 55; 247; 10; 34; 19; 40; 124; 204; 60; 137; 199; 195; 150; 86;
   7; 191; 126; 240; 11; 43; 151; 82; 53; 65; 121; 97; 166; 76; 16; 254;
   188; 38; 149; 136; 138; 176; 163; 251; 192; 24; 148; 242; 225; 229; 233; 93;
   208; 220; 17; 102; 100; 92; 236; 89; 66; 117; 18; 245; 116; 156; 170; 35;
   14; 134; 171; 190; 42; 2; 231; 103; 230; 68; 162; 108; 194; 147; 159; 241;
   246; 250; 54; 210; 80; 104; 158; 98; 113; 21; 61; 214; 64; 196; 226; 15;
   142; 131; 119; 107; 37; 5; 63; 12; 48; 234; 112; 183; 161; 232; 169; 101;
   141; 39; 26; 219; 129; 179; 160; 244; 69; 122; 25; 223; 238; 120; 52; 96]%Z.
Definition zuc_S1 : list Z :=
  [85; 194; 99; 113; 59; 200; 71; 134; 159; 60; 218; 91; 41; 170; 253; 119;
   140; 197; 148; 12; 166; 26; 19; 0; 227; 168; 22; 114; 64; 249; 248; 66;
   68; 38; 104; 150; 129; 217; 69; 62; 16; 118; 198; 167; 139; 57; 67; 225;
   58; 181; 86; 42; 192; 109; 179; 5; 34; 102; 191; 220; 11; 250; 98; 72;
   221; 32; 17; 6; 54; 201; 193; 207; 246; 39; 82; 187; 105; 245; 212; 135;
   127; 132; 76; 210; 156; 87; 164; 188; 79; 154; 223; 254; 214; 141; 122; 235;
   43; 83; 216; 92; 161; 20; 23; 251; 35; 213; 125; 48; 103; 115; 8; 9;
   238; 183; 112; 63; 97; 178; 25; 142; 78; 229; 75; 147; 143; 93; 219; 169;
   173; 241; 174; 46; 203; 13; 252; 244; 45; 70; 110; 29; 151; 232; 209; 233;
   77; 55; 165; 117; 94; 131; 158; 171; 130; 157; 185; 28; 224; 205; 73; 137;
   1; 182; 189; 88; 36; 162; 95; 56; 120; 153; 21; 144; 80; 184; 149; 228;
   208; 145; 199; 206; 237; 15; 180; 111; 160; 204; 240; 2; 74; 121; 195; 222;
   163; 239; 234; 81; 230; 107; 24; 236; 27; 44; 128; 247; 116; 231; 255; 33;
   90; 106; 84; 30; 65; 49; 146; 53; 196; 51; 7; 10; 186; 126; 14; 52;
   136; 177; 152; 124; 243; 61; 96; 108; 123; 202; 211; 31; 50; 101; 4; 40;
   100; 190; 133; 155; 47; 89; 138; 215; 176; 37; 172; 175; 18; 3; 226; 242]%Z.

(** zuc.go:7-11, zuc256.go:29-33 *)
Record zst := Zst { z_l : list Z; z_r1 : Z; z_r2 : Z }.
(** utils.go:65-71 *)
Definition rot31 (a k : Z) : Z := Z.land (Z.lor (wshl 32 a k) (Z.shiftr a (31 - k))) 0x7FFFFFFF.
Definition rot32 (a k : Z) : Z := Z.lor (wshl 32 a k) (Z.shiftr a (32 - k)).
(** utils.go:73-76 *)
Definition add31 (a b : Z) : Z := let a := wadd 32 a b in wadd 32 (Z.land a 0x7fffffff) (Z.shiftr a 31).
(** utils.go:78-92 *)
Definition zL1 (x : Z) : Z := Z.lxor (Z.lxor (Z.lxor (Z.lxor x (rot32 x 2)) (rot32 x 10)) (rot32 x 18)) (rot32 x 24).
Definition zL2 (x : Z) : Z := Z.lxor (Z.lxor (Z.lxor (Z.lxor x (rot32 x 8)) (rot32 x 14)) (rot32 x 22)) (rot32 x 30).
(** utils.go:94-109: the loop moves every cell down by one *)
Definition lfsr_push (l : list Z) (v : Z) : list Z := skipn 1 l ++ [v].
Definition lfsr_init (u : Z) (l : list Z) : list Z :=
  let v := l.[0] in
  let v := add31 v (rot31 l.[0] 8) in
  let v := add31 v (rot31 l.[4] 20) in
  let v := add31 v (rot31 l.[10] 21) in
  let v := add31 v (rot31 l.[13] 17) in
  let v := add31 v (rot31 l.[15] 15) in
  let v := add31 v u in
  lfsr_push l v.
(** utils.go:111-129 *)
Definition fold31 (a : Z) : Z := wadd 64 (Z.land a 0x7fffffff) (Z.shiftr a 31).
Definition lfsr_work (l : list Z) : list Z :=
  let a := l.[0] in
  let a := wadd 64 a (wshl 64 l.[0] 8) in
  let a := wadd 64 a (wshl 64 l.[4] 20) in
  let a := wadd 64 a (wshl 64 l.[10] 21) in
  let a := wadd 64 a (wshl 64 l.[13] 17) in
  let a := wadd 64 a (wshl 64 l.[15] 15) in
  let a := fold31 a in
  lfsr_push l (fold31 a mod 2 ^ 32)%Z.
(** utils.go:131-146 *)
Definition br0 (l : list Z) : Z := Z.lor (wshl 32 (Z.land l.[15] 0x7FFF8000) 1) (Z.land l.[14] 0xFFFF).
Definition br1 (l : list Z) : Z := Z.lor (wshl 32 (Z.land l.[11] 0xFFFF) 16) (Z.shiftr l.[9] 15).
Definition br2 (l : list Z) : Z := Z.lor (wshl 32 (Z.land l.[7] 0xFFFF) 16) (Z.shiftr l.[5] 15).
Definition br3 (l : list Z) : Z := Z.lor (wshl 32 (Z.land l.[2] 0xFFFF) 16) (Z.shiftr l.[0] 15).
(** utils.go:148-159 *)
Definition makeu31 (k d iv : Z) : Z := Z.lor (Z.lor (wshl 32 k 23) (wshl 32 d 8)) iv.
Definition makeu32 (a b c d : Z) : Z := Z.lor (Z.lor (Z.lor (wshl 32 a 24) (wshl 32 b 16)) (wshl 32 c 8)) d.
(** utils.go:168-179 *)
Definition zsub (u : Z) : Z :=
  makeu32 zuc_S0.[Z.to_nat (Z.shiftr u 24)] zuc_S1.[Z.to_nat (Z.land (Z.shiftr u 16) 0xFF)]
          zuc_S0.[Z.to_nat (Z.land (Z.shiftr u 8) 0xFF)] zuc_S1.[Z.to_nat (Z.land u 0xFF)].
(** utils.go:161-180: the new (R1, R2) *)
Definition zF_ (r1 r2 x1 x2 : Z) : Z * Z :=
  let w1 := wadd 32 r1 x1 in
  let w2 := Z.lxor r2 x2 in
  let u := zL1 (Z.lor (wshl 32 w1 16) (Z.shiftr w2 16)) in
  let v := zL2 (Z.lor (wshl 32 w2 16) (Z.shiftr w1 16)) in
  (zsub u, zsub v).
(** utils.go:182-188: result, new R1, new R2 *)
Definition zF (r1 r2 x0 x1 x2 : Z) : Z * (Z * Z) := (wadd 32 (Z.lxor x0 r1) r2, zF_ r1 r2 x1 x2).

(** zuc.go:41-45, zuc256.go:108-112 *)
Definition z_init_round (s : zst) : zst :=
  let l := z_l s in
  let '(w, (r1, r2)) := zF (z_r1 s) (z_r2 s) (br0 l) (br1 l) (br2 l) in
  Zst (lfsr_init (Z.shiftr w 1) l) r1 r2.
(** zuc.go:38-52, zuc256.go:105-119 *)
Definition z_setup (l : list Z) : zst :=
  let s := Nat.iter 32 z_init_round (Zst l 0 0) in
  let l := z_l s in
  let '(r1, r2) := zF_ (z_r1 s) (z_r2 s) (br1 l) (br2 l) in
  Zst (lfsr_work l) r1 r2.
(** zuc.go:34-36 *)
Definition z_load (key iv : bytes) : list Z := map (fun i => makeu31 key.[i] zuc_KD.[i] iv.[i]) (seq 0 16).
(** zuc.go:28-53 *)
Definition z_init (key iv : bytes) : zst := z_setup (z_load key iv).
(** zuc.go:13-26 *)
Definition z_new (key iv : bytes) : res zst :=
  if negb (length key =? 16) then Panic else if negb (length iv =? 16) then Panic else Ok (z_init key iv).
(** zuc.go:55-69, and the same four lines inside GenerateKeystream, Encrypt and ZucMac *)
Definition z_word (s : zst) : zst * Z :=
  let l := z_l s in
  let '(f, (r1, r2)) := zF (z_r1 s) (z_r2 s) (br0 l) (br1 l) (br2 l) in
  (Zst (lfsr_work l) r1 r2, Z.lxor (br3 l) f).
(** zuc.go:71-85: the words that GenerateKeystream(n, ...) stores *)
Fixpoint z_words (n : nat) (s : zst) : zst * list Z :=
  match n with
  | O => (s, [])
  | S m => let '(s, w) := z_word s in let '(s, ws) := z_words m s in (s, w :: ws)
  end.
(** zuc.go:87-124: Encrypt(out, in); the result is out[:len(in)]. The rest of the word that covers a last, shorter
    group of bytes is lost. *)
Fixpoint z_crypt (n : nat) (s : zst) (src : bytes) : zst * bytes :=
  match n with
  | O => if 0 <? length src then let '(s, w) := z_word s in (s, xorl src (be_bytes 4 w)) else (s, [])
  | S m => let '(s, w) := z_word s in
           let o := xorl (firstn 4 src) (be_bytes 4 w) in
           let '(s, os) := z_crypt m s (skipn 4 src) in (s, o ++ os)
  end.
Definition z_encrypt (s : zst) (x : bytes * bytes) : res (zst * bytes) :=
  if length (fst x) <? length (snd x) then Panic
  else Ok (z_crypt (length (snd x) / 4) s (snd x)).
(** cipher.go:12-25: a wrong key is an error, a wrong IV a panic *)
Definition zuc_new_cipher (key iv : bytes) : res zst := if negb (length key =? 16) then Err else z_new key iv.

(** * ZUC-256 *)
(** zuc256.go:3-20 *)
Definition z256_D : list (list Z) :=
  [[0x22;0x2F;0x24;0x2A;0x6D;0x40;0x40;0x40;0x40;0x40;0x40;0x40;0x40;0x52;0x10;0x30];
   [0x22;0x2F;0x25;0x2A;0x6D;0x40;0x40;0x40;0x40;0x40;0x40;0x40;0x40;0x52;0x10;0x30];
   [0x23;0x2F;0x24;0x2A;0x6D;0x40;0x40;0x40;0x40;0x40;0x40;0x40;0x40;0x52;0x10;0x30];
   [0x23;0x2F;0x25;0x2A;0x6D;0x40;0x40;0x40;0x40;0x40;0x40;0x40;0x40;0x52;0x10;0x30]]%Z.
(** zuc256.go:22-27 *)
Definition makeu31_4 (a b c d : Z) : Z := Z.lor (Z.lor (Z.lor (wshl 32 a 23) (wshl 32 b 16)) (wshl 32 c 8)) d.
(** zuc256.go:73-103 *)
Definition z256_load (K IV : bytes) (D : list Z) : list Z :=
  let k i := K.[i] in let v i := IV.[i] in let d i := D.[i] in let mk := makeu31_4 in
  let hi2 a b := Z.lor (wshl 8 (Z.land a 3) 4) (Z.shiftr b 4) in
  let hi4 a b := Z.lor (wshl 8 (Z.land a 15) 2) (Z.shiftr b 6) in
  let iv17 := Z.shiftr (v 17) 2 in
  let iv18 := hi2 (v 17) (v 18) in
  let iv19 := hi4 (v 18) (v 19) in
  let iv20 := Z.land (v 19) 0x3f in
  let iv21 := Z.shiftr (v 20) 2 in
  let iv22 := hi2 (v 20) (v 21) in
  let iv23 := hi4 (v 21) (v 22) in
  let iv24 := Z.land (v 22) 0x3f in
  [mk (k 0) (d 0) (k 21) (k 16);
   mk (k 1) (d 1) (k 22) (k 17);
   mk (k 2) (d 2) (k 23) (k 18);
   mk (k 3) (d 3) (k 24) (k 19);
   mk (k 4) (d 4) (k 25) (k 20);
   mk (v 0) (Z.lor (d 5) iv17) (k 5) (k 26);
   mk (v 1) (Z.lor (d 6) iv18) (k 6) (k 27);
   mk (v 10) (Z.lor (d 7) iv19) (k 7) (v 2);
   mk (k 8) (Z.lor (d 8) iv20) (v 3) (v 11);
   mk (k 9) (Z.lor (d 9) iv21) (v 12) (v 4);
   mk (v 5) (Z.lor (d 10) iv22) (k 10) (k 28);
   mk (k 11) (Z.lor (d 11) iv23) (v 6) (v 13);
   mk (k 12) (Z.lor (d 12) iv24) (v 7) (v 14);
   mk (k 13) (d 13) (v 15) (v 8);
   mk (k 14) (Z.lor (d 14) (Z.shiftr (k 31) 4)) (v 16) (v 9);
   mk (k 15) (Z.lor (d 15) (Z.land (k 31) 0x0F)) (k 30) (k 29)].
(** zuc256.go:65-120 *)
Definition z256_init (K IV : bytes) (macbits : nat) : zst :=
  z_setup (z256_load K IV (nth (if macbits / 32 <? 3 then macbits / 32 else 3) z256_D [])).
(** zuc256.go:50-63; NewZuc256State, zuc256.go:35-48, is macbits = 0 *)
Definition z256_new (key iv : bytes) (macbits : nat) : res zst :=
  if negb (length key =? 32) then Panic else if negb (length iv =? 23) then Panic else Ok (z256_init key iv macbits).
(** cipher.go:43-56 *)
Definition zuc256_new_cipher (key iv : bytes) (macbits : nat) : res zst :=
  if negb (length key =? 32) then Err else z256_new key iv macbits.

(** * 128-EEA3 *)
(** eea.go:3-18 *)
Definition eea_iv (count bearer direction : Z) : bytes :=
  let a := to_byte (Z.shiftr count 24) in let b := to_byte (Z.shiftr count 16) in
  let c := to_byte (Z.shiftr count 8) in let d := to_byte count in
  let e := to_byte (wshl 32 (Z.lor (wshl 32 bearer 1) (Z.land direction 1)) 2) in
  [a; b; c; d; e; 0; 0; 0; a; b; c; d; e; 0; 0; 0]%Z.
(** cipher.go:69-85 *)
Definition eea_new_cipher (key : bytes) (count bearer direction : Z) : res zst :=
  if negb (length key =? 16) then Err else Ok (z_init key (eea_iv count bearer direction)).
(** eea.go:40-42 *)
Definition eea_mask (nbits : nat) (out : list Z) : list Z :=
  let n := (nbits + 31) / 32 in
  if nbits mod 32 =? 0 then out
  else upd (n - 1) (Z.land out.[n - 1] (wshl 32 0xffffffff (Z.of_nat (32 - nbits mod 32)))) out.
(** eea.go:20-43: EeaEncrypt(in, out, ...); the new contents of out. A key shorter than 16 bytes or a slice with
    fewer words than needed is an index out of range. *)
Definition eea_encrypt (win wout : list Z) (nbits : nat) (key : bytes) (count bearer direction : Z) : res (list Z) :=
  let n := (nbits + 31) / 32 in
  if length key <? 16 then Panic
  else if length wout <? n then Panic
  else if length win <? n then Panic
  else
    let ks := snd (z_words n (z_init key (eea_iv count bearer direction))) in
    let out := ks ++ skipn n wout in
    let out := fold_left (fun o i => upd i (Z.lxor o.[i] win.[i]) o) (seq 0 n) out in
    Ok (eea_mask nbits out).
(** the same call with out = in: the keystream is stored over the input before it is read *)
Definition eea_encrypt_inplace (buf : list Z) (nbits : nat) (key : bytes) (count bearer direction : Z) : res (list Z) :=
  let n := (nbits + 31) / 32 in
  if length key <? 16 then Panic
  else if length buf <? n then Panic
  else
    let ks := snd (z_words n (z_init key (eea_iv count bearer direction))) in
    let out := ks ++ skipn n buf in
    let out := fold_left (fun o i => upd i (Z.lxor o.[i] o.[i]) o) (seq 0 n) out in
    Ok (eea_mask nbits out).

(** * The buffering object: eea.go:90-94; block[:block_nbytes] *)
Record zbuf := Zbuf { zb_s : zst; zb_b : bytes }.
Definition zb_new (key iv : bytes) : res zbuf := rbind (z_new key iv) (fun s => Ok (Zbuf s [])).
(** eea.go:118-173: Write(in, out); the new contents of out *)
Definition zb_write (z : zbuf) (x : bytes * bytes) : res (zbuf * bytes) :=
  let '(src, out) := x in
  if 4 <=? length (zb_b z) then Panic
  else
    let step (z : zbuf) (src pre out : bytes) :=
      let n := length src / 4 * 4 in
      if 4 <=? length src then
        rbind (z_encrypt (zb_s z) (out, firstn n src)) (fun '(s, o) =>
        Ok (Zbuf s (skipn n src), pre ++ o ++ skipn n out))
      else Ok (Zbuf (zb_s z) src, pre ++ out) in
    if 0 <? length (zb_b z) then
      let left := 4 - length (zb_b z) in
      if length src <? left then Ok (Zbuf (zb_s z) (zb_b z ++ src), out)
      else
        rbind (z_encrypt (zb_s z) (out, zb_b z ++ firstn left src)) (fun '(s, o) =>
        step (Zbuf s []) (skipn left src) o (skipn 4 out))
    else step z src [] out.
(** eea.go:175-185 *)
Definition zb_sum (z : zbuf) (data : bytes) : res (zbuf * bytes) :=
  if 4 <=? length (zb_b z) then Panic
  else rbind (z_encrypt (zb_s z) (zb_b z, zb_b z)) (fun '(s, o) => Ok (Zbuf s (zb_b z), data ++ o)).

(** * ZucMac *)
(** zuc_mac.go:7-15; buf always has 4 bytes *)
Record zmac := Zmac { zm_s : zst; zm_t : Z; zm_k0 : Z; zm_buf : bytes; zm_n : nat }.
(** zuc_mac.go:17-30, 47-55: the state is copied before the word K0 is drawn from it *)
Definition zm_new (key iv : bytes) : res zmac :=
  rbind (z_new key iv) (fun s => Ok (Zmac s 0 (snd (z_word s)) [0; 0; 0; 0]%Z 0)).
(** zuc_mac.go:40-45 *)
Definition zm_reset (m : zmac) : zmac :=
  Zmac (Zst (repeat 0%Z 16) (z_r1 (zm_s m)) (z_r2 (zm_s m))) 0 (zm_k0 m) [0; 0; 0; 0]%Z 0.
(** zuc_mac.go:93-101, 114-122, 180-188: n bits of M *)
Fixpoint zm_bits (n : nat) (t k0 k1 m : Z) : Z * Z :=
  match n with
  | O => (t, k0)
  | S n' =>
      let t := if Z.ltb 0 (Z.land m 0x80000000) then Z.lxor t k0 else t in
      zm_bits n' t (Z.lor (wshl 32 k0 1) (Z.shiftr k1 31)) (wshl 32 k1 1) (wshl 32 m 1)
  end.
(** zuc_mac.go:86-101, 108-122: one word of the message *)
Definition zm_block (m : zmac) (w : Z) : zmac :=
  let '(s, k1) := z_word (zm_s m) in
  let '(t, k0) := zm_bits 32 (zm_t m) (zm_k0 m) k1 w in
  Zmac s t k0 (zm_buf m) (zm_n m).
(** zuc_mac.go:107-126 *)
Definition zm_blocks (m : zmac) (data : bytes) : zmac := fold_left (fun m b => zm_block m (be_val b)) (chunks 4 data) m.
(** zuc_mac.go:128-131 *)
Definition zm_keep (m : zmac) (data : bytes) : zmac :=
  if 0 <? length data then Zmac (zm_s m) (zm_t m) (zm_k0 m) (gocopy (zm_buf m) data) (length data) else m.
Definition zm_tail (m : zmac) (data : bytes) : zmac :=
  let n := length data / 4 * 4 in zm_keep (zm_blocks m (firstn n data)) (skipn n data).
(** zuc_mac.go:57-139 *)
Definition zm_write (m : zmac) (data : bytes) : zmac :=
  if length data =? 0 then m
  else if 0 <? zm_n m then
    let num := 4 - zm_n m in
    if length data <? num
    then Zmac (zm_s m) (zm_t m) (zm_k0 m) (splice (zm_n m) data (zm_buf m)) (zm_n m + length data)
    else
      let buf := splice (zm_n m) (firstn num data) (zm_buf m) in
      zm_tail (zm_block (Zmac (zm_s m) (zm_t m) (zm_k0 m) buf 0) (be_val buf)) (skipn num data)
  else zm_tail m data.
(** zuc_mac.go:141-202: Sum(data, nbits); data must hold nbits bits. R1, R2 and K0 are not stored back. *)
Definition zm_sum (m : zmac) (data : bytes) (nbits : nat) : res (zmac * bytes) :=
  let nbits := if length data =? 0 then 0 else nbits in
  if length data <? (nbits + 7) / 8 then Panic
  else
    let m := if 8 <=? nbits then zm_write m (firstn (nbits / 8) data) else m in
    let data := if 8 <=? nbits then skipn (nbits / 8) data else data in
    let nb := if 8 <=? nbits then nbits mod 8 else nbits in
    let buf := if 0 <? nb then upd (zm_n m) data.[0] (zm_buf m) else zm_buf m in
    let '(s, t, k0) :=
      if (0 <? zm_n m) || (0 <? nb) then
        let '(s, k1) := z_word (zm_s m) in
        let '(t, k0) := zm_bits (zm_n m * 8 + nb) (zm_t m) (zm_k0 m) k1 (be_val buf) in (s, t, k0)
      else (zm_s m, zm_t m, zm_k0 m) in
    let t := Z.lxor t k0 in
    let '(s, k1) := z_word s in
    let t := Z.lxor t k1 in
    Ok (Zmac (Zst (z_l s) (z_r1 (zm_s m)) (z_r2 (zm_s m))) t (zm_k0 m) buf (zm_n m), be_bytes 4 t).
(** eea.go:45-64 *)
Definition eia_iv (count bearer direction : Z) : bytes :=
  let a := to_byte (Z.shiftr count 24) in let b := to_byte (Z.shiftr count 16) in
  let c := to_byte (Z.shiftr count 8) in let d := to_byte count in
  let e := to_byte (wshl 32 bearer 3) in
  let f := wshl 32 direction 7 in
  [a; b; c; d; e; 0; 0; 0; to_byte (Z.lxor a f); b; c; d; e; 0; to_byte f; 0]%Z.
(** eea.go:66-86 *)
Definition eia_generate_mac (data : list Z) (nbits : nat) (key : bytes) (count bearer direction : Z) : res Z :=
  rbind (zm_new key (eia_iv count bearer direction)) (fun m =>
  rbind (zm_sum m (stw_be 4 data) nbits) (fun '(_, mac) => Ok (be_val mac))).

(** * Zuc256Mac *)
(** zuc256_mac.go:11-20; of T and K0 only the first macbits/32 words are used and kept here *)
Record zmac256 := Zm256 { zn_s : zst; zn_t : list Z; zn_k0 : list Z; zn_buf : bytes; zn_n : nat }.
(** zuc256_mac.go:55-59 *)
Definition z256_macbits (macbits : nat) : nat :=
  if macbits <? 32 then 32 else if 64 <? macbits then 128 else macbits.
(** zuc256_mac.go:22-35, 54-71 *)
Definition zn_new (key iv : bytes) (macbits : nat) : res zmac256 :=
  if negb (length key =? 32) then Panic else if negb (length iv =? 23) then Panic
  else
    let mb := z256_macbits macbits in
    let s := z256_init key iv mb in
    let '(s, t) := z_words (mb / 32) s in
    let '(s, k0) := z_words (mb / 32) s in
    Ok (Zm256 s t k0 [0; 0; 0; 0]%Z 0).
(** zuc256_mac.go:45-50 *)
Definition zn_reset (m : zmac256) : zmac256 :=
  Zm256 (Zst (repeat 0%Z 16) (z_r1 (zn_s m)) (z_r2 (zn_s m))) (map (fun _ => 0%Z) (zn_t m)) (zn_k0 m) [0; 0; 0; 0]%Z 0.
(** zuc256_mac.go:124-128: shift the words of K0 left by one bit, the last one takes the top bit of K1 *)
Fixpoint shl_words (k0 : list Z) (k1 : Z) : list Z :=
  match k0 with
  | [] => []
  | a :: r => Z.lor (wshl 32 a 1) (Z.shiftr (match r with [] => k1 | b :: _ => b end) 31) :: shl_words r k1
  end.
(** zuc256_mac.go:116-130, 141-155, 196-210 *)
Fixpoint zn_bits (n : nat) (t k0 : list Z) (k1 m : Z) : list Z * list Z :=
  match n with
  | O => (t, k0)
  | S n' =>
      let t := if Z.ltb 0 (Z.land m 0x80000000) then xorl t k0 else t in
      zn_bits n' t (shl_words k0 k1) (wshl 32 k1 1) (wshl 32 m 1)
  end.
Definition zn_block (m : zmac256) (w : Z) : zmac256 :=
  let '(s, k1) := z_word (zn_s m) in
  let '(t, k0) := zn_bits 32 (zn_t m) (zn_k0 m) k1 w in
  Zm256 s t k0 (zn_buf m) (zn_n m).
(** zuc256_mac.go:136-164 *)
Definition zn_blocks (m : zmac256) (data : bytes) : zmac256 := fold_left (fun m b => zn_block m (be_val b)) (chunks 4 data) m.
Definition zn_keep (m : zmac256) (data : bytes) : zmac256 :=
  if 0 <? length data then Zm256 (zn_s m) (zn_t m) (zn_k0 m) (gocopy (zn_buf m) data) (length data) else m.
Definition zn_tail (m : zmac256) (data : bytes) : zmac256 :=
  let n := length data / 4 * 4 in zn_keep (zn_blocks m (firstn n data)) (skipn n data).
(** zuc256_mac.go:89-167 *)
Definition zn_write (m : zmac256) (data : bytes) : zmac256 :=
  if length data =? 0 then m
  else if 0 <? zn_n m then
    let num := 4 - zn_n m in
    if length data <? num
    then Zm256 (zn_s m) (zn_t m) (zn_k0 m) (splice (zn_n m) data (zn_buf m)) (zn_n m + length data)
    else
      let buf := splice (zn_n m) (firstn num data) (zn_buf m) in
      zn_tail (zn_block (Zm256 (zn_s m) (zn_t m) (zn_k0 m) buf 0) (be_val buf)) (skipn num data)
  else zn_tail m data.
(** zuc256_mac.go:169-219 *)
Definition zn_sum (m : zmac256) (data : bytes) (nbits : nat) : res (zmac256 * bytes) :=
  let nbits := if length data =? 0 then 0 else nbits in
  if length data <? (nbits + 7) / 8 then Panic
  else
    let m := if 8 <=? nbits then zn_write m (firstn (nbits / 8) data) else m in
    let data := if 8 <=? nbits then skipn (nbits / 8) data else data in
    let nb := if 8 <=? nbits then nbits mod 8 else nbits in
    let buf := if 0 <? nb then upd (zn_n m) data.[0] (zn_buf m) else zn_buf m in
    let '(s, t, k0) :=
      if (0 <? zn_n m) || (0 <? nb) then
        let '(s, k1) := z_word (zn_s m) in
        let '(t, k0) := zn_bits (zn_n m * 8 + nb) (zn_t m) (zn_k0 m) k1 (be_val buf) in (s, t, k0)
      else (zn_s m, zn_t m, zn_k0 m) in
    let t := xorl t k0 in
    Ok (Zm256 s t k0 buf (zn_n m), stw_be 4 t).
