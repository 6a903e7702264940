(** Model of /repo/hash/gost: gost34112012 (Streebog, digest and state marshalling), gost341194, and the key trees
    and the KDF of gost34112012256. crypto/hmac of the Go library is modelled by its definition (RFC 2104). *)
From Verif Require Import Base WordModel.
From Coq Require Import Ascii String.
Set Implicit Arguments. Unset Strict Implicit.
Local Open Scope nat_scope.

(** * The buffer both hashes use *)
Section abuf.
  Variable S : Type.
  (** the body of the loop, called with one block *)
  Variable blk : S -> bytes -> S.
  Variable bs : nat.
  Record abufst := ABuf { a_s : S; a_buf : bytes }.
  (** gost34112012/hash.go:312-320, gost341194/hash.go:81-87; [fuel] bounds the iterations, length buf is enough *)
  Fixpoint awrite_loop (fuel : nat) (s : S) (buf : bytes) : abufst :=
    match fuel with
    | O => ABuf s buf
    | Datatypes.S f => if bs <=? List.length buf then awrite_loop f (blk s (firstn bs buf)) (skipn bs buf) else ABuf s buf
    end.
  (** gost34112012/hash.go:309-323, gost341194/hash.go:78-90 *)
  Definition awrite (st : abufst) (p : bytes) : abufst :=
    let buf := a_buf st ++ p in awrite_loop (Datatypes.S (List.length buf)) (a_s st) buf.
End abuf.

(** * Streebog *)
(** gost34112012/hash.go:17-51 *)
Definition stb_pi : list Z :=
  [252; 238; 221; 17; 207; 110; 49; 22; 251; 196; 250; 218; 35; 197; 4; 77;
   233; 119; 240; 219; 147; 46; 153; 186; 23; 54; 241; 187; 20; 205; 95; 193;
   249; 24; 101; 90; 226; 92; 239; 33; 129; 28; 60; 66; 139; 1; 142; 79;
   5; 132; 2; 174; 227; 106; 143; 160; 6; 11; 237; 152; 127; 212; 211; 31;
   235; 52; 44; 81; 234; 200; 72; 171; 242; 42; 104; 162; 253; 58; 206; 204;
   181; 112; 14; 86; 8; 12; 118; 18; 191; 114; 19; 71; 156; 183; 93; 135;
   21; 161; 150; 41; 16; 123; 154; 199; 243; 145; 120; 111; 157; 158; 178; 177;
   50; 117; 25; 61; 255; 53; 138; 126; 109; 84; 198; 128; 195; 189; 13; 87;
   223; 245; 36; 169; 62; 168; 67; 201; 215; 121; 214; 246; 124; 34; 185; 3;
   224; 15; 236; 222; 122; 148; 176; 188; 220; 232; 40; 80; 78; 51; 10; 74;
   167; 151; 96; 115; 30; 0; 98; 68; 26; 184; 56; 130; 100; 159; 38; 65;
   173; 69; 70; 146; 39; 94; 85; 47; 140; 163; 165; 125; 105; 213; 149; 59;
   7; 88; 179; 64; 134; 172; 29; 247; 48; 55; 107; 228; 136; 217; 231; 137;
   225; 27; 131; 73; 76; 63; 248; 254; 141; 83; 170; 144; 202; 216; 133; 97;
   32; 113; 103; 164; 45; 43; 9; 91; 203; 155; 37; 208; 190; 229; 108; 82;
   89; 166; 116; 210; 230; 244; 180; 192; 209; 102; 175; 194; 57; 75; 99; 182]%Z.
(** hash.go:51-60 *)
Definition stb_tau : list nat :=
  [0; 8; 16; 24; 32; 40; 48; 56; 1; 9; 17; 25; 33; 41; 49; 57;
   2; 10; 18; 26; 34; 42; 50; 58; 3; 11; 19; 27; 35; 43; 51; 59;
   4; 12; 20; 28; 36; 44; 52; 60; 5; 13; 21; 29; 37; 45; 53; 61;
   6; 14; 22; 30; 38; 46; 54; 62; 7; 15; 23; 31; 39; 47; 55; 63].
(** hash.go:61-184 *)
Definition stb_c : list (list Z) :=
  [[7; 69; 166; 242; 89; 101; 128; 221; 35; 77; 116; 204; 54; 116; 118; 5;
   21; 211; 96; 164; 8; 42; 66; 162; 1; 105; 103; 146; 145; 224; 124; 75;
   252; 196; 133; 117; 141; 184; 78; 113; 22; 208; 69; 46; 67; 118; 106; 47;
   31; 124; 101; 192; 129; 47; 203; 235; 233; 218; 202; 30; 218; 91; 8; 177];
  [183; 155; 177; 33; 112; 4; 121; 230; 86; 205; 203; 215; 27; 162; 221; 85;
   202; 167; 10; 219; 194; 97; 181; 92; 88; 153; 214; 18; 107; 23; 181; 154;
   49; 1; 181; 22; 15; 94; 213; 97; 152; 43; 35; 10; 114; 234; 254; 243;
   215; 181; 112; 15; 70; 157; 227; 79; 26; 47; 157; 169; 138; 181; 163; 111];
  [178; 10; 186; 10; 245; 150; 30; 153; 49; 219; 122; 134; 67; 244; 182; 194;
   9; 219; 98; 96; 55; 58; 201; 193; 177; 158; 53; 144; 228; 15; 226; 211;
   123; 123; 41; 177; 20; 117; 234; 242; 139; 31; 156; 82; 95; 94; 241; 6;
   53; 132; 61; 106; 40; 252; 57; 10; 199; 47; 206; 43; 172; 220; 116; 245];
  [46; 209; 227; 132; 188; 190; 12; 34; 241; 55; 232; 147; 161; 234; 83; 52;
   190; 3; 82; 147; 51; 19; 183; 216; 117; 214; 3; 237; 130; 44; 215; 169;
   63; 53; 94; 104; 173; 28; 114; 157; 125; 60; 92; 51; 126; 133; 142; 72;
   221; 228; 113; 93; 160; 225; 72; 249; 210; 102; 21; 232; 179; 223; 31; 239];
  [87; 254; 108; 124; 253; 88; 23; 96; 245; 99; 234; 169; 126; 162; 86; 122;
   22; 26; 39; 35; 183; 0; 255; 223; 163; 245; 58; 37; 71; 23; 205; 191;
   189; 255; 15; 128; 215; 53; 158; 53; 74; 16; 134; 22; 31; 28; 21; 127;
   99; 35; 169; 108; 12; 65; 63; 154; 153; 71; 71; 173; 172; 107; 234; 75];
  [110; 125; 100; 70; 122; 64; 104; 250; 53; 79; 144; 54; 114; 197; 113; 191;
   182; 198; 190; 194; 102; 31; 242; 10; 180; 183; 154; 28; 183; 166; 250; 207;
   198; 142; 240; 154; 180; 154; 127; 24; 108; 164; 66; 81; 249; 196; 102; 45;
   192; 57; 48; 122; 59; 195; 164; 111; 217; 211; 58; 29; 174; 174; 79; 174];
  [147; 212; 20; 58; 77; 86; 134; 136; 243; 74; 60; 162; 76; 69; 23; 53;
   4; 5; 74; 40; 131; 105; 71; 6; 55; 44; 130; 45; 197; 171; 146; 9;
   201; 147; 122; 25; 51; 62; 71; 211; 201; 135; 191; 230; 199; 198; 158; 57;
   84; 9; 36; 191; 254; 134; 172; 81; 236; 197; 170; 238; 22; 14; 199; 244];
  [30; 231; 2; 191; 212; 13; 127; 164; 217; 168; 81; 89; 53; 194; 172; 54;
   47; 196; 165; 209; 43; 141; 209; 105; 144; 6; 155; 146; 203; 43; 137; 244;
   154; 196; 219; 77; 59; 68; 180; 137; 30; 222; 54; 156; 113; 248; 183; 78;
   65; 65; 110; 12; 2; 170; 231; 3; 167; 201; 147; 77; 66; 91; 31; 155];
  [219; 90; 35; 131; 81; 68; 97; 114; 96; 42; 31; 203; 146; 220; 56; 14;
   84; 156; 7; 166; 154; 138; 43; 123; 177; 206; 178; 219; 11; 68; 10; 128;
   132; 9; 13; 224; 183; 85; 217; 60; 36; 66; 137; 37; 27; 58; 125; 58;
   222; 95; 22; 236; 216; 154; 76; 148; 155; 34; 49; 22; 84; 90; 143; 55];
  [237; 156; 69; 152; 251; 199; 180; 116; 195; 182; 59; 21; 209; 250; 152; 54;
   244; 82; 118; 59; 48; 108; 30; 122; 75; 51; 105; 175; 2; 103; 231; 159;
   3; 97; 51; 27; 138; 225; 255; 31; 219; 120; 138; 255; 28; 231; 65; 137;
   243; 243; 228; 178; 72; 229; 42; 56; 82; 111; 5; 128; 166; 222; 190; 171];
  [27; 45; 243; 129; 205; 164; 202; 107; 93; 216; 111; 192; 74; 89; 162; 222;
   152; 110; 71; 125; 29; 205; 186; 239; 202; 185; 72; 234; 239; 113; 29; 138;
   121; 102; 132; 20; 33; 128; 1; 32; 97; 7; 171; 235; 187; 107; 250; 216;
   148; 254; 90; 99; 205; 198; 2; 48; 251; 137; 200; 239; 208; 158; 205; 123];
  [32; 215; 27; 241; 74; 146; 188; 72; 153; 27; 178; 217; 213; 23; 244; 250;
   82; 40; 225; 136; 170; 164; 29; 231; 134; 204; 145; 24; 157; 239; 128; 93;
   155; 159; 33; 48; 212; 18; 32; 248; 119; 29; 223; 188; 50; 60; 164; 205;
   122; 177; 73; 4; 176; 128; 19; 210; 186; 49; 22; 241; 103; 231; 142; 55]]%Z.
(** hash.go:188-259: the rows as big endian numbers *)
Definition stb_a : list Z :=
  [10241461148538942576; 5120731167067232824; 12468410047768571164; 15565663454169962510;
   7782831729257630727; 3891415866600138381; 1985536642513638344; 9459682407487014756;
   11534232669555429184; 5802579435438197024; 2901440900576963088; 1490673956378146056;
   781787989577348100; 423967304552176130; 10119902832491179265; 5095276525830510734;
   10437854279325378415; 5219060730325499321; 2645981896492773586; 1322990948246386793;
   661629067092835514; 9950503947520319069; 5009451183430504352; 12451499320283924816;
   11334980120984556625; 13882478482664131238; 6941239243714266451; 3470619621865131175;
   1735309813114226397; 901996504954577888; 451145037279633264; 225573111445307704;
   9666798413180086952; 4872226810457511252; 12664210371452249130; 15663563615944659477;
   16298549109340514692; 8149275110868556354; 13117866180572368161; 6559084273135036574;
   5002431046872466873; 12409134703651359954; 6204567353729893993; 3135499373384246202;
   11227267738987503453; 14116852178442830240; 17292153162716999248; 17977673556417476392;
   16499535732793881244; 8249767866405689678; 4156831343068283431; 10545183492837949853;
   5272591748466192064; 12255984678304175968; 6128148527793546544; 11856648851277863960;
   8117357270855080334; 4058829818276389447; 2064740540553908653; 1071073603652986584;
   567617802345927532; 10191861674357729078; 14427389804108963099; 7213694902063784067]%Z.
(** hash.go:398-405 *)
Definition stb_ps (d : bytes) : bytes :=
  fold_left (fun r i => upd (nth i stb_tau 0) stb_pi.[Z.to_nat d.[i]] r) (seq 0 64) (repeat 0%Z 64).
(** hash.go:407-428: bit 63 - j of the word selects row j *)
Definition stb_lword (v : Z) : Z :=
  fold_left (fun r j => if Z.testbit v (Z.of_nat (63 - j)) then Z.lxor r stb_a.[j] else r) (seq 0 64) 0%Z.
Definition stb_l (d : bytes) : bytes :=
  List.concat (map (fun i => le_bytes 8 (stb_lword (le_val (slice (8 * i) 8 d)))) (seq 0 8)).
(** hash.go:379-386 *)
Definition stb_e (k m : bytes) : bytes :=
  let '(k, m) := fold_left (fun (km : bytes * bytes) i =>
    let '(k, m) := km in (stb_l (stb_ps (xorl k (nth i stb_c []))), stb_l (stb_ps (xorl k m)))) (seq 0 12) (k, m) in
  xorl k m.
(** hash.go:365-377 *)
Definition stb_g (n : Z) (h m : bytes) : bytes :=
  let r := xorl (firstn 8 h) (le_bytes 8 n) ++ skipn 8 h in
  xorl (xorl (stb_e (stb_l (stb_ps r)) m) h) m.
(** hash.go:353-363; ss is 16 bits wide, which the sums never exceed *)
Fixpoint stb_addc (ss : Z) (a b : bytes) : bytes :=
  match a, b with
  | x :: a', y :: b' => let s := (x + y + Z.shiftr ss 8)%Z in Z.land 255 s :: stb_addc s a' b'
  | _, _ => []
  end.
Definition stb_add (chk d : bytes) : bytes := stb_addc 0 chk d.
(** hash.go:261-268: n, hsh, chk (and tmp, which no result depends on) *)
Definition stb_core : Type := Z * bytes * bytes.
(** hash.go:313-318 *)
Definition stb_block (s : stb_core) (b : bytes) : stb_core :=
  let '(n, h, c) := s in (wadd 64 n 512, stb_g n h b, stb_add c b).
(** with the field size *)
Record stb_st := Stb { st_size : nat; st_tmp : bytes; st_b : abufst stb_core }.
(** hash.go:287-299 *)
Definition stb_iv (size : nat) : stb_core := (0%Z, repeat (if size =? 32 then 1%Z else 0%Z) 64, repeat 0%Z 64).
Definition stb_reset (d : stb_st) : stb_st := Stb (st_size d) (repeat 0%Z 64) (ABuf (stb_iv (st_size d)) []).
(** hash.go:271-285 *)
Definition stb_new (size : nat) : res stb_st :=
  if (size =? 32) || (size =? 64) then Ok (Stb size (repeat 0%Z 64) (ABuf (stb_iv size) [])) else Panic.
(** the tmp array after a Write: the last whole block, if there was one *)
Definition stb_tmp_after (tmp buf : bytes) : bytes :=
  let k := List.length buf / 64 in if k =? 0 then tmp else slice (64 * (k - 1)) 64 buf.
(** hash.go:309-323 *)
Definition stb_write (d : stb_st) (p : bytes) : stb_st :=
  Stb (st_size d) (stb_tmp_after (st_tmp d) (a_buf (st_b d) ++ p)) (awrite stb_block 64 (st_b d) p).
(** hash.go:332-351 *)
Definition stb_checksum (d : stb_st) : res bytes :=
  let '(n, h, c) := a_s (st_b d) in
  let t := a_buf (st_b d) in
  if 64 <=? List.length t then Panic else
  let buf := upd (List.length t) 1%Z (gocopy (repeat 0%Z 64) t) in
  let h := stb_g n h buf in
  let h := stb_g 0 h (le_bytes 8 (wadd 64 n (wmul 64 (Z.of_nat (List.length t)) 8)) ++ repeat 0%Z 56) in
  let h := stb_g 0 h (stb_add c buf) in
  Ok (if st_size d =? 32 then skipn 32 h else h).
(** hash.go:325-330, on a copy *)
Definition stb_sum (d : stb_st) (inp : bytes) : res bytes := rbind (stb_checksum d) (fun h => Ok (inp ++ h)).
(** hash.go:13: "STREEBOG" *)
Definition stb_name : bytes := [83; 84; 82; 69; 69; 66; 79; 71]%Z.
(** hash.go:430-450 *)
Definition stb_marshal (d : stb_st) : bytes :=
  let '(n, h, c) := a_s (st_b d) in
  stb_name ++ [to_byte (Z.of_nat (st_size d))] ++ be_bytes 8 n ++ h ++ c ++ st_tmp d ++ a_buf (st_b d).
(** hash.go:452-478; the buffer is a slice of the argument, which the model copies *)
Definition stb_unmarshal (data : bytes) : res stb_st :=
  if List.length data <? 8 + 1 + 8 + 3 * 64 then Err
  else if negb (bytes_eqb (firstn 8 data) stb_name) then Err
  else Ok (Stb (Z.to_nat data.[8]) (slice 145 64 data)
         (ABuf (be_val (slice 9 8 data), slice 17 64 data, slice 81 64 data) (skipn 209 data))).

(** * GOST R 34.11-94 *)
Section gost94.
  (** h.cipher: the block cipher under a key, on blocks of 8 bytes; a cipher with shorter blocks panics and is not modelled *)
  Variable E : bytes -> bytes -> bytes.
  (** gost341194/hash.go:24-29: c3; c2 and c4 are zero *)
  Definition g94_c3 : bytes :=
    [255; 0; 255; 255; 0; 0; 0; 255; 255; 0; 0; 255; 0; 255; 255; 0;
     0; 255; 0; 255; 0; 255; 0; 255; 255; 0; 255; 0; 255; 0; 255; 0]%Z.
  (** hash.go:127-139 *)
  Definition g94_A (x : bytes) : bytes := xorl (slice 16 8 x) (slice 24 8 x) ++ firstn 24 x.
  (** hash.go:141-149 *)
  Definition g94_P (x : bytes) : bytes := map (fun i => x.[8 * (i mod 4) + i / 4]) (seq 0 32).
  (** hash.go:151-157 *)
  Definition g94_chi (x : bytes) : bytes :=
    let w i := Z.lxor (Z.lxor (Z.lxor (Z.lxor (Z.lxor x.[30 + i] x.[28 + i]) x.[26 + i]) x.[24 + i]) x.[0 + i]) x.[6 + i] in
    [w 0; w 1] ++ firstn 30 x.
  Definition g94_chis (n : nat) (x : bytes) : bytes := Nat.iter n g94_chi x.
  (** hash.go:180-199: key from u and v, then the encrypted quarter of hin at index o, reversed in and out *)
  Definition g94_quarter (u v hin : bytes) (o : nat) : bytes :=
    let s := E (rev (g94_P (xorl u v))) (map (fun j => hin.[o + 7 - j]) (seq 0 8)) in
    map (fun j => s.[7 - j]) (seq 0 8).
  (** hash.go:171-274 *)
  Definition g94_step (hin m : bytes) : bytes :=
    let u1 := hin in let v1 := m in
    let u2 := xorl (g94_A u1) (repeat 0%Z 32) in let v2 := g94_A (g94_A v1) in
    let u3 := xorl (g94_A u2) g94_c3 in let v3 := g94_A (g94_A v2) in
    let u4 := xorl (g94_A u3) (repeat 0%Z 32) in let v4 := g94_A (g94_A v3) in
    let out := g94_quarter u4 v4 hin 0 ++ g94_quarter u3 v3 hin 8 ++ g94_quarter u2 v2 hin 16 ++ g94_quarter u1 v1 hin 24 in
    g94_chis 61 (xorl (g94_chi (xorl (g94_chis 12 out) m)) hin).
  (** hash.go:276-284 *)
  Definition g94_chkadd (chk : Z) (d : bytes) : Z :=
    let i := (be_val d + chk)%Z in if (2 ^ 256 <=? i)%Z then (i - 2 ^ 256)%Z else i.
  (** hash.go:40-47: size, hsh, chk *)
  Definition g94_core : Type := Z * bytes * Z.
  (** hash.go:82-86 *)
  Definition g94_block (s : g94_core) (b : bytes) : g94_core :=
    let '(n, h, c) := s in let t := rev b in (wadd 64 n 256, g94_step h t, g94_chkadd c t).
  (** hash.go:49-56, 66-76 *)
  Definition g94_iv : g94_core := (0%Z, repeat 0%Z 32, 0%Z).
  Definition g94_new : abufst g94_core := ABuf g94_iv [].
  Definition g94_reset (_ : abufst g94_core) : abufst g94_core := g94_new.
  (** hash.go:78-90 *)
  Definition g94_write : abufst g94_core -> bytes -> abufst g94_core := awrite g94_block 32.
  (** hash.go:99-125; chk.Bytes() left-padded to 32 bytes *)
  Definition g94_checksum (d : abufst g94_core) : bytes :=
    let '(n, h, c) := a_s d in
    let '(n, h, c) :=
      if negb (List.length (a_buf d) =? 0) then
        let block := rev (gocopy (repeat 0%Z 32) (a_buf d)) in
        (wadd 64 n (wmul 64 (Z.of_nat (List.length (a_buf d))) 8), g94_step h block, g94_chkadd c block)
      else (n, h, c) in
    let h := g94_step h (repeat 0%Z 24 ++ be_bytes 8 n) in
    rev (g94_step h (be_bytes 32 c)).
  (** hash.go:92-97, on a copy *)
  Definition g94_sum (d : abufst g94_core) (inp : bytes) : res bytes := Ok (inp ++ g94_checksum d).
End gost94.

(** * HMAC, KDF and the key trees *)
(** Go's crypto/hmac over a hash with block size bs *)
Definition hmac (H : bytes -> bytes) (bs : nat) (key msg : bytes) : bytes :=
  let k := if bs <? List.length key then H key else key in
  let k := k ++ repeat 0%Z (bs - List.length k) in
  H (map (fun b => Z.lxor b 92) k ++ H (map (fun b => Z.lxor b 54) k ++ msg)).
(** gost34112012256/kdf.go:8-35, for the keyed function mac *)
Definition gkdf (mac : bytes -> bytes -> bytes) (key label seed : bytes) : bytes :=
  mac key ([1%Z] ++ label ++ [0%Z] ++ seed ++ [1%Z] ++ [0%Z]).
Definition lvl (n : Z) : bytes := [108; 101; 118; 101; 108; 48 + n]%Z.

Section trees.
  Variable mac : bytes -> bytes -> bytes.
  (** tlstree.go:45-53: the parameters and keyRoot never change, seq is scratch *)
  Record tlstree := Tls { tl_prev : Z; tl_key : bytes }.
  (** tlstree.go:55-65 *)
  Definition tls_new : tlstree := Tls 0 (repeat 0%Z 32).
  (** tlstree.go:75-82 *)
  Definition tls_fresh (ps : list Z) (root : bytes) (seq : Z) : bytes :=
    let k1 := gkdf mac root (lvl 1) (be_bytes 8 (Z.land seq ps.[0])) in
    let k2 := gkdf mac k1 (lvl 2) (be_bytes 8 (Z.land seq ps.[1])) in
    gkdf mac k2 (lvl 3) (be_bytes 8 (Z.land seq ps.[2])).
  (** tlstree.go:67-89: the key and whether it was cached *)
  Definition tls_derive_cached (ps : list Z) (root : bytes) (t : tlstree) (seq : Z) : bytes * bool * tlstree :=
    if (0 <? seq)%Z && (Z.land seq ps.[0] =? Z.land (tl_prev t) ps.[0])%Z && (Z.land seq ps.[1] =? Z.land (tl_prev t) ps.[1])%Z
       && (Z.land seq ps.[2] =? Z.land (tl_prev t) ps.[2])%Z
    then (tl_key t, true, t)
    else let k := tls_fresh ps root seq in (k, false, Tls seq k).
  (** tlstree.go:91-98: copied into 32 bytes *)
  Definition tls_derive (ps : list Z) (root : bytes) (t : tlstree) (seq : Z) : bytes * tlstree :=
    let '(k, _, t') := tls_derive_cached ps root t seq in (gocopy (repeat 0%Z 32) k, t').

  (** esptree.go:7-11 *)
  Record esptree := Esp { es_prev : bytes; es_key : bytes }.
  (** esptree.go:37-39 *)
  Definition esp_fresh (root is : bytes) : bytes :=
    let k1 := gkdf mac root (lvl 1) [0%Z; is.[0]] in
    let k2 := gkdf mac k1 (lvl 2) (slice 1 2 is) in
    gkdf mac k2 (lvl 3) (slice 3 2 is).
  (** esptree.go:28-46 *)
  Definition esp_derive_cached (root : bytes) (t : esptree) (is : bytes) : res (bytes * bool * esptree) :=
    if negb (List.length is =? 5) then Panic
    else if bytes_eqb (es_prev t) is then Ok (es_key t, true, t)
    else let k := esp_fresh root is in Ok (k, false, Esp (gocopy (es_prev t) is) k).
  (** esptree.go:13-26 *)
  Definition esp_new (root : bytes) : res esptree :=
    rbind (esp_derive_cached root (Esp [1; 0; 0; 0; 0]%Z (repeat 0%Z 32)) (repeat 0%Z 5)) (fun r => Ok (snd r)).
  (** esptree.go:48-55 *)
  Definition esp_derive (root : bytes) (t : esptree) (is : bytes) : res (bytes * esptree) :=
    rbind (esp_derive_cached root t is) (fun r => Ok (gocopy (repeat 0%Z 32) (fst (fst r)), snd r)).
End trees.
(** tlstree.go:8-43 *)
Definition tls_params : list (list Z) :=
  map (map (fun s => be_val s))
    [[[255; 255; 255; 192; 0; 0; 0; 0]; [255; 255; 255; 255; 254; 0; 0; 0]; [255; 255; 255; 255; 255; 255; 240; 0]];
     [[255; 255; 255; 255; 0; 0; 0; 0]; [255; 255; 255; 255; 255; 248; 0; 0]; [255; 255; 255; 255; 255; 255; 255; 192]];
     [[248; 0; 0; 0; 0; 0; 0; 0]; [255; 255; 255; 240; 0; 0; 0; 0]; [255; 255; 255; 255; 255; 255; 224; 0]];
     [[255; 224; 0; 0; 0; 0; 0; 0]; [255; 255; 255; 255; 192; 0; 0; 0]; [255; 255; 255; 255; 255; 255; 255; 128]];
     [[255; 255; 255; 255; 224; 0; 0; 0]; [255; 255; 255; 255; 255; 255; 0; 0]; [255; 255; 255; 255; 255; 255; 255; 248]];
     [[255; 255; 255; 255; 252; 0; 0; 0]; [255; 255; 255; 255; 255; 255; 224; 0]; [255; 255; 255; 255; 255; 255; 255; 255]]]%Z.
