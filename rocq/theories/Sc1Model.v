(** Model of the stream ciphers /repo/cipher/{trivium,rabbit,kcipher2,salsa20}: key set-up, the keystream generators and
    XORKeyStream. XORKeyStream reads src[i] before it writes dst[i], so calls in place behave as others (but see
    KCipher-2); overlapping buffers, on which it panics, are not modelled. The golang.org/x/crypto function that salsa20
    calls is taken to be what it documents: the XOR with the Salsa20/20 stream from a 64-bit block counter on, which
    wraps at 2^64. *)
From Verif Require Import Base BlockModeModel WordModel StreamModel.
Set Implicit Arguments. Unset Strict Implicit.
Local Open Scope nat_scope.

(** [for i := range src { dst[i] = src[i] ^ next byte }]: trivium.go:56-62, rabbit.go:54-61, kcipher2.go:75-86 *)
Section loop.
  Variable S : Type.
  Variable gen : S -> S * Z.
  Fixpoint byte_loop (st : S) (src : bytes) : S * bytes :=
    match src with
    | [] => (st, [])
    | b :: r => let '(st1, k) := gen st in let '(st2, o) := byte_loop st1 r in (st2, Z.lxor b k :: o)
    end.
  (** trivium.go:44-63, rabbit.go:43-62: XORKeyStream(dst, src); the result is dst[:len(src)] *)
  Definition byte_call (st : S) (x : bytes * bytes) : res (S * bytes) :=
    if length (fst x) <? length (snd x) then Panic else Ok (byte_loop st (snd x)).
End loop.

(** * Trivium *)
(** trivium/utils.go:3-9 *)
Definition rev8 (v : Z) : Z :=
  let v := Z.lor (Z.shiftr (Z.land v 0xF0) 4) (Z.shiftl (Z.land v 0x0F) 4) in
  let v := Z.lor (Z.shiftr (Z.land v 0xCC) 2) (Z.shiftl (Z.land v 0x33) 2) in
  Z.lor (Z.shiftr (Z.land v 0xAA) 1) (Z.shiftl (Z.land v 0x55) 1).
(** trivium/utils.go:11-13 *)
Definition get_bit (s : list Z) (n : nat) : Z := Z.land (Z.shiftr s.[(n - 1) / 8] (Z.of_nat ((n - 1) mod 8))) 1.
(** trivium/utils.go:16-18 *)
Definition set_bit (s : list Z) (n : nat) (v : Z) : list Z :=
  let k := Z.of_nat ((n - 1) mod 8) in
  upd ((n - 1) / 8) (Z.lor (Z.land s.[(n - 1) / 8] (wnot 8 (Z.shiftl 1 k))) (wshl 8 v k)) s.
(** trivium.go:134-138: for i = 35; i > 0; i-- *)
Definition rotate (s : list Z) : list Z :=
  let s := fold_left (fun s i => upd i (Z.lor (wshl 8 s.[i] 1) (Z.shiftr s.[i - 1] 7)) s) (downs 35 35 1) s in
  upd 0 (wshl 8 s.[0] 1) s.
(** trivium.go:98-149 *)
Definition tri_bit (s : list Z) : list Z * Z :=
  let g := get_bit s in
  let t1 := Z.lxor (g 66) (g 93) in
  let t2 := Z.lxor (g 162) (g 177) in
  let t3 := Z.lxor (g 243) (g 288) in
  let z := Z.lxor (Z.lxor t1 t2) t3 in
  let t1 := Z.lxor (Z.lxor t1 (Z.land (g 91) (g 92))) (g 171) in
  let t2 := Z.lxor (Z.lxor t2 (Z.land (g 175) (g 176))) (g 264) in
  let t3 := Z.lxor (Z.lxor t3 (Z.land (g 286) (g 287))) (g 69) in
  let s := rotate s in
  (set_bit (set_bit (set_bit s 1 t3) 94 t1) 178 t2, z).
(** trivium.go:151-165: n bits, the first one lowest *)
Fixpoint tri_bits (n i : nat) (s : list Z) (ks : Z) : list Z * Z :=
  match n with
  | O => (s, ks)
  | S m => let '(s, b) := tri_bit s in tri_bits m (i + 1) s (Z.lor ks (wshl 8 b (Z.of_nat i)))
  end.
Definition tri_byte (s : list Z) : list Z * Z := tri_bits 8 0 s 0.
(** trivium.go:65-96 *)
Definition tri_load (key iv : bytes) : list Z :=
  let s := repeat 0%Z 36 in
  let s := fold_left (fun s i => upd i (rev8 key.[9 - i]) s) (ups 0 10 1) s in
  let s := fold_left (fun s i => upd (12 + i) (rev8 iv.[9 - i]) s) (ups 0 10 1) s in
  let s := fold_left (fun s i => upd i (Z.lor (wshl 8 s.[i + 1] 5) (Z.shiftr s.[i] 3)) s) (ups 11 11 1) s in
  set_bit (set_bit (set_bit s 286 1) 287 1) 288 1.
Definition tri_init (key iv : bytes) : list Z := Nat.iter (4 * 288) (fun s => fst (tri_bit s)) (tri_load key iv).
(** trivium.go:27-42 *)
Definition tri_new (key iv : bytes) : res (list Z) :=
  if negb (length key =? 10) then Err else if negb (length iv =? 10) then Err else Ok (tri_init key iv).
Definition tri_call := byte_call tri_byte.

(** * Rabbit *)
(** rabbit.go:16-22; ks is the unread rest of the last 16 bytes *)
Record rabbit := Rabbit { rb_x : list Z; rb_c : list Z; rb_carry : Z; rb_ks : bytes }.
(** rabbit/sbox.go:3-6 *)
Definition aro : list Z := [0x4D34D34D; 0xD34D34D3; 0x34D34D34; 0x4D34D34D; 0xD34D34D3; 0x34D34D34; 0x4D34D34D; 0xD34D34D3]%Z.
(** math/bits: func Sub32(x, y, borrow uint32) (diff, borrowOut uint32) *)
Definition sub32 (x y borrow : Z) : Z * Z :=
  let diff := wsub 32 (wsub 32 x y) borrow in
  (diff, Z.shiftr (Z.lor (Z.land (wnot 32 x) y) (Z.land (wnot 32 (Z.lxor x y)) diff)) 31).
(** rabbit/utils.go:24-28 *)
Definition gfun (u v : Z) : Z :=
  let uv := ((u + v) * (u + v) mod 2 ^ 64)%Z in Z.lxor (Z.shiftr uv 32) (uv mod 2 ^ 32)%Z.
(** rabbit.go:131-133: the first result of Sub32, the difference, becomes the carry and the second one, the borrow,
    becomes the counter word *)
Fixpoint rb_counters (a c : list Z) (carry : Z) : Z * list Z :=
  match a, c with
  | a :: a', c :: c' =>
      let '(diff, borrow) := sub32 a c carry in
      let '(carry', r) := rb_counters a' c' diff in (carry', borrow :: r)
  | _, _ => (carry, [])
  end.
(** rabbit.go:139-146 *)
Definition rb_mix (g : list Z) : list Z :=
  let r16 i := rotl 32 16 g.[i] in let r8 i := rotl 32 8 g.[i] in
  let p a b c := wadd 32 (wadd 32 a b) c in
  [p g.[0] (r16 7) (r16 6); p g.[1] (r8 0) g.[7]; p g.[2] (r16 1) (r16 0); p g.[3] (r8 2) g.[1];
   p g.[4] (r16 3) (r16 2); p g.[5] (r8 4) g.[3]; p g.[6] (r16 5) (r16 4); p g.[7] (r8 6) g.[5]].
(** rabbit.go:129-147 *)
Definition rb_next (r : rabbit) : rabbit :=
  let '(carry, c) := rb_counters aro (rb_c r) (rb_carry r) in
  Rabbit (rb_mix (map (fun i => gfun (rb_x r).[i] c.[i]) (seq 0 8))) c carry (rb_ks r).
(** rabbit.go:149-163 *)
Definition rb_sw (x : list Z) : list Z :=
  let h a b := Z.lor (Z.shiftr x.[a] 16) (wshl 32 x.[b] 16) in
  [Z.lxor x.[0] (h 5 3); Z.lxor x.[2] (h 7 5); Z.lxor x.[4] (h 1 7); Z.lxor x.[6] (h 3 1)].
Definition rb_extract (r : rabbit) : rabbit :=
  let r := rb_next r in Rabbit (rb_x r) (rb_c r) (rb_carry r) (stw 4 (rb_sw (rb_x r))).
(** rabbit.go:54-61 *)
Definition rb_gen (r : rabbit) : rabbit * Z :=
  let r := match rb_ks r with [] => rb_extract r | _ => r end in
  (Rabbit (rb_x r) (rb_c r) (rb_carry r) (skipn 1 (rb_ks r)), (rb_ks r).[0]).
(** rabbit.go:82-112 *)
Definition rb_xor (a b : list Z) : list Z := map (fun i => Z.lxor a.[i] b.[i]) (seq 0 8).
Definition rb_setup_x (k : list Z) : list Z :=
  let h a b := Z.lor (wshl 32 k.[a] 16) (Z.shiftr k.[b] 16) in
  [k.[0]; h 3 2; k.[1]; h 0 3; k.[2]; h 1 0; k.[3]; h 2 1].
Definition rb_setup_c (k : list Z) : list Z :=
  let r a := rotl 32 16 k.[a] in
  let m a b := Z.lor (Z.land k.[a] 0xffff0000) (Z.land k.[b] 0xffff) in
  [r 2; m 0 1; r 3; m 1 2; r 0; m 2 3; r 1; m 3 0].
Definition rb_setup_key (k : list Z) : rabbit :=
  let r := Nat.iter 4 rb_next (Rabbit (rb_setup_x k) (rb_setup_c k) 0 []) in
  Rabbit (rb_x r) (rb_xor (rb_c r) (skipn 4 (rb_x r) ++ firstn 4 (rb_x r))) (rb_carry r) [].
(** rabbit.go:114-127 *)
Definition rb_iv_words (v : list Z) : list Z :=
  let j a b := Z.lor (Z.shiftl v.[a] 16) v.[b] in
  [j 1 0; j 3 1; j 3 2; j 2 0; j 1 0; j 3 1; j 3 2; j 2 0].
Definition rb_setup_iv (v : list Z) (r : rabbit) : rabbit :=
  Nat.iter 4 rb_next (Rabbit (rb_x r) (rb_xor (rb_c r) (rb_iv_words v)) (rb_carry r) (rb_ks r)).
(** rabbit.go:64-80 *)
Definition rb_init (key iv : bytes) : rabbit :=
  let r := rb_setup_key (ldw 4 key) in
  if length iv =? 0 then r else rb_setup_iv (ldw 2 iv) r.
(** rabbit.go:27-39 *)
Definition rb_new (key iv : bytes) : res rabbit :=
  if negb (length key =? 16) then Err
  else if negb (length iv =? 0) && negb (length iv =? 8) then Err
  else Ok (rb_init key iv).
Definition rb_call := byte_call rb_gen.

(** * KCipher-2 *)
(** kcipher2/sbox.go, sBox *)
Definition k2_sbox : list Z :=
  [99; 124; 119; 123; 242; 107; 111; 197; 48; 1; 103; 43; 254; 215; 171; 118;
   202; 130; 201; 125; 250; 89; 71; 240; 173; 212; 162; 175; 156; 164; 114; 192;
   183; 253; 147; 38; 54; 63; 247; 204; 52; 165; 229; 241; 113; 216; 49; 21;
   4; 199; 35; 195; 24; 150; 5; 154; 7; 18; 128; 226; 235; 39; 178; 117;
   9; 131; 44; 26; 27; 110; 90; 160; 82; 59; 214; 179; 41; 227; 47; 132;
   83; 209; 0; 237; 32; 252; 177; 91; 106; 203; 190; 57; 74; 76; 88; 207;
   208; 239; 170; 251; 67; 77; 51; 133; 69; 249; 2; 127; 80; 60; 159; 168;
   81; 163; 64; 143; 146; 157; 56; 245; 188; 182; 218; 33; 16; 255; 243; 210;
   205; 12; 19; 236; 95; 151; 68; 23; 196; 167; 126; 61; 100; 93; 25; 115;
   96; 129; 79; 220; 34; 42; 144; 136; 70; 238; 184; 20; 222; 94; 11; 219;
   224; 50; 58; 10; 73; 6; 36; 92; 194; 211; 172; 98; 145; 149; 228; 121;
   231; 200; 55; 109; 141; 213; 78; 169; 108; 86; 244; 234; 101; 122; 174; 8;
   186; 120; 37; 46; 28; 166; 180; 198; 232; 221; 116; 31; 75; 189; 139; 138;
   112; 62; 181; 102; 72; 3; 246; 14; 97; 53; 87; 185; 134; 193; 29; 158;
   225; 248; 152; 17; 105; 217; 142; 148; 155; 30; 135; 233; 206; 85; 40; 223;
   140; 161; 137; 13; 191; 230; 66; 104; 65; 153; 45; 15; 176; 84; 187; 22]%Z.
(** kcipher2/sbox.go, amul0 *)
Definition k2_amul0 : list Z :=
  [0; 3054005530; 2937117236; 421050158; 2636150632; 724048498; 842050908; 2218311750; 4181782224; 1330152394; 1448096996; 3763886590; 1684052408; 3530093730; 3413132172; 2105028246;
   830480227; 2273866361; 2660287831; 681093197; 2896193547; 447218961; 61911615; 3048791845; 3368087987; 2127076521; 1741695879; 3520611997; 1440777947; 3823692737; 4210056431; 1291334133;
   1656962758; 3570095068; 3453215986; 2077985256; 4293085614; 1240147124; 1358140314; 3875274368; 2609106966; 764132620; 882051618; 2191222584; 111388542; 2964048484; 2847112522; 532353104;
   1396908453; 3846917311; 4233362321; 1247516299; 3462616781; 2020293591; 1634962681; 3615220195; 2852376437; 470524527; 85136705; 3004921947; 925087773; 2167133447; 2553504297; 775622451;
   3292888143; 1917653333; 1800775291; 3713911649; 1499794215; 4016924221; 4134916371; 1081981961; 1023775391; 2332950405; 2450868395; 605889969; 2686838263; 372082925; 255147971; 3107803865;
   4123353900; 1137511990; 1523955992; 3973960706; 1759843396; 3740105054; 3354775152; 1912447850; 210079228; 3129860326; 2744473544; 362625746; 2443573908; 665687950; 1052057760; 2294107578;
   2793816713; 277753747; 160864445; 3214865831; 1000748513; 2377013499; 2495016917; 582910671; 1606855769; 3922641219; 4040586861; 1188961143; 3269909297; 1961801259; 1844838661; 3690884127;
   2533776874; 554578160; 941000670; 2384390852; 170273410; 3157149592; 2771841206; 322870700; 1850127162; 3629047328; 3243665678; 2002650132; 4083598418; 1164880200; 1551244902; 3934155644;
   1267398814; 4253193604; 3835306666; 1385320368; 3601502198; 1621287660; 2042254786; 3484563672; 2999588430; 79854420; 500878458; 2882707808; 803889446; 2581728316; 2163915538; 921884168;
   2047535101; 3422718695; 3575266761; 1662144723; 3878326421; 1361247631; 1211779745; 4264699835; 2202667309; 893543479; 744149785; 2589113859; 510295621; 2824999775; 2977604721; 124963179;
   692700760; 2671881026; 2253986924; 810643830; 3026825520; 39967786; 460942084; 2909865502; 3490261128; 1711359378; 2132406972; 3373375398; 1294557152; 4213256954; 3795420628; 1412557006;
   415881531; 2931930145; 3084452623; 30502421; 2246684243; 870433609; 720991335; 2633046397; 3783866347; 1468095217; 1318710751; 4170285253; 2091466883; 3399560601; 3552156343; 1706162093;
   2412741841; 969402827; 551509733; 2530685951; 317715385; 2766642851; 3187616141; 200754327; 1989110273; 3230074651; 3651121205; 1872223535; 3954122089; 1571254387; 1153419101; 4072122951;
   3192888242; 138933928; 291455366; 2807508124; 594537690; 2506588608; 2357147374; 980900852; 1192195426; 4043774072; 3894390614; 1578615372; 3660513802; 1814523664; 1967118398; 3275207972;
   3977034263; 1527043853; 1109155875; 4094954809; 1881984383; 3324289125; 3745257291; 1765046865; 340546759; 2722380253; 3143405299; 223667177; 2305565615; 1063538357; 645724571; 2423559297;
   3700204916; 1787086958; 1939636032; 3314815578; 1101845020; 4154769158; 4005300264; 1488217394; 634145700; 2479105726; 2329710992; 1020591242; 3102489804; 249844182; 402450168; 2717158370]%Z.
(** kcipher2/sbox.go, amul1 *)
Definition k2_amul1 : list Z :=
  [0; 2700475438; 1841812828; 3442616690; 3668150200; 2052488086; 3076805348; 395423434; 2573935453; 966713203; 4104975873; 1415121455; 1137222885; 3812448459; 772764089; 2398784919;
   534136506; 3206789780; 1913754598; 3538186184; 3312828674; 1702903084; 2830242910; 138930288; 2260559335; 642292169; 3950686395; 1267682453; 1545527903; 4243267185; 836318979; 2435631917;
   1048677465; 2658431095; 1397119237; 4088636715; 3827436513; 1155004367; 2313543357; 688923283; 2817175300; 119493418; 3391978072; 1792575094; 2101946556; 3720139922; 277806560; 2960851406;
   559401699; 2174891725; 1284513727; 3966100369; 4227091803; 1526837621; 2519963655; 918971433; 3090999742; 415831440; 3590012130; 1963901132; 1654615558; 3261764136; 257473370; 2947368820;
   2083468722; 3705325980; 300474606; 2971475136; 2794238474; 108613156; 3410716502; 1807653752; 3846444783; 1169287873; 2290336691; 678838173; 1072140631; 2668785017; 1377846283; 4074092581;
   1677292296; 3272380198; 238986836; 2932562554; 3109745840; 430901406; 3567067628; 1953029570; 4203892821; 1516743803; 2538964233; 933263655; 540137453; 2160339907; 1307968177; 3976461983;
   1118747115; 3797632453; 795438263; 2409402521; 2551004755; 955826813; 4123716367; 1430198049; 3687160502; 2066769560; 3053604842; 385332164; 23469326; 2710823200; 1822541906; 3428070524;
   1568210769; 4253877119; 817834509; 2420823587; 2279307497; 657360071; 3927748021; 1256804763; 3289635852; 1692803106; 2849245520; 153220478; 514874292; 3192235930; 1937215208; 3548541638;
   4166937161; 1487640167; 2509881109; 896287547; 587066865; 2181566943; 1329215661; 4023370883; 1630882068; 3250631994; 217226312; 2886164582; 3147222700; 459485826; 3595639792; 1990518750;
   3884461299; 1199427805; 2320497071; 716834177; 1026272075; 2648594277; 1357676055; 4028203577; 2128809902; 3726046080; 321182450; 3016828636; 2755692566; 79000632; 3381091658; 1769120100;
   3336562192; 1714035262; 2870489932; 200134498; 477913512; 3163135366; 1908126964; 3511568602; 1605682509; 4282464611; 846401553; 2458315839; 2232894197; 635616987; 3905984425; 1210411911;
   3641286826; 2046581892; 3033429494; 339446232; 61482770; 2740968252; 1852699214; 3466071648; 1080198135; 3768025049; 765810347; 2370873989; 2596340815; 976549985; 4144419091; 1475554621;
   2222022651; 612672469; 3921054375; 1229158025; 1590876227; 4263978093; 857017631; 2480992561; 488275110; 3186589832; 1893575162; 3492304340; 3350854430; 1733035824; 2860396098; 176935532;
   2611419457; 995288431; 4133538845; 1452617779; 1090821881; 3790693079; 750996389; 2352396171; 46938652; 2721695282; 1863053120; 3489534830; 3631201700; 2023375242; 3047713016; 358454486;
   3136344994; 436547468; 3610707710; 2009266896; 1616073754; 3232147508; 227836230; 2908847464; 597422335; 2205027537; 1314661795; 4004108685; 4181227335; 1506642793; 2499781147; 873094709;
   2770769176; 97741110; 3370205252; 1746189418; 2139427488; 3748720270; 306366460; 2998352850; 1011725893; 2629323371; 1368023833; 4051672887; 3874370045; 1176227283; 2334778529; 735844495]%Z.
(** kcipher2/sbox.go, amul2 *)
Definition k2_amul2 : list Z :=
  [0; 1543012243; 3065904747; 3980755448; 557298134; 2060439109; 2542423997; 3430035502; 1114517473; 429281394; 4107522442; 2938875417; 1666817591; 950133156; 3588513884; 2384207823;
   2229034639; 3743686940; 845258980; 1771691895; 2783702873; 4262695114; 324407602; 1219391137; 3333583214; 2638876413; 1880067845; 737669270; 3884302520; 3162357547; 1362640595; 180371776;
   1173732435; 504218560; 4081599032; 2830122411; 1690439045; 1060794902; 3531600878; 2307361917; 127636402; 1550052385; 2972085721; 3940422218; 648815204; 2102681079; 2417089551; 3421086620;
   3240747740; 2597428559; 2006195383; 745300772; 3760083722; 3152424089; 1453567329; 224121586; 2202520893; 3636441774; 905589590; 1845644485; 2725281003; 4186440568; 349012608; 1328938259;
   2326214054; 3512683061; 1008389069; 1742910558; 2878375024; 4033412067; 489519643; 1188365704; 3368622663; 2469488084; 2121589804; 629971903; 3925781393; 2986791938; 1598248442; 79374953;
   242969385; 1434653882; 3100022082; 3812551377; 793565951; 1957995884; 2582717588; 3255393031; 1276462280; 401423195; 4205361827; 2706425136; 1831007518; 920291981; 3684633461; 2154263782;
   3478292981; 2494232166; 2045736862; 571934733; 3999610915; 3046983600; 1490601544; 52476379; 2369562132; 3603224967; 998332543; 1618552812; 2886408130; 4159924305; 448194985; 1095669306;
   1267652474; 276211945; 4247988497; 2798343810; 1790535340; 826349887; 3691288775; 2281498452; 165738651; 1377339144; 3210544880; 3836049763; 685197645; 1932474078; 2657793830; 3314731189;
   1493395969; 50009490; 4022244458; 3024546809; 2016730071; 600613956; 3465094588; 2507233839; 460146144; 1083521651; 2916137867; 4129866776; 979039286; 1638042533; 2363951709; 3609163214;
   3722392718; 2250722077; 1801636581; 815445366; 4243096920; 2802907851; 1247116083; 296551584; 2679184239; 3293144316; 688710916; 1928632983; 3196496569; 3850294570; 138106066; 1405299521;
   485938770; 1192143297; 2857052217; 4055062442; 1036085124; 1715017751; 2340198895; 3498370684; 1587083699; 90211872; 3894740952; 3017635915; 2142193765; 609695734; 3373446670; 2464860573;
   2552924381; 3285382990; 781678262; 1970211109; 3105700107; 3806676632; 262195040; 1415100659; 3661932348; 2176637103; 1828280663; 922822340; 4218623722; 2693491065; 1305405569; 372676370;
   3550764967; 2287738932; 1696178636; 1054989919; 4069781105; 2842399202; 1143869466; 534146953; 2445963334; 3392278485; 662146605; 2089808318; 2969420176; 3943022083; 104873979; 1572356200;
   1467482408; 209747643; 3787849539; 3124592848; 1984934142; 767020909; 3237105301; 2601136390; 353775305; 1324241242; 2745946274; 4166233905; 874618655; 1876549772; 2191286644; 3647217383;
   2521949172; 3450444903; 552344991; 2064933388; 3076936226; 3969789361; 31173705; 1512297434; 3560950805; 2412229510; 1652699774; 964316653; 4110974403; 2934964816; 1135969192; 407764027;
   311278971; 1232454376; 2754626320; 4291312771; 867830957; 1749185342; 2231890630; 3741289813; 1357091482; 186379529; 3864947953; 3181777762; 1909728076; 707550431; 3345603879; 2626790068]%Z.
(** kcipher2/sbox.go, amul3 *)
Definition k2_amul3 : list Z :=
  [0; 1163482763; 2326965363; 3488348920; 1895906790; 878209901; 4222849429; 3203057438; 3791813289; 2807770146; 1756419802; 770277457; 2466465615; 3596227012; 431090492; 1558756791;
   2701456439; 3831341756; 733370436; 1861160655; 3490040273; 2505875290; 1521968546; 535704361; 1124503198; 106944533; 3384025837; 2364372070; 839365496; 2002707955; 3098877707; 4260120960;
   654871918; 1649531877; 2914656541; 3907221398; 1443475592; 324068867; 3703250171; 2581744240; 3305830343; 2152964428; 1337482164; 182521151; 3020671521; 4048723114; 1052337746; 2078290137;
   2248964441; 3277139922; 213833002; 1239909281; 4144841919; 2991854132; 2109728972; 954646087; 1678640112; 559371643; 4005343107; 2883975432; 353320470; 1347840157; 2680001125; 3672425710;
   1309704156; 189344087; 3299005359; 2180744484; 1058095674; 2051544241; 3047419465; 4042963138; 2886862197; 3914028030; 648063238; 1677328269; 3709024403; 2555014680; 1470207200; 318292587;
   4011101163; 2857229664; 1705387928; 553611539; 2652222989; 3679248518; 346495614; 1375620341; 219607362; 1213179849; 2275695921; 3271363514; 2081934500; 961452591; 4138033367; 3019650652;
   1763242674; 742499385; 3819593409; 2800945226; 404344660; 1564514783; 2460705575; 3622974892; 2333771803; 3460554384; 27796584; 1156674275; 4196120061; 3208831862; 1890130318; 904941317;
   3357279877; 2370129934; 1118743286; 133692541; 3105700707; 4232343016; 867145488; 1995882907; 706640940; 1866934951; 2695680095; 3858073300; 1528775114; 507909953; 3517836729; 2499066674;
   2619408093; 3648628822; 378688174; 1405813797; 3978412859; 2826474928; 1737715528; 583678403; 2116191348; 997970687; 4103088135; 2982772364; 253999506; 1249570585; 2240878049; 3234349930;
   1025772266; 2021481569; 3080103577; 4073713682; 1277507340; 159146375; 3331824511; 2211368436; 3743838275; 2592024264; 1435819056; 281905851; 2921811365; 3950910254; 613802454; 1640806237;
   3139990451; 4268827960; 832233408; 1958971723; 3391704661; 2406488286; 1083957798; 96646317; 1495927066; 477323153; 3549996393; 2529293282; 673920252; 1836212855; 2727975055; 3888172548;
   439125892; 1601556751; 2426285047; 3586620796; 1798158946; 779414761; 3785299473; 2764456090; 4163829037; 3178736550; 1922847070; 935659477; 2301608139; 3430323776; 60648632; 1187265075;
   3526394113; 2540296074; 1484926322; 500923385; 2737945831; 3865635436; 696455316; 1826244127; 808647592; 1969990947; 3128973275; 4292411728; 1093912142; 74092741; 3414256189; 2396535990;
   1932817718; 913122237; 4186364229; 3168767950; 37046480; 1198267995; 2290607267; 3453923880; 2436239263; 3564067092; 461677548; 1591604583; 3761713785; 2775475442; 1787141642; 802998401;
   4114091119; 2959170276; 2139791388; 986969751; 2218340745; 3244320514; 244030970; 1272105841; 389707462; 1382228045; 2642991797; 3637611582; 1715161888; 593632683; 3968460627; 2849026520;
   1413281880; 291876563; 3733869611; 2614559392; 624805310; 1617204021; 2945411533; 3939909446; 3057550065; 4083668090; 1015819906; 2044033033; 3342843671; 2187782556; 1301091172; 148129263]%Z.
(** kcipher2/utils.go:10-35 *)
Definition gf2by2 (t : Z) : Z := let q := Z.shiftl t 1 in Z.lxor ((if Z.testbit q 8 then Z.lxor q 0x11B else q) mod 256) 0xFF.
Definition gf2by3 (t : Z) : Z := let q := Z.lxor (Z.shiftl t 1) t in Z.lxor ((if Z.testbit q 8 then Z.lxor q 0x11B else q) mod 256) 0xFF.
(** kcipher2/utils.go:42-61 *)
Definition sub_k2 (x : Z) : Z :=
  let t i := k2_sbox.[Z.to_nat (Z.shiftr x (8 * i) mod 256)] in
  let t0 := t 0%Z in let t1 := t 1%Z in let t2 := t 2%Z in let t3 := t 3%Z in
  let x4 a b c d := Z.lxor (Z.lxor (Z.lxor a b) c) d in
  le_val [x4 (gf2by2 t0) (gf2by3 t1) t2 t3; x4 t0 (gf2by2 t1) (gf2by3 t2) t3;
          x4 t0 t1 (gf2by2 t2) (gf2by3 t3); x4 (gf2by3 t0) t1 t2 (gf2by2 t3)].
(** kcipher2/utils.go:71-74 *)
Definition nlf (a b c d : Z) : Z := Z.lxor (Z.lxor (wadd 32 a b) c) d.
(** kcipher2.go:40-49; ks is the unread rest of sbytes, its last svalid bytes *)
Record k2 := K2 { k2_a : list Z; k2_b : list Z; k2_l1 : Z; k2_r1 : Z; k2_l2 : Z; k2_r2 : Z; k2_ks : bytes }.
(** kcipher2.go:100-127 *)
Definition k2_expand (k : list Z) : list Z :=
  let rot x := Z.lxor (wshl 32 x 8) (Z.shiftr x 24) in
  let k4 := Z.lxor (Z.lxor k.[0] (sub_k2 (rot k.[3]))) 0x01000000 in
  let k5 := Z.lxor k.[1] k4 in let k6 := Z.lxor k.[2] k5 in let k7 := Z.lxor k.[3] k6 in
  let k8 := Z.lxor (Z.lxor k4 (sub_k2 (rot k7))) 0x02000000 in
  let k9 := Z.lxor k5 k8 in let k10 := Z.lxor k6 k9 in let k11 := Z.lxor k7 k10 in
  [k.[0]; k.[1]; k.[2]; k.[3]; k4; k5; k6; k7; k8; k9; k10; k11].
(** kcipher2.go:136-163 *)
Definition k2_setup (key iv : list Z) : k2 :=
  let ik := k2_expand key in
  K2 [ik.[4]; ik.[3]; ik.[2]; ik.[1]; ik.[0]]
     [ik.[10]; ik.[11]; iv.[0]; iv.[1]; ik.[8]; ik.[9]; iv.[2]; iv.[3]; ik.[7]; ik.[5]; ik.[6]] 0 0 0 0 [].
(** kcipher2.go:202-280; init selects modeInit *)
Definition k2_next (init : bool) (s : k2) : k2 :=
  let a := k2_a s in let b := k2_b s in
  let m tab x := Z.lxor (wshl 32 x 8) tab.[Z.to_nat (Z.shiftr x 24)] in
  let a4 := Z.lxor (m k2_amul0 a.[0]) a.[3] in
  let a4 := if init then Z.lxor a4 (nlf b.[0] (k2_r2 s) (k2_r1 s) a.[4]) else a4 in
  let t1 := if Z.eqb (Z.land a.[2] 0x40000000) 0 then m k2_amul2 b.[0] else m k2_amul1 b.[0] in
  let t2 := if Z.eqb (Z.land a.[2] 0x80000000) 0 then b.[8] else m k2_amul3 b.[8] in
  let b10 := Z.lxor (Z.lxor (Z.lxor t1 b.[1]) b.[6]) t2 in
  let b10 := if init then Z.lxor b10 (nlf b.[10] (k2_l2 s) (k2_l1 s) a.[0]) else b10 in
  K2 [a.[1]; a.[2]; a.[3]; a.[4]; a4] [b.[1]; b.[2]; b.[3]; b.[4]; b.[5]; b.[6]; b.[7]; b.[8]; b.[9]; b.[10]; b10]
     (sub_k2 (wadd 32 (k2_r2 s) b.[4])) (sub_k2 (wadd 32 (k2_l2 s) b.[9])) (sub_k2 (k2_l1 s)) (sub_k2 (k2_r1 s)) (k2_ks s).
(** kcipher2.go:288-292 and the filling of sbytes, kcipher2.go:76-82 *)
Definition k2_stream (s : k2) : bytes :=
  be_bytes 4 (nlf (k2_b s).[10] (k2_l2 s) (k2_l1 s) (k2_a s).[0]) ++ be_bytes 4 (nlf (k2_b s).[0] (k2_r2 s) (k2_r1 s) (k2_a s).[4]).
Definition k2_fill (s : k2) : k2 :=
  let n := k2_next false s in K2 (k2_a n) (k2_b n) (k2_l1 n) (k2_r1 n) (k2_l2 n) (k2_r2 n) (k2_stream s).
(** kcipher2.go:75-86 *)
Definition k2_gen (s : k2) : k2 * Z :=
  let s := match k2_ks s with [] => k2_fill s | _ => s end in
  (K2 (k2_a s) (k2_b s) (k2_l1 s) (k2_r1 s) (k2_l2 s) (k2_r2 s) (skipn 1 (k2_ks s)), (k2_ks s).[0]).
(** kcipher2.go:176-194 *)
Definition k2_init (key iv : bytes) : k2 := Nat.iter 24 (k2_next true) (k2_setup (ldw_be 4 key) (ldw_be 4 iv)).
(** kcipher2.go:52-65 *)
Definition k2_new (key iv : bytes) : res k2 :=
  if negb (length key =? 16) then Err else if negb (length iv =? 16) then Err else Ok (k2_init key iv).
(** kcipher2.go:67-89: the loop, and then copy(dst, src): inplace tells whether src is dst[:len(src)] *)
Definition k2_call (inplace : bool) (st : k2) (x : bytes * bytes) : res (k2 * bytes) :=
  if length (fst x) <? length (snd x) then Panic
  else let '(st, o) := byte_loop k2_gen st (snd x) in Ok (st, if inplace then o else snd x).

(** * Salsa20 *)
(** salsa20.go:13-17 *)
Record salsa := Salsa { sa_key : bytes; sa_nonce : bytes; sa_ctr : Z }.
Section salsa.
  (** the Salsa20/20 block for a key, the first 8 bytes of subNonce and a block number *)
  Variable block : bytes -> bytes -> Z -> bytes.
  (** salsa.XORKeyStream(buf, buf, &subNonce, &key) from block number n on *)
  Fixpoint xor_blocks (fuel : nat) (key nonce : bytes) (n : Z) (buf : bytes) : bytes :=
    match fuel, buf with
    | O, _ | _, [] => []
    | S f, _ => xorl (firstn 64 buf) (block key nonce n) ++ xor_blocks f key nonce ((n + 1) mod 2 ^ 64) (skipn 64 buf)
    end.
  (** salsa20.go:50-73 *)
  Definition sa_call (st : salsa) (x : bytes * bytes) : res (salsa * bytes) :=
    let '(dst, src) := x in
    if length src =? 0 then Ok (st, [])
    else if length dst <? length src then Panic
    else
      let pad := Z.to_nat (sa_ctr st mod 64) in
      let buf := repeat 0%Z pad ++ src in
      let sub := firstn 8 (gocopy (repeat 0%Z 16) (sa_nonce st)) in
      let buf := xor_blocks (length buf) (sa_key st) sub (sa_ctr st / 64) buf in
      Ok (Salsa (sa_key st) (sa_nonce st) ((sa_ctr st + Z.of_nat (length src)) mod 2 ^ 64), skipn pad buf).
  (** salsa20.go:20-48 *)
  Definition sa_new (key nonce : bytes) (counter : Z) : res salsa :=
    if negb (length key =? 32) then Err else Ok (Salsa key nonce counter).
End salsa.
