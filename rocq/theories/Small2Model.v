(** Model of the block ciphers cipher/sm4, cipher/shacal2 and cipher/skipjack: key expansion, Encrypt and Decrypt. The overlap check is
    not modelled. *)
From Verif Require Import Base BlockModeModel WordModel.
Set Implicit Arguments. Unset Strict Implicit.
Local Open Scope nat_scope.

(** ** SM4 *)
(** sm4/sbox.go:4-19 *)
Definition sm4_fk : list Z :=
  [2746333894; 1453994832; 1736282519; 2993693404]%Z.
Definition sm4_ck : list Z :=
  [462357; 472066609; 943670861; 1415275113; 1886879365; 2358483617; 2830087869; 3301692121;
   3773296373; 4228057617; 404694573; 876298825; 1347903077; 1819507329; 2291111581; 2762715833;
   3234320085; 3705924337; 4177462797; 337322537; 808926789; 1280531041; 1752135293; 2223739545;
   2695343797; 3166948049; 3638552301; 4110090761; 269950501; 741554753; 1213159005; 1684763257]%Z.
(** sm4/sbox.go:21-45 *)
Definition sm4_sbox : list Z :=
  [214; 144; 233; 254; 204; 225; 61; 183; 22; 182; 20; 194; 40; 251; 44; 5;
   43; 103; 154; 118; 42; 190; 4; 195; 170; 68; 19; 38; 73; 134; 6; 153;
   156; 66; 80; 244; 145; 239; 152; 122; 51; 84; 11; 67; 237; 207; 172; 98;
   228; 179; 28; 169; 201; 8; 232; 149; 128; 223; 148; 250; 117; 143; 63; 166;
   71; 7; 167; 252; 243; 115; 23; 186; 131; 89; 60; 25; 230; 133; 79; 168;
   104; 107; 129; 178; 113; 100; 218; 139; 248; 235; 15; 75; 112; 86; 157; 53;
   30; 36; 14; 94; 99; 88; 209; 162; 37; 34; 124; 59; 1; 33; 120; 135;
   212; 0; 70; 87; 159; 211; 39; 82; 76; 54; 2; 231; 160; 196; 200; 158;
   234; 191; 138; 210; 64; 199; 56; 181; 163; 247; 242; 206; 249; 97; 21; 161;
   224; 174; 93; 164; 155; 52; 26; 85; 173; 147; 50; 48; 245; 140; 177; 227;
   29; 246; 226; 46; 130; 102; 202; 96; 192; 41; 35; 171; 13; 83; 78; 111;
   213; 219; 55; 69; 222; 253; 142; 47; 3; 255; 106; 114; 109; 108; 91; 81;
   141; 27; 175; 146; 187; 221; 188; 127; 17; 217; 92; 65; 31; 16; 90; 216;
   10; 193; 49; 136; 165; 205; 123; 189; 45; 116; 208; 18; 184; 229; 180; 176;
   137; 105; 151; 74; 12; 150; 119; 126; 101; 185; 241; 9; 197; 110; 198; 132;
   24; 240; 125; 236; 58; 220; 77; 32; 121; 238; 95; 62; 215; 203; 57; 72]%Z.
(** sm4/sbox.go:47-229 *)
Definition sm4_t0 : list Z :=
  [2396347227; 3499246146; 1307223975; 117308411; 4241437491; 1709344647; 3376280820; 1807081182;
   1310087256; 1857346266; 1142181968; 3401648907; 2284363936; 402190319; 2620174512; 285545492;
   2267786412; 4217806237; 4070074986; 2927090137; 2183833768; 1186790138; 335810576; 3485470479;
   44608170; 1413812497; 1595100236; 3190200472; 1833444645; 2659457562; 503715864; 4254819942;
   3969806962; 1245907209; 273760577; 620221395; 3583198790; 1408024511; 4170867298; 2457594345;
   4281584844; 72700241; 655043628; 1329728781; 1508816823; 4090249023; 481211058; 3932391817;
   1961333651; 2142359246; 1813803120; 229353126; 3989448487; 671621152; 1223402403; 3247920726;
   2156003842; 2749136767; 3298185810; 318368747; 2708788693; 3012378174; 3275750652; 1050974874;
   1531321629; 453450780; 1000709790; 218100723; 1072746447; 3211972045; 1259822172; 1387850474;
   2407599630; 1029203301; 3426545904; 2098816100; 2128976795; 2441549334; 1934507325; 145400482;
   3362365857; 3345657261; 2239956486; 2058406602; 3044066757; 4100297105; 3000593259; 2810785326;
   419161059; 1206431663; 856636476; 1732914477; 2960245185; 240605529; 3919541878; 3778401492;
   1713272952; 3022295184; 906901560; 643791225; 4016213389; 945381729; 2513585991; 715164298;
   2972030100; 2854389896; 2357064177; 3611028716; 83952644; 2770437252; 2558124513; 2609192478;
   2228704083; 0; 1581717785; 190209373; 3818749566; 2681229135; 3139935388; 441665865;
   2085433649; 3996571864; 167905288; 2078580639; 547521154; 3569816339; 3905626915; 3869014650;
   1122610091; 1136525054; 2726832682; 2597407563; 1078001921; 3687063327; 3627606240; 1639438038;
   799116942; 737468383; 988924875; 4140645179; 502982631; 3848308101; 1091916884; 631473798;
   1625523075; 380418746; 693925237; 883331730; 4154027630; 3828666576; 1914333288; 22304085;
   430945974; 3750841934; 4197632200; 4029726912; 569825239; 3163435570; 1974716102; 1876987791;
   1763538036; 787864539; 1793166219; 2519644344; 2323646986; 4268202393; 3804834603; 3764486529;
   3234005763; 2368316580; 2938342540; 128560814; 957166644; 525487437; 1984903481; 3547250109;
   2178307927; 3084414831; 3946306780; 1363416341; 2799532923; 167704567; 3062643258; 2469379260;
   251857932; 66912255; 3261835689; 3128150473; 3647780277; 3698176433; 928673133; 357582149;
   3113170486; 1998285932; 330153662; 3666889290; 1471803118; 2849929079; 1287582450; 2206137853;
   1427194948; 3185207143; 744321393; 1161823493; 1663007868; 1343242304; 844851561; 3101385571;
   571090984; 3317827335; 4113679556; 2827624994; 833066646; 4191041335; 2541415917; 1237317366;
   2569909428; 2759184849; 2429764419; 1511147592; 1488642786; 1910937495; 1689703122; 1890763458;
   2911577638; 3446187429; 3415563870; 1649092905; 1007431728; 3465828954; 2876693981; 2256534009;
   4049900949; 1572595430; 905103303; 755573796; 3519420183; 3597646265; 3737459483; 2491814418;
   2014863456; 821281731; 2306668021; 1559212979; 3527076072; 2900325235; 2035037493; 2686484608;
   2641946085; 1458420667; 593395069; 3326015736; 2345951071; 3888656175; 3711558884; 1749623073]%Z.
Definition sm4_t1 : list Z :=
  [1536087387; 1120965186; 2806901415; 4211539451; 872206131; 2271601287; 4106829300; 3731600862;
   1481512536; 3664688346; 1346638928; 197837067; 2693277856; 4011325679; 2963025072; 336659732;
   2894539692; 2650498717; 1794283626; 3652089817; 2827102888; 4198939898; 269747216; 265273359;
   2852300970; 290735377; 1281299276; 2562598552; 627918885; 446596122; 404620824; 1727896422;
   1928109682; 155861769; 1091588417; 3542415315; 1188401990; 3209948351; 1660459618; 3918691305;
   3439277004; 1359238481; 740756268; 223298061; 3076124343; 1072942143; 2988224178; 2313839497;
   2473912211; 3464475086; 1886133360; 2785913766; 669895207; 539494432; 2739465123; 1455527766;
   41976322; 2141445247; 1388615250; 3943889387; 3584128213; 1051954494; 4240654332; 2587796634;
   492520989; 471533340; 2654709150; 4077715443; 3477074127; 3451876045; 1548425052; 3931289834;
   244285710; 1698519141; 4039916784; 1685920100; 2608784795; 378636054; 1030966845; 2718476962;
   2714266017; 2915527341; 109413126; 3397038282; 3317002437; 2448713105; 1806883179; 782731566;
   3810065379; 2940725423; 1009979196; 761743917; 3249566145; 1494112089; 1995022198; 3571529172;
   2019958392; 2427724944; 943066680; 2032557945; 2381275789; 1631082849; 1201001031; 2318049418;
   2494637460; 2292851336; 4052516337; 3973528556; 67436804; 2225414532; 3784866273; 513508638;
   1401214803; 0; 425608985; 1561024093; 2128846206; 1335873615; 2629511068; 1226462025;
   830229809; 3639490264; 134873608; 2675696799; 2183176834; 332711699; 602458915; 2061933690;
   2873289131; 4265852414; 715294762; 1268437323; 20988161; 534496287; 3772266720; 3596728278;
   2385486222; 3744199903; 3409637835; 1006030139; 3877501671; 2246402181; 1413551444; 2250613638;
   2204164995; 3122048186; 1965644917; 2452924050; 1861720430; 3504616656; 1752308328; 1426150485;
   3055136694; 1323274574; 3371840200; 3236966592; 3609327319; 851217970; 3329602502; 2406473871;
   1953045876; 3677287899; 2339037579; 3096850104; 176848906; 2583586713; 736282923; 2178965889;
   62964483; 2760714660; 2360288140; 2919737774; 876154164; 1293898317; 964054841; 3184750269;
   1468126807; 1874319471; 3706402780; 357647381; 2074533243; 4144627447; 985041978; 3163762620;
   202310412; 4278451455; 2848091049; 3384439753; 3050925237; 2984013233; 1832344173; 1159024709;
   918130486; 1819745132; 3188960702; 1255837770; 3998726638; 2007621239; 4065115890; 4253253373;
   1146425668; 1740495463; 1898732913; 88424453; 2086870908; 1078988864; 1764907881; 1673059171;
   673319464; 130400775; 3304403396; 581470754; 2519836566; 939118135; 3986127597; 4132028406;
   3029937588; 3517216209; 1133564739; 1213862472; 3797465826; 2540824215; 3529815762; 3262165698;
   648907558; 2781702309; 1590400350; 694307625; 809241648; 1523487834; 3719001821; 4186341369;
   2515625109; 3864902630; 3342201543; 606931236; 399623703; 3117838265; 467584283; 311723538;
   1618483296; 3274765251; 4119428341; 3009212339; 3906091752; 1940709235; 897141813; 2157977728;
   3852302565; 3143036347; 2099469949; 4173741816; 1602999391; 803719215; 3839703524; 560482593]%Z.
Definition sm4_t2 : list Z :=
  [1532726997; 1111675026; 2812759530; 4227532541; 859045071; 2273797602; 4109683005; 3739118517;
   1482182166; 3671748276; 1347437588; 185322177; 2694875176; 4025423864; 2964364332; 336859397;
   2896987947; 2644376422; 1785393816; 3654921847; 2829615658; 4210706108; 269489156; 252694464;
   2863268520; 286348357; 1280073491; 2560146982; 623209800; 437952132; 404233734; 1718025627;
   1920134302; 151603779; 1094783057; 3553830135; 1179047315; 3216987116; 1650653338; 3924398715;
   3435986739; 1364264021; 741091083; 218976066; 3082246638; 1061155788; 2998017198; 2307517027;
   2475914471; 3469639601; 1886415900; 2795900331; 656928202; 538978312; 2745387243; 1448526231;
   33718402; 2139071452; 1381155990; 3958051577; 3587547508; 1044296589; 4244423487; 2593799844;
   488463174; 471603975; 2661170085; 4092792063; 3486466032; 3452813170; 1549552407; 3941225144;
   235835265; 1701133656; 4042312764; 1684307225; 2610659045; 370577799; 1027437390; 2728528042;
   2711734377; 2913847146; 101090691; 3402267312; 3318068592; 2442261605; 1802220249; 774809481;
   3823311099; 2947500008; 1010578191; 757950282; 3250696305; 1499008599; 1987504543; 3570721077;
   2021156382; 2425402404; 943207950; 2037982815; 2374889314; 1633761369; 1195873746; 2324310688;
   2492772645; 2290657826; 4059139197; 3974944571; 67372289; 2223285537; 3789658233; 505322373;
   1397982423; 0; 421092935; 1566378838; 2122245021; 1330618320; 2627517223; 1229527635;
   825326669; 3638095414; 134744578; 2678029284; 2189566114; 320066759; 589555915; 2054874780;
   2880127721; 4278076349; 707437192; 1263246033; 16859201; 522181572; 3772831800; 3604373943;
   2391682977; 3755944948; 3419093745; 993785549; 3890683386; 2240144736; 1414807829; 2256938403;
   2206425315; 3132757676; 1970612572; 2459055270; 1852766105; 3503350836; 1751675418; 1431634260;
   3065387439; 1313791889; 3368614450; 3233869872; 3621200374; 842185870; 3334895027; 2408542176;
   1953786141; 3688574709; 2341169889; 3099104814; 168462976; 2577006183; 724296393; 2172772449;
   50577603; 2762247465; 2358030115; 2930640809; 875837709; 1296899922; 960067151; 3183334254;
   1465352662; 1869592536; 3705465655; 353718596; 2071701213; 4160162302; 976926348; 3166475055;
   202116867; 4294902780; 2846474859; 3385440883; 3048593772; 2981223533; 1835874138; 1162155344;
   909556111; 1819047707; 3200127917; 1246419600; 4008597433; 2004330974; 4075965630; 4261249918;
   1145328913; 1734852058; 1903242333; 84231488; 2088526623; 1077956624; 1768501851; 1667479771;
   673718794; 117949890; 3301242161; 572696714; 2526425511; 926415310; 3991771002; 4143335871;
   3031734573; 3520177269; 1128501459; 1212701202; 3806484666; 2543284710; 3537003702; 3267522738;
   640069003; 2779106664; 1583270805; 690577995; 808467468; 1515900564; 3722292086; 4193879679;
   2509631844; 3873856955; 3351721458; 606350601; 387436998; 3115964015; 454811333; 303207558;
   1616934936; 3284349171; 4126509436; 3014876399; 3907572282; 1936960735; 892696908; 2155913248;
   3857030520; 3149616877; 2105353054; 4177053246; 1600097236; 791668680; 3840204089; 555837513]%Z.
Definition sm4_t3 : list Z :=
  [3579534222; 2453816016; 3936855885; 4261149446; 3476239356; 3800532837; 1039463625; 3051282027;
   374888526; 3034241646; 340807748; 3238726602; 681615496; 4176473879; 749777052; 85201937;
   732736647; 1721605627; 2557111026; 2010765742; 715696258; 3170564678; 68161556; 3222212559;
   2829756930; 1158746452; 323767391; 647534782; 1210393965; 2216303262; 102242334; 2607179517;
   2658300652; 1124665674; 1363230992; 4157854500; 2470856405; 3971989331; 2590139128; 2078927250;
   869059839; 1431392516; 187444263; 1108151631; 4005017433; 3426697203; 2930946588; 1669958122;
   3885208436; 2983120511; 477130860; 2879825421; 3391563757; 136323112; 3953369928; 2539017921;
   2181169792; 3699343267; 2521977540; 4192987922; 1960170913; 2369666739; 1073544387; 2761595454;
   1176313179; 119282715; 2778635835; 4294177548; 4040150847; 1926090175; 391928907; 3102403154;
   2165182095; 1483040061; 1022423244; 426009725; 3852180350; 2266371729; 1312636275; 2862785032;
   1772200392; 1789767111; 2198210181; 2966080122; 1892009397; 1704038900; 3647695794; 2301505191;
   4226016024; 3903827783; 255605811; 1244474727; 1908523440; 1465473294; 2675341033; 903140577;
   511211622; 613454004; 238565430; 1601796390; 1653444079; 1499554104; 3527886741; 2693433898;
   630494385; 579373226; 2113008012; 1005382871; 17040389; 562332837; 2044846488; 2233343643;
   3612562308; 0; 1192827230; 1448959243; 2642312931; 3494858655; 664575163; 1397311770;
   1295069564; 920180974; 34080778; 3835666299; 2726461984; 3339916244; 3408077800; 2625272550;
   3920341826; 3187605059; 2284464802; 3511372698; 1090584896; 3290374107; 954261720; 3084310113;
   2710474287; 4108312363; 4056664890; 3443211254; 4209501981; 1619363301; 357848129; 2743502373;
   3817046880; 2897918486; 1551201577; 2794623540; 2574151415; 886100196; 443050098; 1414878465;
   2947986969; 2437828319; 852019450; 817938672; 4141340449; 2385654460; 3016148597; 3767504751;
   494171241; 4124826414; 3784018794; 783857814; 2148141706; 1738119678; 3375049698; 1635877344;
   3271754688; 698655885; 596413615; 2846797319; 221525049; 1380797727; 1329150326; 1857928659;
   3596048257; 3631181751; 937221355; 1142232401; 3715857318; 4277663497; 2352626358; 800898195;
   51121167; 4244635395; 1806281154; 1942604218; 1823847897; 1840361948; 1517120823; 1346716949;
   2402694841; 460090487; 2914958867; 2420787930; 3119443543; 3732371369; 3203592780; 2130574723;
   289686613; 3664209853; 1567715628; 1074070853; 528252003; 272646224; 1533634866; 3680723896;
   170403874; 3255240645; 834979061; 2317492904; 2811663921; 3459725305; 2062413207; 3220633161;
   766817433; 1976684964; 3544400784; 306727002; 3135431256; 3868694385; 3067269732; 2999108208;
   2334533293; 1755686349; 2505989835; 1260988770; 204484668; 2488949454; 1994251691; 2147088774;
   1687524849; 3152471645; 4073178933; 153363501; 3323402193; 1874442710; 3306888158; 2249331348;
   408969336; 4089692976; 2096493961; 4021531484; 988342482; 3748885420; 1278555513; 545292448;
   2028332445; 3988503382; 1585282339; 1056504006; 3563020171; 3358535655; 971302109; 1226908008]%Z.
(** putu32 into in, and an entry of a table *)
Definition byte_at (i : nat) (x : Z) : Z := (be_bytes 4 x).[i].
Definition at_byte (t : list Z) (b : Z) : Z := nth (Z.to_nat b) t 0%Z.
(** sm4/utils.go:46-58 tau *)
Definition sm4_tau (x : Z) : Z := be_val (map (fun i => at_byte sm4_sbox (byte_at i x)) [0; 1; 2; 3]).
(** sm4/utils.go:61-67 l and 70-72 lAp *)
Definition sm4_l (b : Z) : Z := Z.lxor (Z.lxor (Z.lxor (Z.lxor b (rotl 32 2 b)) (rotl 32 10 b)) (rotl 32 18 b)) (rotl 32 24 b).
Definition sm4_lap (b : Z) : Z := Z.lxor (Z.lxor b (rotl 32 13 b)) (rotl 32 23 b).
(** sm4/utils.go:75-78 tSlow, 82-90 t, 93-95 keySub *)
Definition sm4_slow (x : Z) : Z := sm4_l (sm4_tau x).
Definition sm4_fast (x : Z) : Z :=
  Z.lxor (Z.lxor (Z.lxor (at_byte sm4_t0 (byte_at 0 x)) (at_byte sm4_t1 (byte_at 1 x))) (at_byte sm4_t2 (byte_at 2 x))) (at_byte sm4_t3 (byte_at 3 x)).
Definition sm4_keysub (x : Z) : Z := sm4_lap (sm4_tau x).
(** sm4.go:119-124 rnds, and the same steps in expandKey 136-139 *)
Definition sm4_rnds (fn : Z -> Z) (b : list Z) (k0 k1 k2 k3 : Z) : list Z :=
  let b0 := Z.lxor b.[0] (fn (Z.lxor (Z.lxor (Z.lxor b.[1] b.[2]) b.[3]) k0)) in
  let b1 := Z.lxor b.[1] (fn (Z.lxor (Z.lxor (Z.lxor b.[2] b.[3]) b0) k1)) in
  let b2 := Z.lxor b.[2] (fn (Z.lxor (Z.lxor (Z.lxor b.[3] b0) b1) k2)) in
  let b3 := Z.lxor b.[3] (fn (Z.lxor (Z.lxor (Z.lxor b0 b1) b2) k3)) in
  [b0; b1; b2; b3].
(** sm4.go:126-143 expandKey; i runs over 0, 4, .., 28 and the rows of rk are collected *)
Definition sm4_expand (key : bytes) : list Z :=
  let keys := ldw_be 4 key in
  snd (fold_left (fun kr i => let k := sm4_rnds sm4_keysub (fst kr) sm4_ck.[i] sm4_ck.[i + 1] sm4_ck.[i + 2] sm4_ck.[i + 3] in (k, snd kr ++ k))
    (ups 0 8 4) (map (fun i => Z.lxor keys.[i] sm4_fk.[i]) [0; 1; 2; 3], [])).
(** sm4.go:81-100 encrypt and 102-117 decrypt *)
Definition sm4_up (rk : list Z) (b : list Z) (i : nat) : list Z :=
  sm4_rnds (if (i =? 0) || (i =? 28) then sm4_slow else sm4_fast) b rk.[i] rk.[i + 1] rk.[i + 2] rk.[i + 3].
Definition sm4_down (rk : list Z) (b : list Z) (i : nat) : list Z :=
  sm4_rnds (if (i =? 32) || (i =? 4) then sm4_slow else sm4_fast) b rk.[i - 1] rk.[i - 2] rk.[i - 3] rk.[i - 4].
Definition sm4_out (b : list Z) : list Z := [b.[3]; b.[2]; b.[1]; b.[0]].
Definition sm4_enc (rk b : list Z) : list Z := sm4_out (fold_left (sm4_up rk) (ups 0 8 4) b).
Definition sm4_dec (rk b : list Z) : list Z := sm4_out (fold_left (sm4_down rk) (downs 32 8 4) b).
Definition sm4_cph (rk : list Z) : cipher := word_cipher_be 4 4 (sm4_enc rk) (sm4_dec rk).
(** sm4.go:30-43 NewCipher, 49-63 Encrypt, 65-79 Decrypt *)
Definition sm4_new (key : bytes) : res (list Z) := if length key =? 16 then Ok (sm4_expand key) else Err.
Definition sm4_encrypt (rk : list Z) := blk_call 16 (enc (sm4_cph rk)).
Definition sm4_decrypt (rk : list Z) := blk_call 16 (dec (sm4_cph rk)).

(** ** SHACAL-2 *)
(** shacal2/sbox.go:3-12 *)
Definition sh_rc : list Z :=
  [1116352408; 1899447441; 3049323471; 3921009573; 961987163; 1508970993; 2453635748; 2870763221;
   3624381080; 310598401; 607225278; 1426881987; 1925078388; 2162078206; 2614888103; 3248222580;
   3835390401; 4022224774; 264347078; 604807628; 770255983; 1249150122; 1555081692; 1996064986;
   2554220882; 2821834349; 2952996808; 3210313671; 3336571891; 3584528711; 113926993; 338241895;
   666307205; 773529912; 1294757372; 1396182291; 1695183700; 1986661051; 2177026350; 2456956037;
   2730485921; 2820302411; 3259730800; 3345764771; 3516065817; 3600352804; 4094571909; 275423344;
   430227734; 506948616; 659060556; 883997877; 958139571; 1322822218; 1537002063; 1747873779;
   1955562222; 2024104815; 2227730452; 2361852424; 2428436474; 2756734187; 3204031479; 3329325298]%Z.
(** shacal2/utils.go:46-60 sigma, rho, choose, majority *)
Definition sh_sigma (x r1 r2 s : Z) : Z := Z.lxor (Z.lxor (rotr 32 r1 x) (rotr 32 r2 x)) (Z.shiftr x s).
Definition sh_rho (x r1 r2 r3 : Z) : Z := Z.lxor (Z.lxor (rotr 32 r1 x) (rotr 32 r2 x)) (rotr 32 r3 x).
Definition sh_choose (mask a b : Z) : Z := Z.lxor b (Z.land mask (Z.lxor a b)).
Definition sh_majority (a b c : Z) : Z := sh_choose (Z.lxor a b) c b.
(** the variable that plays the part of the m-th one (0 for A) in the call number r: the calls of shacal2.go:82-91 rotate the names *)
Definition sh_pos (r m : nat) : nat := (m + 8 - r mod 8) mod 8.
(** shacal2/utils.go:62-75 fwd, as called in shacal2.go:71-94, and 77-90 rev, as called in 96-119 *)
Definition sh_fwd (rk : list Z) (s : list Z) (r : nat) : list Z :=
  let v m := s.[sh_pos r m] in
  let h := wadd 32 (v 7) (wadd 32 (wadd 32 (sh_rho (v 4) 6 11 25) (sh_choose (v 4) (v 5) (v 6))) rk.[r]) in
  let d := wadd 32 (v 3) h in
  let h' := wadd 32 h (wadd 32 (sh_rho (v 0) 2 13 22) (sh_majority (v 0) (v 1) (v 2))) in
  upd (sh_pos r 7) h' (upd (sh_pos r 3) d s).
Definition sh_rev (rk : list Z) (s : list Z) (r : nat) : list Z :=
  let v m := s.[sh_pos r m] in
  let h := wsub 32 (v 7) (wadd 32 (sh_rho (v 0) 2 13 22) (sh_majority (v 0) (v 1) (v 2))) in
  let d := wsub 32 (v 3) h in
  let h' := wsub 32 h (wadd 32 (wadd 32 (sh_rho (v 4) 6 11 25) (sh_choose (v 4) (v 5) (v 6))) rk.[r]) in
  upd (sh_pos r 7) h' (upd (sh_pos r 3) d s).
Definition sh_enc (rk s : list Z) : list Z := fold_left (sh_fwd rk) (ups 0 64 1) s.
Definition sh_dec (rk s : list Z) : list Z := fold_left (sh_rev rk) (downs 63 64 1) s.
(** shacal2.go:121-137 expandKey with bytesToUint32s (utils.go:16-27), which drops a last partial word. The words after the sixteenth are
    overwritten before they are read, so the array is built by appending to its first sixteen words *)
Definition sh_words (key : bytes) : list Z := ldw_be 4 (firstn (4 * (length key / 4)) key).
Definition sh_sched (w : list Z) (i : nat) : list Z :=
  w ++ [wadd 32 (wadd 32 (wadd 32 w.[i - 16] (sh_sigma w.[i - 15] 7 18 3)) w.[i - 7]) (sh_sigma w.[i - 2] 17 19 10)].
Definition sh_expand (key : bytes) : list Z :=
  let w := fold_left sh_sched (ups 16 48 1) (firstn 16 (sh_words key ++ repeat 0%Z 16)) in
  map (fun i => wadd 32 w.[i] sh_rc.[i]) (seq 0 64).
Definition sh_cph (rk : list Z) : cipher := word_cipher_be 4 8 (sh_enc rk) (sh_dec rk).
(** shacal2.go:23-33 NewCipher, 39-69 *)
Definition sh_new (key : bytes) : res (list Z) := if (length key <? 4) || (256 <? length key) then Err else Ok (sh_expand key).
Definition sh_encrypt (rk : list Z) := blk_call 32 (enc (sh_cph rk)).
Definition sh_decrypt (rk : list Z) := blk_call 32 (dec (sh_cph rk)).

(** ** Skipjack *)
(** skipjack.go:150-167 *)
Definition skj_f : list Z :=
  [163; 215; 9; 131; 248; 72; 246; 244; 179; 33; 21; 120; 153; 177; 175; 249;
   231; 45; 77; 138; 206; 76; 202; 46; 82; 149; 217; 30; 78; 56; 68; 40;
   10; 223; 2; 160; 23; 241; 96; 104; 18; 183; 122; 195; 233; 250; 61; 83;
   150; 132; 107; 186; 242; 99; 154; 25; 124; 174; 229; 245; 247; 22; 106; 162;
   57; 182; 123; 15; 193; 147; 129; 27; 238; 180; 26; 234; 208; 145; 47; 184;
   85; 185; 218; 133; 63; 65; 191; 224; 90; 88; 128; 95; 102; 11; 216; 144;
   53; 213; 192; 167; 51; 6; 101; 105; 69; 0; 148; 86; 109; 152; 155; 118;
   151; 252; 178; 194; 176; 254; 219; 32; 225; 235; 214; 228; 221; 71; 74; 29;
   66; 237; 158; 110; 73; 60; 205; 67; 39; 210; 7; 212; 222; 199; 103; 24;
   137; 203; 48; 31; 141; 198; 143; 170; 200; 116; 220; 201; 93; 92; 49; 164;
   112; 136; 97; 44; 159; 13; 43; 135; 80; 130; 84; 100; 38; 125; 3; 64;
   52; 75; 28; 115; 209; 196; 253; 59; 204; 251; 127; 171; 230; 62; 91; 165;
   173; 4; 35; 156; 20; 81; 34; 240; 41; 121; 113; 126; 255; 140; 14; 226;
   12; 239; 188; 114; 117; 111; 55; 161; 236; 211; 142; 98; 139; 134; 16; 232;
   8; 119; 17; 190; 146; 79; 36; 197; 50; 54; 157; 207; 243; 166; 187; 172;
   94; 108; 169; 19; 87; 37; 181; 227; 189; 168; 58; 1; 5; 89; 42; 70]%Z.
(** skipjack.go:169-179 g and 181-191 ginv *)
Definition skj_g (key : bytes) (k : nat) (w : Z) : Z :=
  let g1 := (w / 256)%Z in let g2 := (w mod 256)%Z in
  let g3 := Z.lxor (at_byte skj_f (Z.lxor g2 key.[(4 * k + 0) mod 10])) g1 in
  let g4 := Z.lxor (at_byte skj_f (Z.lxor g3 key.[(4 * k + 1) mod 10])) g2 in
  let g5 := Z.lxor (at_byte skj_f (Z.lxor g4 key.[(4 * k + 2) mod 10])) g3 in
  let g6 := Z.lxor (at_byte skj_f (Z.lxor g5 key.[(4 * k + 3) mod 10])) g4 in
  (g5 * 256 + g6)%Z.
Definition skj_ginv (key : bytes) (k : nat) (w : Z) : Z :=
  let g5 := (w / 256)%Z in let g6 := (w mod 256)%Z in
  let g4 := Z.lxor (at_byte skj_f (Z.lxor g5 key.[(4 * k + 3) mod 10])) g6 in
  let g3 := Z.lxor (at_byte skj_f (Z.lxor g4 key.[(4 * k + 2) mod 10])) g5 in
  let g2 := Z.lxor (at_byte skj_f (Z.lxor g3 key.[(4 * k + 1) mod 10])) g4 in
  let g1 := Z.lxor (at_byte skj_f (Z.lxor g2 key.[(4 * k + 0) mod 10])) g3 in
  (g1 * 256 + g2)%Z.
(** skipjack.go:91-95, 98-102 *)
Definition skj_a (key : bytes) (s : list Z) (k : nat) : list Z :=
  let gw := skj_g key k s.[0] in [Z.lxor (Z.lxor gw s.[3]) (Z.of_nat k + 1); gw; s.[1]; s.[2]].
Definition skj_b (key : bytes) (s : list Z) (k : nat) : list Z :=
  let gw := skj_g key k s.[0] in [s.[3]; gw; Z.lxor (Z.lxor s.[0] s.[1]) (Z.of_nat k + 1); s.[2]].
(** skipjack.go:126-130, 133-136 *)
Definition skj_unb (key : bytes) (s : list Z) (k : nat) : list Z :=
  let gw := skj_ginv key (k - 1) s.[1] in [gw; Z.lxor (Z.lxor gw s.[2]) (Z.of_nat k); s.[3]; s.[0]].
Definition skj_una (key : bytes) (s : list Z) (k : nat) : list Z :=
  [skj_ginv key (k - 1) s.[1]; s.[2]; s.[3]; Z.lxor (Z.lxor s.[0] s.[1]) (Z.of_nat k)].
(** skipjack.go:81-113 encrypt and 116-147 decrypt, the loop over t written twice *)
Definition skj_enc (key : bytes) (s : list Z) : list Z :=
  fold_left (skj_b key) (ups 24 8 1) (fold_left (skj_a key) (ups 16 8 1) (fold_left (skj_b key) (ups 8 8 1) (fold_left (skj_a key) (ups 0 8 1) s))).
Definition skj_dec (key : bytes) (s : list Z) : list Z :=
  fold_left (skj_una key) (downs 8 8 1) (fold_left (skj_unb key) (downs 16 8 1) (fold_left (skj_una key) (downs 24 8 1) (fold_left (skj_unb key) (downs 32 8 1) s))).
Definition skj_cph (key : bytes) : cipher := word_cipher_be 2 4 (skj_enc key) (skj_dec key).
(** skipjack.go:26-41 NewCipher, 48-78 *)
Definition skj_new (key : bytes) : res bytes := if length key =? 10 then Ok key else Err.
Definition skj_encrypt (key : bytes) := blk_call 8 (enc (skj_cph key)).
Definition skj_decrypt (key : bytes) := blk_call 8 (dec (skj_cph key)).
