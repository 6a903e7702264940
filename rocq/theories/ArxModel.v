(** Model of the add-rotate-xor block ciphers cipher/speck, cipher/simon, cipher/lea and cipher/threefish: key
    expansion, Encrypt and Decrypt. The unrolled key expansions of Simon and Speck-128 are written as loops. The
    overlap check is not modelled. *)
From Verif Require Import Base BlockModeModel WordModel.
Set Implicit Arguments. Unset Strict Implicit.
Local Open Scope nat_scope.

(** speck.go:127-233 (ks in utils.go): nl is the number of l words; l[i+nl] and w[i+1] are appended. Speck-128
    (127-175) keeps its single l word alternately in x and y. *)
Definition speck_ks (nl : nat) (lw : list Z * list Z) (i : nat) : list Z * list Z :=
  let '(l, w) := lw in
  let l' := Z.lxor (wadd 64 w.[i] (rotr 64 8 l.[i])) (Z.of_nat i) in
  (l ++ [l'], w ++ [Z.lxor (rotl 64 3 w.[i]) l']).
Definition speck_expand (key : bytes) (nl n : nat) : list Z :=
  let keys := ldw 8 key in
  snd (fold_left (speck_ks nl) (ups 0 n 1) (firstn nl (skipn 1 keys), firstn 1 keys)).
(** speck.go:24-37, 113-125: NewCipher; the value is roundKey, and round = len(roundKey) - 1 *)
Definition speck_new (key : bytes) : res (list Z) :=
  match length key with
  | 16 => Ok (speck_expand key 1 31)
  | 24 => Ok (speck_expand key 2 32)
  | 32 => Ok (speck_expand key 3 33)
  | _ => Err
  end.
(** speck.go:83-89 *)
Definition speck_rnd (rk : list Z) (s : Z * Z) (i : nat) : Z * Z :=
  let '(x, y) := s in
  let x := rotr 64 8 x in let x := wadd 64 x y in let x := Z.lxor x rk.[i] in
  let y := rotl 64 3 y in let y := Z.lxor y x in (x, y).
(** speck.go:102-108 *)
Definition speck_unrnd (rk : list Z) (s : Z * Z) (i : nat) : Z * Z :=
  let '(x, y) := s in
  let y := Z.lxor y x in let y := rotr 64 3 y in
  let x := Z.lxor x rk.[i] in let x := wsub 64 x y in let x := rotl 64 8 x in (x, y).
(** speck.go:76-93 *)
Definition speck_enc (rk : list Z) (pt : list Z) : list Z :=
  let '(x, y) := fold_left (speck_rnd rk) (ups 0 (length rk) 1) (pt.[1], pt.[0]) in [y; x].
(** speck.go:95-112 *)
Definition speck_dec (rk : list Z) (ct : list Z) : list Z :=
  let '(x, y) := fold_left (speck_unrnd rk) (downs (length rk - 1) (length rk) 1) (ct.[1], ct.[0]) in [y; x].
(** speck.go:43-74 *)
Definition speck_encrypt (rk : list Z) := blk_call 16 (enc (word_cipher 8 2 (speck_enc rk) (speck_dec rk))).
Definition speck_decrypt (rk : list Z) := blk_call 16 (dec (word_cipher 8 2 (speck_enc rk) (speck_dec rk))).

(** simon/utils.go:43-59 *)
Definition simon_k (prev pprev z : Z) : Z :=
  let tmp := rotr 64 3 prev in let tmp := Z.lxor tmp (rotr 64 1 tmp) in
  Z.lxor (Z.lxor (Z.lxor 0xfffffffffffffffc pprev) z) tmp.
Definition simon_f (x : Z) : Z := Z.lxor (Z.land (rotl 64 1 x) (rotl 64 8 x)) (rotl 64 2 x).
Definition simon_k256 (i3 i i1 z : Z) : Z :=
  let tmp := Z.lxor (rotr 64 3 i3) i1 in let tmp := Z.lxor tmp (rotr 64 1 tmp) in
  Z.lxor (Z.lxor (Z.lxor 0xfffffffffffffffc i) z) tmp.
(** the last arguments of the successive ks calls: simon128.go:103-172, simon192.go:113-179, simon256.go:111-179 *)
Definition simon_z128 : list Z :=
  [1;0;1;0;1;1;1;1;0;1;1;1;0;0;0;0;0;0;1;1;0;1;0;0;1;0;0;1;1;0;0;0;1;0;1;0;0;0;0;1;0;0;0;1;1;1;1;1;1;0;0;1;0;1;1;0;1;1;0;0;1;1;1;0;1;0]%Z.
Definition simon_z192 : list Z :=
  [1;1;0;1;1;0;1;1;1;0;1;0;1;1;0;0;0;1;1;0;0;1;0;1;1;1;1;0;0;0;0;0;0;1;0;0;1;0;0;0;1;0;1;0;0;1;1;1;0;0;1;1;0;1;0;0;0;0;1;1;1;1;1;1;0;1]%Z.
Definition simon_z256 : list Z :=
  [1;1;0;1;0;0;0;1;1;1;1;0;0;1;1;0;1;0;1;1;0;1;1;0;0;0;1;0;0;0;0;0;0;1;0;1;1;1;0;0;0;0;1;1;0;0;1;0;1;0;0;1;0;0;1;1;1;0;1;1;1;1;1;1;0;1;0;0]%Z.
(** simon128.go:96-176, simon192.go:103-183: w[i] = ks(w[i-1], w[i-m], z) *)
Definition simon_ext (m : nat) (w : list Z) (z : Z) : list Z :=
  let i := length w in w ++ [simon_k w.[i - 1] w.[i - m] z].
(** simon256.go:100-183: w[i] = ks256(w[i-1], w[i-4], w[i-3], z) *)
Definition simon_ext256 (w : list Z) (z : Z) : list Z :=
  let i := length w in w ++ [simon_k256 w.[i - 1] w.[i - 4] w.[i - 3] z].
(** simon.go: NewCipher by key length; simon128.go:14-27, simon192.go:14-27, simon256.go:14-27 *)
Inductive simon_cipher := Simon128 (rk : list Z) | Simon192 (rk : list Z) | Simon256 (rk : list Z).
Definition simon_new (key : bytes) : res simon_cipher :=
  match length key with
  | 16 => Ok (Simon128 (fold_left (simon_ext 2) simon_z128 (ldw 8 key)))
  | 24 => Ok (Simon192 (fold_left (simon_ext 3) simon_z192 (ldw 8 key)))
  | 32 => Ok (Simon256 (fold_left simon_ext256 simon_z256 (ldw 8 key)))
  | _ => Err
  end.
(** the loop bodies simon128.go:71-76, 88-93: two rounds with the keys k1 and k2 *)
Definition simon_two (s : Z * Z) (k1 k2 : Z) : Z * Z :=
  let '(x, y) := s in
  let y := Z.lxor y (simon_f x) in let y := Z.lxor y k1 in
  let x := Z.lxor x (simon_f y) in let x := Z.lxor x k2 in (x, y).
Definition simon_up (rk : list Z) (s : Z * Z) (i : nat) := simon_two s rk.[i] rk.[i + 1].
Definition simon_down (rk : list Z) (s : Z * Z) (i : nat) := simon_two s rk.[i] rk.[i - 1].
(** simon128.go:64-80 with n = 34, simon256.go:64-80 with n = 36 *)
Definition simon_enc (n : nat) (rk pt : list Z) : list Z :=
  let '(x, y) := fold_left (simon_up rk) (ups 0 n 2) (pt.[1], pt.[0]) in [y; x].
(** simon128.go:82-97 (i = 67, 65, .., 1), simon256.go:82-97 (i = 71, .., 1) *)
Definition simon_dec (n : nat) (rk ct : list Z) : list Z :=
  let '(x, y) := fold_left (simon_down rk) (downs (2 * n - 1) n 2) (ct.[0], ct.[1]) in [x; y].
(** simon192.go:64-83 *)
Definition simon_enc192 (rk pt : list Z) : list Z :=
  let '(x, y) := fold_left (simon_up rk) (ups 0 34 2) (pt.[1], pt.[0]) in
  let y := Z.lxor y (simon_f x) in let y := Z.lxor y rk.[68] in [x; y].
(** simon192.go:85-104 (i = 68, 66, .., 2) *)
Definition simon_dec192 (rk ct : list Z) : list Z :=
  let '(x, y) := fold_left (simon_down rk) (downs 68 34 2) (ct.[0], ct.[1]) in
  let y := Z.lxor y (simon_f x) in let y := Z.lxor y rk.[0] in [y; x].
Definition simon_cph (c : simon_cipher) : cipher :=
  match c with
  | Simon128 rk => word_cipher 8 2 (simon_enc 34 rk) (simon_dec 34 rk)
  | Simon192 rk => word_cipher 8 2 (simon_enc192 rk) (simon_dec192 rk)
  | Simon256 rk => word_cipher 8 2 (simon_enc 36 rk) (simon_dec 36 rk)
  end.
(** simon128.go:33-62 and the same lines of simon192.go and simon256.go *)
Definition simon_encrypt (c : simon_cipher) := blk_call 16 (enc (simon_cph c)).
Definition simon_decrypt (c : simon_cipher) := blk_call 16 (dec (simon_cph c)).

(** lea/utils.go:8-11 *)
Definition lea_delta : list Z :=
  [0xc3efe9db; 0x44626b02; 0x79e27c8a; 0x78df30ec; 0x715ea49e; 0xc785da0a; 0xe04ef22a; 0xe5c40957]%Z.
(** lea/utils.go:69-98: one assignment T[j] = rol(T[j] + rol(delta[d], i + c), r) *)
Definition lea_t (d i : nat) (T : list Z) (jcr : nat * (nat * Z)) : list Z :=
  let '(j, (c, r)) := jcr in upd j (rotl 32 r (wadd 32 T.[j] (rotl 32 (Z.of_nat (i + c)) lea_delta.[d]))) T.
(** lea/utils.go:69-98: the body of the loop, with the row of round keys it stores *)
Definition lea_row (klen : nat) (st : list Z * list (list Z)) (i : nat) : list Z * list (list Z) :=
  let '(T, RK) := st in
  match klen with
  | 16 =>
    let T := fold_left (lea_t (i mod 4) i) [(0, (0, 1%Z)); (1, (1, 3%Z)); (2, (2, 6%Z)); (3, (3, 11%Z))] T in
    (T, RK ++ [[T.[0]; T.[1]; T.[2]; T.[1]; T.[3]; T.[1]]])
  | 24 =>
    let T := fold_left (lea_t (i mod 6) i) [(0, (0, 1%Z)); (1, (1, 3%Z)); (2, (2, 6%Z)); (3, (3, 11%Z)); (4, (4, 13%Z)); (5, (5, 17%Z))] T in
    (T, RK ++ [[T.[0]; T.[1]; T.[2]; T.[3]; T.[4]; T.[5]]])
  | _ =>
    let p k := (6 * i + k) mod 8 in
    let T := fold_left (lea_t (i mod 8) i) [(p 0, (0, 1%Z)); (p 1, (1, 3%Z)); (p 2, (2, 6%Z)); (p 3, (3, 11%Z)); (p 4, (4, 13%Z)); (p 5, (5, 17%Z))] T in
    (T, RK ++ [[T.[p 0]; T.[p 1]; T.[p 2]; T.[p 3]; T.[p 4]; T.[p 5]]])
  end.
(** lea/utils.go:36-103: the rows in the order of generation; when decrypting they are stored in reverse *)
Definition lea_round_key (key : bytes) (is_encrypt : bool) : list (list Z) :=
  let nr := match length key with 16 => 24 | 24 => 28 | _ => 32 end in
  let rk := snd (fold_left (lea_row (length key)) (seq 0 nr) (ldw 4 key, [])) in
  if is_encrypt then rk else rev rk.
(** lea.go:27-40, 90-94: NewCipher; the value is (erk, drk) *)
Definition lea_new (key : bytes) : res (list (list Z) * list (list Z)) :=
  match length key with
  | 16 | 24 | 32 => Ok (lea_round_key key true, lea_round_key key false)
  | _ => Err
  end.
(** lea/utils.go:106-112 *)
Definition lea_enc_round (x rk : list Z) : list Z :=
  [ rotl 32 9 (wadd 32 (Z.lxor x.[0] rk.[0]) (Z.lxor x.[1] rk.[1]));
    rotr 32 5 (wadd 32 (Z.lxor x.[1] rk.[2]) (Z.lxor x.[2] rk.[3]));
    rotr 32 3 (wadd 32 (Z.lxor x.[2] rk.[4]) (Z.lxor x.[3] rk.[5]));
    x.[0] ].
(** lea/utils.go:115-121 *)
Definition lea_dec_round (x rk : list Z) : list Z :=
  let t0 := x.[3] in
  let t1 := Z.lxor (wsub 32 (rotr 32 9 x.[0]) (Z.lxor t0 rk.[0])) rk.[1] in
  let t2 := Z.lxor (wsub 32 (rotl 32 5 x.[1]) (Z.lxor t1 rk.[2])) rk.[3] in
  let t3 := Z.lxor (wsub 32 (rotl 32 3 x.[2]) (Z.lxor t2 rk.[4])) rk.[5] in
  [t0; t1; t2; t3].
(** lea/utils.go:128-154, lea.go:78-88 *)
Definition lea_cph (c : list (list Z) * list (list Z)) : cipher :=
  word_cipher 4 4 (fun x => fold_left lea_enc_round (fst c) x) (fun x => fold_left lea_dec_round (snd c) x).
(** lea.go:46-76 *)
Definition lea_encrypt c := blk_call 16 (enc (lea_cph c)).
Definition lea_decrypt c := blk_call 16 (dec (lea_cph c)).

(** Threefish: the sizes, the rotation rows of Encrypt and Decrypt in the order they are applied, and the
    simultaneous assignments of g and d as index lists (out[i] = in[p[i]]) *)
Record tf_params := {
  tf_words : nat; tf_iter : nat; tf_rows : list (list Z); tf_drows : list (list Z); tf_p : list nat; tf_q : list nat }.
(** threefish256.go:46-116, 142-165 *)
Definition tf256 : tf_params := {|
  tf_words := 4; tf_iter := 9;
  tf_rows := [[14; 16]; [52; 57]; [23; 40]; [5; 37]; [25; 33]; [46; 12]; [58; 22]; [32; 32]]%Z;
  tf_drows := [[32; 32]; [22; 58]; [12; 46]; [33; 25]; [37; 5]; [40; 23]; [57; 52]; [16; 14]]%Z;
  tf_p := [0; 3; 2; 1]; tf_q := [0; 3; 2; 1] |}.
(** threefish512.go:46-118, 152-177 *)
Definition tf512 : tf_params := {|
  tf_words := 8; tf_iter := 9;
  tf_rows := [[46; 36; 19; 37]; [33; 27; 14; 42]; [17; 49; 36; 39]; [44; 9; 54; 56];
              [39; 30; 34; 24]; [13; 50; 10; 17]; [25; 29; 39; 43]; [8; 35; 56; 22]]%Z;
  tf_drows := [[22; 56; 35; 8]; [43; 39; 29; 25]; [17; 10; 50; 13]; [24; 34; 30; 39];
               [56; 54; 9; 44]; [39; 36; 49; 17]; [42; 14; 27; 33]; [37; 19; 36; 46]]%Z;
  tf_p := [2; 1; 4; 7; 6; 5; 0; 3]; tf_q := [6; 1; 0; 7; 2; 5; 4; 3] |}.
(** threefish1024.go:46-125, 159-180 *)
Definition tf1024 : tf_params := {|
  tf_words := 16; tf_iter := 10;
  tf_rows := [[24; 13; 8; 47; 8; 17; 22; 37]; [38; 19; 10; 55; 49; 18; 23; 52]; [33; 4; 51; 13; 34; 41; 59; 17]; [5; 20; 48; 41; 47; 28; 16; 25];
              [41; 9; 37; 31; 12; 47; 44; 30]; [16; 34; 56; 51; 4; 53; 42; 41]; [31; 44; 47; 46; 19; 42; 44; 25]; [9; 48; 35; 52; 23; 31; 37; 20]]%Z;
  tf_drows := [[20; 37; 31; 23; 52; 35; 48; 9]; [25; 44; 42; 19; 46; 47; 44; 31]; [41; 42; 53; 4; 51; 56; 34; 16]; [30; 44; 47; 12; 31; 37; 9; 41];
               [25; 16; 28; 47; 41; 48; 20; 5]; [17; 59; 41; 34; 13; 51; 4; 33]; [52; 23; 18; 49; 55; 10; 19; 38]; [37; 22; 17; 8; 47; 8; 13; 24]]%Z;
  tf_p := [0; 9; 2; 13; 6; 11; 4; 15; 10; 7; 12; 3; 14; 5; 8; 1];
  tf_q := [0; 15; 2; 11; 6; 13; 4; 9; 14; 1; 8; 5; 10; 3; 12; 7] |}.
(** threefish.go:30 *)
Definition tf_c240 : Z := 0x1bd11bdaa9fc1a22.
(** threefish/utils.go:51-62 *)
Definition tf_tweak (tweak : bytes) : list Z :=
  let t := ldw 8 tweak in t ++ [Z.lxor t.[0] t.[1]].
(** threefish256.go:118-149 and the same lines of the other sizes: row s of the key schedule *)
Definition tf_ks_row (n : nat) (k t : list Z) (s : nat) : list Z :=
  map (fun i =>
    let v := k.[(s + i) mod (n + 1)] in
    if i =? n - 3 then wadd 64 v t.[s mod 3]
    else if i =? n - 2 then wadd 64 v t.[(s + 1) mod 3]
    else if i =? n - 1 then wadd 64 v (Z.of_nat s) else v) (seq 0 n).
Definition tf_expand (p : tf_params) (key tweak : bytes) : list (list Z) :=
  let k := ldw 8 key in let k := k ++ [fold_left Z.lxor k tf_c240] in
  map (tf_ks_row (tf_words p) k (tf_tweak tweak)) (seq 0 (2 * tf_iter p + 1)).
(** threefish.go:51-63: NewCipher; threefish256.go:25-39 *)
Definition tf_new (key tweak : bytes) : res (tf_params * list (list Z)) :=
  let build p := if length tweak =? 16 then Ok (p, tf_expand p key tweak) else Err in
  match length key with
  | 32 => build tf256
  | 64 => build tf512
  | 128 => build tf1024
  | _ => Err
  end.
(** threefish256.go:151-159: g *)
Fixpoint tf_mix (ns ws : list Z) : list Z :=
  match ns, ws with
  | n :: ns, a :: b :: ws => let a := wadd 64 a b in a :: Z.lxor (rotl 64 n b) a :: tf_mix ns ws
  | _, _ => ws
  end.
Definition tf_perm (p : list nat) (ws : list Z) : list Z := map (fun i => ws.[i]) p.
Definition tf_g (p : tf_params) (ws ns : list Z) : list Z := tf_perm (tf_p p) (tf_mix ns ws).
(** threefish256.go:161-169: d; the argument list is reversed into n *)
Fixpoint tf_unmix (ns ws : list Z) : list Z :=
  match ns, ws with
  | n :: ns, a :: b :: ws => let b := rotr 64 n (Z.lxor b a) in wsub 64 a b :: b :: tf_unmix ns ws
  | _, _ => ws
  end.
Definition tf_d (p : tf_params) (ws args : list Z) : list Z := tf_unmix (rev args) (tf_perm (tf_q p) ws).
Fixpoint zipw (f : Z -> Z -> Z) (a b : list Z) : list Z :=
  match a, b with x :: a, y :: b => f x y :: zipw f a b | _, _ => [] end.
Definition tf_add (k ws : list Z) : list Z := zipw (wadd 64) ws k.
Definition tf_sub (k ws : list Z) : list Z := zipw (wsub 64) ws k.
(** threefish256.go:51-73: eight rounds, j = d / 8 *)
Definition tf_up (p : tf_params) (ks : list (list Z)) (ws : list Z) (j : nat) : list Z :=
  let ws := tf_add (nth (2 * j) ks []) ws in
  let ws := fold_left (tf_g p) (firstn 4 (tf_rows p)) ws in
  let ws := tf_add (nth (2 * j + 1) ks []) ws in
  fold_left (tf_g p) (skipn 4 (tf_rows p)) ws.
(** threefish256.go:95-117: j = d / 8, so that d/4 = 2j+1 *)
Definition tf_down (p : tf_params) (ks : list (list Z)) (ws : list Z) (j : nat) : list Z :=
  let ws := fold_left (tf_d p) (firstn 4 (tf_drows p)) ws in
  let ws := tf_sub (nth (2 * j + 1) ks []) ws in
  let ws := fold_left (tf_d p) (skipn 4 (tf_drows p)) ws in
  tf_sub (nth (2 * j) ks []) ws.
Definition tf_enc (p : tf_params) (ks : list (list Z)) (ws : list Z) : list Z :=
  tf_add (nth (2 * tf_iter p) ks []) (fold_left (tf_up p ks) (ups 0 (tf_iter p) 1) ws).
Definition tf_dec (p : tf_params) (ks : list (list Z)) (ws : list Z) : list Z :=
  fold_left (tf_down p ks) (downs (tf_iter p - 1) (tf_iter p) 1) (tf_sub (nth (2 * tf_iter p) ks []) ws).
(** Encrypt and Decrypt (threefish256.go:46-83, 86-124): no length check. Every whole word of src is loaded, the
    first tf_words of them are transformed (an index panic if there are fewer), all of them are stored and copied
    to dst. *)
Definition tf_call (p : tf_params) (f : list Z -> list Z) (dst src : bytes) : res bytes :=
  let ws := ldw 8 (firstn (8 * (length src / 8)) src) in
  if length ws <? tf_words p then Panic
  else Ok (gocopy dst (stw 8 (f (firstn (tf_words p) ws) ++ skipn (tf_words p) ws))).
Definition tf_encrypt (c : tf_params * list (list Z)) := tf_call (fst c) (tf_enc (fst c) (snd c)).
Definition tf_decrypt (c : tf_params * list (list Z)) := tf_call (fst c) (tf_dec (fst c) (snd c)).
