(** Model of /repo/hash/belt and /repo/hash/bash. *)
From Verif Require Import Base WordModel HbufModel BeltModel.
Set Implicit Arguments. Unset Strict Implicit.
Local Open Scope nat_scope.

(** * BELT hash *)
(** belt/sbox.go:33-38: iv, as bytes (uint64sToBytes is little endian) *)
Definition bh_iv : bytes :=
  stw 8 [4320368259942225073; 16455390357681630518; 12450119924619805829; 995010755989483045]%Z.
(** utils.go:196-222: h0 xor h1, and the value that is xored into (or becomes) s *)
Definition bh_u (h : bytes) : bytes := xorl (slice 0 16 h) (slice 16 16 h).
Definition bh_sigma1 (x h : bytes) : bytes := xorl (hbelt_encrypt x (bh_u h)) (bh_u h).
(** utils.go:224-265 *)
Definition bh_sigma2 (x h : bytes) : bytes :=
  let t := bh_sigma1 x h in
  xorl (hbelt_encrypt (t ++ slice 16 16 h) (slice 0 16 x)) (slice 0 16 x) ++
  xorl (hbelt_encrypt (map (fun b => Z.lxor b 255) t ++ slice 0 16 h) (slice 16 16 x)) (slice 16 16 x).
(** digest.go:115-135: the first half of s is a 128-bit counter of bits *)
Definition bh_ctr (s : bytes) (n : nat) : bytes :=
  let a0 := le_val (slice 0 8 s) in
  let a1 := le_val (slice 8 8 s) in
  let b := wshl 64 (Z.of_nat n) 3 in
  let c := wadd 64 a0 b in
  le_bytes 8 c ++ le_bytes 8 (if (c <? b)%Z then wadd 64 a1 1 else a1) ++ skipn 16 s.
(** digest.go:106-113 and utils.go:267-271; the state is s and h *)
Definition bh_process (st : bytes * bytes) (x : bytes) : bytes * bytes :=
  let '(s, h) := st in (firstn 16 s ++ xorl (skipn 16 s) (bh_sigma1 x h), bh_sigma2 x h).
(** digest.go:98-104 *)
Definition bh_block (st : bytes * bytes) (x : bytes) : bytes * bytes := bh_process (bh_ctr (fst st) 32, snd st) x.
Notation bh_st := (bufst (bytes * bytes)).
(** digest.go:22-36 *)
Definition bh_new : bh_st := Buf (repeat 0%Z 32, bh_iv) (repeat 0%Z 32) 0 0.
Definition bh_reset (_ : bh_st) : bh_st := bh_new.
(** digest.go:46-69 *)
Definition bh_write : bh_st -> bytes -> bh_st := bwrite bh_block 32.
(** digest.go:78-96 *)
Definition bh_checksum (d : bh_st) : bytes :=
  let st := if negb (b_nx d =? 0)
            then bh_process (bh_ctr (fst (b_s d)) (b_nx d), snd (b_s d)) (copyat (b_nx d) (repeat 0%Z 32) (b_x d))
            else b_s d in
  bh_sigma2 (fst st) (snd st).
(** digest.go:71-76, on a copy *)
Definition bh_sum (d : bh_st) (inp : bytes) : res bytes := Ok (inp ++ bh_checksum d).
(** belt.go: Sum *)
Definition bh_oneshot (data : bytes) : res bytes := bh_sum (bh_write bh_new data) [].

(** * Bash *)
(** bash/sbox.go *)
Definition bash_rc : list Z :=
  [4320368259942225073; 13966055640607331062; 6983027820303665531; 17032535718830783507; 12250984945537189543; 9883711689555401725; 11006549189999555920; 5503274594999777960; 2751637297499888980; 1375818648749944490; 687909324374972245; 15631459291610125060; 7815729645805062530; 3907864822902531265; 14354699020864850638; 7177349510432425319;
   17142504705318181405; 12310823791614309792; 6155411895807154896; 3077705947903577448; 1538852973951788724; 769426486975894362; 384713243487947181; 16032958492346072184]%Z.
Definition bash_rot : list (list Z) :=
  [[8; 53; 14; 1];
  [56; 51; 34; 7];
  [8; 37; 46; 49];
  [56; 3; 2; 23];
  [8; 21; 14; 33];
  [56; 19; 34; 39];
  [8; 5; 46; 17];
  [56; 35; 2; 55]]%Z.
(** utils.go:47-57 *)
Definition bash_rothi (x y : Z) : Z := if (y <? 64)%Z && (0 <? y)%Z then Z.lor (wshl 64 x y) (Z.shiftr x (64 - y)) else x.
(** utils.go:59-74 *)
Definition bash_ls (w0 w1 w2 m1 n1 m2 n2 : Z) : Z * Z * Z :=
  let t0 := bash_rothi w0 m1 in
  let w0 := Z.lxor (Z.lxor w0 w1) w2 in
  let t1 := Z.lxor w1 (bash_rothi w0 n1) in
  let w1 := Z.lxor t0 t1 in
  let w2 := Z.lxor (Z.lxor w2 (bash_rothi w2 m2)) (bash_rothi t1 n2) in
  let t0 := wnot 64 w2 in
  let t1 := Z.lor w0 w2 in
  let t2 := Z.land w0 w1 in
  let t0 := Z.lor t0 w1 in
  (Z.lxor w0 t0, Z.lxor w1 t1, Z.lxor w2 t2).
(** utils.go:76-88 *)
Definition bash_perm : list nat := [15; 10; 9; 12; 11; 14; 13; 8; 17; 16; 19; 18; 21; 20; 23; 22; 6; 3; 0; 5; 2; 7; 4; 1].
(** utils.go:90-94 *)
Definition bash_swap (a : Z) : Z :=
  Z.lor (Z.lor (Z.lor (Z.lor (Z.lor (Z.lor (Z.lor (wshl 64 a 56) (wshl 64 (Z.land a 65280) 40)) (wshl 64 (Z.land a 16711680) 24))
    (wshl 64 (Z.land a 4278190080) 8)) (Z.land (Z.shiftr a 8) 4278190080)) (Z.land (Z.shiftr a 24) 16711680))
    (Z.land (Z.shiftr a 40) 65280)) (Z.shiftr a 56).
(** utils.go:106-119 *)
Definition bash_round (s : list Z) (r : nat) : list Z :=
  let s := fold_left (fun s v =>
    let m := nth v bash_rot [] in
    let '(w0, w1, w2) := bash_ls s.[v] s.[v + 8] s.[v + 16] m.[0] m.[1] m.[2] m.[3] in
    upd (v + 16) w2 (upd (v + 8) w1 (upd v w0 s))) (seq 0 8) s in
  let s := map (fun i => s.[i]) bash_perm in
  upd 23 (Z.lxor s.[23] bash_rc.[r]) s.
(** utils.go:96-127 with bigend = true *)
Definition bash_f (s : list Z) : list Z := map bash_swap (fold_left bash_round (seq 0 24) (map bash_swap s)).
(** digest.go:111-120: the whole buffer is xored into the state *)
Definition bash_block (s : list Z) (x : bytes) : list Z := bash_f (xorl s (ldw_be 8 x)).
Notation bash_st := (bufst (list Z)).
(** digest.go:37-39: the block size for a digest of hs bytes *)
Definition bash_bs (hs : nat) : nat := 192 - 2 * hs.
(** digest.go:46-57: byte(hs) at index 184 of the state written big endian *)
Definition bash_iv (hs : nat) : list Z := ldw_be 8 (repeat 0%Z 184 ++ [Z.of_nat hs] ++ repeat 0%Z 7).
Definition bash_init (hs : nat) : bash_st := Buf (bash_iv hs) (repeat 0%Z 192) 0 0.
Definition bash_reset (hs : nat) (_ : bash_st) : bash_st := bash_init hs.
(** digest.go:26-44: Go's % keeps the sign, so no negative size is refused; a digest is returned with
    hs = hashsize / 8 rounded towards zero *)
Definition bash_new (hashsize : Z) : res Z :=
  if (hashsize =? 0)%Z then Err
  else if (0 <? Z.rem hashsize 8)%Z then Err
  else if (512 <? hashsize)%Z then Err
  else Ok (Z.quot hashsize 8).
(** digest.go:67-90 *)
Definition bash_write (hs : nat) : bash_st -> bytes -> bash_st := bwrite bash_block (bash_bs hs).
(** digest.go:99-109 *)
Definition bash_checksum (hs : nat) (d : bash_st) : res bytes :=
  let x1 := copyat (b_nx d) (repeat 0%Z (bash_bs hs)) (b_x d) in
  if length x1 <=? b_nx d then Panic
  else Ok (firstn hs (stw_be 8 (bash_block (b_s d) (upd (b_nx d) 64%Z x1)))).
(** digest.go:92-97, on a copy *)
Definition bash_sum (hs : nat) (d : bash_st) (inp : bytes) : res bytes := rbind (bash_checksum hs d) (fun h => Ok (inp ++ h)).
(** bash.go: Sum224 and so on *)
Definition bash_oneshot (hs : nat) (data : bytes) : res bytes := bash_sum hs (bash_write hs (bash_init hs) data) [].
