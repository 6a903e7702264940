(** Model of cipher/enigma (NewCipherWithSeed, XORKeyStream) and cipher/spritz and cipher/wake. *)
From Verif Require Import Base BlockModeModel WordModel.
Set Implicit Arguments. Unset Strict Implicit.
Local Open Scope nat_scope.

(** * cipher/enigma *)
(** int32 and int8 *)
Definition i32 (z : Z) : Z := ((z + 2 ^ 31) mod 2 ^ 32 - 2 ^ 31)%Z.
Definition i8 (z : Z) : Z := ((z + 128) mod 256 - 128)%Z.

(** enigma.go:128-131: the first seed. (The key bytes are int8 here, so signed.) *)
Definition en_seed (key : bytes) (seed : Z) : Z :=
  fold_left (fun s i => i32 (s * i8 key.[i] + Z.of_nat i)) (seq 0 13) seed.
(** Simplification: the code's tables hold int8; they are always read modulo 256 or compared with 0, so the model
    holds them modulo 256. deck, nr1 and the seed are only used by shuffle, which is not reached (secureflg is 0). *)
(** enigma.go:150-157 the swap of t1[k] and t1[ic] *)
Definition swap (k ic : nat) (t : list Z) : list Z := upd ic t.[k] (upd k t.[ic] t).
(** enigma.go:164-166 the loop looking for a free ic; after k <= fuel unsuccessful tests it would go on for ever: None *)
Fixpoint en_search (fuel : nat) (t3 : list Z) (k ic : nat) : option nat :=
  match fuel with
  | O => None
  | S fuel => if (t3.[ic] =? 0)%Z then Some ic else en_search fuel t3 k ((ic + 1) mod k)
  end.
(** enigma.go:138-170 one turn; both the division by k = 0 and an endless search are Panic *)
Definition en_turn (key : bytes) (i : nat) (st : Z * list Z * list Z) : res (Z * list Z * list Z) :=
  let '(seed, t1, t3) := st in
  let seed := i32 (5 * seed + i8 key.[i mod 13])%Z in
  let random := (Z.rem seed 65521 mod 2 ^ 32)%Z in
  let k := 255 - i in
  let ic := Z.to_nat (random mod 256) mod (k + 1) in
  let random := Z.shiftr random 8 in
  let t1 := swap k ic t1 in
  if negb (t3.[k] =? 0)%Z then Ok (seed, t1, t3) else
  if k =? 0 then Panic else
  match en_search 256 t3 k (Z.to_nat (random mod 256) mod k) with
  | None => Panic
  | Some ic => Ok (seed, t1, upd ic (Z.of_nat k) (upd k (Z.of_nat ic) t3))
  end.
Fixpoint en_turns (key : bytes) (is : list nat) (st : Z * list Z * list Z) : res (Z * list Z * list Z) :=
  match is with
  | [] => Ok st
  | i :: r => rbind (en_turn key i st) (en_turns key r)
  end.
(** enigma.go:172-174 *)
Definition en_invert (t1 : list Z) : list Z :=
  fold_left (fun t2 i => upd (Z.to_nat t1.[i]) (Z.of_nat i) t2) (seq 0 256) (repeat 0%Z 256).
(** enigma.go:24-36 *)
Record enigma := Enigma { en_t1 : list Z; en_t2 : list Z; en_t3 : list Z; en_n1 : nat; en_n2 : nat; en_nr2 : nat }.
(** enigma.go:45-62, 114-175 NewCipherWithSeed, expandKey *)
Definition enigma_new (key : bytes) (seed : Z) : res enigma :=
  if negb (length key =? 13) then Err else
  rbind (en_turns key (seq 0 256) (en_seed key seed, map Z.of_nat (seq 0 256), repeat 0%Z 256)) (fun '(_, t1, t3) =>
  Ok (Enigma t1 (en_invert t1) t3 0 0 0)).
(** x & MASK, as an index *)
Definition idx (z : Z) : nat := Z.to_nat (z mod 256).
(** enigma.go:80-108 one byte *)
Definition en_byte (c : enigma) (x : Z) : enigma * Z :=
  let nr1 := Z.of_nat (en_n1 c) in
  let nr2 := Z.of_nat (en_nr2 c) in
  let kk := (en_t1 c).[idx (x + nr1)] in
  let kk := (en_t3 c).[idx (kk + nr2)] in
  let kk := (en_t2 c).[idx (kk - nr2)] in
  let y := to_byte (kk - nr1) in
  let n1 := S (en_n1 c) in
  if n1 =? 256 then
    let n2 := S (en_n2 c) in
    let n2 := if n2 =? 256 then 0 else n2 in
    (Enigma (en_t1 c) (en_t2 c) (en_t3 c) 0 n2 n2, y)
  else (Enigma (en_t1 c) (en_t2 c) (en_t3 c) n1 (en_n2 c) (en_nr2 c), y).
Fixpoint en_bytes (c : enigma) (l : bytes) : enigma * bytes :=
  match l with
  | [] => (c, [])
  | x :: r => let '(c, y) := en_byte c x in let '(c, o) := en_bytes c r in (c, y :: o)
  end.
(** enigma.go:64-112 XORKeyStream on (dst, src); a copy of src is worked on, so dst may be src *)
Definition en_call (c : enigma) (x : bytes * bytes) : res (enigma * bytes) :=
  if length (fst x) <? length (snd x) then Panic else Ok (en_bytes c (snd x)).

(** * cipher/spritz *)
(** spritz.go:29-34; iv = None is a nil iv *)
Record spritz := Spritz { sp_i : Z; sp_j : Z; sp_k : Z; sp_z : Z; sp_a : nat; sp_w : Z; sp_s : list Z; sp_iv : option bytes }.
(** spritz.go:131-137 initializeState on a zero object *)
Definition sp_zero (iv : option bytes) : spritz := Spritz 0 0 0 0 0 1 (map Z.of_nat (seq 0 256)) iv.
(** spritz.go:229-234 update *)
Definition sp_update (c : spritz) : spritz :=
  let s := sp_s c in
  let i := to_byte (sp_i c + sp_w c) in
  let j := to_byte (sp_k c + s.[idx (sp_j c + s.[idx i])]) in
  let k := to_byte (i + sp_k c + s.[idx j]) in
  Spritz i j k (sp_z c) (sp_a c) (sp_w c) (swap (idx i) (idx j) s) (sp_iv c).
(** spritz.go:183-189 whip *)
Definition sp_whip (r : nat) (c : spritz) : spritz :=
  let c := Nat.iter r sp_update c in
  Spritz (sp_i c) (sp_j c) (sp_k c) (sp_z c) (sp_a c) (to_byte (sp_w c + 2)) (sp_s c) (sp_iv c).
(** spritz.go:191-198 crush *)
Definition sp_crush_step (s : list Z) (v : nat) : list Z := if (s.[255 - v] <? s.[v])%Z then swap v (255 - v) s else s.
Definition sp_crush (c : spritz) : spritz :=
  Spritz (sp_i c) (sp_j c) (sp_k c) (sp_z c) (sp_a c) (sp_w c) (fold_left sp_crush_step (seq 0 128) (sp_s c)) (sp_iv c).
(** spritz.go:174-181 shuffle, with r = 2 N = 512 updates in each whip *)
Definition sp_shuffle_n (r : nat) (c : spritz) : spritz :=
  let c := sp_whip r (sp_crush (sp_whip r (sp_crush (sp_whip r c)))) in
  Spritz (sp_i c) (sp_j c) (sp_k c) (sp_z c) 0 (sp_w c) (sp_s c) (sp_iv c).
Definition sp_shuffle (c : spritz) : spritz := sp_shuffle_n 512 c.
Definition sp_full (c : spritz) : spritz := if sp_a c =? 128 then sp_shuffle c else c.
Definition sp_set (c : spritz) (a : nat) (s : list Z) : spritz := Spritz (sp_i c) (sp_j c) (sp_k c) (sp_z c) a (sp_w c) s (sp_iv c).
(** spritz.go:150-158 absorbNibble *)
Definition sp_nibble (c : spritz) (x : Z) : spritz :=
  let c := sp_full c in sp_set c (S (sp_a c)) (swap (sp_a c) (128 + Z.to_nat x) (sp_s c)).
(** spritz.go:139-148 absorb, absorbByte *)
Definition sp_absorb (c : spritz) (d : bytes) : spritz :=
  fold_left (fun c b => sp_nibble (sp_nibble c (Z.land b 0x0f)) (Z.shiftr (Z.land b 0xf0) 4)) d c.
(** spritz.go:160-167 absorbStop *)
Definition sp_stop (c : spritz) : spritz := let c := sp_full c in sp_set c (S (sp_a c)) (sp_s c).
(** spritz.go:215-223, 236-239 drip, output; squeeze 200-213 *)
Definition sp_drip (c : spritz) : spritz * Z :=
  let c := if 0 <? sp_a c then sp_shuffle c else c in
  let c := sp_update c in
  let s := sp_s c in
  let z := s.[idx (sp_j c + s.[idx (sp_i c + s.[idx (sp_z c + sp_k c)])])] in
  (Spritz (sp_i c) (sp_j c) (sp_k c) z (sp_a c) (sp_w c) s (sp_iv c), z).
Fixpoint sp_drips (n : nat) (c : spritz) : spritz * bytes :=
  match n with
  | O => (c, [])
  | S n => let '(c, z) := sp_drip c in let '(c, o) := sp_drips n c in (c, z :: o)
  end.
Definition sp_squeeze (n : nat) (c : spritz) : spritz * bytes := sp_drips n (if 0 <? sp_a c then sp_shuffle c else c).
(** spritz.go:36-59, 241-244 NewCipher (None), NewCipherWithIV *)
Definition spritz_new (key : bytes) (iv : option bytes) : res spritz :=
  if length key =? 0 then Err else Ok (sp_absorb (sp_zero iv) key).
(** spritz.go:95-129 *)
Definition sp_ready (c : spritz) : spritz := match sp_iv c with None => c | Some iv => sp_absorb (sp_stop c) iv end.
(** spritz.go:65-129 Encrypt and Decrypt on (dst, src) *)
Definition sp_enc_call (c : spritz) (x : bytes * bytes) : res (spritz * bytes) :=
  if length (fst x) <? length (snd x) then Panic else
  let '(c, ks) := sp_squeeze (length (snd x)) (sp_ready c) in
  Ok (c, map (fun p => to_byte (fst p + snd p)) (combine (snd x) ks)).
Definition sp_dec_call (c : spritz) (x : bytes * bytes) : res (spritz * bytes) :=
  if length (fst x) <? length (snd x) then Panic else
  let '(c, ks) := sp_squeeze (length (snd x)) (sp_ready c) in
  Ok (c, map (fun p => to_byte (fst p - snd p)) (combine (snd x) ks)).
(** hash.go:3-15 Hash *)
Definition spritz_hash (m : bytes) (r : Z) : bytes :=
  snd (sp_squeeze (Z.to_nat r) (sp_absorb (sp_stop (sp_absorb (sp_zero None) m)) [r])).

(** * cipher/wake *)
(** wake.go:155-164 *)
Definition wk_tt : list Z := [0x726a8f3b; 0xe69a3b5c; 0xd3c71fe5; 0xab3c73d2; 0x4d3a8eb3; 0x0396d6e8; 0x3d4c2f7a; 0x9ee27cf3; 0; 0]%Z.
Definition w32 (z : Z) : Z := (z mod 2 ^ 32)%Z.
(** wake.go:166-229 expandKey: the table t of 257 words *)
Definition wk_fill (t : list Z) (p : nat) : list Z :=
  let x := w32 (t.[p - 4] + t.[p - 1]) in upd p (Z.lxor (Z.shiftr x 3) wk_tt.[Z.to_nat (Z.land x 7)]) t.
Definition wk_add (t : list Z) (p : nat) : list Z := upd p (w32 (t.[p] + t.[p + 89])) t.
Definition wk_top (z : Z) (xt : Z * list Z) (p : nat) : Z * list Z :=
  let x := w32 (Z.land (fst xt) 0xff7fffff + z) in (x, upd p (Z.lxor (Z.land (snd xt).[p] 0x00ffffff) x) (snd xt)).
Definition wk_mix (xt : Z * list Z) (p : nat) : Z * list Z :=
  let t := snd xt in
  let x := Z.land (Z.lxor t.[Z.to_nat (Z.lxor (Z.of_nat p) (fst xt))] (fst xt)) 0xff in
  let t := upd p t.[Z.to_nat x] t in
  (x, upd (Z.to_nat x) t.[p + 1] t).
Definition wk_table (k : list Z) : list Z :=
  let t := fold_left wk_fill (seq 4 252) (k ++ repeat 0%Z 253) in
  let t := fold_left wk_add (seq 0 23) t in
  let z := Z.land (Z.lor t.[59] 0x01000001) 0xff7fffff in
  let '(x, t) := fold_left (wk_top z) (seq 0 256) (t.[33], t) in
  let t := upd 256 t.[0] t in
  snd (fold_left wk_mix (seq 0 256) (Z.land x 0xff, t)).
(** wake.go:20-24 *)
Record wake := Wake { wk_t : list Z; wk_r : list Z; wk_n : nat }.
(** wake/utils.go:7-16 bytesToUint32s; wake.go:30-43 NewCipher *)
Definition wake_new (key : bytes) : res wake :=
  if negb (length key =? 16) then Err else
  let k := map be_val (chunks 4 key) in Ok (Wake (wk_table k) k 0).
(** wake.go:231-237 M *)
Definition wk_m (t : list Z) (x y : Z) : Z :=
  let tmp := w32 (x + y) in Z.lxor (Z.land (Z.shiftr tmp 8) 0x00ffffff) t.[Z.to_nat (Z.land tmp 0xff)].
Definition wk_next (t : list Z) (r : list Z) (v : Z) : list Z :=
  let r3 := wk_m t r.[0] v in let r4 := wk_m t r.[1] r3 in let r5 := wk_m t r.[2] r4 in let r6 := wk_m t r.[3] r5 in [r3; r4; r5; r6].
(** wake.go:70-112 encrypt and 114-153 decrypt: the loop over the input; w is r2 (encrypt) or r1 (decrypt), which
    takes the ciphertext byte. (The loop counter is an int32: inputs shorter than 2^31 bytes.) *)
Fixpoint wk_loop (decr : bool) (t : list Z) (w : Z) (r : list Z) (n : nat) (l : bytes) : list Z * nat * bytes :=
  match l with
  | [] => (r, n, [])
  | x :: l =>
      let y := Z.lxor x (be_bytes 4 r.[3]).[n] in
      let w := be_val (upd n (if decr then x else y) (be_bytes 4 w)) in
      let '(r, n) := if S n =? 4 then (wk_next t r w, 0) else (r, S n) in
      let '(r, n, o) := wk_loop decr t w r n l in (r, n, y :: o)
  end.
(** wake.go:49-68 Encrypt, Decrypt on (dst, src); the local r2 / r1 starts as 0 *)
Definition wk_call (decr : bool) (c : wake) (x : bytes * bytes) : res (wake * bytes) :=
  if length (fst x) <? length (snd x) then Panic else
  let '(r, n, o) := wk_loop decr (wk_t c) 0 (wk_r c) (wk_n c) (snd x) in Ok (Wake (wk_t c) r n, o).
