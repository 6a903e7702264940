(** Model of /repo/cipher/grain: Grain-128AEAD (NewCipher, Seal, Open) and its keystream as a cipher.Stream
    (NewStreamCipher, XORKeyStream). Words are integers below 2^32 and 2^64. Buffers are either disjoint or exactly
    the same ([inplace]); the overlap test that panics otherwise is not modelled. *)
From Verif Require Import Base BlockModeModel WordModel.
Set Implicit Arguments. Unset Strict Implicit.
Local Open Scope nat_scope.

(** utils.go:90-96 lfsr: lo, hi *)
Definition greg : Type := Z * Z.
(** utils.go:105-110 shift *)
Definition gshift (r : greg) (x : Z) : greg :=
  (Z.lor (Z.shiftr (fst r) 32) (wshl 64 (snd r) 32), Z.lor (Z.shiftr (snd r) 32) (wshl 64 x 32)).
(** utils.go:113-118 xor *)
Definition gxor (r : greg) (x : Z) : greg :=
  let hi32 := Z.lxor (Z.shiftr (snd r) 32) x in
  (fst r, Z.lor (wshl 64 hi32 32) (Z.land (snd r) (2 ^ 32 - 1))).
(** utils.go:129-135 words *)
Definition gw1 (r : greg) : Z := Z.lor (Z.shiftr (fst r) 32) (wshl 64 (snd r) 32).
Definition gw3 (r : greg) : Z := Z.shiftr (snd r) 32.

(** grain.go:43-89; the key is kept beside *)
Record gst := Gst { g_l : greg; g_n : greg; g_acc : Z; g_reg : Z }.
(** grain.go:343-347 *)
Definition g_lin (l : greg) : Z :=
  let v := Z.lxor (fst l) (gw3 l) in
  let v := Z.lxor v (Z.shiftr (Z.lxor (gw1 l) (snd l)) 6) in
  let v := Z.lxor v (Z.shiftr (fst l) 7) in
  Z.lxor v (Z.shiftr (snd l) 17).
(** grain.go:351-365 *)
Definition g_nonlin (l n : greg) : Z :=
  let nn0 := fst n in let nn1 := gw1 n in let nn2 := snd n in let nn3 := gw3 n in
  let u := fst l in
  let u := Z.lxor u nn0 in
  let u := Z.lxor u (Z.shiftr nn0 26) in
  let u := Z.lxor u nn3 in
  let u := Z.lxor u (Z.shiftr nn1 24) in
  let u := Z.lxor u (Z.shiftr (Z.lxor (Z.land nn0 nn1) nn2) 27) in
  let u := Z.lxor u (Z.shiftr (Z.land nn0 nn2) 3) in
  let u := Z.lxor u (Z.land (Z.shiftr nn0 11) (Z.shiftr nn0 13)) in
  let u := Z.lxor u (Z.land (Z.shiftr nn0 17) (Z.shiftr nn0 18)) in
  let u := Z.lxor u (Z.land (Z.shiftr nn1 8) (Z.shiftr nn1 16)) in
  let u := Z.lxor u (Z.land (Z.shiftr nn1 29) (Z.shiftr nn2 1)) in
  let u := Z.lxor u (Z.land (Z.shiftr nn2 4) (Z.shiftr nn2 20)) in
  let u := Z.lxor u (Z.land (Z.land (Z.land (Z.shiftr nn2 24) (Z.shiftr nn2 28)) (Z.shiftr nn2 29)) (Z.shiftr nn2 31)) in
  let u := Z.lxor u (Z.land (Z.land (Z.shiftr nn0 22) (Z.shiftr nn0 24)) (Z.shiftr nn0 25)) in
  Z.lxor u (Z.land (Z.land (Z.shiftr nn2 6) (Z.shiftr nn2 14)) (Z.shiftr nn2 18)).
(** grain.go:368-380 *)
Definition g_pre (l n : greg) : Z :=
  let ln0 := fst l in let ln1 := gw1 l in let ln2 := snd l in
  let nn0 := fst n in let nn1 := gw1 n in let nn2 := snd n in
  let x := Z.shiftr nn0 2 in
  let x := Z.lxor x (Z.shiftr nn0 15) in
  let x := Z.lxor x (Z.shiftr nn1 4) in
  let x := Z.lxor x (Z.shiftr nn1 13) in
  let x := Z.lxor x nn2 in
  let x := Z.lxor x (Z.shiftr nn2 9) in
  let x := Z.lxor x (Z.shiftr nn2 25) in
  let x := Z.lxor x (Z.shiftr ln2 29) in
  let x := Z.lxor x (Z.land (Z.shiftr nn0 12) (Z.shiftr ln0 8)) in
  let x := Z.lxor x (Z.land (Z.shiftr ln0 13) (Z.shiftr ln0 20)) in
  let x := Z.lxor x (Z.land (Z.shiftr nn2 31) (Z.shiftr ln1 10)) in
  let x := Z.lxor x (Z.land (Z.shiftr ln1 28) (Z.shiftr ln2 15)) in
  Z.lxor x (Z.land (Z.land (Z.shiftr nn0 12) (Z.shiftr nn2 31)) (Z.shiftr ln2 30)).
(** grain.go:340-382 nextGeneric; utils.go:9-11 *)
Definition g_next (s : gst) : gst * Z :=
  let l := g_l s in let n := g_n s in
  (Gst (gshift l (g_lin l mod 2 ^ 32)) (gshift n (g_nonlin l n mod 2 ^ 32)) (g_acc s) (g_reg s),
   (g_pre l n mod 2 ^ 32)%Z).

(** utils.go:17-38 getmb and 40-60 getkb: x = (x ^ (x & m)) | (x & m) >> k *)
Definition squash (x m k : Z) : Z := Z.lor (Z.lxor x (Z.land x m)) (Z.shiftr (Z.land x m) k).
Definition getmb (w : Z) : Z :=
  let x := Z.land w 0xAAAAAAAA in
  let x := squash x 0x22222222 1 in
  let x := squash x 0x18181818 2 in
  let x := squash x 0x07800780 4 in
  let x := squash x 0x007f8000 8 in
  let x := squash x 0x80000000 16 in
  (x mod 2 ^ 16)%Z.
Definition getkb (w : Z) : Z :=
  let x := Z.land w 0x55555555 in
  let x := squash x 0x44444444 1 in
  let x := squash x 0x30303030 2 in
  let x := squash x 0x0f000f00 4 in
  let x := squash x 0x00ff0000 8 in
  (x mod 2 ^ 16)%Z.

(** grain.go:384-399 accumulateGeneric. The mask -uint64(pt&1) is all ones or zero. *)
Definition gmask (pt x : Z) : Z := if Z.odd pt then x else 0%Z.
Fixpoint acc_loop (n : nat) (reg acc regtmp acctmp pt : Z) : Z * Z * Z :=
  match n with
  | O => (reg, acc, acctmp)
  | S n => acc_loop n (Z.shiftr reg 1) (Z.lxor acc (gmask pt reg)) (Z.shiftr regtmp 1)
             (Z.lxor acctmp (gmask pt regtmp)) (Z.shiftr pt 1)
  end.
Definition accumulate (ms pt : Z) (s : gst) : gst :=
  let '(reg, acc, acctmp) := acc_loop 16 (g_reg s) (g_acc s) (wshl 32 ms 16) 0 pt in
  Gst (g_l s) (g_n s) (Z.lxor acc (wshl 64 acctmp 48)) (Z.lor reg (wshl 64 ms 48)).
(** grain.go:401-420 accumulate8: regtmp is 16 bits wide, acctmp 8 bits *)
Fixpoint acc8_loop (n : nat) (reg acc regtmp acctmp pt : Z) : Z * Z * Z :=
  match n with
  | O => (reg, acc, acctmp)
  | S n => acc8_loop n (Z.shiftr reg 1) (Z.lxor acc (gmask pt reg)) (Z.shiftr regtmp 1)
             (Z.lxor acctmp (gmask pt (regtmp mod 2 ^ 8)%Z)) (Z.shiftr pt 1)
  end.
Definition accumulate8 (ms pt : Z) (s : gst) : gst :=
  let '(reg, acc, acctmp) := acc8_loop 8 (g_reg s) (g_acc s) (wshl 16 ms 8) 0 pt in
  Gst (g_l s) (g_n s) (Z.lxor acc (wshl 64 acctmp 56)) (Z.lor reg (wshl 64 ms 56)).

(** grain.go:301-307 setKey *)
Definition g_key (key : bytes) : list Z := ldw 4 (firstn 16 key).
(** grain.go:319-323 *)
Definition g_warm (s : gst) : gst :=
  let '(s, ks) := g_next s in Gst (gxor (g_l s) ks) (gxor (g_n s) ks) (g_acc s) (g_reg s).
(** grain.go:309-317 *)
Definition g_load (k : list Z) (nonce : bytes) (s : gst) : gst :=
  let n := fold_left gshift k (g_n s) in
  let l := fold_left gshift (ldw 4 (firstn 12 nonce)) (g_l s) in
  Gst (gshift l (2 ^ 31 - 1)) n (g_acc s) (g_reg s).
(** grain.go:326-330 and 333-337, one turn: the output word and the state after mixing in a key word *)
Definition g_mix (kw : Z) (s : gst) : gst * Z :=
  let '(s, ks) := g_next s in (Gst (gxor (g_l s) kw) (g_n s) (g_acc s) (g_reg s), ks).
(** grain.go:309-338 init; nonce[i:i+4] panics when the nonce is shorter than 12 bytes *)
Definition g_init (k : list Z) (nonce : bytes) (s : gst) : res gst :=
  if length nonce <? 12 then Panic else
  let s := Nat.iter 8 g_warm (g_load k nonce s) in
  let '(s, a0) := g_mix k.[0] s in
  let '(s, a1) := g_mix k.[1] s in
  let '(s, r0) := g_mix k.[2] s in
  let '(s, r1) := g_mix k.[3] s in
  Ok (Gst (g_l s) (g_n s) (Z.lor a0 (wshl 64 a1 32)) (Z.lor r0 (wshl 64 r1 32))).

(** utils.go:80-88 encode: the loop stores byte(n), where n is the number of length bytes *)
Fixpoint enc_loop (i : nat) (n : Z) (d : bytes) : bytes :=
  match i with
  | O => d
  | S j => enc_loop j (Z.shiftr n 8) (upd i (to_byte n) d)
  end.
Definition g_encode (x : nat) : bytes :=
  let n := ((Z.log2 (Z.of_nat x) + 1 + 7) / 8)%Z in
  enc_loop (Z.to_nat n) n (upd 0 (to_byte (Z.lor 0x80 n)) (repeat 0%Z 10)).
(** utils.go:70-73 len *)
Definition g_derlen (d : bytes) : nat := Z.to_nat (Z.land d.[0] 0x7f) + 1.
(** grain.go:170-188 (and 236-253): the buffer der and what is left of ad *)
Definition g_header (ad : bytes) : bytes * bytes :=
  if length ad <=? 127 then
    match ad with
    | a :: r => ([Z.of_nat (length ad); a], r)
    | [] => ([], [0%Z])
    end
  else
    let d := g_encode (length ad) in
    let n := g_derlen d in
    if n mod 2 =? 0 then (firstn n d, ad) else (firstn (n + 1) (upd n ad.[0] d), skipn 1 ad).

(** binary.LittleEndian.Uint16, PutUint16 *)
Definition u16 (a b : Z) : Z := (a + 256 * b)%Z.
Definition put16 (v : Z) : bytes := [to_byte v; to_byte (Z.shiftr v 8)].
(** grain.go:190-200: both loops; the state and the unread rest (at most one byte) *)
Fixpoint g_absorb (s : gst) (d : bytes) : gst * bytes :=
  match d with
  | a :: b :: r => let '(s, w) := g_next s in g_absorb (accumulate (getmb w) (u16 a b) s) r
  | _ => (s, d)
  end.
Section crypt.
  Variable inplace : bool.
  (** what src[0] reads once dst[0] has been written *)
  Definition again (src dst : Z) : Z := if inplace then dst else src.
  (** grain.go:213-229 *)
  Fixpoint g_enc_loop (s : gst) (src : bytes) : gst * bytes :=
    match src with
    | a :: b :: r =>
        let '(s, w) := g_next s in
        let v := u16 a b in
        let '(s, o) := g_enc_loop (accumulate (getmb w) v s) r in (s, put16 (Z.lxor (getkb w) v) ++ o)
    | [a] =>
        let '(s, w) := g_next s in
        let c := Z.lxor (to_byte (getkb w)) a in
        (accumulate (getmb w) (Z.lor 0x100 (again a c)) s, [c])
    | [] => let '(s, w) := g_next s in (accumulate (getmb w) 1 s, [])
    end.
  (** grain.go:166-230 encrypt *)
  Definition g_encrypt (s : gst) (src ad : bytes) : gst * bytes :=
    let '(der, ad) := g_header ad in
    let '(s, _) := g_absorb s der in
    let '(s, rest) := g_absorb s ad in
    match rest with
    | [] => g_enc_loop s src
    | a :: _ =>
        let '(s, w) := g_next s in
        let s := accumulate8 (to_byte (getmb w)) a s in
        match src with
        | [] => g_enc_loop s src
        | p :: r =>
            let c := Z.lxor (to_byte (Z.shiftr (getkb w) 8)) p in
            let s := accumulate8 (to_byte (Z.shiftr (getmb w) 8)) (again p c) s in
            let '(s, o) := g_enc_loop s r in (s, c :: o)
        end
    end.
End crypt.
(** grain.go:278-294 *)
Fixpoint g_dec_loop (s : gst) (src : bytes) : gst * bytes :=
  match src with
  | a :: b :: r =>
      let '(s, w) := g_next s in
      let v := Z.lxor (getkb w) (u16 a b) in
      let '(s, o) := g_dec_loop (accumulate (getmb w) v s) r in (s, put16 v ++ o)
  | [a] =>
      let '(s, w) := g_next s in
      let c := Z.lxor (to_byte (getkb w)) a in
      (accumulate (getmb w) (Z.lor 0x100 c) s, [c])
  | [] => let '(s, w) := g_next s in (accumulate (getmb w) 1 s, [])
  end.
(** grain.go:232-295 decrypt *)
Definition g_decrypt (s : gst) (src ad : bytes) : gst * bytes :=
  let '(der, ad) := g_header ad in
  let '(s, _) := g_absorb s der in
  let '(s, rest) := g_absorb s ad in
  match rest with
  | [] => g_dec_loop s src
  | a :: _ =>
      let '(s, w) := g_next s in
      let s := accumulate8 (to_byte (getmb w)) a s in
      match src with
      | [] => g_dec_loop s src
      | p :: r =>
          let c := Z.lxor (to_byte (Z.shiftr (getkb w) 8)) p in
          let s := accumulate8 (to_byte (Z.shiftr (getmb w) 8)) c s in
          let '(s, o) := g_dec_loop s r in (s, c :: o)
      end
  end.
(** grain.go:297-299 tag *)
Definition g_tag (s : gst) : bytes := le_bytes 8 (g_acc s).

(** grain.go:43-89: the AEAD object, with the state the last call left behind *)
Record gobj := Gobj { go_key : list Z; go_st : gst }.
(** grain.go:95-104 NewCipher *)
Definition grain_new (key : bytes) : res gobj :=
  if length key =? 16 then Ok (Gobj (g_key key) (Gst (0, 0)%Z (0, 0)%Z 0 0)) else Err.
(** grain.go:114-130 Seal: the object afterwards and the returned slice. [inplace]: plaintext lies exactly where
    the ciphertext is written (dst = plaintext[:0] with room for the tag) *)
Definition grain_seal (inplace : bool) (o : gobj) (dst nonce pt ad : bytes) : res (gobj * bytes) :=
  if negb (length nonce =? 12) then Panic else
  rbind (g_init (go_key o) nonce (go_st o)) (fun s =>
  let '(s, ct) := g_encrypt inplace s pt ad in
  Ok (Gobj (go_key o) s, dst ++ ct ++ g_tag s)).
(** grain.go:132-164 Open: the object afterwards, and the result or an error *)
Definition grain_open (o : gobj) (dst nonce ct ad : bytes) : res (gobj * res bytes) :=
  if negb (length nonce =? 12) then Panic else
  if length ct <? 8 then Ok (o, Err) else
  rbind (g_init (go_key o) nonce (go_st o)) (fun s =>
  let tag := skipn (length ct - 8) ct in
  let ct := firstn (length ct - 8) ct in
  let '(s, pt) := g_decrypt s ct ad in
  Ok (Gobj (go_key o) s, if bytes_eqb (g_tag s) tag then Ok (dst ++ pt) else Err)).

(** stream.go:24-31; ks is the left-over keystream byte with its high bits set, or 0 *)
Record gstream := Gstream { gs_s : gst; gs_ks : Z }.
(** stream.go:37-47 NewStreamCipher *)
Definition grain_stream (key nonce : bytes) : res gstream :=
  if negb (length key =? 16) then Err else
  rbind (g_init (g_key key) nonce (Gst (0, 0)%Z (0, 0)%Z 0 0)) (fun s => Ok (Gstream s 0)).
(** stream.go:70-83 *)
Fixpoint gs_loop (s : gst) (src : bytes) : gstream * bytes :=
  match src with
  | a :: b :: r =>
      let '(s, w) := g_next s in
      let '(st, o) := gs_loop s r in (st, put16 (Z.lxor (u16 a b) (getkb w)) ++ o)
  | [a] =>
      let '(s, w) := g_next s in
      (Gstream s (Z.lor 0xff00 (Z.shiftr (getkb w) 8)), [Z.lxor a (to_byte (getkb w))])
  | [] => (Gstream s 0, [])
  end.
(** stream.go:49-84 XORKeyStream *)
Definition gs_call (st : gstream) (x : bytes * bytes) : res (gstream * bytes) :=
  let '(dst, src) := x in
  match src with
  | [] => Ok (st, [])
  | p :: r =>
      if length dst <? length src then Panic else
      if negb (Z.land (gs_ks st) 0xff00 =? 0)%Z then
        let '(st', o) := gs_loop (gs_s st) r in Ok (st', Z.lxor p (to_byte (gs_ks st)) :: o)
      else Ok (gs_loop (gs_s st) src)
  end.
