(** Model of pubkey/bip0340 (SignUsingKToRS, SignToRS, VerifyWithRS, SignBytes, VerifyBytes, BatchVerify),
    pubkey/bign (adata helpers, deterministic nonce, SignToRS, VerifyWithRS, SignBytes, VerifyBytes) and
    pubkey/ecdsa/decdsa.go (DSign, DSignBytes, rfc6979Nonce).
    The hash object is represented by the bytes written to it since New or Reset.  The ASN.1 forms
    (Sign, Verify, DSignASN1) are library code and not modelled: they hand any pair of integers to
    VerifyWithRS.  Nil keys are not represented.  BELT (hash/belt) enters bign as an arbitrary digest
    [bh] and an arbitrary block encryption [bl theta block]; crypto/hmac by its definition. *)
From Verif Require Import Base BigModel CurveModel EcSigModel Hash3Model.
Set Implicit Arguments. Unset Strict Implicit.
Local Open Scope Z_scope.

(** ** BIP-340 *)
(** bip0340.go:16-20 the tags, as ASCII *)
Definition tag_aux : bytes := [66;73;80;48;51;52;48;47;97;117;120].
Definition tag_nonce : bytes := [66;73;80;48;51;52;48;47;110;111;110;99;101].
Definition tag_challenge : bytes := [66;73;80;48;51;52;48;47;99;104;97;108;108;101;110;103;101].
(** utils.go:58-68 bip0340Hash: what the hash object holds afterwards *)
Definition bip_tagged (h : hasher) (tag m : bytes) : bytes := hsum h tag ++ hsum h tag ++ m.
(** utils.go:47-56 bigintIsodd *)
Definition bip_isodd (a : Z) : bool := negb (a mod 2 =? 0).
(** utils.go:73-83 bip0340SetScalar *)
Definition bip_scalar (scalar q py : Z) : Z := if bip_isodd py then (- scalar) mod q else scalar.
(** bip0340.go:318-344: the bytes hashed under the nonce tag *)
Definition bip_mask (qlen hs : nat) (sig buff : bytes) : bytes :=
  if (hs <? qlen)%nat then xorl (firstn hs sig) buff ++ skipn hs sig
  else xorl (firstn qlen buff) sig ++ skipn qlen buff.
(** bip0340.go:287-386 SignUsingKToRS; [Ok None] is ErrInvalidK *)
Definition bip_sign_k (c : curve) (h : hasher) (k : Z) (key : eckey) (msg : bytes) : res (option (Z * Z)) :=
  if negb (on_curve c (ePub key)) then Err else
  let n := cN c in
  let P := cbase c (big_bytes (eD key)) in
  if (eD key =? 0) || (n <=? eD key) then Err else
  let d := bip_scalar (eD key) n (snd P) in
  rbind (fill_bytes (flen c) k) (fun kb =>
  let buff := hsum h (bip_tagged h tag_aux kb) in
  rbind (fill_bytes (flen c) d) (fun db =>
  let w := bip_tagged h tag_nonce (bip_mask (flen c) (hsize h) db buff) in
  rbind (fill_bytes (plen c) (fst P)) (fun px =>
  let k := be_val (hsum h (w ++ px ++ msg)) mod n in
  if k =? 0 then Ok None else
  let R := cbase c (big_bytes k) in
  let k := bip_scalar k n (snd R) in
  rbind (fill_bytes (plen c) (fst R)) (fun rx =>
  let e := be_val (hsum h (bip_tagged h tag_challenge rx ++ px ++ msg)) mod n in
  Ok (Some (fst R, (k + (e * d) mod n) mod n)))))).
(** bip0340.go:265-285 SignToRS *)
Definition bip_sign (c : curve) (h : hasher) (rd : bytes) (key : eckey) (msg : bytes) : res (Z * Z) :=
  rbind (until (fun rd => rbind (rand_int (Z.shiftl 1 (8 * Z.of_nat (flen c))) rd) (fun kr =>
    rbind (bip_sign_k c h (fst kr) key msg) (fun o => Ok (o, snd kr)))) rd) (fun a => Ok (fst a)).
(** bip0340.go:391-456 VerifyWithRS *)
Definition bip_verify (c : curve) (h : hasher) (pub : Z * Z) (msg : bytes) (r s : Z) : res bool :=
  if negb (on_curve c pub) then Ok false else
  if (r <=? 0) || (s <=? 0) then Ok false else
  let n := cN c in
  if n <=? s then Ok false else
  rbind (fill_bytes (plen c) r) (fun rx =>
  rbind (fill_bytes (plen c) (fst pub)) (fun px =>
  let e := be_val (hsum h (bip_tagged h tag_challenge rx ++ px ++ msg)) mod n in
  let e := (- e) mod n in
  let yy := if bip_isodd (snd pub) then (- snd pub) mod cP c else snd pub in
  let w := cadd c (cmul c (fst pub, yy) (big_bytes e)) (cbase c (big_bytes s)) in
  if (fst w =? 0) || (snd w =? 0) then Ok false else
  if bip_isodd (snd w) then Ok false else Ok (r =? fst w))).
(** bip0340.go:219-256 SignBytes, VerifyBytes *)
Definition bip_sign_bytes c h rd key msg := rbind (bip_sign c h rd key msg) (sig_bytes (plen c) (flen c)).
Definition bip_verify_bytes c h pub msg sig := with_sig (plen c) (flen c) sig (bip_verify c h pub msg).
(** batch.go:6-28 BatchVerify, all keys on the one curve c; the loop stops at the first false *)
Fixpoint bip_batch_loop (c : curve) (h : hasher) (u : nat) (pub : list (Z * Z)) (m sig : list bytes) : res bool :=
  match u, pub, m, sig with
  | O, _, _, _ => Ok true
  | S u, p :: pub, a :: m, s :: sig => rbind (bip_verify_bytes c h p a s) (fun b => if b then bip_batch_loop c h u pub m sig else Ok false)
  | _, _, _, _ => Panic
  end.
Definition bip_batch (c : curve) (h : hasher) (pub : list (Z * Z)) (m sig : list bytes) : res bool :=
  let u := length pub in
  if ((length m =? 0) || (length m <? u) || (length sig <? u))%nat then Ok false else
  match pub with [] => Panic | _ => bip_batch_loop c h u pub m sig end.

(** ** BIGN *)
(** utils.go:44-76: the header of adata in uint16 arithmetic; the checks both helpers make.
    The capacity of adata is taken to be its length. *)
Definition u16 (x : Z) : Z := x mod 65536.
Definition adata_lens (adata : bytes) : res (Z * Z) :=
  match adata with
  | b0 :: b1 :: b2 :: b3 :: _ =>
    let al := u16 (Z.of_nat (length adata)) in
    let ol := Z.lor (u16 (Z.shiftl b0 8)) b1 in
    let tl := Z.lor (u16 (Z.shiftl b2 8)) b3 in
    if (u16 (ol + tl) <? tl) || (u16 (al - 4) <? u16 (ol + tl)) then Err else Ok (ol, tl)
  | _ => Err
  end.
(** adata[lo:hi] *)
Definition cut (lo hi : Z) (l : bytes) : res bytes :=
  if (lo <=? hi) && (hi <=? Z.of_nat (length l)) then Ok (slice (Z.to_nat lo) (Z.to_nat (hi - lo)) l) else Panic.
(** utils.go:44-59 GetOidFromAdata *)
Definition get_oid (adata : bytes) : res bytes :=
  rbind (adata_lens adata) (fun l => cut 4 (u16 (4 + fst l)) adata).
(** utils.go:61-76 GetTFromAdata *)
Definition get_t (adata : bytes) : res bytes :=
  rbind (adata_lens adata) (fun l => cut (u16 (4 + fst l)) (u16 (u16 (4 + fst l) + snd l)) adata).
(** utils.go:78-104 MakeAdata *)
Definition make_adata (oid t : bytes) : bytes :=
  let ol := Z.of_nat (length oid) in
  let tl := Z.of_nat (length t) in
  [to_byte (Z.shiftr ol 8); Z.land ol 255; to_byte (Z.shiftr tl 8); Z.land tl 255] ++ oid ++ t.

Section bign.
Variable bh : bytes -> bytes.
Variable bl : bytes -> bytes -> bytes.

(** utils.go:157-189: one pass of the loop over the buffer r of 96 bytes *)
Definition bign_xor (n : nat) (r : bytes) : bytes :=
  fold_left (fun s j => xorl s (slice (16 * j) 16 r)) (seq 0 (n - 1)) (repeat 0 16).
Definition bign_pass (theta : bytes) (n : nat) (i : Z) (r : bytes) : bytes :=
  let s := bign_xor n r in
  let r := splice 0 (slice 16 ((n - 1) * 16 - 16) r) r in
  let rr := bl theta s in
  let r := splice ((n - 2) * 16) rr r in
  let x := xorl (slice ((n - 2) * 16) 16 r) (xorl (slice ((n - 1) * 16) 16 r) (le_bytes 4 i ++ repeat 0 12)) in
  let r := splice ((n - 2) * 16) x r in
  splice ((n - 1) * 16) s r.
(** utils.go:191-211: the candidate read from r *)
Definition bign_cand (qbits n : nat) (r : bytes) : Z :=
  let qlen := byteceil qbits in
  if (qlen <? n * 16)%nat then
    let b := firstn qlen r in
    let b := if (qbits mod 8 =? 0)%nat then b
             else match rev b with [] => b | x :: t => rev (Z.land x (2 ^ Z.of_nat (qbits mod 8) - 1) :: t) end in
    be_val (rev b)
  else be_val (rev (firstn (n * 16) r)).
(** utils.go:157-223, [fuel] bounding the passes made; i wraps are refused by the code itself *)
Fixpoint bign_loop (fuel : nat) (theta : bytes) (q : Z) (qbits n : nat) (i : Z) (r : bytes) : res Z :=
  match fuel with
  | O => Err
  | S f =>
    let r := bign_pass theta n i r in
    let k := bign_cand qbits n r in
    if (2 * Z.of_nat n <=? i) && (k <? q) && negb (k =? 0) then Ok k
    else if 4294967295 <=? i + 1 then Err else bign_loop f theta q qbits n (i + 1) r
  end.
(** utils.go:109-226 determiniticNonce; digests of more than 96 bytes index past r *)
Definition bign_nonce (fuel : nat) (q : Z) (qbits : nat) (x : Z) (adata hd : bytes) : res Z :=
  let qlen := byteceil qbits in
  let l := Nat.div qlen 2 in
  rbind (get_oid adata) (fun oid => rbind (get_t adata) (fun t =>
  rbind (fill_bytes qlen x) (fun d =>
  let theta := bh (oid ++ firstn (2 * l) (rev d) ++ t) in
  let n := Nat.div (length hd) 16 in
  let r := gocopy (repeat 0 96) hd in
  let n := if (n <=? 1)%nat then 2%nat else n in
  if (6 <? n)%nat then Panic else bign_loop fuel theta q qbits n 1 r))).

(** bign.go:351-383: the l bytes s0 for the point W; slices beyond the 2*plen bytes panic *)
Definition bign_s0 (c : curve) (h : hasher) (adata hd : bytes) (W : Z * Z) : res bytes :=
  let l := Nat.div (flen c) 2 in
  rbind (get_oid adata) (fun oid =>
  rbind (fill_bytes (plen c) (fst W)) (fun wx => rbind (fill_bytes (plen c) (snd W)) (fun wy =>
  let w := rev wx ++ rev wy in
  if (2 * plen c <? 2 * l)%nat then Panic else
  let hb := bh (oid ++ firstn (2 * l) w ++ hd) in
  if (length hb <? Nat.min l (hsize h))%nat then Panic else
  Ok (gocopy (repeat 0 l) (firstn (Nat.min l (hsize h)) hb))))).
(** bign.go:290-418 SignToRS once k is drawn *)
Definition bign_sign_k (c : curve) (h : hasher) (k : Z) (key : eckey) (msg adata : bytes) : res (Z * Z) :=
  let n := cN c in
  let l := Nat.div (flen c) 2 in
  let hd := hsum h msg in
  rbind (bign_s0 c h adata hd (cbase c (big_bytes k))) (fun sig =>
  let hn := be_val (rev hd) mod n in
  let s1 := be_val (rev sig) mod n in
  let tmp := Z.shiftl 1 (8 * Z.of_nat l) mod n in
  let s1 := (s1 + tmp) mod n in
  let s1 := (s1 * eD key) mod n in
  let s1 := (k - s1) mod n in
  let s1 := (s1 - hn) mod n in
  rbind (fill_bytes (flen c) s1) (fun b => Ok (be_val sig, be_val (rev b)))).
(** bign.go:290-418 SignToRS: k from the reader, or the deterministic nonce when it is nil *)
Definition bign_sign (fuel : nat) (c : curve) (h : hasher) (rd : option bytes) (key : eckey) (msg adata : bytes) : res (Z * Z) :=
  if negb (on_curve c (ePub key)) then Err else
  if cN c <=? eD key then Err else
  if (length adata =? 0)%nat then Err else
  rbind (match rd with
         | Some rd => rbind (rand_int (cN c) rd) (fun kr => Ok (fst kr))
         | None => bign_nonce fuel (cN c) (cBits c) (eD key) adata (hsum h msg)
         end) (fun k => bign_sign_k c h k key msg adata).
(** bign.go:424-512 VerifyWithRS *)
Definition bign_verify (c : curve) (h : hasher) (pub : Z * Z) (msg adata : bytes) (r s : Z) : res bool :=
  if negb (on_curve c pub) then Ok false else
  if s <=? 0 then Ok false else
  let n := cN c in
  let l := Nat.div (flen c) 2 in
  rbind (fill_bytes l r) (fun rb =>
  let s0 := be_val (rev rb) in
  rbind (fill_bytes (flen c) s) (fun sb =>
  let s1 := be_val (rev sb) in
  if n <=? s1 then Ok false else
  let hd := hsum h msg in
  let hn := be_val (rev hd) mod n in
  let hn := (hn + s1) mod n in
  let tmp := Z.shiftl 1 (8 * Z.of_nat l) mod n in
  let tmp := (tmp + s0) mod n in
  let W := cadd c (cmul c pub (big_bytes tmp)) (cbase c (big_bytes hn)) in
  match bign_s0 c h adata hd W with
  | Ok t => rbind (fill_bytes (Nat.min l (hsize h)) r) (fun rb2 => Ok (beq t (gocopy (repeat 0 l) rb2)))
  | Err => Ok false
  | Panic => Panic
  end)).
(** bign.go:245-270 SignBytes *)
Definition bign_sign_bytes (fuel : nat) (c : curve) (h : hasher) (rd : option bytes) (key : eckey) (msg adata : bytes) : res bytes :=
  rbind (bign_sign fuel c h rd key msg adata) (fun rs =>
  let l := Nat.div (flen c) 2 in
  rbind (fill_bytes (Nat.min l (hsize h)) (fst rs)) (fun rb =>
  rbind (fill_bytes (flen c) (snd rs)) (fun sb => Ok (gocopy (repeat 0 l) rb ++ sb)))).
(** bign.go:273-286 VerifyBytes *)
Definition bign_verify_bytes (c : curve) (h : hasher) (pub : Z * Z) (msg adata sig : bytes) : res bool :=
  with_sig (Nat.div (flen c) 2) (flen c) sig (bign_verify c h pub msg adata).
End bign.

(** ** Deterministic ECDSA *)
(** decdsa.go:92-105 hashToInt *)
Definition dec_hash_to_int (c : curve) (hash : bytes) : Z :=
  let ob := bitlen (cN c) in
  let hash := if (byteceil ob <? length hash)%nat then firstn (byteceil ob) hash else hash in
  Z.shiftr (be_val hash) (Z.of_nat (length hash * 8 - ob)).
(** decdsa.go:247-253 hmacHash *)
Definition hm (h : hasher) (key msg : bytes) : bytes := hmac (hsum h) (hblock h) key msg.
(** decdsa.go:216-221: fill T, [fuel] at least the number of passes *)
Fixpoint rfc_fill (fuel : nat) (h : hasher) (K : bytes) (qbits t : nat) (V T : bytes) : bytes :=
  match fuel with
  | O => T
  | S f => if (t <? qbits)%nat then
             let V := hm h K V in
             let o := byteceil t in
             rfc_fill f h K qbits (t + 8 * length V) V (firstn o T ++ gocopy (skipn o T) V)
           else T
  end.
(** decdsa.go:140-245 rfc6979Nonce.  The test [k.Cmp(q) >= 0] after [k.Mod(k, q)] is never true: the
    restart is unreachable and left out. *)
Definition rfc_nonce (c : curve) (h : hasher) (x : Z) (hash : bytes) : res Z :=
  let q := cN c in let qb := cBits c in let ql := byteceil qb in
  let V := repeat 1 (hsize h) in
  let K := repeat 0 (hsize h) in
  rbind (fill_bytes ql x) (fun pk =>
  let k := Z.shiftr (be_val hash) (Z.of_nat (8 * hsize h - qb)) mod q in
  rbind (fill_bytes ql k) (fun T =>
  let K := hm h K (V ++ [0] ++ pk ++ T) in
  let V := hm h K V in
  let K := hm h K (V ++ [1] ++ pk ++ T) in
  let V := hm h K V in
  let T := rfc_fill (S qb) h K qb 0 V T in
  Ok (Z.shiftr (be_val T) (Z.of_nat (8 * ql - qb)) mod q))).
(** decdsa.go:56-89: one pass of the loops for the nonce k; [None] is another pass.  k without an
    inverse leaves kInv nil and Mul panics, but only past the test of r. *)
Definition dec_pass (c : curve) (D : Z) (hash : bytes) (k : Z) : res (option (Z * Z)) :=
  let n := cN c in
  let r := fst (cbase c (big_bytes k)) mod n in
  if r =? 0 then Ok None else
  match mod_inverse k n with
  | None => Panic
  | Some ki => let s := ((D * r + dec_hash_to_int c hash) * ki) mod n in
               if s =? 0 then Ok None else Ok (Some (r, s))
  end.
(** decdsa.go:49-90 DSign with a reader *)
Definition dec_sign (c : curve) (D : Z) (rd : bytes) (hash : bytes) : res (Z * Z) :=
  if cN c =? 0 then Err else
  rbind (until (fun rd => rbind (rand_field (cN c) rd) (fun kr =>
    rbind (dec_pass c D hash (fst kr)) (fun o => Ok (o, snd kr)))) rd) (fun a => Ok (fst a)).
(** decdsa.go:49-90 DSign with a nil reader: the loop after at most [fuel] passes, [Ok None] when it is
    still running. *)
Fixpoint dec_det (fuel : nat) (c : curve) (h : hasher) (D : Z) (hash : bytes) : res (option (Z * Z)) :=
  match fuel with
  | O => Ok None
  | S f => rbind (rfc_nonce c h D hash) (fun k => rbind (dec_pass c D hash k) (fun o =>
             match o with Some rs => Ok (Some rs) | None => dec_det f c h D hash end))
  end.
(** decdsa.go:29-45 DSignBytes *)
Definition dec_sign_bytes (c : curve) (D : Z) (rd : bytes) (hash : bytes) : res bytes :=
  rbind (dec_sign c D rd hash) (sig_bytes (flen c) (flen c)).
