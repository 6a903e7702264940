(** Model of /repo/mode/ocb3/ocb3.go. uint128 values are pairs of 64-bit words (lo, hi), lo being
    the more significant one. *)
From Verif Require Import Base BlockModeModel PmacModel.
Set Implicit Arguments. Unset Strict Implicit.
Local Open Scope nat_scope.

Notation u128 := (Z * Z)%type.
Definition w64 (x : Z) : Z := (x mod 2 ^ 64)%Z.
Definition x128 (a b : u128) : u128 := (Z.lxor (fst a) (fst b), Z.lxor (snd a) (snd b)).
(** binary.BigEndian.Uint64(b[0:8]), Uint64(b[8:16]) *)
Definition get128 (b : bytes) : u128 := (be_val (firstn 8 b), be_val (firstn 8 (skipn 8 b))).
(** binary.BigEndian.PutUint64 of both words *)
Definition put128 (w : u128) : bytes := be_bytes 8 (fst w) ++ be_bytes 8 (snd w).
(** ocb3.go:171-187 encipher, decipher *)
Definition encipher (c : cipher) (p : u128) : u128 := get128 (enc c (put128 p)).
Definition decipher (c : cipher) (p : u128) : u128 := get128 (dec c (put128 p)).
(** ocb3.go:471-484 double; int64(x.lo)>>63 is all ones or zero *)
Definition double128 (x : u128) : u128 :=
  let '(lo, hi) := x in
  (Z.lor (w64 (Z.shiftl lo 1)) (Z.shiftr hi 63),
   Z.lxor (w64 (Z.shiftl hi 1)) (Z.land (if (Z.shiftr lo 63 =? 0)%Z then 0 else 2 ^ 64 - 1)%Z 135)).
Record ocb3st := { a_nsz : nat; a_tsz : nat; a_star : u128; a_dollar : u128; a_L : list u128 }.
(** ocb3.go:157-169 setup; lsize = 58 on 64-bit systems *)
Fixpoint ocb3_table (k : nat) (x : u128) : list u128 :=
  match k with O => [] | S j => x :: ocb3_table j (double128 x) end.
(** ocb3.go:128-147 NewWithNonceAndTagSize *)
Definition ocb3_new (c : cipher) (nsz tsz : Z) : res ocb3st :=
  if ((tsz <? 12) || (16 <? tsz))%Z then Err
  else if (nsz <=? 0)%Z then Err
  else if negb (bsz c =? 16) then Err
  else let star := encipher c (0, 0)%Z in
       let dol := double128 star in
       Ok {| a_nsz := Z.to_nat nsz; a_tsz := Z.to_nat tsz; a_star := star; a_dollar := dol;
             a_L := ocb3_table 58 (double128 dol) |}.
(** ocb3.go:153-155 Overhead *)
Definition ocb3_overhead (a : ocb3st) : nat := a_nsz a + a_tsz a.

(** ocb3.go:189-219 init; a nonce of 16 bytes or more indexes n[-1] *)
Definition ocb3_init (c : cipher) (a : ocb3st) (nonce : bytes) : res u128 :=
  if 16 <=? length nonce then Panic
  else
    let n := to_byte (Z.shiftl (to_byte ((Z.of_nat (a_tsz a) * 8) mod 128)) 1) :: repeat 0%Z 15 in
    let k := 16 - length nonce in
    let n := splice k nonce n in
    let n := splice (k - 1) [Z.lor (nth (k - 1) n 0%Z) 1] n in
    let b := Z.land (nth 15 n 0%Z) 63 in
    let '(k0, k1) := encipher c (be_val (firstn 8 n), Z.ldiff (be_val (skipn 8 n)) 63) in
    let s2 := Z.lxor k0 (Z.lor (w64 (Z.shiftl k0 8)) (Z.shiftr k1 56)) in
    Ok (Z.lor (w64 (Z.shiftl k0 b)) (Z.shiftr k1 (64 - b)), Z.lor (w64 (Z.shiftl k1 b)) (Z.shiftr s2 (64 - b))).

(** ocb3.go:221-258 hash. The loop runs while 16 bytes remain, so over the whole blocks. *)
Definition blocks16 (m : bytes) : list bytes := chunks 16 (firstn (16 * (length m / 16)) m).
Definition rest16 (m : bytes) : bytes := skipn (16 * (length m / 16)) m.
Fixpoint ocb3_hash_loop (c : cipher) (L : list u128) (off s : u128) (i : nat) (bl : list bytes) : u128 * u128 :=
  match bl with
  | [] => (off, s)
  | b :: r =>
      let off := x128 off (nth (trailing_zeros i mod length L) L (0, 0)%Z) in
      ocb3_hash_loop c L off (x128 s (encipher c (x128 (get128 b) off))) (i + 1) r
  end.
Definition pad16 (m : bytes) : bytes := gocopy (splice (length m) [128%Z] (repeat 0%Z 16)) m.
Definition ocb3_hash (c : cipher) (a : ocb3st) (ad : bytes) : u128 :=
  let '(off, s) := ocb3_hash_loop c (a_L a) (0, 0)%Z (0, 0)%Z 1 (blocks16 ad) in
  match rest16 ad with
  | [] => s
  | r => let off := x128 off (a_star a) in x128 s (encipher c (x128 (get128 (pad16 r)) off))
  end.
(** ocb3.go:284-303 and 380-400: the block loops; a.L[i] panics out of range *)
Fixpoint ocb3_loop (enc_ : bool) (c : cipher) (L : list u128) (off ck : u128) (i : nat) (bl : list bytes)
  : res (u128 * u128 * list bytes) :=
  match bl with
  | [] => Ok (off, ck, [])
  | b :: r =>
      match nth_error L (trailing_zeros i) with
      | None => Panic
      | Some l =>
          let off := x128 off l in
          let p := get128 b in
          let o := if enc_ then x128 (encipher c (x128 p off)) off else x128 (decipher c (x128 p off)) off in
          let ck := x128 ck (if enc_ then p else o) in
          rbind (ocb3_loop enc_ c L off ck (i + 1) r) (fun '(off, ck, ys) => Ok (off, ck, put128 o :: ys))
      end
  end.
(** ocb3.go:490-503 writeTag *)
Definition write_tag (n : nat) (t : u128) : bytes := firstn n (put128 t).
(** the part that Seal and Open share; [ip]: in place, so that the partial block of Seal is read
    again (copy(q, plaintext)) after it was overwritten *)
Definition ocb3_crypt (enc_ ip : bool) (c : cipher) (a : ocb3st) (nonce x ad : bytes) : res (bytes * u128) :=
  rbind (ocb3_init c a nonce) (fun off =>
  rbind (ocb3_loop enc_ c (a_L a) off (0, 0)%Z 1 (blocks16 x)) (fun '(off, ck, ys) =>
  let '(off, ck, last) :=
    match rest16 x with
    | [] => (off, ck, [])
    | r => let off := x128 off (a_star a) in
           let o := xorl r (put128 (encipher c off)) in
           (off, x128 ck (get128 (pad16 (if enc_ then (if ip then o else r) else o))), o)
    end in
  let off := x128 off (a_dollar a) in
  let t := x128 (encipher c (x128 ck off)) (ocb3_hash c a ad) in
  Ok (concat ys ++ last, t))).
Definition max_input : Z := (2 ^ 48 * 16)%Z.
(** ocb3.go:260-350 Seal *)
Definition ocb3_seal (ip : bool) (c : cipher) (a : ocb3st) (dst nonce pt ad : bytes) : res bytes :=
  if negb (length nonce =? a_nsz a) then Panic
  else if a_tsz a <? 12 then Panic
  else if ((max_input <? Z.of_nat (length pt)) || (max_input - Z.of_nat (length pt) <? Z.of_nat (length ad)))%Z then Panic
  else rbind (ocb3_crypt true ip c a nonce pt ad) (fun '(y, t) =>
       Ok (dst ++ y ++ (if a_tsz a =? 16 then put128 t else write_tag (a_tsz a) t))).
(** ocb3.go:352-453 Open; uint64 subtraction wraps *)
Definition ocb3_open (c : cipher) (a : ocb3st) (dst nonce ct ad : bytes) : res bytes :=
  if negb (length nonce =? a_nsz a) then Panic
  else if a_tsz a <? 12 then Panic
  else if length ct <? a_tsz a then Err
  else if ((max_input <? Z.of_nat (length ct)) ||
           ((max_input + Z.of_nat (a_tsz a) - Z.of_nat (length ct)) mod 2 ^ 64 <? Z.of_nat (length ad)))%Z then Panic
  else
    let sep := length ct - a_tsz a in
    rbind (ocb3_crypt false false c a nonce (firstn sep ct) ad) (fun '(y, t) =>
    if bytes_eqb (firstn (a_tsz a) (put128 t)) (skipn sep ct) then Ok (dst ++ y) else Err).
(** ocb3.go:443-448: what the memory behind [dst] holds after Open. Out was advanced past every
    whole block, so that on failure only the partial block is cleared. *)
Definition ocb3_open_leaves (c : cipher) (a : ocb3st) (nonce ct ad : bytes) : res bytes :=
  let sep := length ct - a_tsz a in
  rbind (ocb3_crypt false false c a nonce (firstn sep ct) ad) (fun '(y, t) =>
  if bytes_eqb (firstn (a_tsz a) (put128 t)) (skipn sep ct) then Ok y
  else Ok (firstn (16 * (sep / 16)) y ++ repeat 0%Z (sep mod 16))).
