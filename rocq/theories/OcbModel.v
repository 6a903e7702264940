(** Model of /repo/mode/ocb/ocb.go. *)
From Verif Require Import Base BlockModeModel ToolBytesModel PmacModel.
Set Implicit Arguments. Unset Strict Implicit.
Local Open Scope nat_scope.

(** ocb.go:14-42: the object. Encryption and decryption change the table and the cached Ktop. *)
Record ocbst := { o_last : bytes; o_ldol : bytes; o_L : list bytes; o_prefix : bytes; o_ktop : bytes }.
(** byteutil.GfnDouble on a 16-byte block (the constructor fixes the block size) *)
Definition gdbl (x : bytes) : bytes := match GfnDouble x with Ok y => y | _ => [] end.
(** ocb.go:63-91 NewWithNonceAndTagSize, ocb.go:321-338 initializeMaskTable *)
Definition ocb_new (c : cipher) (nsz tsz : Z) : res ocbst :=
  if negb (bsz c =? 16) then Err
  else if (nsz <? 1)%Z then Err
  else if (16 <=? nsz)%Z then Err
  else if (16 <? tsz)%Z then Err
  else let last := enc c (repeat 0%Z 16) in
       let dol := gdbl last in
       Ok {| o_last := last; o_ldol := dol; o_L := [gdbl dol]; o_prefix := []; o_ktop := [] |}.

(** ocb.go:341-345 extendTable *)
Definition ocb_extend (L : list bytes) (limit : nat) : list bytes :=
  Nat.iter (S limit - length L) (fun L => L ++ [gdbl (last L [])]) L.
(** ocb.go:198-203, 289-297: if len(o.mask.L)-1 < index { extendTable(index) }; o.mask.L[index] *)
Definition ocb_mask (L : list bytes) (index : nat) : list bytes * bytes :=
  let L' := if length L - 1 <? index then ocb_extend L index else L in (L', nth index L' []).

(** ocb.go:271-319 hash; [bl] are the whole blocks, numbered from i *)
Fixpoint ocb_hash_loop (c : cipher) (L : list bytes) (off sum : bytes) (i : nat) (bl : list bytes) : list bytes * bytes * bytes :=
  match bl with
  | [] => (L, off, sum)
  | b :: r =>
      let '(L, m) := ocb_mask L (trailing_zeros (i + 1)) in
      let off := xorl off m in
      ocb_hash_loop c L off (xorl sum (enc c (xorl b off))) (i + 1) r
  end.
Definition cut_blocks (m : bytes) : list bytes := chunks 16 (firstn (16 * (length m / 16)) m).
Definition cut_rest (m : bytes) : bytes := skipn (16 * (length m / 16)) m.
Definition ocb_hash_m (c : cipher) (last : bytes) (L : list bytes) (A : bytes) : list bytes * bytes :=
  let '(L, off, sum) := ocb_hash_loop c L (repeat 0%Z 16) (repeat 0%Z 16) 0 (cut_blocks A) in
  if negb (length A mod 16 =? 0) then
    let off := xorl off last in
    let ending := 128%Z :: repeat 0%Z (16 - length A mod 16 - 1) in
    (L, xorl sum (enc c (xorl (cut_rest A ++ ending) off)))
  else (L, sum).

(** ocb.go:157-185: Ktop, cached by the nonce without its last six bits, and the first offset *)
Definition ocb_trunc (nonce : bytes) : bytes := removelast nonce ++ [Z.land (last nonce 0%Z) 192].
Definition ocb_padded (tsz : nat) (nonce : bytes) : bytes :=
  let p := repeat 0%Z (15 - length nonce) ++ [1%Z] ++ ocb_trunc nonce in
  let p := Z.lor (hd 0%Z p) (to_byte (Z.shiftl ((8 * Z.of_nat tsz) mod 128) 1)) :: tl p in
  removelast p ++ [Z.land (last p 0%Z) 192].
Definition ocb_ktop (c : cipher) (tsz : nat) (st : ocbst) (nonce : bytes) : ocbst * bytes :=
  let t := ocb_trunc nonce in
  if bytes_eqb t (o_prefix st) then (st, o_ktop st)
  else let k := enc c (ocb_padded tsz nonce) in
       ({| o_last := o_last st; o_ldol := o_ldol st; o_L := o_L st; o_prefix := t; o_ktop := k |}, k).
Definition ocb_offset (ktop nonce : bytes) : bytes :=
  let stretch := ktop ++ xorl (firstn 8 ktop) (slice 1 8 ktop) in
  match ShiftLeftN (repeat 0%Z (length stretch)) stretch (Z.to_nat (Z.land (last nonce 0%Z) 63)) with
  | Ok o => firstn 16 o | _ => [] end.

Inductive dirn := Enc | Dec.
(** ocb.go:192-220: the whole blocks. [ip]: X and Y are the same memory, so in the encrypting
    branch the checksum is taken over blockX after it was overwritten. *)
Fixpoint ocb_loop (d : dirn) (ip : bool) (c : cipher) (L : list bytes) (off ck : bytes) (i : nat) (bl : list bytes)
  : list bytes * bytes * bytes * list bytes :=
  match bl with
  | [] => (L, off, ck, [])
  | b :: r =>
      let '(L, m) := ocb_mask L (trailing_zeros (i + 1)) in
      let off := xorl off m in
      let y := match d with Enc => xorl (enc c (xorl b off)) off | Dec => xorl (dec c (xorl b off)) off end in
      let ck := xorl ck (match d with Enc => if ip then y else b | Dec => y end) in
      let '(L, off, ck, ys) := ocb_loop d ip c L off ck (i + 1) r in
      (L, off, ck, y :: ys)
  end.
(** ocb.go:142-266 crypt; the result is the whole of Y *)
Definition ocb_crypt (d : dirn) (ip : bool) (c : cipher) (tsz : nat) (st : ocbst) (nonce ad X : bytes) : res (ocbst * bytes) :=
  match nonce with
  | [] => Panic   (* truncatedNonce[len(truncatedNonce)-1] *)
  | _ =>
      let '(st, ktop) := ocb_ktop c tsz st nonce in
      let '(L, off, ck, ys) := ocb_loop d ip c (o_L st) (ocb_offset ktop nonce) (repeat 0%Z 16) 0 (cut_blocks X) in
      let '(off, ck, last) :=
        if negb (length X mod 16 =? 0) then
          let off := xorl off (o_last st) in
          let cx := cut_rest X in
          let cy := xorl cx (enc c off) in
          let src := match d with Enc => if ip then cy else cx | Dec => cy end in
          (off, xorl ck (src ++ 128%Z :: repeat 0%Z (16 - length cx - 1)), cy)
        else (off, ck, []) in
      let '(L, h) := ocb_hash_m c (o_last st) L ad in
      let tag := xorl (enc c (xorl (xorl ck off) (o_ldol st))) h in
      Ok ({| o_last := o_last st; o_ldol := o_ldol st; o_L := L; o_prefix := o_prefix st; o_ktop := o_ktop st |},
          concat ys ++ last ++ firstn tsz tag)
  end.
(** ocb.go:101-110 Seal *)
Definition ocb_seal (ip : bool) (c : cipher) (nsz tsz : nat) (st : ocbst) (dst nonce pt ad : bytes) : res (ocbst * bytes) :=
  if nsz <? length nonce then Panic
  else rbind (ocb_crypt Enc ip c tsz st nonce ad pt) (fun '(st, y) => Ok (st, dst ++ y)).
(** ocb.go:112-138 Open. Y covers len(ciphertext) bytes, so with [ip] (dst = ciphertext[:0]) the
    computed tag is written over the received one before they are compared. *)
Definition ocb_open (ip : bool) (c : cipher) (nsz tsz : nat) (st : ocbst) (dst nonce ct ad : bytes) : res (ocbst * res bytes) :=
  if nsz <? length nonce then Panic
  else if length ct <? tsz then Ok (st, Err)
  else let sep := length ct - tsz in
       rbind (ocb_crypt Dec ip c tsz st nonce ad (firstn sep ct)) (fun '(st, y) =>
       let ret := dst ++ y in
       let tag := if ip then skipn sep y else skipn sep ct in
       if bytes_eqb (skipn sep ret) tag then Ok (st, Ok (firstn sep ret)) else Ok (st, Err)).
(** ocb.go:238-241: the two appends to chunkX write into the caller's array when its capacity
    allows; [spare] is what lies between len(plaintext) and cap(plaintext). *)
Definition ocb_spare (pt spare : bytes) : bytes :=
  let k := length pt mod 16 in
  if k =? 0 then spare
  else match spare with
       | [] => []
       | _ => let spare := splice 0 [128%Z] spare in
              if 16 - k <=? length spare then splice 1 (repeat 0%Z (16 - k - 1)) spare else spare
       end.
(** a sequence of calls on one object *)
Inductive aop := ASeal (dst nonce pt ad : bytes) | AOpen (dst nonce ct ad : bytes).
Fixpoint ocb_run (c : cipher) (nsz tsz : nat) (st : ocbst) (ops : list aop) : res (list (res bytes)) :=
  match ops with
  | [] => Ok []
  | ASeal dst n p a :: r =>
      rbind (ocb_seal false c nsz tsz st dst n p a) (fun '(st, o) => rbind (ocb_run c nsz tsz st r) (fun os => Ok (Ok o :: os)))
  | AOpen dst n p a :: r =>
      rbind (ocb_open false c nsz tsz st dst n p a) (fun '(st, o) => rbind (ocb_run c nsz tsz st r) (fun os => Ok (o :: os)))
  end.
