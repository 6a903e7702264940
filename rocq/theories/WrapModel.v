(** Model of /repo/mode/wrap.go (RFC 3394 key wrap) and wrap_pad.go (RFC 5649).
    dst is modelled by its whole contents. The register A of the code is 16 bytes
    long: its low half is overwritten by R before each use, so only its high half
    is state. src is copied into dst first (memmove), so overlap is harmless. *)
From Verif Require Import Base BlockModeModel StreamModel.
Set Implicit Arguments.

(** mode/wrap.go:9-23 *)
Definition default_iv : bytes := repeat 166%Z 8.
Definition default_aiv : bytes := [166; 89; 89; 166]%Z.
Definition WRAP_MAX : Z := (2 ^ 31)%Z.

(** mode/wrap.go:104-109 and 206-211: A[7] ^= t; the higher bytes only if t > 0xff.
    Go: byte((t >> k) & 0xff). *)
Definition tbyte (t : nat) (k : Z) : Z := Z.land (Z.shiftr (Z.of_nat t) k) 255.
Definition xor_t (t : nat) (a : bytes) : bytes :=
  if 255 <? t
  then xorl a [0; 0; 0; 0; tbyte t 24; tbyte t 16; tbyte t 8; tbyte t 0]%Z
  else xorl a [0; 0; 0; 0; 0; 0; 0; tbyte t 0]%Z.

Section wrap.
  Variable c : cipher.
  (** x.b.Encrypt(A, A) on the 16-byte A: the first BlockSize bytes are replaced.
      A block size above 16 makes the cipher panic (checked by the callers below). *)
  Definition enc16 (a : bytes) : bytes := enc c (firstn (bsz c) a) ++ skipn (bsz c) a.
  Definition dec16 (a : bytes) : bytes := dec c (firstn (bsz c) a) ++ skipn (bsz c) a.

  (** mode/wrap.go:98-113, the inner loop: R runs through the 8-byte blocks of dst[8:] *)
  Fixpoint wrap_pass (t : nat) (a : bytes) (rs : list bytes) : nat * bytes * list bytes :=
    match rs with
    | [] => (t, a, [])
    | r :: rest =>
        let b := enc16 (a ++ r) in
        let '(t', a', rs') := wrap_pass (t + 1) (xor_t t (firstn 8 b)) rest in
        (t', a', skipn 8 b :: rs')
    end.
  (** the outer loop of [j] passes *)
  Fixpoint wrap_passes (j t : nat) (a : bytes) (rs : list bytes) : nat * bytes * list bytes :=
    match j with
    | O => (t, a, rs)
    | S j' => let '(t', a', rs') := wrap_pass t a rs in wrap_passes j' t' a' rs'
    end.
  (** mode/wrap.go:92-118 given src already checked *)
  Definition wrap_body (iv src : bytes) : bytes :=
    let '(_, a, rs) := wrap_passes 6 1 (firstn 8 iv) (chunks 8 src) in a ++ concat rs.
  (** mode/wrap.go:75-119: the new contents of dst. iv is x.iv; iv[:8] with a block
      size below 8 panics. *)
  Definition wrap_call (iv dst src : bytes) : res bytes :=
    if negb (length src mod 8 =? 0) then Panic
    else if length dst <? length src + 8 then Panic
    else if (length src <? 16) || (WRAP_MAX <? Z.of_nat (length src))%Z then Panic
    else if (length iv <? 8) || (16 <? bsz c) then Panic
    else Ok (wrap_body iv src ++ skipn (length src + 8) dst).
  (** mode/wrap.go:30-49: iv copied into blockSize bytes *)
  Definition wrap_new (iv : option bytes) : res bytes :=
    let iv := match iv with None => default_iv | Some v => v end in
    if length iv <? 8 then Panic else Ok (gocopy (repeat 0%Z (bsz c)) iv).

  (** mode/wrap.go:203-219: the inner loop; the blocks come last first *)
  Fixpoint unwrap_pass (t : nat) (a : bytes) (rs : list bytes) : nat * bytes * list bytes :=
    match rs with
    | [] => (t, a, [])
    | r :: rest =>
        let b := dec16 (xor_t t a ++ r) in
        let '(t', a', rs') := unwrap_pass (t - 1) (firstn 8 b) rest in
        (t', a', skipn 8 b :: rs')
    end.
  Fixpoint unwrap_passes (j t : nat) (a : bytes) (rs : list bytes) : nat * bytes * list bytes :=
    match j with
    | O => (t, a, rs)
    | S j' => let '(t', a', rs') := unwrap_pass t a rs in unwrap_passes j' t' a' rs'
    end.
  (** mode/wrap.go:183-226 cryptBlocks: Err, or the recovered iv and out[:inlen-8].
      Each pass starts again from the last block: the list is kept reversed. *)
  Definition unwrap_raw (src : bytes) : res (bytes * bytes) :=
    let inlen := length src - 8 in
    if negb (inlen mod 8 =? 0) || (inlen <? 16) || (WRAP_MAX <? Z.of_nat inlen)%Z then Err
    else if 16 <? bsz c then Panic
    else
      let '(_, a, rs) := unwrap_passes 6 (6 * (inlen / 8)) (firstn 8 src) (rev (chunks 8 (skipn 8 src))) in
      Ok (a, concat (rev rs)).
  (** mode/wrap.go:149-181: the new contents of dst; a failure zeroes dst[:len(src)-8] *)
  Definition unwrap_call (iv dst src : bytes) : res bytes :=
    if negb (length src mod 8 =? 0) then Panic
    else if length dst <? length src - 8 then Panic
    else if length src =? 0 then Ok dst
    else
      let empty := repeat 0%Z (length src - 8) in
      match unwrap_raw src with
      | Err => Ok (gocopy dst empty)
      | Panic => Panic
      | Ok (got, out) =>
          if length iv <? 8 then Panic
          else if bytes_eqb got (firstn 8 iv) then Ok (gocopy dst out)
          else Ok (gocopy (gocopy dst out) empty)
      end.

  (** ** wrap_pad.go *)
  (** mode/wrap_pad.go:14-33 *)
  Definition wrappad_new (iv : option bytes) : res bytes :=
    let iv := match iv with None => default_aiv | Some v => v end in
    if length iv <? 4 then Panic else Ok (gocopy (repeat 0%Z (bsz c)) iv).
  Definition aiv_of (icv : bytes) (n : nat) : bytes :=
    firstn 4 icv ++ [tbyte n 24; tbyte n 16; tbyte n 8; tbyte n 0].
  (** mode/wrap_pad.go:63-120: inner NewWrapEncrypter copies the 8-byte aiv into
      blockSize bytes *)
  Definition wrappad_call (icv dst src : bytes) : res bytes :=
    if negb (length src mod 8 =? 0) then Panic
    else if length dst <? length src + 8 then Panic
    else if (length src =? 0) || (WRAP_MAX <=? Z.of_nat (length src))%Z then Ok dst
    else if length icv <? 4 then Panic
    else
      let aiv := aiv_of icv (length src) in
      if length src =? 8 then
        (if 16 <? bsz c then Panic
         else Ok (enc16 (aiv ++ src) ++ skipn 16 dst))
      else rbind (wrap_new (Some aiv)) (fun iv => wrap_call iv dst src).
  (** mode/wrap_pad.go:161-253. 8*(uint32(n)-1) >= ptext_len is uint32 arithmetic. *)
  Definition uint32_of (l : bytes) : Z :=
    (Z.lor (Z.lor (Z.lor (Z.shiftl (nth 4 l 0) 24) (Z.shiftl (nth 5 l 0) 16))
                  (Z.shiftl (nth 6 l 0) 8)) (nth 7 l 0) mod 2 ^ 32)%Z.
  (** the checks of lines 219-252 on (aiv, dst, padded_len) *)
  Definition wrappad_finish (icv aiv : bytes) (n padded : nat) (dst empty : bytes) : res bytes :=
    if length icv <? 4 then Panic
    else if negb (bytes_eqb (firstn 4 aiv) (firstn 4 icv)) then Ok (gocopy dst empty)
    else
      let pt := uint32_of aiv in
      let n32 := (Z.of_nat n mod 2 ^ 32)%Z in
      if ((pt <=? (8 * (n32 - 1)) mod 2 ^ 32) || ((8 * n32) mod 2 ^ 32 <? pt))%Z then Ok (gocopy dst empty)
      else
        let pl := (Z.of_nat padded - pt)%Z in
        if (pt <? Z.of_nat (length dst))%Z then
          (* bytes.Equal(dst[ptext_len:], zeros[:padding_len]), zeros has 8 bytes *)
          if ((pl <? 0) || (8 <? pl))%Z then Panic
          else if bytes_eqb (skipn (Z.to_nat pt) dst) (repeat 0%Z (Z.to_nat pl)) then Ok (gocopy dst empty)
          else Ok dst
        else Ok dst.
  Definition unwrappad_call (icv dst src : bytes) : res bytes :=
    if negb (length src mod 8 =? 0) then Panic
    else if length dst <? length src - 8 then Panic
    else if length src =? 0 then Ok dst
    else
      let empty := repeat 0%Z (length src - 8) in
      if (length src <? 16) || (WRAP_MAX <? Z.of_nat (length src))%Z then Ok dst
      else
        let n := length src / 8 - 1 in
        if length src =? 16 then
          (if 16 <? bsz c then Panic
           else
             (* buff starts zeroed: bytes beyond the block stay 0 *)
             let buff := dec c (firstn (bsz c) src) ++ repeat 0%Z (16 - bsz c) in
             wrappad_finish icv (firstn 8 buff) n 0 (gocopy dst (slice 8 8 buff)) empty)
        else
          match unwrap_raw src with
          | Err => Ok (gocopy dst empty)
          | Panic => Panic
          | Ok (got, out) => wrappad_finish icv got n (length src - 8) (gocopy dst out) empty
          end.
End wrap.
