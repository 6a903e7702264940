(** Model of the cipher-feedback stream modes of /repo/mode: cfb.go, cfb8.go,
    cfb1.go, cfb16.go, cfb32.go, cfb64.go, ncfb.go, g3413cfb.go, gcfb.go, ocfb.go.

    A call is (dst, src): the previous contents of dst matter only for cfb.go and
    g3413cfb.go, whose register copies read past the bytes just written. For an
    in-place call dst and src are the same memory: the same initial contents, and
    (g3413cfb only, flag [ip]) src reads after the XOR see the new bytes. *)
From Verif Require Import Base BlockModeModel StreamModel.
Set Implicit Arguments.

Section feedback.
  Variable c : cipher.
  Let bs := bsz c.

  (** ** cfb.go *)
  Record cfb_st := { cnext : bytes; cout : bytes; cused : nat }.
  (** mode/cfb.go:68-84 *)
  Definition cfb_new (iv : bytes) : cfb_st :=
    {| cnext := iv; cout := repeat 0%Z bs; cused := bs |}.
  (** mode/cfb.go:28-50; one unit of fuel per turn *)
  Fixpoint cfb_loop (fuel : nat) (decrypt : bool) (st : cfb_st) (dst src : bytes)
    : option (cfb_st * bytes) :=
    match src with
    | [] => Some (st, [])
    | _ =>
      match fuel with
      | O => None
      | S f =>
          let st := if cused st =? length (cout st)
                    then {| cnext := cnext st; cout := enc c (cnext st); cused := 0 |} else st in
          let u := cused st in
          let next := if decrypt then copy_at u src (cnext st) else cnext st in
          let o := xorl src (skipn u (cout st)) in
          let n := length o in
          let dst := o ++ skipn n dst in
          let next := if decrypt then next else copy_at u dst next in
          match cfb_loop f decrypt {| cnext := next; cout := cout st; cused := u + n |}
                  (skipn n dst) (skipn n src) with
          | None => None
          | Some (st', os) => Some (st', o ++ os)
          end
      end
    end.
  (** mode/cfb.go:20-27 *)
  Definition cfb_call (decrypt : bool) (st : cfb_st) (x : bytes * bytes) : res (cfb_st * bytes) :=
    if length (fst x) <? length (snd x) then Panic
    else of_opt (cfb_loop (length (snd x)) decrypt st (fst x) (snd x)).

  (** ** Byte-at-a-time loops *)
  Fixpoint byte_map {S} (step : S -> Z -> S * Z) (st : S) (src : bytes) : S * bytes :=
    match src with
    | [] => (st, [])
    | b :: r => let '(st1, o) := step st b in
                let '(st2, os) := byte_map step st1 r in (st2, o :: os)
    end.
  Definition byte_call {S} (step : S -> Z -> S * Z) : S -> bytes * bytes -> res (S * bytes) :=
    stream_call (fun st src => Ok (byte_map step st src)).

  (** mode/cfb8.go:28-41: the register is shifted by copy(in[:bs-1], in[1:]) and
      its last byte set. *)
  Definition cfb8_step (decrypt : bool) (r : bytes) (b : Z) : bytes * Z :=
    let out := enc c r in
    let r1 := gocopy (firstn (bs - 1) r) (skipn 1 r) ++ skipn (bs - 1) r in
    let r2 := if decrypt then copy_at (bs - 1) [b] r1 else r1 in
    let d := Z.lxor b (nth 0 out 0%Z) in
    let r3 := if decrypt then r2 else copy_at (bs - 1) [d] r2 in
    (r3, d).
  Definition cfb8_call (decrypt : bool) := byte_call (cfb8_step decrypt).

  (** mode/ocfb.go:66-85 and 127-155: the register [fre] doubles as keystream. *)
  Record ocfb_st := { ofre : bytes; oused : nat }.
  Definition ocfb_step (decrypt : bool) (st : ocfb_st) (b : Z) : ocfb_st * Z :=
    let st := if oused st =? length (ofre st) then {| ofre := enc c (ofre st); oused := 0 |} else st in
    let o := Z.lxor (nth (oused st) (ofre st) 0%Z) b in
    ({| ofre := copy_at (oused st) [if decrypt then b else o] (ofre st); oused := oused st + 1 |}, o).
  Definition ocfb_call (decrypt : bool) := byte_call (ocfb_step decrypt).
  (** mode/ocfb.go:31-64: the stream and the prefix *)
  Definition ocfb_enc_new (rnd : bytes) (resync : bool) : res (ocfb_st * bytes) :=
    if negb (length rnd =? bs) then Panic
    else if bs <? 2 then Panic (* x.fre[1], randData[blockSize-2] *)
    else
      let fre := enc c (repeat 0%Z bs) in
      let p0 := xorl rnd fre in
      let fre := enc c p0 in
      let prefix := p0 ++ [Z.lxor (nth 0 fre 0%Z) (nth (bs - 2) rnd 0%Z);
                           Z.lxor (nth 1 fre 0%Z) (nth (bs - 1) rnd 0%Z)] in
      if resync then Ok ({| ofre := enc c (skipn 2 prefix); oused := 0 |}, prefix)
      else Ok ({| ofre := copy_at 0 (skipn bs prefix) fre; oused := 2 |}, prefix).
  (** mode/ocfb.go:94-125: the stream and the new contents of prefix. A wrong
      prefix panics. *)
  Definition ocfb_dec_new (prefix : bytes) (resync : bool) : res (ocfb_st * bytes) :=
    if negb (length prefix =? bs + 2) then Panic
    else if bs <? 2 then Panic
    else
      let fre := enc c (repeat 0%Z bs) in
      let q0 := xorl (firstn bs prefix) fre in
      let fre := enc c (firstn bs prefix) in
      let a := Z.lxor (nth bs prefix 0%Z) (nth 0 fre 0%Z) in
      let b := Z.lxor (nth (bs + 1) prefix 0%Z) (nth 1 fre 0%Z) in
      if negb (Z.eqb (nth (bs - 2) q0 0%Z) a) || negb (Z.eqb (nth (bs - 1) q0 0%Z) b) then Panic
      else
        if resync then Ok ({| ofre := enc c (skipn 2 prefix); oused := 0 |}, q0 ++ [a; b])
        else Ok ({| ofre := copy_at 0 (skipn bs prefix) fre; oused := 2 |}, q0 ++ [a; b]).

  (** ** Segment loops: CFB16 (k = 2), CFB32 (k = 4), CFB64 (k = 8)
      mode/cfb16.go:31-55, cfb32.go:31-55, cfb64.go:32-56: for every segment,
      copy(in, in[startIn:]); copy(in[startIn:], segment) with startIn = len(segment);
      in[startIn:] panics when startIn > len(in). *)
  Fixpoint cfbk_loop (decrypt : bool) (r : bytes) (segs : list bytes) : res (bytes * bytes) :=
    match segs with
    | [] => Ok (r, [])
    | s :: rest =>
        let out := enc c r in
        let d := gocopy (repeat 0%Z (length s)) (xorl s out) in
        let n := length s in
        if length r <? n then Panic
        else
          let r1 := gocopy r (skipn n r) in
          let r2 := copy_at n (if decrypt then s else d) r1 in
          rbind (cfbk_loop decrypt r2 rest) (fun '(r', os) => Ok (r', d ++ os))
    end.
  Definition cfbk_call (k : nat) (decrypt : bool) : bytes -> bytes * bytes -> res (bytes * bytes) :=
    stream_call (fun r src => cfbk_loop decrypt r (chunks k src)).

  (** ** ncfb.go:26-63. outUsed is always len(out) at the start of a turn (it is
      initialised to blockSize and grows by bs from 0), so out is recomputed for
      every, possibly partial, block and next[:n] is overwritten. *)
  Fixpoint ncfb_loop (decrypt : bool) (r : bytes) (segs : list bytes) : bytes * bytes :=
    match segs with
    | [] => (r, [])
    | s :: rest =>
        let out := enc c r in
        let d := gocopy (repeat 0%Z (length s)) (xorl s out) in
        let '(r', os) := ncfb_loop decrypt (copy_at 0 (if decrypt then s else d) r) rest in
        (r', d ++ os)
    end.
  Definition ncfb_call (decrypt : bool) : bytes -> bytes * bytes -> res (bytes * bytes) :=
    stream_call (fun r src => Ok (ncfb_loop decrypt r (chunks bs src))).

  (** ** g3413cfb.go *)
  Record g3413cfb_st := { gnext : bytes; gout : bytes; gused : nat }.
  (** mode/g3413cfb.go:82-108; s = bitBlockSize / 8 *)
  Definition g3413cfb_new (s : nat) (iv : bytes) : option g3413cfb_st :=
    if negb (length iv =? 2 * bs) then None
    else if bs <? s then None
    else Some {| gnext := iv; gout := repeat 0%Z bs; gused := s |}.
  (** mode/g3413cfb.go:36-55. [ip]: dst and src are the same memory. Slicing
      out[used:used+s] beyond cap(out) = bs, or next[used+s:] beyond 2 bs, panics. *)
  Fixpoint g3413cfb_loop (fuel : nat) (ip decrypt : bool) (s : nat) (st : g3413cfb_st) (dst src : bytes)
    : res (g3413cfb_st * bytes) :=
    match src with
    | [] => Ok (st, [])
    | _ =>
      match fuel with
      | O => Err
      | S f =>
          let st := if gused st =? s
                    then {| gnext := gnext st; gout := enc c (firstn bs (gnext st)); gused := 0 |} else st in
          let u := gused st in
          if (bs <? u + s) || (length (gnext st) <? u + s) || (length (gnext st) <? u + (2 * bs - s)) then Panic
          else
            let o := xorl src (slice u s (gout st)) in
            let n := length o in
            let dst1 := o ++ skipn n dst in
            let src1 := if ip then o ++ skipn n src else src in
            let next := gocopy (gnext st) (skipn (u + s) (gnext st)) in
            let next := copy_at (u + (2 * bs - s)) (if decrypt then src1 else dst1) next in
            rbind (g3413cfb_loop f ip decrypt s {| gnext := next; gout := gout st; gused := u + n |}
                     (skipn n dst1) (skipn n src1))
              (fun '(st', os) => Ok (st', o ++ os))
      end
    end.
  Definition g3413cfb_call (ip decrypt : bool) (s : nat) (st : g3413cfb_st) (x : bytes * bytes)
    : res (g3413cfb_st * bytes) :=
    if length (fst x) <? length (snd x) then Panic
    else g3413cfb_loop (length (snd x)) ip decrypt s st (fst x) (snd x).

  (** ** cfb1.go *)
  (** mode/cfb1.go:62-88 leftShiftBytes *)
  Fixpoint lshift (r : bytes) (carry : Z) : bytes :=
    match r with
    | [] => []
    | [b] => [Z.lor (Z.shiftl b 1 mod 256) carry]
    | b :: ((b' :: _) as rest) =>
        Z.lor (Z.shiftl b 1 mod 256) (Z.land (Z.shiftr b' 7) 1) :: lshift rest carry
    end.
  (** mode/cfb1.go:31-58: one bit, j = 0..7; [d] is the current value of dst[i];
      [ip]: src[i] is dst[i], read anew at every bit. *)
  Definition cfb1_bit (ip decrypt : bool) (sb : Z) (st : bytes * Z) (j : Z) : bytes * Z :=
    let '(r, d) := st in
    let out := enc c r in
    let outbit := Z.land (Z.shiftr (nth 0 out 0%Z) 7) 1 in
    let srcbit := Z.land (Z.shiftr (if ip then d else sb) (7 - j)) 1 in
    let dstbit := Z.lxor outbit srcbit in
    let movebit := if decrypt then srcbit else dstbit in
    let mask := Z.shiftl 1 (7 - j) in
    (lshift r movebit,
     if Z.eqb dstbit 1 then Z.lor d mask else Z.land d (Z.lxor mask 255)).
  (** the inner loop over j; [d0] is the old dst[i] *)
  Definition cfb1_byte (ip decrypt : bool) (r : bytes) (d0 sb : Z) : bytes * Z :=
    fold_left (cfb1_bit ip decrypt sb) [0;1;2;3;4;5;6;7]%Z (r, d0).
  Fixpoint cfb1_loop (ip decrypt : bool) (r : bytes) (dst src : bytes) : bytes * bytes :=
    match src with
    | [] => (r, [])
    | b :: rest => let '(r1, o) := cfb1_byte ip decrypt r (hd 0%Z dst) b in
                   let '(r2, os) := cfb1_loop ip decrypt r1 (tl dst) rest in (r2, o :: os)
    end.
  Definition cfb1_call (ip decrypt : bool) (r : bytes) (x : bytes * bytes) : res (bytes * bytes) :=
    if length (fst x) <? length (snd x) then Panic
    else Ok (cfb1_loop ip decrypt r (fst x) (snd x)).
End feedback.

(** ** gcfb.go *)
(** mode/gcfb.go:9-14 *)
Definition gcfbC : bytes :=
  [0x69; 0x00; 0x72; 0x22; 0x64; 0xC9; 0x04; 0x23;
   0x8D; 0x3A; 0xDB; 0x96; 0x46; 0xE9; 0x2A; 0xC4;
   0x18; 0xFE; 0xAC; 0x94; 0x00; 0xED; 0x07; 0x12;
   0xC0; 0x86; 0xDC; 0xC2; 0xEF; 0x4C; 0xA9; 0x2B]%Z.
(** The cipher constructor is a total function from keys (an error panics). The
    inner engine is the Go standard library's CFB used only on whole blocks: its
    state is the register [greg]. *)
Record gcfb_st := { greg : bytes; gkey : bytes; giv : bytes; gcnt : nat }.
Section gcfb.
  Variable mk : bytes -> cipher.
  (** mode/gcfb.go:100-133 *)
  Definition gcfb_new (key iv : bytes) : option gcfb_st :=
    if length iv =? bsz (mk key) then Some {| greg := iv; gkey := key; giv := iv; gcnt := 0 |} else None.
  (** mode/gcfb.go:41-74: key meshing *)
  Definition mesh (st : gcfb_st) : gcfb_st :=
    let base := mk (gkey st) in
    let nk := enc base (slice 0 8 gcfbC) ++ enc base (slice 8 8 gcfbC) ++
              enc base (slice 16 8 gcfbC) ++ enc base (slice 24 8 gcfbC) in
    let iv := enc (mk nk) (giv st) in
    {| greg := iv; gkey := gocopy (gkey st) nk; giv := iv; gcnt := gcnt st |}.
  Definition gcfb_block (decrypt : bool) (st : gcfb_st) (b : bytes) : gcfb_st * bytes :=
    let st := if (0 <? gcnt st) && (gcnt st mod 1024 =? 0) then mesh st else st in
    let o := xorl b (enc (mk (gkey st)) (greg st)) in
    ({| greg := if decrypt then b else o; gkey := gkey st; giv := giv st; gcnt := gcnt st + length b |}, o).
  (** mode/gcfb.go:40-82: src[:bs] / src[bs:] panic on a final partial block
      (after the whole blocks have been processed) *)
  Fixpoint gcfb_loop (bs : nat) (decrypt : bool) (st : gcfb_st) (blocks : list bytes) : res (gcfb_st * bytes) :=
    match blocks with
    | [] => Ok (st, [])
    | b :: rest =>
        if length b <? bs then Panic
        else let '(st1, o) := gcfb_block decrypt st b in
             rbind (gcfb_loop bs decrypt st1 rest) (fun '(st2, os) => Ok (st2, o ++ os))
    end.
  Definition gcfb_call (bs : nat) (decrypt : bool) : gcfb_st -> bytes * bytes -> res (gcfb_st * bytes) :=
    stream_call (fun st src => gcfb_loop bs decrypt st (chunks bs src)).
End gcfb.
