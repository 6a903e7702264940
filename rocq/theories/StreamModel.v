(** Model of the stream modes of /repo/mode that keep a keystream buffer:
    ofb.go, ofb8.go, nofb.go, g3413ofb.go, g3413ctr.go, gofb.go.

    XORKeyStream returns nothing, so in this file [Err] stands for "the loop
    never ends" (no progress); [Panic] for a run-time panic. XORBytes reads and
    writes position by position and the keystream never aliases the caller's
    memory, so in-place calls behave as others and only src matters. *)
From Verif Require Import Base BlockModeModel.
Set Implicit Arguments.

(** [copy(l[off:], d)] *)
Definition copy_at {A} (off : nat) (d l : list A) : list A :=
  firstn off l ++ gocopy (skipn off l) d.

(** The buffer fields: generator registers, the whole backing array of [out]
    (cap(out) bytes), len(out), outUsed. *)
Record kst (G : Type) := { kg : G; kbuf : bytes; klen : nat; kused : nat }.

(** bufSize: ofb.go:27-30, ofb8.go:24-27, nofb.go:32-35, g3413ofb.go:31-34,
    g3413ctr.go:49-52, gofb.go:35-38; make([]byte, 0, bufSize) is zeroed. *)
Definition buf_size (bs : nat) : nat := if 512 <? bs then bs else 512.
Definition kst_new {G} (bs : nat) (g : G) : kst G :=
  {| kg := g; kbuf := repeat 0%Z (buf_size bs); klen := 0; kused := 0 |}.

Section buffered.
  Variable G : Type.
  (** one turn of the refill loop: new registers and the bytes copied *)
  Variable gen : G -> G * bytes.
  (** how far [remain] advances per turn, and the loop condition *)
  Variable adv : nat.
  Variable more : nat -> bool.

  (** [for more(remain) { ...; copy(x.out[remain:], o); remain += adv }] *)
  Fixpoint fill (fuel : nat) (g : G) (buf : bytes) (remain : nat) : option (G * bytes * nat) :=
    match fuel with
    | O => None
    | S f =>
        if more remain then
          let '(g', o) := gen g in fill f g' (copy_at remain o buf) (remain + adv)
        else Some (g, buf, remain)
    end.

  (** refill: ofb.go:43-61, ofb8.go:40-66, nofb.go:48-68, g3413ofb.go:48-71,
      gofb.go:53-85 ([early] = true: the early return) and g3413ctr.go:67-95
      ([early] = false). *)
  Definition refill (early : bool) (st : kst G) : option (kst G) :=
    let remain := klen st - kused st in
    if early && (kused st <? remain) then Some st
    else
      let buf := copy_at 0 (slice (kused st) remain (kbuf st)) (kbuf st) in
      match fill (S (length buf)) (kg st) buf remain with
      | None => None
      | Some (g', buf', remain') =>
          Some {| kg := g'; kbuf := buf'; klen := remain'; kused := 0 |}
      end.

  (** [if x.outUsed >= len(x.out)-lim { x.refill() }]; with lim > len(out) the
      Go int is negative and the test true, as here. *)
  Definition check_refill (early : bool) (lim : nat) (st : kst G) : option (kst G) :=
    if klen st - lim <=? kused st then refill early st else Some st.

  (** The XORKeyStream loop of ofb.go:71-80, g3413ofb.go:81-92, gofb.go:101-112:
      XOR with out[outUsed:]. One unit of fuel per turn; [None]: fuel ran out. *)
  Fixpoint xor_loop (fuel lim : nat) (st : kst G) (src : bytes) : option (kst G * bytes) :=
    match src with
    | [] => Some (st, [])
    | _ =>
      match fuel with
      | O => None
      | S f =>
          match check_refill true lim st with
          | None => None
          | Some st =>
              let o := xorl src (slice (kused st) (klen st - kused st) (kbuf st)) in
              let n := length o in
              let st' := {| kg := kg st; kbuf := kbuf st; klen := klen st; kused := kused st + n |} in
              match xor_loop f lim st' (skipn n src) with
              | None => None
              | Some (st'', os) => Some (st'', o ++ os)
              end
          end
      end
    end.

  (** The byte-wise loop of ofb8.go:76-87. Reading x.out[outUsed] past len(out)
      panics. *)
  Fixpoint byte_loop (lim : nat) (st : kst G) (src : bytes) : res (kst G * bytes) :=
    match src with
    | [] => Ok (st, [])
    | b :: rest =>
        match check_refill true lim st with
        | None => Err
        | Some st =>
            if klen st <=? kused st then Panic
            else
              let o := Z.lxor b (nth (kused st) (kbuf st) 0%Z) in
              let st' := {| kg := kg st; kbuf := kbuf st; klen := klen st; kused := kused st + 1 |} in
              rbind (byte_loop lim st' rest) (fun '(st'', os) => Ok (st'', o :: os))
        end
    end.

  (** The loop of g3413ctr.go:105-116: XOR with out[outUsed:outUsed+s], a slice
      expression bounded by cap(out), not len(out). *)
  Fixpoint seg_loop (fuel s : nat) (st : kst G) (src : bytes) : res (kst G * bytes) :=
    match src with
    | [] => Ok (st, [])
    | _ =>
      match fuel with
      | O => Err
      | S f =>
          match check_refill false s st with
          | None => Err
          | Some st =>
              if length (kbuf st) <? kused st + s then Panic
              else
                let o := xorl src (slice (kused st) s (kbuf st)) in
                let n := length o in
                let st' := {| kg := kg st; kbuf := kbuf st; klen := klen st; kused := kused st + n |} in
                rbind (seg_loop f s st' (skipn n src)) (fun '(st'', os) => Ok (st'', o ++ os))
          end
      end
    end.

  (** The loop of nofb.go:79-97: block by block, outUsed += bs even for a
      partial block; out[outUsed:] with outUsed > len(out) panics. [blocks] are
      src[i:min(i+bs,len)]. *)
  Fixpoint nofb_loop (bs : nat) (st : kst G) (blocks : list bytes) : res (kst G * bytes) :=
    match blocks with
    | [] => Ok (st, [])
    | b :: rest =>
        match check_refill true bs st with
        | None => Err
        | Some st =>
            if klen st <? kused st then Panic
            else
              (* dstBytes starts as zeros and XORBytes writes the common prefix *)
              let o := gocopy (repeat 0%Z (length b))
                         (xorl b (slice (kused st) (klen st - kused st) (kbuf st))) in
              let st' := {| kg := kg st; kbuf := kbuf st; klen := klen st; kused := kused st + bs |} in
              rbind (nofb_loop bs st' rest) (fun '(st'', os) => Ok (st'', o ++ os))
        end
    end.
End buffered.

(** XORKeyStream's guard on dst (all modes: "output smaller than input"). A call
    is the pair (dst, src); the result is dst[:len(src)]. *)
Definition stream_call {S} (f : S -> bytes -> res (S * bytes)) (st : S) (x : bytes * bytes)
  : res (S * bytes) :=
  if length (fst x) <? length (snd x) then Panic else f st (snd x).

Definition of_opt {A} (o : option A) : res A := match o with Some a => Ok a | None => Err end.

Section stream_modes.
  Variable c : cipher.
  Let bs := bsz c.

  (** mode/ofb.go:53-57 and nofb.go:59-63: Encrypt(cipher, cipher), copy it. *)
  Definition ofb_gen (g : bytes) : bytes * bytes := let g' := enc c g in (g', g').
  (** ofb.go:53: [remain < len(x.out)-bs] with len(x.out) = cap *)
  Definition ofb_more (remain : nat) : bool := remain <? buf_size bs - bs.
  (** mode/ofb.go:63-81 *)
  Definition ofb_call : kst bytes -> bytes * bytes -> res (kst bytes * bytes) :=
    stream_call (fun st src => of_opt (xor_loop ofb_gen bs ofb_more (length src) bs st src)).
  (** mode/ofb.go:21-41 *)
  Definition ofb_new (iv : bytes) : kst bytes := kst_new bs iv.

  (** mode/ofb8.go:52-60: x.cipher shifted left one byte, dst[0] appended. *)
  Definition ofb8_gen (g : bytes) : bytes * bytes :=
    let d := nth 0 (enc c g) 0%Z in
    let g1 := gocopy g (skipn 1 g) in
    (copy_at (length g - 1) [d] g1, [d]).
  (** mode/ofb8.go:52: [remain <= len(x.out)-1] *)
  Definition ofb8_more (remain : nat) : bool := remain <=? buf_size bs - 1.
  (** mode/ofb8.go:68-88 *)
  Definition ofb8_call : kst bytes -> bytes * bytes -> res (kst bytes * bytes) :=
    stream_call (fun st src => byte_loop ofb8_gen 1 ofb8_more bs st src).
  Definition ofb8_new (iv : bytes) : kst bytes := kst_new bs iv.

  (** mode/nofb.go:70-98 *)
  Definition nofb_call : kst bytes -> bytes * bytes -> res (kst bytes * bytes) :=
    stream_call (fun st src => nofb_loop ofb_gen bs ofb_more bs st (chunks bs src)).

  (** mode/g3413ofb.go:58-66: y = E(cipher[:bs]); cipher = cipher[bs:] || y *)
  Definition g3413ofb_gen (g : bytes) : bytes * bytes :=
    let y := enc c (firstn bs g) in
    (copy_at bs y (gocopy g (skipn bs g)), y).
  Definition g3413ofb_call : kst bytes -> bytes * bytes -> res (kst bytes * bytes) :=
    stream_call (fun st src => of_opt (xor_loop g3413ofb_gen bs ofb_more (length src) bs st src)).
  Definition g3413ofb_new (iv : bytes) : kst bytes := kst_new bs iv.

  (** mode/g3413ctr.go:84-91: increment from the last byte, stopping at the
      first byte that does not become 0. [rctr] is the counter reversed. *)
  Fixpoint ctr_inc_rev (rctr : bytes) : bytes :=
    match rctr with
    | [] => []
    | b :: r => let b' := ((b + 1) mod 256)%Z in
                if (b' =? 0)%Z then b' :: ctr_inc_rev r else b' :: r
    end.
  Definition ctr_inc (ctr : bytes) : bytes := rev (ctr_inc_rev (rev ctr)).
  (** mode/g3413ctr.go:77-83 *)
  Definition g3413ctr_gen (s : nat) (ctr : bytes) : bytes * bytes :=
    (ctr_inc ctr, firstn s (enc c ctr)).
  (** mode/g3413ctr.go:77: [remain <= len(x.out)-bs] with bs = x.s; a Go int. *)
  Definition g3413ctr_more (s remain : nat) : bool :=
    (Z.of_nat remain <=? Z.of_nat (buf_size bs) - Z.of_nat s)%Z.
  (** mode/g3413ctr.go:97-117. out[:s] with s > blockSize panics in refill. *)
  Definition g3413ctr_call (s : nat) : kst bytes -> bytes * bytes -> res (kst bytes * bytes) :=
    stream_call (fun st src =>
      if negb (length src =? 0) && (bs <? s) then Panic
      else seg_loop (g3413ctr_gen s) s (g3413ctr_more s) (length src) s st src).
  (** mode/g3413ctr.go:38-65: ctr = iv || 0..0, [None]: panic on a wrong length *)
  Definition g3413ctr_new (iv : bytes) : option (kst bytes) :=
    if length iv =? bs / 2 then Some (kst_new bs (gocopy (repeat 0%Z bs) iv)) else None.

  (** mode/gofb.go: registers x.cipher, N3, N4 (int32 values). *)
  Record gofb_regs := { gcipher : bytes; gN3 : Z; gN4 : Z }.
  (** Go's int32 conversion / wrap-around *)
  Definition int32 (z : Z) : Z := ((z + 2147483648) mod 4294967296 - 2147483648)%Z.
  Definition uint32 (z : Z) : Z := (z mod 4294967296)%Z.
  Definition C1 : Z := 16843012%Z.
  Definition C2 : Z := 16843009%Z.
  (** mode/gofb.go:63-80 *)
  Definition gofb_gen (g : gofb_regs) : gofb_regs * bytes :=
    let n3 := int32 (gN3 g + C2) in
    let n4 := int32 (gN4 g + C1) in
    let n4 := if (n4 <? C1)%Z then (if (0 <? n4)%Z then int32 (n4 + 1) else n4) else n4 in
    let ci := copy_at 0 (le_bytes 4 (uint32 n3)) (gcipher g) in
    let ci := copy_at 4 (le_bytes 4 (uint32 n4)) ci in
    let ci := enc c ci in
    ({| gcipher := ci; gN3 := n3; gN4 := n4 |}, ci).
  (** mode/gofb.go:87-113: N3, N4 are recomputed from E(x.cipher) at every call *)
  Definition gofb_call : kst gofb_regs -> bytes * bytes -> res (kst gofb_regs * bytes) :=
    stream_call (fun st src =>
      if bs <? 8 then Panic (* Uint32(ofbOutV[4:]) *) else
      let v := enc c (gcipher (kg st)) in
      let g := {| gcipher := gcipher (kg st);
                  gN3 := int32 (le_val (slice 0 4 v)); gN4 := int32 (le_val (slice 4 4 v)) |} in
      let st := {| kg := g; kbuf := kbuf st; klen := klen st; kused := kused st |} in
      of_opt (xor_loop gofb_gen bs ofb_more (length src) bs st src)).
  Definition gofb_new (iv : bytes) : kst gofb_regs :=
    kst_new bs {| gcipher := iv; gN3 := 0; gN4 := 0 |}.
End stream_modes.
