(** Model of /repo/padding/*.go.
    A text is a byte string, a block size is a Go int (Z). [append] is list
    append here; its effect on the caller's backing array is modelled
    separately at the end of this file (section "caller memory"). *)
From Verif Require Import Base.
Open Scope Z_scope.

Definition zlen {A} (l : list A) : Z := Z.of_nat (length l).

(** [blockSize - n%blockSize], the expression used by every scheme
    (pkcs7.go:30, pkcs5.go:32, x923.go:31, iso10126.go:29, iso7816_4.go:30,
    iso97971.go:29, pboc2.go:30, zero.go:28, tbc.go:30). *)
Definition pad_count (text : bytes) (bs : Z) : Z := bs - zlen text mod bs.

(** The last byte of a non-empty slice, [src[n-1]]. *)
Definition last_byte (src : bytes) : Z := last src 0.

(** padding/pkcs7.go:23-34 *)
Definition pkcs7_pad (text : bytes) (bs : Z) : bytes :=
  if bs <? 1 then text
  else let ps := pad_count text bs in
       text ++ repeat (to_byte ps) (Z.to_nat ps).

(** padding/pkcs7.go:37-58. The loop over [padding] is a [forallb]. *)
Definition pkcs7_unpad (src : bytes) : res bytes :=
  match src with
  | [] => Err
  | _ =>
      let u := last_byte src in
      let num := zlen src - u in
      if num <? 0 then Err
      else if forallb (fun b => b =? to_byte u)
                      (firstn (Z.to_nat u) (skipn (Z.to_nat num) src))
           then Ok (firstn (Z.to_nat num) src)
           else Err
  end.

(** padding/pkcs5.go:23-36: the block size argument is ignored, 8 is used. *)
Definition pkcs5_pad (text : bytes) (_bs : Z) : bytes :=
  let ps := pad_count text 8 in
  text ++ repeat (to_byte ps) (Z.to_nat ps).

(** padding/pkcs5.go:39-60 *)
Definition pkcs5_unpad (src : bytes) : res bytes :=
  match src with
  | [] => Err
  | _ =>
      let u := last_byte src in
      let num := zlen src - u in
      if (num <? 0) || (8 <? u) then Err
      else if forallb (fun b => b =? to_byte u)
                      (firstn (Z.to_nat u) (skipn (Z.to_nat num) src))
           then Ok (firstn (Z.to_nat num) src)
           else Err
  end.

(** padding/x923.go:25-38: zeros are appended, then the last byte of the whole
    text is overwritten by the count. *)
Definition x923_pad (text : bytes) (bs : Z) : bytes :=
  if bs <? 1 then text
  else let oh := pad_count text bs in
       let t := text ++ repeat 0 (Z.to_nat oh) in
       splice (length t - 1) [to_byte oh] t.

(** padding/x923.go:40-61 *)
Definition x923_unpad (src : bytes) : res bytes :=
  match src with
  | [] => Err
  | _ =>
      let u := last_byte src in
      let num := zlen src - u in
      if num <? 0 then Err
      else if forallb (fun b => b =? 0)
                      (firstn (Z.to_nat (u - 1)) (skipn (Z.to_nat num) src))
           then Ok (firstn (Z.to_nat num) src)
           else Err
  end.

(** padding/iso10126.go:22-36. [rnd] is what randomBytes(paddingSize-1)
    returned (padding.go:17-26); its length is paddingSize-1. *)
Definition iso10126_pad (rnd : bytes) (text : bytes) (bs : Z) : bytes :=
  if bs <? 1 then text
  else let ps := pad_count text bs in
       (text ++ rnd) ++ [to_byte ps].

(** padding/iso10126.go:38-50 *)
Definition iso10126_unpad (src : bytes) : res bytes :=
  match src with
  | [] => Err
  | _ =>
      let num := zlen src - last_byte src in
      if num <? 0 then Err else Ok (firstn (Z.to_nat num) src)
  end.

(** padding/iso7816_4.go:23-37, iso97971.go:23-36, pboc2.go:24-37 (the three
    bodies are identical): zeros are appended and [text[num] = 0x80]. *)
Definition iso7816_pad (text : bytes) (bs : Z) : bytes :=
  if bs <? 1 then text
  else let oh := pad_count text bs in
       splice (length text) [128] (text ++ repeat 0 (Z.to_nat oh)).

(** bytes.LastIndexByte(src, c); None is -1. *)
Fixpoint last_index (c : Z) (src : bytes) : option nat :=
  match src with
  | [] => None
  | x :: r =>
      match last_index c r with
      | Some i => Some (S i)
      | None => if x =? c then Some O else None
      end
  end.

(** padding/iso7816_4.go:39-58, iso97971.go:38-57, pboc2.go:39-58 *)
Definition iso7816_unpad (src : bytes) : res bytes :=
  match src with
  | [] => Err
  | _ =>
      match last_index 128 src with
      | None => Err
      | Some num =>
          if forallb (fun b => b =? 0) (skipn 1 (skipn num src))
          then Ok (firstn num src)
          else Err
      end
  end.

(** padding/zero.go:21-32 *)
Definition zero_pad (text : bytes) (bs : Z) : bytes :=
  if bs <? 1 then text
  else text ++ repeat 0 (Z.to_nat (pad_count text bs)).

(** bytes.TrimRight(src, "\x00"), see padding/zero.go:34-36 *)
Fixpoint trim_right (c : Z) (src : bytes) : bytes :=
  match src with
  | [] => []
  | x :: r =>
      match trim_right c r with
      | [] => if x =? c then [] else [x]
      | t => x :: t
      end
  end.
Definition zero_unpad (src : bytes) : res bytes := Ok (trim_right 0 src).

(** padding/tbc.go:23-49 *)
Definition tbc_pad (text : bytes) (bs : Z) : bytes :=
  if bs <? 1 then text
  else let ps := pad_count text bs in
       let pb := match text with
                 | [] => 255
                 | _ => if negb (Z.land (last_byte text) 1 =? 0) then 0 else 255
                 end in
       text ++ repeat pb (Z.to_nat ps).

(** padding/tbc.go:51-97. The backwards loop from n-2 that stops at the first
    byte different from [c] computes [trim_right c] of the first n-1 bytes. *)
Definition tbc_unpad (src : bytes) : res bytes :=
  match src with
  | [] => Err
  | _ =>
      let lb := last_byte src in
      if lb =? 0 then
        match trim_right 0 (removelast src) with
        | [] => Err
        | r => if Z.land (last_byte r) 1 =? 0 then Err else Ok r
        end
      else if lb =? 255 then
        match trim_right 255 (removelast src) with
        | [] => Ok []
        | r => if negb (Z.land (last_byte r) 1 =? 0) then Err else Ok r
        end
      else Err
  end.

(** padding/pkcs1.go:14-16: the block type; any string other than "00","01","02"
    is [BTother]. *)
Inductive pkcs1_bt := BT00 | BT01 | BT02 | BTother.

(** padding/pkcs1.go:34-77. [rnd] is what randomBytes(paddingSize) returned. *)
Definition pkcs1_pad (bt : pkcs1_bt) (rnd : bytes) (text : bytes) (bs : Z) : bytes :=
  if bs <? 1 then text
  else let ps := bs - 3 - zlen text in
       if ps <? 8 then text
       else
         let t := text ++ [0] in
         let t := match bt with
                  | BT00 => (t ++ [0]) ++ repeat 0 (Z.to_nat ps)
                  | BT01 => (t ++ [1]) ++ repeat 255 (Z.to_nat ps)
                  | BT02 => (t ++ [2]) ++ rnd
                  | BTother => t
                  end in
         (t ++ [0]) ++ [to_byte (zlen text)].

(** padding/pkcs1.go:79-91 *)
Definition pkcs1_unpad (src : bytes) : res bytes :=
  match src with
  | [] => Err
  | _ =>
      let count := last_byte src in
      if zlen src <? count then Err else Ok (firstn (Z.to_nat count) src)
  end.

(** ** Caller memory
    A Go slice [arr[0:len]] with capacity [length arr]. *)
Record gslice := { arr : bytes; slen : nat }.
Definition view (s : gslice) : bytes := firstn (slen s) (arr s).

(** Go's builtin append: writes into the backing array when the capacity
    suffices, otherwise allocates. Returns the new slice contents and the
    caller's backing array afterwards. *)
Definition go_append (s : gslice) (ys : bytes) : bytes * bytes :=
  if (slen s + length ys <=? length (arr s))%nat
  then (view s ++ ys, splice (slen s) ys (arr s))
  else (view s ++ ys, arr s).

(** padding/pkcs7.go:23-34 with the effect of its append on the caller's
    array. *)
Definition pkcs7_pad_mem (s : gslice) (bs : Z) : bytes * bytes :=
  if bs <? 1 then (view s, arr s)
  else let ps := pad_count (view s) bs in
       go_append s (repeat (to_byte ps) (Z.to_nat ps)).
