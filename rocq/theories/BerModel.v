(** Model of ber/ber.go: Ber2der, the normalisation of BER to DER used by pkcs7 and pkcs12. Offsets and lengths are natural numbers (a length of
    at most four octets with the top bit clear and an offset into a slice fit in an int); the unused tag number and encodeIndent are left out;
    bytes.Buffer never fails. Indexing past the end is [Panic]. Recursion and loops carry [fuel]; running out of it is [Panic] too, which C138
    shows not to happen. The limit of the goroutine stack is not represented. *)
From Verif Require Import Base.
Set Implicit Arguments. Unset Strict Implicit.
Local Open Scope nat_scope.

(** ber.go:14-17, 38-42: asn1Structured and asn1Primitive *)
Inductive obj := Prim (tag : bytes) (len : nat) (content : bytes) | Struc (tag : bytes) (content : list obj).

(** ber.go:93-100 *)
Fixpoint length_length (fuel : nat) (i : Z) : nat :=
  match fuel with 0 => 1 | S f => if (255 <? i)%Z then S (length_length f (Z.shiftr i 8)) else 1 end.
(** ber.go:79-90: n goes from lengthLength(i) down to 1 *)
Fixpoint long_length (n : nat) (i : Z) : bytes :=
  match n with 0 => [] | S n' => to_byte (Z.shiftr i (Z.of_nat n' * 8)) :: long_length n' i end.
(** ber.go:116-135; an int has 64 bits *)
Definition encode_length (length : nat) : bytes :=
  let i := Z.of_nat length in
  if (128 <=? i)%Z then let l := length_length 8 i in Z.lor 128 (to_byte (Z.of_nat l)) :: long_length l i else [to_byte i].
(** ber.go:19-36, 44-56 EncodeTo *)
Fixpoint encode (o : obj) : bytes :=
  match o with
  | Prim tag len content => tag ++ encode_length len ++ content
  | Struc tag content => let inner := concat (map encode content) in tag ++ encode_length (length inner) ++ inner
  end.

(** ber.go:154-162 and 165-168: to the end of a tag with several octets *)
Fixpoint tag_loop (fuel : nat) (ber : bytes) (offset : nat) : res nat :=
  match fuel with
  | 0 => Panic
  | S f =>
    match nth_error ber offset with
    | None => Panic
    | Some x => if (128 <=? x)%Z then if length ber <? offset + 1 then Err else tag_loop f ber (offset + 1)
                else if length ber <? offset + 1 then Err else Ok (offset + 1)
    end
  end.
(** ber.go:183-214: whether the form is indefinite, the length, and the offset after it; the loop of 199-202 is the big endian value *)
Definition read_length (ber : bytes) (l : Z) (offset : nat) : res (bool * nat * nat) :=
  if (128 <? l)%Z then
    let k := Z.to_nat (Z.land l 127) in
    if 4 <? k then Err
    else if length ber <? offset + k then Err
    else if (k =? 4) && (127 <? nth offset ber 0)%Z then Err
    else if (nth offset ber 0 =? 0)%Z && ((k =? 1) || (nth (offset + 1) ber 0 <=? 127)%Z) then Err
    else Ok (false, Z.to_nat (be_val (slice offset k ber)), offset + k)
  else if (l =? 128)%Z then Ok (true, 0, offset) else Ok (false, Z.to_nat l, offset).
(** ber.go:272-278 *)
Definition is_termination (ber : bytes) (offset : nat) : res bool :=
  if length ber <? offset + 2 then Err else Ok ((nth offset ber 0 =? 0)%Z && (nth (offset + 1) ber 0 =? 0)%Z).
(** ber.go:237-258: the loop over the elements; [rd] is readObject *)
Section elements.
  Variable rd : nat -> res (obj * nat).
  Variables (ber : bytes) (contentEnd : nat) (indefinite : bool).
  Fixpoint elements (fuel : nat) (offset : nat) : res (list obj * nat) :=
    match fuel with
    | 0 => Panic
    | S f =>
      if (offset <? contentEnd) || indefinite then
        rbind (rd offset) (fun oe => let '(o, offset) := oe in
        if indefinite then
          rbind (is_termination ber offset) (fun t =>
          if t then Ok ([o], offset) else rbind (elements f offset) (fun le => Ok (o :: fst le, snd le)))
        else rbind (elements f offset) (fun le => Ok (o :: fst le, snd le)))
      else Ok ([], offset)
    end.
End elements.
(** ber.go:137-270 *)
Fixpoint read_object (fuel : nat) (ber : bytes) (offset : nat) : res (obj * nat) :=
  match fuel with
  | 0 => Panic
  | S f =>
    if length ber <=? offset then Err else
    let b := nth offset ber 0%Z in
    if length ber <=? offset + 1 then Err else
    rbind (if (Z.land b 31 =? 31)%Z then tag_loop (S (length ber)) ber (offset + 1) else Ok (offset + 1)) (fun tagEnd =>
    match nth_error ber tagEnd with
    | None => Panic
    | Some l =>
      rbind (read_length ber l (tagEnd + 1)) (fun r => let '(indefinite, len, o) := r in
      let contentEnd := o + len in
      if length ber <? contentEnd then Err
      else if indefinite && (Z.land b 32 =? 0)%Z then Err
      else if (Z.land b 32 =? 0)%Z then Ok (Prim (slice offset (tagEnd - offset) ber) len (slice o len ber), contentEnd)
      else rbind (elements (read_object f ber) ber contentEnd indefinite (S (length ber)) o) (fun le =>
        Ok (Struc (slice offset (tagEnd - offset) ber) (fst le), if indefinite then snd le + 2 else contentEnd)))
    end)
  end.
(** ber.go:58-76 *)
Definition ber2der (ber : bytes) : res bytes :=
  if length ber =? 0 then Err else rbind (read_object (S (length ber)) ber 0) (fun oe => Ok (encode (fst oe))).
