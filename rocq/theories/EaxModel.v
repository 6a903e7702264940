(** Model of /repo/mode/eax/eax.go. *)
From Verif Require Import Base BlockModeModel AeadSpec ToolBytesModel.
Set Implicit Arguments. Unset Strict Implicit.

(** crypto/cipher.NewCBCEncrypter(c, iv).CryptBlocks (standard library, from its documentation) *)
Fixpoint cbc_blocks (c : cipher) (iv : bytes) (bl : list bytes) : list bytes :=
  match bl with
  | [] => []
  | b :: r => let o := enc c (xorl b iv) in o :: cbc_blocks c o r
  end.
Definition go_cbc (c : cipher) (iv src : bytes) : bytes := concat (cbc_blocks c iv (chunks (bsz c) src)).

(** eax.go:59-78 NewEAXWithNonceAndTagSize *)
Definition eax_new (c : cipher) (nsz tsz : Z) : res (Z * Z) :=
  if (nsz <? 1)%Z then Err else if (Z.of_nat (bsz c) <? tsz)%Z then Err else Ok (nsz, tsz).

Section eax.
  Variable c : cipher.
  Variables nsz tsz : nat.   (* a negative tag size passes the constructor; not modelled *)

  (** eax.go:165-178 pad *)
  Definition eax_pad (pt B P : bytes) : res bytes :=
    if (negb (length pt =? 0) && (length pt mod bsz c =? 0))%bool then RightXOR pt B
    else RightXOR (pt ++ 128%Z :: repeat 0%Z (bsz c - length pt mod bsz c - 1)) P.
  (** eax.go:147-163 omac *)
  Definition eax_omac (pt : bytes) : res bytes :=
    let L := enc c (repeat 0%Z (bsz c)) in
    rbind (GfnDouble L) (fun B =>
    rbind (GfnDouble B) (fun P =>
    rbind (eax_pad pt B P) (fun padded =>
    let ct := go_cbc c (repeat 0%Z (bsz c)) padded in
    Ok (skipn (length ct - bsz c) ct)))).
  (** eax.go:138-145 omacT *)
  Definition eax_omact (t : Z) (pt : bytes) : res bytes :=
    eax_omac ((repeat 0%Z (bsz c - 1) ++ [t]) ++ pt).
  (** the tag loop, eax.go:97-99 and 122-124 *)
  Definition eax_tag (a b d : bytes) : bytes := firstn tsz (xorl (xorl a b) d).

  (** eax.go:80-103 Seal. The tag is computed from the ciphertext after it was written, so
      sealing in place (dst = plaintext[:0]) runs the same computation. *)
  Definition eax_seal (dst nonce pt ad : bytes) : res bytes :=
    if nsz <? length nonce then Panic
    else rbind (eax_omact 0 nonce) (fun on =>
         rbind (eax_omact 1 ad) (fun oa =>
         let ct := go_ctr c on pt in
         rbind (eax_omact 2 ct) (fun oc =>
         Ok (dst ++ ct ++ eax_tag oc on oa)))).

  (** eax.go:105-136 Open: [ret] is dst followed by len(ciphertext) bytes, of which the first
      [sep] are the plaintext; the method returns ret[:sep]. *)
  Definition eax_open (dst nonce ct ad : bytes) : res bytes :=
    if nsz <? length nonce then Panic
    else if length ct <? tsz then Err
    else
      let sep := length ct - tsz in
      rbind (eax_omact 0 nonce) (fun on =>
      rbind (eax_omact 1 ad) (fun oa =>
      rbind (eax_omact 2 (firstn sep ct)) (fun oc =>
      if negb (bytes_eqb (skipn sep ct) (eax_tag oc on oa)) then Err
      else Ok (firstn sep (dst ++ go_ctr c on (firstn sep ct)))))).
End eax.
