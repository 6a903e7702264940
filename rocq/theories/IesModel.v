(** Model of pubkey/ecies/ecies.go: GenerateKey, GenerateShared, Encrypt, Decrypt, concatKDF, messageTag, symEncrypt, symDecrypt.
    The curve is a [curve] record, the digest a [hasher], params.Cipher a function from keys to ciphers or nil. crypto/hmac is
    [hmac], cipher.NewCTR is [new_ctr_xor]. elliptic.GenerateKey, Marshal and Unmarshal of the standard library are written out
    here; ScalarMult refuses (panics on) points off the curve as the NIST curves do. Its result (0,0) is not nil, so the check for
    infinity never fires. Nil parameters, the table of defaults and the conversions to crypto/ecdsa are not represented. *)
From Verif Require Import Base BigModel CurveModel BlockModeModel AeadSpec SivModel Hash3Model.
Set Implicit Arguments. Unset Strict Implicit.
Local Open Scope Z_scope.

(** ecies.go:35-40 ECIESParams *)
Record ies := Ies { iH : hasher; iC : bytes -> option cipher; iB : nat; iK : nat }.
(** ecies.go:43-72: digest size, block size and key length of the parameter sets *)
Definition ies_sizes : list (nat * nat * nat) := [(32, 64, 16); (48, 128, 24); (32, 64, 32); (48, 128, 32); (64, 128, 32)]%nat.

(** elliptic.Marshal: panics off the curve *)
Definition el_marshal (c : curve) (p : Z * Z) : res bytes :=
  if negb (on_curve c p) then Panic
  else rbind (fill_bytes (byteceil (cBits c)) (fst p)) (fun x => rbind (fill_bytes (byteceil (cBits c)) (snd p)) (fun y => Ok (4 :: x ++ y))).
(** elliptic.Unmarshal *)
Definition el_unmarshal (c : curve) (data : bytes) : option (Z * Z) :=
  let w := byteceil (cBits c) in
  if negb (Nat.eqb (length data) (1 + 2 * w)) then None
  else match data with
  | [] => None
  | t :: l => if negb (t =? 4) then None else
    let p := (be_val (firstn w l), be_val (skipn w l)) in
    if (cP c <=? fst p) || (cP c <=? snd p) then None else if negb (on_curve c p) then None else Some p
  end.
(** priv[1] ^= 0x42 of elliptic.GenerateKey; panics below two bytes *)
Definition el_tweak (b : bytes) : res bytes :=
  match b with x :: y :: t => Ok (x :: Z.lxor y 66 :: t) | _ => Panic end.
(** elliptic.GenerateKey *)
Definition el_generate (c : curve) (rd : bytes) : res ((Z * (Z * Z)) * bytes) :=
  until (fun rd => rbind (read_full (byteceil (bitlen (cN c))) rd) (fun br =>
    rbind (el_tweak (mask_top (bitlen (cN c)) (fst br))) (fun b =>
    Ok (if cN c <=? be_val b then None else Some (be_val b, cbase c b), snd br)))) rd.

(** ecies.go:181-207 GenerateShared with skLen + macLen = n *)
Definition ies_shared (c : curve) (d : Z) (pub : Z * Z) (n : nat) : res bytes :=
  if Nat.ltb (byteceil (cBits c)) n then Err
  else if negb (on_curve c pub) && negb ((fst pub =? 0) && (snd pub =? 0)) then Panic
  else let xb := big_bytes (fst (cmul c pub (big_bytes d))) in
       Ok (if Nat.ltb n (length xb) then skipn (length xb - n) xb else repeat 0 (n - length xb) ++ xb).

(** ecies.go:389-402 incCounter *)
Definition inc_counter (c : bytes) : bytes :=
  match c with
  | [c0; c1; c2; c3] =>
    let c3 := to_byte (c3 + 1) in if negb (c3 =? 0) then [c0; c1; c2; c3] else
    let c2 := to_byte (c2 + 1) in if negb (c2 =? 0) then [c0; c1; c2; c3] else
    let c1 := to_byte (c1 + 1) in if negb (c1 =? 0) then [c0; c1; c2; c3] else
    [to_byte (c0 + 1); c1; c2; c3]
  | _ => c
  end.
(** ecies.go:418-425: n rounds *)
Fixpoint kdf_rounds (n : nat) (h : hasher) (z s1 ctr : bytes) : bytes :=
  match n with O => [] | S n => hsum h (ctr ++ z ++ s1) ++ kdf_rounds n h z s1 (inc_counter ctr) end.
(** ecies.go:405-429 concatKDF. k[:kdLen] of a shorter k: a panic. Simplification: a slice can be extended up to its capacity; for
    the one case among the parameter sets, 48 bytes appended to an empty slice, the capacity is 48. *)
Definition concat_kdf (h : hasher) (z s1 : bytes) (kdlen : nat) : res bytes :=
  if Nat.eqb (hblock h) 0 then Panic else
  let reps := Nat.div ((kdlen + 7) * 8) (hblock h * 8) in
  if 2 ^ 32 - 1 <? Z.of_nat reps then Err else
  let k := kdf_rounds (S reps) h z s1 [0; 0; 0; 1] in
  if Nat.ltb (length k) kdlen then Panic else Ok (firstn kdlen k).
(** ecies.go:433-439 messageTag *)
Definition ies_tag (h : hasher) (km msg shared : bytes) : bytes := hmac (hsum h) (hblock h) km (msg ++ shared).
(** ecies.go:450-469 symEncrypt *)
Definition ies_sym_encrypt (p : ies) (rd key m : bytes) : res bytes :=
  match iC p key with
  | None => Err
  | Some c => rbind (read_full (iB p) rd) (fun ir => rbind (new_ctr_xor c (fst ir) m) (fun x => Ok (fst ir ++ x)))
  end.
(** ecies.go:473-485 symDecrypt; make of a negative length panics *)
Definition ies_sym_decrypt (p : ies) (key ct : bytes) : res bytes :=
  match iC p key with
  | None => Err
  | Some c => if Nat.ltb (length ct) (iB p) then Panic else new_ctr_xor c (firstn (iB p) ct) (skipn (iB p) ct)
  end.
(** ecies.go:275-287, 333-345: the cipher key and the digest of the MAC key *)
Definition ies_keys (p : ies) (z s1 : bytes) : res (bytes * bytes) :=
  rbind (concat_kdf (iH p) z s1 (iK p + iK p)) (fun k => Ok (firstn (iK p) k, hsum (iH p) (skipn (iK p) k))).
(** ecies.go:307-373 Encrypt *)
Definition ies_encrypt (c : curve) (p : ies) (rd : bytes) (pub : Z * Z) (m s1 s2 : bytes) : res bytes :=
  rbind (el_generate c rd) (fun gr => let '((e, R), rd) := gr in
  rbind (ies_shared c e pub (iK p + iK p)) (fun z =>
  rbind (ies_keys p z s1) (fun km =>
  rbind (ies_sym_encrypt p rd (fst km) m) (fun em =>
  if Nat.leb (length em) (iB p) then Ok []
  else rbind (el_marshal c R) (fun Rb => Ok (Rb ++ em ++ ies_tag (iH p) (snd km) em s2)))))).
(** ecies.go:210-300 (PrivateKey).Decrypt *)
Definition ies_decrypt (c : curve) (p : ies) (d : Z) (ct s1 s2 : bytes) : res bytes :=
  match ct with
  | [] => Err
  | t :: _ =>
    if negb ((t =? 2) || (t =? 3) || (t =? 4)) then Err else
    let rlen := (1 + 2 * byteceil (cBits c))%nat in
    let hlen := hsize (iH p) in
    if Nat.ltb (length ct) (rlen + hlen + 1) then Err else
    match el_unmarshal c (firstn rlen ct) with
    | None => Err
    | Some R => if negb (on_curve c R) then Err else
      rbind (ies_shared c d R (iK p + iK p)) (fun z =>
      rbind (ies_keys p z s1) (fun km =>
      let em := firstn (length ct - hlen - rlen) (skipn rlen ct) in
      if bytes_eqb (skipn (length ct - hlen) ct) (ies_tag (iH p) (snd km) em s2) then ies_sym_decrypt p (fst km) em else Err))
    end
  end.
