(** Model of pubkey/ecgdsa, pubkey/ecsdsa, pubkey/ecosdsa, pubkey/ecfsdsa, pubkey/eckcdsa and
    pubkey/ecrdsa: SignToRS, VerifyWithRS, SignBytes and VerifyBytes.
    The hash object is represented by the bytes written to it since New or Reset, so that a
    [goto Retry] which writes again without Reset is seen as such.  The ASN.1 form of a signature
    (Sign, Verify) is golang.org/x/crypto/cryptobyte and not modelled: it hands any pair of integers
    to VerifyWithRS. *)
From Verif Require Import Base BigModel CurveModel.
Set Implicit Arguments. Unset Strict Implicit.
Local Open Scope Z_scope.

(** bytes.Equal *)
Definition beq (a b : bytes) : bool := if list_eq_dec Z.eq_dec a b then true else false.

(** ** ECGDSA *)
(** ecgdsa.go:285-300 and 369-384: digest to integer, shifted right when longer than N. *)
Definition ecg_digest (c : curve) (h : hasher) (msg : bytes) : Z :=
  let w := byteceil (bitlen (cN c)) in
  let rshift := (if Nat.ltb w (hsize h) then (hsize h - w) * 8 else 0)%nat in
  Z.shiftr (be_val (hsum h msg)) (Z.of_nat rshift) mod cN c.
(** ecgdsa.go:303-332, one round from Retry on. *)
Definition ecg_round (c : curve) (key : eckey) (e : Z) (rd : bytes) : res ((Z * Z) + bytes) :=
  rbind (rand_field (cN c) rd) (fun kr =>
    let k := fst kr in
    let r := fst (cbase c (big_bytes k)) mod cN c in
    if r =? 0 then Ok (inr (snd kr)) else
    let s := (eD key * (((k * r) mod cN c + e) mod cN c)) mod cN c in
    if s =? 0 then Ok (inr (snd kr)) else Ok (inl (r, s))).
(** ecgdsa.go:268-333 SignToRS *)
Definition ecg_sign (c : curve) (h : hasher) (rd : bytes) (key : eckey) (msg : bytes) : res (Z * Z) :=
  if negb (on_curve c (ePub key)) then Err else
  let e := (- ecg_digest c h msg) mod cN c in
  sign_loop (S (length rd)) (ecg_round c key e) rd.
(** ecgdsa.go:349-404 VerifyWithRS; a nil [rinv] makes Mul panic. *)
Definition ecg_verify (c : curve) (h : hasher) (pub : Z * Z) (msg : bytes) (r s : Z) : res bool :=
  if negb (on_curve c pub) then Ok false else
  if (r <=? 0) || (s <=? 0) then Ok false else
  let e := ecg_digest c h msg in
  match mod_inverse r (cN c) with
  | None => Panic
  | Some rinv =>
      let u := (rinv * e) mod cN c in
      let v := (rinv * s) mod cN c in
      let w := cadd c (cmul c pub (big_bytes v)) (cbase c (big_bytes u)) in
      Ok (r =? fst w mod cN c)
  end.

(** ** Byte encodings with two fields of given widths
    (ecgdsa.go:223-251, ecsdsa.go:216-254, ecosdsa.go:219-257, ecfsdsa.go:221-257, eckcdsa.go:225-257,
    ecrdsa.go:224-252). *)
Definition sig_bytes (n1 n2 : nat) (rs : Z * Z) : res bytes :=
  rbind (fill_bytes n1 (fst rs)) (fun a => rbind (fill_bytes n2 (snd rs)) (fun b => Ok (a ++ b))).
Definition with_sig (n1 n2 : nat) (sig : bytes) (verify : Z -> Z -> res bool) : res bool :=
  if Nat.eqb (length sig) (n1 + n2) then verify (be_val (firstn n1 sig)) (be_val (skipn n1 sig)) else Ok false.
(** the widths: ecgdsa (BitSize, BitSize) *)
Definition flen (c : curve) : nat := byteceil (cBits c).
Definition plen (c : curve) : nat := byteceil (bitlen (cP c)).

Definition ecg_sign_bytes c h rd key msg := rbind (ecg_sign c h rd key msg) (sig_bytes (flen c) (flen c)).
Definition ecg_verify_bytes c h pub msg sig := with_sig (flen c) (flen c) sig (ecg_verify c h pub msg).

(** ** EC-SDSA and EC-OSDSA *)
(** The bytes hashed for a point: Wx || Wy (ecsdsa.go:330-338) or Wx (ecosdsa.go:333-337). *)
Definition ecs_point (opt : bool) (c : curve) (p : Z * Z) : res bytes :=
  rbind (fill_bytes (plen c) (fst p)) (fun wx =>
    if opt then Ok wx else rbind (fill_bytes (plen c) (snd p)) (fun wy => Ok (wx ++ wy))).
(** ecsdsa.go:314-365 (ecosdsa.go:317-364), one round; [w] is what the hash object has been given. *)
Definition ecs_round (opt : bool) (c : curve) (h : hasher) (key : eckey) (msg : bytes) (st : bytes * bytes) : res ((Z * Z) + bytes * bytes) :=
  rbind (rand_field (cN c) (snd st)) (fun kr =>
    let k := fst kr in
    rbind (ecs_point opt c (cbase c (big_bytes k))) (fun wb =>
      let w := fst st ++ wb ++ msg in
      let r := be_val (hsum h w) in
      let e := r mod cN c in
      if e =? 0 then Ok (inr (w, snd kr)) else
      let s := (k + (e * eD key) mod cN c) mod cN c in
      if s =? 0 then Ok (inr (w, snd kr)) else Ok (inl (r, s)))).
(** ecsdsa.go:298-366, ecosdsa.go:301-365 SignToRS *)
Definition ecs_sign (opt : bool) (c : curve) (h : hasher) (rd : bytes) (key : eckey) (msg : bytes) : res (Z * Z) :=
  if negb (on_curve c (ePub key)) then Err else
  sign_loop (S (length rd)) (ecs_round opt c h key msg) ([], rd).
(** ecsdsa.go:380-449, ecosdsa.go:379-444 VerifyWithRS *)
Definition ecs_verify (opt : bool) (c : curve) (h : hasher) (pub : Z * Z) (msg : bytes) (r s : Z) : res bool :=
  if negb (on_curve c pub) then Ok false else
  if (r <=? 0) || (s <=? 0) then Ok false else
  if cN c <=? s then Ok false else
  let e := (- (r mod cN c)) mod cN c in
  if e =? 0 then Ok false else
  let w := cadd c (cmul c pub (big_bytes e)) (cbase c (big_bytes s)) in
  rbind (ecs_point opt c w) (fun wb =>
    let r' := hsum h (wb ++ msg) in
    rbind (fill_bytes (hsize h) r) (fun rb => Ok (beq rb r'))).
Definition ecs_sign_bytes opt c h rd key msg := rbind (ecs_sign opt c h rd key msg) (sig_bytes (hsize h) (flen c)).
Definition ecs_verify_bytes opt c h pub msg sig := with_sig (hsize h) (flen c) sig (ecs_verify opt c h pub msg).

(** ** EC-FSDSA *)
(** ecfsdsa.go:297-340, one round *)
Definition ecf_round (c : curve) (h : hasher) (key : eckey) (msg : bytes) (st : bytes * bytes) : res ((Z * Z) + bytes * bytes) :=
  rbind (rand_field (cN c) (snd st)) (fun kr =>
    let k := fst kr in
    rbind (ecs_point false c (cbase c (big_bytes k))) (fun rb =>
      if forallb (Z.eqb 0) rb then Ok (inr (fst st, snd kr)) else
      let r := be_val rb in
      let w := fst st ++ rb ++ msg in
      let e := be_val (hsum h w) mod cN c in
      let s := (k + (e * eD key) mod cN c) mod cN c in
      if s =? 0 then Ok (inr (w, snd kr)) else Ok (inl (r, s)))).
(** ecfsdsa.go:281-341 SignToRS *)
Definition ecf_sign (c : curve) (h : hasher) (rd : bytes) (key : eckey) (msg : bytes) : res (Z * Z) :=
  if negb (on_curve c (ePub key)) then Err else
  sign_loop (S (length rd)) (ecf_round c h key msg) ([], rd).
(** ecfsdsa.go:355-421 VerifyWithRS *)
Definition ecf_verify (c : curve) (h : hasher) (pub : Z * Z) (msg : bytes) (r s : Z) : res bool :=
  if negb (on_curve c pub) then Ok false else
  if (r <=? 0) || (s <=? 0) then Ok false else
  if cN c <=? s then Ok false else
  rbind (fill_bytes (2 * plen c) r) (fun rb =>
    let rp := (be_val (firstn (plen c) rb), be_val (skipn (plen c) rb)) in
    if negb (on_curve c rp) then Ok false else
    let e := (- (be_val (hsum h (rb ++ msg)) mod cN c)) mod cN c in
    let w := cadd c (cmul c pub (big_bytes e)) (cbase c (big_bytes s)) in
    rbind (ecs_point false c w) (fun r' => Ok (beq rb r'))).
Definition ecf_sign_bytes c h rd key msg := rbind (ecf_sign c h rd key msg) (sig_bytes (2 * plen c) (flen c)).
Definition ecf_verify_bytes c h pub msg sig := with_sig (2 * plen c) (flen c) sig (ecf_verify c h pub msg).

(** ** EC-KCDSA *)
(** eckcdsa.go:480-500 padLeft, padRight: both truncate to the first l bytes. *)
Definition pad_left (l : nat) (a : bytes) : bytes := if Nat.leb l (length a) then firstn l a else repeat 0 (l - length a) ++ a.
Definition pad_right (l : nat) (a : bytes) : bytes := if Nat.leb l (length a) then firstn l a else a ++ repeat 0 (l - length a).
(** eckcdsa.go:327-330, 351-354: digest as an integer, its low 8w bits when longer than N. *)
Definition eck_num (c : curve) (h : hasher) (m : bytes) : Z :=
  let w := byteceil (bitlen (cN c)) in
  let v := be_val (hsum h m) in
  if Nat.ltb w (hsize h) then v mod 256 ^ Z.of_nat w else v.
(** eckcdsa.go:337-354: v = Hash(MSB(xQ || yQ, L) || M). *)
Definition eck_v (c : curve) (h : hasher) (pub : Z * Z) (msg : bytes) : Z :=
  eck_num c h (pad_right (hblock h) (pad_left (flen c) (big_bytes (fst pub)) ++ pad_left (flen c) (big_bytes (snd pub))) ++ msg).
(** eckcdsa.go:318-330: r = Hash(x1). *)
Definition eck_r (c : curve) (h : hasher) (x : Z) : Z := eck_num c h (pad_left (flen c) (big_bytes x)).
(** eckcdsa.go:297-372 SignUsingK; [None] is ErrInvalidK. *)
Definition eck_using (c : curve) (h : hasher) (k : Z) (key : eckey) (msg : bytes) : res (option (Z * Z)) :=
  if negb (on_curve c (ePub key)) then Err else
  let r := eck_r c h (fst (cbase c (big_bytes k))) in
  let v := eck_v c h (ePub key) msg in
  let e := Z.lxor r v mod cN c in
  let t := (eD key * ((k - e) mod cN c)) mod cN c in
  Ok (if t <=? 0 then None else Some (r, t)).
(** eckcdsa.go:278-294 SignToRS *)
Definition eck_sign (c : curve) (h : hasher) (rd : bytes) (key : eckey) (msg : bytes) : res (Z * Z) :=
  sign_loop (S (length rd)) (fun rd =>
    rbind (rand_field (cN c) rd) (fun kr =>
    rbind (eck_using c h (fst kr) key msg) (fun o =>
    Ok (match o with Some rs => inl rs | None => inr (snd kr) end)))) rd.
(** eckcdsa.go:395-478 VerifyWithRS *)
Definition eck_verify (c : curve) (h : hasher) (pub : Z * Z) (msg : bytes) (r s : Z) : res bool :=
  if negb (on_curve c pub) then Ok false else
  if (r <=? 0) || (s <=? 0) then Ok false else
  let w := byteceil (bitlen (cN c)) in
  if Nat.ltb (if Nat.ltb w (hsize h) then w else hsize h) (byteceil (bitlen r)) then Ok false else
  if cN c <=? s then Ok false else
  let e := Z.lxor r (eck_v c h pub msg) mod cN c in
  let p := cadd c (cmul c pub (big_bytes s)) (cbase c (big_bytes e)) in
  Ok (r =? eck_r c h (fst p)).
(** eckcdsa.go:540-550 sigRLen, sigLen *)
Definition eck_rlen (c : curve) (h : hasher) : nat := Nat.min (hsize h) (flen c).
Definition eck_sign_bytes c h rd key msg := rbind (eck_sign c h rd key msg) (sig_bytes (eck_rlen c h) (flen c)).
Definition eck_verify_bytes c h pub msg sig := with_sig (eck_rlen c h) (flen c) sig (eck_verify c h pub msg).

(** ** EC-RDSA *)
(** ecrdsa.go:304-316, 373-387: digest, reversed on request, modulo N, 0 replaced by 1. *)
Definition ecr_e (c : curve) (h : hasher) (iso : bool) (w : bytes) : Z :=
  let eb := hsum h w in
  let e := be_val (if iso then rev eb else eb) mod cN c in
  if e =? 0 then 1 else e.
(** ecrdsa.go:284-332, one round *)
Definition ecr_round (c : curve) (h : hasher) (iso : bool) (key : eckey) (msg : bytes) (st : bytes * bytes) : res ((Z * Z) + bytes * bytes) :=
  rbind (rand_field (cN c) (snd st)) (fun kr =>
    let k := fst kr in
    let r := fst (cbase c (big_bytes k)) mod cN c in
    if r =? 0 then Ok (inr (fst st, snd kr)) else
    let w := fst st ++ msg in
    let e := ecr_e c h iso w in
    let s := ((r * eD key) mod cN c + (k * e) mod cN c) mod cN c in
    if s =? 0 then Ok (inr (w, snd kr)) else Ok (inl (r, s))).
(** ecrdsa.go:271-333 SignToRS *)
Definition ecr_sign (c : curve) (h : hasher) (iso : bool) (rd : bytes) (key : eckey) (msg : bytes) : res (Z * Z) :=
  if negb (on_curve c (ePub key)) then Err else
  sign_loop (S (length rd)) (ecr_round c h iso key msg) ([], rd).
(** ecrdsa.go:351-417 VerifyWithRS *)
Definition ecr_verify (c : curve) (h : hasher) (iso : bool) (pub : Z * Z) (msg : bytes) (r s : Z) : res bool :=
  if negb (on_curve c pub) then Ok false else
  if (r <=? 0) || (s <=? 0) then Ok false else
  if (cN c <=? r) || (cN c <=? s) then Ok false else
  match mod_inverse (ecr_e c h iso msg) (cN c) with
  | None => Panic
  | Some e =>
      let u := (e * s) mod cN c in
      let v := (- ((e * r) mod cN c)) mod cN c in
      let w := cadd c (cmul c pub (big_bytes v)) (cbase c (big_bytes u)) in
      Ok (r =? fst w mod cN c)
  end.
Definition ecr_sign_bytes c h iso rd key msg := rbind (ecr_sign c h iso rd key msg) (sig_bytes (flen c) (flen c)).
Definition ecr_verify_bytes c h iso pub msg sig := with_sig (flen c) (flen c) sig (ecr_verify c h iso pub msg).
