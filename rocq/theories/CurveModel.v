(** Model of the interfaces the elliptic-curve signature packages are written against:
    crypto/elliptic.Curve (its parameters, IsOnCurve, Add, ScalarMult, ScalarBaseMult), hash.Hash
    and the nonce and key generation shared by pubkey/{ecgdsa,ecsdsa,ecosdsa,ecfsdsa,eckcdsa,ecrdsa,bign}.
    Simplification: a curve is any record of functions on affine coordinates, (0,0) being the point
    at infinity as in crypto/elliptic; what they compute is assumed only where a theorem says
    [lawful_curve].  Nil keys and nil curves, which the code refuses, are not represented. *)
From Verif Require Import Base BigModel.
Set Implicit Arguments. Unset Strict Implicit.
Local Open Scope Z_scope.

(** crypto/elliptic.Curve together with its CurveParams P, N, BitSize. *)
Record curve := Curve {
  cP : Z; cN : Z; cBits : nat;
  on_curve : Z * Z -> bool;
  cadd : Z * Z -> Z * Z -> Z * Z;
  cmul : Z * Z -> bytes -> Z * Z;
  cbase : bytes -> Z * Z }.

(** hash.Hash: Size, BlockSize, and the digest of all bytes written since New or Reset. *)
Record hasher := Hasher { hsize : nat; hblock : nat; hsum : bytes -> bytes }.

(** PublicKey{Curve, X, Y} is a point; PrivateKey{PublicKey, D}: e.g. pubkey/ecgdsa/ecgdsa.go:45-81. *)
Record eckey := EcKey { ePub : Z * Z; eD : Z }.

(** pubkey/ecgdsa/ecgdsa.go:411-430 randFieldElement (the same text in the other packages). *)
Definition rand_field (n : Z) (rd : bytes) : res (Z * bytes) :=
  until (fun rd => rbind (read_full (byteceil (bitlen n)) rd) (fun br =>
    let excess := (8 * length (fst br) - bitlen n)%nat in
    let b := match fst br with [] => [] | x :: t => Z.shiftr x (Z.of_nat excess) :: t end in
    let k := be_val b in
    Ok (if negb (k =? 0) && (k <? n) then Some k else None, snd br))) rd.

(** pubkey/ecgdsa/ecgdsa.go:432-436 fermatInverse; pubkey/eckcdsa/eckcdsa.go:528-532. *)
Definition fermat_inverse (a n : Z) : Z := powm a (n - 2) n.

(** How a package derives the public scalar from D: ecgdsa and eckcdsa use D^-1 (ecgdsa.go:112-117),
    ecsdsa, ecosdsa, ecfsdsa, ecrdsa and bign use D itself (ecsdsa.go:114-117). *)
Inductive keykind := Straight | Inverted.
Definition public_scalar (kd : keykind) (n d : Z) : Z :=
  match kd with Straight => d | Inverted => fermat_inverse d n end.
Definition make_key (kd : keykind) (c : curve) (d : Z) : eckey :=
  EcKey (cbase c (big_bytes (public_scalar kd (cN c) d))) d.

(** GenerateKey: ecgdsa.go:106-120, eckcdsa.go:108-122; ecsdsa.go:108-120, ecosdsa.go:108-120,
    ecfsdsa.go:110-122, ecrdsa.go:113-125, bign.go:135-147. *)
Definition ec_generate (kd : keykind) (c : curve) (rd : bytes) : res (eckey * bytes) :=
  rbind (rand_field (cN c) rd) (fun dr => Ok (make_key kd c (fst dr), snd dr)).

(** NewPrivateKey: ecgdsa.go:123-141, eckcdsa.go:125-143; ecsdsa.go:123-137, ecosdsa.go:123-137,
    ecfsdsa.go:125-139, ecrdsa.go:127-142, bign.go:150-164. *)
Definition ec_new_private (kd : keykind) (c : curve) (k : bytes) : res eckey :=
  let d := be_val k in
  if cN c - 1 <=? d then Err else Ok (make_key kd c d).

(** PrivateKeyTo: ecgdsa.go:145-148 and the same in the other packages. *)
Definition ec_private_to (c : curve) (key : eckey) : res bytes := fill_bytes (byteceil (bitlen (cN c))) (eD key).

(** A signing loop: [goto Retry] with the state the code carries over.  Each round reads at least
    one byte, so [length rd + 1] rounds are enough for the reader to fail first. *)
Fixpoint sign_loop (S A : Type) (fuel : nat) (step : S -> res (A + S)) (st : S) : res A :=
  match fuel with
  | O => Err
  | Datatypes.S f => match step st with
           | Ok (inl a) => Ok a
           | Ok (inr st') => sign_loop f step st'
           | Err => Err
           | Panic => Panic
           end
  end.
