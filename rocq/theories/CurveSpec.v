(** What the curve interface is assumed to provide: the points reached by the signature schemes are
    the multiples [pt a] of the base point, a cyclic group of prime order N written in affine
    coordinates.  Nothing here mentions the signature code. *)
From Verif Require Import Base BigModel CurveModel.
From Coq Require Export Znumtheory.
Set Implicit Arguments. Unset Strict Implicit.
Local Open Scope Z_scope.

Record lawful_curve (c : curve) (pt : Z -> Z * Z) : Prop := Lawful {
  lc_prime : prime (cN c);
  lc_big : 2 < cN c;
  lc_zero : pt 0 = (0, 0);
  lc_mod : forall a, pt (a mod cN c) = pt a;
  lc_coord : forall a, 0 <= fst (pt a) < cP c /\ 0 <= snd (pt a) < cP c;
  lc_on : forall a, a mod cN c <> 0 -> on_curve c (pt a) = true;
  lc_off : on_curve c (0, 0) = false;
  lc_base : forall k, bytes_ok k -> be_val k < cN c -> cbase c k = pt (be_val k);
  lc_mul : forall a k, bytes_ok k -> be_val k < cN c -> cmul c (pt a) k = pt (a * be_val k);
  lc_add : forall a b, cadd c (pt a) (pt b) = pt (a + b) }.

(** A digest function: fixed size, bytes out. *)
Definition hasher_ok (h : hasher) : Prop := forall m, length (hsum h m) = hsize h /\ bytes_ok (hsum h m).

(** Numbers below N and coordinates fit the byte widths the code derives from BitSize and P. *)
Definition sized (c : curve) : Prop := 0 < cP c /\ cN c <= 256 ^ Z.of_nat (byteceil (cBits c)) /\ cP c <= 256 ^ Z.of_nat (byteceil (cBits c)).

(** A key pair whose public point is D*G. *)
Definition straight_key (c : curve) (pt : Z -> Z * Z) (key : eckey) : Prop := 0 < eD key < cN c /\ ePub key = pt (eD key).
(** A key pair whose public point is D^-1*G: some e with e*D = 1 mod N. *)
Definition inverted_key (c : curve) (pt : Z -> Z * Z) (key : eckey) : Prop :=
  0 < eD key < cN c /\ exists e, (e * eD key) mod cN c = 1 /\ ePub key = pt e.
