(** What the GOST theorems are stated against: the chord-and-tangent law of a short Weierstrass curve as an
    equation between affine points, the points reached being the multiples [pt a] of the base point; the
    GOST R 34.10 signature equation; the twisted Edwards equation.  Nothing here mentions the code of
    pubkey/gost beyond the curve parameters. *)
From Verif Require Import Base BigModel G10Model.
From Coq Require Export Znumtheory.
Set Implicit Arguments. Unset Strict Implicit.
Local Open Scope Z_scope.

(** (x3, y3) is the sum of (x1, y1) and (x2, y2) on y^2 = x^3 + A x + B over the field of P elements, for two
    points that are not opposite: [l] is the slope of the line through them. *)
Definition chord_tangent (P A : Z) (p1 p2 p3 : Z * Z) : Prop :=
  let '(x1, y1) := p1 in let '(x2, y2) := p2 in let '(x3, y3) := p3 in
  exists l, (if Z.eq_dec x1 x2 then (l * (2 * y1)) mod P = (3 * x1 ^ 2 + A) mod P else (l * (x2 - x1)) mod P = (y2 - y1) mod P)
    /\ x3 mod P = (l ^ 2 - x1 - x2) mod P /\ y3 mod P = (l * (x1 - x3) - y1) mod P.

(** [pt a] (a not a multiple of Q) is the affine point a*G. *)
Record lawful_gost (c : gcurve) (pt : Z -> Z * Z) : Prop := LawfulGost {
  lg_P : prime (gP c);
  lg_P2 : 3 < gP c;
  lg_Q : prime (gQ c);
  lg_Q2 : 2 < gQ c;
  lg_base : pt 1 = (gX c, gY c);
  lg_mod : forall a, pt (a mod gQ c) = pt a;
  lg_coord : forall a, a mod gQ c <> 0 -> 0 <= fst (pt a) < gP c /\ 0 <= snd (pt a) < gP c;
  lg_on : forall a, a mod gQ c <> 0 -> snd (pt a) ^ 2 mod gP c = (fst (pt a) ^ 3 + gA c * fst (pt a) + gB c) mod gP c;
  lg_neg : forall a, a mod gQ c <> 0 -> fst (pt (- a)) = fst (pt a) /\ (snd (pt (- a)) + snd (pt a)) mod gP c = 0;
  lg_inj : forall a b, a mod gQ c <> 0 -> b mod gQ c <> 0 -> pt a = pt b -> a mod gQ c = b mod gQ c;
  lg_add : forall a b, a mod gQ c <> 0 -> b mod gQ c <> 0 -> (a + b) mod gQ c <> 0 -> chord_tangent (gP c) (gA c) (pt a) (pt b) (pt (a + b)) }.

(** Scalars and coordinates fit PointSize bytes. *)
Definition gost_sized (c : gcurve) : Prop := gQ c <= 256 ^ Z.of_nat (g_size c) /\ gP c <= 256 ^ Z.of_nat (g_size c).
(** A key pair: the public point is d*G. *)
Definition gost_key (pt : Z -> Z * Z) (k : gpriv) : Prop := 0 < gd k /\ gd k mod gQ (gcur (gpk k)) <> 0 /\ gpt (gpk k) = pt (gd k).
(** The digest as GOST R 34.10 reads it (little-endian here): modulo q, with 0 replaced by 1. *)
Definition gost_e (Q : Z) (digest : bytes) : Z := if Z.eq_dec (le_val digest mod Q) 0 then 1 else le_val digest mod Q.
(** The signature equation: for some nonce k, r = x(k G) mod q and s = r d + k e mod q. *)
Definition gost_nonce (Q : Z) (pt : Z -> Z * Z) (d e r s k : Z) : Prop :=
  0 < k < Q /\ r = fst (pt k) mod Q /\ s = (r * d + k * e) mod Q.
(** The twisted Edwards equation e u^2 + v^2 = 1 + d u^2 v^2. *)
Definition edwards_on (P e d : Z) (p : Z * Z) : Prop := (e * fst p ^ 2 + snd p ^ 2) mod P = (1 + d * fst p ^ 2 * snd p ^ 2) mod P.
(** The short Weierstrass curve with parameters A, B is the image of that Edwards curve (RFC 7836, section 5.2):
    4 s = e - d, 6 t = e + d, A = s^2 - 3 t^2, B = 2 t^3 - t s^2. *)
Definition edwards_params (P A B e d s t : Z) : Prop :=
  (4 * s) mod P = (e - d) mod P /\ (6 * t) mod P = (e + d) mod P /\
  A mod P = (s ^ 2 - 3 * t ^ 2) mod P /\ B mod P = (2 * t ^ 3 - t * s ^ 2) mod P.
