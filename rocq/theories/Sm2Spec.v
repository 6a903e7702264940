(** What SM2 is (GB/T 32918 parts 2 to 4), independently of the code: the curve as a group, the signing equation, the
    identity digest, the ciphertext and the exchanged key. *)
From Verif Require Import Base BigModel CurveModel CurveSpec EcSigSpec KdfSpec.
Set Implicit Arguments. Unset Strict Implicit.
Local Open Scope Z_scope.

(** A curve of cofactor one: a lawful curve whose scalar multiplications take scalars of any size and on which every point is a
    multiple of the base point. *)
Record full_curve (c : curve) (pt : Z -> Z * Z) : Prop := Full {
  fc_law : lawful_curve c pt;
  fc_size : sized c;
  fc_base : forall k, bytes_ok k -> cbase c k = pt (be_val k);
  fc_mul : forall a k, bytes_ok k -> cmul c (pt a) k = pt (a * be_val k);
  fc_all : forall p, on_curve c p = true -> exists a, p = pt a }.

(** Part 2, 6.1: (r, s) comes from the secret D, the digest number e and some number k. *)
Definition sm2_pair (N : Z) (pt : Z -> Z * Z) (D e r s : Z) : Prop :=
  exists k, 0 <= k < N /\ r = (fst (pt k) + e) mod N /\ (s * (1 + D)) mod N = (k - r * D) mod N.

(** Part 2, 5.5: ENTL || ID || a || b || xG || yG || xA || yA; [abg] is the part that depends on the curve only. *)
Definition za_input (n : nat) (abg : bytes) (id : bytes) (pub : Z * Z) : bytes :=
  be_bytes 2 (8 * Z.of_nat (length id)) ++ id ++ abg ++ point_os false n pub.

(** Two inputs with one digest. *)
Definition collision (H : bytes -> bytes) : Prop := exists a b, a <> b /\ H a = H b.

(** Part 4, 6.1: M under the shared point (x2, y2): keystream t, C2 and C3. *)
Definition seals (H : bytes -> bytes) (hs n : nat) (shared : Z * Z) (M C2 C3 : bytes) : Prop :=
  exists t, by_blocks hs (x963_block H (point_os false n shared)) (Z.of_nat (length M)) t
    /\ t <> repeat 0 (length M)
    /\ C2 = xorl t M
    /\ C3 = H (be_bytes n (fst shared) ++ M ++ be_bytes n (snd shared)).

(** Part 3, 6.1: the reduced coordinate, the shared point's key and the two confirmations for first party A, second party B. *)
Definition reduced (w x : Z) : Z := 2 ^ w + x mod 2 ^ w.
Definition exchange_key (H : bytes -> bytes) (hs n : nat) (V : Z * Z) (ZA ZB : bytes) (klen : nat) (key : bytes) : Prop :=
  by_blocks hs (x963_block H (point_os false n V ++ ZA ++ ZB)) (Z.of_nat klen) key.
Definition exchange_tag (H : bytes -> bytes) (n : nat) (prefix : Z) (V RA RB : Z * Z) (ZA ZB : bytes) : bytes :=
  H ([prefix] ++ be_bytes n (snd V) ++ H (be_bytes n (fst V) ++ ZA ++ ZB ++ point_os false n RA ++ point_os false n RB)).

(** Part 4, 5.4.3: klen < (2^32-1) v; and lengths are machine integers. *)
Definition kdf_room (hs n : nat) : Prop := Z.of_nat n <= Z.of_nat hs * (2 ^ 32 - 2) /\ Z.of_nat n + Z.of_nat hs < 2 ^ 64.
(** Part 3, 6.1: w = ceil(ceil(log2 N) / 2) - 1. *)
Definition half_width (N : Z) : Z := (Z.log2_up N + 1) / 2 - 1.
(** Part 3, 6.1: the shared point of the long-term secrets dA, dB and the ephemeral secrets rA, rB (cofactor one). *)
Definition shared_point (pt : Z -> Z * Z) (w dA rA dB rB : Z) : Z * Z :=
  pt ((dA + reduced w (fst (pt rA)) * rA) * (dB + reduced w (fst (pt rB)) * rB)).
