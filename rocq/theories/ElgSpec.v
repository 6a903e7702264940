(** What an ElGamal key pair is, independently of the code. *)
From Verif Require Import Base ElgModel.
Local Open Scope Z_scope.

(** Y = G^X modulo P, with an invertible base: enough to decrypt. *)
Definition enc_key (k : elg_priv) : Prop :=
  let u := kpub k in 1 < kP u /\ Z.gcd (kG u) (kP u) = 1 /\ 0 <= kX k /\ kY u = kG u ^ kX k mod kP u.

(** Moreover G^(P-1) = 1 modulo P, as it is when P is prime (Fermat) and when P = 2q+1 and
    G^q = 1: enough to sign. *)
Definition sig_key (k : elg_priv) : Prop := enc_key k /\ kG (kpub k) ^ (kP (kpub k) - 1) mod kP (kpub k) = 1.

(** The ElGamal verification equation. *)
Definition sig_equation (u : elg_pub) (m r s : Z) : Prop :=
  kG u ^ m mod kP u = (kY u ^ r * r ^ s) mod kP u.
