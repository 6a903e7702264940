(** What a Schnorr signature over a DSA group and a Rabin key are, independently of the code. *)
From Verif Require Import Base.
From Coq Require Import Znumtheory.
Local Open Scope Z_scope.

(** A Schnorr signature with nonce k: r is the digest of g^k || message read as a number, s = k + r x. *)
Definition schnorr_pair (H : bytes -> bytes) (p q g x : Z) (width : nat) (msg : bytes) (r s : Z) : Prop :=
  exists k, 0 <= k < q /\ r = be_val (H (be_bytes width (g ^ k mod p) ++ msg)) /\ s = (k + r * x) mod q.
(** A Schnorr key: g has order dividing q modulo p and y = g^x. *)
Definition schnorr_key (p q g y x : Z) : Prop := 1 < p /\ 1 < q /\ 0 < g /\ g ^ q mod p = 1 /\ 0 < x /\ y = g ^ x mod p.

(** A Rabin key: two different primes that are 3 modulo 4. *)
Definition rabin_key (p q n : Z) : Prop := prime p /\ prime q /\ p <> q /\ p mod 4 = 3 /\ q mod 4 = 3 /\ n = p * q.
