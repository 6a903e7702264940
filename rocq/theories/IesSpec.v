(** What ECIES (SEC 1, 5.1) with a hashed MAC key asks for, independently of the code. *)
From Verif Require Import Base BlockModeModel AeadSpec KdfSpec.
Local Open Scope Z_scope.

(** [ct] carries [m] from the ephemeral point R, with [sx] the x coordinate of the shared point: both keys are cut from the
    digests of counter || z || s1, where z is the low end of sx; the MAC covers initial vector, counter-mode text and s2. *)
Definition ecies_carries (H : bytes -> bytes) (hs hbl : nat) (ciph : bytes -> option cipher) (bs kl w : nat) (R : Z * Z) (sx : Z) (s1 s2 m ct : bytes) : Prop :=
  exists K c iv,
    by_blocks hs (fun i => H (be_bytes 4 (Z.of_nat i + 1) ++ be_bytes (2 * kl) (sx mod 256 ^ Z.of_nat (2 * kl)) ++ s1)) (Z.of_nat (2 * kl)) K /\
    ciph (firstn kl K) = Some c /\ length iv = bs /\
    let em := iv ++ go_ctr c iv m in
    ct = (4 :: be_bytes w (fst R) ++ be_bytes w (snd R)) ++ em ++ hmac_of H hbl (H (skipn kl K)) (em ++ s2).
(** enough digests are made for the two keys *)
Definition kdf_enough (hs hbl kl : nat) : Prop := (0 < hbl)%nat /\ (0 < hs)%nat /\ (2 * kl <= hs * ((2 * kl + 7) / hbl + 1))%nat /\ Z.of_nat (2 * kl + 7) < 2 ^ 32.
