(** RFC 8017, independently of the code: what a valid RSA key is, its precomputed values, and the two PKCS#1 v1.5 blocks. *)
From Coq Require Import Znumtheory.
From Verif Require Import Base.
Set Implicit Arguments.
Local Open Scope Z_scope.

(** RFC 8017, 3.1-3.2: n is the product of two or more distinct primes and e d = 1 modulo every prime minus one *)
Record valid_key (n e d : Z) (primes : list Z) : Prop := {
  vk_two : (2 <= length primes)%nat;
  vk_prime : Forall prime primes;
  vk_distinct : NoDup primes;
  vk_n : n = fold_right Z.mul 1 primes;
  vk_e : 0 < e;
  vk_d : 0 < d;
  vk_ed : forall p, In p primes -> (p - 1 | e * d - 1) }.
(** RFC 8017, 3.2: for the third and later primes r_i, with R the product of the primes before: an exponent d_i
    with d_i = d (mod r_i - 1) and a coefficient with R t_i = 1 (mod r_i) *)
Fixpoint valid_crt (d R : Z) (vs : list (Z * Z * Z)) (primes : list Z) : Prop :=
  match vs, primes with
  | [], [] => True
  | (ex, co, R') :: vs', r :: primes' =>
      (0 < ex /\ (r - 1 | d - ex)) /\ (R * co) mod r = 1 mod r /\ R' = R /\ valid_crt d (R * r) vs' primes'
  | _, _ => False
  end.
Definition valid_pair (d p q dp dq qinv : Z) : Prop :=
  (0 < dp /\ (p - 1 | d - dp)) /\ (0 < dq /\ (q - 1 | d - dq)) /\ (q * qinv) mod p = 1 mod p.

(** RFC 8017, 9.2 (block type 1) and 7.2.1 (block type 2): the block for message m in k bytes *)
Definition block1 (k : nat) (m : bytes) : bytes := [0; 1] ++ repeat 255 (k - length m - 3) ++ [0] ++ m.
Definition is_block2 (k : nat) (m b : bytes) : Prop :=
  exists ps, b = [0; 2] ++ ps ++ [0] ++ m /\ length b = k /\ bytes_ok ps /\ Forall (fun x => x <> 0) ps /\ (8 <= length ps)%nat.
