(** What KCDSA (TTAK.KO-12.0001) asks for, independently of the code. *)
From Verif Require Import Base.
From Coq Require Import Znumtheory.
Local Open Scope Z_scope.

(** A key: g has order dividing the prime q modulo p, 0 < x < q, and y = g^(1/x). *)
Definition kcdsa_key (p q g y x : Z) : Prop :=
  1 < p /\ prime q /\ 0 < g /\ g ^ q mod p = 1 /\ 0 < x < q /\ exists i, 0 <= i /\ (i * x) mod q = 1 /\ y = g ^ i mod p.
(** A signature of [data] with nonce k: r is the low b bits of the digest of g^k (in [width] bytes), e the xor of r
    and the low b bits of the digest of the low l bytes of y followed by the data, s = x (k - e). *)
Definition kcdsa_pair (H : bytes -> bytes) (l b width : nat) (p q g y x : Z) (data : bytes) (r s : Z) : Prop :=
  exists k, 0 <= k < q /\
    let low m := be_val (H m) mod 2 ^ Z.of_nat b in
    let e := Z.lxor r (low (be_bytes l (y mod 256 ^ Z.of_nat l) ++ data)) in
    r = low (be_bytes width (g ^ k mod p)) /\ s = (x * (k - e)) mod q.
(** PPGF: the digests of src || 0, src || 1, ... put one before the other, low [bits] bits. *)
Definition ppgf_value (H : bytes -> bytes) (hs : nat) (src : bytes) (bits : nat) : Z :=
  be_val (concat (map (fun j => H (src ++ [Z.of_nat j mod 256])) (rev (seq 0 (S (bits / (8 * hs))))))) mod 2 ^ Z.of_nat bits.
(** DSA-like domain parameters. *)
Definition kcdsa_domain (p q g : Z) : Prop := (p - 1) mod q = 0 /\ 1 < g < p /\ g ^ q mod p = 1.
