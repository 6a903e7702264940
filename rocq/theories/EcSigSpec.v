(** What a signature is, in each scheme: the pairs the standard's signing equation yields for some
    nonce k.  [pt k] is k times the base point, [D] the secret number, [N] the group order. *)
From Verif Require Import Base.
Set Implicit Arguments. Unset Strict Implicit.
Local Open Scope Z_scope.

Section Pairs.
Variable (N : Z) (pt : Z -> Z * Z) (D : Z).

(** ISO/IEC 14888-3 EC-GDSA for digest number e: r = x(kG) mod N, s = D (k r - e) mod N. *)
Definition ecgdsa_pair (e r s : Z) : Prop :=
  exists k, 0 <= k < N /\ r = fst (pt k) mod N /\ s mod N = (D * (k * r - e)) mod N.
(** EC-SDSA, EC-OSDSA: r = H(W), s = k + r D mod N; [hp] maps the point W to the digest number. *)
Definition ecsdsa_pair (hp : Z * Z -> Z) (r s : Z) : Prop :=
  exists k, 0 <= k < N /\ r = hp (pt k) /\ s = (k + r * D) mod N.
(** EC-FSDSA: r is the point W itself (number [os]), s = k + H(W) D mod N. *)
Definition ecfsdsa_pair (os hp : Z * Z -> Z) (r s : Z) : Prop :=
  exists k, 0 <= k < N /\ r = os (pt k) /\ s = (k + hp (pt k) * D) mod N.
(** EC-KCDSA: r = H(x(kG)), s = D (k - (r xor v)) mod N, v the digest of key and message. *)
Definition eckcdsa_pair (hx : Z -> Z) (v r s : Z) : Prop :=
  exists k, 0 <= k < N /\ r = hx (fst (pt k)) /\ s = (D * (k - Z.lxor r v)) mod N.
(** EC-RDSA (GOST R 34.10): r = x(kG) mod N, s = r D + k e mod N. *)
Definition ecrdsa_pair (e r s : Z) : Prop :=
  exists k, 0 <= k < N /\ r = fst (pt k) mod N /\ s = (r * D + k * e) mod N.
End Pairs.

(** FE2OS: a coordinate on n bytes, big-endian; a point as one or two coordinates. *)
Definition point_os (opt : bool) (n : nat) (p : Z * Z) : bytes :=
  be_bytes n (fst p) ++ (if opt then [] else be_bytes n (snd p)).
