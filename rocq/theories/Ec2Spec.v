(** What the signatures of BIP-340, BIGN (STB 34.101.45) and ECDSA are, and how RFC 6979 and STB
    34.101.45 derive a nonce.  [pt k] is k times the base point, [D] the secret number, [N] the group
    order. *)
From Verif Require Import Base.
Set Implicit Arguments. Unset Strict Implicit.
Local Open Scope Z_scope.

(** The negative of a point: the other square root, modulo an odd P. *)
Definition negates (P : Z) (pt : Z -> Z * Z) : Prop :=
  Z.odd P = true /\ forall a, pt (- a) = (fst (pt a), (- snd (pt a)) mod P).

Section Pairs.
Variable (N : Z) (pt : Z -> Z * Z).

(** BIP-340: of a and -a the one whose point has an even y. *)
Definition even_scalar (a : Z) : Z := if Z.even (snd (pt a)) then a else N - a.
(** r is the x of a point with even y, s = k + e d, e the challenge for r. *)
Definition bip340_pair (D : Z) (chal : Z -> Z) (r s : Z) : Prop :=
  exists k, 0 < k < N /\ Z.even (snd (pt k)) = true /\ r = fst (pt k) /\ s = (k + chal r * even_scalar D) mod N.
(** BIP-340 tagged hash. *)
Definition tagged (H : bytes -> bytes) (tag m : bytes) : bytes := H (H tag ++ H tag ++ m).

(** STB 34.101.45: s0 are the first l bytes of belt-hash(OID || <W>_2l || H), s1 = (k - H - (s0 + 2^8l) D)
    mod N; all byte strings are numbers in little-endian order.  [S0 W] is that byte string. *)
Definition bign_pair (D : Z) (l w : nat) (S0 : Z * Z -> bytes) (hd s0 s1 : bytes) : Prop :=
  exists k, 0 <= k < N /\ s0 = S0 (pt k) /\
    s1 = le_bytes w ((k - le_val hd - (le_val s0 + 256 ^ Z.of_nat l) * D) mod N).

(** ECDSA verification for the digest number e and the public point D*G. *)
Definition ecdsa_valid (D e r s : Z) : Prop :=
  0 < r < N /\ 0 < s < N /\ exists w, (w * s) mod N = 1 /\ r = fst (pt (e * w + r * w * D)) mod N.
End Pairs.

(** x, y on n bytes each, little-endian *)
Definition point_le (n : nat) (p : Z * Z) : bytes := le_bytes n (fst p) ++ le_bytes n (snd p).

(** STB 34.101.45 6.3.3, one step: r1..rn become r2..r_{n-1}, belt(s) + rn + <i>, s with s the sum of
    r1..r_{n-1}. *)
Definition stb_step (E : bytes -> bytes) (i : Z) (r : list bytes) : list bytes :=
  let s := fold_left xorl (removelast r) (repeat 0 16) in
  tl (removelast r) ++ [xorl (E s) (xorl (last r []) (le_bytes 16 i)); s].
Fixpoint stb_steps (E : bytes -> bytes) (m : nat) (i : Z) (r : list bytes) : list bytes :=
  match m with O => r | S m => stb_steps E m (i + 1) (stb_step E i r) end.

Section rfc6979.
Variable (HM : bytes -> bytes -> bytes) (hlen qlen : nat) (q : Z).
(** RFC 6979 2.3.2-2.3.4 *)
Definition bits2int (b : bytes) : Z := be_val b / 2 ^ Z.of_nat (8 * length b - qlen).
Definition int2octets (x : Z) : bytes := be_bytes ((qlen + 7) / 8) x.
Definition bits2octets (b : bytes) : bytes := int2octets (bits2int b mod q).
(** 3.2 b-g *)
Definition rfc_init (x : Z) (h1 : bytes) : bytes * bytes :=
  let V := repeat 1 hlen in
  let K := HM (repeat 0 hlen) (V ++ [0] ++ int2octets x ++ bits2octets h1) in
  let V := HM K V in
  let K := HM K (V ++ [1] ++ int2octets x ++ bits2octets h1) in
  (K, HM K V).
(** 3.2 h.2: T is as long as needed; [m] blocks are more than enough for m = qlen. *)
Fixpoint rfc_T (m : nat) (K V T : bytes) : bytes * bytes :=
  match m with
  | O => (T, V)
  | S m => if (8 * length T <? qlen)%nat then rfc_T m K (HM K V) (T ++ HM K V) else (T, V)
  end.
(** 3.2 h.3: the nonce k reached from (K, V) *)
Inductive rfc_k : bytes -> bytes -> Z -> Prop :=
| rfc_here K V k : k = bits2int (fst (rfc_T qlen K V [])) -> 1 <= k < q -> rfc_k K V k
| rfc_next K V k : ~ (1 <= bits2int (fst (rfc_T qlen K V [])) < q) ->
    (let V' := snd (rfc_T qlen K V []) in let K' := HM K (V' ++ [0]) in rfc_k K' (HM K' V') k) -> rfc_k K V k.
End rfc6979.
