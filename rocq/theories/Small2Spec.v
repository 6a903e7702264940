(** SM4 as in GB/T 32907-2016, and the step function and message schedule of SHA-256 as in FIPS 180-4. *)
From Verif Require Import Base WordModel.
Set Implicit Arguments. Unset Strict Implicit.
Local Open Scope Z_scope.

Definition rot (k x : Z) : Z := (x * 2 ^ k) mod 2 ^ 32 + x / 2 ^ (32 - k).
Definition word4 (a b c d : Z) : Z := a * 2 ^ 24 + b * 2 ^ 16 + c * 2 ^ 8 + d.
Section sm4.
  Variable S : Z -> Z.
  Definition tau (x : Z) : Z := word4 (S (x / 2 ^ 24)) (S (x / 2 ^ 16 mod 256)) (S (x / 2 ^ 8 mod 256)) (S (x mod 256)).
  Definition T (x : Z) : Z := let b := tau x in Z.lxor b (Z.lxor (rot 2 b) (Z.lxor (rot 10 b) (Z.lxor (rot 18 b) (rot 24 b)))).
  Definition T' (x : Z) : Z := let b := tau x in Z.lxor b (Z.lxor (rot 13 b) (rot 23 b)).
  (** one step: X_{i+4} = X_i + F(X_{i+1} + X_{i+2} + X_{i+3} + k) *)
  Definition step (F : Z -> Z) (x : Z * Z * Z * Z) (k : Z) : Z * Z * Z * Z :=
    let '(a, b, c, d) := x in (b, c, d, Z.lxor a (F (Z.lxor b (Z.lxor c (Z.lxor d k))))).
  (** 32 steps and the reversal of the last four words *)
  Definition sm4_block (rk : list Z) (a b c d : Z) : list Z :=
    let '(w, x, y, z) := fold_left (step T) rk (a, b, c, d) in [z; y; x; w].
  (** the round keys are the new words K_{i+4} of the same recurrence with T' and the constants *)
  Fixpoint sm4_keys (cks : list Z) (x : Z * Z * Z * Z) : list Z :=
    match cks with [] => [] | k :: t => let y := step T' x k in snd y :: sm4_keys t y end.
End sm4.
(** CK_i has the bytes 28 i, 28 i + 7, 28 i + 14, 28 i + 21 modulo 256 *)
Definition CK (i : nat) : Z := let n := Z.of_nat i in word4 (28 * n mod 256) ((28 * n + 7) mod 256) ((28 * n + 14) mod 256) ((28 * n + 21) mod 256).
Definition FK : Z * Z * Z * Z := (0xA3B1BAC6, 0x56AA3350, 0x677D9197, 0xB27022DC).

Definition rrot (k x : Z) : Z := rot (32 - k) x.
Definition Ch (x y z : Z) : Z := Z.lxor (Z.land x y) (Z.land (2 ^ 32 - 1 - x) z).
Definition Maj (x y z : Z) : Z := Z.lxor (Z.land x y) (Z.lxor (Z.land x z) (Z.land y z)).
Definition Sig0 (x : Z) : Z := Z.lxor (rrot 2 x) (Z.lxor (rrot 13 x) (rrot 22 x)).
Definition Sig1 (x : Z) : Z := Z.lxor (rrot 6 x) (Z.lxor (rrot 11 x) (rrot 25 x)).
Definition sig0 (x : Z) : Z := Z.lxor (rrot 7 x) (Z.lxor (rrot 18 x) (x / 2 ^ 3)).
Definition sig1 (x : Z) : Z := Z.lxor (rrot 17 x) (Z.lxor (rrot 19 x) (x / 2 ^ 10)).
(** [kw] is K_t + W_t *)
Definition sha_step (s : list Z) (kw : Z) : list Z :=
  match s with
  | [a; b; c; d; e; f; g; h] =>
      let T1 := h + Sig1 e + Ch e f g + kw in let T2 := Sig0 a + Maj a b c in
      [(T1 + T2) mod 2 ^ 32; a; b; c; (d + T1) mod 2 ^ 32; e; f; g]
  | _ => s
  end.
(** [w] is the expansion of sixteen words *)
Definition schedule (m : list Z) (w : nat -> Z) : Prop :=
  (forall t, (t < 16)%nat -> w t = nth t m 0) /\
  (forall t, (16 <= t < 64)%nat -> w t = (sig1 (w (t - 2)%nat) + w (t - 7)%nat + sig0 (w (t - 15)%nat) + w (t - 16)%nat) mod 2 ^ 32).
