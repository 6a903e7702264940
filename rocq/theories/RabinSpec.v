(** Rabin fingerprints and content-defined chunks. *)
From Verif Require Import Base Gf2Spec.
Set Implicit Arguments. Unset Strict Implicit.
Local Open Scope nat_scope.

(** The last w bytes; all of them when there are fewer. *)
Definition lastn (w : nat) (m : bytes) : bytes := skipn (length m - w) m.
(** The remainder of the message, as a polynomial with its first bit in front, modulo P. *)
Definition rabin (P : Z) (m : bytes) : Z := pmod P (Z.log2 P) (8 * length m) (be_val m).

Section chunks.
  Variables (P : Z) (w minB maxB : nat) (mask : Z).
  (** A chunk of the stream D may stop after k bytes. *)
  Definition stop (D : bytes) (k : nat) : Prop :=
    k = maxB \/ k = length D \/ Z.land (rabin P (lastn w (firstn k D))) mask = mask.
  (** The first chunk of D: all of it when it is shorter than a chunk may be, else the shortest one that may stop. *)
  Definition is_cut (D : bytes) (n : nat) : Prop :=
    (length D < minB /\ n = length D) \/
    (minB <= n <= length D /\ stop D n /\ forall k, minB <= k < n -> ~ stop D k).
  Inductive cuts : bytes -> list nat -> Prop :=
  | cuts_nil : cuts [] []
  | cuts_cons D n l : D <> [] -> is_cut D n -> cuts (skipn n D) l -> cuts D (n :: l).
End chunks.
