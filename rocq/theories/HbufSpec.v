(** What a streaming hash must do, and the shape of the digests it computes. *)
From Verif Require Import Base HashSpec.
Set Implicit Arguments. Unset Strict Implicit.
Local Open Scope nat_scope.

(** Running an object whose Sum may panic. *)
Section run.
  Variable S : Type.
  Variable write : S -> bytes -> S.
  Variable sum : S -> bytes -> res bytes.
  Variable reset : S -> S.
  Fixpoint hrun_r (d : S) (ops : list hop) : list (res bytes) :=
    match ops with
    | [] => []
    | HWrite m :: r => hrun_r (write d m) r
    | HSum i :: r => sum d i :: hrun_r d r
    | HReset :: r => hrun_r (reset d) r
    end.
End run.
(** The state after a history of calls. *)
Fixpoint hstate {S} (write : S -> bytes -> S) (reset : S -> S) (d : S) (ops : list hop) : S :=
  match ops with
  | [] => d
  | HWrite m :: r => hstate write reset (write d m) r
  | HSum _ :: r => hstate write reset d r
  | HReset :: r => hstate write reset (reset d) r
  end.
(** The object computes [f] in every history of calls: each Sum returns, without panicking and without disturbing
    later calls, its argument followed by [f] of all that was written since the start or the last Reset. *)
Definition streams {S} (write : S -> bytes -> S) (sum : S -> bytes -> res bytes) (reset : S -> S) (new : S) (f : bytes -> bytes) : Prop :=
  forall ops, hrun_r write sum reset new ops = map Ok (expected f [] ops).

(** The same for histories that write bytes (numbers from 0 to 255). *)
Definition streams_bytes {S} (write : S -> bytes -> S) (sum : S -> bytes -> res bytes) (reset : S -> S) (new : S) (f : bytes -> bytes) : Prop :=
  forall ops, Forall hop_ok ops -> hrun_r write sum reset new ops = map Ok (expected f [] ops).

(** Iterating a compression function over the blocks of a padded message. *)
Definition iterated {S} (bs : nat) (compress : S -> bytes -> S) (iv : S) (padded : bytes) : S :=
  fold_left compress (chunks bs padded) iv.

(** Merkle-Damgaard strengthening: a 1 bit, as few zero bytes as bring the length to 56 modulo 64, and the bit length
    modulo 2^64 written by [enc]. *)
Definition strengthen (enc : Z -> bytes) (m : bytes) : bytes :=
  m ++ [128%Z] ++ repeat 0%Z ((119 - length m mod 64) mod 64) ++ enc (8 * Z.of_nat (length m))%Z.
