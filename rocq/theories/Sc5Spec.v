(** Specifications for Enigma, Spritz and WAKE. *)
From Verif Require Import Base BlockModeModel.
Set Implicit Arguments. Unset Strict Implicit.
Local Open Scope nat_scope.

(** A substitution by position: byte number p, p+1, ... of the text *)
Fixpoint by_position (f : nat -> Z -> Z) (p : nat) (l : bytes) : bytes :=
  match l with [] => [] | x :: r => f p x :: by_position f (S p) r end.
(** Any history of calls with large enough destinations continues one substitution by position *)
Definition substitutes {S} (call : S -> bytes * bytes -> res (S * bytes)) (st : S) (f : nat -> Z -> Z) : Prop :=
  forall calls, Forall (fun x => length (snd x) <= length (fst x)) calls ->
  exists st' outs, run_calls call st calls = Ok (st', outs) /\
    map (@length Z) outs = map (fun x => length (snd x)) calls /\
    concat outs = by_position f 0 (concat (map snd calls)).

(** Two rotors of which the first turns every byte and the second every 256 bytes, and a reflector *)
Definition rotors (pi pi' rho : Z -> Z) (p : nat) (x : Z) : Z :=
  let a := Z.of_nat (p mod 256) in
  let b := Z.of_nat (p / 256 mod 256) in
  ((pi' ((rho ((pi ((x + a) mod 256) + b) mod 256) - b) mod 256) - a) mod 256)%Z.
Definition inverse_on_bytes (f g : Z -> Z) : Prop :=
  forall x, is_byte x -> is_byte (f x) /\ is_byte (g x) /\ g (f x) = x /\ f (g x) = x.
Definition reflector (f : Z -> Z) : Prop := forall x, is_byte x -> is_byte (f x) /\ f (f x) = x /\ f x <> x.

(** WAKE: four registers, a table of 256 words, autokey *)
Definition wake_M (t : nat -> Z) (x y : Z) : Z :=
  let s := ((x + y) mod 2 ^ 32)%Z in Z.lxor (s / 256) (t (Z.to_nat (s mod 256))).
Definition wake_turn (t : nat -> Z) (r : Z * Z * Z * Z) (v : Z) : Z * Z * Z * Z :=
  let '(r3, r4, r5, r6) := r in
  let r3 := wake_M t r3 v in let r4 := wake_M t r4 r3 in let r5 := wake_M t r5 r4 in let r6 := wake_M t r6 r5 in (r3, r4, r5, r6).
(** the groups of four bytes (the last may be shorter): r6 is added, and the ciphertext word goes into the registers *)
Fixpoint wake_groups (decr : bool) (t : nat -> Z) (r : Z * Z * Z * Z) (gs : list bytes) : bytes :=
  match gs with
  | [] => []
  | g :: gs => let o := xorl g (be_bytes 4 (snd r)) in o ++ wake_groups decr t (wake_turn t r (be_val (if decr then g else o))) gs
  end.

(** calls with octets and room for the result *)
Definition byte_call (x : bytes * bytes) : Prop := length (snd x) <= length (fst x) /\ bytes_ok (snd x).
(** decryption with another object undoes encryption if both sides cut the text at the same places *)
Definition undone_same_cut {Se Sd} (ecall : Se -> bytes * bytes -> res (Se * bytes)) (dcall : Sd -> bytes * bytes -> res (Sd * bytes)) (se : Se) (sd : Sd) : Prop :=
  forall calls, Forall byte_call calls ->
  exists se' outs, run_calls ecall se calls = Ok (se', outs) /\ map (@length Z) outs = map (fun x => length (snd x)) calls /\
    forall calls2, Forall byte_call calls2 -> map snd calls2 = outs ->
    exists sd', run_calls dcall sd calls2 = Ok (sd', map snd calls).
