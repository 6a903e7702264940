(** Model of the part of Go's math/big, crypto/rand and io that the public-key packages use.
    None of this code is in the repository: the definitions fix how its documented results are
    represented.  A [big.Int] is a [Z]; an [io.Reader] is the finite list of the bytes it still
    holds, and reading past its end is the reader's error. *)
From Verif Require Import Base.
Set Implicit Arguments. Unset Strict Implicit.
Local Open Scope Z_scope.

(** [x.BitLen()]: bits of |x|, 0 for 0. *)
Definition bitlen (x : Z) : nat := if x =? 0 then 0%nat else S (Z.to_nat (Z.log2 (Z.abs x))).
(** [(bits + 7) / 8] *)
Definition byteceil (n : nat) : nat := Nat.div (n + 7) 8.
(** [x.Bytes()]: |x| in big-endian order without leading zeros. *)
Definition big_bytes (x : Z) : bytes := be_bytes (byteceil (bitlen x)) (Z.abs x).
(** [x.FillBytes(make([]byte, n))]: panics when |x| does not fit. *)
Definition fill_bytes (n : nat) (x : Z) : res bytes :=
  if Z.abs x <? 256 ^ Z.of_nat n then Ok (be_bytes n (Z.abs x)) else Panic.

(** [new(big.Int).Exp(b, e, m)] for e >= 0 and m > 0, computed by repeated squaring. *)
Fixpoint powm_pos (b : Z) (e : positive) (m : Z) : Z :=
  match e with
  | xH => b mod m
  | xO e' => let t := powm_pos b e' m in (t * t) mod m
  | xI e' => let t := powm_pos b e' m in ((t * t) mod m * b) mod m
  end.
Definition powm (b e m : Z) : Z :=
  match e with Zpos p => powm_pos b p m | _ => 1 mod m end.

(** Extended Euclid: coefficients (u, v) with u a + v b = gcd a b. *)
Fixpoint egcd (fuel : nat) (a b : Z) : Z * Z :=
  match fuel with
  | O => (1, 0)
  | S f => if b =? 0 then (1, 0)
           else let (u, v) := egcd f b (a mod b) in (v, u - (a / b) * v)
  end.
(** [new(big.Int).ModInverse(x, m)] for m > 0: nil when x has no inverse modulo m. *)
Definition mod_inverse (x m : Z) : option Z :=
  let u := fst (egcd (S (2 * bitlen m)) (x mod m) m) in
  if Z.gcd x m =? 1 then Some (u mod m) else None.

(** [new(big.Int).Exp(b, e, m)] for m > 0 and any e; nil (here: the panic of the first use of the
    nil result) when e < 0 and b is not invertible. *)
Definition big_exp (b e m : Z) : res Z :=
  if e <? 0 then match mod_inverse b m with Some i => Ok (powm i (- e) m) | None => Panic end
  else Ok (powm b e m).

(** [io.ReadFull(rand, make([]byte, n))] *)
Definition read_full (n : nat) (rd : bytes) : res (bytes * bytes) :=
  if Nat.leb n (length rd) then Ok (firstn n rd, skipn n rd) else Err.

(** Retry a sampling step until it accepts.  The step reads at least one byte, so a run makes at
    most [length rd] attempts before the reader fails: [fuel] is never the reason to stop. *)
Fixpoint retry (A : Type) (fuel : nat) (step : bytes -> res (option A * bytes)) (rd : bytes) : res (A * bytes) :=
  match fuel with
  | O => Err
  | S f => match step rd with
           | Ok (Some a, rd') => Ok (a, rd')
           | Ok (None, rd') => retry f step rd'
           | Err => Err
           | Panic => Panic
           end
  end.
Definition until (A : Type) (step : bytes -> res (option A * bytes)) (rd : bytes) : res (A * bytes) :=
  retry (S (length rd)) step rd.

(** [crypto/rand.Int(rand, max)]: panics for max <= 0; otherwise draws byteceil(bitlen(max-1))
    bytes, clears the excess high bits of the first and retries until the value is below max. *)
Definition mask_top (bits : nat) (b : bytes) : bytes :=
  match b with
  | [] => []
  | x :: t => let e := Nat.modulo bits 8 in
              Z.land x (2 ^ Z.of_nat (if Nat.eqb e 0 then 8 else e) - 1) :: t
  end.
Definition rand_int (max : Z) (rd : bytes) : res (Z * bytes) :=
  if max <=? 0 then Panic
  else let bl := bitlen (max - 1) in
  if Nat.eqb bl 0 then Ok (0, rd)
  else until (fun rd => rbind (read_full (byteceil bl) rd) (fun br =>
         let v := be_val (mask_top bl (fst br)) in
         Ok (if v <? max then Some v else None, snd br))) rd.
