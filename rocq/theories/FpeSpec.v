(** FF1 and FF3 as NIST SP 800-38G has them, on lists of numerals, independently of the code. *)
From Verif Require Import Base.
Set Implicit Arguments. Unset Strict Implicit.
Local Open Scope Z_scope.

(** A numeral string to the base r. *)
Definition numerals (r : Z) (X : list Z) : Prop := Forall (fun d => 0 <= d < r) X.
(** NUM_radix(X) and STR^m_radix(x) (algorithms 1 and 3): the most significant numeral first. *)
Definition num (r : Z) (X : list Z) : Z := fold_left (fun x d => x * r + d) X 0.
Fixpoint str (r : Z) (m : nat) (x : Z) : list Z := match m with O => [] | S m' => str r m' (x / r) ++ [x mod r] end.
(** The character of a numeral: 0-9, a-z, A-Z. *)
Definition char_of (d : Z) : Z := if d <? 10 then 48 + d else if d <? 36 then 87 + d else 29 + d.
Definition written (X : list Z) : bytes := map char_of X.

(** ceil(ceil(v * LOG(radix)) / 8): the least number of bytes that holds every numeral string of length v. *)
Definition byte_count (r : Z) (v b : nat) : Prop := r ^ Z.of_nat v <= 256 ^ Z.of_nat b /\ forall b', r ^ Z.of_nat v <= 256 ^ Z.of_nat b' -> (b <= b')%nat.

Section spec.
Variable E : bytes -> bytes.
(** PRF (algorithm 6): CBC-MAC *)
Definition PRF (X : bytes) : bytes := fold_left (fun y b => E (xorl y b)) (chunks 16 X) (repeat 0 16).

(** Algorithm 7, FF1.Encrypt; b is the byte count of step 3 *)
Section ff1.
Variables (r : Z) (T : bytes) (n b : nat).
Definition f1_u : nat := Nat.div n 2.
Definition f1_v : nat := (n - f1_u)%nat.
Definition f1_d : nat := (4 * Nat.div (b + 3) 4 + 4)%nat.
Definition f1_P : bytes :=
  [1; 2; 1] ++ be_bytes 3 r ++ [10] ++ [Z.of_nat f1_u mod 256] ++ be_bytes 4 (Z.of_nat n) ++ be_bytes 4 (Z.of_nat (length T)).
Definition f1_y (i : nat) (B : list Z) : Z :=
  let Q := T ++ repeat 0 (Z.to_nat ((- Z.of_nat (length T) - Z.of_nat b - 1) mod 16)) ++ [Z.of_nat i] ++ be_bytes b (num r B) in
  let R := PRF (f1_P ++ Q) in
  let S := R ++ concat (map (fun j => E (xorl R (be_bytes 16 (Z.of_nat j)))) (seq 1 (Nat.div (f1_d + 15) 16 - 1))) in
  be_val (firstn f1_d S).
Fixpoint f1_rounds (is : list nat) (A B : list Z) : list Z :=
  match is with
  | [] => A ++ B
  | i :: is' => let m := if Nat.even i then f1_u else f1_v in
                f1_rounds is' B (str r m ((num r A + f1_y i B) mod r ^ Z.of_nat m))
  end.
Definition FF1_encrypt (X : list Z) : list Z := f1_rounds (seq 0 10) (firstn f1_u X) (skipn f1_u X).
End ff1.

(** Algorithm 9, FF3.Encrypt; E is CIPH under the reversed key *)
Section ff3.
Variables (r : Z) (T : bytes) (n : nat).
Definition f3_u : nat := Nat.div (n + 1) 2.
Definition f3_v : nat := (n - f3_u)%nat.
Definition f3_y (i : nat) (B : list Z) : Z :=
  let W := if Nat.even i then skipn 4 T else firstn 4 T in
  let P := xorl W (be_bytes 4 (Z.of_nat i)) ++ be_bytes 12 (num r (rev B)) in
  be_val (rev (E (rev P))).
Fixpoint f3_rounds (is : list nat) (A B : list Z) : list Z :=
  match is with
  | [] => A ++ B
  | i :: is' => let m := if Nat.even i then f3_u else f3_v in
                f3_rounds is' B (rev (str r m ((num r (rev A) + f3_y i B) mod r ^ Z.of_nat m)))
  end.
Definition FF3_encrypt (X : list Z) : list Z := f3_rounds (seq 0 8) (firstn f3_u X) (skipn f3_u X).
End ff3.
End spec.
