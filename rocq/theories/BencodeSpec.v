(** Specification of bencoding (BitTorrent BEP 3). *)
From Coq Require Import Decimal DecimalZ Sorting.Sorted Sorting.Permutation.
From Verif Require Import Base.
Set Implicit Arguments. Unset Strict Implicit.
Local Open Scope nat_scope.

(** Values. A dictionary is a list of pairs; [distinct] says that it is one (no key twice). *)
Inductive bval :=
| BInt (z : Z)
| BStr (s : bytes)
| BList (l : list bval)
| BDict (m : list (bytes * bval)).

(** The decimal representation of a number in ASCII, after Coq's standard library. *)
Fixpoint uint_bytes (d : Decimal.uint) : bytes :=
  match d with
  | Nil => []
  | D0 d => 48%Z :: uint_bytes d | D1 d => 49%Z :: uint_bytes d | D2 d => 50%Z :: uint_bytes d | D3 d => 51%Z :: uint_bytes d
  | D4 d => 52%Z :: uint_bytes d | D5 d => 53%Z :: uint_bytes d | D6 d => 54%Z :: uint_bytes d | D7 d => 55%Z :: uint_bytes d
  | D8 d => 56%Z :: uint_bytes d | D9 d => 57%Z :: uint_bytes d
  end.
Definition decimal (z : Z) : bytes :=
  match Z.to_int z with Decimal.Pos u => uint_bytes u | Decimal.Neg u => 45%Z :: uint_bytes u end.

(** Lexicographic order of byte strings: a proper prefix, or smaller at the first difference. *)
Definition blt (a b : bytes) : Prop :=
  exists p, (exists c r, a = p /\ b = p ++ c :: r) \/
            (exists x y r s, a = p ++ x :: r /\ b = p ++ y :: s /\ (x < y)%Z).
Definition sorted_keys {A} (m : list (bytes * A)) : Prop := StronglySorted (fun x y => blt (fst x) (fst y)) m.

(** a string: length ':' contents *)
Definition be_str (s : bytes) : bytes := decimal (Z.of_nat (length s)) ++ [58%Z] ++ s.
(** [BE v s]: s is the bencoding of v. i..e, length:string, l..e, d..e with the keys in order. *)
Inductive BE : bval -> bytes -> Prop :=
| BE_int z : BE (BInt z) ([105%Z] ++ decimal z ++ [101%Z])
| BE_string s : BE (BStr s) (be_str s)
| BE_list l bs : Forall2 BE l bs -> BE (BList l) ([108%Z] ++ concat bs ++ [101%Z])
| BE_dict m m' bs : Permutation m m' -> sorted_keys m' -> Forall2 BE (map snd m') bs ->
    BE (BDict m) ([100%Z] ++ concat (map (fun kb => be_str (fst kb) ++ snd kb) (combine (map fst m') bs)) ++ [101%Z]).

(** every dictionary inside v satisfies P *)
Fixpoint all_dicts (P : list (bytes * bval) -> Prop) (v : bval) : Prop :=
  match v with
  | BInt _ | BStr _ => True
  | BList l => (fix go l := match l with [] => True | x :: r => all_dicts P x /\ go r end) l
  | BDict m => P m /\ (fix go l := match l with [] => True | x :: r => all_dicts P (snd x) /\ go r end) m
  end.
Definition distinct : bval -> Prop := all_dicts (fun m => NoDup (map fst m)).
Definition sorted : bval -> Prop := all_dicts (fun m => sorted_keys m).
(** no string (or key) is longer than n *)
Fixpoint short (n : Z) (v : bval) : Prop :=
  match v with
  | BInt _ => True
  | BStr s => (Z.of_nat (length s) <= n)%Z
  | BList l => (fix go l := match l with [] => True | x :: r => short n x /\ go r end) l
  | BDict m => (fix go l := match l with [] => True | x :: r => (Z.of_nat (length (fst x)) <= n)%Z /\ short n (snd x) /\ go r end) m
  end.
(** the same value up to the order in which the entries of dictionaries are listed *)
Inductive same : bval -> bval -> Prop :=
| same_int z : same (BInt z) (BInt z)
| same_str s : same (BStr s) (BStr s)
| same_list l l' : Forall2 same l l' -> same (BList l) (BList l')
| same_dict m p m' : Permutation m p -> map fst p = map fst m' -> Forall2 same (map snd p) (map snd m') -> same (BDict m) (BDict m').
