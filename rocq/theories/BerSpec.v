(** BER and DER encodings (X.690), for C137 and C138: values are trees of tags, given by their identifier octets. *)
From Verif Require Import Base.
Set Implicit Arguments. Unset Strict Implicit.
Local Open Scope nat_scope.

Inductive tree := TPrim (tag content : bytes) | TCons (tag : bytes) (children : list tree).

(** X.690 8.1.2: one octet, or a first octet with the number 31 and octets of which exactly the last has the top bit clear *)
Definition tag_ok (constructed : bool) (tag : bytes) : Prop :=
  exists b rest, tag = b :: rest /\ is_byte b /\ (Z.testbit b 5 = constructed) /\
    ((b mod 32 <> 31 /\ rest = []) \/ (b mod 32 = 31 /\ exists hi lo, rest = hi ++ [lo] /\ Forall (fun x => 128 <= x < 256) hi /\ 0 <= lo < 128))%Z.

(** 8.1.3: the definite forms. The reader takes at most four octets and less than 2^31, and does not take a superfluous leading zero octet
    before an octet less than 128. *)
Definition length_of (n : nat) (lb : bytes) : Prop :=
  (n < 128 /\ lb = [Z.of_nat n]) \/
  (exists k, 1 <= k <= 4 /\ (Z.of_nat n < 2 ^ 31)%Z /\ (Z.of_nat n < 256 ^ Z.of_nat k)%Z /\ (if k =? 1 then 0 < n else (128 * 256 ^ Z.of_nat (k - 2) <= Z.of_nat n)%Z) /\
     lb = (128 + Z.of_nat k)%Z :: be_bytes k (Z.of_nat n)).

(** encodings of a tree; [bers eoc] are those of a sequence of trees, in which no element may look like the end of the contents if [eoc].
    The indefinite form is only read with at least one element. *)
Inductive ber_of : tree -> bytes -> Prop :=
| BPrim : forall tag c lb, tag_ok false tag -> bytes_ok c -> length_of (length c) lb -> ber_of (TPrim tag c) (tag ++ lb ++ c)
| BCons : forall tag ts lb body, tag_ok true tag -> bers false ts body -> length_of (length body) lb -> ber_of (TCons tag ts) (tag ++ lb ++ body)
| BIndef : forall tag ts body, tag_ok true tag -> bers true ts body -> ts <> [] -> ber_of (TCons tag ts) (tag ++ [128%Z] ++ body ++ [0%Z; 0%Z])
with bers : bool -> list tree -> bytes -> Prop :=
| BNil : forall eoc, bers eoc [] []
| BNext : forall eoc t ts b bs, ber_of t b -> (eoc = true -> firstn 2 b <> [0%Z; 0%Z]) -> bers eoc ts bs -> bers eoc (t :: ts) (b ++ bs).

(** 10.1: the definite form with the fewest octets *)
Definition digits (n : nat) : nat := Z.to_nat (Z.log2 (Z.of_nat n) / 8 + 1).
Definition der_length (n : nat) : bytes := if n <? 128 then [Z.of_nat n] else (128 + Z.of_nat (digits n))%Z :: be_bytes (digits n) (Z.of_nat n).
Fixpoint der (t : tree) : bytes :=
  match t with
  | TPrim tag c => tag ++ der_length (length c) ++ c
  | TCons tag ts => let body := concat (map der ts) in tag ++ der_length (length body) ++ body
  end.

(** trees with identifier octets and bytes *)
Inductive tree_ok : tree -> Prop :=
| OPrim : forall tag c, tag_ok false tag -> bytes_ok c -> tree_ok (TPrim tag c)
| OCons : forall tag ts, tag_ok true tag -> (forall t, In t ts -> tree_ok t) -> tree_ok (TCons tag ts).

(** the octets of a tag with a number over 30 go up to the end of the input, or the octet before it *)
Definition cut_high_tag (ber : bytes) : Prop :=
  exists pre b hi, Forall (fun x => 128 <= x)%Z hi /\ (b mod 32 = 31)%Z /\ (ber = pre ++ b :: hi \/ exists lo, ber = pre ++ b :: hi ++ [lo]).
