(** Password hash strings, independently of the code: base64 of RFC 4648 as numbers, the PHC string of Argon2, the plain
    variant with seven fields, and Botan's passhash9. *)
From Coq Require Import String Ascii.
From Verif Require Import Base BencodeSpec.
Set Implicit Arguments.
Local Open Scope Z_scope.

Definition str (s : string) : bytes := map (fun c => Z.of_nat (nat_of_ascii c)) (list_ascii_of_string s).
Definition b64_alphabet : bytes := str "ABCDEFGHIJKLMNOPQRSTUVWXYZabcdefghijklmnopqrstuvwxyz0123456789+/".
(** the m digits of v in base 64, the most significant first *)
Fixpoint digits64 (m : nat) (v : Z) : bytes :=
  match m with O => [] | S m' => nth (Z.to_nat (v / 64 ^ Z.of_nat m' mod 64)) b64_alphabet 0 :: digits64 m' v end.
(** RFC 4648 without padding: the bits of the input, filled up with zeros to a multiple of six *)
Definition base64 (l : bytes) : bytes :=
  let n := List.length l in let m := Nat.div (8 * n + 5) 6 in digits64 m (be_val l * 2 ^ (6 * Z.of_nat m - 8 * Z.of_nat n)).

(** $argon2id$v=19$m=65536,t=1,p=4$salt$key, from strings for the numbers, the salt and the key *)
Definition phc (name m t p salt key : bytes) : bytes :=
  str "$" ++ name ++ str "$v=19$m=" ++ m ++ str ",t=" ++ t ++ str ",p=" ++ p ++ str "$" ++ salt ++ str "$" ++ key.
(** argon2id$19$65536$1$4$salt$key *)
Definition seven (name v m t p salt key : bytes) : bytes :=
  name ++ str "$" ++ v ++ str "$" ++ m ++ str "$" ++ t ++ str "$" ++ p ++ str "$" ++ salt ++ str "$" ++ key.
(** the Argon2 variants: 0 d, 1 i, 2 id *)
Definition variant (mode : Z) (name : bytes) : Prop :=
  (mode = 0 /\ name = str "argon2d") \/ (mode = 1 /\ name = str "argon2i") \/ (mode = 2 /\ name = str "argon2id").
(** $9$ and the base64 of algorithm, work factor, salt and key: 39 bytes *)
Definition passhash9 (alg work : Z) (salt key : bytes) : bytes := str "$9$" ++ base64 ([alg] ++ be_bytes 2 work ++ salt ++ key).
(** what is asked of Argon2 and of PBKDF2 *)
Definition argon_ok (A : Z -> bytes -> bytes -> Z -> Z -> Z -> Z -> bytes) : Prop :=
  forall mode pw salt t m p n, 0 <= n -> List.length (A mode pw salt t m p n) = Z.to_nat n /\ bytes_ok (A mode pw salt t m p n).
Definition pbkdf_ok (P : Z -> bytes -> bytes -> Z -> bytes) : Prop :=
  forall alg pw salt i, List.length (P alg pw salt i) = 24%nat /\ bytes_ok (P alg pw salt i).
(** a string that can stand as a number or as base64 in a hash: none of the separators $ , = *)
Definition clean (s : bytes) : Prop := ~ In 36 s /\ ~ In 44 s /\ ~ In 61 s.
(** a string that does not begin like a number *)
Definition no_number (s : bytes) : Prop := match s with [] => True | c :: _ => ~ (48 <= c <= 57) /\ c <> 43 /\ c <> 45 end.
