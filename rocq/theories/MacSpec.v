(** Specification of the block-cipher MACs. *)
From Verif Require Import Base ToolBytesSpec.
Set Implicit Arguments. Unset Strict Implicit.

(** CBC chaining from the value t over blocks. *)
Definition chain (E : bytes -> bytes) (t : bytes) (bl : list bytes) : bytes :=
  fold_left (fun t b => E (xorl t b)) bl t.
(** ISO/IEC 9797-1 padding method 2: a one bit, then zeros to the next multiple of n. *)
Definition pad2 (n : nat) (m : bytes) : bytes := m ++ 128%Z :: repeat 0%Z (n - 1 - length m mod n).
(** M xor-> K: K is added to the last bytes of M. *)
Definition xor_end (m k : bytes) : bytes :=
  firstn (length m - length k) m ++ xorl (skipn (length m - length k) m) k.

(** CMAC (NIST SP 800-38B = OMAC1) of block size n with reduction polynomial x^(8n) + p. *)
Definition cmac_full (n : nat) (p : Z) (E : bytes -> bytes) (m : bytes) : bytes :=
  let L := E (repeat 0%Z n) in
  let K1 := double n p L in
  let K2 := double n p K1 in
  let m' := if (negb (length m =? 0) && (length m mod n =? 0))%bool then xor_end m K1 else xor_end (pad2 n m) K2 in
  chain E (repeat 0%Z n) (chunks n m').

