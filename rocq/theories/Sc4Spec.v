(** Specification of Grain-128AEAD, one bit at a time (Hell, Johansson, Maximov, Meier, Sönnerup, Yoshida:
    Grain-128AEAD, version 1). *)
From Verif Require Import Base BlockModeModel StreamSpec Sc1Spec.
Set Implicit Arguments. Unset Strict Implicit.
Local Open Scope nat_scope.

(** bit i of an octet string, lowest bit of the first octet first *)
Definition obit (d : bytes) (i : nat) : bool := Z.testbit (nth (i / 8) d 0%Z) (Z.of_nat (i mod 8)).

(** a shift register of 128 bits; only the positions 0 .. 127 matter *)
Definition bitreg : Type := nat -> bool.
Definition push (r : bitreg) (x : bool) : bitreg := fun i => if i =? 127 then x else r (S i).
Definition xsum (l : list bool) : bool := fold_right xorb false l.

Definition feed_s (s : bitreg) : bool := xsum [s 0; s 7; s 38; s 70; s 81; s 96].
Definition feed_b (s b : bitreg) : bool :=
  xsum [s 0; b 0; b 26; b 56; b 91; b 96; b 3 && b 67; b 11 && b 13; b 17 && b 18; b 27 && b 59; b 40 && b 48;
        b 61 && b 65; b 68 && b 84; b 22 && b 24 && b 25; b 70 && b 78 && b 82; b 88 && b 92 && b 93 && b 95].
(** the pre-output function *)
Definition pre (s b : bitreg) : bool :=
  xsum [b 12 && s 8; s 13 && s 20; b 95 && s 42; s 60 && s 79; b 12 && b 95 && s 94;
        s 93; b 2; b 15; b 36; b 45; b 64; b 73; b 89].

Section grain.
  Variables key nonce : bytes.
  (** loading: the key in B; the nonce, 31 ones and a zero in S *)
  Definition start : bitreg * bitreg :=
    (fun i => if i <? 96 then obit nonce i else i <? 127, fun i => obit key i).
  (** what is added to the new bits of S and of B at clock t: the pre-output for 256 clocks, then the key (S only)
      for 128 clocks *)
  Definition extra_s (t : nat) (y : bool) : bool := if t <? 256 then y else if t <? 384 then obit key (t - 256) else false.
  Definition extra_b (t : nat) (y : bool) : bool := if t <? 256 then y else false.
  Fixpoint regs (t : nat) : bitreg * bitreg :=
    match t with
    | O => start
    | S t =>
        let s := fst (regs t) in let b := snd (regs t) in
        (push s (xorb (feed_s s) (extra_s t (pre s b))), push b (xorb (feed_b s b) (extra_b t (pre s b))))
    end.
  (** the pre-output at clock t *)
  Definition gy (t : nat) : bool := pre (fst (regs t)) (snd (regs t)).

  (** keystream bit i; accumulator A (bits 0..63 at first); the authentication register holds at step i the bits
      i .. i+63 of R *)
  Definition gz (i : nat) : bool := gy (384 + 2 * i).
  Definition gA (j : nat) : bool := gy (256 + j).
  Definition gR (i : nat) : bool := if i <? 64 then gy (320 + i) else gy (384 + 2 * (i - 64) + 1).
  (** tag bit j of the message bits m(0) .. m(n-1) *)
  Fixpoint tag_bit (m : nat -> bool) (n j : nat) : bool :=
    match n with
    | O => gA j
    | S n => xorb (tag_bit m n j) (m n && gR (n + j))
    end.
  (** the authenticated bits: an octet string, then a one *)
  Definition auth_bit (d : bytes) (i : nat) : bool := if i <? 8 * length d then obit d i else i =? 8 * length d.
  Definition grain_tag (d : bytes) : bytes := map (byte_of_bits (tag_bit (auth_bit d) (8 * length d + 1))) (seq 0 8).
  Definition grain_ks : nat -> Z := byte_of_bits gz.
End grain.

(** DER encoding of a length, as the standard wants it in front of the associated data *)
Definition len_bytes (n : nat) : nat := Z.to_nat (Z.log2 (Z.of_nat n)) / 8 + 1.
Definition der_length (n : nat) : bytes :=
  if n <=? 127 then [Z.of_nat n] else (128 + Z.of_nat (len_bytes n))%Z :: be_bytes (len_bytes n) (Z.of_nat n).
(** what the code puts there: after the first octet, the number of length octets instead of the length *)
Definition code_length (n : nat) : bytes :=
  if n <=? 127 then [Z.of_nat n] else (128 + Z.of_nat (len_bytes n))%Z :: be_bytes (len_bytes n) (Z.of_nat (len_bytes n)).
(** What an in-place Seal authenticates instead of the plaintext, [off] being the number of octets before it: the
    first octet is replaced by its ciphertext when off is odd, the last one when the total length is odd. *)
Definition seen (off : nat) (pt ct : bytes) : bytes :=
  let a := if Nat.odd off then firstn 1 ct ++ skipn 1 pt else pt in
  if Nat.odd (off + length pt) then firstn (length pt - 1) a ++ skipn (length pt - 1) ct else a.

(** As in StreamSpec, for calls whose source holds octets: any history of legal calls continues one keystream *)
Definition ocall_ok (x : bytes * bytes) : Prop := length (snd x) <= length (fst x) /\ bytes_ok (snd x).
Definition ostream_is {S} (call : S -> bytes * bytes -> res (S * bytes)) (st : S) (ks : nat -> Z) : Prop :=
  forall calls, Forall ocall_ok calls ->
  exists st' outs, run_calls call st calls = Ok (st', outs) /\
    map (@length Z) outs = map (fun x => length (snd x)) calls /\
    concat outs = xor_stream ks 0 (concat (map snd calls)).
