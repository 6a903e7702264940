(** Specification vocabulary for stream modes. *)
From Verif Require Import Base BlockModeModel.
Set Implicit Arguments.

(** XOR of [src] with the keystream bytes ks(off), ks(off+1), ... *)
Fixpoint xor_stream (ks : nat -> Z) (off : nat) (src : bytes) : bytes :=
  match src with
  | [] => []
  | b :: r => Z.lxor b (ks off) :: xor_stream ks (S off) r
  end.

(** A legal XORKeyStream(dst, src), written (dst, src). *)
Definition scall_ok (x : bytes * bytes) : Prop := length (snd x) <= length (fst x).

(** Over any history of legal calls the object behaves as one fixed keystream:
    each call continues where the previous one stopped. *)
Definition stream_is {S} (call : S -> bytes * bytes -> res (S * bytes)) (st : S) (ks : nat -> Z)
  : Prop :=
  forall calls, Forall scall_ok calls ->
  exists st' outs, run_calls call st calls = Ok (st', outs) /\
    map (@length Z) outs = map (fun x => length (snd x)) calls /\
    concat outs = xor_stream ks 0 (concat (map snd calls)).

(** Consequences a user relies on: the way a message is cut does not matter, and
    the same operation with a fresh object decrypts. *)
Definition chunk_invariant {S} (call : S -> bytes * bytes -> res (S * bytes)) (st : S) : Prop :=
  forall calls1 calls2, Forall scall_ok calls1 -> Forall scall_ok calls2 ->
  concat (map snd calls1) = concat (map snd calls2) ->
  exists st1 st2 outs1 outs2,
    run_calls call st calls1 = Ok (st1, outs1) /\ run_calls call st calls2 = Ok (st2, outs2) /\
    concat outs1 = concat outs2.
(** Same object kind on both sides (self-inverse), any two ways of cutting. *)
Definition stream_roundtrip {Se Sd} (ecall : Se -> bytes * bytes -> res (Se * bytes))
    (dcall : Sd -> bytes * bytes -> res (Sd * bytes)) (se : Se) (sd : Sd) : Prop :=
  forall calls, Forall scall_ok calls ->
  exists se' outs, run_calls ecall se calls = Ok (se', outs) /\
    length (concat outs) = length (concat (map snd calls)) /\
    forall calls2, Forall scall_ok calls2 -> concat (map snd calls2) = concat outs ->
    exists sd' ps, run_calls dcall sd calls2 = Ok (sd', ps) /\
                   concat ps = concat (map snd calls).
(** Weaker: the two sides cut the stream at the same places. *)
Definition stream_roundtrip_same {Se Sd} (ecall : Se -> bytes * bytes -> res (Se * bytes))
    (dcall : Sd -> bytes * bytes -> res (Sd * bytes)) (se : Se) (sd : Sd) : Prop :=
  forall calls, Forall scall_ok calls ->
  exists se' outs, run_calls ecall se calls = Ok (se', outs) /\
    map (@length Z) outs = map (fun x => length (snd x)) calls /\
    forall calls2, Forall scall_ok calls2 -> map snd calls2 = outs ->
    exists sd' ps, run_calls dcall sd calls2 = Ok (sd', ps) /\ ps = map snd calls.

(** ceil(len/bs): how many blocks a call touches *)
Definition nblocks (bs : nat) (src : bytes) : nat := (length src + bs - 1) / bs.

(** Outputs when every call starts at the next keystream block boundary (p blocks used so far). *)
Fixpoint nofb_outs (ks : nat -> Z) (bs p : nat) (srcs : list bytes) : list bytes :=
  match srcs with
  | [] => []
  | x :: r => xor_stream ks (p * bs) x :: nofb_outs ks bs (p + nblocks bs x) r
  end.

(** Keystreams, byte i. *)
Section specs.
  Variable E : bytes -> bytes.
  Variable bs : nat.
  (** O_0 = IV, O_{j+1} = E(O_j); the stream is O_1 || O_2 || ... *)
  Definition ofb_ks (iv : bytes) (i : nat) : Z :=
    nth (i mod bs) (Nat.iter (S (i / bs)) E iv) 0%Z.
  (** 8-bit OFB: register R_0 = IV, byte b_i = first byte of E(R_i), R_{i+1} =
      R_i shifted by one byte with b_i appended. *)
  Definition ofb8_next (r : bytes) : bytes := skipn 1 r ++ [nth 0 (E r) 0%Z].
  Definition ofb8_ks (iv : bytes) (i : nat) : Z := nth 0 (E (Nat.iter i ofb8_next iv)) 0%Z.
  (** GOST R 34.13 OFB with a two-block register IV1 || IV2. *)
  Definition g3413ofb_next (r : bytes * bytes) : bytes * bytes := (snd r, E (fst r)).
  Definition g3413ofb_ks (iv : bytes) (i : nat) : Z :=
    nth (i mod bs) (E (fst (Nat.iter (i / bs) g3413ofb_next (firstn bs iv, skipn bs iv)))) 0%Z.
  (** GOST R 34.13 CTR: block j is the first s bytes of E(IV || 0 + j), the
      counter being a big-endian number modulo 2^(8 bs). *)
  Definition g3413ctr_ks (s : nat) (iv : bytes) (i : nat) : Z :=
    nth (i mod s)
      (E (be_bytes bs (be_val (iv ++ repeat 0%Z (bs - length iv)) + Z.of_nat (i / s)))) 0%Z.
  (** GOST 28147-89 counter mode (bs = 8), 32-bit registers N3, N4 loaded from the
      two little-endian halves of E(IV); before every block N3 += 0x01010101 mod
      2^32 and N4 is advanced by [step4]. Block j is E(N3 || N4). *)
  Section gofb.
    Variable step4 : Z -> Z.
    Definition gofb_ks (iv : bytes) (i : nat) : Z :=
      let n3 := le_val (slice 0 4 (E iv)) in
      let n4 := le_val (slice 4 4 (E iv)) in
      let j := S (i / 8) in
      nth (i mod 8)
        (E (le_bytes 4 ((n3 + Z.of_nat j * 16843009) mod 2 ^ 32) ++ le_bytes 4 (Nat.iter j step4 n4)))
        0%Z.
  End gofb.
  (** Addition of 0x01010104 modulo 2^32 - 1, as the standard wants it (a sum
      below 2^32 is kept, otherwise the carry is added back). *)
  Definition gost_step4 (n : Z) : Z :=
    let s := (n + 16843012)%Z in if (s <? 2 ^ 32)%Z then s else (s - 2 ^ 32 + 1)%Z.
  (** What the code does: the carry is lost when the sum is exactly 2^32. *)
  Definition code_step4 (n : Z) : Z :=
    if (n + 16843012 =? 2 ^ 32)%Z then 0%Z else gost_step4 n.
End specs.

(** A lawful toy cipher with any positive block size: rotate by one byte and add 1. *)
Definition toyn (n : nat) : cipher :=
  {| bsz := n;
     enc := fun b => if length b =? n then map (fun x => (x + 1) mod 256)%Z (skipn 1 b ++ firstn 1 b) else b;
     dec := fun b => if length b =? n then map (fun x => (x - 1) mod 256)%Z (skipn (n - 1) b ++ firstn (n - 1) b)
                     else b |}.
