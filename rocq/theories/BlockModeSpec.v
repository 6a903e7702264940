(** Specification vocabulary for block modes: what a history of CryptBlocks
    calls is, what "decrypts what was encrypted" means, and what each mode must
    compute, block by block. Independent of the loops in BlockModeModel. *)
From Verif Require Import Base BlockModeModel.
Set Implicit Arguments.

(** A whole number of blocks of byte values. *)
Definition aligned (bs : nat) (s : bytes) : Prop := length s mod bs = 0.
Definition input_ok (bs : nat) (s : bytes) : Prop := bytes_ok s /\ aligned bs s.
(** A legal call CryptBlocks(dst, src), written (dst, src). *)
Definition call_ok (bs : nat) (x : bytes * bytes) : Prop :=
  input_ok bs (snd x) /\ length (snd x) <= length (fst x).

(** Any sequence of legal calls on the encrypter succeeds, preserves length, and
    any sequence of legal calls on the decrypter, cut at possibly different
    places, that feeds it the same byte stream gives the messages back. *)
Definition mode_roundtrip (bs : nat) {Se Sd}
    (ecall : Se -> bytes * bytes -> res (Se * bytes))
    (dcall : Sd -> bytes * bytes -> res (Sd * bytes)) (se : Se) (sd : Sd) : Prop :=
  forall msgs, Forall (call_ok bs) msgs ->
  exists se' outs, run_calls ecall se msgs = Ok (se', outs) /\
    length (concat outs) = length (concat (map snd msgs)) /\
    forall cts, Forall (call_ok bs) cts -> concat (map snd cts) = concat outs ->
    exists sd' ps, run_calls dcall sd cts = Ok (sd', ps) /\
                   concat ps = concat (map snd msgs).

(** The calls of a history compute the relation [spec plaintext-blocks
    ciphertext-blocks]. *)
Definition mode_computes (bs : nat) {S}
    (call : S -> bytes * bytes -> res (S * bytes)) (st : S)
    (spec : list bytes -> list bytes -> Prop) : Prop :=
  forall msgs st' outs, Forall (call_ok bs) msgs ->
    run_calls call st msgs = Ok (st', outs) ->
    spec (chunks bs (concat (map snd msgs))) (chunks bs (concat outs)).

(** Block-by-block specifications: [P i], [C i] are the i-th blocks. *)
Section specs.
  Variable E : bytes -> bytes.
  Definition ecb_spec (ps cs : list bytes) : Prop := cs = map E ps.
  (** F_0 = IV, F_i = F_{i-1} xor C_{i-1}; C_i = E(P_i xor F_i) *)
  Definition bc_spec (iv : bytes) (ps cs : list bytes) : Prop :=
    length cs = length ps /\ forall i, i < length ps ->
      nth i cs [] = E (xorl (nth i ps []) (fold_left xorl (firstn i cs) iv)).
  (** C_i = E(P_i xor P_{i-1} xor C_{i-1}) *)
  Definition pcbc_spec (iv : bytes) (ps cs : list bytes) : Prop :=
    length cs = length ps /\ forall i, i < length ps ->
      nth i cs [] =
      E (xorl (nth i ps [])
           (match i with O => iv | S j => xorl (nth j ps []) (nth j cs []) end)).
  (** C_i = E(P_i xor C_{i-1}) xor P_{i-1}; IV = C_{-1} || P_{-1} *)
  Definition ige_spec (c0 p0 : bytes) (ps cs : list bytes) : Prop :=
    length cs = length ps /\ forall i, i < length ps ->
      nth i cs [] =
      xorl (E (xorl (match i with O => c0 | S j => nth j cs [] end) (nth i ps [])))
           (match i with O => p0 | S j => nth j ps [] end).
  (** K_i = E^{i+1}(IV); C_i = E_{K_i}(P_i) *)
  Definition ofbnlf_spec (newKey : bytes -> option cipher) (iv : bytes) (ps cs : list bytes) : Prop :=
    length cs = length ps /\ forall i, i < length ps ->
      exists k, newKey (Nat.iter (S i) E iv) = Some k /\ nth i cs [] = enc k (nth i ps []).
  (** C_i = E(P_i xor C_{i-2}); IV = C_{-2} || C_{-1} *)
  Definition g3413cbc_spec (iv1 iv2 : bytes) (ps cs : list bytes) : Prop :=
    length cs = length ps /\ forall i, i < length ps ->
      nth i cs [] =
      E (xorl (nth i ps []) (match i with O => iv1 | 1 => iv2 | S (S j) => nth j cs [] end)).
End specs.

(** CryptBlocks writes exactly dst[:len(src)], and (for modes safe in place) what
    it writes and leaves as state does not depend on whether dst is src. *)
Definition mode_inplace_ok (c : cipher) {S}
    (mstep : bool -> S -> buffers -> nat -> res (S * buffers)) (st : S) : Prop :=
  forall dst src, call_ok (bsz c) (dst, src) ->
  exists st' out, length out = length src /\
    crypt_blocks_mem c false (mstep false) st dst src = Ok (st', out ++ skipn (length src) dst) /\
    crypt_blocks_mem c true (mstep true) st src src = Ok (st', out).

(** The code refuses partial blocks and short destinations. *)
Definition mode_guards (c : cipher) (ip : bool) {S}
    (mstep : S -> buffers -> nat -> res (S * buffers)) : Prop :=
  forall st dst src,
    (length src mod bsz c <> 0 \/ (ip = false /\ length dst < length src)) ->
    crypt_blocks_mem c ip mstep st dst src = Panic.

(** A lawful two-byte toy cipher used to show hypotheses are satisfiable. *)
Definition toy : cipher :=
  {| bsz := 2;
     enc := fun b => match b with [x; y] => [(y + 1) mod 256; (x + 3) mod 256]%Z | _ => b end;
     dec := fun b => match b with [x; y] => [(y - 3) mod 256; (x - 1) mod 256]%Z | _ => b end |}.
