(** C27 (second part): HC-128 and HC-256. *)
From Verif Require Import Base BlockModeModel WordModel WordLib StreamModel StreamSpec StreamProofs Sc2Model Sc2Spec Sc2Proofs.
Set Implicit Arguments. Unset Strict Implicit.
Local Open Scope nat_scope.

(** A 16-byte key and IV: the calls, however cut, XOR the HC-128 keystream. *)
Theorem C27_hc128_stream key iv : length key = 16 -> length iv = 16 ->
  exists st, hc_new key iv = Ok st /\ stream_is hc128_call st (hc128_ks key iv) /\
    chunk_invariant hc128_call st /\ stream_roundtrip hc128_call hc128_call st st.
Proof.
  intros K V. destruct (hc128_stream K V) as (st & E & H). exists st.
  split; [unfold hc_new; rewrite K; exact E|]. split; [exact H|]. split; [exact (stream_is_chunk H)|exact (stream_is_roundtrip H H)].
Qed.
Print Assumptions C27_hc128_stream.
(** A 32-byte key and IV: the HC-256 keystream. *)
Theorem C27_hc256_stream key iv : length key = 32 -> length iv = 32 ->
  exists st, hc_new key iv = Ok st /\ stream_is hc256_call st (hc256_ks key iv) /\
    chunk_invariant hc256_call st /\ stream_roundtrip hc256_call hc256_call st st.
Proof.
  intros K V. destruct (hc256_stream K V) as (st & E & H). exists st.
  split; [unfold hc_new; rewrite K; exact E|]. split; [exact H|]. split; [exact (stream_is_chunk H)|exact (stream_is_roundtrip H H)].
Qed.
Print Assumptions C27_hc256_stream.
(** Other lengths of key or IV are errors. *)
Theorem C27_hc_lengths key iv :
  hc_new key iv <> Err <-> (length key = 16 /\ length iv = 16) \/ (length key = 32 /\ length iv = 32).
Proof.
  unfold hc_new, hc128_new, hc256_new. destruct (Nat.eqb_spec (length key) 16) as [E|E]; [rewrite E|].
  - destruct (Nat.eqb_spec (length iv) 16); cbn [Nat.eqb negb]; split; try congruence; try lia; auto.
  - destruct (Nat.eqb_spec (length key) 32) as [F|F]; [rewrite F|].
    + destruct (Nat.eqb_spec (length iv) 32); cbn [Nat.eqb negb]; split; try congruence; try lia; auto.
    + split; [congruence|lia].
Qed.
Print Assumptions C27_hc_lengths.
(** two steps of a small key expansion, a table step that wraps round, and the lengths asked for *)
Example C27_instance_hc :
  length (repeat 7%Z 16) = 16 /\ hcW (map Z.of_nat (seq 1 16)) 1 = map Z.of_nat (seq 1 16) ++ [67559451%Z] /\
  hc128_P (repeat 1%Z 512) [] 511 = 20972033%Z.
Proof. vm_compute. auto. Qed.
