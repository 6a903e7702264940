(** C27 (first part): Trivium, Rabbit, KCipher-2 and Salsa20 as stream ciphers. *)
From Verif Require Import Base BlockModeModel WordModel WordLib StreamModel StreamSpec StreamProofs HexLit Sc1Model Sc1Spec Sc1Proofs.
From Coq Require Import String.
Set Implicit Arguments. Unset Strict Implicit.
Local Open Scope nat_scope.

(** A 10-byte key and IV give a Trivium object whose calls, however cut, XOR the keystream of the 288-bit registers. *)
Theorem C27_trivium_stream key iv : List.length key = 10 -> List.length iv = 10 ->
  exists st, tri_new key iv = Ok st /\ stream_is tri_call st (tri_ks key iv) /\
    chunk_invariant tri_call st /\ stream_roundtrip tri_call tri_call st st.
Proof.
  intros K V. destruct (tri_new_stream K V) as (st & E & H). exists st. split; [exact E|]. split; [exact H|].
  split; [exact (stream_is_chunk H)|exact (stream_is_roundtrip H H)].
Qed.
Print Assumptions C27_trivium_stream.
(** Every other length of key or IV is an error. *)
Theorem C27_trivium_lengths key iv : tri_new key iv <> Err <-> List.length key = 10 /\ List.length iv = 10.
Proof.
  unfold tri_new. destruct (Nat.eqb_spec (List.length key) 10), (Nat.eqb_spec (List.length iv) 10); cbn [negb]; split; try tauto; try congruence.
Qed.
Print Assumptions C27_trivium_lengths.
(** the published keystream of the key 80..00 and the IV of the repository's tests, first byte *)
Example C27_instance_trivium :
  (match tri_new (hx "80000000000000000000") (hx "12345678901234567890") with
   | Ok st => match tri_call st ([0]%Z, [0]%Z) with Ok (_, o) => o | _ => [] end | _ => [] end) = hx "70".
Proof. vm_compute. reflexivity. Qed.

(** Rabbit: 16 bytes per step of its own state, handed out byte by byte; self-inverse and independent of the cutting. *)
Theorem C27_rabbit_stream key iv : List.length key = 16 -> List.length iv = 0 \/ List.length iv = 8 ->
  exists st, rb_new key iv = Ok st /\
    stream_is rb_call st (fun i => (rb_blk (Nat.iter (i / 16) rb_next st)).[i mod 16]) /\
    chunk_invariant rb_call st /\ stream_roundtrip rb_call rb_call st st.
Proof.
  intros K V. unfold rb_new. rewrite K. cbn [Nat.eqb negb].
  assert (X : negb (List.length iv =? 0) && negb (List.length iv =? 8) = false) by (destruct V as [-> | ->]; reflexivity).
  rewrite X. exists (rb_init key iv). split; [reflexivity|].
  assert (E : rb_ks (rb_init key iv) = []).
  { unfold rb_init. assert (N : forall r, rb_ks (rb_next r) = rb_ks r) by (intro r; unfold rb_next; now destruct (rb_counters aro (rb_c r) (rb_carry r))).
    destruct (List.length iv =? 0); [reflexivity|]. unfold rb_setup_iv. cbn [Nat.iter nat_rect]. rewrite !N. reflexivity. }
  pose proof (rb_stream E) as H. split; [exact H|]. split; [exact (stream_is_chunk H)|exact (stream_is_roundtrip H H)].
Qed.
Print Assumptions C27_rabbit_stream.
(** It is not the Rabbit of RFC 4503: its keystream for the zero key differs from the RFC's in the first byte ... *)
Theorem C27_rabbit_rfc_refuted :
  map (rab_ks (repeat 0%Z 16)) (seq 0 4) = hx "02F74A1C" /\
  (match rb_new (repeat 0%Z 16) [] with
   | Ok st => match rb_call st (repeat 0%Z 4, repeat 0%Z 4) with Ok (_, o) => o | _ => [] end | _ => [] end) = hx "1d8e2d8a".
Proof. split; vm_compute; reflexivity. Qed.
Print Assumptions C27_rabbit_rfc_refuted.
(** ... and its eight counter words, which should run through all 32-bit values, are 0 or 1 after every step. *)
Theorem C27_rabbit_counters_refuted r n : Forall (fun w => (0 <= w < 2 ^ 32)%Z) (rb_c r) ->
  Forall (fun w => w = 0%Z \/ w = 1%Z) (rb_c (Nat.iter (1 + n) rb_next r)).
Proof. exact (@rb_iter_bits n r). Qed.
Print Assumptions C27_rabbit_counters_refuted.
Example C27_instance_rabbit :
  (match rb_new (hx "12345678901234561234567890123456") (hx "1234567812345678") with
   | Ok st => match rb_call st (repeat 0%Z 8, repeat 0%Z 8) with Ok (_, o) => o | _ => [] end | _ => [] end) = hx "da7671fb2e61c40a".
Proof. vm_compute. reflexivity. Qed.

(** KCipher-2 with the source as the destination: a stream cipher, 8 bytes per step. *)
Theorem C27_kcipher2_inplace key iv : List.length key = 16 -> List.length iv = 16 ->
  exists st, k2_new key iv = Ok st /\
    stream_is (k2_call true) st (fun i => (k2_stream (Nat.iter (i / 8) (k2_next false) st)).[i mod 8]) /\
    chunk_invariant (k2_call true) st /\ stream_roundtrip (k2_call true) (k2_call true) st st.
Proof.
  intros K V. unfold k2_new. rewrite K, V. cbn [Nat.eqb negb]. exists (k2_init key iv). split; [reflexivity|].
  assert (E : k2_ks (k2_init key iv) = []) by (unfold k2_init; apply k2_iter_ks).
  pose proof (stream_is_call k2_inplace (k2_byte_stream E)) as H.
  split; [exact H|]. split; [exact (stream_is_chunk H)|exact (stream_is_roundtrip H H)].
Qed.
Print Assumptions C27_kcipher2_inplace.
(** Into a separate buffer it writes the plaintext. *)
Theorem C27_kcipher2_plaintext_refuted st dst src : List.length src <= List.length dst ->
  exists st', k2_call false st (dst, src) = Ok (st', src).
Proof. intro H. exact (k2_apart st (x := (dst, src)) H). Qed.
Print Assumptions C27_kcipher2_plaintext_refuted.
(** the answer of RFC 7008, in place *)
Example C27_instance_kcipher2 :
  (match k2_new (hx "A37B7D012F897076FE08C22D142BB2CF") (hx "33A6EE60E57927E08B45CC4CA30EDE4A") with
   | Ok st => match k2_call true st (repeat 0%Z 8, repeat 0%Z 8) with Ok (_, o) => o | _ => [] end | _ => [] end) = hx "60E9A6B67B4C2524".
Proof. vm_compute. reflexivity. Qed.

(** Salsa20 from byte position c on: as long as the position stays within 2^64 bytes, the calls, however cut, XOR the
    Salsa20/20 stream of the key and of the first 8 bytes of the nonce (with zeros appended if it is shorter). *)
Theorem C27_salsa20_stream key nonce c : List.length key = 32 -> (0 <= c < 2 ^ 64)%Z ->
  exists st, sa_new key nonce c = Ok st /\
  forall calls, Forall scall_ok calls -> (c + Z.of_nat (List.length (List.concat (map snd calls))) <= 2 ^ 64)%Z ->
  exists st' outs, run_calls (sa_call salsa_block) st calls = Ok (st', outs) /\
    map (@List.length Z) outs = map (fun x => List.length (snd x)) calls /\
    List.concat outs = xor_stream (salsa_ks key (firstn 8 (nonce ++ repeat 0%Z 8)) c) 0 (List.concat (map snd calls)).
Proof.
  intros K C. unfold sa_new. rewrite K. cbn [Nat.eqb negb]. eexists. split; [reflexivity|]. intros calls O B.
  assert (N : sa_n8 nonce = firstn 8 (nonce ++ repeat 0%Z 8)).
  { unfold sa_n8, gocopy. rewrite repeat_length.
    do 16 (destruct nonce as [|? nonce]; [reflexivity|]). reflexivity. }
  rewrite <- N. destruct (@sa_run key nonce c K (proj1 C) calls 0 O B) as (st & outs & R).
  exists st, outs. change (Z.of_nat 0) with 0%Z in R. rewrite Z.add_0_r, (Z.mod_small c) in R by exact C. exact R.
Qed.
Print Assumptions C27_salsa20_stream.
(** Past 2^64 bytes the cutting matters: one call reads on at block 2^58, two calls start again at block 0. *)
Theorem C27_salsa20_wrap_refuted : exists key nonce c, List.length key = 32 /\ (0 <= c < 2 ^ 64)%Z /\
  let out calls := match sa_new key nonce c with
    | Ok st => match run_calls (sa_call salsa_block) st calls with Ok (_, o) => List.concat o | _ => [] end | _ => [] end in
  out [(repeat 0%Z 2, repeat 0%Z 2)] <> out [(repeat 0%Z 1, repeat 0%Z 1); (repeat 0%Z 1, repeat 0%Z 1)].
Proof.
  exists (128%Z :: repeat 0%Z 31), (repeat 0%Z 8), (2 ^ 64 - 1)%Z. split; [reflexivity|]. split; [lia|]. vm_compute. discriminate.
Qed.
Print Assumptions C27_salsa20_wrap_refuted.
(** the ECRYPT vector (set 1, vector 0), first bytes *)
Example C27_instance_salsa20 : map (salsa_ks (128%Z :: repeat 0%Z 31) (repeat 0%Z 8) 0) (seq 0 2) = hx "E3BE".
Proof. vm_compute. reflexivity. Qed.
