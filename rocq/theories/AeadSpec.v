(** The contract of crypto/cipher.AEAD, and the counter mode of the Go standard
    library that several AEADs call. *)
From Verif Require Import Base BlockModeModel.
Set Implicit Arguments. Unset Strict Implicit.

(** crypto/cipher.NewCTR(c, iv).XORKeyStream: block i of the key stream is
    E(iv + i), iv read as a big-endian number of BlockSize bytes that wraps around.
    (Standard library: modelled from its documentation, not part of /repo.) *)
Definition ctr_blocks (c : cipher) (iv : bytes) (n : nat) : list bytes :=
  map (fun i => enc c (be_bytes (bsz c) (be_val iv + Z.of_nat i))) (seq 0 n).
Definition go_ctr (c : cipher) (iv src : bytes) : bytes :=
  xorl src (concat (ctr_blocks c iv ((length src + bsz c - 1) / bsz c))).

Section contract.
  (** dst, nonce, message, associated data *)
  Variables seal open : bytes -> bytes -> bytes -> bytes -> res bytes.

  (** Seal appends [length pt + overhead] bytes to dst, and Open of those bytes with the
      same nonce and associated data appends pt to its dst. *)
  Definition opens_what_it_seals (ok : bytes -> bytes -> bytes -> Prop) (overhead : nat) : Prop :=
    forall nonce pt ad dst dst', ok nonce pt ad ->
    exists c, seal dst nonce pt ad = Ok (dst ++ c) /\ length c = length pt + overhead /\
              open dst' nonce c ad = Ok (dst' ++ pt).

  (** Whatever Open accepts is exactly what Seal outputs for the text that Open returns, under
      the same nonce and associated data: any other string is refused. *)
  Definition opens_only_sealed (ok : bytes -> bytes -> bytes -> Prop) : Prop :=
    forall nonce c ad dst r, ok nonce c ad -> open dst nonce c ad = Ok r ->
    exists pt, r = dst ++ pt /\ seal [] nonce pt ad = Ok c.
End contract.

(** ** Facts about [go_ctr] *)
Lemma concat_blocks_length n (bs : list bytes) :
  Forall (fun b => length b = n) bs -> length (concat bs) = n * length bs.
Proof. intro H. induction H as [|b bs Hb _ IH]; cbn [concat length]; [lia|]. rewrite app_length. lia. Qed.

Section ctr.
  Variable c : cipher.
  Hypothesis HL : lawful c.
  Lemma ctr_block_ok iv i : isblock (bsz c) (enc c (be_bytes (bsz c) (be_val iv + Z.of_nat i))).
  Proof. apply HL. split; [apply be_bytes_length|apply be_bytes_ok]. Qed.
  Lemma ctr_blocks_length iv n : length (concat (ctr_blocks c iv n)) = bsz c * n.
  Proof.
    rewrite concat_blocks_length with (n := bsz c).
    - unfold ctr_blocks. now rewrite map_length, seq_length.
    - unfold ctr_blocks. apply Forall_forall. intros b Hb. apply in_map_iff in Hb as (i & <- & _). apply ctr_block_ok.
  Qed.
  Lemma ctr_enough iv n : n <= length (concat (ctr_blocks c iv ((n + bsz c - 1) / bsz c))).
  Proof.
    rewrite ctr_blocks_length. pose proof (law_pos HL).
    pose proof (Nat.div_mod (n + bsz c - 1) (bsz c) ltac:(lia)).
    pose proof (Nat.mod_upper_bound (n + bsz c - 1) (bsz c) ltac:(lia)). lia.
  Qed.
  Lemma go_ctr_length iv src : length (go_ctr c iv src) = length src.
  Proof. unfold go_ctr. rewrite xorl_length. pose proof (ctr_enough iv (length src)). lia. Qed.
  Lemma go_ctr_inv iv src : go_ctr c iv (go_ctr c iv src) = src.
  Proof.
    unfold go_ctr at 1. rewrite go_ctr_length. unfold go_ctr.
    apply xorl_cancel_r. apply ctr_enough.
  Qed.
  Lemma go_ctr_ok iv src : bytes_ok src -> bytes_ok (go_ctr c iv src).
  Proof.
    intro H. apply xorl_ok; auto. unfold ctr_blocks. induction (seq 0 _) as [|i l IH]; [constructor|].
    cbn [map concat]. apply Forall_app. split; auto. apply ctr_block_ok.
  Qed.
End ctr.
