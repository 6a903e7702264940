(** C28 for MD2, SM3 and HAS-160; C59: SM3 states can be saved and restored. *)
From Coq Require Import String Ascii.
From Verif Require Import Base WordModel WordLib HashSpec HexLit HbufModel HbufSpec HbufProofs Hash1Model Hash1Spec Hash1Proofs.
Set Implicit Arguments. Unset Strict Implicit.
Local Open Scope nat_scope.

(** The bytes of an ASCII string. *)
Definition asc (s : string) : bytes := map (fun a => Z.of_nat (nat_of_ascii a)) (list_ascii_of_string s).

(** * C28: every history of Write, Sum and Reset *)
Theorem C28_md2_streams : streams md2_write md2_sum md2_reset md2_new md2_digest.
Proof. apply buf_streams; [lia|reflexivity|reflexivity|]. intros. now apply md2_sum_ok. Qed.
Print Assumptions C28_md2_streams.
Theorem C28_sm3_streams : streams sm3_write sm3_sum sm3_reset sm3_new sm3_digest.
Proof. apply buf_streams; [lia|reflexivity|reflexivity|]. intros. now apply sm3_sum_ok. Qed.
Print Assumptions C28_sm3_streams.
Theorem C28_has160_streams : streams has_write has_sum has_reset has_new has_digest.
Proof. apply buf_streams; [lia|reflexivity|reflexivity|]. intros. now apply has_sum_ok. Qed.
Print Assumptions C28_has160_streams.

(** The package-level Sum functions *)
Theorem C28_oneshot m :
  md2_oneshot m = Ok (md2_digest m) /\ sm3_oneshot m = Ok (sm3_digest m) /\ has_oneshot m = Ok (has_digest m).
Proof.
  pose proof (C28_md2_streams [HWrite m; HSum []]) as A. pose proof (C28_sm3_streams [HWrite m; HSum []]) as B.
  pose proof (C28_has160_streams [HWrite m; HSum []]) as C.
  cbn [hrun_r expected map app] in A, B, C. unfold md2_oneshot, sm3_oneshot, has_oneshot.
  now inversion A; inversion B; inversion C.
Qed.
Print Assumptions C28_oneshot.

(** The specified digests are the published ones. *)
Example C28_digest_instance :
  md2_digest (asc "abc") = hx "da853b0d3f88d99b30283a69e6ded6bb" /\
  sm3_digest (asc "abc") = hx "66c7f0f462eeedd9d1f2d46bdc10e4e24167c4875cf2f7a2297da02b8f4ba8e0" /\
  has_digest (asc "abc") = hx "975e810488cf2a3d49838478124afce4b1c78804" /\
  has_digest (asc "12345678901234567890123456789012345678901234567890123456789012345678901234567890")
    = hx "07f05c8c0773c55ca3a5a695ce6aca4c438911b5".
Proof. vm_compute. repeat split; reflexivity. Qed.
Example C28_history_instance :
  hrun_r sm3_write sm3_sum sm3_reset sm3_new [HWrite (asc "xyz"); HReset; HWrite (asc "a"); HSum []; HWrite (asc "bc"); HSum [7%Z]]
  = [Ok (sm3_digest (asc "a")); Ok (7%Z :: hx "66c7f0f462eeedd9d1f2d46bdc10e4e24167c4875cf2f7a2297da02b8f4ba8e0")].
Proof. vm_compute. reflexivity. Qed.

(** * C59 *)
Lemma sm3_round_ok W v j : wordsok 32 8 v -> wordsok 32 8 (sm3_round W v j).
Proof.
  intros [L F]. do 8 (destruct v as [|? v]; [discriminate L|]). destruct v; [|discriminate L].
  repeat match goal with H : Forall _ (_ :: _) |- _ => inversion H; clear H; subst end.
  cbn [sm3_round]. split; [reflexivity|].
  unfold ROL, sm3_P0 in *. repeat (apply Forall_cons; [|]); auto using Forall_nil.
  all: unfold ROL; repeat (apply inw_xor; [lia| |]); try apply inw_rotl; try lia; auto; try (apply inw_add; lia).
Qed.
Lemma sm3_block_ok s b : wordsok 32 8 s -> wordsok 32 8 (sm3_block s b).
Proof.
  intro H. unfold sm3_block.
  assert (G : wordsok 32 8 (fold_left (sm3_round (sm3_W b)) (seq 0 64) s)).
  { generalize (seq 0 64) as l. intro l. revert s H. induction l as [|j l IH]; intros s H; cbn [fold_left]; auto.
    apply IH. now apply sm3_round_ok. }
  destruct H as [L F], G as [L' F']. split; [rewrite xorl_length; lia|].
  clear -F F'. revert F'. generalize (fold_left (sm3_round (sm3_W b)) (seq 0 64) s) as t.
  induction F as [|a s A F IH]; intros [|c t] F'; cbn [xorl]; auto.
  all: try now constructor.
  inversion F'; subst. constructor; [apply inw_xor; auto; lia|]. now apply IH.
Qed.
Lemma sm3_iter_ok q : wordsok 32 8 (iterated 64 sm3_block sm3_iv q).
Proof.
  unfold iterated. assert (H : wordsok 32 8 sm3_iv).
  { split; [reflexivity|]. unfold sm3_iv. repeat (apply Forall_cons; [unfold inw; lia|]). apply Forall_nil. }
  revert H. generalize sm3_iv as s. induction (chunks 64 q) as [|b l IH]; intros s H; cbn [fold_left]; auto.
  apply IH. now apply sm3_block_ok.
Qed.
Lemma sm3_restored m d e : Held sm3_block 64 sm3_iv m d -> length (b_x e) = 64 ->
  exists e', sm3_unmarshal e (sm3_marshal d) = Ok e' /\ Held sm3_block 64 sm3_iv m e'.
Proof.
  intros H X. assert (P : 0 < 64) by lia. pose proof (held_nx P H) as N. destruct H as (q & t & k & []).
  assert (I : wordsok 32 8 (b_s d)) by (rewrite h_s; apply sm3_iter_ok). destruct I as [I1 I2].
  assert (S1 : length (stw_be 4 (b_s d)) = 32) by (rewrite stw_be_len, I1; reflexivity).
  set (B := firstn (b_nx d) (b_x d) ++ repeat 0%Z (64 - b_nx d)).
  assert (S2 : length B = 64) by (unfold B; rewrite app_length, repeat_length, firstn_length; lia).
  unfold sm3_unmarshal.
  assert (LL : length (sm3_marshal d) = 108).
  { unfold sm3_marshal. fold B. rewrite !app_length, S1, S2, be_bytes_length. reflexivity. }
  rewrite LL. cbn [Nat.ltb Nat.leb orb Nat.eqb Nat.add negb].
  assert (M : firstn 4 (sm3_marshal d) = sm3_magic) by reflexivity. rewrite M.
  replace (bytes_eqb sm3_magic sm3_magic) with true by reflexivity. cbn [negb].
  assert (A1 : slice 4 32 (sm3_marshal d) = stw_be 4 (b_s d)).
  { unfold slice, sm3_marshal. rewrite skipn_app_exact by reflexivity. now rewrite firstn_app_exact. }
  assert (A2 : slice 36 72 (sm3_marshal d) = B ++ be_bytes 8 (b_len d)).
  { unfold slice, sm3_marshal. fold B. rewrite app_assoc, skipn_app_exact by (rewrite app_length, S1; reflexivity).
    apply firstn_all2. rewrite app_length, S2, be_bytes_length. lia. }
  assert (A3 : slice 100 8 (sm3_marshal d) = be_bytes 8 (b_len d)).
  { unfold slice, sm3_marshal. fold B. rewrite 2!app_assoc, skipn_app_exact by (rewrite !app_length, S1, S2; reflexivity).
    apply firstn_all2. rewrite be_bytes_length. lia. }
  rewrite A1, A2, A3.
  assert (BV : be_val (be_bytes 8 (b_len d)) = b_len d).
  { apply val_byt_be. rewrite h_len. change (8 * Z.of_nat 8)%Z with 64%Z. apply inw_mod. lia. }
  rewrite BV.
  assert (NX : Z.to_nat (b_len d mod 64) = b_nx d).
  { rewrite h_len, N. change (2 ^ 64)%Z with (64 * 2 ^ 58)%Z.
    rewrite Z.rem_mul_r by lia. rewrite Z.mul_comm, Z.mod_add by lia. rewrite Z.mod_mod by lia.
    rewrite <- (Nat2Z.id (length m mod 64)), Nat2Z.inj_mod. reflexivity. }
  rewrite NX.
  assert (CP : copyat 0 (B ++ be_bytes 8 (b_len d)) (b_x e) = B).
  { unfold copyat. cbn [firstn skipn app]. unfold gocopy. rewrite X, firstn_app_exact by lia.
    rewrite app_length, S2, be_bytes_length. rewrite skipn_all2 by lia. now rewrite app_nil_r. }
  rewrite CP.
  assert (LS : ldw_be 4 (stw_be 4 (b_s d)) = b_s d).
  { apply ldw_stw_be; auto with arith. }
  rewrite LS. eexists. split; [reflexivity|].
  exists q, t, k. constructor; cbn [b_s b_x b_nx b_len]; auto.
  unfold B. rewrite firstn_app_exact; auto. rewrite firstn_length. lia.
Qed.

Lemma sm3_state_held ops : exists m, Held sm3_block 64 sm3_iv m (hstate sm3_write sm3_reset sm3_new ops).
Proof.
  assert (H : Held sm3_block 64 sm3_iv [] sm3_new) by (apply new_held; [lia|reflexivity]).
  revert H. generalize sm3_new as st, (@nil Z) as m. assert (P : 0 < 64) by lia.
  induction ops as [|[p|i|] ops IH]; intros st m H; cbn [hstate].
  - now exists m.
  - apply (IH (sm3_write st p) (m ++ p)). exact (write_held P p H).
  - now apply (IH st m).
  - apply (IH (sm3_reset st) []). apply new_held; [lia|reflexivity].
Qed.
Lemma sm3_run_held ops : forall m d, Held sm3_block 64 sm3_iv m d ->
  hrun_r sm3_write sm3_sum sm3_reset d ops = map Ok (expected sm3_digest m ops).
Proof.
  assert (P : 0 < 64) by lia.
  induction ops as [|[p|i|] ops IH]; intros m d H; cbn [hrun_r expected map]; auto.
  - apply IH. exact (write_held P p H).
  - f_equal; [now apply sm3_sum_ok|now apply IH].
  - apply (IH [] (sm3_reset d)). apply new_held; [lia|reflexivity].
Qed.

(** A digest saved with MarshalBinary after any history and restored with UnmarshalBinary into a digest with any other
    history goes on exactly like the saved one. *)
Theorem C59_sm3_restore before other after :
  let d := hstate sm3_write sm3_reset sm3_new before in
  let e := hstate sm3_write sm3_reset sm3_new other in
  exists e', sm3_unmarshal e (sm3_marshal d) = Ok e' /\
    hrun_r sm3_write sm3_sum sm3_reset e' after = hrun_r sm3_write sm3_sum sm3_reset d after.
Proof.
  intros d e. destruct (sm3_state_held before) as [m Hd]. destruct (sm3_state_held other) as [m' He].
  fold d in Hd. fold e in He.
  destruct (@sm3_restored m d e) as (e' & E & H); auto.
  { destruct He as (q & t & k & []). auto. }
  exists e'. split; auto. now rewrite (sm3_run_held after H), (sm3_run_held after Hd).
Qed.
Print Assumptions C59_sm3_restore.
(** What UnmarshalBinary refuses: anything that is not 108 bytes starting with the magic. *)
Theorem C59_sm3_refuses d b :
  (exists d', sm3_unmarshal d b = Ok d') <-> length b = 108 /\ firstn 4 b = sm3_magic.
Proof.
  unfold sm3_unmarshal. destruct (length b <? 4) eqn:C1; cbn [orb].
  { apply Nat.ltb_lt in C1. split; [intros [? [=]]|intros [? ?]; lia]. }
  destruct (bytes_eqb (firstn 4 b) sm3_magic) eqn:C2; cbn [negb].
  2:{ split; [intros [? [=]]|intros [_ E]]. rewrite E in C2. discriminate C2. }
  apply bytes_eqb_eq in C2. change (4 + 32 + 64 + 8) with 108.
  destruct (Nat.eqb_spec (length b) 108) as [C3|C3]; cbn [negb].
  - split; [auto|]. intros _. eexists. reflexivity.
  - split; [intros [? [=]]|intros [? ?]; lia].
Qed.
Print Assumptions C59_sm3_refuses.
Example C59_sm3_instance :
  let d := sm3_write sm3_new (asc "ab") in
  let e := sm3_write sm3_new (asc "something else") in
  rbind (sm3_unmarshal e (sm3_marshal d)) (fun e' => sm3_sum (sm3_write e' (asc "c")) [])
  = Ok (hx "66c7f0f462eeedd9d1f2d46bdc10e4e24167c4875cf2f7a2297da02b8f4ba8e0").
Proof. vm_compute. reflexivity. Qed.
