(** Proofs about LMS, second part: signing, encodings, histories (C83-C85). *)
From Verif Require Import Base WordModel KdfModel KdfProofs LmsModel LmsSpec LmsProofs LmsProofs2 LmsProofs3.
Set Implicit Arguments. Unset Strict Implicit.
Local Open Scope nat_scope.

(** the private key of the given seed with counter q *)
Definition gk (l : lms_param) (p : ots_param) (id seed : bytes) (q : Z) : lms_priv :=
  LmsPriv (LmsPub l p id (tree_root p id seed (l_h l))) q seed (gen_tree l p id seed).
Lemma gen_gk l p id seed : lms_wf l p -> lms_gen l p id seed = gk l p id seed 0.
Proof. intros (_ & _ & Hh & _). unfold lms_gen, gk. rewrite gen_root by auto. reflexivity. Qed.
(** the signature with counter q and nonce c *)
Definition made (l : lms_param) (p : ots_param) (id seed : bytes) (q : Z) (c msg : bytes) : lms_sig :=
  LmsSig l q (OtsSig p c (map (revealed p id seed q (msg_digest p id q c msg)) (seq 0 (o_p p)))) (map (sibling p id seed (l_h l) q) (seq 0 (l_h l))).

Lemma lms_sign_ok l p id seed q rng opt msg c : lms_wf l p -> (0 <= q < 2 ^ Z.of_nat (l_h l))%Z -> nonce opt rng = Ok c ->
  lms_sign (gk l p id seed q) rng opt msg = (gk l p id seed (q + 1), Ok (made l p id seed q c msg)).
Proof.
  intros (WF & _ & Hh & _) B N. unfold lms_sign, gk. cbn [s_pub s_q s_seed s_tree]. rewrite leaves_eq by auto.
  pose proof (pow_h Hh) as PH. destruct (Z.leb_spec (2 ^ Z.of_nat (l_h l)) q); [lia|]. rewrite (sign_ok q id seed msg WF N). cbn [snd].
  rewrite !(@u32_small (q + 1)), (@u32_small (q + 1 - 1)), (@u32_small (2 ^ Z.of_nat (l_h l) + q)) by lia.
  fold (path_of l p id seed (2 ^ Z.of_nat (l_h l) + q)). rewrite path_sibling by auto. unfold made.
  replace (q + 1 - 1)%Z with q by lia. reflexivity.
Qed.
Lemma lms_sign_end l p id seed q rng opt msg : lms_wf l p -> (2 ^ Z.of_nat (l_h l) <= q)%Z ->
  lms_sign (gk l p id seed q) rng opt msg = (gk l p id seed q, Err).
Proof.
  intros (WF & _ & Hh & _) B. unfold lms_sign, gk. cbn [s_pub s_q s_seed s_tree]. rewrite leaves_eq by auto.
  destruct (Z.leb_spec (2 ^ Z.of_nat (l_h l)) q); [reflexivity|lia].
Qed.
Lemma nonce_cases opt rng : (exists c, nonce opt rng = Ok c) \/ nonce opt rng = Err.
Proof. destruct opt, rng; cbn; eauto. Qed.
Lemma lms_sign_none l p id seed q rng opt msg : nonce opt rng = Err ->
  lms_sign (gk l p id seed q) rng opt msg = (gk l p id seed q, Err).
Proof.
  intros N. unfold lms_sign, gk. cbn [s_pub s_q s_seed s_tree]. destruct (_ <=? q)%Z; auto.
  unfold ots_sign. change (os_valid (ots_gen p q id seed)) with true. cbn [negb]. rewrite gen_pub, N. reflexivity.
Qed.
Lemma lms_made_verifies l p id seed q c msg : lms_wf l p -> (0 <= q < 2 ^ Z.of_nat (l_h l))%Z -> length c = o_n p ->
  lms_verify_sig (s_pub (gk l p id seed q)) msg (made l p id seed q c msg) = Ok true.
Proof.
  intros (WF & _ & Hh & _) B L. unfold lms_verify_sig, gk. cbn [s_pub]. unfold made. cbn [g_typ g_q g_ots g_path].
  rewrite Z.eqb_refl. cbn [negb]. rewrite made_recovers by auto. cbn [ok_k]. pose proof (pow_h Hh) as PH.
  rewrite leaves_eq by auto. rewrite u32_small by lia.
  rewrite map_length, seq_length, Nat.ltb_irrefl. rewrite firstn_all2 by (rewrite map_length, seq_length; lia).
  rewrite Z.add_comm. rewrite climb_genuine by auto. cbn [snd]. rewrite bytes_eqb_refl. reflexivity.
Qed.

(** * Encodings *)
Lemma made_lshaped l p id seed q c msg : lms_wf l p -> (0 <= q < 2 ^ Z.of_nat (l_h l))%Z -> length c = o_n p ->
  lshaped l p (made l p id seed q c msg).
Proof.
  intros (WF & _ & Hh & _) B L. split; [reflexivity|]. cbn [made g_ots g_path g_q]. split; [apply made_shaped; auto|].
  split; [rewrite map_length, seq_length; reflexivity|]. split; [|exact B].
  apply Forall_forall. intros y Hy. apply in_map_iff in Hy as (i & <- & _). unfold sibling. rewrite node_hash. apply WF.
Qed.
Definition sig_enc (l : lms_param) (p : ots_param) (s : lms_sig) : bytes :=
  be_bytes 4 (g_q s) ++ (be_bytes 4 (o_type p) ++ og_c (g_ots s) ++ concat (og_y (g_ots s))) ++ be_bytes 4 (l_type l) ++ concat (g_path s).
Lemma lms_sig_bytes_ok l p s : lshaped l p s -> lms_sig_bytes s = Ok (sig_enc l p s).
Proof.
  intros (T & Sh & Lp & _). unfold lms_sig_bytes. rewrite (ots_sig_bytes_ok Sh). cbn [rbind]. rewrite T, Lp, Nat.ltb_irrefl.
  rewrite firstn_all2 by lia. reflexivity.
Qed.
Lemma ots_enc_len p s : ots_wf p -> shaped p s -> length (be_bytes 4 (o_type p) ++ og_c s ++ concat (og_y s)) = ots_sig_length p.
Proof. intros WF Sh. apply (ots_sig_bytes_len WF Sh). apply ots_sig_bytes_ok. auto. Qed.
Lemma sig_enc_len l p s : lms_wf l p -> lshaped l p s -> length (sig_enc l p s) = lms_sig_length l p.
Proof.
  intros (WF & Lm & _) (T & Sh & Lp & F & _). unfold sig_enc. rewrite app_length, app_length, (ots_enc_len WF Sh), app_length, !be_bytes_length, (concat_len F), Lp.
  unfold lms_sig_length. rewrite Lm. lia.
Qed.
Lemma pow_u32 h v : h <= 31 -> (0 <= v < 2 ^ Z.of_nat h)%Z -> (0 <= v < 2 ^ 32)%Z.
Proof. intros L B. pose proof (Z.pow_le_mono_r 2 (Z.of_nat h) 31 ltac:(lia) ltac:(lia)). lia. Qed.
Lemma lms_sig_parse_made R l p s : lms_wf l p -> reg_ots R p -> reg_lms R l -> lshaped l p s -> lms_sig_parse R (sig_enc l p s) = Ok s.
Proof.
  intros WF RO RL Sh. pose proof (sig_enc_len WF Sh) as Lb. destruct WF as (WF & Lm & Hh & TL).
  pose proof WF as (_ & Np & _ & _ & _ & _ & _ & _ & SL & TY). destruct Sh as (T & Sh & Lp & F & Bq).
  pose proof (ots_enc_len WF Sh) as Lo. set (ob := be_bytes 4 (o_type p) ++ og_c (g_ots s) ++ concat (og_y (g_ots s))) in *.
  assert (EB : sig_enc l p s = be_bytes 4 (g_q s) ++ ob ++ be_bytes 4 (l_type l) ++ concat (g_path s)) by reflexivity.
  set (b := sig_enc l p s) in *. clearbody b. unfold lms_sig_length in Lb. pose proof (be_bytes_length 4 (g_q s)) as L4.
  assert (EB2 : b = (be_bytes 4 (g_q s) ++ ob) ++ be_bytes 4 (l_type l) ++ concat (g_path s)) by (rewrite EB, <- app_assoc; reflexivity).
  assert (EB3 : b = ((be_bytes 4 (g_q s) ++ ob) ++ be_bytes 4 (l_type l)) ++ concat (g_path s) ++ []) by (rewrite app_nil_r, EB, <- !app_assoc; reflexivity).
  unfold lms_sig_parse. replace (length b <? 8) with false by (symmetry; apply Nat.ltb_ge; lia).
  replace (slice 0 4 b) with (be_bytes 4 (g_q s)) by (rewrite EB; symmetry; apply slice_pre, be_bytes_length).
  replace (slice 4 4 b) with (be_bytes 4 (o_type p)) by (rewrite EB; unfold ob; rewrite <- (app_assoc (be_bytes 4 (o_type p))); symmetry; apply slice_mid; apply be_bytes_length).
  rewrite (getu32_be TY), (getu32_be (pow_u32 Hh Bq)). unfold reg_ots, reg_lms in *. rewrite RO.
  destruct (Nat.leb_spec (4 + length b) (4 + ots_sig_length p)); [lia|]. rewrite sub_ok by lia. cbn [rbind].
  replace (slice (4 + ots_sig_length p) 4 b) with (be_bytes 4 (l_type l)) by (rewrite EB2; symmetry; apply slice_mid; [rewrite app_length, L4, Lo; reflexivity|apply be_bytes_length]).
  rewrite (getu32_be TL), RL. unfold lms_sig_length. rewrite Lb, Nat.eqb_refl. cbn [negb].
  rewrite sub_ok by lia. cbn [rbind].
  replace (slice 4 (ots_sig_length p) b) with ob by (rewrite EB; symmetry; apply slice_mid; auto).
  unfold ob. rewrite (ots_sig_parse_made WF RO Sh). cbn [rbind]. destruct (Z.leb_spec (2 ^ Z.of_nat (l_h l)) (g_q s)); [lia|].
  rewrite rmap_sub by lia. cbn [rbind]. rewrite EB3, Lm, <- Lp.
  rewrite pieces_of by (auto; rewrite !app_length, L4, be_bytes_length; fold ob; lia).
  rewrite <- T. clear. destruct s. reflexivity.
Qed.
(** What parsing accepts and where it panics. *)
Lemma lms_parse_inv R n b s : reg_wf R n -> bytes_ok b -> lms_sig_parse R b = Ok s ->
  exists l p, lms_wf l p /\ reg_ots R p /\ reg_lms R l /\ lshaped l p s /\ b = sig_enc l p s.
Proof.
  intros [RW RL] B. unfold lms_sig_parse. destruct (Nat.ltb_spec (length b) 8) as [|L8]; [discriminate|].
  destruct (get_ots R (getu32 (slice 4 4 b))) as [p|] eqn:G; [|discriminate]. destruct (RW _ _ G) as (T & WF & Nn).
  pose proof WF as (_ & Np & _ & _ & _ & _ & _ & _ & SL & TY).
  destruct (Nat.leb_spec (4 + length b) (4 + ots_sig_length p)); [discriminate|].
  destruct (Nat.le_gt_cases (4 + ots_sig_length p + 4) (length b)) as [L|L]; [|rewrite sub_panic by lia; discriminate].
  rewrite sub_ok by lia. cbn [rbind].
  destruct (get_lms R (getu32 (slice (4 + ots_sig_length p) 4 b))) as [l|] eqn:GL; [|discriminate]. destruct (RL _ _ GL) as (TL & Lm & Hh & TB).
  destruct (Nat.eqb_spec (lms_sig_length l p) (length b)) as [Lb|]; [|discriminate]. cbn [negb]. unfold lms_sig_length in Lb.
  rewrite sub_ok by lia. cbn [rbind]. destruct (ots_sig_parse R (slice 4 (ots_sig_length p) b)) as [o| |] eqn:P; try discriminate. cbn [rbind].
  assert (E4 : slice 0 4 (slice 4 (ots_sig_length p) b) = slice 4 4 b).
  { unfold slice. cbn [skipn]. rewrite firstn_firstn. f_equal. lia. }
  destruct (Z.leb_spec (2 ^ Z.of_nat (l_h l)) (getu32 (slice 0 4 b))) as [|Q]; [discriminate|].
  rewrite rmap_sub by lia. cbn [rbind]. intros E. apply ok_inj in E. subst s. exists l, p.
  assert (GP : get_ots R (getu32 (slice 0 4 (slice 4 (ots_sig_length p) b))) = Some p) by (rewrite E4; exact G).
  destruct (ots_parse_inv GP ltac:(rewrite E4; exact T) WF (bytes_ok_slice 4 (ots_sig_length p) B) P) as [Sh EO].
  assert (LW : lms_wf l p) by (split; [exact WF|split; [congruence|split; [exact Hh|rewrite TL; exact TB]]]).
  split; [exact LW|]. unfold reg_ots, reg_lms. rewrite T, TL. split; [exact G|]. split; [exact GL|]. split.
  - split; [reflexivity|]. cbn [g_ots g_path g_q]. split; [exact Sh|]. split; [apply pieces_len|].
    split; [rewrite <- Nn, <- Lm in *; replace (o_n p) with (l_m l) by congruence; apply pieces_all; lia|].
    split; [|exact Q]. apply (getu32_bound (bytes_ok_slice 0 4 B)). apply slice_length. lia.
  - unfold sig_enc. cbn [g_ots g_path g_q]. rewrite <- EO, TL. rewrite pieces_concat by lia.
    rewrite !be_getu32 by (auto using bytes_ok_slice; apply slice_length; lia).
    rewrite <- (slice_split (4 + ots_sig_length p) 4). rewrite <- (slice_split 4 (ots_sig_length p)).
    change 4 with (0 + 4) at 2. rewrite <- slice_split. symmetry. apply slice_0_all. lia.
Qed.
Lemma lms_parse_panics R n b : reg_wf R n ->
  (lms_sig_parse R b = Panic <-> 8 <= length b /\ exists p, get_ots R (getu32 (slice 4 4 b)) = Some p /\ ots_sig_length p < length b < ots_sig_length p + 8).
Proof.
  intros RW. pose proof RW as [RO RL]. unfold lms_sig_parse. destruct (Nat.ltb_spec (length b) 8) as [|L8]; [split; [discriminate|lia]|].
  destruct (get_ots R (getu32 (slice 4 4 b))) as [p|] eqn:G; [|split; [discriminate|intros (_ & p & E & _); discriminate]].
  destruct (RO _ _ G) as (T & WF & Nn).
  destruct (Nat.leb_spec (4 + length b) (4 + ots_sig_length p)) as [X|X]; [split; [discriminate|intros (_ & p' & [= <-] & Q); lia]|].
  destruct (Nat.le_gt_cases (4 + ots_sig_length p + 4) (length b)) as [L|L].
  - split; [|intros (_ & p' & [= <-] & Q); lia]. rewrite sub_ok by lia. cbn [rbind].
    destruct (get_lms R (getu32 (slice (4 + ots_sig_length p) 4 b))) as [l|] eqn:GL; [|discriminate].
    destruct (Nat.eqb_spec (lms_sig_length l p) (length b)) as [Lb|]; [|discriminate]. cbn [negb]. unfold lms_sig_length in Lb.
    rewrite sub_ok by lia. cbn [rbind]. pose proof (ots_parse_never_panics (R := R) (b := slice 4 (ots_sig_length p) b) RW) as NP.
    destruct (ots_sig_parse R (slice 4 (ots_sig_length p) b)) as [o| |]; [|discriminate|congruence]. cbn [rbind].
    destruct (Z.leb_spec (2 ^ Z.of_nat (l_h l)) (getu32 (slice 0 4 b))) as [|Q]; [discriminate|].
    rewrite rmap_sub by lia. discriminate.
  - rewrite sub_panic by lia. cbn [rbind]. split; auto. intros _. split; auto. exists p. split; auto. lia.
Qed.
Lemma verify_sig_total R n l p id k msg s : reg_wf R n -> reg_ots R p -> reg_lms R l ->
  (exists l' p', lms_wf l' p' /\ reg_ots R p' /\ reg_lms R l' /\ lshaped l' p' s) -> exists v, lms_verify_sig (LmsPub l p id k) msg s = Ok v.
Proof.
  intros [RW _] RO RL (l' & p' & (WF & _ & Hh & _) & RO' & RL' & T & Sh & Lp & _). unfold lms_verify_sig. rewrite T.
  destruct (Z.eqb_spec (l_type l) (l_type l')) as [E|]; cbn [negb]; [|eauto].
  assert (EL : l' = l) by (unfold reg_lms in *; congruence). rewrite EL in *. clear EL.
  destruct Sh as (T' & Sh). unfold ots_recover at 1. rewrite T'. destruct (Z.eqb_spec (o_type p') (o_type p)) as [E'|]; cbn [negb]; [|eauto].
  assert (EP : p' = p) by (unfold reg_ots in *; congruence). rewrite EP in *. clear EP.
  pose proof (recover_ok msg id (g_q s) WF (conj T' Sh)) as RC. unfold ots_recover in RC. rewrite T', Z.eqb_refl in RC. cbn [negb] in RC. rewrite RC.
  rewrite Lp, Nat.ltb_irrefl. eauto.
Qed.

(** * Keys *)
Lemma priv_roundtrip R l p id seed q : lms_wf l p -> reg_ots R p -> reg_lms R l -> length id = 16 -> l_m l <= length seed -> (0 <= q < 2 ^ 32)%Z ->
  lms_priv_parse R (lms_priv_bytes (gk l p id seed q)) = Ok (gk l p id (firstn (l_m l) seed) q).
Proof.
  intros LW RO RL Li Ls Bq. pose proof LW as (WF & Lm & Hh & TL). pose proof WF as (_ & Np & _ & _ & _ & _ & _ & _ & SL & TY).
  unfold lms_priv_parse. change (lms_priv_bytes (gk l p id seed q)) with (be_bytes 4 (l_type l) ++ be_bytes 4 (o_type p) ++ be_bytes 4 q ++ id ++ seed).
  set (b := be_bytes 4 (l_type l) ++ be_bytes 4 (o_type p) ++ be_bytes 4 q ++ id ++ seed).
  assert (Lb : length b = 28 + length seed) by (unfold b; rewrite !app_length, !be_bytes_length, Li; lia).
  destruct (Nat.ltb_spec (length b) 8); [lia|].
  replace (slice 0 4 b) with (be_bytes 4 (l_type l)) by (symmetry; apply slice_pre, be_bytes_length).
  replace (slice 4 4 b) with (be_bytes 4 (o_type p)) by (symmetry; apply slice_mid; apply be_bytes_length).
  replace (slice 8 4 b) with (be_bytes 4 q) by (unfold b; rewrite app_assoc; symmetry; apply slice_mid; [rewrite app_length|]; rewrite ?be_bytes_length; auto).
  replace (slice 12 16 b) with id by (unfold b; rewrite !app_assoc; rewrite <- app_assoc; symmetry; apply slice_mid; [rewrite !app_length, !be_bytes_length; reflexivity|auto]).
  rewrite !getu32_be by auto. unfold reg_ots, reg_lms in *. rewrite RL, RO. destruct (Nat.ltb_spec (length b) (l_m l + 28)); [lia|].
  replace (slice 28 (l_m l) b) with (firstn (l_m l) seed).
  2: { unfold b. rewrite !app_assoc. replace 28 with (28 + 0) by lia. rewrite slice_app_at by (rewrite !app_length, !be_bytes_length, Li; reflexivity). reflexivity. }
  rewrite gen_gk by auto. reflexivity.
Qed.
Lemma priv_short R l p id seed q : lms_wf l p -> reg_ots R p -> reg_lms R l -> length id = 16 -> length seed < l_m l ->
  lms_priv_parse R (lms_priv_bytes (gk l p id seed q)) = Err.
Proof.
  intros LW RO RL Li Ls. pose proof LW as (WF & Lm & Hh & TL). pose proof WF as (_ & Np & _ & _ & _ & _ & _ & _ & SL & TY).
  unfold lms_priv_parse. unfold lms_priv_bytes, gk. cbn [s_pub p_typ p_ots p_id s_q s_seed].
  set (b := be_bytes 4 (l_type l) ++ be_bytes 4 (o_type p) ++ be_bytes 4 q ++ id ++ seed).
  assert (Lb : length b = 28 + length seed) by (unfold b; rewrite !app_length, !be_bytes_length, Li; lia).
  destruct (Nat.ltb_spec (length b) 8); [lia|].
  replace (slice 0 4 b) with (be_bytes 4 (l_type l)) by (symmetry; apply slice_pre, be_bytes_length).
  replace (slice 4 4 b) with (be_bytes 4 (o_type p)) by (symmetry; apply slice_mid; apply be_bytes_length).
  rewrite !getu32_be by auto. unfold reg_ots, reg_lms in *. rewrite RL, RO. destruct (Nat.ltb_spec (length b) (l_m l + 28)); [reflexivity|lia].
Qed.
Lemma pub_roundtrip R k : lms_wf (p_typ k) (p_ots k) -> reg_ots R (p_ots k) -> reg_lms R (p_typ k) -> length (p_id k) = 16 -> length (p_k k) = l_m (p_typ k) ->
  lms_pub_parse R (lms_pub_bytes k) = Ok k.
Proof.
  destruct k as [l p id root]. cbn [p_typ p_ots p_id p_k]. intros LW RO RL Li Lk. pose proof LW as (WF & Lm & Hh & TL).
  pose proof WF as (_ & Np & _ & _ & _ & _ & _ & _ & SL & TY). unfold lms_pub_parse, lms_pub_bytes. cbn [p_typ p_ots p_id p_k].
  set (b := be_bytes 4 (l_type l) ++ be_bytes 4 (o_type p) ++ id ++ root).
  assert (Lb : length b = 24 + l_m l) by (unfold b; rewrite !app_length, !be_bytes_length, Li; lia).
  destruct (Nat.ltb_spec (length b) 8); [lia|].
  replace (slice 0 4 b) with (be_bytes 4 (l_type l)) by (symmetry; apply slice_pre, be_bytes_length).
  replace (slice 4 4 b) with (be_bytes 4 (o_type p)) by (symmetry; apply slice_mid; apply be_bytes_length).
  replace (slice 8 16 b) with id by (unfold b; rewrite app_assoc; symmetry; apply slice_mid; [rewrite app_length, !be_bytes_length; reflexivity|auto]).
  rewrite !getu32_be by auto. unfold reg_ots, reg_lms in *. rewrite RL, RO.
  destruct (Nat.eqb_spec (length b) (l_m l + 24)); [|lia]. cbn [negb]. do 2 f_equal. unfold b. rewrite !app_assoc.
  apply skipn_app_exact. rewrite !app_length, !be_bytes_length, Li. reflexivity.
Qed.
Lemma pub_parse_inv R n b k : reg_wf R n -> bytes_ok b -> lms_pub_parse R b = Ok k -> lms_pub_bytes k = b.
Proof.
  intros [RO RL] B. unfold lms_pub_parse. destruct (Nat.ltb_spec (length b) 8); [discriminate|].
  destruct (get_lms R (getu32 (slice 0 4 b))) as [l|] eqn:GL; [|discriminate]. destruct (get_ots R (getu32 (slice 4 4 b))) as [p|] eqn:G; [|discriminate].
  destruct (RO _ _ G) as (T & _). destruct (RL _ _ GL) as (TL & _).
  destruct (Nat.eqb_spec (length b) (l_m l + 24)); [|discriminate]. cbn [negb]. intros E. apply ok_inj in E. subst k.
  unfold lms_pub_bytes. cbn [p_typ p_ots p_id p_k]. rewrite T, TL. rewrite !be_getu32 by (auto using bytes_ok_slice; apply slice_length; lia).
  rewrite <- (@slice_all_r _ 24 (l_m l) b) by lia. rewrite <- (slice_split 8 16). change 8 with (4 + 4) at 1. rewrite <- slice_split.
  change 4 with (0 + 4) at 2. rewrite <- slice_split. apply slice_0_all. lia.
Qed.

(** * Histories *)
Lemma run_ok R l p id seed ops : lms_wf l p -> reg_ots R p -> reg_lms R l -> length id = 16 -> length seed = l_m l ->
  forall q, (0 <= q <= 2 ^ Z.of_nat (l_h l))%Z -> exists outs,
    lms_run R (gk l p id seed q) ops = (gk l p id seed (q + Z.of_nat (length outs)), outs) /\
    (q + Z.of_nat (length outs) <= 2 ^ Z.of_nat (l_h l))%Z /\
    map (fun o => g_q (snd o)) outs = map (fun i => q + Z.of_nat i)%Z (seq 0 (length outs)) /\
    Forall (fun o => In (OSign (fst o)) ops /\ exists c, nonce (c_opt (fst o)) (c_rng (fst o)) = Ok c /\ snd o = made l p id seed (g_q (snd o)) c (c_msg (fst o))) outs.
Proof.
  intros LW RO RL Li Ls. pose proof LW as (_ & _ & Hh & _). pose proof (pow_h Hh) as PH.
  induction ops as [|[c| |] ops IH]; intros q Bq; cbn [lms_run].
  - exists []. cbn [length map seq]. rewrite Z.add_0_r. split; [reflexivity|]. split; [lia|]. split; [reflexivity|constructor].
  - destruct (Z.eq_dec q (2 ^ Z.of_nat (l_h l))) as [E|NE]; [|destruct (nonce_cases (c_opt c) (c_rng c)) as [[x N]|N]].
    + rewrite lms_sign_end by (auto; lia). destruct (IH q Bq) as (outs & -> & Q1 & Q2 & Q3). exists outs. split; [reflexivity|]. split; auto. split; auto.
      eapply Forall_impl; [|exact Q3]. cbv beta. intros o [I1 I2]. split; [right; auto|auto].
    + rewrite (lms_sign_ok (q := q) id seed (c_msg c) LW ltac:(lia) N). destruct (IH (q + 1)%Z ltac:(lia)) as (outs & -> & Q1 & Q2 & Q3).
      exists ((c, made l p id seed q x (c_msg c)) :: outs). cbn [length]. split; [do 2 f_equal; lia|]. split; [lia|]. split.
      * cbn [map seq snd made g_q]. f_equal; [lia|]. rewrite Q2, <- seq_shift, map_map. apply map_ext. intros i. lia.
      * constructor; [split; [left; reflexivity|exists x; cbn [fst snd]; split; auto]|]. eapply Forall_impl; [|exact Q3]. cbv beta. intros o [I1 I2]. split; [right; auto|auto].
    + rewrite lms_sign_none by auto. destruct (IH q Bq) as (outs & -> & Q1 & Q2 & Q3). exists outs. split; [reflexivity|]. split; auto. split; auto.
      eapply Forall_impl; [|exact Q3]. cbv beta. intros o [I1 I2]. split; [right; auto|auto].
  - rewrite priv_roundtrip by (auto; lia). rewrite firstn_all2 by lia. destruct (IH q Bq) as (outs & -> & Q1 & Q2 & Q3). exists outs. split; [reflexivity|]. split; auto. split; auto.
    eapply Forall_impl; [|exact Q3]. cbv beta. intros o [I1 I2]. split; [right; auto|auto].
  - change (lms_precompute (gk l p id seed q)) with (gk l p id seed q). destruct (IH q Bq) as (outs & -> & Q1 & Q2 & Q3). exists outs. split; [reflexivity|]. split; auto. split; auto.
    eapply Forall_impl; [|exact Q3]. cbv beta. intros o [I1 I2]. split; [right; auto|auto].
Qed.
Lemma run_count R l p id seed cs : lms_wf l p -> Forall (fun c => exists x, nonce (c_opt c) (c_rng c) = Ok x) cs ->
  forall q, (0 <= q <= 2 ^ Z.of_nat (l_h l))%Z ->
  length (snd (lms_run R (gk l p id seed q) (map OSign cs))) = Nat.min (length cs) (Z.to_nat (2 ^ Z.of_nat (l_h l) - q)).
Proof.
  intros LW. induction 1 as [|c cs [x N] F IH]; intros q Bq; cbn [map lms_run]; [reflexivity|].
  destruct (Z.eq_dec q (2 ^ Z.of_nat (l_h l))) as [E|NE].
  - rewrite lms_sign_end by (auto; lia). destruct (lms_run R (gk l p id seed q) (map OSign cs)) as [k' o] eqn:Er. specialize (IH q Bq). rewrite Er in IH.
    cbn [snd] in IH |- *. rewrite IH. lia.
  - rewrite (lms_sign_ok (q := q) id seed (c_msg c) LW ltac:(lia) N). destruct (lms_run R (gk l p id seed (q + 1)) (map OSign cs)) as [k' o] eqn:Er.
    specialize (IH (q + 1)%Z ltac:(lia)). rewrite Er in IH. cbn [snd length] in IH |- *. rewrite IH. lia.
Qed.
