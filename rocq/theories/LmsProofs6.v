(** Proofs about LM-OTS, LMS and HSS, in the terms of the specification (C80-C87). *)
From Verif Require Import Base WordModel KdfModel KdfProofs LmsModel LmsSpec LmsProofs LmsProofs2 LmsProofs3 LmsProofs4 LmsProofs5.
Set Implicit Arguments. Unset Strict Implicit.
Local Open Scope nat_scope.

(** * Coefficients *)
Lemma expand_winternitz p d : ots_wf p -> length d = o_n p -> bytes_ok d -> exists cs, expand d p = Ok cs /\ winternitz p d cs.
Proof.
  intros WF L B. destruct (@expand_ok p d WF L B) as (a & b & E & Da & Db & La & Lp). exists (a ++ b). split; [exact E|].
  exists a, b. split; [reflexivity|]. split; [exact Da|]. split; [exact Db|]. split; [|exact Lp].
  rewrite La, L. unfold epb. destruct WF as (_ & _ & _ & _ & [->|[->|[->| ->]]] & _).
  - change (Z.to_nat (8 / 1)) with 8. lia.
  - change (Z.to_nat (8 / 2)) with 4. lia.
  - change (Z.to_nat (8 / 4)) with 2. lia.
  - change (Z.to_nat (8 / 8)) with 1. lia.
Qed.
Lemma coef_winternitz p d : ots_wf p -> length d = o_n p -> bytes_ok d -> winternitz p d (coef p d).
Proof. intros WF L B. destruct (@expand_winternitz p d WF L B) as (cs & E & W). unfold coef. rewrite E. exact W. Qed.
Lemma winternitz_unique p d cs : ots_wf p -> length d = o_n p -> bytes_ok d -> winternitz p d cs -> expand d p = Ok cs.
Proof.
  intros WF L B W. destruct (@expand_winternitz p d WF L B) as (cs' & E & W'). rewrite E. f_equal. clear E.
  assert (Hw : (0 < o_w p)%Z) by (destruct WF as (_ & _ & _ & _ & H & _); lia).
  assert (U : forall a b v, length a = length b -> digits (o_w p) a v -> digits (o_w p) b v -> a = b).
  { intros a b v Lab. revert v. revert b Lab. induction a as [|x a IH] using rev_ind; intros b Lab v [Fa Va] [Fb Vb].
    - destruct b; [reflexivity|discriminate].
    - destruct b as [|y b _] using rev_ind; [rewrite app_length in Lab; cbn in Lab; lia|]. rewrite !app_length in Lab. cbn [length] in Lab.
      rewrite fold_left_app in Va, Vb. cbn [fold_left] in Va, Vb. apply Forall_app in Fa as [Fa Fx], Fb as [Fb Fy]. apply Forall_inv in Fx, Fy.
      set (A := fold_left _ a 0%Z) in *. set (A' := fold_left _ b 0%Z) in *. set (P := (2 ^ o_w p)%Z) in *.
      assert (A = A' /\ x = y) as [E1 E2] by (rewrite <- Vb in Va; assert (A = A') by (clear - Va Fx Fy; nia); split; [auto|subst; lia]).
      subst y. f_equal. apply (IH b ltac:(lia) A); split; auto. }
  destruct W as (a & b & -> & Da & Db & La & Lp). destruct W' as (a' & b' & -> & Da' & Db' & La' & Lp').
  assert (length a = length a') by nia. assert (a = a') by (eapply U; eauto). subst a'.
  rewrite !app_length in *. f_equal. symmetry. eapply U; eauto. lia.
Qed.
Lemma digest_len p id q c msg : ots_wf p -> length (msg_digest p id q c msg) = o_n p.
Proof. intros (_ & _ & H & _). apply H. Qed.
Lemma digest_ok p id q c msg : ots_wf p -> bytes_ok (msg_digest p id q c msg).
Proof. intros (_ & _ & _ & H & _). apply H. Qed.
Lemma nth_map_seq0 A (f : nat -> A) d n i : i < n -> nth i (map f (seq 0 n)) d = f i.
Proof. intros L. rewrite nth_indep with (d' := f 0) by (rewrite map_length, seq_length; lia). rewrite map_nth, seq_nth by lia. reflexivity. Qed.
Lemma made_rfc_ots p id seed q c msg : ots_wf p ->
  rfc_ots_sig p id seed q c msg (OtsSig p c (map (revealed p id seed q (msg_digest p id q c msg)) (seq 0 (o_p p)))).
Proof.
  intros WF. split; [reflexivity|]. split; [reflexivity|]. split; [cbn; rewrite map_length, seq_length; reflexivity|].
  exists (coef p (msg_digest p id q c msg)). split; [apply coef_winternitz; auto using digest_len, digest_ok|].
  intros i L. cbn [og_y]. rewrite nth_map_seq0 by lia. reflexivity.
Qed.
Lemma rfc_ots_made p id seed q c msg s : ots_wf p -> rfc_ots_sig p id seed q c msg s ->
  s = OtsSig p c (map (revealed p id seed q (msg_digest p id q c msg)) (seq 0 (o_p p))).
Proof.
  intros WF (A & B & C & cs & W & D). destruct s as [p' c' y]. cbn [og_typ og_c og_y] in *. subst p' c'. f_equal.
  apply nth_ext with (d := []) (d' := []); [rewrite map_length, seq_length; auto|]. intros i L. rewrite D by lia. rewrite nth_map_seq0 by lia.
  unfold revealed, coef. rewrite (winternitz_unique WF (digest_len _ _ _ _ WF) (digest_ok _ _ _ _ WF) W). reflexivity.
Qed.
Lemma made_rfc l p id seed q c msg : ots_wf p -> rfc_lms_sig l p id seed q c msg (made l p id seed q c msg).
Proof. intros WF. split; [reflexivity|]. split; [reflexivity|]. split; [apply made_rfc_ots; auto|reflexivity]. Qed.
Lemma rfc_made l p id seed q c msg s : ots_wf p -> rfc_lms_sig l p id seed q c msg s -> s = made l p id seed q c msg.
Proof.
  intros WF (A & B & C & D). apply rfc_ots_made in C; auto. destruct s as [l' q' o pa]. cbn [g_typ g_q g_ots g_path] in *. subst. reflexivity.
Qed.
Lemma revealed_len p id seed q c msg : ots_wf p -> Forall (fun y => length y = o_n p) (map (revealed p id seed q (msg_digest p id q c msg)) (seq 0 (o_p p))).
Proof.
  intros WF. destruct WF as (_ & _ & H & _). apply Forall_forall. intros y I. apply in_map_iff in I as (i & <- & _). unfold revealed.
  assert (G : forall n a x, length x = o_n p -> length (chain p id q i a n x) = o_n p) by (induction n; intros; cbn [chain]; auto). apply G, H.
Qed.
Lemma made_ots_shaped p id seed q c msg : ots_wf p -> length c = o_n p ->
  shaped p (OtsSig p c (map (revealed p id seed q (msg_digest p id q c msg)) (seq 0 (o_p p)))).
Proof. intros WF L. split; [reflexivity|]. split; [exact L|]. split; [cbn; rewrite map_length, seq_length; reflexivity|]. apply revealed_len; auto. Qed.

(** * LM-OTS *)
Lemma ots_calls_spent k cs : os_valid k = false -> forall i r, nth_error (ots_calls k cs) i = Some r -> r = Err.
Proof.
  intros V. induction cs as [|c cs IH]; intros i r; cbn [ots_calls]; [destruct i; discriminate|].
  unfold ots_sign. rewrite V. cbn [negb]. destruct i as [|i]; cbn [nth_error]; [intros [= <-]; reflexivity|apply IH].
Qed.
Lemma nonce_cases o r : (exists c, nonce o r = Ok c) \/ nonce o r = Err.
Proof. destruct o, r; cbn; eauto. Qed.
Lemma ots_calls_ok p q id seed cs : ots_wf p -> forall i c, nth_error cs i = Some c ->
  ((exists x, nonce (c_opt c) (c_rng c) = Ok x /\ (forall j c', j < i -> nth_error cs j = Some c' -> nonce (c_opt c') (c_rng c') = Err) /\
     exists s, nth_error (ots_calls (ots_gen p q id seed) cs) i = Some (Ok s) /\ rfc_ots_sig p id seed q x (c_msg c) s) \/
   ((nonce (c_opt c) (c_rng c) = Err \/ exists j c' x', j < i /\ nth_error cs j = Some c' /\ nonce (c_opt c') (c_rng c') = Ok x') /\
    nth_error (ots_calls (ots_gen p q id seed) cs) i = Some Err)).
Proof.
  intros WF. induction cs as [|d cs IH]; intros i c N; [destruct i; discriminate|]. cbn [ots_calls].
  destruct (nonce_cases (c_opt d) (c_rng d)) as [(x & E)|E].
  - rewrite (@sign_ok p q id seed (c_rng d) (c_opt d) (c_msg d) x WF E). destruct i as [|i]; cbn [nth_error] in *.
    + injection N as <-. left. exists x. split; [exact E|]. split; [intros; lia|]. eexists. split; [reflexivity|]. apply made_rfc_ots; auto.
    + right. split; [right; exists 0, d, x; split; [lia|split; [reflexivity|exact E]]|].
      match goal with |- nth_error (ots_calls ?k _) _ = _ => destruct (nth_error (ots_calls k cs) i) as [r|] eqn:G end.
      * apply ots_calls_spent in G; [subst; reflexivity|reflexivity].
      * exfalso. apply nth_error_None in G. assert (L : forall k l, length (ots_calls k l) = length l) by (intros k l; revert k; induction l as [|a l IHl]; intros k; cbn [ots_calls]; [reflexivity|destruct (ots_sign k (c_rng a) (c_opt a) (c_msg a)); cbn; f_equal; auto]).
        rewrite L in G. assert (i < length cs) by (apply nth_error_Some; congruence). lia.
  - assert (ES : ots_sign (ots_gen p q id seed) (c_rng d) (c_opt d) (c_msg d) = (ots_gen p q id seed, Err)) by (unfold ots_sign; cbn [ots_gen os_valid negb os_pub]; rewrite E; reflexivity).
    rewrite ES. destruct i as [|i]; cbn [nth_error] in *.
    + injection N as <-. right. split; [left; exact E|reflexivity].
    + destruct (IH i c N) as [(x & A & B & C)|([A|(j & c' & x' & A & B & C)] & D)].
      * left. exists x. split; [exact A|]. split; [|exact C]. intros [|j] c' L G; cbn [nth_error] in G; [injection G as <-; exact E|apply (B j); [lia|exact G]].
      * right. split; [left; exact A|exact D].
      * right. split; [right; exists (S j), c', x'; split; [lia|split; [exact B|exact C]]|exact D].
Qed.

Lemma pblc_inj p id q e1 e2 : (forall i, i < o_p p -> length (e1 i) = o_n p) -> (forall i, i < o_p p -> length (e2 i) = o_n p) -> pblc p id q e1 = pblc p id q e2 -> forall i, i < o_p p -> e1 i = e2 i.
Proof.
  intros L1 L2 E i L. unfold pblc in E. apply app_inv_head, app_inv_head, app_inv_head in E.
  assert (M : map e1 (seq 0 (o_p p)) = map e2 (seq 0 (o_p p))).
  { assert (G : forall x, In x (seq 0 (o_p p)) -> length (e1 x) = length (e2 x)) by (intros x I; apply in_seq in I; rewrite L1, L2 by lia; reflexivity).
    revert E G. generalize (seq 0 (o_p p)) as xs. induction xs as [|x xs IH]; intros E G; [reflexivity|]. cbn [map concat] in *.
    pose proof (G x (or_introl eq_refl)) as Gx. assert (E1 : e1 x = e2 x).
    { apply (f_equal (firstn (length (e1 x)))) in E. rewrite firstn_app_exact in E by reflexivity. rewrite Gx, firstn_app_exact in E by reflexivity. exact E. }
    rewrite E1 in E |- *. apply app_inv_head in E. f_equal. apply IH; [exact E|intros; apply G; right; auto]. }
  rewrite <- (nth_map_seq0 e1 [] L), <- (nth_map_seq0 e2 [] L), M. reflexivity.
Qed.
Lemma bytes_dec (a b : bytes) : {a = b} + {a <> b}.
Proof. apply list_eq_dec, Z.eq_dec. Qed.
Lemma chain_len p id q i n : (forall m, length (o_hash p m) = o_n p) -> forall a x, length x = o_n p -> length (chain p id q i a n x) = o_n p.
Proof. intros H. induction n; intros; cbn [chain]; auto. Qed.
Lemma verified_end_len p id q s cs i : ots_wf p -> shaped p s -> i < o_p p -> length (verified_end p id q s cs i) = o_n p.
Proof.
  intros (_ & _ & H & _) (_ & _ & Ly & F) L. apply chain_len; auto. rewrite Forall_forall in F. apply F, nth_In. lia.
Qed.

(** * Encodings of one-time public keys *)
Lemma ots_pub_rt R p q id k : reg_ots R p -> (0 <= o_type p < 2 ^ 32)%Z -> (0 <= q < 2 ^ 32)%Z -> length id = 16 -> length k = o_n p ->
  ots_pub_parse R (ots_pub_bytes (OtsPub p q id k)) = Ok (OtsPub p q id k).
Proof.
  intros RO T Bq Li Lk. unfold ots_pub_bytes, ots_pub_parse. cbn [ok_typ ok_q ok_id ok_k].
  set (b := be_bytes 4 (o_type p) ++ id ++ be_bytes 4 q ++ k).
  assert (Lb : length b = 24 + o_n p) by (unfold b; rewrite !app_length, !be_bytes_length; lia).
  destruct (Nat.ltb_spec (length b) 4); [lia|].
  replace (slice 0 4 b) with (be_bytes 4 (o_type p)) by (symmetry; apply slice_pre, be_bytes_length).
  rewrite getu32_be by auto. unfold reg_ots in RO. rewrite RO. destruct (Nat.ltb_spec (length b) (4 + 16 + 4 + o_n p)); [lia|].
  destruct (Nat.ltb_spec (4 + 16 + 4 + o_n p) (length b)); [lia|]. f_equal. f_equal.
  - replace (slice 20 4 b) with (be_bytes 4 q); [apply getu32_be; auto|]. symmetry. unfold b. rewrite app_assoc. apply slice_mid; [rewrite app_length, be_bytes_length; lia|apply be_bytes_length].
  - unfold b. apply slice_mid; [apply be_bytes_length|auto].
  - unfold b. rewrite !app_assoc. apply skipn_app_exact. rewrite !app_length, !be_bytes_length. lia.
Qed.
Lemma ots_pub_inv R n b k : reg_wf R n -> bytes_ok b -> ots_pub_parse R b = Ok k -> ots_pub_bytes k = b.
Proof.
  intros (RO & _) B. unfold ots_pub_parse. destruct (Nat.ltb_spec (length b) 4); [discriminate|].
  destruct (get_ots R (getu32 (slice 0 4 b))) as [p|] eqn:G; [|discriminate]. destruct (RO _ _ G) as (T & _).
  destruct (Nat.ltb_spec (length b) (4 + 16 + 4 + o_n p)); [discriminate|]. destruct (Nat.ltb_spec (4 + 16 + 4 + o_n p) (length b)); [discriminate|].
  intros E. apply ok_inj in E. subst k. unfold ots_pub_bytes. cbn [ok_typ ok_q ok_id ok_k]. rewrite T.
  rewrite !be_getu32 by (auto using bytes_ok_slice; apply slice_length; lia).
  replace (skipn 24 b) with (slice 24 (o_n p) b) by (unfold slice; apply firstn_all2; rewrite skipn_length; lia).
  rewrite <- (slice_split 20 4 (o_n p)). change 20 with (4 + 16) at 1. rewrite <- slice_split. change 4 with (0 + 4) at 2. rewrite <- slice_split.
  apply slice_0_all. lia.
Qed.

(** * Verification *)
Lemma recover_spec p s msg id q : ots_wf p -> shaped p s ->
  exists cs, winternitz p (msg_digest p id q (og_c s) msg) cs /\ ots_recover s msg p id q = Ok (OtsPub p q id (o_hash p (pblc p id q (verified_end p id q s cs)))).
Proof.
  intros WF Sh. exists (coef p (msg_digest p id q (og_c s) msg)). split; [apply coef_winternitz; auto using digest_len, digest_ok|].
  rewrite (recover_ok msg id q WF Sh). reflexivity.
Qed.
Lemma ots_parse_shaped R n b s : reg_wf R n -> bytes_ok b -> ots_sig_parse R b = Ok s -> exists p, reg_ots R p /\ ots_wf p /\ shaped p s /\ ots_sig_bytes s = Ok b.
Proof.
  intros RW B E. pose proof E as E'. unfold ots_sig_parse in E'. destruct (length b <? 4); [discriminate|].
  destruct (get_ots R (getu32 (slice 0 4 b))) as [p|] eqn:G; [|discriminate]. destruct RW as [RO _]. destruct (RO _ _ G) as (T & WF & _).
  destruct (ots_parse_inv G T WF B E) as [Sh Eb]. exists p. split; [unfold reg_ots; rewrite T; exact G|]. split; [exact WF|]. split; [exact Sh|].
  rewrite (ots_sig_bytes_ok Sh). f_equal. symmetry. exact Eb.
Qed.
Lemma ots_verify_inv R n p id q k msg b : reg_wf R n -> reg_ots R p -> bytes_ok b -> ots_verify R (OtsPub p q id k) msg b = Ok true <->
  exists s, shaped p s /\ ots_sig_bytes s = Ok b /\ exists cs, winternitz p (msg_digest p id q (og_c s) msg) cs /\ o_hash p (pblc p id q (verified_end p id q s cs)) = k.
Proof.
  intros RW RO B. split.
  - unfold ots_verify. destruct (ots_sig_parse R b) as [s| |] eqn:E; try discriminate. intros V.
    destruct (ots_parse_shaped RW B E) as (p' & RO' & WF & Sh & Eb). unfold ots_verify_sig in V. cbn [ok_typ ok_id ok_q ok_k] in V.
    pose proof Sh as (T & _). rewrite T in V. destruct (Z.eqb_spec (o_type p) (o_type p')) as [ET|]; cbn [negb] in V; [|discriminate].
    assert (EP : p' = p) by (unfold reg_ots in *; congruence). rewrite EP in *. clear EP. exists s. split; [exact Sh|]. split; [exact Eb|].
    destruct (recover_spec msg id q WF Sh) as (cs & W & RC). exists cs. split; [exact W|]. rewrite RC in V. cbn [ok_k] in V.
    apply ok_inj in V. symmetry. apply bytes_eqb_eq. exact V.
  - intros (s & Sh & Eb & cs & W & H). destruct RW as [RW _]. destruct (RW _ _ RO) as (_ & WF & _).
    rewrite (ots_sig_bytes_ok Sh) in Eb. apply ok_inj in Eb. subst b. unfold ots_verify. rewrite ots_sig_parse_made by auto.
    unfold ots_verify_sig. cbn [ok_typ ok_id ok_q ok_k]. pose proof Sh as (T & _). rewrite T, Z.eqb_refl. cbn [negb].
    destruct (recover_spec msg id q WF Sh) as (cs' & W' & RC). rewrite RC. cbn [ok_k].
    assert (cs' = cs) as -> by (apply winternitz_unique in W, W'; auto using digest_len, digest_ok; congruence).
    f_equal. apply bytes_eqb_eq. auto.
Qed.
Lemma chain_end_len p id seed q i : ots_wf p -> length (chain_end p id seed q i) = o_n p.
Proof. intros (_ & _ & H & _). apply chain_len; auto. apply H. Qed.
Lemma ends_or_collision p id seed q s cs : ots_wf p -> shaped p s -> o_hash p (pblc p id q (verified_end p id q s cs)) = ots_public p id seed q ->
  (forall i, i < o_p p -> verified_end p id q s cs i = chain_end p id seed q i) \/
  collision p (pblc p id q (verified_end p id q s cs)) (pblc p id q (chain_end p id seed q)).
Proof.
  intros WF Sh H. destruct (bytes_dec (pblc p id q (verified_end p id q s cs)) (pblc p id q (chain_end p id seed q))) as [E|NE]; [left|right; split; auto].
  apply (@pblc_inj p id q); auto using verified_end_len, chain_end_len.
Qed.
Lemma lms_verify_inv R n l p id k msg b : reg_wf R n -> reg_ots R p -> reg_lms R l -> bytes_ok b -> lms_verify R (LmsPub l p id k) msg b = Ok true <->
  exists s, lshaped l p s /\ lms_sig_bytes s = Ok b /\ exists cs, winternitz p (msg_digest p id (g_q s) (og_c (g_ots s)) msg) cs /\
    o_hash p (up_input p id (l_h l) (g_q s) (o_hash p (pblc p id (g_q s) (verified_end p id (g_q s) (g_ots s) cs))) (g_path s) (l_h l)) = k.
Proof.
  intros RW RO RL B. assert (LW : lms_wf l p).
  { destruct RW as [A1 A2]. destruct (A1 _ _ RO) as (_ & WF & Ln). destruct (A2 _ _ RL) as (T & Lm & Hh & Bt). split; [exact WF|]. split; [congruence|]. split; [exact Hh|exact Bt]. }
  assert (K : forall s, lshaped l p s -> exists cs, winternitz p (msg_digest p id (g_q s) (og_c (g_ots s)) msg) cs /\
    lms_verify_sig (LmsPub l p id k) msg s = Ok (bytes_eqb (o_hash p (up_input p id (l_h l) (g_q s) (o_hash p (pblc p id (g_q s) (verified_end p id (g_q s) (g_ots s) cs))) (g_path s) (l_h l))) k)).
  { intros s (T & Sh & Lp & F & Bq). destruct LW as (WF & _ & Hh & _). destruct (recover_spec msg id (g_q s) WF Sh) as (cs & W & RC). exists cs. split; [exact W|].
    unfold lms_verify_sig. rewrite T, Z.eqb_refl. cbn [negb]. rewrite RC. cbn [ok_k]. rewrite Lp, Nat.ltb_irrefl.
    pose proof (@pow_1 (l_h l)). assert (PH : (2 ^ Z.of_nat (l_h l) <= 2 ^ 31)%Z) by (apply Z.pow_le_mono_r; lia).
    rewrite (u32_small (z := 2 ^ Z.of_nat (l_h l))) by lia. rewrite u32_small by lia. rewrite (Z.add_comm (g_q s)).
    set (kc := o_hash p (pblc p id (g_q s) _)). pose proof (@climb_inputs l p id Hh (g_q s) kc (g_path s) (l_h l) Bq (Nat.le_refl _) ltac:(lia)) as CI.
    cbn [up_input] in CI. rewrite Z.pow_0_r, Z.div_1_r in CI. change D_LEAF with [130; 130]%Z. rewrite CI. reflexivity. }
  split.
  - unfold lms_verify. destruct (lms_sig_parse R b) as [s| |] eqn:E; try discriminate. intros V.
    destruct (lms_parse_inv RW B E) as (l' & p' & LW' & RO' & RL' & Sh & Eb). pose proof Sh as (T & (T' & _) & _).
    assert (EL : l' = l). { unfold lms_verify_sig in V. rewrite T in V. destruct (Z.eqb_spec (l_type l) (l_type l')); [unfold reg_lms in *; congruence|discriminate]. }
    assert (EP : p' = p). { unfold lms_verify_sig in V. destruct (negb _); [discriminate|]. unfold ots_recover in V. rewrite T' in V. destruct (Z.eqb_spec (o_type p') (o_type p)); [unfold reg_ots in *; congruence|discriminate]. }
    rewrite EL, EP in *. clear EL EP. destruct (K s Sh) as (cs & W & VS). exists s. split; [exact Sh|]. split; [rewrite (lms_sig_bytes_ok Sh); congruence|].
    exists cs. split; [exact W|]. rewrite VS in V. apply ok_inj in V. apply bytes_eqb_eq. exact V.
  - intros (s & Sh & Eb & cs & W & H). rewrite (lms_sig_bytes_ok Sh) in Eb. apply ok_inj in Eb. subst b. unfold lms_verify. rewrite lms_sig_parse_made by auto.
    destruct (K s Sh) as (cs' & W' & VS). rewrite VS. f_equal. apply bytes_eqb_eq.
    assert (cs' = cs) as -> by (destruct LW as (WF & _); apply winternitz_unique in W, W'; auto using digest_len, digest_ok; congruence). exact H.
Qed.
