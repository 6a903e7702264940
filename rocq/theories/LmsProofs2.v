(** Proofs about LM-OTS, second part: signing, verifying and encodings (C81, C82). *)
From Verif Require Import Base WordModel KdfModel KdfProofs LmsModel LmsSpec LmsProofs.
Set Implicit Arguments. Unset Strict Implicit.
Local Open Scope nat_scope.

Lemma chain_add p id q i n m a x : chain p id q i a (n + m) x = chain p id q i (a + n) m (chain p id q i a n x).
Proof.
  revert a x. induction n; intros a x; cbn [Nat.add chain]; [f_equal; lia|]. rewrite IHn. f_equal; lia.
Qed.
Lemma walk_chain p id q i a b x : ots_walk p id q i a b x = chain p id q i a (b - a) x.
Proof.
  unfold ots_walk. generalize (b - a) as n. intros n. revert a x. induction n; intros a x; cbn [seq fold_left chain]; [reflexivity|].
  rewrite IHn. reflexivity.
Qed.
Lemma chain_len p id q i a n x : ots_wf p -> length x = o_n p -> length (chain p id q i a n x) = o_n p.
Proof. intros (_ & _ & HL & _) L. revert a x L. induction n; intros a x L; cbn [chain]; auto. Qed.
Lemma chain_ok p id q i a n x : ots_wf p -> bytes_ok x -> bytes_ok (chain p id q i a n x).
Proof. intros (_ & _ & _ & HB & _) L. revert a x L. induction n; intros a x L; cbn [chain]; auto. Qed.
Lemma nth_map_seq {A} (f : nat -> A) n i d : i < n -> nth i (map f (seq 0 n)) d = f i.
Proof.
  intros L. rewrite (nth_indep _ d (f 0)) by (rewrite map_length, seq_length; auto). rewrite map_nth, seq_nth by auto. reflexivity.
Qed.
Lemma last_w p : ots_wf p -> Z.of_nat (ots_last p) = (2 ^ o_w p - 1)%Z.
Proof. intros (_ & _ & _ & _ & W & _). unfold ots_last. destruct W as [ -> | [ -> | [ -> | -> ]]]; reflexivity. Qed.
Lemma expand_nth p d : ots_wf p -> length d = o_n p -> bytes_ok d ->
  exists e, expand d p = Ok e /\ length e = o_p p /\ forall i, i < o_p p -> Z.to_nat e.[i] <= ots_last p /\ (0 <= e.[i])%Z.
Proof.
  intros WF L B. destruct (expand_ok WF L B) as (cs & ck & X & [F _] & [G _] & _ & N). exists (cs ++ ck). split; auto. split; auto.
  intros i Hi. pose proof (proj2 (Forall_app _ cs ck) (conj F G)) as A. rewrite Forall_forall in A.
  specialize (A ((cs ++ ck).[i]) ltac:(apply nth_In; lia)). pose proof (last_w WF). lia.
Qed.
Lemma gen_pub p q id seed : os_pub (ots_gen p q id seed) = OtsPub p q id (ots_public p id seed q).
Proof.
  unfold ots_gen. cbn [os_pub]. f_equal. unfold ots_root, ots_public, pblc. do 4 f_equal. f_equal. apply map_ext_in.
  intros i Hi. apply in_seq in Hi. rewrite nth_map_seq by lia. rewrite walk_chain, Nat.sub_0_r. reflexivity.
Qed.

(** the coefficients of a digest, as a total function *)
Definition coef (p : ots_param) (d : bytes) : list Z := match expand d p with Ok e => e | _ => [] end.
Definition revealed (p : ots_param) (id seed : bytes) (q : Z) (d : bytes) (i : nat) : bytes :=
  chain p id q i 0 (Z.to_nat (coef p d).[i]) (secret p id seed q i).

Lemma sign_ok p q id seed rng opt msg c : ots_wf p -> nonce opt rng = Ok c ->
  ots_sign (ots_gen p q id seed) rng opt msg =
    (OtsPriv (OtsPub p q id (ots_public p id seed q)) [] false,
     Ok (OtsSig p c (map (revealed p id seed q (msg_digest p id q c msg)) (seq 0 (o_p p))))).
Proof.
  intros WF N. unfold ots_sign. change (os_valid (ots_gen p q id seed)) with true. cbn [negb]. rewrite gen_pub, N.
  pose proof WF as (_ & _ & HL & HB & _). change (id ++ be_bytes 4 q ++ D_MESG ++ c ++ msg) with (id ++ be_bytes 4 q ++ [129; 129]%Z ++ c ++ msg).
  fold (msg_digest p id q c msg). destruct (expand_nth WF (HL _) (HB (id ++ be_bytes 4 q ++ [129; 129]%Z ++ c ++ msg))) as (e & X & Le & Ce).
  fold (msg_digest p id q c msg) in X. rewrite X. do 3 f_equal. apply map_ext_in. intros i Hi. apply in_seq in Hi. unfold revealed, coef. rewrite X.
  unfold ots_gen. cbn [os_x]. rewrite nth_map_seq by lia. rewrite walk_chain, Nat.sub_0_r. reflexivity.
Qed.
Lemma msg_digest_len p id q c msg : ots_wf p -> length (msg_digest p id q c msg) = o_n p /\ bytes_ok (msg_digest p id q c msg).
Proof. intros (_ & _ & HL & HB & _). split; [apply HL|apply HB]. Qed.

(** RecoverPublicKey on a signature of the right shape *)
Definition ends (p : ots_param) (id : bytes) (q : Z) (d : bytes) (y : list bytes) (i : nat) : bytes :=
  chain p id q i (Z.to_nat (coef p d).[i]) (ots_last p - Z.to_nat (coef p d).[i]) (nth i y []).
Lemma recover_ok p s msg id q : ots_wf p -> shaped p s ->
  ots_recover s msg p id q = Ok (OtsPub p q id (o_hash p (pblc p id q (ends p id q (msg_digest p id q (og_c s) msg) (og_y s))))).
Proof.
  intros WF (T & Lc & Ly & Fy). pose proof WF as (Sz & _ & HL & HB & _). unfold ots_recover. rewrite T, Z.eqb_refl. cbn [negb].
  rewrite Sz, Lc, Nat.eqb_refl, Ly, Nat.eqb_refl. cbn [negb].
  replace (forallb _ _) with true by (symmetry; apply forallb_forall; intros y Hy; rewrite Forall_forall in Fy; apply Nat.eqb_eq; auto).
  cbn [negb]. change (id ++ be_bytes 4 q ++ D_MESG ++ og_c s ++ msg) with (id ++ be_bytes 4 q ++ [129; 129]%Z ++ og_c s ++ msg).
  fold (msg_digest p id q (og_c s) msg). destruct (msg_digest_len id q (og_c s) msg WF) as [L B].
  destruct (expand_nth WF L B) as (e & X & Le & Ce). unfold ends, coef. rewrite X. cbn [rbind]. do 3 f_equal.
  unfold pblc. do 4 f_equal. apply map_ext. intros i. rewrite walk_chain. reflexivity.
Qed.
Lemma recover_shape p s msg id q k : ots_wf p -> og_typ s = p -> ots_recover s msg p id q = Ok k -> shaped p s.
Proof.
  intros (Sz & _) T. unfold ots_recover. rewrite T, Z.eqb_refl. cbn [negb]. rewrite Sz.
  destruct (Nat.eqb_spec (length (og_c s)) (o_n p)) as [E|]; [|discriminate]. cbn [negb].
  destruct (Nat.eqb_spec (length (og_y s)) (o_p p)) as [F|]; [|discriminate]. cbn [negb].
  destruct (forallb (fun y => length y =? o_n p) (og_y s)) eqn:G; [|discriminate]. intros _.
  split; [|split; [|split]]; auto. apply Forall_forall. intros y Hy. rewrite forallb_forall in G. apply Nat.eqb_eq. auto.
Qed.
Lemma recover_total p s msg id q : ots_wf p -> og_typ s = p ->
  (shaped p s \/ ~ shaped p s /\ ots_recover s msg p id q = Err).
Proof.
  intros WF T. destruct (ots_recover s msg p id q) as [k| |] eqn:E.
  - left. eapply recover_shape; eauto.
  - right. split; auto. intros Sh. rewrite recover_ok in E by auto. discriminate.
  - exfalso. assert (shaped p s).
    { pose proof WF as (Sz & _). revert E. unfold ots_recover. rewrite T, Z.eqb_refl. cbn [negb]. rewrite Sz.
      destruct (Nat.eqb_spec (length (og_c s)) (o_n p)) as [E|]; [|discriminate]. cbn [negb].
      destruct (Nat.eqb_spec (length (og_y s)) (o_p p)) as [F|]; [|discriminate]. cbn [negb].
      destruct (forallb (fun y => length y =? o_n p) (og_y s)) eqn:G; [|discriminate]. intros _.
      split; [|split; [|split]]; auto. apply Forall_forall. intros y Hy. rewrite forallb_forall in G. apply Nat.eqb_eq. auto. }
    rewrite recover_ok in E by auto. discriminate.
Qed.
Lemma made_shaped p id seed q d c : ots_wf p -> length c = o_n p ->
  shaped p (OtsSig p c (map (revealed p id seed q d) (seq 0 (o_p p)))).
Proof.
  intros WF L. split; [reflexivity|]. cbn [og_c og_y]. split; auto. split; [rewrite map_length, seq_length; auto|].
  apply Forall_forall. intros y Hy. apply in_map_iff in Hy as (i & <- & _). apply chain_len; auto. apply WF.
Qed.
Lemma made_recovers p id seed q msg c : ots_wf p -> length c = o_n p ->
  ots_recover (OtsSig p c (map (revealed p id seed q (msg_digest p id q c msg)) (seq 0 (o_p p)))) msg p id q =
    Ok (OtsPub p q id (ots_public p id seed q)).
Proof.
  intros WF L. rewrite recover_ok by (auto using made_shaped). cbn [og_c og_y]. do 2 f_equal. unfold ots_public, pblc.
  do 5 f_equal. apply map_ext_in. intros i Hi. apply in_seq in Hi. unfold ends, chain_end. rewrite nth_map_seq by lia. unfold revealed.
  destruct (msg_digest_len id q c msg WF) as [Ld B]. destruct (expand_nth WF Ld B) as (e & X & Le & Ce). unfold coef. rewrite X.
  change (Z.to_nat (2 ^ o_w p - 1)) with (ots_last p).
  replace (ots_last p) with (Z.to_nat e.[i] + (ots_last p - Z.to_nat e.[i])) at 2 by (specialize (Ce i); lia).
  rewrite chain_add. reflexivity.
Qed.

(** * Encodings *)
Lemma ok_inj {A} (a b : A) : Ok a = Ok b -> a = b.
Proof. congruence. Qed.
Lemma sub_ok lo n b : lo + n <= length b -> sub lo (lo + n) b = Ok (slice lo n b).
Proof.
  intros L. unfold sub. replace (lo <=? lo + n) with true by (symmetry; apply Nat.leb_le; lia).
  replace (lo + n <=? length b) with true by (symmetry; apply Nat.leb_le; lia). cbn [andb]. do 2 f_equal. lia.
Qed.
Lemma sub_panic lo hi b : length b < hi -> sub lo hi b = Panic.
Proof. intros L. unfold sub. replace (hi <=? length b) with false by (symmetry; apply Nat.leb_gt; lia). rewrite andb_false_r. reflexivity. Qed.
Lemma slice_split {A} o n m (b : list A) : slice o (n + m) b = slice o n b ++ slice (o + n) m b.
Proof.
  unfold slice. rewrite <- (firstn_skipn n (skipn o b)) at 1. rewrite firstn_app, firstn_firstn, Nat.min_r by lia. f_equal.
  rewrite skipn_skipn', firstn_length, skipn_length. destruct (Nat.le_gt_cases n (length b - o)).
  - f_equal. lia.
  - rewrite !(skipn_all2 (n := o + n)) by lia. rewrite !firstn_nil. reflexivity.
Qed.
Lemma slice_app_l {A} o n (a b : list A) : o + n <= length a -> slice o n (a ++ b) = slice o n a.
Proof.
  intros L. unfold slice. rewrite skipn_app. replace (o - length a) with 0 by lia. cbn [skipn].
  rewrite firstn_app, skipn_length. replace (n - (length a - o)) with 0 by lia. cbn [firstn]. apply app_nil_r.
Qed.
Lemma slice_app_r {A} o n (a b : list A) : slice (length a + o) n (a ++ b) = slice o n b.
Proof. unfold slice. rewrite <- skipn_skipn', (skipn_app_exact (n := length a)) by auto. reflexivity. Qed.
Lemma slice_app_at {A} o k n (a b : list A) : length a = o -> slice (o + k) n (a ++ b) = slice k n b.
Proof. intros <-. apply slice_app_r. Qed.
Lemma slice_0_all {A} (a : list A) n : length a = n -> slice 0 n a = a.
Proof. intros <-. unfold slice. cbn [skipn]. apply firstn_all. Qed.
Lemma slice_mid {A} o n (a m b : list A) : length a = o -> length m = n -> slice o n (a ++ m ++ b) = m.
Proof.
  intros La Lm. replace o with (length a + 0) by lia. rewrite slice_app_r, slice_app_l by lia. apply slice_0_all. auto.
Qed.
Lemma slice_pre {A} n (m b : list A) : length m = n -> slice 0 n (m ++ b) = m.
Proof. intros Lm. apply (slice_mid (a := []) b eq_refl Lm). Qed.
Lemma slice_all_r {A} o n (b : list A) : length b = o + n -> slice o n b = skipn o b.
Proof. intros L. unfold slice. apply firstn_all2. rewrite skipn_length. lia. Qed.

Lemma rmap_ok {A B} (f : A -> res B) (g : A -> B) l : (forall a, In a l -> f a = Ok (g a)) -> rmap f l = Ok (map g l).
Proof.
  induction l as [|a l IH]; intros E; cbn [rmap map]; auto. rewrite (E a) by (left; auto). cbn [rbind].
  rewrite IH by (intros; apply E; right; auto). reflexivity.
Qed.
(** the n-byte pieces of b from off on *)
Definition pieces (off n k : nat) (b : bytes) : list bytes := map (fun i => slice (off + i * n) n b) (seq 0 k).
Lemma rmap_sub off n k b : off + k * n <= length b ->
  rmap (fun i => sub (off + i * n) (off + i * n + n) b) (seq 0 k) = Ok (pieces off n k b).
Proof. intros L. apply rmap_ok. intros i Hi. apply in_seq in Hi. apply sub_ok. nia. Qed.
Lemma pieces_S off n k b : pieces off n (S k) b = pieces off n k b ++ [slice (off + k * n) n b].
Proof. unfold pieces. rewrite seq_S, map_app. reflexivity. Qed.
Lemma pieces_concat off n k b : off + k * n <= length b -> concat (pieces off n k b) = slice off (k * n) b.
Proof.
  induction k; intros L; [reflexivity|]. rewrite pieces_S, concat_app, IHk by lia. cbn [concat]. rewrite app_nil_r.
  replace (S k * n) with (k * n + n) by lia. rewrite slice_split. reflexivity.
Qed.
Lemma pieces_len off n k b : length (pieces off n k b) = k.
Proof. unfold pieces. rewrite map_length, seq_length. reflexivity. Qed.
Lemma pieces_all off n k b : off + k * n <= length b -> Forall (fun y => length y = n) (pieces off n k b).
Proof.
  intros L. apply Forall_forall. intros y Hy. apply in_map_iff in Hy as (i & <- & Hi). apply in_seq in Hi. apply slice_length. nia.
Qed.
Lemma concat_inj n (a b : list bytes) : 0 < n -> Forall (fun y => length y = n) a -> Forall (fun y => length y = n) b ->
  concat a = concat b -> length a = length b -> a = b.
Proof.
  intros Hn. revert b. induction a as [|x a IH]; intros [|y b] Fa Fb E L; cbn in L; try lia; auto. cbn [concat] in E.
  pose proof (Forall_inv Fa) as Lx. pose proof (Forall_inv Fb) as Ly. cbv beta in Lx, Ly.
  assert (X : x = y). { apply (f_equal (firstn n)) in E. rewrite !firstn_app_exact in E by auto. auto. }
  assert (Y : concat a = concat b). { apply (f_equal (skipn n)) in E. rewrite !skipn_app_exact in E by auto. auto. }
  rewrite X. f_equal. apply IH; eauto using Forall_inv_tail.
Qed.
Lemma concat_len n (a : list bytes) : Forall (fun y => length y = n) a -> length (concat a) = length a * n.
Proof. induction 1; cbn [concat length]; auto. rewrite app_length. cbn beta in *. lia. Qed.
Lemma pieces_of off n (pre post : bytes) ys : 0 < n -> length pre = off -> Forall (fun y => length y = n) ys ->
  pieces off n (length ys) (pre ++ concat ys ++ post) = ys.
Proof.
  intros Hn Lp F. pose proof (concat_len F) as Lc. eapply concat_inj; eauto using pieces_len.
  - apply pieces_all. rewrite !app_length. lia.
  - rewrite pieces_concat by (rewrite !app_length; lia). rewrite slice_mid by auto. reflexivity.
Qed.
Lemma getu32_be v : (0 <= v < 2 ^ 32)%Z -> getu32 (be_bytes 4 v) = v.
Proof. intros B. unfold getu32. rewrite be_val_bytes. apply Z.mod_small. exact B. Qed.
Lemma be_getu32 b : bytes_ok b -> length b = 4 -> be_bytes 4 (getu32 b) = b.
Proof. intros B L. apply be_bytes_val; auto. Qed.
Lemma getu32_bound b : bytes_ok b -> length b = 4 -> (0 <= getu32 b < 2 ^ 32)%Z.
Proof. intros B L. pose proof (be_val_bound B) as Q. rewrite L in Q. exact Q. Qed.

Lemma ots_sig_bytes_ok p s : shaped p s -> ots_sig_bytes s = Ok (be_bytes 4 (o_type p) ++ og_c s ++ concat (og_y s)).
Proof.
  intros (T & _ & Ly & _). unfold ots_sig_bytes. rewrite T, Ly, Nat.ltb_irrefl. rewrite firstn_all2 by lia. reflexivity.
Qed.
Lemma ots_sig_bytes_len p s b : ots_wf p -> shaped p s -> ots_sig_bytes s = Ok b -> length b = ots_sig_length p.
Proof.
  intros WF Sh. rewrite (ots_sig_bytes_ok Sh). intros E. apply ok_inj in E. subst b. destruct Sh as (_ & Lc & Ly & F).
  rewrite !app_length, be_bytes_length, (concat_len F). destruct WF as (_ & _ & _ & _ & _ & _ & _ & _ & -> & _). lia.
Qed.
Lemma ots_sig_parse_made R p s : ots_wf p -> reg_ots R p -> shaped p s ->
  ots_sig_parse R (be_bytes 4 (o_type p) ++ og_c s ++ concat (og_y s)) = Ok s.
Proof.
  intros WF RG Sh. pose proof (ots_sig_bytes_len WF Sh (ots_sig_bytes_ok Sh)) as L. set (b := _ ++ _) in *.
  destruct Sh as (T & Lc & Ly & F). pose proof WF as (_ & Np & _ & _ & _ & _ & _ & _ & SL & TY).
  unfold ots_sig_parse. replace (length b <? 4) with false by (symmetry; apply Nat.ltb_ge; lia).
  replace (slice 0 4 b) with (be_bytes 4 (o_type p)) by (symmetry; apply slice_pre, be_bytes_length).
  rewrite getu32_be by auto. unfold reg_ots in RG. rewrite RG, <- L, Nat.ltb_irrefl.
  rewrite sub_ok by lia. cbn [rbind]. rewrite rmap_sub by lia. cbn [rbind].
  replace (slice 4 (o_n p) b) with (og_c s) by (symmetry; apply slice_mid; auto using be_bytes_length).
  unfold b. rewrite app_assoc. rewrite <- (app_nil_r (concat (og_y s))).
  rewrite <- Ly, pieces_of by (auto; rewrite app_length, be_bytes_length; lia). rewrite <- T. clear. destruct s. reflexivity.
Qed.
Lemma ots_parse_inv R p b s : get_ots R (getu32 (slice 0 4 b)) = Some p -> o_type p = getu32 (slice 0 4 b) -> ots_wf p -> bytes_ok b ->
  ots_sig_parse R b = Ok s -> shaped p s /\ b = be_bytes 4 (o_type p) ++ og_c s ++ concat (og_y s).
Proof.
  intros G TY WF B. unfold ots_sig_parse. destruct (Nat.ltb_spec (length b) 4); [discriminate|]. rewrite G.
  pose proof WF as (_ & Np & _ & _ & _ & _ & _ & _ & SL & _).
  destruct (Nat.ltb_spec (length b) (ots_sig_length p)); [discriminate|].
  destruct (Nat.ltb_spec (ots_sig_length p) (length b)); [discriminate|].
  rewrite sub_ok by lia. cbn [rbind]. rewrite rmap_sub by lia. cbn [rbind]. intros [= <-]. split.
  - split; [reflexivity|]. cbn [og_c og_y]. split; [apply slice_length; lia|]. split; [apply pieces_len|apply pieces_all; lia].
  - cbn [og_c og_y]. rewrite pieces_concat by lia. rewrite TY, be_getu32 by (auto using bytes_ok_slice; apply slice_length; lia).
    rewrite <- (slice_split 4 (o_n p) (o_p p * o_n p)). change 4 with (0 + 4) at 2. rewrite <- slice_split.
    symmetry. apply slice_0_all. lia.
Qed.
Lemma ots_parse_never_panics R n b : reg_wf R n -> ots_sig_parse R b <> Panic.
Proof.
  intros [RW _]. unfold ots_sig_parse. destruct (length b <? 4); [discriminate|].
  destruct (get_ots R (getu32 (slice 0 4 b))) as [p|] eqn:G; [|discriminate]. destruct (RW _ _ G) as (_ & WF & _).
  pose proof WF as (_ & Np & _ & _ & _ & _ & _ & _ & SL & _).
  destruct (Nat.ltb_spec (length b) (ots_sig_length p)); [discriminate|].
  destruct (Nat.ltb_spec (ots_sig_length p) (length b)); [discriminate|].
  rewrite sub_ok by lia. cbn [rbind]. rewrite rmap_sub by lia. discriminate.
Qed.
