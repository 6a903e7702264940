(** Lemmas on machine words and on the frame of block ciphers. *)
From Verif Require Import Base BlockModeModel CipherLaws WordModel BlkSpec.
Set Implicit Arguments. Unset Strict Implicit.
Local Open Scope nat_scope.

Definition inw (w x : Z) : Prop := (0 <= x < 2 ^ w)%Z.
Lemma inw_mod w x : (0 <= w)%Z -> inw w (x mod 2 ^ w).
Proof. intros W. apply Z.mod_pos_bound. apply Z.pow_pos_nonneg; lia. Qed.
Lemma inw_add w a b : (0 <= w)%Z -> inw w (wadd w a b). Proof. apply inw_mod. Qed.
Lemma inw_sub w a b : (0 <= w)%Z -> inw w (wsub w a b). Proof. apply inw_mod. Qed.
Lemma inw_mul w a b : (0 <= w)%Z -> inw w (wmul w a b). Proof. apply inw_mod. Qed.
Lemma inw_shl w a b : (0 <= w)%Z -> inw w (wshl w a b). Proof. apply inw_mod. Qed.
Lemma inw_testbit w x i : (0 <= w)%Z -> inw w x -> (w <= i)%Z -> Z.testbit x i = false.
Proof.
  intros W [L U] I. destruct (Z.eq_dec x 0) as [->|N]; [apply Z.bits_0|].
  apply Z.bits_above_log2; [lia|]. apply Z.lt_le_trans with w; [|lia]. apply Z.log2_lt_pow2; lia.
Qed.
Lemma testbit_inw w x : (0 <= w)%Z -> (0 <= x)%Z -> (forall i, (w <= i)%Z -> Z.testbit x i = false) -> inw w x.
Proof.
  intros W N H. assert (E : (x mod 2 ^ w = x)%Z).
  { apply Z.bits_inj'. intros n Hn. destruct (Z_lt_dec n w) as [L|L].
    - apply Z.mod_pow2_bits_low. lia.
    - rewrite Z.mod_pow2_bits_high by lia. symmetry. apply H. lia. }
  rewrite <- E. apply inw_mod. exact W.
Qed.
Lemma inw_xor w a b : (0 <= w)%Z -> inw w a -> inw w b -> inw w (Z.lxor a b).
Proof.
  intros W A B. apply testbit_inw; auto; [apply Z.lxor_nonneg; destruct A, B; lia|].
  intros i Hi. rewrite Z.lxor_spec, (inw_testbit W A Hi), (inw_testbit W B Hi). reflexivity.
Qed.
Lemma inw_or w a b : (0 <= w)%Z -> inw w a -> inw w b -> inw w (Z.lor a b).
Proof.
  intros W A B. apply testbit_inw; auto; [apply Z.lor_nonneg; destruct A, B; lia|].
  intros i Hi. rewrite Z.lor_spec, (inw_testbit W A Hi), (inw_testbit W B Hi). reflexivity.
Qed.
Lemma inw_and_l w a b : (0 <= w)%Z -> inw w a -> (0 <= b)%Z -> inw w (Z.land a b).
Proof.
  intros W A B. apply testbit_inw; auto; [apply Z.land_nonneg; destruct A; lia|].
  intros i Hi. rewrite Z.land_spec, (inw_testbit W A Hi). reflexivity.
Qed.
Lemma inw_and w a b : (0 <= w)%Z -> inw w a -> inw w b -> inw w (Z.land a b).
Proof. intros W A B. apply inw_and_l; auto. destruct B; lia. Qed.
Lemma inw_ones w : (0 <= w)%Z -> inw w (2 ^ w - 1).
Proof. intros W. assert (0 < 2 ^ w)%Z by (apply Z.pow_pos_nonneg; lia). unfold inw. lia. Qed.
Lemma inw_not w a : (0 <= w)%Z -> inw w a -> inw w (wnot w a).
Proof. intros W A. apply inw_xor; auto. apply inw_ones; auto. Qed.
Lemma inw_shr w a k : (0 <= w)%Z -> (0 <= k)%Z -> inw w a -> inw w (Z.shiftr a k).
Proof.
  intros W K A. apply testbit_inw; auto; [apply Z.shiftr_nonneg; destruct A; lia|].
  intros i Hi. rewrite Z.shiftr_spec by lia. apply (@inw_testbit w); auto. lia.
Qed.
Lemma lxor_cancel_r a b : Z.lxor (Z.lxor a b) b = a.
Proof. rewrite Z.lxor_assoc, Z.lxor_nilpotent, Z.lxor_0_r. reflexivity. Qed.
Lemma lxor_cancel_l a b : Z.lxor a (Z.lxor a b) = b.
Proof. rewrite <- Z.lxor_assoc, Z.lxor_nilpotent, Z.lxor_0_l. reflexivity. Qed.
Lemma wnot_wnot w a : wnot w (wnot w a) = a.
Proof. apply lxor_cancel_r. Qed.
Lemma wsub_wadd w a b : (0 <= w)%Z -> inw w a -> wsub w (wadd w a b) b = a.
Proof.
  intros W A. assert (0 < 2 ^ w)%Z by (apply Z.pow_pos_nonneg; lia). unfold wsub, wadd.
  rewrite Zminus_mod_idemp_l. replace (a + b - b)%Z with a by lia. apply Z.mod_small. exact A.
Qed.
Lemma wsub_wadd_l w a b : (0 <= w)%Z -> inw w a -> wsub w (wadd w b a) b = a.
Proof. intros. unfold wadd. rewrite Z.add_comm. apply wsub_wadd; auto. Qed.
Lemma wadd_wsub w a b : (0 <= w)%Z -> inw w a -> wadd w (wsub w a b) b = a.
Proof.
  intros W A. assert (0 < 2 ^ w)%Z by (apply Z.pow_pos_nonneg; lia). unfold wsub, wadd.
  rewrite Zplus_mod_idemp_l. replace (a - b + b)%Z with a by lia. apply Z.mod_small. exact A.
Qed.
Lemma wadd_comm w a b : wadd w a b = wadd w b a.
Proof. unfold wadd. f_equal. lia. Qed.

(** rotation *)
Lemma rotl_nonneg w k x : (0 < w)%Z -> (0 <= x)%Z -> (0 <= rotl w k x)%Z.
Proof.
  intros W X. unfold rotl. apply Z.lor_nonneg. split.
  - apply Z.mod_pos_bound. apply Z.pow_pos_nonneg; lia.
  - apply Z.shiftr_nonneg. exact X.
Qed.
Lemma rotl_spec w k x i : (0 < w)%Z -> inw w x -> (0 <= i)%Z ->
  Z.testbit (rotl w k x) i = ((i <? w)%Z && Z.testbit x ((i - k) mod w))%bool.
Proof.
  intros W X I. unfold rotl. pose proof (Z.mod_pos_bound k w W) as K. set (s := (k mod w)%Z) in *.
  rewrite Z.lor_spec, Z.shiftr_spec by lia.
  assert (Es : ((i - k) mod w = (i - s) mod w)%Z) by (unfold s; rewrite Zminus_mod_idemp_r; reflexivity). rewrite Es.
  destruct (Z.ltb_spec i w) as [L|L]; cbn [andb].
  - rewrite Z.mod_pow2_bits_low by lia. rewrite Z.shiftl_spec by lia.
    destruct (Z_lt_dec i s) as [G|G].
    + rewrite (Z.testbit_neg_r x (i - s)) by lia. cbn [orb].
      replace ((i - s) mod w)%Z with (i + (w - s))%Z; [reflexivity|].
      rewrite <- (Z.mod_add (i - s) 1 w) by lia. rewrite Z.mod_small by lia. lia.
    + rewrite (Z.mod_small (i - s)) by lia. rewrite (@inw_testbit w x (i + (w - s))) by (auto; lia). apply orb_false_r.
  - rewrite Z.mod_pow2_bits_high by lia. cbn [orb]. apply (@inw_testbit w); auto; lia.
Qed.
Lemma inw_rotl w k x : (0 < w)%Z -> inw w x -> inw w (rotl w k x).
Proof.
  intros W X. apply testbit_inw; [lia|apply rotl_nonneg; destruct X; lia|].
  intros i Hi. rewrite rotl_spec by (auto; lia). replace (i <? w)%Z with false by lia. reflexivity.
Qed.
Lemma rotl_rotl w a b x : (0 < w)%Z -> inw w x -> rotl w a (rotl w b x) = rotl w (a + b) x.
Proof.
  intros W X. apply Z.bits_inj'. intros i Hi. rewrite (@rotl_spec w a) by (auto using inw_rotl). rewrite (@rotl_spec w (a + b)) by auto.
  destruct (Z.ltb_spec i w); cbn [andb]; auto.
  pose proof (Z.mod_pos_bound (i - a) w W). rewrite rotl_spec by (auto; lia).
  replace ((i - a) mod w <? w)%Z with true by lia. cbn [andb]. f_equal. rewrite Zminus_mod_idemp_l. f_equal. lia.
Qed.
Lemma rotl_id w k x : (0 < w)%Z -> inw w x -> (k mod w = 0)%Z -> rotl w k x = x.
Proof.
  intros W X K. unfold rotl. rewrite K. rewrite Z.shiftl_0_r, Z.sub_0_r. rewrite Z.mod_small by exact X.
  rewrite Z.shiftr_div_pow2 by lia. rewrite Z.div_small by exact X. apply Z.lor_0_r.
Qed.
Lemma rotl_inv w a b x : (0 < w)%Z -> inw w x -> ((a + b) mod w = 0)%Z -> rotl w a (rotl w b x) = x.
Proof. intros W X K. rewrite rotl_rotl by auto. apply rotl_id; auto. Qed.
Lemma rotr_rotl w k x : (0 < w)%Z -> inw w x -> rotr w k (rotl w k x) = x.
Proof. intros W X. apply rotl_inv; auto. replace (w - k + k)%Z with w by lia. apply Z.mod_same. lia. Qed.
Lemma rotl_rotr w k x : (0 < w)%Z -> inw w x -> rotl w k (rotr w k x) = x.
Proof. intros W X. apply rotl_inv; auto. replace (k + (w - k))%Z with w by lia. apply Z.mod_same. lia. Qed.
Lemma inw_rotr w k x : (0 < w)%Z -> inw w x -> inw w (rotr w k x).
Proof. apply inw_rotl. Qed.
Lemma rotl_xor w k a b : (0 < w)%Z -> inw w a -> inw w b -> rotl w k (Z.lxor a b) = Z.lxor (rotl w k a) (rotl w k b).
Proof.
  intros W A B. apply Z.bits_inj'. intros i Hi. rewrite Z.lxor_spec, !rotl_spec by (auto; apply inw_xor; auto; lia).
  rewrite Z.lxor_spec. destruct (i <? w)%Z; reflexivity.
Qed.

Create HintDb words.
#[export] Hint Resolve inw_add inw_sub inw_mul inw_shl inw_xor inw_or inw_and inw_not inw_rotl inw_rotr inw_mod inw_shr inw_ones : words.
#[export] Hint Extern 1 (_ <= _)%Z => (match goal with |- (?a <= ?b)%Z => first [reflexivity | discriminate] end) : words.
#[export] Hint Extern 1 (_ < _)%Z => reflexivity : words.
Ltac words := auto 12 with words.

(** words of a byte string *)
Definition wordsok (w : Z) (m : nat) (ws : list Z) : Prop := length ws = m /\ Forall (inw w) ws.
Lemma pow_256 n : (256 ^ Z.of_nat n = 2 ^ (8 * Z.of_nat n))%Z.
Proof. change 256%Z with (2 ^ 8)%Z. rewrite <- Z.pow_mul_r by lia. reflexivity. Qed.
Section coding.
Variables (n : nat) (val : bytes -> Z) (byt : Z -> bytes).
Hypothesis n_pos : 0 < n.
Hypothesis byt_len : forall z, length (byt z) = n.
Hypothesis byt_ok : forall z, bytes_ok (byt z).
Hypothesis val_byt : forall z, inw (8 * Z.of_nat n) z -> val (byt z) = z.
Hypothesis byt_val : forall b, bytes_ok b -> length b = n -> byt (val b) = b.
Hypothesis val_inw : forall b, bytes_ok b -> length b = n -> inw (8 * Z.of_nat n) (val b).
Lemma st_len ws : length (concat (map byt ws)) = length ws * n.
Proof. induction ws; cbn [map concat length]; auto. rewrite app_length, byt_len, IHws. lia. Qed.
Lemma st_ok ws : bytes_ok (concat (map byt ws)).
Proof. induction ws; cbn [map concat]; [constructor|]. apply Forall_app. split; [apply byt_ok|auto]. Qed.
Lemma ld_st ws : Forall (inw (8 * Z.of_nat n)) ws -> map val (chunks n (concat (map byt ws))) = ws.
Proof.
  intros F. rewrite chunks_of_concat; auto.
  - rewrite map_map. rewrite <- (map_id ws) at 2. apply map_ext_in. rewrite Forall_forall in F. auto.
  - unfold all_len. rewrite Forall_map. apply Forall_forall. auto.
Qed.
Lemma chunks_parts m b : length b = m * n -> bytes_ok b -> Forall (fun c => length c = n /\ bytes_ok c) (chunks n b) /\ length (chunks n b) = m.
Proof.
  intros L O. destruct (@chunks_all_len _ n b m n_pos L) as [A C]. split; auto.
  rewrite <- (chunks_concat b n_pos) in O. unfold all_len in A. rewrite Forall_forall in *.
  intros c Hc. split; auto. apply Forall_forall. intros x Hx. unfold bytes_ok in O. rewrite Forall_forall in O. apply O. apply in_concat. eauto.
Qed.
Lemma st_ld m b : length b = m * n -> bytes_ok b -> concat (map byt (map val (chunks n b))) = b.
Proof.
  intros L O. destruct (chunks_parts L O) as [A _]. rewrite map_map. rewrite <- (chunks_concat b n_pos) at 2. f_equal.
  rewrite <- (map_id (chunks n b)) at 2. apply map_ext_in. rewrite Forall_forall in A. intros c Hc. destruct (A c Hc). auto.
Qed.
Lemma ld_ok m b : length b = m * n -> bytes_ok b -> wordsok (8 * Z.of_nat n) m (map val (chunks n b)).
Proof.
  intros L O. destruct (chunks_parts L O) as [A B]. split; [rewrite map_length; auto|].
  rewrite Forall_map. eapply Forall_impl; [|exact A]. cbn. intros c [H1 H2]. auto.
Qed.
Lemma coded_lawful m E D : 0 < m ->
  (forall ws, wordsok (8 * Z.of_nat n) m ws -> wordsok (8 * Z.of_nat n) m (E ws)) ->
  (forall ws, wordsok (8 * Z.of_nat n) m ws -> wordsok (8 * Z.of_nat n) m (D ws)) ->
  (forall ws, wordsok (8 * Z.of_nat n) m ws -> D (E ws) = ws) ->
  lawful {| bsz := m * n; enc := fun b => concat (map byt (E (map val (chunks n b)))); dec := fun b => concat (map byt (D (map val (chunks n b)))) |}.
Proof.
  intros M HE HD HI. constructor; cbn [bsz enc dec].
  - nia.
  - intros b [L O]. pose proof (HE _ (ld_ok L O)) as [H1 H2]. split; [rewrite st_len; congruence|apply st_ok].
  - intros b [L O]. pose proof (HD _ (ld_ok L O)) as [H1 H2]. split; [rewrite st_len; congruence|apply st_ok].
  - intros b [L O]. pose proof (ld_ok L O) as H. pose proof (HE _ H) as [H1 H2]. rewrite ld_st by auto. rewrite HI by auto.
    eapply st_ld; eauto.
Qed.
End coding.
Lemma val_byt_le n z : inw (8 * Z.of_nat n) z -> le_val (le_bytes n z) = z.
Proof. intros H. rewrite le_val_bytes, pow_256. apply Z.mod_small. exact H. Qed.
Lemma val_byt_be n z : inw (8 * Z.of_nat n) z -> be_val (be_bytes n z) = z.
Proof. intros H. rewrite be_val_bytes, pow_256. apply Z.mod_small. exact H. Qed.
Lemma val_inw_le n b : bytes_ok b -> length b = n -> inw (8 * Z.of_nat n) (le_val b).
Proof. intros O L. unfold inw. rewrite <- pow_256, <- L. apply le_val_bound. exact O. Qed.
Lemma val_inw_be n b : bytes_ok b -> length b = n -> inw (8 * Z.of_nat n) (be_val b).
Proof. intros O L. unfold inw. rewrite <- pow_256, <- L. apply be_val_bound. exact O. Qed.
Lemma word_lawful n m E D w : w = (8 * Z.of_nat n)%Z -> 0 < n -> 0 < m ->
  (forall ws, wordsok w m ws -> wordsok w m (E ws)) -> (forall ws, wordsok w m ws -> wordsok w m (D ws)) ->
  (forall ws, wordsok w m ws -> D (E ws) = ws) -> lawful (word_cipher n m E D).
Proof.
  intros -> N M HE HD HI. unfold word_cipher, stw, ldw. apply coded_lawful; auto.
  - apply le_bytes_length.
  - apply le_bytes_ok.
  - apply val_byt_le.
  - intros. apply le_bytes_val; auto.
  - apply val_inw_le.
Qed.
Lemma word_lawful_be n m E D w : w = (8 * Z.of_nat n)%Z -> 0 < n -> 0 < m ->
  (forall ws, wordsok w m ws -> wordsok w m (E ws)) -> (forall ws, wordsok w m ws -> wordsok w m (D ws)) ->
  (forall ws, wordsok w m ws -> D (E ws) = ws) -> lawful (word_cipher_be n m E D).
Proof.
  intros -> N M HE HD HI. unfold word_cipher_be, stw_be, ldw_be. apply coded_lawful; auto.
  - apply be_bytes_length.
  - apply be_bytes_ok.
  - apply val_byt_be.
  - intros. apply be_bytes_val; auto.
  - apply val_inw_be.
Qed.
Lemma ldw_ok n m b w : w = (8 * Z.of_nat n)%Z -> 0 < n -> length b = m * n -> bytes_ok b -> wordsok w m (ldw n b).
Proof. intros -> N L O. unfold ldw. apply ld_ok; auto. apply val_inw_le. Qed.
Lemma ldw_be_ok n m b w : w = (8 * Z.of_nat n)%Z -> 0 < n -> length b = m * n -> bytes_ok b -> wordsok w m (ldw_be n b).
Proof. intros -> N L O. unfold ldw_be. apply ld_ok; auto. apply val_inw_be. Qed.

(** rounds and their inverses in the opposite order *)
Section rounds.
Variables (S K : Type) (I : S -> Prop) (J : K -> Prop) (f g : S -> K -> S).
Hypothesis step : forall s k, I s -> J k -> I (f s k) /\ g (f s k) k = s.
Lemma rounds_inv : forall ks s, I s -> Forall J ks -> I (fold_left f ks s) /\ fold_left g (rev ks) (fold_left f ks s) = s.
Proof.
  induction ks as [|k ks IH]; intros s Hs F; [split; auto|]. inversion F; subst. destruct (step Hs H1) as [A B].
  destruct (IH _ A H2) as [C E]. cbn [fold_left rev]. split; auto. rewrite fold_left_app. cbn [fold_left]. rewrite E. exact B.
Qed.
End rounds.
Lemma rounds_ok (S K : Type) (I : S -> Prop) (J : K -> Prop) (f : S -> K -> S) : (forall s k, I s -> J k -> I (f s k)) ->
  forall ks s, I s -> Forall J ks -> I (fold_left f ks s).
Proof. intros H. induction ks as [|k ks IH]; intros s Hs F; auto. inversion F; subst. cbn [fold_left]. auto. Qed.

(** a lawful cipher gives a block cipher in the sense of BlkSpec *)
Lemma undone_call bs (f g : bytes -> bytes) : 
  (forall b, isblock bs b -> isblock bs (f b)) -> (forall b, isblock bs b -> isblock bs (g b)) ->
  (forall b, isblock bs b -> g (f b) = b) -> undone_by bs (blk_call bs f) (blk_call bs g).
Proof.
  intros Hf Hg Hi dst dst' src Os Od Ls Ld Ld'. unfold blk_call.
  replace (length src <? bs) with false by (symmetry; apply Nat.ltb_ge; lia).
  replace (length dst <? bs) with false by (symmetry; apply Nat.ltb_ge; lia).
  assert (B : isblock bs (firstn bs src)) by (split; [rewrite firstn_length; lia|apply bytes_ok_firstn; auto]).
  destruct (Hf _ B) as [L1 O1]. eexists. split; [reflexivity|]. unfold splice. cbn [firstn app]. cbn [Nat.add]. rewrite L1.
  assert (EL : length (f (firstn bs src) ++ skipn bs dst) = length dst) by (rewrite app_length, skipn_length; lia).
  assert (F1 : firstn bs (f (firstn bs src) ++ skipn bs dst) = f (firstn bs src)) by (apply firstn_app_exact; exact L1).
  split; [exact EL|]. split; [apply Forall_app; split; [exact O1|apply bytes_ok_skipn; exact Od]|]. split.
  { apply skipn_app_exact. exact L1. }
  rewrite EL.
  replace (length dst <? bs) with false by (symmetry; apply Nat.ltb_ge; lia).
  replace (length dst' <? bs) with false by (symmetry; apply Nat.ltb_ge; lia).
  rewrite F1, Hi by auto. eexists. split; [reflexivity|]. destruct B as [LB _]. rewrite LB. split.
  - apply firstn_app_exact. exact LB.
  - apply skipn_app_exact. exact LB.
Qed.
Lemma call_one_block bs f : one_block bs (blk_call bs f).
Proof.
  intros dst src L. unfold blk_call. rewrite firstn_length, Nat.min_l by lia. rewrite firstn_firstn, Nat.min_id.
  replace (length src <? bs) with false by (symmetry; apply Nat.ltb_ge; lia).
  replace (bs <? bs) with false by (symmetry; apply Nat.ltb_ge; lia). reflexivity.
Qed.
Lemma call_short bs f : panics_if_short bs (blk_call bs f).
Proof.
  intros dst src H. unfold blk_call. destruct (Nat.ltb_spec (length src) bs); auto. destruct (Nat.ltb_spec (length dst) bs); auto. lia.
Qed.
Lemma lawful_block_cipher c bs : lawful c -> bs = bsz c -> block_cipher bs (blk_call bs (enc c)) (blk_call bs (dec c)).
Proof.
  intros L ->. pose proof (lawful_surj L) as S. constructor; auto using call_one_block, call_short.
  - apply undone_call; [apply (law_enc L)|apply (law_dec L)|apply (law_inv L)].
  - apply undone_call; [apply (law_dec L)|apply (law_enc L)|exact S].
Qed.

(** arrays and loops *)
Lemma nth_inw w l i : (0 <= w)%Z -> Forall (inw w) l -> inw w l.[i].
Proof.
  intros W F. destruct (nth_in_or_default i l 0%Z) as [H| ->]; [rewrite Forall_forall in F; auto|].
  split; [lia|]. apply Z.pow_pos_nonneg; lia.
Qed.
Lemma upd_len i v l : length (upd i v l) = length l.
Proof. revert i. induction l; intros [|i]; cbn; auto. Qed.
Lemma upd_Forall (P : Z -> Prop) i v l : P v -> Forall P l -> Forall P (upd i v l).
Proof. intros V. revert i. induction l; intros [|i] F; cbn; inversion F; subst; constructor; auto. Qed.
Lemma ups_S a n st : ups a (S n) st = ups a n st ++ [a + st * n].
Proof. unfold ups. rewrite seq_S, map_app. reflexivity. Qed.
Lemma downs_S a n st : downs a (S n) st = a :: downs (a - st) n st.
Proof.
  unfold downs. cbn [seq map]. f_equal; [lia|]. rewrite <- seq_shift, map_map. apply map_ext. intros i. lia.
Qed.
Lemma downs_rev a n st b : (0 < n -> b = a + st * (n - 1)) -> downs b n st = rev (ups a n st).
Proof.
  revert b. induction n; intros b H; [reflexivity|]. rewrite downs_S, ups_S, rev_app_distr. cbn [rev app].
  rewrite H by lia. replace (S n - 1) with n by lia. f_equal.
  apply IHn. intros P. destruct n; [lia|]. replace (S n - 1) with n by lia. rewrite <- mult_n_Sm. lia.
Qed.
Lemma fold_left_map (A B C : Type) (f : A -> C -> A) (h : B -> C) l s : fold_left f (map h l) s = fold_left (fun s x => f s (h x)) l s.
Proof. revert s. induction l; intros s; cbn; auto. Qed.
Lemma Forall_ups (P : nat -> Prop) a n st : (forall i, i < n -> P (a + st * i)) -> Forall P (ups a n st).
Proof. intros H. unfold ups. rewrite Forall_map. apply Forall_forall. intros i Hi. apply in_seq in Hi. apply H. lia. Qed.
Lemma fold_left_ext_in (A B : Type) (f g : A -> B -> A) l : (forall s x, In x l -> f s x = g s x) -> forall s, fold_left f l s = fold_left g l s.
Proof. induction l; intros H s; cbn; auto. rewrite H by (left; auto). apply IHl. intros; apply H; right; auto. Qed.
(** every property of the constructor's argument that only needs the words of the key *)
Lemma key_words n m key w : w = (8 * Z.of_nat n)%Z -> 0 < n -> length key = m * n -> bytes_ok key ->
  length (ldw n key) = m /\ Forall (inw w) (ldw n key).
Proof. intros W N L O. exact (ldw_ok W N L O). Qed.
Lemma key_words_be n m key w : w = (8 * Z.of_nat n)%Z -> 0 < n -> length key = m * n -> bytes_ok key ->
  length (ldw_be n key) = m /\ Forall (inw w) (ldw_be n key).
Proof. intros W N L O. exact (ldw_be_ok W N L O). Qed.
(** a test made for every integer from x on, n of them: for checking a fact about all words by computation *)
Fixpoint allz (p : Z -> bool) (n : nat) (x : Z) : bool := match n with O => true | S n => p x && allz p n (x + 1)%Z end.
Lemma allz_spec p n x : allz p n x = true -> forall y, (x <= y < x + Z.of_nat n)%Z -> p y = true.
Proof.
  revert x. induction n as [|n IH]; intros x H y Y; [lia|]. cbn [allz] in H. apply andb_prop in H. destruct H as [H0 H].
  destruct (Z.eq_dec y x) as [->|]; auto. apply (IH (x + 1)%Z); auto. lia.
Qed.
