(** Proofs for rand/drbg: the HMAC and CTR generators, histories. *)
From Verif Require Import Base WordModel WordLib BlockModeModel BlockModeProofs MacModel CcmProofs OcbProofs DrbgModel DrbgSpec DrbgProofs.
From Coq Require Import Lia.
Set Implicit Arguments. Unset Strict Implicit.
Local Open Scope nat_scope.

Lemma gocopy_full (o t : bytes) : length o <= length t -> gocopy o t = firstn (length o) t.
Proof. intros L. unfold gocopy. rewrite skipn_all2 by auto. apply app_nil_r. Qed.
Lemma stream_shift f h n : stream f h 1 n = firstn n (concat (map (fun i => f (S i)) (seq 0 (cdiv n h)))).
Proof. unfold stream. rewrite <- seq_shift, map_map. reflexivity. Qed.
Lemma bok_firstn n (l : bytes) : bytes_ok l -> bytes_ok (firstn n l).
Proof. intros Hl. rewrite <- (firstn_skipn n l) in Hl. apply Forall_app in Hl. tauto. Qed.
Lemma bok_skipn n (l : bytes) : bytes_ok l -> bytes_ok (skipn n l).
Proof. intros Hl. rewrite <- (firstn_skipn n l) in Hl. apply Forall_app in Hl. tauto. Qed.
Lemma bok_app a b : bytes_ok a -> bytes_ok b -> bytes_ok (a ++ b).
Proof. intros. apply Forall_app. auto. Qed.
Lemma bok_zeros n : bytes_ok (repeat 0%Z n).
Proof. apply Forall_forall. intros x Hx. apply repeat_spec in Hx. subst. red. lia. Qed.

Section Hmac.
  Variable hm : bytes -> bytes -> bytes.
  Variable h : nat.
  Hypothesis hpos : 0 < h.
  Hypothesis hlen : forall k m, length (hm k m) = h.
  Lemma m_update_eq k v d : m_update hm k v d = hmac_update hm (k, v) d.
  Proof. unfold m_update, hmac_update. destruct d; reflexivity. Qed.
  Definition mrel (s : mst) (t : mstate) (n : Z) : Prop := t = (mk s, mv s) /\ mctr s = n /\ (1 <= n <= 2 ^ 48 + 1)%Z.
  Lemma vi_len K V i : length (vi hm K V (S i)) = h. Proof. unfold vi. cbn. apply hlen. Qed.
  Lemma m_generate_rel s t n o a : mrel s t n ->
    if (2 ^ 48 <? n)%Z then m_generate hm s o a = Err
    else exists s', m_generate hm s o a = Ok (fst (hmac_generate hm h t n o a), s') /\ mrel s' (snd (hmac_generate hm h t n o a)) (n + 1).
  Proof.
    intros (-> & Ct & Rn). unfold m_generate. rewrite Ct. destruct (Z.ltb_spec (2 ^ 48) n); [reflexivity|].
    set (s1 := match a return mstate with [] => (mk s, mv s) | _ => hmac_update hm (mk s, mv s) a end).
    replace (if 0 <? length a then m_update hm (mk s) (mv s) a else (mk s, mv s)) with s1
      by (unfold s1; rewrite m_update_eq; destruct a; reflexivity).
    unfold hmac_generate. cbv zeta. change (match a return mstate with [] => (mk s, mv s) | _ => hmac_update hm (mk s, mv s) a end) with s1.
    clearbody s1. destruct s1 as [k v]. cbn [fst snd]. change v with (vi hm k v 0) at 1.
    rewrite (@grow_spec _ (fun v => Ok (hm k v, hm k v)) (vi hm k v) (fun i => vi hm k v (S i)) h (length o) (length o));
      auto; [|intros; apply vi_len].
    cbn [rbind fst snd]. rewrite m_update_eq. destruct (hmac_update hm (k, _) a) as [k2 v2].
    eexists. split.
    - f_equal. f_equal. rewrite stream_shift. apply gocopy_full. rewrite (@concat_len _ h hpos) by (intros; apply vi_len). pose proof (@cdiv_spec (length o) h hpos). lia.
    - unfold mrel. cbn [mk mv mctr]. split; auto. rewrite Z.mod_small; lia.
  Qed.
  Lemma m_reseed_rel s t n e a : mrel s t n ->
    if good_reseedb e a then exists s', m_reseed hm s e a = Ok s' /\ mrel s' (hmac_reseed hm t e a) 1 else m_reseed hm s e a = Err.
  Proof.
    intros (-> & Ct & Rn). unfold m_reseed. rewrite reseed_ok_good. destruct (good_reseedb e a); auto.
    rewrite m_update_eq. unfold hmac_reseed. destruct (hmac_update hm (mk s, mv s) (e ++ a)) as [k v] eqn:Q.
    eexists. split; [reflexivity|]. unfold mrel. cbn [mk mv mctr]. split; auto. lia.
  Qed.
  Lemma m_new_rel e n p : if new_ok e n p then exists s, m_new hm h e n p = Ok s /\ mrel s (hmac_instantiate hm h e n p) 1 else m_new hm h e n p = Err.
  Proof.
    unfold m_new. destruct (new_ok e n p); auto. rewrite m_update_eq. unfold hmac_instantiate, zeros.
    destruct (hmac_update hm _ (e ++ n ++ p)) as [k v] eqn:Q. eexists. split; [reflexivity|]. unfold mrel. cbn [mk mv mctr]. split; auto. lia.
  Qed.
End Hmac.

Section Ctr.
  Variable newc : bytes -> res cipher.
  Variable E : bytes -> bytes -> bytes.
  Variables (bs klen : nat).
  Hypothesis bs4 : 4 <= bs.
  Hypothesis kmax : klen <= 256.
  Hypothesis newc_ok : forall k, isblock klen k -> exists c, newc k = Ok c /\ bsz c = bs /\ forall x, isblock bs x -> enc c x = E k x.
  Hypothesis E_ok : forall k x, isblock klen k -> isblock bs x -> isblock bs (E k x).

  Lemma enc_eq k x : isblock klen k -> isblock bs x -> c_encrypt newc k x = Ok (E k x).
  Proof. intros Hk Hx. unfold c_encrypt. destruct (newc_ok Hk) as (c & -> & _ & ->); auto. Qed.

  (** *** BCC *)
  Lemma skipn_add (A : Type) (l : list A) a b : skipn a (skipn b l) = skipn (b + a) l.
  Proof. revert l. induction b; intros l; cbn; auto. destruct l; auto. destruct a; reflexivity. Qed.
  Lemma bcc_loop_eq key data : isblock klen key -> bytes_ok data -> forall n i value, isblock bs value -> length data = (i + n) * bs ->
    bcc_loop newc n i bs key data value = Ok (fold_left (fun c b => E key (xorl c b)) (chunks bs (skipn (i * bs) data)) value) /\
    isblock bs (fold_left (fun c b => E key (xorl c b)) (chunks bs (skipn (i * bs) data)) value).
  Proof.
    intros Hk Hd. induction n; intros i value Hv L.
    - rewrite skipn_all2 by nia. cbn [bcc_loop]. rewrite chunks_nil. cbn. auto.
    - cbn [bcc_loop]. set (rest := skipn (i * bs) data). assert (Lr : length rest = (1 + n) * bs) by (unfold rest; rewrite skipn_length; nia).
      destruct Hv as [Lv Ov].
      assert (X : xorl value rest = xorl value (firstn bs rest)) by (rewrite xorl_firstn_r by lia; reflexivity).
      assert (B1 : isblock bs (xorl value (firstn bs rest))).
      { split; [rewrite xorl_length, firstn_length; nia|]. apply xorl_ok; auto. apply bok_firstn. unfold rest. apply bok_skipn; auto. }
      rewrite gocopy_full by (rewrite X, (proj1 B1); lia). rewrite firstn_all2 by (rewrite X, (proj1 B1); lia). rewrite X.
      rewrite enc_eq by auto. cbn [rbind].
      assert (C : chunks bs rest = firstn bs rest :: chunks bs (skipn (S i * bs) data)).
      { rewrite chunks_cons by (try lia; intros Q; rewrite Q in Lr; cbn in Lr; lia). f_equal. f_equal. unfold rest. rewrite skipn_add. f_equal. lia. }
      rewrite C. cbn [fold_left]. apply IHn; [apply E_ok; auto|lia].
  Qed.
  Lemma bcc_eq key data m : isblock klen key -> bytes_ok data -> length data = m * bs ->
    bcc newc bs key data = Ok (bcc_spec E bs key data) /\ isblock bs (bcc_spec E bs key data).
  Proof.
    intros Hk Hd L. unfold bcc. destruct (Nat.eqb_spec bs 0); [lia|]. rewrite L, Nat.div_mul by lia.
    apply (@bcc_loop_eq key data Hk Hd m 0 (zeros bs)); auto. split; [apply repeat_length|apply bok_zeros].
  Qed.

  (** *** counters *)
  Lemma plus_block V i : isblock bs (plus bs V i). Proof. split; [apply be_bytes_length|apply be_bytes_ok]. Qed.
  Lemma add1_plus v : length v = bs -> drbg_add1 v bs = plus bs v 1.
  Proof. intros L. rewrite drbg_add1_spec by lia. rewrite firstn_all2, skipn_all2, app_nil_r by lia. reflexivity. Qed.
  Lemma plus_plus V i j : plus bs (plus bs V i) j = plus bs V (i + j).
  Proof.
    unfold plus. rewrite be_val_bytes. rewrite <- (be_bytes_mod bs (be_val V + _)), <- (be_bytes_mod bs (_ + Z.of_nat j)).
    rewrite Z.add_mod_idemp_l by (apply Z.pow_nonzero; lia). do 2 f_equal. lia.
  Qed.
  Lemma plus_0 V : isblock bs V -> plus bs V 0 = V.
  Proof. intros [L O]. unfold plus. rewrite Z.add_0_r. apply be_bytes_val; auto. Qed.
  Lemma add1_step V i : drbg_add1 (plus bs V i) bs = plus bs V (S i).
  Proof. rewrite add1_plus by apply plus_block. rewrite plus_plus. f_equal. lia. Qed.

  (** *** update *)
  Notation blk k V := (fun i => E k (plus bs V i)).
  Lemma blk_block k V i : isblock klen k -> isblock bs (blk k V i).
  Proof. intros. apply E_ok; auto. apply plus_block. Qed.
  Lemma upd_loop_eq k V : isblock klen k -> forall n i a r, n = cdiv (length r) bs -> length a = i * bs ->
    upd_loop_c newc n i bs k (plus bs V i) (a ++ r) = Ok (a ++ stream (blk k V) bs (S i) (length r)).
  Proof.
    intros Hk. induction n; intros i a r Hn La.
    - destruct r; [cbn [upd_loop_c length]; rewrite stream_0; reflexivity|]. rewrite cdiv_step in Hn by (cbn; lia). discriminate.
    - assert (0 < length r) as Pr. { destruct r; [cbn in Hn; rewrite cdiv_0 in Hn by lia; discriminate|cbn; lia]. }
      cbn [upd_loop_c]. rewrite add1_step, enc_eq by (auto; apply plus_block). cbn [rbind].
      pose proof (@blk_block k V (S i) Hk) as [Lo Oo].
      rewrite <- La. rewrite firstn_app, Nat.sub_diag, firstn_O, app_nil_r, firstn_all. rewrite skipn_app, Nat.sub_diag, skipn_all. cbn [app skipn].
      unfold gocopy. rewrite Lo. rewrite (stream_step (f := blk k V)) by (auto; lia).
      rewrite cdiv_step in Hn by lia. injection Hn as Hn.
      assert (Fm : firstn (length r) (E k (plus bs V (S i))) = firstn (Nat.min (length r) bs) (E k (plus bs V (S i)))).
      { destruct (le_lt_dec (length r) bs); [rewrite Nat.min_l by lia; reflexivity|]. rewrite Nat.min_r by lia. rewrite !firstn_all2 by lia. reflexivity. }
      destruct (le_lt_dec (length r) bs) as [Q|Q].
      + rewrite skipn_all2 by lia. rewrite Nat.min_l in * by lia. rewrite Nat.sub_diag in *. rewrite cdiv_0 in Hn by lia. subst n.
        cbn [upd_loop_c]. rewrite stream_0. reflexivity.
      + rewrite Nat.min_r in * by lia. rewrite app_assoc. rewrite Fm.
        rewrite IHn.
        * rewrite skipn_length, <- app_assoc. reflexivity.
        * rewrite skipn_length. auto.
        * rewrite app_length, firstn_length, Lo. cbn. lia.
  Qed.
  Lemma stream_blk k V n : isblock klen k -> isblock n (stream (blk k V) bs 1 n).
  Proof. intros Hk. split; [apply stream_len; [lia|]|apply stream_ok]; intros j; apply blk_block; auto. Qed.
  Lemma c_update_eq k v d : isblock klen k -> isblock bs v -> isblock (klen + bs) d ->
    c_update newc klen k v d = Ok (ctr_update E bs klen (k, v) d) /\
    isblock klen (fst (ctr_update E bs klen (k, v) d)) /\ isblock bs (snd (ctr_update E bs klen (k, v) d)).
  Proof.
    intros Hk Hv Hd. unfold c_update, ctr_update. cbn [fst snd]. rewrite (proj1 Hv). destruct (Nat.eqb_spec bs 0); [lia|].
    rewrite <- (plus_0 Hv) at 1. pose proof (@upd_loop_eq k v Hk (cdiv (klen + bs) bs) 0 [] (zeros (klen + bs))) as U.
    unfold zeros in U at 1 3. rewrite repeat_length in U. cbn [app] in U. change ((klen + bs + bs - 1) / bs) with (cdiv (klen + bs) bs). rewrite U by auto. cbn [rbind].
    pose proof (@stream_blk k v (klen + bs) Hk) as [Ls Os]. set (t := stream _ _ _ _) in *.
    assert (X : isblock (klen + bs) (xorl t d)) by (split; [rewrite xorl_length, Ls, (proj1 Hd); lia|apply xorl_ok; [auto|apply Hd]]).
    destruct X as [Lx Ox].
    rewrite (gocopy_full (o := t)) by lia. rewrite firstn_all2 by lia.
    rewrite (gocopy_full (o := k)) by (rewrite (proj1 Hk); lia). rewrite (gocopy_full (o := v)) by (rewrite skipn_length, (proj1 Hv); lia).
    rewrite (proj1 Hk), (proj1 Hv). rewrite (firstn_all2 (skipn klen _)) by (rewrite skipn_length; lia).
    split; [reflexivity|]. split; split; try (apply bok_firstn; auto; fail); try (apply bok_skipn; auto; fail).
    - rewrite firstn_length. lia.
    - rewrite skipn_length. lia.
  Qed.

  (** *** Block_Cipher_df *)
  Lemma key0_eq : map (fun i => to_byte (Z.of_nat i)) (seq 0 klen) = map Z.of_nat (seq 0 klen).
  Proof. apply map_ext_in. intros a Ha. apply in_seq in Ha. unfold to_byte. apply Z.mod_small. lia. Qed.
  Lemma key0_block : isblock klen (map Z.of_nat (seq 0 klen)).
  Proof.
    split; [rewrite map_length, seq_length; auto|]. apply Forall_forall. intros x Hx. apply in_map_iff in Hx. destruct Hx as (a & <- & Ha).
    apply in_seq in Ha. red. lia.
  Qed.
  Lemma df_s_len inp n : exists m, length (df_s (code_pad bs) inp n) = m * bs.
  Proof.
    unfold df_s, code_pad. set (s := _ ++ _ ++ _ ++ _). rewrite app_length, repeat_length. exists (S (length s / bs)).
    pose proof (Nat.div_mod (length s) bs). pose proof (Nat.mod_upper_bound (length s) bs). lia.
  Qed.
  Lemma iter_block k x i : isblock klen k -> isblock bs x -> isblock bs (Nat.iter i (E k) x).
  Proof. intros Hk Hx. induction i; auto. cbn. apply E_ok; auto. Qed.
  Lemma concat_ok (l : list bytes) : Forall bytes_ok l -> bytes_ok (concat l).
  Proof. induction 1; cbn; [constructor|apply bok_app; auto]. Qed.
  Lemma c_df_eq inp n : bytes_ok inp -> c_df newc klen bs inp n = Ok (df_spec E bs klen (code_pad bs) inp n) /\
    isblock n (df_spec E bs klen (code_pad bs) inp n).
  Proof.
    intros Hi. unfold c_df. destruct (Nat.ltb_spec bs 4); [lia|]. rewrite key0_eq.
    set (K0 := map Z.of_nat (seq 0 klen)).
    set (s := (be_bytes 4 (zlen inp) ++ be_bytes 4 (Z.of_nat n) ++ inp ++ [128%Z]) ++ repeat 0%Z _).
    change s with (df_s (code_pad bs) inp n). clear s. set (s := df_s (code_pad bs) inp n).
    destruct (df_s_len inp n) as (m & Lm). fold s in Lm.
    assert (Os : bytes_ok s).
    { unfold s, df_s. apply bok_app; [|apply bok_zeros]. apply bok_app; [apply be_bytes_ok|]. apply bok_app; [apply be_bytes_ok|]. apply bok_app; auto. constructor; [red; lia|constructor]. }
    set (g := fun i => bcc_spec E bs K0 (be_bytes 4 (Z.of_nat i) ++ repeat 0%Z (bs - 4) ++ s)).
    assert (Hg : forall i, bcc newc bs K0 (be_bytes 4 (Z.of_nat i) ++ repeat 0%Z (bs - 4) ++ s) = Ok (g i) /\ isblock bs (g i)).
    { intros i. apply (@bcc_eq K0 _ (S m)); [apply key0_block| |].
      - apply bok_app; [apply be_bytes_ok|]. apply bok_app; [apply bok_zeros|auto].
      - rewrite !app_length, be_bytes_length, repeat_length, Lm. lia. }
    set (N := cdiv (klen + bs) bs).
    assert (HN : N <= klen + bs) by (apply cdiv_le; lia).
    assert (HN' : N <= 257).
    { unfold N. rewrite cdiv_step by lia. rewrite Nat.min_r by lia. replace (klen + bs - bs) with klen by lia. pose proof (@cdiv_le klen bs). lia. }
    rewrite (@grow_spec _ _ Z.of_nat g bs (klen + bs) (klen + bs)); auto; try lia.
    - cbn [rbind snd]. fold N. set (temp := concat (map g (seq 0 N))).
      assert (Lt : length temp = N * bs) by (apply concat_len; [lia|]; intros; apply Hg).
      assert (Ot : bytes_ok temp) by (apply concat_ok, Forall_forall; intros x Hx; apply in_map_iff in Hx; destruct Hx as (i & <- & _); apply Hg).
      assert (LN : klen + bs <= N * bs) by (apply cdiv_spec; lia).
      rewrite gocopy_full by (unfold zeros; rewrite repeat_length; lia).
      rewrite gocopy_full by (unfold zeros; rewrite repeat_length, skipn_length; lia).
      unfold zeros. rewrite !repeat_length. set (K := firstn klen temp). set (X := firstn bs (skipn klen temp)).
      assert (HK : isblock klen K) by (split; [unfold K; rewrite firstn_length; lia|apply bok_firstn; auto]).
      assert (HX : isblock bs X) by (split; [unfold X; rewrite firstn_length, skipn_length; lia|apply bok_firstn, bok_skipn; auto]).
      rewrite (@grow_spec _ _ (fun i => Nat.iter i (E K) X) (fun i => Nat.iter (S i) (E K) X) bs n n); auto; try lia.
      + cbn [rbind snd]. unfold df_spec. fold K0. fold s. fold N.
        change (concat (map (fun i => bcc_spec E bs K0 (be_bytes 4 (Z.of_nat i) ++ repeat 0%Z (bs - 4) ++ s)) (seq 0 N))) with temp.
        fold K X. rewrite <- (stream_shift (fun i => Nat.iter i (E K) X)). split; [reflexivity|].
        split; [apply stream_len; [lia|]|apply stream_ok]; intros j; apply iter_block; auto.
      + intros i _. rewrite enc_eq by (auto; apply iter_block; auto). reflexivity.
      + intros i _. apply iter_block; auto.
    - intros i Li. fold N in Li. rewrite splice0_full by (rewrite be_bytes_length; unfold zeros; rewrite repeat_length; lia).
      rewrite be_bytes_length.
      replace (skipn 4 (zeros bs)) with (repeat 0%Z (bs - 4))
        by (unfold zeros; replace bs with (4 + (bs - 4)) at 2 by lia; rewrite repeat_app; reflexivity).
      rewrite <- app_assoc, (proj1 (Hg i)). cbn [rbind]. do 2 f_equal. rewrite Z.mod_small; lia.
    - intros i _. apply Hg.
  Qed.

  (** *** the generator *)
  Notation upd_s := (ctr_update E bs klen).
  Notation dfs := (fun i => df_spec E bs klen (code_pad bs) i (klen + bs)).
  Definition crel (s : cst) (t : cstate) (n : Z) : Prop :=
    t = (ck s, cv s) /\ isblock klen (ck s) /\ isblock bs (cv s) /\ cctr s = n /\ (1 <= n <= 2 ^ 48 + 1)%Z.
  Lemma zeros_block n : isblock n (zeros n). Proof. split; [apply repeat_length|apply bok_zeros]. Qed.
  Lemma c_generate_rel s t n o a : bytes_ok a -> crel s t n ->
    let sg := ctr_generate E bs klen (code_pad bs) t n o a in
    if (2 ^ 48 <? n)%Z then c_generate newc klen s o a = Err
    else exists s', c_generate newc klen s o a = Ok (fst sg, s') /\ crel s' (snd sg) (n + 1).
  Proof.
    intros Ha (-> & Hk & Hv & Ct & Rn) sg. unfold c_generate. rewrite Ct, (proj1 Hv). destruct (Z.ltb_spec (2 ^ 48) n); [reflexivity|].
    set (data := match a with [] => repeat 0%Z (klen + bs) | _ => dfs a end).
    set (s1 := match a return cstate with [] => (ck s, cv s) | _ => upd_s (ck s, cv s) data end).
    assert (Q : (if 0 <? length a then
             rbind (c_df newc klen bs a (klen + bs)) (fun a =>
             rbind (c_update newc klen (ck s) (cv s) a) (fun kv => Ok (a, kv)))
           else Ok (zeros (klen + bs), (ck s, cv s))) = Ok (data, s1) /\ isblock (klen + bs) data /\ isblock klen (fst s1) /\ isblock bs (snd s1)).
    { destruct a as [|a0 a].
      - unfold data, s1. cbn [length fst snd]. split; [reflexivity|]. split; [apply zeros_block|auto].
      - cbn [length]. destruct (Nat.ltb_spec 0 (S (length a))); [|lia].
        destruct (@c_df_eq (a0 :: a) (klen + bs) Ha) as [-> B1]. cbn [rbind].
        destruct (@c_update_eq _ _ _ Hk Hv B1) as (-> & B2 & B3). cbn [rbind]. auto. }
    destruct Q as (-> & Hd & Hk1 & Hv1). cbn [rbind].
    assert (Esg : sg = (stream (fun i => E (fst s1) (plus bs (snd s1) i)) bs 1 (length o), upd_s (fst s1, plus bs (snd s1) (cdiv (length o) bs)) data))
      by reflexivity.
    clearbody sg. clearbody s1 data. destruct s1 as [k v]. cbn [fst snd] in *.
    pose proof (@grow_spec _ (fun v0 => rbind (c_encrypt newc k (drbg_add1 v0 bs)) (fun o0 => Ok (drbg_add1 v0 bs, o0)))
      (plus bs v) (fun i => E k (plus bs v (S i))) bs (length o) (length o)) as G.
    rewrite plus_0 in G by auto. rewrite G; auto; try lia.
    - cbn [rbind fst snd].
      destruct (@c_update_eq k (plus bs v (cdiv (length o) bs)) data Hk1 (plus_block _ _) Hd) as (-> & B2 & B3). cbn [rbind fst snd].
      eexists. split.
      + f_equal. f_equal. rewrite Esg. cbn [fst]. rewrite stream_shift. apply gocopy_full.
        rewrite (@concat_len _ bs) by (try lia; intros; apply E_ok; auto using plus_block). pose proof (@cdiv_spec (length o) bs). lia.
      + unfold crel. cbn [ck cv cctr]. rewrite Esg. cbn [snd]. rewrite <- surjective_pairing.
        split; [reflexivity|]. split; [auto|]. split; [auto|]. rewrite Z.mod_small; lia.
    - intros i _. rewrite add1_step, enc_eq by (auto; apply plus_block). reflexivity.
    - intros i _. apply E_ok; auto using plus_block.
  Qed.
  Lemma c_reseed_rel s t n e a : bytes_ok e -> bytes_ok a -> crel s t n ->
    if good_reseedb e a then exists s', c_reseed newc klen s e a = Ok s' /\ crel s' (ctr_reseed E bs klen (code_pad bs) t e a) 1
    else c_reseed newc klen s e a = Err.
  Proof.
    intros He Ha (-> & Hk & Hv & Ct & Rn). unfold c_reseed. rewrite reseed_ok_good. destruct (good_reseedb e a); auto.
    rewrite (proj1 Hv). destruct (@c_df_eq (e ++ a) (klen + bs) (bok_app He Ha)) as [-> B1]. cbn [rbind].
    destruct (@c_update_eq _ _ _ Hk Hv B1) as (-> & B2 & B3). cbn [rbind]. eexists. split; [reflexivity|].
    unfold crel, ctr_reseed. cbn [ck cv cctr]. rewrite <- surjective_pairing. split; auto. split; auto. split; auto. lia.
  Qed.
  Lemma c_new_rel e n p : bytes_ok e -> bytes_ok n -> bytes_ok p ->
    if new_ok e n p then exists s, c_new newc klen e n p = Ok s /\ crel s (ctr_instantiate E bs klen (code_pad bs) e n p) 1
    else c_new newc klen e n p = Err.
  Proof.
    intros He Hn Hp. unfold c_new. destruct (new_ok e n p); auto.
    destruct (newc_ok (zeros_block klen)) as (c & -> & Hb & _). cbn [rbind]. rewrite Hb.
    destruct (@c_df_eq (e ++ n ++ p) (klen + bs)) as [-> B1]; [repeat apply bok_app; auto|]. cbn [rbind].
    destruct (@c_update_eq _ _ _ (zeros_block klen) (zeros_block bs) B1) as (-> & B2 & B3). cbn [rbind]. eexists. split; [reflexivity|].
    unfold crel, ctr_instantiate. cbn [ck cv cctr]. rewrite <- surjective_pairing. split; auto. split; auto. split; auto. lia.
  Qed.
End Ctr.

(** ** padding as in the standard *)
Section Pad.
  Variable E : bytes -> bytes -> bytes.
  Variables (bs klen : nat).
  Hypothesis bs4 : 4 <= bs.
  Definition off9 (inp : bytes) : Prop := (length inp + 9) mod bs <> 0.
  Lemma df_pad inp n : off9 inp -> df_spec E bs klen (code_pad bs) inp n = df_spec E bs klen (nist_pad bs) inp n.
  Proof.
    intros Hp. assert (df_s (code_pad bs) inp n = df_s (nist_pad bs) inp n) as Q.
    { unfold df_s. do 2 f_equal. rewrite !app_length, !be_bytes_length. cbn [length]. unfold code_pad, nist_pad.
      replace (4 + (4 + (length inp + 1))) with (length inp + 9) by lia. red in Hp.
      pose proof (Nat.mod_upper_bound (length inp + 9) bs). symmetry. apply Nat.mod_small. lia. }
    unfold df_spec. rewrite Q. reflexivity.
  Qed.
  Lemma srun_pad ops : forall s n, Forall off9 (df_inputs ops) ->
    srun (ctr_reseed E bs klen (code_pad bs)) (ctr_generate E bs klen (code_pad bs)) s n ops =
    srun (ctr_reseed E bs klen (nist_pad bs)) (ctr_generate E bs klen (nist_pad bs)) s n ops.
  Proof.
    induction ops as [|[e a|o a] ops IH]; intros s n Hp; auto.
    - unfold df_inputs in Hp. cbn [map concat] in Hp. apply Forall_app in Hp. destruct Hp as [H1 H2]. cbn [srun].
      inversion H1; subst. assert (ctr_reseed E bs klen (code_pad bs) s e a = ctr_reseed E bs klen (nist_pad bs) s e a) as -> by (unfold ctr_reseed; rewrite df_pad by auto; reflexivity).
      destruct (good_reseedb e a); f_equal; apply IH; auto.
    - unfold df_inputs in Hp. cbn [map concat] in Hp. apply Forall_app in Hp. destruct Hp as [H1 H2]. cbn [srun].
      destruct (2 ^ 48 <? n)%Z; [f_equal; apply IH; auto|].
      assert (ctr_generate E bs klen (code_pad bs) s n o a = ctr_generate E bs klen (nist_pad bs) s n o a) as ->.
      { unfold ctr_generate. destruct a; auto. inversion H1; subst. rewrite df_pad by auto. reflexivity. }
      destruct (ctr_generate _ _ _ _ _ _ _ _) as [o' s']. f_equal. apply IH; auto.
  Qed.
End Pad.

(** ** counters over histories *)
Section Count.
  Variable St : Type.
  Variable reseed : St -> bytes -> bytes -> St.
  Variable generate : St -> Z -> bytes -> bytes -> bytes * St.
  Lemma srun_count o a post : forall pre s k, 
    nth (length pre) (srun reseed generate s (Z.min (Z.of_nat k + 1) (2 ^ 48 + 1)) (pre ++ Generate o a :: post)) (Some []) = None <->
    (2 ^ 48 <= Z.of_nat (since k pre))%Z.
  Proof.
    induction pre as [|[e b|o' b] pre IH]; intros s k.
    - cbn [length app srun since nth]. destruct (Z.ltb_spec (2 ^ 48) (Z.min (Z.of_nat k + 1) (2 ^ 48 + 1))).
      + cbn [nth]. split; auto. lia.
      + destruct (generate s _ o a). cbn [nth]. split; [discriminate|lia].
    - cbn [length app srun since]. destruct (good_reseedb e b); cbn [nth].
      + apply (IH _ 0).
      + apply IH.
    - cbn [length app srun since].
      assert (Q : forall s', nth (length pre) (srun reseed generate s' (Z.min (Z.of_nat (S k) + 1) (2 ^ 48 + 1)) (pre ++ Generate o a :: post)) (Some []) = None <->
        (2 ^ 48 <= Z.of_nat (since (S k) pre))%Z) by (intros; apply IH).
      destruct (Z.ltb_spec (2 ^ 48) (Z.min (Z.of_nat k + 1) (2 ^ 48 + 1))).
      + cbn [nth]. specialize (Q s). replace (Z.min (Z.of_nat (S k) + 1) (2 ^ 48 + 1)) with (Z.min (Z.of_nat k + 1) (2 ^ 48 + 1))%Z in Q by lia. apply Q.
      + destruct (generate s _ o' b) as [o2 s2]. cbn [nth]. specialize (Q s2).
        replace (Z.min (Z.of_nat (S k) + 1) (2 ^ 48 + 1)) with (Z.min (Z.of_nat k + 1) (2 ^ 48 + 1) + 1)%Z in Q by lia. apply Q.
  Qed.
End Count.
