(** Lemmas about the block-mode model. *)
From Verif Require Import Base BlockModeModel BlockModeSpec.
Set Implicit Arguments.

Lemma isblock_xorl n a b : isblock n a -> isblock n b -> isblock n (xorl a b).
Proof.
  intros [H1 H2] [H3 H4]. split; [rewrite xorl_length; lia|now apply xorl_ok].
Qed.

Lemma aligned_mul bs s : 0 < bs -> aligned bs s <-> exists k, length s = k * bs.
Proof.
  intro H. unfold aligned. split.
  - intro Ha. exists (length s / bs). pose proof (Nat.div_mod (length s) bs). lia.
  - intros [k ->]. apply Nat.mod_mul. lia.
Qed.

Lemma chunks_app_aligned {A} n (a b : list A) k :
  0 < n -> length a = k * n -> chunks n (a ++ b) = chunks n a ++ chunks n b.
Proof.
  intro Hn. revert a; induction k as [|k IH]; intros a Ha.
  - destruct a; cbn in Ha; [reflexivity|lia].
  - rewrite <- (firstn_skipn n a) at 1 2.
    assert (length (firstn n a) = n) by (rewrite firstn_length; lia).
    rewrite <- app_assoc, chunks_app_block by auto.
    rewrite (chunks_app_block (n:=n) (firstn n a) (skipn n a)) by auto.
    rewrite IH; [reflexivity|]. rewrite skipn_length. lia.
Qed.

Lemma chunks_isblock bs s :
  0 < bs -> input_ok bs s -> Forall (isblock bs) (chunks bs s).
Proof.
  intros Hb [Hok Ha]. apply aligned_mul in Ha as [k Hk]; auto.
  revert s Hok Hk; induction k as [|k IH]; intros s Hok Hk.
  - destruct s; cbn in Hk; [constructor|lia].
  - assert (s <> []) by (destruct s; cbn in *; [lia|congruence]).
    rewrite chunks_cons by auto. constructor.
    + split; [rewrite firstn_length; lia|now apply bytes_ok_firstn].
    + apply IH; [now apply bytes_ok_skipn|]. rewrite skipn_length. lia.
Qed.

Lemma concat_isblock bs (l : list bytes) :
  0 < bs -> Forall (isblock bs) l -> input_ok bs (concat l) /\ chunks bs (concat l) = l.
Proof.
  intros Hb H. assert (all_len bs l).
  { eapply Forall_impl; [|exact H]. intros ? [? ?]; auto. }
  split; [|now apply chunks_of_concat]. split.
  - unfold bytes_ok. clear H0. induction H as [|x l [? Hx] ? IH]; cbn; [constructor|].
    apply Forall_app. auto.
  - unfold aligned. rewrite (concat_all_len H0). apply Nat.mod_mul. lia.
Qed.

Section generic.
  Variable S : Type.
  Variable step : S -> bytes -> res (S * bytes).
  Variable bs : nat.
  Hypothesis bs_pos : 0 < bs.

  Lemma block_loop_app st a b :
    block_loop step st (a ++ b) =
    rbind (block_loop step st a) (fun '(s1, o1) =>
    rbind (block_loop step s1 b) (fun '(s2, o2) => Ok (s2, o1 ++ o2))).
  Proof.
    revert st; induction a as [|x a IH]; intro st; cbn [app block_loop rbind].
    - destruct (block_loop step st b) as [[]| |]; reflexivity.
    - destruct (step st x) as [[s1 o]| |]; cbn [rbind]; auto.
      rewrite IH. destruct (block_loop step s1 a) as [[s2 os]| |]; cbn [rbind]; auto.
      destruct (block_loop step s2 b) as [[]| |]; cbn [rbind]; auto.
  Qed.

  Lemma crypt_blocks_aligned st src :
    aligned bs src ->
    crypt_blocks step bs st (length src) src =
    rbind (block_loop step st (chunks bs src)) (fun '(st', os) => Ok (st', concat os)).
  Proof.
    intro H. unfold crypt_blocks, aligned in *. rewrite H. cbn [Nat.eqb negb].
    rewrite Nat.ltb_irrefl. reflexivity.
  Qed.

  (** Splitting the input over calls does not change the output. *)
  Lemma run_calls_concat st srcs :
    Forall (aligned bs) srcs ->
    rbind (run_calls (fun s x => crypt_blocks step bs s (length x) x) st srcs)
          (fun '(st', os) => Ok (st', concat os)) =
    rbind (block_loop step st (chunks bs (concat srcs)))
          (fun '(st', os) => Ok (st', concat os)).
  Proof.
    intro H. revert st; induction H as [|s srcs Hs H IH]; intro st; [reflexivity|].
    cbn [concat run_calls]. rewrite crypt_blocks_aligned by auto.
    apply aligned_mul in Hs as [k Hk]; auto.
    rewrite (chunks_app_aligned _ _ k) by auto.
    rewrite block_loop_app.
    destruct (block_loop step st (chunks bs s)) as [[s1 o1]| |]; cbn [rbind]; auto.
    specialize (IH s1).
    destruct (run_calls _ s1 srcs) as [[s2 o2]| |]; cbn [rbind] in *;
    destruct (block_loop step s1 (chunks bs (concat srcs))) as [[s3 o3]| |];
      cbn [rbind] in *; try discriminate; auto.
    injection IH as -> E. cbn [concat]. now rewrite concat_app, E.
  Qed.
End generic.

Section roundtrip.
  Variables Se Sd : Type.
  Variable estep : Se -> bytes -> res (Se * bytes).
  Variable dstep : Sd -> bytes -> res (Sd * bytes).
  Variable bs : nat.
  Variable R : Se -> Sd -> Prop.
  Hypothesis bs_pos : 0 < bs.
  Hypothesis one : forall se sd m, R se sd -> isblock bs m ->
    exists se' c sd', estep se m = Ok (se', c) /\ isblock bs c /\
                      dstep sd c = Ok (sd', m) /\ R se' sd'.

  Lemma loop_roundtrip se sd ms :
    R se sd -> Forall (isblock bs) ms ->
    exists se' cs sd', block_loop estep se ms = Ok (se', cs) /\
      Forall (isblock bs) cs /\ length cs = length ms /\
      block_loop dstep sd cs = Ok (sd', ms) /\ R se' sd'.
  Proof.
    intros HR H. revert se sd HR; induction H as [|m ms Hm H IH]; intros se sd HR.
    - exists se, [], sd. cbn. auto.
    - destruct (one HR Hm) as (se1 & c & sd1 & E1 & Hc & D1 & HR1).
      destruct (IH _ _ HR1) as (se2 & cs & sd2 & E2 & Hcs & HL & D2 & HR2).
      exists se2, (c :: cs), sd2. cbn [block_loop].
      rewrite E1. cbn [rbind]. rewrite E2. cbn [rbind].
      rewrite D1. cbn [rbind]. rewrite D2. cbn [rbind length].
      repeat split; auto.
  Qed.

  (** Any message, split in any way for encryption and in any other way for
      decryption. *)
  Lemma calls_roundtrip se sd srcs :
    R se sd -> Forall (input_ok bs) srcs ->
    exists se' outs,
      run_calls (fun s x => crypt_blocks estep bs s (length x) x) se srcs = Ok (se', outs) /\
      length (concat outs) = length (concat srcs) /\ bytes_ok (concat outs) /\
      forall cts, Forall (aligned bs) cts -> concat cts = concat outs ->
      exists sd' ps,
        run_calls (fun s x => crypt_blocks dstep bs s (length x) x) sd cts = Ok (sd', ps) /\
        concat ps = concat srcs.
  Proof.
    intros HR H.
    assert (Ha : Forall (aligned bs) srcs).
    { eapply Forall_impl; [|exact H]. intros ? [? ?]; auto. }
    assert (Hc : input_ok bs (concat srcs)).
    { split.
      - unfold bytes_ok. clear Ha. induction H as [|x l [Hx _] ? IH]; cbn; [constructor|].
        apply Forall_app. auto.
      - clear H HR. unfold aligned. induction Ha as [|x l Hx ? IH]; cbn; [apply Nat.mod_0_l; lia|].
        unfold aligned in Hx. rewrite app_length.
        rewrite Nat.add_mod, Hx, IH by lia. apply Nat.mod_0_l. lia. }
    pose proof (run_calls_concat estep bs_pos se Ha) as Q.
    destruct (loop_roundtrip HR (chunks_isblock bs_pos Hc))
      as (se' & cs & sd' & E & Hcs & HL & D & HR').
    rewrite E in Q. cbn [rbind] in Q.
    destruct (run_calls _ se srcs) as [[s1 outs]| |]; cbn [rbind] in Q; try discriminate.
    injection Q as -> Q. exists se', outs. split; [reflexivity|].
    destruct (concat_isblock bs_pos Hcs) as [Hin Hch].
    split; [|split].
    - rewrite Q. rewrite <- (chunks_concat (n:=bs) (concat srcs)) by auto.
      assert (all_len bs cs) by (eapply Forall_impl; [|exact Hcs]; intros ? [? ?]; auto).
      assert (all_len bs (chunks bs (concat srcs))).
      { eapply Forall_impl; [|apply (chunks_isblock bs_pos Hc)]. intros ? [? ?]; auto. }
      rewrite (concat_all_len H0), (concat_all_len H1). lia.
    - rewrite Q. apply Hin.
    - intros cts Hcts Ect. pose proof (run_calls_concat dstep bs_pos sd Hcts) as Q2.
      rewrite Ect, Q, Hch, D in Q2. cbn [rbind] in Q2.
      rewrite chunks_concat in Q2 by auto.
      destruct (run_calls _ sd cts) as [[s2 ps]| |]; cbn [rbind] in Q2; try discriminate.
      injection Q2 as -> Q2. eauto.
  Qed.
End roundtrip.

Section modes.
  Variable c : cipher.
  Hypothesis HL : lawful c.
  Let bs := bsz c.

  Lemma ecb_one (se sd : unit) m : True -> isblock bs m ->
    exists se' x sd', ecb_enc_step c se m = Ok (se', x) /\ isblock bs x /\
      ecb_dec_step c sd x = Ok (sd', m) /\ True.
  Proof.
    intros _ Hm. exists se, (enc c m), sd. unfold ecb_enc_step, ecb_dec_step.
    rewrite (law_inv HL Hm). repeat split; try apply (law_enc HL Hm).
  Qed.

  Lemma bc_one (ivs ivd : bytes) m : (ivs = ivd /\ isblock bs ivs) -> isblock bs m ->
    exists se' x sd', bc_enc_step c ivs m = Ok (se', x) /\ isblock bs x /\
      bc_dec_step c ivd x = Ok (sd', m) /\ (se' = sd' /\ isblock bs se').
  Proof.
    intros [<- Hiv] Hm. unfold bc_enc_step, bc_dec_step.
    assert (Hx : isblock bs (xorl m ivs)) by now apply isblock_xorl.
    pose proof (law_enc HL Hx) as Hc.
    eexists _, _, _. split; [reflexivity|]. split; [exact Hc|].
    rewrite (law_inv HL Hx).
    rewrite xorl_cancel_r by (destruct Hm, Hiv; lia).
    split; [reflexivity|]. split; [reflexivity|]. now apply isblock_xorl.
  Qed.

  Lemma pcbc_one (ivs ivd : bytes) m : (ivs = ivd /\ isblock bs ivs) -> isblock bs m ->
    exists se' x sd', pcbc_enc_step c false ivs m = Ok (se', x) /\ isblock bs x /\
      pcbc_dec_step c false ivd x = Ok (sd', m) /\ (se' = sd' /\ isblock bs se').
  Proof.
    intros [<- Hiv] Hm. unfold pcbc_enc_step, pcbc_dec_step, reread.
    assert (Hx : isblock bs (xorl m ivs)) by now apply isblock_xorl.
    pose proof (law_enc HL Hx) as Hc.
    eexists _, _, _. split; [reflexivity|]. split; [exact Hc|].
    rewrite (law_inv HL Hx).
    rewrite xorl_cancel_r by (destruct Hm, Hiv; lia).
    split; [reflexivity|]. split; [reflexivity|]. now apply isblock_xorl.
  Qed.

  (** IGE: the decrypter's loop runs on swapped registers. *)
  Definition ige_R (se sd : ige_state) : Prop :=
    sd = (snd se, fst se) /\ isblock bs (fst se) /\ isblock bs (snd se).
  Lemma ige_one se sd m : ige_R se sd -> isblock bs m ->
    exists se' x sd', ige_step (enc c) se m = Ok (se', x) /\ isblock bs x /\
      ige_step (dec c) sd x = Ok (sd', m) /\ ige_R se' sd'.
  Proof.
    destruct se as [lc lp]. unfold ige_R. cbn [fst snd]. intros (-> & Hc & Hp) Hm.
    unfold ige_step.
    assert (Hx : isblock bs (xorl lc m)) by now apply isblock_xorl.
    pose proof (law_enc HL Hx) as He.
    assert (Ho : isblock bs (xorl (enc c (xorl lc m)) lp)) by now apply isblock_xorl.
    eexists _, _, _. split; [reflexivity|]. split; [exact Ho|].
    assert (E1 : xorl lp (xorl (enc c (xorl lc m)) lp) = enc c (xorl lc m)).
    { rewrite xorl_comm. apply xorl_cancel_r. destruct He, Hp; lia. }
    rewrite E1, (law_inv HL Hx).
    assert (E2 : xorl (xorl lc m) lc = m).
    { rewrite (xorl_comm lc m). apply xorl_cancel_r. destruct Hm, Hc; lia. }
    rewrite E2. split; [reflexivity|]. cbn [fst snd]. auto.
  Qed.

  Lemma ofbnlf_one newKey (ivs ivd : bytes) m :
    (forall k, isblock bs k -> exists c', newKey k = Some c' /\ lawful c' /\ bsz c' = bs) ->
    (ivs = ivd /\ isblock bs ivs) -> isblock bs m ->
    exists se' x sd', ofbnlf_enc_step c newKey ivs m = Ok (se', x) /\ isblock bs x /\
      ofbnlf_dec_step c newKey ivd x = Ok (sd', m) /\ (se' = sd' /\ isblock bs se').
  Proof.
    intros HK [<- Hiv] Hm. unfold ofbnlf_enc_step, ofbnlf_dec_step.
    pose proof (law_enc HL Hiv) as Hk.
    destruct (HK _ Hk) as (c' & -> & HL' & Hb).
    rewrite <- Hb in Hm. pose proof (law_enc HL' Hm) as Hc.
    eexists _, _, _. split; [reflexivity|]. split; [rewrite <- Hb; exact Hc|].
    rewrite (law_inv HL' Hm). auto.
  Qed.
End modes.

(** Recurrences: what each mode computes, block by block. *)
Section recurrences.
  Variable c : cipher.

  Lemma bc_recurrence ps : forall iv st cs,
    block_loop (bc_enc_step c) iv ps = Ok (st, cs) ->
    length cs = length ps /\
    forall i, i < length ps ->
      nth i cs [] = enc c (xorl (nth i ps []) (fold_left xorl (firstn i cs) iv)).
  Proof.
    induction ps as [|p ps IH]; intros iv st cs E; cbn in E.
    - injection E as <- <-. split; [reflexivity|]. cbn. lia.
    - destruct (block_loop _ _ ps) as [[s2 os]| |] eqn:E2; cbn [rbind] in E; try discriminate.
      injection E as <- <-. destruct (IH _ _ _ E2) as [H1 H2].
      split; [cbn; lia|]. intros [|i] Hi; [reflexivity|].
      cbn [nth length] in *. rewrite H2 by lia. reflexivity.
  Qed.

  Lemma pcbc_recurrence ps : forall iv st cs,
    block_loop (pcbc_enc_step c false) iv ps = Ok (st, cs) ->
    length cs = length ps /\
    forall i, i < length ps ->
      nth i cs [] =
      enc c (xorl (nth i ps [])
               (match i with O => iv | S j => xorl (nth j ps []) (nth j cs []) end)).
  Proof.
    induction ps as [|p ps IH]; intros iv st cs E; cbn in E.
    - injection E as <- <-. split; [reflexivity|]. cbn. lia.
    - destruct (block_loop _ _ ps) as [[s2 os]| |] eqn:E2; cbn [rbind] in E; try discriminate.
      injection E as <- <-. destruct (IH _ _ _ E2) as [H1 H2].
      split; [cbn; lia|]. intros [|i] Hi; [reflexivity|].
      cbn [nth length] in *. rewrite H2 by lia. destruct i; reflexivity.
  Qed.

  Lemma ige_recurrence ps : forall lc lp st cs,
    block_loop (ige_step (enc c)) (lc, lp) ps = Ok (st, cs) ->
    length cs = length ps /\
    forall i, i < length ps ->
      nth i cs [] =
      xorl (enc c (xorl (match i with O => lc | S j => nth j cs [] end) (nth i ps [])))
           (match i with O => lp | S j => nth j ps [] end).
  Proof.
    induction ps as [|p ps IH]; intros lc lp st cs E; cbn in E.
    - injection E as <- <-. split; [reflexivity|]. cbn. lia.
    - destruct (block_loop _ _ ps) as [[s2 os]| |] eqn:E2; cbn [rbind] in E; try discriminate.
      injection E as <- <-. destruct (IH _ _ _ _ E2) as [H1 H2].
      split; [cbn; lia|]. intros [|i] Hi; [reflexivity|].
      cbn [nth length] in *. rewrite H2 by lia. destruct i; reflexivity.
  Qed.

  Lemma ofbnlf_recurrence newKey ps : forall iv st cs,
    block_loop (ofbnlf_enc_step c newKey) iv ps = Ok (st, cs) ->
    length cs = length ps /\
    forall i, i < length ps -> exists k, newKey (Nat.iter (S i) (enc c) iv) = Some k /\
      nth i cs [] = enc k (nth i ps []).
  Proof.
    induction ps as [|p ps IH]; intros iv st cs E; cbn [block_loop rbind] in E.
    - injection E as <- <-. split; [reflexivity|]. cbn. lia.
    - unfold ofbnlf_enc_step at 1 in E.
      destruct (newKey (enc c iv)) as [k|] eqn:Ek; cbn [rbind] in E; [|discriminate].
      destruct (block_loop _ _ ps) as [[s2 os]| |] eqn:E2; cbn [rbind] in E; try discriminate.
      injection E as <- <-. destruct (IH _ _ _ E2) as [H1 H2].
      split; [cbn; lia|]. intros [|i] Hi.
      + exists k. split; [exact Ek|reflexivity].
      + cbn [nth length] in *. destruct (H2 i ltac:(lia)) as (k' & Hk' & Hn).
        exists k'. split; [|exact Hn].
        rewrite <- Hk'. f_equal. clear. generalize (S i) as n. intro n.
        change (Nat.iter (S n) (enc c) iv = Nat.iter n (enc c) (enc c iv)).
        induction n; cbn [Nat.iter nat_rect]; [reflexivity|].
        unfold Nat.iter in *. cbn [nat_rect]. now rewrite <- IHn.
  Qed.
End recurrences.

(** Slices of spliced lists *)
Lemma firstn_splice {A} n o (d l : list A) : n <= o -> o <= length l ->
  firstn n (splice o d l) = firstn n l.
Proof.
  intros H1 H2. unfold splice. rewrite firstn_app, firstn_firstn, firstn_length.
  replace (n - Nat.min o (length l)) with 0 by lia.
  cbn [firstn]. rewrite app_nil_r. f_equal. lia.
Qed.

Lemma skipn_splice {A} n o (d l : list A) : o + length d <= n -> o + length d <= length l ->
  skipn n (splice o d l) = skipn n l.
Proof.
  intros H1 H2. unfold splice. rewrite app_assoc, skipn_app.
  rewrite skipn_all2 by (rewrite app_length, firstn_length; lia).
  cbn [app]. rewrite skipn_skipn'. f_equal. rewrite app_length, firstn_length. lia.
Qed.

Lemma slice_splice {A} o (d l : list A) : o + length d <= length l ->
  slice o (length d) (splice o d l) = d.
Proof.
  intro H. unfold slice, splice.
  rewrite skipn_app_exact by (rewrite firstn_length; lia).
  now apply firstn_app_exact.
Qed.

Lemma skipn_splice_at {A} o (d l : list A) : o + length d <= length l ->
  skipn o (splice o d l) = d ++ skipn (o + length d) l.
Proof.
  intro H. unfold splice. apply skipn_app_exact. rewrite firstn_length. lia.
Qed.

Lemma slice_of_firstn {A} o n k (l : list A) : o + n <= k ->
  slice o n (firstn k l) = slice o n l.
Proof.
  intro H. unfold slice. rewrite skipn_firstn_comm, firstn_firstn. f_equal. lia.
Qed.


(** The memory loops refine the per-block functions. *)
Section memory.
  Variable c : cipher.
  Variable inplace : bool.
  Let bs := bsz c.
  Hypothesis bs_pos : 0 < bs.

  Lemma wr_wr m off a b :
    length a = length b -> off + length a <= length (bdst m) ->
    wr_dst inplace (wr_dst inplace m off a) off b = wr_dst inplace m off b.
  Proof.
    intros H1 H2. unfold wr_dst. cbn [bdst bsrc].
    assert (E : splice off b (splice off a (bdst m)) = splice off b (bdst m)).
    { unfold splice at 1. rewrite firstn_splice by lia.
      rewrite skipn_splice by lia. reflexivity. }
    rewrite E. destruct inplace; reflexivity.
  Qed.

  Lemma rd_wr m off a : length a = bs -> off + bs <= length (bdst m) ->
    rd_dst (wr_dst inplace m off a) off bs = a.
  Proof.
    intros H1 H2. unfold rd_dst, wr_dst. cbn [bdst]. rewrite <- H1.
    apply slice_splice. lia.
  Qed.

  Lemma rds_wr m off a : length a = bs -> off + bs <= length (bdst m) ->
    rd_src (wr_dst inplace m off a) off bs = reread inplace (rd_src m off bs) a.
  Proof.
    intros H1 H2. unfold rd_src, wr_dst, reread. cbn [bsrc]. destruct inplace; [|reflexivity].
    rewrite <- H1. apply slice_splice. lia.
  Qed.

  Variable S : Type.
  Variable mstep : S -> buffers -> nat -> res (S * buffers).
  Variable step : S -> bytes -> res (S * bytes).
  (** invariant on the state, and the refinement of one turn *)
  Variable I : S -> Prop.
  Hypothesis turn : forall st m off, I st ->
    off + bs <= length (bdst m) -> off + bs <= length (bsrc m) ->
    isblock bs (rd_src m off bs) ->
    mstep st m off =
    rbind (step st (rd_src m off bs)) (fun '(st', o) => Ok (st', wr_dst inplace m off o)).
  Hypothesis step_len : forall st b st' o, I st -> isblock bs b ->
    step st b = Ok (st', o) -> length o = bs /\ I st'.

  Lemma mem_loop_refines : forall blocks st pre dtail m,
    I st -> Forall (isblock bs) blocks ->
    skipn (length pre) (bsrc m) = concat blocks ++ (if inplace then dtail else []) ->
    length (bdst m) = length pre + length (concat blocks) + length dtail ->
    firstn (length pre) (bdst m) = pre ->
    skipn (length pre + length (concat blocks)) (bdst m) = dtail ->
    (inplace = true -> bsrc m = bdst m) ->
    rbind (mem_loop c mstep (length blocks) (length pre) st m) (fun '(st', m') => Ok (st', bdst m')) =
    rbind (block_loop step st blocks) (fun '(st', os) => Ok (st', pre ++ concat os ++ dtail)).
  Proof.
    induction blocks as [|b blocks IH]; intros st pre dtail m HI Hb Hs Hl Hp Ht Ha.
    - cbn [length mem_loop block_loop rbind concat app] in *.
      rewrite Nat.add_0_r in Ht. rewrite <- Ht, <- Hp at 1. now rewrite firstn_skipn.
    - apply Forall_cons_iff in Hb as [Hb1 Hb2]. cbn [concat length] in *.
      rewrite app_length in *. destruct Hb1 as [HLb Hokb].
      assert (Hrd : rd_src m (length pre) bs = b).
      { unfold rd_src, slice. rewrite Hs, <- app_assoc. now apply firstn_app_exact. }
      assert (Hls : length pre + bs <= length (bsrc m)).
      { apply (f_equal (@length Z)) in Hs. rewrite skipn_length, !app_length in Hs.
        destruct (Nat.le_gt_cases (length pre) (length (bsrc m))); lia. }
      cbn [mem_loop block_loop].
      rewrite turn; try lia; auto; [|rewrite Hrd; split; auto].
      rewrite Hrd. destruct (step st b) as [[st1 o]| |] eqn:E; cbn [rbind]; auto.
      destruct (step_len HI (conj HLb Hokb) E) as [HLo HI1].
      fold bs.
      replace (length pre + bs) with (length (pre ++ o)) by (rewrite app_length; lia).
      rewrite (IH st1 (pre ++ o) dtail); auto.
      + destruct (block_loop step st1 blocks) as [[s2 os]| |]; cbn [rbind]; auto.
        cbn [concat]. now rewrite <- !app_assoc.
      + rewrite app_length, HLo. unfold wr_dst. cbn [bsrc].
        destruct inplace eqn:Ei.
        * rewrite skipn_splice by lia. rewrite <- (Ha eq_refl).
          rewrite <- skipn_skipn', Hs, <- app_assoc. now apply skipn_app_exact.
        * rewrite <- skipn_skipn', Hs, <- app_assoc. now apply skipn_app_exact.
      + unfold wr_dst. cbn [bdst]. rewrite splice_length by lia. rewrite app_length. lia.
      + unfold wr_dst. cbn [bdst]. unfold splice. rewrite Hp, app_assoc.
        now apply firstn_app_exact.
      + unfold wr_dst. cbn [bdst]. rewrite app_length, HLo.
        rewrite skipn_splice by lia. rewrite <- Nat.add_assoc.
        replace (bs + length (concat blocks)) with (length b + length (concat blocks)) by lia.
        exact Ht.
      + intro Ei. unfold wr_dst. cbn [bsrc bdst]. now rewrite Ei.
  Qed.

  Lemma crypt_blocks_mem_refines st dst0 src :
    I st -> input_ok bs src ->
    crypt_blocks_mem c inplace mstep st dst0 src =
    rbind (crypt_blocks step bs st (length (if inplace then src else dst0)) src)
          (fun '(st', o) => Ok (st', o ++ skipn (length src) (if inplace then src else dst0))).
  Proof.
    intros HI Hin. unfold crypt_blocks_mem, crypt_blocks. fold bs.
    destruct Hin as [Hok Hal]. unfold aligned in Hal. rewrite Hal. cbn [Nat.eqb negb].
    set (dst := if inplace then src else dst0).
    destruct (Nat.ltb_spec (length dst) (length src)) as [H|H]; [reflexivity|].
    pose proof (chunks_isblock bs_pos (conj Hok Hal)) as Hch.
    assert (Hal' : exists k, length src = k * bs) by now apply aligned_mul.
    destruct Hal' as [k Hk].
    destruct (chunks_all_len (n:=bs) src k bs_pos Hk) as [_ Hn].
    rewrite Hk at 1. rewrite Nat.div_mul by lia. rewrite <- Hn.
    pose proof (chunks_concat (n:=bs) src bs_pos) as Hcc.
    pose proof (@mem_loop_refines (chunks bs src) st []
                  (skipn (length src) dst) {| bsrc := src; bdst := dst |} HI Hch) as Q.
    cbn [length app bsrc bdst skipn firstn Nat.add] in Q. rewrite Hcc in Q.
    rewrite Q; auto.
    - destruct (block_loop step st (chunks bs src)) as [[s2 os]| |]; reflexivity.
    - destruct inplace; unfold dst; [rewrite skipn_all2 by lia|]; now rewrite app_nil_r.
    - rewrite skipn_length. lia.
    - unfold dst. intros ->. reflexivity.
  Qed.
End memory.

(** Histories of memory calls. *)
Lemma crypt_blocks_dstlen {S} (step : S -> bytes -> res (S * bytes)) bs st n src :
  length src <= n -> crypt_blocks step bs st n src = crypt_blocks step bs st (length src) src.
Proof.
  intro H. unfold crypt_blocks. destruct (negb _); auto.
  rewrite Nat.ltb_irrefl. destruct (Nat.ltb_spec n (length src)); [lia|reflexivity].
Qed.

Section mcalls.
  Variable c : cipher.
  Variable inplace : bool.
  Let bs := bsz c.
  Hypothesis bs_pos : 0 < bs.
  Variable S : Type.
  Variable mstep : S -> buffers -> nat -> res (S * buffers).
  Variable step : S -> bytes -> res (S * bytes).
  Variable I : S -> Prop.
  Hypothesis turn : forall st m off, I st ->
    off + bs <= length (bdst m) -> off + bs <= length (bsrc m) ->
    isblock bs (rd_src m off bs) ->
    mstep st m off =
    rbind (step st (rd_src m off bs)) (fun '(st', o) => Ok (st', wr_dst inplace m off o)).
  Hypothesis step_len : forall st b st' o, I st -> isblock bs b ->
    step st b = Ok (st', o) -> length o = bs /\ I st'.

  Lemma block_loop_I st blocks st' os :
    I st -> Forall (isblock bs) blocks -> block_loop step st blocks = Ok (st', os) ->
    I st' /\ length (concat os) = length (concat blocks).
  Proof.
    intros HI Hb. revert st os HI; induction Hb as [|b bl Hb1 Hb2 IH]; intros st os HI E.
    - cbn in E. injection E as <- <-. auto.
    - cbn [block_loop] in E. destruct (step st b) as [[s1 o]| |] eqn:E1; cbn [rbind] in E;
        try discriminate.
      destruct (block_loop step s1 bl) as [[s2 os2]| |] eqn:E2; cbn [rbind] in E; try discriminate.
      injection E as <- <-. destruct (step_len HI Hb1 E1) as [HLo HI1].
      destruct (IH _ _ HI1 E2). split; auto. cbn [concat]. rewrite !app_length.
      destruct Hb1. lia.
  Qed.

  Lemma mcall_refines st x :
    I st -> call_ok bs x ->
    mcall c inplace mstep st x = crypt_blocks step bs st (length (snd x)) (snd x) /\
    (forall st' o, mcall c inplace mstep st x = Ok (st', o) -> I st').
  Proof.
    intros HI [Hin Hl]. unfold mcall.
    rewrite (@crypt_blocks_mem_refines c inplace bs_pos S mstep step I turn step_len) by auto.
    fold bs. rewrite crypt_blocks_dstlen by (destruct inplace; lia).
    rewrite crypt_blocks_aligned by apply Hin.
    destruct (block_loop step st (chunks bs (snd x))) as [[s1 os]| |] eqn:E; cbn [rbind];
      [|split; [reflexivity|discriminate]..].
    destruct (block_loop_I HI (chunks_isblock bs_pos Hin) E) as [HI1 HL1].
    rewrite chunks_concat in HL1 by auto.
    rewrite firstn_app_exact by auto.
    split; [reflexivity|]. intros st' o H. injection H as <- <-. exact HI1.
  Qed.

  Lemma mcalls_refine calls : forall st,
    I st -> Forall (call_ok bs) calls ->
    run_calls (mcall c inplace mstep) st calls =
    run_calls (fun s x => crypt_blocks step bs s (length x) x) st (map snd calls).
  Proof.
    induction calls as [|x calls IH]; intros st HI H; [reflexivity|].
    apply Forall_cons_iff in H as [Hx H].
    cbn [map run_calls]. destruct (mcall_refines HI Hx) as [E HI2].
    rewrite E in HI2. rewrite E.
    destruct (crypt_blocks step bs st (length (snd x)) (snd x)) as [[s1 o]| |]; cbn [rbind]; auto.
    rewrite IH by eauto. reflexivity.
  Qed.
End mcalls.

(** One-turn refinements. *)
Section turns.
  Variable c : cipher.
  Variable ip : bool.
  Hypothesis HL : lawful c.
  Let bs := bsz c.

  Lemma ecb_enc_turn st m off :
    ecb_enc_mem c ip st m off =
    rbind (ecb_enc_step c st (rd_src m off bs)) (fun '(st', o) => Ok (st', wr_dst ip m off o)).
  Proof. reflexivity. Qed.
  Lemma ecb_dec_turn st m off :
    ecb_dec_mem c ip st m off =
    rbind (ecb_dec_step c st (rd_src m off bs)) (fun '(st', o) => Ok (st', wr_dst ip m off o)).
  Proof. reflexivity. Qed.

  Lemma bc_enc_turn iv m off : isblock bs iv ->
    off + bs <= length (bdst m) -> off + bs <= length (bsrc m) ->
    isblock bs (rd_src m off bs) ->
    bc_enc_mem c ip iv m off =
    rbind (bc_enc_step c iv (rd_src m off bs)) (fun '(st', o) => Ok (st', wr_dst ip m off o)).
  Proof.
    intros Hiv H1 H2 Hb. unfold bc_enc_mem, bc_enc_step. cbn [rbind]. unfold bs in *. pose proof (law_pos HL) as Hpos.
    pose proof (isblock_xorl Hb Hiv) as Hx. pose proof (law_enc HL Hx) as He. 
    rewrite (@rd_wr c ip Hpos m off _ (proj1 Hx) H1).
    rewrite (@wr_wr c ip Hpos) by (first [lia|destruct Hx, He; lia]).
    rewrite (@rd_wr c ip Hpos m off _ (proj1 He) H1). reflexivity.
  Qed.
  Lemma bc_dec_turn iv m off : isblock bs iv ->
    off + bs <= length (bdst m) -> off + bs <= length (bsrc m) ->
    isblock bs (rd_src m off bs) ->
    bc_dec_mem c ip iv m off =
    rbind (bc_dec_step c iv (rd_src m off bs)) (fun '(st', o) => Ok (st', wr_dst ip m off o)).
  Proof.
    intros Hiv H1 H2 Hb. unfold bc_dec_mem, bc_dec_step. cbn [rbind]. unfold bs in *. pose proof (law_pos HL) as Hpos.
    pose proof (law_dec HL Hb) as Hd.  pose proof (isblock_xorl Hd Hiv) as Hx.
    rewrite (@rd_wr c ip Hpos m off _ (proj1 Hd) H1).
    rewrite (@wr_wr c ip Hpos) by (first [lia|destruct Hx, Hd; lia]). reflexivity.
  Qed.
  Lemma pcbc_enc_turn iv m off : isblock bs iv ->
    off + bs <= length (bdst m) -> off + bs <= length (bsrc m) ->
    isblock bs (rd_src m off bs) ->
    pcbc_enc_mem c ip iv m off =
    rbind (pcbc_enc_step c ip iv (rd_src m off bs)) (fun '(st', o) => Ok (st', wr_dst ip m off o)).
  Proof.
    intros Hiv H1 H2 Hb. unfold pcbc_enc_mem, pcbc_enc_step. cbn [rbind]. unfold bs in *. pose proof (law_pos HL) as Hpos.
    pose proof (isblock_xorl Hb Hiv) as Hx. pose proof (law_enc HL Hx) as He. 
    rewrite (@rd_wr c ip Hpos m off _ (proj1 Hx) H1).
    rewrite (@wr_wr c ip Hpos) by (first [lia|destruct Hx, He; lia]).
    rewrite (@rd_wr c ip Hpos m off _ (proj1 He) H1).
    rewrite (@rds_wr c ip Hpos m off _ (proj1 He) H1). reflexivity.
  Qed.
  Lemma pcbc_dec_turn iv m off : isblock bs iv ->
    off + bs <= length (bdst m) -> off + bs <= length (bsrc m) ->
    isblock bs (rd_src m off bs) ->
    pcbc_dec_mem c ip iv m off =
    rbind (pcbc_dec_step c ip iv (rd_src m off bs)) (fun '(st', o) => Ok (st', wr_dst ip m off o)).
  Proof.
    intros Hiv H1 H2 Hb. unfold pcbc_dec_mem, pcbc_dec_step. cbn [rbind]. unfold bs in *. pose proof (law_pos HL) as Hpos.
    pose proof (law_dec HL Hb) as Hd.  pose proof (isblock_xorl Hd Hiv) as Hx.
    rewrite (@rd_wr c ip Hpos m off _ (proj1 Hd) H1).
    rewrite (@wr_wr c ip Hpos) by (first [lia|destruct Hx, Hd; lia]).
    rewrite (@rd_wr c ip Hpos m off _ (proj1 Hx) H1).
    rewrite (@rds_wr c ip Hpos m off _ (proj1 Hx) H1). reflexivity.
  Qed.
  Lemma ige_turn f st m off :
    ige_mem c ip f st m off =
    rbind (ige_step f st (rd_src m off bs)) (fun '(st', o) => Ok (st', wr_dst ip m off o)).
  Proof. destruct st as [lc lp]. reflexivity. Qed.
  Lemma ofbnlf_enc_turn nk iv m off :
    ofbnlf_mem c ip nk enc iv m off =
    rbind (ofbnlf_enc_step c nk iv (rd_src m off bs)) (fun '(st', o) => Ok (st', wr_dst ip m off o)).
  Proof.
    unfold ofbnlf_mem, ofbnlf_enc_step. destruct (nk (enc c iv)); reflexivity.
  Qed.
  Lemma ofbnlf_dec_turn nk iv m off :
    ofbnlf_mem c ip nk dec iv m off =
    rbind (ofbnlf_dec_step c nk iv (rd_src m off bs)) (fun '(st', o) => Ok (st', wr_dst ip m off o)).
  Proof.
    unfold ofbnlf_mem, ofbnlf_dec_step. destruct (nk (enc c iv)); reflexivity.
  Qed.
  Lemma g3413cbc_enc_turn iv m off : isblock (2 * bs) iv ->
    off + bs <= length (bdst m) -> off + bs <= length (bsrc m) ->
    isblock bs (rd_src m off bs) ->
    g3413cbc_enc_mem c ip iv m off =
    rbind (g3413cbc_enc_step c iv (rd_src m off bs)) (fun '(st', o) => Ok (st', wr_dst ip m off o)).
  Proof.
    intros [Hiv1 Hiv2] H1 H2 Hb. unfold g3413cbc_enc_mem, g3413cbc_enc_step. cbn [rbind]. unfold bs in *. pose proof (law_pos HL) as Hpos.
    assert (Hf : isblock (bsz c) (firstn (bsz c) iv)).
    { split; [rewrite firstn_length; lia|now apply bytes_ok_firstn]. }
    pose proof (isblock_xorl Hb Hf) as Hx. pose proof (law_enc HL Hx) as He. 
    rewrite (@rd_wr c ip Hpos m off _ (proj1 Hx) H1).
    rewrite (@wr_wr c ip Hpos) by (first [lia|destruct Hx, He; lia]).
    rewrite (@rd_wr c ip Hpos m off _ (proj1 He) H1). reflexivity.
  Qed.
End turns.

(** Lengths and state invariants of the per-block functions. *)
Section lens.
  Variable c : cipher.
  Hypothesis HL : lawful c.
  Let bs := bsz c.

  Lemma ecb_enc_len (st : unit) b st' o : True -> isblock bs b ->
    ecb_enc_step c st b = Ok (st', o) -> length o = bs /\ True.
  Proof. intros _ Hb E. injection E as _ <-. split; auto. now apply (law_enc HL Hb). Qed.
  Lemma ecb_dec_len (st : unit) b st' o : True -> isblock bs b ->
    ecb_dec_step c st b = Ok (st', o) -> length o = bs /\ True.
  Proof. intros _ Hb E. injection E as _ <-. split; auto. now apply (law_dec HL Hb). Qed.
  Lemma bc_enc_len iv b st' o : isblock bs iv -> isblock bs b ->
    bc_enc_step c iv b = Ok (st', o) -> length o = bs /\ isblock bs st'.
  Proof.
    intros Hiv Hb E. injection E as <- <-.
    pose proof (law_enc HL (isblock_xorl Hb Hiv)) as He.
    split; [apply He|]. now apply isblock_xorl.
  Qed.
  Lemma bc_dec_len iv b st' o : isblock bs iv -> isblock bs b ->
    bc_dec_step c iv b = Ok (st', o) -> length o = bs /\ isblock bs st'.
  Proof.
    intros Hiv Hb E. injection E as <- <-.
    pose proof (law_dec HL Hb) as He.
    split; [now apply isblock_xorl|]. now apply isblock_xorl.
  Qed.
  Lemma pcbc_enc_len ip iv b st' o : isblock bs iv -> isblock bs b ->
    pcbc_enc_step c ip iv b = Ok (st', o) -> length o = bs /\ isblock bs st'.
  Proof.
    intros Hiv Hb E. injection E as <- <-.
    pose proof (law_enc HL (isblock_xorl Hb Hiv)) as He.
    split; [apply He|]. unfold reread. destruct ip; now apply isblock_xorl.
  Qed.
  Lemma pcbc_dec_len ip iv b st' o : isblock bs iv -> isblock bs b ->
    pcbc_dec_step c ip iv b = Ok (st', o) -> length o = bs /\ isblock bs st'.
  Proof.
    intros Hiv Hb E. injection E as <- <-.
    pose proof (isblock_xorl (law_dec HL Hb) Hiv) as He.
    split; [apply He|]. unfold reread. destruct ip; now apply isblock_xorl.
  Qed.
  Definition ige_I (st : ige_state) : Prop := isblock bs (fst st) /\ isblock bs (snd st).
  Lemma ige_len f st b st' o :
    (forall x, isblock bs x -> isblock bs (f x)) ->
    ige_I st -> isblock bs b ->
    ige_step f st b = Ok (st', o) -> length o = bs /\ ige_I st'.
  Proof.
    destruct st as [lc lp]. intros Hf [H1 H2] Hb E. injection E as <- <-. cbn [fst snd] in *.
    assert (isblock bs (xorl (f (xorl lc b)) lp)).
    { apply isblock_xorl; auto. apply Hf. now apply isblock_xorl. }
    split; [apply H|]. split; auto.
  Qed.
  Section nk.
    Variable nk : bytes -> option cipher.
    Hypothesis HK : forall k, isblock bs k -> exists c', nk k = Some c' /\ lawful c' /\ bsz c' = bs.
    Lemma ofbnlf_enc_len iv b st' o : isblock bs iv -> isblock bs b ->
      ofbnlf_enc_step c nk iv b = Ok (st', o) -> length o = bs /\ isblock bs st'.
    Proof.
      intros Hiv Hb. unfold ofbnlf_enc_step. pose proof (law_enc HL Hiv) as Hk.
      destruct (HK Hk) as (c' & -> & HL' & Hbs). intro E. injection E as <- <-.
      split; [|exact Hk]. rewrite <- Hbs in *. now apply (law_enc HL').
    Qed.
    Lemma ofbnlf_dec_len iv b st' o : isblock bs iv -> isblock bs b ->
      ofbnlf_dec_step c nk iv b = Ok (st', o) -> length o = bs /\ isblock bs st'.
    Proof.
      intros Hiv Hb. unfold ofbnlf_dec_step. pose proof (law_enc HL Hiv) as Hk.
      destruct (HK Hk) as (c' & -> & HL' & Hbs). intro E. injection E as <- <-.
      split; [|exact Hk]. rewrite <- Hbs in *. now apply (law_dec HL').
    Qed.
  End nk.
End lens.

(** The round trip over histories of memory calls. *)
Section mroundtrip.
  Variable c : cipher.
  Variables ip1 ip2 : bool.
  Let bs := bsz c.
  Hypothesis bs_pos : 0 < bs.
  Variables Se Sd : Type.
  Variable em : Se -> buffers -> nat -> res (Se * buffers).
  Variable dm : Sd -> buffers -> nat -> res (Sd * buffers).
  Variable estep : Se -> bytes -> res (Se * bytes).
  Variable dstep : Sd -> bytes -> res (Sd * bytes).
  Variable Ie : Se -> Prop.
  Variable Id : Sd -> Prop.
  Variable R : Se -> Sd -> Prop.
  Hypothesis eturn : forall st m off, Ie st ->
    off + bs <= length (bdst m) -> off + bs <= length (bsrc m) ->
    isblock bs (rd_src m off bs) ->
    em st m off =
    rbind (estep st (rd_src m off bs)) (fun '(st', o) => Ok (st', wr_dst ip1 m off o)).
  Hypothesis elen : forall st b st' o, Ie st -> isblock bs b ->
    estep st b = Ok (st', o) -> length o = bs /\ Ie st'.
  Hypothesis dturn : forall st m off, Id st ->
    off + bs <= length (bdst m) -> off + bs <= length (bsrc m) ->
    isblock bs (rd_src m off bs) ->
    dm st m off =
    rbind (dstep st (rd_src m off bs)) (fun '(st', o) => Ok (st', wr_dst ip2 m off o)).
  Hypothesis dlen : forall st b st' o, Id st -> isblock bs b ->
    dstep st b = Ok (st', o) -> length o = bs /\ Id st'.
  Hypothesis one : forall se sd m, R se sd -> isblock bs m ->
    exists se' x sd', estep se m = Ok (se', x) /\ isblock bs x /\
                      dstep sd x = Ok (sd', m) /\ R se' sd'.

  Lemma mroundtrip se sd : Ie se -> Id sd -> R se sd ->
    mode_roundtrip bs (mcall c ip1 em) (mcall c ip2 dm) se sd.
  Proof.
    intros He Hd HR msgs Hm.
    rewrite (@mcalls_refine c ip1 bs_pos Se em estep Ie eturn elen msgs se He Hm).
    assert (Hin : forall l, Forall (call_ok bs) l -> Forall (input_ok bs) (map snd l)).
    { intros l Hl. apply Forall_map. eapply Forall_impl; [|exact Hl]. intros ? [? ?]; auto. }
    destruct (@calls_roundtrip Se Sd estep dstep bs R bs_pos one se sd (map snd msgs) HR (Hin _ Hm))
      as (se' & outs & E & HLo & Hok & Hdec).
    exists se', outs. split; [exact E|]. split; [exact HLo|].
    intros cts Hc Ec. rewrite (@mcalls_refine c ip2 bs_pos Sd dm dstep Id dturn dlen cts sd Hd Hc).
    apply Hdec; auto. eapply Forall_impl; [|apply (Hin _ Hc)]. intros ? [? ?]; auto.
  Qed.
End mroundtrip.


(** IGE decryption swaps its registers around the common loop (ige.go:102-112). *)
Lemma ige_dec_swap c ip calls : forall a b,
  run_calls (ige_dec_mcall c ip) (a, b) calls =
  rbind (run_calls (mcall c ip (ige_mem c ip (dec c))) (b, a) calls)
        (fun '((x, y), os) => Ok ((y, x), os)).
Proof.
  induction calls as [|x calls IH]; intros a b; [reflexivity|].
  cbn [run_calls ige_dec_mcall].
  destruct (mcall c ip (ige_mem c ip (dec c)) (b, a) x) as [[[s1 s2] o]| |]; cbn [rbind]; auto.
  rewrite IH.
  destruct (run_calls (mcall c ip (ige_mem c ip (dec c))) (s1, s2) calls)
    as [[[t1 t2] os]| |]; reflexivity.
Qed.

(** What a history of calls computed, as one block sequence. *)
Section mblocks.
  Variable c : cipher.
  Variable ip : bool.
  Let bs := bsz c.
  Hypothesis bs_pos : 0 < bs.
  Variable S : Type.
  Variable mstep : S -> buffers -> nat -> res (S * buffers).
  Variable step : S -> bytes -> res (S * bytes).
  Variable I : S -> Prop.
  Hypothesis turn : forall st m off, I st ->
    off + bs <= length (bdst m) -> off + bs <= length (bsrc m) ->
    isblock bs (rd_src m off bs) ->
    mstep st m off =
    rbind (step st (rd_src m off bs)) (fun '(st', o) => Ok (st', wr_dst ip m off o)).
  Hypothesis step_len : forall st b st' o, I st -> isblock bs b ->
    step st b = Ok (st', o) -> length o = bs /\ I st'.

  Lemma block_loop_all_len st blocks st' os :
    I st -> Forall (isblock bs) blocks -> block_loop step st blocks = Ok (st', os) ->
    all_len bs os.
  Proof.
    intros HI Hb. revert st os HI; induction Hb as [|b bl Hb1 Hb2 IH]; intros st os HI E.
    - cbn in E. injection E as <- <-. constructor.
    - cbn [block_loop] in E. destruct (step st b) as [[s1 o]| |] eqn:E1; cbn [rbind] in E;
        try discriminate.
      destruct (block_loop step s1 bl) as [[s2 os2]| |] eqn:E2; cbn [rbind] in E; try discriminate.
      injection E as <- <-. destruct (step_len HI Hb1 E1) as [HLo HI1].
      constructor; auto. now apply (IH _ _ HI1 E2).
  Qed.

  Lemma mcalls_blocks st calls st' outs :
    I st -> Forall (call_ok bs) calls ->
    run_calls (mcall c ip mstep) st calls = Ok (st', outs) ->
    block_loop step st (chunks bs (concat (map snd calls))) = Ok (st', chunks bs (concat outs)).
  Proof.
    intros HI Hc E.
    rewrite (@mcalls_refine c ip bs_pos S mstep step I turn step_len calls st HI Hc) in E. fold bs in E.
    assert (Hin : Forall (input_ok bs) (map snd calls)).
    { apply Forall_map. eapply Forall_impl; [|exact Hc]. intros ? [? ?]; auto. }
    assert (Ha : Forall (aligned bs) (map snd calls)).
    { eapply Forall_impl; [|exact Hin]. intros ? [? ?]; auto. }
    assert (Hall : input_ok bs (concat (map snd calls))).
    { split.
      - unfold bytes_ok. clear - Hin. induction Hin as [|x l [Hx _] ? IH]; cbn; [constructor|].
        apply Forall_app. auto.
      - clear - Ha bs_pos. unfold aligned.
        induction Ha as [|x l Hx ? IH]; cbn; [apply Nat.mod_0_l; lia|].
        unfold aligned in Hx. rewrite app_length.
        rewrite Nat.add_mod, Hx, IH by lia. apply Nat.mod_0_l. lia. }
    pose proof (@run_calls_concat S step bs bs_pos st (map snd calls) Ha) as Q.
    rewrite E in Q. cbn [rbind] in Q.
    pose proof (chunks_isblock bs_pos Hall) as Hb.
    destruct (block_loop step st (chunks bs (concat (map snd calls)))) as [[s1 cs]| |] eqn:EB;
      cbn [rbind] in Q; try discriminate.
    injection Q as <- ->. do 2 f_equal. symmetry. apply chunks_of_concat; auto.
    exact (block_loop_all_len HI Hb EB).
  Qed.
End mblocks.

(** GOST R 34.13 CBC *)
Section g3413.
  Variable c : cipher.
  Hypothesis HL : lawful c.
  Let bs := bsz c.

  Lemma g3413_step_eq iv p :
    length iv = 2 * bs -> length (enc c (xorl p (firstn bs iv))) = bs ->
    g3413cbc_enc_step c iv p =
    Ok (skipn bs iv ++ enc c (xorl p (firstn bs iv)), enc c (xorl p (firstn bs iv))).
  Proof.
    intros Hiv He. unfold g3413cbc_enc_step. fold bs.
    set (d := enc c _) in *. do 2 f_equal.
    unfold gocopy, splice.
    assert (Hs : length (skipn bs iv) = bs) by (rewrite skipn_length; lia).
    rewrite (@firstn_all2 _ (length iv)) by lia.
    rewrite Hs. rewrite firstn_app_exact by auto.
    rewrite He. rewrite (@skipn_all2 _ (bs + bs)); [now rewrite app_nil_r|].
    rewrite app_length, Hs. lia.
  Qed.

  (** The value XORed into plaintext block i. *)
  Definition g3413_mask (iv : bytes) (cs : list bytes) (i : nat) : bytes :=
    match i with
    | O => firstn bs iv
    | 1 => skipn bs iv
    | S (S j) => nth j cs []
    end.

  Lemma g3413_enc_loop ps : forall iv,
    isblock (2 * bs) iv -> Forall (isblock bs) ps ->
    exists iv' cs, block_loop (g3413cbc_enc_step c) iv ps = Ok (iv', cs) /\
      length cs = length ps /\ Forall (isblock bs) cs /\
      forall i, i < length ps -> nth i cs [] = enc c (xorl (nth i ps []) (g3413_mask iv cs i)).
  Proof.
    induction ps as [|p ps IH]; intros iv Hiv Hps.
    - exists iv, []. cbn. repeat split; auto; intros; lia.
    - inversion Hps as [|? ? Hp Hps']; subst.
      assert (Hf : isblock bs (firstn bs iv)).
      { destruct Hiv. split; [rewrite firstn_length; lia|now apply bytes_ok_firstn]. }
      assert (Hs : isblock bs (skipn bs iv)).
      { destruct Hiv. split; [rewrite skipn_length; lia|now apply bytes_ok_skipn]. }
      pose proof (law_enc HL (isblock_xorl Hp Hf)) as Hd.
      cbn [block_loop]. rewrite g3413_step_eq; [|apply Hiv|apply Hd].
      cbn [rbind]. set (d := enc c _) in *.
      assert (Hiv2 : isblock (2 * bs) (skipn bs iv ++ d)).
      { destruct Hs, Hd. split; [rewrite app_length; unfold bs in *; lia|].
        apply bytes_ok_app; auto. }
      destruct (IH _ Hiv2 Hps') as (iv' & cs & -> & H1 & H2 & H3).
      cbn [rbind]. exists iv', (d :: cs). split; [reflexivity|].
      split; [cbn; lia|]. split; [constructor; auto|].
      intros [|i] Hi; [reflexivity|]. cbn [nth length] in *. rewrite H3 by lia.
      destruct Hs as [Hs1 _].
      destruct i as [|[|i]]; cbn [g3413_mask nth].
      + now rewrite firstn_app_exact.
      + now rewrite skipn_app_exact.
      + reflexivity.
  Qed.

  (** The decrypter, one call. *)
  Variable inplace : bool.

  (** Buffers whose first [k] blocks of src are untouched and whose dst holds
      the final plaintext from block k on. *)
  Definition back_inv (src pt : bytes) (k : nat) (m : buffers) : Prop :=
    length (bdst m) = length src /\ length (bsrc m) = length src /\
    firstn (k * bs) (bsrc m) = firstn (k * bs) src /\
    skipn (k * bs) (bdst m) = skipn (k * bs) pt /\
    (inplace = true -> bsrc m = bdst m).

  Lemma g3413_turn_inv src pt k prev mask m :
    length pt = length src -> (k + 1) * bs <= length src ->
    bytes_ok src -> isblock bs mask ->
    back_inv src pt (k + 1) m ->
    (forall m', firstn (k * bs) (bsrc m') = firstn (k * bs) src -> prev m' = mask) ->
    slice (k * bs) bs pt = xorl (dec c (slice (k * bs) bs src)) mask ->
    back_inv src pt k (g3413_turn c inplace m (k * bs) prev).
  Proof.
    intros Hpt Hk Hok Hmask (I1 & I2 & I3 & I4 & I5) Hprev Hdec.
    pose proof (law_pos HL) as Hpos. fold bs in Hpos.
    assert (Ers : rd_src m (k * bs) bs = slice (k * bs) bs src).
    { unfold rd_src.
      rewrite <- (@slice_of_firstn _ (k * bs) bs ((k + 1) * bs) (bsrc m)) by lia.
      rewrite I3. apply slice_of_firstn. lia. }
    assert (Hblk : isblock bs (slice (k * bs) bs src)).
    { split; [apply slice_length; lia|now apply bytes_ok_slice]. }
    pose proof (law_dec HL Hblk) as Hd. fold bs in Hd.
    unfold g3413_turn. fold bs. rewrite Ers.
    set (d := dec c (slice (k * bs) bs src)) in *.
    assert (HLd : length d = bs) by apply Hd.
    set (m1 := wr_dst inplace m (k * bs) d).
    assert (Hm1 : length (bdst m1) = length src).
    { unfold m1, wr_dst. cbn [bdst]. rewrite splice_length; lia. }
    assert (Hsl : slice (k * bs) bs (bdst m1) = d).
    { unfold m1, wr_dst. cbn [bdst].
      transitivity (slice (k * bs) (length d) (splice (k * bs) d (bdst m)));
        [now rewrite HLd|apply slice_splice; lia]. }
    assert (Hs1 : firstn (k * bs) (bsrc m1) = firstn (k * bs) src).
    { unfold m1, wr_dst. cbn [bsrc]. destruct inplace eqn:Ei.
      - rewrite firstn_splice by lia. rewrite <- I5 by reflexivity.
        apply (f_equal (firstn (k * bs))) in I3. rewrite !firstn_firstn in I3.
        replace (Nat.min (k * bs) ((k + 1) * bs)) with (k * bs) in I3 by lia. exact I3.
      - apply (f_equal (firstn (k * bs))) in I3. rewrite !firstn_firstn in I3.
        replace (Nat.min (k * bs) ((k + 1) * bs)) with (k * bs) in I3 by lia. exact I3. }
    rewrite Hsl, (Hprev m1 Hs1).
    set (p := xorl d mask) in *.
    assert (HLp : length p = bs).
    { unfold p. rewrite xorl_length. destruct Hmask. lia. }
    assert (Hlen2 : length (bdst (wr_dst inplace m1 (k * bs) p)) = length src).
    { unfold wr_dst. cbn [bdst]. rewrite splice_length; lia. }
    assert (Hsame : inplace = true ->
        bsrc (wr_dst inplace m1 (k * bs) p) = bdst (wr_dst inplace m1 (k * bs) p)).
    { intro Ei. unfold wr_dst. cbn [bsrc bdst]. now rewrite Ei. }
    assert (Hls1 : length (bsrc m1) = length src).
    { unfold m1, wr_dst. cbn [bsrc]. destruct inplace; [rewrite splice_length; lia|lia]. }
    split; [exact Hlen2|]. split; [|split; [|split; [|exact Hsame]]].
    - unfold wr_dst at 1. cbn [bsrc]. destruct inplace; [rewrite splice_length; lia|exact Hls1].
    - unfold wr_dst. cbn [bsrc]. destruct inplace eqn:Ei; [|exact Hs1].
      rewrite firstn_splice by lia.
      unfold m1, wr_dst in Hs1 |- *. cbn [bsrc bdst] in *. exact Hs1.
    - unfold wr_dst. cbn [bdst]. rewrite skipn_splice_at by lia.
      rewrite HLp. unfold m1, wr_dst. cbn [bdst].
      rewrite skipn_splice by lia.
      replace (k * bs + bs) with ((k + 1) * bs) by lia.
      rewrite I4. rewrite <- Hdec.
      rewrite <- (firstn_skipn bs (skipn (k * bs) pt)).
      unfold slice. f_equal. rewrite skipn_skipn'. f_equal. lia.
  Qed.

  Lemma slice_concat (l : list bytes) i :
    all_len bs l -> i < length l -> slice (i * bs) bs (concat l) = nth i l [].
  Proof.
    intro H. revert i; induction H as [|x l Hx H IH]; intros i Hi; cbn [length] in Hi; [lia|].
    cbn [concat]. destruct i as [|i]; cbn [nth].
    - unfold slice. cbn [Nat.mul skipn]. now apply firstn_app_exact.
    - unfold slice. rewrite skipn_app, skipn_all2 by lia. cbn [app].
      replace (S i * bs - length x) with (i * bs) by lia. apply IH. lia.
  Qed.

  Lemma g3413_dec_single iv ps : forall dst0,
    isblock (2 * bs) iv -> Forall (isblock bs) ps ->
    exists iv' cs, block_loop (g3413cbc_enc_step c) iv ps = Ok (iv', cs) /\
      (length dst0 = length (concat cs) ->
       g3413cbc_dec_call c inplace iv dst0 (concat cs) = Ok (iv, concat ps)).
  Proof.
    intros dst0 Hiv Hps.
    destruct (g3413_enc_loop Hiv Hps) as (iv' & cs & E & Hlen & Hcs & Hrec).
    exists iv', cs. split; [exact E|]. intro Hdst.
    pose proof (law_pos HL) as Hpos. fold bs in Hpos.
    assert (Hac : all_len bs cs) by (eapply Forall_impl; [|exact Hcs]; intros ? [? ?]; auto).
    assert (Hap : all_len bs ps) by (eapply Forall_impl; [|exact Hps]; intros ? [? ?]; auto).
    pose proof (concat_all_len Hac) as HLc. pose proof (concat_all_len Hap) as HLp.
    set (src := concat cs) in *. set (pt := concat ps) in *.
    assert (Hok : bytes_ok src).
    { apply (concat_isblock Hpos Hcs). }
    assert (Hpt : length pt = length src) by lia.
    unfold g3413cbc_dec_call. fold bs.
    rewrite HLc at 1. rewrite Nat.mod_mul by lia. cbn [Nat.eqb negb].
    destruct (Nat.eqb_spec (length src) 0) as [H0|H0].
    { assert (length cs = 0) by nia. destruct ps; cbn in *; [|lia]. reflexivity. }
    set (n := length cs) in *.
    assert (Hn : length src / bs = n) by (rewrite HLc; apply Nat.div_mul; lia).
    rewrite Hn.
    set (m0 := {| bsrc := src; bdst := if inplace then src else dst0 |}).
    assert (Hm0 : back_inv src pt n m0).
    { unfold m0, back_inv. cbn [bsrc bdst]. rewrite <- HLc.
      repeat split.
      - destruct inplace; lia.
      - rewrite !skipn_all2; auto; [lia|]. destruct inplace; lia.
      - intros ->. reflexivity. }
    (* decryption equation for block i *)
    assert (Hdec : forall i, i < n ->
        slice (i * bs) bs pt = xorl (dec c (slice (i * bs) bs src)) (g3413_mask iv cs i)
        /\ isblock bs (g3413_mask iv cs i)).
    { intros i Hi.
      assert (Hmask : isblock bs (g3413_mask iv cs i)).
      { destruct Hiv as [Hi1 Hi2]. destruct i as [|[|i]]; cbn [g3413_mask].
        - split; [rewrite firstn_length; lia|now apply bytes_ok_firstn].
        - split; [rewrite skipn_length; lia|now apply bytes_ok_skipn].
        - rewrite Forall_forall in Hcs. apply Hcs. apply nth_In. lia. }
      split; [|exact Hmask].
      unfold pt, src. rewrite !slice_concat by (auto; lia).
      rewrite Hrec by lia.
      assert (Hp : isblock bs (nth i ps [])).
      { rewrite Forall_forall in Hps. apply Hps. apply nth_In. lia. }
      rewrite (law_inv HL (isblock_xorl Hp Hmask)).
      rewrite xorl_cancel_r; [reflexivity|]. destruct Hp, Hmask. lia. }
    assert (Hback : forall k m, 1 <= k <= n -> back_inv src pt k m ->
               back_inv src pt (Nat.min k 2) (g3413_back c inplace k m)).
    { induction k as [|k IH]; intros m Hk Hm; [lia|].
      destruct k as [|[|k]]; [exact Hm|exact Hm|].
      cbn [g3413_back]. fold bs.
      replace (Nat.min (S (S (S k))) 2) with (Nat.min (S (S k)) 2) by lia.
      apply IH; [lia|].
      destruct (Hdec (S (S k)) ltac:(lia)) as [Hd1 Hd2].
      apply g3413_turn_inv with (mask := g3413_mask iv cs (S (S k))); auto.
      - unfold bs in *. nia.
      - replace (S (S k) + 1) with (S (S (S k))) by lia. exact Hm.
      - intros m' Hm'. unfold rd_src. fold bs. cbn [Nat.sub]. rewrite Nat.sub_0_r.
        rewrite <- (@slice_of_firstn _ (k * bs) bs (S (S k) * bs) (bsrc m')) by nia.
        rewrite Hm'. rewrite slice_of_firstn by nia.
        unfold src. rewrite slice_concat by (auto; lia). reflexivity. }
    assert (Hgt1 : bs <? length src = (1 <? n)).
    { rewrite HLc. destruct (Nat.ltb_spec bs (n * bs)), (Nat.ltb_spec 1 n); auto; nia. }
    assert (Hgt2 : 2 * bs <? length src = (2 <? n)).
    { rewrite HLc. destruct (Nat.ltb_spec (2 * bs) (n * bs)), (Nat.ltb_spec 2 n); auto; nia. }
    rewrite Hgt1, Hgt2.
    assert (Hfin : forall m, back_inv src pt 1 m ->
      bdst (g3413_turn c inplace m 0 (fun _ => firstn bs iv)) = pt).
    { intros m Hm. destruct (Hdec 0 ltac:(lia)) as [Hd1 Hd2].
      assert (Hf : back_inv src pt 0
                (g3413_turn c inplace m (0 * bs) (fun _ => firstn bs iv))).
      { apply g3413_turn_inv with (mask := firstn bs iv); auto.
        rewrite HLc. apply Nat.mul_le_mono_r. lia. }
      destruct Hf as (_ & _ & _ & Hf & _). exact Hf. }
    f_equal. f_equal.
    destruct (Nat.ltb_spec 1 n) as [H1|H1].
    - apply Hfin.
      assert (Hm2 : back_inv src pt 2 (if 2 <? n then g3413_back c inplace n m0 else m0)).
      { destruct (Nat.ltb_spec 2 n) as [H2|H2].
        - replace 2 with (Nat.min n 2) by lia. apply Hback; [lia|exact Hm0].
        - replace 2 with n by lia. exact Hm0. }
      destruct (Hdec 1 ltac:(lia)) as [Hd1 Hd2].
      replace (g3413_turn c inplace (if 2 <? n then g3413_back c inplace n m0 else m0) bs
                 (fun _ => skipn bs iv))
        with (g3413_turn c inplace (if 2 <? n then g3413_back c inplace n m0 else m0) (1 * bs)
                 (fun _ => skipn bs iv)) by (f_equal; lia).
      apply g3413_turn_inv with (mask := skipn bs iv); auto.
      rewrite HLc. apply Nat.mul_le_mono_r. lia.
    - apply Hfin. replace 1 with n by lia. exact Hm0.
  Qed.
End g3413.

Lemma g3413cbc_enc_len c (HL : lawful c) iv b st' o :
  isblock (2 * bsz c) iv -> isblock (bsz c) b ->
  g3413cbc_enc_step c iv b = Ok (st', o) -> length o = bsz c /\ isblock (2 * bsz c) st'.
Proof.
  intros Hiv Hb E.
  assert (Hf : isblock (bsz c) (firstn (bsz c) iv)).
  { destruct Hiv. split; [rewrite firstn_length; lia|now apply bytes_ok_firstn]. }
  assert (Hs : isblock (bsz c) (skipn (bsz c) iv)).
  { destruct Hiv. split; [rewrite skipn_length; lia|now apply bytes_ok_skipn]. }
  pose proof (law_enc HL (isblock_xorl Hb Hf)) as Hd.
  rewrite g3413_step_eq in E; [|apply Hiv|apply Hd].
  injection E as <- <-. split; [apply Hd|]. destruct Hs, Hd.
  split; [rewrite app_length; lia|now apply bytes_ok_app].
Qed.

(** In-place behaviour from the one-turn refinement, for a step that ignores
    aliasing and never fails. *)
Section inplace.
  Variable c : cipher.
  Let bs := bsz c.
  Hypothesis bs_pos : 0 < bs.
  Variable S : Type.
  Variable mstep : bool -> S -> buffers -> nat -> res (S * buffers).
  Variable step : S -> bytes -> res (S * bytes).
  Variable I : S -> Prop.
  Hypothesis turn : forall ip st m off, I st ->
    off + bs <= length (bdst m) -> off + bs <= length (bsrc m) ->
    isblock bs (rd_src m off bs) ->
    mstep ip st m off =
    rbind (step st (rd_src m off bs)) (fun '(st', o) => Ok (st', wr_dst ip m off o)).
  Hypothesis step_len : forall st b st' o, I st -> isblock bs b ->
    step st b = Ok (st', o) -> length o = bs /\ I st'.
  Hypothesis step_ok : forall st b, I st -> isblock bs b -> exists r, step st b = Ok r.

  Lemma block_loop_ok blocks : forall st, I st -> Forall (isblock bs) blocks ->
    exists st' os, block_loop step st blocks = Ok (st', os).
  Proof.
    induction blocks as [|b bl IH]; intros st HI Hb; [cbn; eauto|].
    apply Forall_cons_iff in Hb as [Hb1 Hb2]. cbn [block_loop].
    destruct (step_ok HI Hb1) as [[s1 o] E]. rewrite E. cbn [rbind].
    destruct (step_len HI Hb1 E) as [_ HI1]. destruct (IH s1 HI1 Hb2) as (s2 & os & E2).
    rewrite E2. cbn [rbind]. eauto.
  Qed.

  Lemma inplace_ok st : I st -> mode_inplace_ok c mstep st.
  Proof.
    intros HI dst src [Hin Hl]. cbn [fst snd] in *.
    destruct (block_loop_ok HI (chunks_isblock bs_pos Hin)) as (st' & os & E).
    exists st', (concat os).
    assert (HLo : length (concat os) = length src).
    { destruct (@block_loop_I c false bs_pos S (mstep false) step I (turn false) step_len _ _ _ _ HI (chunks_isblock bs_pos Hin) E) as [_ H].
      rewrite chunks_concat in H by auto. exact H. }
    split; [exact HLo|]. fold bs.
    rewrite (@crypt_blocks_mem_refines c false bs_pos S (mstep false) step I (turn false) step_len)
      by auto.
    rewrite (@crypt_blocks_mem_refines c true bs_pos S (mstep true) step I (turn true) step_len)
      by auto.
    cbv beta iota. rewrite !crypt_blocks_dstlen by auto.
    fold bs. rewrite crypt_blocks_aligned by apply Hin. rewrite E. cbn [rbind].
    split; [reflexivity|]. rewrite skipn_all. now rewrite app_nil_r.
  Qed.
End inplace.

Lemma guards c ip S (mstep : S -> buffers -> nat -> res (S * buffers)) :
  mode_guards c ip mstep.
Proof.
  intros st dst src H. unfold crypt_blocks_mem.
  destruct (Nat.eqb_spec (length src mod bsz c) 0) as [E|E]; cbn [negb]; [|reflexivity].
  destruct H as [H|[-> H]]; [congruence|].
  destruct (Nat.ltb_spec (length dst) (length src)); [reflexivity|lia].
Qed.

Lemma toy_lawful : lawful toy.
Proof.
  assert (H2 : forall b, isblock 2 b -> exists x y, b = [x; y] /\ is_byte x /\ is_byte y).
  { intros b [HLb Hok]. destruct b as [|x [|y [|? ?]]]; cbn in HLb; try lia.
    apply Forall_cons_iff in Hok as [H1 Hok]. apply Forall_cons_iff in Hok as [H2 _].
    eauto 6. }
  assert (HB : forall z, is_byte (z mod 256)) by (intro; apply Z.mod_pos_bound; lia).
  split.
  - cbn. lia.
  - intros b Hb. destruct (H2 b Hb) as (x & y & -> & Hx & Hy). cbn [toy enc bsz].
    split; [reflexivity|]. repeat constructor; auto; apply HB.
  - intros b Hb. destruct (H2 b Hb) as (x & y & -> & Hx & Hy). cbn [toy dec bsz].
    split; [reflexivity|]. repeat constructor; auto; apply HB.
  - intros b Hb. destruct (H2 b Hb) as (x & y & -> & Hx & Hy). cbn [toy enc dec].
    unfold is_byte in *.
    assert (E1 : (((x + 3) mod 256 - 3) mod 256 = x)%Z).
    { rewrite Zminus_mod_idemp_l. rewrite Z.add_simpl_r. apply Z.mod_small; lia. }
    assert (E2 : (((y + 1) mod 256 - 1) mod 256 = y)%Z).
    { rewrite Zminus_mod_idemp_l. rewrite Z.add_simpl_r. apply Z.mod_small; lia. }
    now rewrite E1, E2.
Qed.
