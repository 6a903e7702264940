(** Proofs about PMAC. *)
From Verif Require Import Base BlockModeModel BlockModeSpec ToolBytesModel ToolBytesSpec ToolBytesProofs HashSpec MacModel MacSpec MacProofs
  OffsetSpec PmacModel PmacSpec.
Set Implicit Arguments. Unset Strict Implicit.
Local Open Scope nat_scope.

(** ** Trailing zeros *)
Lemma ntz_trailing i : 0 < i -> trailing_zeros i = ntz i.
Proof.
  intro H. unfold trailing_zeros, ntz. destruct (Z.of_nat i) eqn:E; [lia| |lia].
  clear. induction p; cbn; auto.
Qed.
Lemma ntz_pos_le p : 2 ^ ntz_pos p <= Pos.to_nat p.
Proof. induction p as [p IH|p IH|]; cbn [ntz_pos Nat.pow]; lia. Qed.
Lemma ntz_le i : 0 < i -> 2 ^ ntz i <= i.
Proof.
  intro H. unfold ntz. destruct (Z.of_nat i) eqn:E; [lia| |lia]. pose proof (ntz_pos_le p). lia.
Qed.
Lemma ntz_lt i k : 0 < i -> i < 2 ^ k -> ntz i < k.
Proof. intros H1 H2. pose proof (ntz_le H1). apply (Nat.pow_lt_mono_r_iff 2); lia. Qed.
Lemma ntz_pow2 k : ntz (2 ^ k) = k.
Proof.
  unfold ntz. rewrite Nat2Z.inj_pow. change (Z.of_nat 2) with 2%Z.
  induction k as [|k IH]; [reflexivity|]. rewrite Nat2Z.inj_succ, Z.pow_succ_r by lia.
  destruct (2 ^ Z.of_nat k)%Z eqn:E; [lia| |lia]. cbn. cbn in IH. now rewrite IH.
Qed.
(** The meaning of ntz: i = 2^(ntz i) * odd. *)
Lemma ntz_odd i : 0 < i -> exists m, i = 2 ^ ntz i * (2 * m + 1).
Proof.
  intro H. unfold ntz. destruct (Z.of_nat i) eqn:E; [lia| |lia]. assert (i = Pos.to_nat p) by lia. subst i. clear.
  induction p as [p IH|p IH|].
  - exists (Pos.to_nat p). cbn [ntz_pos Nat.pow]. lia.
  - destruct IH as [m IH]. exists m. cbn [ntz_pos Nat.pow]. lia.
  - exists 0. reflexivity.
Qed.

(** ** Offsets *)
Lemma xpow_block n p L i : isblock n L -> isblock n (xpow n p L i).
Proof. intro H. destruct i; [exact H|]. cbn. apply double_block. Qed.
Lemma delta_block n p L s k : isblock n L -> isblock n s -> isblock n (delta n p L s k).
Proof. intros HL Hs. induction k as [|k IH]; [exact Hs|]. cbn [delta]. apply xorl_block; auto. now apply xpow_block. Qed.
Lemma xsum_snoc F : forall bl k acc b, xsum F k acc (bl ++ [b]) = xorl (xsum F k acc bl) (F (S (k + length bl)) b).
Proof.
  induction bl as [|x bl IH]; intros k acc b; cbn [app xsum length]; [now rewrite Nat.add_0_r|].
  rewrite IH. do 2 f_equal. lia.
Qed.
Lemma xsum_block n F : forall bl k acc, isblock n acc -> (forall k b, In b bl -> isblock n (F k b)) -> isblock n (xsum F k acc bl).
Proof.
  induction bl as [|x bl IH]; intros k acc Ha HF; [exact Ha|]. cbn [xsum]. apply IH; [|intros; apply HF; now right].
  apply xorl_block; auto. apply HF. now left.
Qed.

Lemma pm_dbl_eq n x : isblock n x -> 0 < n -> pm_dbl x = double n 135 x.
Proof.
  intros [Lx Ox] Hn. unfold pm_dbl. rewrite (surjective_pairing (shift_carry x)).
  rewrite (@carry_double 135 x); [now rewrite Lx|unfold is_byte; lia|auto|]. intros ->. cbn in Lx. lia.
Qed.
Lemma Nat_iter_swap' (f : bytes -> bytes) k x : Nat.iter (S k) f x = Nat.iter k f (f x).
Proof. induction k as [|k IH]; [reflexivity|]. cbn [Nat.iter nat_rect] in *. unfold Nat.iter in *. cbn in *. now rewrite IH. Qed.
Lemma pm_table_nth n : 0 < n -> forall k x i, isblock n x -> i < k -> nth_error (pm_table k x) i = Some (xpow n 135 x i).
Proof.
  intro Hn. induction k as [|k IH]; intros x i Hx Hi; [lia|]. destruct i as [|i]; [reflexivity|].
  cbn [pm_table nth_error]. rewrite (pm_dbl_eq Hx Hn), IH by (auto using double_block; lia).
  f_equal. unfold xpow. symmetry. apply Nat_iter_swap'.
Qed.
Lemma pm_table_length : forall k x, length (pm_table k x) = k.
Proof. induction k as [|k IH]; intro x; [reflexivity|]. cbn [pm_table length]. now rewrite IH. Qed.

(** ** The object *)
Section obj.
  Variable c : cipher.
  Variable ts : nat.
  Hypothesis HL : lawful c.
  Let n := bsz c.
  Let Hn : 0 < n := law_pos HL.
  Let L := enc c (zeros n).
  Definition D k := delta n 135 L (zeros n) k.
  Definition SG bl := xsum (fun k b => enc c (xorl b (D k))) 0 (zeros n) bl.
  Definition st bl buf pos : pmacst :=
    {| pm_l := pm_table (2 * n - 1) L; pm_linv := pmac_half 135 L; pm_digest := SG bl; pm_offset := D (length bl);
       pm_buf := buf; pm_pos := pos; pm_ctr := length bl; pm_tag := ts |}.
  Definition lim := 2 ^ (2 * n - 1).

  Lemma L_blk : isblock n L. Proof. apply (law_enc HL). apply zeros_block. Qed.
  Lemma D_blk k : isblock n (D k). Proof. apply delta_block; [apply L_blk|apply zeros_block]. Qed.
  Lemma SG_blk bl : Forall (isblock n) bl -> isblock n (SG bl).
  Proof.
    intro H. apply xsum_block; [apply zeros_block|]. intros k b Hb. apply (law_enc HL). apply xorl_block; [|apply D_blk].
    rewrite Forall_forall in H. now apply H.
  Qed.

  Lemma process_ok bl b pos : length bl + 1 < lim ->
    pm_process c (st bl b pos) = Ok (st (bl ++ [b]) (enc c (xorl b (D (S (length bl))))) 0).
  Proof.
    intro H. unfold pm_process. cbn [pm_l pm_ctr st pm_offset pm_buf pm_digest].
    rewrite ntz_trailing by lia. rewrite (pm_table_nth Hn) by (auto using L_blk; apply ntz_lt; unfold lim in H; lia).
    unfold pm_with, st. cbn [pm_l pm_linv pm_tag]. rewrite app_length. cbn [length]. replace (length bl + 1) with (S (length bl)) by lia.
    unfold SG. rewrite xsum_snoc. cbn [Nat.add]. reflexivity.
  Qed.
  Lemma process_panic bl b pos : length bl + 1 = lim -> pm_process c (st bl b pos) = Panic.
  Proof.
    intro H. unfold pm_process. cbn [pm_l pm_ctr st pm_offset pm_buf pm_digest].
    rewrite H. rewrite ntz_trailing by (unfold lim; pose proof (Nat.pow_nonzero 2 (2 * n - 1)); lia).
    unfold lim. rewrite ntz_pow2.
    assert (E : nth_error (pm_table (2 * n - 1) L) (2 * n - 1) = None) by (apply nth_error_None; now rewrite pm_table_length).
    now rewrite E.
  Qed.
  Lemma setbuf_st bl b pos b' pos' : pm_setbuf (st bl b pos) b' pos' = st bl b' pos'.
  Proof. reflexivity. Qed.
  Lemma splice0 (x buf : bytes) : length x = length buf -> splice 0 x buf = x.
  Proof. intro H. unfold splice. cbn [firstn app]. rewrite skipn_all2 by lia. apply app_nil_r. Qed.

  Lemma enc_len (bl : list bytes) b : isblock n b -> length (enc c (xorl b (D (S (length bl))))) = n.
  Proof. intro H. apply (law_enc HL). apply xorl_block; [auto|apply D_blk]. Qed.

  Lemma loop_ok : forall fuel msg bl buf, length msg <= fuel -> bytes_ok msg -> length buf = n ->
    n * length bl + length msg <= n * lim ->
    exists bl2 t buf', pm_loop fuel c (st bl buf 0) msg = Ok (st (bl ++ bl2) buf' 0, t) /\
      msg = concat bl2 ++ t /\ all_len n bl2 /\ length t <= n /\ (t = [] -> msg = []) /\ length buf' = n.
  Proof.
    induction fuel as [|f IH]; intros msg bl buf Hf Hm Hb Hlim.
    - destruct msg; [|cbn in Hf; lia]. exists [], [], buf. cbn. rewrite app_nil_r. repeat split; auto; [constructor|lia].
    - cbn [pm_loop]. fold n. destruct (Nat.ltb_spec n (length msg)) as [Hlt|Hge].
      + rewrite setbuf_st. cbn [pm_buf pm_pos st]. assert (Lf : length (firstn n msg) = n) by (rewrite firstn_length; lia).
        rewrite splice0 by (rewrite Lf; cbn; lia).
        assert (Hblk : isblock n (firstn n msg)) by (split; [auto|now apply bytes_ok_firstn]).
        rewrite process_ok by nia. cbn [rbind].
        destruct (IH (skipn n msg) (bl ++ [firstn n msg]) (enc c (xorl (firstn n msg) (D (S (length bl)))))) as (bl2 & t & buf' & E & E1 & A & Lt & Z & Lb).
        * rewrite skipn_length. lia.
        * now apply bytes_ok_skipn.
        * now apply enc_len.
        * rewrite app_length, skipn_length. cbn [length]. lia.
        * exists (firstn n msg :: bl2), t, buf'. rewrite E. rewrite <- app_assoc. cbn [app concat]. repeat split; auto.
          -- rewrite <- app_assoc, <- E1. symmetry. apply firstn_skipn.
          -- constructor; auto.
          -- intro Ht. specialize (Z Ht). exfalso. apply (f_equal (@length _)) in Z. rewrite skipn_length in Z. cbn in Z. lia.
      + exists [], msg, buf. rewrite app_nil_r. repeat split; auto. constructor.
  Qed.
  Lemma loop_panic : forall fuel msg bl buf, length msg <= fuel -> bytes_ok msg -> length buf = n ->
    length bl < lim -> n * lim < n * length bl + length msg -> pm_loop fuel c (st bl buf 0) msg = Panic.
  Proof.
    induction fuel as [|f IH]; intros msg bl buf Hf Hm Hb Hbl Hlim; [nia|].
    cbn [pm_loop]. fold n. destruct (Nat.ltb_spec n (length msg)) as [Hlt|Hge]; [|nia].
    rewrite setbuf_st. cbn [pm_buf pm_pos st]. assert (Lf : length (firstn n msg) = n) by (rewrite firstn_length; lia).
    rewrite splice0 by (rewrite Lf; cbn; lia).
    assert (Hblk : isblock n (firstn n msg)) by (split; [auto|now apply bytes_ok_firstn]).
    destruct (Nat.eq_dec (length bl + 1) lim) as [E|NE]; [now rewrite process_panic|].
    rewrite process_ok by lia. cbn [rbind]. apply IH.
    - rewrite skipn_length; lia.
    - now apply bytes_ok_skipn.
    - now apply enc_len.
    - rewrite app_length; cbn [length]; lia.
    - rewrite app_length, skipn_length. cbn [length]. nia.
  Qed.

  (** What the state says about the bytes written. *)
  Definition inv (d : pmacst) (m : bytes) : Prop := exists bl t buf,
    m = concat bl ++ t /\ all_len n bl /\ length t <= n /\ (t = [] -> bl = []) /\
    d = st bl buf (length t) /\ length buf = n /\ firstn (length t) buf = t.

  Lemma splice_firstn (x buf : bytes) pos : pos + length x <= length buf ->
    firstn (pos + length x) (splice pos x buf) = firstn pos buf ++ x.
  Proof.
    intro H. unfold splice. rewrite app_assoc. apply firstn_app_exact. rewrite app_length, firstn_length. lia.
  Qed.

  Lemma write_ok d m x : inv d m -> bytes_ok m -> bytes_ok x -> length (m ++ x) <= n * lim ->
    exists d', pmac_write c d x = Ok d' /\ inv d' (m ++ x).
  Proof.
    intros (bl & t & buf & Em & A & Lt & Zt & Ed & Lb & Fb) Hm Hx Hl. subst d.
    assert (Lm : length m = n * length bl + length t) by (rewrite Em, app_length, (concat_len A); lia).
    rewrite app_length in Hl. unfold pmac_write. fold n. cbn [pm_pos st pm_buf].
    destruct (Nat.ltb_spec (n - length t) (length x)) as [Hlt|Hge].
    - rewrite setbuf_st.
      set (r := n - length t) in *. assert (Lr : length (firstn r x) = r) by (rewrite firstn_length; lia).
      assert (Eb : splice (length t) (firstn r x) buf = t ++ firstn r x).
      { rewrite <- (firstn_all2 (n := length t + length (firstn r x)) (splice (length t) (firstn r x) buf)).
        - rewrite splice_firstn by lia. now rewrite Fb.
        - rewrite splice_length by lia. lia. }
      rewrite Eb. assert (Hblk : isblock n (t ++ firstn r x)).
      { split; [rewrite app_length; lia|]. apply bytes_ok_app. split; [|now apply bytes_ok_firstn].
        rewrite Em in Hm. now apply bytes_ok_app in Hm. }
      rewrite process_ok by nia. cbn [rbind].
      destruct (@loop_ok (length (skipn r x)) (skipn r x) (bl ++ [t ++ firstn r x]) (enc c (xorl (t ++ firstn r x) (D (S (length bl))))))
        as (bl2 & t2 & buf2 & E & E1 & A2 & Lt2 & Z2 & Lb2); [lia|now apply bytes_ok_skipn|now apply enc_len| |].
      { rewrite app_length, skipn_length. cbn [length]. nia. }
      assert (Nt2 : 0 < length t2).
      { destruct t2; [|cbn; lia]. specialize (Z2 eq_refl). apply (f_equal (@length _)) in Z2. rewrite skipn_length in Z2. cbn in Z2. lia. }
      rewrite E. cbn [rbind]. destruct (Nat.ltb_spec 0 (length t2)); [|lia].
      eexists. split; [reflexivity|]. exists ((bl ++ [t ++ firstn r x]) ++ bl2), t2, (splice 0 t2 buf2). repeat split.
      + rewrite Em, !concat_app. cbn [concat]. rewrite app_nil_r, <- !app_assoc, <- E1. now rewrite firstn_skipn.
      + apply Forall_app. split; auto. apply Forall_app. split; auto. constructor; [apply Hblk|constructor].
      + auto.
      + intros ->. cbn in Nt2. lia.
      + now rewrite splice_length by lia.
      + change (length t2) with (0 + length t2). rewrite splice_firstn by lia. reflexivity.
    - cbn [rbind]. assert (El : pm_loop (length x) c (st bl buf (length t)) x = Ok (st bl buf (length t), x)).
      { destruct x as [|a x]; [reflexivity|]. cbn [length pm_loop]. fold n. cbn [length] in Hge.
        destruct (Nat.ltb_spec n (S (length x))); [lia|reflexivity]. }
      rewrite El. cbn [rbind]. destruct (Nat.ltb_spec 0 (length x)) as [Hp|Hz].
      + eexists. split; [reflexivity|]. exists bl, (t ++ x), (splice (length t) x buf). rewrite app_length. repeat split; auto.
        * now rewrite Em, app_assoc.
        * lia.
        * intro E. apply app_eq_nil in E as [_ ->]. cbn in Hp. lia.
        * now rewrite splice_length by lia.
        * rewrite splice_firstn by lia. now rewrite Fb.
      + destruct x; [|cbn in Hz; lia]. rewrite app_nil_r. eexists. split; [reflexivity|]. exists bl, t, buf. repeat split; auto.
  Qed.

  Lemma sum_ok d m inp : inv d m -> bytes_ok m ->
    snd (pmac_sum c d inp) = inp ++ firstn ts (pmac_full n 135 (enc c) (pmac_half 135 L) m).
  Proof.
    intros (bl & t & buf & Em & A & Lt & Zt & Ed & Lb & Fb) Hm. subst d. unfold pmac_sum. cbn [snd pm_tag st]. do 2 f_equal.
    assert (Om : Forall (isblock n) bl /\ bytes_ok t).
    { rewrite Em in Hm. apply bytes_ok_app in Hm as [H1 H2]. split; auto. apply bytes_ok_concat in H1.
      apply Forall_forall. intros b Hb. unfold all_len in A. rewrite Forall_forall in A, H1. split; auto. }
    destruct Om as [Ob Ot]. pose proof (SG_blk Ob) as [LS OS].
    assert (Ec : removelast (chunks n m) = bl /\ last (chunks n m) [] = t).
    { destruct t as [|a t].
      - rewrite (Zt eq_refl) in Em |- *. rewrite Em. split; reflexivity.
      - rewrite Em, chunks_tail by (auto; cbn in *; lia). split; [apply removelast_last|apply last_last]. }
    unfold pmac_full. destruct Ec as [-> ->]. unfold pmac_blocks. cbn [pm_pos st pm_digest pm_buf pm_linv].
    fold n. destruct (Nat.eqb_spec (length t) n) as [E|NE].
    - assert (Eb : buf = t) by (rewrite <- Fb; symmetry; apply firstn_all2; lia). now rewrite Eb.
    - f_equal. fold (zeros n). fold L. change (xsum _ 0 (zeros n) bl) with (SG bl). rewrite Fb.
      set (S := SG bl) in *. assert (Lt' : length t < n) by lia.
      assert (EX : gocopy S (xorl S t) = xorl S (t ++ zeros (n - length t))).
      { pose proof (@gocopy_xor_pad S t ltac:(lia)) as G. rewrite xorl_comm, LS in G. exact G. }
      rewrite EX. set (X := xorl S (t ++ zeros (n - length t))).
      assert (LX : length X = n) by (unfold X, zeros; rewrite xorl_length, app_length, repeat_length; lia).
      assert (EA : splice (length t) [Z.lxor (nth (length t) X 0%Z) 128] X = xor_at (length t) X [128%Z]).
      { unfold xor_at. f_equal. rewrite <- (firstn_skipn (length t) X) at 1. rewrite app_nth2; rewrite firstn_length; [|lia].
        replace (length t - Nat.min (length t) (length X)) with 0 by lia.
        destruct (skipn (length t) X) as [|y r] eqn:Es; [apply (f_equal (@length _)) in Es; rewrite skipn_length in Es; cbn in Es; lia|].
        destruct r; reflexivity. }
      rewrite EA, xor_at_pad by (rewrite LX; cbn; lia). cbn [length]. rewrite LX.
      unfold X. rewrite xorl_assoc. f_equal. symmetry. rewrite pad2_split by auto. f_equal.
  Qed.
  Lemma write_panic d m x : inv d m -> bytes_ok m -> bytes_ok x -> length m <= n * lim -> n * lim < length (m ++ x) ->
    pmac_write c d x = Panic.
  Proof.
    intros (bl & t & buf & Em & A & Lt & Zt & Ed & Lb & Fb) Hm Hx Hl Hg. subst d.
    assert (Lm : length m = n * length bl + length t) by (rewrite Em, app_length, (concat_len A); lia).
    rewrite app_length in Hg. unfold pmac_write. fold n. cbn [pm_pos st pm_buf].
    assert (Hpos : 0 < lim) by (unfold lim; pose proof (Nat.pow_nonzero 2 (2 * n - 1)); lia).
    assert (Hbl : length bl < lim).
    { destruct t; [rewrite (Zt eq_refl); cbn; lia|]. cbn [length] in *. nia. }
    destruct (Nat.ltb_spec (n - length t) (length x)) as [Hlt|Hge]; [|nia]. rewrite setbuf_st.
    set (r := n - length t) in *. assert (Lr : length (firstn r x) = r) by (rewrite firstn_length; lia).
    destruct (Nat.eq_dec (length bl + 1) lim) as [E|NE]; [now rewrite process_panic|].
    assert (Eb : splice (length t) (firstn r x) buf = t ++ firstn r x).
    { rewrite <- (firstn_all2 (n := length t + length (firstn r x)) (splice (length t) (firstn r x) buf)).
      - rewrite splice_firstn by lia. now rewrite Fb.
      - rewrite splice_length by lia. lia. }
    rewrite Eb. assert (Hblk : isblock n (t ++ firstn r x)).
    { split; [rewrite app_length; lia|]. apply bytes_ok_app. split; [|now apply bytes_ok_firstn].
      rewrite Em in Hm. now apply bytes_ok_app in Hm. }
    rewrite process_ok by lia. cbn [rbind]. rewrite loop_panic; [reflexivity|lia|now apply bytes_ok_skipn|now apply enc_len| |].
    - rewrite app_length. cbn [length]. lia.
    - rewrite app_length, skipn_length. cbn [length]. nia.
  Qed.
End obj.
