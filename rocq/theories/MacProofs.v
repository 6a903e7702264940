From Verif Require Import Base PaddingModel BlockModeModel ToolBytesModel ToolBytesSpec ToolBytesProofs MacModel MacSpec.
Set Implicit Arguments. Unset Strict Implicit.
Local Open Scope nat_scope.

(** ** Blocks *)
Lemma decompose n (m : bytes) : 0 < n -> m <> [] ->
  exists bl tail, m = concat bl ++ tail /\ all_len n bl /\ 0 < length tail <= n.
Proof.
  intro Hn. remember (length m) as k eqn:Ek. revert m Ek. induction k as [k IH] using lt_wf_ind. intros m Ek Hne.
  destruct (Nat.leb_spec (length m) n) as [Hle|Hgt].
  - exists [], m. split; [reflexivity|]. split; [constructor|]. destruct m; [congruence|cbn in *; lia].
  - destruct (IH (length (skipn n m))) with (m := skipn n m) as (bl & tail & E & A & L); auto.
    + rewrite skipn_length. lia.
    + intro H. apply (f_equal (@length Z)) in H. rewrite skipn_length in H. cbn in H. lia.
    + exists (firstn n m :: bl), tail. split; [|split; auto].
      * cbn [concat]. rewrite <- app_assoc, <- E. symmetry. apply firstn_skipn.
      * constructor; auto. rewrite firstn_length. lia.
Qed.
Lemma chunks_short n (t : bytes) : 0 < length t <= n -> chunks n t = [t].
Proof.
  intro L. rewrite chunks_cons by (lia || (destruct t; [cbn in L; lia|discriminate])).
  rewrite firstn_all2 by lia. rewrite skipn_all2 by lia. now rewrite chunks_nil.
Qed.
Lemma chunks_tail n bl (t : bytes) : 0 < n -> all_len n bl -> 0 < length t <= n ->
  chunks n (concat bl ++ t) = bl ++ [t].
Proof.
  intros Hn A L. induction A as [|b bl Hb _ IH]; cbn [concat app]; [now apply chunks_short|].
  rewrite <- app_assoc, chunks_app_block by auto. now rewrite IH.
Qed.
Lemma concat_len n (bl : list bytes) : all_len n bl -> length (concat bl) = n * length bl.
Proof. intro H. induction H as [|b bl Hb _ IH]; cbn [concat length]; [lia|]. rewrite app_length. lia. Qed.
Lemma mod_tail n k t : 0 < t <= n -> (n * k + t) mod n = (if t =? n then 0 else t).
Proof.
  intro H. rewrite Nat.add_comm, Nat.mul_comm, Nat.mod_add by lia. destruct (Nat.eqb_spec t n) as [->|].
  - apply Nat.mod_same. lia.
  - apply Nat.mod_small. lia.
Qed.
Lemma bytes_ok_concat bl : bytes_ok (concat bl) <-> Forall bytes_ok bl.
Proof.
  induction bl as [|b bl IH]; cbn [concat]; [split; constructor|]. rewrite bytes_ok_app, IH.
  split; [intros [H1 H2]; constructor; auto|intro H; inversion H; auto].
Qed.
Lemma zeros_block n : isblock n (zeros n).
Proof. split; [apply repeat_length|apply bytes_ok_repeat; unfold is_byte; lia]. Qed.
Lemma xorl_block n a b : isblock n a -> isblock n b -> isblock n (xorl a b).
Proof. intros [La Oa] [Lb Ob]. split; [rewrite xorl_length; lia|now apply xorl_ok]. Qed.
Lemma double_block n p x : isblock n (double n p x).
Proof. split; [apply double_length|apply double_ok]. Qed.

(** ** Padding *)
Lemma iso_pad_eq n m : 0 < n -> iso_pad n m = pad2 n m.
Proof.
  intro Hn. unfold iso_pad, iso7816_pad. destruct (Z.ltb_spec (Z.of_nat n) 1); [lia|].
  unfold pad_count, zlen, splice, pad2. rewrite firstn_app_exact by reflexivity. f_equal.
  replace (Z.to_nat (Z.of_nat n - Z.of_nat (length m) mod Z.of_nat n)) with (S (n - 1 - length m mod n)).
  - cbn [repeat length app]. f_equal. rewrite skipn_app. rewrite skipn_all2 by lia. replace (length m + 1 - length m) with 1 by lia. reflexivity.
  - rewrite <- Nat2Z.inj_mod. pose proof (Nat.mod_upper_bound (length m) n ltac:(lia)). lia.
Qed.
Lemma pad2_concat n bl t : 0 < n -> all_len n bl -> length t < n -> pad2 n (concat bl ++ t) = concat bl ++ pad2 n t.
Proof.
  intros Hn A L. unfold pad2. rewrite <- app_assoc. do 3 f_equal. f_equal. f_equal.
  rewrite app_length, (concat_len A), Nat.add_comm, Nat.mul_comm, Nat.mod_add by lia. reflexivity.
Qed.
Lemma pad2_block n t : length t < n -> length (pad2 n t) = n.
Proof. intro H. unfold pad2. rewrite app_length. cbn [length]. rewrite repeat_length, Nat.mod_small by lia. lia. Qed.
Lemma pad2_ok n t : bytes_ok t -> bytes_ok (pad2 n t).
Proof.
  intro H. apply bytes_ok_app. split; auto. constructor; [unfold is_byte; lia|]. apply bytes_ok_repeat. unfold is_byte; lia.
Qed.
Lemma pad2_isblock n t : length t < n -> bytes_ok t -> isblock n (pad2 n t).
Proof. intros. split; [now apply pad2_block|now apply pad2_ok]. Qed.
Lemma xor_end_app a b k : length b = length k -> xor_end (a ++ b) k = a ++ xorl b k.
Proof.
  intro L. unfold xor_end. rewrite app_length. replace (length a + length b - length k) with (length a) by lia.
  now rewrite firstn_app_exact, skipn_app_exact.
Qed.

(** ** xor_at *)
Lemma xor_at_length off buf d : off <= length buf -> length (xor_at off buf d) = length buf.
Proof.
  intro H. unfold xor_at, splice. rewrite !app_length, firstn_length, skipn_length, xorl_length, skipn_length. lia.
Qed.
Lemma xor_at_eq off buf d : off + length d <= length buf ->
  xor_at off buf d = firstn off buf ++ xorl (skipn off buf) d ++ skipn (off + length d) buf.
Proof.
  intro H. unfold xor_at, splice.
  assert (L : length (xorl (skipn off buf) d) = length d) by (rewrite xorl_length, skipn_length; lia).
  now rewrite L.
Qed.
(** a short addend is the same as one extended with zeros *)
Lemma xor_at_pad off buf d : off + length d <= length buf ->
  xor_at off buf d = xorl buf (zeros off ++ d ++ zeros (length buf - off - length d)).
Proof.
  intro H. rewrite xor_at_eq by auto.
  rewrite <- (firstn_skipn off buf) at 4. rewrite xorl_app by (rewrite firstn_length; unfold zeros; rewrite repeat_length; lia).
  f_equal.
  - symmetry. apply xorl_repeat0. rewrite firstn_length. lia.
  - rewrite <- (firstn_skipn (length d) (skipn off buf)) at 2.
    rewrite xorl_app by (rewrite firstn_length, skipn_length; lia). f_equal.
    + rewrite (xorl_comm (skipn off buf) d), (xorl_comm (firstn (length d) (skipn off buf)) d).
      symmetry. apply xorl_firstn_r. lia.
    + rewrite skipn_skipn'. symmetry. apply xorl_repeat0. rewrite skipn_length. lia.
Qed.
Lemma xor_at_0 buf d : length d = length buf -> xor_at 0 buf d = xorl buf d.
Proof. intro H. rewrite xor_at_pad by lia. cbn [zeros repeat app]. f_equal. rewrite H.
  replace (length buf - 0 - length buf) with 0 by lia. cbn. apply app_nil_r. Qed.

Lemma pad2_split n b : length b < n ->
  pad2 n b = xorl (b ++ zeros (n - length b)) (zeros (length b) ++ [128%Z] ++ zeros (n - length b - 1)).
Proof.
  intro H. unfold pad2. rewrite Nat.mod_small by lia.
  rewrite xorl_app by (unfold zeros; rewrite repeat_length; auto). f_equal.
  - symmetry. apply xorl_repeat0. lia.
  - replace (n - length b) with (S (n - 1 - length b)) by lia. cbn [zeros repeat app xorl]. f_equal.
    replace (S (n - 1 - length b) - 1) with (n - 1 - length b) by lia.
    symmetry. apply xorl_repeat0. unfold zeros. rewrite repeat_length. lia.
Qed.
Lemma gocopy_xor_pad tag b : length b <= length tag ->
  gocopy tag (xorl b tag) = xorl tag (b ++ zeros (length tag - length b)).
Proof.
  intro H. rewrite <- (firstn_skipn (length b) tag) at 3. rewrite xorl_app by (rewrite firstn_length; lia).
  unfold gocopy. assert (L : length (xorl b tag) = length b) by (rewrite xorl_length; lia).
  rewrite firstn_all2 by lia. rewrite L. f_equal.
  - rewrite (xorl_comm (firstn _ _)). symmetry. apply xorl_firstn_r. lia.
  - symmetry. apply xorl_repeat0. rewrite skipn_length. lia.
Qed.
(** key and 10* padding added to a partial block *)
Lemma finish_partial n tag b k : length tag = n -> length k = n -> length b < n ->
  xor_at (length b) (xorl k (xorl tag (b ++ zeros (n - length b)))) [128%Z] = xorl tag (xorl (pad2 n b) k).
Proof.
  intros Lt Lk Lb. set (x := b ++ zeros (n - length b)).
  assert (Lx : length x = n) by (unfold x, zeros; rewrite app_length, repeat_length; lia).
  rewrite xor_at_pad by (rewrite !xorl_length; cbn [length]; lia).
  replace (length (xorl k (xorl tag x)) - length b - length [128%Z]) with (n - length b - 1)
    by (rewrite !xorl_length; cbn [length]; lia).
  rewrite pad2_split by auto. fold x. set (y := zeros (length b) ++ [128%Z] ++ zeros (n - length b - 1)).
  rewrite (xorl_comm k), !xorl_assoc. f_equal. f_equal. apply xorl_comm.
Qed.

Section cmac.
  Variable c : cipher.
  Hypothesis HL : lawful c.
  Let n := bsz c.
  Let E := enc c.
  Lemma n_pos : 0 < n. Proof. apply (law_pos HL). Qed.

  Lemma chain_block t bl : isblock n t -> Forall (isblock n) bl -> isblock n (chain E t bl).
  Proof.
    intros Ht H. revert t Ht. induction H as [|b bl Hb _ IH]; intros t Ht; cbn [chain fold_left]; auto.
    apply IH. apply (law_enc HL). now apply xorl_block.
  Qed.
  Lemma chain_app t a b : chain E t (a ++ b) = chain E (chain E t a) b.
  Proof. apply fold_left_app. Qed.

  Section key.
    Variable p : Z.
    Let K1 := double n p (E (zeros n)).
    Let K2 := double n p K1.

    Lemma cmac_full_decomp bl tail : all_len n bl -> 0 < length tail <= n ->
      cmac_full n p E (concat bl ++ tail) =
      E (xorl (chain E (zeros n) bl) (if length tail =? n then xorl tail K1 else xorl (pad2 n tail) K2)).
    Proof.
      intros A L. unfold cmac_full. change (repeat 0%Z n) with (zeros n). fold K1. fold K2.
      rewrite app_length, (concat_len A), mod_tail by auto.
      destruct (Nat.eqb_spec (n * length bl + length tail) 0); [lia|]. cbn [negb andb].
      destruct (Nat.eqb_spec (length tail) n) as [Et|Et].
      - rewrite Nat.eqb_refl. rewrite xor_end_app by (unfold K1; rewrite double_length; auto).
        rewrite chunks_tail; auto; [|apply n_pos|rewrite xorl_length; unfold K1; rewrite double_length; lia].
        rewrite chain_app. reflexivity.
      - destruct (Nat.eqb_spec (length tail) 0); [lia|].
        rewrite pad2_concat by (auto; lia). rewrite xor_end_app by (rewrite pad2_block by lia; unfold K2; now rewrite double_length).
        rewrite chunks_tail; auto; [|apply n_pos|rewrite xorl_length, pad2_block by lia; unfold K2; rewrite double_length; lia].
        rewrite chain_app. reflexivity.
    Qed.
    Lemma cmac_full_nil : cmac_full n p E [] = E (xorl (zeros n) (xorl (pad2 n []) K2)).
    Proof.
      unfold cmac_full. change (repeat 0%Z n) with (zeros n). fold K1. fold K2. cbn [length Nat.eqb negb andb].
      pose proof n_pos. rewrite <- (app_nil_l (pad2 n [])), xor_end_app by (rewrite pad2_block by (cbn; lia); unfold K2; now rewrite double_length).
      cbn [app]. rewrite chunks_short by (rewrite xorl_length, pad2_block by (cbn; lia); unfold K2; rewrite double_length; lia).
      reflexivity.
    Qed.

    (** mac/cmac.go's loop *)
    Lemma cmac_loop_spec bl tail : forall tag, isblock n tag -> Forall (isblock n) bl -> bytes_ok tail -> 0 < length tail <= n ->
      cmac_loop c K1 K2 tag (bl ++ [tail]) =
      E (xorl (chain E tag bl) (if length tail =? n then xorl tail K1 else xorl (pad2 n tail) K2)).
    Proof.
      induction bl as [|b bl IH]; intros tag Ht Hb Ho L.
      - cbn [app cmac_loop chain fold_left]. fold n. destruct (Nat.eqb_spec (length tail) n) as [Et|Et].
        + cbn [cmac_loop]. unfold E. f_equal. rewrite (xorl_comm K1), (xorl_comm tail tag). apply xorl_assoc.
        + unfold E. f_equal. destruct Ht as [Lt _]. rewrite gocopy_xor_pad by lia. rewrite Lt.
          apply finish_partial; auto; [unfold K2; now rewrite double_length|lia].
      - inversion Hb as [|? ? [Lb Ob] Hbl]; subst. cbn [app cmac_loop]. fold n. rewrite Lb, Nat.eqb_refl.
        assert (Em : match bl ++ [tail] with [] => xorl K1 (xorl b tag) | _ => xorl b tag end = xorl b tag) by (destruct bl; reflexivity).
        rewrite Em. fold E.
        rewrite IH; auto; [|apply (law_enc HL); apply xorl_block; auto; split; auto].
        cbn [chain fold_left]. now rewrite (xorl_comm b tag).
    Qed.
  End key.

  Lemma cmac_sub_eq x : bytes_ok x -> length x = n -> cmac_sub x = double n 135 x.
  Proof.
    intros Hx L. pose proof n_pos. assert (Hne : x <> []) by (destruct x; [cbn in L; lia|discriminate]).
    rewrite <- L. rewrite <- (@carry_double 135 x) by (auto; unfold is_byte; lia).
    unfold cmac_sub. pose proof (shift_carry_spec Hx) as S. destruct (shift_carry x) as [r z]. destruct S as (_ & _ & Z01 & _).
    cbn [fst snd]. destruct Z01 as [-> | ->]; reflexivity.
  Qed.
  Lemma hcmac_sub_eq p x : bytes_ok x -> length x = n -> hcmac_sub p x = double n (p mod 256) x.
  Proof.
    intros Hx L. pose proof n_pos. assert (Hne : x <> []) by (destruct x; [cbn in L; lia|discriminate]).
    rewrite <- L. rewrite <- (@carry_double (p mod 256) x) by (auto; apply Z.mod_pos_bound; lia).
    unfold hcmac_sub. destruct (shift_carry x) as [r z]. cbn [fst snd]. f_equal. destruct (z =? 0)%Z; reflexivity.
  Qed.
  Lemma L_block : isblock n (E (zeros n)).
  Proof. apply (law_enc HL). apply zeros_block. Qed.

  (** ** The streaming object, one byte at a time *)
  Definition feed (st : bytes * nat) (b : Z) : bytes * nat :=
    let '(buf, off) := st in
    if off =? n then (xor_at 0 (E buf) [b], 1) else (xor_at off buf [b], S off).
  Definition feeds := fold_left feed.

  Lemma xor_at_cons off buf b d : S off + length d <= length buf ->
    xor_at (S off) (xor_at off buf [b]) d = xor_at off buf (b :: d).
  Proof.
    intro H. rewrite (@xor_at_eq off buf [b]) by (cbn [length]; lia).
    rewrite (@xor_at_eq off buf (b :: d)) by (cbn [length]; lia).
    rewrite xor_at_eq.
    - assert (L1 : length (firstn off buf) = off) by (rewrite firstn_length; lia).
      destruct (skipn off buf) as [|x r] eqn:Es; [apply (f_equal (@length Z)) in Es; rewrite skipn_length in Es; cbn in Es; lia|].
      assert (E1 : skipn (off + 1) buf = r).
      { rewrite <- skipn_skipn'. rewrite Es. reflexivity. }
      cbn [xorl length]. rewrite xorl_nil_r, E1. cbn [app].
      replace (firstn off buf ++ Z.lxor x b :: r) with ((firstn off buf ++ [Z.lxor x b]) ++ r) by (rewrite <- app_assoc; reflexivity).
      assert (L2 : length (firstn off buf ++ [Z.lxor x b]) = S off) by (rewrite app_length; cbn; lia).
      rewrite firstn_app_exact, skipn_app_exact by auto. rewrite <- app_assoc. cbn [app]. do 3 f_equal.
      rewrite <- skipn_skipn'. rewrite skipn_app_exact by auto.
      replace (off + S (length d)) with (off + 1 + length d) by lia. rewrite <- skipn_skipn'. now rewrite E1.
    - rewrite !app_length, firstn_length, xorl_length, !skipn_length. cbn [length]. lia.
  Qed.
  Lemma xor_at_nil off buf : off <= length buf -> xor_at off buf [] = buf.
  Proof. intro H. rewrite xor_at_eq by (cbn; lia). rewrite xorl_nil_r. cbn [length app]. rewrite Nat.add_0_r. apply firstn_skipn. Qed.

  Lemma feeds_absorb d : forall buf off, length buf = n -> off + length d <= n ->
    feeds d (buf, off) = (xor_at off buf d, off + length d).
  Proof.
    induction d as [|b d IH]; intros buf off Lb H; cbn [length] in H.
    - cbn. rewrite xor_at_nil by lia. f_equal. lia.
    - cbn [feeds fold_left feed]. destruct (Nat.eqb_spec off n); [lia|]. fold (feeds d).
      rewrite IH by (rewrite ?xor_at_length; lia). rewrite xor_at_cons by lia. f_equal. cbn [length]. lia.
  Qed.
  (** a full buffer is encrypted when the next byte arrives *)
  Lemma feeds_flush d buf : d <> [] -> length (E buf) = n -> feeds d (buf, n) = feeds d (E buf, 0).
  Proof.
    intros Hd Le. destruct d as [|b d]; [congruence|]. unfold feeds. cbn [fold_left]. f_equal.
    unfold feed. rewrite Nat.eqb_refl. pose proof n_pos. destruct (Nat.eqb_spec 0 n); [lia|reflexivity].
  Qed.
  Lemma feeds_app a b st : feeds (a ++ b) st = feeds b (feeds a st).
  Proof. apply fold_left_app. Qed.
  Lemma feeds_blocks bl d : forall buf, isblock n buf -> Forall (isblock n) bl -> d <> [] ->
    feeds (concat bl ++ d) (buf, 0) = feeds d (chain E buf bl, 0).
  Proof.
    induction bl as [|b bl IH]; intros buf Hb Hbl Hd; [reflexivity|]. inversion Hbl as [|? ? [Lb Ob] Hr]; subst.
    cbn [concat]. rewrite <- app_assoc, feeds_app. destruct Hb as [Lbuf Obuf].
    rewrite feeds_absorb by (auto; lia). rewrite Nat.add_0_l, Lb, xor_at_0 by lia.
    assert (Bx : isblock n (E (xorl buf b))) by (apply (law_enc HL); apply xorl_block; split; auto).
    rewrite feeds_flush; [|destruct bl as [|? ?]; [cbn; auto|]|apply Bx].
    - rewrite IH by auto. reflexivity.
    - inversion Hr as [|? ? [L2 _] _]; subst. pose proof n_pos. cbn [concat]. destruct l; [cbn in L2; lia|discriminate].
  Qed.
  Lemma feeds_inv d : forall buf off, isblock n buf -> off <= n -> bytes_ok d ->
    isblock n (fst (feeds d (buf, off))) /\ snd (feeds d (buf, off)) <= n.
  Proof.
    induction d as [|b d IH]; intros buf off Hb Ho Hd; [split; auto|]. inversion Hd; subst. unfold feeds. cbn [fold_left].
    assert (X : forall o x, o < n -> isblock n x -> isblock n (xor_at o x [b])).
    { intros o x Hlt [Lx Ox]. split; [rewrite xor_at_length; lia|]. rewrite xor_at_eq by (cbn [length]; lia).
      repeat (apply bytes_ok_app; split); auto using bytes_ok_firstn, bytes_ok_skipn.
      apply xorl_ok; [now apply bytes_ok_skipn|]. repeat constructor; apply H1. }
    pose proof n_pos. unfold feed. destruct (Nat.eqb_spec off n); apply IH; auto; try lia; apply X; auto; try lia.
    now apply (law_enc HL).
  Qed.

  Definition pw2 := n = 8 \/ n = 16 \/ n = 32 \/ n = 64 \/ n = 128.
  Lemma mask_eq len : pw2 -> Z.to_nat (Z.land (Z.of_nat len) (Z.lnot (Z.of_nat n - 1))) = len / n * n.
  Proof.
    intro Hp. assert (exists k, (0 <= k /\ Z.of_nat n = 2 ^ k)%Z) as (k & Hk & En).
    { destruct Hp as [E'|[E'|[E'|[E'|E']]]]; rewrite E'; [exists 3%Z|exists 4%Z|exists 5%Z|exists 6%Z|exists 7%Z]; split; (lia || reflexivity). }
    rewrite En. rewrite <- Z.ldiff_land. replace (2 ^ k - 1)%Z with (Z.ones k) by (rewrite Z.ones_equiv; lia).
    rewrite Z.ldiff_ones_r, Z.shiftl_mul_pow2, Z.shiftr_div_pow2 by lia. rewrite <- En.
    rewrite <- Nat2Z.inj_div, <- Nat2Z.inj_mul, Nat2Z.id. reflexivity.
  Qed.

  Definition bo (d : cmacst) : bytes * nat := (cm_buf d, cm_off d).
  Lemma with_buf_bo d b o : bo (with_buf d b o) = (b, o). Proof. reflexivity. Qed.

  Lemma write_tail_spec d msg : pw2 -> isblock n (cm_buf d) -> cm_off d = 0 -> bytes_ok msg ->
    hcmac_write_tail c d msg = (let '(b, o) := feeds msg (bo d) in with_buf d b o).
  Proof.
    intros Hp Hb Ho Hm. pose proof n_pos as Hn. unfold hcmac_write_tail. fold n. fold E.
    destruct (Nat.ltb_spec n (length msg)) as [Hlt|Hle].
    - rewrite mask_eq by auto. cbv zeta. pose proof (Nat.div_mod (length msg) n ltac:(lia)) as D.
      pose proof (Nat.mod_upper_bound (length msg) n ltac:(lia)) as M. set (q := length msg / n) in *.
      assert (Hq : 1 <= q) by (destruct q; lia).
      set (nn := if length msg =? q * n then q * n - n else q * n).
      assert (Hnn : exists k, nn = n * k /\ nn < length msg <= nn + n).
      { unfold nn. destruct (Nat.eqb_spec (length msg) (q * n)).
        - exists (q - 1). split; [rewrite Nat.mul_sub_distr_l; lia|]. assert (n * q >= n) by (destruct q; lia). lia.
        - exists q. lia. }
      destruct Hnn as (k & Ek & Hr).
      assert (Hbl : Forall (isblock n) (chunks n (firstn nn msg))).
      { assert (A : all_len n (chunks n (firstn nn msg))) by (apply chunks_all_len with (k := k); [lia|rewrite firstn_length; lia]).
        pose proof (chunks_concat (firstn nn msg) Hn) as Cc. assert (O : bytes_ok (concat (chunks n (firstn nn msg)))) by (rewrite Cc; now apply bytes_ok_firstn).
        apply bytes_ok_concat in O. apply Forall_forall. intros x Hx. split.
        - unfold all_len in A. rewrite Forall_forall in A. now apply A.
        - rewrite Forall_forall in O. now apply O. }
      assert (Hsk : skipn nn msg <> []) by (intro H0; apply (f_equal (@length Z)) in H0; rewrite skipn_length in H0; cbn in H0; lia).
      change (fold_left (fun t b => E (xorl t b)) (chunks n (firstn nn msg)) (cm_buf d)) with (chain E (cm_buf d) (chunks n (firstn nn msg))).
      destruct (Nat.ltb_spec 0 (length (skipn nn msg))) as [_|Hx]; [|rewrite skipn_length in Hx; lia].
      assert (Em : feeds msg (bo d) = feeds (skipn nn msg) (chain E (cm_buf d) (chunks n (firstn nn msg)), 0)).
      { unfold bo. rewrite Ho, <- feeds_blocks by auto. f_equal. rewrite chunks_concat by auto. symmetry. apply firstn_skipn. }
      rewrite Em, feeds_absorb by (try apply chain_block; auto; rewrite skipn_length; lia).
      cbn [cm_buf cm_off with_buf]. rewrite Ho. reflexivity.
    - unfold bo. rewrite Ho, feeds_absorb by (try apply Hb; lia). destruct (Nat.ltb_spec 0 (length msg)) as [_|Hx].
      + cbn [Nat.add]. reflexivity.
      + destruct msg; [|cbn in Hx; lia]. cbn [length]. rewrite xor_at_nil by lia. cbn [Nat.add]. rewrite <- Ho. destruct d; reflexivity.
  Qed.
  Lemma write_spec d msg : pw2 -> isblock n (cm_buf d) -> cm_off d <= n -> bytes_ok msg ->
    hcmac_write c d msg = (let '(b, o) := feeds msg (bo d) in with_buf d b o).
  Proof.
    intros Hp Hb Ho Hm. unfold hcmac_write. fold n. fold E. destruct (Nat.ltb_spec 0 (cm_off d)) as [Hpos|Hz].
    - destruct Hb as [Lb Ob]. destruct (Nat.ltb_spec (n - cm_off d) (length msg)) as [Hlt|Hle].
      + set (dif := n - cm_off d) in *.
        assert (Lf : length (firstn dif msg) = dif) by (rewrite firstn_length; lia).
        assert (Bx : isblock n (xor_at (cm_off d) (cm_buf d) (firstn dif msg))).
        { pose proof (@feeds_inv (firstn dif msg) (cm_buf d) (cm_off d) (conj Lb Ob) Ho (bytes_ok_firstn dif Hm)) as [F _].
          rewrite feeds_absorb in F by (auto; lia). exact F. }
        rewrite write_tail_spec; auto; [|now apply (law_enc HL)|now apply bytes_ok_skipn].
        rewrite with_buf_bo.
        assert (Em : feeds msg (bo d) = feeds (skipn dif msg) (xor_at (cm_off d) (cm_buf d) (firstn dif msg), n)).
        { rewrite <- (firstn_skipn dif msg) at 1. rewrite feeds_app. unfold bo.
          rewrite (@feeds_absorb (firstn dif msg)) by (auto; lia). do 2 f_equal. lia. }
        rewrite Em.
        rewrite feeds_flush; [|intro H0; apply (f_equal (@length Z)) in H0; rewrite skipn_length in H0; cbn in H0; lia|now apply (law_enc HL)].
        destruct (feeds _ _). reflexivity.
      + unfold bo. rewrite feeds_absorb by (auto; lia). reflexivity.
    - apply write_tail_spec; auto. lia.
  Qed.

  (** The tag of what was fed. *)
  Lemma sum_spec p ts inp m : bytes_ok m ->
    let K1 := double n p (E (zeros n)) in let K2 := double n p K1 in
    hcmac_sum c {| cm_k0 := K1; cm_k1 := K2; cm_buf := fst (feeds m (zeros n, 0));
                   cm_off := snd (feeds m (zeros n, 0)); cm_tag := ts |} inp
    = inp ++ firstn ts (cmac_full n p E m).
  Proof.
    intros Hm K1 K2. pose proof n_pos as Hn.
    assert (G : forall k, length k = n -> gocopy (zeros n) k = k).
    { intros k Lk. unfold gocopy, zeros. rewrite repeat_length. rewrite firstn_all2 by lia.
      rewrite skipn_all2 by (rewrite repeat_length; lia). apply app_nil_r. }
    assert (F : forall bl tail, m = concat bl ++ tail -> Forall (isblock n) bl -> length tail <= n -> (tail <> [] \/ bl = []) ->
      feeds m (zeros n, 0) = (xor_at 0 (chain E (zeros n) bl) tail, length tail)).
    { intros bl tail -> Hbl Lt Hor. pose proof (chain_block (zeros_block n) Hbl) as [Lc _].
      destruct Hor as [Hne| ->].
      - rewrite feeds_blocks by (auto; apply zeros_block). rewrite feeds_absorb by (auto; lia). reflexivity.
      - cbn [concat app chain fold_left] in *. rewrite feeds_absorb by (auto; lia). reflexivity. }
    destruct m as [|x m'] eqn:Em.
    - rewrite cmac_full_nil. cbn [feeds fold_left fst snd]. unfold hcmac_sum. cbn [cm_off cm_k0 cm_k1 cm_buf cm_tag]. fold n. fold E.
      destruct (Nat.ltb_spec 0 n); [|lia]. rewrite G by (unfold K2; apply double_length). do 3 f_equal.
      fold K1. fold K2. rewrite <- (@finish_partial n (zeros n) [] K2); [|apply zeros_block|unfold K2; apply double_length|cbn; lia].
      cbn [length app]. rewrite Nat.sub_0_r. f_equal. f_equal. symmetry. apply xorl_repeat0. unfold zeros. rewrite repeat_length. lia.
    - rewrite <- Em in *. destruct (@decompose n m Hn ltac:(rewrite Em; discriminate)) as (bl & tail & E1 & A & L).
      assert (Hbl : Forall (isblock n) bl /\ bytes_ok tail).
      { rewrite E1 in Hm. apply bytes_ok_app in Hm as [H1 H2]. apply bytes_ok_concat in H1. split; auto.
        apply Forall_forall. intros b Hb. unfold all_len in A. rewrite Forall_forall in A, H1. split; auto. }
      destruct Hbl as [Hbl Hto].
      assert (Htne : tail <> []) by (destruct tail; [cbn in L; lia|discriminate]).
      rewrite (F bl tail E1 Hbl) by (auto; lia).
      rewrite E1, (cmac_full_decomp p A L). fold K1. fold K2. cbn [fst snd].
      unfold hcmac_sum. cbn [cm_off cm_k0 cm_k1 cm_buf cm_tag]. fold n. fold E.
      pose proof (chain_block (zeros_block n) Hbl) as [Lc _]. do 2 f_equal.
      destruct (Nat.eqb_spec (length tail) n) as [Et|Et].
      + destruct (Nat.ltb_spec (length tail) n); [lia|]. rewrite G by (unfold K1; apply double_length).
        rewrite xor_at_0 by lia. f_equal. rewrite (xorl_comm K1). apply xorl_assoc.
      + destruct (Nat.ltb_spec (length tail) n); [|lia]. rewrite G by (unfold K2; apply double_length).
        rewrite (@xor_at_pad 0 (chain E (zeros n) bl) tail) by lia.
        change (zeros 0 ++ tail ++ zeros (length (chain E (zeros n) bl) - 0 - length tail))
          with (tail ++ zeros (length (chain E (zeros n) bl) - 0 - length tail)). rewrite Lc, Nat.sub_0_r.
        f_equal. apply finish_partial; auto. unfold K2. apply double_length.
  Qed.
End cmac.
