From Verif Require Import Base BlockModeModel StreamModel StreamSpec StreamProofs
  FeedbackModel FeedbackSpec FeedbackProofs.
Set Implicit Arguments.

(** ** GCFB *)
Lemma fb_const d K (ks : bytes) : forall frag (x h : bytes),
  (forall y, length y < length ks -> K (h ++ y) = nth (length y) ks 0%Z) ->
  length x + length frag <= length ks ->
  fb d K (h ++ x) frag = xorl frag (skipn (length x) ks).
Proof.
  induction frag as [|b frag IH]; intros x h HK Hl; cbn [fb xorl]; auto.
  cbn [length] in Hl. rewrite HK by lia.
  set (o := Z.lxor b _). rewrite <- app_assoc.
  rewrite IH by (try assumption; rewrite app_length; cbn [length]; lia).
  rewrite app_length. cbn [length]. rewrite <- (skipn_skipn' 1).
  destruct (skipn (length x) ks) as [|k r] eqn:Ek.
  - apply (f_equal (@length Z)) in Ek. rewrite skipn_length in Ek. cbn in Ek. lia.
  - cbn [skipn]. f_equal. unfold o. f_equal.
    rewrite <- (firstn_skipn (length x) ks), Ek.
    rewrite app_nth2 by (rewrite firstn_length; lia).
    rewrite firstn_length, Nat.min_l by lia. now rewrite Nat.sub_diag.
Qed.

Section gcfb.
  Variable mk : bytes -> cipher.
  Hypothesis Hmk : forall k, length k = 32 -> bsz (mk k) = 8 /\ len_ok (mk k).
  Variable d : bool.
  Variable key : bytes.
  Hypothesis Hkey : length key = 32.
  Let K := gcfb_K mk gcfbC false key.

  Lemma enc8 k b : length k = 32 -> length b = 8 -> length (enc (mk k) b) = 8.
  Proof. intros Hk Hb. destruct (@Hmk k Hk) as [E [_ H]]. rewrite E in H. auto. Qed.

  Lemma mesh_key_length k : length k = 32 -> length (mesh_key mk gcfbC k) = 32.
  Proof. intro H. unfold mesh_key. rewrite !app_length, !enc8 by auto. reflexivity. Qed.
  Lemma key_at_length t : length (key_at mk gcfbC key t) = 32.
  Proof. induction t; cbn; [auto|]. now apply mesh_key_length. Qed.
  Lemma iv_at_app h x t : 8 <= length h ->
    iv_at mk gcfbC false key (h ++ x) t = iv_at mk gcfbC false key h t.
  Proof. intro H. induction t as [|t IH]; cbn [iv_at]; [now apply slice_app_l|]. now rewrite IH. Qed.
  Lemma iv_at_length h t : 8 <= length h -> length (iv_at mk gcfbC false key h t) = 8.
  Proof.
    intro H. induction t as [|t IH]; cbn [iv_at]; [now apply slice_length|].
    apply enc8; [apply key_at_length|auto].
  Qed.

  Definition gcfb_Inv (st : gcfb_st) (h : bytes) : Prop :=
    exists j, length h = 8 * j + 8 /\ gcnt st = 8 * j /\
      gkey st = key_at mk gcfbC key ((j - 1) / 128) /\
      giv st = iv_at mk gcfbC false key h ((j - 1) / 128) /\
      greg st = slice (8 * j) 8 h.

  Lemma gcfb_block_Inv st h b : gcfb_Inv st h -> length b = 8 ->
    exists st', gcfb_block mk d st b = (st', fb d K h b) /\
                gcfb_Inv st' (h ++ ct d b (fb d K h b)).
  Proof.
    intros (j & Lh & Cn & Ky & Iv & Rg) Lb.
    set (reg := if j mod 128 =? 0 then iv_at mk gcfbC false key h (j / 128) else slice (8 * j) 8 h).
    set (kt := key_at mk gcfbC key (j / 128)).
    set (st1 := if (0 <? gcnt st) && (gcnt st mod 1024 =? 0) then mesh mk st else st).
    assert (H1 : greg st1 = reg /\ gkey st1 = kt /\ giv st1 = iv_at mk gcfbC false key h (j / 128) /\
                 gcnt st1 = 8 * j).
    { unfold st1, reg, kt. rewrite Cn.
      pose proof (Nat.div_mod j 128 ltac:(lia)) as D. pose proof (Nat.mod_upper_bound j 128 ltac:(lia)) as Bm.
      assert (Em : (8 * j) mod 1024 = 8 * (j mod 128)) by (change 1024 with (8 * 128); now apply Nat.mul_mod_distr_l).
      rewrite Em. destruct (Nat.eqb_spec (j mod 128) 0) as [E0|N0].
      - destruct (Nat.eq_dec j 0) as [->|Hj].
        + cbn. cbn in Ky, Iv, Rg. auto.
        + replace ((0 <? 8 * j) && (8 * (j mod 128) =? 0)) with true by (rewrite E0; lia).
          assert (Et : j / 128 = S ((j - 1) / 128)).
          { assert (Q : (j - 1) / 128 = j / 128 - 1); [|rewrite Q; lia].
            symmetry. apply Nat.div_unique with (r := 127); lia. }
          unfold mesh. cbn [greg gkey giv gcnt].
          assert (Enk : key_at mk gcfbC key (j / 128) = mesh_key mk gcfbC (gkey st)).
          { rewrite Et, Ky. reflexivity. }
          fold (mesh_key mk gcfbC (gkey st)). rewrite <- Enk.
          assert (Ei : enc (mk (key_at mk gcfbC key (j / 128))) (giv st) = iv_at mk gcfbC false key h (j / 128)).
          { rewrite Iv. rewrite Et at 2. cbn [iv_at]. now rewrite <- Et. }
          rewrite Ei. repeat split; auto. unfold gocopy.
          rewrite Ky, !key_at_length. rewrite firstn_all2, skipn_all2 by (rewrite key_at_length; lia).
          apply app_nil_r.
      - replace ((0 <? 8 * j) && (8 * (j mod 128) =? 0)) with false by lia.
        assert (Et : (j - 1) / 128 = j / 128).
        { symmetry. apply Nat.div_unique with (r := j mod 128 - 1); lia. }
        rewrite Et in *. auto. }
    unfold gcfb_block. fold st1. clearbody st1. destruct H1 as (-> & -> & Iv1 & Cn1).
    assert (Lr : length reg = 8).
    { unfold reg. destruct (_ =? _); [apply iv_at_length; lia|apply slice_length; lia]. }
    assert (Lk : length (enc (mk kt) reg) = 8) by (apply enc8; [apply key_at_length|auto]).
    assert (Hf : fb d K h b = xorl b (enc (mk kt) reg)).
    { pose proof (@fb_const d K (enc (mk kt) reg) b [] h) as Q. rewrite app_nil_r in Q. apply Q.
      - intros y Hy. rewrite Lk in Hy. unfold K, gcfb_K. rewrite app_length.
        replace (length h + length y - 8) with (length y + j * 8) by lia.
        assert (D1 : (length y + j * 8) / 8 = j) by (rewrite Nat.div_add by lia; rewrite Nat.div_small by lia; lia).
        assert (D2 : (length y + j * 8) mod 8 = length y) by (rewrite Nat.mod_add by lia; apply Nat.mod_small; lia).
        rewrite D1, D2.
        fold kt. rewrite iv_at_app, slice_app_l by lia. reflexivity.
      - cbn [length]. lia. }
    rewrite <- Hf. eexists. split; [reflexivity|].
    fold (ct d b (fb d K h b)). set (y := ct d b _).
    assert (Ly : length y = 8) by (unfold y; rewrite ct_length; auto).
    exists (S j). cbn [gcnt gkey giv greg].
    replace (S j - 1) with j by lia. repeat split.
    - rewrite app_length. lia.
    - lia.
    - rewrite iv_at_app by lia. exact Iv1.
    - unfold slice. rewrite skipn_app. replace (8 * S j - length h) with 0 by lia.
      rewrite skipn_O, (@skipn_all2 _ _ h) by lia. cbn [app]. now rewrite firstn_all2 by lia.
  Qed.

  Lemma gcfb_loop_Inv : forall n src st h, length src <= n -> length src mod 8 = 0 -> gcfb_Inv st h ->
    exists st', gcfb_loop mk 8 d st (chunks 8 src) = Ok (st', fb d K h src) /\
                gcfb_Inv st' (h ++ ct d src (fb d K h src)).
  Proof.
    induction n as [|n IH]; intros src st h Hn Hm HI.
    - destruct src; [|cbn in Hn; lia]. exists st. split; [reflexivity|].
      cbn [fb]. destruct d; cbn [ct]; now rewrite app_nil_r.
    - destruct src as [|b0 src0] eqn:Es.
      { exists st. split; [reflexivity|]. cbn [fb]. destruct d; cbn [ct]; now rewrite app_nil_r. }
      rewrite <- Es in *. assert (Hne : 0 < length src) by (subst; cbn; lia).
      rewrite chunks_cons by (try lia; subst; congruence). clear Es b0 src0. cbn [gcfb_loop].
      set (x := firstn 8 src). set (r := skipn 8 src).
      assert (Hge : 8 <= length src).
      { destruct (Nat.le_gt_cases 8 (length src)); [auto|]. rewrite Nat.mod_small in Hm; lia. }
      assert (Lx : length x = 8) by (unfold x; rewrite firstn_length; lia).
      assert (Lr : length r = length src - 8) by apply skipn_length.
      assert (Exr : src = x ++ r) by (symmetry; apply firstn_skipn).
      rewrite Lx. cbn [Nat.ltb Nat.leb].
      destruct (gcfb_block_Inv _ HI Lx) as (st1 & E1 & HI1). rewrite E1.
      assert (Hmr : length r mod 8 = 0).
      { replace (length src) with (length r + 1 * 8) in Hm by lia. now rewrite Nat.mod_add in Hm by lia. }
      destruct (IH r st1 _ ltac:(lia) Hmr HI1) as (st2 & E2 & HI2).
      rewrite E2. cbn [rbind]. exists st2.
      assert (Ef : fb d K h src = fb d K h x ++ fb d K (h ++ ct d x (fb d K h x)) r)
        by (rewrite Exr; apply fb_app).
      rewrite Ef. split; [reflexivity|]. rewrite <- app_assoc in HI2.
      assert (Ec : ct d src (fb d K h x ++ fb d K (h ++ ct d x (fb d K h x)) r) =
                   ct d x (fb d K h x) ++ ct d r (fb d K (h ++ ct d x (fb d K h x)) r)).
      { destruct d; cbn [ct]; [exact Exr|reflexivity]. }
      rewrite Ec. exact HI2.
  Qed.

  Lemma gcfb_run calls : forall st h, gcfb_Inv st h -> Forall scall_ok calls ->
    Forall (fun x => length (snd x) mod 8 = 0) calls ->
    exists st' outs, run_calls (gcfb_call mk 8 d) st calls = Ok (st', outs) /\
      map (@length Z) outs = map (fun x => length (snd x)) calls /\
      concat outs = fb d K h (concat (map snd calls)).
  Proof.
    induction calls as [|x calls IH]; intros st h HI Hc Hm; [exists st, []; auto|].
    apply Forall_cons_iff in Hc as [Hx Hc]. apply Forall_cons_iff in Hm as [Hmx Hm].
    destruct (gcfb_loop_Inv _ (le_n (length (snd x))) Hmx HI) as (st1 & E & HI1).
    destruct (IH st1 _ HI1 Hc Hm) as (st2 & outs & E2 & Hl & Ho).
    cbn [run_calls]. unfold gcfb_call at 1, stream_call. unfold scall_ok in Hx.
    destruct (Nat.ltb_spec (length (fst x)) (length (snd x))); [lia|].
    rewrite E. cbn [rbind]. rewrite E2. cbn [rbind].
    eexists st2, _. split; [reflexivity|]. cbn [map concat].
    rewrite fb_length, Hl. split; [reflexivity|]. now rewrite Ho, fb_app.
  Qed.

  Lemma gcfb_new_Inv iv st : length iv = 8 -> gcfb_new mk key iv = Some st -> gcfb_Inv st iv.
  Proof.
    intros H E. unfold gcfb_new in E. destruct (_ =? _); [|discriminate]. injection E as <-.
    assert (E : slice 0 8 iv = iv) by (unfold slice; rewrite skipn_O; now rewrite firstn_all2 by lia).
    exists 0. split; [lia|]. repeat split; symmetry; exact E.
  Qed.
End gcfb.

(** ** CFB1 *)
Lemma land1_testbit z k : (0 <= k)%Z -> Z.land (Z.shiftr z k) 1 = Z.b2z (Z.testbit z k).
Proof.
  intro Hk. change 1%Z with (Z.ones 1). rewrite Z.land_ones by lia. change (2 ^ 1)%Z with 2%Z.
  rewrite <- Z.bit0_mod. rewrite Z.shiftr_spec by lia. now rewrite Z.add_0_l.
Qed.

Definition allbytes : list Z := map Z.of_nat (seq 0 256).
Lemma allbytes_In b : is_byte b -> In b allbytes.
Proof.
  intros [H1 H2]. unfold allbytes. apply in_map_iff. exists (Z.to_nat b). split; [lia|]. apply in_seq. lia.
Qed.
Lemma byte_check (p : Z -> bool) : forallb p allbytes = true -> forall b, is_byte b -> p b = true.
Proof. intros H b Hb. rewrite forallb_forall in H. apply H. now apply allbytes_In. Qed.

Fixpoint blist_eqb (a b : list bool) : bool :=
  match a, b with
  | [], [] => true
  | x :: a, y :: b => Bool.eqb x y && blist_eqb a b
  | _, _ => false
  end.
Lemma blist_eqb_eq a : forall b, blist_eqb a b = true -> a = b.
Proof.
  induction a as [|x a IH]; intros [|y b] H; try discriminate; auto. cbn in H.
  apply andb_prop in H as [H1 H2]. apply eqb_prop in H1. subst. f_equal. auto.
Qed.

Lemma shift_byte b x : is_byte b ->
  is_byte (Z.lor (Z.shiftl b 1 mod 256) (Z.b2z x)) /\
  byte_bits (Z.lor (Z.shiftl b 1 mod 256) (Z.b2z x)) = tl (byte_bits b) ++ [x].
Proof.
  intro Hb.
  assert (Q : forall b, is_byte b -> (forallb (fun x => let v := Z.lor (Z.shiftl b 1 mod 256) (Z.b2z x) in
     (0 <=? v)%Z && (v <? 256)%Z && blist_eqb (byte_bits v) (tl (byte_bits b) ++ [x])) [true; false]) = true).
  { apply byte_check. vm_compute. reflexivity. }
  specialize (Q b Hb). rewrite forallb_forall in Q. specialize (Q x ltac:(destruct x; cbn; auto)).
  cbv zeta in Q. apply andb_prop in Q as [Q1 Q2]. apply blist_eqb_eq in Q2. split; [unfold is_byte; lia|auto].
Qed.

Definition setb (d k : Z) (o : bool) : Z :=
  if o then Z.lor d (Z.shiftl 1 k) else Z.land d (Z.lxor (Z.shiftl 1 k) 255).
Lemma setb_spec d j o : is_byte d -> j < 8 ->
  is_byte (setb d (7 - Z.of_nat j) o) /\
  forall i, i < 8 -> Z.testbit (setb d (7 - Z.of_nat j) o) (7 - Z.of_nat i) =
    if i =? j then o else Z.testbit d (7 - Z.of_nat i).
Proof.
  intros Hd Hj.
  assert (Q : forall d, is_byte d -> forallb (fun j => forallb (fun o =>
     let v := setb d (7 - Z.of_nat j) o in (0 <=? v)%Z && (v <? 256)%Z &&
     forallb (fun i => Bool.eqb (Z.testbit v (7 - Z.of_nat i))
        (if i =? j then o else Z.testbit d (7 - Z.of_nat i))) (seq 0 8)) [true; false]) (seq 0 8) = true).
  { apply byte_check. vm_compute. reflexivity. }
  specialize (Q d Hd). rewrite forallb_forall in Q. specialize (Q j ltac:(apply in_seq; lia)).
  rewrite forallb_forall in Q. specialize (Q o ltac:(destruct o; cbn; auto)). cbv zeta in Q.
  apply andb_prop in Q as [Q1 Q2]. split; [unfold is_byte; lia|].
  intros i Hi. rewrite forallb_forall in Q2. specialize (Q2 i ltac:(apply in_seq; lia)).
  now apply eqb_prop in Q2.
Qed.

Lemma byte_bits_seq b : byte_bits b = map (fun i => Z.testbit b (7 - Z.of_nat i)) (seq 0 8).
Proof. reflexivity. Qed.

Lemma byte_bits_nil b : byte_bits b <> []. Proof. discriminate. Qed.
Lemma byte_bits_length b : length (byte_bits b) = 8. Proof. reflexivity. Qed.
Lemma bits_cons b l : bits (b :: l) = byte_bits b ++ bits l. Proof. reflexivity. Qed.
Lemma bits_length l : length (bits l) = 8 * length l.
Proof. induction l; [reflexivity|]. rewrite bits_cons, app_length, IHl, byte_bits_length. cbn [length]. lia. Qed.
Lemma bits_app a b : bits (a ++ b) = bits a ++ bits b.
Proof. unfold bits. now rewrite flat_map_app. Qed.

Lemma lshift_bits x : forall r, r <> [] -> bytes_ok r ->
  length (lshift r (Z.b2z x)) = length r /\ bytes_ok (lshift r (Z.b2z x)) /\
  bits (lshift r (Z.b2z x)) = tl (bits r) ++ [x].
Proof.
  induction r as [|b r IH]; intros Hne Hok; [congruence|].
  apply Forall_cons_iff in Hok as [Hb Hok]. destruct r as [|b' r].
  - cbn [lshift]. destruct (shift_byte x Hb) as [H1 H2]. split; [reflexivity|].
    split; [repeat constructor; apply H1|]. cbn [bits flat_map]. rewrite !app_nil_r. exact H2.
  - destruct (IH ltac:(congruence) Hok) as (I1 & I2 & I3).
    change (lshift (b :: b' :: r) (Z.b2z x)) with
      (Z.lor (Z.shiftl b 1 mod 256) (Z.land (Z.shiftr b' 7) 1) :: lshift (b' :: r) (Z.b2z x)).
    rewrite land1_testbit by lia. destruct (shift_byte (Z.testbit b' 7) Hb) as [H1 H2].
    split; [cbn [length] in *; lia|]. split; [constructor; auto|].
    rewrite bits_cons, I3, H2, (bits_cons b).
    change (tl (byte_bits b ++ bits (b' :: r))) with (tl (byte_bits b) ++ bits (b' :: r)).
    rewrite <- app_assoc. rewrite <- app_assoc. f_equal.
Qed.

Lemma bit_val_byte b : is_byte b -> bit_val (byte_bits b) = b.
Proof.
  intro Hb. assert (Q : forall b, is_byte b -> (bit_val (byte_bits b) =? b)%Z = true).
  { apply byte_check. vm_compute. reflexivity. }
  apply Z.eqb_eq. auto.
Qed.
Lemma unbits_bits r : bytes_ok r -> unbits (bits r) = r.
Proof.
  intro H. induction H as [|b r Hb H IH]; [reflexivity|].
  assert (N : byte_bits b ++ bits r <> []) by discriminate.
  unfold unbits. rewrite bits_cons, chunks_cons by (lia || exact N).
  rewrite firstn_app_exact, skipn_app_exact by apply byte_bits_length.
  cbn [map]. rewrite bit_val_byte by auto. f_equal. exact IH.
Qed.

Definition bct (d : bool) (xs os : list bool) : list bool := if d then xs else os.
Lemma fb_bits_length d K xs : forall h, length (fb_bits d K h xs) = length xs.
Proof. induction xs; intro h; cbn; auto. Qed.
Lemma fb_bits_app d K a b : forall h,
  fb_bits d K h (a ++ b) = fb_bits d K h a ++ fb_bits d K (h ++ bct d a (fb_bits d K h a)) b.
Proof.
  induction a as [|x a IH]; intro h; cbn [fb_bits app].
  - destruct d; cbn [bct]; now rewrite app_nil_r.
  - rewrite IH. f_equal. f_equal. f_equal. rewrite <- app_assoc. f_equal. now destruct d.
Qed.
Lemma fb_bits_inverse K xs : forall h, fb_bits true K h (fb_bits false K h xs) = xs.
Proof.
  induction xs as [|x xs IH]; intro h; cbn [fb_bits]; auto.
  rewrite IH. f_equal. now destruct x, (K h).
Qed.

Section cfb1.
  Variable c : cipher.
  Hypothesis Hpos : 0 < bsz c.
  Variable ip d : bool.
  Let bs := bsz c.
  Let K := cfb1_K (enc c) bs.
  Definition cfb1_Inv (r : bytes) (hb : list bool) : Prop :=
    length r = bs /\ bytes_ok r /\ 8 * bs <= length hb /\ bits r = skipn (length hb - 8 * bs) hb.

  Lemma cfb1_bit_Inv r hb sb dv j : cfb1_Inv r hb -> j < 8 ->
    let x := Z.testbit (if ip then dv else sb) (7 - Z.of_nat j) in
    let o := xorb x (K hb) in
    exists r', cfb1_bit c ip d sb (r, dv) (Z.of_nat j) = (r', setb dv (7 - Z.of_nat j) o) /\
      cfb1_Inv r' (hb ++ [if d then x else o]).
  Proof.
    intros (Lr & Hok & Lh & Hb) Hj x o.
    assert (HK : Z.land (Z.shiftr (nth 0 (enc c r) 0%Z) 7) 1 = Z.b2z (K hb)).
    { rewrite land1_testbit by lia. f_equal. unfold K, cfb1_K. rewrite <- Hb, unbits_bits by auto. reflexivity. }
    assert (Hx : Z.land (Z.shiftr (if ip then dv else sb) (7 - Z.of_nat j)) 1 = Z.b2z x)
      by (rewrite land1_testbit by lia; reflexivity).
    unfold cfb1_bit. rewrite HK, Hx.
    assert (Ho : Z.lxor (Z.b2z (K hb)) (Z.b2z x) = Z.b2z o) by (unfold o; destruct (K hb), x; reflexivity).
    rewrite Ho. set (mv := if d then x else o).
    assert (Hm : (if d then Z.b2z x else Z.b2z o) = Z.b2z mv) by (unfold mv; now destruct d).
    rewrite Hm. exists (lshift r (Z.b2z mv)). split.
    - f_equal. unfold setb. destruct o; reflexivity.
    - assert (Hne : r <> []) by (intro; subst r; cbn in Lr; lia).
      destruct (@lshift_bits mv r Hne Hok) as (I1 & I2 & I3).
      split; [lia|]. split; [auto|]. split; [rewrite app_length; lia|].
      rewrite I3, Hb, app_length. cbn [length].
      rewrite skipn_app. replace (length hb + 1 - 8 * bs - length hb) with 0 by lia.
      rewrite skipn_O. f_equal.
      replace (length hb + 1 - 8 * bs) with (length hb - 8 * bs + 1) by lia.
      rewrite <- skipn_skipn'. now destruct (skipn (length hb - 8 * bs) hb).
  Qed.

  Lemma cfb1_bits_Inv sb : forall n j r hb dv, j + n = 8 -> cfb1_Inv r hb -> is_byte dv ->
    (ip = true -> forall i, j <= i < 8 -> Z.testbit dv (7 - Z.of_nat i) = Z.testbit sb (7 - Z.of_nat i)) ->
    let xs := map (fun i => Z.testbit sb (7 - Z.of_nat i)) (seq j n) in
    exists r' dv', fold_left (cfb1_bit c ip d sb) (map Z.of_nat (seq j n)) (r, dv) = (r', dv') /\
      is_byte dv' /\ cfb1_Inv r' (hb ++ bct d xs (fb_bits d K hb xs)) /\
      (forall i, i < j -> Z.testbit dv' (7 - Z.of_nat i) = Z.testbit dv (7 - Z.of_nat i)) /\
      map (fun i => Z.testbit dv' (7 - Z.of_nat i)) (seq j n) = fb_bits d K hb xs.
  Proof.
    induction n as [|n IH]; intros j r hb dv Hj HI Hd Hip xs.
    - exists r, dv. subst xs. cbn. repeat split; try apply Hd; auto; try apply HI;
      destruct HI as (H1 & H2 & H3 & H4); destruct d; cbn [bct]; rewrite ?app_nil_r; auto.
    - destruct (@cfb1_bit_Inv r hb sb dv j HI ltac:(lia)) as (r1 & E1 & HI1).
      assert (Hx : Z.testbit (if ip then dv else sb) (7 - Z.of_nat j) = Z.testbit sb (7 - Z.of_nat j)).
      { destruct ip; [apply Hip; auto; lia|reflexivity]. }
      rewrite Hx in E1, HI1. set (x := Z.testbit sb (7 - Z.of_nat j)) in *.
      set (o := xorb x (K hb)) in *. set (dv1 := setb dv (7 - Z.of_nat j) o) in *.
      destruct (@setb_spec dv j o Hd ltac:(lia)) as [Hd1 Hs]. fold dv1 in Hd1, Hs.
      destruct (IH (S j) r1 (hb ++ [if d then x else o]) dv1 ltac:(lia) HI1 Hd1) as (r2 & dv2 & E2 & Hd2 & HI2 & Hlow & Hmap).
      { intros Hi i Hij. rewrite Hs by lia. destruct (Nat.eqb_spec i j); [lia|]. apply Hip; [auto|lia]. }
      exists r2, dv2. cbn [seq map fold_left]. rewrite E1. split; [exact E2|]. split; [exact Hd2|].
      assert (Exs : xs = x :: map (fun i => Z.testbit sb (7 - Z.of_nat i)) (seq (S j) n)) by reflexivity.
      rewrite Exs. cbn [fb_bits]. fold o. split.
      + rewrite <- app_assoc in HI2. destruct d; exact HI2.
      + split.
        * intros i Hi. rewrite Hlow by lia. rewrite Hs by lia. destruct (Nat.eqb_spec i j); [lia|reflexivity].
        * rewrite Hmap. f_equal. rewrite Hlow by lia. rewrite Hs by lia. now rewrite Nat.eqb_refl.
  Qed.

  Lemma cfb1_byte_Inv r hb d0 sb : cfb1_Inv r hb -> is_byte d0 -> (ip = true -> d0 = sb) ->
    exists r' o, cfb1_byte c ip d r d0 sb = (r', o) /\ is_byte o /\
      byte_bits o = fb_bits d K hb (byte_bits sb) /\
      cfb1_Inv r' (hb ++ bct d (byte_bits sb) (fb_bits d K hb (byte_bits sb))).
  Proof.
    intros HI Hd Hip.
    destruct (@cfb1_bits_Inv sb 8 0 r hb d0 eq_refl HI Hd) as (r' & o & E & Ho & HI' & _ & Hm).
    { intros H i _. now rewrite (Hip H). }
    exists r', o. rewrite !byte_bits_seq. auto.
  Qed.

  Lemma cfb1_loop_Inv : forall src dst r hb, cfb1_Inv r hb -> length src <= length dst ->
    bytes_ok dst -> (ip = true -> dst = src) ->
    exists r' os, cfb1_loop c ip d r dst src = (r', os) /\ length os = length src /\ bytes_ok os /\
      bits os = fb_bits d K hb (bits src) /\
      cfb1_Inv r' (hb ++ bct d (bits src) (fb_bits d K hb (bits src))).
  Proof.
    induction src as [|b src IH]; intros dst r hb HI Hl Hok Hip.
    - exists r, []. repeat split; auto; try constructor; destruct HI as (H1 & H2 & H3 & H4); auto;
        destruct d; cbn [bct fb_bits bits flat_map]; rewrite app_nil_r; auto.
    - destruct dst as [|x dst]; [cbn in Hl; lia|]. apply Forall_cons_iff in Hok as [Hx Hok].
      cbn [cfb1_loop hd tl].
      destruct (@cfb1_byte_Inv r hb x b HI Hx) as (r1 & o & E1 & Ho & Eo & HI1).
      { intro H. specialize (Hip H). congruence. }
      destruct (IH dst r1 _ HI1) as (r2 & os & E2 & Lo & Hos & Eos & HI2); auto.
      { cbn in Hl. lia. }
      { intro H. specialize (Hip H). congruence. }
      rewrite E1, E2. exists r2, (o :: os). split; [reflexivity|]. split; [cbn; lia|].
      split; [constructor; auto|]. rewrite !bits_cons, fb_bits_app, <- Eo, Eos. rewrite <- Eo in HI2.
      rewrite <- Eo. split; [reflexivity|]. rewrite <- app_assoc in HI2. destruct d; exact HI2.
  Qed.

  Lemma cfb1_stream iv : length iv = bs -> bytes_ok iv ->
    bitstream_is (cfb1_call c ip d) iv ip d K (bits iv).
  Proof.
    intros Li Hi.
    assert (HI : cfb1_Inv iv (bits iv)).
    { split; [auto|]. split; [auto|]. rewrite bits_length, Li. split; [lia|].
      now rewrite Nat.sub_diag. }
    revert HI. generalize (bits iv) as hb. generalize iv as r. clear Li Hi iv.
    intros r hb HI calls. revert r hb HI. induction calls as [|[dst src] calls IH]; intros r hb HI Hc.
    - exists r, []. repeat split; constructor.
    - apply Forall_cons_iff in Hc as [(H1 & H2 & H3 & H4) Hc]. cbn [fst snd] in *. unfold scall_ok in H1. cbn [fst snd] in H1.
      destruct (@cfb1_loop_Inv src dst r hb HI H1 H2 H4) as (r1 & o & E1 & Lo & Ho & Eo & HI1).
      destruct (IH r1 _ HI1 Hc) as (r2 & os & E2 & Lo2 & Ho2 & Eo2).
      exists r2, (o :: os). cbn [run_calls]. unfold cfb1_call at 1. cbn [fst snd].
      destruct (Nat.ltb_spec (length dst) (length src)); [lia|]. rewrite E1. cbn [rbind]. rewrite E2. cbn [rbind].
      split; [reflexivity|]. cbn [map concat snd]. rewrite Lo, Lo2. split; [reflexivity|].
      split; [constructor; auto|]. now rewrite !bits_app, fb_bits_app, Eo2, Eo.
  Qed.
End cfb1.

Lemma bits_inj a b : bytes_ok a -> bytes_ok b -> bits a = bits b -> a = b.
Proof. intros Ha Hb E. rewrite <- (unbits_bits Ha), <- (unbits_bits Hb). now rewrite E. Qed.

Lemma last_two (l : bytes) n : length l = n -> 2 <= n ->
  skipn (n - 2) l = [nth (n - 2) l 0%Z; nth (n - 1) l 0%Z].
Proof.
  intros Hl H2. apply nth_ext with (d := 0%Z) (d' := 0%Z); [rewrite skipn_length; cbn; lia|].
  intros i Hi. rewrite skipn_length in Hi.
  assert (Hs : forall i, nth i (skipn (n - 2) l) 0%Z = nth (n - 2 + i) l 0%Z).
  { clear -Hl H2. intro i.
    rewrite <- (firstn_skipn (n - 2) l) at 2. rewrite app_nth2; rewrite firstn_length; [f_equal|]; lia. }
  rewrite Hs. destruct i as [|[|i]]; [now rewrite Nat.add_0_r| |lia]. cbn [nth]. f_equal. lia.
Qed.
Lemma last_two_ge (l : bytes) n : length l = n + 2 -> skipn n l = [nth n l 0%Z; nth (n + 1) l 0%Z].
Proof.
  intro H. pose proof (@last_two l (n + 2) H ltac:(lia)) as E.
  replace (n + 2 - 2) with n in E by lia. replace (n + 2 - 1) with (n + 1) in E by lia. exact E.
Qed.
Lemma bytes_ok_concat (l : list bytes) : Forall bytes_ok l -> bytes_ok (concat l).
Proof. induction 1 as [|x l Hx H IH]; cbn; [constructor|]. apply Forall_app. auto. Qed.
Lemma toyn_len_ok n : 0 < n -> len_ok (toyn n).
Proof.
  intro H. split; [exact H|]. cbn [bsz enc toyn]. intros b Hb. rewrite Hb, Nat.eqb_refl.
  rewrite map_length, app_length, skipn_length, firstn_length. lia.
Qed.
Lemma xor_stream_block (ks : nat -> Z) (k : bytes) : forall src off,
  (forall i, i < length src -> ks (off + i) = nth i k 0%Z) -> length src <= length k ->
  xor_stream ks off src = xorl src k.
Proof.
  revert k. intros k src. revert k. induction src as [|b src IH]; intros k off H Hl; [reflexivity|].
  destruct k as [|x k]; [cbn in Hl; lia|]. cbn [xor_stream xorl]. f_equal.
  - f_equal. specialize (H 0 ltac:(cbn; lia)). rewrite Nat.add_0_r in H. exact H.
  - apply IH; [|cbn in Hl; lia]. intros i Hi. specialize (H (S i) ltac:(cbn; lia)).
    cbn [nth] in H. rewrite <- H. f_equal. lia.
Qed.
