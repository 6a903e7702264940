From Verif Require Import Base BlockModeModel StreamModel StreamSpec StreamProofs FeedbackModel FeedbackSpec.
Set Implicit Arguments.

(** ** The specification stream *)
Definition ct (d : bool) (xs os : bytes) : bytes := if d then xs else os.

Lemma fb_length d K xs : forall h, length (fb d K h xs) = length xs.
Proof. induction xs; intro h; cbn; auto. Qed.

Lemma fb_app d K a b : forall h,
  fb d K h (a ++ b) = fb d K h a ++ fb d K (h ++ ct d a (fb d K h a)) b.
Proof.
  induction a as [|x a IH]; intro h; cbn [fb app].
  - destruct d; cbn [ct]; now rewrite app_nil_r.
  - rewrite IH. f_equal. f_equal. f_equal. rewrite <- app_assoc. f_equal. now destruct d.
Qed.

Lemma fb_inverse K xs : forall h, fb true K h (fb false K h xs) = xs.
Proof.
  induction xs as [|x xs IH]; intro h; cbn [fb]; auto.
  rewrite IH. f_equal. rewrite Z.lxor_assoc, Z.lxor_nilpotent. apply Z.lxor_0_r.
Qed.

Lemma fb_inverse' K xs : forall h, fb false K h (fb true K h xs) = xs.
Proof.
  induction xs as [|x xs IH]; intro h; cbn [fb]; auto.
  assert (E : Z.lxor (Z.lxor x (K h)) (K h) = x)
    by (rewrite Z.lxor_assoc, Z.lxor_nilpotent; apply Z.lxor_0_r).
  rewrite E, IH. reflexivity.
Qed.

Lemma ct_length d K h xs : length (ct d xs (fb d K h xs)) = length xs.
Proof. destruct d; cbn [ct]; auto. apply fb_length. Qed.

Lemma nth_overflow_slice {A} o n (l : list A) d i : n <= i -> nth i (slice o n l) d = d.
Proof. intro H. apply nth_overflow. unfold slice. rewrite firstn_length. lia. Qed.

Lemma slice_app_l {A} o n (l r : list A) : o + n <= length l -> slice o n (l ++ r) = slice o n l.
Proof.
  intro H. unfold slice. rewrite skipn_app, firstn_app, skipn_length.
  replace (n - (length l - o)) with 0 by lia. cbn. now rewrite app_nil_r.
Qed.

(** Within one segment the keystream is fixed. *)
Lemma fb_frag d E bs m s q : 0 < s -> bs <= m ->
  forall frag h u, length h = q * s + u + m -> u + length frag <= s ->
  length (E (slice (q * s) bs h)) = bs -> s <= bs ->
  fb d (cfb_K E bs m s) h frag = xorl frag (skipn u (E (slice (q * s) bs h))).
Proof.
  intros Hs Hm. induction frag as [|x frag IH]; intros h u Hh Hu He Hsb; cbn [fb xorl]; auto.
  cbn [length] in Hu.
  assert (K : cfb_K E bs m s h = nth u (E (slice (q * s) bs h)) 0%Z).
  { unfold cfb_K. replace (length h - m) with (u + q * s) by lia.
    rewrite Nat.mod_add, Nat.mod_small, Nat.div_add, Nat.div_small by lia. reflexivity. }
  rewrite K. set (o := Z.lxor x _).
  rewrite IH with (u := S u).
  - rewrite slice_app_l by lia.
    destruct (skipn u (E (slice (q * s) bs h))) as [|k r] eqn:Ek.
    + apply (f_equal (@length Z)) in Ek. rewrite skipn_length in Ek. cbn in Ek. lia.
    + assert (Ek' : skipn (S u) (E (slice (q * s) bs h)) = r).
      { replace (S u) with (u + 1) by lia. rewrite <- skipn_skipn', Ek. reflexivity. }
      rewrite Ek'. unfold o. do 2 f_equal.
      rewrite <- (firstn_skipn u (E (slice (q * s) bs h))), Ek.
      rewrite app_nth2 by (rewrite firstn_length; lia).
      rewrite firstn_length, Nat.min_l by lia. now rewrite Nat.sub_diag.
  - rewrite app_length; cbn; lia.
  - lia.
  - rewrite slice_app_l by lia. exact He.
  - exact Hsb.
Qed.

(** ** Histories *)
Section hist.
  Variable S : Type.
  Variable call : S -> bytes * bytes -> res (S * bytes).
  Variable d : bool.
  Variable K : bytes -> Z.
  Variable Inv : S -> bytes -> Prop.
  Definition one_call : Prop := forall st h x, Inv st h -> scall_ok x ->
    exists st', call st x = Ok (st', fb d K h (snd x)) /\
                Inv st' (h ++ ct d (snd x) (fb d K h (snd x))).

  Lemma fstream_run (one : one_call) calls : forall st h, Inv st h -> Forall scall_ok calls ->
    exists st' outs, run_calls call st calls = Ok (st', outs) /\
      map (@length Z) outs = map (fun x => length (snd x)) calls /\
      concat outs = fb d K h (concat (map snd calls)).
  Proof.
    induction calls as [|x calls IH]; intros st h HI Hc; [exists st, []; auto|].
    apply Forall_cons_iff in Hc as [Hx Hc].
    destruct (one _ _ _ HI Hx) as (st1 & E & HI1).
    destruct (IH st1 _ HI1 Hc) as (st2 & outs & E2 & Hl & Ho).
    cbn [run_calls]. rewrite E. cbn [rbind]. rewrite E2. cbn [rbind].
    eexists st2, _. split; [reflexivity|]. cbn [map concat].
    rewrite fb_length, Hl. split; [reflexivity|]. now rewrite Ho, fb_app.
  Qed.

  Lemma fstream_from (one : one_call) st h : Inv st h -> fstream_is call st d K h.
  Proof. intros HI calls Hc. now apply fstream_run. Qed.

  (** aligned histories *)
  Definition one_aligned (a : nat) : Prop := forall st h x, Inv st h -> scall_ok x ->
    exists st', call st x = Ok (st', fb d K h (snd x)) /\
      (length (snd x) mod a = 0 -> Inv st' (h ++ ct d (snd x) (fb d K h (snd x)))).

  Lemma faligned_from a (one : one_aligned a) : forall st h, Inv st h ->
    fstream_aligned call st d K h a.
  Proof.
    intros st h HI calls last. revert st h HI.
    induction calls as [|x calls IH]; intros st h HI Hc Ha.
    - cbn [app] in *. apply Forall_cons_iff in Hc as [Hx _].
      destruct (one _ _ _ HI Hx) as (st1 & E & _). cbn [run_calls]. rewrite E. cbn [rbind].
      eexists st1, _. split; [reflexivity|]. cbn [map concat]. rewrite fb_length, !app_nil_r. auto.
    - cbn [app] in *. apply Forall_cons_iff in Hc as [Hx Hc]. apply Forall_cons_iff in Ha as [Hax Ha].
      destruct (one _ _ _ HI Hx) as (st1 & E & HI1).
      destruct (IH st1 _ (HI1 Hax) Hc Ha) as (st2 & outs & E2 & Hl & Ho).
      cbn [run_calls]. rewrite E. cbn [rbind]. rewrite E2. cbn [rbind].
      eexists st2, _. split; [reflexivity|]. cbn [map concat].
      rewrite fb_length, Hl. split; [reflexivity|]. now rewrite Ho, fb_app.
  Qed.
End hist.

Lemma fstream_chunk {S} (call : S -> bytes * bytes -> res (S * bytes)) st d K h :
  fstream_is call st d K h -> chunk_invariant call st.
Proof.
  intros H c1 c2 H1 H2 E. destruct (H c1 H1) as (s1 & o1 & E1 & _ & O1).
  destruct (H c2 H2) as (s2 & o2 & E2 & _ & O2).
  exists s1, s2, o1, o2. repeat split; auto. now rewrite O1, O2, E.
Qed.

Lemma fstream_roundtrip {S S'} (ecall : S -> bytes * bytes -> res (S * bytes))
    (dcall : S' -> bytes * bytes -> res (S' * bytes)) st st' K h :
  fstream_is ecall st false K h -> fstream_is dcall st' true K h ->
  stream_roundtrip ecall dcall st st'.
Proof.
  intros H H' c1 H1. destruct (H c1 H1) as (s1 & o1 & E1 & _ & O1).
  exists s1, o1. split; [exact E1|]. split; [now rewrite O1, fb_length|].
  intros c2 H2 E. destruct (H' c2 H2) as (s2 & o2 & E2 & _ & O2).
  exists s2, o2. split; [exact E2|]. rewrite O2, E, O1. apply fb_inverse.
Qed.

(** ** CFB *)
Lemma copy_at_fits {A} u (d l : list A) : u + length d <= length l ->
  copy_at u d l = firstn u l ++ d ++ skipn (u + length d) l.
Proof.
  intro H. unfold copy_at, gocopy. rewrite skipn_length.
  rewrite (@firstn_all2 _ _ d) by lia. now rewrite skipn_skipn'.
Qed.

Lemma copy_at_over {A} u (d l : list A) : u <= length l -> length l <= u + length d ->
  copy_at u d l = firstn u l ++ firstn (length l - u) d.
Proof.
  intros H1 H. unfold copy_at, gocopy. rewrite skipn_length.
  rewrite (@skipn_all2 _ (length d)); [now rewrite app_nil_r|]. rewrite skipn_length. lia.
Qed.

Lemma firstn_copy_at {A} u n (d l : list A) : u + n <= length l -> n <= length d ->
  firstn (u + n) (copy_at u d l) = firstn u l ++ firstn n d.
Proof.
  intros H1 H2. unfold copy_at, gocopy.
  rewrite firstn_app, firstn_length, Nat.min_l by lia.
  rewrite firstn_all2 by (rewrite firstn_length; lia). f_equal.
  replace (u + n - u) with n by lia. rewrite firstn_app, firstn_firstn, firstn_length, skipn_length.
  rewrite Nat.min_l by lia. replace (n - _) with 0 by lia. cbn. now rewrite app_nil_r.
Qed.

Lemma cfb_loop_S c f decrypt st dst src : src <> [] ->
  cfb_loop c (S f) decrypt st dst src =
    let st := if cused st =? length (cout st)
              then {| cnext := cnext st; cout := enc c (cnext st); cused := 0 |} else st in
    let u := cused st in
    let next := if decrypt then copy_at u src (cnext st) else cnext st in
    let o := xorl src (skipn u (cout st)) in
    let n := length o in
    let dst := o ++ skipn n dst in
    let next := if decrypt then next else copy_at u dst next in
    match cfb_loop c f decrypt {| cnext := next; cout := cout st; cused := u + n |}
            (skipn n dst) (skipn n src) with
    | None => None
    | Some (st', os) => Some (st', o ++ os)
    end.
Proof. destruct src; [congruence|reflexivity]. Qed.

Section cfb.
  Variable c : cipher.
  Hypothesis Hlen : len_ok c.
  Variable d : bool.
  Let bs := bsz c.
  Let K := cfb_K (enc c) bs bs bs.

  Definition cfb_Inv (st : cfb_st) (h : bytes) : Prop :=
    length (cnext st) = bs /\ length (cout st) = bs /\
    exists q,
      (cused st = bs /\ length h = q * bs + bs /\ cnext st = slice (q * bs) bs h) \/
      (cused st < bs /\ length h = q * bs + cused st + bs /\
       cout st = enc c (slice (q * bs) bs h) /\ firstn (cused st) (cnext st) = skipn (q * bs + bs) h).

  Lemma cfb_loop_Inv : forall fuel src dst st h,
    length src <= fuel -> length src <= length dst -> cfb_Inv st h ->
    exists st', cfb_loop c fuel d st dst src = Some (st', fb d K h src) /\
      cfb_Inv st' (h ++ ct d src (fb d K h src)).
  Proof.
    destruct Hlen as [Hpos HE].
    induction fuel as [|fuel IH]; intros src dst st h Hf Hd HI.
    - destruct src; [|cbn in Hf; lia]. exists st. split; [reflexivity|].
      cbn [fb]. destruct d; cbn [ct]; now rewrite app_nil_r.
    - destruct src as [|b0 src0] eqn:Es.
      { exists st. split; [reflexivity|]. cbn [fb]. destruct d; cbn [ct]; now rewrite app_nil_r. }
      rewrite <- Es in *. assert (Hne : 0 < length src) by (subst; cbn; lia).
      rewrite cfb_loop_S by (subst src; congruence). cbv zeta.
      clear Es b0 src0.
      destruct HI as (Ln & Lo & q & HI).
      set (st1 := if cused st =? length (cout st) then _ else st).
      assert (H1 : length (cnext st1) = bs /\ length (cout st1) = bs /\ cused st1 < bs /\
        length h = q * bs + cused st1 + bs /\ cout st1 = enc c (slice (q * bs) bs h) /\
        firstn (cused st1) (cnext st1) = skipn (q * bs + bs) h).
      { unfold st1. rewrite Lo. destruct HI as [(U & Lh & N)|(U & Lh & O & N)].
        - rewrite U, Nat.eqb_refl. cbn [cnext cout cused].
          split; [exact Ln|]. split; [now apply HE|]. split; [exact Hpos|]. split; [lia|].
          split; [now rewrite N|]. cbn [firstn]. symmetry. apply skipn_all2. lia.
        - destruct (Nat.eqb_spec (cused st) bs); [lia|]. repeat split; auto. }
      clearbody st1. clear HI Ln Lo. destruct H1 as (Ln & Lo & U & Lh & O & N).
      set (u := cused st1) in *.
      set (o := xorl src (skipn u (cout st1))).
      set (n := length o).
      assert (Hn : n = Nat.min (length src) (bs - u))
        by (unfold n, o; rewrite xorl_length, skipn_length; lia).
      assert (Hfrag : fb d K h (firstn n src) = o).
      { unfold K. rewrite (@fb_frag d (enc c) bs bs bs q) with (u := u).
        - rewrite <- O. unfold o. rewrite <- (firstn_all (xorl src (skipn u (cout st1)))).
          fold o. fold n. unfold o. rewrite xorl_firstn. symmetry. apply xorl_firstn_r.
          rewrite firstn_length. lia.
        - exact Hpos.
        - lia.
        - lia.
        - rewrite firstn_length. lia.
        - apply HE. apply slice_length. fold bs. lia.
        - lia. }
      set (cts := ct d (firstn n src) o).
      assert (Lc : length cts = n) by (unfold cts, ct; destruct d; [rewrite firstn_length; lia|reflexivity]).
      set (dst1 := o ++ skipn n dst).
      set (next2 := if d then _ else _).
      assert (Hnext : length next2 = bs /\ firstn (u + n) next2 = firstn u (cnext st1) ++ cts).
      { unfold next2, cts, ct. destruct d.
        - split; [now rewrite copy_at_length|]. rewrite firstn_copy_at by lia. reflexivity.
        - split; [now rewrite copy_at_length|].
          rewrite firstn_copy_at by (try lia; unfold dst1; rewrite app_length; lia).
          f_equal. unfold dst1. now apply firstn_app_exact. }
      destruct Hnext as [Ln2 Hn2]. clearbody next2.
      destruct (IH (skipn n src) (skipn n dst1)
                  {| cnext := next2; cout := cout st1; cused := u + n |} (h ++ cts)) as (st' & E & HI').
      + rewrite skipn_length. lia.
      + rewrite !skipn_length. unfold dst1. rewrite app_length, skipn_length. fold n. lia.
      + split; [auto|]. split; [auto|]. cbn [cnext cout cused].
        destruct (Nat.eq_dec (u + n) bs) as [Eb|Nb].
        * exists (S q). left. split; [auto|]. split; [rewrite app_length; lia|].
          rewrite Eb, firstn_all2, N in Hn2 by lia. rewrite Hn2.
          unfold slice. rewrite skipn_app. replace (S q * bs - length h) with 0 by lia.
          replace (S q * bs) with (q * bs + bs) by lia. cbn [skipn].
          rewrite firstn_all2; [reflexivity|]. rewrite app_length, skipn_length. lia.
        * exists q. right. split; [lia|]. split; [rewrite app_length; lia|]. split.
          -- rewrite slice_app_l by lia. exact O.
          -- rewrite Hn2, N. rewrite skipn_app. replace (q * bs + bs - length h) with 0 by lia.
             reflexivity.
      + rewrite E. exists st'.
        assert (Ef : fb d K h src = o ++ fb d K (h ++ cts) (skipn n src)).
        { rewrite <- (firstn_skipn n src) at 1. rewrite fb_app, Hfrag. reflexivity. }
        split; [now rewrite Ef|].
        assert (Ect : h ++ ct d src (fb d K h src) =
                      (h ++ cts) ++ ct d (skipn n src) (fb d K (h ++ cts) (skipn n src))).
        { rewrite <- app_assoc. f_equal. rewrite Ef. unfold cts, ct.
          destruct d; [now rewrite firstn_skipn|reflexivity]. }
        rewrite Ect. exact HI'.
  Qed.

  Lemma cfb_one : one_call (cfb_call c d) d K cfb_Inv.
  Proof.
    intros st h [dst src] HI Hx. unfold cfb_call, scall_ok in *. cbn [fst snd] in *.
    destruct (Nat.ltb_spec (length dst) (length src)); [lia|].
    destruct (@cfb_loop_Inv (length src) src dst st h (le_n _) Hx HI) as (st' & E & HI').
    rewrite E. exists st'. auto.
  Qed.

  Lemma cfb_new_Inv iv : length iv = bs -> cfb_Inv (cfb_new c iv) iv.
  Proof.
    intro H. split; [auto|]. split; [cbn; now rewrite repeat_length|]. exists 0. left.
    cbn [cfb_new cused cnext]. split; [reflexivity|]. split; [lia|].
    unfold slice. cbn [Nat.mul skipn]. now rewrite firstn_all2 by lia.
  Qed.
End cfb.

(** ** Byte-at-a-time modes *)
Section bytemode.
  Variable S : Type.
  Variable step : S -> Z -> S * Z.
  Variable d : bool.
  Variable K : bytes -> Z.
  Variable Inv : S -> bytes -> Prop.
  Hypothesis Hstep : forall st h b, Inv st h ->
    exists st', step st b = (st', Z.lxor b (K h)) /\
                Inv st' (h ++ [if d then b else Z.lxor b (K h)]).

  Lemma byte_map_Inv src : forall st h, Inv st h ->
    exists st', byte_map step st src = (st', fb d K h src) /\ Inv st' (h ++ ct d src (fb d K h src)).
  Proof.
    induction src as [|b src IH]; intros st h HI.
    - exists st. split; [reflexivity|]. cbn [fb]. destruct d; cbn [ct]; now rewrite app_nil_r.
    - destruct (Hstep b HI) as (st1 & E & HI1). destruct (IH _ _ HI1) as (st2 & E2 & HI2).
      cbn [byte_map fb]. rewrite E, E2. exists st2. split; [reflexivity|].
      rewrite <- app_assoc in HI2. destruct d; exact HI2.
  Qed.

  Lemma byte_one : one_call (byte_call step) d K Inv.
  Proof.
    intros st h [dst src] HI Hx. unfold byte_call, stream_call, scall_ok in *. cbn [fst snd] in *.
    destruct (Nat.ltb_spec (length dst) (length src)); [lia|].
    destruct (byte_map_Inv src HI) as (st' & E & HI'). rewrite E. exists st'. auto.
  Qed.
End bytemode.

Section cfb8.
  Variable c : cipher.
  Hypothesis Hlen : len_ok c.
  Variable d : bool.
  Let bs := bsz c.
  Definition cfb8_Inv (r : bytes) (h : bytes) : Prop :=
    exists q, length h = q + bs /\ r = slice q bs h.

  Lemma cfb8_shift (r : bytes) (b : Z) : length r = bs ->
    copy_at (bs - 1) [b] (gocopy (firstn (bs - 1) r) (skipn 1 r) ++ skipn (bs - 1) r) = skipn 1 r ++ [b].
  Proof.
    destruct Hlen as [Hpos _]. fold bs in Hpos. intro H. destruct r as [|x r]; cbn in H; [lia|].
    cbn [skipn]. assert (Lr : length r = bs - 1) by lia.
    unfold gocopy at 1. rewrite firstn_length. cbn [length]. rewrite Nat.min_l by lia.
    rewrite (@firstn_all2 _ _ r) by lia.
    rewrite (@skipn_all2 _ (length r) (firstn (bs - 1) (x :: r))) by (rewrite firstn_length; lia).
    rewrite app_nil_r. unfold copy_at. rewrite firstn_app_exact, skipn_app_exact by auto.
    f_equal. unfold gocopy. rewrite skipn_length. cbn [length].
    replace (S (length r) - (bs - 1)) with 1 by lia. cbn [firstn app].
    f_equal. apply skipn_all2. rewrite skipn_length. cbn [length]. lia.
  Qed.

  Lemma cfb8_step_Inv (r h : bytes) (b : Z) : cfb8_Inv r h ->
    exists r', cfb8_step c d r b = (r', Z.lxor b (cfb_K (enc c) bs bs 1 h)) /\
      cfb8_Inv r' (h ++ [if d then b else Z.lxor b (cfb_K (enc c) bs bs 1 h)]).
  Proof.
    pose proof Hlen as [Hpos _]. fold bs in Hpos.
    intros (q & Lh & ->).
    assert (Lr : length (slice q bs h) = bs) by (apply slice_length; lia).
    assert (HK : cfb_K (enc c) bs bs 1 h = nth 0 (enc c (slice q bs h)) 0%Z).
    { unfold cfb_K. rewrite Nat.mod_1_r, Nat.div_1_r, Nat.mul_1_r. do 3 f_equal. lia. }
    rewrite HK. unfold cfb8_step. fold bs.
    set (o := Z.lxor b _).
    exists (skipn 1 (slice q bs h) ++ [if d then b else o]). split.
    - f_equal. destruct d; now rewrite cfb8_shift.
    - exists (S q). split; [rewrite app_length; cbn; lia|].
      unfold slice. rewrite (skipn_app (S q) h). replace (S q - length h) with 0 by lia. rewrite skipn_O.
      rewrite (@firstn_all2 _ bs (_ ++ _)) by (rewrite app_length, skipn_length; cbn [length]; lia).
      f_equal. rewrite (@firstn_all2 _ bs) by (rewrite skipn_length; lia).
      rewrite skipn_skipn'. f_equal. lia.
  Qed.

  Lemma cfb8_new_Inv iv : length iv = bs -> cfb8_Inv iv iv.
  Proof. intro H. exists 0. split; [lia|]. unfold slice. cbn [skipn]. now rewrite firstn_all2 by lia. Qed.
End cfb8.

(** ** OCFB *)
Section ocfb.
  Variable c : cipher.
  Hypothesis Hlen : len_ok c.
  Variable d : bool.
  Let bs := bsz c.
  Let K := cfb_K (enc c) bs bs bs.
  Definition ocfb_Inv (st : ocfb_st) (h : bytes) : Prop :=
    exists q,
      (oused st = bs /\ length h = q * bs + bs /\ ofre st = slice (q * bs) bs h) \/
      (oused st < bs /\ length h = q * bs + oused st + bs /\
       ofre st = skipn (q * bs + bs) h ++ skipn (oused st) (enc c (slice (q * bs) bs h))).

  Lemma ocfb_step_Inv (st : ocfb_st) (h : bytes) (b : Z) : ocfb_Inv st h ->
    exists st', ocfb_step c d st b = (st', Z.lxor b (K h)) /\
      ocfb_Inv st' (h ++ [if d then b else Z.lxor b (K h)]).
  Proof.
    pose proof Hlen as [Hpos HE]. fold bs in Hpos, HE. intros (q & HI).
    set (st1 := if oused st =? length (ofre st) then {| ofre := enc c (ofre st); oused := 0 |} else st).
    assert (H1 : oused st1 < bs /\ length h = q * bs + oused st1 + bs /\
       ofre st1 = skipn (q * bs + bs) h ++ skipn (oused st1) (enc c (slice (q * bs) bs h))).
    { unfold st1. destruct HI as [(U & Lh & F)|(U & Lh & F)].
      - rewrite F, slice_length, U, Nat.eqb_refl by lia. cbn [oused ofre].
        split; [exact Hpos|]. split; [lia|].
        rewrite (@skipn_all2 _ (q * bs + bs) h) by lia. reflexivity.
      - assert (Lf : length (ofre st) = bs).
        { rewrite F, app_length, !skipn_length, HE by (apply slice_length; lia). lia. }
        rewrite Lf. destruct (Nat.eqb_spec (oused st) bs); [lia|]. auto. }
    unfold ocfb_step. fold st1. clearbody st1. clear HI st. rename st1 into st.
    destruct H1 as (U & Lh & F). set (u := oused st) in *.
    set (blk := enc c (slice (q * bs) bs h)) in *.
    assert (Lb : length blk = bs) by (apply HE; apply slice_length; lia).
    assert (Lp : length (skipn (q * bs + bs) h) = u) by (rewrite skipn_length; lia).
    assert (HK : K h = nth u blk 0%Z).
    { unfold K, cfb_K. replace (length h - bs) with (u + q * bs) by lia.
      rewrite Nat.mod_add, Nat.mod_small, Nat.div_add, Nat.div_small by lia. reflexivity. }
    assert (Hd : skipn u blk = nth u blk 0%Z :: skipn (u + 1) blk).
    { rewrite <- (skipn_skipn' 1). destruct (skipn u blk) as [|k r] eqn:Ek.
      - apply (f_equal (@length Z)) in Ek. rewrite skipn_length in Ek. cbn in Ek. lia.
      - cbn [skipn]. f_equal. rewrite <- (firstn_skipn u blk), Ek.
        rewrite app_nth2 by (rewrite firstn_length; lia).
        rewrite firstn_length, Nat.min_l by lia. now rewrite Nat.sub_diag. }
    assert (Hn : nth u (ofre st) 0%Z = nth u blk 0%Z).
    { rewrite F, app_nth2 by lia. rewrite Lp, Nat.sub_diag, Hd. reflexivity. }
    rewrite Hn, HK, (Z.lxor_comm b). set (o := Z.lxor (nth u blk 0%Z) b).
    set (x := if d then b else o).
    assert (Hf : copy_at u [x] (ofre st) = skipn (q * bs + bs) h ++ [x] ++ skipn (u + 1) blk).
    { rewrite F, Hd. unfold copy_at. rewrite firstn_app_exact, skipn_app_exact by auto.
      f_equal. unfold gocopy. cbn [length firstn skipn app].
      rewrite (@firstn_all2 _ _ []) by (cbn; lia). reflexivity. }
    eexists. split; [reflexivity|]. rewrite Hf.
    destruct (Nat.eq_dec (u + 1) bs) as [Eb|Nb].
    - exists (S q). left. cbn [oused ofre]. split; [exact Eb|].
      split; [rewrite app_length; cbn [length]; lia|].
      rewrite (@skipn_all2 _ (u + 1) blk) by lia. rewrite app_nil_r.
      unfold slice. rewrite skipn_app. replace (S q * bs - length h) with 0 by lia.
      rewrite skipn_O. rewrite firstn_all2.
      + f_equal. f_equal. lia.
      + rewrite app_length, skipn_length. cbn [length]. lia.
    - exists q. right. cbn [oused ofre]. split; [lia|].
      split; [rewrite app_length; cbn [length]; lia|].
      rewrite slice_app_l by lia. fold blk. rewrite skipn_app.
      replace (q * bs + bs - length h) with 0 by lia. rewrite skipn_O, <- app_assoc. reflexivity.
  Qed.

  Lemma ocfb_resync_Inv h : length h = bs ->
    ocfb_Inv {| ofre := enc c h; oused := 0 |} h.
  Proof.
    intro H. exists 0. right. cbn [oused ofre].
    split; [apply Hlen|]. split; [lia|]. cbn [Nat.mul Nat.add]. rewrite skipn_all2 by lia.
    unfold slice. rewrite !skipn_O, firstn_all2 by lia. reflexivity.
  Qed.

  Lemma ocfb_noresync_Inv p : length p = bs + 2 -> 2 <= bs ->
    ocfb_Inv {| ofre := copy_at 0 (skipn bs p) (enc c (firstn bs p)); oused := 2 |} (repeat 0%Z bs ++ p).
  Proof.
    intros H H2. destruct Hlen as [Hpos HE]. fold bs in HE.
    assert (Lp : length (skipn bs p) = 2) by (rewrite skipn_length; lia).
    assert (Le : length (enc c (firstn bs p)) = bs) by (apply HE; rewrite firstn_length; lia).
    assert (Hc : copy_at 0 (skipn bs p) (enc c (firstn bs p)) =
                 skipn bs p ++ skipn 2 (enc c (firstn bs p))).
    { rewrite copy_at_fits by lia. cbn [firstn app Nat.add]. now rewrite Lp. }
    rewrite Hc. destruct (Nat.eq_dec bs 2) as [E2|N2].
    - exists 2. left. cbn [oused ofre]. split; [lia|]. split; [rewrite app_length, repeat_length; lia|].
      rewrite (@skipn_all2 _ 2) by lia. rewrite app_nil_r. unfold slice.
      replace (2 * bs) with (bs + bs) by lia. rewrite <- skipn_skipn'.
      rewrite skipn_app_exact by apply repeat_length. now rewrite firstn_all2 by lia.
    - exists 1. right. cbn [oused ofre]. split; [lia|]. split; [rewrite app_length, repeat_length; lia|].
      rewrite Nat.mul_1_l, <- skipn_skipn'. unfold slice.
      rewrite skipn_app_exact by apply repeat_length. reflexivity.
  Qed.

  (** The prefix as the start of a CFB stream with a zero IV. *)
  Lemma fb_block xs h : length h = bs -> length xs = bs -> fb d K h xs = xorl xs (enc c h).
  Proof.
    intros H Hx. destruct Hlen as [Hpos HE]. fold bs in HE, Hpos. unfold K.
    rewrite (@fb_frag d (enc c) bs bs bs 0) with (u := 0); try lia.
    - rewrite skipn_O. unfold slice. cbn [Nat.mul]. rewrite skipn_O, firstn_all2 by lia. reflexivity.
    - unfold slice. cbn [Nat.mul]. rewrite skipn_O, firstn_all2 by lia. now apply HE.
  Qed.
  Lemma fb_two x y h0 h : length h0 = bs -> length h = bs -> 2 <= bs ->
    fb d K (h0 ++ h) [x; y] = [Z.lxor x (nth 0 (enc c h) 0%Z); Z.lxor y (nth 1 (enc c h) 0%Z)].
  Proof.
    intros H0 H H2. destruct Hlen as [Hpos HE]. fold bs in HE, Hpos. unfold K.
    assert (Es : slice (1 * bs) bs (h0 ++ h) = h).
    { unfold slice. rewrite Nat.mul_1_l, skipn_app_exact, firstn_all2 by lia. reflexivity. }
    rewrite (@fb_frag d (enc c) bs bs bs 1) with (u := 0); try lia.
    - rewrite Es, skipn_O. specialize (HE h H). destruct (enc c h) as [|e0 [|e1 r]]; cbn in HE; try lia.
      reflexivity.
    - rewrite app_length. lia.
    - cbn [length]. lia.
    - rewrite Es. now apply HE.
  Qed.
End ocfb.

(** ** Segment machines *)
Fixpoint sloop {S} (step : S -> bytes -> res (S * bytes)) (st : S) (segs : list bytes) : res (S * bytes) :=
  match segs with
  | [] => Ok (st, [])
  | x :: r => rbind (step st x) (fun '(st1, o) =>
              rbind (sloop step st1 r) (fun '(st2, os) => Ok (st2, o ++ os)))
  end.

Section segm.
  Variable S : Type.
  Variable step : S -> bytes -> res (S * bytes).
  Variable d : bool.
  Variable K : bytes -> Z.
  Variable k : nat.
  Variable Inv : S -> bytes -> Prop.
  Hypothesis Hk : 0 < k.
  Hypothesis Hstep : forall st h x, Inv st h -> 0 < length x <= k ->
    exists st', step st x = Ok (st', fb d K h x) /\
      (length x = k -> Inv st' (h ++ ct d x (fb d K h x))).

  Lemma sloop_Inv : forall n src st h, length src <= n -> Inv st h ->
    exists st', sloop step st (chunks k src) = Ok (st', fb d K h src) /\
      (length src mod k = 0 -> Inv st' (h ++ ct d src (fb d K h src))).
  Proof.
    induction n as [|n IH]; intros src st h Hn HI.
    - destruct src; [|cbn in Hn; lia]. exists st. split; [reflexivity|].
      intros _. cbn [fb]. destruct d; cbn [ct]; now rewrite app_nil_r.
    - destruct src as [|b src0] eqn:Es.
      { exists st. split; [reflexivity|]. intros _. cbn [fb]. destruct d; cbn [ct]; now rewrite app_nil_r. }
      rewrite <- Es in *. assert (Hne : 0 < length src) by (subst; cbn; lia).
      rewrite chunks_cons by (subst; congruence). clear Es b src0. cbn [sloop].
      set (x := firstn k src). set (r := skipn k src).
      assert (Lx : length x = Nat.min k (length src)) by apply firstn_length.
      assert (Lr : length r = length src - k) by apply skipn_length.
      assert (Exr : src = x ++ r) by (symmetry; apply firstn_skipn).
      destruct (@Hstep st h x HI) as (st1 & E1 & HI1); [lia|].
      rewrite E1. cbn [rbind].
      destruct (Nat.le_gt_cases (length src) k) as [Hs|Hs].
      + assert (Er : r = []) by (destruct r; [auto|cbn in Lr; lia]).
        rewrite Er. change (chunks k (@nil Z)) with (@nil bytes). cbn [sloop rbind]. exists st1.
        rewrite app_nil_r. assert (Ex : x = src) by (rewrite Exr, Er, app_nil_r; reflexivity).
        rewrite <- Ex. split; [reflexivity|]. intro Hm. rewrite Ex in *. apply HI1.
        destruct (Nat.eq_dec (length src) k); [auto|]. rewrite Nat.mod_small in Hm by lia. lia.
      + destruct (IH r st1 (h ++ ct d x (fb d K h x))) as (st2 & E2 & HI2); [lia|apply HI1; lia|].
        rewrite E2. cbn [rbind]. exists st2.
        assert (Ef : fb d K h src = fb d K h x ++ fb d K (h ++ ct d x (fb d K h x)) r)
          by (rewrite Exr; apply fb_app).
        rewrite Ef. split; [reflexivity|]. intro Hm.
        assert (Hr : length r mod k = 0).
        { rewrite <- Hm. replace (length src) with (length r + 1 * k) by lia. now rewrite Nat.mod_add by lia. }
        specialize (HI2 Hr). rewrite <- app_assoc in HI2.
        assert (Ec : ct d src (fb d K h x ++ fb d K (h ++ ct d x (fb d K h x)) r) =
                     ct d x (fb d K h x) ++ ct d r (fb d K (h ++ ct d x (fb d K h x)) r)).
        { destruct d; cbn [ct]; [exact Exr|reflexivity]. }
        rewrite Ec. exact HI2.
  Qed.

  Lemma sloop_one (call : S -> bytes * bytes -> res (S * bytes)) :
    (forall st x, call st x = stream_call (fun st src => sloop step st (chunks k src)) st x) ->
    one_aligned call d K Inv k.
  Proof.
    intros Hc st h [dst src] HI Hx. rewrite Hc. unfold stream_call, scall_ok in *. cbn [fst snd] in *.
    destruct (Nat.ltb_spec (length dst) (length src)); [lia|].
    exact (sloop_Inv _ (le_n (length src)) HI).
  Qed.
End segm.

(** Same-chunking round trip of segment machines. *)
Section segback.
  Variable S : Type.
  Variable step_e step_d : S -> bytes -> res (S * bytes).
  Variable k : nat.
  Variable good : S -> Prop.
  Hypothesis Hk : 0 < k.
  Hypothesis Hstep : forall st x, good st -> length x <= k ->
    exists st' o, step_e st x = Ok (st', o) /\ good st' /\ length o = length x /\ step_d st o = Ok (st', x).

  Lemma sloop_back : forall n src st, length src <= n -> good st ->
    exists st' o, sloop step_e st (chunks k src) = Ok (st', o) /\ good st' /\ length o = length src /\
      sloop step_d st (chunks k o) = Ok (st', src).
  Proof.
    induction n as [|n IH]; intros src st Hn HG.
    - destruct src; [|cbn in Hn; lia]. exists st, []. repeat split; auto.
    - destruct src as [|b src0] eqn:Es; [exists st, []; repeat split; auto|].
      rewrite <- Es in *. assert (Hne : 0 < length src) by (subst; cbn; lia).
      rewrite chunks_cons by (subst; congruence). clear Es b src0. cbn [sloop].
      set (x := firstn k src). set (r := skipn k src).
      assert (Lx : length x = Nat.min k (length src)) by apply firstn_length.
      assert (Lr : length r = length src - k) by apply skipn_length.
      assert (Exr : src = x ++ r) by (symmetry; apply firstn_skipn).
      destruct (@Hstep st x HG) as (st1 & o & E1 & HG1 & Lo & D1); [lia|].
      destruct (IH r st1) as (st2 & os & E2 & HG2 & Los & D2); [lia|auto|].
      exists st2, (o ++ os). rewrite E1. cbn [rbind]. rewrite E2. cbn [rbind].
      split; [auto|]. split; [auto|]. split; [rewrite app_length; lia|].
      rewrite chunks_cons; [|auto|destruct o; [cbn in Lo; lia|discriminate]].
      assert (F : firstn k (o ++ os) = o /\ skipn k (o ++ os) = os).
      { destruct (Nat.le_gt_cases (length src) k) as [Hs|Hs].
        - assert (os = []) by (destruct os; [auto|cbn in Los; lia]). subst os. rewrite app_nil_r.
          split; [apply firstn_all2; lia|apply skipn_all2; lia].
        - split; [apply firstn_app_exact|apply skipn_app_exact]; lia. }
      destruct F as [-> ->]. cbn [sloop]. rewrite D1. cbn [rbind]. rewrite D2. cbn [rbind].
      now rewrite <- Exr.
  Qed.

  Lemma sback_run ecall dcall :
    (forall st x, ecall st x = stream_call (fun st src => sloop step_e st (chunks k src)) st x) ->
    (forall st x, dcall st x = stream_call (fun st src => sloop step_d st (chunks k src)) st x) ->
    forall st, good st -> stream_roundtrip_same ecall dcall st st.
  Proof.
    intros He Hd st HG calls. revert st HG.
    assert (Q : forall st, good st -> Forall scall_ok calls ->
      exists se' outs, run_calls ecall st calls = Ok (se', outs) /\
      map (@length Z) outs = map (fun x => length (snd x)) calls /\
      forall calls2, Forall scall_ok calls2 -> map snd calls2 = outs ->
      run_calls dcall st calls2 = Ok (se', map snd calls)).
    { induction calls as [|x calls IH]; intros st HG Hc.
      - exists st, []. split; [auto|]. split; [auto|]. intros [|y c2] _ E; [reflexivity|discriminate].
      - apply Forall_cons_iff in Hc as [Hx Hc]. destruct x as [dst src]. unfold scall_ok in Hx. cbn [fst snd] in Hx.
        destruct (sloop_back _ (le_n (length src)) HG) as (st1 & o & E1 & HG1 & Lo & D1).
        destruct (IH st1 HG1 Hc) as (st2 & outs & E2 & El & Hb).
        exists st2, (o :: outs). cbn [run_calls map snd].
        rewrite He. unfold stream_call at 1. cbn [fst snd].
        destruct (Nat.ltb_spec (length dst) (length src)); [lia|]. rewrite E1. cbn [rbind]. rewrite E2.
        cbn [rbind]. split; [auto|]. split; [now rewrite Lo, El|].
        intros [|[yd ys] c2] H2 Em; [discriminate|]. cbn [map snd] in Em. injection Em as -> Em.
        apply Forall_cons_iff in H2 as [Hy H2]. unfold scall_ok in Hy. cbn [fst snd] in Hy.
        cbn [run_calls]. rewrite Hd. unfold stream_call at 1. cbn [fst snd].
        destruct (Nat.ltb_spec (length yd) (length o)); [lia|]. rewrite D1. cbn [rbind].
        rewrite (Hb c2 H2 Em). reflexivity. }
    intros st HG Hc. destruct (Q st HG Hc) as (se & outs & E & El & Hb).
    exists se, outs. split; [auto|]. split; [auto|]. intros c2 H2 Em. exists se, (map snd calls). auto.
  Qed.
End segback.

(** *** CFB16/32/64 and NCFB as segment machines *)
Definition cfbk_step (c : cipher) (d : bool) (r s : bytes) : res (bytes * bytes) :=
  let out := enc c r in
  let o := gocopy (repeat 0%Z (length s)) (xorl s out) in
  if length r <? length s then Panic
  else Ok (copy_at (length s) (if d then s else o) (gocopy r (skipn (length s) r)), o).
Lemma cfbk_loop_sloop c d segs : forall r, cfbk_loop c d r segs = sloop (cfbk_step c d) r segs.
Proof.
  induction segs as [|s segs IH]; intro r; [reflexivity|]. cbn [cfbk_loop sloop]. unfold cfbk_step at 1.
  destruct (length r <? length s); [reflexivity|]. cbn [rbind]. now rewrite IH.
Qed.
Definition ncfb_step (c : cipher) (d : bool) (r s : bytes) : res (bytes * bytes) :=
  let o := gocopy (repeat 0%Z (length s)) (xorl s (enc c r)) in
  Ok (copy_at 0 (if d then s else o) r, o).
Lemma ncfb_loop_sloop c d segs : forall r, Ok (ncfb_loop c d r segs) = sloop (ncfb_step c d) r segs.
Proof.
  induction segs as [|s segs IH]; intro r; [reflexivity|]. cbn [ncfb_loop sloop]. unfold ncfb_step at 1.
  cbn [rbind]. rewrite <- IH. destruct (ncfb_loop c d _ segs). reflexivity.
Qed.

Lemma gocopy_xor0 (s out : bytes) : length s <= length out ->
  gocopy (repeat 0%Z (length s)) (xorl s out) = xorl s out.
Proof.
  intro H. unfold gocopy. rewrite repeat_length, xorl_length, Nat.min_l by lia.
  rewrite firstn_all2 by (rewrite xorl_length; lia).
  rewrite skipn_all2 by (rewrite repeat_length; lia). apply app_nil_r.
Qed.

Section cfbk.
  Variable c : cipher.
  Hypothesis Hlen : len_ok c.
  Variable d : bool.
  Variable k : nat.
  Let bs := bsz c.
  Definition cfbk_Inv (m : nat) (r h : bytes) : Prop := exists q, length h = q * m + bs /\ r = slice (q * m) bs h.

  Lemma cfbk_shift (r x : bytes) : bs = 2 * k -> 0 < k -> length r = bs -> length x = k ->
    copy_at k x (gocopy r (skipn k r)) = skipn k r ++ x.
  Proof.
    intros Hb Hk Lr Lx. unfold gocopy. rewrite Lr, (@firstn_all2 _ bs (skipn k r)) by (rewrite skipn_length; lia).
    assert (Ls : length (skipn k r) = k) by (rewrite skipn_length; lia).
    rewrite Ls. unfold copy_at. rewrite firstn_app_exact, skipn_app_exact by auto.
    f_equal. unfold gocopy. rewrite skipn_length. rewrite firstn_all2 by lia.
    rewrite skipn_all2; [apply app_nil_r|]. rewrite skipn_length. lia.
  Qed.

  Lemma cfbk_step_Inv : bs = 2 * k -> 0 < k -> forall (r h x : bytes), cfbk_Inv k r h -> 0 < length x <= k ->
    exists r', cfbk_step c d r x = Ok (r', fb d (cfb_K (enc c) bs bs k) h x) /\
      (length x = k -> cfbk_Inv k r' (h ++ ct d x (fb d (cfb_K (enc c) bs bs k) h x))).
  Proof.
    intros Hb Hk r h x (q & Lh & Er) Hx. destruct Hlen as [Hpos HE]. fold bs in Hpos, HE.
    assert (Lr : length r = bs) by (subst r; apply slice_length; lia).
    assert (Ef : fb d (cfb_K (enc c) bs bs k) h x = xorl x (enc c r)).
    { rewrite (@fb_frag d (enc c) bs bs k q) with (u := 0); try lia.
      - now rewrite skipn_O, Er.
      - rewrite <- Er. now apply HE. }
    unfold cfbk_step. rewrite gocopy_xor0 by (rewrite HE; lia). rewrite <- Ef.
    destruct (Nat.ltb_spec (length r) (length x)); [lia|]. eexists. split; [reflexivity|].
    intro Lx. fold (ct d x (fb d (cfb_K (enc c) bs bs k) h x)). set (y := ct d x _).
    assert (Ly : length y = k) by (unfold y; now rewrite ct_length).
    rewrite Lx, cfbk_shift by auto. exists (S q). split; [rewrite app_length; lia|].
    subst r. unfold slice. rewrite (skipn_app (S q * k) h). replace (S q * k - length h) with 0 by lia.
    rewrite skipn_O. rewrite (@firstn_all2 _ bs (skipn (q * k) h)) by (rewrite skipn_length; lia).
    rewrite skipn_skipn'. rewrite firstn_all2 by (rewrite app_length, skipn_length; lia).
    f_equal. f_equal. lia.
  Qed.

  Lemma ncfb_step_Inv : forall (r h x : bytes), cfbk_Inv bs r h -> 0 < length x <= bs ->
    exists r', ncfb_step c d r x = Ok (r', fb d (cfb_K (enc c) bs bs bs) h x) /\
      (length x = bs -> cfbk_Inv bs r' (h ++ ct d x (fb d (cfb_K (enc c) bs bs bs) h x))).
  Proof.
    intros r h x (q & Lh & Er) Hx. destruct Hlen as [Hpos HE]. fold bs in Hpos, HE.
    assert (Lr : length r = bs) by (subst r; apply slice_length; lia).
    assert (Ef : fb d (cfb_K (enc c) bs bs bs) h x = xorl x (enc c r)).
    { rewrite (@fb_frag d (enc c) bs bs bs q) with (u := 0); try lia.
      - now rewrite skipn_O, Er.
      - rewrite <- Er. now apply HE. }
    unfold ncfb_step. rewrite gocopy_xor0 by (rewrite HE; lia). rewrite <- Ef.
    eexists. split; [reflexivity|].
    intro Lx. fold (ct d x (fb d (cfb_K (enc c) bs bs bs) h x)). set (y := ct d x _).
    assert (Ly : length y = bs) by (unfold y; now rewrite ct_length).
    rewrite copy_at_over by lia. cbn [firstn app]. rewrite Nat.sub_0_r, firstn_all2 by lia.
    exists (S q). split; [rewrite app_length; lia|].
    unfold slice. rewrite skipn_app. replace (S q * bs - length h) with 0 by lia.
    rewrite skipn_O, (@skipn_all2 _ _ h) by lia. cbn [app]. now rewrite firstn_all2 by lia.
  Qed.

  Lemma cfbk_new_Inv m iv : length iv = bs -> cfbk_Inv m iv iv.
  Proof. intro H. exists 0. split; [lia|]. unfold slice. cbn [Nat.mul]. now rewrite skipn_O, firstn_all2 by lia. Qed.
End cfbk.

Lemma xor_back c (r x : bytes) : len_ok c -> length r = bsz c -> length x <= bsz c ->
  length (xorl x (enc c r)) = length x /\ xorl (xorl x (enc c r)) (enc c r) = x.
Proof.
  intros [Hp HE] Hr Hx. specialize (HE r Hr). split; [rewrite xorl_length; lia|]. apply xorl_cancel_r. lia.
Qed.

Lemma cfbk_back c k : len_ok c -> k <= bsz c -> forall st x, length st = bsz c -> length x <= k ->
  exists st' o, cfbk_step c false st x = Ok (st', o) /\ length st' = bsz c /\ length o = length x /\
    cfbk_step c true st o = Ok (st', x).
Proof.
  intros HL Hk r x Hr Hx. destruct (@xor_back c r x HL Hr ltac:(lia)) as [L E].
  pose proof HL as [Hp HE]. specialize (HE r Hr).
  unfold cfbk_step. rewrite gocopy_xor0 by lia.
  destruct (Nat.ltb_spec (length r) (length x)); [lia|]. eexists _, _. split; [reflexivity|].
  split. { rewrite copy_at_length. unfold gocopy. rewrite app_length, firstn_length, !skipn_length. lia. }
  split; [exact L|]. rewrite gocopy_xor0 by lia. rewrite L, E.
  destruct (Nat.ltb_spec (length r) (length x)); [lia|]. reflexivity.
Qed.

Lemma ncfb_back c : len_ok c -> forall st x, length st = bsz c -> length x <= bsz c ->
  exists st' o, ncfb_step c false st x = Ok (st', o) /\ length st' = bsz c /\ length o = length x /\
    ncfb_step c true st o = Ok (st', x).
Proof.
  intros HL r x Hr Hx. destruct (@xor_back c r x HL Hr Hx) as [L E].
  pose proof HL as [Hp HE]. specialize (HE r Hr).
  unfold ncfb_step. rewrite gocopy_xor0 by lia. eexists _, _. split; [reflexivity|].
  split; [now rewrite copy_at_length|]. split; [exact L|]. rewrite gocopy_xor0 by lia. now rewrite E.
Qed.

(** *** CFB-k with k = bs: the register never moves *)
Lemma cfbk_stuck c d k (r x : bytes) : k = bsz c -> length r = k -> length x = k ->
  len_ok c -> cfbk_step c d r x = Ok (r, xorl x (enc c r)).
Proof.
  intros Hk Lr Lx [Hp HE]. unfold cfbk_step. rewrite gocopy_xor0 by (rewrite HE; lia).
  destruct (Nat.ltb_spec (length r) (length x)); [lia|]. do 2 f_equal.
  unfold gocopy at 1. rewrite (@skipn_all2 _ (length x) r) by lia. rewrite firstn_nil.
  cbn [length app]. rewrite skipn_O. unfold copy_at. rewrite skipn_all2 by lia.
  unfold gocopy. cbn [length firstn app]. rewrite skipn_nil, app_nil_r. apply firstn_all2. lia.
Qed.

(** *** g3413cfb *)
Lemma g3413cfb_loop_S c f ip decrypt s st dst src : src <> [] ->
  g3413cfb_loop c (S f) ip decrypt s st dst src =
    let st := if gused st =? s
              then {| gnext := gnext st; gout := enc c (firstn (bsz c) (gnext st)); gused := 0 |} else st in
    let u := gused st in
    if (bsz c <? u + s) || (length (gnext st) <? u + s) || (length (gnext st) <? u + (2 * bsz c - s)) then Panic
    else
      let o := xorl src (slice u s (gout st)) in
      let n := length o in
      let dst1 := o ++ skipn n dst in
      let src1 := if ip then o ++ skipn n src else src in
      let next := gocopy (gnext st) (skipn (u + s) (gnext st)) in
      let next := copy_at (u + (2 * bsz c - s)) (if decrypt then src1 else dst1) next in
      rbind (g3413cfb_loop c f ip decrypt s {| gnext := next; gout := gout st; gused := u + n |}
               (skipn n dst1) (skipn n src1))
        (fun '(st', os) => Ok (st', o ++ os)).
Proof. destruct src; [congruence|reflexivity]. Qed.

Section g3413cfb.
  Variable c : cipher.
  Hypothesis Hlen : len_ok c.
  Variable ip d : bool.
  Hypothesis Hip : ip && d = false.
  Variable s : nat.
  Let bs := bsz c.
  Hypothesis Hs : 0 < s <= bs.
  Let K := cfb_K (enc c) bs (2 * bs) s.
  Definition g3413cfb_Inv (st : g3413cfb_st) (h : bytes) : Prop :=
    gused st = s /\ exists q, length h = q * s + 2 * bs /\ gnext st = slice (q * s) (2 * bs) h.

  Lemma g3413cfb_loop_Inv : forall fuel src dst st h,
    length src <= fuel -> length src <= length dst -> g3413cfb_Inv st h ->
    exists st', g3413cfb_loop c fuel ip d s st dst src = Ok (st', fb d K h src) /\
      (length src mod s = 0 -> g3413cfb_Inv st' (h ++ ct d src (fb d K h src))).
  Proof.
    destruct Hlen as [Hpos HE]. fold bs in Hpos, HE.
    induction fuel as [|fuel IH]; intros src dst st h Hf Hd HI.
    - destruct src; [|cbn in Hf; lia]. exists st. split; [reflexivity|].
      intros _. cbn [fb]. destruct d; cbn [ct]; now rewrite app_nil_r.
    - destruct src as [|b0 src0] eqn:Es.
      { exists st. split; [reflexivity|]. intros _. cbn [fb]. destruct d; cbn [ct]; now rewrite app_nil_r. }
      rewrite <- Es in *. assert (Hne : 0 < length src) by (subst; cbn; lia).
      rewrite g3413cfb_loop_S by (subst src; congruence). clear Es b0 src0.
      destruct HI as (U & q & Lh & N). rewrite U, Nat.eqb_refl. cbv zeta. cbn [gnext gout gused]. fold bs.
      assert (Ln : length (gnext st) = 2 * bs) by (rewrite N; apply slice_length; lia).
      replace ((bs <? 0 + s) || (length (gnext st) <? 0 + s) || (length (gnext st) <? 0 + (2 * bs - s)))
        with false by lia.
      cbn [Nat.add].
      assert (Hreg : firstn bs (gnext st) = slice (q * s) bs h).
      { rewrite N. unfold slice. rewrite firstn_firstn. f_equal. lia. }
      set (ks := enc c (firstn bs (gnext st))).
      assert (Lk : length ks = bs) by (apply HE; rewrite firstn_length; lia).
      set (o := xorl src (slice 0 s ks)). set (n := length o).
      assert (Hn : n = Nat.min (length src) s).
      { unfold n, o. rewrite xorl_length, slice_length by lia. reflexivity. }
      assert (Hfrag : fb d K h (firstn n src) = o).
      { unfold K. rewrite (@fb_frag d (enc c) bs (2 * bs) s q) with (u := 0); try lia.
        - rewrite skipn_O, <- Hreg. fold ks. unfold o, slice. rewrite skipn_O.
          transitivity (firstn n (xorl src (firstn s ks))).
          + rewrite xorl_firstn, firstn_firstn, Nat.min_l by lia.
            symmetry. apply xorl_firstn_r. rewrite firstn_length. lia.
          + apply firstn_all2. unfold n, o. unfold slice. rewrite skipn_O. lia.
        - rewrite firstn_length. lia.
        - rewrite <- Hreg. exact Lk. }
      set (cts := ct d (firstn n src) o).
      assert (Lc : length cts = n) by (unfold cts, ct; destruct d; [rewrite firstn_length; lia|reflexivity]).
      set (dst1 := o ++ skipn n dst). set (src1 := if ip then o ++ skipn n src else src).
      assert (Es1 : skipn n src1 = skipn n src) by (unfold src1; destruct ip; [now apply skipn_app_exact|reflexivity]).
      rewrite Es1.
      set (w := if d then src1 else dst1).
      assert (Hw : firstn n w = cts /\ n <= length w).
      { unfold w, cts, ct, src1, dst1. destruct d.
        - destruct ip; [discriminate|]. split; [reflexivity|lia].
        - split; [now apply firstn_app_exact|]. rewrite app_length. fold n. lia. }
      destruct Hw as [Hw Hwl].
      set (next := copy_at (2 * bs - s) w (gocopy (gnext st) (skipn s (gnext st)))).
      assert (Ef : fb d K h src = o ++ fb d K (h ++ cts) (skipn n src)).
      { rewrite <- (firstn_skipn n src) at 1. rewrite fb_app, Hfrag. reflexivity. }
      assert (Ect : h ++ ct d src (fb d K h src) =
                    (h ++ cts) ++ ct d (skipn n src) (fb d K (h ++ cts) (skipn n src))).
      { rewrite <- app_assoc. f_equal. rewrite Ef. unfold cts, ct.
        destruct d; [now rewrite firstn_skipn|reflexivity]. }
      destruct (Nat.le_gt_cases s (length src)) as [Hfull|Hpart].
      + assert (En : n = s) by lia.
        assert (Hnext : next = skipn s (gnext st) ++ cts).
        { unfold next. unfold gocopy at 1. rewrite Ln.
          rewrite (@firstn_all2 _ (2 * bs)) by (rewrite skipn_length; lia).
          assert (Lsk : length (skipn s (gnext st)) = 2 * bs - s) by (rewrite skipn_length; lia).
          rewrite copy_at_over by (rewrite app_length, !skipn_length; lia).
          rewrite firstn_app_exact by auto. f_equal.
          rewrite app_length, !skipn_length, Ln.
          replace (2 * bs - s + (2 * bs - (2 * bs - s)) - (2 * bs - s)) with n by lia. exact Hw. }
        destruct (IH (skipn n src) (skipn n dst1)
                    {| gnext := next; gout := ks; gused := n |} (h ++ cts)) as (st' & E & HI').
        * rewrite skipn_length. lia.
        * rewrite !skipn_length. unfold dst1. rewrite app_length, skipn_length. fold n. lia.
        * split; [exact En|]. exists (S q). cbn [gnext]. split; [rewrite app_length; lia|].
          rewrite Hnext, N. unfold slice. rewrite (skipn_app (S q * s) h).
          replace (S q * s - length h) with 0 by lia. rewrite skipn_O.
          rewrite (@firstn_all2 _ (2 * bs) (skipn (q * s) h)) by (rewrite skipn_length; lia).
          rewrite skipn_skipn'. rewrite firstn_all2 by (rewrite app_length, skipn_length; lia).
          f_equal. f_equal. lia.
        * rewrite E. cbn [rbind]. exists st'. rewrite Ef. split; [reflexivity|].
          rewrite <- Ef. intro Hm. rewrite Ect. apply HI'.
          rewrite skipn_length, En. rewrite <- Hm.
          replace (length src) with (length src - s + 1 * s) at 2 by lia. now rewrite Nat.mod_add by lia.
      + assert (En : n = length src) by lia.
        rewrite (@skipn_all2 _ n src) by lia. rewrite (@skipn_all2 _ n src) in Ef by lia.
        destruct fuel as [|fuel]; cbn [g3413cfb_loop rbind]; eexists; (split; [now rewrite Ef|]);
          intro Hm; rewrite Nat.mod_small in Hm; lia.
  Qed.

  Lemma g3413cfb_one : one_aligned (g3413cfb_call c ip d s) d K g3413cfb_Inv s.
  Proof.
    intros st h [dst src] HI Hx. unfold g3413cfb_call, scall_ok in *. cbn [fst snd] in *.
    destruct (Nat.ltb_spec (length dst) (length src)); [lia|].
    exact (@g3413cfb_loop_Inv (length src) src dst st h (le_n _) Hx HI).
  Qed.
End g3413cfb.
