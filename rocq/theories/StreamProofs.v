(** Lemmas about the buffered stream modes. *)
From Verif Require Import Base BlockModeModel StreamModel StreamSpec.
Set Implicit Arguments.

(** ** xor_stream *)
Lemma xor_stream_length ks off src : length (xor_stream ks off src) = length src.
Proof. revert off; induction src; intro off; cbn; auto. Qed.

Lemma xor_stream_app ks a b : forall off,
  xor_stream ks off (a ++ b) = xor_stream ks off a ++ xor_stream ks (off + length a) b.
Proof.
  induction a as [|x a IH]; intro off; cbn [app xor_stream length].
  - now rewrite Nat.add_0_r.
  - rewrite IH. now rewrite Nat.add_succ_r.
Qed.

Lemma xor_stream_cancel ks src : forall off, xor_stream ks off (xor_stream ks off src) = src.
Proof.
  induction src as [|b r IH]; intro off; cbn; auto. rewrite IH.
  now rewrite Z.lxor_assoc, Z.lxor_nilpotent, Z.lxor_0_r.
Qed.

Lemma xor_stream_ext ks1 ks2 src : forall off,
  (forall i, off <= i < off + length src -> ks1 i = ks2 i) ->
  xor_stream ks1 off src = xor_stream ks2 off src.
Proof.
  induction src as [|b r IH]; intros off H; cbn; auto.
  rewrite (H off) by (cbn; lia). f_equal. apply IH. intros i Hi. apply H. cbn. lia.
Qed.

Lemma xorl_stream ks k : forall src off,
  (forall i, i < length k -> nth i k 0%Z = ks (off + i)) ->
  xorl src k = xor_stream ks off (firstn (length k) src).
Proof.
  induction k as [|x k IH]; intros src off H.
  - now rewrite xorl_nil_r.
  - destruct src as [|b src]; [reflexivity|]. cbn [xorl length firstn xor_stream].
    pose proof (H 0 ltac:(cbn; lia)) as H0. cbn in H0. rewrite Nat.add_0_r in H0.
    rewrite H0. f_equal. apply IH. intros i Hi.
    specialize (H (S i) ltac:(cbn; lia)). cbn in H. rewrite H. f_equal. lia.
Qed.

Lemma nth_xor_stream ks src : forall off i, i < length src ->
  nth i (xor_stream ks off src) 0%Z = Z.lxor (nth i src 0%Z) (ks (off + i)).
Proof.
  induction src as [|b r IH]; intros off i Hi; cbn in *; [lia|].
  destruct i as [|i]; cbn; [now rewrite Nat.add_0_r|].
  rewrite IH by lia. f_equal. f_equal. lia.
Qed.

(** ** copy_at *)
Lemma copy_at_length {A} off (d l : list A) :
  length (copy_at off d l) = length l.
Proof.
  unfold copy_at. rewrite app_length, gocopy_length, firstn_length, skipn_length. lia.
Qed.

Lemma nth_slice {A} o n i (l : list A) d : i < n -> nth i (slice o n l) d = nth (o + i) l d.
Proof.
  intro H. unfold slice. revert i n H. revert l. induction o as [|o IH]; intros l i n H.
  - cbn [skipn Nat.add]. revert n i H. induction l as [|x l IHl]; intros [|n] i H; cbn; try lia; auto.
    destruct i; auto. apply IHl. lia.
  - destruct l as [|x l]; cbn [skipn].
    + rewrite firstn_nil. destruct i, (S o); reflexivity.
    + cbn [Nat.add nth]. now apply IH.
Qed.

Lemma nth_copy_at {A} off (d l : list A) i z :
  off + length d <= length l ->
  nth i (copy_at off d l) z =
  if i <? off then nth i l z else if i <? off + length d then nth (i - off) d z else nth i l z.
Proof.
  intro H. unfold copy_at, gocopy. rewrite skipn_length.
  rewrite (@firstn_all2 _ (length l - off)) by lia. rewrite skipn_skipn'.
  destruct (Nat.ltb_spec i off).
  - rewrite app_nth1 by (rewrite firstn_length; lia).
    exact (@nth_slice _ 0 off i l z ltac:(lia)).
  - rewrite app_nth2 by (rewrite firstn_length; lia).
    rewrite firstn_length. replace (Nat.min off (length l)) with off by lia.
    destruct (Nat.ltb_spec i (off + length d)).
    + now rewrite app_nth1 by lia.
    + rewrite app_nth2 by lia.
      rewrite <- (firstn_skipn (off + length d) l) at 2.
      rewrite app_nth2 by (rewrite firstn_length; lia). f_equal. rewrite firstn_length. lia.
Qed.

(** ** The buffered generator *)
Section buf.
  Variable G : Type.
  Variable gen : G -> G * bytes.
  Variable L cap : nat.
  Variable g0 : G.
  Variable more : nat -> bool.

  Definition nxt (g : G) : G := fst (gen g).
  Definition ks (i : nat) : Z := nth (i mod L) (snd (gen (Nat.iter (i / L) nxt g0))) 0%Z.

  Record gen_ok : Prop := {
    gk_pos : 0 < L;
    gk_len : forall i, length (snd (gen (Nat.iter i nxt g0))) = L;
    gk_more : forall r, more r = true -> r + L <= cap
  }.

  Definition P (st : kst G) (pos : nat) : Prop :=
    exists j, kg st = Nat.iter j nxt g0 /\ kused st <= klen st <= cap /\
      length (kbuf st) = cap /\ pos + (klen st - kused st) = j * L /\
      forall i, i < klen st - kused st -> nth (kused st + i) (kbuf st) 0%Z = ks (pos + i).

  Lemma fill_P (H : gen_ok) : forall fuel j buf r pos,
    length buf = cap -> r <= cap -> cap - r < fuel -> pos + r = j * L ->
    (forall i, i < r -> nth i buf 0%Z = ks (pos + i)) ->
    exists j' buf' r',
      fill gen L more fuel (Nat.iter j nxt g0) buf r = Some (Nat.iter j' nxt g0, buf', r') /\
      length buf' = cap /\ r <= r' <= cap /\ more r' = false /\ pos + r' = j' * L /\
      (exists k, r' = r + k * L) /\
      forall i, i < r' -> nth i buf' 0%Z = ks (pos + i).
  Proof.
    destruct H as [HL Hlen Hmore].
    induction fuel as [|fuel IH]; intros j buf r pos Hb Hr Hf Hpos Hk; [lia|].
    cbn [fill]. destruct (more r) eqn:Em.
    - specialize (Hmore r Em).
      pose proof (Hlen j) as Hj.
      destruct (gen (Nat.iter j nxt g0)) as [g' o] eqn:Eg. cbn [snd] in Hj.
      assert (Hg' : g' = Nat.iter (S j) nxt g0).
      { change (Nat.iter (S j) nxt g0) with (fst (gen (Nat.iter j nxt g0))). now rewrite Eg. }
      rewrite Hg'.
      destruct (IH (S j) (copy_at r o buf) (r + L) pos) as (j' & b' & r' & E & H1 & H2 & H3 & H4 & H5 & H6).
      + now rewrite copy_at_length.
      + lia.
      + lia.
      + rewrite Nat.mul_succ_l. lia.
      + intros i Hi. rewrite nth_copy_at by lia.
        destruct (Nat.ltb_spec i r); [now apply Hk|].
        destruct (Nat.ltb_spec i (r + length o)); [|lia].
        unfold ks. replace (pos + i) with (j * L + (i - r)) by lia.
        rewrite Nat.add_comm, Nat.mod_add, Nat.div_add by lia.
        rewrite Nat.mod_small, Nat.div_small by lia. cbn [Nat.add].
        now rewrite Eg.
      + exists j', b', r'. split; [exact E|]. split; [auto|]. split; [lia|]. split; [auto|].
        split; [auto|]. split; [|auto]. destruct H5 as [k ->]. exists (S k). lia.
    - exists j, buf, r. split; [reflexivity|]. repeat split; auto; try lia.
      exists 0. lia.
  Qed.

  Lemma refill_P (H : gen_ok) early st pos : P st pos ->
    exists st', refill gen L more early st = Some st' /\ P st' pos /\
      ((early = true /\ kused st < klen st - kused st /\ st' = st) \/
       (kused st' = 0 /\ more (klen st') = false /\
        exists k, klen st' = klen st - kused st + k * L)).
  Proof.
    intros (j & Hg & Hu & Hb & Hpos & Hk). unfold refill.
    set (remain := klen st - kused st) in *.
    destruct (early && (kused st <? remain)) eqn:Ee.
    - exists st. split; [reflexivity|]. split; [exists j; auto|]. left.
      apply andb_true_iff in Ee as [-> E2]. apply Nat.ltb_lt in E2. auto.
    - rewrite Hg.
      destruct (@fill_P H (S (length (copy_at 0 (slice (kused st) remain (kbuf st)) (kbuf st)))) j
                  (copy_at 0 (slice (kused st) remain (kbuf st)) (kbuf st)) remain pos)
        as (j' & b' & r' & E & H1 & H2 & H3 & H4 & H5 & H6).
      + now rewrite copy_at_length.
      + lia.
      + rewrite copy_at_length. lia.
      + exact Hpos.
      + intros i Hi.
        assert (Hsl : length (slice (kused st) remain (kbuf st)) = remain)
          by (apply slice_length; lia).
        rewrite nth_copy_at by lia. rewrite Hsl.
        destruct (Nat.ltb_spec i 0); [lia|]. destruct (Nat.ltb_spec i (0 + remain)); [|lia].
        rewrite Nat.sub_0_r, nth_slice by lia. now apply Hk.
      + rewrite E. eexists. split; [reflexivity|]. split.
        * exists j'. cbn [kg kbuf klen kused]. rewrite Nat.sub_0_r.
          repeat split; auto; try lia. 
        * right. cbn [klen kused]. auto.
  Qed.

  Lemma advance_P st pos n : P st pos -> n <= klen st - kused st ->
    P {| kg := kg st; kbuf := kbuf st; klen := klen st; kused := kused st + n |} (pos + n).
  Proof.
    intros (j & Hg & Hu & Hb & Hpos & Hk) Hn. exists j. cbn [kg kbuf klen kused].
    repeat split; auto; try lia.
    intros i Hi. rewrite <- !Nat.add_assoc. apply Hk. lia.
  Qed.

  Lemma P_slice st pos n : P st pos -> n <= klen st - kused st ->
    length (slice (kused st) n (kbuf st)) = n /\
    forall i, i < n -> nth i (slice (kused st) n (kbuf st)) 0%Z = ks (pos + i).
  Proof.
    intros (j & Hg & Hu & Hb & Hpos & Hk) Hn. split; [apply slice_length; lia|].
    intros i Hi. rewrite nth_slice by lia. apply Hk. lia.
  Qed.

  Lemma kst_new_P (H : gen_ok) bs : cap = buf_size bs -> P (kst_new bs g0) 0.
  Proof.
    intro Hc. exists 0. cbn. repeat split; auto; try lia. now rewrite repeat_length.
  Qed.

  (** *** xor_loop *)
  Lemma xor_loop_P (H : gen_ok) lim :
    (forall r, more r = false -> 0 < r) ->
    forall fuel src st pos, length src <= fuel -> P st pos ->
    exists st', xor_loop gen L more fuel lim st src = Some (st', xor_stream ks pos src) /\
                P st' (pos + length src).
  Proof.
    intro Hpr. induction fuel as [|fuel IH]; intros src st pos Hf HP.
    - destruct src; cbn in Hf; [|lia]. exists st. cbn. rewrite Nat.add_0_r. auto.
    - destruct src as [|b src0] eqn:Es; [exists st; cbn; rewrite Nat.add_0_r; auto|].
      rewrite <- Es in *. assert (Hne : 0 < length src) by (subst; cbn; lia).
      replace (xor_loop gen L more (S fuel) lim st src) with
        (match check_refill gen L more true lim st with
         | None => None
         | Some st =>
              let o := xorl src (slice (kused st) (klen st - kused st) (kbuf st)) in
              let n := length o in
              let st' := {| kg := kg st; kbuf := kbuf st; klen := klen st; kused := kused st + n |} in
              match xor_loop gen L more fuel lim st' (skipn n src) with
              | None => None
              | Some (st'', os) => Some (st'', o ++ os)
              end
         end) by (subst src; reflexivity).
      clear Es.
      assert (Hc : exists st1, check_refill gen L more true lim st = Some st1 /\ P st1 pos /\
                               0 < klen st1 - kused st1).
      { unfold check_refill. destruct (Nat.leb_spec (klen st - lim) (kused st)).
        - destruct (@refill_P H true st pos HP) as (st1 & E & HP1 & [(_ & Hu & ->)|(Hu & Hm & _)]).
          + exists st. repeat split; auto. lia.
          + exists st1. repeat split; auto. rewrite Hu, Nat.sub_0_r. now apply Hpr.
        - exists st. repeat split; auto. lia. }
      destruct Hc as (st1 & -> & HP1 & Hav).
      destruct (P_slice HP1 (le_n _)) as [HLs Hns].
      cbv zeta.
      rewrite (@xorl_stream ks _ src pos) by (rewrite HLs; exact Hns).
      rewrite HLs. set (a := klen st1 - kused st1) in *.
      rewrite xor_stream_length. set (n := length (firstn a src)).
      assert (Hn : n = Nat.min a (length src)) by (unfold n; now rewrite firstn_length).
      destruct (IH (skipn n src) _ (pos + n)
                  ltac:(rewrite skipn_length; lia) (@advance_P st1 pos n HP1 ltac:(lia)))
        as (st' & E & HP').
      rewrite E. exists st'. split.
      + f_equal. f_equal. rewrite <- (firstn_skipn n src) at 3. rewrite xor_stream_app.
        assert (Hfn : firstn a src = firstn n src).
        { destruct (Nat.le_gt_cases a (length src)).
          - replace n with a by lia. reflexivity.
          - rewrite !firstn_all2 by lia. reflexivity. }
        rewrite Hfn. rewrite firstn_length. replace (Nat.min n (length src)) with n by lia.
        reflexivity.
      + rewrite skipn_length in HP'. replace (pos + length src) with (pos + n + (length src - n)) by lia.
        exact HP'.
  Qed.

  (** *** byte_loop *)
  Lemma byte_loop_P (H : gen_ok) lim :
    (forall r, more r = false -> 0 < r) ->
    forall src st pos, P st pos ->
    exists st', byte_loop gen L more lim st src = Ok (st', xor_stream ks pos src) /\
                P st' (pos + length src).
  Proof.
    intro Hpr. induction src as [|b src IH]; intros st pos HP.
    - exists st. cbn. rewrite Nat.add_0_r. auto.
    - cbn [byte_loop].
      assert (Hc : exists st1, check_refill gen L more true lim st = Some st1 /\ P st1 pos /\
                               0 < klen st1 - kused st1).
      { unfold check_refill. destruct (Nat.leb_spec (klen st - lim) (kused st)).
        - destruct (@refill_P H true st pos HP) as (st1 & E & HP1 & [(_ & Hu & ->)|(Hu & Hm & _)]).
          + exists st. repeat split; auto. lia.
          + exists st1. repeat split; auto. rewrite Hu, Nat.sub_0_r. now apply Hpr.
        - exists st. repeat split; auto. lia. }
      destruct Hc as (st1 & -> & HP1 & Hav).
      destruct (Nat.leb_spec (klen st1) (kused st1)); [lia|].
      destruct (IH _ (pos + 1) (@advance_P st1 pos 1 HP1 ltac:(lia))) as (st' & E & HP').
      rewrite E. cbn [rbind]. exists st'. split.
      + cbn [xor_stream]. do 2 f_equal. f_equal.
        * destruct HP1 as (j & _ & _ & _ & _ & Hk). specialize (Hk 0 Hav).
          rewrite !Nat.add_0_r in Hk. now rewrite Hk.
        * now rewrite Nat.add_1_r.
      + cbn [length]. now replace (pos + S (length src)) with (pos + 1 + length src) by lia.
  Qed.

  (** *** seg_loop *)
  Lemma seg_loop_P (H : gen_ok) s :
    0 < s -> s <= cap -> (forall r, r <= cap -> more r = false -> s <= r) ->
    forall fuel src st pos, length src <= fuel -> P st pos ->
    exists st', seg_loop gen L more fuel s st src = Ok (st', xor_stream ks pos src) /\
                P st' (pos + length src).
  Proof.
    intros Hs Hsc Hpr. induction fuel as [|fuel IH]; intros src st pos Hf HP.
    - destruct src; cbn in Hf; [|lia]. exists st. cbn. rewrite Nat.add_0_r. auto.
    - destruct src as [|b src0] eqn:Es; [exists st; cbn; rewrite Nat.add_0_r; auto|].
      rewrite <- Es in *. assert (Hne : 0 < length src) by (subst; cbn; lia).
      replace (seg_loop gen L more (S fuel) s st src) with
        (match check_refill gen L more false s st with
          | None => Err
          | Some st =>
              if length (kbuf st) <? kused st + s then Panic
              else
                let o := xorl src (slice (kused st) s (kbuf st)) in
                let n := length o in
                let st' := {| kg := kg st; kbuf := kbuf st; klen := klen st; kused := kused st + n |} in
                rbind (seg_loop gen L more fuel s st' (skipn n src))
                      (fun '(st'', os) => Ok (st'', o ++ os))
          end) by (subst src; reflexivity).
      clear Es.
      assert (Hc : exists st1, check_refill gen L more false s st = Some st1 /\ P st1 pos /\
                               s <= klen st1 - kused st1).
      { unfold check_refill. destruct (Nat.leb_spec (klen st - s) (kused st)).
        - destruct (@refill_P H false st pos HP) as (st1 & E & HP1 & [(F & _)|(Hu & Hm & _)]);
            [discriminate|].
          exists st1. repeat split; auto. rewrite Hu, Nat.sub_0_r. apply Hpr; auto.
          destruct HP1 as (? & _ & ? & _). lia.
        - exists st. repeat split; auto. lia. }
      destruct Hc as (st1 & -> & HP1 & Hav).
      assert (Hcap : kused st1 + s <= length (kbuf st1)).
      { destruct HP1 as (? & _ & ? & -> & _). lia. }
      destruct (Nat.ltb_spec (length (kbuf st1)) (kused st1 + s)); [lia|].
      destruct (P_slice HP1 Hav) as [HLs Hns].
      cbv zeta.
      rewrite (@xorl_stream ks _ src pos) by (rewrite HLs; exact Hns).
      rewrite HLs.
      rewrite xor_stream_length. set (n := length (firstn s src)).
      assert (Hn : n = Nat.min s (length src)) by (unfold n; now rewrite firstn_length).
      destruct (IH (skipn n src) _ (pos + n)
                  ltac:(rewrite skipn_length; lia) (@advance_P st1 pos n HP1 ltac:(lia)))
        as (st' & E & HP').
      rewrite E. cbn [rbind]. exists st'. split.
      + f_equal. f_equal. rewrite <- (firstn_skipn n src) at 3. rewrite xor_stream_app.
        assert (Hfn : firstn s src = firstn n src).
        { destruct (Nat.le_gt_cases s (length src)).
          - replace n with s by lia. reflexivity.
          - rewrite !firstn_all2 by lia. reflexivity. }
        rewrite Hfn. rewrite firstn_length. replace (Nat.min n (length src)) with n by lia.
        reflexivity.
      + rewrite skipn_length in HP'. replace (pos + length src) with (pos + n + (length src - n)) by lia.
        exact HP'.
  Qed.

  (** *** nofb_loop: positions are multiples of L *)
  Lemma nofb_loop_P (H : gen_ok) :
    (forall r, more r = false -> 0 < r) ->
    forall blocks st p, P st (p * L) -> (exists a, klen st = a * L) -> (exists a, kused st = a * L) ->
    Forall (fun b => length b <= L) blocks ->
    exists st', nofb_loop gen L more L st blocks =
        Ok (st', concat (map (fun ib => xor_stream ks ((p + fst ib) * L) (snd ib))
                           (combine (seq 0 (length blocks)) blocks))) /\
      P st' ((p + length blocks) * L) /\
      (exists a, klen st' = a * L) /\ (exists a, kused st' = a * L).
  Proof.
    intros Hpr. destruct (H) as [HLp _ _].
    induction blocks as [|b blocks IH]; intros st p HP Hkl Hku Hb.
    - exists st. cbn. rewrite Nat.add_0_r. auto.
    - apply Forall_cons_iff in Hb as [Hb1 Hb2]. cbn [nofb_loop].
      assert (Hc : exists st1, check_refill gen L more true L st = Some st1 /\ P st1 (p * L) /\
          L <= klen st1 - kused st1 /\ (exists a, klen st1 = a * L) /\ (exists a, kused st1 = a * L)).
      { unfold check_refill. destruct (Nat.leb_spec (klen st - L) (kused st)).
        - destruct (@refill_P H true st (p * L) HP) as (st1 & E & HP1 & [(_ & Hu & ->)|(Hu & Hm & k & Hk)]).
          + exists st. repeat split; auto. destruct Hkl as [a Ha], Hku as [a' Ha'].
            rewrite Ha, Ha', <- Nat.mul_sub_distr_r in *. destruct (a - a') eqn:Ed; [cbn in Hu; lia|].
            cbn. lia.
          + exists st1. split; [exact E|]. split; [exact HP1|].
            destruct Hkl as [a Ha], Hku as [a' Ha'].
            assert (Hm' : klen st1 = (a - a' + k) * L) by (rewrite Hk, Ha, Ha'; nia).
            split; [|split; [eauto|exists 0; lia]].
            specialize (Hpr _ Hm). rewrite Hu, Nat.sub_0_r. rewrite Hm' in *.
            destruct (a - a' + k); cbn in *; lia.
        - exists st. split; [reflexivity|]. split; [exact HP|]. split; [lia|]. auto. }
      destruct Hc as (st1 & -> & HP1 & Hav & Hkl1 & Hku1).
      destruct (Nat.ltb_spec (klen st1) (kused st1)); [lia|].
      destruct (P_slice HP1 (le_n _)) as [HLs Hns].
      rewrite (@xorl_stream ks _ b (p * L)) by (rewrite HLs; exact Hns).
      rewrite HLs. rewrite (@firstn_all2 _ (klen st1 - kused st1) b) by lia.
      assert (Hgc : gocopy (repeat 0%Z (length b)) (xor_stream ks (p * L) b) = xor_stream ks (p * L) b).
      { unfold gocopy. rewrite repeat_length, xor_stream_length.
        rewrite firstn_all2 by (rewrite xor_stream_length; lia).
        rewrite skipn_all2 by (rewrite repeat_length; lia). apply app_nil_r. }
      rewrite Hgc.
      pose proof (@advance_P st1 (p * L) L HP1 Hav) as HP2.
      replace (p * L + L) with ((S p) * L) in HP2 by lia.
      destruct (IH _ (S p) HP2) as (st' & E & HP' & Hkl' & Hku'); auto.
      { cbn [kused]. destruct Hku1 as [a ->]. exists (S a). lia. }
      rewrite E. cbn [rbind]. exists st'. split.
      + do 2 f_equal. cbn [length seq combine map concat fst snd]. rewrite Nat.add_0_r.
        f_equal. f_equal. rewrite <- seq_shift.
        clear. revert p. generalize (seq 0 (length blocks)) as l. revert blocks.
        intro blocks. induction blocks as [|x blocks IH]; intros [|i l] p; cbn; auto.
        rewrite <- IH. f_equal. f_equal. lia.
      + split; [|auto]. cbn [length]. now replace (p + S (length blocks)) with (S p + length blocks) by lia.
  Qed.
End buf.

(** ** From one call to histories *)
Section histories.
  Variable S : Type.
  Variable call : S -> bytes * bytes -> res (S * bytes).
  Variable ks : nat -> Z.
  Variable Inv : S -> nat -> Prop.
  Hypothesis one : forall st pos x, Inv st pos -> scall_ok x ->
    exists st', call st x = Ok (st', xor_stream ks pos (snd x)) /\ Inv st' (pos + length (snd x)).

  Lemma run_stream calls : forall st pos, Inv st pos -> Forall scall_ok calls ->
    exists st' outs, run_calls call st calls = Ok (st', outs) /\
      map (@length Z) outs = map (fun x => length (snd x)) calls /\
      concat outs = xor_stream ks pos (concat (map snd calls)).
  Proof.
    induction calls as [|x calls IH]; intros st pos HI Hc.
    - exists st, []. auto.
    - apply Forall_cons_iff in Hc as [Hx Hc].
      destruct (one HI Hx) as (st1 & E & HI1).
      destruct (IH st1 _ HI1 Hc) as (st2 & outs & E2 & Hl & Ho).
      cbn [run_calls]. rewrite E. cbn [rbind]. rewrite E2. cbn [rbind].
      eexists st2, _. split; [reflexivity|]. cbn [map concat].
      rewrite xor_stream_length, Hl. split; [reflexivity|].
      rewrite Ho. now rewrite xor_stream_app.
  Qed.

  Lemma stream_is_from st : Inv st 0 -> stream_is call st ks.
  Proof. intros HI calls Hc. now apply run_stream. Qed.
End histories.

Lemma stream_is_chunk {S} (call : S -> bytes * bytes -> res (S * bytes)) st ks :
  stream_is call st ks -> chunk_invariant call st.
Proof.
  intros H c1 c2 H1 H2 E. destruct (H c1 H1) as (s1 & o1 & E1 & _ & O1).
  destruct (H c2 H2) as (s2 & o2 & E2 & _ & O2).
  exists s1, s2, o1, o2. repeat split; auto. now rewrite O1, O2, E.
Qed.

Lemma stream_is_roundtrip {S S'} (call : S -> bytes * bytes -> res (S * bytes))
    (call' : S' -> bytes * bytes -> res (S' * bytes)) st st' ks :
  stream_is call st ks -> stream_is call' st' ks -> stream_roundtrip call call' st st'.
Proof.
  intros H H' c1 H1. destruct (H c1 H1) as (s1 & o1 & E1 & _ & O1).
  exists s1, o1. split; [exact E1|]. split; [now rewrite O1, xor_stream_length|].
  intros c2 H2 E. destruct (H' c2 H2) as (s2 & o2 & E2 & _ & O2).
  exists s2, o2. split; [exact E2|]. rewrite O2, E, O1. apply xor_stream_cancel.
Qed.

Lemma stream_is_ext {S} (call : S -> bytes * bytes -> res (S * bytes)) st ks1 ks2 :
  (forall i, ks1 i = ks2 i) -> stream_is call st ks1 -> stream_is call st ks2.
Proof.
  intros He H calls Hc. destruct (H calls Hc) as (s & o & E & Hl & O).
  exists s, o. repeat split; auto. rewrite O. apply xor_stream_ext. auto.
Qed.

(** ** Instances *)
Lemma buf_size_small bs : bs <= 511 -> buf_size bs = 512.
Proof. intro H. unfold buf_size. destruct (Nat.ltb_spec 512 bs); lia. Qed.

Lemma iter_isblock n f k b : (forall x, isblock n x -> isblock n (f x)) -> isblock n b ->
  isblock n (Nat.iter k f b).
Proof. intros Hf Hb. induction k; cbn; auto. Qed.

Section ofb.
  Variable c : cipher.
  Hypothesis HL : lawful c.
  Hypothesis Hbs : bsz c <= 511.
  Variable iv : bytes.

  Lemma ofb_more_pos r : ofb_more c r = false -> 0 < r.
  Proof.
    unfold ofb_more. rewrite buf_size_small by auto. intro H. apply Nat.ltb_ge in H. lia.
  Qed.
  Lemma ofb_more_fits r : ofb_more c r = true -> r + bsz c <= buf_size (bsz c).
  Proof. unfold ofb_more. intro H. apply Nat.ltb_lt in H. lia. Qed.

  Lemma ofb_gen_ok : isblock (bsz c) iv ->
    gen_ok (ofb_gen c) (bsz c) (buf_size (bsz c)) iv (ofb_more c).
  Proof.
    intro Hiv. split.
    - apply (law_pos HL).
    - intro i. change (length (enc c (Nat.iter i (enc c) iv)) = bsz c).
      apply (law_enc HL). apply iter_isblock; [apply (law_enc HL)|exact Hiv].
    - apply ofb_more_fits.
  Qed.

  Lemma g3413ofb_next_eq a b : isblock (bsz c) a -> isblock (bsz c) b ->
    g3413ofb_gen c (a ++ b) = (b ++ enc c a, enc c a).
  Proof.
    intros [Ha1 Ha2] [Hb1 Hb2]. unfold g3413ofb_gen.
    rewrite firstn_app_exact, skipn_app_exact by auto.
    pose proof (law_enc HL (conj Ha1 Ha2)) as [He _].
    f_equal. unfold copy_at, gocopy. rewrite !app_length.
    rewrite (@firstn_all2 _ (length a + length b) b) by lia.
    rewrite !firstn_app_exact, !skipn_app_exact by auto.
    rewrite Hb1, skipn_app_exact by auto. rewrite Hb1, He.
    rewrite firstn_all2 by lia. rewrite skipn_all2 by lia. now rewrite app_nil_r.
  Qed.

  Lemma g3413ofb_iter a b k : isblock (bsz c) a -> isblock (bsz c) b ->
    exists x y, isblock (bsz c) x /\ isblock (bsz c) y /\
      Nat.iter k (nxt (g3413ofb_gen c)) (a ++ b) = x ++ y /\
      Nat.iter k (g3413ofb_next (enc c)) (a, b) = (x, y).
  Proof.
    intros Ha Hb. induction k as [|k (x & y & Hx & Hy & E1 & E2)]; [exists a, b; auto|].
    exists y, (enc c x). pose proof (law_enc HL Hx) as He.
    change (Nat.iter (S k) ?f ?z) with (f (Nat.iter k f z)).
    rewrite E1, E2. unfold nxt. rewrite g3413ofb_next_eq by auto. auto.
  Qed.

  Lemma halves : isblock (2 * bsz c) iv ->
    isblock (bsz c) (firstn (bsz c) iv) /\ isblock (bsz c) (skipn (bsz c) iv).
  Proof.
    intros [H1 H2]. split; split; try (now apply bytes_ok_firstn); try (now apply bytes_ok_skipn);
      rewrite ?firstn_length, ?skipn_length; lia.
  Qed.

  Lemma g3413ofb_gen_ok : isblock (2 * bsz c) iv ->
    gen_ok (g3413ofb_gen c) (bsz c) (buf_size (bsz c)) iv (ofb_more c).
  Proof.
    intro Hiv. destruct (halves Hiv) as [Ha Hb]. split.
    - apply (law_pos HL).
    - intro i. rewrite <- (firstn_skipn (bsz c) iv).
      destruct (g3413ofb_iter i Ha Hb) as (x & y & Hx & Hy & E1 & _).
      rewrite E1, g3413ofb_next_eq by auto. apply (law_enc HL Hx).
    - apply ofb_more_fits.
  Qed.

  Lemma g3413ofb_ks_eq i : isblock (2 * bsz c) iv ->
    ks (g3413ofb_gen c) (bsz c) iv i = g3413ofb_ks (enc c) (bsz c) iv i.
  Proof.
    intro Hiv. destruct (halves Hiv) as [Ha Hb]. unfold ks, g3413ofb_ks.
    rewrite <- (firstn_skipn (bsz c) iv) at 1.
    destruct (g3413ofb_iter (i / bsz c) Ha Hb) as (x & y & Hx & Hy & E1 & E2).
    rewrite E1, E2, g3413ofb_next_eq by auto. reflexivity.
  Qed.

  Lemma ofb8_next_eq g : isblock (bsz c) g ->
    ofb8_gen c g = (ofb8_next (enc c) g, [nth 0 (enc c g) 0%Z]) /\
    isblock (bsz c) (ofb8_next (enc c) g).
  Proof.
    intros Hg. pose proof (law_pos HL) as Hp. pose proof (law_enc HL Hg) as [He1 He2].
    destruct Hg as [Hg1 Hg2].
    unfold ofb8_gen, ofb8_next. set (d := nth 0 (enc c g) 0%Z). split.
    - f_equal. destruct g as [|x g]; cbn in Hg1; [lia|]. cbn [skipn length].
      unfold copy_at, gocopy. cbn [length]. rewrite Nat.sub_succ, Nat.sub_0_r.
      rewrite (@firstn_all2 _ (S (length g)) g) by lia.
      rewrite firstn_app_exact by auto. f_equal.
      rewrite skipn_app_exact by auto.
      destruct (skipn (length g) (x :: g)) as [|z r] eqn:Es.
      + apply (f_equal (@length Z)) in Es. rewrite skipn_length in Es. cbn [length] in Es. lia.
      + assert (length (z :: r) = 1) by (rewrite <- Es, skipn_length; cbn [length]; lia).
        destruct r; cbn in *; [reflexivity|lia].
    - split; [rewrite app_length, skipn_length; cbn; lia|].
      apply bytes_ok_app. split; [now apply bytes_ok_skipn|]. constructor; [|constructor].
      unfold bytes_ok in He2. rewrite Forall_forall in He2. apply He2. apply nth_In. lia.
  Qed.

  Lemma ofb8_iter k : isblock (bsz c) iv ->
    Nat.iter k (nxt (ofb8_gen c)) iv = Nat.iter k (ofb8_next (enc c)) iv /\
    isblock (bsz c) (Nat.iter k (ofb8_next (enc c)) iv).
  Proof.
    intro Hiv. induction k as [|k [E Hb]]; [auto|].
    change (Nat.iter (S k) ?f ?z) with (f (Nat.iter k f z)).
    rewrite E. unfold nxt. destruct (ofb8_next_eq Hb) as [-> Hb']. auto.
  Qed.

  Lemma ofb8_gen_ok : isblock (bsz c) iv ->
    gen_ok (ofb8_gen c) 1 (buf_size (bsz c)) iv (ofb8_more c).
  Proof.
    intro Hiv. split; [lia| |].
    - intro i. destruct (ofb8_iter i Hiv) as [-> Hb]. now destruct (ofb8_next_eq Hb) as [-> _].
    - intros r. unfold ofb8_more. rewrite buf_size_small by auto. intro H.
      apply Nat.leb_le in H. lia.
  Qed.

  Lemma ofb8_ks_eq i : isblock (bsz c) iv -> ks (ofb8_gen c) 1 iv i = ofb8_ks (enc c) iv i.
  Proof.
    intro Hiv. unfold ks, ofb8_ks. rewrite Nat.mod_1_r, Nat.div_1_r.
    destruct (ofb8_iter i Hiv) as [-> Hb]. now destruct (ofb8_next_eq Hb) as [-> _].
  Qed.
End ofb.

(** *** Counter *)
Lemma ctr_inc_rev_val l : bytes_ok l ->
  length (ctr_inc_rev l) = length l /\ bytes_ok (ctr_inc_rev l) /\
  le_val (ctr_inc_rev l) = ((le_val l + 1) mod 256 ^ Z.of_nat (length l))%Z.
Proof.
  induction l as [|b l IH]; intro H.
  - cbn. auto.
  - apply Forall_cons_iff in H as [Hb H]. destruct (IH H) as (I1 & I2 & I3).
    pose proof (le_val_bound H) as Hv. unfold is_byte in Hb.
    assert (Hpow : (256 ^ Z.of_nat (length (b :: l)) = 256 * 256 ^ Z.of_nat (length l))%Z).
    { cbn [length]. rewrite Nat2Z.inj_succ, Z.pow_succ_r by lia. reflexivity. }
    assert (Hp : (0 < 256 ^ Z.of_nat (length l))%Z) by (apply Z.pow_pos_nonneg; lia).
    cbn [ctr_inc_rev le_val]. rewrite Hpow.
    destruct (Z.eqb_spec ((b + 1) mod 256) 0) as [E|E].
    + assert (b = 255)%Z by (assert (b + 1 = 256 \/ b + 1 < 256)%Z as [?|?] by lia; [lia|
        rewrite Z.mod_small in E by lia; lia]). subst b.
      cbn [length le_val]. rewrite I1. split; [auto|]. split.
      * constructor; auto. unfold is_byte. change ((255 + 1) mod 256)%Z with 0%Z. lia.
      * rewrite I3. change ((255 + 1) mod 256)%Z with 0%Z.
        replace (255 + 256 * le_val l + 1)%Z with (256 * (le_val l + 1))%Z by lia.
        rewrite Zmult_mod_distr_l. lia.
    + assert (b + 1 < 256)%Z.
      { assert (b + 1 = 256 \/ b + 1 < 256)%Z as [Hx|?] by lia; [|lia].
        rewrite Hx in E. now cbn in E. }
      rewrite (Z.mod_small (b + 1)) in * by lia. cbn [length le_val]. split; [auto|]. split.
      * constructor; auto. unfold is_byte. lia.
      * rewrite Z.mod_small by nia. lia.
Qed.

Lemma ctr_inc_val l : bytes_ok l ->
  ctr_inc l = be_bytes (length l) (be_val l + 1).
Proof.
  intro H. destruct (ctr_inc_rev_val (bytes_ok_rev H)) as (I1 & I2 & I3).
  unfold ctr_inc, be_bytes, be_val. f_equal. rewrite rev_length in *.
  rewrite <- (le_bytes_val I2 I1). rewrite I3.
  set (z := (le_val (rev l) + 1)%Z). clearbody z. generalize (length l) as n. clear.
  intro n. revert z; induction n as [|n IH]; intro z; [reflexivity|].
  assert (Hp : (0 < 256 ^ Z.of_nat n)%Z) by (apply Z.pow_pos_nonneg; lia).
  cbn [le_bytes]. rewrite Nat2Z.inj_succ, Z.pow_succ_r by lia.
  rewrite Z.rem_mul_r by lia.
  set (q := ((z / 256) mod 256 ^ Z.of_nat n)%Z).
  replace (z mod 256 + 256 * q)%Z with (z mod 256 + q * 256)%Z by lia.
  rewrite Z_mod_plus_full, Z.mod_mod, Z.div_add by lia.
  rewrite (Z.div_small (z mod 256)) by (apply Z.mod_pos_bound; lia).
  cbn [Z.add]. f_equal. apply IH.
Qed.

Lemma le_bytes_mod n : forall z, le_bytes n (z mod 256 ^ Z.of_nat n) = le_bytes n z.
Proof.
  induction n as [|n IH]; intro z; [reflexivity|].
  assert (Hp : (0 < 256 ^ Z.of_nat n)%Z) by (apply Z.pow_pos_nonneg; lia).
  cbn [le_bytes]. rewrite Nat2Z.inj_succ, Z.pow_succ_r by lia.
  rewrite Z.rem_mul_r by lia.
  set (q := ((z / 256) mod 256 ^ Z.of_nat n)%Z).
  replace (z mod 256 + 256 * q)%Z with (z mod 256 + q * 256)%Z by lia.
  rewrite Z_mod_plus_full, Z.mod_mod, Z.div_add by lia.
  rewrite (Z.div_small (z mod 256)) by (apply Z.mod_pos_bound; lia).
  cbn [Z.add]. f_equal. apply IH.
Qed.

Lemma ctr_iter ctr k : bytes_ok ctr ->
  Nat.iter k ctr_inc ctr = be_bytes (length ctr) (be_val ctr + Z.of_nat k).
Proof.
  intro H. induction k as [|k IH].
  - cbn [Nat.iter]. rewrite Z.add_0_r. symmetry. now apply be_bytes_val.
  - change (Nat.iter (S k) ?f ?z) with (f (Nat.iter k f z)). rewrite IH.
    rewrite ctr_inc_val by apply be_bytes_ok. rewrite be_bytes_length, be_val_bytes.
    unfold be_bytes. f_equal. rewrite <- le_bytes_mod. rewrite Zplus_mod_idemp_l.
    rewrite le_bytes_mod. f_equal. lia.
Qed.

Section ctr.
  Variable c : cipher.
  Hypothesis HL : lawful c.
  Variable s : nat.
  Hypothesis Hs : 0 < s <= bsz c.
  Hypothesis Hbs : bsz c <= 256.
  Variable ctr : bytes.
  Hypothesis Hctr : isblock (bsz c) ctr.

  Lemma ctr_state k : isblock (bsz c) (Nat.iter k (nxt (g3413ctr_gen c s)) ctr) /\
    Nat.iter k (nxt (g3413ctr_gen c s)) ctr = be_bytes (bsz c) (be_val ctr + Z.of_nat k).
  Proof.
    destruct Hctr as [H1 H2].
    assert (E : Nat.iter k (nxt (g3413ctr_gen c s)) ctr = Nat.iter k ctr_inc ctr) by reflexivity.
    rewrite E, ctr_iter, H1 by auto. split; [|reflexivity].
    split; [apply be_bytes_length|apply be_bytes_ok].
  Qed.

  Lemma g3413ctr_gen_ok :
    gen_ok (g3413ctr_gen c s) s (buf_size (bsz c)) ctr (g3413ctr_more c s).
  Proof.
    split; [lia| |].
    - intro i. destruct (ctr_state i) as [Hb _]. unfold g3413ctr_gen at 1. cbn [snd].
      rewrite firstn_length. destruct (law_enc HL Hb). lia.
    - intro r. unfold g3413ctr_more. intro H. lia.
  Qed.

  Lemma g3413ctr_more_s r : r <= buf_size (bsz c) -> g3413ctr_more c s r = false -> s <= r.
  Proof. unfold g3413ctr_more. rewrite buf_size_small by lia. lia. Qed.

  Lemma g3413ctr_ks_eq i :
    ks (g3413ctr_gen c s) s ctr i =
    nth (i mod s) (enc c (be_bytes (bsz c) (be_val ctr + Z.of_nat (i / s)))) 0%Z.
  Proof.
    unfold ks. destruct (ctr_state (i / s)) as [Hb ->]. unfold g3413ctr_gen. cbn [snd].
    exact (@nth_slice _ 0 s (i mod s) _ 0%Z ltac:(apply Nat.mod_upper_bound; lia)).
  Qed.
End ctr.

(** *** nofb over histories *)

Lemma chunks_count {A} n (l : list A) : 0 < n -> length (chunks n l) = (length l + n - 1) / n.
Proof.
  intro Hn. remember (length l) as k eqn:Hk. revert l Hk.
  induction k as [k IH] using lt_wf_ind. intros l ->.
  destruct l as [|x l].
  - cbn [length chunks chunks_fuel]. symmetry. apply Nat.div_small. lia.
  - rewrite chunks_cons by (auto; congruence). cbn [length].
    set (l1 := x :: l) in *. assert (Hl1 : length l1 = S (length l)) by reflexivity.
    rewrite (IH (length (skipn n l1))); [|rewrite skipn_length; lia|reflexivity].
    rewrite skipn_length.
    change (S (length l)) with (length l1).
    destruct (Nat.le_gt_cases (length l1) n) as [H|H].
    + replace (length l1 - n) with 0 by lia. rewrite (@Nat.div_small (0 + n - 1)) by lia.
      replace (length l1 + n - 1) with (length l1 - 1 + 1 * n) by (subst l1; cbn; lia).
      rewrite Nat.div_add by lia. rewrite Nat.div_small by (subst l1; cbn in *; lia). reflexivity.
    + replace (length l1 + n - 1) with (length l1 - n + n - 1 + 1 * n) by lia.
      rewrite Nat.div_add by lia. lia.
Qed.

Lemma nofb_chunks ks L src : 0 < L -> forall p,
  concat (map (fun ib => xor_stream ks ((p + fst ib) * L) (snd ib))
            (combine (seq 0 (length (chunks L src))) (chunks L src))) =
  xor_stream ks (p * L) src.
Proof.
  intro HL. remember (length src) as k eqn:Hk. revert src Hk.
  induction k as [k IH] using lt_wf_ind. intros src Hk p.
  destruct src as [|x src]; [reflexivity|].
  set (l := x :: src) in *. assert (Hne : l <> []) by (subst l; congruence).
  assert (Hlen : 0 < length l) by (subst l; cbn; lia).
  rewrite chunks_cons by auto. cbn [length seq combine map concat fst snd].
  rewrite Nat.add_0_r.
  assert (Hsh : map (fun ib : nat * bytes => xor_stream ks ((p + fst ib) * L) (snd ib))
      (combine (seq 1 (length (chunks L (skipn L l)))) (chunks L (skipn L l))) =
    map (fun ib => xor_stream ks ((S p + fst ib) * L) (snd ib))
      (combine (seq 0 (length (chunks L (skipn L l)))) (chunks L (skipn L l)))).
  { generalize (chunks L (skipn L l)) as bl. clear. intro bl. rewrite <- seq_shift.
    generalize (seq 0 (length bl)) as q. revert p.
    induction bl as [|b bl IH]; intros p [|i q]; cbn; auto. rewrite IH.
    f_equal. f_equal. lia. }
  rewrite Hsh. rewrite (IH (length (skipn L l))); [|rewrite skipn_length; lia|reflexivity].
  rewrite <- (firstn_skipn L l) at 3. rewrite xor_stream_app.
  destruct (Nat.le_gt_cases (length l) L) as [H|H].
  - rewrite (@skipn_all2 _ L l) by lia. reflexivity.
  - f_equal. rewrite firstn_length. f_equal. lia.
Qed.

Lemma chunks_le {A} n (l : list A) : 0 < n -> Forall (fun b => length b <= n) (chunks n l).
Proof.
  intro Hn. remember (length l) as k eqn:Hk. revert l Hk.
  induction k as [k IH] using lt_wf_ind. intros l ->. destruct l as [|x l]; [constructor|].
  rewrite chunks_cons by (auto; congruence). constructor; [rewrite firstn_length; lia|].
  apply (IH (length (skipn n (x :: l)))); [rewrite skipn_length; cbn [length]; lia|reflexivity].
Qed.

Section nofb.
  Variable c : cipher.
  Hypothesis HL : lawful c.
  Hypothesis Hbs : bsz c <= 511.
  Variable iv : bytes.
  Hypothesis Hiv : isblock (bsz c) iv.
  Let K := ks (ofb_gen c) (bsz c) iv.
  Definition nofb_I (st : kst bytes) (p : nat) : Prop :=
    P (ofb_gen c) (bsz c) (buf_size (bsz c)) iv st (p * bsz c) /\
    (exists a, klen st = a * bsz c) /\ (exists a, kused st = a * bsz c).

  Lemma nofb_call_I st p x : nofb_I st p -> scall_ok x ->
    exists st', nofb_call c st x = Ok (st', xor_stream K (p * bsz c) (snd x)) /\
                nofb_I st' (p + nblocks (bsz c) (snd x)).
  Proof.
    intros (HP & H1 & H2) Hx. unfold nofb_call, stream_call.
    unfold scall_ok in Hx. destruct (Nat.ltb_spec (length (fst x)) (length (snd x))); [lia|].
    destruct (@nofb_loop_P _ (ofb_gen c) (bsz c) (buf_size (bsz c)) iv (ofb_more c)
               (ofb_gen_ok HL Hbs Hiv) (@ofb_more_pos c Hbs) (chunks (bsz c) (snd x)) st p HP H1 H2
               (chunks_le (snd x) (law_pos HL))) as (st' & E & HP' & H1' & H2').
    rewrite nofb_chunks in E by apply (law_pos HL).
    exists st'. split; [exact E|]. unfold nblocks. rewrite chunks_count in HP' by apply (law_pos HL).
    split; auto.
  Qed.

  Lemma nofb_run calls : forall st p, nofb_I st p -> Forall scall_ok calls ->
    exists st', run_calls (nofb_call c) st calls = Ok (st', nofb_outs K (bsz c) p (map snd calls)).
  Proof.
    induction calls as [|x calls IH]; intros st p HI Hc; [exists st; reflexivity|].
    apply Forall_cons_iff in Hc as [Hx Hc].
    destruct (nofb_call_I HI Hx) as (st1 & E & HI1). destruct (IH st1 _ HI1 Hc) as (st2 & E2).
    cbn [run_calls]. rewrite E. cbn [rbind]. rewrite E2. cbn [rbind map nofb_outs].
    exists st2. reflexivity.
  Qed.

  Lemma nofb_new_I : nofb_I (ofb_new c iv) 0.
  Proof.
    split; [apply kst_new_P with (more := ofb_more c); auto; now apply ofb_gen_ok|].
    cbn. split; exists 0; reflexivity.
  Qed.
End nofb.

Lemma nofb_outs_lengths ks bs srcs : forall p,
  map (@length Z) (nofb_outs ks bs p srcs) = map (@length Z) srcs.
Proof.
  induction srcs as [|x r IH]; intro p; cbn; auto. now rewrite xor_stream_length, IH.
Qed.

Lemma nofb_outs_cancel ks bs srcs : forall p,
  nofb_outs ks bs p (nofb_outs ks bs p srcs) = srcs.
Proof.
  induction srcs as [|x r IH]; intro p; cbn [nofb_outs]; auto.
  rewrite xor_stream_cancel. f_equal. unfold nblocks. rewrite xor_stream_length. apply IH.
Qed.

Lemma nofb_outs_aligned ks bs srcs last : 0 < bs -> forall p,
  Forall (fun x => length x mod bs = 0) srcs ->
  concat (nofb_outs ks bs p (srcs ++ [last])) = xor_stream ks (p * bs) (concat srcs ++ last).
Proof.
  intros Hb p H. revert p. induction H as [|x l Hx H IH]; intro p; cbn [app nofb_outs concat].
  - now rewrite app_nil_r.
  - rewrite IH, <- app_assoc, (@xor_stream_app _ x). f_equal. f_equal.
    unfold nblocks. pose proof (Nat.div_mod (length x) bs ltac:(lia)) as D. rewrite Hx in D.
    assert (E : (length x + bs - 1) / bs = length x / bs).
    { rewrite D at 1. rewrite Nat.add_0_r.
      replace (bs * (length x / bs) + bs - 1) with (bs - 1 + (length x / bs) * bs) by lia.
      rewrite Nat.div_add by lia. rewrite Nat.div_small by lia. reflexivity. }
    rewrite E. rewrite Nat.mul_add_distr_r. rewrite (Nat.mul_comm (length x / bs)). lia.
Qed.

(** *** Loops whose keystream does not depend on the data (gofb) *)
Section weak.
  Variable G : Type.
  Variable gen : G -> G * bytes.
  Variable L cap : nat.
  Variable more : nat -> bool.
  Hypothesis HLpos : 0 < L.
  Hypothesis Hfit : forall r, more r = true -> r + L <= cap.
  Hypothesis Hpos : forall r, more r = false -> 0 < r.

  Definition W (st : kst G) : Prop := kused st <= klen st <= cap /\ length (kbuf st) = cap.

  Lemma fill_W : forall fuel g buf r, length buf = cap -> r <= cap -> cap - r < fuel ->
    exists g' buf' r', fill gen L more fuel g buf r = Some (g', buf', r') /\
      length buf' = cap /\ 0 < r' <= cap.
  Proof.
    induction fuel as [|fuel IH]; intros g buf r Hb Hr Hf; [lia|].
    cbn [fill]. destruct (more r) eqn:Em.
    - specialize (Hfit Em). destruct (gen g) as [g' o].
      apply IH; [now rewrite copy_at_length|lia|lia].
    - exists g, buf, r. specialize (Hpos Em). repeat split; auto.
  Qed.

  Lemma check_refill_W lim st : W st ->
    exists st1, check_refill gen L more true lim st = Some st1 /\ W st1 /\ 0 < klen st1 - kused st1.
  Proof.
    intros [Hu Hb]. unfold check_refill. destruct (Nat.leb_spec (klen st - lim) (kused st)).
    - unfold refill. cbn [andb]. set (remain := klen st - kused st).
      destruct (Nat.ltb_spec (kused st) remain).
      + exists st. repeat split; try lia.
      + destruct (@fill_W (S (length (copy_at 0 (slice (kused st) remain (kbuf st)) (kbuf st))))
                    (kg st) (copy_at 0 (slice (kused st) remain (kbuf st)) (kbuf st)) remain)
          as (g' & b' & r' & E & H1 & H2).
        * now rewrite copy_at_length.
        * lia.
        * rewrite copy_at_length. lia.
        * rewrite E. eexists. split; [reflexivity|]. cbn. repeat split; cbn; lia.
    - exists st. repeat split; try lia.
  Qed.

  Lemma xor_loop_W lim : forall fuel n st, n <= fuel -> W st ->
    exists st' k, length k = n /\ W st' /\
      forall src, length src = n -> xor_loop gen L more fuel lim st src = Some (st', xorl src k).
  Proof.
    induction fuel as [|fuel IH]; intros n st Hn HW.
    - exists st, []. assert (n = 0) by lia. subst. repeat split; auto; try apply HW.
      intros [|? ?] H; [reflexivity|discriminate].
    - destruct n as [|n0] eqn:En.
      { exists st, []. repeat split; auto; try apply HW.
        intros [|? ?] H; [reflexivity|discriminate]. }
      rewrite <- En in *. assert (Hn0 : 0 < n) by lia. clear En n0.
      destruct (@check_refill_W lim st HW) as (st1 & Ec & [Hu1 Hb1] & Hav).
      set (a := klen st1 - kused st1) in *. set (m := Nat.min a n).
      destruct (IH (n - m) {| kg := kg st1; kbuf := kbuf st1; klen := klen st1; kused := kused st1 + m |})
        as (st' & k & Hk & HW' & Hsrc).
      { lia. }
      { split; cbn; [lia|exact Hb1]. }
      assert (HLs : length (slice (kused st1) a (kbuf st1)) = a) by (apply slice_length; lia).
      exists st', (slice (kused st1) m (kbuf st1) ++ k). split.
      { rewrite app_length, slice_length by lia. lia. }
      split; [exact HW'|]. intros src Hs.
      destruct src as [|b src0] eqn:Es; [cbn in Hs; lia|]. rewrite <- Es in *.
      replace (xor_loop gen L more (S fuel) lim st src) with
        (match check_refill gen L more true lim st with
         | None => None
         | Some st =>
              let o := xorl src (slice (kused st) (klen st - kused st) (kbuf st)) in
              let n := length o in
              let st' := {| kg := kg st; kbuf := kbuf st; klen := klen st; kused := kused st + n |} in
              match xor_loop gen L more fuel lim st' (skipn n src) with
              | None => None
              | Some (st'', os) => Some (st'', o ++ os)
              end
         end) by (subst src; reflexivity).
      clear Es. rewrite Ec. cbv zeta. fold a.
      assert (Hlo : length (xorl src (slice (kused st1) a (kbuf st1))) = m)
        by (rewrite xorl_length, HLs, Hs; unfold m; lia).
      rewrite Hlo. rewrite Hsrc by (rewrite skipn_length; lia).
      do 2 f_equal.
      rewrite <- (firstn_skipn m src) at 3.
      rewrite xorl_app by (rewrite firstn_length, slice_length by lia; lia).
      f_equal. transitivity (firstn m (xorl src (slice (kused st1) a (kbuf st1)))).
      { symmetry. apply firstn_all2. lia. }
      rewrite xorl_firstn. unfold slice. rewrite firstn_firstn, Nat.min_l by lia. reflexivity.
  Qed.
End weak.

(** *** toy cipher *)
Lemma toyn_lawful n : 0 < n -> lawful (toyn n).
Proof.
  intro Hn. assert (Hmap : forall (f : Z -> Z) l, (forall x, is_byte (f x)) -> bytes_ok (map f l)).
  { intros f l Hf. induction l; constructor; auto. }
  assert (Hb : forall z, is_byte (z mod 256)%Z) by (intro; unfold is_byte; apply Z.mod_pos_bound; lia).
  split; cbn [toyn bsz enc dec]; auto.
  - intros b [H1 H2]. rewrite (proj2 (Nat.eqb_eq _ _) H1). split; [|apply Hmap; auto].
    rewrite map_length, app_length, skipn_length, firstn_length. lia.
  - intros b [H1 H2]. rewrite (proj2 (Nat.eqb_eq _ _) H1). split; [|apply Hmap; auto].
    rewrite map_length, app_length, skipn_length, firstn_length. lia.
  - intros b [H1 H2]. rewrite (proj2 (Nat.eqb_eq _ _) H1).
    assert (E1 : length (map (fun x : Z => ((x + 1) mod 256)%Z) (skipn 1 b ++ firstn 1 b)) =? n = true).
    { apply Nat.eqb_eq. rewrite map_length, app_length, skipn_length, firstn_length. lia. }
    rewrite E1, skipn_map, firstn_map, <- map_app, map_map.
    destruct b as [|x b]; cbn [length] in H1; [lia|].
    cbn [skipn firstn]. rewrite skipn_app_exact, firstn_app_exact by lia. cbn [app].
    rewrite <- (map_id (x :: b)) at 2. apply map_ext_in. intros a Ha.
    unfold bytes_ok in H2. rewrite Forall_forall in H2. specialize (H2 a Ha). unfold is_byte in H2.
    rewrite Zminus_mod_idemp_l. replace (a + 1 - 1)%Z with a by lia. apply Z.mod_small. lia.
Qed.

(** *** gofb *)
Lemma uint32_int32 z : uint32 (int32 z) = uint32 z.
Proof.
  unfold uint32, int32. rewrite Zminus_mod_idemp_l. f_equal. lia.
Qed.
Lemma int32_uint32 z : int32 (uint32 z) = int32 z.
Proof. unfold uint32, int32. now rewrite Zplus_mod_idemp_l. Qed.
Lemma uint32_add a b : uint32 (a + b) = uint32 (uint32 a + b).
Proof. unfold uint32. now rewrite Zplus_mod_idemp_l. Qed.

Lemma int32_cases u : (0 <= u < 4294967296)%Z ->
  int32 u = (if (u <? 2147483648)%Z then u else u - 4294967296)%Z.
Proof.
  intro H. unfold int32. destruct (Z.ltb_spec u 2147483648).
  - rewrite Z.mod_small by lia. lia.
  - replace (u + 2147483648)%Z with (u - 2147483648 + 1 * 4294967296)%Z by lia.
    rewrite Z_mod_plus_full, Z.mod_small by lia. lia.
Qed.

Definition gofb_n4 (n : Z) : Z :=
  let n4 := int32 (n + C1) in
  if (n4 <? C1)%Z then (if (0 <? n4)%Z then int32 (n4 + 1) else n4) else n4.

Lemma gofb_n4_step n : uint32 (gofb_n4 n) = code_step4 (uint32 n).
Proof.
  unfold gofb_n4. rewrite <- int32_uint32, uint32_add.
  assert (Hu : (0 <= uint32 n < 4294967296)%Z) by (apply Z.mod_pos_bound; lia).
  set (u := uint32 n) in *. clearbody u. clear n.
  unfold code_step4, gost_step4. unfold C1 in *. change (2 ^ 32)%Z with 4294967296%Z.
  destruct (Z.eqb_spec (u + 16843012) 4294967296) as [E|E].
  - rewrite E. reflexivity.
  - destruct (Z.ltb_spec (u + 16843012) 4294967296) as [L|L].
    + replace (uint32 (u + 16843012)) with (u + 16843012)%Z by (symmetry; apply Z.mod_small; lia).
      rewrite int32_cases by lia.
      destruct (Z.ltb_spec (u + 16843012) 2147483648).
      * destruct (Z.ltb_spec (u + 16843012) 16843012); [lia|]. apply Z.mod_small. lia.
      * destruct (Z.ltb_spec (u + 16843012 - 4294967296) 16843012); [|lia].
        destruct (Z.ltb_spec 0 (u + 16843012 - 4294967296)); [lia|].
        unfold uint32. replace (u + 16843012 - 4294967296)%Z with (u + 16843012 + -1 * 4294967296)%Z by lia.
        rewrite Z_mod_plus_full. apply Z.mod_small. lia.
    + replace (uint32 (u + 16843012)) with (u + 16843012 - 4294967296)%Z.
      2:{ unfold uint32. replace (u + 16843012)%Z with (u + 16843012 - 4294967296 + 1 * 4294967296)%Z by lia.
          rewrite Z_mod_plus_full, Z.mod_small; lia. }
      rewrite int32_cases by lia.
      destruct (Z.ltb_spec (u + 16843012 - 4294967296) 2147483648); [|lia].
      destruct (Z.ltb_spec (u + 16843012 - 4294967296) 16843012); [|lia].
      destruct (Z.ltb_spec 0 (u + 16843012 - 4294967296)); [|lia].
      rewrite uint32_int32. apply Z.mod_small. lia.
Qed.

Lemma le_bytes_4 z : length (le_bytes 4 z) = 4.
Proof. apply le_bytes_length. Qed.

Section gofb.
  Variable c : cipher.
  Hypothesis HL : lawful c.
  Hypothesis Hbs : bsz c = 8.

  Definition gofb_state (g0 : gofb_regs) (k : nat) (g : gofb_regs) : Prop :=
    isblock 8 (gcipher g) /\
    uint32 (gN3 g) = uint32 (gN3 g0 + Z.of_nat k * C2) /\
    uint32 (gN4 g) = Nat.iter k code_step4 (uint32 (gN4 g0)).

  Lemma gofb_gen_out g : isblock 8 (gcipher g) ->
    snd (gofb_gen c g) = enc c (le_bytes 4 (uint32 (gN3 g + C2)) ++ le_bytes 4 (uint32 (gofb_n4 (gN4 g)))) /\
    isblock 8 (gcipher (fst (gofb_gen c g))) /\
    uint32 (gN3 (fst (gofb_gen c g))) = uint32 (gN3 g + C2) /\
    gN4 (fst (gofb_gen c g)) = gofb_n4 (gN4 g).
  Proof.
    intros [H1 H2]. unfold gofb_gen. fold (gofb_n4 (gN4 g)). cbn [fst snd gcipher gN3 gN4].
    rewrite uint32_int32.
    set (a := le_bytes 4 (uint32 (gN3 g + C2))). set (b := le_bytes 4 (uint32 (gofb_n4 (gN4 g)))).
    assert (La : length a = 4) by apply le_bytes_length.
    assert (Lb : length b = 4) by apply le_bytes_length.
    assert (E : copy_at 4 b (copy_at 0 a (gcipher g)) = a ++ b).
    { clearbody a b. destruct g as [ci n3 n4]; cbn [gcipher] in *. clear - H1 La Lb.
      do 8 (destruct ci as [|? ci]; [discriminate|]). destruct ci; [|discriminate].
      do 4 (destruct a as [|? a]; [discriminate|]). destruct a; [|discriminate].
      do 4 (destruct b as [|? b]; [discriminate|]). destruct b; [|discriminate]. reflexivity. }
    rewrite E. repeat split; auto.
    - pose proof (law_enc HL (b := a ++ b)) as Q. rewrite Hbs in Q. apply Q. split.
      + rewrite app_length. lia.
      + apply bytes_ok_app. split; apply le_bytes_ok.
    - pose proof (law_enc HL (b := a ++ b)) as Q. rewrite Hbs in Q. apply Q. split.
      + rewrite app_length. lia.
      + apply bytes_ok_app. split; apply le_bytes_ok.
  Qed.

  Lemma gofb_iter g0 k : isblock 8 (gcipher g0) ->
    gofb_state g0 k (Nat.iter k (nxt (gofb_gen c)) g0).
  Proof.
    intro H. induction k as [|k (I1 & I2 & I3)].
    - change (gofb_state g0 0 g0). split; [auto|]. split; [|reflexivity]. now rewrite Z.mul_0_l, Z.add_0_r.
    - change (Nat.iter (S k) (nxt (gofb_gen c)) g0) with
        (fst (gofb_gen c (Nat.iter k (nxt (gofb_gen c)) g0))).
      set (g := Nat.iter k (nxt (gofb_gen c)) g0) in *.
      destruct (gofb_gen_out _ I1) as (_ & J1 & J2 & J3). split; [auto|]. split.
      + rewrite J2, uint32_add, I2, <- uint32_add. f_equal. unfold C2. lia.
      + rewrite J3, gofb_n4_step, I3. reflexivity.
  Qed.

  Lemma gofb_gen_ok g0 : isblock 8 (gcipher g0) ->
    gen_ok (gofb_gen c) (bsz c) (buf_size (bsz c)) g0 (ofb_more c).
  Proof.
    intro H. split; [lia| |].
    - intro i. destruct (gofb_iter _ i H) as [I _].
      destruct (gofb_gen_out _ I) as (-> & _). rewrite Hbs.
      pose proof (fun b => @law_enc _ HL b) as Q. rewrite Hbs in Q. apply Q. split.
      + rewrite app_length, !le_bytes_4. lia.
      + apply bytes_ok_app. split; apply le_bytes_ok.
    - apply ofb_more_fits; lia.
  Qed.

  Definition gofb_load (ci : bytes) : gofb_regs :=
    {| gcipher := ci; gN3 := int32 (le_val (slice 0 4 (enc c ci))); gN4 := int32 (le_val (slice 4 4 (enc c ci))) |}.

  Lemma le_val4_bound l o : bytes_ok l -> uint32 (le_val (slice o 4 l)) = le_val (slice o 4 l).
  Proof.
    intro H. assert (Hs : bytes_ok (slice o 4 l)) by (apply bytes_ok_firstn; now apply bytes_ok_skipn).
    pose proof (le_val_bound Hs) as B. apply Z.mod_small.
    assert (length (slice o 4 l) <= 4) by (unfold slice; rewrite firstn_length; lia).
    assert (256 ^ Z.of_nat (length (slice o 4 l)) <= 256 ^ 4)%Z by (apply Z.pow_le_mono_r; lia).
    change (256 ^ 4)%Z with 4294967296%Z in *. lia.
  Qed.

  Lemma gofb_ks_eq iv i : isblock 8 iv ->
    ks (gofb_gen c) (bsz c) (gofb_load iv) i = gofb_ks (enc c) code_step4 iv i.
  Proof.
    intro Hiv. unfold ks, gofb_ks. rewrite Hbs.
    destruct (@gofb_iter (gofb_load iv) (i / 8) Hiv) as (I1 & I2 & I3).
    destruct (gofb_gen_out _ I1) as (-> & _).
    assert (He : bytes_ok (enc c iv)) by (pose proof (@law_enc _ HL iv) as Q; rewrite Hbs in Q; now apply Q).
    f_equal. f_equal. f_equal.
    - f_equal. rewrite uint32_add, I2. cbn [gofb_load gN3]. rewrite <- uint32_add.
      rewrite <- Z.add_assoc, uint32_add, uint32_int32, <- uint32_add. unfold uint32. change (2^32)%Z with 4294967296%Z.
      unfold C2. f_equal. lia.
    - f_equal. rewrite gofb_n4_step, I3. cbn [gofb_load gN4].
      rewrite uint32_int32, le_val4_bound by auto. reflexivity.
  Qed.

  Lemma gofb_call_W st n : W (buf_size (bsz c)) st ->
    exists st' k, length k = n /\ W (buf_size (bsz c)) st' /\
      forall x, scall_ok x -> length (snd x) = n -> gofb_call c st x = Ok (st', xorl (snd x) k).
  Proof.
    intro HW. assert (Hp : forall r, ofb_more c r = false -> 0 < r) by (apply ofb_more_pos; lia).
    destruct (@xor_loop_W _ (gofb_gen c) (bsz c) (buf_size (bsz c)) (ofb_more c) ltac:(lia)
      (@ofb_more_fits c ltac:(lia)) Hp (bsz c) n n {| kg := gofb_load (gcipher (kg st)); kbuf := kbuf st;
         klen := klen st; kused := kused st |} ltac:(lia) HW) as (st' & k & Hk & HW' & Hs).
    exists st', k. split; [auto|]. split; [auto|]. intros x Hx Hn.
    unfold gofb_call, stream_call. unfold scall_ok in Hx.
    destruct (Nat.ltb_spec (length (fst x)) (length (snd x))); [lia|].
    rewrite Hbs. cbn [Nat.ltb Nat.leb]. rewrite Hn. rewrite <- Hbs.
    unfold gofb_load in Hs. rewrite Hs by auto. reflexivity.
  Qed.

  Lemma gofb_same calls : forall st, W (buf_size (bsz c)) st -> Forall scall_ok calls ->
    exists se' outs, run_calls (gofb_call c) st calls = Ok (se', outs) /\
    map (@length Z) outs = map (fun x => length (snd x)) calls /\
    forall calls2, Forall scall_ok calls2 -> map snd calls2 = outs ->
    run_calls (gofb_call c) st calls2 = Ok (se', map snd calls).
  Proof.
    induction calls as [|x calls IH]; intros st HW Hc.
    - exists st, []. split; [auto|]. split; [auto|].
      intros [|y c2] _ E; [reflexivity|discriminate].
    - apply Forall_cons_iff in Hc as [Hx Hc].
      destruct (@gofb_call_W st (length (snd x)) HW) as (st1 & k & Hk & HW1 & Hr).
      destruct (IH st1 HW1 Hc) as (st2 & outs & E & El & Hback).
      exists st2, (xorl (snd x) k :: outs). cbn [run_calls]. rewrite (Hr x Hx eq_refl). cbn [rbind].
      rewrite E. cbn [rbind map]. split; [auto|].
      assert (Lx : length (xorl (snd x) k) = length (snd x)) by (rewrite xorl_length; lia).
      split; [now rewrite El, Lx|].
      intros [|y c2] H2 E2; [discriminate|]. cbn [map] in E2. injection E2 as Ey E2.
      apply Forall_cons_iff in H2 as [Hy H2].
      cbn [run_calls]. rewrite (Hr y Hy) by (rewrite Ey; auto). cbn [rbind].
      rewrite (Hback c2 H2 E2). cbn [rbind]. rewrite Ey. do 3 f_equal.
      rewrite xorl_cancel_r by lia. reflexivity.
  Qed.

  Lemma gofb_new_W iv : W (buf_size (bsz c)) (gofb_new c iv).
  Proof. split; cbn; [lia|now rewrite repeat_length]. Qed.
End gofb.

(** *** No progress when the buffer can never be filled *)
Lemma xor_loop_stuck G (gen : G -> G * bytes) L more lim st src fuel :
  more 0 = false -> src <> [] -> klen st = 0 -> kused st = 0 ->
  xor_loop gen L more fuel lim st src = None.
Proof.
  intros Hm Hs. revert st. induction fuel as [|fuel IH]; intros st H1 H2.
  - destruct src; [congruence|reflexivity].
  - destruct src as [|b src]; [congruence|]. cbn [xor_loop].
    unfold check_refill. rewrite H1, H2. cbn [Nat.sub Nat.leb]. unfold refill.
    rewrite H1, H2. cbn [Nat.sub Nat.ltb Nat.leb andb]. cbn [fill]. rewrite Hm. cbn [klen kused kg kbuf].
    unfold slice at 1. cbn [Nat.sub firstn xorl length skipn]. unfold slice at 1. cbn [firstn]. cbn [xorl length skipn Nat.add].
    rewrite IH; auto.
Qed.
