(** What calls do to the heap, and the invariant of programs. *)
From Verif Require Import Base BlockModeModel FlModel FlSpec.
Set Implicit Arguments. Unset Strict Implicit.
Local Open Scope nat_scope.

Lemma set_nth_length {A} (v : A) : forall l i, length (set_nth i v l) = length l.
Proof. induction l; intros [|i]; cbn; auto. Qed.
Lemma nth_set_nth {A} (v d : A) : forall l i j, nth j (set_nth i v l) d = if (Nat.eqb j i && (i <? length l))%bool then v else nth j l d.
Proof.
  induction l as [|x l IH]; intros [|i] [|j]; cbn [set_nth nth length Nat.eqb]; try (now rewrite Bool.andb_false_r); try reflexivity.
  rewrite IH. reflexivity.
Qed.
Lemma firstn_set_nth {A} (v : A) : forall l n i, n <= i -> firstn n (set_nth i v l) = firstn n l.
Proof.
  induction l as [|x l IH]; intros [|n] [|i] H; cbn [set_nth firstn]; auto; [lia|]. f_equal. apply IH. lia.
Qed.
Lemma firstn_S_set_nth {A} (v : A) : forall l n, n < length l -> firstn (S n) (set_nth n v l) = firstn n l ++ [v].
Proof.
  induction l as [|x l IH]; intros [|n] H; cbn [length] in H; try lia; [reflexivity|]. cbn [set_nth]. change (firstn (S (S n)) (x :: set_nth n v l)) with (x :: firstn (S n) (set_nth n v l)).
  rewrite IH by lia. reflexivity.
Qed.

(** ** Slices *)
Definition own := list (nat * bool).
Definition slice_ok (ow : own) (w : world) (s : slc) (r : nat) (k : bool) : Prop :=
  s_at s < length (wArr w) /\ nth (s_at s) ow (0, false) = (r, k) /\ s_len s <= length (nth (s_at s) (wArr w) []).
(** the heap only grows *)
Record ext (ow : own) (w : world) (ow' : own) (w' : world) : Prop := {
  e_own : exists x, ow' = ow ++ x;
  e_len : length ow' = length (wArr w');
  e_cap : forall a, a < length (wArr w) -> length (nth a (wArr w') []) = length (nth a (wArr w) []);
  e_arr : length (wArr w) <= length (wArr w');
  e_cfg : length (wCfg w) <= length (wCfg w')
}.
Lemma ext_refl ow w : length ow = length (wArr w) -> ext ow w ow w.
Proof. intros H. split; auto. exists []. now rewrite app_nil_r. Qed.
Lemma ext_trans o1 w1 o2 w2 o3 w3 : ext o1 w1 o2 w2 -> ext o2 w2 o3 w3 -> ext o1 w1 o3 w3.
Proof.
  intros [[x ->] a b c d] [[y ->] a' b' c' d']. split; auto; try lia.
  - exists (x ++ y). now rewrite app_assoc.
  - intros i Hi. rewrite b' by lia. auto.
Qed.
Lemma ext_slice ow w ow' w' s r k : length ow = length (wArr w) -> ext ow w ow' w' -> slice_ok ow w s r k -> slice_ok ow' w' s r k.
Proof.
  intros L [[x ->] a b c d] (A & B & C). split; [lia|]. split; [rewrite app_nth1 by lia; auto|]. rewrite b; auto.
Qed.
(** writing past the end of [s] leaves alone what other slices show *)
Definition spares (s : slc) (w w' : world) : Prop :=
  forall s', s_at s' < length (wArr w) -> s_at s' <> s_at s \/ s_len s' <= s_len s -> cells w' s' = cells w s'.
Lemma spares_trans ow ow' s w1 w2 w3 : ext ow w1 ow' w2 -> spares s w1 w2 -> spares s w2 w3 -> spares s w1 w3.
Proof. intros E A B s' H O. rewrite B; auto. pose proof (e_arr E). lia. Qed.

Lemma sappend_ok ow w s r k x w' s' : length ow = length (wArr w) -> slice_ok ow w s r k -> sappend w s x = (w', s') ->
  exists ow', ext ow w ow' w' /\ slice_ok ow' w' s' r k /\ cells w' s' = cells w s ++ [x] /\ spares s w w' /\ wCfg w' = wCfg w /\ wLog w' = wLog w.
Proof.
  intros L (A & B & C). unfold sappend. cbv zeta. set (arr := nth (s_at s) (wArr w) []) in *.
  destruct (Nat.ltb_spec (s_len s) (length arr)) as [H|H]; intros E; injection E as <- <-.
  - exists ow. repeat split; cbn [wArr wCfg wLog s_at s_len]; auto.
    + exists []. now rewrite app_nil_r.
    + now rewrite set_nth_length.
    + intros a Ha. rewrite nth_set_nth. destruct (Nat.eqb_spec a (s_at s)) as [->|]; cbn [andb]; [|reflexivity].
      destruct (Nat.ltb_spec (s_at s) (length (wArr w))); [|lia]. now rewrite set_nth_length.
    + rewrite set_nth_length. lia.
    + now rewrite set_nth_length.
    + rewrite nth_set_nth, Nat.eqb_refl. destruct (Nat.ltb_spec (s_at s) (length (wArr w))); [|lia]. cbn [andb]. rewrite set_nth_length. lia.
    + unfold cells. cbn [wArr s_at s_len]. rewrite nth_set_nth, Nat.eqb_refl. destruct (Nat.ltb_spec (s_at s) (length (wArr w))); [|lia]. cbn [andb].
      fold arr. now apply firstn_S_set_nth.
    + intros s' Hs' O. unfold cells. cbn [wArr]. rewrite nth_set_nth. destruct (Nat.eqb_spec (s_at s') (s_at s)) as [E|]; cbn [andb]; [|reflexivity].
      destruct (Nat.ltb_spec (s_at s) (length (wArr w))); [|lia]. destruct O as [O|O]; [congruence|]. rewrite E. fold arr. now apply firstn_set_nth.
  - exists (ow ++ [(r, k)]). assert (Ea : s_len s = length arr) by lia.
    repeat split; cbn [wArr wCfg wLog s_at s_len]; auto.
    + exists [(r, k)]. reflexivity.
    + rewrite !app_length. cbn [length]. lia.
    + intros a Ha. now rewrite app_nth1.
    + rewrite app_length. lia.
    + rewrite app_length. cbn [length]. lia.
    + rewrite app_nth2, <- L, Nat.sub_diag by lia. reflexivity.
    + rewrite app_nth2, Nat.sub_diag by lia. cbn [nth]. rewrite app_length, firstn_length. cbn [length]. rewrite repeat_length. lia.
    + unfold cells. cbn [wArr s_at s_len]. rewrite app_nth2, Nat.sub_diag by lia. cbn [nth]. fold arr. rewrite Ea, firstn_all.
      change (x :: repeat 0%Z (length arr - 1)) with ([x] ++ repeat 0%Z (length arr - 1)). rewrite app_assoc.
      apply firstn_app_exact. rewrite app_length. cbn [length]. lia.
    + intros s' Hs' O. unfold cells. cbn [wArr]. now rewrite app_nth1.
Qed.

(** ** Objects *)
Definition obj_ok (ow : own) (w : world) (t : chain) (r : nat) : Prop := slice_ok ow w (fErrs t) r true /\ slice_ok ow w (fHand t) r false.
Lemma obj_ext ow w ow' w' t r : length ow = length (wArr w) -> ext ow w ow' w' -> obj_ok ow w t r -> obj_ok ow' w' t r.
Proof. intros L E [A B]. split; eapply ext_slice; eauto. Qed.
(** errors and handlers are never in the same array *)
Lemma apart ow w s s' r r' : slice_ok ow w s r true -> slice_ok ow w s' r' false -> s_at s' <> s_at s.
Proof. intros (_ & A & _) (_ & B & _) E. rewrite E in B. congruence. Qed.
Lemma append_error_ok ow w t r e w' t' : length ow = length (wArr w) -> obj_ok ow w t r -> fl_append_error w t e = (w', t') ->
  exists ow', ext ow w ow' w' /\ obj_ok ow' w' t' r /\ errors w' t' = errors w t ++ [e] /\ handlers w' t' = handlers w t /\
    keeps_settings t t' /\ fData t' = fData t /\ fParsed t' = fParsed t /\ spares (fErrs t) w w' /\ wCfg w' = wCfg w /\ wLog w' = wLog w /\ fHand t' = fHand t.
Proof.
  intros L [He Hh]. unfold fl_append_error. destruct (sappend w (fErrs t) e) as [w1 s1] eqn:Es. intros E. injection E as <- <-.
  destruct (sappend_ok L He Es) as (ow' & X & So & Ce & Sp & Cf & Lg). exists ow'.
  assert (Hc : cells w1 (fHand t) = cells w (fHand t)). { apply Sp; [apply Hh|left; eapply apart; eauto]. }
  split; [auto|]. split; [split; [exact So|cbn [fHand]; eapply ext_slice; eauto]|]. unfold errors, handlers. cbn [fErrs fHand]. repeat split; auto.
Qed.
Lemma on_error_ok ow w t r h w' t' : length ow = length (wArr w) -> obj_ok ow w t r -> fl_on_error w t h = (w', t') ->
  exists ow', ext ow w ow' w' /\ obj_ok ow' w' t' r /\ handlers w' t' = handlers w t ++ [h] /\ errors w' t' = errors w t /\
    keeps_settings t t' /\ spares (fHand t) w w' /\ wCfg w' = wCfg w /\ wLog w' = wLog w /\ fErrs t' = fErrs t.
Proof.
  intros L [He Hh]. unfold fl_on_error. destruct (sappend w (fHand t) h) as [w1 s1] eqn:Es. intros E. injection E as <- <-.
  destruct (sappend_ok L Hh Es) as (ow' & X & So & Ce & Sp & Cf & Lg). exists ow'.
  assert (Hc : cells w1 (fErrs t) = cells w (fErrs t)).
  { apply Sp; [apply He|left]. intros Q. eapply apart; [exact He|exact Hh|congruence]. }
  split; [auto|]. split; [split; [cbn [fErrs]; eapply ext_slice; eauto|exact So]|]. unfold errors, handlers. cbn [fErrs fHand]. repeat split; auto.
Qed.

Section calls.
  Variable hpanic : Z -> bool.
  Lemma handlers_quiet es : forall hs log, Forall (fun h => hpanic h = false) hs -> run_handlers hpanic hs es log = (log ++ told hs es, true).
  Proof.
    induction hs as [|h hs IH]; intros log F; cbn [run_handlers told map]; [now rewrite app_nil_r|].
    apply Forall_cons_iff in F as [Fh F]. rewrite Fh, IH by auto. now rewrite <- app_assoc.
  Qed.
  Lemma trigger_quiet w t : quiet hpanic w t -> fl_trigger hpanic w t = (World (wCfg w) (wArr w) (wLog w ++ told (handlers w t) (errors w t)), true).
  Proof. intros Q. unfold fl_trigger. now rewrite handlers_quiet. Qed.
  Lemma cells_log c a l l' s : cells (World c a l) s = cells (World c a l') s.
  Proof. reflexivity. Qed.
  Lemma run_succeeds ow r w t m d : length ow = length (wArr w) -> obj_ok ow w t r -> quiet hpanic w t ->
    call_succeeded w t (fl_run hpanic (Ok (m, d)) w t) m /\ fData (snd (fst (fl_run hpanic (Ok (m, d)) w t))) = d.
  Proof.
    intros L O Q. unfold fl_run. rewrite trigger_quiet by exact Q. cbn [fst snd]. split; [|reflexivity].
    unfold call_succeeded, keeps_settings, errors. cbn [fst snd fParsed set_parsed set_data fKey fIv fMult fMode fPad fCfg fErrs wLog].
    repeat split; reflexivity.
  Qed.
  Lemma run_fails ow r w t f : length ow = length (wArr w) -> obj_ok ow w t r -> quiet hpanic w t -> (forall x, f <> Ok x) ->
    call_failed w t (fl_run hpanic f w t).
  Proof.
    intros L O Q N. assert (K : forall e, exists w0 t0, fl_append_error w t e = (w0, t0) /\ forall w1 ok, fl_trigger hpanic w0 t0 = (w1, ok) ->
      ok = true /\ call_failed w t (w1, t0, true)).
    { intros e. destruct (fl_append_error w t e) as [w0 t0] eqn:E. exists w0, t0. split; [reflexivity|].
      destruct (append_error_ok L O E) as (ow' & X & O' & Ee & Eh & Ks & Ed & Ep & Sp & Cf & Lg & _). intros w1 ok.
      rewrite trigger_quiet by (unfold quiet; rewrite Eh; exact Q). intros T. injection T as <- <-. split; [reflexivity|].
      exists e. cbn [fst snd]. split; [reflexivity|]. split; [exact Ep|]. split; [exact Ed|]. split; [exact Ks|]. split; [exact Ee|].
      cbn [wLog]. now rewrite Lg, Eh, Ee. }
    destruct f as [x| |]; [now destruct (N x)| |]; unfold fl_run.
    - destruct (K 1%Z) as (w0 & t0 & E & T). rewrite E. destruct (fl_trigger hpanic w0 t0) as [w1 ok] eqn:Et. destruct (T _ _ eq_refl) as [-> F]. exact F.
    - destruct (K 2%Z) as (w0 & t0 & E & T). rewrite E. destruct (fl_trigger hpanic w0 t0) as [w1 ok] eqn:Et. destruct (T _ _ eq_refl) as [-> F]. exact F.
  Qed.
  Lemma trigger_heap w t w' ok : fl_trigger hpanic w t = (w', ok) -> wCfg w' = wCfg w /\ wArr w' = wArr w.
  Proof. unfold fl_trigger. destruct (run_handlers _ _ _ _) as [l b]. intros E. injection E as <- <-. auto. Qed.
  Lemma ext_arr ow w ow' w' w'' : ext ow w ow' w' -> wArr w'' = wArr w' -> wCfg w'' = wCfg w' -> ext ow w ow' w''.
  Proof. intros [a b c d e] E F. split; auto; rewrite ?E, ?F; auto. Qed.
  Lemma spares_arr s w w' w'' : spares s w w' -> wArr w'' = wArr w' -> spares s w w''.
  Proof. intros S E s' H O. rewrite <- S by auto. unfold cells. now rewrite E. Qed.
  Lemma arr_ok ow w w' t r : wArr w' = wArr w -> obj_ok ow w t r -> obj_ok ow w' t r.
  Proof. intros E. unfold obj_ok, slice_ok. now rewrite E. Qed.
  (** whatever the handlers do *)
  Lemma run_heap ow r f w t w' t' ok : length ow = length (wArr w) -> obj_ok ow w t r -> fl_run hpanic f w t = (w', t', ok) ->
    exists ow', ext ow w ow' w' /\ obj_ok ow' w' t' r /\ spares (fErrs t) w w' /\ wCfg w' = wCfg w /\ fCfg t' = fCfg t /\ fHand t' = fHand t.
  Proof.
    intros L O. assert (K : forall ow1 w0 t0 e, fErrs t0 = fErrs t -> fHand t0 = fHand t -> fCfg t0 = fCfg t -> ext ow w ow1 w0 -> spares (fErrs t) w w0 -> wCfg w0 = wCfg w ->
      exists ow2 w1 t1, fl_append_error w0 t0 e = (w1, t1) /\ forall w2 b, fl_trigger hpanic w1 t1 = (w2, b) ->
       ext ow w ow2 w2 /\ obj_ok ow2 w2 t1 r /\ spares (fErrs t) w w2 /\ wCfg w2 = wCfg w /\ fCfg t1 = fCfg t /\ fHand t1 = fHand t).
    { intros ow1 w0 t0 e He Hh Hc X Sp Cf. destruct (fl_append_error w0 t0 e) as [w1 t1] eqn:E.
      assert (O0 : obj_ok ow1 w0 t0 r). { pose proof (obj_ext L X O) as O1. unfold obj_ok in *. rewrite He, Hh. exact O1. }
      destruct (append_error_ok (e_len X) O0 E) as (ow' & X' & O' & Ee & Eh & Ks & Ed & Ep & Sp' & Cf' & Lg & Fh). exists ow', w1, t1. split; [reflexivity|].
      intros w2 b T. destruct (trigger_heap T) as [T1 T2].
      split; [eapply ext_arr; eauto using ext_trans|]. split; [now apply (arr_ok T2)|].
      split; [|split; [congruence|split; [|congruence]]].
      - eapply spares_arr; [|exact T2]. eapply spares_trans; [exact X|exact Sp|]. now rewrite <- He.
      - destruct Ks as (_ & _ & _ & _ & _ & ->). exact Hc. }
    assert (Sr : spares (fErrs t) w w) by (intros s' _ _; reflexivity).
    unfold fl_run. destruct f as [[m d]| |].
    - destruct (fl_trigger hpanic w (set_parsed (set_data t d) m)) as [w1 b] eqn:T. destruct (trigger_heap T) as [T1 T2]. destruct b.
      + intros E. injection E as <- <- <-. exists ow. split; [eapply ext_arr; [apply ext_refl|..]; auto|]. split; [now apply (arr_ok T2)|].
        split; [eapply spares_arr; eauto|]. auto.
      + destruct (K ow w1 (set_data t d) 2%Z) as (ow2 & w2 & t2 & -> & Q); auto.
        { eapply ext_arr; [apply ext_refl|..]; auto. } { eapply spares_arr; eauto. }
        destruct (fl_trigger hpanic w2 t2) as [w3 b3] eqn:T3. intros E. injection E as <- <- <-. exists ow2. now apply (Q _ _ eq_refl).
    - destruct (K ow w t 1%Z) as (ow2 & w2 & t2 & -> & Q); auto using ext_refl. destruct (fl_trigger hpanic w2 t2) as [w3 b3] eqn:T3.
      destruct (Q _ _ eq_refl) as (X3 & O3 & Sp3 & Cf3 & Fc3 & Fh3). destruct b3.
      + intros E. injection E as <- <- <-. exists ow2. exact (conj X3 (conj O3 (conj Sp3 (conj Cf3 (conj Fc3 Fh3))))).
      + destruct (K ow2 w3 t 2%Z) as (ow4 & w4 & t4 & -> & Q4); auto.
        destruct (fl_trigger hpanic w4 t4) as [w5 b5] eqn:T5. intros E. injection E as <- <- <-. exists ow4. now apply (Q4 _ _ eq_refl).
    - destruct (K ow w t 2%Z) as (ow2 & w2 & t2 & -> & Q); auto using ext_refl. destruct (fl_trigger hpanic w2 t2) as [w3 b3] eqn:T3.
      intros E. injection E as <- <- <-. exists ow2. now apply (Q _ _ eq_refl).
  Qed.
End calls.

(** ** Programs *)
Lemma legal_app : forall p q n, legal_from n (p ++ q) <-> legal_from n p /\ legal_from (n + length p) q.
Proof.
  induction p as [|o p IH]; intros q n; cbn [legal_from app length]; [rewrite Nat.add_0_r; tauto|]. rewrite IH. replace (S n + length p) with (n + S (length p)) by lia. tauto.
Qed.
Lemma origins_len p : length (origins p) = S (length p).
Proof.
  unfold origins. assert (G : forall r, length (fold_left origins_step p r) = length r + length p).
  { induction p as [|o p IH]; intros r; cbn [fold_left length]; [lia|]. rewrite IH. unfold origins_step. rewrite app_length. cbn [length]. lia. }
  rewrite G. reflexivity.
Qed.

Section prog.
  Variable gcm : cipher -> Z -> Z -> res aead.
  Variable rand : nat -> bytes.
  Variable reg : Z -> option (bytes -> res cipher).
  Variable hpanic : Z -> bool.
  Notation step := (step gcm rand reg hpanic).
  Record inv (ow : own) (s : world * list chain) (r : list nat) : Prop := {
    v_own : length ow = length (wArr (fst s));
    v_len : length r = length (snd s);
    v_pos : 0 < length r;
    v_obj : forall i, i < length r -> obj_ok ow (fst s) (obj s i) (nth i r 0);
    v_org : forall i, i < length r -> nth i r 0 <= i /\ nth (nth i r 0) r 0 = nth i r 0;
    v_cfg : forall i, i < length r -> fCfg (obj s i) < length (wCfg (fst s)) /\ fCfg (obj s i) = fCfg (obj s (nth i r 0));
    v_sep : forall i j, i < length r -> j < length r -> fCfg (obj s i) = fCfg (obj s j) -> nth i r 0 = nth j r 0
  }.
  Lemma obj_old w l w' t i : i < length l -> obj (w', l ++ [t]) i = obj (w, l) i.
  Proof. intros H. unfold obj. cbn [snd]. now rewrite app_nth1. Qed.
  Lemma obj_last w l t : obj (w, l ++ [t]) (length l) = t.
  Proof. unfold obj. cbn [snd]. now rewrite app_nth2, Nat.sub_diag by lia. Qed.
  (** an object made from object [i] *)
  Lemma inv_from ow w l r i ow' w' t : inv ow (w, l) r -> i < length r -> ext ow w ow' w' -> obj_ok ow' w' t (nth i r 0) -> fCfg t = fCfg (obj (w, l) i) ->
    inv ow' (w', l ++ [t]) (r ++ [nth i r 0]).
  Proof.
    intros [v1 v2 v3 v4 v5 v6 v7] Hi X O C. cbn [fst snd] in *.
    assert (Ol : forall j, j < length r -> obj (w', l ++ [t]) j = obj (w, l) j) by (intros; apply obj_old; lia).
    assert (On : obj (w', l ++ [t]) (length r) = t) by (rewrite v2; apply obj_last).
    assert (Rl : forall j, j < length r -> nth j (r ++ [nth i r 0]) 0 = nth j r 0) by (intros; now rewrite app_nth1).
    assert (Rn : nth (length r) (r ++ [nth i r 0]) 0 = nth i r 0) by (rewrite app_nth2, Nat.sub_diag by lia; reflexivity).
    destruct (v5 i Hi) as [Oi Oii].
    assert (Sp : forall j, j < length (r ++ [nth i r 0]) -> j < length r \/ j = length r) by (intros j; rewrite app_length; cbn [length]; lia).
    split; cbn [fst snd].
    - apply X.
    - rewrite !app_length. cbn [length]. lia.
    - rewrite app_length. lia.
    - intros j Hj. destruct (Sp j Hj) as [H| ->]; [rewrite Ol, Rl by auto|rewrite On, Rn; exact O]. eapply obj_ext; [exact v1|exact X|auto].
    - intros j Hj. destruct (Sp j Hj) as [H| ->].
      + destruct (v5 j H) as [A B]. rewrite Rl by auto. split; [exact A|]. rewrite Rl by lia. exact B.
      + rewrite Rn. split; [lia|]. rewrite Rl by lia. exact Oii.
    - intros j Hj. pose proof (e_cfg X) as Lc. destruct (Sp j Hj) as [H| ->].
      + destruct (v5 j H) as [A B], (v6 j H) as [D E]. rewrite Rl, Ol, Ol by lia. split; [lia|exact E].
      + destruct (v6 i Hi) as [D E]. rewrite Rn, On, Ol by lia. rewrite C. split; [lia|exact E].
    - intros j k Hj Hk. destruct (Sp j Hj) as [H| ->], (Sp k Hk) as [H'| ->]; rewrite ?On, ?Rn; try (rewrite Ol, Rl by lia); try (rewrite (Ol k), (Rl k) by lia); rewrite ?C; auto.
  Qed.
  Definition target (o : op) : bool := match o with New => false | _ => true end.
  Lemma step_inv ow s r o : inv ow s r -> legal (length r) o -> exists ow', inv ow' (step s o) (origins_step r o) /\ ext ow (fst s) ow' (fst (step s o)).
  Proof.
    destruct s as [w l]. intros V [Lg Sf]. unfold step, origins_step. cbn [fst snd]. pose proof (v_own V) as L. cbn [fst] in L.
    destruct o as [|i f|i k v|i e|i h|i|i]; cbn [source] in *.
    - unfold fl_new. cbv zeta. exists (ow ++ [(length r, false); (length r, true)]).
      assert (X : ext ow w (ow ++ [(length r, false); (length r, true)]) (World (wCfg w ++ [[]]) (wArr w ++ [[]; []]) (wLog w))).
      { split; cbn [wArr wCfg]; rewrite ?app_length; cbn [length]; try lia; [eauto|]. intros a Ha. now rewrite app_nth1. }
      split; [|exact X]. destruct V as [v1 v2 v3 v4 v5 v6 v7]. cbn [fst snd] in *. set (t := Chain _ _ _ _ _ _ _ _ _ _). set (w' := World _ _ _) in *.
      assert (Ol : forall j, j < length r -> obj (w', l ++ [t]) j = obj (w, l) j) by (intros; apply obj_old; lia).
      assert (On : obj (w', l ++ [t]) (length r) = t) by (rewrite v2; apply obj_last).
      assert (Rl : forall j, j < length r -> nth j (r ++ [length r]) 0 = nth j r 0) by (intros; now rewrite app_nth1).
      assert (Rn : nth (length r) (r ++ [length r]) 0 = length r) by (rewrite app_nth2, Nat.sub_diag by lia; reflexivity).
      assert (Sp : forall j, j < length (r ++ [length r]) -> j < length r \/ j = length r) by (intros j; rewrite app_length; cbn [length]; lia).
      split; cbn [fst snd].
      + apply X.
      + rewrite !app_length. cbn [length]. lia.
      + rewrite app_length. lia.
      + intros j Hj. destruct (Sp j Hj) as [H| ->]; [rewrite Ol, Rl by auto; eapply obj_ext; eauto|]. rewrite On, Rn. unfold t, w', obj_ok, slice_ok. cbn [fErrs fHand s_at s_len wArr].
        rewrite app_length. cbn [length]. split; (split; [lia|split; [|lia]]).
        * rewrite app_nth2, <- L by lia. replace (S (length ow) - length ow) with 1 by lia. reflexivity.
        * rewrite app_nth2, <- L, Nat.sub_diag by lia. reflexivity.
      + intros j Hj. destruct (Sp j Hj) as [H| ->].
        * destruct (v5 j H) as [A B]. rewrite Rl by auto. split; [exact A|]. rewrite Rl by lia. exact B.
        * rewrite Rn. split; [lia|exact Rn].
      + intros j Hj. unfold w'. cbn [wCfg]. rewrite app_length. cbn [length]. fold w'. destruct (Sp j Hj) as [H| ->].
        * destruct (v5 j H) as [A B], (v6 j H) as [D E]. rewrite Rl, Ol, Ol by lia. split; [lia|exact E].
        * rewrite Rn, On. unfold t. cbn [fCfg]. split; [lia|reflexivity].
      + intros j k Hj Hk. destruct (Sp j Hj) as [H| ->], (Sp k Hk) as [H'| ->]; rewrite ?On, ?Rn; try (rewrite Ol, Rl by lia); try (rewrite (Ol k), (Rl k) by lia); auto; unfold t; cbn [fCfg]; intros E.
        * destruct (v6 j H). lia.
        * destruct (v6 k H'). lia.
    - exists ow. pose proof (ext_refl L) as X. split; [|exact X]. eapply inv_from; eauto.
      + destruct (Sf (obj (w, l) i)) as (A & B & C). pose proof (v_obj V Lg) as O. unfold obj_ok in *. now rewrite B, C.
      + apply Sf.
    - exists ow. assert (X : ext ow w ow (fl_put w (obj (w, l) i) k v)).
      { split; cbn [fl_put wArr wCfg]; auto; [exists []; now rewrite app_nil_r|]. now rewrite set_nth_length. }
      split; [|exact X]. eapply inv_from; eauto. pose proof (v_obj V Lg) as O. now apply (@arr_ok ow w).
    - destruct (fl_append_error w (obj (w, l) i) e) as [w' t'] eqn:E. destruct (append_error_ok L (v_obj V Lg) E) as (ow' & X & O & _ & _ & Ks & _).
      exists ow'. split; [|exact X]. eapply inv_from; eauto. apply Ks.
    - destruct (fl_on_error w (obj (w, l) i) h) as [w' t'] eqn:E. destruct (on_error_ok L (v_obj V Lg) E) as (ow' & X & O & _ & _ & Ks & _).
      exists ow'. split; [|exact X]. eapply inv_from; eauto. apply Ks.
    - unfold fl_encrypt. destruct (fl_run _ _ _ _) as [[w' t'] ok] eqn:E. destruct (run_heap L (v_obj V Lg) E) as (ow' & X & O & _ & _ & Fc & _).
      exists ow'. split; [|exact X]. eapply inv_from; eauto.
    - unfold fl_decrypt. destruct (fl_run _ _ _ _) as [[w' t'] ok] eqn:E. destruct (run_heap L (v_obj V Lg) E) as (ow' & X & O & _ & _ & Fc & _).
      exists ow'. split; [|exact X]. eapply inv_from; eauto.
  Qed.
  Lemma run_inv : forall p ow s r, inv ow s r -> legal_from (length r) p -> exists ow', inv ow' (fold_left step p s) (fold_left origins_step p r).
  Proof.
    induction p as [|o p IH]; intros ow s r V Lg; cbn [fold_left]; [eauto|]. destruct Lg as [Lo Lp]. destruct (step_inv V Lo) as (ow' & V' & _).
    eapply IH; [exact V'|]. unfold origins_step. rewrite app_length. cbn [length]. replace (length r + 1) with (S (length r)) by lia. exact Lp.
  Qed.
  Lemma start_inv : inv [(0, false); (0, true)] start [0].
  Proof.
    assert (N : forall i, i < 1 -> i = 0) by lia. unfold start, fl_new. cbn. split; cbn [length fst snd]; auto.
    - intros i Hi. rewrite (N i Hi). cbn. unfold obj_ok, slice_ok. cbn. auto 8.
    - intros i Hi. rewrite (N i Hi). auto.
    - intros i Hi. rewrite (N i Hi). cbn. auto.
    - intros i j Hi Hj _. now rewrite (N i Hi), (N j Hj).
  Qed.
  Lemma exec_inv p : legal_prog p -> exists ow, inv ow (exec gcm rand reg hpanic p) (origins p).
  Proof. intros H. eapply run_inv; [exact start_inv|exact H]. Qed.
  (** what one step does to the errors and handlers an older object shows *)
  Definition len_errs (s : world * list chain) (i : nat) := length (errors (fst s) (obj s i)).
  Lemma cells_len ow w s r k : slice_ok ow w s r k -> length (cells w s) = s_len s.
  Proof. intros (_ & _ & H). unfold cells. rewrite firstn_length. lia. Qed.
  Lemma step_spares ow s r o j : inv ow s r -> legal (length r) o -> j < length r ->
    obj (step s o) j = obj s j /\
    (match o with
     | AddError i _ | Encrypt i | Decrypt i => nth i r 0 <> nth j r 0 \/ length (errors (fst s) (obj s j)) <= length (errors (fst s) (obj s i))
     | _ => True end -> errors (fst (step s o)) (obj s j) = errors (fst s) (obj s j)) /\
    (match o with
     | OnError i _ => nth i r 0 <> nth j r 0 \/ length (handlers (fst s) (obj s j)) <= length (handlers (fst s) (obj s i))
     | _ => True end -> handlers (fst (step s o)) (obj s j) = handlers (fst s) (obj s j)).
  Proof.
    intros V [Lg Sf] Hj. destruct s as [w l]. pose proof (v_len V) as Ln. cbn [snd] in Ln.
    split. { unfold step. destruct o; repeat match goal with |- context [let (_, _) := ?x in _] => destruct x end; apply obj_old; lia. }
    pose proof (v_own V) as L. cbn [fst] in L. pose proof (v_obj V Hj) as [Oe Oh]. cbn [fst] in Oe, Oh.
    assert (SE : forall i w', i < length r -> spares (fErrs (obj (w, l) i)) w w' ->
      (nth i r 0 <> nth j r 0 \/ length (errors w (obj (w, l) j)) <= length (errors w (obj (w, l) i)) -> errors w' (obj (w, l) j) = errors w (obj (w, l) j)) /\
      handlers w' (obj (w, l) j) = handlers w (obj (w, l) j)).
    { intros i w' Hi Sp. pose proof (v_obj V Hi) as [Ie Ih]. cbn [fst] in Ie, Ih. split.
      - intros Q. apply Sp; [apply Oe|]. destruct Q as [Q|Q].
        + left. intros E. destruct Oe as (_ & A & _), Ie as (_ & B & _). rewrite E in A. congruence.
        + right. unfold errors in Q. rewrite (cells_len Oe), (cells_len Ie) in Q. exact Q.
      - apply Sp; [apply Oh|]. left. eapply apart; eauto. }
    assert (SH : forall i w', i < length r -> spares (fHand (obj (w, l) i)) w w' ->
      (nth i r 0 <> nth j r 0 \/ length (handlers w (obj (w, l) j)) <= length (handlers w (obj (w, l) i)) -> handlers w' (obj (w, l) j) = handlers w (obj (w, l) j)) /\
      errors w' (obj (w, l) j) = errors w (obj (w, l) j)).
    { intros i w' Hi Sp. pose proof (v_obj V Hi) as [Ie Ih]. cbn [fst] in Ie, Ih. split.
      - intros Q. apply Sp; [apply Oh|]. destruct Q as [Q|Q].
        + left. intros E. destruct Oh as (_ & A & _), Ih as (_ & B & _). rewrite E in A. congruence.
        + right. unfold handlers in Q. rewrite (cells_len Oh), (cells_len Ih) in Q. exact Q.
      - apply Sp; [apply Oe|]. left. intros E. eapply apart; [exact Oe|exact Ih|congruence]. }
    unfold step. cbn [fst snd]. destruct o as [|i f|i k v|i e|i h|i|i]; cbn [source] in *.
    - unfold fl_new, errors, handlers, cells. cbn [fst wArr]. rewrite !app_nth1 by (apply Oe || apply Oh). auto.
    - auto.
    - auto.
    - destruct (fl_append_error w (obj (w, l) i) e) as [w' t'] eqn:E. destruct (append_error_ok L (v_obj V Lg) E) as (ow' & X & O & _ & _ & _ & _ & _ & Sp & _).
      cbn [fst]. destruct (SE i w' Lg Sp). auto.
    - destruct (fl_on_error w (obj (w, l) i) h) as [w' t'] eqn:E. destruct (on_error_ok L (v_obj V Lg) E) as (ow' & X & O & _ & _ & _ & Sp & _).
      cbn [fst]. destruct (SH i w' Lg Sp). auto.
    - unfold fl_encrypt. destruct (fl_run _ _ _ _) as [[w' t'] ok] eqn:E. destruct (run_heap L (v_obj V Lg) E) as (ow' & X & O & Sp & _).
      cbn [fst]. destruct (SE i w' Lg Sp). auto.
    - unfold fl_decrypt. destruct (fl_run _ _ _ _) as [[w' t'] ok] eqn:E. destruct (run_heap L (v_obj V Lg) E) as (ow' & X & O & Sp & _).
      cbn [fst]. destruct (SE i w' Lg Sp). auto.
  Qed.
  Lemma cname_eqb_eq a b : cname_eqb a b = true <-> a = b.
  Proof.
    destruct a, b; cbn; split; intros H; try discriminate; try reflexivity; try (now apply Z.eqb_eq in H as ->). injection H as ->. apply Z.eqb_refl.
  Qed.
  (** ... and to the options *)
  Lemma step_options ow s r o j k : inv ow s r -> legal (length r) o -> j < length r ->
    options (fst (step s o)) (obj s j) k =
    match o with
    | Put i k' v => if (Nat.eqb (nth i r 0) (nth j r 0) && cname_eqb k k')%bool then Some v else options (fst s) (obj s j) k
    | _ => options (fst s) (obj s j) k
    end.
  Proof.
    intros V [Lg Sf] Hj. destruct s as [w l]. pose proof (v_own V) as L. cbn [fst] in L. destruct (v_cfg V Hj) as [Cj Cjo]. cbn [fst] in Cj.
    unfold step. cbn [fst snd]. destruct o as [|i f|i k' v|i e|i h|i|i]; cbn [source] in *.
    - unfold fl_new, options. cbn [fst wCfg]. now rewrite app_nth1.
    - reflexivity.
    - unfold fl_put, options. cbn [fst wCfg]. rewrite nth_set_nth. destruct (v_cfg V Lg) as [Ci Cio]. cbn [fst] in Ci.
      destruct (Nat.ltb_spec (fCfg (obj (w, l) i)) (length (wCfg w))); [|lia]. rewrite Bool.andb_true_r.
      destruct (Nat.eqb_spec (fCfg (obj (w, l) j)) (fCfg (obj (w, l) i))) as [E|E].
      + rewrite (v_sep V Hj Lg E), Nat.eqb_refl. cbn [andb]. unfold cfg_set. cbn [cfg_get]. rewrite E. now destruct (cname_eqb k k').
      + destruct (Nat.eqb_spec (nth i r 0) (nth j r 0)) as [E2|]; cbn [andb]; [|reflexivity]. exfalso. apply E. rewrite Cjo, Cio. now rewrite E2.
    - destruct (fl_append_error w (obj (w, l) i) e) as [w' t'] eqn:E. destruct (append_error_ok L (v_obj V Lg) E) as (ow' & X & O & _ & _ & _ & _ & _ & _ & Cf & _).
      cbn [fst]. unfold options. now rewrite Cf.
    - destruct (fl_on_error w (obj (w, l) i) h) as [w' t'] eqn:E. destruct (on_error_ok L (v_obj V Lg) E) as (ow' & X & O & _ & _ & _ & _ & Cf & _).
      cbn [fst]. unfold options. now rewrite Cf.
    - unfold fl_encrypt. destruct (fl_run _ _ _ _) as [[w' t'] ok] eqn:E. destruct (run_heap L (v_obj V Lg) E) as (ow' & X & O & _ & Cf & _).
      cbn [fst]. unfold options. now rewrite Cf.
    - unfold fl_decrypt. destruct (fl_run _ _ _ _) as [[w' t'] ok] eqn:E. destruct (run_heap L (v_obj V Lg) E) as (ow' & X & O & _ & Cf & _).
      cbn [fst]. unfold options. now rewrite Cf.
  Qed.
End prog.
