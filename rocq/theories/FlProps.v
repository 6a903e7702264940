(** C121-C125: the chained API of cryptobin/crypto. *)
From Verif Require Import Base PaddingModel BlockModeModel BlockModeSpec BlockModeProofs StreamModel FeedbackModel FeedbackSpec AeadSpec SivModel CcmModel CcmProps HctrModel
  FlModel FlSpec FlProofs FlProofs2 FlProofs3.
Set Implicit Arguments. Unset Strict Implicit.
Local Open Scope nat_scope.

Lemma not_both w t r o : call_succeeded w t r o -> call_failed w t r -> False.
Proof.
  intros (_ & _ & _ & A & _) (e & _ & _ & _ & _ & B & _). rewrite A in B. apply (f_equal (@length Z)) in B. rewrite app_length in B. cbn [length] in B. lia.
Qed.

Section api.
  Variable gcm : cipher -> Z -> Z -> res aead.
  Variable rand : nat -> bytes.
  Variable reg : Z -> option (bytes -> res cipher).
  Variable hpanic : Z -> bool.
  Notation reach := (reachable gcm rand reg hpanic).
  Notation encrypt := (fl_encrypt gcm rand reg hpanic).
  Notation decrypt := (fl_decrypt gcm reg hpanic).
  Notation exec := (exec gcm rand reg hpanic).
  Notation step := (step gcm rand reg hpanic).

  Lemma reach_ok w t : reach w t -> exists ow r, length ow = length (wArr w) /\ obj_ok ow w t r.
  Proof.
    intros (p & i & Lg & Hi & -> & ->). destruct (exec_inv gcm rand reg hpanic Lg) as (ow & V). exists ow, (nth i (origins p) 0).
    split; [apply V|]. apply V. rewrite origins_len. lia.
  Qed.
  Lemma enc_ok w t c e : reach w t -> quiet hpanic w t -> fl_cipher reg w t = Ok c -> block_encrypt gcm rand c (fl_opts w t) (fData t) = Ok e -> call_succeeded w t (encrypt w t) e.
  Proof.
    intros R Q C E. destruct (reach_ok R) as (ow & r & L & O). unfold fl_encrypt. rewrite C. cbn [rbind]. rewrite E. cbn [rbind]. now apply (run_succeeds e (fData t) L O Q).
  Qed.
  Lemma enc_bad w t : reach w t -> quiet hpanic w t -> (forall c, fl_cipher reg w t = Ok c -> forall e, block_encrypt gcm rand c (fl_opts w t) (fData t) <> Ok e) -> call_failed w t (encrypt w t).
  Proof.
    intros R Q N. destruct (reach_ok R) as (ow & r & L & O). unfold fl_encrypt. eapply run_fails; eauto. intros x. destruct (fl_cipher reg w t) as [c| |]; cbn [rbind]; try discriminate.
    specialize (N c eq_refl). destruct (block_encrypt _ _ _ _ _) as [e| |]; cbn [rbind]; try discriminate. now destruct (N e).
  Qed.
  Lemma dec_ok w t c e d : reach w t -> quiet hpanic w t -> fl_cipher reg w t = Ok c -> block_decrypt gcm c (fl_opts w t) (fData t) = Ok (e, d) ->
    call_succeeded w t (decrypt w t) e /\ fData (snd (fst (decrypt w t))) = d.
  Proof.
    intros R Q C E. destruct (reach_ok R) as (ow & r & L & O). unfold fl_decrypt. rewrite C. cbn [rbind]. rewrite E. now apply (run_succeeds e d L O Q).
  Qed.
  Lemma dec_bad w t : reach w t -> quiet hpanic w t -> (forall c, fl_cipher reg w t = Ok c -> forall e, block_decrypt gcm c (fl_opts w t) (fData t) <> Ok e) -> call_failed w t (decrypt w t).
  Proof.
    intros R Q N. destruct (reach_ok R) as (ow & r & L & O). unfold fl_decrypt. eapply run_fails; eauto. intros x. destruct (fl_cipher reg w t) as [c| |]; cbn [rbind]; try discriminate. apply N. reflexivity.
  Qed.
  Lemma enc_inv w t c e : reach w t -> quiet hpanic w t -> fl_cipher reg w t = Ok c -> call_succeeded w t (encrypt w t) e -> block_encrypt gcm rand c (fl_opts w t) (fData t) = Ok e.
  Proof.
    intros R Q C Sx. destruct (block_encrypt gcm rand c (fl_opts w t) (fData t)) as [e'| |] eqn:E.
    - pose proof (enc_ok R Q C E) as S2. destruct Sx as (_ & A & _), S2 as (_ & B & _). congruence.
    - exfalso. eapply not_both; [exact Sx|]. apply enc_bad; auto. intros c' C' e0. rewrite C in C'. injection C' as <-. rewrite E. discriminate.
    - exfalso. eapply not_both; [exact Sx|]. apply enc_bad; auto. intros c' C' e0. rewrite C in C'. injection C' as <-. rewrite E. discriminate.
  Qed.
  Lemma same_agree w t w' t' : same_settings w t w' t' -> agree (fl_opts w t) (fl_opts w' t') /\ fl_cipher reg w' t' = fl_cipher reg w t.
  Proof. intros (A & B & C & D & E & F). split; [split; auto; split; auto; split; auto; split; auto|]. unfold fl_cipher. now rewrite A, C. Qed.
  Lemma everywhere w t c e m d : fl_cipher reg w t = Ok c -> block_decrypt gcm c (fl_opts w t) e = Ok (m, d) -> restored (fPad t) (fData t) m ->
    decrypts_everywhere gcm rand reg hpanic w t e.
  Proof.
    intros C D Rm w' t' R' Q' Sm De. destruct (same_agree Sm) as [Ag Ec]. exists m. split; [exact Rm|].
    apply (@dec_ok w' t' c m d R' Q'); [now rewrite Ec|]. rewrite De, (agree_dec gcm c e Ag). exact D.
  Qed.
  Lemma nowhere w t c e : fl_cipher reg w t = Ok c -> (forall x, block_decrypt gcm c (fl_opts w t) e <> Ok x) -> never_decrypts gcm rand reg hpanic w t e.
  Proof.
    intros C D w' t' R' Q' Sm De. destruct (same_agree Sm) as [Ag Ec]. apply dec_bad; auto. intros c' C' x. rewrite Ec, C in C'. injection C' as <-.
    rewrite De, (agree_dec gcm c e Ag). apply D.
  Qed.
End api.

(** C121: for the ten modes that need nothing but an iv and all ten paddings: Encrypt succeeds exactly when the iv and the text fit, and what it
    gives is turned back by Decrypt of any object with the same settings, wherever it comes from. *)
Theorem C121_round_trip : forall gcm rand reg hpanic w t mk c, rand_ok rand ->
  reachable gcm rand reg hpanic w t -> quiet hpanic w t -> reg (fMult t) = Some mk -> mk (fKey t) = Ok c -> lawful c -> len_ok c -> bsz c <= 255 ->
  block_mode (fMode t) \/ stream_mode (fMode t) -> known_padding (fPad t) -> bytes_ok (fData t) -> bytes_ok (fIv t) ->
  (iv_fits (fMode t) (fIv t) (bsz c) /\ text_fits (fMode t) (fPad t) (length (fData t)) (bsz c) ->
   exists ct, call_succeeded w t (fl_encrypt gcm rand reg hpanic w t) ct /\ decrypts_everywhere gcm rand reg hpanic w t ct) /\
  (~ (iv_fits (fMode t) (fIv t) (bsz c) /\ text_fits (fMode t) (fPad t) (length (fData t)) (bsz c)) ->
   call_failed w t (fl_encrypt gcm rand reg hpanic w t)).
Proof.
  intros gcm rand reg hpanic w t mk c Hr R Q Hg Hk HL HK Hb Hm Kp Ox Oi.
  assert (C : fl_cipher reg w t = Ok c) by (unfold fl_cipher; now rewrite Hg).
  destruct (@plain_block gcm rand c (fl_opts w t) (fData t) Hr HL HK Hb Kp Hm Ox Oi) as [A B]. cbn [fl_opts oMode oIv oPad] in A, B. split.
  - intros F. destruct (A F) as (e & m & Ee & Ed & Rm). exists e. split; [now apply (enc_ok R Q C)|]. eapply everywhere; eauto.
  - intros N. apply enc_bad; auto. intros c' C' e. rewrite C in C'. injection C' as <-. now apply B.
Qed.
(** ... for GCM and CCM: a padded text comes back only if the tag is a whole number of blocks; otherwise what Encrypt gave can never be decrypted. *)
Theorem C121_authenticated : forall gcm rand reg hpanic w t mk c ct, rand_ok rand -> gcm_lawful gcm ->
  reachable gcm rand reg hpanic w t -> quiet hpanic w t -> reg (fMult t) = Some mk -> mk (fKey t) = Ok c -> lawful c -> bsz c <= 255 ->
  fMode t = 12%Z \/ fMode t = 13%Z -> known_padding (fPad t) -> bytes_ok (fData t) -> bytes_ok (fIv t) ->
  (forall ad, options w t Additional = Some (CBytes ad) -> bytes_ok ad) ->
  call_succeeded w t (fl_encrypt gcm rand reg hpanic w t) ct ->
  (fPad t = 1%Z \/ tag_len (options w t TagSize) mod bsz c = 0 -> decrypts_everywhere gcm rand reg hpanic w t ct) /\
  (fPad t <> 1%Z -> tag_len (options w t TagSize) mod bsz c <> 0 -> never_decrypts gcm rand reg hpanic w t ct).
Proof.
  intros gcm rand reg hpanic w t mk c ct Hr GL R Q Hg Hk HL Hb Hm Kp Ox Oi Oa Sx. pose proof (law_pos HL) as Hp.
  assert (C : fl_cipher reg w t = Ok c) by (unfold fl_cipher; now rewrite Hg).
  pose proof (enc_inv R Q C Sx) as E. destruct (@block_inv gcm rand c (fl_opts w t) (fData t) ct Hr Hb Hp Kp Ox E) as (y & m & Ly & Oy & Rm & Em & Ay & E1 & Dd).
  cbn [fl_opts oPad] in *. assert (G : length ct = length y + tag_len (options w t TagSize) /\ fl_mode_dec gcm c (fl_opts w t) ct = Ok (y, ct)).
  { destruct Hm as [M|M]; [now apply (@gcm_mode gcm rand c (fl_opts w t))|].
    assert (Ob : bytes_ok (cfg_bytes Additional (oCfg (fl_opts w t)))).
    { unfold cfg_bytes. cbn [fl_opts oCfg]. specialize (Oa). unfold options in Oa. destruct (cfg_get Additional _) as [[n|b|b]|]; try constructor. now apply Oa. }
    destruct (@ccm_mode gcm rand c (fl_opts w t) y ct HL M Oy Oi Ob Em) as (A & B & _). split; [exact A|exact B]. }
  destruct G as [Lc D]. split.
  - intros F. eapply everywhere; [exact C|apply (Dd ct ct D)|exact Rm]. intros N. destruct F as [F|F]; [congruence|].
    rewrite Lc. rewrite Nat.add_mod, Ay, F by (auto; lia). apply Nat.mod_0_l. lia.
  - intros P T. eapply nowhere; [exact C|]. intros x. rewrite (@pad_blocks_short gcm c (fl_opts w t)); [discriminate|exact P|].
    rewrite Lc. rewrite Nat.add_mod, Ay by (auto; lia). cbn [Nat.add]. rewrite Nat.mod_mod by lia. exact T.
Qed.
(** ... for HCTR *)
Theorem C121_hctr : forall gcm rand reg hpanic w t mk c ct, rand_ok rand ->
  reachable gcm rand reg hpanic w t -> quiet hpanic w t -> reg (fMult t) = Some mk -> mk (fKey t) = Ok c -> lawful c -> bsz c = 16 ->
  fMode t = 15%Z -> known_padding (fPad t) -> bytes_ok (fData t) -> (Z.of_nat (length (fData t)) < 2 ^ 59)%Z ->
  call_succeeded w t (fl_encrypt gcm rand reg hpanic w t) ct ->
  decrypts_everywhere gcm rand reg hpanic w t ct.
Proof.
  intros gcm rand reg hpanic w t mk c ct Hr R Q Hg Hk HL Hb Hm Kp Ox Lt Sx. pose proof (law_pos HL) as Hp.
  assert (C : fl_cipher reg w t = Ok c) by (unfold fl_cipher; now rewrite Hg).
  pose proof (enc_inv R Q C Sx) as E. destruct (@block_inv gcm rand c (fl_opts w t) (fData t) ct Hr ltac:(lia) Hp Kp Ox E) as (y & m & Ly & Oy & Rm & Em & Ay & E1 & Dd).
  destruct (@hctr_mode gcm rand c (fl_opts w t) y ct HL Hb Hm Oy ltac:(lia) Em) as [Lc D].
  eapply everywhere; [exact C|apply (Dd ct ct D)|exact Rm]. intros N. rewrite Lc. now apply Ay.
Qed.

(** ... for OCFB: unpadded texts come back, but Decrypt has overwritten the start of the data it was given (with the random block); with a padding
    nothing can be decrypted. *)
Theorem C121_ocfb : forall gcm rand reg hpanic w t mk c, rand_ok rand ->
  reachable gcm rand reg hpanic w t -> quiet hpanic w t -> reg (fMult t) = Some mk -> mk (fKey t) = Ok c -> lawful c -> len_ok c -> 2 <= bsz c <= 255 ->
  fMode t = 8%Z -> known_padding (fPad t) -> bytes_ok (fData t) -> text_fits (fMode t) (fPad t) (length (fData t)) (bsz c) ->
  exists ct, call_succeeded w t (fl_encrypt gcm rand reg hpanic w t) ct /\
    (fPad t = 1%Z -> decrypts_everywhere gcm rand reg hpanic w t ct /\
       forall w' t', reachable gcm rand reg hpanic w' t' -> quiet hpanic w' t' -> same_settings w t w' t' -> fData t' = ct ->
       fData (snd (fst (fl_decrypt gcm reg hpanic w' t'))) = rand (bsz c) ++ skipn (bsz c - 2) (rand (bsz c)) ++ skipn (bsz c + 2) ct) /\
    (fPad t <> 1%Z -> 2 < bsz c -> never_decrypts gcm rand reg hpanic w t ct).
Proof.
  intros gcm rand reg hpanic w t mk c Hr R Q Hg Hk HL HK [H2 Hb] Hm Kp Ox [_ F3].
  assert (C : fl_cipher reg w t = Ok c) by (unfold fl_cipher; now rewrite Hg).
  destruct (@block_round gcm rand c (fl_opts w t) (fData t) Hr Hb ltac:(lia) Kp Ox F3) as (y & m & Ly & Oy & Rm & Ee & Ay & E1 & Dd).
  destruct (@ocfb_mode gcm rand c (fl_opts w t) y Hr HK H2 Hm) as (e & d & Em & Le & Ed & Df & Ds). rewrite Em in Ee.
  exists e. split; [now apply (enc_ok R Q C)|]. cbn [fl_opts oPad] in *. split.
  - intros P. assert (D : block_decrypt gcm c (fl_opts w t) e = Ok (m, d)) by (apply (Dd e d Ed); congruence).
    split; [eapply everywhere; [exact C|exact D|exact Rm]|]. intros w' t' R' Q' Sm De. destruct (@same_agree reg w t w' t' Sm) as [Ag Ec].
    destruct (@dec_ok gcm rand reg hpanic w' t' c m d R' Q') as [_ ->]; [now rewrite Ec|rewrite De, (agree_dec gcm c e Ag); exact D|].
    rewrite <- (firstn_skipn (bsz c + 2) d), Df, Ds. now rewrite <- app_assoc.
  - intros P B. eapply nowhere; [exact C|]. intros x. rewrite (@pad_blocks_short gcm c (fl_opts w t)); [discriminate|exact P|].
    rewrite Le. replace (bsz c + 2 + length y) with (2 + length y + 1 * bsz c) by lia. rewrite Nat.mod_add by lia. rewrite Nat.add_mod, Ay by (auto; lia).
    rewrite Nat.add_0_r, Nat.mod_mod, Nat.mod_small by lia. discriminate.
Qed.
(** ... and for settings the package does not know, both directions fail. *)
Theorem C121_unknown : forall gcm rand reg hpanic w t,
  reachable gcm rand reg hpanic w t -> quiet hpanic w t ->
  reg (fMult t) = None \/ ~ known_padding (fPad t) \/ ~ (1 <= fMode t <= 15)%Z ->
  call_failed w t (fl_encrypt gcm rand reg hpanic w t) /\ call_failed w t (fl_decrypt gcm reg hpanic w t).
Proof.
  intros gcm rand reg hpanic w t R Q H. split; [apply enc_bad|apply (@dec_bad gcm rand)]; auto; intros c C.
  - destruct H as [H|[H|H]]; [unfold fl_cipher in C; rewrite H in C; discriminate|exact (proj1 (@unknown_padding gcm rand c (fl_opts w t) _ H))|exact (proj1 (@unknown_mode gcm rand c (fl_opts w t) _ H))].
  - destruct H as [H|[H|H]]; [unfold fl_cipher in C; rewrite H in C; discriminate|exact (proj2 (@unknown_padding gcm rand c (fl_opts w t) _ H))|exact (proj2 (@unknown_mode gcm rand c (fl_opts w t) _ H))].
Qed.

(** C122: as long as the handlers do not panic, Encrypt and Decrypt never panic, whatever the cipher, the settings and the data: they store the result
    and add no error, or keep the last result and add one error; every handler is told all errors, after a success as well. *)
Theorem C122_reports : forall gcm rand reg hpanic w t, reachable gcm rand reg hpanic w t -> quiet hpanic w t ->
  ((exists out, call_succeeded w t (fl_encrypt gcm rand reg hpanic w t) out) \/ call_failed w t (fl_encrypt gcm rand reg hpanic w t)) /\
  ((exists out, call_succeeded w t (fl_decrypt gcm reg hpanic w t) out) \/ call_failed w t (fl_decrypt gcm reg hpanic w t)).
Proof.
  intros gcm rand reg hpanic w t R Q. destruct (reach_ok R) as (ow & r & L & O). unfold fl_encrypt, fl_decrypt. split.
  - destruct (rbind (fl_cipher reg w t) (fun c => rbind (block_encrypt gcm rand c (fl_opts w t) (fData t)) (fun m => Ok (m, fData t)))) as [[m d]| |] eqn:E.
    + left. exists m. now apply (run_succeeds m d L O Q).
    + right. eapply run_fails; eauto. discriminate.
    + right. eapply run_fails; eauto. discriminate.
  - destruct (rbind (fl_cipher reg w t) (fun c => block_decrypt gcm c (fl_opts w t) (fData t))) as [[m d]| |] eqn:E.
    + left. exists m. now apply (run_succeeds m d L O Q).
    + right. eapply run_fails; eauto. discriminate.
    + right. eapply run_fails; eauto. discriminate.
Qed.
(** With a handler that panics, the panic reaches the caller. *)
Theorem C122_panicking_handler_refuted : forall gcm rand reg hpanic h, hpanic h = true ->
  exists w t, reachable gcm rand reg hpanic w t /\ snd (fl_encrypt gcm rand reg hpanic w t) = false.
Proof.
  intros gcm rand reg hpanic h Hh. exists (fst (exec gcm rand reg hpanic [OnError 0 h])), (obj (exec gcm rand reg hpanic [OnError 0 h]) 1). split.
  { exists [OnError 0 h], 1. split; [|auto]. repeat split; cbn; auto. }
  unfold fl_encrypt. generalize (rbind (fl_cipher reg (fst (exec gcm rand reg hpanic [OnError 0 h])) (obj (exec gcm rand reg hpanic [OnError 0 h]) 1)) (fun c =>
    rbind (block_encrypt gcm rand c (fl_opts (fst (exec gcm rand reg hpanic [OnError 0 h])) (obj (exec gcm rand reg hpanic [OnError 0 h]) 1))
      (fData (obj (exec gcm rand reg hpanic [OnError 0 h]) 1))) (fun m => Ok (m, fData (obj (exec gcm rand reg hpanic [OnError 0 h]) 1))))).
  intros [[m d]| |]; cbv; repeat (rewrite Hh; cbv); reflexivity.
Qed.

(** C123: an error does not stop the chain: what Encrypt and Decrypt store depends on the settings and the data alone, not on the errors so far. *)
Theorem C123_errors_do_not_stop : forall gcm rand reg hpanic w t w' t' out,
  reachable gcm rand reg hpanic w t -> quiet hpanic w t -> reachable gcm rand reg hpanic w' t' -> quiet hpanic w' t' ->
  same_settings w t w' t' -> fData t' = fData t ->
  (call_succeeded w t (fl_encrypt gcm rand reg hpanic w t) out -> call_succeeded w' t' (fl_encrypt gcm rand reg hpanic w' t') out) /\
  (call_succeeded w t (fl_decrypt gcm reg hpanic w t) out -> call_succeeded w' t' (fl_decrypt gcm reg hpanic w' t') out).
Proof.
  intros gcm rand reg hpanic w t w' t' out R Q R' Q' Sm De. destruct (@same_agree reg w t w' t' Sm) as [Ag Ec]. split; intros Sx.
  - destruct (fl_cipher reg w t) as [c| |] eqn:C.
    + pose proof (enc_inv R Q C Sx) as E. apply (@enc_ok gcm rand reg hpanic w' t' c); auto. now rewrite De, (agree_enc gcm rand c _ Ag).
    + exfalso. eapply not_both; [exact Sx|]. apply enc_bad; auto. congruence.
    + exfalso. eapply not_both; [exact Sx|]. apply enc_bad; auto. congruence.
  - destruct (fl_cipher reg w t) as [c| |] eqn:C.
    + destruct (block_decrypt gcm c (fl_opts w t) (fData t)) as [[m d]| |] eqn:E.
      * destruct (@dec_ok gcm rand reg hpanic w t c m d R Q C E) as [(_ & A & _) _]. destruct Sx as (_ & B & _). assert (m = out) by congruence. subst m.
        apply (@dec_ok gcm rand reg hpanic w' t' c out d R' Q'); [congruence|]. rewrite De, (agree_dec gcm c _ Ag). congruence.
      * exfalso. eapply not_both; [exact Sx|]. apply (@dec_bad gcm rand); auto. intros c' C' e. rewrite C in C'. injection C' as <-. congruence.
      * exfalso. eapply not_both; [exact Sx|]. apply (@dec_bad gcm rand); auto. intros c' C' e. rewrite C in C'. injection C' as <-. congruence.
    + exfalso. eapply not_both; [exact Sx|]. apply (@dec_bad gcm rand); auto. congruence.
    + exfalso. eapply not_both; [exact Sx|]. apply (@dec_bad gcm rand); auto. congruence.
Qed.
(** A text that FromBase64String or FromHexString cannot decode is one more error, and the next Encrypt works on the data there was before. *)
Theorem C123_bad_text_keeps_data : forall gcm rand reg hpanic p i, legal_prog p -> i <= length p ->
  let s := exec gcm rand reg hpanic p in
  let (w1, t1) := fl_from_text (fst s) (obj s i) None in
  (w1, t1) = (fst (exec gcm rand reg hpanic (p ++ [AddError i 1])), obj (exec gcm rand reg hpanic (p ++ [AddError i 1])) (S (length p))) /\
  fData t1 = fData (obj s i) /\ same_settings (fst s) (obj s i) w1 t1 /\ errors w1 t1 = errors (fst s) (obj s i) ++ [1%Z].
Proof.
  intros gcm rand reg hpanic p i Lg Hi s. destruct (exec_inv gcm rand reg hpanic Lg) as (ow & V).
  assert (Hr : i < length (origins p)) by (rewrite origins_len; lia).
  unfold fl_from_text. destruct (fl_append_error (fst s) (obj s i) 1) as [w1 t1] eqn:E.
  destruct (append_error_ok (v_own V) (v_obj V Hr) E) as (ow' & X & O & Ee & Eh & Ks & Ed & Ep & Sp & Cf & Lg' & _). repeat split; auto; try apply Ks.
  - unfold exec. rewrite fold_left_app. cbn [fold_left]. fold (exec gcm rand reg hpanic p). fold s. unfold step at 1 2. rewrite E.
    f_equal. cbn [fst]. pose proof (v_len V) as Ln. rewrite origins_len in Ln. fold s in Ln. rewrite Ln. destruct s as [w0 l0]. cbn [fst snd]. symmetry. apply obj_last.
  - intros k. unfold options. rewrite Cf. destruct Ks as (_ & _ & _ & _ & _ & ->). reflexivity.
Qed.

(** C124: options belong to the New an object descends from. Storing one changes it for exactly the objects of the same descent, old and new; *)
Theorem C124_option_stored : forall gcm rand reg hpanic p i k v j k', legal_prog (p ++ [Put i k v]) -> j <= length p ->
  options (fst (exec gcm rand reg hpanic (p ++ [Put i k v]))) (obj (exec gcm rand reg hpanic (p ++ [Put i k v])) j) k' =
  if (Nat.eqb (nth i (origins p) 0) (nth j (origins p) 0) && cname_eqb k' k)%bool then Some v
  else options (fst (exec gcm rand reg hpanic p)) (obj (exec gcm rand reg hpanic p) j) k'.
Proof.
  intros gcm rand reg hpanic p i k v j k' Lg Hj. apply legal_app in Lg as [Lp [Lo _]]. destruct (exec_inv gcm rand reg hpanic Lp) as (ow & V).
  assert (Hr : j < length (origins p)) by (rewrite origins_len; lia).
  assert (Lo' : legal (length (origins p)) (Put i k v)) by (rewrite origins_len; exact Lo).
  unfold exec. rewrite fold_left_app. cbn [fold_left]. fold (exec gcm rand reg hpanic p).
  destruct (@step_spares gcm rand reg hpanic ow _ _ (Put i k v) j V Lo' Hr) as [-> _]. exact (@step_options gcm rand reg hpanic ow _ _ (Put i k v) j k' V Lo' Hr).
Qed.
(** whatever else a program does, the options of an object stay as they are while no option is stored through its own descent. *)
Theorem C124_options_isolated : forall gcm rand reg hpanic q p j k, legal_prog (p ++ q) -> j <= length p ->
  puts_elsewhere (origins p) (nth j (origins p) 0) q ->
  options (fst (exec gcm rand reg hpanic (p ++ q))) (obj (exec gcm rand reg hpanic (p ++ q)) j) k =
  options (fst (exec gcm rand reg hpanic p)) (obj (exec gcm rand reg hpanic p) j) k.
Proof.
  intros gcm rand reg hpanic. induction q as [|o q IH]; intros p j k Lg Hj Pe; [now rewrite app_nil_r|].
  replace (p ++ o :: q) with ((p ++ [o]) ++ q) in * by now rewrite <- app_assoc.
  pose proof Lg as Lg0. apply legal_app in Lg0 as [Lpo _]. pose proof Lpo as Lpo'. apply legal_app in Lpo' as [Lp [Lo _]].
  destruct (exec_inv gcm rand reg hpanic Lp) as (ow & V). assert (Hr : j < length (origins p)) by (rewrite origins_len; lia).
  assert (Lo' : legal (length (origins p)) o) by (rewrite origins_len; exact Lo). destruct Pe as [Po Pq].
  assert (Eo : origins (p ++ [o]) = origins_step (origins p) o) by (unfold origins; now rewrite fold_left_app).
  assert (Ej : nth j (origins (p ++ [o])) 0 = nth j (origins p) 0) by (rewrite Eo; unfold origins_step; now rewrite app_nth1).
  rewrite IH; [|exact Lg|rewrite app_length; cbn; lia|now rewrite Ej, Eo].
  unfold exec. rewrite fold_left_app. cbn [fold_left]. fold (exec gcm rand reg hpanic p).
  destruct (@step_spares gcm rand reg hpanic ow _ _ o j V Lo' Hr) as [-> _]. rewrite (@step_options gcm rand reg hpanic ow _ _ o j k V Lo' Hr).
  destruct o; auto. destruct (Nat.eqb_spec (nth i (origins p) 0) (nth j (origins p) 0)); [congruence|reflexivity].
Qed.

(** C125: an object shows the same errors for ever if no error is reported, in its descent, by an object with fewer errors than it. *)
Theorem C125_errors_stay : forall gcm rand reg hpanic q p j, legal_prog (p ++ q) -> j <= length p ->
  no_branching gcm rand reg hpanic (exec gcm rand reg hpanic p) (origins p) (nth j (origins p) 0) (length (errors (fst (exec gcm rand reg hpanic p)) (obj (exec gcm rand reg hpanic p) j))) q ->
  errors (fst (exec gcm rand reg hpanic (p ++ q))) (obj (exec gcm rand reg hpanic (p ++ q)) j) = errors (fst (exec gcm rand reg hpanic p)) (obj (exec gcm rand reg hpanic p) j).
Proof.
  intros gcm rand reg hpanic. induction q as [|o q IH]; intros p j Lg Hj Pe; [now rewrite app_nil_r|].
  replace (p ++ o :: q) with ((p ++ [o]) ++ q) in * by now rewrite <- app_assoc.
  pose proof Lg as Lg0. apply legal_app in Lg0 as [Lpo _]. pose proof Lpo as Lpo'. apply legal_app in Lpo' as [Lp [Lo _]].
  destruct (exec_inv gcm rand reg hpanic Lp) as (ow & V). assert (Hr : j < length (origins p)) by (rewrite origins_len; lia).
  assert (Lo' : legal (length (origins p)) o) by (rewrite origins_len; exact Lo). destruct Pe as [Po Pq].
  assert (Eo : origins (p ++ [o]) = origins_step (origins p) o) by (unfold origins; now rewrite fold_left_app).
  assert (Ej : nth j (origins (p ++ [o])) 0 = nth j (origins p) 0) by (rewrite Eo; unfold origins_step; now rewrite app_nth1).
  assert (Es : exec gcm rand reg hpanic (p ++ [o]) = step gcm rand reg hpanic (exec gcm rand reg hpanic p) o) by (unfold exec; now rewrite fold_left_app).
  destruct (@step_spares gcm rand reg hpanic ow _ _ o j V Lo' Hr) as (Oj & Ee & _).
  assert (E1 : errors (fst (exec gcm rand reg hpanic (p ++ [o]))) (obj (exec gcm rand reg hpanic (p ++ [o])) j) = errors (fst (exec gcm rand reg hpanic p)) (obj (exec gcm rand reg hpanic p) j)).
  { rewrite Es, Oj. apply Ee. destruct o; auto. }
  rewrite IH; [exact E1|exact Lg|rewrite app_length; cbn; lia|]. rewrite Ej, E1, Es, Eo. exact Pq.
Qed.
(** In particular objects that do not descend from the same New never touch each other's errors, in one step of any kind; *)
Theorem C125_errors_isolated : forall gcm rand reg hpanic p o j, legal_prog (p ++ [o]) -> j <= length p ->
  match source o with None => True | Some i => nth i (origins p) 0 <> nth j (origins p) 0 end ->
  obj (exec gcm rand reg hpanic (p ++ [o])) j = obj (exec gcm rand reg hpanic p) j /\
  errors (fst (exec gcm rand reg hpanic (p ++ [o]))) (obj (exec gcm rand reg hpanic p) j) = errors (fst (exec gcm rand reg hpanic p)) (obj (exec gcm rand reg hpanic p) j) /\
  handlers (fst (exec gcm rand reg hpanic (p ++ [o]))) (obj (exec gcm rand reg hpanic p) j) = handlers (fst (exec gcm rand reg hpanic p)) (obj (exec gcm rand reg hpanic p) j).
Proof.
  intros gcm rand reg hpanic p o j Lg Hj N. apply legal_app in Lg as [Lp [Lo _]]. destruct (exec_inv gcm rand reg hpanic Lp) as (ow & V).
  assert (Hr : j < length (origins p)) by (rewrite origins_len; lia).
  assert (Lo' : legal (length (origins p)) o) by (rewrite origins_len; exact Lo).
  unfold exec. rewrite fold_left_app. cbn [fold_left]. fold (exec gcm rand reg hpanic p).
  destruct (@step_spares gcm rand reg hpanic ow _ _ o j V Lo' Hr) as (A & B & C). split; [exact A|].
  split; [apply B|apply C]; destruct o; cbn [source] in N; auto.
Qed.

(** ** Cases: a toy cipher of any block size *)
Definition xc (n : nat) : cipher := Build_cipher n (map (fun x => Z.lxor x 1)) (map (fun x => Z.lxor x 1)).
Lemma xc_lawful n : 0 < n -> lawful (xc n) /\ len_ok (xc n).
Proof.
  intros H. assert (B : forall b, isblock n b -> isblock n (map (fun x => Z.lxor x 1) b)).
  { intros b [L O]. split; [now rewrite map_length|]. apply Forall_map. eapply Forall_impl; [|exact O]. intros x Hx. apply lxor_byte; [exact Hx|]. split; lia. }
  split; [split; cbn [xc bsz enc dec]; auto|split; cbn [xc bsz enc]; auto].
  - intros b _. rewrite map_map. rewrite <- (map_id b) at 2. apply map_ext. intros x. now rewrite Z.lxor_assoc, Z.lxor_nilpotent, Z.lxor_0_r.
  - intros b L. now rewrite map_length.
Qed.
Definition xreg (n : nat) : Z -> option (bytes -> res cipher) := fun m => if (m =? 1)%Z then Some (fun _ => Ok (xc n)) else None.
Definition xgcm : cipher -> Z -> Z -> res aead := fun _ _ _ => Err.
Definition xrand : nat -> bytes := repeat 7%Z.
Lemma xrand_ok : rand_ok xrand.
Proof. intros n. split; [apply repeat_length|]. apply bytes_ok_repeat. split; lia. Qed.
Definition noh : Z -> bool := fun _ => false.
Definition xset (data iv : bytes) (mode pad : Z) : chain -> chain :=
  fun t => Chain data (fKey t) iv (fMult t) mode pad (fCfg t) (fParsed t) (fHand t) (fErrs t).
Lemma xset_setter data iv mode pad : setter (xset data iv mode pad).
Proof. intros t. auto. Qed.
Notation xexec n := (exec xgcm xrand (xreg n) noh).
Definition xprog data iv mode pad := [With 0 (xset data iv mode pad)].
Lemma xreach n data iv mode pad : let s := xexec n (xprog data iv mode pad) in
  reachable xgcm xrand (xreg n) noh (fst s) (obj s 1) /\ quiet noh (fst s) (obj s 1).
Proof.
  cbv zeta. split; [|constructor]. exists (xprog data iv mode pad), 1. split; [|auto]. split; [|exact I]. split; [cbn; auto|apply xset_setter].
Qed.
(** CBC with PKCS7 of a text of 3 bytes, PKCS5 on blocks of 16, and no padding. *)
Example C121_instance :
  (forall mode pad, block_mode mode \/ stream_mode mode -> In pad [2; 4; 10]%Z ->
   let s := xexec 16 (xprog [1; 2; 3]%Z (repeat 9%Z 16) mode pad) in
   exists ct, call_succeeded (fst s) (obj s 1) (fl_encrypt xgcm xrand (xreg 16) noh (fst s) (obj s 1)) ct /\ decrypts_everywhere xgcm xrand (xreg 16) noh (fst s) (obj s 1) ct) /\
  (let s := xexec 16 (xprog [1; 2; 3]%Z (repeat 9%Z 16) 2 3) in call_failed (fst s) (obj s 1) (fl_encrypt xgcm xrand (xreg 16) noh (fst s) (obj s 1))) /\
  (let s := xexec 16 (xprog [1; 2; 3]%Z (repeat 9%Z 15) 11 1) in call_failed (fst s) (obj s 1) (fl_encrypt xgcm xrand (xreg 16) noh (fst s) (obj s 1))).
Proof.
  destruct (@xc_lawful 16 ltac:(lia)) as [HL HK]. assert (B3 : bytes_ok [1; 2; 3]%Z) by (repeat constructor; lia).
  assert (B9 : forall n, bytes_ok (repeat 9%Z n)) by (intros; apply bytes_ok_repeat; split; lia).
  split; [|split].
  - intros mode pad Hm Hp s. destruct (@xreach 16 [1; 2; 3]%Z (repeat 9%Z 16) mode pad) as [R Q].
    refine (proj1 (@C121_round_trip xgcm xrand (xreg 16) noh _ _ (fun _ => Ok (xc 16)) (xc 16) xrand_ok R Q eq_refl eq_refl HL HK _ Hm _ B3 (B9 16)) _).
    + cbn. lia.
    + change (known_padding pad). unfold known_padding. cbn [In] in *. tauto.
    + split; [right; reflexivity|]. change (text_fits mode pad 3 16). cbn [In] in Hp. split; intros E; subst pad; exfalso; revert Hp; intros [H|[H|[H|[]]]]; discriminate H.
  - intros s. destruct (@xreach 16 [1; 2; 3]%Z (repeat 9%Z 16) 2 3) as [R Q].
    refine (proj2 (@C121_round_trip xgcm xrand (xreg 16) noh _ _ (fun _ => Ok (xc 16)) (xc 16) xrand_ok R Q eq_refl eq_refl HL HK _ _ _ B3 (B9 16)) _).
    + cbn. lia.
    + left. cbn. auto.
    + cbn. auto 12.
    + intros [_ [_ F]]. specialize (F eq_refl). discriminate F.
  - intros s. destruct (@xreach 16 [1; 2; 3]%Z (repeat 9%Z 15) 11 1) as [R Q].
    refine (proj2 (@C121_round_trip xgcm xrand (xreg 16) noh _ _ (fun _ => Ok (xc 16)) (xc 16) xrand_ok R Q eq_refl eq_refl HL HK _ _ _ B3 (B9 15)) _).
    + cbn. lia.
    + right. cbn. auto 12.
    + cbn. auto 12.
    + intros [[F|F] _]; discriminate F.
Qed.
(** CCM with PKCS7 and a tag of 12 bytes: Encrypt succeeds, nothing decrypts it; with the default tag it comes back. *)
Definition cprog (tag : Z) := [Put 0 TagSize (CInt tag); With 1 (xset [1; 2; 3]%Z (repeat 9%Z 12) 13 4)].
Lemma creach n tag : let s := xexec n (cprog tag) in reachable xgcm xrand (xreg n) noh (fst s) (obj s 2) /\ quiet noh (fst s) (obj s 2).
Proof. cbv zeta. split; [|constructor]. exists (cprog tag), 2. split; [|auto]. split; [|split; [|exact I]]; (split; [cbn; auto|]); [exact I|apply xset_setter]. Qed.
Example C121_instance_authenticated :
  (let s := xexec 16 (cprog 0) in exists ct, call_succeeded (fst s) (obj s 2) (fl_encrypt xgcm xrand (xreg 16) noh (fst s) (obj s 2)) ct /\
     decrypts_everywhere xgcm xrand (xreg 16) noh (fst s) (obj s 2) ct) /\
  (let s := xexec 16 (cprog 12) in exists ct, call_succeeded (fst s) (obj s 2) (fl_encrypt xgcm xrand (xreg 16) noh (fst s) (obj s 2)) ct /\
     never_decrypts xgcm xrand (xreg 16) noh (fst s) (obj s 2) ct).
Proof.
  destruct (@xc_lawful 16 ltac:(lia)) as [HL HK]. assert (B3 : bytes_ok [1; 2; 3]%Z) by (repeat constructor; lia).
  assert (B9 : forall n, bytes_ok (repeat 9%Z n)) by (intros; apply bytes_ok_repeat; split; lia).
  assert (GL : gcm_lawful xgcm) by (intros c ns ts a E; discriminate E).
  assert (S0 : forall tag, In tag [0; 12]%Z -> let s := xexec 16 (cprog tag) in exists ct, call_succeeded (fst s) (obj s 2) (fl_encrypt xgcm xrand (xreg 16) noh (fst s) (obj s 2)) ct).
  { intros tag [<-|[<-|[]]] s; eexists; vm_compute; repeat split; reflexivity. }
  split; cbv zeta.
  - destruct (S0 0%Z ltac:(cbn; auto)) as (ct & Sx). exists ct. split; [exact Sx|]. destruct (creach 16 0) as [R Q].
    refine (proj1 (@C121_authenticated xgcm xrand (xreg 16) noh _ _ (fun _ => Ok (xc 16)) (xc 16) ct xrand_ok GL R Q eq_refl eq_refl HL _ _ _ B3 (B9 12) _ Sx) _).
    + cbn. lia.
    + right. reflexivity.
    + cbn. auto 12.
    + intros ad E. discriminate E.
    + right. reflexivity.
  - destruct (S0 12%Z ltac:(cbn; auto)) as (ct & Sx). exists ct. split; [exact Sx|]. destruct (creach 16 12) as [R Q].
    refine (proj2 (@C121_authenticated xgcm xrand (xreg 16) noh _ _ (fun _ => Ok (xc 16)) (xc 16) ct xrand_ok GL R Q eq_refl eq_refl HL _ _ _ B3 (B9 12) _ Sx) _ _).
    + cbn. lia.
    + right. reflexivity.
    + cbn. auto 12.
    + intros ad E. discriminate E.
    + discriminate.
    + discriminate.
Qed.
(** OCFB: Decrypt twice on the same object. The first call gives the text back, the second one fails, and the data is no longer the ciphertext. *)
Theorem C121_ocfb_decrypt_twice_refuted : exists p, legal_prog p /\
  let s := xexec 4 p in
  p = [With 0 (xset [1; 2; 3]%Z [] 8 1); Encrypt 1; With 2 (fun t => set_data t (fParsed t)); Decrypt 3; Decrypt 4] /\
  fParsed (obj s 4) = [1; 2; 3]%Z /\ errors (fst s) (obj s 4) = [] /\ length (errors (fst s) (obj s 5)) = 1 /\ fData (obj s 4) <> fData (obj s 3).
Proof.
  eexists. split; [|split; [reflexivity|]].
  - repeat split; cbn; auto.
  - vm_compute. repeat split; try reflexivity. discriminate.
Qed.
Definition hprog := [Put 0 Tweak (CBytes (repeat 3%Z 16)); Put 1 Hkey (CBytes (repeat 4%Z 16)); With 2 (xset (repeat 8%Z 16) [] 15 1)].
Example C121_instance_hctr : let s := xexec 16 hprog in
  exists ct, call_succeeded (fst s) (obj s 3) (fl_encrypt xgcm xrand (xreg 16) noh (fst s) (obj s 3)) ct /\ decrypts_everywhere xgcm xrand (xreg 16) noh (fst s) (obj s 3) ct.
Proof.
  destruct (@xc_lawful 16 ltac:(lia)) as [HL HK]. cbv zeta.
  assert (Sx : exists ct, call_succeeded (fst (xexec 16 hprog)) (obj (xexec 16 hprog) 3) (fl_encrypt xgcm xrand (xreg 16) noh (fst (xexec 16 hprog)) (obj (xexec 16 hprog) 3)) ct)
    by (eexists; vm_compute; repeat split; reflexivity).
  destruct Sx as (ct & Sx). exists ct. split; [exact Sx|].
  refine (@C121_hctr xgcm xrand (xreg 16) noh (fst (xexec 16 hprog)) (obj (xexec 16 hprog) 3) (fun _ => Ok (xc 16)) (xc 16) ct xrand_ok _ _ eq_refl eq_refl HL eq_refl eq_refl _ _ _ Sx).
  - exists hprog, 3. split; [|auto]. repeat split; cbn; auto.
  - constructor.
  - cbn. auto.
  - apply bytes_ok_repeat. split; lia.
  - reflexivity.
Qed.
(** C124: two chains started with the package functions (object 0): what the first stored is used by the second, which never set it. *)
Theorem C124_package_chains_share_refuted : exists ad f, setter f /\
  let alone := xexec 16 [With 0 f; Encrypt 1] in
  let after := xexec 16 [Put 0 Additional (CBytes ad); With 0 f; Encrypt 2] in
  errors (fst alone) (obj alone 2) = [] /\ errors (fst after) (obj after 3) = [] /\
  options (fst after) (obj after 2) Additional = Some (CBytes ad) /\ fParsed (obj alone 2) <> fParsed (obj after 3).
Proof.
  exists [5%Z], (xset [1; 2; 3]%Z (repeat 9%Z 12) 13 1). split; [apply xset_setter|]. vm_compute. repeat split; try reflexivity. discriminate.
Qed.
Example C124_instance : forall k,
  let p := [New; Put 0 Additional (CBytes [5%Z])] in let s := xexec 16 p in
  origins p = [0; 1; 0] /\ options (fst s) (obj s 0) Additional = Some (CBytes [5%Z]) /\
  options (fst (xexec 16 (p ++ [Put 0 TagSize (CInt 4); Encrypt 1]))) (obj (xexec 16 (p ++ [Put 0 TagSize (CInt 4); Encrypt 1])) 1) k = options (fst s) (obj s 1) k.
Proof.
  intros k p s. split; [reflexivity|]. split; [reflexivity|]. apply (@C124_options_isolated xgcm xrand (xreg 16) noh); cbn; auto 9; try lia.
  repeat split; cbn; auto.
Qed.
(** C125: two chains forked from one object with three errors: the second error replaces the first. *)
Theorem C125_forked_errors_refuted :
  let p := [AddError 0 11; AddError 1 12; AddError 2 13; AddError 3 21]%Z in
  let s := xexec 16 p in let s' := xexec 16 (p ++ [AddError 3 22%Z]) in
  errors (fst s) (obj s 4) = [11; 12; 13; 21]%Z /\ errors (fst s') (obj s' 4) = [11; 12; 13; 22]%Z /\ errors (fst s') (obj s' 5) = [11; 12; 13; 22]%Z.
Proof. vm_compute. repeat split; reflexivity. Qed.
Example C125_instance : let p := [AddError 0 11; AddError 1 12]%Z in let q := [AddError 2 13; AddError 3 21]%Z in
  errors (fst (xexec 16 (p ++ q))) (obj (xexec 16 (p ++ q)) 2) = [11; 12]%Z.
Proof.
  intros p q. rewrite (@C125_errors_stay xgcm xrand (xreg 16) noh q p 2); [reflexivity|repeat split; cbn; auto|cbn; lia|]. cbn. repeat split; right; cbn; lia.
Qed.
Example C122_instance : let s := xexec 16 [OnError 0 3%Z; With 1 (xset [1; 2; 3]%Z [] 2 1); AddError 2 9%Z] in
  quiet noh (fst s) (obj s 3) /\ wLog (fst (fst (fl_encrypt xgcm xrand (xreg 16) noh (fst s) (obj s 3)))) = [(3, [9; 2])]%Z.
Proof. vm_compute. split; [repeat constructor|reflexivity]. Qed.
Example C123_instance : let s := xexec 16 [With 0 (xset [1; 2; 3]%Z (repeat 9%Z 16) 11 1); AddError 1 9%Z] in
  exists out, call_succeeded (fst s) (obj s 1) (fl_encrypt xgcm xrand (xreg 16) noh (fst s) (obj s 1)) out /\
              call_succeeded (fst s) (obj s 2) (fl_encrypt xgcm xrand (xreg 16) noh (fst s) (obj s 2)) out.
Proof. eexists. split; vm_compute; repeat split; reflexivity. Qed.

Definition fl_summary := (C121_round_trip, C121_authenticated, C121_hctr, C121_ocfb, C121_unknown, C121_ocfb_decrypt_twice_refuted, C122_reports, C122_panicking_handler_refuted,
  (C123_errors_do_not_stop, C123_bad_text_keeps_data, C124_option_stored, C124_options_isolated, C124_package_chains_share_refuted, C125_errors_stay, C125_errors_isolated, C125_forked_errors_refuted)).
Print Assumptions fl_summary.
