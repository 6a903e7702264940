(** Encrypt and Decrypt of the chained API: success, failure and round trips. *)
From Verif Require Import Base PaddingModel BlockModeModel BlockModeSpec StreamModel FeedbackModel FeedbackSpec FeedbackProps AeadSpec SivModel CcmModel CcmProps HctrModel HctrProps
  FernetSpec FlModel FlSpec FlProofs FlProofs2.
Set Implicit Arguments. Unset Strict Implicit.
Local Open Scope nat_scope.

Definition agree (o o' : opts) : Prop :=
  oKey o' = oKey o /\ oIv o' = oIv o /\ oMode o' = oMode o /\ oPad o' = oPad o /\ forall k, cfg_get k (oCfg o') = cfg_get k (oCfg o).
Section agree.
  Variable gcm : cipher -> Z -> Z -> res aead.
  Variable rand : nat -> bytes.
  Lemma agree_enc c o o' x : agree o o' -> block_encrypt gcm rand c o' x = block_encrypt gcm rand c o x.
  Proof.
    intros (_ & A & B & C & D). unfold block_encrypt, fl_mode_enc, fl_gcm, fl_ccm, cfg_int, cfg_bytes, cfg_bool. now rewrite A, B, C, !D.
  Qed.
  Lemma agree_dec c o o' x : agree o o' -> block_decrypt gcm c o' x = block_decrypt gcm c o x.
  Proof.
    intros (_ & A & B & C & D). unfold block_decrypt, fl_mode_dec, fl_gcm, fl_ccm, cfg_int, cfg_bytes, cfg_bool. now rewrite A, B, C, !D.
  Qed.
  (** BlockEncrypt and BlockDecrypt from the padding and the mode *)
  Lemma block_round c o x : rand_ok rand -> bsz c <= 255 -> 0 < bsz c -> known_padding (oPad o) -> bytes_ok x ->
    (oPad o = 3%Z -> ((length x / 8 + 1) * 8) mod bsz c = 0) ->
    exists y m, length y <= length x + 255 /\ bytes_ok y /\ restored (oPad o) x m /\ block_encrypt gcm rand c o x = fl_mode_enc gcm rand c o y /\
      (oPad o <> 1%Z -> length y mod bsz c = 0) /\ (oPad o = 1%Z -> y = x) /\
      (forall e d, fl_mode_dec gcm c o e = Ok (y, d) -> (oPad o <> 1%Z -> length e mod bsz c = 0) -> block_decrypt gcm c o e = Ok (m, d)).
  Proof.
    intros Hr Hb Hp Kp Ox F3. destruct (@pad_ok rand Hr (oPad o) x (bsz c) Kp ltac:(lia) Ox) as (y & m & Ey & Em & Rm & Al & E1 & E3).
    assert (Ay : oPad o <> 1%Z -> length y mod bsz c = 0).
    { intros N. destruct (Z.eq_dec (oPad o) 3) as [E|E]; [rewrite E3 by auto; now apply F3|now apply Al]. }
    exists y, m. split; [eapply (@pad_len rand Hr); [|exact Ey]; lia|]. split; [eapply pad_bytes; eauto|]. split; [exact Rm|]. split; [|split; [exact Ay|split; [exact E1|]]].
    - unfold block_encrypt. rewrite Ey. cbn [rbind]. destruct (Z.eqb_spec (oPad o) 1) as [E|E]; cbn [negb andb]; [reflexivity|].
      rewrite Ay by auto. reflexivity.
    - intros e d Ed Ae. unfold block_decrypt. rewrite Ed. cbn [rbind fst snd]. rewrite Em. cbn [rbind].
      destruct (Z.eqb_spec (oPad o) 1) as [E|E]; cbn [negb andb]; [reflexivity|]. rewrite Ae by auto. reflexivity.
  Qed.
  Lemma plain_block c o x : rand_ok rand -> lawful c -> len_ok c -> bsz c <= 255 -> known_padding (oPad o) -> block_mode (oMode o) \/ stream_mode (oMode o) ->
    bytes_ok x -> bytes_ok (oIv o) ->
    (iv_fits (oMode o) (oIv o) (bsz c) /\ text_fits (oMode o) (oPad o) (length x) (bsz c) ->
     exists e m, block_encrypt gcm rand c o x = Ok e /\ block_decrypt gcm c o e = Ok (m, e) /\ restored (oPad o) x m) /\
    (~ (iv_fits (oMode o) (oIv o) (bsz c) /\ text_fits (oMode o) (oPad o) (length x) (bsz c)) -> forall e, block_encrypt gcm rand c o x <> Ok e).
  Proof.
    intros Hr HL HK Hb Kp Hm Ox Oi. pose proof (law_pos HL) as Hp. split.
    - intros [Fi [F1 F3]]. destruct (@block_round c o x Hr Hb Hp Kp Ox F3) as (y & m & Ly & Oy & Rm & Ee & Ay & E1 & Dd).
      destruct (@plain_mode_ok gcm rand c HL HK Hb o y Hm Fi Oi Oy) as (e & Em & Le & De).
      { intros B. destruct (Z.eq_dec (oPad o) 1) as [E|E]; [rewrite E1 by auto; now apply F1|now apply Ay]. }
      exists e, m. split; [now rewrite Ee|]. split; [|exact Rm]. apply Dd; [exact De|]. intros N. rewrite Le. now apply Ay.
    - intros N e. destruct (Nat.eq_dec (((length x / 8 + 1) * 8) mod bsz c) 0) as [E3|E3].
      + destruct (@block_round c o x Hr Hb Hp Kp Ox (fun _ => E3)) as (y & m & Ly & Oy & Rm & Ee & Ay & E1 & Dd). rewrite Ee.
        rewrite plain_mode_panics; [discriminate|auto|]. intros [Fi Al]. apply N. split; [exact Fi|]. split; [|auto]. intros P B. rewrite <- E1 by auto. now apply Al.
      + destruct (Z.eq_dec (oPad o) 3) as [P|P].
        * destruct (@pad_ok rand Hr (oPad o) x (bsz c) Kp ltac:(lia) Ox) as (y & m & Ey & Em & Rm & Al & E1 & EL).
          unfold block_encrypt. rewrite Ey. cbn [rbind]. rewrite (EL P), P. cbn [Z.eqb Pos.eqb negb andb].
          destruct (Nat.eqb_spec (((length x / 8 + 1) * 8) mod bsz c) 0); [lia|]. discriminate.
        * destruct (@block_round c o x Hr Hb Hp Kp Ox) as (y & m & Ly & Oy & Rm & Ee & Ay & E1 & Dd); [congruence|]. rewrite Ee.
          rewrite plain_mode_panics; [discriminate|auto|]. intros [Fi Al]. apply N. split; [exact Fi|]. split; [|congruence]. intros P1 B. rewrite <- E1 by auto. now apply Al.
  Qed.
  (** an unknown padding or mode *)
  Lemma unknown_padding c o x : ~ known_padding (oPad o) -> (forall e, block_encrypt gcm rand c o x <> Ok e) /\ (forall e, block_decrypt gcm c o x <> Ok e).
  Proof.
    intros N. assert (E : forall z bs, fl_pad rand (oPad o) z bs = Err /\ fl_unpad (oPad o) z = Err).
    { intros z bs. destruct (oPad o) as [|p|p]; try (split; reflexivity). do 4 (try destruct p as [p|p|]); try (split; reflexivity); exfalso; apply N; cbn; auto 12. }
    split; intros e.
    - unfold block_encrypt. rewrite (proj1 (E x (bsz c))). discriminate.
    - unfold block_decrypt. destruct (_ && _)%bool; [discriminate|]. destruct (fl_mode_dec gcm c o x) as [[a b]| |]; cbn [rbind fst snd]; try discriminate.
      rewrite (proj2 (E a 0)). discriminate.
  Qed.
  Lemma unknown_mode c o x : ~ (1 <= oMode o <= 15)%Z -> (forall e, block_encrypt gcm rand c o x <> Ok e) /\ (forall e, block_decrypt gcm c o x <> Ok e).
  Proof.
    intros N. assert (E : forall z, fl_mode_enc gcm rand c o z = Err /\ fl_mode_dec gcm c o z = Err).
    { intros z. unfold fl_mode_enc, fl_mode_dec. destruct (oMode o) as [|m|m]; try (split; reflexivity). do 4 (try destruct m as [m|m|]); try (split; reflexivity); exfalso; apply N; lia. }
    split; intros e.
    - unfold block_encrypt. destruct (fl_pad _ _ _ _); cbn [rbind]; try discriminate. destruct (_ && _)%bool; [discriminate|]. rewrite (proj1 (E _)). discriminate.
    - unfold block_decrypt. destruct (_ && _)%bool; [discriminate|]. rewrite (proj2 (E x)). discriminate.
  Qed.
  (** BlockEncrypt that succeeded *)
  Lemma block_inv c o x e : rand_ok rand -> bsz c <= 255 -> 0 < bsz c -> known_padding (oPad o) -> bytes_ok x -> block_encrypt gcm rand c o x = Ok e ->
    exists y m, length y <= length x + 255 /\ bytes_ok y /\ restored (oPad o) x m /\ fl_mode_enc gcm rand c o y = Ok e /\ (oPad o <> 1%Z -> length y mod bsz c = 0) /\ (oPad o = 1%Z -> y = x) /\
      (forall e' d, fl_mode_dec gcm c o e' = Ok (y, d) -> (oPad o <> 1%Z -> length e' mod bsz c = 0) -> block_decrypt gcm c o e' = Ok (m, d)).
  Proof.
    intros Hr Hb Hp Kp Ox E. assert (F3 : oPad o = 3%Z -> ((length x / 8 + 1) * 8) mod bsz c = 0).
    { intros P. destruct (@pad_ok rand Hr (oPad o) x (bsz c) Kp ltac:(lia) Ox) as (y & m & Ey & Em & Rm & Al & E1 & EL).
      unfold block_encrypt in E. rewrite Ey in E. cbn [rbind] in E. rewrite (EL P), P in E. cbn [Z.eqb Pos.eqb negb andb] in E.
      destruct (Nat.eqb_spec (((length x / 8 + 1) * 8) mod bsz c) 0); [auto|discriminate]. }
    destruct (@block_round c o x Hr Hb Hp Kp Ox F3) as (y & m & Ly & Oy & Rm & Ee & Ay & E1 & Dd). exists y, m. rewrite <- Ee. auto 9.
  Qed.
  Lemma pad_blocks_short c o e : oPad o <> 1%Z -> length e mod bsz c <> 0 -> block_decrypt gcm c o e = Err.
  Proof.
    intros P A. unfold block_decrypt. destruct (Z.eqb_spec (oPad o) 1); [congruence|]. destruct (Nat.eqb_spec (length e mod bsz c) 0); [congruence|]. reflexivity.
  Qed.

  (** GCM and CCM *)
  Definition tag_of (g : cfg) : nat := tag_len (cfg_get TagSize g).
  Lemma int_tag g : (if (0 <? cfg_int TagSize g)%Z then Z.to_nat (cfg_int TagSize g) else 16) = tag_of g.
  Proof. unfold tag_of, tag_len, cfg_int. destruct (cfg_get TagSize g) as [[n|b|b]|]; reflexivity. Qed.
  Lemma gcm_mode c o y e : gcm_lawful gcm -> oMode o = 12%Z -> fl_mode_enc gcm rand c o y = Ok e ->
    length e = length y + tag_of (oCfg o) /\ fl_mode_dec gcm c o e = Ok (y, e).
  Proof.
    intros GL M. unfold fl_mode_enc, fl_mode_dec. rewrite M. cbv zeta. destruct (fl_gcm gcm c (oCfg o)) as [a| |] eqn:Eg; cbn [rbind]; try discriminate.
    intros S. assert (A : aead_ok a (tag_of (oCfg o))).
    { rewrite <- int_tag. unfold fl_gcm in Eg. destruct (Z.ltb_spec 0 (cfg_int TagSize (oCfg o))) as [H|H].
      - apply GL in Eg. cbn [tag_len] in Eg. destruct (Z.ltb_spec 0 (cfg_int TagSize (oCfg o))); [exact Eg|lia].
      - destruct (0 <? cfg_int NonceSize (oCfg o))%Z; apply GL in Eg; exact Eg. }
    destruct (A _ _ _ _ S) as [L D]. rewrite D. auto.
  Qed.
  Lemma ccm_mode c o y e : lawful c -> oMode o = 13%Z -> bytes_ok y -> bytes_ok (oIv o) -> bytes_ok (cfg_bytes Additional (oCfg o)) -> fl_mode_enc gcm rand c o y = Ok e ->
    length e = length y + tag_of (oCfg o) /\ fl_mode_dec gcm c o e = Ok (y, e) /\ bsz c = 16.
  Proof.
    intros HL M Oy Oi Oa. unfold fl_mode_enc, fl_mode_dec. rewrite M. cbv zeta. unfold fl_ccm.
    set (ns := if (0 <? cfg_int NonceSize (oCfg o))%Z then _ else _). set (ts := if (0 <? cfg_int TagSize (oCfg o))%Z then _ else _).
    assert (Hn : (0 <= ns)%Z) by (unfold ns; destruct (Z.ltb_spec 0 (cfg_int NonceSize (oCfg o))); lia).
    assert (Ht : (0 <= ts)%Z) by (unfold ts; destruct (Z.ltb_spec 0 (cfg_int TagSize (oCfg o))); lia).
    assert (Et : Z.to_nat ts = tag_of (oCfg o)). { rewrite <- int_tag. unfold ts. destruct (0 <? cfg_int TagSize (oCfg o))%Z; reflexivity. }
    destruct (ccm_new c ns ts) as [nt| |] eqn:En; cbn [rbind]; try discriminate.
    destruct (@C14_params c ns ts Hn Ht) as [P _]. destruct (P _ En) as (-> & B & Pr). cbn [fst snd] in *. rewrite Et in *.
    intros S. assert (K : ccm_ok (Z.to_nat ns) (tag_of (oCfg o)) (oIv o) y (cfg_bytes Additional (oCfg o))).
    { unfold ccm_seal in S. destruct (Nat.eqb_spec (length (oIv o)) (Z.to_nat ns)) as [Ln|]; cbn [negb] in S; [|discriminate].
      destruct (Z.ltb_spec (ccm_maxlen (Z.to_nat ns) (tag_of (oCfg o))) (Z.of_nat (length y))) as [Q|Q]; [discriminate|].
      split; [split; auto|]. auto. }
    destruct (@C14_opens_what_it_seals c _ _ HL B Pr _ _ _ [] [] K) as (ct & Es & Lc & Ed). rewrite Es in S. injection S as <-. cbn [app] in *. rewrite Ed. cbn. auto.
  Qed.
  Lemma hctr_mode c o y e : lawful c -> bsz c = 16 -> oMode o = 15%Z -> bytes_ok y -> (Z.of_nat (length y) < 2 ^ 60)%Z -> fl_mode_enc gcm rand c o y = Ok e ->
    length e = length y /\ fl_mode_dec gcm c o e = Ok (y, e).
  Proof.
    intros HL B M Oy Ly. unfold fl_mode_enc, fl_mode_dec. rewrite M. cbv zeta.
    destruct (hctr_new c (cfg_bytes Tweak (oCfg o)) (cfg_bytes Hkey (oCfg o))) as [h| |] eqn:En; cbn [rbind]; try discriminate. intros S.
    destruct (@C19_panics c (cfg_bytes Tweak (oCfg o)) (cfg_bytes Hkey (oCfg o))) as [_ P]. destruct (P h (repeat 0%Z (length y)) y En) as [P1 _].
    assert (L16 : 16 <= length y). { destruct (le_lt_dec 16 (length y)); [auto|]. rewrite (proj2 P1) in S by auto. discriminate. }
    destruct (@C19_permutation c _ _ h (repeat 0%Z (length y)) (repeat 0%Z (length y)) y HL B En Oy L16 Ly (repeat_length _ _) (repeat_length _ _)) as [(e' & E & L & O & D) _].
    rewrite E in S. injection S as <-. rewrite L, D. auto.
  Qed.
  Lemma ocfb_mode c o y : rand_ok rand -> len_ok c -> 2 <= bsz c -> oMode o = 8%Z ->
    exists e d, fl_mode_enc gcm rand c o y = Ok e /\ length e = bsz c + 2 + length y /\ fl_mode_dec gcm c o e = Ok (y, d) /\
      firstn (bsz c + 2) d = rand (bsz c) ++ skipn (bsz c - 2) (rand (bsz c)) /\ skipn (bsz c + 2) d = skipn (bsz c + 2) e.
  Proof.
    intros Hr HK H2 M. unfold fl_mode_enc, fl_mode_dec. rewrite M. cbv zeta. destruct (Hr (bsz c)) as [Lr _].
    destruct (@C12_ocfb_roundtrip c (rand (bsz c)) (cfg_bool Resync (oCfg o)) HK H2 Lr) as (se & pre & sd & Ee & Ed & R). rewrite Ee. cbn [rbind fst snd].
    destruct (stream_one y R) as (ct & Ec & Lc & Dc). rewrite Ec. cbn [rbind]. eexists _, _. split; [reflexivity|].
    assert (Lp : length pre = bsz c + 2). { unfold ocfb_dec_new in Ed. destruct (Nat.eqb_spec (length pre) (bsz c + 2)); [auto|discriminate]. }
    split; [rewrite app_length; lia|]. rewrite app_length. destruct (Nat.ltb_spec (length pre + length ct) (bsz c + 2)); [lia|].
    rewrite firstn_app_exact, skipn_app_exact by lia. rewrite Ed. cbn [rbind fst snd]. rewrite Dc. cbn [rbind]. split; [reflexivity|].
    assert (Lq : length (rand (bsz c) ++ skipn (bsz c - 2) (rand (bsz c))) = bsz c + 2) by (rewrite app_length, skipn_length; lia).
    rewrite firstn_app_exact, skipn_app_exact by lia. auto.
  Qed.
End agree.
