(** Round trips of the paddings and modes as the chained API calls them. *)
From Verif Require Import Base PaddingModel PaddingProps BlockModeModel BlockModeSpec BlockModeProofs BlockModeProps StreamModel StreamSpec StreamProps
  FeedbackModel FeedbackSpec FeedbackProps AeadSpec SivModel CcmModel CcmProps HctrModel HctrProps FernetSpec FlModel FlSpec.
Set Implicit Arguments. Unset Strict Implicit.
Local Open Scope nat_scope.

Lemma mod_of_div b (l : bytes) : 0 < b -> (Z.of_nat b | zlen l)%Z -> length l mod b = 0.
Proof.
  intros Hb D. apply Z.mod_divide in D; [|lia]. unfold zlen in D. rewrite <- Nat2Z.inj_mod in D. lia.
Qed.
Lemma run_one {S} (call : S -> bytes * bytes -> res (S * bytes)) st x st' outs :
  run_calls call st [x] = Ok (st', outs) -> exists o, call st x = Ok (st', o) /\ outs = [o].
Proof.
  cbn [run_calls]. destruct (call st x) as [[s1 o]| |]; cbn [rbind]; try discriminate. intros E. injection E as <- <-. eauto.
Qed.
Lemma one_call {S} (call : S -> bytes * bytes -> res (S * bytes)) st x st' outs :
  run_calls call st [(repeat 0%Z (length x), x)] = Ok (st', outs) -> one call st x = Ok (concat outs).
Proof. intros E. destruct (run_one E) as (o & Ec & ->). unfold one. rewrite Ec. cbn. now rewrite app_nil_r. Qed.

Lemma zeros_ok n : bytes_ok (repeat 0%Z n).
Proof. apply bytes_ok_repeat. cbv. split; [discriminate|reflexivity]. Qed.

(** block modes *)
Lemma block_one c (HL : lawful c) {S T} (ecall : S -> bytes * bytes -> res (S * bytes)) (dcall : T -> bytes * bytes -> res (T * bytes)) se sd x
  (spec : list bytes -> list bytes -> Prop) :
  mode_roundtrip (bsz c) ecall dcall se sd -> mode_computes (bsz c) ecall se spec ->
  (forall ps cs, Forall (isblock (bsz c)) ps -> spec ps cs -> Forall (isblock (bsz c)) cs) ->
  bytes_ok x -> length x mod bsz c = 0 ->
  exists e, one ecall se x = Ok e /\ length e = length x /\ one dcall sd e = Ok x.
Proof.
  intros R C B Ox Al. assert (K : Forall (call_ok (bsz c)) [(repeat 0%Z (length x), x)]).
  { constructor; [|constructor]. split; [split; auto|]. cbn [fst snd]. rewrite repeat_length. lia. }
  destruct (R _ K) as (se' & outs & E & L & D). cbn [map snd concat] in L. rewrite app_nil_r in L.
  pose proof (one_call E) as E1. exists (concat outs). split; [exact E1|]. split; [exact L|].
  pose proof (C _ _ _ K E) as Sp. cbn [map snd concat] in Sp. rewrite app_nil_r in Sp.
  assert (Hp : 0 < bsz c) by apply HL.
  assert (Bl : Forall (isblock (bsz c)) (chunks (bsz c) (concat outs))).
  { eapply B; [|exact Sp]. apply chunks_isblock; auto. split; auto. }
  destruct (@concat_isblock _ _ Hp Bl) as [[Ob _] _]. rewrite chunks_concat in Ob by auto.
  destruct (D [(repeat 0%Z (length (concat outs)), concat outs)]) as (sd' & ps & Ed & Ep).
  { constructor; [|constructor]. split; [split; auto|]. { unfold aligned. cbn [fst snd]. now rewrite L. } cbn [fst snd]. rewrite repeat_length. lia. }
  { cbn [map snd concat]. now rewrite app_nil_r. }
  rewrite (one_call Ed), Ep. cbn [map snd concat]. now rewrite app_nil_r.
Qed.
Lemma Forall_nth' {A} (P : A -> Prop) d l : (forall i, i < length l -> P (nth i l d)) -> Forall P l.
Proof. intros H. apply Forall_forall. intros x I. destruct (In_nth _ _ d I) as (i & Hi & <-). auto. Qed.
Lemma nth_Forall {A} (P : A -> Prop) d l i : Forall P l -> i < length l -> P (nth i l d).
Proof. intros H Hi. rewrite Forall_forall in H. apply H. now apply nth_In. Qed.
Lemma ecb_bl c : lawful c -> forall ps cs, Forall (isblock (bsz c)) ps -> ecb_spec (enc c) ps cs -> Forall (isblock (bsz c)) cs.
Proof. intros HL ps cs F ->. apply Forall_map. eapply Forall_impl; [|exact F]. intros. now apply HL. Qed.
Lemma bc_bl c iv : lawful c -> isblock (bsz c) iv ->
  forall ps cs, Forall (isblock (bsz c)) ps -> bc_spec (enc c) iv ps cs -> Forall (isblock (bsz c)) cs.
Proof.
  intros HL Hiv ps cs F (L & R). assert (G : forall n i, i < n -> i < length cs -> isblock (bsz c) (nth i cs [])).
  { induction n as [|n IH]; intros i Hn Hi; [lia|]. rewrite R by lia. apply HL. apply isblock_xorl; [apply nth_Forall; auto; lia|].
    assert (Q : Forall (isblock (bsz c)) (firstn i cs)).
    { apply Forall_nth' with (d := []). intros j Hj. rewrite firstn_length in Hj. rewrite <- (firstn_skipn i cs) in IH.
      specialize (IH j ltac:(lia) ltac:(rewrite firstn_skipn; lia)). rewrite app_nth1 in IH by (rewrite firstn_length; lia). exact IH. }
    revert Q. generalize (firstn i cs). intros l. revert Hiv. clear. revert iv. induction l as [|a l IHl]; intros iv Hiv Q; cbn; [auto|].
    apply Forall_cons_iff in Q as [Qa Ql]. apply IHl; auto. now apply isblock_xorl. }
  apply Forall_nth' with (d := []). intros i Hi. apply G with (n := S i); auto; lia.
Qed.
Lemma pcbc_bl c iv : lawful c -> isblock (bsz c) iv ->
  forall ps cs, Forall (isblock (bsz c)) ps -> pcbc_spec (enc c) iv ps cs -> Forall (isblock (bsz c)) cs.
Proof.
  intros HL Hiv ps cs F (L & R). apply Forall_nth' with (d := []).
  induction i as [|i IH]; intros Hi; rewrite R by lia; apply HL; apply isblock_xorl; auto; try (apply nth_Forall; auto; lia).
  apply isblock_xorl; [apply nth_Forall; auto; lia|apply IH; lia].
Qed.

(** CBC of the standard library *)
Lemma cbc_blocks c : lawful c -> forall ps iv, isblock (bsz c) iv -> Forall (isblock (bsz c)) ps ->
  Forall (isblock (bsz c)) (cbc_enc (enc c) iv ps) /\ length (cbc_enc (enc c) iv ps) = length ps /\ cbc_dec (dec c) iv (cbc_enc (enc c) iv ps) = ps.
Proof.
  intros HL. induction ps as [|p ps IH]; intros iv Hiv F; [repeat split; constructor|].
  apply Forall_cons_iff in F as [Fp F]. assert (Be : isblock (bsz c) (enc c (xorl p iv))) by (apply HL; now apply isblock_xorl).
  destruct (IH _ Be F) as (A & B & C). cbn [cbc_enc cbc_dec length]. split; [constructor; auto|]. split; [now rewrite B|].
  rewrite C. f_equal. rewrite (law_inv HL) by (now apply isblock_xorl). apply xorl_cancel_r. destruct Fp, Hiv. lia.
Qed.
Lemma concat_len bs (l : list bytes) : Forall (isblock bs) l -> length (concat l) = bs * length l.
Proof. induction 1 as [|x l [Hx _] _ IH]; cbn; [lia|]. rewrite app_length, IH, Hx. lia. Qed.
Lemma cbc_one c iv x : lawful c -> isblock (bsz c) iv -> bytes_ok x -> length x mod bsz c = 0 ->
  exists e, go_cbc cbc_enc (enc c) c iv x = Ok e /\ length e = length x /\ go_cbc cbc_dec (dec c) c iv e = Ok x.
Proof.
  intros HL Hiv Ox Al. pose proof (law_pos HL) as Hp. unfold go_cbc. rewrite Al. cbn [Nat.eqb]. eexists. split; [reflexivity|].
  assert (Fx : Forall (isblock (bsz c)) (chunks (bsz c) x)) by (apply chunks_isblock; auto; split; auto).
  destruct (cbc_blocks HL Hiv Fx) as (A & B & C).
  assert (L : length (concat (cbc_enc (enc c) iv (chunks (bsz c) x))) = length x).
  { rewrite (concat_len A), B, <- (concat_len Fx). now rewrite chunks_concat. }
  split; [exact L|]. rewrite L, Al. cbn [Nat.eqb]. destruct (@concat_isblock _ _ Hp A) as [_ ->]. rewrite C. now rewrite chunks_concat.
Qed.

(** stream modes *)
Lemma stream_one {S T} (ecall : S -> bytes * bytes -> res (S * bytes)) (dcall : T -> bytes * bytes -> res (T * bytes)) se sd x :
  stream_roundtrip ecall dcall se sd -> exists e, one ecall se x = Ok e /\ length e = length x /\ one dcall sd e = Ok x.
Proof.
  intros R. assert (K : forall y : bytes, Forall scall_ok [(repeat 0%Z (length y), y)]).
  { intros y. constructor; [|constructor]. unfold scall_ok. cbn [fst snd]. rewrite repeat_length. lia. }
  destruct (R _ (K x)) as (se' & outs & E & L & D). cbn [map snd concat] in L. rewrite app_nil_r in L.
  exists (concat outs). split; [exact (one_call E)|]. split; [exact L|].
  destruct (D _ (K (concat outs))) as (sd' & ps & Ed & Ep). { cbn [map snd concat]. now rewrite app_nil_r. }
  rewrite (one_call Ed), Ep. cbn [map snd concat]. now rewrite app_nil_r.
Qed.
Lemma cfb1_one c iv x : 0 < bsz c -> isblock (bsz c) iv -> bytes_ok x ->
  exists e, one (cfb1_call c false false) iv x = Ok e /\ length e = length x /\ one (cfb1_call c false true) iv e = Ok x.
Proof.
  intros Hp Hiv Ox. assert (K : forall y, bytes_ok y -> Forall (bcall_ok false) [(repeat 0%Z (length y), y)]).
  { intros y Oy. constructor; [|constructor]. unfold bcall_ok, scall_ok. cbn [fst snd]. rewrite repeat_length.
    split; [lia|]. split; [apply zeros_ok|]. split; [exact Oy|discriminate]. }
  destruct (@C12_cfb1_roundtrip c iv false false _ Hp Hiv (K _ Ox)) as (se & outs & E & L & D). cbn [map snd concat] in L. rewrite app_nil_r in L.
  exists (concat outs). split; [exact (one_call E)|]. split; [exact L|].
  destruct (@C34_cfb1_computes c iv false false Hp Hiv _ (K _ Ox)) as (st & outs' & E' & _ & Ob & _). rewrite E in E'. injection E' as _ <-.
  assert (Oc : bytes_ok (concat outs)). { clear - Ob. induction Ob; cbn; [constructor|]. apply Forall_app; auto. }
  destruct (D _ (K _ Oc)) as (sd & ps & Ed & Ep). { cbn [map snd concat]. now rewrite app_nil_r. }
  rewrite (one_call Ed), Ep. cbn [map snd concat]. now rewrite app_nil_r.
Qed.

(** ** Paddings *)
Section pads.
  Variable rand : nat -> bytes.
  Hypothesis Hr : forall n, length (rand n) = n /\ bytes_ok (rand n).
  Lemma pad_ok p x bs : known_padding p -> 1 <= bs <= 255 -> bytes_ok x ->
    exists y m, fl_pad rand p x bs = Ok y /\ fl_unpad p y = Ok m /\ restored p x m /\
      (p <> 1%Z -> p <> 3%Z -> length y mod bs = 0) /\ (p = 1%Z -> y = x) /\ (p = 3%Z -> length y = (length x / 8 + 1) * 8).
  Proof.
    intros Kp Hb Ox. assert (Hz : (1 <= Z.of_nat bs <= 255)%Z) by lia. assert (Hb0 : 0 < bs) by lia.
    assert (L10 : zlen (rand (bs - length x mod bs - 1)) = (Z.of_nat bs - zlen x mod Z.of_nat bs - 1)%Z).
    { unfold zlen. rewrite (proj1 (Hr _)). pose proof (Nat.mod_upper_bound (length x) bs ltac:(lia)). rewrite <- Nat2Z.inj_mod. lia. }
    unfold known_padding in Kp. cbn [In] in Kp.
    destruct Kp as [<-|[<-|[<-|[<-|[<-|[<-|[<-|[<-|[<-|[<-|[]]]]]]]]]]]; cbn [fl_pad fl_unpad]; unfold restored; cbn [Z.eqb Pos.eqb].
    - exists x, x. repeat split; intros; congruence.
    - destruct (C05_zero_loses_trailing_zeros x (Z.of_nat bs)) as (m & n & E & D & R). exists (zero_pad x (Z.of_nat bs)), m.
      destruct (@C05_zero_roundtrip_iff x (Z.of_nat bs) ltac:(lia)) as [Dv _].
      split; [reflexivity|]. split; [exact E|]. split; [split; [exists n; exact D|exact R]|].
      split; [intros _ _; apply mod_of_div; auto|split; intros H; discriminate].
    - destruct (C03_pkcs5_roundtrip x (Z.of_nat bs)) as [E Dv]. exists (pkcs5_pad x (Z.of_nat bs)), x.
      split; [reflexivity|]. split; [exact E|]. split; [reflexivity|]. split; [intros _ H; congruence|]. split; [intros H; discriminate|]. intros _.
      unfold pkcs5_pad, pad_count, zlen. rewrite app_length, repeat_length. change 8%Z with (Z.of_nat 8). rewrite <- Nat2Z.inj_mod.
      pose proof (Nat.mod_upper_bound (length x) 8 ltac:(lia)). pose proof (Nat.div_mod (length x) 8 ltac:(lia)). lia.
    - destruct (@C01_pkcs7_roundtrip x (Z.of_nat bs) Hz) as [E [Dv _]]. exists (pkcs7_pad x (Z.of_nat bs)), x.
      split; [reflexivity|]. split; [exact E|]. split; [reflexivity|].
      split; [intros _ _; apply mod_of_div; auto|split; intros H; discriminate].
    - destruct (@C03_x923_roundtrip x (Z.of_nat bs) Hz) as [E Dv]. eexists _, x.
      split; [reflexivity|]. split; [exact E|]. split; [reflexivity|].
      split; [intros _ _; apply mod_of_div; auto|split; intros H; discriminate].
    - destruct (@C03_iso10126_roundtrip _ x (Z.of_nat bs) Hz L10) as [E Dv]. eexists _, x.
      split; [reflexivity|]. split; [exact E|]. split; [reflexivity|].
      split; [intros _ _; apply mod_of_div; auto|split; intros H; discriminate].
    - destruct (@C04_iso7816_roundtrip x (Z.of_nat bs) ltac:(lia)) as [E Dv]. eexists _, x.
      split; [reflexivity|]. split; [exact E|]. split; [reflexivity|].
      split; [intros _ _; apply mod_of_div; auto|split; intros H; discriminate].
    - destruct (@C04_iso7816_roundtrip x (Z.of_nat bs) ltac:(lia)) as [E Dv]. eexists _, x.
      split; [reflexivity|]. split; [exact E|]. split; [reflexivity|].
      split; [intros _ _; apply mod_of_div; auto|split; intros H; discriminate].
    - destruct (@C04_iso7816_roundtrip x (Z.of_nat bs) ltac:(lia)) as [E Dv]. eexists _, x.
      split; [reflexivity|]. split; [exact E|]. split; [reflexivity|].
      split; [intros _ _; apply mod_of_div; auto|split; intros H; discriminate].
    - destruct (@C06_tbc_roundtrip x (Z.of_nat bs) Ox ltac:(lia)) as [E Dv]. eexists _, x.
      split; [reflexivity|]. split; [exact E|]. split; [reflexivity|].
      split; [intros _ _; apply mod_of_div; auto|split; intros H; discriminate].
  Qed.
  Lemma to_byte_ok n : is_byte (to_byte n).
  Proof. unfold is_byte, to_byte. apply Z.mod_pos_bound. lia. Qed.
  Lemma splice_ok o d l : bytes_ok d -> bytes_ok l -> bytes_ok (splice o d l).
  Proof.
    intros Hd Hl. unfold splice. apply Forall_app. split; [now apply bytes_ok_firstn|]. apply Forall_app. split; [auto|now apply bytes_ok_skipn].
  Qed.
  Lemma one_byte n : (0 <= n < 256)%Z -> bytes_ok [n].
  Proof. intros H. constructor; [exact H|constructor]. Qed.
  Lemma pad_len p x bs y : 1 <= bs <= 255 -> fl_pad rand p x bs = Ok y -> length y <= length x + 255.
  Proof.
    intros Hb. assert (P8 : Z.to_nat (pad_count x 8) <= 255).
    { unfold pad_count. pose proof (Z.mod_pos_bound (zlen x) 8 ltac:(lia)). lia. }
    assert (P : Z.to_nat (pad_count x (Z.of_nat bs)) <= 255).
    { unfold pad_count. pose proof (Z.mod_pos_bound (zlen x) (Z.of_nat bs) ltac:(lia)). lia. }
    assert (R : length (rand (bs - length x mod bs - 1)) <= 254) by (rewrite (proj1 (Hr _)); lia).
    assert (Sp : forall o (d l : bytes), length (splice o d l) <= Nat.max (length l) (length l + length d)).
    { intros o d l. unfold splice. rewrite !app_length, firstn_length, skipn_length. lia. }
    assert (Px : length (x ++ repeat 0%Z (Z.to_nat (pad_count x (Z.of_nat bs)))) <= length x + 255) by (rewrite app_length, repeat_length; lia).
    unfold fl_pad, zero_pad, pkcs5_pad, pkcs7_pad, x923_pad, iso10126_pad, iso7816_pad, tbc_pad. cbv zeta.
    assert (G : forall b : bytes, Ok b = Ok y -> length b <= length x + 255 -> length y <= length x + 255) by (intros b E O; injection E as <-; exact O).
    assert (Po : 1 <= Z.to_nat (pad_count x (Z.of_nat bs))).
    { unfold pad_count. pose proof (Z.mod_pos_bound (zlen x) (Z.of_nat bs) ltac:(lia)). lia. }
    destruct p as [|p|p]; try discriminate. do 4 (try destruct p as [p|p|]); try discriminate; intros E; apply G in E; auto; try exact E;
      try (destruct (_ <? 1)%Z; [lia|]); rewrite ?splice_length; rewrite ?app_length, ?repeat_length; cbn [length]; try lia.
  Qed.
  Lemma pad_bytes p x bs y : bytes_ok x -> fl_pad rand p x bs = Ok y -> bytes_ok y.
  Proof.
    intros Ox. assert (A : forall n k, bytes_ok (x ++ repeat (to_byte n) k)) by (intros; apply Forall_app; split; auto; apply bytes_ok_repeat, to_byte_ok).
    assert (A0 : forall k, bytes_ok (x ++ repeat 0%Z k)) by (intros; apply Forall_app; split; auto; apply zeros_ok).
    assert (T : forall n, bytes_ok [to_byte n]) by (intros; constructor; [apply to_byte_ok|constructor]).
    unfold fl_pad, zero_pad, pkcs5_pad, pkcs7_pad, x923_pad, iso10126_pad, iso7816_pad, tbc_pad. cbv zeta.
    assert (G : forall b : bytes, Ok b = Ok y -> bytes_ok b -> bytes_ok y) by (intros b E O; injection E as <-; exact O).
    destruct p as [|p|p]; try discriminate. do 4 (try destruct p as [p|p|]); try discriminate; intros E; apply G in E; auto; try exact E;
      try (destruct (_ <? 1)%Z; auto).
    all: try (apply splice_ok; auto; fail).
    all: try (apply splice_ok; auto; apply one_byte; lia).
    all: repeat (apply Forall_app; split; auto); try apply Hr; try apply zeros_ok.
    all: try exact (T _).
    all: apply bytes_ok_repeat; destruct x; [|destruct (negb _)]; split; lia.
  Qed.
End pads.

(** ** Modes without parameters other than the iv *)
Section modes.
  Variable gcm : cipher -> Z -> Z -> res aead.
  Variable rand : nat -> bytes.
  Variable c : cipher.
  Hypotheses (HL : lawful c) (HK : len_ok c) (Hb : bsz c <= 255).
  Lemma plain_mode_ok o x : block_mode (oMode o) \/ stream_mode (oMode o) -> iv_fits (oMode o) (oIv o) (bsz c) -> bytes_ok (oIv o) -> bytes_ok x ->
    (block_mode (oMode o) -> length x mod bsz c = 0) ->
    exists e, fl_mode_enc gcm rand c o x = Ok e /\ length e = length x /\ fl_mode_dec gcm c o e = Ok (x, e).
  Proof.
    destruct o as [key iv m p g]. cbn [oMode oIv]. intros Hm Hi Oi Ox Al. pose proof (law_pos HL) as Hp.
    assert (W : m <> 1%Z -> forall k, with_iv c iv k = k).
    { intros N k. destruct Hi as [|Li]; [congruence|]. unfold with_iv. now rewrite Li, Nat.eqb_refl. }
    assert (Bi : m <> 1%Z -> isblock (bsz c) iv) by (intros N; destruct Hi; [congruence|split; auto]).
    assert (G : forall (re : res bytes) (rd : bytes -> res bytes), (exists e, re = Ok e /\ length e = length x /\ rd e = Ok x) ->
      exists e, re = Ok e /\ length e = length x /\ kept e (rd e) = Ok (x, e)).
    { intros re rd (e & E & L & D). exists e. unfold kept. rewrite D. auto. }
    unfold block_mode, stream_mode in *. cbn [In] in Hm.
    destruct Hm as [[<-|[<-|[<-|[<-|[]]]]]|[<-|[<-|[<-|[<-|[<-|[<-|[<-|[]]]]]]]]]; cbn [fl_mode_enc fl_mode_dec oMode oIv oCfg]; cbv zeta;
      try (specialize (W ltac:(discriminate)); specialize (Bi ltac:(discriminate))).
    - specialize (Al ltac:(cbn; auto)). apply (G _ (fun e => one (mcall c false (ecb_dec_mem c false)) tt e)).
      exact (@block_one c HL _ _ _ _ _ _ x _ (@C08_ecb_roundtrip c false false HL) (@C32_ecb_computes c false HL) (ecb_bl HL) Ox Al).
    - specialize (Al ltac:(cbn; auto)). rewrite W. apply (G _ (fun e => with_iv c iv (go_cbc cbc_dec (dec c) c iv e))).
      destruct (cbc_one HL Bi Ox Al) as (e & E & L & D). exists e. rewrite W. auto.
    - specialize (Al ltac:(cbn; auto)). rewrite W. apply (G _ (fun e => with_iv c iv (one (mcall c false (pcbc_dec_mem c false)) iv e))).
      destruct (@block_one c HL _ _ _ _ _ _ x _ (C08_pcbc_roundtrip HL Bi) (C32_pcbc_computes HL Bi) (pcbc_bl HL Bi) Ox Al) as (e & E & L & D).
      exists e. rewrite W. auto.
    - specialize (Al ltac:(cbn; auto)). rewrite W. apply (G _ (fun e => with_iv c iv (one (mcall c false (bc_dec_mem c false)) iv e))).
      destruct (@block_one c HL _ _ _ _ _ _ x _ (@C08_bc_roundtrip c false false iv HL Bi) (@C32_bc_computes c false iv HL Bi) (bc_bl HL Bi) Ox Al)
        as (e & E & L & D). exists e. rewrite W. auto.
    - rewrite W. apply (G _ (fun e => with_iv c iv (one (cfb_call c true) (cfb_new c iv) e))).
      destruct (stream_one x (@C12_cfb_roundtrip c iv HK (proj1 Bi))) as (e & E & L & D). exists e. rewrite W. auto.
    - rewrite W. apply (G _ (fun e => with_iv c iv (one (cfb1_call c false true) iv e))).
      destruct (cfb1_one Hp Bi Ox) as (e & E & L & D). exists e. rewrite W. auto.
    - rewrite W. apply (G _ (fun e => with_iv c iv (one (cfb8_call c true) iv e))).
      destruct (stream_one x (@C12_cfb8_roundtrip c iv HK (proj1 Bi))) as (e & E & L & D). exists e. rewrite W. auto.
    - rewrite W. apply (G _ (fun e => with_iv c iv (one (cfb_call c true) (cfb_new c iv) e))).
      destruct (stream_one x (@C12_cfb_roundtrip c iv HK (proj1 Bi))) as (e & E & L & D). exists e. rewrite W. auto.
    - rewrite W. apply (G _ (fun e => with_iv c iv (one (ofb_call c) (ofb_new c iv) e))).
      destruct (stream_one x (@C12_ofb_roundtrip c iv HL ltac:(lia) Bi)) as (e & E & L & D). exists e. rewrite W. auto.
    - rewrite W. apply (G _ (fun e => with_iv c iv (one (ofb8_call c) (ofb8_new c iv) e))).
      destruct (stream_one x (@C12_ofb8_roundtrip c iv HL ltac:(lia) Bi)) as (e & E & L & D). exists e. rewrite W. auto.
    - apply (G _ (fun e => new_ctr_xor c iv e)). exists (go_ctr c iv x). unfold new_ctr_xor. rewrite (proj1 Bi), Nat.eqb_refl.
      split; [reflexivity|]. split; [now apply go_ctr_length|]. f_equal. apply go_ctr_inv; auto.
  Qed.
  (** what happens otherwise: the constructor or CryptBlocks panics *)
  Lemma plain_mode_panics o x : block_mode (oMode o) \/ stream_mode (oMode o) ->
    ~ (iv_fits (oMode o) (oIv o) (bsz c) /\ (block_mode (oMode o) -> length x mod bsz c = 0)) -> fl_mode_enc gcm rand c o x = Panic.
  Proof.
    destruct o as [key iv m p g]. cbn [oMode oIv]. intros Hm N.
    assert (W : m <> 1%Z -> forall k, (length iv = bsz c -> k = Panic) -> with_iv c iv k = Panic).
    { intros N1 k Hk. unfold with_iv. destruct (Nat.eqb_spec (length iv) (bsz c)); auto. }
    assert (Al : block_mode m -> iv_fits m iv (bsz c) -> length x mod bsz c <> 0) by (intros B I A; apply N; auto).
    assert (Is : stream_mode m -> ~ block_mode m -> length iv <> bsz c) by (intros B NB I; apply N; split; [right; exact I|intros B'; now apply NB in B']).
    assert (Gd : forall S (ms : S -> buffers -> nat -> res (S * buffers)) st, length x mod bsz c <> 0 -> one (mcall c false ms) st x = Panic).
    { intros S ms st A. unfold one, mcall. cbn [fst snd]. rewrite (@C09_guards c false S ms); [reflexivity|]. auto. }
    unfold block_mode, stream_mode, iv_fits in *. cbn [In] in *.
    destruct Hm as [[<-|[<-|[<-|[<-|[]]]]]|[<-|[<-|[<-|[<-|[<-|[<-|[<-|[]]]]]]]]]; cbn [fl_mode_enc oMode oIv oCfg]; cbv zeta.
    - apply Gd. apply Al; auto.
    - apply W; [discriminate|]. intros I. unfold go_cbc. destruct (Nat.eqb_spec (length x mod bsz c) 0); [|reflexivity]. exfalso. revert e. apply Al; auto.
    - apply W; [discriminate|]. intros I. apply Gd. apply Al; auto.
    - apply W; [discriminate|]. intros I. apply Gd. apply Al; auto 6.
    - apply W; [discriminate|]. intros I. exfalso. revert I. apply Is; [auto 9|intros [|[|[|[|[]]]]]; discriminate].
    - apply W; [discriminate|]. intros I. exfalso. revert I. apply Is; [auto 9|intros [|[|[|[|[]]]]]; discriminate].
    - apply W; [discriminate|]. intros I. exfalso. revert I. apply Is; [auto 9|intros [|[|[|[|[]]]]]; discriminate].
    - apply W; [discriminate|]. intros I. exfalso. revert I. apply Is; [auto 9|intros [|[|[|[|[]]]]]; discriminate].
    - apply W; [discriminate|]. intros I. exfalso. revert I. apply Is; [auto 9|intros [|[|[|[|[]]]]]; discriminate].
    - apply W; [discriminate|]. intros I. exfalso. revert I. apply Is; [auto 9|intros [|[|[|[|[]]]]]; discriminate].
    - unfold new_ctr_xor. destruct (Nat.eqb_spec (length iv) (bsz c)) as [I|]; [|reflexivity]. exfalso. revert I. apply Is; [auto 12|intros [|[|[|[|[]]]]]; discriminate].
  Qed.
End modes.
