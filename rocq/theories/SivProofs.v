(** Proofs for SIV. *)
From Verif Require Import Base BlockModeModel StreamSpec StreamProofs AeadSpec HashSpec ToolBytesModel ToolBytesSpec ToolBytesProofs
  CcmProofs MacModel MacSpec MacProofs MacProps OffsetSpec PmacModel PmacSpec PmacProofs PmacProps SivSpec SivModel.
Set Implicit Arguments. Unset Strict Implicit.
Local Open Scope nat_scope.

(** What s2v needs of the hash object: a Reset brings it back to [st0], and from there it
    computes [f] on messages whose length satisfies [lim]. *)
Record mac_law (o : macobj) (st0 : mo_st o) (f : bytes -> bytes) (lim : nat -> Prop) : Prop := {
  ml_size : forall st, mo_reset st = st0 -> mo_size st = mo_bs o;
  ml_reset : mo_reset st0 = st0;
  ml_write : forall st m st', mo_reset st = st0 -> mo_write st m = Ok st' -> mo_reset st' = st0;
  ml_sum : forall st i, mo_reset st = st0 -> mo_reset (fst (mo_sum st i)) = st0;
  ml_one : forall m, bytes_ok m -> lim (length m) -> exists s, mo_write st0 m = Ok s /\ snd (mo_sum s []) = f m;
  ml_two : forall a b, bytes_ok a -> bytes_ok b -> lim (length (a ++ b)) ->
           exists s s', mo_write st0 a = Ok s /\ mo_write s b = Ok s' /\ snd (mo_sum s' []) = f (a ++ b);
  ml_blk : forall m, bytes_ok m -> isblock (mo_bs o) (f m) }.

Lemma gocopy_all (a b : bytes) : length a = length b -> gocopy a b = b.
Proof. intro H. unfold gocopy. rewrite H, firstn_all, skipn_all2, app_nil_r by lia. reflexivity. Qed.
Lemma xorl_block' n a b : isblock n a -> isblock n b -> isblock n (xorl a b).
Proof. intros [L1 O1] [L2 O2]. split; [rewrite xorl_length; lia|now apply xorl_ok]. Qed.

Lemma ldiff_pow2 N j : (0 <= j)%Z -> Z.ldiff N (2 ^ j) = (N - N / 2 ^ j mod 2 * 2 ^ j)%Z.
Proof.
  intro Hj. rewrite <- Z.testbit_spec' by lia. destruct (Z.testbit N j) eqn:E; cbn [Z.b2z].
  - rewrite Z.mul_1_l, <- Z.sub_nocarry_ldiff; [reflexivity|].
    apply Z.bits_inj'. intros k Hk. rewrite Z.ldiff_spec, Z.bits_0, Z.pow2_bits_eqb by lia.
    destruct (Z.eqb_spec j k) as [<-|]; [now rewrite E|reflexivity].
  - rewrite Z.mul_0_l, Z.sub_0_r. apply Z.bits_inj'. intros k Hk. rewrite Z.ldiff_spec, Z.pow2_bits_eqb by lia.
    destruct (Z.eqb_spec j k) as [<-|]; [now rewrite E|]. cbn [negb]. now rewrite andb_true_r.
Qed.
Lemma skipn_skipn' (l : bytes) a b : skipn a (skipn b l) = skipn (b + a) l.
Proof. revert l. induction b as [|b IH]; intro l; [reflexivity|]. destruct l; [now rewrite !skipn_nil|]. cbn [skipn plus]. apply IH. Qed.
Lemma q_arith u x v y w : is_byte x -> is_byte y -> (0 <= v < 2 ^ 24)%Z -> (0 <= w < 2 ^ 24)%Z ->
  Z.ldiff (u * 2 ^ 64 + (x * 2 ^ 56 + (v * 2 ^ 32 + (y * 2 ^ 24 + w)))) (2 ^ 63 + 2 ^ 31) =
  (u * 2 ^ 64 + (x mod 128 * 2 ^ 56 + (v * 2 ^ 32 + (y mod 128 * 2 ^ 24 + w))))%Z.
Proof.
  intros Hx Hy Hv Hw. change (2 ^ 63 + 2 ^ 31)%Z with (Z.lor (2 ^ 63) (2 ^ 31)). rewrite <- Z.ldiff_ldiff_l, !ldiff_pow2 by lia.
  unfold is_byte in *. set (N := (u * 2 ^ 64 + _)%Z).
  assert (E1 : (N / 2 ^ 63 = 2 * u + x / 128)%Z).
  { symmetry. apply Z.div_unique with (r := (x mod 128 * 2 ^ 56 + (v * 2 ^ 32 + (y * 2 ^ 24 + w)))%Z).
    - left. pose proof (Z.mod_pos_bound x 128). lia.
    - unfold N. pose proof (Z.div_mod x 128). lia. }
  assert (X : (x / 128 = 0 \/ x / 128 = 1)%Z) by lia. assert (Y : (y / 128 = 0 \/ y / 128 = 1)%Z) by lia.
  assert (E2 : (N / 2 ^ 63 mod 2 = x / 128)%Z) by (rewrite E1; symmetry; apply Z.mod_unique with (q := u); lia).
  rewrite E2. set (M := (N - _)%Z).
  assert (E3 : (M / 2 ^ 31 = 2 * (u * 2 ^ 32 + x mod 128 * 2 ^ 24 + v) + y / 128)%Z).
  { symmetry. apply Z.div_unique with (r := (y mod 128 * 2 ^ 24 + w)%Z).
    - left. pose proof (Z.mod_pos_bound y 128). lia.
    - unfold M, N. pose proof (Z.div_mod x 128). pose proof (Z.div_mod y 128). lia. }
  assert (E4 : (M / 2 ^ 31 mod 2 = y / 128)%Z) by (rewrite E3; symmetry; apply Z.mod_unique with (q := (u * 2 ^ 32 + x mod 128 * 2 ^ 24 + v)%Z); lia).
  rewrite E4. unfold M, N. pose proof (Z.div_mod x 128). pose proof (Z.div_mod y 128). lia.
Qed.

Section siv.
  Variable o : macobj.
  Variable st0 : mo_st o.
  Variable f : bytes -> bytes.
  Variable lim : nat -> Prop.
  Variable c2 : cipher.
  Hypothesis ML : mac_law st0 f lim.
  Hypothesis H2 : lawful c2.
  Hypothesis Hn : bsz c2 = mo_bs o.
  Hypothesis H8 : 8 <= mo_bs o.
  Hypothesis Hlim : lim (mo_bs o).
  Let n := mo_bs o.
  Definition dstep (D a : bytes) : bytes := xorl (double n 135 D) (f a).

  Lemma zero_blk : isblock n (repeat 0%Z n).
  Proof. split; [apply repeat_length|apply bytes_ok_repeat; unfold is_byte; lia]. Qed.
  Lemma items_ok : forall s d tmp, Forall bytes_ok s -> Forall (fun a => lim (length a)) s -> isblock n d -> length tmp = n ->
    exists tmp', s2v_items (o := o) st0 d tmp s = Ok (st0, fold_left dstep s d, tmp').
  Proof.
    induction s as [|v s IH]; intros d tmp Ho Hl Hd Ht; [eexists; reflexivity|].
    inversion_clear Ho as [|? ? Hv Hs]. inversion_clear Hl as [|? ? Lv Ls]. cbn [s2v_items fold_left].
    destruct (ml_one ML Hv Lv) as (s1 & W & S). rewrite W. cbn [rbind].
    assert (R1 : mo_reset s1 = st0) by (eapply (ml_write ML); [apply (ml_reset ML)|exact W]).
    pose proof (ml_sum ML [] R1) as R2. destruct (mo_sum s1 []) as [s2 t]. cbn [fst snd] in *. subst t. rewrite R2.
    pose proof (ml_blk ML Hv) as B. fold n in B. rewrite (gocopy_all (a := tmp)) by (rewrite Ht; symmetry; apply B).
    rewrite (@pm_dbl_eq n d Hd ltac:(unfold n; lia)). rewrite gocopy_all.
    - apply IH; auto; [|apply B]. apply xorl_block'; auto. split; [apply double_length|apply double_ok].
    - rewrite double_length, xorl_length, double_length. destruct B as [B _]. lia.
  Qed.
  Lemma fold_blk : forall s d, Forall bytes_ok s -> isblock n d -> isblock n (fold_left dstep s d).
  Proof.
    induction s as [|v s IH]; intros d Ho Hd; [exact Hd|]. inversion_clear Ho as [|? ? Hv Hs]. cbn [fold_left]. apply IH; auto.
    apply xorl_block'; [split; [apply double_length|apply double_ok]|apply (ml_blk ML Hv)].
  Qed.
  Lemma s2v_ok st s sn : mo_reset st = st0 -> Forall bytes_ok s -> Forall (fun a => lim (length a)) s -> bytes_ok sn -> lim (length sn) ->
    exists st', s2v st s sn = Ok (st', s2v_spec n 135 f s sn) /\ mo_reset st' = st0.
  Proof.
    intros Rs Ho Hl Hsn Lsn. unfold s2v, sv_zero. rewrite Rs. fold n.
    destruct zero_blk as [Z1 Z2].
    destruct (ml_one ML Z2) as (s1 & W & S); [rewrite Z1; exact Hlim|]. rewrite W. cbn [rbind].
    assert (R1 : mo_reset s1 = st0) by (eapply (ml_write ML); [apply (ml_reset ML)|exact W]).
    pose proof (ml_sum ML [] R1) as R2. destruct (mo_sum s1 []) as [s2 t]. cbn [fst snd] in *. subst t. rewrite R2.
    pose proof (ml_blk ML Z2) as B. fold n in B. rewrite gocopy_all by (rewrite Z1; symmetry; apply B).
    destruct (@items_ok s (f (repeat 0%Z n)) (repeat 0%Z n) Ho Hl B Z1) as [tmp' E]. rewrite E. cbn [rbind]. clear E tmp'.
    unfold s2v_spec. change (fun D a => xorl (double n 135 D) (f a)) with dstep.
    pose proof (fold_blk Ho B) as BD. set (D := fold_left dstep s (f (repeat 0%Z n))) in *. clearbody D.
    destruct BD as [LD OD].
    destruct (Nat.leb_spec n (length sn)) as [Hle|Hlt].
    - rewrite LD. rewrite gocopy_all by (rewrite Z1, skipn_length; lia).
      assert (Ea : lim (length (firstn (length sn - n) sn ++ xorl (skipn (length sn - n) sn) D))).
      { rewrite app_length, xorl_length, firstn_length, skipn_length, LD.
        replace (Nat.min (length sn - n) (length sn) + Nat.min (length sn - (length sn - n)) n) with (length sn) by lia. exact Lsn. }
      destruct (ml_two ML (bytes_ok_firstn (length sn - n) Hsn) (xorl_ok (bytes_ok_skipn (length sn - n) Hsn) OD) Ea) as (a1 & a2 & W1 & W2 & S2).
      rewrite W1. cbn [rbind]. rewrite gocopy_all by (rewrite xorl_length, skipn_length; lia). rewrite W2. cbn [rbind].
      eexists. unfold xor_end. rewrite LD. split.
      + rewrite <- S2. rewrite <- surjective_pairing. reflexivity.
      + apply (ml_sum ML). eapply (ml_write ML); [|exact W2]. eapply (ml_write ML); [|exact W1]. apply (ml_reset ML).
    - cbn [rbind]. rewrite (@pm_dbl_eq n D (conj LD OD) ltac:(unfold n; lia)).
      assert (Ep : splice (length sn) [128%Z] (gocopy (repeat 0%Z n) sn) = pad2 n sn).
      { rewrite gocopy0 by lia.
        unfold splice, pad2. rewrite firstn_app_exact by lia. f_equal. cbn [length app].
        rewrite Nat.mod_small by lia. f_equal. 
        replace (n - length sn) with (1 + (n - 1 - length sn)) by lia. rewrite repeat_app, app_assoc.
        apply skipn_app_exact. rewrite app_length, repeat_length. lia. }
      rewrite Ep. assert (Lp : length (pad2 n sn) = n).
      { unfold pad2. rewrite app_length. cbn [length]. rewrite repeat_length, Nat.mod_small by lia. lia. }
      rewrite gocopy_all by (rewrite xorl_length, Lp, double_length; lia).
      assert (Op : bytes_ok (xorl (double n 135 D) (pad2 n sn))).
      { apply xorl_ok; [apply double_ok|apply pad2_ok; exact Hsn]. }
      rewrite xorl_comm. destruct (ml_one ML Op) as (a1 & W1 & S1).
      { rewrite xorl_length, Lp, double_length, Nat.min_id. exact Hlim. }
      rewrite W1. cbn [rbind]. eexists. split.
      + rewrite <- S1. rewrite <- surjective_pairing. reflexivity.
      + apply (ml_sum ML). eapply (ml_write ML); [|exact W1]. apply (ml_reset ML).
  Qed.
  Lemma s2v_blk s sn : Forall bytes_ok s -> bytes_ok sn -> isblock n (s2v_spec n 135 f s sn).
  Proof.
    intros Ho Hsn. unfold s2v_spec. apply (ml_blk ML). change (fun D a => xorl (double n 135 D) (f a)) with dstep.
    destruct (fold_blk Ho (ml_blk ML (proj2 zero_blk))) as [LD OD].
    destruct (n <=? length sn).
    - unfold xor_end. apply bytes_ok_app. split; [now apply bytes_ok_firstn|]. apply xorl_ok; auto. now apply bytes_ok_skipn.
    - apply xorl_ok; [apply double_ok|apply pad2_ok; exact Hsn].
  Qed.

  (** zeroIVBits *)
  Lemma new_ctr_ok iv src : length iv = n -> new_ctr_xor c2 iv src = Ok (go_ctr c2 iv src).
  Proof. intro H. unfold new_ctr_xor. rewrite Hn, H. fold n. now rewrite Nat.eqb_refl. Qed.
  Lemma and7f_val a x b : bytes_ok a -> bytes_ok b -> is_byte x ->
    and7f (length a) (a ++ x :: b) = a ++ (x mod 128)%Z :: b.
  Proof.
    intros Oa Ob Ox. unfold and7f, splice. rewrite nth_middle, firstn_app_exact by auto. f_equal. cbn [app length]. f_equal.
    - change 127%Z with (Z.ones 7). now rewrite Z.land_ones by lia.
    - replace (length a + 1) with (S (length a)) by lia. change (x :: b) with ([x] ++ b). rewrite app_assoc.
      apply skipn_app_exact. rewrite app_length. cbn. lia.
  Qed.
  Lemma zero_iv_ok V : isblock n V -> zero_iv_bits V = Ok (siv_q V).
  Proof.
    intros [LV OV]. unfold zero_iv_bits. destruct (Nat.ltb_spec (length V) 8) as [H|_]; [unfold n in *; lia|]. f_equal.
    assert (E : exists a x b y d, V = a ++ x :: b ++ y :: d /\ length b = 3 /\ length d = 3).
    { exists (firstn (length V - 8) V), (nth (length V - 8) V 0%Z), (firstn 3 (skipn (length V - 7) V)), (nth (length V - 4) V 0%Z), (skipn (length V - 3) V).
      assert (S1 : forall k (l : bytes), k < length l -> skipn k l = nth k l 0%Z :: skipn (S k) l).
      { induction k as [|k IH]; intros [|z l] Hk; cbn in Hk; try lia; [reflexivity|]. cbn [skipn nth]. apply IH. lia. }
      rewrite firstn_length, !skipn_length. split; [|unfold n in *; lia].
      rewrite <- (firstn_skipn (length V - 8) V) at 1. f_equal. rewrite (S1 (length V - 8) V) by (unfold n in *; lia). f_equal.
      replace (S (length V - 8)) with (length V - 7) by (unfold n in *; lia).
      rewrite <- (firstn_skipn 3 (skipn (length V - 7) V)) at 1. f_equal. rewrite skipn_skipn'.
      replace (length V - 7 + 3) with (length V - 4) by (unfold n in *; lia).
      rewrite (S1 (length V - 4) V) by (unfold n in *; lia). f_equal. f_equal. unfold n in *; lia. }
    destruct E as (a & x & b & y & d & -> & Lb & Ld). rewrite !app_length in *. cbn [length] in *. rewrite app_length in *. cbn [length] in *.
    replace (length a + S (length b + S (length d)) - 8) with (length a) by lia.
    apply Forall_app in OV. destruct OV as [Oa O1]. inversion O1 as [|? ? Ox O2]; subst. apply Forall_app in O2. destruct O2 as [Ob O3].
    inversion O3 as [|? ? Oy Od]; subst.
    assert (Om : forall z, is_byte z -> is_byte (z mod 128)) by (intros z _; unfold is_byte; pose proof (Z.mod_pos_bound z 128); lia).
    rewrite and7f_val; auto; [|apply Forall_app; split; auto].
    replace (length a + S (length b + S (length d)) - 4) with (length (a ++ (x mod 128)%Z :: b)) by (rewrite app_length; cbn [length]; lia).
    replace (a ++ (x mod 128)%Z :: b ++ y :: d) with ((a ++ (x mod 128)%Z :: b) ++ y :: d) by (rewrite <- app_assoc; reflexivity).
    rewrite and7f_val; auto; [|apply Forall_app; split; auto].
    unfold siv_q. rewrite <- app_assoc. cbn [app]. set (r := a ++ (x mod 128)%Z :: b ++ (y mod 128)%Z :: d).
    assert (Or : bytes_ok r).
    { unfold r. apply Forall_app; split; auto. constructor; auto. apply Forall_app; split; auto. }
    assert (Lr : length r = length (a ++ x :: b ++ y :: d)).
    { unfold r. rewrite !app_length. cbn [length]. rewrite !app_length. reflexivity. }
    rewrite <- Lr. transitivity (be_bytes (length r) (be_val r)); [symmetry; now apply be_bytes_val|]. f_equal. unfold r.
    rewrite !be_val_app', !be_val_cons, !be_val_app', !be_val_cons. cbn [length]. rewrite !app_length. cbn [length]. rewrite Lb, Ld.
    assert (Bd := be_val_bound Od). assert (Bb := be_val_bound Ob). rewrite Ld in Bd. rewrite Lb in Bb.
    change (256 ^ Z.of_nat 3)%Z with (2 ^ 24)%Z in *. change (256 ^ Z.of_nat (3 + 4))%Z with (2 ^ 56)%Z. change (256 ^ Z.of_nat 4)%Z with (2 ^ 32)%Z.
    change (256 ^ Z.of_nat (S (3 + 4)))%Z with (2 ^ 64)%Z.
    symmetry. rewrite q_arith; auto.
  Qed.

  Lemma spec_parts s pt V ct : Forall bytes_ok s -> bytes_ok pt -> length V = n ->
    V ++ ct = siv_spec 135 f c2 s pt -> V = s2v_spec n 135 f s pt /\ ct = go_ctr c2 (siv_q V) pt.
  Proof.
    intros Hs Hp LV E. unfold siv_spec in E. rewrite Hn in E. fold n in E. destruct (s2v_blk Hs Hp) as [L _].
    assert (EV : V = s2v_spec n 135 f s pt).
    { apply (f_equal (firstn n)) in E. rewrite !firstn_app_exact in E by auto. exact E. }
    split; auto. rewrite <- EV in E. now apply app_inv_head in E.
  Qed.
  Definition call_ok (k : siv_call) : Prop :=
    match k with CSeal dst m data | COpen dst m data =>
      bytes_ok m /\ Forall bytes_ok data /\ lim (length m) /\ Forall (fun a => lim (length a)) data end.
  Hypothesis Hmono : forall a b, a <= b -> lim b -> lim a.

  Lemma step_ok st k : mo_reset st = st0 -> call_ok k ->
    siv_answer 135 f c2 k (snd (siv_step c2 st k)) /\ mo_reset (fst (siv_step c2 st k)) = st0.
  Proof.
    intros Rs Hk. destruct k as [dst pt data|dst ct data]; cbn [siv_step call_ok siv_answer] in *; destruct Hk as (Om & Od & Lm & Ld).
    - unfold siv_seal. destruct (Nat.ltb_spec 126 (length data)) as [H|H], (Nat.leb_spec (length data) 126) as [H'|H']; try lia; [split; auto|].
      destruct (s2v_ok Rs Od Ld Om Lm) as (st' & E & R'). rewrite E. cbn [fst snd]. split; [|exact R'].
      rewrite (zero_iv_ok (s2v_blk Od Om)). cbn [rbind]. rewrite new_ctr_ok; [|unfold siv_q; rewrite be_bytes_length; apply (s2v_blk Od Om)].
      cbn [rbind]. unfold siv_spec. now rewrite Hn.
    - unfold siv_open. destruct (Nat.ltb_spec 126 (length data)) as [H|H]; [cbn [fst snd]; split; auto|].
      rewrite (ml_size ML Rs). fold n. destruct (Nat.ltb_spec (length ct) n) as [H1|H1].
      { cbn [fst snd]. split; auto. right. intros pt Op E. apply (f_equal (@length Z)) in E. unfold siv_spec in E.
        rewrite app_length, Hn in E. fold n in E. destruct (s2v_blk Od Op) as [L _]. lia. }
      assert (BV : isblock n (firstn n ct)) by (split; [rewrite firstn_length; lia|now apply bytes_ok_firstn]).
      rewrite (zero_iv_ok BV). cbn [rbind]. rewrite new_ctr_ok by (unfold siv_q; rewrite be_bytes_length; apply BV).
      set (pt := go_ctr c2 (siv_q (firstn n ct)) (skipn n ct)).
      assert (Op : bytes_ok pt) by (apply go_ctr_ok; auto; now apply bytes_ok_skipn).
      assert (Lp : lim (length pt)).
      { eapply Hmono; [|exact Lm]. unfold pt. rewrite go_ctr_length by auto. rewrite skipn_length. lia. }
      destruct (s2v_ok Rs Od Ld Op Lp) as (st' & E & R'). rewrite E. cbn [fst snd]. split; [|exact R'].
      destruct (bytes_eqb (firstn n ct) (s2v_spec n 135 f data pt)) eqn:Eb.
      + apply bytes_eqb_eq in Eb. split; auto. exists pt. split; auto. unfold siv_spec. rewrite Hn. fold n. rewrite <- Eb.
        unfold pt. rewrite go_ctr_inv by auto. symmetry. apply firstn_skipn.
      + right. intros pt' Op' E'. assert (E2 := E'). rewrite <- (firstn_skipn n ct) in E2.
        apply spec_parts in E2 as [E3 E4]; auto; [|apply BV].
        assert (Ep : pt = pt') by (unfold pt; rewrite E4, go_ctr_inv by auto; reflexivity).
        rewrite Ep in Eb. rewrite E3, bytes_eqb_refl in Eb. discriminate.
  Qed.
  Lemma run_ok : forall ks st, mo_reset st = st0 -> Forall call_ok ks -> Forall2 (siv_answer 135 f c2) ks (siv_run c2 st ks).
  Proof.
    induction ks as [|k ks IH]; intros st Rs Hk; [constructor|]. inversion_clear Hk as [|? ? H1 H2']. cbn [siv_run].
    destruct (step_ok Rs H1) as [A R]. destruct (siv_step c2 st k) as [st' x]. cbn [fst snd] in *. constructor; auto.
  Qed.
  Lemma inplace_ok st pt data : mo_reset st = st0 -> call_ok (CSeal [] pt data) -> length data <= 126 ->
    snd (siv_seal_inplace c2 st pt data) =
    if n <? length pt then Panic
    else let V := s2v_spec n 135 f data pt in Ok (V ++ go_ctr c2 (siv_q V) (firstn (length pt) V)).
  Proof.
    intros Rs (Om & Od & Lm & Ld) H. unfold siv_seal_inplace. destruct (Nat.ltb_spec 126 (length data)); [lia|].
    destruct (s2v_ok Rs Od Ld Om Lm) as (st' & E & R'). rewrite E. cbn [snd]. destruct (s2v_blk Od Om) as [LV OV].
    rewrite (zero_iv_ok (conj LV OV)). cbn [rbind]. rewrite LV. destruct (n <? length pt); [reflexivity|].
    rewrite new_ctr_ok by (unfold siv_q; now rewrite be_bytes_length). reflexivity.
  Qed.
End siv.

(** ** The two MAC objects *)
Lemma hcmac_write_keys c d m : hcmac_reset c (hcmac_write c d m) = hcmac_reset c d.
Proof.
  assert (T : forall d m, hcmac_reset c (hcmac_write_tail c d m) = hcmac_reset c d).
  { clear. intros d m. unfold hcmac_write_tail.
    destruct (bsz c <? length m); cbn zeta.
    - match goal with |- context [if ?b then _ else _] => destruct b end; reflexivity.
    - destruct (0 <? length m); reflexivity. }
  unfold hcmac_write. cbn zeta. destruct (0 <? cm_off d); [|apply T]. destruct (bsz c - cm_off d <? length m); [|reflexivity].
  rewrite T. reflexivity.
Qed.
Lemma cmac_full_blk c p m : lawful c -> bytes_ok m -> isblock (bsz c) (cmac_full (bsz c) p (enc c) m).
Proof.
  intros HL Hm. set (n := bsz c). pose proof (law_pos HL) as Hp.
  destruct m as [|x m'].
  - unfold cmac_full. cbn [length negb andb Nat.eqb]. 
    set (K := double n p _). assert (Lp : length (pad2 n []) = n) by (unfold pad2; cbn [app length]; rewrite repeat_length, Nat.mod_0_l by lia; unfold n; lia).
    set (y := xor_end (pad2 n []) K). assert (Ly : isblock n y).
    { unfold y, xor_end, K. rewrite double_length, Lp, Nat.sub_diag. cbn [firstn skipn app].
      apply xorl_block'; split; auto; [apply pad2_ok; constructor|apply double_length|apply double_ok]. }
    assert (Ey : chunks n y = [y]).
    { destruct Ly as [Ly _]. rewrite chunks_cons; [|exact Hp|intro E0; rewrite E0 in Ly; cbn in Ly; unfold n in Ly; lia].
      rewrite firstn_all2, skipn_all2 by lia. reflexivity. }
    rewrite Ey. unfold chain. cbn [fold_left]. apply (law_enc HL). apply xorl_block'; auto.
    split; [apply repeat_length|apply bytes_ok_repeat; unfold is_byte; lia].
  - set (m := x :: m') in *. destruct (@decompose n m Hp ltac:(discriminate)) as (bl & tail & E & A & L). rewrite E in *.
    apply bytes_ok_app in Hm as [Ob Ot]. apply bytes_ok_concat in Ob. unfold all_len in A.
    assert (B : Forall (isblock n) bl) by (rewrite Forall_forall in *; intros y Hy; split; auto).
    unfold n in *. rewrite (cmac_full_decomp HL p A L). apply (law_enc HL). apply xorl_block.
    + apply (chain_block HL); auto. apply zeros_block.
    + destruct (Nat.eqb_spec (length tail) (bsz c)).
      * apply xorl_block; [split; auto|apply double_block].
      * apply xorl_block; [|apply double_block]. split; [|now apply pad2_ok]. unfold pad2. rewrite app_length. cbn [length].
        rewrite repeat_length, Nat.mod_small by lia. lia.
Qed.
Lemma cmac_law c d : lawful c -> siv_new_cmac c = Ok d ->
  mac_law (o := cmac_obj c) d (cmac_full (bsz c) (used_poly (bsz c)) (enc c)) (fun _ => True).
Proof.
  intros HL Hd. unfold siv_new_cmac in Hd.
  assert (Ed : hcmac_reset c d = d /\ cm_tag d = bsz c).
  { unfold hcmac_new in Hd. destruct (bad_size _ _); [discriminate|]. destruct (hcmac_poly _); [|discriminate].
    injection Hd as <-. unfold hcmac_reset, with_buf. cbn [cm_k0 cm_k1 cm_tag cm_buf]. split; [reflexivity|apply Nat2Z.id]. }
  destruct Ed as [E1 E2].
  assert (F : forall m, bytes_ok m -> firstn (Z.to_nat (Z.of_nat (bsz c))) (cmac_full (bsz c) (used_poly (bsz c)) (enc c) m) = cmac_full (bsz c) (used_poly (bsz c)) (enc c) m).
  { intros m Hm. apply firstn_all2. rewrite Nat2Z.id. destruct (cmac_full_blk (used_poly (bsz c)) HL Hm). lia. }
  constructor; cbn [mo_st mo_write mo_sum mo_reset mo_bs mo_size cmac_obj fst snd].
  - intros st Hr. rewrite <- E2, <- Hr. reflexivity.
  - exact E1.
  - intros st m st' Hr [= <-]. now rewrite hcmac_write_keys.
  - intros st i Hr. exact Hr.
  - intros m Hm _. eexists. split; [reflexivity|].
    pose proof (@C20_streaming c _ d [HWrite m; HSum []] HL Hd ltac:(repeat constructor; exact Hm)) as S.
    unfold hcmac_run in S. cbn [hrun expected app] in S. injection S as S. rewrite S. now apply F.
  - intros a b Ha Hb _. do 2 eexists. split; [reflexivity|]. split; [reflexivity|].
    pose proof (@C20_streaming c _ d [HWrite a; HWrite b; HSum []] HL Hd ltac:(repeat constructor; auto)) as S.
    unfold hcmac_run in S. cbn [hrun expected app] in S. injection S as S. rewrite S. apply F. now apply bytes_ok_app.
  - intros m Hm. now apply cmac_full_blk.
Qed.

Lemma pm_process_keys c d d' : pm_process c d = Ok d' -> pmac_reset c d' = pmac_reset c d.
Proof. unfold pm_process. destruct (nth_error _ _); [|discriminate]. intros [= <-]. reflexivity. Qed.
Lemma pm_loop_keys c : forall fuel d m d' m', pm_loop fuel c d m = Ok (d', m') -> pmac_reset c d' = pmac_reset c d.
Proof.
  induction fuel as [|fuel IH]; intros d m d' m' H; cbn [pm_loop] in H; [injection H as <- <-; reflexivity|].
  destruct (bsz c <? length m); [|injection H as <- <-; reflexivity].
  match type of H with rbind ?x _ = _ => destruct x as [e| |] eqn:E; cbn [rbind] in H; [|discriminate|discriminate] end.
  rewrite (IH _ _ _ _ H), (pm_process_keys E). reflexivity.
Qed.
Lemma pmac_write_keys c d m d' : pmac_write c d m = Ok d' -> pmac_reset c d' = pmac_reset c d.
Proof.
  unfold pmac_write. set (R := bsz c - pm_pos d). intro H.
  match type of H with rbind ?x _ = _ => destruct x as [[e m1]| |] eqn:E; cbn [rbind] in H; [|discriminate|discriminate] end.
  assert (K : pmac_reset c e = pmac_reset c d).
  { destruct (R <? length m); [|injection E as <- <-; reflexivity].
    match type of E with rbind ?x _ = _ => destruct x as [e'| |] eqn:E'; cbn [rbind] in E; [|discriminate|discriminate] end.
    injection E as <- <-. rewrite (pm_process_keys E'). reflexivity. }
  destruct (pm_loop (length m1) c e m1) as [[e2 m2]| |] eqn:E2; cbn [rbind] in H; [|discriminate|discriminate].
  rewrite <- K, <- (pm_loop_keys E2). destruct (0 <? length m2); injection H as <-; reflexivity.
Qed.
Lemma pmac_full_blk c h m : lawful c -> isblock (bsz c) h -> bytes_ok m -> isblock (bsz c) (pmac_full (bsz c) 135 (enc c) h m).
Proof.
  intros HL Hh Hm. pose proof (law_pos HL) as Hp. unfold pmac_full, pmac_blocks. apply (law_enc HL).
  assert (Ec : exists bl t, removelast (chunks (bsz c) m) = bl /\ last (chunks (bsz c) m) [] = t /\ Forall (isblock (bsz c)) bl /\ bytes_ok t /\ length t <= bsz c).
  { destruct m as [|x m']; [exists [], []; repeat split; auto; try constructor; cbn; lia|]. set (m := x :: m') in *.
    destruct (@decompose (bsz c) m Hp ltac:(discriminate)) as (bl & t & E & A & L). rewrite E in *.
    apply bytes_ok_app in Hm as [Ob Ot]. apply bytes_ok_concat in Ob. unfold all_len in A.
    exists bl, t. rewrite chunks_tail by (auto; lia). rewrite removelast_last, last_last. repeat split; auto; [|lia].
    rewrite Forall_forall in *; intros y Hy; split; auto. }
  destruct Ec as (bl & t & -> & -> & B & Ot & Lt). pose proof (SG_blk HL B) as BS. unfold SG, D in BS. fold (zeros (bsz c)).
  destruct (Nat.eqb_spec (length t) (bsz c)).
  - apply xorl_block'; [apply xorl_block'; [exact BS|split; auto]|exact Hh].
  - apply xorl_block'; [exact BS|]. split; [|now apply pad2_ok]. unfold pad2. rewrite app_length. cbn [length].
    rewrite repeat_length, Nat.mod_small by lia. lia.
Qed.
Definition pmac_lim (n k : nat) : Prop := k <= n * 2 ^ (2 * n - 1).
Lemma pmac_law c d h : lawful c -> siv_new_pmac c = Ok d -> is_half (bsz c) 135 (enc c (repeat 0%Z (bsz c))) h ->
  mac_law (o := pmac_obj c) d (pmac_full (bsz c) 135 (enc c) h) (pmac_lim (bsz c)).
Proof.
  intros HL Hd Hh. unfold siv_new_pmac in Hd.
  assert (Ed : pmac_reset c d = d /\ pm_tag d = bsz c).
  { unfold pmac_new in Hd. destruct (_ || _)%bool; [discriminate|]. destruct (_ || _)%bool; [|discriminate].
    injection Hd as <-. unfold pmac_reset, pm_with. cbn [pm_l pm_linv pm_tag]. split; [reflexivity|apply Nat2Z.id]. }
  destruct Ed as [E1 E2].
  assert (Bh : isblock (bsz c) h) by (destruct Hh as (A & B & _); split; auto).
  assert (F : forall m, bytes_ok m -> firstn (Z.to_nat (Z.of_nat (bsz c))) (pmac_full (bsz c) 135 (enc c) h m) = pmac_full (bsz c) 135 (enc c) h m).
  { intros m Hm. apply firstn_all2. rewrite Nat2Z.id. destruct (pmac_full_blk HL Bh Hm). lia. }
  constructor; cbn [mo_st mo_write mo_sum mo_reset mo_bs mo_size pmac_obj].
  - intros st Hr. rewrite <- E2, <- Hr. reflexivity.
  - exact E1.
  - intros st m st' Hr E. now rewrite (pmac_write_keys E).
  - intros st i Hr. rewrite <- Hr. reflexivity.
  - intros m Hm Hl.
    pose proof (@C21_streaming c _ d h [HWrite m; HSum []] HL Hd ltac:(repeat constructor; exact Hm) Hh) as S.
    cbn [reset_after_sum written_max pmac_run expected app] in S. specialize (S ltac:(auto) Hl).
    destruct (pmac_write c d m) as [s| |]; cbn [rbind] in S; [|discriminate|discriminate]. exists s. split; [reflexivity|].
    destruct (pmac_sum c s []) as [s' out]. cbn [rbind snd] in *. injection S as ->. now apply F.
  - intros a b Ha Hb Hl. unfold pmac_lim in Hl. rewrite app_length in Hl.
    pose proof (@C21_streaming c _ d h [HWrite a; HWrite b; HSum []] HL Hd ltac:(repeat constructor; auto) Hh) as S.
    cbn [reset_after_sum written_max pmac_run expected app] in S. specialize (S ltac:(auto) Hl).
    destruct (pmac_write c d a) as [s| |]; cbn [rbind] in S; [|discriminate|discriminate].
    destruct (pmac_write c s b) as [s1| |] eqn:W; cbn [rbind] in S; [|discriminate|discriminate]. exists s, s1. split; [reflexivity|].
    split; [exact W|]. destruct (pmac_sum c s1 []) as [s' out]. cbn [rbind snd] in *. injection S as ->. apply F. now apply bytes_ok_app.
  - intros m Hm. now apply pmac_full_blk.
Qed.
