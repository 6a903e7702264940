(** Grain-128AEAD: the objects. *)
From Verif Require Import Base BlockModeModel WordModel BlkSpec WordLib StreamSpec StreamProofs Sc1Spec Sc4Model Sc4Spec Sc4Proofs Sc4Proofs2 Sc4Proofs3.
Set Implicit Arguments. Unset Strict Implicit.
Local Open Scope nat_scope.

(** the registers stay 64-bit words whatever is processed *)
Definition gok (s : gst) : Prop := rok (g_l s) /\ rok (g_n s).
Lemma next_gok s : gok s -> gok (fst (g_next s)).
Proof. intros [H1 H2]. split; apply gshift_ok; auto. Qed.
Lemma accumulate_regs ms pt s : g_l (accumulate ms pt s) = g_l s /\ g_n (accumulate ms pt s) = g_n s.
Proof. unfold accumulate. destruct (acc_loop 16 _ _ _ _ _) as [[r a] t]. auto. Qed.
Lemma accumulate8_regs ms pt s : g_l (accumulate8 ms pt s) = g_l s /\ g_n (accumulate8 ms pt s) = g_n s.
Proof. unfold accumulate8. destruct (acc8_loop 8 _ _ _ _ _) as [[r a] t]. auto. Qed.
Lemma accumulate_gok ms pt s : gok s -> gok (accumulate ms pt s).
Proof. unfold gok. destruct (accumulate_regs ms pt s) as [-> ->]. auto. Qed.
Lemma accumulate8_gok ms pt s : gok s -> gok (accumulate8 ms pt s).
Proof. unfold gok. destruct (accumulate8_regs ms pt s) as [-> ->]. auto. Qed.
Lemma two_step {A} (Q : list A -> Prop) : Q [] -> (forall a, Q [a]) -> (forall a b r, Q r -> Q (a :: b :: r)) -> forall l, Q l.
Proof.
  intros H0 H1 H2 l. cut (Q l /\ forall a, Q (a :: l)). { intros [K _]. exact K. }
  induction l as [|x l [K1 K2]]; split; auto.
Qed.
Lemma absorb_gok d : forall s, gok s -> gok (fst (g_absorb s d)).
Proof.
  induction d as [|a|a b r IH] using two_step; intros s H; auto. cbn [g_absorb]. pose proof (next_gok H) as K.
  destruct (g_next s) as [s' w]. apply IH. apply accumulate_gok. exact K.
Qed.
Lemma enc_loop_gok ip d : forall s, gok s -> gok (fst (g_enc_loop ip s d)).
Proof.
  induction d as [|a|a b r IH] using two_step; intros s H; cbn [g_enc_loop]; pose proof (next_gok H) as K; destruct (g_next s) as [s' w];
    try (apply accumulate_gok; exact K).
  specialize (IH (accumulate (getmb w) (u16 a b) s') (accumulate_gok _ _ K)). destruct (g_enc_loop ip _ r). exact IH.
Qed.
Lemma dec_loop_gok d : forall s, gok s -> gok (fst (g_dec_loop s d)).
Proof.
  induction d as [|a|a b r IH] using two_step; intros s H; cbn [g_dec_loop]; pose proof (next_gok H) as K; destruct (g_next s) as [s' w];
    try (apply accumulate_gok; exact K).
  specialize (IH (accumulate (getmb w) (Z.lxor (getkb w) (u16 a b)) s') (accumulate_gok _ _ K)). destruct (g_dec_loop _ r). exact IH.
Qed.
Lemma encrypt_gok ip s src ad : gok s -> gok (fst (g_encrypt ip s src ad)).
Proof.
  intros H. unfold g_encrypt. destruct (g_header ad) as [der rad]. pose proof (absorb_gok der H) as H1. destruct (g_absorb s der) as [s1 x1]. cbn [fst] in H1.
  pose proof (absorb_gok rad H1) as H2. destruct (g_absorb s1 rad) as [s2 [|a r]]; cbn [fst] in H2; [apply enc_loop_gok; auto|].
  pose proof (next_gok H2) as H3. destruct (g_next s2) as [s3 w]. cbn [fst] in H3. destruct src as [|p r'].
  - apply enc_loop_gok, accumulate8_gok, H3.
  - pose proof (@enc_loop_gok ip r' _ (accumulate8_gok (to_byte (Z.shiftr (getmb w) 8)) (again ip p (Z.lxor (to_byte (Z.shiftr (getkb w) 8)) p)) (accumulate8_gok (to_byte (getmb w)) a H3))) as K.
    destruct (g_enc_loop ip _ r'). exact K.
Qed.
Lemma decrypt_gok s src ad : gok s -> gok (fst (g_decrypt s src ad)).
Proof.
  intros H. unfold g_decrypt. destruct (g_header ad) as [der rad]. pose proof (absorb_gok der H) as H1. destruct (g_absorb s der) as [s1 x1]. cbn [fst] in H1.
  pose proof (absorb_gok rad H1) as H2. destruct (g_absorb s1 rad) as [s2 [|a r]]; cbn [fst] in H2; [apply dec_loop_gok; auto|].
  pose proof (next_gok H2) as H3. destruct (g_next s2) as [s3 w]. cbn [fst] in H3. destruct src as [|p r'].
  - apply dec_loop_gok, accumulate8_gok, H3.
  - pose proof (@dec_loop_gok r' _ (accumulate8_gok (to_byte (Z.shiftr (getmb w) 8)) (Z.lxor (to_byte (Z.shiftr (getkb w) 8)) p) (accumulate8_gok (to_byte (getmb w)) a H3))) as K.
    destruct (g_dec_loop _ r'). exact K.
Qed.
Lemma warm_gok s : gok s -> gok (g_warm s).
Proof. intros H. unfold g_warm. pose proof (next_gok H) as K. destruct (g_next s). destruct K. split; apply gxor_ok; auto. Qed.
Lemma mix_gok k s : gok s -> gok (fst (g_mix k s)).
Proof. intros H. unfold g_mix. pose proof (next_gok H) as K. destruct (g_next s). destruct K. split; cbn [fst g_l g_n]; auto. apply gxor_ok; auto. Qed.
Lemma fold_gok ws : forall r, rok r -> rok (fold_left gshift ws r).
Proof. induction ws; cbn [fold_left]; intros r H; auto. apply IHws, gshift_ok, H. Qed.
Lemma init_gok k nonce s s' : gok s -> g_init k nonce s = Ok s' -> gok s'.
Proof.
  intros [H1 H2] E. unfold g_init in E. destruct (length nonce <? 12); [discriminate|].
  assert (H0 : gok (g_load k nonce s)) by (split; [apply gshift_ok|]; apply fold_gok; auto).
  assert (H8 : forall n, gok (Nat.iter n g_warm (g_load k nonce s))) by (induction n; [exact H0|apply warm_gok, IHn]).
  specialize (H8 8). remember (Nat.iter 8 g_warm (g_load k nonce s)) as s8 eqn:E8. clear E8.
  pose proof (mix_gok k.[0] H8) as K1. destruct (g_mix _ s8) as [s9 a0]. cbn [fst] in K1.
  pose proof (mix_gok k.[1] K1) as K2. destruct (g_mix _ s9) as [s10 a1]. cbn [fst] in K2.
  pose proof (mix_gok k.[2] K2) as K3. destruct (g_mix _ s10) as [s11 a2]. cbn [fst] in K3.
  pose proof (mix_gok k.[3] K3) as K4. destruct (g_mix _ s11) as [s12 a3]. cbn [fst] in K4.
  injection E as <-. exact K4.
Qed.

Section objects.
  Variables key nonce : bytes.
  Hypothesis Lk : length key = 16.
  Hypothesis Ok_ : bytes_ok key.
  Hypothesis On : bytes_ok nonce.
  Notation ks := (grain_ks key nonce).
  Notation H ad := (code_length (length ad) ++ ad).

  Lemma seal_ok ip o dst pt ad : length nonce = 12 -> go_key o = g_key key -> gok (go_st o) -> bytes_ok pt -> bytes_ok ad ->
    (Z.of_nat (length ad) < 2 ^ 63)%Z ->
    exists o', grain_seal ip o dst nonce pt ad =
      Ok (o', dst ++ xor_stream ks (length (H ad)) pt ++ grain_tag key nonce (H ad ++ auth_pt key nonce ad ip pt)).
  Proof.
    intros Ln Ek [G1 G2] Op Oa La. unfold grain_seal. rewrite Ln. cbn [Nat.eqb negb]. rewrite Ek.
    destruct (@init_ready key nonce Lk Ok_ ltac:(lia) On (auth_bit (H ad ++ auth_pt key nonce ad ip pt)) (go_st o) G1 G2) as (s & -> & R). cbn [rbind].
    destruct (@encrypt_ok key nonce ad La Oa ip pt s Op R) as [K1 K2]. destruct (g_encrypt ip s pt ad) as [s' ct]. cbn [fst snd] in *.
    eexists. rewrite K1, (done_tag K2). reflexivity.
  Qed.
  Lemma open_ok o dst ct tag ad : length nonce = 12 -> go_key o = g_key key -> gok (go_st o) -> bytes_ok ct -> length tag = 8 -> bytes_ok ad ->
    (Z.of_nat (length ad) < 2 ^ 63)%Z ->
    exists o', grain_open o dst nonce (ct ++ tag) ad =
      Ok (o', if bytes_eqb (grain_tag key nonce (H ad ++ xor_stream ks (length (H ad)) ct)) tag
              then Ok (dst ++ xor_stream ks (length (H ad)) ct) else Err).
  Proof.
    intros Ln Ek [G1 G2] Op Lt Oa La. unfold grain_open. rewrite Ln. cbn [Nat.eqb negb]. rewrite Ek.
    rewrite app_length, Lt, (proj2 (Nat.ltb_ge _ 8)) by lia.
    destruct (@init_ready key nonce Lk Ok_ ltac:(lia) On (auth_bit (H ad ++ xor_stream ks (length (H ad)) ct)) (go_st o) G1 G2) as (s & -> & R). cbn [rbind].
    replace (length ct + 8 - 8) with (length ct) by lia. rewrite firstn_app_exact, skipn_app_exact by reflexivity.
    destruct (@decrypt_ok key nonce ad La Oa ct s Op R) as [K1 K2]. destruct (g_decrypt s ct ad) as [s' pt]. cbn [fst snd] in *.
    eexists. rewrite K1, (done_tag K2). reflexivity.
  Qed.

  (** * The stream object *)
  Lemma kb_lo' n s : holds key nonce s (384 + 32 * n) -> to_byte (getkb (snd (g_next s))) = ks (2 * n).
  Proof.
    intros Hh. unfold grain_ks. rewrite byte_of_bits_z. apply to_byte_bits. intros j Hj. rewrite getkb_bit by lia.
    rewrite (proj2 (next_out Hh)) by lia. unfold gz. f_equal. lia.
  Qed.
  Lemma kb_hi' n s : holds key nonce s (384 + 32 * n) -> to_byte (Z.shiftr (getkb (snd (g_next s))) 8) = ks (2 * n + 1).
  Proof.
    intros Hh. unfold grain_ks. rewrite byte_of_bits_z. apply to_byte_bits. intros j Hj. rewrite Z.shiftr_spec by lia.
    replace (Z.of_nat j + 8)%Z with (Z.of_nat (8 + j)) by lia. rewrite getkb_bit by lia. rewrite (proj2 (next_out Hh)) by lia. unfold gz. f_equal. lia.
  Qed.
  Lemma next_holds' n s : holds key nonce s (384 + 32 * n) -> holds key nonce (fst (g_next s)) (384 + 32 * (n + 1)).
  Proof. intros Hh. replace (384 + 32 * (n + 1)) with (384 + 32 * n + 32) by lia. apply next_holds; auto; lia. Qed.
  Definition sinv (st : gstream) (pos : nat) : Prop :=
    exists n, holds key nonce (gs_s st) (384 + 32 * n) /\
      (pos = 2 * n /\ gs_ks st = 0%Z \/ pos + 1 = 2 * n /\ gs_ks st = Z.lor 0xff00 (ks pos)).
  Lemma gs_loop_ok src : forall n s, bytes_ok src -> holds key nonce s (384 + 32 * n) ->
    snd (gs_loop s src) = xor_stream ks (2 * n) src /\ sinv (fst (gs_loop s src)) (2 * n + length src).
  Proof.
    induction src as [|a|a b r IH] using two_step; intros n s Os Hh; cbn [gs_loop].
    - split; [reflexivity|]. exists n. cbn [fst gs_s gs_ks length]. split; [exact Hh|left; split; [lia|reflexivity]].
    - assert (A1 : 2 * n + 1 + 1 = 2 * (n + 1)) by lia. assert (B : inw 16 (getkb (snd (g_next s)))) by apply getkb_w.
      assert (C : forall v, inw 16 v -> Z.shiftr v 8 = to_byte (Z.shiftr v 8)).
      { intros v [V1 V2]. unfold to_byte. symmetry. apply Z.mod_small. rewrite Z.shiftr_div_pow2 by lia.
        split; [apply Z.div_pos; lia|apply Z.div_lt_upper_bound; lia]. }
      pose proof (kb_lo' Hh) as E1. pose proof (kb_hi' Hh) as E2. pose proof (next_holds' Hh) as H2. destruct (g_next s) as [s' w]. cbn [fst snd] in *.
      rewrite E1. cbn [xor_stream length]. split; [reflexivity|]. exists (n + 1). split; [exact H2|right]. split; [exact A1|]. cbn [gs_ks]. rewrite <- E2.
      f_equal. apply C, B.
    - inversion Os as [|? ? Ha Os1]; subst. inversion Os1 as [|? ? Hb Os2]; subst.
      assert (A1 : 2 * n + 1 = S (2 * n)) by lia. assert (A2 : 2 * (n + 1) = S (S (2 * n))) by lia.
      assert (A3 : 2 * n + S (S (length r)) = 2 * (n + 1) + length r) by lia.
      pose proof (kb_lo' Hh) as E1. pose proof (kb_hi' Hh) as E2. pose proof (next_holds' Hh) as H2. destruct (g_next s) as [s' w]. cbn [fst snd] in *.
      destruct (IH (n + 1) s' Os2 H2) as [K1 K2]. destruct (gs_loop s' r) as [st o]. cbn [fst snd] in *.
      rewrite Z.lxor_comm, put16_xor by assumption. rewrite E1, E2, K1. cbn [xor_stream length app]. rewrite A2 in K2. rewrite A3, A2, A1. split; [reflexivity|exact K2].
  Qed.
  Lemma land_ff00 k : is_byte k -> Z.land (Z.lor 0xff00 k) 0xff00 <> 0%Z /\ to_byte (Z.lor 0xff00 k) = k.
  Proof.
    intros Hb. split.
    - intros E. apply (f_equal (fun z => Z.testbit z 8)) in E. rewrite Z.land_spec, Z.lor_spec, Z.testbit_0_l in E. discriminate.
    - unfold to_byte. change 256%Z with (2 ^ 8)%Z. apply Z.bits_inj'. intros i Hi. destruct (Z.ltb_spec i 8).
      + rewrite Z.mod_pow2_bits_low by lia. rewrite Z.lor_spec. assert (Z.testbit 0xff00 i = false) as ->; [|auto].
        change 0xff00%Z with (Z.shiftl 255 8). rewrite Z.shiftl_spec by lia. apply Z.testbit_neg_r. lia.
      + rewrite Z.mod_pow2_bits_high by lia. symmetry. apply (@inw_testbit 8); auto; lia.
  Qed.
  Lemma gs_call_ok st pos x : bytes_ok (snd x) -> sinv st pos -> scall_ok x ->
    exists st', gs_call st x = Ok (st', xor_stream ks pos (snd x)) /\ sinv st' (pos + length (snd x)).
  Proof.
    intros Os (n & Hh & D) Hc. destruct x as [dst src]. unfold scall_ok in Hc. cbn [fst snd] in *. unfold gs_call. destruct src as [|p r].
    - exists st. split; [reflexivity|]. exists n. rewrite Nat.add_0_r. auto.
    - rewrite (proj2 (Nat.ltb_ge _ _)) by lia. destruct D as [[-> E]|[E1 E2]].
      + rewrite E. cbn [Z.land Z.eqb negb]. destruct (gs_loop_ok Os Hh) as [K1 K2]. destruct (gs_loop (gs_s st) (p :: r)) as [st' o]. cbn [fst snd] in *.
        exists st'. rewrite K1. auto.
      + assert (A1 : S pos = 2 * n) by (clear - E1; lia). assert (A2 : pos + S (length r) = 2 * n + length r) by (clear - E1; lia).
        rewrite E2. destruct (@land_ff00 (ks pos)) as [Z1 Z2]; [apply ks_byte|]. apply Z.eqb_neq in Z1. rewrite Z1, Z2. cbn [negb].
        inversion Os as [|? ? Hp Or]; subst. destruct (gs_loop_ok Or Hh) as [K1 K2]. destruct (gs_loop (gs_s st) r) as [st' o]. cbn [fst snd] in *.
        exists st'. rewrite K1. cbn [xor_stream length]. rewrite A1, A2. split; [reflexivity|exact K2].
  Qed.
End objects.
