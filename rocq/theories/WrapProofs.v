From Verif Require Import Base BlockModeModel StreamModel StreamSpec StreamProofs FeedbackProofs WrapModel WrapSpec.
Set Implicit Arguments. Unset Strict Implicit.

Lemma tbyte_val t k : (0 <= k)%Z -> tbyte t k = (Z.of_nat t / 2 ^ k mod 256)%Z.
Proof.
  intro Hk. unfold tbyte. change 255%Z with (Z.ones 8). rewrite Z.land_ones by lia.
  now rewrite Z.shiftr_div_pow2 by lia.
Qed.
Lemma tbyte_byte t k : is_byte (tbyte t k).
Proof.
  unfold tbyte. change 255%Z with (Z.ones 8). rewrite Z.land_ones by lia.
  unfold is_byte. pose proof (Z.mod_pos_bound (Z.shiftr (Z.of_nat t) k) (2 ^ 8) ltac:(lia)). lia.
Qed.

Lemma be8 (z : Z) : be_bytes 8 z =
  [(z / 2 ^ 56) mod 256; (z / 2 ^ 48) mod 256; (z / 2 ^ 40) mod 256; (z / 2 ^ 32) mod 256;
   (z / 2 ^ 24) mod 256; (z / 2 ^ 16) mod 256; (z / 2 ^ 8) mod 256; z mod 256]%Z.
Proof.
  unfold be_bytes. cbn [le_bytes rev app].
  repeat match goal with |- context [(z / 256 / 256)%Z] => idtac end.
  rewrite !Z.div_div by lia. reflexivity.
Qed.

Lemma xor_t_spec t a : (Z.of_nat t < 2 ^ 32)%Z -> xor_t t a = xorl a (be_bytes 8 (Z.of_nat t)).
Proof.
  intro Ht. unfold xor_t. rewrite be8.
  rewrite !tbyte_val by lia. change (2 ^ 0)%Z with 1%Z. rewrite Z.div_1_r.
  assert (E : forall k, (32 <= k)%Z -> (Z.of_nat t / 2 ^ k = 0)%Z).
  { intros k Hk. apply Z.div_small. split; [lia|]. eapply Z.lt_le_trans; [exact Ht|]. apply Z.pow_le_mono_r; lia. }
  rewrite !(E 56%Z), !(E 48%Z), !(E 40%Z), !(E 32%Z) by lia. change (0 mod 256)%Z with 0%Z.
  destruct (Nat.ltb_spec 255 t); [reflexivity|].
  assert (E2 : forall k, (8 <= k)%Z -> (Z.of_nat t / 2 ^ k = 0)%Z).
  { intros k Hk. apply Z.div_small. split; [lia|]. eapply Z.lt_le_trans with (m := 256%Z); [lia|].
    change 256%Z with (2 ^ 8)%Z. apply Z.pow_le_mono_r; lia. }
  rewrite !(E2 24%Z), !(E2 16%Z), !(E2 8%Z) by lia. reflexivity.
Qed.

Lemma xor_t_len t a : length a = 8 -> length (xor_t t a) = 8.
Proof. intro H. unfold xor_t. destruct (255 <? t); rewrite xorl_length; cbn [length]; lia. Qed.
Lemma xor_t_ok t a : bytes_ok a -> bytes_ok (xor_t t a).
Proof.
  intro H. unfold xor_t. destruct (255 <? t); apply xorl_ok; auto;
    repeat constructor; try apply tbyte_byte; unfold is_byte; lia.
Qed.
Lemma xor_t_inv t a : length a = 8 -> xor_t t (xor_t t a) = a.
Proof.
  intro H. unfold xor_t. destruct (255 <? t); apply xorl_cancel_r; cbn [length]; lia.
Qed.
Lemma xor_t_block t a : isblock 8 a -> isblock 8 (xor_t t a).
Proof. intros [H1 H2]. split; [now apply xor_t_len|now apply xor_t_ok]. Qed.

Lemma isblock_app n m a b : isblock n a -> isblock m b -> isblock (n + m) (a ++ b).
Proof. intros [H1 H2] [H3 H4]. split; [rewrite app_length; lia|]. apply Forall_app. auto. Qed.
Lemma isblock_firstn n m a : isblock (n + m) a -> isblock n (firstn n a).
Proof.
  intros [H1 H2]. split; [rewrite firstn_length; lia|].
  rewrite <- (firstn_skipn n a) in H2. apply Forall_app in H2. tauto.
Qed.
Lemma isblock_skipn n m a : isblock (n + m) a -> isblock m (skipn n a).
Proof.
  intros [H1 H2]. split; [rewrite skipn_length; lia|].
  rewrite <- (firstn_skipn n a) in H2. apply Forall_app in H2. tauto.
Qed.

Section wrap.
  Variable c : cipher.
  Hypothesis Hs : bsz c = 16.
  Hypothesis HL : lawful c.

  Lemma enc16_eq b : length b = 16 -> enc16 c b = enc c b.
  Proof. intro H. unfold enc16. rewrite Hs, firstn_all2, skipn_all2, app_nil_r by lia. reflexivity. Qed.
  Lemma dec16_eq b : length b = 16 -> dec16 c b = dec c b.
  Proof. intro H. unfold dec16. rewrite Hs, firstn_all2, skipn_all2, app_nil_r by lia. reflexivity. Qed.
  Lemma enc16_block b : isblock 16 b -> isblock 16 (enc16 c b).
  Proof. intro H. rewrite enc16_eq by apply H. rewrite <- Hs. apply HL. now rewrite Hs. Qed.
  Lemma dec16_block b : isblock 16 b -> isblock 16 (dec16 c b).
  Proof. intro H. rewrite dec16_eq by apply H. rewrite <- Hs. apply HL. now rewrite Hs. Qed.
  Lemma dec16_enc16 b : isblock 16 b -> dec16 c (enc16 c b) = b.
  Proof.
    intro H. pose proof (enc16_block H) as [H1 _]. rewrite dec16_eq by auto. rewrite enc16_eq by apply H.
    apply HL. now rewrite Hs.
  Qed.

  Definition blocks8 (rs : list bytes) : Prop := Forall (isblock 8) rs.

  Lemma wrap_pass_ok rs : forall t a t' a' rs', isblock 8 a -> blocks8 rs ->
    wrap_pass c t a rs = (t', a', rs') ->
    t' = t + length rs /\ isblock 8 a' /\ blocks8 rs' /\ length rs' = length rs.
  Proof.
    induction rs as [|r rs IH]; intros t a t' a' rs' Ha Hr E; cbn [wrap_pass] in E.
    - injection E as <- <- <-. cbn. repeat split; try apply Ha; try constructor; lia.
    - apply Forall_cons_iff in Hr as [Hr Hrs].
      pose proof (enc16_block (isblock_app Ha Hr)) as Hb. set (b := enc16 c (a ++ r)) in *.
      destruct (wrap_pass c (t + 1) (xor_t t (firstn 8 b)) rs) as [[t1 a1] rs1] eqn:E1.
      injection E as <- <- <-.
      assert (Hx : isblock 8 (xor_t t (firstn 8 b))) by (apply xor_t_block, (@isblock_firstn 8 8), Hb).
      destruct (IH _ _ _ _ _ Hx Hrs E1) as (I1 & I2 & I3 & I4). cbn [length].
      split; [lia|]. split; [auto|]. split; [constructor; [apply (@isblock_skipn 8 8), Hb|auto]|lia].
  Qed.

  Lemma unwrap_pass_app xs ys : forall t a,
    unwrap_pass c t a (xs ++ ys) =
    let '(t1, a1, xs') := unwrap_pass c t a xs in
    let '(t2, a2, ys') := unwrap_pass c t1 a1 ys in (t2, a2, xs' ++ ys').
  Proof.
    induction xs as [|x xs IH]; intros t a; cbn [app unwrap_pass].
    - now destruct (unwrap_pass c t a ys) as [[? ?] ?].
    - rewrite IH. destruct (unwrap_pass c (t - 1) _ xs) as [[t1 a1] xs'].
      now destruct (unwrap_pass c t1 a1 ys) as [[? ?] ?].
  Qed.

  Lemma pass_back rs : forall t a t' a' rs', isblock 8 a -> blocks8 rs ->
    wrap_pass c t a rs = (t', a', rs') ->
    unwrap_pass c (t' - 1) a' (rev rs') = (t - 1, a, rev rs).
  Proof.
    induction rs as [|r rs IH]; intros t a t' a' rs' Ha Hr E.
    - cbn in E. injection E as <- <- <-. reflexivity.
    - pose proof (wrap_pass_ok Ha Hr E) as (Et' & _). cbn [wrap_pass] in E. cbn [length] in Et'.
      apply Forall_cons_iff in Hr as [Hr Hrs].
      pose proof (isblock_app Ha Hr) as Har. pose proof (enc16_block Har) as Hb.
      pose proof (dec16_enc16 Har) as Hd. set (b := enc16 c (a ++ r)) in *.
      destruct (wrap_pass c (t + 1) (xor_t t (firstn 8 b)) rs) as [[t1 a1] rs1] eqn:E1.
      injection E as <- <- <-.
      assert (Hf : isblock 8 (firstn 8 b)) by (apply (@isblock_firstn 8 8), Hb).
      cbn [rev]. rewrite unwrap_pass_app, (IH _ _ _ _ _ (xor_t_block t Hf) Hrs E1).
      replace (t + 1 - 1) with t by lia. cbn [unwrap_pass].
      rewrite xor_t_inv by apply Hf. rewrite firstn_skipn, Hd.
      rewrite firstn_app_exact, skipn_app_exact by apply Ha. reflexivity.
  Qed.

  Lemma passes_back j : forall t a rs t' a' rs', isblock 8 a -> blocks8 rs ->
    wrap_passes c j t a rs = (t', a', rs') ->
    t' = t + j * length rs /\ isblock 8 a' /\ blocks8 rs' /\ length rs' = length rs /\
    unwrap_passes c j (t' - 1) a' (rev rs') = (t - 1, a, rev rs).
  Proof.
    induction j as [|j IH]; intros t a rs t' a' rs' Ha Hr E.
    - cbn in E. injection E as <- <- <-. repeat split; auto; try apply Ha; lia.
    - cbn [wrap_passes] in E. destruct (wrap_pass c t a rs) as [[t1 a1] rs1] eqn:E1.
      destruct (wrap_pass_ok Ha Hr E1) as (I1 & I2 & I3 & I4).
      destruct (IH _ _ _ _ _ _ I2 I3 E) as (J1 & J2 & J3 & J4 & J5).
      split; [lia|]. split; [auto|]. split; [auto|]. split; [lia|].
      (* the j+1 inverse passes: first those of IH, then one more *)
      clear -J5 E1 Ha Hr HL Hs.
      pose proof (pass_back Ha Hr E1) as PB.
      assert (Q : forall j t a rs t2 a2 rs2 t3 a3 rs3, unwrap_passes c j t a rs = (t2, a2, rs2) ->
        unwrap_pass c t2 a2 rs2 = (t3, a3, rs3) -> unwrap_passes c (S j) t a rs = (t3, a3, rs3)).
      { clear. induction j as [|j IH]; intros t a rs t2 a2 rs2 t3 a3 rs3 H1 H2.
        - cbn in H1. injection H1 as -> -> ->. cbn [unwrap_passes]. rewrite H2. reflexivity.
        - cbn [unwrap_passes] in H1. destruct (unwrap_pass c t a rs) as [[t1 a1] rs1] eqn:E.
          specialize (IH _ _ _ _ _ _ _ _ _ H1 H2). cbn [unwrap_passes]. rewrite E. exact IH. }
      eapply Q; eauto.
  Qed.

  (** *** The converse: wrapping what was unwrapped *)
  Hypothesis HI : forall b, isblock 16 b -> enc c (dec c b) = b.
  Lemma enc16_dec16 b : isblock 16 b -> enc16 c (dec16 c b) = b.
  Proof.
    intro H. pose proof (dec16_block H) as [H1 _]. rewrite enc16_eq by auto. rewrite dec16_eq by apply H. auto.
  Qed.
  Lemma unwrap_pass_ok rs : forall t a t' a' rs', isblock 8 a -> blocks8 rs ->
    unwrap_pass c t a rs = (t', a', rs') ->
    t' = t - length rs /\ isblock 8 a' /\ blocks8 rs' /\ length rs' = length rs.
  Proof.
    clear HI. induction rs as [|r rs IH]; intros t a t' a' rs' Ha Hr E; cbn [unwrap_pass] in E.
    - injection E as <- <- <-. cbn. repeat split; try apply Ha; try constructor; lia.
    - apply Forall_cons_iff in Hr as [Hr Hrs].
      pose proof (dec16_block (isblock_app (xor_t_block t Ha) Hr)) as Hb. set (b := dec16 c _) in *.
      destruct (unwrap_pass c (t - 1) (firstn 8 b) rs) as [[t1 a1] rs1] eqn:E1.
      injection E as <- <- <-.
      assert (Hx : isblock 8 (firstn 8 b)) by (apply (@isblock_firstn 8 8), Hb).
      destruct (IH _ _ _ _ _ Hx Hrs E1) as (I1 & I2 & I3 & I4). cbn [length].
      split; [lia|]. split; [auto|]. split; [constructor; [apply (@isblock_skipn 8 8), Hb|auto]|lia].
  Qed.
  Lemma wrap_pass_app xs ys : forall t a,
    wrap_pass c t a (xs ++ ys) =
    let '(t1, a1, xs') := wrap_pass c t a xs in
    let '(t2, a2, ys') := wrap_pass c t1 a1 ys in (t2, a2, xs' ++ ys').
  Proof.
    induction xs as [|x xs IH]; intros t a; cbn [app wrap_pass].
    - now destruct (wrap_pass c t a ys) as [[? ?] ?].
    - rewrite IH. destruct (wrap_pass c (t + 1) _ xs) as [[t1 a1] xs'].
      now destruct (wrap_pass c t1 a1 ys) as [[? ?] ?].
  Qed.
  Lemma pass_forth rs : forall t a t' a' rs', isblock 8 a -> blocks8 rs -> length rs <= t ->
    unwrap_pass c t a rs = (t', a', rs') ->
    wrap_pass c (t' + 1) a' (rev rs') = (t + 1, a, rev rs).
  Proof.
    induction rs as [|r rs IH]; intros t a t' a' rs' Ha Hr Hlt E.
    - cbn in E. injection E as <- <- <-. reflexivity.
    - pose proof (unwrap_pass_ok Ha Hr E) as (Et' & _). cbn [unwrap_pass] in E. cbn [length] in Et', Hlt.
      apply Forall_cons_iff in Hr as [Hr Hrs].
      pose proof (isblock_app (xor_t_block t Ha) Hr) as Har. pose proof (dec16_block Har) as Hb.
      pose proof (enc16_dec16 Har) as Hd. set (b := dec16 c _) in *.
      destruct (unwrap_pass c (t - 1) (firstn 8 b) rs) as [[t1 a1] rs1] eqn:E1.
      injection E as <- <- <-.
      assert (Hf : isblock 8 (firstn 8 b)) by (apply (@isblock_firstn 8 8), Hb).
      cbn [rev]. rewrite wrap_pass_app, (IH (t - 1) _ _ _ _ Hf Hrs ltac:(lia) E1).
      replace (t - 1 + 1) with t by lia. cbn [wrap_pass].
      rewrite firstn_skipn, Hd.
      rewrite firstn_app_exact, skipn_app_exact by (apply xor_t_len, Ha).
      rewrite xor_t_inv by apply Ha. reflexivity.
  Qed.
  Lemma passes_forth j : forall t a rs t' a' rs', isblock 8 a -> blocks8 rs -> j * length rs <= t ->
    unwrap_passes c j t a rs = (t', a', rs') ->
    t' = t - j * length rs /\ isblock 8 a' /\ blocks8 rs' /\ length rs' = length rs /\
    wrap_passes c j (t' + 1) a' (rev rs') = (t + 1, a, rev rs).
  Proof.
    induction j as [|j IH]; intros t a rs t' a' rs' Ha Hr Hlt E.
    - cbn in E. injection E as <- <- <-. repeat split; auto; try apply Ha; lia.
    - cbn [unwrap_passes] in E. destruct (unwrap_pass c t a rs) as [[t1 a1] rs1] eqn:E1.
      destruct (unwrap_pass_ok Ha Hr E1) as (I1 & I2 & I3 & I4).
      destruct (IH t1 _ rs1 _ _ _ I2 I3 ltac:(rewrite I4; lia) E) as (J1 & J2 & J3 & J4 & J5).
      split; [lia|]. split; [auto|]. split; [auto|]. split; [lia|].
      assert (Hlt1 : length rs <= t) by lia. pose proof (pass_forth Ha Hr Hlt1 E1) as PB. clear -J5 PB.
      assert (Q : forall j t a rs t2 a2 rs2 t3 a3 rs3, wrap_passes c j t a rs = (t2, a2, rs2) ->
        wrap_pass c t2 a2 rs2 = (t3, a3, rs3) -> wrap_passes c (S j) t a rs = (t3, a3, rs3)).
      { clear. induction j as [|j IH]; intros t a rs t2 a2 rs2 t3 a3 rs3 H1 H2.
        - cbn in H1. injection H1 as -> -> ->. cbn [wrap_passes]. rewrite H2. reflexivity.
        - cbn [wrap_passes] in H1. destruct (wrap_pass c t a rs) as [[t1 a1] rs1] eqn:E.
          specialize (IH _ _ _ _ _ _ _ _ _ H1 H2). cbn [wrap_passes]. rewrite E. exact IH. }
      eapply Q; eauto.
  Qed.

  (** *** The code computes RFC 3394 *)
  Lemma pass_rfc n : forall rs done t a, length done + length rs = n -> n <> 0 ->
    (exists q, t = q * n + length done + 1) -> (Z.of_nat (t + length rs) < 2 ^ 32)%Z ->
    isblock 8 a -> blocks8 rs ->
    forall t' a' rs', wrap_pass c t a rs = (t', a', rs') ->
    fold_left (rfc_step (enc c) n) (seq t (length rs)) (a, done ++ rs) = (a', done ++ rs').
  Proof.
    clear HI. induction rs as [|r rs IH]; intros done t a Hn Hn0 [q Hq] Ht Ha Hr t' a' rs' E.
    - cbn in E |- *. injection E as <- <- <-. reflexivity.
    - cbn [wrap_pass] in E. cbn [length] in *. apply Forall_cons_iff in Hr as [Hr Hrs].
      destruct (wrap_pass c (t + 1) (xor_t t (firstn 8 (enc16 c (a ++ r)))) rs) as [[t1 a1] rs1] eqn:E1.
      injection E as <- <- <-.
      pose proof (isblock_app Ha Hr) as Har. pose proof (enc16_block Har) as Hb.
      rewrite enc16_eq in * by apply Har.
      cbn [seq fold_left]. unfold rfc_step at 2.
      assert (Ei : (t - 1) mod n = length done).
      { replace (t - 1) with (length done + q * n) by lia. rewrite Nat.mod_add by lia. apply Nat.mod_small. lia. }
      rewrite Ei. rewrite app_nth2 by lia. rewrite Nat.sub_diag. cbn [nth].
      set (b := enc c (a ++ r)) in *.
      assert (Eu : update (length done) (skipn 8 b) (done ++ r :: rs) = (done ++ [skipn 8 b]) ++ rs).
      { unfold update. rewrite firstn_app_exact by auto.
        replace (S (length done)) with (length done + 1) by lia. rewrite <- skipn_skipn'.
        rewrite skipn_app_exact by auto. cbn [skipn]. rewrite <- app_assoc. reflexivity. }
      rewrite Eu, <- xor_t_spec by lia.
      replace (S t) with (t + 1) by lia.
      assert (Hf : isblock 8 (firstn 8 b)) by (apply (@isblock_firstn 8 8), Hb).
      assert (L1 : length (done ++ [skipn 8 b]) + length rs = n) by (rewrite app_length; cbn [length]; lia).
      assert (L2 : exists q, t + 1 = q * n + length (done ++ [skipn 8 b]) + 1)
        by (exists q; rewrite app_length; cbn [length]; lia).
      assert (L3 : (Z.of_nat (t + 1 + length rs) < 2 ^ 32)%Z) by lia.
      rewrite (IH _ _ _ L1 Hn0 L2 L3 (xor_t_block t Hf) Hrs _ _ _ E1).
      now rewrite <- app_assoc.
  Qed.

  Lemma passes_rfc n : n <> 0 -> forall j q a rs t' a' rs', length rs = n ->
    (Z.of_nat ((q + j) * n + 1) < 2 ^ 32)%Z -> isblock 8 a -> blocks8 rs ->
    wrap_passes c j (q * n + 1) a rs = (t', a', rs') ->
    fold_left (rfc_step (enc c) n) (seq (q * n + 1) (j * n)) (a, rs) = (a', rs').
  Proof.
    clear HI. intro Hn0. induction j as [|j IH]; intros q a rs t' a' rs' Hn Ht Ha Hr E.
    - cbn in E |- *. injection E as <- <- <-. reflexivity.
    - cbn [wrap_passes] in E. destruct (wrap_pass c (q * n + 1) a rs) as [[t1 a1] rs1] eqn:E1.
      destruct (wrap_pass_ok Ha Hr E1) as (I1 & I2 & I3 & I4).
      cbn [Nat.mul]. rewrite seq_app, fold_left_app.
      pose proof (@pass_rfc n rs [] (q * n + 1) a ltac:(cbn; lia) Hn0 ltac:(exists q; cbn; lia) ltac:(nia) Ha Hr _ _ _ E1) as P.
      cbn [app] in P. rewrite Hn in P. rewrite P.
      replace (q * n + 1 + n) with (S q * n + 1) by lia.
      rewrite Hn in I1. replace t1 with (S q * n + 1) in E by lia.
      eapply IH with (3 := I2) (4 := I3); eauto; [lia|].
      replace (S q + j) with (q + S j) by lia. exact Ht.
  Qed.
End wrap.
