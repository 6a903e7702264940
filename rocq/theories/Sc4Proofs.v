(** Grain-128AEAD: the word-level generator against the bit-level one. *)
From Verif Require Import Base BlockModeModel WordModel BlkSpec WordLib Sc1Spec Sc4Model Sc4Spec.
Set Implicit Arguments. Unset Strict Implicit.
Local Open Scope nat_scope.

Definition rok (r : greg) : Prop := inw 64 (fst r) /\ inw 64 (snd r).
Definition rbit (r : greg) (i : nat) : bool :=
  if i <? 64 then Z.testbit (fst r) (Z.of_nat i) else Z.testbit (snd r) (Z.of_nat (i - 64)).

Lemma wshl_tb w x k n : (0 <= n < w)%Z -> Z.testbit (wshl w x k) n = Z.testbit x (n - k).
Proof. intros. unfold wshl. rewrite Z.mod_pow2_bits_low by lia. apply Z.shiftl_spec. lia. Qed.
Lemma tb_eq x y : x = y -> forall v, Z.testbit v x = Z.testbit v y. Proof. intros ->. auto. Qed.

Lemma fst_bit r j : j < 64 -> Z.testbit (fst r) (Z.of_nat j) = rbit r j.
Proof. intros. unfold rbit. apply Nat.ltb_lt in H. rewrite H. auto. Qed.
Lemma snd_bit r j : Z.testbit (snd r) (Z.of_nat j) = rbit r (64 + j).
Proof. unfold rbit. rewrite (proj2 (Nat.ltb_ge _ _)) by lia. f_equal. lia. Qed.
Lemma gw1_bit r j : rok r -> j < 64 -> Z.testbit (gw1 r) (Z.of_nat j) = rbit r (32 + j).
Proof.
  intros [H1 H2] Hj. unfold gw1, rbit. rewrite Z.lor_spec, Z.shiftr_spec, wshl_tb by lia.
  destruct (Nat.ltb_spec (32 + j) 64).
  - rewrite (Z.testbit_neg_r (snd r)) by lia. rewrite orb_false_r. apply tb_eq. lia.
  - rewrite (@inw_testbit 64) by (auto; lia). cbn [orb]. apply tb_eq. lia.
Qed.
Lemma gw3_bit r j : j < 32 -> Z.testbit (gw3 r) (Z.of_nat j) = rbit r (96 + j).
Proof. intros Hj. unfold gw3. rewrite Z.shiftr_spec by lia. replace (Z.of_nat j + 32)%Z with (Z.of_nat (32 + j)) by lia. rewrite snd_bit. f_equal. Qed.
Lemma gshift_ok r x : rok r -> rok (gshift r x).
Proof.
  intros [H1 H2]. split; cbn [gshift fst snd]; apply inw_or; try lia; try (apply inw_shr; auto; lia); apply inw_shl; lia.
Qed.
Lemma gshift_bit r x i : rok r -> i < 128 -> rbit (gshift r x) i = if i <? 96 then rbit r (i + 32) else Z.testbit x (Z.of_nat (i - 96)).
Proof.
  intros [H1 H2] Hi. unfold rbit at 1, gshift; cbn [fst snd].
  destruct (Nat.ltb_spec i 64).
  - rewrite (proj2 (Nat.ltb_lt i 96)) by lia. rewrite (Nat.add_comm i). apply gw1_bit; [split|]; auto.
  - rewrite Z.lor_spec, Z.shiftr_spec, wshl_tb by lia. destruct (Nat.ltb_spec i 96).
    + rewrite (Z.testbit_neg_r x) by lia. rewrite orb_false_r.
      replace (Z.of_nat (i - 64) + 32)%Z with (Z.of_nat (i - 32)) by lia. rewrite snd_bit. f_equal. lia.
    + rewrite (@inw_testbit 64) by (auto; lia). cbn [orb]. apply tb_eq. lia.
Qed.
Lemma gxor_ok r x : rok r -> rok (gxor r x).
Proof.
  intros [H1 H2]. split; cbn [gxor fst snd]; auto. apply inw_or; [lia|apply inw_shl; lia|]. apply inw_and_l; auto; lia.
Qed.
Lemma gxor_bit r x i : rok r -> i < 128 ->
  rbit (gxor r x) i = if i <? 96 then rbit r i else xorb (rbit r i) (Z.testbit x (Z.of_nat (i - 96))).
Proof.
  intros [H1 H2] Hi. unfold gxor, rbit at 1; cbn [fst snd]. destruct (Nat.ltb_spec i 64).
  - rewrite (proj2 (Nat.ltb_lt i 96)) by lia. apply fst_bit; auto.
  - rewrite Z.lor_spec, wshl_tb, Z.land_spec by lia.
    replace (2 ^ 32 - 1)%Z with (Z.ones 32) by reflexivity.
    destruct (Nat.ltb_spec i 96).
    + rewrite (Z.testbit_neg_r (Z.lxor _ _)) by lia. rewrite Z.ones_spec_low by lia. cbn [orb]. rewrite andb_true_r, snd_bit. f_equal. lia.
    + rewrite (Z.ones_spec_high 32) by lia. rewrite andb_false_r, orb_false_r, Z.lxor_spec, Z.shiftr_spec by lia.
      replace (Z.of_nat (i - 64) - 32 + 32)%Z with (Z.of_nat (i - 64)) by lia. rewrite snd_bit.
      f_equal; [f_equal; lia|apply tb_eq; lia].
Qed.

(** one bit of the words of nextGeneric *)
Definition at_ (f : bitreg) (j : nat) : bitreg := fun n => f (n + j).
Ltac zn j := repeat match goal with |- context [Z.testbit ?w (Z.of_nat j + ?c)%Z] =>
  let k := eval compute in (Z.to_nat c) in replace (Z.of_nat j + c)%Z with (Z.of_nat (k + j)) by lia end.
Ltac sums := rewrite ?Nat.add_assoc; repeat match goal with |- context [rbit ?r (?a + ?b + ?j)] =>
  let k := eval compute in (a + b) in change (rbit r (a + b + j)) with (rbit r (k + j)) end.
Ltac unf := repeat (rewrite ?Z.lxor_spec, ?Z.land_spec; try rewrite Z.shiftr_spec by lia).
Lemma g_lin_bit l j : rok l -> j < 32 -> Z.testbit (g_lin l mod 2 ^ 32) (Z.of_nat j) = feed_s (at_ (rbit l) j).
Proof.
  intros Hl Hj. rewrite Z.mod_pow2_bits_low by lia. unfold g_lin. unf.
  replace (Z.of_nat j + 6)%Z with (Z.of_nat (6 + j)) by lia.
  replace (Z.of_nat j + 7)%Z with (Z.of_nat (7 + j)) by lia.
  replace (Z.of_nat j + 17)%Z with (Z.of_nat (17 + j)) by lia.
  rewrite !fst_bit by lia. rewrite gw3_bit, gw1_bit, !snd_bit by (auto; lia).
  unfold feed_s, at_, xsum. cbn [fold_right]. rewrite !Nat.add_assoc.
  change (32 + 6) with 38. change (64 + 6) with 70. change (64 + 17) with 81. change (0 + j) with j.
  repeat match goal with |- context [rbit l ?a] => generalize (rbit l a); intro end.
  repeat match goal with b : bool |- _ => destruct b end; reflexivity.
Qed.
Lemma g_nonlin_bit l n j : rok l -> rok n -> j < 32 -> Z.testbit (g_nonlin l n mod 2 ^ 32) (Z.of_nat j) = feed_b (at_ (rbit l) j) (at_ (rbit n) j).
Proof.
  intros Hl Hn Hj. rewrite Z.mod_pow2_bits_low by lia. unfold g_nonlin. unf. zn j.
  rewrite !fst_bit by lia. rewrite gw3_bit by lia. rewrite !gw1_bit by (auto; lia). rewrite !snd_bit.
  unfold feed_b, at_, xsum. cbn [fold_right]. change (0 + j) with j. sums. ring.
Qed.
Lemma g_pre_bit l n j : rok l -> rok n -> j < 32 -> Z.testbit (g_pre l n mod 2 ^ 32) (Z.of_nat j) = pre (at_ (rbit l) j) (at_ (rbit n) j).
Proof.
  intros Hl Hn Hj. rewrite Z.mod_pow2_bits_low by lia. unfold g_pre. unf. zn j.
  rewrite !fst_bit by lia. rewrite !gw1_bit by (auto; lia). rewrite !snd_bit.
  unfold pre, at_, xsum. cbn [fold_right]. sums. change (64 + j) with (64 + j). ring.
Qed.

Section par.
  Variables key nonce : bytes.
  Notation rS t := (fst (regs key nonce t)).
  Notation rB t := (snd (regs key nonce t)).
  Lemma regs_par t k : k <= 32 -> forall i, i < 128 ->
    rS (t + k) i = (if i + k <? 128 then rS t (i + k)
      else xorb (feed_s (at_ (rS t) (i + k - 128))) (extra_s key (t + (i + k - 128)) (gy key nonce (t + (i + k - 128))))) /\
    rB (t + k) i = (if i + k <? 128 then rB t (i + k)
      else xorb (feed_b (at_ (rS t) (i + k - 128)) (at_ (rB t) (i + k - 128))) (extra_b (t + (i + k - 128)) (gy key nonce (t + (i + k - 128))))).
  Proof.
    induction k as [|k IH]; intros Hk i Hi.
    - rewrite !Nat.add_0_r. rewrite (proj2 (Nat.ltb_lt _ _)) by lia. auto.
    - specialize (IH ltac:(lia)).
      assert (Es : feed_s (rS (t + k)) = feed_s (at_ (rS t) k)).
      { unfold feed_s, at_. f_equal. repeat (f_equal; [rewrite (proj1 (IH _ ltac:(lia))); reflexivity|]). 
        repeat match goal with |- context [rS (t + k) ?n] => rewrite (proj1 (IH n ltac:(lia))), (proj2 (Nat.ltb_lt (n + k) 128)) by lia end. reflexivity. }
      assert (Eb : feed_b (rS (t + k)) (rB (t + k)) = feed_b (at_ (rS t) k) (at_ (rB t) k)).
      { unfold feed_b, at_.
        repeat match goal with |- context [rS (t + k) ?n] => rewrite (proj1 (IH n ltac:(lia))), (proj2 (Nat.ltb_lt (n + k) 128)) by lia end.
        repeat match goal with |- context [rB (t + k) ?n] => rewrite (proj2 (IH n ltac:(lia))), (proj2 (Nat.ltb_lt (n + k) 128)) by lia end.
        reflexivity. }
      rewrite Nat.add_succ_r. cbn [regs fst snd]. unfold push at 1 2. rewrite Es, Eb.
      destruct (Nat.eqb_spec i 127) as [->|Hn].
      + rewrite (proj2 (Nat.ltb_ge _ _)) by lia. replace (127 + S k - 128) with k by lia. auto.
      + destruct (IH (S i) ltac:(lia)) as [A B]. rewrite A, B. replace (S i + k) with (i + S k) by lia. auto.
  Qed.
  Lemma gy_par t k : k < 32 -> gy key nonce (t + k) = pre (at_ (rS t) k) (at_ (rB t) k).
  Proof.
    intros Hk. unfold gy, pre, at_.
    repeat match goal with |- context [rS (t + k) ?n] => rewrite (proj1 (@regs_par t k ltac:(lia) n ltac:(lia))), (proj2 (Nat.ltb_lt (n + k) 128)) by lia end.
    repeat match goal with |- context [rB (t + k) ?n] => rewrite (proj2 (@regs_par t k ltac:(lia) n ltac:(lia))), (proj2 (Nat.ltb_lt (n + k) 128)) by lia end.
    reflexivity.
  Qed.

  (** the registers of the code hold the bits of clock t *)
  Definition holds (s : gst) (t : nat) : Prop :=
    rok (g_l s) /\ rok (g_n s) /\ forall i, i < 128 -> rbit (g_l s) i = rS t i /\ rbit (g_n s) i = rB t i.
  Lemma feeds_ext s b s' b' j : (forall i, i < 128 -> s i = s' i /\ b i = b' i) -> j < 32 ->
    feed_s (at_ s j) = feed_s (at_ s' j) /\ feed_b (at_ s j) (at_ b j) = feed_b (at_ s' j) (at_ b' j) /\
    pre (at_ s j) (at_ b j) = pre (at_ s' j) (at_ b' j).
  Proof.
    intros H Hj. unfold feed_s, feed_b, pre, at_.
    repeat match goal with |- context [s (?n + j)] => rewrite (proj1 (H (n + j) ltac:(lia))) end.
    repeat match goal with |- context [b (?n + j)] => rewrite (proj2 (H (n + j) ltac:(lia))) end. auto.
  Qed.
  Lemma next_out s t : holds s t -> inw 32 (snd (g_next s)) /\
    forall j, j < 32 -> Z.testbit (snd (g_next s)) (Z.of_nat j) = gy key nonce (t + j).
  Proof.
    intros (A & B & C). split; [apply inw_mod; lia|]. intros j Hj. cbn [g_next snd]. rewrite g_pre_bit, gy_par by auto.
    apply (feeds_ext C Hj).
  Qed.
  (** the registers right after [g_next], before anything is mixed in *)
  Lemma next_regs s t : holds s t ->
    rok (g_l (fst (g_next s))) /\ rok (g_n (fst (g_next s))) /\
    forall i, i < 128 ->
      rbit (g_l (fst (g_next s))) i = (if i <? 96 then rS (t + 32) i else xorb (rS (t + 32) i) (extra_s key (t + (i - 96)) (gy key nonce (t + (i - 96))))) /\
      rbit (g_n (fst (g_next s))) i = (if i <? 96 then rB (t + 32) i else xorb (rB (t + 32) i) (extra_b (t + (i - 96)) (gy key nonce (t + (i - 96))))).
  Proof.
    intros (A & B & C). cbn [g_next fst g_l g_n]. split; [apply gshift_ok; auto|split; [apply gshift_ok; auto|]]. intros i Hi.
    rewrite !gshift_bit by auto. destruct (@regs_par t 32 ltac:(lia) i Hi) as [P Q]. rewrite P, Q.
    destruct (Nat.ltb_spec i 96).
    - rewrite (proj2 (Nat.ltb_lt (i + 32) 128)) by lia. apply C. lia.
    - rewrite (proj2 (Nat.ltb_ge (i + 32) 128)) by lia. replace (i + 32 - 128) with (i - 96) by lia.
      rewrite g_lin_bit, g_nonlin_bit by (auto; lia). destruct (@feeds_ext _ _ _ _ (i - 96) C ltac:(lia)) as (P1 & P2 & _).
      rewrite P1, P2. rewrite !xorb_assoc, !xorb_nilpotent, !xorb_false_r. auto.
  Qed.
  (** while running, nothing is mixed in *)
  Lemma next_holds s t : 384 <= t -> holds s t -> holds (fst (g_next s)) (t + 32).
  Proof.
    intros Ht H. destruct (next_regs H) as (A & B & C). split; [auto|split; auto]. intros i Hi. destruct (C i Hi) as [P Q].
    rewrite P, Q. unfold extra_s, extra_b. destruct (i <? 96); auto.
    rewrite !(proj2 (Nat.ltb_ge (t + (i - 96)) _)) by lia. rewrite !xorb_false_r. auto.
  Qed.
  Lemma warm_holds s t : t + 32 <= 256 -> holds s t -> holds (g_warm s) (t + 32).
  Proof.
    intros Ht H. destruct (next_regs H) as (A & B & C). destruct (next_out H) as [O1 O2].
    unfold g_warm. destruct (g_next s) as [s' ks] eqn:E. cbn [fst snd] in *. cbn [g_l g_n].
    split; [apply gxor_ok; auto|split; [apply gxor_ok; auto|]]. cbn [g_l g_n]. intros i Hi. rewrite !gxor_bit by auto. destruct (C i Hi) as [P Q].
    rewrite P, Q. destruct (Nat.ltb_spec i 96); auto. rewrite O2 by lia. unfold extra_s, extra_b.
    rewrite (proj2 (Nat.ltb_lt (t + (i - 96)) 256)) by lia. rewrite !xorb_assoc, !xorb_nilpotent, !xorb_false_r. auto.
  Qed.
  Lemma mix_holds s t kw : 256 <= t -> t + 32 <= 384 -> (forall j, j < 32 -> Z.testbit kw (Z.of_nat j) = obit key (t - 256 + j)) ->
    holds s t -> holds (fst (g_mix kw s)) (t + 32).
  Proof.
    intros Ht Ht2 Hk H. destruct (next_regs H) as (A & B & C).
    unfold g_mix. destruct (g_next s) as [s' ks] eqn:E. cbn [fst snd] in *. 
    split; [apply gxor_ok; auto|split; [auto|]]. cbn [g_l g_n]. intros i Hi. rewrite !gxor_bit by auto. destruct (C i Hi) as [P Q].
    rewrite P, Q. destruct (Nat.ltb_spec i 96); auto. rewrite Hk by lia. unfold extra_s, extra_b.
    rewrite !(proj2 (Nat.ltb_ge (t + (i - 96)) 256)) by lia. rewrite (proj2 (Nat.ltb_lt (t + (i - 96)) 384)) by lia.
    replace (t + (i - 96) - 256) with (t - 256 + (i - 96)) by lia.
    rewrite !xorb_assoc, !xorb_nilpotent, !xorb_false_r. auto.
  Qed.
  Lemma mix_out kw s : snd (g_mix kw s) = snd (g_next s).
  Proof. unfold g_mix. destruct (g_next s); auto. Qed.
End par.
