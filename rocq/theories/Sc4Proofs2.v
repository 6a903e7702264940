(** Grain-128AEAD: the bit extraction, the accumulator and the initialisation. *)
From Verif Require Import Base BlockModeModel WordModel BlkSpec WordLib StreamProofs Sc1Spec Sc4Model Sc4Spec Sc4Proofs.
Set Implicit Arguments. Unset Strict Implicit.
Local Open Scope nat_scope.

(** which bits of w are or-ed into each bit of a word *)
Definition svec := nat -> list nat.
Definition sv_mask (m : Z) : svec := fun i => if Z.testbit m (Z.of_nat i) then [i] else [].
Definition sv_squash (m : Z) (k : nat) (v : svec) : svec := fun i =>
  (if Z.testbit m (Z.of_nat i) then [] else v i) ++ (if Z.testbit m (Z.of_nat (i + k)) then v (i + k) else []).
Definition sv_of (w x : Z) (v : svec) : Prop := forall i, Z.testbit x (Z.of_nat i) = existsb (fun j => Z.testbit w (Z.of_nat j)) (v i).
Lemma sv_mask_ok w m : sv_of w (Z.land w m) (sv_mask m).
Proof. intros i. rewrite Z.land_spec. unfold sv_mask. destruct (Z.testbit m _); cbn; rewrite ?andb_true_r, ?andb_false_r, ?orb_false_r; auto. Qed.
Lemma sv_squash_ok w x v m k : sv_of w x v -> sv_of w (squash x m (Z.of_nat k)) (sv_squash m k v).
Proof.
  intros H i. unfold squash, sv_squash. rewrite Z.lor_spec, Z.lxor_spec, Z.shiftr_spec, !Z.land_spec by lia.
  rewrite <- Nat2Z.inj_add. rewrite existsb_app, !H.
  destruct (Z.testbit m (Z.of_nat i)), (Z.testbit m (Z.of_nat (i + k))); cbn [existsb]; rewrite ?andb_true_r, ?andb_false_r, ?xorb_nilpotent, ?xorb_false_r; auto.
Qed.
Definition sv_mb : svec :=
  sv_squash 0x80000000 16 (sv_squash 0x007f8000 8 (sv_squash 0x07800780 4 (sv_squash 0x18181818 2 (sv_squash 0x22222222 1 (sv_mask 0xAAAAAAAA))))).
Definition sv_kb : svec :=
  sv_squash 0x00ff0000 8 (sv_squash 0x0f000f00 4 (sv_squash 0x30303030 2 (sv_squash 0x44444444 1 (sv_mask 0x55555555)))).
Lemma sv_mb_eq : map sv_mb (seq 0 16) = map (fun k => [2 * k + 1]) (seq 0 16). Proof. vm_compute. reflexivity. Qed.
Lemma sv_kb_eq : map sv_kb (seq 0 16) = map (fun k => [2 * k]) (seq 0 16). Proof. vm_compute. reflexivity. Qed.
Lemma map_seq_eq {A} (f g : nat -> A) n k : map f (seq 0 n) = map g (seq 0 n) -> k < n -> f k = g k.
Proof.
  intros H Hk. assert (E : nth k (map f (seq 0 n)) (f 0) = nth k (map g (seq 0 n)) (f 0)) by (rewrite H; auto).
  rewrite (map_nth f) in E. rewrite (nth_indep _ (f 0) (g 0)) in E by (rewrite map_length, seq_length; auto). rewrite (map_nth g) in E.
  rewrite seq_nth in E by auto. exact E.
Qed.
Lemma getmb_bit w k : k < 16 -> Z.testbit (getmb w) (Z.of_nat k) = Z.testbit w (Z.of_nat (2 * k + 1)).
Proof.
  intros Hk. unfold getmb. rewrite Z.mod_pow2_bits_low by lia.
  assert (H : sv_of w (squash (squash (squash (squash (squash (Z.land w 0xAAAAAAAA) 0x22222222 1) 0x18181818 2) 0x07800780 4) 0x007f8000 8) 0x80000000 16) sv_mb).
  { unfold sv_mb. apply (@sv_squash_ok w _ _ _ 16), (@sv_squash_ok w _ _ _ 8), (@sv_squash_ok w _ _ _ 4), (@sv_squash_ok w _ _ _ 2), (@sv_squash_ok w _ _ _ 1), sv_mask_ok. }
  rewrite (H k), (map_seq_eq sv_mb_eq Hk). cbn [existsb]. apply orb_false_r.
Qed.
Lemma getkb_bit w k : k < 16 -> Z.testbit (getkb w) (Z.of_nat k) = Z.testbit w (Z.of_nat (2 * k)).
Proof.
  intros Hk. unfold getkb. rewrite Z.mod_pow2_bits_low by lia.
  assert (H : sv_of w (squash (squash (squash (squash (Z.land w 0x55555555) 0x44444444 1) 0x30303030 2) 0x0f000f00 4) 0x00ff0000 8) sv_kb).
  { unfold sv_kb. apply (@sv_squash_ok w _ _ _ 8), (@sv_squash_ok w _ _ _ 4), (@sv_squash_ok w _ _ _ 2), (@sv_squash_ok w _ _ _ 1), sv_mask_ok. }
  rewrite (H k), (map_seq_eq sv_kb_eq Hk). cbn [existsb]. apply orb_false_r.
Qed.
Lemma getmb_w w : inw 16 (getmb w). Proof. apply inw_mod. lia. Qed.
Lemma getkb_w w : inw 16 (getkb w). Proof. apply inw_mod. lia. Qed.

(** a word from its bits *)
Fixpoint zbits (n : nat) (f : nat -> bool) : Z :=
  match n with O => 0%Z | S n => (Z.b2z (f O) + 2 * zbits n (fun i => f (S i)))%Z end.
Lemma zbits_bit n : forall f i, Z.testbit (zbits n f) (Z.of_nat i) = (i <? n) && f i.
Proof.
  induction n; intros f i; cbn [zbits].
  - rewrite Z.testbit_0_l. auto.
  - destruct i.
    + rewrite Z.add_comm. change (Z.of_nat 0) with 0%Z. rewrite Z.testbit_0_r. auto.
    + rewrite Z.add_comm, Nat2Z.inj_succ, Z.testbit_succ_r, IHn by lia. auto.
Qed.
Lemma zbits_w n : forall f, inw (Z.of_nat n) (zbits n f).
Proof.
  induction n; intros f; cbn [zbits]; unfold inw in *.
  - cbn. lia.
  - rewrite Nat2Z.inj_succ, Z.pow_succ_r by lia. specialize (IHn (fun i => f (S i))). destruct (f 0); cbn [Z.b2z]; lia.
Qed.
Lemma zbits_eq n w f : inw (Z.of_nat n) w -> (forall i, i < n -> Z.testbit w (Z.of_nat i) = f i) -> w = zbits n f.
Proof.
  intros Hw H. apply Z.bits_inj'. intros i Hi. replace i with (Z.of_nat (Z.to_nat i)) by lia. rewrite zbits_bit.
  destruct (Nat.ltb_spec (Z.to_nat i) n); [rewrite H; auto|]. apply (@inw_testbit (Z.of_nat n)); auto; lia.
Qed.
Lemma zbits_ext n f g : (forall i, i < n -> f i = g i) -> zbits n f = zbits n g.
Proof. intros H. apply zbits_eq; [apply zbits_w|]. intros i Hi. rewrite zbits_bit, (proj2 (Nat.ltb_lt i n)) by auto. cbn. auto. Qed.

(** * The accumulator: [R] is the register sequence, [m] the message bits *)
Section acc.
  Variable R m : nat -> bool.
  Fixpoint psum (A : nat -> bool) (n i : nat) (j : nat) : bool :=
    match n with O => A j | S n => xorb (psum A n i j) (m (i + n) && R (i + n + j)) end.

  (** after p of the 16 (or 8) steps *)
  Lemma acc_loop_bits n : forall p reg acc regtmp acctmp pt i ms,
    inw 64 reg -> inw 64 acc -> inw 32 regtmp -> inw 32 acctmp -> (0 <= pt)%Z -> p + n = 16 ->
    (forall j, j + p < 64 -> Z.testbit reg (Z.of_nat j) = R (i + p + j)) -> (forall j, 64 <= j + p -> Z.testbit reg (Z.of_nat j) = false) ->
    (forall j, Z.testbit regtmp (Z.of_nat j) = if j + p <? 16 then false else Z.testbit ms (Z.of_nat (j + p - 16))) ->
    (forall j, j < 16 -> Z.testbit ms (Z.of_nat j) = R (i + 64 + j)) ->
    (forall k, k < n -> Z.testbit pt (Z.of_nat k) = m (i + p + k)) ->
    forall A, (forall j, j < 64 -> xorb (Z.testbit acc (Z.of_nat j)) (if j <? 48 then false else Z.testbit acctmp (Z.of_nat (j - 48))) = psum A p i j) ->
    let '(reg', acc', acctmp') := acc_loop n reg acc regtmp acctmp pt in
    inw 64 reg' /\ inw 64 acc' /\ inw 32 acctmp' /\
    (forall j, j < 48 -> Z.testbit reg' (Z.of_nat j) = R (i + 16 + j)) /\ (forall j, 48 <= j -> Z.testbit reg' (Z.of_nat j) = false) /\
    (forall j, j < 64 -> xorb (Z.testbit acc' (Z.of_nat j)) (if j <? 48 then false else Z.testbit acctmp' (Z.of_nat (j - 48))) = psum A 16 i j).
  Proof.
    induction n as [|n IH]; intros p reg acc regtmp acctmp pt i ms H1 H2 H3 H4 H5 Hp Hr Hr0 Ht Hm Hpt A HA; cbn [acc_loop].
    - assert (p = 16) by lia. subst p. split; [auto|split; [auto|split; [auto|]]]. split; [intros; apply Hr; lia|].
      split; [intros; apply Hr0; lia|auto].
    - assert (Hg : forall x w, inw w x -> (0 <= w)%Z -> inw w (gmask pt x)).
      { intros x w Hx Hw. unfold gmask. destruct (Z.odd pt); auto. unfold inw. pose proof (Z.pow_pos_nonneg 2 w). lia. }
      assert (Eo : Z.odd pt = m (i + p)).
      { rewrite <- Z.bit0_odd. rewrite <- (Nat.add_0_r (i + p)). apply (Hpt 0). lia. }
      apply (IH (S p) _ _ _ _ _ i ms).
      + apply inw_shr; auto; lia.
      + apply inw_xor; auto; try lia; apply Hg; auto; lia.
      + apply inw_shr; auto; lia.
      + apply inw_xor; auto; try lia; apply Hg; auto; lia.
      + apply Z.shiftr_nonneg; auto.
      + lia.
      + intros j Hj. rewrite Z.shiftr_spec by lia. replace (Z.of_nat j + 1)%Z with (Z.of_nat (S j)) by lia. rewrite Hr by lia. f_equal. lia.
      + intros j Hj. rewrite Z.shiftr_spec by lia. replace (Z.of_nat j + 1)%Z with (Z.of_nat (S j)) by lia. apply Hr0. lia.
      + intros j. rewrite Z.shiftr_spec by lia. replace (Z.of_nat j + 1)%Z with (Z.of_nat (S j)) by lia. rewrite Ht.
        replace (S j + p) with (j + S p) by lia. auto.
      + auto.
      + intros k Hk. rewrite Z.shiftr_spec by lia. replace (Z.of_nat k + 1)%Z with (Z.of_nat (S k)) by lia. rewrite Hpt by lia. f_equal. lia.
      + intros j Hj. cbn [psum]. rewrite <- HA by auto. rewrite Z.lxor_spec. unfold gmask. rewrite Eo.
        destruct (m (i + p)) eqn:Em; cbn [andb]; rewrite ?Z.lxor_0_r, ?Z.testbit_0_l, ?xorb_false_r; auto.
        destruct (Nat.ltb_spec j 48).
        * rewrite Hr by lia. rewrite !xorb_false_r. auto.
        * rewrite Z.lxor_spec, Ht. destruct (Nat.ltb_spec (j - 48 + p) 16).
          -- rewrite Hr by lia. rewrite xorb_false_r. rewrite !xorb_assoc. f_equal. apply xorb_comm.
          -- rewrite (Hr0 j) by lia. rewrite Hm by lia. rewrite xorb_false_r, xorb_assoc. do 3 f_equal. lia.
  Qed.
End acc.
Section acc8.
  Variable R m : nat -> bool.
  Lemma acc8_loop_bits n : forall p reg acc regtmp acctmp pt i ms,
    inw 64 reg -> inw 64 acc -> inw 16 regtmp -> inw 8 acctmp -> (0 <= pt)%Z -> p + n = 8 ->
    (forall j, j + p < 64 -> Z.testbit reg (Z.of_nat j) = R (i + p + j)) -> (forall j, 64 <= j + p -> Z.testbit reg (Z.of_nat j) = false) ->
    (forall j, Z.testbit regtmp (Z.of_nat j) = if j + p <? 8 then false else Z.testbit ms (Z.of_nat (j + p - 8))) ->
    (forall j, j < 8 -> Z.testbit ms (Z.of_nat j) = R (i + 64 + j)) ->
    (forall k, k < n -> Z.testbit pt (Z.of_nat k) = m (i + p + k)) ->
    forall A, (forall j, j < 64 -> xorb (Z.testbit acc (Z.of_nat j)) (if j <? 56 then false else Z.testbit acctmp (Z.of_nat (j - 56))) = psum R m A p i j) ->
    let '(reg', acc', acctmp') := acc8_loop n reg acc regtmp acctmp pt in
    inw 64 reg' /\ inw 64 acc' /\ inw 8 acctmp' /\
    (forall j, j < 56 -> Z.testbit reg' (Z.of_nat j) = R (i + 8 + j)) /\ (forall j, 56 <= j -> Z.testbit reg' (Z.of_nat j) = false) /\
    (forall j, j < 64 -> xorb (Z.testbit acc' (Z.of_nat j)) (if j <? 56 then false else Z.testbit acctmp' (Z.of_nat (j - 56))) = psum R m A 8 i j).
  Proof.
    induction n as [|n IH]; intros p reg acc regtmp acctmp pt i ms H1 H2 H3 H4 H5 Hp Hr Hr0 Ht Hm Hpt A HA; cbn [acc8_loop].
    - assert (p = 8) by lia. subst p. split; [auto|split; [auto|split; [auto|]]]. split; [intros; apply Hr; lia|].
      split; [intros; apply Hr0; lia|auto].
    - assert (Hg : forall x w, inw w x -> (0 <= w)%Z -> inw w (gmask pt x)).
      { intros x w Hx Hw. unfold gmask. destruct (Z.odd pt); auto. unfold inw. pose proof (Z.pow_pos_nonneg 2 w). lia. }
      assert (Eo : Z.odd pt = m (i + p)).
      { rewrite <- Z.bit0_odd. rewrite <- (Nat.add_0_r (i + p)). apply (Hpt 0). lia. }
      apply (IH (S p) _ _ _ _ _ i ms).
      + apply inw_shr; auto; lia.
      + apply inw_xor; auto; try lia; apply Hg; auto; lia.
      + apply inw_shr; auto; lia.
      + apply inw_xor; auto; try lia; apply Hg; auto; try lia. apply inw_mod; lia.
      + apply Z.shiftr_nonneg; auto.
      + lia.
      + intros j Hj. rewrite Z.shiftr_spec by lia. replace (Z.of_nat j + 1)%Z with (Z.of_nat (S j)) by lia. rewrite Hr by lia. f_equal. lia.
      + intros j Hj. rewrite Z.shiftr_spec by lia. replace (Z.of_nat j + 1)%Z with (Z.of_nat (S j)) by lia. apply Hr0. lia.
      + intros j. rewrite Z.shiftr_spec by lia. replace (Z.of_nat j + 1)%Z with (Z.of_nat (S j)) by lia. rewrite Ht.
        replace (S j + p) with (j + S p) by lia. auto.
      + auto.
      + intros k Hk. rewrite Z.shiftr_spec by lia. replace (Z.of_nat k + 1)%Z with (Z.of_nat (S k)) by lia. rewrite Hpt by lia. f_equal. lia.
      + intros j Hj. cbn [psum]. rewrite <- HA by auto. rewrite Z.lxor_spec. unfold gmask. rewrite Eo.
        destruct (m (i + p)) eqn:Em; cbn [andb]; rewrite ?Z.lxor_0_r, ?Z.testbit_0_l, ?xorb_false_r; auto.
        destruct (Nat.ltb_spec j 56).
        * rewrite Hr by lia. rewrite !xorb_false_r. auto.
        * rewrite Z.lxor_spec, Z.mod_pow2_bits_low, Ht by lia. destruct (Nat.ltb_spec (j - 56 + p) 8).
          -- rewrite Hr by lia. rewrite xorb_false_r. rewrite !xorb_assoc. f_equal. apply xorb_comm.
          -- rewrite (Hr0 j) by lia. rewrite Hm by lia. rewrite xorb_false_r, xorb_assoc. do 3 f_equal. lia.
  Qed.
End acc8.

(** the authenticator after i message bits *)
Definition auth (R m A : nat -> bool) (i : nat) (s : gst) : Prop :=
  g_reg s = zbits 64 (fun j => R (i + j)) /\ g_acc s = zbits 64 (psum R m A i 0).
Lemma psum_psum R m A a b j : psum R m (psum R m A a 0) b a j = psum R m A (a + b) 0 j.
Proof. induction b; cbn [psum]; [rewrite Nat.add_0_r; auto|]. rewrite IHb, Nat.add_succ_r. auto. Qed.
Lemma tbsplit x y n : (0 <= n)%Z -> inw n x -> forall j, Z.testbit (Z.lor x (wshl 64 y n)) (Z.of_nat j) =
  if (Z.of_nat j <? n)%Z then Z.testbit x (Z.of_nat j) else if j <? 64 then Z.testbit y (Z.of_nat j - n) else false.
Proof.
  intros Hn Hx j. rewrite Z.lor_spec. destruct (Z.ltb_spec (Z.of_nat j) n).
  - destruct (Nat.ltb_spec j 64).
    + rewrite wshl_tb, (Z.testbit_neg_r y), orb_false_r by lia. auto.
    + unfold wshl. rewrite Z.mod_pow2_bits_high by lia. apply orb_false_r.
  - rewrite (@inw_testbit n) by (auto; lia). cbn [orb]. destruct (Nat.ltb_spec j 64).
    + apply wshl_tb. lia.
    + unfold wshl. apply Z.mod_pow2_bits_high. lia.
Qed.
Lemma accumulate_auth R m A i s ms pt : auth R m A i s -> inw 16 ms -> (0 <= pt)%Z ->
  (forall j, j < 16 -> Z.testbit ms (Z.of_nat j) = R (i + 64 + j)) ->
  (forall k, k < 16 -> Z.testbit pt (Z.of_nat k) = m (i + k)) ->
  auth R m A (i + 16) (accumulate ms pt s) /\ g_l (accumulate ms pt s) = g_l s /\ g_n (accumulate ms pt s) = g_n s.
Proof.
  intros [E1 E2] Hms Hpt Hb Hp. unfold accumulate.
  assert (B1 : inw 64 (g_reg s)) by (rewrite E1; apply (zbits_w 64)).
  assert (B2 : inw 64 (g_acc s)) by (rewrite E2; apply (zbits_w 64)).
  assert (T : forall j, Z.testbit (wshl 32 ms 16) (Z.of_nat j) = if j + 0 <? 16 then false else Z.testbit ms (Z.of_nat (j + 0 - 16))).
  { intros j. rewrite Nat.add_0_r. destruct (Nat.ltb_spec j 16).
    - rewrite wshl_tb by lia. apply Z.testbit_neg_r. lia.
    - destruct (Nat.ltb_spec j 32).
      + rewrite wshl_tb by lia. apply tb_eq. lia.
      + unfold wshl. rewrite Z.mod_pow2_bits_high by lia. symmetry. apply (@inw_testbit 16); auto; lia. }
  pose proof (@acc_loop_bits R m 16 0 (g_reg s) (g_acc s) (wshl 32 ms 16) 0%Z pt i ms B1 B2 ltac:(apply inw_shl; lia) ltac:(split; cbn; lia) Hpt eq_refl) as K.
  assert (K1 : forall j, j + 0 < 64 -> Z.testbit (g_reg s) (Z.of_nat j) = R (i + 0 + j)).
  { intros j Hj. rewrite E1, zbits_bit, (proj2 (Nat.ltb_lt j 64)), Nat.add_0_r by lia. auto. }
  assert (K2 : forall j, 64 <= j + 0 -> Z.testbit (g_reg s) (Z.of_nat j) = false) by (intros j Hj; apply (@inw_testbit 64); auto; lia).
  specialize (K K1 K2 T Hb).
  assert (K3 : forall k, k < 16 -> Z.testbit pt (Z.of_nat k) = m (i + 0 + k)) by (intros k Hk; rewrite Nat.add_0_r; auto).
  specialize (K K3 (psum R m A i 0)).
  assert (K4 : forall j, j < 64 -> xorb (Z.testbit (g_acc s) (Z.of_nat j)) (if j <? 48 then false else Z.testbit 0 (Z.of_nat (j - 48))) = psum R m (psum R m A i 0) 0 i j).
  { intros j Hj. rewrite Z.testbit_0_l. destruct (j <? 48); rewrite xorb_false_r, E2, zbits_bit, (proj2 (Nat.ltb_lt j 64)) by auto; auto. }
  specialize (K K4). destruct (acc_loop 16 _ _ _ _ _) as [[reg' acc'] acctmp'].
  destruct K as (L1 & L2 & L3 & L4 & L5 & L6). cbn [g_l g_n]. split; [|auto]. split; cbn [g_reg g_acc].
  - apply zbits_eq.
    + apply inw_or; [lia|auto|apply inw_shl; lia].
    + intros j Hj. assert (inw 48 reg').
      { apply testbit_inw; [lia|apply L1|]. intros k Hk. replace k with (Z.of_nat (Z.to_nat k)) by lia. apply L5. lia. }
      rewrite tbsplit by (auto; lia). destruct (Z.ltb_spec (Z.of_nat j) 48); [apply L4; lia|].
      rewrite (proj2 (Nat.ltb_lt j 64)) by auto. replace (Z.of_nat j - 48)%Z with (Z.of_nat (j - 48)) by lia. rewrite Hb by lia. f_equal. lia.
  - apply zbits_eq.
    + apply inw_xor; [lia|auto|apply inw_shl; lia].
    + intros j Hj. rewrite Z.lxor_spec, wshl_tb by lia. rewrite <- psum_psum, <- L6 by auto. f_equal.
      destruct (Nat.ltb_spec j 48); [apply Z.testbit_neg_r; lia|apply tb_eq; lia].
Qed.
Lemma accumulate8_auth R m A i s ms pt : auth R m A i s -> inw 8 ms -> (0 <= pt)%Z ->
  (forall j, j < 8 -> Z.testbit ms (Z.of_nat j) = R (i + 64 + j)) ->
  (forall k, k < 8 -> Z.testbit pt (Z.of_nat k) = m (i + k)) ->
  auth R m A (i + 8) (accumulate8 ms pt s) /\ g_l (accumulate8 ms pt s) = g_l s /\ g_n (accumulate8 ms pt s) = g_n s.
Proof.
  intros [E1 E2] Hms Hpt Hb Hp. unfold accumulate8.
  assert (B1 : inw 64 (g_reg s)) by (rewrite E1; apply (zbits_w 64)).
  assert (B2 : inw 64 (g_acc s)) by (rewrite E2; apply (zbits_w 64)).
  assert (T : forall j, Z.testbit (wshl 16 ms 8) (Z.of_nat j) = if j + 0 <? 8 then false else Z.testbit ms (Z.of_nat (j + 0 - 8))).
  { intros j. rewrite Nat.add_0_r. destruct (Nat.ltb_spec j 8).
    - rewrite wshl_tb by lia. apply Z.testbit_neg_r. lia.
    - destruct (Nat.ltb_spec j 16).
      + rewrite wshl_tb by lia. apply tb_eq. lia.
      + unfold wshl. rewrite Z.mod_pow2_bits_high by lia. symmetry. apply (@inw_testbit 8); auto; lia. }
  pose proof (@acc8_loop_bits R m 8 0 (g_reg s) (g_acc s) (wshl 16 ms 8) 0%Z pt i ms B1 B2 ltac:(apply inw_shl; lia) ltac:(split; cbn; lia) Hpt eq_refl) as K.
  assert (K1 : forall j, j + 0 < 64 -> Z.testbit (g_reg s) (Z.of_nat j) = R (i + 0 + j)).
  { intros j Hj. rewrite E1, zbits_bit, (proj2 (Nat.ltb_lt j 64)), Nat.add_0_r by lia. auto. }
  assert (K2 : forall j, 64 <= j + 0 -> Z.testbit (g_reg s) (Z.of_nat j) = false) by (intros j Hj; apply (@inw_testbit 64); auto; lia).
  specialize (K K1 K2 T Hb).
  assert (K3 : forall k, k < 8 -> Z.testbit pt (Z.of_nat k) = m (i + 0 + k)) by (intros k Hk; rewrite Nat.add_0_r; auto).
  specialize (K K3 (psum R m A i 0)).
  assert (K4 : forall j, j < 64 -> xorb (Z.testbit (g_acc s) (Z.of_nat j)) (if j <? 56 then false else Z.testbit 0 (Z.of_nat (j - 56))) = psum R m (psum R m A i 0) 0 i j).
  { intros j Hj. rewrite Z.testbit_0_l. destruct (j <? 56); rewrite xorb_false_r, E2, zbits_bit, (proj2 (Nat.ltb_lt j 64)) by auto; auto. }
  specialize (K K4). destruct (acc8_loop 8 _ _ _ _ _) as [[reg' acc'] acctmp'].
  destruct K as (L1 & L2 & L3 & L4 & L5 & L6). cbn [g_l g_n]. split; [|auto]. split; cbn [g_reg g_acc].
  - apply zbits_eq.
    + apply inw_or; [lia|auto|apply inw_shl; lia].
    + intros j Hj. assert (inw 56 reg').
      { apply testbit_inw; [lia|apply L1|]. intros k Hk. replace k with (Z.of_nat (Z.to_nat k)) by lia. apply L5. lia. }
      rewrite tbsplit by (auto; lia). destruct (Z.ltb_spec (Z.of_nat j) 56); [apply L4; lia|].
      rewrite (proj2 (Nat.ltb_lt j 64)) by auto. replace (Z.of_nat j - 56)%Z with (Z.of_nat (j - 56)) by lia. rewrite Hb by lia. f_equal. lia.
  - apply zbits_eq.
    + apply inw_xor; [lia|auto|apply inw_shl; lia].
    + intros j Hj. rewrite Z.lxor_spec, wshl_tb by lia. rewrite <- psum_psum, <- L6 by auto. f_equal.
      destruct (Nat.ltb_spec j 56); [apply Z.testbit_neg_r; lia|apply tb_eq; lia].
Qed.

(** * Initialisation *)
Lemma tb_le_val b : bytes_ok b -> forall i, Z.testbit (le_val b) (Z.of_nat i) = obit b i.
Proof.
  induction b as [|a b IH]; intros Hb i; cbn [le_val].
  - rewrite Z.testbit_0_l. unfold obit. destruct (i / 8); cbn; rewrite Z.testbit_0_l; auto.
  - inversion Hb as [|? ? Ha Hb']; subst. unfold obit. replace (a + 256 * le_val b)%Z with (a + le_val b * 2 ^ 8)%Z by lia.
    destruct (Nat.ltb_spec i 8).
    + rewrite <- (Z.mod_pow2_bits_low _ 8) by lia. rewrite Z.mod_add by lia. rewrite Z.mod_small by (unfold is_byte in Ha; lia).
      rewrite (Nat.div_small i 8), (Nat.mod_small i 8) by auto. auto.
    + replace (Z.of_nat i) with (Z.of_nat (i - 8) + 8)%Z by lia. rewrite <- Z.div_pow2_bits by lia.
      rewrite Z.div_add by lia. rewrite Z.div_small by (unfold is_byte in Ha; lia). rewrite Z.add_0_l, IH by auto.
      unfold obit. assert (E1 : i / 8 = S ((i - 8) / 8)).
      { replace i with ((i - 8) + 1 * 8) at 1 by lia. rewrite Nat.div_add by lia. lia. }
      assert (E2 : i mod 8 = (i - 8) mod 8). { replace i with ((i - 8) + 1 * 8) at 1 by lia. apply Nat.mod_add. lia. }
      rewrite E1, E2. auto.
Qed.
Lemma obit_slice b q j : j < 32 -> obit (slice (4 * q) 4 b) j = obit b (32 * q + j).
Proof.
  intros Hj. unfold obit. replace (32 * q + j) with (j + (4 * q) * 8) by lia. rewrite Nat.div_add, Nat.mod_add by lia.
  assert (j / 8 < 4) by (apply Nat.div_lt_upper_bound; lia). rewrite nth_slice by auto. f_equal. f_equal. lia.
Qed.
Lemma obit_firstn n b i : i < 8 * n -> obit (firstn n b) i = obit b i.
Proof.
  intros Hi. unfold obit. f_equal. assert (i / 8 < n) by (apply Nat.div_lt_upper_bound; lia).
  rewrite <- (firstn_skipn n b) at 2. destruct (Nat.ltb_spec (i / 8) (length (firstn n b))).
  - rewrite app_nth1 by auto. auto.
  - rewrite firstn_length in *. assert (length b <= n) by lia. rewrite skipn_all2, app_nil_r by auto. auto.
Qed.
Lemma ldw4_slices n b : length b = 4 * n -> ldw 4 b = map (fun q => le_val (slice (4 * q) 4 b)) (seq 0 n).
Proof.
  revert b. induction n as [|n IH]; intros b Hb.
  - destruct b; [|cbn in Hb; lia]. reflexivity.
  - unfold ldw. rewrite chunks_cons; [|lia|intros ->; cbn in Hb; lia].
    change (seq 0 (S n)) with (0 :: seq 1 n). cbn [map]. f_equal. fold (ldw 4 (skipn 4 b)).
    rewrite IH by (rewrite skipn_length; lia). rewrite <- seq_shift, map_map. apply map_ext. intros q. f_equal.
    unfold slice. f_equal. rewrite skipn_skipn'. f_equal. lia.
Qed.

Lemma fold4_bit r a b c d i : rok r -> i < 128 ->
  rok (fold_left gshift [a; b; c; d] r) /\ rbit (fold_left gshift [a; b; c; d] r) i = Z.testbit ([a; b; c; d].[i / 32]) (Z.of_nat (i mod 32)).
Proof.
  intros Hr Hi. cbn [fold_left]. pose proof (gshift_ok a Hr) as H1. pose proof (gshift_ok b H1) as H2. pose proof (gshift_ok c H2) as H3.
  split; [apply gshift_ok; auto|]. rewrite gshift_bit by auto.
  assert (E : forall q, 32 * q <= i < 32 * q + 32 -> i / 32 = q /\ i mod 32 = i - 32 * q).
  { intros q Hq. assert (i / 32 = q) by (symmetry; apply (Nat.div_unique i 32 q (i - 32 * q)); lia). split; auto. rewrite Nat.mod_eq by lia. lia. }
  destruct (Nat.ltb_spec i 96).
  - rewrite gshift_bit by (auto; lia). destruct (Nat.ltb_spec (i + 32) 96).
    + rewrite gshift_bit by (auto; lia). destruct (Nat.ltb_spec (i + 32 + 32) 96).
      * rewrite gshift_bit by (auto; lia). rewrite (proj2 (Nat.ltb_ge _ _)) by lia. destruct (E 0 ltac:(lia)) as [-> ->]. cbn [nth]. apply tb_eq. lia.
      * destruct (E 1 ltac:(lia)) as [-> ->]. cbn [nth]. apply tb_eq. lia.
    + destruct (E 2 ltac:(lia)) as [-> ->]. cbn [nth]. apply tb_eq. lia.
  - destruct (E 3 ltac:(lia)) as [-> ->]. cbn [nth]. apply tb_eq. lia.
Qed.
Lemma div32 i q : 32 * q <= i < 32 * q + 32 -> i / 32 = q /\ i mod 32 = i - 32 * q.
Proof. intros Hq. assert (i / 32 = q) by (symmetry; apply (Nat.div_unique i 32 q (i - 32 * q)); lia). split; auto. rewrite Nat.mod_eq by lia. lia. Qed.
Section init.
  Variables key nonce : bytes.
  Hypothesis Hk : length key = 16.
  Hypothesis Kok : bytes_ok key.
  Hypothesis Hn : 12 <= length nonce.
  Hypothesis Nok : bytes_ok nonce.
  Lemma word_bit b q j : bytes_ok b -> j < 32 -> Z.testbit (le_val (slice (4 * q) 4 b)) (Z.of_nat j) = obit b (32 * q + j).
  Proof. intros Hb Hj. rewrite tb_le_val by (apply bytes_ok_slice; auto). apply obit_slice. auto. Qed.
  Lemma g_key_eq : g_key key = map (fun q => le_val (slice (4 * q) 4 key)) (seq 0 4).
  Proof. unfold g_key. rewrite firstn_all2 by lia. apply ldw4_slices. auto. Qed.
  Lemma key_word_bit q j : q < 4 -> j < 32 -> Z.testbit (g_key key).[q] (Z.of_nat j) = obit key (32 * q + j).
  Proof.
    intros Hq Hj. rewrite g_key_eq. rewrite (nth_indep _ 0%Z (le_val (slice (4 * 0) 4 key))) by (rewrite map_length, seq_length; auto).
    rewrite (map_nth (fun q => le_val (slice (4 * q) 4 key))), seq_nth by auto. apply word_bit; auto.
  Qed.
  Lemma load_holds s : rok (g_l s) -> rok (g_n s) -> holds key nonce (g_load (g_key key) nonce s) 0.
  Proof.
    intros H1 H2. unfold g_load. assert (L12 : length (firstn 12 nonce) = 4 * 3) by (rewrite firstn_length; lia).
    rewrite g_key_eq, (ldw4_slices L12). cbn [map seq].
    set (k0 := le_val (slice (4 * 0) 4 key)). set (k1 := le_val (slice (4 * 1) 4 key)). set (k2 := le_val (slice (4 * 2) 4 key)). set (k3 := le_val (slice (4 * 3) 4 key)).
    set (n0 := le_val (slice (4 * 0) 4 _)). set (n1 := le_val (slice (4 * 1) 4 _)). set (n2 := le_val (slice (4 * 2) 4 _)).
    change (gshift (fold_left gshift [n0; n1; n2] (g_l s)) (2 ^ 31 - 1)) with (fold_left gshift [n0; n1; n2; (2 ^ 31 - 1)%Z] (g_l s)).
    split; [apply (@fold4_bit _ _ _ _ _ 0); auto; lia|split; [apply (@fold4_bit _ _ _ _ _ 0); auto; lia|]].
    assert (N12 : bytes_ok (firstn 12 nonce)) by (apply bytes_ok_firstn; auto).
    intros i Hi. cbn [g_l g_n regs]. unfold start; cbn [fst snd]. rewrite (proj2 (@fold4_bit _ n0 n1 n2 _ i H1 Hi)), (proj2 (@fold4_bit _ k0 k1 k2 k3 i H2 Hi)).
    assert (D : i < 32 \/ 32 <= i < 64 \/ 64 <= i < 96 \/ 96 <= i) by lia. destruct D as [D|[D|[D|D]]].
    - destruct (@div32 i 0 ltac:(lia)) as [-> ->]. cbn [nth]. rewrite (proj2 (Nat.ltb_lt i 96)) by lia.
      unfold n0, k0. rewrite !word_bit by (auto; lia). rewrite obit_firstn by lia. split; f_equal; lia.
    - destruct (@div32 i 1 ltac:(lia)) as [-> ->]. cbn [nth]. rewrite (proj2 (Nat.ltb_lt i 96)) by lia.
      unfold n1, k1. rewrite !word_bit by (auto; lia). rewrite obit_firstn by lia. split; f_equal; lia.
    - destruct (@div32 i 2 ltac:(lia)) as [-> ->]. cbn [nth]. rewrite (proj2 (Nat.ltb_lt i 96)) by lia.
      unfold n2, k2. rewrite !word_bit by (auto; lia). rewrite obit_firstn by lia. split; f_equal; lia.
    - destruct (@div32 i 3 ltac:(lia)) as [-> ->]. cbn [nth]. rewrite (proj2 (Nat.ltb_ge i 96)) by lia.
      unfold k3. rewrite !word_bit by (auto; lia). split; [|f_equal; lia].
      replace (2 ^ 31 - 1)%Z with (Z.ones 31) by reflexivity. destruct (Nat.ltb_spec i 127).
      + apply Z.ones_spec_low. lia.
      + apply Z.ones_spec_high. lia.
  Qed.
  Lemma warm_iter n : forall s t, t + 32 * n <= 256 -> holds key nonce s t -> holds key nonce (Nat.iter n g_warm s) (t + 32 * n).
  Proof.
    induction n; intros s t Ht H; cbn [Nat.iter nat_rect].
    - rewrite Nat.mul_0_r, Nat.add_0_r. auto.
    - change (nat_rect _ s (fun _ => g_warm) n) with (Nat.iter n g_warm s). replace (t + 32 * S n) with (t + 32 * n + 32) by lia.
      apply warm_holds; [lia|]. apply IHn; [lia|auto].
  Qed.
  Lemma two_words a b t : inw 32 a -> inw 32 b -> (forall j, j < 32 -> Z.testbit a (Z.of_nat j) = gy key nonce (t + j)) ->
    (forall j, j < 32 -> Z.testbit b (Z.of_nat j) = gy key nonce (t + 32 + j)) ->
    Z.lor a (wshl 64 b 32) = zbits 64 (fun j => gy key nonce (t + j)).
  Proof.
    intros Ha Hb Ba Bb. apply zbits_eq.
    - apply inw_or; [lia| |apply inw_shl; lia]. unfold inw in *. assert (2 ^ 32 < 2 ^ Z.of_nat 64)%Z by (apply Z.pow_lt_mono_r; lia). lia.
    - intros i Hi. rewrite tbsplit by (auto; lia). destruct (Z.ltb_spec (Z.of_nat i) 32); [apply Ba; lia|].
      rewrite (proj2 (Nat.ltb_lt i 64)) by auto. replace (Z.of_nat i - 32)%Z with (Z.of_nat (i - 32)) by lia. rewrite Bb by lia. f_equal. lia.
  Qed.
  (** ready to process bit i = 16 n of the message m *)
  Definition ready (m : nat -> bool) (n : nat) (s : gst) : Prop :=
    holds key nonce s (384 + 32 * n) /\ auth (gR key nonce) m (gA key nonce) (16 * n) s.
  Lemma init_ready m s : rok (g_l s) -> rok (g_n s) -> exists s', g_init (g_key key) nonce s = Ok s' /\ ready m 0 s'.
  Proof.
    intros H1 H2. unfold g_init. rewrite (proj2 (Nat.ltb_ge _ _)) by lia.
    pose proof (load_holds H1 H2) as H0. apply (@warm_iter 8) in H0; [|lia]. cbn [Nat.mul Nat.add] in H0.
    remember (Nat.iter 8 g_warm (g_load (g_key key) nonce s)) as s8 eqn:E8. clear E8.
    assert (M : forall q t u, q < 4 -> t = 256 + 32 * q -> holds key nonce u t -> holds key nonce (fst (g_mix (g_key key).[q] u)) (t + 32) /\ 
       inw 32 (snd (g_mix (g_key key).[q] u)) /\ forall j, j < 32 -> Z.testbit (snd (g_mix (g_key key).[q] u)) (Z.of_nat j) = gy key nonce (t + j)).
    { intros q t u Hq Ht Hu. split; [apply mix_holds; try lia; auto|].
      - intros j Hj. rewrite key_word_bit by auto. f_equal. lia.
      - rewrite mix_out. apply next_out. auto. }
    destruct (M 0 256 s8 ltac:(lia) eq_refl H0) as (A1 & A2 & A3). destruct (g_mix _ s8) as [s9 a0]. cbn [fst snd] in *.
    destruct (M 1 288 s9 ltac:(lia) eq_refl A1) as (B1 & B2 & B3). destruct (g_mix _ s9) as [s10 a1]. cbn [fst snd] in *.
    destruct (M 2 320 s10 ltac:(lia) eq_refl B1) as (C1 & C2 & C3). destruct (g_mix _ s10) as [s11 r0]. cbn [fst snd] in *.
    destruct (M 3 352 s11 ltac:(lia) eq_refl C1) as (D1 & D2 & D3). destruct (g_mix _ s11) as [s12 r1]. cbn [fst snd] in *.
    eexists. split; [reflexivity|]. split; [exact D1|]. split; cbn [g_reg g_acc].
    - rewrite (two_words C2 D2 C3 D3). apply zbits_ext. intros i Hi. unfold gR. rewrite Nat.mul_0_r, Nat.add_0_l. rewrite (proj2 (Nat.ltb_lt i 64)) by auto. reflexivity.
    - rewrite (two_words A2 B2 A3 B3). apply zbits_ext. intros i Hi. rewrite Nat.mul_0_r. cbn [psum]. unfold gA. reflexivity.
  Qed.
End init.
