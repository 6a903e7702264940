(** Lemmas about the ZUC generators and MACs of Sc3Model. *)
From Verif Require Import Base BlockModeModel BlockModeProofs WordModel BlkSpec WordLib StreamModel StreamSpec StreamProofs ToolBytesProofs Sc1Proofs Sc3Model Sc3Spec.
Set Implicit Arguments. Unset Strict Implicit.
Local Open Scope Z_scope.

Definition is_cell (v : Z) : Prop := 1 <= v <= p31.
Lemma cell_ok v : is_cell (cell v).
Proof.
  unfold is_cell, cell, p31. pose proof (Z.mod_pos_bound v (2 ^ 31 - 1) eq_refl). destruct (Z.eqb_spec (v mod (2 ^ 31 - 1)) 0); lia.
Qed.
Lemma cell_unique c v k : is_cell c -> c = v + k * p31 -> cell v = c.
Proof.
  unfold is_cell, cell. intros Hc E.
  assert (v mod p31 = c mod p31) as -> by (subst c; symmetry; apply Z.mod_add; discriminate).
  destruct (Z.eqb_spec (c mod p31) 0) as [H|H].
  - unfold p31 in *. change (2 ^ 31 - 1) with 2147483647 in *. lia.
  - apply Z.mod_small. enough (c <> p31) by lia. intros ->. apply H. reflexivity.
Qed.
Lemma land31 a : Z.land a 0x7fffffff = a mod 2 ^ 31.
Proof. change 0x7fffffff with (Z.ones 31). apply Z.land_ones. lia. Qed.
Lemma land16 a : Z.land a 0xFFFF = a mod 2 ^ 16.
Proof. change 0xFFFF with (Z.ones 16). apply Z.land_ones. lia. Qed.
Lemma land8 a : Z.land a 0xFF = a mod 2 ^ 8.
Proof. change 0xFF with (Z.ones 8). apply Z.land_ones. lia. Qed.
Lemma wshl_mul w a k : 0 <= k <= w -> wshl w a k = (a mod 2 ^ (w - k)) * 2 ^ k.
Proof.
  intros H. unfold wshl. rewrite Z.shiftl_mul_pow2 by lia.
  replace w with (w - k + k) at 1 by lia. rewrite Z.pow_add_r by lia.
  rewrite Z.mul_mod_distr_r; [reflexivity| |]; apply Z.pow_nonzero; lia.
Qed.
Lemma rot31_eq a k : 0 < k < 31 -> 0 <= a < 2 ^ 31 -> rot31 a k = (a mod 2 ^ (31 - k)) * 2 ^ k + a / 2 ^ (31 - k).
Proof.
  intros Hk Ha. unfold rot31. rewrite wshl_mul by lia. rewrite Z.shiftr_div_pow2 by lia.
  assert (0 <= a / 2 ^ (31 - k) < 2 ^ k).
  { split; [apply Z.div_pos; lia|]. apply Z.div_lt_upper_bound; [lia|]. rewrite <- Z.pow_add_r by lia. replace (31 - k + k) with 31 by lia. lia. }
  rewrite lor_disj by lia. rewrite land31.
  assert (P : 2 ^ 31 = 2 ^ (31 - k) * 2 ^ k) by (rewrite <- Z.pow_add_r by lia; f_equal; lia).
  assert (P2 : 2 ^ (32 - k) = 2 * 2 ^ (31 - k)) by (replace (32 - k) with (1 + (31 - k)) by lia; rewrite Z.pow_add_r by lia; reflexivity).
  rewrite P2.
  assert (0 < 2 ^ (31 - k)) by lia. assert (0 < 2 ^ k) by lia.
  set (A := 2 ^ (31 - k)) in *. set (B := 2 ^ k) in *. set (q := a / A) in *.
  assert (E : a mod (2 * A) = a mod A + A * (q mod 2)).
  { rewrite (Z.mul_comm 2 A). rewrite Z.rem_mul_r by lia. reflexivity. }
  rewrite E, P. symmetry. apply Z.mod_unique with (q mod 2).
  - left. pose proof (Z.mod_pos_bound a A). nia.
  - ring.
Qed.
Lemma rot31_mul a k : 0 < k < 31 -> 0 <= a < 2 ^ 31 -> exists q, rot31 a k = 2 ^ k * a - q * p31 /\ 0 <= rot31 a k <= p31.
Proof.
  intros Hk Ha. rewrite rot31_eq by lia. exists (a / 2 ^ (31 - k)).
  assert (P : 2 ^ 31 = 2 ^ (31 - k) * 2 ^ k) by (rewrite <- Z.pow_add_r by lia; f_equal; lia).
  unfold p31. rewrite P.
  assert (0 < 2 ^ (31 - k)) by lia. assert (0 < 2 ^ k) by lia.
  set (A := 2 ^ (31 - k)) in *. set (B := 2 ^ k) in *.
  pose proof (Z.div_mod a A ltac:(lia)) as D. pose proof (Z.mod_pos_bound a A ltac:(lia)).
  set (q := a / A) in *. set (r := a mod A) in *. rewrite P in Ha.
  assert (0 <= q < B) by (split; [apply Z.div_pos; lia|apply Z.div_lt_upper_bound; lia]).
  split; [rewrite D; ring|]. nia.
Qed.
Lemma add31_eq a b : 0 <= a <= p31 -> 0 <= b <= p31 -> exists q, add31 a b = a + b - q * p31 /\ 0 <= add31 a b <= p31 /\ (0 < a -> 0 < add31 a b).
Proof.
  unfold add31, wadd, p31. intros Ha Hb. change (2 ^ 31) with 2147483648 in *.
  rewrite (Z.mod_small (a + b)) by (change (2 ^ 32) with 4294967296; lia).
  rewrite land31, Z.shiftr_div_pow2 by lia. change (2 ^ 31) with 2147483648. change (2 ^ 32) with 4294967296.
  exists ((a + b) / 2147483648).
  pose proof (Z.div_mod (a + b) 2147483648 ltac:(lia)). pose proof (Z.mod_pos_bound (a + b) 2147483648 ltac:(lia)).
  assert (0 <= (a + b) / 2147483648 <= 1) by lia.
  rewrite Z.mod_small by lia. lia.
Qed.

Definition cells_ok (l : list Z) : Prop := length l = 16%nat /\ Forall is_cell l.
Lemma cells_nth l i : cells_ok l -> (i < 16)%nat -> is_cell l.[i].
Proof. intros [L F] H. rewrite Forall_forall in F. apply F, nth_In. lia. Qed.
Lemma push_ok l v : cells_ok l -> is_cell v -> cells_ok (skipn 1 l ++ [v]).
Proof.
  intros [L F] H. split; [rewrite app_length, skipn_length; cbn; lia|]. apply Forall_app. split; [|auto].
  destruct l; cbn; [constructor|]. inversion F; auto.
Qed.
Lemma sp_shift_ok u l : cells_ok l -> cells_ok (sp_shift u l).
Proof. intros H. apply push_ok; auto. apply cell_ok. Qed.
Lemma lfsr_init_eq u l : cells_ok l -> 0 <= u <= p31 -> lfsr_init u l = sp_shift u l.
Proof.
  intros H Hu. unfold lfsr_init, sp_shift, lfsr_push. f_equal. f_equal. symmetry.
  pose proof (cells_nth H (i := 0) ltac:(lia)) as C0. pose proof (cells_nth H (i := 4) ltac:(lia)) as C4.
  pose proof (cells_nth H (i := 10) ltac:(lia)) as C10. pose proof (cells_nth H (i := 13) ltac:(lia)) as C13.
  pose proof (cells_nth H (i := 15) ltac:(lia)) as C15. unfold is_cell in *.
  assert (B : forall x, 1 <= x <= p31 -> 0 <= x < 2 ^ 31) by (unfold p31; intros; lia).
  destruct (@rot31_mul l.[0] 8 ltac:(lia) (B _ C0)) as (q0 & E0 & B0).
  destruct (@rot31_mul l.[4] 20 ltac:(lia) (B _ C4)) as (q4 & E4 & B4).
  destruct (@rot31_mul l.[10] 21 ltac:(lia) (B _ C10)) as (q10 & E10 & B10).
  destruct (@rot31_mul l.[13] 17 ltac:(lia) (B _ C13)) as (q13 & E13 & B13).
  destruct (@rot31_mul l.[15] 15 ltac:(lia) (B _ C15)) as (q15 & E15 & B15).
  assert (G0 : 0 <= l.[0] <= p31) by lia.
  destruct (add31_eq G0 B0) as (k1 & F1 & G1 & P1).
  destruct (add31_eq G1 B4) as (k2 & F2 & G2 & P2).
  destruct (add31_eq G2 B10) as (k3 & F3 & G3 & P3).
  destruct (add31_eq G3 B13) as (k4 & F4 & G4 & P4).
  destruct (add31_eq G4 B15) as (k5 & F5 & G5 & P5).
  destruct (add31_eq G5 Hu) as (k6 & F6 & G6 & P6).
  cbv zeta. apply cell_unique with (- (q0 + q4 + q10 + q13 + q15 + k1 + k2 + k3 + k4 + k5 + k6)).
  - unfold is_cell. lia.
  - rewrite F6, F5, F4, F3, F2, F1, E0, E4, E10, E13, E15. ring.
Qed.
Lemma fold31_eq a : 0 < a < 2 ^ 60 -> exists q, fold31 a = a - q * p31 /\ 0 < fold31 a <= p31 + a / 2 ^ 31.
Proof.
  intros H. unfold fold31, wadd. rewrite land31, Z.shiftr_div_pow2 by lia. exists (a / 2 ^ 31).
  pose proof (Z.div_mod a (2 ^ 31) ltac:(lia)). pose proof (Z.mod_pos_bound a (2 ^ 31) ltac:(lia)).
  assert (0 <= a / 2 ^ 31 < 2 ^ 29) by (split; [apply Z.div_pos; lia|apply Z.div_lt_upper_bound; lia]).
  unfold p31. rewrite Z.mod_small by lia. lia.
Qed.
Lemma lfsr_work_eq l : cells_ok l -> lfsr_work l = sp_shift 0 l.
Proof.
  intros H. unfold lfsr_work, sp_shift, lfsr_push. f_equal. f_equal. symmetry.
  pose proof (cells_nth H (i := 0) ltac:(lia)) as C0. pose proof (cells_nth H (i := 4) ltac:(lia)) as C4.
  pose proof (cells_nth H (i := 10) ltac:(lia)) as C10. pose proof (cells_nth H (i := 13) ltac:(lia)) as C13.
  pose proof (cells_nth H (i := 15) ltac:(lia)) as C15. unfold is_cell, p31 in C0, C4, C10, C13, C15.
  cbv zeta. unfold wadd, wshl. rewrite !Z.shiftl_mul_pow2 by lia.
  change (2 ^ 64) with 18446744073709551616. change (2 ^ 31) with 2147483648 in *.
  change (2 ^ 8) with 256. change (2 ^ 20) with 1048576. change (2 ^ 21) with 2097152. change (2 ^ 17) with 131072. change (2 ^ 15) with 32768.
  generalize dependent l.[0]. generalize dependent l.[4]. generalize dependent l.[10]. generalize dependent l.[13]. generalize dependent l.[15].
  intros s15 C15 s13 C13 s10 C10 s4 C4 s0 C0.
  rewrite (Z.mod_small (s0 * 256)), (Z.mod_small (s4 * 1048576)), (Z.mod_small (s10 * 2097152)), (Z.mod_small (s13 * 131072)), (Z.mod_small (s15 * 32768)) by lia.
  rewrite (Z.mod_small (s0 + _)) by lia. rewrite (Z.mod_small (s0 + _ + _)) by lia. rewrite (Z.mod_small (s0 + _ + _ + _)) by lia.
  rewrite (Z.mod_small (s0 + _ + _ + _ + _)) by lia. rewrite (Z.mod_small (s0 + _ + _ + _ + _ + _)) by lia.
  set (a := s0 + _ + _ + _ + _ + _).
  assert (Ha : 0 < a < 9007199254740992 * 2) by (unfold a; lia).
  destruct (@fold31_eq a ltac:(change (2 ^ 60) with 1152921504606846976; lia)) as (q1 & E1 & B1).
  assert (Q1 : a / 2 ^ 31 < 8388608) by (apply Z.div_lt_upper_bound; [lia|change (2 ^ 31) with 2147483648; lia]).
  unfold p31 in *. change (2 ^ 31) with 2147483648 in *.
  destruct (@fold31_eq (fold31 a) ltac:(change (2 ^ 60) with 1152921504606846976; lia)) as (q2 & E2 & B2).
  unfold p31 in *. change (2 ^ 31) with 2147483648 in *.
  assert (B3 : fold31 (fold31 a) <= 2147483647).
  { clear E2 q2. revert B1. generalize (fold31 a). intros b B1. unfold fold31, wadd. rewrite land31, Z.shiftr_div_pow2 by lia.
    change (2 ^ 31) with 2147483648. change (2 ^ 64) with 18446744073709551616.
    pose proof (Z.div_mod b 2147483648 ltac:(lia)). pose proof (Z.mod_pos_bound b 2147483648 ltac:(lia)).
    assert (0 <= b / 2147483648 <= 1) by lia. rewrite Z.mod_small by lia. lia. }
  rewrite Z.mod_small by (change (2 ^ 32) with 4294967296; lia).
  apply cell_unique with (- (q1 + q2)).
  - unfold is_cell, p31. change (2 ^ 31) with 2147483648. lia.
  - unfold p31. change (2 ^ 31) with 2147483648. rewrite E2, E1. unfold a. ring.
Qed.

Lemma is_cell_lt v : is_cell v -> 0 <= v < 2 ^ 31. Proof. unfold is_cell, p31. lia. Qed.
Lemma hi15 v : 0 <= v < 2 ^ 31 -> Z.land v 0x7FFF8000 = (v / 2 ^ 15) * 2 ^ 15.
Proof.
  intros H. rewrite <- Z.shiftl_mul_pow2, <- Z.shiftr_div_pow2 by lia.
  apply Z.bits_inj. intros i. destruct (Z.ltb_spec i 0); [rewrite !Z.testbit_neg_r by lia; auto|].
  rewrite Z.land_spec. change 0x7FFF8000 with (Z.shiftl (Z.ones 16) 15).
  destruct (Z.ltb_spec i 15).
  - rewrite !(Z.shiftl_spec_low) by lia. apply andb_false_r.
  - rewrite !Z.shiftl_spec_high, Z.shiftr_spec by lia. replace (i - 15 + 15) with i by lia.
    destruct (Z.ltb_spec (i - 15) 16).
    + rewrite Z.ones_spec_low by lia. apply andb_true_r.
    + rewrite Z.ones_spec_high by lia. rewrite andb_false_r. symmetry. apply (@inw_testbit 31); unfold inw; lia.
Qed.
Lemma lor_cat h l : 0 <= h -> 0 <= l < 2 ^ 16 -> Z.lor (wshl 32 h 16) l = cat16 (h mod 2 ^ 16) l.
Proof. intros Hh Hl. rewrite wshl_mul by lia. apply lor_disj; lia. Qed.
Lemma sH_lt v : is_cell v -> 0 <= sH v < 2 ^ 16.
Proof. intros H. apply is_cell_lt in H. unfold sH. split; [apply Z.div_pos; lia|apply Z.div_lt_upper_bound; lia]. Qed.
Lemma br_eq l : cells_ok l -> br0 l = spX0 l /\ br1 l = spX1 l /\ br2 l = spX2 l /\ br3 l = spX3 l.
Proof.
  intros H. assert (C : forall i, (i < 16)%nat -> is_cell l.[i]) by (intros; apply cells_nth; auto).
  unfold br0, br1, br2, br3, spX0, spX1, spX2, spX3.
  rewrite !land16, hi15 by (apply is_cell_lt, C; lia).
  assert (M : forall v, v mod 2 ^ 16 mod 2 ^ 16 = v mod 2 ^ 16) by (intros; apply Z.mod_mod; lia).
  assert (N : forall v, 0 <= v mod 2 ^ 16) by (intros; apply Z.mod_pos_bound; lia).
  rewrite !Z.shiftr_div_pow2 by lia.
  pose proof (sH_lt (C 9%nat ltac:(lia))). pose proof (sH_lt (C 5%nat ltac:(lia))). pose proof (sH_lt (C 0%nat ltac:(lia))).
  pose proof (sH_lt (C 15%nat ltac:(lia))). unfold sH, sL in *.
  rewrite !lor_cat by auto. rewrite !M. repeat split.
  rewrite wshl_mul by lia. rewrite Z.mod_small by lia. unfold cat16.
  replace (l.[15] / 2 ^ 15 * 2 ^ 15 * 2 ^ 1) with (l.[15] / 2 ^ 15 * 2 ^ 16) by (change (2 ^ 16) with (2 ^ 15 * 2 ^ 1); ring).
  apply lor_disj; [lia|]. apply Z.mod_pos_bound. lia.
Qed.
Lemma zL_eq x : inw 32 x -> zL1 x = spL1 x /\ zL2 x = spL2 x.
Proof.
  intros H. unfold zL1, zL2, spL1, spL2, xors. cbn [map fold_left]. rewrite Z.lxor_0_l, rotl_id by (auto; lia). split; reflexivity.
Qed.
Lemma sbox_byte i : is_byte zuc_S0.[i] /\ is_byte zuc_S1.[i].
Proof.
  assert (F : Forall (inw 8) zuc_S0 /\ Forall (inw 8) zuc_S1).
  { assert (G : forall l, forallb (fun x => (0 <=? x) && (x <? 256)) l = true -> Forall (inw 8) l).
    { intros l G. apply Forall_forall. intros x Hx. rewrite forallb_forall in G. specialize (G x Hx). unfold inw. change (2 ^ 8) with 256. lia. }
    split; apply G; reflexivity. }
  destruct F as [F0 F1]. pose proof (@nth_inw 8 _ i ltac:(lia) F0) as A. pose proof (@nth_inw 8 _ i ltac:(lia) F1) as B.
  unfold inw, is_byte in *. change (2 ^ 8) with 256 in *. auto.
Qed.
Lemma makeu32_eq a b c d : is_byte a -> is_byte b -> is_byte c -> is_byte d -> makeu32 a b c d = be_val [a; b; c; d].
Proof.
  unfold is_byte, makeu32. intros. rewrite !wshl_mul by lia. change (32 - 24) with 8. change (32 - 16) with 16. change (32 - 8) with 24.
  rewrite !Z.mod_small by lia.
  rewrite (@lor_disj a (b * 2 ^ 16) 24) by lia. replace (a * 2 ^ 24 + b * 2 ^ 16) with ((a * 2 ^ 8 + b) * 2 ^ 16) by ring.
  rewrite lor_disj by lia. replace ((a * 2 ^ 8 + b) * 2 ^ 16 + c * 2 ^ 8) with ((a * 2 ^ 16 + b * 2 ^ 8 + c) * 2 ^ 8) by ring.
  rewrite lor_disj by lia. unfold be_val. cbn [rev app le_val]. ring.
Qed.
Lemma be_bytes_4 x : be_bytes 4 x = [x / 2 ^ 24 mod 2 ^ 8; x / 2 ^ 16 mod 2 ^ 8; x / 2 ^ 8 mod 2 ^ 8; x mod 2 ^ 8].
Proof.
  unfold be_bytes. cbn [le_bytes rev app]. change (2 ^ 8) with 256.
  change (2 ^ 16) with (256 * 256). change (2 ^ 24) with (256 * 256 * 256). rewrite !Z.div_div by lia. reflexivity.
Qed.
Lemma zsub_eq u : inw 32 u -> zsub u = spS u.
Proof.
  intros [H0 H1]. unfold zsub, spS. rewrite be_bytes_4, !land8, !Z.shiftr_div_pow2 by lia.
  rewrite (Z.mod_small (u / 2 ^ 24)).
  2:{ split; [apply Z.div_pos; lia|]. apply Z.div_lt_upper_bound; [lia|]. exact H1. }
  apply makeu32_eq; apply sbox_byte.
Qed.
Lemma spS_ok x : inw 32 (spS x).
Proof.
  unfold spS. rewrite be_bytes_4. apply (@val_inw_be 4); auto. repeat constructor; apply sbox_byte.
Qed.
Definition zok (s : zst) : Prop := cells_ok (z_l s) /\ inw 32 (z_r1 s) /\ inw 32 (z_r2 s).
Lemma cat16_inw h l : 0 <= h < 2 ^ 16 -> 0 <= l < 2 ^ 16 -> inw 32 (cat16 h l).
Proof. unfold inw, cat16. change (2 ^ 32) with (2 ^ 16 * 2 ^ 16). nia. Qed.
Lemma spX_inw l : cells_ok l -> inw 32 (spX0 l) /\ inw 32 (spX1 l) /\ inw 32 (spX2 l) /\ inw 32 (spX3 l).
Proof.
  intros H. assert (C : forall i, (i < 16)%nat -> is_cell l.[i]) by (intros; apply cells_nth; auto).
  assert (L : forall v, 0 <= sL v < 2 ^ 16) by (intros; apply Z.mod_pos_bound; lia).
  unfold spX0, spX1, spX2, spX3. repeat split; try (apply cat16_inw; auto; apply sH_lt, C; lia).
Qed.
Lemma zF_eq s : zok s ->
  zF_ (z_r1 s) (z_r2 s) (br1 (z_l s)) (br2 (z_l s)) = spR (z_l s) (z_r1 s) (z_r2 s) /\
  zF (z_r1 s) (z_r2 s) (br0 (z_l s)) (br1 (z_l s)) (br2 (z_l s)) = (spW (z_l s) (z_r1 s) (z_r2 s), spR (z_l s) (z_r1 s) (z_r2 s)).
Proof.
  destruct s as [l r1 r2]. cbn [z_l z_r1 z_r2]. intros (C & R1 & R2). cbn [z_l z_r1 z_r2] in *. destruct (br_eq C) as (E0 & E1 & E2 & _). destruct (spX_inw C) as (I0 & I1 & I2 & _).
  assert (F : zF_ r1 r2 (br1 l) (br2 l) = spR l r1 r2).
  { unfold zF_, spR. rewrite E1, E2. unfold wadd.
    assert (W1 : inw 32 ((r1 + spX1 l) mod 2 ^ 32)) by (apply inw_mod; lia).
    assert (W2 : inw 32 (Z.lxor r2 (spX2 l))) by (apply inw_xor; auto; lia).
    set (w1 := (r1 + spX1 l) mod 2 ^ 32) in *. set (w2 := Z.lxor r2 (spX2 l)) in *.
    assert (Q : forall w, inw 32 w -> 0 <= w / 2 ^ 16 < 2 ^ 16).
    { unfold inw. intros w Hw. split; [apply Z.div_pos; lia|]. apply Z.div_lt_upper_bound; [lia|]. exact (proj2 Hw). }
    assert (M : forall w, 0 <= w mod 2 ^ 16 < 2 ^ 16) by (intros; apply Z.mod_pos_bound; lia).
    rewrite !Z.shiftr_div_pow2 by lia. rewrite !lor_cat by (auto; first [apply W1|apply W2]).
    assert (C1 : inw 32 (cat16 (w1 mod 2 ^ 16) (w2 / 2 ^ 16))) by (apply cat16_inw; auto).
    assert (C2 : inw 32 (cat16 (w2 mod 2 ^ 16) (w1 / 2 ^ 16))) by (apply cat16_inw; auto).
    rewrite (proj1 (zL_eq C1)), (proj2 (zL_eq C2)).
    assert (X : forall x, inw 32 x -> inw 32 (spL1 x) /\ inw 32 (spL2 x)).
    { intros x Hx. unfold spL1, spL2, xors. cbn [map fold_left]. rewrite Z.lxor_0_l. split; repeat (apply inw_xor; [lia| |]); apply inw_rotl; auto; lia. }
    rewrite !zsub_eq by (apply X; auto). reflexivity. }
  split; auto. unfold zF. rewrite F, E0. reflexivity.
Qed.
Lemma spR_ok l r1 r2 : inw 32 (fst (spR l r1 r2)) /\ inw 32 (snd (spR l r1 r2)).
Proof. unfold spR. cbn [fst snd]. split; apply spS_ok. Qed.
Lemma sp_next_ok s : zok s -> zok (sp_next s).
Proof. intros (C & _). unfold zok, sp_next. cbn [z_l z_r1 z_r2]. split; [apply sp_shift_ok; auto|apply spR_ok]. Qed.
Lemma sp_init_ok s : zok s -> zok (sp_init_step s).
Proof. intros (C & _). unfold zok, sp_init_step. cbn [z_l z_r1 z_r2]. split; [apply sp_shift_ok; auto|apply spR_ok]. Qed.
Lemma z_word_eq s : zok s -> z_word s = (sp_next s, sp_out s).
Proof.
  intros H. unfold z_word. rewrite (proj2 (zF_eq H)). destruct (spR (z_l s) (z_r1 s) (z_r2 s)) eqn:E.
  unfold sp_next, sp_out. rewrite E, lfsr_work_eq by apply H. cbn [fst snd].
  destruct (br_eq (proj1 H)) as (_ & _ & _ & ->). reflexivity.
Qed.
Lemma z_init_round_eq s : zok s -> z_init_round s = sp_init_step s.
Proof.
  intros H. unfold z_init_round. rewrite (proj2 (zF_eq H)). destruct (spR (z_l s) (z_r1 s) (z_r2 s)) eqn:E.
  unfold sp_init_step. rewrite E. cbn [fst snd]. rewrite lfsr_init_eq; [|apply H|].
  - rewrite Z.shiftr_div_pow2 by lia. reflexivity.
  - rewrite Z.shiftr_div_pow2 by lia. unfold spW, p31. pose proof (Z.mod_pos_bound (Z.lxor (spX0 (z_l s)) (z_r1 s) + z_r2 s) (2 ^ 32) ltac:(lia)).
    set (v := _ mod 2 ^ 32) in *. change (2 ^ 1) with 2. change (2 ^ 32) with 4294967296 in *. change (2 ^ 31) with 2147483648. lia.
Qed.
Lemma z_setup_eq l : cells_ok l -> z_setup l = sp_next (Nat.iter 32 sp_init_step (Zst l 0 0)) /\ zok (z_setup l).
Proof.
  intros H.
  assert (I : forall n, Nat.iter n z_init_round (Zst l 0 0) = Nat.iter n sp_init_step (Zst l 0 0) /\ zok (Nat.iter n sp_init_step (Zst l 0 0))).
  { induction n as [|n [IH K]]; cbn [Nat.iter nat_rect].
    - split; auto. unfold zok, inw. cbn. repeat split; try lia; apply H.
    - unfold Nat.iter in *. rewrite IH. split; [apply z_init_round_eq; auto|apply sp_init_ok; auto]. }
  destruct (I 32%nat) as [E K]. unfold z_setup. rewrite E. remember (Nat.iter 32 sp_init_step (Zst l 0 0)) as s eqn:Es. clear Es E I.
  rewrite (proj1 (zF_eq K)). destruct (spR (z_l s) (z_r1 s) (z_r2 s)) eqn:R. rewrite lfsr_work_eq by apply K.
  assert (Zst (sp_shift 0 (z_l s)) z z0 = sp_next s) as -> by (unfold sp_next; rewrite R; reflexivity).
  split; auto. apply sp_next_ok; auto.
Qed.
Lemma sp_words_eq l i : cells_ok l -> sp_words l i = sp_out (Nat.iter i sp_next (z_setup l)).
Proof.
  intros H. rewrite (proj1 (z_setup_eq H)). unfold sp_words. f_equal. idtac.
  remember (Nat.iter 32 sp_init_step (Zst l 0 0)) as s.
  change (sp_next s) with (Nat.iter 1 sp_next s). rewrite iter_plus. f_equal. lia.
Qed.
