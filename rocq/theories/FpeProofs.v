(** Proofs about FF1 and FF3. *)
From Verif Require Import Base BigModel WordModel NumLib ElgProofs EcSigProofs EcSigProofs2 FpeModel FpeSpec.
From Coq Require Import Lia.
Set Implicit Arguments. Unset Strict Implicit.
Local Open Scope Z_scope.

Definition radix_ok (r : Z) : Prop := 2 <= r <= 62.
Lemma chr_eq d : chr d = char_of d.
Proof. unfold chr, char_of. destruct (d <? 10); auto. destruct (d <? 36); lia. Qed.
Lemma dig_char r d : radix_ok r -> 0 <= d < r -> dig r (char_of d) = Some d.
Proof.
  unfold radix_ok. intros R D. unfold dig, char_of. destruct (Z.ltb_spec d 10); [|destruct (Z.ltb_spec d 36)].
  - replace (48 <=? 48 + d) with true by lia. replace (48 + d <=? 57) with true by lia. cbn [andb]. replace (48 + d - 48) with d by lia. now replace (d <? r) with true by lia.
  - replace (87 + d <=? 57) with false by lia. rewrite andb_false_r. replace (97 <=? 87 + d) with true by lia. replace (87 + d <=? 122) with true by lia.
    cbn [andb]. replace (87 + d - 97 + 10) with d by lia. now replace (d <? r) with true by lia.
  - replace (29 + d <=? 57) with false by lia. rewrite andb_false_r. replace (97 <=? 29 + d) with false by lia. cbn [andb].
    replace (65 <=? 29 + d) with true by lia. replace (29 + d <=? 90) with true by lia. cbn [andb]. replace (r <=? 36) with false by lia.
    replace (29 + d - 65 + 36) with d by lia. now replace (d <? r) with true by lia.
Qed.
Lemma char_range d : 0 <= d -> 48 <= char_of d.
Proof. intros. unfold char_of. destruct (d <? 10) eqn:?; [lia|]. destruct (d <? 36) eqn:?; lia. Qed.
Lemma scan_written r X : radix_ok r -> numerals r X -> forall acc, scan r acc (written X) = Some (fold_left (fun x d => x * r + d) X acc).
Proof.
  intros R. induction 1 as [|d X D _ IH]; intros acc; [reflexivity|]. cbn [written map scan fold_left]. rewrite dig_char by auto. apply IH.
Qed.
Lemma set_string_written r X : radix_ok r -> numerals r X -> X <> [] -> set_string r (written X) = Some (num r X).
Proof.
  intros R NX NE. destruct X as [|d X]; [congruence|]. cbn [written map set_string]. inversion NX as [|? ? D NX']; subst.
  pose proof (char_range (proj1 D)). replace (char_of d =? 45) with false by lia. replace (char_of d =? 43) with false by lia.
  cbn [scan1]. apply (scan_written R NX 0).
Qed.
Lemma num_app r A B : num r (A ++ B) = num r A * r ^ Z.of_nat (length B) + num r B.
Proof.
  unfold num. rewrite fold_left_app. generalize (fold_left (fun x d => x * r + d) A 0). clear A. intros a.
  revert a. induction B as [|d B IH]; intros a; cbn [fold_left length]; [rewrite Z.pow_0_r; lia|].
  rewrite IH, (IH (0 * r + d)). rewrite Nat2Z.inj_succ, Z.pow_succ_r by lia. ring.
Qed.
Lemma num_bound r X : 2 <= r -> numerals r X -> 0 <= num r X < r ^ Z.of_nat (length X).
Proof.
  intros R. induction X as [|d X IH] using rev_ind; intros NX; [cbn; lia|]. apply Forall_app in NX as [NX D]. apply Forall_inv in D.
  rewrite num_app, app_length. cbn [length]. replace (Z.of_nat (length X + 1)) with (Z.succ (Z.of_nat (length X))) by lia. rewrite Z.pow_succ_r by lia.
  change (num r [d]) with (0 * r + d). change (Z.of_nat 1) with 1. rewrite Z.pow_1_r. specialize (IH NX). nia.
Qed.
Lemma str_length r m : forall x, length (str r m x) = m.
Proof. induction m as [|m IH]; intros x; cbn [str]; [reflexivity|]. rewrite app_length, IH. cbn. lia. Qed.
Lemma str_numerals r m : 2 <= r -> forall x, numerals r (str r m x).
Proof. intros R. induction m as [|m IH]; intros x; cbn [str]; [constructor|]. apply Forall_app. split; [apply IH|]. repeat constructor; apply Z.mod_pos_bound; lia. Qed.
Lemma num_str r m : 2 <= r -> forall x, num r (str r m x) = x mod r ^ Z.of_nat m.
Proof.
  intros R. induction m as [|m IH]; intros x; cbn [str]; [cbn; now rewrite Z.mod_1_r|].
  rewrite num_app, IH. cbn [length]. change (num r [x mod r]) with (0 * r + x mod r). change (Z.of_nat 1) with 1. rewrite Z.pow_1_r.
  rewrite Nat2Z.inj_succ, Z.pow_succ_r by lia. rewrite Z.rem_mul_r by (try lia; apply Z.pow_nonzero; lia). ring.
Qed.
Lemma str_num r X : 2 <= r -> numerals r X -> str r (length X) (num r X) = X.
Proof.
  intros R. induction X as [|d X IH] using rev_ind; intros NX; [reflexivity|]. apply Forall_app in NX as [NX D]. apply Forall_inv in D.
  rewrite num_app, app_length. cbn [length]. rewrite Nat.add_1_r. cbn [str]. change (num r [d]) with (0 * r + d). change (Z.of_nat 1) with 1. rewrite Z.pow_1_r.
  replace (num r X * r + (0 * r + d)) with (d + num r X * r) by ring. rewrite Z.div_add, Z.mod_add by lia. rewrite Z.div_small, Z.mod_small, Z.add_0_l by lia. now rewrite IH.
Qed.
Lemma str_zero r m : 2 <= r -> str r m 0 = repeat 0 m.
Proof. intros R. induction m as [|m IH]; [reflexivity|]. cbn [str]. rewrite Z.div_0_l, Z.mod_0_l, IH by lia. now rewrite <- repeat_cons. Qed.
Lemma digs_str r : 2 <= r -> forall m fuel v, 0 <= v < r ^ Z.of_nat m -> v < r ^ Z.of_nat fuel -> (0 < m)%nat -> (0 < fuel)%nat ->
  (length (digs fuel r v) <= m)%nat /\ repeat 48 (m - length (digs fuel r v)) ++ digs fuel r v = written (str r m v).
Proof.
  intros R. induction m as [|m IH]; intros fuel v Hv Hf Hm Hf0; [lia|]. destruct fuel as [|f]; [lia|]. cbn [digs].
  destruct (Z.ltb_spec v r) as [L|L].
  - cbn [length]. split; [lia|]. cbn [str]. rewrite Z.div_small, Z.mod_small, str_zero by lia. unfold written. rewrite map_app. cbn [map]. rewrite chr_eq. f_equal.
    replace (S m - 1)%nat with m by lia. clear. induction m; cbn; [reflexivity|now rewrite <- IHm].
  - assert (M0 : (0 < m)%nat). { destruct m; [|lia]. rewrite Z.pow_1_r in Hv. lia. }
    assert (F0 : (0 < f)%nat). { destruct f; [|lia]. rewrite Z.pow_1_r in Hf. lia. }
    rewrite Nat2Z.inj_succ, Z.pow_succ_r in Hv, Hf by lia.
    destruct (IH f (v / r)) as [I1 I2]; auto; [split; [apply Z.div_pos; lia|apply Z.div_lt_upper_bound; lia]|apply Z.div_lt_upper_bound; lia|].
    rewrite app_length. cbn [length]. split; [lia|]. cbn [str]. unfold written in *. rewrite map_app, <- I2. cbn [map].
    rewrite chr_eq, <- app_assoc. do 2 f_equal. lia.
Qed.
Lemma fuel_ok r v : 2 <= r -> 0 <= v -> v < r ^ Z.of_nat (S (bitlen v)).
Proof.
  intros R V. destruct (bitlen_bound v) as [[_ B]|]; [|lia]. apply Z.lt_le_trans with (1 := B). apply Z.le_trans with (2 ^ Z.of_nat (S (bitlen v))).
  - apply Z.pow_le_mono_r; lia.
  - apply Z.pow_le_mono_l. lia.
Qed.
Lemma lpad_text r m v : 2 <= r -> (0 < m)%nat -> 0 <= v < r ^ Z.of_nat m -> lpad m (text r v) = Ok (written (str r m v)).
Proof.
  intros R M V. unfold lpad, text. destruct (@digs_str r R m (S (bitlen v)) v V) as [L E]; [apply fuel_ok; lia|auto|lia|].
  replace (m <? length _)%nat with false by (symmetry; apply Nat.ltb_ge; auto). now rewrite E.
Qed.
Lemma lpad0_eq fuel m : forall s, (m - length s <= fuel)%nat -> lpad0 fuel m s = repeat 48 (m - length s) ++ s.
Proof.
  induction fuel as [|f IH]; intros s H; cbn [lpad0]; [replace (m - length s)%nat with 0%nat by lia; reflexivity|].
  destruct (Nat.ltb_spec (length s) m).
  - rewrite IH by (cbn [length]; lia). cbn [length]. replace (m - length s)%nat with (S (m - S (length s)))%nat by lia. cbn [repeat app].
    rewrite app_comm_cons, repeat_cons, <- app_assoc. reflexivity.
  - replace (m - length s)%nat with 0%nat by lia. reflexivity.
Qed.
Lemma lpad0_text r m v : 2 <= r -> (0 < m)%nat -> 0 <= v < r ^ Z.of_nat m -> lpad0 m m (text r v) = written (str r m v).
Proof.
  intros R M V. rewrite lpad0_eq by lia. unfold text. destruct (@digs_str r R m (S (bitlen v)) v V) as [L E]; [apply fuel_ok; lia|auto|lia|]. exact E.
Qed.

(** * Numeric Feistel networks with two moduli *)
Section feistel.
Variable (U V : Z) (UP : 0 < U) (VP : 0 < V) (F : nat -> Z -> Z).
Definition modulus (i : nat) := if Nat.even i then U else V.
Definition fe (ab : Z * Z) (i : nat) : Z * Z := (snd ab, (fst ab + F i (snd ab)) mod modulus i).
Definition fd (ab : Z * Z) (i : nat) : Z * Z := ((snd ab - F i (fst ab)) mod modulus i, fst ab).
(** the state before round i *)
Definition bounded (i : nat) (ab : Z * Z) : Prop := 0 <= fst ab < modulus i /\ 0 <= snd ab < modulus (S i).
Lemma modulus_pos i : 0 < modulus i. Proof. unfold modulus. destruct (Nat.even i); auto. Qed.
Lemma modulus_ss i : modulus (S (S i)) = modulus i. Proof. reflexivity. Qed.
Lemma fe_bounded i ab : bounded i ab -> bounded (S i) (fe ab i).
Proof. intros [A B]. split; [exact B|]. cbn [fe snd]. rewrite modulus_ss. apply Z.mod_pos_bound, modulus_pos. Qed.
Lemma fd_bounded i ab : bounded (S i) ab -> bounded i (fd ab i).
Proof. intros [A B]. split; cbn [fd fst snd]; [apply Z.mod_pos_bound, modulus_pos|exact A]. Qed.
Lemma fd_fe i ab : bounded i ab -> fd (fe ab i) i = ab.
Proof.
  intros [A B]. destruct ab as [a b]. unfold fd, fe. cbn [fst snd] in *. f_equal.
  rewrite Zminus_mod_idemp_l. replace (a + F i b - F i b) with a by ring. apply Z.mod_small. lia.
Qed.
Lemma fe_fd i ab : bounded (S i) ab -> fe (fd ab i) i = ab.
Proof.
  intros [A B]. destruct ab as [a b]. unfold fd, fe. cbn [fst snd] in *. f_equal.
  rewrite Zplus_mod_idemp_l. replace (b - F i a + F i a) with b by ring. apply Z.mod_small. rewrite modulus_ss in B. lia.
Qed.
Lemma run_bounded n : forall i ab, bounded i ab -> bounded (i + n) (fold_left fe (seq i n) ab).
Proof. induction n as [|n IH]; intros i ab H; cbn [seq fold_left]; [now rewrite Nat.add_0_r|]. replace (i + S n)%nat with (S i + n)%nat by lia. apply IH, fe_bounded, H. Qed.
Lemma unrun_bounded n : forall i ab, bounded (i + n) ab -> bounded i (fold_left fd (rev (seq i n)) ab).
Proof.
  induction n as [|n IH]; intros i ab H; [rewrite Nat.add_0_r in H; exact H|]. cbn [seq rev]. rewrite fold_left_app. cbn [fold_left]. apply fd_bounded, IH.
  now replace (S i + n)%nat with (i + S n)%nat by lia.
Qed.
Lemma unrun_run n : forall i ab, bounded i ab -> fold_left fd (rev (seq i n)) (fold_left fe (seq i n) ab) = ab.
Proof.
  induction n as [|n IH]; intros i ab H; [reflexivity|]. cbn [seq rev fold_left]. rewrite fold_left_app. rewrite IH by now apply fe_bounded. cbn [fold_left]. now apply fd_fe.
Qed.
Lemma run_unrun n : forall i ab, bounded (i + n) ab -> fold_left fe (seq i n) (fold_left fd (rev (seq i n)) ab) = ab.
Proof.
  induction n as [|n IH]; intros i ab H; [reflexivity|]. cbn [seq rev fold_left]. rewrite fold_left_app. cbn [fold_left].
  replace (i + S n)%nat with (S i + n)%nat in H by lia. rewrite fe_fd by now apply unrun_bounded. now apply IH.
Qed.
End feistel.
