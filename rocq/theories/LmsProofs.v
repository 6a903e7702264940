(** Proofs about LM-OTS: Winternitz coefficients, chains, one-time keys, their encodings (C80-C82). *)
From Verif Require Import Base WordModel KdfModel KdfProofs LmsModel LmsSpec.
Set Implicit Arguments. Unset Strict Implicit.
Local Open Scope nat_scope.

(** * Digits *)
Definition dval (w : Z) (cs : list Z) : Z := fold_left (fun a c => a * 2 ^ w + c)%Z cs 0%Z.
Lemma dval_acc w cs a : (0 <= w)%Z ->
  fold_left (fun a c => a * 2 ^ w + c)%Z cs a = (a * 2 ^ (w * Z.of_nat (length cs)) + dval w cs)%Z.
Proof.
  intros Hw. unfold dval. revert a. induction cs as [|c cs IH]; intros a; cbn [fold_left length].
  - rewrite Z.mul_0_r. lia.
  - rewrite (IH (a * 2 ^ w + c)%Z), (IH (0 * 2 ^ w + c)%Z).
    replace (w * Z.of_nat (S (length cs)))%Z with (w + w * Z.of_nat (length cs))%Z by lia.
    rewrite Z.pow_add_r by nia. ring.
Qed.
Lemma dval_app w a b : (0 <= w)%Z -> dval w (a ++ b) = (dval w a * 2 ^ (w * Z.of_nat (length b)) + dval w b)%Z.
Proof. intros Hw. unfold dval at 1. rewrite fold_left_app, dval_acc by auto. reflexivity. Qed.
Lemma dval_bound w cs : (0 <= w)%Z -> Forall (fun c => 0 <= c < 2 ^ w)%Z cs -> (0 <= dval w cs < 2 ^ (w * Z.of_nat (length cs)))%Z.
Proof.
  intros Hw. induction cs as [|c cs IH] using rev_ind; intros F.
  - rewrite Z.mul_0_r. cbn. lia.
  - apply Forall_app in F as [F1 F2]. apply Forall_inv in F2. specialize (IH F1).
    rewrite dval_app, app_length by auto. cbn [length]. replace (dval w [c]) with c by (unfold dval; cbn; lia).
    replace (w * Z.of_nat (length cs + 1))%Z with (w * Z.of_nat (length cs) + w)%Z by lia.
    rewrite Z.pow_add_r by nia. replace (w * Z.of_nat 1)%Z with w by lia.
    set (B := (2 ^ w)%Z) in *. set (X := (2 ^ (w * Z.of_nat (length cs)))%Z) in *. nia.
Qed.
Lemma dval_le w a b : (0 <= w)%Z -> Forall2 Z.le a b -> (dval w a <= dval w b)%Z.
Proof.
  intros Hw F. unfold dval. assert (G : (0 <= 0)%Z) by lia. revert G. generalize 0%Z at 2 4 as u. intros u. 
  assert (forall x y, (x <= y)%Z -> (fold_left (fun a c => a * 2 ^ w + c) a x <= fold_left (fun a c => a * 2 ^ w + c) b y)%Z).
  { clear u. induction F as [|c d a b Hcd F IH]; intros x y L; cbn [fold_left]; auto. apply IH.
    pose proof (Z.pow_nonneg 2 w ltac:(lia)). nia. }
  auto.
Qed.

(** * Coefs *)
Definition win w : Prop := (w = 1 \/ w = 2 \/ w = 4 \/ w = 8)%Z.
Definition epb (w : Z) : nat := Z.to_nat (8 / w).
Definition byte_digits (w b : Z) : list Z := map (fun i => Z.land (Z.shiftr b (8 - w - Z.of_nat i * w)) (2 ^ w - 1)) (seq 0 (epb w)).
Definition byte_check (w : Z) (n : nat) : bool :=
  let ds := byte_digits w (Z.of_nat n) in
  forallb (fun c => (0 <=? c) && (c <? 2 ^ w))%Z%bool ds && (dval w ds =? Z.of_nat n)%Z.
Lemma byte_digits_ok w b : win w -> is_byte b -> Forall (fun c => 0 <= c < 2 ^ w)%Z (byte_digits w b) /\ dval w (byte_digits w b) = b.
Proof.
  intros W B.
  assert (C : forallb (byte_check w) (seq 0 256) = true) by (destruct W as [ -> | [ -> | [ -> | -> ]]]; vm_compute; reflexivity).
  rewrite forallb_forall in C. unfold is_byte in B. specialize (C (Z.to_nat b)). rewrite in_seq in C. specialize (C ltac:(lia)).
  unfold byte_check in C. rewrite Z2Nat.id in C by lia. apply andb_prop in C as [C1 C2]. split; [|lia].
  apply Forall_forall. intros c Hc. rewrite forallb_forall in C1. specialize (C1 c Hc). lia.
Qed.
Lemma epb_w w : win w -> (w * Z.of_nat (epb w) = 8)%Z /\ 0 < epb w.
Proof. intros [ -> | [ -> | [ -> | -> ]]]; split; vm_compute; solve [reflexivity | repeat constructor]. Qed.
Lemma byte_digits_length w b : length (byte_digits w b) = epb w.
Proof. unfold byte_digits. rewrite map_length, seq_length. reflexivity. Qed.
Lemma seq_shift_n n len a : seq (n + a) len = map (Nat.add n) (seq a len).
Proof. revert a. induction len; intros a; cbn [seq map]; auto. rewrite <- IHlen. do 2 f_equal. lia. Qed.
Lemma coefs_eq w x : win w -> coefs x w = Ok (concat (map (byte_digits w) x)).
Proof.
  intros W. unfold coefs.
  replace (win_mask w) with (Ok (2 ^ w - 1)%Z) by (destruct W as [ -> | [ -> | [ -> | -> ]]]; reflexivity).
  cbn [rbind]. fold (epb w). destruct (epb_w W) as [_ E]. f_equal.
  induction x as [|b x IH]; [rewrite Nat.mul_0_r; reflexivity|]. cbn [length map concat]. rewrite <- IH.
  replace (epb w * S (length x)) with (epb w + epb w * length x) by lia. rewrite seq_app, map_app. f_equal.
  - unfold byte_digits. apply map_ext_in. intros i Hi. apply in_seq in Hi. rewrite Nat.div_small, Nat.mod_small by lia. reflexivity.
  - cbn [Nat.add]. replace (epb w) with (epb w + 0) at 1 by lia. rewrite seq_shift_n, map_map. apply map_ext. intros i.
    replace (epb w + i) with (i + 1 * epb w) by lia. rewrite Nat.div_add, Nat.mod_add by lia.
    replace (i / epb w + 1) with (S (i / epb w)) by lia. reflexivity.
Qed.
Lemma coefs_length w x : length (concat (map (byte_digits w) x)) = epb w * length x.
Proof. induction x; cbn [map concat length]; [lia|]. rewrite app_length, byte_digits_length, IHx. lia. Qed.
Lemma be_val_cons b x : be_val (b :: x) = (b * 256 ^ Z.of_nat (length x) + be_val x)%Z.
Proof.
  unfold be_val. cbn [rev]. rewrite <- (rev_length x). generalize (rev x) as l. induction l; cbn [app le_val length].
  - change (256 ^ Z.of_nat 0)%Z with 1%Z. lia.
  - rewrite IHl. rewrite Nat2Z.inj_succ, Z.pow_succ_r by lia. lia.
Qed.
Lemma coefs_digits w x : win w -> bytes_ok x -> digits w (concat (map (byte_digits w) x)) (be_val x).
Proof.
  intros W B. assert (Hw : (0 <= w)%Z) by (destruct W as [ -> | [ -> | [ -> | -> ]]]; lia).
  induction x as [|b x IH]; cbn [map concat]; [split; [constructor|reflexivity]|].
  specialize (IH (Forall_inv_tail B)). apply Forall_inv in B. destruct (byte_digits_ok W B) as [F D]. destruct IH as [F' D'].
  split; [apply Forall_app; auto|]. fold (dval w (byte_digits w b ++ concat (map (byte_digits w) x))).
  rewrite dval_app by auto. fold (dval w (concat (map (byte_digits w) x))) in D'. rewrite D, D', be_val_cons, coefs_length. do 2 f_equal.
  replace (w * Z.of_nat (epb w * length x))%Z with (w * Z.of_nat (epb w) * Z.of_nat (length x))%Z by lia.
  rewrite (proj1 (epb_w W)), Z.pow_mul_r by lia. reflexivity.
Qed.
Lemma be_val_inj a b : bytes_ok a -> bytes_ok b -> length a = length b -> be_val a = be_val b -> a = b.
Proof. intros A B L E. rewrite <- (be_bytes_val A eq_refl), <- (be_bytes_val B eq_refl), L, E. reflexivity. Qed.

(** * The checksum *)
Lemma cksum_bound w cs : (0 <= w)%Z -> Forall (fun c => 0 <= c < 2 ^ w)%Z cs -> (0 <= checksum w cs <= Z.of_nat (length cs) * (2 ^ w - 1))%Z.
Proof. intros Hw. induction 1; cbn [checksum fold_right length]; [lia|]. fold (checksum w l). nia. Qed.
Lemma cksm_sum w cs : (fold_left (fun sum c => (sum + (2 ^ w - 1 - c)) mod 2 ^ 16) cs 0 = checksum w cs mod 2 ^ 16)%Z.
Proof.
  assert (G : forall s, (fold_left (fun sum c => (sum + (2 ^ w - 1 - c)) mod 2 ^ 16) cs (s mod 2 ^ 16) = (s + checksum w cs) mod 2 ^ 16)%Z).
  { induction cs as [|c cs IH]; intros s; cbn [fold_left checksum fold_right].
    - rewrite Z.add_0_r. reflexivity.
    - rewrite Z.add_mod_idemp_l by lia. rewrite IH. fold (checksum w cs). f_equal. ring. }
  exact (G 0%Z).
Qed.
Lemma cksm_eq w ls cs : (0 <= ls < 16)%Z -> (0 <= checksum w cs < 2 ^ (16 - ls))%Z -> cksm cs w ls = (checksum w cs * 2 ^ ls)%Z.
Proof.
  intros L B. unfold cksm. rewrite cksm_sum, Z.shiftl_mul_pow2 by lia.
  assert (E : (2 ^ 16 = 2 ^ (16 - ls) * 2 ^ ls)%Z) by (rewrite <- Z.pow_add_r by lia; f_equal; lia).
  pose proof (Z.pow_pos_nonneg 2 ls ltac:(lia) ltac:(lia)) as P.
  rewrite (Z.mod_small (checksum w cs)) by (rewrite E; nia). apply Z.mod_small. rewrite E. nia.
Qed.
Lemma dval_firstn w cs k : (0 <= w)%Z -> Forall (fun c => 0 <= c < 2 ^ w)%Z cs -> k <= length cs ->
  dval w (firstn k cs) = (dval w cs / 2 ^ (w * Z.of_nat (length cs - k)))%Z.
Proof.
  intros Hw F L. rewrite <- (firstn_skipn k cs) in F at 1. apply Forall_app in F as [F1 F2].
  pose proof (dval_bound Hw F2) as B. rewrite skipn_length in B.
  rewrite <- (firstn_skipn k cs) at 2. rewrite dval_app by auto. rewrite skipn_length.
  rewrite Z.div_add_l by (apply Z.pow_nonzero; nia). rewrite Z.div_small by auto. lia.
Qed.

(** The coefficients of a digest: its digits, then those of the checksum. *)
Lemma expand_ok p d : ots_wf p -> length d = o_n p -> bytes_ok d -> exists cs ck,
  expand d p = Ok (cs ++ ck) /\ digits (o_w p) cs (be_val d) /\ digits (o_w p) ck (checksum (o_w p) cs) /\
  length cs = epb (o_w p) * o_n p /\ length (cs ++ ck) = o_p p.
Proof.
  intros (Sz & Np & HL & HB & W & LS & PW & CB & _) L B. set (w := o_w p) in *.
  assert (Hw : (0 < w)%Z) by (destruct W as [ -> | [ -> | [ -> | -> ]]]; lia).
  destruct (epb_w W) as [E8 E0]. unfold expand. fold w. rewrite coefs_eq by exact W. cbn [rbind]. rewrite coefs_eq by exact W. cbn [rbind].
  set (cs := concat (map (byte_digits w) d)). set (cc := concat (map (byte_digits w) (be_bytes 2 (cksm cs w (o_ls p))))).
  pose proof (coefs_digits W B) as D. fold cs in D.
  assert (Lcs : length cs = epb w * o_n p) by (unfold cs; rewrite coefs_length, L; reflexivity).
  assert (Lcc : length cc = epb w * 2) by (unfold cc; rewrite coefs_length, be_bytes_length; reflexivity).
  assert (C : (0 <= checksum w cs < 2 ^ (16 - o_ls p))%Z).
  { destruct D as [F _]. pose proof (cksum_bound (Z.lt_le_incl _ _ Hw) F) as Q. rewrite Lcs in Q.
    assert (Z.of_nat (epb w) = 8 / w)%Z by (unfold epb; destruct W as [ -> | [ -> | [ -> | -> ]]]; reflexivity). nia. }
  pose proof (coefs_digits W (be_bytes_ok 2 (cksm cs w (o_ls p)))) as D2. fold cc in D2.
  rewrite be_val_bytes, (cksm_eq LS C) in D2.
  assert (EP : (2 ^ 16 = 2 ^ (16 - o_ls p) * 2 ^ o_ls p)%Z) by (rewrite <- Z.pow_add_r by lia; f_equal; lia).
  pose proof (Z.pow_pos_nonneg 2 (o_ls p) ltac:(lia) ltac:(lia)) as PP.
  change (256 ^ Z.of_nat 2)%Z with (2 ^ 16)%Z in D2. rewrite Z.mod_small in D2 by (rewrite EP; nia).
  assert (P1 : epb w * o_n p <= o_p p) by nia.
  assert (P2 : o_p p - epb w * o_n p <= epb w * 2) by nia.
  rewrite app_length, Lcs, Lcc. replace (o_p p <=? _) with true by (symmetry; apply Nat.leb_le; lia).
  exists cs, (firstn (o_p p - epb w * o_n p) cc). split; [|split; [exact D|split; [|split; [exact Lcs|]]]].
  - rewrite firstn_app, Lcs. rewrite (firstn_all2 (n := o_p p) cs) by lia. reflexivity.
  - destruct D2 as [F2 V2]. split.
    + rewrite <- (firstn_skipn (o_p p - epb w * o_n p) cc) in F2. apply Forall_app in F2. tauto.
    + fold (dval w (firstn (o_p p - epb w * o_n p) cc)). rewrite dval_firstn by (auto; lia).
      fold (dval w cc) in V2. rewrite V2, Lcc.
      replace (w * Z.of_nat (epb w * 2 - (o_p p - epb w * o_n p)))%Z with (o_ls p) by nia.
      apply Z.div_mul. lia.
  - rewrite app_length, firstn_length. lia.
Qed.
Lemma checksum_anti w a b : Forall2 Z.le a b -> (checksum w b <= checksum w a)%Z /\ (checksum w b = checksum w a -> a = b).
Proof.
  induction 1 as [|x y a b L F [I1 I2]]; [split; [lia|auto]|]. cbn [checksum fold_right]. fold (checksum w a) (checksum w b).
  split; [lia|]. intros E. f_equal; [lia|apply I2; lia].
Qed.
Lemma Forall2_le_nth (a b : list Z) : length a = length b -> (forall i, i < length a -> (a.[i] <= b.[i])%Z) -> Forall2 Z.le a b.
Proof.
  revert b. induction a as [|x a IH]; intros [|y b] L E; cbn in L; try lia; constructor.
  - apply (E 0). cbn. lia.
  - apply IH; [lia|]. intros i Hi. apply (E (S i)). cbn. lia.
Qed.
Lemma no_domination p d1 d2 e1 e2 : ots_wf p -> length d1 = o_n p -> length d2 = o_n p -> bytes_ok d1 -> bytes_ok d2 -> d1 <> d2 ->
  expand d1 p = Ok e1 -> expand d2 p = Ok e2 -> exists i, i < o_p p /\ (e1.[i] < e2.[i])%Z.
Proof.
  intros WF L1 L2 B1 B2 NE X1 X2. pose proof WF as (_ & _ & _ & _ & W & _).
  assert (Hw : (0 <= o_w p)%Z) by (destruct W as [ -> | [ -> | [ -> | -> ]]]; lia).
  destruct (expand_ok WF L1 B1) as (cs1 & ck1 & Y1 & [F1 V1] & [G1 K1] & M1 & N1).
  destruct (expand_ok WF L2 B2) as (cs2 & ck2 & Y2 & [F2 V2] & [G2 K2] & M2 & N2).
  rewrite Y1 in X1. injection X1 as <-. rewrite Y2 in X2. injection X2 as <-.
  destruct (existsb (fun i => ((cs1 ++ ck1).[i] <? (cs2 ++ ck2).[i])%Z) (seq 0 (o_p p))) eqn:Ex.
  - apply existsb_exists in Ex as (i & Hi & Lt). apply in_seq in Hi. exists i. split; lia.
  - exfalso. apply NE.
    assert (A : forall i, i < o_p p -> ((cs2 ++ ck2).[i] <= (cs1 ++ ck1).[i])%Z).
    { intros i Hi. destruct (Z.le_gt_cases (cs2 ++ ck2).[i] (cs1 ++ ck1).[i]) as [Q|Q]; auto.
      assert (T : existsb (fun i => ((cs1 ++ ck1).[i] <? (cs2 ++ ck2).[i])%Z) (seq 0 (o_p p)) = true); [|congruence].
      apply existsb_exists. exists i. split; [apply in_seq; lia|lia]. }
    assert (Q1 : Forall2 Z.le cs2 cs1).
    { apply Forall2_le_nth; [lia|]. intros i Hi. rewrite app_length in N1, N2. specialize (A i ltac:(lia)). rewrite !app_nth1 in A by lia. auto. }
    assert (Q2 : Forall2 Z.le ck2 ck1).
    { rewrite app_length in N1, N2. apply Forall2_le_nth; [lia|]. intros i Hi. specialize (A (length cs2 + i) ltac:(lia)).
      rewrite !app_nth2 in A by lia. replace (length cs2 + i - length cs2) with i in A by lia.
      replace (length cs2 + i - length cs1) with i in A by lia. auto. }
    apply (dval_le Hw) in Q2. unfold dval in Q2. rewrite K1, K2 in Q2.
    destruct (checksum_anti (o_w p) Q1) as [Q3 Q4]. rewrite <- (Q4 ltac:(lia)) in V1. apply be_val_inj; auto; congruence.
Qed.
