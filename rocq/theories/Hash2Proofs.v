(** BELT hash and Bash: the last blocks, and what overlong writes do to Bash. *)
From Verif Require Import Base WordModel WordLib HashSpec CcmProofs HbufModel HbufSpec HbufProofs Hash1Proofs BeltModel Hash2Model Hash2Spec.
Set Implicit Arguments. Unset Strict Implicit.
Local Open Scope nat_scope.

Lemma zero_pad_al n q k : 0 < n -> length q = k * n -> zero_pad n q = q.
Proof.
  intros P H. unfold zero_pad. rewrite H, Nat.mod_mul, Nat.sub_0_r, Nat.mod_same by lia. apply app_nil_r.
Qed.
Lemma zero_pad_rest n q t k : 0 < length t <= n -> length q = k * n -> zero_pad n (q ++ t) = q ++ t ++ repeat 0%Z (n - length t).
Proof.
  intros P H. unfold zero_pad. rewrite app_length, H. rewrite <- app_assoc. do 3 f_equal.
  destruct (Nat.eq_dec (length t) n) as [E|E].
  - rewrite E, Nat.sub_diag. replace (k * n + n) with ((k + 1) * n) by lia. rewrite Nat.mod_mul, Nat.sub_0_r by lia. apply Nat.mod_same. lia.
  - rewrite Nat.add_comm, Nat.mod_add by lia. rewrite (Nat.mod_small (length t)) by lia. apply Nat.mod_small. lia.
Qed.
Lemma slice_0 n (a b : bytes) : length a = n -> slice 0 n (a ++ b) = a.
Proof. intro H. unfold slice. cbn [skipn]. now apply firstn_app_exact. Qed.
Lemma slice_1 k n (a b c : bytes) : length a = k -> length b = n -> slice k n (a ++ b ++ c) = b.
Proof. intros H1 H2. unfold slice. rewrite skipn_app_exact by auto. now apply firstn_app_exact. Qed.

Lemma bh_ctr_add N s n : (0 <= N)%Z -> n <= 32 -> bh_ctr (le_bytes 16 N ++ s) n = le_bytes 16 (N + 8 * Z.of_nat n) ++ s.
Proof.
  intros HN Hn. unfold bh_ctr. rewrite skipn_app_exact by apply le_bytes_length. 
  assert (S16 : forall z, le_bytes 16 z = le_bytes 8 z ++ le_bytes 8 (z / 2 ^ 64)) by (intro z; apply (le_bytes_split 8 8 z)).
  rewrite !S16, <- !app_assoc. rewrite slice_0, slice_1 by apply le_bytes_length. rewrite !le_val_bytes.
  change (256 ^ Z.of_nat 8)%Z with (2 ^ 64)%Z. set (b := (8 * Z.of_nat n)%Z).
  assert (B : (0 <= b < 2 ^ 64)%Z) by (unfold b; lia).
  assert (EB : wshl 64 (Z.of_nat n) 3 = b).
  { unfold wshl. rewrite Z.shiftl_mul_pow2 by lia. change (2 ^ 3)%Z with 8%Z. rewrite Z.mod_small; unfold b in *; lia. }
  rewrite EB. unfold wadd. rewrite Z.add_mod_idemp_l by lia.
  set (a := (N mod 2 ^ 64)%Z). assert (A : (0 <= a < 2 ^ 64)%Z) by (apply Z.mod_pos_bound; lia).
  set (Q := (N / 2 ^ 64)%Z). assert (DN : N = (2 ^ 64 * Q + a)%Z) by (unfold Q, a; apply Z.div_mod; lia).
  assert (M8 : forall z, le_bytes 8 (z mod 2 ^ 64) = le_bytes 8 z) by (intro z; symmetry; apply (Hash1Proofs.le_bytes_mod 8 z)).
  rewrite M8. f_equal. f_equal.
  assert (EQ : ((N + b) mod 2 ^ 64 = (a + b) mod 2 ^ 64)%Z) by (unfold a; rewrite Z.add_mod_idemp_l; lia).
  rewrite EQ. destruct (Z_lt_le_dec (a + b) (2 ^ 64)) as [C|C].
  - rewrite (Z.mod_small (a + b)) by lia. destruct (Z.ltb_spec (a + b) b); [lia|]. rewrite M8. f_equal.
    apply Z.div_unique with (a + b)%Z; lia.
  - replace ((a + b) mod 2 ^ 64)%Z with (a + b - 2 ^ 64)%Z by (apply Z.mod_unique with 1%Z; lia).
    destruct (Z.ltb_spec (a + b - 2 ^ 64) b); [|lia]. rewrite Z.add_mod_idemp_l by lia. rewrite M8. f_equal.
    apply Z.div_unique with (a + b - 2 ^ 64)%Z; lia.
Qed.
Lemma bh_blocks l : forall N s h, (0 <= N)%Z ->
  fold_left bh_block l (le_bytes 16 N ++ s, h) =
  (le_bytes 16 (N + 256 * Z.of_nat (length l)) ++ fst (fold_left belt_step l (s, h)), snd (fold_left belt_step l (s, h))).
Proof.
  induction l as [|x l IH]; intros N s h HN.
  - cbn [fold_left length fst snd]. do 3 f_equal. lia.
  - cbn [fold_left]. unfold bh_block at 2. cbn [fst snd]. rewrite bh_ctr_add by lia. cbn [bh_process].
    rewrite firstn_app_exact, skipn_app_exact by apply le_bytes_length.
    rewrite IH by lia. unfold belt_step at 4. cbn [fst snd]. unfold belt_step at 2. cbn [fst snd]. do 3 f_equal. cbn [length]. lia.
Qed.
Lemma bh_iter q k : length q = k * 32 ->
  iterated 32 bh_block (repeat 0%Z 32, bh_iv) q =
  (le_bytes 16 (8 * Z.of_nat (length q)) ++ fst (iterated 32 belt_step (repeat 0%Z 16, bh_iv) q), snd (iterated 32 belt_step (repeat 0%Z 16, bh_iv) q)).
Proof.
  intro H. unfold iterated. change (repeat 0%Z 32) with (le_bytes 16 0 ++ repeat 0%Z 16). rewrite bh_blocks by lia.
  assert (P : 0 < 32) by lia. destruct (@chunks_all_len _ 32 q k P H) as [_ C]. rewrite C. do 3 f_equal. rewrite H. lia.
Qed.
Lemma bh_sum_ok m d inp : Held bh_block 32 (repeat 0%Z 32, bh_iv) m d -> bh_sum d inp = Ok (inp ++ belt_digest m).
Proof.
  intros (q & t & k & []). unfold bh_sum, belt_digest, bh_checksum. do 2 f_equal.
  assert (P : 0 < 32) by lia. rewrite h_s, (bh_iter h_q). cbn [fst snd].
  destruct (Nat.eqb_spec (b_nx d) 0) as [E|E]; cbn [negb].
  - assert (T : t = []) by (destruct t; auto; cbn in *; lia). rewrite T, app_nil_r in h_m. subst m.
    rewrite (@zero_pad_al 32 q k) by auto. reflexivity.
  - assert (X : copyat (b_nx d) (repeat 0%Z 32) (b_x d) = t ++ repeat 0%Z (32 - length t)).
    { rewrite copyat_full by (rewrite ?repeat_length; lia). rewrite h_x, h_X, <- h_t. f_equal.
      replace 32 with ((32 - length t) + length t) at 2 by lia. rewrite repeat_split, firstn_app_exact; auto. apply repeat_length. }
    rewrite X. rewrite bh_ctr_add by lia. cbn [bh_process fst snd].
    rewrite firstn_app_exact, skipn_app_exact by apply le_bytes_length.
    assert (ZP : zero_pad 32 m = q ++ t ++ repeat 0%Z (32 - length t)) by (rewrite h_m; apply zero_pad_rest with k; lia). rewrite ZP.
    rewrite (@iterated_app _ 32 belt_step (repeat 0%Z 16, bh_iv) q (t ++ repeat 0%Z (32 - length t)) k) by auto.
    rewrite (@iterated_one _ 32 belt_step (iterated 32 belt_step (repeat 0%Z 16, bh_iv) q) (t ++ repeat 0%Z (32 - length t))) by (rewrite ?app_length, ?repeat_length; lia).
    set (st := iterated 32 belt_step _ q). unfold belt_step. cbn [fst snd].
    assert (LM : length m = length q + b_nx d) by (rewrite h_m, app_length; lia). rewrite LM, Nat2Z.inj_add, Z.mul_add_distr_l. reflexivity.
Qed.

(** * Bash *)
Section bash.
  Variable hs : nat.
  Hypothesis hs_ok : 1 <= hs <= 64.
  Let bs := bash_bs hs.
  Lemma bash_bs_eq : bs + 2 * hs = 192 /\ 0 < bs.
  Proof. unfold bs, bash_bs. lia. Qed.
  (** [m] has been written in writes that fit: what is behind the block is still zero. *)
  Record bholds (m : bytes) (st : bash_st) (q t : bytes) (k : nat) : Prop := {
    g_m : m = q ++ t;
    g_q : length q = k * bs;
    g_s : b_s st = iterated bs (bash_absorb hs) (bash_iv hs) q;
    g_x : exists u, b_x st = t ++ u ++ repeat 0%Z (2 * hs) /\ length t + length u = bs;
    g_t : length t = b_nx st;
    g_nx : b_nx st < bs }.
  Definition BHeld (m : bytes) (st : bash_st) : Prop := exists q t k, bholds m st q t k.
  Lemma bash_init_held : BHeld [] (bash_init hs).
  Proof.
    destruct bash_bs_eq. exists [], [], 0. constructor; auto. exists (repeat 0%Z bs). split; [|now rewrite repeat_length].
    cbn [app bash_init b_x]. rewrite <- repeat_split. f_equal. lia.
  Qed.
  Lemma bash_write_held m st p : BHeld m st -> b_nx st + length p <= bs ->
    BHeld (m ++ p) (bash_write hs st p) /\ b_nx (bash_write hs st p) = (b_nx st + length p) mod bs.
  Proof.
    intros (q & t & k & [G_m G_q G_s G_x G_t G_nx]) F. destruct bash_bs_eq as [E P]. destruct G_x as (u & X & U).
    unfold bash_write, bwrite. fold bs. cbn [bwrite_loop].
    assert (SU : u = firstn (length p) u ++ skipn (length p) u) by now rewrite firstn_skipn.
    assert (C : copyat (b_nx st) p (b_x st) = t ++ p ++ skipn (length p) u ++ repeat 0%Z (2 * hs)).
    { rewrite X. rewrite SU at 1. rewrite <- app_assoc. apply copyat_mid_n; auto. rewrite firstn_length. lia. }
    destruct (bs <=? b_nx st + length p) eqn:L.
    - apply Nat.leb_le in L. assert (LP : length p = bs - b_nx st) by lia. rewrite skipn_all2 by lia.
      assert (SK : skipn (length p) u = []) by (apply skipn_all2; lia). rewrite SK in C. cbn [app] in C. rewrite C.
      assert (L2 : length p = S (length p - 1)) by lia. rewrite L2. cbn [bwrite_loop length Nat.add].
      assert (L3 : (bs <=? 0) = false) by (apply Nat.leb_gt; lia). rewrite L3. cbn [b_s b_x b_nx b_len].
      split; [|rewrite <- L2, LP; replace (b_nx st + (bs - b_nx st)) with bs by lia; now rewrite Nat.mod_same by lia].
      exists (m ++ p), [], (k + 1).
      assert (TL : length (t ++ p) = bs) by (rewrite app_length; lia).
      constructor; cbn [b_s b_x b_nx b_len]; auto.
      + now rewrite app_nil_r.
      + rewrite G_m, !app_length. lia.
      + rewrite G_m, <- app_assoc. rewrite (@iterated_app _ bs (bash_absorb hs) (bash_iv hs) q (t ++ p) k) by auto.
        rewrite iterated_one by auto. rewrite <- G_s. unfold bash_block, bash_absorb. now rewrite <- app_assoc.
      + exists (t ++ p). split; [|cbn [length]; lia]. unfold copyat, gocopy. cbn [firstn skipn app length]. rewrite firstn_nil. now rewrite <- app_assoc.
    - apply Nat.leb_gt in L. cbn [b_s b_x b_nx b_len]. split; [|now rewrite Nat.mod_small].
      exists q, (t ++ p), k. constructor; cbn [b_s b_x b_nx b_len]; auto.
      + now rewrite G_m, app_assoc.
      + exists (skipn (length p) u). rewrite C, <- app_assoc. split; auto. rewrite app_length, skipn_length. lia.
      + rewrite app_length. lia.
  Qed.
  Lemma bash_sum_ok m st inp : BHeld m st -> bash_sum hs st inp = Ok (inp ++ bash_digest hs m).
  Proof.
    intros (q & t & k & [G_m G_q G_s G_x G_t G_nx]). destruct bash_bs_eq as [E P]. destruct G_x as (u & X & U).
    unfold bash_sum, bash_checksum. fold bs.
    assert (C : copyat (b_nx st) (repeat 0%Z bs) (b_x st) = t ++ repeat 0%Z (bs - length t) ++ repeat 0%Z (2 * hs)).
    { rewrite X. rewrite <- G_t. unfold copyat. rewrite firstn_app_exact, skipn_app_exact by auto. f_equal.
      assert (R : repeat 0%Z (bs - length t) ++ repeat 0%Z (2 * hs) = repeat 0%Z (bs - length t + 2 * hs)) by (symmetry; apply repeat_split).
      rewrite R. unfold gocopy. rewrite app_length, !repeat_length.
      destruct (Nat.le_gt_cases (length u + 2 * hs) bs) as [Y|Y].
      - rewrite (skipn_all2 (n := bs)) by (rewrite app_length, repeat_length; lia). rewrite app_nil_r.
        replace bs with ((length u + 2 * hs) + (bs - (length u + 2 * hs))) at 1 by lia. rewrite repeat_split, firstn_app_exact by apply repeat_length. f_equal. lia.
      - rewrite firstn_all2 by (rewrite repeat_length; lia). rewrite skipn_app, (skipn_all2 (n := bs) u) by lia. cbn [app].
        replace (2 * hs) with ((bs - length u) + (2 * hs - (bs - length u))) at 1 by lia. rewrite repeat_split, skipn_app_exact by apply repeat_length.
        rewrite <- repeat_split. f_equal. lia. }
    rewrite C. assert (L : length (t ++ repeat 0%Z (bs - length t) ++ repeat 0%Z (2 * hs)) = 192).
    { rewrite !app_length, !repeat_length. lia. }
    rewrite L. destruct (192 <=? b_nx st) eqn:B; [apply Nat.leb_le in B; lia|]. cbn [rbind]. do 2 f_equal.
    unfold bash_digest. fold bs. f_equal. f_equal. unfold bash_padded. fold bs. rewrite G_m, <- app_assoc.
    rewrite (@zero_pad_rest bs q (t ++ [64%Z]) k) by (auto; rewrite app_length; cbn [length]; lia).
    rewrite (@iterated_app _ bs (bash_absorb hs) (bash_iv hs) q _ k) by auto. rewrite iterated_one.
    2: auto. 2:{ rewrite !app_length, repeat_length. cbn [length]. lia. }
    rewrite <- G_s. unfold bash_block, bash_absorb. do 3 f_equal.
    rewrite <- G_t. replace (bs - length t) with (S (bs - (length t + 1))) by lia. cbn [repeat app].
    rewrite upd_mid. rewrite app_length. cbn [length]. rewrite <- !app_assoc. reflexivity.
  Qed.
  Lemma bash_run ops : forall m st, BHeld m st -> fits bs (b_nx st) ops ->
    hrun_r (bash_write hs) (bash_sum hs) (bash_reset hs) st ops = map Ok (expected (bash_digest hs) m ops).
  Proof.
    induction ops as [|[p|i|] ops IH]; intros m st H F; cbn [hrun_r expected map fits] in *; auto.
    - destruct F as [F1 F2]. destruct (bash_write_held H F1) as [W N]. apply IH; auto. now rewrite N.
    - f_equal; [now apply bash_sum_ok|now apply IH].
    - apply (IH [] (bash_reset hs st)); [apply bash_init_held|exact F].
  Qed.
End bash.
