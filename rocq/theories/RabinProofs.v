(** Rabin fingerprints: the tables compute remainders. *)
From Verif Require Import Base WordModel WordLib Gf2Spec Gf2Proofs ToolBytesProofs RabinModel RabinSpec.
Set Implicit Arguments. Unset Strict Implicit.
Local Open Scope Z_scope.

Lemma poly_loop_pmod b db n out : poly_mod_loop b db n out = pmod b db n out.
Proof. revert out. induction n as [|n IH]; intro out; cbn [poly_mod_loop pmod]; auto. rewrite IH. now rewrite (Z.add_comm (Z.of_nat n)). Qed.
Lemma shl_eqp P a b k : 0 <= k -> eqp P a b -> eqp P (Z.shiftl a k) (Z.shiftl b k).
Proof. intros K (q & Q & E). exists (Z.shiftl q k). split; [now apply Z.shiftl_nonneg|]. now rewrite clmul_shift_l, <- E, Z.shiftl_lxor by auto. Qed.

Section poly.
  Variable P : Z.
  Hypothesis P_lo : 2 ^ 8 <= P.
  Hypothesis P_hi : P < 2 ^ 64.
  Let d := Z.log2 P.
  Lemma d_range : 8 <= d <= 63.
  Proof.
    split; [apply Z.log2_le_pow2; lia|]. assert (d < 64); [|lia]. apply Z.log2_lt_pow2; lia.
  Qed.
  Lemma deg_P : poly_degree P = d.
  Proof. unfold poly_degree. destruct (Z.eqb_spec P 0); auto. lia. Qed.
  Lemma poly_mod_ok a : 0 <= a -> (0 <= poly_mod a P < 2 ^ d) /\ eqp P (poly_mod a P) a.
  Proof.
    intro A. unfold poly_mod. rewrite deg_P, poly_loop_pmod. pose proof d_range.
    split; [|apply pmod_eqp; lia]. apply pmod_bound; [lia|reflexivity|]. split; [auto|].
    unfold poly_degree. destruct (Z.eqb_spec a 0) as [->|]; [apply Z.pow_pos_nonneg; lia|].
    apply Z.log2_lt_pow2; [lia|]. lia.
  Qed.
  Lemma nth_bytes256 f i : 0 <= i < 256 -> nth (Z.to_nat i) (map f bytes256) 0 = f i.
  Proof.
    intro I. unfold bytes256. rewrite map_map. rewrite (nth_indep _ 0 (f (Z.of_nat 0))) by (rewrite !map_length, seq_length; lia).
    rewrite (map_nth (fun x => f (Z.of_nat x))). rewrite seq_nth by lia. f_equal. lia.
  Qed.
  Variable w : nat.
  Variable T : table.
  Hypothesis T_ok : new_table P w = Ok T.
  Lemma T_push i : 0 <= i < 256 -> (t_push T).[Z.to_nat i] = push_entry P i.
  Proof. revert T_ok. unfold new_table. destruct (_ <? _); [discriminate|]. intros [= <-] I. cbn [t_push]. now apply nth_bytes256. Qed.
  Lemma T_pop i : (w <> 0)%nat -> 0 <= i < 256 -> (t_pop T).[Z.to_nat i] = pop_entry P w i.
  Proof.
    revert T_ok. unfold new_table. destruct (_ <? _); [discriminate|]. intros [= <-] W I. cbn [t_pop]. apply Nat.eqb_neq in W. rewrite W. now apply nth_bytes256.
  Qed.
  Lemma T_degree : t_degree T = d.
  Proof. revert T_ok. unfold new_table. destruct (_ <? _); [discriminate|]. intros [= <-]. apply deg_P. Qed.
  Lemma T_window : t_window T = w.
  Proof. revert T_ok. unfold new_table. destruct (_ <? _); [discriminate|]. now intros [= <-]. Qed.

  Definition is_hash (v h : Z) : Prop := 0 <= h < 2 ^ d /\ eqp P h v.
  Lemma is_hash_0 : is_hash 0 0.
  Proof. pose proof d_range. split; [split; [lia|apply Z.pow_pos_nonneg; lia]|apply eqp_refl]. Qed.
  Lemma lxor_mod a b : Z.lxor (a mod 2 ^ 64) (b mod 2 ^ 64) = Z.lxor a b mod 2 ^ 64.
  Proof.
    apply Z.bits_inj'. intros i I. rewrite Z.lxor_spec. destruct (Z.ltb_spec i 64).
    - now rewrite !Z.mod_pow2_bits_low, Z.lxor_spec by lia.
    - now rewrite !Z.mod_pow2_bits_high by lia.
  Qed.
  Lemma byte_bits b i : 0 <= b < 256 -> 8 <= i -> Z.testbit b i = false.
  Proof. intros B I. apply (@bits_lt_pow2 b 8); lia. Qed.
  Lemma shl_byte h b : 0 <= b < 256 -> Z.lor (Z.shiftl h 8) b = Z.lxor (Z.shiftl h 8) b.
  Proof.
    intro B. apply Z.bits_inj'. intros i I. rewrite Z.lor_spec, Z.lxor_spec, Z.shiftl_spec by lia. destruct (Z.ltb_spec i 8).
    - rewrite (Z.testbit_neg_r _ (i - 8)) by lia. now destruct (Z.testbit b i).
    - rewrite (@byte_bits b i) by lia. now destruct (Z.testbit h _).
  Qed.
  Lemma shl_byte_add v b : 0 <= b < 256 -> Z.lxor (Z.shiftl v 8) b = 256 * v + b.
  Proof.
    intro B. replace (256 * v) with (Z.shiftl v 8) by (rewrite Z.shiftl_mul_pow2; lia). symmetry. apply Z.add_nocarry_lxor.
    apply Z.bits_inj'. intros i I. rewrite Z.land_spec, Z.shiftl_spec, Z.bits_0 by lia. destruct (Z.ltb_spec i 8).
    - rewrite (Z.testbit_neg_r _ (i - 8)) by lia. reflexivity.
    - rewrite (@byte_bits b i) by lia. apply Bool.andb_false_r.
  Qed.
  Lemma push_ok v h b : 0 <= v -> is_hash v h -> 0 <= b < 256 -> is_hash (256 * v + b) (rpush T h b).
  Proof.
    intros V [H E] B. pose proof d_range as D. unfold rpush. rewrite T_degree.
    set (top := (Z.shiftr h (d - 8)) mod 256). assert (TT : 0 <= top < 256) by (apply Z.mod_pos_bound; lia).
    rewrite T_push by auto. unfold push_entry. rewrite deg_P. set (f := Z.shiftl top d). assert (F : 0 <= f) by (apply Z.shiftl_nonneg; lia).
    destruct (poly_mod_ok F) as [R RE]. set (r := poly_mod f P) in *. unfold wshl.
    assert (X : Z.lor ((Z.shiftl h 8) mod 2 ^ 64) b = (Z.lxor (Z.shiftl h 8) b) mod 2 ^ 64).
    { rewrite <- shl_byte by auto. apply Z.bits_inj'. intros i I. rewrite Z.lor_spec. destruct (Z.ltb_spec i 64).
      - now rewrite !Z.mod_pow2_bits_low, Z.lor_spec by lia.
      - rewrite !Z.mod_pow2_bits_high by lia. now rewrite (@byte_bits b i) by lia. }
    rewrite X, lxor_mod. set (V0 := Z.lxor (Z.lxor (Z.shiftl h 8) b) (Z.lxor f r)).
    assert (N : 0 <= V0). { unfold V0. repeat rewrite Z.lxor_nonneg. pose proof (proj2 (Z.shiftl_nonneg h 8)). lia. }
    assert (BD : V0 < 2 ^ d).
    { apply lt_pow2_bits; [auto|lia|]. intros i I. unfold V0, f. rewrite !Z.lxor_spec, !Z.shiftl_spec by lia.
      rewrite (@byte_bits b i) by lia. rewrite (@bits_lt_pow2 r d i) by lia. rewrite !Bool.xorb_false_r.
      unfold top. destruct (Z.ltb_spec (i - d) 8).
      - change 256 with (2 ^ 8). rewrite Z.mod_pow2_bits_low by lia. rewrite Z.shiftr_spec by lia. replace (i - d + (d - 8)) with (i - 8) by lia. apply Bool.xorb_nilpotent.
      - change 256 with (2 ^ 8). rewrite Z.mod_pow2_bits_high by lia. rewrite (@bits_lt_pow2 h d (i - 8)) by lia. reflexivity. }
    assert (LE : 2 ^ d <= 2 ^ 64) by (apply Z.pow_le_mono_r; lia).
    rewrite Z.mod_small by lia. split; [lia|]. rewrite <- shl_byte_add by auto. unfold V0.
    rewrite <- (Z.lxor_0_r (Z.lxor (Z.shiftl v 8) b)). apply eqp_lxor.
    - apply eqp_lxor; [ |apply eqp_refl]. now apply shl_eqp.
    - rewrite <- (Z.lxor_nilpotent f). apply eqp_lxor; [apply eqp_refl|]. exact RE.
  Qed.
  Lemma update_ok p : forall m h, bytes_ok m -> bytes_ok p -> is_hash (be_val m) h -> is_hash (be_val (m ++ p)) (rupdate T h p).
  Proof.
    induction p as [|b p IH]; intros m h M B H; unfold rupdate; cbn [fold_left]; [now rewrite app_nil_r|].
    inversion B; subst. replace (m ++ b :: p) with ((m ++ [b]) ++ p) by now rewrite <- app_assoc.
    apply IH; auto. { apply Forall_app; auto. } rewrite be_val_snoc. apply push_ok; auto. now apply be_val_bound.
  Qed.
  (** the oldest of w bytes is taken out *)
  Lemma pop_ok o rest h : (w <> 0)%nat -> bytes_ok (o :: rest) -> length (o :: rest) = w -> is_hash (be_val (o :: rest)) h ->
    is_hash (be_val rest) (Z.lxor h (t_pop T).[Z.to_nat o]).
  Proof.
    intros W B L [H E]. pose proof d_range as D. assert (O : is_byte o) by now inversion B. assert (BR : bytes_ok rest) by now inversion B. change (0 <= o < 256) in O. rewrite T_pop by auto.
    unfold pop_entry. set (f := Z.shiftl o _). assert (F : 0 <= f) by (apply Z.shiftl_nonneg; lia). destruct (poly_mod_ok F) as [R RE].
    assert (LE : 2 ^ d <= 2 ^ 64) by (apply Z.pow_le_mono_r; lia). rewrite Z.mod_small by lia.
    assert (EV : be_val (o :: rest) = Z.lxor f (be_val rest)).
    { rewrite be_val_cons. pose proof (be_val_bound BR) as BB. replace (256 ^ Z.of_nat (length rest)) with (2 ^ (8 * Z.of_nat (length rest))) in * by (rewrite Z.pow_mul_r by lia; reflexivity).
      unfold f. replace (8 * (Z.of_nat w - 1)) with (8 * Z.of_nat (length rest)) by (cbn [length] in L; lia). set (k := 8 * Z.of_nat (length rest)) in *.
      assert (K : 0 <= k) by lia. rewrite <- Z.shiftl_mul_pow2 by lia.
      assert (DJ : Z.land (Z.shiftl o k) (be_val rest) = 0).
      { apply Z.bits_inj'. intros i I. rewrite Z.land_spec, Z.shiftl_spec, Z.bits_0 by lia. destruct (Z.ltb_spec i k).
        - now rewrite (Z.testbit_neg_r _ (i - k)) by lia.
        - rewrite (@bits_lt_pow2 (be_val rest) k i) by lia. apply Bool.andb_false_r. }
      now apply Z.add_nocarry_lxor. }
    split.
    - split; [apply Z.lxor_nonneg; lia|]. apply lt_pow2_bits; [apply Z.lxor_nonneg; lia|lia|]. intros i I. rewrite Z.lxor_spec.
      rewrite (@bits_lt_pow2 h d i) by lia. rewrite (@bits_lt_pow2 (poly_mod f P) d i) by lia. reflexivity.
    - rewrite EV in E. replace (be_val rest) with (Z.lxor (Z.lxor f (be_val rest)) f).
      + apply eqp_lxor; [exact E|exact RE].
      + rewrite (Z.lxor_comm f), Z.lxor_assoc, Z.lxor_nilpotent. apply Z.lxor_0_r.
  Qed.
  Lemma rabin_is m : bytes_ok m -> is_hash (be_val m) (rabin P m).
  Proof.
    intro B. unfold rabin. split; [|apply pmod_eqp; lia]. apply pmod_bound; [lia|reflexivity|]. pose proof (be_val_bound B) as H. split; [lia|].
    eapply Z.lt_le_trans; [apply H|]. change 256 with (2 ^ 8). rewrite <- Z.pow_mul_r by lia. apply Z.pow_le_mono_r; pose proof d_range; lia.
  Qed.
  Lemma is_hash_rabin m h : bytes_ok m -> is_hash (be_val m) h -> h = rabin P m.
  Proof.
    intros B [H E]. destruct (rabin_is B) as [R RE]. apply eqp_unique with P d; auto; try lia.
    apply eqp_trans with (be_val m); auto; try lia. apply eqp_sym; auto; lia.
  Qed.
End poly.

(** * The hash object *)
Local Open Scope nat_scope.
Lemma lastn_length w m : length (lastn w m) = Nat.min w (length m).
Proof. unfold lastn. rewrite skipn_length. lia. Qed.
Lemma lastn_ok w m : bytes_ok m -> bytes_ok (lastn w m).
Proof. intro H. unfold lastn. rewrite <- (firstn_skipn (length m - w) m) in H. now apply Forall_app in H. Qed.
Lemma lastn_all w m : length m <= w -> lastn w m = m.
Proof. intro H. unfold lastn. replace (length m - w) with 0 by lia. reflexivity. Qed.
Lemma lastn_app_ge w a b : w <= length b -> lastn w (a ++ b) = lastn w b.
Proof. intro H. unfold lastn. rewrite app_length, skipn_app. rewrite skipn_all2 by lia. cbn [app]. f_equal. lia. Qed.
Lemma lastn_app_lt w a b : length b <= w -> lastn w (a ++ b) = lastn (w - length b) a ++ b.
Proof.
  intro H. unfold lastn. rewrite app_length, skipn_app. f_equal; [f_equal; lia|].
  replace (length a + length b - w - length a) with 0 by lia. reflexivity.
Qed.
Lemma lastn_snoc w m b : 0 < w <= length m -> lastn w (m ++ [b]) = tl (lastn w m) ++ [b].
Proof.
  intro H. rewrite lastn_app_lt by (cbn [length]; lia). f_equal. cbn [length]. unfold lastn.
  replace (length m - (w - 1)) with (1 + (length m - w)) by lia. generalize (length m - w) as k. intro k. clear H.
  revert k. induction m as [|a m IH]; intro k; [now destruct k|]. destruct k; [reflexivity|]. cbn [skipn Nat.add]. rewrite <- IH. reflexivity.
Qed.
Lemma be_val_pad0 k m : be_val (repeat 0%Z k ++ m) = be_val m.
Proof. rewrite be_val_app', be_val_zeros. lia. Qed.
Lemma rabin_zeros w m : be_val (lastn w (repeat 0%Z w ++ m)) = be_val (lastn w m).
Proof.
  destruct (Nat.le_gt_cases w (length m)) as [H|H]; [now rewrite lastn_app_ge|].
  rewrite lastn_app_lt by lia. rewrite (lastn_all (w := w) (m := m)) by lia.
  unfold lastn. rewrite repeat_length. replace (w - (w - length m)) with (length m) by lia.
  replace (skipn (length m) (repeat 0%Z w)) with (repeat 0%Z (w - length m)); [apply be_val_pad0|].
  replace w with (length m + (w - length m)) at 2 by lia. rewrite repeat_app. rewrite skipn_app_exact by apply repeat_length. reflexivity.
Qed.

Section obj.
  Variable P : Z.
  Hypothesis P_lo : (2 ^ 8 <= P)%Z.
  Hypothesis P_hi : (P < 2 ^ 64)%Z.
  Variable w : nat.
  Variable T : table.
  Hypothesis T_ok : new_table P w = Ok T.
  Record ring (st : rhash) (l : bytes) : Prop := Ring {
    g_len : length (r_msg st) = w;
    g_pos : r_pos st < w;
    g_l : skipn (r_pos st) (r_msg st) ++ firstn (r_pos st) (r_msg st) = l }.
  Lemma upd_app (a b : bytes) x y : upd (length a) y (a ++ x :: b) = a ++ y :: b.
  Proof. induction a; cbn [length app upd]; auto. now rewrite IHa. Qed.
  Lemma roll_ring st o rest b : ring st (o :: rest) ->
    (r_msg st).[r_pos st] = o /\ ring (r_roll T st b) (rest ++ [b]).
  Proof.
    intros [L G E]. set (A := firstn (r_pos st) (r_msg st)) in *. assert (LA : length A = r_pos st) by (unfold A; rewrite firstn_length; lia).
    destruct (skipn (r_pos st) (r_msg st)) as [|x B] eqn:SK.
    { exfalso. assert (length (skipn (r_pos st) (r_msg st)) = 0) by now rewrite SK. rewrite skipn_length in H. lia. }
    injection E as <- <-. assert (M : r_msg st = A ++ x :: B) by (rewrite <- SK; symmetry; apply firstn_skipn).
    assert (LB : length A + S (length B) = w) by (rewrite <- L, M, app_length; reflexivity).
    split. { rewrite M, <- LA. now rewrite app_nth2, Nat.sub_diag by lia. }
    assert (U : upd (r_pos st) b (r_msg st) = A ++ b :: B) by (rewrite M, <- LA; apply upd_app).
    unfold r_roll. rewrite U. constructor; cbn [r_msg r_pos].
    - rewrite app_length. cbn [length]. lia.
    - destruct (Nat.eqb_spec (r_pos st + 1) (length (A ++ b :: B))) as [Q|Q]; [lia|]. rewrite app_length in Q. cbn [length] in Q. lia.
    - destruct (Nat.eqb_spec (r_pos st + 1) (length (A ++ b :: B))) as [Q|Q]; rewrite app_length in Q; cbn [length] in Q.
      + destruct B; cbn [length] in Q; [|lia]. cbn [firstn skipn app]. now rewrite app_nil_r.
      + replace (A ++ b :: B) with ((A ++ [b]) ++ B) by now rewrite <- app_assoc.
        rewrite skipn_app_exact, firstn_app_exact by (rewrite app_length; cbn [length]; lia). now rewrite app_assoc.
  Qed.
  Definition wins (m : bytes) : bytes := lastn w (repeat 0%Z w ++ m).
  Lemma wins_length m : length (wins m) = w.
  Proof. unfold wins. rewrite lastn_length, app_length, repeat_length. lia. Qed.
  Lemma zeros_ok k : bytes_ok (repeat 0%Z k).
  Proof. apply Forall_forall. intros x X. apply repeat_spec in X. subst. split; lia. Qed.
  Lemma wins_ok m : bytes_ok m -> bytes_ok (wins m).
  Proof. intro H. apply lastn_ok. apply Forall_app. split; auto. apply zeros_ok. Qed.
  Definition RInv (m : bytes) (st : rhash) : Prop := bytes_ok m ->
    if w =? 0 then is_hash P (be_val m) (r_hash st) else ring st (wins m) /\ is_hash P (be_val (wins m)) (r_hash st).
  Lemma r_new_ok : RInv [] (r_new T).
  Proof.
    intros _. unfold r_new. rewrite (T_window T_ok). pose proof (is_hash_0 P_lo P_hi) as H0. destruct (Nat.eqb_spec w 0) as [W|W]; [exact H0|]. cbn [r_hash].
    assert (E : wins [] = repeat 0%Z w) by (unfold wins; rewrite app_nil_r; apply lastn_all; rewrite repeat_length; lia). rewrite E. split.
    - constructor; cbn [r_msg r_pos]; [apply repeat_length|lia|]. cbn [skipn firstn]. apply app_nil_r.
    - rewrite be_val_zeros. exact H0.
  Qed.
  Lemma r_reset_ok m st : RInv m st -> bytes_ok m -> RInv [] (r_reset T st).
  Proof.
    intros I B _. specialize (I B). unfold r_reset. rewrite (T_window T_ok). pose proof (is_hash_0 P_lo P_hi) as H0. destruct (Nat.eqb_spec w 0) as [W|W]; [exact H0|]. cbn [r_hash].
    destruct I as [[L G _] _].
    assert (E : wins [] = repeat 0%Z w) by (unfold wins; rewrite app_nil_r; apply lastn_all; rewrite repeat_length; lia). rewrite E. split.
    - constructor; cbn [r_msg r_pos]; [now rewrite map_length|lia|]. cbn [skipn firstn]. rewrite app_nil_r, <- L. clear. induction (r_msg st); cbn [map length repeat]; congruence.
    - rewrite be_val_zeros. exact H0.
  Qed.
  Lemma roll_all p : forall m st, 0 < w -> bytes_ok m -> bytes_ok p -> ring st (wins m) /\ is_hash P (be_val (wins m)) (r_hash st) ->
    ring (fold_left (r_roll T) p st) (wins (m ++ p)) /\ is_hash P (be_val (wins (m ++ p))) (r_hash (fold_left (r_roll T) p st)).
  Proof.
    induction p as [|b p IH]; intros m st W M B [R H]; cbn [fold_left]; [rewrite app_nil_r; auto|].
    assert (B1 : is_byte b) by now inversion B. assert (B2 : bytes_ok p) by now inversion B.
    replace (m ++ b :: p) with ((m ++ [b]) ++ p) by now rewrite <- app_assoc.
    pose proof (wins_ok M) as WO. pose proof (wins_length m) as WL.
    assert (SN : wins (m ++ [b]) = tl (wins m) ++ [b]).
    { unfold wins. rewrite app_assoc. apply lastn_snoc. rewrite app_length, repeat_length. lia. }
    apply IH; auto. { apply Forall_app. auto. }
    rewrite SN. destruct (wins m) as [|o rest] eqn:E; [cbn [length] in WL; lia|]. cbn [tl].
    destruct (roll_ring b R) as [O R']. split; [exact R'|]. rewrite be_val_snoc. unfold r_roll. cbn [r_hash]. rewrite O.
    apply (push_ok P_lo P_hi T_ok); auto.
    - apply be_val_bound. now inversion WO.
    - apply (pop_ok P_lo P_hi T_ok); auto. lia.
  Qed.
  Lemma r_write_ok m st p : RInv m st -> RInv (m ++ p) (r_write T st p).
  Proof.
    intros I B. apply Forall_app in B as [BM BP]. specialize (I BM). unfold r_write. rewrite (T_window T_ok). destruct (Nat.eqb_spec w 0) as [W|W].
    - cbn [r_hash]. now apply (update_ok P_lo P_hi T_ok).
    - destruct I as [R H]. pose proof R as [L G _]. rewrite L. destruct (Nat.leb_spec w (length p)) as [Q|Q]; [|apply roll_all; auto; lia].
      assert (E : wins (m ++ p) = skipn (length p - w) p).
      { unfold wins. rewrite app_assoc, lastn_app_ge by auto. reflexivity. }
      assert (LS : length (skipn (length p - w) p) = w) by (rewrite skipn_length; lia).
      rewrite E. cbn [r_hash]. split.
      + constructor; cbn [r_msg r_pos]; [now rewrite gocopy_length|lia|]. cbn [skipn firstn]. rewrite app_nil_r. unfold gocopy.
        rewrite (skipn_all2 (n := length (skipn (length p - w) p)) (r_msg st)) by lia. rewrite app_nil_r. apply firstn_all2. lia.
      + apply (update_ok P_lo P_hi T_ok (m := [])); [constructor| |apply (is_hash_0 P_lo P_hi)]. now apply lastn_ok.
  Qed.
  (** the digest *)
  Definition rabin_digest (m : bytes) : bytes := le_bytes (r_size T) (rabin P (if w =? 0 then m else lastn w m)).
  Lemma firstn_le_bytes k n z : k <= n -> firstn k (le_bytes n z) = le_bytes k z.
  Proof.
    revert n z. induction k as [|k IH]; intros n z H; [reflexivity|]. destruct n; [lia|]. cbn [le_bytes firstn]. f_equal. apply IH. lia.
  Qed.
  Lemma r_value m st : RInv m st -> bytes_ok m -> r_hash st = rabin P (if w =? 0 then m else lastn w m).
  Proof.
    intros I B. specialize (I B). destruct (w =? 0).
    - now apply (is_hash_rabin P_lo P_hi).
    - destruct I as [_ H]. unfold wins in H. rewrite rabin_zeros in H. apply (is_hash_rabin P_lo P_hi); auto. now apply lastn_ok.
  Qed.
  Lemma r_sum_ok m st i : bytes_ok m -> RInv m st -> r_sum T st i = Ok (i ++ rabin_digest m).
  Proof.
    intros B I. unfold r_sum, rabin_digest. rewrite (r_value I B). do 2 f_equal. apply firstn_le_bytes.
    unfold r_size. rewrite (T_degree P_lo T_ok). pose proof (d_range P_lo P_hi).
    assert (Z.log2 P + 1 + 7 < 8 * 9)%Z by lia. apply (Z.div_lt_upper_bound _ 8 9) in H0; lia.
  Qed.
End obj.
