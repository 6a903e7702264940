(** Proofs about mode/mgm. *)
From Verif Require Import Base BlockModeModel BlockModeSpec StreamModel StreamSpec StreamProofs CcmSpec CcmProofs ToolBytesSpec ToolBytesProofs MacProofs
  Gf2Spec Gf2Proofs OcbSpec OcbProofs MgmSpec MgmModel.
Set Implicit Arguments. Unset Strict Implicit.
Local Open Scope nat_scope.

(** ** The field product *)
Lemma lxor_disj a b k : (0 <= k)%Z -> (0 <= b < 2 ^ k)%Z -> Z.lxor (a * 2 ^ k) b = (a * 2 ^ k + b)%Z.
Proof. intros Hk Hb. rewrite <- (Z.add_0_r (a * 2 ^ k)) at 1. rewrite lxor_low by lia. now rewrite Z.lxor_0_l. Qed.
Lemma mgm_poly_log2 : Z.log2 mgm_poly = Z.of_nat 128. Proof. reflexivity. Qed.
Lemma mgm_dbl x : (0 <= x < 2 ^ 128)%Z ->
  let x' := if Z.testbit x 127 then Z.lxor (Z.shiftl (Z.clearbit x 127) 1) 135 else Z.shiftl x 1 in
  (0 <= x' < 2 ^ 128)%Z /\ eqp mgm_poly x' (2 * x).
Proof.
  intros Hx x'. assert (E1 : Z.testbit x 127 = (2 ^ 127 <=? x)%Z).
  { pose proof (Z.testbit_spec' x 127 ltac:(lia)) as T. assert (Hd : (x / 2 ^ 127 = if 2 ^ 127 <=? x then 1 else 0)%Z).
    { destruct (Z.leb_spec (2 ^ 127) x).
      - symmetry. apply Z.div_unique with (x - 2 ^ 127)%Z; lia.
      - apply Z.div_small. lia. }
    rewrite Hd in T. destruct (Z.testbit x 127), (2 ^ 127 <=? x)%Z; cbn in T; congruence. }
  unfold x'. rewrite E1. destruct (Z.leb_spec (2 ^ 127) x).
  - assert (Ec : Z.clearbit x 127 = (x - 2 ^ 127)%Z).
    { unfold Z.clearbit. rewrite Z.shiftl_1_l. rewrite <- Z.sub_nocarry_ldiff; [reflexivity|].
      apply Z.bits_inj'. intros i Hi. rewrite Z.ldiff_spec, Z.bits_0, Z.pow2_bits_eqb by lia.
      destruct (Z.eqb_spec 127 i) as [<-|]; [rewrite E1; destruct (Z.leb_spec (2 ^ 127) x); [reflexivity|lia]|reflexivity]. }
    rewrite Ec, Z.shiftl_mul_pow2 by lia. change (2 ^ 1)%Z with 2%Z. split; [apply lxor_bound; lia|].
    exists 1%Z. split; [lia|]. rewrite clmul_1_l by (unfold mgm_poly; lia).
    assert (E2 : (2 * x = Z.lxor ((x - 2 ^ 127) * 2) (2 ^ 128))%Z).
    { rewrite Z.lxor_comm. replace (2 ^ 128)%Z with (1 * 2 ^ 128)%Z by lia. rewrite lxor_disj by lia. lia. }
    rewrite E2, lxor4, Z.lxor_nilpotent, Z.lxor_0_l.
    reflexivity.
  - rewrite Z.shiftl_mul_pow2 by lia. change (2 ^ 1)%Z with 2%Z. rewrite Z.mul_comm. split; [lia|apply eqp_refl].
Qed.
Lemma mgm_mul_loop_ok : forall fuel x y z, (0 <= x < 2 ^ 128)%Z -> (0 <= y < 2 ^ Z.of_nat fuel)%Z -> (0 <= z < 2 ^ 128)%Z ->
  (0 <= mgm_mul_loop fuel x y z < 2 ^ 128)%Z /\ eqp mgm_poly (mgm_mul_loop fuel x y z) (Z.lxor z (clmul x y)).
Proof.
  assert (HP : (0 <= mgm_poly)%Z) by (unfold mgm_poly; lia).
  induction fuel as [|f IH]; intros x y z Hx Hy Hz.
  - cbn in Hy. assert (y = 0)%Z by lia. subst y. cbn [mgm_mul_loop]. rewrite clmul_0_r, Z.lxor_0_r. split; [auto|apply eqp_refl].
  - cbn [mgm_mul_loop]. destruct (Z.eqb_spec y 0) as [->|Hy0].
    { rewrite clmul_0_r, Z.lxor_0_r. split; [auto|apply eqp_refl]. }
    destruct (mgm_dbl Hx) as [Bx Ex]. set (x' := if Z.testbit x 127 then _ else _) in *.
    rewrite Nat2Z.inj_succ, Z.pow_succ_r in Hy by lia.
    assert (Ey : Z.shiftr y 1 = (y / 2)%Z) by (rewrite Z.shiftr_div_pow2 by lia; reflexivity). rewrite Ey.
    assert (By : (0 <= y / 2 < 2 ^ Z.of_nat f)%Z) by (split; [apply Z.div_pos; lia|apply Z.div_lt_upper_bound; lia]).
    set (z' := if Z.testbit y 0 then Z.lxor z x else z).
    assert (Bz : (0 <= z' < 2 ^ 128)%Z) by (unfold z'; destruct (Z.testbit y 0); [apply lxor_bound; lia|auto]).
    destruct (IH x' (y / 2)%Z z' Bx By Bz) as [I1 I2]. split; [exact I1|]. eapply eqp_trans; [exact I2|].
    rewrite (clmul_step x (b := y)) by lia. rewrite <- Z.lxor_assoc, <- clmul_double_l.
    replace (Z.lxor z (if Z.odd y then x else 0)) with z' by (unfold z'; rewrite Z.bit0_odd; destruct (Z.odd y); [|rewrite Z.lxor_0_r]; reflexivity).
    apply eqp_lxor; [apply eqp_refl|]. apply eqp_clmul; [auto|lia|exact Ex].
Qed.
Lemma mgm_mul_ok a b : isblock 16 a -> isblock 16 b -> mgm_mul a b = mgm_times a b.
Proof.
  intros [La Oa] [Lb Ob]. unfold mgm_mul, mgm_times. f_equal.
  pose proof (be_val_bound Oa) as Ba. pose proof (be_val_bound Ob) as Bb. rewrite La in Ba. rewrite Lb in Bb. change (256 ^ Z.of_nat 16)%Z with (2 ^ 128)%Z in *.
  destruct (@mgm_mul_loop_ok 128 (be_val a) (be_val b) 0 Ba Bb ltac:(lia)) as [H1 H2]. rewrite Z.lxor_0_l in H2.
  apply gfmul_unique; auto; try apply mgm_poly_log2; unfold mgm_poly; lia.
Qed.
Lemma mgm_times_block a b : isblock 16 (mgm_times a b).
Proof. split; [apply be_bytes_length|apply be_bytes_ok]. Qed.

(** ** Cutting messages *)
Lemma chunks_concat_app (bl : list bytes) r : all_len 16 bl -> chunks 16 (concat bl ++ r) = bl ++ chunks 16 r.
Proof.
  induction bl as [|b bl IH]; intro H; [reflexivity|]. inversion H; subst. cbn [concat app]. rewrite <- app_assoc, chunks_app_block by (auto; lia).
  f_equal. now apply IH.
Qed.
Lemma chunks_zpad_whole m : chunks 16 (zpad16 m) = whole m ++ match tail m with [] => [] | r => [gocopy (repeat 0%Z 16) r] end.
Proof.
  pose proof (tail_len m) as LT. pose proof (Nat.mod_upper_bound (length m) 16 ltac:(lia)).
  unfold zpad16. rewrite (whole_tail m) at 1. rewrite <- app_assoc, chunks_concat_app by apply whole_len. f_equal. rewrite <- LT.
  destruct (tail m) as [|t0 t] eqn:Et; [reflexivity|]. rewrite <- Et in *. assert (Hp : 0 < length (tail m)) by (rewrite Et; cbn [length]; lia).
  rewrite gocopy0 by lia. rewrite (Nat.mod_small (16 - _)) by lia. apply chunks_one. rewrite app_length, repeat_length. lia.
Qed.
Lemma xorl_concat_blocks (F : nat -> bytes) : (forall i, length (F i) = 16) -> forall bl r i, all_len 16 bl -> length r <= 16 ->
  xorl (concat bl ++ r) (concat (map F (seq i (S (length bl))))) = concat (mapk (fun k b => xorl b (F (k - 1))) i bl) ++ xorl r (F (i + length bl)).
Proof.
  intros HF. induction bl as [|b bl IH]; intros r i Hb Hr.
  - cbn [concat app length seq map mapk]. rewrite app_nil_r, Nat.add_0_r. reflexivity.
  - inversion Hb as [|? ? Hb1 Hb2]; subst. cbn [length]. change (seq i (S (S (length bl)))) with (i :: seq (S i) (S (length bl))). cbn [map concat mapk].
    rewrite <- !app_assoc, xorl_app by (rewrite HF; auto). rewrite IH by auto. replace (S i - 1) with i by lia.
    replace (S i + length bl) with (i + S (length bl)) by lia. now rewrite app_assoc.
Qed.

  Definition nonce_ok (N : bytes) : Prop := isblock 16 N /\ (be_val N < 2 ^ 127)%Z.
  Lemma bad_nonce_ok N : bytes_ok N -> bad_nonce N = false <-> nonce_ok N.
  Proof.
    intro O. unfold bad_nonce, nonce_ok. destruct (Nat.eqb_spec (length N) 16) as [L|L]; cbn [negb orb].
    2: { split; [discriminate|intros [[H _] _]; contradiction]. }
    destruct N as [|a r]; [discriminate|]. cbn [hd]. inversion O as [|? ? Ha Or]; subst. unfold is_byte in Ha.
    cbn [length] in L. assert (Lr : length r = 15) by lia. rewrite be_val_cons, Lr. pose proof (be_val_bound Or) as Br. rewrite Lr in Br.
    change (256 ^ Z.of_nat 15)%Z with (2 ^ 120)%Z in *.
    assert (El : (Z.land a 128 = 128 * (a / 128))%Z).
    { assert (Ha2 : (a / 128 = 0 \/ a / 128 = 1)%Z) by (assert (0 <= a / 128)%Z by (apply Z.div_pos; lia); assert (a / 128 < 2)%Z by (apply Z.div_lt_upper_bound; lia); lia).
      pose proof (Z.testbit_spec' a 7 ltac:(lia)) as T. change (2 ^ 7)%Z with 128%Z in T.
      apply Z.bits_inj'. intros i Hi. rewrite Z.land_spec. change 128%Z with (2 ^ 7)%Z at 1. rewrite Z.pow2_bits_eqb by lia.
      destruct (Z.eqb_spec 7 i) as [<-|Hn].
      - rewrite andb_true_r. destruct Ha2 as [E|E]; rewrite E in *; destruct (Z.testbit a 7); try discriminate T; reflexivity.
      - rewrite andb_false_r. destruct Ha2 as [E|E]; rewrite E; [now rewrite Z.bits_0|]. change (128 * 1)%Z with (2 ^ 7)%Z. rewrite Z.pow2_bits_eqb by lia.
        destruct (Z.eqb_spec 7 i); [contradiction|reflexivity]. }
    rewrite El. destruct (Z.ltb_spec 0 (128 * (a / 128))) as [H|H].
    - split; [discriminate|]. intros [_ H2]. exfalso. assert (128 <= a)%Z by (assert (0 < a / 128)%Z by lia; pose proof (Z.mul_div_le a 128 ltac:(lia)); lia). lia.
    - split; [|reflexivity]. intros _. split; [split; [cbn [length]; lia|auto]|].
      assert (a < 128)%Z by (assert (a / 128 <= 0)%Z by lia; pose proof (Z.mod_pos_bound a 128 ltac:(lia)); pose proof (Z.div_mod a 128 ltac:(lia)); lia). lia.
  Qed.
  Lemma top_bits N : nonce_ok N -> set_top N = be_bytes 16 (2 ^ 127 + be_val N) /\ clear_top N = N.
  Proof.
    intros [[L O] B]. destruct N as [|a r]; [discriminate|]. inversion O as [|? ? Ha Or]; subst. unfold is_byte in Ha.
    cbn [length] in L. assert (Lr : length r = 15) by lia. rewrite be_val_cons, Lr in *. pose proof (be_val_bound Or) as Br. rewrite Lr in Br.
    change (256 ^ Z.of_nat 15)%Z with (2 ^ 120)%Z in *. assert (Ha2 : (a < 128)%Z) by lia.
    assert (El : Z.lor a 128 = (128 + a)%Z) by (rewrite Z.lor_comm; change 128%Z with (1 * 2 ^ 7)%Z; apply lor_disj; lia).
    cbn [set_top clear_top]. split.
    - rewrite El. apply be_val_inj; [constructor; [unfold is_byte; lia|auto]|apply be_bytes_ok|rewrite be_bytes_length; cbn [length]; lia|].
      rewrite be_val_bytes, be_val_cons, Lr. change (256 ^ Z.of_nat 16)%Z with (2 ^ 128)%Z. change (256 ^ Z.of_nat 15)%Z with (2 ^ 120)%Z. rewrite Z.mod_small by lia. lia.
    - f_equal. change 127%Z with (Z.ones 7). rewrite Z.land_ones by lia. apply Z.mod_small. lia.
  Qed.

Section mgm.
  Variable c : cipher.
  Hypothesis HL : lawful c.
  Hypothesis Hs : bsz c = 16.
  Let X16 b (H : isblock 16 b) : isblock 16 (enc c b).
  Proof. rewrite <- Hs in *. now apply (law_enc HL). Qed.

  Section nonce.
    Variable N : bytes.
    Hypothesis HN : nonce_ok N.
    Lemma Z_next i : incr_l (mgm_Z (enc c) N i) = mgm_Z (enc c) N (S i).
    Proof.
      unfold incr_l, mgm_Z. set (z := enc c _). rewrite firstn_app_exact, skipn_app_exact by apply be_bytes_length. f_equal.
      rewrite ctr_inc_val by apply be_bytes_ok. rewrite be_bytes_length, be_val_bytes, <- be_bytes_mod, Zplus_mod_idemp_l, be_bytes_mod. f_equal. lia.
    Qed.
    Lemma Y_next i : incr_r (mgm_Y (enc c) N i) = mgm_Y (enc c) N (S i).
    Proof.
      unfold incr_r, mgm_Y. assert (L8 : length (firstn 8 (enc c N)) = 8) by (rewrite firstn_length; destruct (X16 (proj1 HN)); lia).
      rewrite firstn_app_exact, skipn_app_exact by exact L8. f_equal.
      rewrite ctr_inc_val by apply be_bytes_ok. rewrite be_bytes_length, be_val_bytes, <- be_bytes_mod, Zplus_mod_idemp_l, be_bytes_mod. f_equal. lia.
    Qed.
    Lemma Z_0 : enc c (set_top N) = mgm_Z (enc c) N 0.
    Proof.
      destruct (top_bits HN) as [-> _]. unfold mgm_Z. set (z := enc c _).
      assert (Bz : isblock 16 z) by (apply X16; split; [apply be_bytes_length|apply be_bytes_ok]). destruct Bz as [Lz Oz].
      change (Z.of_nat 0) with 0%Z. rewrite Z.add_0_r, be_bytes_val; [symmetry; apply firstn_skipn|now apply bytes_ok_firstn|rewrite firstn_length; lia].
    Qed.
    Lemma Y_0 : enc c (clear_top N) = mgm_Y (enc c) N 0.
    Proof.
      destruct (top_bits HN) as [_ ->]. unfold mgm_Y. destruct (X16 (proj1 HN)) as [Ly Oy].
      change (Z.of_nat 0) with 0%Z. rewrite Z.add_0_r, be_bytes_val; [symmetry; apply firstn_skipn|now apply bytes_ok_skipn|rewrite skipn_length; lia].
    Qed.
    Lemma Z_blk i : isblock 16 (mgm_Z (enc c) N i).
    Proof.
      assert (Bz : isblock 16 (enc c (be_bytes 16 (2 ^ 127 + be_val N)))) by (apply X16; split; [apply be_bytes_length|apply be_bytes_ok]). destruct Bz as [Lz Oz].
      unfold mgm_Z. split; [rewrite app_length, be_bytes_length, skipn_length; lia|apply bytes_ok_app; split; [apply be_bytes_ok|now apply bytes_ok_skipn]].
    Qed.
    Lemma Y_blk i : isblock 16 (mgm_Y (enc c) N i).
    Proof.
      destruct (X16 (proj1 HN)) as [Ly Oy].
      unfold mgm_Y. split; [rewrite app_length, be_bytes_length, firstn_length; lia|apply bytes_ok_app; split; [now apply bytes_ok_firstn|apply be_bytes_ok]].
    Qed.
    Lemma sum_len bl i : length (mgm_sum (enc c) N i bl) = 16.
    Proof.
      revert i. induction bl as [|b bl IH]; intro i; [apply repeat_length|]. cbn [mgm_sum]. rewrite xorl_length, IH. destruct (mgm_times_block (enc c (mgm_Z (enc c) N i)) b) as [-> _]. lia.
    Qed.
    Lemma sum_app bl bl' : forall i, mgm_sum (enc c) N i (bl ++ bl') = xorl (mgm_sum (enc c) N i bl) (mgm_sum (enc c) N (i + length bl) bl').
    Proof.
      induction bl as [|b bl IH]; intro i.
      - cbn [app mgm_sum length]. rewrite Nat.add_0_r. symmetry. rewrite xorl_comm. apply xorl_repeat0. rewrite sum_len. lia.
      - cbn [app mgm_sum length]. rewrite IH, xorl_assoc. replace (S i + length bl) with (i + S (length bl)) by lia. reflexivity.
    Qed.
    Lemma absorb_ok bl : forall s i, length s = 16 -> Forall (isblock 16) bl ->
      fold_left (mgm_absorb c) bl (s, mgm_Z (enc c) N i) = (xorl s (mgm_sum (enc c) N i bl), mgm_Z (enc c) N (i + length bl)).
    Proof.
      induction bl as [|b bl IH]; intros s i Hl Hb.
      - cbn [fold_left mgm_sum length]. rewrite Nat.add_0_r. f_equal. symmetry. apply xorl_repeat0. lia.
      - inversion Hb; subst. cbn [fold_left mgm_absorb mgm_sum length]. rewrite Z_next, mgm_mul_ok by (auto; apply X16, Z_blk).
        rewrite IH; auto.
        + f_equal; [apply xorl_assoc|f_equal; lia].
        + rewrite xorl_length, Hl. destruct (mgm_times_block (enc c (mgm_Z (enc c) N i)) b) as [-> _]. lia.
    Qed.
    Lemma zpad_blocks m : bytes_ok m -> Forall (isblock 16) (chunks 16 (zpad16 m)).
    Proof.
      intro O. rewrite chunks_zpad_whole. apply Forall_app. split; [now apply whole_blocks|].
      pose proof (tail_len m). pose proof (tail_ok O) as OT. pose proof (Nat.mod_upper_bound (length m) 16 ltac:(lia)).
      destruct (tail m) as [|a t]; [constructor|]. constructor; [|constructor]. rewrite gocopy0 by lia.
      split; [rewrite app_length, repeat_length; lia|apply bytes_ok_app; split; auto; apply bytes_ok_repeat; unfold is_byte; lia].
    Qed.
    Lemma absorb_all_ok m s i : length s = 16 -> bytes_ok m ->
      mgm_absorb_all c (s, mgm_Z (enc c) N i) m =
      (xorl s (mgm_sum (enc c) N i (chunks 16 (zpad16 m))), mgm_Z (enc c) N (i + length (chunks 16 (zpad16 m)))).
    Proof.
      intros Hl O. rewrite <- absorb_ok by (auto; now apply zpad_blocks). rewrite chunks_zpad_whole, fold_left_app.
      unfold mgm_absorb_all. change (mgm_blocks m) with (whole m). change (mgm_rest m) with (tail m). destruct (tail m); reflexivity.
    Qed.
    Lemma auth_ok text ad : bytes_ok text -> bytes_ok ad -> mgm_auth c text ad N = mgm_tag (enc c) N ad text.
    Proof.
      intros Ot Oa. unfold mgm_auth, mgm_tag. rewrite Z_0.
      rewrite absorb_all_ok by (auto; apply repeat_length).
      rewrite absorb_all_ok by (auto; rewrite xorl_length, repeat_length, sum_len; reflexivity).
      f_equal. rewrite !sum_app. cbn [mgm_sum Nat.add].
      rewrite !(Z.mul_comm (Z.of_nat _) 8). set (lens := be_bytes 8 _ ++ be_bytes 8 _).
      assert (Bl : isblock 16 lens) by (split; [unfold lens; rewrite app_length, !be_bytes_length; reflexivity|apply bytes_ok_app; split; apply be_bytes_ok]).
      rewrite mgm_mul_ok by (auto; apply X16, Z_blk). rewrite (xorl_comm (repeat 0%Z 16)), (@xorl_repeat0 _ 16) by (rewrite sum_len; lia).
      rewrite xorl_assoc. f_equal. f_equal. symmetry. apply xorl_repeat0.
      destruct (mgm_times_block (enc c (mgm_Z (enc c) N (length (chunks 16 (zpad16 ad)) + length (chunks 16 (zpad16 text))))) lens) as [-> _]. lia.
    Qed.

    Lemma crypt_loop_ok bl : forall i, mgm_crypt_loop c (mgm_Y (enc c) N i) bl = mapk (fun k b => xorl b (enc c (mgm_Y (enc c) N (k - 1)))) i bl.
    Proof.
      induction bl as [|b bl IH]; intro i; [reflexivity|]. cbn [mgm_crypt_loop mapk]. rewrite Y_next, IH. f_equal. rewrite xorl_comm. do 3 f_equal. lia.
    Qed.
    Lemma Y_iter k : Nat.iter k incr_r (mgm_Y (enc c) N 0) = mgm_Y (enc c) N k.
    Proof. induction k as [|k IH]; [reflexivity|]. change (Nat.iter (S k) ?f ?z) with (f (Nat.iter k f z)). now rewrite IH, Y_next. Qed.
    Lemma crypt_ok m : mgm_crypt c m N = mgm_stream (enc c) N m.
    Proof.
      unfold mgm_crypt, mgm_stream. rewrite Y_0, crypt_loop_ok. change (mgm_blocks m) with (whole m). change (mgm_rest m) with (tail m).
      pose proof (tail_len m). pose proof (Nat.mod_upper_bound (length m) 16 ltac:(lia)).
      rewrite <- whole_count.
      transitivity (xorl (concat (whole m) ++ tail m) (concat (map (fun i => enc c (mgm_Y (enc c) N i)) (seq 0 (S (length (whole m))))))); [|now rewrite <- whole_tail].
      rewrite (xorl_concat_blocks (F := fun i => enc c (mgm_Y (enc c) N i))); [|intro i; apply X16, Y_blk|apply whole_len|lia].
      f_equal. cbn [Nat.add]. rewrite Y_iter. now destruct (tail m).
    Qed.
    Lemma stream_length P : length (mgm_stream (enc c) N P) = length P.
    Proof.
      unfold mgm_stream. rewrite xorl_length. assert (length P <= length (concat (map (fun i => enc c (mgm_Y (enc c) N i)) (seq 0 (S (length P / 16)))))); [|lia].
      rewrite (@concat_len 16), map_length, seq_length; [pose proof (Nat.div_mod (length P) 16 ltac:(lia)); pose proof (Nat.mod_upper_bound (length P) 16 ltac:(lia)); lia|].
      apply Forall_forall. intros x Hx. apply in_map_iff in Hx as (i & <- & _). apply X16, Y_blk.
    Qed.
    Lemma stream_inv P : mgm_stream (enc c) N (mgm_stream (enc c) N P) = P.
    Proof.
      unfold mgm_stream at 1. rewrite stream_length. unfold mgm_stream. apply xorl_cancel_r.
      rewrite (@concat_len 16), map_length, seq_length; [pose proof (Nat.div_mod (length P) 16 ltac:(lia)); pose proof (Nat.mod_upper_bound (length P) 16 ltac:(lia)); lia|].
      apply Forall_forall. intros x Hx. apply in_map_iff in Hx as (i & <- & _). apply X16, Y_blk.
    Qed.
    Lemma stream_ok P : bytes_ok P -> bytes_ok (mgm_stream (enc c) N P).
    Proof.
      intro O. unfold mgm_stream. apply xorl_ok; auto. apply bytes_ok_concat, Forall_forall. intros x Hx. apply in_map_iff in Hx as (i & <- & _). apply X16, Y_blk.
    Qed.
    Lemma tag_length A C : bytes_ok A -> bytes_ok C -> length (mgm_tag (enc c) N A C) = 16.
    Proof.
      intros OA OC. unfold mgm_tag. apply X16. split; [apply sum_len|].
      set (bl := _ ++ _). generalize 0 at 1. induction bl as [|b bl IH]; intro i; cbn [mgm_sum]; [apply bytes_ok_repeat; unfold is_byte; lia|].
      apply xorl_ok; [apply mgm_times_block|apply IH].
    Qed.
  End nonce.
End mgm.
