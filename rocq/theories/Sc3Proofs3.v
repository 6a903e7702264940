(** ZUC: the MACs. *)
From Verif Require Import Base BlockModeModel BlockModeProofs WordModel BlkSpec WordLib StreamModel StreamSpec StreamProofs ToolBytesProofs Sc1Proofs Sc3Model Sc3Spec Sc3Proofs Sc3Proofs2.
Set Implicit Arguments. Unset Strict Implicit.
Local Open Scope nat_scope.

Lemma bits_val_from l : forall a, fold_left (fun a b => 2 * a + Z.b2z b)%Z l a = (a * 2 ^ Z.of_nat (length l) + bits_val l)%Z.
Proof.
  unfold bits_val. induction l as [|b l IH]; intros a; cbn [fold_left length]; [change (2 ^ Z.of_nat 0)%Z with 1%Z; lia|].
  rewrite IH, (IH (2 * 0 + Z.b2z b)%Z). rewrite Nat2Z.inj_succ, Z.pow_succ_r by lia. ring.
Qed.
Lemma bits_val_cons b l : bits_val (b :: l) = (Z.b2z b * 2 ^ Z.of_nat (length l) + bits_val l)%Z.
Proof. unfold bits_val at 1. cbn [fold_left]. rewrite bits_val_from. cbn. ring. Qed.
Lemma bits_val_snoc b l : bits_val (l ++ [b]) = (2 * bits_val l + Z.b2z b)%Z.
Proof. unfold bits_val. rewrite fold_left_app. reflexivity. Qed.
Lemma bits_val_bound l : (0 <= bits_val l < 2 ^ Z.of_nat (length l))%Z.
Proof.
  induction l as [|b l IH]; [cbn; lia|]. rewrite bits_val_cons. cbn [length]. rewrite Nat2Z.inj_succ, Z.pow_succ_r by lia.
  destruct b; cbn [Z.b2z]; lia.
Qed.
Lemma bits_val_testbits v n : bits_val (map (fun j => Z.testbit v (Z.of_nat (n - 1 - j))) (seq 0 n)) = (v mod 2 ^ Z.of_nat n)%Z.
Proof.
  induction n as [|n IH]; [cbn; rewrite Z.mod_1_r; auto|].
  cbn [seq map]. rewrite bits_val_cons. rewrite <- seq_shift, map_map.
  rewrite (map_ext _ (fun j => Z.testbit v (Z.of_nat (n - 1 - j)))) by (intros; do 2 f_equal; lia).
  rewrite IH, map_length, seq_length. replace (S n - 1 - 0) with n by lia.
  rewrite Z.testbit_spec' by lia. rewrite Nat2Z.inj_succ, Z.pow_succ_r by lia.
  rewrite (Z.mul_comm 2), Z.rem_mul_r by lia. ring.
Qed.
Lemma ks_at_split w x : exists T, (0 <= T < 2 ^ 31)%Z /\ ks_at w x = (Z.b2z (ks_bit w x) * 2 ^ 31 + T)%Z /\
  ks_at w (S x) = (2 * T + Z.b2z (ks_bit w (x + 32)))%Z.
Proof.
  set (l := map (fun j => ks_bit w (x + j)) (seq 1 31)). exists (bits_val l).
  split; [exact (bits_val_bound l)|]. split.
  - unfold ks_at. change (seq 0 32) with (0 :: seq 1 31). cbn [map]. rewrite bits_val_cons. rewrite Nat.add_0_r. reflexivity.
  - unfold ks_at. rewrite (seq_S 31 0), map_app. cbn [map]. rewrite bits_val_snoc. f_equal; [|do 2 f_equal; lia].
    do 2 f_equal. unfold l. rewrite <- seq_shift, map_map. apply map_ext. intros. f_equal. lia.
Qed.
Lemma ks_at_step w x : ks_at w (S x) = Z.lor (wshl 32 (ks_at w x) 1) (Z.b2z (ks_bit w (x + 32))).
Proof.
  destruct (ks_at_split w x) as (T & HT & -> & ->). rewrite wshl_mul by lia. change (32 - 1)%Z with 31%Z.
  rewrite (Z.add_comm (_ * 2 ^ 31) T), Z.mod_add by lia. rewrite Z.mod_small by lia. rewrite lor_disj by (destruct (ks_bit w (x + 32)); cbn [Z.b2z]; lia). lia.
Qed.
Lemma ks_at_top w x : Z.shiftr (ks_at w x) 31 = Z.b2z (ks_bit w x).
Proof.
  destruct (ks_at_split w x) as (T & HT & -> & _). rewrite Z.shiftr_div_pow2 by lia. rewrite Z.add_comm, Z.div_add by lia. rewrite Z.div_small; lia.
Qed.
Lemma ks_at_word w q : inw 32 (w q) -> ks_at w (32 * q) = w q.
Proof.
  intros H. transitivity (w q mod 2 ^ Z.of_nat 32)%Z; [|apply Z.mod_small; exact H]. rewrite <- bits_val_testbits.
  unfold ks_at. f_equal. apply map_ext_in. intros j Hj. apply in_seq in Hj. unfold ks_bit.
  replace (32 * q + j) with (j + q * 32) by lia. rewrite Nat.div_add, Nat.mod_add by lia. rewrite Nat.div_small, Nat.mod_small by lia. do 2 f_equal. 
Qed.
Lemma wshl_top K i : i < 32 -> Z.testbit (wshl 32 K (Z.of_nat i)) 31 = Z.testbit K (Z.of_nat (31 - i)).
Proof.
  intros H. unfold wshl. rewrite Z.mod_pow2_bits_low by lia. rewrite Z.shiftl_spec by lia. f_equal. lia.
Qed.
Lemma wshl_wshl K i : (0 <= i)%Z -> wshl 32 (wshl 32 K i) 1 = wshl 32 K (i + 1).
Proof.
  intros Hi. unfold wshl. rewrite !Z.shiftl_mul_pow2 by lia. rewrite Z.mul_mod_idemp_l by lia. rewrite Z.pow_add_r by lia. f_equal. ring.
Qed.
Lemma top_land m : Z.ltb 0 (Z.land m 0x80000000) = Z.testbit m 31.
Proof.
  assert (E : Z.land m 0x80000000 = (Z.b2z (Z.testbit m 31) * 2 ^ 31)%Z).
  { apply Z.bits_inj. intros i. destruct (Z.ltb_spec i 0); [rewrite !Z.testbit_neg_r by lia; auto|].
    rewrite Z.land_spec. change 0x80000000%Z with (2 ^ 31)%Z at 1. rewrite Z.pow2_bits_eqb by lia.
    rewrite <- Z.shiftl_mul_pow2 by lia. rewrite Z.shiftl_spec by lia.
    destruct (Z.eqb_spec 31 i) as [<-|Hne]; [rewrite andb_true_r, Z.sub_diag; destruct (Z.testbit m 31); reflexivity|].
    rewrite andb_false_r. symmetry. destruct (Z.ltb_spec i 31); [apply Z.testbit_neg_r; lia|].
    destruct (Z.testbit m 31); cbn [Z.b2z]; [|apply Z.bits_0]. apply (@inw_testbit 1); unfold inw; lia. }
  rewrite E. destruct (Z.testbit m 31); reflexivity.
Qed.
Lemma shr31_b2z k : inw 32 k -> Z.shiftr k 31 = Z.b2z (Z.testbit k 31).
Proof.
  intros [H0 H1]. rewrite Z.testbit_spec' by lia. rewrite Z.shiftr_div_pow2 by lia. symmetry. apply Z.mod_small.
  split; [apply Z.div_pos; lia|]. apply Z.div_lt_upper_bound; [lia|]. exact H1.
Qed.

Lemma xors_from l : forall a, fold_left Z.lxor l a = Z.lxor a (xors l).
Proof.
  unfold xors. induction l as [|x l IH]; intros a; cbn [fold_left]; [rewrite Z.lxor_0_r; auto|].
  rewrite IH, (IH (Z.lxor 0 x)). rewrite Z.lxor_0_l, Z.lxor_assoc. reflexivity.
Qed.
Lemma xors_cons x l : xors (x :: l) = Z.lxor x (xors l).
Proof. unfold xors at 1. cbn [fold_left]. rewrite xors_from. rewrite Z.lxor_0_l. reflexivity. Qed.
Lemma filter_map_S (f : nat -> bool) l : filter f (map S l) = map S (filter (fun i => f (S i)) l).
Proof. induction l as [|x l IH]; cbn; auto. destruct (f (S x)); cbn; rewrite IH; auto. Qed.
Lemma mac_sum_cons w off b m : mac_sum w off (b :: m) = Z.lxor (if b then ks_at w off else 0%Z) (mac_sum w (S off) m).
Proof.
  unfold mac_sum. cbn [length seq filter nth]. rewrite <- seq_shift, filter_map_S. cbn [nth].
  assert (E : map (fun i => ks_at w (off + i)) (map S (filter (fun i => nth i m false) (seq 0 (length m)))) =
              map (fun i => ks_at w (S off + i)) (filter (fun i => nth i m false) (seq 0 (length m)))).
  { rewrite map_map. apply map_ext. intros. f_equal. lia. }
  destruct b; cbn [map]; rewrite ?xors_cons, E, ?Nat.add_0_r; auto.
Qed.
Lemma mac_sum_nil w off : mac_sum w off [] = 0%Z. Proof. reflexivity. Qed.
Lemma mac_sum_app w m1 : forall off m2, mac_sum w off (m1 ++ m2) = Z.lxor (mac_sum w off m1) (mac_sum w (off + length m1) m2).
Proof.
  induction m1 as [|b m1 IH]; intros off m2; cbn [app length].
  - rewrite mac_sum_nil, Z.lxor_0_l, Nat.add_0_r. reflexivity.
  - rewrite !mac_sum_cons, IH, Z.lxor_assoc. do 3 f_equal. lia.
Qed.

(** * One group of message bits *)
Section words.
  Variable w : nat -> Z.
  Variables c n : nat.
  Hypothesis Hw : inw 32 (w (c + n)).
  Definition wins (x : nat) : list Z := map (fun j => ks_at w (32 * (c + j) + x)) (seq 0 n).
  Lemma shl_words_list (f : nat -> Z) k1 m a :
    shl_words (map f (seq a m)) k1 =
    map (fun j => Z.lor (wshl 32 (f j) 1) (Z.shiftr (if j =? a + m - 1 then k1 else f (S j)) 31)) (seq a m).
  Proof.
    revert a. induction m as [|m IH]; intros a; [reflexivity|]. cbn [seq map shl_words]. f_equal.
    - destruct m as [|m]; cbn [seq map].
      + replace (a =? a + 1 - 1) with true; auto. symmetry. apply Nat.eqb_eq. lia.
      + destruct (Nat.eqb_spec a (a + S (S m) - 1)); [lia|auto].
    - rewrite IH. apply map_ext. intros j. replace (S a + m - 1) with (a + S m - 1) by lia. reflexivity.
  Qed.
  Lemma wins_step i : i < 32 -> shl_words (wins i) (wshl 32 (w (c + n)) (Z.of_nat i)) = wins (S i).
  Proof.
    intros Hi. unfold wins. rewrite shl_words_list. apply map_ext_in. intros j Hj. apply in_seq in Hj. cbn [Nat.add].
    replace (32 * (c + j) + S i) with (S (32 * (c + j) + i)) by lia. rewrite ks_at_step. f_equal.
    destruct (Nat.eqb_spec j (n - 1)) as [E|E].
    - rewrite shr31_b2z by (apply inw_mod; lia). rewrite wshl_top by lia. unfold ks_bit. f_equal.
      replace (32 * (c + j) + i + 32) with (i + (c + n) * 32) by lia. rewrite Nat.div_add, Nat.mod_add by lia.
      rewrite Nat.div_small, Nat.mod_small by lia. reflexivity.
    - rewrite ks_at_top. do 2 f_equal. lia.
  Qed.
  Lemma xorl_map (f g : nat -> Z) l : xorl (map f l) (map g l) = map (fun j => Z.lxor (f j) (g j)) l.
  Proof. induction l as [|x l IH]; cbn; auto. rewrite IH. reflexivity. Qed.
  Lemma zn_bits_ok M cnt : forall i (tf : nat -> Z), i + cnt <= 32 ->
    zn_bits cnt (map tf (seq 0 n)) (wins i) (wshl 32 (w (c + n)) (Z.of_nat i)) (wshl 32 M (Z.of_nat i)) =
    (map (fun j => Z.lxor (tf j) (mac_sum w (32 * (c + j) + i) (map (fun b => Z.testbit M (Z.of_nat (31 - b))) (seq i cnt)))) (seq 0 n),
     wins (i + cnt)).
  Proof.
    induction cnt as [|cnt IH]; intros i tf Hi; cbn [zn_bits seq map].
    - rewrite Nat.add_0_r. f_equal. apply map_ext. intros j. rewrite mac_sum_nil, Z.lxor_0_r. reflexivity.
    - rewrite top_land, wshl_top by lia. rewrite wins_step by lia. rewrite !wshl_wshl by lia. replace (Z.of_nat i + 1)%Z with (Z.of_nat (S i)) by lia.
      set (b := Z.testbit M (Z.of_nat (31 - i))).
      assert (Et : (if b then xorl (map tf (seq 0 n)) (wins i) else map tf (seq 0 n)) =
                   map (fun j => Z.lxor (tf j) (if b then ks_at w (32 * (c + j) + i) else 0%Z)) (seq 0 n)).
      { destruct b; [apply xorl_map|]. apply map_ext. intros. rewrite Z.lxor_0_r. reflexivity. }
      rewrite Et, IH by lia. f_equal; [|f_equal; lia]. apply map_ext. intros j. rewrite mac_sum_cons, Z.lxor_assoc.
      do 3 f_equal. lia.
  Qed.
End words.

(** * Message words *)
Lemma cat8_bit x d i : is_byte d -> (0 <= i)%Z -> Z.testbit (d + 256 * x) i = if (i <? 8)%Z then Z.testbit d i else Z.testbit x (i - 8).
Proof.
  unfold is_byte. intros Hd Hi. replace (d + 256 * x)%Z with (Z.lor (x * 2 ^ 8) d) by (rewrite lor_disj by lia; lia).
  rewrite Z.lor_spec, <- Z.shiftl_mul_pow2, Z.shiftl_spec by lia. destruct (Z.ltb_spec i 8).
  - rewrite (Z.testbit_neg_r x) by lia. reflexivity.
  - rewrite (@inw_testbit 8 d i) by (unfold inw; lia). apply orb_false_r.
Qed.
Lemma word_bits b4 : length b4 = 4 -> bytes_ok b4 -> map (fun b => Z.testbit (be_val b4) (Z.of_nat (31 - b))) (seq 0 32) = msg_bits b4.
Proof.
  intros L H. destruct b4 as [|a [|b [|c [|d [|]]]]]; try discriminate. unfold bytes_ok in H.
  inversion H as [|? ? Ha H1]; subst. inversion H1 as [|? ? Hb H2]; subst. inversion H2 as [|? ? Hc H3]; subst. inversion H3 as [|? ? Hd H4]; subst.
  unfold be_val, msg_bits, byte_bits. cbn [rev app le_val map concat seq].
  repeat (apply f_equal2; [rewrite !cat8_bit by (auto; lia); reflexivity|]). reflexivity.
Qed.
Lemma msg_bits_app a b : msg_bits (a ++ b) = msg_bits a ++ msg_bits b.
Proof. unfold msg_bits. rewrite map_app, concat_app. reflexivity. Qed.
Lemma msg_bits_len a : length (msg_bits a) = 8 * length a.
Proof. induction a as [|x a IH]; auto. change (msg_bits (x :: a)) with (byte_bits x ++ msg_bits a). rewrite app_length, IH. cbn [byte_bits length map seq]. lia. Qed.

(** * The running MAC of n words; K0 starts at word [off] of the keystream *)
Section mac.
  Variable w : nat -> Z.
  Hypothesis Hw : forall i, inw 32 (w i).
  Variables off n : nat.
  Variable t0 : nat -> Z.
  Definition mT (data : bytes) : list Z := map (fun j => Z.lxor (t0 j) (mac_sum w (32 * (off + j)) (msg_bits data))) (seq 0 n).
  Definition mS (full : bytes) (m : zmac256) : Prop :=
    exists q, length full = 4 * q /\ emits (zn_s m) w (off + n + q) /\ zn_k0 m = wins w (off + q) n 0 /\ zn_t m = mT full.
  Definition mI (data : bytes) (m : zmac256) : Prop :=
    exists full, data = full ++ firstn (zn_n m) (zn_buf m) /\ mS full m /\ zn_n m < 4 /\ length (zn_buf m) = 4 /\ bytes_ok (zn_buf m) /\ bytes_ok data.
  Lemma wins_next q : wins w (off + q) n 32 = wins w (off + S q) n 0.
  Proof. unfold wins. apply map_ext. intros j. f_equal. lia. Qed.
  Lemma group_ok full m b4 cnt : mS full m -> length b4 = 4 -> bytes_ok b4 -> cnt <= 32 ->
    exists s k1, z_word (zn_s m) = (s, k1) /\
    zn_bits cnt (zn_t m) (zn_k0 m) k1 (be_val b4) =
      (map (fun j => Z.lxor (t0 j) (mac_sum w (32 * (off + j)) (msg_bits full ++ firstn cnt (msg_bits b4)))) (seq 0 n),
       map (fun j => ks_at w (32 * (off + j) + 8 * length full + cnt)) (seq 0 n)) /\
    emits s w (off + n + length full / 4 + 1).
  Proof.
    intros (q & Lf & He & Ek & Et) Lb Hb Hc. destruct (emits_step He) as (s & E & He'). exists s, (w (off + n + q)). split; [auto|].
    assert (Q : length full / 4 = q) by (rewrite Lf, Nat.mul_comm; apply Nat.div_mul; lia).
    rewrite Q. split; [|rewrite Nat.add_1_r; auto].
    rewrite Et, Ek. unfold mT.
    pose proof (@zn_bits_ok w (off + q) n (be_val b4) cnt 0 (fun j => Z.lxor (t0 j) (mac_sum w (32 * (off + j)) (msg_bits full))) ltac:(lia)) as Z.
    assert (S0 : forall x, inw 32 x -> wshl 32 x (Z.of_nat 0) = x).
    { intros x Hx. unfold wshl. cbn [Z.of_nat]. rewrite Z.shiftl_0_r. apply Z.mod_small. exact Hx. }
    rewrite !S0 in Z; [|apply (@val_inw_be 4); auto|auto].
    replace (off + n + q) with (off + q + n) by lia. rewrite Z. cbn [Nat.add].
    assert (Ebits : map (fun b => Z.testbit (be_val b4) (Z.of_nat (31 - b))) (seq 0 cnt) = firstn cnt (msg_bits b4)).
    { rewrite <- word_bits by auto. rewrite firstn_map. f_equal.
      replace 32 with (cnt + (32 - cnt)) by lia. rewrite seq_app. rewrite firstn_app_exact; [auto|apply seq_length]. }
    rewrite Ebits. unfold wins. f_equal.
    - apply map_ext. intros j. rewrite mac_sum_app, Z.lxor_assoc, msg_bits_len. do 3 f_equal. lia.
    - apply map_ext. intros j. f_equal. lia.
  Qed.
  Lemma block_ok full m b4 : mS full m -> length b4 = 4 -> bytes_ok b4 ->
    mS (full ++ b4) (zn_block m (be_val b4)) /\ zn_buf (zn_block m (be_val b4)) = zn_buf m /\ zn_n (zn_block m (be_val b4)) = zn_n m.
  Proof.
    intros H Lb Hb. destruct (group_ok H Lb Hb (le_n 32)) as (s & k1 & E & Z & He). unfold zn_block. rewrite E, Z. cbn [zn_buf zn_n]. split; auto.
    destruct H as (q & Lf & _ & _ & _). exists (S q). cbn [zn_s zn_k0 zn_t]. rewrite app_length. split; [lia|].
    assert (Q : length full / 4 = q) by (rewrite Lf, Nat.mul_comm; apply Nat.div_mul; lia).
    rewrite firstn_all2 by (rewrite msg_bits_len; lia). split; [replace (off + n + S q) with (off + n + length full / 4 + 1) by lia; auto|].
    split; [|unfold mT; rewrite msg_bits_app; auto]. unfold wins. apply map_ext. intros j. f_equal. lia.
  Qed.
  Lemma fold_chunks_cons (A : Type) (g : A -> bytes -> A) m data : data <> [] ->
    fold_left g (chunks 4 data) m = fold_left g (chunks 4 (skipn 4 data)) (g m (firstn 4 data)).
  Proof. intros H. rewrite (@chunks_cons _ 4 data) by (auto; lia). reflexivity. Qed.
  Lemma zn_blocks_cons m data : data <> [] -> zn_blocks m data = zn_blocks (zn_block m (be_val (firstn 4 data))) (skipn 4 data).
  Proof. exact (@fold_chunks_cons zmac256 (fun m b => zn_block m (be_val b)) m data). Qed.
  Lemma zn_blocks_nil m : zn_blocks m [] = m. Proof. unfold zn_blocks. rewrite chunks_nil. reflexivity. Qed.
  Lemma blocks_ok k : forall full m data, mS full m -> length data = 4 * k -> bytes_ok data ->
    mS (full ++ data) (zn_blocks m data) /\ zn_buf (zn_blocks m data) = zn_buf m /\ zn_n (zn_blocks m data) = zn_n m.
  Proof.
    induction k as [|k IH]; intros full m data H L Hb.
    - destruct data; [|discriminate]. rewrite zn_blocks_nil, app_nil_r. auto.
    - assert (data <> []) by (destruct data; [discriminate|congruence]). rewrite zn_blocks_cons by auto.
      assert (L4 : length (firstn 4 data) = 4) by (rewrite firstn_length; lia).
      destruct (block_ok H L4 (@bytes_ok_firstn 4 data Hb)) as (H1 & E1 & E2).
      set (m1 := zn_block m (be_val (firstn 4 data))) in *. clearbody m1.
      destruct (IH (full ++ firstn 4 data) m1 (skipn 4 data) H1) as (H3 & E3 & E4); [rewrite skipn_length; lia|apply bytes_ok_skipn; auto|].
      rewrite <- app_assoc, firstn_skipn in H3. split; [exact H3|split; congruence].
  Qed.
  Lemma tail_ok full m data : mS full m -> zn_n m = 0 -> length (zn_buf m) = 4 -> bytes_ok (zn_buf m) -> bytes_ok full -> bytes_ok data ->
    mI (full ++ data) (zn_tail m data).
  Proof.
    intros H Hn Lb Hb Hf Hd. unfold zn_tail. set (k := length data / 4 * 4).
    pose proof (Nat.div_mod (length data) 4 ltac:(lia)) as D. pose proof (Nat.mod_upper_bound (length data) 4 ltac:(lia)).
    destruct (@blocks_ok (length data / 4) full m (firstn k data) H) as (H1 & E1 & E2);
      [rewrite firstn_length; unfold k; lia|apply bytes_ok_firstn; auto|].
    set (m1 := zn_blocks m (firstn k data)) in *. unfold zn_keep.
    assert (Lr : length (skipn k data) = length data mod 4) by (rewrite skipn_length; unfold k; lia).
    assert (Hok : bytes_ok (full ++ data)) by (apply bytes_ok_app; auto).
    destruct (Nat.ltb_spec 0 (length (skipn k data))) as [Hz|Hz].
    - exists (full ++ firstn k data). cbn [zn_n zn_buf]. rewrite E1.
      assert (Eg : gocopy (zn_buf m) (skipn k data) = skipn k data ++ skipn (length (skipn k data)) (zn_buf m)).
      { unfold gocopy. rewrite firstn_all2 by lia. reflexivity. }
      rewrite Eg. rewrite firstn_app_exact by auto. rewrite <- app_assoc, firstn_skipn. split; [auto|].
      split; [exact H1|]. split; [lia|]. split; [rewrite app_length, (skipn_length (length _)); lia|]. split; [|auto].
      apply bytes_ok_app. split; apply bytes_ok_skipn; auto.
    - exists (full ++ firstn k data). rewrite E2, Hn, E1. cbn [firstn]. rewrite app_nil_r.
      assert (Hk : firstn k data = data) by (apply firstn_all2; rewrite skipn_length in Hz; lia). rewrite Hk in *.
      repeat split; auto; lia.
  Qed.
  Lemma write_ok data m d : mI data m -> bytes_ok d -> mI (data ++ d) (zn_write m d).
  Proof.
    intros (full & Ed & HS & Hn & Lb & Hb & Hdata) Hd. unfold zn_write.
    destruct (Nat.eqb_spec (length d) 0) as [L0|L0].
    { destruct d; [|discriminate]. rewrite app_nil_r. exists full. repeat split; auto. }
    assert (Hfull : bytes_ok full) by (rewrite Ed in Hdata; apply bytes_ok_app in Hdata; apply Hdata).
    destruct (Nat.ltb_spec 0 (zn_n m)) as [H0|H0].
    - assert (Lf : length (firstn (zn_n m) (zn_buf m)) = zn_n m) by (rewrite firstn_length; lia).
      destruct (Nat.ltb_spec (length d) (4 - zn_n m)) as [H1|H1].
      + exists full. cbn [zn_n zn_buf]. unfold splice. split.
        { rewrite Ed, <- app_assoc. f_equal. rewrite app_assoc. symmetry. apply firstn_app_exact. rewrite app_length; lia. }
        split; [exact HS|]. split; [lia|]. split; [rewrite !app_length, skipn_length; lia|].
        split; [|apply bytes_ok_app; auto]. repeat (apply bytes_ok_app; split); auto; [apply bytes_ok_firstn|apply bytes_ok_skipn]; auto.
      + set (num := 4 - zn_n m) in *. assert (Lnum : length (firstn num d) = num) by (rewrite firstn_length; lia).
        set (buf := splice (zn_n m) (firstn num d) (zn_buf m)).
        assert (Ebuf : buf = firstn (zn_n m) (zn_buf m) ++ firstn num d).
        { unfold buf, splice. rewrite Lnum, (@skipn_all2 _ (zn_n m + num)) by (unfold num; lia). rewrite app_nil_r. reflexivity. }
        assert (Lbuf : length buf = 4) by (rewrite Ebuf, app_length; unfold num in *; lia).
        assert (Hbuf : bytes_ok buf) by (rewrite Ebuf; apply bytes_ok_app; split; apply bytes_ok_firstn; auto).
        assert (HS' : mS full (Zm256 (zn_s m) (zn_t m) (zn_k0 m) buf 0)) by exact HS.
        destruct (block_ok HS' Lbuf Hbuf) as (H2 & E2 & E3). cbn [zn_buf zn_n] in *.
        assert (Eall : data ++ d = (full ++ buf) ++ skipn num d).
        { rewrite Ed, Ebuf, <- !app_assoc, firstn_skipn. reflexivity. }
        rewrite Eall. apply tail_ok; [exact H2|exact E3|rewrite E2; exact Lbuf|rewrite E2; exact Hbuf|apply bytes_ok_app; auto|apply bytes_ok_skipn; auto].
    - assert (N0 : zn_n m = 0) by lia. rewrite N0 in Ed. cbn [firstn] in Ed. rewrite app_nil_r in Ed. subst data. apply tail_ok; auto.
  Qed.
  Lemma writes_ok ds : forall data m, mI data m -> Forall bytes_ok ds -> mI (data ++ concat ds) (fold_left zn_write ds m).
  Proof.
    induction ds as [|d ds IH]; intros data m H Hd; cbn [fold_left concat]; [rewrite app_nil_r; auto|].
    apply Forall_cons_iff in Hd as [H1 H2]. rewrite app_assoc. apply IH; auto. apply write_ok; auto.
  Qed.
  (** the last, incomplete group: nb < 8 bits of x after the buffered bytes *)
  Lemma last_ok data m x nb : mI data m -> is_byte x -> nb < 8 ->
    let buf := if 0 <? nb then upd (zn_n m) x (zn_buf m) else zn_buf m in
    let bits := msg_bits data ++ firstn nb (byte_bits x) in
    exists s,
      (if (0 <? zn_n m) || (0 <? nb) then
        let '(s, k1) := z_word (zn_s m) in
        let '(t, k0) := zn_bits (zn_n m * 8 + nb) (zn_t m) (zn_k0 m) k1 (be_val buf) in (s, t, k0)
       else (zn_s m, zn_t m, zn_k0 m)) =
      (s, map (fun j => Z.lxor (t0 j) (mac_sum w (32 * (off + j)) bits)) (seq 0 n),
          map (fun j => ks_at w (32 * (off + j) + length bits)) (seq 0 n)) /\
      emits s w (off + n + (length bits + 31) / 32).
  Proof.
    intros (full & Ed & HS & Hn & Lb & Hb & Hdata) Hx Hnb buf bits.
    assert (Lbits : length bits = 8 * length full + 8 * zn_n m + nb).
    { unfold bits. rewrite app_length, msg_bits_len, Ed, app_length, !firstn_length. change (length (byte_bits x)) with 8. lia. }
    assert (HS0 := HS). destruct HS0 as (q & Lf & He & Ek & Et).
    assert (Q : length full / 4 = q) by (rewrite Lf, Nat.mul_comm; apply Nat.div_mul; lia).
    destruct ((0 <? zn_n m) || (0 <? nb)) eqn:E.
    - assert (Lbuf : length buf = 4) by (unfold buf; destruct (0 <? nb); rewrite ?upd_len; auto).
      assert (Hbuf : bytes_ok buf) by (unfold buf; destruct (0 <? nb); auto; apply upd_Forall; auto).
      destruct (@group_ok full m buf (zn_n m * 8 + nb) HS Lbuf Hbuf ltac:(lia)) as (s & k1 & Ew & Z & He').
      rewrite Ew, Z. exists s.
      assert (Eb : msg_bits full ++ firstn (zn_n m * 8 + nb) (msg_bits buf) = bits).
      { unfold bits. rewrite Ed, msg_bits_app, <- app_assoc. f_equal.
        assert (Eu : exists r, buf = firstn (zn_n m) (zn_buf m) ++ (if 0 <? nb then [x] else []) ++ r).
        { unfold buf. destruct (0 <? nb).
          - exists (skipn (S (zn_n m)) (zn_buf m)). clear - Hn Lb. revert Hn Lb. generalize (zn_n m), (zn_buf m). intros k b Hk L.
            destruct b as [|b0 [|b1 [|b2 [|b3 [|]]]]]; try discriminate. destruct k as [|[|[|[|k]]]]; try reflexivity. lia.
          - exists (skipn (zn_n m) (zn_buf m)). symmetry. apply firstn_skipn. }
        destruct Eu as (r & ->). rewrite !msg_bits_app.
        assert (L8 : length (msg_bits (firstn (zn_n m) (zn_buf m))) = zn_n m * 8) by (rewrite msg_bits_len, firstn_length; lia).
        rewrite firstn_app, L8. rewrite firstn_all2 by lia. f_equal. replace (zn_n m * 8 + nb - zn_n m * 8) with nb by lia.
        destruct (Nat.ltb_spec 0 nb) as [H0|H0].
        - cbn [msg_bits map concat]. rewrite app_nil_r. rewrite firstn_app. change (length (byte_bits x)) with 8.
          replace (nb - 8) with 0 by lia. cbn [firstn]. apply app_nil_r.
        - replace nb with 0 by lia. reflexivity. }
      rewrite Eb. split.
      + f_equal. rewrite Lbits. apply map_ext. intros j. f_equal. lia.
      + replace ((length bits + 31) / 32) with (length full / 4 + 1); [rewrite Nat.add_assoc; auto|].
        rewrite Lbits, Q, Lf. apply orb_true_iff in E. rewrite !Nat.ltb_lt in E.
        apply Nat.div_unique with (8 * zn_n m + nb - 1); lia.
    - apply orb_false_iff in E as [E1 E2]. rewrite Nat.ltb_ge in E1, E2. assert (N0 : zn_n m = 0) by lia. assert (nb = 0) by lia.
      unfold bits in *. subst nb. cbn [firstn] in *. rewrite N0 in Ed. cbn [firstn] in Ed. rewrite app_nil_r in Ed. subst data.
      rewrite app_nil_r in *. exists (zn_s m). rewrite Et, Ek. split.
      + f_equal. unfold wins. rewrite msg_bits_len. apply map_ext. intros j. f_equal. lia.
      + rewrite msg_bits_len, Lf. replace ((8 * (4 * q) + 31) / 32) with q; auto. apply Nat.div_unique with 31; lia.
  Qed.
End mac.

(** * The whole run *)
Lemma sp_out_inw s : zok s -> inw 32 (sp_out s).
Proof.
  intros (C & _). unfold sp_out, spW. destruct (spX_inw C) as (_ & _ & _ & H). apply inw_xor; [lia|auto|apply inw_mod; lia].
Qed.
Lemma emits_inw s w p i : emits s w p -> inw 32 (w (p + i)).
Proof.
  intros [H E]. rewrite <- E. apply sp_out_inw. clear E. induction i as [|i IH]; [exact H|].
  change (zok (sp_next (Nat.iter i sp_next s))). apply sp_next_ok; auto.
Qed.
Lemma split_bits data d nbits : nbits <= 8 * length d -> let c := nbits / 8 in let r := nbits mod 8 in
  msg_bits (data ++ firstn c d) ++ firstn r (byte_bits (skipn c d).[0]) = firstn (8 * length data + nbits) (msg_bits (data ++ d)).
Proof.
  intros Hn c r. pose proof (Nat.div_mod nbits 8 ltac:(lia)) as D8. pose proof (Nat.mod_upper_bound nbits 8 ltac:(lia)). fold c r in D8.
  assert (Hr : r < 8) by (apply Nat.mod_upper_bound; lia).
rewrite !msg_bits_app. rewrite (@firstn_app _ (8 * length data + nbits)), msg_bits_len.
    rewrite (@firstn_all2 _ (8 * length data + nbits)) by (rewrite msg_bits_len; lia). rewrite <- app_assoc. f_equal.
    replace (8 * length data + nbits - 8 * length data) with nbits by lia.
    rewrite <- (firstn_skipn c d) at 3. rewrite msg_bits_app, (@firstn_app _ nbits), msg_bits_len, firstn_length.
    assert (c <= length d) by lia. rewrite Nat.min_l by lia. rewrite (@firstn_all2 _ nbits) by (rewrite msg_bits_len, firstn_length; lia). f_equal.
    replace (nbits - 8 * c) with r by lia. destruct (skipn c d) as [|x0 rest] eqn:E.
    - assert (length (skipn c d) = 0) by (rewrite E; auto). rewrite skipn_length in *. replace r with 0 by lia. reflexivity.
    - cbn [nth]. change (msg_bits (x0 :: rest)) with (byte_bits x0 ++ msg_bits rest). rewrite firstn_app. change (length (byte_bits x0)) with 8.
      replace (r - 8) with 0 by lia. cbn [firstn]. rewrite app_nil_r. reflexivity.
Qed.
Lemma zn_sum_ok w off n t0 data m d nbits : (forall i, inw 32 (w i)) -> mI w off n t0 data m -> bytes_ok d -> nbits <= 8 * length d ->
  exists m', zn_sum m d nbits =
    Ok (m', stw_be 4 (let bits := firstn (8 * length data + nbits) (msg_bits (data ++ d)) in
                      map (fun j => Z.lxor (Z.lxor (t0 j) (mac_sum w (32 * (off + j)) bits)) (ks_at w (32 * (off + j) + length bits))) (seq 0 n))).
Proof.
  intros Hw HI Hd Hn. unfold zn_sum.
  assert (E0 : (if length d =? 0 then 0 else nbits) = nbits) by (destruct (Nat.eqb_spec (length d) 0); lia). rewrite E0. clear E0.
  pose proof (Nat.div_mod (nbits + 7) 8 ltac:(lia)) as D7. pose proof (Nat.mod_upper_bound (nbits + 7) 8 ltac:(lia)).
  pose proof (Nat.div_mod nbits 8 ltac:(lia)) as D8. pose proof (Nat.mod_upper_bound nbits 8 ltac:(lia)).
  destruct (Nat.ltb_spec (length d) ((nbits + 7) / 8)); [lia|].
  set (c := nbits / 8) in *. set (r := nbits mod 8) in *.
  assert (E1 : mI w off n t0 (data ++ firstn c d) (if 8 <=? nbits then zn_write m (firstn c d) else m)).
  { destruct (Nat.leb_spec 8 nbits) as [H8|H8]; [apply write_ok; auto; apply bytes_ok_firstn; auto|].
    replace c with 0 by lia. cbn [firstn]. rewrite app_nil_r. auto. }
  assert (E2 : (if 8 <=? nbits then skipn c d else d) = skipn c d).
  { destruct (Nat.leb_spec 8 nbits); auto. replace c with 0 by lia. auto. }
  assert (E3 : (if 8 <=? nbits then r else nbits) = r) by (destruct (Nat.leb_spec 8 nbits); lia).
  rewrite E2, E3. clear E2 E3. set (m1 := if 8 <=? nbits then zn_write m (firstn c d) else m) in *. clearbody m1.
  assert (Hx : is_byte (skipn c d).[0]).
  { destruct (skipn c d) eqn:E; [cbn; unfold is_byte; lia|]. assert (B : bytes_ok (skipn c d)) by (apply bytes_ok_skipn; auto). rewrite E in B. inversion B; auto. }
  pose proof (@last_ok w Hw off n t0 (data ++ firstn c d) m1 (skipn c d).[0] r E1 Hx ltac:(auto)) as L. cbv zeta in L.
  destruct L as (s & L & _).
  assert (Eb : msg_bits (data ++ firstn c d) ++ firstn r (byte_bits (skipn c d).[0]) = firstn (8 * length data + nbits) (msg_bits (data ++ d))).
  { apply split_bits; auto. }
  cbv zeta. rewrite Eb in L.
  set (bits := firstn (8 * length data + nbits) (msg_bits (data ++ d))) in *. clearbody bits.
  match type of L with ?X = _ => set (T := X) in * end. rewrite L. eexists. rewrite xorl_map. reflexivity.
Qed.

Lemma zn_new_ok key iv mb : length key = 32 -> length iv = 23 -> bytes_ok key -> bytes_ok iv ->
  let n := z256_macbits mb / 32 in let w := zuc256_words (Nat.min 3 n) key iv in
  exists m, zn_new key iv mb = Ok m /\ mI w n n w [] m /\ (forall i, inw 32 (w i)).
Proof.
  intros Lk Li Hk Hi n w. destruct (@z256_new_emits key iv (z256_macbits mb) Lk Li Hk Hi) as (s & Es & -> & He). fold n in He. fold w in He.
  unfold zn_new. rewrite Lk, Li. cbn [Nat.eqb negb]. cbv zeta. fold n.
  destruct (z_words_ok n He) as (s1 & E1 & He1). rewrite E1. destruct (z_words_ok n He1) as (s2 & E2 & He2). rewrite E2.
  assert (Hw : forall i, inw 32 (w i)) by (intros i; apply (emits_inw i He)).
  eexists. split; [reflexivity|]. split; [|exact Hw]. exists []. cbn [zn_n zn_buf firstn app]. split; [auto|].
  split; [|repeat split; auto; try lia; repeat constructor; unfold is_byte; lia].
  exists 0. cbn [zn_s zn_k0 zn_t length]. split; [auto|]. split; [rewrite Nat.add_0_r; exact He2|]. split.
  - unfold wins. apply map_ext. intros j. rewrite Nat.add_0_r, ks_at_word by auto. f_equal. lia.
  - unfold mT. apply map_ext. intros j. cbn [msg_bits map concat]. rewrite mac_sum_nil, Z.lxor_0_r. reflexivity.
Qed.

(** * ZucMac is the one-word case, on the keystream with its first word doubled *)
Definition to256 (m : zmac) : zmac256 := Zm256 (zm_s m) [zm_t m] [zm_k0 m] (zm_buf m) (zm_n m).
Lemma zm_bits_256 c : forall t k0 k1 x, zn_bits c [t] [k0] k1 x = ([fst (zm_bits c t k0 k1 x)], [snd (zm_bits c t k0 k1 x)]).
Proof.
  induction c as [|c IH]; intros; [reflexivity|]. cbn [zn_bits zm_bits shl_words xorl map]. 
  destruct (Z.ltb 0 (Z.land x 0x80000000)); apply IH.
Qed.
Lemma zm_block_256 m x : to256 (zm_block m x) = zn_block (to256 m) x.
Proof.
  unfold zm_block, zn_block, to256. cbn [zn_s zn_t zn_k0 zn_buf zn_n]. destruct (z_word (zm_s m)) as [s k1]. rewrite zm_bits_256.
  destruct (zm_bits 32 (zm_t m) (zm_k0 m) k1 x) as [t k0]. reflexivity.
Qed.
Lemma fold_256 (f : zmac -> bytes -> zmac) (g : zmac256 -> bytes -> zmac256) l : (forall m b, to256 (f m b) = g (to256 m) b) ->
  forall m, to256 (fold_left f l m) = fold_left g l (to256 m).
Proof. intros H. induction l as [|b l IH]; intros m; cbn [fold_left]; auto. rewrite IH, H. reflexivity. Qed.
Lemma zm_blocks_256 m d : to256 (zm_blocks m d) = zn_blocks (to256 m) d.
Proof. unfold zm_blocks, zn_blocks. apply fold_256. intros. apply zm_block_256. Qed.
Lemma zm_tail_256 m d : to256 (zm_tail m d) = zn_tail (to256 m) d.
Proof.
  unfold zm_tail, zn_tail. rewrite <- zm_blocks_256. generalize (zm_blocks m (firstn (length d / 4 * 4) d)). intros m1.
  unfold zm_keep, zn_keep. destruct (0 <? _); reflexivity.
Qed.
Lemma zm_write_256 m d : to256 (zm_write m d) = zn_write (to256 m) d.
Proof.
  unfold zm_write, zn_write. change (zn_n (to256 m)) with (zm_n m). change (zn_buf (to256 m)) with (zm_buf m).
  destruct (length d =? 0); auto. destruct (0 <? zm_n m); [|apply zm_tail_256].
  destruct (length d <? 4 - zm_n m); [reflexivity|]. rewrite zm_tail_256, zm_block_256. reflexivity.
Qed.
Definition dbl (w : nat -> Z) (i : nat) : Z := w (pred i).
Definition zI (w : nat -> Z) (data : bytes) (m : zmac) : Prop := mI (dbl w) 0 1 (fun _ => 0%Z) data (to256 m).
Lemma zm_start w s : emits s w 0 -> zI w [] (Zmac s 0 (w 0) [0; 0; 0; 0]%Z 0).
Proof.
  intros He. assert (Hw : inw 32 (w 0)) by (apply (emits_inw 0 He)).
  exists []. split; [reflexivity|]. split; [|repeat split; cbn; auto; try lia; repeat constructor; unfold is_byte; lia].
  exists 0. split; [reflexivity|]. split; [|split].
  - cbn [to256 zn_s zm_s]. destruct He as [H1 H2]. split; [exact H1|]. intros i. rewrite H2. reflexivity.
  - cbn [to256 zn_k0 zm_k0]. unfold wins. cbn [seq map]. f_equal. symmetry.
    pose proof (@ks_at_word (dbl w) 0 Hw) as E. change (32 * 0) with 0 in E. exact E.
  - cbn [to256 zn_t zm_t]. unfold mT. cbn [seq map msg_bits concat]. f_equal.
Qed.
Lemma zm_new_ok key iv : length key = 16 -> length iv = 16 -> bytes_ok key -> bytes_ok iv ->
  exists m, zm_new key iv = Ok m /\ zI (zuc_words key iv) [] m /\ forall i, inw 32 (zuc_words key iv i).
Proof.
  intros Lk Li Hk Hi. destruct (z_new_emits Lk Li Hk Hi) as (s & Es & He). unfold zm_new. rewrite Es. clear Es. cbn [rbind].
  destruct (emits_step He) as (s1 & E1 & _). rewrite E1. cbn [snd]. revert He. clear. generalize (zuc_words key iv). intros w He.
  exists (Zmac s 0 (w 0) [0; 0; 0; 0]%Z 0). split; [reflexivity|]. split; [apply zm_start; exact He|]. intros i. apply (emits_inw i He).
Qed.
Lemma zm_writes_ok w ds : (forall i, inw 32 (w i)) -> forall data m, zI w data m -> Forall bytes_ok ds -> zI w (data ++ concat ds) (fold_left zm_write ds m).
Proof.
  intros Hw data m H Hd. unfold zI in *. rewrite (@fold_256 zm_write zn_write) by (intros; apply zm_write_256).
  apply writes_ok; auto. intros i. apply Hw.
Qed.
Lemma single3 (s s' : zst) (t t' k k' : Z) : (s, [t], [k]) = (s', [t'], [k']) -> (s, t, k) = (s', t', k').
Proof. intros H. injection H as -> -> ->. reflexivity. Qed.
Lemma zm_sum_ok w data m d nbits : (forall i, inw 32 (w i)) -> zI w data m -> bytes_ok d -> nbits <= 8 * length d ->
  exists m', zm_sum m d nbits = Ok (m', be_bytes 4 (eia3 (dbl w) (firstn (8 * length data + nbits) (msg_bits (data ++ d))))).
Proof.
  intros Hw HI Hd Hn. unfold zm_sum.
  assert (E0 : (if length d =? 0 then 0 else nbits) = nbits) by (destruct (Nat.eqb_spec (length d) 0); lia). rewrite E0. clear E0.
  pose proof (Nat.div_mod (nbits + 7) 8 ltac:(lia)) as D7. pose proof (Nat.mod_upper_bound (nbits + 7) 8 ltac:(lia)).
  pose proof (Nat.div_mod nbits 8 ltac:(lia)) as D8. pose proof (Nat.mod_upper_bound nbits 8 ltac:(lia)).
  destruct (Nat.ltb_spec (length d) ((nbits + 7) / 8)); [lia|].
  set (c := nbits / 8) in *. set (r := nbits mod 8) in *.
  assert (Hw' : forall i, inw 32 (dbl w i)) by (intros; apply Hw).
  assert (E1 : zI w (data ++ firstn c d) (if 8 <=? nbits then zm_write m (firstn c d) else m)).
  { destruct (Nat.leb_spec 8 nbits) as [H8|H8].
    - unfold zI. rewrite zm_write_256. apply write_ok; auto. apply bytes_ok_firstn; auto.
    - replace c with 0 by lia. cbn [firstn]. rewrite app_nil_r. auto. }
  assert (E2 : (if 8 <=? nbits then skipn c d else d) = skipn c d).
  { destruct (Nat.leb_spec 8 nbits); auto. replace c with 0 by lia. auto. }
  assert (E3 : (if 8 <=? nbits then r else nbits) = r) by (destruct (Nat.leb_spec 8 nbits); lia).
  rewrite E2, E3. clear E2 E3. set (m1 := if 8 <=? nbits then zm_write m (firstn c d) else m) in *. clearbody m1.
  assert (Hx : is_byte (skipn c d).[0]).
  { destruct (skipn c d) eqn:E; [cbn; unfold is_byte; lia|]. assert (B : bytes_ok (skipn c d)) by (apply bytes_ok_skipn; auto). rewrite E in B. inversion B; auto. }
  pose proof (@last_ok (dbl w) Hw' 0 1 (fun _ => 0%Z) (data ++ firstn c d) (to256 m1) (skipn c d).[0] r E1 Hx ltac:(auto)) as L. cbv zeta in L.
  destruct L as (s & L & He).
  assert (Eb : msg_bits (data ++ firstn c d) ++ firstn r (byte_bits (skipn c d).[0]) = firstn (8 * length data + nbits) (msg_bits (data ++ d))).
  { apply split_bits; auto. }
  cbv zeta. rewrite Eb in L, He.
  set (bits := firstn (8 * length data + nbits) (msg_bits (data ++ d))) in *. clearbody bits.
  cbn [to256 zn_n zn_s zn_t zn_k0 zn_buf] in L.
  set (B := (0 <? zm_n m1) || (0 <? r)) in *.
  assert (L2 : (if B
     then let '(s, k1) := z_word (zm_s m1) in
          let '(t, k0) := zm_bits (zm_n m1 * 8 + r) (zm_t m1) (zm_k0 m1) k1 (be_val (if 0 <? r then upd (zm_n m1) (skipn c d).[0] (zm_buf m1) else zm_buf m1)) in (s, t, k0)
     else (zm_s m1, zm_t m1, zm_k0 m1)) = (s, mac_sum (dbl w) 0 bits, ks_at (dbl w) (length bits))).
  { cbn [seq map] in L. rewrite Z.lxor_0_l in L. cbn [Nat.add] in L. rewrite (Nat.mul_0_r 32) in L. cbn [Nat.add] in L.
    destruct B.
    - destruct (z_word (zm_s m1)) as [s' k1]. rewrite zm_bits_256 in L. destruct (zm_bits _ _ _ _ _) as [t k0].
      cbn [fst snd] in L. exact (single3 L).
    - exact (single3 L). }
  match type of L2 with ?X = _ => set (T := X) in * end. rewrite L2. clear L2 T L.
  replace (0 + 1 + (length bits + 31) / 32) with ((length bits + 31) / 32 + 1) in He by lia.
  destruct (emits_step He) as (s' & -> & _). eexists. reflexivity.
Qed.

(** * The EIA3 IV and the range of the tag *)
Lemma to_byte_lxor a b : to_byte (Z.lxor a b) = Z.lxor (to_byte a) (to_byte b).
Proof.
  unfold to_byte. change 256%Z with (2 ^ 8)%Z. rewrite <- !Z.land_ones by lia. apply Z.bits_inj'. intros i Hi.
  rewrite !Z.land_spec, !Z.lxor_spec, !Z.land_spec. destruct (Z.testbit a i), (Z.testbit b i), (Z.testbit (Z.ones 8) i); reflexivity.
Qed.
Lemma to_byte_idem a : to_byte (to_byte a) = to_byte a.
Proof. unfold to_byte. apply Z.mod_mod. lia. Qed.
Lemma eia_iv_eq count bearer direction : eia_iv count bearer direction = eia3_iv count (bearer mod 32) (direction mod 2).
Proof.
  unfold eia_iv, eia3_iv. rewrite <- count_bytes. cbn [app].
  assert (E : to_byte (wshl 32 bearer 3) = (bearer mod 32 * 8)%Z).
  { rewrite wshl_mul by lia. unfold to_byte. change (32 - 3)%Z with 29%Z. change (2 ^ 3)%Z with 8%Z. change (2 ^ 29)%Z with 536870912%Z. lia. }
  assert (F : to_byte (wshl 32 direction 7) = (direction mod 2 * 128)%Z).
  { rewrite wshl_mul by lia. unfold to_byte. change (32 - 7)%Z with 25%Z. change (2 ^ 7)%Z with 128%Z. change (2 ^ 25)%Z with 33554432%Z. lia. }
  rewrite to_byte_lxor, to_byte_idem, E, F. rewrite Z.lxor_0_l. reflexivity.
Qed.
Lemma eia3_iv_ok count bearer direction : (0 <= bearer < 32)%Z -> (0 <= direction < 2)%Z ->
  length (eia3_iv count bearer direction) = 16 /\ bytes_ok (eia3_iv count bearer direction).
Proof.
  intros Hb Hd. unfold eia3_iv. rewrite <- count_bytes. cbn [app length]. split; [reflexivity|].
  assert (T : forall x, is_byte (to_byte x)) by (intros; unfold is_byte, to_byte; apply Z.mod_pos_bound; lia).
  assert (X : is_byte (Z.lxor (to_byte (Z.shiftr count 24)) (direction * 128))).
  { apply (@inw_xor 8); [lia|apply T|]. unfold inw. lia. }
  assert (Y : is_byte (Z.lxor 0 (direction * 128))) by (rewrite Z.lxor_0_l; unfold is_byte; lia).
  unfold bytes_ok. repeat (apply Forall_cons; [first [apply T|exact X|exact Y|unfold is_byte; lia]|]). apply Forall_nil.
Qed.
Lemma ks_at_inw w i : inw 32 (ks_at w i).
Proof. unfold ks_at. pose proof (bits_val_bound (map (fun j => ks_bit w (i + j)) (seq 0 32))) as B. rewrite map_length, seq_length in B. exact B. Qed.
Lemma mac_sum_inw w m : forall off, inw 32 (mac_sum w off m).
Proof.
  induction m as [|b m IH]; intros off; [rewrite mac_sum_nil; unfold inw; lia|]. rewrite mac_sum_cons. apply inw_xor; [lia| |apply IH].
  destruct b; [apply ks_at_inw|unfold inw; lia].
Qed.
Lemma eia3_range w m : (forall i, inw 32 (w i)) -> (0 <= eia3 w m < 256 ^ Z.of_nat 4)%Z.
Proof.
  intros Hw. change (256 ^ Z.of_nat 4)%Z with (2 ^ 32)%Z. unfold eia3.
  apply (@inw_xor 32); [lia| |apply Hw]. apply inw_xor; [lia|apply mac_sum_inw|apply ks_at_inw].
Qed.
