(** Grain-128AEAD: processing a message, Seal, Open and the stream. *)
From Verif Require Import Base BlockModeModel WordModel BlkSpec WordLib StreamSpec StreamProofs Sc1Spec Sc4Model Sc4Spec Sc4Proofs Sc4Proofs2.
Set Implicit Arguments. Unset Strict Implicit.
Local Open Scope nat_scope.

(** * The header *)
Lemma log2_small x : (Z.of_nat x < 2 ^ 63)%Z -> 127 < x -> 1 <= len_bytes x <= 8.
Proof.
  intros H1 H2. unfold len_bytes. assert (Z.log2 (Z.of_nat x) < 63)%Z by (apply Z.log2_lt_pow2; lia).
  assert (Z.to_nat (Z.log2 (Z.of_nat x)) / 8 < 8) by (apply Nat.div_lt_upper_bound; lia). lia.
Qed.
Lemma encode_n x : ((Z.log2 (Z.of_nat x) + 1 + 7) / 8)%Z = Z.of_nat (len_bytes x).
Proof.
  unfold len_bytes. pose proof (Z.log2_nonneg (Z.of_nat x)). rewrite Nat2Z.inj_add, Nat2Z.inj_div, Z2Nat.id by auto.
  change (Z.of_nat 8) with 8%Z. change (Z.of_nat 1) with 1%Z.
  replace (Z.log2 (Z.of_nat x) + 1 + 7)%Z with (Z.log2 (Z.of_nat x) + 1 * 8)%Z by lia. apply Z.div_add. lia.
Qed.
Lemma header_ok ad : (Z.of_nat (length ad) < 2 ^ 63)%Z ->
  fst (g_header ad) ++ snd (g_header ad) = code_length (length ad) ++ ad /\ exists q, length (fst (g_header ad)) = 2 * q.
Proof.
  intros Hl. unfold g_header, code_length. destruct (Nat.leb_spec (length ad) 127) as [H|H].
  - destruct ad as [|a r]; cbn [fst snd app length].
    + split; auto. exists 0. auto.
    + split; auto. exists 1. auto.
  - pose proof (log2_small Hl ltac:(lia)) as HL. unfold g_encode. rewrite encode_n, Nat2Z.id.
    remember (len_bytes (length ad)) as L eqn:EL. clear EL.
    destruct ad as [|a r]; [cbn in H; lia|]. cbn [nth skipn]. remember (a :: r) as ad' eqn:Ea.
    do 9 (destruct L as [|L]; [first [lia | vm_compute; rewrite ?Ea; split; [reflexivity|first [exists 1; reflexivity|exists 2; reflexivity|exists 3; reflexivity|exists 4; reflexivity|exists 5; reflexivity]]]|]). lia.
Qed.
Lemma code_length_ok x : (Z.of_nat x < 2 ^ 63)%Z -> bytes_ok (code_length x).
Proof.
  intros H. unfold code_length. destruct (Nat.leb_spec x 127).
  - constructor; [unfold is_byte; lia|constructor].
  - pose proof (log2_small H ltac:(lia)). apply Forall_cons; [unfold is_byte; lia|apply be_bytes_ok].
Qed.

(** * Bits of octet strings *)
Lemma obit_app_r P D k : obit (P ++ D) (8 * length P + k) = obit D k.
Proof.
  unfold obit. replace (8 * length P + k) with (k + length P * 8) by lia. rewrite Nat.div_add, Nat.mod_add by lia.
  rewrite app_nth2 by lia. f_equal. f_equal. lia.
Qed.
Lemma obit_app_l D Q k : k < 8 * length D -> obit (D ++ Q) k = obit D k.
Proof. intros H. unfold obit. rewrite app_nth1; auto. apply Nat.div_lt_upper_bound; lia. Qed.
Lemma auth_bit_at M P D Q k : M = P ++ D ++ Q -> k < 8 * length D -> auth_bit M (8 * length P + k) = obit D k.
Proof.
  intros -> H. unfold auth_bit. rewrite !app_length. rewrite (proj2 (Nat.ltb_lt _ _)) by lia.
  rewrite obit_app_r. apply obit_app_l. auto.
Qed.
Lemma byte_of_bits_z f i : byte_of_bits f i = zbits 8 (fun j => f (8 * i + j)).
Proof. reflexivity. Qed.

Section run.
  Variables key nonce : bytes.
  Notation R := (gR key nonce). Notation A := (gA key nonce).
  Notation ks := (grain_ks key nonce).
  Lemma next_keeps s : g_acc (fst (g_next s)) = g_acc s /\ g_reg (fst (g_next s)) = g_reg s.
  Proof. auto. Qed.
  Lemma mb_bits m n s j : ready key nonce m n s -> j < 16 -> Z.testbit (getmb (snd (g_next s))) (Z.of_nat j) = R (16 * n + 64 + j).
  Proof.
    intros [H _] Hj. rewrite getmb_bit by auto. rewrite (proj2 (next_out H)) by lia. unfold gR. rewrite (proj2 (Nat.ltb_ge _ _)) by lia. f_equal. lia.
  Qed.
  Lemma kb_bits m n s j : ready key nonce m n s -> j < 16 -> Z.testbit (getkb (snd (g_next s))) (Z.of_nat j) = gz key nonce (16 * n + j).
  Proof. intros [H _] Hj. rewrite getkb_bit by auto. rewrite (proj2 (next_out H)) by lia. unfold gz. f_equal. lia. Qed.
  Lemma to_byte_bits w f : (forall j, j < 8 -> Z.testbit w (Z.of_nat j) = f j) -> to_byte w = zbits 8 f.
  Proof.
    intros H. unfold to_byte. apply zbits_eq; [apply (inw_mod w (w := 8)); lia|]. intros i Hi. change 256%Z with (2 ^ 8)%Z.
    rewrite Z.mod_pow2_bits_low by lia. auto.
  Qed.
  Lemma kb_lo m n s : ready key nonce m n s -> to_byte (getkb (snd (g_next s))) = ks (2 * n).
  Proof.
    intros H. unfold grain_ks. rewrite byte_of_bits_z. apply to_byte_bits. intros j Hj. rewrite (kb_bits H) by lia. f_equal. lia.
  Qed.
  Lemma kb_hi m n s : ready key nonce m n s -> to_byte (Z.shiftr (getkb (snd (g_next s))) 8) = ks (2 * n + 1).
  Proof.
    intros H. unfold grain_ks. rewrite byte_of_bits_z. apply to_byte_bits. intros j Hj. rewrite Z.shiftr_spec by lia.
    replace (Z.of_nat j + 8)%Z with (Z.of_nat (8 + j)) by lia. rewrite (kb_bits H) by lia. f_equal. lia.
  Qed.
  Lemma step16 m n s v : ready key nonce m n s -> (0 <= v)%Z -> (forall k, k < 16 -> Z.testbit v (Z.of_nat k) = m (16 * n + k)) ->
    ready key nonce m (n + 1) (accumulate (getmb (snd (g_next s))) v (fst (g_next s))).
  Proof.
    intros H Hv Hb. pose proof (fun j => @mb_bits m n s j H) as Hm. destruct H as [H1 H2].
    assert (H2' : auth R m A (16 * n) (fst (g_next s))) by (destruct H2; split; cbn [g_next fst g_reg g_acc]; auto).
    destruct (@accumulate_auth _ _ _ _ _ (getmb (snd (g_next s))) v H2' (getmb_w _) Hv Hm Hb) as (K1 & K2 & K3).
    split.
    - pose proof (@next_holds key nonce s (384 + 32 * n) ltac:(lia) H1) as (B1 & B2 & B3).
      split; [rewrite K2; auto|split; [rewrite K3; auto|]]. rewrite K2, K3. replace (384 + 32 * (n + 1)) with (384 + 32 * n + 32) by lia. auto.
    - replace (16 * (n + 1)) with (16 * n + 16) by lia. auto.
  Qed.
  (** two bytes, the second one chosen after the first *)
  Lemma step8 m n s a : ready key nonce m n s -> is_byte a -> (forall k, k < 8 -> Z.testbit a (Z.of_nat k) = m (16 * n + k)) ->
    auth R m A (16 * n + 8) (accumulate8 (to_byte (getmb (snd (g_next s)))) a (fst (g_next s))) /\
    forall b, is_byte b -> (forall k, k < 8 -> Z.testbit b (Z.of_nat k) = m (16 * n + 8 + k)) ->
    ready key nonce m (n + 1) (accumulate8 (to_byte (Z.shiftr (getmb (snd (g_next s))) 8)) b
       (accumulate8 (to_byte (getmb (snd (g_next s)))) a (fst (g_next s)))).
  Proof.
    intros H Ha Hb. pose proof (fun j => @mb_bits m n s j H) as Hm. destruct H as [H1 H2].
    assert (H2' : auth R m A (16 * n) (fst (g_next s))) by (destruct H2; split; cbn [g_next fst g_reg g_acc]; auto).
    assert (T : forall z, inw 8 (to_byte z)) by (intros z; apply (inw_mod z (w := 8)); lia).
    assert (T2 : forall z j, j < 8 -> Z.testbit (to_byte z) (Z.of_nat j) = Z.testbit z (Z.of_nat j)).
    { intros z j Hj. unfold to_byte. change 256%Z with (2 ^ 8)%Z. apply Z.mod_pow2_bits_low. lia. }
    destruct (@accumulate8_auth _ _ _ _ _ (to_byte (getmb (snd (g_next s)))) a H2' (T _) ltac:(unfold is_byte in Ha; lia)) as (K1 & K2 & K3); auto.
    { intros j Hj. rewrite T2 by auto. apply Hm. lia. }
    split; auto. intros b Hbb Hb2.
    destruct (@accumulate8_auth _ _ _ _ _ (to_byte (Z.shiftr (getmb (snd (g_next s))) 8)) b K1 (T _) ltac:(unfold is_byte in Hbb; lia)) as (L1 & L2 & L3); auto.
    { intros j Hj. rewrite T2, Z.shiftr_spec by lia. replace (Z.of_nat j + 8)%Z with (Z.of_nat (8 + j)) by lia. rewrite Hm by lia. f_equal. lia. }
    split.
    - pose proof (@next_holds key nonce s (384 + 32 * n) ltac:(lia) H1) as (B1 & B2 & B3).
      split; [rewrite L2, K2; auto|split; [rewrite L3, K3; auto|]]. rewrite L2, L3, K2, K3. replace (384 + 32 * (n + 1)) with (384 + 32 * n + 32) by lia. auto.
    - replace (16 * (n + 1)) with (16 * n + 8 + 8) by lia. auto.
  Qed.
  Lemma u16_bits a b k : is_byte a -> is_byte b -> Z.testbit (u16 a b) (Z.of_nat k) = obit [a; b] k.
  Proof.
    intros Ha Hb. replace (u16 a b) with (le_val [a; b]) by (unfold u16; cbn [le_val]; lia).
    apply tb_le_val. repeat (apply Forall_cons; auto).
  Qed.
  Lemma u16_nonneg a b : is_byte a -> is_byte b -> (0 <= u16 a b)%Z. Proof. unfold is_byte, u16. lia. Qed.
  Lemma step16_bytes M P a b Q n s : M = P ++ [a; b] ++ Q -> length P = 2 * n -> is_byte a -> is_byte b -> ready key nonce (auth_bit M) n s ->
    ready key nonce (auth_bit M) (n + 1) (accumulate (getmb (snd (g_next s))) (u16 a b) (fst (g_next s))).
  Proof.
    intros EM LP Ha Hb H. apply step16; auto using u16_nonneg. intros k Hk. rewrite u16_bits by auto.
    replace (16 * n) with (8 * length P) by lia. symmetry. apply (@auth_bit_at M P [a; b] Q); auto.
  Qed.
  Lemma absorb_ok q : forall D M P Q n s, length D = 2 * q \/ length D = 2 * q + 1 -> M = P ++ D ++ Q -> length P = 2 * n -> bytes_ok D ->
    ready key nonce (auth_bit M) n s ->
    ready key nonce (auth_bit M) (n + q) (fst (g_absorb s D)) /\ D = firstn (2 * q) D ++ snd (g_absorb s D) /\ length (snd (g_absorb s D)) <= 1.
  Proof.
    induction q as [|q IH]; intros D M P Q n s HD EM LP OD H.
    - destruct D as [|a [|b D]]; cbn [length] in HD; try lia; cbn; rewrite Nat.add_0_r; auto.
    - destruct D as [|a [|b D]]; cbn [length] in HD; try lia.
      inversion OD as [|? ? Oa OD1]; subst. inversion OD1 as [|? ? Ob OD2]; subst.
      pose proof (@step16_bytes _ P a b (D ++ Q) n s eq_refl LP Oa Ob H) as K.
      cbn [g_absorb]. rewrite (surjective_pairing (g_next s)).
      destruct (IH D (P ++ [a; b] ++ D ++ Q) (P ++ [a; b]) Q (n + 1) _ ltac:(lia) ltac:(rewrite <- !app_assoc; auto) ltac:(rewrite app_length; cbn; lia) OD2 K) as (K1 & K2 & K3).
      split; [replace (n + S q) with (n + 1 + q) by lia; exact K1|]. split; auto.
      replace (2 * S q) with (S (S (2 * q))) by lia. cbn [firstn app]. rewrite <- K2. auto.
  Qed.
  (** the end: at most one byte is left and all further bits are zero *)
  Definition done (M : bytes) (s : gst) : Prop := exists N, 8 * length M + 1 <= N /\ g_acc s = zbits 64 (psum R (auth_bit M) A N 0).
  Lemma tail_zero M N j : 8 * length M + 1 <= N -> psum R (auth_bit M) A N 0 j = psum R (auth_bit M) A (8 * length M + 1) 0 j.
  Proof.
    intros H. replace N with (8 * length M + 1 + (N - (8 * length M + 1))) by lia. generalize (N - (8 * length M + 1)) as d. clear.
    induction d; [rewrite Nat.add_0_r; auto|]. rewrite Nat.add_succ_r. cbn [psum]. rewrite IHd. unfold auth_bit at 2.
    rewrite (proj2 (Nat.ltb_ge _ _)) by lia. rewrite (proj2 (Nat.eqb_neq _ _)) by lia. apply xorb_false_r.
  Qed.
  Lemma psum_tag m n j : psum R m A n 0 j = tag_bit key nonce m n j.
  Proof. induction n; cbn [psum tag_bit]; auto. rewrite IHn. auto. Qed.
  Lemma le_bytes_zbits n : forall f, le_bytes n (zbits (8 * n) f) = map (fun i => zbits 8 (fun j => f (8 * i + j))) (seq 0 n).
  Proof.
    induction n as [|n IH]; intros f; [reflexivity|].
    assert (E : (zbits (8 * S n) f / 256)%Z = zbits (8 * n) (fun j => f (8 + j)) /\ (zbits (8 * S n) f mod 256)%Z = zbits 8 f).
    { split.
      - apply zbits_eq.
        + unfold inw. pose proof (zbits_w (8 * S n) f) as B. unfold inw in B. split; [apply Z.div_pos; lia|].
          apply Z.div_lt_upper_bound; [lia|]. replace (256 * 2 ^ Z.of_nat (8 * n))%Z with (2 ^ Z.of_nat (8 * S n))%Z; [lia|].
          replace (Z.of_nat (8 * S n)) with (8 + Z.of_nat (8 * n))%Z by lia. rewrite Z.pow_add_r by lia. reflexivity.
        + intros i Hi. change 256%Z with (2 ^ 8)%Z. rewrite Z.div_pow2_bits by lia.
          replace (Z.of_nat i + 8)%Z with (Z.of_nat (8 + i)) by lia. rewrite zbits_bit, (proj2 (Nat.ltb_lt _ _)) by lia. auto.
      - apply (to_byte_bits (w := zbits (8 * S n) f)). intros j Hj. rewrite zbits_bit, (proj2 (Nat.ltb_lt _ _)) by lia. auto. }
    cbn [le_bytes]. destruct E as [E1 E2]. rewrite E1, IH.
    change (seq 0 (S n)) with (0 :: seq 1 n). cbn [map]. f_equal; [first [exact E2|idtac]|].
    rewrite <- seq_shift, map_map. apply map_ext. intros i. apply zbits_ext. intros j _. f_equal. lia.
  Qed.
  Lemma done_tag M s : done M s -> g_tag s = grain_tag key nonce M.
  Proof.
    intros (N & HN & E). unfold g_tag, grain_tag. rewrite E. rewrite (le_bytes_zbits 8).
    apply map_ext. intros i. rewrite byte_of_bits_z. apply zbits_ext. intros j _. rewrite tail_zero by auto. apply psum_tag.
  Qed.
  Lemma finish_even M n s : length M = 2 * n -> ready key nonce (auth_bit M) n s -> done M (accumulate (getmb (snd (g_next s))) 1 (fst (g_next s))).
  Proof.
    intros L H. destruct (@step16 (auth_bit M) n s 1 H ltac:(lia)) as [_ [_ K]].
    - intros k Hk. unfold auth_bit. rewrite (proj2 (Nat.ltb_ge _ _)) by lia. destruct k.
      + rewrite (proj2 (Nat.eqb_eq _ _)) by lia. auto.
      + rewrite (proj2 (Nat.eqb_neq _ _)) by lia. change 1%Z with (2 ^ 0)%Z. apply Z.pow2_bits_false. lia.
    - exists (16 * (n + 1)). split; [lia|auto].
  Qed.
  Lemma finish_odd M P a n s : M = P ++ [a] -> length P = 2 * n -> is_byte a -> ready key nonce (auth_bit M) n s ->
    done M (accumulate (getmb (snd (g_next s))) (Z.lor 0x100 a) (fst (g_next s))).
  Proof.
    intros EM L Ha H. assert (LM : length M = 2 * n + 1) by (rewrite EM, app_length; cbn; lia).
    destruct (@step16 (auth_bit M) n s (Z.lor 0x100 a) H) as [_ [_ K]].
    - apply Z.lor_nonneg. unfold is_byte in Ha. lia.
    - intros k Hk. rewrite Z.lor_spec. change 0x100%Z with (2 ^ 8)%Z. destruct (Nat.ltb_spec k 8).
      + rewrite Z.pow2_bits_false by lia. cbn [orb]. replace (16 * n) with (8 * length P) by lia. rewrite (@auth_bit_at M P [a] [] k EM) by (cbn; lia).
        unfold obit. rewrite (Nat.div_small k 8), (Nat.mod_small k 8) by auto. auto.
      + unfold auth_bit. rewrite (proj2 (Nat.ltb_ge (16 * n + k) _)) by lia. rewrite (@inw_testbit 8 a) by (auto; unfold inw, is_byte in *; lia). rewrite orb_false_r.
        destruct (Nat.eqb_spec (16 * n + k) (8 * length M)).
        * replace (Z.of_nat k) with 8%Z by lia. auto.
        * apply Z.pow2_bits_false. lia.
    - exists (16 * (n + 1)). split; [lia|auto].
  Qed.
End run.

Lemma to_byte_xor x y : to_byte (Z.lxor x y) = Z.lxor (to_byte x) (to_byte y).
Proof.
  unfold to_byte. change 256%Z with (2 ^ 8)%Z. apply Z.bits_inj'. intros i Hi. rewrite Z.lxor_spec.
  destruct (Z.ltb_spec i 8).
  - rewrite !Z.mod_pow2_bits_low by lia. apply Z.lxor_spec.
  - rewrite !Z.mod_pow2_bits_high by lia. auto.
Qed.
Lemma to_byte_id a : is_byte a -> to_byte a = a. Proof. intros. apply Z.mod_small. auto. Qed.
Lemma u16_lo a b : is_byte a -> to_byte (u16 a b) = a.
Proof. intros H. unfold to_byte, u16. rewrite Z.add_comm, Z.mul_comm, Z.add_comm, Z.mod_add by lia. apply Z.mod_small. auto. Qed.
Lemma u16_hi a b : is_byte a -> is_byte b -> to_byte (Z.shiftr (u16 a b) 8) = b.
Proof.
  intros Ha Hb. rewrite Z.shiftr_div_pow2 by lia. unfold u16. change (2 ^ 8)%Z with 256%Z. rewrite (Z.mul_comm 256), Z.div_add by lia.
  rewrite Z.div_small by auto. apply to_byte_id. auto.
Qed.
Lemma put16_xor k a b : is_byte a -> is_byte b -> put16 (Z.lxor k (u16 a b)) = [Z.lxor a (to_byte k); Z.lxor b (to_byte (Z.shiftr k 8))].
Proof.
  intros Ha Hb. unfold put16. rewrite Z.shiftr_lxor, !to_byte_xor, u16_lo, u16_hi by auto. f_equal; [apply Z.lxor_comm|f_equal; apply Z.lxor_comm].
Qed.
Lemma is_byte_xor a b : is_byte a -> is_byte b -> is_byte (Z.lxor a b).
Proof. intros Ha Hb. apply (@inw_xor 8 a b); auto; lia. Qed.
Lemma put16_u16 v : (0 <= v < 2 ^ 16)%Z -> exists a b, put16 v = [a; b] /\ is_byte a /\ is_byte b /\ v = u16 a b.
Proof.
  intros H. exists (v mod 256)%Z, (v / 256)%Z. unfold put16, to_byte, u16, is_byte. rewrite Z.shiftr_div_pow2 by lia. change (2 ^ 8)%Z with 256%Z.
  assert (0 <= v / 256 < 256)%Z by (split; [apply Z.div_pos; lia|apply Z.div_lt_upper_bound; lia]).
  rewrite (Z.mod_small (v / 256)) by auto. pose proof (Z.mod_pos_bound v 256). pose proof (Z.div_mod v 256). repeat split; lia.
Qed.

Section loops.
  Variables key nonce : bytes.
  Notation ks := (grain_ks key nonce).
  Notation ready := (ready key nonce).
  Lemma ks_byte i : is_byte (ks i).
  Proof. unfold grain_ks. rewrite byte_of_bits_z. apply (zbits_w 8). Qed.
  Lemma xor_stream_ok off src : bytes_ok src -> bytes_ok (xor_stream ks off src).
  Proof. revert off. induction src; intros off H; cbn [xor_stream]; [constructor|]. inversion H; subst. apply Forall_cons; [apply is_byte_xor; auto; apply ks_byte|apply IHsrc; auto]. Qed.

  Definition tlseen (ip : bool) (src ct : bytes) : bytes :=
    if ip && Nat.odd (length src) then firstn (length src - 1) src ++ skipn (length src - 1) ct else src.
  Lemma tlseen_cons2 ip a b r x y c : tlseen ip (a :: b :: r) (x :: y :: c) = a :: b :: tlseen ip r c.
  Proof.
    unfold tlseen. cbn [length]. change (Nat.odd (S (S (length r)))) with (Nat.odd (length r)).
    destruct ip; cbn [andb]; auto. destruct (Nat.odd (length r)) eqn:E; auto. destruct r as [|z r]; [discriminate|].
    cbn [length Nat.sub firstn skipn app]. rewrite Nat.sub_0_r. auto.
  Qed.
  Lemma enc_loop_ok ip q : forall src P n s, length src = 2 * q \/ length src = 2 * q + 1 -> bytes_ok src -> length P = 2 * n ->
    ready (auth_bit (P ++ tlseen ip src (xor_stream ks (2 * n) src))) n s ->
    done key nonce (P ++ tlseen ip src (xor_stream ks (2 * n) src)) (fst (g_enc_loop ip s src)) /\
    snd (g_enc_loop ip s src) = xor_stream ks (2 * n) src.
  Proof.
    induction q as [|q IH]; intros src P n s Hl Hs LP H.
    - destruct src as [|a [|b r]]; cbn [length] in Hl; try lia.
      + cbn [g_enc_loop xor_stream]. rewrite (surjective_pairing (g_next s)). cbn [fst snd]. split; auto.
        unfold tlseen in *. cbn [length Nat.odd Nat.even negb] in *. rewrite andb_false_r, app_nil_r in *. apply finish_even with n; auto.
      + inversion Hs as [|? ? Ha _]; subst. cbn [g_enc_loop xor_stream]. rewrite (surjective_pairing (g_next s)). cbn [fst snd].
        rewrite (kb_lo H). rewrite (Z.lxor_comm _ a). split; auto.
        assert (Hc : is_byte (again ip a (Z.lxor a (ks (2 * n))))) by (unfold again; destruct ip; auto; apply is_byte_xor; auto; apply ks_byte).
        assert (E : tlseen ip [a] (xor_stream ks (2 * n) [a]) = [again ip a (Z.lxor a (ks (2 * n)))]) by (unfold tlseen, again; destruct ip; reflexivity).
        rewrite E in H. change [Z.lxor a (ks (2 * n))] with (xor_stream ks (2 * n) [a]). rewrite E. apply finish_odd with P n; auto.
    - destruct src as [|a [|b r]]; cbn [length] in Hl; try lia.
      inversion Hs as [|? ? Ha Hs1]; subst. inversion Hs1 as [|? ? Hb Hs2]; subst.
      cbn [xor_stream] in *. rewrite tlseen_cons2 in *.
      replace (S (S (2 * n))) with (2 * (n + 1)) in * by lia.
      set (T := tlseen ip r (xor_stream ks (2 * (n + 1)) r)) in *.
      pose proof (@step16_bytes key nonce _ P a b T n s eq_refl LP Ha Hb H) as K.
      cbn [g_enc_loop]. rewrite (surjective_pairing (g_next s)).
      assert (EA : P ++ a :: b :: T = (P ++ [a; b]) ++ T) by (rewrite <- app_assoc; auto).
      rewrite app_assoc in K. rewrite EA. destruct (IH r (P ++ [a; b]) (n + 1) _ ltac:(lia) Hs2 ltac:(rewrite app_length; cbn; lia) K) as [K1 K2].
      rewrite (surjective_pairing (g_enc_loop ip _ r)). cbn [fst snd]. split; [exact K1|]. rewrite K2.
      rewrite put16_xor by auto. rewrite (kb_lo H), (kb_hi H). replace (2 * n + 1) with (S (2 * n)) by lia. reflexivity.
  Qed.
  Lemma dec_loop_ok q : forall src P n s, length src = 2 * q \/ length src = 2 * q + 1 -> bytes_ok src -> length P = 2 * n ->
    ready (auth_bit (P ++ xor_stream ks (2 * n) src)) n s ->
    done key nonce (P ++ xor_stream ks (2 * n) src) (fst (g_dec_loop s src)) /\
    snd (g_dec_loop s src) = xor_stream ks (2 * n) src.
  Proof.
    induction q as [|q IH]; intros src P n s Hl Hs LP H.
    - destruct src as [|a [|b r]]; cbn [length] in Hl; try lia.
      + cbn [g_dec_loop xor_stream] in *. rewrite (surjective_pairing (g_next s)). cbn [fst snd]. split; auto.
        rewrite app_nil_r in *. apply finish_even with n; auto.
      + inversion Hs as [|? ? Ha _]; subst. cbn [g_dec_loop xor_stream] in *. rewrite (surjective_pairing (g_next s)). cbn [fst snd].
        rewrite (kb_lo H). rewrite (Z.lxor_comm _ a). split; auto.
        apply finish_odd with P n; auto. apply is_byte_xor; auto; apply ks_byte.
    - destruct src as [|a [|b r]]; cbn [length] in Hl; try lia.
      inversion Hs as [|? ? Ha Hs1]; subst. inversion Hs1 as [|? ? Hb Hs2]; subst.
      cbn [xor_stream] in *. 
      replace (S (S (2 * n))) with (2 * (n + 1)) in * by lia.
      set (a' := Z.lxor a (ks (2 * n))) in *. set (b' := Z.lxor b (ks (S (2 * n)))) in *.
      assert (Ha' : is_byte a') by (apply is_byte_xor; auto; apply ks_byte).
      assert (Hb' : is_byte b') by (apply is_byte_xor; auto; apply ks_byte).
      cbn [g_dec_loop]. rewrite (surjective_pairing (g_next s)).
      assert (E : Z.lxor (getkb (snd (g_next s))) (u16 a b) = u16 a' b').
      { assert (B : (0 <= Z.lxor (getkb (snd (g_next s))) (u16 a b) < 2 ^ 16)%Z).
        { apply (@inw_xor 16); [lia|apply getkb_w|]. unfold inw, u16, is_byte in *. change (2 ^ 16)%Z with 65536%Z. lia. }
        destruct (put16_u16 B) as (x & y & Ep & Hx & Hy & Ev). rewrite Ev. rewrite put16_xor, (kb_lo H), (kb_hi H) in Ep by auto.
        replace (2 * n + 1) with (S (2 * n)) in Ep by lia. fold a' b' in Ep. injection Ep as <- <-. reflexivity. } 
      rewrite E. pose proof (@step16_bytes key nonce _ P a' b' _ n s eq_refl LP Ha' Hb' H) as K.
      set (T := xor_stream ks (2 * (n + 1)) r) in *.
      assert (EA : P ++ a' :: b' :: T = (P ++ [a'; b']) ++ T) by (rewrite <- app_assoc; auto).
      rewrite app_assoc in K. rewrite EA. destruct (IH r (P ++ [a'; b']) (n + 1) _ ltac:(lia) Hs2 ltac:(rewrite app_length; cbn; lia) K) as [K1 K2].
      rewrite (surjective_pairing (g_dec_loop _ r)). cbn [fst snd]. split; [exact K1|]. rewrite K2.
      unfold put16. rewrite u16_lo, u16_hi by auto. reflexivity.
  Qed.
End loops.

Section whole.
  Variables key nonce : bytes.
  Notation ks := (grain_ks key nonce).
  Notation ready := (ready key nonce).
  Notation R := (gR key nonce). Notation A := (gA key nonce).
  (** the closing one after a lone byte: only the register as it stands is used *)
  Lemma finish_half M n s w : length M = 2 * n + 1 -> inw 16 w -> auth R (auth_bit M) A (16 * n + 8) s -> done key nonce M (accumulate w 1 s).
  Proof.
    intros L Hw H. set (i := 16 * n + 8) in *.
    set (R' := fun x => if x <? i + 64 then R x else Z.testbit w (Z.of_nat (x - i - 64))).
    assert (EP : forall c, c <= i + 1 -> forall j, j < 64 -> psum R' (auth_bit M) A c 0 j = psum R (auth_bit M) A c 0 j).
    { induction c; intros Hc j Hj; cbn [psum]; auto. rewrite IHc by lia. f_equal. f_equal. unfold R'. rewrite (proj2 (Nat.ltb_lt _ _)) by lia. auto. }
    assert (H' : auth R' (auth_bit M) A i s).
    { destruct H as [H1 H2]. split.
      - rewrite H1. apply zbits_ext. intros j Hj. unfold R'. rewrite (proj2 (Nat.ltb_lt _ _)) by lia. auto.
      - rewrite H2. apply zbits_ext. intros j Hj. symmetry. apply EP; auto; lia. }
    destruct (@accumulate_auth R' _ _ i s w 1%Z H' Hw ltac:(lia)) as [[_ K] _].
    - intros j Hj. unfold R'. rewrite (proj2 (Nat.ltb_ge _ _)) by lia. apply tb_eq. lia.
    - intros k Hk. unfold auth_bit. rewrite (proj2 (Nat.ltb_ge _ _)) by lia. destruct k.
      + rewrite (proj2 (Nat.eqb_eq _ _)) by lia. auto.
      + rewrite (proj2 (Nat.eqb_neq _ _)) by lia. change 1%Z with (2 ^ 0)%Z. apply Z.pow2_bits_false. lia.
    - exists (i + 1). split; [lia|]. rewrite K. apply zbits_ext. intros j Hj. rewrite <- (EP (i + 1)) by lia.
      replace (i + 16) with (S (i + 15)) by lia.
      assert (Z : forall d, psum R' (auth_bit M) A (i + 1 + d) 0 j = psum R' (auth_bit M) A (i + 1) 0 j).
      { induction d; [rewrite Nat.add_0_r; auto|]. rewrite Nat.add_succ_r. cbn [psum]. rewrite IHd. unfold auth_bit at 2.
        rewrite (proj2 (Nat.ltb_ge _ _)) by lia. rewrite (proj2 (Nat.eqb_neq _ _)) by lia. apply xorb_false_r. }
      replace (S (i + 15)) with (i + 1 + 15) by lia. apply Z.
  Qed.
  Lemma finish_half_next M n s : length M = 2 * n + 1 -> auth R (auth_bit M) A (16 * n + 8) s ->
    done key nonce M (accumulate (getmb (snd (g_next s))) 1 (fst (g_next s))).
  Proof.
    intros L [H1 H2]. apply finish_half with n; [exact L|apply getmb_w|]. destruct (next_keeps s) as [E1 E2]. split; [rewrite E2; exact H1|rewrite E1; exact H2].
  Qed.
  Lemma enc_nil ip s : g_enc_loop ip s [] = (accumulate (getmb (snd (g_next s))) 1 (fst (g_next s)), []).
  Proof. unfold g_enc_loop, g_dec_loop. destruct (g_next s). cbn [fst snd]. reflexivity. Qed.
  Lemma dec_nil s : g_dec_loop s [] = (accumulate (getmb (snd (g_next s))) 1 (fst (g_next s)), []).
  Proof. unfold g_enc_loop, g_dec_loop. destruct (g_next s). cbn [fst snd]. reflexivity. Qed.
  Lemma absorb_even q D M P Q n s : length D = 2 * q -> M = P ++ D ++ Q -> length P = 2 * n -> bytes_ok D ->
    ready (auth_bit M) n s -> ready (auth_bit M) (n + q) (fst (g_absorb s D)) /\ snd (g_absorb s D) = [].
  Proof.
    intros HD EM LP OD H. destruct (@absorb_ok key nonce q D M P Q n s (or_introl HD) EM LP OD H) as (K1 & K2 & K3). split; auto.
    apply (f_equal (@length Z)) in K2. rewrite app_length, firstn_length in K2. destruct (snd (g_absorb s D)); auto. cbn in *. lia.
  Qed.
  Lemma absorb_odd q D M P Q n s : length D = 2 * q + 1 -> M = P ++ D ++ Q -> length P = 2 * n -> bytes_ok D ->
    ready (auth_bit M) n s -> exists D' a, D = D' ++ [a] /\ length D' = 2 * q /\ ready (auth_bit M) (n + q) (fst (g_absorb s D)) /\ snd (g_absorb s D) = [a].
  Proof.
    intros HD EM LP OD H. destruct (@absorb_ok key nonce q D M P Q n s (or_intror HD) EM LP OD H) as (K1 & K2 & K3).
    pose proof (f_equal (@length Z) K2) as K4. rewrite app_length, firstn_length in K4. exists (firstn (2 * q) D).
    destruct (snd (g_absorb s D)) as [|a [|b r]]; cbn [length] in *; try lia. exists a. split; auto. split; auto. rewrite firstn_length. lia.
  Qed.

  Variable ad : bytes.
  Hypothesis La : (Z.of_nat (length ad) < 2 ^ 63)%Z.
  Hypothesis Oa : bytes_ok ad.
  Notation H := (code_length (length ad) ++ ad).
  Lemma H_ok : bytes_ok H.
  Proof. apply bytes_ok_app. split; auto. apply code_length_ok. auto. Qed.
  Lemma parity n : exists q, n = 2 * q \/ n = 2 * q + 1.
  Proof. exists (n / 2). pose proof (Nat.div_mod n 2). pose proof (Nat.mod_upper_bound n 2). lia. Qed.
  Lemma odd_double q : Nat.odd (2 * q) = false. Proof. rewrite Nat.odd_mul. auto. Qed.
  Lemma odd_add_even q k : Nat.odd (2 * q + k) = Nat.odd k. Proof. rewrite Nat.odd_add, odd_double. destruct (Nat.odd k); auto. Qed.
  Definition auth_pt (ip : bool) (src : bytes) : bytes := if ip then seen (length H) src (xor_stream ks (length H) src) else src.

  Lemma encrypt_ok ip src s : bytes_ok src -> ready (auth_bit (H ++ auth_pt ip src)) 0 s ->
    snd (g_encrypt ip s src ad) = xor_stream ks (length H) src /\ done key nonce (H ++ auth_pt ip src) (fst (g_encrypt ip s src ad)).
  Proof.
    intros Os Hr. destruct (header_ok La) as [EH [q1 L1]]. pose proof H_ok as OH. unfold g_encrypt.
    destruct (g_header ad) as [der rad]. cbn [fst snd] in EH, L1. set (M := H ++ auth_pt ip src) in *.
    assert (EM : M = [] ++ der ++ (rad ++ auth_pt ip src)) by (cbn [app]; unfold M; rewrite app_assoc, EH; auto).
    rewrite <- EH in OH. apply bytes_ok_app in OH. destruct OH as [Od Or].
    destruct (@absorb_even q1 der M [] _ 0 s L1 EM eq_refl Od Hr) as [R1 _]. rewrite (surjective_pairing (g_absorb s der)).
    set (s1 := fst (g_absorb s der)) in *. clearbody s1. cbn [Nat.add] in R1.
    assert (EM2 : M = der ++ rad ++ auth_pt ip src) by (rewrite EM; auto).
    destruct (parity (length rad)) as [q2 [L2|L2]].
    - destruct (@absorb_even q2 rad M der _ q1 s1 L2 EM2 L1 Or R1) as [R2 E2]. rewrite (surjective_pairing (g_absorb s1 rad)), E2.
      set (s2 := fst (g_absorb s1 rad)) in *. clearbody s2.
      assert (LH : length H = 2 * (q1 + q2)) by (rewrite <- EH, app_length; lia).
      assert (ET : auth_pt ip src = tlseen ip src (xor_stream ks (2 * (q1 + q2)) src)).
      { unfold auth_pt, tlseen, seen. rewrite LH, odd_double, odd_add_even. destruct ip; auto. }
      destruct (parity (length src)) as [q3 L3]. unfold M in *. rewrite ET in R2 |- *.
      destruct (@enc_loop_ok key nonce ip q3 src H (q1 + q2) s2 L3 Os LH R2) as [K1 K2]. rewrite LH. auto.
    - destruct (@absorb_odd q2 rad M der _ q1 s1 L2 EM2 L1 Or R1) as (D' & a & ED & LD & R2 & E2).
      rewrite (surjective_pairing (g_absorb s1 rad)), E2. set (s2 := fst (g_absorb s1 rad)) in *. clearbody s2.
      assert (LH : length H = 2 * (q1 + q2) + 1) by (rewrite <- EH, app_length; lia).
      rewrite (surjective_pairing (g_next s2)). set (n := q1 + q2) in *.
      assert (LP : length (der ++ D') = 2 * n) by (rewrite app_length; lia).
      assert (Ha : is_byte a) by (rewrite ED in Or; apply bytes_ok_app in Or; destruct Or as [_ Or]; inversion Or; auto).
      assert (EM3 : M = (der ++ D') ++ [a] ++ auth_pt ip src) by (rewrite EM2, ED, <- !app_assoc; auto).
      assert (Ba : forall k, k < 8 -> Z.testbit a (Z.of_nat k) = auth_bit M (16 * n + k)).
      { intros k Hk. replace (16 * n) with (8 * length (der ++ D')) by lia. rewrite (@auth_bit_at M _ [a] _ k EM3) by (cbn; lia).
        unfold obit. rewrite (Nat.div_small k 8), (Nat.mod_small k 8) by auto. auto. }
      destruct (@step8 key nonce (auth_bit M) n s2 a R2 Ha Ba) as [S1 S2].
      destruct src as [|p r].
      + rewrite enc_nil. cbn [fst snd xor_stream]. split; [reflexivity|].
        apply finish_half_next with n; [|exact S1].
        unfold M. assert (auth_pt ip [] = []) as -> by (unfold auth_pt, seen; destruct ip, (Nat.odd (length H)); cbn; auto; destruct (Nat.odd _); auto).
        rewrite app_nil_r. auto.
      + inversion Os as [|? ? Hp Or2]; subst. rewrite (kb_hi R2). rewrite (Z.lxor_comm _ p).
        set (c := Z.lxor p (ks (2 * n + 1))) in *.
        assert (Hc : is_byte (again ip p c)) by (unfold again; destruct ip; auto; apply is_byte_xor; auto; apply ks_byte).
        assert (ET : auth_pt ip (p :: r) = again ip p c :: tlseen ip r (xor_stream ks (2 * (n + 1)) r)).
        { unfold auth_pt, tlseen, seen, again. rewrite LH. destruct ip; cbn [andb]; auto.
          rewrite <- Nat.add_assoc, !odd_add_even. cbn [length]. change (Nat.odd 1) with true. change (Nat.odd (1 + S (length r))) with (Nat.odd (length r)).
          cbn [xor_stream firstn skipn app]. fold c. replace (S (2 * n + 1)) with (2 * (n + 1)) by lia.
          destruct (Nat.odd (length r)) eqn:Eo; auto. destruct r as [|z r]; [discriminate|]. cbn [length Nat.sub firstn skipn app]. rewrite Nat.sub_0_r. auto. }
        assert (EM4 : M = (der ++ D' ++ [a]) ++ [again ip p c] ++ tlseen ip r (xor_stream ks (2 * (n + 1)) r)).
        { rewrite EM3, ET, <- !app_assoc. auto. }
        assert (R3 := S2 (again ip p c) Hc).
        assert (Bb : forall k, k < 8 -> Z.testbit (again ip p c) (Z.of_nat k) = auth_bit M (16 * n + 8 + k)).
        { intros k Hk. replace (16 * n + 8) with (8 * length (der ++ D' ++ [a])) by (rewrite !app_length in *; cbn [length]; lia).
          rewrite (@auth_bit_at M _ [again ip p c] _ k EM4) by (cbn; lia). unfold obit. rewrite (Nat.div_small k 8), (Nat.mod_small k 8) by auto. auto. }
        specialize (R3 Bb). destruct (parity (length r)) as [q3 L3].
        assert (EM5 : M = (der ++ D' ++ [a] ++ [again ip p c]) ++ tlseen ip r (xor_stream ks (2 * (n + 1)) r)) by (rewrite EM4, <- !app_assoc; auto).
        rewrite EM5 in R3.
        destruct (@enc_loop_ok key nonce ip q3 r (der ++ D' ++ [a] ++ [again ip p c]) (n + 1) _ L3 Or2 ltac:(rewrite !app_length in *; cbn [length]; lia) R3) as [K1 K2].
        rewrite (surjective_pairing (g_enc_loop ip _ r)). cbn [fst snd]. rewrite EM5. split; [|exact K1].
        rewrite K2, LH. cbn [xor_stream]. fold c. replace (S (2 * n + 1)) with (2 * (n + 1)) by lia. auto.
  Qed.
  Lemma decrypt_ok src s : bytes_ok src -> ready (auth_bit (H ++ xor_stream ks (length H) src)) 0 s ->
    snd (g_decrypt s src ad) = xor_stream ks (length H) src /\ done key nonce (H ++ xor_stream ks (length H) src) (fst (g_decrypt s src ad)).
  Proof.
    intros Os Hr. destruct (header_ok La) as [EH [q1 L1]]. pose proof H_ok as OH. unfold g_decrypt.
    destruct (g_header ad) as [der rad]. cbn [fst snd] in EH, L1. set (pt := xor_stream ks (length H) src) in *. set (M := H ++ pt) in *.
    assert (EM : M = [] ++ der ++ (rad ++ pt)) by (cbn [app]; unfold M; rewrite app_assoc, EH; auto).
    rewrite <- EH in OH. apply bytes_ok_app in OH. destruct OH as [Od Or].
    destruct (@absorb_even q1 der M [] _ 0 s L1 EM eq_refl Od Hr) as [R1 _]. rewrite (surjective_pairing (g_absorb s der)).
    set (s1 := fst (g_absorb s der)) in *. clearbody s1. cbn [Nat.add] in R1.
    assert (EM2 : M = der ++ rad ++ pt) by (rewrite EM; auto).
    destruct (parity (length rad)) as [q2 [L2|L2]].
    - destruct (@absorb_even q2 rad M der _ q1 s1 L2 EM2 L1 Or R1) as [R2 E2]. rewrite (surjective_pairing (g_absorb s1 rad)), E2.
      set (s2 := fst (g_absorb s1 rad)) in *. clearbody s2.
      assert (LH : length H = 2 * (q1 + q2)) by (rewrite <- EH, app_length; lia).
      destruct (parity (length src)) as [q3 L3]. unfold M, pt in *. rewrite LH in R2 |- *.
      destruct (@dec_loop_ok key nonce q3 src H (q1 + q2) s2 L3 Os LH R2) as [K1 K2]. auto.
    - destruct (@absorb_odd q2 rad M der _ q1 s1 L2 EM2 L1 Or R1) as (D' & a & ED & LD & R2 & E2).
      rewrite (surjective_pairing (g_absorb s1 rad)), E2. set (s2 := fst (g_absorb s1 rad)) in *. clearbody s2.
      assert (LH : length H = 2 * (q1 + q2) + 1) by (rewrite <- EH, app_length; lia).
      rewrite (surjective_pairing (g_next s2)). set (n := q1 + q2) in *.
      assert (LP : length (der ++ D') = 2 * n) by (rewrite app_length; lia).
      assert (Ha : is_byte a) by (rewrite ED in Or; apply bytes_ok_app in Or; destruct Or as [_ Or]; inversion Or; auto).
      assert (EM3 : M = (der ++ D') ++ [a] ++ pt) by (rewrite EM2, ED, <- !app_assoc; auto).
      assert (Ba : forall k, k < 8 -> Z.testbit a (Z.of_nat k) = auth_bit M (16 * n + k)).
      { intros k Hk. replace (16 * n) with (8 * length (der ++ D')) by lia. rewrite (@auth_bit_at M _ [a] _ k EM3) by (cbn; lia).
        unfold obit. rewrite (Nat.div_small k 8), (Nat.mod_small k 8) by auto. auto. }
      destruct (@step8 key nonce (auth_bit M) n s2 a R2 Ha Ba) as [S1 S2].
      destruct src as [|p r].
      + rewrite dec_nil. cbn [fst snd]. split; [reflexivity|].
        apply finish_half_next with n; [|exact S1].
        unfold M, pt. cbn [xor_stream]. rewrite app_nil_r. auto.
      + inversion Os as [|? ? Hp Or2]; subst. rewrite (kb_hi R2). rewrite (Z.lxor_comm _ p).
        set (c := Z.lxor p (ks (2 * n + 1))) in *.
        assert (Hc : is_byte c) by (apply is_byte_xor; auto; apply ks_byte).
        assert (ET : pt = c :: xor_stream ks (2 * (n + 1)) r).
        { unfold pt. rewrite LH. cbn [xor_stream]. fold c. replace (S (2 * n + 1)) with (2 * (n + 1)) by lia. auto. }
        assert (EM4 : M = (der ++ D' ++ [a]) ++ [c] ++ xor_stream ks (2 * (n + 1)) r).
        { rewrite EM3, ET, <- !app_assoc. auto. }
        assert (R3 := S2 c Hc).
        assert (Bb : forall k, k < 8 -> Z.testbit c (Z.of_nat k) = auth_bit M (16 * n + 8 + k)).
        { intros k Hk. replace (16 * n + 8) with (8 * length (der ++ D' ++ [a])) by (rewrite !app_length in *; cbn [length]; lia).
          rewrite (@auth_bit_at M _ [c] _ k EM4) by (cbn; lia). unfold obit. rewrite (Nat.div_small k 8), (Nat.mod_small k 8) by auto. auto. }
        specialize (R3 Bb). destruct (parity (length r)) as [q3 L3].
        assert (EM5 : M = (der ++ D' ++ [a] ++ [c]) ++ xor_stream ks (2 * (n + 1)) r) by (rewrite EM4, <- !app_assoc; auto).
        rewrite EM5 in R3.
        destruct (@dec_loop_ok key nonce q3 r (der ++ D' ++ [a] ++ [c]) (n + 1) _ L3 Or2 ltac:(rewrite !app_length in *; cbn [length]; lia) R3) as [K1 K2].
        rewrite (surjective_pairing (g_dec_loop _ r)). cbn [fst snd]. rewrite EM5. split; [|exact K1].
        rewrite K2, ET. auto.
  Qed.
End whole.
