(** Proofs about mode/ocb3: it computes the OCB of RFC 7253. *)
From Verif Require Import Base BlockModeModel BlockModeSpec ToolBytesModel ToolBytesSpec ToolBytesProofs MacModel MacSpec MacProofs
  OffsetSpec PmacModel PmacProofs CipherLaws OcbSpec OcbModel OcbProofs Ocb3Model.
Set Implicit Arguments. Unset Strict Implicit.
Local Open Scope nat_scope.

(** ** Words and bytes *)
Lemma lxor_mod k a b : (0 <= k)%Z -> (Z.lxor a b mod 2 ^ k = Z.lxor (a mod 2 ^ k) (b mod 2 ^ k))%Z.
Proof.
  intro Hk. rewrite <- !Z.land_ones by auto. apply Z.bits_inj'. intros i Hi.
  rewrite Z.land_spec, !Z.lxor_spec, !Z.land_spec. destruct (Z.testbit (Z.ones k) i); rewrite ?andb_true_r, ?andb_false_r; reflexivity.
Qed.
Lemma le_bytes_lxor n : forall a b, le_bytes n (Z.lxor a b) = xorl (le_bytes n a) (le_bytes n b).
Proof.
  induction n as [|n IH]; intros a b; [reflexivity|]. cbn [le_bytes xorl]. f_equal.
  - unfold to_byte. change 256%Z with (2 ^ 8)%Z. apply lxor_mod. lia.
  - rewrite <- IH. f_equal. change 256%Z with (2 ^ 8)%Z. rewrite <- !Z.shiftr_div_pow2 by lia. apply Z.shiftr_lxor.
Qed.
Lemma xorl_rev a : forall b, length a = length b -> rev (xorl a b) = xorl (rev a) (rev b).
Proof.
  induction a as [|x a IH]; intros [|y b] H; try discriminate; [reflexivity|]. cbn [xorl rev]. cbn in H.
  rewrite IH by lia. rewrite xorl_app by (rewrite !rev_length; lia). reflexivity.
Qed.
Lemma be_bytes_lxor n a b : be_bytes n (Z.lxor a b) = xorl (be_bytes n a) (be_bytes n b).
Proof. unfold be_bytes. rewrite le_bytes_lxor. apply xorl_rev. now rewrite !le_bytes_length. Qed.
Lemma be_bytes_app n m a b : (0 <= b < 256 ^ Z.of_nat m)%Z -> be_bytes n a ++ be_bytes m b = be_bytes (n + m) (a * 256 ^ Z.of_nat m + b).
Proof.
  intro H. apply be_val_inj; [apply bytes_ok_app; split; apply be_bytes_ok|apply be_bytes_ok|rewrite app_length, !be_bytes_length; lia|].
  rewrite be_val_app', !be_val_bytes, be_bytes_length. rewrite (Z.mod_small b) by auto.
  rewrite Nat2Z.inj_add, Z.pow_add_r by lia. set (M := (256 ^ Z.of_nat m)%Z) in *.
  pose proof (pow256_pos n). rewrite (Z.mul_comm (256 ^ Z.of_nat n)). assert (0 < M)%Z by lia.
  rewrite Z.rem_mul_r by lia. rewrite (Z.add_comm (a * M) b), Z_mod_plus_full, (Z.mod_small b) by lia.
  rewrite Z.div_add, (Z.div_small b) by lia. rewrite Z.add_0_l. ring.
Qed.
Lemma skipn_be_bytes k n z : k <= n -> skipn k (be_bytes n z) = be_bytes (n - k) z.
Proof.
  intro H. pose proof (be_val_app' (firstn k (be_bytes n z)) (skipn k (be_bytes n z))) as E.
  rewrite firstn_skipn, be_val_bytes, skipn_length, be_bytes_length in E.
  apply be_val_inj; [apply bytes_ok_skipn, be_bytes_ok|apply be_bytes_ok|rewrite skipn_length, !be_bytes_length; lia|].
  rewrite be_val_bytes. pose proof (pow256_pos (n - k)) as P.
  assert (Bs : (0 <= be_val (skipn k (be_bytes n z)) < 256 ^ Z.of_nat (n - k))%Z).
  { pose proof (be_val_bound (bytes_ok_skipn k (be_bytes_ok n z))) as B. now rewrite skipn_length, be_bytes_length in B. }
  rewrite <- (Z.mod_small (be_val (skipn k (be_bytes n z))) (256 ^ Z.of_nat (n - k))) by auto.
  assert (En : (256 ^ Z.of_nat n = 256 ^ Z.of_nat (n - k) * 256 ^ Z.of_nat k)%Z) by (rewrite <- Z.pow_add_r by lia; f_equal; lia).
  rewrite En in E. pose proof (pow256_pos k). rewrite Z.rem_mul_r in E by lia.
  set (M := (256 ^ Z.of_nat (n - k))%Z) in *.
  apply (f_equal (fun x => x mod M)%Z) in E. rewrite (Z.mul_comm M), Z_mod_plus_full in E.
  rewrite (Z.add_comm (_ * M)), Z_mod_plus_full, Z.mod_mod in E by lia. now symmetry.
Qed.

Definition wok (w : u128) : Prop := (0 <= fst w < 2 ^ 64 /\ 0 <= snd w < 2 ^ 64)%Z.
Lemma put_block w : isblock 16 (put128 w).
Proof. split; [unfold put128; now rewrite app_length, !be_bytes_length|apply bytes_ok_app; split; apply be_bytes_ok]. Qed.
Lemma put_get b : isblock 16 b -> put128 (get128 b) = b.
Proof.
  intros [L O]. unfold put128, get128. cbn [fst snd]. rewrite (@be_bytes_val (firstn 8 b)); [|now apply bytes_ok_firstn|rewrite firstn_length; lia].
  rewrite (firstn_all2 (n := 8) (skipn 8 b)) by (rewrite skipn_length; lia).
  rewrite be_bytes_val; [apply firstn_skipn|now apply bytes_ok_skipn|rewrite skipn_length; lia].
Qed.
Lemma get_put w : wok w -> get128 (put128 w) = w.
Proof.
  intros [H1 H2]. unfold get128, put128. rewrite firstn_app_exact, skipn_app_exact by now rewrite be_bytes_length.
  rewrite firstn_all2 by now rewrite be_bytes_length. rewrite !be_val_bytes. change (256 ^ Z.of_nat 8)%Z with (2 ^ 64)%Z.
  rewrite !Z.mod_small by auto. now destruct w.
Qed.
Lemma get_ok b : isblock 16 b -> wok (get128 b).
Proof.
  intros [L O]. split; cbn [get128 fst snd].
  - pose proof (be_val_bound (bytes_ok_firstn 8 O)) as B. rewrite firstn_length, L in B. exact B.
  - pose proof (be_val_bound (bytes_ok_firstn 8 (bytes_ok_skipn 8 O))) as B. rewrite firstn_length, skipn_length, L in B. exact B.
Qed.
Lemma put_x128 a b : put128 (x128 a b) = xorl (put128 a) (put128 b).
Proof.
  unfold put128, x128. cbn [fst snd]. rewrite xorl_app by now rewrite !be_bytes_length. now rewrite !be_bytes_lxor.
Qed.
Lemma put_0 : put128 (0, 0)%Z = zero16. Proof. reflexivity. Qed.
Lemma put_val w : (0 <= snd w < 2 ^ 64)%Z -> put128 w = be_bytes 16 (fst w * 2 ^ 64 + snd w).
Proof. intro H. unfold put128. rewrite be_bytes_app by exact H. reflexivity. Qed.

Lemma shl_shr k m b : (0 <= b < 64)%Z -> (0 <= k < 2 ^ 64)%Z -> (0 <= m < 2 ^ 64)%Z ->
  Z.lor (w64 (Z.shiftl k b)) (Z.shiftr m (64 - b)) = ((k * 2 ^ b) mod 2 ^ 64 + m / 2 ^ (64 - b))%Z /\
  (0 <= (k * 2 ^ b) mod 2 ^ 64 + m / 2 ^ (64 - b) < 2 ^ 64)%Z.
Proof.
  intros Hb Hk Hm. unfold w64. rewrite Z.shiftl_mul_pow2, Z.shiftr_div_pow2 by lia.
  assert (E64 : (2 ^ 64 = 2 ^ (64 - b) * 2 ^ b)%Z) by (rewrite <- Z.pow_add_r by lia; f_equal; lia).
  assert (P1 : (0 < 2 ^ b)%Z) by (apply Z.pow_pos_nonneg; lia). assert (P2 : (0 < 2 ^ (64 - b))%Z) by (apply Z.pow_pos_nonneg; lia).
  assert (E : ((k * 2 ^ b) mod 2 ^ 64 = (k mod 2 ^ (64 - b)) * 2 ^ b)%Z) by (rewrite E64; apply Z.mul_mod_distr_r; lia).
  assert (Bm : (0 <= m / 2 ^ (64 - b) < 2 ^ b)%Z) by (split; [apply Z.div_pos; lia|apply Z.div_lt_upper_bound; nia]).
  rewrite E, lor_disj by lia. split; [reflexivity|]. pose proof (Z.mod_pos_bound k (2 ^ (64 - b)) P2). split; [nia|]. rewrite E64. nia.
Qed.
Lemma put_double w : wok w -> put128 (double128 w) = double 16 135 (put128 w) /\ wok (double128 w).
Proof.
  destruct w as [lo hi]. intros [Hl Hh]. cbn [fst snd] in *. unfold double128.
  destruct (@shl_shr lo hi 1 ltac:(lia) Hl Hh) as [E1 B1]. change (64 - 1)%Z with 63%Z in *. rewrite E1.
  assert (Et : (Z.shiftr lo 63 = lo / 2 ^ 63)%Z) by (apply Z.shiftr_div_pow2; lia). rewrite Et.
  assert (Eh : (w64 (Z.shiftl hi 1) = (hi * 2) mod 2 ^ 64)%Z) by (unfold w64; now rewrite Z.shiftl_mul_pow2 by lia). rewrite Eh.
  change (2 ^ 1)%Z with 2%Z in *.
  assert (Bv : (0 <= (hi * 2) mod 2 ^ 64 < 2 ^ 64)%Z) by (apply Z.mod_pos_bound; lia).
  set (m := Z.land (if (lo / 2 ^ 63 =? 0)%Z then 0 else 2 ^ 64 - 1)%Z 135).
  assert (Em : m = if (lo / 2 ^ 63 =? 0)%Z then 0%Z else 135%Z) by (unfold m; destruct (lo / 2 ^ 63 =? 0)%Z; reflexivity).
  assert (Bm : (0 <= m < 2 ^ 64)%Z) by (rewrite Em; destruct (lo / 2 ^ 63 =? 0)%Z; lia).
  assert (Bx : (0 <= Z.lxor ((hi * 2) mod 2 ^ 64) m < 2 ^ 64)%Z) by (apply lxor_bound; lia).
  split; [|split; [exact B1|exact Bx]].
  rewrite !put_val by (cbn [fst snd]; lia). cbn [fst snd]. unfold double. f_equal.
  rewrite be_val_bytes. change (256 ^ Z.of_nat 16)%Z with (2 ^ 128)%Z. rewrite (Z.mod_small (lo * 2 ^ 64 + hi)) by lia.
  unfold double_val. change (2 ^ (8 * Z.of_nat 16))%Z with (2 ^ 128)%Z.
  assert (D1 : (hi * 2 = 2 ^ 64 * (hi / 2 ^ 63) + (hi * 2) mod 2 ^ 64)%Z).
  { pose proof (Z.div_mod (hi * 2) (2 ^ 64)). replace (hi / 2 ^ 63)%Z with (hi * 2 / 2 ^ 64)%Z; [lia|].
    change (2 ^ 64)%Z with (2 ^ 63 * 2)%Z. apply Z.div_mul_cancel_r; lia. }
  assert (D2 : (lo * 2 = 2 ^ 64 * (lo / 2 ^ 63) + (lo * 2) mod 2 ^ 64)%Z).
  { pose proof (Z.div_mod (lo * 2) (2 ^ 64)). replace (lo / 2 ^ 63)%Z with (lo * 2 / 2 ^ 64)%Z; [lia|].
    change (2 ^ 64)%Z with (2 ^ 63 * 2)%Z. apply Z.div_mul_cancel_r; lia. }
  assert (Bl : (0 <= lo / 2 ^ 63 <= 1)%Z) by (split; [apply Z.div_pos; lia|apply Z.lt_succ_r, Z.div_lt_upper_bound; lia]).
  rewrite Em. destruct (Z.eqb_spec (lo / 2 ^ 63) 0) as [E0|E0].
  - rewrite Z.lxor_0_r. destruct (Z.ltb_spec (2 * (lo * 2 ^ 64 + hi)) (2 ^ 128)); [lia|lia].
  - destruct (Z.ltb_spec (2 * (lo * 2 ^ 64 + hi)) (2 ^ 128)); [lia|].
    rewrite <- lxor_low by lia. f_equal. lia.
Qed.

Lemma recombine (M A B qa ra qb rb s : Z) : (A = M * qa + ra -> B = M * qb + rb ->
  (ra + qb) * M + (rb + s) + qa * (M * M) = A * M + B + s)%Z.
Proof. intros -> ->. ring. Qed.

Section ocb3.
  Variable c : cipher.
  Variables nsz tsz : nat.
  Hypothesis HL : lawful c.
  Hypothesis Hs : bsz c = 16.
  Hypothesis Ht : 12 <= tsz <= 16.
  Let E := enc c.
  Let X16 b (H : isblock 16 b) : isblock 16 (enc c b).
  Proof. rewrite <- Hs in *. now apply (law_enc HL). Qed.
  Let Y16 b (H : isblock 16 b) : isblock 16 (dec c b).
  Proof. rewrite <- Hs in *. now apply (law_dec HL). Qed.

  Lemma put_encipher w : put128 (encipher c w) = enc c (put128 w).
  Proof. unfold encipher. apply put_get, X16, put_block. Qed.
  Lemma put_decipher w : put128 (decipher c w) = dec c (put128 w).
  Proof. unfold decipher. apply put_get, Y16, put_block. Qed.

  Definition star := encipher c (0, 0)%Z.
  Definition obj : ocb3st :=
    {| a_nsz := nsz; a_tsz := tsz; a_star := star; a_dollar := double128 star; a_L := ocb3_table 58 (double128 (double128 star)) |}.
  Lemma star_ok : wok star. Proof. apply get_ok, X16, put_block. Qed.
  Lemma put_star : put128 star = Lstar E. Proof. unfold star. rewrite put_encipher. reflexivity. Qed.
  Lemma put_dollar : put128 (double128 star) = Ldollar E /\ wok (double128 star).
  Proof. destruct (put_double star_ok) as [-> H]. now rewrite put_star. Qed.
  Lemma table_nth : forall k x i, wok x -> i < k -> exists w, nth_error (ocb3_table k x) i = Some w /\ put128 w = xpow 16 135 (put128 x) i.
  Proof.
    induction k as [|k IH]; intros x i Hx Hi; [lia|]. destruct i as [|i]; [exists x; split; reflexivity|].
    cbn [ocb3_table nth_error]. destruct (put_double Hx) as [P1 P2]. destruct (IH (double128 x) i P2 ltac:(lia)) as (w & Ew & Pw).
    exists w. split; [exact Ew|]. rewrite Pw, P1. unfold xpow. symmetry. apply Nat_iter_swap'.
  Qed.
  Lemma table_length : forall k x, length (ocb3_table k x) = k.
  Proof. induction k as [|k IH]; intro x; [reflexivity|]. cbn [ocb3_table length]. now rewrite IH. Qed.
  Lemma L_nth i : i < 58 -> exists w, nth_error (a_L obj) i = Some w /\ put128 w = xpow 16 135 (L0 E) i.
  Proof.
    intro Hi. destruct put_dollar as [P1 P2]. destruct (put_double P2) as [P3 P4]. rewrite P1 in P3.
    destruct (@table_nth 58 (double128 (double128 star)) i P4 Hi) as (w & E1 & E2). exists w. split; [exact E1|]. now rewrite E2, P3.
  Qed.

  (** ** The first offset *)
  Lemma nonce_block N : bytes_ok N -> 0 < length N < 16 ->
    let n := to_byte (Z.shiftl (to_byte ((Z.of_nat tsz * 8) mod 128)) 1) :: repeat 0%Z 15 in
    let k := 16 - length N in
    let n := splice k N n in
    splice (k - 1) [Z.lor (nth (k - 1) n 0%Z) 1] n = be_bytes 16 (nonce_val tsz N) /\ (0 <= nonce_val tsz N < 2 ^ 128)%Z.
  Proof.
    intros ON LN n k n1. assert (Hk : 1 <= k /\ k + length N = 16) by (unfold k; lia). set (t := ((8 * Z.of_nat tsz) mod 128)%Z). assert (Bt : (0 <= t < 128)%Z) by (apply Z.mod_pos_bound; lia).
    assert (B0 : to_byte (Z.shiftl (to_byte ((Z.of_nat tsz * 8) mod 128)) 1) = (2 * t)%Z).
    { rewrite (Z.mul_comm (Z.of_nat tsz)). fold t. unfold to_byte. rewrite Z.shiftl_mul_pow2 by lia. rewrite (Z.mod_small t) by lia. rewrite Z.mod_small; lia. }
    assert (Bv : (0 <= nonce_val tsz N < 2 ^ 128)%Z).
    { unfold nonce_val. fold t. pose proof (be_val_bound ON) as Bn. rewrite <- pow8 in Bn.
      assert (2 ^ (8 * Z.of_nat (length N)) <= 2 ^ 120)%Z by (apply Z.pow_le_mono_r; lia).
      change (2 ^ 121)%Z with (2 * 2 ^ 120)%Z. change (2 ^ 128)%Z with (256 * 2 ^ 120)%Z. nia. }
    split; [|exact Bv].
    assert (E1 : n1 = ((2 * t)%Z :: repeat 0%Z (k - 1)) ++ N).
    { unfold n1, n, splice. rewrite B0. rewrite skipn_all2 by (cbn [length]; rewrite repeat_length; lia). rewrite app_nil_r. f_equal.
      destruct k as [|k'] eqn:Ek; [lia|]. cbn [firstn]. f_equal.
      replace 15 with (k' + (15 - k')) by lia. rewrite repeat_app, firstn_app_exact by now rewrite repeat_length. f_equal. lia. }
    clearbody n1. subst n1. clear n.
    assert (E2 : exists h, splice (k - 1) [Z.lor (nth (k - 1) (((2 * t)%Z :: repeat 0%Z (k - 1)) ++ N) 0%Z) 1] (((2 * t)%Z :: repeat 0%Z (k - 1)) ++ N) = h ++ N
              /\ length h = k /\ bytes_ok h /\ be_val h = (2 * t * 256 ^ Z.of_nat (k - 1) + 1)%Z).
    { destruct (k - 1) as [|j] eqn:Ej.
      - exists [(2 * t + 1)%Z]. cbn [repeat app nth]. unfold splice. cbn [firstn app length skipn Nat.add]. repeat split.
        + f_equal. rewrite (Z.mul_comm 2). change 2%Z with (2 ^ 1)%Z. rewrite lor_disj by lia. lia.
        + cbn [length]. lia.
        + repeat constructor; unfold is_byte; lia.
        + cbn. lia.
      - exists ((2 * t)%Z :: repeat 0%Z j ++ [1%Z]).
        assert (En : nth (S j) (((2 * t)%Z :: repeat 0%Z (S j)) ++ N) 0%Z = 0%Z).
        { rewrite app_nth1 by (cbn [length]; rewrite repeat_length; lia). cbn [nth]. apply nth_repeat. }
        rewrite En. change (Z.lor 0 1) with 1%Z. replace (S j) with (j + 1) by lia. rewrite repeat_app. cbn [repeat].
        unfold splice. rewrite <- app_comm_cons, <- app_assoc, app_comm_cons.
        assert (Lh : length ((2 * t)%Z :: repeat 0%Z j) = j + 1) by (cbn [length]; rewrite repeat_length; lia).
        rewrite firstn_app_exact by auto. repeat split.
        + rewrite (app_assoc _ [0%Z] N). rewrite (@skipn_app_exact Z (j + 1 + length [1%Z])) by (rewrite app_length, Lh; reflexivity).
          rewrite (app_comm_cons (repeat 0%Z j)), <- app_assoc. reflexivity.
        + cbn [length]. rewrite app_length, repeat_length. cbn [length]. lia.
        + constructor; [unfold is_byte; lia|]. apply bytes_ok_app. split; [apply bytes_ok_repeat; unfold is_byte; lia|repeat constructor; unfold is_byte; lia].
        + rewrite be_val_cons, be_val_app', be_val_zeros, app_length, repeat_length. cbn [length]. change (be_val [1%Z]) with 1%Z. ring. }
    destruct E2 as (h & E2 & Lh & Oh & Vh). rewrite E2.
    apply be_val_inj; [apply bytes_ok_app; auto|apply be_bytes_ok|rewrite be_bytes_length, app_length; lia|].
    rewrite be_val_bytes, be_val_app', Vh. change (256 ^ Z.of_nat 16)%Z with (2 ^ 128)%Z. rewrite Z.mod_small by auto.
    unfold nonce_val. fold t. rewrite pow8.
    assert (Ek : (256 ^ Z.of_nat (k - 1) * 256 ^ Z.of_nat (length N) = 2 ^ 120)%Z).
    { rewrite <- Z.pow_add_r by lia. replace (Z.of_nat (k - 1) + Z.of_nat (length N))%Z with 15%Z by lia. reflexivity. }
    change (2 ^ 121)%Z with (2 * 2 ^ 120)%Z. rewrite <- Ek. ring.
  Qed.

  Lemma init_ok N : bytes_ok N -> 0 < length N < 16 ->
    exists w, ocb3_init c obj N = Ok w /\ put128 w = ocb_start E tsz N.
  Proof.
    intros ON LN. unfold ocb3_init. destruct (Nat.leb_spec 16 (length N)); [lia|]. cbn [a_tsz obj].
    destruct (nonce_block ON LN) as [EN BN]. cbv zeta in EN. rewrite EN. clear EN. set (v := nonce_val tsz N) in *.
    assert (E15 : nth 15 (be_bytes 16 v) 0%Z = (v mod 256)%Z).
    { pose proof (skipn_be_bytes (k := 15) (n := 16) v ltac:(lia)) as S. change (be_bytes (16 - 15) v) with [(v mod 256)%Z] in S.
      rewrite <- (firstn_skipn 15 (be_bytes 16 v)), S. rewrite app_nth2; rewrite firstn_length, be_bytes_length; [|lia]. reflexivity. }
    rewrite E15. assert (Eb : Z.land (v mod 256) 63 = (v mod 64)%Z).
    { change 63%Z with (Z.ones 6). rewrite Z.land_ones by lia. change (2 ^ 6)%Z with 64%Z. change 256%Z with (64 * 4)%Z. rewrite Z.rem_mul_r by lia. rewrite (Z.mul_comm 64), Z_mod_plus_full. apply Z.mod_mod. lia. }
    rewrite Eb. set (b := (v mod 64)%Z). assert (Bb : (0 <= b < 64)%Z) by (apply Z.mod_pos_bound; lia).
    rewrite firstn_be_bytes, skipn_be_bytes by lia. change (16 - 8) with 8. rewrite !be_val_bytes. change (256 ^ Z.of_nat 8)%Z with (2 ^ 64)%Z.
    assert (Ed : Z.ldiff (v mod 2 ^ 64) 63 = (v mod 2 ^ 64 - b)%Z).
    { change 63%Z with (Z.ones 6). rewrite Z.ldiff_ones_r by lia. rewrite Z.shiftr_div_pow2, Z.shiftl_mul_pow2 by lia. change (2 ^ 6)%Z with 64%Z.
      assert (v mod 2 ^ 64 mod 64 = b)%Z.
      { change (2 ^ 64)%Z with (64 * 2 ^ 58)%Z. rewrite Z.rem_mul_r by lia. rewrite (Z.mul_comm 64), Z_mod_plus_full. apply Z.mod_mod. lia. }
      pose proof (Z.div_mod (v mod 2 ^ 64) 64 ltac:(lia)). lia. }
    rewrite Ed.
    assert (Bd : (0 <= v / 2 ^ 64 < 2 ^ 64)%Z) by (split; [apply Z.div_pos; lia|apply Z.div_lt_upper_bound; lia]). rewrite (Z.mod_small (v / 2 ^ 64)) by auto.
    set (K := enc c (be_bytes 16 (v - b))).
    assert (HK : isblock 16 K) by (apply X16; split; [apply be_bytes_length|apply be_bytes_ok]).
    assert (EK : encipher c ((v / 2 ^ 64)%Z, (v mod 2 ^ 64 - b)%Z) = get128 K).
    { unfold encipher, K. do 2 f_equal. pose proof (Z.mod_pos_bound v (2 ^ 64) ltac:(lia)). pose proof (Z.div_mod v (2 ^ 64) ltac:(lia)).
      assert (v mod 2 ^ 64 mod 64 = b)%Z.
      { change (2 ^ 64)%Z with (64 * 2 ^ 58)%Z. rewrite Z.rem_mul_r by lia. rewrite (Z.mul_comm 64), Z_mod_plus_full. apply Z.mod_mod. lia. }
      pose proof (Z.mod_le (v mod 2 ^ 64) 64 ltac:(lia) ltac:(lia)).
      rewrite put_val by (cbn [snd]; lia). cbn [fst snd]. f_equal. lia. }
    rewrite EK. pose proof (get_ok HK) as HW. pose proof (put_get HK) as PK. destruct (get128 K) as [k0 k1]. destruct HW as [W0 W1]. cbn [fst snd] in *.
    eexists. split; [reflexivity|].
    destruct (@shl_shr k0 k1 8 ltac:(lia) W0 W1) as [F2 B2]. change (64 - 8)%Z with 56%Z in *. rewrite F2.
    set (s2 := Z.lxor k0 _). assert (Bs2 : (0 <= s2 < 2 ^ 64)%Z) by (apply lxor_bound; lia).
    destruct (@shl_shr k0 k1 b Bb W0 W1) as [F0 B0]. destruct (@shl_shr k1 s2 b Bb W1 Bs2) as [F1 B1]. rewrite F0, F1.
    rewrite put_val by (cbn [snd]; lia). cbn [fst snd].
    unfold ocb_start. fold v. fold b. change (E (be_bytes 16 (v - b))) with K.
    assert (VK : K = be_bytes 16 (k0 * 2 ^ 64 + k1)) by (rewrite <- PK; apply put_val; auto).
    assert (S1 : slice 1 8 K = be_bytes 8 ((k0 * 2 ^ 8) mod 2 ^ 64 + k1 / 2 ^ 56)).
    { unfold slice. rewrite VK, skipn_be_bytes, firstn_be_bytes by lia. rewrite <- (be_bytes_mod 8 ((k0 * 2 ^ 64 + k1) / _)), <- (be_bytes_mod 8 (_ + _)).
      f_equal. change (256 ^ Z.of_nat 8)%Z with (2 ^ 64)%Z. change (256 ^ Z.of_nat (16 - 1 - 8))%Z with (2 ^ 56)%Z.
      change (2 ^ 64)%Z with (2 ^ 8 * 2 ^ 56)%Z at 1. rewrite Z.mul_assoc, (Z.add_comm _ k1), Z.div_add by lia.
      rewrite (Z.add_comm (k1 / 2 ^ 56)). symmetry. apply Zplus_mod_idemp_l. }
    assert (S0 : firstn 8 K = be_bytes 8 k0).
    { rewrite <- PK. unfold put128. cbn [fst]. apply firstn_app_exact. apply be_bytes_length. }
    rewrite S1, S0, <- be_bytes_lxor. fold s2. rewrite VK at 1. rewrite be_bytes_app by exact Bs2. change (256 ^ Z.of_nat 8)%Z with (2 ^ 64)%Z.
    rewrite be_val_bytes. change (256 ^ Z.of_nat (16 + 8))%Z with (2 ^ 192)%Z. clearbody s2. rewrite (Z.mod_small ((k0 * 2 ^ 64 + k1) * 2 ^ 64 + s2)) by lia.
    rewrite <- be_bytes_mod. symmetry. rewrite <- be_bytes_mod. f_equal. change (256 ^ Z.of_nat 16)%Z with (2 ^ 128)%Z.
    set (q := (2 ^ (64 - b))%Z). assert (Pq : (0 < q)%Z) by (apply Z.pow_pos_nonneg; lia).
    set (p := (2 ^ b)%Z) in *. assert (Pp : (0 < p)%Z) by (apply Z.pow_pos_nonneg; lia).
    assert (Epq : (q * p = 2 ^ 64)%Z) by (unfold q, p; rewrite <- Z.pow_add_r by lia; f_equal; lia).
    assert (EV : (((k0 * 2 ^ 64 + k1) * 2 ^ 64 + s2) / q = (k0 * 2 ^ 64 + k1) * p + s2 / q)%Z).
    { rewrite <- Epq at 2. rewrite (Z.mul_comm q p), Z.mul_assoc, Z.add_comm, Z.div_add by lia. ring. }
    rewrite EV. assert (Hk1 : (k1 * p = 2 ^ 64 * (k1 / q) + (k1 * p) mod 2 ^ 64)%Z).
    { pose proof (Z.div_mod (k1 * p) (2 ^ 64) ltac:(discriminate)) as Hdm. replace (k1 / q)%Z with (k1 * p / 2 ^ 64)%Z; [exact Hdm|]. rewrite <- Epq. apply Z.div_mul_cancel_r; lia. }
    pose proof (Z.div_mod (k0 * p) (2 ^ 64) ltac:(discriminate)) as Hk0.
    replace ((k0 * 2 ^ 64 + k1) * p + s2 / q)%Z
      with (((k0 * p) mod 2 ^ 64 + k1 / q) * 2 ^ 64 + ((k1 * p) mod 2 ^ 64 + s2 / q) + (k0 * p / 2 ^ 64) * 2 ^ 128)%Z.
    - apply Z_mod_plus_full.
    - replace ((k0 * 2 ^ 64 + k1) * p)%Z with (k0 * p * 2 ^ 64 + k1 * p)%Z by (clear; ring).
      change (2 ^ 128)%Z with (2 ^ 64 * 2 ^ 64)%Z. now apply recombine.
  Qed.

  (** ** The loops *)
  Lemma nth_L i : i < 58 -> put128 (nth i (a_L obj) (0, 0)%Z) = xpow 16 135 (L0 E) i.
  Proof. intro Hi. destruct (L_nth Hi) as (w & Ew & Pw). rewrite (nth_error_nth _ _ _ Ew). exact Pw. Qed.
  Lemma L_len : length (a_L obj) = 58. Proof. apply table_length. Qed.
  Lemma hash3_loop : forall bl k off s, Forall (isblock 16) bl -> (Z.of_nat (k + length bl) < 2 ^ 58)%Z ->
    let D := delta 16 135 (L0 E) zero16 in
    put128 off = D k ->
    put128 (fst (ocb3_hash_loop c (a_L obj) off s (S k) bl)) = D (k + length bl) /\
    put128 (snd (ocb3_hash_loop c (a_L obj) off s (S k) bl)) = xsum (fun k b => E (xorl b (D k))) k (put128 s) bl.
  Proof.
    induction bl as [|b bl IH]; intros k off s Hb Hlen D Hoff.
    - cbn. rewrite Nat.add_0_r. auto.
    - cbn [ocb3_hash_loop]. inversion Hb as [|? ? Hb1 Hb2]; subst. cbn [length] in Hlen.
      assert (Hi : ntz (S k) < 58).
      { apply ntz_lt; [lia|]. assert (Z.of_nat (S k) < 2 ^ 58)%Z by lia. apply Nat2Z.inj_lt. rewrite Nat2Z.inj_pow. exact H. }
      rewrite L_len, ntz_trailing by lia. rewrite Nat.mod_small by exact Hi.
      set (off' := x128 off _). assert (Eo : put128 off' = D (S k)) by (unfold off'; rewrite put_x128, Hoff, nth_L by exact Hi; reflexivity).
      replace (S k + 1) with (S (S k)) by lia. edestruct (IH (S k) off') as [I1 I2]; auto; [lia|].
      cbn [length xsum]. replace (k + S (length bl)) with (S k + length bl) by lia. rewrite I1, I2. split; [reflexivity|].
      f_equal. rewrite put_x128, put_encipher, put_x128, Eo, put_get by auto. reflexivity.
  Qed.
  Lemma pad16_eq m : length m < 16 -> bytes_ok m -> pad16 m = pad2 16 m.
  Proof.
    intros Hm Om. unfold pad16, gocopy, splice, pad2. rewrite Nat.mod_small by lia. cbn [length].
    assert (L : length (firstn (length m) (repeat 0%Z 16) ++ [128%Z] ++ skipn (length m + 1) (repeat 0%Z 16)) = 16).
    { rewrite !app_length, firstn_length, skipn_length, repeat_length. cbn [length]. lia. }
    rewrite L, firstn_all2 by lia. f_equal. rewrite skipn_app, skipn_all2 by (rewrite firstn_length; lia).
    rewrite firstn_length, repeat_length. replace (length m - Nat.min (length m) 16) with 0 by lia. cbn [app skipn]. f_equal.
    replace 16 with (length m + 1 + (15 - length m)) at 1 by lia. rewrite repeat_app, skipn_app_exact by now rewrite repeat_length. reflexivity.
  Qed.
  Lemma hash3_ok A : bytes_ok A -> (Z.of_nat (length A) < 2 ^ 58)%Z -> put128 (ocb3_hash c obj A) = ocb_hash E A.
  Proof.
    intros OA LA. unfold ocb3_hash, ocb_hash. change (blocks16 A) with (whole A). change (rest16 A) with (tail A).
    destruct (@hash3_loop (whole A) 0 (0, 0)%Z (0, 0)%Z (whole_blocks OA)) as [H1 H2]; [|reflexivity|].
    { cbn [Nat.add]. rewrite whole_count. pose proof (Nat.div_le_upper_bound (length A) 16 (length A) ltac:(lia) ltac:(lia)). lia. }
    destruct (ocb3_hash_loop c (a_L obj) (0, 0)%Z (0, 0)%Z 1 (whole A)) as [off s]. cbn [fst snd Nat.add] in *.
    pose proof (tail_len A) as LT. pose proof (tail_ok OA) as OT. pose proof (Nat.mod_upper_bound (length A) 16 ltac:(lia)).
    destruct (tail A) as [|a t] eqn:Et; [exact H2|]. rewrite <- Et in *.
    rewrite put_x128, put_encipher, !put_x128, H1, H2. cbn [a_star obj]. rewrite put_star, pad16_eq by (auto; lia).
    rewrite put_get by (apply pad2_isblock; auto; lia). reflexivity.
  Qed.
  Lemma loop3_ok e : forall bl start k off ck, isblock 16 start -> Forall (isblock 16) bl -> (Z.of_nat (k + length bl) < 2 ^ 58)%Z ->
    let D := delta 16 135 (L0 E) start in
    let Y := mapk (fun k b => if (e : bool) then xorl (enc c (xorl b (D k))) (D k) else xorl (dec c (xorl b (D k))) (D k)) k bl in
    put128 off = D k ->
    exists off' ck', ocb3_loop e c (a_L obj) off ck (S k) bl = Ok (off', ck', Y) /\ put128 off' = D (k + length bl) /\
      put128 ck' = fold_left xorl (if e then bl else Y) (put128 ck).
  Proof.
    induction bl as [|b bl IH]; intros start k off ck Hst Hb Hlen D Y Hoff.
    - exists off, ck. cbn. rewrite Nat.add_0_r. destruct e; auto.
    - cbn [ocb3_loop]. inversion Hb as [|? ? Hb1 Hb2]; subst. cbn [length] in Hlen.
      assert (Hi : ntz (S k) < 58).
      { apply ntz_lt; [lia|]. assert (Z.of_nat (S k) < 2 ^ 58)%Z by lia. apply Nat2Z.inj_lt. rewrite Nat2Z.inj_pow. exact H. }
      rewrite ntz_trailing by lia. destruct (L_nth Hi) as (w & Ew & Pw). rewrite Ew.
      set (off1 := x128 off w). assert (Eo : put128 off1 = D (S k)) by (unfold off1; rewrite put_x128, Hoff, Pw; reflexivity).
      set (o := if e then x128 (encipher c (x128 (get128 b) off1)) off1 else x128 (decipher c (x128 (get128 b) off1)) off1).
      assert (Po : put128 o = if e then xorl (enc c (xorl b (D (S k)))) (D (S k)) else xorl (dec c (xorl b (D (S k)))) (D (S k))).
      { unfold o. destruct e; rewrite put_x128, ?put_encipher, ?put_decipher, put_x128, Eo, put_get by auto; reflexivity. }
      replace (S k + 1) with (S (S k)) by lia.
      destruct (IH start (S k) off1 (x128 ck (if e then get128 b else o)) Hst Hb2 ltac:(lia) Eo) as (off' & ck' & E1 & E2 & E3).
      fold D in E1, E2, E3. rewrite E1. cbn [rbind]. exists off', ck'. unfold Y. cbn [mapk]. rewrite Po.
      split; [destruct e; reflexivity|]. split; [rewrite E2; cbn [length]; f_equal; lia|]. rewrite E3.
      destruct e; cbn [fold_left]; f_equal; rewrite put_x128; [now rewrite put_get|]. now rewrite Po.
  Qed.

  Lemma crypt3_enc N P A : bytes_ok N -> 0 < length N < 16 -> bytes_ok P -> bytes_ok A ->
    (Z.of_nat (length P) < 2 ^ 58)%Z -> (Z.of_nat (length A) < 2 ^ 58)%Z ->
    exists y t, ocb3_crypt true false c obj N P A = Ok (y, t) /\ y ++ firstn tsz (put128 t) = ocb_encrypt E tsz N A P.
  Proof.
    intros ON LN OP OA LP LA. unfold ocb3_crypt. destruct (init_ok ON LN) as (w & Ew & Pw). rewrite Ew. cbn [rbind].
    destruct (@loop3_ok true (whole P) (ocb_start E tsz N) 0 w (0, 0)%Z) as (off & ck & E1 & E2 & E3); auto.
    { apply start_blk. } { now apply whole_blocks. }
    { cbn [Nat.add]. rewrite whole_count. pose proof (Nat.div_le_upper_bound (length P) 16 (length P) ltac:(lia) ltac:(lia)). lia. }
    cbn [Nat.add] in *. change (blocks16 P) with (whole P). rewrite E1. cbn [rbind]. change (rest16 P) with (tail P).
    unfold ocb_encrypt. pose proof (tail_len P) as LT. pose proof (tail_ok OP) as OT. pose proof (Nat.mod_upper_bound (length P) 16 ltac:(lia)).
    destruct (tail P) as [|a t] eqn:Et.
    - eexists _, _. split; [reflexivity|]. rewrite app_nil_r. f_equal. unfold ocb_tag. f_equal.
      rewrite put_x128, put_encipher, !put_x128, (hash3_ok OA LA), E3, E2. cbn [a_dollar obj]. rewrite (proj1 put_dollar). f_equal.
      unfold E. f_equal. symmetry. apply xorl_assoc.
    - rewrite <- Et in *. eexists _, _. split; [reflexivity|]. rewrite <- app_assoc. f_equal.
      assert (Eo : put128 (x128 off star) = xorl (delta 16 135 (L0 E) (ocb_start E tsz N) (length (whole P))) (Lstar E))
        by (rewrite put_x128, E2, put_star; reflexivity).
      cbn [a_star obj]. rewrite put_encipher, Eo. f_equal. unfold ocb_tag. f_equal.
      rewrite put_x128, put_encipher, !put_x128, (hash3_ok OA LA), E3, E2, put_star. cbn [a_dollar obj]. rewrite (proj1 put_dollar).
      rewrite pad16_eq by (auto; lia). rewrite put_get by (apply pad2_isblock; auto; lia). f_equal.
      unfold E. f_equal. symmetry. apply xorl_assoc.
  Qed.
  Lemma crypt3_dec N X A : bytes_ok N -> 0 < length N < 16 -> bytes_ok X -> bytes_ok A ->
    (Z.of_nat (length X) < 2 ^ 58)%Z -> (Z.of_nat (length A) < 2 ^ 58)%Z ->
    exists P t, ocb3_crypt false false c obj N X A = Ok (P, t) /\ length P = length X /\ bytes_ok P /\
      ocb_encrypt E tsz N A P = X ++ firstn tsz (put128 t).
  Proof.
    intros ON LN OX OA LX LA. unfold ocb3_crypt. destruct (init_ok ON LN) as (w & Ew & Pw). rewrite Ew. cbn [rbind].
    destruct (@loop3_ok false (whole X) (ocb_start E tsz N) 0 w (0, 0)%Z) as (off & ck & E1 & E2 & E3); auto.
    { apply start_blk. } { now apply whole_blocks. }
    { cbn [Nat.add]. rewrite whole_count. pose proof (Nat.div_le_upper_bound (length X) 16 (length X) ltac:(lia) ltac:(lia)). lia. }
    cbn [Nat.add] in *. change (blocks16 X) with (whole X). rewrite E1. cbn [rbind]. change (rest16 X) with (tail X).
    set (D := delta 16 135 (L0 E) (ocb_start E tsz N)) in *.
    destruct (@mapk_inv c tsz HL Hs ltac:(lia) D (@D_blk' c tsz N) (whole X) 0 (whole_blocks OX)) as (I1 & I2 & I3 & I4).
    set (bl := mapk (fun k b => xorl (dec c (xorl b (D k))) (D k)) 0 (whole X)) in *.
    assert (Lbl : length bl = length (whole X)) by (eapply mapk_length; lia).
    assert (A3 : all_len 16 bl) by (eapply Forall_impl; [|exact I3]; now intros ? []).
    assert (OB : bytes_ok (concat bl)) by (apply bytes_ok_concat; eapply Forall_impl; [|exact I3]; now intros ? []).
    pose proof (tail_len X) as LT. pose proof (tail_ok OX) as OT. pose proof (Nat.mod_upper_bound (length X) 16 ltac:(lia)).
    destruct (tail X) as [|a t] eqn:Et.
    - assert (EX : X = concat (whole X)) by (rewrite (whole_tail X) at 1; rewrite Et; apply app_nil_r).
      destruct (@full_split bl [] A3 ltac:(cbn; lia)) as [W1 W2]. rewrite app_nil_r in W1, W2.
      eexists _, _. split; [reflexivity|]. rewrite app_nil_r. split; [rewrite EX, (concat_len A3), (concat_len (whole_len X)), Lbl; reflexivity|]. split; [exact OB|].
      unfold ocb_encrypt. rewrite W1, W2. fold D. unfold E at 1. rewrite I1, <- EX. f_equal. unfold ocb_tag. f_equal.
      rewrite put_x128, put_encipher, !put_x128, (hash3_ok OA LA), E3, E2. cbn [a_dollar obj]. rewrite (proj1 put_dollar). f_equal.
      unfold E. f_equal. rewrite Lbl. apply xorl_assoc.
    - rewrite <- Et in *.
      set (Ds := xorl (D (length (whole X))) (Lstar E)).
      assert (Eo : put128 (x128 off star) = Ds) by (rewrite put_x128, E2, put_star; reflexivity).
      assert (HDs : isblock 16 Ds) by (rewrite <- Eo; apply put_block). pose proof (X16 HDs) as [LE OE].
      cbn [a_star obj]. rewrite put_encipher, Eo. set (p := xorl (tail X) (enc c Ds)).
      assert (Lp : length p = length (tail X)) by (unfold p; rewrite xorl_length; lia).
      assert (Op : bytes_ok p) by (unfold p; apply xorl_ok; auto).
      destruct (@full_split bl p A3 ltac:(lia)) as [W1 W2].
      eexists (concat bl ++ p), _. split; [reflexivity|].
      split; [rewrite (whole_tail X) at 1; rewrite !app_length, (concat_len A3), (concat_len (whole_len X)); lia|].
      split; [apply bytes_ok_app; auto|].
      unfold ocb_encrypt. rewrite W1, W2. fold D.
      change (mapk (fun k b => xorl (E (xorl b (D k))) (D k)) 0 bl) with (mapk (fun k b => xorl (enc c (xorl b (D k))) (D k)) 0 bl). rewrite I1, Lbl. fold Ds.
      assert (Ex : xorl p (enc c Ds) = tail X) by (unfold p; apply xorl_cancel_r; lia).
      assert (Np : p <> []) by (intro E0; apply (f_equal (@length Z)) in E0; rewrite Lp, Et in E0; cbn [length] in E0; lia).
      assert (Epad : put128 (get128 (pad16 p)) = pad2 16 p).
      { rewrite pad16_eq by (auto; lia). apply put_get. apply pad2_isblock; auto. lia. }
      set (q := get128 (pad16 p)) in *. clearbody q p. destruct p as [|p0 p']; [congruence|]. unfold E at 1. rewrite Ex.
      rewrite app_assoc, <- (whole_tail X). f_equal. unfold ocb_tag. f_equal.
      rewrite put_x128, put_encipher, !put_x128, (hash3_ok OA LA), E3, E2, put_star, Epad. cbn [a_dollar obj]. rewrite (proj1 put_dollar). f_equal.
      unfold E. f_equal. apply xorl_assoc.
  Qed.
End ocb3.
