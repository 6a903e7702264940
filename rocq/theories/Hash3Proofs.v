(** Streebog and GOST R 34.11-94: the buffer, the counters, the sums and the last blocks. *)
From Verif Require Import Base WordModel WordLib HashSpec CcmProofs HbufSpec HbufProofs Hash1Proofs Hash3Model Hash3Spec.
Set Implicit Arguments. Unset Strict Implicit.
Local Open Scope nat_scope.

Section abuf.
  Variable S : Type.
  Variable blk : S -> bytes -> S.
  Variable bs : nat.
  Hypothesis bs_pos : 0 < bs.
  Variable iv : S.
  Record aholds (m : bytes) (st : abufst S) (q : bytes) (k : nat) : Prop := AHolds {
    a_m : m = q ++ a_buf st;
    a_q : length q = k * bs;
    a_sq : a_s st = iterated bs blk iv q;
    a_t : length (a_buf st) < bs }.
  Definition AHeld (m : bytes) (st : abufst S) : Prop := exists q k, aholds m st q k.
  Lemma aloop_held : forall fuel s buf q k, length buf < fuel -> length q = k * bs -> s = iterated bs blk iv q ->
    AHeld (q ++ buf) (awrite_loop blk bs fuel s buf).
  Proof.
    induction fuel as [|f IH]; intros s buf q k F Q E; [lia|]. cbn [awrite_loop].
    destruct (bs <=? length buf) eqn:C.
    - apply Nat.leb_le in C. assert (L : length (firstn bs buf) = bs) by (rewrite firstn_length; lia).
      rewrite <- (firstn_skipn bs buf) at 1. rewrite app_assoc. apply IH with (k := 1 + k).
      + rewrite skipn_length. lia.
      + rewrite app_length. lia.
      + rewrite (iterated_app blk iv (firstn bs buf) bs_pos Q), iterated_one by auto. now subst s.
    - apply Nat.leb_gt in C. exists q, k. constructor; auto.
  Qed.
  Lemma awrite_held m st p : AHeld m st -> AHeld (m ++ p) (awrite blk bs st p).
  Proof.
    intros (q & k & [M Q E T]). unfold awrite. rewrite M, <- app_assoc. apply aloop_held with k; auto; try lia.
  Qed.
  Lemma anew_held : AHeld [] (ABuf iv []).
  Proof. exists [], 0. constructor; auto. Qed.
  Lemma aheld_parts m st q k : aholds m st q k -> length m / bs = k /\ whole bs m = chunks bs q /\ rest bs m = a_buf st.
  Proof.
    intros [M Q E T]. assert (D : length m / bs = k).
    { rewrite M, app_length, Q. symmetry. apply Nat.div_unique with (length (a_buf st)); lia. }
    split; auto. unfold whole, rest. rewrite D, M. now rewrite firstn_app_exact, skipn_app_exact by auto.
  Qed.
End abuf.

(** * Streebog *)
Lemma le_bytes_pad n k z : (0 <= z < 256 ^ Z.of_nat n)%Z -> le_bytes (n + k) z = le_bytes n z ++ repeat 0%Z k.
Proof.
  intro H. rewrite le_bytes_split, Z.div_small by lia. f_equal. clear. induction k; cbn [le_bytes repeat]; auto. f_equal; auto.
Qed.
Lemma xorl_zeros a : xorl a (repeat 0%Z (length a)) = a.
Proof. induction a; cbn [length repeat xorl]; auto. now rewrite Z.lxor_0_r, IHa. Qed.
Lemma xorl_app a b c d : length a = length c -> xorl (a ++ b) (c ++ d) = xorl a c ++ xorl b d.
Proof. revert c. induction a; intros [|x c] H; try discriminate H; cbn [app xorl]; auto. injection H as H. now rewrite IHa. Qed.
Lemma xorl_len a b : length a = length b -> length (xorl a b) = length a.
Proof. revert b. induction a; intros [|x b] H; try discriminate H; cbn [xorl length]; auto. Qed.

Lemma stb_l_len d : length (stb_l d) = 64.
Proof. unfold stb_l. cbn [map seq concat]. rewrite !app_length, !le_bytes_length. reflexivity. Qed.
Lemma stb_e_len k m : length (stb_e k m) = 64.
Proof.
  unfold stb_e. change (seq 0 12) with (seq 0 11 ++ [11]). rewrite fold_left_app. cbn [fold_left].
  destruct (fold_left _ (seq 0 11) (k, m)) as [k' m']. apply xorl_len; now rewrite !stb_l_len.
Qed.
Lemma g_N_len N h m : length h = 64 -> length m = 64 -> length (g_N N h m) = 64.
Proof. intros H M. unfold g_N. rewrite !xorl_len; rewrite ?xorl_len; rewrite ?stb_e_len; auto. Qed.
Lemma stb_g_N n h m : length h = 64 -> (0 <= n < 2 ^ 64)%Z -> stb_g n h m = g_N (le_bytes 64 n) h m.
Proof.
  intros H N. unfold stb_g, g_N. assert (PD : le_bytes 64 n = le_bytes 8 n ++ repeat 0%Z 56) by exact (@le_bytes_pad 8 56 n N). rewrite PD.
  assert (E : xorl h (le_bytes 8 n ++ repeat 0%Z 56) = xorl (firstn 8 h) (le_bytes 8 n) ++ skipn 8 h).
  { rewrite <- (firstn_skipn 8 h) at 1. rewrite xorl_app by (rewrite firstn_length, le_bytes_length; lia). f_equal.
    replace 56 with (length (skipn 8 h)) by (rewrite skipn_length; lia). apply xorl_zeros. }
  now rewrite E.
Qed.
Lemma stb_addc_val a : forall b ss, length a = length b -> stb_addc ss a b = le_bytes (length a) (le_val a + le_val b + Z.shiftr ss 8).
Proof.
  induction a as [|x a IH]; intros [|y b] ss L; try discriminate L; [reflexivity|]. injection L as L.
  cbn [stb_addc length le_val le_bytes]. rewrite IH by auto. f_equal.
  - rewrite Z.land_comm. change 255%Z with (Z.ones 8). rewrite Z.land_ones by lia. change (2 ^ 8)%Z with 256%Z.
    replace (x + 256 * le_val a + (y + 256 * le_val b) + Z.shiftr ss 8)%Z with (x + y + Z.shiftr ss 8 + (le_val a + le_val b) * 256)%Z by ring.
    now rewrite Z.mod_add by lia.
  - f_equal. rewrite (Z.shiftr_div_pow2 (x + y + _)) by lia. change (2 ^ 8)%Z with 256%Z.
    replace (x + 256 * le_val a + (y + 256 * le_val b) + Z.shiftr ss 8)%Z with (x + y + Z.shiftr ss 8 + (le_val a + le_val b) * 256)%Z by ring.
    rewrite Z.div_add by lia. ring.
Qed.
Lemma stb_add_val v b : length b = 64 -> stb_add (le_bytes 64 v) b = le_bytes 64 (v + le_val b).
Proof.
  intro L. unfold stb_add. rewrite stb_addc_val by now rewrite le_bytes_length. rewrite le_bytes_length, le_val_bytes.
  change (Z.shiftr 0 8) with 0%Z. rewrite Z.add_0_r.
  rewrite (Hash1Proofs.le_bytes_mod 64 (_ + _)), Z.add_mod_idemp_l by (apply Z.pow_nonzero; lia). now rewrite <- Hash1Proofs.le_bytes_mod.
Qed.
Definition num64 (z : Z) : bytes := le_bytes 64 (z mod 2 ^ 64).
Lemma stb_blocks l : Forall (fun b => length b = 64) l -> forall i h v, length h = 64 ->
  fold_left stb_block l ((512 * Z.of_nat i) mod 2 ^ 64, h, le_bytes 64 v)%Z =
  ((512 * Z.of_nat (i + length l)) mod 2 ^ 64,
   fold_left (fun h ib => g_N (num64 (512 * Z.of_nat (fst ib))) h (snd ib)) (combine (seq i (length l)) l) h,
   le_bytes 64 (v + fold_right Z.add 0 (map le_val l)))%Z /\
  length (fold_left (fun h ib => g_N (num64 (512 * Z.of_nat (fst ib))) h (snd ib)) (combine (seq i (length l)) l) h) = 64.
Proof.
  induction 1 as [|b l L F IH]; intros i h v H.
  - cbn [fold_left length combine seq map fold_right]. rewrite Nat.add_0_r, Z.add_0_r. auto.
  - cbn [fold_left length combine seq map fold_right stb_block fst snd].
    assert (B : (0 <= (512 * Z.of_nat i) mod 2 ^ 64 < 2 ^ 64)%Z) by (apply Z.mod_pos_bound; lia).
    rewrite stb_g_N by auto. rewrite stb_add_val by auto.
    replace (wadd 64 ((512 * Z.of_nat i) mod 2 ^ 64) 512) with ((512 * Z.of_nat (S i)) mod 2 ^ 64)%Z.
    2:{ unfold wadd. rewrite Z.add_mod_idemp_l by lia. f_equal. lia. }
    change (le_bytes 64 ((512 * Z.of_nat i) mod 2 ^ 64)) with (num64 (512 * Z.of_nat i)).
    destruct (IH (S i) (g_N (num64 (512 * Z.of_nat i)) h b) (v + le_val b)%Z) as [E LE]; [now apply g_N_len|].
    split; [|exact LE]. rewrite E. rewrite Nat.add_succ_r. cbn [Nat.add]. f_equal. f_equal. lia.
Qed.
Lemma upd_pad t : length t < 64 -> upd (length t) 1%Z (gocopy (repeat 0%Z 64) t) = stb_pad t.
Proof.
  intro H. unfold gocopy, stb_pad. rewrite repeat_length, firstn_all2 by lia.
  replace (skipn (length t) (repeat 0%Z 64)) with (0%Z :: repeat 0%Z (63 - length t)).
  2:{ replace 64 with (length t + (1 + (63 - length t))) by lia. rewrite repeat_split, skipn_app_exact by apply repeat_length. reflexivity. }
  rewrite upd_mid. reflexivity.
Qed.
Lemma stb_pad_len t : length t < 64 -> length (stb_pad t) = 64.
Proof. intro H. unfold stb_pad. rewrite !app_length, repeat_length. cbn [length]. lia. Qed.
Lemma sum_app a b : fold_right Z.add 0%Z (a ++ b) = (fold_right Z.add 0 a + fold_right Z.add 0 b)%Z.
Proof. induction a; cbn [app fold_right]; lia. Qed.

(** the digest object has digested m *)
Definition SHeld (size : nat) (m : bytes) (d : stb_st) : Prop :=
  st_size d = size /\ length (st_tmp d) = 64 /\ AHeld stb_block 64 (stb_iv size) m (st_b d).
Lemma stb_state size m d q k : AHeld stb_block 64 (stb_iv size) m (st_b d) -> aholds stb_block 64 (stb_iv size) m (st_b d) q k ->
  exists h, length h = 64 /\
    a_s (st_b d) = ((512 * Z.of_nat k) mod 2 ^ 64, h, le_bytes 64 (fold_right Z.add 0 (map le_val (chunks 64 q))))%Z /\
    h = fold_left (fun h ib => g_N (num64 (512 * Z.of_nat (fst ib))) h (snd ib)) (combine (seq 0 k) (chunks 64 q)) (repeat (if size =? 32 then 1%Z else 0%Z) 64).
Proof.
  intros _ [M Q E T]. assert (P : 0 < 64) by lia. destruct (@chunks_all_len _ 64 q k P Q) as [A C].
  assert (F : Forall (fun b => length b = 64) (chunks 64 q)) by exact A.
  destruct (@stb_blocks (chunks 64 q) F 0 (repeat (if size =? 32 then 1%Z else 0%Z) 64) 0%Z (repeat_length _ _)) as [B L].
  rewrite C in B, L. eexists. split; [exact L|]. split; [|reflexivity]. rewrite E. unfold iterated, stb_iv.
  change (0%Z, repeat (if size =? 32 then 1%Z else 0%Z) 64, repeat 0%Z 64) with
    (((512 * Z.of_nat 0) mod 2 ^ 64)%Z, repeat (if size =? 32 then 1%Z else 0%Z) 64, le_bytes 64 0). rewrite B. reflexivity.
Qed.
Lemma stb_sum_ok size m d inp : SHeld size m d -> stb_sum d inp = Ok (inp ++ streebog (2 ^ 64) size m).
Proof.
  intros (SZ & _ & H). pose proof H as (q & k & A). assert (P : 0 < 64) by lia.
  destruct (stb_state H A) as (h & LH & ES & EH). destruct (aheld_parts P A) as (D & W & R). destruct A as [M Q E T].
  unfold stb_sum, stb_checksum. rewrite ES. destruct (64 <=? length (a_buf (st_b d))) eqn:C; [apply Nat.leb_le in C; lia|].
  cbn [rbind]. do 2 f_equal. rewrite SZ. unfold streebog. rewrite W, R. rewrite upd_pad by auto.
  set (p := stb_pad (a_buf (st_b d))). assert (LP : length p = 64) by now apply stb_pad_len.
  destruct (@chunks_all_len _ 64 q k P Q) as [_ CL]. rewrite CL.
  match goal with |- context [fold_left ?f (combine _ _) _] => change (fold_left f) with (fold_left (fun h ib => g_N (num64 (512 * Z.of_nat (fst ib))) h (snd ib))) end.
  rewrite <- EH.
  assert (B : (0 <= (512 * Z.of_nat k) mod 2 ^ 64 < 2 ^ 64)%Z) by (apply Z.mod_pos_bound; lia).
  rewrite (@stb_g_N ((512 * Z.of_nat k) mod 2 ^ 64) h p) by auto.
  set (h1 := g_N _ h p). assert (L1 : length h1 = 64) by now apply g_N_len.
  assert (LEN : le_bytes 8 (wadd 64 ((512 * Z.of_nat k) mod 2 ^ 64) (wmul 64 (Z.of_nat (length (a_buf (st_b d)))) 8)) ++ repeat 0%Z 56
    = le_bytes 64 ((8 * Z.of_nat (length m)) mod 2 ^ 64)).
  { unfold wadd, wmul. rewrite <- Zplus_mod. rewrite <- (@le_bytes_pad 8 56) by (apply Z.mod_pos_bound; lia). f_equal. f_equal.
    rewrite M, app_length, Q. lia. }
  rewrite LEN. rewrite (@stb_g_N 0 h1) by (auto; lia). set (h2 := g_N _ h1 _). assert (L2 : length h2 = 64) by (apply g_N_len; auto; apply le_bytes_length).
  rewrite (@stb_g_N 0 h2) by (auto; lia). rewrite stb_add_val by auto.
  rewrite map_app, sum_app. cbn [map fold_right]. rewrite Z.add_0_r. reflexivity.
Qed.

(** An object with an invariant that says what was written *)
Section inv.
  Variable S : Type.
  Variable write : S -> bytes -> S.
  Variable sum : S -> bytes -> res bytes.
  Variable reset : S -> S.
  Variable f : bytes -> bytes.
  Variable Inv : bytes -> S -> Prop.
  Hypothesis w_ok : forall m d p, Inv m d -> Inv (m ++ p) (write d p).
  Hypothesis r_ok : forall m d, Inv m d -> Inv [] (reset d).
  Lemma inv_run : (forall m d i, Inv m d -> sum d i = Ok (i ++ f m)) ->
    forall ops m d, Inv m d -> hrun_r write sum reset d ops = map Ok (expected f m ops).
  Proof.
    intro s_ok. induction ops as [|[p|i|] ops IH]; intros m d I; cbn [hrun_r expected map]; auto.
    - rewrite (s_ok m) by auto. f_equal. now apply IH.
    - apply IH. now apply r_ok with m.
  Qed.
  Lemma inv_run_bytes : (forall m d i, bytes_ok m -> Inv m d -> sum d i = Ok (i ++ f m)) ->
    forall ops m d, bytes_ok m -> Forall hop_ok ops -> Inv m d -> hrun_r write sum reset d ops = map Ok (expected f m ops).
  Proof.
    intro s_ok. induction ops as [|[p|i|] ops IH]; intros m d B F I; cbn [hrun_r expected map]; auto; inversion F; subst.
    - apply IH; auto. now apply Forall_app.
    - rewrite (s_ok m) by auto. f_equal. now apply IH.
    - apply IH; auto. constructor. now apply r_ok with m.
  Qed.
  Lemma inv_state : forall ops m d, Inv m d -> exists m', Inv m' (hstate write reset d ops).
  Proof.
    induction ops as [|[p|i|] ops IH]; intros m d I; cbn [hstate]; eauto.
  Qed.
End inv.

Lemma tmp_after_len tmp buf : length tmp = 64 -> length (stb_tmp_after tmp buf) = 64.
Proof.
  intro H. unfold stb_tmp_after. destruct (length buf / 64 =? 0) eqn:C; auto. apply Nat.eqb_neq in C.
  assert (64 * (length buf / 64) <= length buf) by (apply Nat.mul_div_le; lia).
  unfold slice. rewrite firstn_length, skipn_length. lia.
Qed.
Lemma sheld_write size m d p : SHeld size m d -> SHeld size (m ++ p) (stb_write d p).
Proof.
  intros (A & B & C). unfold stb_write. split; [exact A|]. split; [now apply tmp_after_len|]. cbn [st_b].
  assert (P : 0 < 64) by lia. now apply awrite_held.
Qed.
Lemma sheld_reset size m d : SHeld size m d -> SHeld size [] (stb_reset d).
Proof.
  intros (A & B & C). unfold stb_reset. rewrite A. split; [reflexivity|]. split; [reflexivity|]. apply anew_held. lia.
Qed.
Lemma sheld_new size d : stb_new size = Ok d -> SHeld size [] d /\ (size = 32 \/ size = 64).
Proof.
  unfold stb_new. destruct ((size =? 32) || (size =? 64)) eqn:C; [|discriminate]. intros [= <-].
  split; [split; [reflexivity|]; split; [reflexivity|]; apply anew_held; lia|].
  apply Bool.orb_true_iff in C as [C|C]; apply Nat.eqb_eq in C; auto.
Qed.

Lemma fold_left_ext_in {A B} (f g : A -> B -> A) l : (forall a b, In b l -> f a b = g a b) -> forall a, fold_left f l a = fold_left g l a.
Proof. induction l as [|b l IH]; intros H a; cbn [fold_left]; auto. rewrite H by (left; auto). apply IH. intros. apply H. now right. Qed.
Lemma whole_length n m : 0 < n -> length (whole n m) = length m / n.
Proof.
  intro P. unfold whole. assert (L : length (firstn (length m / n * n) m) = length m / n * n).
  { rewrite firstn_length. assert (n * (length m / n) <= length m) by (apply Nat.mul_div_le; lia). lia. }
  now destruct (@chunks_all_len _ n _ _ P L).
Qed.
Lemma streebog_std size m : (8 * Z.of_nat (length m) < 2 ^ 64)%Z -> streebog (2 ^ 64) size m = streebog (2 ^ 512) size m.
Proof.
  intro H. unfold streebog. assert (P : 0 < 64) by lia. pose proof (@whole_length 64 m P) as W.
  assert (Q : 64 * (length m / 64) <= length m) by (apply Nat.mul_div_le; lia).
  assert (B : forall z, (0 <= z < 2 ^ 64)%Z -> (z mod 2 ^ 64 = z mod 2 ^ 512)%Z).
  { intros z Z. rewrite !Z.mod_small; auto. split; [lia|]. eapply Z.lt_trans; [apply Z|]. now apply Z.pow_lt_mono_r. }
  rewrite (B (512 * Z.of_nat (length (whole 64 m)))%Z) by lia. rewrite (B (8 * Z.of_nat (length m))%Z) by lia. rewrite (B 0%Z) by lia.
  assert (F : forall h0, fold_left (fun h ib => g_N (le_bytes 64 ((512 * Z.of_nat (fst ib)) mod 2 ^ 64)) h (snd ib)) (combine (seq 0 (length (whole 64 m))) (whole 64 m)) h0
     = fold_left (fun h ib => g_N (le_bytes 64 ((512 * Z.of_nat (fst ib)) mod 2 ^ 512)) h (snd ib)) (combine (seq 0 (length (whole 64 m))) (whole 64 m)) h0).
  { apply fold_left_ext_in. intros a [i b] I. apply in_combine_l in I. apply in_seq in I. cbn [fst snd]. rewrite B by lia. reflexivity. }
  rewrite F. reflexivity.
Qed.

(** Marshalling *)
Lemma slice_mid {A} (a b c : list A) n k : length a = n -> length b = k -> slice n k (a ++ b ++ c) = b.
Proof. intros HA HB. unfold slice. rewrite skipn_app_exact by auto. now apply firstn_app_exact. Qed.
Lemma stb_roundtrip size m d : SHeld size m d -> size = 32 \/ size = 64 -> stb_unmarshal (stb_marshal d) = Ok d.
Proof.
  intros (SZ & T & H) S. pose proof H as (q & k & A). destruct (stb_state H A) as (h & LH & ES & _).
  unfold stb_marshal. rewrite ES. set (n := ((512 * Z.of_nat k) mod 2 ^ 64)%Z) in *. set (c := le_bytes 64 _) in *.
  assert (LC : length c = 64) by apply le_bytes_length.
  assert (LN : length (be_bytes 8 n) = 8) by apply be_bytes_length.
  set (s := to_byte _). set (b := a_buf (st_b d)).
  set (D := stb_name ++ [s] ++ be_bytes 8 n ++ h ++ c ++ st_tmp d ++ b).
  assert (LD : length D = 209 + length b) by (unfold D; rewrite !app_length, LN, LH, LC, T; cbn [stb_name length]; lia).
  unfold stb_unmarshal. rewrite LD. destruct (Nat.ltb_spec (209 + length b) (8 + 1 + 8 + 3 * 64)) as [X|_]; [exfalso; lia|].
  assert (F : firstn 8 D = stb_name) by (apply firstn_app_exact; reflexivity). rewrite F.
  replace (bytes_eqb stb_name stb_name) with true by reflexivity. cbn [negb].
  assert (S8 : D.[8] = s) by reflexivity.
  assert (S9 : slice 9 8 D = be_bytes 8 n).
  { unfold D. rewrite (app_assoc stb_name). apply slice_mid; auto. }
  assert (S17 : slice 17 64 D = h).
  { unfold D. rewrite (app_assoc stb_name), (app_assoc (stb_name ++ [s])). apply slice_mid; [rewrite !app_length, LN; reflexivity|auto]. }
  assert (S81 : slice 81 64 D = c).
  { unfold D. rewrite (app_assoc stb_name), (app_assoc (stb_name ++ [s])), (app_assoc (_ ++ be_bytes 8 n)). apply slice_mid; [rewrite !app_length, LN, LH; reflexivity|auto]. }
  assert (S145 : slice 145 64 D = st_tmp d).
  { unfold D. rewrite (app_assoc stb_name), (app_assoc (stb_name ++ [s])), (app_assoc (_ ++ be_bytes 8 n)), (app_assoc (_ ++ h)). apply slice_mid; [rewrite !app_length, LN, LH, LC; reflexivity|auto]. }
  assert (S209 : skipn 209 D = b).
  { unfold D. rewrite (app_assoc stb_name), (app_assoc (stb_name ++ [s])), (app_assoc (_ ++ be_bytes 8 n)), (app_assoc (_ ++ h)), (app_assoc (_ ++ c)).
    apply skipn_app_exact. rewrite !app_length, LN, LH, LC, T. reflexivity. }
  rewrite S8, S9, S17, S81, S145, S209. rewrite be_val_bytes. change (256 ^ Z.of_nat 8)%Z with (2 ^ 64)%Z.
  rewrite (Z.mod_small n) by (apply Z.mod_pos_bound; lia).
  assert (SS : Z.to_nat s = st_size d). { unfold s. rewrite SZ. destruct S as [-> | ->]; reflexivity. }
  rewrite SS. destruct d as [sz tmp [[[n' h'] c'] b']]. cbn [st_size st_tmp st_b a_s a_buf] in *. injection ES as -> -> ->. reflexivity.
Qed.

(** * GOST R 34.11-94 *)
Lemma g94_add v b : bytes_ok b -> length b = 32 -> (0 <= v)%Z -> g94_chkadd (v mod 2 ^ 256) (rev b) = ((v + le_val b) mod 2 ^ 256)%Z.
Proof.
  intros B L V. unfold g94_chkadd. assert (E : be_val (rev b) = le_val b) by (unfold be_val; now rewrite rev_involutive). rewrite E.
  pose proof (le_val_bound B) as LB. rewrite L in LB. change (256 ^ Z.of_nat 32)%Z with (2 ^ 256)%Z in LB.
  assert (M : (0 <= v mod 2 ^ 256 < 2 ^ 256)%Z) by (apply Z.mod_pos_bound; lia).
  rewrite Z.add_mod by lia. rewrite (Z.mod_small (le_val b)) by lia. set (x := (v mod 2 ^ 256)%Z) in *.
  destruct (Z.leb_spec (2 ^ 256) (le_val b + x)).
  - symmetry. rewrite <- (Z.mod_small (le_val b + x - 2 ^ 256) (2 ^ 256)) by lia.
    replace (x + le_val b)%Z with (le_val b + x - 2 ^ 256 + 1 * 2 ^ 256)%Z by ring. now rewrite Z.mod_add by lia.
  - rewrite Z.mod_small; lia.
Qed.
Lemma g94_blocks E l : Forall (fun b => length b = 32) l -> Forall (fun b => bytes_ok b) l -> forall i h v, (0 <= v)%Z ->
  fold_left (g94_block E) l ((256 * Z.of_nat i) mod 2 ^ 64, h, v mod 2 ^ 256)%Z =
  ((256 * Z.of_nat (i + length l)) mod 2 ^ 64, fold_left (fun h b => g94_step E h (rev b)) l h,
   (v + fold_right Z.add 0 (map le_val l)) mod 2 ^ 256)%Z.
Proof.
  induction 1 as [|b l L F IH]; intros B i h v V; cbn [fold_left length map fold_right].
  - now rewrite Nat.add_0_r, Z.add_0_r.
  - inversion B; subst. cbn [g94_block]. rewrite g94_add by auto.
    replace (wadd 64 ((256 * Z.of_nat i) mod 2 ^ 64) 256) with ((256 * Z.of_nat (S i)) mod 2 ^ 64)%Z.
    2:{ unfold wadd. rewrite Z.add_mod_idemp_l by lia. f_equal. lia. }
    rewrite IH; auto. 2:{ pose proof (le_val_bound H1). lia. }
    rewrite Nat.add_succ_r. cbn [Nat.add]. f_equal. f_equal. lia.
Qed.
Lemma chunks_bytes_ok n q : 0 < n -> bytes_ok q -> Forall (fun b => bytes_ok b) (chunks n q).
Proof.
  intros P H. apply Forall_forall. intros b I. apply Forall_forall. intros x X.
  unfold bytes_ok in H. rewrite Forall_forall in H. apply H. rewrite <- (@chunks_concat _ n q P). apply in_concat. now exists b.
Qed.
Lemma g94_sum_ok E m d inp : bytes_ok m -> AHeld (g94_block E) 32 g94_iv m d -> g94_sum E d inp = Ok (inp ++ gost94 E m).
Proof.
  intros B (q & k & A). assert (P : 0 < 32) by lia. destruct (aheld_parts P A) as (D & W & R). destruct A as [M Q SQ T].
  destruct (@chunks_all_len _ 32 q k P Q) as [CA CL]. assert (BQ : bytes_ok q) by (rewrite M in B; now apply Forall_app in B).
  assert (BT : bytes_ok (a_buf d)) by (rewrite M in B; now apply Forall_app in B).
  assert (BC : Forall (fun b => bytes_ok b) (chunks 32 q)) by (apply chunks_bytes_ok; auto).
  assert (ES : a_s d = ((256 * Z.of_nat k) mod 2 ^ 64, fold_left (fun h b => g94_step E h (rev b)) (chunks 32 q) (repeat 0%Z 32),
    (fold_right Z.add 0 (map le_val (chunks 32 q))) mod 2 ^ 256)%Z).
  { rewrite SQ. unfold iterated, g94_iv.
    change (0%Z, repeat 0%Z 32, 0%Z) with (((256 * Z.of_nat 0) mod 2 ^ 64)%Z, repeat 0%Z 32, (0 mod 2 ^ 256)%Z).
    rewrite g94_blocks by (auto; lia). rewrite CL. reflexivity. }
  assert (NN : (0 <= fold_right Z.add 0 (map le_val (chunks 32 q)))%Z).
  { clear -BC. induction BC as [|b l Hb]; cbn [map fold_right]; [lia|]. pose proof (le_val_bound Hb). lia. }
  unfold g94_sum, g94_checksum, gost94. rewrite ES, W, R. do 2 f_equal.
  assert (LM : Z.of_nat (length m) = (32 * Z.of_nat k + Z.of_nat (length (a_buf d)))%Z) by (rewrite M, app_length, Q; lia).
  assert (BM : forall z, be_bytes 8 (z mod 2 ^ 64) = be_bytes 8 z) by (intro z; unfold be_bytes; f_equal; symmetry; exact (Hash1Proofs.le_bytes_mod 8 z)).
  assert (BM2 : forall z, be_bytes 32 (z mod 2 ^ 256) = be_bytes 32 z) by (intro z; unfold be_bytes; f_equal; symmetry; exact (Hash1Proofs.le_bytes_mod 32 z)).
  destruct (Nat.eqb_spec (length (a_buf d)) 0) as [Z|NZ]; cbn [negb].
  - rewrite app_nil_r. rewrite BM, BM2. assert (X : (8 * Z.of_nat (length m) = 256 * Z.of_nat k)%Z) by lia. rewrite X. reflexivity.
  - set (r := a_buf d ++ repeat 0%Z (32 - length (a_buf d))).
    assert (G : gocopy (repeat 0%Z 32) (a_buf d) = r).
    { unfold gocopy, r. rewrite repeat_length, firstn_all2 by lia. f_equal.
      replace 32 with (length (a_buf d) + (32 - length (a_buf d))) at 1 by lia. rewrite repeat_split, skipn_app_exact by apply repeat_length. reflexivity. }
    rewrite G. assert (LR : length r = 32) by (unfold r; rewrite app_length, repeat_length; lia).
    assert (BR : bytes_ok r). { apply Forall_app. split; auto. apply Forall_forall. intros x X. apply repeat_spec in X. subst x. red. lia. }
    rewrite g94_add by auto. rewrite BM2, fold_left_app, map_app, sum_app. cbn [fold_left map fold_right]. rewrite Z.add_0_r.
    unfold wadd, wmul. rewrite <- Zplus_mod, BM. assert (X : (8 * Z.of_nat (length m) = 256 * Z.of_nat k + Z.of_nat (length (a_buf d)) * 8)%Z) by lia. rewrite X. reflexivity.
Qed.
