(** Proofs about FF1 and FF3 on arbitrary strings: what is refused, what is accepted though it is not a numeral string, no panic. *)
From Verif Require Import Base BigModel WordModel WordLib NumLib ElgProofs EcSigProofs EcSigProofs2 LmsProofs2 HbufProofs Sc5Proofs FpeModel FpeSpec FpeProofs FpeProofs2.
From Coq Require Import Lia.
Set Implicit Arguments. Unset Strict Implicit.
Local Open Scope Z_scope.

Lemma dig_range r ch d : 2 <= r -> dig r ch = Some d -> 0 <= d < r.
Proof.
  intros R. unfold dig. destruct ((48 <=? ch) && (ch <=? 57)) eqn:A; [|destruct ((97 <=? ch) && (ch <=? 122)) eqn:B; [|destruct ((65 <=? ch) && (ch <=? 90)) eqn:C; [destruct (r <=? 36)|]]];
    match goal with |- (if ?x <? r then _ else _) = _ -> _ => destruct (Z.ltb_spec x r) end; intros [= <-]; lia.
Qed.
Lemma scan_bound r s : 2 <= r -> forall acc v, 0 <= acc -> scan r acc s = Some v -> acc * r ^ Z.of_nat (length s) <= v < (acc + 1) * r ^ Z.of_nat (length s).
Proof.
  intros R. induction s as [|ch s IH]; intros acc v A; cbn [scan length]; [intros [= <-]; cbn; lia|].
  destruct (dig r ch) as [d|] eqn:D; [|discriminate]. apply dig_range in D; auto. intros H. apply IH in H; [|nia].
  rewrite Nat2Z.inj_succ, Z.pow_succ_r by lia. pose proof (Z.pow_pos_nonneg r (Z.of_nat (length s)) ltac:(lia) ltac:(lia)). nia.
Qed.
Lemma set_bound r s v : 2 <= r -> set_string r s = Some v -> - r ^ Z.of_nat (length s) < v < r ^ Z.of_nat (length s).
Proof.
  intros R. destruct s as [|ch s]; [discriminate|]. unfold set_string. assert (S1 : forall t x, scan1 r t = Some x -> 0 <= x < r ^ Z.of_nat (length t)).
  { intros t x H. destruct t; [discriminate|]. unfold scan1 in H. apply scan_bound in H; auto; lia. }
  assert (M : r ^ Z.of_nat (length s) <= r ^ Z.of_nat (length (ch :: s))) by (apply Z.pow_le_mono_r; cbn; lia).
  destruct (ch =? 45). { destruct (scan1 r s) as [x|] eqn:E; [|discriminate]. apply S1 in E. intros [= <-]. lia. }
  destruct (ch =? 43); intros H; apply S1 in H; lia.
Qed.

Lemma big_abs x : big_bytes (Z.abs x) = big_bytes x.
Proof. unfold big_bytes, bitlen. rewrite Z.abs_involutive. destruct (Z.eqb_spec x 0) as [->|N]; [reflexivity|]. now replace (Z.abs x =? 0) with false by lia. Qed.
Lemma val_abs x : be_val (big_bytes x) = Z.abs x.
Proof. rewrite <- big_abs. apply be_val_big_bytes. lia. Qed.

Section nopanic.
Variable E : bytes -> bytes.
Hypothesis EL : forall x, length x = 16%nat -> length (E x) = 16%nat.
Lemma y_total P t pad b maxJ d Q i x k : length P = 16%nat -> (t + b + 1 + pad)%nat = (k * 16)%nat -> length Q = (t + b + 1 + pad)%nat ->
  Z.abs x < 256 ^ Z.of_nat b ->
  exists Q' y, ff1_y E P t pad (t + b + 1 + pad) maxJ d Q i x = Ok (Q', y) /\ length Q' = (t + b + 1 + pad)%nat.
Proof.
  intros LP LK LQ Hx. assert (Hx' : 0 <= Z.abs x < 256 ^ Z.of_nat b) by lia. destruct (big_pad Hx') as [Ln _]. set (lenQ := (t + b + 1 + pad)%nat) in *.
  rewrite big_abs in Ln.
  unfold ff1_y. set (nb := big_bytes x) in *. cbn zeta.
  replace (lenQ <? length nb)%nat with false by (symmetry; apply Nat.ltb_ge; unfold lenQ; lia).
  set (Q2 := splice _ _ _).
  assert (L2 : length Q2 = lenQ).
  { unfold Q2, splice. rewrite !app_length, firstn_length, skipn_length, !app_length, repeat_length, firstn_length, upd_len. unfold lenQ in *. lia. }
  assert (LX : length (P ++ Q2) = (S k * 16)%nat) by (rewrite app_length; lia).
  destruct (prf_ok EL LX ltac:(lia)) as [-> LR]. cbn [rbind]. rewrite (more_ok EL _ LR). cbn [rbind]. eexists _, _. split; [reflexivity|exact L2].
Qed.
End nopanic.

Section ff1.
Variable aes : bytes -> bytes -> bytes.
Hypothesis AL : forall k x, length x = 16%nat -> length (aes k x) = 16%nat.
Variable (c : ff1).
Notation r := (f1Radix c).
Hypothesis R : radix_ok r.
Definition s_ok (s : setup) (b : nat) : Prop :=
  length (sP s) = 16%nat /\ (exists k, sLenQ s = (k * 16)%nat) /\ sLenQ s = (sT s + b + 1 + sPad s)%nat /\ r ^ Z.of_nat (sU s) <= 256 ^ Z.of_nat b /\ r ^ Z.of_nat (sV s) <= 256 ^ Z.of_nat b.
Lemma mod_pos s i : 0 < ff1_mod c s i.
Proof. unfold radix_ok in R. unfold ff1_mod. destruct (Nat.even i); apply Z.pow_pos_nonneg; lia. Qed.
Lemma enc_total s b : s_ok s b -> forall k i Q x y, length Q = sLenQ s -> Z.abs y < 256 ^ Z.of_nat b -> exists ab, ff1_enc_rounds aes c s (seq i k) Q x y = Ok ab /\
  ((2 <= k)%nat -> 0 <= fst ab < ff1_mod c s (i + k - 2) /\ 0 <= snd ab < ff1_mod c s (i + k - 1)) /\ ((k = 1)%nat -> fst ab = Z.abs y /\ 0 <= snd ab < ff1_mod c s i).
Proof.
  intros (S1 & (kq & S2) & S3 & S4 & S5). induction k as [|k IH]; intros i Q x y LQ Hy; [eexists; split; [reflexivity|split; lia]|].
  cbn [seq ff1_enc_rounds]. rewrite S3 in LQ. rewrite S3 in S2.
  destruct (@y_total (aes (f1Key c)) (AL (f1Key c)) (sP s) (sT s) (sPad s) b (sMaxJ s) (sD s) Q i y kq S1 S2 LQ Hy) as (Q' & w & EY & LQ').
  rewrite S3, EY. cbn [rbind fst snd]. pose proof (mod_pos s i) as MP. set (z := (x + w) mod ff1_mod c s i). assert (Hz : 0 <= z < ff1_mod c s i) by (apply Z.mod_pos_bound; auto).
  destruct (IH (S i) Q' (be_val (big_bytes y)) z) as (ab & E1 & E2 & E3); [rewrite S3; auto| |].
  { assert (ff1_mod c s i <= 256 ^ Z.of_nat b) by (unfold ff1_mod; destruct (Nat.even i); auto). lia. }
  exists ab. split; [exact E1|]. rewrite val_abs in *. split.
  - intros K. destruct (Nat.eq_dec k 1) as [->|K1].
    + destruct (E3 eq_refl) as [F1 F2]. replace (i + 2 - 2)%nat with i by lia. replace (i + 2 - 1)%nat with (S i) by lia. split; [lia|exact F2].
    + destruct (E2 ltac:(lia)) as [F1 F2]. replace (i + S k - 2)%nat with (S i + k - 2)%nat by lia. replace (i + S k - 1)%nat with (S i + k - 1)%nat by lia. split; auto.
  - intros K. assert (k = 0)%nat by lia. subst k. cbn [seq ff1_enc_rounds] in E1. injection E1 as <-. cbn [fst snd]. split; [reflexivity|exact Hz].
Qed.
Lemma dec_total s b : s_ok s b -> forall k i Q x y, length Q = sLenQ s -> Z.abs x < 256 ^ Z.of_nat b -> exists ab, ff1_dec_rounds aes c s (rev (seq i k)) Q x y = Ok ab /\
  ((2 <= k)%nat -> 0 <= fst ab < ff1_mod c s i /\ 0 <= snd ab < ff1_mod c s (S i)) /\ ((k = 1)%nat -> snd ab = Z.abs x /\ 0 <= fst ab < ff1_mod c s i).
Proof.
  intros (S1 & (kq & S2) & S3 & S4 & S5). induction k as [|k IH]; intros i Q x y LQ Hy; [eexists; split; [reflexivity|split; lia]|].
  rewrite seq_S, rev_app_distr. cbn [rev app ff1_dec_rounds]. rewrite S3 in LQ. rewrite S3 in S2.
  destruct (@y_total (aes (f1Key c)) (AL (f1Key c)) (sP s) (sT s) (sPad s) b (sMaxJ s) (sD s) Q (i + k) x kq S1 S2 LQ Hy) as (Q' & w & EY & LQ').
  rewrite S3, EY. cbn [rbind fst snd]. pose proof (mod_pos s (i + k)) as MP. set (z := (y - w) mod ff1_mod c s (i + k)). assert (Hz : 0 <= z < ff1_mod c s (i + k)) by (apply Z.mod_pos_bound; auto).
  destruct (IH i Q' z (be_val (big_bytes x))) as (ab & E1 & E2 & E3); [rewrite S3; auto| |].
  { assert (ff1_mod c s (i + k) <= 256 ^ Z.of_nat b) by (unfold ff1_mod; destruct (Nat.even (i + k)); auto). lia. }
  exists ab. split; [exact E1|]. rewrite val_abs in *. split.
  - intros K. destruct (Nat.eq_dec k 1) as [->|K1].
    + destruct (E3 eq_refl) as [F1 F2]. replace (i + 1)%nat with (S i) in * by lia. split; [exact F2|lia].
    + destruct (E2 ltac:(lia)) as [F1 F2]. split; auto.
  - intros K. assert (k = 0)%nat by lia. subst k. cbn [seq rev ff1_dec_rounds] in E1. injection E1 as <-. cbn [fst snd]. rewrite Nat.add_0_r in *. split; [reflexivity|exact Hz].
Qed.
Variable fb : nat -> nat.
Hypothesis M2 : 2 <= f1Min c.
Lemma setup_total X tw : Z.of_nat (length X) < 2 ^ 32 -> (let v := f1_v (length X) in r ^ Z.of_nat v <= 256 ^ Z.of_nat (fb v)) ->
  ff1_setup fb c X tw = Err \/ exists s, ff1_setup fb c X tw = Ok s /\ s_ok s (fb (f1_v (length X))) /\ length (sQ s) = sLenQ s /\ Z.abs (sA s) < 256 ^ Z.of_nat (fb (f1_v (length X))) /\ Z.abs (sB s) < 256 ^ Z.of_nat (fb (f1_v (length X)))
    /\ (0 < sU s)%nat /\ (0 < sV s)%nat.
Proof.
  intros L FB. cbn zeta in FB. destruct (Z.ltb_spec (Z.of_nat (length X)) (f1Min c)) as [HM|HM]; [left; unfold ff1_setup; now rewrite Z.mod_small, (proj2 (Z.ltb_lt _ _) HM) by lia|].
  destruct (Z.ltb_spec (f1MaxT c) (Z.of_nat (length tw))) as [HT|HT]; [left; unfold ff1_setup; rewrite Z.mod_small by lia; replace (Z.of_nat (length X) <? f1Min c) with false by lia; now rewrite (proj2 (Z.ltb_lt _ _) HT)|].
  destruct (set_string r X) eqn:SX; [|left; unfold ff1_setup; rewrite Z.mod_small by lia; replace (Z.of_nat (length X) <? f1Min c) with false by lia; replace (f1MaxT c <? Z.of_nat (length tw)) with false by lia; now rewrite SX].
  assert (SX' : set_string r X <> None) by congruence.
  assert (NN : f1Min c <= Z.of_nat (length X) < 2 ^ 32) by lia.
  rewrite (@setup_ok aes AL fb c R tw HT (length X) NN X eq_refl SX').
  destruct (set_string r (firstn _ X)) as [x|] eqn:SA; [|auto]. destruct (set_string r (skipn _ X)) as [y|] eqn:SB; [|auto].
  right. eexists. split; [reflexivity|]. cbn [sQ sLenQ sA sB sU sV]. pose proof (@uv aes AL fb c M2 tw (length X) NN) as (U1 & U2 & U3).
  assert (UV : r ^ Z.of_nat (f1_u (length X)) <= r ^ Z.of_nat (f1_v (length X))) by (unfold radix_ok in R; apply Z.pow_le_mono_r; lia).
  unfold radix_ok in R. apply set_bound in SA, SB; try lia. rewrite firstn_length in SA. rewrite skipn_length in SB.
  replace (Nat.min (f1_u (length X)) (length X)) with (f1_u (length X)) in SA by lia. replace (length X - f1_u (length X))%nat with (f1_v (length X)) in SB by lia.
  split; [|split; [rewrite app_length, repeat_length; lia|lia]]. split; [reflexivity|]. cbn [sP sLenQ sT sPad sU sV]. split; [exact (@lenq16 aes AL fb c tw (length X))|]. split; [lia|]. lia.
Qed.
Lemma out_total s ab : (0 < sU s)%nat -> (0 < sV s)%nat -> 0 <= fst ab < ff1_mod c s 0 -> 0 <= snd ab < ff1_mod c s 1 -> exists o, ff1_out c s ab = Ok o.
Proof.
  intros U V A B. unfold ff1_mod in A, B. cbn [Nat.even] in *. unfold radix_ok in R. unfold ff1_out. rewrite !lpad_text by (auto; lia). eexists. reflexivity.
Qed.
Lemma ff1_nopanic X tw : Z.of_nat (length X) < 2 ^ 32 -> (let v := f1_v (length X) in r ^ Z.of_nat v <= 256 ^ Z.of_nat (fb v)) ->
  ff1_encrypt aes fb c X tw <> Panic /\ ff1_decrypt aes fb c X tw <> Panic.
Proof.
  intros L FB. destruct (setup_total tw L FB) as [E|(s & E & S & LQ & A & B & U & V)]; unfold ff1_encrypt, ff1_decrypt; rewrite E; cbn [rbind]; [split; discriminate|].
  destruct (@enc_total s _ S 10 0 (sQ s) (sA s) (sB s) LQ B) as (ab & -> & H1 & _). destruct (@dec_total s _ S 10 0 (sQ s) (sA s) (sB s) LQ A) as (ab' & -> & H2 & _). cbn [rbind].
  destruct (H1 ltac:(lia)) as [H3 H4]. destruct (H2 ltac:(lia)) as [H5 H6].
  destruct (@out_total s ab U V H3 H4) as [o ->]. destruct (@out_total s ab' U V H5 H6) as [o' ->]. split; discriminate.
Qed.
End ff1.

(** * Strings that are not numeral strings *)
Lemma scan_none r s : (exists ch, In ch s /\ dig r ch = None) -> forall acc, scan r acc s = None.
Proof.
  induction s as [|x s IH]; intros (ch & I & D) acc; [contradiction|]. cbn [scan]. destruct I as [->|I]; [now rewrite D|]. destruct (dig r x); [|reflexivity]. apply IH. eauto.
Qed.
Definition signch (ch : Z) : bool := (ch =? 45) || (ch =? 43).
Lemma dig_sign r ch : 2 <= r <= 62 -> signch ch = true -> dig r ch = None.
Proof.
  intros R H. unfold signch in H. apply orb_true_iff in H. unfold dig. destruct H as [H|H]; apply Z.eqb_eq in H; subst ch; cbn; now replace (63 <? r) with false by lia.
Qed.
Lemma set_none r s : 2 <= r <= 62 -> (exists ch, In ch s /\ signch ch = false /\ dig r ch = None) -> set_string r s = None.
Proof.
  intros R (ch & I & S & D). destruct s as [|x s]; [contradiction|]. unfold set_string.
  assert (T : signch x = true -> scan1 r s = None).
  { intros Hx. destruct I as [->|I]; [congruence|]. destruct s; [contradiction|]. apply scan_none. eauto. }
  unfold signch in T. destruct (x =? 45); [now rewrite T|]. destruct (x =? 43); [now rewrite T|]. apply scan_none. eauto.
Qed.
Lemma set_none_tail r x s ch : 2 <= r <= 62 -> In ch s -> dig r ch = None -> set_string r (x :: s) = None.
Proof.
  intros R I D. destruct s as [|y s]; [contradiction|]. assert (T : scan1 r (y :: s) = None) by (apply scan_none; eauto). unfold set_string.
  destruct (x =? 45); [now rewrite T|]. destruct (x =? 43); [now rewrite T|]. apply scan_none. exists ch. split; [now right|auto].
Qed.

Section other.
Variable aes : bytes -> bytes -> bytes.
Variable fb : nat -> nat.
Lemma ff1_refuse (c : ff1) X tw : radix_ok (f1Radix c) ->
  Z.of_nat (length X) < f1Min c \/ f1MaxT c < Z.of_nat (length tw) \/ (exists ch, In ch X /\ signch ch = false /\ dig (f1Radix c) ch = None) \/ (exists x s ch, X = x :: s /\ In ch s /\ dig (f1Radix c) ch = None) ->
  ff1_encrypt aes fb c X tw = Err /\ ff1_decrypt aes fb c X tw = Err.
Proof.
  intros R H. assert (S : ff1_setup fb c X tw = Err); [|unfold ff1_encrypt, ff1_decrypt; now rewrite S]. unfold ff1_setup.
  destruct (_ <? f1Min c) eqn:A; [reflexivity|]. destruct (f1MaxT c <? _) eqn:B; [reflexivity|]. destruct H as [H|[H|H]]; [exfalso|exfalso|].
  - pose proof (Z.mod_le (Z.of_nat (length X)) (2 ^ 32) ltac:(lia) ltac:(lia)). lia.
  - lia.
  - destruct H as [H|(x & s & ch & -> & I & D)]; [now rewrite set_none|]. now rewrite (set_none_tail _ R I D).
Qed.
Lemma scan_zero r s : 2 <= r -> scan r 0 (48 :: s) = scan r 0 s.
Proof. intros R. cbn [scan]. unfold dig. cbn. now replace (0 <? r) with true by lia. Qed.
Lemma set_plus r s : 2 <= r -> s <> [] -> set_string r (43 :: s) = set_string r (48 :: s).
Proof. intros R N. unfold set_string. cbn [Z.eqb Pos.eqb]. destruct s; [congruence|]. unfold scan1. now rewrite scan_zero. Qed.
(** a leading plus sign is taken for a zero *)
Lemma ff1_plus (c : ff1) s tw : 2 <= f1Radix c -> 3 <= Z.of_nat (length s) < 2 ^ 32 - 1 ->
  ff1_encrypt aes fb c (43 :: s) tw = ff1_encrypt aes fb c (48 :: s) tw.
Proof.
  intros R L. unfold ff1_encrypt. f_equal; auto. unfold ff1_setup. cbn [length]. rewrite Z.mod_small by lia. destruct (_ <? f1Min c); [reflexivity|]. destruct (f1MaxT c <? _); [reflexivity|].
  rewrite set_plus by (auto; intros ->; cbn in L; lia). destruct (set_string (f1Radix c) (48 :: s)); [|reflexivity]. cbn zeta.
  set (u := Z.to_nat (Z.of_nat (S (length s)) / 2)). assert (U : (2 <= u)%nat).
  { unfold u. assert (2 <= Z.of_nat (S (length s)) / 2) by (apply Z.div_le_lower_bound; lia). lia. }
  destruct u as [|u]; [lia|]. cbn [firstn skipn]. rewrite set_plus; auto. intros Q. apply (f_equal (@length Z)) in Q. rewrite firstn_length in Q. cbn [length] in Q. lia.
Qed.
(** letters in the other case *)
Definition capital (ch : Z) : Z := if (97 <=? ch) && (ch <=? 122) then ch - 32 else ch.
Lemma dig_capital r ch : r <= 36 -> dig r (capital ch) = dig r ch.
Proof.
  intros R. unfold capital. destruct ((97 <=? ch) && (ch <=? 122)) eqn:A; [|reflexivity]. apply andb_prop in A as [A1 A2]. apply Z.leb_le in A1, A2. unfold dig.
  replace (ch - 32 <=? 57) with false by lia. rewrite andb_false_r. replace (97 <=? ch - 32) with false by lia. cbn [andb]. replace (65 <=? ch - 32) with true by lia. replace (ch - 32 <=? 90) with true by lia.
  replace (r <=? 36) with true by lia. cbn [andb]. replace (ch <=? 57) with false by lia. rewrite andb_false_r. replace (97 <=? ch) with true by lia. replace (ch <=? 122) with true by lia. cbn [andb].
  replace (ch - 32 - 65 + 10) with (ch - 97 + 10) by lia. reflexivity.
Qed.
Lemma scan_capital r s : r <= 36 -> forall acc, scan r acc (map capital s) = scan r acc s.
Proof. intros R. induction s as [|x s IH]; intros acc; [reflexivity|]. cbn [map scan]. rewrite dig_capital by auto. destruct (dig r x); auto. Qed.
Lemma set_capital r s : r <= 36 -> set_string r (map capital s) = set_string r s.
Proof.
  intros R. destruct s as [|x s]; [reflexivity|]. cbn [map]. assert (T : forall t, scan1 r (map capital t) = scan1 r t) by (intros [|y t]; [reflexivity|]; apply (@scan_capital r (y :: t) R 0)).
  unfold set_string. rewrite T. change (capital x :: map capital s) with (map capital (x :: s)). rewrite T.
  assert (C : forall k, k = 45 \/ k = 43 -> (capital x =? k) = (x =? k)).
  { intros k K. unfold capital. destruct ((97 <=? x) && (x <=? 122)) eqn:A; [|reflexivity]. apply andb_prop in A as [A1 A2]. lia. }
  now rewrite !C by auto.
Qed.
Lemma ff1_capital (c : ff1) s tw : f1Radix c <= 36 -> ff1_encrypt aes fb c (map capital s) tw = ff1_encrypt aes fb c s tw.
Proof.
  intros R. unfold ff1_encrypt. f_equal; auto. unfold ff1_setup. rewrite map_length, set_capital by auto. cbn zeta. now rewrite firstn_map, skipn_map, !set_capital by auto.
Qed.

(** FF3 *)
Lemma ff3_refuse (c : ff3) X tw : Z.of_nat (length X) < 2 ^ 32 -> Z.of_nat (length X) < f3Min c \/ f3Max c <= Z.of_nat (length X) \/ length tw <> 8%nat ->
  ff3_encrypt aes c X tw = Err /\ ff3_decrypt aes c X tw = Err.
Proof.
  intros L H. assert (S : ff3_setup c X tw = Err); [|unfold ff3_encrypt, ff3_decrypt; now rewrite S]. unfold ff3_setup. rewrite Z.mod_small by lia.
  destruct (_ <? f3Min c) eqn:A; [reflexivity|]. cbn [orb]. destruct (f3Max c <=? _) eqn:B; [reflexivity|]. destruct H as [H|[H|H]]; [lia|lia|].
  destruct (Nat.eqb_spec (length tw) 8); [congruence|]. reflexivity.
Qed.
Lemma ff3_refuse_char (c : ff3) X tw : radix_ok (f3Radix c) -> (exists ch, In ch X /\ signch ch = false /\ dig (f3Radix c) ch = None) \/ (exists x s ch, X = x :: s /\ In ch s /\ dig (f3Radix c) ch = None) ->
  ff3_encrypt aes c X tw = Err /\ ff3_decrypt aes c X tw = Err.
Proof.
  intros R H. assert (S : ff3_setup c X tw = Err); [|unfold ff3_encrypt, ff3_decrypt; now rewrite S]. unfold ff3_setup.
  destruct (_ || _); [reflexivity|]. destruct (negb _); [reflexivity|]. destruct H as [H|(x & s & ch & -> & I & D)]; [now rewrite set_none|]. now rewrite (set_none_tail _ R I D).
Qed.
Lemma set_rev_sign r x s : 2 <= r <= 62 -> signch x = true -> set_string r (rev (x :: s)) = None.
Proof.
  intros R S. cbn [rev]. destruct (rev s) as [|y t].
  - cbn [app]. unfold set_string. unfold signch in S. destruct (x =? 45); [reflexivity|]. destruct (x =? 43); [reflexivity|discriminate].
  - cbn [app]. apply (@set_none_tail r y (t ++ [x]) x R); [apply in_app_iff; right; now left|]. apply dig_sign; auto.
Qed.
Lemma ff3_sign (c : ff3) x s tw o : radix_ok (f3Radix c) -> 2 <= f3Min c -> signch x = true -> ff3_encrypt aes c (x :: s) tw <> Ok o /\ ff3_decrypt aes c (x :: s) tw <> Ok o.
Proof.
  intros R M SG. unfold ff3_encrypt, ff3_decrypt, ff3_setup. set (n := Z.of_nat (length (x :: s)) mod 2 ^ 32).
  destruct (Z.ltb_spec n (f3Min c)); [split; discriminate|]. cbn [orb]. destruct (f3Max c <=? n); [split; discriminate|]. destruct (negb _); [split; discriminate|].
  destruct (set_string _ _); [|split; discriminate]. cbn [rbind fst snd].
  assert (U : (0 < Z.to_nat ((n + 1) / 2))%nat) by (assert (1 <= (n + 1) / 2) by (apply Z.div_le_lower_bound; lia); lia).
  destruct (Z.to_nat ((n + 1) / 2)) as [|u]; [lia|]. cbn [firstn]. set (A := firstn u s). set (B := skipn (S u) (x :: s)). split.
  - cbn [seq ff3_enc_rounds]. destruct (ff3_y _ _ _ _ _ B); try discriminate. cbn [rbind]. unfold ff3_c at 1. rewrite set_rev_sign by auto. discriminate.
  - change (rev (seq 0 8)) with [7;6;5;4;3;2;1;0]%nat. cbn [ff3_dec_rounds]. unfold ff3_y at 1. rewrite set_rev_sign by auto. discriminate.
Qed.
Lemma rev_capital s : rev (map capital s) = map capital (rev s). Proof. now rewrite map_rev. Qed.
Lemma y3_capital E r tw i P B : r <= 36 -> ff3_y E r tw i P (map capital B) = ff3_y E r tw i P B.
Proof. intros R. unfold ff3_y. now rewrite rev_capital, set_capital. Qed.
Lemma c3_capital r u v i op A : r <= 36 -> ff3_c r u v i op (map capital A) = ff3_c r u v i op A.
Proof. intros R. unfold ff3_c. now rewrite rev_capital, set_capital. Qed.
Lemma ff3_capital (c : ff3) s tw : f3Radix c <= 36 -> ff3_encrypt aes c (map capital s) tw = ff3_encrypt aes c s tw.
Proof.
  intros R. unfold ff3_encrypt. assert (S : ff3_setup c (map capital s) tw = ff3_setup c s tw) by (unfold ff3_setup; now rewrite map_length, set_capital).
  rewrite S. destruct (ff3_setup c s tw) as [[u v]| |]; auto. cbn [rbind fst snd]. f_equal. rewrite firstn_map, skipn_map.
  change (seq 0 8) with (0 :: 1 :: seq 2 6)%nat. cbn [ff3_enc_rounds]. rewrite y3_capital by auto. destruct (ff3_y _ _ _ _ _ (skipn u s)) as [[P1 y1]| |]; auto. cbn [rbind fst snd].
  rewrite c3_capital by auto. destruct (ff3_c _ _ _ 0 _ _) as [C| |]; auto. cbn [rbind]. destruct (ff3_y _ _ _ _ _ C) as [[P2 y2]| |]; auto. cbn [rbind fst snd]. now rewrite c3_capital.
Qed.
End other.
