(** Proofs for rand/drbg: addition, filling loops, the hash generator. *)
From Verif Require Import Base WordModel WordLib BlockModeModel MacModel CcmProofs OcbProofs Sc5Proofs DrbgModel DrbgSpec.
From Coq Require Import Lia.
Set Implicit Arguments. Unset Strict Implicit.
Local Open Scope nat_scope.

Lemma be_bytes_S n z : be_bytes (S n) z = be_bytes n (z / 256) ++ [(z mod 256)%Z].
Proof. reflexivity. Qed.
Lemma be_val_snoc l x : be_val (l ++ [x]) = (256 * be_val l + x)%Z.
Proof. unfold be_val. rewrite rev_app_distr. cbn. lia. Qed.
Lemma be_val_zeros n : be_val (repeat 0%Z n) = 0%Z.
Proof. induction n; auto. change (repeat 0%Z (S n)) with ([0%Z] ++ repeat 0%Z n). rewrite be_val_app, IHn. cbn. lia. Qed.
Lemma be_val_lead n l : be_val (repeat 0%Z n ++ l) = be_val l.
Proof. rewrite be_val_app, be_val_zeros. lia. Qed.
Lemma firstn_S_nth (l : bytes) j : j < length l -> firstn (S j) l = firstn j l ++ [nth j l 0%Z].
Proof. revert j. induction l; intros [|j] Hj; cbn in *; try lia; auto. rewrite <- IHl by lia. reflexivity. Qed.
Lemma skipn_S_nth (l : bytes) j : j < length l -> skipn j l = nth j l 0%Z :: skipn (S j) l.
Proof. revert j. induction l; intros [|j] Hj; cbn in *; try lia; auto. rewrite <- IHl by lia. reflexivity. Qed.
Lemma firstn_upd j v (l : bytes) : firstn j (upd j v l) = firstn j l.
Proof. revert j. induction l; intros [|j]; cbn; auto. rewrite IHl. reflexivity. Qed.
Lemma skipn_upd j v (l : bytes) : j < length l -> skipn j (upd j v l) = v :: skipn (S j) l.
Proof. revert j. induction l; intros [|j] Hj; cbn in *; try lia; auto. rewrite IHl by lia. reflexivity. Qed.
Lemma lowbyte t : to_byte (Z.land t 255) = (t mod 256)%Z.
Proof. unfold to_byte. change 255%Z with (Z.ones 8). rewrite Z.land_ones by lia. change (2 ^ 8)%Z with 256%Z. apply Z.mod_mod. lia. Qed.
Lemma highpart t : Z.shiftr t 8 = (t / 256)%Z.
Proof. rewrite Z.shiftr_div_pow2 by lia. reflexivity. Qed.

Lemma add_loop_spec n : forall R A t, n <= length R -> n <= length A ->
  add_loop n R A t = be_bytes n (be_val (firstn n R) + be_val (firstn n A) + t) ++ skipn n R.
Proof.
  induction n; intros R A t HR HA; [reflexivity|].
  cbn [add_loop]. rewrite IHn by (rewrite ?upd_len; lia).
  rewrite lowbyte, highpart, firstn_upd, skipn_upd by lia. rewrite be_bytes_S.
  rewrite !firstn_S_nth by lia. rewrite !be_val_snoc.
  set (a := be_val (firstn n R)). set (b := be_val (firstn n A)). set (x := nth n R 0%Z). set (y := nth n A 0%Z).
  replace (256 * a + x + (256 * b + y) + t)%Z with ((t + (x + y)) + (a + b) * 256)%Z by lia.
  rewrite Z.div_add, Z_mod_plus_full by lia. rewrite <- app_assoc. cbn [app]. do 2 f_equal. lia.
Qed.
Lemma drbg_add_spec R A n : n <= length R -> n <= length A ->
  drbg_add R A n = be_bytes n (be_val (firstn n R) + be_val (firstn n A)) ++ skipn n R.
Proof. intros. unfold drbg_add. rewrite add_loop_spec by auto. do 2 f_equal. lia. Qed.
Lemma add1_loop_spec n : forall R t, n <= length R -> add1_loop n R t = be_bytes n (be_val (firstn n R) + t) ++ skipn n R.
Proof.
  induction n; intros R t HR; [reflexivity|].
  cbn [add1_loop]. rewrite IHn by (rewrite upd_len; lia).
  rewrite lowbyte, highpart, firstn_upd, skipn_upd by lia. rewrite be_bytes_S.
  rewrite firstn_S_nth by lia. rewrite be_val_snoc.
  set (a := be_val (firstn n R)). set (x := nth n R 0%Z).
  replace (256 * a + x + t)%Z with ((t + x) + a * 256)%Z by lia.
  rewrite Z.div_add, Z_mod_plus_full by lia. rewrite <- app_assoc. cbn [app]. do 2 f_equal. lia.
Qed.
Lemma drbg_add1_spec R n : n <= length R -> drbg_add1 R n = be_bytes n (be_val (firstn n R) + 1) ++ skipn n R.
Proof. intros. apply add1_loop_spec. auto. Qed.

(** ** ceil *)
Lemma cdiv_spec n h : 0 < h -> n <= cdiv n h * h < n + h.
Proof. intros P. unfold cdiv. pose proof (Nat.div_mod (n + h - 1) h). pose proof (Nat.mod_upper_bound (n + h - 1) h). nia. Qed.
Lemma cdiv_unique n h m : 0 < h -> n <= m * h < n + h -> cdiv n h = m.
Proof. intros P Q. pose proof (@cdiv_spec n h P). nia. Qed.
Lemma cdiv_0 h : 0 < h -> cdiv 0 h = 0. Proof. intros. apply cdiv_unique; lia. Qed.
Lemma cdiv_le n h : 0 < h -> cdiv n h <= n. Proof. intros P. pose proof (@cdiv_spec n h P). nia. Qed.
Lemma cdiv_step n h : 0 < h -> 0 < n -> cdiv n h = S (cdiv (n - Nat.min n h) h).
Proof.
  intros P Q. apply cdiv_unique; auto. destruct (le_lt_dec n h).
  - rewrite Nat.min_l by lia. replace (n - n) with 0 by lia. rewrite cdiv_0 by auto. lia.
  - rewrite Nat.min_r by lia. pose proof (@cdiv_spec (n - h) h P). lia.
Qed.
Lemma cdiv_lt n h i : 0 < h -> (i * h < n <-> i < cdiv n h).
Proof. intros P. pose proof (@cdiv_spec n h P). nia. Qed.

Section stream.
  Variable f : nat -> bytes.
  Variable h : nat.
  Hypothesis hpos : 0 < h.
  Lemma stream_0 i : stream f h i 0 = []. Proof. reflexivity. Qed.
  Lemma stream_step i n : length (f i) = h -> 0 < n -> stream f h i n = firstn (Nat.min n h) (f i) ++ stream f h (S i) (n - Nat.min n h).
  Proof.
    intros L P. unfold stream. rewrite cdiv_step by auto. cbn [seq map concat]. rewrite firstn_app, L.
    destruct (le_lt_dec n h).
    - rewrite Nat.min_l by auto. replace (n - h) with 0 by lia. replace (n - n) with 0 by lia. reflexivity.
    - rewrite Nat.min_r by lia. rewrite firstn_all2 with (n := n) by lia. rewrite firstn_all2 with (n := h) by lia. reflexivity.
  Qed.
  Lemma concat_len i m : (forall j, i <= j < i + m -> length (f j) = h) -> length (concat (map f (seq i m))) = m * h.
  Proof.
    revert i. induction m; intros i Hj; auto. cbn [seq map concat]. rewrite app_length, IHm, Hj by (intros; try apply Hj; lia). lia.
  Qed.
  Lemma stream_len i n : (forall j, length (f j) = h) -> length (stream f h i n) = n.
  Proof. intros L. unfold stream. rewrite firstn_length, concat_len by auto. pose proof (@cdiv_spec n h hpos). lia. Qed.
  Lemma stream_ok i n : (forall j, bytes_ok (f j)) -> bytes_ok (stream f h i n).
  Proof.
    intros L. unfold stream. apply Forall_forall. intros x Hx.
    assert (In x (concat (map f (seq i (cdiv n h))))) as Q by (rewrite <- (firstn_skipn n); apply in_or_app; auto).
    apply in_concat in Q. destruct Q as (l & Q & Q'). apply in_map_iff in Q. destruct Q as (j & <- & _).
    specialize (L j). unfold bytes_ok in L. rewrite Forall_forall in L. auto.
  Qed.
End stream.
Lemma stream_ext f g h i n : (forall j, i <= j < i + cdiv n h -> f j = g j) -> stream f h i n = stream g h i n.
Proof. intros E. unfold stream. do 2 f_equal. apply map_ext_in. intros a Ha. apply in_seq in Ha. apply E. lia. Qed.

Lemma splice_fill (a r d : bytes) : length d <= length r -> splice (length a) d (a ++ r) = (a ++ d) ++ skipn (length d) r.
Proof.
  intros L. unfold splice. rewrite firstn_app, Nat.sub_diag, firstn_O, app_nil_r, firstn_all.
  rewrite skipn_app. rewrite skipn_all2 by lia. cbn [app]. replace (length a + length d - length a) with (length d) by lia.
  rewrite app_assoc. reflexivity.
Qed.
Lemma splice0_full (d l : bytes) : length d <= length l -> splice 0 d l = d ++ skipn (length d) l.
Proof. intros. unfold splice. reflexivity. Qed.

(** ** the loop [for temp.Len() < n] *)
Lemma grow_spec (A : Type) (step : A -> res (A * bytes)) (sts : nat -> A) (f : nat -> bytes) h n fuel :
  0 < h -> n <= fuel -> (forall i, i < cdiv n h -> step (sts i) = Ok (sts (S i), f i)) -> (forall i, i < cdiv n h -> length (f i) = h) ->
  grow step fuel n (sts 0) [] = Ok (sts (cdiv n h), concat (map f (seq 0 (cdiv n h)))).
Proof.
  intros P F S L.
  assert (forall k i fu, i + k = cdiv n h -> k <= fu ->
    grow step fu n (sts i) (concat (map f (seq 0 i))) = Ok (sts (cdiv n h), concat (map f (seq 0 (cdiv n h))))) as G.
  { induction k; intros i fu Hi Hf.
    - assert (i = cdiv n h) as -> by lia. destruct fu; cbn [grow];
        rewrite (@concat_len f h P 0) by (intros; apply L; lia); pose proof (@cdiv_spec n h P);
        (destruct (Nat.ltb_spec (cdiv n h * h) n); [lia|reflexivity]).
    - destruct fu; [lia|]. cbn [grow]. rewrite (@concat_len f h P 0) by (intros; apply L; lia).
      pose proof (proj2 (@cdiv_lt n h i P)). destruct (Nat.ltb_spec (i * h) n); [|lia].
      rewrite S by lia. cbn [rbind fst snd]. specialize (IHk (Datatypes.S i) fu). rewrite seq_S, map_app, concat_app in IHk.
      cbn [map concat Nat.add] in IHk. rewrite app_nil_r in IHk. apply IHk; lia. }
  apply (G (cdiv n h) 0); auto. pose proof (@cdiv_le n h P). lia.
Qed.

(** ** checks *)
Lemma new_ok_good e n p : new_ok e n p = true <-> good_new e n p.
Proof.
  unfold new_ok, good_new, MAX_BYTES. change (Z.shiftr (2 ^ 27) 1) with (2 ^ 26)%Z.
  rewrite !andb_true_iff, !negb_true_iff, !orb_false_iff, !Z.leb_gt, Z.eqb_neq. unfold zlen. lia.
Qed.
Lemma reseed_ok_good e a : reseed_ok e a = good_reseedb e a.
Proof.
  unfold reseed_ok, good_reseedb, MAX_BYTES. rewrite negb_orb, <- !Z.ltb_antisym. reflexivity.
Qed.
Lemma good_reseed_iff e a : good_reseedb e a = true <-> good_reseed e a.
Proof. unfold good_reseedb, good_reseed. rewrite !andb_true_iff, !Z.ltb_lt. lia. Qed.

(** ** histories *)
Section hist.
  Variables (St Sp : Type).
  Variable reseed : St -> bytes -> bytes -> res St.
  Variable generate : St -> bytes -> bytes -> res (bytes * St).
  Variable sreseed : Sp -> bytes -> bytes -> Sp.
  Variable sgenerate : Sp -> Z -> bytes -> bytes -> bytes * Sp.
  Variable R : St -> Sp -> Z -> Prop.
  Variable P : dop -> Prop.
  Hypothesis Rr : forall s t n e a, P (Reseed e a) -> R s t n ->
    if good_reseedb e a then exists s', reseed s e a = Ok s' /\ R s' (sreseed t e a) 1 else reseed s e a = Err.
  Hypothesis Rg : forall s t n o a, P (Generate o a) -> R s t n ->
    if (2 ^ 48 <? n)%Z then generate s o a = Err
    else exists s', generate s o a = Ok (fst (sgenerate t n o a), s') /\ R s' (snd (sgenerate t n o a)) (n + 1).
  Lemma hist ops : forall s t n, Forall P ops -> R s t n -> drun reseed generate s ops = map seen (srun sreseed sgenerate t n ops).
  Proof.
    induction ops as [|op ops IH]; intros s t n Hp Hr; auto. inversion Hp; subst.
    destruct op as [e a|o a]; cbn [drun srun dstep].
    - pose proof (@Rr s t n e a H1 Hr) as Q. destruct (good_reseedb e a).
      + destruct Q as (s' & -> & Q). cbn [rbind map seen]. f_equal. apply IH; auto.
      + rewrite Q. cbn [rbind map seen]. f_equal. apply IH; auto.
    - pose proof (@Rg s t n o a H1 Hr) as Q. destruct (2 ^ 48 <? n)%Z.
      + rewrite Q. cbn [map seen]. f_equal. apply IH; auto.
      + destruct Q as (s' & -> & Q). destruct (sgenerate t n o a) as [o' t']. cbn [map seen fst snd] in *. f_equal. apply IH; auto.
  Qed.
End hist.

(** ** the hash generator *)
Section Hash.
  Variable H : bytes -> bytes.
  Variable h : nat.
  Hypothesis hpos : 0 < h.
  Hypothesis hmax : h <= 111.
  Hypothesis Hlen : forall m, length (H m) = h.
  Hypothesis Hok : forall m, bytes_ok (H m).

  Lemma min_if n : (if n <? h then n else h) = Nat.min n h.
  Proof. destruct (Nat.ltb_spec n h); lia. Qed.

  Lemma df_loop_spec ob inp : forall fuel i a r, length r <= fuel -> i + length r <= 256 ->
    df_loop H fuel (Z.of_nat i) ob inp (a ++ r) (length a) (length r) =
    a ++ stream (fun i => H ([Z.of_nat i] ++ ob ++ inp)) h i (length r).
  Proof.
    induction fuel; intros i a r F I.
    - destruct r; [|cbn in F; lia]. cbn [df_loop]. rewrite stream_0. reflexivity.
    - cbn [df_loop]. destruct (Nat.eqb_spec (length r) 0) as [E|E].
      + destruct r; [|discriminate]. rewrite stream_0. reflexivity.
      + rewrite Hlen, min_if. set (d := firstn _ (H _)).
        assert (Ld : length d = Nat.min (length r) h) by (unfold d; rewrite firstn_length, Hlen; lia).
        rewrite splice_fill by lia.
        replace (length a + Nat.min (length r) h) with (length (a ++ d)) by (rewrite app_length; lia).
        replace (length r - Nat.min (length r) h) with (length (skipn (length d) r)) by (rewrite skipn_length; lia).
        destruct (Nat.eq_dec (length (skipn (length d) r)) 0) as [Z0|Z0].
        * destruct (skipn (length d) r) eqn:K; [|discriminate]. rewrite app_nil_r. cbn [length].
          rewrite stream_step by (auto; lia). replace (length r - Nat.min (length r) h) with 0
            by (rewrite <- Ld; apply (f_equal (@length Z)) in K; rewrite skipn_length in K; cbn in K; lia).
          rewrite stream_0, app_nil_r. destruct fuel; reflexivity.
        * assert (Z1 : length (skipn (length d) r) = length r - length d) by apply skipn_length.
          replace (to_byte (Z.of_nat i + 1)) with (Z.of_nat (S i)) by (unfold to_byte; rewrite Z.mod_small by lia; lia).
          rewrite IHfuel by lia. rewrite Z1, Ld, <- app_assoc. f_equal. symmetry. apply stream_step; auto. lia.
  Qed.
  Notation sl := (slen h).
  Lemma sl_bounds : 8 <= sl <= 111 /\ h <= sl.
  Proof. unfold slen. destruct (Nat.leb_spec h 32); lia. Qed.
  Lemma hash_df_eq inp out : length out = sl -> hash_df H inp out = hash_df_spec H h inp.
  Proof.
    intros L. unfold hash_df, hash_df_spec. pose proof sl_bounds.
    etransitivity; [apply (@df_loop_spec (be_bytes 4 (Z.of_nat (length out) * 8)) inp (length out) 1 [] out); lia|].
    cbn [app]. rewrite L. rewrite (Z.mul_comm (Z.of_nat sl) 8). reflexivity.
  Qed.
  Lemma hash_df_len inp : length (hash_df_spec H h inp) = sl.
  Proof. apply stream_len; auto. Qed.
  Lemma hash_df_ok inp : bytes_ok (hash_df_spec H h inp).
  Proof. apply stream_ok; auto. Qed.

  Definition hrel (gm : bool) (s : hst) (t : hstate) (n : Z) : Prop :=
    length (hv s) = 111 /\ length (hc s) = 111 /\ firstn sl (hv s) = B h (fst t) /\ firstn sl (hc s) = B h (snd t) /\
    (0 <= fst t < M h)%Z /\ (0 <= snd t < M h)%Z /\ seedlen s = sl /\ hctr s = n /\ (1 <= n <= 2 ^ 48 + 1)%Z /\ isgm s = gm.

  Lemma h_seed_rel v c gm m : length v = 111 -> length c = 111 -> hrel gm (h_seed H v c sl gm m) (seed_from H h m) 1.
  Proof.
    intros Lv Lc. pose proof sl_bounds. unfold h_seed, hrel, seed_from. cbn [hv hc seedlen hctr isgm fst snd].
    rewrite hash_df_eq by (rewrite firstn_length; lia). pose proof (hash_df_len m) as L1. pose proof (hash_df_ok m) as O1.
    assert (F : firstn sl (splice 0 (hash_df_spec H h m) v) = hash_df_spec H h m).
    { rewrite splice0_full by lia. rewrite firstn_app, L1, Nat.sub_diag, firstn_O, app_nil_r. apply firstn_all2. lia. }
    rewrite F. rewrite hash_df_eq by (rewrite firstn_length; lia).
    set (m2 := [0%Z] ++ hash_df_spec H h m). pose proof (hash_df_len m2) as L2. pose proof (hash_df_ok m2) as O2.
    assert (EB : B h (be_val (hash_df_spec H h m)) = hash_df_spec H h m) by (apply be_bytes_val; auto).
    rewrite EB. fold m2.
    assert (F2 : firstn sl (splice 0 (hash_df_spec H h m2) c) = hash_df_spec H h m2).
    { rewrite splice0_full by lia. rewrite firstn_app, L2, Nat.sub_diag, firstn_O, app_nil_r. apply firstn_all2. lia. }
    rewrite !splice_length by lia. unfold M.
    pose proof (be_val_bound O1) as B1. pose proof (be_val_bound O2) as B2. rewrite L1 in B1. rewrite L2 in B2.
    split; [auto|]. split; [auto|]. split; [auto|]. split; [rewrite F2; symmetry; apply be_bytes_val; auto|].
    do 2 (split; [auto|]). do 2 (split; [reflexivity|]). split; [lia|reflexivity].
  Qed.

  Lemma hashgen_loop_spec V : forall fuel i data a r, length data = 111 -> firstn sl data = B h (V + Z.of_nat i) -> length r <= fuel ->
    hashgen_loop H fuel sl data (a ++ r) (length a) (length r) =
    a ++ stream (fun i => H (B h ((V + Z.of_nat i) mod M h))) h i (length r).
  Proof.
    pose proof sl_bounds. induction fuel; intros i data a r Ld D F.
    - destruct r; [|cbn in F; lia]. cbn [hashgen_loop]. rewrite stream_0. reflexivity.
    - cbn [hashgen_loop]. destruct (Nat.eqb_spec (length r) 0) as [E|E].
      + destruct r; [|discriminate]. rewrite stream_0. reflexivity.
      + rewrite Hlen, min_if. set (d := firstn _ (H _)).
        assert (L : length d = Nat.min (length r) h) by (unfold d; rewrite firstn_length, Hlen; lia).
        rewrite splice_fill by lia.
        replace (length a + Nat.min (length r) h) with (length (a ++ d)) by (rewrite app_length; lia).
        assert (Z1 : length (skipn (length d) r) = length r - length d) by apply skipn_length.
        replace (length r - Nat.min (length r) h) with (length (skipn (length d) r)) by lia.
        rewrite (IHfuel (S i)).
        * rewrite Z1, L, <- app_assoc. f_equal. symmetry.
          rewrite stream_step by (auto; lia). f_equal. unfold d. rewrite D. unfold B, M. rewrite be_bytes_mod. reflexivity.
        * rewrite drbg_add1_spec by lia. rewrite app_length, be_bytes_length, skipn_length. lia.
        * rewrite drbg_add1_spec by lia. rewrite firstn_app, be_bytes_length, Nat.sub_diag, firstn_O, app_nil_r.
          rewrite firstn_all2 by (rewrite be_bytes_length; lia). rewrite D. unfold B. rewrite be_val_bytes.
          rewrite <- (be_bytes_mod _ (V + Z.of_nat (S i))), <- (be_bytes_mod _ (_ + 1)).
          rewrite Z.add_mod_idemp_l by (apply Z.pow_nonzero; lia). do 2 f_equal. lia.
        * lia.
  Qed.

  Lemma add_rel v T V x : length v = 111 -> length T = 111 -> firstn sl v = B h V -> (be_val (firstn sl T) = x)%Z ->
    length (drbg_add v T sl) = 111 /\ firstn sl (drbg_add v T sl) = B h (V + x).
  Proof.
    pose proof sl_bounds. intros Lv Lt Fv Ft. rewrite drbg_add_spec by lia.
    rewrite app_length, be_bytes_length, skipn_length. split; [lia|].
    rewrite firstn_app, be_bytes_length, Nat.sub_diag, firstn_O, app_nil_r.
    rewrite firstn_all2 by (rewrite be_bytes_length; lia). rewrite Fv, Ft. unfold B. rewrite be_val_bytes.
    rewrite <- (be_bytes_mod _ (V + x)), <- (be_bytes_mod _ (_ + x)).
    rewrite Z.add_mod_idemp_l by (apply Z.pow_nonzero; lia). reflexivity.
  Qed.
  Lemma t_val d : length d <= sl -> firstn sl (splice (sl - length d) d (zeros MAXS)) = repeat 0%Z (sl - length d) ++ d /\
    length (splice (sl - length d) d (zeros MAXS)) = 111.
  Proof.
    pose proof sl_bounds. intros L. split.
    - unfold splice, zeros, MAXS.
      replace (firstn (sl - length d) (repeat 0%Z 111)) with (repeat 0%Z (sl - length d)).
      + rewrite app_assoc, firstn_app, app_length, repeat_length.
        replace (sl - (sl - length d + length d)) with 0 by lia. rewrite firstn_O, app_nil_r.
        apply firstn_all2. rewrite app_length, repeat_length. lia.
      + replace 111 with ((sl - length d) + (111 - (sl - length d))) at 1 by lia. rewrite repeat_app, firstn_app, repeat_length, Nat.sub_diag.
        cbn [firstn]. rewrite app_nil_r, firstn_all2; auto. rewrite repeat_length. lia.
    - rewrite splice_length; [apply repeat_length|]. unfold zeros, MAXS. rewrite repeat_length. lia.
  Qed.
  Lemma t_of_H m : exists T, t_of sl (H m) = Ok T /\ length T = 111 /\ be_val (firstn sl T) = be_val (H m).
  Proof.
    pose proof sl_bounds. unfold t_of. rewrite Hlen. destruct (Nat.ltb_spec sl h); [lia|]. eexists. split; [reflexivity|].
    pose proof (@t_val (H m)) as Q. rewrite Hlen in Q. destruct Q as [Q1 Q2]; [lia|]. split; auto. rewrite Q1. apply be_val_lead.
  Qed.

  (** the additional input *)
  Lemma additional_rel (gm : bool) s t n a : hrel gm s t n ->
    exists v, (if 0 <? length a then
             rbind (t_of sl (H ([2%Z] ++ firstn sl (hv s) ++ a))) (fun T => Ok (drbg_add (hv s) T sl))
           else Ok (hv s)) = Ok v /\ length v = 111 /\ firstn sl v = B h (with_additional H h (fst t) a) /\
      (0 <= with_additional H h (fst t) a < M h)%Z.
  Proof.
    intros (Lv & Lc & Fv & Fc & Bv & Bc & Sl & Ct & Rn & Gm).
    destruct a as [|a0 a]; [exists (hv s); auto|].
    cbn [length]. destruct (Nat.ltb_spec 0 (S (length a))); [|lia].
    destruct (t_of_H ([2%Z] ++ firstn sl (hv s) ++ a0 :: a)) as (T & -> & Lt & Ft). cbn [rbind].
    eexists. split; [reflexivity|]. destruct (add_rel Lv Lt Fv Ft) as [Q1 Q2]. split; auto. rewrite Q2.
    unfold with_additional. rewrite Fv. split; [|apply Z.mod_pos_bound; unfold M; apply Z.pow_pos_nonneg; lia].
    unfold B, M. rewrite be_bytes_mod. reflexivity.
  Qed.

  Lemma h_generate_rel gm s t n o a : hrel gm s t n ->
    let sgen := (if gm then gm_generate H h else hash_generate H h) t n o a in
    if (2 ^ 48 <? n)%Z then h_generate H s o a = Err
    else exists s', h_generate H s o a = Ok (fst sgen, s') /\ hrel gm s' (snd sgen) (n + 1).
  Proof.
    intros HR sgen. pose proof (additional_rel a HR) as (v & Ev & Lv1 & Fv1 & Bv1).
    destruct HR as (Lv & Lc & Fv & Fc & Bv & Bc & Sl & Ct & Rn & Gm).
    unfold h_generate. rewrite Ct, Sl. change INTERVAL with (2 ^ 48)%Z. destruct (Z.ltb_spec (2 ^ 48) n) as [|Hn]; [reflexivity|].
    rewrite Ev. cbn [rbind]. set (V1 := with_additional H h (fst t) a) in *.
    destruct (t_of_H ([3%Z] ++ firstn sl v)) as (T & -> & Lt & Ft). cbn [rbind].
    pose proof sl_bounds as SB.
    assert (Lsp : length (splice (sl - 8) (be_bytes 8 n) (zeros MAXS)) = 111 /\ be_val (firstn sl (splice (sl - 8) (be_bytes 8 n) (zeros MAXS))) = n).
    { pose proof (@t_val (be_bytes 8 n)) as Q. rewrite be_bytes_length in Q. destruct Q as [Q1 Q2]; [lia|]. split; auto. rewrite Q1.
      rewrite be_val_lead, be_val_bytes. apply Z.mod_small. change (256 ^ Z.of_nat 8)%Z with (2 ^ 64)%Z. lia. }
    destruct (add_rel Lv1 Lt Fv1 Ft) as [A1 A2].
    assert (Fc' : be_val (firstn sl (hc s)) = snd t).
    { rewrite Fc. unfold B. rewrite be_val_bytes. apply Z.mod_small. exact Bc. }
    destruct (add_rel A1 Lc A2 Fc') as [A3 A4]. destruct (add_rel A3 (proj1 Lsp) A4 (proj2 Lsp)) as [A5 A6].
    set (V2 := drbg_add (drbg_add (drbg_add v T sl) (hc s) sl) _ sl) in *.
    eexists. split.
    - f_equal. f_equal. subst sgen. unfold hashgen. cbn [isgm seedlen hv]. rewrite Gm. destruct gm; cbn [fst].
      + unfold gm_generate. fold V1. cbn [fst]. rewrite Fv1. reflexivity.
      + unfold hash_generate. fold V1. cbn [fst]. unfold hashgen_spec.
        etransitivity; [apply (@hashgen_loop_spec V1 (length o) 0 _ [] o)|reflexivity]; auto.
        * rewrite splice_length; unfold zeros, MAXS; rewrite repeat_length; auto. rewrite firstn_length. lia.
        * rewrite splice0_full by (rewrite firstn_length; unfold zeros, MAXS; rewrite repeat_length; lia).
          rewrite firstn_app, firstn_length, Lv1. replace (sl - Nat.min sl 111) with 0 by lia. rewrite firstn_O, app_nil_r.
          rewrite firstn_firstn, Nat.min_id, Fv1. f_equal. lia.
    - assert (Es : snd sgen = hash_next H h V1 (snd t) n) by (subst sgen; destruct gm; reflexivity).
      rewrite Es. unfold hrel, hash_next. cbn [hv hc seedlen hctr isgm fst snd]. rewrite Fv1 in A6.
      split; [auto|]. split; [auto|]. split; [rewrite A6; unfold B, M; rewrite be_bytes_mod; reflexivity|]. split; [auto|].
      split; [apply Z.mod_pos_bound; unfold M; apply Z.pow_pos_nonneg; lia|]. split; [auto|]. split; [auto|].
      split; [rewrite Z.mod_small; lia|]. split; [lia|auto].
  Qed.
  Lemma h_reseed_rel gm s t n e a : hrel gm s t n ->
    if good_reseedb e a then exists s', h_reseed H s e a = Ok s' /\ hrel gm s' ((if gm then gm_reseed H h else hash_reseed H h) t e a) 1
    else h_reseed H s e a = Err.
  Proof.
    intros (Lv & Lc & Fv & Fc & Bv & Bc & Sl & Ct & Rn & Gm). unfold h_reseed. rewrite reseed_ok_good.
    destruct (good_reseedb e a); [|reflexivity]. eexists. split; [reflexivity|]. rewrite Sl, Gm, Fv.
    unfold gm_reseed, hash_reseed. destruct gm; rewrite <- app_assoc; apply h_seed_rel; auto.
  Qed.
  Lemma h_new_rel gm e n p : if new_ok e n p then exists s, h_new H h gm e n p = Ok s /\ hrel gm s (hash_instantiate H h e n p) 1
    else h_new H h gm e n p = Err.
  Proof.
    unfold h_new. destruct (new_ok e n p); auto. eexists. split; [reflexivity|]. apply h_seed_rel; apply repeat_length.
  Qed.
End Hash.
