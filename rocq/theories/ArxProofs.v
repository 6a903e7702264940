(** Proofs about Speck, Simon, LEA and Threefish. *)
From Verif Require Import Base BlockModeModel CipherLaws WordModel BlkSpec WordLib ArxModel.
Set Implicit Arguments. Unset Strict Implicit.
Local Open Scope nat_scope.
Local Notation W64 := (inw 64).
Local Notation W32 := (inw 32).

Lemma two_words w (ws : list Z) : wordsok w 2 ws -> exists a b, ws = [a; b] /\ inw w a /\ inw w b.
Proof.
  intros [L F]. destruct ws as [|a [|b [|]]]; try discriminate. exists a, b.
  inversion F as [|? ? A F1]; subst. inversion F1; subst. auto.
Qed.
Lemma four_words w (ws : list Z) : wordsok w 4 ws -> exists a b c d, ws = [a; b; c; d] /\ inw w a /\ inw w b /\ inw w c /\ inw w d.
Proof.
  intros [L F]. destruct ws as [|a [|b [|c [|d [|]]]]]; try discriminate. exists a, b, c, d.
  inversion F as [|? ? A F1]; subst. inversion F1 as [|? ? B F2]; subst. inversion F2 as [|? ? C F3]; subst. inversion F3; subst. auto.
Qed.
Lemma wordsok_2 w a b : inw w a -> inw w b -> wordsok w 2 [a; b].
Proof. intros; split; auto. Qed.
Lemma wordsok_4 w a b c d : inw w a -> inw w b -> inw w c -> inw w d -> wordsok w 4 [a; b; c; d].
Proof. intros; split; auto. Qed.
Definition pair_ok (s : Z * Z) : Prop := W64 (fst s) /\ W64 (snd s).

Lemma Forall_firstn' (A : Type) (P : A -> Prop) n l : Forall P l -> Forall P (firstn n l).
Proof. intros H. rewrite <- (firstn_skipn n l) in H. apply Forall_app in H. apply H. Qed.
Lemma Forall_skipn' (A : Type) (P : A -> Prop) n l : Forall P l -> Forall P (skipn n l).
Proof. intros H. rewrite <- (firstn_skipn n l) in H. apply Forall_app in H. apply H. Qed.
(** Speck *)
Section speck.
Variable rk : list Z.
Hypothesis RK : Forall W64 rk.
Lemma speck_rnd_ok s i : pair_ok s -> pair_ok (speck_rnd rk s i) /\ speck_unrnd rk (speck_rnd rk s i) i = s.
Proof.
  intros [A B]. destruct s as [x y]. cbn [fst snd] in *. pose proof (@nth_inw 64 rk i ltac:(lia) RK) as K. unfold speck_rnd, speck_unrnd.
  split; [split; cbn [fst snd]; words|].
  rewrite !lxor_cancel_r, rotr_rotl by words. rewrite wsub_wadd by words. rewrite rotl_rotr by words. reflexivity.
Qed.
Lemma speck_unrnd_ok s i : pair_ok s -> pair_ok (speck_unrnd rk s i).
Proof.
  intros [A B]. destruct s as [x y]. cbn [fst snd] in *. pose proof (@nth_inw 64 rk i ltac:(lia) RK) as K. unfold speck_unrnd.
  split; cbn [fst snd]; words.
Qed.
Lemma speck_lawful : lawful (word_cipher 8 2 (speck_enc rk) (speck_dec rk)).
Proof.
  apply word_lawful with 64%Z; auto; try lia; intros ws H; destruct (two_words H) as (a & b & -> & A & B).
  - unfold speck_enc. cbn [nth]. assert (P : pair_ok (fold_left (speck_rnd rk) (ups 0 (length rk) 1) (b, a))).
    { apply rounds_ok with (J := fun _ : nat => True); auto; [|split; auto|apply Forall_forall; auto]. intros s k Hs _. apply (speck_rnd_ok k Hs). }
    destruct (fold_left _ _ _) as [x y]. destruct P. apply wordsok_2; auto.
  - unfold speck_dec. cbn [nth]. assert (P : pair_ok (fold_left (speck_unrnd rk) (downs (length rk - 1) (length rk) 1) (b, a))).
    { apply rounds_ok with (J := fun _ : nat => True); auto; [|split; auto|apply Forall_forall; auto]. intros s k Hs _. apply (speck_unrnd_ok k Hs). }
    destruct (fold_left _ _ _) as [x y]. destruct P. apply wordsok_2; auto.
  - unfold speck_enc, speck_dec. cbn [nth].
    destruct (@rounds_inv _ _ pair_ok (fun _ => True) (speck_rnd rk) (speck_unrnd rk)) with (ks := ups 0 (length rk) 1) (s := (b, a)) as [P I]; auto.
    { intros s k Hs _. apply (speck_rnd_ok k Hs). }
    { split; auto. }
    { apply Forall_forall; auto. }
    destruct (fold_left _ (ups _ _ _) _) as [x y]. cbn [nth].
    rewrite (@downs_rev 0 (length rk) 1) by lia. rewrite I. reflexivity.
Qed.
End speck.
Lemma speck_expand_ok key nl n m : bytes_ok key -> length key = m * 8 -> n <= 40 -> Forall W64 (speck_expand key nl n).
Proof.
  intros O L N. unfold speck_expand. destruct (@key_words 8 m key 64 eq_refl ltac:(lia) L O) as [_ F].
  assert (H : Forall W64 (fst (fold_left (speck_ks nl) (ups 0 n 1) (firstn nl (skipn 1 (ldw 8 key)), firstn 1 (ldw 8 key)))) /\
    Forall W64 (snd (fold_left (speck_ks nl) (ups 0 n 1) (firstn nl (skipn 1 (ldw 8 key)), firstn 1 (ldw 8 key))))); [|apply H].
  apply rounds_ok with (I := fun s => Forall W64 (fst s) /\ Forall W64 (snd s)) (J := fun i => i < 40).
  - intros [l w] i [A B] Hi. cbn [fst snd] in *. unfold speck_ks.
    pose proof (@nth_inw 64 w i ltac:(lia) B). pose proof (@nth_inw 64 l i ltac:(lia) A).
    assert (I : W64 (Z.of_nat i)) by (split; [lia|]; change (2 ^ 64)%Z with 18446744073709551616%Z; lia).
    cbn [fst snd]. split; apply Forall_app; split; auto; constructor; auto; words.
  - cbn [fst snd]. split; repeat (first [apply Forall_firstn' | apply Forall_skipn']); auto.
  - apply Forall_ups. intros; lia.
Qed.

(** Simon *)
Lemma simon_f_ok x : W64 x -> W64 (simon_f x).
Proof. intros. unfold simon_f. words. Qed.
Definition half (s : Z * Z) (k : Z) : Z * Z := (Z.lxor (Z.lxor (snd s) (simon_f (fst s))) k, fst s).
Definition swp (s : Z * Z) : Z * Z := (snd s, fst s).
Lemma simon_two_half s k1 k2 : simon_two s k1 k2 = half (half s k1) k2.
Proof. destruct s. reflexivity. Qed.
Lemma half_ok s k : W64 k -> pair_ok s -> pair_ok (half s k).
Proof. intros K [A B]. destruct s as [x y]; cbn [fst snd] in *. unfold half. split; cbn [fst snd]; auto 8 using simon_f_ok with words. Qed.
Lemma half_inv s k : half (swp (half s k)) k = swp s.
Proof.
  destruct s as [x y]. unfold half, swp. cbn [fst snd]. f_equal.
  rewrite (Z.lxor_assoc _ k (simon_f x)), (Z.lxor_comm k), <- Z.lxor_assoc, lxor_cancel_r. apply lxor_cancel_r.
Qed.
Section simon.
Variable rk : list Z.
Hypothesis RK : Forall W64 rk.
Definition halves (l : list nat) (s : Z * Z) : Z * Z := fold_left (fun s i => half s rk.[i]) l s.
Lemma halves_app a b s : halves (a ++ b) s = halves b (halves a s).
Proof. apply fold_left_app. Qed.
Lemma halves_ok l s : pair_ok s -> pair_ok (halves l s).
Proof.
  intros H. unfold halves. apply rounds_ok with (J := fun _ : nat => True); auto; [|apply Forall_forall; auto]. intros s' k Hs _. apply half_ok; auto.
  apply nth_inw; auto. lia.
Qed.
Lemma halves_back l s : halves (rev l) (swp (halves l s)) = swp s.
Proof.
  revert s. induction l as [|i l IH]; intros s; [reflexivity|]. cbn [rev]. rewrite halves_app.
  change (halves (i :: l) s) with (halves l (half s rk.[i])). rewrite IH. apply half_inv.
Qed.
Lemma up_halves l s : fold_left (simon_up rk) l s = halves (flat_map (fun i => [i; i + 1]) l) s.
Proof. revert s. induction l as [|i l IH]; intros s; [reflexivity|]. cbn [fold_left flat_map]. rewrite halves_app, IH. unfold simon_up at 1. rewrite simon_two_half. reflexivity. Qed.
Lemma down_halves l s : fold_left (simon_down rk) l s = halves (flat_map (fun i => [i; i - 1]) l) s.
Proof. revert s. induction l as [|i l IH]; intros s; [reflexivity|]. cbn [fold_left flat_map]. rewrite halves_app, IH. unfold simon_down at 1. rewrite simon_two_half. reflexivity. Qed.
Lemma simon_lawful_by E D l :
  (forall a b, E [a; b] = let s := halves l (b, a) in [snd s; fst s]) ->
  (forall a b, D [a; b] = let s := halves (rev l) (a, b) in [fst s; snd s]) ->
  lawful (word_cipher 8 2 E D).
Proof.
  intros HE HD. apply word_lawful with 64%Z; auto; try lia; intros ws H; destruct (two_words H) as (a & b & -> & A & B).
  - rewrite HE. pose proof (@halves_ok l (b, a) ltac:(split; auto)) as [P Q]. apply wordsok_2; auto.
  - rewrite HD. pose proof (@halves_ok (rev l) (a, b) ltac:(split; auto)) as [P Q]. apply wordsok_2; auto.
  - rewrite HE. cbn zeta. pose proof (halves_back l (b, a)) as I. unfold swp in I. cbn [fst snd] in I.
    rewrite HD. cbn zeta. rewrite I. reflexivity.
Qed.
Lemma simon_lawful n : In n [34; 36] -> lawful (word_cipher 8 2 (simon_enc n rk) (simon_dec n rk)).
Proof.
  intros N. apply simon_lawful_by with (l := seq 0 (2 * n)); intros a b.
  - unfold simon_enc. cbn [nth]. rewrite up_halves. replace (flat_map _ _) with (seq 0 (2 * n)) by (destruct N as [<-|[<-|[]]]; reflexivity).
    cbn zeta. destruct (halves _ _). reflexivity.
  - unfold simon_dec. cbn [nth]. rewrite down_halves. replace (flat_map _ _) with (rev (seq 0 (2 * n))) by (destruct N as [<-|[<-|[]]]; reflexivity).
    cbn zeta. destruct (halves _ _). reflexivity.
Qed.
Lemma simon_lawful192 : lawful (word_cipher 8 2 (simon_enc192 rk) (simon_dec192 rk)).
Proof.
  apply simon_lawful_by with (l := seq 0 69); intros a b.
  - unfold simon_enc192. cbn [nth]. rewrite up_halves. replace (seq 0 69) with (flat_map (fun i => [i; i + 1]) (ups 0 34 2) ++ [68]) by reflexivity.
    rewrite halves_app. cbn zeta. destruct (halves _ (b, a)). reflexivity.
  - unfold simon_dec192. cbn [nth]. rewrite down_halves. replace (rev (seq 0 69)) with (flat_map (fun i => [i; i - 1]) (downs 68 34 2) ++ [0]) by reflexivity.
    rewrite halves_app. cbn zeta. destruct (halves _ (a, b)). reflexivity.
Qed.
End simon.
Lemma simon_k_ok a b z : W64 a -> W64 b -> W64 z -> W64 (simon_k a b z).
Proof. intros. unfold simon_k. assert (W64 0xfffffffffffffffc) by (split; [discriminate|reflexivity]). words. Qed.
Lemma simon_k256_ok a b c z : W64 a -> W64 b -> W64 c -> W64 z -> W64 (simon_k256 a b c z).
Proof. intros. unfold simon_k256. assert (W64 0xfffffffffffffffc) by (split; [discriminate|reflexivity]). words. Qed.
Lemma simon_exp_ok m zs ws : Forall W64 zs -> Forall W64 ws -> Forall W64 (fold_left (simon_ext m) zs ws).
Proof.
  intros Z0 F. apply rounds_ok with (J := W64); auto. intros s k H K. unfold simon_ext. apply Forall_app. split; auto. constructor; auto.
  apply simon_k_ok; auto; apply nth_inw; auto; lia.
Qed.
Lemma simon_exp256_ok zs ws : Forall W64 zs -> Forall W64 ws -> Forall W64 (fold_left simon_ext256 zs ws).
Proof.
  intros Z0 F. apply rounds_ok with (J := W64); auto. intros s k H K. unfold simon_ext256. apply Forall_app. split; auto. constructor; auto.
  apply simon_k256_ok; auto; apply nth_inw; auto; lia.
Qed.

(** LEA *)
Definition lea_row_ok (r : list Z) : Prop := Forall W32 r.
Lemma lea_round_ok x rk : wordsok 32 4 x -> lea_row_ok rk -> wordsok 32 4 (lea_enc_round x rk) /\ lea_dec_round (lea_enc_round x rk) rk = x.
Proof.
  intros H R. destruct (four_words H) as (a & b & c & d & -> & A & B & C & D).
  assert (K : forall i, W32 rk.[i]) by (intros; apply nth_inw; auto; lia).
  unfold lea_enc_round, lea_dec_round. cbn [nth]. split; [apply wordsok_4; words|].
  rewrite rotr_rotl by words. rewrite wsub_wadd_l by words. rewrite lxor_cancel_r.
  rewrite rotl_rotr by words. rewrite wsub_wadd_l by words. rewrite lxor_cancel_r.
  rewrite rotl_rotr by words. rewrite wsub_wadd_l by words. rewrite lxor_cancel_r. reflexivity.
Qed.
Lemma lea_dec_ok x rk : wordsok 32 4 x -> lea_row_ok rk -> wordsok 32 4 (lea_dec_round x rk).
Proof.
  intros H R. destruct (four_words H) as (a & b & c & d & -> & A & B & C & D).
  assert (K : forall i, W32 rk.[i]) by (intros; apply nth_inw; auto; lia).
  unfold lea_dec_round. cbn [nth]. apply wordsok_4; words.
Qed.
Lemma lea_lawful rks : Forall lea_row_ok rks -> lawful (lea_cph (rks, rev rks)).
Proof.
  intros R. unfold lea_cph. cbn [fst snd]. apply word_lawful with 32%Z; auto; try lia; intros ws H.
  - apply rounds_ok with (J := lea_row_ok); auto. intros; apply lea_round_ok; auto.
  - apply rounds_ok with (J := lea_row_ok); auto; [intros; apply lea_dec_ok; auto|apply Forall_rev; auto].
  - apply (@rounds_inv _ _ (wordsok 32 4) lea_row_ok); auto. intros; apply lea_round_ok; auto.
Qed.
Lemma lea_t_ok d i T a : Forall W32 T -> Forall W32 (lea_t d i T a).
Proof.
  intros F. destruct a as [j [c r]]. unfold lea_t. apply upd_Forall; auto. apply inw_rotl; [lia|]. apply inw_add. lia.
Qed.
Lemma lea_ts_ok d i l T : Forall W32 T -> Forall W32 (fold_left (lea_t d i) l T).
Proof. revert T. induction l; intros T F; cbn [fold_left]; auto. apply IHl. apply lea_t_ok; auto. Qed.
Lemma lea_rows_ok klen l st : Forall W32 (fst st) /\ Forall lea_row_ok (snd st) ->
  Forall W32 (fst (fold_left (lea_row klen) l st)) /\ Forall lea_row_ok (snd (fold_left (lea_row klen) l st)).
Proof.
  intros H. apply rounds_ok with (I := fun st => Forall W32 (fst st) /\ Forall lea_row_ok (snd st)) (J := fun _ : nat => True); auto; [|apply Forall_forall; auto].
  clear. intros [T RK] i [A B] _. cbn [fst snd] in A, B.
  assert (G : forall (T' : list Z) (is : list nat), Forall W32 T' -> 
     Forall W32 T' /\ Forall lea_row_ok (RK ++ [map (fun i => T'.[i]) is])).
  { intros T' is F. split; auto. apply Forall_app. split; auto. constructor; auto. unfold lea_row_ok. rewrite Forall_map.
    apply Forall_forall. intros. apply nth_inw; auto. lia. }
  unfold lea_row. do 16 (destruct klen as [|klen]; [cbn [fst snd]; exact (G _ [_; _; _; _; _; _] (lea_ts_ok _ _ _ A))|]).
  destruct klen as [|klen]; [cbn [fst snd]; exact (G _ [_; _; _; _; _; _] (lea_ts_ok _ _ _ A))|].
  do 7 (destruct klen as [|klen]; [cbn [fst snd]; exact (G _ [_; _; _; _; _; _] (lea_ts_ok _ _ _ A))|]).
  destruct klen as [|klen]; cbn [fst snd]; exact (G _ [_; _; _; _; _; _] (lea_ts_ok _ _ _ A)).
Qed.
Lemma lea_key_ok key m : bytes_ok key -> length key = m * 4 -> Forall lea_row_ok (lea_round_key key true).
Proof.
  intros O L. destruct (@key_words 4 m key 32 eq_refl ltac:(lia) L O) as [_ F]. unfold lea_round_key. apply lea_rows_ok. cbn [fst snd]. auto.
Qed.

(** Threefish *)
Lemma tf_mix_ok ns : forall ws, Forall W64 ws -> length (tf_mix ns ws) = length ws /\ Forall W64 (tf_mix ns ws) /\ tf_unmix ns (tf_mix ns ws) = ws.
Proof.
  induction ns as [|n ns IH]; intros ws F; [cbn; auto|]. destruct ws as [|a [|b ws]]; [cbn; auto|cbn; auto|].
  inversion F as [|? ? A F1]; subst. inversion F1 as [|? ? B F2]; subst. destruct (IH ws F2) as (L & G & I).
  cbn [tf_mix tf_unmix length]. rewrite L, I. split; [reflexivity|]. split; [repeat (apply Forall_cons; [solve [words]|]); auto|].
  rewrite lxor_cancel_r. rewrite rotr_rotl by words. rewrite wsub_wadd by words. reflexivity.
Qed.
Lemma tf_unmix_ok ns : forall ws, Forall W64 ws -> length (tf_unmix ns ws) = length ws /\ Forall W64 (tf_unmix ns ws).
Proof.
  induction ns as [|n ns IH]; intros ws F; [cbn; auto|]. destruct ws as [|a [|b ws]]; [cbn; auto|cbn; auto|].
  inversion F as [|? ? A F1]; subst. inversion F1 as [|? ? B F2]; subst. destruct (IH ws F2) as (L & G).
  cbn [tf_unmix length]. rewrite L. split; [reflexivity|]. repeat (apply Forall_cons; [solve [words]|]); auto.
Qed.
Lemma zipw_len f a b : length (zipw f a b) = Nat.min (length a) (length b).
Proof. revert b. induction a; intros [|]; cbn; auto. Qed.
Lemma zipw_Forall (P : Z -> Prop) f a b : (forall x y, P (f x y)) -> Forall P (zipw f a b).
Proof. intros H. revert b. induction a; intros [|]; cbn; constructor; auto. Qed.
Lemma tf_sub_add k ws : length ws <= length k -> Forall W64 ws -> tf_sub k (tf_add k ws) = ws.
Proof.
  unfold tf_sub, tf_add. revert ws. induction k as [|y k IH]; intros [|x ws] L F; cbn [zipw length] in *; auto; [lia|].
  inversion F; subst. rewrite wsub_wadd by words. rewrite IH; auto. lia.
Qed.
Definition tf_good (p : tf_params) : Prop :=
  length (tf_p p) = tf_words p /\ length (tf_q p) = tf_words p /\ tf_drows p = map (@rev Z) (rev (tf_rows p)) /\ length (tf_rows p) = 8 /\
  0 < tf_words p /\ 0 < tf_iter p /\
  (forall ws, length ws = tf_words p -> tf_perm (tf_q p) (tf_perm (tf_p p) ws) = ws).
Lemma tf_good_all p : In p [tf256; tf512; tf1024] -> tf_good p.
Proof.
  intros [<-|[<-|[<-|[]]]]; (split; [|split; [|split; [|split; [|split; [|split]]]]]); try reflexivity; try (cbn; lia).
  - intros ws L. do 4 (destruct ws as [|? ws]; [discriminate|]). destruct ws; [reflexivity|discriminate].
  - intros ws L. do 8 (destruct ws as [|? ws]; [discriminate|]). destruct ws; [reflexivity|discriminate].
  - intros ws L. do 16 (destruct ws as [|? ws]; [discriminate|]). destruct ws; [reflexivity|discriminate].
Qed.
Section tf.
Variables (p : tf_params) (ks : list (list Z)).
Hypothesis G : tf_good p.
Hypothesis KS : forall i, i <= 2 * tf_iter p -> length (nth i ks []) = tf_words p.
Local Notation OKs := (wordsok 64 (tf_words p)).
Lemma tf_perm_ok q ws : length q = tf_words p -> OKs ws -> OKs (tf_perm q ws).
Proof. intros L [A B]. unfold tf_perm. split; [rewrite map_length; auto|]. rewrite Forall_map. apply Forall_forall. intros. apply nth_inw; auto. lia. Qed.
Lemma tf_g_ok ns ws : OKs ws -> OKs (tf_g p ws ns) /\ tf_d p (tf_g p ws ns) (rev ns) = ws.
Proof.
  intros [L F]. destruct G as (P1 & P2 & _ & _ & _ & _ & P). destruct (tf_mix_ok ns F) as (M1 & M2 & M3).
  unfold tf_g, tf_d. split; [apply tf_perm_ok; auto; split; congruence|].
  rewrite P by congruence. rewrite rev_involutive. exact M3.
Qed.
Lemma tf_d_ok ns ws : OKs ws -> OKs (tf_d p ws ns).
Proof.
  intros H. destruct G as (_ & P2 & _). unfold tf_d. destruct (tf_perm_ok P2 H) as [A B]. destruct (tf_unmix_ok (rev ns) B). split; congruence.
Qed.
Lemma tf_gs_ok rows ws : OKs ws -> OKs (fold_left (tf_g p) rows ws) /\ fold_left (tf_d p) (map (@rev Z) (rev rows)) (fold_left (tf_g p) rows ws) = ws.
Proof.
  intros H. rewrite fold_left_map. apply (@rounds_inv _ _ (fun ws => OKs ws) (fun _ => True)); auto; [|apply Forall_forall; auto].
  intros; apply tf_g_ok; auto.
Qed.
Lemma tf_ds_ok rows ws : OKs ws -> OKs (fold_left (tf_d p) rows ws).
Proof. intros H. apply rounds_ok with (J := fun _ : list Z => True); auto; [|apply Forall_forall; auto]. intros; apply tf_d_ok; auto. Qed.
Lemma tf_addk_ok i ws : i <= 2 * tf_iter p -> OKs ws -> OKs (tf_add (nth i ks []) ws) /\ tf_sub (nth i ks []) (tf_add (nth i ks []) ws) = ws.
Proof.
  intros I [L F]. specialize (KS I). split; [split; [unfold tf_add; rewrite zipw_len; lia|apply zipw_Forall; intros; apply inw_add; lia]|].
  apply tf_sub_add; auto. lia.
Qed.
Lemma tf_subk_ok i ws : i <= 2 * tf_iter p -> OKs ws -> OKs (tf_sub (nth i ks []) ws).
Proof.
  intros I [L F]. specialize (KS I). split; [unfold tf_sub; rewrite zipw_len; lia|apply zipw_Forall; intros; apply inw_sub; lia].
Qed.
Lemma tf_up_ok j ws : j < tf_iter p -> OKs ws -> OKs (tf_up p ks ws j) /\ tf_down p ks (tf_up p ks ws j) j = ws.
Proof.
  intros J H. unfold tf_up, tf_down. destruct G as (_ & _ & R & R8 & _).
  destruct (@tf_addk_ok (2 * j) ws ltac:(lia) H) as [A1 B1]. set (w1 := tf_add _ ws) in *.
  destruct (tf_gs_ok (firstn 4 (tf_rows p)) A1) as [A2 B2]. set (w2 := fold_left _ _ w1) in *.
  destruct (@tf_addk_ok (2 * j + 1) w2 ltac:(lia) A2) as [A3 B3]. set (w3 := tf_add _ w2) in *.
  destruct (tf_gs_ok (skipn 4 (tf_rows p)) A3) as [A4 B4]. split; auto.
  rewrite R. rewrite firstn_map, skipn_map.
  replace (firstn 4 (rev (tf_rows p))) with (rev (skipn 4 (tf_rows p))) by (rewrite firstn_rev, R8; reflexivity).
  replace (skipn 4 (rev (tf_rows p))) with (rev (firstn 4 (tf_rows p))) by (rewrite skipn_rev, R8; reflexivity).
  rewrite B4, B3, B2. exact B1.
Qed.
Lemma tf_down_ok j ws : j < tf_iter p -> OKs ws -> OKs (tf_down p ks ws j).
Proof. intros J H. unfold tf_down. apply tf_subk_ok; [lia|]. apply tf_ds_ok. apply tf_subk_ok; [lia|]. apply tf_ds_ok. auto. Qed.
Lemma tf_enc_ok ws : OKs ws -> OKs (tf_enc p ks ws) /\ tf_dec p ks (tf_enc p ks ws) = ws.
Proof.
  intros H. unfold tf_enc, tf_dec. destruct G as (_ & _ & _ & _ & _ & IT & _).
  destruct (@rounds_inv _ _ (fun ws => OKs ws) (fun j => j < tf_iter p) (tf_up p ks) (tf_down p ks)) with (ks := ups 0 (tf_iter p) 1) (s := ws) as [A B]; auto.
  { intros; apply tf_up_ok; auto. }
  { apply Forall_ups. intros; lia. }
  destruct (@tf_addk_ok (2 * tf_iter p) _ ltac:(lia) A) as [C D]. split; auto. rewrite D.
  rewrite (@downs_rev 0 (tf_iter p) 1) by lia. exact B.
Qed.
Lemma tf_dec_ok ws : OKs ws -> OKs (tf_dec p ks ws).
Proof.
  intros H. unfold tf_dec. destruct G as (_ & _ & _ & _ & _ & IT & _). apply rounds_ok with (J := fun j => j < tf_iter p).
  - intros; apply tf_down_ok; auto.
  - apply tf_subk_ok; auto.
  - rewrite (@downs_rev 0 (tf_iter p) 1) by lia. apply Forall_rev. apply Forall_ups. intros; lia.
Qed.
Lemma tf_lawful : lawful (word_cipher 8 (tf_words p) (tf_enc p ks) (tf_dec p ks)).
Proof.
  destruct G as (_ & _ & _ & _ & W & _). apply word_lawful with 64%Z; auto; try lia; intros.
  - apply tf_enc_ok; auto.
  - apply tf_dec_ok; auto.
  - apply tf_enc_ok; auto.
Qed.
End tf.
Lemma tf_expand_ok p key tweak i : i <= 2 * tf_iter p -> length (nth i (tf_expand p key tweak) []) = tf_words p.
Proof.
  intros I. unfold tf_expand. erewrite nth_indep with (d' := tf_ks_row (tf_words p) _ _ 0) by (rewrite map_length, seq_length; lia).
  rewrite map_nth. unfold tf_ks_row. rewrite map_length, seq_length. reflexivity.
Qed.
