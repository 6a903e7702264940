(** Lemmas about the padding model. *)
From Verif Require Import Base PaddingModel.
Open Scope Z_scope.

Ltac zdm := Z.div_mod_to_equations.

Lemma zlen_nonneg {A} (l : list A) : 0 <= zlen l.
Proof. unfold zlen. lia. Qed.
Lemma zlen_app {A} (a b : list A) : zlen (a ++ b) = zlen a + zlen b.
Proof. unfold zlen. rewrite app_length. lia. Qed.
Lemma zlen_repeat {A} (x : A) n : zlen (repeat x n) = Z.of_nat n.
Proof. unfold zlen. now rewrite repeat_length. Qed.

Lemma pad_count_range text bs : 1 <= bs -> 1 <= pad_count text bs <= bs.
Proof.
  intro H. unfold pad_count. pose proof (Z.mod_pos_bound (zlen text) bs). lia.
Qed.

Lemma pad_count_mult text bs : 1 <= bs -> (bs | zlen text + pad_count text bs).
Proof.
  intro H. unfold pad_count. exists (zlen text / bs + 1).
  pose proof (Z.div_mod (zlen text) bs). lia.
Qed.

Lemma last_byte_app (a : bytes) b : last_byte (a ++ [b]) = b.
Proof. unfold last_byte. apply last_last. Qed.

Lemma repeat_snoc {A} (x : A) n : repeat x (S n) = repeat x n ++ [x].
Proof. induction n; cbn [repeat app] in *; [reflexivity|]. now rewrite <- IHn. Qed.

Lemma last_byte_repeat (a : bytes) b n :
  (0 < n)%nat -> last_byte (a ++ repeat b n) = b.
Proof.
  intro H. destruct n as [|n]; [lia|].
  rewrite repeat_snoc, app_assoc. apply last_byte_app.
Qed.

Lemma forallb_repeat (f : Z -> bool) b n : f b = true -> forallb f (repeat b n) = true.
Proof. intro H. induction n; cbn; auto. now rewrite H, IHn. Qed.

Lemma app_nonnil {A} (a b : list A) : b <> [] -> a ++ b <> [].
Proof. destruct a; cbn; congruence. Qed.

Lemma match_nonnil {A B} (l : list A) (e f : B) :
  l <> [] -> match l with [] => e | _ :: _ => f end = f.
Proof. destruct l; congruence. Qed.

Lemma repeat_nonnil {A} (x : A) n : (0 < n)%nat -> repeat x n <> [].
Proof. destruct n; cbn; [lia|congruence]. Qed.

(** PKCS7 *)
Lemma pkcs7_pad_eq text bs : 1 <= bs ->
  pkcs7_pad text bs =
  text ++ repeat (to_byte (pad_count text bs)) (Z.to_nat (pad_count text bs)).
Proof. intro H. unfold pkcs7_pad. destruct (Z.ltb_spec bs 1); [lia|reflexivity]. Qed.

Lemma pkcs7_unpad_shape x k :
  0 < k <= 255 -> pkcs7_unpad (x ++ repeat k (Z.to_nat k)) = Ok x.
Proof.
  intros Hk. unfold pkcs7_unpad.
  rewrite match_nonnil by (apply app_nonnil, repeat_nonnil; lia).
  rewrite last_byte_repeat by lia.
  rewrite zlen_app, zlen_repeat.
  replace (zlen x + Z.of_nat (Z.to_nat k) - k) with (zlen x) by lia.
  pose proof (zlen_nonneg x).
  destruct (Z.ltb_spec (zlen x) 0); [lia|].
  unfold zlen. rewrite Nat2Z.id.
  rewrite skipn_app_exact, firstn_app_exact by reflexivity.
  rewrite firstn_all2 by (rewrite repeat_length; lia).
  rewrite forallb_repeat; [reflexivity|].
  unfold to_byte. rewrite Z.mod_small by lia. apply Z.eqb_refl.
Qed.

Lemma pkcs7_roundtrip text bs :
  1 <= bs <= 255 -> pkcs7_unpad (pkcs7_pad text bs) = Ok text.
Proof.
  intro H. rewrite pkcs7_pad_eq by lia.
  pose proof (pad_count_range text bs ltac:(lia)) as Hr.
  unfold to_byte. rewrite Z.mod_small by lia.
  apply pkcs7_unpad_shape. lia.
Qed.

Lemma pkcs7_pad_len text bs :
  1 <= bs ->
  zlen (pkcs7_pad text bs) = zlen text + pad_count text bs.
Proof.
  intro H. rewrite pkcs7_pad_eq, zlen_app, zlen_repeat by auto.
  pose proof (pad_count_range text bs H). lia.
Qed.

Lemma last_byte_ok src : bytes_ok src -> is_byte (last_byte src).
Proof.
  unfold last_byte. intro H. induction src as [|x s IH]; [cbn; unfold is_byte; lia|].
  inversion H; subst. destruct s; cbn; auto.
Qed.

Lemma forallb_eq_repeat (c : Z) l :
  forallb (fun b => b =? c) l = true <-> l = repeat c (length l).
Proof.
  induction l as [|x l IH]; cbn; [tauto|].
  rewrite andb_true_iff, Z.eqb_eq, IH. split.
  - intros [-> H]. congruence.
  - intro H. injection H as H1 H2. auto.
Qed.

Lemma pkcs7_unpad_iff src x :
  bytes_ok src ->
  (pkcs7_unpad src = Ok x <->
   src <> [] /\
   src = x ++ repeat (last_byte src) (Z.to_nat (last_byte src))).
Proof.
  intro Hok. pose proof (last_byte_ok _ Hok) as Hl. unfold is_byte in Hl.
  destruct src as [|s0 src']; [cbn; split; [discriminate|intros [H _]; congruence]|].
  unfold pkcs7_unpad. set (src := s0 :: src') in *.
  set (u := last_byte src) in *.
  pose proof (zlen_nonneg src).
  destruct (Z.ltb_spec (zlen src - u) 0) as [Hneg|Hpos].
  - split; [discriminate|]. intros [_ H1]. exfalso.
    apply (f_equal (@length Z)) in H1. rewrite app_length, repeat_length in H1.
    unfold zlen in Hneg. lia.
  - unfold to_byte. rewrite Z.mod_small by lia.
    assert (Hlen : length (firstn (Z.to_nat u) (skipn (Z.to_nat (zlen src - u)) src))
                   = Z.to_nat u).
    { rewrite firstn_length, skipn_length. unfold zlen in *. lia. }
    assert (Hfull : firstn (Z.to_nat u) (skipn (Z.to_nat (zlen src - u)) src)
                    = skipn (Z.to_nat (zlen src - u)) src).
    { apply firstn_all2. rewrite skipn_length. unfold zlen in *. lia. }
    destruct (forallb _ _) eqn:E.
    + apply forallb_eq_repeat in E. rewrite Hlen, Hfull in E.
      split; intro Hx.
      * injection Hx as <-. split; [discriminate|].
        rewrite <- E. symmetry. apply firstn_skipn.
      * destruct Hx as [_ Hx]. f_equal. rewrite Hx.
        assert (HL : length src = (length x + Z.to_nat u)%nat).
        { rewrite Hx at 1. now rewrite app_length, repeat_length. }
        apply firstn_app_exact. rewrite <- Hx. unfold zlen. lia.
    + split; [discriminate|]. intros [_ Hx]. exfalso.
      assert (HL : length src = (length x + Z.to_nat u)%nat).
      { rewrite Hx at 1. now rewrite app_length, repeat_length. }
      rewrite Hfull in E. rewrite Hx in E.
      rewrite skipn_app_exact in E by (rewrite <- Hx; unfold zlen; lia).
      rewrite forallb_repeat in E; [discriminate|]. apply Z.eqb_refl.
Qed.

(** PKCS5 *)
Lemma pkcs5_roundtrip text bs : pkcs5_unpad (pkcs5_pad text bs) = Ok text.
Proof.
  unfold pkcs5_pad.
  pose proof (pad_count_range text 8 ltac:(lia)) as Hr.
  set (k := pad_count text 8) in *.
  unfold to_byte. rewrite Z.mod_small by lia.
  pose proof (pkcs7_unpad_shape text k ltac:(lia)) as H.
  unfold pkcs7_unpad in H. unfold pkcs5_unpad.
  rewrite match_nonnil in * by (apply app_nonnil, repeat_nonnil; lia).
  rewrite last_byte_repeat in * by lia.
  destruct (_ <? 0); [discriminate|].
  destruct (Z.ltb_spec 8 k); [lia|]. exact H.
Qed.

Lemma pkcs5_unpad_iff src x :
  bytes_ok src ->
  (pkcs5_unpad src = Ok x <->
   src <> [] /\ last_byte src <= 8 /\
   src = x ++ repeat (last_byte src) (Z.to_nat (last_byte src))).
Proof.
  intro Hok. pose proof (pkcs7_unpad_iff src x Hok) as H.
  destruct src as [|s0 src']; [cbn; split; [discriminate|intros [Hn _]; congruence]|].
  unfold pkcs7_unpad in H. unfold pkcs5_unpad. set (src := s0 :: src') in *.
  destruct (Z.ltb_spec 8 (last_byte src)).
  - rewrite orb_true_r. split; [discriminate|]. intros [_ [Hc _]]. lia.
  - rewrite orb_false_r. rewrite H. tauto.
Qed.

Lemma pkcs5_pad_len text bs : (8 | zlen (pkcs5_pad text bs)).
Proof.
  unfold pkcs5_pad. rewrite zlen_app, zlen_repeat.
  pose proof (pad_count_range text 8 ltac:(lia)).
  rewrite Z2Nat.id by lia. apply pad_count_mult. lia.
Qed.

(** X923 *)
Lemma x923_pad_eq text bs : 1 <= bs ->
  x923_pad text bs =
  text ++ repeat 0 (Z.to_nat (pad_count text bs - 1)) ++ [to_byte (pad_count text bs)].
Proof.
  intro H. unfold x923_pad. destruct (Z.ltb_spec bs 1); [lia|].
  pose proof (pad_count_range text bs H) as Hr.
  set (k := pad_count text bs) in *.
  replace (Z.to_nat k) with (S (Z.to_nat (k - 1))) by lia.
  rewrite repeat_snoc, app_assoc.
  unfold splice.
  rewrite app_length. cbn [length].
  replace (_ + 1 - 1)%nat with (length (text ++ repeat 0 (Z.to_nat (k - 1)))) by lia.
  rewrite firstn_app_exact by reflexivity.
  rewrite skipn_all2 by (rewrite app_length; cbn [length]; lia).
  now rewrite app_nil_r, <- app_assoc.
Qed.

Lemma x923_roundtrip text bs :
  1 <= bs <= 255 -> x923_unpad (x923_pad text bs) = Ok text.
Proof.
  intro H. rewrite x923_pad_eq by lia.
  pose proof (pad_count_range text bs ltac:(lia)) as Hr.
  set (k := pad_count text bs) in *.
  unfold to_byte. rewrite Z.mod_small by lia.
  unfold x923_unpad.
  rewrite match_nonnil by (apply app_nonnil, app_nonnil; discriminate).
  rewrite (app_assoc text), last_byte_app, <- app_assoc.
  rewrite !zlen_app, zlen_repeat. change (zlen [k]) with 1.
  replace (zlen text + (Z.of_nat (Z.to_nat (k - 1)) + 1) - k) with (zlen text) by lia.
  pose proof (zlen_nonneg text).
  destruct (Z.ltb_spec (zlen text) 0); [lia|].
  unfold zlen. rewrite Nat2Z.id.
  rewrite skipn_app_exact by reflexivity.
  rewrite (@firstn_app_exact _ (length text) text) by reflexivity.
  rewrite firstn_app_exact by apply repeat_length.
  rewrite forallb_repeat; reflexivity.
Qed.

Lemma x923_pad_len text bs : 1 <= bs -> zlen (x923_pad text bs) = zlen text + pad_count text bs.
Proof.
  intro H. rewrite x923_pad_eq by auto. rewrite !zlen_app, zlen_repeat.
  change (zlen [_]) with 1. pose proof (pad_count_range text bs H). lia.
Qed.

Lemma x923_unpad_iff src x :
  bytes_ok src ->
  (x923_unpad src = Ok x <->
   (src <> [] /\ last_byte src = 0 /\ x = src) \/
   (exists k, 1 <= k <= 255 /\ src = x ++ repeat 0 (Z.to_nat (k - 1)) ++ [k])).
Proof.
  intro Hok. pose proof (last_byte_ok _ Hok) as Hl. unfold is_byte in Hl.
  destruct (list_eq_dec Z.eq_dec src []) as [->|Hne].
  { cbn. split; [discriminate|]. intros [[Hn _]|[k [_ Hk]]]; [congruence|].
    apply (f_equal (@length Z)) in Hk. rewrite !app_length in Hk. cbn in Hk. lia. }
  unfold x923_unpad. rewrite match_nonnil by auto.
  pose proof (app_removelast_last 0 Hne) as Hsplit. fold (last_byte src) in Hsplit.
  set (u := last_byte src) in *. set (r := removelast src) in *.
  assert (HL : zlen src = zlen r + 1).
  { rewrite Hsplit, zlen_app. reflexivity. }
  pose proof (zlen_nonneg r).
  destruct (Z.ltb_spec (zlen src - u) 0) as [Hneg|Hpos].
  - split; [discriminate|]. intros [[_ [H1 ->]]|[k [Hk Hs]]]; exfalso; [lia|].
    assert (u = k). { unfold u. rewrite Hs, app_assoc. apply last_byte_app. }
    assert (Hl2 := f_equal (@zlen Z) Hs). rewrite !zlen_app, zlen_repeat in Hl2.
    change (zlen [k]) with 1 in Hl2. pose proof (zlen_nonneg x). lia.
  - destruct (Z.eq_dec u 0) as [Hu0|Hu0].
    + rewrite Hu0. cbn [Z.sub Z.opp Z.add Z.to_nat firstn forallb].
      change (Z.to_nat (0 - 1)) with O. cbn [firstn forallb].
      rewrite Z.sub_0_r. unfold zlen. rewrite Nat2Z.id, firstn_all.
      split.
      * intro E. injection E as <-. left. auto.
      * intros [[_ [_ ->]]|[k [Hk Hs]]]; [reflexivity|].
        assert (u = k). { unfold u. rewrite Hs, app_assoc. apply last_byte_app. }
        lia.
    + assert (Hrest : skipn (Z.to_nat (zlen src - u)) src
                      = skipn (Z.to_nat (zlen src - u)) r ++ [u]).
      { rewrite Hsplit at 2. rewrite skipn_app.
        replace (_ - length r)%nat with O by (unfold zlen in *; lia). reflexivity. }
      assert (Hfirst : firstn (Z.to_nat (zlen src - u)) src
                      = firstn (Z.to_nat (zlen src - u)) r).
      { rewrite Hsplit at 2. rewrite firstn_app.
        replace (_ - length r)%nat with O by (unfold zlen in *; lia).
        apply app_nil_r. }
      assert (HLs : length (skipn (Z.to_nat (zlen src - u)) r) = Z.to_nat (u - 1)).
      { rewrite skipn_length. unfold zlen in *. lia. }
      rewrite Hrest, firstn_app_exact by auto.
      destruct (forallb _ _) eqn:E.
      * apply forallb_eq_repeat in E. rewrite HLs in E.
        split.
        -- intro Hx. injection Hx as <-. right. exists u. split; [lia|].
           rewrite Hfirst, <- E, app_assoc, firstn_skipn. exact Hsplit.
        -- intros [[_ [H1 _]]|[k [Hk Hs]]]; [lia|].
           assert (u = k). { unfold u. rewrite Hs, app_assoc. apply last_byte_app. }
           subst k. f_equal. rewrite Hs.
           apply firstn_app_exact.
           assert (Hl2 := f_equal (@length Z) Hs). rewrite !app_length, repeat_length in Hl2.
           cbn [length] in Hl2. unfold zlen. rewrite <- Hs. lia.
      * split; [discriminate|].
        intros [[_ [H1 _]]|[k [Hk Hs]]]; [lia|].
        assert (u = k). { unfold u. rewrite Hs, app_assoc. apply last_byte_app. }
        subst k. exfalso.
        rewrite app_assoc in Hs. rewrite Hs in Hsplit.
        apply app_inj_tail in Hsplit as [Hr _].
        rewrite <- Hr in E, HLs.
        assert (Hn : Z.to_nat (zlen src - u) = length x).
        { rewrite skipn_length, app_length, repeat_length in HLs.
          rewrite Hs, !zlen_app, zlen_repeat. change (zlen [u]) with 1. unfold zlen. lia. }
        rewrite Hn in E. rewrite skipn_app_exact in E by reflexivity.
        rewrite forallb_repeat in E; [discriminate|reflexivity].
Qed.

(** ISO10126 *)
Lemma iso10126_roundtrip rnd text bs :
  1 <= bs <= 255 -> zlen rnd = pad_count text bs - 1 ->
  iso10126_unpad (iso10126_pad rnd text bs) = Ok text.
Proof.
  intros H Hr. unfold iso10126_pad. destruct (Z.ltb_spec bs 1); [lia|].
  pose proof (pad_count_range text bs ltac:(lia)) as Hk.
  set (k := pad_count text bs) in *.
  unfold to_byte. rewrite Z.mod_small by lia.
  unfold iso10126_unpad. rewrite match_nonnil by (apply app_nonnil; discriminate).
  rewrite last_byte_app, !zlen_app. change (zlen [k]) with 1.
  pose proof (zlen_nonneg text).
  destruct (Z.ltb_spec (zlen text + zlen rnd + 1 - k) 0); [lia|].
  replace (zlen text + zlen rnd + 1 - k) with (zlen text) by lia.
  unfold zlen. rewrite Nat2Z.id, <- app_assoc, firstn_app_exact; reflexivity.
Qed.

Lemma iso10126_pad_len rnd text bs :
  1 <= bs -> zlen rnd = pad_count text bs - 1 ->
  zlen (iso10126_pad rnd text bs) = zlen text + pad_count text bs.
Proof.
  intros H Hr. unfold iso10126_pad. destruct (Z.ltb_spec bs 1); [lia|].
  rewrite !zlen_app, Hr. change (zlen [_]) with 1. lia.
Qed.

(** ISO 7816-4 *)
Lemma iso7816_pad_eq text bs : 1 <= bs ->
  iso7816_pad text bs = text ++ 128 :: repeat 0 (Z.to_nat (pad_count text bs - 1)).
Proof.
  intro H. unfold iso7816_pad. destruct (Z.ltb_spec bs 1); [lia|].
  pose proof (pad_count_range text bs H) as Hr. set (k := pad_count text bs) in *.
  unfold splice. rewrite firstn_app_exact by reflexivity. cbn [length].
  replace (Z.to_nat k) with (S (Z.to_nat (k - 1))) by lia. cbn [repeat].
  replace (text ++ 0 :: repeat 0 (Z.to_nat (k - 1)))
    with ((text ++ [0]) ++ repeat 0 (Z.to_nat (k - 1))) by now rewrite <- app_assoc.
  rewrite skipn_app_exact by (rewrite app_length; cbn; lia).
  reflexivity.
Qed.

Lemma last_index_none c l : last_index c l = None <-> ~ In c l.
Proof.
  induction l as [|x l IH]; cbn; [tauto|].
  destruct (last_index c l) as [i|].
  - split; [discriminate|]. intro Hn. exfalso. apply Hn. right.
    destruct (in_dec Z.eq_dec c l) as [Hi|Hi]; auto. apply IH in Hi. discriminate.
  - destruct (Z.eqb_spec x c) as [->|Hx]; split; try discriminate; try tauto.
Qed.

Lemma last_index_app c a b :
  ~ In c b -> last_index c (a ++ c :: b) = Some (length a).
Proof.
  intro H. induction a as [|x a IH]; cbn.
  - apply last_index_none in H. rewrite H, Z.eqb_refl. reflexivity.
  - now rewrite IH.
Qed.

Lemma last_index_some c l i :
  last_index c l = Some i ->
  exists a b, l = a ++ c :: b /\ length a = i /\ ~ In c b.
Proof.
  revert i; induction l as [|x l IH]; intros i; cbn; [discriminate|].
  destruct (last_index c l) as [j|] eqn:E.
  - intro H. injection H as <-. destruct (IH j eq_refl) as (a & b & -> & <- & Hb).
    exists (x :: a), b. auto.
  - destruct (Z.eqb_spec x c) as [->|]; [|discriminate].
    intro H. injection H as <-. exists [], l. apply last_index_none in E. auto.
Qed.

Lemma iso7816_unpad_iff src x :
  iso7816_unpad src = Ok x <-> exists n, src = x ++ 128 :: repeat 0 n.
Proof.
  split.
  - unfold iso7816_unpad. destruct src as [|s0 s]; [discriminate|].
    set (src := s0 :: s) in *.
    destruct (last_index 128 src) as [i|] eqn:E; [|discriminate].
    apply last_index_some in E as (a & b & Hs & Hi & Hb).
    rewrite Hs. rewrite skipn_app_exact, firstn_app_exact by auto.
    cbn [skipn]. destruct (forallb _ b) eqn:F; [|discriminate].
    intro H. injection H as <-. apply forallb_eq_repeat in F.
    exists (length b). now rewrite <- F.
  - intros [n ->].
    unfold iso7816_unpad. rewrite match_nonnil by (apply app_nonnil; discriminate).
    rewrite last_index_app.
    + rewrite skipn_app_exact, firstn_app_exact by auto. cbn [skipn].
      now rewrite forallb_repeat.
    + intro H. apply repeat_spec in H. discriminate.
Qed.

Lemma iso7816_roundtrip text bs : 1 <= bs -> iso7816_unpad (iso7816_pad text bs) = Ok text.
Proof.
  intro H. rewrite iso7816_pad_eq by auto. apply iso7816_unpad_iff. eauto.
Qed.

Lemma iso7816_pad_len text bs :
  1 <= bs -> zlen (iso7816_pad text bs) = zlen text + pad_count text bs.
Proof.
  intro H. rewrite iso7816_pad_eq by auto. rewrite zlen_app.
  pose proof (pad_count_range text bs H).
  unfold zlen. cbn [length]. rewrite repeat_length. lia.
Qed.

(** Zero *)
Lemma trim_right_app_rep c a n : trim_right c (a ++ repeat c n) = trim_right c a.
Proof.
  induction a as [|x a IH]; cbn [app trim_right].
  - induction n; cbn; auto. rewrite IHn, Z.eqb_refl. reflexivity.
  - now rewrite IH.
Qed.

(** [trim_right c l] is the unique prefix of l that does not end in c and whose
    complement is a run of c. *)
Lemma trim_right_spec c l :
  (exists n, l = trim_right c l ++ repeat c n) /\
  (trim_right c l = [] \/ exists a y, trim_right c l = a ++ [y] /\ y <> c).
Proof.
  induction l as [|x l [[n Hn] Hl]]; cbn [trim_right].
  - split; [exists O; reflexivity|auto].
  - destruct (trim_right c l) as [|t0 t] eqn:E.
    + cbn [app] in Hn. destruct (Z.eqb_spec x c) as [->|Hx].
      * split; [|auto]. exists (S n). cbn. now rewrite Hn at 1.
      * split; [exists n; cbn; now rewrite Hn at 1|].
        right. exists [], x. auto.
    + split; [exists n; cbn [app] in *; now rewrite Hn at 1|].
      right. destruct Hl as [Hl|(a & y & Ha & Hy)]; [discriminate|].
      exists (x :: a), y. rewrite Ha. auto.
Qed.

Lemma trim_right_fix c a y : y <> c -> trim_right c (a ++ [y]) = a ++ [y].
Proof.
  intro H. induction a as [|x a IH]; cbn.
  - destruct (Z.eqb_spec y c); [congruence|reflexivity].
  - rewrite IH. destruct a; reflexivity.
Qed.

Lemma zero_unpad_pad text bs : zero_unpad (zero_pad text bs) = Ok (trim_right 0 text).
Proof.
  unfold zero_unpad, zero_pad. destruct (Z.ltb_spec bs 1); auto.
  now rewrite trim_right_app_rep.
Qed.

Lemma trim_right_id_iff c l : trim_right c l = l <-> (l = [] \/ last l c <> c).
Proof.
  destruct (trim_right_spec c l) as [[n Hn] Hl]. split.
  - intro E. rewrite E in Hl. destruct Hl as [->|(a & y & -> & Hy)]; auto.
    right. now rewrite last_last.
  - intros [->|H]; [reflexivity|]. destruct n as [|n].
    + cbn in Hn. rewrite app_nil_r in Hn. congruence.
    + exfalso. apply H. rewrite Hn, repeat_snoc, app_assoc. apply last_last.
Qed.

(** TBC *)
Lemma removelast_app_rep (a : bytes) b n :
  removelast (a ++ repeat b (S n)) = a ++ repeat b n.
Proof. rewrite repeat_snoc, app_assoc. apply removelast_last. Qed.

Lemma tbc_roundtrip text bs : bytes_ok text -> 1 <= bs -> tbc_unpad (tbc_pad text bs) = Ok text.
Proof.
  intros Hok H. unfold tbc_pad. destruct (Z.ltb_spec bs 1); [lia|].
  pose proof (pad_count_range text bs H) as Hr. set (k := pad_count text bs) in *.
  replace (Z.to_nat k) with (S (Z.to_nat (k - 1))) by lia. set (m := Z.to_nat (k - 1)).
  destruct text as [|t0 t].
  - cbn [app]. unfold tbc_unpad. rewrite match_nonnil by (apply repeat_nonnil; lia).
    change (repeat 255 (S m)) with ([] ++ repeat 255 (S m)).
    rewrite last_byte_repeat by lia. cbn [Z.eqb].
    rewrite removelast_app_rep, trim_right_app_rep. reflexivity.
  - set (text := t0 :: t) in *.
    assert (Hne : text <> []) by discriminate.
    pose proof (app_removelast_last 0 Hne) as Hs. fold (last_byte text) in Hs.
    pose proof (last_byte_ok _ Hok) as Hlb.
    set (y := last_byte text) in *. set (r := removelast text) in *.
    clearbody r y text.
    destruct (Z.eqb_spec (Z.land y 1) 0) as [Hz|Hz]; cbn [negb];
      unfold tbc_unpad; (rewrite match_nonnil by (apply app_nonnil, repeat_nonnil; lia));
      rewrite last_byte_repeat by lia; cbn [Z.eqb].
    + rewrite removelast_app_rep, trim_right_app_rep.
      rewrite Hs, trim_right_fix by (intro; subst y; vm_compute in Hz; discriminate).
      destruct (r ++ [y]) as [|h tl] eqn:E; [destruct r; discriminate|]. rewrite <- E.
      rewrite last_byte_app, Hz. reflexivity.
    + rewrite removelast_app_rep, trim_right_app_rep.
      rewrite Hs, trim_right_fix by (intro; subst y; apply Hz; reflexivity).
      destruct (r ++ [y]) as [|h tl] eqn:E; [destruct r; discriminate|]. rewrite <- E.
      rewrite last_byte_app.
      destruct (Z.eqb_spec (Z.land y 1) 0); [congruence|]. reflexivity.
Qed.

Lemma tbc_pad_len text bs : 1 <= bs -> zlen (tbc_pad text bs) = zlen text + pad_count text bs.
Proof.
  intro H. unfold tbc_pad. destruct (Z.ltb_spec bs 1); [lia|].
  rewrite zlen_app, zlen_repeat. pose proof (pad_count_range text bs H). lia.
Qed.

Lemma zero_pad_len text bs : 1 <= bs -> zlen (zero_pad text bs) = zlen text + pad_count text bs.
Proof.
  intro H. unfold zero_pad. destruct (Z.ltb_spec bs 1); [lia|].
  rewrite zlen_app, zlen_repeat. pose proof (pad_count_range text bs H). lia.
Qed.

(** TBC acceptance *)
Lemma tbc_unpad_sound src x :
  tbc_unpad src = Ok x ->
  exists n, (0 < n)%nat /\
  ((src = x ++ repeat 0 n /\ x <> [] /\ Z.land (last_byte x) 1 <> 0) \/
   (src = x ++ repeat 255 n /\ (x = [] \/ Z.land (last_byte x) 1 = 0))).
Proof.
  unfold tbc_unpad. destruct (list_eq_dec Z.eq_dec src []) as [->|Hne]; [discriminate|].
  rewrite match_nonnil by auto.
  pose proof (app_removelast_last 0 Hne) as Hs. fold (last_byte src) in Hs.
  set (u := last_byte src) in *. set (r := removelast src) in *.
  destruct (Z.eqb_spec u 0) as [Hu|Hu].
  - destruct (trim_right_spec 0 r) as [[n Hn] _].
    destruct (trim_right 0 r) as [|a l] eqn:E; [discriminate|].
    destruct (Z.eqb_spec (Z.land (last_byte (a :: l)) 1) 0); [discriminate|].
    intro Hx. injection Hx as <-. exists (S n). split; [lia|]. left.
    split; [|split; [discriminate|auto]].
    rewrite repeat_snoc, app_assoc, <- Hn, <- Hu. exact Hs.
  - destruct (Z.eqb_spec u 255) as [Hu2|Hu2]; [|discriminate].
    destruct (trim_right_spec 255 r) as [[n Hn] _].
    destruct (trim_right 255 r) as [|a l] eqn:E.
    + intro Hx. injection Hx as <-. exists (S n). split; [lia|]. right.
      split; [|auto]. rewrite repeat_snoc, app_assoc, <- Hn, <- Hu2. exact Hs.
    + destruct (Z.eqb_spec (Z.land (last_byte (a :: l)) 1) 0); [|discriminate].
      intro Hx. injection Hx as <-. exists (S n). split; [lia|]. right.
      split; [|auto]. rewrite repeat_snoc, app_assoc, <- Hn, <- Hu2. exact Hs.
Qed.

(** PKCS1 *)
Lemma pkcs1_pad_last bt rnd text bs : 11 + zlen text <= bs ->
  exists mid, pkcs1_pad bt rnd text bs = text ++ mid ++ [to_byte (zlen text)].
Proof.
  intro H. pose proof (zlen_nonneg text).
  unfold pkcs1_pad. destruct (Z.ltb_spec bs 1); [lia|].
  destruct (Z.ltb_spec (bs - 3 - zlen text) 8); [lia|].
  destruct bt.
  - exists ([0] ++ [0] ++ repeat 0 (Z.to_nat (bs - 3 - zlen text)) ++ [0]).
    now rewrite <- !app_assoc.
  - exists ([0] ++ [1] ++ repeat 255 (Z.to_nat (bs - 3 - zlen text)) ++ [0]).
    now rewrite <- !app_assoc.
  - exists ([0] ++ [2] ++ rnd ++ [0]). now rewrite <- !app_assoc.
  - exists ([0] ++ [0]). now rewrite <- !app_assoc.
Qed.

Lemma pkcs1_roundtrip bt rnd text bs :
  11 + zlen text <= bs -> zlen text < 256 ->
  pkcs1_unpad (pkcs1_pad bt rnd text bs) = Ok text.
Proof.
  intros H Hn. destruct (pkcs1_pad_last bt rnd text bs H) as [mid ->].
  pose proof (zlen_nonneg text). pose proof (zlen_nonneg mid).
  unfold to_byte. rewrite Z.mod_small by lia.
  unfold pkcs1_unpad.
  rewrite match_nonnil by (apply app_nonnil, app_nonnil; discriminate).
  rewrite app_assoc, last_byte_app, !zlen_app. change (zlen [_]) with 1.
  destruct (Z.ltb_spec (zlen text + zlen mid + 1) (zlen text)); [lia|].
  rewrite <- app_assoc. unfold zlen. rewrite Nat2Z.id, firstn_app_exact; reflexivity.
Qed.

Lemma pkcs1_pad_len bt rnd text bs :
  11 + zlen text <= bs -> bt <> BTother ->
  (bt = BT02 -> zlen rnd = bs - 3 - zlen text) ->
  zlen (pkcs1_pad bt rnd text bs) = bs + 1.
Proof.
  intros H Hb Hr. pose proof (zlen_nonneg text).
  unfold pkcs1_pad. destruct (Z.ltb_spec bs 1); [lia|].
  destruct (Z.ltb_spec (bs - 3 - zlen text) 8); [lia|].
  destruct bt; [ | | |congruence];
  rewrite ?zlen_app; rewrite ?zlen_repeat; try (rewrite Hr by reflexivity);
  change (zlen [0]) with 1; change (zlen [1]) with 1; change (zlen [2]) with 1;
  change (zlen [to_byte (zlen text)]) with 1; lia.
Qed.

(** Caller memory *)
Lemma go_append_view s ys :
  (slen s <= length (arr s))%nat -> fst (go_append s ys) = view s ++ ys.
Proof. intro H. unfold go_append. destruct (_ <=? _)%nat; reflexivity. Qed.

Lemma pkcs7_mem_view s bs :
  (slen s <= length (arr s))%nat -> fst (pkcs7_pad_mem s bs) = pkcs7_pad (view s) bs.
Proof.
  intro H. unfold pkcs7_pad_mem, pkcs7_pad. destruct (bs <? 1); [reflexivity|].
  now apply go_append_view.
Qed.

Lemma pkcs7_mem_prefix s bs :
  (slen s <= length (arr s))%nat ->
  firstn (slen s) (snd (pkcs7_pad_mem s bs)) = view s /\
  length (snd (pkcs7_pad_mem s bs)) = length (arr s).
Proof.
  intro H. unfold pkcs7_pad_mem. destruct (bs <? 1); [split; reflexivity|].
  unfold go_append. destruct (Nat.leb_spec (slen s + length (repeat (to_byte (pad_count (view s) bs))
           (Z.to_nat (pad_count (view s) bs)))) (length (arr s))); cbn [snd]; [|split; reflexivity].
  split; [|now apply splice_length].
  unfold splice, view. apply firstn_app_exact. rewrite firstn_length. lia.
Qed.

Lemma pkcs7_mem_safe s bs :
  (slen s <= length (arr s))%nat -> 1 <= bs ->
  Z.of_nat (length (arr s)) < zlen (view s) + pad_count (view s) bs ->
  snd (pkcs7_pad_mem s bs) = arr s.
Proof.
  intros H Hb Hc. unfold pkcs7_pad_mem. destruct (Z.ltb_spec bs 1); [lia|].
  unfold go_append. rewrite repeat_length.
  pose proof (pad_count_range (view s) bs Hb).
  destruct (Nat.leb_spec (slen s + Z.to_nat (pad_count (view s) bs)) (length (arr s)));
    cbn [snd]; [|reflexivity].
  exfalso. unfold zlen in Hc. unfold view in Hc at 1. rewrite firstn_length in Hc. lia.
Qed.
