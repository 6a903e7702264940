(** C43-C46: the ciphers Speck, Simon, LEA and Threefish. *)
From Verif Require Import Base BlockModeModel CipherLaws WordModel BlkSpec WordLib ArxModel ArxProofs HexLit.
From Coq Require Import String.
Set Implicit Arguments. Unset Strict Implicit.
Local Open Scope nat_scope.

(** splitting on a key length *)
Ltac keylen n := do 34 (destruct n as [|n]; [first [reflexivity | exfalso; match goal with H : ~ In _ _ |- _ => apply H; cbn; tauto end]|]); reflexivity.

Theorem C43_speck : cipher_for [16; 24; 32] 16 speck_new speck_encrypt speck_decrypt.
Proof.
  intros key O. unfold speck_new. split.
  - intros I. assert (X : exists nl n m, match List.length key with 16 => Ok (speck_expand key 1 31) | 24 => Ok (speck_expand key 2 32) | 32 => Ok (speck_expand key 3 33) | _ => Err end = Ok (speck_expand key nl n) /\ n <= 40 /\ List.length key = m * 8).
    { destruct I as [E|[E|[E|[]]]]; rewrite <- E; [exists 1, 31, 2|exists 2, 32, 3|exists 3, 33, 4]; split; auto; split; auto; lia. }
    destruct X as (nl & n & m & X & N & M). rewrite X. eexists. split; [reflexivity|].
    apply lawful_block_cipher; [apply speck_lawful; apply speck_expand_ok with m; auto|reflexivity].
  - intros N. destruct (List.length key) as [|n]; [reflexivity|]. keylen n.
Qed.
Print Assumptions C43_speck.
Example C43_instance :
  kat (speck_new (hx "000102030405060708090a0b0c0d0e0f")) speck_encrypt speck_decrypt
      "206d616465206974206571756976616c" "180d575cdffe60786532787951985da6" /\
  kat (speck_new (hx "000102030405060708090a0b0c0d0e0f1011121314151617")) speck_encrypt speck_decrypt
      "656e7420746f20436869656620486172" "86183ce05d18bcf9665513133acfe41b" /\
  kat (speck_new (hx "000102030405060708090a0b0c0d0e0f101112131415161718191a1b1c1d1e1f")) speck_encrypt speck_decrypt
      "706f6f6e65722e20496e2074686f7365" "438f189c8db4ee4e3ef5c00504010941".
Proof. kats. Qed.

Theorem C44_simon : cipher_for [16; 24; 32] 16 simon_new simon_encrypt simon_decrypt.
Proof.
  intros key O. unfold simon_new. split.
  - intros I.
    assert (Z1 : Forall (inw 64) simon_z128 /\ Forall (inw 64) simon_z192 /\ Forall (inw 64) simon_z256).
    { repeat split; repeat (apply Forall_cons; [split; [discriminate|reflexivity]|]); constructor. }
    destruct Z1 as (Z1 & Z2 & Z3).
    destruct I as [E|[E|[E|[]]]]; rewrite <- E; eexists; (split; [reflexivity|]).
    + destruct (@key_words 8 2 key 64 eq_refl ltac:(lia) (eq_sym E) O) as [_ F].
      apply (@lawful_block_cipher (simon_cph (Simon128 _)) 16); [apply simon_lawful; [apply simon_exp_ok; auto|left; auto]|reflexivity].
    + destruct (@key_words 8 3 key 64 eq_refl ltac:(lia) (eq_sym E) O) as [_ F].
      apply (@lawful_block_cipher (simon_cph (Simon192 _)) 16); [apply simon_lawful192; apply simon_exp_ok; auto|reflexivity].
    + destruct (@key_words 8 4 key 64 eq_refl ltac:(lia) (eq_sym E) O) as [_ F].
      apply (@lawful_block_cipher (simon_cph (Simon256 _)) 16); [apply simon_lawful; [apply simon_exp256_ok; auto|right; left; auto]|reflexivity].
  - intros N. destruct (List.length key) as [|n]; [reflexivity|]. keylen n.
Qed.
Print Assumptions C44_simon.
Example C44_instance :
  kat (simon_new (hx "000102030405060708090a0b0c0d0e0f")) simon_encrypt simon_decrypt
      "2074726176656c6c6572732064657363" "bc0b4ef82a83aa653ffe541e1e1b6849" /\
  kat (simon_new (hx "000102030405060708090a0b0c0d0e0f1011121314151617")) simon_encrypt simon_decrypt
      "72696265207768656e20746865726520" "5bb897256e8d9c6c4f0ddcfcef61acc4" /\
  kat (simon_new (hx "000102030405060708090a0b0c0d0e0f101112131415161718191a1b1c1d1e1f")) simon_encrypt simon_decrypt
      "697320612073696d6f6f6d20696e2074" "68b8e7ef872af73ba0a3c8af79552b8d".
Proof. kats. Qed.

Theorem C45_lea : cipher_for [16; 24; 32] 16 lea_new lea_encrypt lea_decrypt.
Proof.
  intros key O. unfold lea_new. split.
  - intros I. exists (lea_round_key key true, lea_round_key key false). split.
    + destruct I as [E|[E|[E|[]]]]; rewrite <- E; reflexivity.
    + change (lea_round_key key false) with (rev (lea_round_key key true)).
      apply (@lawful_block_cipher (lea_cph _) 16); [|reflexivity]. apply lea_lawful.
      destruct I as [E|[E|[E|[]]]]; [apply lea_key_ok with 4|apply lea_key_ok with 6|apply lea_key_ok with 8]; auto.
  - intros N. destruct (List.length key) as [|n]; [reflexivity|]. keylen n.
Qed.
Print Assumptions C45_lea.
Example C45_instance :
  kat (lea_new (hx "FFFFFFFFFFFFFFFFFFFFFFFFFFFFFFFFFFFFFF00000000000000000000000000")) lea_encrypt lea_decrypt
      "00000000000000000000000000000000" "aae3d8b6be779438d9998ffc1cf0ed0b" /\
  kat (lea_new (hx "0f1e2d3c4b5a69788796a5b4c3d2e1f0")) lea_encrypt lea_decrypt
      "101112131415161718191a1b1c1d1e1f" "9fc84e3528c6c6185532c7a704648bfd" /\
  kat (lea_new (hx "0f1e2d3c4b5a69788796a5b4c3d2e1f0f0e1d2c3b4a59687")) lea_encrypt lea_decrypt
      "202122232425262728292a2b2c2d2e2f" "6fb95e325aad1b878cdcf5357674c6f2".
Proof. kats. Qed.


(** Threefish *)
Lemma tf_new_inv key tweak c : tf_new key tweak = Ok c -> List.length tweak = 16 /\ In (fst c) [tf256; tf512; tf1024] /\
  List.length key = 8 * tf_words (fst c) /\ snd c = tf_expand (fst c) key tweak.
Proof.
  unfold tf_new. set (b := fun p : tf_params => if List.length tweak =? 16 then Ok (p, tf_expand p key tweak) else Err). cbn zeta. intros H.
  assert (X : exists p, In p [tf256; tf512; tf1024] /\ List.length key = 8 * tf_words p /\ b p = Ok c).
  { destruct (Nat.eq_dec (List.length key) 32) as [E|N1]; [rewrite E in H; exists tf256; cbn; auto|].
    destruct (Nat.eq_dec (List.length key) 64) as [E|N2]; [rewrite E in H; exists tf512; cbn; auto|].
    destruct (Nat.eq_dec (List.length key) 128) as [E|N3]; [rewrite E in H; exists tf1024; cbn; auto|].
    exfalso. revert H N1 N2 N3. generalize (List.length key). clear. intros n.
    do 129 (destruct n as [|n]; [first [discriminate | congruence]|]). discriminate. }
  destruct X as (p & I & L & X). unfold b in X. destruct (Nat.eqb_spec (List.length tweak) 16) as [T|]; [|discriminate].
  injection X as <-. auto.
Qed.
Lemma tf_new_ok key tweak : In (List.length key) [32; 64; 128] -> List.length tweak = 16 -> exists c, tf_new key tweak = Ok c.
Proof. intros [E|[E|[E|[]]]] T; unfold tf_new; rewrite <- E, T; eexists; reflexivity. Qed.
Lemma chunks_app n (a b : bytes) m : 0 < n -> List.length a = m * n -> chunks n (a ++ b) = chunks n a ++ chunks n b.
Proof.
  intros N. revert a. induction m; intros a L.
  - destruct a; [reflexivity|discriminate].
  - rewrite <- (firstn_skipn n a) at 1. rewrite <- app_assoc.
    assert (LF : List.length (firstn n a) = n) by (rewrite firstn_length; lia).
    rewrite chunks_app_block by auto. rewrite IHm by (rewrite skipn_length; lia).
    rewrite (@chunks_cons _ n a) by (auto; intros ->; cbn in L; lia). reflexivity.
Qed.
Lemma stw_ldw m b : List.length b = m * 8 -> bytes_ok b -> stw 8 (ldw 8 b) = b.
Proof.
  intros L O. unfold stw, ldw. apply st_ld with m; auto; try lia.
  intros c H1 H2. apply le_bytes_val; auto.
Qed.
Lemma tf_call_run p f src dst : 0 < tf_words p -> bytes_ok src -> 8 * tf_words p <= List.length src ->
  tf_call p f dst src = Ok (gocopy dst (stw 8 (f (ldw 8 (firstn (8 * tf_words p) src))) ++
                            firstn (8 * (List.length src / 8) - 8 * tf_words p) (skipn (8 * tf_words p) src))).
Proof.
  intros W O L. set (n := tf_words p) in *. set (q := List.length src / 8).
  assert (Q : n <= q) by (apply Nat.div_le_lower_bound; lia).
  assert (Q8 : 8 * q <= List.length src) by (apply Nat.mul_div_le; lia).
  assert (E : firstn (8 * q) src = firstn (8 * n) src ++ firstn (8 * q - 8 * n) (skipn (8 * n) src)).
  { rewrite <- (firstn_skipn (8 * n) src) at 1. rewrite firstn_app, firstn_firstn, Nat.min_r, firstn_length, Nat.min_l by lia. reflexivity. }
  unfold tf_call. fold n q. rewrite E. set (tl := firstn (8 * q - 8 * n) _).
  assert (LB : List.length (firstn (8 * n) src) = n * 8) by (rewrite firstn_length; lia).
  assert (LT : List.length tl = (q - n) * 8) by (unfold tl; rewrite firstn_length, skipn_length; lia).
  replace (ldw 8 (firstn (8 * n) src ++ tl)) with (ldw 8 (firstn (8 * n) src) ++ ldw 8 tl)
    by (unfold ldw; rewrite (@chunks_app 8 _ tl n) by (auto; lia); symmetry; apply map_app).
  assert (LW : List.length (ldw 8 (firstn (8 * n) src)) = n) by (apply (@ldw_ok 8 n _ 64 eq_refl); auto; [lia|apply bytes_ok_firstn; auto]).
  rewrite app_length, LW. replace (n + List.length (ldw 8 tl) <? n) with false by (symmetry; apply Nat.ltb_ge; lia).
  rewrite firstn_app_exact, skipn_app_exact by auto. f_equal. f_equal. unfold stw at 1. rewrite map_app, concat_app.
  fold (stw 8 (f (ldw 8 (firstn (8 * n) src)))). fold (stw 8 (ldw 8 tl)). f_equal.
  apply stw_ldw with (q - n); auto. unfold tl. apply bytes_ok_firstn, bytes_ok_skipn. auto.
Qed.
Lemma tf_call_short p f src dst : List.length src < 8 * tf_words p -> tf_call p f dst src = Panic.
Proof.
  intros L. unfold tf_call. set (q := List.length src / 8).
  assert (Q : q < tf_words p) by (apply Nat.div_lt_upper_bound; lia).
  assert (Q8 : 8 * q <= List.length src) by (apply Nat.mul_div_le; lia).
  assert (LW : List.length (ldw 8 (firstn (8 * q) src)) = q).
  { unfold ldw. rewrite map_length. apply chunks_all_len; [lia|]. rewrite firstn_length. lia. }
  rewrite LW. replace (q <? tf_words p) with true by (symmetry; apply Nat.ltb_lt; lia). reflexivity.
Qed.
Lemma tf_call_exact p f src dst : 0 < tf_words p -> bytes_ok src -> List.length src = 8 * tf_words p -> 8 * tf_words p <= List.length dst ->
  (forall b, isblock (8 * tf_words p) b -> isblock (8 * tf_words p) (stw 8 (f (ldw 8 b)))) ->
  tf_call p f dst src = blk_call (8 * tf_words p) (fun b => stw 8 (f (ldw 8 b))) dst src.
Proof.
  intros W O L D F. rewrite tf_call_run by (auto; lia). unfold blk_call.
  replace (List.length src <? _) with false by (symmetry; apply Nat.ltb_ge; lia).
  replace (List.length dst <? _) with false by (symmetry; apply Nat.ltb_ge; lia).
  rewrite firstn_all2, skipn_all2 by lia. rewrite firstn_nil, app_nil_r. f_equal.
  destruct (F src) as [LF _]; [split; auto|].
  unfold gocopy, splice. cbn [firstn app Nat.add]. rewrite firstn_all2 by lia. reflexivity.
Qed.

Theorem C46_threefish key tweak : bytes_ok key -> bytes_ok tweak ->
  (In (List.length key) [32; 64; 128] /\ List.length tweak = 16 -> exists c, tf_new key tweak = Ok c /\
     undone_exact (List.length key) (tf_encrypt c) (tf_decrypt c) /\ undone_exact (List.length key) (tf_decrypt c) (tf_encrypt c) /\
     forall dst src, List.length src < List.length key -> tf_encrypt c dst src = Panic /\ tf_decrypt c dst src = Panic) /\
  (~ (In (List.length key) [32; 64; 128] /\ List.length tweak = 16) -> tf_new key tweak = Err).
Proof.
  intros O OT. split.
  - intros [I T]. destruct (@tf_new_ok key tweak I T) as [c C]. exists c. split; auto.
    destruct (tf_new_inv C) as (_ & P & LK & KS). destruct c as [p ks]. cbn [fst snd] in *. subst ks.
    pose proof (tf_good_all P) as G. assert (W : 0 < tf_words p) by apply G.
    pose proof (tf_lawful G (fun i => @tf_expand_ok p key tweak i)) as LW.
    pose proof (@lawful_block_cipher _ (8 * tf_words p) LW) as B. cbn [word_cipher bsz enc dec] in B. specialize (B ltac:(lia)).
    pose proof (law_enc LW) as HE. pose proof (law_dec LW) as HD. cbn [word_cipher bsz enc dec] in HE, HD.
    replace (tf_words p * 8) with (8 * tf_words p) in HE, HD by lia.
    rewrite LK.
    assert (X : forall f g, (forall b, isblock (8 * tf_words p) b -> isblock (8 * tf_words p) (stw 8 (f (ldw 8 b)))) ->
       (forall b, isblock (8 * tf_words p) b -> isblock (8 * tf_words p) (stw 8 (g (ldw 8 b)))) ->
       undone_by (8 * tf_words p) (blk_call (8 * tf_words p) (fun b => stw 8 (f (ldw 8 b)))) (blk_call (8 * tf_words p) (fun b => stw 8 (g (ldw 8 b)))) ->
       undone_exact (8 * tf_words p) (tf_call p f) (tf_call p g)).
    { intros f g Hf Hg U dst dst' src Os Od Ls Ld Ld'. rewrite tf_call_exact by (auto; lia).
      destruct (U dst dst' src) as (ct & E & LC & OC & SC & pt & EG & FP & SP); auto; [lia|].
      exists ct. do 4 (split; auto). exists pt. rewrite tf_call_exact; auto; [|apply bytes_ok_firstn; auto|rewrite firstn_length; lia].
      split; [|split; auto].
      - rewrite <- EG. symmetry. apply call_one_block. lia.
      - rewrite FP. apply firstn_all2. lia. }
    split; [|split].
    + apply X; auto. apply B.
    + apply X; auto. apply B.
    + intros dst src S. split; apply tf_call_short; auto.
  - intros N. destruct (tf_new key tweak) as [c| |] eqn:E; auto.
    + exfalso. apply N. destruct (tf_new_inv E) as (T & P & LK & _). split; auto. rewrite LK.
      destruct P as [<-|[<-|[<-|[]]]]; cbn; auto.
    + exfalso. revert E. unfold tf_new. generalize (List.length key). clear. intros n.
      do 129 (destruct n as [|n]; [first [discriminate | destruct (_ =? _); discriminate]|]). discriminate.
Qed.
Print Assumptions C46_threefish.

(** with more than a block in src, the whole words behind the block reach dst as they are *)
Theorem C46_threefish_tail key tweak c dst src : tf_new key tweak = Ok c -> bytes_ok src -> List.length key <= List.length src ->
  exists blk, List.length blk = List.length key /\
  tf_encrypt c dst src = Ok (gocopy dst (blk ++ firstn (8 * (List.length src / 8) - List.length key) (skipn (List.length key) src))) /\
  forall dst1, List.length dst1 = List.length key -> tf_encrypt c dst1 (firstn (List.length key) src) = Ok blk.
Proof.
  intros C O L. destruct (tf_new_inv C) as (_ & P & LK & KS). destruct c as [p ks]. cbn [fst snd] in *. subst ks.
  pose proof (tf_good_all P) as G. assert (W : 0 < tf_words p) by apply G.
  pose proof (tf_lawful G (fun i => @tf_expand_ok p key tweak i)) as LW. pose proof (law_enc LW) as HE. cbn [word_cipher bsz enc dec] in HE.
  exists (stw 8 (tf_enc p (tf_expand p key tweak) (ldw 8 (firstn (8 * tf_words p) src)))).
  assert (LB : List.length (stw 8 (tf_enc p (tf_expand p key tweak) (ldw 8 (firstn (8 * tf_words p) src)))) = List.length key).
  { rewrite LK. replace (8 * tf_words p) with (tf_words p * 8) by lia. apply HE. split; [rewrite firstn_length; lia|apply bytes_ok_firstn; auto]. }
  split; auto. split.
  - unfold tf_encrypt. cbn [fst snd]. rewrite tf_call_run by (auto; lia). rewrite LK. reflexivity.
  - intros dst1 L1. unfold tf_encrypt. cbn [fst snd]. rewrite tf_call_run; auto; [|apply bytes_ok_firstn; auto|rewrite firstn_length; lia].
    rewrite <- LK. rewrite firstn_firstn, Nat.min_id. rewrite (@skipn_all2 _ _ (firstn _ _)) by (rewrite firstn_length; lia). rewrite firstn_nil, app_nil_r.
    rewrite <- LK in LB. unfold gocopy. rewrite LB, L1. rewrite firstn_all2 by lia. rewrite skipn_all2 by lia. rewrite app_nil_r. reflexivity.
Qed.
Print Assumptions C46_threefish_tail.

(** so Encrypt overwrites bytes of dst behind the block, with plaintext *)
Theorem C46_threefish_refuted : exists key tweak c dst src ct,
  tf_new key tweak = Ok c /\ List.length src = 40 /\ List.length dst = 40 /\ tf_encrypt c dst src = Ok ct /\
  skipn 32 ct = skipn 32 src /\ skipn 32 ct <> skipn 32 dst.
Proof.
  exists (repeat 1%Z 32), (repeat 2%Z 16), (tf256, tf_expand tf256 (repeat 1%Z 32) (repeat 2%Z 16)), (repeat 0%Z 40), (repeat 7%Z 40).
  eexists. split; [reflexivity|]. split; [reflexivity|]. split; [reflexivity|]. split; [vm_compute; reflexivity|].
  split; [vm_compute; reflexivity|vm_compute; discriminate].
Qed.
Print Assumptions C46_threefish_refuted.
(** and a destination that is too short silently receives a truncated block *)
Theorem C46_threefish_short_refuted : exists key tweak c dst src ct,
  tf_new key tweak = Ok c /\ List.length src = 32 /\ List.length dst = 5 /\ tf_encrypt c dst src = Ok ct.
Proof.
  exists (repeat 1%Z 32), (repeat 2%Z 16), (tf256, tf_expand tf256 (repeat 1%Z 32) (repeat 2%Z 16)), (repeat 0%Z 5), (repeat 7%Z 32).
  eexists. split; [reflexivity|]. split; [reflexivity|]. split; [reflexivity|]. vm_compute; reflexivity.
Qed.
Print Assumptions C46_threefish_short_refuted.
Example C46_instance :
  kat (tf_new (hx "101112131415161718191a1b1c1d1e1f202122232425262728292a2b2c2d2e2f") (hx "000102030405060708090a0b0c0d0e0f")) tf_encrypt tf_decrypt
      "fffefdfcfbfaf9f8f7f6f5f4f3f2f1f0efeeedecebeae9e8e7e6e5e4e3e2e1e0" "e0d091ff0eea8fdfc98192e62ed80ad59d865d08588df476657056b5955e97df" /\
  kat (tf_new (hx "101112131415161718191a1b1c1d1e1f202122232425262728292a2b2c2d2e2f303132333435363738393a3b3c3d3e3f404142434445464748494a4b4c4d4e4f") (hx "000102030405060708090a0b0c0d0e0f")) tf_encrypt tf_decrypt
      "fffefdfcfbfaf9f8f7f6f5f4f3f2f1f0efeeedecebeae9e8e7e6e5e4e3e2e1e0dfdedddcdbdad9d8d7d6d5d4d3d2d1d0cfcecdcccbcac9c8c7c6c5c4c3c2c1c0"
      "e304439626d45a2cb401cad8d636249a6338330eb06d45dd8b36b90e97254779272a0a8d99463504784420ea18c9a725af11dffea10162348927673d5c1caf3d" /\
  kat (tf_new (hx "101112131415161718191a1b1c1d1e1f202122232425262728292a2b2c2d2e2f303132333435363738393a3b3c3d3e3f404142434445464748494a4b4c4d4e4f505152535455565758595a5b5c5d5e5f606162636465666768696a6b6c6d6e6f707172737475767778797a7b7c7d7e7f808182838485868788898a8b8c8d8e8f") (hx "000102030405060708090a0b0c0d0e0f")) tf_encrypt tf_decrypt
      "fffefdfcfbfaf9f8f7f6f5f4f3f2f1f0efeeedecebeae9e8e7e6e5e4e3e2e1e0dfdedddcdbdad9d8d7d6d5d4d3d2d1d0cfcecdcccbcac9c8c7c6c5c4c3c2c1c0bfbebdbcbbbab9b8b7b6b5b4b3b2b1b0afaeadacabaaa9a8a7a6a5a4a3a2a1a09f9e9d9c9b9a999897969594939291908f8e8d8c8b8a89888786858483828180"
      "a6654ddbd73cc3b05dd777105aa849bce49372eaaffc5568d254771bab85531c94f780e7ffaae430d5d8af8c70eebbe1760f3b42b737a89cb363490d670314bd8aa41ee63c2e1f45fbd477922f8360b388d6125ea6c7af0ad7056d01796e90c83313f4150a5716b30ed5f569288ae974ce2b4347926fce57de44512177dd7cde".
Proof. kats. Qed.
