From Verif Require Import Base BlockModeModel CipherLaws WordModel BlkSpec WordLib ZtailSpec ZtailModel.
Set Implicit Arguments. Unset Strict Implicit.
Local Open Scope nat_scope.
Lemma skipn_add (A : Type) a b (l : list A) : skipn (a + b) l = skipn b (skipn a l).
Proof. revert l. induction a as [|a IH]; intros l; [reflexivity|]. destruct l; cbn [Nat.add skipn]; [rewrite skipn_nil; reflexivity|apply IH]. Qed.
Lemma gocopy_app (blk t dst : bytes) : length blk <= length dst -> gocopy dst (blk ++ t) = blk ++ gocopy (skipn (length blk) dst) t.
Proof.
  intros L. unfold gocopy. rewrite app_length, skipn_length. rewrite firstn_app, firstn_all2 by lia. rewrite <- app_assoc. f_equal. f_equal.
  apply skipn_add.
Qed.
Lemma zcall_tail bs w f : 0 < w -> Nat.divide w bs -> (forall b, isblock bs b -> length (f b) = bs) -> tail_zeroed bs w (zblk_call bs w f).
Proof.
  intros W [q Q] H dst src O LS LD. exists (f (firstn bs src)).
  assert (L : length (f (firstn bs src)) = bs) by (apply H; split; [rewrite firstn_length; lia|apply bytes_ok_firstn; auto]).
  split; [exact L|]. unfold zblk_call. split.
  - intros d Ed. replace ((length (firstn bs src) <? bs) || (length d <? bs))%bool with false.
    2:{ symmetry. apply orb_false_intro; apply Nat.ltb_ge; rewrite ?firstn_length; lia. }
    rewrite (firstn_length), Nat.min_l by lia. replace (w * (bs / w) - bs) with 0 by (subst bs; rewrite Nat.div_mul by lia; lia).
    cbn [repeat]. rewrite app_nil_r. rewrite firstn_firstn, Nat.min_id. unfold gocopy. rewrite L, Ed.
    rewrite firstn_all2 by lia. rewrite skipn_all2 by lia. rewrite app_nil_r. reflexivity.
  - replace ((length src <? bs) || (length dst <? bs))%bool with false.
    2:{ symmetry. apply orb_false_intro; apply Nat.ltb_ge; lia. }
    rewrite gocopy_app by lia. rewrite L. reflexivity.
Qed.
Lemma zcall_exact bs w f dst src : 0 < w -> Nat.divide w bs -> length src = bs -> bs <= length dst -> length (f src) = bs ->
  zblk_call bs w f dst src = blk_call bs f dst src.
Proof.
  intros W [q Q] L H LF. unfold zblk_call, blk_call. rewrite L.
  replace (length dst <? bs) with false by (symmetry; apply Nat.ltb_ge; lia). rewrite Nat.ltb_irrefl. cbn [orb].
  replace (w * (bs / w) - bs) with 0 by (subst bs; rewrite Nat.div_mul by lia; lia). cbn [repeat]. rewrite app_nil_r.
  rewrite (firstn_all2 src) by lia. unfold gocopy, splice. rewrite firstn_all2 by lia. reflexivity.
Qed.
Lemma undone_by_exact bs w f g : 0 < w -> Nat.divide w bs -> (forall b, isblock bs b -> length (f b) = bs) -> (forall b, isblock bs b -> length (g b) = bs) ->
  undone_by bs (blk_call bs f) (blk_call bs g) -> undone_exact bs (zblk_call bs w f) (zblk_call bs w g).
Proof.
  intros W Dv Hf Hg U dst dst' src OS OD LS LD LD'.
  destruct (U dst dst' src OS OD) as (ct & C1 & C2 & C3 & C4 & pt & P1 & P2 & P3); try lia.
  exists ct. rewrite (zcall_exact W Dv LS LD) by (apply Hf; split; auto). split; auto. split; auto. split; auto. split; auto.
  exists pt. assert (L1 : length (firstn bs ct) = bs) by (rewrite firstn_length; lia).
  rewrite (zcall_exact W Dv L1 LD') by (apply Hg; split; auto; apply bytes_ok_firstn; auto).
  rewrite <- P1. split; [symmetry; apply call_one_block; lia|]. rewrite <- (firstn_all2 (n := bs) src) by lia. auto.
Qed.
Lemma zcall_short bs w f : panics_if_short bs (zblk_call bs w f).
Proof.
  intros dst src H. unfold zblk_call. destruct (Nat.ltb_spec (length src) bs); auto. destruct (Nat.ltb_spec (length dst) bs); auto. lia.
Qed.
Lemma lawful_zblock c bs w : lawful c -> bs = bsz c -> 0 < w -> Nat.divide w bs -> zblock_cipher bs w (zblk_call bs w (enc c)) (zblk_call bs w (dec c)).
Proof.
  intros L B W Dv. pose proof (lawful_block_cipher L B) as H. destruct (H : block_cipher _ _ _). split; try apply zcall_short.
  - apply undone_by_exact; auto; intros b Hb; subst bs; [apply (law_enc L Hb)|apply (law_dec L Hb)].
  - apply undone_by_exact; auto; intros b Hb; subst bs; [apply (law_dec L Hb)|apply (law_enc L Hb)].
  - apply zcall_tail; auto. intros b Hb. subst bs. apply (law_enc L Hb).
  - apply zcall_tail; auto. intros b Hb. subst bs. apply (law_dec L Hb).
Qed.
Lemma zcipher_one (C : Type) (n bs w : nat) (mk : bytes -> C) (cph : C -> cipher) : 0 < w -> Nat.divide w bs ->
  (forall key, bytes_ok key -> length key = n -> lawful (cph (mk key)) /\ bsz (cph (mk key)) = bs) ->
  zcipher_for [n] bs w (fun key => if length key =? n then Ok (mk key) else Err)
    (fun c => zblk_call bs w (enc (cph c))) (fun c => zblk_call bs w (dec (cph c))).
Proof.
  intros W Dv H key O. split.
  - intros [E|[]]. rewrite <- E, Nat.eqb_refl. destruct (H key O (eq_sym E)) as [L B]. eexists. split; [reflexivity|].
    apply lawful_zblock; auto.
  - intros N. destruct (Nat.eqb_spec (length key) n); auto. exfalso. apply N. left. auto.
Qed.
