(** Key wrapping (C13: mode/wrap.go, C40: mode/wrap_pad.go). *)
From Verif Require Import Base BlockModeModel BlockModeSpec BlockModeProofs StreamModel StreamSpec StreamProofs FeedbackProofs WrapModel WrapSpec WrapProofs.
Set Implicit Arguments. Unset Strict Implicit.

Lemma wrappable_chunks k : bytes_ok k -> length k mod 8 = 0 ->
  blocks8 (chunks 8 k) /\ length (chunks 8 k) = length k / 8 /\ length k = 8 * (length k / 8).
Proof.
  intros H1 H2. split; [|split].
  - apply chunks_isblock; [lia|]. split; auto.
  - rewrite chunks_count by lia. pose proof (Nat.div_mod (length k) 8 ltac:(lia)).
    apply Nat.div_unique with (r := 7) in H || (symmetry; apply Nat.div_unique with (r := 7); lia).
  - pose proof (Nat.div_mod (length k) 8 ltac:(lia)). lia.
Qed.
Lemma blocks8_len rs : blocks8 rs -> length (concat rs) = 8 * length rs.
Proof.
  intro H. induction H as [|r rs Hr _ IH]; [reflexivity|]. cbn [concat length].
  rewrite app_length, IH. destruct Hr. lia.
Qed.
Lemma blocks8_ok rs : blocks8 rs -> bytes_ok (concat rs).
Proof.
  intro H. induction H as [|r rs Hr _ IH]; [constructor|]. cbn [concat]. apply Forall_app. split; [apply Hr|auto].
Qed.
Lemma chunks_blocks8 rs : blocks8 rs -> chunks 8 (concat rs) = rs.
Proof.
  intro H. apply chunks_of_concat; [lia|]. unfold all_len. eapply Forall_impl; [|exact H]. intros a [Ha _]. exact Ha.
Qed.
Lemma blocks8_rev rs : blocks8 rs -> blocks8 (rev rs).
Proof. apply Forall_rev. Qed.
Lemma gocopy_app (d s : bytes) : length s <= length d -> gocopy d s = s ++ skipn (length s) d.
Proof. intro H. unfold gocopy. rewrite firstn_all2 by lia. reflexivity. Qed.

Lemma Ok_inj A (x y : A) : Ok x = Ok y -> x = y.
Proof. congruence. Qed.

Section body.
  Variable c : cipher.
  Hypothesis Hs : bsz c = 16.
  Hypothesis HL : lawful c.
  Lemma wrap_body_shape iv k : isblock 8 iv -> bytes_ok k -> length k mod 8 = 0 ->
    exists a rs, wrap_body c iv k = a ++ concat rs /\ isblock 8 a /\ blocks8 rs /\
      length rs = length k / 8 /\ length (wrap_body c iv k) = length k + 8 /\
      unwrap_passes c 6 (6 * (length k / 8)) a (rev rs) = (0, iv, rev (chunks 8 k)).
  Proof.
    intros Hiv Hk Hm. destruct (wrappable_chunks Hk Hm) as (C1 & C2 & C3).
    unfold wrap_body. rewrite firstn_all2 by (destruct Hiv; lia).
    destruct (wrap_passes c 6 1 iv (chunks 8 k)) as [[t a] rs] eqn:E.
    destruct (passes_back Hs HL Hiv C1 E) as (J1 & J2 & J3 & J4 & J5).
    exists a, rs. split; [reflexivity|]. split; [auto|]. split; [auto|]. split; [lia|]. split.
    - rewrite app_length, blocks8_len by auto. destruct J2. lia.
    - rewrite <- C2. replace (6 * length (chunks 8 k)) with (t - 1) by lia. exact J5.
  Qed.
  Lemma unwrap_wrap_raw iv k : isblock 8 iv -> wrappable k ->
    unwrap_raw c (wrap_body c iv k) = Ok (iv, k).
  Proof.
    intros Hiv (Hk & Hm & H16 & Hmax).
    destruct (wrap_body_shape Hiv Hk Hm) as (a & rs & Ew & Ha & Hrs & Hl & Hlen & U).
    unfold unwrap_raw. rewrite Hlen. replace (length k + 8 - 8) with (length k) by lia.
    rewrite Hm. cbn [negb Nat.eqb orb]. destruct (Nat.ltb_spec (length k) 16); [lia|]. cbn [orb].
    unfold WRAP_MAX. destruct (Z.ltb_spec (2 ^ 31) (Z.of_nat (length k))); [lia|]. rewrite Hs. change (16 <? 16) with false.
    rewrite Ew, firstn_app_exact, skipn_app_exact by apply Ha.
    rewrite chunks_blocks8 by auto. rewrite U. rewrite rev_involutive. rewrite chunks_concat by lia. reflexivity.
  Qed.
  Hypothesis HI : forall b, isblock 16 b -> enc c (dec c b) = b.
  Lemma wrap_unwrap_raw w r out : bytes_ok w -> 8 <= length w -> unwrap_raw c w = Ok (r, out) ->
    isblock 8 r /\ wrappable out /\ length w = length out + 8 /\ wrap_body c r out = w.
  Proof.
    intros Hw H8 E. unfold unwrap_raw in E.
    destruct (Nat.eqb_spec ((length w - 8) mod 8) 0) as [Em|Em]; cbn [negb orb] in E; [|discriminate].
    destruct (Nat.ltb_spec (length w - 8) 16) as [|H16]; cbn [orb] in E; [discriminate|].
    destruct (Z.ltb_spec WRAP_MAX (Z.of_nat (length w - 8))) as [|Hmx]; [discriminate|].
    rewrite Hs in E. change (16 <? 16) with false in E.
    assert (Hsk : length (skipn 8 w) = length w - 8) by apply skipn_length.
    rewrite <- Hsk in *. set (b := skipn 8 w) in *.
    assert (Hb : bytes_ok b) by now apply bytes_ok_skipn.
    destruct (wrappable_chunks Hb Em) as (C1 & C2 & C3).
    assert (Ha : isblock 8 (firstn 8 w)) by (split; [rewrite firstn_length; lia|now apply bytes_ok_firstn]).
    destruct (unwrap_passes c 6 (6 * (length b / 8)) (firstn 8 w) (rev (chunks 8 b))) as [[t a] rs] eqn:U.
    assert (Hle : 6 * length (rev (chunks 8 b)) <= 6 * (length b / 8)) by (rewrite rev_length; lia).
    destruct (passes_forth Hs HL HI Ha (blocks8_rev C1) Hle U) as (J1 & J2 & J3 & J4 & J5).
    injection E as <- <-. rewrite rev_length in *. rewrite rev_involutive in J5.
    assert (Lo : length (concat (rev rs)) = length b).
    { rewrite blocks8_len by now apply blocks8_rev. rewrite rev_length. lia. }
    split; [auto|]. split; [|split].
    - split; [apply blocks8_ok, blocks8_rev; auto|]. rewrite Lo. split; [auto|]. split; [lia|].
      unfold WRAP_MAX in Hmx. lia.
    - rewrite Lo. lia.
    - unfold wrap_body. rewrite firstn_all2 by (destruct J2; lia). rewrite chunks_blocks8 by now apply blocks8_rev.
      replace (t + 1) with 1 in J5 by lia. rewrite J5. unfold b. rewrite chunks_concat by lia. apply firstn_skipn.
  Qed.
  Lemma wrap_body_inj iv iv' k k' : isblock 8 iv -> isblock 8 iv' -> wrappable k -> wrappable k' ->
    wrap_body c iv k = wrap_body c iv' k' -> iv = iv' /\ k = k'.
  Proof.
    intros H1 H2 H3 H4 E. pose proof (unwrap_wrap_raw H1 H3) as U. rewrite E, unwrap_wrap_raw in U by auto.
    injection U as -> ->. auto.
  Qed.
End body.

Lemma wrap_call_ok c iv dst k : bsz c = 16 -> isblock 8 (firstn 8 iv) -> wrappable k -> length k + 8 <= length dst ->
  wrap_call c iv dst k = Ok (wrap_body c (firstn 8 iv) k ++ skipn (length k + 8) dst).
Proof.
  intros Hs Hiv (Hk & Hm & H16 & Hmax) Hd. unfold wrap_call. rewrite Hm. cbn [negb Nat.eqb].
  destruct (Nat.ltb_spec (length dst) (length k + 8)); [lia|].
  destruct (Nat.ltb_spec (length k) 16); [lia|]. cbn [orb].
  unfold WRAP_MAX. destruct (Z.ltb_spec (2 ^ 31) (Z.of_nat (length k))); [lia|]. rewrite Hs. change (16 <? 16) with false.
  destruct Hiv as [Hiv _]. rewrite firstn_length in Hiv.
  destruct (Nat.ltb_spec (length iv) 8); [lia|]. cbn [orb].
  unfold wrap_body. rewrite firstn_firstn, Nat.min_id. reflexivity.
Qed.

(** ** C13 *)
(** The encrypter writes exactly the RFC 3394 ciphertext and nothing beyond it. *)
Theorem C13_wrap_computes : forall c iv dst k, lawful c -> bsz c = 16 -> bytes_ok iv -> 8 <= length iv ->
  wrappable k -> length k + 8 <= length dst ->
  exists ivr, wrap_new c (Some iv) = Ok ivr /\
    wrap_call c ivr dst k =
    Ok (concat (rfc_wrap (enc c) (firstn 8 iv) (chunks 8 k)) ++ skipn (length k + 8) dst).
Proof.
  intros c iv dst k HL Hs Hiv H8 Hk Hd. unfold wrap_new. destruct (Nat.ltb_spec (length iv) 8); [lia|].
  eexists. split; [reflexivity|]. rewrite Hs.
  assert (E8 : firstn 8 (gocopy (repeat 0%Z 16) iv) = firstn 8 iv).
  { unfold gocopy. rewrite repeat_length. rewrite firstn_app, firstn_firstn. rewrite firstn_length.
    replace (8 - Nat.min 16 (length iv)) with 0 by lia. rewrite firstn_O, app_nil_r.
    f_equal. }
  assert (B8 : isblock 8 (firstn 8 iv)) by (split; [rewrite firstn_length; lia|now apply bytes_ok_firstn]).
  rewrite wrap_call_ok by (try rewrite E8; auto). rewrite E8. f_equal. f_equal.
  destruct Hk as (Hk & Hm & H16 & Hmax). destruct (wrappable_chunks Hk Hm) as (C1 & C2 & C3).
  unfold wrap_body. rewrite firstn_firstn, Nat.min_id.
  destruct (wrap_passes c 6 1 (firstn 8 iv) (chunks 8 k)) as [[t a] rs] eqn:E.
  unfold rfc_wrap.
  assert (N0 : length (chunks 8 k) <> 0) by lia.
  assert (Bd : (Z.of_nat ((0 + 6) * length (chunks 8 k) + 1) < 2 ^ 32)%Z) by (rewrite C2; lia).
  pose proof (@passes_rfc c Hs HL (length (chunks 8 k)) N0 6 0 (firstn 8 iv) (chunks 8 k) t a rs eq_refl Bd B8 C1 E) as P.
  change (0 * length (chunks 8 k) + 1) with 1 in P. rewrite P. reflexivity.
Qed.
Print Assumptions C13_wrap_computes.

(** Without an IV the default register A6A6A6A6A6A6A6A6 of the RFC is used. *)
Theorem C13_default_iv : forall c, 8 <= bsz c -> exists ivr, wrap_new c None = Ok ivr /\
  firstn 8 ivr = [166;166;166;166;166;166;166;166]%Z.
Proof.
  intros c H. eexists. split; [reflexivity|]. unfold gocopy, default_iv. rewrite repeat_length.
  generalize dependent (bsz c). intros n H. do 8 (destruct n as [|n]; [lia|]). reflexivity.
Qed.
Print Assumptions C13_default_iv.

Theorem C13_roundtrip : forall c iv dst k w dst2, lawful c -> bsz c = 16 -> isblock 8 (firstn 8 iv) ->
  wrappable k -> wrap_call c iv dst k = Ok w -> length k <= length dst2 ->
  unwrap_call c iv dst2 (firstn (length k + 8) w) = Ok (k ++ skipn (length k) dst2).
Proof.
  intros c iv dst k w dst2 HL Hs Hiv Hk Ew Hd2.
  assert (Hd : length k + 8 <= length dst).
  { unfold wrap_call in Ew. destruct (negb _); [discriminate|].
    destruct (Nat.ltb_spec (length dst) (length k + 8)); [discriminate|lia]. }
  rewrite wrap_call_ok in Ew by auto. apply Ok_inj in Ew; subst w.
  destruct (wrap_body_shape Hs HL Hiv (proj1 Hk) (proj1 (proj2 Hk))) as (a & rs & _ & _ & _ & _ & Hlen & _).
  rewrite firstn_app_exact by exact Hlen.
  unfold unwrap_call. rewrite Hlen.
  replace (length k + 8 - 8) with (length k) by lia.
  replace ((length k + 8) mod 8) with 0.
  2:{ destruct Hk as (_ & Hm & _). replace (length k + 8) with (length k + 1 * 8) by lia.
      rewrite Nat.mod_add by lia. auto. }
  cbn [negb Nat.eqb]. destruct (Nat.ltb_spec (length dst2) (length k)); [lia|].
  destruct (Nat.eqb_spec (length k + 8) 0); [lia|].
  rewrite unwrap_wrap_raw by auto. destruct Hiv as [Hiv _]. rewrite firstn_length in Hiv.
  destruct (Nat.ltb_spec (length iv) 8); [lia|]. rewrite bytes_eqb_refl. now rewrite gocopy_app.
Qed.
Print Assumptions C13_roundtrip.

(** Unwrapping accepts exactly the wrapped keys: any other input of a legal length
    zeroes the output. [legal] lengths are those of wrapped keys. *)
Theorem C13_unwrap_exact : forall c iv dst w, perm16 c -> isblock 8 (firstn 8 iv) -> bytes_ok w ->
  length w mod 8 = 0 -> 24 <= length w -> (Z.of_nat (length w) <= 2 ^ 31 + 8)%Z -> length w - 8 <= length dst ->
  (exists k, wrappable k /\ (forall d, length d = length w -> wrap_call c iv d k = Ok w) /\
     unwrap_call c iv dst w = Ok (k ++ skipn (length k) dst)) \/
  ((forall k d, wrappable k -> length d = length k + 8 -> wrap_call c iv d k <> Ok w) /\
   unwrap_call c iv dst w = Ok (repeat 0%Z (length w - 8) ++ skipn (length w - 8) dst)).
Proof.
  intros c iv dst w [Hs HL HI] Hiv Hw Hm H24 Hmx Hd.
  assert (Hu : unwrap_call c iv dst w =
    match unwrap_raw c w with
    | Err => Ok (gocopy dst (repeat 0%Z (length w - 8)))
    | Panic => Panic
    | Ok (got, out) => if bytes_eqb got (firstn 8 iv) then Ok (gocopy dst out)
          else Ok (gocopy (gocopy dst out) (repeat 0%Z (length w - 8))) end).
  { unfold unwrap_call. rewrite Hm. cbn [negb Nat.eqb]. destruct (Nat.ltb_spec (length dst) (length w - 8)); [lia|].
    destruct (Nat.eqb_spec (length w) 0); [lia|]. destruct (unwrap_raw c w) as [[got out]| |]; try reflexivity.
    destruct Hiv as [Hiv _]. rewrite firstn_length in Hiv. destruct (Nat.ltb_spec (length iv) 8); [lia|]. reflexivity. }
  rewrite Hu. clear Hu.
  destruct (unwrap_raw c w) as [[got out]| |] eqn:E.
  - destruct (wrap_unwrap_raw Hs HL HI Hw ltac:(lia) E) as (R1 & R2 & R3 & R4).
    destruct (bytes_eqb got (firstn 8 iv)) eqn:Eb.
    + apply bytes_eqb_eq in Eb. subst got. left. exists out. split; [auto|]. split.
      * intros d Hd'. rewrite wrap_call_ok by (auto || lia). rewrite R4, skipn_all2, app_nil_r by lia. reflexivity.
      * rewrite gocopy_app by lia. reflexivity.
    + apply bytes_eqb_neq in Eb. right. split.
      * intros k d Hk Hd' Ec. rewrite wrap_call_ok in Ec by (auto || lia).
        rewrite skipn_all2, app_nil_r in Ec by lia. apply Ok_inj in Ec. apply Eb.
        rewrite <- R4 in Ec. apply (wrap_body_inj Hs HL) in Ec; [|auto..]. now symmetry.
      * rewrite (gocopy_app (s := repeat _ _)) by (rewrite repeat_length, gocopy_length; lia).
        rewrite repeat_length. f_equal. f_equal. rewrite gocopy_app by lia.
        rewrite skipn_app_exact by lia. do 2 f_equal. lia.
  - exfalso. unfold unwrap_raw in E. rewrite Hs in E. change (16 <? 16) with false in E.
    replace ((length w - 8) mod 8) with 0 in E.
    2:{ pose proof (Nat.div_mod (length w) 8 ltac:(lia)). rewrite Hm in *.
        replace (length w - 8) with ((length w / 8 - 1) * 8) by lia. now rewrite Nat.mod_mul. }
    cbn [negb Nat.eqb orb] in E.
    destruct (Nat.ltb_spec (length w - 8) 16); [lia|]. cbn [orb] in E.
    unfold WRAP_MAX in E. destruct (Z.ltb_spec (2 ^ 31) (Z.of_nat (length w - 8))); [lia|].
    now destruct (unwrap_passes _ _ _ _ _) as [[? ?] ?].
  - exfalso. unfold unwrap_raw in E. rewrite Hs in E. change (16 <? 16) with false in E.
    destruct (negb _ || _ || _)%bool; [discriminate|].
    now destruct (unwrap_passes _ _ _ _ _) as [[? ?] ?].
Qed.
Print Assumptions C13_unwrap_exact.

(** Inputs the RFC does not allow: the encrypter panics; the decrypter zeroes. *)
Theorem C13_guards : forall c iv dst src, bsz c = 16 -> 8 <= length iv ->
  (wrap_call c iv dst src = Panic <->
   length src mod 8 <> 0 \/ length dst < length src + 8 \/ length src < 16 \/ (2 ^ 31 < Z.of_nat (length src))%Z) /\
  (unwrap_call c iv dst src = Panic <-> length src mod 8 <> 0 \/ length dst < length src - 8) /\
  (length src = 16 -> 8 <= length dst -> unwrap_call c iv dst src = Ok (repeat 0%Z 8 ++ skipn 8 dst)).
Proof.
  intros c iv dst src Hs Hiv. split; [|split].
  - unfold wrap_call, WRAP_MAX. rewrite Hs. change (16 <? 16) with false.
    destruct (Nat.eqb_spec (length src mod 8) 0); cbn [negb]; [|split; auto].
    destruct (Nat.ltb_spec (length dst) (length src + 8)); [split; auto|].
    destruct (Nat.ltb_spec (length src) 16); cbn [orb]; [split; auto|].
    destruct (Z.ltb_spec (2 ^ 31) (Z.of_nat (length src))); [split; auto|].
    destruct (Nat.ltb_spec (length iv) 8); [lia|]. cbn [orb]. split; [discriminate|]. intros [?|[?|[?|?]]]; lia.
  - unfold unwrap_call. destruct (Nat.eqb_spec (length src mod 8) 0); cbn [negb]; [|split; auto].
    destruct (Nat.ltb_spec (length dst) (length src - 8)); [split; auto|].
    split; [|intros [?|?]; lia]. intro E. exfalso. destruct (length src =? 0); [discriminate|].
    unfold unwrap_raw in E. rewrite Hs in E. change (16 <? 16) with false in E.
    destruct (negb _ || _ || _)%bool; [discriminate|].
    destruct (unwrap_passes _ _ _ _ _) as [[? ?] ?]. destruct (Nat.ltb_spec (length iv) 8); [lia|].
    now destruct (bytes_eqb _ _).
  - intros E Hd. unfold unwrap_call, unwrap_raw. rewrite E. cbn [Nat.modulo Nat.divmod fst snd Nat.eqb negb Nat.sub Nat.ltb Nat.leb orb].
    destruct (length dst) as [|[|[|[|[|[|[|[|n]]]]]]]] eqn:Ed; try lia. cbn [Nat.leb].
    change (repeat 0%Z (16 - 8)) with (repeat 0%Z 8). now rewrite gocopy_app by (cbn [length repeat]; lia).
Qed.
Print Assumptions C13_guards.

(** With a 64-bit cipher the "wrapped" key contains the key in the clear: the
    constructor accepts such a cipher (BlockSize is never checked). *)
Lemma wrap_pass_small c (Hs : bsz c = 8) (HL : lawful c) rs : forall t a, isblock 8 a -> blocks8 rs ->
  exists t' a', wrap_pass c t a rs = (t', a', rs) /\ isblock 8 a'.
Proof.
  induction rs as [|r rs IH]; intros t a Ha Hr; cbn [wrap_pass]; [eauto|].
  apply Forall_cons_iff in Hr as [Hr Hrs].
  assert (Ee : enc16 c (a ++ r) = enc c a ++ r).
  { unfold enc16. rewrite Hs, firstn_app_exact, skipn_app_exact by apply Ha. reflexivity. }
  assert (Hea : isblock 8 (enc c a)) by (rewrite <- Hs; apply HL; now rewrite Hs).
  rewrite Ee, firstn_app_exact, skipn_app_exact by apply Hea.
  destruct (IH (t + 1) _ (xor_t_block t Hea) Hrs) as (t' & a' & E & Ha'). rewrite E. eauto.
Qed.
Theorem C13_small_block_refuted : forall c iv dst k, lawful c -> bsz c = 8 -> isblock 8 iv -> wrappable k ->
  length k + 8 <= length dst ->
  exists a, length a = 8 /\ wrap_call c iv dst k = Ok (a ++ k ++ skipn (length k + 8) dst).
Proof.
  intros c iv dst k HL Hs Hiv (Hk & Hm & H16 & Hmax) Hd.
  destruct (wrappable_chunks Hk Hm) as (C1 & C2 & C3).
  assert (P : forall j t a, isblock 8 a -> exists t' a', wrap_passes c j t a (chunks 8 k) = (t', a', chunks 8 k) /\ isblock 8 a').
  { induction j as [|j IH]; intros t a Ha; [cbn; eauto|]. cbn [wrap_passes].
    destruct (wrap_pass_small Hs HL t Ha C1) as (t' & a' & E & Ha'). rewrite E. auto. }
  destruct (P 6 1 iv Hiv) as (t' & a' & E & Ha').
  exists a'. split; [apply Ha'|]. unfold wrap_call, WRAP_MAX. rewrite Hm, Hs. change (16 <? 8) with false. cbn [negb Nat.eqb].
  destruct (Nat.ltb_spec (length dst) (length k + 8)); [lia|].
  destruct (Nat.ltb_spec (length k) 16); [lia|]. cbn [orb].
  destruct (Z.ltb_spec (2 ^ 31) (Z.of_nat (length k))); [lia|]. destruct Hiv as [Hiv _].
  destruct (Nat.ltb_spec (length iv) 8); [lia|]. cbn [orb].
  unfold wrap_body. rewrite firstn_all2 by lia. rewrite E. rewrite chunks_concat by lia. now rewrite <- app_assoc.
Qed.
Print Assumptions C13_small_block_refuted.

(** ** C40: wrap with padding *)
Lemma aiv_block icv n : 4 <= length icv -> bytes_ok icv -> isblock 8 (aiv_of icv n).
Proof.
  intros H Hk. split; [unfold aiv_of; rewrite app_length, firstn_length; cbn [length]; lia|].
  unfold aiv_of. apply Forall_app. split; [now apply bytes_ok_firstn|]. repeat constructor; apply tbyte_byte.
Qed.
Lemma aiv_spec icv n : (Z.of_nat n < 2 ^ 32)%Z -> aiv_of icv n = firstn 4 icv ++ be_bytes 4 (Z.of_nat n).
Proof.
  intro H. unfold aiv_of. f_equal. unfold be_bytes. cbn [le_bytes rev app].
  rewrite !tbyte_val by lia. change (2 ^ 0)%Z with 1%Z. rewrite !Z.div_div, Z.div_1_r by lia. reflexivity.
Qed.
Lemma lor_shift_add x y k : (0 <= k)%Z -> (0 <= y < 2 ^ k)%Z -> Z.lor (Z.shiftl x k) y = (x * 2 ^ k + y)%Z.
Proof.
  intros Hk Hy. rewrite Z.shiftl_mul_pow2 by auto.
  assert (L : Z.land (x * 2 ^ k) y = 0%Z).
  { apply Z.bits_inj'. intros i Hi. rewrite Z.land_spec, Z.bits_0. destruct (Z.ltb_spec i k).
    - rewrite Z.mul_pow2_bits_low by lia. reflexivity.
    - apply andb_false_iff. right. rewrite <- (Z.mod_small y (2 ^ k)) by auto. apply Z.mod_pow2_bits_high. lia. }
  pose proof (Z.add_nocarry_lxor _ _ L). pose proof (Z.lxor_lor _ _ L). congruence.
Qed.
Lemma uint32_of_aiv icv n : 4 <= length icv -> (Z.of_nat n < 2 ^ 32)%Z -> uint32_of (aiv_of icv n) = Z.of_nat n.
Proof.
  intros H Hn. unfold aiv_of. unfold uint32_of.
  rewrite !app_nth2 by (rewrite firstn_length; lia). rewrite firstn_length, Nat.min_l by lia.
  cbn [Nat.sub nth]. rewrite !tbyte_val by lia.
  set (z := Z.of_nat n) in *. assert (Hz : (0 <= z)%Z) by lia.
  pose proof (Z.mod_pos_bound (z / 2 ^ 24) 256 ltac:(lia)). pose proof (Z.mod_pos_bound (z / 2 ^ 16) 256 ltac:(lia)).
  pose proof (Z.mod_pos_bound (z / 2 ^ 8) 256 ltac:(lia)). pose proof (Z.mod_pos_bound (z / 2 ^ 0) 256 ltac:(lia)).
  change (2 ^ 0)%Z with 1%Z in *. rewrite Z.div_1_r in *.
  change (2 ^ 24)%Z with 16777216%Z in *. change (2 ^ 16)%Z with 65536%Z in *. change (2 ^ 8)%Z with 256%Z in *.
  rewrite <- !Z.lor_assoc.
  rewrite (@lor_shift_add _ _ 8) by (change (2 ^ 8)%Z with 256%Z; lia). change (2 ^ 8)%Z with 256%Z.
  rewrite (@lor_shift_add _ _ 16) by (change (2 ^ 16)%Z with 65536%Z; lia). change (2 ^ 16)%Z with 65536%Z.
  rewrite (@lor_shift_add _ _ 24) by (change (2 ^ 24)%Z with 16777216%Z; lia). change (2 ^ 24)%Z with 16777216%Z.
  change (2 ^ 32)%Z with 4294967296%Z in *. Z.div_mod_to_equations. lia.
Qed.

Lemma wrap_new_aiv c icv n : bsz c = 16 -> 4 <= length icv -> bytes_ok icv ->
  exists iv, wrap_new c (Some (aiv_of icv n)) = Ok iv /\ firstn 8 iv = aiv_of icv n.
Proof.
  intros Hs H Hk. unfold wrap_new. destruct (aiv_block n H Hk) as [L _]. rewrite L. cbn [Nat.ltb Nat.leb].
  eexists. split; [reflexivity|]. rewrite Hs. rewrite gocopy_app by (rewrite repeat_length; lia).
  now rewrite firstn_app_exact.
Qed.

(** What the encrypter writes is the RFC 5649 ciphertext: AIV = ICV || 32-bit length,
    one cipher call for 8 bytes, the RFC 3394 process for more. *)
Theorem C40_wrap_computes : forall c icv dst k, lawful c -> bsz c = 16 -> bytes_ok icv -> 4 <= length icv ->
  bytes_ok k -> length k mod 8 = 0 -> 8 <= length k -> (Z.of_nat (length k) < 2 ^ 31)%Z -> length k + 8 <= length dst ->
  let aiv := firstn 4 icv ++ be_bytes 4 (Z.of_nat (length k)) in
  wrappad_call c icv dst k =
  Ok ((if length k =? 8 then enc c (aiv ++ k) else concat (rfc_wrap (enc c) aiv (chunks 8 k)))
      ++ skipn (length k + 8) dst).
Proof.
  intros c icv dst k HL Hs Hicv H4 Hk Hm H8 Hmx Hd aiv.
  unfold wrappad_call, WRAP_MAX. rewrite Hm. cbn [negb Nat.eqb].
  destruct (Nat.ltb_spec (length dst) (length k + 8)); [lia|].
  destruct (Nat.eqb_spec (length k) 0); [lia|]. cbn [orb].
  destruct (Z.leb_spec (2 ^ 31) (Z.of_nat (length k))); [lia|].
  destruct (Nat.ltb_spec (length icv) 4); [lia|].
  pose proof (aiv_block (length k) H4 Hicv) as Ba.
  assert (Ea : aiv_of icv (length k) = aiv) by (apply aiv_spec; lia).
  destruct (Nat.eqb_spec (length k) 8) as [E8|N8].
  - rewrite Hs. cbn [Nat.ltb Nat.leb]. rewrite Ea. unfold enc16. rewrite Hs.
    assert (L : length (aiv ++ k) = 16) by (rewrite app_length, E8; rewrite Ea in Ba; destruct Ba; lia).
    rewrite firstn_all2, skipn_all2, app_nil_r by lia. now rewrite E8.
  - rewrite Ea in *.
    assert (W : wrappable k).
    { split; [auto|]. split; [auto|]. pose proof (Nat.div_mod (length k) 8 ltac:(lia)). split; [|lia].
      destruct (Nat.eq_dec (length k / 8) 1); lia. }
    destruct (@C13_wrap_computes c aiv dst k HL Hs (proj2 Ba) ltac:(destruct Ba; lia) W ltac:(lia)) as (ivr & E1 & E2).
    rewrite E1. cbn [rbind]. rewrite E2. rewrite firstn_all2 by (destruct Ba; lia). reflexivity.
Qed.
Print Assumptions C40_wrap_computes.

(** [padw c icv m k]: the RFC 5649 ciphertext announcing a plaintext length of m, for the padded
    text k of at least two semiblocks. The code's encrypter only produces m = length k. *)
Definition padw (c : cipher) (icv : bytes) (m : nat) (k : bytes) : bytes :=
  concat (rfc_wrap (enc c) (firstn 4 icv ++ be_bytes 4 (Z.of_nat m)) (chunks 8 k)).

Lemma padw_body c icv m k : lawful c -> bsz c = 16 -> bytes_ok icv -> 4 <= length icv -> wrappable k ->
  (Z.of_nat m < 2 ^ 32)%Z -> padw c icv m k = wrap_body c (aiv_of icv m) k.
Proof.
  intros HL Hs Hicv H4 Hk Hm. unfold padw. rewrite <- aiv_spec by auto.
  destruct (wrap_new_aiv m Hs H4 Hicv) as (iv & E1 & E2). pose proof (aiv_block m H4 Hicv) as Ba.
  destruct (@C13_wrap_computes c (aiv_of icv m) (repeat 0%Z (length k + 8)) k HL Hs (proj2 Ba) ltac:(destruct Ba; lia) Hk
              ltac:(rewrite repeat_length; lia)) as (ivr & F1 & F2).
  rewrite E1 in F1. apply Ok_inj in F1; subst ivr. rewrite wrap_call_ok in F2 by (try rewrite E2; auto; rewrite repeat_length; lia).
  rewrite !(skipn_all2 (repeat _ _)), !app_nil_r in F2 by (rewrite repeat_length; lia).
  apply Ok_inj in F2. rewrite E2 in F2. rewrite (firstn_all2 (aiv_of icv m)) in F2 by (destruct Ba; lia). now symmetry.
Qed.

(** What the decrypter does on an authentic RFC 5649 ciphertext with two or more semiblocks. *)
Lemma unwrappad_authentic c icv dst m k : lawful c -> bsz c = 16 -> bytes_ok icv -> 4 <= length icv -> wrappable k ->
  (Z.of_nat (length k) < 2 ^ 31)%Z -> length k - 8 < m <= length k -> length k <= length dst ->
  unwrappad_call c icv dst (padw c icv m k) =
  if (m <? length dst) && bytes_eqb (skipn m (k ++ skipn (length k) dst)) (repeat 0%Z (length k - m))
  then Ok (repeat 0%Z (length k) ++ skipn (length k) dst) else Ok (k ++ skipn (length k) dst).
Proof.
  intros HL Hs Hicv H4 Hk Hmx Hm Hd. pose proof (aiv_block m H4 Hicv) as Ba.
  rewrite padw_body by (auto || lia).
  destruct (wrap_body_shape Hs HL Ba (proj1 Hk) (proj1 (proj2 Hk))) as (a & rs & _ & _ & _ & _ & Hlen & _).
  pose proof Hk as (Hk1 & Hk2 & Hk3 & _). pose proof (Nat.div_mod (length k) 8 ltac:(lia)) as DM. rewrite Hk2 in DM.
  unfold unwrappad_call. rewrite Hlen. replace (length k + 8 - 8) with (length k) by lia.
  replace ((length k + 8) mod 8) with 0
    by (replace (length k + 8) with (length k + 1 * 8) by lia; rewrite Nat.mod_add by lia; auto).
  cbn [negb Nat.eqb]. destruct (Nat.ltb_spec (length dst) (length k)); [lia|].
  destruct (Nat.eqb_spec (length k + 8) 0); [lia|]. destruct (Nat.ltb_spec (length k + 8) 16); [lia|]. cbn [orb].
  unfold WRAP_MAX. destruct (Z.ltb_spec (2 ^ 31) (Z.of_nat (length k + 8))); [lia|].
  destruct (Nat.eqb_spec (length k + 8) 16); [lia|]. rewrite unwrap_wrap_raw by auto.
  replace ((length k + 8) / 8 - 1) with (length k / 8)
    by (replace (length k + 8) with (length k + 1 * 8) by lia; rewrite Nat.div_add by lia; lia).
  unfold wrappad_finish. destruct (Nat.ltb_spec (length icv) 4); [lia|].
  assert (F4 : firstn 4 (aiv_of icv m) = firstn 4 icv).
  { unfold aiv_of. apply firstn_app_exact. rewrite firstn_length. lia. }
  rewrite F4, bytes_eqb_refl. cbn [negb]. rewrite uint32_of_aiv by (auto || lia).
  set (nb := length k / 8) in *.
  assert (En : (Z.of_nat nb mod 2 ^ 32 = Z.of_nat nb)%Z) by (apply Z.mod_small; lia). rewrite En.
  rewrite (Z.mod_small (8 * (Z.of_nat nb - 1)) (2 ^ 32)) by lia. rewrite (Z.mod_small (8 * Z.of_nat nb) (2 ^ 32)) by lia.
  destruct (Z.leb_spec (Z.of_nat m) (8 * (Z.of_nat nb - 1))); [lia|].
  destruct (Z.ltb_spec (8 * Z.of_nat nb) (Z.of_nat m)); [lia|]. cbn [orb].
  rewrite (gocopy_app (d := dst) (s := k)) by lia.
  assert (Ld : length (k ++ skipn (length k) dst) = length dst) by (rewrite app_length, skipn_length; lia). rewrite Ld.
  replace (Z.of_nat m <? Z.of_nat (length dst))%Z with (m <? length dst)
    by (destruct (Nat.ltb_spec m (length dst)), (Z.ltb_spec (Z.of_nat m) (Z.of_nat (length dst))); auto; lia).
  destruct (m <? length dst); [|reflexivity]. cbn [andb].
  destruct (Z.ltb_spec (Z.of_nat (length k) - Z.of_nat m) 0); [lia|].
  destruct (Z.ltb_spec 8 (Z.of_nat (length k) - Z.of_nat m)); [lia|]. cbn [orb].
  rewrite Nat2Z.id. replace (Z.to_nat (Z.of_nat (length k) - Z.of_nat m)) with (length k - m) by lia.
  destruct (bytes_eqb _ _); [|reflexivity].
  rewrite gocopy_app by (rewrite repeat_length, Ld; lia). rewrite repeat_length, skipn_app_exact by auto. reflexivity.
Qed.

Theorem C40_roundtrip : forall c icv dst k w dst2, lawful c -> bsz c = 16 -> bytes_ok icv -> 4 <= length icv ->
  wrappable k -> (Z.of_nat (length k) < 2 ^ 31)%Z ->
  wrappad_call c icv dst k = Ok w -> length k + 8 <= length dst -> length k <= length dst2 ->
  unwrappad_call c icv dst2 (firstn (length k + 8) w) = Ok (k ++ skipn (length k) dst2).
Proof.
  intros c icv dst k w dst2 HL Hs Hicv H4 Hk Hmx Ew Hd Hd2. pose proof Hk as (K1 & K2 & K3 & _).
  rewrite C40_wrap_computes in Ew by (auto || lia). apply Ok_inj in Ew; subst w.
  destruct (Nat.eqb_spec (length k) 8); [lia|]. fold (padw c icv (length k) k).
  assert (L : length (padw c icv (length k) k) = length k + 8).
  { rewrite padw_body by (auto || lia).
    destruct (wrap_body_shape Hs HL (aiv_block (length k) H4 Hicv) K1 K2) as (a & rs & _ & _ & _ & _ & Hlen & _). exact Hlen. }
  rewrite firstn_app_exact by exact L. rewrite unwrappad_authentic by (auto || lia).
  rewrite skipn_app_exact by reflexivity. rewrite Nat.sub_diag. cbn [repeat].
  destruct (Nat.ltb_spec (length k) (length dst2)); [|reflexivity]. cbn [andb].
  destruct (bytes_eqb (skipn (length k) dst2) []) eqn:E; [|reflexivity].
  apply bytes_eqb_eq in E. apply (f_equal (@length Z)) in E. rewrite skipn_length in E. cbn in E. lia.
Qed.
Print Assumptions C40_roundtrip.

(** One semiblock: it round-trips into an 8-byte destination, and into any longer one the
    decrypter panics although the ciphertext is authentic. *)
Theorem C40_single_block : forall c icv dst k w dst2, lawful c -> bsz c = 16 -> bytes_ok icv -> 4 <= length icv ->
  isblock 8 k -> wrappad_call c icv dst k = Ok w -> 16 <= length dst ->
  (length dst2 = 8 -> unwrappad_call c icv dst2 (firstn 16 w) = Ok k) /\
  (8 < length dst2 -> unwrappad_call c icv dst2 (firstn 16 w) = Panic).
Proof.
  intros c icv dst k w dst2 HL Hs Hicv H4 [Hk8 Hk] Ew Hd.
  rewrite C40_wrap_computes in Ew by (rewrite ?Hk8; (auto || lia || reflexivity)). apply Ok_inj in Ew; subst w. rewrite Hk8.
  cbn [Nat.eqb]. rewrite <- aiv_spec by lia. pose proof (aiv_block 8 H4 Hicv) as Ba.
  set (aiv := aiv_of icv 8) in *. assert (Hx : isblock (bsz c) (aiv ++ k)) by (rewrite Hs; apply (isblock_app Ba); split; auto).
  pose proof (law_enc HL Hx) as He. pose proof (law_inv HL Hx) as Hinv. rewrite Hs in He.
  rewrite firstn_app_exact by apply He. destruct He as [Le _].
  assert (U : 8 <= length dst2 -> unwrappad_call c icv dst2 (enc c (aiv ++ k)) =
     wrappad_finish icv aiv 1 0 (gocopy dst2 k) (repeat 0%Z 8)).
  { intro H. unfold unwrappad_call. rewrite Le. cbn [Nat.modulo Nat.divmod fst snd Nat.sub Nat.eqb negb Nat.ltb Nat.leb orb].
    destruct (Nat.ltb_spec (length dst2) 8); [lia|]. unfold WRAP_MAX. rewrite Hs. change (16 <? 16) with false.
    change (2 ^ 31 <? Z.of_nat 16)%Z with false. change (16 / 8 - 1) with 1.
    replace (firstn 16 (enc c (aiv ++ k))) with (enc c (aiv ++ k)) by (rewrite firstn_all2 by lia; reflexivity).
    cbv zeta. change (16 - 16) with 0. cbn [repeat]. rewrite app_nil_r.
    destruct (Nat.leb_spec (length dst2) 7) as [Eq|Eq]; [lia|].
    rewrite Hinv. unfold slice. rewrite firstn_app_exact, skipn_app_exact by apply Ba. rewrite firstn_all2 by lia. reflexivity. }
  assert (F : forall d, wrappad_finish icv aiv 1 0 d (repeat 0%Z 8) = if 8 <? length d then Panic else Ok d).
  { intro d. unfold wrappad_finish. destruct (Nat.ltb_spec (length icv) 4); [lia|].
    assert (F4 : firstn 4 aiv = firstn 4 icv) by (apply firstn_app_exact; rewrite firstn_length; lia).
    rewrite F4, bytes_eqb_refl. cbn [negb]. unfold aiv. rewrite uint32_of_aiv by (auto || lia).
    change (Z.of_nat 1 mod 2 ^ 32)%Z with 1%Z. change (Z.of_nat 8) with 8%Z. change (Z.of_nat 0) with 0%Z.
    change ((8 <=? (8 * (1 - 1)) mod 2 ^ 32)%Z || ((8 * 1) mod 2 ^ 32 <? 8)%Z)%bool with false.
    change ((0 - 8 <? 0)%Z || (8 <? 0 - 8)%Z)%bool with true. cbv iota zeta.
    destruct (Z.ltb_spec 8 (Z.of_nat (length d))), (Nat.ltb_spec 8 (length d)); auto; lia. }
  split; intro H; rewrite U, F, gocopy_length by lia.
  - rewrite H. cbn [Nat.ltb Nat.leb]. rewrite gocopy_app by lia. rewrite skipn_all2, app_nil_r by lia. reflexivity.
  - destruct (Nat.ltb_spec 8 (length dst2)); [reflexivity|lia].
Qed.
Print Assumptions C40_single_block.

(** The padding check is inverted: with a destination of exactly the padded length, an authentic
    ciphertext whose padding is all zeros (as the RFC demands) is rejected and the output zeroed,
    and one whose padding is not zero is accepted. *)
Theorem C40_padding_check_refuted : forall c icv dst m k, lawful c -> bsz c = 16 -> bytes_ok icv -> 4 <= length icv ->
  wrappable k -> (Z.of_nat (length k) < 2 ^ 31)%Z -> length k - 8 < m < length k -> length dst = length k ->
  (skipn m k = repeat 0%Z (length k - m) ->
   unwrappad_call c icv dst (padw c icv m k) = Ok (repeat 0%Z (length k))) /\
  (skipn m k <> repeat 0%Z (length k - m) ->
   unwrappad_call c icv dst (padw c icv m k) = Ok k).
Proof.
  intros c icv dst m k HL Hs Hicv H4 Hk Hmx Hm Hd.
  rewrite unwrappad_authentic by (auto || lia). rewrite (@skipn_all2 Z (length k) dst), !app_nil_r by lia.
  destruct (Nat.ltb_spec m (length dst)); [|lia]. cbn [andb]. split; intro E.
  - rewrite E, bytes_eqb_refl. reflexivity.
  - apply bytes_eqb_neq in E. rewrite E. reflexivity.
Qed.
Print Assumptions C40_padding_check_refuted.

(** Inputs of lengths that are not multiples of 8 - the ones the padding is for - panic;
    an empty input and one of 2^31 bytes or more leave dst as it was. *)
Theorem C40_guards : forall c icv dst src, 4 <= length icv -> bsz c = 16 ->
  (length src mod 8 <> 0 -> wrappad_call c icv dst src = Panic) /\
  (length dst < length src + 8 -> wrappad_call c icv dst src = Panic) /\
  (src = [] -> 8 <= length dst -> wrappad_call c icv dst src = Ok dst) /\
  (length src mod 8 = 0 -> length src + 8 <= length dst -> (2 ^ 31 <= Z.of_nat (length src))%Z ->
   wrappad_call c icv dst src = Ok dst) /\
  (src = [] -> unwrappad_call c icv dst src = Ok dst) /\
  (length src = 8 -> unwrappad_call c icv dst src = Ok dst).
Proof.
  intros c icv dst src H4 Hs. unfold wrappad_call, WRAP_MAX. repeat split; intros.
  - destruct (Nat.eqb_spec (length src mod 8) 0); [lia|reflexivity].
  - destruct (negb _); [reflexivity|]. destruct (Nat.ltb_spec (length dst) (length src + 8)); [reflexivity|lia].
  - subst. cbn. destruct (Nat.leb_spec (length dst) 7); [lia|reflexivity].
  - rewrite H. cbn [negb Nat.eqb]. destruct (Nat.ltb_spec (length dst) (length src + 8)); [lia|].
    destruct (Z.leb_spec (2 ^ 31) (Z.of_nat (length src))); [|lia]. now rewrite orb_true_r.
  - subst. reflexivity.
  - unfold unwrappad_call. rewrite H. reflexivity.
Qed.
Print Assumptions C40_guards.

(** Non-vacuity. *)
Lemma pred_succ_byte x : is_byte x -> (((x - 1) mod 256 + 1) mod 256 = x)%Z.
Proof. unfold is_byte. intro H. rewrite Zplus_mod_idemp_l, Z.sub_add. apply Z.mod_small. lia. Qed.
Lemma toyn_perm16 : perm16 (toyn 16).
Proof.
  split; [reflexivity|apply toyn_lawful; lia|].
  intros b [Hl Hb]. cbn [enc dec toyn]. rewrite Hl. cbn [Nat.eqb Nat.sub].
  do 16 (destruct b as [|? b]; [discriminate|]). destruct b; [|discriminate].
  unfold bytes_ok in Hb. repeat match goal with H : Forall is_byte (_ :: _) |- _ => apply Forall_cons_iff in H as [? H] end.
  cbn [skipn firstn app map length Nat.eqb]. repeat rewrite pred_succ_byte by assumption. reflexivity.
Qed.
Definition key24 : bytes := map Z.of_nat (seq 200 24).
Example C13_instance : perm16 (toyn 16) /\ wrappable key24 /\
  match wrap_new (toyn 16) None with
  | Ok iv => match wrap_call (toyn 16) iv (repeat 0%Z 32) key24 with
     | Ok w => w <> repeat 0%Z 32 /\ unwrap_call (toyn 16) iv (repeat 9%Z 26) w = Ok (key24 ++ [9; 9]%Z) /\
               unwrap_call (toyn 16) iv (repeat 9%Z 24) (map (fun b => (b + 1) mod 256)%Z w) = Ok (repeat 0%Z 24)
     | _ => False end
  | _ => False end.
Proof.
  split; [apply toyn_perm16|]. split.
  - split; [|split; [reflexivity|split; vm_compute; [lia|discriminate]]].
    unfold key24. apply Forall_forall. intros x Hx. apply in_map_iff in Hx as (y & <- & Hy). apply in_seq in Hy.
    unfold is_byte. lia.
  - vm_compute. repeat split; discriminate.
Qed.
Example C40_instance :
  match wrappad_new (toyn 16) None with
  | Ok icv =>
     unwrappad_call (toyn 16) icv (repeat 9%Z 16) (padw (toyn 16) icv 13 ([1;2;3;4;5;6;7;8;9;10;11;12;13]%Z ++ repeat 0%Z 3))
       = Ok (repeat 0%Z 16) /\
     unwrappad_call (toyn 16) icv (repeat 9%Z 16) (padw (toyn 16) icv 13 ([1;2;3;4;5;6;7;8;9;10;11;12;13;7;7;7]%Z))
       = Ok [1;2;3;4;5;6;7;8;9;10;11;12;13;7;7;7]%Z /\
     match wrappad_call (toyn 16) icv (repeat 0%Z 32) key24 with
     | Ok w => unwrappad_call (toyn 16) icv (repeat 9%Z 24) w = Ok key24 | _ => False end
  | _ => False end.
Proof. vm_compute. repeat split. Qed.
