(** C50-C53: the ciphers HIGHT, NOEKEON, GOST 28147-89 and Magma. *)
From Verif Require Import Base BlockModeModel CipherLaws WordModel BlkSpec WordLib UndoLib ZtailSpec ZtailModel ZtailProofs Small1Model HexLit ArxProofs.
From Coq Require Import String.
Set Implicit Arguments. Unset Strict Implicit.
Local Open Scope nat_scope.

(** ** HIGHT *)
Lemma eight_words w s : wordsok w 8 s -> exists a b c d e f g h, s = [a; b; c; d; e; f; g; h] /\ inw w a /\ inw w b /\ inw w c /\ inw w d /\ inw w e /\ inw w f /\ inw w g /\ inw w h.
Proof.
  intros [L F]. destruct s as [|a [|b [|c [|d [|e [|f [|g [|h [|x s]]]]]]]]]; try discriminate.
  repeat match goal with H : Forall _ (_ :: _) |- _ => inversion H; clear H; subst end.
  exists a, b, c, d, e, f, g, h. auto 12.
Qed.
Lemma wordsok_8 w a b c d e f g h : inw w a -> inw w b -> inw w c -> inw w d -> inw w e -> inw w f -> inw w g -> inw w h -> wordsok w 8 [a; b; c; d; e; f; g; h].
Proof. intros. split; [reflexivity|]. repeat (apply Forall_cons; [assumption|]). constructor. Qed.
Lemma nth_upd_same i v l : i < List.length l -> (upd i v l).[i] = v.
Proof. revert l. induction i as [|i IH]; intros [|x l] H; cbn in *; try lia. apply IH. lia. Qed.
Lemma nth_upd_other i j v l : i <> j -> (upd i v l).[j] = l.[j].
Proof. revert j l. induction i as [|i IH]; intros [|j] [|x l] H; cbn; try reflexivity; try lia. apply IH. lia. Qed.
Lemma upd_upd i v w l : upd i v (upd i w l) = upd i v l.
Proof. revert l. induction i as [|i IH]; intros [|x l]; cbn; try reflexivity. f_equal. apply IH. Qed.
Lemma upd_self i l : upd i l.[i] l = l.
Proof. revert l. induction i as [|i IH]; intros [|x l]; cbn; try reflexivity. f_equal. apply IH. Qed.
Lemma upd_comm i j v w l : i <> j -> upd i v (upd j w l) = upd j w (upd i v l).
Proof. revert j l. induction i as [|i IH]; intros [|j] [|x l] H; cbn; try reflexivity; try lia. f_equal. apply IH. lia. Qed.
Section hight.
Definition ok8 := wordsok 8 8.
Lemma hight_xor_ok i j k s : ok8 s -> ok8 (hight_xor i j k s).
Proof. intros [L F]. unfold hight_xor. split; [rewrite upd_len; auto|]. apply upd_Forall; auto. apply inw_xor; [lia| |words]. apply nth_inw; auto; lia. Qed.
Lemma hight_add_ok i j k s : ok8 s -> ok8 (hight_add i j k s).
Proof. intros [L F]. unfold hight_add. split; [rewrite upd_len; auto|]. apply upd_Forall; auto. words. Qed.
Lemma hight_sub_ok i j k s : ok8 s -> ok8 (hight_sub i j k s).
Proof. intros [L F]. unfold hight_sub. split; [rewrite upd_len; auto|]. apply upd_Forall; auto. words. Qed.
Lemma hight_xor_xor i j k s : ok8 s -> i < 8 -> i <> j -> hight_xor i j k (hight_xor i j k s) = s.
Proof.
  intros [L F] I J. unfold hight_xor. rewrite nth_upd_same by lia. rewrite (@nth_upd_other i j) by auto. rewrite upd_upd, lxor_cancel_r. apply upd_self.
Qed.
Lemma hight_sub_add i j k s : ok8 s -> i < 8 -> i <> j -> hight_sub i j k (hight_add i j k s) = s.
Proof.
  intros [L F] I J. unfold hight_sub, hight_add. rewrite nth_upd_same by lia. rewrite (@nth_upd_other i j) by auto. rewrite upd_upd.
  rewrite wsub_wadd; [apply upd_self|lia|]. apply nth_inw; auto; lia.
Qed.
Lemma hight_sub_add_comm i j k i' j' k' s : i <> i' -> i <> j' -> i' <> j -> hight_sub i j k (hight_add i' j' k' s) = hight_add i' j' k' (hight_sub i j k s).
Proof. intros A B C. unfold hight_sub, hight_add. rewrite !nth_upd_other by auto. apply upd_comm; auto. Qed.
Lemma hight_sub_xor_comm i j k i' j' k' s : i <> i' -> i <> j' -> i' <> j -> hight_sub i j k (hight_xor i' j' k' s) = hight_xor i' j' k' (hight_sub i j k s).
Proof. intros A B C. unfold hight_sub, hight_xor. rewrite !nth_upd_other by auto. apply upd_comm; auto. Qed.
Lemma hight_xor_add_comm i j k i' j' k' s : i <> i' -> i <> j' -> i' <> j -> hight_xor i j k (hight_add i' j' k' s) = hight_add i' j' k' (hight_xor i j k s).
Proof. intros A B C. unfold hight_xor, hight_add. rewrite !nth_upd_other by auto. apply upd_comm; auto. Qed.
Lemma hight_eix_lt i m : hight_eix i m < 8. Proof. unfold hight_eix. lia. Qed.
Lemma hight_eix_neq i m n : m < 8 -> n < 8 -> m <> n -> hight_eix i m <> hight_eix i n.
Proof.
  intros M N D. unfold hight_eix. pose proof (Nat.mod_upper_bound (i - 2 + m) 8 ltac:(lia)). pose proof (Nat.mod_upper_bound (i - 2 + n) 8 ltac:(lia)).
  pose proof (Nat.div_mod (i - 2 + m) 8 ltac:(lia)). pose proof (Nat.div_mod (i - 2 + n) 8 ltac:(lia)). lia.
Qed.
Lemma hight_dix_eix i m : 2 <= i <= 33 -> m < 8 -> hight_dix i m = hight_eix i ((m + 1) mod 8).
Proof.
  intros I M. destruct i as [|[|i]]; [lia|lia|].
  do 32 (destruct i as [|i]; [do 8 (destruct m as [|m]; [reflexivity|]); lia|]). lia.
Qed.
Lemma hight_rnd_undone rk i : 2 <= i <= 33 -> undoes ok8 (fun s => hight_rnd rk s i) (fun s => hight_unrnd rk s i).
Proof.
  intros R s H. split; [|split].
  - apply hight_add_ok, hight_xor_ok, hight_add_ok, hight_xor_ok, H.
  - apply hight_xor_ok, hight_sub_ok, hight_xor_ok, hight_sub_ok, H.
  - unfold hight_rnd, hight_unrnd. rewrite !hight_dix_eix by lia.
    change ((0 + 1) mod 8) with 1. change ((1 + 1) mod 8) with 2. change ((2 + 1) mod 8) with 3. change ((3 + 1) mod 8) with 4.
    change ((4 + 1) mod 8) with 5. change ((5 + 1) mod 8) with 6. change ((6 + 1) mod 8) with 7. change ((7 + 1) mod 8) with 0.
    assert (N : forall m n, m < 8 -> n < 8 -> m <> n -> hight_eix i m <> hight_eix i n) by (intros; apply hight_eix_neq; auto).
    assert (B : forall m, hight_eix i m < 8) by (intros; apply hight_eix_lt).
    assert (K0 := hight_xor_ok (hight_eix i 0) (hight_eix i 1) rk.[4 * i + 3] H). set (s1 := hight_xor _ _ _ s) in *.
    assert (K1 := hight_add_ok (hight_eix i 2) (hight_eix i 3) rk.[4 * i + 2] K0). set (s2 := hight_add _ _ _ s1) in *.
    rewrite hight_sub_add_comm by (apply N; lia). rewrite hight_sub_xor_comm by (apply N; lia).
    rewrite hight_sub_add by (try (apply N; lia); auto; apply hight_sub_ok, hight_xor_ok; auto).
    rewrite hight_sub_xor_comm by (apply N; lia). unfold s2. rewrite hight_sub_add by (auto; apply N; lia).
    rewrite hight_xor_xor by (auto; apply N; lia). apply hight_xor_xor; auto. apply N; lia.
Qed.
Variable rk : list Z.
Hypothesis RK : forall i, inw 8 rk.[i].
Lemma hight_pre_undone : undoes ok8 (hight_pre rk) (hight_unpre rk).
Proof.
  intros s H. destruct (eight_words H) as (a & b & c & d & e & f & g & h & -> & A & B & C & D & E & F & G & HH).
  unfold hight_pre, hight_unpre. cbn [nth]. split; [apply wordsok_8; words|split; [apply wordsok_8; words|]].
  rewrite !wsub_wadd, !lxor_cancel_r by words. reflexivity.
Qed.
Lemma hight_post_undone : undoes ok8 (hight_post rk) (hight_unpost rk).
Proof.
  intros s H. destruct (eight_words H) as (a & b & c & d & e & f & g & h & -> & A & B & C & D & E & F & G & HH).
  unfold hight_post, hight_unpost. cbn [nth]. split; [apply wordsok_8; words|split; [apply wordsok_8; words|]].
  rewrite !wsub_wadd, !lxor_cancel_r by words. reflexivity.
Qed.
Lemma hight_lawful : lawful (hight_cph rk).
Proof.
  apply word_lawful_u with 8%Z; try lia.
  apply (undoes_3 (f2 := fun s => fold_left (hight_rnd rk) (ups 2 32 1) s) (g2 := fun s => fold_left (hight_unrnd rk) (downs 33 32 1) s)
    hight_pre_undone); [|apply hight_post_undone].
  apply undoes_rounds with (J := fun i => 2 <= i <= 33).
  - apply downs_rev. lia.
  - apply Forall_ups. lia.
  - intros; apply hight_rnd_undone; auto.
Qed.
End hight.
Lemma hight_expand_ok key i : bytes_ok key -> inw 8 (hight_expand key).[i].
Proof.
  intros O. apply nth_inw; [lia|]. assert (K : forall j, inw 8 key.[j]).
  { intros j. apply nth_inw; [lia|]. eapply Forall_impl; [|exact O]. intros b B. exact B. }
  unfold hight_expand. rewrite !Forall_app. split; [|split].
  - apply Forall_map, Forall_forall. auto.
  - apply Forall_map, Forall_forall. auto.
  - apply Forall_flat_map. apply Forall_forall. intros j _. apply Forall_app. split; apply Forall_map, Forall_forall; intros; words.
Qed.
Theorem C50_hight : cipher_for [16] 8 hight_new hight_encrypt hight_decrypt.
Proof.
  apply (@cipher_one _ 16 8 hight_expand hight_cph). intros key O L. split; [|reflexivity]. apply hight_lawful. intros; apply hight_expand_ok; auto.
Qed.
Print Assumptions C50_hight.
Example C50_instance :
  kat (hight_new (hx "00000000000000000000000000000000")) hight_encrypt hight_decrypt "842dc7a5b57b7af3" "6e950f179e145921".
Proof. kats. Qed.

(** ** NOEKEON *)
Ltac bits_lxor := apply Z.bits_inj'; intros ?n ?Hn; rewrite ?Z.lxor_spec;
  repeat match goal with |- context [Z.testbit ?x ?i] => let b := fresh in generalize (Z.testbit x i); intros b end;
  repeat match goal with b : bool |- _ => destruct b end; reflexivity.
Lemma nk_t_ok x : inw 32 x -> inw 32 (nk_t x). Proof. intros. unfold nk_t. words. Qed.
Lemma nk_t_xor x y : inw 32 x -> inw 32 y -> nk_t (Z.lxor x y) = Z.lxor (nk_t x) (nk_t y).
Proof. intros X Y. unfold nk_t, rotr. rewrite !rotl_xor by (auto; lia). bits_lxor. Qed.
Definition ok32 := wordsok 32 4.
Lemma nk_theta_ok k s : ok32 k -> ok32 s -> ok32 (nk_theta k s).
Proof.
  intros K H. destruct (four_words K) as (k0 & k1 & k2 & k3 & -> & K0 & K1 & K2 & K3).
  destruct (four_words H) as (a & b & c & d & -> & A & B & C & D). unfold nk_theta. cbn [nth].
  assert (T := nk_t_ok). apply wordsok_4; words.
Qed.
Lemma nk_ktheta_ok s : ok32 s -> ok32 (nk_ktheta s).
Proof.
  intros H. destruct (four_words H) as (a & b & c & d & -> & A & B & C & D). unfold nk_ktheta. cbn [nth].
  assert (T := nk_t_ok). apply wordsok_4; words.
Qed.
Lemma nk_theta_inv k s : ok32 k -> ok32 s -> nk_theta (nk_ktheta k) (nk_theta k s) = s.
Proof.
  intros K H. destruct (four_words K) as (k0 & k1 & k2 & k3 & -> & K0 & K1 & K2 & K3).
  destruct (four_words H) as (a & b & c & d & -> & A & B & C & D). unfold nk_theta, nk_ktheta. cbn [nth].
  assert (T := nk_t_ok).
  set (t := nk_t (Z.lxor a c)). set (tk := nk_t (Z.lxor k0 k2)). set (u := nk_t (Z.lxor b d)). set (uk := nk_t (Z.lxor k1 k3)).
  assert (TI : inw 32 t) by (apply T; words). assert (TKI : inw 32 tk) by (apply T; words).
  assert (UI : inw 32 u) by (apply T; words). assert (UKI : inw 32 uk) by (apply T; words).
  assert (E1 : nk_t (Z.lxor (Z.lxor b (Z.lxor t k1)) (Z.lxor d (Z.lxor t k3))) = Z.lxor u uk).
  { unfold u, uk. rewrite <- nk_t_xor by words. f_equal. bits_lxor. }
  assert (E2 : nk_t (Z.lxor (Z.lxor k1 tk) (Z.lxor k3 tk)) = uk) by (unfold uk; f_equal; bits_lxor).
  rewrite E1, E2.
  assert (E3 : nk_t (Z.lxor (Z.lxor a (Z.lxor (Z.lxor u uk) k0)) (Z.lxor c (Z.lxor (Z.lxor u uk) k2))) = Z.lxor t tk).
  { unfold t, tk. rewrite <- nk_t_xor by words. f_equal. bits_lxor. }
  rewrite E3.
  assert (E4 : Z.lxor (Z.lxor b (Z.lxor t k1)) (Z.lxor (Z.lxor t tk) (Z.lxor k1 tk)) = b) by bits_lxor.
  assert (E5 : Z.lxor (Z.lxor d (Z.lxor t k3)) (Z.lxor (Z.lxor t tk) (Z.lxor k3 tk)) = d) by bits_lxor.
  rewrite E4, E5. fold u. f_equal; [bits_lxor|]. f_equal. f_equal. bits_lxor.
Qed.
Lemma nk_gamma_ok s : ok32 s -> ok32 (nk_gamma s).
Proof.
  intros H. destruct (four_words H) as (a & b & c & d & -> & A & B & C & D). unfold nk_gamma. cbn [nth]. apply wordsok_4; auto 40 with words.
Qed.
Lemma wnot_bit w x i : (0 <= i)%Z -> (0 <= w)%Z -> Z.testbit (wnot w x) i = xorb (Z.testbit x i) (i <? w)%Z.
Proof.
  intros I W. unfold wnot. rewrite Z.lxor_spec. f_equal. replace (2 ^ w - 1)%Z with (Z.ones w) by (rewrite Z.ones_equiv; lia).
  destruct (Z.ltb_spec i w); [apply Z.ones_spec_low; lia|apply Z.ones_spec_high; lia].
Qed.
Lemma nk_gamma_inv s : ok32 s -> nk_gamma (nk_gamma s) = s.
Proof.
  intros H. destruct (four_words H) as (a & b & c & d & -> & A & B & C & D). unfold nk_gamma. cbn [nth].
  assert (BB : forall x n, inw 32 x -> (n <? 32)%Z = false -> Z.testbit x n = false).
  { intros x n X N. apply (@inw_testbit 32 x n); auto; lia. }
  f_equal; [|f_equal; [|f_equal; [|f_equal]]]; apply Z.bits_inj'; intros n Hn;
    repeat (rewrite ?Z.lxor_spec, ?Z.land_spec, ?Z.lor_spec; rewrite ?wnot_bit by lia);
    (destruct (n <? 32)%Z eqn:En; [|rewrite ?(BB a n A En), ?(BB b n B En), ?(BB c n C En), ?(BB d n D En); reflexivity]);
    destruct (Z.testbit a n), (Z.testbit b n), (Z.testbit c n), (Z.testbit d n); reflexivity.
Qed.
Lemma nk_pi1_ok s : ok32 s -> ok32 (nk_pi1 s).
Proof. intros H. destruct (four_words H) as (a & b & c & d & -> & A & B & C & D). apply wordsok_4; cbn [nth]; words. Qed.
Lemma nk_pi2_ok s : ok32 s -> ok32 (nk_pi2 s).
Proof. intros H. destruct (four_words H) as (a & b & c & d & -> & A & B & C & D). apply wordsok_4; cbn [nth]; words. Qed.
Lemma nk_pi12 s : ok32 s -> nk_pi1 (nk_pi2 s) = s.
Proof.
  intros H. destruct (four_words H) as (a & b & c & d & -> & A & B & C & D). unfold nk_pi1, nk_pi2. cbn [nth]. rewrite !rotl_rotr by (auto; lia). reflexivity.
Qed.
Lemma nk_pi21 s : ok32 s -> nk_pi2 (nk_pi1 s) = s.
Proof.
  intros H. destruct (four_words H) as (a & b & c & d & -> & A & B & C & D). unfold nk_pi1, nk_pi2. cbn [nth]. rewrite !rotr_rotl by (auto; lia). reflexivity.
Qed.
Definition nk_g (s : list Z) := nk_pi2 (nk_gamma (nk_pi1 s)).
Lemma nk_g_ok s : ok32 s -> ok32 (nk_g s). Proof. intros. apply nk_pi2_ok, nk_gamma_ok, nk_pi1_ok; auto. Qed.
Lemma nk_g_g s : ok32 s -> nk_g (nk_g s) = s.
Proof.
  intros H. unfold nk_g. rewrite nk_pi12 by (apply nk_gamma_ok, nk_pi1_ok; auto). rewrite nk_gamma_inv by (apply nk_pi1_ok; auto). apply nk_pi21; auto.
Qed.
Lemma noekeon_rc_ok i : inw 32 noekeon_rc.[i].
Proof. apply nth_inw; [lia|]. unfold noekeon_rc. repeat (apply Forall_cons; [unfold inw; lia|]). constructor. Qed.
Lemma nk_rc_ok s i : ok32 s -> ok32 (nk_rc s i).
Proof.
  intros H. destruct (four_words H) as (a & b & c & d & -> & A & B & C & D). pose proof (noekeon_rc_ok i). unfold nk_rc. apply wordsok_4; cbn [nth]; words.
Qed.
Lemma nk_rc_rc s i : ok32 s -> nk_rc (nk_rc s i) i = s.
Proof.
  intros H. destruct (four_words H) as (a & b & c & d & -> & A & B & C & D). unfold nk_rc. cbn [nth]. rewrite lxor_cancel_r. reflexivity.
Qed.
(** the rounds grouped the other way *)
Definition nk_a (k : list Z) (s : list Z) (i : nat) := nk_theta k (nk_rc s i).
Lemma nk_regroup (T : Type) (G : T -> T) (L : T -> nat -> T) n a x :
  L (fold_left (fun s r => G (L s r)) (seq a n) x) (a + n) = fold_left (fun s r => L (G s) r) (seq (a + 1) n) (L x a).
Proof.
  revert a x. induction n as [|n IH]; intros a x; cbn [seq fold_left]; [rewrite Nat.add_0_r; reflexivity|].
  replace (a + S n) with (S a + n) by lia. rewrite IH. replace (a + 1) with (S a) by lia. replace (S a + 1) with (S (S a)) by lia. reflexivity.
Qed.
Lemma nk_enc_eq k s : nk_enc k s = fold_left (fun s r => nk_a k (nk_g s) r) (seq 1 16) (nk_a k s 0).
Proof. exact (nk_regroup nk_g (nk_a k) 16 0 s). Qed.
Lemma nk_lawful k : ok32 k -> lawful (noekeon_cph {| nk_k := k; nk_dk := nk_ktheta k |}).
Proof.
  intros K. apply word_lawful_be_u with 32%Z; try lia. cbn [nk_k nk_dk].
  assert (UA : forall i, undoes ok32 (fun s => nk_a k s i) (fun s => nk_rc (nk_theta (nk_ktheta k) s) i)).
  { intros i s H. unfold nk_a. split; [apply nk_theta_ok, nk_rc_ok; auto|]. split; [apply nk_rc_ok, nk_theta_ok; auto; apply nk_ktheta_ok; auto|].
    rewrite nk_theta_inv by (auto; apply nk_rc_ok; auto). apply nk_rc_rc; auto. }
  assert (UG : undoes ok32 nk_g nk_g) by (intros s H; split; [|split]; [apply nk_g_ok; auto|apply nk_g_ok; auto|apply nk_g_g; auto]).
  apply (@undoes_ext _ _ (fun s => fold_left (fun s r => nk_a k (nk_g s) r) (seq 1 16) (nk_a k s 0)) (nk_dec (nk_ktheta k))).
  - intros s H. symmetry. apply nk_enc_eq.
  - reflexivity.
  - apply (undoes_comp (UA 0) (f2 := fun s => fold_left (fun s r => nk_a k (nk_g s) r) (seq 1 16) s)
             (g2 := fun s => fold_left (nk_unrnd (nk_ktheta k)) (downs 16 16 1) s)).
    apply undoes_rounds with (J := fun _ => True).
    + rewrite (@downs_rev 1 16 1) by lia. reflexivity.
    + apply Forall_forall; auto.
    + intros i _. exact (undoes_comp UG (UA i)).
Qed.
Theorem C51_noekeon : zcipher_for [16] 16 4 noekeon_new noekeon_encrypt noekeon_decrypt.
Proof.
  apply (@zcipher_one _ 16 16 4 (fun key => {| nk_k := ldw_be 4 key; nk_dk := nk_ktheta (ldw_be 4 key) |}) noekeon_cph).
  - lia.
  - exists 4. reflexivity.
  - intros key O L. split; [|reflexivity]. apply nk_lawful. apply ldw_be_ok; auto; lia.
Qed.
Print Assumptions C51_noekeon.
(** DEFECT: encrypting from a longer slice wipes what lies behind the block in dst *)
Theorem C51_noekeon_refuted : exists key c dst src out, noekeon_new key = Ok c /\ List.length src = 24 /\ List.length dst = 24 /\
  noekeon_encrypt c dst src = Ok out /\ skipn 16 out = repeat 0%Z 8 /\ skipn 16 dst = repeat 9%Z 8.
Proof.
  exists (repeat 1%Z 16). eexists. exists (repeat 9%Z 24), (repeat 7%Z 24). eexists. split; [reflexivity|]. split; [reflexivity|]. split; [reflexivity|].
  split; [vm_compute; reflexivity|]. split; reflexivity.
Qed.
Print Assumptions C51_noekeon_refuted.
Example C51_instance :
  kat (noekeon_new (hx "AA3C8C86D98BF8BE21E0360978FBE490")) noekeon_encrypt noekeon_decrypt "E4966CD313A06CAFD023C9FD45322316" "A6ECB8A861FD62D91302FE9E47013FC3".
Proof. kats. Qed.

(** ** GOST 28147-89 *)
Lemma shl_byte_inw x k : inw 8 x -> (0 <= k)%Z -> (k + 8 <= 32)%Z -> inw 32 (Z.shiftl x k).
Proof.
  unfold inw. intros X K L. rewrite Z.shiftl_mul_pow2 by lia. replace (2 ^ 32)%Z with (2 ^ (32 - 8 - k) * 2 ^ 8 * 2 ^ k)%Z.
  - assert (0 < 2 ^ k)%Z by (apply Z.pow_pos_nonneg; lia). assert (0 < 2 ^ (32 - 8 - k))%Z by (apply Z.pow_pos_nonneg; lia). nia.
  - rewrite <- !Z.pow_add_r by lia. f_equal. lia.
Qed.
Lemma gost_cycle_ok k x : Forall (Forall (inw 8)) k -> inw 32 (gost_cycle k x).
Proof.
  intros K. unfold gost_cycle. assert (N : forall t i, inw 8 (nth t k []).[i]).
  { intros t i. apply nth_inw; [lia|]. destruct (Nat.lt_ge_cases t (List.length k)) as [H|H].
    - rewrite Forall_forall in K. apply K, nth_In; auto.
    - rewrite nth_overflow by auto. constructor. }
  assert (S : forall t i j, (0 <= j)%Z -> (j + 8 <= 32)%Z -> inw 32 (Z.shiftl (nth t k []).[i] j)) by (intros; apply shl_byte_inw; auto).
  assert (S0 : forall t i, inw 32 (nth t k []).[i]).
  { intros t i. specialize (N t i). unfold inw in *. lia. }
  apply inw_rotl; [lia|]. repeat apply inw_or; try lia; try apply S; try apply S0; lia.
Qed.
Section gost.
Variable c : gost_cipher.
Hypothesis KB : Forall (Forall (inw 8)) (gost_k c).
Definition okg := wordsok 32 2.
Lemma gost_half_ok b s j : okg s -> okg (gost_half c b s j).
Proof.
  intros H. destruct (two_words H) as (x & y & -> & X & Y). assert (N := fun z => gost_cycle_ok z KB). unfold gost_half. destruct b; apply wordsok_2; cbn [nth]; words.
Qed.
Lemma gost_half_half b s j : okg s -> gost_half c b (gost_half c b s j) j = s.
Proof. intros H. destruct (two_words H) as (x & y & -> & X & Y). unfold gost_half. destruct b; cbn [nth]; rewrite lxor_cancel_r; reflexivity. Qed.
Lemma gost_swap_ok s : okg s -> okg (gost_swap s).
Proof. intros H. destruct (two_words H) as (x & y & -> & X & Y). apply wordsok_2; auto. Qed.
Lemma gost_swap_swap s : okg s -> gost_swap (gost_swap s) = s.
Proof. intros H. destruct (two_words H) as (x & y & -> & X & Y). reflexivity. Qed.
Lemma gost_swap_half b s j : gost_swap (gost_half c b s j) = gost_half c (negb b) (gost_swap s) j.
Proof. destruct b; reflexivity. Qed.
Lemma gost_swap_halves f l s : gost_swap (fold_left (fun s j => gost_half c (f j) s j) l s) = fold_left (fun s j => gost_half c (negb (f j)) s j) l (gost_swap s).
Proof. revert s. induction l as [|j l IH]; intros s; cbn [fold_left]; [reflexivity|]. rewrite IH, gost_swap_half. reflexivity. Qed.
(** eight rounds with the keys in one order are undone by eight with the keys in the other, the halves exchanged *)
Lemma gost_up_down : undoes okg (gost_up c) (fun s => gost_swap (gost_down c (gost_swap s))).
Proof.
  apply (@undoes_ext _ _ (gost_up c) (fun s => fold_left (fun s j => gost_half c (Nat.even j) s j) (downs 7 8 1) s)).
  - reflexivity.
  - intros s H. unfold gost_down. rewrite gost_swap_halves. rewrite gost_swap_swap by auto. apply fold_left_ext_in. intros t j _.
    rewrite Nat.negb_odd. reflexivity.
  - apply undoes_rounds with (J := fun _ => True); [reflexivity|apply Forall_forall; auto|]. intros j _ s H. split; [|split]; auto using gost_half_ok.
    apply gost_half_half; auto.
Qed.
Lemma gost_down_up : undoes okg (gost_down c) (fun s => gost_swap (gost_up c (gost_swap s))).
Proof.
  apply (@undoes_ext _ _ (gost_down c) (fun s => fold_left (fun s j => gost_half c (Nat.odd j) s j) (seq 0 8) s)).
  - reflexivity.
  - intros s H. unfold gost_up. rewrite gost_swap_halves. rewrite gost_swap_swap by auto. apply fold_left_ext_in. intros t j _.
    rewrite Nat.negb_even. reflexivity.
  - apply undoes_rounds with (J := fun _ => True); [reflexivity|apply Forall_forall; auto|]. intros j _ s H. split; [|split]; auto using gost_half_ok.
    apply gost_half_half; auto.
Qed.
Lemma gost_lawful : lawful (gost_cph c).
Proof.
  apply word_lawful_u with 32%Z; try lia.
  assert (SW : undoes okg gost_swap gost_swap) by (intros s H; split; [|split]; [apply gost_swap_ok; auto|apply gost_swap_ok; auto|apply gost_swap_swap; auto]).
  pose proof (undoes_comp (undoes_comp (undoes_comp (undoes_comp gost_up_down gost_up_down) gost_up_down) gost_down_up) SW) as U.
  eapply undoes_ext; [| |exact U]; [reflexivity|]. intros s H. cbv beta. unfold gost_dec.
  assert (DO : forall t, okg t -> okg (gost_down c t)) by (intros t Ht; exact (proj1 (gost_down_up Ht))).
  assert (UO : forall t, okg t -> okg (gost_up c t)) by (intros t Ht; exact (proj1 (gost_up_down Ht))).
  rewrite !gost_swap_swap by auto 10 using gost_swap_ok. reflexivity.
Qed.
End gost.
Lemma gost_kbox_ok s : Forall bytes_ok s -> Forall (Forall (inw 8)) (gost_kbox s).
Proof.
  intros O. assert (N : forall t i, inw 8 (nth t s []).[i]).
  { intros t i. apply nth_inw; [lia|]. destruct (Nat.lt_ge_cases t (List.length s)) as [H|H].
    - rewrite Forall_forall in O. apply O, nth_In; auto.
    - rewrite nth_overflow by auto. constructor. }
  unfold gost_kbox. repeat (apply Forall_cons; [apply Forall_map, Forall_forall; intros; words|]). constructor.
Qed.
(** NewCipher takes a key of 32 bytes and an S-box of 8 rows of 16 entries, whatever the entries *)
Definition sbox_shape (sbox : list bytes) : Prop := List.length sbox = 8 /\ Forall (fun r => List.length r = 16) sbox.
Theorem C52_gost key sbox : bytes_ok key -> Forall bytes_ok sbox ->
  (List.length key = 32 /\ sbox_shape sbox -> exists c, gost_new key sbox = Ok c /\ zblock_cipher 8 4 (gost_encrypt c) (gost_decrypt c)) /\
  (~ (List.length key = 32 /\ sbox_shape sbox) -> gost_new key sbox = Err).
Proof.
  intros O S. unfold gost_new. split.
  - intros (K & L & F). rewrite K, L. cbn [Nat.eqb negb].
    replace (forallb (fun r => List.length r =? 16) sbox) with true.
    2:{ symmetry. apply forallb_forall. intros r R. rewrite Forall_forall in F. apply Nat.eqb_eq. auto. }
    eexists. split; [reflexivity|]. apply (@lawful_zblock (gost_cph _)); [|reflexivity|lia|exists 2; reflexivity].
    apply gost_lawful. apply gost_kbox_ok; auto.
  - intros N. destruct (Nat.eqb_spec (List.length key) 32) as [K|]; cbn [negb]; auto.
    destruct (Nat.eqb_spec (List.length sbox) 8) as [L|]; cbn [negb]; auto.
    destruct (forallb _ sbox) eqn:F; cbn [negb]; auto. exfalso. apply N. split; auto. split; auto. apply Forall_forall. intros r R.
    rewrite forallb_forall in F. apply Nat.eqb_eq. auto.
Qed.
Print Assumptions C52_gost.
(** DEFECT: as for NOEKEON *)
Theorem C52_gost_refuted : exists key c dst src out, gost_new key gost_sbox_cb = Ok c /\ List.length src = 12 /\ List.length dst = 12 /\
  gost_encrypt c dst src = Ok out /\ skipn 8 out = repeat 0%Z 4 /\ skipn 8 dst = repeat 9%Z 4.
Proof.
  exists (repeat 1%Z 32). eexists. exists (repeat 9%Z 12), (repeat 7%Z 12). eexists. split; [reflexivity|]. split; [reflexivity|]. split; [reflexivity|].
  split; [vm_compute; reflexivity|]. split; reflexivity.
Qed.
Print Assumptions C52_gost_refuted.
Example C52_instance : Forall bytes_ok gost_sbox_cb /\ sbox_shape gost_sbox_cb /\
  kat (gost_new (map (fun i => Z.of_nat (2 * i + 10)) (seq 0 32)) gost_sbox_cb) gost_encrypt gost_decrypt "0001020304050607" "603f5347df09c97b".
Proof.
  split; [|split]; [|split; [reflexivity|repeat constructor]|kats].
  unfold gost_sbox_cb. repeat (apply Forall_cons; [repeat (apply Forall_cons; [unfold is_byte; lia|]); constructor|]). constructor.
Qed.

(** ** Magma *)
Lemma magma_blk f src : 8 <= List.length src -> bytes_ok src -> (forall b, isblock 8 b -> isblock 8 (f b)) ->
  zblk_call 8 4 f (rev (firstn 8 src)) (rev (firstn 8 src)) = Ok (f (rev (firstn 8 src))).
Proof.
  intros L O H. assert (B : isblock 8 (rev (firstn 8 src))).
  { split; [rewrite rev_length, firstn_length; lia|apply bytes_ok_rev, bytes_ok_firstn; auto]. }
  destruct (H _ B) as [L1 _]. destruct B as [LB _]. generalize dependent (rev (firstn 8 src)). intros b LB L1.
  rewrite zcall_exact; try lia; [|exists 2; reflexivity].
  unfold blk_call. rewrite LB. cbn [Nat.ltb Nat.leb]. f_equal. rewrite (firstn_all2 b) by lia. unfold splice. cbn [firstn app].
  rewrite (skipn_all2 b) by (cbn [Nat.add]; lia).
  apply app_nil_r.
Qed.
Definition revc (c : cipher) : cipher := {| bsz := bsz c; enc := fun b => rev (enc c (rev b)); dec := fun b => rev (dec c (rev b)) |}.
Lemma isblock_rev n b : isblock n b -> isblock n (rev b).
Proof. intros [L O]. split; [rewrite rev_length; auto|apply bytes_ok_rev; auto]. Qed.
Lemma revc_lawful c : lawful c -> lawful (revc c).
Proof.
  intros L. destruct c as [n E D]. constructor; cbn [bsz enc dec].
  - apply (law_pos L).
  - intros b B. apply isblock_rev, (law_enc L), isblock_rev, B.
  - intros b B. apply isblock_rev, (law_dec L), isblock_rev, B.
  - intros b B. unfold revc. cbn [enc dec bsz] in *. rewrite rev_involutive. pose proof (law_inv L (isblock_rev B)) as I. cbn [enc dec] in I. rewrite I. apply rev_involutive.
Qed.
(** bytes_ok of the source is only needed for the length of the result *)
Lemma magma_call_eq f dst src : (forall b, isblock 8 b -> isblock 8 (f b)) -> bytes_ok src -> magma_call (zblk_call 8 4 f) dst src = blk_call 8 (fun b => rev (f (rev b))) dst src.
Proof.
  intros H O. unfold magma_call, blk_call. destruct (Nat.ltb_spec (List.length src) 8); auto.
  rewrite magma_blk by auto. cbn [rbind]. destruct (List.length dst <? 8); reflexivity.
Qed.

Lemma block_cipher_ext bs E D E' D' : block_cipher bs E D ->
  (forall dst src, bytes_ok src -> E' dst src = E dst src) -> (forall dst src, bytes_ok src -> D' dst src = D dst src) ->
  one_block bs E' -> one_block bs D' -> panics_if_short bs E' -> panics_if_short bs D' -> block_cipher bs E' D'.
Proof.
  intros B HE HD O1 O2 S1 S2. split; auto.
  - intros dst dst' src OS OD LS LD LD'. destruct (bc_ed B OS OD LS LD LD') as (ct & C1 & C2 & C3 & C4 & pt & P1 & P2 & P3).
    exists ct. rewrite HE by auto. split; auto. split; auto. split; auto. split; auto. exists pt. rewrite HD by auto. auto.
  - intros dst dst' src OS OD LS LD LD'. destruct (bc_de B OS OD LS LD LD') as (ct & C1 & C2 & C3 & C4 & pt & P1 & P2 & P3).
    exists ct. rewrite HD by auto. split; auto. split; auto. split; auto. split; auto. exists pt. rewrite HE by auto. auto.
Qed.
Lemma magma_one f : one_block 8 (magma_call f).
Proof.
  intros dst src L. unfold magma_call. rewrite firstn_firstn, Nat.min_id. rewrite firstn_length, Nat.min_l by lia.
  replace (List.length src <? 8) with false by (symmetry; apply Nat.ltb_ge; lia). reflexivity.
Qed.
Lemma magma_short f : panics_if_short 8 (magma_call (zblk_call 8 4 f)).
Proof.
  intros dst src H. unfold magma_call. destruct (Nat.ltb_spec (List.length src) 8); auto. unfold zblk_call.
  rewrite rev_length, firstn_length, Nat.min_l by lia. cbn [Nat.ltb Nat.leb orb rbind].
  destruct (Nat.leb_spec (List.length dst) 7); [reflexivity|lia].
Qed.
Lemma magma_key_ok key : bytes_ok key -> List.length key = 32 -> bytes_ok (magma_key key) /\ List.length (magma_key key) = 32.
Proof.
  intros O L. do 33 (destruct key as [|? key]; [try discriminate|]). 2: discriminate.
  split; [|reflexivity]. unfold magma_key. cbn. unfold bytes_ok in *. repeat match goal with H : Forall _ (_ :: _) |- _ => inversion H; clear H; subst end.
  repeat (apply Forall_cons; [assumption|]). constructor.
Qed.
Lemma magma_sbox_ok : Forall bytes_ok magma_sbox.
Proof. unfold magma_sbox. repeat (apply Forall_cons; [repeat (apply Forall_cons; [unfold is_byte; lia|]); constructor|]). constructor. Qed.
Theorem C53_magma : cipher_for [32] 8 magma_new magma_encrypt magma_decrypt.
Proof.
  intros key O. unfold magma_new. split.
  - intros [L|[]]. rewrite <- L, Nat.eqb_refl. destruct (magma_key_ok O (eq_sym L)) as [OK LK].
    unfold gost_new. rewrite LK. cbn [Nat.eqb negb]. eexists. split; [reflexivity|].
    assert (LW := gost_lawful (c := {| gost_key := ldw 4 (magma_key key); gost_k := gost_kbox magma_sbox |}) (gost_kbox_ok magma_sbox_ok)).
    apply block_cipher_ext with (1 := lawful_block_cipher (revc_lawful LW) (eq_refl : 8 = bsz (revc (gost_cph _)))).
    + intros dst src OS. apply magma_call_eq; auto. apply (law_enc LW).
    + intros dst src OS. apply magma_call_eq; auto. apply (law_dec LW).
    + apply magma_one.
    + apply magma_one.
    + apply magma_short.
    + apply magma_short.
  - intros N. destruct (Nat.eqb_spec (List.length key) 32); auto. exfalso. apply N. left. auto.
Qed.
Print Assumptions C53_magma.
Example C53_instance :
  kat (magma_new (hx "ffeeddccbbaa99887766554433221100f0f1f2f3f4f5f6f7f8f9fafbfcfdfeff")) magma_encrypt magma_decrypt "fedcba9876543210" "4ee901e5c2d8ca3d".
Proof. kats. Qed.
