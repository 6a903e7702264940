(** C47-C49: the ciphers RC2, RC5 and RC6. *)
From Verif Require Import Base BlockModeModel CipherLaws WordModel BlkSpec WordLib RcModel HexLit.
From Verif Require Import ArxProofs.
From Coq Require Import String.
Set Implicit Arguments. Unset Strict Implicit.
Local Open Scope nat_scope.

(** RC2 *)
Lemma wadd_merge w a b c : wadd w (wadd w a b) c = wadd w a (b + c).
Proof. unfold wadd. rewrite Zplus_mod_idemp_l. f_equal. lia. Qed.
Lemma wsub_merge w a b c : wsub w (wsub w a b) c = wsub w a (b + c).
Proof. unfold wsub. rewrite Zminus_mod_idemp_l. f_equal. lia. Qed.
Lemma wsub_wadd3 w a b c d : (0 <= w)%Z -> inw w a -> wsub w (wsub w (wsub w (wadd w (wadd w (wadd w a b) c) d) b) c) d = a.
Proof. intros W A. rewrite !wadd_merge, !wsub_merge. replace (b + c + d)%Z with (b + (c + d))%Z by lia. apply wsub_wadd; auto. Qed.
Lemma rc2_mix1_inv n r k a b c : inw 16 r -> rc2_unmix1 n (rc2_mix1 n r k a b c) k a b c = r.
Proof.
  intros R. unfold rc2_unmix1, rc2_mix1. rewrite rotl_inv; [apply wsub_wadd3; auto; lia|lia|words|].
  replace (16 - n + n)%Z with 16%Z by lia. reflexivity.
Qed.
Lemma rc2_mix1_ok n r k a b c : inw 16 (rc2_mix1 n r k a b c). Proof. unfold rc2_mix1. words. Qed.
Lemma rc2_unmix1_ok n r k a b c : inw 16 (rc2_unmix1 n r k a b c). Proof. unfold rc2_unmix1. words. Qed.
Lemma rc2_mix_inv k r j : wordsok 16 4 r -> wordsok 16 4 (rc2_mix k r j) /\ rc2_unmix k (rc2_mix k r j) (j + 3) = r.
Proof.
  intros H. destruct (four_words H) as (a & b & c & d & -> & A & B & C & D). unfold rc2_mix, rc2_unmix. cbn [nth].
  split; [apply wordsok_4; apply rc2_mix1_ok|].
  replace (j + 3 - 1) with (j + 2) by lia. replace (j + 3 - 2) with (j + 1) by lia. replace (j + 3 - 3) with j by lia.
  rewrite !rc2_mix1_inv by auto. reflexivity.
Qed.
Lemma rc2_mash_inv k r : wordsok 16 4 r -> wordsok 16 4 (rc2_mash k r) /\ rc2_unmash k (rc2_mash k r) = r.
Proof.
  intros H. destruct (four_words H) as (a & b & c & d & -> & A & B & C & D). unfold rc2_mash, rc2_unmash. cbn [nth].
  split; [apply wordsok_4; words|]. rewrite !wsub_wadd by (auto; lia). reflexivity.
Qed.
Lemma rc2_unmix_ok k r j : wordsok 16 4 r -> wordsok 16 4 (rc2_unmix k r j).
Proof. intros H. unfold rc2_unmix. cbn [nth]. apply wordsok_4; apply rc2_unmix1_ok. Qed.
Lemma rc2_unmash_ok k r : wordsok 16 4 r -> wordsok 16 4 (rc2_unmash k r).
Proof. intros H. unfold rc2_unmash. cbn [nth]. apply wordsok_4; words. Qed.
Lemma rc2_mixes k a n r : wordsok 16 4 r -> 0 < n -> wordsok 16 4 (fold_left (rc2_mix k) (ups a n 4) r) /\
  fold_left (rc2_unmix k) (downs (a + 4 * n - 1) n 4) (fold_left (rc2_mix k) (ups a n 4) r) = r.
Proof.
  intros H N. destruct (@rounds_inv _ _ (wordsok 16 4) (fun _ => True) (rc2_mix k) (fun s j => rc2_unmix k s (j + 3))) with (ks := ups a n 4) (s := r) as [P I]; auto.
  { intros; apply rc2_mix_inv; auto. }
  { apply Forall_forall; auto. }
  split; auto. rewrite <- (fold_left_map (rc2_unmix k) (fun j => j + 3)) in I.
  replace (downs (a + 4 * n - 1) n 4) with (map (fun j => j + 3) (rev (ups a n 4))); auto.
  rewrite (@downs_rev (a + 3) n 4) by lia. rewrite map_rev. f_equal. unfold ups. rewrite map_map. apply map_ext. intros; lia.
Qed.
Lemma rc2_unmixes_ok k l r : wordsok 16 4 r -> wordsok 16 4 (fold_left (rc2_unmix k) l r).
Proof. intros H. apply rounds_ok with (J := fun _ : nat => True); auto; [intros; apply rc2_unmix_ok; auto|apply Forall_forall; auto]. Qed.
Lemma rc2_lawful k : lawful (rc2_cph k).
Proof.
  apply word_lawful with 16%Z; auto; try lia; intros ws H.
  - unfold rc2_enc. apply rc2_mixes; [|lia]. apply rc2_mash_inv. apply rc2_mixes; [|lia]. apply rc2_mash_inv. apply rc2_mixes; auto; lia.
  - unfold rc2_dec. apply rc2_unmixes_ok, rc2_unmash_ok, rc2_unmixes_ok, rc2_unmash_ok, rc2_unmixes_ok. auto.
  - unfold rc2_enc, rc2_dec.
    destruct (@rc2_mixes k 0 5 ws H ltac:(lia)) as [A1 B1]. set (w1 := fold_left _ _ ws) in *.
    destruct (rc2_mash_inv k A1) as [A2 B2]. set (w2 := rc2_mash k w1) in *.
    destruct (@rc2_mixes k 20 6 w2 A2 ltac:(lia)) as [A3 B3]. set (w3 := fold_left _ _ w2) in *.
    destruct (rc2_mash_inv k A3) as [A4 B4]. set (w4 := rc2_mash k w3) in *.
    destruct (@rc2_mixes k 44 5 w4 A4 ltac:(lia)) as [A5 B5].
    change (44 + 4 * 5 - 1) with 63 in B5. change (20 + 4 * 6 - 1) with 43 in B3. change (0 + 4 * 5 - 1) with 19 in B1.
    rewrite B5, B4, B3, B2. exact B1.
Qed.
(** RC2: any key that is not empty and any effective key length from 1 to 1024 bits; otherwise a panic *)
Theorem C47_rc2 key t1 :
  (key <> [] /\ (1 <= t1 <= 1024)%Z -> exists c, rc2_new key t1 = Ok c /\ block_cipher 8 (rc2_encrypt c) (rc2_decrypt c)) /\
  (~ (key <> [] /\ (1 <= t1 <= 1024)%Z) -> rc2_new key t1 = Panic).
Proof.
  unfold rc2_new. split.
  - intros [K T]. replace ((List.length key =? 0) || (t1 <? 1)%Z || (1024 <? t1)%Z)%bool with false.
    + eexists. split; [reflexivity|]. apply lawful_block_cipher; [apply rc2_lawful|reflexivity].
    + destruct key; [congruence|]. cbn [List.length Nat.eqb orb]. symmetry. apply orb_false_intro; lia.
  - intros N. replace ((List.length key =? 0) || (t1 <? 1)%Z || (1024 <? t1)%Z)%bool with true; auto.
    destruct key; [reflexivity|]. cbn [List.length Nat.eqb orb]. destruct (Z.ltb_spec t1 1); auto. destruct (Z.ltb_spec 1024 t1); auto.
    exfalso. apply N. split; [discriminate|lia].
Qed.
Print Assumptions C47_rc2.
Example C47_instance :
  kat (rc2_new (hx "88bca90e90875a7f0f79c384627bafb2") 128) rc2_encrypt rc2_decrypt "0000000000000000" "2269552ab0f85ca6" /\
  kat (rc2_new (hx "0000000000000000") 63) rc2_encrypt rc2_decrypt "0000000000000000" "ebb773f993278eff" /\
  kat (rc2_new (hx "ffffffffffffffff") 64) rc2_encrypt rc2_decrypt "ffffffffffffffff" "278b27e42e2f0d49" /\
  kat (rc2_new (hx "88") 64) rc2_encrypt rc2_decrypt "0000000000000000" "61a8a244adacccf0".
Proof. kats. Qed.

(** RC5 *)
Section rc5.
Variables (w : Z) (rk : list Z).
Hypothesis W : (0 < w)%Z.
Definition ok2 (s : Z * Z) : Prop := inw w (fst s) /\ inw w (snd s).
Lemma rc5_rnd_inv s r : ok2 s -> ok2 (rc5_rnd w rk s r) /\ rc5_unrnd w rk (rc5_rnd w rk s r) r = s.
Proof.
  intros [A B]. destruct s as [a b]. cbn [fst snd] in *. unfold rc5_rnd, rc5_unrnd.
  split; [split; cbn [fst snd]; apply inw_add; lia|].
  set (a1 := wadd w (rotl w b (Z.lxor a b)) rk.[2 * r]).
  assert (A1 : inw w a1) by (apply inw_add; lia).
  assert (X : inw w (Z.lxor a b)) by (apply inw_xor; auto; lia).
  assert (Y : inw w (Z.lxor b a1)) by (apply inw_xor; auto; lia).
  assert (E : Z.lxor a1 (rotl w (- a1) (wsub w (wadd w (rotl w a1 (Z.lxor b a1)) rk.[2 * r + 1]) rk.[2 * r + 1])) = b).
  { rewrite wsub_wadd by (try lia; apply inw_rotl; auto). rewrite rotl_inv; auto; [|rewrite Z.add_opp_diag_l; apply Z.mod_0_l; lia].
    rewrite (Z.lxor_comm b). apply lxor_cancel_l. }
  rewrite E. f_equal. unfold a1. rewrite wsub_wadd by (try lia; apply inw_rotl; auto).
  rewrite rotl_inv; auto; [|rewrite Z.add_opp_diag_l; apply Z.mod_0_l; lia].
  rewrite (Z.lxor_comm a). apply lxor_cancel_l.
Qed.
Lemma rc5_unrnd_ok s r : ok2 s -> ok2 (rc5_unrnd w rk s r).
Proof.
  intros [A B]. destruct s as [a b]. cbn [fst snd] in *. unfold rc5_unrnd.
  assert (X : inw w (Z.lxor a (rotl w (- a) (wsub w b rk.[2 * r + 1])))) by (apply inw_xor; auto; [lia|]; apply inw_rotl; auto; apply inw_sub; lia).
  split; cbn [fst snd]; auto. apply inw_xor; auto; [lia|]. apply inw_rotl; auto. apply inw_sub. lia.
Qed.
Lemma rc5_enc_inv rounds ws : wordsok w 2 ws -> wordsok w 2 (rc5_enc w rounds rk ws) /\ rc5_dec w rounds rk (rc5_enc w rounds rk ws) = ws.
Proof.
  intros H. destruct (two_words H) as (a & b & -> & A & B). unfold rc5_enc, rc5_dec. cbn [nth].
  destruct (@rounds_inv _ _ ok2 (fun _ => True) (rc5_rnd w rk) (rc5_unrnd w rk)) with (ks := ups 1 rounds 1) (s := (wadd w a rk.[0], wadd w b rk.[1])) as [P I].
  { intros; apply rc5_rnd_inv; auto. }
  { split; cbn [fst snd]; apply inw_add; lia. }
  { apply Forall_forall; auto. }
  destruct (fold_left _ (ups _ _ _) _) as [x y]. destruct P as [P Q]. cbn [fst snd] in *. split; [apply wordsok_2; auto|]. cbn [nth].
  rewrite (@downs_rev 1 rounds 1) by lia. rewrite I. rewrite !wsub_wadd by (auto; lia). reflexivity.
Qed.
Lemma rc5_dec_ok rounds ws : wordsok w 2 ws -> wordsok w 2 (rc5_dec w rounds rk ws).
Proof.
  intros H. unfold rc5_dec. destruct (fold_left _ _ _) as [x y]. apply wordsok_2; apply inw_sub; lia.
Qed.
End rc5.
Lemma rc5_lawful c : 0 < rc5_n c -> lawful (rc5_cph c).
Proof.
  intros N. apply word_lawful with (rc5_w (rc5_n c)); auto; try lia; intros ws H.
  - apply rc5_enc_inv; auto. unfold rc5_w. lia.
  - apply rc5_dec_ok; auto. unfold rc5_w. lia.
  - apply rc5_enc_inv; auto. unfold rc5_w. lia.
Qed.
Theorem C48_rc5 key wordsize rounds :
  (In (List.length key) [8; 16; 24; 32] /\ In wordsize [16; 32; 64] /\ 8 <= rounds <= 127 ->
     exists c, rc5_new key wordsize rounds = Ok c /\ block_cipher (wordsize / 4) (rc5_encrypt c) (rc5_decrypt c)) /\
  (~ (In (List.length key) [8; 16; 24; 32] /\ In wordsize [16; 32; 64] /\ 8 <= rounds <= 127) -> rc5_new key wordsize rounds = Err).
Proof.
  unfold rc5_new. split.
  - intros (K & S & R).
    replace (existsb (Nat.eqb (List.length key)) [8; 16; 24; 32]) with true.
    2:{ symmetry. apply existsb_exists. exists (List.length key). split; auto. apply Nat.eqb_refl. }
    replace ((rounds <? 8) || (127 <? rounds))%bool with false.
    2:{ symmetry. apply orb_false_intro; apply Nat.ltb_ge; lia. }
    destruct S as [<-|[<-|[<-|[]]]]; eexists; (split; [reflexivity|]); apply (@lawful_block_cipher (rc5_cph _)); auto; apply rc5_lawful; cbn; lia.
  - intros N. destruct (existsb _ _) eqn:K; auto. destruct ((rounds <? 8) || (127 <? rounds))%bool eqn:R; auto.
    apply existsb_exists in K. destruct K as (l & L & E). apply Nat.eqb_eq in E. subst l.
    apply orb_false_elim in R. destruct R as [R1 R2]. apply Nat.ltb_ge in R1, R2.
    destruct (in_dec Nat.eq_dec wordsize [16; 32; 64]) as [I|I]; [exfalso; apply N; auto|].
    revert I. clear. intros I. do 65 (destruct wordsize as [|wordsize]; [first [reflexivity | exfalso; apply I; cbn; tauto]|]). reflexivity.
Qed.
Print Assumptions C48_rc5.
Example C48_instance :
  kat (rc5_new (hx "915F4619BE41B2516355A50110A9CE91") 32 12) rc5_encrypt rc5_decrypt "21A5DBEE154B8F6D" "F7C013AC5B2B8952" /\
  kat (rc5_new (hx "0001020304050607") 16 16) rc5_encrypt rc5_decrypt "00010203" "23A8D72E" /\
  kat (rc5_new (hx "000102030405060708090A0B0C0D0E0F1011121314151617") 64 24) rc5_encrypt rc5_decrypt
      "000102030405060708090A0B0C0D0E0F" "A46772820EDBCE0235ABEA32AE7178DA".
Proof. kats. Qed.

(** RC6 *)
Lemma rc6_rnd_inv rk s i : wordsok 32 4 s -> wordsok 32 4 (rc6_rnd rk s i) /\ rc6_unrnd rk (rc6_rnd rk s i) i = s.
Proof.
  intros H. destruct (four_words H) as (a & b & c & d & -> & A & B & C & D). unfold rc6_rnd, rc6_unrnd. cbn [nth].
  assert (T : forall x, inw 32 (rc6_t x)) by (intros; unfold rc6_t; words).
  split; [apply wordsok_4; words|].
  rewrite !wsub_wadd by words. rewrite !rotl_inv by (words; rewrite Z.add_opp_diag_l; reflexivity). rewrite !lxor_cancel_r. reflexivity.
Qed.
Lemma rc6_unrnd_ok rk s i : wordsok 32 4 s -> wordsok 32 4 (rc6_unrnd rk s i).
Proof.
  intros H. destruct (four_words H) as (a & b & c & d & -> & A & B & C & D). unfold rc6_unrnd. cbn [nth].
  assert (T : forall x, inw 32 (rc6_t x)) by (intros; unfold rc6_t; words).
  apply wordsok_4; words.
Qed.
Lemma rc6_pre_inv rk s : wordsok 32 4 s -> wordsok 32 4 (rc6_pre rk s) /\ rc6_unpre rk (rc6_pre rk s) = s.
Proof.
  intros H. destruct (four_words H) as (a & b & c & d & -> & A & B & C & D). unfold rc6_pre, rc6_unpre. cbn [nth].
  split; [apply wordsok_4; words|]. rewrite !wsub_wadd by words. reflexivity.
Qed.
Lemma rc6_post_inv rk s : wordsok 32 4 s -> wordsok 32 4 (rc6_post rk s) /\ rc6_unpost rk (rc6_post rk s) = s.
Proof.
  intros H. destruct (four_words H) as (a & b & c & d & -> & A & B & C & D). unfold rc6_post, rc6_unpost. cbn [nth].
  split; [apply wordsok_4; words|]. rewrite !wsub_wadd by words. reflexivity.
Qed.
Lemma rc6_unpre_ok rk s : wordsok 32 4 s -> wordsok 32 4 (rc6_unpre rk s).
Proof.
  intros H. destruct (four_words H) as (a & b & c & d & -> & A & B & C & D). unfold rc6_unpre. cbn [nth]. apply wordsok_4; words.
Qed.
Lemma rc6_unpost_ok rk s : wordsok 32 4 s -> wordsok 32 4 (rc6_unpost rk s).
Proof.
  intros H. destruct (four_words H) as (a & b & c & d & -> & A & B & C & D). unfold rc6_unpost. cbn [nth]. apply wordsok_4; words.
Qed.
Lemma rc6_lawful rk : lawful (rc6_cph rk).
Proof.
  apply word_lawful with 32%Z; auto; try lia; intros ws H.
  - apply rc6_post_inv. apply rounds_ok with (J := fun _ : nat => True); [intros; apply rc6_rnd_inv; auto|apply rc6_pre_inv; auto|apply Forall_forall; auto].
  - apply rc6_unpre_ok. apply rounds_ok with (J := fun _ : nat => True); [intros; apply rc6_unrnd_ok; auto|apply rc6_unpost_ok; auto|apply Forall_forall; auto].
  - unfold rc6_enc, rc6_dec. destruct (rc6_pre_inv rk H) as [P I]. generalize dependent (rc6_pre rk ws). intros s P I.
    destruct (@rounds_inv _ _ (wordsok 32 4) (fun _ => True) (rc6_rnd rk) (rc6_unrnd rk)) with (ks := ups 1 20 1) (s := s) as [Q R]; auto.
    { intros; apply rc6_rnd_inv; auto. }
    { apply Forall_forall; auto. }
    destruct (rc6_post_inv rk Q) as [_ ->]. rewrite (@downs_rev 1 20 1) by lia. rewrite R. exact I.
Qed.
Theorem C49_rc6 : cipher_for [16] 16 rc6_new rc6_encrypt rc6_decrypt.
Proof.
  intros key O. unfold rc6_new. split.
  - intros [E|[]]. rewrite <- E. cbn [Nat.eqb]. eexists. split; [reflexivity|]. apply (@lawful_block_cipher (rc6_cph _)); [apply rc6_lawful|reflexivity].
  - intros N. destruct (Nat.eqb_spec (List.length key) 16); auto. exfalso. apply N. left. auto.
Qed.
Print Assumptions C49_rc6.
Example C49_instance :
  kat (rc6_new (hx "000102030405060708090A0B0C0D0E0F")) rc6_encrypt rc6_decrypt "00112233445566778899AABBCCDDEEFF" "09C26143B47B1A22EC2D9CD8B8A4E573" /\
  kat (rc6_new (hx "2BD6459F82C5B300952C49104881FF48")) rc6_encrypt rc6_decrypt "EA024714AD5C4D84EA024714AD5C4D84" "FFA01C309967FD619C58AB1CC4BCA98D".
Proof. kats. Qed.
