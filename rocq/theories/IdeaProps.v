(** C26: the cipher IDEA. *)
From Verif Require Import Base BlockModeModel CipherLaws WordModel BlkSpec WordLib UndoLib IdeaModel HexLit ArxProofs.
From Coq Require Import String.
Set Implicit Arguments. Unset Strict Implicit.
Local Open Scope nat_scope.

(** ** arithmetic modulo 65537, 0 standing for 65536 *)
Definition emb (x : Z) : Z := if (x =? 0)%Z then 65536%Z else x.
Lemma emb_range x : inw 16 x -> (1 <= emb x <= 65536)%Z.
Proof. unfold inw, emb. change (2 ^ 16)%Z with 65536%Z. destruct (Z.eqb_spec x 0); lia. Qed.
Lemma idea_mul_val x y : inw 16 x -> inw 16 y -> idea_mul x y = ((emb x * emb y) mod 65537 mod 65536)%Z.
Proof.
  unfold inw, idea_mul, emb, wsub, wadd. change (2 ^ 16)%Z with 65536%Z. change (2 ^ 32)%Z with 4294967296%Z. intros X Y.
  destruct (Z.eqb_spec y 0) as [->|Hy].
  - destruct (Z.eqb_spec x 0) as [->|Hx].
    + reflexivity.
    + replace (x * 65536)%Z with (65537 - x + (x - 1) * 65537)%Z by lia. rewrite Z_mod_plus_full, (Z.mod_small (65537 - x)) by lia.
      replace (65537 - x)%Z with (1 - x + 1 * 65536)%Z by lia. rewrite Z_mod_plus_full. reflexivity.
  - destruct (Z.eqb_spec x 0) as [->|Hx].
    + replace (65536 * y)%Z with (65537 - y + (y - 1) * 65537)%Z by lia. rewrite Z_mod_plus_full, (Z.mod_small (65537 - y)) by lia.
      replace (65537 - y)%Z with (1 - y + 1 * 65536)%Z by lia. rewrite Z_mod_plus_full. reflexivity.
    + rewrite (Z.mod_small (x * y)) by nia. set (t := (x * y)%Z).
      assert (T : (0 <= t < 4294967296)%Z) by (unfold t; nia).
      pose proof (Z.div_mod t 65536 ltac:(lia)) as DM. pose proof (Z.mod_pos_bound t 65536 ltac:(lia)) as B.
      assert (Hh : (0 <= t / 65536 < 65536)%Z) by (split; [apply Z.div_pos; lia|apply Z.div_lt_upper_bound; lia]).
      set (lo := (t mod 65536)%Z) in *. set (hi := (t / 65536)%Z) in *. clearbody lo hi.
      destruct (Z.ltb_spec lo hi).
      * replace (t mod 65537)%Z with (lo - hi + 65537)%Z.
        2:{ rewrite DM. replace (65536 * hi + lo)%Z with (lo - hi + 65537 + (hi - 1) * 65537)%Z by lia. rewrite Z_mod_plus_full. symmetry. apply Z.mod_small. lia. }
        rewrite Zplus_mod_idemp_l. replace (lo - hi + 65537)%Z with (lo - hi + 1 + 1 * 65536)%Z by lia. rewrite Z_mod_plus_full. reflexivity.
      * replace (t mod 65537)%Z with (lo - hi)%Z; [reflexivity|].
        rewrite DM. replace (65536 * hi + lo)%Z with (lo - hi + hi * 65537)%Z by lia. rewrite Z_mod_plus_full. symmetry. apply Z.mod_small. lia.
Qed.
Lemma idea_mul_ok x y : inw 16 x -> inw 16 y -> inw 16 (idea_mul x y).
Proof. intros X Y. rewrite idea_mul_val by auto. unfold inw. change (2 ^ 16)%Z with 65536%Z. apply Z.mod_pos_bound. lia. Qed.
(** the Euclidean loop, for each of the 65536 arguments *)
Definition inv_good (x : Z) : bool := let v := idea_inv x in ((0 <=? v) && (v <? 65536) && ((emb x * emb v) mod 65537 =? 1))%Z%bool.
Lemma inv_all : allz inv_good (Z.to_nat 65536) 0 = true.
Proof. vm_compute. reflexivity. Qed.
Lemma idea_inv_good x : inw 16 x -> inw 16 (idea_inv x) /\ ((emb x * emb (idea_inv x)) mod 65537 = 1)%Z.
Proof.
  intros X. unfold inw in *. change (2 ^ 16)%Z with 65536%Z in *. assert (I : inv_good x = true).
  { apply (allz_spec inv_all). rewrite Z2Nat.id by lia. lia. }
  unfold inv_good in I. apply andb_prop in I. destruct I as [I1 I2]. apply andb_prop in I1. destruct I1 as [I0 I1]. lia.
Qed.
Lemma idea_mul_inv x k : inw 16 x -> inw 16 k -> idea_mul (idea_mul x k) (idea_inv k) = x.
Proof.
  intros X K. destruct (idea_inv_good K) as [VI V]. pose proof (emb_range X) as RX.
  assert (E : emb (idea_mul x k) = ((emb x * emb k) mod 65537)%Z).
  { rewrite idea_mul_val by auto. set (p := ((emb x * emb k) mod 65537)%Z).
    assert (P : (0 <= p < 65537)%Z) by (apply Z.mod_pos_bound; lia).
    assert (P0 : p <> 0%Z).
    { intros P0. assert (Q : ((p * emb (idea_inv k)) mod 65537 = emb x mod 65537)%Z).
      { unfold p. rewrite Zmult_mod_idemp_l. rewrite <- Z.mul_assoc. rewrite <- Zmult_mod_idemp_r, V. f_equal. lia. }
      rewrite P0 in Q. rewrite (Z.mod_small (emb x)) in Q by lia. change ((0 * emb (idea_inv k)) mod 65537)%Z with 0%Z in Q. lia. }
    unfold emb. destruct (Z.eq_dec p 65536) as [->|]; [reflexivity|]. rewrite (Z.mod_small p) by lia. destruct (Z.eqb_spec p 0); lia. }
  rewrite idea_mul_val by (auto; apply idea_mul_ok; auto). rewrite E, Zmult_mod_idemp_l, <- Z.mul_assoc, <- Zmult_mod_idemp_r, V, Z.mul_1_r.
  rewrite (Z.mod_small (emb x)) by lia. unfold inw in X. change (2 ^ 16)%Z with 65536%Z in X. unfold emb. destruct (Z.eqb_spec x 0) as [->|]; [reflexivity|].
  apply Z.mod_small. lia.
Qed.
Lemma idea_neg_add x k : inw 16 x -> wadd 16 (wadd 16 x k) (idea_neg k) = x.
Proof.
  intros X. unfold idea_neg, wadd, wsub. rewrite Zplus_mod_idemp_l, Zplus_mod_idemp_r. replace (x + k + (0 - k))%Z with x by lia. apply Z.mod_small, X.
Qed.

(** ** layers *)
Definition kadd (k s : list Z) : list Z := [idea_mul s.[0] k.[0]; wadd 16 s.[1] k.[1]; wadd 16 s.[2] k.[2]; idea_mul s.[3] k.[3]].
Definition mid (s : list Z) : list Z := [s.[0]; s.[2]; s.[1]; s.[3]].
Definition ma (a b : Z) (s : list Z) : list Z :=
  let p := idea_mul (Z.lxor s.[2] s.[0]) a in
  let u := idea_mul (wadd 16 (Z.lxor s.[1] s.[3]) p) b in
  let v := wadd 16 p u in
  [Z.lxor s.[0] u; Z.lxor v s.[1]; Z.lxor u s.[2]; Z.lxor s.[3] v].
Definition ok4 (s : list Z) := wordsok 16 4 s.
Definition sub4 (k : list Z) (i : nat) : list Z := [k.[i]; k.[i + 1]; k.[i + 2]; k.[i + 3]].
Lemma kadd_ok k s : ok4 k -> ok4 s -> ok4 (kadd k s).
Proof.
  intros K H. destruct (four_words K) as (k0 & k1 & k2 & k3 & -> & K0 & K1 & K2 & K3).
  destruct (four_words H) as (a & b & c & d & -> & A & B & C & D). unfold kadd. cbn [nth]. apply wordsok_4; words; apply idea_mul_ok; auto.
Qed.
Lemma mid_ok s : ok4 s -> ok4 (mid s).
Proof. intros H. destruct (four_words H) as (a & b & c & d & -> & A & B & C & D). apply wordsok_4; auto. Qed.
Lemma mid_mid s : ok4 s -> mid (mid s) = s.
Proof. intros H. destruct (four_words H) as (a & b & c & d & -> & A & B & C & D). reflexivity. Qed.
Lemma ma_ok a b s : inw 16 a -> inw 16 b -> ok4 s -> ok4 (ma a b s).
Proof.
  intros KA KB H. destruct (four_words H) as (x & y & z & t & -> & A & B & C & D). unfold ma. cbn [nth].
  assert (P : inw 16 (idea_mul (Z.lxor z x) a)) by (apply idea_mul_ok; words).
  assert (U : inw 16 (idea_mul (wadd 16 (Z.lxor y t) (idea_mul (Z.lxor z x) a)) b)) by (apply idea_mul_ok; words).
  apply wordsok_4; words.
Qed.
Lemma ma_ma a b s : ok4 s -> ma a b (ma a b s) = s.
Proof.
  intros H. destruct (four_words H) as (x & y & z & t & -> & A & B & C & D). unfold ma. cbn [nth].
  set (p := idea_mul (Z.lxor z x) a). set (u := idea_mul (wadd 16 (Z.lxor y t) p) b).
  assert (E1 : Z.lxor (Z.lxor u z) (Z.lxor x u) = Z.lxor z x).
  { rewrite (Z.lxor_comm u z), (Z.lxor_comm x u), <- Z.lxor_assoc, lxor_cancel_r. reflexivity. }
  assert (E2 : Z.lxor (Z.lxor (wadd 16 p u) y) (Z.lxor t (wadd 16 p u)) = Z.lxor y t).
  { rewrite (Z.lxor_comm (wadd 16 p u) y), (Z.lxor_comm t), <- Z.lxor_assoc, lxor_cancel_r. reflexivity. }
  rewrite E1. fold p. rewrite E2. fold u. rewrite !lxor_cancel_r, !lxor_cancel_l. reflexivity.
Qed.
Definition kinv (k : list Z) : list Z := [idea_inv k.[0]; idea_neg k.[1]; idea_neg k.[2]; idea_inv k.[3]].
Lemma kinv_ok k : ok4 k -> ok4 (kinv k).
Proof.
  intros K. destruct (four_words K) as (k0 & k1 & k2 & k3 & -> & K0 & K1 & K2 & K3). unfold kinv, idea_neg. cbn [nth].
  apply wordsok_4; words; apply idea_inv_good; auto.
Qed.
Lemma kadd_kinv k s : ok4 k -> ok4 s -> kadd (kinv k) (kadd k s) = s.
Proof.
  intros K H. destruct (four_words K) as (k0 & k1 & k2 & k3 & -> & K0 & K1 & K2 & K3).
  destruct (four_words H) as (a & b & c & d & -> & A & B & C & D). unfold kadd, kinv. cbn [nth].
  rewrite !idea_mul_inv, !idea_neg_add by auto. reflexivity.
Qed.
Lemma mid_kadd k s : mid (kadd k s) = kadd (mid k) (mid s). Proof. reflexivity. Qed.
(** what a round does: key addition, MA, exchange of the middle words *)
Lemma rnd_layers key s r : idea_rnd key s r = mid (ma key.[6 * r + 4] key.[6 * r + 5] (kadd (sub4 key (6 * r)) s)).
Proof. reflexivity. Qed.
Lemma last_layers key s : idea_last key s = kadd (sub4 key 48) (mid s).
Proof. reflexivity. Qed.

Section idea.
Variable ek : list Z.
Hypothesis EK : wordsok 16 52 ek.
Let dk := idea_invert ek.
Lemma ek_in i : inw 16 ek.[i]. Proof. apply nth_inw; [lia|]. apply EK. Qed.
Lemma sub_ok i : ok4 (sub4 ek i). Proof. apply wordsok_4; apply ek_in. Qed.
(** the first key layer of decryption, the middle ones and the last *)
Lemma dk_first : sub4 dk 0 = kinv (sub4 ek 48). Proof. reflexivity. Qed.
Lemma dk_last : sub4 dk 48 = kinv (sub4 ek 0). Proof. reflexivity. Qed.
Lemma dk_ma r : r < 8 -> dk.[6 * r + 4] = ek.[6 * (7 - r) + 4] /\ dk.[6 * r + 5] = ek.[6 * (7 - r) + 5].
Proof. intros R. do 8 (destruct r as [|r]; [split; reflexivity|]). lia. Qed.
Lemma dk_mid r : 0 < r < 8 -> sub4 dk (6 * r) = mid (kinv (sub4 ek (6 * (8 - r)))).
Proof. intros R. destruct r as [|r]; [lia|]. do 7 (destruct r as [|r]; [reflexivity|]). lia. Qed.
Lemma dk_ok r : r <= 8 -> ok4 (sub4 dk (6 * r)).
Proof.
  intros R. destruct (Nat.eq_dec r 0) as [->|]; [change (6 * 0) with 0; rewrite dk_first; apply kinv_ok, sub_ok|].
  destruct (Nat.eq_dec r 8) as [->|]; [change (6 * 8) with 48; rewrite dk_last; apply kinv_ok, sub_ok|].
  rewrite dk_mid by lia. apply mid_ok, kinv_ok, sub_ok.
Qed.
Definition prefix (n : nat) (s : list Z) : list Z := fold_left (idea_rnd ek) (seq 0 n) s.
Lemma crypt_prefix s : idea_crypt ek s = idea_last ek (prefix 8 s).
Proof. unfold idea_crypt, prefix. exact eq_refl. Qed.
Lemma prefix_S n s : prefix (S n) s = idea_rnd ek (prefix n s) n.
Proof. unfold prefix. rewrite seq_S, fold_left_app. reflexivity. Qed.
Lemma rnd_ok s r : ok4 s -> ok4 (idea_rnd ek s r).
Proof. intros H. rewrite rnd_layers. apply mid_ok, ma_ok; try apply ek_in. apply kadd_ok; auto. apply sub_ok. Qed.
Lemma prefix_ok n s : ok4 s -> ok4 (prefix n s).
Proof. intros H. induction n as [|n IH]; [exact H|]. rewrite prefix_S. apply rnd_ok, IH. Qed.
Lemma dec_rounds s : ok4 s -> forall n, n < 8 ->
  fold_left (idea_rnd dk) (seq 0 (S n)) (idea_crypt ek s) = mid (kadd (sub4 ek (6 * (7 - n))) (prefix (7 - n) s)).
Proof.
  intros H n. induction n as [|n IH]; intros N.
  - change (seq 0 1) with [0]. cbn [fold_left]. rewrite rnd_layers. destruct (@dk_ma 0) as [E1 E2]; [lia|]. rewrite E1, E2.
    change (6 * 0) with 0. rewrite dk_first. rewrite crypt_prefix, last_layers. rewrite kadd_kinv by (try apply sub_ok; apply mid_ok, prefix_ok; auto).
    rewrite prefix_S, rnd_layers. change (7 - 0) with 7.
    assert (K : ok4 (kadd (sub4 ek (6 * 7)) (prefix 7 s))) by (apply kadd_ok; [apply sub_ok|apply prefix_ok; auto]).
    rewrite mid_mid by (apply ma_ok; auto using ek_in). rewrite ma_ma by auto. reflexivity.
  - rewrite seq_S, fold_left_app, IH by lia. cbn [fold_left Nat.add]. rewrite rnd_layers.
    destruct (@dk_ma (S n) N) as [-> ->]. rewrite dk_mid by lia. replace (8 - S n) with (7 - n) by lia.
    assert (P : ok4 (prefix (7 - n) s)) by (apply prefix_ok; auto).
    assert (KI : ok4 (kinv (sub4 ek (6 * (7 - n))))) by (apply kinv_ok, sub_ok).
    rewrite <- mid_kadd. rewrite kadd_kinv by (auto; apply sub_ok).
    replace (7 - n) with (S (7 - S n)) by lia. rewrite prefix_S, rnd_layers. replace (S (7 - S n) - 1) with (7 - S n) by lia.
    assert (Q : ok4 (kadd (sub4 ek (6 * (7 - S n))) (prefix (7 - S n) s))) by (apply kadd_ok; [apply sub_ok|apply prefix_ok; auto]).
    rewrite mid_mid by (apply ma_ok; auto using ek_in). rewrite ma_ma by auto. reflexivity.
Qed.
Lemma idea_dec_enc s : ok4 s -> idea_crypt dk (idea_crypt ek s) = s.
Proof.
  intros H. unfold idea_crypt at 1. rewrite (@dec_rounds s H 7) by lia. rewrite last_layers. replace (7 - 7) with 0 by lia. change (6 * 0) with 0. change (prefix 0 s) with s.
  rewrite mid_mid by (apply kadd_ok; auto; apply sub_ok). rewrite dk_last. apply kadd_kinv; auto. apply sub_ok.
Qed.
Lemma crypt_ok k s : (forall r, r <= 8 -> ok4 (sub4 k (6 * r))) -> (forall r, r < 8 -> inw 16 k.[6 * r + 4] /\ inw 16 k.[6 * r + 5]) -> ok4 s -> ok4 (idea_crypt k s).
Proof.
  intros K M H. unfold idea_crypt. rewrite last_layers. apply kadd_ok; [apply (K 8); lia|]. apply mid_ok.
  apply rounds_ok with (J := fun r => r < 8); auto.
  - intros t r T R. rewrite rnd_layers. apply mid_ok, ma_ok; try apply M; auto. apply kadd_ok; auto. apply K. lia.
  - apply Forall_forall. intros r R. apply in_seq in R. lia.
Qed.
End idea.
Lemma idea_exp1_ok st i : wordsok 16 52 (fst (fst st)) -> wordsok 16 52 (fst (fst (idea_exp1 st i))).
Proof.
  destruct st as [[ek b] j]. cbn [fst]. intros [L F]. unfold idea_exp1. cbn [fst]. split; [rewrite upd_len; auto|]. apply upd_Forall; auto.
  assert (N : forall i, inw 16 ek.[i]) by (intros; apply nth_inw; auto; lia). apply inw_or; [lia|words|]. apply inw_shr; auto; lia.
Qed.
Lemma idea_expand_ok key : bytes_ok key -> List.length key = 16 -> wordsok 16 52 (idea_expand key).
Proof.
  intros O L. unfold idea_expand.
  pose proof (@rounds_ok _ _ (fun st : list Z * nat * nat => wordsok 16 52 (fst (fst st))) (fun _ : nat => True) idea_exp1
    ltac:(intros; apply idea_exp1_ok; auto) (seq 8 44) (ldw_be 2 key ++ repeat 0%Z 44, 0, 0)) as R.
  destruct (fold_left _ _ _) as [[ek b] j] . cbn [fst] in R. apply R; [|apply Forall_forall; auto].
  destruct (@ldw_be_ok 2 8 key 16%Z) as [L1 F1]; auto; try lia. split; [rewrite app_length, repeat_length, L1; reflexivity|].
  apply Forall_app. split; auto. apply Forall_forall. intros x X. apply repeat_spec in X. subst. unfold inw. lia.
Qed.
Lemma idea_lawful key : bytes_ok key -> List.length key = 16 ->
  lawful (idea_cph {| idea_ek := idea_expand key; idea_dk := idea_invert (idea_expand key) |}).
Proof.
  intros O L. pose proof (idea_expand_ok O L) as K. set (ek := idea_expand key) in *. clearbody ek.
  apply word_lawful_be_u with 16%Z; try lia. cbn [idea_ek idea_dk]. intros s H. split; [|split].
  - apply crypt_ok; auto; intros; try split; try apply sub_ok; try apply ek_in; auto.
  - apply crypt_ok; auto; intros.
    + apply dk_ok; auto.
    + destruct (@dk_ma ek r) as [-> ->]; auto. split; apply ek_in; auto.
  - apply idea_dec_enc; auto.
Qed.
Theorem C26_idea : cipher_for [16] 8 idea_new idea_encrypt idea_decrypt.
Proof.
  apply (@cipher_one _ 16 8 (fun key => {| idea_ek := idea_expand key; idea_dk := idea_invert (idea_expand key) |}) idea_cph).
  intros key O L. split; [apply idea_lawful; auto|reflexivity].
Qed.
Print Assumptions C26_idea.
Example C26_instance :
  kat (idea_new (hx "80000000000000000000000000000000")) idea_encrypt idea_decrypt "0000000000000000" "B1F5F7F87901370F" /\
  kat (idea_new (hx "00008000000000000000000000000000")) idea_encrypt idea_decrypt "0000000000000000" "95A96731978C1B9A".
Proof. kats. Qed.
