(** ecies: key derivation, shared keys, point forms, and the inversion of Decrypt. *)
From Verif Require Import Base BigModel NumLib ElgProofs CurveModel CurveSpec BlockModeModel AeadSpec SivModel Hash3Model KdfSpec KdfProofs EcSigProofs EcSigProofs2 OcbProofs KcProofs KcProofs4 IesModel IesSpec.
Set Implicit Arguments. Unset Strict Implicit.
Local Open Scope Z_scope.

Lemma be_ext n a b : bytes_ok a -> length a = n -> be_val a = b mod 256 ^ Z.of_nat n -> a = be_bytes n b.
Proof. intros O L V. rewrite <- be_bytes_mod, <- V. symmetry. now apply be_bytes_val. Qed.
Lemma hmac_eq H bs k m : (length k <= bs)%nat \/ (length (H k) <= bs)%nat -> hmac H bs k m = hmac_of H bs k m.
Proof.
  intros HL. unfold hmac, hmac_of. set (k0 := if (bs <? length k)%nat then H k else k). set (k1 := k0 ++ repeat 0 (bs - length k0)).
  assert (L : (length k0 <= bs)%nat \/ (bs < length k)%nat /\ (length (H k) <= bs)%nat). { unfold k0. destruct (Nat.ltb_spec bs (length k)); lia. }
  assert (L1 : length k1 = bs). { unfold k1. rewrite app_length, repeat_length. unfold k0 in *. destruct (Nat.ltb_spec bs (length k)); lia. }
  assert (X : forall c, map (fun b => Z.lxor b c) k1 = xorl k1 (repeat c bs)).
  { intros c. rewrite <- L1. clear. induction k1 as [|x t IH]; [reflexivity|]. cbn [map length repeat]. cbn [xorl]. now rewrite IH. }
  now rewrite !X.
Qed.

(** the counter *)
Lemma be_val4 a b c d : be_val [a; b; c; d] = ((a * 256 + b) * 256 + c) * 256 + d.
Proof. unfold be_val. cbn [rev app le_val]. ring. Qed.
Lemma inc_ok l : bytes_ok l -> length l = 4%nat -> inc_counter l = be_bytes 4 (be_val l + 1).
Proof.
  intros O L. destruct l as [|a [|b [|c [|d [|]]]]]; try discriminate. clear L. unfold bytes_ok in O. rewrite !Forall_cons_iff in O. destruct O as (Ha & Hb & Hc & Hd & _). unfold is_byte in *.
  assert (T : forall x, 0 <= x < 256 -> to_byte (x + 1) = x + 1 /\ x < 255 \/ to_byte (x + 1) = 0 /\ x = 255).
  { intros x Hx. unfold to_byte. destruct (Z.eq_dec x 255) as [->|]; [right; split; reflexivity|left; split; [apply Z.mod_small; lia|lia]]. }
  rewrite be_val4. change (256 ^ Z.of_nat 4) with 4294967296. cbn [inc_counter].
  assert (M : forall x y, 0 <= x < 4294967296 -> y = x \/ y = x + 4294967296 -> x = y mod 256 ^ Z.of_nat 4).
  { intros x y Hx [->| ->]; change (256 ^ Z.of_nat 4) with 4294967296; [symmetry; apply Z.mod_small; lia|]. replace (x + 4294967296) with (x + 1 * 4294967296) by ring. rewrite Z.mod_add by lia. symmetry. apply Z.mod_small; lia. }
  destruct (T d Hd) as [[-> Bd]|[-> ->]].
  { destruct (Z.eqb_spec (d + 1) 0); [lia|]. cbn [negb]. apply be_ext; [repeat constructor; unfold is_byte; lia|reflexivity|]. rewrite be_val4. apply M; lia. }
  change (0 =? 0) with true. cbn [negb]. destruct (T c Hc) as [[-> Bc]|[-> ->]].
  { destruct (Z.eqb_spec (c + 1) 0); [lia|]. cbn [negb]. apply be_ext; [repeat constructor; unfold is_byte; lia|reflexivity|]. rewrite be_val4. apply M; lia. }
  change (0 =? 0) with true. cbn [negb]. destruct (T b Hb) as [[-> Bb]|[-> ->]].
  { destruct (Z.eqb_spec (b + 1) 0); [lia|]. cbn [negb]. apply be_ext; [repeat constructor; unfold is_byte; lia|reflexivity|]. rewrite be_val4. apply M; lia. }
  change (0 =? 0) with true. cbn [negb]. destruct (T a Ha) as [[-> Ba]|[-> ->]]; (apply be_ext; [repeat constructor; unfold is_byte; lia|reflexivity|]; rewrite be_val4; apply M; lia).
Qed.
Lemma inc_be v : inc_counter (be_bytes 4 v) = be_bytes 4 (v + 1).
Proof.
  rewrite inc_ok by (try apply be_bytes_ok; apply be_bytes_length). rewrite be_val_bytes. rewrite <- be_bytes_mod, <- (be_bytes_mod 4 (v + 1)). f_equal. apply Z.add_mod_idemp_l. discriminate.
Qed.
Lemma rounds_ok h z s1 : forall n v, kdf_rounds n h z s1 (be_bytes 4 v) = concat (map (fun i => hsum h (be_bytes 4 (v + Z.of_nat i) ++ z ++ s1)) (seq 0 n)).
Proof.
  induction n as [|n IH]; intros v; [reflexivity|]. cbn [kdf_rounds seq map concat]. rewrite inc_be, IH, <- seq_shift, map_map. rewrite Z.add_0_r. f_equal. f_equal. apply map_ext. intros i. do 2 f_equal. f_equal. lia.
Qed.
Lemma kdf_len h z s1 n v : hasher_ok h -> length (kdf_rounds n h z s1 v) = (n * hsize h)%nat.
Proof. intros Hh. revert v. induction n as [|n IH]; intros v; [reflexivity|]. cbn [kdf_rounds]. rewrite app_length, IH, (proj1 (Hh _)). lia. Qed.
Lemma reps_eq h n : (0 < hblock h)%nat -> Nat.div ((n + 7) * 8) (hblock h * 8) = Nat.div (n + 7) (hblock h).
Proof. intros H. apply Nat.div_mul_cancel_r; lia. Qed.
Lemma kdf_ok h z s1 kl : hasher_ok h -> kdf_enough (hsize h) (hblock h) kl ->
  exists K, concat_kdf h z s1 (kl + kl) = Ok K /\ by_blocks (hsize h) (fun i => hsum h (be_bytes 4 (Z.of_nat i + 1) ++ z ++ s1)) (Z.of_nat (2 * kl)) K.
Proof.
  intros Hh (B & _ & E & Z32). unfold concat_kdf. destruct (Nat.eqb_spec (hblock h) 0); [lia|]. rewrite reps_eq by exact B. replace (kl + kl)%nat with (2 * kl)%nat by lia. set (r := ((2 * kl + 7) / hblock h)%nat) in *.
  assert (Hr : (r <= 2 * kl + 7)%nat) by (apply Nat.div_le_upper_bound; [lia|nia]).
  destruct (Z.ltb_spec (2 ^ 32 - 1) (Z.of_nat r)) as [C|C]; [exfalso; clear - C Z32 Hr; lia|]. cbv zeta. rewrite kdf_len by exact Hh.
  destruct (Nat.ltb_spec (S r * hsize h) (2 * kl)); [lia|]. eexists. split; [reflexivity|]. change [0; 0; 0; 1] with (be_bytes 4 1). rewrite rounds_ok.
  replace (2 * kl)%nat with (Z.to_nat (Z.of_nat (2 * kl))) at 2 by lia.
  apply by_blocks_ext with (T := fun i => hsum h (be_bytes 4 (1 + Z.of_nat i) ++ z ++ s1)); [intros i; now rewrite Z.add_comm|].
  apply by_blocks_concat; [intros i; apply Hh|lia|lia].
Qed.
Lemma kdf_short h z s1 n : hasher_ok h -> (0 < hblock h)%nat -> Z.of_nat (n + 7) < 2 ^ 32 -> (hsize h * ((n + 7) / hblock h + 1) < n)%nat -> concat_kdf h z s1 n = Panic.
Proof.
  intros Hh B Z32 E. unfold concat_kdf. destruct (Nat.eqb_spec (hblock h) 0); [lia|]. rewrite reps_eq by exact B. set (r := ((n + 7) / hblock h)%nat) in *.
  assert (Hr : (r <= n + 7)%nat) by (apply Nat.div_le_upper_bound; [lia|nia]).
  destruct (Z.ltb_spec (2 ^ 32 - 1) (Z.of_nat r)) as [C|C]; [exfalso; clear - C Z32 Hr; lia|]. cbv zeta. rewrite kdf_len by exact Hh.
  destruct (Nat.ltb_spec (S r * hsize h) n); [reflexivity|lia].
Qed.

Lemma shared_ok c d pub kl : (2 * kl <= byteceil (cBits c))%nat -> on_curve c pub = true -> 0 <= fst (cmul c pub (big_bytes d)) ->
  ies_shared c d pub (kl + kl) = Ok (be_bytes (2 * kl) (fst (cmul c pub (big_bytes d)) mod 256 ^ Z.of_nat (2 * kl))).
Proof.
  intros W On Hx. unfold ies_shared. replace (kl + kl)%nat with (2 * kl)%nat by lia. destruct (Nat.ltb_spec (byteceil (cBits c)) (2 * kl)); [lia|]. rewrite On. cbn [negb andb]. cbv zeta.
  set (x := fst (cmul c pub (big_bytes d))) in *. set (xb := big_bytes x). assert (Ox : bytes_ok xb) by apply big_bytes_ok. assert (V : be_val xb = x) by (apply be_val_big_bytes; exact Hx). set (n := (2 * kl)%nat) in *. f_equal. rewrite be_bytes_mod.
  destruct (Nat.ltb_spec n (length xb)) as [L|L].
  - apply be_ext; [now apply bytes_ok_skipn|rewrite skipn_length; lia|]. rewrite be_val_skipn by (auto; lia). now rewrite V.
  - apply be_ext.
    + unfold bytes_ok. apply Forall_app. split; [|exact Ox]. apply Forall_forall. intros y Hy. apply repeat_spec in Hy. subst y. unfold is_byte. lia.
    + rewrite app_length, repeat_length. lia.
    + rewrite be_val_app, be_val_zeros. pose proof (be_val_bound Ox) as Bd. rewrite Z.mul_0_l, Z.add_0_l, V in *. symmetry. apply Z.mod_small. split; [lia|]. eapply Z.lt_le_trans; [apply Bd|]. apply Z.pow_le_mono_r; lia.
Qed.

Section keys.
Variable p : ies. Notation h := (iH p). Notation kl := (iK p).
Hypothesis (Hh : hasher_ok h) (HK : kdf_enough (hsize h) (hblock h) kl) (HB : (hsize h <= hblock h)%nat).
Lemma keys_ok z s1 : exists K, ies_keys p z s1 = Ok (firstn kl K, hsum h (skipn kl K)) /\ by_blocks (hsize h) (fun i => hsum h (be_bytes 4 (Z.of_nat i + 1) ++ z ++ s1)) (Z.of_nat (2 * kl)) K.
Proof. destruct (kdf_ok z s1 Hh HK) as (K & E & B). exists K. split; [|exact B]. unfold ies_keys. now rewrite E. Qed.
Lemma tag_ok x em s2 : ies_tag h (hsum h x) em s2 = hmac_of (hsum h) (hblock h) (hsum h x) (em ++ s2).
Proof. unfold ies_tag. apply hmac_eq. left. now rewrite (proj1 (Hh x)). Qed.
Lemma tag_len k em s2 : length (ies_tag h k em s2) = hsize h.
Proof. unfold ies_tag, hmac. apply Hh. Qed.
End keys.

(** ** Points *)
Section points.
Variables (c : curve). Notation w := (byteceil (cBits c)).
Definition point_in (R : Z * Z) : Prop := 0 <= fst R < cP c /\ 0 <= snd R < cP c.
Definition point_text (R : Z * Z) : bytes := 4 :: be_bytes w (fst R) ++ be_bytes w (snd R).
Lemma point_len R : length (point_text R) = (1 + 2 * w)%nat.
Proof. unfold point_text. cbn [length]. rewrite app_length, !be_bytes_length. lia. Qed.
Hypothesis (Sz : sized c).
Lemma marshal_ok R : point_in R -> on_curve c R = true -> el_marshal c R = Ok (point_text R).
Proof. intros [X Y] On. destruct Sz as (P0 & _ & PW). unfold el_marshal. rewrite On. cbn [negb]. rewrite !fill_bytes_fits by lia. reflexivity. Qed.
Lemma unmarshal_ok R : point_in R -> on_curve c R = true -> el_unmarshal c (point_text R) = Some R.
Proof.
  intros [X Y] On. destruct Sz as (P0 & _ & PW). unfold el_unmarshal. rewrite point_len, Nat.eqb_refl. cbn [negb]. unfold point_text. change (4 =? 4) with true. cbn [negb]. cbv zeta.
  rewrite firstn_app_exact by apply be_bytes_length. rewrite skipn_app_exact by apply be_bytes_length. rewrite !be_val_bytes, !Z.mod_small by lia. cbn [fst snd].
  destruct (Z.leb_spec (cP c) (fst R)); [lia|]. destruct (Z.leb_spec (cP c) (snd R)); [lia|]. cbn [orb]. rewrite <- surjective_pairing, On. reflexivity.
Qed.
Lemma unmarshal_inv data R : bytes_ok data -> el_unmarshal c data = Some R -> data = point_text R /\ point_in R /\ on_curve c R = true.
Proof.
  intros O. unfold el_unmarshal. destruct (Nat.eqb_spec (length data) (1 + 2 * w)) as [L|]; [|discriminate]. cbn [negb]. destruct data as [|t l]; [discriminate|]. cbn [length] in L. destruct (Z.eqb_spec t 4) as [->|]; [|discriminate]. cbn [negb]. cbv zeta. cbn [fst snd].
  assert (Ol : bytes_ok l) by (inversion O; assumption). assert (Ll : length l = (2 * w)%nat) by lia.
  destruct (Z.leb_spec (cP c) (be_val (firstn w l))) as [|X]; [discriminate|]. destruct (Z.leb_spec (cP c) (be_val (skipn w l))) as [|Y]; [discriminate|]. cbn [orb].
  destruct (on_curve c (be_val (firstn w l), be_val (skipn w l))) eqn:On; [|discriminate]. cbn [negb]. intros E. assert (R = (be_val (firstn w l), be_val (skipn w l))) by congruence. subst R. clear E.
  assert (O1 : bytes_ok (firstn w l)) by now apply bytes_ok_firstn. assert (O2 : bytes_ok (skipn w l)) by now apply bytes_ok_skipn. pose proof (be_val_bound O1). pose proof (be_val_bound O2).
  split; [|split; [split; cbn [fst snd]; lia|exact On]]. unfold point_text. cbn [fst snd]. f_equal. rewrite <- (firstn_skipn w l) at 1. f_equal; symmetry; apply be_bytes_val; auto; rewrite ?firstn_length, ?skipn_length; lia.
Qed.
End points.

(** ** Decrypt *)
Section dec.
Variables (c : curve) (p : ies) (d : Z). Notation h := (iH p). Notation kl := (iK p). Notation w := (byteceil (cBits c)).
Hypothesis (Sz : sized c) (Hh : hasher_ok h) (HK : kdf_enough (hsize h) (hblock h) kl) (HB : (hsize h <= hblock h)%nat) (HW : (2 * kl <= w)%nat).
Definition sh R := fst (cmul c R (big_bytes d)).
Definition zz R := be_bytes (2 * kl) (sh R mod 256 ^ Z.of_nat (2 * kl)).
Definition keyof z s1 K := by_blocks (hsize h) (fun i => hsum h (be_bytes 4 (Z.of_nat i + 1) ++ z ++ s1)) (Z.of_nat (2 * kl)) K.
Definition tagof K em s2 := hmac_of (hsum h) (hblock h) (hsum h (skipn kl K)) (em ++ s2).
Lemma tagof_len K em s2 : length (tagof K em s2) = hsize h. Proof. apply Hh. Qed.

Lemma dec_text R K s1 s2 em : 0 <= sh R -> point_in c R -> on_curve c R = true -> keyof (zz R) s1 K -> (0 < length em)%nat ->
  ies_decrypt c p d (point_text c R ++ em ++ tagof K em s2) s1 s2 = ies_sym_decrypt p (firstn kl K) em.
Proof.
  intros Hx PR On HKK Lem. unfold ies_decrypt. set (ct := point_text c R ++ em ++ tagof K em s2). pose proof (@point_len c R) as Lp.
  assert (Lct : length ct = (1 + 2 * w + length em + hsize h)%nat) by (unfold ct; rewrite !app_length, Lp, tagof_len; lia).
  assert (E1 : firstn (1 + 2 * w) ct = point_text c R) by (unfold ct; now rewrite firstn_app_exact).
  assert (E2 : skipn (1 + 2 * w) ct = em ++ tagof K em s2) by (unfold ct; now rewrite skipn_app_exact).
  assert (E3 : skipn (length ct - hsize h) ct = tagof K em s2).
  { unfold ct at 2. rewrite app_assoc. apply skipn_app_exact. rewrite app_length, Lp. lia. }
  assert (E4 : exists l, ct = 4 :: l) by (eexists; reflexivity). destruct E4 as (l & E4). rewrite E4 at 1. change ((4 =? 2) || (4 =? 3) || (4 =? 4))%bool with true. cbn [negb]. cbv zeta.
  destruct (Nat.ltb_spec (length ct) (1 + 2 * w + hsize h + 1)); [lia|]. rewrite E1, (unmarshal_ok Sz PR On), On. cbn [negb]. rewrite shared_ok by auto. cbn [rbind].
  destruct (keys_ok Hh HK (zz R) s1) as (K' & EK & BK). fold (sh R) (zz R). rewrite EK. cbn [rbind fst snd]. assert (K' = K) by (eapply by_blocks_unique; eassumption). subst K'.
  rewrite E2, E3. rewrite firstn_app_exact by lia. rewrite (tag_ok Hh HB). fold (tagof K em s2). now rewrite bytes_eqb_refl.
Qed.
Lemma dec_inv ct s1 s2 : (forall R, point_in c R -> on_curve c R = true -> 0 <= fst (cmul c R (big_bytes d))) -> bytes_ok ct ->
  ies_decrypt c p d ct s1 s2 = Err \/
  exists R K em, point_in c R /\ on_curve c R = true /\ keyof (zz R) s1 K /\ (0 < length em)%nat /\ ct = point_text c R ++ em ++ tagof K em s2 /\ ies_decrypt c p d ct s1 s2 = ies_sym_decrypt p (firstn kl K) em.
Proof.
  intros Hx O. unfold ies_decrypt. destruct ct as [|t l]; [now left|]. set (ct := t :: l) in *. destruct ((t =? 2) || (t =? 3) || (t =? 4))%bool; [|now left]. cbn [negb]. cbv zeta.
  destruct (Nat.ltb_spec (length ct) (1 + 2 * w + hsize h + 1)) as [|L]; [now left|]. destruct (el_unmarshal c (firstn (1 + 2 * w) ct)) as [R|] eqn:EU; [|now left].
  destruct (unmarshal_inv (bytes_ok_firstn _ O) EU) as (E1 & PR & On). rewrite On. cbn [negb]. rewrite shared_ok by auto. cbn [rbind].
  destruct (keys_ok Hh HK (zz R) s1) as (K & EK & BK). fold (sh R) (zz R). rewrite EK. cbn [rbind fst snd]. rewrite (tag_ok Hh HB).
  set (em := firstn (length ct - hsize h - (1 + 2 * w)) (skipn (1 + 2 * w) ct)). fold (tagof K em s2).
  destruct (bytes_eqb (skipn (length ct - hsize h) ct) (tagof K em s2)) eqn:ET; [|now left]. apply bytes_eqb_eq in ET. right. exists R, K, em. split; [exact PR|]. split; [exact On|]. split; [exact BK|].
  split; [unfold em; rewrite firstn_length, skipn_length; lia|]. split; [|reflexivity].
  rewrite <- ET, <- E1. rewrite <- (firstn_skipn (1 + 2 * w) ct) at 1. f_equal. unfold em. rewrite <- (firstn_skipn (length ct - hsize h - (1 + 2 * w)) (skipn (1 + 2 * w) ct)) at 1. f_equal. rewrite skipn_skipn'. f_equal. lia.
Qed.
End dec.
Section sym.
Variable p : ies. Hypothesis Hc : forall k ci, iC p k = Some ci -> lawful ci /\ bsz ci = iB p.
Lemma sym_dec K iv ci m : iC p K = Some ci -> length iv = iB p -> ies_sym_decrypt p K (iv ++ go_ctr ci iv m) = Ok m.
Proof.
  intros E L. destruct (Hc E) as [La Bs]. unfold ies_sym_decrypt. rewrite E. destruct (Nat.ltb_spec (length (iv ++ go_ctr ci iv m)) (iB p)) as [C|_]; [rewrite app_length in C; lia|].
  rewrite firstn_app_exact, skipn_app_exact by exact L. unfold new_ctr_xor. rewrite Bs, L, Nat.eqb_refl. now rewrite go_ctr_inv.
Qed.
Lemma sym_dec_inv K em m : ies_sym_decrypt p K em = Ok m -> exists ci iv, iC p K = Some ci /\ length iv = iB p /\ em = iv ++ go_ctr ci iv m.
Proof.
  unfold ies_sym_decrypt. destruct (iC p K) as [ci|] eqn:E; [|discriminate]. destruct (Hc E) as [La Bs]. destruct (Nat.ltb_spec (length em) (iB p)) as [|L]; [discriminate|].
  unfold new_ctr_xor. rewrite Bs, firstn_length_le, Nat.eqb_refl by lia. intros H. apply okinj in H. subst m. exists ci, (firstn (iB p) em). split; [reflexivity|]. split; [apply firstn_length_le; lia|].
  rewrite go_ctr_inv by exact La. symmetry. apply firstn_skipn.
Qed.
Lemma sym_dec_panic K em : ies_sym_decrypt p K em = Panic <-> iC p K <> None /\ (length em < iB p)%nat.
Proof.
  unfold ies_sym_decrypt. destruct (iC p K) as [ci|] eqn:E; [|split; [discriminate|intros [[] _]; reflexivity]]. destruct (Hc E) as [La Bs]. destruct (Nat.ltb_spec (length em) (iB p)) as [L|L]; [split; [intros _; split; [discriminate|exact L]|reflexivity]|].
  unfold new_ctr_xor. rewrite Bs, firstn_length_le, Nat.eqb_refl by lia. split; [discriminate|lia].
Qed.
End sym.
Lemma go_ctr_prefix ci iv m1 m2 : lawful ci -> firstn (length m1) (go_ctr ci iv (m1 ++ m2)) = go_ctr ci iv m1.
Proof.
  intros La. unfold go_ctr. rewrite xorl_firstn, firstn_app_exact by reflexivity. rewrite xorl_firstn_r by lia. rewrite app_length. pose proof (ctr_enough La iv (length m1)) as E. pose proof (law_pos La) as P0.
  set (n1 := ((length m1 + bsz ci - 1) / bsz ci)%nat) in *. set (n2 := ((length m1 + length m2 + bsz ci - 1) / bsz ci)%nat).
  assert (H : (n1 <= n2)%nat) by (apply Nat.div_le_mono; lia). replace n2 with (n1 + (n2 - n1))%nat by lia. unfold ctr_blocks at 1. rewrite seq_app, map_app, concat_app. apply xorl_app_r. exact E.
Qed.
