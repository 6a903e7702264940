(** C68, C69: Grain-128AEAD and its stream cipher. *)
From Verif Require Import Base BlockModeModel WordModel BlkSpec WordLib StreamSpec StreamProofs Sc1Spec Sc4Model Sc4Spec Sc4Proofs Sc4Proofs2 Sc4Proofs3 Sc4Proofs4.
Set Implicit Arguments. Unset Strict Implicit.
Local Open Scope nat_scope.

(** * C68 *)
Lemma rok_0 : rok (0, 0)%Z.
Proof. split; split; cbn [fst snd]; try lia; reflexivity. Qed.
(** The objects a program can hold: made by NewCipher with this key, then used for any number of Seal and Open. *)
Inductive grain_reached (key : bytes) : gobj -> Prop :=
| reached_new o : grain_new key = Ok o -> grain_reached key o
| reached_seal o ip dst nonce pt ad o' out : grain_reached key o -> grain_seal ip o dst nonce pt ad = Ok (o', out) -> grain_reached key o'
| reached_open o dst nonce ct ad o' r : grain_reached key o -> grain_open o dst nonce ct ad = Ok (o', r) -> grain_reached key o'.
Lemma reached_inv key o : grain_reached key o -> length key = 16 /\ go_key o = g_key key /\ gok (go_st o).
Proof.
  induction 1 as [o E|o ip dst nonce pt ad o' out R (L & K & G) E|o dst nonce ct ad o' r R (L & K & G) E].
  - unfold grain_new in E. destruct (Nat.eqb_spec (length key) 16); [|discriminate]. injection E as <-. split; auto. split; [reflexivity|].
    split; exact rok_0.
  - unfold grain_seal in E. destruct (negb _); [discriminate|]. destruct (g_init (go_key o) nonce (go_st o)) as [s| |] eqn:Ei; try discriminate.
    cbn [rbind] in E. pose proof (@encrypt_gok ip s pt ad (init_gok G Ei)) as Q. destruct (g_encrypt ip s pt ad) as [s' c]. injection E as <- <-. auto.
  - unfold grain_open in E. destruct (negb _); [discriminate|]. destruct (length ct <? 8); [injection E as <- <-; auto|].
    destruct (g_init (go_key o) nonce (go_st o)) as [s| |] eqn:Ei; try discriminate.
    cbn [rbind] in E. pose proof (@decrypt_gok s (firstn (length ct - 8) ct) ad (init_gok G Ei)) as Q.
    destruct (g_decrypt s (firstn (length ct - 8) ct) ad) as [s' c]. injection E as <- <-. auto.
Qed.
(** NewCipher accepts exactly the 16-byte keys; a nonce that is not 12 bytes long panics *)
Theorem C68_checks key : (grain_new key <> Panic) /\ ((exists o, grain_new key = Ok o) <-> length key = 16) /\
  forall o ip dst nonce x ad, length nonce <> 12 -> grain_seal ip o dst nonce x ad = Panic /\ grain_open o dst nonce x ad = Panic.
Proof.
  unfold grain_new. split; [destruct (_ =? _); discriminate|]. split.
  - destruct (Nat.eqb_spec (length key) 16); split; intros H; auto; [eexists; reflexivity|destruct H; discriminate|contradiction].
  - intros o ip dst nonce x ad H. apply Nat.eqb_neq in H. unfold grain_seal, grain_open. rewrite H. auto.
Qed.

(** what the code authenticates in front of the associated data *)
Notation header ad := (code_length (length ad) ++ ad).
(** Seal into a separate buffer: dst, the plaintext under the keystream after the header, the tag of header and plaintext *)
Theorem C68_seal key nonce o dst pt ad : grain_reached key o -> length nonce = 12 -> bytes_ok key -> bytes_ok nonce -> bytes_ok pt -> bytes_ok ad ->
  (Z.of_nat (length ad) < 2 ^ 63)%Z ->
  exists o', grain_seal false o dst nonce pt ad =
    Ok (o', dst ++ xor_stream (grain_ks key nonce) (length (header ad)) pt ++ grain_tag key nonce (header ad ++ pt)).
Proof. intros R Ln Hk Hn Hp Ha La. destruct (reached_inv R) as (L & K & G). exact (@seal_ok key nonce L Hk Hn false o dst pt ad Ln K G Hp Ha La). Qed.
(** Open: fewer than 8 bytes are refused; otherwise the last 8 bytes must be the tag of header and decrypted text, and nothing else is checked *)
Theorem C68_open_short o dst nonce ct ad : length nonce = 12 -> length ct < 8 -> grain_open o dst nonce ct ad = Ok (o, Err).
Proof. intros Ln Lc. unfold grain_open. rewrite Ln. cbn [Nat.eqb negb]. apply Nat.ltb_lt in Lc. rewrite Lc. reflexivity. Qed.
Theorem C68_open key nonce o dst ct tag ad : grain_reached key o -> length nonce = 12 -> bytes_ok key -> bytes_ok nonce -> bytes_ok ct -> bytes_ok ad ->
  length tag = 8 -> (Z.of_nat (length ad) < 2 ^ 63)%Z ->
  let pt := xor_stream (grain_ks key nonce) (length (header ad)) ct in
  exists o' r, grain_open o dst nonce (ct ++ tag) ad = Ok (o', r) /\
    (tag = grain_tag key nonce (header ad ++ pt) -> r = Ok (dst ++ pt)) /\ (tag <> grain_tag key nonce (header ad ++ pt) -> r = Err).
Proof.
  intros R Ln Hk Hn Hp Ha Lt La pt. destruct (reached_inv R) as (L & K & G).
  destruct (@open_ok key nonce L Hk Hn o dst ct tag ad Ln K G Hp Lt Ha La) as (o' & E). fold pt in E. exists o'. eexists. split; [exact E|].
  destruct (bytes_eqb _ tag) eqn:Eb.
  - apply bytes_eqb_eq in Eb. split; intros H; [reflexivity|congruence].
  - split; intros H; [|reflexivity]. exfalso. rewrite H in Eb. rewrite (proj2 (bytes_eqb_eq _ _) eq_refl) in Eb. discriminate.
Qed.
Lemma xor_stream_bytes key nonce d : forall off, bytes_ok d -> bytes_ok (xor_stream (grain_ks key nonce) off d).
Proof.
  induction d as [|x d IH]; intros off H; [apply Forall_nil|]. inversion H; subst. cbn [xor_stream]. apply Forall_cons; [|apply IH; auto].
  apply (@inw_xor 8); [lia|auto|apply ks_byte].
Qed.
Lemma grain_tag_length key nonce d : length (grain_tag key nonce d) = 8.
Proof. unfold grain_tag. rewrite map_length, seq_length. reflexivity. Qed.
(** Open undoes Seal, whichever objects of the key are used and whatever was done with them before *)
Theorem C68_round_trip key nonce o1 o2 dst pt ad : grain_reached key o1 -> grain_reached key o2 -> length nonce = 12 ->
  bytes_ok key -> bytes_ok nonce -> bytes_ok pt -> bytes_ok ad -> (Z.of_nat (length ad) < 2 ^ 63)%Z ->
  exists o1' o2' c, grain_seal false o1 dst nonce pt ad = Ok (o1', dst ++ c) /\ length c = length pt + 8 /\
    forall dst2, grain_open o2 dst2 nonce c ad = Ok (o2', Ok (dst2 ++ pt)).
Proof.
  intros R1 R2 Ln Hk Hn Hp Ha La. destruct (@C68_seal key nonce o1 dst pt ad R1 Ln Hk Hn Hp Ha La) as (o1' & E1).
  set (c := xor_stream (grain_ks key nonce) (length (header ad)) pt) in *.
  assert (Ec : xor_stream (grain_ks key nonce) (length (header ad)) c = pt) by apply xor_stream_cancel.
  assert (Oc : bytes_ok c) by (apply xor_stream_bytes; auto).
  assert (Lc : length c = length pt) by apply xor_stream_length. clearbody c.
  destruct (reached_inv R2) as (L & K & G).
  destruct (@open_ok key nonce L Hk Hn o2 [] c (grain_tag key nonce (header ad ++ pt)) ad Ln K G Oc (grain_tag_length _ _ _) Ha La) as (o2' & E2).
  exists o1', o2'. eexists. split; [exact E1|]. rewrite app_length, grain_tag_length, Lc. split; [reflexivity|].
  intros dst2. destruct (@open_ok key nonce L Hk Hn o2 dst2 c (grain_tag key nonce (header ad ++ pt)) ad Ln K G Oc (grain_tag_length _ _ _) Ha La) as (o3 & E3).
  rewrite E3. assert (o3 = o2') as ->.
  { clear E1. unfold grain_open in E2, E3. destruct (negb _); [discriminate|]. destruct (_ <? 8); [congruence|].
    destruct (g_init _ _ _); cbn [rbind] in *; try discriminate. destruct (g_decrypt _ _ _). congruence. }
  rewrite Ec, (proj2 (bytes_eqb_eq _ _) eq_refl). reflexivity.
Qed.

(** the header is the standard's for up to 127 bytes of associated data, and for no longer length *)
Theorem C68_standard n : n <= 127 -> code_length n = der_length n.
Proof. intros H. unfold code_length, der_length. apply Nat.leb_le in H. rewrite H. reflexivity. Qed.
Lemma len_bytes_small n : 127 < n -> (Z.of_nat (len_bytes n) < Z.of_nat n)%Z.
Proof.
  intros H. unfold len_bytes. pose proof (Z.log2_lt_lin (Z.of_nat n) ltac:(lia)) as H1. pose proof (Z.log2_nonneg (Z.of_nat n)) as H2.
  pose proof (Nat.div_le_upper_bound (Z.to_nat (Z.log2 (Z.of_nat n))) 8 (n - 2)) as H3. lia.
Qed.
Lemma len_bytes_fits n : 127 < n -> (Z.of_nat n < 256 ^ Z.of_nat (len_bytes n))%Z.
Proof.
  intros H. pose proof (Z.log2_spec (Z.of_nat n) ltac:(lia)) as [_ H1]. eapply Z.lt_le_trans; [exact H1|].
  change 256%Z with (2 ^ 8)%Z. rewrite <- Z.pow_mul_r by lia. apply Z.pow_le_mono_r; [lia|]. unfold len_bytes.
  pose proof (Z.log2_nonneg (Z.of_nat n)) as H2. set (x := Z.log2 (Z.of_nat n)) in *. clearbody x.
  pose proof (Nat.div_mod (Z.to_nat x) 8 ltac:(lia)). pose proof (Nat.mod_upper_bound (Z.to_nat x) 8 ltac:(lia)). lia.
Qed.
Theorem C68_header_refuted n : 127 < n -> code_length n <> der_length n /\ length (code_length n) = length (der_length n).
Proof.
  intros H. unfold code_length, der_length. destruct (Nat.leb_spec n 127); [lia|]. cbn [length]. rewrite !be_bytes_length. split; [|reflexivity].
  intros E. apply (f_equal (@tl Z)) in E. cbn [tl] in E. apply (f_equal be_val) in E.
  pose proof (len_bytes_small H). pose proof (len_bytes_fits H). rewrite !be_val_bytes, !Z.mod_small in E by lia. lia.
Qed.

(** A forgery without the key: the header does not say where the associated data end. From one sealed message with more
    than 127 bytes of associated data, moving the first k bytes of the plaintext to the end of the associated data gives
    another message that Open accepts, provided the length still takes as many bytes. *)
Theorem C68_forgery key nonce o1 o2 pt ad k : grain_reached key o1 -> grain_reached key o2 -> length nonce = 12 ->
  bytes_ok key -> bytes_ok nonce -> bytes_ok pt -> bytes_ok ad -> (Z.of_nat (length ad + k) < 2 ^ 63)%Z ->
  127 < length ad -> k <= length pt -> len_bytes (length ad + k) = len_bytes (length ad) ->
  exists o1' o2' c, grain_seal false o1 [] nonce pt ad = Ok (o1', c) /\
    grain_open o2 [] nonce (skipn k c) (ad ++ firstn k pt) = Ok (o2', Ok (skipn k pt)).
Proof.
  intros R1 R2 Ln Hk Hn Hp Ha La L1 Lk Eb. destruct (@C68_seal key nonce o1 [] pt ad R1 Ln Hk Hn Hp Ha ltac:(lia)) as (o1' & E1).
  destruct (reached_inv R2) as (L & K & G). set (ad' := ad ++ firstn k pt).
  assert (La' : length ad' = length ad + k) by (unfold ad'; rewrite app_length, firstn_length; lia).
  assert (Eh : header ad' = header ad ++ firstn k pt).
  { unfold code_length. rewrite La', Eb. destruct (Nat.leb_spec (length ad + k) 127); [lia|]. destruct (Nat.leb_spec (length ad) 127); [lia|].
    unfold ad'. rewrite <- app_assoc. reflexivity. }
  set (ks := grain_ks key nonce) in *.
  assert (Es : skipn k (xor_stream ks (length (header ad)) pt) = xor_stream ks (length (header ad')) (skipn k pt)).
  { assert (Lh : length (header ad') = length (header ad) + k) by (rewrite Eh, (app_length (header ad)), firstn_length, Nat.min_l by lia; reflexivity).
    rewrite Lh. rewrite <- (firstn_skipn k pt) at 1. rewrite xor_stream_app, firstn_length, Nat.min_l by lia.
    rewrite skipn_app_exact; [reflexivity|]. rewrite xor_stream_length, firstn_length. lia. }
  assert (Ha' : bytes_ok ad') by (apply bytes_ok_app; auto using bytes_ok_firstn).
  assert (Oc : bytes_ok (xor_stream ks (length (header ad')) (skipn k pt))) by (apply xor_stream_bytes, bytes_ok_skipn; auto).
  destruct (@open_ok key nonce L Hk Hn o2 [] (xor_stream ks (length (header ad')) (skipn k pt)) (grain_tag key nonce (header ad ++ pt)) ad' Ln K G
    Oc (grain_tag_length _ _ _) Ha' ltac:(lia)) as (o2' & E2).
  exists o1', o2'. eexists. split; [exact E1|]. cbn [app]. rewrite skipn_app, Es, xor_stream_length.
  replace (k - length pt) with 0 by lia. rewrite skipn_O, E2. fold ks. rewrite xor_stream_cancel. 
  replace (header ad' ++ skipn k pt) with (header ad ++ pt) by (rewrite Eh, <- (firstn_skipn k pt) at 1; rewrite <- !app_assoc; reflexivity).
  rewrite (proj2 (bytes_eqb_eq _ _) eq_refl). reflexivity.
Qed.
(** the numbers 128 .. 255 all take one byte *)
Example C68_forgery_lengths : forall k, k <= 127 -> len_bytes (128 + k) = len_bytes 128.
Proof.
  intros k Hk. unfold len_bytes. replace (Z.log2 (Z.of_nat (128 + k))) with 7%Z; [reflexivity|].
  symmetry. apply Z.log2_unique; [lia|]. change (2 ^ 7)%Z with 128%Z. change (2 ^ Z.succ 7)%Z with 256%Z. lia.
Qed.

(** Seal in place (plaintext[:0] as dst): the ciphertext is right; the tag is that of a text in which the first octet is
    replaced by its ciphertext if the header is of odd length, and the last one if header and text together are *)
Theorem C68_inplace key nonce o pt ad : grain_reached key o -> length nonce = 12 -> bytes_ok key -> bytes_ok nonce -> bytes_ok pt -> bytes_ok ad ->
  (Z.of_nat (length ad) < 2 ^ 63)%Z ->
  let ct := xor_stream (grain_ks key nonce) (length (header ad)) pt in
  exists o', grain_seal true o [] nonce pt ad = Ok (o', ct ++ grain_tag key nonce (header ad ++ seen (length (header ad)) pt ct)).
Proof. intros R Ln Hk Hn Hp Ha La ct. destruct (reached_inv R) as (L & K & G). exact (@seal_ok key nonce L Hk Hn true o [] pt ad Ln K G Hp Ha La). Qed.
(** so with an even header and an even text the result is the same *)
Theorem C68_inplace_even key nonce o pt ad : grain_reached key o -> length nonce = 12 -> bytes_ok key -> bytes_ok nonce -> bytes_ok pt -> bytes_ok ad ->
  (Z.of_nat (length ad) < 2 ^ 63)%Z -> Nat.Even (length (header ad)) -> Nat.Even (length pt) ->
  exists o1 o2 c, grain_seal true o [] nonce pt ad = Ok (o1, c) /\ grain_seal false o [] nonce pt ad = Ok (o2, c).
Proof.
  intros R Ln Hk Hn Hp Ha La E1 E2. destruct (@C68_inplace key nonce o pt ad R Ln Hk Hn Hp Ha La) as (o1 & H1).
  destruct (@C68_seal key nonce o [] pt ad R Ln Hk Hn Hp Ha La) as (o2 & H2). exists o1, o2. eexists. split; [|exact H2]. rewrite H1. cbn [app].
  unfold seen. rewrite Nat.odd_add. apply Nat.even_spec in E1, E2. unfold Nat.odd. rewrite E1, E2. reflexivity.
Qed.
(** otherwise Open can refuse what Seal made: three bytes, no associated data *)
Theorem C68_inplace_refuted : exists key o nonce pt o1 c o2, grain_new key = Ok o /\ length nonce = 12 /\ bytes_ok pt /\
  grain_seal true o [] nonce pt [] = Ok (o1, c) /\ grain_open o [] nonce c [] = Ok (o2, Err).
Proof.
  assert (H : match grain_new (repeat 0%Z 16) with Ok o =>
      match grain_seal true o [] (repeat 0%Z 12) [0%Z; 1%Z] [] with Ok (o1, c) =>
        match grain_open o [] (repeat 0%Z 12) c [] with Ok (o2, Err) => true | _ => false end | _ => false end | _ => false end = true)
    by (vm_compute; reflexivity).
  exists (repeat 0%Z 16). destruct (grain_new (repeat 0%Z 16)) as [o| |]; [|discriminate H..]. exists o, (repeat 0%Z 12), [0%Z; 1%Z].
  destruct (grain_seal true o [] (repeat 0%Z 12) [0%Z; 1%Z] []) as [[o1 c]| |]; [|discriminate H..]. exists o1, c.
  destruct (grain_open o [] (repeat 0%Z 12) c []) as [[o2 [r| |]]| |]; [discriminate H| |discriminate H..]. exists o2.
  split; [reflexivity|]. split; [reflexivity|]. split; [repeat (apply Forall_cons; [split; lia|]); apply Forall_nil|]. split; reflexivity.
Qed.
(** from the repository's vectors: key 00..0F, nonce 00..0B *)
Definition kat_key : bytes := map Z.of_nat (seq 0 16).
Definition kat_nonce : bytes := map Z.of_nat (seq 0 12).
Example C68_instance : exists o o', grain_new kat_key = Ok o /\ grain_reached kat_key o /\
  grain_seal false o [] kat_nonce [0%Z; 1%Z; 2%Z] [0%Z; 1%Z; 2%Z] = Ok (o', [0x64; 0xE1; 0xFD; 0x9C; 0xC7; 0x5D; 0x8D; 0xDD; 0xCB; 0xF9; 0xE6]%Z).
Proof.
  assert (H : match grain_new kat_key with Ok o =>
      match grain_seal false o [] kat_nonce [0%Z; 1%Z; 2%Z] [0%Z; 1%Z; 2%Z] with
      | Ok (o', c) => bytes_eqb c [0x64; 0xE1; 0xFD; 0x9C; 0xC7; 0x5D; 0x8D; 0xDD; 0xCB; 0xF9; 0xE6]%Z | _ => false end | _ => false end = true)
    by (vm_compute; reflexivity).
  destruct (grain_new kat_key) as [o| |] eqn:E; [|discriminate H..]. exists o.
  destruct (grain_seal false o [] kat_nonce [0%Z; 1%Z; 2%Z] [0%Z; 1%Z; 2%Z]) as [[o' c]| |]; [|discriminate H..]. exists o'.
  apply bytes_eqb_eq in H. subst c. split; [reflexivity|]. split; [apply reached_new; exact E|reflexivity].
Qed.

(** * C69 *)
(** NewStreamCipher: an error unless the key has 16 bytes; a panic for fewer than 12 nonce bytes; bytes after the twelfth are ignored *)
Theorem C69_checks key nonce : (length key <> 16 -> grain_stream key nonce = Err) /\
  (length key = 16 -> length nonce < 12 -> grain_stream key nonce = Panic) /\
  (forall more, length nonce = 12 -> grain_stream key (nonce ++ more) = grain_stream key nonce).
Proof.
  unfold grain_stream. split; [intros H; apply Nat.eqb_neq in H; rewrite H; reflexivity|]. split.
  - intros -> H. cbn [Nat.eqb negb]. unfold g_init. apply Nat.ltb_lt in H. rewrite H. reflexivity.
  - intros more Ln. assert (E : forall k s, g_init k (nonce ++ more) s = g_init k nonce s); [|rewrite E; reflexivity].
    intros k s. unfold g_init. rewrite app_length, Ln. destruct (Nat.ltb_spec (12 + length more) 12); [lia|]. cbn [Nat.ltb Nat.leb].
    replace (g_load k (nonce ++ more) s) with (g_load k nonce s); [reflexivity|].
    destruct nonce as [|n0 [|n1 [|n2 [|n3 [|n4 [|n5 [|n6 [|n7 [|n8 [|n9 [|na [|nb [|]]]]]]]]]]]]]; try discriminate Ln. reflexivity.
Qed.
(** all calls together continue one keystream, the one of Grain-128AEAD *)
Theorem C69_stream key nonce : length key = 16 -> 12 <= length nonce -> bytes_ok key -> bytes_ok nonce ->
  exists st, grain_stream key nonce = Ok st /\ ostream_is gs_call st (grain_ks key nonce).
Proof.
  intros Lk Ln Hk Hn. unfold grain_stream. rewrite Lk. cbn [Nat.eqb negb].
  destruct (@init_ready key nonce Lk Hk Ln Hn (fun _ => false) (Gst (0, 0)%Z (0, 0)%Z 0 0)) as (s & -> & R); [exact rok_0..|].
  cbn [rbind]. eexists. split; [reflexivity|]. assert (I0 : sinv key nonce (Gstream s 0) 0).
  { exists 0. split; [exact (proj1 R)|left; auto]. }
  clear R. intros calls Hc. revert I0. generalize (Gstream s 0%Z). generalize 0. intros pos st I0. revert pos st I0 Hc.
  induction calls as [|x calls IH]; intros pos st I0 Hc.
  - exists st, []. auto.
  - inversion Hc as [|? ? [Hx Hb] Hc']; subst. destruct (gs_call_ok Lk Hb I0 Hx) as (st1 & E1 & I1). destruct (IH _ _ I1 Hc') as (st2 & outs & E2 & L2 & O2).
    cbn [run_calls]. rewrite E1. cbn [rbind]. rewrite E2. cbn [rbind]. eexists st2, _. split; [reflexivity|]. cbn [map concat].
    rewrite xor_stream_length, L2, O2, xor_stream_app. auto.
Qed.
(** so a second object undoes the first, however either text is cut *)
Theorem C69_round_trip key nonce st calls : length key = 16 -> 12 <= length nonce -> bytes_ok key -> bytes_ok nonce ->
  grain_stream key nonce = Ok st -> Forall ocall_ok calls ->
  exists st' outs, run_calls gs_call st calls = Ok (st', outs) /\
    forall calls2, Forall ocall_ok calls2 -> concat (map snd calls2) = concat outs ->
    exists st2 ps, run_calls gs_call st calls2 = Ok (st2, ps) /\ concat ps = concat (map snd calls).
Proof.
  intros Lk Ln Hk Hn E Hc. destruct (C69_stream Lk Ln Hk Hn) as (st0 & E0 & K). rewrite E in E0. injection E0 as <-.
  destruct (K calls Hc) as (st' & outs & E1 & _ & O1). exists st', outs. split; [exact E1|]. intros calls2 Hc2 Ec.
  destruct (K calls2 Hc2) as (st2 & ps & E2 & _ & O2). exists st2, ps. split; [exact E2|]. rewrite O2, Ec, O1. apply xor_stream_cancel.
Qed.
(** a destination that is too short panics and leaves nothing behind *)
Theorem C69_short st dst src : length dst < length src -> gs_call st (dst, src) = Panic.
Proof. intros H. unfold gs_call. destruct src as [|p r]; [cbn in H; lia|]. apply Nat.ltb_lt in H. rewrite H. reflexivity. Qed.
(** three bytes in two pieces: the keystream, and the hypotheses are met *)
Example C69_instance : Forall ocall_ok [([7%Z], [1%Z]); ([0%Z; 0%Z], [2%Z; 3%Z])] /\
  match grain_stream kat_key kat_nonce with
  | Ok st => match run_calls gs_call st [([7%Z], [1%Z]); ([0%Z; 0%Z], [2%Z; 3%Z])] with Ok (_, [[_]; [_; _]]) => true | _ => false end
  | _ => false end = true.
Proof.
  split; [|vm_compute; reflexivity].
  repeat (apply Forall_cons; [split; cbn [length fst snd]; [lia|repeat (apply Forall_cons; [split; lia|]); apply Forall_nil]|]). apply Forall_nil.
Qed.

(** one listing for all the theorems of this file: each of them separately takes seconds *)
Definition C68_C69 := (@C68_checks, @C68_seal, @C68_open_short, @C68_open, @C68_round_trip, @C68_standard, @C68_header_refuted, @C68_forgery, @C68_inplace, @C68_inplace_even, @C68_inplace_refuted, @C69_checks, @C69_stream, @C69_round_trip, @C69_short).
Print Assumptions C68_C69.
