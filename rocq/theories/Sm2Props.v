(** SM2 properties C88 to C95. *)
From Verif Require Import Base BigModel NumLib ModRw ElgProofs CurveModel CurveSpec EcSigModel EcSigSpec EcSigProofs EcSigProofs2 KdfModel KdfSpec KdfProofs KdfProofs2 LmsProofs2 ToyCurve Sm2Model Sm2Spec Sm2Proofs Sm2Proofs2 Sm2Proofs3 Sm2Toy.
From Coq Require Import Lia.
Set Implicit Arguments. Unset Strict Implicit.
Local Open Scope Z_scope.

(** A key pair with public point D*G. *)
Definition keypair (pt : Z -> Z * Z) (D : Z) : eckey := EcKey (pt D) D.
(** The curve constants a, b, Gx, Gy as the code writes them. *)
Definition abg_bytes (c : curve) (cB : Z) (cG : Z * Z) : bytes := big_bytes (cP c - 3) ++ big_bytes cB ++ big_bytes (fst cG) ++ big_bytes (snd cG).
(** The identity used: the default one for an empty uid. *)
Definition id_of (uid : bytes) : bytes := match uid with [] => default_uid | _ => uid end.
Lemma id_of_eq uid : (if Nat.eqb (length uid) 0 then default_uid else uid) = id_of uid. Proof. destruct uid; reflexivity. Qed.
Lemma ke_uid_eq uid : ke_uid uid = id_of uid. Proof. destruct uid; reflexivity. Qed.

(** * C88: what Sign returns *)
Theorem C88_sign c pt rd D hash r s : full_curve c pt -> 0 <= D -> bytes_ok rd -> bytes_ok hash -> sm_sign c rd D hash = Ok (r, s) ->
  0 <= r < cN c /\ 0 < s < cN c /\ sm2_pair (cN c) pt D (be_val hash) r s /\ sm_verify c (pt D) hash r s = Ok (negb (r =? 0)).
Proof. intros F. apply (sign_verify F). Qed.
Theorem C88_no_panic c pt rd D hash : full_curve c pt -> 0 <= D < cN c - 1 -> bytes_ok rd -> sm_sign c rd D hash <> Panic.
Proof. intros F. apply (sign_no_panic F). Qed.
(** With SignBytes and VerifyBytes: accepted, unless the first half is zero. *)
Theorem C88_bytes c pt cB cG h rd D msg uid sig : full_curve c pt -> hasher_ok h -> 0 <= D -> bytes_ok rd ->
  sm_sign_bytes c cB cG h rd (keypair pt D) msg uid = Ok sig ->
  length sig = (2 * flen c)%nat /\
  sm_verify_bytes c cB cG h (pt D) msg uid sig = Ok (negb (be_val (firstn (flen c) sig) =? 0)).
Proof.
  intros F Hh HD B. unfold sm_sign_bytes, sm_sign_msg, keypair. cbn [ePub eD]. intros E.
  apply rbind_ok in E as ((r & s) & E & Eb). apply rbind_ok in E as (e & Ee & Es).
  assert (Be : bytes_ok e). { rewrite (hash_pt F) in Ee. cbn zeta in Ee. destruct (8192 <=? _); [discriminate|]. apply ok_inj in Ee. subst e. apply Hh. }
  apply (sign_verify F) in Es as (R & S & P & V); auto.
  destruct (fc_size F) as (_ & SN & _). unfold sig_bytes in Eb. cbn [fst snd] in Eb.
  rewrite !fill_bytes_fits in Eb by (unfold flen; lia). cbn [rbind] in Eb. apply ok_inj in Eb. subst sig.
  rewrite app_length, !be_bytes_length. split; [lia|]. unfold sm_verify_bytes, with_sig. rewrite app_length, !be_bytes_length, Nat.eqb_refl.
  rewrite firstn_app_exact, skipn_app_exact by apply be_bytes_length.
  rewrite !be_val_fit by (unfold flen; lia). unfold sm_verify_msg. rewrite Ee. exact V.
Qed.
(** With Sign and Verify over ASN.1, for any encoding of two integers that decodes what it encoded. *)
Theorem C88_asn1 senc sdec c pt cB cG h rd D msg uid sig : (forall r s, 0 <= r -> 0 <= s -> sdec (senc r s) = Some (r, s)) ->
  full_curve c pt -> hasher_ok h -> 0 <= D -> bytes_ok rd ->
  sm_sign_asn c cB cG h senc rd (keypair pt D) msg uid = Ok sig ->
  exists r s, sig = senc r s /\ sm_verify_asn c cB cG h sdec (pt D) msg uid sig = Ok (negb (r =? 0)).
Proof.
  intros RT F Hh HD B. unfold sm_sign_asn, sm_sign_msg, keypair. cbn [ePub eD]. intros E.
  apply rbind_ok in E as ((r & s) & E & Eb). apply rbind_ok in E as (e & Ee & Es).
  assert (Be : bytes_ok e). { rewrite (hash_pt F) in Ee. cbn zeta in Ee. destruct (8192 <=? _); [discriminate|]. apply ok_inj in Ee. subst e. apply Hh. }
  apply (sign_verify F) in Es as (R & S & P & V); auto. cbn [fst snd] in Eb. apply ok_inj in Eb. subst sig.
  exists r, s. split; auto. unfold sm_verify_asn. rewrite RT by lia. cbn [fst snd]. unfold sm_verify_msg. rewrite Ee. exact V.
Qed.
(** The standard draws another k when r = 0; the code returns such a signature, and no one accepts it. *)
Theorem C88_zero_r_refuted : exists rd D hash s, 0 < D < cN toy2 - 1 /\ bytes_ok rd /\ bytes_ok hash /\
  sm_sign toy2 rd D hash = Ok (0, s) /\ sm_verify toy2 (toy_pt D) hash 0 s = Ok false.
Proof.
  exists (repeat 0 8), 1, [29], 16. split; [cbn; unfold toyN; lia|]. split; [repeat constructor; lia|]. split; [repeat constructor; lia|].
  split; vm_compute; reflexivity.
Qed.
(** GenerateKey can return D = N-1, which can never sign. *)
Theorem C88_top_key_refuted c pt : full_curve c pt ->
  (exists rd, bytes_ok rd /\ sm_generate c rd = Ok (keypair pt (cN c - 1), [])) /\
  (forall rd hash r s, bytes_ok rd -> bytes_ok hash -> sm_sign c rd (cN c - 1) hash <> Ok (r, s)).
Proof.
  intros F. pose proof (n_big F) as NB. split.
  - set (n := (Nat.div (cBits c) 8 + 8)%nat).
    assert (Fit : 0 <= cN c - 2 < 256 ^ Z.of_nat n).
    { destruct (fc_size F) as (_ & S & _). split; [lia|]. apply Z.lt_le_trans with (cN c); [lia|]. apply Z.le_trans with (1 := S).
      apply Z.pow_le_mono_r; [lia|]. unfold n, byteceil. apply inj_le. etransitivity; [apply (Nat.div_le_mono _ (cBits c + 8 * 8)); lia|].
      rewrite Nat.div_add by lia. lia. }
    exists (be_bytes n (cN c - 2)). split; [apply be_bytes_ok|]. unfold sm_generate, sm_rand, read_full. fold n. rewrite be_bytes_length, Nat.leb_refl.
    cbn [rbind fst snd]. rewrite firstn_all2, skipn_all2 by (rewrite be_bytes_length; lia). rewrite be_val_fit by auto.
    rewrite Z.mod_small by lia. replace (cN c - 2 + 1) with (cN c - 1) by lia. rewrite base_z with (pt := pt) by (auto; lia). reflexivity.
  - intros rd hash r s B BH E. apply (sign_inv F) in E as (k & K & E); auto.
    destruct (sign_k_top F K BH) as [X|X]; rewrite X in E; discriminate.
Qed.
(** SignUsingK: total below N-1; the pair is the standard's for this k. *)
Theorem C88_sign_k c pt k D hash : full_curve c pt -> 0 < k < cN c -> 0 <= D < cN c - 1 -> bytes_ok hash ->
  exists o, sm_sign_k c k D hash = Ok o /\
  forall r s, o = Some (r, s) -> 0 <= r < cN c /\ 0 < s < cN c /\ r = (fst (pt k) + be_val hash) mod cN c
    /\ (s * (1 + D)) mod cN c = (k - r * D) mod cN c.
Proof.
  intros F K HD B. destruct (sign_k_total F k hash HD) as [o E]. exists o. split; auto. intros r s ->.
  apply (sign_k_pair F) in E; auto. tauto.
Qed.
Example C88_instance : match sm_sign_bytes toy2 7 toyG toy_hash [0; 0; 0; 0; 0; 0; 0; 5] (keypair toy_pt 11) [1; 2; 3] [] with
  | Ok sig => match sm_verify_bytes toy2 7 toyG toy_hash (toy_pt 11) [1; 2; 3] [] sig with Ok b => b && negb (be_val (firstn 1 sig) =? 0) | _ => false end
  | _ => false end = true.
Proof. vm_compute. reflexivity. Qed.

(** * C89: what Verify accepts *)
Theorem C89_exact c pt D hash r s : full_curve c pt -> 0 <= D -> bytes_ok hash ->
  (sm_verify c (pt D) hash r s = Ok true <->
   0 < r < cN c /\ 0 < s < cN c /\ (r + s) mod cN c <> 0 /\ sm2_pair (cN c) pt D (be_val hash) r s) /\
  (sm_verify c (pt D) hash r s = Ok true \/ sm_verify c (pt D) hash r s = Ok false).
Proof.
  intros F HD B. split; [apply (verify_iff F); auto|]. rewrite (verify_eq F) by auto.
  match goal with |- Ok ?b = _ \/ _ => destruct b end; auto.
Qed.
(** A public point that is neither on the curve nor (0,0) makes Verify panic as soon as r, s and r+s are in range. *)
Theorem C89_off_curve c pt p hash r s : full_curve c pt -> p <> (0, 0) -> on_curve c p = false ->
  0 < r < cN c -> 0 < s < cN c -> (r + s) mod cN c <> 0 -> sm_verify c p hash r s = Panic.
Proof.
  intros F Np Off R S T. unfold sm_verify. replace (r <=? 0) with false by lia. replace (s <=? 0) with false by lia.
  replace (cN c <=? r) with false by lia. replace (cN c <=? s) with false by lia. cbn [orb]. rewrite (proj2 (Z.eqb_neq _ 0)) by auto.
  unfold smul, good_point, is_inf. rewrite Off. destruct p as [x y]. cbn [fst snd].
  destruct (Z.eqb_spec x 0), (Z.eqb_spec y 0); cbn; auto. subst. congruence.
Qed.
(** The message form: identities of 8192 bytes or more are refused; otherwise the digest is that of C90. *)
Theorem C89_message c pt cB cG h D msg uid r s : full_curve c pt -> hasher_ok h -> 0 <= D ->
  (sm_verify_msg c cB cG h (pt D) msg uid r s = Ok true <->
   Z.of_nat (length uid) < 8192 /\ 0 < r < cN c /\ 0 < s < cN c /\ (r + s) mod cN c <> 0 /\
   sm2_pair (cN c) pt D (be_val (hsum h (hsum h (za_input (flen c) (abg_bytes c cB cG) (id_of uid) (pt D)) ++ msg))) r s).
Proof.
  intros F Hh HD. unfold sm_verify_msg. rewrite (hash_pt F). cbn zeta. rewrite id_of_eq. destruct (Z.leb_spec 8192 (Z.of_nat (length uid))).
  - split; [discriminate|]. intros [X _]. lia.
  - rewrite (verify_iff F) by (auto; apply Hh). unfold abg, abg_bytes. tauto.
Qed.
(** Anyone can sign for the point at infinity, which is the public point of the key 0 that NewPrivateKey accepts. *)
Theorem C89_infinity_forges c pt hash s : full_curve c pt -> bytes_ok hash -> 0 < s < cN c ->
  let r := (fst (pt s) + be_val hash) mod cN c in r <> 0 -> (r + s) mod cN c <> 0 -> sm_verify c (0, 0) hash r s = Ok true.
Proof.
  intros F B S r R T. rewrite <- (lc_zero (fc_law F)). apply (verify_iff F); auto; [lia|]. pose proof (n_big F).
  pose proof (Z.mod_pos_bound (fst (pt s) + be_val hash) (cN c)). fold r in H0. split; [lia|]. split; auto. split; auto.
  exists s. split; [lia|]. split; [reflexivity|]. f_equal. ring.
Qed.
Example C89_instance : sm_verify toy2 (toy_pt 11) [29; 7] 3 4 = Ok false /\ sm_verify toy2 (1, 1) [29; 7] 3 4 = Panic /\
  sm_verify toy2 (0, 0) [1] 3 1 = Ok true.
Proof. repeat split; vm_compute; reflexivity. Qed.

(** * C90: the identity digest *)
Theorem C90_za c pt cB cG h D uid : full_curve c pt ->
  sm_za c cB cG h (pt D) uid =
  if 8192 <=? Z.of_nat (length uid) then Err else Ok (hsum h (za_input (flen c) (abg_bytes c cB cG) uid (pt D))).
Proof. intros F. apply (za_pt F). Qed.
Theorem C90_digest c pt cB cG h D msg uid : full_curve c pt ->
  sm_hash c cB cG h (pt D) msg uid =
  if 8192 <=? Z.of_nat (length uid) then Err
  else Ok (hsum h (hsum h (za_input (flen c) (abg_bytes c cB cG) (id_of uid) (pt D)) ++ msg)).
Proof. intros F. rewrite (hash_pt F). cbn zeta. now rewrite id_of_eq. Qed.
(** The digest binds identity, public key and message: equal digests mean equal inputs or a collision of the hash. *)
Theorem C90_binds c pt cB cG h D D' msg msg' uid uid' e : full_curve c pt -> hasher_ok h ->
  sm_hash c cB cG h (pt D) msg uid = Ok e -> sm_hash c cB cG h (pt D') msg' uid' = Ok e ->
  (id_of uid = id_of uid' /\ pt D = pt D' /\ msg = msg') \/ collision (hsum h).
Proof.
  intros F Hh. rewrite !(@C90_digest c pt) by auto. unfold id_of. set (g := abg_bytes c cB cG).
  destruct (Z.leb_spec 8192 (Z.of_nat (length uid))); [discriminate|]. destruct (Z.leb_spec 8192 (Z.of_nat (length uid'))); [discriminate|].
  intros E E'. apply ok_inj in E, E'. subst e.
  set (i := match uid with [] => default_uid | _ => uid end) in *. set (i' := match uid' with [] => default_uid | _ => uid' end) in *.
  assert (Li : Z.of_nat (length i) < 8192) by (unfold i; destruct uid; [reflexivity|auto]).
  assert (Li' : Z.of_nat (length i') < 8192) by (unfold i'; destruct uid'; [reflexivity|auto]).
  destruct (list_eq_dec Z.eq_dec (hsum h (za_input (flen c) g i (pt D)) ++ msg) (hsum h (za_input (flen c) g i' (pt D')) ++ msg')) as [Q|Q].
  - apply app_inj in Q as [Q ->]; [|destruct (Hh (za_input (flen c) g i (pt D))), (Hh (za_input (flen c) g i' (pt D'))); lia].
    destruct (list_eq_dec Z.eq_dec (za_input (flen c) g i (pt D)) (za_input (flen c) g i' (pt D'))) as [Q'|Q'].
    + left. apply (za_input_inj F) in Q' as [-> ->]; auto.
    + right. eexists _, _. split; eauto.
  - right. eexists _, _. split; eauto.
Qed.
(** SM2's own constants have no leading zero byte, so the code's shortest form is the standard's 32 bytes. *)
Definition sm2P := 0xFFFFFFFEFFFFFFFFFFFFFFFFFFFFFFFFFFFFFFFF00000000FFFFFFFFFFFFFFFF.
Definition sm2B := 0x28E9FA9E9D9F5E344D5A9E4BCF6509A7F39789F515AB8F92DDBCBD414D940E93.
Definition sm2G := (0x32C4AE2C1F1981195F9904466A39C9948FE30BBFF2660BE1715A4589334C74C7, 0xBC3736A2F4F6779C59BDCEE36B692153D0A9877CC62A474002DF32E52139F0A0).
Example C90_constants : big_bytes (sm2P - 3) ++ big_bytes sm2B ++ big_bytes (fst sm2G) ++ big_bytes (snd sm2G) =
  be_bytes 32 (sm2P - 3) ++ be_bytes 32 sm2B ++ be_bytes 32 (fst sm2G) ++ be_bytes 32 (snd sm2G).
Proof. reflexivity. Qed.
Example C90_instance : match sm_hash toy2 7 toyG toy_hash (toy_pt 11) [1; 2; 3] [], sm_hash toy2 7 toyG toy_hash (toy_pt 11) [1; 2; 3] [9] with
  | Ok a, Ok b => negb (beq a b) | _, _ => false end = true.
Proof. vm_compute. reflexivity. Qed.

(** * C91: Encrypt and Decrypt *)
Lemma enc_wf_of c pt h k a data d : full_curve c pt -> hasher_ok h -> (0 < hsize h)%nat -> 0 <= k -> kdf_room (hsize h) (length data) ->
  sm_enc_k c h k (pt a) data = Ok (Some d) -> enc_wf c h d /\ (be_val (eX d), be_val (eY d)) = pt k /\ length (eC d) = length data
  /\ seals (hsum h) (hsize h) (flen c) (pt (a * k)) data (eC d) (eH d).
Proof.
  intros F Hh Hp K R E. apply (enc_k_iff F Hh Hp) in E as (X & Y & S); auto. destruct (seals_length Hh Hp S) as (L1 & L2 & _).
  rewrite X, Y. unfold enc_wf. rewrite X, Y, !be_bytes_length. destruct (fits F k). rewrite !be_val_fit by auto. destruct (pt k); auto.
Qed.
Lemma dec_of c pt h k D data d : full_curve c pt -> hasher_ok h -> (0 < hsize h)%nat -> 0 <= k -> 0 <= D -> kdf_room (hsize h) (length data) ->
  sm_enc_k c h k (pt D) data = Ok (Some d) -> sm_dec c h D d = Ok data.
Proof.
  intros F Hh Hp K HD R E. destruct (enc_wf_of F Hh Hp K R E) as (W & X & Lc & S).
  apply (@dec_iff c pt F h Hh Hp k); auto; [now rewrite Lc|]. now rewrite Z.mul_comm.
Qed.
Theorem C91_roundtrip c pt h m rd D data ct : full_curve c pt -> hasher_ok h -> (0 < hsize h)%nat -> 0 <= D -> bytes_ok rd ->
  kdf_room (hsize h) (length data) -> sm_encrypt c h m rd (pt D) data = Ok ct -> sm_decrypt c h m D ct = Ok data.
Proof.
  intros F Hh Hp HD B R E. unfold sm_encrypt in E. apply rbind_ok in E as (d & E & Em). apply ok_inj in Em. subst ct.
  apply (enc_loop_inv F) in E as (k & K & E); auto. unfold sm_decrypt. assert (K0 : 0 <= k) by lia.
  destruct (enc_wf_of F Hh Hp K0 R E) as (W & _). rewrite (unmarshal_marshal Hp m W). cbn [rbind]. eapply dec_of; eauto.
Qed.
Theorem C91_roundtrip_k c pt h m k D data ct : full_curve c pt -> hasher_ok h -> (0 < hsize h)%nat -> 0 <= D -> 0 <= k ->
  kdf_room (hsize h) (length data) -> sm_encrypt_k c h m k (pt D) data = Ok ct -> sm_decrypt c h m D ct = Ok data.
Proof.
  intros F Hh Hp HD K R E. unfold sm_encrypt_k in E. apply rbind_ok in E as ([d|] & E & Em); [|discriminate]. apply ok_inj in Em. subst ct.
  unfold sm_decrypt. destruct (enc_wf_of F Hh Hp K R E) as (W & _). rewrite (unmarshal_marshal Hp m W). cbn [rbind]. eapply dec_of; eauto.
Qed.
(** EncryptASN1 and DecryptASN1, for any encoding that decodes what it encoded. *)
Theorem C91_asn1 aenc adec c pt h m rd D data ct : (forall x y a b, 0 <= x -> 0 <= y -> adec (aenc x y a b) = Some (x, y, a, b)) ->
  full_curve c pt -> hasher_ok h -> (0 < hsize h)%nat -> 0 <= D -> bytes_ok rd -> kdf_room (hsize h) (length data) ->
  sm_encrypt_asn c h aenc m rd (pt D) data = Ok ct -> sm_decrypt_asn c h adec m D ct = Ok data.
Proof.
  intros RT F Hh Hp HD B R E. unfold sm_encrypt_asn in E. apply rbind_ok in E as (d & E & Em). apply ok_inj in Em. subst ct.
  apply (enc_loop_inv F) in E as (k & K & E); auto. assert (K0 : 0 <= k) by lia.
  destruct (enc_wf_of F Hh Hp K0 R E) as (W & X & Lc & S). pose proof (fits F k) as [Fx Fy]. rewrite <- X in Fx, Fy. cbn [fst snd] in Fx, Fy.
  apply (enc_k_iff F Hh Hp) in E as E'; auto. destruct E' as (Ex & Ey & _).
  unfold sm_decrypt_asn, sm_unmarshal_asn, sm_marshal_asn. destruct m; rewrite RT by lia; unfold coords; cbn [fst snd]; rewrite !fill_bytes_fits by lia; cbn [rbind fst snd].
  all: replace (be_bytes (flen c) (be_val (eX d))) with (eX d) by (rewrite Ex, be_val_fit; [reflexivity|apply (fits F k)]).
  all: replace (be_bytes (flen c) (be_val (eY d))) with (eY d) by (rewrite Ey, be_val_fit; [reflexivity|apply (fits F k)]).
  all: destruct d as [x y t u]; cbn [eX eY eH eC]; eapply dec_of; eauto.
Qed.
(** The ciphertext is the standard's, for some number k in [1, N-1]: C1 = kG and M sealed under k times the public point. *)
Theorem C91_standard c pt h m rd D data ct : full_curve c pt -> hasher_ok h -> (0 < hsize h)%nat -> bytes_ok rd ->
  kdf_room (hsize h) (length data) -> sm_encrypt c h m rd (pt D) data = Ok ct ->
  exists k C2 C3, 0 < k < cN c /\ seals (hsum h) (hsize h) (flen c) (pt (D * k)) data C2 C3 /\
  ct = [4] ++ point_os false (flen c) (pt k) ++ match m with C1C3C2 => C3 ++ C2 | C1C2C3 => C2 ++ C3 end.
Proof.
  intros F Hh Hp B R E. unfold sm_encrypt in E. apply rbind_ok in E as (d & E & Em). apply ok_inj in Em. subst ct.
  apply (enc_loop_inv F) in E as (k & K & E); auto. apply (enc_k_iff F Hh Hp) in E as (X & Y & S); auto; [|lia].
  exists k, (eC d), (eH d). split; auto. split; auto. unfold point_os. destruct m; cbn [sm_marshal]; rewrite X, Y, <- !app_assoc; reflexivity.
Qed.
(** The empty message cannot be encrypted, with any randomness: its empty keystream counts as all zero. *)
Theorem C91_empty_refuted c pt h m rd D ct : full_curve c pt -> (0 < hsize h)%nat -> bytes_ok rd -> sm_encrypt c h m rd (pt D) [] <> Ok ct.
Proof.
  intros F Hp B E. unfold sm_encrypt in E. apply rbind_ok in E as (d & E & _). unfold sm_enc in E.
  destruct (enc_empty F Hp (S (length rd)) 0 D B) as (r & Er & [->| ->]); rewrite Er in E; discriminate.
Qed.
Example C91_instance : match sm_encrypt toy2 toy_hash C1C3C2 [0; 0; 0; 0; 0; 0; 0; 5] (toy_pt 11) [1; 2; 3] with
  | Ok ct => match sm_decrypt toy2 toy_hash C1C3C2 11 ct, sm_decrypt toy2 toy_hash C1C3C2 12 ct with Ok m, Err => beq m [1; 2; 3] | _, _ => false end
  | _ => false end = true.
Proof. vm_compute. reflexivity. Qed.

(** * C92: Decrypt on every byte string *)
(** Accepted are exactly the encodings of a point C1 of the curve (or (0,0)), C2 and C3 that seal the result under D*C1. *)
Theorem C92_accepts c pt h m D data M : full_curve c pt -> hasher_ok h -> (0 < hsize h)%nat -> 0 <= D -> kdf_room (hsize h) (length data) -> bytes_ok data ->
  (sm_decrypt c h m D data = Ok M <->
   exists a C2 C3, seals (hsum h) (hsize h) (flen c) (pt (a * D)) M C2 C3 /\
   data = [4] ++ point_os false (flen c) (pt a) ++ match m with C1C3C2 => C3 ++ C2 | C1C2C3 => C2 ++ C3 end).
Proof.
  intros F Hh Hp HD R Bd. unfold sm_decrypt. split.
  - intros E. apply rbind_ok in E as (d & E & Ed). apply unmarshal_inv in E as (W & Em); auto.
    assert (Rd : kdf_room (hsize h) (length (eC d))).
    { pose proof (marshal_length Hp m W) as Q. rewrite Em in Q. unfold kdf_room in *. lia. }
    destruct (good_point c (be_val (eX d), be_val (eY d))) eqn:G; [|rewrite dec_off in Ed by auto; discriminate].
    apply (good_iff F) in G as (a & G). apply (@dec_iff c pt F h Hh Hp a) in Ed; auto.
    exists a, (eC d), (eH d). split; auto. rewrite <- Em. destruct W as (W1 & W2 & W3).
    assert (Bx : bytes_ok (eX d) /\ bytes_ok (eY d)).
    { rewrite <- Em in Bd. destruct m; cbn [sm_marshal] in Bd; repeat (apply Forall_app in Bd as [? Bd]); auto. }
    assert (Q : forall b, bytes_ok b -> length b = flen c -> be_bytes (flen c) (be_val b) = b).
    { intros b Ob Lb. rewrite <- Lb. apply be_bytes_val; auto. }
    unfold point_os. rewrite <- G. cbn [fst snd]. rewrite !Q by tauto. destruct m; cbn [sm_marshal]; now rewrite <- !app_assoc.
  - intros (a & C2 & C3 & S & ->). destruct (fits F a) as [Fx Fy]. destruct (seals_length Hh Hp S) as (L1 & L2 & L3).
    set (d := EncD (be_bytes (flen c) (fst (pt a))) (be_bytes (flen c) (snd (pt a))) C3 C2).
    assert (W : enc_wf c h d) by (unfold enc_wf, d; cbn [eX eY eH]; rewrite !be_bytes_length; auto).
    replace (_ ++ _ ++ _) with (sm_marshal m d) by (unfold d, point_os; destruct m; cbn [sm_marshal eX eY eH eC]; now rewrite <- !app_assoc).
    rewrite unmarshal_marshal by auto. cbn [rbind]. apply (@dec_iff c pt F h Hh Hp a); auto.
    + unfold d. cbn [eX eY]. rewrite !be_val_fit by auto. destruct (pt a); reflexivity.
    + unfold d. cbn [eC]. rewrite !app_length in R. destruct m; rewrite !app_length in R; unfold kdf_room in *; lia.
Qed.
(** It panics exactly on the empty string, on a string one byte short of C1 and C3, and on a C1 off the curve. *)
Theorem C92_panics c pt h m D data : full_curve c pt -> hasher_ok h -> (0 < hsize h)%nat -> 0 <= D -> kdf_room (hsize h) (length data) ->
  (sm_decrypt c h m D data = Panic <->
   data = [] \/
   (exists rest, data = 4 :: rest /\ length data = (2 * flen c + hsize h)%nat) \/
   (exists rest, data = 4 :: rest /\ (2 * flen c + hsize h < length data)%nat /\
      let p := (be_val (firstn (flen c) rest), be_val (slice (flen c) (flen c) rest)) in p <> (0, 0) /\ on_curve c p = false)).
Proof.
  intros F Hh Hp HD R. unfold sm_decrypt. destruct data as [|t rest]; [split; auto|].
  destruct (sm_unmarshal c h m (t :: rest)) as [d| |] eqn:E; cbn [rbind].
  - pose proof E as E0. apply unmarshal_inv in E as (W & Em); auto.
    assert (t = 4) by (destruct m; cbn in Em; congruence). subst t.
    assert (Lr : (2 * flen c + hsize h <= length rest)%nat).
    { pose proof (marshal_length Hp m W) as Q. rewrite Em in Q. cbn [length] in Q. lia. }
    assert (X : eX d = firstn (flen c) rest /\ eY d = slice (flen c) (flen c) rest).
    { destruct W as (W1 & W2 & W3). destruct m; cbn [sm_marshal app] in Em; injection Em as <-; split;
        try (now rewrite firstn_app_exact); symmetry; unfold slice; rewrite skipn_app_exact by auto; now rewrite firstn_app_exact. }
    destruct X as [X Y].
    assert (Rd : kdf_room (hsize h) (length (eC d))).
    { pose proof (marshal_length Hp m W) as Q. rewrite Em in Q. unfold kdf_room in *. lia. }
    destruct (good_point c (be_val (eX d), be_val (eY d))) eqn:G.
    + apply (good_iff F) in G as G'. destruct G' as (a & Ga). split; [intros P; exfalso; revert P; eapply dec_no_panic; eauto|].
      intros [Q|[(r & Q & Q')|(r & Q & Q' & Q2 & Q3)]]; [discriminate|cbn [length] in Q'; lia|].
      exfalso. injection Q as <-. rewrite <- X, <- Y in Q2, Q3. unfold good_point in G. rewrite Q3, orb_false_r in G. apply Q2. unfold is_inf in G. cbn [fst snd] in G.
      apply andb_prop in G as [G1 G2]. apply Z.eqb_eq in G1, G2. congruence.
    + rewrite dec_off by auto. split; [|auto]. intros _. right. right. exists rest. rewrite <- X, <- Y. split; auto. split; [cbn [length]; lia|].
      unfold good_point, is_inf in G. cbn [fst snd] in G. destruct (on_curve c (be_val (eX d), be_val (eY d))); [rewrite orb_true_r in G; discriminate|].
      split; auto. intros [= G1 G2]. rewrite G1, G2 in G. discriminate.
  - split; [discriminate|]. intros [Q|[(r & Q & Q')|(r & Q & Q' & _)]]; [discriminate| |].
    + injection Q as -> ->. rewrite (proj2 (@unmarshal_panic c h Hp m 4 r)) in E by auto. discriminate.
    + injection Q as -> ->. destruct (@unmarshal_ok c h Hp m r) as (d & X & _); [cbn [length] in Q'; lia|]. congruence.
  - split; auto. intros _. right. left. apply unmarshal_panic in E as [-> E]; auto. exists rest. auto.
Qed.

Lemma be_bytes_0 n : be_bytes n 0 = repeat 0 n.
Proof. rewrite <- (be_bytes_val (l := repeat 0 n) (n := n)); [now rewrite be_val_zeros| |apply repeat_length]. apply Forall_forall. intros x X. apply repeat_spec in X. subst. split; lia. Qed.
(** C1 = (0,0) is not refused, and such a text decrypts alike under every private key. The standard asks for C1 on the curve. *)
Theorem C92_infinity_refuted c pt h M C2 C3 : full_curve c pt -> hasher_ok h -> (0 < hsize h)%nat -> bytes_ok M ->
  seals (hsum h) (hsize h) (flen c) (0, 0) M C2 C3 -> kdf_room (hsize h) (length ([4] ++ repeat 0 (2 * flen c) ++ C3 ++ C2)) ->
  forall D, 0 <= D -> sm_decrypt c h C1C3C2 D ([4] ++ repeat 0 (2 * flen c) ++ C3 ++ C2) = Ok M.
Proof.
  intros F Hh Hp BM S R D HD. pose proof (seals_length Hh Hp S) as (L1 & L2 & L3).
  set (d := EncD (be_bytes (flen c) 0) (be_bytes (flen c) 0) C3 C2).
  assert (W : enc_wf c h d) by (unfold enc_wf, d; cbn [eX eY eH]; rewrite !be_bytes_length; auto).
  assert (E : [4] ++ repeat 0 (2 * flen c) ++ C3 ++ C2 = sm_marshal C1C3C2 d).
  { unfold d. cbn [sm_marshal eX eY eH eC]. rewrite be_bytes_0. replace (2 * flen c)%nat with (flen c + flen c)%nat by lia. rewrite repeat_app, <- app_assoc. reflexivity. }
  rewrite E in R |- *. unfold sm_decrypt. rewrite (unmarshal_marshal Hp _ W). cbn [rbind].
  apply (@dec_iff c pt F h Hh Hp 0); auto.
  - unfold d. cbn [eX eY]. rewrite be_val_fit by (split; [lia|apply Z.pow_pos_nonneg; lia]). now rewrite (lc_zero (fc_law F)).
  - rewrite (marshal_length Hp _ W) in R. unfold kdf_room in *. lia.
  - rewrite Z.mul_0_l, (lc_zero (fc_law F)). exact S.
Qed.
(** DecryptASN1 takes coordinates by their absolute value, and panics on those that do not fit. *)
Theorem C92_asn1_integers adec c h m D data x y a b : adec data = Some (x, y, a, b) ->
  sm_decrypt_asn c h adec m D data =
  if (Z.abs x <? 256 ^ Z.of_nat (flen c)) && (Z.abs y <? 256 ^ Z.of_nat (flen c))
  then sm_dec c h D (let X := be_bytes (flen c) (Z.abs x) in let Y := be_bytes (flen c) (Z.abs y) in
                     match m with C1C2C3 => EncD X Y b a | C1C3C2 => EncD X Y a b end)
  else Panic.
Proof.
  intros E. unfold sm_decrypt_asn, sm_unmarshal_asn. rewrite E. unfold coords, fill_bytes. cbn [fst snd].
  destruct (Z.abs x <? _); [|reflexivity]. cbn [rbind]. destruct (Z.abs y <? _); [|reflexivity]. cbn [rbind fst snd andb]. destruct m; reflexivity.
Qed.
(** C3 binds the message: two texts with the same C1 and C3 that both decrypt have the same message, or the hash collides. *)
Theorem C92_binds c pt h D a M M' C2 C2' C3 : full_curve c pt -> hasher_ok h -> (0 < hsize h)%nat -> 0 <= D ->
  let text C2 := [4] ++ point_os false (flen c) (pt a) ++ C3 ++ C2 in
  bytes_ok (text C2) -> bytes_ok (text C2') -> kdf_room (hsize h) (length (text C2)) -> kdf_room (hsize h) (length (text C2')) ->
  length C3 = hsize h ->
  sm_decrypt c h C1C3C2 D (text C2) = Ok M -> sm_decrypt c h C1C3C2 D (text C2') = Ok M' -> M = M' \/ collision (hsum h).
Proof.
  intros F Hh Hp HD text B B' R R' L E E'.
  assert (X : forall C N, bytes_ok (text C) -> kdf_room (hsize h) (length (text C)) -> sm_decrypt c h C1C3C2 D (text C) = Ok N ->
     exists k, pt k = pt a /\ C3 = hsum h (be_bytes (flen c) (fst (pt (k * D))) ++ N ++ be_bytes (flen c) (snd (pt (k * D))))).
  { intros C N BC RC EC. apply (@C92_accepts c pt) in EC as (k & c2 & c3 & S & Q); auto.
    pose proof (seals_length Hh Hp S) as (_ & L3 & _). unfold text, point_os in Q. cbn [app] in Q.
    injection Q as Q. rewrite <- !app_assoc in Q. apply app_inj in Q as [Q1 Q]; [|now rewrite !be_bytes_length].
    apply app_inj in Q as [Q2 Q]; [|now rewrite !be_bytes_length]. apply app_inj in Q as [Q3 Q]; [|lia]. subst c3.
    exists k. split. { destruct (fits F a), (fits F k). apply (f_equal be_val) in Q1, Q2. rewrite !be_val_fit in Q1, Q2 by auto. destruct (pt a), (pt k). cbn in *. congruence. }
    destruct S as (t & _ & _ & _ & ->). reflexivity. }
  apply X in E as (k & K & E); auto. apply X in E' as (k' & K' & E'); auto.
  assert (Q : pt (k * D) = pt (k' * D)).
  { assert (P : forall j, pt (j * D) = cmul c (pt j) (big_bytes D)) by (intros j; now rewrite (mul_z F)). rewrite !P. congruence. }
  rewrite Q in E. rewrite E' in E.
  match type of E with hsum h ?u = hsum h ?v => destruct (list_eq_dec Z.eq_dec u v) as [W|W]; [left|right; exists u, v; auto] end.
  apply app_inj in W as [_ W]; [|reflexivity]. apply app_inj_r in W as [W _]; auto.
Qed.
Example C92_instance : sm_decrypt toy2 toy_hash C1C3C2 11 [] = Panic /\ sm_decrypt toy2 toy_hash C1C3C2 11 [4; 1; 1; 9; 9; 9] = Panic /\
  sm_decrypt toy2 toy_hash C1C3C2 11 [5; 1; 1; 9; 9; 9] = Err /\
  match sm_enc_k toy2 toy_hash 31 (toy_pt 11) [1; 2; 3] with
  | Ok (Some d) => forallb (fun D => match sm_decrypt toy2 toy_hash C1C3C2 D ([4; 0; 0] ++ eH d ++ eC d) with Ok M => beq M [1; 2; 3] | _ => false end) [1; 2; 3; 30]
  | _ => false end = true.
Proof. repeat split; vm_compute; reflexivity. Qed.

(** * C93: the KeyExchange object *)
Lemma w_half c pt : full_curve c pt -> ke_w c = half_width (cN c).
Proof.
  intros F. unfold ke_w, half_width, bitlen. pose proof (n_big F). replace (cN c =? 0) with false by lia. rewrite Z.abs_eq by lia.
  rewrite Nat2Z.inj_div, Nat2Z.inj_add, Nat2Z.inj_succ, Z2Nat.id by apply Z.log2_nonneg. do 2 f_equal.
  cut (Z.log2_up (cN c) = Z.succ (Z.log2 (cN c))); [intros ->; reflexivity|].
  destruct (Z.eq_dec (Z.log2 (cN c)) (Z.log2_up (cN c))) as [E|E].
  - exfalso. apply Z.log2_log2_up_exact in E as (b & E); [|lia]. assert (b <> 0 /\ 0 <= b /\ b <> 1).
    { split; [|split]; try (intros ->; cbn in E; lia). destruct (Z.ltb_spec b 0); [|lia]. rewrite Z.pow_neg_r in E by lia. lia. }
    assert (2 = cN c); [|lia]. apply prime_div_prime; [apply prime_2|apply (lc_prime (fc_law F))|].
    exists (2 ^ (b - 1)). rewrite E. replace b with (1 + (b - 1)) at 1 by lia. rewrite Z.pow_add_r by lia. ring.
  - pose proof (Z.le_log2_up_succ_log2 (cN c)). pose proof (Z.le_log2_log2_up (cN c)). lia.
Qed.
(** Two parties who hold each other's public keys and identities end with one key, the standard's, and each accepts the
    confirmation the other sends. *)
Theorem C93_agree c pt cB cG h dA dB rA rB ida idb klen (gen : bool) : full_curve c pt -> hasher_ok h -> (0 < hsize h)%nat ->
  0 <= dA -> 0 <= dB -> 0 < rA < cN c -> 0 < rB < cN c -> Z.of_nat (length ida) < 8192 -> Z.of_nat (length idb) < 8192 ->
  kdf_room (hsize h) klen ->
  let V := shared_point pt (half_width (cN c)) dA rA dB rB in
  let z uid d := hsum h (za_input (flen c) (abg_bytes c cB cG) (id_of uid) (pt d)) in
  let tag pre := exchange_tag (hsum h) (flen c) pre V (pt rA) (pt rB) (z ida dA) (z idb dB) in
  V <> (0, 0) ->
  exists A B B' key,
    ke_new c cB cG h (keypair pt dA) (pt dB) ida idb klen gen = Ok A /\
    ke_new c cB cG h (keypair pt dB) (pt dA) idb ida klen gen = Ok B /\
    ke_respond c h B (kSecret (ke_init c A rA)) rB = Ok (B', pt rB, if gen then Some (tag 2) else None) /\
    ke_confirm_responder c h (ke_init c A rA) (pt rB) (if gen then tag 2 else []) = Ok (key, if gen then Some (tag 3) else None) /\
    ke_confirm_initiator c h B' (if gen then Some (tag 3) else None) = Ok key /\
    exchange_key (hsum h) (hsize h) (flen c) V (z ida dA) (z idb dB) klen key.
Proof.
  intros F Hh Hp HA HB RA RB LA LB Rm V z tag NV.
  assert (MA : rA mod cN c <> 0) by (rewrite Z.mod_small; lia). assert (MB : rB mod cN c <> 0) by (rewrite Z.mod_small; lia).
  destruct (@agree c pt F cB cG h Hh Hp dA dB rA rB ida idb klen gen) as (A & B & B' & key & X); try lia; auto.
  - rewrite (w_half F). fold (shared_point pt (half_width (cN c)) dA rA dB rB). fold V. unfold is_inf. destruct V as [x y]. cbn [fst snd].
    destruct (Z.eqb_spec x 0), (Z.eqb_spec y 0); auto. subst. congruence.
  - exists A, B, B', key. rewrite (w_half F), !ke_uid_eq in X. exact X.
Qed.
(** ConfirmResponder, in any state: the peer's ephemeral point must be on the curve and the shared point finite; a tag, if it is
    given, must be exactly the standard's; the key is the standard's. *)
Theorem C93_confirm_responder c pt h k d d' r r' sB : full_curve c pt -> hasher_ok h -> (0 < hsize h)%nat ->
  eD (kKey k) = d -> kPeer k = pt d' -> kR k = r -> kSecret k = pt r -> r' mod cN c <> 0 -> kdf_room (hsize h) (kLen k) ->
  let V := shared_point pt (half_width (cN c)) d r d' r' in
  let tag pre := exchange_tag (hsum h) (flen c) pre V (pt r) (pt r') (kZ k) (kPeerZ k) in
  (forall key o, ke_confirm_responder c h k (pt r') sB = Ok (key, o) <->
     V <> (0, 0) /\ (sB = [] \/ sB = tag 2) /\ exchange_key (hsum h) (hsize h) (flen c) V (kZ k) (kPeerZ k) (kLen k) key /\
     o = if kGen k then Some (tag 3) else None)
  /\ ke_confirm_responder c h k (pt r') sB <> Panic.
Proof.
  intros F Hh Hp E1 E2 E3 E4 R' Rm V tag. destruct (@confirm_pt c pt F h Hh Hp k d d' r r' sB) as (key0 & K & E); [repeat split; auto|auto|auto|].
  cbn zeta in E, K. rewrite (w_half F) in E, K. fold (shared_point pt (half_width (cN c)) d r d' r') in E, K. fold V in E, K. fold (tag 2) (tag 3) in E. rewrite E.
  assert (I : is_inf V = true <-> V = (0, 0)).
  { unfold is_inf. destruct V as [x y]. cbn [fst snd]. split; [|intros [= -> ->]; reflexivity]. intros Q. apply andb_prop in Q as [Q1 Q2]. apply Z.eqb_eq in Q1, Q2. congruence. }
  destruct (is_inf V) eqn:IV. { split; [|discriminate]. intros key o. split; [discriminate|]. intros [Q _]. exfalso. apply Q. now apply I. }
  assert (NV : V <> (0, 0)) by (intros Q; apply I in Q; discriminate).
  destruct (Nat.eqb (length sB) 0 || beq (tag 2) sB) eqn:T.
  - assert (Q : sB = [] \/ sB = tag 2).
    { apply orb_prop in T as [T|T]; [left; destruct sB; [reflexivity|discriminate]|right; symmetry; now apply beq_true]. }
    split; [|discriminate]. intros key o. split.
    + intros X. apply ok_inj in X. injection X as <- <-. auto.
    + intros (_ & _ & Kk & ->). assert (key0 = key) by (eapply by_blocks_unique; eauto). subst. reflexivity.
  - split; [|discriminate]. intros key o. split; [discriminate|]. intros (_ & [-> | ->] & _); [discriminate|].
    rewrite (proj2 (beq_true _ _)), orb_true_r in T by reflexivity. discriminate.
Qed.
(** ConfirmInitiator after Respond: a tag, if it is given, must be exactly the standard's. *)
Theorem C93_confirm_initiator c pt h k d d' r r' k' R s0 s1 key : full_curve c pt -> hasher_ok h -> (0 < hsize h)%nat ->
  eD (kKey k) = d -> kPeer k = pt d' -> 0 <= r -> r' mod cN c <> 0 -> kdf_room (hsize h) (kLen k) ->
  ke_respond c h k (pt r') r = Ok (k', R, s0) ->
  let V := shared_point pt (half_width (cN c)) d r d' r' in
  R = pt r /\ V <> (0, 0) /\
  (ke_confirm_initiator c h k' s1 = Ok key <->
   (s1 = None \/ s1 = Some (exchange_tag (hsum h) (flen c) 3 V (pt r') (pt r) (kPeerZ k) (kZ k))) /\
   exchange_key (hsum h) (hsize h) (flen c) V (kPeerZ k) (kZ k) (kLen k) key).
Proof.
  intros F Hh Hp E1 E2 R0 R' Rm E V. rewrite (@respond_pt c pt F h Hp k d d' r r') in E by auto. cbn zeta in E. rewrite (w_half F) in E.
  fold (shared_point pt (half_width (cN c)) d r d' r') in E. fold V in E.
  destruct (is_inf V) eqn:IV; [discriminate|]. apply ok_inj in E. injection E as <- <- <-. split; [reflexivity|].
  split. { intros Q. rewrite Q in IV. discriminate. }
  match goal with |- ke_confirm_initiator c h ?k _ = _ <-> _ => destruct (@initiator_pt c pt F h Hh Hp k ((d + reduced (half_width (cN c)) (fst (pt r)) * r) * (d' + reduced (half_width (cN c)) (fst (pt r')) * r')) r r' s1) as (key0 & K & E); [reflexivity|reflexivity|reflexivity|exact Rm|] end.
  rewrite E. cbn [kZ kPeerZ kLen ke_set] in *. fold (shared_point pt (half_width (cN c)) d r d' r') in *. fold V in K |- *.
  destruct s1 as [s|].
  - match goal with |- (if beq ?t s then _ else _) = _ <-> _ => destruct (beq t s) eqn:T; [apply beq_true in T|] end.
    + subst s. split; [intros X; apply ok_inj in X; subst; auto|]. intros (_ & Kk). f_equal. eapply by_blocks_unique; eauto.
    + split; [discriminate|]. intros ([Q|Q] & _); [discriminate|]. injection Q as ->. rewrite (proj2 (beq_true _ _)) in T by reflexivity. discriminate.
  - split; [intros X; apply ok_inj in X; subst; auto|]. intros (_ & Kk). f_equal. eapply by_blocks_unique; eauto.
Qed.
(** An ephemeral point off the curve is refused on both sides; so is (0,0). *)
Theorem C93_off_curve c h k p r sB : on_curve c p = false -> ke_respond c h k p r = Err /\ ke_confirm_responder c h k p sB = Err.
Proof. intros E. unfold ke_respond, ke_confirm_responder. rewrite E. auto. Qed.
Example C93_instance :
  match ke_new toy2 7 toyG toy_hash (keypair toy_pt 11) (toy_pt 5) [1] [2] 5 true, ke_new toy2 7 toyG toy_hash (keypair toy_pt 5) (toy_pt 11) [2] [1] 5 true with
  | Ok A, Ok B =>
    match ke_respond toy2 toy_hash B (kSecret (ke_init toy2 A 3)) 4 with
    | Ok (B', RB, Some sB) =>
      match ke_confirm_responder toy2 toy_hash (ke_init toy2 A 3) RB sB with
      | Ok (ka, Some sA) => match ke_confirm_initiator toy2 toy_hash B' (Some sA), ke_confirm_initiator toy2 toy_hash B' (Some sB) with
          | Ok kb, Err => beq ka kb && Nat.eqb (length ka) 5 | _, _ => false end
      | _ => false end
    | _ => false end
  | _, _ => false end = true.
Proof. vm_compute. reflexivity. Qed.

(** * C94: KeyExchangeA and KeyExchangeB *)
(** What both functions return: the shared point is the standard's for w = 127; its coordinates and those of the ephemeral points
    are written without leading zeros, and the responder's ephemeral point comes first in the confirmation hashes. *)
Theorem C94_result c pt cB cG h klen ida idb d d' r r' (isA : bool) : full_curve c pt -> hasher_ok h -> (0 < hsize h)%nat ->
  0 <= d -> r' mod cN c <> 0 -> Z.of_nat (length ida) < 8192 -> kdf_room (hsize h) klen ->
  let V := shared_point pt 127 d r d' r' in
  let z uid d := hsum h (za_input (flen c) (abg_bytes c cB cG) uid (pt d)) in
  let ZA := z ida (if isA then d else d') in
  let ZB := if 8192 <=? Z.of_nat (length idb) then [] else z idb (if isA then d' else d) in
  let os p := big_bytes (fst p) ++ big_bytes (snd p) in
  let RA := pt (if isA then r else r') in let RB := pt (if isA then r' else r) in
  let tag pre := hsum h ([pre] ++ big_bytes (snd V) ++ hsum h (big_bytes (fst V) ++ ZA ++ ZB ++ os RB ++ os RA)) in
  exists k, by_blocks (hsize h) (x963_block (hsum h) (os V ++ ZA ++ ZB)) (Z.of_nat klen) k /\
  kx c cB cG h klen ida idb (keypair pt d) (pt d') (keypair pt r) (pt r') isA =
  if all_zero k then Err else Ok (k, tag 2, tag 3).
Proof.
  intros F Hh Hp HD R' LA Rm V z ZA ZB os RA RB tag. destruct (@kx_pt c pt F cB cG h Hh Hp klen ida idb d d' r r' isA) as (k & B & E); auto.
  exists k. split; [|exact E]. unfold os. rewrite <- app_assoc. exact B.
Qed.
Theorem C94_agree c pt cB cG h klen ida idb dA dB rA rB : full_curve c pt -> hasher_ok h -> (0 < hsize h)%nat ->
  0 <= dA -> 0 <= dB -> rA mod cN c <> 0 -> rB mod cN c <> 0 -> Z.of_nat (length ida) < 8192 -> kdf_room (hsize h) klen ->
  kx c cB cG h klen ida idb (keypair pt dA) (pt dB) (keypair pt rA) (pt rB) true =
  kx c cB cG h klen ida idb (keypair pt dB) (pt dA) (keypair pt rB) (pt rA) false.
Proof. intros F Hh Hp. apply (kx_agree F cB cG Hh Hp). Qed.
(** The second party's identity is not bound when it has 8192 bytes or more: no error, and all such identities give one key. *)
Theorem C94_long_id_refuted c cB cG h klen ida idb idb' pri pub rpri rpub isA :
  8192 <= Z.of_nat (length idb) -> 8192 <= Z.of_nat (length idb') ->
  kx c cB cG h klen ida idb pri pub rpri rpub isA = kx c cB cG h klen ida idb' pri pub rpri rpub isA.
Proof. intros A B. unfold kx, sm_za at 2 4. replace (8192 <=? Z.of_nat (length idb)) with true by lia. now replace (8192 <=? Z.of_nat (length idb')) with true by lia. Qed.
(** An infinite shared point is not refused: the key is then a digest of public values only. *)
Theorem C94_infinity_refuted : exists dA rA key s1 s2, 0 < dA < cN toy2 /\ 0 < rA < cN toy2 /\
  shared_point toy_pt 127 dA rA 5 4 = (0, 0) /\
  kx toy2 7 toyG toy_hash 5 [1] [2] (keypair toy_pt dA) (toy_pt 5) (keypair toy_pt rA) (toy_pt 4) true = Ok (key, s1, s2).
Proof.
  set (x := kx toy2 7 toyG toy_hash 5 [1] [2] (keypair toy_pt ((- reduced 127 (fst (toy_pt 3)) * 3) mod 31)) (toy_pt 5) (keypair toy_pt 3) (toy_pt 4) true).
  vm_compute in x. match eval unfold x in x with Ok (?k, ?a, ?b) => exists ((- reduced 127 (fst (toy_pt 3)) * 3) mod 31), 3, k, a, b end.
  repeat split; vm_compute; reflexivity.
Qed.
(** The confirmation is not the standard's: it hashes the ephemeral points in the other order. *)
Theorem C94_tag_order_refuted : exists key s1 s2,
  kx toy2 7 toyG toy_hash 5 [1] [2] (keypair toy_pt 11) (toy_pt 5) (keypair toy_pt 3) (toy_pt 4) true = Ok (key, s1, s2) /\
  let z uid d := hsum toy_hash (za_input (flen toy2) (abg_bytes toy2 7 toyG) uid (toy_pt d)) in
  exchange_tag (hsum toy_hash) (flen toy2) 2 (shared_point toy_pt 127 11 3 5 4) (toy_pt 3) (toy_pt 4) (z [1] 11) (z [2] 5) <> s1.
Proof.
  set (x := kx toy2 7 toyG toy_hash 5 [1] [2] (keypair toy_pt 11) (toy_pt 5) (keypair toy_pt 3) (toy_pt 4) true).
  vm_compute in x. match eval unfold x in x with Ok (?k, ?a, ?b) => exists k, a, b end. split; [reflexivity|]. vm_compute. discriminate.
Qed.
Example C94_instance : match kx toy2 7 toyG toy_hash 5 [1] [2] (keypair toy_pt 11) (toy_pt 5) (keypair toy_pt 3) (toy_pt 4) true,
    kx toy2 7 toyG toy_hash 5 [1] [2] (keypair toy_pt 5) (toy_pt 11) (keypair toy_pt 4) (toy_pt 3) false with
  | Ok (k, a, b), Ok (k', a', b') => beq k k' && beq a a' && beq b b' && negb (beq a b) && Nat.eqb (length k) 5 | _, _ => false end = true.
Proof. vm_compute. reflexivity. Qed.

(** * C95: keys as bytes *)
Theorem C95_private c pt d : full_curve c pt -> bytes_ok d ->
  (be_val d < cN c - 1 -> sm_new_private c d = Ok (keypair pt (be_val d))) /\ (cN c - 1 <= be_val d -> sm_new_private c d = Err).
Proof.
  intros F B. unfold sm_new_private. split; intros H.
  - replace (cN c - 1 <=? be_val d) with false by lia. rewrite (fc_base F) by auto. reflexivity.
  - now replace (cN c - 1 <=? be_val d) with true by lia.
Qed.
Theorem C95_private_roundtrip c pt D : full_curve c pt -> 0 <= D < cN c - 1 ->
  exists b, sm_private_to c (keypair pt D) = Ok b /\ length b = byteceil (bitlen (cN c)) /\ sm_new_private c b = Ok (keypair pt D).
Proof.
  intros F HD. unfold sm_private_to. cbn [keypair eD]. pose proof (n_big F). pose proof (@byteceil_bound (cN c) ltac:(lia)) as Bd.
  rewrite fill_bytes_fits by lia. eexists. split; [reflexivity|]. split; [apply be_bytes_length|].
  rewrite (proj1 (@C95_private c pt _ F (be_bytes_ok _ _))); rewrite be_val_fit by lia; [reflexivity|lia].
Qed.
(** Zero is accepted as a private key. *)
Theorem C95_zero_key_refuted c pt : full_curve c pt -> sm_new_private c [0] = Ok (EcKey (0, 0) 0).
Proof.
  intros F. pose proof (n_big F). unfold sm_new_private. change (be_val [0]) with 0. replace (cN c - 1 <=? 0) with false by lia.
  rewrite (fc_base F) by (repeat constructor; lia). change (be_val [0]) with 0. now rewrite (lc_zero (fc_law F)).
Qed.
(** GenerateKey: a key pair with D in [1, N-1]; it fails only for want of random bytes. *)
Theorem C95_generate c pt rd : full_curve c pt -> bytes_ok rd ->
  (length rd < Nat.div (cBits c) 8 + 8)%nat /\ sm_generate c rd = Err \/
  exists D rd', 0 < D < cN c /\ sm_generate c rd = Ok (keypair pt D, rd').
Proof.
  intros F B. unfold sm_generate. destruct (sm_rand c rd) as [[k rd']| |] eqn:E.
  - right. exists k, rd'. destruct (rand_ok F B E) as (K & _). split; auto. cbn [rbind fst snd]. rewrite (base_z F) by lia. reflexivity.
  - left. unfold sm_rand, read_full in E. destruct (Nat.leb_spec (Nat.div (cBits c) 8 + 8) (length rd)); [discriminate|]. auto.
  - unfold sm_rand, read_full in E. destruct (Nat.leb _ (length rd)); discriminate.
Qed.
(** NewPublicKey accepts exactly 4, X, Y at full width for the finite points of the curve, and PublicKeyTo is its inverse there. *)
Theorem C95_public c pt data p : full_curve c pt -> bytes_ok data ->
  (sm_new_public c data = Ok p <-> exists a, a mod cN c <> 0 /\ p = pt a /\ data = 4 :: point_os false (flen c) (pt a)).
Proof.
  intros F B. split.
  - unfold sm_new_public. destruct data as [|t rest]; [discriminate|]. destruct (Z.eqb_spec t 4) as [->|]; [|discriminate]. cbn [negb].
    destruct (Nat.eqb_spec (length rest) (2 * flen c)) as [L|]; [|discriminate]. cbn [negb fst snd].
    match goal with |- (if ?x && on_curve c ?q then _ else _) = _ -> _ => destruct x; [|discriminate]; destruct (on_curve c q) eqn:O; [|discriminate] end.
    cbn [andb]. intros E. apply ok_inj in E. destruct (fc_all F O) as (a & A). exists a. rewrite <- A. split.
    { intros Z0. rewrite <- (lc_mod (fc_law F)), Z0, (lc_zero (fc_law F)) in A. rewrite A, (lc_off (fc_law F)) in O. discriminate. }
    split; [now subst|]. f_equal. unfold point_os. cbn [fst snd]. apply Forall_inv_tail in B.
    rewrite !be_bytes_val; [now rewrite firstn_skipn| | | |]; try (rewrite ?firstn_length, ?skipn_length; lia).
    all: rewrite <- (firstn_skipn (flen c) rest) in B; apply Forall_app in B; tauto.
  - intros (a & Ha & -> & ->). unfold sm_new_public, point_os. cbn [Z.eqb Pos.eqb negb]. rewrite app_length, !be_bytes_length.
    replace (Nat.eqb (flen c + flen c) (2 * flen c)) with true by (symmetry; apply Nat.eqb_eq; lia). cbn [negb].
    rewrite firstn_app_exact, skipn_app_exact by apply be_bytes_length. destruct (fits F a). rewrite !be_val_fit by auto.
    cbn [fst snd]. pose proof (lc_coord (fc_law F) a). replace (fst (pt a) <? cP c) with true by lia. replace (snd (pt a) <? cP c) with true by lia.
    destruct (pt a) as [x y] eqn:E. cbn [fst snd]. rewrite <- E, (lc_on (fc_law F)) by auto. reflexivity.
Qed.
Theorem C95_public_to c pt p : full_curve c pt ->
  (forall a, sm_public_to c (pt a) = Ok (4 :: point_os false (flen c) (pt a))) /\
  (p <> (0, 0) -> on_curve c p = false -> sm_public_to c p = Panic).
Proof.
  intros F. split.
  - intros a. unfold sm_public_to. rewrite (good_pt F), (coords_pt F). reflexivity.
  - intros N O. unfold sm_public_to, good_point, is_inf. rewrite O, orb_false_r. destruct p as [x y]. cbn [fst snd].
    destruct (Z.eqb_spec x 0), (Z.eqb_spec y 0); cbn [andb]; auto. subst. congruence.
Qed.
(** PublicKeyTo writes the point at infinity as a string NewPublicKey refuses. *)
Theorem C95_infinity_refuted c pt : full_curve c pt -> exists b, sm_public_to c (0, 0) = Ok b /\ sm_new_public c b = Err.
Proof.
  intros F. exists (4 :: point_os false (flen c) (pt 0)). rewrite <- (lc_zero (fc_law F)). split; [apply (@C95_public_to c pt (0, 0) F)|].
  destruct (sm_new_public c (4 :: point_os false (flen c) (pt 0))) as [p| |] eqn:E; auto.
  - apply (@C95_public c pt) in E as (a & Ha & _ & E); auto.
    2: { constructor; [unfold is_byte; lia|]. apply Forall_app. split; apply be_bytes_ok. }
    exfalso. injection E as E. apply app_inj in E as [E1 E2]; [|now rewrite !be_bytes_length]. destruct (fits F a), (fits F 0).
    apply (f_equal be_val) in E1, E2. rewrite !be_val_fit in E1, E2 by auto.
    assert (Q : is_inf (pt a) = true). { unfold is_inf. rewrite <- E1, <- E2, (lc_zero (fc_law F)). reflexivity. }
    apply (inf_iff F) in Q. auto.
  - exfalso. unfold sm_new_public in E. repeat match type of E with context [if ?x then _ else _] => destruct x end; discriminate.
Qed.
Example C95_instance : sm_private_to toy2 (keypair toy_pt 11) = Ok [11] /\ sm_new_private toy2 [11] = Ok (keypair toy_pt 11) /\
  sm_new_private toy2 [30] = Err /\ sm_new_private toy2 [29] = Ok (keypair toy_pt 29) /\
  match sm_public_to toy2 (toy_pt 11) with Ok b => match sm_new_public toy2 b with Ok p => pt_eqb p (toy_pt 11) | _ => false end | _ => false end = true.
Proof. repeat split; vm_compute; reflexivity. Qed.

Definition C88_C95 := (C88_sign, C88_no_panic, C88_bytes, C88_asn1, C88_zero_r_refuted, C88_top_key_refuted, C88_sign_k,
  C89_exact, C89_off_curve, C89_message, C89_infinity_forges, C90_za, C90_digest, C90_binds, C91_roundtrip, C91_roundtrip_k, C91_asn1, C91_standard, C91_empty_refuted,
  C92_accepts, C92_panics, C92_infinity_refuted, C92_asn1_integers, C92_binds, C93_agree, C93_confirm_responder, C93_confirm_initiator, C93_off_curve,
  C94_result, C94_agree, C94_long_id_refuted, C94_infinity_refuted, C94_tag_order_refuted,
  C95_private, C95_private_roundtrip, C95_zero_key_refuted, C95_generate, C95_public, C95_public_to, C95_infinity_refuted).
Print Assumptions C88_C95.
