(** The properties of pubkey/gost. *)
From Verif Require Import Base BigModel NumLib ModRw ElgProofs CurveModel CurveSpec ToyCurve EcSigProofs EcSigProofs2 Ec2Proofs2 G10Model G10Spec G10Proofs G10Proofs2 G10Proofs3 G10Proofs4.
Set Implicit Arguments. Unset Strict Implicit.
Local Open Scope Z_scope.

(** ** C108: the curve arithmetic *)
Theorem C108_gost_scalar_mult c pt a key : lawful_gost c pt -> bytes_ok key -> a mod gQ c <> 0 ->
  g_mult c (pt a) key = (if be_val key mod gQ c =? 0 then Panic else Ok (pt (a * be_val key))) /\
  g_base c key = (if be_val key mod gQ c =? 0 then Panic else Ok (pt (be_val key))).
Proof.
  intros HL Hk Ha. destruct (Z.eqb_spec (be_val key mod gQ c) 0) as [E|E].
  - split; [now apply mult_panics|now apply (base_panics HL)].
  - split; [now apply (mult_pt HL)|now apply (base_pt' HL)].
Qed.
Theorem C108_gost_add c pt a b : lawful_gost c pt -> a mod gQ c <> 0 -> b mod gQ c <> 0 -> (a + b) mod gQ c <> 0 ->
  g_Add c (pt a) (pt b) = Ok (pt (a + b)) /\ g_Double c (pt a) = Ok (pt (2 * a)).
Proof.
  intros HL Ha Hb Hab. unfold g_Double, g_Add. rewrite !(guard_pt HL) by auto. split; f_equal; [now apply (g_add_pt HL)|].
  rewrite (g_add_pt HL) by (auto; now apply (dbl_nz HL)). f_equal. ring.
Qed.
(** Off-curve points are refused by a panic. *)
Theorem C108_gost_off_curve c p q key : g_on c p = false -> p <> (0, 0) ->
  g_Add c p q = Panic /\ (g_on c q = true -> g_Add c q p = Panic) /\ g_Double c p = Panic /\ g_mult c p key = Panic /\ g_marshal c p = Panic.
Proof.
  intros H N. assert (G : forall A (k : res A), g_guard c p k = Panic).
  { intros A k. unfold g_guard. destruct p as [x y]. cbn [fst snd]. destruct (Z.eqb_spec x 0), (Z.eqb_spec y 0); cbn [andb]; subst; try congruence; now rewrite H. }
  unfold g_Add, g_Double, g_mult, g_marshal. rewrite !G. split; [reflexivity|]. split; [|auto]. intros Hq. unfold g_guard at 1. rewrite Hq. now destruct (_ && _).
Qed.
(** A curve whose base point is not on it is refused; E and D are kept only together. *)
Theorem C108_gost_new_curve p q a b x y e d co : 0 < p ->
  ((exists c, g_new_curve p q a b x y e d co = Ok c) <-> y ^ 2 mod p = (x ^ 3 + a * x + b) mod p) /\
  (forall c, g_new_curve p q a b x y e d co = Ok c -> (gE c = None <-> gD c = None) /\ gP c = p /\ gQ c = q /\ gX c = x /\ gY c = y /\ (co = None -> gCo c = 1)).
Proof.
  intros Hp. unfold g_new_curve. set (c0 := GCurve p q 1 a b None None x y).
  assert (O : g_on c0 (x, y) = true <-> y ^ 2 mod p = (x ^ 3 + a * x + b) mod p).
  { unfold g_on, g_poly. cbn [fst snd]. rewrite g_pos_mod by exact Hp. cbn [gP gA gB c0]. rewrite Z.eqb_eq. replace (y ^ 2) with (y * y) by ring. replace (x ^ 3 + a * x + b) with ((x * x + a) * x + b) by ring. split; congruence. }
  destruct (g_on c0 (x, y)) eqn:E; cbn [negb].
  - split; [split; [intros _; now apply O|intros _; destruct e, d; eexists; reflexivity]|].
    intros c. destruct e, d; intros [= <-]; cbn; (split; [split; congruence|]); repeat (split; [reflexivity|]); intros ->; reflexivity.
  - split; [split; [intros [c H]; discriminate|intros H; apply O in H; congruence]|discriminate].
Qed.

(** ** C109: GOST R 34.10 signatures *)
Theorem C109_gost_sign_exact c pt k rd digest : lawful_gost c pt -> gost_key pt k -> gcur (gpk k) = c -> bytes_ok rd ->
  g_sign_rs rd k digest <> Panic /\
  forall r s rd', g_sign_rs rd k digest = Ok ((r, s), rd') -> 0 < r < gQ c /\ 0 < s < gQ c /\ exists n, gost_nonce (gQ c) pt (gd k) (gost_e (gQ c) digest) r s n.
Proof. intros HL HK Hc Hrd. split; [now apply (sign_rs_no_panic HL)|]. intros r s rd' H. exact (sign_rs_ok HL Hc Hrd H). Qed.
(** Verification is the standard's equation, except on the line s = +-r d where the two summands share their x coordinate. *)
Theorem C109_gost_verify_exact c pt k digest r s : lawful_gost c pt -> gost_key pt k -> gcur (gpk k) = c ->
  (s - r * gd k) mod gQ c <> 0 -> (s + r * gd k) mod gQ c <> 0 ->
  (g_verify_rs (gpk k) digest r s = Ok true <-> 0 < r < gQ c /\ 0 < s < gQ c /\ exists n, gost_nonce (gQ c) pt (gd k) (gost_e (gQ c) digest) r s n).
Proof.
  intros HL (Hp & Hd & Hu) Hc N1 N2. rewrite Hc in Hd. split.
  - intros H. destruct (Z_lt_dec 0 r), (Z_lt_dec r (gQ c)), (Z_lt_dec 0 s), (Z_lt_dec s (gQ c)); try (rewrite (verify_rs_range digest Hc) in H by lia; discriminate).
    split; [lia|]. split; [lia|]. now apply (verify_generic HL digest Hc Hd Hu).
  - intros (Hr & Hs & H). now apply (verify_generic HL digest Hc Hd Hu).
Qed.
Theorem C109_gost_verify_degenerate c pt k digest r s z : lawful_gost c pt -> gost_key pt k -> gcur (gpk k) = c -> 0 < r < gQ c -> 0 < s < gQ c ->
  (s - r * gd k) mod gQ c = 0 \/ (s + r * gd k) mod gQ c = 0 -> (z * gost_e (gQ c) digest) mod gQ c = s mod gQ c ->
  g_verify_rs (gpk k) digest r s = Ok (((- 2 * fst (pt z)) mod gP c) mod gQ c =? r).
Proof. intros HL (Hp & Hd & Hu) Hc Hr Hs H Hz. rewrite Hc in Hd. now apply (verify_special HL Hc Hd Hu). Qed.
Theorem C109_gost_verify_range c pt k digest r s : lawful_gost c pt -> gost_key pt k -> gcur (gpk k) = c ->
  g_verify_rs (gpk k) digest r s <> Panic /\ g_verify_rs (gpk k) digest r s <> Err /\
  (~ (0 < r < gQ c /\ 0 < s < gQ c) -> g_verify_rs (gpk k) digest r s = Ok false).
Proof.
  intros HL (Hp & Hd & Hu) Hc. rewrite Hc in Hd. assert (X : exists b, g_verify_rs (gpk k) digest r s = Ok b).
  { destruct (Z_lt_dec 0 r), (Z_lt_dec r (gQ c)), (Z_lt_dec 0 s), (Z_lt_dec s (gQ c)); try (rewrite (verify_rs_range digest Hc) by lia; eauto).
    destruct (@verify_rs_eq c pt HL (gpk k) (gd k) digest r s) as (z1 & z2 & _ & _ & _ & _ & ->); auto. eauto. }
  destruct X as [b Hb]. rewrite Hb. split; [discriminate|]. split; [discriminate|]. intros N. rewrite (verify_rs_range digest Hc) in Hb by exact N. congruence.
Qed.
(** The byte form: s then r, each PointSize bytes; a signature verifies unless s = -r d. *)
Theorem C109_gost_sign_verify c pt k rd digest sig rd' : lawful_gost c pt -> gost_sized c -> gost_key pt k -> gcur (gpk k) = c -> bytes_ok rd ->
  g_sign rd k digest = Ok (sig, rd') -> length sig = (2 * g_size c)%nat /\
  exists r s, sig = be_bytes (g_size c) s ++ be_bytes (g_size c) r /\ 0 < r < gQ c /\ 0 < s < gQ c /\
    g_verify (gpk k) digest sig = g_verify_rs (gpk k) digest r s /\
    ((s + r * gd k) mod gQ c <> 0 -> g_verify (gpk k) digest sig = Ok true).
Proof.
  intros HL HS HK Hc Hrd. pose proof HK as (Hp & Hd & Hu). rewrite Hc in Hd. unfold g_sign. destruct (g_sign_rs rd k digest) as [[[r s] r1]| |] eqn:E; cbn [rbind]; try discriminate.
  destruct (sign_rs_ok HL Hc Hrd E) as (Br & Bs & n & Hn). cbn [fst snd] in *. destruct HS as [SQ SP]. rewrite Hc. rewrite !fill_bytes_fits by lia. cbn [rbind].
  intros [= <- <-]. split; [rewrite app_length, !be_bytes_length; lia|]. exists r, s. split; [reflexivity|]. split; [exact Br|]. split; [exact Bs|].
  assert (V : g_verify (gpk k) digest (be_bytes (g_size c) s ++ be_bytes (g_size c) r) = g_verify_rs (gpk k) digest r s).
  { unfold g_verify. rewrite Hc, app_length, !be_bytes_length. replace (g_size c + g_size c)%nat with (2 * g_size c)%nat by lia. rewrite Nat.eqb_refl. cbn [negb].
    rewrite firstn_app, be_bytes_length, Nat.sub_diag, firstn_O, app_nil_r, (@firstn_all2 _ _ (be_bytes (g_size c) s)) by now rewrite be_bytes_length.
    rewrite skipn_app, be_bytes_length, Nat.sub_diag, skipn_O, (@skipn_all2 _ _ (be_bytes (g_size c) s)) by now rewrite be_bytes_length. cbn [app].
    now rewrite !be_val_fit by lia. }
  split; [exact V|]. intros N. rewrite V. apply (verify_generic HL digest Hc Hd Hu); auto; [|now exists n]. exact (nonce_nz HL Hn).
Qed.
Theorem C109_gost_verify_length u digest sig : length sig <> (2 * g_size (gcur u))%nat -> g_verify u digest sig = Err.
Proof. intros H. unfold g_verify. destruct (Nat.eqb_spec (length sig) (2 * g_size (gcur u))); [contradiction|reflexivity]. Qed.

(** ** C110: keys, encoding, key agreement *)
Theorem C110_gost_private_key c pt raw : lawful_gost c pt -> bytes_ok raw ->
  g_private_from c raw = (if le_val raw =? 0 then Err else if le_val raw mod gQ c =? 0 then Panic else Ok (GPriv (GPub c (pt (le_val raw))) (le_val raw))) /\
  (forall k, g_private_from c raw = Ok k -> gost_key pt k /\ gcur (gpk k) = c) /\
  (forall k, g_private_from c raw = Ok k -> length raw = g_size c -> g_private_to k = Ok raw).
Proof.
  intros HL Hr. assert (E : g_private_from c raw = (if le_val raw =? 0 then Err else if le_val raw mod gQ c =? 0 then Panic else Ok (GPriv (GPub c (pt (le_val raw))) (le_val raw)))).
  { unfold g_private_from. rewrite (new_private_eq HL) by now apply Forall_rev. now rewrite be_val_rev. }
  pose proof (le_val_bound Hr) as B. rewrite E. split; [reflexivity|]. split; intros k; destruct (Z.eqb_spec (le_val raw) 0); try discriminate; destruct (Z.eqb_spec (le_val raw mod gQ c) 0); try discriminate; intros H; injection H as <-; cbn [gpk gcur].
  - split; [|reflexivity]. split; cbn [gd gpk gpt gcur]; [lia|]. split; auto.
  - intros L. unfold g_private_to. cbn [gpk gcur gd]. rewrite fill_bytes_fits by (rewrite <- L; exact B). cbn [rbind]. rewrite rev_be. f_equal. now apply le_bytes_val.
Qed.
Theorem C110_gost_generate c pt rd : lawful_gost c pt -> bytes_ok rd ->
  (forall k rd', g_generate c rd = Ok (k, rd') -> gost_key pt k /\ gcur (gpk k) = c /\ gd k = be_val (firstn (g_size c) rd) /\ rd' = skipn (g_size c) rd) /\
  (g_generate c rd = Panic <-> (g_size c <= length rd)%nat /\ 0 < be_val (firstn (g_size c) rd) /\ be_val (firstn (g_size c) rd) mod gQ c = 0).
Proof.
  intros HL Hrd. unfold g_generate, read_full. destruct (Nat.leb_spec (g_size c) (length rd)) as [L|L]; cbn [rbind fst snd].
  - assert (O : bytes_ok (firstn (g_size c) rd)) by now apply bytes_ok_firstn. pose proof (be_val_bound O) as B.
    rewrite (new_private_eq HL) by exact O. set (v := be_val (firstn (g_size c) rd)) in *.
    destruct (Z.eqb_spec v 0) as [E|E]; cbn [rbind]; [split; [discriminate|]; split; [discriminate|]; lia|].
    destruct (Z.eqb_spec (v mod gQ c) 0) as [F|F]; cbn [rbind]; [split; [discriminate|]; split; [intros _; split; [exact L|split; [lia|exact F]]|reflexivity]|].
    split.
    + intros k rd' H. injection H as <- <-. cbn [gpk gcur gd]. split; [split; [cbn; lia|split; [exact F|reflexivity]]|]. auto.
    + split; [discriminate|]. intros (_ & _ & X). contradiction.
  - split; [discriminate|]. split; [discriminate|]. intros [X _]. lia.
Qed.
Theorem C110_gost_point_encoding c x y : 0 < gP c <= 256 ^ Z.of_nat (g_size c) -> 0 <= x < gP c -> 0 <= y < gP c -> g_on c (x, y) = true ->
  g_marshal c (x, y) = Ok (le_bytes (g_size c) x ++ le_bytes (g_size c) y) /\
  g_public_from c (le_bytes (g_size c) x ++ le_bytes (g_size c) y) = Ok (GPub c (x, y)).
Proof. intros HP Hx Hy Ho. split; [now apply marshal_eq|]. unfold g_public_from. now rewrite unmarshal_eq. Qed.
Theorem C110_gost_point_decoding c d u : 0 < gP c <= 256 ^ Z.of_nat (g_size c) -> bytes_ok d -> g_public_from c d = Ok u ->
  gcur u = c /\ 0 <= fst (gpt u) < gP c /\ 0 <= snd (gpt u) < gP c /\ g_on c (gpt u) = true /\ g_public_to u = Ok d.
Proof.
  intros HP Hd. unfold g_public_from. destruct (g_unmarshal c d) as [p|] eqn:E; [|discriminate]. intros [= <-]. cbn [gcur gpt].
  apply unmarshal_inv in E as (Bx & By & Ho & ->); auto. repeat (split; [assumption||reflexivity|]). unfold g_public_to. cbn [gcur gpt]. destruct p as [x y]. now apply marshal_eq.
Qed.
(** Both sides of VKO compute the same string, the encoding of (a b ukm Co) G; a factor that is a multiple of q panics. *)
Theorem C110_gost_kek_agrees c pt ka kb ukm : lawful_gost c pt -> gost_sized c -> gost_key pt ka -> gost_key pt kb -> gcur (gpk ka) = c -> gcur (gpk kb) = c -> 0 <= ukm -> 0 <= gCo c ->
  g_kek ka (gpk kb) ukm = g_kek kb (gpk ka) ukm /\
  ((ukm * gCo c) mod gQ c = 0 -> g_kek ka (gpk kb) ukm = Panic) /\
  ((ukm * gCo c) mod gQ c <> 0 -> let p := pt (gd ka * gd kb * ukm * gCo c) in g_kek ka (gpk kb) ukm = Ok (le_bytes (g_size c) (fst p) ++ le_bytes (g_size c) (snd p))).
Proof.
  intros HL HS (Pa & Da & Ua) (Pb & Db & Ub) Ca Cb Hu Hco. rewrite Ca in Da. rewrite Cb in Db.
  assert (Hw : 0 <= ukm * gCo c) by now apply Z.mul_nonneg_nonneg.
  rewrite (kek_eq HL HS Ca Pa Da Cb Ub Db Hw), (kek_eq HL HS Cb Pb Db Ca Ua Da Hw).
  replace (gd kb * gd ka * (ukm * gCo c)) with (gd ka * gd kb * ukm * gCo c) by ring. replace (gd ka * gd kb * (ukm * gCo c)) with (gd ka * gd kb * ukm * gCo c) by ring.
  split; [reflexivity|]. destruct (Z.eqb_spec ((ukm * gCo c) mod gQ c) 0); split; intros; try contradiction; reflexivity.
Qed.
Theorem C110_gost_kek_hashed h c pt ka kb ukm : lawful_gost c pt -> gost_sized c -> gost_key pt ka -> gost_key pt kb -> gcur (gpk ka) = c -> gcur (gpk kb) = c -> 0 <= ukm -> 0 <= gCo c ->
  g_kek2012 h ka (gpk kb) ukm = g_kek2012 h kb (gpk ka) ukm /\
  g_kek2001 h ka (gpk kb) ukm = g_kek2001 h kb (gpk ka) ukm /\
  ((256 < bitlen (gP c))%nat -> g_kek2001 h ka (gpk kb) ukm = Err) /\
  (forall key, (bitlen (gP c) <= 256)%nat -> g_kek ka (gpk kb) ukm = Ok key -> g_kek2001 h ka (gpk kb) ukm = Ok (hsum h key) /\ g_kek2012 h ka (gpk kb) ukm = Ok (hsum h key)).
Proof.
  intros HL HS Ka Kb Ca Cb Hu Hco. destruct (C110_gost_kek_agrees HL HS Ka Kb Ca Cb Hu Hco) as [E _].
  unfold g_kek2001, g_kek2012, g_size. rewrite Ca, Cb, E. split; [reflexivity|]. split; [reflexivity|].
  destruct (Nat.ltb_spec 256 (bitlen (gP c))); (split; [intros; try reflexivity; lia|]); intros key L ->; [lia|]. now split.
Qed.
Theorem C110_gost_ukm raw : g_ukm raw = le_val raw.
Proof. apply ukm_eq. Qed.
(** Keys over different curves are refused; the comparison itself panics when only one of two otherwise equal curves has an Edwards form. *)
Theorem C110_gost_equal a b : (gE a = None <-> gE b = None) -> (gD a = None <-> gD b = None) -> exists r, g_equal a b = Ok r /\ (r = true <-> a = b).
Proof.
  intros HE HD. unfold g_equal. destruct a as [p q co ca cb e d x y], b as [p' q' co' ca' cb' e' d' x' y']. cbn [gP gQ gCo gA gB gE gD gX gY] in *.
  destruct (Z.eqb_spec p p'); cbn [andb]; [|eexists; split; [reflexivity|]; split; [discriminate|congruence]].
  destruct (Z.eqb_spec q q'); cbn [andb]; [|eexists; split; [reflexivity|]; split; [discriminate|congruence]].
  destruct (Z.eqb_spec ca ca'); cbn [andb]; [|eexists; split; [reflexivity|]; split; [discriminate|congruence]].
  destruct (Z.eqb_spec cb cb'); cbn [andb]; [|eexists; split; [reflexivity|]; split; [discriminate|congruence]].
  destruct (Z.eqb_spec x x'); cbn [andb]; [|eexists; split; [reflexivity|]; split; [discriminate|congruence]].
  destruct (Z.eqb_spec y y'); cbn [andb]; [|eexists; split; [reflexivity|]; split; [discriminate|congruence]].
  assert (R : forall o o', (o = None <-> o' = None) -> exists r, opt_cmp o o' = Ok r /\ (r = true <-> o = o')).
  { intros [v|] [v'|] H; try (destruct H as [H1 H2]; first [discriminate (H1 eq_refl)|discriminate (H2 eq_refl)]); cbn; eexists; (split; [reflexivity|]); [rewrite Z.eqb_eq; split; congruence|split; auto]. }
  destruct (R _ _ HE) as (re & -> & Re). cbn [rbind]. destruct re; cbn [negb]; [|eexists; split; [reflexivity|]; split; [discriminate|intros H; apply Re; congruence]].
  destruct (R _ _ HD) as (rd & -> & Rd). cbn [rbind]. destruct rd; cbn [negb]; [|eexists; split; [reflexivity|]; split; [discriminate|intros H; apply Rd; congruence]].
  eexists. split; [reflexivity|]. rewrite Z.eqb_eq. pose proof (proj1 Re eq_refl). pose proof (proj1 Rd eq_refl). split; congruence.
Qed.

(** ** C111: Edwards coordinates *)
Definition ed_setting (c : gcurve) (e d s t : Z) : Prop :=
  prime (gP c) /\ 3 < gP c /\ gE c = Some e /\ gD c = Some d /\ edwards_params (gP c) (gA c) (gB c) e d s t /\ s mod gP c <> 0.
Theorem C111_gost_to_edwards c e d s t x y : ed_setting c e d s t -> 0 <= x < gP c -> 0 <= y < gP c -> g_on c (x, y) = true ->
  y <> 0 -> (x - t) mod gP c <> 0 -> (x - t + s) mod gP c <> 0 ->
  exists u v, g_xy2uv c (x, y) = Ok (u, v) /\ 0 <= u < gP c /\ 0 <= v < gP c /\ edwards_on (gP c) e d (u, v) /\ g_uv2xy c (u, v) = Ok (x, y).
Proof.
  intros (Pp & P3 & HE & HD & Hpar & Hs) Bx By Ho Ny NT NTs. assert (Ny' : y mod gP c <> 0) by (rewrite Z.mod_small; lia).
  destruct (xy2uv_rel Pp P3 HE HD Hpar Ny' NTs) as (u & v & E & Bu & Bv & R). exists u, v. split; [exact E|]. split; [exact Bu|]. split; [exact Bv|]. split.
  - unfold edwards_on. cbn [fst snd]. apply zq_eq. apply (ed_curve Pp P3 Hpar Hs R); auto. apply Zq. unfold g_on, g_poly in Ho. cbn [fst snd] in Ho. rewrite g_pos_mod in Ho by lia. apply Z.eqb_eq in Ho.
    replace (y ^ 2) with (y * y) by ring. rewrite <- Ho. f_equal. ring.
  - destruct (rel_nz Pp P3 Hs R Ny' NT NTs) as (Nu & Nm & Np). destruct (uv2xy_rel Pp P3 HE HD Hpar Hs Nu Nm Np) as (x' & y' & E' & Bx' & By' & R' & _). rewrite E'. f_equal.
    symmetry. exact (rel_xy Pp P3 R R' Nu Nm Bx By Bx' By').
Qed.
Theorem C111_gost_from_edwards c e d s t u v : ed_setting c e d s t -> 0 <= u < gP c -> 0 <= v < gP c -> edwards_on (gP c) e d (u, v) ->
  u <> 0 -> v <> 1 ->
  exists x y, g_uv2xy c (u, v) = Ok (x, y) /\ 0 <= x < gP c /\ 0 <= y < gP c /\ g_on c (x, y) = true /\ g_xy2uv c (x, y) = Ok (u, v).
Proof.
  intros (Pp & P3 & HE & HD & Hpar & Hs) Bu Bv Ho Nu Nv. assert (Nu' : u mod gP c <> 0) by (rewrite Z.mod_small; lia).
  assert (Nm : (1 - v) mod gP c <> 0). { apply sub_nz; lia. }
  unfold edwards_on in Ho. cbn [fst snd] in Ho. apply Zq in Ho.
  assert (Np : (1 + v) mod gP c <> 0).
  { intros E. assert (V : zq (gP c) v (-1)) by (apply Zq; apply cong_div; [lia|]; replace (v - -1) with (1 + v) by ring; apply Z.mod_divide; [lia|exact E]).
    replace (v ^ 2) with (v * v) in Ho by ring. replace (u ^ 2) with (u * u) in Ho by ring. rewrite V in Ho. apply zq_eq in Ho. apply cong_div in Ho; [|lia].
    replace (e * (u * u) + -1 * -1 - (1 + d * (u * u) * (-1 * -1))) with ((e - d) * (u * u)) in Ho by ring. apply Z.mod_divide in Ho; [|lia].
    apply prime_or in Ho as [Ho|Ho]; auto; [|apply prime_or in Ho as [Ho|Ho]; auto].
    destruct Hpar as (E4 & _). rewrite Ho in E4. apply (nz_mul Pp (nz_4 Pp P3 0) Hs). exact E4. }
  destruct (uv2xy_rel Pp P3 HE HD Hpar Hs Nu' Nm Np) as (x & y & E & Bx & By & R & Ny & NT & NTs). exists x, y. split; [exact E|]. split; [exact Bx|]. split; [exact By|]. split.
  - apply (ed_curve Pp P3 Hpar Hs R) in Ho; auto. unfold g_on, g_poly. cbn [fst snd]. rewrite g_pos_mod by lia. apply Z.eqb_eq. replace (y * y) with (y ^ 2) by ring. rewrite (zq_eq Ho). f_equal. ring.
  - destruct (xy2uv_rel Pp P3 HE HD Hpar Ny NTs) as (u' & v' & E' & Bu' & Bv' & R'). rewrite E'. f_equal. exact (rel_uv Pp P3 R' R Ny NTs Bu' Bv' Bu Bv).
Qed.
Theorem C111_gost_not_edwards c p : gE c = None -> g_xy2uv c p = Panic /\ g_uv2xy c p = Panic.
Proof. intros H. unfold g_xy2uv, g_uv2xy. now rewrite H. Qed.

(** ** Instances *)
(** The toy curve: y^2 = x^3 + 7 over F_43, q = 31. *)
Definition gtoy : gcurve := GCurve 43 31 1 0 7 None None 2 12.
Definition gtab : list (Z * Z) := [(0, 0); (2, 12); (7, 7); (35, 21); (21, 18); (12, 12); (29, 31); (25, 18); (32, 40); (20, 40); (42, 7); (40, 25); (37, 36); (13, 21); (34, 40); (38, 21); (38, 22); (34, 3); (13, 22); (37, 7); (40, 18); (42, 36); (20, 3); (32, 3); (25, 25); (29, 12); (12, 31); (21, 25); (35, 22); (7, 36); (2, 31)].
Definition ginv : list Z := [0; 1; 22; 29; 11; 26; 36; 37; 27; 24; 13; 4; 18; 10; 40; 23; 35; 38; 12; 34; 28; 41; 2; 15; 9; 31; 5; 8; 20; 3; 33; 25; 39; 30; 19; 16; 6; 7; 17; 32; 14; 21; 42].
Definition gtpt (a : Z) : Z * Z := nth (Z.to_nat (a mod 31)) gtab (0, 0).
Definition glam (p q : Z * Z) : Z :=
  if fst p =? fst q then 3 * fst p ^ 2 * nth (Z.to_nat ((2 * snd p) mod 43)) ginv 0 else (snd q - snd p) * nth (Z.to_nat ((fst q - fst p) mod 43)) ginv 0.
Definition gchk (p q r : Z * Z) : bool :=
  let l := glam p q in
  (if fst p =? fst q then (l * (2 * snd p)) mod 43 =? (3 * fst p ^ 2 + 0) mod 43 else (l * (fst q - fst p)) mod 43 =? (snd q - snd p) mod 43)
  && (fst r mod 43 =? (l ^ 2 - fst p - fst q) mod 43) && (snd r mod 43 =? (l * (fst p - fst r) - snd p) mod 43).
Lemma gchk_ok p q r : gchk p q r = true -> chord_tangent 43 0 p q r.
Proof.
  destruct p as [x1 y1], q as [x2 y2], r as [x3 y3]. unfold gchk, chord_tangent. cbn [fst snd]. set (l := glam (x1, y1) (x2, y2)). intros H.
  apply andb_prop in H as [H H3]. apply andb_prop in H as [H1 H2]. exists l. apply Z.eqb_eq in H2, H3. split; [|now split].
  destruct (Z.eqb_spec x1 x2), (Z.eq_dec x1 x2); try contradiction; now apply Z.eqb_eq.
Qed.
Lemma gtoy_lawful : lawful_gost gtoy gtpt.
Proof.
  assert (R : forall a, 0 <= a mod 31 < 31) by (intros; apply Z.mod_pos_bound; lia).
  assert (M : forall a, gtpt a = gtpt (a mod 31)) by (intros; unfold gtpt; now rewrite Z.mod_mod).
  constructor; cbn [gP gQ gX gY gA gB gtoy].
  - apply primeb_prime. vm_compute. reflexivity.
  - lia.
  - apply primeb_prime. vm_compute. reflexivity.
  - lia.
  - reflexivity.
  - intros a. symmetry. apply M.
  - assert (E : all31 (fun a => let p := gtpt a in (0 <=? fst p) && (fst p <? 43) && (0 <=? snd p) && (snd p <? 43)) = true) by (vm_compute; reflexivity).
    intros a _. specialize (all31_spec E (R a)). cbn beta zeta. rewrite <- M. intros H. repeat (apply andb_prop in H as [H ?]). split; split; lia.
  - assert (E : all31 (fun a => (a =? 0) || ((snd (gtpt a) ^ 2) mod 43 =? (fst (gtpt a) ^ 3 + 0 * fst (gtpt a) + 7) mod 43)) = true) by (vm_compute; reflexivity).
    intros a Ha. specialize (all31_spec E (R a)). cbn beta. rewrite <- M. intros H. apply orb_prop in H as [H|H]; [apply Z.eqb_eq in H; contradiction|now apply Z.eqb_eq].
  - assert (E : all31 (fun a => (a =? 0) || ((fst (gtpt ((- a) mod 31)) =? fst (gtpt a)) && ((snd (gtpt ((- a) mod 31)) + snd (gtpt a)) mod 43 =? 0))) = true) by (vm_compute; reflexivity).
    intros a Ha. specialize (all31_spec E (R a)). cbn beta. rewrite <- (M a). intros H. apply orb_prop in H as [H|H]; [apply Z.eqb_eq in H; contradiction|]. apply andb_prop in H as [H1 H2].
    assert (X : gtpt (- (a mod 31) mod 31) = gtpt (- a)). { rewrite (M (- a)). f_equal. apply zq_eq. rewrite zq_mod. reflexivity. }
    rewrite X in H1, H2. split; now apply Z.eqb_eq.
  - assert (E : all31 (fun a => all31 (fun b => negb (pt_eqb (gtpt a) (gtpt b)) || (a =? b))) = true) by (vm_compute; reflexivity).
    intros a b _ _ H. specialize (all31_spec (all31_spec E (R a)) (R b)). cbn beta. rewrite <- !M. rewrite H. unfold pt_eqb. rewrite !Z.eqb_refl. cbn. now rewrite Z.eqb_eq.
  - assert (E : all31 (fun a => all31 (fun b => (a =? 0) || (b =? 0) || (a + b =? 31) || gchk (gtpt a) (gtpt b) (gtpt (a + b)))) = true) by (vm_compute; reflexivity).
    intros a b Ha Hb Hab. specialize (all31_spec (all31_spec E (R a)) (R b)). cbn beta. rewrite <- !M. intros H.
    apply orb_prop in H as [H|H].
    + exfalso. apply orb_prop in H as [H|H]; [apply orb_prop in H as [H|H]; apply Z.eqb_eq in H; contradiction|]. apply Z.eqb_eq in H. apply Hab. rewrite Zplus_mod, H. reflexivity.
    + apply gchk_ok in H. rewrite (M (a mod 31 + b mod 31)), <- Zplus_mod, <- M in H. exact H.
Qed.
Lemma gtoy_sized : gost_sized gtoy.
Proof. split; vm_compute; discriminate. Qed.
Definition gk (d : Z) : gpriv := GPriv (GPub gtoy (gtpt d)) d.
Lemma gk_key d : 0 < d < 31 -> gost_key gtpt (gk d).
Proof. intros H. split; [cbn; lia|]. split; [cbn; rewrite Z.mod_small; lia|reflexivity]. Qed.
Definition nonce (k : Z) : bytes := repeat 0 31 ++ [k].

Example C108_instance : g_mult gtoy (gtpt 5) [2; 7] = Ok (gtpt (5 * 519)) /\ g_base gtoy [31] = Panic /\ g_Add gtoy (gtpt 4) (gtpt 9) = Ok (gtpt 13).
Proof. vm_compute. repeat split. Qed.
(** The comment of the code says that (0, 0), the point at infinity, may be operated on; adding it is wrong, and so is a sum of opposite points. *)
Theorem C108_gost_infinity_refuted : exists c pt, lawful_gost c pt /\ g_Add c (0, 0) (pt 1) <> Ok (pt 1) /\ g_Add c (pt 1) (0, 0) <> Ok (pt 1) /\
  g_Add c (pt 1) (pt (-1)) = Ok (39, 31) /\ g_on c (39, 31) = false.
Proof. exists gtoy, gtpt. split; [exact gtoy_lawful|]. vm_compute. repeat split; discriminate. Qed.
Example C109_instance : g_sign_rs (nonce 0 ++ nonce 6) (gk 3) [5] = Ok ((29, 24), []) /\ g_verify_rs (gpk (gk 3)) [5] 29 24 = Ok true /\ g_verify_rs (gpk (gk 3)) [6] 29 24 = Ok false.
Proof. vm_compute. repeat split. Qed.
(** A signature made by Sign that Verify rejects. *)
Theorem C109_gost_own_signature_refuted : exists c pt k rd digest sig rd', lawful_gost c pt /\ gost_sized c /\ gost_key pt k /\ gcur (gpk k) = c /\ bytes_ok rd /\
  g_sign rd k digest = Ok (sig, rd') /\ g_verify (gpk k) digest sig = Ok false.
Proof.
  exists gtoy, gtpt, (gk 1), (nonce 4), [5], (repeat 0 31 ++ [10] ++ repeat 0 31 ++ [21]), []. split; [exact gtoy_lawful|]. split; [exact gtoy_sized|]. split; [now apply gk_key|]. split; [reflexivity|].
  split; [|vm_compute; split; reflexivity]. unfold nonce. apply Forall_app. split; [apply Forall_forall; intros x Hx; apply repeat_spec in Hx; subst; unfold is_byte; lia|]. constructor; [unfold is_byte; lia|constructor].
Qed.
Example C110_instance_keys : g_private_from gtoy [40; 1] = Ok (GPriv (GPub gtoy (gtpt 296)) 296) /\ g_private_from gtoy [31] = Panic /\ g_private_from gtoy [0; 0] = Err.
Proof. vm_compute. repeat split. Qed.
Example C110_instance_point : g_marshal gtoy (gtpt 3) = Ok (35 :: repeat 0 31 ++ 21 :: repeat 0 31) /\ g_unmarshal gtoy (35 :: repeat 0 31 ++ 21 :: repeat 0 31) = Some (gtpt 3) /\ g_unmarshal gtoy (78 :: repeat 0 31 ++ 21 :: repeat 0 31) = None.
Proof. vm_compute. repeat split. Qed.
Example C110_instance_kek : g_kek (gk 5) (gpk (gk 7)) 3 = g_marshal gtoy (gtpt 105) /\ g_kek (gk 7) (gpk (gk 5)) 3 = g_marshal gtoy (gtpt 105) /\ g_kek (gk 5) (gpk (gk 7)) 62 = Panic /\ g_kek (gk 5) (gpk (gk 7)) 0 = Panic.
Proof. vm_compute. repeat split. Qed.
(** Equal curves, one with its Edwards form left out: KEK panics instead of answering. *)
Theorem C110_gost_equal_nil_refuted : exists a b, gP a = gP b /\ gQ a = gQ b /\ gE a = None /\ gE b <> None /\ g_equal a b = Panic.
Proof. exists gtoy, (GCurve 43 31 1 0 7 (Some 1) (Some 2) 2 12). vm_compute. repeat split. discriminate. Qed.
(** An Edwards curve over F_13, and the parameters of id-tc26-gost-3410-12-256-paramSetA (params.go:101-152). *)
Definition edtoy : gcurve := GCurve 13 31 1 5 12 (Some 1) (Some 2) 0 5.
Example C111_instance : ed_setting edtoy 1 2 3 7 /\ g_on edtoy (0, 5) = true /\ 5 <> 0 /\ (0 - 7) mod 13 <> 0 /\ (0 - 7 + 3) mod 13 <> 0.
Proof.
  split; [|vm_compute; repeat split; discriminate]. split; [apply primeb_prime; vm_compute; reflexivity|]. split; [cbn; lia|]. split; [reflexivity|]. split; [reflexivity|]. split; [vm_compute; repeat split|vm_compute; discriminate].
Qed.
Definition setA_P := 115792089237316195423570985008687907853269984665640564039457584007913129639319.
Definition setA_D := 2724414110474605931834268501164757645998726878473076809432604223414351675387.
Example C111_instance_paramSetA : edwards_params setA_P
  87789765485885808793369751294406841171614589925193456909855962166505018127157
  18713751737015403763890503457318596560459867796169830279162511461744901002515
  1 setA_D
  57214941091039446228826925379052764515135310613202012817370640948102976900813
  454069018412434321972378083527459607666454479745512801572100703902391945898.
Proof. vm_compute. repeat split. Qed.

Definition C108_C111 := (C108_gost_scalar_mult, C108_gost_add, C108_gost_off_curve, C108_gost_new_curve, C108_gost_infinity_refuted,
  C109_gost_sign_exact, C109_gost_verify_exact, C109_gost_verify_degenerate, C109_gost_verify_range, C109_gost_sign_verify, C109_gost_verify_length, C109_gost_own_signature_refuted,
  C110_gost_private_key, C110_gost_generate, C110_gost_point_encoding, C110_gost_point_decoding, C110_gost_kek_agrees, C110_gost_kek_hashed, C110_gost_ukm, C110_gost_equal, C110_gost_equal_nil_refuted,
  C111_gost_to_edwards, C111_gost_from_edwards, C111_gost_not_edwards).
Print Assumptions C108_C111.
