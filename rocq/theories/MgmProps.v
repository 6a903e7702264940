(** C17: MGM. *)
From Verif Require Import Base BlockModeModel BlockModeSpec StreamModel StreamSpec StreamProofs CcmSpec ToolBytesSpec MacProofs
  Gf2Spec Gf2Proofs MgmSpec MgmModel MgmProofs.
Set Implicit Arguments. Unset Strict Implicit.
Local Open Scope nat_scope.

(** The product used for the tag is the product of GF(2^128): the one value below 2^128 that is
    congruent to the carry-less product modulo x^128 + x^7 + x^2 + x + 1. *)
Theorem C17_field : forall a b z, isblock 16 a -> isblock 16 b -> (0 <= z < 2 ^ 128)%Z ->
  mgm_mul a b = be_bytes 16 z <-> eqp (2 ^ 128 + 135) z (clmul (be_val a) (be_val b)).
Proof.
  intros a b z Ba Bb Hz. rewrite (mgm_mul_ok Ba Bb). destruct Ba as [La Oa], Bb as [Lb Ob].
  pose proof (be_val_bound Oa) as Ra. pose proof (be_val_bound Ob) as Rb. rewrite La in Ra. rewrite Lb in Rb. change (256 ^ Z.of_nat 16)%Z with (2 ^ 128)%Z in *.
  assert (HP : (0 < mgm_poly)%Z) by (unfold mgm_poly; lia). destruct (@gfmul_spec mgm_poly 128 (be_val a) (be_val b) HP mgm_poly_log2 Ra Rb) as [G1 G2].
  unfold mgm_times. split; intro H.
  - apply (f_equal be_val) in H. rewrite !be_val_bytes in H. change (256 ^ Z.of_nat 16)%Z with (2 ^ 128)%Z in H. rewrite !Z.mod_small in H by auto. rewrite <- H. exact G2.
  - f_equal. symmetry. now apply gfmul_unique.
Qed.
Print Assumptions C17_field.

(** Sealing appends the MGM ciphertext of RFC 9058, for every 16-byte nonce below 2^127. *)
Theorem C17_seal : forall c dst n p a, lawful c -> mgm_new c = Ok tt -> isblock 16 n -> (be_val n < 2 ^ 127)%Z -> bytes_ok p -> bytes_ok a ->
  p ++ a <> [] -> mgm_seal c dst n p a = Ok (dst ++ mgm_encrypt (enc c) n a p).
Proof.
  intros c dst n p a HL Hnew Hn Hb Op Oa Hne. unfold mgm_new in Hnew. destruct (Nat.eqb_spec (bsz c) 16) as [Hs|]; [|discriminate].
  assert (HN : nonce_ok n) by (split; auto). unfold mgm_seal. rewrite (proj2 (bad_nonce_ok (proj2 Hn)) HN).
  assert (E0 : (length p =? 0) && (length a =? 0) = false).
  { destruct p; [|reflexivity]. destruct a; [contradiction|reflexivity]. }
  rewrite E0. rewrite crypt_ok, auth_ok by (auto; now apply stream_ok). reflexivity.
Qed.
Print Assumptions C17_seal.

(** Opening returns pt exactly for the MGM ciphertext of pt. *)
Theorem C17_open : forall c dst n ct a, lawful c -> mgm_new c = Ok tt -> isblock 16 n -> (be_val n < 2 ^ 127)%Z -> bytes_ok ct -> bytes_ok a ->
  16 <= length ct ->
  mgm_open c dst n ct a <> Panic /\
  forall r, mgm_open c dst n ct a = Ok r <-> exists pt, r = dst ++ pt /\ bytes_ok pt /\ mgm_encrypt (enc c) n a pt = ct.
Proof.
  intros c dst n ct a HL Hnew Hn Hb Oc Oa Hl. unfold mgm_new in Hnew. destruct (Nat.eqb_spec (bsz c) 16) as [Hs|]; [|discriminate].
  assert (HN : nonce_ok n) by (split; auto). unfold mgm_open. rewrite (proj2 (bad_nonce_ok (proj2 Hn)) HN).
  destruct (Nat.eqb_spec (length ct) 0); [lia|]. cbn [andb]. destruct (Nat.ltb_spec (length ct) 16); [lia|].
  set (sep := length ct - 16). set (body := firstn sep ct). assert (Ob : bytes_ok body) by now apply bytes_ok_firstn.
  rewrite crypt_ok, auth_ok by auto.
  assert (Lt : length (skipn sep ct) = 16) by (rewrite skipn_length; lia).
  assert (Es : forall pt, bytes_ok pt -> mgm_encrypt (enc c) n a pt = ct <-> mgm_stream (enc c) n pt = body /\ mgm_tag (enc c) n a body = skipn sep ct).
  { intros pt Op. unfold mgm_encrypt. pose proof (stream_ok HL Hs HN Op) as Os. pose proof (stream_length HL Hs HN pt) as Ls.
    pose proof (tag_length HL Hs n Oa Os) as Lg. split.
    - intro E. assert (Eb : mgm_stream (enc c) n pt = body).
      { unfold body, sep. rewrite <- E, app_length, Lg, Nat.add_sub. symmetry. now apply firstn_app_exact. }
      split; [auto|]. rewrite <- Eb. unfold sep. rewrite <- E, app_length, Lg, Nat.add_sub. symmetry. now apply skipn_app_exact.
    - intros [E1 E2]. rewrite E1, E2. apply firstn_skipn. }
  destruct (bytes_eqb (mgm_tag (enc c) n a body) (skipn sep ct)) eqn:Eb.
  - apply bytes_eqb_eq in Eb. split; [discriminate|]. intro r. split.
    + intro E. injection E as <-. exists (mgm_stream (enc c) n body). split; [reflexivity|]. split; [now apply stream_ok|].
      apply Es; [now apply stream_ok|]. split; auto. now apply stream_inv.
    + intros (pt & -> & Op & E). apply Es in E as [E1 _]; auto. do 2 f_equal. rewrite <- E1. now apply stream_inv.
  - split; [discriminate|]. intro r. split; [discriminate|]. intros (pt & _ & Op & E). apply Es in E as [_ E2]; auto.
    apply bytes_eqb_neq in Eb. contradiction.
Qed.
Print Assumptions C17_open.

(** The nonces that are refused: exactly those not 16 bytes long or with the top bit set. *)
Theorem C17_nonce : forall c dst n p a, bytes_ok n -> p ++ a <> [] ->
  mgm_seal c dst n p a = Panic <-> ~ (length n = 16 /\ (be_val n < 2 ^ 127)%Z).
Proof.
  intros c dst n p a On Hne. unfold mgm_seal.
  assert (E0 : (length p =? 0) && (length a =? 0) = false).
  { destruct p; [|reflexivity]. destruct a; [contradiction|reflexivity]. }
  rewrite E0. pose proof (bad_nonce_ok On) as B. unfold nonce_ok, isblock in B. destruct (bad_nonce n).
  - split; [|reflexivity]. intros _ [H1 H2]. assert (true = false); [apply B; auto|discriminate].
  - split; [discriminate|]. intro H. exfalso. apply H. destruct (proj1 B eq_refl) as [[H1 _] H2]. auto.
Qed.
Print Assumptions C17_nonce.

(** Where Open panics instead of returning an error: any input shorter than the tag. And although
    Seal refuses to seal nothing, Open accepts the 16-byte string that would be its result. *)
Theorem C17_short_refuted : forall c dst n a ct, length ct < 16 -> mgm_open c dst n ct a = Panic.
Proof.
  intros c dst n a ct H. unfold mgm_open. destruct (bad_nonce n); [reflexivity|]. destruct (_ && _); [reflexivity|].
  destruct (Nat.ltb_spec (length ct) 16); [reflexivity|lia].
Qed.
Print Assumptions C17_short_refuted.
Theorem C17_empty : forall c dst n, lawful c -> mgm_new c = Ok tt -> isblock 16 n -> (be_val n < 2 ^ 127)%Z ->
  mgm_seal c dst n [] [] = Panic /\ mgm_open c dst n (mgm_encrypt (enc c) n [] []) [] = Ok dst.
Proof.
  intros c dst n HL Hnew Hn Hb. split.
  - unfold mgm_seal. destruct (bad_nonce n); reflexivity.
  - assert (Hs : bsz c = 16) by (unfold mgm_new in Hnew; destruct (Nat.eqb_spec (bsz c) 16); [auto|discriminate]).
    assert (HN : nonce_ok n) by (split; auto). assert (O : bytes_ok []) by constructor.
    assert (B : isblock 16 (mgm_encrypt (enc c) n [] [])).
    { unfold mgm_encrypt. change (mgm_stream (enc c) n []) with (@nil Z). cbn [app]. split; [now apply tag_length|].
      unfold mgm_tag. rewrite <- Hs in *. apply (law_enc HL). rewrite Hs in *. split; [now apply sum_len|].
      set (bl := _ ++ _). generalize 0 at 1. induction bl as [|b bl IH]; intro i; cbn [mgm_sum]; [apply bytes_ok_repeat; unfold is_byte; lia|].
      apply xorl_ok; [apply mgm_times_block|apply IH]. }
    destruct (@C17_open c dst n (mgm_encrypt (enc c) n [] []) [] HL Hnew Hn Hb (proj2 B) O) as [_ H]; [rewrite (proj1 B); lia|].
    apply H. exists []. now rewrite app_nil_r.
Qed.
Print Assumptions C17_empty.

Example C17_instance : lawful (toyn 16) /\
  let n := map Z.of_nat (seq 100 16) in let p := map Z.of_nat (seq 0 37) in let a := map Z.of_nat (seq 50 20) in
  mgm_new (toyn 16) = Ok tt /\ isblock 16 n /\ (be_val n < 2 ^ 127)%Z /\
  exists ct, mgm_seal (toyn 16) [9]%Z n p a = Ok (9%Z :: ct) /\ mgm_open (toyn 16) [] n ct a = Ok p /\
    mgm_open (toyn 16) [] n ct (a ++ [0]%Z) = Err.
Proof.
  split; [apply toyn_lawful; lia|]. intros n p a. split; [reflexivity|].
  split; [split; [reflexivity|]; repeat constructor; unfold is_byte; lia|]. split; [reflexivity|].
  exists (mgm_encrypt (enc (toyn 16)) n a p). repeat split; vm_compute; reflexivity.
Qed.
