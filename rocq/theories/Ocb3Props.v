(** C16: OCB (mode/ocb3), against the same specification as mode/ocb. *)
From Verif Require Import Base BlockModeModel BlockModeSpec StreamSpec StreamProofs ToolBytesSpec MacModel MacSpec MacProofs
  OffsetSpec OcbSpec OcbModel OcbProofs OcbProps Ocb3Model Ocb3Proofs.
Set Implicit Arguments. Unset Strict Implicit.
Local Open Scope nat_scope.

Theorem C16_ocb3_params : forall c nsz tsz,
  (exists a, ocb3_new c nsz tsz = Ok a) <-> bsz c = 16 /\ (0 < nsz)%Z /\ (12 <= tsz <= 16)%Z.
Proof.
  intros c nsz tsz. unfold ocb3_new. destruct (Z.ltb_spec tsz 12); cbn [orb]; [split; [intros [? H0]; discriminate|lia]|].
  destruct (Z.ltb_spec 16 tsz); [split; [intros [? H1]; discriminate|lia]|].
  destruct (Z.leb_spec nsz 0); [split; [intros [? H2]; discriminate|lia]|].
  destruct (Nat.eqb_spec (bsz c) 16); cbn [negb]; [|split; [intros [? H3]; discriminate|intros [? _]; contradiction]].
  split; [intros _; repeat split; auto; lia|intros _; eexists; reflexivity].
Qed.
Print Assumptions C16_ocb3_params.

Lemma Ok_inj {A} (x y : A) : Ok x = Ok y -> x = y. Proof. intro H. now injection H. Qed.
Lemma new3_obj c nsz tsz a : ocb3_new c (Z.of_nat nsz) (Z.of_nat tsz) = Ok a -> bsz c = 16 /\ 0 < nsz /\ 12 <= tsz <= 16 /\ a = obj c nsz tsz.
Proof.
  intro H. assert (P : exists a, ocb3_new c (Z.of_nat nsz) (Z.of_nat tsz) = Ok a) by eauto. apply C16_ocb3_params in P as (Hs & Hn & Ht).
  split; [auto|]. split; [lia|]. split; [lia|]. unfold ocb3_new in H. rewrite Hs in H.
  destruct (Z.ltb_spec (Z.of_nat tsz) 12); [lia|]. destruct (Z.ltb_spec 16 (Z.of_nat tsz)); [lia|]. cbn [orb] in H.
  destruct (Z.leb_spec (Z.of_nat nsz) 0); [lia|]. change (negb (16 =? 16)) with false in H. cbv beta iota in H. apply Ok_inj in H. rewrite !Nat2Z.id in H. symmetry. exact H.
Qed.

(** Sealing appends the OCB ciphertext of RFC 7253, whatever dst holds. [max_input] is 2^52: the
    package refuses larger inputs. *)
Theorem C16_ocb3_seal : forall c nsz tsz a d n p ad, lawful c -> ocb3_new c (Z.of_nat nsz) (Z.of_nat tsz) = Ok a -> nsz < 16 ->
  bytes_ok n -> length n = nsz -> bytes_ok p -> bytes_ok ad -> (Z.of_nat (length p) + Z.of_nat (length ad) <= 2 ^ 52)%Z ->
  ocb3_seal false c a d n p ad = Ok (d ++ ocb_encrypt (enc c) tsz n ad p).
Proof.
  intros c nsz tsz a d n p ad HL Hnew Hn On Ln Op Oa Hlen. destruct (new3_obj Hnew) as (Hs & Hn0 & Ht & ->).
  unfold ocb3_seal. cbn [a_nsz a_tsz obj]. rewrite Ln, Nat.eqb_refl. cbn [negb]. destruct (Nat.ltb_spec tsz 12); [lia|].
  unfold max_input. change (2 ^ 48 * 16)%Z with (2 ^ 52)%Z. destruct (Z.ltb_spec (2 ^ 52) (Z.of_nat (length p))); [lia|].
  destruct (Z.ltb_spec (2 ^ 52 - Z.of_nat (length p)) (Z.of_nat (length ad))); [lia|]. cbn [orb].
  destruct (@crypt3_enc c nsz tsz HL Hs Ht n p ad On ltac:(lia) Op Oa ltac:(lia) ltac:(lia)) as (y & t & E1 & E2). rewrite E1. cbn [rbind].
  rewrite <- E2. unfold write_tag. destruct (Nat.eqb_spec tsz 16) as [->|]; [|reflexivity].
  rewrite firstn_all2; [reflexivity|]. destruct (put_block t) as [-> _]. lia.
Qed.
Print Assumptions C16_ocb3_seal.

(** Opening returns pt exactly for the OCB ciphertext of pt, appends it to dst and never panics. *)
Theorem C16_ocb3_open : forall c nsz tsz a d n ct ad, lawful c -> ocb3_new c (Z.of_nat nsz) (Z.of_nat tsz) = Ok a -> nsz < 16 ->
  bytes_ok n -> length n = nsz -> bytes_ok ct -> bytes_ok ad -> (Z.of_nat (length ct) + Z.of_nat (length ad) <= 2 ^ 52)%Z ->
  ocb3_open c a d n ct ad <> Panic /\
  forall r, ocb3_open c a d n ct ad = Ok r <-> exists pt, r = d ++ pt /\ bytes_ok pt /\ ocb_encrypt (enc c) tsz n ad pt = ct.
Proof.
  intros c nsz tsz a d n ct ad HL Hnew Hn On Ln Oc Oa Hlen. destruct (new3_obj Hnew) as (Hs & Hn0 & Ht & ->).
  unfold ocb3_open. cbn [a_nsz a_tsz obj]. rewrite Ln, Nat.eqb_refl. cbn [negb]. destruct (Nat.ltb_spec tsz 12); [lia|].
  destruct (Nat.ltb_spec (length ct) tsz) as [Hsh|Hlong].
  { split; [discriminate|]. intro r. split; [discriminate|]. intros (pt & _ & Op & E). exfalso.
    destruct (@encrypt_body c tsz HL Hs ltac:(lia) n ad pt Op Oa) as (T & E' & LT). rewrite E' in E. apply (f_equal (@length _)) in E.
    rewrite app_length in E. lia. }
  unfold max_input. change (2 ^ 48 * 16)%Z with (2 ^ 52)%Z. destruct (Z.ltb_spec (2 ^ 52) (Z.of_nat (length ct))); [lia|].
  rewrite (Z.mod_small (2 ^ 52 + _ - _)) by lia.
  destruct (Z.ltb_spec (2 ^ 52 + Z.of_nat tsz - Z.of_nat (length ct)) (Z.of_nat (length ad))); [lia|]. cbn [orb].
  set (sep := length ct - tsz).
  assert (Ls : length (firstn sep ct) = sep) by (rewrite firstn_length; lia).
  destruct (@crypt3_dec c nsz tsz HL Hs Ht n (firstn sep ct) ad On ltac:(lia) (bytes_ok_firstn sep Oc) Oa ltac:(lia) ltac:(lia)) as (P & t & E1 & LP & OP & E2).
  change (obj c nsz tsz) with (obj c nsz tsz) in E1. rewrite E1. cbn [rbind]. set (T := firstn tsz (put128 t)) in *.
  assert (LT : length T = tsz) by (unfold T; rewrite firstn_length; destruct (put_block t) as [-> _]; lia).
  assert (Lc : length (skipn sep ct) = tsz) by (rewrite skipn_length; lia).
  destruct (bytes_eqb T (skipn sep ct)) eqn:Eb.
  - apply bytes_eqb_eq in Eb. split; [discriminate|]. intro r. split.
    + intro HP. injection HP as <-. exists P. split; [reflexivity|]. split; [auto|]. rewrite E2, Eb. apply firstn_skipn.
    + intros (pt & -> & Op & E). do 2 f_equal. apply (@encrypt_inj c tsz HL Hs ltac:(lia) n ad P pt (firstn sep ct) T (skipn sep ct)); auto.
      rewrite E. symmetry. apply firstn_skipn.
  - split; [discriminate|]. intro r. split; [discriminate|]. intros (pt & _ & Op & E). exfalso.
    assert (Epp : P = pt).
    { apply (@encrypt_inj c tsz HL Hs ltac:(lia) n ad P pt (firstn sep ct) T (skipn sep ct)); auto. rewrite E. symmetry. apply firstn_skipn. }
    subst pt. rewrite E2 in E. rewrite <- (firstn_skipn sep ct) in E at 2. apply app_inv_head in E. apply bytes_eqb_neq in Eb. contradiction.
Qed.
Print Assumptions C16_ocb3_open.

(** The two OCB packages produce the same bytes. *)
Theorem C16_ocb_packages_agree : forall c nsz tsz st a n p ad, lawful c ->
  ocb_new c (Z.of_nat nsz) (Z.of_nat tsz) = Ok st -> ocb3_new c (Z.of_nat nsz) (Z.of_nat tsz) = Ok a ->
  bytes_ok n -> length n = nsz -> bytes_ok p -> bytes_ok ad -> (Z.of_nat (length p) + Z.of_nat (length ad) <= 2 ^ 52)%Z ->
  exists st' ct, ocb_seal false c nsz tsz st [] n p ad = Ok (st', ct) /\ ocb3_seal false c a [] n p ad = Ok ct.
Proof.
  intros c nsz tsz st a n p ad HL H1 H3 On Ln Op Oa Hlen.
  destruct (new3_obj H3) as (_ & Hn0 & _ & _).
  assert (P : exists st, ocb_new c (Z.of_nat nsz) (Z.of_nat tsz) = Ok st) by eauto. apply C16_params in P as (Hs & Hn & Ht).
  destruct (@C16_ocb_history c nsz tsz st [ASeal [] n p ad] HL H1) as (rs & E & F).
  { repeat constructor; auto; lia. }
  cbn [ocb_run] in E. destruct (ocb_seal false c nsz tsz st [] n p ad) as [[st' r]| |]; [|discriminate|discriminate]. cbn in E. injection E as <-.
  inversion F as [|? ? ? ? A _]; subst. cbn in A. injection A as ->. eexists _, _. split; [reflexivity|].
  now rewrite (@C16_ocb3_seal c (length n) tsz a [] n p ad HL H3 ltac:(lia) On eq_refl Op Oa Hlen).
Qed.
Print Assumptions C16_ocb_packages_agree.

(** Overhead() counts the nonce, which Seal does not add. *)
Theorem C16_ocb3_overhead_refuted : forall c nsz tsz a d n p ad ct, lawful c -> ocb3_new c (Z.of_nat nsz) (Z.of_nat tsz) = Ok a -> nsz < 16 ->
  bytes_ok n -> length n = nsz -> bytes_ok p -> bytes_ok ad -> (Z.of_nat (length p) + Z.of_nat (length ad) <= 2 ^ 52)%Z ->
  ocb3_seal false c a d n p ad = Ok ct -> length ct - length d - length p <> ocb3_overhead a.
Proof.
  intros c nsz tsz a d n p ad ct HL Hnew Hn On Ln Op Oa Hlen H. rewrite (@C16_ocb3_seal c nsz tsz a d n p ad) in H by auto. injection H as <-.
  destruct (new3_obj Hnew) as (Hs & Hn0 & Ht & ->).
  destruct (@encrypt_body c tsz HL Hs ltac:(lia) n ad p Op Oa) as (T & E' & LT). rewrite E', !app_length.
  rewrite (@body_length c tsz HL Hs ltac:(lia) n p Op). unfold ocb3_overhead. cbn [a_nsz a_tsz obj]. lia.
Qed.
Print Assumptions C16_ocb3_overhead_refuted.

(** A nonce size of 16 or more is accepted by the constructor; every call then panics. *)
Theorem C16_ocb3_nonce16_refuted : forall c nsz tsz a d n x ad, ocb3_new c (Z.of_nat nsz) (Z.of_nat tsz) = Ok a -> 16 <= nsz -> length n = nsz ->
  ocb3_seal false c a d n x ad = Panic /\ (tsz <= length x -> ocb3_open c a d n x ad = Panic).
Proof.
  intros c nsz tsz a d n x ad Hnew Hn Ln. destruct (new3_obj Hnew) as (Hs & Hn0 & Ht & ->).
  assert (E : forall e i y, ocb3_crypt e i c (obj c nsz tsz) n y ad = Panic).
  { intros e i y. unfold ocb3_crypt, ocb3_init. destruct (Nat.leb_spec 16 (length n)); [reflexivity|lia]. }
  unfold ocb3_seal, ocb3_open. cbn [a_nsz a_tsz obj]. rewrite Ln, Nat.eqb_refl. cbn [negb]. destruct (Nat.ltb_spec tsz 12); [lia|]. rewrite !E. cbn [rbind].
  split; [now destruct (_ || _)%bool|]. intro Hx. destruct (Nat.ltb_spec (length x) tsz); [lia|]. now destruct (_ || _)%bool.
Qed.
Print Assumptions C16_ocb3_nonce16_refuted.

(** Sealing a message with a partial last block in place (dst = plaintext[:0]) reads the last block
    again after it was overwritten: the result does not open. *)
Theorem C16_ocb3_seal_in_place_refuted :
  exists c a n p ct, lawful c /\ ocb3_new c 12 16 = Ok a /\ ocb3_seal true c a [] n p [] = Ok ct /\ ocb3_open c a [] n ct [] = Err.
Proof.
  exists (toyn 16). destruct (ocb3_new (toyn 16) 12 16) as [a| |] eqn:E; [|discriminate|discriminate].
  exists a, (map Z.of_nat (seq 1 12)), (repeat 7%Z 20).
  destruct (ocb3_seal true (toyn 16) a [] (map Z.of_nat (seq 1 12)) (repeat 7%Z 20) []) as [ct| |] eqn:E2.
  - exists ct. split; [apply toyn_lawful; lia|]. split; [reflexivity|]. split; [reflexivity|].
    vm_compute in E. injection E as <-. vm_compute in E2. injection E2 as <-. vm_compute. reflexivity.
  - exfalso. vm_compute in E. injection E as <-. vm_compute in E2. discriminate.
  - exfalso. vm_compute in E. injection E as <-. vm_compute in E2. discriminate.
Qed.
Print Assumptions C16_ocb3_seal_in_place_refuted.

(** When the tag is wrong, Open clears only the partial block: the memory behind dst still holds
    every whole block of the plaintext. *)
Theorem C16_ocb3_failed_open_leaks_refuted : forall c nsz tsz a n p ad body tag bad, lawful c ->
  ocb3_new c (Z.of_nat nsz) (Z.of_nat tsz) = Ok a -> nsz < 16 ->
  bytes_ok n -> length n = nsz -> bytes_ok p -> bytes_ok ad -> (Z.of_nat (length p) + Z.of_nat (length ad) + 16 <= 2 ^ 52)%Z ->
  ocb_encrypt (enc c) tsz n ad p = body ++ tag -> length tag = tsz -> bytes_ok bad -> length bad = tsz -> bad <> tag ->
  ocb3_open c a [] n (body ++ bad) ad = Err /\
  exists m, ocb3_open_leaves c a n (body ++ bad) ad = Ok m /\ firstn (16 * (length p / 16)) m = firstn (16 * (length p / 16)) p.
Proof.
  intros c nsz tsz a n p ad body tag bad HL Hnew Hn On Ln Op Oa Hlen Ee Lt Ob Lb Hne.
  destruct (new3_obj Hnew) as (Hs & Hn0 & Ht & Ea).
  assert (Lbody : length body = length p /\ bytes_ok body).
  { destruct (@encrypt_body c tsz HL Hs ltac:(lia) n ad p Op Oa) as (T & E' & LT). rewrite E' in Ee. pose proof (@body_length c tsz HL Hs ltac:(lia) n p Op) as BL.
    assert (Eb : length (OcbProofs.body c tsz n p) = length body) by (apply (f_equal (@length _)) in Ee; rewrite !app_length in Ee; lia).
    apply (f_equal (firstn (length body))) in Ee. rewrite !firstn_app_exact in Ee by auto. subst body. split; [exact BL|]. now apply (@body_ok c tsz HL Hs ltac:(lia)). }
  destruct Lbody as [Lbody Obody].
  destruct (@C16_ocb3_open c nsz tsz a [] n (body ++ bad) ad HL Hnew Hn On Ln) as [NP OI]; auto.
  { apply bytes_ok_app; auto. } { rewrite app_length. lia. }
  split.
  { destruct (ocb3_open c a [] n (body ++ bad) ad) as [r| |] eqn:Eo; [|reflexivity|congruence]. exfalso.
    destruct (proj1 (OI r) eq_refl) as (pt & _ & Opt & Ept).
    assert (p = pt) by (apply (@encrypt_inj c tsz HL Hs ltac:(lia) n ad p pt body tag bad); auto). subst pt.
    rewrite Ee in Ept. apply app_inv_head in Ept. congruence. }
  unfold ocb3_open_leaves. subst a. cbn [a_tsz obj]. rewrite app_length, Lb, Nat.add_sub, firstn_app_exact, skipn_app_exact by reflexivity.
  destruct (@crypt3_dec c nsz tsz HL Hs Ht n body ad On ltac:(lia) Obody Oa ltac:(lia) ltac:(lia)) as (P & t & E1 & LP & OP & E2).
  rewrite E1. cbn [rbind].
  assert (LT : length (firstn tsz (put128 t)) = tsz) by (rewrite firstn_length; destruct (put_block t) as [-> _]; lia).
  assert (P = p) by (apply (@encrypt_inj c tsz HL Hs ltac:(lia) n ad P p body (firstn tsz (put128 t)) tag); auto). subst P.
  assert (Et : firstn tsz (put128 t) = tag) by (rewrite Ee in E2; apply app_inv_head in E2; auto). rewrite Et.
  destruct (bytes_eqb tag bad) eqn:Eb; [apply bytes_eqb_eq in Eb; congruence|]. eexists. split; [reflexivity|].
  rewrite Lbody. pose proof (Nat.mul_div_le (length p) 16 ltac:(lia)). apply firstn_app_exact. rewrite firstn_length. lia.
Qed.
Print Assumptions C16_ocb3_failed_open_leaks_refuted.

Example C16_ocb3_instance : lawful (toyn 16) /\
  let n := [1; 2; 3; 4; 5; 6; 7; 8; 9; 10; 11; 200]%Z in let p := map Z.of_nat (seq 0 75) in let ad := map Z.of_nat (seq 100 50) in
  exists a ct, ocb3_new (toyn 16) 12 13 = Ok a /\ ocb3_seal false (toyn 16) a [] n p ad = Ok ct /\
    ocb3_open (toyn 16) a [9]%Z n ct ad = Ok (9%Z :: p) /\ ocb3_open (toyn 16) a [9]%Z n ct [] = Err.
Proof.
  split; [apply toyn_lawful; lia|]. intros n p ad. destruct (ocb3_new (toyn 16) 12 13) as [a| |] eqn:E; [|discriminate|discriminate].
  exists a, (ocb_encrypt (enc (toyn 16)) 13 n ad p). split; [reflexivity|]. vm_compute in E. injection E as <-. repeat split; vm_compute; reflexivity.
Qed.
