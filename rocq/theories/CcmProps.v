(** C14: CCM (mode/ccm/ccm.go). *)
From Verif Require Import Base BlockModeModel StreamSpec StreamProofs AeadSpec CcmModel CcmSpec CcmProofs.
Set Implicit Arguments. Unset Strict Implicit.

Definition ccm_params (nsz tsz : nat) : Prop := 7 <= nsz <= 13 /\ 4 <= tsz <= 16 /\ Nat.even tsz = true.
Definition ccm_ok (nsz tsz : nat) (nonce pt ad : bytes) : Prop :=
  isblock nsz nonce /\ bytes_ok pt /\ bytes_ok ad /\ (Z.of_nat (length pt) <= ccm_maxlen nsz tsz)%Z.
Definition ccm_ct_ok (nsz : nat) (nonce ct ad : bytes) : Prop := isblock nsz nonce /\ bytes_ok ct /\ bytes_ok ad.

(** The constructor accepts exactly the RFC's parameters. *)
Theorem C14_params : forall c nsz tsz, (0 <= nsz)%Z -> (0 <= tsz)%Z ->
  (forall p, ccm_new c nsz tsz = Ok p -> p = (Z.to_nat nsz, Z.to_nat tsz) /\ bsz c = 16 /\ ccm_params (fst p) (snd p)) /\
  (bsz c = 16 -> ccm_params (Z.to_nat nsz) (Z.to_nat tsz) -> ccm_new c nsz tsz = Ok (Z.to_nat nsz, Z.to_nat tsz)).
Proof.
  intros c nsz tsz H1 H2. unfold ccm_new, ccm_params.
  assert (Ev : (Z.land tsz 1 =? 0)%Z = Nat.even (Z.to_nat tsz)).
  { rewrite <- (Z2Nat.id tsz) at 1 by auto. generalize (Z.to_nat tsz). intro n.
    change 1%Z with (Z.ones 1). rewrite Z.land_ones by lia. change (2 ^ 1)%Z with 2%Z.
    destruct (Nat.even n) eqn:E.
    - apply Nat.even_spec in E as [k ->]. rewrite Nat2Z.inj_mul, Z.mul_comm, Z_mod_mult. reflexivity.
    - assert (O : Nat.odd n = true) by (unfold Nat.odd; rewrite E; reflexivity). apply Nat.odd_spec in O as [k ->].
      replace (Z.of_nat (2 * k + 1)) with (1 + Z.of_nat k * 2)%Z by lia. rewrite Z_mod_plus_full. reflexivity. }
  split.
  - intros p. destruct ((tsz <? 4) || (16 <? tsz) || negb (Z.land tsz 1 =? 0))%Z eqn:E1; [discriminate|]. destruct (nsz <=? 0)%Z eqn:E2; [discriminate|].
    destruct ((15 - nsz <? 2) || (8 <? 15 - nsz))%Z eqn:E3; [discriminate|]. destruct (Nat.eqb_spec (bsz c) 16) as [Hb|Hb]; cbn [negb]; intro Hp.
    2:discriminate Hp. injection Hp as <-.
    apply orb_false_iff in E1 as [E1 E1c]. apply orb_false_iff in E1 as [E1 E1b]. apply orb_false_iff in E3 as [E3 E3b].
    cbn [fst snd]. rewrite Ev in E1c. apply negb_false_iff in E1c. repeat split; auto; lia.
  - intros Hb (P1 & P2 & P3). rewrite Ev, P3. cbn [negb]. rewrite orb_false_r.
    destruct (Z.ltb_spec tsz 4); [lia|]. destruct (Z.ltb_spec 16 tsz); [lia|]. cbn [orb].
    destruct (Z.leb_spec nsz 0); [lia|]. destruct (Z.ltb_spec (15 - nsz) 2); [lia|].
    destruct (Z.ltb_spec 8 (15 - nsz)); [lia|]. cbn [orb]. rewrite Hb. reflexivity.
Qed.
Print Assumptions C14_params.

(** The length limit is that of the format (and of a Go slice). *)
Theorem C14_maxlen : forall nsz tsz, ccm_params nsz tsz ->
  ccm_maxlen nsz tsz = Z.min (256 ^ Z.of_nat (15 - nsz) - 1) (2 ^ 63 - 1 - Z.of_nat tsz).
Proof.
  intros nsz tsz (Hn & Ht & _). unfold ccm_maxlen.
  assert (Hc : nsz = 7 \/ nsz = 8 \/ nsz = 9 \/ nsz = 10 \/ nsz = 11 \/ nsz = 12 \/ nsz = 13) by lia.
  repeat destruct Hc as [->|Hc]; try subst nsz; cbn [Nat.sub];
    repeat match goal with |- context [Z.of_nat (S ?k)] => let v := eval vm_compute in (Z.of_nat (S k)) in change (Z.of_nat (S k)) with v end;
    repeat match goal with |- context [((Z.shiftl 1 ?k mod 2 ^ 64 - 1) mod 2 ^ 64)%Z] =>
      let v := eval vm_compute in ((Z.shiftl 1 k mod 2 ^ 64 - 1) mod 2 ^ 64)%Z in
      change ((Z.shiftl 1 k mod 2 ^ 64 - 1) mod 2 ^ 64)%Z with v end;
    repeat match goal with |- context [Z.ltb ?a ?b] => destruct (Z.ltb_spec a b) end; cbn [orb]; try lia.
Qed.
Print Assumptions C14_maxlen.

(** Seal appends the RFC 3610 ciphertext. *)
Theorem C14_seal_computes : forall c nsz tsz dst nonce pt ad, lawful c -> bsz c = 16 -> ccm_params nsz tsz ->
  ccm_ok nsz tsz nonce pt ad ->
  ccm_seal c nsz tsz false dst nonce pt ad = Ok (dst ++ rfc_seal (enc c) tsz (15 - nsz) nonce ad pt).
Proof. intros c nsz tsz dst nonce pt ad HL Hs (P1 & P2 & P3) (O1 & O2 & O3 & O4). apply seal_spec; auto. Qed.
Print Assumptions C14_seal_computes.

Section open.
  Variable c : cipher.
  Variables nsz tsz : nat.
  Hypothesis HL : lawful c.
  Hypothesis Hs : bsz c = 16.
  Hypothesis HP : ccm_params nsz tsz.

  (** What Open does on body ++ tag. *)
  Lemma open_split dst nonce body tag ad : isblock nsz nonce -> length tag = tsz ->
    (Z.of_nat (length body) <= ccm_maxlen nsz tsz)%Z ->
    ccm_open c nsz tsz dst nonce (body ++ tag) ad =
    let pt := go_ctr c (set_low (ccm_counter nsz nonce)) body in
    if bytes_eqb (ccm_auth c nsz tsz nonce pt ad (enc c (ccm_counter nsz nonce))) tag then Ok (dst ++ pt) else Err.
  Proof.
    intros [Hn _] Ht Hm. destruct HP as (P1 & P2 & P3). unfold ccm_open. rewrite Hn, Nat.eqb_refl. cbn [negb].
    destruct (Nat.ltb_spec tsz 4); [lia|]. rewrite app_length, Ht.
    destruct (Nat.ltb_spec (length body + tsz) tsz); [lia|].
    destruct (Z.ltb_spec (ccm_maxlen nsz tsz + Z.of_nat tsz) (Z.of_nat (length body + tsz))); [lia|].
    replace (length body + tsz - tsz) with (length body) by lia.
    rewrite firstn_app_exact, skipn_app_exact by reflexivity. reflexivity.
  Qed.
  Lemma seal_eq dst nonce pt ad : ccm_ok nsz tsz nonce pt ad ->
    exists tag, length tag = tsz /\ tag = ccm_auth c nsz tsz nonce pt ad (enc c (ccm_counter nsz nonce)) /\
    ccm_seal c nsz tsz false dst nonce pt ad = Ok (dst ++ go_ctr c (set_low (ccm_counter nsz nonce)) pt ++ tag).
  Proof.
    intros (O1 & O2 & O3 & O4). destruct HP as (P1 & P2 & P3). eexists. split; [|split; [reflexivity|]].
    - apply (auth_spec Hs HL P1 P2 P3); auto. apply enc_block; auto. apply (counter_block Hs P1 P2 P3); auto.
    - unfold ccm_seal. destruct O1 as [O1 _]. rewrite O1, Nat.eqb_refl. cbn [negb].
      destruct (Z.ltb_spec (ccm_maxlen nsz tsz) (Z.of_nat (length pt))); [lia|]. reflexivity.
  Qed.
End open.

Theorem C14_opens_what_it_seals : forall c nsz tsz, lawful c -> bsz c = 16 -> ccm_params nsz tsz ->
  opens_what_it_seals (ccm_seal c nsz tsz false) (ccm_open c nsz tsz) (ccm_ok nsz tsz) tsz.
Proof.
  intros c nsz tsz HL Hs HP nonce pt ad dst dst' Hok.
  destruct (seal_eq HL Hs HP dst Hok) as (tag & Lt & Et & Es). rewrite Es. eexists. split; [reflexivity|].
  split; [rewrite app_length, go_ctr_length by auto; lia|].
  destruct Hok as (O1 & O2 & O3 & O4).
  rewrite open_split by (auto; rewrite go_ctr_length; auto). cbv zeta. rewrite go_ctr_inv by auto.
  rewrite Et, bytes_eqb_refl. reflexivity.
Qed.
Print Assumptions C14_opens_what_it_seals.

Theorem C14_opens_only_sealed : forall c nsz tsz, lawful c -> bsz c = 16 -> ccm_params nsz tsz ->
  opens_only_sealed (ccm_seal c nsz tsz false) (ccm_open c nsz tsz) (ccm_ct_ok nsz).
Proof.
  intros c nsz tsz HL Hs HP nonce ct ad dst r (O1 & O2 & O3) E.
  destruct (Nat.ltb_spec (length ct) tsz) as [Hlt|Hge].
  { exfalso. unfold ccm_open in E. destruct (negb _); [discriminate|]. destruct (tsz <? 4); [discriminate|].
    destruct (Nat.ltb_spec (length ct) tsz); [discriminate|lia]. }
  set (body := firstn (length ct - tsz) ct). set (tag := skipn (length ct - tsz) ct).
  assert (Ec : ct = body ++ tag) by (symmetry; apply firstn_skipn).
  assert (Lt : length tag = tsz) by (unfold tag; rewrite skipn_length; lia).
  assert (Hm : (Z.of_nat (length body) <= ccm_maxlen nsz tsz)%Z).
  { assert (length ct = length body + tsz) by (rewrite Ec, app_length; lia).
    unfold ccm_open in E. destruct (negb _); [discriminate|]. destruct (tsz <? 4); [discriminate|].
    destruct (length ct <? tsz); [discriminate|].
    destruct (Z.ltb_spec (ccm_maxlen nsz tsz + Z.of_nat tsz) (Z.of_nat (length ct))); [discriminate|lia]. }
  rewrite Ec in E. rewrite open_split in E by auto. cbv zeta in E.
  destruct (bytes_eqb _ tag) eqn:Eb; [|discriminate]. apply bytes_eqb_eq in Eb. injection E as <-.
  eexists. split; [reflexivity|].
  assert (Hok : ccm_ok nsz tsz nonce (go_ctr c (set_low (ccm_counter nsz nonce)) body) ad).
  { split; [auto|]. split; [apply go_ctr_ok; auto; now apply bytes_ok_firstn|]. split; [auto|].
    rewrite go_ctr_length by auto. exact Hm. }
  destruct (seal_eq HL Hs HP [] Hok) as (tag' & _ & Et & Es). rewrite Es, go_ctr_inv by auto.
  rewrite Et, Eb. cbn [app]. now rewrite <- Ec.
Qed.
Print Assumptions C14_opens_only_sealed.

(** Misuse: a wrong nonce length panics, an over-long text panics, an over-long or
    under-long ciphertext is an error. *)
Theorem C14_guards : forall c nsz tsz ip dst nonce x ad, ccm_params nsz tsz ->
  (length nonce <> nsz -> ccm_seal c nsz tsz ip dst nonce x ad = Panic /\ ccm_open c nsz tsz dst nonce x ad = Panic) /\
  (length nonce = nsz ->
   ((ccm_maxlen nsz tsz < Z.of_nat (length x))%Z -> ccm_seal c nsz tsz ip dst nonce x ad = Panic) /\
   (length x < tsz \/ (ccm_maxlen nsz tsz + Z.of_nat tsz < Z.of_nat (length x))%Z ->
    ccm_open c nsz tsz dst nonce x ad = Err)).
Proof.
  intros c nsz tsz ip dst nonce x ad (P1 & P2 & _). unfold ccm_seal, ccm_open. split; intro H.
  - destruct (Nat.eqb_spec (length nonce) nsz); [lia|]. auto.
  - rewrite H, Nat.eqb_refl. cbn [negb]. split; intro H'.
    + destruct (Z.ltb_spec (ccm_maxlen nsz tsz) (Z.of_nat (length x))); [reflexivity|lia].
    + destruct (Nat.ltb_spec tsz 4); [lia|]. destruct (Nat.ltb_spec (length x) tsz); [reflexivity|].
      destruct (Z.ltb_spec (ccm_maxlen nsz tsz + Z.of_nat tsz) (Z.of_nat (length x))); [reflexivity|lia].
Qed.
Print Assumptions C14_guards.

(** Sealing in place (dst = plaintext[:0], allowed by cipher.AEAD) authenticates the
    ciphertext instead of the plaintext: Open accepts the result only if the two happen
    to have the same tag. *)
Theorem C14_inplace_refuted : forall c nsz tsz dst nonce pt ad, lawful c -> bsz c = 16 -> ccm_params nsz tsz ->
  ccm_ok nsz tsz nonce pt ad ->
  exists ct r, ccm_seal c nsz tsz true dst nonce pt ad = Ok (dst ++ r) /\
    ct = firstn (length pt) (rfc_seal (enc c) tsz (15 - nsz) nonce ad pt) /\
    (rfc_T (enc c) tsz (15 - nsz) nonce ad ct <> rfc_T (enc c) tsz (15 - nsz) nonce ad pt ->
     forall dst', ccm_open c nsz tsz dst' nonce r ad = Err).
Proof.
  intros c nsz tsz dst nonce pt ad HL Hs HP Hok. pose proof Hok as (O1 & O2 & O3 & O4). pose proof HP as (P1 & P2 & P3).
  set (ct := go_ctr c (set_low (ccm_counter nsz nonce)) pt).
  set (mask := enc c (ccm_counter nsz nonce)).
  assert (Lc : length ct = length pt) by (apply go_ctr_length; auto).
  assert (Hmask : isblock 16 mask) by (apply enc_block; auto; apply (counter_block Hs P1 P2 P3); auto).
  assert (Hck : bytes_ok ct) by (apply go_ctr_ok; auto).
  destruct (auth_spec Hs HL P1 P2 P3 O1 Hck O3 Hmask) as [E1 L1].
  destruct (auth_spec Hs HL P1 P2 P3 O1 O2 O3 Hmask) as [E2 L2].
  exists ct, (ct ++ ccm_auth c nsz tsz nonce ct ad mask). split; [|split].
  - unfold ccm_seal. pose proof O1 as [On _]. rewrite On, Nat.eqb_refl. cbn [negb].
    destruct (Z.ltb_spec (ccm_maxlen nsz tsz) (Z.of_nat (length pt))); [lia|]. reflexivity.
  - unfold rfc_seal. rewrite <- (ctr_spec Hs P1 P2 P3 O1 O4). fold ct.
    rewrite firstn_app_exact by auto. reflexivity.
  - intros Hne dst'. rewrite open_split by (auto; lia). cbv zeta. unfold ct at 1. rewrite go_ctr_inv by auto. fold mask.
    destruct (bytes_eqb _ _) eqn:Eb; [|reflexivity]. exfalso. apply bytes_eqb_eq in Eb. apply Hne.
    assert (LT : forall m, bytes_ok m -> length (rfc_T (enc c) tsz (15 - nsz) nonce ad m) = length (firstn tsz mask)).
    { intros m Hm. destruct (auth_spec Hs HL P1 P2 P3 O1 Hm O3 Hmask) as [E3 L3]. rewrite E3, xorl_length in L3.
      assert (length (rfc_T (enc c) tsz (15 - nsz) nonce ad m) <= tsz) by (unfold rfc_T; rewrite firstn_length; lia).
      assert (length (firstn tsz mask) = tsz) by (rewrite firstn_length; destruct Hmask; lia). lia. }
    rewrite E1, E2 in Eb.
    rewrite <- (@xorl_cancel_r (rfc_T (enc c) tsz (15 - nsz) nonce ad ct) (firstn tsz mask)) by (rewrite LT; auto).
    rewrite <- Eb. apply xorl_cancel_r. rewrite LT; auto.
Qed.
Print Assumptions C14_inplace_refuted.

(** Non-vacuity, and a concrete in-place failure. *)
Definition ccm_nonce : bytes := map Z.of_nat (seq 16 12).
Example C14_instance : lawful (toyn 16) /\ ccm_params 12 16 /\
  ccm_ok 12 16 ccm_nonce (map Z.of_nat (seq 0 37)) [1; 2; 3]%Z /\
  (exists c, ccm_seal (toyn 16) 12 16 false [7]%Z ccm_nonce (map Z.of_nat (seq 0 37)) [1; 2; 3]%Z = Ok ([7]%Z ++ c) /\
     ccm_open (toyn 16) 12 16 [9]%Z ccm_nonce c [1; 2; 3]%Z = Ok ([9]%Z ++ map Z.of_nat (seq 0 37)) /\
     ccm_open (toyn 16) 12 16 [9]%Z ccm_nonce c [1; 2; 4]%Z = Err) /\
  (exists c, ccm_seal (toyn 16) 12 16 true [] ccm_nonce (map Z.of_nat (seq 0 37)) [1; 2; 3]%Z = Ok c /\
     ccm_open (toyn 16) 12 16 [] ccm_nonce c [1; 2; 3]%Z = Err).
Proof.
  split; [apply toyn_lawful; lia|]. split; [unfold ccm_params; repeat split; lia|]. split; [|split].
  - assert (B : forall a n, a + n <= 256 -> bytes_ok (map Z.of_nat (seq a n))).
    { intros a n H. apply Forall_forall. intros x Hx. apply in_map_iff in Hx as (y & <- & Hy). apply in_seq in Hy. unfold is_byte. lia. }
    split; [split; [reflexivity|apply B; lia]|]. split; [apply B; lia|].
    split; [repeat constructor; unfold is_byte; lia|]. vm_compute. discriminate.
  - eexists. split; [vm_compute; reflexivity|]. split; vm_compute; reflexivity.
  - eexists. split; [vm_compute; reflexivity|]. vm_compute. reflexivity.
Qed.
