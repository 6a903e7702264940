(** Theorems about the elliptic-curve signature schemes.  They hold for every curve whose group
    operations obey [lawful_curve], every digest of fixed size, every key, message and random source. *)
From Verif Require Import Base BigModel NumLib ModRw ElgProofs CurveModel CurveSpec ToyCurve EcSigModel EcSigSpec EcSigProofs EcSigProofs2.
Set Implicit Arguments. Unset Strict Implicit.
Local Open Scope Z_scope.

Lemma sig_bytes_back n1 n2 r s b : sig_bytes n1 n2 (r, s) = Ok b -> 0 <= r -> 0 <= s -> forall f, with_sig n1 n2 b f = f r s.
Proof.
  intros Eb Hr Hs f. revert Eb. unfold sig_bytes. cbn [fst snd]. destruct (fill_bytes n1 r) as [a| |] eqn:E1; try discriminate.
  destruct (fill_bytes n2 s) as [d| |] eqn:E2; try discriminate. cbn [rbind]. intros [= <-].
  apply fill_bytes_ok in E1 as (L1 & _ & V1); auto. apply fill_bytes_ok in E2 as (L2 & _ & V2); auto.
  unfold with_sig. rewrite app_length, L1, L2, Nat.eqb_refl, firstn_app_exact, skipn_app_exact by auto. now rewrite V1, V2.
Qed.
Lemma sig_bytes_fits n1 n2 r s : 0 <= r < 256 ^ Z.of_nat n1 -> 0 <= s < 256 ^ Z.of_nat n2 -> exists b, sig_bytes n1 n2 (r, s) = Ok b /\ length b = (n1 + n2)%nat.
Proof.
  intros Hr Hs. unfold sig_bytes. cbn [fst snd]. rewrite !fill_bytes_fits by auto. cbn [rbind]. eexists. split; [reflexivity|].
  now rewrite app_length, !be_bytes_length.
Qed.

(** ** C54 ECGDSA *)
(** Everything Sign returns, Verify accepts, also in the byte encoding, which never panics. *)
Theorem C54_sign_verify : forall c pt h key rd msg r s, lawful_curve c pt -> hasher_ok h -> inverted_key c pt key -> bytes_ok rd ->
  ecg_sign c h rd key msg = Ok (r, s) -> ecg_verify c h (ePub key) msg r s = Ok true.
Proof.
  intros c pt h key rd msg r s L Hh K Hrd H. apply (ecg_sign_pair L Hh Hrd) in H as (Hr & Hs & Hp).
  apply (ecg_verify_eq L Hh); [exact K|]. split; [lia|]. split; [lia|exact Hp].
Qed.
Print Assumptions C54_sign_verify.

Theorem C54_bytes : forall c pt h key rd msg, lawful_curve c pt -> hasher_ok h -> sized c -> inverted_key c pt key -> bytes_ok rd ->
  ecg_sign_bytes c h rd key msg <> Panic /\
  (forall sig, ecg_sign_bytes c h rd key msg = Ok sig -> length sig = (2 * byteceil (cBits c))%nat /\ ecg_verify_bytes c h (ePub key) msg sig = Ok true).
Proof.
  intros c pt h key rd msg L Hh Sz K Hrd. unfold ecg_sign_bytes, ecg_verify_bytes.
  destruct (ecg_sign c h rd key msg) as [[r s]| |] eqn:E; cbn [rbind].
  - pose proof (C54_sign_verify L Hh K Hrd E) as HV. apply (ecg_sign_pair L Hh Hrd) in E as (Hr & Hs & _).
    destruct Sz as (_ & Hn & _). unfold flen.
    destruct (@sig_bytes_fits (byteceil (cBits c)) (byteceil (cBits c)) r s) as (b & Eb & Lb); [lia|lia|].
    rewrite Eb. split; [discriminate|]. intros sig [= <-]. split; [lia|]. rewrite (sig_bytes_back Eb) by lia. exact HV.
  - split; [discriminate|intros ?; discriminate].
  - exfalso. revert E. unfold ecg_sign. destruct (negb _); [discriminate|].
    apply (sign_loop_no_panic (P := @bytes_ok)); auto.
    + intros st Hst. unfold ecg_round. destruct (rand_field (cN c) st) as [[k rd']| |] eqn:Ek; cbn [rbind]; try discriminate.
      * destruct (_ =? 0); [discriminate|]. destruct (_ =? 0); discriminate.
      * exfalso. revert Ek. apply retry_no_panic. intros r. unfold read_full. destruct (_ <=? _)%nat; discriminate.
    + intros st st' Hst. unfold ecg_round. destruct (rand_field (cN c) st) as [[k rd']| |] eqn:Ek; cbn [rbind]; try discriminate.
      apply rand_field_ok in Ek as [_ Ek]; auto. destruct (_ =? 0); [intros [= <-]; exact Ek|]. destruct (_ =? 0); [intros [= <-]; exact Ek|discriminate].
Qed.
Print Assumptions C54_bytes.

(** Verify accepts exactly the pairs the signing equation yields for some nonce; e is the number
    formed by the leading bytes of the digest, as many as N has. *)
Theorem C54_accepts : forall c pt h key msg r s, lawful_curve c pt -> hasher_ok h -> inverted_key c pt key ->
  ecg_verify c h (ePub key) msg r s = Ok true <->
  0 < r /\ 0 < s /\ ecgdsa_pair (cN c) pt (eD key) (be_val (firstn (byteceil (bitlen (cN c))) (hsum h msg))) r s.
Proof. intros. now apply ecg_verify_eq. Qed.
Print Assumptions C54_accepts.

(** Defect: VerifyWithRS has no upper bound on r, and panics exactly when r is a multiple of N ... *)
Theorem C54_verify_total_refuted : forall c pt h key msg r s, lawful_curve c pt -> inverted_key c pt key -> 0 < r -> 0 < s ->
  (ecg_verify c h (ePub key) msg r s = Panic <-> r mod cN c = 0).
Proof. intros c pt h key msg r s L K Hr Hs. apply (ecg_verify_panics L); auto. exact (inverted_on L K). Qed.
Print Assumptions C54_verify_total_refuted.
(** ... so the byte string encoding r = N, s = 1 makes VerifyBytes panic under every key. *)
Theorem C54_verify_bytes_panics : forall c pt h key msg, lawful_curve c pt -> inverted_key c pt key ->
  cN c < 256 ^ Z.of_nat (byteceil (cBits c)) ->
  ecg_verify_bytes c h (ePub key) msg (be_bytes (byteceil (cBits c)) (cN c) ++ be_bytes (byteceil (cBits c)) 1) = Panic.
Proof.
  intros c pt h key msg L K Hn. pose proof (N_pos L). unfold ecg_verify_bytes.
  assert (E : sig_bytes (flen c) (flen c) (cN c, 1) = Ok (be_bytes (flen c) (cN c) ++ be_bytes (flen c) 1)).
  { unfold sig_bytes, flen. cbn [fst snd]. rewrite !fill_bytes_fits by lia. reflexivity. }
  fold (flen c). rewrite (sig_bytes_back E) by lia.
  apply (C54_verify_total_refuted h msg L K); [lia|lia|]. apply Z.mod_same. lia.
Qed.
Print Assumptions C54_verify_bytes_panics.
(** Defect: s has no upper bound either: with (r, s) every (r, s + jN) is accepted. *)
Theorem C54_s_range_refuted : forall c pt h key msg r s j, lawful_curve c pt -> hasher_ok h -> inverted_key c pt key -> 0 <= j ->
  ecg_verify c h (ePub key) msg r s = Ok true -> ecg_verify c h (ePub key) msg r (s + j * cN c) = Ok true.
Proof.
  intros c pt h key msg r s j L Hh K Hj H. apply (ecg_verify_eq L Hh _ _ _ K) in H as (Hr & Hs & k & Hk & E1 & E2). pose proof (N_pos L).
  apply (ecg_verify_eq L Hh _ _ _ K). split; [lia|]. split; [nia|]. exists k. split; [exact Hk|]. split; [exact E1|].
  rewrite Z.mod_add by lia. exact E2.
Qed.
Print Assumptions C54_s_range_refuted.



(** ** C55 EC-SDSA, EC-OSDSA, EC-FSDSA *)
(** Verify accepts exactly the pairs of the signing equation. *)
Theorem C55_sdsa_accepts : forall opt c pt h key msg r s, lawful_curve c pt -> hasher_ok h -> straight_key c pt key ->
  ecs_verify opt c h (ePub key) msg r s = Ok true <->
  r mod cN c <> 0 /\ 0 < s < cN c /\
  ecsdsa_pair (cN c) pt (eD key) (fun p => be_val (hsum h (point_os opt (byteceil (bitlen (cP c))) p ++ msg))) r s.
Proof. intros. now apply ecs_verify_eq. Qed.
Print Assumptions C55_sdsa_accepts.
Theorem C55_fsdsa_accepts : forall c pt h key msg r s, lawful_curve c pt -> hasher_ok h -> straight_key c pt key ->
  ecf_verify c h (ePub key) msg r s = Ok true <->
  0 < r /\ 0 < s < cN c /\
  ecfsdsa_pair (cN c) pt (eD key) (fun p => be_val (point_os false (byteceil (bitlen (cP c))) p))
    (fun p => be_val (hsum h (point_os false (byteceil (bitlen (cP c))) p ++ msg))) r s.
Proof. intros. now apply ecf_verify_eq. Qed.
Print Assumptions C55_fsdsa_accepts.

(** A signature made with the first nonce drawn is the one of the equation and is accepted. *)
Theorem C55_sdsa_sign_verify : forall opt c pt h key rd msg k rd', lawful_curve c pt -> hasher_ok h -> straight_key c pt key -> bytes_ok rd ->
  rand_field (cN c) rd = Ok (k, rd') ->
  let r := be_val (hsum h (point_os opt (byteceil (bitlen (cP c))) (pt k) ++ msg)) in
  let s := (k + r * eD key) mod cN c in
  r mod cN c <> 0 -> s <> 0 ->
  ecs_sign opt c h rd key msg = Ok (r, s) /\ ecs_verify opt c h (ePub key) msg r s = Ok true.
Proof.
  intros opt c pt h key rd msg k rd' L Hh K Hrd Hk r s Hr Hs.
  destruct (ecs_first L (h := h) (opt := opt) (msg := msg) K Hk Hrd Hr Hs) as (r0 & s0 & E & Er & Es & Hk0). unfold ecs_hp in Er. fold (plen c) in *.
  assert (r0 = r) by exact Er. subst r0. assert (s0 = s) by exact Es. subst s0. split; [exact E|].
  apply (ecs_verify_eq L Hh _ _ _ _ K). pose proof (modN L (k + r * eD key)) as B. split; [exact Hr|]. split; [unfold s in *; lia|].
  exists k. split; [lia|]. split; reflexivity.
Qed.
Print Assumptions C55_sdsa_sign_verify.
Theorem C55_fsdsa_sign_verify : forall c pt h key rd msg k rd', lawful_curve c pt -> hasher_ok h -> straight_key c pt key -> bytes_ok rd ->
  rand_field (cN c) rd = Ok (k, rd') ->
  let os := point_os false (byteceil (bitlen (cP c))) (pt k) in
  let s := (k + be_val (hsum h (os ++ msg)) * eD key) mod cN c in
  s <> 0 ->
  ecf_sign c h rd key msg = Ok (be_val os, s) /\ ecf_verify c h (ePub key) msg (be_val os) s = Ok true.
Proof.
  intros c pt h key rd msg k rd' L Hh K Hrd Hk os s Hs.
  destruct (ecf_first L (h := h) (msg := msg) K Hk Hrd Hs) as (r0 & s0 & E & Er & Es & Hk0).
  assert (r0 = be_val os) by exact Er. subst r0. assert (s0 = s) by exact Es. subst s0. split; [exact E|].
  apply (ecf_verify_eq L h _ _ _ K). pose proof (modN L (k + be_val (hsum h (os ++ msg)) * eD key)) as B.
  pose proof (ecf_os_bound c (pt k)) as B2. assert (B3 : ecf_os c (pt k) <> 0) by (apply (ecf_os_zero L); rewrite Z.mod_small; lia).
  change (ecf_os c (pt k)) with (be_val os) in *.
  split; [lia|]. split; [unfold s in *; lia|]. exists k. split; [lia|]. split; reflexivity.
Qed.
Print Assumptions C55_fsdsa_sign_verify.

(** Defect: on a retry the hash object is written to again without Reset, so the signature of a
    later round covers other bytes than Verify hashes.  A one-byte digest of the length shows it. *)
Definition len_hash (b : Z) : hasher := Hasher 1 4 (fun m => [(b + Z.of_nat (length m)) mod 256]).
Lemma len_hash_ok b : hasher_ok (len_hash b).
Proof. intros m. split; [reflexivity|]. repeat constructor; apply Z.mod_pos_bound; lia. Qed.
Theorem C55_retry_refuted :
  (exists c pt h key rd msg r s, lawful_curve c pt /\ hasher_ok h /\ straight_key c pt key /\ bytes_ok rd /\
     ecs_sign false c h rd key msg = Ok (r, s) /\ ecs_verify false c h (ePub key) msg r s = Ok false) /\
  (exists c pt h key rd msg r s, lawful_curve c pt /\ hasher_ok h /\ straight_key c pt key /\ bytes_ok rd /\
     ecs_sign true c h rd key msg = Ok (r, s) /\ ecs_verify true c h (ePub key) msg r s = Ok false) /\
  (exists c pt h key rd msg r s, lawful_curve c pt /\ hasher_ok h /\ straight_key c pt key /\ bytes_ok rd /\
     ecf_sign c h rd key msg = Ok (r, s) /\ ecf_verify c h (ePub key) msg r s = Ok false).
Proof.
  assert (K : straight_key toy toy_pt (make_key Straight toy 7)) by (split; [cbn; unfold toyN; lia|vm_compute; reflexivity]).
  split; [|split].
  - exists toy, toy_pt, (len_hash 29), (make_key Straight toy 7), [8; 16], [], 33, 16.
    split; [exact toy_lawful|]. split; [apply len_hash_ok|]. split; [exact K|]. split; [repeat constructor; lia|]. split; vm_compute; reflexivity.
  - exists toy, toy_pt, (len_hash 30), (make_key Straight toy 7), [8; 16], [], 32, 9.
    split; [exact toy_lawful|]. split; [apply len_hash_ok|]. split; [exact K|]. split; [repeat constructor; lia|]. split; vm_compute; reflexivity.
  - exists toy, toy_pt, (len_hash 3), (make_key Straight toy 7), [216; 24], [], 8981, 21.
    split; [exact toy_lawful|]. split; [apply len_hash_ok|]. split; [exact K|]. split; [repeat constructor; lia|]. split; vm_compute; reflexivity.
Qed.
Print Assumptions C55_retry_refuted.
Example C55_instance : straight_key toy toy_pt (make_key Straight toy 7) /\
  (exists r s, ecs_sign false toy toy_hash [16] (make_key Straight toy 7) [1; 2] = Ok (r, s) /\ ecs_verify false toy toy_hash (7, 7) [1; 2] r s = Ok false /\
     ecs_verify false toy toy_hash (ePub (make_key Straight toy 7)) [1; 2] r s = Ok true /\ ecs_verify false toy toy_hash (ePub (make_key Straight toy 7)) [1; 3] r s = Ok false) /\
  (exists r s, ecf_sign toy toy_hash [16] (make_key Straight toy 7) [1; 2] = Ok (r, s) /\
     ecf_verify toy toy_hash (ePub (make_key Straight toy 7)) [1; 2] r s = Ok true /\ ecf_verify toy toy_hash (ePub (make_key Straight toy 7)) [1; 3] r s = Ok false).
Proof.
  split; [split; [cbn; unfold toyN; lia|vm_compute; reflexivity]|].
  split; eexists; eexists; (split; [vm_compute; reflexivity|]); repeat split; vm_compute; reflexivity.
Qed.

(** Defect: Verify writes r into a buffer of fixed size, so it panics exactly on too large an r. *)
Theorem C55_verify_total_refuted : forall c pt h key msg r s, lawful_curve c pt -> straight_key c pt key ->
  (forall opt, ecs_verify opt c h (ePub key) msg r s = Panic <-> 256 ^ Z.of_nat (hsize h) <= r /\ r mod cN c <> 0 /\ 0 < s < cN c) /\
  (ecf_verify c h (ePub key) msg r s = Panic <-> 256 ^ Z.of_nat (2 * byteceil (bitlen (cP c))) <= r /\ 0 < s < cN c).
Proof. intros c pt h key msg r s L K. split; [intros opt; now apply (ecs_verify_panics L)|now apply (ecf_verify_panics L)]. Qed.
Print Assumptions C55_verify_total_refuted.
(** The byte encodings bound r by their width, so VerifyBytes never panics. *)
Theorem C55_verify_bytes_total : forall c pt h key msg sig, lawful_curve c pt -> straight_key c pt key -> bytes_ok sig ->
  (forall opt, ecs_verify_bytes opt c h (ePub key) msg sig <> Panic) /\ ecf_verify_bytes c h (ePub key) msg sig <> Panic.
Proof.
  intros c pt h key msg sig L K Hs. split; [intros opt|]; unfold ecs_verify_bytes, ecf_verify_bytes, with_sig;
    [destruct (Nat.eqb_spec (length sig) (hsize h + flen c)) as [E|E]|destruct (Nat.eqb_spec (length sig) (2 * plen c + flen c)) as [E|E]]; try discriminate.
  - rewrite (ecs_verify_panics L) by auto. intros (H & _). pose proof (be_val_bound (bytes_ok_firstn (hsize h) Hs)) as B.
    rewrite firstn_length_le in B by lia. lia.
  - rewrite (ecf_verify_panics L) by auto. intros (H & _). pose proof (be_val_bound (bytes_ok_firstn (2 * plen c) Hs)) as B.
    rewrite firstn_length_le in B by lia. lia.
Qed.
Print Assumptions C55_verify_bytes_total.

(** ** C56 EC-KCDSA *)
Theorem C56_sign_verify : forall c pt h key rd msg r s, lawful_curve c pt -> hasher_ok h -> sized c -> inverted_key c pt key -> bytes_ok rd ->
  eck_sign c h rd key msg = Ok (r, s) -> eck_verify c h (ePub key) msg r s = Ok (negb (r =? 0)).
Proof.
  intros c pt h key rd msg r s L Hh Sz K Hrd H. apply (eck_sign_pair L Hh Sz K Hrd) in H as (Hr & Hs & Hp).
  destruct (Z.eqb_spec r 0) as [E|E]; cbn [negb].
  - subst. unfold eck_verify. rewrite (inverted_on L K). reflexivity.
  - apply (eck_verify_eq L Hh Sz); [exact K|]. split; [lia|]. split; [lia|exact Hp].
Qed.
Print Assumptions C56_sign_verify.
Theorem C56_accepts : forall c pt h key msg r s, lawful_curve c pt -> hasher_ok h -> sized c -> inverted_key c pt key ->
  let low m := be_val (skipn (hsize h - byteceil (bitlen (cN c))) (hsum h m)) in
  let fe x := be_bytes (byteceil (cBits c)) x in
  eck_verify c h (ePub key) msg r s = Ok true <->
  0 < r /\ 0 < s /\ eckcdsa_pair (cN c) pt (eD key) (fun x => low (fe x))
    (low (firstn (hblock h) (fe (fst (ePub key)) ++ fe (snd (ePub key)) ++ repeat 0 (hblock h)) ++ msg)) r s.
Proof. intros. now apply (eck_verify_eq H). Qed.
Print Assumptions C56_accepts.
Theorem C56_bytes : forall c pt h key rd msg, lawful_curve c pt -> hasher_ok h -> sized c -> inverted_key c pt key -> bytes_ok rd ->
  (forall sig, eck_sign_bytes c h rd key msg = Ok sig ->
     eck_verify_bytes c h (ePub key) msg sig = Ok (negb (be_val (firstn (Nat.min (hsize h) (byteceil (cBits c))) sig) =? 0))).
Proof.
  intros c pt h key rd msg L Hh Sz K Hrd sig. unfold eck_sign_bytes, eck_verify_bytes.
  destruct (eck_sign c h rd key msg) as [[r s]| |] eqn:E; try discriminate. cbn [rbind]. intros Eb.
  pose proof (C56_sign_verify L Hh Sz K Hrd E) as HV. apply (eck_sign_pair L Hh Sz K Hrd) in E as (Hr & Hs & _).
  rewrite (sig_bytes_back Eb) by lia. rewrite HV. do 3 f_equal.
  unfold sig_bytes in Eb. cbn [fst snd] in Eb. destruct (fill_bytes (eck_rlen c h) r) as [a| |] eqn:E1; try discriminate.
  destruct (fill_bytes (flen c) s) as [d| |]; try discriminate. cbn [rbind] in Eb. injection Eb as <-.
  apply fill_bytes_ok in E1 as (L1 & _ & V1); [|lia]. unfold eck_rlen, flen in L1. now rewrite firstn_app_exact.
Qed.
Print Assumptions C56_bytes.
Theorem C56_verify_total : forall c h pub msg r s, eck_verify c h pub msg r s <> Panic.
Proof. intros. apply eck_verify_total. Qed.
Print Assumptions C56_verify_total.
(** Defect: Sign does not retry when the digest of the nonce point is 0, and Verify refuses r = 0. *)
Theorem C56_zero_r_refuted : exists c pt h key rd msg s, lawful_curve c pt /\ hasher_ok h /\ sized c /\ inverted_key c pt key /\ bytes_ok rd /\
  eck_sign c h rd key msg = Ok (0, s) /\ eck_verify c h (ePub key) msg 0 s = Ok false.
Proof.
  exists toy, toy_pt, (Hasher 1 4 (fun _ => [0])), (make_key Inverted toy 7), [16], [5], 14.
  split; [exact toy_lawful|]. split; [intros m; split; [reflexivity|repeat constructor; lia]|]. split; [exact toy_sized|].
  split; [split; [cbn; unfold toyN; lia|exists 9; split; vm_compute; reflexivity]|]. split; [repeat constructor; lia|].
  split; vm_compute; reflexivity.
Qed.
Print Assumptions C56_zero_r_refuted.
Example C56_instance : inverted_key toy toy_pt (make_key Inverted toy 7) /\
  (exists r s, eck_sign toy toy_hash [16] (make_key Inverted toy 7) [1; 2] = Ok (r, s) /\ r <> 0 /\
     eck_verify toy toy_hash (ePub (make_key Inverted toy 7)) [1; 2] r s = Ok true /\ eck_verify toy toy_hash (ePub (make_key Inverted toy 7)) [1; 4] r s = Ok false).
Proof.
  split; [split; [cbn; unfold toyN; lia|exists 9; split; vm_compute; reflexivity]|].
  eexists; eexists; (split; [vm_compute; reflexivity|]); split; [lia|]; split; vm_compute; reflexivity.
Qed.

(** ** C57 EC-RDSA *)
Theorem C57_accepts : forall c pt h (iso : bool) key msg r s, lawful_curve c pt -> straight_key c pt key ->
  let e0 := be_val (if iso then rev (hsum h msg) else hsum h msg) mod cN c in
  ecr_verify c h iso (ePub key) msg r s = Ok true <->
  0 < r /\ 0 < s /\ ecrdsa_pair (cN c) pt (eD key) (if e0 =? 0 then 1 else e0) r s.
Proof. intros. now apply ecr_verify_eq. Qed.
Print Assumptions C57_accepts.
Theorem C57_verify_total : forall c pt h iso pub msg r s, lawful_curve c pt -> ecr_verify c h iso pub msg r s <> Panic.
Proof. intros c pt h iso pub msg r s L. apply (ecr_verify_total L). Qed.
Print Assumptions C57_verify_total.
Theorem C57_sign_verify : forall c pt h (iso : bool) key rd msg k rd', lawful_curve c pt -> straight_key c pt key -> bytes_ok rd ->
  rand_field (cN c) rd = Ok (k, rd') ->
  let e0 := be_val (if iso then rev (hsum h msg) else hsum h msg) mod cN c in
  let r := fst (pt k) mod cN c in
  let s := (r * eD key + k * (if e0 =? 0 then 1 else e0)) mod cN c in
  r <> 0 -> s <> 0 ->
  ecr_sign c h iso rd key msg = Ok (r, s) /\ ecr_verify c h iso (ePub key) msg r s = Ok true.
Proof.
  intros c pt h iso key rd msg k rd' L K Hrd Hk e0 r s Hr Hs.
  destruct (ecr_first L (h := h) (iso := iso) (msg := msg) K Hk Hrd Hr Hs) as (r0 & s0 & E & Er & Es & Hk0).
  assert (r0 = r) by exact Er. subst r0. assert (s0 = s) by exact Es. subst s0. split; [exact E|].
  apply (ecr_verify_eq L h _ _ _ _ K). pose proof (modN L (fst (pt k))) as B1.
  pose proof (modN L (r * eD key + k * (if e0 =? 0 then 1 else e0))) as B2. fold r in B1. fold s in B2.
  split; [lia|]. split; [lia|]. exists k. split; [lia|]. split; reflexivity.
Qed.
Print Assumptions C57_sign_verify.
(** Defect: as in C55 the message is hashed twice when the first s is 0. *)
Theorem C57_retry_refuted : exists c pt h key rd msg r s, lawful_curve c pt /\ hasher_ok h /\ straight_key c pt key /\ bytes_ok rd /\
  ecr_sign c h false rd key msg = Ok (r, s) /\ ecr_verify c h false (ePub key) msg r s = Ok false.
Proof.
  exists toy, toy_pt, (len_hash 4), (make_key Straight toy 7), [120; 24], [9], 4, 15.
  split; [exact toy_lawful|]. split; [apply len_hash_ok|]. split; [split; [cbn; unfold toyN; lia|vm_compute; reflexivity]|].
  split; [repeat constructor; lia|]. split; vm_compute; reflexivity.
Qed.
Print Assumptions C57_retry_refuted.
Example C57_instance : exists r s, ecr_sign toy toy_hash true [24] (make_key Straight toy 7) [1; 2] = Ok (r, s) /\
  ecr_verify toy toy_hash true (ePub (make_key Straight toy 7)) [1; 2] r s = Ok true /\
  ecr_verify toy toy_hash false (ePub (make_key Straight toy 7)) [1; 2] r s = Ok false.
Proof. eexists; eexists; (split; [vm_compute; reflexivity|]); split; vm_compute; reflexivity. Qed.

(** ** C58 Keys *)
(** GenerateKey returns a secret number in ]0, N[ and its public point; Fermat's inverse is the inverse. *)
Theorem C58_generate : forall c pt kd rd key rd', lawful_curve c pt -> bytes_ok rd -> ec_generate kd c rd = Ok (key, rd') ->
  match kd with Straight => straight_key c pt key | Inverted => inverted_key c pt key end.
Proof.
  intros c pt kd rd key rd' L Hrd H. unfold ec_generate in H. destruct (rand_field (cN c) rd) as [[d r]| |] eqn:E; try discriminate.
  apply rand_field_ok in E as [Hd _]; auto. cbn [rbind fst snd] in H. injection H as <- <-. pose proof (N_pos L) as HN. destruct kd.
  - split; cbn [eD ePub make_key public_scalar]; [lia|]. apply (base_pt L). lia.
  - split; cbn [eD ePub make_key public_scalar]; [lia|]. exists (fermat_inverse d (cN c)). unfold fermat_inverse. rewrite powm_spec by lia. split.
    + rewrite Zmult_mod_idemp_l.
      replace (d ^ (cN c - 2) * d) with (d ^ (cN c - 1)). apply fermat; [apply (lc_prime L)|rewrite Z.mod_small; lia].
      rewrite Z.mul_comm, <- Z.pow_succ_r by lia. f_equal. lia.
    + apply (base_pt L). apply (modN L).
Qed.
Print Assumptions C58_generate.
(** Exporting and importing a secret key gives the key back, unless D = N - 1 ... *)
Theorem C58_export_import : forall c pt kd d, lawful_curve c pt -> 0 <= d < cN c ->
  exists b, ec_private_to c (make_key kd c d) = Ok b /\ length b = byteceil (bitlen (cN c)) /\
    ec_new_private kd c b = if d =? cN c - 1 then Err else Ok (make_key kd c d).
Proof.
  intros c pt kd d L Hd. pose proof (N_pos L). pose proof (@byteceil_bound (cN c)). unfold ec_private_to. cbn [eD make_key].
  rewrite fill_bytes_fits by lia. eexists. split; [reflexivity|]. split; [apply be_bytes_length|].
  unfold ec_new_private. rewrite be_val_fit by lia. destruct (Z.leb_spec (cN c - 1) d), (Z.eqb_spec d (cN c - 1)); auto; lia.
Qed.
Print Assumptions C58_export_import.
(** ... which GenerateKey can return (defect). *)
Theorem C58_import_refuted : exists rd key rest b, ec_generate Straight toy rd = Ok (key, rest) /\
  ec_private_to toy key = Ok b /\ ec_new_private Straight toy b = Err.
Proof. exists [240], (make_key Straight toy 30), [], [30]. repeat split; vm_compute; reflexivity. Qed.
Print Assumptions C58_import_refuted.
(** Defect: the number 0 is imported as a secret key; no scheme can sign with it. *)
Theorem C58_zero_key : forall c pt kd h rd msg, lawful_curve c pt -> exists key, ec_new_private kd c [] = Ok key /\ eD key = 0 /\ ePub key = (0, 0) /\
  ecg_sign c h rd key msg = Err /\ (forall opt, ecs_sign opt c h rd key msg = Err) /\ ecf_sign c h rd key msg = Err /\ (forall iso, ecr_sign c h iso rd key msg = Err).
Proof.
  intros c pt kd h rd msg L. pose proof (N_pos L) as HN. exists (make_key kd c 0).
  assert (E : ePub (make_key kd c 0) = (0, 0)).
  { cbn [ePub make_key]. rewrite <- (lc_zero L). destruct kd; cbn [public_scalar].
    - apply (base_pt L). lia.
    - unfold fermat_inverse. rewrite powm_spec, Z.pow_0_l, Z.mod_0_l by lia. apply (base_pt L). lia. }
  split; [unfold ec_new_private; change (be_val []) with 0; destruct (Z.leb_spec (cN c - 1) 0); [lia|reflexivity]|].
  split; [reflexivity|]. split; [exact E|].
  unfold ecg_sign, ecs_sign, ecf_sign, ecr_sign. rewrite !E, (lc_off L). cbn. repeat split.
Qed.
Print Assumptions C58_zero_key.

(** A run for C54 with the key generator itself. *)
Example C54_instance : exists key rest, ec_generate Inverted toy [0; 80; 3] = Ok (key, rest) /\ inverted_key toy toy_pt key /\
  ecg_sign toy toy_hash [255; 40; 9] key [1; 2; 3] = Ok (2, 9) /\ ecg_verify toy toy_hash (ePub key) [1; 2; 3] 2 9 = Ok true /\
  ecg_verify toy toy_hash (ePub key) [1; 2; 4] 2 9 = Ok false /\ ecg_verify toy toy_hash (ePub key) [1; 2; 3] 31 9 = Panic.
Proof.
  assert (E : ec_generate Inverted toy [0; 80; 3] = Ok (EcKey (35, 22) 10, [3])) by (vm_compute; reflexivity).
  exists (EcKey (35, 22) 10), [3]. split; [exact E|].
  split; [apply (C58_generate toy_lawful (kd := Inverted) (rd := [0; 80; 3]) (rd' := [3])); [repeat constructor; lia|exact E]|].
  repeat split; vm_compute; reflexivity.
Qed.
