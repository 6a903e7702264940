(** Proofs about verification, encoding, key agreement and Edwards coordinates of pubkey/gost. *)
From Verif Require Import Base BigModel NumLib ModRw ElgProofs CurveModel EcSigProofs EcSigProofs2 Ec2Proofs2 G10Model G10Spec G10Proofs G10Proofs2.
Set Implicit Arguments. Unset Strict Implicit.
Local Open Scope Z_scope.

Section Verify.
Variables (c : gcurve) (pt : Z -> Z * Z).
Hypothesis HL : lawful_gost c pt.
Notation P := (gP c). Notation Q := (gQ c).
Variables (k : gpriv) (digest : bytes).
Hypothesis Hc : gcur (gpk k) = c.
Hypothesis Hd : gd k mod Q <> 0.
Hypothesis Hu : gpt (gpk k) = pt (gd k).
Notation e := (gost_e Q digest).

Lemma cancel_e a b : (a * e) mod Q = (b * e) mod Q -> a mod Q = b mod Q.
Proof.
  pose proof (lg_Q2 HL) as HQ. intros E. apply (@cong_cancel _ _ e); [lia| |exact E]. apply prime_gcd; [exact (lg_Q HL)|]. apply gost_e_range. lia.
Qed.
Lemma zero_mul a : a mod Q = 0 -> (a * e) mod Q = 0.
Proof. intros E. rewrite Zmult_mod, E, Z.mul_0_l. apply Zmod_0_l. Qed.

Lemma verify_generic r s : 0 < r < Q -> 0 < s < Q -> (s - r * gd k) mod Q <> 0 -> (s + r * gd k) mod Q <> 0 ->
  (g_verify_rs (gpk k) digest r s = Ok true <-> exists n, gost_nonce Q pt (gd k) e r s n).
Proof.
  intros Hr Hs N1 N2. pose proof (lg_Q2 HL) as HQ. destruct (verify_rs_eq HL digest Hc Hd Hu Hr Hs) as (z1 & z2 & E1 & E2 & B1 & B2 & ->).
  set (b := gd k * z2). zq_of E1. zq_of E2.
  assert (S : zq Q ((z1 + b) * e) (s - r * gd k)).
  { unfold b. replace ((z1 + gd k * z2) * e) with (z1 * e + gd k * (z2 * e)) by ring. rewrite E1, E2. replace (s + gd k * - r) with (s - r * gd k) by ring. reflexivity. }
  assert (D : zq Q ((z1 - b) * e) (s + r * gd k)).
  { unfold b. replace ((z1 - gd k * z2) * e) with (z1 * e - gd k * (z2 * e)) by ring. rewrite E1, E2. replace (s - gd k * - r) with (s + r * gd k) by ring. reflexivity. }
  assert (Na : z1 mod Q <> 0) by (rewrite Z.mod_small; lia).
  assert (Nb : b mod Q <> 0) by (apply (mul_nz HL); [exact Hd|rewrite Z.mod_small; lia]).
  assert (Nab : (z1 + b) mod Q <> 0) by (intros E; apply N1; rewrite <- (zq_eq S); now apply zero_mul).
  assert (NE : pt z1 <> pt b).
  { intros E. apply (lg_inj HL) in E; auto. apply N2. rewrite <- (zq_eq D). apply zero_mul. apply Z.mod_divide; [lia|]. apply cong_div in E; [exact E|lia]. }
  rewrite (gx_sum HL); auto. split.
  - intros H. injection H as H. apply Z.eqb_eq in H. pose proof (Z.mod_pos_bound (z1 + b) Q ltac:(lia)). exists ((z1 + b) mod Q). split; [lia|]. split.
    + now rewrite (lg_mod HL).
    + rewrite <- (Z.mod_small s Q) by lia. to_zq. rewrite zq_mod, S. replace (r * gd k + (s - r * gd k)) with s by ring. reflexivity.
  - intros (n & Bn & -> & Es). f_equal. apply Z.eqb_eq. f_equal. f_equal. apply (pt_eq HL). apply cancel_e. to_zq. rewrite S.
    rewrite Es at 1. rewrite zq_mod. match goal with |- zq _ ?x ?y => replace x with y by ring end. reflexivity.
Qed.
Lemma verify_special r s z : 0 < r < Q -> 0 < s < Q -> (s - r * gd k) mod Q = 0 \/ (s + r * gd k) mod Q = 0 -> (z * e) mod Q = s mod Q ->
  g_verify_rs (gpk k) digest r s = Ok (((- 2 * fst (pt z)) mod P) mod Q =? r).
Proof.
  intros Hr Hs N Ez. pose proof (lg_Q2 HL) as HQ. destruct (verify_rs_eq HL digest Hc Hd Hu Hr Hs) as (z1 & z2 & E1 & E2 & B1 & B2 & ->).
  assert (EP : pt z = pt z1) by (apply (pt_eq HL), cancel_e; congruence). rewrite EP.
  rewrite (gx_same HL); [reflexivity|]. zq_of E1. zq_of E2.
  assert (Na : z1 mod Q <> 0) by (rewrite Z.mod_small; lia).
  destruct N as [N|N].
  - transitivity (fst (pt (- z1))); [symmetry; now apply (lg_neg HL)|]. f_equal. apply (pt_eq HL). apply cancel_e. to_zq.
    replace (gd k * z2 * e) with (gd k * (z2 * e)) by ring. replace (- z1 * e) with (- (z1 * e)) by ring. rewrite E1, E2.
    apply Zq. apply cong_div; [lia|]. replace (- s - gd k * - r) with (- (s - r * gd k)) by ring. apply Z.divide_opp_r. apply Z.mod_divide; [lia|exact N].
  - f_equal. apply (pt_eq HL). apply cancel_e. to_zq. replace (gd k * z2 * e) with (gd k * (z2 * e)) by ring. rewrite E1, E2.
    apply Zq. apply cong_div; [lia|]. replace (s - gd k * - r) with (s + r * gd k) by ring. apply Z.mod_divide; [lia|exact N].
Qed.
(** What signing produces never satisfies s = r d, so only s = -r d is special. *)
Lemma nonce_nz r s n : gost_nonce Q pt (gd k) e r s n -> (s - r * gd k) mod Q <> 0.
Proof.
  intros (Bn & -> & Es) E. pose proof (lg_Q2 HL) as HQ. assert (X : (n * e) mod Q = 0).
  { rewrite <- E. to_zq. rewrite Es, zq_mod. match goal with |- zq _ ?x ?y => replace y with x by ring end. reflexivity. }
  apply prime_or in X as [X|X]; [| |exact (lg_Q HL)]; rewrite Z.mod_small in X; try lia; pose proof (@gost_e_range Q digest ltac:(lia)); lia.
Qed.
End Verify.

(** ** Encoding *)
Section Encode.
Variable c : gcurve.
Hypothesis HP : 0 < gP c <= 256 ^ Z.of_nat (g_size c).
Notation n := (g_size c).
Lemma marshal_eq x y : 0 <= x < gP c -> 0 <= y < gP c -> g_on c (x, y) = true -> g_marshal c (x, y) = Ok (le_bytes n x ++ le_bytes n y).
Proof.
  intros Hx Hy Ho. unfold g_marshal, g_guard. cbn [fst snd]. rewrite Ho. cbn [negb].
  assert (E : rbind (fill_bytes n y) (fun a => rbind (fill_bytes n x) (fun b => Ok (rev (a ++ b)))) = Ok (le_bytes n x ++ le_bytes n y)).
  { rewrite !fill_bytes_fits by lia. cbn [rbind]. now rewrite rev_app_distr, !rev_be. }
  rewrite E. now destruct (_ && _).
Qed.
Lemma unmarshal_eq x y : 0 <= x < gP c -> 0 <= y < gP c -> g_on c (x, y) = true -> g_unmarshal c (le_bytes n x ++ le_bytes n y) = Some (x, y).
Proof.
  intros Hx Hy Ho. unfold g_unmarshal. rewrite app_length, !le_bytes_length. replace (n + n)%nat with (2 * n)%nat by lia. rewrite Nat.eqb_refl. cbn [negb].
  rewrite rev_app_distr, <- !rev_be, !rev_involutive.
  rewrite firstn_app, be_bytes_length, Nat.sub_diag, firstn_O, app_nil_r, (@firstn_all2 _ _ (be_bytes n y)) by now rewrite be_bytes_length.
  rewrite skipn_app, be_bytes_length, Nat.sub_diag, skipn_O, (@skipn_all2 _ _ (be_bytes n y)) by now rewrite be_bytes_length. cbn [app].
  rewrite !be_val_fit by lia. destruct (Z.leb_spec (gP c) x); [lia|]. destruct (Z.leb_spec (gP c) y); [lia|]. cbn [orb]. now rewrite Ho.
Qed.
Lemma unmarshal_inv d p : bytes_ok d -> g_unmarshal c d = Some p ->
  0 <= fst p < gP c /\ 0 <= snd p < gP c /\ g_on c p = true /\ d = le_bytes n (fst p) ++ le_bytes n (snd p).
Proof.
  intros Hd. unfold g_unmarshal. destruct (Nat.eqb_spec (length d) (2 * n)) as [L|]; [|discriminate]. cbn [negb].
  set (y := be_val (firstn n (rev d))). set (x := be_val (skipn n (rev d))).
  destruct (Z.leb_spec (gP c) x); [discriminate|]. destruct (Z.leb_spec (gP c) y); [discriminate|]. cbn [orb].
  destruct (g_on c (x, y)) eqn:Ho; [|discriminate]. cbn [negb]. intros [= <-]. cbn [fst snd].
  assert (Hr : bytes_ok (rev d)) by now apply Forall_rev.
  assert (O1 : bytes_ok (firstn n (rev d))) by now apply bytes_ok_firstn.
  assert (O2 : bytes_ok (skipn n (rev d))) by now apply bytes_ok_skipn.
  pose proof (be_val_bound O1). pose proof (be_val_bound O2). fold x in H2. fold y in H1. split; [lia|]. split; [lia|]. split; [exact Ho|].
  rewrite <- !rev_be. rewrite <- rev_app_distr. rewrite <- (rev_involutive d) at 1. f_equal. rewrite <- (firstn_skipn n (rev d)) at 1. f_equal.
  - unfold y. symmetry. apply be_bytes_val; auto. rewrite firstn_length, rev_length. lia.
  - unfold x. symmetry. apply be_bytes_val; auto. rewrite skipn_length, rev_length. lia.
Qed.
End Encode.

(** ** Key agreement *)
Lemma ukm_eq raw : g_ukm raw = le_val raw.
Proof.
  unfold g_ukm. rewrite <- be_val_rev. f_equal. apply nth_ext with (d := 0) (d' := 0); [now rewrite map_length, seq_length, rev_length|].
  intros i Hi. rewrite map_length, seq_length in Hi. rewrite nth_indep with (d' := nth (length raw - 0 - 1) raw 0) by now rewrite map_length, seq_length.
  rewrite (map_nth (fun j => nth (length raw - j - 1) raw 0)). rewrite seq_nth by auto. rewrite rev_nth by auto. f_equal. lia.
Qed.
Lemma equal_refl c : g_equal c c = Ok true.
Proof.
  unfold g_equal. rewrite !Z.eqb_refl. cbn [andb]. destruct (gE c), (gD c); cbn [opt_cmp rbind]; rewrite ?Z.eqb_refl; reflexivity.
Qed.
Section Kek.
Variables (c : gcurve) (pt : Z -> Z * Z).
Hypothesis HL : lawful_gost c pt.
Hypothesis HS : gost_sized c.
Notation P := (gP c). Notation Q := (gQ c).
Lemma kek_eq k u a ukm : gcur (gpk k) = c -> 0 < gd k -> gd k mod Q <> 0 -> gcur u = c -> gpt u = pt a -> a mod Q <> 0 -> 0 <= ukm * gCo c ->
  g_kek k u ukm = if (ukm * gCo c) mod Q =? 0 then Panic else
    let p := pt (a * gd k * (ukm * gCo c)) in Ok (le_bytes (g_size c) (fst p) ++ le_bytes (g_size c) (snd p)).
Proof.
  intros Hc Hp Hd Hu Ha Na Hw. pose proof (lg_Q2 HL) as HQ. pose proof (lg_P2 HL) as HP. unfold g_kek. rewrite Hc, Hu, equal_refl. cbn [rbind negb].
  rewrite Ha, mult_pt with (pt := pt) by (auto; rewrite big_bytes_val, Z.abs_eq; auto; lia). cbn [rbind]. rewrite big_bytes_val, Z.abs_eq by lia.
  pose proof (mul_nz HL Na Hd) as Nm.
  assert (M : forall m, m mod Q <> 0 -> g_marshal c (pt m) = Ok (le_bytes (g_size c) (fst (pt m)) ++ le_bytes (g_size c) (snd (pt m)))).
  { intros m Hm. destruct (lg_coord HL Hm). rewrite (surjective_pairing (pt m)). apply marshal_eq; auto; [split; [lia|apply HS]|]. rewrite <- surjective_pairing. now apply (on_pt HL). }
  destruct (Z.eqb_spec (ukm * gCo c) 1) as [E|E]; cbn [negb rbind].
  - rewrite E, Z.mul_1_r. rewrite Z.mod_small by lia. cbn [Z.eqb]. now apply M.
  - destruct (Z.eqb_spec ((ukm * gCo c) mod Q) 0) as [Z0|Z0].
    + rewrite mult_panics; [reflexivity|]. now rewrite big_bytes_val, Z.abs_eq.
    + rewrite mult_pt with (pt := pt) by (auto; rewrite big_bytes_val, Z.abs_eq; auto). cbn [rbind]. rewrite big_bytes_val, Z.abs_eq by auto. apply M. now apply (mul_nz HL).
Qed.
End Kek.
