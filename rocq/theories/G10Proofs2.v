(** Proofs about keys, signatures, encoding and key agreement of pubkey/gost. *)
From Verif Require Import Base BigModel NumLib ModRw ElgProofs CurveModel EcSigProofs Ec2Proofs2 G10Model G10Spec G10Proofs.
Set Implicit Arguments. Unset Strict Implicit.
Local Open Scope Z_scope.

Lemma digest_eq c d : 0 < gQ c -> g_digest c d = gost_e (gQ c) d.
Proof. intros H. unfold g_digest, gost_e. rewrite be_val_rev. destruct (Z.eqb_spec (le_val d mod gQ c) 0), (Z.eq_dec (le_val d mod gQ c) 0); congruence. Qed.
Lemma gost_e_range Q d : 1 < Q -> 0 < gost_e Q d < Q.
Proof. intros H. unfold gost_e. pose proof (Z.mod_pos_bound (le_val d) Q ltac:(lia)). destruct (Z.eq_dec _ 0); lia. Qed.
Lemma big_bytes_val x : be_val (big_bytes x) = Z.abs x.
Proof.
  replace (big_bytes x) with (big_bytes (Z.abs x)); [apply be_val_big_bytes; lia|]. unfold big_bytes, bitlen. rewrite (Z.abs_eq (Z.abs x)) by lia.
  destruct (Z.eqb_spec x 0), (Z.eqb_spec (Z.abs x) 0); try lia; reflexivity.
Qed.

Lemma sub_pos x1 x2 p : 0 <= x1 < p -> 0 <= x2 < p -> (if x2 - x1 <? 0 then x2 - x1 + p else x2 - x1) = (x2 - x1) mod p.
Proof.
  intros H1 H2. destruct (Z.ltb_spec (x2 - x1) 0); [|rewrite Z.mod_small; lia]. rewrite <- (Z_mod_plus_full (x2 - x1) 1 p), Z.mod_small; lia.
Qed.

Section Gost.
Variables (c : gcurve) (pt : Z -> Z * Z).
Hypothesis HL : lawful_gost c pt.
Notation P := (gP c). Notation Q := (gQ c).
Let HP : 3 < P := lg_P2 HL.
Let HQ : 2 < Q := lg_Q2 HL.

Lemma small_nz x : 0 < x < Q -> x mod Q <> 0. Proof. intros H. rewrite Z.mod_small; lia. Qed.

(** ** Keys *)
Lemma new_private_eq raw : bytes_ok raw -> g_new_private c raw =
  if be_val raw =? 0 then Err else if be_val raw mod Q =? 0 then Panic else Ok (GPriv (GPub c (pt (be_val raw))) (be_val raw)).
Proof.
  intros H. pose proof (be_val_bound H) as B. unfold g_new_private. destruct (Z.eqb_spec (be_val raw) 0) as [|N]; [reflexivity|].
  destruct (Z.eqb_spec (be_val raw mod Q) 0) as [E|E].
  - rewrite base_panics with (pt := pt) by (auto; rewrite big_bytes_val, Z.abs_eq; auto; lia). reflexivity.
  - rewrite base_pt' with (pt := pt) by (auto; rewrite big_bytes_val, Z.abs_eq; auto; lia). cbn [rbind]. now rewrite big_bytes_val, Z.abs_eq by lia.
Qed.

(** ** Signing *)
Lemma round_ok k e rd rs rd' : gcur (gpk k) = c -> 0 < e < Q -> bytes_ok rd -> g_round k e rd = Ok (Some rs, rd') ->
  0 < fst rs < Q /\ 0 < snd rs < Q /\ exists kk, gost_nonce Q pt (gd k) e (fst rs) (snd rs) kk.
Proof.
  intros Hc He Hrd. unfold g_round. rewrite Hc. destruct (read_full (g_size c) rd) as [[b r1]| |] eqn:Er; cbn [rbind fst snd]; try discriminate.
  apply read_full_ok in Er as (L & O & O1 & _); auto. pose proof (Z.mod_pos_bound (be_val b) Q ltac:(lia)) as Bk. set (kk := be_val b mod Q) in *.
  destruct (Z.eqb_spec kk 0) as [|Nk]; [discriminate|].
  rewrite base_pt' with (pt := pt) by (auto; rewrite big_bytes_val, Z.abs_eq by lia; apply small_nz; lia). cbn [rbind]. rewrite big_bytes_val, Z.abs_eq by lia.
  pose proof (Z.mod_pos_bound (fst (pt kk)) Q ltac:(lia)) as Br. destruct (Z.eqb_spec (fst (pt kk) mod Q) 0) as [|Nr]; [discriminate|].
  match goal with |- context [?x mod Q =? 0] => pose proof (Z.mod_pos_bound x Q ltac:(lia)) as Bs; destruct (Z.eqb_spec (x mod Q) 0) as [|Ns]; [discriminate|] end.
  intros [= <- <-]. cbn [fst snd]. split; [lia|]. split; [lia|]. exists kk. split; [lia|]. split; [reflexivity|]. f_equal. ring.
Qed.
Lemma round_rd k e rd o rd' : gcur (gpk k) = c -> bytes_ok rd -> g_round k e rd = Ok (o, rd') -> bytes_ok rd'.
Proof.
  intros Hc Hrd. unfold g_round. rewrite Hc. destruct (read_full (g_size c) rd) as [[b r1]| |] eqn:Er; cbn [rbind fst snd]; try discriminate.
  apply read_full_ok in Er as (L & O & O1 & _); auto. destruct (_ =? 0); [now intros [= <- <-]|].
  destruct (g_base c _) as [p| |]; cbn [rbind]; try discriminate. destruct (_ =? 0); [now intros [= <- <-]|]. destruct (_ =? 0); now intros [= <- <-].
Qed.
Lemma round_no_panic k e rd : gcur (gpk k) = c -> g_round k e rd <> Panic.
Proof.
  intros Hc. unfold g_round. rewrite Hc. unfold read_full. destruct (Nat.leb _ _); cbn [rbind fst snd]; try discriminate.
  set (b := firstn _ _). pose proof (Z.mod_pos_bound (be_val b) Q ltac:(lia)) as Bk. destruct (Z.eqb_spec (be_val b mod Q) 0) as [|Nk]; [discriminate|].
  rewrite base_pt' with (pt := pt) by (auto; rewrite big_bytes_val, Z.abs_eq by lia; apply small_nz; lia). cbn [rbind]. destruct (_ =? 0); [discriminate|]. now destruct (_ =? 0).
Qed.
Lemma sign_rs_ok rd k digest rs rd' : gcur (gpk k) = c -> bytes_ok rd -> g_sign_rs rd k digest = Ok (rs, rd') ->
  0 < fst rs < Q /\ 0 < snd rs < Q /\ exists kk, gost_nonce Q pt (gd k) (gost_e Q digest) (fst rs) (snd rs) kk.
Proof.
  intros Hc Hrd. unfold g_sign_rs. rewrite Hc, digest_eq by lia. intros H.
  eapply (@until_inv (Z * Z) (fun rs => 0 < fst rs < Q /\ 0 < snd rs < Q /\ exists kk, gost_nonce Q pt (gd k) (gost_e Q digest) (fst rs) (snd rs) kk)) in H as [H _]; eauto.
  intros r0 o r1 H0 H1. split; [eapply round_rd; eauto|].
  destruct o as [a|]; auto. eapply round_ok; eauto. apply gost_e_range; lia.
Qed.
Lemma sign_rs_no_panic rd k digest : gcur (gpk k) = c -> g_sign_rs rd k digest <> Panic.
Proof. intros Hc. unfold g_sign_rs, until. apply retry_no_panic. intros. now apply round_no_panic. Qed.

(** ** Verifying *)
Definition gx (p1 q1 : Z * Z) : Z :=
  let lm := fst q1 - fst p1 in
  let lm := if lm <? 0 then lm + P else lm in
  let lm := (mod_inv_or lm lm P * (snd q1 - snd p1)) mod P in
  (((lm * lm) mod P - fst p1 - fst q1) mod P).
Lemma gx_sum a b : a mod Q <> 0 -> b mod Q <> 0 -> (a + b) mod Q <> 0 -> pt a <> pt b -> gx (pt a) (pt b) = fst (pt (a + b)).
Proof.
  intros Ha Hb Hab N. pose proof (lg_add HL Ha Hb Hab) as HS. pose proof (same_x HL Ha Hb) as HX.
  destruct (lg_coord HL Ha) as [Ax Ay], (lg_coord HL Hb) as [Bx By], (lg_coord HL Hab) as [Cx Cy]. unfold gx.
  destruct (pt a) as [x1 y1], (pt b) as [x2 y2], (pt (a + b)) as [x3 y3]. cbn [fst snd] in *. destruct HS as (l & Hl & E3 & _).
  assert (Nx : x1 <> x2) by (intros E; destruct (HX E); contradiction). destruct (Z.eq_dec x1 x2); [contradiction|].
  assert (EL : (if x2 - x1 <? 0 then x2 - x1 + P else x2 - x1) = (x2 - x1) mod P).
  { now apply sub_pos. }
  rewrite EL. assert (K : (x2 - x1) mod P <> 0) by (apply sub_nz; auto).
  assert (K' : ((x2 - x1) mod P) mod P <> 0) by now rewrite Z.mod_mod by lia.
  destruct (@mod_inv_or_prime ((x2 - x1) mod P) _ P (lg_P HL) K') as (i & -> & Bi & Ei).
  assert (Et : (i * (y2 - y1)) mod P =[P]= l).
  { apply (slope_eq HL) with (k := x2 - x1) (w := y2 - y1) (i := i); auto; [exact (lg_P HL)| |now rewrite Z.mul_comm]. rewrite <- Ei, Zmult_mod_idemp_r. reflexivity. }
  apply mod_eq_small'; auto. zq_of Et. zq_of E3. to_zq. rewrite E3, zq_mod, Et. replace (l ^ 2) with (l * l) by ring. reflexivity.
Qed.
Lemma gx_same a b : fst (pt a) = fst (pt b) -> gx (pt a) (pt b) = (- 2 * fst (pt a)) mod P.
Proof.
  intros E. unfold gx. rewrite <- E, Z.sub_diag. rewrite Z.ltb_irrefl. cbv iota zeta. rewrite mod_inv_or_zero; [|lia|reflexivity].
  rewrite !Z.mul_0_l, !Zmod_0_l. rewrite ?Z.mul_0_l, ?Zmod_0_l, Z.sub_0_l. f_equal. lia.
Qed.

Lemma verify_rs_eq u d digest r s : gcur u = c -> d mod Q <> 0 -> gpt u = pt d -> 0 < r < Q -> 0 < s < Q ->
  exists z1 z2, (z1 * gost_e Q digest) mod Q = s mod Q /\ (z2 * gost_e Q digest) mod Q = (- r) mod Q /\ 0 < z1 < Q /\ 0 < z2 < Q /\
    g_verify_rs u digest r s = Ok (gx (pt z1) (pt (d * z2)) mod Q =? r).
Proof.
  intros Hc Hd Hu Hr Hs. set (e := gost_e Q digest). assert (He : 0 < e < Q) by (apply gost_e_range; lia).
  destruct (@mod_inv_or_prime 0 e Q (lg_Q HL) (small_nz He)) as (v & Ev & Bv & Iv). zq_of Iv.
  assert (Nv : v mod Q <> 0).
  { intros E. apply (proj2 (Z.mod_divide v Q ltac:(lia))) in E || apply Z.mod_divide in E; [|lia]. destruct E as [q ->]. apply zq_eq in Iv. replace (q * Q * e) with (q * e * Q) in Iv by ring. rewrite Z_mod_mult, Z.mod_small in Iv; lia. }
  set (z1 := (s * v) mod Q). set (z2 := Q - (r * v) mod Q).
  assert (B1 : 0 < z1 < Q). { pose proof (Z.mod_pos_bound (s * v) Q ltac:(lia)). pose proof (mul_nz HL (small_nz Hs) Nv). unfold z1. lia. }
  assert (B2 : 0 < z2 < Q). { pose proof (Z.mod_pos_bound (r * v) Q ltac:(lia)). pose proof (mul_nz HL (small_nz Hr) Nv). unfold z2. lia. }
  exists z1, z2. split; [|split; [|split; [exact B1|split; [exact B2|]]]].
  - to_zq. unfold z1. rewrite zq_mod. replace (s * v * e) with (s * (v * e)) by ring. rewrite Iv, Z.mul_1_r. reflexivity.
  - to_zq. unfold z2. assert (E2 : zq Q (Q - (r * v) mod Q) (- (r * v))) by (apply Zq; rewrite Zminus_mod_idemp_r; replace (Q - r * v) with (- (r * v) + 1 * Q) by ring; apply Z_mod_plus_full).
    rewrite E2. replace (- (r * v) * e) with (- r * (v * e)) by ring. rewrite Iv, Z.mul_1_r. reflexivity.
  - unfold g_verify_rs. rewrite Hc. destruct (Z.leb_spec r 0); [lia|]. destruct (Z.leb_spec Q r); [lia|]. destruct (Z.leb_spec s 0); [lia|]. destruct (Z.leb_spec Q s); [lia|]. cbn [orb].
    rewrite digest_eq by lia. fold e. rewrite Ev. fold z1. fold z2.
    rewrite base_pt' with (pt := pt) by (auto; rewrite big_bytes_val, Z.abs_eq by lia; now apply small_nz). cbn [rbind]. rewrite big_bytes_val, Z.abs_eq by lia.
    rewrite Hu, mult_pt with (pt := pt) by (auto; rewrite big_bytes_val, Z.abs_eq by lia; now apply small_nz). cbn [rbind]. rewrite big_bytes_val, Z.abs_eq by lia.
    unfold gx. pose proof (fun x => Z.mod_pos_bound x P ltac:(lia)) as BP.
    match goal with |- context [if ?x mod P <? 0 then _ else _] => destruct (Z.ltb_spec (x mod P) 0) as [L|L]; [pose proof (BP x); lia|] end. reflexivity.
Qed.
Lemma verify_rs_range u digest r s : gcur u = c -> ~ (0 < r < Q /\ 0 < s < Q) -> g_verify_rs u digest r s = Ok false.
Proof.
  intros Hc H. unfold g_verify_rs. rewrite Hc. destruct (Z.leb_spec r 0); [reflexivity|]. destruct (Z.leb_spec Q r); [reflexivity|]. destruct (Z.leb_spec s 0); [reflexivity|]. destruct (Z.leb_spec Q s); [reflexivity|]. lia.
Qed.
End Gost.
