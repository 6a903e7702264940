(** Proofs for BIP-340. *)
From Verif Require Import Base BigModel NumLib ModRw ElgProofs CurveModel CurveSpec EcSigModel EcSigSpec EcSigProofs EcSigProofs2 Ec2Model Ec2Spec.
Set Implicit Arguments. Unset Strict Implicit.
Local Open Scope Z_scope.

Lemma isodd_even a : bip_isodd a = negb (Z.even a).
Proof. unfold bip_isodd. rewrite Zmod_even. now destruct (Z.even a). Qed.
Lemma opp_mod_pos y P : 0 < y < P -> (- y) mod P = P - y.
Proof. intros H. rewrite <- (Z.mod_add (- y) 1 P) by lia. rewrite Z.mod_small; lia. Qed.

Section bip.
Variable (c : curve) (pt : Z -> Z * Z) (L : lawful_curve c pt) (Ng : negates (cP c) pt).
Variable (h : hasher) (Hh : hasher_ok h).
Notation N := (cN c).

Lemma pt_nz a : a mod N <> 0 -> pt a <> (0, 0).
Proof. intros H E. pose proof (lc_on L H) as O. rewrite E, (lc_off L) in O. discriminate. Qed.
Lemma y_nz a : a mod N <> 0 -> snd (pt a) <> 0.
Proof.
  intros H E. destruct Ng as [_ G]. pose proof (N_pos L) as HN. pose proof (lc_coord L a).
  assert (E1 : pt (- a) = pt a).
  { rewrite G, E. cbn [Z.opp]. rewrite Z.mod_0_l by lia. destruct (pt a); cbn [fst snd] in *; congruence. }
  assert (E2 : pt (2 * a) = (0, 0)).
  { replace (2 * a) with (a + a) by ring. rewrite <- (lc_add L). rewrite <- E1 at 1. rewrite (lc_add L).
    replace (- a + a) with 0 by ring. apply (lc_zero L). }
  revert E2. apply pt_nz. intros E2. apply H. apply Z.mod_divide in E2; [|lia].
  apply prime_mult in E2; [|exact (lc_prime L)]. destruct E2 as [D|D].
  - apply Z.divide_pos_le in D; lia.
  - now apply Z.mod_divide; [lia|].
Qed.
Lemma y_bound a : a mod N <> 0 -> 0 < snd (pt a) < cP c.
Proof. intros H. pose proof (y_nz H). pose proof (lc_coord L a). lia. Qed.
Lemma pt_N_sub a : pt (N - a) = pt (- a).
Proof. apply (pt_cong L). replace (N - a) with (- a + 1 * N) by ring. apply Z.mod_add. pose proof (N_pos L). lia. Qed.
Lemma flip_even a : a mod N <> 0 -> Z.even (snd (pt a)) = false -> Z.even (snd (pt (- a))) = true.
Proof.
  intros H E. destruct Ng as [O G]. rewrite G. cbn [snd]. rewrite opp_mod_pos by now apply y_bound.
  rewrite Z.even_sub, E. rewrite <- Z.negb_odd, O. reflexivity.
Qed.
Lemma even_scalar_even a : a mod N <> 0 -> Z.even (snd (pt (even_scalar N pt a))) = true.
Proof. intros H. unfold even_scalar. destruct (Z.even (snd (pt a))) eqn:E; auto. rewrite pt_N_sub. now apply flip_even. Qed.
Lemma even_scalar_x a : fst (pt (even_scalar N pt a)) = fst (pt a).
Proof. unfold even_scalar. destruct (Z.even (snd (pt a))); auto. rewrite pt_N_sub. destruct Ng as [_ G]. now rewrite G. Qed.
Lemma even_scalar_range a : 0 < a < N -> 0 < even_scalar N pt a < N.
Proof. intros H. unfold even_scalar. destruct (Z.even (snd (pt a))); lia. Qed.
Lemma scalar_eq a : 0 < a < N -> bip_scalar a N (snd (pt a)) = even_scalar N pt a.
Proof.
  intros H. unfold bip_scalar, even_scalar. rewrite isodd_even. destruct (Z.even (snd (pt a))); cbn [negb]; auto. now apply opp_mod_pos.
Qed.
Lemma lift_eq a : (fst (pt a), if bip_isodd (snd (pt a)) then (- snd (pt a)) mod cP c else snd (pt a)) = pt (even_scalar N pt a).
Proof.
  unfold even_scalar. rewrite isodd_even. destruct (Z.even (snd (pt a))); cbn [negb].
  - now destruct (pt a).
  - rewrite pt_N_sub. destruct Ng as [_ G]. now rewrite G.
Qed.
Lemma mod_small_nz a : 0 < a < N -> a mod N <> 0.
Proof. intros H. rewrite Z.mod_small; lia. Qed.

Definition bip_chal (px msg : bytes) (r : Z) : Z := be_val (tagged (hsum h) tag_challenge (be_bytes (plen c) r ++ px ++ msg)).
Lemma bip_chal_eq px msg r : be_val (hsum h (bip_tagged h tag_challenge (be_bytes (plen c) r) ++ px ++ msg)) = bip_chal px msg r.
Proof. unfold bip_chal, tagged, bip_tagged. now rewrite <- !app_assoc. Qed.

Lemma bip_cong e d s k : s = (k + e * d) mod N -> d * ((- (e mod N)) mod N) + s =[N]= k.
Proof. intros ->. to_zq. rewrite !zq_mod. replace (d * - e + (k + e * d)) with k by ring. reflexivity. Qed.
Lemma bip_cong2 e d s : 0 < s < N -> s = ((d * ((- (e mod N)) mod N) + s) mod N + e * d) mod N.
Proof. intros Hs. apply mod_eq_small; [lia|]. to_zq. rewrite !zq_mod. replace (d * - e + s + e * d) with s by ring. reflexivity. Qed.

Lemma bip_verify_eq key msg r s : straight_key c pt key ->
  bip_verify c h (ePub key) msg r s = Ok true <->
  0 < r /\ 0 < s < N /\ bip340_pair N pt (eD key) (bip_chal (be_bytes (plen c) (fst (ePub key))) msg) r s.
Proof.
  intros K. unfold bip_verify. rewrite (straight_on L K). cbn [negb]. destruct K as [HD ->]. pose proof (N_pos L) as HN.
  destruct (Z.leb_spec r 0) as [Hr|Hr]; [cbn [orb]; split; [discriminate|lia]|].
  destruct (Z.leb_spec s 0); [cbn [orb]; split; [discriminate|lia]|]. cbn [orb].
  destruct (Z.leb_spec N s); [split; [discriminate|lia]|].
  destruct (coord_fits L (eD key)) as [Hx _].
  destruct (Z.ltb_spec r (256 ^ Z.of_nat (plen c))) as [Hf|Hf].
  2:{ rewrite fill_bytes_panics by lia. cbn [rbind]. split; [discriminate|]. intros (_ & _ & k & _ & _ & E & _).
      destruct (coord_fits L k). lia. }
  rewrite !fill_bytes_fits by lia. cbn [rbind]. rewrite bip_chal_eq. set (e := bip_chal _ msg r). set (d := even_scalar N pt (eD key)).
  rewrite lift_eq. fold d. rewrite (lin_pt L) by (try apply (modN L); lia). set (k := (d * ((- (e mod N)) mod N) + s) mod N).
  replace (pt (d * _ + s)) with (pt k) by (apply (lc_mod L)). rewrite isodd_even.
  split.
  - destruct (Z.eqb_spec (fst (pt k)) 0) as [E0|E0]; [discriminate|]. destruct (Z.eqb_spec (snd (pt k)) 0) as [E1|E1]; [discriminate|].
    cbn [orb]. destruct (Z.even (snd (pt k))) eqn:Ev; [|discriminate]. cbn [negb]. intros [= E]. apply Z.eqb_eq in E.
    split; [lia|]. split; [lia|]. exists k. pose proof (modN L (d * ((- (e mod N)) mod N) + s)) as B. fold k in B.
    assert (k <> 0) by (intros Ek; rewrite Ek, (lc_zero L) in E1; now apply E1).
    split; [lia|]. split; [exact Ev|]. split; [exact E|]. apply bip_cong2. lia.
  - intros (_ & _ & k' & Hk & Ev & E & Es). fold e d in Es. apply bip_cong in Es.
    replace (pt k) with (pt k') by (apply (pt_cong L); unfold k; now rewrite Z.mod_mod by lia).
    pose proof (y_nz (mod_small_nz Hk)). destruct (Z.eqb_spec (fst (pt k')) 0); [lia|]. destruct (Z.eqb_spec (snd (pt k')) 0); [contradiction|].
    cbn [orb]. rewrite Ev. cbn [negb]. f_equal. now apply Z.eqb_eq.
Qed.
Lemma bip_verify_panics key msg r s : straight_key c pt key ->
  (bip_verify c h (ePub key) msg r s = Panic <-> 256 ^ Z.of_nat (plen c) <= r /\ 0 < s < N).
Proof.
  intros K. unfold bip_verify. rewrite (straight_on L K). cbn [negb]. destruct K as [HD ->]. pose proof (N_pos L) as HN.
  assert (Hp : 0 < 256 ^ Z.of_nat (plen c)) by (apply Z.pow_pos_nonneg; lia).
  destruct (Z.leb_spec r 0) as [Hr|Hr]; [cbn [orb]; split; [discriminate|lia]|].
  destruct (Z.leb_spec s 0); [cbn [orb]; split; [discriminate|lia]|]. cbn [orb].
  destruct (Z.leb_spec N s); [split; [discriminate|lia]|].
  destruct (coord_fits L (eD key)) as [Hx _].
  destruct (Z.ltb_spec r (256 ^ Z.of_nat (plen c))) as [Hf|Hf].
  - rewrite !fill_bytes_fits by lia. cbn [rbind]. destruct (_ || _); [split; [discriminate|lia]|]. destruct (bip_isodd _); split; try discriminate; lia.
  - rewrite fill_bytes_panics by lia. cbn [rbind]. split; [|reflexivity]. lia.
Qed.

(** Signing *)
Hypothesis Sz : sized c.
Lemma flen_N a : 0 <= a < N -> 0 <= a < 256 ^ Z.of_nat (flen c).
Proof. destruct Sz as (_ & H & _). unfold flen. lia. Qed.
(** the nonce derived from the random number k *)
Definition bip_k (key : eckey) (msg : bytes) (k : Z) : Z :=
  be_val (tagged (hsum h) tag_nonce (bip_mask (flen c) (hsize h) (be_bytes (flen c) (even_scalar N pt (eD key))) (tagged (hsum h) tag_aux (be_bytes (flen c) k))
    ++ be_bytes (plen c) (fst (ePub key)) ++ msg)) mod N.
Lemma bip_sign_k_eq key msg k : straight_key c pt key -> 0 <= k < 256 ^ Z.of_nat (flen c) ->
  bip_sign_k c h k key msg = Ok (let k' := bip_k key msg k in if k' =? 0 then None else
    let r := fst (pt k') in
    Some (r, (even_scalar N pt k' + bip_chal (be_bytes (plen c) (fst (ePub key))) msg r * even_scalar N pt (eD key)) mod N)).
Proof.
  intros K Hk. unfold bip_sign_k. rewrite (straight_on L K). cbn [negb]. pose proof (N_pos L) as HN. destruct K as [HD EP].
  rewrite (base_pt L) by lia. destruct (Z.eqb_spec (eD key) 0); [lia|]. destruct (Z.leb_spec N (eD key)); [lia|]. cbn [orb].
  rewrite scalar_eq by lia. pose proof (even_scalar_range HD) as HE. rewrite !(fill_bytes_fits (n := flen c)) by (try assumption; apply flen_N; lia). cbn [rbind].
  destruct (coord_fits L (eD key)) as [Hx _]. rewrite fill_bytes_fits by exact Hx. cbn [rbind]. rewrite <- EP.
  set (k' := be_val _ mod N). assert (E : k' = bip_k key msg k) by (unfold k', bip_k, tagged, bip_tagged; now rewrite <- !app_assoc).
  rewrite E in *. clear E k'. set (k' := bip_k key msg k). assert (Hk' : 0 <= k' < N) by apply (modN L). cbv zeta.
  destruct (Z.eqb_spec k' 0); [reflexivity|]. rewrite (base_pt L) by lia.
  destruct (coord_fits L k') as [Hx' _]. rewrite fill_bytes_fits by exact Hx'. cbn [rbind]. rewrite scalar_eq by lia. rewrite bip_chal_eq.
  do 3 f_equal. to_zq. now rewrite !zq_mod.
Qed.
Lemma bip_signed key msg k : straight_key c pt key -> bip_k key msg k <> 0 ->
  let r := fst (pt (bip_k key msg k)) in
  bip340_pair N pt (eD key) (bip_chal (be_bytes (plen c) (fst (ePub key))) msg) r
    ((even_scalar N pt (bip_k key msg k) + bip_chal (be_bytes (plen c) (fst (ePub key))) msg r * even_scalar N pt (eD key)) mod N).
Proof.
  intros K H r. assert (Hk : 0 < bip_k key msg k < N) by (pose proof (modN L (be_val (tagged (hsum h) tag_nonce (bip_mask (flen c) (hsize h) (be_bytes (flen c) (even_scalar N pt (eD key))) (tagged (hsum h) tag_aux (be_bytes (flen c) k))
    ++ be_bytes (plen c) (fst (ePub key)) ++ msg)))) as B; fold (bip_k key msg k) in B; lia).
  exists (even_scalar N pt (bip_k key msg k)). split; [now apply even_scalar_range|]. split; [apply even_scalar_even; now apply mod_small_nz|].
  split; [unfold r; now rewrite even_scalar_x|reflexivity].
Qed.
Lemma shl_flen : Z.shiftl 1 (8 * Z.of_nat (flen c)) = 256 ^ Z.of_nat (flen c).
Proof. rewrite Z.shiftl_mul_pow2, Z.mul_1_l by lia. change 256 with (2 ^ 8). now rewrite <- Z.pow_mul_r by lia. Qed.
Lemma bip_sign_inv rd key msg r s : straight_key c pt key -> bytes_ok rd -> bip_sign c h rd key msg = Ok (r, s) ->
  exists k, 0 <= k < 256 ^ Z.of_nat (flen c) /\ bip_sign_k c h k key msg = Ok (Some (r, s)).
Proof.
  intros K Hrd. unfold bip_sign. rewrite shl_flen. set (step := fun rd => _).
  destruct (until step rd) as [[a rd']| |] eqn:E; try discriminate. cbn [rbind fst]. intros [= ->].
  apply (@until_inv _ (fun rs => exists k, 0 <= k < 256 ^ Z.of_nat (flen c) /\ bip_sign_k c h k key msg = Ok (Some rs))) in E; [exact (proj1 E)| |exact Hrd].
  clear. intros rd o rd' Hrd. unfold step. destruct (rand_int _ rd) as [[k rk]| |] eqn:Ek; try discriminate. cbn [rbind fst snd].
  apply rand_int_ok in Ek as [Hk Hrk]; auto. destruct (bip_sign_k c h k key msg) as [o'| |] eqn:Es; try discriminate. cbn [rbind]. intros [= <- <-].
  split; [exact Hrk|]. destruct o'; eauto.
Qed.
Lemma bip_sign_total rd key msg : straight_key c pt key -> bytes_ok rd -> bip_sign c h rd key msg <> Panic.
Proof.
  intros K Hrd. unfold bip_sign. rewrite shl_flen. set (step := fun rd => _).
  assert (T : until step rd <> Panic).
  { unfold until. generalize (S (length rd)). intros f. revert rd Hrd. induction f as [|f IH]; cbn [retry]; intros rd Hrd; [discriminate|].
    assert (Hp : 0 < 256 ^ Z.of_nat (flen c)) by (apply Z.pow_pos_nonneg; lia).
    assert (St : step rd = Err \/ exists o rk, step rd = Ok (o, rk) /\ bytes_ok rk).
    { unfold step. destruct (rand_int _ rd) as [[k rk]| |] eqn:Ek; cbn [rbind fst snd]; auto.
      - apply rand_int_ok in Ek as [Hk Hrk]; auto. rewrite bip_sign_k_eq by auto. cbn [rbind]. right. eauto.
      - exfalso. revert Ek. unfold rand_int. destruct (Z.leb_spec (256 ^ Z.of_nat (flen c)) 0); [lia|].
        destruct (bitlen _ =? 0)%nat; [discriminate|]. apply retry_no_panic. intros r. unfold read_full. destruct (_ <=? _)%nat; discriminate. }
    destruct St as [->|(o & rk & -> & Hrk)]; [discriminate|]. destruct o; [discriminate|]. now apply IH. }
  destruct (until step rd); cbn [rbind]; congruence.
Qed.
End bip.
