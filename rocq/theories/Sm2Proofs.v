(** Proofs about SM2: signatures, ZA and keys. *)
From Verif Require Import Base BigModel NumLib ModRw ElgProofs CurveModel CurveSpec EcSigModel EcSigSpec EcSigProofs EcSigProofs2 KdfModel KdfSpec Sm2Model Sm2Spec.
From Coq Require Import Lia.
Set Implicit Arguments. Unset Strict Implicit.
Local Open Scope Z_scope.

Section P.
Variable (c : curve) (pt : Z -> Z * Z) (F : full_curve c pt).
Variable (cB : Z) (cG : Z * Z) (h : hasher) (Hh : hasher_ok h).
Notation N := (cN c).
Notation L := (flen c).
Let LW : lawful_curve c pt := fc_law F.

Lemma n_big : 2 < N. Proof. exact (lc_big LW). Qed.
Lemma base_z k : 0 <= k -> cbase c (big_bytes k) = pt k.
Proof. intros K. rewrite (fc_base F); [|apply big_bytes_ok]. now rewrite be_val_big_bytes. Qed.
Lemma mul_z a k : 0 <= k -> cmul c (pt a) (big_bytes k) = pt (a * k).
Proof. intros K. rewrite (fc_mul F); [|apply big_bytes_ok]. now rewrite be_val_big_bytes. Qed.
Lemma good_pt a : good_point c (pt a) = true.
Proof.
  unfold good_point. destruct (Z.eq_dec (a mod N) 0) as [E|E].
  - rewrite <- (lc_mod LW), E, (lc_zero LW). reflexivity.
  - rewrite (lc_on LW) by auto. apply orb_true_r.
Qed.
Lemma good_iff p : good_point c p = true <-> exists a, p = pt a.
Proof.
  split.
  - unfold good_point, is_inf. intros H. apply orb_prop in H as [H|H]; [|exact (fc_all F H)].
    exists 0. rewrite (lc_zero LW). destruct p as [x y]. cbn in H. apply andb_prop in H as [X Y]. apply Z.eqb_eq in X, Y. congruence.
  - intros [a ->]. apply good_pt.
Qed.
Lemma smul_pt a k : 0 <= k -> smul c (pt a) (big_bytes k) = Ok (pt (a * k)).
Proof. intros K. unfold smul. now rewrite good_pt, mul_z. Qed.
Lemma sadd_pt a b : sadd c (pt a) (pt b) = Ok (pt (a + b)).
Proof. unfold sadd. rewrite !good_pt. cbn. now rewrite (lc_add LW). Qed.
Lemma fits a : 0 <= fst (pt a) < 256 ^ Z.of_nat L /\ 0 <= snd (pt a) < 256 ^ Z.of_nat L.
Proof. pose proof (lc_coord LW a). destruct (fc_size F) as (_ & _ & B). unfold flen. lia. Qed.
Lemma coords_pt a : coords c (pt a) = Ok (be_bytes L (fst (pt a)), be_bytes L (snd (pt a))).
Proof. destruct (fits a). unfold coords. now rewrite !fill_bytes_fits. Qed.
Lemma inf_iff a : is_inf (pt a) = true <-> a mod N = 0.
Proof.
  unfold is_inf. split.
  - intros H. destruct (Z.eq_dec (a mod N) 0); auto. exfalso. pose proof (lc_on LW n) as O.
    destruct (pt a) as [x y] eqn:E. cbn in H. apply andb_prop in H as [X Y]. apply Z.eqb_eq in X, Y. subst. rewrite (lc_off LW) in O. discriminate.
  - intros E. rewrite <- (lc_mod LW), E, (lc_zero LW). reflexivity.
Qed.

(** * Randomness *)
Lemma rand_ok rd k rd' : bytes_ok rd -> sm_rand c rd = Ok (k, rd') -> 0 < k < N /\ bytes_ok rd' /\ (length rd' < length rd)%nat.
Proof.
  intros B. unfold sm_rand. destruct (read_full _ rd) as [[b r]| |] eqn:E; try discriminate. cbn [rbind fst snd]. intros [= <- <-].
  apply read_full_ok in E as (E1 & E2 & E3 & E4); auto. pose proof n_big.
  pose proof (Z.mod_pos_bound (be_val b) (N - 1)). split; [lia|]. split; auto. rewrite E4, app_length, E1. lia.
Qed.

(** * Signatures *)
Lemma sign_k_pair k D hash r s : 0 < k < N -> bytes_ok hash -> sm_sign_k c k D hash = Ok (Some (r, s)) ->
  0 <= r < N /\ 0 < s < N /\ (r <> 0 -> r + k <> N) /\ r = (fst (pt k) + be_val hash) mod N /\ (s * (1 + D)) mod N = (k - r * D) mod N.
Proof.
  intros K B. unfold sm_sign_k. rewrite base_z by lia. set (r' := (fst (pt k) + be_val hash) mod N).
  pose proof n_big as NB. assert (R : 0 <= r' < N) by (apply Z.mod_pos_bound; lia).
  destruct (negb (r' =? 0) && (r' + k =? N)) eqn:E; [discriminate|].
  destruct (mod_inverse (D + 1) N) as [i|] eqn:I; [|discriminate].
  destruct (Z.eqb_spec (((k - D * r') * i) mod N) 0) as [E2|E2]; [discriminate|]. intros [= <- <-].
  apply mod_inverse_some in I as [I1 I2]; [|lia].
  pose proof (Z.mod_pos_bound ((k - D * r') * i) N). split; [lia|]. split; [lia|].
  split. { intros Z0 Z1. rewrite (proj2 (Z.eqb_neq r' 0)), (proj2 (Z.eqb_eq (r' + k) N)) in E by auto. discriminate. }
  split; [reflexivity|]. apply Zq in I2. to_zq. rewrite zq_mod.
  replace ((k - D * r') * i * (1 + D)) with ((k - D * r') * (i * (D + 1))) by ring. rewrite I2. apply Zq. f_equal. ring.
Qed.
Lemma sign_k_total k D hash : 0 <= D < N - 1 -> exists o, sm_sign_k c k D hash = Ok o.
Proof.
  intros HD. unfold sm_sign_k. destruct (_ && _); [eauto|].
  destruct (@mod_inverse_ok (D + 1) N) as [i Hi]; [pose proof n_big; lia|apply prime_gcd; [apply (lc_prime LW)|lia]|].
  rewrite Hi. destruct (_ =? 0); eauto.
Qed.
Lemma sign_k_top k hash : 0 < k < N -> bytes_ok hash ->
  sm_sign_k c k (N - 1) hash = Panic \/ sm_sign_k c k (N - 1) hash = Ok None.
Proof.
  intros K B. unfold sm_sign_k. destruct (_ && _); auto. left. rewrite mod_inverse_none; auto.
  replace (N - 1 + 1) with N by ring. rewrite Z.gcd_diag. pose proof n_big. lia.
Qed.
Lemma verify_eq D hash r s : 0 <= D -> bytes_ok hash ->
  sm_verify c (pt D) hash r s = Ok ((0 <? r) && (r <? N) && (0 <? s) && (s <? N) && negb ((r + s) mod N =? 0)
    && ((fst (pt (s + D * (r + s))) + be_val hash) mod N =? r)).
Proof.
  intros HD B. unfold sm_verify. pose proof n_big as NB.
  destruct (Z.leb_spec r 0), (Z.leb_spec s 0); cbn [orb];
    try (destruct (Z.ltb_spec 0 r); try lia; destruct (Z.ltb_spec 0 s); try lia; rewrite ?andb_false_r; cbn [andb]; reflexivity).
  destruct (Z.leb_spec N r), (Z.leb_spec N s); cbn [orb];
    try (destruct (Z.ltb_spec r N); try lia; destruct (Z.ltb_spec s N); try lia; rewrite ?andb_false_r; cbn [andb]; reflexivity).
  replace (0 <? r) with true by lia. replace (r <? N) with true by lia. replace (0 <? s) with true by lia. replace (s <? N) with true by lia.
  cbn [andb]. destruct (Z.eqb_spec ((r + s) mod N) 0) as [E|E]; cbn [negb andb]; [reflexivity|].
  pose proof (Z.mod_pos_bound (r + s) N). rewrite smul_pt by lia. cbn [rbind]. rewrite base_z by lia. rewrite sadd_pt. cbn [rbind].
  rewrite (@pt_cong c pt LW (s + D * ((r + s) mod N)) (s + D * (r + s))); [reflexivity|]. to_zq. rewrite zq_mod. reflexivity.
Qed.
Lemma verify_iff D hash r s : 0 <= D -> bytes_ok hash ->
  (sm_verify c (pt D) hash r s = Ok true <-> 0 < r < N /\ 0 < s < N /\ (r + s) mod N <> 0 /\ sm2_pair N pt D (be_val hash) r s).
Proof.
  intros HD B. rewrite verify_eq by auto. pose proof n_big as NB. split.
  - intros H. apply f_equal with (f := fun x => match x with Ok b => b | _ => false end) in H. cbn in H.
    repeat (apply andb_prop in H as [H ?]). repeat split; try lia.
    exists ((s + D * (r + s)) mod N). split; [apply Z.mod_pos_bound; lia|]. rewrite (lc_mod LW). split; [lia|].
    to_zq. rewrite zq_mod. apply Zq. f_equal. ring.
  - intros (R & S & T & k & K & Er & Es). replace (0 <? r) with true by lia. replace (r <? N) with true by lia.
    replace (0 <? s) with true by lia. replace (s <? N) with true by lia. cbn [andb]. rewrite (proj2 (Z.eqb_neq _ 0)) by auto. cbn [negb andb].
    f_equal. apply Z.eqb_eq. rewrite Er at 2. do 2 f_equal. f_equal. apply (pt_cong LW). apply Zq in Es. to_zq.
    replace (s + D * (r + s)) with (s * (1 + D) + r * D) by ring. rewrite Es. apply Zq. f_equal. ring.
Qed.
Lemma sign_inv rd D hash r s : bytes_ok rd -> bytes_ok hash -> sm_sign c rd D hash = Ok (r, s) ->
  exists k, 0 < k < N /\ sm_sign_k c k D hash = Ok (Some (r, s)).
Proof.
  intros B BH. unfold sm_sign.
  apply (sign_loop_inv (P := @bytes_ok) (Q := fun rs => exists k, 0 < k < N /\ sm_sign_k c k D hash = Ok (Some rs))); auto.
  all: unfold sm_sign_step; intros st a Hst H; destruct (sm_rand c st) as [[k rd']| |] eqn:Ek; try discriminate; cbn [rbind fst snd] in H;
    apply rand_ok in Ek as (Hk & Hrd' & _); auto; destruct (sm_sign_k c k D hash) as [[rs|]| |] eqn:Es; try discriminate; cbn [rbind] in H; injection H as <-; eauto.
Qed.
Lemma sign_verify rd D hash r s : 0 <= D -> bytes_ok rd -> bytes_ok hash -> sm_sign c rd D hash = Ok (r, s) ->
  0 <= r < N /\ 0 < s < N /\ sm2_pair N pt D (be_val hash) r s /\ sm_verify c (pt D) hash r s = Ok (negb (r =? 0)).
Proof.
  intros HD B BH H. apply sign_inv in H as (k & K & H); auto. apply sign_k_pair in H as (R & S & T & Er & Es); auto. pose proof n_big as NB.
  assert (P : sm2_pair N pt D (be_val hash) r s) by (exists k; split; [lia|auto]).
  repeat (split; auto). destruct (Z.eqb_spec r 0) as [E|E]; cbn [negb].
  - rewrite verify_eq by auto. replace (0 <? r) with false by lia. reflexivity.
  - apply verify_iff; auto. split; [lia|]. split; auto. split; auto. intros Z0. apply (T E).
    assert (Q : (r + k) mod N = 0).
    { apply Zq in Es. assert (Z1 : zq N (r + s) 0) by (apply Zq; rewrite Z0; symmetry; apply Z.mod_0_l; lia).
      assert (Z2 : zq N (r + k) 0).
      { transitivity (r + (k - r * D) + r * D); [apply Zq; f_equal; ring|]. rewrite <- Es.
        transitivity ((r + s) * (1 + D)); [apply Zq; f_equal; ring|]. rewrite Z1. reflexivity. }
      apply zq_eq in Z2. rewrite Z2. apply Z.mod_0_l. lia. }
    apply Z.mod_divide in Q; [|lia]. destruct Q as [q Q]. assert (q = 1) by nia. subst q. lia.
Qed.
Lemma sign_no_panic rd D hash : 0 <= D < N - 1 -> bytes_ok rd -> sm_sign c rd D hash <> Panic.
Proof.
  intros HD B. unfold sm_sign. apply (sign_loop_no_panic (P := @bytes_ok)); auto.
  - intros st Hst. unfold sm_sign_step. unfold sm_rand, read_full. destruct (Nat.leb _ _); cbn [rbind fst snd]; [|discriminate].
    destruct (sign_k_total (be_val (firstn (Nat.div (cBits c) 8 + 8) st) mod (N - 1) + 1) hash HD) as [o ->]. discriminate.
  - unfold sm_sign_step. intros st st' Hst H. destruct (sm_rand c st) as [[k rd']| |] eqn:Ek; try discriminate. cbn [rbind fst snd] in H.
    apply rand_ok in Ek as (_ & Hrd' & _); auto. destruct (sm_sign_k c k D hash) as [[rs|]| |]; try discriminate. cbn in H. congruence.
Qed.

(** * Identity digest *)
Definition abg : bytes := big_bytes (cP c - 3) ++ big_bytes cB ++ big_bytes (fst cG) ++ big_bytes (snd cG).
Lemma entl (n : nat) : Z.of_nat n < 8192 -> let e := (8 * Z.of_nat n) mod 2 ^ 16 in
  [Z.land (Z.shiftr e 8) 255; Z.land e 255] = be_bytes 2 (8 * Z.of_nat n).
Proof.
  intros H e. assert (E : e = 8 * Z.of_nat n) by (apply Z.mod_small; lia). rewrite E. clear E e.
  change 255 with (Z.ones 8). rewrite !Z.land_ones, Z.shiftr_div_pow2 by lia. unfold be_bytes. cbn [le_bytes rev app].
  unfold to_byte. reflexivity.
Qed.
Lemma za_pt D uid : sm_za c cB cG h (pt D) uid =
  if 8192 <=? Z.of_nat (length uid) then Err else Ok (hsum h (za_input L abg uid (pt D))).
Proof.
  unfold sm_za. destruct (Z.leb_spec 8192 (Z.of_nat (length uid))); auto. rewrite entl by auto. rewrite coords_pt. cbn [rbind fst snd].
  unfold za_input, point_os, abg. now rewrite <- !app_assoc.
Qed.
Lemma hash_pt D msg uid : sm_hash c cB cG h (pt D) msg uid =
  let id := if Nat.eqb (length uid) 0 then default_uid else uid in
  if 8192 <=? Z.of_nat (length uid) then Err else Ok (hsum h (hsum h (za_input L abg id (pt D)) ++ msg)).
Proof.
  unfold sm_hash. cbn zeta. rewrite za_pt. destruct (Nat.eqb_spec (length uid) 0) as [E|E].
  - rewrite E. reflexivity.
  - destruct (8192 <=? Z.of_nat (length uid)); reflexivity.
Qed.
Lemma za_input_inj g id id' a b : Z.of_nat (length id) < 8192 -> Z.of_nat (length id') < 8192 ->
  za_input L g id (pt a) = za_input L g id' (pt b) -> id = id' /\ pt a = pt b.
Proof.
  intros A B. unfold za_input, point_os. intros E.
  assert (E1 : be_bytes 2 (8 * Z.of_nat (length id)) = be_bytes 2 (8 * Z.of_nat (length id'))).
  { apply (f_equal (firstn 2)) in E. rewrite !firstn_app, !be_bytes_length, !firstn_all2 in E by (rewrite be_bytes_length; lia). cbn [Nat.sub firstn] in E.
    now rewrite !app_nil_r in E. }
  assert (E2 : length id = length id').
  { apply (f_equal be_val) in E1. rewrite !be_val_fit in E1 by (change (256 ^ Z.of_nat 2) with 65536; lia). lia. }
  rewrite E1 in E. apply app_inv_head in E.
  assert (X : forall a b c d : bytes, length a = length b -> a ++ c = b ++ d -> a = b /\ c = d).
  { clear. induction a; destruct b; cbn; intros; try discriminate; auto. injection H0 as -> H0. destruct (IHa b c d); auto. subst. auto. }
  apply X in E as [-> E]; auto. split; auto. apply app_inv_head in E. apply X in E as [E3 E4]; [|now rewrite !be_bytes_length].
  apply (f_equal be_val) in E3, E4. destruct (fits a), (fits b). rewrite !be_val_fit in * by auto.
  destruct (pt a), (pt b). cbn in *. congruence.
Qed.
End P.
