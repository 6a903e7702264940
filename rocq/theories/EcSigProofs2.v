(** Proofs for the elliptic-curve signature schemes, continued: EC-SDSA, EC-FSDSA, EC-KCDSA, EC-RDSA. *)
From Verif Require Import Base BigModel NumLib ModRw ElgProofs CurveModel CurveSpec EcSigModel EcSigSpec EcSigProofs.
Set Implicit Arguments. Unset Strict Implicit.
Local Open Scope Z_scope.

Lemma be_val_fit n z : 0 <= z < 256 ^ Z.of_nat n -> be_val (be_bytes n z) = z.
Proof. intros H. rewrite be_val_bytes. now apply Z.mod_small. Qed.
Lemma bytes_ok_cat a b : bytes_ok a -> bytes_ok b -> bytes_ok (a ++ b).
Proof. intros. apply bytes_ok_app. auto. Qed.
Lemma be_val_zeros n : be_val (repeat 0 n) = 0.
Proof.
  unfold be_val. assert (E : forall l, Forall (eq 0) l -> le_val l = 0) by (induction 1; cbn [le_val]; [reflexivity|subst; lia]).
  apply E, Forall_rev, Forall_forall. intros x Hx. apply repeat_spec in Hx. auto.
Qed.
Lemma byteceil_le n x : 0 <= x < 256 ^ Z.of_nat n -> (byteceil (bitlen x) <= n)%nat.
Proof.
  intros [H0 H]. unfold byteceil. assert (bitlen x <= 8 * n)%nat.
  { unfold bitlen. destruct (Z.eqb_spec x 0); [lia|]. rewrite Z.abs_eq by lia.
    assert (Z.log2 x < 8 * Z.of_nat n); [|pose proof (Z.log2_nonneg x); lia]. apply Z.log2_lt_pow2; [lia|]. rewrite Z.pow_mul_r by lia. exact H. }
  pose proof (Nat.div_le_upper_bound (bitlen x + 7) 8 n). destruct n; [|apply Nat.lt_succ_r, Nat.div_lt_upper_bound; lia].
  replace (bitlen x) with 0%nat by lia. cbn. lia.
Qed.
Lemma be_bytes_grow n m x : (n <= m)%nat -> 0 <= x < 256 ^ Z.of_nat n -> be_bytes m x = repeat 0 (m - n) ++ be_bytes n x.
Proof.
  intros Hn Hx. assert (Hm : 0 <= x < 256 ^ Z.of_nat m).
  { split; [lia|]. eapply Z.lt_le_trans; [apply Hx|]. apply Z.pow_le_mono_r; lia. }
  assert (Ho : bytes_ok (repeat 0 (m - n) ++ be_bytes n x)).
  { apply bytes_ok_cat; [|apply be_bytes_ok]. apply bytes_ok_repeat. split; lia. }
  assert (Hl : length (repeat 0 (m - n) ++ be_bytes n x) = m) by (rewrite app_length, repeat_length, be_bytes_length; lia).
  rewrite <- (be_bytes_val Ho Hl). f_equal. rewrite be_val_app, be_val_zeros, be_val_fit by auto. lia.
Qed.
Lemma pad_left_be n x : 0 <= x < 256 ^ Z.of_nat n -> pad_left n (big_bytes x) = be_bytes n x.
Proof.
  intros H. pose proof (byteceil_le H) as Hl. unfold pad_left, big_bytes. rewrite be_bytes_length, Z.abs_eq by lia.
  destruct (Nat.leb_spec n (byteceil (bitlen x))).
  - replace (byteceil (bitlen x)) with n by lia. rewrite firstn_all2; [reflexivity|]. rewrite be_bytes_length. lia.
  - symmetry. apply be_bytes_grow; [lia|]. split; [lia|]. apply byteceil_bound. lia.
Qed.
Lemma pad_right_eq n a : pad_right n a = firstn n (a ++ repeat 0 n).
Proof.
  unfold pad_right. destruct (Nat.leb_spec n (length a)).
  - rewrite firstn_app. replace (n - length a)%nat with 0%nat by lia. cbn. now rewrite app_nil_r.
  - rewrite firstn_app, firstn_all2 by lia. f_equal. clear. assert (E : forall m k, (m <= k)%nat -> firstn m (repeat 0 k) = repeat 0 m) by (induction m; intros [|k] ?; cbn; try lia; f_equal; auto; apply IHm; lia). rewrite E; [reflexivity|lia].
Qed.

Lemma all_zero_repeat l : forallb (Z.eqb 0) l = true -> l = repeat 0 (length l).
Proof. induction l as [|x l IH]; cbn [forallb repeat length]; auto. intros H. apply andb_prop in H as [H1 H2]. apply Z.eqb_eq in H1. subst x. f_equal. auto. Qed.

Section Sig2.
Variable (c : curve) (pt : Z -> Z * Z) (L : lawful_curve c pt).
Variable (h : hasher) (Hh : hasher_ok h).
Notation N := (cN c).

Lemma P_pos : 0 < cP c. Proof. pose proof (lc_coord L 0). lia. Qed.
Lemma coord_fits a : 0 <= fst (pt a) < 256 ^ Z.of_nat (plen c) /\ 0 <= snd (pt a) < 256 ^ Z.of_nat (plen c).
Proof. pose proof (lc_coord L a). pose proof P_pos. unfold plen. pose proof (byteceil_bound (Z.lt_le_incl _ _ P_pos)). lia. Qed.
Lemma ecs_point_eq opt a : ecs_point opt c (pt a) = Ok (point_os opt (plen c) (pt a)).
Proof.
  destruct (coord_fits a) as [Hx Hy]. unfold ecs_point, point_os. rewrite !fill_bytes_fits by auto. cbn [rbind].
  destruct opt; [now rewrite app_nil_r|reflexivity].
Qed.
Lemma hash_num m : 0 <= be_val (hsum h m) < 256 ^ Z.of_nat (hsize h).
Proof. destruct (Hh m) as [Hl Hb]. pose proof (be_val_bound Hb). now rewrite Hl in *. Qed.
Lemma fill_hash r m : 0 <= r -> r < 256 ^ Z.of_nat (hsize h) -> (be_bytes (hsize h) r = hsum h m <-> r = be_val (hsum h m)).
Proof.
  intros H0 H1. destruct (Hh m) as [Hl Hb]. split; intros H.
  - rewrite <- H, be_val_fit by lia. reflexivity.
  - rewrite H. now apply be_bytes_val.
Qed.
Definition ecs_hp opt msg (p : Z * Z) : Z := be_val (hsum h (point_os opt (plen c) p ++ msg)).

(** *** EC-SDSA and EC-OSDSA *)
Lemma sdsa_cong D r s k : s = (k + r * D) mod N -> D * ((- (r mod N)) mod N) + s =[N]= k.
Proof. intros ->. to_zq. rewrite !zq_mod. replace (D * - r + (k + r * D)) with k by ring. reflexivity. Qed.
Lemma sdsa_cong2 D r s : 0 < s < N -> s = ((D * ((- (r mod N)) mod N) + s) mod N + r * D) mod N.
Proof. intros Hs. apply mod_eq_small; [lia|]. to_zq. rewrite !zq_mod. replace (D * - r + s + r * D) with s by ring. reflexivity. Qed.

Lemma ecs_verify_eq opt key msg r s : straight_key c pt key ->
  ecs_verify opt c h (ePub key) msg r s = Ok true <->
  r mod N <> 0 /\ 0 < s < N /\ ecsdsa_pair N pt (eD key) (ecs_hp opt msg) r s.
Proof.
  intros K. unfold ecs_verify. rewrite (straight_on L K). cbn [negb]. destruct K as [HD ->]. pose proof (N_pos L) as HN.
  assert (E0 : (- (r mod N)) mod N = 0 <-> r mod N = 0).
  { split; intros E.
    - pose proof (modN L r). destruct (Z.eq_dec (r mod N) 0); auto. rewrite Z.mod_opp_l_nz in E; rewrite ?Z.mod_mod in *; lia.
    - rewrite E. now apply Z.mod_0_l; lia. }
  assert (Hneg : r <= 0 -> r mod N <> 0 -> ecsdsa_pair N pt (eD key) (ecs_hp opt msg) r s -> False).
  { intros Hr Hr0 (k & _ & E & _). unfold ecs_hp in E. pose proof (hash_num (point_os opt (plen c) (pt k) ++ msg)).
    apply Hr0. replace r with 0 by lia. apply Z.mod_0_l. lia. }
  destruct (Z.leb_spec r 0) as [Hr|Hr]; [cbn; split; [discriminate|intros (A & B & C); exfalso; eauto]|].
  destruct (Z.leb_spec s 0); [cbn; split; [discriminate|lia]|]. cbn [orb].
  destruct (Z.leb_spec N s); [split; [discriminate|lia]|].
  set (e := (- (r mod N)) mod N) in *. destruct (Z.eqb_spec e 0) as [Ee|Ee]; [split; [discriminate|tauto]|].
  rewrite (lin_pt L) by (try apply (modN L); lia). set (k := (eD key * e + s) mod N).
  replace (pt (eD key * e + s)) with (pt k) by (apply (lc_mod L)).
  rewrite ecs_point_eq. cbn [rbind].
  destruct (Z.ltb_spec r (256 ^ Z.of_nat (hsize h))) as [Hf|Hf].
  - rewrite fill_bytes_fits by lia. cbn [rbind]. split.
    + intros [= E]. apply beq_true in E. apply fill_hash in E; [|lia|lia]. split; [tauto|]. split; [lia|].
      exists k. split; [apply (modN L)|]. split; [exact E|]. apply sdsa_cong2. lia.
    + intros (_ & _ & k' & Hk & E & Es). f_equal. apply beq_true. apply fill_hash; [lia|lia|].
      apply sdsa_cong in Es. fold e in Es. unfold ecs_hp in E. replace (pt k) with (pt k'); [exact E|].
      apply (pt_cong L). unfold k. now rewrite Z.mod_mod by lia.
  - rewrite fill_bytes_panics by lia. split; [discriminate|]. intros (_ & _ & k' & Hk & E & Es).
    unfold ecs_hp in E. pose proof (hash_num (point_os opt (plen c) (pt k') ++ msg)). lia.
Qed.
Lemma ecs_verify_panics opt key msg r s : straight_key c pt key ->
  (ecs_verify opt c h (ePub key) msg r s = Panic <-> 256 ^ Z.of_nat (hsize h) <= r /\ r mod N <> 0 /\ 0 < s < N).
Proof.
  intros K. unfold ecs_verify. rewrite (straight_on L K). cbn [negb]. destruct K as [HD ->]. pose proof (N_pos L) as HN.
  assert (Hp : 0 < 256 ^ Z.of_nat (hsize h)) by (apply Z.pow_pos_nonneg; lia).
  assert (E0 : (- (r mod N)) mod N = 0 <-> r mod N = 0).
  { split; intros E.
    - pose proof (modN L r). destruct (Z.eq_dec (r mod N) 0); auto. rewrite Z.mod_opp_l_nz in E; rewrite ?Z.mod_mod in *; lia.
    - rewrite E. now apply Z.mod_0_l; lia. }
  destruct (Z.leb_spec r 0) as [Hr|Hr]; [cbn; split; [discriminate|lia]|].
  destruct (Z.leb_spec s 0); [cbn; split; [discriminate|lia]|]. cbn [orb].
  destruct (Z.leb_spec N s); [split; [discriminate|lia]|].
  set (e := (- (r mod N)) mod N) in *. destruct (Z.eqb_spec e 0) as [Ee|Ee]; [split; [discriminate|tauto]|].
  rewrite (lin_pt L) by (try apply (modN L); lia). rewrite ecs_point_eq. cbn [rbind].
  destruct (Z.ltb_spec r (256 ^ Z.of_nat (hsize h))) as [Hf|Hf].
  - rewrite fill_bytes_fits by lia. cbn [rbind]. split; [discriminate|lia].
  - rewrite fill_bytes_panics by lia. cbn [rbind]. split; [|reflexivity]. intros _. split; [lia|]. split; [tauto|lia].
Qed.
Lemma ecs_first opt rd key msg k rd' : straight_key c pt key -> rand_field N rd = Ok (k, rd') -> bytes_ok rd ->
  ecs_hp opt msg (pt k) mod N <> 0 -> (k + ecs_hp opt msg (pt k) * eD key) mod N <> 0 ->
  exists r s, ecs_sign opt c h rd key msg = Ok (r, s) /\ r = ecs_hp opt msg (pt k) /\ s = (k + r * eD key) mod N /\ 0 < k < N.
Proof.
  intros K Hk Hrd He Hs. pose proof Hk as Hk'. apply rand_field_ok in Hk' as [Hk' _]; auto.
  unfold ecs_sign. rewrite (straight_on L K). cbn [negb sign_loop]. unfold ecs_round at 1. cbn [fst snd]. rewrite Hk. cbn [rbind fst snd].
  rewrite (base_pt L) by lia. rewrite ecs_point_eq. cbn [rbind app]. fold (ecs_hp opt msg (pt k)).
  destruct (Z.eqb_spec (ecs_hp opt msg (pt k) mod N) 0); [contradiction|].
  assert (E : (k + (ecs_hp opt msg (pt k) mod N * eD key) mod N) mod N = (k + ecs_hp opt msg (pt k) * eD key) mod N) by (to_zq; now rewrite !zq_mod).
  rewrite E. destruct (Z.eqb_spec ((k + ecs_hp opt msg (pt k) * eD key) mod N) 0); [contradiction|]. eauto 10.
Qed.

(** *** EC-FSDSA *)
Definition ecf_os (p : Z * Z) : Z := be_val (point_os false (plen c) p).
Lemma point_os_length p : length (point_os false (plen c) p) = (2 * plen c)%nat.
Proof. unfold point_os. rewrite app_length, !be_bytes_length. lia. Qed.
Lemma point_os_ok opt p : bytes_ok (point_os opt (plen c) p).
Proof. unfold point_os. apply bytes_ok_cat; [apply be_bytes_ok|]. destruct opt; [constructor|apply be_bytes_ok]. Qed.
Lemma ecf_os_bound p : 0 <= ecf_os p < 256 ^ Z.of_nat (2 * plen c).
Proof. unfold ecf_os. pose proof (be_val_bound (point_os_ok false p)). now rewrite point_os_length in *. Qed.
Lemma ecf_os_bytes p : be_bytes (2 * plen c) (ecf_os p) = point_os false (plen c) p.
Proof. unfold ecf_os. apply be_bytes_val; [apply point_os_ok|apply point_os_length]. Qed.
Lemma ecf_os_back a : (be_val (firstn (plen c) (point_os false (plen c) (pt a))), be_val (skipn (plen c) (point_os false (plen c) (pt a)))) = pt a.
Proof.
  destruct (coord_fits a) as [Hx Hy]. unfold point_os.
  rewrite firstn_app_exact, skipn_app_exact by apply be_bytes_length. rewrite !be_val_fit by auto. now destruct (pt a).
Qed.
Lemma ecf_os_zero a : a mod N <> 0 -> ecf_os (pt a) <> 0.
Proof.
  intros Ha E. pose proof (ecf_os_back a) as B. pose proof (coord_fits a) as C. unfold ecf_os, point_os in E.
  rewrite be_val_app, !be_val_fit, be_bytes_length in E by apply C.
  assert (0 < 256 ^ Z.of_nat (plen c)) by (apply Z.pow_pos_nonneg; lia).
  assert (Hx : fst (pt a) = 0) by nia. assert (Hy : snd (pt a) = 0) by nia.
  pose proof (lc_on L Ha) as O. destruct (pt a) as [x y]. cbn in *. subst. rewrite (lc_off L) in O. discriminate.
Qed.
Lemma ecf_verify_eq key msg r s : straight_key c pt key ->
  ecf_verify c h (ePub key) msg r s = Ok true <->
  0 < r /\ 0 < s < N /\ ecfsdsa_pair N pt (eD key) ecf_os (ecs_hp false msg) r s.
Proof.
  intros K. unfold ecf_verify. rewrite (straight_on L K). cbn [negb]. destruct K as [HD ->]. pose proof (N_pos L) as HN.
  destruct (Z.leb_spec r 0) as [Hr|Hr]; [cbn; split; [discriminate|lia]|].
  destruct (Z.leb_spec s 0); [cbn; split; [discriminate|lia]|]. cbn [orb].
  destruct (Z.leb_spec N s); [split; [discriminate|lia]|].
  destruct (Z.ltb_spec r (256 ^ Z.of_nat (2 * plen c))) as [Hf|Hf].
  2:{ rewrite fill_bytes_panics by lia. split; [discriminate|]. intros (_ & _ & k & _ & E & _). pose proof (ecf_os_bound (pt k)). lia. }
  rewrite fill_bytes_fits by lia. cbn [rbind]. set (rb := be_bytes (2 * plen c) r).
  assert (Hrb : r = be_val rb) by (unfold rb; now rewrite be_val_fit by lia).
  set (e := (- (be_val (hsum h (rb ++ msg)) mod N)) mod N).
  rewrite (lin_pt L) by (try apply (modN L); lia). set (k := (eD key * e + s) mod N).
  replace (pt (eD key * e + s)) with (pt k) by (apply (lc_mod L)). rewrite ecs_point_eq. cbn [rbind].
  split.
  - destruct (on_curve c _); [|discriminate]. cbn [negb]. intros [= E]. apply beq_true in E.
    split; [lia|]. split; [lia|]. exists k. split; [apply (modN L)|].
    split; [unfold ecf_os; now rewrite <- E|]. unfold ecs_hp. rewrite <- E. apply sdsa_cong2. lia.
  - intros (_ & _ & k' & Hk & E & Es).
    assert (Hb : rb = point_os false (plen c) (pt k')) by (unfold rb; rewrite E; apply ecf_os_bytes).
    rewrite Hb, ecf_os_back.
    assert (Hk0 : k' mod N <> 0).
    { intros Z0. rewrite Z.mod_small in Z0 by lia. subst k'. rewrite (lc_zero L) in E. unfold ecf_os, point_os in E. cbn [fst snd] in E.
      rewrite be_val_app, !be_val_fit in E by (split; [lia|apply Z.pow_pos_nonneg; lia]). lia. }
    rewrite (lc_on L Hk0). cbn [negb]. f_equal. apply beq_true. f_equal. apply (pt_cong L). unfold k.
    rewrite Z.mod_mod by lia. symmetry. unfold e. rewrite Hb. apply sdsa_cong. exact Es.
Qed.
Lemma ecf_verify_panics key msg r s : straight_key c pt key ->
  (ecf_verify c h (ePub key) msg r s = Panic <-> 256 ^ Z.of_nat (2 * plen c) <= r /\ 0 < s < N).
Proof.
  intros K. unfold ecf_verify. rewrite (straight_on L K). cbn [negb]. destruct K as [HD ->]. pose proof (N_pos L) as HN.
  assert (Hp : 0 < 256 ^ Z.of_nat (2 * plen c)) by (apply Z.pow_pos_nonneg; lia).
  destruct (Z.leb_spec r 0) as [Hr|Hr]; [cbn; split; [discriminate|lia]|].
  destruct (Z.leb_spec s 0); [cbn; split; [discriminate|lia]|]. cbn [orb].
  destruct (Z.leb_spec N s); [split; [discriminate|lia]|].
  destruct (Z.ltb_spec r (256 ^ Z.of_nat (2 * plen c))) as [Hf|Hf].
  2:{ rewrite fill_bytes_panics by lia. split; [|reflexivity]. lia. }
  rewrite fill_bytes_fits by lia. cbn [rbind].
  rewrite (lin_pt L) by (try apply (modN L); lia). rewrite ecs_point_eq. cbn [rbind].
  destruct (on_curve c _); cbn [negb]; split; try discriminate; lia.
Qed.
Lemma ecf_first rd key msg k rd' : straight_key c pt key -> rand_field N rd = Ok (k, rd') -> bytes_ok rd ->
  (k + ecs_hp false msg (pt k) * eD key) mod N <> 0 ->
  exists r s, ecf_sign c h rd key msg = Ok (r, s) /\ r = ecf_os (pt k) /\ s = (k + ecs_hp false msg (pt k) * eD key) mod N /\ 0 < k < N.
Proof.
  intros K Hk Hrd Hs. pose proof Hk as Hk'. apply rand_field_ok in Hk' as [Hk' _]; auto.
  unfold ecf_sign. rewrite (straight_on L K). cbn [negb sign_loop]. unfold ecf_round at 1. cbn [fst snd]. rewrite Hk. cbn [rbind fst snd].
  rewrite (base_pt L) by lia. rewrite ecs_point_eq. cbn [rbind app]. fold (ecs_hp false msg (pt k)).
  destruct (forallb (Z.eqb 0) (point_os false (plen c) (pt k))) eqn:Ez.
  { exfalso. apply (@ecf_os_zero k); [rewrite Z.mod_small; lia|]. unfold ecf_os.
    rewrite (all_zero_repeat Ez). apply be_val_zeros. }
  assert (E : (k + (ecs_hp false msg (pt k) mod N * eD key) mod N) mod N = (k + ecs_hp false msg (pt k) * eD key) mod N) by (to_zq; now rewrite !zq_mod).
  rewrite E. destruct (Z.eqb_spec ((k + ecs_hp false msg (pt k) * eD key) mod N) 0); [contradiction|]. eauto 10.
Qed.

(** *** EC-RDSA *)
Definition ecr_num (iso : bool) (msg : bytes) : Z :=
  let e := be_val (if iso then rev (hsum h msg) else hsum h msg) mod N in if e =? 0 then 1 else e.
Lemma ecr_num_range iso msg : 0 < ecr_num iso msg < N.
Proof. unfold ecr_num. pose proof (N_pos L). pose proof (modN L (be_val (if iso then rev (hsum h msg) else hsum h msg))). cbn zeta. destruct (Z.eqb_spec (be_val (if iso then rev (hsum h msg) else hsum h msg) mod N) 0); lia. Qed.
Lemma ecr_verify_total iso pub msg r s : ecr_verify c h iso pub msg r s <> Panic.
Proof.
  unfold ecr_verify. destruct (negb _); [discriminate|]. destruct (_ || _); [discriminate|]. destruct (_ || _); [discriminate|].
  change (ecr_e c h iso msg) with (ecr_num iso msg). pose proof (ecr_num_range iso msg) as He. pose proof (N_pos L).
  destruct (@mod_inverse_ok (ecr_num iso msg) N) as [i Hi]; [lia|now apply (prime_gcd (lc_prime L))|]. rewrite Hi. discriminate.
Qed.
Lemma ecr_verify_eq iso key msg r s : straight_key c pt key ->
  ecr_verify c h iso (ePub key) msg r s = Ok true <-> 0 < r /\ 0 < s /\ ecrdsa_pair N pt (eD key) (ecr_num iso msg) r s.
Proof.
  intros K. unfold ecr_verify. rewrite (straight_on L K). cbn [negb]. destruct K as [HD ->]. pose proof (N_pos L) as HN.
  change (ecr_e c h iso msg) with (ecr_num iso msg). pose proof (ecr_num_range iso msg) as He. set (e := ecr_num iso msg) in *.
  destruct (Z.leb_spec r 0) as [Hr|Hr]; [cbn; split; [discriminate|lia]|].
  destruct (Z.leb_spec s 0); [cbn; split; [discriminate|lia]|]. cbn [orb].
  destruct (Z.leb_spec N r).
  { split; [discriminate|]. intros (_ & _ & k & _ & E & _). pose proof (modN L (fst (pt k))). lia. }
  destruct (Z.leb_spec N s).
  { split; [discriminate|]. intros (_ & _ & k & _ & _ & E). pose proof (modN L (r * eD key + k * e)). lia. }
  cbn [orb]. destruct (@mod_inverse_ok e N) as [i Hi]; [lia|now apply (prime_gcd (lc_prime L))|]. rewrite Hi.
  apply mod_inverse_some in Hi as [Hi Hi2]; [|lia]. rewrite (lin_pt L) by apply (modN L).
  set (a := eD key * ((- ((i * r) mod N)) mod N) + (i * s) mod N).
  assert (Ha : a =[N]= i * (s - r * eD key)).
  { unfold a. to_zq. rewrite !zq_mod. replace (eD key * - (i * r) + i * s) with (i * (s - r * eD key)) by ring. reflexivity. }
  zq_of Hi2. split.
  - intros [= E]. apply Z.eqb_eq in E. split; [lia|]. split; [lia|]. exists (a mod N). split; [apply (modN L)|].
    rewrite (lc_mod L). split; [exact E|]. apply mod_eq_small; [lia|]. zq_of Ha. to_zq. rewrite zq_mod, Ha.
    replace (r * eD key + i * (s - r * eD key) * e) with (r * eD key + (i * e) * (s - r * eD key)) by ring. rewrite Hi2.
    replace (r * eD key + 1 * (s - r * eD key)) with s by ring. reflexivity.
  - intros (_ & _ & k & Hk & E & Es). f_equal. apply Z.eqb_eq. rewrite E. f_equal. f_equal. apply (pt_cong L). rewrite Ha.
    to_zq. rewrite Es, zq_mod. replace (i * (r * eD key + k * e - r * eD key)) with ((i * e) * k) by ring. rewrite Hi2.
    replace (1 * k) with k by ring. reflexivity.
Qed.
Lemma ecr_first iso rd key msg k rd' : straight_key c pt key -> rand_field N rd = Ok (k, rd') -> bytes_ok rd ->
  fst (pt k) mod N <> 0 -> (fst (pt k) mod N * eD key + k * ecr_num iso msg) mod N <> 0 ->
  exists r s, ecr_sign c h iso rd key msg = Ok (r, s) /\ r = fst (pt k) mod N /\ s = (r * eD key + k * ecr_num iso msg) mod N /\ 0 < k < N.
Proof.
  intros K Hk Hrd He Hs. pose proof Hk as Hk'. apply rand_field_ok in Hk' as [Hk' _]; auto.
  unfold ecr_sign. rewrite (straight_on L K). cbn [negb sign_loop]. unfold ecr_round at 1. cbn [fst snd]. rewrite Hk. cbn [rbind fst snd app].
  rewrite (base_pt L) by lia. change (ecr_e c h iso msg) with (ecr_num iso msg). set (r := fst (pt k) mod N) in *.
  destruct (Z.eqb_spec r 0); [contradiction|]. rewrite <- Zplus_mod.
  destruct (Z.eqb_spec ((r * eD key + k * ecr_num iso msg) mod N) 0); [contradiction|]. eauto 10.
Qed.

(** *** EC-KCDSA *)
Definition eck_low (m : bytes) : Z := be_val (skipn (hsize h - byteceil (bitlen N)) (hsum h m)).
Lemma eck_num_eq m : eck_num c h m = eck_low m.
Proof.
  unfold eck_num, eck_low. destruct (Hh m) as [Hl Hb]. destruct (Nat.ltb_spec (byteceil (bitlen N)) (hsize h)).
  - rewrite <- Hl. rewrite be_val_skipn; auto; lia.
  - replace (hsize h - byteceil (bitlen N))%nat with 0%nat by lia. reflexivity.
Qed.
Lemma eck_low_bound m : 0 <= eck_low m < 256 ^ Z.of_nat (Nat.min (hsize h) (byteceil (bitlen N))).
Proof.
  unfold eck_low. destruct (Hh m) as [Hl Hb]. pose proof (be_val_bound (bytes_ok_skipn (hsize h - byteceil (bitlen N)) Hb)) as B.
  rewrite skipn_length, Hl in B. replace (Nat.min (hsize h) (byteceil (bitlen N))) with (hsize h - (hsize h - byteceil (bitlen N)))%nat by lia. exact B.
Qed.
Definition eck_hx (x : Z) : Z := eck_low (be_bytes (flen c) x).
Definition eck_hm (pub : Z * Z) (msg : bytes) : Z :=
  eck_low (firstn (hblock h) (be_bytes (flen c) (fst pub) ++ be_bytes (flen c) (snd pub) ++ repeat 0 (hblock h)) ++ msg).
Hypothesis Sz : sized c.
Lemma coord_fits2 a : 0 <= fst (pt a) < 256 ^ Z.of_nat (flen c) /\ 0 <= snd (pt a) < 256 ^ Z.of_nat (flen c).
Proof. pose proof (lc_coord L a). destruct Sz as (_ & _ & HS). unfold flen. lia. Qed.
Lemma eck_r_eq a : eck_r c h (fst (pt a)) = eck_hx (fst (pt a)).
Proof. unfold eck_r, eck_hx. rewrite eck_num_eq. f_equal. apply pad_left_be, coord_fits2. Qed.
Lemma eck_v_eq a msg : eck_v c h (pt a) msg = eck_hm (pt a) msg.
Proof. unfold eck_v, eck_hm. rewrite eck_num_eq, !pad_left_be, pad_right_eq, <- app_assoc by apply coord_fits2. reflexivity. Qed.
Lemma eck_verify_eq key msg r s : inverted_key c pt key ->
  eck_verify c h (ePub key) msg r s = Ok true <-> 0 < r /\ 0 < s /\ eckcdsa_pair N pt (eD key) eck_hx (eck_hm (ePub key) msg) r s.
Proof.
  intros K. unfold eck_verify. rewrite (inverted_on L K). cbn [negb]. destruct K as (HD & d & Hd & ->). pose proof (N_pos L) as HN.
  rewrite (one_mod L) in Hd. zq_of Hd. rewrite eck_v_eq. set (v := eck_hm (pt d) msg).
  destruct (Z.leb_spec r 0) as [Hr|Hr]; [cbn; split; [discriminate|lia]|].
  destruct (Z.leb_spec s 0); [cbn; split; [discriminate|lia]|]. cbn [orb].
  replace (if (byteceil (bitlen N) <? hsize h)%nat then byteceil (bitlen N) else hsize h) with (Nat.min (hsize h) (byteceil (bitlen N))) by (destruct (Nat.ltb_spec (byteceil (bitlen N)) (hsize h)); lia).
  destruct (Nat.ltb_spec (Nat.min (hsize h) (byteceil (bitlen N))) (byteceil (bitlen r))) as [Hw|Hw].
  { split; [discriminate|]. intros (_ & _ & k & _ & E & _). exfalso. unfold eck_hx in E. pose proof (eck_low_bound (be_bytes (flen c) (fst (pt k)))) as B.
    rewrite <- E in B. apply byteceil_le in B. lia. }
  destruct (Z.leb_spec N s).
  { split; [discriminate|]. intros (_ & _ & k & _ & _ & E). pose proof (modN L (eD key * (k - Z.lxor r v))). lia. }
  rewrite (lin_pt L) by (try apply (modN L); lia). set (a := d * s + Z.lxor r v mod N). rewrite eck_r_eq. split.
  - intros [= E]. apply Z.eqb_eq in E. split; [lia|]. split; [lia|]. exists (a mod N). split; [apply (modN L)|].
    rewrite (lc_mod L). split; [exact E|]. apply mod_eq_small; [lia|]. to_zq. unfold a. rewrite !zq_mod.
    replace (eD key * (d * s + Z.lxor r v - Z.lxor r v)) with ((d * eD key) * s) by ring. rewrite Hd. replace (1 * s) with s by ring. reflexivity.
  - intros (_ & _ & k & Hk & E & Es). f_equal. apply Z.eqb_eq. rewrite E. f_equal. f_equal. apply (pt_cong L). unfold a.
    to_zq. rewrite zq_mod. rewrite Es, zq_mod. replace (d * (eD key * (k - Z.lxor r v)) + Z.lxor r v) with ((d * eD key) * (k - Z.lxor r v) + Z.lxor r v) by ring.
    rewrite Hd. replace (1 * (k - Z.lxor r v) + Z.lxor r v) with k by ring. reflexivity.
Qed.
Lemma eck_verify_total pub msg r s : eck_verify c h pub msg r s <> Panic.
Proof. unfold eck_verify. destruct (negb _); [discriminate|]. destruct (_ || _); [discriminate|]. destruct (_ <? _)%nat; [discriminate|]. destruct (_ <=? _); discriminate. Qed.
Lemma eck_sign_pair rd key msg r s : inverted_key c pt key -> bytes_ok rd -> eck_sign c h rd key msg = Ok (r, s) ->
  0 <= r < 256 ^ Z.of_nat (Nat.min (hsize h) (byteceil (bitlen N))) /\ 0 < s < N /\ eckcdsa_pair N pt (eD key) eck_hx (eck_hm (ePub key) msg) r s.
Proof.
  intros K Hrd. unfold eck_sign. pose proof (N_pos L) as HN.
  apply (sign_loop_inv (P := @bytes_ok) (Q := fun rs => 0 <= fst rs < 256 ^ Z.of_nat (Nat.min (hsize h) (byteceil (bitlen N))) /\ 0 < snd rs < N /\ eckcdsa_pair N pt (eD key) eck_hx (eck_hm (ePub key) msg) (fst rs) (snd rs))); auto.
  all: intros st a Hst H; destruct (rand_field N st) as [[k rd']| |] eqn:Ek; try discriminate; cbn [rbind fst snd] in H;
    apply rand_field_ok in Ek as [Hk Hrd']; auto.
  all: unfold eck_using in H; rewrite (inverted_on L K) in H; cbn [negb rbind] in H.
  all: destruct (Z.leb_spec ((eD key * ((k - Z.lxor (eck_r c h (fst (cbase c (big_bytes k)))) (eck_v c h (ePub key) msg) mod N) mod N)) mod N) 0) as [Hs|Hs]; try discriminate; try congruence.
  rewrite (base_pt L) in * by lia. rewrite eck_r_eq in *. injection H as <-. cbn [fst snd].
  destruct K as (HD & d & Hd & EP). rewrite EP in *. rewrite eck_v_eq in *.
  split; [apply eck_low_bound|]. split; [split; [lia|apply (modN L)]|]. exists k. split; [lia|]. split; [reflexivity|].
  to_zq. rewrite !zq_mod. reflexivity.
Qed.
End Sig2.
