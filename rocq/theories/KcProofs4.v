(** GenerateX and the domain parameters of kcdsa. *)
From Verif Require Import Base BigModel NumLib ElgProofs CurveModel CurveSpec EcSigProofs EcSigProofs2 Ec2Proofs2 KcModel KcSpec KcProofs.
From Coq Require Import Znumtheory.
Set Implicit Arguments. Unset Strict Implicit.
Local Open Scope Z_scope.

(** addition with carry, last byte first *)
Lemma add_carry_ok : forall s k c, bytes_ok s -> bytes_ok k -> 0 <= c <= 1 ->
  bytes_ok (add_carry s k c) /\ length (add_carry s k c) = length s /\ le_val (add_carry s k c) = (le_val s + le_val k + c) mod 256 ^ Z.of_nat (length s).
Proof.
  induction s as [|x s IH]; intros k c Hs Hk Hc.
  - cbn [add_carry length]. split; [constructor|]. split; [reflexivity|]. change (256 ^ Z.of_nat 0) with 1. now rewrite Z.mod_1_r.
  - cbn [add_carry]. apply Forall_inv in Hs as Hx. apply Forall_inv_tail in Hs as Hs'. set (y := match k with y :: _ => y | [] => 0 end).
    assert (Hy : 0 <= y < 256) by (destruct k; [lia|apply Forall_inv in Hk; exact Hk]). unfold is_byte in Hx.
    assert (Hk' : bytes_ok (tl k)) by (destruct k; [constructor|now apply Forall_inv_tail in Hk]).
    set (sum := x + c + y). assert (Ec : Z.shiftr sum 8 = sum / 256) by (rewrite Z.shiftr_div_pow2 by lia; reflexivity).
    assert (Hc' : 0 <= sum / 256 <= 1). { split; [apply Z.div_pos; lia|]. assert (sum / 256 < 2); [|lia]. apply Z.div_lt_upper_bound; lia. }
    rewrite Ec. destruct (IH (tl k) (sum / 256) Hs' Hk' Hc') as (O & L & V). split; [|split].
    + constructor; [|exact O]. apply Z.mod_pos_bound. lia.
    + cbn [length]. now rewrite L.
    + cbn [le_val length]. rewrite V. unfold to_byte. replace (Z.of_nat (S (length s))) with (1 + Z.of_nat (length s)) by lia. rewrite Z.pow_add_r by lia. change (256 ^ 1) with 256.
      assert (P : 0 < 256 ^ Z.of_nat (length s)) by (apply Z.pow_pos_nonneg; lia). rewrite Z.rem_mul_r by lia.
      assert (Ek : le_val k = y + 256 * le_val (tl k)) by (destruct k; reflexivity). rewrite Ek.
      replace (x + 256 * le_val s + (y + 256 * le_val (tl k)) + c) with (sum + (le_val s + le_val (tl k)) * 256) by (unfold sum; ring).
      rewrite Z.mod_add, Z.div_add by lia. f_equal. f_equal. f_equal. ring.
Qed.
Lemma add_rev s k : bytes_ok s -> bytes_ok k ->
  let r := rev (add_carry (rev s) (rev k) 0) in bytes_ok r /\ length r = length s /\ be_val r = (be_val s + be_val k) mod 256 ^ Z.of_nat (length s).
Proof.
  intros Hs Hk r. destruct (@add_carry_ok (rev s) (rev k) 0) as (O & L & V); [now apply Forall_rev|now apply Forall_rev|lia|].
  unfold r. split; [now apply Forall_rev|]. rewrite rev_length, L, rev_length. split; [reflexivity|]. rewrite be_val_rev, V, rev_length. unfold be_val. f_equal. ring.
Qed.

Lemma fresh_len bits : length (fresh bits) = byteceil bits. Proof. apply repeat_length. Qed.
Lemma x_ok q upri xkey z : hasher_ok (kH z) -> (0 < hsize (kH z))%nat -> bytes_ok xkey ->
  let v := ppgf_value (hsum (kH z)) (hsize (kH z)) in
  kc_x q upri xkey z = Ok (v (be_bytes (byteceil (kB z)) ((be_val xkey + v upri (kB z)) mod 2 ^ Z.of_nat (kB z))) (kB z) mod q).
Proof.
  intros Hh Hs Hk v. unfold kc_x. destruct (@ppgf_ok (kH z) Hh Hs (fresh (kB z)) (kB z) upri (fresh_len _)) as (b & -> & Ob & Lb & Vb). cbn [rbind].
  destruct (@add_rev b xkey Ob Hk) as (Or & Lr & Vr). cbv zeta in *. set (r := rev (add_carry (rev b) (rev xkey) 0)) in *.
  destruct (@right_ok (kB z) r Or) as (x & -> & Ox & Lx & Vx); [right; rewrite Lr, Lb; lia|]. cbn [rbind].
  destruct (@ppgf_ok (kH z) Hh Hs (fresh (kB z)) (kB z) x (fresh_len _)) as (c & -> & _ & _ & Vc). cbn [rbind]. f_equal. rewrite Vc. unfold v.
  assert (Ex : x = be_bytes (byteceil (kB z)) ((be_val xkey + ppgf_value (hsum (kH z)) (hsize (kH z)) upri (kB z)) mod 2 ^ Z.of_nat (kB z))).
  { rewrite <- (be_bytes_val Ox (n := byteceil (kB z))) by (rewrite Lx, Lr, Lb; lia). f_equal. rewrite Vx, Vr, Vb, Lb, pow256. pose proof (byteceil_ge (kB z)).
    rewrite mod_mod_pow by lia. f_equal. ring. }
  rewrite <- Ex. reflexivity.
Qed.

(** numbers with the top and the bottom bit set *)
Lemma bitlen_is v n : (0 < n)%nat -> 2 ^ Z.of_nat (n - 1) <= v < 2 ^ Z.of_nat n -> bitlen v = n.
Proof.
  intros Hn Hv. assert (0 < v) by (pose proof (Z.pow_pos_nonneg 2 (Z.of_nat (n - 1)) ltac:(lia) ltac:(lia)); lia). destruct (bitlen_bound v) as [B|]; [|lia]. pose proof (@bitlen_low v ltac:(lia)) as L.
  pose proof (@bitlen_pos v ltac:(lia)).
  destruct (Nat.lt_trichotomy (bitlen v) n) as [C|[C|C]]; [|exact C|].
  - assert (2 ^ Z.of_nat (bitlen v) <= 2 ^ Z.of_nat (n - 1)) by (apply Z.pow_le_mono_r; lia). lia.
  - assert (2 ^ Z.of_nat n <= 2 ^ Z.of_nat (bitlen v - 1)) by (apply Z.pow_le_mono_r; lia). lia.
Qed.
Lemma lor_bound a b n : 0 <= n -> 0 <= a < 2 ^ n -> 0 <= b < 2 ^ n -> 0 <= Z.lor a b < 2 ^ n.
Proof.
  intros Hn Ha Hb. split; [apply Z.lor_nonneg; lia|]. destruct (Z.eq_dec (Z.lor a b) 0) as [->|N]; [lia|].
  assert (0 < Z.lor a b) by (pose proof (Z.lor_nonneg a b); lia). apply Z.log2_lt_pow2; [lia|]. rewrite Z.log2_lor by lia.
  destruct (Z.eq_dec n 0) as [->|]; [change (2 ^ 0) with 1 in *; assert (a = 0) by lia; assert (b = 0) by lia; subst; now elim N|].
  apply Z.max_lub_lt; [destruct (Z.eq_dec a 0) as [->|]|destruct (Z.eq_dec b 0) as [->|]]; try (cbn; lia); apply Z.log2_lt_pow2; lia.
Qed.
Lemma odd_top_ok v n : (0 < n)%nat -> 0 <= v < 2 ^ Z.of_nat n -> 2 ^ Z.of_nat (n - 1) <= odd_top v (n - 1) < 2 ^ Z.of_nat n /\ Z.odd (odd_top v (n - 1)) = true.
Proof.
  intros Hn Hv. unfold odd_top. assert (P1 : 1 < 2 ^ Z.of_nat n) by (apply Z.pow_gt_1; lia). assert (P2 : 2 ^ Z.of_nat (n - 1) < 2 ^ Z.of_nat n) by (apply Z.pow_lt_mono_r; lia).
  pose proof (Z.pow_pos_nonneg 2 (Z.of_nat (n - 1)) ltac:(lia) ltac:(lia)) as P0. assert (B1 : 0 <= Z.lor v 1 < 2 ^ Z.of_nat n) by (apply lor_bound; lia).
  assert (B2 : 0 <= Z.lor (Z.lor v 1) (2 ^ Z.of_nat (n - 1)) < 2 ^ Z.of_nat n) by (apply lor_bound; lia).
  split; [split; [|lia]|].
  - set (y := Z.lor (Z.lor v 1) (2 ^ Z.of_nat (n - 1))) in *. assert (T : Z.testbit y (Z.of_nat (n - 1)) = true) by (unfold y; rewrite Z.lor_spec, Z.pow2_bits_true by lia; apply orb_true_r).
    destruct (Z.lt_ge_cases y (2 ^ Z.of_nat (n - 1))) as [C|C]; [|exact C]. rewrite <- (Z.mod_small y (2 ^ Z.of_nat (n - 1))) in T by lia. rewrite Z.mod_pow2_bits_high in T by lia. discriminate.
  - rewrite <- Z.bit0_odd, !Z.lor_spec. change (Z.testbit 1 0) with true. now rewrite orb_true_r.
Qed.

Section primes.
Variable pp : Z -> bool.
(** one candidate for P *)
Lemma fast_p_ok z q rd o rd' : (1 < kA z)%nat -> 1 < q < 2 ^ Z.of_nat (kA z) -> bytes_ok rd -> fast_p pp z q rd = Ok (o, rd') ->
  bytes_ok rd' /\ match o with
  | Some p => pp p = true /\ (q | p - 1) /\ 2 ^ Z.of_nat (kA z - 1) <= p <= 2 ^ Z.of_nat (kA z)
  | None => True end.
Proof.
  intros HA Hq Hrd E. unfold fast_p in E. destruct (read_bits _ rd) as [[b r]| |] eqn:R; try discriminate. cbn [rbind fst snd] in E. apply read_bits_ok in R; [|exact Hrd].
  destruct R as (_ & Hr & _ & Bv). apply okinj in E. destruct (@odd_top_ok (be_val b) (kA z) ltac:(lia) Bv) as [T _]. set (p0 := odd_top (be_val b) (kA z - 1)) in *.
  assert (E2 : rd' = r) by congruence. subst rd'. split; [exact Hr|].
  set (p := p0 - (p0 mod q - 1)) in *. destruct (Nat.ltb_spec (bitlen p) (kA z)) as [|BL]; [assert (o = None) by congruence; subst o; exact I|].
  destruct (pp p) eqn:PP; cbn [negb] in E; [|assert (o = None) by congruence; subst o; exact I]. assert (Eo : o = Some p) by congruence. subst o. split; [exact PP|].
  pose proof (Z.mod_pos_bound p0 q ltac:(lia)) as M. split.
  - exists (p0 / q). pose proof (Z.div_mod p0 q ltac:(lia)). unfold p. lia.
  - split; [|unfold p; lia]. assert (Hp : 0 < p). { unfold p. pose proof (Z.mod_le p0 q ltac:(lia) ltac:(lia)). lia. }
    pose proof (@bitlen_low p Hp) as LB. assert (2 ^ Z.of_nat (kA z - 1) <= 2 ^ Z.of_nat (bitlen p - 1)) by (apply Z.pow_le_mono_r; lia). lia.
Qed.
Lemma fast_ps_ok z q : (1 < kA z)%nat -> 1 < q < 2 ^ Z.of_nat (kA z) -> forall n rd o rd', bytes_ok rd -> fast_ps pp n z q rd = Ok (o, rd') ->
  bytes_ok rd' /\ match o with
  | Some p => pp p = true /\ (q | p - 1) /\ 2 ^ Z.of_nat (kA z - 1) <= p <= 2 ^ Z.of_nat (kA z)
  | None => True end.
Proof.
  intros HA Hq n. induction n as [|n IH]; intros rd o rd' Hrd E; cbn [fast_ps] in E.
  - apply okinj in E. assert (o = None) by congruence. assert (rd' = rd) by congruence. subst. auto.
  - destruct (fast_p pp z q rd) as [[o1 r1]| |] eqn:F; try discriminate. cbn [rbind fst snd] in E. apply fast_p_ok in F; [|exact HA|exact Hq|exact Hrd]. destruct F as [Hr F].
    destruct o1 as [p|]; [|now apply (IH r1)]. apply okinj in E. assert (o = Some p) by congruence. assert (rd' = r1) by congruence. subst. auto.
Qed.
Definition pq_ok (z : kc_size) (pq : Z * Z) : Prop :=
  let '(p, q) := pq in pp p = true /\ pp q = true /\ (q | p - 1) /\ 2 ^ Z.of_nat (kA z - 1) <= p <= 2 ^ Z.of_nat (kA z) /\ bitlen q = kB z /\ 2 < q.
Lemma fast_pq_ok z rd o rd' : (1 < kB z <= kA z)%nat -> bytes_ok rd -> fast_pq pp z rd = Ok (o, rd') ->
  bytes_ok rd' /\ match o with Some pq => pq_ok z pq | None => True end.
Proof.
  intros HB Hrd E. unfold fast_pq in E. destruct (read_bits _ rd) as [[b r]| |] eqn:R; try discriminate. cbn [rbind fst snd] in E. apply read_bits_ok in R; [|exact Hrd].
  destruct R as (_ & Hr & _ & Bv). destruct (@odd_top_ok (be_val b) (kB z) ltac:(lia) Bv) as [T Od]. set (q := odd_top (be_val b) (kB z - 1)) in *.
  destruct (pp q) eqn:PQ; cbn [negb] in E; [|apply okinj in E; assert (o = None) by congruence; assert (rd' = r) by congruence; subst; auto].
  assert (P2 : 2 ^ 1 <= 2 ^ Z.of_nat (kB z - 1)) by (apply Z.pow_le_mono_r; lia). change (2 ^ 1) with 2 in P2.
  assert (Q2 : q <> 2) by (intros C; rewrite C in Od; discriminate).
  assert (PA : 2 ^ Z.of_nat (kB z) <= 2 ^ Z.of_nat (kA z)) by (apply Z.pow_le_mono_r; lia).
  destruct (fast_ps pp (4 * kA z) z q r) as [[o1 r1]| |] eqn:F; try discriminate. cbn [rbind fst snd] in E. apply fast_ps_ok in F; [|lia|lia|exact Hr]. destruct F as [Hr1 F].
  apply okinj in E. assert (rd' = r1) by congruence. subst rd'. split; [exact Hr1|]. destruct o1 as [p|]; [|assert (o = None) by congruence; subst; exact I].
  assert (o = Some (p, q)) by congruence. subst o. destruct F as (F1 & F2 & F3). unfold pq_ok. split; [exact F1|]. split; [exact PQ|]. split; [exact F2|]. split; [exact F3|].
  split; [|lia]. apply bitlen_is; [lia|exact T].
Qed.
Lemma fast_g_ok z p q rd o rd' : 1 < p -> 1 < q -> (q | p - 1) -> bytes_ok rd -> fast_g z p q rd = Ok (o, rd') ->
  bytes_ok rd' /\ match o with Some g => 1 < g < p /\ (prime p -> g ^ q mod p = 1) | None => True end.
Proof.
  intros Hp Hq [c Hc] Hrd E. unfold fast_g in E. destruct (read_bits _ rd) as [[b r]| |] eqn:R; try discriminate. cbn [rbind fst snd] in E. apply read_bits_ok in R; [|exact Hrd].
  destruct R as (_ & Hr & _ & Bv). destruct (Z.leb_spec p (be_val b + 2)); [apply okinj in E; assert (o = None) by congruence; assert (rd' = r) by congruence; subst; auto|].
  set (f := be_val b + 2) in *. assert (Ed : (p - 1) / q = c) by (rewrite Hc; apply Z.div_mul; lia). rewrite Ed in E.
  assert (C0 : 0 <= c) by nia. unfold big_exp in E. destruct (Z.ltb_spec c 0); [lia|]. rewrite powm_spec in E by lia. cbn [rbind] in E. set (g := f ^ c mod p) in *.
  pose proof (Z.mod_pos_bound (f ^ c) p ltac:(lia)) as Bg. fold g in Bg. apply okinj in E. assert (rd' = r) by congruence. subst rd'. split; [exact Hr|].
  destruct (Z.leb_spec g 1); [assert (o = None) by congruence; subst o; exact I|]. destruct (Z.leb_spec p g); [lia|]. assert (o = Some g) by congruence. subst o.
  split; [lia|]. intros PP. transitivity ((f ^ c) ^ q mod p); [apply cong_pow; apply cong_mod|]. rewrite <- Z.pow_mul_r by lia. rewrite <- Hc. apply fermat; [exact PP|].
  rewrite Z.mod_small; lia.
Qed.
Lemma fast_ok z rd a rd' : (1 < kB z <= kA z)%nat -> bytes_ok rd -> kc_params_fast pp z rd = Ok (a, rd') ->
  pq_ok z (kcP a, kcQ a) /\ 1 < kcG a < kcP a /\ (prime (kcP a) -> kcG a ^ kcQ a mod kcP a = 1) /\ bytes_ok rd'.
Proof.
  intros HB Hrd E. unfold kc_params_fast in E. destruct (until (fast_pq pp z) rd) as [[[p q] r]| |] eqn:U; try discriminate. cbn [rbind] in E.
  apply (until_inv (Q := pq_ok z)) in U; [| |exact Hrd].
  - destruct U as [PQ Hr]. assert (Hp : 1 < p).
    { destruct PQ as (_ & _ & _ & [P1 _] & _). assert (P2 : 2 ^ 1 <= 2 ^ Z.of_nat (kA z - 1)) by (apply Z.pow_le_mono_r; lia). change (2 ^ 1) with 2 in P2. lia. }
    assert (Hq : 1 < q) by (destruct PQ as (_ & _ & _ & _ & _ & Q2); lia). assert (HD : (q | p - 1)) by apply PQ.
    destruct (until (fast_g z p q) r) as [[g r1]| |] eqn:G; try discriminate. cbn [rbind fst snd] in E.
    apply (until_inv (Q := fun g => 1 < g < p /\ (prime p -> g ^ q mod p = 1))) in G; [| |exact Hr].
    + destruct G as [[G1 G2] Hr1]. apply okinj in E. assert (a = KcPar p q g) by congruence. assert (rd' = r1) by congruence. subst a rd'. cbn [kcP kcQ kcG]. auto.
    + intros rd0 o rd1 H0 E0. exact (@fast_g_ok z p q rd0 o rd1 Hp Hq HD H0 E0).
  - intros rd0 o rd1 H0 E0. exact (@fast_pq_ok z rd0 o rd1 HB H0 E0).
Qed.

(** TTAK *)
Lemma ttak_pq_ok z j seed count o : hasher_ok (kH z) -> (0 < hsize (kH z))%nat -> (1 < kB z)%nat -> ttak_pq pp z j seed count = Ok o ->
  match o with Some (p, q) => pp p = true /\ pp q = true /\ p = 2 * j * q + 1 /\ (bitlen p <= kA z)%nat /\ bitlen q = kB z /\ 2 < q | None => True end.
Proof.
  intros Hh Hs HB E. unfold ttak_pq in E. destruct (@ppgf_ok (kH z) Hh Hs (fresh (kB z)) (kB z) (seed ++ be_bytes 4 count) (fresh_len _)) as (u & EU & _ & _ & Vu). rewrite EU in E. cbn [rbind] in E.
  assert (Bv : 0 <= be_val u < 2 ^ Z.of_nat (kB z)) by (rewrite Vu; apply Z.mod_pos_bound; apply Z.pow_pos_nonneg; lia).
  destruct (@odd_top_ok (be_val u) (kB z) ltac:(lia) Bv) as [T Od]. set (q := odd_top (be_val u) (kB z - 1)) in *. rewrite Z.shiftl_mul_pow2 in E by lia. change (2 ^ 1) with 2 in E.
  set (p := j * q * 2 + 1) in *. apply okinj in E. destruct (Nat.ltb_spec (kA z) (bitlen p)); [subst o; exact I|]. destruct (pp q) eqn:PQ; cbn [negb] in E; [|subst o; exact I].
  destruct (pp p) eqn:PP; cbn [negb] in E; [|subst o; exact I]. subst o. split; [exact PP|]. split; [exact PQ|]. split; [unfold p; ring|]. split; [lia|]. split; [now apply bitlen_is; [lia|]|].
  assert (P2 : 2 ^ 1 <= 2 ^ Z.of_nat (kB z - 1)) by (apply Z.pow_le_mono_r; lia). change (2 ^ 1) with 2 in P2. assert (Q2 : q <> 2) by (intros C; rewrite C in Od; discriminate). lia.
Qed.
Lemma ttak_search_ok z j seed : forall n c p q c', ttak_search pp n z j seed c = Ok (Some (p, q, c')) -> c < c' <= c + Z.of_nat n /\ ttak_pq pp z j seed c' = Ok (Some (p, q)).
Proof.
  induction n as [|n IH]; intros c p q c' E; cbn [ttak_search] in E; [discriminate|]. destruct (ttak_pq pp z j seed (c + 1)) as [[pq|]| |] eqn:T; try discriminate; cbn [rbind] in E.
  - assert (E1 : pq = (p, q)) by congruence. assert (E2 : c' = c + 1) by congruence. subst. split; [lia|exact T].
  - apply IH in E. destruct E as [E1 E2]. split; [lia|exact E2].
Qed.
Lemma ttak_g_ok p j rd g rd' : 1 < p -> 0 <= j -> bytes_ok rd -> ttak_g p j rd = Ok (g, rd') ->
  g <> 1 /\ 0 <= g < p /\ (forall q, prime p -> 0 <= q -> p = 2 * j * q + 1 -> g <> 0 -> g ^ q mod p = 1) /\ bytes_ok rd'.
Proof.
  intros Hp Hj Hrd E. unfold ttak_g in E.
  apply (until_inv (Q := fun g => g <> 1 /\ 0 <= g < p /\ (forall q, prime p -> 0 <= q -> p = 2 * j * q + 1 -> g <> 0 -> g ^ q mod p = 1))) in E; [tauto| |exact Hrd].
  clear rd g rd' Hrd E. intros rd o rd' Hrd E. destruct (rand_int p rd) as [[v r]| |] eqn:R; try discriminate. cbn [rbind fst snd] in E. apply rand_int_ok in R; [|exact Hrd]. destruct R as [Hv Hr].
  rewrite Z.shiftl_mul_pow2 in E by lia. change (2 ^ 1) with 2 in E. unfold big_exp in E. destruct (Z.ltb_spec (j * 2) 0); [lia|]. rewrite powm_spec in E by lia. cbn [rbind] in E. apply okinj in E.
  set (g := (v + 2) ^ (j * 2) mod p) in *. pose proof (Z.mod_pos_bound ((v + 2) ^ (j * 2)) p ltac:(lia)) as Bg. fold g in Bg. assert (rd' = r) by congruence. subst rd'. split; [exact Hr|].
  destruct (Z.eqb_spec g 1); cbn [negb] in E; [assert (o = None) by congruence; subst o; exact I|]. assert (o = Some g) by congruence. subst o. split; [assumption|]. split; [lia|].
  intros q PP Hq Ep NG. transitivity (((v + 2) ^ (j * 2)) ^ q mod p); [apply cong_pow; apply cong_mod|]. rewrite <- Z.pow_mul_r by lia. replace (j * 2 * q) with (p - 1) by lia.
  apply fermat; [exact PP|]. intros C. apply NG. unfold g. assert (0 < j) by nia.
  assert (D : (p | v + 2)) by (apply Z.mod_divide; lia). apply Z.mod_divide; [lia|]. replace (j * 2) with (1 + (j * 2 - 1)) by lia. rewrite Z.pow_add_r, Z.pow_1_r by lia. now apply Z.divide_mul_l.
Qed.
(** a base equal to P: the generator 0 *)
Lemma mask_keep bits b : bytes_ok b -> length b = byteceil bits -> be_val (mask_top bits b) = be_val b mod 2 ^ Z.of_nat bits.
Proof.
  intros Hb L. destruct (@keep_ok bits b Hb L) as (b' & E & _ & _ & V). rewrite <- V. f_equal. unfold keep_bits in E. unfold mask_top. destruct (Nat.eqb_spec (Nat.modulo bits 8) 0) as [M|M].
  - apply okinj in E. subst b'. destruct b as [|x t]; [reflexivity|]. f_equal. change (2 ^ Z.of_nat 8 - 1) with (Z.ones 8). rewrite Z.land_ones by lia. apply Forall_inv in Hb. unfold is_byte in Hb. apply Z.mod_small. cbn. lia.
  - destruct b as [|x t]; [discriminate|]. apply okinj in E. exact E.
Qed.
Lemma rand_exact p v : 1 < p -> 0 <= v < p -> rand_int p (be_bytes (byteceil (bitlen (p - 1))) v) = Ok (v, []).
Proof.
  intros Hp Hv. unfold rand_int. destruct (Z.leb_spec p 0); [lia|]. destruct (bitlen_bound (p - 1)) as [B|]; [|lia]. pose proof (@bitlen_pos (p - 1) ltac:(lia)) as BP. set (bl := bitlen (p - 1)) in *.
  destruct (Nat.eqb_spec bl 0); [lia|]. unfold until. cbn [retry]. unfold read_full at 1. rewrite be_bytes_length, Nat.leb_refl. cbn [rbind fst snd].
  rewrite firstn_all2 by (rewrite be_bytes_length; lia). rewrite skipn_all2 by (rewrite be_bytes_length; lia). rewrite mask_keep by (try apply be_bytes_ok; apply be_bytes_length).
  pose proof (byteceil_ge bl) as G. rewrite be_val_fit.
  - rewrite Z.mod_small by lia. destruct (Z.ltb_spec v p); [reflexivity|lia].
  - split; [lia|]. rewrite pow256. assert (2 ^ Z.of_nat bl <= 2 ^ (8 * Z.of_nat (byteceil bl))) by (apply Z.pow_le_mono_r; lia). lia.
Qed.
Lemma ttak_g_zero p j : 1 < p -> 0 < j -> ttak_g p j (be_bytes (byteceil (bitlen (p - 1))) (p - 2)) = Ok (0, []).
Proof.
  intros Hp Hj. unfold ttak_g, until. cbn [retry]. rewrite rand_exact by lia. cbn [rbind fst snd]. replace (p - 2 + 2) with p by ring. rewrite Z.shiftl_mul_pow2 by lia. change (2 ^ 1) with 2.
  unfold big_exp. destruct (Z.ltb_spec (j * 2) 0); [lia|]. rewrite powm_spec by lia. cbn [rbind].
  assert (E0 : p ^ (j * 2) mod p = 0). { apply Z.mod_divide; [lia|]. replace (j * 2) with (1 + (j * 2 - 1)) by lia. rewrite Z.pow_add_r, Z.pow_1_r by lia. apply Z.divide_factor_l. }
  rewrite E0. reflexivity.
Qed.
Lemma ttak_j_ok z seed j : hasher_ok (kH z) -> (0 < hsize (kH z))%nat -> (kB z + 4 <= kA z)%nat -> ttak_j pp z seed = Ok (Some j) -> 0 < j /\ pp j = true.
Proof.
  intros Hh Hs HA E. unfold ttak_j in E. destruct (@ppgf_ok (kH z) Hh Hs (fresh (kA z - kB z - 4)) (kA z - kB z - 4) seed (fresh_len _)) as (u & EU & _ & _ & Vu). rewrite EU in E. cbn [rbind] in E.
  assert (B0 : 0 <= be_val u < 2 ^ Z.of_nat (kA z - kB z - 4)) by (rewrite Vu; apply Z.mod_pos_bound; apply Z.pow_pos_nonneg; lia).
  assert (B1 : 2 ^ Z.of_nat (kA z - kB z - 4) <= 2 ^ Z.of_nat (kA z - kB z)) by (apply Z.pow_le_mono_r; lia).
  destruct (@odd_top_ok (be_val u) (kA z - kB z) ltac:(lia) ltac:(lia)) as [T _]. apply okinj in E. pose proof (Z.pow_pos_nonneg 2 (Z.of_nat (kA z - kB z - 1)) ltac:(lia) ltac:(lia)).
  destruct (pp (odd_top (be_val u) (kA z - kB z - 1))) eqn:PP; [|discriminate]. assert (Ej : odd_top (be_val u) (kA z - kB z - 1) = j) by congruence. rewrite Ej in *. split; [lia|exact PP].
Qed.
Definition ttak_good (z : kc_size) (t : ttak) : Prop :=
  0 < tJ t /\ length (tSeed t) = byteceil (kB z) /\ 0 < tCount t <= 2 ^ 24 + 1 /\ ttak_pq pp z (tJ t) (tSeed t) (tCount t) = Ok (Some (kcP (tPar t), kcQ (tPar t))) /\
  exists rd rd', bytes_ok rd /\ ttak_g (kcP (tPar t)) (tJ t) rd = Ok (kcG (tPar t), rd').
Lemma ttak_ok z rd t rd' : hasher_ok (kH z) -> (0 < hsize (kH z))%nat -> (1 < kB z)%nat -> (kB z + 4 <= kA z)%nat -> bytes_ok rd -> kc_params_ttak pp z rd = Ok (t, rd') -> ttak_good z t /\ bytes_ok rd'.
Proof.
  intros Hh Hs HB HA Hrd E. unfold kc_params_ttak in E. apply (until_inv (Q := ttak_good z)) in E; [exact E| |exact Hrd]. clear rd t rd' Hrd E. intros rd o rd' Hrd E.
  destruct (read_full _ rd) as [[seed r]| |] eqn:R; try discriminate. cbn [rbind fst snd] in E. apply read_full_ok in R; [|exact Hrd]. destruct R as (LS & _ & Hr & _).
  destruct (ttak_j pp z seed) as [[j|]| |] eqn:J; try discriminate; cbn [rbind] in E; [|apply okinj in E; assert (o = None) by congruence; assert (rd' = r) by congruence; subst; auto].
  apply ttak_j_ok in J; [|assumption|assumption|assumption]. destruct J as [J0 _].
  destruct (ttak_search pp (Z.to_nat (2 ^ 24 + 1)) z j seed 0) as [[[[p q] count]|]| |] eqn:S; try discriminate; cbn [rbind] in E; [|apply okinj in E; assert (o = None) by congruence; assert (rd' = r) by congruence; subst; auto].
  apply ttak_search_ok in S. destruct S as [SC SP]. rewrite Z2Nat.id in SC by lia. destruct (ttak_g p j r) as [[g r1]| |] eqn:G; try discriminate. cbn [rbind fst snd] in E. apply okinj in E.
  assert (o = Some (Ttak (KcPar p q g) j seed count)) by congruence. assert (rd' = r1) by congruence. subst o rd'.
  pose proof (ttak_pq_ok Hh Hs HB SP) as (_ & _ & Ep & _ & _ & Q2). assert (P1 : 1 < p) by nia.
  pose proof (@ttak_g_ok p j r g r1 P1 ltac:(lia) Hr G) as (_ & _ & _ & Hr1). split; [exact Hr1|]. unfold ttak_good. cbn [tJ tSeed tCount tPar kcP kcQ kcG].
  split; [exact J0|]. split; [exact LS|]. split; [lia|]. split; [exact SP|]. exists r, r1. auto.
Qed.
Lemma regenerate_eq z t rd : (0 < kB z)%nat -> ttak_good z t ->
  kc_regenerate pp z (tJ t) (tSeed t) (tCount t) rd = rbind (ttak_g (kcP (tPar t)) (tJ t) rd) (fun gr => Ok (KcPar (kcP (tPar t)) (kcQ (tPar t)) (fst gr), snd gr)).
Proof.
  intros HB (J0 & LS & C & P & _). unfold kc_regenerate. destruct (Z.eqb_spec (tCount t) 0); [lia|]. cbn [orb]. pose proof (byteceil_ge (kB z)). destruct (Nat.eqb_spec (length (tSeed t)) 0); [lia|].
  destruct (Z.leb_spec (tJ t) 0); [lia|]. rewrite LS, Nat.eqb_refl. cbn [negb]. rewrite Z.mod_small by lia. rewrite P. reflexivity.
Qed.
End primes.
