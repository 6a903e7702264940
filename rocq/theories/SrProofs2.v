(** Proofs about rabin: arithmetic. *)
From Verif Require Import Base BigModel NumLib ModRw ElgProofs EcSigProofs2 SrModel SrSpec.
From Coq Require Import Znumtheory.
Set Implicit Arguments. Unset Strict Implicit.
Local Open Scope Z_scope.

Lemma bin_pos_ne p : bin_pos p <> [].
Proof. destruct p; cbn [bin_pos]; [destruct (bin_pos p); discriminate|destruct (bin_pos p); discriminate|discriminate]. Qed.
Lemma tl_app_ne (A : Type) (l k : list A) : l <> [] -> tl (l ++ k) = tl l ++ k.
Proof. destruct l; [congruence|reflexivity]. Qed.

Lemma sq_mul_pos a p c : 0 < c ->
  fold_left (fun r d => let t := (r * r) mod c in if d =? 1 then (t * (a mod c)) mod c else t) (tl (bin_pos p)) (a mod c) = a ^ Zpos p mod c.
Proof.
  intros Hc. cbv zeta. induction p as [p IH|p IH|]; cbn [bin_pos].
  - rewrite tl_app_ne by apply bin_pos_ne. rewrite fold_left_app, IH. cbn [fold_left Z.eqb Pos.eqb].
    to_zq. rewrite !zq_mod. replace (Zpos p~1) with (Zpos p + Zpos p + 1) by lia. rewrite !Z.pow_add_r, Z.pow_1_r by lia. reflexivity.
  - rewrite tl_app_ne by apply bin_pos_ne. rewrite fold_left_app, IH. cbn [fold_left Z.eqb].
    to_zq. rewrite !zq_mod. replace (Zpos p~0) with (Zpos p + Zpos p) by lia. rewrite !Z.pow_add_r by lia. reflexivity.
  - cbn [tl fold_left]. now rewrite Z.pow_1_r.
Qed.
Lemma sq_mul_ok a b c : 0 < c -> 0 < b -> sq_mul a b c = Ok (a ^ b mod c).
Proof.
  intros Hc Hb. unfold sq_mul. destruct (Z.eqb_spec c 0); [lia|]. destruct b as [|p|p]; try lia. cbn [bin_digits]. now rewrite sq_mul_pos.
Qed.
Lemma sq_mul_total a b c : 0 < c -> exists x, sq_mul a b c = Ok x.
Proof. intros Hc. unfold sq_mul. destruct (Z.eqb_spec c 0); [lia|]. eauto. Qed.

Lemma nomod_pos p : fold_left (fun v d => if d =? 1 then v * v * 2 else v * v) (tl (bin_pos p)) 1 = 2 ^ (Zpos p - 2 ^ Z.log2 (Zpos p)).
Proof.
  induction p as [p IH|p IH|]; cbn [bin_pos]; [| |reflexivity]; rewrite tl_app_ne by apply bin_pos_ne; rewrite fold_left_app, IH; cbn [fold_left Z.eqb Pos.eqb];
  destruct (Z.log2_spec (Zpos p) ltac:(lia)) as [B _].
  - change (Zpos p~1) with (2 * Zpos p + 1). rewrite Z.log2_succ_double by lia. unfold Z.succ. rewrite Z.pow_add_r by (try apply Z.log2_nonneg; lia).
    set (e := 2 ^ Z.log2 (Zpos p)) in *. replace (2 * Zpos p + 1 - e * 2 ^ 1) with ((Zpos p - e) + (Zpos p - e) + 1) by (change (2 ^ 1) with 2; ring).
    rewrite !Z.pow_add_r by lia. reflexivity.
  - change (Zpos p~0) with (2 * Zpos p). rewrite Z.log2_double by lia. unfold Z.succ. rewrite Z.pow_add_r by (try apply Z.log2_nonneg; lia).
    set (e := 2 ^ Z.log2 (Zpos p)) in *. replace (2 * Zpos p - e * 2 ^ 1) with ((Zpos p - e) + (Zpos p - e)) by (change (2 ^ 1) with 2; ring).
    rewrite !Z.pow_add_r by lia. reflexivity.
Qed.
Lemma nomod_eq r : 2 <= r -> sq_mul_nomod 2 r = 2 ^ (r - 2 ^ Z.log2 r).
Proof. intros H. unfold sq_mul_nomod. destruct (Z.eqb_spec r 1); [lia|]. destruct r as [|p|p]; try lia. apply nomod_pos. Qed.

(** Extended Euclid *)
Lemma ext_loop_ok a0 b0 : forall fuel a b x2 x1 y2 y1, 0 <= a -> 0 <= b < Z.of_nat fuel ->
  a0 * x2 + b0 * y2 = a -> a0 * x1 + b0 * y1 = b -> Z.gcd a b = Z.gcd a0 b0 ->
  exists x y, ext_loop fuel a b x2 x1 y2 y1 = Ok (Z.gcd a0 b0, x, y) /\ a0 * x + b0 * y = Z.gcd a0 b0.
Proof.
  induction fuel as [|f IH]; intros a b x2 x1 y2 y1 Ha Hb E2 E1 Eg; [lia|]. cbn [ext_loop]. destruct (Z.leb_spec b 0).
  - replace b with 0 in * by lia. rewrite Z.gcd_0_r, Z.abs_eq in Eg by lia. rewrite <- Eg. eauto.
  - assert (Em : a - a / b * b = a mod b) by (rewrite Z.mod_eq by lia; ring). pose proof (Z.mod_pos_bound a b ltac:(lia)).
    rewrite Em. apply IH; [lia|lia|exact E1| |].
    + rewrite <- Em, <- E2. set (q := _ / b). rewrite <- E1. ring.
    + rewrite <- Eg. symmetry. apply gcd_step. lia.
Qed.
Lemma ext_euclid_ok a b : 0 <= a -> 0 < b -> exists x y, ext_euclid a b = Ok (Z.gcd a b, x, y) /\ a * x + b * y = Z.gcd a b.
Proof. intros Ha Hb. unfold ext_euclid. destruct (Z.eqb_spec b 0); [lia|]. apply ext_loop_ok; try lia. Qed.

(** Square roots modulo a prime that is 3 modulo 4 *)
Lemma prime_gt p : prime p -> 1 < p. Proof. intros [H _]. exact H. Qed.
Lemma fermat_pow p m : prime p -> m ^ (p + 1) =[p]= m * m.
Proof.
  intros Hp. pose proof (prime_gt Hp). replace (p + 1) with ((p - 1) + 1 + 1) by ring. rewrite !Z.pow_add_r, Z.pow_1_r by lia.
  destruct (Z.eq_dec (m mod p) 0) as [E|E].
  - apply Z.mod_divide in E; [|lia]. apply cong_div; [lia|]. set (z := m ^ (p - 1)). replace (z * m * m - m * m) with ((z * m - m) * m) by ring. now apply Z.divide_mul_r.
  - pose proof (fermat Hp E) as F. assert (F' : zq p (m ^ (p - 1)) 1) by (constructor; rewrite F; rewrite Z.mod_small; lia). to_zq. rewrite F'. now rewrite Z.mul_1_l.
Qed.
Lemma root_ok p C m : prime p -> p mod 4 = 3 -> C =[p]= m * m -> exists x, rab_root C p = Ok x /\ 0 <= x < p /\ x * x =[p]= m * m.
Proof.
  intros Hp H4 HC. pose proof (prime_gt Hp). unfold rab_root. set (e := (p + 1) / 4).
  assert (Ee : p + 1 = 4 * e) by (unfold e; rewrite (Z.div_mod p 4) at 1 2 by lia; rewrite H4; replace (4 * (p / 4) + 3 + 1) with ((p / 4 + 1) * 4) by ring; rewrite Z.div_mul by lia; ring).
  rewrite sq_mul_ok by lia. eexists. split; [reflexivity|]. split; [apply Z.mod_pos_bound; lia|].
  rewrite <- (fermat_pow m Hp), Ee. replace (4 * e) with (2 * (e + e)) by ring. rewrite Z.pow_mul_r, Z.pow_2_r by lia. rewrite <- Z.mul_mod by lia.
  rewrite <- Z.pow_add_r by lia. now apply cong_pow.
Qed.
Lemma sqrt_unique p x m : prime p -> x * x =[p]= m * m -> (p | x - m) \/ (p | x + m).
Proof.
  intros Hp H. pose proof (prime_gt Hp). apply cong_div in H; [|lia]. replace (x * x - m * m) with ((x - m) * (x + m)) in H by ring. now apply prime_mult.
Qed.
Lemma sqrt_zero p m : prime p -> (p | m * m) -> (p | m).
Proof. intros Hp H. apply prime_mult in H; tauto. Qed.
Lemma crt p q d : prime p -> prime q -> p <> q -> (p | d) -> (q | d) -> (p * q | d).
Proof.
  intros Hp Hq Hne [a ->] Hd. assert (R : rel_prime q p) by (apply rel_prime_sym, prime_rel_prime; [exact Hp|]; intros D; apply prime_div_prime in D; auto).
  assert (Hd' : (q | p * a)) by (rewrite Z.mul_comm; exact Hd). destruct (Gauss _ _ _ Hd' R) as [b ->]. exists b. ring.
Qed.
Lemma gcd_pq p q : prime p -> prime q -> p <> q -> Z.gcd p q = 1.
Proof. intros Hp Hq Hne. apply Zgcd_1_rel_prime, prime_rel_prime; [exact Hp|]. intros D. apply prime_div_prime in D; auto. Qed.

Lemma norm_ok v N : 0 < N -> 0 <= rab_norm v N <= N /\ (N | rab_norm v N - v).
Proof.
  intros HN. unfold rab_norm. destruct (Z.ltb_spec v 0).
  - pose proof (Z.div_mod (Z.abs v) N ltac:(lia)) as D. pose proof (Z.mod_pos_bound (Z.abs v) N ltac:(lia)). rewrite Z.abs_neq in * by lia. set (t := - v / N) in *.
    split; [nia|]. exists (t + 1). ring.
  - pose proof (Z.mod_pos_bound v N ltac:(lia)). split; [lia|]. exists (- (v / N)). pose proof (Z.div_mod v N ltac:(lia)). nia.
Qed.

(** The four roots *)
Lemma roots_ok p q N C m : rabin_key p q N -> C =[N]= m * m -> exists m1 m2 m3 m4, rab_roots p q C N = Ok (m1, m2, m3, m4) /\
  Forall (fun x => 0 <= x <= N /\ x * x =[N]= m * m) [m1; m2; m3; m4] /\
  Exists (fun x => (N | x - m)) [m1; m2; m3; m4].
Proof.
  intros (Hp & Hq & Hne & P4 & Q4 & ->) HC. pose proof (prime_gt Hp). pose proof (prime_gt Hq). set (N := p * q) in *. assert (HN : 0 < N) by (unfold N; nia).
  assert (DN : (N | C - m * m)) by (apply cong_div in HC; [exact HC|lia]).
  assert (Cp : C =[p]= m * m) by (apply cong_div; [lia|]; eapply Z.divide_trans; [|exact DN]; exists q; unfold N; ring).
  assert (Cq : C =[q]= m * m) by (apply cong_div; [lia|]; eapply Z.divide_trans; [|exact DN]; exists p; reflexivity).
  destruct (root_ok Hp P4 Cp) as (mp & Ep & _ & Sp). destruct (root_ok Hq Q4 Cq) as (mq & Eq & _ & Sq).
  destruct (@ext_euclid_ok p q ltac:(lia) ltac:(lia)) as (yp & yq & EE & EB). rewrite (gcd_pq Hp Hq Hne) in EE, EB.
  unfold rab_roots. rewrite Ep, Eq. cbn [rbind]. rewrite EE. cbn [rbind]. destruct (Z.eqb_spec N 0); [lia|].
  set (a := yp * p * mq). set (b := q * mp * yq).
  destruct (norm_ok (a + b) HN) as [R1 D1]. destruct (norm_ok (a - b) HN) as [R3 D3].
  set (m1 := rab_norm (a + b) N) in *. set (m3 := rab_norm (a - b) N) in *. exists m1, (N - m1), m3, (N - m3). split; [reflexivity|].
  assert (dp : forall x, (N | x) -> (p | x)) by (intros x [k ->]; exists (k * q); unfold N; ring).
  assert (dq : forall x, (N | x) -> (q | x)) by (intros x [k ->]; exists (k * p); unfold N; ring).
  assert (A1 : (p | a + b - mp)) by (exists (yp * mq - mp * yp); unfold a, b; replace (q * mp * yq) with (mp * (q * yq)) by ring; replace (q * yq) with (1 - p * yp) by lia; ring).
  assert (A2 : (q | a + b - mq)) by (exists (mp * yq - mq * yq); unfold a, b; replace (yp * p * mq) with (mq * (p * yp)) by ring; replace (p * yp) with (1 - q * yq) by lia; ring).
  assert (A3 : (p | a - b + mp)) by (exists (yp * mq + mp * yp); unfold a, b; replace (q * mp * yq) with (mp * (q * yq)) by ring; replace (q * yq) with (1 - p * yp) by lia; ring).
  assert (A4 : (q | a - b - mq)) by (exists (- (mp * yq) - mq * yq); unfold a, b; replace (yp * p * mq) with (mq * (p * yp)) by ring; replace (p * yp) with (1 - q * yq) by lia; ring).
  assert (B1 : (p | m1 - mp)) by (replace (m1 - mp) with ((m1 - (a + b)) + (a + b - mp)) by ring; apply Z.divide_add_r; auto).
  assert (B2 : (q | m1 - mq)) by (replace (m1 - mq) with ((m1 - (a + b)) + (a + b - mq)) by ring; apply Z.divide_add_r; auto).
  assert (B3 : (p | m3 + mp)) by (replace (m3 + mp) with ((m3 - (a - b)) + (a - b + mp)) by ring; apply Z.divide_add_r; auto).
  assert (B4 : (q | m3 - mq)) by (replace (m3 - mq) with ((m3 - (a - b)) + (a - b - mq)) by ring; apply Z.divide_add_r; auto).
  apply cong_div in Sp; [|lia]. apply cong_div in Sq; [|lia].
  assert (SQ : forall x, ((p | x - mp) \/ (p | x + mp)) -> ((q | x - mq) \/ (q | x + mq)) -> x * x =[N]= m * m).
  { intros x Hx Hy. apply cong_div; [lia|]. apply crt; auto.
    - replace (x * x - m * m) with ((x - mp) * (x + mp) + (mp * mp - m * m)) by ring. apply Z.divide_add_r; [|exact Sp]. destruct Hx; [now apply Z.divide_mul_l|now apply Z.divide_mul_r].
    - replace (x * x - m * m) with ((x - mq) * (x + mq) + (mq * mq - m * m)) by ring. apply Z.divide_add_r; [|exact Sq]. destruct Hy; [now apply Z.divide_mul_l|now apply Z.divide_mul_r]. }
  assert (NEG : forall k x y, (k | N) -> (k | x - y) -> (k | (N - x) + y)) by (intros k x y K1 K2; replace (N - x + y) with (N - (x - y)) by ring; now apply Z.divide_sub_r).
  assert (NEG' : forall k x y, (k | N) -> (k | x + y) -> (k | (N - x) - y)) by (intros k x y K1 K2; replace (N - x - y) with (N - (x + y)) by ring; now apply Z.divide_sub_r).
  assert (PN : (p | N)) by (exists q; unfold N; ring). assert (QN : (q | N)) by (exists p; reflexivity).
  split.
  - repeat constructor; try lia; apply SQ; auto.
  - assert (Jp : (p | mp - m) \/ (p | mp + m)) by (apply sqrt_unique; [exact Hp|]; apply cong_div; [lia|exact Sp]).
    assert (Jq : (q | mq - m) \/ (q | mq + m)) by (apply sqrt_unique; [exact Hq|]; apply cong_div; [lia|exact Sq]).
    assert (SUM : forall k x y z, (k | x - y) -> (k | y - z) -> (k | x - z)) by (intros k x y z K1 K2; replace (x - z) with ((x - y) + (y - z)) by ring; now apply Z.divide_add_r).
    assert (SUM2 : forall k x y z, (k | x + y) -> (k | y + z) -> (k | x - z)) by (intros k x y z K1 K2; replace (x - z) with ((x + y) - (y + z)) by ring; now apply Z.divide_sub_r).
    destruct Jp as [Jp|Jp], Jq as [Jq|Jq].
    + apply Exists_cons_hd. apply crt; eauto.
    + do 3 apply Exists_cons_tl. apply Exists_cons_hd. apply crt; eauto.
    + do 2 apply Exists_cons_tl. apply Exists_cons_hd. apply crt; eauto.
    + apply Exists_cons_tl. apply Exists_cons_hd. apply crt; eauto.
Qed.

(** ** Primes *)
Lemma no_minus_one p y : prime p -> p mod 4 = 3 -> ~ (p | y * y + 1).
Proof.
  intros Hp H4 D. pose proof (prime_gt Hp). set (t := p / 4). assert (Ep : p = 4 * t + 3) by (unfold t; pose proof (Z.div_mod p 4); lia).
  assert (Ht : 0 <= t) by (unfold t; apply Z.div_pos; lia).
  assert (Y : y mod p <> 0).
  { intros E. apply Z.mod_divide in E; [|lia]. assert (D1 : (p | 1)) by (replace 1 with ((y * y + 1) - y * y) by ring; apply Z.divide_sub_r; [exact D|now apply Z.divide_mul_l]).
    apply Z.divide_1_r_nonneg in D1; lia. }
  pose proof (fermat Hp Y) as F. replace (p - 1) with (2 * (2 * t + 1)) in F by lia. rewrite Z.pow_mul_r, Z.pow_2_r in F by lia.
  assert (E1 : y * y =[p]= -1) by (apply cong_div; [lia|]; replace (y * y - -1) with (y * y + 1) by ring; exact D).
  assert (E2 : (y * y) ^ (2 * t + 1) =[p]= (-1) ^ (2 * t + 1)) by now apply cong_pow. rewrite F in E2.
  rewrite Z.pow_add_r, Z.pow_mul_r, Z.pow_1_r in E2 by lia. change ((-1) ^ 2) with 1 in E2. rewrite Z.pow_1_l in E2 by lia.
  assert (E3 : 1 =[p]= -1) by (rewrite Z.mod_small by lia; exact E2). apply cong_div in E3; [|lia]. apply Z.divide_pos_le in E3; lia.
Qed.
Lemma prime_3mod4 n : 0 < n -> n mod 4 = 3 -> exists p, prime p /\ p mod 4 = 3 /\ (p | n).
Proof.
  intros Hn. remember (Z.to_nat n) as k eqn:Ek. assert (Hk : n <= Z.of_nat k) by lia. clear Ek. revert n Hn Hk.
  induction k as [|k IH]; intros n Hn Hk H4; [lia|]. assert (n <> 1 /\ n <> 2) as [] by (split; intros ->; discriminate).
  destruct (prime_dec n) as [Hp|Hp]; [exists n; split; [exact Hp|split; [exact H4|apply Z.divide_refl]]|].
  destruct (@not_prime_divide n ltac:(lia) Hp) as (a & Ha & b & E).
  assert (Hb : 0 < b) by nia. assert (b < n) by nia.
  assert (a mod 4 = 3 \/ b mod 4 = 3) as [E3|E3].
  { pose proof (Z.mod_pos_bound a 4 ltac:(lia)). pose proof (Z.mod_pos_bound b 4 ltac:(lia)). rewrite E, Z.mul_mod in H4 by lia.
    assert (Ca : a mod 4 = 0 \/ a mod 4 = 1 \/ a mod 4 = 2 \/ a mod 4 = 3) by lia. assert (Cb : b mod 4 = 0 \/ b mod 4 = 1 \/ b mod 4 = 2 \/ b mod 4 = 3) by lia.
    destruct Ca as [C|[C|[C|C]]], Cb as [C'|[C'|[C'|C']]]; rewrite C, C' in H4; try discriminate H4; auto. }
  - destruct (IH a ltac:(lia) ltac:(lia) E3) as (p & P1 & P2 & P3). exists p. split; [exact P1|]. split; [exact P2|]. rewrite E. now apply Z.divide_mul_r.
  - destruct (IH b ltac:(lia) ltac:(lia) E3) as (p & P1 & P2 & P3). exists p. split; [exact P1|]. split; [exact P2|]. rewrite E. now apply Z.divide_mul_l.
Qed.
Lemma no_minus_one' n y : 0 < n -> n mod 4 = 3 -> (y * y) mod n <> n - 1.
Proof.
  intros Hn H4 E. destruct (prime_3mod4 Hn H4) as (p & P1 & P2 & P3). apply (no_minus_one (y := y) P1 P2). eapply Z.divide_trans; [exact P3|].
  pose proof (Z.div_mod (y * y) n ltac:(lia)) as D. rewrite E in D. exists (y * y / n + 1). rewrite D at 1. ring.
Qed.
Lemma mr_loop_false n f : forall x, 0 < n -> n mod 4 = 3 -> mr_loop f x n = false.
Proof.
  induction f as [|f IH]; intros x Hn H4; cbn [mr_loop]; [reflexivity|]. destruct (_ =? 1); [reflexivity|].
  destruct (Z.eqb_spec ((x * x) mod n) (n - 1)) as [E|E]; [exfalso; revert E; now apply no_minus_one'|auto].
Qed.
Lemma half_odd n : n mod 4 = 3 -> (n - 1) mod 2 = 0 /\ (n - 1) mod 4 = 2 /\ n mod 2 = 1.
Proof.
  intros H. pose proof (Z.div_mod n 4 ltac:(lia)) as D. rewrite H in D. set (t := n / 4) in *. rewrite D.
  split; [|split].
  - replace (4 * t + 3 - 1) with ((2 * t + 1) * 2) by ring. apply Z_mod_mult.
  - replace (4 * t + 3 - 1) with (2 + t * 4) by ring. rewrite Z_mod_plus_full. reflexivity.
  - replace (4 * t + 3) with (1 + (2 * t + 1) * 2) by ring. rewrite Z_mod_plus_full. reflexivity.
Qed.
Lemma prime_test_eq fuel n : (5 <= fuel)%nat -> 0 < n -> n mod 4 = 3 ->
  is_prime_number fuel n = Ok (Some ((mr_base ^ ((n - 1) / 2) mod n =? 1) || (mr_base ^ ((n - 1) / 2) mod n =? n - 1))).
Proof.
  intros Hf Hn H4. destruct (half_odd H4) as (H2 & H42 & Ho). unfold is_prime_number. rewrite Ho. cbn [Z.eqb].
  do 5 (destruct fuel as [|fuel]; [lia|]). cbn [prime_r]. rewrite H2. change (sq_mul_nomod 2 (2 + 1)) with 2. cbn [Z.eqb]. rewrite H2.
  change (sq_mul_nomod 2 (2 + 1 + 1)) with 1. cbn [Z.eqb]. rewrite Z.mod_1_r. change (sq_mul_nomod 2 (2 + 1 + 1 + 1)) with 2. cbn [Z.eqb]. rewrite H2.
  change (sq_mul_nomod 2 (2 + 1 + 1 + 1 + 1)) with 4. cbn [Z.eqb]. rewrite H42. cbn [Z.eqb]. cbv zeta. change (2 + 1 + 1 + 1 + 1 - 1) with 5. change (sq_mul_nomod 2 5) with 2.
  unfold mr_test. assert (n <> 1 /\ n <> 2) as [] by (split; intros ->; discriminate).
  rewrite sq_mul_ok by (try lia; apply Z.div_str_pos; lia). cbn [rbind]. rewrite (mr_loop_false _ _ Hn H4). destruct (_ || _); reflexivity.
Qed.
Lemma prime_accepted p : prime p -> p mod 4 = 3 -> (mr_base ^ ((p - 1) / 2) mod p =? 1) || (mr_base ^ ((p - 1) / 2) mod p =? p - 1) = true.
Proof.
  intros Hp H4. pose proof (prime_gt Hp). set (e := (p - 1) / 2).
  assert (Y : mr_base mod p <> 0).
  { intros E. apply Z.mod_divide in E; [|lia]. apply (@no_minus_one p 1000000 Hp H4). exact E. }
  pose proof (fermat Hp Y) as F. assert (Ee : p - 1 = e + e).
  { destruct (half_odd H4) as (H2 & _ & _). unfold e. pose proof (Z.div_mod (p - 1) 2 ltac:(lia)). lia. }
  assert (0 <= e) by lia. rewrite Ee, Z.pow_add_r in F by lia. set (x := mr_base ^ e) in *.
  assert (S : x * x =[p]= 1 * 1) by (rewrite F, Z.mod_small; lia). apply (sqrt_unique Hp) in S.
  destruct S as [S|S].
  - apply cong_div in S; [|lia]. rewrite S, Z.mod_small by lia. reflexivity.
  - replace (x + 1) with (x - (-1)) in S by ring. apply cong_div in S; [|lia]. rewrite S. replace (-1) with (p - 1 + (-1) * p) by ring. rewrite Z_mod_plus_full, Z.mod_small by lia.
    now rewrite Z.eqb_refl, orb_true_r.
Qed.

(** The search for r ends for every odd number but 1 *)
Lemma prime_r_none v : forall fuel r e, 2 <= r -> e = 2 ^ (r - 2 ^ Z.log2 r) \/ (r = 2 /\ e = 2) -> prime_r fuel v r e = None ->
  forall i, 0 < i < Z.of_nat fuel -> v mod 2 ^ ((r + i) - 2 ^ Z.log2 (r + i)) = 0.
Proof.
  induction fuel as [|f IH]; intros r e Hr He H i Hi; [lia|]. cbn [prime_r] in H. destruct (Z.eqb_spec (v mod e) 0) as [E|E]; [|discriminate].
  destruct f as [|f']; [lia|]. assert (Hn : forall k, 0 < k < Z.of_nat (S f') -> v mod 2 ^ (r + 1 + k - 2 ^ Z.log2 (r + 1 + k)) = 0).
  { intros k Hk. eapply (IH (r + 1)); [lia|left; apply nomod_eq; lia|exact H|exact Hk]. }
  destruct (Z.eq_dec i 1) as [->|].
  - cbn [prime_r] in H. rewrite nomod_eq in H by lia. destruct (Z.eqb_spec (v mod 2 ^ (r + 1 - 2 ^ Z.log2 (r + 1))) 0) as [E'|E']; [exact E'|discriminate].
  - replace (r + i) with (r + 1 + (i - 1)) by ring. apply Hn. lia.
Qed.
Lemma prime_r_ends v : 0 < v -> exists f, prime_r f v 2 2 <> None.
Proof.
  intros Hv. set (j := Z.log2 v + 1). pose proof (Z.log2_nonneg v). set (r := 2 ^ (j + 1) - 1).
  assert (Hp : 2 <= 2 ^ j) by (change 2 with (2 ^ 1) at 1; apply Z.pow_le_mono_r; unfold j; lia).
  assert (Ep : 2 ^ (j + 1) = 2 * 2 ^ j) by (rewrite Z.add_comm, Z.pow_add_r by (unfold j; lia); reflexivity).
  assert (El : Z.log2 r = j) by (apply Z.log2_unique; unfold r; [unfold j; lia|unfold Z.succ; lia]).
  exists (S (Z.to_nat r)). intros H0.
  pose proof (@prime_r_none v _ 2 2 ltac:(lia) ltac:(right; auto) H0 (r - 2) ltac:(unfold r; lia)) as G. replace (2 + (r - 2)) with r in G by ring. rewrite El in G.
  apply Z.mod_divide in G; [|apply Z.pow_nonzero; unfold r; lia]. apply Z.divide_pos_le in G; [|lia].
  assert (B : v < 2 ^ j) by (unfold j; apply Z.log2_spec; lia).
  assert (2 ^ j <= 2 ^ (r - 2 ^ j)); [|lia]. apply Z.pow_le_mono_r; [lia|]. unfold r. rewrite Ep. pose proof (Z.pow_gt_lin_r 2 j ltac:(lia) ltac:(unfold j; lia)). lia.
Qed.
Lemma prime_r_mono v f : forall f' r e x, (f <= f')%nat -> prime_r f v r e = Some x -> prime_r f' v r e = Some x.
Proof.
  induction f as [|f IH]; intros f' r e x Hf H; [discriminate|]. destruct f' as [|f']; [lia|]. cbn [prime_r] in *. destruct (_ =? 0); [|exact H]. apply IH; [lia|exact H].
Qed.
Lemma prime_test_ends n : 1 < n -> exists f b, forall fuel, (f <= fuel)%nat -> is_prime_number fuel n = Ok (Some b).
Proof.
  intros Hn. unfold is_prime_number. destruct (n mod 2 =? 0); [exists 0%nat, false; reflexivity|].
  destruct (@prime_r_ends (n - 1) ltac:(lia)) as [f Hf]. destruct (prime_r f (n - 1) 2 2) as [r|] eqn:E; [|congruence].
  destruct (@sq_mul_total mr_base ((n - 1) / sq_mul_nomod 2 (r - 1)) n ltac:(lia)) as [x Ex]. exists f. eexists. intros fuel Hfu. rewrite (prime_r_mono Hfu E). cbv zeta. unfold mr_test. rewrite Ex. cbn [rbind]. reflexivity.
Qed.
Lemma prime_test_one fuel : is_prime_number fuel 1 = Ok None.
Proof.
  unfold is_prime_number. change (1 mod 2 =? 0) with false. cbv iota. replace (prime_r fuel (1 - 1) 2 2) with (@None Z); [reflexivity|]. symmetry.
  assert (G : forall f r e, prime_r f 0 r e = None) by (induction f as [|f IH]; intros r e; cbn [prime_r]; [reflexivity|]; rewrite Zmod_0_l; cbn [Z.eqb]; apply IH). apply G.
Qed.

(** ** Decryption *)
Section Dec.
Variable sha : bytes -> bytes.

Lemma bitlen_fits m len : 0 <= m -> (bitlen m <= len * 8)%nat -> m < 256 ^ Z.of_nat len.
Proof.
  intros Hm Hb. destruct (bitlen_bound m) as [B|B]; [|lia]. eapply Z.lt_le_trans; [apply B|]. change 256 with (2 ^ 8). rewrite <- Z.pow_mul_r by lia. apply Z.pow_le_mono_r; lia.
Qed.
Lemma fits_bitlen m len : 0 <= m < 256 ^ Z.of_nat len -> (bitlen m <= len * 8)%nat.
Proof.
  intros Hm. destruct (Z.eq_dec m 0) as [->|]; [cbn; lia|]. pose proof (@bitlen_low m ltac:(lia)) as L. apply Nat.nlt_ge. intros Hc.
  assert (2 ^ (8 * Z.of_nat len) <= 2 ^ Z.of_nat (bitlen m - 1)) by (apply Z.pow_le_mono_r; lia). rewrite Z.pow_mul_r in H by lia. change (2 ^ 8) with 256 in H. lia.
Qed.
Lemma hash_equal_eq m h len : 0 <= m -> hash_equal sha m h len =
  Ok (if (m <? 256 ^ Z.of_nat len) && (if list_eq_dec Z.eq_dec (sha (be_bytes len m)) h then true else false) then Some (be_bytes len m) else None).
Proof.
  intros Hm. unfold hash_equal. destruct (Nat.ltb_spec (len * 8) (bitlen m)), (Z.ltb_spec m (256 ^ Z.of_nat len)); cbn [andb]; try reflexivity.
  - exfalso. pose proof (@fits_bitlen m len ltac:(lia)). lia.
  - rewrite fill_bytes_fits by lia. cbn [rbind]. now destruct (list_eq_dec _ _ _).
  - exfalso. pose proof (bitlen_fits Hm H). lia.
Qed.
Lemma first_root_ok h len : forall ms, Forall (fun m => 0 <= m) ms -> match first_root sha ms h len with
  | Ok d => exists m, In m ms /\ m < 256 ^ Z.of_nat len /\ d = be_bytes len m /\ sha d = h
  | Err => forall m, In m ms -> m < 256 ^ Z.of_nat len -> sha (be_bytes len m) <> h
  | Panic => False end.
Proof.
  induction ms as [|m t IH]; intros HF; cbn [first_root]; [intros ? []|]. inversion_clear HF as [|? ? Hm Ht]. specialize (IH Ht). rewrite hash_equal_eq by exact Hm. cbn [rbind].
  destruct (Z.ltb_spec m (256 ^ Z.of_nat len)) as [B|B]; cbn [andb]; [destruct (list_eq_dec _ _ _) as [E|E]|].
  - exists m. split; [now left|]. auto.
  - destruct (first_root sha t h len) as [d| |]; [|intros x [<-|Hx] Hb; auto|exact IH]. destruct IH as (x & Hx & Hb & Hd). exists x. split; [now right|auto].
  - destruct (first_root sha t h len) as [d| |]; [|intros x [<-|Hx] Hb; [lia|auto]|exact IH]. destruct IH as (x & Hx & Hb & Hd). exists x. split; [now right|auto].
Qed.
Lemma big_bytes_length x : length (big_bytes x) = byteceil (bitlen x).
Proof. apply be_bytes_length. Qed.
Hypothesis Hsha : forall m, length (sha m) = 32%nat.
Lemma dec_parts P Q N pl c : 0 <= c -> Z.of_nat (length pl) < 2 ^ 32 ->
  rab_decrypt sha P Q N (be_bytes 4 (Z.of_nat (length pl)) ++ big_bytes c ++ sha pl) =
  if c =? 0 then Err else rbind (rab_roots P Q c N) (fun r => let '(m1, m2, m3, m4) := r in first_root sha [m1; m2; m3; m4] (sha pl) (length pl)).
Proof.
  intros Hc Hl. unfold rab_decrypt. rewrite !app_length, be_bytes_length, Hsha, big_bytes_length. set (n := byteceil (bitlen c)).
  destruct (Z.eqb_spec c 0) as [->|Hz]; [reflexivity|].
  assert (Hn : (0 < n)%nat) by (unfold n, byteceil; pose proof (@bitlen_pos c ltac:(lia)); apply Nat.div_str_pos; lia).
  destruct (Nat.leb_spec (4 + (n + 32)) 36); [lia|]. cbv zeta.
  rewrite firstn_app_exact by apply be_bytes_length.
  assert (E4 : Z.to_nat (be_val (be_bytes 4 (Z.of_nat (length pl)))) = length pl).
  { rewrite (@be_val_fit 4 (Z.of_nat (length pl))) by (change (256 ^ Z.of_nat 4) with (2 ^ 32); lia). apply Nat2Z.id. }
  rewrite E4. replace (4 + (n + 32) - 32)%nat with (4 + n)%nat by lia. replace (4 + (n + 32) - 36)%nat with n by lia.
  rewrite (@app_assoc _ (be_bytes 4 _)). rewrite skipn_app_exact by (rewrite app_length, be_bytes_length, big_bytes_length; reflexivity).
  unfold slice. rewrite <- app_assoc. rewrite skipn_app_exact by apply be_bytes_length. rewrite firstn_app_exact by apply big_bytes_length. rewrite be_val_big_bytes by lia. reflexivity.
Qed.
Lemma roots_total P Q N C : 0 < P -> 0 < Q -> 0 < N -> exists m1 m2 m3 m4, rab_roots P Q C N = Ok (m1, m2, m3, m4) /\ Forall (fun m => 0 <= m <= N) [m1; m2; m3; m4].
Proof.
  intros HP HQ HN. unfold rab_roots, rab_root. destruct (@sq_mul_total C ((P + 1) / 4) P HP) as [mp ->]. destruct (@sq_mul_total C ((Q + 1) / 4) Q HQ) as [mq ->]. cbn [rbind].
  destruct (@ext_euclid_ok P Q ltac:(lia) HQ) as (x & y & -> & _). cbn [rbind]. destruct (Z.eqb_spec N 0); [lia|].
  destruct (norm_ok (x * P * mq + Q * mp * y) HN) as [R1 _]. destruct (norm_ok (x * P * mq - Q * mp * y) HN) as [R3 _].
  eexists. eexists. eexists. eexists. split; [reflexivity|]. repeat constructor; lia.
Qed.
End Dec.
