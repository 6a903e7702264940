(** C116-C117: finite-field Diffie-Hellman. *)
From Verif Require Import Base BigModel NumLib ElgProofs EcSigProofs EcSigProofs2 SrProofs2 KcProofs DhModel DhSpec.
From Coq Require Import Znumtheory.
Set Implicit Arguments. Unset Strict Implicit.
Local Open Scope Z_scope.

Lemma exp_val g x p : 0 < p -> 0 <= x -> big_exp g x p = Ok (g ^ x mod p).
Proof. intros Hp Hx. unfold big_exp. destruct (Z.ltb_spec x 0); [lia|]. now rewrite powm_spec by lia. Qed.
Lemma be_val_zero t : be_val (0 :: t) = be_val t.
Proof. change (0 :: t) with ([0] ++ t). rewrite be_val_app. unfold be_val at 1. cbn. lia. Qed.
Lemma exponent_ok p rd x rd' : bytes_ok rd -> dh_exponent p rd = Ok (x, rd') ->
  Z.of_nat (bitlen p) + 1 <= x < 256 ^ Z.of_nat (byteceil (bitlen p) - 1) /\ bytes_ok rd'.
Proof.
  intros Hrd E. unfold dh_exponent in E. apply (until_inv (Q := fun x => Z.of_nat (bitlen p) + 1 <= x < 256 ^ Z.of_nat (byteceil (bitlen p) - 1))) in E; [exact E| |exact Hrd].
  clear. intros rd o rd' Hr E. destruct (read_full _ rd) as [[b r1]| |] eqn:Er; try discriminate. cbn [rbind fst snd] in E. apply read_full_ok in Er; [|exact Hr].
  destruct Er as (L & O & Hr1 & _). destruct b as [|y t]; [discriminate|]. cbv zeta in E. rewrite be_val_zero in E. apply okinj in E. assert (rd' = r1) by congruence. subst rd'. split; [exact Hr1|].
  destruct (Z.ltb_spec (be_val t) (Z.of_nat (bitlen p) + 1)); [assert (o = None) by congruence; subst o; exact I|]. assert (o = Some (be_val t)) by congruence. subst o.
  apply Forall_inv_tail in O. pose proof (be_val_bound O) as B. cbn [length] in L. replace (byteceil (bitlen p) - 1)%nat with (length t) by lia. lia.
Qed.
Lemma below_p p : 0 < p -> 256 ^ Z.of_nat (byteceil (bitlen p) - 1) <= p.
Proof.
  intros Hp. pose proof (@bitlen_low p Hp) as L. pose proof (@bitlen_pos p Hp). pose proof (byteceil_ge (bitlen p)). rewrite pow256.
  assert (2 ^ (8 * Z.of_nat (byteceil (bitlen p) - 1)) <= 2 ^ Z.of_nat (bitlen p - 1)) by (apply Z.pow_le_mono_r; lia). lia.
Qed.
Lemma bytes_shortest v : 0 <= v -> shortest v (big_bytes v).
Proof.
  intros Hv. unfold shortest, big_bytes. rewrite Z.abs_eq by lia. set (n := byteceil (bitlen v)). pose proof (@byteceil_bound v Hv) as B. fold n in B.
  split; [apply be_bytes_ok|]. assert (V : be_val (be_bytes n v) = v) by (apply be_val_fit; lia). split; [exact V|].
  destruct (be_bytes n v) as [|x t] eqn:E; [exact I|]. intros ->. rewrite be_val_zero in V. pose proof (be_bytes_length n v) as L. pose proof (be_bytes_ok n v) as O. rewrite E in L, O.
  cbn [length] in L. apply Forall_inv_tail in O. pose proof (be_val_bound O) as Bt. rewrite V in Bt. destruct (Z.eq_dec v 0) as [->|N]; [cbn in n; unfold n in L; discriminate|].
  pose proof (@below_p v ltac:(lia)) as Bp. fold n in Bp. replace (n - 1)%nat with (length t) in Bp by lia. lia.
Qed.

(** C116 *)
Theorem C116_dh_generate p g rd k rd' : 0 < p -> bytes_ok rd -> dh_generate p g rd = Ok (k, rd') ->
  Z.of_nat (bitlen p) < dhX k < p /\ dhX k < 256 ^ Z.of_nat (byteceil (bitlen p) - 1) /\ dhpub k = DhPub p g (g ^ dhX k mod p) /\ dh_check (dhpub k) = Ok tt.
Proof.
  intros Hp Hrd E. unfold dh_generate in E. destruct (dh_exponent p rd) as [[x r]| |] eqn:X; try discriminate. cbn [rbind fst snd] in E. apply exponent_ok in X; [|exact Hrd]. destruct X as [[X1 X2] _].
  rewrite exp_val in E by lia. cbn [rbind] in E. apply okinj in E. assert (k = DhPriv (DhPub p g (g ^ x mod p)) x) by congruence. subst k. cbn [dhX dhpub]. pose proof (@below_p p Hp).
  split; [lia|]. split; [lia|]. split; [reflexivity|]. unfold dh_check. cbn [dhY dhP]. pose proof (Z.mod_pos_bound (g ^ x) p Hp).
  destruct (Z.leb_spec 0 (g ^ x mod p)); [|lia]. destruct (Z.ltb_spec (g ^ x mod p) p); [reflexivity|lia].
Qed.
(** The first byte of the exponent is always cleared: a modulus of one byte never gets a key, the modulus 0 crashes. *)
Theorem C116_dh_tiny_modulus g rd : (forall p, 0 < p < 256 -> forall k, dh_generate p g rd <> Ok k) /\ dh_generate 0 g rd = Panic.
Proof.
  split; [|reflexivity]. intros p Hp k E. unfold dh_generate in E. destruct (dh_exponent p rd) as [[x r]| |] eqn:X; try discriminate. clear E.
  assert (BL : (bitlen p <= 1 * 8)%nat) by (apply fits_bitlen; cbn; lia). pose proof (@bitlen_pos p ltac:(lia)) as BP. assert (BC : byteceil (bitlen p) = 1%nat) by (pose proof (byteceil_ge (bitlen p)); lia).
  revert X. unfold dh_exponent, until. rewrite BC. generalize (S (length rd)) as f. intros f. revert rd. induction f as [|f IH]; intros rd X; [discriminate|]. cbn [retry] in X.
  unfold read_full in X. destruct (Nat.leb_spec 1 (length rd)); [|discriminate]. destruct rd as [|b rd]; [cbn [length] in *; lia|]. cbn [firstn skipn rbind fst snd] in X.
  replace (be_val [0]) with 0 in X by reflexivity. destruct (Z.ltb_spec 0 (Z.of_nat (bitlen p) + 1)); [|lia]. now apply (IH rd).
Qed.
(** Both sides derive the same secret: the shortest form of g^(ab) mod p. *)
Theorem C116_dh_agreement p g a b ua ub : 0 < p -> dhP (dhpub a) = p -> dhP (dhpub b) = p -> dhG (dhpub a) = g -> dhG (dhpub b) = g -> 0 <= dhX a -> 0 <= dhX b ->
  dh_public a = Ok ua -> dh_public b = Ok ub ->
  exists s, dh_secret a ub = Ok s /\ dh_secret b ua = Ok s /\ shortest (g ^ (dhX a * dhX b) mod p) s.
Proof.
  intros Hp Pa Pb Ga Gb Xa Xb Ea Eb. unfold dh_public in *. rewrite Pa, Ga, exp_val in Ea by lia. rewrite Pb, Gb, exp_val in Eb by lia. cbn [rbind] in Ea, Eb. apply okinj in Ea. apply okinj in Eb. subst ua ub.
  unfold dh_secret. cbn [dhY]. rewrite Pa, Pb, !exp_val by lia. cbn [rbind].
  assert (E1 : (g ^ dhX b mod p) ^ dhX a mod p = g ^ (dhX a * dhX b) mod p).
  { transitivity ((g ^ dhX b) ^ dhX a mod p); [apply cong_pow; apply cong_mod|]. rewrite <- Z.pow_mul_r by lia. f_equal. f_equal. ring. }
  assert (E2 : (g ^ dhX a mod p) ^ dhX b mod p = g ^ (dhX a * dhX b) mod p).
  { transitivity ((g ^ dhX a) ^ dhX b mod p); [apply cong_pow; apply cong_mod|]. rewrite <- Z.pow_mul_r by lia. reflexivity. }
  rewrite E1, E2. eexists. split; [reflexivity|]. split; [reflexivity|]. apply bytes_shortest. apply Z.mod_pos_bound. lia.
Qed.
(** the generated public key is the one GeneratePublicKey recomputes *)
Theorem C116_dh_public p g rd k rd' : 0 < p -> bytes_ok rd -> dh_generate p g rd = Ok (k, rd') -> dh_public k = Ok (dhpub k).
Proof.
  intros Hp Hrd E. destruct (@C116_dh_generate p g rd k rd' Hp Hrd E) as (X & _ & U & _). unfold dh_public. rewrite U. cbn [dhP dhG]. rewrite exp_val by lia. reflexivity.
Qed.
(** Check accepts exactly 0 <= Y < P, so also 0, 1 and P - 1; ComputeSecret checks nothing, works modulo P, and its result is then known to everyone. *)
Theorem C116_dh_degenerate_peer_refuted k : 2 < dhP (dhpub k) -> 0 < dhX k ->
  let p := dhP (dhpub k) in let g := dhG (dhpub k) in
  (forall y, dh_check (DhPub p g y) = Ok tt <-> 0 <= y < p) /\
  dh_secret k (DhPub p g 0) = Ok [] /\ dh_secret k (DhPub p g 1) = Ok [1] /\
  (dh_secret k (DhPub p g (p - 1)) = Ok [1] \/ dh_secret k (DhPub p g (p - 1)) = Ok (big_bytes (p - 1))) /\
  (forall y, dh_secret k (DhPub p g (y mod p)) = dh_secret k (DhPub p g y)).
Proof.
  intros Hp Hx p g. fold p in Hp. unfold dh_secret. cbn [dhY]. fold p. split.
  { intros y. unfold dh_check. cbn [dhY dhP]. destruct (Z.leb_spec 0 y); destruct (Z.ltb_spec y p); cbn [andb]; split; try discriminate; lia || reflexivity. }
  split. { rewrite exp_val by lia. rewrite Z.pow_0_l by lia. rewrite Z.mod_0_l by lia. reflexivity. }
  split. { rewrite exp_val by lia. rewrite Z.pow_1_l by lia. rewrite Z.mod_1_l by lia. reflexivity. }
  split.
  - rewrite exp_val by lia. cbn [rbind]. assert (E : (p - 1) ^ dhX k mod p = (- 1) ^ dhX k mod p).
    { apply cong_pow. replace (p - 1) with (- 1 + 1 * p) by ring. now rewrite Z.mod_add by lia. }
    rewrite E. destruct (Z.Even_or_Odd (dhX k)) as [[m Em]|[m Em]].
    + left. rewrite Em, Z.pow_mul_r by lia. change ((-1) ^ 2) with 1. rewrite Z.pow_1_l by lia. now rewrite Z.mod_1_l by lia.
    + right. do 2 f_equal. rewrite Em, Z.pow_add_r, Z.pow_mul_r by lia. change ((-1) ^ 2) with 1. rewrite Z.pow_1_l by lia. change (1 * (-1) ^ 1) with (-1).
      symmetry. apply (Z.mod_unique_pos (-1) p (-1)); lia.
  - intros y. rewrite !exp_val by lia. cbn [rbind]. f_equal. f_equal. apply cong_pow. apply cong_mod.
Qed.

(** C117 *)
Theorem C117_dh_groups :
  dh_group 1 = Ok (modp 768 149686, 2) /\ dh_group 2 = Ok (modp 1024 129093, 2) /\ dh_group 3 = Ok (modp 1536 741804, 2) /\ dh_group 4 = Ok (modp 2048 124476, 2) /\
  dh_group 5 = Ok (modp 3072 1690314, 2) /\ dh_group 6 = Ok (modp 4096 240904, 2) /\ dh_group 7 = Ok (modp 6144 929484, 2) /\
  (forall id, ~ 1 <= id <= 8 -> dh_group id = Err).
Proof.
  do 7 (split; [vm_compute; reflexivity|]). intros id H. unfold dh_group. destruct id as [|q|]; try reflexivity.
  do 4 (destruct q as [q|q|]; try reflexivity; try lia).
Qed.
(** The constant for the 8192-bit group lacks the last hexadecimal digit of the RFC's prime: it has 8188 bits and is divisible by 697127. *)
Theorem C117_dh_group_8192_refuted : exists p, dh_group 8 = Ok (p, 2) /\ p = modp 8192 4743158 / 16 /\ Z.of_nat (bitlen p) = 8188 /\ (697127 | p) /\ ~ prime p.
Proof.
  exists dh_p8192. split; [reflexivity|]. split; [vm_compute; reflexivity|]. split; [vm_compute; reflexivity|].
  assert (D : (697127 | dh_p8192)) by (apply Z.mod_divide; [lia|vm_compute; reflexivity]). split; [exact D|]. intros PP. apply prime_divisors in D; [|exact PP].
  assert (B : 697127 < dh_p8192) by (vm_compute; reflexivity). destruct D as [D|[D|[D|D]]]; try discriminate; rewrite <- D in B; discriminate.
Qed.

Example C116_instance : exists k, dh_generate 1019 2 [9; 5; 255; 20] = Ok (k, []) /\ dhX k = 20 /\ dhY (dhpub k) = 2 ^ 20 mod 1019.
Proof. eexists. split; [vm_compute; reflexivity|]. split; reflexivity. Qed.
Example C116_instance_lengths : let k x := DhPriv (DhPub 1019 2 (2 ^ x mod 1019)) x in
  dh_secret (k 20) (dhpub (k 30)) = dh_secret (k 30) (dhpub (k 20)) /\ dh_secret (k 20) (DhPub 1019 2 1) = Ok [1] /\ dh_secret (k 1) (DhPub 1019 2 300) = Ok [1; 44].
Proof. vm_compute. repeat split. Qed.

Definition C116_C117 := (C116_dh_generate, C116_dh_tiny_modulus, C116_dh_agreement, C116_dh_public, C116_dh_degenerate_peer_refuted, C117_dh_groups, C117_dh_group_8192_refuted).
Print Assumptions C116_C117.
