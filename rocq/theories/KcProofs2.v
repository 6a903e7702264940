(** Signatures of kcdsa. *)
From Verif Require Import Base BigModel NumLib ElgProofs CurveModel CurveSpec EcSigProofs EcSigProofs2 KcModel KcSpec KcProofs.
From Coq Require Import Znumtheory.
Set Implicit Arguments. Unset Strict Implicit.
Local Open Scope Z_scope.

Definition key_ok (key : kc_priv) : Prop :=
  let u := kcpub key in let a := kcpar u in kcdsa_key (kcP a) (kcQ a) (kcG a) (kcY u) (kcX key).

Lemma pow_mod_inv q x : prime q -> 0 < x < q -> (x ^ (q - 2) mod q * x) mod q = 1.
Proof.
  intros Hq Hx. pose proof Hq as [H1 _]. rewrite Z.mul_mod_idemp_l by lia.
  replace (x ^ (q - 2) * x) with (x ^ (q - 1)).
  - apply fermat; auto. rewrite Z.mod_small; lia.
  - destruct (Z.eq_dec q 1); [lia|]. replace (q - 1) with (q - 2 + 1) by lia. rewrite Z.pow_add_r, Z.pow_1_r by lia. reflexivity.
Qed.

Lemma commit_gen p q g y i x xi s e : 1 < p -> prime q -> g ^ q mod p = 1 -> 0 < x < q -> 0 <= i -> (i * x) mod q = 1 -> y = g ^ i mod p -> 0 <= xi -> (xi * x) mod q = 1 ->
  0 <= s -> 0 <= e -> (y ^ s mod p * (g ^ e mod p)) mod p = g ^ ((s * xi + e) mod q) mod p.
Proof.
  intros HP HQ HO HX Hi Ei EY X0 X1 Hs He. pose proof HQ as [HQ1 _]. rewrite <- Z.mul_mod by lia. rewrite EY.
  pose proof (Z.mul_nonneg_nonneg i s Hi Hs) as Bis. pose proof (Z.mod_pos_bound (s * xi + e) q ltac:(lia)) as Bse.
  assert (E1 : (g ^ i mod p) ^ s * g ^ e =[p]= g ^ (i * s + e)).
  { rewrite Z.pow_add_r, Z.pow_mul_r by lia. apply cong_mul; [|reflexivity]. apply cong_pow. apply cong_mod. }
  rewrite E1. clear E1. assert (Q0 : 0 < q) by (clear - HQ1; lia). assert (B1 : 0 <= i * s + e) by (clear - Bis He; lia).
  refine (@pow_order g q p (i * s + e) ((s * xi + e) mod q) Q0 HP HO B1 (proj1 Bse) _).
  rewrite Z.mod_mod by lia. assert (Ex : i =[q]= xi) by (apply (@cong_cancel _ _ x); [lia|apply prime_gcd; auto|congruence]).
  rewrite Z.mul_comm. apply cong_add; [|reflexivity]. apply cong_mul; [reflexivity|exact Ex].
Qed.
Lemma s_of_k_gen q x xi k e s : 1 < q -> (xi * x) mod q = 1 -> 0 <= k < q -> 0 <= s < q -> (s = (x * (k - e)) mod q <-> k = (s * xi + e) mod q).
Proof.
  intros Q1 X1 Hk Hs. assert (X2 : xi * x =[q]= 1) by (rewrite X1, Z.mod_1_l; lia). split; intros E.
  - rewrite <- (Z.mod_small k q) by lia. rewrite E. replace k with (1 * (k - e) + e) at 1 by ring. apply cong_add; [|reflexivity]. symmetry.
    etransitivity; [apply cong_mul; [apply cong_mod|reflexivity]|]. replace (x * (k - e) * xi) with (xi * x * (k - e)) by ring. apply cong_mul; [exact X2|reflexivity].
  - rewrite <- (Z.mod_small s q) by lia. symmetry. rewrite E.
    etransitivity; [apply cong_mul; [reflexivity|apply cong_sub; [apply cong_mod|reflexivity]]|]. replace (x * (s * xi + e - e)) with (xi * x * s) by ring.
    etransitivity; [apply cong_mul; [exact X2|reflexivity]|]. f_equal. ring.
Qed.

Section sig.
Variables (h : hasher) (key : kc_priv).
Hypothesis Hh : hasher_ok h.
Hypothesis K : key_ok key.
Let u := kcpub key.
Let a := kcpar u.
Let b := bitlen (kcQ a).
Let w := byteceil (bitlen (kcP a)).
(** the digest is cut to whole low bits *)
Hypothesis Hb : (Nat.modulo b 8 = 0 \/ byteceil b <= hsize h)%nat.
Let low (m : bytes) : Z := be_val (hsum h m) mod 2 ^ Z.of_nat b.
Let zb : bytes := be_bytes (hblock h) (kcY u mod 256 ^ Z.of_nat (hblock h)).

Lemma right_low m : exists r, right_most (hsum h m) b = Ok r /\ be_val r = low m /\ bytes_ok r /\ length r = Nat.min (byteceil b) (hsize h).
Proof.
  destruct (Hh m) as [L O]. destruct (@right_ok b (hsum h m) O) as (r & E & Or & Lr & V); [rewrite L; exact Hb|]. rewrite L in Lr. exists r. auto.
Qed.
Lemma y_range : 0 <= kcY u < kcP a.
Proof. destruct K as (HP & _ & _ & _ & _ & i & _ & _ & E). fold u a in HP, E. rewrite E. apply Z.mod_pos_bound. lia. Qed.
Lemma z_ok : kc_z (hblock h) (kcY u) = Ok zb.
Proof.
  pose proof y_range as Hy. unfold kc_z. set (n := Nat.max (byteceil (bitlen (kcY u))) (hblock h)).
  pose proof (@byteceil_bound (kcY u) ltac:(lia)) as B. assert (Hn : 0 <= kcY u < 256 ^ Z.of_nat n).
  { split; [lia|]. eapply Z.lt_le_trans; [exact B|]. apply Z.pow_le_mono_r; lia. }
  rewrite fill_bytes_fits by exact Hn. cbn [rbind].
  assert (BC : byteceil (hblock h * 8) = hblock h) by (pose proof (byteceil_ge (hblock h * 8)); lia).
  destruct (@right_ok (hblock h * 8) (be_bytes n (kcY u)) (be_bytes_ok n (kcY u))) as (r & E & O & L & V).
  { left. apply Nat.mod_mul. lia. }
  rewrite E. f_equal. rewrite be_bytes_length, BC in L. rewrite be_val_fit in V by exact Hn.
  rewrite <- (be_bytes_val O (n := hblock h)) by lia. rewrite V. unfold zb. f_equal. f_equal. rewrite pow256. f_equal. lia.
Qed.
Lemma exp_ok x e : 0 <= e -> big_exp x e (kcP a) = Ok (x ^ e mod kcP a).
Proof. intros He. destruct K as (HP & _). fold u a in HP. unfold big_exp. destruct (Z.ltb_spec e 0); [lia|]. now rewrite powm_spec by lia. Qed.
Lemma fill_ok x : fill_bytes w (x mod kcP a) = Ok (be_bytes w (x mod kcP a)).
Proof.
  destruct K as (HP & _). fold u a in HP. apply fill_bytes_fits. pose proof (Z.mod_pos_bound x (kcP a) ltac:(lia)). pose proof (@byteceil_bound (kcP a) ltac:(lia)) as B. fold w in B. lia.
Qed.
Lemma q_pos : 1 < kcQ a.
Proof. destruct K as (_ & [HQ _] & _). fold u a in HQ. exact HQ. Qed.
Let xi := kcX key ^ (kcQ a - 2) mod kcQ a.
Lemma xi_inv : (xi * kcX key) mod kcQ a = 1 /\ 0 <= xi.
Proof.
  pose proof q_pos as Q1. destruct K as (_ & HQ & _ & _ & HX & _). fold u a in HQ, HX. split; [now apply pow_mod_inv|]. apply Z.mod_pos_bound. lia.
Qed.
Lemma commit s e : 0 <= s -> 0 <= e -> (kcY u ^ s mod kcP a * (kcG a ^ e mod kcP a)) mod kcP a = kcG a ^ ((s * xi + e) mod kcQ a) mod kcP a.
Proof.
  intros Hs He. pose proof xi_inv as [X1 X0]. destruct K as (HP & HQ & HG & HO & HX & i & Hi & Ei & EY). fold u a in HP, HQ, HG, HO, HX, Ei, EY.
  now apply (@commit_gen (kcP a) (kcQ a) (kcG a) (kcY u) i (kcX key) xi s e).
Qed.
Lemma low_nonneg m : 0 <= low m.
Proof. apply Z.mod_pos_bound. apply Z.pow_pos_nonneg; lia. Qed.
Lemma verify_eq data r s : kc_verify h u data r s =
  if (r <? 1) || (s <? 1) || (kcQ a <=? s) then Ok false
  else Ok (r =? low (be_bytes w (kcG a ^ ((s * xi + Z.lxor r (low (zb ++ data))) mod kcQ a) mod kcP a))).
Proof.
  pose proof q_pos as Q1. unfold kc_verify. fold a b w. pose proof K as (HP & _). fold u a in HP. destruct (Z.leb_spec (kcP a) 0); [lia|].
  destruct (Z.ltb_spec r 1); [reflexivity|]. cbn [orb]. destruct (Z.ltb_spec s 1); [reflexivity|]. cbn [orb]. destruct (Z.leb_spec (kcQ a) s); [reflexivity|].
  rewrite z_ok. cbn [rbind]. destruct (right_low (zb ++ data)) as (hb & -> & Vh & _). cbn [rbind]. rewrite Vh.
  pose proof (Z.mod_pos_bound (Z.lxor r (low (zb ++ data))) (kcQ a) ltac:(lia)) as Be.
  rewrite !exp_ok by lia. cbn [rbind]. rewrite commit by lia. rewrite fill_ok. cbn [rbind]. rewrite Z.add_mod_idemp_r by lia.
  destruct (right_low (be_bytes w (kcG a ^ ((s * xi + Z.lxor r (low (zb ++ data))) mod kcQ a) mod kcP a))) as (rb & R1 & R2 & _). rewrite R1. cbn [rbind]. rewrite R2. reflexivity.
Qed.
Lemma s_of_k k e s : 0 <= k < kcQ a -> 0 <= s < kcQ a -> (s = (kcX key * (k - e)) mod kcQ a <-> k = (s * xi + e) mod kcQ a).
Proof. intros Hk Hs. pose proof q_pos as Q1. pose proof xi_inv as [X1 X0]. now apply s_of_k_gen. Qed.
Lemma accepts data r s : kc_verify h u data r s = Ok true <->
  0 < r /\ 0 < s < kcQ a /\ kcdsa_pair (hsum h) (hblock h) b w (kcP a) (kcQ a) (kcG a) (kcY u) (kcX key) data r s.
Proof.
  pose proof q_pos as Q1. rewrite verify_eq. destruct (Z.ltb_spec r 1); cbn [orb]; [split; [discriminate|lia]|]. destruct (Z.ltb_spec s 1); cbn [orb]; [split; [discriminate|lia]|].
  destruct (Z.leb_spec (kcQ a) s); [split; [discriminate|lia]|]. set (e := Z.lxor r (low (zb ++ data))).
  assert (EQ : forall x y, Ok (x =? y) = Ok true <-> x = y) by (intros x y; destruct (Z.eqb_spec x y); split; congruence). rewrite EQ. clear EQ.
  unfold kcdsa_pair. split.
  - intros E. split; [lia|]. split; [lia|]. exists ((s * xi + e) mod kcQ a). split; [apply Z.mod_pos_bound; lia|]. cbv zeta. split; [exact E|].
    apply s_of_k; [apply Z.mod_pos_bound; lia|lia|reflexivity].
  - intros (_ & _ & k & Hk & E1 & E2). assert (Ek : k = (s * xi + e) mod kcQ a) by (apply s_of_k; [exact Hk|lia|exact E2]). rewrite <- Ek. exact E1.
Qed.
(** sign with a nonce *)
Lemma sign_k_eq k data : 0 <= k < kcQ a -> (hblock h <= w)%nat ->
  let r := low (be_bytes w (kcG a ^ k mod kcP a)) in
  let s := (kcX key * (k - Z.lxor r (low (zb ++ data)))) mod kcQ a in
  kc_sign_k h key k data = Ok (if negb (r =? 0) && negb (s =? 0) then Some (r, s) else None).
Proof.
  intros Hk Hl r s. pose proof q_pos as Q1. pose proof y_range as Hy. unfold kc_sign_k. fold u a b w. rewrite exp_ok by lia. cbn [rbind]. rewrite fill_ok. cbn [rbind].
  destruct (right_low (be_bytes w (kcG a ^ k mod kcP a))) as (rb & R1 & R2 & _). rewrite R1. cbn [rbind]. rewrite R2. fold r.
  assert (Ly : (byteceil (bitlen (kcY u)) <= w)%nat).
  { unfold w, byteceil. apply Nat.div_le_mono; [lia|]. apply Nat.add_le_mono_r. unfold bitlen. destruct (Z.eqb_spec (kcY u) 0); [lia|]. destruct (Z.eqb_spec (kcP a) 0); [lia|].
    apply le_n_S. rewrite !Z.abs_eq by lia. apply Z2Nat.inj_le; [apply Z.log2_nonneg|apply Z.log2_nonneg|]. apply Z.log2_le_mono. lia. }
  destruct (Nat.ltb_spec w (Nat.max (byteceil (bitlen (kcY u))) (hblock h))); [lia|]. rewrite z_ok. cbn [rbind].
  destruct (right_low (zb ++ data)) as (hb & B1 & B2 & _). rewrite B1. cbn [rbind]. rewrite B2.
  assert (Es : (kcX key * ((k - Z.lxor r (low (zb ++ data)) mod kcQ a) mod kcQ a)) mod kcQ a = s).
  { unfold s. rewrite Z.mul_mod_idemp_r by lia. apply cong_mul; [reflexivity|]. apply cong_sub; [reflexivity|apply cong_mod]. }
  rewrite Es. reflexivity.
Qed.
Lemma sign_k_panics k data : 0 <= k -> (w < hblock h)%nat -> kc_sign_k h key k data = Panic.
Proof.
  intros Hk Hl. unfold kc_sign_k. fold u a b w. rewrite exp_ok by lia. cbn [rbind]. rewrite fill_ok. cbn [rbind].
  destruct (right_low (be_bytes w (kcG a ^ k mod kcP a))) as (rb & -> & _ & _). cbn [rbind].
  destruct (Nat.ltb_spec w (Nat.max (byteceil (bitlen (kcY u))) (hblock h))); [reflexivity|lia].
Qed.
Lemma sign_k_good k data r s : 0 <= k < kcQ a -> (hblock h <= w)%nat -> kc_sign_k h key k data = Ok (Some (r, s)) ->
  kc_verify h u data r s = Ok true /\ 0 < r < 2 ^ Z.of_nat b /\ r < 256 ^ Z.of_nat (hsize h) /\ 0 < s < kcQ a.
Proof.
  intros Hk Hl E. pose proof q_pos as Q1. rewrite sign_k_eq in E by assumption. cbv zeta in E. set (r0 := low (be_bytes w (kcG a ^ k mod kcP a))) in *.
  set (s0 := (kcX key * (k - Z.lxor r0 (low (zb ++ data)))) mod kcQ a) in *. assert (L0 : 0 <= r0) by apply low_nonneg.
  assert (Bs : 0 <= s0 < kcQ a) by (apply Z.mod_pos_bound; lia). assert (Br : r0 < 2 ^ Z.of_nat b) by (apply Z.mod_pos_bound; apply Z.pow_pos_nonneg; lia).
  destruct (Z.eqb_spec r0 0) as [|Nr]; cbn [negb andb] in E; [discriminate|]. destruct (Z.eqb_spec s0 0) as [|Ns]; cbn [negb] in E; [discriminate|].
  assert (Er : r = r0) by congruence. assert (Es : s = s0) by congruence. clear E. subst r s.
  assert (Bh : r0 < 256 ^ Z.of_nat (hsize h)).
  { unfold r0, low. destruct (Hh (be_bytes w (kcG a ^ k mod kcP a))) as [LH OH]. pose proof (be_val_bound OH) as BH. rewrite LH in BH.
    eapply Z.le_lt_trans; [apply Z.mod_le; [apply BH|apply Z.pow_pos_nonneg; lia]|apply BH]. }
  split; [|lia]. apply accepts. split; [lia|]. split; [lia|].
  exists k. split; [lia|]. cbv zeta. split; reflexivity.
Qed.
Lemma sign_k_np k data : 0 <= k < kcQ a -> (hblock h <= w)%nat -> kc_sign_k h key k data <> Panic.
Proof. intros. rewrite sign_k_eq by assumption. discriminate. Qed.
End sig.

Lemma nonce_ok q rd k rd' : bytes_ok rd -> kc_nonce q rd = Ok (k, rd') -> 0 < k < q /\ bytes_ok rd'.
Proof.
  intros Hrd E. unfold kc_nonce in E. apply (until_inv (Q := fun k => 0 < k < q)) in E; [tauto| |exact Hrd]. clear. intros rd o rd' Hr E.
  destruct (read_bits _ rd) as [[b r1]| |] eqn:Er; try discriminate. cbn [rbind fst snd] in E. injection E as <- <-. apply read_bits_ok in Er; auto. destruct Er as (_ & Hr1 & _ & Hv).
  split; [exact Hr1|]. destruct (Z.ltb_spec 0 (be_val b + 1)); cbn [andb]; auto. destruct (Z.ltb_spec (be_val b + 1) q); auto.
Qed.
Lemma nonce_np q rd : kc_nonce q rd <> Panic.
Proof.
  unfold kc_nonce, until. apply retry_no_panic. intros r. pose proof (@read_bits_np (bitlen q) r). destruct (read_bits _ r) as [[b r1]| |]; cbn [rbind]; congruence.
Qed.
