(** Keys, whole signatures and byte forms of kcdsa. *)
From Verif Require Import Base BigModel NumLib ElgProofs CurveModel CurveSpec EcSigProofs EcSigProofs2 Ec2Proofs2 KcModel KcSpec KcProofs KcProofs2.
From Coq Require Import Znumtheory.
Set Implicit Arguments. Unset Strict Implicit.
Local Open Scope Z_scope.

(** GenerateKey *)
Lemma key_of_x a x y : 1 < kcP a -> prime (kcQ a) -> 0 < kcG a -> kcG a ^ kcQ a mod kcP a = 1 -> 0 < x < kcQ a ->
  kc_y a x = Ok y -> key_ok (KcPriv (KcPub a y) x).
Proof.
  intros HP HQ HG HO HX E. pose proof HQ as [Q1 _]. unfold kc_y in E. unfold big_exp at 1 in E. destruct (Z.ltb_spec (kcQ a - 2) 0); [lia|]. cbn [rbind] in E.
  rewrite powm_spec in E by lia. set (i := x ^ (kcQ a - 2) mod kcQ a) in *. assert (Hi : 0 <= i) by (apply Z.mod_pos_bound; lia).
  unfold big_exp in E. destruct (Z.ltb_spec i 0); [lia|]. rewrite powm_spec in E by lia. apply okinj in E.
  unfold key_ok, kcdsa_key. cbn [kcpub kcpar kcY kcX]. split; [exact HP|]. split; [exact HQ|]. split; [exact HG|]. split; [exact HO|]. split; [exact HX|].
  exists i. split; [exact Hi|]. split; [apply pow_mod_inv; assumption|]. symmetry. exact E.
Qed.
Lemma y_total a x : 1 < kcP a -> 1 < kcQ a -> exists y, kc_y a x = Ok y.
Proof.
  intros HP Q1. unfold kc_y. unfold big_exp at 1. destruct (Z.ltb_spec (kcQ a - 2) 0); [lia|]. cbn [rbind].
  rewrite powm_spec by lia. set (i := x ^ (kcQ a - 2) mod kcQ a). assert (Hi : 0 <= i) by (apply Z.mod_pos_bound; lia).
  unfold big_exp. destruct (Z.ltb_spec i 0); [lia|]. eauto.
Qed.
Lemma generate_ok a rd key rd' : 1 < kcP a -> prime (kcQ a) -> 0 < kcG a -> kcG a ^ kcQ a mod kcP a = 1 -> bytes_ok rd ->
  kc_generate a rd = Ok (key, rd') -> key_ok key /\ kcpar (kcpub key) = a /\ bytes_ok rd'.
Proof.
  intros HP HQ HG HO Hrd E. unfold kc_generate in E. destruct (until _ rd) as [[x r1]| |] eqn:U; try discriminate. cbn [rbind fst snd] in E.
  apply (until_inv (Q := fun x => 0 < x < kcQ a)) in U; [| |exact Hrd].
  - destruct U as [HX Hr]. destruct (kc_y a x) as [y| |] eqn:EY; try discriminate. cbn [rbind] in E.
    assert (E1 : key = KcPriv (KcPub a y) x) by congruence. assert (E2 : rd' = r1) by congruence. subst key rd'.
    split; [now apply key_of_x|]. split; [reflexivity|exact Hr].
  - clear. intros rd o rd' Hr E. destruct (read_full _ rd) as [[b r1]| |] eqn:Er; try discriminate. cbn [rbind fst snd] in E. apply okinj in E.
    apply read_full_ok in Er; [|exact Hr]. destruct Er as (_ & _ & Hr1 & _). assert (E2 : rd' = r1) by congruence. subst rd'. split; [exact Hr1|].
    destruct (Z.ltb_spec 0 (be_val b)); cbn [andb] in E; [|assert (o = None) by congruence; subst o; exact I].
    destruct (Z.ltb_spec (be_val b) (kcQ a)); [|assert (o = None) by congruence; subst o; exact I].
    assert (Eo : o = Some (be_val b)) by congruence. subst o. auto.
Qed.
Lemma generate_np a rd : 1 < kcP a -> 1 < kcQ a -> kc_generate a rd <> Panic.
Proof.
  intros HP HQ. unfold kc_generate. destruct (until _ rd) as [[x r1]| |] eqn:U; cbn [rbind fst snd]; [|discriminate|].
  - destruct (@y_total a x HP HQ) as [y ->]. discriminate.
  - exfalso. revert U. unfold until. apply retry_no_panic. intros r. unfold read_full. destruct (Nat.leb _ _); cbn [rbind]; discriminate.
Qed.

(** Sign *)
Section sig.
Variables (h : hasher) (key : kc_priv).
Hypothesis Hh : hasher_ok h.
Hypothesis K : key_ok key.
Let u := kcpub key.
Let a := kcpar u.
Let b := bitlen (kcQ a).
Let w := byteceil (bitlen (kcP a)).
Lemma attempts_ok data : (Nat.modulo b 8 = 0)%nat -> forall n rd r s, (hblock h <= w)%nat -> bytes_ok rd -> kc_attempts n h key data rd = Ok (r, s) ->
  kc_verify h u data r s = Ok true /\ 0 < r < 2 ^ Z.of_nat b /\ r < 256 ^ Z.of_nat (hsize h) /\ 0 < s < kcQ a.
Proof.
  intros Hb n. induction n as [|n IH]; intros rd r s Hw Hrd E; [discriminate|]. cbn [kc_attempts] in E. fold u a in E.
  destruct (kc_nonce (kcQ a) rd) as [[k r1]| |] eqn:N; try discriminate. cbn [rbind fst snd] in E. apply nonce_ok in N; [|exact Hrd]. destruct N as [Hk Hr].
  destruct (kc_sign_k h key k data) as [[[r0 s0]|]| |] eqn:S; try discriminate; cbn [rbind] in E.
  - assert (r0 = r) by congruence. assert (s0 = s) by congruence. subst r0 s0.
    apply (sign_k_good Hh K (or_introl Hb)) in S; [exact S|fold u; fold a; lia|exact Hw].
  - now apply (IH r1).
Qed.
Lemma attempts_np data : (Nat.modulo b 8 = 0)%nat -> forall n rd, (hblock h <= w)%nat -> bytes_ok rd -> kc_attempts n h key data rd <> Panic.
Proof.
  intros Hb n. induction n as [|n IH]; intros rd Hw Hrd; [discriminate|]. cbn [kc_attempts]. fold u a.
  destruct (kc_nonce (kcQ a) rd) as [[k r1]| |] eqn:N; cbn [rbind fst snd]; [|discriminate|now elim (nonce_np N)]. apply nonce_ok in N; [|exact Hrd]. destruct N as [Hk Hr].
  assert (NP : kc_sign_k h key k data <> Panic) by (apply (sign_k_np Hh K (or_introl Hb)); [fold u; fold a; lia|exact Hw]).
  destruct (kc_sign_k h key k data) as [[rs|]| |] eqn:S; cbn [rbind]; [discriminate| |discriminate|congruence]. now apply IH.
Qed.
Lemma guard_ok : (Nat.modulo b 8 = 0)%nat -> forall rd data, kc_sign h rd key data = kc_attempts 10 h key data rd.
Proof.
  intros Hb rd data. unfold kc_sign. fold u a b. destruct K as (HP & [HQ _] & HG & _ & HX & _). fold u in HP, HQ, HG, HX. fold a in HP, HQ, HG, HX.
  destruct (Z.leb_spec (kcQ a) 0); [lia|]. destruct (Z.leb_spec (kcP a) 0); [lia|]. destruct (Z.leb_spec (kcG a) 0); [lia|]. destruct (Z.leb_spec (kcX key) 0); [lia|].
  cbn [orb]. rewrite Hb. reflexivity.
Qed.
Lemma guard_err : (Nat.modulo b 8 <> 0)%nat -> forall rd data, kc_sign h rd key data = Err.
Proof.
  intros Hb rd data. unfold kc_sign. fold u a b. destruct (Nat.eqb_spec (Nat.modulo b 8) 0); [lia|]. cbn [negb]. now rewrite orb_true_r.
Qed.
Lemma sign_good rd data r s : (hblock h <= w)%nat -> bytes_ok rd -> kc_sign h rd key data = Ok (r, s) ->
  kc_verify h u data r s = Ok true /\ 0 < r < 2 ^ Z.of_nat b /\ r < 256 ^ Z.of_nat (hsize h) /\ 0 < s < kcQ a.
Proof.
  intros Hw Hrd E. destruct (Nat.eq_dec (Nat.modulo b 8) 0) as [Hb|Hb]; [|rewrite guard_err in E by exact Hb; discriminate].
  rewrite guard_ok in E by exact Hb. now apply (@attempts_ok data Hb 10 rd).
Qed.
Lemma sign_np rd data : (hblock h <= w)%nat -> bytes_ok rd -> kc_sign h rd key data <> Panic.
Proof.
  intros Hw Hrd. destruct (Nat.eq_dec (Nat.modulo b 8) 0) as [Hb|Hb]; [|rewrite guard_err by exact Hb; discriminate].
  rewrite guard_ok by exact Hb. now apply attempts_np.
Qed.
(** too short a P: no signature, and a crash as soon as a nonce is drawn *)
Lemma sign_short rd data : (w < hblock h)%nat -> bytes_ok rd -> forall rs, kc_sign h rd key data <> Ok rs.
Proof.
  intros Hw Hrd rs. destruct (Nat.eq_dec (Nat.modulo b 8) 0) as [Hb|Hb]; [|rewrite guard_err by exact Hb; discriminate].
  rewrite guard_ok by exact Hb. cbn [kc_attempts]. fold u a. destruct (kc_nonce (kcQ a) rd) as [[k r1]| |] eqn:N; cbn [rbind fst snd]; try discriminate.
  apply nonce_ok in N; [|exact Hrd]. rewrite (sign_k_panics Hh K (or_introl Hb)); [discriminate|lia|exact Hw].
Qed.
Lemma nonce_first q rd : bytes_ok rd -> (byteceil (bitlen q) <= length rd)%nat -> be_val (firstn (byteceil (bitlen q)) rd) mod 2 ^ Z.of_nat (bitlen q) + 1 < q ->
  exists k rd', kc_nonce q rd = Ok (k, rd').
Proof.
  intros Hrd HL HV. unfold kc_nonce, until. cbn [retry]. unfold read_bits at 1, read_full at 1. destruct (Nat.leb_spec (byteceil (bitlen q)) (length rd)); [|lia].
  cbn [rbind fst snd]. destruct (@keep_ok (bitlen q) (firstn (byteceil (bitlen q)) rd) (bytes_ok_firstn _ Hrd)) as (b' & -> & _ & _ & V); [now apply firstn_length_le|].
  cbn [rbind fst snd]. rewrite V. pose proof (Z.mod_pos_bound (be_val (firstn (byteceil (bitlen q)) rd)) (2 ^ Z.of_nat (bitlen q)) ltac:(apply Z.pow_pos_nonneg; lia)) as P.
  destruct (Z.ltb_spec 0 (be_val (firstn (byteceil (bitlen q)) rd) mod 2 ^ Z.of_nat (bitlen q) + 1)); [|lia]. cbn [andb].
  destruct (Z.ltb_spec (be_val (firstn (byteceil (bitlen q)) rd) mod 2 ^ Z.of_nat (bitlen q) + 1) q); [|lia]. eauto.
Qed.
Lemma sign_crash rd data : (Nat.modulo b 8 = 0)%nat -> (w < hblock h)%nat -> bytes_ok rd -> (byteceil b <= length rd)%nat ->
  be_val (firstn (byteceil b) rd) mod 2 ^ Z.of_nat b + 1 < kcQ a -> kc_sign h rd key data = Panic.
Proof.
  intros Hb Hw Hrd HL HV. rewrite guard_ok by exact Hb. cbn [kc_attempts]. fold u a. destruct (@nonce_first (kcQ a) rd Hrd HL HV) as (k & rd' & E). rewrite E.
  cbn [rbind fst snd]. apply nonce_ok in E; [|exact Hrd]. rewrite (sign_k_panics Hh K (or_introl Hb)); [reflexivity|lia|exact Hw].
Qed.
Lemma rlen_min : kc_rlen h (kcQ a) = Nat.min (hsize h) (byteceil b).
Proof. unfold kc_rlen. fold b. destruct (Nat.leb_spec (hsize h) (byteceil b)); lia. Qed.
Lemma fits_rlen r : 0 < r < 2 ^ Z.of_nat b -> r < 256 ^ Z.of_nat (hsize h) -> 0 <= r < 256 ^ Z.of_nat (kc_rlen h (kcQ a)).
Proof.
  intros H1 H2. rewrite rlen_min. destruct (Nat.min_spec (hsize h) (byteceil b)) as [[_ ->]|[_ ->]]; [lia|]. split; [lia|]. eapply Z.lt_le_trans; [apply H1|].
  rewrite pow256. apply Z.pow_le_mono_r; [lia|]. pose proof (byteceil_ge b). lia.
Qed.
Lemma sign_bytes_good rd data sig : (hblock h <= w)%nat -> bytes_ok rd -> kc_sign_bytes h rd key data = Ok sig ->
  length sig = (Nat.min (hsize h) (byteceil b) + byteceil b)%nat /\ kc_verify_bytes h u data sig = Ok true /\ bytes_ok sig.
Proof.
  intros Hw Hrd E. unfold kc_sign_bytes in E. fold u a in E. destruct (kc_sign h rd key data) as [[r s]| |] eqn:S; try discriminate. cbn [rbind fst snd] in E.
  destruct (@sign_good rd data r s Hw Hrd S) as (V & Hr & Hr2 & Hs). pose proof (fits_rlen Hr Hr2) as F1.
  assert (F2 : 0 <= s < 256 ^ Z.of_nat (byteceil (bitlen (kcQ a)))).
  { pose proof (@byteceil_bound (kcQ a) ltac:(lia)). lia. }
  rewrite fill_bytes_fits in E by exact F1. cbn [rbind] in E. rewrite fill_bytes_fits in E by exact F2. cbn [rbind] in E. apply okinj in E. subst sig.
  assert (L : length (be_bytes (kc_rlen h (kcQ a)) r ++ be_bytes (byteceil (bitlen (kcQ a))) s) = (kc_rlen h (kcQ a) + byteceil (bitlen (kcQ a)))%nat) by (rewrite app_length, !be_bytes_length; reflexivity).
  split; [rewrite L, rlen_min; reflexivity|]. split.
  - unfold kc_verify_bytes. fold a. rewrite L, Nat.eqb_refl. cbn [negb]. rewrite firstn_app_exact, skipn_app_exact by (now rewrite be_bytes_length). rewrite !be_val_fit by assumption. exact V.
  - apply Forall_app. split; apply be_bytes_ok.
Qed.
Lemma sign_bytes_np rd data : (hblock h <= w)%nat -> bytes_ok rd -> kc_sign_bytes h rd key data <> Panic.
Proof.
  intros Hw Hrd. unfold kc_sign_bytes. fold u a. destruct (kc_sign h rd key data) as [[r s]| |] eqn:S; cbn [rbind fst snd]; [|discriminate|now elim (@sign_np rd data Hw Hrd)].
  destruct (@sign_good rd data r s Hw Hrd S) as (V & Hr & Hr2 & Hs). pose proof (fits_rlen Hr Hr2) as F1.
  assert (F2 : 0 <= s < 256 ^ Z.of_nat (byteceil (bitlen (kcQ a)))).
  { pose proof (@byteceil_bound (kcQ a) ltac:(lia)). lia. }
  rewrite fill_bytes_fits by exact F1. cbn [rbind]. rewrite fill_bytes_fits by exact F2. discriminate.
Qed.
Lemma verify_bytes_iff data sig : (Nat.modulo b 8 = 0 \/ byteceil b <= hsize h)%nat -> kc_verify_bytes h u data sig = Ok true <->
  length sig = (Nat.min (hsize h) (byteceil b) + byteceil b)%nat /\
  let r := be_val (firstn (Nat.min (hsize h) (byteceil b)) sig) in let s := be_val (skipn (Nat.min (hsize h) (byteceil b)) sig) in
  0 < r /\ 0 < s < kcQ a /\ kcdsa_pair (hsum h) (hblock h) b w (kcP a) (kcQ a) (kcG a) (kcY u) (kcX key) data r s.
Proof.
  intros Hb. unfold kc_verify_bytes. fold a. rewrite rlen_min. fold b. destruct (Nat.eqb_spec (length sig) (Nat.min (hsize h) (byteceil b) + byteceil b)) as [L|L]; cbn [negb].
  - pose proof (accepts Hh K Hb data (be_val (firstn (Nat.min (hsize h) (byteceil b)) sig)) (be_val (skipn (Nat.min (hsize h) (byteceil b)) sig))) as A.
    fold u in A. fold a in A. fold b in A. fold w in A. cbv zeta. tauto.
  - split; [discriminate|]. intros [E _]. contradiction.
Qed.
Lemma verify_total data r s : (Nat.modulo b 8 = 0 \/ byteceil b <= hsize h)%nat -> exists v, kc_verify h u data r s = Ok v.
Proof. intros Hb. pose proof (verify_eq Hh K Hb data r s) as E. fold u in E. rewrite E. destruct (_ || _); eauto. Qed.
End sig.
