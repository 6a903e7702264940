(** Proofs for the elliptic-curve signature schemes. *)
From Verif Require Import Base BigModel NumLib ModRw ElgProofs CurveModel CurveSpec EcSigModel EcSigSpec.
Set Implicit Arguments. Unset Strict Implicit.
Local Open Scope Z_scope.

Lemma beq_true a b : beq a b = true <-> a = b.
Proof. unfold beq. destruct (list_eq_dec Z.eq_dec a b); split; congruence. Qed.

Lemma sign_loop_inv (S A : Type) (P : S -> Prop) (Q : A -> Prop) step :
  (forall st a, P st -> step st = Ok (inl a) -> Q a) -> (forall st st', P st -> step st = Ok (inr st') -> P st') ->
  forall fuel st a, P st -> @sign_loop S A fuel step st = Ok a -> Q a.
Proof.
  intros HQ HP. induction fuel as [|f IH]; cbn; intros st a Hst H; [discriminate|].
  destruct (step st) as [[x|st']| |] eqn:E; try discriminate.
  - injection H as <-. eauto.
  - exact (IH _ _ (HP _ _ Hst E) H).
Qed.
Lemma sign_loop_no_panic (S A : Type) (P : S -> Prop) step :
  (forall st, P st -> step st <> Panic) -> (forall st st', P st -> step st = Ok (inr st') -> P st') ->
  forall fuel st, P st -> @sign_loop S A fuel step st <> Panic.
Proof.
  intros HQ HP. induction fuel as [|f IH]; cbn; intros st Hst; [discriminate|].
  specialize (HQ _ Hst). destruct (step st) as [[x|st']| |] eqn:E; try discriminate; [exact (IH _ (HP _ _ Hst E))|congruence].
Qed.

Lemma shiftr_be b t e : bytes_ok (b :: t) -> bytes_ok (Z.shiftr b (Z.of_nat e) :: t).
Proof.
  intros H. inversion H; subst. constructor; auto. unfold is_byte in *. rewrite Z.shiftr_div_pow2 by lia.
  assert (0 < 2 ^ Z.of_nat e) by (apply Z.pow_pos_nonneg; lia).
  split; [apply Z.div_pos; lia|]. apply Z.div_lt_upper_bound; nia.
Qed.

Lemma rand_field_ok n rd k rd' : bytes_ok rd -> rand_field n rd = Ok (k, rd') -> 0 < k < n /\ bytes_ok rd'.
Proof.
  intros Hrd H. unfold rand_field in H. revert Hrd H. apply until_inv with (Q := fun k => 0 < k < n).
  intros r o r' Hr Hs. destruct (read_full _ r) as [[b br]| |] eqn:E; try discriminate. cbn [rbind fst snd] in Hs.
  apply read_full_ok in E as (_ & Hb & Hbr & _); auto.
  match type of Hs with context [be_val ?l] => assert (Hl : bytes_ok l) by (destruct b; auto; now apply shiftr_be); pose proof (be_val_bound Hl) as Hv; set (v := be_val l) in * end.
  injection Hs as <- <-. split; [auto|]. destruct (Z.eqb_spec v 0); cbn [negb andb]; auto. destruct (Z.ltb_spec v n); auto. lia.
Qed.

(** ** Arithmetic modulo N by rewriting *)

Lemma inv_cancel N i r x : i * r =[N]= 1 -> i * r * x =[N]= x.
Proof. intros H. zq_of H. to_zq. rewrite H. now rewrite Z.mul_1_l. Qed.

(** ECGDSA: dinv*(i*s) + i*e against k *)
Lemma ecg_solve N D dinv i r e s : i * r =[N]= 1 -> dinv * D =[N]= 1 ->
  s =[N]= D * (((dinv * (i * s) + i * e) mod N) * r - e).
Proof.
  intros H1 H2. zq_of H1. zq_of H2. to_zq. rewrite zq_mod.
  replace (D * ((dinv * (i * s) + i * e) * r - e)) with ((dinv * D) * ((i * r) * s) + D * (i * r) * e - D * e) by ring.
  rewrite H1, H2. replace (1 * (1 * s) + D * 1 * e - D * e) with s by ring. reflexivity.
Qed.
Lemma ecg_solve2 N D dinv i r e s k : i * r =[N]= 1 -> dinv * D =[N]= 1 -> s =[N]= D * (k * r - e) ->
  dinv * (i * s) + i * e =[N]= k.
Proof.
  intros H1 H2 H3. zq_of H1. zq_of H2. zq_of H3. to_zq. rewrite H3.
  replace (dinv * (i * (D * (k * r - e))) + i * e) with ((dinv * D) * (i * r) * k - (dinv * D) * i * e + i * e) by ring.
  rewrite H1, H2. replace (1 * 1 * k - 1 * i * e + i * e) with k by ring. reflexivity.
Qed.
Lemma mod_eq_small N a b : 0 <= a < N -> a =[N]= b -> a = b mod N.
Proof. intros H E. rewrite <- E. symmetry. now apply Z.mod_small. Qed.

(** Digests *)
Lemma be_val_app a b : be_val (a ++ b) = (be_val a * 256 ^ Z.of_nat (length b) + be_val b)%Z.
Proof.
  unfold be_val. rewrite rev_app_distr. rewrite <- (rev_length b). generalize (rev b) as u, (rev a) as v.
  intros u v. induction u as [|x u IH]; cbn [app le_val length].
  - change (256 ^ Z.of_nat 0)%Z with 1%Z. lia.
  - rewrite IH, Nat2Z.inj_succ, Z.pow_succ_r by lia. lia.
Qed.
Lemma be_val_firstn w (l : bytes) : bytes_ok l -> (w <= length l)%nat ->
  be_val (firstn w l) = Z.shiftr (be_val l) (Z.of_nat ((length l - w) * 8)).
Proof.
  intros Hl Hw. rewrite Z.shiftr_div_pow2 by lia.
  replace (2 ^ Z.of_nat ((length l - w) * 8)) with (256 ^ Z.of_nat (length l - w)).
  2:{ replace (Z.of_nat ((length l - w) * 8)) with (8 * Z.of_nat (length l - w)) by lia. rewrite Z.pow_mul_r by lia. reflexivity. }
  rewrite <- (firstn_skipn w l) at 2. rewrite be_val_app, skipn_length.
  pose proof (be_val_bound (bytes_ok_skipn w Hl)) as Hb. rewrite skipn_length in Hb.
  rewrite Z.div_add_l by (apply Z.pow_nonzero; lia). rewrite Z.div_small by lia. lia.
Qed.
Lemma be_val_skipn w (l : bytes) : bytes_ok l -> (w <= length l)%nat ->
  be_val (skipn (length l - w) l) = be_val l mod 256 ^ Z.of_nat w.
Proof.
  intros Hl Hw. rewrite <- (firstn_skipn (length l - w) l) at 3. rewrite be_val_app, skipn_length.
  replace (length l - (length l - w))%nat with w by lia.
  pose proof (be_val_bound (bytes_ok_skipn (length l - w) Hl)) as Hb. rewrite skipn_length in Hb.
  replace (length l - (length l - w))%nat with w in Hb by lia.
  rewrite Z.add_comm, Z.mod_add by (apply Z.pow_nonzero; lia). symmetry. apply Z.mod_small. exact Hb.
Qed.

Section Sig.
Variable (c : curve) (pt : Z -> Z * Z) (L : lawful_curve c pt) (Sz : sized c).
Variable (h : hasher) (Hh : hasher_ok h).
Notation N := (cN c).

Lemma N_pos : 2 < N. Proof. exact (lc_big L). Qed.
Lemma pt_cong a b : a =[N]= b -> pt a = pt b.
Proof. intros H. rewrite <- (lc_mod L a), <- (lc_mod L b). now rewrite H. Qed.
Lemma base_pt v : 0 <= v < N -> cbase c (big_bytes v) = pt v.
Proof. intros H. rewrite (lc_base L); rewrite ?be_val_big_bytes; auto; try lia. apply big_bytes_ok. Qed.
Lemma mul_pt d v : 0 <= v < N -> cmul c (pt d) (big_bytes v) = pt (d * v).
Proof. intros H. rewrite (lc_mul L); rewrite ?be_val_big_bytes; auto; try lia. apply big_bytes_ok. Qed.
Lemma lin_pt d v u : 0 <= v < N -> 0 <= u < N -> cadd c (cmul c (pt d) (big_bytes v)) (cbase c (big_bytes u)) = pt (d * v + u).
Proof. intros Hv Hu. rewrite mul_pt, base_pt by auto. apply (lc_add L). Qed.
Lemma modN a : 0 <= a mod N < N. Proof. apply Z.mod_pos_bound. pose proof N_pos. lia. Qed.
Lemma unit_nonzero e d : (e * d) mod N = 1 -> e mod N <> 0.
Proof. intros H E. rewrite Zmult_mod, E, Z.mul_0_l, Z.mod_0_l in H by (pose proof N_pos; lia). discriminate. Qed.
Lemma one_mod : 1 = 1 mod N. Proof. pose proof N_pos. now rewrite Z.mod_small by lia. Qed.

Lemma straight_on key : straight_key c pt key -> on_curve c (ePub key) = true.
Proof. intros [H E]. rewrite E. apply (lc_on L). rewrite Z.mod_small; lia. Qed.
Lemma inverted_on key : inverted_key c pt key -> on_curve c (ePub key) = true.
Proof. intros (H & e & He & E). rewrite E. apply (lc_on L). eapply unit_nonzero; eauto. Qed.

(** *** ECGDSA *)
Lemma ecg_digest_eq msg : ecg_digest c h msg = be_val (firstn (byteceil (bitlen N)) (hsum h msg)) mod N.
Proof.
  unfold ecg_digest. destruct (Hh msg) as [Hl Hb]. destruct (Nat.ltb_spec (byteceil (bitlen N)) (hsize h)).
  - rewrite <- Hl, <- be_val_firstn; auto. lia.
  - rewrite firstn_all2 by lia. reflexivity.
Qed.
Lemma ecg_verify_eq key msg r s : inverted_key c pt key ->
  ecg_verify c h (ePub key) msg r s = Ok true <->
  0 < r /\ 0 < s /\ ecgdsa_pair N pt (eD key) (be_val (firstn (byteceil (bitlen N)) (hsum h msg))) r s.
Proof.
  intros K. unfold ecg_verify. rewrite (inverted_on K), ecg_digest_eq. cbn [negb]. set (e := be_val _).
  destruct K as (HD & dinv & Hd & ->). rewrite one_mod in Hd.
  destruct (Z.leb_spec r 0); [split; [discriminate|lia]|]. destruct (Z.leb_spec s 0); [split; [discriminate|lia]|]. cbn [orb].
  pose proof N_pos as HN. destruct (mod_inverse r N) as [i|] eqn:Ei.
  - apply mod_inverse_some in Ei as [Hi Hi2]; [|lia]. rewrite lin_pt by apply modN.
    assert (Hpt : forall k, dinv * (i * s) + i * e =[N]= k -> pt (dinv * ((i * s) mod N) + (i * (e mod N)) mod N) = pt k).
    { intros k Hk. apply pt_cong. rewrite <- Hk. to_zq. rewrite !zq_mod. reflexivity. }
    split.
    + intros [= E]. apply Z.eqb_eq in E. split; [lia|]. split; [lia|]. exists ((dinv * (i * s) + i * e) mod N). split; [apply modN|].
      rewrite <- (Hpt ((dinv * (i * s) + i * e) mod N)) by (now rewrite Z.mod_mod by lia). split; [exact E|].
      apply ecg_solve; auto.
    + intros (_ & _ & k & Hk & E & Es). f_equal. apply Z.eqb_eq. rewrite (Hpt k); [exact E|]. eapply ecg_solve2; eauto.
  - split; [discriminate|]. intros (_ & _ & k & Hk & E & Es). exfalso.
    destruct (@mod_inverse_ok r N) as [i Hi]; [lia| |congruence].
    apply (prime_gcd (lc_prime L)). split; [lia|]. rewrite E. apply modN.
Qed.
Lemma ecg_verify_panics pub msg r s : on_curve c pub = true -> 0 < s -> 0 < r -> (ecg_verify c h pub msg r s = Panic <-> r mod N = 0).
Proof.
  intros Hp Hs Hr. unfold ecg_verify. rewrite Hp. cbn [negb]. pose proof N_pos as HN.
  destruct (Z.leb_spec r 0); [lia|]. destruct (Z.leb_spec s 0); [lia|]. cbn [orb].
  destruct (Z.eq_dec (r mod N) 0) as [E|E].
  - rewrite mod_inverse_none; [tauto|]. intros G. rewrite Z.gcd_comm, <- Z.gcd_mod, E in G by lia. rewrite Z.gcd_0_l in G. lia.
  - destruct (@mod_inverse_ok r N) as [i Hi]; [lia|now apply prime_gcd_mod; [apply (lc_prime L)|]|]. rewrite Hi. split; [discriminate|contradiction].
Qed.
Lemma ecg_sign_pair rd key msg r s : bytes_ok rd -> ecg_sign c h rd key msg = Ok (r, s) ->
  0 < r < N /\ 0 < s < N /\ ecgdsa_pair N pt (eD key) (be_val (firstn (byteceil (bitlen N)) (hsum h msg))) r s.
Proof.
  intros Hrd. unfold ecg_sign. rewrite ecg_digest_eq. set (e := be_val _). destruct (on_curve c (ePub key)); [|discriminate]. cbn [negb].
  pose proof N_pos as HN.
  apply (sign_loop_inv (P := @bytes_ok) (Q := fun rs => 0 < fst rs < N /\ 0 < snd rs < N /\ ecgdsa_pair N pt (eD key) e (fst rs) (snd rs))); auto.
  all: unfold ecg_round; intros st a Hst H; destruct (rand_field N st) as [[k rd']| |] eqn:Ek; try discriminate; cbn [rbind fst snd] in H;
    apply rand_field_ok in Ek as [Hk Hrd']; auto.
  all: destruct (Z.eqb_spec (fst (cbase c (big_bytes k)) mod N) 0) as [E|E]; try discriminate; try congruence.
  - rewrite base_pt in * by lia. set (r' := fst (pt k) mod N) in *.
    destruct (Z.eqb_spec ((eD key * (((k * r') mod N + (- (e mod N)) mod N) mod N)) mod N) 0) as [E2|E2]; try discriminate.
    injection H as <-. cbn [fst snd]. pose proof (modN (fst (pt k))) as B1. fold r' in B1.
    match goal with |- context [_ < ?x mod N < _] => pose proof (modN x) as B2 end.
    split; [lia|]. split; [lia|]. exists k. split; [lia|]. split; [reflexivity|].
    to_zq. rewrite !zq_mod. replace (k * r' + - e) with (k * r' - e) by lia. reflexivity.
  - destruct (_ =? 0); congruence.
Qed.
End Sig.
