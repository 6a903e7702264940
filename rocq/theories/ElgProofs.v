From Coq Require Import Znumtheory.
From Verif Require Import Base BigModel NumLib ToolBytesProofs ElgModel ElgSpec.
Set Implicit Arguments. Unset Strict Implicit.
Local Open Scope Z_scope.

Lemma byteceil_bitlen n v : 256 ^ Z.of_nat n <= v < 256 ^ Z.of_nat (S n) -> byteceil (bitlen v) = S n.
Proof.
  intros [H1 H2]. assert (Hv : 0 < v) by (eapply Z.lt_le_trans; [|exact H1]; apply Z.pow_pos_nonneg; lia).
  change 256 with (2 ^ 8) in H1, H2. rewrite <- Z.pow_mul_r in H1, H2 by lia.
  apply Z.log2_le_pow2 in H1; [|lia]. apply Z.log2_lt_pow2 in H2; [|lia].
  unfold bitlen, byteceil. destruct (Z.eqb_spec v 0); [lia|]. rewrite Z.abs_eq by lia.
  symmetry. apply Nat.div_unique with (r := (S (Z.to_nat (Z.log2 v)) + 7 - 8 * S n)%nat); lia.
Qed.

Lemma big_bytes_be_val b t : bytes_ok (b :: t) -> b <> 0 -> big_bytes (be_val (b :: t)) = b :: t.
Proof.
  intros H Hb. unfold big_bytes. pose proof (be_val_bound H) as Hv.
  rewrite Z.abs_eq by lia. rewrite (@byteceil_bitlen (length t)).
  - apply be_bytes_val; auto.
  - split; [|exact (proj2 Hv)]. rewrite be_val_cons. inversion_clear H as [|? ? Hx Ht].
    pose proof (be_val_bound Ht). unfold is_byte in Hx. pose proof (Z.pow_pos_nonneg 256 (Z.of_nat (length t)) ltac:(lia) ltac:(lia)). nia.
Qed.
Lemma big_bytes_ok x : bytes_ok (big_bytes x).
Proof. apply be_bytes_ok. Qed.

Lemma short_below P l : 0 < P -> bytes_ok l -> (length l <= byteceil (bitlen P) - 1)%nat -> 0 <= be_val l < P.
Proof.
  intros HP Hl Hlen. pose proof (be_val_bound Hl) as Hv. split; [lia|]. eapply Z.lt_le_trans; [exact (proj2 Hv)|].
  eapply Z.le_trans; [|apply bitlen_low; exact HP].
  change 256 with (2 ^ 8). rewrite <- Z.pow_mul_r by lia. apply Z.pow_le_mono_r; [lia|].
  pose proof (bitlen_pos HP). unfold byteceil in Hlen.
  pose proof (Nat.div_mod (bitlen P + 7) 8 ltac:(lia)). pose proof (Nat.mod_upper_bound (bitlen P + 7) 8 ltac:(lia)). lia.
Qed.

Definition nz (x : Z) : Prop := x <> 0.

Lemma read_full_ok n rd b rd' : bytes_ok rd -> read_full n rd = Ok (b, rd') -> length b = n /\ bytes_ok b /\ bytes_ok rd' /\ rd = b ++ rd'.
Proof.
  unfold read_full. intros H. destruct (Nat.leb_spec n (length rd)); [|discriminate]. intros [= <- <-].
  repeat split; [apply firstn_length_le; auto|now apply bytes_ok_firstn|now apply bytes_ok_skipn|symmetry; apply firstn_skipn].
Qed.

(** [retry] with the reader's bytes tracked *)
Lemma retry_inv (A : Type) (Q : A -> Prop) fuel step : forall rd a rd',
  (forall rd o rd', bytes_ok rd -> step rd = Ok (o, rd') -> bytes_ok rd' /\ match o with Some b => Q b | None => True end) ->
  bytes_ok rd -> retry fuel step rd = Ok (a, rd') -> Q a /\ bytes_ok rd'.
Proof.
  intros rd a rd' H. revert rd. induction fuel as [|f IH]; intros rd Hrd; [discriminate|].
  cbn. destruct (step rd) as [[[b|] r]| |] eqn:E; try discriminate.
  - intros [= <- <-]. destruct (H _ _ _ Hrd E). auto.
  - apply IH. apply (H _ _ _ Hrd E).
Qed.
Lemma until_inv (A : Type) (Q : A -> Prop) step rd a rd' :
  (forall rd o rd', bytes_ok rd -> step rd = Ok (o, rd') -> bytes_ok rd' /\ match o with Some b => Q b | None => True end) ->
  bytes_ok rd -> until step rd = Ok (a, rd') -> Q a /\ bytes_ok rd'.
Proof. intros H. apply retry_inv. exact H. Qed.

Lemma rand_int_ok max rd k rd' : bytes_ok rd -> rand_int max rd = Ok (k, rd') -> 0 <= k < max /\ bytes_ok rd'.
Proof.
  intros Hrd H. split; [eapply rand_int_range; eauto|]. revert H. unfold rand_int.
  destruct (max <=? 0); [discriminate|]. destruct (bitlen (max - 1) =? 0)%nat; [intros [= <- <-]; auto|].
  intros H. apply (until_inv (Q := fun _ => True)) in H; [tauto| |auto].
  intros r o r' Hr E. destruct (read_full _ r) as [[b r1]| |] eqn:Er; try discriminate.
  cbn in E. injection E as <- <-. apply read_full_ok in Er; auto. split; [tauto|]. destruct (_ <? _); auto.
Qed.

Lemma nonzero_byte_ok rd x rd' : bytes_ok rd -> nonzero_byte rd = Ok (x, rd') -> (is_byte x /\ nz x) /\ bytes_ok rd'.
Proof.
  intros Hrd H. apply (until_inv (Q := fun x => is_byte x /\ nz x)) in H; auto.
  intros r o r' Hr E. destruct (read_full 1 r) as [[b r1]| |] eqn:Er; try discriminate.
  cbn in E. apply read_full_ok in Er as (H1 & H2 & H3 & _); auto. destruct b as [|y [|]]; try discriminate. cbn in E.
  injection E as <- <-. split; auto. destruct (Z.eqb_spec y 0); auto. inversion_clear H2. split; auto.
Qed.
Lemma nonzero_fix_ok s : forall rd l rd', bytes_ok s -> bytes_ok rd -> nonzero_fix s rd = Ok (l, rd') ->
  length l = length s /\ bytes_ok l /\ Forall nz l /\ bytes_ok rd'.
Proof.
  induction s as [|x s IH]; intros rd l rd' Hs Hrd; cbn [nonzero_fix].
  - intros [= <- <-]. repeat split; auto; constructor.
  - inversion_clear Hs as [|? ? Hx Hs']. intros H.
    assert (Hy : exists y r1, (if x =? 0 then nonzero_byte rd else Ok (x, rd)) = Ok (y, r1) /\ is_byte y /\ nz y /\ bytes_ok r1).
    { destruct (Z.eqb_spec x 0) as [->|Hn].
      - destruct (nonzero_byte rd) as [[y r1]| |] eqn:E; try discriminate. exists y, r1. apply nonzero_byte_ok in E; tauto.
      - exists x, rd. auto. }
    destruct Hy as (y & r1 & E & Hy1 & Hy2 & Hr1). rewrite E in H. cbn in H.
    destruct (nonzero_fix s r1) as [[t r2]| |] eqn:E2; try discriminate. cbn in H. injection H as <- <-.
    destruct (IH _ _ _ Hs' Hr1 E2) as (L & B & N & R). cbn. repeat split; auto; constructor; auto.
Qed.
Lemma nonzero_bytes_ok n rd l rd' : bytes_ok rd -> nonzero_bytes n rd = Ok (l, rd') ->
  length l = n /\ bytes_ok l /\ Forall nz l /\ bytes_ok rd'.
Proof.
  unfold nonzero_bytes. intros Hrd H. destruct (read_full n rd) as [[b r]| |] eqn:E; try discriminate. cbn in H.
  apply read_full_ok in E as (H1 & H2 & H3 & _); auto. rewrite <- H1. eapply nonzero_fix_ok; eauto.
Qed.

Lemma scan_found i idx t : elg_scan i false idx t = (false, idx).
Proof. revert i. induction t as [|b t IH]; intros i; cbn; auto. destruct (b =? 0); apply IH. Qed.
Lemma scan_first ps : forall i idx msg, Forall nz ps -> elg_scan i true idx (ps ++ 0 :: msg) = (false, (i + length ps)%nat).
Proof.
  induction ps as [|b ps IH]; intros i idx msg H; cbn [app elg_scan length].
  - cbn. rewrite scan_found. f_equal. lia.
  - inversion_clear H as [|? ? Hb Hp]. destruct (Z.eqb_spec b 0); [contradiction|]. cbn [andb]. rewrite IH by auto. f_equal. lia.
Qed.

(** Decrypting recovers m modulo P. *)
Lemma legacy_core k r m : enc_key k -> 0 <= r -> 0 <= m < kP (kpub k) ->
  elg_decrypt_legacy k (powm (kG (kpub k)) r (kP (kpub k))) ((powm (kY (kpub k)) r (kP (kpub k)) * m) mod kP (kpub k)) = Ok (big_bytes m).
Proof.
  intros (HP & Hg & Hx & HY) Hr Hm. unfold elg_decrypt_legacy. set (P := kP (kpub k)) in *. set (G := kG (kpub k)) in *. set (X := kX k) in *.
  rewrite !powm_spec by lia. rewrite HY.
  set (s := (G ^ r mod P) ^ X mod P).
  assert (Hs : s = G ^ (r * X) mod P).
  { unfold s. rewrite (cong_pow (b := G ^ r)) by apply cong_mod. now rewrite Z.pow_mul_r. }
  assert (Hgs : Z.gcd s P = 1).
  { rewrite Hs, Z.gcd_mod, Z.gcd_comm by lia. apply gcd_pow; [apply Z.mul_nonneg_nonneg; auto|auto]. }
  destruct (@mod_inverse_ok s P ltac:(lia) Hgs) as [i Hi]. rewrite Hi.
  apply mod_inverse_some in Hi as [_ Hi]; [|lia]. do 2 f_equal.
  rewrite Zmult_mod_idemp_r.
  assert (Hy : (G ^ X mod P) ^ r mod P = s).
  { rewrite (cong_pow (b := G ^ X)) by apply cong_mod. rewrite <- Z.pow_mul_r, Z.mul_comm by auto. now rewrite Hs. }
  rewrite Hy, Z.mul_assoc, <- Zmult_mod_idemp_l, Hi, Zmult_mod_idemp_l, Z.mul_1_l. now apply Z.mod_small.
Qed.

Lemma encrypt_inv rd u msg c1 c2 rd' : 1 < kP u -> bytes_ok rd -> bytes_ok msg -> elg_encrypt rd u msg = Ok ((c1, c2), rd') ->
  Z.of_nat (length msg) <= Z.of_nat (byteceil (bitlen (kP u))) - 11 /\
  exists ps k, bytes_ok ps /\ Forall nz ps /\ (8 <= length ps)%nat /\ (2 + length ps + length msg = byteceil (bitlen (kP u)) - 1)%nat /\ 0 <= k < kP u /\
    c1 = powm (kG u) k (kP u) /\ c2 = (powm (kY u) k (kP u) * be_val (2 :: ps ++ 0 :: msg)) mod kP u.
Proof.
  intros HP Hrd Hm. unfold elg_encrypt. set (pl := byteceil _). destruct (Z.gtb_spec (Z.of_nat (length msg)) (Z.of_nat pl - 11)) as [|Hl]; [discriminate|].
  intros H. split; [lia|]. destruct (nonzero_bytes _ rd) as [[ps r1]| |] eqn:E; try discriminate. cbn [rbind fst snd] in H.
  apply nonzero_bytes_ok in E as (L & B & N & R); auto. unfold elg_encrypt_legacy in H.
  destruct (rand_int (kP u) r1) as [[k r2]| |] eqn:Ek; try discriminate. cbn [rbind fst snd] in H.
  apply rand_int_ok in Ek as [Hk _]; auto. exists ps, k.
  assert (H' : (powm (kG u) k (kP u), (powm (kY u) k (kP u) * be_val (2 :: ps ++ 0 :: msg)) mod kP u) = (c1, c2)) by congruence.
  injection H' as <- <-. repeat split; auto; lia.
Qed.

Lemma decrypt_core k r ps msg : enc_key k -> 0 <= r -> bytes_ok ps -> Forall nz ps -> (8 <= length ps)%nat -> bytes_ok msg ->
  (2 + length ps + length msg = byteceil (bitlen (kP (kpub k))) - 1)%nat ->
  elg_decrypt k (powm (kG (kpub k)) r (kP (kpub k))) ((powm (kY (kpub k)) r (kP (kpub k)) * be_val (2 :: ps ++ 0 :: msg)) mod kP (kpub k)) = Ok msg.
Proof.
  intros Hk Hr B N L Hm Hl. unfold elg_decrypt.
  assert (Hem : bytes_ok (2 :: ps ++ 0 :: msg)).
  { constructor; [split; lia|]. apply Forall_app. split; [exact B|]. constructor; [split; lia|exact Hm]. }
  rewrite legacy_core; auto.
  - rewrite big_bytes_be_val by (auto; lia). cbn [rbind]. rewrite scan_first by auto.
    change (2 =? 2) with true. cbn [negb orb]. destruct (Nat.ltb_spec (1 + length ps) 9); [lia|].
    f_equal. replace (1 + length ps + 1)%nat with (S (length ps + 1)) by lia. cbn [skipn].
    replace (ps ++ 0 :: msg) with ((ps ++ [0]) ++ msg) by (rewrite <- app_assoc; reflexivity).
    apply skipn_app_exact. rewrite app_length. cbn. lia.
  - apply short_below; auto; [destruct Hk; lia|]. cbn [length]. rewrite app_length. cbn [length]. lia.
Qed.

Lemma powm_bound b e m : 0 < m -> 0 <= powm b e m < m.
Proof.
  intros H. destruct e as [|e|e]; cbn [powm]; try (apply Z.mod_pos_bound; lia).
  destruct e; cbn [powm_pos]; apply Z.mod_pos_bound; lia.
Qed.

(** two halves *)
Lemma halves n (a b : bytes) : length a = n -> length b = n -> length (a ++ b) = (2 * n)%nat /\ firstn n (a ++ b) = a /\ slice n n (a ++ b) = b.
Proof.
  intros Ha Hb. rewrite app_length. split; [lia|]. split; [now apply firstn_app_exact|].
  unfold slice. rewrite skipn_app_exact by auto. apply firstn_all2; lia.
Qed.
Lemma bits_bytes x P : 0 <= x < P -> 0 <= x < 256 ^ Z.of_nat (bitlen P).
Proof.
  intros H. split; [lia|]. destruct (bitlen_bound P) as [[_ Hb]|]; [|lia].
  eapply Z.lt_le_trans; [|apply (Z.pow_le_mono_l 2); lia]. lia.
Qed.
Lemma pair_bytes n x y : 0 <= x < 256 ^ Z.of_nat n -> 0 <= y < 256 ^ Z.of_nat n ->
  rbind (fill_bytes n x) (fun b1 => rbind (fill_bytes n y) (fun b2 => Ok (b1 ++ b2))) = Ok (be_bytes n x ++ be_bytes n y) /\
  length (be_bytes n x ++ be_bytes n y) = (2 * n)%nat /\
  be_val (firstn n (be_bytes n x ++ be_bytes n y)) = x /\ be_val (slice n n (be_bytes n x ++ be_bytes n y)) = y.
Proof.
  intros Hx Hy. rewrite !fill_bytes_fits by auto. split; [reflexivity|].
  destruct (@halves n (be_bytes n x) (be_bytes n y)) as (H1 & H2 & H3); try apply be_bytes_length.
  rewrite H2, H3, !be_val_bytes, !Z.mod_small by auto. auto.
Qed.

(** ** Signatures *)
(** ElGamal's equation, for an exponent k prime to P-1 and any representative of the inverse. *)
Lemma sign_core G P X k ki m r : 1 < P -> G ^ (P - 1) mod P = 1 -> 0 <= X -> 0 <= k -> 0 <= m -> ki * k =[P - 1]= 1 -> 2 < P -> r = G ^ k mod P ->
  let s := ((m - r * X) * ki) mod (P - 1) in
  G ^ m mod P = ((G ^ X mod P) ^ r * r ^ s) mod P.
Proof.
  intros HP Ho HX Hk Hm Hi HP2 Hr s.
  assert (Hr0 : 0 <= r) by (subst r; apply Z.mod_pos_bound; lia).
  assert (Hs0 : 0 <= s < P - 1) by (apply Z.mod_pos_bound; lia).
  transitivity (((G ^ X) ^ r * (G ^ k) ^ s) mod P); [|symmetry; apply cong_mul; apply cong_pow; [apply cong_mod|rewrite Hr; apply cong_mod]].
  assert (Ha : 0 <= X * r) by (apply Z.mul_nonneg_nonneg; auto).
  assert (Hb : 0 <= k * s) by (apply Z.mul_nonneg_nonneg; [auto|apply Hs0]).
  rewrite <- !Z.pow_mul_r, <- Z.pow_add_r by first [assumption | apply Hs0].
  apply pow_order with (P - 1); auto; [lia|lia|].
  unfold s. symmetry.
  rewrite Zplus_mod, Zmult_mod_idemp_r, <- Zplus_mod.
  replace (X * r + k * ((m - r * X) * ki)) with (X * r + (m - r * X) * (ki * k)) by ring.
  transitivity ((X * r + (m - r * X) * 1) mod (P - 1)); [|f_equal; ring].
  apply cong_add; [reflexivity|]. apply cong_mul; [reflexivity|exact Hi].
Qed.

Lemma elg_sign_k_ok p rd k rd' : bytes_ok rd -> elg_sign_k p rd = Ok (k, rd') -> 0 <= k < p - 2 /\ k <> 1 /\ Z.gcd k (p - 1) = 1.
Proof.
  intros Hrd H. unfold elg_sign_k, egd_sign_k in H. apply (until_inv (Q := fun k => 0 <= k < p - 2 /\ k <> 1 /\ Z.gcd k (p - 1) = 1)) in H; [tauto| |auto].
  intros r o r' Hr E. destruct (rand_int (p - 2) r) as [[j r1]| |] eqn:Er; try discriminate. cbn [rbind fst snd] in E.
  apply rand_int_ok in Er as [H1 H2]; auto. injection E as <- <-. split; auto.
  destruct (Z.eqb_spec j 1); auto. destruct (Z.eqb_spec (Z.gcd j (p - 1)) 1); auto.
Qed.
Lemma egd_sign_k_ok p rd k rd' : bytes_ok rd -> egd_sign_k p rd = Ok (k, rd') -> -1 <= k < p - 1 /\ Z.gcd k (p - 1) = 1.
Proof.
  intros Hrd H. unfold elg_sign_k, egd_sign_k in H. apply (until_inv (Q := fun k => -1 <= k < p - 1 /\ Z.gcd k (p - 1) = 1)) in H; [tauto| |auto].
  intros r o r' Hr E. destruct (rand_int p r) as [[j r1]| |] eqn:Er; try discriminate. cbn [rbind fst snd] in E.
  apply rand_int_ok in Er as [H1 H2]; auto. injection E as <- <-. split; auto.
  destruct (Z.eqb_spec (Z.gcd (j - 3 + 2) (p - 1)) 1); auto. split; auto. lia.
Qed.

Lemma verify_iff u hash r s : 1 < kP u -> bytes_ok hash -> elg_verify u hash r s = Ok true <->
  0 <= r <= kP u /\ 0 <= s <= kP u - 1 /\ sig_equation u (be_val hash) r s.
Proof.
  intros HP Hh. pose proof (be_val_bound Hh). unfold elg_verify, sig_equation.
  destruct (Z.ltb_spec r 0); [split; [discriminate|lia]|]. destruct (Z.gtb_spec r (kP u)); [split; [discriminate|lia]|].
  destruct (Z.ltb_spec s 0); [split; [discriminate|lia]|]. destruct (Z.gtb_spec s (kP u - 1)); [split; [discriminate|lia]|].
  rewrite !powm_spec by lia. rewrite <- Zmult_mod. destruct (Z.eqb_spec (kG u ^ be_val hash mod kP u) ((kY u ^ r * r ^ s) mod kP u)); split; try discriminate; try tauto; auto; lia.
Qed.
Lemma egd_verify_iff u hash r s : 3 < kP u -> bytes_ok hash -> egd_verify u hash r s = Ok true <->
  0 <= r <= kP u /\ 0 <= s <= kP u - 1 /\ sig_equation u (be_val hash mod (kP u - 3) + 2) r s.
Proof.
  intros HP Hh. pose proof (Z.mod_pos_bound (be_val hash) (kP u - 3) ltac:(lia)). unfold egd_verify, egd_m, sig_equation.
  destruct (Z.ltb_spec r 0); [split; [discriminate|lia]|]. destruct (Z.gtb_spec r (kP u)); [split; [discriminate|lia]|].
  destruct (Z.ltb_spec s 0); [split; [discriminate|lia]|]. destruct (Z.gtb_spec s (kP u - 1)); [split; [discriminate|lia]|].
  destruct (Z.eqb_spec (kP u - 3) 0); [lia|]. cbn [rbind].
  rewrite !powm_spec by lia. rewrite <- Zmult_mod. destruct (Z.eqb_spec (kG u ^ (be_val hash mod (kP u - 3) + 2) mod kP u) ((kY u ^ r * r ^ s) mod kP u)); split; try discriminate; try tauto; auto; lia.
Qed.

(** Powers by -1 *)
Lemma neg1_pow G P i : 1 < P -> G ^ (P - 1) mod P = 1 -> mod_inverse G P = Some i -> i = G ^ (P - 2) mod P.
Proof.
  intros HP Ho Hi. apply mod_inverse_some in Hi as [Hi1 Hi2]; [|lia].
  assert (Hq : i =[P]= G ^ (P - 2)); [|rewrite Z.mod_small in Hq; auto].
  rewrite <- (Z.mul_1_r i) at 1. rewrite <- Ho, Zmult_mod_idemp_r.
  replace (P - 1) with (1 + (P - 2)) by lia. rewrite Z.pow_add_r, Z.pow_1_r by lia.
  rewrite Z.mul_assoc, <- Zmult_mod_idemp_l, Hi2, Zmult_mod_idemp_l, Z.mul_1_l. reflexivity.
Qed.
