(** Properties C29 (ElGamal and EGDSA signatures verify) and C30 (ElGamal decrypts). *)
From Coq Require Import Znumtheory.
From Verif Require Import Base BigModel NumLib ToolBytesProofs ElgModel ElgSpec ElgProofs.
Set Implicit Arguments. Unset Strict Implicit.
Local Open Scope Z_scope.

(** ** C30 *)
(** Whatever the random bytes, a message that was encrypted is decrypted unchanged, through the
    pair of integers and through the byte form; only a too long message is refused (for the
    reader's failure see [C30_refuses]). *)
Theorem C30_roundtrip : forall key rd msg c1 c2 rd', enc_key key -> bytes_ok rd -> bytes_ok msg ->
  elg_encrypt rd (kpub key) msg = Ok ((c1, c2), rd') -> elg_decrypt key c1 c2 = Ok msg.
Proof.
  intros key rd msg c1 c2 rd' Hk Hrd Hm H. apply encrypt_inv in H as (_ & ps & k & B & N & L & Hl & Hk0 & -> & ->); auto; [|destruct Hk; auto].
  apply decrypt_core; auto. lia.
Qed.
Print Assumptions C30_roundtrip.

Theorem C30_bytes : forall key rd msg ct, enc_key key -> bytes_ok rd -> bytes_ok msg ->
  elg_encrypt_bytes rd (kpub key) msg = Ok ct ->
  length ct = (2 * bitlen (kP (kpub key)))%nat /\ elg_decrypt_bytes key ct = Ok msg.
Proof.
  intros key rd msg ct Hk Hrd Hm H. unfold elg_encrypt_bytes in H.
  destruct (elg_encrypt rd (kpub key) msg) as [[[c1 c2] rd']| |] eqn:E; try discriminate. cbn [rbind fst snd] in H.
  pose proof (C30_roundtrip Hk Hrd Hm E) as Hd. assert (HP : 1 < kP (kpub key)) by (destruct Hk; auto).
  apply encrypt_inv in E as (_ & ps & k & B & N & L & Hl & Hk0 & H1 & H2); auto.
  assert (Hb1 : 0 <= c1 < kP (kpub key)) by (rewrite H1; apply powm_bound; lia).
  assert (Hb2 : 0 <= c2 < kP (kpub key)) by (rewrite H2; apply Z.mod_pos_bound; lia).
  destruct (pair_bytes (bits_bytes Hb1) (bits_bytes Hb2)) as (Q1 & Q2 & Q3 & Q4). rewrite Q1 in H.
  assert (Hct : ct = be_bytes (bitlen (kP (kpub key))) c1 ++ be_bytes (bitlen (kP (kpub key))) c2) by congruence. subst ct.
  split; [exact Q2|]. unfold elg_decrypt_bytes. rewrite Q2, Nat.eqb_refl, Q3, Q4. cbn [negb].
  destruct (Z.leb_spec (kP (kpub key)) c1); [lia|]. destruct (Z.leb_spec (kP (kpub key)) c2); [lia|]. exact Hd.
Qed.
Print Assumptions C30_bytes.

(** A message is refused exactly when fewer than 11 bytes of the modulus are left for padding;
    otherwise the only error is that of the reader, which needs at most finitely many bytes. *)
Theorem C30_refuses : forall rd pub msg,
  (byteceil (bitlen (kP pub)) < length msg + 11)%nat -> elg_encrypt rd pub msg = Err.
Proof.
  intros rd pub msg H. unfold elg_encrypt. destruct (Z.gtb_spec (Z.of_nat (length msg)) (Z.of_nat (byteceil (bitlen (kP pub))) - 11)); [auto|lia].
Qed.
Print Assumptions C30_refuses.

(** A decrypted message carries the padding of [Encrypt]: 02, at least eight bytes that are not 0, a 0. *)
Lemma scan_sound i idx t j : elg_scan i true idx t = (false, j) ->
  exists ps m, t = ps ++ 0 :: m /\ Forall nz ps /\ j = (i + length ps)%nat.
Proof.
  revert i idx. induction t as [|b t IH]; intros i idx; cbn [elg_scan]; [discriminate|].
  destruct (Z.eqb_spec b 0) as [->|Hb].
  - cbn. rewrite scan_found. intros [= <-]. exists [], t. cbn. repeat split; auto; lia.
  - cbn [andb]. intros H. apply IH in H as (ps & m & -> & Hn & ->). exists (b :: ps), m. cbn. repeat split; [constructor; auto|lia].
Qed.
Theorem C30_padding_checked : forall key c1 c2 msg, elg_decrypt key c1 c2 = Ok msg ->
  exists ps, elg_decrypt_legacy key c1 c2 = Ok (2 :: ps ++ 0 :: msg) /\ Forall (fun b => b <> 0) ps /\ (8 <= length ps)%nat.
Proof.
  intros key c1 c2 msg H. unfold elg_decrypt in H. destruct (elg_decrypt_legacy key c1 c2) as [em| |]; try discriminate. cbn [rbind] in H.
  destruct em as [|b0 t]; [discriminate|]. destruct (elg_scan 1 true 0 t) as [[|] j] eqn:E.
  { rewrite orb_true_r in H. discriminate. }
  apply scan_sound in E as (ps & m & -> & Hn & ->). destruct (Z.eqb_spec b0 2) as [->|]; [|discriminate]. cbn [negb orb] in H.
  destruct (Nat.ltb_spec (1 + length ps) 9) as [|Hl]; [discriminate|]. exists ps.
  assert (Hm : m = msg).
  { enough (E : skipn (1 + length ps + 1) (2 :: ps ++ 0 :: m) = m) by congruence.
    replace (1 + length ps + 1)%nat with (S (length ps + 1)) by lia. cbn [skipn].
    replace (ps ++ 0 :: m) with ((ps ++ [0]) ++ m) by (rewrite <- app_assoc; reflexivity).
    apply skipn_app_exact. rewrite app_length. cbn. lia. }
  subst m. repeat split; auto. lia.
Qed.
Print Assumptions C30_padding_checked.

(** The product of two ciphertexts is a ciphertext of the product: decrypting it gives the
    product of the two decrypted numbers modulo P.  The same holds for any number of factors. *)
Lemma legacy_mod key c1 c2 : enc_key key -> Z.gcd c1 (kP (kpub key)) = 1 ->
  exists v, elg_decrypt_legacy key c1 c2 = Ok (big_bytes v) /\ 0 <= v < kP (kpub key) /\ (v * c1 ^ kX key) =[kP (kpub key)]= c2.
Proof.
  intros (HP & Hg & Hx & HY) Hc. unfold elg_decrypt_legacy. set (P := kP (kpub key)) in *.
  rewrite powm_spec by lia.
  assert (Hgs : Z.gcd (c1 ^ kX key mod P) P = 1) by (rewrite Z.gcd_mod, Z.gcd_comm by lia; now apply gcd_pow).
  destruct (@mod_inverse_ok _ P ltac:(lia) Hgs) as [i Hi]. rewrite Hi. apply mod_inverse_some in Hi as [_ Hi]; [|lia].
  exists ((i * c2) mod P). split; [reflexivity|]. split; [apply Z.mod_pos_bound; lia|].
  rewrite Zmult_mod_idemp_l. replace (i * c2 * c1 ^ kX key) with (i * c1 ^ kX key * c2) by ring.
  rewrite Zmult_mod_idemp_r in Hi. rewrite <- Zmult_mod_idemp_l, Hi, Zmult_mod_idemp_l, Z.mul_1_l. reflexivity.
Qed.

(** [decrypts key c v]: the pair of numbers c is decrypted (without padding) to the number v. *)
Definition decrypts (key : elg_priv) (c : Z * Z) (v : Z) : Prop :=
  Z.gcd (fst c) (kP (kpub key)) = 1 /\ 0 <= v < kP (kpub key) /\
  exists b, elg_decrypt_legacy key (fst c) (snd c) = Ok b /\ be_val b = v.

Lemma decrypts_eq key c v : enc_key key -> Z.gcd (fst c) (kP (kpub key)) = 1 ->
  (decrypts key c v <-> 0 <= v < kP (kpub key) /\ (v * fst c ^ kX key) =[kP (kpub key)]= snd c).
Proof.
  intros Hk Hg. destruct (legacy_mod (snd c) Hk Hg) as (w & E & Hw & Hc). unfold decrypts. rewrite E.
  assert (HP : 1 < kP (kpub key)) by (destruct Hk; auto). split.
  - intros (_ & Hv & b & [= <-] & Hb). rewrite be_val_big_bytes in Hb by lia. subst w. auto.
  - intros (Hv & He). split; auto. split; auto. exists (big_bytes w). split; auto. rewrite be_val_big_bytes by lia.
    rewrite <- Hc in He. assert (HX : 0 <= kX key) by (destruct Hk as (_ & _ & ? & _); auto).
    apply cong_cancel in He; [|lia|now apply gcd_pow]. rewrite !Z.mod_small in He; auto.
Qed.

Lemma decrypts_mul key a b C1 C2 v w : enc_key key ->
  C1 = (fst a * fst b) mod kP (kpub key) -> C2 = (snd a * snd b) mod kP (kpub key) ->
  decrypts key a v -> decrypts key b w -> decrypts key (C1, C2) ((v * w) mod kP (kpub key)).
Proof.
  intros Hk -> -> Ha Hb. assert (HP : 1 < kP (kpub key)) by (destruct Hk; auto).
  pose proof (proj1 Ha) as Ga. pose proof (proj1 Hb) as Gb.
  apply decrypts_eq in Ha as [Hv Ha]; auto. apply decrypts_eq in Hb as [Hw Hb]; auto.
  assert (HX : 0 <= kX key) by (destruct Hk as (_ & _ & ? & _); auto).
  apply decrypts_eq; auto; cbn [fst snd].
  { rewrite Z.gcd_mod, Z.gcd_comm by lia. now apply gcd_mul. }
  split; [apply Z.mod_pos_bound; lia|]. rewrite Zmod_mod, Zmult_mod_idemp_l.
  transitivity ((v * w * (fst a * fst b) ^ kX key) mod kP (kpub key)).
  { apply cong_mul; [reflexivity|]. apply cong_pow, cong_mod. }
  rewrite Z.pow_mul_l. replace (v * w * (fst a ^ kX key * fst b ^ kX key)) with ((v * fst a ^ kX key) * (w * fst b ^ kX key)) by ring.
  now apply cong_mul.
Qed.

Theorem C30_homomorphic : forall key c1 c2 d1 d2 v w, enc_key key ->
  decrypts key (be_val c1, be_val c2) v -> decrypts key (be_val d1, be_val d2) w ->
  be_val c1 <= kP (kpub key) -> be_val d1 <= kP (kpub key) ->
  exists C1 C2, elg_hom_two (kpub key) c1 c2 d1 d2 = Ok (C1, C2) /\ decrypts key (C1, C2) ((v * w) mod kP (kpub key)).
Proof.
  intros key c1 c2 d1 d2 v w Hk Ha Hb H1 H2. unfold elg_hom_two.
  destruct (Z.gtb_spec (be_val c1) (kP (kpub key))); [lia|]. destruct (Z.gtb_spec (be_val d1) (kP (kpub key))); [lia|]. cbn [andb].
  eexists. eexists. split; [reflexivity|]. eapply decrypts_mul with (a := (_, _)) (b := (_, _)); cbn [fst snd]; try reflexivity; eauto.
Qed.
Print Assumptions C30_homomorphic.

Theorem C30_homomorphic_many : forall key cts vs, enc_key key -> cts <> [] ->
  Forall2 (fun c v => decrypts key (be_val (fst c), be_val (snd c)) v /\ be_val (fst c) <= kP (kpub key)) cts vs ->
  exists C1 C2, elg_hom_many (kpub key) cts = Ok (C1, C2) /\ decrypts key (C1, C2) (fold_right Z.mul 1 vs mod kP (kpub key)).
Proof.
  intros key cts vs Hk Hne H. unfold elg_hom_many.
  assert (HP : 1 < kP (kpub key)) by (destruct Hk; auto).
  assert (Hgen : forall A1 A2 x, decrypts key (A1, A2) (x mod kP (kpub key)) ->
    exists C1 C2, elg_hom_loop (kP (kpub key)) A1 A2 cts = Ok (C1, C2) /\ decrypts key (C1, C2) ((x * fold_right Z.mul 1 vs) mod kP (kpub key))).
  { clear Hne. induction H as [|[c1 c2] v cts vs [Hd Hc] H IH]; intros A1 A2 x Hx; cbn [elg_hom_loop fold_right].
    - exists A1, A2. rewrite Z.mul_1_r. auto.
    - cbn [fst snd] in *. destruct (Z.gtb_spec (be_val c1) (kP (kpub key))); [lia|]. cbn [andb]. 
      rewrite Z.mul_assoc. apply IH.
      rewrite <- (Zmult_mod_idemp_l x v). exact (decrypts_mul Hk (a := (A1, A2)) (b := (be_val c1, be_val c2)) eq_refl eq_refl Hx Hd). }
  destruct (Hgen 1 1 1) as (C1 & C2 & E & Hd).
  - rewrite Z.mod_small by lia. apply decrypts_eq; auto; cbn [fst snd]; [apply Z.gcd_1_l|]. split; [lia|].
    rewrite Z.pow_1_l; [reflexivity|]. destruct Hk as (_ & _ & ? & _); auto.
  - exists C1, C2. rewrite Z.mul_1_l in Hd. auto.
Qed.
Print Assumptions C30_homomorphic_many.

(** Refuted: "DecryptBytes answers every input with a message or an error".  For every private key
    the ciphertext made of the numbers 1 and 0 makes it panic (index out of range at [em[0]]). *)
Theorem C30_decrypt_total_refuted : forall key, 1 < kP (kpub key) -> 0 <= kX key ->
  elg_decrypt_bytes key (be_bytes (bitlen (kP (kpub key))) 1 ++ be_bytes (bitlen (kP (kpub key))) 0) = Panic.
Proof.
  intros key HP HX.
  assert (H1 : 0 <= 1 < kP (kpub key)) by lia. assert (H0 : 0 <= 0 < kP (kpub key)) by lia.
  destruct (pair_bytes (bits_bytes H1) (bits_bytes H0)) as (_ & Q2 & Q3 & Q4).
  unfold elg_decrypt_bytes. rewrite Q2, Nat.eqb_refl, Q3, Q4. cbn [negb].
  destruct (Z.leb_spec (kP (kpub key)) 1); [lia|]. destruct (Z.leb_spec (kP (kpub key)) 0); [lia|]. cbn [orb].
  unfold elg_decrypt, elg_decrypt_legacy. rewrite powm_spec, Z.pow_1_l, Z.mod_small by lia.
  destruct (@mod_inverse_ok 1 (kP (kpub key)) ltac:(lia) (Z.gcd_1_l _)) as [i ->].
  rewrite Z.mul_0_r, Z.mod_0_l by lia. reflexivity.
Qed.
Print Assumptions C30_decrypt_total_refuted.

(** With a decrypted number other than 0 there is no panic. *)
Theorem C30_decrypt_no_panic : forall key c1 c2, 1 < kP (kpub key) -> c2 mod kP (kpub key) <> 0 -> elg_decrypt key c1 c2 <> Panic.
Proof.
  intros key c1 c2 HP Hc. unfold elg_decrypt, elg_decrypt_legacy.
  destruct (mod_inverse _ _) as [i|] eqn:Ei; [|discriminate]. cbn [rbind].
  apply mod_inverse_some in Ei as [Hi Hi2]; [|lia].
  destruct (big_bytes ((i * c2) mod kP (kpub key))) as [|b t] eqn:E.
  - exfalso. apply Hc.
    assert (Hz : (i * c2) mod kP (kpub key) = 0).
    { pose proof (be_val_big_bytes (x := (i * c2) mod kP (kpub key)) ltac:(apply Z.mod_pos_bound; lia)) as H. rewrite E in H. now rewrite <- H. }
    set (s := powm c1 (kX key) (kP (kpub key))) in *.
    transitivity ((s * (i * c2)) mod kP (kpub key)); [|rewrite <- Zmult_mod_idemp_r, Hz, Z.mul_0_r; apply Z.mod_0_l; lia].
    replace (s * (i * c2)) with (i * s * c2) by ring. rewrite <- Zmult_mod_idemp_l, Hi2, Zmult_mod_idemp_l, Z.mul_1_l. reflexivity.
  - destruct (elg_scan 1 true 0 t) as [l j]. destruct (_ || _ || _); discriminate.
Qed.
Print Assumptions C30_decrypt_no_panic.

(** A concrete 100-bit key and message. *)
Definition toy_enc_key : elg_priv :=
  let P := 2 ^ 100 + 277 in ElgPriv (ElgPub P 5 (powm 5 123456789 P)) 123456789.
Example C30_instance :
  enc_key toy_enc_key /\
  exists c1 c2 rd', elg_encrypt (map Z.of_nat (seq 0 40)) (kpub toy_enc_key) [104; 105] = Ok ((c1, c2), rd') /\
    elg_decrypt toy_enc_key c1 c2 = Ok [104; 105] /\ c1 <> 1 /\ c2 <> 0.
Proof.
  split.
  - unfold enc_key, toy_enc_key. cbn [kpub kY kG kP kX]. split; [lia|]. split; [vm_compute; reflexivity|]. split; [lia|].
    apply powm_spec; lia.
  - eexists. eexists. eexists. split; [vm_compute; reflexivity|]. vm_compute. repeat split; congruence.
Qed.

(** ** C29 *)
(** Key pairs over a prime modulus, and the pairs GenerateKey returns, are signing keys. *)
Theorem C29_prime_key : forall p g x, prime p -> 0 < g < p -> 0 <= x ->
  sig_key (ElgPriv (ElgPub p g (g ^ x mod p)) x).
Proof.
  intros p g x Hp Hg Hx. pose proof (prime_ge_2 p Hp). repeat split; cbn [kpub kP kG kY kX]; auto; try lia.
  - now apply prime_gcd.
  - apply fermat; auto. rewrite Z.mod_small; lia.
Qed.
Print Assumptions C29_prime_key.

Theorem C29_generated_key : forall q x rd key, 1 < q -> 0 <= x -> bytes_ok rd ->
  elg_generate q x rd = Ok key -> sig_key key /\ kP (kpub key) = 2 * q + 1 /\ kX key = x /\
    kG (kpub key) ^ q mod kP (kpub key) = 1 /\ kG (kpub key) ^ 2 mod kP (kpub key) <> 1.
Proof.
  intros q x rd key Hq Hx Hrd H. unfold elg_generate in H.
  destruct (elg_gen_g (q * 2 + 1) q rd) as [[g rd']| |] eqn:E; try discriminate. cbn [rbind fst] in H.
  set (P := q * 2 + 1) in *.
  assert (Hg : g ^ 2 mod P <> 1 /\ g ^ q mod P = 1).
  { unfold elg_gen_g in E. apply (until_ok (Q := fun g => g ^ 2 mod P <> 1 /\ g ^ q mod P = 1)) in E; auto.
    intros r b r' Hs. destruct (rand_int P r) as [[j r1]| |]; try discriminate. cbn [rbind fst snd] in Hs.
    rewrite !powm_spec in Hs by lia. destruct (Z.eqb_spec (j ^ 2 mod P) 1); [discriminate|].
    destruct (Z.eqb_spec (j ^ q mod P) 1); [|discriminate]. injection Hs as <- <-. auto. }
  assert (Hkey : key = ElgPriv (ElgPub P g (powm g x P)) x) by congruence. subst key. cbn [kpub kP kG kY kX].
  destruct Hg as [Hg2 Hgq].
  assert (Hgcd : Z.gcd g P = 1).
  { assert (Hu : Z.gcd (g ^ q) P = 1) by (rewrite Z.gcd_comm, <- Z.gcd_mod, Hgq by lia; apply Z.gcd_1_l).
    apply Z.bezout_1_gcd. apply Z.gcd_bezout in Hu. destruct Hu as (a & b & Hab). 
    exists (a * g ^ (q - 1)), b.
    assert (Hgp : g ^ q = g * g ^ (q - 1)) by (rewrite <- Z.pow_succ_r by lia; f_equal; lia). rewrite Hgp in Hab. rewrite <- Hab at 2. ring. }
  split; [|repeat split; auto; lia].
  repeat split; cbn [kpub kP kG kY kX]; auto; try lia; [apply powm_spec; lia|].
  unfold P. replace (q * 2 + 1 - 1) with (q * 2) by lia. fold P. rewrite Z.pow_mul_r by lia.
  rewrite (cong_pow (b := 1)); [apply Z.mod_small; lia|]. rewrite Hgq. symmetry. apply Z.mod_small; lia.
Qed.
Print Assumptions C29_generated_key.

(** ElGamal: every signature Sign returns is accepted by Verify, whatever hash and random bytes;
    through the integers and through the byte form. *)
Theorem C29_elgamal : forall key rd hash r s, sig_key key -> bytes_ok rd -> bytes_ok hash ->
  elg_sign rd key hash = Ok (r, s) -> elg_verify (kpub key) hash r s = Ok true.
Proof.
  intros key rd hash r s [(HP & Hg & Hx & HY) Ho] Hrd Hh H. unfold elg_sign in H.
  destruct (elg_sign_k (kP (kpub key)) rd) as [[k rd']| |] eqn:E; try discriminate. cbn [rbind fst] in H.
  apply elg_sign_k_ok in E as (Hk & Hk1 & Hkg); auto. unfold elg_sign_with in H.
  set (P := kP (kpub key)) in *. set (G := kG (kpub key)) in *.
  destruct (mod_inverse k (P - 1)) as [ki|] eqn:Ei; [|discriminate].
  assert (HP2 : 2 < P) by lia. apply mod_inverse_some in Ei as [_ Hi]; [|lia].
  rewrite powm_spec in H by lia.
  assert (Hr : r = G ^ k mod P) by congruence.
  assert (Hs : s = ((be_val hash - (r * kX key) mod (P - 1)) * ki) mod (P - 1)) by (rewrite Hr; congruence).
  pose proof (be_val_bound Hh) as Hm.
  assert (Hs' : s = ((be_val hash - r * kX key) * ki) mod (P - 1)).
  { rewrite Hs. rewrite Zmult_mod, Zminus_mod_idemp_r, <- Zmult_mod. reflexivity. }
  apply verify_iff; auto. fold P.
  assert (0 <= r < P) by (rewrite Hr; apply Z.mod_pos_bound; lia).
  assert (0 <= s < P - 1) by (rewrite Hs; apply Z.mod_pos_bound; lia).
  split; [lia|]. split; [lia|]. unfold sig_equation. fold G P. rewrite HY. fold G P. rewrite Hs'.
  apply (@sign_core G P (kX key) k ki (be_val hash) r); auto; lia.
Qed.
Print Assumptions C29_elgamal.

Theorem C29_elgamal_bytes : forall key rd hash sig, sig_key key -> bytes_ok rd -> bytes_ok hash ->
  elg_sign_bytes rd key hash = Ok sig -> elg_verify_bytes (kpub key) hash sig = Ok true.
Proof.
  intros key rd hash sig Hk Hrd Hh H. unfold elg_sign_bytes in H.
  destruct (elg_sign rd key hash) as [[r s]| |] eqn:E; try discriminate. cbn [rbind fst snd] in H.
  pose proof (C29_elgamal Hk Hrd Hh E) as Hv.
  assert (HP : 1 < kP (kpub key)) by (destruct Hk as [[? _] _]; auto).
  assert (Hb : 0 <= r < kP (kpub key) /\ 0 <= s < kP (kpub key)).
  { unfold elg_sign in E. destruct (elg_sign_k (kP (kpub key)) rd) as [[k rd']| |] eqn:Ek; try discriminate.
    apply elg_sign_k_ok in Ek; auto. cbn [rbind fst] in E. unfold elg_sign_with in E.
    destruct (mod_inverse k (kP (kpub key) - 1)); [|discriminate].
    assert (Hr : r = powm (kG (kpub key)) k (kP (kpub key))) by congruence.
    assert (Hs : exists x, s = x mod (kP (kpub key) - 1)) by (eexists; symmetry; injection E as _ <-; reflexivity).
    destruct Hs as [x ->]. subst r. split; [apply powm_bound; lia|]. pose proof (Z.mod_pos_bound x (kP (kpub key) - 1) ltac:(lia)). lia. }
  destruct (pair_bytes (bits_bytes (proj1 Hb)) (bits_bytes (proj2 Hb))) as (Q1 & Q2 & Q3 & Q4). rewrite Q1 in H.
  assert (Hs : sig = be_bytes (bitlen (kP (kpub key))) r ++ be_bytes (bitlen (kP (kpub key))) s) by congruence. subst sig.
  unfold elg_verify_bytes. rewrite Q2, Nat.eqb_refl, Q3, Q4. exact Hv.
Qed.
Print Assumptions C29_elgamal_bytes.

(** Verify accepts exactly the pairs in range that satisfy ElGamal's equation. *)
Theorem C29_elgamal_accepts : forall pub hash r s, 1 < kP pub -> bytes_ok hash ->
  (elg_verify pub hash r s = Ok true <-> 0 <= r <= kP pub /\ 0 <= s <= kP pub - 1 /\ sig_equation pub (be_val hash) r s).
Proof. intros. now apply verify_iff. Qed.
Print Assumptions C29_elgamal_accepts.

(** Refuted: "0 < r < p is enforced" (the comment at elgamal.go:389): under every public key the pair
    (0, 0), which needs no secret, is accepted as a signature of every all-zero (or empty) hash. *)
Theorem C29_elgamal_range_refuted : forall pub n, 1 < kP pub -> elg_verify pub (repeat 0 n) 0 0 = Ok true.
Proof.
  intros pub n HP. apply verify_iff; auto; [apply Forall_forall; intros x Hx; apply repeat_spec in Hx; subst; split; lia|].
  split; [lia|]. split; [lia|]. unfold sig_equation. rewrite be_val_zeros. reflexivity.
Qed.
Print Assumptions C29_elgamal_range_refuted.

(** EGDSA *)
Theorem C29_egdsa : forall key rd hash r s, sig_key key -> 3 < kP (kpub key) -> bytes_ok rd -> bytes_ok hash ->
  egd_sign rd key hash = Ok (r, s) -> egd_verify (kpub key) hash r s = Ok true.
Proof.
  intros key rd hash r s [(HP & Hg & Hx & HY) Ho] HP3 Hrd Hh H. unfold egd_sign in H.
  destruct (egd_sign_k (kP (kpub key)) rd) as [[k rd']| |] eqn:E; try discriminate. cbn [rbind fst] in H.
  apply egd_sign_k_ok in E as (Hk & Hkg); auto. unfold egd_sign_with, egd_m in H.
  set (P := kP (kpub key)) in *. set (G := kG (kpub key)) in *.
  destruct (Z.eqb_spec (P - 3) 0); [lia|]. cbn [rbind] in H.
  set (m := be_val hash mod (P - 3) + 2) in *.
  assert (Hm : 0 <= m) by (pose proof (Z.mod_pos_bound (be_val hash) (P - 3) ltac:(lia)); lia).
  (* the exponent, taken modulo P-1 *)
  pose (k' := if k <? 0 then P - 2 else k).
  assert (Hk' : 0 <= k' /\ k =[P - 1]= k').
  { unfold k'. destruct (Z.ltb_spec k 0); [|auto]. replace k with (-1) by lia. split; [lia|].
    replace (P - 2) with (-1 + 1 * (P - 1)) by ring. now rewrite Z_mod_plus_full. }
  destruct Hk' as [Hk0 Hkc].
  destruct (big_exp G k P) as [r0| |] eqn:Er; try discriminate. cbn [rbind] in H.
  assert (Hr0 : r0 = G ^ k' mod P).
  { unfold big_exp in Er. unfold k'. destruct (Z.ltb_spec k 0).
    - destruct (mod_inverse G P) as [i|] eqn:Ei; [|discriminate]. pose proof (neg1_pow HP Ho Ei) as Hi.
      replace (- k) with 1 in Er by lia. apply mod_inverse_some in Ei as [Hb _]; [|lia].
      rewrite powm_spec, Z.pow_1_r, Z.mod_small in Er by lia. congruence.
    - rewrite powm_spec in Er by lia. congruence. }
  destruct (mod_inverse k (P - 1)) as [ki|] eqn:Ei; [|discriminate]. apply mod_inverse_some in Ei as [_ Hi]; [|lia].
  assert (Hr : r = r0) by congruence.
  assert (Hs : s = ((m - r * kX key) * ki) mod (P - 1)).
  { subst r. transitivity (((m - (r0 * kX key - P * (P - 1))) mod (P - 1) * ki) mod (P - 1)); [congruence|].
    rewrite Zmult_mod_idemp_l. 
    replace (m - (r0 * kX key - P * (P - 1))) with (m - r0 * kX key + P * (P - 1)) by ring.
    rewrite Z.mul_add_distr_r. replace (P * (P - 1) * ki) with (P * ki * (P - 1)) by ring. apply Z_mod_plus_full. }
  apply egd_verify_iff; auto. fold P m.
  assert (0 <= r < P) by (subst r r0; apply Z.mod_pos_bound; lia).
  assert (0 <= s < P - 1) by (rewrite Hs; apply Z.mod_pos_bound; lia).
  split; [lia|]. split; [lia|]. unfold sig_equation. fold G P. rewrite HY. fold G P. rewrite Hs.
  assert (Hi' : ki * k' =[P - 1]= 1) by (rewrite <- Hi; apply cong_mul; [reflexivity|now symmetry]).
  assert (HP2 : 2 < P) by lia. assert (Hrr : r = G ^ k' mod P) by (subst r; exact Hr0).
  exact (@sign_core G P (kX key) k' ki m r HP Ho Hx Hk0 Hm Hi' HP2 Hrr).
Qed.
Print Assumptions C29_egdsa.

Theorem C29_egdsa_accepts : forall pub hash r s, 3 < kP pub -> bytes_ok hash ->
  (egd_verify pub hash r s = Ok true <->
   0 <= r <= kP pub /\ 0 <= s <= kP pub - 1 /\ sig_equation pub (be_val hash mod (kP pub - 3) + 2) r s).
Proof. intros. now apply egd_verify_iff. Qed.
Print Assumptions C29_egdsa_accepts.

(** Refuted in the same way: for every EGDSA public key over P = 2q+1 with G^q = 1 there is a hash
    of which (0, 0) is an accepted signature. *)
Theorem C29_egdsa_range_refuted : forall pub q, 3 < q -> kP pub = 2 * q + 1 -> kG pub ^ q mod kP pub = 1 ->
  egd_verify pub (big_bytes (q - 2)) 0 0 = Ok true.
Proof.
  intros pub q Hq HP Hg. apply egd_verify_iff; [lia|apply big_bytes_ok|].
  split; [lia|]. split; [lia|]. unfold sig_equation. rewrite be_val_big_bytes by lia.
  rewrite (Z.mod_small (q - 2)) by lia. replace (q - 2 + 2) with q by lia. rewrite Hg. cbn. rewrite Z.mod_small; lia.
Qed.
Print Assumptions C29_egdsa_range_refuted.

(** A concrete key over the prime 23 = 2*11+1 with G = 4, found by the key generator itself. *)
Example C29_instance :
  (exists key, elg_generate 11 7 [0; 22; 1; 5; 4] = Ok key /\ sig_key key /\ prime (kP (kpub key)) /\
     elg_sign [0; 1; 7] key [200; 13] = Ok (8, 1) /\ elg_verify (kpub key) [200; 13] 8 1 = Ok true /\
     elg_verify (kpub key) [200; 14] 8 1 = Err /\
     egd_sign [0] key [200; 13] = Ok (6, 5) /\ egd_verify (kpub key) [200; 13] 6 5 = Ok true).
Proof.
  eexists. split; [vm_compute; reflexivity|]. split; [|split; [|vm_compute; repeat split]].
  - repeat split; vm_compute; congruence.
  - apply primeb_prime. vm_compute. reflexivity.
Qed.
