(** C118-C120: ECIES. *)
From Verif Require Import Base BigModel NumLib ElgProofs CurveModel CurveSpec BlockModeModel AeadSpec SivModel Hash3Model KdfSpec KdfProofs EcSigProofs EcSigProofs2 KcProofs KcProofs4 IesModel IesSpec IesProofs.
Set Implicit Arguments. Unset Strict Implicit.
Local Open Scope Z_scope.

(** What ies.go's parameters and the curve must provide: fixed-size digests not longer than the HMAC block, enough key material, room
    for two keys in a coordinate, lawful block ciphers of the declared block size. *)
Definition ies_fit (c : curve) (p : ies) : Prop :=
  sized c /\ hasher_ok (iH p) /\ kdf_enough (hsize (iH p)) (hblock (iH p)) (iK p) /\ (hsize (iH p) <= hblock (iH p))%nat /\ (2 * iK p <= byteceil (cBits c))%nat /\
  forall k ci, iC p k = Some ci -> lawful ci /\ bsz ci = iB p.

Lemma mask_ok bits b : bytes_ok b -> bytes_ok (mask_top bits b).
Proof.
  intros O. destruct b as [|x t]; [constructor|]. inversion O as [|? ? Hx Ht]; subst. constructor; [|exact Ht]. unfold is_byte in *.
  set (e := if Nat.eqb (Nat.modulo bits 8) 0 then 8%nat else Nat.modulo bits 8). replace (2 ^ Z.of_nat e - 1) with (Z.ones (Z.of_nat e)) by (rewrite Z.ones_equiv; lia). rewrite Z.land_ones by lia.
  assert (0 < 2 ^ Z.of_nat e) by (apply Z.pow_pos_nonneg; lia). pose proof (Z.mod_pos_bound x (2 ^ Z.of_nat e)). pose proof (Z.mod_le x (2 ^ Z.of_nat e)). lia.
Qed.
Lemma lxor_66 y : is_byte y -> is_byte (Z.lxor y 66).
Proof. intros H. apply lxor_byte; [exact H|unfold is_byte; lia]. Qed.
Lemma tweak_inv b b' : bytes_ok b -> el_tweak b = Ok b' -> bytes_ok b'.
Proof. intros O. destruct b as [|x [|y t]]; try discriminate. cbn [el_tweak]. intros E. apply okinj in E. subst b'. inversion O as [|? ? Hx O']; subst. inversion O' as [|? ? Hy Ht]; subst. constructor; [exact Hx|]. constructor; [now apply lxor_66|exact Ht]. Qed.
(** The bytes that make elliptic.GenerateKey pick e. *)
Definition coins (c : curve) (e : Z) : bytes := match be_bytes (byteceil (bitlen (cN c))) e with x :: y :: t => x :: Z.lxor y 66 :: t | b => b end.

Section enc.
Variables (c : curve) (pt : Z -> Z * Z). Hypothesis L : lawful_curve c pt. Notation N := (cN c).
Lemma gen_inv rd e R rd' : bytes_ok rd -> el_generate c rd = Ok ((e, R), rd') -> (0 <= e < N /\ R = pt e) /\ bytes_ok rd'.
Proof.
  intros O. unfold el_generate. intros E. refine (@until_inv _ (fun q => 0 <= fst q < N /\ snd q = pt (fst q)) _ _ _ _ _ O E). clear - L.
  intros rd o rd' O E. destruct (read_full (byteceil (bitlen N)) rd) as [[b r]| |] eqn:E1; try discriminate. destruct (read_full_ok O E1) as (_ & Ob & Or & _). cbn [rbind fst snd] in E.
  destruct (el_tweak (mask_top (bitlen N) b)) as [b'| |] eqn:E2; try discriminate. cbn [rbind] in E. pose proof (tweak_inv (mask_ok _ Ob) E2) as Ob'. apply okinj in E. assert (rd' = r) by congruence. subst rd'. split; [exact Or|].
  destruct (Z.leb_spec N (be_val b')) as [H|H]; assert (E' : o = _) by (symmetry; exact (f_equal fst E)); cbn [fst] in E'; subst o; [exact I|]. cbn [fst snd]. pose proof (be_val_bound Ob'). split; [lia|]. now rewrite (lc_base L).
Qed.
Lemma gen_hit e rest : (2 <= byteceil (bitlen N))%nat -> 0 <= e < N -> el_generate c (coins c e ++ rest) = Ok ((e, pt e), rest).
Proof.
  intros H2 He. unfold coins. set (n := byteceil (bitlen N)) in *. assert (Hn : e < 256 ^ Z.of_nat n). { pose proof (@byteceil_bound N). unfold n. lia. }
  assert (V : be_val (be_bytes n e) = e) by (rewrite be_val_bytes; apply Z.mod_small; lia). pose proof (be_bytes_length n e) as Ln. pose proof (be_bytes_ok n e) as On. 
  assert (M : mask_top (bitlen N) (be_bytes n e) = be_bytes n e).
  { assert (K : be_val (mask_top (bitlen N) (be_bytes n e)) = be_val (be_bytes n e) mod 2 ^ Z.of_nat (bitlen N)) by (apply (@mask_keep (fun _ => true)); assumption). rewrite V in K. rewrite Z.mod_small in K by (pose proof (@bitlen_bound N); lia).
    apply be_ext; [apply mask_ok; exact On|destruct (bytes_ok_mask (bitlen N) On) as [_ ->]; exact Ln|]. rewrite K. symmetry. apply Z.mod_small. lia. }
  destruct (be_bytes n e) as [|x [|y t]] eqn:E; try (cbn [length] in Ln; lia). 
  unfold el_generate, until. cbn [retry]. unfold read_full. fold n. cbn [app length] in *. rewrite app_length. destruct (Nat.leb_spec n (S (S (length t + length rest)))); [|lia]. cbn [rbind fst snd].
  replace (firstn n (x :: Z.lxor y 66 :: t ++ rest)) with (x :: Z.lxor y 66 :: t) by (symmetry; apply (@firstn_app_exact Z n (x :: Z.lxor y 66 :: t) rest); exact Ln).
  replace (skipn n (x :: Z.lxor y 66 :: t ++ rest)) with rest by (symmetry; apply (@skipn_app_exact Z n (x :: Z.lxor y 66 :: t) rest); exact Ln).
  assert (M' : mask_top (bitlen N) (x :: Z.lxor y 66 :: t) = x :: Z.lxor y 66 :: t) by (unfold mask_top in M |- *; cbv zeta in *; f_equal; exact (f_equal (fun l => hd 0 l) M)). rewrite M'. cbn [el_tweak rbind]. rewrite Z.lxor_assoc. change (Z.lxor 66 66) with 0. rewrite Z.lxor_0_r, V. destruct (Z.leb_spec N e); [lia|]. rewrite (lc_base L) by (auto; lia). now rewrite V.
Qed.

Variable p : ies. Hypothesis F : ies_fit c p. Notation w := (byteceil (cBits c)).
Lemma on_pt a : 0 < a < N -> on_curve c (pt a) = true.
Proof. intros H. apply (lc_on L). rewrite Z.mod_small; lia. Qed.
Lemma mulp a d : 0 <= d < N -> cmul c (pt a) (big_bytes d) = pt (a * d).
Proof. intros H. rewrite (lc_mul L); rewrite ?be_val_big_bytes; auto; try lia. apply big_bytes_ok. Qed.
Lemma pt_in a : point_in c (pt a). Proof. apply (lc_coord L). Qed.

(** Encrypt once the ephemeral key is drawn *)
Lemma enc_ok rd d e rd' m s1 s2 : 0 < d < N -> 0 <= e < N -> el_generate c rd = Ok ((e, pt e), rd') ->
  exists K, by_blocks (hsize (iH p)) (fun i => hsum (iH p) (be_bytes 4 (Z.of_nat i + 1) ++ be_bytes (2 * iK p) (fst (pt (d * e)) mod 256 ^ Z.of_nat (2 * iK p)) ++ s1)) (Z.of_nat (2 * iK p)) K /\
  ies_encrypt c p rd (pt d) m s1 s2 = rbind (ies_sym_encrypt p rd' (firstn (iK p) K) m) (fun em =>
    if Nat.leb (length em) (iB p) then Ok [] else rbind (el_marshal c (pt e)) (fun Rb => Ok (Rb ++ em ++ hmac_of (hsum (iH p)) (hblock (iH p)) (hsum (iH p) (skipn (iK p) K)) (em ++ s2)))).
Proof.
  intros Hd He G. destruct F as (Sz & Hh & HK & HB & HW & Hc). destruct (keys_ok Hh HK (be_bytes (2 * iK p) (fst (pt (d * e)) mod 256 ^ Z.of_nat (2 * iK p))) s1) as (K & EK & BK). exists K. split; [exact BK|].
  unfold ies_encrypt. rewrite G. cbn [rbind]. rewrite shared_ok; auto; [|now apply on_pt|rewrite mulp by lia; apply (lc_coord L)]. rewrite mulp by lia. cbn [rbind]. rewrite EK. cbn [rbind fst snd]. destruct (ies_sym_encrypt p rd' (firstn (iK p) K) m) as [em| |]; [|reflexivity|reflexivity]. cbn [rbind]. now rewrite (tag_ok Hh HB).
Qed.
Lemma sym_enc_inv K rd m em : bytes_ok rd -> ies_sym_encrypt p rd K m = Ok em -> exists ci iv, iC p K = Some ci /\ length iv = iB p /\ em = iv ++ go_ctr ci iv m.
Proof.
  destruct F as (_ & _ & _ & _ & _ & Hc). intros O. unfold ies_sym_encrypt. destruct (iC p K) as [ci|] eqn:E; [|discriminate]. destruct (Hc _ _ E) as [La Bs]. destruct (read_full (iB p) rd) as [[iv r]| |] eqn:Er; try discriminate. destruct (read_full_ok O Er) as (Li & _). cbn [rbind fst].
  unfold new_ctr_xor. rewrite Bs, Li, Nat.eqb_refl. cbn [rbind]. intros H. apply okinj in H. subst em. exists ci, iv. auto.
Qed.
End enc.

(** Encrypt: a non-empty message is carried from a fresh point e*G, and Decrypt with the private key gives it back. *)
Theorem C118_ecies_encrypt_carries : forall c pt p rd d m s1 s2 ct,
  lawful_curve c pt -> ies_fit c p -> 0 < d < cN c -> bytes_ok rd -> m <> [] -> ies_encrypt c p rd (pt d) m s1 s2 = Ok ct ->
  exists e, 0 < e < cN c /\ ecies_carries (hsum (iH p)) (hsize (iH p)) (hblock (iH p)) (iC p) (iB p) (iK p) (byteceil (cBits c)) (pt e) (fst (pt (d * e))) s1 s2 m ct.
Proof.
  intros c pt p rd d m s1 s2 ct L F Hd O Hm E. destruct (el_generate c rd) as [[[e R] rd']| |] eqn:G; [|unfold ies_encrypt in E; rewrite G in E; discriminate|unfold ies_encrypt in E; rewrite G in E; discriminate].
  destruct (gen_inv L O G) as [[He ->] Ord]. destruct (enc_ok L F m s1 s2 Hd He G) as (K & BK & EK). rewrite EK in E.
  destruct (ies_sym_encrypt p rd' (firstn (iK p) K) m) as [em| |] eqn:ES; try discriminate. destruct (sym_enc_inv F Ord ES) as (ci & iv & Eci & Liv & ->). cbn [rbind] in E.
  destruct (proj2 (proj2 (proj2 (proj2 (proj2 F)))) _ _ Eci) as [La Bs].
  destruct (Nat.leb_spec (length (iv ++ go_ctr ci iv m)) (iB p)) as [H|_]. { exfalso. rewrite app_length, go_ctr_length in H by exact La. destruct m; [congruence|cbn [length] in H; lia]. }
  assert (Hz : e <> 0). { intros ->. rewrite (lc_zero L) in E. unfold el_marshal in E. rewrite (lc_off L) in E. discriminate. }
  rewrite (marshal_ok (proj1 F) (pt_in L e) (on_pt L (a := e) ltac:(lia))) in E. cbn [rbind] in E. apply okinj in E. subst ct. exists e. split; [lia|]. exists K, ci, iv. auto.
Qed.
Lemma carry_dec c pt p d e m s1 s2 ct : lawful_curve c pt -> ies_fit c p -> 0 < d < cN c -> 0 < e < cN c ->
  ecies_carries (hsum (iH p)) (hsize (iH p)) (hblock (iH p)) (iC p) (iB p) (iK p) (byteceil (cBits c)) (pt e) (fst (pt (d * e))) s1 s2 m ct -> ies_decrypt c p d ct s1 s2 = Ok m.
Proof.
  intros L F Hd He (K & ci & iv & BK & Eci & Liv & E). cbv zeta in E. subst ct. destruct F as (Sz & Hh & HK & HB & HW & Hc). destruct (Hc _ _ Eci) as [La Bs].
  assert (Es : fst (pt (d * e)) = sh c d (pt e)) by (unfold sh; rewrite (mulp L) by lia; now rewrite Z.mul_comm). rewrite Es in BK.
  pose proof (@dec_text c p d Sz Hh HK HB HW) as D. specialize (D (pt e) K s1 s2 (iv ++ go_ctr ci iv m)). unfold point_text, tagof in D. rewrite D.
  - apply sym_dec; assumption.
  - rewrite <- Es. apply (lc_coord L).
  - apply (pt_in L).
  - apply (on_pt L); lia.
  - exact BK.
  - pose proof (law_pos La). rewrite app_length. lia.
Qed.
Theorem C118_ecies_roundtrip : forall c pt p rd d m s1 s2 ct,
  lawful_curve c pt -> ies_fit c p -> 0 < d < cN c -> bytes_ok rd -> m <> [] -> ies_encrypt c p rd (pt d) m s1 s2 = Ok ct -> ies_decrypt c p d ct s1 s2 = Ok m.
Proof. intros c pt p rd d m s1 s2 ct L F Hd O Hm E. destruct (C118_ecies_encrypt_carries L F Hd O Hm E) as (e & He & C). exact (carry_dec L F Hd He C). Qed.
(** Every ephemeral key can be drawn, and then Encrypt returns; the empty message gives an empty text and no error, which Decrypt refuses. *)
Theorem C118_ecies_encrypt_total : forall c pt p d e iv rest m s1 s2,
  lawful_curve c pt -> ies_fit c p -> (forall k, length k = iK p -> iC p k <> None) -> (2 <= byteceil (bitlen (cN c)))%nat -> 0 < d < cN c -> 0 < e < cN c -> length iv = iB p -> m <> [] ->
  exists ct, ies_encrypt c p (coins c e ++ iv ++ rest) (pt d) m s1 s2 = Ok ct /\
    ecies_carries (hsum (iH p)) (hsize (iH p)) (hblock (iH p)) (iC p) (iB p) (iK p) (byteceil (cBits c)) (pt e) (fst (pt (d * e))) s1 s2 m ct /\
    firstn (iB p) (skipn (1 + 2 * byteceil (cBits c)) ct) = iv.
Proof.
  intros c pt p d e iv rest m s1 s2 L F Hk H2 Hd He Li Hm. assert (He' : 0 <= e < cN c) by lia. pose proof (@gen_hit c pt L e (iv ++ rest) H2 He') as G. destruct (enc_ok L F m s1 s2 Hd He' G) as (K & BK & EK). rewrite EK.
  assert (LK : length K = (2 * iK p)%nat) by (destruct BK; lia). destruct (iC p (firstn (iK p) K)) as [ci|] eqn:Eci; [|exfalso; apply (Hk (firstn (iK p) K)); [rewrite firstn_length; lia|exact Eci]].
  destruct F as (Sz & Hh & HK & HB & HW & Hc). destruct (Hc _ _ Eci) as [La Bs]. unfold ies_sym_encrypt. rewrite Eci. unfold read_full. rewrite app_length. destruct (Nat.leb_spec (iB p) (length iv + length rest)); [|lia]. rewrite firstn_app_exact by exact Li. cbn [rbind fst]. unfold new_ctr_xor. rewrite Bs, Li, Nat.eqb_refl. cbn [rbind].
  destruct (Nat.leb_spec (length (iv ++ go_ctr ci iv m)) (iB p)) as [C|_]. { exfalso. rewrite app_length, go_ctr_length in C by exact La. destruct m; [congruence|cbn [length] in C; lia]. }
  rewrite (marshal_ok Sz (pt_in L e) (on_pt L He)). cbn [rbind]. eexists. split; [reflexivity|]. split; [exists K, ci, iv; auto|]. rewrite skipn_app_exact by apply point_len. rewrite <- app_assoc. now apply firstn_app_exact.
Qed.
Theorem C118_ecies_empty_refuted : forall c pt p rd d s1 s2 ct,
  lawful_curve c pt -> ies_fit c p -> 0 < d < cN c -> bytes_ok rd -> ies_encrypt c p rd (pt d) [] s1 s2 = Ok ct -> ct = [] /\ ies_decrypt c p d ct s1 s2 = Err.
Proof.
  intros c pt p rd d s1 s2 ct L F Hd O E. destruct (el_generate c rd) as [[[e R] rd']| |] eqn:G; [|unfold ies_encrypt in E; rewrite G in E; discriminate|unfold ies_encrypt in E; rewrite G in E; discriminate].
  destruct (gen_inv L O G) as [[He ->] Ord]. destruct (enc_ok L F [] s1 s2 Hd He G) as (K & BK & EK). rewrite EK in E.
  destruct (ies_sym_encrypt p rd' (firstn (iK p) K) []) as [em| |] eqn:ES; try discriminate. destruct (sym_enc_inv F Ord ES) as (ci & iv & Eci & Liv & ->). cbn [rbind] in E.
  destruct (proj2 (proj2 (proj2 (proj2 (proj2 F)))) _ _ Eci) as [La Bs]. rewrite app_length, go_ctr_length in E by exact La. cbn [length] in E. destruct (Nat.leb_spec (length iv + 0) (iB p)); [|lia]. apply okinj in E. subst ct. split; reflexivity.
Qed.

(** Decrypt returns m exactly for the texts that carry m from a point on the curve. *)
Theorem C119_ecies_decrypt_exact : forall c p d ct s1 s2 m,
  ies_fit c p -> (forall R, on_curve c R = true -> 0 <= fst (cmul c R (big_bytes d))) -> bytes_ok ct ->
  (ies_decrypt c p d ct s1 s2 = Ok m <->
   exists R, 0 <= fst R < cP c /\ 0 <= snd R < cP c /\ on_curve c R = true /\
     ecies_carries (hsum (iH p)) (hsize (iH p)) (hblock (iH p)) (iC p) (iB p) (iK p) (byteceil (cBits c)) R (fst (cmul c R (big_bytes d))) s1 s2 m ct).
Proof.
  intros c p d ct s1 s2 m (Sz & Hh & HK & HB & HW & Hc) Hx O. assert (Hx' : forall R, point_in c R -> on_curve c R = true -> 0 <= fst (cmul c R (big_bytes d))) by auto. split.
  - intros E. destruct (@dec_inv c p d Hh HK HB HW ct s1 s2 Hx' O) as [H|(R & K & em & [PX PY] & On & BK & Lem & Ect & ED)]; [congruence|]. rewrite ED in E. destruct (sym_dec_inv Hc E) as (ci & iv & Eci & Liv & ->).
    exists R. split; [exact PX|]. split; [exact PY|]. split; [exact On|]. exists K, ci, iv. split; [exact BK|]. split; [exact Eci|]. split; [exact Liv|]. exact Ect.
  - intros (R & PX & PY & On & K & ci & iv & BK & Eci & Liv & E). cbv zeta in E. destruct (Hc _ _ Eci) as [La Bs].
    pose proof (@dec_text c p d Sz Hh HK HB HW R K s1 s2 (iv ++ go_ctr ci iv m)) as D. unfold point_text, tagof in D. rewrite E, D; [now apply sym_dec|now apply Hx|split; assumption|exact On|exact BK|].
    pose proof (law_pos La). rewrite app_length. lia.
Qed.
(** The MAC does not separate the encrypted text from s2: the receiver who expects t ++ s2 accepts the message without the bytes t hides. *)
Theorem C119_ecies_shift_refuted : forall c pt p rd d m1 m2 s1 s2 ct,
  lawful_curve c pt -> ies_fit c p -> 0 < d < cN c -> bytes_ok rd -> m1 <> [] -> ies_encrypt c p rd (pt d) (m1 ++ m2) s1 s2 = Ok ct ->
  exists front t tag, ct = front ++ t ++ tag /\ length t = length m2 /\ length tag = hsize (iH p) /\ ies_decrypt c p d (front ++ tag) s1 (t ++ s2) = Ok m1.
Proof.
  intros c pt p rd d m1 m2 s1 s2 ct L F Hd O Hm E. assert (Hm' : m1 ++ m2 <> []) by (destruct m1; [congruence|discriminate]). destruct (C118_ecies_encrypt_carries L F Hd O Hm' E) as (e & He & K & ci & iv & BK & Eci & Liv & EC). cbv zeta in EC.
  pose proof F as (Sz & Hh & HK & HB & HW & Hc). destruct (Hc _ _ Eci) as [La Bs].
  assert (P : firstn (length m1) (go_ctr ci iv (m1 ++ m2)) = go_ctr ci iv m1) by (apply go_ctr_prefix; exact La). set (t := skipn (length m1) (go_ctr ci iv (m1 ++ m2))).
  assert (S2 : go_ctr ci iv (m1 ++ m2) = go_ctr ci iv m1 ++ t) by (unfold t; rewrite <- P; symmetry; apply firstn_skipn).
  set (tag := hmac_of (hsum (iH p)) (hblock (iH p)) (hsum (iH p) (skipn (iK p) K)) ((iv ++ go_ctr ci iv (m1 ++ m2)) ++ s2)) in *.
  exists ((4 :: be_bytes (byteceil (cBits c)) (fst (pt e)) ++ be_bytes (byteceil (cBits c)) (snd (pt e))) ++ iv ++ go_ctr ci iv m1), t, tag. split; [|split; [|split]].
  - rewrite EC, S2, <- !app_assoc. reflexivity.
  - unfold t. rewrite skipn_length, go_ctr_length, app_length by exact La. lia.
  - apply Hh.
  - apply (carry_dec L F Hd He). exists K, ci, iv. split; [exact BK|]. split; [exact Eci|]. split; [exact Liv|]. cbv zeta. rewrite <- !app_assoc. do 4 f_equal. unfold tag. f_equal. rewrite S2, <- !app_assoc. reflexivity.
Qed.

(** Decrypt panics exactly on texts with a good tag over less than a block. *)
Theorem C120_ecies_decrypt_panics_exact : forall c p d ct s1 s2,
  ies_fit c p -> (forall R, on_curve c R = true -> 0 <= fst (cmul c R (big_bytes d))) -> (forall k, length k = iK p -> iC p k <> None) -> bytes_ok ct ->
  (ies_decrypt c p d ct s1 s2 = Panic <->
   exists R K em, 0 <= fst R < cP c /\ 0 <= snd R < cP c /\ on_curve c R = true /\
     by_blocks (hsize (iH p)) (fun i => hsum (iH p) (be_bytes 4 (Z.of_nat i + 1) ++ be_bytes (2 * iK p) (fst (cmul c R (big_bytes d)) mod 256 ^ Z.of_nat (2 * iK p)) ++ s1)) (Z.of_nat (2 * iK p)) K /\
     (0 < length em < iB p)%nat /\
     ct = (4 :: be_bytes (byteceil (cBits c)) (fst R) ++ be_bytes (byteceil (cBits c)) (snd R)) ++ em ++ hmac_of (hsum (iH p)) (hblock (iH p)) (hsum (iH p) (skipn (iK p) K)) (em ++ s2)).
Proof.
  intros c p d ct s1 s2 (Sz & Hh & HK & HB & HW & Hc) Hx Hk O. assert (Hx' : forall R, point_in c R -> on_curve c R = true -> 0 <= fst (cmul c R (big_bytes d))) by auto. split.
  - intros E. destruct (@dec_inv c p d Hh HK HB HW ct s1 s2 Hx' O) as [H|(R & K & em & [PX PY] & On & BK & Lem & Ect & ED)]; [congruence|]. rewrite ED in E. apply (sym_dec_panic Hc) in E. destruct E as [_ E].
    exists R, K, em. split; [exact PX|]. split; [exact PY|]. split; [exact On|]. split; [exact BK|]. split; [lia|]. exact Ect.
  - intros (R & K & em & PX & PY & On & BK & Lem & E). assert (LK : length K = (2 * iK p)%nat) by (destruct BK; lia).
    pose proof (@dec_text c p d Sz Hh HK HB HW R K s1 s2 em) as D. unfold point_text, tagof in D. rewrite E, D; [|now apply Hx|split; assumption|exact On|exact BK|lia]. apply (sym_dec_panic Hc). split; [apply Hk; rewrite firstn_length; lia|lia].
Qed.
(** Such a text can be made by anyone who has the public point. *)
Theorem C120_ecies_decrypt_panics_refuted : forall c pt p e s1 s2 (em : bytes),
  lawful_curve c pt -> ies_fit c p -> (forall k, length k = iK p -> iC p k <> None) -> 0 < e < cN c -> (0 < length em < iB p)%nat ->
  exists attack : Z * Z -> bytes, forall d, 0 < d < cN c -> ies_decrypt c p d (attack (pt d)) s1 s2 = Panic.
Proof.
  intros c pt p e s1 s2 em L F Hk He Lem. pose proof F as (Sz & Hh & HK & HB & HW & Hc).
  set (z := fun pub => be_bytes (2 * iK p) (fst (cmul c pub (big_bytes e)) mod 256 ^ Z.of_nat (2 * iK p))).
  set (K := fun pub => match concat_kdf (iH p) (z pub) s1 (iK p + iK p) with Ok k => k | _ => [] end).
  exists (fun pub => point_text c (pt e) ++ em ++ tagof p (K pub) em s2). intros d Hd.
  assert (Ez : z (pt d) = zz c p d (pt e)). { unfold z, zz, sh. rewrite !(mulp L) by lia. now rewrite Z.mul_comm. }
  assert (BK : keyof p (zz c p d (pt e)) s1 (K (pt d))). { unfold K. rewrite Ez. destruct (kdf_ok (zz c p d (pt e)) s1 Hh HK) as (k & -> & B). exact B. }
  rewrite (@dec_text c p d Sz Hh HK HB HW); [|unfold sh; rewrite (mulp L) by lia; apply (lc_coord L)|apply (pt_in L)|now apply (on_pt L)|exact BK|lia].
  apply (sym_dec_panic Hc). split; [apply Hk; destruct BK as [LK _]; rewrite firstn_length; lia|lia].
Qed.
(** ECIES_AES256_SHA384 (48, 128, 32) works on no curve: below 64 coordinate bytes it is refused, from 64 on it panics. The other sets derive their keys. *)
Theorem C120_ecies_sizes : forall hs hbl kl, In (hs, hbl, kl) ies_sizes -> kdf_enough hs hbl kl \/ (hs, hbl, kl) = (48, 128, 32)%nat.
Proof. intros hs hbl kl H. unfold ies_sizes in H. cbn [In] in H. decompose [or] H; try contradiction; match goal with E : _ = (hs, hbl, kl) |- _ => injection E as <- <- <- end; auto; left; (split; [lia|split; [lia|split; [vm_compute; lia|lia]]]). Qed.
Theorem C120_ecies_aes256_sha384_refuted : forall c p d pub rd m s1 s2 ct, hasher_ok (iH p) -> (hsize (iH p), hblock (iH p), iK p) = (48, 128, 32)%nat ->
  (forall r, ies_encrypt c p rd pub m s1 s2 <> Ok r) /\ (forall r, ies_decrypt c p d ct s1 s2 <> Ok r) /\
  (forall e R rest, on_curve c pub = true -> (64 <= byteceil (cBits c))%nat -> el_generate c rd = Ok ((e, R), rest) -> ies_encrypt c p rd pub m s1 s2 = Panic).
Proof.
  intros c p d pub rd m s1 s2 ct Hh Ez. injection Ez as Z1 Z2 Z3.
  assert (KP : forall z, ies_keys p z s1 = Panic). { intros z. unfold ies_keys. rewrite Z3. rewrite kdf_short; [reflexivity|exact Hh|lia|lia|]. rewrite Z1, Z2. vm_compute. lia. }
  split; [|split].
  - intros r. unfold ies_encrypt. destruct (el_generate c rd) as [[[e R] rd']| |]; try discriminate. cbn [rbind]. destruct (ies_shared c e pub (iK p + iK p)) as [z| |]; try discriminate. cbn [rbind]. rewrite KP. discriminate.
  - intros r. unfold ies_decrypt. destruct ct as [|t l]; [discriminate|]. destruct (negb _); [discriminate|]. cbv zeta. destruct (Nat.ltb _ _); [discriminate|]. destruct (el_unmarshal c _) as [R|]; [|discriminate]. destruct (negb _); [discriminate|].
    destruct (ies_shared c d R (iK p + iK p)) as [z| |]; try discriminate. cbn [rbind]. rewrite KP. discriminate.
  - intros e R rest On W G. unfold ies_encrypt. rewrite G. cbn [rbind]. unfold ies_shared. destruct (Nat.ltb_spec (byteceil (cBits c)) (iK p + iK p)); [lia|]. rewrite On. cbn [negb andb rbind]. now rewrite KP.
Qed.
(** Encrypt panics when the random bytes give the ephemeral key 0. *)
Theorem C120_ecies_zero_ephemeral_refuted : forall c pt p d iv rest m s1 s2,
  lawful_curve c pt -> ies_fit c p -> (forall k, length k = iK p -> iC p k <> None) -> (2 <= byteceil (bitlen (cN c)))%nat -> 0 < d < cN c -> length iv = iB p -> m <> [] ->
  ies_encrypt c p (coins c 0 ++ iv ++ rest) (pt d) m s1 s2 = Panic.
Proof.
  intros c pt p d iv rest m s1 s2 L F Hk H2 Hd Li Hm. assert (He' : 0 <= 0 < cN c) by lia. pose proof (@gen_hit c pt L 0 (iv ++ rest) H2 He') as G. destruct (enc_ok L F m s1 s2 Hd He' G) as (K & BK & EK). rewrite EK.
  assert (LK : length K = (2 * iK p)%nat) by (destruct BK; lia). destruct (iC p (firstn (iK p) K)) as [ci|] eqn:Eci; [|exfalso; apply (Hk (firstn (iK p) K)); [rewrite firstn_length; lia|exact Eci]].
  destruct F as (Sz & Hh & HK & HB & HW & Hc). destruct (Hc _ _ Eci) as [La Bs]. unfold ies_sym_encrypt. rewrite Eci. unfold read_full. rewrite app_length. destruct (Nat.leb_spec (iB p) (length iv + length rest)); [|lia]. rewrite firstn_app_exact by exact Li. cbn [rbind fst]. unfold new_ctr_xor. rewrite Bs, Li, Nat.eqb_refl. cbn [rbind].
  destruct (Nat.leb_spec (length (iv ++ go_ctr ci iv m)) (iB p)) as [C|_]. { exfalso. rewrite app_length, go_ctr_length in C by exact La. destruct m; [congruence|cbn [length] in C; lia]. }
  rewrite (lc_zero L). unfold el_marshal. now rewrite (lc_off L).
Qed.

(** ** Instances: the group of 263 elements written additively, a two-byte cipher and digest. *)
Definition addc : curve := Curve 263 263 9 (fun q => (fst q =? snd q) && (0 <? fst q) && (fst q <? 263)) (fun a b => ((fst a + fst b) mod 263, (snd a + snd b) mod 263))
  (fun q k => ((fst q * be_val k) mod 263, (snd q * be_val k) mod 263)) (fun k => (be_val k mod 263, be_val k mod 263)).
Definition addp (a : Z) : Z * Z := (a mod 263, a mod 263).
Lemma addc_lawful : lawful_curve addc addp.
Proof.
  assert (B : forall a, 0 <= a mod 263 < 263) by (intros; apply Z.mod_pos_bound; lia). constructor; cbn.
  - apply primeb_prime. vm_compute. reflexivity.
  - lia.
  - reflexivity.
  - intros a. unfold addp. now rewrite Z.mod_mod by lia.
  - intros a. auto.
  - intros a Ha. pose proof (B a). rewrite Z.eqb_refl. destruct (Z.ltb_spec 0 (a mod 263)); [|lia]. destruct (Z.ltb_spec (a mod 263) 263); [reflexivity|lia].
  - reflexivity.
  - reflexivity.
  - intros a k _ _. unfold addp. cbn [fst snd]. now rewrite Z.mul_mod_idemp_l by lia.
  - intros a b. unfold addp. cbn [fst snd]. now rewrite <- Z.add_mod by lia.
Qed.
Definition toyh : hasher := Hasher 2 4 (fun m => [to_byte (fold_left (fun a x => a * 3 + x + 1) m 7); to_byte (fold_left (fun a x => a * 5 + x) m 1)]).
Definition toyci (k : bytes) : option cipher := match k with [x] => Some (Build_cipher 2 (fun b => xorl b [x mod 256; 90]) (fun b => xorl b [x mod 256; 90])) | _ => None end.
Definition toyi : ies := Ies toyh toyci 2 1.
Lemma toyi_fit : ies_fit addc toyi.
Proof.
  split; [|split; [|split; [|split; [|split]]]].
  - split; [cbn; lia|split; cbn; lia].
  - intros m. split; [reflexivity|]. repeat constructor; apply Z.mod_pos_bound; lia.
  - split; [cbn; lia|split; [cbn; lia|split; [vm_compute; lia|cbn; lia]]].
  - cbn. lia.
  - cbn. lia.
  - intros k ci H. cbn in H. destruct k as [|x [|]]; try discriminate. injection H as <-. split; [|reflexivity].
    assert (OK : bytes_ok [x mod 256; 90]) by (repeat constructor; unfold is_byte; try lia; apply Z.mod_pos_bound; lia).
    assert (Q : forall b, isblock 2 b -> isblock 2 (xorl b [x mod 256; 90])). { intros b [Lb Ob]. split; [rewrite xorl_length, Lb; reflexivity|apply xorl_ok; assumption]. }
    constructor; cbn [bsz enc dec]; [lia|exact Q|exact Q|]. intros b [Lb Ob]. apply xorl_cancel_r. cbn [length]. lia.
Qed.
Example C118_instance : exists ct, ies_encrypt addc toyi (coins addc 77 ++ [1; 2; 3]) (addp 5) [9; 8; 7] [1] [2] = Ok ct /\ length ct = 12%nat /\ ies_decrypt addc toyi 5 ct [1] [2] = Ok [9; 8; 7] /\ ies_decrypt addc toyi 5 ct [1] [3] = Err.
Proof. eexists. split; [vm_compute; reflexivity|]. split; [reflexivity|]. split; vm_compute; reflexivity. Qed.
Example C119_instance : ies_encrypt addc toyi [0; 1] (addp 5) [9] [] [] = Err /\ (forall R, on_curve addc R = true -> 0 <= fst (cmul addc R (big_bytes 5))).
Proof. split; [vm_compute; reflexivity|]. intros R _. cbn. apply Z.mod_pos_bound. lia. Qed.
Example C120_instance : (forall k, length k = iK toyi -> iC toyi k <> None) /\ (2 <= byteceil (bitlen (cN addc)))%nat /\ ies_encrypt addc toyi (coins addc 0 ++ [1; 2]) (addp 5) [9] [] [] = Panic.
Proof. split; [intros [|x [|]] H; try discriminate H; discriminate|]. split; [vm_compute; lia|vm_compute; reflexivity]. Qed.
Definition C118_C120 := (C118_ecies_encrypt_carries, C118_ecies_roundtrip, C118_ecies_encrypt_total, C118_ecies_empty_refuted, C119_ecies_decrypt_exact, C119_ecies_shift_refuted, C120_ecies_decrypt_panics_exact, C120_ecies_decrypt_panics_refuted, C120_ecies_sizes, C120_ecies_aes256_sha384_refuted, C120_ecies_zero_ephemeral_refuted, toyi_fit, addc_lawful).
Print Assumptions C118_C120.
