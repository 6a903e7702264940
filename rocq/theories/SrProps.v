(** Theorems about sdsa and rabin. *)
From Verif Require Import Base BigModel NumLib ModRw ElgProofs CurveModel CurveSpec ToyCurve EcSigProofs2 SrModel SrSpec SrProofs SrProofs2.
From Coq Require Import Znumtheory.
Set Implicit Arguments. Unset Strict Implicit.
Local Open Scope Z_scope.

(** ** C105 Schnorr signatures over a DSA group *)
Definition sdsa_key (key : sdsa_priv) : Prop := schnorr_key (sP (spub key)) (sQ (spub key)) (sG (spub key)) (sY (spub key)) (sX key).

(** GenerateKey makes such a key. *)
Theorem C105_generate : forall p q g rd key rd', 1 < p -> 1 < q -> 0 < g -> g ^ q mod p = 1 -> bytes_ok rd ->
  sdsa_generate p q g rd = Ok (key, rd') -> sdsa_key key /\ sX key < q.
Proof.
  intros p q g rd key rd' Hp Hq Hg Ho Hrd. unfold sdsa_generate. destruct (until _ rd) as [[x r]| |] eqn:E; try discriminate. cbn [rbind fst snd].
  assert (Hx : 0 < x < q).
  { apply (until_inv (Q := fun k => 0 < k < q)) in E; [tauto| |exact Hrd]. clear. intros rd o rd' Hr E. destruct (read_full _ rd) as [[b r1]| |] eqn:Er; try discriminate.
    cbn [rbind fst snd] in E. injection E as <- <-. apply read_full_ok in Er; auto. destruct Er as (_ & Hb & Hr1 & _). split; [exact Hr1|]. pose proof (be_val_bound Hb).
    destruct (Z.eqb_spec (be_val b) 0); cbn [negb andb]; auto. destruct (Z.ltb_spec (be_val b) q); auto. lia. }
  unfold big_exp. destruct (Z.ltb_spec x 0); [lia|]. rewrite powm_spec by lia. cbn [rbind]. intros E'. injection E' as <- <-. cbn. split; [|lia].
  unfold sdsa_key, schnorr_key. cbn. auto 10 with zarith.
Qed.
(** Verify accepts exactly the Schnorr pairs. *)
Theorem C105_accepts : forall h key data r s, hasher_ok h -> sdsa_key key ->
  let u := spub key in
  sdsa_verify h u data r s = Ok true <->
  0 < r /\ 0 < s < sQ u /\ schnorr_pair (hsum h) (sP u) (sQ u) (sG u) (sX key) (byteceil (bitlen (sP u))) data r s.
Proof. intros. now apply sd_accepts. Qed.
(** Defect: it panics exactly on an r longer than the digest. *)
Theorem C105_verify_total_refuted : forall h key data r s, sdsa_key key ->
  (sdsa_verify h (spub key) data r s = Panic <-> 256 ^ Z.of_nat (hsize h) <= r /\ 0 < s < sQ (spub key)).
Proof. intros. now apply sd_panics. Qed.
(** SignUsingK tries the same nonce up to ten times without resetting the hash: after j failures the digest
    is that of j+1 copies of g^k || message.  A pair that comes of the first try is accepted; a pair that
    comes of a later try is accepted exactly when the digests of one and of j+1 copies collide. *)
Theorem C105_sign_with : forall h key data k, hasher_ok h -> sdsa_key key -> 0 <= k < sQ (spub key) ->
  let u := spub key in
  let copies j := concat (repeat (be_bytes (byteceil (bitlen (sP u))) (sG u ^ k mod sP u) ++ data) (S j)) in
  let r j := be_val (hsum h (copies j)) in
  let s j := (k + r j * sX key) mod sQ u in
  let bad j := r j mod sQ u = 0 \/ s j = 0 in
  (exists j, (j < 10)%nat /\ ~ bad j /\ (forall i, (i < j)%nat -> bad i) /\ sdsa_sign_k h k key data = Ok (r j, s j) /\
     (sdsa_verify h u data (r j) (s j) = Ok true <-> hsum h (copies j) = hsum h (copies 0%nat)))
  \/ ((forall j, (j < 10)%nat -> bad j) /\ sdsa_sign_k h k key data = Err).
Proof.
  intros h key data k Hh K Hk u copies r s bad. pose proof (@sd_try h key K k data Hk 10 0) as T. pose proof (@sd_sign_k h key K k data Hk) as E. rewrite <- E in T. clear E.
  destruct (sdsa_sign_k h k key data) as [[r0 s0]| |].
  - left. destruct T as (j & Hj & E1 & E2 & H1 & H2 & H3). exists j. change (r0 = r j) in E1. rewrite E1 in E2. change (s0 = s j) in E2. rewrite E1 in H1. rewrite E2 in H2.
    split; [lia|]. split; [intros [B|B]; contradiction|]. split; [intros i Hi; apply H3; lia|]. rewrite E1, E2. split; [reflexivity|].
    pose proof K as (HP & HQ & HG & HO & HX & HY). fold u in HP, HQ, HG, HO, HY.
    pose proof (@C105_accepts h key data (r j) (s j) Hh K) as CA. cbv zeta in CA. fold u in CA. rewrite CA. clear CA. split.
    + intros (_ & _ & k' & Hk' & Er & Es). assert (Ek : k' = k).
      { rewrite <- (Z.mod_small k' (sQ u)), <- (Z.mod_small k (sQ u)) by (first [exact Hk' | exact Hk]). unfold s in Es. set (rj := r j) in *.
        replace k' with (k' + rj * sX key - rj * sX key) by ring. rewrite Zminus_mod, <- Es, <- Zminus_mod. f_equal. ring. }
      subst k'. assert (C0 : copies 0%nat = be_bytes (byteceil (bitlen (sP u))) (sG u ^ k mod sP u) ++ data) by (unfold copies; cbn [repeat concat]; apply app_nil_r).
      rewrite C0. unfold r in Er. destruct (Hh (copies j)) as [L1 O1]. destruct (Hh (be_bytes (byteceil (bitlen (sP u))) (sG u ^ k mod sP u) ++ data)) as [L2 O2].
      rewrite <- (be_bytes_val O1 L1), <- (be_bytes_val O2 L2). now rewrite Er.
    + intros Ec. assert (Hr0 : 0 <= r j) by (unfold r; destruct (Hh (copies j)) as [_ O1]; pose proof (be_val_bound O1); lia).
      assert (Hrn : r j <> 0) by (intros Z0; rewrite Z0 in H1; apply H1; apply Zmod_0_l). split; [lia|].
      pose proof (Z.mod_pos_bound (k + r j * sX key) (sQ u) ltac:(lia)) as B. fold (s j) in B. split; [lia|]. exists k. split; [exact Hk|]. split; [|reflexivity].
      unfold r. rewrite Ec. unfold copies. cbn [repeat concat]. now rewrite app_nil_r.
  - right. split; [|reflexivity]. intros j Hj. apply T. lia.
  - contradiction.
Qed.
(** Defect: so there is a key, digest, nonce and message for which what SignUsingK returns is rejected. *)
Theorem C105_retry_refuted : exists h key data k r s, hasher_ok h /\ sdsa_key key /\ prime (sP (spub key)) /\ prime (sQ (spub key)) /\ 0 < k < sQ (spub key) /\
  sdsa_sign_k h k key data = Ok (r, s) /\ sdsa_verify h (spub key) data r s = Ok false.
Proof.
  exists toy_hash, (SdsaPriv (SdsaPub 263 131 4 (4 ^ 7 mod 263)) 7), [1], 9, 43409, 83. split; [exact toy_hash_ok|].
  split; [unfold sdsa_key, schnorr_key; cbn [spub sP sQ sG sY sX]; repeat split; vm_compute; reflexivity|].
  split; [apply primeb_prime; vm_compute; reflexivity|]. split; [apply primeb_prime; vm_compute; reflexivity|]. cbn [spub sQ]. split; [lia|]. split; vm_compute; reflexivity.
Qed.
(** Sign is SignUsingK for a nonce in 1..Q-1, never panics, and refuses a Q whose bits are not whole bytes;
    the byte forms carry the pair and never panic. *)
Theorem C105_sign : forall h rd key data, hasher_ok h -> sdsa_key key -> bytes_ok rd ->
  sdsa_sign h rd key data <> Panic /\
  ((bitlen (sQ (spub key)) mod 8)%nat <> 0%nat -> sdsa_sign h rd key data = Err) /\
  forall r s, sdsa_sign h rd key data = Ok (r, s) -> exists k, 0 < k < sQ (spub key) /\ sdsa_sign_k h k key data = Ok (r, s).
Proof.
  intros h rd key data Hh K Hrd. split; [now apply sd_sign_total|]. split; [|intros r s; now apply sd_sign_inv].
  intros Hb. unfold sdsa_sign. apply Nat.eqb_neq in Hb. now rewrite Hb.
Qed.
Theorem C105_bytes : forall h rd key data, hasher_ok h -> sdsa_key key -> bytes_ok rd ->
  sdsa_sign_bytes h rd key data <> Panic /\
  (forall r s, sdsa_sign h rd key data = Ok (r, s) -> exists sig, sdsa_sign_bytes h rd key data = Ok sig /\
     length sig = (hsize h + byteceil (bitlen (sQ (spub key))))%nat /\
     sdsa_verify_bytes h (spub key) data sig = sdsa_verify h (spub key) data r s) /\
  (forall sig, bytes_ok sig -> sdsa_verify_bytes h (spub key) data sig <> Panic).
Proof.
  intros h rd key data Hh K Hrd. pose proof K as (HP & HQ & HG & HO & HX & HY). set (u := spub key) in *.
  assert (MB : forall x, 0 <= x mod sQ u < 256 ^ Z.of_nat (byteceil (bitlen (sQ u)))).
  { clear -HQ. intros x. pose proof (Z.mod_pos_bound x (sQ u) ltac:(lia)). pose proof (@byteceil_bound (sQ u) ltac:(lia)). lia. }
  assert (F : forall r s, sdsa_sign h rd key data = Ok (r, s) -> 0 <= r < 256 ^ Z.of_nat (hsize h) /\ 0 <= s < 256 ^ Z.of_nat (byteceil (bitlen (sQ u)))).
  { intros r s E. apply (sd_sign_inv Hrd) in E as (k & Hk & E).
    destruct (@C105_sign_with h key data k Hh K ltac:(lia)) as [(j & _ & _ & _ & E' & _)|[_ E']]; rewrite E in E'; [|discriminate]. cbv zeta in E'. injection E' as E1 E2. split.
    - rewrite E1. apply sd_hash_bound. exact Hh.
    - rewrite E2. apply MB. }
  split; [|split].
  - unfold sdsa_sign_bytes. pose proof (proj1 (@C105_sign h rd key data Hh K Hrd)) as NP. destruct (sdsa_sign h rd key data) as [[r s]| |] eqn:E; cbn [rbind fst snd]; try congruence.
    destruct (F r s eq_refl) as [F1 F2]. rewrite !fill_bytes_fits by assumption. discriminate.
  - intros r s E. destruct (F r s E) as [F1 F2]. unfold sdsa_sign_bytes. rewrite E. cbn [rbind fst snd]. fold u. rewrite !fill_bytes_fits by assumption. cbn [rbind].
    eexists. split; [reflexivity|]. rewrite app_length, !be_bytes_length. split; [reflexivity|]. unfold sdsa_verify_bytes. rewrite app_length, !be_bytes_length. rewrite Nat.eqb_refl. cbn [negb].
    rewrite firstn_app_exact, skipn_app_exact by apply be_bytes_length. rewrite !be_val_fit by assumption. reflexivity.
  - intros sig Hs. unfold sdsa_verify_bytes. destruct (Nat.eqb_spec (length sig) (hsize h + byteceil (bitlen (sQ u)))) as [El|]; cbn [negb]; [|discriminate].
    intros C. apply (sd_panics h K) in C as [C _]. pose proof (be_val_bound (bytes_ok_firstn (hsize h) Hs)) as B. rewrite firstn_length_le in B by lia. lia.
Qed.
Example C105_instance : let key := SdsaPriv (SdsaPub 263 131 4 (4 ^ 7 mod 263)) 7 in
  sdsa_key key /\ sdsa_sign toy_hash [200; 5] key [1; 2] = Ok (56821, 36) /\ sdsa_verify toy_hash (spub key) [1; 2] 56821 36 = Ok true /\
  sdsa_verify toy_hash (spub key) [1; 3] 56821 36 = Ok false /\ sdsa_verify toy_hash (spub key) [1; 2] 65536 36 = Panic.
Proof. cbv zeta. split; [unfold sdsa_key, schnorr_key; cbn [spub sP sQ sG sY sX]; repeat split; vm_compute; reflexivity|]. repeat split; vm_compute; reflexivity. Qed.

(** ** C106 Rabin encryption *)
(** For a key of two different primes that are 3 modulo 4, and a plaintext that as a number is between 1 and
    N-1, Decrypt of Encrypt gives a byte string of the same length, the same square modulo N and the same
    SHA-256: the plaintext, or a collision of SHA-256 with it. *)
Theorem C106_roundtrip : forall sha p q n pl, (forall m, length (sha m) = 32%nat) -> rabin_key p q n -> bytes_ok pl -> Z.of_nat (length pl) < 2 ^ 32 -> 0 < be_val pl < n ->
  exists ct d, rab_encrypt sha n pl = Ok ct /\ rab_decrypt sha p q n ct = Ok d /\
    (d = pl \/ d <> pl /\ bytes_ok d /\ sha d = sha pl /\ length d = length pl /\ (be_val d * be_val d) mod n = (be_val pl * be_val pl) mod n).
Proof.
  intros sha p q n pl Hs K Ho Hl Hm. set (m := be_val pl) in *. unfold rab_encrypt. rewrite sq_mul_ok by lia. cbn [rbind]. fold m. rewrite Z.pow_2_r.
  set (c := (m * m) mod n). pose proof (Z.mod_pos_bound (m * m) n ltac:(lia)) as Hc. fold c in Hc.
  assert (Hc0 : c <> 0).
  { intros E. apply Z.mod_divide in E; [|lia]. pose proof K as (Kp & Kq & Kne & _ & _ & Kn).
    assert ((p * q | m)).
    { apply crt; auto; apply sqrt_zero; auto; eapply Z.divide_trans; [|exact E| |exact E]; rewrite Kn; [exists q; ring|exists p; ring]. }
    rewrite <- Kn in H. apply Z.divide_pos_le in H; lia. }
  destruct (@roots_ok p q n c m K ltac:(apply Z.mod_mod; lia)) as (m1 & m2 & m3 & m4 & Er & HF & HE).
  pose proof (@first_root_ok sha (sha pl) (length pl) [m1; m2; m3; m4]) as FR.
  assert (HF0 : Forall (fun m => 0 <= m) [m1; m2; m3; m4]) by (eapply Forall_impl; [|exact HF]; cbv beta; intros; lia). specialize (FR HF0).
  eexists. pose proof (@dec_parts sha Hs p q n pl c ltac:(lia) Hl) as ED. destruct (Z.eqb_spec c 0); [contradiction|]. rewrite Er in ED. cbn [rbind] in ED.
  assert (Epl : pl = be_bytes (length pl) m) by (symmetry; now apply be_bytes_val).
  pose proof (be_val_bound Ho) as Bp. fold m in Bp.
  destruct (first_root sha [m1; m2; m3; m4] (sha pl) (length pl)) as [d| |].
  - exists d. split; [reflexivity|]. split; [exact ED|]. destruct FR as (x & Hx & Hb & -> & Hd). rewrite Forall_forall in HF. destruct (HF x Hx) as [Hx0 Hx2].
    destruct (list_eq_dec Z.eq_dec (be_bytes (length pl) x) pl); [now left|right]. split; [assumption|]. split; [apply be_bytes_ok|]. split; [exact Hd|]. split; [apply be_bytes_length|].
    rewrite be_val_fit by lia. exact Hx2.
  - exfalso. apply Exists_exists in HE as (x & Hx & Dx). rewrite Forall_forall in HF. destruct (HF x Hx) as [Hx0 _].
    assert (x = m) by (destruct Dx as [t Et]; assert (t = 0) by nia; subst t; lia). subst x. apply (FR m Hx); [lia|]. now rewrite <- Epl.
  - contradiction.
Qed.
(** Defect: a plaintext that is a multiple of N, in particular one of zero bytes only or the empty one,
    is encrypted but cannot be decrypted. *)
Theorem C106_zero_refuted : forall sha p q n pl, (forall m, length (sha m) = 32%nat) -> 0 < n -> Z.of_nat (length pl) < 2 ^ 32 -> be_val pl mod n = 0 ->
  exists ct, rab_encrypt sha n pl = Ok ct /\ rab_decrypt sha p q n ct = Err.
Proof.
  intros sha p q n pl Hs Hn Hl Hm. unfold rab_encrypt. rewrite sq_mul_ok by lia. cbn [rbind]. rewrite Z.pow_2_r, Z.mul_mod, Hm, Z.mul_0_r, Zmod_0_l by lia.
  eexists. split; [reflexivity|]. rewrite (@dec_parts sha Hs p q n pl 0 ltac:(lia) Hl). reflexivity.
Qed.
(** Defect: neither is a plaintext of N or more refused, and it never comes back. *)
Theorem C106_large_refuted : forall sha p q n pl, (forall m, length (sha m) = 32%nat) -> 0 < p -> 0 < q -> 0 < n -> bytes_ok pl -> Z.of_nat (length pl) < 2 ^ 32 -> n <= be_val pl ->
  exists ct, rab_encrypt sha n pl = Ok ct /\ rab_decrypt sha p q n ct <> Ok pl.
Proof.
  intros sha p q n pl Hs Hp Hq Hn Ho Hl Hm. unfold rab_encrypt. rewrite sq_mul_ok by lia. cbn [rbind]. set (c := _ mod n). assert (Hc : 0 <= c < n) by (apply Z.mod_pos_bound; lia).
  eexists. split; [reflexivity|]. rewrite (@dec_parts sha Hs p q n pl c ltac:(lia) Hl). destruct (Z.eqb_spec c 0) as [E|E]; [discriminate|].
  destruct (@roots_total p q n c Hp Hq Hn) as (m1 & m2 & m3 & m4 & -> & HF). cbn [rbind].
  assert (HF0 : Forall (fun m => 0 <= m) [m1; m2; m3; m4]) by (eapply Forall_impl; [|exact HF]; cbv beta; intros; lia).
  pose proof (@first_root_ok sha (sha pl) (length pl) _ HF0) as FR. destruct (first_root _ _ _ _) as [d| |]; try discriminate. intros [= ->].
  destruct FR as (x & Hx & Hb & Ed & _). rewrite Forall_forall in HF. pose proof (HF x Hx) as Hx0. assert (Ev : be_val pl = x) by (rewrite Ed at 1; apply be_val_fit; lia).
  assert (n = x) by lia. apply E. unfold c. rewrite Ev, <- H. rewrite Z.pow_2_r, Z.mul_mod, Z_mod_same_full by lia. reflexivity.
Qed.
(** Decrypt never panics, whatever it is given, and what it returns has the length and the SHA-256 that the
    ciphertext says. *)
Theorem C106_decrypt_total : forall sha p q n ct, 0 < p -> 0 < q -> 0 < n -> bytes_ok ct ->
  rab_decrypt sha p q n ct <> Panic /\
  forall d, rab_decrypt sha p q n ct = Ok d -> (36 < length ct)%nat /\ Z.of_nat (length d) = be_val (firstn 4 ct) /\ sha d = skipn (length ct - 32) ct /\ bytes_ok d.
Proof.
  intros sha p q n ct Hp Hq Hn Ho. unfold rab_decrypt. destruct (Nat.leb_spec (length ct) 36) as [L|L]; [split; [discriminate|intros ?; discriminate]|]. cbv zeta.
  set (c := be_val (slice _ _ ct)). destruct (@roots_total p q n c Hp Hq Hn) as (m1 & m2 & m3 & m4 & -> & HF). cbn [rbind].
  assert (HF0 : Forall (fun m => 0 <= m) [m1; m2; m3; m4]) by (eapply Forall_impl; [|exact HF]; cbv beta; intros; lia).
  match goal with |- first_root _ _ ?h ?len <> _ /\ _ => pose proof (@first_root_ok sha h len _ HF0) as FR; destruct (first_root _ _ h len) as [d| |] end.
  - split; [discriminate|]. intros d' [= <-]. destruct FR as (x & _ & _ & -> & Hd). split; [exact L|]. rewrite be_bytes_length. pose proof (be_val_bound (bytes_ok_firstn 4 Ho)) as B.
    split; [lia|]. split; [exact Hd|apply be_bytes_ok].
  - split; [discriminate|intros ?; discriminate].
  - contradiction.
Qed.
(** Defect: with the public key of the empty string (N = 0) Encrypt panics. *)
Theorem C106_zero_modulus_refuted : forall sha pl, rab_encrypt sha 0 pl = Panic.
Proof. reflexivity. Qed.
Example C106_instance : rabin_key 7 11 77 /\
  (let sha b := firstn 32 (b ++ repeat 0 32) in
   exists ct, rab_encrypt sha 77 [0; 40] = Ok ct /\ length ct = 37%nat /\ rab_decrypt sha 7 11 77 ct = Ok [0; 40]).
Proof.
  split; [split; [apply primeb_prime; vm_compute; reflexivity|]; split; [apply primeb_prime; vm_compute; reflexivity|]; repeat split; try reflexivity; discriminate|].
  cbv zeta. eexists. split; [vm_compute; reflexivity|]. split; vm_compute; reflexivity.
Qed.

(** ** C107 Rabin key generation *)
(** On numbers that are 3 modulo 4 the primality test is the Euler test to the one base 10^12+1 ... *)
Theorem C107_test : forall fuel n, (5 <= fuel)%nat -> 0 < n -> n mod 4 = 3 ->
  (is_prime_number fuel n = Ok (Some true) <-> let e := 1000000000001 ^ ((n - 1) / 2) mod n in e = 1 \/ e = n - 1) /\
  (is_prime_number fuel n = Ok (Some true) \/ is_prime_number fuel n = Ok (Some false)).
Proof.
  intros fuel n Hf Hn H4. rewrite (prime_test_eq Hf Hn H4). change mr_base with 1000000000001. set (e := _ mod n).
  destruct (Z.eqb_spec e 1), (Z.eqb_spec e (n - 1)); cbn [orb]; split; auto; cbv zeta; split; auto; try discriminate. intros [|]; contradiction.
Qed.
(** ... so every prime that is 3 modulo 4 passes ... *)
Theorem C107_primes_pass : forall fuel p, (5 <= fuel)%nat -> prime p -> p mod 4 = 3 -> is_prime_number fuel p = Ok (Some true).
Proof. intros fuel p Hf Hp H4. pose proof (prime_gt Hp). rewrite prime_test_eq by (auto; lia). now rewrite prime_accepted. Qed.
(** ... but composites do too (defect). *)
Theorem C107_composite_refuted : forall fuel, (5 <= fuel)%nat -> Forall (fun n => ~ prime n /\ n mod 4 = 3 /\ is_prime_number fuel n = Ok (Some true)) [175; 775; 4375].
Proof.
  intros fuel Hf.
  assert (G : forall n d, 1 < d -> d < n -> n mod d = 0 -> n mod 4 = 3 -> (mr_base ^ ((n - 1) / 2) mod n =? 1) || (mr_base ^ ((n - 1) / 2) mod n =? n - 1) = true ->
    ~ prime n /\ n mod 4 = 3 /\ is_prime_number fuel n = Ok (Some true)).
  { intros n d H1 H2 Hd H4 HE. split; [|split; [exact H4|rewrite prime_test_eq by (auto; lia); now rewrite HE]].
    intros Hp. apply Z.mod_divide in Hd; [|lia]. apply prime_divisors in Hd; [lia|exact Hp]. }
  assert (PW : forall n, 0 < n -> (powm mr_base ((n - 1) / 2) n =? 1) || (powm mr_base ((n - 1) / 2) n =? n - 1) = true ->
    (mr_base ^ ((n - 1) / 2) mod n =? 1) || (mr_base ^ ((n - 1) / 2) mod n =? n - 1) = true).
  { intros n Hn. rewrite powm_spec; [auto|lia|apply Z.div_pos; lia]. }
  assert (Q1 : (powm mr_base ((175 - 1) / 2) 175 =? 1) || (powm mr_base ((175 - 1) / 2) 175 =? 175 - 1) = true) by (vm_compute; reflexivity).
  assert (Q2 : (powm mr_base ((775 - 1) / 2) 775 =? 1) || (powm mr_base ((775 - 1) / 2) 775 =? 775 - 1) = true) by (vm_compute; reflexivity).
  assert (Q3 : (powm mr_base ((4375 - 1) / 2) 4375 =? 1) || (powm mr_base ((4375 - 1) / 2) 4375 =? 4375 - 1) = true) by (vm_compute; reflexivity).
  apply PW in Q1, Q2, Q3; [|lia|lia|lia].
  constructor; [|constructor; [|constructor; [|constructor]]]; (eapply (G _ 5); [lia|lia|reflexivity|reflexivity|assumption]).
Qed.
(** The test ends for every number above 1; for 1 its search never ends. *)
Theorem C107_test_ends : (forall n, 1 < n -> exists f b, forall fuel, (f <= fuel)%nat -> is_prime_number fuel n = Ok (Some b)) /\
  forall fuel, is_prime_number fuel 1 = Ok None.
Proof. split; [exact prime_test_ends|exact prime_test_one]. Qed.
(** The numbers of a generated key are 3 modulo 4 and pass the test, and N is their product ... *)
Lemma gen_prime_ok tf len : forall fuel rd n rd', gen_prime fuel tf len rd = Ok (Some (n, rd')) -> n mod 4 = 3 /\ is_prime_number tf n = Ok (Some true).
Proof.
  induction fuel as [|f IH]; intros rd n rd' H; cbn [gen_prime] in H; [discriminate|]. destruct (gen_number len rd) as [m r]. destruct (is_prime_number tf m) as [[b|]| |] eqn:E; try discriminate. cbn [rbind] in H.
  destruct b; cbn [andb] in H; [|now apply IH in H]. destruct (Z.eqb_spec (m mod 4) 3); [|now apply IH in H]. injection H as <- _. auto.
Qed.
Theorem C107_generated : forall fuel tf len rd p q n, rab_generate fuel tf len rd = Ok (Some (p, q, n)) ->
  n = p * q /\ p mod 4 = 3 /\ q mod 4 = 3 /\ is_prime_number tf p = Ok (Some true) /\ is_prime_number tf q = Ok (Some true).
Proof.
  intros fuel tf len rd p q n. unfold rab_generate. destruct (gen_prime fuel tf len rd) as [[[p' r]|]| |] eqn:E1; try discriminate. cbn [rbind].
  destruct (gen_prime fuel tf len r) as [[[q' r']|]| |] eqn:E2; try discriminate. cbn [rbind]. intros [= <- <- <-].
  apply gen_prime_ok in E1, E2. intuition auto.
Qed.
(** ... but they need be neither prime nor different, and then plaintexts are lost (defect): here for both
    kinds, whatever the hash. *)
Theorem C107_key_refuted : forall sha, (forall m, length (sha m) = 32%nat) ->
  Forall (fun t => let '(rd, p, q, m) := t in rab_generate 3 10 1 rd = Ok (Some (p, q, p * q)) /\ 0 < m < p * q /\
    exists ct, rab_encrypt sha (p * q) [m] = Ok ct /\ rab_decrypt sha p q (p * q) ct <> Ok [m]) [([175; 3], 175, 3, 2); ([7; 7], 7, 7, 2)].
Proof.
  intros sha Hs.
  assert (G : forall p q m, 0 < p -> 0 < q -> 0 <= m < 256 -> (match rab_roots p q ((m ^ 2) mod (p * q)) (p * q) with Ok (a, b, c, d) => negb (existsb (Z.eqb m) [a; b; c; d]) && forallb (Z.leb 0) [a; b; c; d] | _ => false end) = true ->
    exists ct, rab_encrypt sha (p * q) [m] = Ok ct /\ rab_decrypt sha p q (p * q) ct <> Ok [m]).
  { intros p q m Hp Hq Hm HR. assert (Hpq : 0 < p * q) by nia. unfold rab_encrypt. assert (Ev : be_val [m] = m) by (unfold be_val; cbn; lia). rewrite Ev. rewrite sq_mul_ok by lia. cbn [rbind].
    eexists. split; [reflexivity|]. set (c := m ^ 2 mod (p * q)) in *. assert (Hc : 0 <= c) by (apply Z.mod_pos_bound; lia). rewrite (@dec_parts sha Hs p q (p * q) [m] c Hc ltac:(cbn; lia)).
    destruct (c =? 0); [discriminate|]. destruct (rab_roots p q c (p * q)) as [[[[a b] e] d]| |]; try discriminate. cbn [rbind].
    apply andb_true_iff in HR as [HN HP0]. apply negb_true_iff in HN. rewrite forallb_forall in HP0.
    assert (HF : Forall (fun m => 0 <= m) [a; b; e; d]) by (apply Forall_forall; intros x Hx; apply Z.leb_le, HP0, Hx).
    pose proof (@first_root_ok sha (sha [m]) (length [m]) _ HF) as FR. destruct (first_root _ _ _ _) as [dd| |]; try discriminate. intros [= ->].
    destruct FR as (x & Hx & Hb & Ed & _). assert (Ex : m = x). { rewrite <- Ev, Ed. apply be_val_fit. rewrite Forall_forall in HF. pose proof (HF x Hx). lia. }
    assert (existsb (Z.eqb m) [a; b; e; d] = true) by (apply existsb_exists; exists x; split; [exact Hx|apply Z.eqb_eq, Ex]). congruence. }
  constructor; [|constructor; [|constructor]]; (split; [vm_compute; reflexivity|]; split; [lia|]; apply G; [lia|lia|lia|vm_compute; reflexivity]).
Qed.
(** Defect: when the random source ends or fails, generation never returns. *)
Theorem C107_reader_refuted : forall len rd, (length rd < len)%nat -> forall fuel tf, rab_generate fuel tf len rd = Ok None.
Proof.
  intros len rd Hl fuel tf. unfold rab_generate. assert (G : forall fuel rd, (length rd < len)%nat -> gen_prime fuel tf len rd = Ok None).
  { clear. induction fuel as [|f IH]; intros rd Hl; cbn [gen_prime]; [reflexivity|]. unfold gen_number, read_full. destruct (Nat.leb_spec len (length rd)); [lia|].
    cbn [rbind is_prime_number]. unfold is_prime_number. rewrite Zmod_0_l. cbn [Z.eqb rbind andb]. apply IH. cbn. lia. }
  now rewrite G.
Qed.
Example C107_instance : is_prime_number 5 1000003 = Ok (Some true) /\ is_prime_number 5 1000007 = Ok (Some false) /\ rab_generate 5 20 1 [8; 7; 9; 13; 11] = Ok (Some (7, 11, 77)).
Proof. repeat split; vm_compute; reflexivity. Qed.

Definition C105_C107 := (C105_generate, C105_accepts, C105_verify_total_refuted, C105_sign_with, C105_retry_refuted, C105_sign, C105_bytes,
  C106_roundtrip, C106_zero_refuted, C106_large_refuted, C106_decrypt_total, C106_zero_modulus_refuted,
  C107_test, C107_primes_pass, C107_composite_refuted, C107_test_ends, C107_generated, C107_key_refuted, C107_reader_refuted).
Print Assumptions C105_C107.
