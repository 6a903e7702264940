(** C112-C115: KCDSA keys, signatures, their byte form, and domain parameters. *)
From Verif Require Import Base BigModel NumLib CurveModel CurveSpec ToyCurve KcModel KcSpec KcProofs KcProofs2 KcProofs3 KcProofs4.
From Coq Require Import Znumtheory.
Set Implicit Arguments. Unset Strict Implicit.
Local Open Scope Z_scope.

(** the key pair (p, q, g, y; x) is one of KCDSA *)
Notation genuine key := (kcdsa_key (kcP (kcpar (kcpub key))) (kcQ (kcpar (kcpub key))) (kcG (kcpar (kcpub key))) (kcY (kcpub key)) (kcX key)).
Notation qbits key := (bitlen (kcQ (kcpar (kcpub key)))).
Notation plen key := (byteceil (bitlen (kcP (kcpar (kcpub key))))).
(** (r, s) signs data with some nonce *)
Notation signs h key data r s := (kcdsa_pair (hsum h) (hblock h) (qbits key) (plen key) (kcP (kcpar (kcpub key))) (kcQ (kcpar (kcpub key))) (kcG (kcpar (kcpub key)))
  (kcY (kcpub key)) (kcX key) data r s).

(** C112 *)
Theorem C112_kcdsa_verify_exact h key data r s : hasher_ok h -> genuine key -> (Nat.modulo (qbits key) 8 = 0 \/ byteceil (qbits key) <= hsize h)%nat ->
  (kc_verify h (kcpub key) data r s = Ok true <-> 0 < r /\ 0 < s < kcQ (kcpar (kcpub key)) /\ signs h key data r s) /\
  (exists v, kc_verify h (kcpub key) data r s = Ok v).
Proof. intros Hh K Hb. split; [exact (accepts Hh K Hb data r s)|exact (verify_total Hh K data r s Hb)]. Qed.
Theorem C112_kcdsa_generate_key a rd key rd' : 1 < kcP a -> prime (kcQ a) -> 0 < kcG a -> kcG a ^ kcQ a mod kcP a = 1 -> bytes_ok rd ->
  (kc_generate a rd = Ok (key, rd') -> genuine key /\ kcpar (kcpub key) = a) /\ kc_generate a rd <> Panic.
Proof.
  intros HP HQ HG HO Hrd. split.
  - intros E. destruct (@generate_ok a rd key rd' HP HQ HG HO Hrd E) as (K & E1 & _). split; [exact K|exact E1].
  - apply generate_np; [exact HP|]. destruct HQ as [Q1 _]. exact Q1.
Qed.
(** Sign's result verifies; the block of the digest must not be longer than P *)
Theorem C112_kcdsa_sign_verify h rd key data : hasher_ok h -> genuine key -> bytes_ok rd -> (hblock h <= plen key)%nat ->
  (forall r s, kc_sign h rd key data = Ok (r, s) -> kc_verify h (kcpub key) data r s = Ok true) /\ kc_sign h rd key data <> Panic.
Proof.
  intros Hh K Hrd Hw. split; [|exact (@sign_np h key Hh K rd data Hw Hrd)]. intros r s E. exact (proj1 (@sign_good h key Hh K rd data r s Hw Hrd E)).
Qed.
Theorem C112_kcdsa_odd_q h rd key data : (Nat.modulo (qbits key) 8 <> 0)%nat -> kc_sign h rd key data = Err.
Proof. intros Hb. now apply guard_err. Qed.

(** C113 *)
Theorem C113_kcdsa_sign_bytes h rd key data : hasher_ok h -> genuine key -> bytes_ok rd -> (hblock h <= plen key)%nat ->
  (forall sig, kc_sign_bytes h rd key data = Ok sig ->
    length sig = (Nat.min (hsize h) (byteceil (qbits key)) + byteceil (qbits key))%nat /\ kc_verify_bytes h (kcpub key) data sig = Ok true) /\
  kc_sign_bytes h rd key data <> Panic.
Proof.
  intros Hh K Hrd Hw. split; [|exact (@sign_bytes_np h key Hh K rd data Hw Hrd)]. intros sig E.
  destruct (@sign_bytes_good h key Hh K rd data sig Hw Hrd E) as (L & V & _). split; [exact L|exact V].
Qed.
Theorem C113_kcdsa_verify_bytes h key data sig : hasher_ok h -> genuine key -> (Nat.modulo (qbits key) 8 = 0 \/ byteceil (qbits key) <= hsize h)%nat ->
  let n := Nat.min (hsize h) (byteceil (qbits key)) in
  kc_verify_bytes h (kcpub key) data sig = Ok true <->
  length sig = (n + byteceil (qbits key))%nat /\
  let r := be_val (firstn n sig) in let s := be_val (skipn n sig) in 0 < r /\ 0 < s < kcQ (kcpar (kcpub key)) /\ signs h key data r s.
Proof. intros Hh K Hb. exact (verify_bytes_iff Hh K data sig Hb). Qed.
(** A digest block longer than P: no signature is ever made, and Sign crashes on the first usable nonce. *)
Theorem C113_kcdsa_short_p_panics h rd key data : hasher_ok h -> genuine key -> bytes_ok rd -> (plen key < hblock h)%nat ->
  (forall rs, kc_sign h rd key data <> Ok rs) /\
  ((Nat.modulo (qbits key) 8 = 0)%nat -> (byteceil (qbits key) <= length rd)%nat ->
   be_val (firstn (byteceil (qbits key)) rd) mod 2 ^ Z.of_nat (qbits key) + 1 < kcQ (kcpar (kcpub key)) -> kc_sign h rd key data = Panic).
Proof.
  intros Hh K Hrd Hw. split.
  - exact (@sign_short h key Hh K rd data Hw Hrd).
  - intros Hb HL HV. exact (@sign_crash h key Hh K rd data Hb Hw Hrd HL HV).
Qed.

(** C114 *)
Theorem C114_kcdsa_fast_parameters pp z rd a rd' : (1 < kB z <= kA z)%nat -> bytes_ok rd -> kc_params_fast pp z rd = Ok (a, rd') ->
  pp (kcP a) = true /\ pp (kcQ a) = true /\ bitlen (kcQ a) = kB z /\ (kcQ a | kcP a - 1) /\ 1 < kcG a < kcP a /\
  ((forall n, pp n = true -> n = 2 \/ Z.odd n = true) -> bitlen (kcP a) = kA z) /\
  (prime (kcP a) -> kcdsa_domain (kcP a) (kcQ a) (kcG a)).
Proof.
  intros HB Hrd E. destruct (@fast_ok pp z rd a rd' HB Hrd E) as ((P1 & P2 & P3 & P4 & P5 & P6) & G1 & G2 & _).
  split; [exact P1|]. split; [exact P2|]. split; [exact P5|]. split; [exact P3|]. split; [exact G1|]. split.
  - intros Hpp. apply bitlen_is; [lia|]. split; [lia|]. destruct (Z.eq_dec (kcP a) (2 ^ Z.of_nat (kA z))) as [C|C]; [|lia]. exfalso.
    assert (P2' : 2 ^ 2 <= 2 ^ Z.of_nat (kA z)) by (apply Z.pow_le_mono_r; lia). change (2 ^ 2) with 4 in P2'.
    destruct (Hpp _ P1) as [D|D]; [lia|]. rewrite C in D. replace (Z.of_nat (kA z)) with (1 + Z.of_nat (kA z - 1)) in D by lia. rewrite Z.pow_add_r in D by lia.
    change (2 ^ 1) with 2 in D. rewrite Z.odd_mul in D. discriminate.
  - intros PP. unfold kcdsa_domain. split; [|split; [exact G1|exact (G2 PP)]]. apply Z.mod_divide; [lia|exact P3].
Qed.
(** Fresh parameters, a fresh key, a signature: Verify accepts. *)
Theorem C114_kcdsa_whole_run pp z h rd a rd1 key rd2 data r s : (1 < kB z <= kA z)%nat -> hasher_ok h -> bytes_ok rd ->
  kc_params_fast pp z rd = Ok (a, rd1) -> prime (kcP a) -> prime (kcQ a) -> (hblock h <= byteceil (bitlen (kcP a)))%nat ->
  kc_generate a rd1 = Ok (key, rd2) -> kc_sign h rd2 key data = Ok (r, s) -> kc_verify h (kcpub key) data r s = Ok true.
Proof.
  intros HB Hh Hrd E PP PQ Hw EK ES. destruct (@fast_ok pp z rd a rd1 HB Hrd E) as (_ & G1 & G2 & Hr1). destruct PP as [P1 P1'] eqn:EP. clear EP.
  destruct (@generate_ok a rd1 key rd2) as (K & Ea & Hr2); try assumption; [lia|apply G2; constructor; assumption|]. 
  refine (proj1 (@sign_good h key Hh K rd2 data r s _ Hr2 ES)). rewrite Ea. exact Hw.
Qed.

(** C115 *)
Theorem C115_kcdsa_ppgf h dst bits src : hasher_ok h -> (0 < hsize h)%nat -> length dst = byteceil bits ->
  exists b, ppgf dst bits h src = Ok b /\ bytes_ok b /\ length b = byteceil bits /\ be_val b = ppgf_value (hsum h) (hsize h) src bits.
Proof. intros Hh Hs. exact (@ppgf_ok h Hh Hs dst bits src). Qed.
Theorem C115_kcdsa_generate_x q upri xkey z : hasher_ok (kH z) -> (0 < hsize (kH z))%nat -> bytes_ok xkey ->
  let v := fun src => ppgf_value (hsum (kH z)) (hsize (kH z)) src (kB z) in
  kc_x q upri xkey z = Ok (v (be_bytes (byteceil (kB z)) ((be_val xkey + v upri) mod 2 ^ Z.of_nat (kB z))) mod q).
Proof. intros Hh Hs Hk. exact (@x_ok q upri xkey z Hh Hs Hk). Qed.
(** TTAK parameters: P = 2 J Q + 1, the sizes, the generator *)
Theorem C115_kcdsa_ttak_parameters pp z rd t rd' : hasher_ok (kH z) -> (0 < hsize (kH z))%nat -> (1 < kB z)%nat -> (kB z + 4 <= kA z)%nat -> bytes_ok rd ->
  kc_params_ttak pp z rd = Ok (t, rd') ->
  let p := kcP (tPar t) in let q := kcQ (tPar t) in let g := kcG (tPar t) in
  pp p = true /\ pp q = true /\ p = 2 * tJ t * q + 1 /\ 0 < tJ t /\ (bitlen p <= kA z)%nat /\ bitlen q = kB z /\ 1 <= tCount t <= 2 ^ 24 + 1 /\
  length (tSeed t) = byteceil (kB z) /\ 0 <= g < p /\ g <> 1 /\ (prime p -> g <> 0 -> kcdsa_domain p q g).
Proof.
  intros Hh Hs HB HA Hrd E p q g. destruct (@ttak_ok pp z rd t rd' Hh Hs HB HA Hrd E) as [(J0 & LS & C & P & r & r' & Hr & G) _].
  pose proof (ttak_pq_ok Hh Hs HB P) as (T1 & T2 & T3 & T4 & T5 & T6). fold p in T1, T3, T4, G. fold q in T2, T3, T5, T6. fold g in G.
  assert (P1 : 1 < p) by nia. destruct (@ttak_g_ok pp p (tJ t) r g r' P1 ltac:(lia) Hr G) as (N1 & Bg & O & _).
  split; [exact T1|]. split; [exact T2|]. split; [exact T3|]. split; [exact J0|]. split; [exact T4|]. split; [exact T5|]. split; [lia|]. split; [exact LS|]. split; [exact Bg|]. split; [exact N1|].
  intros PP N0. unfold kcdsa_domain. split; [|split; [lia|apply O; [exact PP|lia|exact T3|exact N0]]]. apply Z.mod_divide; [lia|]. exists (2 * tJ t). lia.
Qed.
(** RegenerateParameters from (J, Seed, Count) finds P and Q again whatever the random source, and with one it finds G too. *)
Theorem C115_kcdsa_regenerate pp z rd t rd' : hasher_ok (kH z) -> (0 < hsize (kH z))%nat -> (1 < kB z)%nat -> (kB z + 4 <= kA z)%nat -> bytes_ok rd ->
  kc_params_ttak pp z rd = Ok (t, rd') ->
  (forall rd2 a rd3, kc_regenerate pp z (tJ t) (tSeed t) (tCount t) rd2 = Ok (a, rd3) -> kcP a = kcP (tPar t) /\ kcQ a = kcQ (tPar t)) /\
  (exists rd2 rd3, kc_regenerate pp z (tJ t) (tSeed t) (tCount t) rd2 = Ok (tPar t, rd3)).
Proof.
  intros Hh Hs HB HA Hrd E. destruct (@ttak_ok pp z rd t rd' Hh Hs HB HA Hrd E) as [TG _]. split.
  - intros rd2 a rd3 R. rewrite (@regenerate_eq pp z t rd2 ltac:(lia) TG) in R. destruct (ttak_g _ _ rd2) as [[g r]| |]; try discriminate. cbn [rbind fst snd] in R. apply okinj in R.
    assert (Ea : a = KcPar (kcP (tPar t)) (kcQ (tPar t)) g) by congruence. subst a. auto.
  - pose proof TG as (_ & _ & _ & _ & r & r' & _ & G). exists r, r'. rewrite (@regenerate_eq pp z t r ltac:(lia) TG), G. cbn [rbind fst snd]. destruct (tPar t). reflexivity.
Qed.
(** The base drawn for the generator is not kept below P: with base P the generator is 0, and it is accepted. *)
Theorem C115_kcdsa_zero_generator_refuted pp z rd t rd' : hasher_ok (kH z) -> (0 < hsize (kH z))%nat -> (1 < kB z)%nat -> (kB z + 4 <= kA z)%nat -> bytes_ok rd ->
  kc_params_ttak pp z rd = Ok (t, rd') ->
  exists rd2, kc_regenerate pp z (tJ t) (tSeed t) (tCount t) rd2 = Ok (KcPar (kcP (tPar t)) (kcQ (tPar t)) 0, []).
Proof.
  intros Hh Hs HB HA Hrd E. destruct (@ttak_ok pp z rd t rd' Hh Hs HB HA Hrd E) as [TG _]. pose proof TG as (J0 & _ & _ & P & _).
  pose proof (ttak_pq_ok Hh Hs HB P) as (_ & _ & T3 & _ & _ & T6). exists (be_bytes (byteceil (bitlen (kcP (tPar t) - 1))) (kcP (tPar t) - 2)).
  assert (P1 : 1 < kcP (tPar t)) by nia. rewrite (@regenerate_eq pp z t _ ltac:(lia) TG), ttak_g_zero; [reflexivity|exact pp|exact P1|exact J0].
Qed.

(** Instances: p = 263, q = 131, g = 4, the two-byte digest of ToyCurve with block size 2 (or 4: longer than P). *)
Definition kt_par : kc_par := KcPar 263 131 4.
Definition kt_h : hasher := Hasher 2 2 (hsum toy_hash).
Definition kt_key : kc_priv := KcPriv (KcPub kt_par (4 ^ (77 ^ 129 mod 131) mod 263)) 77.
Lemma kt_h_ok : hasher_ok kt_h. Proof. exact toy_hash_ok. Qed.
Lemma kt_par_ok : 1 < kcP kt_par /\ prime (kcQ kt_par) /\ 0 < kcG kt_par /\ kcG kt_par ^ kcQ kt_par mod kcP kt_par = 1.
Proof. split; [reflexivity|]. split; [apply primeb_prime; vm_compute; reflexivity|]. split; reflexivity. Qed.
Example C112_instance_key : kc_generate kt_par [200; 0; 77; 9] = Ok (kt_key, [9]) /\ genuine kt_key.
Proof.
  split; [vm_compute; reflexivity|]. destruct kt_par_ok as (P1 & P2 & P3 & P4).
  refine (proj1 (proj1 (@C112_kcdsa_generate_key kt_par [200; 0; 77; 9] kt_key [9] P1 P2 P3 P4 _) _)); [repeat constructor; lia|vm_compute; reflexivity].
Qed.
Example C112_instance_sign : exists r s, kc_sign kt_h [250; 20] kt_key [1; 2; 3] = Ok (r, s) /\ kc_verify kt_h (kcpub kt_key) [1; 2; 3] r s = Ok true /\
  kc_verify kt_h (kcpub kt_key) [1; 2; 4] r s = Ok false /\ (hblock kt_h <= plen kt_key)%nat /\ (Nat.modulo (qbits kt_key) 8 = 0)%nat.
Proof. eexists _, _. split; [vm_compute; reflexivity|]. split; [vm_compute; reflexivity|]. split; [vm_compute; reflexivity|]. vm_compute. split; [lia|reflexivity]. Qed.
Example C112_instance_odd_q : (Nat.modulo (qbits (KcPriv (KcPub (KcPar 23 11 2) 2) 1)) 8 <> 0)%nat.
Proof. vm_compute. discriminate. Qed.
Example C113_instance : exists sig, kc_sign_bytes kt_h [250; 20] kt_key [1; 2; 3] = Ok sig /\ length sig = 2%nat /\ kc_verify_bytes kt_h (kcpub kt_key) [1; 2; 3] sig = Ok true /\
  kc_verify_bytes kt_h (kcpub kt_key) [1; 2; 3] (0 :: sig) = Ok false.
Proof. eexists. split; [vm_compute; reflexivity|]. vm_compute. repeat split. Qed.
Example C113_instance_panic : (plen kt_key < hblock toy_hash)%nat /\ kc_sign toy_hash [250; 20] kt_key [1; 2; 3] = Panic /\
  kc_verify toy_hash (kcpub kt_key) [1; 2; 3] 5 6 = Ok false.
Proof. vm_compute. split; [lia|]. split; reflexivity. Qed.
Definition kt_size : kc_size := KcSize 9 4 kt_h.
Example C114_instance : kc_params_fast primeb kt_size [9; 11; 1; 76; 1; 75; 0; 1] = Ok (KcPar 331 11 270, []) /\ prime 331 /\ (1 < kB kt_size <= kA kt_size)%nat /\
  (forall n, primeb n = true -> n = 2 \/ Z.odd n = true).
Proof.
  split; [vm_compute; reflexivity|]. split; [apply primeb_prime; vm_compute; reflexivity|]. split; [cbn; lia|]. intros n H. apply primeb_prime in H. destruct (Z.eq_dec n 2); [auto|right].
  destruct (Z.odd n) eqn:O; [reflexivity|]. exfalso. rewrite <- Z.negb_even in O. apply negb_false_iff in O. apply Z.even_spec in O. destruct O as [k Ek].
  assert (D : (2 | n)) by (exists k; lia). apply prime_divisors in D; [|exact H]. destruct H. lia.
Qed.
Example C114_instance_run : kc_params_fast primeb (KcSize 9 8 kt_h) [3; 1; 7; 0; 0; 77; 250; 20] = Ok (kt_par, [77; 250; 20]) /\ prime (kcP kt_par) /\
  kc_generate kt_par [77; 250; 20] = Ok (kt_key, [250; 20]) /\ exists rs, kc_sign kt_h [250; 20] kt_key [1; 2; 3] = Ok rs.
Proof.
  split; [vm_compute; reflexivity|]. split; [apply primeb_prime; vm_compute; reflexivity|]. split; [vm_compute; reflexivity|]. eexists. vm_compute. reflexivity.
Qed.
Example C115_instance_ppgf : ppgf_value (hsum kt_h) 2 [1; 2] 20 = be_val (hsum kt_h [1; 2; 1] ++ hsum kt_h [1; 2; 0]) mod 2 ^ 20 /\
  exists b, ppgf [7; 7; 7] 20 kt_h [1; 2] = Ok b /\ length b = 3%nat.
Proof. split; [vm_compute; reflexivity|]. eexists. split; vm_compute; reflexivity. Qed.
Example C115_instance_x : exists x, kc_x 131 [5; 6] [1; 255] (KcSize 9 8 kt_h) = Ok x /\ 0 < x.
Proof. eexists. split; [vm_compute; reflexivity|reflexivity]. Qed.
Example C115_instance_ttak : kc_params_ttak primeb kt_size [12; 0; 1] = Ok (Ttak (KcPar 443 13 356) 17 [12] 1, []) /\ prime 443 /\ (kB kt_size + 4 <= kA kt_size)%nat.
Proof.
  split; [|split; [apply primeb_prime; vm_compute; reflexivity|cbn; lia]]. unfold kc_params_ttak. replace (Z.to_nat (2 ^ 24 + 1)) with (S (Z.to_nat (2 ^ 24))) by lia.
  generalize (Z.to_nat (2 ^ 24)). intros n. vm_compute. reflexivity.
Qed.
Example C115_instance_zero : kc_regenerate primeb kt_size 17 [12] 1 [1; 185] = Ok (KcPar 443 13 0, []).
Proof. vm_compute. reflexivity. Qed.

Definition C112_C115 := (C112_kcdsa_verify_exact, C112_kcdsa_generate_key, C112_kcdsa_sign_verify, C112_kcdsa_odd_q,
  C113_kcdsa_sign_bytes, C113_kcdsa_verify_bytes, C113_kcdsa_short_p_panics, C114_kcdsa_fast_parameters, C114_kcdsa_whole_run,
  C115_kcdsa_ppgf, C115_kcdsa_generate_x, C115_kcdsa_ttak_parameters, C115_kcdsa_regenerate, C115_kcdsa_zero_generator_refuted).
Print Assumptions C112_C115.
