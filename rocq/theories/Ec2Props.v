(** Theorems about BIP-340, BIGN and deterministic ECDSA.  They hold for every curve whose group
    operations obey [lawful_curve] (for BIP-340 also [negates]), every digest of fixed size, every key,
    message and random source. *)
From Verif Require Import Base BigModel NumLib ModRw ElgProofs CurveModel CurveSpec ToyCurve EcSigModel EcSigSpec EcSigProofs EcSigProofs2 EcSigProps Hash3Model Ec2Model Ec2Spec Ec2Proofs Ec2Proofs2 Ec2Proofs3.
Set Implicit Arguments. Unset Strict Implicit.
Local Open Scope Z_scope.

(** ** C102 BIP-340 *)
(** The challenge number: tagged hash of r, the x of the public point and the message. *)
Definition challenge (c : curve) (h : hasher) (key : eckey) (msg : bytes) (r : Z) : Z :=
  let n := byteceil (bitlen (cP c)) in
  be_val (tagged (hsum h) tag_challenge (be_bytes n r ++ be_bytes n (fst (ePub key)) ++ msg)).

(** Verify accepts exactly the pairs of the signing equation. *)
Theorem C102_accepts : forall c pt h key msg r s, lawful_curve c pt -> negates (cP c) pt -> straight_key c pt key ->
  bip_verify c h (ePub key) msg r s = Ok true <->
  0 < r /\ 0 < s < cN c /\ bip340_pair (cN c) pt (eD key) (challenge c h key msg) r s.
Proof. intros. now apply bip_verify_eq. Qed.

(** Signing with the auxiliary random number a: the nonce is the one BIP-340 derives from a, the key and
    the message (here for digests as long as the scalars), and the pair is the one of that nonce. *)
Theorem C102_sign_with : forall c pt h key msg a, lawful_curve c pt -> negates (cP c) pt -> sized c -> hasher_ok h -> straight_key c pt key ->
  hsize h = byteceil (cBits c) -> 0 <= a < 256 ^ Z.of_nat (byteceil (cBits c)) ->
  let N := cN c in let w := byteceil (cBits c) in let n := byteceil (bitlen (cP c)) in
  let d := even_scalar N pt (eD key) in
  let t := xorl (be_bytes w d) (tagged (hsum h) tag_aux (be_bytes w a)) in
  let k' := be_val (tagged (hsum h) tag_nonce (t ++ be_bytes n (fst (ePub key)) ++ msg)) mod N in
  let r := fst (pt k') in
  bip_sign_k c h a key msg = Ok (if k' =? 0 then None else Some (r, (even_scalar N pt k' + challenge c h key msg r * d) mod N)).
Proof.
  intros c pt h key msg a L Ng Sz Hh K Hs Ha N w n d t k' r. rewrite (bip_sign_k_eq L h Sz msg K Ha).
  assert (E : bip_k c pt h key msg a = k').
  { unfold bip_k, k', t, bip_mask. fold w. change (flen c) with w. rewrite Hs. fold w. rewrite Nat.ltb_irrefl.
    assert (Hb : length (tagged (hsum h) tag_aux (be_bytes w a)) = w) by (unfold tagged; rewrite (proj1 (Hh _)); exact Hs).
    rewrite (@firstn_all2 _ w) by lia. rewrite (@skipn_all2 _ w) by lia. rewrite app_nil_r. fold N d. now rewrite (xorl_comm (be_bytes w d)). }
  rewrite E. reflexivity.
Qed.

(** What SignToRS returns is such a pair, and Verify accepts it unless r or s is 0, which is not
    checked. *)
Theorem C102_sign_verify : forall c pt h key rd msg r s, lawful_curve c pt -> negates (cP c) pt -> sized c -> straight_key c pt key -> bytes_ok rd ->
  bip_sign c h rd key msg = Ok (r, s) ->
  bip340_pair (cN c) pt (eD key) (challenge c h key msg) r s /\
  bip_verify c h (ePub key) msg r s = Ok (negb (r =? 0) && negb (s =? 0)).
Proof.
  intros c pt h key rd msg r s L Ng Sz K Hrd H. apply (bip_sign_inv K Hrd) in H as (k & Hk & H).
  rewrite (bip_sign_k_eq L h Sz msg K Hk) in H. cbv zeta in H. destruct (Z.eqb_spec (bip_k c pt h key msg k) 0) as [E|E]; [discriminate|].
  injection H as H1 H2. pose proof (bip_signed L Ng (msg := msg) (k := k) K E) as P. cbv zeta in P. rewrite H1 in P. rewrite H1 in H2. rewrite H2 in P. split; [exact P|].
  assert (Hr : 0 <= r) by (rewrite <- H1; destruct (coord_fits L (bip_k c pt h key msg k)); lia).
  assert (Hs : 0 <= s < cN c) by (rewrite <- H2; apply (modN L)).
  destruct (Z.eqb_spec r 0) as [Er|Er]; cbn [negb andb].
  - rewrite Er. unfold bip_verify. rewrite (straight_on L K). reflexivity.
  - destruct (Z.eqb_spec s 0) as [Es|Es]; cbn [negb].
    + rewrite Es. unfold bip_verify. rewrite (straight_on L K). cbn [negb]. destruct (Z.leb_spec r 0); [lia|reflexivity].
    + apply (bip_verify_eq L Ng); [exact K|]. split; [lia|]. split; [lia|]. exact P.
Qed.
(** The byte form: neither direction panics, and it carries the pair. *)
Theorem C102_bytes : forall c pt h key rd msg, lawful_curve c pt -> negates (cP c) pt -> sized c -> straight_key c pt key -> bytes_ok rd ->
  bip_sign_bytes c h rd key msg <> Panic /\
  (forall sig, bip_sign_bytes c h rd key msg = Ok sig -> length sig = (byteceil (bitlen (cP c)) + byteceil (cBits c))%nat /\
     forall r s, bip_sign c h rd key msg = Ok (r, s) -> bip_verify_bytes c h (ePub key) msg sig = Ok (negb (r =? 0) && negb (s =? 0))) /\
  (forall sig, bytes_ok sig -> bip_verify_bytes c h (ePub key) msg sig <> Panic).
Proof.
  intros c pt h key rd msg L Ng Sz K Hrd. unfold bip_sign_bytes, bip_verify_bytes.
  assert (V : forall sig, bytes_ok sig -> with_sig (plen c) (flen c) sig (bip_verify c h (ePub key) msg) <> Panic).
  { intros sig Hs. unfold with_sig. destruct (Nat.eqb_spec (length sig) (plen c + flen c)) as [E|E]; [|discriminate].
    rewrite (bip_verify_panics L) by auto. intros (H & _). pose proof (be_val_bound (bytes_ok_firstn (plen c) Hs)) as B. rewrite firstn_length_le in B by lia. lia. }
  destruct (bip_sign c h rd key msg) as [[r s]| |] eqn:E; cbn [rbind].
  - destruct (C102_sign_verify L Ng Sz K Hrd E) as [P HV]. destruct P as (k & Hk & _ & Er & Es).
    assert (Hr : 0 <= r < 256 ^ Z.of_nat (plen c)) by (rewrite Er; apply (coord_fits L k)).
    assert (Hs : 0 <= s < 256 ^ Z.of_nat (flen c)) by (rewrite Es; apply (flen_N Sz), (modN L)).
    destruct (sig_bytes_fits Hr Hs) as (b & Eb & Lb). rewrite Eb. split; [discriminate|]. split; [|exact V]. intros sig [= <-]. split; [exact Lb|].
    intros r' s' [= <- <-]. rewrite (sig_bytes_back Eb) by lia. exact HV.
  - split; [discriminate|]. split; [intros ?; discriminate|exact V].
  - exfalso. revert E. now apply (bip_sign_total L (h := h) Sz).
Qed.
(** Defect: r is written into a buffer of the width of P before it is compared: Verify panics exactly on an
    r that does not fit. *)
Theorem C102_verify_total_refuted : forall c pt h key msg r s, lawful_curve c pt -> straight_key c pt key ->
  (bip_verify c h (ePub key) msg r s = Panic <-> 256 ^ Z.of_nat (byteceil (bitlen (cP c))) <= r /\ 0 < s < cN c).
Proof. intros c pt h key msg r s L K. now apply (bip_verify_panics L). Qed.
(** BatchVerify accepts exactly when every signature is accepted ... *)
Theorem C102_batch : forall c h keys, keys <> [] ->
  bip_batch c h (map (fun k => fst (fst k)) keys) (map (fun k => snd (fst k)) keys) (map (fun k => snd k) keys) = Ok true <->
  Forall (fun k => bip_verify_bytes c h (fst (fst k)) (snd (fst k)) (snd k) = Ok true) keys.
Proof.
  intros c h keys H. unfold bip_batch. rewrite !map_length. destruct keys as [|k0 keys]; [congruence|]. clear H. cbn [length Nat.eqb map orb].
  rewrite Nat.ltb_irrefl. cbn [orb].
  change (S (length keys)) with (length (k0 :: keys)).
  assert (G : forall l, bip_batch_loop c h (length l) (map (fun k => fst (fst k)) l) (map (fun k => snd (fst k)) l) (map (fun k => snd k) l) = Ok true <->
    Forall (fun k => bip_verify_bytes c h (fst (fst k)) (snd (fst k)) (snd k) = Ok true) l).
  { clear. induction l as [|k l IH]; cbn [length map bip_batch_loop]; [split; auto|].
    split.
    - destruct (bip_verify_bytes _ _ _ _ _) as [[]| |] eqn:E; cbn [rbind]; try discriminate. intros H. constructor; [exact E|now apply IH].
    - intros H. inversion_clear H as [|? ? E H']. rewrite E. cbn [rbind]. now apply IH. }
  apply (G (k0 :: keys)).
Qed.
(** ... and panics when it gets messages but no keys. *)
Theorem C102_batch_empty_refuted : forall c h m sig, m <> [] -> bip_batch c h [] m sig = Panic.
Proof. intros c h [|a m] sig H; [congruence|]. unfold bip_batch. cbn [length Nat.eqb Nat.ltb orb]. destruct (length sig); reflexivity. Qed.

Lemma toy_negates : negates (cP toy) toy_pt.
Proof.
  split; [reflexivity|]. assert (E : all31 (fun a => pt_eqb (toy_mulz toyG ((- a) mod 31)) (fst (toy_mulz toyG a), (- snd (toy_mulz toyG a)) mod 43)) = true) by (vm_compute; reflexivity).
  intros a. assert (R : 0 <= a mod 31 < 31) by (apply Z.mod_pos_bound; lia). pose proof (all31_spec E R) as H. apply pt_eqb_eq in H.
  unfold toy_pt at 2 3. cbn [cP toy]. unfold toyP. rewrite <- H. unfold toy_pt. f_equal. apply zq_eq. rewrite zq_mod. reflexivity.
Qed.
Example C102_instance : negates (cP toy) toy_pt /\ straight_key toy toy_pt (make_key Straight toy 7) /\ sized toy /\
  bip_sign toy toy_hash [4; 5] (make_key Straight toy 7) [1; 2; 3] = Ok (29, 5) /\
  bip_verify toy toy_hash (ePub (make_key Straight toy 7)) [1; 2; 3] 29 5 = Ok true /\
  bip_verify toy toy_hash (ePub (make_key Straight toy 7)) [1; 2; 4] 29 5 = Ok false /\
  bip_verify toy toy_hash (ePub (make_key Straight toy 7)) [1; 2; 3] 256 5 = Panic.
Proof.
  split; [exact toy_negates|]. split; [split; [cbn; unfold toyN; lia|vm_compute; reflexivity]|]. split; [exact toy_sized|]. repeat split; vm_compute; reflexivity.
Qed.

(** ** C103 BIGN *)
(** The adata helpers are inverse to MakeAdata while the whole stays below 65536 bytes ... *)
Theorem C103_adata : forall oid t, Z.of_nat (length oid + length t) < 65532 ->
  get_oid (make_adata oid t) = Ok oid /\ get_t (make_adata oid t) = Ok t.
Proof. exact adata_back. Qed.
(** ... and GetOidFromAdata panics on what MakeAdata builds from an OID of 65532 bytes. *)
Theorem C103_adata_refuted : forall oid, Z.of_nat (length oid) = 65532 -> get_oid (make_adata oid []) = Panic.
Proof. exact adata_panics. Qed.

(** What the scheme assumes of its parts: half the scalar width fits the coordinate width and the digests. *)
Definition bign_sized (c : curve) (h : hasher) (bh : bytes -> bytes) : Prop :=
  let l := Nat.div (byteceil (cBits c)) 2 in
  (l <= byteceil (bitlen (cP c)))%nat /\ (l <= hsize h)%nat /\ forall m, bytes_ok (bh m) /\ (l <= length (bh m))%nat.
(** s0 of the standard for the point W. *)
Definition bign_S0 (c : curve) (bh : bytes -> bytes) (oid hd : bytes) (W : Z * Z) : bytes :=
  let l := Nat.div (byteceil (cBits c)) 2 in
  firstn l (bh (oid ++ firstn (2 * l) (point_le (byteceil (bitlen (cP c))) W) ++ hd)).

(** Verify accepts exactly the pairs of the signing equation, r being read through its absolute value. *)
Theorem C103_accepts : forall c pt h bh key msg adata oid r s, lawful_curve c pt -> sized c -> bign_sized c h bh -> straight_key c pt key -> get_oid adata = Ok oid ->
  let w := byteceil (cBits c) in let l := Nat.div w 2 in let hd := hsum h msg in
  bign_verify bh c h (ePub key) msg adata r s = Ok true <->
  Z.abs r < 256 ^ Z.of_nat l /\ 0 < s < 256 ^ Z.of_nat w /\
  bign_pair (cN c) pt (eD key) l w (bign_S0 c bh oid hd) hd (be_bytes l (Z.abs r)) (be_bytes w s).
Proof. intros c pt h bh key msg adata oid r s L Sz (B1 & B2 & B3) K E. now apply bign_verify_eq. Qed.
(** Defect: so with (r, s) also (-r, s) is accepted ... *)
Theorem C103_negative_refuted : forall c pt h bh key msg adata oid r s, lawful_curve c pt -> sized c -> bign_sized c h bh -> straight_key c pt key -> get_oid adata = Ok oid ->
  bign_verify bh c h (ePub key) msg adata r s = Ok true -> bign_verify bh c h (ePub key) msg adata (- r) s = Ok true.
Proof. intros c pt h bh key msg adata oid r s L Sz B K E. rewrite !(C103_accepts msg _ _ L Sz B K E), Z.abs_opp. auto. Qed.
(** ... and numbers beyond the widths make Verify panic. *)
Theorem C103_verify_total_refuted : forall c pt h bh key msg adata oid r s, lawful_curve c pt -> bign_sized c h bh -> straight_key c pt key -> get_oid adata = Ok oid ->
  let w := byteceil (cBits c) in
  (bign_verify bh c h (ePub key) msg adata r s = Panic <-> 0 < s /\ (256 ^ Z.of_nat (Nat.div w 2) <= Z.abs r \/ 256 ^ Z.of_nat w <= s)).
Proof. intros c pt h bh key msg adata oid r s L (B1 & B2 & B3) K E. exact (@bign_verify_panics c pt L h bh B3 B2 B1 key msg adata oid r s K E). Qed.

(** Signing with the nonce k: s0 and s1 of the standard, both read as big-endian numbers; Verify accepts the
    pair unless s1 is 0; the byte form is s0 || s1. *)
Theorem C103_sign_with : forall c pt h bh key msg adata oid k, lawful_curve c pt -> sized c -> bign_sized c h bh -> straight_key c pt key -> get_oid adata = Ok oid -> 0 <= k < cN c ->
  let w := byteceil (cBits c) in let l := Nat.div w 2 in let hd := hsum h msg in
  let s0 := bign_S0 c bh oid hd (pt k) in
  let s1 := (k - le_val hd - (le_val s0 + 256 ^ Z.of_nat l) * eD key) mod cN c in
  bign_sign_k bh c h k key msg adata = Ok (be_val s0, be_val (le_bytes w s1)) /\
  bign_verify bh c h (ePub key) msg adata (be_val s0) (be_val (le_bytes w s1)) = Ok (negb (s1 =? 0)) /\
  bign_verify_bytes bh c h (ePub key) msg adata (s0 ++ le_bytes w s1) = Ok (negb (s1 =? 0)).
Proof.
  intros c pt h bh key msg adata oid k L Sz B K E Hk w l hd s0 s1. pose proof B as (B1 & B2 & B3).
  pose proof (@bign_sign_k_eq c pt L Sz h bh B3 B2 B1 key msg adata oid k E Hk) as G. cbv zeta in G. change (bS0 c bh oid (hsum h msg) (pt k)) with s0 in G.
  split; [exact G|].
  assert (V : bign_verify bh c h (ePub key) msg adata (be_val s0) (be_val (le_bytes w s1)) = Ok (negb (s1 =? 0))).
  { assert (Hs1 : 0 <= s1 < 256 ^ Z.of_nat w) by (apply (flen_N Sz), (modN L)).
    destruct (@bS0_len c bh B3 oid hd (pt k)) as [Ls Os]. change (bS0 c bh oid hd (pt k)) with s0 in *.
    destruct (Z.eqb_spec s1 0) as [Z0|Z0]; cbn [negb].
    - rewrite Z0. unfold bign_verify. rewrite (straight_on L K). cbn [negb]. replace (be_val (le_bytes w 0)) with 0; [reflexivity|].
      assert (EZ : forall n, le_bytes n 0 = repeat 0 n) by (induction n; cbn [le_bytes repeat]; [reflexivity|]; change (0 / 256) with 0; now rewrite IHn).
      rewrite EZ, be_val_zeros. reflexivity.
    - apply (C103_accepts msg _ _ L Sz B K E). fold w l hd. pose proof (be_val_bound Os) as B0. rewrite Ls in B0. change (Nat.div (flen c) 2) with l in B0.
      rewrite Z.abs_eq by lia. split; [lia|].
      pose proof (be_val_bound (le_bytes_ok w s1)) as BW. rewrite le_bytes_length in BW.
      assert (be_val (le_bytes w s1) <> 0).
      { intros Ez. apply Z0. rewrite <- (le_val_fit Hs1). rewrite <- (@be_bytes_val (le_bytes w s1) w (le_bytes_ok _ _) (le_bytes_length _ _)), Ez.
        unfold be_bytes. assert (EZ : forall n, le_bytes n 0 = repeat 0 n) by (induction n; cbn [le_bytes repeat]; [reflexivity|]; change (0 / 256) with 0; now rewrite IHn).
        rewrite EZ. change (le_val (rev (repeat 0 w))) with (be_val (repeat 0 w)). apply be_val_zeros. }
      split; [lia|]. rewrite (@be_bytes_val s0 l Os Ls), (@be_bytes_val (le_bytes w s1) w (le_bytes_ok _ _) (le_bytes_length _ _)).
      exists k. split; [exact Hk|]. split; reflexivity. }
  split; [exact V|]. unfold bign_verify_bytes, with_sig. change (flen c) with w. fold l.
  destruct (@bS0_len c bh B3 oid hd (pt k)) as [Ls _]. change (bS0 c bh oid hd (pt k)) with s0 in *. change (Nat.div (flen c) 2) with l in Ls.
  rewrite app_length, Ls, le_bytes_length, Nat.eqb_refl, firstn_app_exact, skipn_app_exact by exact Ls. exact V.
Qed.
(** SignToRS with a reader is that for the number k that crypto/rand.Int draws below N. *)
Theorem C103_sign_random : forall fuel bl c pt h bh key msg adata rd r s, lawful_curve c pt -> straight_key c pt key -> bytes_ok rd ->
  bign_sign bh bl fuel c h (Some rd) key msg adata = Ok (r, s) ->
  exists k rd', rand_int (cN c) rd = Ok (k, rd') /\ 0 <= k < cN c /\ bign_sign_k bh c h k key msg adata = Ok (r, s).
Proof.
  intros fuel bl c pt h bh key msg adata rd r s L K Hrd. unfold bign_sign. rewrite (straight_on L K). cbn [negb]. destruct K as [HD _].
  destruct (Z.leb_spec (cN c) (eD key)); [lia|]. destruct (_ =? 0)%nat; [discriminate|]. destruct (rand_int (cN c) rd) as [[k rd']| |] eqn:Ek; try discriminate.
  cbn [rbind fst]. intros H'. exists k, rd'. split; [reflexivity|]. split; [now apply (rand_int_ok Hrd Ek)|exact H'].
Qed.
(** Defect: 0 is among the numbers drawn, and then everything in the signing equation but D is public:
    D (s0 + 2^8l) = - s1 - H modulo N. *)
Theorem C103_zero_nonce_refuted : forall fuel bl c pt h bh key msg adata oid rd, lawful_curve c pt -> sized c -> bign_sized c h bh -> straight_key c pt key -> get_oid adata = Ok oid ->
  let w := byteceil (cBits c) in let l := Nat.div w 2 in let hd := hsum h msg in
  let s0 := bign_S0 c bh oid hd (0, 0) in
  exists s1, bign_sign bh bl fuel c h (Some (repeat 0 (byteceil (bitlen (cN c - 1))) ++ rd)) key msg adata = Ok (be_val s0, be_val (le_bytes w s1)) /\
    0 <= s1 < cN c /\ (eD key * (le_val s0 + 256 ^ Z.of_nat l)) mod cN c = (- s1 - le_val hd) mod cN c.
Proof.
  intros fuel bl c pt h bh key msg adata oid rd L Sz B K E w l hd s0. pose proof (N_pos L) as HN.
  destruct (C103_sign_with msg L Sz B K E (k := 0) ltac:(lia)) as [G _]. cbv zeta in G. rewrite (lc_zero L) in G. fold hd w l s0 in G.
  eexists. split; [|split; [apply (modN L)|]].
  - unfold bign_sign. rewrite (straight_on L K). cbn [negb]. destruct K as [HD _]. destruct (Z.leb_spec (cN c) (eD key)); [lia|].
    destruct (Nat.eqb_spec (length adata) 0) as [E0|E0]; [destruct adata; [discriminate|discriminate]|].
    assert (ER : exists rd', rand_int (cN c) (repeat 0 (byteceil (bitlen (cN c - 1))) ++ rd) = Ok (0, rd')).
    { unfold rand_int. destruct (Z.leb_spec (cN c) 0); [lia|]. set (bl' := bitlen (cN c - 1)). destruct (Nat.eqb_spec bl' 0) as [Eb|Eb].
      - eauto.
      - unfold until. cbn [retry]. set (n := byteceil bl'). unfold read_full. rewrite app_length, repeat_length.
        destruct (Nat.leb_spec n (n + length rd)); [|lia]. cbn [rbind fst snd]. rewrite firstn_app_exact by apply repeat_length.
        assert (EM : mask_top bl' (repeat 0 n) = repeat 0 n) by (destruct n; reflexivity). rewrite EM, be_val_zeros.
        destruct (Z.ltb_spec 0 (cN c)); [|lia]. eauto. }
    destruct ER as [rd' ->]. cbn [rbind fst]. exact G.
  - apply zq_eq. rewrite zq_mod. replace (- (0 - le_val hd - (le_val s0 + 256 ^ Z.of_nat l) * eD key) - le_val hd) with (eD key * (le_val s0 + 256 ^ Z.of_nat l)) by ring. reflexivity.
Qed.
(** With a nil reader the nonce is the one of the standard: the generator starts from the n blocks of the
    digest (here of 2, 3, 4, 5 or 6 whole blocks), makes at least 2n steps, and stops at the first number in
    1..q-1. *)
Theorem C103_nonce : forall fuel bh bl q qbits x adata oid t hd k, get_oid adata = Ok oid -> get_t adata = Ok t ->
  let w := byteceil qbits in let n := Nat.div (length hd) 16 in
  let theta := bh (oid ++ firstn (2 * Nat.div w 2) (le_bytes w x) ++ t) in
  let cand m := le_val (concat (stb_steps (bl theta) m 1 (chunks 16 hd))) mod 2 ^ Z.of_nat qbits in
  (forall b, length (bl theta b) = 16%nat /\ bytes_ok (bl theta b)) -> bytes_ok hd -> (length hd = 16 * n)%nat -> (2 <= n <= 6)%nat ->
  (qbits mod 8 = 0)%nat -> 0 <= x < 256 ^ Z.of_nat w ->
  bign_nonce bh bl fuel q qbits x adata hd = Ok k ->
  0 < k < q /\ exists m, (2 * n <= m)%nat /\ k = cand m /\ forall m', (2 * n <= m' < m)%nat -> ~ 0 < cand m' < q.
Proof.
  intros fuel bh bl q qbits x adata oid t hd k E1 E2 w n theta cand Hbl Ho Hl Hn Hq Hx. unfold bign_nonce. rewrite E1, E2. cbn [rbind].
  fold w. rewrite fill_bytes_fits by exact Hx. cbn [rbind]. rewrite rev_be. fold theta n. destruct (Nat.leb_spec n 1); [lia|]. destruct (Nat.ltb_spec 6 n); [lia|].
  assert (Hr : gocopy (repeat 0 96) hd = concat (chunks 16 hd) ++ repeat 0 (96 - length hd)).
  { unfold gocopy. rewrite repeat_length, firstn_all2, chunks_concat by lia. f_equal. 
    replace 96%nat with (length hd + (96 - length hd))%nat at 1 by lia. rewrite repeat_app. apply skipn_app_exact, repeat_length. }
  rewrite Hr. intros H'. pose proof (@chunks_all_len _ 16 hd n ltac:(lia) ltac:(lia)) as [Ha Hln].
  assert (Hob : Forall bytes_ok (chunks 16 hd)).
  { apply Forall_forall. intros b Hb. apply Forall_forall. intros y Hy. unfold bytes_ok in Ho. rewrite Forall_forall in Ho. apply Ho.
    rewrite <- (chunks_concat (n := 16) hd) by lia. apply in_concat. eauto. }
  destruct (@bign_loop_eq bl theta (fun b => proj1 (Hbl b)) (fun b => proj2 (Hbl b)) q qbits n fuel Hq ltac:(lia) 1 (chunks 16 hd) _ k Ha Hln Hob ltac:(lia) ltac:(lia) H') as (m & Hm & H2 & Ek & Hk & Hmin).
  split; [exact Hk|]. exists m. split; [lia|]. split; [exact Ek|]. intros m' Hm'. apply Hmin; lia.
Qed.
(** The deterministic signature is the one of that nonce. *)
Theorem C103_sign_deterministic : forall fuel bl c pt h bh key msg adata r s, lawful_curve c pt -> straight_key c pt key ->
  bign_sign bh bl fuel c h None key msg adata = Ok (r, s) ->
  exists k, bign_nonce bh bl fuel (cN c) (cBits c) (eD key) adata (hsum h msg) = Ok k /\ bign_sign_k bh c h k key msg adata = Ok (r, s).
Proof.
  intros fuel bl c pt h bh key msg adata r s L K. unfold bign_sign. rewrite (straight_on L K). cbn [negb]. destruct (_ <=? _); [discriminate|].
  destruct (_ =? 0)%nat; [discriminate|]. destruct (bign_nonce _ _ _ _ _ _ _ _) as [k| |]; try discriminate. cbn [rbind]. eauto.
Qed.

Definition toy16 : curve := Curve toyP toyN 16 toy_on toy_add (fun p k => toy_mulz p (be_val k)) (fun k => toy_mulz toyG (be_val k)).
Lemma toy16_lawful : lawful_curve toy16 toy_pt.
Proof. destruct toy_lawful. constructor; assumption. Qed.
Example C103_instance :
  let key := make_key Straight toy16 7 in let ad := make_adata [1; 2; 3] [9] in
  straight_key toy16 toy_pt key /\ sized toy16 /\ bign_sized toy16 toy_hash (hsum toy_hash) /\
  get_oid ad = Ok [1; 2; 3] /\ get_t ad = Ok [9] /\
  exists r s, bign_sign_k (hsum toy_hash) toy16 toy_hash 5 key [1; 2; 3] ad = Ok (r, s) /\ r <> 0 /\
    bign_verify (hsum toy_hash) toy16 toy_hash (ePub key) [1; 2; 3] ad r s = Ok true /\
    bign_verify (hsum toy_hash) toy16 toy_hash (ePub key) [1; 2; 3] ad (- r) s = Ok true /\
    bign_verify (hsum toy_hash) toy16 toy_hash (ePub key) [1; 2; 4] ad r s = Ok false.
Proof.
  cbv zeta. split; [split; [cbn; unfold toyN; lia|vm_compute; reflexivity]|]. split; [unfold sized; cbn; unfold toyP, toyN; lia|].
  split; [split; [apply Nat.leb_le; reflexivity|split; [apply Nat.leb_le; reflexivity|]]; intros m; destruct (toy_hash_ok m) as [A B]; split; [exact B|rewrite A; apply Nat.leb_le; reflexivity]|].
  split; [reflexivity|]. split; [reflexivity|]. eexists. eexists. split; [vm_compute; reflexivity|]. split; [discriminate|]. repeat split; vm_compute; reflexivity.
Qed.
Example C103_instance_nonce :
  let bl (th b : bytes) := map (fun x => (x + 77) mod 256) b in
  bign_nonce (hsum toy_hash) bl 20 251 8 7 (make_adata [1] [2]) (repeat 3 32) = Ok 157.
Proof. vm_compute. reflexivity. Qed.

(** ** C104 Deterministic ECDSA *)
(** What DSign returns with a reader passes ECDSA verification, and it never panics. *)
Theorem C104_sign_valid : forall c pt D rd hash, lawful_curve c pt -> bytes_ok rd -> bytes_ok hash ->
  dec_sign c D rd hash <> Panic /\
  forall r s, dec_sign c D rd hash = Ok (r, s) -> ecdsa_valid (cN c) pt D (bits2int (bitlen (cN c)) hash) r s.
Proof. intros c pt D rd hash L Hrd Hh. split; [now apply (dec_sign_total L)|]. intros r s. now apply (dec_sign_inv L). Qed.
Theorem C104_bytes : forall c pt D rd hash, lawful_curve c pt -> sized c -> bytes_ok rd -> bytes_ok hash ->
  dec_sign_bytes c D rd hash <> Panic /\
  forall sig, dec_sign_bytes c D rd hash = Ok sig -> let w := byteceil (cBits c) in
    length sig = (2 * w)%nat /\ dec_sign c D rd hash = Ok (be_val (firstn w sig), be_val (skipn w sig)).
Proof.
  intros c pt D rd hash L Sz Hrd Hh. destruct (C104_sign_valid D L Hrd Hh) as [T V]. unfold dec_sign_bytes.
  destruct (dec_sign c D rd hash) as [[r s]| |] eqn:E; cbn [rbind]; [|split; [discriminate|intros ?; discriminate]|congruence].
  destruct (V r s eq_refl) as (Hr & Hs & _). destruct Sz as (_ & HN & _).
  unfold sig_bytes. cbn [fst snd]. rewrite !fill_bytes_fits by (unfold flen; lia). cbn [rbind]. split; [discriminate|]. intros sig Hsig.
  assert (Hsig' : be_bytes (flen c) r ++ be_bytes (flen c) s = sig) by congruence. clear Hsig. subst sig.
  cbv zeta. fold (flen c). rewrite app_length, !be_bytes_length. split; [lia|]. rewrite firstn_app_exact, skipn_app_exact by apply be_bytes_length.
  rewrite !be_val_fit by (unfold flen; lia). reflexivity.
Qed.
(** With a nil reader the nonce is the first candidate of RFC 6979 reduced modulo N ... *)
Theorem C104_nonce : forall c pt h D hash, lawful_curve c pt -> hasher_ok h -> (0 < hsize h)%nat -> cBits c = bitlen (cN c) ->
  0 <= D < cN c -> bytes_ok hash -> length hash = hsize h ->
  let q := bitlen (cN c) in let KV := rfc_init (hm h) (hsize h) q (cN c) D hash in
  let k1 := bits2int q (fst (rfc_T (hm h) q q (fst KV) (snd KV) [])) in
  rfc_nonce c h D hash = Ok (k1 mod cN c) /\
  (1 <= k1 < cN c -> rfc_k (hm h) q (cN c) (fst KV) (snd KV) k1 /\ rfc_nonce c h D hash = Ok k1).
Proof.
  intros c pt h D hash L Hh Hp Hq HD Ho Hl q KV k1. pose proof (rfc_nonce_eq L Hh Hp Hq HD Ho Hl) as E. change (rfc_first c h D hash) with k1 in E.
  split; [exact E|]. intros Hk. split; [now apply rfc_here|]. rewrite E, Z.mod_small by lia. reflexivity.
Qed.
(** ... so when that candidate is in range the signature is that of RFC 6979 (unless r or s is 0). *)
Theorem C104_deterministic : forall c pt h D hash fuel, lawful_curve c pt -> hasher_ok h -> (0 < hsize h)%nat -> cBits c = bitlen (cN c) ->
  0 <= D < cN c -> bytes_ok hash -> length hash = hsize h -> (0 < fuel)%nat ->
  let q := bitlen (cN c) in let KV := rfc_init (hm h) (hsize h) q (cN c) D hash in
  forall k, rfc_k (hm h) q (cN c) (fst KV) (snd KV) k -> bits2int q (fst (rfc_T (hm h) q q (fst KV) (snd KV) [])) < cN c ->
  bits2int q (fst (rfc_T (hm h) q q (fst KV) (snd KV) [])) <> 0 ->
  let r := fst (pt k) mod cN c in r <> 0 ->
  exists s, (s * k) mod cN c = (bits2int q hash + r * D) mod cN c /\ 0 <= s < cN c /\
    dec_det fuel c h D hash = Ok (if s =? 0 then None else Some (r, s)).
Proof.
  intros c pt h D hash fuel L Hh Hp Hq HD Ho Hl Hf q KV k Hk H1 H2 r Hr.
  destruct (C104_nonce L Hh Hp Hq HD Ho Hl) as [_ E]. cbv zeta in E. fold q KV in E. set (k1 := bits2int q _) in *.
  assert (B : 0 <= k1) by (apply (rfc_first_bound Hh Hp Hq D hash)). destruct (E ltac:(lia)) as [Hk1 En]. pose proof (rfc_k_fun Hk Hk1) as ->.
  destruct (@dec_pass_ok c pt L D hash k1 Ho ltac:(lia)) as [_ H3]. destruct (H3 Hr) as (s & Hs & Es & Ep). exists s. split; [exact Es|]. split; [exact Hs|].
  apply (@dec_det_eq c h Hp Hq D hash); [|exact Hf]. rewrite En. exact Ep.
Qed.
(** Defect: a candidate of N or more is not drawn again but reduced, and when the nonce, r or s comes out
    as 0 the loop starts over with the same nonce and never ends, though RFC 6979 goes on to another one. *)
Definition toy5 : curve := Curve toyP toyN 5 toy_on toy_add (fun p k => toy_mulz p (be_val k)) (fun k => toy_mulz toyG (be_val k)).
Theorem C104_restart_refuted : exists c pt h D hash k, lawful_curve c pt /\ hasher_ok h /\ (0 < hsize h)%nat /\ cBits c = bitlen (cN c) /\
  0 < D < cN c /\ bytes_ok hash /\ length hash = hsize h /\
  (let q := bitlen (cN c) in let KV := rfc_init (hm h) (hsize h) q (cN c) D hash in
   rfc_k (hm h) q (cN c) (fst KV) (snd KV) k /\ cN c <= bits2int q (fst (rfc_T (hm h) q q (fst KV) (snd KV) []))) /\
  rfc_nonce c h D hash <> Ok k /\ forall fuel, dec_det fuel c h D hash = Ok None.
Proof.
  exists toy5, toy_pt, toy_hash, 29, [72; 3].
  assert (E : exists k, rfc_k (hm toy_hash) 5 31 (fst (rfc_init (hm toy_hash) 2 5 31 29 [72; 3])) (snd (rfc_init (hm toy_hash) 2 5 31 29 [72; 3])) k /\ k <> 0).
  { eexists. split.
    - vm_compute (rfc_init _ _ _ _ _ _). cbn [fst snd]. repeat first [eapply rfc_here; [vm_compute; reflexivity|vm_compute; split; [discriminate|reflexivity]]
        |eapply rfc_next; [vm_compute; intros [? ?]; congruence|vm_compute (rfc_T _ _ _ _ _ _); cbn [fst snd]; cbv zeta; vm_compute (hm _ _ _)]].
    - discriminate. }
  destruct E as (k & Ek & Hk). exists k. split; [destruct toy_lawful; constructor; assumption|]. split; [exact toy_hash_ok|]. split; [cbn; lia|]. split; [reflexivity|].
  split; [cbn; unfold toyN; lia|]. split; [repeat constructor; unfold is_byte; lia|]. split; [reflexivity|]. split; [split; [exact Ek|vm_compute; discriminate]|].
  split; [vm_compute; congruence|]. intros [|f]; [reflexivity|]. apply (@dec_det_eq toy5 toy_hash ltac:(cbn; lia) eq_refl 29 [72; 3]); [vm_compute; reflexivity|lia].
Qed.
Example C104_instance : lawful_curve toy5 toy_pt /\ cBits toy5 = bitlen (cN toy5) /\ exists r s, dec_det 1 toy5 toy_hash 7 [40; 3] = Ok (Some (r, s)) /\ bits2int 5 [40; 3] = 5 /\ ecdsa_valid 31 toy_pt 7 5 r s.
Proof.
  split; [destruct toy_lawful; constructor; assumption|]. split; [reflexivity|]. eexists. eexists. split; [vm_compute; reflexivity|].
  split; [vm_compute; reflexivity|]. split; [lia|]. split; [lia|]. exists 2. split; vm_compute; reflexivity.
Qed.

Definition C102_C104 := (C102_accepts, C102_sign_with, C102_sign_verify, C102_bytes, C102_verify_total_refuted, C102_batch, C102_batch_empty_refuted,
  C103_adata, C103_adata_refuted, C103_accepts, C103_negative_refuted, C103_verify_total_refuted, C103_sign_with, C103_sign_random, C103_zero_nonce_refuted, C103_nonce, C103_sign_deterministic,
  C104_sign_valid, C104_bytes, C104_nonce, C104_deterministic, C104_restart_refuted).
Print Assumptions C102_C104.
