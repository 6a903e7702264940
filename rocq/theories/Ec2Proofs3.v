(** Proofs for deterministic ECDSA and the adata of BIGN. *)
From Verif Require Import Base BigModel NumLib ModRw ElgProofs CurveModel CurveSpec EcSigModel EcSigSpec EcSigProofs EcSigProofs2 Hash3Model Ec2Model Ec2Spec Ec2Proofs Ec2Proofs2 ToolBytesProofs.
Set Implicit Arguments. Unset Strict Implicit.
Local Open Scope Z_scope.

Lemma shift_firstn w q (l : bytes) : bytes_ok l -> (w <= length l)%nat -> (q <= 8 * w)%nat ->
  Z.shiftr (be_val (firstn w l)) (Z.of_nat (8 * w - q)) = bits2int q l.
Proof.
  intros Hl Hw Hq. rewrite be_val_firstn by auto. rewrite Z.shiftr_shiftr by lia. unfold bits2int. rewrite Z.shiftr_div_pow2 by lia. do 2 f_equal. lia.
Qed.
Lemma byteceil_8 q : (q <= 8 * byteceil q /\ 8 * byteceil q <= q + 7)%nat.
Proof. unfold byteceil. pose proof (Nat.div_mod (q + 7) 8 ltac:(lia)). pose proof (Nat.mod_upper_bound (q + 7) 8 ltac:(lia)). lia. Qed.
Lemma dec_hash_eq c hash : bytes_ok hash -> dec_hash_to_int c hash = bits2int (bitlen (cN c)) hash.
Proof.
  intros H. unfold dec_hash_to_int. destruct (byteceil_8 (bitlen (cN c))). destruct (Nat.ltb_spec (byteceil (bitlen (cN c))) (length hash)).
  - rewrite firstn_length_le by lia. rewrite Nat.mul_comm. apply shift_firstn; auto; lia.
  - unfold bits2int. rewrite Z.shiftr_div_pow2 by lia. do 2 f_equal. lia.
Qed.

Section dec.
Variable (c : curve) (pt : Z -> Z * Z) (L : lawful_curve c pt).
Variable (h : hasher) (Hh : hasher_ok h).
Notation N := (cN c).

Lemma inv_exists s : 0 < s < N -> exists w, (w * s) mod N = 1.
Proof.
  intros H. destruct (@mod_inverse_ok s N) as [i Hi]; [lia|apply (prime_gcd (lc_prime L)); lia|].
  apply mod_inverse_some in Hi as [_ Hi]; [|lia]. exists i. rewrite Hi. apply Z.mod_small. pose proof (N_pos L). lia.
Qed.
Lemma dec_pass_ok D hash k : bytes_ok hash -> 0 <= k < N ->
  let e := bits2int (bitlen N) hash in let r := fst (pt k) mod N in
  (r = 0 -> dec_pass c D hash k = Ok None) /\
  (r <> 0 -> exists s, 0 <= s < N /\ (s * k) mod N = (e + r * D) mod N /\ dec_pass c D hash k = Ok (if s =? 0 then None else Some (r, s))).
Proof.
  intros Hh' Hk e r. unfold dec_pass. rewrite (base_pt L) by lia. fold r. rewrite dec_hash_eq by auto. fold e. pose proof (N_pos L) as HN. split; intros Hr.
  - now rewrite Hr.
  - destruct (Z.eqb_spec r 0); [contradiction|].
    assert (k <> 0). { intros ->. apply Hr. unfold r. rewrite (lc_zero L). reflexivity. }
    destruct (@mod_inverse_ok k N) as [i Hi]; [lia|apply (prime_gcd (lc_prime L)); lia|]. rewrite Hi.
    apply mod_inverse_some in Hi as [Hi1 Hi2]; [|lia]. exists (((D * r + e) * i) mod N). split; [apply (modN L)|]. split.
    + zq_of Hi2. to_zq. rewrite !zq_mod. replace ((D * r + e) * i * k) with ((e + r * D) * (i * k)) by ring. rewrite Hi2. now rewrite Z.mul_1_r.
    + destruct (_ =? 0); reflexivity.
Qed.
Lemma ecdsa_from_k D e r s k : 0 <= k < N -> 0 < r -> r = fst (pt k) mod N -> 0 < s < N -> (s * k) mod N = (e + r * D) mod N -> ecdsa_valid N pt D e r s.
Proof.
  intros Hk Hr0 Hr Hs E. split; [rewrite Hr; pose proof (modN L (fst (pt k))); lia|]. split; [exact Hs|].
  destruct (inv_exists Hs) as [w Hw]. exists w. split; [exact Hw|]. rewrite Hr at 1. do 2 f_equal. apply (pt_cong L).
  assert (H1 : w * s =[N]= 1) by (rewrite Hw; apply one_mod with (1 := L)). zq_of H1. zq_of E. to_zq.
  replace (e * w + r * w * D) with ((e + r * D) * w) by ring. rewrite <- E. replace (s * k * w) with (w * s * k) by ring. rewrite H1. now rewrite Z.mul_1_l.
Qed.
Lemma dec_sign_inv D rd hash r s : bytes_ok rd -> bytes_ok hash -> dec_sign c D rd hash = Ok (r, s) ->
  ecdsa_valid N pt D (bits2int (bitlen N) hash) r s.
Proof.
  intros Hrd Hhs. unfold dec_sign. pose proof (N_pos L) as HN. destruct (Z.eqb_spec N 0); [lia|]. set (step := fun rd => _).
  destruct (until step rd) as [[a rd']| |] eqn:E; try discriminate. cbn [rbind fst]. intros [= ->].
  apply (@until_inv _ (fun rs => ecdsa_valid N pt D (bits2int (bitlen N) hash) (fst rs) (snd rs))) in E; [exact (proj1 E)| |exact Hrd].
  clear rd rd' Hrd E. intros rd o rd' Hrd. unfold step. destruct (rand_field N rd) as [[k rk]| |] eqn:Ek; try discriminate. cbn [rbind fst snd].
  apply rand_field_ok in Ek as [Hk Hrk]; auto. destruct (@dec_pass_ok D hash k Hhs ltac:(lia)) as [H0 H1].
  destruct (Z.eq_dec (fst (pt k) mod N) 0) as [Er|Er].
  - rewrite H0 by exact Er. cbn [rbind]. intros [= <- <-]. auto.
  - destruct (H1 Er) as (s' & Hs & Es & ->). cbn [rbind]. intros [= <- <-]. split; [exact Hrk|]. destruct (Z.eqb_spec s' 0); [exact I|]. cbn [fst snd].
    apply ecdsa_from_k with (k := k); pose proof (modN L (fst (pt k))); auto; try lia.
Qed.
Lemma dec_sign_total D rd hash : bytes_ok rd -> bytes_ok hash -> dec_sign c D rd hash <> Panic.
Proof.
  intros Hrd Hhs. unfold dec_sign. pose proof (N_pos L) as HN. destruct (Z.eqb_spec N 0); [lia|]. set (step := fun rd => _).
  assert (T : until step rd <> Panic).
  { unfold until. generalize (S (length rd)). intros f. revert rd Hrd. induction f as [|f IH]; cbn [retry]; intros rd Hrd; [discriminate|].
    assert (St : step rd = Err \/ exists o rk, step rd = Ok (o, rk) /\ bytes_ok rk).
    { unfold step. destruct (rand_field N rd) as [[k rk]| |] eqn:Ek; cbn [rbind fst snd]; auto.
      - apply rand_field_ok in Ek as [Hk Hrk]; auto. destruct (@dec_pass_ok D hash k Hhs ltac:(lia)) as [H0 H1].
        destruct (Z.eq_dec (fst (pt k) mod N) 0) as [Er|Er]; [rewrite H0 by exact Er|destruct (H1 Er) as (s' & _ & _ & ->)]; cbn [rbind]; eauto.
      - exfalso. revert Ek. apply retry_no_panic. intros r. unfold read_full. destruct (_ <=? _)%nat; discriminate. }
    destruct St as [->|(o & rk & -> & Hrk)]; [discriminate|]. destruct o; [discriminate|]. now apply IH. }
  destruct (until step rd); cbn [rbind]; congruence.
Qed.

(** RFC 6979 *)
Hypothesis Hpos : (0 < hsize h)%nat.
Hypothesis Hq : cBits c = bitlen N.
Notation qb := (bitlen N).
Lemma hm_ok k m : length (hm h k m) = hsize h /\ bytes_ok (hm h k m).
Proof. unfold hm, hmac. apply Hh. Qed.
Lemma gocopy_done (T0 acc : bytes) : (length T0 <= length acc)%nat -> gocopy T0 acc = firstn (length T0) acc.
Proof. intros H. unfold gocopy. rewrite skipn_all2 by lia. apply app_nil_r. Qed.
Lemma gocopy_more (T0 acc V : bytes) : (length acc <= length T0)%nat ->
  firstn (length acc) (gocopy T0 acc) ++ gocopy (skipn (length acc) (gocopy T0 acc)) V = gocopy T0 (acc ++ V).
Proof.
  intros H. unfold gocopy. rewrite (@firstn_all2 _ _ acc) by lia. rewrite firstn_app_exact, skipn_app_exact by reflexivity.
  rewrite firstn_app, (@firstn_all2 _ _ acc), skipn_length, app_length, <- app_assoc, skipn_skipn' by lia. reflexivity.
Qed.
Lemma rfc_fill_eq K T0 m : length T0 = byteceil qb -> forall f acc V, (m <= f)%nat -> (qb <= 8 * (length acc + m))%nat ->
  rfc_fill f h K qb (8 * length acc) V (gocopy T0 acc) = firstn (byteceil qb) (fst (rfc_T (hm h) qb m K V acc)).
Proof.
  intros HT. destruct (byteceil_8 qb) as [C1 C2].
  assert (Fin : forall f acc V, (qb <= 8 * length acc)%nat -> rfc_fill f h K qb (8 * length acc) V (gocopy T0 acc) = firstn (byteceil qb) acc).
  { intros f acc V H. rewrite gocopy_done, HT by lia. destruct f; cbn [rfc_fill]; [reflexivity|]. destruct (Nat.ltb_spec (8 * length acc) qb); [lia|reflexivity]. }
  induction m as [|m IH]; intros f acc V Hf H; cbn [rfc_T fst]; [apply Fin; lia|].
  destruct (Nat.ltb_spec (8 * length acc) qb) as [Hlt|Hge]; [|cbn [fst]; now apply Fin].
  destruct f as [|f]; [lia|]. cbn [rfc_fill]. destruct (Nat.ltb_spec (8 * length acc) qb); [|lia].
  replace (byteceil (8 * length acc)) with (length acc) by (unfold byteceil; rewrite (Nat.mul_comm 8), Nat.div_add_l by lia; cbn; lia).
  rewrite gocopy_more by lia. destruct (hm_ok K V) as [Hv _].
  replace (8 * length acc + 8 * length (hm h K V))%nat with (8 * length (acc ++ hm h K V))%nat by (rewrite app_length; lia).
  apply IH; [lia|]. rewrite app_length. lia.
Qed.
Lemma rfc_T_ok K m : forall V acc, bytes_ok acc -> (qb <= 8 * (length acc + m))%nat ->
  bytes_ok (fst (rfc_T (hm h) qb m K V acc)) /\ (qb <= 8 * length (fst (rfc_T (hm h) qb m K V acc)))%nat.
Proof.
  induction m as [|m IH]; intros V acc Ho H; cbn [rfc_T fst]; [split; [auto|lia]|].
  destruct (Nat.ltb_spec (8 * length acc) qb); [|cbn [fst]; auto]. destruct (hm_ok K V) as [Hv Hvo]. apply IH; [now apply bytes_ok_app|].
  rewrite app_length. lia.
Qed.
Definition rfc_first (D : Z) (hash : bytes) : Z :=
  let KV := rfc_init (hm h) (hsize h) qb N D hash in bits2int qb (fst (rfc_T (hm h) qb qb (fst KV) (snd KV) [])).
Lemma N_fits : N <= 256 ^ Z.of_nat (byteceil qb).
Proof. pose proof (N_pos L). pose proof (@byteceil_bound N ltac:(lia)). lia. Qed.
Lemma rfc_nonce_eq D hash : 0 <= D < N -> bytes_ok hash -> length hash = hsize h -> rfc_nonce c h D hash = Ok (rfc_first D hash mod N).
Proof.
  intros HD Ho Hl. unfold rfc_nonce. rewrite Hq. pose proof N_fits as HF. rewrite fill_bytes_fits by lia. cbn [rbind].
  assert (E : Z.shiftr (be_val hash) (Z.of_nat (8 * hsize h - qb)) = bits2int qb hash) by (unfold bits2int; rewrite Z.shiftr_div_pow2 by lia; now rewrite Hl).
  rewrite E. pose proof (modN L (bits2int qb hash)) as B. rewrite fill_bytes_fits by lia. cbn [rbind].
  change (be_bytes (byteceil qb) D) with (int2octets qb D). change (be_bytes (byteceil qb) (bits2int qb hash mod N)) with (bits2octets qb N hash).
  unfold rfc_first, rfc_init. cbv zeta. cbn [fst snd].
  match goal with |- context [rfc_fill (S qb) h ?K qb 0 ?V _] => set (V2 := V); set (K2 := K) in * end.
  set (T0 := bits2octets qb N hash). assert (HT : length T0 = byteceil qb) by (apply be_bytes_length).
  pose proof (@rfc_fill_eq K2 T0 qb HT (S qb) [] V2 ltac:(lia) ltac:(cbn [length]; lia)) as F. cbn [length] in F. rewrite Nat.mul_0_r in F.
  replace (gocopy T0 []) with T0 in F by (unfold gocopy; now rewrite firstn_nil). rewrite F.
  destruct (byteceil_8 qb). destruct (@rfc_T_ok K2 qb V2 [] ltac:(constructor) ltac:(cbn [length]; lia)) as [T1 T2].
  rewrite shift_firstn by (auto; lia). reflexivity.
Qed.
Lemma rfc_first_bound D hash : 0 <= rfc_first D hash < 2 ^ Z.of_nat qb.
Proof.
  unfold rfc_first, bits2int. set (KV := rfc_init _ _ _ _ _ _). destruct (@rfc_T_ok (fst KV) qb (snd KV) [] ltac:(constructor) ltac:(cbn [length]; lia)) as [T1 T2].
  set (T := fst (rfc_T _ _ _ _ _ _)) in *. pose proof (be_val_bound T1) as B.
  assert (P : 0 < 2 ^ Z.of_nat (8 * length T - qb)) by (apply Z.pow_pos_nonneg; lia). split; [apply Z.div_pos; lia|].
  apply Z.div_lt_upper_bound; [exact P|]. rewrite <- Z.pow_add_r by lia. replace (Z.of_nat (8 * length T - qb) + Z.of_nat qb) with (8 * Z.of_nat (length T)) by lia.
  rewrite Z.pow_mul_r by lia. exact (proj2 B).
Qed.
(** the loop with a nil reader *)
Lemma dec_det_eq D hash o : rbind (rfc_nonce c h D hash) (fun k => dec_pass c D hash k) = Ok o -> forall fuel, (0 < fuel)%nat -> dec_det fuel c h D hash = Ok o.
Proof.
  intros H fuel. induction fuel as [|f IH]; intros Hf; [lia|]. cbn [dec_det]. destruct (rfc_nonce c h D hash) as [k| |]; cbn [rbind] in *; try discriminate.
  rewrite H. cbn [rbind]. destruct o; [reflexivity|]. destruct f; [reflexivity|]. apply IH. lia.
Qed.
End dec.
Lemma rfc_k_fun HM qlen q K V k k' : rfc_k HM qlen q K V k -> rfc_k HM qlen q K V k' -> k = k'.
Proof.
  intros H. induction H as [K V k E Hk|K V k Hn H IH]; intros H'; inversion H' as [? ? ? E' Hk'|? ? ? Hn' H'']; subst; auto; contradiction.
Qed.

(** ** adata *)
Lemma lor_bytes a b : 0 <= a < 256 -> 0 <= b < 256 -> Z.lor (u16 (Z.shiftl a 8)) b = 256 * a + b.
Proof.
  intros Ha Hb. rewrite Z.shiftl_mul_pow2 by lia. change (2 ^ 8) with 256. unfold u16. rewrite Z.mod_small by lia.
  change 256 with (2 ^ 8) at 1. rewrite lor_disj by lia. change (2 ^ 8) with 256. ring.
Qed.
Lemma adata_lens_make oid t : Z.of_nat (length oid) < 65536 -> Z.of_nat (length t) < 65536 ->
  let ol := Z.of_nat (length oid) in let tl := Z.of_nat (length t) in
  adata_lens (make_adata oid t) = if (u16 (ol + tl) <? tl) || (u16 (u16 (4 + ol + tl) - 4) <? u16 (ol + tl)) then Err else Ok (ol, tl).
Proof.
  intros Ho Ht ol tl. unfold adata_lens, make_adata. cbn [app]. fold ol tl.
  assert (G : forall n, 0 <= n < 65536 -> Z.lor (u16 (Z.shiftl (to_byte (Z.shiftr n 8)) 8)) (Z.land n 255) = n).
  { intros n Hn. unfold to_byte. rewrite Z.shiftr_div_pow2 by lia. change 255 with (Z.ones 8). rewrite Z.land_ones by lia. change (2 ^ 8) with 256.
    rewrite (Z.mod_small (n / 256)) by (split; [apply Z.div_pos; lia|apply Z.div_lt_upper_bound; lia]).
    rewrite lor_bytes; [symmetry; apply Z.div_mod; lia|split; [apply Z.div_pos; lia|apply Z.div_lt_upper_bound; lia]|apply Z.mod_pos_bound; lia]. }
  rewrite !G by lia. cbn [length]. rewrite app_length. replace (Z.of_nat (S (S (S (S (length oid + length t)))))) with (4 + ol + tl) by lia. reflexivity.
Qed.
Lemma u16_small n : 0 <= n < 65536 -> u16 n = n. Proof. intros H. now apply Z.mod_small. Qed.
Lemma cut_ok lo (a b d : bytes) hi : lo = Z.of_nat (length a) -> hi = Z.of_nat (length a + length b) -> cut lo hi (a ++ b ++ d) = Ok b.
Proof.
  intros -> ->. unfold cut. rewrite !app_length. destruct (Z.leb_spec (Z.of_nat (length a)) (Z.of_nat (length a + length b))); [|lia].
  destruct (Z.leb_spec (Z.of_nat (length a + length b)) (Z.of_nat (length a + (length b + length d)))); [|lia]. cbn [andb]. f_equal. apply slice_mid; lia.
Qed.
Lemma adata_back oid t : Z.of_nat (length oid + length t) < 65532 -> get_oid (make_adata oid t) = Ok oid /\ get_t (make_adata oid t) = Ok t.
Proof.
  intros H. unfold get_oid, get_t. rewrite adata_lens_make by lia. cbv zeta. set (ol := Z.of_nat (length oid)). set (tl := Z.of_nat (length t)).
  rewrite (@u16_small (4 + ol + tl)) by lia. rewrite (@u16_small (ol + tl)) by lia. rewrite (@u16_small (4 + ol + tl - 4)) by lia.
  destruct (Z.ltb_spec (ol + tl) tl); [lia|]. destruct (Z.ltb_spec (4 + ol + tl - 4) (ol + tl)); [lia|]. cbn [orb rbind fst snd].
  rewrite (@u16_small (4 + ol)) by lia. rewrite (@u16_small (4 + ol + tl)) by lia. unfold make_adata. split.
  - apply cut_ok; cbn [length]; lia.
  - rewrite app_assoc. match goal with |- cut _ _ (?x ++ t) = _ => replace (x ++ t) with (x ++ t ++ []) by (now rewrite app_nil_r) end. apply cut_ok; rewrite app_length; cbn [length]; lia.
Qed.
Lemma adata_panics oid : Z.of_nat (length oid) = 65532 -> get_oid (make_adata oid []) = Panic.
Proof.
  intros H. unfold get_oid. rewrite adata_lens_make by (cbn [length]; lia). rewrite H. cbn [length]. change (u16 _) with 65532 at 1. vm_compute (_ || _). cbn [rbind fst]. reflexivity.
Qed.
