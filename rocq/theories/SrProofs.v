(** Proofs about sdsa. *)
From Verif Require Import Base BigModel NumLib ModRw ElgProofs CurveModel CurveSpec EcSigProofs EcSigProofs2 SrModel SrSpec.
Set Implicit Arguments. Unset Strict Implicit.
Local Open Scope Z_scope.

Section Sdsa.
Variable h : hasher.
Hypothesis Hh : hasher_ok h.
Variable key : sdsa_priv.
Notation u := (spub key).
Hypothesis HK : schnorr_key (sP u) (sQ u) (sG u) (sY u) (sX key).

Definition sd_buf (k : Z) : bytes := be_bytes (byteceil (bitlen (sP u))) (sG u ^ k mod sP u).

Lemma sd_exp b e : 0 <= e -> big_exp b e (sP u) = Ok (b ^ e mod sP u).
Proof. intros He. destruct HK as (HP & _). unfold big_exp. destruct (Z.ltb_spec e 0); [lia|]. rewrite powm_spec by lia. reflexivity. Qed.
Lemma sd_fill a : fill_bytes (byteceil (bitlen (sP u))) (a mod sP u) = Ok (be_bytes (byteceil (bitlen (sP u))) (a mod sP u)).
Proof.
  destruct HK as (HP & _). apply fill_bytes_fits. pose proof (Z.mod_pos_bound a (sP u) ltac:(lia)). pose proof (@byteceil_bound (sP u) ltac:(lia)). lia.
Qed.
Lemma sd_hash_bound m : 0 <= be_val (hsum h m) < 256 ^ Z.of_nat (hsize h).
Proof. destruct (Hh m) as [E O]. pose proof (be_val_bound O) as B. now rewrite E in B. Qed.

Lemma sd_commit r s : 0 <= s -> (sG u ^ s mod sP u * (sY u ^ (sQ u - r mod sQ u) mod sP u)) mod sP u = sG u ^ ((s - r * sX key) mod sQ u) mod sP u.
Proof.
  intros Hs. destruct HK as (HP & HQ & HG & HO & HX & HY). pose proof (Z.mod_pos_bound r (sQ u) ltac:(lia)) as Hr. set (rr := sQ u - r mod sQ u).
  rewrite <- Z.mul_mod by lia.
  assert (E : sY u ^ rr =[ sP u ]= sG u ^ (sX key * rr)).
  { rewrite Z.pow_mul_r by lia. apply cong_pow. rewrite HY. apply Z.mod_mod. lia. }
  transitivity ((sG u ^ s * sG u ^ (sX key * rr)) mod sP u); [apply cong_mul; [reflexivity|exact E]|].
  assert (Hrr : 0 <= sX key * rr) by (apply Z.mul_nonneg_nonneg; unfold rr; lia).
  rewrite <- Z.pow_add_r by lia. apply (@pow_order (sG u) (sQ u) (sP u)); [lia|lia|exact HO|lia|apply Z.mod_pos_bound; lia|].
  apply zq_eq. rewrite zq_mod. unfold rr.
  assert (E2 : zq (sQ u) (sQ u - r mod sQ u) (- r)) by (apply Zq; rewrite Zminus_mod_idemp_r; replace (sQ u - r) with (- r + 1 * sQ u) by ring; apply Z_mod_plus_full).
  rewrite E2. replace (s + sX key * - r) with (s - r * sX key) by ring. reflexivity.
Qed.

Lemma sd_verify data r s : sdsa_verify h u data r s =
  if (0 <? r) && (0 <? s) && (s <? sQ u) then
    rbind (fill_bytes (hsize h) r) (fun b => Ok (if list_eq_dec Z.eq_dec b (hsum h (sd_buf ((s - r * sX key) mod sQ u) ++ data)) then true else false))
  else Ok false.
Proof.
  unfold sdsa_verify. pose proof HK as (HP & HQ & HG & HO & HX & HY). destruct (Z.eqb_spec (sP u) 0); [lia|].
  destruct (Z.ltb_spec r 1), (Z.ltb_spec 0 r); try lia; cbn [andb]; [reflexivity|].
  destruct (Z.ltb_spec s 1), (Z.ltb_spec 0 s); try lia; cbn [andb orb]; [reflexivity|].
  destruct (Z.leb_spec (sQ u) s), (Z.ltb_spec s (sQ u)); try lia; [reflexivity|].
  pose proof (Z.mod_pos_bound r (sQ u) ltac:(lia)). rewrite sd_exp by lia. cbn [rbind]. rewrite sd_exp by lia. cbn [rbind].
  rewrite sd_commit by lia. rewrite sd_fill. cbn [rbind]. reflexivity.
Qed.

Lemma sd_accepts data r s : sdsa_verify h u data r s = Ok true <->
  0 < r /\ 0 < s < sQ u /\ schnorr_pair (hsum h) (sP u) (sQ u) (sG u) (sX key) (byteceil (bitlen (sP u))) data r s.
Proof.
  rewrite sd_verify. pose proof HK as (HP & HQ & HG & HO & HX & HY).
  set (k0 := (s - r * sX key) mod sQ u). assert (Hk0 : 0 <= k0 < sQ u) by (apply Z.mod_pos_bound; lia).
  split.
  - destruct (Z.ltb_spec 0 r); [|discriminate]. destruct (Z.ltb_spec 0 s); [|discriminate]. destruct (Z.ltb_spec s (sQ u)); [|discriminate]. cbn [andb].
    destruct (fill_bytes (hsize h) r) as [b| |] eqn:E; cbn [rbind]; try discriminate. destruct (list_eq_dec _ _ _) as [Eb|]; [|discriminate]. intros _.
    apply fill_bytes_ok in E as (_ & _ & E); [|lia]. split; [lia|]. split; [lia|]. exists k0. split; [exact Hk0|]. split.
    + rewrite <- E, Eb. reflexivity.
    + rewrite <- (Z.mod_small s (sQ u)) at 1 by lia. apply zq_eq. unfold k0. rewrite zq_mod. replace (s - r * sX key + r * sX key) with s by ring. reflexivity.
  - intros (Hr & Hs & k & Hk & Er & Es). destruct (Z.ltb_spec 0 r); [|lia]. destruct (Z.ltb_spec 0 s); [|lia]. destruct (Z.ltb_spec s (sQ u)); [|lia]. cbn [andb].
    assert (Ek : k0 = k).
    { unfold k0. rewrite <- (Z.mod_small k (sQ u)) by lia. apply zq_eq. rewrite Es at 1. rewrite zq_mod. replace (k + r * sX key - r * sX key) with k by ring. reflexivity. }
    rewrite Ek. fold (sd_buf k) in Er. rewrite Er. rewrite fill_bytes_fits by apply sd_hash_bound. cbn [rbind].
    destruct (Hh (sd_buf k ++ data)) as [E O]. rewrite (be_bytes_val O E). destruct (list_eq_dec _ _ _); congruence.
Qed.
Lemma sd_panics data r s : sdsa_verify h u data r s = Panic <-> 256 ^ Z.of_nat (hsize h) <= r /\ 0 < s < sQ u.
Proof.
  rewrite sd_verify. pose proof (Z.pow_pos_nonneg 256 (Z.of_nat (hsize h)) ltac:(lia) ltac:(lia)). split.
  - destruct (Z.ltb_spec 0 r); [|discriminate]. destruct (Z.ltb_spec 0 s); [|discriminate]. destruct (Z.ltb_spec s (sQ u)); [|discriminate]. cbn [andb].
    destruct (Z_lt_le_dec r (256 ^ Z.of_nat (hsize h))); [|lia]. rewrite fill_bytes_fits by lia. discriminate.
  - intros [Hr Hs]. destruct (Z.ltb_spec 0 r); [|lia]. destruct (Z.ltb_spec 0 s); [|lia]. destruct (Z.ltb_spec s (sQ u)); [|lia]. cbn [andb].
    rewrite fill_bytes_panics by lia. reflexivity.
Qed.

Lemma sd_try k data : 0 <= k < sQ u -> forall fuel j, match sdsa_try fuel h key k data (concat (repeat (sd_buf k ++ data) j)) with
  | Ok (r, s) => exists i, (j <= i < j + fuel)%nat /\ r = be_val (hsum h (concat (repeat (sd_buf k ++ data) (S i)))) /\ s = (k + r * sX key) mod sQ u /\
      r mod sQ u <> 0 /\ s <> 0 /\
      forall i', (j <= i' < i)%nat -> let r' := be_val (hsum h (concat (repeat (sd_buf k ++ data) (S i')))) in r' mod sQ u = 0 \/ (k + r' * sX key) mod sQ u = 0
  | Err => forall i', (j <= i' < j + fuel)%nat -> let r' := be_val (hsum h (concat (repeat (sd_buf k ++ data) (S i')))) in r' mod sQ u = 0 \/ (k + r' * sX key) mod sQ u = 0
  | Panic => False end.
Proof.
  intros Hk. pose proof HK as (HP & HQ & HG & HO & HX & HY). induction fuel as [|f IH]; intros j; cbn [sdsa_try]; [intros i' Hi; lia|].
  rewrite sd_exp by lia. cbn [rbind]. rewrite sd_fill. cbn [rbind]. fold (sd_buf k).
  assert (EM : concat (repeat (sd_buf k ++ data) j) ++ sd_buf k ++ data = concat (repeat (sd_buf k ++ data) (S j))).
  { rewrite <- (Nat.add_1_r j), repeat_app, concat_app. cbn [repeat concat]. now rewrite app_nil_r. }
  rewrite EM. set (r := be_val (hsum h (concat (repeat (sd_buf k ++ data) (S j))))).
  assert (Es : ((sX key * (r mod sQ u)) mod sQ u + k) mod sQ u = (k + r * sX key) mod sQ u).
  { apply zq_eq. rewrite !zq_mod. replace (sX key * r + k) with (k + r * sX key) by ring. reflexivity. }
  rewrite Es. specialize (IH (S j)).
  assert (Hfail : r mod sQ u = 0 \/ (k + r * sX key) mod sQ u = 0 ->
    match sdsa_try f h key k data (concat (repeat (sd_buf k ++ data) (S j))) with
  | Ok (r, s) => exists i, (j <= i < j + S f)%nat /\ r = be_val (hsum h (concat (repeat (sd_buf k ++ data) (S i)))) /\ s = (k + r * sX key) mod sQ u /\
      r mod sQ u <> 0 /\ s <> 0 /\
      forall i', (j <= i' < i)%nat -> let r' := be_val (hsum h (concat (repeat (sd_buf k ++ data) (S i')))) in r' mod sQ u = 0 \/ (k + r' * sX key) mod sQ u = 0
  | Err => forall i', (j <= i' < j + S f)%nat -> let r' := be_val (hsum h (concat (repeat (sd_buf k ++ data) (S i')))) in r' mod sQ u = 0 \/ (k + r' * sX key) mod sQ u = 0
  | Panic => False end).
  { intros Hf. destruct (sdsa_try f h key k data _) as [[r' s']| |]; [| |exact IH].
    - destruct IH as (i & Hi & E1 & E2 & E3 & E4 & E5). exists i. split; [lia|]. split; [exact E1|]. split; [exact E2|]. split; [exact E3|]. split; [exact E4|].
      intros i' Hi'. destruct (Nat.eq_dec i' j) as [->|]; [exact Hf|apply E5; lia].
    - intros i' Hi'. destruct (Nat.eq_dec i' j) as [->|]; [exact Hf|apply IH; lia]. }
  destruct (Z.eqb_spec (r mod sQ u) 0) as [Er|Er]; [apply Hfail; auto|].
  destruct (Z.eqb_spec ((k + r * sX key) mod sQ u) 0) as [Ez|Ez]; cbn [negb]; [apply Hfail; auto|].
  cbv beta iota. exists j. split; [lia|]. split; [reflexivity|]. split; [reflexivity|]. split; [exact Er|]. split; [exact Ez|]. intros i' Hi'. lia.
Qed.

Lemma sd_sign_k k data : 0 <= k < sQ u -> sdsa_sign_k h k key data = sdsa_try 10 h key k data (concat (repeat (sd_buf k ++ data) 0)).
Proof.
  intros Hk. pose proof HK as (HP & HQ & HG & HO & HX & HY). unfold sdsa_sign_k.
  destruct (Z.leb_spec (sQ u) 0); [lia|]. destruct (Z.leb_spec (sP u) 0); [lia|]. destruct (Z.leb_spec (sG u) 0); [lia|]. destruct (Z.leb_spec (sX key) 0); [lia|]. reflexivity.
Qed.
Lemma sd_nonce rd k rd' : bytes_ok rd -> until (fun rd => rbind (read_full (Nat.div (bitlen (sQ u)) 8) rd) (fun br =>
    let k := be_val (fst br) in Ok (if (0 <? k) && (k <? sQ u) then Some k else None, snd br))) rd = Ok (k, rd') -> 0 < k < sQ u.
Proof.
  intros Hrd H. apply (until_inv (Q := fun k => 0 < k < sQ u)) in H; [tauto| |exact Hrd].
  intros r o r' Hr E. destruct (read_full _ r) as [[b r1]| |] eqn:Er; try discriminate. cbn [rbind fst snd] in E. injection E as <- <-.
  apply read_full_ok in Er; auto. split; [tauto|]. destruct (Z.ltb_spec 0 (be_val b)); cbn [andb]; auto. destruct (Z.ltb_spec (be_val b) (sQ u)); auto.
Qed.
Lemma sd_sign_inv rd data r s : bytes_ok rd -> sdsa_sign h rd key data = Ok (r, s) -> exists k, 0 < k < sQ u /\ sdsa_sign_k h k key data = Ok (r, s).
Proof.
  intros Hrd. unfold sdsa_sign. destruct (negb _); [discriminate|]. destruct (until _ rd) as [[k rd']| |] eqn:E; try discriminate. cbn [rbind fst]. intros H'.
  exists k. split; [exact (sd_nonce Hrd E)|exact H'].
Qed.
Lemma sd_until_np (n : nat) (q : Z) rd : until (fun rd => rbind (read_full n rd) (fun br =>
    let k := be_val (fst br) in Ok (if (0 <? k) && (k <? q) then Some k else None, snd br))) rd <> Panic.
Proof. apply retry_no_panic. intros r. unfold read_full. destruct (_ <=? _)%nat; discriminate. Qed.
Lemma sd_sign_total rd data : bytes_ok rd -> sdsa_sign h rd key data <> Panic.
Proof.
  intros Hrd. unfold sdsa_sign. destruct (negb _); [discriminate|]. pose proof (@sd_until_np (Nat.div (bitlen (sQ u)) 8) (sQ u) rd) as N0.
  destruct (until _ rd) as [[k rd']| |] eqn:E; cbn [rbind fst]; try congruence. pose proof (sd_nonce Hrd E) as Hk. rewrite sd_sign_k by lia.
  pose proof (@sd_try k data ltac:(lia) 10 0) as T. destruct (sdsa_try _ _ _ _ _ _); [discriminate|discriminate|contradiction].
Qed.
End Sdsa.
