(** Proofs about SM4, SHACAL-2 and Skipjack. *)
From Verif Require Import Base BlockModeModel CipherLaws WordModel BlkSpec WordLib UndoLib ArxProofs Small1Props Small2Model Small2Spec.
Set Implicit Arguments. Unset Strict Implicit.
Local Open Scope nat_scope.

(** ** words *)
Lemma land_disjoint k a b : (0 <= k)%Z -> (0 <= b < 2 ^ k)%Z -> Z.land (a * 2 ^ k) b = 0%Z.
Proof.
  intros K B. apply Z.bits_inj'. intros i Hi. rewrite Z.land_spec, Z.bits_0. destruct (Z.ltb_spec i k).
  - rewrite Z.mul_pow2_bits_low by lia. reflexivity.
  - assert (E : Z.testbit b i = false); [|rewrite E; apply andb_false_r]. apply inw_testbit with k; auto.
Qed.
Lemma lxor_add k a b : (0 <= k)%Z -> (0 <= b < 2 ^ k)%Z -> Z.lxor (a * 2 ^ k) b = (a * 2 ^ k + b)%Z.
Proof. intros. symmetry. apply Z.add_nocarry_lxor, land_disjoint; auto. Qed.
Lemma rot_eq k x : (0 < k < 32)%Z -> inw 32 x -> rotl 32 k x = rot k x.
Proof.
  intros K X. unfold rotl, rot. rewrite (Z.mod_small k) by lia. rewrite Z.shiftl_mul_pow2, Z.shiftr_div_pow2 by lia.
  assert (E : ((x * 2 ^ k) mod 2 ^ 32 = x mod 2 ^ (32 - k) * 2 ^ k)%Z). { replace (2 ^ 32)%Z with (2 ^ (32 - k) * 2 ^ k)%Z by (rewrite <- Z.pow_add_r by lia; f_equal; lia). rewrite Z.mul_mod_distr_r; [reflexivity| |]; apply Z.pow_nonzero; lia. }
  rewrite E. rewrite <- Z.lxor_lor, lxor_add; try lia; try reflexivity; try (apply land_disjoint; [lia|]); unfold inw in X.
  all: split; [apply Z.div_pos; [lia|apply Z.pow_pos_nonneg; lia]|]; apply Z.div_lt_upper_bound; [apply Z.pow_pos_nonneg; lia|]; rewrite <- Z.pow_add_r by lia; replace (32 - k + k)%Z with 32%Z by lia; lia.
Qed.
Lemma be4 x : inw 32 x -> be_bytes 4 x = [x / 2 ^ 24; x / 2 ^ 16 mod 256; x / 2 ^ 8 mod 256; x mod 256]%Z.
Proof.
  unfold inw. intros X. assert (E : be_bytes 4 x = be_bytes 4 (be_val [x / 2 ^ 24; x / 2 ^ 16 mod 256; x / 2 ^ 8 mod 256; x mod 256]%Z)).
  { f_equal. unfold be_val. cbn [rev app le_val]. change (2 ^ 24)%Z with 16777216%Z. change (2 ^ 16)%Z with 65536%Z. change (2 ^ 8)%Z with 256%Z. Z.div_mod_to_equations. lia. }
  rewrite E. apply (@be_bytes_val [_; _; _; _]); [|reflexivity]. repeat (apply Forall_cons; [unfold is_byte; Z.div_mod_to_equations; lia|]). apply Forall_nil.
Qed.
Lemma at_byte_in w t b : (0 <= w)%Z -> Forall (inw w) t -> inw w (at_byte t b).
Proof. intros. apply nth_inw; auto. Qed.

(** ** SM4 *)
Definition lit_in (w : Z) (l : list Z) : bool := forallb (fun x => (0 <=? x) && (x <? 2 ^ w))%Z l.
Lemma lit_in_ok w l : lit_in w l = true -> Forall (inw w) l.
Proof. intros H. apply Forall_forall. intros x I. unfold lit_in in H. rewrite forallb_forall in H. specialize (H x I). unfold inw. lia. Qed.
Lemma sbox_ok : Forall (inw 8) sm4_sbox. Proof. apply lit_in_ok. vm_compute. reflexivity. Qed.
Lemma t0_ok : Forall (inw 32) sm4_t0. Proof. apply lit_in_ok. vm_compute. reflexivity. Qed.
Lemma t1_ok : Forall (inw 32) sm4_t1. Proof. apply lit_in_ok. vm_compute. reflexivity. Qed.
Lemma t2_ok : Forall (inw 32) sm4_t2. Proof. apply lit_in_ok. vm_compute. reflexivity. Qed.
Lemma t3_ok : Forall (inw 32) sm4_t3. Proof. apply lit_in_ok. vm_compute. reflexivity. Qed.
Notation Sb := (at_byte sm4_sbox).
Lemma Sb_ok b : inw 8 (Sb b). Proof. apply at_byte_in; [lia|apply sbox_ok]. Qed.
Lemma tau_eq x : inw 32 x -> sm4_tau x = tau Sb x.
Proof.
  intros X. unfold sm4_tau, byte_at. rewrite be4 by exact X. cbn [map nth]. unfold tau, word4. generalize (Sb (x / 2 ^ 24)) (Sb (x / 2 ^ 16 mod 256)) (Sb (x / 2 ^ 8 mod 256)) (Sb (x mod 256)).
  intros a b c d. unfold be_val. cbn [rev app le_val]. lia.
Qed.
Lemma tau_inw x : inw 32 (tau Sb x).
Proof. unfold tau, word4. pose proof (Sb_ok (x / 2 ^ 24)). pose proof (Sb_ok (x / 2 ^ 16 mod 256)). pose proof (Sb_ok (x / 2 ^ 8 mod 256)). pose proof (Sb_ok (x mod 256)). unfold inw in *. lia. Qed.
Lemma slow_T x : inw 32 x -> sm4_slow x = T Sb x.
Proof. intros X. unfold sm4_slow, T, sm4_l. rewrite tau_eq by exact X. cbv zeta. pose proof (tau_inw x) as B. rewrite !rot_eq by (auto; lia). rewrite !Z.lxor_assoc. reflexivity. Qed.
Lemma keysub_T x : inw 32 x -> sm4_keysub x = T' Sb x.
Proof. intros X. unfold sm4_keysub, T', sm4_lap. rewrite tau_eq by exact X. cbv zeta. pose proof (tau_inw x) as B. rewrite !rot_eq by (auto; lia). rewrite !Z.lxor_assoc. reflexivity. Qed.
Lemma l_inw b : inw 32 b -> inw 32 (sm4_l b). Proof. intros. unfold sm4_l. words. Qed.
Lemma l_xor a b : inw 32 a -> inw 32 b -> sm4_l (Z.lxor a b) = Z.lxor (sm4_l a) (sm4_l b).
Proof. intros A B. unfold sm4_l. rewrite !rotl_xor by (auto; lia). bits_lxor. Qed.
Definition tables_ok (b : Z) : bool :=
  (at_byte sm4_t0 b =? sm4_l (Sb b * 2 ^ 24))%Z && (at_byte sm4_t1 b =? sm4_l (Sb b * 2 ^ 16))%Z && (at_byte sm4_t2 b =? sm4_l (Sb b * 2 ^ 8))%Z && (at_byte sm4_t3 b =? sm4_l (Sb b))%Z.
Lemma tables b : (0 <= b < 256)%Z -> tables_ok b = true.
Proof. intros B. apply (@allz_spec tables_ok 256 0); [vm_compute; reflexivity|exact B]. Qed.
Lemma fast_slow x : inw 32 x -> sm4_fast x = sm4_slow x.
Proof.
  intros X. unfold sm4_fast, sm4_slow. rewrite tau_eq by exact X. unfold byte_at. rewrite be4 by exact X. cbn [nth]. unfold tau. unfold inw in X.
  set (a := (x / 2 ^ 24)%Z). set (b := (x / 2 ^ 16 mod 256)%Z). set (c := (x / 2 ^ 8 mod 256)%Z). set (d := (x mod 256)%Z).
  assert (A : (0 <= a < 256)%Z) by (unfold a; Z.div_mod_to_equations; lia). assert (B : (0 <= b < 256)%Z) by (unfold b; Z.div_mod_to_equations; lia). assert (C : (0 <= c < 256)%Z) by (unfold c; Z.div_mod_to_equations; lia). assert (D : (0 <= d < 256)%Z) by (unfold d; Z.div_mod_to_equations; lia).
  pose proof (tables A) as TA. pose proof (tables B) as TB. pose proof (tables C) as TC. pose proof (tables D) as TD. unfold tables_ok in *. rewrite !andb_true_iff, !Z.eqb_eq in *.
  destruct TA as [[[-> _] _] _]. destruct TB as [[[_ ->] _] _]. destruct TC as [[_ ->] _]. destruct TD as [_ ->].
  pose proof (Sb_ok a) as SA. pose proof (Sb_ok b) as SB. pose proof (Sb_ok c) as SC. pose proof (Sb_ok d) as SD. unfold inw in SA, SB, SC, SD.
  rewrite <- !l_xor by (repeat apply inw_xor; try lia; unfold inw; lia). f_equal. unfold word4. rewrite !Z.lxor_assoc. rewrite (@lxor_add 8) by lia. rewrite (@lxor_add 16) by lia. rewrite (@lxor_add 24) by lia. lia.
Qed.
Lemma slow_inw x : inw 32 x -> inw 32 (sm4_slow x). Proof. intros X. unfold sm4_slow. apply l_inw. rewrite tau_eq by exact X. apply tau_inw. Qed.
Lemma keysub_inw x : inw 32 x -> inw 32 (sm4_keysub x). Proof. intros X. unfold sm4_keysub, sm4_lap. rewrite tau_eq by exact X. pose proof (tau_inw x). words. Qed.
Lemma fast_inw x : inw 32 x -> inw 32 (sm4_fast x). Proof. intros X. rewrite fast_slow by exact X. now apply slow_inw. Qed.
Definition t4 (x : Z * Z * Z * Z) : list Z := let '(a, b, c, d) := x in [a; b; c; d].
(** four steps of the recurrence are one call of rnds *)
Lemma rnds_step fn F x k0 k1 k2 k3 : (forall y, inw 32 y -> fn y = F y /\ inw 32 (F y)) -> wordsok 32 4 (t4 x) -> inw 32 k0 -> inw 32 k1 -> inw 32 k2 -> inw 32 k3 ->
  let x' := fold_left (step F) [k0; k1; k2; k3] x in
  sm4_rnds fn (t4 x) k0 k1 k2 k3 = t4 x' /\ wordsok 32 4 (t4 x').
Proof.
  destruct x as [[[a b] c] d]. intros E W K0 K1 K2 K3. cbn [t4] in *. destruct W as [_ W]. repeat match goal with H : Forall _ (_ :: _) |- _ => inversion H; clear H; subst end.
  assert (EF : forall y, inw 32 y -> inw 32 (F y)) by (intros; now apply E). assert (EE : forall y, inw 32 y -> fn y = F y) by (intros; now apply E).
  cbn [fold_left step]. unfold sm4_rnds. cbn [nth]. cbv zeta.
  assert (XA : forall p q r k, Z.lxor (Z.lxor (Z.lxor p q) r) k = Z.lxor p (Z.lxor q (Z.lxor r k))) by (intros; rewrite !Z.lxor_assoc; reflexivity).
  set (b0 := Z.lxor a (F (Z.lxor b (Z.lxor c (Z.lxor d k0))))). assert (B0 : inw 32 b0) by (unfold b0; words).
  set (b1 := Z.lxor b (F (Z.lxor c (Z.lxor d (Z.lxor b0 k1))))). assert (B1 : inw 32 b1) by (unfold b1; words).
  set (b2 := Z.lxor c (F (Z.lxor d (Z.lxor b0 (Z.lxor b1 k2))))). assert (B2 : inw 32 b2) by (unfold b2; words).
  set (b3 := Z.lxor d (F (Z.lxor b0 (Z.lxor b1 (Z.lxor b2 k3))))). assert (B3 : inw 32 b3) by (unfold b3; words).
  rewrite (XA b c d k0), (EE (Z.lxor b (Z.lxor c (Z.lxor d k0)))) by words. fold b0. rewrite (XA c d b0 k1), (EE (Z.lxor c (Z.lxor d (Z.lxor b0 k1)))) by words. fold b1.
  rewrite (XA d b0 b1 k2), (EE (Z.lxor d (Z.lxor b0 (Z.lxor b1 k2)))) by words. fold b2. rewrite (XA b0 b1 b2 k3), (EE (Z.lxor b0 (Z.lxor b1 (Z.lxor b2 k3)))) by words. fold b3.
  cbn [t4]. split; [reflexivity|apply wordsok_4; assumption].
Qed.

Lemma rounds_std fn (F : Z -> Z) rk : (forall i y, inw 32 y -> fn i y = F y /\ inw 32 (F y)) -> Forall (inw 32) rk -> forall n, 4 * n <= length rk -> forall x, wordsok 32 4 (t4 x) ->
  let x' := fold_left (step F) (firstn (4 * n) rk) x in
  fold_left (fun b i => sm4_rnds (fn i) b rk.[i] rk.[i + 1] rk.[i + 2] rk.[i + 3]) (ups 0 n 4) (t4 x) = t4 x' /\ wordsok 32 4 (t4 x').
Proof.
  intros E R. induction n as [|n IH]; intros L x W; [split; [reflexivity|exact W]|]. destruct (IH ltac:(lia) x W) as [I1 I2]. cbv zeta. rewrite ups_S, fold_left_app, I1. cbn [fold_left]. replace (0 + 4 * n) with (4 * n) by lia.
  assert (S4 : firstn (4 * S n) rk = firstn (4 * n) rk ++ [rk.[4 * n]; rk.[4 * n + 1]; rk.[4 * n + 2]; rk.[4 * n + 3]]).
  { replace (4 * S n) with (4 * n + 4) by lia. rewrite <- (firstn_skipn (4 * n) rk) at 1. rewrite firstn_app, firstn_firstn. replace (Nat.min (4 * n + 4) (4 * n)) with (4 * n) by lia. rewrite firstn_length_le by lia. replace (4 * n + 4 - 4 * n) with 4 by lia. f_equal.
    assert (NS : forall j, j < 4 -> (skipn (4 * n) rk).[j] = rk.[4 * n + j]). { intros j J. rewrite <- (firstn_skipn (4 * n) rk) at 2. rewrite app_nth2; rewrite firstn_length_le by lia; [|lia]. f_equal. lia. }
    rewrite <- (NS 1), <- (NS 2), <- (NS 3) by lia. replace (4 * n) with (4 * n + 0) at 2 by lia. rewrite <- (NS 0) by lia. assert (LS : 4 <= length (skipn (4 * n) rk)) by (rewrite skipn_length; lia). destruct (skipn (4 * n) rk) as [|p [|q [|r [|s l]]]]; cbn [length] in LS; try lia. reflexivity. }
  rewrite S4, fold_left_app. apply rnds_step; [auto|exact I2|apply nth_inw; auto; lia..].
Qed.
Lemma ok_t4 s : wordsok 32 4 s -> exists x, s = t4 x. Proof. intros H. destruct (four_words H) as (a & b & c & d & -> & _). exists (a, b, c, d). reflexivity. Qed.
Lemma up_fn (c : bool) y : inw 32 y -> (if c then sm4_slow else sm4_fast) y = T Sb y /\ inw 32 (T Sb y).
Proof. intros Y. rewrite <- slow_T by exact Y. split; [destruct c; [reflexivity|now apply fast_slow]|now apply slow_inw]. Qed.
Lemma enc_std rk a b c d : Forall (inw 32) rk -> length rk = 32 -> wordsok 32 4 [a; b; c; d] -> sm4_enc rk [a; b; c; d] = sm4_block Sb rk a b c d.
Proof.
  intros R L W. destruct (@rounds_std (fun i => if (i =? 0) || (i =? 28) then sm4_slow else sm4_fast) (T Sb) rk) with (n := 8) (x := (a, b, c, d)) as [E _]; auto; try lia. { intros; now apply up_fn. }
  unfold sm4_enc, sm4_block. change (fold_left (sm4_up rk) (ups 0 8 4) [a; b; c; d]) with (fold_left (fun b i => sm4_rnds (if (i =? 0) || (i =? 28) then sm4_slow else sm4_fast) b rk.[i] rk.[i + 1] rk.[i + 2] rk.[i + 3]) (ups 0 8 4) (t4 (a, b, c, d))).
  rewrite E. rewrite firstn_all2 by lia. destruct (fold_left (step (T Sb)) rk (a, b, c, d)) as [[[w x] y] z]. reflexivity.
Qed.
(** keys *)
Lemma keys_app l1 : forall l2 x, sm4_keys Sb (l1 ++ l2) x = sm4_keys Sb l1 x ++ sm4_keys Sb l2 (fold_left (step (T' Sb)) l1 x).
Proof. induction l1 as [|k l1 IH]; intros l2 x; [reflexivity|]. cbn [app sm4_keys fold_left]. f_equal. apply IH. Qed.
Lemma ck_ok : Forall (inw 32) sm4_ck. Proof. apply lit_in_ok. vm_compute. reflexivity. Qed.
Lemma expand_go n : forall x acc, n <= 8 -> wordsok 32 4 (t4 x) -> Forall (inw 32) acc ->
  let x' := fold_left (step (T' Sb)) (firstn (4 * n) sm4_ck) x in
  fold_left (fun kr i => let k := sm4_rnds sm4_keysub (fst kr) sm4_ck.[i] sm4_ck.[i + 1] sm4_ck.[i + 2] sm4_ck.[i + 3] in (k, snd kr ++ k)) (ups 0 n 4) (t4 x, acc) =
  (t4 x', acc ++ sm4_keys Sb (firstn (4 * n) sm4_ck) x) /\ wordsok 32 4 (t4 x') /\ Forall (inw 32) (acc ++ sm4_keys Sb (firstn (4 * n) sm4_ck) x).
Proof.
  induction n as [|n IH]; intros x acc L W A x'; subst x'. { cbn [Nat.mul firstn fold_left sm4_keys ups map seq]. rewrite app_nil_r. auto. }
  destruct (IH x acc ltac:(lia) W A) as (I1 & I2 & I3). rewrite ups_S, fold_left_app, I1. cbn [fold_left fst snd]. replace (0 + 4 * n) with (4 * n) by lia.
  assert (S4 : firstn (4 * S n) sm4_ck = firstn (4 * n) sm4_ck ++ [sm4_ck.[4 * n]; sm4_ck.[4 * n + 1]; sm4_ck.[4 * n + 2]; sm4_ck.[4 * n + 3]]).
  { clear -L. do 8 (destruct n as [|n]; [vm_compute; reflexivity|]). lia. }
  rewrite S4, fold_left_app, keys_app. set (y := fold_left (step (T' Sb)) (firstn (4 * n) sm4_ck) x) in *.
  assert (CI : forall j, inw 32 sm4_ck.[j]) by (intros; apply nth_inw; [lia|apply ck_ok]).
  destruct (@rnds_step sm4_keysub (T' Sb) y sm4_ck.[4 * n] sm4_ck.[4 * n + 1] sm4_ck.[4 * n + 2] sm4_ck.[4 * n + 3]) as [R1 R2]; auto. { intros z Hz. rewrite <- keysub_T by exact Hz. split; [reflexivity|now apply keysub_inw]. }
  cbv zeta in R1, R2. rewrite R1. set (z := fold_left (step (T' Sb)) [sm4_ck.[4 * n]; sm4_ck.[4 * n + 1]; sm4_ck.[4 * n + 2]; sm4_ck.[4 * n + 3]] y) in *.
  assert (KZ : sm4_keys Sb [sm4_ck.[4 * n]; sm4_ck.[4 * n + 1]; sm4_ck.[4 * n + 2]; sm4_ck.[4 * n + 3]] y = t4 z). { unfold z. destruct y as [[[y0 y1] y2] y3]. reflexivity. }
  rewrite KZ, app_assoc. split; [reflexivity|]. split; [exact R2|]. apply Forall_app. split; [exact I3|apply R2].
Qed.
Lemma expand_std key : bytes_ok key -> length key = 16 ->
  exists a b c d, ldw_be 4 key = [a; b; c; d] /\ let x := (Z.lxor a 0xA3B1BAC6, Z.lxor b 0x56AA3350, Z.lxor c 0x677D9197, Z.lxor d 0xB27022DC)%Z in
  sm4_expand key = sm4_keys Sb sm4_ck x /\ Forall (inw 32) (sm4_expand key).
Proof.
  intros O L. destruct (four_words (@ldw_be_ok 4 4 key 32 eq_refl ltac:(lia) L O)) as (a & b & c & d & E & A & B & C & D). exists a, b, c, d. split; [exact E|]. cbv zeta. unfold sm4_expand. rewrite E. cbn [map nth].
  set (x := (Z.lxor a 0xA3B1BAC6, Z.lxor b 0x56AA3350, Z.lxor c 0x677D9197, Z.lxor d 0xB27022DC)%Z). change [Z.lxor a sm4_fk.[0]; Z.lxor b sm4_fk.[1]; Z.lxor c sm4_fk.[2]; Z.lxor d sm4_fk.[3]] with (t4 x).
  assert (W : wordsok 32 4 (t4 x)). { unfold x. cbn [t4]. apply wordsok_4; (apply inw_xor; [lia|assumption|split; [discriminate|reflexivity]]). }
  destruct (@expand_go 8 x [] ltac:(lia) W (Forall_nil _)) as (G1 & _ & G2). change (firstn (4 * 8) sm4_ck) with sm4_ck in G1, G2. cbv zeta in G1. rewrite G1. cbn [snd app]. split; [reflexivity|exact G2].
Qed.
Lemma keys_len l : forall x, length (sm4_keys Sb l x) = length l. Proof. induction l as [|k l IH]; intros x; [reflexivity|]. cbn [sm4_keys length]. now rewrite IH. Qed.
(** decryption *)
Lemma out_out s : length s = 4 -> sm4_out (sm4_out s) = s. Proof. destruct s as [|a [|b [|c [|d [|e s]]]]]; try discriminate. reflexivity. Qed.
Lemma out_ok s : wordsok 32 4 s -> wordsok 32 4 (sm4_out s). Proof. intros H. destruct (four_words H) as (a & b & c & d & -> & A & B & C & D). apply wordsok_4; auto. Qed.
Lemma rnds_ok fn b k0 k1 k2 k3 : (forall y, inw 32 y -> inw 32 (fn y)) -> inw 32 k0 -> inw 32 k1 -> inw 32 k2 -> inw 32 k3 -> wordsok 32 4 b -> wordsok 32 4 (sm4_rnds fn b k0 k1 k2 k3).
Proof. intros E K0 K1 K2 K3 W. destruct (ok_t4 W) as [x ->]. destruct (@rnds_step fn fn x k0 k1 k2 k3) as [-> R]; auto. Qed.
Lemma rnds_undo fn b k0 k1 k2 k3 : length b = 4 -> sm4_out (sm4_rnds fn (sm4_out (sm4_rnds fn b k0 k1 k2 k3)) k3 k2 k1 k0) = b.
Proof.
  destruct b as [|a [|b [|c [|d [|e s]]]]]; try discriminate. intros _. unfold sm4_rnds at 2. cbn [nth]. cbv zeta.
  set (b0 := Z.lxor a _). set (b1 := Z.lxor b _). set (b2 := Z.lxor c _). set (b3 := Z.lxor d _). unfold sm4_out at 2. cbn [nth]. unfold sm4_rnds. cbn [nth]. cbv zeta.
  assert (E3 : Z.lxor b3 (fn (Z.lxor (Z.lxor (Z.lxor b2 b1) b0) k3)) = d). { replace (Z.lxor (Z.lxor b2 b1) b0) with (Z.lxor (Z.lxor b0 b1) b2) by bits_lxor. unfold b3. apply lxor_cancel_r. }
  rewrite E3. assert (E2 : Z.lxor b2 (fn (Z.lxor (Z.lxor (Z.lxor b1 b0) d) k2)) = c). { replace (Z.lxor (Z.lxor b1 b0) d) with (Z.lxor (Z.lxor d b0) b1) by bits_lxor. unfold b2. apply lxor_cancel_r. }
  rewrite E2. assert (E1 : Z.lxor b1 (fn (Z.lxor (Z.lxor (Z.lxor b0 d) c) k1)) = b). { replace (Z.lxor (Z.lxor b0 d) c) with (Z.lxor (Z.lxor c d) b0) by bits_lxor. unfold b1. apply lxor_cancel_r. }
  rewrite E1. assert (E0 : Z.lxor b0 (fn (Z.lxor (Z.lxor (Z.lxor d c) b) k0)) = a). { replace (Z.lxor (Z.lxor d c) b) with (Z.lxor (Z.lxor b c) d) by bits_lxor. unfold b0. apply lxor_cancel_r. }
  rewrite E0. reflexivity.
Qed.
Lemma sm4_lawful rk : Forall (inw 32) rk -> lawful (sm4_cph rk).
Proof.
  intros R. apply word_lawful_be_u with 32%Z; try lia. set (I := wordsok 32 4). assert (RI : forall j, inw 32 rk.[j]) by (intros; apply nth_inw; auto; lia).
  assert (FI : forall (c : bool) y, inw 32 y -> inw 32 ((if c then sm4_slow else sm4_fast) y)) by (intros c y Y; destruct c; [now apply slow_inw|now apply fast_inw]).
  set (g := fun s j => sm4_out (sm4_down rk (sm4_out s) j)).
  assert (U : undoes I (fun s => fold_left (sm4_up rk) (ups 0 8 4) s) (fun s => fold_left g (downs 32 8 4) s)).
  { apply (@undoes_rounds2 _ I nat nat (fun i => i <= 28) (fun i => i + 4)); [reflexivity|apply Forall_ups; intros; lia|]. intros i Hi s H. split; [apply rnds_ok; auto|]. split; [unfold g; apply out_ok, rnds_ok; auto; now apply out_ok|].
    unfold g, sm4_up, sm4_down. replace ((i + 4 =? 32) || (i + 4 =? 4)) with ((i =? 0) || (i =? 28)) by (destruct (Nat.eqb_spec (i + 4) 32), (Nat.eqb_spec (i + 4) 4), (Nat.eqb_spec i 0), (Nat.eqb_spec i 28); cbn; lia).
    replace (i + 4 - 1) with (i + 3) by lia. replace (i + 4 - 2) with (i + 2) by lia. replace (i + 4 - 3) with (i + 1) by lia. replace (i + 4 - 4) with i by lia. apply rnds_undo. apply H. }
  assert (UO : undoes I sm4_out sm4_out) by (intros s H; split; [now apply out_ok|]; split; [now apply out_ok|]; apply out_out, H).
  assert (CJ : forall l s, I s -> fold_left g l s = sm4_out (fold_left (sm4_down rk) l (sm4_out s))).
  { induction l as [|j l IH]; intros s H; cbn [fold_left]; [symmetry; apply out_out, H|]. rewrite IH. - unfold g. rewrite out_out; [reflexivity|]. unfold sm4_down, sm4_rnds. reflexivity. - unfold g. apply out_ok, rnds_ok; auto. now apply out_ok. }
  eapply undoes_ext; [| |exact (undoes_comp U UO)]; [intros; reflexivity|]. intros s H. cbv beta. rewrite CJ by now apply out_ok. rewrite out_out by apply H. reflexivity.
Qed.
