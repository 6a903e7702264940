(** Proofs about the key derivation functions: shared memory, RFC 7292, X9.63 and OpenPGP. *)
From Verif Require Import Base WordModel WordLib BigModel NumLib ElgProofs Hash3Model KdfModel KdfSpec KdfProofs Ocb3Proofs.
From Verif Require EcSigProofs2 CcmProofs.
From Coq Require Import Lia Arith Psatz.
Set Implicit Arguments. Unset Strict Implicit.
Local Open Scope nat_scope.

(** * gost_pbkdf2: padding and memory *)
Lemma gp_prf_nested H pw m : gp_prf H pw m = nested H pw m.
Proof. reflexivity. Qed.
Lemma gp_hmac H bs K m : length K < bs -> nested H (pad_beyond bs K) m = hmac_of H bs K m.
Proof.
  intros L. unfold nested, pad_beyond, hmac_of. destruct (Nat.ltb_spec bs (length K)); [lia|]. rewrite Nat.mod_small by auto.
  rewrite app_length, repeat_length. replace (length K + (bs - length K)) with bs by lia. reflexivity.
Qed.
Lemma pbkdf2_block_ext f g h salt c i : (forall m, f m = g m) -> pbkdf2_block f h salt c i = pbkdf2_block g h salt c i.
Proof.
  intros E. unfold pbkdf2_block. f_equal. apply map_ext. intros j. induction j; [apply E|]. rewrite !iter_S', IHj. apply E.
Qed.
Definition inside (m : bytes) (w : win) : Prop := w_len w <= w_cap w /\ w_off w + w_cap w <= length m.
Lemma wget_length m w : inside m w -> length (wget m w) = w_len w.
Proof. intros [A B]. unfold wget. apply slice_length. lia. Qed.
Lemma wget_splice_apart m w o x : inside m w -> o + length x <= length m ->
  (w_off w + w_len w <= o \/ o + length x <= w_off w) -> wget (splice o x m) w = wget m w.
Proof.
  intros [A B] L D. unfold wget, slice, splice. destruct D as [D|D].
  - rewrite skipn_app, firstn_app. rewrite skipn_length, firstn_length, Nat.min_l by lia.
    replace (w_len w - (o - w_off w)) with 0 by lia. cbn [firstn]. rewrite app_nil_r.
    rewrite skipn_firstn_comm, firstn_firstn, Nat.min_l by lia. reflexivity.
  - rewrite app_assoc, skipn_app, app_length, firstn_length, Nat.min_l by lia. rewrite skipn_all2 by (rewrite app_length, firstn_length; lia).
    cbn [app]. rewrite skipn_skipn'. f_equal. f_equal. lia.
Qed.

(** * RFC 7292 *)
Lemma repeated_nil n : repeated n [] = [].
Proof. reflexivity. Qed.
Lemma repeated_length n l : l <> [] -> length (repeated n l) = n.
Proof. intros N. unfold repeated. destruct l; [congruence|]. cbn [length Nat.eqb]. rewrite map_length, seq_length. reflexivity. Qed.
Lemma nth_repeated n l p : l <> [] -> p < n -> (repeated n l).[p] = l.[p mod length l].
Proof.
  intros N L. unfold repeated. destruct (Nat.eqb_spec (length l) 0) as [E|E]; [destruct l; cbn in E; congruence|].
  set (f := fun x => l.[x mod length l]). rewrite (nth_indep _ 0%Z (f 0)) by (rewrite map_length, seq_length; auto).
  rewrite map_nth, seq_nth by auto. reflexivity.
Qed.
Lemma concat_repeat_length (l : bytes) k : length (concat (repeat l k)) = k * length l.
Proof. induction k; cbn; auto. rewrite app_length, IHk. lia. Qed.
Lemma nth_concat_repeat (l : bytes) k p : p < k * length l -> (concat (repeat l k)).[p] = l.[p mod length l].
Proof.
  revert p. induction k; intros p L; [lia|]. cbn [repeat concat]. destruct (Nat.lt_ge_cases p (length l)).
  - rewrite app_nth1 by auto. rewrite Nat.mod_small by auto. reflexivity.
  - rewrite app_nth2 by auto. rewrite IHk by (cbn in L; lia). f_equal.
    replace p with ((p - length l) + 1 * length l) at 2 by lia. rewrite Nat.mod_add; [reflexivity|]. lia.
Qed.
Lemma firstn_repeats n (l : bytes) k : l <> [] -> n <= k * length l -> firstn n (concat (repeat l k)) = repeated n l.
Proof.
  intros N L. apply nth_eq.
  - rewrite repeated_length by auto. rewrite firstn_length, concat_repeat_length. lia.
  - intros p Hp. rewrite firstn_length, concat_repeat_length in Hp. rewrite nth_firstn by lia.
    rewrite nth_concat_repeat, nth_repeated by (auto; lia). reflexivity.
Qed.
Lemma ceil_to_ge v n : 0 < v -> n <= ceil_to v n.
Proof.
  intros V. unfold ceil_to. pose proof (Nat.div_mod (n + v - 1) v ltac:(lia)). pose proof (Nat.mod_upper_bound (n + v - 1) v ltac:(lia)). lia.
Qed.
Lemma p12_fill_eq l v : 0 < v -> p12_fill l v = repeated (ceil_to v (length l)) l.
Proof.
  intros V. unfold p12_fill. destruct (Nat.eqb_spec (length l) 0) as [E|E].
  - destruct l; [reflexivity|cbn in E; lia].
  - fold (ceil_to v (length l)). set (n := ceil_to v (length l)). apply firstn_repeats.
    + intros ->. cbn in E. lia.
    + pose proof (Nat.div_mod (n + length l - 1) (length l) E). pose proof (Nat.mod_upper_bound (n + length l - 1) (length l) E). lia.
Qed.
Lemma big_bytes_fit x : (0 <= x)%Z -> exists k, big_bytes x = be_bytes k x /\ (x < 256 ^ Z.of_nat k)%Z.
Proof.
  intros P. exists (byteceil (bitlen x)). pose proof (be_val_big_bytes P) as V. pose proof (be_val_bound (@big_bytes_ok x)) as B.
  rewrite V in B. unfold big_bytes in *. rewrite be_bytes_length in B. rewrite Z.abs_eq by auto. split; [reflexivity|lia].
Qed.
Lemma p12_add_eq v B Ij : bytes_ok B -> bytes_ok Ij -> p12_add v B Ij = be_bytes v (be_val Ij + be_val B + 1).
Proof.
  intros HB HI. pose proof (be_val_bound HB). pose proof (be_val_bound HI). unfold p12_add.
  destruct (@big_bytes_fit (be_val Ij + be_val B + 1)) as (k & E & F); [lia|]. rewrite E, be_bytes_length.
  set (x := (be_val Ij + be_val B + 1)%Z) in *. destruct (Nat.ltb_spec v k).
  - rewrite skipn_be_bytes by lia. replace (k - (k - v)) with v by lia. rewrite be_bytes_length, Nat.ltb_irrefl. reflexivity.
  - rewrite be_bytes_length. destruct (Nat.ltb_spec k v).
    + symmetry. apply EcSigProofs2.be_bytes_grow; lia.
    + f_equal. lia.
Qed.
Lemma fold_splice v (g : bytes -> bytes) k : 0 < v -> (forall x, length (g x) = v) -> forall a pre rest, length pre = a * v -> length rest = k * v ->
  fold_left (fun I j => splice (j * v) (g (slice (j * v) v I)) I) (seq a k) (pre ++ rest) = pre ++ concat (map g (chunks v rest)).
Proof.
  intros V G. induction k; intros a pre rest Lp Lr.
  - destruct rest; [|cbn in Lr; lia]. reflexivity.
  - cbn [seq fold_left]. assert (LF : length (firstn v rest) = v) by (rewrite firstn_length; cbn in Lr; lia).
    replace (slice (a * v) v (pre ++ rest)) with (firstn v rest) by (unfold slice; rewrite skipn_app_exact; auto).
    rewrite <- (firstn_skipn v rest) at 3. rewrite chunks_app_block by auto. cbn [map concat]. rewrite app_assoc.
    rewrite <- (IHk (S a) (pre ++ g (firstn v rest)) (skipn v rest)).
    + f_equal. unfold splice. rewrite G, firstn_app_exact by auto. rewrite <- app_assoc. f_equal. f_equal.
      rewrite skipn_app, skipn_all2 by lia. cbn [app]. f_equal. lia.
    + rewrite app_length, G. cbn. lia.
    + rewrite skipn_length. cbn in Lr. lia.
Qed.

Section p12.
  Variable H : bytes -> bytes.
  Variable u v : nat.
  Variable r : Z.
  Variable ID : Z.
  Hypothesis HL : forall m, length (H m) = u.
  Hypothesis HB : forall m, bytes_ok (H m).
  Hypothesis U0 : 0 < u.
  Hypothesis V0 : 0 < v.
  Let r' : nat := Nat.max 1 (Z.to_nat r).
  Let ok_I (I : bytes) := bytes_ok I /\ exists k, length I = k * v.
  Lemma p12_hash I : Nat.iter (Z.to_nat (r - 1)) H (H (repeat ID v ++ I)) = p12_A H v r' ID I.
  Proof.
    unfold p12_A. replace r' with (S (Z.to_nat (r - 1))) by (unfold r'; lia). generalize (repeat ID v ++ I). intros x.
    induction (Z.to_nat (r - 1)); [reflexivity|]. rewrite iter_S', IHn. reflexivity.
  Qed.
  Lemma p12_A_length I : length (p12_A H v r' ID I) = u.
  Proof. unfold p12_A. replace r' with (S (Z.to_nat (r - 1))) by (unfold r'; lia). apply HL. Qed.
  Lemma p12_A_ok I : bytes_ok (p12_A H v r' ID I).
  Proof. unfold p12_A. replace r' with (S (Z.to_nat (r - 1))) by (unfold r'; lia). apply HB. Qed.
  Lemma repeated_ok n l : bytes_ok l -> bytes_ok (repeated n l).
  Proof.
    intros B. unfold repeated. destruct (length l =? 0); [constructor|]. apply Forall_map, Forall_forall. intros x _.
    destruct (nth_in_or_default (x mod length l) l 0%Z) as [J| ->]; [|split; lia]. unfold bytes_ok in B. rewrite Forall_forall in B. auto.
  Qed.
  Lemma p12_next_ok I : ok_I I -> ok_I (p12_next H v r' ID I).
  Proof.
    intros [B [k L]]. unfold p12_next. split.
    - apply Forall_concat, Forall_map, Forall_forall. intros x _. apply be_bytes_ok.
    - exists (length (chunks v I)). induction (chunks v I); [reflexivity|]. cbn [map concat length]. rewrite app_length, be_bytes_length, IHl. lia.
  Qed.
  Lemma chunks_ok n (l : bytes) : 0 < n -> bytes_ok l -> Forall bytes_ok (chunks n l).
  Proof.
    intros N B. unfold bytes_ok. apply Forall_forall. intros c Hc. apply Forall_forall. intros x Hx.
    unfold bytes_ok in B. rewrite Forall_forall in B. apply B. rewrite <- (chunks_concat l N). apply in_concat. eauto.
  Qed.
  Lemma p12_step_eq c A I i : ok_I I -> p12_step H (repeat ID v) u v c r (A, I) i =
    (put_at (i * u) (p12_A H v r' ID I) A, if i <? c - 1 then p12_next H v r' ID I else I).
  Proof.
    intros [B [k L]]. unfold p12_step. rewrite p12_hash. set (Ai := p12_A H v r' ID I).
    assert (LA : length Ai = u) by apply p12_A_length. destruct (i <? c - 1); [|reflexivity]. f_equal.
    assert (NA : Ai <> []) by (intros E; rewrite E in LA; cbn in LA; lia).
    rewrite firstn_repeats by (auto; rewrite LA; nia). unfold p12_next. fold Ai.
    assert (BA : bytes_ok (repeated v Ai)) by (apply repeated_ok, p12_A_ok). set (Bb := repeated v Ai) in *.
    rewrite L, Nat.div_mul by lia.
    assert (E : forall n I0, ok_I I0 -> fold_left (fun I j => splice (j * v) (p12_add v Bb (slice (j * v) v I)) I) (seq 0 n) I0 =
      fold_left (fun I j => splice (j * v) (be_bytes v (be_val (slice (j * v) v I) + be_val Bb + 1)) I) (seq 0 n) I0
      /\ bytes_ok (fold_left (fun I j => splice (j * v) (p12_add v Bb (slice (j * v) v I)) I) (seq 0 n) I0)).
    { induction n; intros I0 [B0 L0]; [split; auto|]. rewrite seq_S, !fold_left_app. cbn [fold_left].
      destruct (IHn I0 (conj B0 L0)) as [E1 E2]. rewrite <- E1. set (X := fold_left _ (seq 0 n) I0) in *.
      rewrite p12_add_eq by (auto using bytes_ok_slice). split; auto.
      unfold splice. apply bytes_ok_app. split; [apply bytes_ok_firstn; auto|]. apply bytes_ok_app. split; [apply be_bytes_ok|apply bytes_ok_skipn; auto]. }
    destruct (E k I (conj B (ex_intro _ k L))) as [-> _].
    apply (@fold_splice v (fun x => be_bytes v (be_val x + be_val Bb + 1)) k V0) with (a := 0) (pre := []); auto.
    intros x. apply be_bytes_length.
  Qed.
  Lemma p12_key_ok salt password n : bytes_ok salt -> bytes_ok password -> (0 <= n)%Z ->
    exists key, p12_key H u v salt password r ID n = Ok key /\ by_blocks u (p12_block H v r' ID salt password) n key.
  Proof.
    intros Bs Bp Hn. unfold p12_key. destruct (Nat.eqb_spec v 0); [lia|]. destruct (Nat.eqb_spec u 0); [lia|].
    destruct (quot_ceil Hn U0) as (c & E & K1 & K2). rewrite E. destruct (Z.ltb_spec (Z.of_nat c) 0); [lia|]. rewrite Nat2Z.id.
    rewrite !p12_fill_eq by auto. set (I0 := repeated _ salt ++ repeated _ password).
    assert (OI : ok_I I0).
    { split; [apply bytes_ok_app; split; apply repeated_ok; auto|]. unfold I0. rewrite app_length.
      assert (X : forall l : bytes, exists k, length (repeated (ceil_to v (length l)) l) = k * v).
      { intros l. destruct l as [|b l]; [exists 0; reflexivity|]. rewrite repeated_length by congruence. unfold ceil_to. eexists. apply Nat.mul_comm. }
      destruct (X salt) as [k1 ->], (X password) as [k2 ->]. exists (k1 + k2). lia. }
    set (T := p12_block H v r' ID salt password).
    assert (TE : forall i, T i = p12_A H v r' ID (Nat.iter i (p12_next H v r' ID) I0)) by reflexivity.
    assert (TL : forall i, length (T i) = u) by (intros; apply p12_A_length).
    assert (OIi : forall i, ok_I (Nat.iter i (p12_next H v r' ID) I0)) by (induction i; [exact OI|apply p12_next_ok; auto]).
    assert (G : forall i, i <= c -> exists A I, fold_left (p12_step H (repeat ID v) u v c r) (seq 0 i) (repeat 0%Z (c * u), I0) = (A, I)
       /\ length A = c * u /\ filled u T i A /\ (i < c \/ c = 0 -> I = Nat.iter i (p12_next H v r' ID) I0)).
    { induction i; intros Hi.
      - do 2 eexists. split; [reflexivity|]. split; [apply repeat_length|]. split; [apply filled_0|]. reflexivity.
      - destruct (IHi ltac:(lia)) as (A & I & F & LA & FA & IE). rewrite seq_S, fold_left_app, F. cbn [fold_left Nat.add].
        rewrite (IE ltac:(lia)). rewrite p12_step_eq by auto. do 2 eexists. split; [reflexivity|]. split; [rewrite put_at_len'; auto|]. split.
        + rewrite <- TE. apply filled_put; auto.
        + intros [Q|Q]; [|lia]. destruct (Nat.ltb_spec i (c - 1)); [|lia]. reflexivity. }
    destruct (G c ltac:(lia)) as (A & I & -> & LA & FA & _). cbn [fst]. rewrite cut_ok by (auto; lia). eexists. split; [reflexivity|].
    split; [rewrite firstn_length; lia|]. intros p Hp. rewrite firstn_length in Hp. rewrite nth_firstn by lia. apply FA; lia.
  Qed.
  Lemma p12_key_neg salt password n : (n < 0)%Z -> p12_key H u v salt password r ID n = Panic.
  Proof. intros P. unfold p12_key. destruct (v =? 0), (u =? 0); auto. destruct (Z.ltb _ 0); auto. apply cut_neg; auto. Qed.
End p12.

(** * X9.63 *)
Section sm.
  Variable H : bytes -> bytes.
  Variable hs : nat.
  Hypothesis HL : forall m, length (H m) = hs.
  Hypothesis H0 : 0 < hs.
  Lemma sm_iter z k : Nat.iter k (fun '(k, count) => (k ++ H (z ++ be_bytes 4 count), (count + 1) mod 2 ^ 32)%Z) ([], 1%Z) =
    (concat (map (x963_block H z) (seq 0 k)), ((Z.of_nat k + 1) mod 2 ^ 32)%Z).
  Proof.
    induction k; [reflexivity|]. rewrite iter_S', IHk. rewrite seq_S, map_app, concat_app. cbn [map concat]. rewrite app_nil_r. f_equal.
    - f_equal. unfold x963_block. do 2 f_equal. rewrite be4_mod. f_equal. lia.
    - rewrite Z.add_mod_idemp_l by lia. f_equal. lia.
  Qed.
  Lemma sm_key_ok z n : (0 <= n)%Z -> (n <= Z.of_nat hs * (2 ^ 32 - 2))%Z -> (n + Z.of_nat hs < 2 ^ 64)%Z ->
    exists key, sm_key H hs z n = Ok key /\ by_blocks hs (x963_block H z) n key.
  Proof.
    intros P Q B. unfold sm_key. destruct (Nat.eqb_spec hs 0); [lia|].
    rewrite (Z.mod_small n) by lia. rewrite Z.mod_small by lia.
    destruct (quot_ceil P H0) as (k & E & K1 & K2). rewrite Z.quot_div_nonneg in E by lia. rewrite E.
    destruct (Z.leb_spec (2 ^ 32 - 1) (Z.of_nat k)) as [L|L].
    { exfalso. destruct K2 as [K2|K2]; [lia|]. nia. }
    rewrite Nat2Z.id, sm_iter. rewrite cut_ok; [|auto|rewrite (concat_length (h := hs) k); auto].
    - eexists. split; [reflexivity|]. apply by_blocks_concat; auto. intros. apply HL.
    - intros. apply HL.
  Qed.
  Lemma sm_key_long z n : (Z.of_nat hs * (2 ^ 32 - 2) < n)%Z -> (n + Z.of_nat hs < 2 ^ 64)%Z -> sm_key H hs z n = Panic.
  Proof.
    intros Q B. unfold sm_key. destruct (Nat.eqb_spec hs 0); [lia|]. rewrite (Z.mod_small n) by lia. rewrite Z.mod_small by lia.
    destruct (Z.leb_spec (2 ^ 32 - 1) ((n + Z.of_nat hs - 1) / Z.of_nat hs)) as [L|L]; [reflexivity|]. exfalso.
    assert ((2 ^ 32 - 1) <= (n + Z.of_nat hs - 1) / Z.of_nat hs)%Z; [|lia]. apply Z.div_le_lower_bound; lia.
  Qed.
  Lemma sm_key_neg z n : (n < 0)%Z -> sm_key H hs z n = Panic.
  Proof.
    intros P. unfold sm_key. destruct (hs =? 0); auto. destruct (Z.leb _ _); auto. rewrite sm_iter. apply cut_neg; auto.
  Qed.
End sm.
