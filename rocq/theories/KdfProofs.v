(** Proofs about the key derivation functions. *)
From Verif Require Import Base WordModel WordLib BigModel Hash3Model KdfModel KdfSpec Ocb3Proofs.
From Coq Require Import Lia Arith Psatz.
Set Implicit Arguments. Unset Strict Implicit.
Local Open Scope nat_scope.

(** * Loops and positions *)
Lemma while_count {T} (c : T -> bool) (b : T -> option T) (Inv : nat -> T -> Prop) n s0 :
  (forall i s, Inv i s -> i < n -> c s = true /\ exists s', b s = Some s' /\ Inv (S i) s') ->
  (forall s, Inv n s -> c s = false) -> Inv 0 s0 ->
  forall m, n < m -> exists s, go_while m c b s0 = Some s /\ Inv n s.
Proof.
  intros St En I0.
  assert (G : forall k i s, i + k = n -> Inv i s -> forall m, k < m -> exists s', go_while m c b s = Some s' /\ Inv n s').
  { induction k; intros i s E I m Hm; (destruct m as [|m]; [lia|]); cbn [go_while].
    - assert (i = n) by lia. subst i. rewrite (En _ I). eauto.
    - destruct (St i s I ltac:(lia)) as (C & s' & B & I'). rewrite C, B. apply (IHk (S i)); auto; lia. }
  intros m Hm. apply (G n 0); auto.
Qed.
Lemma returns_intro (f : nat -> option (res bytes)) (P : bytes -> Prop) n :
  (forall m, n < m -> exists r, f m = Some (Ok r) /\ P r) -> (forall a b, P a -> P b -> a = b) -> exists r, returns f (Ok r) /\ P r.
Proof.
  intros E U. destruct (E (S n) ltac:(lia)) as (r & F & Pr). exists r. split; auto. exists (S n). intros m Hm.
  destruct (E m ltac:(lia)) as (r' & F' & Pr'). rewrite F'. do 2 f_equal. auto.
Qed.
Lemma nth_eq (a b : bytes) : length a = length b -> (forall p, p < length a -> a.[p] = b.[p]) -> a = b.
Proof. intros L E. apply (nth_ext a b 0%Z 0%Z L E). Qed.
Lemma by_blocks_unique h T n a b : by_blocks h T n a -> by_blocks h T n b -> a = b.
Proof. intros [La Ea] [Lb Eb]. apply nth_eq; [lia|]. intros p Hp. rewrite Ea, Eb by lia. reflexivity. Qed.
Lemma by_blocks_ext h T T' n a : (forall i, T i = T' i) -> by_blocks h T n a -> by_blocks h T' n a.
Proof. intros X [L E]. split; auto. intros p Hp. rewrite <- X. auto. Qed.
Lemma by_blocks_prefix h T n m a b : by_blocks h T n a -> by_blocks h T m b -> (n <= m)%Z -> a = firstn (length a) b.
Proof.
  intros [La Ea] [Lb Eb] Le. apply nth_eq; [rewrite firstn_length; lia|]. intros p Hp.
  rewrite Ea by auto. rewrite <- (firstn_skipn (length a) b) in Eb, Lb.
  assert (Q : length (firstn (length a) b) = length a) by (rewrite firstn_length; rewrite app_length, firstn_length, skipn_length in Lb; lia).
  specialize (Eb p). rewrite app_nth1 in Eb by lia. symmetry. apply Eb. rewrite app_length. lia.
Qed.
Definition filled (h : nat) (T : nat -> bytes) (k : nat) (out : bytes) : Prop :=
  forall p, p < length out -> p < k * h -> out.[p] = (T (p / h)).[p mod h].
Lemma concat_length h (T : nat -> bytes) k : (forall i, length (T i) = h) -> length (concat (map T (seq 0 k))) = k * h.
Proof. intros L. induction k; auto. rewrite seq_S, map_app, concat_app, app_length, IHk. cbn [map concat]. rewrite app_nil_r, L. cbn. lia. Qed.
Lemma concat_filled h (T : nat -> bytes) k : (forall i, length (T i) = h) -> filled h T k (concat (map T (seq 0 k))).
Proof.
  intros L. induction k; intros p Hp Hq; [lia|]. rewrite seq_S, map_app, concat_app. cbn [map concat].
  rewrite app_nil_r. pose proof (concat_length k L) as C. cbn [Nat.add].
  destruct (Nat.lt_ge_cases p (k * h)) as [Q|Q].
  - rewrite app_nth1 by lia. apply IHk; lia.
  - rewrite app_nth2 by lia. rewrite C. assert (p / h = k) as ->. { symmetry. apply (Nat.div_unique p h k (p - k * h)); lia. }
    f_equal. symmetry. rewrite (Nat.mod_eq p h) by lia. replace (p / h) with k; [lia|]. apply (Nat.div_unique p h k (p - k * h)); lia.
Qed.
Lemma by_blocks_concat h (T : nat -> bytes) k n :
  (forall i, length (T i) = h) -> (0 <= n)%Z -> Z.to_nat n <= k * h -> by_blocks h T n (firstn (Z.to_nat n) (concat (map T (seq 0 k)))).
Proof.
  intros L P Hn. pose proof (concat_length k L) as C. split; [rewrite firstn_length; lia|]. intros p Hp.
  rewrite firstn_length in Hp. rewrite <- (concat_filled (k := k) L) by lia.
  rewrite <- (firstn_skipn (Z.to_nat n) (concat _)) at 2. rewrite app_nth1 by (rewrite firstn_length; lia). reflexivity.
Qed.
Lemma cut_ok n (x : bytes) : (0 <= n)%Z -> Z.to_nat n <= length x -> cut n x = Ok (firstn (Z.to_nat n) x).
Proof.
  intros P Q. unfold cut. destruct (Z.ltb_spec n 0); [lia|]. destruct (Z.ltb_spec (Z.of_nat (length x)) n); [lia|]. reflexivity.
Qed.
Lemma cut_neg n (x : bytes) : (n < 0)%Z -> cut n x = Panic.
Proof. intros P. unfold cut. destruct (Z.ltb_spec n 0); [reflexivity|lia]. Qed.
Lemma put_at_length off K out : off <= length out -> length (put_at off K out) = length out.
Proof. intros L. unfold put_at. rewrite app_length, gocopy_length, firstn_length, skipn_length. lia. Qed.
Lemma nth_firstn (l : bytes) k p : p < k -> (firstn k l).[p] = l.[p].
Proof. revert l k. induction p; intros [|x l] [|k] L; cbn; auto; try lia. apply IHp. lia. Qed.
Lemma nth_skip (l : bytes) k p : (skipn k l).[p] = l.[k + p].
Proof. revert l. induction k; intros [|x l]; cbn; auto. destruct p; auto. Qed.
Lemma nth_gocopy (d s : bytes) p : p < length d -> (gocopy d s).[p] = if p <? length s then s.[p] else d.[p].
Proof.
  intros L. unfold gocopy. destruct (Nat.ltb_spec p (length s)).
  - rewrite app_nth1 by (rewrite firstn_length; lia). apply nth_firstn. auto.
  - rewrite app_nth2 by (rewrite firstn_length; lia). rewrite nth_skip, firstn_length. f_equal. lia.
Qed.
Lemma nth_put_at off K out p : p < length out ->
  (put_at off K out).[p] = if (off <=? p) && (p <? off + length K) then K.[p - off] else out.[p].
Proof.
  intros L. unfold put_at. destruct (Nat.leb_spec off p); cbn [andb].
  - rewrite app_nth2 by (rewrite firstn_length; lia). rewrite firstn_length, Nat.min_l by lia.
    rewrite nth_gocopy by (rewrite skipn_length; lia). rewrite nth_skip. replace (off + (p - off)) with p by lia.
    destruct (Nat.ltb_spec (p - off) (length K)), (Nat.ltb_spec p (off + length K)); auto; lia.
  - rewrite app_nth1 by (rewrite firstn_length; lia). apply nth_firstn. auto.
Qed.
Lemma filled_put h T k out : 0 < h -> length (T k) = h -> filled h T k out -> filled h T (S k) (put_at (k * h) (T k) out).
Proof.
  intros Hh L F p Hp Hq. destruct (Nat.lt_ge_cases (k * h) (length out)) as [Q|Q].
  - rewrite put_at_length in Hp by lia. rewrite nth_put_at by lia. rewrite L.
    destruct (Nat.leb_spec (k * h) p); cbn [andb].
    + destruct (Nat.ltb_spec p (k * h + h)); [|lia].
      assert (E : p / h = k) by (symmetry; apply (Nat.div_unique p h k (p - k * h)); lia).
      rewrite E. f_equal. rewrite Nat.mod_eq by lia. rewrite E. lia.
    + apply F; auto.
  - assert (E : put_at (k * h) (T k) out = out).
    { unfold put_at. rewrite firstn_all2, skipn_all2 by lia. unfold gocopy. cbn. rewrite skipn_nil, app_nil_r. reflexivity. }
    rewrite E in Hp |- *. apply F; [|lia]. auto.
Qed.
Lemma filled_0 h T out : filled h T 0 out.
Proof. intros p _ Hq. lia. Qed.
Lemma filled_by_blocks h T k n out : filled h T k out -> Z.of_nat (length out) = n -> length out <= k * h -> by_blocks h T n out.
Proof. intros F L K. split; auto. intros p Hp. apply F; auto; lia. Qed.
Lemma put_at_len k K out : length (put_at k K out) = Nat.max (length out) (Nat.min k (length out)).
Proof. unfold put_at. rewrite app_length, gocopy_length, firstn_length, skipn_length. lia. Qed.
Lemma put_at_len' k K out : length (put_at k K out) = length out.
Proof. rewrite put_at_len. lia. Qed.

(** * Sums *)
Lemma nth_xorl a b p : length a = length b -> (xorl a b).[p] = Z.lxor a.[p] b.[p].
Proof.
  revert b p. induction a; intros [|y b] p L; cbn in L; try lia.
  - destruct p; reflexivity.
  - destruct p; cbn; auto.
Qed.
Lemma xor_of_length h ls : length (xor_of h ls) = h.
Proof. unfold xor_of. rewrite map_length, seq_length. reflexivity. Qed.
Lemma nth_xor_of h ls p : p < h -> (xor_of h ls).[p] = fold_right Z.lxor 0%Z (map (fun l => l.[p]) ls).
Proof.
  intros L. unfold xor_of. set (f := fun x => fold_right Z.lxor 0%Z (map (fun l => l.[x]) ls)).
  rewrite (nth_indep _ 0%Z (f 0)) by (rewrite map_length, seq_length; auto). rewrite map_nth, seq_nth by auto. reflexivity.
Qed.
Lemma fold_lxor_app a b : fold_right Z.lxor 0%Z (a ++ b) = Z.lxor (fold_right Z.lxor 0%Z a) (fold_right Z.lxor 0%Z b).
Proof. induction a; cbn; auto. rewrite IHa. apply eq_sym, Z.lxor_assoc. Qed.
Lemma xor_of_snoc h ls l : length l = h -> xor_of h (ls ++ [l]) = xorl (xor_of h ls) l.
Proof.
  intros L. apply nth_eq. { rewrite xorl_length, !xor_of_length. lia. }
  intros p Hp. rewrite xor_of_length in Hp. rewrite nth_xorl by (rewrite xor_of_length; auto). rewrite !nth_xor_of by auto.
  rewrite map_app, fold_lxor_app. cbn [map fold_right]. rewrite Z.lxor_0_r. reflexivity.
Qed.
Lemma xor_of_one h l : length l = h -> xor_of h [l] = l.
Proof.
  intros L. apply nth_eq. { rewrite xor_of_length; auto. } intros p Hp. rewrite xor_of_length in Hp. rewrite nth_xor_of by auto. cbn. apply Z.lxor_0_r.
Qed.
Lemma iter_S' {T} (g : T -> T) n s : Nat.iter (S n) g s = g (Nat.iter n g s).
Proof. reflexivity. Qed.
Lemma iter_xor (f : bytes -> bytes) h x n : (forall m, length (f m) = h) -> length x = h ->
  Nat.iter n (fun '(T, U) => let U := f U in (xorl T U, U)) (x, x) = (xor_of h (map (fun j => Nat.iter j f x) (seq 0 (S n))), Nat.iter n f x).
Proof.
  intros L Lx. induction n.
  - cbn [Nat.iter nat_rect seq map]. f_equal. symmetry. apply xor_of_one. auto.
  - rewrite iter_S', IHn, (seq_S (S n)), map_app. cbn [map]. rewrite xor_of_snoc; [reflexivity|]. cbn. apply L.
Qed.
Lemma put_be_be_bytes n v : put_be n v = be_bytes n v.
Proof.
  unfold put_be, be_bytes. revert v. induction n; intros v; [reflexivity|].
  cbn [le_bytes rev]. rewrite <- (IHn (v / 256)%Z), seq_S, map_app. cbn [map]. f_equal.
  - apply map_ext_in. intros i Hi. apply in_seq in Hi. unfold to_byte. f_equal.
    rewrite !Z.shiftr_div_pow2 by lia. replace (8 * Z.of_nat (S n - 1 - i))%Z with (8 + 8 * Z.of_nat (n - 1 - i))%Z by lia.
    rewrite Z.pow_add_r by lia. rewrite Z.div_div by lia. reflexivity.
  - unfold to_byte. replace (S n - 1 - (0 + n)) with 0 by lia. rewrite Z.shiftr_div_pow2 by lia. rewrite Z.div_1_r. reflexivity.
Qed.
Lemma quot_ceil n h : (0 <= n)%Z -> 0 < h -> exists k, Z.quot (n + Z.of_nat h - 1) (Z.of_nat h) = Z.of_nat k /\ Z.to_nat n <= k * h /\ (k = 0 \/ (k - 1) * h < Z.to_nat n).
Proof.
  intros P Hh. rewrite Z.quot_div_nonneg by lia. exists (Z.to_nat ((n + Z.of_nat h - 1) / Z.of_nat h)).
  pose proof (Z.div_mod (n + Z.of_nat h - 1) (Z.of_nat h) ltac:(lia)) as D.
  pose proof (Z.mod_pos_bound (n + Z.of_nat h - 1) (Z.of_nat h) ltac:(lia)) as M.
  pose proof (Z.div_pos (n + Z.of_nat h - 1) (Z.of_nat h) ltac:(lia) ltac:(lia)) as Q.
  set (q := ((n + Z.of_nat h - 1) / Z.of_nat h)%Z) in *. split; [lia|]. split.
  - apply Nat2Z.inj_le. rewrite Nat2Z.inj_mul. rewrite !Z2Nat.id by lia. lia.
  - destruct (Z.eq_dec q 0) as [E|E]; [left; lia|right]. apply Nat2Z.inj_lt. rewrite Nat2Z.inj_mul, Nat2Z.inj_sub by lia. rewrite !Z2Nat.id by lia. lia.
Qed.
Lemma fold_app_blocks {A} (f : bytes -> A -> bytes) (g : A -> bytes) l d :
  (forall d x, f d x = d ++ g x) -> fold_left f l d = d ++ concat (map g l).
Proof.
  intros E. revert d. induction l; intros d; cbn; [symmetry; apply app_nil_r|]. rewrite IHl, E, <- app_assoc. reflexivity.
Qed.

(** * PBKDF2 *)
Section pb2.
  Variable H : bytes -> bytes.
  Variable hs : nat.
  Hypothesis HL : forall m, length (H m) = hs.
  Lemma pb2_block_eq salt iter dk block : 0 < block ->
    pb2_block H hs salt iter dk block = dk ++ pbkdf2_block H hs salt (Nat.max 1 (Z.to_nat iter)) (block - 1).
  Proof.
    intros B. unfold pb2_block, pbkdf2_block. rewrite put_be_be_bytes. rewrite app_length, HL.
    replace (length dk + hs - hs) with (length dk) by lia.
    rewrite skipn_app_exact, firstn_app_exact by reflexivity.
    rewrite (iter_xor (h := hs)) by auto. replace (block - 1 + 1) with block by lia.
    replace (S (Z.to_nat (iter - 1))) with (Nat.max 1 (Z.to_nat iter)) by lia. reflexivity.
  Qed.
  Lemma pb2_key_ok salt iter n : 0 < hs -> (0 <= n)%Z ->
    exists key, pb2_key H hs salt iter n = Ok key /\ by_blocks hs (pbkdf2_block H hs salt (Nat.max 1 (Z.to_nat iter))) n key.
  Proof.
    intros P Hn. unfold pb2_key. destruct (Nat.eqb_spec hs 0); [lia|]. destruct (quot_ceil Hn P) as (k & E & K & _). rewrite E.
    destruct (Z.ltb_spec (Z.of_nat k) 0); [lia|]. rewrite Nat2Z.id.
    set (c := Nat.max 1 (Z.to_nat iter)).
    replace (fold_left (pb2_block H hs salt iter) (seq 1 k) []) with (concat (map (pbkdf2_block H hs salt c) (seq 0 k))).
    - pose proof (fun i => xor_of_length hs (map (fun j => Nat.iter j H (H (salt ++ be_bytes 4 (Z.of_nat (i + 1))))) (seq 0 c))) as L.
      change (forall i, length (pbkdf2_block H hs salt c i) = hs) in L.
      rewrite cut_ok; auto; [|rewrite (concat_length k L); auto]. eexists. split; [reflexivity|]. apply by_blocks_concat; auto.
    - rewrite (fold_left_ext_in (g := fun d b => d ++ pbkdf2_block H hs salt c (b - 1))).
      + rewrite (fold_app_blocks (g := fun b => pbkdf2_block H hs salt c (b - 1))) by auto. cbn [app]. f_equal.
        rewrite <- seq_shift, map_map. apply map_ext. intros i. f_equal. lia.
      + intros d b Hb. apply in_seq in Hb. apply pb2_block_eq. lia.
  Qed.
  Lemma pb2_key_neg salt iter n : (n < 0)%Z -> pb2_key H hs salt iter n = Panic.
  Proof. intros P. unfold pb2_key. destruct (hs =? 0); auto. destruct (Z.ltb _ 0); auto. apply cut_neg. auto. Qed.
End pb2.

(** * GOST PBKDF2 *)
Section gp.
  Variable H : bytes -> bytes.
  Variable hs : nat.
  Hypothesis HL : forall m, length (H m) = hs.
  Hypothesis HB : forall m, bytes_ok (H m).
  Lemma gp_iter_val (f : bytes -> bytes) x n : (forall m, length (f m) = hs) -> (forall m, bytes_ok (f m)) -> length x = hs -> bytes_ok x ->
    exists r, Nat.iter n (fun '(prev, rkey) => let prev := f prev in (prev, Z.lxor rkey (be_val prev))) (x, be_val x) = (Nat.iter n f x, r)
      /\ be_bytes hs r = xor_of hs (map (fun j => Nat.iter j f x) (seq 0 (S n))).
  Proof.
    intros L B Lx Bx. induction n.
    - exists (be_val x). split; [reflexivity|]. cbn [seq map Nat.iter nat_rect]. rewrite xor_of_one by auto. apply be_bytes_val; auto.
    - destruct IHn as (r & E & R). exists (Z.lxor r (be_val (Nat.iter (S n) f x))). split.
      + rewrite iter_S', E. reflexivity.
      + rewrite be_bytes_lxor, R, (seq_S (S n)), map_app. cbn [map]. rewrite xor_of_snoc by (cbn; apply L). f_equal.
        apply be_bytes_val; cbn; auto.
  Qed.
  Lemma gp_body_eq pw salt it dk (loop : Z) : exists l2,
    gp_body H hs pw salt it (dk, loop) = Some (dk ++ xor_of hs (map (fun j => Nat.iter j (gp_prf H pw) (gp_prf H pw (salt ++ be_bytes 4 loop))) (seq 0 (Nat.max 1 (Z.to_nat it)))), l2)
    /\ l2 = ((loop + 1) mod 2 ^ 32)%Z.
  Proof.
    unfold gp_body. destruct (@gp_iter_val (gp_prf H pw) (gp_prf H pw (salt ++ be_bytes 4 loop)) (Z.to_nat (it - 1))) as (r & E & R);
      try (intros; unfold gp_prf; auto; fail). cbv zeta in E |- *. rewrite E, R. eexists. split; [|reflexivity].
    replace (S (Z.to_nat (it - 1))) with (Nat.max 1 (Z.to_nat it)) by lia. reflexivity.
  Qed.
  Lemma be4_mod z : be_bytes 4 (z mod 2 ^ 32) = be_bytes 4 z.
  Proof.
    rewrite <- (@be_bytes_val (be_bytes 4 z) 4 (be_bytes_ok 4 z) (be_bytes_length 4 z)). rewrite be_val_bytes. reflexivity.
  Qed.
  Definition gp_inv (pw salt : bytes) (it : Z) (i : nat) (s : bytes * Z) : Prop :=
    fst s = concat (map (pbkdf2_block (gp_prf H pw) hs salt (Nat.max 1 (Z.to_nat it))) (seq 0 i)) /\ snd s = ((Z.of_nat i + 1) mod 2 ^ 32)%Z.
  Lemma gp_while pw salt it n : 0 < hs -> (0 <= n)%Z ->
    exists k, forall m, k < m -> exists s, go_while m (fun s => Z.of_nat (length (fst s)) <? n)%Z (gp_body H hs pw salt it) ([], 1%Z) = Some s
      /\ gp_inv pw salt it k s /\ Z.to_nat n <= k * hs /\ (k = 0 \/ (k - 1) * hs < Z.to_nat n).
  Proof.
    intros P Hn. destruct (quot_ceil Hn P) as (k & _ & K1 & K2). exists k. intros m Hm.
    assert (BL : forall i, length (pbkdf2_block (gp_prf H pw) hs salt (Nat.max 1 (Z.to_nat it)) i) = hs) by (intros; apply xor_of_length).
    destruct (@while_count _ (fun s => Z.of_nat (length (fst s)) <? n)%Z (gp_body H hs pw salt it) (gp_inv pw salt it) k ([], 1%Z)) with (m := m) as (s & E & I); auto.
    - intros i [dk lp] [I1 I2] Hi. cbn [fst snd] in *. split.
      + apply Z.ltb_lt. rewrite I1, (concat_length i BL). destruct K2 as [K2|K2]; [lia|].
        assert (i * hs <= (k - 1) * hs) by (apply Nat.mul_le_mono_r; lia). lia.
      + destruct (gp_body_eq pw salt it dk lp) as (l2 & E & E2). rewrite E. eexists. split; [reflexivity|]. split; cbn [fst snd].
        * rewrite seq_S, map_app, concat_app. cbn [map concat]. rewrite app_nil_r, I1. f_equal. unfold pbkdf2_block. cbn [Nat.add].
          apply f_equal. apply map_ext. intros j. f_equal. f_equal. f_equal. rewrite I2, be4_mod. f_equal. lia.
        * rewrite E2, I2. rewrite Z.add_mod_idemp_l by lia. f_equal. lia.
    - intros s [I1 I2]. apply Z.ltb_ge. rewrite I1, (concat_length k BL). lia.
    - split; reflexivity.
    - exists s. auto.
  Qed.
  Lemma gp_loop_ok pw salt it n : 0 < hs -> (0 <= n)%Z -> exists key,
    returns (fun f => gp_loop H hs f pw salt it n) (Ok key) /\ by_blocks hs (pbkdf2_block (gp_prf H pw) hs salt (Nat.max 1 (Z.to_nat it))) n key.
  Proof.
    intros P Hn. destruct (@gp_while pw salt it n P Hn) as (k & W). apply (returns_intro (n := k)).
    2:{ intros a b. apply by_blocks_unique. }
    intros m Hm. destruct (W m Hm) as (s & E & (I1 & I2) & K1 & K2). unfold gp_loop. rewrite E, I1.
    assert (BL : forall i, length (pbkdf2_block (gp_prf H pw) hs salt (Nat.max 1 (Z.to_nat it)) i) = hs) by (intros; apply xor_of_length).
    rewrite cut_ok; auto; [|rewrite (concat_length k BL); auto]. eexists. split; [reflexivity|]. apply by_blocks_concat; auto.
  Qed.
  Lemma gp_neg pw salt it n : (n < 0)%Z -> returns (fun f => gp_loop H hs f pw salt it n) Panic.
  Proof.
    intros P. exists 1. intros [|m] Hm; [lia|]. unfold gp_loop. cbn [go_while fst length]. destruct (Z.ltb_spec (Z.of_nat 0) n); [lia|].
    rewrite cut_neg by auto. reflexivity.
  Qed.
End gp.
