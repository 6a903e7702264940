(** Proofs about the key derivation functions: OpenPGP, SP 800-108, RFC 7836, prf+ and bcrypt_pbkdf. *)
From Verif Require Import Base WordModel WordLib BigModel KdfModel KdfSpec KdfProofs KdfProofs2.
From Verif Require Import Sc5Proofs OcbProofs.
From Coq Require Import Lia Arith Psatz.
Set Implicit Arguments. Unset Strict Implicit.
Local Open Scope nat_scope.

(** * OpenPGP *)
Lemma repeated_more k t (l : bytes) : l <> [] -> t <= length l -> repeated (k * length l) l ++ firstn t l = repeated (k * length l + t) l.
Proof.
  intros N T. assert (L0 : 0 < length l) by (destruct l; [congruence|cbn; lia]). apply nth_eq.
  - rewrite app_length, !repeated_length, firstn_length by auto. lia.
  - intros p Hp. rewrite app_length, repeated_length, firstn_length in Hp by auto. rewrite (@nth_repeated (_ + t)) by (auto; lia).
    destruct (Nat.lt_ge_cases p (k * length l)).
    + rewrite app_nth1 by (rewrite repeated_length; auto). apply nth_repeated; auto.
    + rewrite app_nth2 by (rewrite repeated_length; auto). rewrite repeated_length by auto. rewrite nth_firstn by lia. f_equal.
      destruct (Nat.lt_ge_cases (p - k * length l) (length l)); [|lia].
      apply (Nat.mod_unique p (length l) k); lia.
Qed.
Lemma feed_ok buf it m : Z.to_nat (Z.max it (Z.of_nat (length buf))) < m ->
  s2k_feed m buf it = Some (repeated (Z.to_nat (Z.max it (Z.of_nat (length buf)))) buf).
Proof.
  set (tot := Z.max it (Z.of_nat (length buf))). intros Hm. unfold s2k_feed. destruct (Nat.eqb_spec (length buf) 0) as [E|E].
  { destruct buf; [|cbn in E; lia]. rewrite repeated_nil. reflexivity. }
  assert (N : buf <> []) by (intros ->; cbn in E; lia). fold tot. set (b := length buf) in *.
  assert (TP : (0 <= tot)%Z) by (unfold tot; lia).
  destruct (@quot_ceil tot b TP ltac:(lia)) as (k & _ & K1 & K2).
  set (Inv := fun i (s : bytes * Z) => fst s = repeated (Nat.min (i * b) (Z.to_nat tot)) buf /\ snd s = (tot - Z.of_nat (Nat.min (i * b) (Z.to_nat tot)))%Z).
  match goal with |- context [go_while m ?cd ?bd ?st] => destruct (@while_count _ cd bd Inv k st) with (m := m) as (s & W & I) end.
  - intros i [w rem] [I1 I2] Hi. cbn [fst snd] in *. destruct K2 as [K2|K2]; [lia|].
    assert (i * b < Z.to_nat tot). { assert (i * b <= (k - 1) * b) by (apply Nat.mul_le_mono_r; lia). lia. }
    rewrite Nat.min_l in I1, I2 by lia. split; [apply Z.ltb_lt; lia|]. eexists. split; [reflexivity|]. unfold Inv. cbn [fst snd].
    assert (TE : Z.to_nat (Z.min rem (Z.of_nat b)) = Nat.min (Z.to_nat tot - i * b) b) by lia.
    rewrite TE, I1. unfold b. rewrite repeated_more by (auto; lia). fold b. split; [f_equal|]; cbn; lia.
  - intros [w rem] [I1 I2]. cbn [fst snd] in *. apply Z.ltb_ge. lia.
  - split; cbn; [|lia]. unfold repeated. destruct (length buf =? 0); reflexivity.
  - assert (k <= Z.to_nat tot); [|lia]. destruct K2; [lia|]. assert (1 <= b) by lia. nia.
  - rewrite W. destruct s as [w rem]. destruct I as [I1 I2]. cbn [fst] in I1. rewrite I1. do 2 f_equal. lia.
Qed.
Section s2k.
  Variable H : bytes -> bytes.
  Variable hs : nat.
  Lemma s2k_key_panic password salt it n : (1 < it)%Z -> salt = [] -> forall f, s2k_key H hs f password salt it n = Some Panic.
  Proof. intros C -> f. unfold s2k_key. destruct (Z.ltb_spec 1 it); [reflexivity|lia]. Qed.
  Lemma while_true {T} (b : T -> option T) m s : go_while m (fun _ => true) b s = None.
  Proof. revert s. induction m; intros s; cbn; auto. destruct (b s); auto. Qed.
  Lemma s2k_tuned_hangs password salt n : never_returns (fun f => s2k_tuned H hs f password salt 0 n).
  Proof. intros m. unfold s2k_tuned, s2k_tune. rewrite while_true. reflexivity. Qed.
  Lemma s2k_tuned_set password salt it n : it <> 0%Z -> forall f, s2k_tuned H hs f password salt it n = s2k_key H hs f password salt it n.
  Proof. intros N f. unfold s2k_tuned. destruct (Z.eqb_spec it 0); [lia|reflexivity]. Qed.
  Hypothesis HL : forall m, length (H m) = hs.
  Hypothesis H0 : 0 < hs.
  Lemma s2k_key_ok password salt it n : ((it <= 1)%Z \/ salt <> []) -> exists key,
    returns (fun f => s2k_key H hs f password salt it n) (Ok key) /\ by_blocks hs (s2k_block H salt password it) (Z.max 0 n) key.
  Proof.
    intros C. set (T := s2k_block H salt password it). set (n' := Z.max 0 n). assert (P : (0 <= n')%Z) by (unfold n'; lia).
    destruct (@quot_ceil n' hs P H0) as (k & _ & K1 & K2).
    set (tot := Z.to_nat (Z.max it (Z.of_nat (length (salt ++ password))))).
    assert (TL : forall i, length (T i) = hs) by (intros; apply HL).
    apply (returns_intro (n := Nat.max k tot)). 2:{ intros a b. apply by_blocks_unique. }
    intros m Hm. unfold s2k_key. replace ((1 <? it)%Z && (length salt =? 0))%bool with false.
    2:{ symmetry. destruct C as [C|C]; [destruct (Z.ltb_spec 1 it); [lia|reflexivity]|]. destruct salt; [congruence|]. apply Bool.andb_false_r. }
    set (Inv := fun i (s : bytes * nat * Z) => let '(out, pass, gen) := s in
      length out = Nat.min (i * hs) (Z.to_nat n') /\ filled hs T i out /\ pass = i /\ gen = Z.of_nat (length out)).
    edestruct (@while_count _ (fun '(_, _, generated) => generated <? n)%Z (s2k_body H hs m (salt ++ password) it n) Inv k ([], 0, 0%Z)) with (m := m) as (s & W & I).
    - intros i [[out pass] gen] (I1 & I2 & I3 & I4) Hi. destruct K2 as [K2|K2]; [lia|].
      assert (i * hs < Z.to_nat n'). { assert (i * hs <= (k - 1) * hs) by (apply Nat.mul_le_mono_r; lia). lia. }
      rewrite Nat.min_l in I1 by lia. split; [apply Z.ltb_lt; lia|]. unfold s2k_body. rewrite feed_ok by (fold tot; lia).
      subst pass. fold (s2k_block H salt password it i). fold T. eexists. split; [reflexivity|].
      assert (TE : Z.to_nat (Z.min (Z.of_nat hs) (n - gen)) = Nat.min hs (Z.to_nat n' - i * hs)) by lia.
      unfold Inv. rewrite TE. fold (T i). split; [|split; [|split]].
      + rewrite app_length, firstn_length, TL, I1. cbn. lia.
      + intros p Hp Hq. rewrite app_length, firstn_length, TL, I1 in Hp. destruct (Nat.lt_ge_cases p (i * hs)).
        * rewrite app_nth1 by lia. apply I2; lia.
        * rewrite app_nth2 by lia. rewrite I1, nth_firstn by lia.
          assert (E : p / hs = i) by (symmetry; apply (Nat.div_unique p hs i (p - i * hs)); lia). rewrite E. f_equal.
          rewrite Nat.mod_eq by lia. rewrite E. lia.
      + reflexivity.
      + rewrite app_length, firstn_length, TL. lia.
    - intros [[out pass] gen] (I1 & I2 & I3 & I4). apply Z.ltb_ge. lia.
    - split; [reflexivity|]. split; [apply filled_0|]. split; reflexivity.
    - lia.
    - rewrite W. destruct s as [[out pass] gen]. destruct I as (I1 & I2 & I3 & I4). eexists. split; [reflexivity|].
      apply (filled_by_blocks I2); lia.
  Qed.
End s2k.
Lemma iters_table : forallb (fun c => s2k_iters.[c] =? rfc4880_count (Z.of_nat c))%Z (seq 0 256) = true.
Proof. vm_compute. reflexivity. Qed.
Lemma decode_ok c : (0 <= c < 256)%Z -> s2k_decode c = rfc4880_count c.
Proof.
  intros B. pose proof iters_table as F. rewrite forallb_forall in F. specialize (F (Z.to_nat c)). rewrite in_seq in F.
  specialize (F ltac:(lia)). apply Z.eqb_eq in F. rewrite Z2Nat.id in F by lia. exact F.
Qed.
Lemma lower_ok l it : forall k, exists j, s2k_lower k l it = k + j /\ j <= length l /\ (forall i, i < j -> (l.[i] < it)%Z) /\ (j < length l -> (it <= l.[j])%Z).
Proof.
  induction l as [|v l IH]; intros k.
  - exists 0. cbn. repeat split; try lia. 
  - cbn [s2k_lower]. destruct (Z.leb_spec it v).
    + exists 0. cbn [length]. split; [lia|]. split; [lia|]. split; [intros; lia|]. intros _. exact H.
    + destruct (IH (S k)) as (j & E & J1 & J2 & J3). exists (S j). cbn [length]. split; [lia|]. split; [lia|]. split.
      * intros [|i] Hi; cbn; [lia|]. apply J2. lia.
      * intros Hj. cbn. apply J3. lia.
Qed.
Lemma iters_length : length s2k_iters = 256.
Proof. reflexivity. Qed.
Lemma iters_incr : forallb (fun c => s2k_iters.[c] <? s2k_iters.[S c])%Z (seq 0 255) = true.
Proof. vm_compute. reflexivity. Qed.
Lemma iters_mono i j : i <= j -> j < 256 -> (s2k_iters.[i] <= s2k_iters.[j])%Z.
Proof.
  intros L B. induction j; [replace i with 0 by lia; lia|]. destruct (Nat.eq_dec i (S j)) as [->|]; [lia|].
  pose proof iters_incr as F. rewrite forallb_forall in F. specialize (F j). rewrite in_seq in F. specialize (F ltac:(lia)). apply Z.ltb_lt in F.
  specialize (IHj ltac:(lia) ltac:(lia)). lia.
Qed.
Lemma iters_end : s2k_iters.[0] = 1024%Z /\ s2k_iters.[255] = 65011712%Z.
Proof. split; reflexivity. Qed.
Lemma encode_ok n : (0 <= s2k_encode n < 256)%Z /\ (forall c, (0 <= c < s2k_encode n)%Z -> (s2k_decode c < n)%Z)
  /\ (n <= 65011712 -> n <= s2k_decode (s2k_encode n))%Z.
Proof.
  unfold s2k_encode. destruct iters_end as [E0 E255]. pose proof iters_length as IL.
  destruct (Z.leb_spec n s2k_iters.[0]); [|destruct (Z.leb_spec s2k_iters.[255] n)].
  - split; [lia|]. split; [intros; lia|]. intros _. unfold s2k_decode. change (Z.to_nat 0) with 0. lia.
  - split; [lia|]. split.
    + intros c Hc. unfold s2k_decode. pose proof (@iters_mono (S (Z.to_nat c)) 255 ltac:(lia) ltac:(lia)).
      pose proof iters_incr as F. rewrite forallb_forall in F. specialize (F (Z.to_nat c)). rewrite in_seq in F. specialize (F ltac:(lia)). apply Z.ltb_lt in F. lia.
    + intros Q. unfold s2k_decode. change (Z.to_nat 255) with 255. lia.
  - destruct (@lower_ok s2k_iters n 0) as (j & E & J1 & J2 & J3). rewrite E. cbn [Nat.add]. rewrite IL in *.
    assert (j <= 255). { destruct (Nat.le_gt_cases j 255); auto. specialize (J2 255 ltac:(lia)). lia. }
    unfold to_byte. rewrite Z.mod_small by lia. split; [lia|]. unfold s2k_decode. split.
    + intros c Hc. apply J2. lia.
    + intros _. rewrite Nat2Z.id. apply J3. lia.
Qed.
Lemma decode_encode c : (0 <= c < 256)%Z -> s2k_encode (s2k_decode c) = c.
Proof.
  intros B. destruct (encode_ok (s2k_decode c)) as (E1 & E2 & E3).
  assert (L : (s2k_decode c <= 65011712)%Z).
  { unfold s2k_decode. destruct iters_end as [_ <-]. apply iters_mono; lia. }
  specialize (E3 L). destruct (Z.lt_trichotomy (s2k_encode (s2k_decode c)) c) as [Q|[Q|Q]]; auto.
  - exfalso. unfold s2k_decode in E3 at 2. set (e := s2k_encode (s2k_decode c)) in *. unfold s2k_decode in E3.
    pose proof iters_incr as F. rewrite forallb_forall in F. specialize (F (Z.to_nat e)). rewrite in_seq in F. specialize (F ltac:(lia)). apply Z.ltb_lt in F.
    pose proof (@iters_mono (S (Z.to_nat e)) (Z.to_nat c) ltac:(lia) ltac:(lia)). lia.
  - specialize (E2 c ltac:(lia)). lia.
Qed.

(** * SP 800-108 *)
Lemma ripple_le n z : kb_ripple (le_bytes n z) = le_bytes n (z + 1).
Proof.
  revert z. induction n; intros z; [reflexivity|]. cbn [le_bytes kb_ripple]. rewrite Z.add_mod_idemp_l by lia.
  pose proof (Z.mod_pos_bound (z + 1) 256 ltac:(lia)) as M.
  pose proof (Z.div_mod z 256 ltac:(lia)). pose proof (Z.div_mod (z + 1) 256 ltac:(lia)). pose proof (Z.mod_pos_bound z 256 ltac:(lia)).
  destruct (Z.ltb_spec 0 ((z + 1) mod 256)).
  - f_equal. f_equal. lia.
  - f_equal. rewrite IHn. f_equal. lia.
Qed.
Lemma kb_inc_be n z : kb_inc (be_bytes n z) = be_bytes n (z + 1).
Proof.
  assert (M : forall n, be_bytes n (be_val (be_bytes n z) + 1) = be_bytes n (z + 1)).
  { intros k. rewrite be_val_bytes. rewrite <- (be_bytes_mod k (_ + 1)), Z.add_mod_idemp_l by (apply Z.pow_nonzero; lia). apply be_bytes_mod. }
  assert (R : rev (kb_ripple (rev (be_bytes n z))) = be_bytes n (z + 1)).
  { unfold be_bytes. rewrite rev_involutive, ripple_le. reflexivity. }
  unfold kb_inc. rewrite be_bytes_length.
  destruct n as [|[|[|[|[|[|[|[|[|n]]]]]]]]]; auto.
Qed.
Lemma zeros_be n : repeat 0%Z n = be_bytes n 0.
Proof.
  unfold be_bytes. induction n; [reflexivity|]. cbn [le_bytes rev]. change (0 / 256)%Z with 0%Z. rewrite <- IHn.
  change (0 mod 256)%Z with 0%Z. change (repeat 0%Z (S n)) with (0%Z :: repeat 0%Z n). apply repeat_cons.
Qed.
Lemma fillL_ok v : (0 <= v < 2 ^ 64)%Z -> shortest_be v (kb_fillL v).
Proof.
  intros B. assert (G : forall n, 0 < n -> (v < 256 ^ Z.of_nat n)%Z -> (n = 1 \/ (256 ^ Z.of_nat (n - 1) <= v)%Z) -> shortest_be v (put_be n v)).
  { intros n N L F. rewrite put_be_be_bytes. split; [apply be_bytes_ok|]. split; [rewrite be_val_bytes, Z.mod_small; lia|].
    rewrite be_bytes_length. split; auto. destruct F as [F|F]; [left; auto|right].
    destruct n as [|n]; [lia|]. replace (S n - 1) with n in F by lia. unfold be_bytes. cbn [le_bytes rev].
    intros E. pose proof (be_val_bytes (S n) v) as V. rewrite Z.mod_small in V by lia.
    assert (X : exists t, be_bytes (S n) v = 0%Z :: t /\ length t = n /\ bytes_ok t).
    { destruct (be_bytes (S n) v) as [|x t] eqn:Y; [apply (f_equal (@length Z)) in Y; rewrite be_bytes_length in Y; cbn in Y; lia|].
      exists t. pose proof (be_bytes_ok (S n) v) as BO. rewrite Y in BO. apply Forall_inv_tail in BO. pose proof (be_bytes_length (S n) v) as LL. rewrite Y in LL. cbn in LL.
      split; [|split; [lia|auto]]. f_equal. unfold be_bytes in Y. cbn [le_bytes rev] in Y. rewrite Y in E. exact E. }
    destruct X as (t & Y & Lt & Bt). rewrite Y in V. unfold be_val in V. cbn [rev] in V.
    assert (W : forall l, le_val (l ++ [0%Z]) = le_val l). { induction l; cbn; auto. rewrite IHl. reflexivity. }
    rewrite W in V. fold (be_val t) in V. pose proof (be_val_bound Bt) as BB. rewrite Lt in BB. lia. }
  unfold kb_fillL.
  destruct (Z.ltb_spec v (2 ^ 8)); [apply G; cbn; auto; lia|]. destruct (Z.ltb_spec v (2 ^ 16)); [apply G; cbn; try lia; right; lia|].
  destruct (Z.ltb_spec v (2 ^ 24)); [apply G; cbn; try lia; right; lia|]. destruct (Z.ltb_spec v (2 ^ 32)); [apply G; cbn; try lia; right; lia|].
  destruct (Z.ltb_spec v (2 ^ 40)); [apply G; cbn; try lia; right; lia|]. destruct (Z.ltb_spec v (2 ^ 48)); [apply G; cbn; try lia; right; lia|].
  destruct (Z.ltb_spec v (2 ^ 56)); [apply G; cbn; try lia; right; lia|]. apply G; cbn; try lia; right; lia.
Qed.
Section kb.
  Variable prf : bytes -> bytes -> bytes.
  Variables (key label context : bytes) (hs : nat).
  Hypothesis PL : forall m, length (prf key m) = hs.
  Hypothesis H0 : 0 < hs.
  Variables (cs n : Z).
  Hypothesis CS : (0 <= cs <= 8)%Z.
  Hypothesis N0 : (0 <= n)%Z.
  Let fx := fixed_input label context (kb_fillL (n * 8)).
  Let c := Z.to_nat cs.
  Lemma size_good : kb_size_bad cs = false.
  Proof. unfold kb_size_bad. destruct (Z.ltb_spec cs 0); [lia|]. destruct (Z.ltb_spec 8 cs); [lia|]. reflexivity. Qed.
  Lemma kb_blocks : exists k, Z.to_nat n <= k * hs /\ (k = 0 \/ (k - 1) * hs < Z.to_nat n) /\ forall i, i < k -> i * hs < Z.to_nat n.
  Proof.
    destruct (quot_ceil N0 H0) as (k & _ & K1 & K2). exists k. split; auto. split; auto. intros i Hi. destruct K2; [lia|].
    assert (i * hs <= (k - 1) * hs) by (apply Nat.mul_le_mono_r; lia). lia.
  Qed.
  Lemma kb_counter_ok : exists out, returns (fun f => kb_counter prf f key label context cs n) (Ok out) /\ by_blocks hs (kb_counter_block (prf key) c fx) n out.
  Proof.
    destruct kb_blocks as (k & K1 & K2 & K3). set (T := kb_counter_block (prf key) c fx).
    apply (returns_intro (n := k)). 2:{ intros a b. apply by_blocks_unique. }
    intros m Hm. unfold kb_counter. rewrite size_good. destruct (Z.ltb_spec n 0); [lia|].
    set (Inv := fun i (s : bytes * nat * bytes) => let '(out, off, Iw) := s in
      length out = Z.to_nat n /\ filled hs T i out /\ off = i * hs /\ Iw = be_bytes c (Z.of_nat i)).
    match goal with |- context [go_while m ?cd ?bd ?st] => destruct (@while_count _ cd bd Inv k st) with (m := m) as (s & W & Iw) end; auto.
    - intros i [[out off] Iw] (I1 & I2 & I3 & I4) Hi. specialize (K3 i Hi). split; [apply Z.ltb_lt; lia|]. eexists. split; [reflexivity|].
      subst Iw off. rewrite kb_inc_be. replace (Z.of_nat i + 1)%Z with (Z.of_nat (i + 1)) by lia.
      change (prf key _) with (T i). unfold Inv. replace (length (T i)) with hs by (symmetry; apply PL). rewrite put_at_len'. split; auto. split; [apply filled_put; auto; apply PL|]. split; [lia|]. f_equal. lia.
    - intros [[out off] Iw] (I1 & I2 & I3 & I4). apply Z.ltb_ge. lia.
    - split; [apply repeat_length|]. split; [apply filled_0|]. split; [reflexivity|]. apply zeros_be.
    - rewrite W. destruct s as [[out off] Iw']. destruct Iw as (I1 & I2 & I3 & I4). eexists. split; [reflexivity|]. apply (filled_by_blocks I2); lia.
  Qed.
  Lemma kb_feedback_ok iv : exists out, returns (fun f => kb_feedback prf f key label context iv cs n) (Ok out) /\ by_blocks hs (kb_feedback_block (prf key) c fx iv) n out.
  Proof.
    destruct kb_blocks as (k & K1 & K2 & K3). set (T := kb_feedback_block (prf key) c fx iv).
    assert (TL : forall i, length (T i) = hs) by (intros []; apply PL).
    apply (returns_intro (n := k)). 2:{ intros a b. apply by_blocks_unique. }
    intros m Hm. unfold kb_feedback. rewrite size_good. destruct (Z.ltb_spec n 0); [lia|].
    set (Inv := fun i (s : bytes * nat * bytes * bytes) => let '(out, off, Iw, K) := s in
      length out = Z.to_nat n /\ filled hs T i out /\ off = i * hs /\ Iw = be_bytes c (Z.of_nat i) /\ K = match i with O => iv | S i' => T i' end).
    match goal with |- context [go_while m ?cd ?bd ?st] => destruct (@while_count _ cd bd Inv k st) with (m := m) as (s & W & Iw) end; auto.
    - intros i [[[out off] Iw] K] (I1 & I2 & I3 & I4 & I5) Hi. specialize (K3 i Hi). split; [apply Z.ltb_lt; lia|]. eexists. split; [reflexivity|].
      subst Iw off. rewrite kb_inc_be. replace (Z.of_nat i + 1)%Z with (Z.of_nat (i + 1)) by lia.
      assert (E : prf key (K ++ be_bytes c (Z.of_nat (i + 1)) ++ label ++ [0%Z] ++ context ++ kb_fillL (n * 8)) = T i) by (rewrite I5; destruct i; reflexivity).
      rewrite E. unfold Inv. rewrite TL, put_at_len'. split; auto. split; [apply filled_put; auto|]. split; [lia|]. split; [f_equal; lia|reflexivity].
    - intros [[[out off] Iw] K] (I1 & I2 & I3 & I4 & I5). apply Z.ltb_ge. lia.
    - split; [apply repeat_length|]. split; [apply filled_0|]. split; [reflexivity|]. split; [apply zeros_be|reflexivity].
    - rewrite W. destruct s as [[[out off] Iw'] K']. destruct Iw as (I1 & I2 & I3 & I4 & I5). eexists. split; [reflexivity|]. apply (filled_by_blocks I2); lia.
  Qed.
  Lemma kb_pipeline_ok : exists out, returns (fun f => kb_pipeline prf f key label context cs n) (Ok out) /\ by_blocks hs (kb_pipeline_block (prf key) c fx) n out.
  Proof.
    destruct kb_blocks as (k & K1 & K2 & K3). set (T := kb_pipeline_block (prf key) c fx).
    assert (TL : forall i, length (T i) = hs) by (intros; apply PL).
    apply (returns_intro (n := k)). 2:{ intros a b. apply by_blocks_unique. }
    intros m Hm. unfold kb_pipeline. rewrite size_good. destruct (Z.ltb_spec n 0); [lia|].
    replace (kb_inc (repeat 0%Z (Z.to_nat cs))) with (be_bytes c 1) by (rewrite zeros_be, kb_inc_be; reflexivity).
    change (prf key (prf key (label ++ _) ++ _)) with (T 0).
    change (prf key (label ++ [0%Z] ++ context ++ kb_fillL (n * 8))) with (Nat.iter 1 (prf key) fx).
    set (out0 := put_at 0 (T 0) (repeat 0%Z (Z.to_nat n))).
    assert (L0 : length out0 = Z.to_nat n) by (unfold out0; rewrite put_at_len', repeat_length; reflexivity).
    assert (F0 : filled hs T 1 out0) by (apply (filled_put (k := 0)); auto using filled_0). rewrite L0, TL.
    set (Inv := fun i (s : bytes * nat * bytes * bytes) => let '(out, off, Iw, A) := s in
      length out = Z.to_nat n /\ filled hs T (S i) out /\ (off = S i * hs \/ off = Z.to_nat n /\ Z.to_nat n <= S i * hs) /\ Iw = be_bytes c (Z.of_nat (S i)) /\ A = Nat.iter (S i) (prf key) fx).
    match goal with |- context [go_while m ?cd ?bd ?st] => destruct (@while_count _ cd bd Inv (k - 1) st) with (m := m) as (s & W & Iw) end; auto.
    - intros i [[[out off] Iw] A] (I1 & I2 & I3 & I4 & I5) Hi. pose proof (K3 (S i) ltac:(lia)).
      assert (OE : off = S i * hs) by lia. clear I3. split; [apply Z.ltb_lt; lia|]. eexists. split; [reflexivity|].
      subst Iw off. rewrite kb_inc_be. replace (Z.of_nat (S i) + 1)%Z with (Z.of_nat (S (S i))) by lia.
      assert (E : prf key (prf key A ++ be_bytes c (Z.of_nat (S (S i))) ++ label ++ [0%Z] ++ context ++ kb_fillL (n * 8)) = T (S i)).
      { rewrite I5. unfold T, kb_pipeline_block, counter_of. replace (S i + 1) with (S (S i)) by lia. reflexivity. }
      rewrite E. unfold Inv. rewrite TL, put_at_len'. split; auto. split; [apply filled_put; auto|]. split; [left; cbn; lia|]. split; [reflexivity|].
      rewrite I5. reflexivity.
    - intros [[[out off] Iw] A] (I1 & I2 & I3 & I4 & I5). apply Z.ltb_ge.
      assert (Z.to_nat n <= S (k - 1) * hs) by (destruct k; [lia|replace (S (S k - 1)) with (S k) by lia; auto]). lia.
    - split; auto. split; auto. split; [|split; reflexivity]. destruct (Nat.le_gt_cases hs (Z.to_nat n)); [left|right]; lia.
    - lia.
    - rewrite W. destruct s as [[[out off] Iw'] A']. destruct Iw as (I1 & I2 & I3 & I4 & I5). eexists. split; [reflexivity|]. apply (filled_by_blocks I2); [lia|].
      destruct k; [cbn; lia|replace (S (S k - 1)) with (S k) by lia; lia].
  Qed.
End kb.

(** * RFC 7836 *)
Section tree.
  Variable M : bytes -> bytes.
  Variable hs : nat.
  Hypothesis ML : forall m, length (M m) = hs.
  Hypothesis H0 : 0 < hs.
  Lemma kt_key_ok label seed k : 1 <= k <= 254 -> exists key,
    returns (fun f => kt_key M hs f label seed (Z.of_nat (k * hs))) (Ok key) /\ by_blocks hs (kt_block M label seed (Z.of_nat (k * hs))) (Z.of_nat (k * hs)) key.
  Proof.
    intros K. set (n := Z.of_nat (k * hs)). set (T := kt_block M label seed n).
    assert (TL : forall i, length (T i) = hs) by (intros; apply ML).
    apply (returns_intro (n := k)). 2:{ intros a b. apply by_blocks_unique. }
    intros m Hm. unfold kt_key. destruct (Z.eqb_spec n 0); [unfold n in *; nia|]. destruct (Nat.eqb_spec hs 0); [lia|].
    assert (N : n = (Z.of_nat k * Z.of_nat hs)%Z) by (unfold n; lia).
    replace (Z.rem n (Z.of_nat hs)) with 0%Z by (rewrite N, Z.rem_mul by lia; reflexivity). cbn [Z.eqb negb orb]. destruct (Z.ltb_spec (Z.of_nat hs * 255) n); [nia|].
    destruct (Z.ltb_spec n 0); [lia|]. replace (n / Z.of_nat hs)%Z with (Z.of_nat k) by (rewrite N, Z.div_mul by lia; reflexivity).
    unfold to_byte at 1. rewrite Z.mod_small by lia.
    set (Inv := fun i (s : bytes * Z) => fst s = concat (map T (seq 0 i)) /\ snd s = Z.of_nat (i + 1)).
    match goal with |- context [go_while m ?cd ?bd ?st] => destruct (@while_count _ cd bd Inv k st) with (m := m) as (s & W & I) end; auto.
    - intros i [out ii] [I1 I2] Hi. cbn [fst snd] in *. split; [apply Z.leb_le; lia|]. eexists. split; [reflexivity|]. subst ii.
      change (M _) with (T i). unfold Inv. cbn [fst snd]. rewrite seq_S, map_app, concat_app. cbn [map concat Nat.add]. rewrite app_nil_r, I1.
      split; [reflexivity|]. unfold to_byte. rewrite Z.mod_small by lia. lia.
    - intros [out ii] [I1 I2]. cbn [snd] in I2. apply Z.leb_gt. lia.
    - split; reflexivity.
    - rewrite W. destruct s as [out ii]. destruct I as [I1 I2]. cbn [fst] in I1. eexists. split; [reflexivity|]. rewrite I1.
      apply (filled_by_blocks (k := k)); [apply concat_filled; auto|rewrite (concat_length k TL); unfold n; lia|rewrite (concat_length k TL); lia].
  Qed.
  Lemma kt_key_hangs label seed : never_returns (fun f => kt_key M hs f label seed (Z.of_nat (255 * hs))).
  Proof.
    intros m. unfold kt_key. set (n := Z.of_nat (255 * hs)). assert (N : n = (255 * Z.of_nat hs)%Z) by (unfold n; lia).
    destruct (Z.eqb_spec n 0); [lia|]. destruct (Nat.eqb_spec hs 0); [lia|].
    replace (Z.rem n (Z.of_nat hs)) with 0%Z by (rewrite N, Z.rem_mul by lia; reflexivity). cbn [Z.eqb negb orb]. destruct (Z.ltb_spec (Z.of_nat hs * 255) n); [lia|].
    destruct (Z.ltb_spec n 0); [lia|]. replace (n / Z.of_nat hs)%Z with 255%Z by (rewrite N, Z.div_mul by lia; reflexivity).
    change (to_byte 255) with 255%Z.
    match goal with |- match go_while m ?cd ?bd ?st with _ => _ end = None =>
      assert (G : forall m out i, (0 <= i <= 255)%Z -> go_while m cd bd (out, i) = None) end.
    { clear m. induction m; intros out i Hi; [reflexivity|]. cbn [go_while]. destruct (Z.leb_spec i 255); [|lia]. apply IHm. unfold to_byte. pose proof (Z.mod_pos_bound (i + 1) 256 ltac:(lia)). lia. }
    rewrite G by lia. reflexivity.
  Qed.
  Lemma kt_key_panics label seed len : ((forall k, 1 <= k <= 255 -> len <> Z.of_nat (k * hs)) -> forall f, kt_key M hs f label seed len = Some Panic).
  Proof.
    intros N f. unfold kt_key. destruct (Z.eqb_spec len 0); auto. destruct (Nat.eqb_spec hs 0); auto.
    destruct (Z.eqb_spec (Z.rem len (Z.of_nat hs)) 0) as [E|E]; cbn [negb orb]; auto.
    destruct (Z.ltb_spec (Z.of_nat hs * 255) len); auto. destruct (Z.ltb_spec len 0); auto. exfalso.
    rewrite Z.rem_mod_nonneg in E by lia. pose proof (Z.div_mod len (Z.of_nat hs) ltac:(lia)) as D. rewrite E in D.
    set (q := (len / Z.of_nat hs)%Z) in *. assert (1 <= q <= 255)%Z by nia. apply (N (Z.to_nat q)); [lia|]. nia.
  Qed.

  (** * prf+ *)
  Lemma upd_last (l : bytes) x y : upd (length (l ++ [x]) - 1) y (l ++ [x]) = l ++ [y].
  Proof. rewrite app_length. cbn [length]. replace (length l + 1 - 1) with (length l) by lia. induction l; cbn; auto. f_equal. auto. Qed.
  Lemma gocopy_all (d s : bytes) : length d = length s -> gocopy d s = s.
  Proof. intros L. unfold gocopy. rewrite L, firstn_all, <- L, skipn_all, app_nil_r. reflexivity. Qed.
  Lemma pp_block_length salt i : length (prfplus_block M salt i) = hs.
  Proof. destruct i; apply ML. Qed.
  Lemma pp_fold salt dst0 nn k : k <= nn -> filled hs (prfplus_block M salt) 1 dst0 ->
    exists x dst off, fold_left (pp_step M hs nn) (seq 0 k) (prfplus_block M salt 0 ++ salt ++ [1%Z], dst0, hs) = (prfplus_block M salt k ++ salt ++ [x], dst, off)
      /\ length dst = length dst0 /\ filled hs (prfplus_block M salt) (k + 1) dst /\ (k < nn -> off = (k + 1) * hs).
  Proof.
    intros K F. induction k.
    - do 3 eexists. split; [reflexivity|]. split; auto. split; auto. intros _. lia.
    - destruct (IHk ltac:(lia)) as (x & dst & off & E & L & FF & O). rewrite seq_S, fold_left_app, E. cbn [fold_left Nat.add].
      rewrite (O ltac:(lia)). unfold pp_step. rewrite app_assoc, upd_last. rewrite <- app_assoc.
      rewrite (@firstn_app_exact _ hs) by apply pp_block_length. rewrite (@skipn_app_exact _ hs) by apply pp_block_length.
      rewrite gocopy_all by (rewrite pp_block_length, ML; reflexivity).
      replace (M (prfplus_block M salt k ++ salt ++ [to_byte (Z.of_nat k + 2)])) with (prfplus_block M salt (S k)).
      2:{ cbn [prfplus_block]. do 5 f_equal. lia. }
      rewrite firstn_app_exact by apply pp_block_length.
      do 3 eexists. split; [reflexivity|]. split; [rewrite put_at_len'; auto|]. split.
      + replace (S k + 1) with (S (S k)) by lia. replace (k + 1) with (S k) in * by lia. apply filled_put; auto. apply pp_block_length.
      + intros Q. destruct (Nat.eqb_spec (k + 1) nn); lia.
  Qed.
  Lemma pp_key_ok password salt n : password <> [] -> salt <> [] -> (0 <= n)%Z ->
    exists key, pp_key M hs password salt n = Ok key /\ by_blocks hs (prfplus_block M salt) n key.
  Proof.
    intros P Sa N. unfold pp_key. destruct (Nat.eqb_spec (length password) 0); [destruct password; cbn in *; [congruence|lia]|].
    destruct (Nat.eqb_spec (length salt) 0); [destruct salt; cbn in *; [congruence|lia]|].
    assert (E1 : put_at hs salt (upd (length (repeat 0%Z (hs + length salt + 1)) - 1) 1%Z (repeat 0%Z (hs + length salt + 1))) = repeat 0%Z hs ++ salt ++ [1%Z]).
    { rewrite (repeat_app 0%Z (hs + length salt) 1). cbn [repeat]. rewrite upd_last. unfold put_at. rewrite repeat_app, <- !app_assoc.
      rewrite firstn_app_exact, skipn_app_exact by apply repeat_length. f_equal. unfold gocopy. rewrite app_length, repeat_length. cbn [length].
      rewrite firstn_all2 by lia. f_equal. rewrite skipn_app_exact by apply repeat_length. reflexivity. }
    rewrite E1. rewrite (@firstn_app_exact _ hs (repeat 0%Z hs)), (@skipn_app_exact _ hs (repeat 0%Z hs)) by apply repeat_length.
    rewrite (@gocopy_all (repeat 0%Z hs) (M (salt ++ [1%Z]))) by (rewrite repeat_length, ML; reflexivity). change (M (salt ++ [1%Z])) with (prfplus_block M salt 0).
    rewrite (@firstn_app_exact _ hs (prfplus_block M salt 0)) by apply pp_block_length. destruct (Z.ltb_spec n 0); [lia|].
    set (T := prfplus_block M salt). set (dst0 := gocopy (repeat 0%Z (Z.to_nat n)) (T 0)).
    assert (LD : length dst0 = Z.to_nat n) by (unfold dst0; rewrite gocopy_length, repeat_length; reflexivity).
    assert (F : filled hs T 1 dst0) by (apply (filled_put (k := 0) (out := repeat 0%Z (Z.to_nat n))); auto using filled_0; apply pp_block_length).
    rewrite LD. pose proof (Nat.div_mod (Z.to_nat n) hs ltac:(lia)) as D. pose proof (Nat.mod_upper_bound (Z.to_nat n) hs ltac:(lia)) as U.
    set (q := Z.to_nat n / hs) in *. destruct (Nat.eqb_spec q 0) as [Q|Q].
    { eexists. split; [reflexivity|]. apply (filled_by_blocks F); [lia|]. rewrite Q in D. lia. }
    set (nn := (if q * hs =? Z.to_nat n then q else q + 1) - 1).
    destruct (@pp_fold salt dst0 nn nn ltac:(lia) F) as (x & dst & off & E & L & FF & _). fold T in E. rewrite E.
    eexists. split; [reflexivity|]. apply (filled_by_blocks FF); [lia|]. rewrite L, LD. unfold nn.
    destruct (Nat.eqb_spec (q * hs) (Z.to_nat n)); [replace (q - 1 + 1) with q by lia; lia|]. replace (q + 1 - 1 + 1) with (S q) by lia. cbn. lia.
  Qed.
  Lemma pp_key_err password salt n : password = [] \/ salt = [] -> pp_key M hs password salt n = Err.
  Proof. intros [-> | ->]; unfold pp_key; [reflexivity|]. destruct (length password =? 0); reflexivity. Qed.
End tree.

(** * bcrypt_pbkdf *)
Lemma fold_spread nb b (out : bytes) key k : 0 < nb -> b < nb -> length key = nb * 32 -> k <= 32 ->
  length (fold_left (fun key i => upd (i * nb + b) out.[i] key) (seq 0 k) key) = nb * 32 /\
  forall p, p < nb * 32 -> (fold_left (fun key i => upd (i * nb + b) out.[i] key) (seq 0 k) key).[p] =
    if (p mod nb =? b) && (p / nb <? k) then out.[p / nb] else key.[p].
Proof.
  intros N B L K. induction k.
  - split; auto. intros p Hp. cbn [seq fold_left]. rewrite Bool.andb_false_r. reflexivity.
  - destruct (IHk ltac:(lia)) as [L1 E1]. rewrite seq_S, fold_left_app. cbn [fold_left Nat.add]. split; [rewrite upd_len; auto|].
    intros p Hp. rewrite nth_upd by (rewrite L1; nia). rewrite E1 by auto.
    pose proof (Nat.div_mod p nb ltac:(lia)) as D. pose proof (Nat.mod_upper_bound p nb ltac:(lia)) as U.
    destruct (Nat.eqb_spec p (k * nb + b)) as [->|Q].
    + assert (X : (k * nb + b) / nb = k) by (symmetry; apply (Nat.div_unique _ nb k b); lia).
      assert (Y : (k * nb + b) mod nb = b) by (symmetry; apply (Nat.mod_unique _ nb k b); lia).
      rewrite X, Y, Nat.eqb_refl. destruct (Nat.ltb_spec k (S k)); [reflexivity|lia].
    + destruct (Nat.eqb_spec (p mod nb) b); cbn [andb]; auto.
      destruct (Nat.ltb_spec (p / nb) k), (Nat.ltb_spec (p / nb) (S k)); auto; try lia.
      exfalso. assert (Z' : p / nb = k) by lia. rewrite Z' in D. lia.
Qed.
Section bc.
  Variable sha : bytes -> bytes.
  Variable bh : bytes -> bytes -> bytes.
  Lemma bc_key_err password salt rounds n : (rounds < 1)%Z \/ password = [] \/ salt = [] \/ (2 ^ 20 < Z.of_nat (length salt))%Z \/ (1024 < n)%Z ->
    bc_key sha bh password salt rounds n = Err.
  Proof.
    intros D. unfold bc_key. destruct (Z.ltb_spec rounds 1); auto. destruct (Nat.eqb_spec (length password) 0); auto.
    destruct (Nat.eqb_spec (length salt) 0); cbn [orb]; auto. destruct (Z.ltb_spec (2 ^ 20) (Z.of_nat (length salt))); auto.
    destruct (Z.ltb_spec 1024 n); auto. destruct D as [D|[D|[D|[D|D]]]]; subst; try lia; cbn in *; lia.
  Qed.
  Hypothesis BL : forall a b, length (bh a b) = 32.
  Lemma bc_block_eq password salt rounds nb key block : (1 <= rounds)%Z -> 0 < block <= nb -> length key = nb * 32 ->
    length (bc_block sha bh (sha password) salt rounds nb key block) = nb * 32 /\
    forall p, p < nb * 32 -> (bc_block sha bh (sha password) salt rounds nb key block).[p] =
      if p mod nb =? block - 1 then (bcrypt_block sha bh password salt (Z.to_nat rounds) (block - 1)).[p / nb] else key.[p].
  Proof.
    intros R B L. unfold bc_block. set (g := fun m => bh (sha password) (sha m)).
    pose proof (@iter_xor g 32 (g (salt ++ be_bytes 4 (Z.of_nat block))) (Z.to_nat (rounds - 1)) ltac:(intros; apply BL) ltac:(apply BL)) as E.
    cbv zeta in E |- *. change (bh (sha password) (sha (salt ++ be_bytes 4 (Z.of_nat block)))) with (g (salt ++ be_bytes 4 (Z.of_nat block))).
    match goal with |- context [Nat.iter ?k ?f ?s] => change (Nat.iter k f s) with (Nat.iter k (fun '(T, U) => (xorl T (g U), g U)) s) end.
    rewrite E. replace (S (Z.to_nat (rounds - 1))) with (Z.to_nat rounds) by lia.
    replace (xor_of 32 _) with (bcrypt_block sha bh password salt (Z.to_nat rounds) (block - 1)).
    2:{ unfold bcrypt_block. replace (block - 1 + 1) with block by lia. reflexivity. }
    destruct (@fold_spread nb (block - 1) (bcrypt_block sha bh password salt (Z.to_nat rounds) (block - 1)) key 32 ltac:(lia) ltac:(lia) L ltac:(lia)) as [L1 E1].
    split; auto. intros p Hp. rewrite E1 by auto. assert (p / nb < 32) by (apply Nat.div_lt_upper_bound; lia).
    destruct (Nat.ltb_spec (p / nb) 32); [|lia]. rewrite Bool.andb_true_r. reflexivity.
  Qed.
  Lemma bc_key_ok password salt rounds n : (1 <= rounds)%Z -> password <> [] -> salt <> [] -> (Z.of_nat (length salt) <= 2 ^ 20)%Z -> (0 <= n <= 1024)%Z ->
    exists key nb, bc_key sha bh password salt rounds n = Ok key /\ Z.of_nat nb = ((n + 31) / 32)%Z /\ Z.of_nat (length key) = n /\
      forall p, p < length key -> key.[p] = (bcrypt_block sha bh password salt (Z.to_nat rounds) (p mod nb)).[p / nb].
  Proof.
    intros R P Sa LS N. unfold bc_key. destruct (Z.ltb_spec rounds 1); [lia|]. destruct (Nat.eqb_spec (length password) 0); [destruct password; cbn in *; [congruence|lia]|].
    destruct (Nat.eqb_spec (length salt) 0); [destruct salt; cbn in *; [congruence|lia]|]. destruct (Z.ltb_spec (2 ^ 20) (Z.of_nat (length salt))); [lia|].
    cbn [orb]. destruct (Z.ltb_spec 1024 n); [lia|]. replace (n + 31)%Z with (n + Z.of_nat 32 - 1)%Z by lia. change 32%Z with (Z.of_nat 32).
    destruct (@quot_ceil n 32 ltac:(lia) ltac:(lia)) as (nb & E & K1 & K2). rewrite E. destruct (Z.ltb_spec (Z.of_nat nb) 0); [lia|]. rewrite Nat2Z.id.
    assert (G : forall k, k <= nb -> exists key, fold_left (bc_block sha bh (sha password) salt rounds nb) (seq 1 k) (repeat 0%Z (nb * 32)) = key /\ length key = nb * 32 /\
      forall p, p < nb * 32 -> p mod nb < k -> key.[p] = (bcrypt_block sha bh password salt (Z.to_nat rounds) (p mod nb)).[p / nb]).
    { induction k; intros Hk.
      - eexists. split; [reflexivity|]. split; [apply repeat_length|]. intros; lia.
      - destruct (IHk ltac:(lia)) as (key & F & L & Q). rewrite seq_S, fold_left_app, F. cbn [fold_left]. eexists. split; [reflexivity|].
        destruct (@bc_block_eq password salt rounds nb key (1 + k) R ltac:(lia) L) as [L1 E1]. split; auto. intros p Hp Hq. rewrite E1 by auto.
        replace (1 + k - 1) with k by lia. destruct (Nat.eqb_spec (p mod nb) k) as [->|]; [reflexivity|]. apply Q; lia. }
    destruct (G nb ltac:(lia)) as (key & -> & L & Q). rewrite cut_ok by lia. eexists. exists nb. split; [reflexivity|].
    rewrite Z.quot_div_nonneg in E by lia. split; [rewrite <- E; reflexivity|]. rewrite firstn_length, L. split; [lia|].
    intros p Hp. rewrite nth_firstn by lia. apply Q; [lia|]. apply Nat.mod_upper_bound. lia.
  Qed.
End bc.
