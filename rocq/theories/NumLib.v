(** Number theory used by the public-key proofs: modular powers, inverses, Fermat's theorem. *)
From Coq Require Import Znumtheory Permutation.
From Verif Require Import Base BigModel WordLib.
Set Implicit Arguments. Unset Strict Implicit.
Local Open Scope Z_scope.

(** a and b are congruent modulo m *)
Notation "a =[ m ]= b" := (a mod m = b mod m) (at level 70, b at next level).

Lemma cong_mul a b c d m : a =[m]= b -> c =[m]= d -> a * c =[m]= b * d.
Proof. intros H H'. rewrite Zmult_mod, H, H', <- Zmult_mod. reflexivity. Qed.
Lemma cong_add a b c d m : a =[m]= b -> c =[m]= d -> a + c =[m]= b + d.
Proof. intros H H'. rewrite Zplus_mod, H, H', <- Zplus_mod. reflexivity. Qed.
Lemma cong_sub a b c d m : a =[m]= b -> c =[m]= d -> a - c =[m]= b - d.
Proof. intros H H'. rewrite Zminus_mod, H, H', <- Zminus_mod. reflexivity. Qed.
Lemma cong_pow a b e m : a =[m]= b -> a ^ e =[m]= b ^ e.
Proof.
  intros H. destruct (Z.leb_spec 0 e) as [He|He]; [|now rewrite !Z.pow_neg_r].
  pattern e; apply natlike_ind; auto.
  intros x Hx IH. rewrite !Z.pow_succ_r by auto. now apply cong_mul.
Qed.
Lemma cong_mod a m : a mod m =[m]= a.
Proof. apply Zmod_mod. Qed.
Lemma cong_div a b m : m <> 0 -> (a =[m]= b <-> (m | a - b)).
Proof.
  intros Hm. split.
  - intros H. exists (a / m - b / m). pose proof (Z.div_mod a m Hm). pose proof (Z.div_mod b m Hm). nia.
  - intros [k H]. replace a with (b + k * m) by lia. now apply Z_mod_plus_full.
Qed.

Lemma powm_pos_spec b e m : m <> 0 -> powm_pos b e m = (b ^ Zpos e) mod m.
Proof.
  intros Hm. induction e as [e IH|e IH|]; cbn [powm_pos].
  - rewrite IH. replace (Zpos e~1) with (Zpos e + Zpos e + 1) by lia.
    rewrite !Z.pow_add_r, Z.pow_1_r by lia.
    rewrite <- Zmult_mod, Zmult_mod_idemp_l. reflexivity.
  - rewrite IH. replace (Zpos e~0) with (Zpos e + Zpos e) by lia.
    rewrite !Z.pow_add_r by lia. rewrite <- Zmult_mod. reflexivity.
  - now rewrite Z.pow_1_r.
Qed.
Lemma powm_spec b e m : m <> 0 -> 0 <= e -> powm b e m = (b ^ e) mod m.
Proof. intros Hm He. destruct e; cbn [powm]; [reflexivity|now apply powm_pos_spec|lia]. Qed.

Lemma egcd_S f a b : egcd (S f) a b = if b =? 0 then (1, 0) else let (u, v) := egcd f b (a mod b) in (v, u - (a / b) * v).
Proof. reflexivity. Qed.
Lemma gcd_step a b : b <> 0 -> Z.gcd a b = Z.gcd b (a mod b).
Proof. intros H. rewrite (Z.gcd_comm b), Z.gcd_mod by auto. apply Z.gcd_comm. Qed.
Lemma egcd_spec n : forall a b, 0 <= b < 2 ^ Z.of_nat n -> 0 <= a ->
  let (u, v) := egcd (S (2 * n)) a b in u * a + v * b = Z.gcd a b.
Proof.
  induction n as [|n IH]; intros a b Hb Ha.
  - replace b with 0 by (cbn in Hb; lia). rewrite Z.gcd_0_r, Z.abs_eq by auto. change (1 * a + 0 * 0 = a). lia.
  - replace (S (2 * S n))%nat with (S (S (S (2 * n)))) by lia.
    rewrite egcd_S. destruct (Z.eqb_spec b 0) as [->|Hb0]; [rewrite Z.gcd_0_r; lia|].
    assert (Hr : 0 <= a mod b < b) by (apply Z.mod_pos_bound; lia).
    pose proof (gcd_step a Hb0) as Hg.
    pose proof (Z.div_mod a b Hb0) as Hd.
    rewrite egcd_S. destruct (Z.eqb_spec (a mod b) 0) as [Hz|Hz].
    { rewrite Hg, Hz, Z.gcd_0_r. lia. }
    set (r := a mod b) in *.
    assert (Hr2 : 0 <= b mod r < 2 ^ Z.of_nat n).
    { assert (0 <= b mod r < r) by (apply Z.mod_pos_bound; lia).
      assert (1 <= b / r) by (apply Z.div_le_lower_bound; lia).
      pose proof (Z.div_mod b r Hz).
      replace (Z.of_nat (S n)) with (Z.succ (Z.of_nat n)) in Hb by lia. rewrite Z.pow_succ_r in Hb by lia. nia. }
    specialize (IH r (b mod r) Hr2 ltac:(lia)).
    destruct (egcd (S (2 * n)) r (b mod r)) as [u v].
    pose proof (gcd_step b Hz) as Hg2.
    pose proof (Z.div_mod b r Hz). rewrite Hg, Hg2, <- IH. nia.
Qed.

Lemma bitlen_bound x : 0 <= x < 2 ^ Z.of_nat (bitlen x) \/ x < 0.
Proof.
  destruct (Z.ltb_spec x 0); [auto|left]. unfold bitlen. destruct (Z.eqb_spec x 0) as [->|]; [cbn; lia|].
  rewrite Z.abs_eq by lia. pose proof (Z.log2_spec x ltac:(lia)). pose proof (Z.log2_nonneg x).
  replace (Z.of_nat (S (Z.to_nat (Z.log2 x)))) with (Z.succ (Z.log2 x)) by lia. lia.
Qed.
Lemma bitlen_low x : 0 < x -> 2 ^ Z.of_nat (bitlen x - 1) <= x.
Proof.
  intros H. unfold bitlen. destruct (Z.eqb_spec x 0) as [->|]; [lia|].
  rewrite Z.abs_eq by lia. pose proof (Z.log2_spec x ltac:(lia)). pose proof (Z.log2_nonneg x).
  replace (Z.of_nat (S (Z.to_nat (Z.log2 x)) - 1)) with (Z.log2 x) by lia. lia.
Qed.
Lemma bitlen_pos x : 0 < x -> (0 < bitlen x)%nat.
Proof. unfold bitlen. destruct (Z.eqb_spec x 0); lia. Qed.

Lemma mod_inverse_some x m i : 0 < m -> mod_inverse x m = Some i -> 0 <= i < m /\ i * x =[m]= 1.
Proof.
  intros Hm. unfold mod_inverse.
  destruct (bitlen_bound m) as [Hb|]; [|lia].
  pose proof (egcd_spec (a := x mod m) Hb ltac:(apply Z.mod_pos_bound; lia)) as He.
  destruct (egcd (S (2 * bitlen m)) (x mod m) m) as [u v]. cbn [fst].
  destruct (Z.eqb_spec (Z.gcd x m) 1) as [Hg|]; [|discriminate].
  intros [= <-]. split; [now apply Z.mod_pos_bound|].
  rewrite Z.gcd_mod, Z.gcd_comm, Hg in He by lia.
  rewrite Zmult_mod_idemp_l. rewrite <- He. symmetry.
  rewrite Z_mod_plus_full, Zmult_mod_idemp_r. reflexivity.
Qed.
Lemma mod_inverse_ok x m : 0 < m -> Z.gcd x m = 1 -> exists i, mod_inverse x m = Some i.
Proof. intros Hm Hg. unfold mod_inverse. rewrite Hg. eexists. reflexivity. Qed.
Lemma mod_inverse_none x m : Z.gcd x m <> 1 -> mod_inverse x m = None.
Proof. intros Hg. unfold mod_inverse. destruct (Z.eqb_spec (Z.gcd x m) 1); congruence. Qed.

Lemma cong_cancel a b c m : 0 < m -> Z.gcd c m = 1 -> a * c =[m]= b * c -> a =[m]= b.
Proof.
  intros Hm Hg H. apply cong_div in H; [|lia]. apply cong_div; [lia|].
  replace (a * c - b * c) with (c * (a - b)) in H by lia.
  apply Gauss with c; auto. apply Zgcd_1_rel_prime. now rewrite Z.gcd_comm.
Qed.

Lemma gcd_mul a b m : Z.gcd a m = 1 -> Z.gcd b m = 1 -> Z.gcd (a * b) m = 1.
Proof.
  intros Ha Hb. apply Zgcd_1_rel_prime. apply rel_prime_sym, rel_prime_mult; apply rel_prime_sym, Zgcd_1_rel_prime; auto.
Qed.
Lemma gcd_pow a m e : 0 <= e -> Z.gcd a m = 1 -> Z.gcd (a ^ e) m = 1.
Proof.
  intros He Ha. pattern e; apply natlike_ind; auto; [apply Z.gcd_1_l|].
  intros x Hx IH. rewrite Z.pow_succ_r by auto. now apply gcd_mul.
Qed.

(** ** Fermat's little theorem *)
Definition zprod (l : list Z) : Z := fold_right Z.mul 1 l.
Lemma zprod_perm l l' : Permutation l l' -> zprod l = zprod l'.
Proof. unfold zprod. induction 1; cbn; try congruence; ring. Qed.
Lemma zprod_gcd l m : 0 < m -> (forall x, In x l -> Z.gcd x m = 1) -> Z.gcd (zprod l) m = 1.
Proof.
  intros Hm. induction l as [|x l IH]; intros H; cbn; [apply Z.gcd_1_l|].
  apply Zgcd_1_rel_prime. apply rel_prime_sym, rel_prime_mult; apply rel_prime_sym, Zgcd_1_rel_prime; [apply H; left; auto|].
  apply IH. intros y Hy. apply H. now right.
Qed.
Lemma zprod_scale a m l : 0 < m -> zprod (map (fun i => (a * i) mod m) l) =[m]= a ^ Z.of_nat (length l) * zprod l.
Proof.
  intros Hm. induction l as [|x l IH]; cbn [map zprod fold_right length]; [reflexivity|].
  fold (zprod (map (fun i => (a * i) mod m) l)). fold (zprod l).
  replace (Z.of_nat (S (length l))) with (Z.succ (Z.of_nat (length l))) by lia. rewrite Z.pow_succ_r by lia.
  rewrite Zmult_mod_idemp_l.
  transitivity ((a * x) * (a ^ Z.of_nat (length l) * zprod l) mod m); [apply cong_mul; auto|].
  f_equal. ring.
Qed.

Lemma prime_gcd p x : prime p -> 0 < x < p -> Z.gcd x p = 1.
Proof. intros Hp Hx. apply Zgcd_1_rel_prime. apply rel_prime_le_prime; auto; lia. Qed.
Lemma prime_gcd_mod p x : prime p -> x mod p <> 0 -> Z.gcd x p = 1.
Proof.
  intros Hp Hx. pose proof (prime_ge_2 p Hp). rewrite Z.gcd_comm, <- Z.gcd_mod by lia. apply prime_gcd; auto.
  pose proof (Z.mod_pos_bound x p ltac:(lia)). lia.
Qed.
Lemma gcd_prime_mod p x : prime p -> Z.gcd x p = 1 -> x mod p <> 0.
Proof.
  intros Hp Hx H0. pose proof (prime_ge_2 p Hp). rewrite Z.gcd_comm, <- Z.gcd_mod, H0, Z.gcd_0_l in Hx by lia. lia.
Qed.

Theorem fermat a p : prime p -> a mod p <> 0 -> a ^ (p - 1) mod p = 1.
Proof.
  intros Hp Ha. pose proof (prime_ge_2 p Hp) as Hp2.
  pose (l := map Z.of_nat (seq 1 (Z.to_nat (p - 1)))).
  assert (Hl : forall x, In x l <-> 0 < x < p).
  { intros x. unfold l. rewrite in_map_iff. split.
    - intros (y & <- & Hy). apply in_seq in Hy. lia.
    - intros Hx. exists (Z.to_nat x). split; [lia|]. apply in_seq. lia. }
  assert (Hnd : NoDup l) by (apply FinFun.Injective_map_NoDup; [intros ? ?; lia|apply seq_NoDup]).
  assert (Hlen : Z.of_nat (length l) = p - 1) by (unfold l; rewrite map_length, seq_length; lia).
  pose proof (prime_gcd_mod Hp Ha) as Hg.
  assert (Hperm : Permutation (map (fun i => (a * i) mod p) l) l).
  { apply NoDup_Permutation_bis.
    - assert (Hinj : forall x y, In x l -> In y l -> (a * x) mod p = (a * y) mod p -> x = y).
      { intros x y Hx Hy H. apply Hl in Hx, Hy. rewrite (Z.mul_comm a x), (Z.mul_comm a y) in H.
        apply cong_cancel in H; auto; [|lia]. rewrite !Z.mod_small in H by lia. auto. }
      clear Hlen. revert Hinj Hnd. clear Hl. generalize l. clear l. intros l. induction l as [|x l IH]; cbn; intros Hinj Hnd; [constructor|].
      inversion_clear Hnd as [|? ? Hn Hd]. constructor.
      + intros Hin. apply in_map_iff in Hin as (y & He & Hy). apply Hn.
        rewrite (Hinj x y); auto.
      + apply IH; auto.
    - now rewrite map_length.
    - intros y Hy. apply in_map_iff in Hy as (x & <- & Hx). apply Hl in Hx. apply Hl.
      pose proof (Z.mod_pos_bound (a * x) p ltac:(lia)).
      enough ((a * x) mod p <> 0) by lia.
      intros H0. apply Z.mod_divide in H0; [|lia].
      apply prime_mult in H0; auto. destruct H0 as [H0|H0].
      + apply Ha. apply Z.mod_divide; auto; lia.
      + apply Z.divide_pos_le in H0; lia. }
  pose proof (zprod_scale a l (m := p) ltac:(lia)) as Hs. rewrite (zprod_perm Hperm), Hlen in Hs.
  assert (Hz : 1 =[p]= a ^ (p - 1)).
  { apply cong_cancel with (zprod l); [lia| |].
    - apply zprod_gcd; [lia|]. intros x Hx. apply Hl in Hx. now apply prime_gcd.
    - now rewrite Z.mul_1_l. }
  rewrite <- Hz. apply Z.mod_small. lia.
Qed.

(** A power of an element whose n-th power is 1 depends only on the exponent modulo n. *)
Lemma pow_order g n p a b : 0 < n -> 1 < p -> g ^ n mod p = 1 -> 0 <= a -> 0 <= b -> a =[n]= b -> g ^ a =[p]= g ^ b.
Proof.
  intros Hn Hp Hg. 
  assert (Hk : forall k, 0 <= k -> g ^ (n * k) mod p = 1).
  { intros k Hk. rewrite Z.pow_mul_r by lia. rewrite (cong_pow (b := 1)); [rewrite Z.pow_1_l; [apply Z.mod_small|]; lia|].
    rewrite Hg. symmetry. apply Z.mod_small. lia. }
  assert (Hr : forall a, 0 <= a -> g ^ a =[p]= g ^ (a mod n)).
  { intros c Hc. rewrite (Z.div_mod c n) at 1 by lia.
    rewrite Z.pow_add_r; [|apply Z.mul_nonneg_nonneg; [lia|apply Z.div_pos; lia]|apply Z.mod_pos_bound; lia].
    rewrite <- (Z.mul_1_l (g ^ (c mod n))) at 2. apply cong_mul; auto.
    rewrite Hk by (apply Z.div_pos; lia). symmetry; apply Z.mod_small; lia. }
  intros Ha Hb H. rewrite (Hr a), (Hr b), H by auto. reflexivity.
Qed.

(** Deciding primality of a small number by trying every candidate divisor. *)
Definition primeb (p : Z) : bool := (1 <? p) && allz (fun n => (n =? 0) || (Z.gcd n p =? 1)) (Z.to_nat p) 0.
Lemma primeb_prime p : primeb p = true -> prime p.
Proof.
  unfold primeb. intros H. apply andb_true_iff in H as [H1 H2]. apply Z.ltb_lt in H1.
  apply prime_intro; auto. intros n Hn. apply Zgcd_1_rel_prime.
  pose proof (allz_spec H2 (y := n) ltac:(lia)) as H. cbn in H. lia.
Qed.

(** [Bytes] and [SetBytes] *)
Lemma byteceil_bound x : 0 <= x -> x < 256 ^ Z.of_nat (byteceil (bitlen x)).
Proof.
  intros Hx. destruct (bitlen_bound x) as [[_ H]|]; [|lia]. eapply Z.lt_le_trans; [exact H|].
  change 256 with (2 ^ 8). rewrite <- Z.pow_mul_r by lia. apply Z.pow_le_mono_r; [lia|].
  unfold byteceil. pose proof (Nat.div_mod (bitlen x + 7) 8 ltac:(lia)). pose proof (Nat.mod_upper_bound (bitlen x + 7) 8 ltac:(lia)). lia.
Qed.
Lemma be_val_big_bytes x : 0 <= x -> be_val (big_bytes x) = x.
Proof.
  intros Hx. unfold big_bytes. rewrite be_val_bytes, Z.abs_eq by auto. apply Z.mod_small. split; auto. now apply byteceil_bound.
Qed.
Lemma fill_bytes_ok n x b : 0 <= x -> fill_bytes n x = Ok b -> length b = n /\ bytes_ok b /\ be_val b = x.
Proof.
  unfold fill_bytes. intros Hx. destruct (Z.ltb_spec (Z.abs x) (256 ^ Z.of_nat n)) as [H|]; [|discriminate].
  intros [= <-]. rewrite Z.abs_eq in * by auto. repeat split; [apply be_bytes_length|apply be_bytes_ok|].
  rewrite be_val_bytes. apply Z.mod_small. lia.
Qed.
Lemma fill_bytes_fits n x : 0 <= x < 256 ^ Z.of_nat n -> fill_bytes n x = Ok (be_bytes n x).
Proof. intros H. unfold fill_bytes. rewrite Z.abs_eq by lia. destruct (Z.ltb_spec x (256 ^ Z.of_nat n)); [auto|lia]. Qed.
Lemma fill_bytes_panics n x : 256 ^ Z.of_nat n <= x -> fill_bytes n x = Panic.
Proof. intros H. unfold fill_bytes. destruct (Z.ltb_spec (Z.abs x) (256 ^ Z.of_nat n)); [lia|auto]. Qed.

(** What [until] returns was accepted by a step. *)
Lemma retry_ok (A : Type) (Q : A -> Prop) fuel step rd a rd' :
  (forall rd b rd', step rd = Ok (Some b, rd') -> Q b) -> retry fuel step rd = Ok (a, rd') -> Q a.
Proof.
  intros H. revert rd. induction fuel as [|f IH]; intros rd; [discriminate|].
  cbn. destruct (step rd) as [[[b|] r]| |] eqn:E; try discriminate.
  - intros [= <- <-]. eapply H; eauto.
  - apply IH.
Qed.
Lemma until_ok (A : Type) (Q : A -> Prop) step rd a rd' :
  (forall rd b rd', step rd = Ok (Some b, rd') -> Q b) -> until step rd = Ok (a, rd') -> Q a.
Proof. apply retry_ok. Qed.
Lemma retry_no_panic (A : Type) fuel step rd :
  (forall rd, step rd <> Panic) -> retry (A := A) fuel step rd <> Panic.
Proof.
  intros H. revert rd. induction fuel as [|f IH]; intros rd; [discriminate|].
  cbn. pose proof (H rd). destruct (step rd) as [[[b|] r]| |] eqn:E; try discriminate; auto.
Qed.

Lemma land_mask_le x k : 0 <= x -> 0 <= k -> 0 <= Z.land x (2 ^ k - 1) <= x.
Proof.
  intros Hx Hk. split; [apply Z.land_nonneg; auto|].
  rewrite Z.sub_1_r, <- Z.ones_equiv, Z.land_ones by lia. apply Z.mod_le; auto. apply Z.pow_pos_nonneg; lia.
Qed.
Lemma bytes_ok_mask n b : bytes_ok b -> bytes_ok (mask_top n b) /\ length (mask_top n b) = length b.
Proof.
  destruct b as [|x t]; [auto|]. intros H. unfold mask_top. split; [|reflexivity]. inversion_clear H as [|? ? [H1 H2] H3]. constructor; auto.
  set (e := Z.of_nat _). pose proof (land_mask_le (x := x) (k := e) H1 ltac:(lia)). split; lia.
Qed.

(** The documented contract of rand.Int: a value below the bound, and never a panic. *)
Lemma rand_int_range max rd k rd' : bytes_ok rd -> rand_int max rd = Ok (k, rd') -> 0 <= k < max.
Proof.
  unfold rand_int. intros Hrd. destruct (Z.leb_spec max 0); [discriminate|].
  destruct (Nat.eqb_spec (bitlen (max - 1)) 0) as [H0|H0]; [intros [= <- <-]; lia|].
  intros Hu. enough (Hq : (fun k rd' => 0 <= k < max) k rd') by exact Hq.
  revert Hu. unfold until. generalize (S (length rd)). intros fuel. revert rd Hrd. induction fuel as [|f IH]; intros rd Hrd; [discriminate|].
  cbn [retry]. unfold read_full at 1. destruct (Nat.leb_spec (byteceil (bitlen (max - 1))) (length rd)) as [Hl|]; [|discriminate].
  cbn [rbind fst snd]. set (v := be_val _). destruct (Z.ltb_spec v max) as [Hv|Hv].
  - intros [= <- <-]. split; auto. apply be_val_bound. apply bytes_ok_mask. now apply bytes_ok_firstn.
  - apply IH. now apply bytes_ok_skipn.
Qed.
