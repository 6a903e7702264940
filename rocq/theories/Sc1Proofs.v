(** Lemmas about the stream ciphers of Sc1Model. *)
From Verif Require Import Base BlockModeModel WordModel WordLib StreamModel StreamSpec StreamProofs Sc1Model Sc1Spec.
Set Implicit Arguments. Unset Strict Implicit.
Local Open Scope nat_scope.

(** * Byte generators *)
Section gens.
  Variable S : Type.
  Variable gen : S -> S * Z.
  Variable ks : nat -> Z.
  Variable Inv : S -> nat -> Prop.
  Hypothesis step : forall st pos, Inv st pos -> snd (gen st) = ks pos /\ Inv (fst (gen st)) (1 + pos).
  Lemma byte_loop_gen src : forall st pos, Inv st pos ->
    snd (byte_loop gen st src) = xor_stream ks pos src /\ Inv (fst (byte_loop gen st src)) (pos + length src).
  Proof.
    induction src as [|b r IH]; intros st pos I; cbn [byte_loop xor_stream length fst snd].
    - now rewrite Nat.add_0_r.
    - destruct (step I) as [E I']. destruct (gen st) as [st1 k]. cbn [fst snd] in *.
      destruct (IH _ _ I') as [E2 I2]. destruct (byte_loop gen st1 r) as [st2 o]. cbn [fst snd] in *.
      split; [now rewrite E, E2|]. now rewrite Nat.add_succ_r.
  Qed.
  Lemma byte_call_is st : Inv st 0 -> stream_is (byte_call gen) st ks.
  Proof.
    intro I. apply stream_is_from with (Inv := Inv); [|exact I].
    intros s pos [dst src] Is ok. unfold scall_ok in ok. unfold byte_call. cbn [fst snd] in *.
    destruct (Nat.ltb_spec (length dst) (length src)); [lia|].
    destruct (byte_loop_gen src Is) as [E I2]. exists (fst (byte_loop gen s src)).
    split; [|exact I2]. rewrite <- E. now destruct (byte_loop gen s src).
  Qed.
End gens.

(** a generator that hands out blocks byte by byte *)
Section blocks.
  Variables (S C : Type) (gen : S -> S * Z) (core : S -> C) (buf : S -> bytes) (next : C -> C) (blk : C -> bytes) (L : nat).
  Hypothesis Lpos : 0 < L.
  Hypothesis Llen : forall c, length (blk c) = L.
  Hypothesis refill : forall st, buf st = [] ->
    core (fst (gen st)) = next (core st) /\ buf (fst (gen st)) = skipn 1 (blk (core st)) /\ snd (gen st) = (blk (core st)).[0].
  Hypothesis hand : forall st b r, buf st = b :: r -> core (fst (gen st)) = core st /\ buf (fst (gen st)) = r /\ snd (gen st) = b.
  Definition block_ks (c : C) (i : nat) : Z := (blk (Nat.iter (i / L) next c)).[i mod L].
  Let Inv (c : C) (st : S) (pos : nat) : Prop :=
    exists q r, pos = L * q + r /\
      ((r = 0 /\ buf st = [] /\ core st = Nat.iter q next c) \/
       (0 < r < L /\ buf st = skipn r (blk (Nat.iter q next c)) /\ core st = Nat.iter (1 + q) next c)).
  Lemma divmod_ks c q r : r < L -> block_ks c (L * q + r) = (blk (Nat.iter q next c)).[r].
  Proof.
    intro H. unfold block_ks. rewrite Nat.mul_comm, Nat.div_add_l by lia. rewrite Nat.div_small by lia.
    rewrite Nat.add_0_r. rewrite Nat.add_comm, Nat.mod_add by lia. now rewrite Nat.mod_small by lia.
  Qed.
  Lemma skipn_nth (l : bytes) : forall r, r < length l -> skipn r l = l.[r] :: skipn (1 + r) l.
  Proof.
    induction l as [|x l IH]; intros r H; cbn [length] in H; [lia|]. destruct r; [reflexivity|]. cbn [skipn nth Nat.add].
    rewrite IH by lia. reflexivity.
  Qed.
  Lemma blocks_step c st pos : Inv c st pos -> snd (gen st) = block_ks c pos /\ Inv c (fst (gen st)) (1 + pos).
  Proof.
    intros (q & r & -> & [(-> & B & E)|(R & B & E)]).
    - destruct (refill B) as (E1 & B1 & O). rewrite E in *. split.
      + rewrite O. symmetry. now apply divmod_ks.
      + destruct (Nat.eq_dec L 1) as [L1|L1].
        * exists (1 + q), 0. split; [lia|]. left. split; [reflexivity|]. split; [|exact E1].
          rewrite B1. apply skipn_all2. rewrite Llen. lia.
        * exists q, 1. split; [lia|]. right. split; [lia|]. split; [exact B1|]. exact E1.
    - rewrite skipn_nth in B by (rewrite Llen; lia). destruct (hand B) as (E1 & B1 & O). split.
      + rewrite O. symmetry. apply divmod_ks. lia.
      + destruct (Nat.eq_dec L (1 + r)) as [L1|L1].
        * exists (1 + q), 0. split; [lia|]. left. split; [reflexivity|]. split; [|now rewrite E1, E].
          rewrite B1. apply skipn_all2. rewrite Llen. lia.
        * exists q, (1 + r). split; [lia|]. right. split; [lia|]. split; [exact B1|]. now rewrite E1, E.
  Qed.
  Lemma blocks_is st : buf st = [] -> stream_is (byte_call gen) st (block_ks (core st)).
  Proof.
    intro B. apply byte_call_is with (Inv := Inv (core st)); [apply blocks_step|].
    exists 0, 0. split; [lia|]. left. auto.
  Qed.
End blocks.

(** * Trivium *)
Definition tbit (s : list Z) (n : nat) : bool := Z.testbit s.[n / 8] (Z.of_nat (n mod 8)).
Definition tabs (s : list Z) : list bool := map (tbit s) (seq 0 288).
Definition tok (s : list Z) : Prop := length s = 36 /\ Forall (inw 8) s.
Lemma nth_upd i v l j : i < length l -> (upd i v l).[j] = if j =? i then v else l.[j].
Proof.
  revert i j. induction l as [|x l IH]; intros i j H; cbn [length] in H; [lia|].
  destruct i, j; cbn [upd nth Nat.eqb]; auto. apply IH. lia.
Qed.
Lemma get_bit_tbit s n : get_bit s n = Z.b2z (tbit s (n - 1)).
Proof.
  unfold get_bit, tbit. set (x := s.[_]). set (k := Z.of_nat _). change 1%Z with (Z.ones 1).
  rewrite Z.land_ones by lia. change (2 ^ 1)%Z with 2%Z. rewrite <- Z.bit0_mod, Z.shiftr_spec by lia. reflexivity.
Qed.
Lemma b2z_cases b : Z.b2z b = 0%Z \/ Z.b2z b = 1%Z.
Proof. destruct b; auto. Qed.
Lemma set_bit_ok s n b : tok s -> tok (set_bit s n (Z.b2z b)).
Proof.
  intros [L F]. split; [unfold set_bit; now rewrite upd_len|]. unfold set_bit. apply upd_Forall; auto.
  assert (W : inw 8 s.[(n - 1) / 8]) by (apply nth_inw; [lia|auto]).
  apply inw_or; [lia| |apply inw_shl; lia]. apply inw_and_l; auto; [lia|]. unfold wnot. apply Z.lxor_nonneg.
  assert (0 <= Z.shiftl 1 (Z.of_nat ((n - 1) mod 8)))%Z by (apply Z.shiftl_nonneg; lia). split; intro; [lia|assumption].
Qed.
Lemma set_bit_tbit s n b m : tok s -> 0 < n <= 288 -> m < 288 ->
  tbit (set_bit s n (Z.b2z b)) m = if m =? n - 1 then b else tbit s m.
Proof.
  intros [L F] N M. unfold tbit, set_bit.
  assert (Hk : (0 <= Z.of_nat ((n - 1) mod 8) < 8)%Z) by (pose proof (Nat.mod_upper_bound (n - 1) 8); lia).
  assert (Hj : (0 <= Z.of_nat (m mod 8) < 8)%Z) by (pose proof (Nat.mod_upper_bound m 8); lia).
  assert (Q : (n - 1) / 8 < 36) by (apply Nat.div_lt_upper_bound; lia).
  rewrite nth_upd by lia.
  destruct (Nat.eqb_spec (m / 8) ((n - 1) / 8)) as [E|E].
  - rewrite Z.lor_spec, Z.land_spec. unfold wnot, wshl.
    set (k := Z.of_nat ((n - 1) mod 8)) in *. set (j := Z.of_nat (m mod 8)) in *.
    rewrite Z.mod_pow2_bits_low by lia. rewrite Z.shiftl_spec by lia.
    rewrite Z.lxor_spec. change (2 ^ 8 - 1)%Z with (Z.ones 8). rewrite Z.ones_spec_low by lia. rewrite Z.shiftl_spec by lia.
    rewrite E.
    destruct (Nat.eqb_spec m (n - 1)) as [->|D].
    + replace (j - k)%Z with 0%Z by (subst j k; lia). rewrite Z.b2z_bit0. cbn. now rewrite andb_false_r.
    + assert (j <> k). { subst j k. intro X. apply D. rewrite (Nat.div_mod m 8), (Nat.div_mod (n - 1) 8), E by lia. lia. }
      destruct (Z.lt_ge_cases j k).
      * rewrite (Z.testbit_neg_r 1), (Z.testbit_neg_r (Z.b2z b)) by lia. cbn. now rewrite andb_true_r, orb_false_r.
      * rewrite (@Z.bits_above_log2 1) by (cbn; lia).
        rewrite (@Z.bits_above_log2 (Z.b2z b)) by (destruct b; cbn; lia). cbn. now rewrite andb_true_r, orb_false_r.
  - destruct (Nat.eqb_spec m (n - 1)) as [->|D]; [congruence|reflexivity].
Qed.

Lemma nth_map_seq (f : nat -> Z) n i : i < n -> (map f (seq 0 n)).[i] = f i.
Proof.
  intro H. rewrite nth_indep with (d' := f 0) by (rewrite map_length, seq_length; lia). rewrite map_nth, seq_nth by lia. reflexivity.
Qed.
Lemma rotate_eq s : length s = 36 -> rotate s =
  map (fun i => if i =? 0 then wshl 8 s.[0] 1 else Z.lor (wshl 8 s.[i] 1) (Z.shiftr s.[i - 1] 7)) (seq 0 36).
Proof.
  intro H. do 36 (destruct s as [|? s]; [discriminate|]). destruct s; [|discriminate]. reflexivity.
Qed.
Lemma rotate_ok s : tok s -> tok (rotate s).
Proof.
  intros [L F]. rewrite rotate_eq by auto. split; [now rewrite map_length, seq_length|].
  apply Forall_forall. intros x I. apply in_map_iff in I as (i & <- & _).
  destruct (i =? 0); [apply inw_shl; lia|]. apply inw_or; [lia|apply inw_shl; lia|].
  apply inw_shr; [lia..|]. apply nth_inw; auto; lia.
Qed.
Lemma rotate_tbit s n : tok s -> n < 288 -> tbit (rotate s) n = if n =? 0 then false else tbit s (n - 1).
Proof.
  intros [L F] N. rewrite rotate_eq by auto. unfold tbit.
  assert (Q : n / 8 < 36) by (apply Nat.div_lt_upper_bound; lia).
  rewrite nth_map_seq by lia. cbn [Nat.add].
  assert (M : n mod 8 < 8) by (apply Nat.mod_upper_bound; lia).
  pose proof (Nat.div_mod n 8) as D.
  assert (Hlow : forall x, Z.testbit (wshl 8 x 1) (Z.of_nat (n mod 8)) = if n mod 8 =? 0 then false else Z.testbit x (Z.of_nat (n mod 8 - 1))).
  { intro x. unfold wshl. rewrite Z.mod_pow2_bits_low by lia. rewrite Z.shiftl_spec by lia.
    destruct (Nat.eqb_spec (n mod 8) 0) as [E|E]; [rewrite E; apply Z.testbit_neg_r; lia|]. f_equal. lia. }
  destruct (Nat.eqb_spec (n / 8) 0) as [E|E].
  - rewrite Hlow. destruct (Nat.eqb_spec (n mod 8) 0) as [E0|E0]; [replace n with 0 by lia; reflexivity|].
    destruct (Nat.eqb_spec n 0); [lia|].
    assert (X : (n - 1) / 8 = 0) by (apply Nat.div_small; lia). assert (Y : (n - 1) mod 8 = n - 1) by (apply Nat.mod_small; lia).
    rewrite X, Y. do 2 f_equal. lia.
  - destruct (Nat.eqb_spec n 0) as [->|]; [now cbn in E|].
    rewrite Z.lor_spec, Hlow, Z.shiftr_spec by lia.
    destruct (Nat.eqb_spec (n mod 8) 0) as [E0|E0].
    + assert (X : (n - 1) / 8 = n / 8 - 1) by (symmetry; apply Nat.div_unique with (r := 7); lia).
      assert (Y : (n - 1) mod 8 = 7) by (symmetry; apply Nat.mod_unique with (q := n / 8 - 1); lia).
      rewrite X, Y, E0. reflexivity.
    + assert (X : (n - 1) / 8 = n / 8) by (symmetry; apply Nat.div_unique with (r := n mod 8 - 1); lia).
      assert (Y : (n - 1) mod 8 = n mod 8 - 1) by (symmetry; apply Nat.mod_unique with (q := n / 8); lia).
      rewrite X, Y. rewrite (@inw_testbit 8 s.[n / 8 - 1]); [now rewrite orb_false_r|lia|apply nth_inw; auto; lia|lia].
Qed.

Lemma tri_step_fun f : tri_step (map f (seq 0 288)) =
  (map (fun n => if n =? 177 then xorb (xorb (xorb (f 161) (f 176)) (f 174 && f 175)) (f 263)
                 else if n =? 93 then xorb (xorb (xorb (f 65) (f 92)) (f 90 && f 91)) (f 170)
                 else if n =? 0 then xorb (xorb (xorb (f 242) (f 287)) (f 285 && f 286)) (f 68)
                 else f (n - 1)) (seq 0 288),
   xorb (xorb (xorb (f 65) (f 92)) (xorb (f 161) (f 176))) (xorb (f 242) (f 287))).
Proof. vm_compute. reflexivity. Qed.
Lemma b2z_xor a b : Z.lxor (Z.b2z a) (Z.b2z b) = Z.b2z (xorb a b). Proof. destruct a, b; reflexivity. Qed.
Lemma b2z_and a b : Z.land (Z.b2z a) (Z.b2z b) = Z.b2z (a && b). Proof. destruct a, b; reflexivity. Qed.
Lemma tri_bit_abs s : tok s -> tok (fst (tri_bit s)) /\ tabs (fst (tri_bit s)) = fst (tri_step (tabs s)) /\ snd (tri_bit s) = Z.b2z (snd (tri_step (tabs s))).
Proof.
  intro K. unfold tabs. rewrite (@tri_step_fun (tbit s)). unfold tri_bit. cbn [fst snd].
  rewrite !get_bit_tbit. cbn [Nat.sub]. rewrite !b2z_xor, !b2z_and, !b2z_xor.
  pose proof (rotate_ok K) as K1. set (s1 := rotate s) in *.
  match goal with |- context [set_bit s1 1 (Z.b2z ?b)] => pose proof (@set_bit_ok s1 1 b K1) as K2; pose proof (@set_bit_tbit s1 1 b) as T2; set (s2 := set_bit s1 1 (Z.b2z b)) in * end.
  match goal with |- context [set_bit s2 94 (Z.b2z ?b)] => pose proof (@set_bit_ok s2 94 b K2) as K3; pose proof (@set_bit_tbit s2 94 b) as T3; set (s3 := set_bit s2 94 (Z.b2z b)) in * end.
  match goal with |- context [set_bit s3 178 (Z.b2z ?b)] => pose proof (@set_bit_ok s3 178 b K3) as K4; pose proof (@set_bit_tbit s3 178 b) as T4; set (s4 := set_bit s3 178 (Z.b2z b)) in * end.
  split; [exact K4|]. split; [|reflexivity].
  apply map_ext_in. intros n I. apply in_seq in I.
  rewrite T4, T3, T2 by (auto; lia). unfold s1. rewrite rotate_tbit by (auto; lia). cbn [Nat.sub].
  destruct (n =? 177), (n =? 93), (n =? 0); reflexivity.
Qed.
Lemma tri_iter_abs n s : tok s -> tok (Nat.iter n (fun s => fst (tri_bit s)) s) /\ tabs (Nat.iter n (fun s => fst (tri_bit s)) s) = tri_after n (tabs s).
Proof.
  intro K. unfold tri_after. induction n as [|n [IH1 IH2]]; [auto|].
  cbn [Nat.iter nat_rect]. unfold Nat.iter in IH1, IH2. destruct (tri_bit_abs IH1) as (A & B & _). split; [exact A|].
  rewrite B, IH2. reflexivity.
Qed.
Lemma lor_shl_b2z ks b i : inw (Z.of_nat i) ks -> i < 8 -> Z.lor ks (wshl 8 (Z.b2z b) (Z.of_nat i)) = (ks + Z.b2z b * 2 ^ Z.of_nat i)%Z /\ inw (Z.of_nat (i + 1)) (ks + Z.b2z b * 2 ^ Z.of_nat i).
Proof.
  intros [A B] I. assert (P : (0 < 2 ^ Z.of_nat i)%Z) by (apply Z.pow_pos_nonneg; lia).
  assert (P8 : (2 ^ Z.of_nat i <= 2 ^ 7)%Z) by (apply Z.pow_le_mono_r; lia). change (2 ^ 7)%Z with 128%Z in P8.
  split.
  - unfold wshl. rewrite Z.shiftl_mul_pow2 by lia. rewrite Z.mod_small by (destruct b; cbn [Z.b2z]; lia).
    rewrite <- Z.lxor_lor. { symmetry. apply Z.add_nocarry_lxor. destruct b; cbn [Z.b2z]; [|apply Z.land_0_r].
      rewrite Z.mul_1_l. apply Z.bits_inj'. intros j Hj. rewrite Z.bits_0, Z.land_spec.
      destruct (Z.lt_ge_cases j (Z.of_nat i)).
      - rewrite Z.pow2_bits_false by lia. apply andb_false_r.
      - rewrite (@inw_testbit (Z.of_nat i)); auto; [lia|split; auto]. }
    destruct b; cbn [Z.b2z]; [|apply Z.land_0_r].
    rewrite Z.mul_1_l. apply Z.bits_inj'. intros j Hj. rewrite Z.bits_0, Z.land_spec.
    destruct (Z.lt_ge_cases j (Z.of_nat i)).
    + rewrite Z.pow2_bits_false by lia. apply andb_false_r.
    + rewrite (@inw_testbit (Z.of_nat i)); auto; [lia|split; auto].
  - unfold inw. replace (Z.of_nat (i + 1)) with (Z.of_nat i + 1)%Z by lia. rewrite Z.pow_add_r by lia. destruct b; cbn [Z.b2z]; lia.
Qed.
(** the bits a run of n rounds puts out *)
Fixpoint bits_from (n : nat) (s : list bool) : list bool :=
  match n with O => [] | S m => snd (tri_step s) :: bits_from m (fst (tri_step s)) end.
Definition bval (l : list bool) : Z := fold_right (fun b a => (Z.b2z b + 2 * a)%Z) 0%Z l.
Lemma tri_bits_abs n : forall i s ks, tok s -> i + n <= 8 -> inw (Z.of_nat i) ks ->
  tok (fst (tri_bits n i s ks)) /\ tabs (fst (tri_bits n i s ks)) = tri_after n (tabs s) /\ snd (tri_bits n i s ks) = (ks + 2 ^ Z.of_nat i * bval (bits_from n (tabs s)))%Z.
Proof.
  induction n as [|n IH]; intros i s ks K I W.
  - cbn [tri_bits fst snd bits_from bval fold_right]. split; [auto|]. split; [reflexivity|]. lia.
  - cbn [tri_bits]. destruct (tri_bit_abs K) as (K1 & E1 & O1). destruct (tri_bit s) as [s1 b]. cbn [fst snd] in *. subst b.
    assert (I8 : i < 8) by lia.
    destruct (@lor_shl_b2z ks (snd (tri_step (tabs s))) i W I8) as [EL WL]. rewrite EL.
    destruct (IH (i + 1) s1 _ K1 ltac:(lia) WL) as (K2 & E2 & O2). split; [exact K2|]. split.
    + rewrite E2, E1. unfold tri_after. clear. induction n as [|n IH]; [reflexivity|]. cbn [Nat.iter nat_rect] in *. unfold Nat.iter in *. now rewrite IH.
    + rewrite O2. cbn [bits_from bval fold_right]. rewrite <- E1. fold (bval (bits_from n (tabs s1))).
      replace (Z.of_nat (i + 1)) with (Z.of_nat i + 1)%Z by lia. rewrite Z.pow_add_r by lia. change (2 ^ 1)%Z with 2%Z.
      set (x := (2 ^ Z.of_nat i)%Z). set (y := bval _). set (z := Z.b2z _). ring.
Qed.
Lemma bits_from_eq n s : bits_from n s = map (fun t => snd (tri_step (tri_after t s))) (seq 0 n).
Proof.
  revert s. induction n as [|n IH]; intro s; [reflexivity|]. cbn [bits_from seq map]. f_equal.
  rewrite IH, <- seq_shift, map_map. apply map_ext. intro t. f_equal. f_equal. unfold tri_after. clear.
  induction t as [|t IH]; [reflexivity|]. cbn [Nat.iter nat_rect] in *. unfold Nat.iter in *. now rewrite IH.
Qed.
Lemma iter_plus {A} (f : A -> A) a b x : Nat.iter a f (Nat.iter b f x) = Nat.iter (a + b) f x.
Proof. induction a as [|a IH]; [reflexivity|]. cbn [Nat.iter nat_rect Nat.add] in *. unfold Nat.iter in *. now rewrite IH. Qed.
Lemma bval_map (f : nat -> bool) l : bval (map f l) = fold_right (fun j a => (Z.b2z (f j) + 2 * a)%Z) 0%Z l.
Proof. induction l as [|x l IH]; [reflexivity|]. cbn [map bval fold_right]. unfold bval in IH. now rewrite IH. Qed.
Lemma tri_stream s b : tok s -> tabs s = b -> stream_is tri_call s (byte_of_bits (fun t => snd (tri_step (tri_after t b)))).
Proof.
  intros K E. apply byte_call_is with (Inv := fun st pos => tok st /\ tabs st = tri_after (8 * pos) b); [|split; auto].
  intros st pos [K1 E1]. unfold tri_byte.
  destruct (@tri_bits_abs 8 0 st 0%Z K1 ltac:(lia) ltac:(unfold inw; cbn; lia)) as (K2 & E2 & O2).
  split.
  - rewrite O2, bits_from_eq, E1, bval_map. unfold byte_of_bits. cbn [Z.of_nat]. change (2 ^ 0)%Z with 1%Z.
    rewrite Z.mul_1_l, Z.add_0_l. unfold tri_after. generalize (seq 0 8). intro l. induction l as [|t l IH]; [reflexivity|].
    cbn [fold_right]. rewrite IH, iter_plus. now rewrite (Nat.add_comm t).
  - split; [exact K2|]. rewrite E2, E1. unfold tri_after. rewrite iter_plus. f_equal. lia.
Qed.
Lemma rev8_bit v i : (0 <= i < 8)%Z -> Z.testbit (rev8 v) i = Z.testbit v (7 - i).
Proof.
  intro I. unfold rev8.
  assert (C : (i = 0 \/ i = 1 \/ i = 2 \/ i = 3 \/ i = 4 \/ i = 5 \/ i = 6 \/ i = 7)%Z) by lia.
  repeat destruct C as [->|C]; try subst i;
    repeat (rewrite ?Z.lor_spec, ?Z.land_spec, ?Z.shiftr_spec, ?Z.shiftl_spec by lia; cbn -[Z.testbit Z.lor Z.land Z.shiftl Z.shiftr];
            rewrite ?(Z.testbit_neg_r _ (-1)), ?(Z.testbit_neg_r _ (-2)), ?(Z.testbit_neg_r _ (-3)), ?(Z.testbit_neg_r _ (-4)) by lia);
    repeat match goal with |- context [Z.testbit (Zpos ?c) ?k] => let x := eval vm_compute in (Z.testbit (Zpos c) k) in change (Z.testbit (Zpos c) k) with x end;
    repeat match goal with |- context [Z.testbit v ?k] => destruct (Z.testbit v k) end; reflexivity.
Qed.
Lemma inw_rev8 v : inw 8 (rev8 v).
Proof.
  assert (N : (0 <= rev8 v)%Z).
  { unfold rev8. repeat first [apply Z.lor_nonneg; split | apply Z.shiftr_nonneg | apply Z.shiftl_nonneg | apply Z.land_nonneg; right; lia]. }
  apply testbit_inw; auto; [lia|]. intros i I. unfold rev8.
  assert (H : forall m, (0 <= m < 256)%Z -> forall j, (8 <= j)%Z -> Z.testbit m j = false).
  { intros m M j J. apply (@inw_testbit 8); [lia|exact M|lia]. }
  rewrite Z.lor_spec, Z.shiftr_spec, Z.shiftl_spec, !Z.land_spec by lia.
  rewrite (H 0xAA%Z) by lia. rewrite andb_false_r. cbn [orb].
  destruct (Z.lt_ge_cases (i - 1) 8).
  - replace i with 8%Z by lia. cbn -[Z.testbit Z.lor Z.land Z.shiftl Z.shiftr]. apply andb_false_r.
  - rewrite (H 0x55%Z) by lia. apply andb_false_r.
Qed.
Lemma wshl_bit x k i : (0 <= i < 8)%Z -> Z.testbit (wshl 8 x k) i = Z.testbit x (i - k).
Proof. intro I. unfold wshl. rewrite Z.mod_pow2_bits_low by lia. apply Z.shiftl_spec. lia. Qed.
Definition tri_loaded (key iv : bytes) : list Z :=
  let k i := rev8 key.[9 - i] in let v i := rev8 iv.[9 - i] in
  map k (seq 0 10) ++ [0%Z; Z.lor (wshl 8 (v 0) 5) 0%Z] ++ map (fun i => Z.lor (wshl 8 (v (i + 1)) 5) (Z.shiftr (v i) 3)) (seq 0 9) ++
  [Z.lor (wshl 8 0 5) (Z.shiftr (v 9) 3)] ++ repeat 0%Z 14.
Lemma inw_0 : inw 8 0. Proof. unfold inw. cbn. lia. Qed.
Lemma tri_loaded_ok key iv : tok (tri_loaded key iv).
Proof.
  split; [reflexivity|]. unfold tri_loaded. cbn [map seq app repeat]. 
  repeat (constructor; [first [apply inw_rev8 | apply inw_0 | apply inw_or; [lia|apply inw_shl; lia|first [apply inw_0 | apply inw_shr; [lia|lia|apply inw_rev8]]]]|]).
  constructor.
Qed.
Lemma tri_load_eq key iv : length key = 10 -> length iv = 10 ->
  tri_load key iv = set_bit (set_bit (set_bit (tri_loaded key iv) 286 (Z.b2z true)) 287 (Z.b2z true)) 288 (Z.b2z true).
Proof. intros K V. reflexivity. Qed.
Lemma tri_load_abs key iv : length key = 10 -> length iv = 10 ->
  tok (tri_load key iv) /\ tabs (tri_load key iv) = tri_start key iv.
Proof.
  intros K V. rewrite tri_load_eq by auto.
  pose proof (tri_loaded_ok key iv) as T1. pose proof (@set_bit_ok _ 286 true T1) as T2. pose proof (@set_bit_ok _ 287 true T2) as T3.
  split; [exact (@set_bit_ok _ 288 true T3)|]. unfold tabs.
  transitivity (map (fun m => if m =? 287 then true else if m =? 286 then true else if m =? 285 then true else tbit (tri_loaded key iv) m) (seq 0 288)).
  { apply map_ext_in. intros n I. apply in_seq in I. rewrite !set_bit_tbit by (auto; lia). reflexivity. }
  clear T1 T2 T3. do 10 (destruct key as [|? key]; [discriminate|]). destruct key; [|discriminate].
  do 10 (destruct iv as [|? iv]; [discriminate|]). destruct iv; [|discriminate]. clear K V.
  set (x := tri_loaded _ _). cbv [map seq Nat.eqb]. unfold tbit.
  cbv [tri_start tri_bits_of rev concat map app repeat].
  subst x. cbv [tri_loaded map app seq repeat Nat.add Nat.sub nth Nat.div Nat.modulo Nat.divmod fst snd Z.of_nat Pos.of_succ_nat Pos.succ].
  repeat (apply (f_equal2 (@cons bool));
    [rewrite ?Z.lor_spec, ?Z.shiftr_spec, ?wshl_bit by lia; rewrite ?Z.bits_0;
     repeat match goal with
     | |- context [Z.testbit (rev8 ?v) ?k] => let k' := eval vm_compute in k in change k with k';
          first [rewrite (@rev8_bit v k') by lia | rewrite (Z.testbit_neg_r (rev8 v) k') by lia | rewrite (@inw_testbit 8 (rev8 v) k') by first [apply inw_rev8|lia]]
     end;
     rewrite ?orb_false_r; reflexivity|]).
  reflexivity.
Qed.
Theorem tri_new_stream key iv : length key = 10 -> length iv = 10 ->
  exists st, tri_new key iv = Ok st /\ stream_is tri_call st (tri_ks key iv).
Proof.
  intros K V. unfold tri_new. rewrite K, V. cbn [Nat.eqb negb]. eexists. split; [reflexivity|].
  destruct (tri_load_abs K V) as [T A]. destruct (@tri_iter_abs (4 * 288) _ T) as [T2 A2].
  unfold tri_ks, tri_z. apply tri_stream; [exact T2|]. unfold tri_init. rewrite A2, A. reflexivity.
Qed.

(** * Rabbit *)
Lemma stw4_len ws : length (stw 4 ws) = 4 * length ws.
Proof. unfold stw. induction ws as [|w ws IH]; [reflexivity|]. cbn [map concat]. rewrite app_length, IH. cbn [length]. change (length (le_bytes 4 w)) with 4. lia. Qed.
Definition rb_core (r : rabbit) : rabbit := Rabbit (rb_x r) (rb_c r) (rb_carry r) [].
Definition rb_blk (r : rabbit) : bytes := stw 4 (rb_sw (rb_x (rb_next r))).
Lemma rb_next_ks x c b k1 k2 : rb_core (rb_next (Rabbit x c b k1)) = rb_core (rb_next (Rabbit x c b k2)).
Proof. unfold rb_next. cbn [rb_x rb_c rb_carry rb_ks]. now destruct (rb_counters aro c b). Qed.
Lemma rb_stream st : rb_ks st = [] -> stream_is rb_call st (fun i => (rb_blk (Nat.iter (i / 16) rb_next st)).[i mod 16]).
Proof.
  intro E. apply stream_is_ext with (ks1 := block_ks rb_next rb_blk 16 (rb_core st)).
  { intro i. unfold block_ks. f_equal. f_equal. f_equal. destruct st as [x c b k]. cbn in E. now subst k. }
  apply blocks_is with (core := rb_core) (buf := rb_ks); [lia| | | |exact E].
  - intro c. unfold rb_blk, rb_sw. now rewrite stw4_len.
  - clear. intros [x c b k] E. cbn in E. subst k. unfold rb_gen, rb_extract, rb_blk, rb_core. cbn [rb_ks rb_x rb_c rb_carry fst snd].
    repeat split. unfold rb_next. cbn [rb_ks rb_x rb_c rb_carry]. now destruct (rb_counters aro c b).
  - clear. intros [x c b k] h r E. cbn in E. subst k. repeat split.
Qed.
(** the words that the counters hold after one step are the borrows, 0 or 1 *)
Lemma shr31 x : (0 <= x < 2 ^ 32)%Z -> Z.shiftr x 31 = 0%Z \/ Z.shiftr x 31 = 1%Z.
Proof.
  intro H. rewrite Z.shiftr_div_pow2 by lia. assert (0 <= x / 2 ^ 31 < 2)%Z; [|lia].
  split; [apply Z.div_pos; lia|apply Z.div_lt_upper_bound; lia].
Qed.
Lemma sub32_borrow x y b : inw 32 x -> inw 32 y -> snd (sub32 x y b) = 0%Z \/ snd (sub32 x y b) = 1%Z.
Proof.
  intros X Y. unfold sub32. cbn [snd]. apply shr31. apply inw_or; [lia|apply inw_and; [lia|apply inw_not; auto; lia|auto]|].
  apply inw_and; [lia|apply inw_not; [lia|apply inw_xor; auto; lia]|apply inw_sub; lia].
Qed.
Lemma rb_counters_bits a : forall c b, Forall (inw 32) a -> Forall (inw 32) c ->
  Forall (fun w => w = 0%Z \/ w = 1%Z) (snd (rb_counters a c b)).
Proof.
  induction a as [|x a IH]; intros c b A C; [constructor|]. destruct c as [|y c]; [constructor|].
  inversion A; inversion C; subst. cbn [rb_counters]. pose proof (@sub32_borrow x y b) as S1. destruct (sub32 x y b) as [d w]. cbn [snd] in S1.
  specialize (IH c d). destruct (rb_counters a c d). cbn [snd] in *. constructor; auto.
Qed.
Lemma aro_ok : Forall (inw 32) aro.
Proof. unfold aro. repeat (constructor; [unfold inw; cbn; lia|]). constructor. Qed.
Lemma rb_next_c r : rb_c (rb_next r) = snd (rb_counters aro (rb_c r) (rb_carry r)).
Proof. unfold rb_next. now destruct (rb_counters aro (rb_c r) (rb_carry r)). Qed.
Lemma rb_next_bits r : Forall (inw 32) (rb_c r) -> Forall (fun w => w = 0%Z \/ w = 1%Z) (rb_c (rb_next r)).
Proof. intro H. rewrite rb_next_c. apply rb_counters_bits; [apply aro_ok|exact H]. Qed.
Lemma bits_inw l : Forall (fun w => w = 0%Z \/ w = 1%Z) l -> Forall (inw 32) l.
Proof. apply Forall_impl. intros w [->| ->]; unfold inw; cbn; lia. Qed.
Lemma rb_iter_bits n r : Forall (inw 32) (rb_c r) -> Forall (fun w => w = 0%Z \/ w = 1%Z) (rb_c (Nat.iter (1 + n) rb_next r)).
Proof.
  intro H. induction n as [|n IH]; [now apply rb_next_bits|]. change (Nat.iter (1 + S n) rb_next r) with (rb_next (Nat.iter (1 + n) rb_next r)).
  apply rb_next_bits. now apply bits_inw.
Qed.

(** * KCipher-2 *)
Definition k2_core (s : k2) : k2 := K2 (k2_a s) (k2_b s) (k2_l1 s) (k2_r1 s) (k2_l2 s) (k2_r2 s) [].
Lemma k2_iter_ks n s : k2_ks (Nat.iter n (k2_next true) s) = k2_ks s.
Proof. induction n as [|n IH]; [reflexivity|]. cbn [Nat.iter nat_rect]. unfold Nat.iter in IH. rewrite <- IH. reflexivity. Qed.
Lemma k2_byte_stream st : k2_ks st = [] ->
  stream_is (byte_call k2_gen) st (fun i => (k2_stream (Nat.iter (i / 8) (k2_next false) st)).[i mod 8]).
Proof.
  intro E. apply stream_is_ext with (ks1 := block_ks (k2_next false) k2_stream 8 (k2_core st)).
  { intro i. unfold block_ks. f_equal. f_equal. f_equal. destruct st. cbn in E. now subst. }
  apply blocks_is with (core := k2_core) (buf := k2_ks); [lia| | | |exact E].
  - intro c. unfold k2_stream. rewrite app_length, !be_bytes_length. reflexivity.
  - clear. intros s E. unfold k2_gen. rewrite E. repeat split.
  - clear. intros s h r E. unfold k2_gen. rewrite E. cbn [fst snd]. rewrite E. repeat split.
Qed.
Lemma k2_inplace st x : k2_call true st x = byte_call k2_gen st x.
Proof.
  destruct x as [dst src]. unfold k2_call, byte_call. cbn [fst snd]. destruct (length dst <? length src); [reflexivity|].
  now destruct (byte_loop k2_gen st src).
Qed.
Lemma k2_apart st x : scall_ok x -> exists st', k2_call false st x = Ok (st', snd x).
Proof.
  destruct x as [dst src]. unfold k2_call, scall_ok. cbn [fst snd]. intro H. destruct (Nat.ltb_spec (length dst) (length src)); [lia|].
  destruct (byte_loop k2_gen st src). eauto.
Qed.
Lemma run_calls_ext {S} (f g : S -> bytes * bytes -> res (S * bytes)) calls : (forall s x, f s x = g s x) ->
  forall st, run_calls f st calls = run_calls g st calls.
Proof.
  intro E. induction calls as [|x calls IH]; intro st; [reflexivity|]. cbn [run_calls]. rewrite E.
  destruct (g st x) as [[? ?]| |]; cbn [rbind]; auto. now rewrite IH.
Qed.
Lemma stream_is_call {S} (f g : S -> bytes * bytes -> res (S * bytes)) st ks : (forall s x, f s x = g s x) ->
  stream_is g st ks -> stream_is f st ks.
Proof. intros E H calls C. rewrite (run_calls_ext calls E). now apply H. Qed.

(** * Salsa20 *)
Lemma xor_stream_shift ks src : forall a b, xor_stream ks (a + b) src = xor_stream (fun i => ks (a + i)) b src.
Proof.
  induction src as [|x r IH]; intros a b; [reflexivity|]. cbn [xor_stream]. f_equal. rewrite <- IH. now rewrite Nat.add_succ_r.
Qed.
Lemma upd_len16 x i : length (salsa_qr x i) = length x.
Proof. destruct i as [[[a b] c] d]. unfold salsa_qr. now rewrite !upd_len. Qed.
Lemma salsa_block_len key nonce n : length key = 32 -> length nonce = 8 -> length (salsa_block key nonce n) = 64.
Proof.
  intros K N. unfold salsa_block, salsa_core.
  assert (A : forall l y, length (fold_left salsa_qr l y) = length y).
  { induction l as [|i l IH]; intro y; [reflexivity|]. cbn [fold_left]. now rewrite IH, upd_len16. }
  assert (B : forall j y, length (Nat.iter j (fun y => fold_left salsa_qr (salsa_cols ++ salsa_rows) y) y) = length y).
  { induction j as [|j IH]; intro y; [reflexivity|]. cbn [Nat.iter nat_rect]. unfold Nat.iter in IH. now rewrite A, IH. }
  rewrite stw4_len, map_length, combine_length, B, Nat.min_id.
  assert (LK : length (ldw 4 key) = 8). { do 32 (destruct key as [|? key]; [discriminate|]). destruct key; [|discriminate]. reflexivity. }
  assert (LV : length (ldw 4 (nonce ++ le_bytes 8 n)) = 4). { do 8 (destruct nonce as [|? nonce]; [discriminate|]). destruct nonce; [|discriminate]. reflexivity. }
  rewrite !app_length, firstn_length, skipn_length, LK, LV. reflexivity.
Qed.
Section sa.
  Variable block : bytes -> bytes -> Z -> bytes.
  Variables key nonce : bytes.
  Hypothesis blen : forall n, length (block key nonce n) = 64.
  Definition bks (n : Z) (i : nat) : Z := (block key nonce (n + Z.of_nat (i / 64))).[i mod 64].
  Lemma xor_blocks_eq fuel : forall n buf, length buf <= fuel -> (0 <= n)%Z -> (64 * n + Z.of_nat (length buf) <= 64 * 2 ^ 64)%Z ->
    xor_blocks block fuel key nonce n buf = xor_stream (bks n) 0 buf.
  Proof.
    induction fuel as [|f IH]; intros n buf F N B.
    - destruct buf; [reflexivity|cbn in F; lia].
    - destruct buf as [|b0 r0]; [reflexivity|]. set (buf := b0 :: r0) in *. cbn [xor_blocks]. fold buf.
      assert (LP : 1 <= length buf) by (subst buf; cbn; lia).
      change (match buf with [] => [] | _ => ?x end) with x. subst buf. cbv iota. set (buf := b0 :: r0) in *.
      rewrite (@xorl_stream (bks n) (block key nonce n) (firstn 64 buf) 0).
      2:{ intros i I. rewrite blen in I. unfold bks. cbn [Nat.add]. rewrite Nat.div_small, Nat.mod_small by lia. now rewrite Z.add_0_r. }
      rewrite blen, firstn_firstn. replace (Nat.min 64 64) with 64 by reflexivity.
      rewrite <- (firstn_skipn 64 buf) at 3. rewrite xor_stream_app. f_equal.
      assert (SL : length (skipn 64 buf) = length buf - 64) by apply skipn_length.
      destruct (Nat.le_gt_cases (length buf) 64) as [S0|S0].
      { rewrite (skipn_all2 buf) by lia. destruct f; reflexivity. }
      rewrite Z.mod_small by lia. rewrite IH by lia. rewrite firstn_length. replace (Nat.min 64 (length buf)) with 64 by lia.
      rewrite Nat.add_0_l. rewrite <- (Nat.add_0_r 64) at 2. rewrite xor_stream_shift. apply xor_stream_ext. intros i _.
      unfold bks. replace ((64 + i) / 64) with (1 + i / 64) by (symmetry; exact (Nat.div_add_l 1 64 i ltac:(lia))).
      replace ((64 + i) mod 64) with (i mod 64) by (rewrite (Nat.add_comm 64 i); symmetry; exact (Nat.mod_add i 1 64 ltac:(lia))).
      do 2 f_equal. lia.
  Qed.
End sa.
(** the 8 bytes of nonce that are used *)
Definition sa_n8 (nonce : bytes) : bytes := firstn 8 (gocopy (repeat 0%Z 16) nonce).
Lemma sa_n8_len nonce : length (sa_n8 nonce) = 8.
Proof. unfold sa_n8. rewrite firstn_length, gocopy_length. reflexivity. Qed.
Lemma sa_one key nonce c dst src : length key = 32 -> (0 <= c)%Z -> (c + Z.of_nat (length src) <= 2 ^ 64)%Z -> length src <= length dst ->
  sa_call salsa_block (Salsa key nonce (c mod 2 ^ 64)) (dst, src) =
  Ok (Salsa key nonce ((c + Z.of_nat (length src)) mod 2 ^ 64), xor_stream (salsa_ks key (sa_n8 nonce) c) 0 src).
Proof.
  intros K C B D. unfold sa_call. destruct (Nat.eqb_spec (length src) 0) as [E|E].
  { destruct src; [|discriminate]. cbn [length xor_stream Z.of_nat]. now rewrite Z.add_0_r. }
  destruct (Nat.ltb_spec (length dst) (length src)); [lia|]. cbn [sa_ctr sa_key sa_nonce].
  rewrite (Z.mod_small c) by lia. f_equal. f_equal.
  fold (sa_n8 nonce). set (pad := Z.to_nat (c mod 64)).
  assert (PB : pad < 64) by (subst pad; pose proof (Z.mod_pos_bound c 64); lia).
  assert (DM : c = (64 * (c / 64) + Z.of_nat pad)%Z).
  { subst pad. rewrite Z2Nat.id by (apply Z.mod_pos_bound; lia). apply Z.div_mod. lia. }
  assert (Q : (0 <= c / 64)%Z) by (apply Z.div_pos; lia).
  assert (Q2 : (c / 64 <= 2 ^ 58)%Z) by (apply Z.div_le_upper_bound; lia).
  rewrite (@xor_blocks_eq salsa_block key (sa_n8 nonce)); [|intro; apply salsa_block_len; [exact K|apply sa_n8_len]|lia|exact Q|].
  2:{ rewrite app_length, repeat_length. lia. }
  rewrite xor_stream_app, repeat_length, skipn_app, xor_stream_length, repeat_length, Nat.sub_diag.
  rewrite skipn_all2 by (rewrite xor_stream_length, repeat_length; lia). cbn [app skipn]. rewrite Nat.add_comm, xor_stream_shift.
  apply xor_stream_ext. intros i _. unfold bks, salsa_ks.
  assert (X : ((c + Z.of_nat i) / 64 = c / 64 + Z.of_nat ((pad + i) / 64))%Z).
  { rewrite Nat2Z.inj_div, Nat2Z.inj_add. rewrite DM at 1. rewrite <- Z.add_assoc, Z.mul_comm, Z.div_add_l by lia. reflexivity. }
  assert (Y : ((c + Z.of_nat i) mod 64 = Z.of_nat ((pad + i) mod 64))%Z).
  { rewrite Nat2Z.inj_mod, Nat2Z.inj_add. rewrite DM at 1. rewrite <- Z.add_assoc, Z.add_comm, Z.mul_comm, Z.mod_add by lia. reflexivity. }
  rewrite X, Y, Nat2Z.id. reflexivity.
Qed.
Lemma salsa_ks_shift key nonce c a i : salsa_ks key nonce (c + Z.of_nat a) i = salsa_ks key nonce c (a + i).
Proof. unfold salsa_ks. rewrite Nat2Z.inj_add, Z.add_assoc. reflexivity. Qed.
Lemma sa_run key nonce c : length key = 32 -> (0 <= c)%Z -> forall calls pos,
  Forall scall_ok calls -> (c + Z.of_nat (pos + length (concat (map snd calls))) <= 2 ^ 64)%Z ->
  exists st outs, run_calls (sa_call salsa_block) (Salsa key nonce ((c + Z.of_nat pos) mod 2 ^ 64)) calls = Ok (st, outs) /\
    map (@length Z) outs = map (fun x => length (snd x)) calls /\
    concat outs = xor_stream (salsa_ks key (sa_n8 nonce) c) pos (concat (map snd calls)).
Proof.
  intros K C. induction calls as [|[dst src] calls IH]; intros pos O B; [eexists _, []; split; [reflexivity|split; reflexivity]|].
  apply Forall_cons_iff in O as [O1 O2]. cbn [map concat snd] in B. rewrite app_length in B. unfold scall_ok in O1. cbn [fst snd] in O1.
  cbn [run_calls]. rewrite sa_one; [|exact K|lia|lia|exact O1]. cbn [rbind].
  rewrite <- Z.add_assoc, <- Nat2Z.inj_add. destruct (IH (pos + length src) O2) as (st & outs & E & L & X); [lia|].
  rewrite E. cbn [rbind]. eexists _, _. split; [reflexivity|]. cbn [map concat snd]. rewrite xor_stream_length, L. split; [reflexivity|].
  rewrite X, xor_stream_app. f_equal. rewrite <- (Nat.add_0_r pos) at 2. rewrite xor_stream_shift. apply xor_stream_ext. intros i _.
  apply salsa_ks_shift.
Qed.
