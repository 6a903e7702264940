(** Proofs about BerModel. *)
From Verif Require Import Base CcmProofs BerModel BerSpec.
From Coq Require Import ZifyBool.
Set Implicit Arguments. Unset Strict Implicit.
Local Open Scope nat_scope.

(** ** lengths *)
Lemma length_length_log f i : (128 <= i < 256 ^ Z.of_nat (S f))%Z -> Z.of_nat (length_length f i) = (Z.log2 i / 8 + 1)%Z.
Proof.
  revert i. induction f as [|f IH]; intros i B.
  - cbn [length_length]. assert (Z.log2 i < 8)%Z by (apply Z.log2_lt_pow2; cbn in B; lia). pose proof (Z.log2_nonneg i). rewrite Z.div_small by lia. lia.
  - cbn [length_length]. destruct (Z.ltb_spec 255 i) as [L|L].
    + assert (E : Z.log2 i = (Z.log2 (Z.shiftr i 8) + 8)%Z). { rewrite Z.log2_shiftr by lia. assert (8 <= Z.log2 i)%Z by (apply Z.log2_le_pow2; lia). lia. }
      assert (P : (1 <= Z.shiftr i 8)%Z). { rewrite Z.shiftr_div_pow2 by lia. change (2 ^ 8)%Z with 256%Z. apply Z.div_le_lower_bound; lia. }
      destruct (Z.lt_ge_cases (Z.shiftr i 8) 128) as [S|S].
      * assert (EL : length_length f (Z.shiftr i 8) = 1) by (destruct f; cbn [length_length]; [reflexivity|]; destruct (Z.ltb_spec 255 (Z.shiftr i 8)); [lia|reflexivity]).
        rewrite EL, E. assert (Z.log2 (Z.shiftr i 8) < 8)%Z by (apply Z.log2_lt_pow2; lia). pose proof (Z.log2_nonneg (Z.shiftr i 8)).
        replace (Z.log2 (Z.shiftr i 8) + 8)%Z with (Z.log2 (Z.shiftr i 8) + 1 * 8)%Z by lia. rewrite Z.div_add by lia. rewrite Z.div_small by lia. reflexivity.
      * rewrite Nat2Z.inj_succ, IH. { rewrite E. replace (Z.log2 (Z.shiftr i 8) + 8)%Z with (Z.log2 (Z.shiftr i 8) + 1 * 8)%Z by lia. rewrite Z.div_add by lia. lia. }
        split; [lia|]. rewrite Z.shiftr_div_pow2 by lia. change (2 ^ 8)%Z with 256%Z. apply Z.div_lt_upper_bound; [lia|]. rewrite Nat2Z.inj_succ, Z.pow_succ_r in B by lia. lia.
    + assert (Z.log2 i < 8)%Z by (apply Z.log2_lt_pow2; cbn; lia). pose proof (Z.log2_nonneg i). rewrite Z.div_small by lia. lia.
Qed.
Lemma long_length_be n i : long_length n i = be_bytes n i.
Proof.
  induction n as [|n IH]; [reflexivity|]. cbn [long_length]. rewrite IH.
  change (S n) with (1 + n). rewrite be_bytes_split. cbn [app]. rewrite Z.shiftr_div_pow2 by lia. unfold to_byte.
  replace (2 ^ (Z.of_nat n * 8))%Z with (256 ^ Z.of_nat n)%Z by (rewrite Z.mul_comm, Z.pow_mul_r by lia; reflexivity). reflexivity.
Qed.
Lemma encode_length_der n : (Z.of_nat n < 2 ^ 63)%Z -> encode_length n = der_length n.
Proof.
  intros B. unfold encode_length, der_length. destruct (Z.leb_spec 128 (Z.of_nat n)) as [L|L]; destruct (Nat.ltb_spec n 128); try lia.
  - assert (E : Z.of_nat (length_length 8 (Z.of_nat n)) = (Z.log2 (Z.of_nat n) / 8 + 1)%Z). { apply length_length_log. split; [lia|]. change (256 ^ Z.of_nat 9)%Z with (2 ^ 72)%Z. assert (2 ^ 63 < 2 ^ 72)%Z by (apply Z.pow_lt_mono_r; lia). lia. }
    assert (D : length_length 8 (Z.of_nat n) = digits n) by (unfold digits; lia). rewrite D, long_length_be. f_equal.
    assert (Z.log2 (Z.of_nat n) < 63)%Z by (apply Z.log2_lt_pow2; lia). assert (R : (Z.of_nat (digits n) < 128)%Z).
    { rewrite <- D, E. assert (Z.log2 (Z.of_nat n) / 8 < 8)%Z by (apply Z.div_lt_upper_bound; lia). lia. }
    unfold to_byte. rewrite Z.mod_small by lia. set (d := Z.of_nat (digits n)) in *. assert (0 <= d)%Z by lia.
    assert (Z.land 128 d = 0)%Z. { apply Z.bits_inj'. intros j Hj. rewrite Z.land_spec, Z.bits_0. destruct (Z.eq_dec j 7) as [->|NJ].
      - rewrite (Z.bits_above_log2 d 7); [apply andb_false_r|lia|]. destruct (Z.eq_dec d 0) as [->|]; [cbn; lia|]. apply Z.log2_lt_pow2; lia.
      - change 128%Z with (2 ^ 7)%Z. rewrite Z.pow2_bits_false by lia. reflexivity. }
    rewrite <- Z.lxor_lor by auto. symmetry. apply Z.add_nocarry_lxor. auto.
  - unfold to_byte. rewrite Z.mod_small by lia. reflexivity.
Qed.
Lemma der_length_bound n : (Z.of_nat n < 2 ^ 63)%Z -> 1 <= length (der_length n) <= 9.
Proof.
  intros B. unfold der_length. destruct (Nat.ltb_spec n 128); cbn [length]; [lia|]. rewrite be_bytes_length. unfold digits.
  assert (Z.log2 (Z.of_nat n) < 63)%Z by (apply Z.log2_lt_pow2; lia). assert (Z.log2 (Z.of_nat n) / 8 < 8)%Z by (apply Z.div_lt_upper_bound; lia). lia.
Qed.
Lemma der_length_ok n : (Z.of_nat n < 2 ^ 63)%Z -> bytes_ok (der_length n).
Proof.
  intros B. unfold der_length. destruct (Nat.ltb_spec n 128); [constructor; [red; lia|constructor]|]. constructor; [|apply be_bytes_ok]. red. unfold digits.
  assert (Z.log2 (Z.of_nat n) < 63)%Z by (apply Z.log2_lt_pow2; lia). assert (Z.log2 (Z.of_nat n) / 8 < 8)%Z by (apply Z.div_lt_upper_bound; lia).
  pose proof (Z.log2_nonneg (Z.of_nat n)). assert (0 <= Z.log2 (Z.of_nat n) / 8)%Z by (apply Z.div_pos; lia). lia.
Qed.
Lemma der_length_of n : (Z.of_nat n < 2 ^ 31)%Z -> length_of n (der_length n).
Proof.
  intros B. unfold der_length, length_of. destruct (Nat.ltb_spec n 128) as [L|L]; [left; auto|]. right. exists (digits n).
  set (i := Z.of_nat n) in *. assert (128 <= i)%Z by lia. pose proof (Z.log2_spec i ltac:(lia)) as [S1 S2].
  assert (L31 : (Z.log2 i < 31)%Z) by (apply Z.log2_lt_pow2; lia). assert (L7 : (7 <= Z.log2 i)%Z) by (apply Z.log2_le_pow2; lia).
  set (d := (Z.log2 i / 8)%Z) in *. pose proof (Z.div_mod (Z.log2 i) 8 ltac:(lia)) as DM. fold d in DM. pose proof (Z.mod_pos_bound (Z.log2 i) 8 ltac:(lia)) as MB.
  assert (D : Z.of_nat (digits n) = (d + 1)%Z) by (unfold digits; fold i; fold d; lia).
  assert (U : (i < 256 ^ (d + 1))%Z). { change 256%Z with (2 ^ 8)%Z. rewrite <- Z.pow_mul_r by lia. eapply Z.lt_le_trans; [exact S2|]. apply Z.pow_le_mono_r; lia. }
  assert (W : (256 ^ d <= i)%Z). { change 256%Z with (2 ^ 8)%Z. rewrite <- Z.pow_mul_r by lia. eapply Z.le_trans; [|exact S1]. apply Z.pow_le_mono_r; lia. }
  split; [lia|]. split; [auto|]. split; [rewrite D; auto|]. split; [|auto].
  destruct (Nat.eqb_spec (digits n) 1); [lia|]. eapply Z.le_trans; [|exact W]. replace (Z.of_nat (digits n - 2)) with (d - 1)%Z by lia.
  replace (256 ^ d)%Z with (256 * 256 ^ (d - 1))%Z by (rewrite <- Z.pow_succ_r by lia; f_equal; lia). nia.
Qed.

(** ** reading a length *)
Lemma land127 k : (0 <= k < 128)%Z -> Z.land (128 + k) 127 = k.
Proof. intros B. change 127%Z with (Z.ones 7). rewrite Z.land_ones by lia. change (2 ^ 7)%Z with 128%Z. rewrite <- (Z.mul_1_l 128) at 1. rewrite Z.add_comm, Z.mod_add by lia. apply Z.mod_small. lia. Qed.
Lemma nth_mid (pre l : bytes) i d : nth (length pre + i) (pre ++ l) d = nth i l d.
Proof. rewrite app_nth2 by lia. f_equal. lia. Qed.
Lemma slice_mid (pre l post : bytes) : slice (length pre) (length l) (pre ++ l ++ post) = l.
Proof. unfold slice. rewrite skipn_app, skipn_all, Nat.sub_diag. cbn [app skipn]. now rewrite firstn_app, Nat.sub_diag, firstn_O, app_nil_r, firstn_all. Qed.
Lemma be_head k n : 1 <= k -> (0 <= n < 256 ^ Z.of_nat k)%Z -> nth 0 (be_bytes k n) 0%Z = (n / 256 ^ Z.of_nat (k - 1))%Z.
Proof.
  intros K B. replace k with (1 + (k - 1)) at 1 by lia. rewrite be_bytes_split. cbn [be_bytes le_bytes rev app nth]. apply Z.mod_small.
  assert (P : (0 < 256 ^ Z.of_nat (k - 1))%Z) by (apply Z.pow_pos_nonneg; lia). split; [apply Z.div_pos; lia|]. apply Z.div_lt_upper_bound; auto.
  rewrite Z.mul_comm. replace (256 * 256 ^ Z.of_nat (k - 1))%Z with (256 ^ Z.of_nat k)%Z by (rewrite <- Z.pow_succ_r by lia; f_equal; lia). lia.
Qed.
Lemma be_second k n : 2 <= k -> (0 <= n < 256 ^ Z.of_nat (k - 1))%Z -> nth 1 (be_bytes k n) 0%Z = (n / 256 ^ Z.of_nat (k - 2))%Z.
Proof.
  intros K B. replace k with (1 + (k - 1)) at 1 by lia. rewrite be_bytes_split. change (nth 1 (be_bytes 1 (n / 256 ^ Z.of_nat (k - 1)) ++ be_bytes (k - 1) n) 0%Z) with (nth 0 (be_bytes (k - 1) n) 0%Z).
  rewrite be_head by lia. f_equal. f_equal. lia.
Qed.
Lemma length_nonempty n lb : length_of n lb -> exists l lr, lb = l :: lr.
Proof. intros [[_ ->]|(k & _ & _ & _ & _ & ->)]; eauto. Qed.
Lemma read_length_of pre l lr n post : length_of n (l :: lr) -> read_length (pre ++ lr ++ post) l (length pre) = Ok (false, n, length pre + length lr).
Proof.
  intros [[B E]|(k & K & B31 & B & M & E)]; pose proof (f_equal (hd 0%Z) E) as El; pose proof (f_equal (@tl Z) E) as Er; cbn [hd tl] in El, Er; subst l lr; clear E; unfold read_length.
  - destruct (Z.ltb_spec 128 (Z.of_nat n)); [lia|]. destruct (Z.eqb_spec (Z.of_nat n) 128); [lia|]. rewrite Nat2Z.id. cbn [length]. repeat f_equal. lia.
  - destruct (Z.ltb_spec 128 (128 + Z.of_nat k)); [|lia]. rewrite land127 by lia. rewrite Nat2Z.id. destruct (Nat.ltb_spec 4 k); [lia|].
    rewrite !app_length, be_bytes_length. destruct (Nat.ltb_spec (length pre + (k + length post)) (length pre + k)); [lia|].
    assert (N0 : nth (length pre) (pre ++ be_bytes k (Z.of_nat n) ++ post) 0%Z = (Z.of_nat n / 256 ^ Z.of_nat (k - 1))%Z).
    { rewrite <- (Nat.add_0_r (length pre)), nth_mid. rewrite app_nth1 by (rewrite be_bytes_length; lia). apply be_head; lia. }
    rewrite N0. assert (P : (0 < 256 ^ Z.of_nat (k - 1))%Z) by (apply Z.pow_pos_nonneg; lia).
    assert (T : ((k =? 4) && (127 <? Z.of_nat n / 256 ^ Z.of_nat (k - 1))%Z)%bool = false).
    { destruct (Nat.eqb_spec k 4) as [->|]; [|reflexivity]. cbn [andb]. apply Z.ltb_ge. change (256 ^ Z.of_nat (4 - 1))%Z with 16777216%Z. assert (Z.of_nat n / 16777216 < 128)%Z by (apply Z.div_lt_upper_bound; lia). lia. }
    rewrite T.
    assert (T2 : ((Z.of_nat n / 256 ^ Z.of_nat (k - 1) =? 0)%Z && ((k =? 1) || (nth (length pre + 1) (pre ++ be_bytes k (Z.of_nat n) ++ post) 0 <=? 127)%Z))%bool = false).
    { destruct (Z.eqb_spec (Z.of_nat n / 256 ^ Z.of_nat (k - 1)) 0) as [Z0|]; [|reflexivity]. cbn [andb].
      assert (SM : (Z.of_nat n < 256 ^ Z.of_nat (k - 1))%Z). { apply Z.div_small_iff in Z0; lia. }
      destruct (Nat.eqb_spec k 1) as [->|]; [cbn in SM; lia|]. cbn [orb]. apply Z.leb_gt. rewrite nth_mid, app_nth1 by (rewrite be_bytes_length; lia).
      rewrite be_second by lia. assert (P2 : (0 < 256 ^ Z.of_nat (k - 2))%Z) by (apply Z.pow_pos_nonneg; lia).
      assert (128 <= Z.of_nat n / 256 ^ Z.of_nat (k - 2))%Z by (apply Z.div_le_lower_bound; lia). lia. }
    rewrite T2. replace k with (length (be_bytes k (Z.of_nat n))) at 1 by apply be_bytes_length. rewrite slice_mid, be_val_bytes, Z.mod_small by lia. rewrite Nat2Z.id. reflexivity.
Qed.

(** ** reading a tag *)
Lemma nth_error_mid (pre : bytes) x l : nth_error (pre ++ x :: l) (length pre) = Some x.
Proof. rewrite nth_error_app2 by lia. now rewrite Nat.sub_diag. Qed.
Lemma tag_loop_ok hi : forall f pre lo post, Forall (fun x => 128 <= x < 256)%Z hi -> (0 <= lo < 128)%Z -> length hi < f ->
  tag_loop f (pre ++ hi ++ lo :: post) (length pre) = Ok (length pre + length hi + 1).
Proof.
  induction hi as [|x hi IH]; intros f pre lo post F L Lf; (destruct f as [|f]; [cbn in Lf; lia|]); cbn [tag_loop app].
  - rewrite nth_error_mid. destruct (Z.leb_spec 128 lo); [lia|]. rewrite app_length. cbn [length]. destruct (Nat.ltb_spec (length pre + S (length post)) (length pre + 1)); [lia|]. f_equal. lia.
  - rewrite nth_error_mid. inversion F as [|? ? Fx Fh]; subst. destruct (Z.leb_spec 128 x); [|lia]. rewrite app_length. cbn [length].
    destruct (Nat.ltb_spec (length pre + S (length (hi ++ lo :: post))) (length pre + 1)); [lia|].
    replace (pre ++ x :: hi ++ lo :: post) with ((pre ++ [x]) ++ hi ++ lo :: post) by (rewrite <- app_assoc; reflexivity).
    replace (length pre + 1) with (length (pre ++ [x])) at 1 by (rewrite app_length; cbn; lia). rewrite IH by (auto; cbn in Lf; lia). rewrite app_length. cbn [length]. f_equal. lia.
Qed.
Lemma land31 b : Z.land b 31 = (b mod 32)%Z.
Proof. change 31%Z with (Z.ones 5). rewrite Z.land_ones by lia. reflexivity. Qed.
Lemma land32 b : (Z.land b 32 =? 0)%Z = negb (Z.testbit b 5).
Proof.
  destruct (Z.testbit b 5) eqn:T; cbn [negb].
  - apply Z.eqb_neq. intros E. assert (X : Z.testbit (Z.land b 32) 5 = true) by (rewrite Z.land_spec, T; reflexivity). rewrite E in X. discriminate.
  - apply Z.eqb_eq. apply Z.bits_inj'. intros j Hj. rewrite Z.land_spec, Z.bits_0. change 32%Z with (2 ^ 5)%Z. destruct (Z.eq_dec j 5) as [->|N]; [rewrite T; reflexivity|].
    rewrite Z.pow2_bits_false by lia. apply andb_false_r.
Qed.
Definition tag_end (ber : bytes) (offset : nat) : res nat :=
  if (Z.land (nth offset ber 0%Z) 31 =? 31)%Z then tag_loop (S (length ber)) ber (offset + 1) else Ok (offset + 1).
Lemma tag_end_ok cons tag pre post : tag_ok cons tag -> tag_end (pre ++ tag ++ post) (length pre) = Ok (length pre + length tag) /\
  Z.testbit (nth (length pre) (pre ++ tag ++ post) 0%Z) 5 = cons /\ 1 <= length tag /\ bytes_ok tag.
Proof.
  intros (b & rest & -> & Ob & T & H). assert (N : nth (length pre) (pre ++ (b :: rest) ++ post) 0%Z = b).
  { rewrite <- (Nat.add_0_r (length pre)), nth_mid. reflexivity. }
  unfold tag_end. rewrite N, land31. split; [|split; [auto|split; [cbn; lia|]]].
  - destruct H as [[H ->]|(H & hi & lo & -> & Fh & Fl)].
    + apply Z.eqb_neq in H. rewrite H. f_equal.
    + apply Z.eqb_eq in H. rewrite H. replace (pre ++ (b :: hi ++ [lo]) ++ post) with ((pre ++ [b]) ++ hi ++ lo :: post) by (cbn [app]; rewrite <- !app_assoc; reflexivity).
      replace (length pre + 1) with (length (pre ++ [b])) by (rewrite app_length; cbn; lia). rewrite tag_loop_ok; auto.
      * f_equal. cbn [length]. rewrite !app_length. cbn [length]. lia.
      * rewrite !app_length. cbn [length]. lia.
  - constructor; auto. destruct H as [[H ->]|(H & hi & lo & -> & Fh & Fl)]; [constructor|]. apply Forall_app. split; [eapply Forall_impl; [|exact Fh]; intros ? ?; red; cbv beta in *; lia|]. constructor; [red; lia|constructor].
Qed.

Lemma read_object_unfold f ber off : read_object (S f) ber off =
    if length ber <=? off then Err else if length ber <=? off + 1 then Err else
    rbind (tag_end ber off) (fun tagEnd =>
    match nth_error ber tagEnd with
    | None => Panic
    | Some l =>
      rbind (read_length ber l (tagEnd + 1)) (fun r => let '(indefinite, len, o) := r in
      let contentEnd := o + len in
      if length ber <? contentEnd then Err
      else if indefinite && negb (Z.testbit (nth off ber 0%Z) 5) then Err
      else if negb (Z.testbit (nth off ber 0%Z) 5) then Ok (Prim (slice off (tagEnd - off) ber) len (slice o len ber), contentEnd)
      else rbind (elements (read_object f ber) ber contentEnd indefinite (S (length ber)) o) (fun le =>
        Ok (Struc (slice off (tagEnd - off) ber) (fst le), if indefinite then snd le + 2 else contentEnd)))
    end).
Proof. cbn [read_object]. rewrite land32. reflexivity. Qed.

(** ** reading an encoding *)
Fixpoint to_obj (t : tree) : obj := match t with TPrim tag c => Prim tag (length c) c | TCons tag ts => Struc tag (map to_obj ts) end.
Scheme ber_mut := Induction for ber_of Sort Prop with bers_mut := Induction for bers Sort Prop.
Combined Scheme ber_bers_ind from ber_mut, bers_mut.

Lemma ber_len t b : ber_of t b -> 2 <= length b.
Proof.
  assert (T : forall c tag, tag_ok c tag -> 1 <= length tag) by (intros c tag (b' & r & -> & _); cbn; lia).
  intros [tag c lb Ht _ Hl|tag ts lb body Ht _ Hl|tag ts body Ht _ _]; rewrite !app_length; apply T in Ht; try (apply length_nonempty in Hl as (l & lr & ->)); cbn [length]; lia.
Qed.
Lemma head_of tag_c cons pre tag lb rest f : tag_ok cons tag -> (exists l lr, lb = l :: lr) -> tag_c = pre ++ tag ++ lb ++ rest ->
  read_object (S f) tag_c (length pre) =
    rbind (read_length tag_c (hd 0%Z lb) (length (pre ++ tag) + 1)) (fun r => let '(indefinite, len, o) := r in
      let contentEnd := o + len in
      if length tag_c <? contentEnd then Err
      else if indefinite && negb cons then Err
      else if negb cons then Ok (Prim tag len (slice o len tag_c), contentEnd)
      else rbind (elements (read_object f tag_c) tag_c contentEnd indefinite (S (length tag_c)) o) (fun le =>
        Ok (Struc tag (fst le), if indefinite then snd le + 2 else contentEnd))).
Proof.
  intros Ht (l & lr & ->) ->. rewrite read_object_unfold. destruct (@tag_end_ok cons tag pre ((l :: lr) ++ rest) Ht) as (E & T & L1 & _).
  rewrite E, T. cbn [rbind hd]. rewrite !app_length. cbn [length]. destruct (Nat.leb_spec (length pre + (length tag + (S (length lr) + length rest))) (length pre)); [lia|].
  destruct (Nat.leb_spec (length pre + (length tag + (S (length lr) + length rest))) (length pre + 1)); [lia|].
  assert (NE : nth_error (pre ++ tag ++ (l :: lr) ++ rest) (length pre + length tag) = Some l).
  { rewrite app_assoc, <- app_length. cbn [app]. apply nth_error_mid. }
  rewrite NE. replace (length pre + length tag - length pre) with (length tag) by lia. rewrite slice_mid. reflexivity.
Qed.
Definition reads (t : tree) (b : bytes) := forall f pre post, length b <= f -> read_object f (pre ++ b ++ post) (length pre) = Ok (to_obj t, length pre + length b).
Definition reads_all (eoc : bool) (ts : list tree) (b : bytes) := forall f fuel pre post cend, length b <= f -> length b < fuel ->
  (eoc = false -> post = post -> elements (read_object f (pre ++ b ++ post)) (pre ++ b ++ post) (length pre + length b) false fuel (length pre) = Ok (map to_obj ts, length pre + length b)) /\
  (eoc = true -> ts <> [] -> elements (read_object f (pre ++ b ++ 0%Z :: 0%Z :: post)) (pre ++ b ++ 0%Z :: 0%Z :: post) cend true fuel (length pre) = Ok (map to_obj ts, length pre + length b)).
Lemma elements_S rd ber cend ind fuel off : elements rd ber cend ind (S fuel) off =
      if (off <? cend) || ind then
        rbind (rd off) (fun oe => let '(o, offset) := oe in
        if ind then
          rbind (is_termination ber offset) (fun t =>
          if t then Ok ([o], offset) else rbind (elements rd ber cend ind fuel offset) (fun le => Ok (o :: fst le, snd le)))
        else rbind (elements rd ber cend ind fuel offset) (fun le => Ok (o :: fst le, snd le)))
      else Ok ([], off).
Proof. reflexivity. Qed.
Lemma bers_length_pos eoc t ts b : bers eoc (t :: ts) b -> exists x y z, b = x :: y :: z /\ (eoc = true -> ~ (x = 0 /\ y = 0)%Z).
Proof.
  intros H. inversion H as [|e t' ts' b' bs Hb N Hs]; subst. pose proof (ber_len Hb). destruct b' as [|x [|y z]]; cbn [length] in *; try lia.
  exists x, y, (z ++ bs). split; [reflexivity|]. intros E [-> ->]. apply (N E). reflexivity.
Qed.
Lemma reads_both : (forall t b, ber_of t b -> reads t b) /\ (forall eoc ts b, bers eoc ts b -> reads_all eoc ts b).
Proof.
  apply ber_bers_ind.
  - intros tag c lb Ht Oc Hl f pre post Lf. pose proof (length_nonempty Hl) as NE. destruct f as [|f]; [rewrite !app_length in Lf; destruct Ht as (b & r & -> & _); cbn in Lf; lia|].
    rewrite <- !app_assoc. rewrite (@head_of _ false pre tag lb (c ++ post) f Ht NE eq_refl). destruct NE as (l & lr & ->). cbn [hd].
    replace (pre ++ tag ++ (l :: lr) ++ c ++ post) with ((pre ++ tag ++ [l]) ++ lr ++ c ++ post) by (rewrite <- !app_assoc; reflexivity).
    replace (length (pre ++ tag) + 1) with (length (pre ++ tag ++ [l])) by (rewrite !app_length; cbn; lia).
    rewrite (@read_length_of (pre ++ tag ++ [l]) l lr (length c) (c ++ post) Hl). cbn [rbind negb andb].
    destruct (Nat.ltb_spec (length ((pre ++ tag ++ [l]) ++ lr ++ c ++ post)) (length (pre ++ tag ++ [l]) + length lr + length c)) as [L|L]; [rewrite !app_length in L; cbn in L; lia|].
    rewrite <- (app_length (pre ++ tag ++ [l]) lr), (app_assoc (pre ++ tag ++ [l]) lr). rewrite slice_mid. cbn [to_obj]. do 2 f_equal. rewrite !app_length. cbn [length]. lia.
  - intros tag ts lb body Ht Hb IH Hl f pre post Lf. pose proof (length_nonempty Hl) as NE. destruct f as [|f]; [rewrite !app_length in Lf; destruct Ht as (b & r & -> & _); cbn in Lf; lia|].
    rewrite <- !app_assoc. rewrite (@head_of _ true pre tag lb (body ++ post) f Ht NE eq_refl). destruct NE as (l & lr & ->). cbn [hd].
    replace (pre ++ tag ++ (l :: lr) ++ body ++ post) with ((pre ++ tag ++ [l]) ++ lr ++ body ++ post) by (rewrite <- !app_assoc; reflexivity).
    replace (length (pre ++ tag) + 1) with (length (pre ++ tag ++ [l])) by (rewrite !app_length; cbn; lia).
    rewrite (@read_length_of (pre ++ tag ++ [l]) l lr (length body) (body ++ post) Hl). cbn [rbind negb andb].
    destruct (Nat.ltb_spec (length ((pre ++ tag ++ [l]) ++ lr ++ body ++ post)) (length (pre ++ tag ++ [l]) + length lr + length body)) as [L|L]; [rewrite !app_length in L; cbn in L; lia|].
    rewrite <- (app_length (pre ++ tag ++ [l]) lr), (app_assoc (pre ++ tag ++ [l]) lr). assert (1 <= length tag) by (destruct Ht as (b & r & -> & _); cbn; lia). rewrite !app_length in Lf. cbn [length] in Lf.
    destruct (IH f (S (length (((pre ++ tag ++ [l]) ++ lr) ++ body ++ post))) ((pre ++ tag ++ [l]) ++ lr) post 0) as [E _]; [lia|rewrite !app_length; lia|].
    rewrite (E eq_refl eq_refl). cbn [rbind fst snd to_obj]. do 2 f_equal. rewrite !app_length. cbn [length]. lia.
  - intros tag ts body Ht Hb IH NN f pre post Lf. destruct f as [|f]; [rewrite !app_length in Lf; destruct Ht as (b & r & -> & _); cbn in Lf; lia|].
    rewrite <- !app_assoc. rewrite (@head_of _ true pre tag [128%Z] (body ++ [0%Z; 0%Z] ++ post) f Ht ltac:(eauto) eq_refl). cbn [hd].
    unfold read_length. cbn [Z.ltb Z.compare Pos.compare Pos.compare_cont Z.eqb Pos.eqb rbind negb andb].
    replace (pre ++ tag ++ [128%Z] ++ body ++ [0%Z; 0%Z] ++ post) with ((pre ++ tag ++ [128%Z]) ++ body ++ 0%Z :: 0%Z :: post) by (rewrite <- !app_assoc; reflexivity).
    replace (length (pre ++ tag) + 1) with (length (pre ++ tag ++ [128%Z])) by (rewrite !app_length; cbn; lia).
    destruct (Nat.ltb_spec (length ((pre ++ tag ++ [128%Z]) ++ body ++ 0%Z :: 0%Z :: post)) (length (pre ++ tag ++ [128%Z]) + 0)) as [L|L]; [rewrite !app_length in L; cbn in L; lia|].
    assert (1 <= length tag) by (destruct Ht as (b & r & -> & _); cbn; lia). rewrite !app_length in Lf. cbn [length] in Lf.
    destruct (IH f (S (length ((pre ++ tag ++ [128%Z]) ++ body ++ 0%Z :: 0%Z :: post))) (pre ++ tag ++ [128%Z]) post (length (pre ++ tag ++ [128%Z]) + 0)) as [_ E]; [lia|rewrite !app_length; lia|].
    rewrite (E eq_refl NN). cbn [rbind fst snd to_obj]. do 2 f_equal. rewrite !app_length. cbn [length]. lia.
  - intros eoc f fuel pre post cend Lf Lu. cbn [app length map]. rewrite Nat.add_0_r. split; [|congruence]. intros _ _. destruct fuel; [cbn in Lu; lia|]. rewrite elements_S.
    rewrite Nat.ltb_irrefl. reflexivity.
  - intros eoc t ts b bs Hb IHb N Hbs IHs f fuel pre post cend Lf Lu. pose proof (ber_len Hb). rewrite app_length in Lf, Lu. destruct fuel as [|fuel]; [lia|]. split.
    + intros -> _. rewrite elements_S. rewrite app_length. destruct (Nat.ltb_spec (length pre) (length pre + (length b + length bs))); [|lia]. cbn [orb].
      rewrite <- app_assoc. rewrite IHb by lia. cbn [rbind].
      destruct (IHs f fuel (pre ++ b) post 0) as [E _]; [lia|lia|]. specialize (E eq_refl eq_refl).
      rewrite !app_length, <- !app_assoc in E. rewrite Nat.add_assoc. rewrite E. reflexivity.
    + intros -> _. rewrite elements_S. rewrite orb_true_r. rewrite <- app_assoc. rewrite IHb by lia. cbn [rbind].
      unfold is_termination. rewrite !app_length. cbn [length].
      destruct (Nat.ltb_spec (length pre + (length b + (length bs + S (S (length post))))) (length pre + length b + 2)); [lia|]. cbn [rbind].
      assert (NT : forall i, nth (length pre + length b + i) (pre ++ b ++ bs ++ 0%Z :: 0%Z :: post) 0%Z = nth i (bs ++ 0%Z :: 0%Z :: post) 0%Z).
      { intros i. rewrite app_assoc, <- app_length. apply nth_mid. }
      rewrite <- (Nat.add_0_r (length pre + length b)) at 1. rewrite !NT.
      destruct ts as [|t' ts].
      * inversion Hbs; subst. cbn [app nth Z.eqb andb map length]. rewrite Nat.add_0_r. reflexivity.
      * destruct (bers_length_pos Hbs) as (x & y & z & Eb & NZ). specialize (NZ eq_refl).
        destruct (IHs f fuel (pre ++ b) post cend) as [_ E]; [lia|lia|]. specialize (E eq_refl ltac:(discriminate)).
        rewrite !app_length, <- !app_assoc in E. rewrite E. rewrite Eb. cbn [app nth].
        destruct (Z.eqb_spec x 0), (Z.eqb_spec y 0); try (exfalso; tauto); cbn [andb rbind fst snd map]; do 2 f_equal; cbn [length]; lia.
Qed.

(** ** writing *)
Lemma tree_rec2 (P : tree -> Prop) : (forall tag c, P (TPrim tag c)) -> (forall tag ts, Forall P ts -> P (TCons tag ts)) -> forall t, P t.
Proof.
  intros HP HC. fix IH 1. intros [tag c|tag ts]; [apply HP|]. apply HC. induction ts as [|t ts IHts]; constructor; [apply IH|exact IHts].
Qed.
Lemma concat_in_length (x : bytes) l : In x l -> length x <= length (concat l).
Proof. induction l as [|y l IH]; cbn [In concat]; [tauto|]. rewrite app_length. intros [->|H]; [lia|]. apply IH in H. lia. Qed.
Lemma encode_der t : (Z.of_nat (length (encode (to_obj t))) < 2 ^ 63)%Z -> encode (to_obj t) = der t.
Proof.
  induction t as [tag c|tag ts IH] using tree_rec2; cbn [to_obj encode der]; intros B.
  - rewrite !app_length in B. rewrite encode_length_der by lia. reflexivity.
  - rewrite map_map in *. rewrite !app_length in B. assert (E : map (fun x => encode (to_obj x)) ts = map der ts).
    { apply map_ext_in. intros t Ht. apply (proj1 (Forall_forall _ _) IH t Ht). pose proof (concat_in_length (in_map (fun x => encode (to_obj x)) ts t Ht)). lia. }
    rewrite encode_length_der by lia. rewrite E. reflexivity.
Qed.
Lemma encode_sizes : (forall t b, ber_of t b -> (Z.of_nat (length b) < 2 ^ 59)%Z -> length (encode (to_obj t)) <= 9 * length b) /\
  (forall eoc ts b, bers eoc ts b -> (Z.of_nat (length b) < 2 ^ 59)%Z -> length (concat (map encode (map to_obj ts))) <= 9 * length b).
Proof.
  assert (P : (9 * 2 ^ 59 < 2 ^ 63)%Z) by reflexivity.
  assert (EL : forall n, (Z.of_nat n < 9 * 2 ^ 59)%Z -> length (encode_length n) <= 9).
  { intros n B. rewrite encode_length_der by lia. assert (B' : (Z.of_nat n < 2 ^ 63)%Z) by lia. apply der_length_bound in B'. lia. }
  apply ber_bers_ind.
  - intros tag c lb Ht Oc Hl B. cbn [to_obj encode]. rewrite !app_length in *. apply length_nonempty in Hl as (l & lr & ->). cbn [length] in *.
    specialize (EL (length c) ltac:(lia)). lia.
  - intros tag ts lb body Ht Hb IH Hl B. cbn [to_obj encode]. rewrite !app_length in *. apply length_nonempty in Hl as (l & lr & ->). cbn [length] in *.
    specialize (IH ltac:(lia)). specialize (EL (length (concat (map encode (map to_obj ts)))) ltac:(lia)). lia.
  - intros tag ts body Ht Hb IH NN B. cbn [to_obj encode]. rewrite !app_length in *. cbn [length] in *.
    specialize (IH ltac:(lia)). specialize (EL (length (concat (map encode (map to_obj ts)))) ltac:(lia)). lia.
  - intros eoc B. cbn [map concat length]. lia.
  - intros eoc t ts b bs Hb IHb N Hbs IHs B. rewrite app_length in *. cbn [map concat]. rewrite app_length. specialize (IHb ltac:(lia)). specialize (IHs ltac:(lia)). lia.
Qed.
Lemma ber2der_ok t b rest : ber_of t b -> (Z.of_nat (length b) < 2 ^ 59)%Z -> ber2der (b ++ rest) = Ok (der t).
Proof.
  intros H B. unfold ber2der. pose proof (ber_len H). destruct (Nat.eqb_spec (length (b ++ rest)) 0) as [E|_]; [rewrite app_length in E; lia|].
  pose proof (proj1 reads_both t b H (S (length (b ++ rest))) [] rest ltac:(rewrite app_length; lia)) as R. cbn [app length] in R. rewrite R. cbn [rbind fst]. f_equal. apply encode_der.
  apply (proj1 encode_sizes t b H) in B as B'. assert (9 * 2 ^ 59 < 2 ^ 63)%Z by reflexivity. lia.
Qed.
Lemma der_len t : tree_ok t -> (Z.of_nat (length (der t)) < 2 ^ 31)%Z -> ber_of t (der t).
Proof.
  induction t as [tag c|tag ts IH] using tree_rec2; intros O B; cbn [der] in *; rewrite !app_length in B.
  - inversion O; subst. apply BPrim; auto. apply der_length_of. lia.
  - inversion O as [|? ? Ht Hs]; subst. apply BCons; auto; [|apply der_length_of; lia].
    assert (B' : (Z.of_nat (length (concat (map der ts))) < 2 ^ 31)%Z) by lia. clear B O Ht. induction ts as [|t ts IHts]; cbn [map concat] in *; [constructor|].
    rewrite app_length in B'. inversion IH as [|? ? It Its]; subst. apply BNext; [apply It; [apply Hs; left; auto|lia]|discriminate|]. apply IHts; auto; [intros; apply Hs; right; auto|lia].
Qed.
Lemma to_obj_inj t : forall t', to_obj t = to_obj t' -> t = t'.
Proof.
  induction t as [tag c|tag ts IH] using tree_rec2; intros [tag' c'|tag' ts'] E; cbn [to_obj] in E; try discriminate; injection E as E1 E2; subst.
  - congruence.
  - f_equal. revert ts' E2. induction ts as [|t ts IHts]; intros [|t' ts'] E2; cbn [map] in E2; try discriminate; [auto|]. injection E2 as E2 E3. inversion IH; subst. f_equal; auto.
Qed.
Lemma der_inj t t' : tree_ok t -> tree_ok t' -> (Z.of_nat (length (der t)) < 2 ^ 31)%Z -> der t = der t' -> t = t'.
Proof.
  intros O O' B E. apply to_obj_inj. pose proof (der_len O B) as H. assert (B' : (Z.of_nat (length (der t')) < 2 ^ 31)%Z) by (rewrite <- E; auto). pose proof (der_len O' B') as H'.
  pose proof (proj1 reads_both _ _ H (length (der t)) [] [] ltac:(lia)) as R. pose proof (proj1 reads_both _ _ H' (length (der t)) [] [] ltac:(rewrite E; lia)) as R'. rewrite <- E in R'. rewrite R in R'. congruence.
Qed.
Lemma ber_of_ok t b : ber_of t b -> tree_ok t.
Proof.
  apply (ber_mut (P := fun t b _ => tree_ok t) (P0 := fun eoc ts b _ => forall t, In t ts -> tree_ok t)); intros; try (constructor; auto; fail); cbn [In] in *; [tauto|].
  match goal with Hin : _ = _ \/ _ |- _ => destruct Hin as [<-|]; auto end.
Qed.

(** ** what is accepted *)
Lemma skipn_pre (a b : bytes) : skipn (length a) (a ++ b) = b.
Proof. now rewrite skipn_app, skipn_all, Nat.sub_diag. Qed.
Lemma skipn_pre1 (a : bytes) x b : skipn (length a + 1) (a ++ x :: b) = b.
Proof. replace (length a + 1) with (length (a ++ [x])) by (rewrite app_length; cbn; lia). replace (a ++ x :: b) with ((a ++ [x]) ++ b) by (rewrite <- app_assoc; reflexivity). apply skipn_pre. Qed.
Lemma slice_first off n (ber : bytes) : off < length ber -> slice off (S n) ber = nth off ber 0%Z :: slice (off + 1) n ber.
Proof.
  intros L. destruct (nth_error ber off) as [x|] eqn:N; [|apply nth_error_None in N; lia]. destruct (nth_error_split _ _ N) as (l1 & l2 & Eb & El). subst ber off.
  rewrite (nth_error_nth _ _ 0%Z N). unfold slice. rewrite skipn_pre, skipn_pre1. reflexivity.
Qed.
Lemma tag_loop_inv f : forall ber off e, tag_loop f ber off = Ok e -> exists hi lo, off < e <= length ber /\ slice off (e - off) ber = hi ++ [lo] /\
   Forall (fun x => 128 <= x)%Z hi /\ (lo < 128)%Z.
Proof.
  induction f as [|f IH]; intros ber off e H; cbn [tag_loop] in H; [discriminate|]. destruct (nth_error ber off) as [x|] eqn:N; [|discriminate].
  assert (L : off < length ber) by (apply nth_error_Some; congruence). destruct (nth_error_split _ _ N) as (l1 & l2 & Eb & El). destruct (Z.leb_spec 128 x) as [X|X].
  - destruct (Nat.ltb_spec (length ber) (off + 1)); [discriminate|]. apply IH in H as (hi & lo & B & Es & F & Lo). exists (x :: hi), lo. split; [lia|]. split; [|split; auto].
    cbn [app]. rewrite <- Es. replace (e - off) with (S (e - (off + 1))) by lia. rewrite slice_first by auto. now rewrite (nth_error_nth _ _ 0%Z N).
  - destruct (Nat.ltb_spec (length ber) (off + 1)); [discriminate|]. injection H as <-. exists [], x. split; [lia|]. split; [|split; auto]. replace (off + 1 - off) with 1 by lia. rewrite slice_first by auto. now rewrite (nth_error_nth _ _ 0%Z N).
Qed.
Lemma bytes_ok_slice off n (l : bytes) : bytes_ok l -> bytes_ok (slice off n l).
Proof. intros H. unfold slice. apply bytes_ok_firstn, bytes_ok_skipn, H. Qed.
Lemma tag_end_inv ber off e : bytes_ok ber -> off < length ber -> tag_end ber off = Ok e -> off < e <= length ber /\ tag_ok (Z.testbit (nth off ber 0%Z) 5) (slice off (e - off) ber).
Proof.
  intros O L H. unfold tag_end in H. rewrite land31 in H. assert (Ob : is_byte (nth off ber 0%Z)) by exact (proj1 (Forall_forall _ _) O _ (nth_In _ _ L)). destruct (Z.eqb_spec (nth off ber 0%Z mod 32)%Z 31) as [E|E].
  - apply tag_loop_inv in H as (hi & lo & B & Es & F & Lo). split; [lia|]. exists (nth off ber 0%Z), (hi ++ [lo]). replace (e - off) with (S (e - (off + 1))) by lia. rewrite slice_first by auto. rewrite Es.
    split; [auto|]. split; [auto|]. split; [auto|]. right. split; [auto|]. exists hi, lo. split; [auto|].
    assert (OK : bytes_ok (hi ++ [lo])) by (rewrite <- Es; apply bytes_ok_slice; auto). apply Forall_app in OK as [Oh Ol]. inversion Ol as [|? ? Ol1]; subst. split.
    + clear Es. induction hi; [constructor|]. inversion F; inversion Oh; subst. constructor; [unfold is_byte in *; lia|auto].
    + unfold is_byte in Ol1. lia.
  - injection H as <-. split; [lia|]. exists (nth off ber 0%Z), []. replace (off + 1 - off) with 1 by lia. rewrite slice_first by auto. split; [reflexivity|]. split; [auto|]. split; [auto|]. left. auto.
Qed.
Lemma read_length_inv ber l off ind n o : read_length ber l off = Ok (ind, n, o) -> off <= o /\ (ind = true -> n = 0).
Proof.
  unfold read_length. destruct (128 <? l)%Z.
  - destruct (4 <? _); [discriminate|]. destruct (length ber <? _); [discriminate|]. destruct (_ && _); [discriminate|]. destruct (_ && _); [discriminate|]. intros H. injection H as <- <- <-. split; [lia|discriminate].
  - destruct (l =? 128)%Z; intros H; injection H as <- <- <-; split; auto; discriminate.
Qed.
Definition good (ber : bytes) (r : obj * nat) off := (exists t, fst r = to_obj t /\ tree_ok t) /\ off + 2 <= snd r <= length ber.
Lemma elements_inv rd ber cend ind fuel : (forall off r, rd off = Ok r -> good ber r off) -> forall off le, elements rd ber cend ind fuel off = Ok le ->
  (exists ts, fst le = map to_obj ts /\ forall t, In t ts -> tree_ok t) /\ off <= snd le /\ (ind = true -> snd le + 2 <= length ber).
Proof.
  intros G. induction fuel as [|fuel IH]; intros off le H; cbn [elements] in H; [discriminate|].
  destruct ((off <? cend) || ind) eqn:C.
  - destruct (rd off) as [[o e]| |] eqn:R; cbn [rbind] in H; try discriminate. apply G in R as ((t & Et & Ot) & B). cbn [fst snd] in *.
    assert (K : forall le', elements rd ber cend ind fuel e = Ok le' -> (exists ts, o :: fst le' = map to_obj ts /\ forall t, In t ts -> tree_ok t) /\ off <= snd le' /\ (ind = true -> snd le' + 2 <= length ber)).
    { intros le' E. apply IH in E as ((ts & Ets & Ots) & B1 & B2). split; [|split; [lia|auto]]. exists (t :: ts). cbn [map]. split; [congruence|]. intros t' [<-|]; auto. }
    destruct ind.
    + unfold is_termination in H. destruct (Nat.ltb_spec (length ber) (e + 2)); cbn [rbind] in H; [discriminate|].
      destruct (_ && _).
      * injection H as <-. cbn [fst snd]. split; [|split; [lia|auto]]. exists [t]. cbn [map]. split; [congruence|]. intros t' [<-|[]]; auto.
      * destruct (elements _ _ _ _ _ e) as [le'| |] eqn:E; cbn [rbind] in H; try discriminate. injection H as <-. cbn [fst snd]. apply K; auto.
    + destruct (elements _ _ _ _ _ e) as [le'| |] eqn:E; cbn [rbind] in H; try discriminate. injection H as <-. cbn [fst snd]. apply K; auto.
  - injection H as <-. cbn [fst snd]. split; [|split; [lia|]]. { exists []. split; [reflexivity|intros t []]. } intros ->. rewrite orb_true_r in C. discriminate.
Qed.
Lemma slice_length off n (l : bytes) : off + n <= length l -> length (slice off n l) = n.
Proof. intros H. unfold slice. rewrite firstn_length, skipn_length. lia. Qed.
Lemma read_object_inv ber : bytes_ok ber -> forall f off r, read_object f ber off = Ok r -> good ber r off.
Proof.
  intros O. induction f as [|f IH]; intros off r H; [discriminate|]. rewrite read_object_unfold in H.
  destruct (Nat.leb_spec (length ber) off); [discriminate|]. destruct (Nat.leb_spec (length ber) (off + 1)); [discriminate|].
  destruct (tag_end ber off) as [te| |] eqn:T; cbn [rbind] in H; try discriminate. apply tag_end_inv in T as [BT TOK]; auto.
  destruct (nth_error ber te) as [l|] eqn:N; [|discriminate]. destruct (read_length ber l (te + 1)) as [[[ind n] o]| |] eqn:RL; cbn [rbind] in H; try discriminate.
  apply read_length_inv in RL as [BO BI]. destruct (Nat.ltb_spec (length ber) (o + n)) as [|BE]; [discriminate|]. destruct (Z.testbit (nth off ber 0%Z) 5) eqn:TB; cbn [negb] in H.
  - rewrite andb_false_r in H. destruct (elements _ _ _ _ _ o) as [le| |] eqn:E; cbn [rbind] in H; try discriminate. apply (@elements_inv _ ber) in E as ((ts & Ets & Ots) & B1 & B2); [|apply IH]. injection H as <-. split; cbn [fst snd].
    + exists (TCons (slice off (te - off) ber) ts). cbn [to_obj]. split; [congruence|]. constructor; auto.
    + destruct ind; [specialize (B2 eq_refl)|]; lia.
  - destruct ind; cbn [andb] in H; [discriminate|]. injection H as <-. split; cbn [fst snd]; [|lia].
    exists (TPrim (slice off (te - off) ber) (slice o n ber)). cbn [to_obj]. rewrite slice_length by auto. split; [reflexivity|]. constructor; auto. apply bytes_ok_slice; auto.
Qed.
Lemma ber2der_inv ber y : bytes_ok ber -> ber2der ber = Ok y -> exists t, tree_ok t /\ y = encode (to_obj t).
Proof.
  intros O H. unfold ber2der in H. destruct (length ber =? 0); [discriminate|]. destruct (read_object _ ber 0) as [r| |] eqn:R; cbn [rbind] in H; try discriminate. injection H as <-.
  apply read_object_inv in R as ((t & E & Ot) & _); auto. exists t. split; congruence.
Qed.

(** ** panics *)
Lemma tag_loop_panic f : forall ber off, length ber < f + off -> off <= length ber -> tag_loop f ber off = Panic -> Forall (fun x => 128 <= x)%Z (skipn off ber).
Proof.
  induction f as [|f IH]; intros ber off B L H; [lia|]. cbn [tag_loop] in H. destruct (nth_error ber off) as [x|] eqn:N; [|apply nth_error_None in N; rewrite skipn_all2 by lia; constructor].
  assert (L' : off < length ber) by (apply nth_error_Some; congruence). destruct (Z.leb_spec 128 x) as [X|X].
  - destruct (Nat.ltb_spec (length ber) (off + 1)); [discriminate|]. apply IH in H; [|lia|lia].
    destruct (nth_error_split _ _ N) as (l1 & l2 & Eb & El). subst ber off. rewrite skipn_pre1 in H. rewrite skipn_pre. constructor; auto.
  - destruct (Nat.ltb_spec (length ber) (off + 1)); discriminate.
Qed.
Lemma elements_panic rd ber cend ind fuel : (forall off r, rd off = Ok r -> off + 2 <= snd r <= length ber) -> forall off, length ber < fuel + off -> off <= length ber -> elements rd ber cend ind fuel off = Panic -> exists off', off <= off' <= length ber /\ rd off' = Panic.
Proof.
  intros G. induction fuel as [|fuel IH]; intros off B L H; [lia|]. cbn [elements] in H. destruct ((off <? cend) || ind); [|discriminate].
  destruct (rd off) as [[o e]| |] eqn:R; cbn [rbind] in H; try discriminate; [|exists off; split; [lia|auto]]. apply G in R. cbn [snd] in R.
  assert (K : elements rd ber cend ind fuel e = Panic -> exists off', off <= off' <= length ber /\ rd off' = Panic). { intros E. apply IH in E as (off' & ? & ?); [exists off'; split; [lia|auto]|lia|lia]. }
  destruct ind.
  - unfold is_termination in H. destruct (length ber <? e + 2); cbn [rbind] in H; [discriminate|]. destruct (_ && _); [discriminate|].
    destruct (elements _ _ _ _ _ e) as [le'| |]; cbn [rbind] in H; try discriminate. auto.
  - destruct (elements _ _ _ _ _ e) as [le'| |]; cbn [rbind] in H; try discriminate. auto.
Qed.
Lemma read_object_panic ber : bytes_ok ber -> forall f off, length ber < f + off -> off <= length ber -> read_object f ber off = Panic -> cut_high_tag ber.
Proof.
  intros O. induction f as [|f IH]; intros off B L H; [lia|]. rewrite read_object_unfold in H.
  destruct (Nat.leb_spec (length ber) off); [discriminate|]. destruct (Nat.leb_spec (length ber) (off + 1)); [discriminate|].
  destruct (nth_error ber off) as [b|] eqn:NB; [|apply nth_error_None in NB; lia]. destruct (nth_error_split _ _ NB) as (l1 & l2 & Eb & El).
  assert (Nb : nth off ber 0%Z = b). { apply nth_error_nth. auto. }
  destruct (tag_end ber off) as [te| |] eqn:T; cbn [rbind] in H; try discriminate.
  - assert (T' := T). apply tag_end_inv in T as [BT TOK]; auto. destruct (nth_error ber te) as [l|] eqn:N.
    + destruct (read_length ber l (te + 1)) as [[[ind n] o]| |] eqn:RL; cbn [rbind] in H; try discriminate.
      * apply read_length_inv in RL as [BO BI]. destruct (Nat.ltb_spec (length ber) (o + n)) as [|BE]; [discriminate|]. destruct (ind && _); [discriminate|]. destruct (negb _); [discriminate|].
        destruct (elements _ _ _ _ _ o) as [le| |] eqn:E; cbn [rbind] in H; try discriminate. apply elements_panic in E as (off' & Bo & P); [|intros ? ? R; apply read_object_inv in R; auto; apply R|lia|lia].
        apply (IH off'); auto; lia.
      * exfalso. revert RL. unfold read_length. destruct (128 <? l)%Z; [|destruct (l =? 128)%Z; discriminate]. destruct (4 <? _); [discriminate|]. destruct (length ber <? _); [discriminate|]. destruct (_ && _); [discriminate|]. destruct (_ && _); discriminate.
    + apply nth_error_None in N. unfold tag_end in T'. rewrite land31, Nb in T'. destruct (Z.eqb_spec (b mod 32) 31) as [E|E]; [|injection T' as T'; lia].
      apply tag_loop_inv in T' as (hi & lo & B1 & Es & F & Lo). exists l1, b, hi. split; [auto|]. split; [auto|]. right. exists lo. rewrite <- Es, Eb. f_equal. f_equal.
      replace te with (length ber) by lia. rewrite <- El, Eb. unfold slice. rewrite skipn_pre1. rewrite firstn_all2; [auto|]. rewrite app_length. cbn [length]. lia.
  - unfold tag_end in T. rewrite land31, Nb in T. destruct (Z.eqb_spec (b mod 32) 31) as [E|E]; [|discriminate]. apply tag_loop_panic in T; [|lia|lia].
    exists l1, b, l2. split; [|split; auto]. rewrite <- El, Eb, skipn_pre1 in T. exact T.
Qed.
Lemma ber2der_panic ber : bytes_ok ber -> ber2der ber = Panic -> cut_high_tag ber.
Proof.
  intros O H. unfold ber2der in H. destruct (length ber =? 0); [discriminate|]. destruct (read_object _ ber 0) as [r| |] eqn:R; cbn [rbind] in H; try discriminate. apply read_object_panic in R; auto; lia.
Qed.

(** ** contents that end after their declared length *)
Lemma tag48 : tag_ok true [48%Z].
Proof. exists 48%Z, []. split; [reflexivity|]. split; [red; lia|]. split; [reflexivity|]. left. split; [cbv; discriminate|reflexivity]. Qed.
Lemma read48 f pre k rest : (k < 128) -> k <= length rest -> let ber := pre ++ 48%Z :: Z.of_nat k :: rest in
  read_object (S f) ber (length pre) = rbind (elements (read_object f ber) ber (length pre + 2 + k) false (S (length ber)) (length pre + 2)) (fun le => Ok (Struc [48%Z] (fst le), length pre + 2 + k)).
Proof.
  intros K L ber. unfold ber. change (pre ++ 48%Z :: Z.of_nat k :: rest) with (pre ++ [48%Z] ++ [Z.of_nat k] ++ rest). rewrite (@head_of _ true pre [48%Z] [Z.of_nat k] rest f tag48 ltac:(eauto) eq_refl). cbn [hd]. unfold read_length.
  destruct (Z.ltb_spec 128 (Z.of_nat k)); [lia|]. destruct (Z.eqb_spec (Z.of_nat k) 128); [lia|]. cbn [rbind negb andb]. rewrite Nat2Z.id.
  assert (LE : length (pre ++ [48%Z]) + 1 = length pre + 2) by (rewrite app_length; cbn; lia). rewrite !LE.
  destruct (Nat.ltb_spec (length (pre ++ [48%Z] ++ [Z.of_nat k] ++ rest)) (length pre + 2 + k)) as [LL|_]; [rewrite !app_length in LL; cbn [length] in LL; lia|]. reflexivity.
Qed.
Lemma one_element rd ber cend fuel off o e : off < cend -> rd off = Ok (o, e) -> cend <= e -> elements rd ber cend false (S (S fuel)) off = Ok ([o], e).
Proof.
  intros L R C. rewrite elements_S. destruct (Nat.ltb_spec off cend); [|lia]. cbn [orb]. rewrite R. cbn [rbind]. rewrite elements_S. destruct (Nat.ltb_spec e cend); [lia|]. reflexivity.
Qed.
Lemma two_elements rd ber cend fuel off o e o' e' : off < cend -> rd off = Ok (o, e) -> e < cend -> rd e = Ok (o', e') -> cend <= e' -> elements rd ber cend false (S (S (S fuel))) off = Ok ([o; o'], e').
Proof.
  intros L R C R' C'. rewrite elements_S. destruct (Nat.ltb_spec off cend); [|lia]. cbn [orb]. rewrite R. cbn [rbind]. rewrite (@one_element rd ber cend fuel e o' e'); auto.
Qed.
Lemma overrun t b k : ber_of t b -> 1 <= k <= length b -> k < 128 -> (Z.of_nat (length b) < 2 ^ 58)%Z -> ber2der (48%Z :: Z.of_nat k :: b) = Ok (der (TCons [48%Z] [t])).
Proof.
  intros H B K S58. unfold ber2der. cbn [length Nat.eqb]. pose proof (@read48 (S (S (length b))) [] k b ltac:(lia) ltac:(lia)) as R. cbn [app length] in R. cbv zeta in R. rewrite R.
  pose proof (proj1 reads_both t b H (S (S (length b))) [48%Z; Z.of_nat k] [] ltac:(lia)) as RB. rewrite app_nil_r in RB. cbn [app length] in RB.
  rewrite (@one_element _ (48%Z :: Z.of_nat k :: b) (0 + 2 + k) (S (length b)) (0 + 2) (to_obj t) (2 + length b)); [|lia|exact RB|lia].
  cbn [rbind fst]. f_equal. change (Struc [48%Z] [to_obj t]) with (to_obj (TCons [48%Z] [t])). apply encode_der. cbn [to_obj map encode concat]. rewrite app_nil_r.
  apply (proj1 encode_sizes) in H; [|assert (2 ^ 58 < 2 ^ 59)%Z by reflexivity; lia]. assert (9 * 2 ^ 58 + 10 < 2 ^ 63)%Z by reflexivity. rewrite !app_length. cbn [length].
  assert (LT : (Z.of_nat (length (encode (to_obj t))) < 2 ^ 63)%Z) by lia. rewrite encode_length_der by auto. apply der_length_bound in LT. lia.
Qed.
Definition block : bytes := [48; 5; 48; 2; 48; 1]%Z.
Fixpoint nest (n : nat) : bytes := match n with 0 => [5; 0]%Z | S n' => block ++ nest n' end.
Fixpoint nest_obj (n : nat) : obj := match n with 0 => Prim [5%Z] 0 [] | S n' => Struc [48%Z] [Struc [48%Z] [Struc [48%Z] [nest_obj n']]; nest_obj n'] end.
Lemma nest_length n : length (nest n) = 6 * n + 2.
Proof. induction n; cbn [nest block app length]; lia. Qed.
Lemma nest_read n : forall f pre, 3 * n < f -> read_object f (pre ++ nest n) (length pre) = Ok (nest_obj n, length pre + (if n =? 0 then 2 else 7)).
Proof.
  induction n as [|n IH]; intros f pre L.
  - assert (T5 : tag_ok false [5%Z]) by (exists 5%Z, []; split; [reflexivity|]; split; [red; lia|]; split; [reflexivity|]; left; split; [cbv; discriminate|reflexivity]).
    destruct f as [|f]; [lia|]. change (nest 0) with ([5%Z] ++ [0%Z] ++ []). rewrite (@head_of _ false pre [5%Z] [0%Z] [] f T5 ltac:(eauto) eq_refl).
    cbn [hd nest nest_obj Nat.eqb]. unfold read_length. cbn [Z.ltb Z.compare Z.eqb rbind Z.to_nat negb andb]. match goal with |- context [?x <? ?y] => destruct (Nat.ltb_spec x y) as [LL|_] end; [rewrite !app_length in LL; cbn [length] in LL; lia|]. unfold slice. cbn [firstn]. do 2 f_equal. rewrite app_length. cbn [length]. lia.
  - destruct f as [|[|[|f]]]; try lia. cbn [nest block app Nat.eqb nest_obj].
    set (ber := pre ++ 48%Z :: 5%Z :: 48%Z :: 2%Z :: 48%Z :: 1%Z :: nest n). pose proof (nest_length n) as LN.
    assert (D : forall g, 3 * n < g -> read_object g ber (length pre + 6) = Ok (nest_obj n, length pre + 6 + (if n =? 0 then 2 else 7))).
    { intros g G. unfold ber. replace (pre ++ 48%Z :: 5%Z :: 48%Z :: 2%Z :: 48%Z :: 1%Z :: nest n) with ((pre ++ block) ++ nest n) by (rewrite <- app_assoc; reflexivity).
      replace (length pre + 6) with (length (pre ++ block)) by (rewrite app_length; reflexivity). apply IH. auto. }
    assert (C : read_object (S f) ber (length pre + 4) = Ok (Struc [48%Z] [nest_obj n], length pre + 7)).
    { pose proof (@read48 f (pre ++ [48; 5; 48; 2]%Z) 1 (nest n) ltac:(lia) ltac:(lia)) as R. cbv zeta in R. rewrite <- app_assoc in R. cbn [app] in R. change (Z.of_nat 1) with 1%Z in R. fold ber in R.
      rewrite app_length in R. cbn [length] in R. rewrite R. assert (LB : length ber = S (length pre + 7 + length (nest n)) - 2) by (unfold ber; rewrite app_length; cbn [length]; lia).
      replace (S (length ber)) with (S (S (length ber - 1))) by (rewrite LB; lia). replace (length pre + 4 + 2) with (length pre + 6) by lia. rewrite (@one_element _ ber _ _ _ (nest_obj n) (length pre + 6 + (if n =? 0 then 2 else 7))); [|lia|apply D; lia|destruct (n =? 0); lia]. cbn [rbind fst]. do 2 f_equal. lia. }
    assert (B : read_object (S (S f)) ber (length pre + 2) = Ok (Struc [48%Z] [Struc [48%Z] [nest_obj n]], length pre + 6)).
    { pose proof (@read48 (S f) (pre ++ [48; 5]%Z) 2 (48%Z :: 1%Z :: nest n) ltac:(lia) ltac:(cbn [length]; lia)) as R. cbv zeta in R. rewrite <- app_assoc in R. cbn [app] in R. change (Z.of_nat 2) with 2%Z in R. fold ber in R.
      rewrite app_length in R. cbn [length] in R. rewrite R. assert (LB : length ber = length pre + 6 + length (nest n)) by (unfold ber; rewrite app_length; cbn [length]; lia).
      replace (S (length ber)) with (S (S (length ber - 1))) by (rewrite LB; lia). replace (length pre + 2 + 2) with (length pre + 4) by lia. erewrite one_element; [| |exact C|]; [|lia|lia]. cbn [rbind fst]. do 2 f_equal. lia. }
    pose proof (@read48 (S (S f)) pre 5 (48%Z :: 2%Z :: 48%Z :: 1%Z :: nest n) ltac:(lia) ltac:(cbn [length]; lia)) as R. cbv zeta in R. change (Z.of_nat 5) with 5%Z in R. fold ber in R.
    rewrite R. assert (LB : length ber = length pre + 6 + length (nest n)) by (unfold ber; rewrite app_length; cbn [length]; lia).
    replace (S (length ber)) with (S (S (S (length ber - 2)))) by (rewrite LB; lia). erewrite two_elements; [| |exact B| |apply D|]; [|lia|lia|lia|destruct (n =? 0); lia]. cbn [rbind fst]. do 2 f_equal. lia.
Qed.
Lemma nest_size n : 2 ^ n <= length (encode (nest_obj n)).
Proof. induction n as [|n IH]; [cbn; lia|]. cbn [nest_obj encode map concat]. rewrite !app_nil_r. rewrite !app_length. cbn [Nat.pow]. lia. Qed.
Lemma exponential n : exists y, ber2der (nest n) = Ok y /\ 2 ^ n <= length y.
Proof.
  exists (encode (nest_obj n)). split; [|apply nest_size]. unfold ber2der. rewrite nest_length. destruct (Nat.eqb_spec (6 * n + 2) 0); [lia|].
  pose proof (@nest_read n (S (6 * n + 2)) [] ltac:(lia)) as R. cbn [app length] in R. rewrite R. reflexivity.
Qed.

(** ** empty contents in the indefinite form *)
Lemma empty_indefinite tag : tag_ok true tag -> ber2der (tag ++ [128; 0; 0]%Z) = Err.
Proof.
  intros Ht. unfold ber2der. rewrite app_length. destruct (Nat.eqb_spec (length tag + length [128; 0; 0]%Z) 0) as [E|_]; [cbn in E; lia|]. cbn [length].
  pose proof (@head_of (tag ++ [128; 0; 0]%Z) true [] tag [128%Z] [0; 0]%Z (length tag + 3) Ht ltac:(eauto) eq_refl) as R. cbn [length app hd] in R. rewrite R.
  unfold read_length. cbn [Z.ltb Z.compare Pos.compare Pos.compare_cont Z.eqb Pos.eqb rbind negb andb]. rewrite app_length. cbn [length]. destruct (Nat.ltb_spec (length tag + 3) (length tag + 1 + 0)); [lia|].
  rewrite elements_S. rewrite orb_true_r. replace (length tag + 3) with (S (length tag + 2)) by lia.
  assert (T0 : tag_ok false [0%Z]) by (exists 0%Z, []; split; [reflexivity|]; split; [red; lia|]; split; [reflexivity|]; left; split; [cbv; discriminate|reflexivity]).
  assert (H0 : ber_of (TPrim [0%Z] []) [0; 0]%Z) by (apply (@BPrim [0%Z] [] [0%Z]); [auto|constructor|left; split; [cbn; lia|reflexivity]]).
  pose proof (proj1 reads_both _ _ H0 (S (length tag + 2)) (tag ++ [128%Z]) [] ltac:(cbn; lia)) as R0. rewrite app_nil_r, <- app_assoc in R0. rewrite app_length in R0. cbn [app length] in R0. rewrite R0. cbn [rbind].
  unfold is_termination. rewrite app_length. cbn [length]. destruct (Nat.ltb_spec (length tag + 3) (length tag + 1 + 2 + 2)); [reflexivity|lia].
Qed.
