(** Proofs for HCTR. *)
From Verif Require Import Base BlockModeModel ToolBytesProofs CcmSpec CcmProofs StreamProofs MacProofs Gf2Spec Gf2Proofs CipherLaws Ocb3Proofs MgmProofs HctrSpec HctrModel.
Set Implicit Arguments. Unset Strict Implicit.
Local Open Scope Z_scope.

(** ** Reflected bits *)
Lemma rev_bound k : forall v, 0 <= rev_bits k v < 2 ^ Z.of_nat k.
Proof.
  induction k as [|k IH]; intro v; [cbn; lia|]. cbn [rev_bits]. specialize (IH (v / 2)).
  rewrite Nat2Z.inj_succ, Z.pow_succ_r by lia. pose proof (Z.mod_pos_bound v 2). nia.
Qed.
Lemma rev_testbit k : forall v i, 0 <= i ->
  Z.testbit (rev_bits k v) i = ((i <? Z.of_nat k) && Z.testbit v (Z.of_nat k - 1 - i))%bool.
Proof.
  induction k as [|k IH]; intros v i Hi.
  - cbn [rev_bits]. rewrite Z.bits_0. destruct (Z.ltb_spec i (Z.of_nat 0)); [cbn in *; lia|reflexivity].
  - cbn [rev_bits]. pose proof (rev_bound k (v / 2)) as B. rewrite <- lxor_disj by lia. rewrite Z.lxor_spec, IH by auto.
    rewrite <- Z.shiftl_mul_pow2, Z.shiftl_spec by lia.
    change (v / 2) with (v / 2 ^ 1). rewrite <- Z.shiftr_div_pow2 by lia.
    destruct (Z.ltb_spec i (Z.of_nat k)), (Z.ltb_spec i (Z.of_nat (S k))); try lia; cbn [andb].
    + rewrite Z.testbit_neg_r by lia. rewrite xorb_false_l, Z.shiftr_spec by lia. f_equal. lia.
    + replace (i - Z.of_nat k) with 0 by lia. replace (Z.of_nat (S k) - 1 - i) with 0 by lia.
      rewrite xorb_false_r. rewrite Zmod_odd, (Z.bit0_odd v). destruct (Z.odd v); reflexivity.
    + rewrite xorb_false_r. destruct (Z.mod_pos_bound v 2 ltac:(lia)).
      apply bits_lt_pow2 with (d := 1); lia.
Qed.
Lemma rev_lxor k a b : rev_bits k (Z.lxor a b) = Z.lxor (rev_bits k a) (rev_bits k b).
Proof.
  apply Z.bits_inj'. intros i Hi. rewrite Z.lxor_spec, !rev_testbit, Z.lxor_spec by auto.
  destruct (i <? Z.of_nat k); reflexivity.
Qed.
Lemma rev_rev k v : 0 <= v < 2 ^ Z.of_nat k -> rev_bits k (rev_bits k v) = v.
Proof.
  intro Hv. apply Z.bits_inj'. intros i Hi. rewrite rev_testbit by auto.
  destruct (Z.ltb_spec i (Z.of_nat k)) as [H|H]; cbn [andb].
  - rewrite rev_testbit by lia. destruct (Z.ltb_spec (Z.of_nat k - 1 - i) (Z.of_nat k)); [|lia]. cbn [andb]. f_equal. lia.
  - symmetry. apply bits_lt_pow2 with (d := Z.of_nat k); lia.
Qed.

(** ** Multiplication by x in the reflected representation *)
Definition mulx (z : Z) : Z := Z.lxor (z / 2) (if Z.odd z then Z.shiftl 0xe1 120 else 0).
Lemma mulx_lxor a b : mulx (Z.lxor a b) = Z.lxor (mulx a) (mulx b).
Proof.
  unfold mulx. rewrite lxor_half, odd_lxor, lxor4. f_equal. destruct (Z.odd a), (Z.odd b); reflexivity.
Qed.
Lemma mulx_even a : mulx (2 * a) = a.
Proof. unfold mulx. rewrite Z.odd_mul. cbn [Z.odd andb]. rewrite Z.lxor_0_r, Z.mul_comm, Z.div_mul by lia. reflexivity. Qed.
Lemma mulx_bound z : 0 <= z < 2 ^ 128 -> 0 <= mulx z < 2 ^ 128.
Proof.
  intro H. unfold mulx. apply lxor_bound; [lia| |].
  - split; [apply Z.div_pos; lia|]. apply Z.div_lt_upper_bound; lia.
  - destruct (Z.odd z); [vm_compute; split; [discriminate|reflexivity]|lia].
Qed.
Lemma rev_mulx z : 0 <= z < 2 ^ 128 -> rev_bits 128 (mulx z) = Z.lxor (2 * rev_bits 128 z) (if Z.odd z then hctr_poly else 0).
Proof.
  intro Hz. unfold mulx. rewrite rev_lxor.
  assert (E : rev_bits 128 (z / 2) = Z.lxor (2 * rev_bits 128 z) (if Z.odd z then 2 ^ 128 else 0)).
  { apply Z.bits_inj'. intros i Hi. rewrite Z.lxor_spec, rev_testbit by auto.
    change (z / 2) with (z / 2 ^ 1). rewrite <- Z.shiftr_div_pow2 by lia.
    rewrite Z.mul_comm. change (rev_bits 128 z * 2) with (rev_bits 128 z * 2 ^ 1). rewrite <- Z.shiftl_mul_pow2, Z.shiftl_spec by lia.
    change (Z.of_nat 128) with 128.
    assert (B : Z.testbit (if Z.odd z then 2 ^ 128 else 0) i = (Z.odd z && (128 =? i))%bool).
    { destruct (Z.odd z); [now rewrite Z.pow2_bits_eqb by lia|now rewrite Z.bits_0]. }
    rewrite B. destruct (Z.eq_dec i 0) as [->|N].
    { rewrite (Z.testbit_neg_r _ (0 - 1)) by lia. cbn [Z.eqb]. rewrite andb_false_r. cbn [xorb].
      change (0 <? 128) with true. cbn [andb]. rewrite Z.shiftr_spec by lia. apply bits_lt_pow2 with (d := 128); lia. }
    rewrite rev_testbit by lia. change (Z.of_nat 128) with 128.
    destruct (Z.ltb_spec i 128), (Z.ltb_spec (i - 1) 128), (Z.eqb_spec 128 i); try lia; cbn [andb].
    - rewrite andb_false_r, xorb_false_r, Z.shiftr_spec by lia. f_equal. lia.
    - rewrite andb_true_r. replace (128 - 1 - (i - 1)) with 0 by lia. rewrite Z.bit0_odd. now destruct (Z.odd z). }
  rewrite E, Z.lxor_assoc. f_equal. destruct (Z.odd z); [|reflexivity]. vm_compute. reflexivity.
Qed.
Lemma rev_mulx_eqp z : 0 <= z < 2 ^ 128 -> eqp hctr_poly (rev_bits 128 (mulx z)) (2 * rev_bits 128 z).
Proof.
  intro Hz. rewrite rev_mulx by auto. rewrite <- (Z.lxor_0_r (2 * rev_bits 128 z)) at 2. apply eqp_lxor; [apply eqp_refl|].
  destruct (Z.odd z); [|apply eqp_refl]. apply (@eqp_P hctr_poly ltac:(vm_compute; discriminate) 0). lia.
Qed.

(** ** Bitwise Horner evaluation *)
Section horner.
  Variable H : Z.
  Hypothesis HH : 0 <= H < 2 ^ 128.
  Definition bstep (z : Z) (b : bool) : Z := Z.lxor (mulx z) (if b then H else 0).
  Fixpoint horner (k : nat) (z w : Z) : Z := match k with O => z | S j => horner j (bstep z (Z.odd w)) (w / 2) end.
  Lemma bstep_bound z b : 0 <= z < 2 ^ 128 -> 0 <= bstep z b < 2 ^ 128.
  Proof. intro Hz. apply lxor_bound; [lia|now apply mulx_bound|]. destruct b; lia. Qed.
  Lemma horner_bound k : forall z w, 0 <= z < 2 ^ 128 -> 0 <= horner k z w < 2 ^ 128.
  Proof. induction k as [|k IH]; intros z w Hz; [exact Hz|]. cbn [horner]. apply IH. now apply bstep_bound. Qed.
  Lemma horner_eqp k : forall z w q, 0 <= z < 2 ^ 128 -> 0 <= q ->
    eqp hctr_poly (rev_bits 128 z) (clmul (rev_bits 128 H) q) ->
    eqp hctr_poly (rev_bits 128 (horner k z w)) (clmul (rev_bits 128 H) (q * 2 ^ Z.of_nat k + rev_bits k w)).
  Proof.
    induction k as [|k IH]; intros z w q Hz Hq E.
    - cbn [horner]. change (rev_bits 0 w) with 0. change (2 ^ Z.of_nat 0) with 1. now rewrite Z.mul_1_r, Z.add_0_r.
    - cbn [horner]. specialize (IH (bstep z (Z.odd w)) (w / 2) (2 * q + w mod 2)).
      pose proof (Z.mod_pos_bound w 2 ltac:(lia)).
      replace (q * 2 ^ Z.of_nat (S k) + rev_bits (S k) w) with ((2 * q + w mod 2) * 2 ^ Z.of_nat k + rev_bits k (w / 2)).
      + apply IH; [now apply bstep_bound|lia|]. unfold bstep. rewrite rev_lxor.
        assert (E2 : 2 * q + w mod 2 = Z.lxor (2 * q) (w mod 2)).
        { symmetry. rewrite (Z.mul_comm 2). change (q * 2) with (q * 2 ^ 1). apply lxor_disj; lia. }
        rewrite E2, clmul_lxor_r, clmul_double_r by lia. apply eqp_lxor.
        * eapply eqp_trans; [now apply rev_mulx_eqp|now apply eqp_double].
        * rewrite Zmod_odd. destruct (Z.odd w); [|apply eqp_refl]. cbn [clmul clp]. apply eqp_refl.
      + cbn [rev_bits]. rewrite Nat2Z.inj_succ, Z.pow_succ_r by lia. ring.
  Qed.
  Lemma horner_prod y : 0 <= y < 2 ^ 128 ->
    horner 128 0 y = rev_bits 128 (gfmul hctr_poly 128 (rev_bits 128 y) (rev_bits 128 H)).
  Proof.
    intro Hy. rewrite <- (@rev_rev 128 (horner 128 0 y)) by (apply horner_bound; lia). f_equal.
    apply gfmul_unique; [reflexivity|reflexivity|apply rev_bound|apply rev_bound|apply rev_bound|].
    pose proof (@horner_eqp 128 0 y 0 ltac:(lia) ltac:(lia)) as E. rewrite Z.mul_0_l, Z.add_0_l in E.
    rewrite clmul_comm by apply rev_bound. apply E.
    change (rev_bits 128 0) with 0. rewrite clmul_0_r. apply eqp_refl.
  Qed.
  Lemma horner4_lin z w : horner 4 z w = Z.lxor (mulx (mulx (mulx (mulx z)))) (horner 4 0 w).
  Proof. cbn [horner]. unfold bstep. rewrite !mulx_lxor, !Z.lxor_assoc. reflexivity. Qed.
  Lemma horner_add j k : forall z w, horner (j + k) z w = horner k (horner j z w) (w / 2 ^ Z.of_nat j).
  Proof.
    induction j as [|j IH]; intros z w; [cbn [plus horner]; change (2 ^ Z.of_nat 0) with 1; now rewrite Z.div_1_r|].
    cbn [plus horner]. rewrite IH. f_equal. rewrite Nat2Z.inj_succ, Z.pow_succ_r by lia. rewrite Z.div_div by lia. reflexivity.
  Qed.
End horner.

(** ** The table-driven multiplication *)
Definition V (x : felem) : Z := fst x * 2 ^ 64 + snd x.
Definition wf (x : felem) : Prop := 0 <= fst x < 2 ^ 64 /\ 0 <= snd x < 2 ^ 64.
Lemma V_bound x : wf x -> 0 <= V x < 2 ^ 128.
Proof. intros [A B]. unfold V. lia. Qed.
Lemma V_inj x y : wf x -> wf y -> V x = V y -> x = y.
Proof. destruct x, y. unfold wf, V. cbn [fst snd]. intros [A B] [C D] E. f_equal; lia. Qed.
Lemma lxor_join a b c d : 0 <= b < 2 ^ 64 -> 0 <= d < 2 ^ 64 ->
  Z.lxor (a * 2 ^ 64 + b) (c * 2 ^ 64 + d) = Z.lxor a c * 2 ^ 64 + Z.lxor b d.
Proof.
  intros B D. rewrite <- !lxor_disj by (auto; try lia; apply lxor_bound; lia).
  rewrite lxor4. f_equal. rewrite <- !Z.shiftl_mul_pow2 by lia. symmetry. apply Z.shiftl_lxor.
Qed.
Lemma hadd_V x y : wf x -> wf y -> V (hadd x y) = Z.lxor (V x) (V y) /\ wf (hadd x y).
Proof.
  intros [A B] [C D]. unfold V, hadd, wf. cbn [fst snd]. split; [symmetry; now apply lxor_join|]. split; apply lxor_bound; lia.
Qed.
Lemma hdouble_V x : wf x -> V (hdouble x) = mulx (V x) /\ wf (hdouble x).
Proof.
  destruct x as [l h]. unfold wf. cbn [fst snd]. intros [A B]. unfold hdouble, V, mulx, w64. cbn [fst snd].
  assert (Eh : Z.lor (Z.shiftr h 1) (Z.shiftl l 63 mod 2 ^ 64) = (l mod 2) * 2 ^ 63 + h / 2).
  { rewrite Z.shiftr_div_pow2, Z.shiftl_mul_pow2 by lia. change (2 ^ 1) with 2.
    replace (l * 2 ^ 63 mod 2 ^ 64) with (l mod 2 * 2 ^ 63) by (change (2 ^ 64) with (2 * 2 ^ 63); now rewrite Z.mul_mod_distr_r by lia).
    rewrite Z.lor_comm. apply lor_disj; lia. }
  rewrite Eh. rewrite Z.shiftr_div_pow2 by lia. change (2 ^ 1) with 2.
  assert (El : Z.land h 1 = if Z.odd h then 1 else 0) by (change 1 with (Z.ones 1) at 1; rewrite Z.land_ones by lia; apply Zmod_odd). rewrite El.
  pose proof (Z.mod_pos_bound l 2 ltac:(lia)).
  assert (E2 : (l * 2 ^ 64 + h) / 2 = l / 2 * 2 ^ 64 + ((l mod 2) * 2 ^ 63 + h / 2)).
  { symmetry. apply Z.div_unique with (r := h mod 2); [left; apply Z.mod_pos_bound; lia|]. pose proof (Z.div_mod l 2). pose proof (Z.div_mod h 2). lia. }
  assert (Eo : Z.odd (l * 2 ^ 64 + h) = Z.odd h) by (rewrite Z.odd_add, Z.odd_mul; cbn; rewrite andb_false_r; now destruct (Z.odd h)).
  rewrite Eo, E2.
  assert (Hh : 0 <= l mod 2 * 2 ^ 63 + h / 2 < 2 ^ 64) by lia.
  destruct (Z.odd h); cbn [Z.eqb Pos.eqb fst snd].
  - change (Z.shiftl 225 120) with (0xe100000000000000 * 2 ^ 64 + 0). rewrite lxor_join, Z.lxor_0_r by lia. split; [reflexivity|].
    split; auto. apply lxor_bound; lia.
  - rewrite Z.lxor_0_r. split; [reflexivity|]. split; auto; lia.
Qed.
Lemma mulx4_tab z : 0 <= z -> mulx (mulx (mulx (mulx z))) = Z.lxor (z / 16) (Z.shiftl (nth (Z.to_nat (z mod 16)) hctr_red 0) 112).
Proof.
  intro Hz. pose proof (Z.mod_pos_bound z 16 ltac:(lia)).
  assert (E : z = Z.lxor (2 * (2 * (2 * (2 * (z / 16))))) (z mod 16)).
  { replace (2 * (2 * (2 * (2 * (z / 16))))) with (z / 16 * 2 ^ 4) by ring. rewrite lxor_disj by lia. pose proof (Z.div_mod z 16). lia. }
  rewrite E at 1. rewrite !mulx_lxor, !mulx_even. f_equal. set (b := z mod 16) in *. clearbody b.
  assert (C : In b [0;1;2;3;4;5;6;7;8;9;10;11;12;13;14;15]) by (cbn [In]; lia).
  cbn [In] in C. repeat (destruct C as [<-|C]; [vm_compute; reflexivity|]). contradiction.
Qed.
(** the table holds H times the polynomial of the reversed index *)
Lemma htable_eq {A} (zero : A) dbl add x (n : nat) : (n < 16)%nat ->
  let bit (k : nat) := Nat.testbit n k in
  let f (z : option A) (b : bool) : option A :=
    match z, b with None, false => None | None, true => Some x | Some z, false => Some (dbl z) | Some z, true => Some (add (dbl z) x) end in
  nth n (htable zero dbl add x) zero = match f (f (f (f None (bit 0%nat)) (bit 1%nat)) (bit 2%nat)) (bit 3%nat) with None => zero | Some z => z end.
Proof.
  intro Hn. do 16 (destruct n as [|n]; [vm_compute; reflexivity|]). lia.
Qed.
Lemma mulx_0 : mulx 0 = 0. Proof. reflexivity. Qed.
Lemma f0_wf : wf f0. Proof. unfold wf, f0. cbn [fst snd]. lia. Qed.
Section table.
  Variable x : felem.
  Hypothesis Hx : wf x.
  Let T := htable f0 hdouble hadd x.
  Lemma htable_V w : 0 <= w -> wf (nth (Z.to_nat (Z.land w 15)) T f0) /\ V (nth (Z.to_nat (Z.land w 15)) T f0) = horner (V x) 4 0 w.
  Proof.
    intro Hw. change 15 with (Z.ones 4). rewrite Z.land_ones by lia. change (2 ^ 4) with 16.
    pose proof (Z.mod_pos_bound w 16 ltac:(lia)) as B. unfold T. rewrite htable_eq by lia. cbn zeta.
    set (f := fun (z : option felem) (b : bool) => match z, b with None, false => None | None, true => Some x | Some z, false => Some (hdouble z) | Some z, true => Some (hadd (hdouble z) x) end).
    set (g := fun o : option felem => match o with None => f0 | Some z => z end).
    assert (S : forall o z b, wf (g o) /\ V (g o) = z -> wf (g (f o b)) /\ V (g (f o b)) = bstep (V x) z b).
    { intros [o|] z b [W E]; destruct b; cbn [f g] in *; unfold bstep; rewrite ?Z.lxor_0_r.
      - destruct (hdouble_V W) as [A1 A2]. destruct (hadd_V A2 Hx) as [A3 A4]. rewrite A3, A1, E. auto.
      - destruct (hdouble_V W) as [A1 A2]. rewrite A1, E. auto.
      - subst z. change (V f0) with 0. rewrite mulx_0, Z.lxor_0_l. auto.
      - subst z. change (V f0) with 0. rewrite mulx_0. auto. }
    assert (Tb : forall k, (k < 4)%nat -> Nat.testbit (Z.to_nat (w mod 16)) k = Z.odd (w / 2 ^ Z.of_nat k)).
    { intros k Hk. transitivity (Z.testbit (w mod 2 ^ 4) (Z.of_nat k)).
      - change (2 ^ 4) with 16. clear - B Hk. set (b := w mod 16) in *. clearbody b.
        assert (C : In b [0;1;2;3;4;5;6;7;8;9;10;11;12;13;14;15]) by (cbn [In]; lia).
        do 4 (destruct k as [|k]; [cbn [In] in C; repeat (destruct C as [<-|C]; [vm_compute; reflexivity|]); contradiction|]). lia.
      - rewrite Z.mod_pow2_bits_low by lia. rewrite Z.testbit_odd, Z.shiftr_div_pow2 by lia. reflexivity. }
    rewrite !Tb by lia. change (2 ^ Z.of_nat 0) with 1. change (2 ^ Z.of_nat 1) with 2. change (2 ^ Z.of_nat 2) with (2 * 2). change (2 ^ Z.of_nat 3) with (2 * 2 * 2).
    rewrite Z.div_1_r. rewrite <- !Z.div_div by lia. cbn [horner].
    pose proof (S None 0 (Z.odd w) (conj f0_wf eq_refl)) as S1. apply (S _ _ (Z.odd (w / 2))) in S1. apply (S _ _ (Z.odd (w / 2 / 2))) in S1.
    apply (S _ _ (Z.odd (w / 2 / 2 / 2))) in S1. exact S1.
  Qed.
  Lemma hmul_step_V z w : wf z -> 0 <= w ->
    exists z', hmul_step T (z, w) = (z', w / 16) /\ wf z' /\ V z' = horner (V x) 4 (V z) w.
  Proof.
    destruct z as [l h]. intros [A B] Hw. cbn [fst snd] in *. unfold hmul_step.
    destruct (htable_V Hw) as [W E]. destruct (nth (Z.to_nat (Z.land w 15)) T f0) as [tl th]. destruct W as [W1 W2]. cbn [fst snd] in *.
    rewrite (Z.shiftr_div_pow2 w) by lia. change (2 ^ 4) with 16. eexists. split; [reflexivity|]. unfold w64.
    change (Z.land h 15) with (Z.land h (Z.ones 4)). rewrite Z.land_ones by lia. change (2 ^ 4) with 16.
    assert (Eh : Z.lor (Z.shiftr h 4) (Z.shiftl l 60 mod 2 ^ 64) = (l mod 16) * 2 ^ 60 + h / 16).
    { rewrite Z.shiftr_div_pow2, Z.shiftl_mul_pow2 by lia. change (2 ^ 4) with 16.
      replace (l * 2 ^ 60 mod 2 ^ 64) with (l mod 16 * 2 ^ 60) by (change (2 ^ 64) with (16 * 2 ^ 60); now rewrite Z.mul_mod_distr_r by lia).
      rewrite Z.lor_comm. apply lor_disj; lia. }
    rewrite Eh. clear Eh. pose proof (Z.mod_pos_bound l 16 ltac:(lia)). pose proof (Z.mod_pos_bound h 16 ltac:(lia)) as Bh.
    set (r := nth (Z.to_nat (h mod 16)) hctr_red 0).
    assert (Hr : 0 <= r < 2 ^ 16).
    { unfold r. clear - Bh. set (b := h mod 16) in *. clearbody b.
      assert (C : In b [0;1;2;3;4;5;6;7;8;9;10;11;12;13;14;15]) by (cbn [In]; lia).
      cbn [In] in C. repeat (destruct C as [<-|C]; [vm_compute; split; [discriminate|reflexivity]|]). contradiction. }
    rewrite (Z.mod_small (Z.shiftl r 48)) by (rewrite Z.shiftl_mul_pow2 by lia; change (2 ^ 64) with (2 ^ 16 * 2 ^ 48); nia).
    assert (Em : (l * 2 ^ 64 + h) mod 16 = h mod 16).
    { replace (l * 2 ^ 64 + h) with (h + l * 2 ^ 60 * 16) by ring. now rewrite Z.mod_add by lia. }
    assert (Ed : (l * 2 ^ 64 + h) / 16 = l / 16 * 2 ^ 64 + (l mod 16 * 2 ^ 60 + h / 16)).
    { symmetry. apply Z.div_unique with (r := h mod 16); [left; lia|]. pose proof (Z.div_mod l 16). pose proof (Z.div_mod h 16). lia. }
    split.
    - split; cbn [fst snd]; apply lxor_bound; try lia. rewrite Z.shiftr_div_pow2 by lia. apply lxor_bound; [lia|change (2 ^ 4) with 16; lia|].
      rewrite Z.shiftl_mul_pow2 by lia. change (2 ^ 64) with (2 ^ 16 * 2 ^ 48). nia.
    - rewrite horner4_lin, mulx4_tab by (unfold V; cbn [fst snd]; lia). rewrite <- E. unfold V. cbn [fst snd]. rewrite Em, Ed. fold r.
      replace (Z.shiftl r 112) with (Z.shiftl r 48 * 2 ^ 64 + 0) by (rewrite !Z.shiftl_mul_pow2 by lia; ring).
      rewrite lxor_join by lia. rewrite Z.lxor_0_r. rewrite lxor_join by lia.
      rewrite (Z.shiftr_div_pow2 l) by lia. reflexivity.
  Qed.
  Lemma hmul_iter k : forall z w, wf z -> 0 <= w ->
    exists z' w', Nat.iter k (hmul_step T) (z, w) = (z', w') /\ w' = w / 2 ^ Z.of_nat (4 * k) /\ 0 <= w' /\ wf z' /\ V z' = horner (V x) (4 * k) (V z) w.
  Proof.
    induction k as [|k IH]; intros z w Wz Hw.
    - exists z, w. cbn. rewrite Z.div_1_r. auto.
    - destruct (IH z w Wz Hw) as (z1 & w1 & E1 & E2 & E3 & E4 & E5). change (Nat.iter (S k) (hmul_step T) (z, w)) with (hmul_step T (Nat.iter k (hmul_step T) (z, w))).
      rewrite E1. destruct (hmul_step_V E4 E3) as (z2 & F1 & F2 & F3). rewrite F1. exists z2, (w1 / 16).
      split; [reflexivity|]. split; [|split; [apply Z.div_pos; lia|split; [exact F2|]]].
      + rewrite E2. rewrite Z.div_div by lia. f_equal. replace (Z.of_nat (4 * S k)) with (Z.of_nat (4 * k) + 4) by lia.
        rewrite Z.pow_add_r by lia. reflexivity.
      + replace (4 * S k)%nat with (4 * k + 4)%nat by lia. rewrite horner_add, <- E5, <- E2. exact F3.
  Qed.
  Lemma hmul_V y : wf y -> wf (hmul T y) /\ V (hmul T y) = rev_bits 128 (gfmul hctr_poly 128 (rev_bits 128 (V y)) (rev_bits 128 (V x))).
  Proof.
    intros [A B]. unfold hmul. destruct (@hmul_iter 16 f0 (snd y) f0_wf ltac:(lia)) as (z1 & w1 & E1 & _ & _ & E4 & E5). rewrite E1.
    destruct (@hmul_iter 16 z1 (fst y) E4 ltac:(lia)) as (z2 & w2 & F1 & _ & _ & F4 & F5). rewrite F1. cbn [fst]. split; auto.
    rewrite <- (horner_prod (V_bound Hx)) by (apply V_bound; split; auto). rewrite F5, E5. change (V f0) with 0.
    change (4 * 16)%nat with 64%nat. change 128%nat with (64 + 64)%nat. rewrite horner_add. change (2 ^ Z.of_nat 64) with (2 ^ 64).
    unfold V. replace ((fst y * 2 ^ 64 + snd y) / 2 ^ 64) with (fst y) by (apply Z.div_unique with (r := snd y); [left; lia|ring]).
    f_equal. assert (G : forall k z w v, horner (V x) k z (w * 2 ^ Z.of_nat k + v) = horner (V x) k z v).
    { clear. induction k as [|k IH]; intros z w v; [reflexivity|]. cbn [horner]. rewrite Nat2Z.inj_succ, Z.pow_succ_r by lia.
      replace (w * (2 * 2 ^ Z.of_nat k) + v) with (v + w * 2 ^ Z.of_nat k * 2) by ring. rewrite Z.div_add by lia.
      rewrite Z.odd_add, Z.odd_mul. rewrite andb_false_r, xorb_false_r. rewrite Z.add_comm. apply IH. }
    symmetry. apply (G 64%nat).
  Qed.
End table.

(** ** The hash *)
Local Open Scope nat_scope.
Definition FE (y : felem) : bytes := be_bytes 8 (fst y) ++ be_bytes 8 (snd y).
Lemma FE_val y : wf y -> FE y = be_bytes 16 (V y).
Proof. intros [A B]. unfold FE, V. rewrite be_bytes_app; [reflexivity|]. change (256 ^ Z.of_nat 8)%Z with (2 ^ 64)%Z. lia. Qed.
Lemma FE_block y : isblock 16 (FE y).
Proof. unfold FE. split; [now rewrite app_length, !be_bytes_length|]. apply bytes_ok_app; split; apply be_bytes_ok. Qed.
Lemma felem_of_V b r : isblock 16 b -> wf (felem_of (b ++ r)) /\ V (felem_of (b ++ r)) = be_val b.
Proof.
  intros [L O]. unfold felem_of. 
  assert (E1 : firstn 8 (b ++ r) = firstn 8 b) by (rewrite firstn_app; replace (8 - length b) with 0 by lia; cbn [firstn]; apply app_nil_r).
  assert (E2 : firstn 8 (skipn 8 (b ++ r)) = skipn 8 b).
  { rewrite skipn_app. apply firstn_app_exact. rewrite skipn_length. lia. }
  rewrite E1, E2. pose proof (be_val_bound (bytes_ok_firstn 8 O)) as B1. pose proof (be_val_bound (bytes_ok_skipn 8 O)) as B2.
  rewrite firstn_length, L in B1. rewrite skipn_length, L in B2. cbn [Nat.min Nat.sub] in B1, B2. change (256 ^ Z.of_nat 8)%Z with (2 ^ 64)%Z in *.
  unfold wf, V. cbn [fst snd]. split; [split; auto|]. rewrite <- (firstn_skipn 8 b) at 3. rewrite be_val_app', skipn_length, L. reflexivity.
Qed.
Lemma fold_cons {A B} (f : A -> B -> A) b bl z : fold_left f (b :: bl) z = fold_left f bl (f z b).
Proof. reflexivity. Qed.
Lemma fold_nil {A B} (f : A -> B -> A) z : fold_left f [] z = z.
Proof. reflexivity. Qed.
Section hash.
  Variables (tweak hkey : bytes).
  Hypothesis Ht : isblock 16 tweak.
  Hypothesis Hk : isblock 16 hkey.
  Variable h : hctr.
  Hypothesis Ew : hc_tweak h = tweak.
  Hypothesis Et : hc_table h = htable f0 hdouble hadd (felem_of hkey).
  Definition Gs (y b : bytes) : bytes := gmul (xorl y b) hkey.
  Lemma hkey_wf : wf (felem_of hkey) /\ V (felem_of hkey) = be_val hkey.
  Proof. pose proof (felem_of_V [] Hk) as H. now rewrite app_nil_r in H. Qed.
  Lemma hmul_FE y : wf y -> wf (hmul (hc_table h) y) /\ FE (hmul (hc_table h) y) = gmul (FE y) hkey.
  Proof.
    intro W. destruct hkey_wf as [Wk Ek]. destruct (hmul_V Wk W) as [A B]. rewrite <- Et in A. split; [exact A|]. rewrite FE_val by exact A.
    unfold gmul. rewrite Et, B, Ek. rewrite FE_val by auto. rewrite be_val_bytes.
    rewrite Z.mod_small; [reflexivity|]. change (256 ^ Z.of_nat 16)%Z with (2 ^ 128)%Z. now apply V_bound.
  Qed.
  Lemma FE_hadd y z : wf y -> wf z -> FE (hadd y z) = xorl (FE y) (FE z).
  Proof. intros A B. destruct (hadd_V A B) as [E W]. rewrite !FE_val by auto. rewrite E. apply be_bytes_lxor. Qed.
  Lemma hupdate_FE b r y : wf y -> isblock 16 b -> wf (hupdate h (b ++ r) y) /\ FE (hupdate h (b ++ r) y) = Gs (FE y) b.
  Proof.
    intros W B. unfold hupdate. destruct (felem_of_V r B) as [W1 E1]. destruct (hadd_V W W1) as [E2 W2].
    destruct (hmul_FE W2) as [W3 E3]. split; [exact W3|]. rewrite E3. unfold Gs. f_equal. rewrite FE_hadd by auto. f_equal.
    rewrite FE_val by auto. rewrite E1. destruct B. now apply be_bytes_val.
  Qed.
  Lemma hblocks_FE : forall bl t fuel y, Forall (isblock 16) bl -> length t < 16 -> length (concat bl ++ t) <= fuel -> wf y ->
    exists y', hblocks h fuel (concat bl ++ t) y = (t, y') /\ wf y' /\ FE y' = fold_left Gs bl (FE y).
  Proof.
    induction bl as [|b bl IH]; intros t fuel y Hb Lt Hf W.
    - exists y. cbn [concat app fold_left]. destruct fuel as [|f]; cbn [hblocks]; [auto|].
      destruct (Nat.leb_spec 16 (length t)); [lia|auto].
    - inversion_clear Hb as [|? ? Hb1 Hb2]. cbn [concat] in *. rewrite <- app_assoc in *. destruct Hb1 as [Lb Ob].
      rewrite app_length in Hf. destruct fuel as [|f]; [lia|]. cbn [hblocks]. rewrite app_length.
      destruct (Nat.leb_spec 16 (length b + length (concat bl ++ t))); [|lia].
      rewrite skipn_app_exact by auto. destruct (@hupdate_FE b (concat bl ++ t) y W (conj Lb Ob)) as [W1 E1].
      destruct (IH t f (hupdate h (b ++ concat bl ++ t) y) Hb2 Lt ltac:(lia) W1) as (y' & A & B & C).
      exists y'. split; [exact A|]. split; [exact B|]. rewrite fold_cons, C, E1. reflexivity.
  Qed.
  (** what the code hashes after the whole blocks, for a tail t *)
  Definition code_tail (t : bytes) : list bytes :=
    match t with
    | [] => [tweak]
    | _ => let k := length t in
           let b1 := t ++ firstn (16 - k) tweak in
           [b1; firstn k (skipn k tweak ++ skipn (16 - k) b1) ++ repeat 0%Z (16 - k)]
    end.
  Lemma lenblock n : (Z.of_nat n < 2 ^ 60)%Z -> (f0 = f0 /\ wf (0%Z, w64 (Z.of_nat (n + 16) * 8)) /\ FE (0%Z, w64 (Z.of_nat (n + 16) * 8)) = be_bytes 16 (8 * Z.of_nat (n + 16))).
  Proof.
    intro Hn. unfold w64. rewrite Z.mod_small by lia. split; auto.
    assert (W : wf (0%Z, (Z.of_nat (n + 16) * 8)%Z)) by (unfold wf; cbn [fst snd]; lia). split; auto. rewrite FE_val by auto. unfold V. cbn [fst snd].
    f_equal. lia.
  Qed.
  Lemma uhash_eq bl t : Forall (isblock 16) bl -> bytes_ok t -> length t < 16 -> (Z.of_nat (length (concat bl ++ t)) < 2 ^ 60)%Z ->
    uhash h (concat bl ++ t) = fold_left Gs (bl ++ code_tail t ++ [be_bytes 16 (8 * Z.of_nat (length (concat bl ++ t) + 16))]) (repeat 0%Z 16).
  Proof.
    intros Hb Ot Lt Hm. unfold uhash. destruct (@hblocks_FE bl t (length (concat bl ++ t)) f0 Hb Lt (le_n _) f0_wf) as (y & E1 & W & E2).
    rewrite E1. rewrite !fold_left_app. change (FE f0) with (repeat 0%Z 16) in E2. rewrite <- E2. clear E2.
    set (m := concat bl ++ t) in *.
    assert (Fin : forall y', wf y' -> FE y' = fold_left Gs (code_tail t) (FE y) ->
      let r := hmul (hc_table h) (fst y', Z.lxor (snd y') (w64 (Z.of_nat (length m + 16) * 8))) in
      be_bytes 8 (fst r) ++ be_bytes 8 (snd r) = fold_left Gs [be_bytes 16 (8 * Z.of_nat (length m + 16))] (fold_left Gs (code_tail t) (FE y))).
    { intros y' W' E'. destruct (lenblock Hm) as (_ & Wl & El).
      assert (Eh : (fst y', Z.lxor (snd y') (w64 (Z.of_nat (length m + 16) * 8))) = hadd y' (0%Z, w64 (Z.of_nat (length m + 16) * 8))).
      { unfold hadd. cbn [fst snd]. now rewrite Z.lxor_0_r. }
      cbn zeta. rewrite Eh. destruct (hadd_V W' Wl) as [_ W2]. destruct (hmul_FE W2) as [_ E3]. unfold FE in E3 at 1. rewrite fold_cons, fold_nil.
      rewrite <- E', <- El. unfold Gs. rewrite <- FE_hadd by auto. exact E3. }
    pose proof Ht as Ht'. destruct Ht as [Lw Ow].
    destruct t as [|a t0].
    - change (0 <? length []) with false. cbv iota. rewrite Ew. destruct (@hupdate_FE tweak [] y W Ht') as [W1 E3]. rewrite app_nil_r in W1, E3.
      apply Fin; [exact W1|]. unfold code_tail. rewrite fold_cons, fold_nil. exact E3.
    - set (t := a :: t0) in *. assert (Lt0 : 0 < length t) by (cbn; lia). destruct (Nat.ltb_spec 0 (length t)); [|lia].
      set (k := length t) in *. rewrite Ew.
      assert (B1 : firstn k (gocopy (repeat 0%Z 16) t) ++ gocopy (skipn k (gocopy (repeat 0%Z 16) t)) tweak = t ++ firstn (16 - k) tweak).
      { rewrite gocopy0 by (fold k; lia). fold k. rewrite firstn_app_exact, skipn_app_exact by auto. f_equal. unfold gocopy.
        rewrite repeat_length, skipn_all2, app_nil_r by (rewrite repeat_length; lia). reflexivity. }
      rewrite B1. set (b1 := t ++ firstn (16 - k) tweak).
      assert (L1 : length b1 = 16) by (unfold b1; rewrite app_length, firstn_length; fold k; lia).
      assert (O1 : bytes_ok b1) by (apply bytes_ok_app; split; auto; now apply bytes_ok_firstn).
      assert (B2 : firstn k (gocopy b1 (skipn k tweak)) ++ repeat 0%Z (16 - k) = firstn k (skipn k tweak ++ skipn (16 - k) b1) ++ repeat 0%Z (16 - k)).
      { f_equal. f_equal. unfold gocopy. rewrite skipn_length, Lw. f_equal. apply firstn_all2. rewrite skipn_length. lia. }
      rewrite B2. set (b2 := firstn k (skipn k tweak ++ skipn (16 - k) b1) ++ repeat 0%Z (16 - k)).
      assert (L2 : length b2 = 16).
      { unfold b2. rewrite app_length, firstn_length, app_length, !skipn_length, repeat_length, L1, Lw. lia. }
      assert (O2 : bytes_ok b2).
      { apply bytes_ok_app. split; [apply bytes_ok_firstn, bytes_ok_app; split; now apply bytes_ok_skipn|apply bytes_ok_repeat; unfold is_byte; lia]. }
      destruct (@hupdate_FE b1 [] y W (conj L1 O1)) as [W1 E3]. rewrite app_nil_r in W1, E3.
      destruct (@hupdate_FE b2 [] _ W1 (conj L2 O2)) as [W2 E4]. rewrite app_nil_r in W2, E4.
      apply Fin; [exact W2|]. change (code_tail t) with [b1; b2]. rewrite !fold_cons, fold_nil, E4, E3. reflexivity.
  Qed.
  Lemma gmul_block a b : isblock 16 (gmul a b).
  Proof. split; [apply be_bytes_length|apply be_bytes_ok]. Qed.
  Lemma uhash_block m : isblock 16 (uhash h m).
  Proof.
    unfold uhash. destruct (hblocks h (length m) m f0) as [msg y].
    match goal with |- isblock 16 (be_bytes 8 (fst ?z) ++ be_bytes 8 (snd ?z)) => apply (FE_block z) end.
  Qed.
  (** for lengths that are 0 or 8 modulo 16 this is the hash of the specification *)
  Lemma uhash_std m : bytes_ok m -> (Z.of_nat (length m) < 2 ^ 60)%Z -> length m mod 16 = 0 \/ length m mod 16 = 8 ->
    uhash h m = uhash_spec hkey tweak m.
  Proof.
    intros Om Lm Hmod.
    assert (Ex : exists bl t, m = concat bl ++ t /\ Forall (isblock 16) bl /\ length t = length m mod 16 /\ bytes_ok t).
    { exists (chunks 16 (firstn (16 * (length m / 16)) m)), (skipn (16 * (length m / 16)) m).
      pose proof (Nat.div_mod (length m) 16 ltac:(lia)) as DM.
      rewrite chunks_concat by lia. rewrite firstn_skipn. split; auto. split; [|split; [rewrite skipn_length; lia|now apply bytes_ok_skipn]].
      assert (A : all_len 16 (chunks 16 (firstn (16 * (length m / 16)) m))).
      { apply chunks_all_len with (k := length m / 16); [lia|rewrite firstn_length; lia]. }
      assert (O : bytes_ok (concat (chunks 16 (firstn (16 * (length m / 16)) m)))) by (rewrite chunks_concat by lia; now apply bytes_ok_firstn).
      apply bytes_ok_concat in O. unfold all_len in A. rewrite Forall_forall in *. intros x Ix. split; auto. }
    destruct Ex as (bl & t & E & Hb & Lt & Ot). pose proof (Nat.mod_upper_bound (length m) 16 ltac:(lia)).
    assert (A : all_len 16 bl) by (unfold all_len; rewrite Forall_forall in *; intros x Ix; now apply Hb).
    rewrite E in Lm |- *. rewrite uhash_eq by (auto; lia). unfold uhash_spec. destruct Ht as [Lw Ow].
    change (fun y b => gmul (xorl y b) hkey) with Gs. f_equal. rewrite app_assoc. f_equal.
    - unfold zpad16. rewrite <- !app_assoc, chunks_concat_app by auto. f_equal.
      assert (Em : length (concat bl ++ t ++ tweak) mod 16 = length t mod 16).
      { rewrite !app_length, (concat_len (n := 16)) by auto. rewrite Lw. replace (16 * length bl + (length t + 16)) with (length t + (length bl + 1) * 16) by lia.
        apply Nat.mod_add. lia. }
      rewrite Em. destruct t as [|a t0].
      + cbn [code_tail length app]. rewrite Nat.mod_0_l, Nat.sub_0_r, Nat.mod_same by lia. cbn [repeat]. rewrite app_nil_r.
        symmetry. rewrite <- (app_nil_r tweak) at 1. rewrite chunks_app_block by (auto; lia). reflexivity.
      + set (t := a :: t0) in *. assert (L8 : length t = 8) by (unfold t in *; cbn [length] in *; lia).
        unfold code_tail. fold t. change (match t with [] => [tweak] | _ :: _ => ?x end) with x. rewrite L8. cbn zeta.
        replace (t ++ tweak ++ repeat 0%Z ((16 - 8 mod 16) mod 16)) with ((t ++ firstn 8 tweak) ++ (skipn 8 tweak ++ repeat 0%Z 8) ++ []).
        * rewrite chunks_app_block by (try lia; rewrite app_length, firstn_length; lia). rewrite chunks_app_block by (try lia; rewrite app_length, skipn_length, repeat_length; lia).
          f_equal. f_equal. change (16 - 8) with 8. f_equal. apply firstn_app_exact. rewrite skipn_length. lia.
        * change ((16 - 8 mod 16) mod 16) with 8. rewrite app_nil_r, <- app_assoc. f_equal. rewrite app_assoc, firstn_skipn. reflexivity.
    - rewrite (app_length (concat bl ++ t) tweak), Lw. reflexivity.
  Qed.
End hash.

(** ** Encryption *)
Section enc.
  Variable h : hctr.
  Let c := hc_cipher h.
  Hypothesis HL : lawful c.
  Hypothesis Hs : bsz c = 16.
  Let F (base : bytes) (i : nat) := enc c (xorl base (be_bytes 16 (Z.of_nat i))).
  Lemma F_block base i : isblock 16 base -> isblock 16 (F base i).
  Proof.
    intros [L O]. unfold F. rewrite <- Hs. apply (law_enc HL). rewrite Hs. split; [rewrite xorl_length, be_bytes_length; lia|].
    apply xorl_ok; auto. apply be_bytes_ok.
  Qed.
  Lemma ctr_eq base : isblock 16 base -> forall fuel i src n, length src <= fuel -> length src <= 16 * n -> (Z.of_nat (i + length src) < 2 ^ 64)%Z ->
    hctr_ctr h fuel (Z.of_nat i) base src = xorl src (concat (map (F base) (seq i n))).
  Proof.
    intro HB. induction fuel as [|fuel IH]; intros i src n Hf Hn Hi.
    - destruct src; [reflexivity|cbn in Hf; lia].
    - cbn [hctr_ctr]. destruct (Nat.ltb_spec 0 (length src)) as [Hp|Hp]; [|destruct src; [reflexivity|cbn in Hp; lia]].
      destruct n as [|n]; [lia|]. cbn [seq map concat].
      assert (En : repeat 0%Z 8 ++ be_bytes 8 (Z.of_nat i) = be_bytes 16 (Z.of_nat i)).
      { change (repeat 0%Z 8) with (be_bytes 8 0). rewrite be_bytes_app by (change (256 ^ Z.of_nat 8)%Z with (2 ^ 64)%Z; lia). reflexivity. }
      rewrite En. fold c. fold (F base i). destruct (F_block i HB) as [LF _].
      rewrite xorl_length, LF.
      destruct (Nat.le_gt_cases (length src) 16) as [Hle|Hgt].
      + rewrite Nat.min_l by lia. rewrite skipn_all2 by lia. 
        assert (Z0 : forall f j, hctr_ctr h f j base [] = []) by (intros [|f] j; reflexivity). rewrite Z0, app_nil_r.
        symmetry. apply xorl_app_r. lia.
      + rewrite Nat.min_r by lia. unfold w64. rewrite Z.mod_small by lia. replace (Z.of_nat i + 1)%Z with (Z.of_nat (S i)) by lia.
        rewrite (IH (S i) (skipn 16 src) n) by (rewrite skipn_length; lia).
        rewrite <- (firstn_skipn 16 src) at 3. rewrite xorl_app by (rewrite firstn_length; lia). f_equal.
        rewrite (xorl_comm src), (xorl_comm (firstn 16 src)). rewrite <- (firstn_skipn 16 src) at 1. apply xorl_app_r. rewrite firstn_length. lia.
  Qed.
  Lemma stream_eq base m : isblock 16 base -> (Z.of_nat (length m) < 2 ^ 60)%Z -> forall fuel, length m <= fuel ->
    hctr_ctr h fuel 1 base m = hctr_stream (enc c) base m.
  Proof. intros HB Hm fuel Hf. apply (ctr_eq HB (i := 1)); lia. Qed.
  Lemma stream_len base m : isblock 16 base -> length (hctr_stream (enc c) base m) = length m.
  Proof.
    intro HB. unfold hctr_stream. rewrite xorl_length.
    assert (L : length (concat (map (F base) (seq 1 (length m)))) = 16 * length m).
    { rewrite (concat_len (n := 16)); [now rewrite map_length, seq_length|]. apply Forall_forall. intros b Hb.
      apply in_map_iff in Hb as (i & <- & _). now apply F_block. }
    unfold F in L. rewrite L. lia.
  Qed.
  Lemma stream_inv base m : isblock 16 base -> hctr_stream (enc c) base (hctr_stream (enc c) base m) = m.
  Proof.
    intro HB. unfold hctr_stream at 1. rewrite stream_len by auto. unfold hctr_stream. apply xorl_cancel_r.
    assert (L : length (concat (map (F base) (seq 1 (length m)))) = 16 * length m).
    { rewrite (concat_len (n := 16)); [now rewrite map_length, seq_length|]. apply Forall_forall. intros b Hb.
      apply in_map_iff in Hb as (i & <- & _). now apply F_block. }
    unfold F in L. rewrite L. lia.
  Qed.
  Lemma stream_ok base m : isblock 16 base -> bytes_ok m -> bytes_ok (hctr_stream (enc c) base m).
  Proof.
    intros HB Hm. unfold hctr_stream. apply xorl_ok; auto. apply bytes_ok_concat. apply Forall_forall. intros b Hb.
    apply in_map_iff in Hb as (i & <- & _). now apply F_block.
  Qed.

  (** the destination is exactly as long as the source *)
  Let U := uhash h.
  Hypothesis HU : forall m, isblock 16 (U m).
  Lemma splice_tail (x d : bytes) : length d = 16 + length x -> splice 16 x d = firstn 16 d ++ x.
  Proof. intro L. unfold splice. rewrite skipn_all2, app_nil_r by lia. reflexivity. Qed.
  Lemma splice_head (x a b : bytes) : length a = length x -> splice 0 x (a ++ b) = x ++ b.
  Proof. intro L. unfold splice. cbn [firstn app plus]. now rewrite skipn_app_exact by auto. Qed.
  Lemma encrypt_eq dst pt : bytes_ok pt -> 16 <= length pt -> (Z.of_nat (length pt) < 2 ^ 60)%Z -> length dst = length pt ->
    hctr_encrypt h dst pt = Ok (hctr_enc_spec (enc c) U pt).
  Proof.
    intros Op L16 Lb Ld. unfold hctr_encrypt. destruct (Nat.ltb_spec (length dst) (length pt)); [lia|]. destruct (Nat.ltb_spec (length pt) 16); [lia|].
    unfold hctr_enc_spec. fold U c. cbv zeta. rewrite (xorl_comm (firstn 16 pt)).
    set (mm := xorl (U (skipn 16 pt)) (firstn 16 pt)). 
    assert (Bm : isblock 16 mm).
    { destruct (HU (skipn 16 pt)) as [A B]. split; [unfold mm; rewrite xorl_length, firstn_length; lia|]. apply xorl_ok; auto. now apply bytes_ok_firstn. }
    assert (Bc : isblock 16 (enc c mm)) by (rewrite <- Hs; apply (law_enc HL); rewrite Hs; exact Bm).
    assert (Bx : isblock 16 (xorl mm (enc c mm))).
    { destruct Bm, Bc. split; [rewrite xorl_length; lia|now apply xorl_ok]. }
    rewrite !(stream_eq Bx) by (rewrite skipn_length; lia). set (c1 := hctr_stream (enc c) (xorl mm (enc c mm)) (skipn 16 pt)).
    assert (L1 : length c1 = length pt - 16) by (unfold c1; rewrite stream_len by auto; apply skipn_length).
    rewrite !splice_tail by lia. rewrite skipn_app_exact by (rewrite firstn_length; lia). f_equal.
    apply splice_head. destruct (HU c1), Bc. rewrite xorl_length, firstn_length. lia.
  Qed.
  Lemma decrypt_eq dst ct : bytes_ok ct -> 16 <= length ct -> (Z.of_nat (length ct) < 2 ^ 60)%Z -> length dst = length ct ->
    hctr_decrypt h dst ct = Ok (hctr_dec_spec (enc c) (dec c) U ct).
  Proof.
    intros Op L16 Lb Ld. unfold hctr_decrypt. destruct (Nat.ltb_spec (length dst) (length ct)); [lia|]. destruct (Nat.ltb_spec (length ct) 16); [lia|].
    unfold hctr_dec_spec. cbv zeta. change (uhash h) with U. change (hc_cipher h) with c. rewrite (xorl_comm (firstn 16 ct)).
    set (cc := xorl (U (skipn 16 ct)) (firstn 16 ct)). 
    assert (Bc : isblock 16 cc).
    { destruct (HU (skipn 16 ct)) as [A B]. split; [unfold cc; rewrite xorl_length, firstn_length; lia|]. apply xorl_ok; auto. now apply bytes_ok_firstn. }
    assert (Bm : isblock 16 (dec c cc)) by (rewrite <- Hs; apply (law_dec HL); rewrite Hs; exact Bc).
    rewrite !(xorl_comm cc (dec c cc)).
    assert (Bx : isblock 16 (xorl (dec c cc) cc)).
    { destruct Bm, Bc. split; [rewrite xorl_length; lia|now apply xorl_ok]. }
    rewrite !(stream_eq Bx) by (rewrite skipn_length; lia). set (p1 := hctr_stream (enc c) (xorl (dec c cc) cc) (skipn 16 ct)).
    assert (L1 : length p1 = length ct - 16) by (unfold p1; rewrite stream_len by auto; apply skipn_length).
    rewrite !splice_tail by lia. rewrite skipn_app_exact by (rewrite firstn_length; lia). f_equal. rewrite (xorl_comm (U p1)).
    apply splice_head. destruct (HU p1), Bm. rewrite xorl_length, firstn_length. lia.
  Qed.
  Lemma enc_props p : bytes_ok p -> 16 <= length p ->
    length (hctr_enc_spec (enc c) U p) = length p /\ bytes_ok (hctr_enc_spec (enc c) U p) /\
    hctr_dec_spec (enc c) (dec c) U (hctr_enc_spec (enc c) U p) = p.
  Proof.
    intros Op L16. unfold hctr_enc_spec. set (mm := xorl (firstn 16 p) (U (skipn 16 p))).
    assert (Bm : isblock 16 mm).
    { destruct (HU (skipn 16 p)) as [A B]. split; [unfold mm; rewrite xorl_length, firstn_length; lia|]. apply xorl_ok; auto. now apply bytes_ok_firstn. }
    assert (Bc : isblock 16 (enc c mm)) by (rewrite <- Hs; apply (law_enc HL); rewrite Hs; exact Bm).
    assert (Bx : isblock 16 (xorl mm (enc c mm))).
    { destruct Bm, Bc. split; [rewrite xorl_length; lia|now apply xorl_ok]. }
    set (c1 := hctr_stream (enc c) (xorl mm (enc c mm)) (skipn 16 p)).
    assert (L1 : length c1 = length p - 16) by (unfold c1; rewrite stream_len by auto; apply skipn_length).
    assert (O1 : bytes_ok c1) by (apply stream_ok; auto; now apply bytes_ok_skipn).
    destruct (HU c1) as [LU OU]. destruct Bc as [Lc Oc].
    assert (LX : length (xorl (enc c mm) (U c1)) = 16) by (rewrite xorl_length; lia).
    split; [rewrite app_length; lia|]. split; [apply bytes_ok_app; split; auto; now apply xorl_ok|].
    unfold hctr_dec_spec. rewrite firstn_app_exact, skipn_app_exact by auto.
    rewrite !(@xorl_cancel_r (enc c mm)) by lia. rewrite !(law_inv HL) by (rewrite Hs; exact Bm).
    unfold c1. rewrite !(stream_inv (skipn 16 p) Bx). unfold mm at 1. destruct (HU (skipn 16 p)) as [LU' _].
    rewrite (@xorl_cancel_r (firstn 16 p)) by (rewrite firstn_length; lia). apply firstn_skipn.
  Qed.
  Lemma dec_props q : bytes_ok q -> 16 <= length q ->
    length (hctr_dec_spec (enc c) (dec c) U q) = length q /\ bytes_ok (hctr_dec_spec (enc c) (dec c) U q) /\
    hctr_enc_spec (enc c) U (hctr_dec_spec (enc c) (dec c) U q) = q.
  Proof.
    intros Op L16. unfold hctr_dec_spec. set (cc := xorl (firstn 16 q) (U (skipn 16 q))).
    assert (Bc : isblock 16 cc).
    { destruct (HU (skipn 16 q)) as [A B]. split; [unfold cc; rewrite xorl_length, firstn_length; lia|]. apply xorl_ok; auto. now apply bytes_ok_firstn. }
    assert (Bm : isblock 16 (dec c cc)) by (rewrite <- Hs; apply (law_dec HL); rewrite Hs; exact Bc).
    assert (Bx : isblock 16 (xorl (dec c cc) cc)).
    { destruct Bm, Bc. split; [rewrite xorl_length; lia|now apply xorl_ok]. }
    set (p1 := hctr_stream (enc c) (xorl (dec c cc) cc) (skipn 16 q)).
    assert (L1 : length p1 = length q - 16) by (unfold p1; rewrite stream_len by auto; apply skipn_length).
    assert (O1 : bytes_ok p1) by (apply stream_ok; auto; now apply bytes_ok_skipn).
    destruct (HU p1) as [LU OU]. destruct Bm as [Lm Om].
    assert (LX : length (xorl (dec c cc) (U p1)) = 16) by (rewrite xorl_length; lia).
    split; [rewrite app_length; lia|]. split; [apply bytes_ok_app; split; auto; now apply xorl_ok|].
    unfold hctr_enc_spec. rewrite firstn_app_exact, skipn_app_exact by auto.
    rewrite !(@xorl_cancel_r (dec c cc)) by lia.
    assert (Es : enc c (dec c cc) = cc) by (apply (lawful_surj HL); rewrite Hs; exact Bc).
    rewrite !Es. unfold p1. rewrite !(stream_inv (skipn 16 q) Bx). unfold cc at 1. destruct (HU (skipn 16 q)) as [LU' _].
    rewrite (@xorl_cancel_r (firstn 16 q)) by (rewrite firstn_length; lia). apply firstn_skipn.
  Qed.
End enc.

(** ** The part of the tweak that the code ignores *)
Lemma hblocks_tab h1 h2 : hc_table h1 = hc_table h2 -> forall fuel m y, hblocks h1 fuel m y = hblocks h2 fuel m y.
Proof.
  intro Et. induction fuel as [|f IH]; intros m y; cbn [hblocks]; auto. unfold hupdate. rewrite Et.
  destruct (16 <=? length m); auto.
Qed.
Lemma hblocks_rest h : forall fuel m y, length m <= fuel -> length (fst (hblocks h fuel m y)) = length m mod 16.
Proof.
  induction fuel as [|f IH]; intros m y Hf; cbn [hblocks].
  - destruct m; [reflexivity|cbn in Hf; lia].
  - destruct (Nat.leb_spec 16 (length m)) as [H|H].
    + rewrite IH by (rewrite skipn_length; lia). rewrite skipn_length.
      replace (length m) with (length m - 16 + 1 * 16) at 2 by lia. now rewrite Nat.mod_add by lia.
    + cbn [fst]. now rewrite Nat.mod_small by lia.
Qed.
Lemma uhash_ignores h1 h2 m : hc_table h1 = hc_table h2 -> length (hc_tweak h1) = 16 -> length (hc_tweak h2) = 16 ->
  let k := length m mod 16 in 0 < k ->
  firstn (16 - k) (hc_tweak h1) = firstn (16 - k) (hc_tweak h2) ->
  firstn k (skipn k (hc_tweak h1)) = firstn k (skipn k (hc_tweak h2)) ->
  uhash h1 m = uhash h2 m.
Proof.
  intros Et L1 L2 k Hk E1 E2. pose proof (Nat.mod_upper_bound (length m) 16 ltac:(lia)) as Hb. fold k in Hb.
  unfold uhash. rewrite (hblocks_tab Et). pose proof (@hblocks_rest h2 (length m) m f0 (le_n _)) as Lr. fold k in Lr.
  destruct (hblocks h2 (length m) m f0) as [msg y]. cbn [fst] in Lr. rewrite Lr. destruct (Nat.ltb_spec 0 k); [|lia].
  rewrite Et.
  assert (B1 : gocopy (skipn k (gocopy (repeat 0%Z 16) msg)) (hc_tweak h1) = gocopy (skipn k (gocopy (repeat 0%Z 16) msg)) (hc_tweak h2)).
  { assert (Ls : length (skipn k (gocopy (repeat 0%Z 16) msg)) = 16 - k).
    { rewrite gocopy0 by lia. rewrite skipn_length, app_length, repeat_length. lia. }
    unfold gocopy at 1 3. rewrite Ls, L1, L2, E1. reflexivity. }
  rewrite B1. set (pb := firstn k _ ++ gocopy _ _).
  assert (Lpb : length pb = 16).
  { unfold pb. rewrite app_length, firstn_length. unfold gocopy at 2. rewrite gocopy0 by lia.
    rewrite !app_length, firstn_length, !skipn_length, !app_length, repeat_length, L2. lia. }
  assert (B2 : firstn k (gocopy pb (skipn k (hc_tweak h1))) = firstn k (gocopy pb (skipn k (hc_tweak h2)))).
  { unfold gocopy. rewrite !skipn_length, Lpb, L1, L2. rewrite !firstn_app. rewrite !firstn_firstn, Nat.min_l by lia.
    rewrite E2. f_equal. rewrite !firstn_length, !skipn_length, L1, L2. reflexivity. }
  rewrite B2. unfold hupdate. rewrite Et. reflexivity.
Qed.
Lemma hctr_ctr_tab h1 h2 : hc_cipher h1 = hc_cipher h2 -> forall fuel i b src, hctr_ctr h1 fuel i b src = hctr_ctr h2 fuel i b src.
Proof. intro Ec. induction fuel as [|f IH]; intros; cbn [hctr_ctr]; auto. rewrite Ec. destruct (0 <? length src); auto. now rewrite IH. Qed.
