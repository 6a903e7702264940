(** Proofs about LMS: the tree, signatures, encodings of keys and signatures (C83-C85). *)
From Verif Require Import Base WordModel KdfModel KdfProofs LmsModel LmsSpec LmsProofs LmsProofs2.
Set Implicit Arguments. Unset Strict Implicit.
Local Open Scope nat_scope.

Lemma setl_length {A} i (v : A) l : length (setl i v l) = length l.
Proof. revert i. induction l; intros [|i]; cbn [setl length]; auto. Qed.
Lemma nth_setl {A} i j (v d : A) l : i < length l -> nth j (setl i v l) d = if i =? j then v else nth j l d.
Proof.
  revert i j. induction l as [|x l IH]; intros [|i] [|j] L; cbn [length] in L; cbn [setl nth Nat.eqb]; auto; try lia. apply IH. lia.
Qed.
Lemma tget_setl t r x v : (1 <= r <= Z.of_nat (length t))%Z -> (1 <= x)%Z ->
  tget (setl (Z.to_nat (r - 1)) v t) x = if (x =? r)%Z then v else tget t x.
Proof.
  intros B X. unfold tget. rewrite nth_setl by lia.
  destruct (Z.eqb_spec x r), (Nat.eqb_spec (Z.to_nat (r - 1)) (Z.to_nat (x - 1))); auto; try lia.
Qed.
Lemma u32_small z : (0 <= z < 2 ^ 32)%Z -> u32 z = z.
Proof. apply Z.mod_small. Qed.
Lemma fold_seq_inv {A} (f : A -> nat -> A) (I : nat -> A -> Prop) n a :
  (forall i x, i < n -> I i x -> I (S i) (f x i)) -> I 0 a -> I n (fold_left f (seq 0 n) a).
Proof.
  intros St I0. assert (G : forall k, k <= n -> I k (fold_left f (seq 0 k) a)); [|auto].
  induction k; intros L; [exact I0|]. rewrite seq_S, fold_left_app. apply St; [lia|]. apply IHk. lia.
Qed.
Lemma shiftr1 z : Z.shiftr z 1 = (z / 2)%Z.
Proof. rewrite Z.shiftr_div_pow2 by lia. reflexivity. Qed.

Section tree.
  Variables (l : lms_param) (p : ots_param) (id seed : bytes).
  Notation h := (l_h l).
  Notation hz := (Z.of_nat (l_h l)).
  Hypothesis Hh : h <= 31.

  Lemma pow_split k : (0 <= k <= hz)%Z -> (2 ^ k * 2 ^ (hz - k) = 2 ^ hz)%Z.
  Proof. intros B. rewrite <- Z.pow_add_r by lia. f_equal. lia. Qed.
  Lemma pow_h : (1 <= 2 ^ hz <= 2 ^ 31)%Z.
  Proof. split; [pose proof (Z.pow_pos_nonneg 2 hz); lia|apply Z.pow_le_mono_r; lia]. Qed.
  Lemma leaves_eq : u32 (2 ^ hz) = (2 ^ hz)%Z.
  Proof. pose proof pow_h. apply u32_small. lia. Qed.

  Definition nodeR (r : Z) : bytes := node p id seed h (h - Z.to_nat (Z.log2 r)) r.
  Lemma log2_leaf i : (0 <= i < 2 ^ hz)%Z -> Z.log2 (2 ^ hz + i) = hz.
  Proof. intros B. apply Z.log2_unique; [lia|]. rewrite Z.pow_succ_r by lia. lia. Qed.
  Lemma nodeR_leaf i : (0 <= i < 2 ^ hz)%Z ->
    nodeR (2 ^ hz + i) = o_hash p (id ++ be_bytes 4 (2 ^ hz + i) ++ D_LEAF ++ ots_public p id seed i).
  Proof.
    intros B. unfold nodeR. rewrite log2_leaf by auto. rewrite Nat2Z.id, Nat.sub_diag. cbn [node]. do 5 f_equal. lia.
  Qed.
  Lemma nodeR_inner r : (1 <= r < 2 ^ hz)%Z ->
    nodeR r = o_hash p (id ++ be_bytes 4 r ++ D_INTR ++ nodeR (2 * r) ++ nodeR (2 * r + 1)).
  Proof.
    intros B. assert (L : (0 <= Z.log2 r < hz)%Z) by (split; [apply Z.log2_nonneg|apply Z.log2_lt_pow2; lia]).
    unfold nodeR. rewrite Z.log2_succ_double, Z.log2_double by lia.
    replace (h - Z.to_nat (Z.log2 r)) with (S (h - Z.to_nat (Z.succ (Z.log2 r)))) by lia. reflexivity.
  Qed.
  Lemma nodeR_root : nodeR 1 = tree_root p id seed h.
  Proof. unfold nodeR, tree_root. change (Z.log2 1) with 0%Z. rewrite Nat.sub_0_r. reflexivity. Qed.
  Lemma nodeR_len r : ots_wf p -> length (nodeR r) = o_n p.
  Proof. intros (_ & _ & HL & _). unfold nodeR. destruct (h - Z.to_nat (Z.log2 r)); cbn [node]; apply HL. Qed.
  Lemma nodeR_ok r : ots_wf p -> bytes_ok (nodeR r).
  Proof. intros (_ & _ & _ & HB & _). unfold nodeR. destruct (h - Z.to_nat (Z.log2 r)); cbn [node]; apply HB. Qed.

  Definition TInv (i : Z) (t : list bytes) : Prop :=
    Z.of_nat (length t) = (2 ^ (hz + 1) - 1)%Z /\
    forall k m, (0 <= k <= hz)%Z -> (0 <= m < 2 ^ (hz - k))%Z -> ((m + 1) * 2 ^ k <= i)%Z ->
      tget t (2 ^ (hz - k) + m) = nodeR (2 ^ (hz - k) + m).
  Definition MInv (i K : Z) (t : list bytes) : Prop :=
    Z.of_nat (length t) = (2 ^ (hz + 1) - 1)%Z /\
    forall k m, (0 <= k <= hz)%Z -> (0 <= m < 2 ^ (hz - k))%Z ->
      ((m + 1) * 2 ^ k <= i \/ (m + 1) * 2 ^ k = i + 1 /\ k <= K)%Z ->
      tget t (2 ^ (hz - k) + m) = nodeR (2 ^ (hz - k) + m).
  Lemma up_ok fuel i : (0 <= i < 2 ^ hz)%Z -> forall K t j, (0 <= K <= hz)%Z -> (0 <= j)%Z -> ((j + 1) * 2 ^ K = i + 1)%Z ->
    MInv i K t -> (hz - K < Z.of_nat fuel)%Z ->
    exists t' r' j', go_while fuel (fun '(_, _, j) => j mod 2 =? 1)%Z (tree_up p id) (t, (2 ^ (hz - K) + j)%Z, j) = Some (t', r', j') /\ TInv (i + 1) t'.
  Proof.
    intros Bi. induction fuel as [|f IH]; intros K t j BK Bj EJ M Fu; [lia|]. cbn [go_while].
    pose proof (pow_split BK) as PS. pose proof (Z.pow_pos_nonneg 2 K ltac:(lia) ltac:(lia)) as PK.
    assert (JP : (j < 2 ^ (hz - K))%Z) by (clear - PS PK EJ Bi; nia).
    destruct (Z.eqb_spec (j mod 2) 1) as [Od|Ev].
    - assert (K1 : (K + 1 <= hz)%Z).
      { destruct (Z.eq_dec K hz) as [->|]; [|lia]. rewrite Z.sub_diag in JP. change (2 ^ 0)%Z with 1%Z in JP.
        assert (j = 0%Z) by lia. subst j. discriminate Od. }
      set (j' := (j / 2)%Z). assert (Ej : (j = 2 * j' + 1)%Z) by (unfold j'; rewrite (Z.div_mod j 2) at 1 by lia; lia).
      assert (EP : (2 ^ (hz - K) = 2 * 2 ^ (hz - (K + 1)))%Z) by (rewrite <- Z.pow_succ_r by lia; f_equal; lia).
      assert (EK : (2 ^ (K + 1) = 2 * 2 ^ K)%Z) by (rewrite <- Z.pow_succ_r by lia; reflexivity).
      set (P' := (2 ^ (hz - (K + 1)))%Z) in *.
      assert (PP : (1 <= P' /\ 2 * P' <= 2 ^ hz)%Z).
      { split; [unfold P'; pose proof (Z.pow_pos_nonneg 2 (hz - (K + 1))); lia|]. rewrite <- EP. clear - PS PK JP Bj. nia. }
      pose proof pow_h as PH. unfold tree_up at 1. rewrite EP.
      rewrite (@u32_small (2 * P' + j - 1)) by lia. rewrite (@u32_small (j - 1)) by lia. rewrite !shiftr1.
      replace ((2 * P' + j - 1) / 2)%Z with (P' + j')%Z by (rewrite Ej; replace (2 * P' + (2 * j' + 1) - 1)%Z with ((P' + j') * 2)%Z by ring; rewrite Z.div_mul; lia).
      replace ((j - 1) / 2)%Z with j' by (rewrite Ej; replace (2 * j' + 1 - 1)%Z with (j' * 2)%Z by ring; rewrite Z.div_mul; lia).
      destruct M as [Lt M]. rewrite Z.pow_add_r in Lt by lia. change (2 ^ 1)%Z with 2%Z in Lt.
      assert (C0 : tget t (2 * (P' + j')) = nodeR (2 * (P' + j'))).
      { replace (2 * (P' + j'))%Z with (2 ^ (hz - K) + 2 * j')%Z by lia. apply M; [lia|lia|]. left. clear - EJ Ej PK. nia. }
      assert (C1 : tget t (2 * (P' + j') + 1) = nodeR (2 * (P' + j') + 1)).
      { replace (2 * (P' + j') + 1)%Z with (2 ^ (hz - K) + j)%Z by lia. apply M; [lia|lia|]. right. split; [exact EJ|lia]. }
      rewrite C0, C1, <- nodeR_inner by lia.
      refine (IH (K + 1)%Z _ j' ltac:(lia) ltac:(lia) _ _ ltac:(lia)).
      + rewrite EK. clear - EJ Ej. nia.
      + split; [rewrite setl_length, Lt, Z.pow_add_r by lia; reflexivity|]. intros k m Bk Bm Hm.
        pose proof (Z.pow_pos_nonneg 2 (hz - k) ltac:(lia) ltac:(lia)) as Pk.
        rewrite tget_setl by lia. destruct (Z.eqb_spec (2 ^ (hz - k) + m) (P' + j')) as [Q|Q]; [rewrite Q; reflexivity|].
        apply M; auto. destruct Hm as [Hm|[Hm Hk]]; [left; exact Hm|]. right. split; auto.
        destruct (Z.eq_dec k (K + 1)) as [->|]; [|lia]. exfalso. apply Q. fold P'. f_equal.
        rewrite EK in Hm. clear - Hm EJ Ej PK. nia.
    - exists t, (2 ^ (hz - K) + j)%Z, j. split; [reflexivity|]. destruct M as [Lt M]. split; auto. intros k m Bk Bm Hm. apply M; auto.
      destruct (Z.eq_dec ((m + 1) * 2 ^ k) (i + 1)) as [Q|Q]; [|left; lia]. right. split; auto.
      destruct (Z.le_gt_cases k K) as [|G]; auto. exfalso. apply Ev.
      assert (EK : (2 ^ k = 2 ^ (k - K - 1) * 2 * 2 ^ K)%Z).
      { replace k with (k - K - 1 + 1 + K)%Z at 1 by lia. rewrite !Z.pow_add_r by lia. reflexivity. }
      rewrite EK in Q. replace j with (((m + 1) * 2 ^ (k - K - 1) - 1) * 2 + 1)%Z by (clear - Q EJ PK; nia).
      rewrite Z.add_comm, Z.mod_add by lia. reflexivity.
  Qed.
  Lemma leaf_ok i t : (Z.of_nat i < 2 ^ hz)%Z -> TInv (Z.of_nat i) t -> TInv (Z.of_nat (S i)) (tree_leaf l p id seed t i).
  Proof.
    intros Bi [Lt M]. unfold tree_leaf. rewrite leaves_eq. pose proof pow_h as PH. rewrite u32_small by lia.
    rewrite gen_pub. cbn [ok_k]. replace (Z.of_nat i + 2 ^ hz)%Z with (2 ^ hz + Z.of_nat i)%Z by lia. rewrite <- nodeR_leaf by lia.
    replace (2 ^ hz)%Z with (2 ^ (hz - 0))%Z by (f_equal; lia).
    destruct (@up_ok 33 (Z.of_nat i) ltac:(lia) 0%Z (setl (Z.to_nat (2 ^ (hz - 0) + Z.of_nat i - 1)) (nodeR (2 ^ (hz - 0) + Z.of_nat i)) t) (Z.of_nat i))
      as (t' & r' & j' & E & T).
    - lia.
    - lia.
    - change (2 ^ 0)%Z with 1%Z. lia.
    - split; [rewrite setl_length; exact Lt|]. intros k m Bk Bm Hm. rewrite Z.pow_add_r in Lt by lia. change (2 ^ 1)%Z with 2%Z in Lt.
      pose proof (Z.pow_pos_nonneg 2 (hz - k) ltac:(lia) ltac:(lia)) as Pk. rewrite Z.sub_0_r.
      rewrite tget_setl by lia. destruct (Z.eqb_spec (2 ^ (hz - k) + m) (2 ^ hz + Z.of_nat i)) as [Q|Q]; [rewrite Q; reflexivity|].
      apply M; auto. destruct Hm as [Hm|[Hm Hk]]; auto. exfalso. apply Q. assert (k = 0%Z) by lia. subst k. rewrite Z.sub_0_r. f_equal.
      change (2 ^ 0)%Z with 1%Z in Hm. lia.
    - lia.
    - rewrite E. rewrite Nat2Z.inj_succ. exact T.
  Qed.
  Lemma gen_tree_inv : TInv (2 ^ hz) (gen_tree l p id seed).
  Proof.
    unfold gen_tree. rewrite leaves_eq. pose proof pow_h as PH. rewrite <- (Z2Nat.id (2 ^ hz)) at 1 by lia.
    apply (@fold_seq_inv _ (tree_leaf l p id seed) (fun i t => TInv (Z.of_nat i) t)).
    - intros i t Hi. apply leaf_ok. lia.
    - split.
      + rewrite repeat_length. rewrite Nat2Z.inj_add. change (Z.of_nat 1) with 1%Z. assert (2 ^ (hz + 1) = 2 * 2 ^ hz)%Z by (rewrite Z.pow_add_r by lia; change (2 ^ 1)%Z with 2%Z; lia).
        rewrite u32_small by lia. lia.
      + intros k m Bk Bm Hm. exfalso. pose proof (Z.pow_pos_nonneg 2 k ltac:(lia) ltac:(lia)). cbn in Hm. clear - H Hm Bm. nia.
  Qed.
  (** every node of the tree *)
  Lemma gen_tree_node r : (1 <= r < 2 ^ (hz + 1))%Z -> tget (gen_tree l p id seed) r = nodeR r.
  Proof.
    intros B. destruct gen_tree_inv as [_ M]. set (d := Z.log2 r).
    assert (D : (0 <= d <= hz)%Z) by (unfold d; split; [apply Z.log2_nonneg|]; pose proof (proj1 (Z.log2_lt_pow2 r (hz + 1) ltac:(lia))); lia).
    pose proof (Z.log2_spec r ltac:(lia)) as S. fold d in S. rewrite Z.pow_succ_r in S by lia.
    assert (PS := @pow_split (hz - d)%Z ltac:(lia)). replace (hz - (hz - d))%Z with d in PS by lia.
    specialize (M (hz - d)%Z (r - 2 ^ d)%Z ltac:(lia)). replace (hz - (hz - d))%Z with d in M by lia.
    replace (2 ^ d + (r - 2 ^ d))%Z with r in M by lia. apply M; [lia|].
    pose proof (Z.pow_pos_nonneg 2 (hz - d) ltac:(lia) ltac:(lia)). clear - S PS H. nia.
  Qed.
  Lemma gen_root : nth 0 (gen_tree l p id seed) [] = tree_root p id seed h.
  Proof.
    rewrite <- nodeR_root. change (nth 0 (gen_tree l p id seed) []) with (tget (gen_tree l p id seed) 1). apply gen_tree_node.
    split; [lia|]. pose proof (Z.pow_le_mono_r 2 1 (hz + 1)). lia.
  Qed.

  (** * Climbing from a leaf *)
  Definition path_of (r : Z) : list bytes := map (fun i => tget (gen_tree l p id seed) (Z.lxor (Z.shiftr r (Z.of_nat i)) 1)) (seq 0 h).
  Lemma lxor1 r : (0 <= r)%Z -> Z.lxor r 1 = if Z.even r then (r + 1)%Z else (r - 1)%Z.
  Proof. intros B. destruct r as [|[r|r|]|r]; try reflexivity. lia. Qed.
  Lemma even_half v : v = if Z.even v then (2 * (v / 2))%Z else (2 * (v / 2) + 1)%Z.
  Proof. pose proof (Z.div_mod v 2 ltac:(lia)) as D. rewrite Zmod_even in D. destruct (Z.even v); lia. Qed.
  Notation anc q k := ((2 ^ hz + q) / 2 ^ Z.of_nat k)%Z.
  Lemma anc_bound q k : (0 <= q < 2 ^ hz)%Z -> k <= h -> (2 ^ (hz - Z.of_nat k) <= anc q k < 2 * 2 ^ (hz - Z.of_nat k))%Z.
  Proof.
    intros B K. pose proof (@pow_split (Z.of_nat k) ltac:(lia)) as PS. pose proof (Z.pow_pos_nonneg 2 (Z.of_nat k) ltac:(lia) ltac:(lia)).
    split; [apply Z.div_le_lower_bound; lia|]. apply Z.div_lt_upper_bound; [lia|]. nia.
  Qed.
  Lemma anc_S q k : anc q (S k) = (anc q k / 2)%Z.
  Proof. rewrite Nat2Z.inj_succ, Z.pow_succ_r by lia. rewrite Z.div_div by lia. f_equal. lia. Qed.
  Lemma anc_0 q : anc q 0 = (2 ^ hz + q)%Z.
  Proof. change (2 ^ Z.of_nat 0)%Z with 1%Z. apply Z.div_1_r. Qed.
  Lemma nodeR_level k v : k <= h -> (2 ^ (hz - Z.of_nat k) <= v < 2 * 2 ^ (hz - Z.of_nat k))%Z -> nodeR v = node p id seed h k v.
  Proof.
    intros K B. unfold nodeR. rewrite (@Z.log2_unique v (hz - Z.of_nat k)); [f_equal; lia|lia|]. rewrite Z.pow_succ_r by lia. exact B.
  Qed.
  Lemma node_hash k v : node p id seed h k v = o_hash p (node_input p id seed h k v).
  Proof. destruct k; reflexivity. Qed.
  Lemma sib_bound q k : (0 <= q < 2 ^ hz)%Z -> k < h ->
    (2 ^ (hz - Z.of_nat k) <= (if Z.even (anc q k) then anc q k + 1 else anc q k - 1) < 2 * 2 ^ (hz - Z.of_nat k))%Z.
  Proof.
    intros B K. pose proof (@anc_bound q k B ltac:(lia)) as A. pose proof (even_half (anc q k)) as E.
    assert (P2 : (2 ^ (hz - Z.of_nat k) = 2 * 2 ^ (hz - Z.of_nat k - 1))%Z) by (rewrite <- Z.pow_succ_r by lia; f_equal; lia).
    destruct (Z.even (anc q k)); lia.
  Qed.
  Lemma path_sibling q : (0 <= q < 2 ^ hz)%Z -> path_of (2 ^ hz + q) = map (sibling p id seed h q) (seq 0 h).
  Proof.
    intros B. apply map_ext_in. intros k Hk. apply in_seq in Hk. rewrite Z.shiftr_div_pow2 by lia.
    pose proof (@anc_bound q k B ltac:(lia)) as A. pose proof (@sib_bound q k B ltac:(lia)) as S.
    pose proof (Z.pow_pos_nonneg 2 (hz - Z.of_nat k) ltac:(lia) ltac:(lia)) as P.
    pose proof (Z.pow_le_mono_r 2 (hz - Z.of_nat k) hz ltac:(lia) ltac:(lia)) as Q.
    rewrite lxor1 by lia. rewrite gen_tree_node by (rewrite Z.pow_add_r by lia; change (2 ^ 1)%Z with 2%Z; lia).
    unfold sibling. apply nodeR_level; [lia|exact S].
  Qed.
  Lemma climb_inputs q kc path k : (0 <= q < 2 ^ hz)%Z -> k <= h -> k <= length path ->
    fold_left (lms_climb p id) (firstn k path) ((2 ^ hz + q)%Z, o_hash p (up_input p id h q kc path 0)) =
      (anc q k, o_hash p (up_input p id h q kc path k)).
  Proof.
    intros B. induction k; intros K L; [cbn [firstn fold_left]; rewrite anc_0; reflexivity|].
    assert (E : firstn (S k) path = firstn k path ++ [nth k path []]).
    { clear - L. revert path L. induction k; intros [|x path] L; cbn [length] in L; try lia; [reflexivity|]. cbn [firstn app nth]. f_equal. apply (IHk path). lia. }
    rewrite E, fold_left_app, IHk by lia. cbn [fold_left lms_climb]. rewrite shiftr1, <- anc_S. f_equal. f_equal. cbn [up_input].
    rewrite Zmod_even. destruct (Z.even (anc q k)); cbn [Z.eqb Pos.eqb]; rewrite <- !app_assoc; reflexivity.
  Qed.
  Lemma up_genuine q k : (0 <= q < 2 ^ hz)%Z -> k <= h ->
    up_input p id h q (ots_public p id seed q) (map (sibling p id seed h q) (seq 0 h)) k = node_input p id seed h k (anc q k).
  Proof.
    intros B. induction k; intros K.
    - cbn [up_input node_input]. rewrite anc_0. do 4 f_equal. lia.
    - cbn [up_input node_input]. rewrite IHk by lia. rewrite <- node_hash, nth_map_seq by lia. unfold sibling.
      rewrite anc_S. pose proof (even_half (anc q k)) as E. destruct (Z.even (anc q k)); rewrite E at 2 3; do 4 f_equal; try (f_equal; lia).
  Qed.
  Lemma climb_genuine q : (0 <= q < 2 ^ hz)%Z ->
    fold_left (lms_climb p id) (map (sibling p id seed h q) (seq 0 h))
      ((2 ^ hz + q)%Z, o_hash p (id ++ be_bytes 4 (2 ^ hz + q) ++ D_LEAF ++ ots_public p id seed q)) = (1%Z, tree_root p id seed h).
  Proof.
    intros B. pose proof (@climb_inputs q (ots_public p id seed q) (map (sibling p id seed h q) (seq 0 h)) h B (Nat.le_refl _)) as C.
    rewrite map_length, seq_length, firstn_all2 in C by (rewrite map_length, seq_length; lia). specialize (C (Nat.le_refl _)).
    rewrite (@up_genuine q h B (Nat.le_refl _)) in C. cbn [up_input] in C. rewrite anc_0 in C. change D_LEAF with [130; 130]%Z. rewrite C.
    rewrite <- node_hash. pose proof (@anc_bound q h B ltac:(lia)) as A. rewrite Z.sub_diag in A. change (2 ^ 0)%Z with 1%Z in A.
    assert (X : anc q h = 1%Z) by lia. rewrite X. reflexivity.
  Qed.
  Lemma app_inj_len {A} (a b c d : list A) : length a = length c -> a ++ b = c ++ d -> a = c /\ b = d.
  Proof.
    revert c. induction a as [|x a IH]; intros [|y c] L E; cbn in L; try lia; auto. cbn in E. injection E as -> E.
    destruct (IH c ltac:(lia) E) as [-> ->]. auto.
  Qed.
  Lemma app_inj_len_r {A} (a b c d : list A) : length b = length d -> a ++ b = c ++ d -> a = c /\ b = d.
  Proof. intros L E. apply app_inj_len; auto. apply (f_equal (@length A)) in E. rewrite !app_length in E. lia. Qed.
  (** An accepted path either is the real one or shows two inputs with one hash. *)
  Lemma binding q kc path k : ots_wf p -> (0 <= q < 2 ^ hz)%Z -> k <= h ->
    o_hash p (up_input p id h q kc path k) = node p id seed h k (anc q k) ->
    (kc = ots_public p id seed q /\ forall j, j < k -> nth j path [] = sibling p id seed h q j) \/
    exists j, j <= k /\ up_input p id h q kc path j <> node_input p id seed h j (anc q j) /\
      o_hash p (up_input p id h q kc path j) = o_hash p (node_input p id seed h j (anc q j)).
  Proof.
    intros WF B. pose proof WF as (_ & _ & HL & _). induction k; intros K E.
    - destruct (list_eq_dec Z.eq_dec (up_input p id h q kc path 0) (node_input p id seed h 0 (anc q 0))) as [Q|Q].
      + left. split; [|lia]. cbn [up_input node_input] in Q. rewrite anc_0 in Q.
        repeat (apply app_inj_len in Q as [_ Q]; [|reflexivity]). rewrite Q. f_equal. lia.
      + right. exists 0. split; [lia|]. split; [exact Q|]. rewrite <- node_hash. exact E.
    - destruct (list_eq_dec Z.eq_dec (up_input p id h q kc path (S k)) (node_input p id seed h (S k) (anc q (S k)))) as [Q|Q].
      + cbn [up_input node_input] in Q. rewrite anc_S in Q. repeat (apply app_inj_len in Q as [_ Q]; [|reflexivity]).
        assert (NL : forall v, length (node p id seed h k v) = o_n p) by (intros v; rewrite node_hash; apply HL).
        pose proof (even_half (anc q k)) as Ev. unfold sibling.
        assert (G : o_hash p (up_input p id h q kc path k) = node p id seed h k (anc q k) /\ nth k path [] = sibling p id seed h q k).
        { unfold sibling. destruct (Z.even (anc q k)).
          - apply app_inj_len in Q as [Q1 Q2]; [|rewrite HL, NL; reflexivity]. rewrite <- Ev in Q1. split; auto. rewrite Q2. f_equal. lia.
          - apply app_inj_len_r in Q as [Q1 Q2]; [|rewrite HL, NL; reflexivity]. rewrite <- Ev in Q2. split; auto. rewrite Q1. f_equal. lia. }
        destruct G as [G1 G2]. destruct (IHk ltac:(lia) G1) as [[I1 I2]|(j & J1 & J2 & J3)].
        * left. split; auto. intros j Hj. destruct (Nat.eq_dec j k) as [->|]; [exact G2|apply I2; lia].
        * right. exists j. split; [lia|auto].
      + right. exists (S k). split; [lia|]. split; [exact Q|]. rewrite <- node_hash. exact E.
  Qed.
End tree.
