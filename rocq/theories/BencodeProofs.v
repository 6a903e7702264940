(** Proofs about the bencode model. *)
From Coq Require Import Decimal DecimalFacts DecimalN DecimalZ Sorting.Sorted Sorting.Permutation.
From Verif Require Import Base BencodeSpec BencodeModel.
Set Implicit Arguments. Unset Strict Implicit.
Local Open Scope nat_scope.

(** ** decimal *)
Lemma digits_acc : forall u p, digits (Zpos p) (uint_bytes u) = Some (Zpos (Pos.of_uint_acc u p)).
Proof.
  induction u; intros p; cbn [uint_bytes digits Pos.of_uint_acc]; [reflexivity|..];
    match goal with |- context [if ?b then _ else _] => change b with true end; cbn [andb];
    rewrite <- IHu; f_equal; lia.
Qed.
Lemma digits_val : forall u, digits 0 (uint_bytes u) = Some (Z.of_N (Pos.of_uint u)).
Proof.
  induction u; cbn [uint_bytes digits Pos.of_uint]; [reflexivity|..];
    match goal with |- context [if ?b then _ else _] => change b with true end; cbn [andb];
    [exact IHu|..]; cbn [Z.mul Z.add Z.sub Z.opp Z.pos_sub Pos.pred_double Z.double Z.succ_double Z.pred_double];
    cbn [Z.of_N]; apply digits_acc.
Qed.
Lemma digits_uint : forall s acc z, digits acc s = Some z -> exists u, s = uint_bytes u.
Proof.
  induction s as [|c s IH]; intros acc z H; [exists Nil; reflexivity|].
  cbn [digits] in H. destruct ((48 <=? c)%Z && (c <=? 57)%Z)%bool eqn:E; [|discriminate].
  apply IH in H. destruct H as [u Hu]. subst s.
  assert (C : (c = 48 \/ c = 49 \/ c = 50 \/ c = 51 \/ c = 52 \/ c = 53 \/ c = 54 \/ c = 55 \/ c = 56 \/ c = 57)%Z) by lia.
  destruct C as [C|[C|[C|[C|[C|[C|[C|[C|[C|C]]]]]]]]]; subst c.
  - exists (D0 u); reflexivity. - exists (D1 u); reflexivity. - exists (D2 u); reflexivity. - exists (D3 u); reflexivity.
  - exists (D4 u); reflexivity. - exists (D5 u); reflexivity. - exists (D6 u); reflexivity. - exists (D7 u); reflexivity.
  - exists (D8 u); reflexivity. - exists (D9 u); reflexivity.
Qed.
Lemma uint_digit : forall u, Forall (fun c => (48 <= c <= 57)%Z) (uint_bytes u).
Proof. induction u; cbn [uint_bytes]; constructor; auto; lia. Qed.
(** a canonical numeral: non-empty, and a leading zero only in "0" *)
Definition canon_u (u : Decimal.uint) : Prop := u = D0 Nil \/ (u <> Nil /\ forall v, u <> D0 v).
Lemma canon_unorm u : canon_u u -> unorm u = u.
Proof. intros [->|[H1 H2]]; [reflexivity|]. destruct u; try reflexivity; [congruence|]. exfalso. eapply H2. reflexivity. Qed.
Lemma nzhead_notD0 : forall u v, nzhead u <> D0 v.
Proof. induction u; cbn [nzhead]; intros v H; try discriminate. eapply IHu; eauto. Qed.
Lemma unorm_canon u : unorm u = u -> canon_u u.
Proof.
  unfold unorm. intros H. destruct (nzhead u) eqn:E; try (right; split; [congruence|intros v C; congruence]).
  - left. rewrite <- H. reflexivity.
  - exfalso. eapply nzhead_notD0; eauto.
Qed.
Lemma decimal_pos u : canon_u u -> decimal (Z.of_N (Pos.of_uint u)) = uint_bytes u.
Proof.
  intros C. unfold decimal. change (Z.of_N (Pos.of_uint u)) with (Z.of_int (Decimal.Pos u)).
  rewrite DecimalZ.to_of. cbn [norm]. rewrite canon_unorm by auto. reflexivity.
Qed.
Lemma decimal_neg u : canon_u u -> u <> D0 Nil -> decimal (- Z.of_N (Pos.of_uint u)) = 45%Z :: uint_bytes u.
Proof.
  intros C N. unfold decimal. change (- Z.of_N (Pos.of_uint u))%Z with (Z.of_int (Decimal.Neg u)).
  rewrite DecimalZ.to_of. cbn [norm]. destruct C as [C|[C1 C2]]; [congruence|].
  destruct u; cbn [nzhead]; try reflexivity; [congruence|]. exfalso. eapply C2. reflexivity.
Qed.
Lemma decimal_form z : (exists u, canon_u u /\ decimal z = uint_bytes u /\ z = Z.of_N (Pos.of_uint u)) \/
                       (exists u, canon_u u /\ u <> D0 Nil /\ decimal z = 45%Z :: uint_bytes u /\ z = (- Z.of_N (Pos.of_uint u))%Z).
Proof.
  pose proof (DecimalZ.of_to z) as E. unfold decimal.
  pose proof (DecimalZ.to_of (Z.to_int z)) as N. rewrite E in N.
  destruct (Z.to_int z) as [u|u].
  - left. exists u. cbn [norm] in N. injection N as N. split; [apply unorm_canon; congruence|]. split; [reflexivity|].
    rewrite <- E. reflexivity.
  - right. exists u. cbn [norm] in N. destruct (nzhead u) eqn:Eu; try discriminate; injection N as N.
    all: try (exfalso; eapply nzhead_notD0; eauto; fail).
    all: split; [right; split; [congruence|intros w; congruence]|]; split; [congruence|]; split; [reflexivity|];
      rewrite <- E; reflexivity.
Qed.
Lemma canon_hd u : canon_u u -> exists c r, uint_bytes u = c :: r /\ (48 <= c <= 57)%Z /\ (r = [] \/ (49 <= c)%Z).
Proof.
  intros [->|[H1 H2]]; [exists 48%Z, []; repeat split; auto; lia|].
  destruct u; [congruence|exfalso; eapply H2; reflexivity|..]; cbn [uint_bytes]; eexists _, _; repeat split; try reflexivity; try lia.
Qed.
Lemma num_complete z : check_int (decimal z) = true /\ parse_int (decimal z) = Some z.
Proof.
  destruct (decimal_form z) as [[u [C [E Z]]]|[u [C [N [E Z]]]]]; rewrite E; destruct (canon_hd C) as [c [r [Eu [R L]]]].
  - split.
    + unfold check_int. rewrite Eu. cbn [length]. destruct (S (length r) <=? 1) eqn:G; [reflexivity|].
      replace (c =? 45)%Z with false by lia. cbn [hd].
      destruct L as [->|L]; [discriminate|]. replace (c <? 49)%Z with false by lia. replace (57 <? c)%Z with false by lia. reflexivity.
    + rewrite Z, <- digits_val. rewrite Eu. cbn [parse_int]. replace (c =? 43)%Z with false by lia. replace (c =? 45)%Z with false by lia. reflexivity.
  - split.
    + unfold check_int. rewrite Eu. cbn [length Nat.leb]. cbn [Z.eqb Pos.eqb hd].
      destruct L as [->|L].
      * assert (c <> 48)%Z.
        { intros ->. destruct u; try discriminate. cbn [uint_bytes] in Eu. injection Eu as Eu. destruct u; try discriminate. congruence. }
        replace (c <? 49)%Z with false by lia. replace (57 <? c)%Z with false by lia. reflexivity.
      * replace (c <? 49)%Z with false by lia. replace (57 <? c)%Z with false by lia. reflexivity.
    + cbn [parse_int Z.eqb Pos.eqb]. rewrite digits_val. rewrite Eu at 1. cbn [option_map]. congruence.
Qed.
Lemma num_sound b z : check_int b = true -> parse_int b = Some z -> b = decimal z.
Proof.
  intros C P. destruct b as [|c r]; [discriminate|]. cbn [parse_int] in P.
  assert (K : forall u, uint_bytes u <> [] -> (forall v, u = D0 v -> v = Nil) -> canon_u u).
  { intros u N D. destruct u; try (right; split; [congruence|intros w; congruence]); [cbn in N; congruence|].
    left. f_equal. apply D. reflexivity. }
  destruct (Z.eqb_spec c 43) as [->|N43].
  { destruct r as [|x r]; [discriminate|]. exfalso. unfold check_int in C. cbn in C. discriminate. }
  destruct (Z.eqb_spec c 45) as [->|N45].
  - destruct r as [|x r]; [discriminate|].
    destruct (digits 0 (x :: r)) as [y|] eqn:D; [|discriminate]. cbn [option_map] in P. injection P as <-.
    destruct (digits_uint D) as [u Hu]. rewrite Hu in D. rewrite digits_val in D. injection D as <-.
    assert (x <> 48)%Z.
    { intros ->. unfold check_int in C. cbn in C. discriminate. }
    rewrite decimal_neg; [congruence| |].
    + apply K; [rewrite <- Hu; discriminate|]. intros v ->. cbn [uint_bytes] in Hu. congruence.
    + intros ->. cbn [uint_bytes] in Hu. congruence.
  - destruct (digits_uint P) as [u Hu]. rewrite Hu in P. rewrite digits_val in P. injection P as <-.
    rewrite decimal_pos; [exact Hu|]. apply K; [rewrite <- Hu; discriminate|].
    intros v ->. cbn [uint_bytes] in Hu. injection Hu as -> ->.
    unfold check_int in C. cbn [length] in C.
    destruct (uint_bytes v) as [|y w] eqn:Ev; [destruct v; try discriminate; reflexivity|].
    cbn in C. discriminate.
Qed.
Lemma decimal_chars z : Forall (fun c => c = 45%Z \/ (48 <= c <= 57)%Z) (decimal z).
Proof.
  destruct (decimal_form z) as [[u [C [-> Z]]]|[u [C [N [-> Z]]]]]; [|constructor; auto];
    eapply Forall_impl; [|apply uint_digit| |apply uint_digit]; cbn; auto.
Qed.
Lemma decimal_nat_hd n : exists c r, decimal (Z.of_nat n) = c :: r /\ is_digit c = true.
Proof.
  destruct (decimal_form (Z.of_nat n)) as [[u [C [E Z]]]|[u [C [N [E Z]]]]].
  - destruct (canon_hd C) as [c [r [Eu [R L]]]]. exists c, r. rewrite E, Eu. split; auto. unfold is_digit. lia.
  - exfalso. assert (Z.of_N (Pos.of_uint u) = 0)%Z by lia.
    assert (F : uint_bytes u = uint_bytes (D0 Nil)).
    { rewrite <- (decimal_pos C), H. reflexivity. }
    destruct (canon_hd C) as [c [r [Eu [R L]]]].
    apply N. cbn [uint_bytes] in F. destruct u; try discriminate. cbn [uint_bytes] in F. injection F as F. destruct u; try discriminate. reflexivity.
Qed.
Lemma decimal_neg_hd b0 b z : is_digit b0 = true -> b0 :: b = decimal z -> (0 <= z)%Z.
Proof.
  intros D E. destruct (decimal_form z) as [[u [C [E' Z]]]|[u [C [N [E' Z]]]]]; [lia|].
  rewrite E' in E. injection E as -> E. discriminate.
Qed.

(** ** read_until *)
Lemma read_until_sound sep : forall s p r, read_until sep s = Some (p, r) -> s = p ++ sep :: r.
Proof.
  induction s as [|b s IH]; intros p r H; [discriminate|]. cbn [read_until] in H.
  destruct (Z.eqb_spec b sep) as [->|N]; [injection H as <- <-; reflexivity|].
  destruct (read_until sep s) as [[p' r']|]; [|discriminate]. injection H as <- <-. cbn [app]. f_equal. apply IH. reflexivity.
Qed.
Lemma read_until_complete sep : forall p r, Forall (fun c => c <> sep) p -> read_until sep (p ++ sep :: r) = Some (p, r).
Proof.
  induction p as [|b p IH]; intros r F; cbn [app read_until].
  - rewrite Z.eqb_refl. reflexivity.
  - inversion F; subst. destruct (Z.eqb_spec b sep); [contradiction|]. rewrite IH by auto. reflexivity.
Qed.
Lemma decimal_until sep z r : (sep = 101 \/ sep = 58)%Z -> read_until sep (decimal z ++ sep :: r) = Some (decimal z, r).
Proof.
  intros S. apply read_until_complete. eapply Forall_impl; [|apply decimal_chars]. cbn. intros a H; lia.
Qed.

(** ** order of keys *)
Lemma bltb_blt : forall a b, bltb a b = true <-> blt a b.
Proof.
  induction a as [|x a IH]; intros [|y b]; cbn [bltb].
  - split; [discriminate|]. intros [p [[c [r [_ E]]]|[u [v [r [s [_ [E _]]]]]]]]; destruct p; discriminate.
  - split; auto. intros _. exists []. left. exists y, b. auto.
  - split; [discriminate|]. intros [p [[c [r [_ E]]]|[u [v [r [s [_ [E _]]]]]]]]; destruct p; discriminate.
  - rewrite orb_true_iff, andb_true_iff, IH, Z.ltb_lt, Z.eqb_eq. split.
    + intros [L|[-> [p [[c [r [E1 E2]]]|[u [v [r [s [E1 [E2 L]]]]]]]]]].
      * exists []. right. exists x, y, a, b. auto.
      * exists (y :: p). left. exists c, r. subst. auto.
      * exists (y :: p). right. exists u, v, r, s. subst. auto.
    + intros [p [[c [r [E1 E2]]]|[u [v [r [s [E1 [E2 L]]]]]]]].
      * destruct p as [|z p]; [discriminate|]. cbn [app] in E2. injection E1 as -> ->. injection E2 as -> ->.
        right. split; auto. exists p. left. exists c, r. auto.
      * destruct p as [|z p]; cbn [app] in *; injection E1 as -> ->; injection E2 as -> ->; auto.
        right. split; auto. exists p. right. exists u, v, r, s. auto.
Qed.
Lemma bltb_irr : forall a, bltb a a = false.
Proof. induction a; cbn [bltb]; auto. rewrite IHa. lia. Qed.
Lemma bltb_trans : forall a b c, bltb a b = true -> bltb b c = true -> bltb a c = true.
Proof.
  induction a as [|x a IH]; intros [|y b] [|z c]; cbn [bltb]; try discriminate; auto.
  rewrite !orb_true_iff, !andb_true_iff, !Z.ltb_lt, !Z.eqb_eq. intros [H1|[-> H1]] [H2|[-> H2]]; try (left; lia).
  right. split; auto. eapply IH; eauto.
Qed.
Lemma bltb_total : forall a b, bltb a b = false -> a = b \/ bltb b a = true.
Proof.
  induction a as [|x a IH]; intros [|y b]; cbn [bltb]; try discriminate; auto.
  rewrite orb_false_iff, andb_false_iff. intros [H1 H2].
  destruct (Z.eqb_spec x y) as [->|N].
  - destruct H2 as [H2|H2]; [discriminate|]. destruct (IH _ H2) as [->|H]; auto. right. rewrite Z.eqb_refl, H. lia.
  - right. apply Z.ltb_ge in H1. replace (y <? x)%Z with true by lia. reflexivity.
Qed.
Lemma blt_trans a b c : blt a b -> blt b c -> blt a c.
Proof. rewrite <- !bltb_blt. apply bltb_trans. Qed.
Lemma blt_irr a : ~ blt a a.
Proof. rewrite <- bltb_blt, bltb_irr. discriminate. Qed.

Lemma sorted_unique {A} : forall (m m' : list (bytes * A)), sorted_keys m -> sorted_keys m' -> Permutation m m' -> m = m'.
Proof.
  induction m as [|x m IH]; intros m' S S' P; [apply Permutation_nil in P; auto|].
  destruct m' as [|y m']; [apply Permutation_sym, Permutation_nil in P; discriminate|].
  inversion S as [|? ? Sm Fm]; inversion S' as [|? ? Sm' Fm']; subst.
  assert (x = y).
  { assert (I1 : In x (y :: m')) by (eapply Permutation_in; [exact P|left; auto]).
    assert (I2 : In y (x :: m)) by (eapply Permutation_in; [apply Permutation_sym; exact P|left; auto]).
    destruct I1 as [?|I1]; auto. destruct I2 as [?|I2]; auto.
    rewrite Forall_forall in Fm, Fm'. exfalso. eapply blt_irr, blt_trans; [apply (Fm _ I2)|apply (Fm' _ I1)]. }
  subst y. f_equal. apply IH; auto. eapply Permutation_cons_inv; eauto.
Qed.
Lemma ins_perm {A} (x : bytes * A) : forall m, Permutation (x :: m) (ins x m).
Proof.
  induction m as [|y m IH]; cbn [ins]; auto. destruct (bltb (fst y) (fst x)); auto.
  eapply perm_trans; [apply perm_swap|]. constructor. exact IH.
Qed.
Lemma sortk_perm {A} : forall m : list (bytes * A), Permutation m (sortk m).
Proof.
  induction m as [|x m IH]; cbn; auto. eapply perm_trans; [|apply ins_perm]. constructor. exact IH.
Qed.
Lemma ins_sorted {A} (x : bytes * A) : forall m, sorted_keys m -> ~ In (fst x) (map fst m) -> sorted_keys (ins x m).
Proof.
  induction m as [|y m IH]; intros S N; cbn [ins]; [constructor; constructor|].
  inversion S as [|? ? Sm Fm]; subst. cbn [map In] in N.
  destruct (bltb (fst y) (fst x)) eqn:L.
  - constructor; [apply IH; auto|]. apply Forall_forall. intros z Iz.
    apply (Permutation_in _ (Permutation_sym (ins_perm x m))) in Iz. destruct Iz as [<-|Iz]; [apply bltb_blt; auto|].
    rewrite Forall_forall in Fm. auto.
  - assert (Lx : bltb (fst x) (fst y) = true) by (destruct (bltb_total L) as [E|E]; auto; exfalso; auto).
    apply bltb_blt in Lx. constructor; auto. constructor; auto.
    eapply Forall_impl; [|exact Fm]. cbn. intros z Hz. eapply blt_trans; eauto.
Qed.
Lemma sortk_sorted {A} : forall m : list (bytes * A), NoDup (map fst m) -> sorted_keys (sortk m).
Proof.
  induction m as [|x m IH]; intros N; cbn; [constructor|]. inversion N; subst. apply ins_sorted; auto.
  intros I. apply H1. eapply Permutation_in; [|exact I]. apply Permutation_sym, Permutation_map, sortk_perm.
Qed.
Lemma sorted_nodup {A} : forall m : list (bytes * A), sorted_keys m -> NoDup (map fst m).
Proof.
  induction m as [|x m IH]; intros S; cbn [map]; [constructor|]. inversion S as [|? ? Sm Fm]; subst.
  constructor; auto. intros I. apply in_map_iff in I. destruct I as [y [E I]]. rewrite Forall_forall in Fm.
  specialize (Fm _ I). rewrite E in Fm. eapply blt_irr; eauto.
Qed.
Lemma sorted_map {A B} (f : A -> B) : forall m : list (bytes * A), sorted_keys m -> sorted_keys (map (fun kv => (fst kv, f (snd kv))) m).
Proof.
  induction m as [|x m IH]; intros S; cbn [map]; [constructor|]. inversion S as [|? ? Sm Fm]; subst.
  constructor; [apply IH; auto|]. rewrite Forall_map. exact Fm.
Qed.

(** ** induction on values *)
Section ind.
Variable P : bval -> Prop.
Hypothesis Hi : forall z, P (BInt z).
Hypothesis Hs : forall s, P (BStr s).
Hypothesis Hl : forall l, Forall P l -> P (BList l).
Hypothesis Hd : forall m, Forall (fun kv => P (snd kv)) m -> P (BDict m).
Fixpoint bval_rect' (v : bval) : P v :=
  match v with
  | BInt z => Hi z
  | BStr s => Hs s
  | BList l => Hl ((fix go l : Forall P l := match l with [] => Forall_nil _ | x :: r => Forall_cons _ (bval_rect' x) (go r) end) l)
  | BDict m => Hd ((fix go m : Forall (fun kv => P (snd kv)) m := match m with [] => Forall_nil _ | x :: r => Forall_cons _ (bval_rect' (snd x)) (go r) end) m)
  end.
End ind.
Lemma all_dicts_list Q l : all_dicts Q (BList l) <-> Forall (all_dicts Q) l.
Proof. cbn [all_dicts]. induction l as [|x l IH]; [split; auto|]. rewrite IH. split; [intros [H1 H2]; constructor; auto|intros H; inversion H; auto]. Qed.
Lemma all_dicts_dict Q m : all_dicts Q (BDict m) <-> Q m /\ Forall (fun kv => all_dicts Q (snd kv)) m.
Proof.
  cbn [all_dicts]. apply and_iff_compat_l. induction m as [|x l IH]; [split; auto|]. rewrite IH.
  split; [intros [H1 H2]; constructor; auto|intros H; inversion H; auto].
Qed.
Lemma short_list n l : short n (BList l) <-> Forall (short n) l.
Proof. cbn [short]. induction l as [|x l IH]; [split; auto|]. rewrite IH. split; [intros [H1 H2]; constructor; auto|intros H; inversion H; auto]. Qed.
Lemma short_dict n m : short n (BDict m) <-> Forall (fun kv => (Z.of_nat (length (fst kv)) <= n)%Z /\ short n (snd kv)) m.
Proof.
  cbn [short]. induction m as [|x l IH]; [split; auto|]. rewrite IH.
  split; [intros [H0 [H1 H2]]; constructor; auto|intros H; inversion H; subst; tauto].
Qed.

(** ** encoder *)
Lemma write_string_eq : forall f s, length s <= f -> write_string f s = s.
Proof.
  induction f as [|f IH]; intros s H; cbn [write_string]; [destruct s; [auto|cbn in H; lia]|].
  destruct s as [|c s]; auto. rewrite IH; [apply firstn_skipn|]. rewrite skipn_length. cbn [length] in *. lia.
Qed.
Lemma enc_string_eq s : enc_string s = be_str s.
Proof. unfold enc_string, be_str. rewrite write_string_eq by lia. reflexivity. Qed.
Definition ekv (kv : bytes * bval) : bytes * bytes := (fst kv, encode (snd kv)).
Lemma encode_dict m : encode (BDict m) = [100%Z] ++ concat (map (fun kb => be_str (fst kb) ++ snd kb) (sortk (map ekv m))) ++ [101%Z].
Proof.
  cbn [encode]. f_equal. f_equal. f_equal.
  replace (map (fun kv : list Z * bval => let '(k, x) := kv in (k, encode x)) m) with (map ekv m)
    by (apply map_ext; intros [k x]; reflexivity).
  apply map_ext. intros a. rewrite enc_string_eq. reflexivity.
Qed.
Lemma combine_fst_snd {A B C} (f : B -> C) : forall m : list (A * B), combine (map fst m) (map f (map snd m)) = map (fun kv => (fst kv, f (snd kv))) m.
Proof. induction m as [|[a b] m IH]; cbn [map combine fst snd]; congruence. Qed.
Lemma sortk_map {A B} (f : A -> B) : forall m : list (bytes * A), sortk (map (fun kv => (fst kv, f (snd kv))) m) = map (fun kv => (fst kv, f (snd kv))) (sortk m).
Proof.
  assert (I : forall x (m : list (bytes * A)), ins (fst x, f (snd x)) (map (fun kv => (fst kv, f (snd kv))) m) = map (fun kv => (fst kv, f (snd kv))) (ins x m)).
  { intros x. induction m as [|y m IH]; cbn [map ins fst snd]; auto. destruct (bltb (fst y) (fst x)); cbn [map fst snd]; congruence. }
  induction m as [|x m IH]; cbn [map sortk fold_right]; auto.
  fold (sortk (map (fun kv => (fst kv, f (snd kv))) m)). fold (sortk m). rewrite IH. apply I.
Qed.
Lemma Forall2_map {A B} (R : A -> B -> Prop) (f : A -> B) l : Forall (fun x => R x (f x)) l -> Forall2 R l (map f l).
Proof. induction 1; cbn [map]; constructor; auto. Qed.
Lemma encode_BE v : distinct v -> BE v (encode v).
Proof.
  unfold distinct. induction v as [z|s|l IH|m IH] using bval_rect'; intros D.
  - apply BE_int.
  - cbn [encode]. rewrite enc_string_eq. apply BE_string.
  - cbn [encode]. apply BE_list. apply Forall2_map. apply all_dicts_list in D.
    rewrite Forall_forall in *. intros x Ix. auto.
  - rewrite encode_dict. apply all_dicts_dict in D. destruct D as [N D].
    unfold ekv at 1. rewrite sortk_map. rewrite <- combine_fst_snd.
    eapply BE_dict; [apply sortk_perm|apply sortk_sorted; auto|].
    apply Forall2_map. rewrite Forall_map. rewrite Forall_forall in *. intros x Ix.
    eapply Permutation_in in Ix; [|apply Permutation_sym, sortk_perm]. auto.
Qed.
Lemma Forall2_fun {A B} (R : A -> B -> Prop) (f : A -> B) l bs : Forall2 R l bs -> (forall x b, In x l -> R x b -> b = f x) -> bs = map f l.
Proof.
  induction 1 as [|x b l bs H F IH]; intros K; cbn [map]; auto. f_equal; [apply K; [left; auto|auto]|apply IH; intros; apply K; [right; auto|auto]].
Qed.
Lemma BE_unique v s : BE v s -> s = encode v.
Proof.
  revert s. induction v as [z|s0|l IH|m IH] using bval_rect'; intros s H; inversion H; subst.
  - reflexivity.
  - cbn [encode]. rewrite enc_string_eq. reflexivity.
  - cbn [encode]. f_equal. f_equal. f_equal. eapply Forall2_fun; eauto. rewrite Forall_forall in IH. auto.
  - rewrite encode_dict. f_equal. f_equal. f_equal. f_equal.
    assert (E : bs = map encode (map snd m')).
    { eapply Forall2_fun; eauto. intros x b Ix R. apply in_map_iff in Ix. destruct Ix as [kv [<- Ix]].
      rewrite Forall_forall in IH. apply IH; auto. eapply Permutation_in; [apply Permutation_sym|]; eauto. }
    rewrite E, combine_fst_snd. unfold ekv. rewrite sortk_map. f_equal.
    apply sorted_unique; auto.
    + apply sortk_sorted. eapply Permutation_NoDup; [apply Permutation_map, Permutation_sym; eauto|]. apply sorted_nodup; auto.
    + eapply perm_trans; [apply Permutation_sym; eauto|apply sortk_perm].
Qed.

(** the value as decoded: every dictionary listed in order *)
Fixpoint canon (v : bval) : bval :=
  match v with
  | BInt z => BInt z
  | BStr s => BStr s
  | BList l => BList (map canon l)
  | BDict m => BDict (sortk (map (fun kv => let '(k, x) := kv in (k, canon x)) m))
  end.
Lemma canon_dict m : canon (BDict m) = BDict (sortk (map (fun kv => (fst kv, canon (snd kv))) m)).
Proof. cbn [canon]. f_equal. f_equal. apply map_ext. intros [k x]. reflexivity. Qed.
Lemma map_fst_map {A B} (f : A -> B) (m : list (bytes * A)) : map fst (map (fun kv => (fst kv, f (snd kv))) m) = map fst m.
Proof. rewrite map_map. apply map_ext. reflexivity. Qed.
Lemma canon_sorted v : distinct v -> sorted (canon v).
Proof.
  unfold distinct, sorted. induction v as [z|s|l IH|m IH] using bval_rect'; intros D; [exact I|exact I|..].
  - cbn [canon]. apply all_dicts_list in D. apply all_dicts_list. rewrite Forall_map. rewrite Forall_forall in *. auto.
  - rewrite canon_dict. apply all_dicts_dict in D. destruct D as [N D]. apply all_dicts_dict. split.
    + apply sortk_sorted. rewrite map_fst_map. exact N.
    + rewrite Forall_forall in *. intros x Ix. eapply Permutation_in in Ix; [|apply Permutation_sym, sortk_perm].
      apply in_map_iff in Ix. destruct Ix as [kv [<- Ix]]. cbn [snd]. auto.
Qed.
Lemma canon_short n v : short n v -> short n (canon v).
Proof.
  induction v as [z|s|l IH|m IH] using bval_rect'; intros D; [exact I|exact D|..].
  - cbn [canon]. apply short_list in D. apply short_list. rewrite Forall_map. rewrite Forall_forall in *. auto.
  - rewrite canon_dict. apply short_dict in D. apply short_dict.
    rewrite Forall_forall in *. intros x Ix. eapply Permutation_in in Ix; [|apply Permutation_sym, sortk_perm].
    apply in_map_iff in Ix. destruct Ix as [kv [<- Ix]]. cbn [fst snd]. split; [apply D; auto|apply IH; auto; apply D; auto].
Qed.
Lemma canon_encode v : encode (canon v) = encode v.
Proof.
  induction v as [z|s|l IH|m IH] using bval_rect'; auto.
  - cbn [canon encode]. rewrite map_map. f_equal. f_equal. f_equal. apply map_ext_in. rewrite Forall_forall in IH. auto.
  - rewrite canon_dict, !encode_dict. f_equal. f_equal. f_equal. f_equal.
    unfold ekv at 1. rewrite sortk_map. unfold ekv. rewrite !sortk_map.
    assert (SS : forall A (k : list (bytes * A)), sortk (sortk k) = sortk k).
    { clear. intros A. assert (W : forall k : list (bytes * A), Sorted (fun x y => bltb (fst y) (fst x) = false) k -> sortk k = k).
      { induction k as [|x k IHk]; intros S; auto. inversion S as [|? ? Sk Hx]; subst. cbn [sortk fold_right]. fold (sortk k). rewrite IHk by auto.
        destruct k as [|y k]; auto. cbn [ins]. inversion Hx; subst. rewrite H0. reflexivity. }
      intros k. apply W. induction k as [|x k IHk]; cbn [sortk fold_right]; [constructor|]. fold (sortk k).
      revert IHk. generalize (sortk k). clear. intros k.
      induction k as [|y k IHk]; intros S; cbn [ins]; [constructor; constructor|].
      inversion S as [|? ? Sk Hy]; subst.
      destruct (bltb (fst y) (fst x)) eqn:L.
      - constructor; [apply IHk; auto|]. destruct k as [|z k]; cbn [ins].
        + constructor. destruct (bltb (fst x) (fst y)) eqn:L2; auto. pose proof (bltb_trans L L2) as Q. rewrite bltb_irr in Q. discriminate.
        + destruct (bltb (fst z) (fst x)); constructor; [inversion Hy; auto|].
          destruct (bltb (fst x) (fst y)) eqn:L2; auto. pose proof (bltb_trans L L2) as Q. rewrite bltb_irr in Q. discriminate.
      - constructor; auto. }
    rewrite SS, map_map. cbn [fst snd].
    apply map_ext_in. intros kv Ikv. f_equal. rewrite Forall_forall in IH. apply IH.
    eapply Permutation_in; [apply Permutation_sym, sortk_perm|exact Ikv].
Qed.

Lemma Forall2_perm_same : forall l, Forall (fun x => same x (canon x)) l -> Forall2 same l (map canon l).
Proof. intros l F. apply Forall2_map. exact F. Qed.
Lemma canon_same v : same v (canon v).
Proof.
  induction v as [z|s|l IH|m IH] using bval_rect'; try constructor.
  - cbn [canon]. apply Forall2_perm_same. exact IH.
  - rewrite canon_dict. rewrite sortk_map. apply same_dict with (p := sortk m).
    + apply sortk_perm.
    + rewrite map_fst_map. reflexivity.
    + rewrite map_map. cbn [snd]. rewrite <- (map_map snd canon). apply Forall2_perm_same. rewrite Forall_map.
      rewrite Forall_forall in *. intros x Ix. apply IH. eapply Permutation_in; [apply Permutation_sym, sortk_perm|exact Ix].
Qed.

(** ** decoder *)
Definition items (m : list (bytes * bval)) (bs : list bytes) : bytes :=
  concat (map (fun kb => be_str (fst kb) ++ snd kb) (combine (map fst m) bs)).
Definition good (v : bval) : Prop := sorted v /\ short max_str v.
Lemma p_string_sound b0 s x r : is_digit b0 = true -> p_string b0 s = Some (x, r) ->
  b0 :: s = be_str x ++ r /\ (Z.of_nat (length x) <= max_str)%Z.
Proof.
  intros D H. unfold p_string in H. destruct (read_until 58 s) as [[b r']|] eqn:U; [|discriminate].
  destruct (check_int (b0 :: b)) eqn:C; [|discriminate]. destruct (parse_int (b0 :: b)) as [n|] eqn:P; [|discriminate].
  destruct (Z.leb_spec n max_str) as [L|L]; [|discriminate].
  destruct (Nat.ltb_spec (length r') (Z.to_nat n)) as [G|G]; [discriminate|]. injection H as <- <-.
  pose proof (num_sound C P) as E. pose proof (decimal_neg_hd D E) as N.
  apply read_until_sound in U. subst s. unfold be_str.
  rewrite firstn_length, Nat.min_l by lia. rewrite Z2Nat.id by lia. rewrite <- E.
  split; [|lia]. cbn [app]. f_equal. rewrite <- app_assoc. f_equal. cbn [app]. f_equal. symmetry. apply firstn_skipn.
Qed.
Lemma p_int_sound s z r : p_int s = Some (z, r) -> s = decimal z ++ 101%Z :: r.
Proof.
  unfold p_int. intros H. destruct (read_until 101 s) as [[b r']|] eqn:U; [|discriminate].
  destruct (check_int b) eqn:C; [|discriminate]. destruct (parse_int b) as [n|] eqn:P; [|discriminate]. injection H as <- <-.
  apply read_until_sound in U. rewrite U. f_equal. apply num_sound; auto.
Qed.
Lemma sound : forall f,
  (forall s, (forall v r, p_value f s = PVal v r -> exists t, s = t ++ r /\ BE v t /\ good v) /\ (forall r, p_value f s = PEnd r -> s = 101%Z :: r)) /\
  (forall s acc v r, p_list f acc s = PVal v r -> exists l bs, v = BList (acc ++ l) /\ s = concat bs ++ 101%Z :: r /\ Forall2 BE l bs /\ Forall good l) /\
  (forall s last acc v r, p_dict f last acc s = PVal v r -> exists m bs, v = BDict (acc ++ m) /\ s = items m bs ++ 101%Z :: r /\
     Forall2 BE (map snd m) bs /\ Forall good (map snd m) /\ Forall (fun kv => (Z.of_nat (length (fst kv)) <= max_str)%Z) m /\
     sorted_keys m /\ (forall lk, last = Some lk -> Forall (fun kv => blt lk (fst kv)) m)).
Proof.
  induction f as [|f [IHv [IHl IHd]]]; [repeat split; discriminate|].
  assert (IHv1 : forall s v r, p_value f s = PVal v r -> exists t, s = t ++ r /\ BE v t /\ good v) by (intros s; apply IHv).
  assert (IHv2 : forall s r, p_value f s = PEnd r -> s = 101%Z :: r) by (intros s; apply IHv).
  clear IHv. split; [|split].
  - intros s. destruct s as [|b s]; [split; discriminate|]. cbn [p_value].
    destruct (Z.eqb_spec b 101) as [->|N1]; [split; intros; congruence|].
    split.
    2:{ intros r. destruct (b =? 100)%Z.
        - intros H. exfalso. revert H. clear. revert s. generalize (@None bytes) as last, (@nil (bytes * bval)) as acc.
          induction f as [|f IH]; intros last acc s; cbn [p_dict]; [discriminate|].
          destruct (p_value f s) as [v' r'| | |]; try discriminate. destruct v'; try discriminate.
          destruct (match last with Some lk => _ | None => _ end); try discriminate.
          destruct (p_value f r') as [v'' r''| | |]; try discriminate. apply IH.
        - destruct (b =? 108)%Z.
          + intros H. exfalso. revert H. clear. revert s. generalize (@nil bval) as acc.
            induction f as [|f IH]; intros acc s; cbn [p_list]; [discriminate|].
            destruct (p_value f s) as [v' r'| | |]; try discriminate. apply IH.
          + destruct (b =? 105)%Z; [destruct (p_int s) as [[? ?]|]; discriminate|].
            destruct (is_digit b); [destruct (p_string b s) as [[? ?]|]; discriminate|discriminate]. }
    intros v r. destruct (Z.eqb_spec b 100) as [->|N2].
    { intros H. apply IHd in H. destruct H as [m [bs [-> [-> [B [G [K [S _]]]]]]]].
      exists ([100%Z] ++ items m bs ++ [101%Z]). split; [cbn [app]; rewrite <- app_assoc; reflexivity|]. cbn [app] in *. split.
      - apply BE_dict; auto.
      - split; [apply all_dicts_dict; split; auto; rewrite Forall_map in G|apply short_dict; rewrite Forall_map in G].
        + eapply Forall_impl; [|exact G]. intros a Ha. apply Ha.
        + rewrite Forall_forall in *. intros x Ix. split; [apply K; auto|apply G; auto]. }
    destruct (Z.eqb_spec b 108) as [->|N3].
    { intros H. apply IHl in H. destruct H as [l [bs [-> [-> [B G]]]]].
      exists ([108%Z] ++ concat bs ++ [101%Z]). split; [cbn [app]; rewrite <- app_assoc; reflexivity|]. cbn [app] in *. split.
      - apply BE_list; auto.
      - split; [apply all_dicts_list|apply short_list]; (eapply Forall_impl; [|exact G]); intros a Ha; apply Ha. }
    destruct (Z.eqb_spec b 105) as [->|N4].
    { destruct (p_int s) as [[z r']|] eqn:P; [|discriminate]. intros H. injection H as <- <-.
      apply p_int_sound in P. exists ([105%Z] ++ decimal z ++ [101%Z]). split; [cbn [app]; rewrite <- app_assoc; cbn [app]; congruence|].
      split; [apply BE_int|split; exact I]. }
    destruct (is_digit b) eqn:D; [|discriminate].
    destruct (p_string b s) as [[x r']|] eqn:P; [|discriminate]. intros H. injection H as <- <-.
    apply p_string_sound in P; auto. destruct P as [E L]. exists (be_str x). split; auto. split; [apply BE_string|split; [exact I|exact L]].
  - intros s acc v r. cbn [p_list]. destruct (p_value f s) as [x r'|r'| |] eqn:P; try discriminate.
    + intros H. apply IHl in H. destruct H as [l [bs [-> [-> [B G]]]]]. apply IHv1 in P. destruct P as [t [-> [Bt Gt]]].
      exists (x :: l), (t :: bs). split; [rewrite <- app_assoc; reflexivity|]. split; [cbn [concat]; rewrite <- app_assoc; reflexivity|].
      split; constructor; auto.
    + intros H. injection H as <- <-. apply IHv2 in P. exists [], []. rewrite app_nil_r. repeat split; auto.
  - intros s last acc v r. cbn [p_dict]. destruct (p_value f s) as [x r'|r'| |] eqn:P; try discriminate.
    + destruct x as [|k| |]; try discriminate.
      destruct (match last with Some lk => negb (bltb lk k) | None => false end) eqn:O; [discriminate|].
      destruct (p_value f r') as [y r''| | |] eqn:P2; try discriminate. intros H. apply IHd in H.
      destruct H as [m [bs [-> [-> [B [G [K [S L]]]]]]]]. apply IHv1 in P, P2.
      destruct P as [t [-> [Bt Gt]]]. destruct P2 as [t2 [-> [Bt2 Gt2]]].
      inversion Bt; subst. destruct Gt as [_ Gt]. cbn [short] in Gt.
      exists ((k, y) :: m), (t2 :: bs). split; [rewrite <- app_assoc; reflexivity|].
      split; [unfold items; cbn [map combine fst snd concat]; rewrite <- !app_assoc; reflexivity|].
      cbn [map snd]. split; [constructor; auto|]. split; [constructor; auto|]. split; [constructor; auto|].
      assert (Lk : Forall (fun kv => blt k (fst kv)) m) by (apply L; reflexivity).
      split; [constructor; auto|].
      intros lk ->. apply negb_false_iff in O. apply bltb_blt in O. constructor; auto.
      eapply Forall_impl; [|exact Lk]. cbn. intros a Ha. eapply blt_trans; eauto.
    + intros H. injection H as <- <-. apply IHv2 in P. exists [], []. rewrite app_nil_r. split; auto. split; auto. split; [constructor|].
      split; [constructor|]. split; [constructor|]. split; [constructor|]. constructor.
Qed.

Lemma p_string_complete x r : (Z.of_nat (length x) <= max_str)%Z ->
  exists b0 s, be_str x ++ r = b0 :: s /\ is_digit b0 = true /\ p_string b0 s = Some (x, r).
Proof.
  intros L. destruct (decimal_nat_hd (length x)) as [c [d [E D]]]. unfold be_str. rewrite E. cbn [app].
  exists c, ((d ++ 58%Z :: x) ++ r). split; auto. split; auto. unfold p_string.
  rewrite <- app_assoc. cbn [app]. rewrite read_until_complete.
  2:{ pose proof (decimal_chars (Z.of_nat (length x))) as F. rewrite E in F. inversion F; subst.
      eapply Forall_impl; [|eassumption]. cbn. intros; lia. }
  destruct (num_complete (Z.of_nat (length x))) as [C P]. rewrite E in C, P. rewrite C, P.
  replace (Z.of_nat (length x) <=? max_str)%Z with true by lia. rewrite Nat2Z.id.
  rewrite app_length. replace (length x + length r <? length x) with false by (symmetry; apply Nat.ltb_ge; lia).
  rewrite firstn_app, firstn_all, Nat.sub_diag, app_nil_r. rewrite skipn_app, skipn_all, Nat.sub_diag. reflexivity.
Qed.
Lemma p_int_complete z r : p_int (decimal z ++ 101%Z :: r) = Some (z, r).
Proof.
  unfold p_int. rewrite decimal_until by auto. destruct (num_complete z) as [C P]. rewrite C, P. reflexivity.
Qed.
Lemma be_str_len x : 2 <= length (be_str x).
Proof. unfold be_str. destruct (decimal_nat_hd (length x)) as [c [d [E D]]]. rewrite E. rewrite !app_length. cbn [length]. lia. Qed.
Lemma BE_len v e : BE v e -> 2 <= length e.
Proof. intros H. inversion H; subst; rewrite ?app_length; cbn [length]; rewrite ?app_length; cbn [length]; try lia. apply be_str_len. Qed.
Definition complete_for (v : bval) : Prop :=
  forall e f r, BE v e -> sorted v -> short max_str v -> 2 * length e <= f -> p_value f (e ++ r) = PVal v r.
Lemma p_value_string x r f : (Z.of_nat (length x) <= max_str)%Z -> 1 <= f -> p_value f (be_str x ++ r) = PVal (BStr x) r.
Proof.
  intros L F. destruct f as [|f]; [lia|]. destruct (p_string_complete r L) as [b0 [s [-> [D P]]]]. cbn [p_value].
  unfold is_digit in D. replace (b0 =? 101)%Z with false by lia. replace (b0 =? 100)%Z with false by lia.
  replace (b0 =? 108)%Z with false by lia. replace (b0 =? 105)%Z with false by lia. unfold is_digit. rewrite D, P. reflexivity.
Qed.
Lemma complete_list : forall l bs acc f r, Forall complete_for l -> Forall2 BE l bs -> Forall sorted l -> Forall (short max_str) l ->
  2 * length (concat bs) + 2 <= f -> p_list f acc (concat bs ++ 101%Z :: r) = PVal (BList (acc ++ l)) r.
Proof.
  induction l as [|x l IH]; intros bs acc f r C B S H F; inversion B; subst; inversion C; inversion S; inversion H; subst.
  - cbn [concat app length] in *. destruct f as [|[|f]]; [lia..|]. cbn [p_list p_value Z.eqb Pos.eqb]. rewrite app_nil_r. reflexivity.
  - cbn [concat] in *. rewrite app_length in F. destruct f as [|f]; [lia|]. cbn [p_list]. rewrite <- app_assoc.
    match goal with HB : BE x ?y |- _ => pose proof (BE_len HB) as Ly; assert (P : p_value f (y ++ concat l' ++ 101%Z :: r) = PVal x (concat l' ++ 101%Z :: r)) by (match goal with Hc : complete_for x |- _ => apply Hc; auto; lia end) end.
    rewrite P. rewrite IH by (auto; lia). rewrite <- app_assoc. reflexivity.
Qed.
Lemma complete_dict : forall m bs last acc f r, Forall complete_for (map snd m) -> Forall2 BE (map snd m) bs -> Forall sorted (map snd m) ->
  Forall (fun kv => (Z.of_nat (length (fst kv)) <= max_str)%Z /\ short max_str (snd kv)) m -> sorted_keys m ->
  (forall lk, last = Some lk -> Forall (fun kv => blt lk (fst kv)) m) ->
  2 * length (items m bs) + 2 <= f -> p_dict f last acc (items m bs ++ 101%Z :: r) = PVal (BDict (acc ++ m)) r.
Proof.
  induction m as [|[k x] m IH]; intros bs last acc f r C B S H K L F; cbn [map snd] in *; inversion B; subst.
  - cbn in F. destruct f as [|[|f]]; [lia..|]. cbn. rewrite app_nil_r. reflexivity.
  - inversion C; inversion S; inversion H; inversion K; subst. cbn [fst snd] in *.
    assert (EI : items ((k, x) :: m) (y :: l') = be_str k ++ y ++ items m l') by (unfold items; cbn [map combine concat fst snd]; rewrite <- app_assoc; reflexivity).
    rewrite EI in *. rewrite !app_length in F. pose proof (be_str_len k) as Lk.
    destruct f as [|f]; [lia|]. cbn [p_dict]. rewrite <- !app_assoc.
    rewrite p_value_string by (try tauto; lia).
    assert (O : match last with Some lk => negb (bltb lk k) | None => false end = false).
    { destruct last as [lk|]; auto. specialize (L lk eq_refl). inversion L; subst. cbn [fst] in *. apply negb_false_iff. apply bltb_blt. auto. }
    rewrite O. 
    assert (P : p_value f (y ++ items m l' ++ 101%Z :: r) = PVal x (items m l' ++ 101%Z :: r)).
    { match goal with Hc : complete_for x |- _ => apply Hc; auto; try tauto; lia end. }
    rewrite P. rewrite IH; auto; try lia. 
    + rewrite <- app_assoc. reflexivity.
    + intros lk E. injection E as <-. auto.
Qed.
Lemma complete v : complete_for v.
Proof.
  induction v as [z|s|l IH|m IH] using bval_rect'; intros e f r B S H F; pose proof (BE_len B) as Le; inversion B; subst.
  - destruct f as [|f]; [lia|]. cbn [app p_value Z.eqb Pos.eqb]. rewrite <- app_assoc. cbn [app]. rewrite p_int_complete. reflexivity.
  - apply p_value_string; auto. lia.
  - rewrite !app_length in F. cbn [length] in F. destruct f as [|f]; [lia|]. cbn [app p_value Z.eqb Pos.eqb]. rewrite <- app_assoc. cbn [app].
    apply all_dicts_list in S. apply short_list in H. apply (@complete_list l bs []); auto. lia.
  - apply all_dicts_dict in S. apply short_dict in H. destruct S as [K S].
    assert (m' = m) by (apply sorted_unique; auto; apply Permutation_sym; auto). subst m'.
    change (concat (map (fun kb => be_str (fst kb) ++ snd kb) (combine (map fst m) bs))) with (items m bs) in *.
    rewrite !app_length in F. cbn [length] in F. destruct f as [|f]; [lia|]. cbn [app p_value Z.eqb Pos.eqb]. rewrite <- app_assoc. cbn [app].
    apply (@complete_dict m bs None []); auto; try (rewrite Forall_map; auto); try lia; try discriminate.
Qed.

(** enough fuel *)
Definition fine {A} (x : pres A) (s : bytes) : Prop :=
  match x with PVal _ r => length r < length s | PEnd r => length r < length s | PErr => True | PFuel => False end.
Lemma read_until_len sep s p r : read_until sep s = Some (p, r) -> length r < length s.
Proof. intros H. apply read_until_sound in H. subst. rewrite app_length. cbn [length]. lia. Qed.
Lemma fuel_ok : forall f,
  (forall s, 2 * length s + 1 <= f -> fine (p_value f s) s) /\
  (forall s acc, 2 * length s + 2 <= f -> fine (p_list f acc s) s) /\
  (forall s last acc, 2 * length s + 2 <= f -> fine (p_dict f last acc s) s).
Proof.
  induction f as [|f [IHv [IHl IHd]]]; [repeat split; intros; lia|]. split; [|split].
  - intros s F. cbn [p_value]. destruct s as [|b s]; [exact I|]. cbn [length] in F.
    destruct (b =? 101)%Z; [cbn; lia|].
    destruct (b =? 100)%Z; [specialize (IHd s None []); destruct (p_dict f None [] s); cbn [fine length] in *; lia|].
    destruct (b =? 108)%Z; [specialize (IHl s []); destruct (p_list f [] s); cbn [fine length] in *; lia|].
    destruct (b =? 105)%Z.
    { unfold p_int. destruct (read_until 101 s) as [[p r]|] eqn:U; [|exact I]. destruct (check_int p); [|exact I].
      destruct (parse_int p); [|exact I]. cbn. apply read_until_len in U. lia. }
    destruct (is_digit b); [|exact I]. unfold p_string.
    destruct (read_until 58 s) as [[p r]|] eqn:U; [|exact I]. destruct (check_int (b :: p)); [|exact I].
    destruct (parse_int (b :: p)) as [n|]; [|exact I]. destruct (n <=? max_str)%Z; [|exact I].
    destruct (length r <? Z.to_nat n); [exact I|]. cbn [fine length]. rewrite skipn_length. apply read_until_len in U. lia.
  - intros s acc F. cbn [p_list]. specialize (IHv s ltac:(lia)). destruct (p_value f s) as [x r|r| |]; cbn [fine] in *; auto; try lia.
    specialize (IHl r (acc ++ [x]) ltac:(lia)). destruct (p_list f (acc ++ [x]) r); cbn [fine] in *; lia.
  - intros s last acc F. cbn [p_dict]. pose proof (IHv s ltac:(lia)) as H. destruct (p_value f s) as [x r|r| |]; cbn [fine] in *; auto.
    destruct x as [|k| |]; try exact I. destruct (match last with Some lk => _ | None => _ end); [exact I|].
    pose proof (IHv r ltac:(lia)) as H2. destruct (p_value f r) as [y r2|r2| |]; cbn [fine] in *; auto.
    specialize (IHd r2 (Some k) (acc ++ [(k, y)]) ltac:(lia)). destruct (p_dict f (Some k) (acc ++ [(k, y)]) r2); cbn [fine] in *; lia.
Qed.

(** ** the raw text of a value *)
Lemma r_fuel : forall f, (forall s, 2 * length s + 1 <= f -> match r_one f s with PVal _ r => length r < length s | PEnd r => r = s /\ s <> [] | PErr => True | PFuel => False end) /\
  (forall s, 2 * length s + 2 <= f -> match r_many f s with PVal _ r => length r <= length s | PEnd r => False | PErr => True | PFuel => False end).
Proof.
  induction f as [|f [IH1 IH2]]; [split; intros; lia|]. split.
  - intros s F. cbn [r_one]. destruct s as [|b s]; [exact I|]. cbn [length] in F. destruct (b =? 101)%Z; [split; [auto|discriminate]|].
    destruct ((b =? 100)%Z || (b =? 108)%Z)%bool.
    { specialize (IH2 s ltac:(lia)). destruct (r_many f s) as [w [|e r]|r| |]; auto. cbn [length] in *. lia. }
    destruct (b =? 105)%Z.
    { destruct (read_until 101 s) as [[p r]|] eqn:U; [|exact I]. apply read_until_len in U. cbn [length]. lia. }
    destruct (is_digit b); [|exact I]. destruct (read_until 58 s) as [[p r]|] eqn:U; [|exact I]. apply read_until_len in U.
    destruct (parse_int (b :: p)); [|exact I]. destruct ((2 ^ 63 <=? z) || (Z.of_nat (length r) <? z))%Z; [exact I|].
    rewrite skipn_length. cbn [length]. lia.
  - intros s F. cbn [r_many]. specialize (IH1 s ltac:(lia)). destruct (r_one f s) as [w r|r| |]; auto.
    + specialize (IH2 r ltac:(lia)). destruct (r_many f r) as [w' r'|r'| |]; auto. lia.
    + destruct IH1 as [-> _]. lia.
Qed.
Definition raw_for (v : bval) : Prop := forall e f r, BE v e -> short (2 ^ 63 - 1) v -> 2 * length e <= f -> r_one f (e ++ r) = PVal e r.
Lemma r_one_string x r f : (Z.of_nat (length x) <= 2 ^ 63 - 1)%Z -> 1 <= f -> r_one f (be_str x ++ r) = PVal (be_str x) r.
Proof.
  intros L F. destruct f as [|f]; [lia|]. unfold be_str. destruct (decimal_nat_hd (length x)) as [c [d [E D]]]. rewrite E.
  destruct (num_complete (Z.of_nat (length x))) as [C P]. rewrite E in P.
  cbn [app r_one]. unfold is_digit in D. replace (c =? 101)%Z with false by lia. replace (c =? 100)%Z with false by lia.
  replace (c =? 108)%Z with false by lia. replace (c =? 105)%Z with false by lia. cbn [orb]. unfold is_digit. rewrite D.
  rewrite <- app_assoc. cbn [app]. rewrite read_until_complete.
  2:{ pose proof (decimal_chars (Z.of_nat (length x))) as Q. rewrite E in Q. inversion Q; subst.
      eapply Forall_impl; [|eassumption]. cbn. intros; lia. }
  rewrite P. rewrite app_length. rewrite Nat2Z.id.
  replace ((2 ^ 63 <=? Z.of_nat (length x)) || (Z.of_nat (length x + length r) <? Z.of_nat (length x)))%Z with false by lia.
  rewrite firstn_app, firstn_all, Nat.sub_diag, app_nil_r. rewrite skipn_app, skipn_all, Nat.sub_diag. reflexivity.
Qed.
Lemma raw_many : forall l bs f r, Forall raw_for l -> Forall2 BE l bs -> Forall (short (2 ^ 63 - 1)) l ->
  2 * length (concat bs) + 2 <= f -> r_many f (concat bs ++ 101%Z :: r) = PVal (concat bs) (101%Z :: r).
Proof.
  induction l as [|x l IH]; intros bs f r C B H F; inversion B; subst; inversion C; inversion H; subst.
  - cbn [concat app length] in *. destruct f as [|[|f]]; [lia..|]. reflexivity.
  - cbn [concat] in *. rewrite app_length in F. destruct f as [|f]; [lia|]. cbn [r_many]. rewrite <- app_assoc.
    match goal with HB : BE x ?y |- _ => pose proof (BE_len HB) as Ly; assert (P : r_one f (y ++ concat l' ++ 101%Z :: r) = PVal y (concat l' ++ 101%Z :: r)) by (match goal with Hc : raw_for x |- _ => apply Hc; auto; lia end) end.
    rewrite P. rewrite IH by (auto; lia). reflexivity.
Qed.
Lemma raw_items : forall m bs f r, Forall raw_for (map snd m) -> Forall2 BE (map snd m) bs ->
  Forall (fun kv => (Z.of_nat (length (fst kv)) <= 2 ^ 63 - 1)%Z /\ short (2 ^ 63 - 1) (snd kv)) m ->
  2 * length (items m bs) + 2 <= f -> r_many f (items m bs ++ 101%Z :: r) = PVal (items m bs) (101%Z :: r).
Proof.
  induction m as [|[k x] m IH]; intros bs f r C B H F; cbn [map snd] in *; inversion B; subst.
  - cbn in F. destruct f as [|[|f]]; [lia..|]. reflexivity.
  - inversion C; inversion H; subst. cbn [fst snd] in *.
    assert (EI : items ((k, x) :: m) (y :: l') = be_str k ++ y ++ items m l') by (unfold items; cbn [map combine concat fst snd]; rewrite <- app_assoc; reflexivity).
    rewrite EI in *. rewrite !app_length in F. pose proof (be_str_len k) as Lk.
    destruct f as [|f]; [lia|]. cbn [r_many]. rewrite <- !app_assoc. rewrite r_one_string by (try tauto; lia).
    destruct f as [|f]; [lia|]. cbn [r_many].
    match goal with HB : BE x y |- _ => pose proof (BE_len HB) as Ly end.
    assert (P : r_one f (y ++ items m l' ++ 101%Z :: r) = PVal y (items m l' ++ 101%Z :: r)).
    { match goal with Hc : raw_for x |- _ => apply Hc; auto; try tauto; lia end. }
    rewrite P. rewrite IH; auto. lia.
Qed.
Lemma raw v : raw_for v.
Proof.
  induction v as [z|s|l IH|m IH] using bval_rect'; intros e f r B H F; pose proof (BE_len B) as Le; inversion B; subst.
  - destruct f as [|f]; [lia|]. cbn [app r_one Z.eqb Pos.eqb orb]. rewrite <- app_assoc. cbn [app]. rewrite decimal_until by auto. reflexivity.
  - apply r_one_string; auto. lia.
  - rewrite !app_length in F. cbn [length] in F. destruct f as [|f]; [lia|]. cbn [app r_one Z.eqb Pos.eqb orb]. rewrite <- app_assoc. cbn [app].
    apply short_list in H. erewrite raw_many by (eauto; lia). reflexivity.
  - apply short_dict in H.
    change (concat (map (fun kb => be_str (fst kb) ++ snd kb) (combine (map fst m') bs))) with (items m' bs) in *.
    rewrite !app_length in F. cbn [length] in F. destruct f as [|f]; [lia|]. cbn [app r_one Z.eqb Pos.eqb orb]. rewrite <- app_assoc. cbn [app].
    rewrite raw_items; auto; try lia.
    + rewrite Forall_map. rewrite Forall_forall in *. intros x Ix. apply IH. eapply Permutation_in; [apply Permutation_sym|]; eauto.
    + rewrite Forall_forall in *. intros x Ix. apply H. eapply Permutation_in; [apply Permutation_sym|]; eauto.
Qed.

(** ** into a map *)
Lemma map_set_new : forall m k v, ~ In k (map fst m) -> map_set m k v = m ++ [(k, v)].
Proof.
  induction m as [|[k' v'] m IH]; intros k v N; auto. cbn [map fst In map_set] in *.
  destruct (bytes_eqb k' k) eqn:E; [apply bytes_eqb_eq in E; exfalso; auto|]. rewrite IH by auto. reflexivity.
Qed.
Lemma m_key_string x r f : (Z.of_nat (length x) <= max_str)%Z -> 1 <= f -> m_key f (be_str x ++ r) = PVal x r.
Proof.
  intros L F. destruct f as [|f]; [lia|]. destruct (p_string_complete r L) as [b0 [s [-> [D P]]]]. cbn [m_key].
  unfold is_digit in D. replace (b0 =? 101)%Z with false by lia. replace (b0 =? 100)%Z with false by lia.
  replace (b0 =? 108)%Z with false by lia. unfold is_digit. rewrite D, P. reflexivity.
Qed.
(** distinct keys in any order *)
Lemma map_complete : forall m bs acc f r, Forall2 BE (map snd m) bs -> Forall sorted (map snd m) ->
  Forall (fun kv => (Z.of_nat (length (fst kv)) <= max_str)%Z /\ short max_str (snd kv)) m -> NoDup (map fst (acc ++ m)) ->
  2 * length (items m bs) + 2 <= f -> m_items f acc (items m bs ++ 101%Z :: r) = PVal (acc ++ m) r.
Proof.
  induction m as [|[k x] m IH]; intros bs acc f r B S H N F; cbn [map snd] in *; inversion B; subst.
  - cbn in F. destruct f as [|[|f]]; [lia..|]. cbn. rewrite app_nil_r. reflexivity.
  - inversion S; inversion H; subst. cbn [fst snd] in *.
    assert (EI : items ((k, x) :: m) (y :: l') = be_str k ++ y ++ items m l') by (unfold items; cbn [map combine concat fst snd]; rewrite <- app_assoc; reflexivity).
    rewrite EI in *. rewrite !app_length in F. pose proof (be_str_len k) as Lk.
    destruct f as [|f]; [lia|]. cbn [m_items]. rewrite <- !app_assoc. rewrite m_key_string by (try tauto; lia).
    assert (P : p_value f (y ++ items m l' ++ 101%Z :: r) = PVal x (items m l' ++ 101%Z :: r)) by (apply complete; auto; try tauto; lia).
    rewrite P. rewrite map_set_new.
    + rewrite IH; auto; try lia; rewrite <- ?app_assoc; auto.
    + rewrite map_app in N. cbn [map fst] in N. apply NoDup_remove_2 in N. intros I. apply N. apply in_or_app. auto.
Qed.
