(** Enigma: the tables. *)
From Coq Require Import Permutation.
From Verif Require Import Base BlockModeModel WordModel BlkSpec WordLib Sc5Model Sc5Spec.
Set Implicit Arguments. Unset Strict Implicit.
Local Open Scope nat_scope.

Lemma nth_upd i v (l : list Z) j : i < length l -> (upd i v l).[j] = if j =? i then v else l.[j].
Proof.
  revert i j. induction l as [|x l IH]; intros [|i] [|j] H; cbn [upd length nth Nat.eqb] in *; try lia; auto. apply IH. lia.
Qed.

(** * The reflector *)
Notation free t3 i := (Z.eqb (nth i t3 0%Z) 0).
Fixpoint count (t3 : list Z) (n : nat) : nat := match n with O => 0 | S n => count t3 n + if free t3 n then 1 else 0 end.
Lemma count_ex t3 n : 0 < count t3 n -> exists i, i < n /\ t3.[i] = 0%Z.
Proof.
  induction n as [|n IH]; cbn [count]; [lia|]. destruct (Z.eqb_spec t3.[n] 0); [exists n; split; [lia|auto]|].
  intros H. destruct IH as (i & Hi & E); [lia|]. exists i. split; [lia|auto].
Qed.
Lemma count_upd t3 n i v : i < length t3 -> t3.[i] = 0%Z -> v <> 0%Z -> count (upd i v t3) n + (if i <? n then 1 else 0) = count t3 n.
Proof.
  intros Hi E Hv. induction n as [|n IH]; cbn [count]; [reflexivity|]. rewrite nth_upd by auto. destruct (Nat.eqb_spec n i) as [->|Hne].
  - rewrite E. apply Z.eqb_neq in Hv. rewrite Hv. destruct (Nat.ltb_spec i i); [lia|]. destruct (Nat.ltb_spec i (S i)); [|lia]. cbn [Z.eqb]. lia.
  - destruct (Nat.ltb_spec i n), (Nat.ltb_spec i (S n)); lia.
Qed.
Lemma count_high t3 n i v : n <= i -> i < length t3 -> count (upd i v t3) n = count t3 n.
Proof. intros H Hi. induction n as [|n IH]; cbn [count]; auto. rewrite nth_upd by auto. destruct (Nat.eqb_spec n i); [lia|]. rewrite IH by lia. auto. Qed.
Lemma search_ok t3 k i0 : i0 < k -> t3.[i0] = 0%Z -> forall fuel ic, ic < k -> (if ic <=? i0 then i0 - ic else i0 + k - ic) < fuel ->
  exists r, en_search fuel t3 k ic = Some r /\ r < k /\ t3.[r] = 0%Z.
Proof.
  intros H0 E. induction fuel as [|fuel IH]; intros ic Hc D; [lia|]. cbn [en_search]. destruct (Z.eqb_spec t3.[ic] 0) as [E2|N]; [exists ic; auto|].
  assert (ic <> i0) by congruence. apply IH; [apply Nat.mod_upper_bound; lia|].
  destruct (Nat.eq_dec (ic + 1) k) as [E3|N3].
  - rewrite E3, Nat.mod_same by lia. cbn [Nat.leb]. destruct (Nat.leb_spec ic i0); lia.
  - rewrite Nat.mod_small by lia. destruct (Nat.leb_spec ic i0), (Nat.leb_spec (ic + 1) i0); lia.
Qed.
(** the slots below K are free or paired with one at or above K; those above are paired *)
Definition paired (K : nat) (t3 : list Z) : Prop :=
  length t3 = 256 /\
  (forall i, i < K -> t3.[i] <> 0%Z -> exists j, K <= j < 256 /\ t3.[i] = Z.of_nat j /\ t3.[j] = Z.of_nat i) /\
  (forall j, K <= j < 256 -> exists i, i < 256 /\ i <> j /\ t3.[j] = Z.of_nat i /\ t3.[i] = Z.of_nat j) /\
  Nat.Even (count t3 K).
Lemma paired_start : paired 256 (repeat 0%Z 256).
Proof.
  split; [apply repeat_length|]. split; [intros i Hi N; exfalso; apply N; apply nth_repeat|]. split; [lia|].
  exists 128. vm_compute. reflexivity.
Qed.
(** the random choices are arbitrary *)
Lemma pair_turn k ic t3 : k < 256 -> paired (S k) t3 -> (0 < k -> ic < k) ->
  if negb (free t3 k) then paired k t3 else
  0 < k /\ exists r, en_search 256 t3 k ic = Some r /\ paired k (upd r (Z.of_nat k) (upd k (Z.of_nat r) t3)).
Proof.
  intros Hk (L & P1 & P2 & Ev) Hic. destruct (Z.eqb_spec t3.[k] 0) as [E|N]; cbn [negb].
  - cbn [count] in Ev. rewrite E in Ev. cbn [Z.eqb] in Ev.
    destruct (@count_ex t3 k) as (i0 & H0 & E0); [destruct Ev as [m Hm]; lia|]. split; [lia|].
    destruct (@search_ok t3 k i0 H0 E0 256 ic) as (r & Er & Hr & Zr); [lia|destruct (Nat.leb_spec ic i0); lia|]. exists r. split; [exact Er|].
    set (t := upd r (Z.of_nat k) (upd k (Z.of_nat r) t3)).
    assert (Nt : forall j, t.[j] = if j =? r then Z.of_nat k else if j =? k then Z.of_nat r else t3.[j]).
    { intros j. unfold t. rewrite nth_upd by (rewrite upd_len; lia). destruct (Nat.eqb_spec j r); auto. rewrite nth_upd by lia. reflexivity. }
    split; [unfold t; rewrite !upd_len; exact L|]. split; [|split].
    + intros i Hi Ni. rewrite Nt in Ni. rewrite Nt. destruct (Nat.eqb_spec i r) as [->|Nr].
      * exists k. split; [lia|]. split; [reflexivity|]. rewrite Nt. destruct (Nat.eqb_spec k r); [lia|]. rewrite Nat.eqb_refl. reflexivity.
      * destruct (Nat.eqb_spec i k); [lia|]. destruct (P1 i ltac:(lia) Ni) as (j & Hj & E1 & E2). exists j. split; [lia|]. split; [exact E1|]. rewrite Nt.
        destruct (Nat.eqb_spec j r); [lia|]. destruct (Nat.eqb_spec j k); [lia|exact E2].
    + intros j Hj. rewrite Nt. destruct (Nat.eqb_spec j r); [lia|]. destruct (Nat.eqb_spec j k) as [->|Nk].
      * exists r. split; [lia|]. split; [lia|]. split; [reflexivity|]. rewrite Nt, Nat.eqb_refl. reflexivity.
      * destruct (P2 j ltac:(lia)) as (i & Hi & Ni & E1 & E2). exists i. split; [exact Hi|]. split; [exact Ni|]. split; [exact E1|]. rewrite Nt.
        destruct (Nat.eqb_spec i r) as [->|]; [exfalso; lia|]. destruct (Nat.eqb_spec i k) as [->|]; [exfalso; lia|exact E2].
    + unfold t. assert (Zr' : (upd k (Z.of_nat r) t3).[r] = 0%Z) by (rewrite nth_upd by lia; destruct (Nat.eqb_spec r k); [lia|exact Zr]).
      pose proof (@count_upd (upd k (Z.of_nat r) t3) k r (Z.of_nat k) ltac:(rewrite upd_len; lia) Zr' ltac:(lia)) as C.
      destruct (Nat.ltb_spec r k); [|lia]. rewrite (@count_high t3 k k) in C by lia. destruct Ev as [m Hm]. exists (m - 1). lia.
  - destruct (P1 k ltac:(lia) N) as (j & Hj & E1 & E2). split; [exact L|]. split; [|split].
    + intros i Hi Ni. destruct (P1 i ltac:(lia) Ni) as (j' & Hj' & E1' & E2'). exists j'. split; [lia|auto].
    + intros j' Hj'. destruct (Nat.eq_dec j' k) as [->|]; [|apply P2; lia]. exists j. split; [lia|]. split; [lia|]. auto.
    + cbn [count] in Ev. apply Z.eqb_neq in N. rewrite N in Ev. rewrite Nat.add_0_r in Ev. exact Ev.
Qed.

(** * The rotor *)
Notation seqz n := (map Z.of_nat (seq 0 n)).
Lemma upd_split i v (l : list Z) : i < length l -> upd i v l = firstn i l ++ v :: skipn (S i) l.
Proof. revert i. induction l as [|x l IH]; intros [|i] H; cbn [upd length firstn skipn app] in *; try lia; auto. f_equal. apply IH. lia. Qed.
Lemma upd_perm i v (l : list Z) : i < length l -> Permutation (l.[i] :: upd i v l) (v :: l).
Proof.
  revert i. induction l as [|x l IH]; intros [|i] H; cbn [upd length nth] in *; try lia; [apply perm_swap|].
  eapply perm_trans; [apply perm_swap|]. eapply perm_trans; [apply perm_skip, IH; lia|]. apply perm_swap.
Qed.
Lemma swap_perm a b l : a < length l -> b < length l -> Permutation (swap a b l) l.
Proof.
  intros Ha Hb. unfold swap. set (l1 := upd a l.[b] l). pose proof (@upd_perm a l.[b] l Ha) as P1. fold l1 in P1.
  assert (L1 : length l1 = length l) by apply upd_len.
  assert (E : l1.[b] = l.[b]) by (unfold l1; rewrite nth_upd by auto; destruct (b =? a); auto).
  pose proof (@upd_perm b l.[a] l1 ltac:(lia)) as P2. rewrite E in P2.
  apply (Permutation_cons_inv (a := l.[b])). eapply perm_trans; [exact P2|]. exact P1.
Qed.
Lemma swap_len a b l : length (swap a b l) = length l.
Proof. unfold swap. rewrite !upd_len. auto. Qed.
(** every byte occurs once *)
Lemma perm_pos l : Permutation l (seqz 256) -> length l = 256 /\ bytes_ok l /\ NoDup l /\ forall x, is_byte x -> exists i, i < 256 /\ l.[i] = x.
Proof.
  intros P. assert (L : length l = 256) by (rewrite (Permutation_length P), map_length, seq_length; reflexivity).
  split; [exact L|]. split; [|split].
  - apply Forall_forall. intros x Hx. apply (Permutation_in _ P) in Hx. apply in_map_iff in Hx as (i & <- & Hi). apply in_seq in Hi. unfold is_byte. lia.
  - apply (Permutation_NoDup (Permutation_sym P)). apply FinFun.Injective_map_NoDup; [|apply seq_NoDup]. intros a b. apply Nat2Z.inj.
  - intros x Hx. assert (I : In x l).
    { apply (Permutation_in _ (Permutation_sym P)). apply in_map_iff. exists (Z.to_nat x). unfold is_byte in Hx. split; [lia|apply in_seq; lia]. }
    destruct (In_nth l x 0%Z I) as (i & Hi & E). exists i. split; [lia|exact E].
Qed.
Lemma nth_byte l i : bytes_ok l -> is_byte l.[i].
Proof.
  intros H. destruct (Nat.ltb_spec i (length l)); [unfold bytes_ok in H; rewrite Forall_forall in H; apply H, nth_In; auto|].
  rewrite nth_overflow by auto. unfold is_byte. lia.
Qed.
Lemma invert_ok t1 : Permutation t1 (seqz 256) -> length (en_invert t1) = 256 /\ forall i, i < 256 -> (en_invert t1).[Z.to_nat t1.[i]] = Z.of_nat i.
Proof.
  intros P. destruct (perm_pos P) as (L & B & N & _).
  assert (G : forall n, n <= 256 -> let t2 := fold_left (fun t2 i => upd (Z.to_nat t1.[i]) (Z.of_nat i) t2) (seq 0 n) (repeat 0%Z 256) in
    length t2 = 256 /\ forall i, i < n -> t2.[Z.to_nat t1.[i]] = Z.of_nat i).
  { induction n as [|n IH]; intros Hn; [split; [apply repeat_length|lia]|]. destruct IH as [L2 IH]; [lia|]. cbv zeta in *.
    rewrite seq_S, fold_left_app. cbn [fold_left Nat.add]. set (t2 := fold_left _ (seq 0 n) _) in *. split; [rewrite upd_len; auto|].
    intros i Hi. pose proof (nth_byte n B) as Bn. pose proof (nth_byte i B) as Bi. unfold is_byte in *.
    rewrite nth_upd by lia. destruct (Nat.eqb_spec (Z.to_nat t1.[i]) (Z.to_nat t1.[n])) as [E|E].
    - f_equal. assert (i = n) as ->; [|auto]. apply (proj1 (NoDup_nth t1 0%Z) N); lia.
    - apply IH. assert (i <> n) by congruence. lia. }
  apply (G 256). lia.
Qed.

(** * The turns *)
Lemma turns_ok key : forall n seed t1 t3, n <= 256 -> Permutation t1 (seqz 256) -> paired n t3 ->
  exists seed' t1' t3', en_turns key (seq (256 - n) n) (seed, t1, t3) = Ok (seed', t1', t3') /\ Permutation t1' (seqz 256) /\ paired 0 t3'.
Proof.
  induction n as [|n IH]; intros seed t1 t3 Hn P Q; [exists seed, t1, t3; auto|].
  cbn [seq]. cbn [en_turns]. unfold en_turn. replace (255 - (256 - S n)) with n by lia.
  set (seed' := i32 _). set (random := (Z.rem seed' 65521 mod 2 ^ 32)%Z). clearbody random.
  assert (P' : Permutation (swap n (Z.to_nat (random mod 256) mod (n + 1)) t1) (seqz 256)).
  { assert (L : length t1 = 256) by apply (perm_pos P). eapply perm_trans; [apply swap_perm; [lia|]|exact P].
    pose proof (Nat.mod_upper_bound (Z.to_nat (random mod 256)) (n + 1) ltac:(lia)). lia. }
  set (ic := Z.to_nat (Z.shiftr random 8 mod 256) mod n).
  assert (Hic : 0 < n -> ic < n) by (intros; apply Nat.mod_upper_bound; lia). clearbody ic.
  pose proof (@pair_turn n ic t3 ltac:(lia) Q Hic) as K. replace (S (256 - S n)) with (256 - n) by lia.
  destruct (negb (free t3 n)).
  - cbn [rbind]. apply IH; auto. lia.
  - destruct K as (H0 & r & -> & K). destruct (Nat.eqb_spec n 0); [lia|]. cbn [rbind]. apply IH; auto. lia.
Qed.
Lemma en_turns_start key seed : exists seed' t1 t3,
  en_turns key (seq 0 256) (seed, seqz 256, repeat 0%Z 256) = Ok (seed', t1, t3) /\ Permutation t1 (seqz 256) /\ paired 0 t3.
Proof. apply (@turns_ok key 256 seed); [lia|apply Permutation_refl|apply paired_start]. Qed.

(** * The bytes *)
Lemma idx_lt z : idx z < 256. Proof. unfold idx. pose proof (Z.mod_pos_bound z 256 ltac:(lia)). lia. Qed.
Definition tab (t : list Z) (x : Z) : Z := t.[Z.to_nat x].
Lemma tab_pair t3 : paired 0 t3 -> reflector (tab t3).
Proof.
  intros (L & _ & P & _) x Hx. unfold tab, is_byte in *. destruct (P (Z.to_nat x) ltac:(lia)) as (i & Hi & N & E1 & E2).
  rewrite E1, Nat2Z.id, E2. split; [lia|]. split; lia.
Qed.
Lemma tab_inv t1 : Permutation t1 (seqz 256) -> inverse_on_bytes (tab t1) (tab (en_invert t1)).
Proof.
  intros P x Hx. destruct (perm_pos P) as (L & B & N & Sj). destruct (invert_ok P) as (L2 & I). destruct (Sj x Hx) as (i & Hi & E).
  unfold tab. assert (E2 : (en_invert t1).[Z.to_nat x] = Z.of_nat i) by (rewrite <- E; apply I; auto).
  split; [apply nth_byte; auto|]. rewrite E2. unfold is_byte in *. split; [lia|]. split; [|rewrite Nat2Z.id; exact E].
  rewrite I by lia. lia.
Qed.
Definition en_at (c : enigma) (p : nat) : Prop := en_n1 c = p mod 256 /\ en_n2 c = p / 256 mod 256 /\ en_nr2 c = p / 256 mod 256.
Lemma en_byte_ok c p x : en_at c p ->
  snd (en_byte c x) = rotors (tab (en_t1 c)) (tab (en_t2 c)) (tab (en_t3 c)) p x /\
  en_at (fst (en_byte c x)) (S p) /\ en_t1 (fst (en_byte c x)) = en_t1 c /\ en_t2 (fst (en_byte c x)) = en_t2 c /\ en_t3 (fst (en_byte c x)) = en_t3 c.
Proof.
  intros (E1 & E2 & E3). unfold en_byte. rewrite E1, E2, E3.
  pose proof (Nat.mod_upper_bound p 256 ltac:(lia)) as B1. pose proof (Nat.mod_upper_bound (p / 256) 256 ltac:(lia)) as B2.
  pose proof (Nat.div_mod p 256 ltac:(lia)) as D. destruct (Nat.eqb_spec (S (p mod 256)) 256) as [Ew|Nw].
  - assert (D1 : S p = (p / 256 + 1) * 256) by lia. assert (Q : S p / 256 = p / 256 + 1) by (rewrite D1; apply Nat.div_mul; lia).
    assert (M : S p mod 256 = 0) by (rewrite D1; apply Nat.mod_mul; lia).
    split; [reflexivity|]. split; [|auto]. unfold en_at. cbn [fst en_n1 en_n2 en_nr2]. rewrite Q, M.
    assert (X : (if S (p / 256 mod 256) =? 256 then 0 else S (p / 256 mod 256)) = (p / 256 + 1) mod 256).
    { rewrite <- Nat.add_mod_idemp_l by lia. destruct (Nat.eqb_spec (S (p / 256 mod 256)) 256) as [e|e].
      - replace (p / 256 mod 256 + 1) with 256 by lia. reflexivity.
      - rewrite (Nat.mod_small (p / 256 mod 256 + 1)) by lia. lia. }
    rewrite X. auto.
  - assert (Q : S p / 256 = p / 256) by (symmetry; apply (Nat.div_unique _ _ _ (S (p mod 256))); lia).
    assert (M : S p mod 256 = S (p mod 256)) by (symmetry; apply (Nat.mod_unique _ _ (p / 256)); lia).
    split; [reflexivity|]. split; [|auto]. unfold en_at. cbn [fst en_n1 en_n2 en_nr2]. rewrite Q, M. auto.
Qed.
Lemma en_bytes_ok t1 t2 t3 l : forall c p, en_t1 c = t1 -> en_t2 c = t2 -> en_t3 c = t3 -> en_at c p ->
  snd (en_bytes c l) = by_position (rotors (tab t1) (tab t2) (tab t3)) p l /\
  en_at (fst (en_bytes c l)) (p + length l) /\ en_t1 (fst (en_bytes c l)) = t1 /\ en_t2 (fst (en_bytes c l)) = t2 /\ en_t3 (fst (en_bytes c l)) = t3.
Proof.
  induction l as [|x l IH]; intros c p E1 E2 E3 H; [cbn [en_bytes fst snd by_position length]; rewrite Nat.add_0_r; auto|].
  cbn [en_bytes by_position length]. destruct (@en_byte_ok c p x H) as (K1 & K2 & K3 & K4 & K5). destruct (en_byte c x) as [c1 y]. cbn [fst snd] in *.
  destruct (IH c1 (S p)) as (J1 & J2 & J3); try congruence. destruct (en_bytes c1 l) as [c2 o]. cbn [fst snd] in *.
  rewrite K1, J1, E1, E2, E3. replace (p + S (length l)) with (S p + length l) by lia. auto.
Qed.
Lemma by_position_app f a b : forall p, by_position f p (a ++ b) = by_position f p a ++ by_position f (p + length a) b.
Proof.
  induction a as [|x a IH]; intros p; cbn [app by_position length]; [rewrite Nat.add_0_r; auto|]. rewrite IH. f_equal. f_equal. f_equal. lia.
Qed.
Lemma by_position_length f a : forall p, length (by_position f p a) = length a.
Proof. induction a; intros p; cbn [by_position length]; auto. Qed.
(** from one call to histories *)
Lemma substitutes_from {S} (call : S -> bytes * bytes -> res (S * bytes)) f (Inv : S -> nat -> Prop) :
  (forall st pos x, Inv st pos -> length (snd x) <= length (fst x) ->
    exists st', call st x = Ok (st', by_position f pos (snd x)) /\ Inv st' (pos + length (snd x))) ->
  forall st, Inv st 0 -> substitutes call st f.
Proof.
  intros one st HI calls Hc. revert st HI Hc. generalize 0. induction calls as [|x calls IH]; intros pos st HI Hc; [exists st, []; auto|].
  inversion Hc as [|? ? Hx Hc']; subst. destruct (one st pos x HI Hx) as (st1 & E1 & I1). destruct (IH _ _ I1 Hc') as (st2 & outs & E2 & L2 & O2).
  cbn [run_calls]. rewrite E1. cbn [rbind]. rewrite E2. cbn [rbind]. eexists st2, _. split; [reflexivity|]. cbn [map concat].
  rewrite by_position_length, L2, O2, by_position_app. auto.
Qed.
