(** HC-128 and HC-256: the cached block generator refines the word-by-word description. *)
From Verif Require Import Base BlockModeModel WordModel WordLib StreamModel StreamSpec StreamProofs Sc1Proofs Sc2Model Sc2Spec.
Set Implicit Arguments. Unset Strict Implicit.
Local Open Scope nat_scope.

Lemma back_mod N j d : j < N -> 1 <= d <= N -> (j + N - d) mod N = if d <=? j then j - d else j + N - d.
Proof.
  intros J D. destruct (Nat.leb_spec d j).
  - replace (j + N - d) with (j - d + 1 * N) by lia. rewrite Nat.mod_add by lia. apply Nat.mod_small. lia.
  - apply Nat.mod_small. lia.
Qed.
Lemma mod16_add j c : j mod 16 = 0 -> (j + c) mod 16 = c mod 16.
Proof.
  intro H. apply Nat.mod_divides in H as [q ->]; [|lia]. rewrite Nat.add_comm, Nat.mul_comm. apply Nat.mod_add. lia.
Qed.
(** X holds the last sixteen entries before place j *)
Definition cache (N : nat) (X T : list Z) (j : nat) : Prop := forall k, 1 <= k <= 16 -> X.[(j + 16 - k) mod 16] = T.[(j + N - k) mod N].

Section table.
  Variables (N : nat) (new : Z -> Z -> Z -> Z -> Z -> list Z -> Z) (h : option (Z -> list Z -> Z)).
  Variable change : list Z -> list Z -> nat -> Z.
  Hypothesis N16 : N mod 16 = 0.
  Hypothesis Nbig : 32 <= N.
  Hypothesis rel : forall T U j, new T.[j] (back N T j 3) (back N T j 10) T.[(j + 1) mod N] (back N T j 12) U = change T U j.
  Fixpoint tn (U T : list Z) (j n : nat) : list Z :=
    match n with O => T | S m => let T' := tn U T j m in upd (j + m) (change T' U (j + m)) T' end.
  Lemma tn_len U T j n : length (tn U T j n) = length T.
  Proof. induction n as [|n IH]; [reflexivity|]. cbn [tn]. now rewrite upd_len. Qed.
  Lemma word_n U T X b j : length T = N -> length X = 16 -> length b = 16 -> j mod 16 = 0 -> j + 16 <= N -> cache N X T j ->
    forall n, n <= 16 -> exists X' b', fold_left (hc_word N new h U j) (seq 0 n) (T, X, b) = (tn U T j n, X', b') /\
      length X' = 16 /\ length b' = 16 /\ cache N X' (tn U T j n) (j + n) /\
      forall f, h = Some f -> forall k, k < n ->
        b'.[k] = Z.lxor (f (back N (tn U T j (S k)) (j + k) 12) U) (tn U T j (S k)).[j + k].
  Proof.
    intros LT LX LB J JN C. induction n as [|n IH]; intro Hn.
    - exists X, b. cbn [seq fold_left tn]. rewrite Nat.add_0_r. repeat split; auto. intros; lia.
    - destruct (IH ltac:(lia)) as (X' & b' & E & LX' & LB' & C' & O). clear IH.
      rewrite seq_S, fold_left_app, E. cbn [fold_left Nat.add]. set (T' := tn U T j n) in *.
      assert (LT' : length T' = N) by (unfold T'; now rewrite tn_len).
      unfold hc_word. set (idx := if (n =? 15) && (j =? N - 16) then 0 else j + 1 + n).
      assert (Hidx : idx = (j + n + 1) mod N).
      { unfold idx. destruct (Nat.eqb_spec n 15), (Nat.eqb_spec j (N - 16)); cbn [andb];
          try (replace (j + n + 1) with N by lia; symmetry; apply Nat.mod_same; lia);
          (rewrite Nat.mod_small by lia; lia). }
      rewrite Hidx.
      assert (H3 : X'.[(n + 13) mod 16] = back N T' (j + n) 3).
      { unfold back. rewrite <- (C' 3) by lia. replace (j + n + 16 - 3) with (j + (n + 13)) by lia. rewrite (@mod16_add j (n + 13) J). reflexivity. }
      assert (H10 : X'.[(n + 6) mod 16] = back N T' (j + n) 10).
      { unfold back. rewrite <- (C' 10) by lia. replace (j + n + 16 - 10) with (j + (n + 6)) by lia. rewrite (@mod16_add j (n + 6) J). reflexivity. }
      assert (H12 : X'.[(n + 4) mod 16] = back N T' (j + n) 12).
      { unfold back. rewrite <- (C' 12) by lia. replace (j + n + 16 - 12) with (j + (n + 4)) by lia. rewrite (@mod16_add j (n + 4) J). reflexivity. }
      rewrite H3, H10, H12, rel. set (v := change T' U (j + n)).
      change (upd (j + n) v T') with (tn U T j (S n)).
      assert (C2 : cache N (upd n v X') (tn U T j (S n)) (j + S n)).
      { intros k K. cbn [tn]. fold T'. fold v. rewrite !nth_upd by lia.
        destruct (Nat.eq_dec k 1) as [->|K1].
        - replace (j + S n + 16 - 1) with (j + (n + 1 * 16)) by lia. rewrite mod16_add by auto. rewrite Nat.mod_add, Nat.mod_small by lia.
          rewrite Nat.eqb_refl. replace (j + S n + N - 1) with (j + n + 1 * N) by lia. rewrite Nat.mod_add, (Nat.mod_small (j + n)) by lia.
          now rewrite Nat.eqb_refl.
        - replace (j + S n + 16 - k) with (j + (n + 16 - (k - 1))) by lia. rewrite mod16_add by auto.
          replace (j + S n + N - k) with (j + n + N - (k - 1)) by lia.
          pose proof (C' (k - 1) ltac:(lia)) as CK.
          replace (j + n + 16 - (k - 1)) with (j + (n + 16 - (k - 1))) in CK by lia. rewrite mod16_add in CK by auto.
          rewrite back_mod in CK by lia. rewrite back_mod in CK by lia. rewrite !back_mod by lia.
          destruct (Nat.leb_spec (k - 1) n) as [A|A], (Nat.leb_spec (k - 1) (j + n)) as [B|B];
            repeat match goal with |- context [?a =? ?b] => destruct (Nat.eqb_spec a b); [lia|] end; exact CK. }
      eexists _, _. split; [reflexivity|]. split; [now rewrite upd_len|]. split; [destruct h; now rewrite ?upd_len|]. split; [exact C2|].
      intros f Hf k Hk. rewrite Hf. rewrite nth_upd by lia.
      destruct (Nat.eqb_spec k n) as [->|D].
      + f_equal. f_equal. pose proof (C2 13 ltac:(lia)) as CK. replace (j + S n + 16 - 13) with (j + (n + 4)) in CK by lia.
        rewrite mod16_add in CK by auto. rewrite CK. unfold back. f_equal. f_equal. lia.
      + apply O; [exact Hf|lia].
  Qed.
End table.

Section machine.
  Variables (N : nat) (newP newQ : Z -> Z -> Z -> Z -> Z -> list Z -> Z) (h : option (Z -> list Z -> Z)).
  Variables changeP changeQ : list Z -> list Z -> nat -> Z.
  Hypothesis N16 : N mod 16 = 0.
  Hypothesis Nbig : 32 <= N.
  Hypothesis relP : forall T U j, newP T.[j] (back N T j 3) (back N T j 10) T.[(j + 1) mod N] (back N T j 12) U = changeP T U j.
  Hypothesis relQ : forall T U j, newQ T.[j] (back N T j 3) (back N T j 10) T.[(j + 1) mod N] (back N T j 12) U = changeQ T U j.
  Let step := hc_step N changeP changeQ.
  Definition hcR (s : hc) (a : list Z * list Z * nat) : Prop :=
    let '(P, Q, t) := a in
    hc_P s = P /\ hc_Q s = Q /\ hc_words s = t mod (2 * N) /\ t mod 16 = 0 /\
    length P = N /\ length Q = N /\ length (hc_X s) = 16 /\ length (hc_Y s) = 16 /\ length (hc_block s) = 16 /\
    cache N (hc_X s) P (if hc_words s <? N then hc_words s else 0) /\
    cache N (hc_Y s) Q (if hc_words s <? N then 0 else hc_words s - N).
  Lemma t_mods t n : t mod 16 = 0 -> n <= 16 -> t mod (2 * N) + n <= 2 * N /\ (n < 16 -> (t + n) mod (2 * N) = t mod (2 * N) + n) /\ t mod (2 * N) mod 16 = 0.
  Proof.
    intros T Hn. apply Nat.mod_divides in N16 as [m Hm]; [|lia].
    assert (W : t mod (2 * N) mod 16 = 0).
    { apply Nat.mod_divides in T as [q ->]; [|lia]. replace (2 * N) with (16 * (2 * m)) by lia.
      rewrite Nat.mul_mod_distr_l by lia. rewrite Nat.mul_comm. apply Nat.mod_mul. lia. }
    pose proof (Nat.mod_upper_bound t (2 * N) ltac:(lia)) as B.
    pose proof W as W2. apply Nat.mod_divides in W2 as [q Hq]; [|lia].
    assert (q < 2 * m) by lia.
    split; [lia|]. split; [|exact W]. intro L.
    rewrite <- Nat.add_mod_idemp_l by lia. apply Nat.mod_small. lia.
  Qed.
  Lemma mod_mod_N t : t mod N = t mod (2 * N) mod N.
  Proof.
    rewrite (Nat.mul_comm 2 N). rewrite Nat.mod_mul_r by lia. rewrite (Nat.mul_comm N). rewrite Nat.mod_add by lia. now rewrite Nat.mod_mod by lia.
  Qed.
  Lemma iter_P P Q t n : t mod 16 = 0 -> n <= 16 -> t mod (2 * N) < N ->
    Nat.iter n step (P, Q, t) = (tn changeP Q P (t mod (2 * N)) n, Q, t + n).
  Proof.
    intros T Hn W. induction n as [|n IH]; [cbn; now rewrite Nat.add_0_r|].
    change (Nat.iter (S n) step (P, Q, t)) with (step (Nat.iter n step (P, Q, t))). rewrite IH by lia.
    destruct (@t_mods t n T ltac:(lia)) as (B1 & E1 & M1).
    apply Nat.mod_divides in M1 as [q Hq]; [|lia]. pose proof N16 as N16'. apply Nat.mod_divides in N16' as [m Hm]; [|lia].
    unfold step, hc_step. rewrite mod_mod_N, E1 by lia. rewrite (Nat.mod_small (t mod (2 * N) + n)) by lia.
    destruct (Nat.ltb_spec (t mod (2 * N) + n) N); [|lia]. cbn [tn]. f_equal. lia.
  Qed.
  Lemma iter_Q P Q t n : t mod 16 = 0 -> n <= 16 -> N <= t mod (2 * N) ->
    Nat.iter n step (P, Q, t) = (P, tn changeQ P Q (t mod (2 * N) - N) n, t + n).
  Proof.
    intros T Hn W. induction n as [|n IH]; [cbn; now rewrite Nat.add_0_r|].
    change (Nat.iter (S n) step (P, Q, t)) with (step (Nat.iter n step (P, Q, t))). rewrite IH by lia.
    destruct (@t_mods t n T ltac:(lia)) as (B1 & E1 & M1).
    pose proof (Nat.mod_upper_bound t (2 * N) ltac:(lia)) as B.
    apply Nat.mod_divides in M1 as [q Hq]; [|lia]. pose proof N16 as N16'. apply Nat.mod_divides in N16' as [m Hm]; [|lia].
    unfold step, hc_step. rewrite mod_mod_N, E1 by lia.
    assert (X : (t mod (2 * N) + n) mod N = t mod (2 * N) - N + n).
    { replace (t mod (2 * N) + n) with (t mod (2 * N) - N + n + 1 * N) by lia. rewrite Nat.mod_add by lia. apply Nat.mod_small. lia. }
    rewrite X. destruct (Nat.ltb_spec (t mod (2 * N) + n) N); [lia|]. cbn [tn]. f_equal. lia.
  Qed.
  Lemma cache_wrap X T : cache N X T N -> cache N X T 0.
  Proof.
    intros C k K. specialize (C k K). replace (N + 16 - k) with (N + (16 - k)) in C by lia. rewrite mod16_add in C by auto.
    replace (N + N - k) with (N - k + 1 * N) in C by lia. rewrite Nat.mod_add in C by lia. exact C.
  Qed.
  Lemma out_P f P Q t k : h = Some f -> t mod 16 = 0 -> k < 16 -> t mod (2 * N) < N ->
    hc_out N changeP changeQ f (Nat.iter k step (P, Q, t)) =
    let T := tn changeP Q P (t mod (2 * N)) (S k) in Z.lxor (f (back N T (t mod (2 * N) + k) 12) Q) T.[t mod (2 * N) + k].
  Proof.
    intros Hf T Hk W. pose proof (@iter_P P Q t (S k) T ltac:(lia) W) as E.
    change (Nat.iter (S k) step (P, Q, t)) with (step (Nat.iter k step (P, Q, t))) in E.
    rewrite iter_P in * by (auto; lia). unfold hc_out. unfold step in E. rewrite E.
    destruct (@t_mods t k T ltac:(lia)) as (B1 & E1 & M1). rewrite mod_mod_N, E1 by lia.
    apply Nat.mod_divides in M1 as [q Hq]; [|lia]. pose proof N16 as N16'. apply Nat.mod_divides in N16' as [m Hm]; [|lia].
    rewrite (Nat.mod_small (t mod (2 * N) + k)) by lia. destruct (Nat.ltb_spec (t mod (2 * N) + k) N); [reflexivity|lia].
  Qed.
  Lemma out_Q f P Q t k : h = Some f -> t mod 16 = 0 -> k < 16 -> N <= t mod (2 * N) ->
    hc_out N changeP changeQ f (Nat.iter k step (P, Q, t)) =
    let j := t mod (2 * N) - N in let T := tn changeQ P Q j (S k) in Z.lxor (f (back N T (j + k) 12) P) T.[j + k].
  Proof.
    intros Hf T Hk W. pose proof (@iter_Q P Q t (S k) T ltac:(lia) W) as E.
    change (Nat.iter (S k) step (P, Q, t)) with (step (Nat.iter k step (P, Q, t))) in E.
    rewrite iter_Q in * by (auto; lia). unfold hc_out. unfold step in E. rewrite E.
    destruct (@t_mods t k T ltac:(lia)) as (B1 & E1 & M1). rewrite mod_mod_N, E1 by lia.
    pose proof (Nat.mod_upper_bound t (2 * N) ltac:(lia)) as B.
    apply Nat.mod_divides in M1 as [q Hq]; [|lia]. pose proof N16 as N16'. apply Nat.mod_divides in N16' as [m Hm]; [|lia].
    assert (X : (t mod (2 * N) + k) mod N = t mod (2 * N) - N + k).
    { replace (t mod (2 * N) + k) with (t mod (2 * N) - N + k + 1 * N) by lia. rewrite Nat.mod_add by lia. apply Nat.mod_small. lia. }
    rewrite X. destruct (Nat.ltb_spec (t mod (2 * N) + k) N); [lia|reflexivity].
  Qed.
  Lemma list16 (b : list Z) f : length b = 16 -> (forall k, k < 16 -> b.[k] = f k) -> b = map f (seq 0 16).
  Proof.
    intros L H. apply nth_ext with (d := 0%Z) (d' := 0%Z); [now rewrite map_length, seq_length|]. intros k K. rewrite L in K.
    rewrite nth_map_seq by lia. auto.
  Qed.
  Lemma gen_R s a : hcR s a -> hcR (hc_generate N newP newQ h s) (Nat.iter 16 step a) /\
    hc_pos (hc_generate N newP newQ h s) = hc_pos s /\
    forall f, h = Some f -> hc_block (hc_generate N newP newQ h s) = map (fun k => hc_out N changeP changeQ f (Nat.iter k step a)) (seq 0 16).
  Proof.
    destruct a as [[P Q] t]. intros (EP & EQ & EW & T & LP & LQ & LX & LY & LB & CX & CY).
    destruct (@t_mods t 16 T ltac:(lia)) as (B1 & _ & M1).
    pose proof M1 as M2. apply Nat.mod_divides in M2 as [q Hq]; [|lia]. pose proof N16 as N16'. apply Nat.mod_divides in N16' as [m Hm]; [|lia].
    assert (T16 : (t + 16) mod 16 = 0) by (replace (t + 16) with (t + 1 * 16) by lia; now rewrite Nat.mod_add by lia).
    unfold hc_generate. rewrite EW in *. set (w := t mod (2 * N)) in *.
    assert (EW2 : (t + 16) mod (2 * N) = if w + 16 =? 2 * N then 0 else w + 16).
    { rewrite <- Nat.add_mod_idemp_l by lia. fold w. destruct (Nat.eqb_spec (w + 16) (2 * N)) as [E|E]; [rewrite E; apply Nat.mod_same; lia|].
      apply Nat.mod_small. lia. }
    destruct (Nat.ltb_spec w N) as [L|L].
    - rewrite EP, EQ. unfold hc_gen. change (ups 0 16 1) with (seq 0 16).
      destruct (@word_n N newP h changeP N16 Nbig relP Q P (hc_X s) (hc_block s) w LP LX LB M1 ltac:(lia) CX 16 ltac:(lia)) as (X' & b' & E & LX' & LB' & C' & O).
      rewrite E. cbn [hc_pos hc_block]. rewrite iter_P by (auto; lia). fold w.
      split; [|split; [reflexivity|]].
      + cbn [hcR hc_P hc_Q hc_words hc_X hc_Y hc_block]. rewrite tn_len. repeat split; auto.
        * rewrite EW2. destruct (Nat.eqb_spec (w + 16) (2 * N)); lia.
        * destruct (Nat.ltb_spec (w + 16) N); [exact C'|]. replace (w + 16) with N in C' by lia. apply cache_wrap. exact C'.
        * destruct (Nat.ltb_spec (w + 16) N); [exact CY|]. replace (w + 16 - N) with 0 by lia. exact CY.
      + intros f Hf. apply list16; [exact LB'|]. intros k K. rewrite (O f Hf k K). symmetry. apply out_P; auto.
    - rewrite EP, EQ. unfold hc_gen. change (ups 0 16 1) with (seq 0 16).
      destruct (@word_n N newQ h changeQ N16 Nbig relQ P Q (hc_Y s) (hc_block s) (w - N) LQ LY LB) with (n := 16) as (X' & b' & E & LX' & LB' & C' & O); [|lia|exact CY|lia|].
      { rewrite Hq, Hm. rewrite <- Nat.mul_sub_distr_l, Nat.mul_comm. apply Nat.mod_mul. lia. }
      rewrite E. cbn [hc_pos hc_block]. rewrite iter_Q by (auto; lia). fold w.
      split; [|split; [reflexivity|]].
      + cbn [hcR hc_P hc_Q hc_words hc_X hc_Y hc_block]. rewrite tn_len, EW2. repeat split; auto.
        * destruct (Nat.eqb_spec (w + 16) (2 * N)).
          -- destruct (Nat.ltb_spec 0 N); [exact CX|lia].
          -- destruct (Nat.ltb_spec (w + 16) N); [lia|exact CX].
        * destruct (Nat.eqb_spec (w + 16) (2 * N)).
          -- destruct (Nat.ltb_spec 0 N); [|lia]. replace (w - N + 16) with N in C' by lia. now apply cache_wrap.
          -- destruct (Nat.ltb_spec (w + 16) N); [lia|]. replace (w + 16 - N) with (w - N + 16) by lia. exact C'.
      + intros f Hf. apply list16; [exact LB'|]. intros k K. rewrite (O f Hf k K). symmetry. apply out_Q; auto.
  Qed.
End machine.

(** * From blocks to calls *)
Lemma nth_stw4 ws : forall i, i < 4 * length ws -> (stw 4 ws).[i] = (le_bytes 4 ws.[i / 4]).[i mod 4].
Proof.
  induction ws as [|w ws IH]; intros i H; cbn [length] in H; [lia|].
  unfold stw. cbn [map concat]. fold (stw 4 ws). assert (L4 : length (le_bytes 4 w) = 4) by reflexivity.
  destruct (Nat.lt_ge_cases i 4).
  - rewrite app_nth1 by lia. rewrite Nat.div_small, Nat.mod_small by lia. reflexivity.
  - rewrite app_nth2 by lia. rewrite L4, IH by lia. replace i with (i - 4 + 1 * 4) at 3 4 by lia.
    rewrite Nat.div_add, Nat.mod_add by lia. rewrite Nat.add_comm. reflexivity.
Qed.
Lemma nth_skipn' (l : list Z) n i : (skipn n l).[i] = l.[n + i].
Proof. revert l. induction n as [|n IH]; intros [|x l]; cbn [skipn Nat.add nth]; auto. now destruct i. Qed.
Section stream.
  Variable A : Type.
  Variable gen : hc -> hc.
  Variable step : A -> A.
  Variable out : A -> Z.
  Variable R : hc -> A -> Prop.
  Hypothesis gen_ok : forall s a, R s a -> R (gen s) (Nat.iter 16 step a) /\ hc_pos (gen s) = hc_pos s /\
    hc_block (gen s) = map (fun k => out (Nat.iter k step a)) (seq 0 16).
  Hypothesis R_pos : forall s a p, R s a -> R (set_pos s p) a.
  Variable a0 : A.
  Definition aks (n : nat) : Z := (le_bytes 4 (out (Nat.iter (n / 4) step a0))).[n mod 4].
  Definition blk_is (b : list Z) (q : nat) : Prop := length b = 16 /\ forall i, i < 64 -> (stw 4 b).[i] = aks (64 * q + i).
  Lemma gen_blk s q : R s (Nat.iter (16 * q) step a0) -> R (gen s) (Nat.iter (16 * S q) step a0) /\ hc_pos (gen s) = hc_pos s /\ blk_is (hc_block (gen s)) q.
  Proof.
    intro H. destruct (gen_ok H) as (R1 & P1 & B1). split; [|split; [exact P1|]].
    - rewrite iter_plus in R1. replace (16 * S q) with (16 + 16 * q) by lia. exact R1.
    - rewrite B1. split; [now rewrite map_length, seq_length|]. intros i I.
      rewrite nth_stw4 by (rewrite map_length, seq_length; lia).
      rewrite nth_map_seq by (apply Nat.div_lt_upper_bound; lia). rewrite iter_plus. unfold aks.
      replace (64 * q + i) with (i + (16 * q) * 4) by lia. rewrite Nat.div_add, Nat.mod_add by lia. reflexivity.
  Qed.
  Definition hcInv (s : hc) (pos : nat) : Prop :=
    exists q, R s (Nat.iter (16 * q) step a0) /\
      ((hc_pos s = 0 /\ pos = 64 * q) \/ (0 < hc_pos s <= 64 /\ 0 < q /\ pos + 64 = 64 * q + hc_pos s /\ blk_is (hc_block s) (q - 1))).
  Lemma rounds_ok n : forall src s q, length src <= n -> R s (Nat.iter (16 * q) step a0) -> hc_pos s = 0 ->
    snd (hc_rounds gen s (chunks 64 src)) = xor_stream aks (64 * q) src /\
    hcInv (fst (hc_rounds gen s (chunks 64 src))) (64 * q + length src).
  Proof.
    induction n as [|n IH]; intros src s q L H P.
    - destruct src; [|cbn in L; lia]. rewrite chunks_nil. cbn [hc_rounds fst snd xor_stream length]. split; [reflexivity|].
      exists q. split; [exact H|]. left. lia.
    - destruct src as [|b0 r0] eqn:E.
      { rewrite chunks_nil. cbn [hc_rounds fst snd xor_stream length]. split; [reflexivity|]. exists q. split; [exact H|]. left. lia. }
      rewrite <- E in *. assert (L1 : 1 <= length src) by (rewrite E; cbn; lia). clear E b0 r0.
      rewrite chunks_cons by (try lia; intros ->; cbn in L1; lia).
      cbn [hc_rounds]. destruct (gen_blk H) as (R1 & P1 & LB & BI). rewrite P in P1.
      assert (S64 : length (stw 4 (hc_block (gen s))) = 64) by now rewrite stw4_len, LB.
      assert (LF : length (firstn 64 src) = Nat.min 64 (length src)) by apply firstn_length.
      assert (LS : length (skipn 64 src) = length src - 64) by apply skipn_length.
      assert (X : xorl (firstn 64 src) (stw 4 (hc_block (gen s))) = xor_stream aks (64 * q) (firstn 64 src)).
      { rewrite (@xorl_stream aks _ (firstn 64 src) (64 * q)) by (intros i I; rewrite S64 in I; now apply BI).
        rewrite S64, firstn_firstn. reflexivity. }
      destruct (Nat.eqb_spec (length (firstn 64 src)) 64) as [F|F].
      + destruct (IH (skipn 64 src) (gen s) (S q) ltac:(lia) R1 P1) as [O2 I2].
        destruct (hc_rounds gen (gen s) (chunks 64 (skipn 64 src))) as [s' o]. cbn [fst snd] in *.
        split.
        * rewrite X, O2. rewrite <- (firstn_skipn 64 src) at 3. rewrite xor_stream_app. f_equal. f_equal. lia.
        * replace (64 * q + length src) with (64 * S q + length (skipn 64 src)) by lia. exact I2.
      + assert (LT : length src < 64) by lia. rewrite (skipn_all2 src) by lia. rewrite chunks_nil. cbn [hc_rounds fst snd].
        rewrite app_nil_r. change (hc_block (set_pos (gen s) (length (firstn 64 src)))) with (hc_block (gen s)). rewrite X.
        rewrite firstn_all2 by lia. split; [reflexivity|].
        exists (S q). split; [apply R_pos; exact R1|]. right. cbn [hc_pos set_pos hc_block]. split; [lia|]. split; [lia|].
        split; [lia|]. replace (S q - 1) with q by lia. split; [exact LB|exact BI].
  Qed.
  Lemma crypt_ok s pos src : hcInv s pos -> 0 < length src ->
    snd (hc_crypt gen s src) = xor_stream aks pos src /\ hcInv (fst (hc_crypt gen s src)) (pos + length src).
  Proof.
    intros (q & H & D) L0. unfold hc_crypt. set (n := if 0 <? hc_pos s then Nat.min (length src) (64 - hc_pos s) else 0).
    assert (LS : length (skipn n src) = length src - n) by apply skipn_length.
    assert (LF : length (firstn n src) = Nat.min n (length src)) by apply firstn_length.
    assert (X : xorl (firstn n src) (skipn (hc_pos s) (stw 4 (hc_block s))) = xor_stream aks pos (firstn n src)).
    { destruct D as [(P & E)|(P & Q & E & LB & BI)].
      - unfold n. rewrite P. reflexivity.
      - assert (S64 : length (stw 4 (hc_block s)) = 64) by now rewrite stw4_len, LB.
        assert (SK : length (skipn (hc_pos s) (stw 4 (hc_block s))) = 64 - hc_pos s) by (rewrite skipn_length; lia).
        rewrite (@xorl_stream aks _ (firstn n src) pos).
        + rewrite SK, firstn_firstn. f_equal. f_equal. unfold n. destruct (Nat.ltb_spec 0 (hc_pos s)); lia.
        + intros i I. rewrite SK in I. rewrite nth_skipn', BI by lia. f_equal. lia. }
    destruct (Nat.ltb_spec 0 (length (skipn n src))) as [G|G].
    - assert (Hpos : exists q', pos + n = 64 * q' /\ R (set_pos (set_pos s (hc_pos s + n)) 0) (Nat.iter (16 * q') step a0)).
      { destruct D as [(P & E)|(P & Q & E & _)].
        - exists q. unfold n. rewrite P. split; [cbn; lia|]. apply R_pos. now apply R_pos.
        - exists q. unfold n in *. destruct (Nat.ltb_spec 0 (hc_pos s)); [|lia]. split; [lia|]. apply R_pos. now apply R_pos. }
      destruct Hpos as (q' & E' & R'). destruct (@rounds_ok (length (skipn n src)) (skipn n src) _ q' (le_n _) R' eq_refl) as [O2 I2].
      destruct (hc_rounds gen (set_pos (set_pos s (hc_pos s + n)) 0) (chunks 64 (skipn n src))) as [s' o]. cbn [fst snd] in *.
      split.
      + rewrite X, O2, <- E'. rewrite <- (firstn_skipn n src) at 3. rewrite xor_stream_app. f_equal. f_equal. lia.
      + replace (pos + length src) with (64 * q' + length (skipn n src)) by lia. exact I2.
    - assert (Z0 : skipn n src = []) by (destruct (skipn n src); [reflexivity|cbn in G; lia]). rewrite Z0. rewrite chunks_nil. cbn [hc_rounds fst snd].
      rewrite app_nil_r, X. assert (n >= length src) by lia. rewrite firstn_all2 by lia. split; [reflexivity|].
      destruct D as [(P & E)|(P & Q & E & B)]; [unfold n in *; rewrite P in *; cbn in *; lia|].
      assert (n = length src) by (unfold n in *; destruct (Nat.ltb_spec 0 (hc_pos s)); lia).
      assert (hc_pos s + n <= 64) by (unfold n in *; destruct (Nat.ltb_spec 0 (hc_pos s)); lia).
      exists q. split; [now apply R_pos|]. right. cbn [hc_pos set_pos hc_block]. split; [lia|]. split; [lia|]. split; [lia|exact B].
  Qed.
  Lemma hc_stream_is s : R s a0 -> hc_pos s = 0 -> stream_is (hc_call gen) s aks.
  Proof.
    intros H P. apply stream_is_from with (Inv := hcInv).
    - intros st pos [dst src] I ok. unfold scall_ok in ok. unfold hc_call. cbn [fst snd] in *.
      destruct (Nat.eqb_spec (length src) 0) as [E|E].
      { destruct src; [|discriminate]. exists st. split; [reflexivity|]. now rewrite Nat.add_0_r. }
      destruct (Nat.ltb_spec (length dst) (length src)); [lia|]. destruct (crypt_ok I (src := src) ltac:(lia)) as [O2 I2].
      exists (fst (hc_crypt gen st src)). split; [|exact I2]. rewrite <- O2. now destruct (hc_crypt gen st src).
    - exists 0. split; [exact H|]. left. auto.
  Qed.
End stream.

(** * The two ciphers *)
Lemma byte_no_eq x k : (0 <= k)%Z -> byte_no x k = Z.to_nat (Z.shiftr x (8 * k) mod 256).
Proof. intro K. unfold byte_no. rewrite Z.shiftr_div_pow2 by lia. reflexivity. Qed.
Lemma wadd_l w a b c : wadd w (wadd w a b) c = ((a + b + c) mod 2 ^ w)%Z.
Proof. unfold wadd. apply Zplus_mod_idemp_l. Qed.
Lemma wadd_r w a b c : wadd w a (wadd w b c) = ((a + (b + c)) mod 2 ^ w)%Z.
Proof. unfold wadd. apply Zplus_mod_idemp_r. Qed.
Lemma wadd_3 w a b c d : wadd w (wadd w (wadd w a b) c) d = ((a + b + c + d) mod 2 ^ w)%Z.
Proof. rewrite (wadd_l w a b c). apply Zplus_mod_idemp_l. Qed.
Lemma wadd_4 w a b c d e : wadd w (wadd w (wadd w (wadd w a b) c) d) e = ((a + b + c + d + e) mod 2 ^ w)%Z.
Proof. rewrite (wadd_3 w a b c d). apply Zplus_mod_idemp_l. Qed.
Lemma h128_eq x U : h128 x U = hc128_h x U.
Proof. unfold h128, hc128_h. rewrite !byte_no_eq by lia. reflexivity. Qed.
Lemma h256_eq x U : h256 x U = hc256_h x U.
Proof.
  unfold h256, hc256_h. rewrite !byte_no_eq by lia. change (8 * 0)%Z with 0%Z. change (8 * 1)%Z with 8%Z. change (8 * 2)%Z with 16%Z. change (8 * 3)%Z with 24%Z.
  apply wadd_3.
Qed.
Lemma next_back N T j : 32 <= N -> T.[(j + 1) mod N] = back N T j (N - 1).
Proof. intro H. unfold back. do 2 f_equal. lia. Qed.
Lemma rel128P T U j : new128 g128p T.[j] (back 512 T j 3) (back 512 T j 10) T.[(j + 1) mod 512] (back 512 T j 12) U = hc128_P T U j.
Proof. rewrite next_back by lia. unfold new128, g128p, hc128_P. rewrite wadd_r. reflexivity. Qed.
Lemma rel128Q T U j : new128 g128q T.[j] (back 512 T j 3) (back 512 T j 10) T.[(j + 1) mod 512] (back 512 T j 12) U = hc128_Q T U j.
Proof. rewrite next_back by lia. unfold new128, g128q, hc128_Q. rewrite wadd_r. reflexivity. Qed.
Lemma rel128Pi T U j : new128i g128p T.[j] (back 512 T j 3) (back 512 T j 10) T.[(j + 1) mod 512] (back 512 T j 12) U = hc128_setup hc128_P T U j.
Proof. unfold hc128_setup. rewrite <- rel128P, <- h128_eq. reflexivity. Qed.
Lemma rel128Qi T U j : new128i g128q T.[j] (back 512 T j 3) (back 512 T j 10) T.[(j + 1) mod 512] (back 512 T j 12) U = hc128_setup hc128_Q T U j.
Proof. unfold hc128_setup. rewrite <- rel128Q, <- h128_eq. reflexivity. Qed.
Lemma rel256 T U j : new256 T.[j] (back 1024 T j 3) (back 1024 T j 10) T.[(j + 1) mod 1024] (back 1024 T j 12) U = hc256_c T U j.
Proof.
  rewrite next_back by lia. unfold new256, g256, hc256_c. change (Z.land _ 0x3ff) with (Z.land (Z.lxor (back 1024 T j 3) (back 1024 T j (1024 - 1))) (Z.ones 10)).
  rewrite Z.land_ones by lia. rewrite wadd_r. unfold wadd. rewrite Zplus_mod_idemp_l. reflexivity.
Qed.
Lemma hcW_len f n : length f = 16 -> length (hcW f n) = 16 + n.
Proof. intro L. induction n as [|n IH]; cbn [hcW]; [lia|]. rewrite app_length, IH. cbn [length]. lia. Qed.
Lemma hc_W_eq f n : length f = 16 -> forall m, hc_W n (Z.of_nat (16 + m)) (rev (hcW f m)) = rev (hcW f (m + n)).
Proof.
  intro L. induction n as [|n IH]; intro m; cbn [hc_W]; [now rewrite Nat.add_0_r|].
  rewrite <- Nat.add_succ_comm, <- IH. replace (Z.of_nat (16 + m) + 1)%Z with (Z.of_nat (16 + S m)) by lia. f_equal.
  pose proof (@hcW_len f m L) as LW. cbn [hcW]. rewrite rev_app_distr. cbn [rev app]. f_equal.
  rewrite !rev_nth by lia. rewrite LW. unfold hc_f1, hc_f2. fold (hcf1 (hcW f m).[16 + m - 15]).
  change (16 + m - S 14) with (16 + m - 15). change (16 + m - S 1) with (16 + m - 2). change (16 + m - S 6) with (16 + m - 7). change (16 + m - S 15) with (16 + m - 16).
  fold (hcf1 (hcW f m).[16 + m - 15]). fold (hcf2 (hcW f m).[16 + m - 2]).
  apply wadd_4.
Qed.
Lemma cache_start N T : 32 <= N -> length T = N -> cache N (slice (N - 16) 16 T) T 0.
Proof.
  intros HN L k K. rewrite !Nat.add_0_l. rewrite !(Nat.mod_small) by lia. rewrite nth_slice by lia. f_equal. lia.
Qed.
Lemma slice_len (l : list Z) o n : o + n <= length l -> length (slice o n l) = n.
Proof. intro H. unfold slice. rewrite firstn_length, skipn_length. lia. Qed.
Lemma iter_gen_R N newP newQ cP cQ : N mod 16 = 0 -> 32 <= N ->
  (forall T U j, newP T.[j] (back N T j 3) (back N T j 10) T.[(j + 1) mod N] (back N T j 12) U = cP T U j) ->
  (forall T U j, newQ T.[j] (back N T j 3) (back N T j 10) T.[(j + 1) mod N] (back N T j 12) U = cQ T U j) ->
  forall n m s a, m = 16 * n -> hcR N s a -> hcR N (Nat.iter n (hc_generate N newP newQ None) s) (Nat.iter m (hc_step N cP cQ) a) /\
    hc_pos (Nat.iter n (hc_generate N newP newQ None) s) = hc_pos s.
Proof.
  intros N16 NB rP rQ n m s a -> H. induction n as [|n [IH1 IH2]]; [auto|].
  destruct (@gen_R N newP newQ None cP cQ N16 NB rP rQ _ _ IH1) as (R1 & P1 & _).
  change (Nat.iter (S n) ?f s) with (f (Nat.iter n f s)). rewrite P1, IH2. split; [|reflexivity].
  rewrite iter_plus in R1. replace (16 * S n) with (16 + 16 * n) by lia. exact R1.
Qed.
Lemma ldw4_len k n : length k = 4 * n -> length (ldw 4 k) = n.
Proof.
  revert k. induction n as [|n IH]; intros k L.
  - destruct k; [|cbn in L; lia]. reflexivity.
  - unfold ldw. rewrite chunks_cons by (try lia; intros ->; cbn in L; lia). cbn [map length]. f_equal.
    specialize (IH (skipn 4 k)). unfold ldw in IH. rewrite IH; [reflexivity|]. rewrite skipn_length. lia.
Qed.
Lemma hcR_pos N s a p : hcR N s a -> hcR N (set_pos s p) a. Proof. destruct a as [[P Q] t]. auto. Qed.
Lemma start_R N P Q : N mod 16 = 0 -> 32 <= N -> length P = N -> length Q = N ->
  hcR N (Hc hc_blank P Q (slice (N - 16) 16 P) (slice (N - 16) 16 Q) 0 0) (P, Q, 0).
Proof.
  intros M B LP LQ. assert (S1 : forall T, length T = N -> length (slice (N - 16) 16 T) = 16) by (intros; apply slice_len; lia).
  cbn [hcR hc_P hc_Q hc_words hc_X hc_Y hc_block]. destruct (Nat.ltb_spec 0 N); [|lia].
  repeat split; auto; [rewrite Nat.mod_small; lia|now apply cache_start|now apply cache_start].
Qed.
Theorem hc128_stream key iv : length key = 16 -> length iv = 16 ->
  exists st, hc128_new key iv = Ok st /\ stream_is hc128_call st (hc128_ks key iv).
Proof.
  intros K V. unfold hc128_new. rewrite K, V. cbn [Nat.eqb negb]. exists (hc128_init key iv). split; [reflexivity|].
  pose proof (@ldw4_len key 4 K) as LK. pose proof (@ldw4_len iv 4 V) as LV.
  assert (L16 : length (ldw 4 key ++ ldw 4 key ++ ldw 4 iv ++ ldw 4 iv) = 16) by (rewrite !app_length, LK, LV; reflexivity).
  pose proof (@hc_W_eq _ 1264 L16 0) as EW. pose proof (@hcW_len _ 1264 L16) as LW.
  change (hcW ?f 0) with f in EW. change (Z.of_nat (16 + 0)) with 16%Z in EW. rewrite Nat.add_0_l in EW.
  assert (Hstart : hcR 512 (hc128_init key iv) (hc128_start key iv) /\ hc_pos (hc128_init key iv) = 0).
  { unfold hc128_init, hc128_start. rewrite EW, rev_involutive. set (W := hcW _ 1264) in *.
    unfold gen128i. refine (@iter_gen_R 512 _ _ _ _ eq_refl ltac:(lia) rel128Pi rel128Qi (1024 / 16) 1024 _ _ eq_refl _).
    apply start_R; [reflexivity|lia|apply slice_len; lia|apply slice_len; lia]. }
  destruct Hstart as [HR HP]. unfold hc128_ks, hc_stream.
  apply hc_stream_is with (R := hcR 512); [|apply hcR_pos|exact HR|exact HP].
  intros s a H. destruct (@gen_R 512 _ _ (Some h128) _ _ eq_refl ltac:(lia) rel128P rel128Q s a H) as (R1 & P1 & B1).
  split; [exact R1|]. split; [exact P1|]. unfold gen128. rewrite (B1 h128 eq_refl). apply map_ext. intro k. unfold hc_out.
  destruct (Nat.iter k (hc_step 512 hc128_P hc128_Q) a) as [[P Q] t]. destruct (hc_step 512 hc128_P hc128_Q (P, Q, t)) as [[P' Q'] t']. rewrite !h128_eq. reflexivity.
Qed.
Theorem hc256_stream key iv : length key = 32 -> length iv = 32 ->
  exists st, hc256_new key iv = Ok st /\ stream_is hc256_call st (hc256_ks key iv).
Proof.
  intros K V. unfold hc256_new. rewrite K, V. cbn [Nat.eqb negb]. exists (hc256_init key iv). split; [reflexivity|].
  pose proof (@ldw4_len key 8 K) as LK. pose proof (@ldw4_len iv 8 V) as LV.
  assert (L16 : length (ldw 4 key ++ ldw 4 iv) = 16) by (rewrite !app_length, LK, LV; reflexivity).
  pose proof (@hc_W_eq _ 2544 L16 0) as EW. pose proof (@hcW_len _ 2544 L16) as LW.
  change (hcW ?f 0) with f in EW. change (Z.of_nat (16 + 0)) with 16%Z in EW. rewrite Nat.add_0_l in EW.
  assert (Hstart : hcR 1024 (hc256_init key iv) (hc256_start key iv) /\ hc_pos (hc256_init key iv) = 0).
  { unfold hc256_init, hc256_start. rewrite EW, rev_involutive. set (W := hcW _ 2544) in *.
    unfold gen256i. refine (@iter_gen_R 1024 _ _ _ _ eq_refl ltac:(lia) rel256 rel256 (4096 / 16) 4096 _ _ eq_refl _).
    apply start_R; [reflexivity|lia|apply slice_len; lia|apply slice_len; lia]. }
  destruct Hstart as [HR HP]. unfold hc256_ks, hc_stream.
  apply hc_stream_is with (R := hcR 1024); [|apply hcR_pos|exact HR|exact HP].
  intros s a H. destruct (@gen_R 1024 _ _ (Some h256) _ _ eq_refl ltac:(lia) rel256 rel256 s a H) as (R1 & P1 & B1).
  split; [exact R1|]. split; [exact P1|]. unfold gen256. rewrite (B1 h256 eq_refl). apply map_ext. intro k. unfold hc_out.
  destruct (Nat.iter k (hc_step 1024 hc256_c hc256_c) a) as [[P Q] t]. destruct (hc_step 1024 hc256_c hc256_c (P, Q, t)) as [[P' Q'] t']. rewrite !h256_eq. reflexivity.
Qed.
