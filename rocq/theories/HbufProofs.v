(** The block buffer holds exactly what has been written. *)
From Verif Require Import Base HashSpec HbufModel HbufSpec.
Set Implicit Arguments. Unset Strict Implicit.
Local Open Scope nat_scope.

Lemma copyat_len n p x : n <= length x -> length (copyat n p x) = length x.
Proof. intro. unfold copyat. rewrite app_length, gocopy_length, firstn_length, skipn_length. lia. Qed.
Lemma copyat_full n p x : n <= length x -> length x <= n + length p -> copyat n p x = firstn n x ++ firstn (length x - n) p.
Proof.
  intros A B. unfold copyat, gocopy. rewrite skipn_length.
  rewrite (skipn_all2 (n := length p) (skipn n x)) by (rewrite skipn_length; lia). now rewrite app_nil_r.
Qed.
Lemma copyat_fits n p x : n + length p <= length x -> copyat n p x = firstn n x ++ p ++ skipn (n + length p) x.
Proof.
  intros A. unfold copyat, gocopy. rewrite (firstn_all2 (n := length (skipn n x)) p) by (rewrite skipn_length; lia).
  f_equal. f_equal. rewrite Nat.add_comm. generalize (length p) as k. intro k. clear A. revert x. induction n as [|n IH]; intros x.
  - now rewrite Nat.add_0_r.
  - rewrite Nat.add_succ_r. destruct x; [now rewrite !skipn_nil|]. apply IH.
Qed.
Lemma firstn_copyat n p x : n + length p <= length x -> firstn (n + length p) (copyat n p x) = firstn n x ++ p.
Proof.
  intro A. rewrite copyat_fits by auto. rewrite app_assoc.
  rewrite firstn_app. rewrite app_length, firstn_length, Nat.min_l by lia. rewrite Nat.sub_diag. cbn [firstn]. rewrite app_nil_r.
  apply firstn_all2. rewrite app_length, firstn_length. lia.
Qed.

Lemma chunks_app_al {A} n (a b : list A) k : 0 < n -> length a = k * n -> chunks n (a ++ b) = chunks n a ++ chunks n b.
Proof.
  intros Hn. revert a. induction k as [|k IH]; intros a Ha.
  - destruct a; [reflexivity|discriminate].
  - rewrite <- (firstn_skipn n a) at 1 2. rewrite <- app_assoc.
    assert (L : length (firstn n a) = n) by (rewrite firstn_length; lia).
    rewrite (@chunks_app_block A n (firstn n a) (skipn n a ++ b)), (@chunks_app_block A n (firstn n a) (skipn n a)) by auto. cbn [app]. f_equal. apply IH. rewrite skipn_length. lia.
Qed.
Lemma chunks_single {A} n (b : list A) : 0 < n -> length b = n -> chunks n b = [b].
Proof. intros H L. rewrite <- (app_nil_r b) at 1. rewrite chunks_app_block by auto. now rewrite chunks_nil. Qed.
Lemma iterated_app {S} n (f : S -> bytes -> S) s a b k : 0 < n -> length a = k * n -> iterated n f s (a ++ b) = iterated n f (iterated n f s a) b.
Proof. intros Hn Ha. unfold iterated. now rewrite (chunks_app_al b Hn Ha), fold_left_app. Qed.
Lemma iterated_one {S} n (f : S -> bytes -> S) s b : 0 < n -> length b = n -> iterated n f s b = f s b.
Proof. intros Hn Hb. unfold iterated. now rewrite chunks_single. Qed.
Lemma iterated_nil {S} n (f : S -> bytes -> S) s : iterated n f s [] = s.
Proof. reflexivity. Qed.

Section buf.
  Variable S : Type.
  Variable blk : S -> bytes -> S.
  Variable bs : nat.
  Hypothesis bs_pos : 0 < bs.
  Variable iv : S.

  (** [m] has been written: the whole blocks are digested, the rest is in the buffer. *)
  Record holds (m : bytes) (st : bufst S) (q t : bytes) (k : nat) : Prop := Holds {
    h_m : m = q ++ t;
    h_q : length q = k * bs;
    h_s : b_s st = iterated bs blk iv q;
    h_x : firstn (b_nx st) (b_x st) = t;
    h_X : length (b_x st) = bs;
    h_t : length t = b_nx st;
    h_nx : b_nx st < bs;
    h_len : b_len st = (Z.of_nat (length m) mod 2 ^ 64)%Z }.
  Definition Held (m : bytes) (st : bufst S) : Prop := exists q t k, holds m st q t k.

  Lemma loop_holds : forall fuel s x nx p q k, length p < fuel ->
    length q = k * bs -> s = iterated bs blk iv q -> length x = bs -> nx < bs ->
    let '(s', x', nx', r) := bwrite_loop blk bs fuel s x nx p in
    exists q' k', length q' = k' * bs /\ s' = iterated bs blk iv q' /\ length x' = bs /\ nx' + length r < bs /\
      q ++ firstn nx x ++ p = q' ++ firstn nx' x' ++ r.
  Proof.
    induction fuel as [|f IH]; intros s x nx p q k F Q E X N; [lia|]. cbn [bwrite_loop].
    destruct (bs <=? nx + length p) eqn:C.
    - apply Nat.leb_le in C.
      assert (CF : copyat nx p x = firstn nx x ++ firstn (bs - nx) p) by (rewrite copyat_full by lia; now rewrite X).
      assert (L : length (copyat nx p x) = bs) by (rewrite copyat_len; lia).
      specialize (IH (blk s (copyat nx p x)) (copyat nx p x) 0 (skipn (bs - nx) p) (q ++ copyat nx p x) (1 + k)).
      destruct (bwrite_loop blk bs f _ _ _ _) as [[[s' x'] nx'] r].
      destruct IH as (q' & k' & A & B & D & G & I).
      + rewrite skipn_length. lia.
      + rewrite app_length. lia.
      + rewrite (iterated_app blk iv (copyat nx p x) bs_pos Q), iterated_one by auto. now subst s.
      + auto.
      + lia.
      + exists q', k'. repeat split; auto. rewrite <- I. rewrite CF. cbn [firstn app].
        rewrite <- !app_assoc. f_equal. f_equal. now rewrite firstn_skipn.
    - apply Nat.leb_gt in C. exists q, k. repeat split; auto.
  Qed.

  Lemma write_held m st p : Held m st -> Held (m ++ p) (bwrite blk bs st p).
  Proof.
    intros (q & t & k & H). destruct H. unfold bwrite.
    pose proof (@loop_holds (Datatypes.S (length p)) (b_s st) (b_x st) (b_nx st) p q k) as L.
    destruct (bwrite_loop blk bs _ _ _ _ _) as [[[s' x'] nx'] r].
    destruct L as (q' & k' & A & B & D & G & I); auto.
    exists q', (firstn nx' x' ++ r), k'. constructor; cbn [b_s b_x b_nx b_len]; auto.
    - subst m. rewrite <- app_assoc. rewrite h_x0 in I. exact I.
    - apply firstn_copyat. lia.
    - rewrite copyat_len by lia. exact D.
    - rewrite app_length, firstn_length. lia.
    - rewrite h_len0, Z.add_mod_idemp_l by lia. rewrite app_length. now rewrite Nat2Z.inj_add.
  Qed.
  Lemma new_held x : length x = bs -> Held [] (Buf iv x 0 0).
  Proof. intro X. exists [], [], 0. constructor; cbn; auto. Qed.
  Lemma held_nx m st : Held m st -> b_nx st = length m mod bs.
  Proof.
    intros (q & t & k & []). subst m. rewrite app_length, h_q0, h_t0, Nat.add_comm, Nat.mod_add by lia.
    symmetry. now apply Nat.mod_small.
  Qed.

  Variable sum : bufst S -> bytes -> res bytes.
  Variable reset : bufst S -> bufst S.
  Variable f : bytes -> bytes.
  Variable x0 : bytes.
  Hypothesis x0_len : length x0 = bs.
  Hypothesis reset_new : forall st, reset st = Buf iv x0 0 0.
  Hypothesis sum_held : forall m st inp, Held m st -> sum st inp = Ok (inp ++ f m).
  Theorem buf_streams : streams (bwrite blk bs) sum reset (Buf iv x0 0 0) f.
  Proof.
    unfold streams. intro ops. assert (H : Held [] (Buf iv x0 0 0)) by now apply new_held.
    revert H. generalize (Buf iv x0 0 0) as st, (@nil Z) as m.
    induction ops as [|[p|i|] ops IH]; intros st m H; cbn [hrun_r expected map].
    - reflexivity.
    - apply IH. now apply write_held.
    - f_equal; [now apply sum_held|now apply IH].
    - rewrite reset_new. apply IH. now apply new_held.
  Qed.
End buf.
