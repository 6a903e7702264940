(** The chunker: the ring buffer holds the stream, and Next finds the first place a chunk may stop. *)
From Verif Require Import Base WordModel WordLib Gf2Spec Gf2Proofs ToolBytesProofs RabinModel RabinSpec RabinProofs.
Set Implicit Arguments. Unset Strict Implicit.
Local Open Scope nat_scope.

Lemma slice_nth (l : bytes) o n i : i < n -> (slice o n l).[i] = l.[o + i].
Proof.
  intro H. unfold slice. revert o n i H. intros o n i H.
  assert (F : forall (k : bytes) n i, i < n -> nth i (firstn n k) 0%Z = nth i k 0%Z).
  { induction k as [|x k IH]; intros [|n'] i' H'; try lia; cbn [firstn]; auto. destruct i'; cbn [nth]; auto. apply IH. lia. }
  rewrite F by auto. revert o. induction l as [|x l IH]; intros o; [destruct o, i; auto; now destruct (o + S i)|].
  destruct o; cbn [skipn Nat.add]; auto. cbn [nth]. apply IH.
Qed.
Lemma nth_ext_z (a b : bytes) : length a = length b -> (forall i, i < length a -> a.[i] = b.[i]) -> a = b.
Proof. intros L H. apply (nth_ext _ _ 0%Z 0%Z); auto. Qed.
Lemma slice_length (l : bytes) o n : o + n <= length l -> length (slice o n l) = n.
Proof. intro H. unfold slice. rewrite firstn_length, skipn_length. lia. Qed.
Lemma skipn_plus {A} a b (l : list A) : skipn a (skipn b l) = skipn (b + a) l.
Proof. revert l. induction b as [|b IH]; intro l; [reflexivity|]. destruct l; cbn [skipn Nat.add]; [now rewrite skipn_nil|apply IH]. Qed.

Section stream.
  Variable D : bytes. (* the whole stream *)
  Definition At (t : nat) (r : reader) : Prop := rd_data r = skipn t D /\ t <= length D /\ rd_end r = EOF /\ rd_eager r = false.
  Lemma read_end t r n : At t r -> t = length D -> rd_read r n = ([], Some EOF, r).
  Proof. intros (A & _ & B & C) ->. unfold rd_read. rewrite A, skipn_all2, B by lia. reflexivity. Qed.
  Lemma read_some t r n : At t r -> t < length D -> 0 < n ->
    exists k r', rd_read r n = (slice t k D, None, r') /\ 0 < k <= n /\ t + k <= length D /\ At (t + k) r' /\ rd_disc r' = rd_disc r.
  Proof.
    intros (A & T & B & C) L N. assert (LS : length (skipn t D) = length D - t) by apply skipn_length.
    unfold rd_read. rewrite A. destruct (skipn t D) as [|x d] eqn:E; [cbn [length] in LS; lia|]. rewrite C. cbn [andb].
    set (k := Nat.min n _). exists k. eexists. split; [|].
    { unfold slice. rewrite E. reflexivity. }
    assert (K : 0 < k <= length (x :: d)) by (unfold k; cbn [length]; destruct (rd_plan r); lia).
    split; [unfold k in *; lia|]. split; [lia|]. split; [|reflexivity]. unfold At, rd_take. cbn [rd_data rd_end rd_eager].
    rewrite A, <- E, skipn_plus. repeat split; auto; lia.
  Qed.
  Variable N : nat.
  (** everything between head and tail is in the ring *)
  Definition held (c : chunker) : Prop := forall j, c_head c <= j < c_tail c -> (c_buf c).[j mod N] = D.[j].
  Record good (c : chunker) : Prop := Good {
    q_at : At (c_tail c) (c_r c);
    q_err : c_err c = None;
    q_buf : length (c_buf c) = N;
    q_hd : held c }.
  Record done (c : chunker) : Prop := Done { z_tail : c_tail c = length D; z_err : c_err c = Some EOF }.
  Hypothesis N_pos : 0 < N.

  Lemma discard_loop_ok fuel : forall c n, At (c_tail c) (c_r c) -> c_err c = None -> length (c_buf c) = N -> n <= fuel ->
    exists c', c_head c' = c_head c /\
      ((c_tail c + n <= length D /\ discard_loop fuel c n = (None, c') /\ c_tail c' = c_tail c + n /\ At (c_tail c') (c_r c') /\ c_err c' = None /\ length (c_buf c') = N) \/
       (length D < c_tail c + n /\ discard_loop fuel c n = (Some EOF, c') /\ done c')).
  Proof.
    induction fuel as [|f IH]; intros c n A E L F; cbn [discard_loop].
    - exists c. assert (n = 0) by lia. subst n. rewrite Nat.add_0_r. destruct A as (A1 & A2 & A3). split; auto. left. repeat split; auto; apply A3.
    - destruct (Nat.eqb_spec n 0) as [->|NZ].
      + exists c. rewrite Nat.add_0_r. destruct A as (A1 & A2 & A3). split; auto. left. repeat split; auto; apply A3.
      + destruct (Nat.eq_dec (c_tail c) (length D)) as [TE|TN].
        * rewrite (read_end _ A TE). eexists. split; [|right; split; [lia|]; split; [reflexivity|]]; [reflexivity|].
          constructor; cbn [c_tail c_err length]; auto. lia.
        * assert (TL : c_tail c < length D) by (destruct A; lia). assert (MN : 0 < Nat.min (length (c_buf c)) n) by lia.
          destruct (read_some A TL MN) as (k & r' & -> & K & KD & A' & _).
          assert (LS : length (slice (c_tail c) k D) = k) by now apply slice_length. rewrite LS.
          set (c1 := Chunker r' _ _ _ _). destruct (IH c1 (n - k)) as (c' & H & X); auto; try (unfold c1; cbn [c_tail c_buf]; rewrite ?gocopy_length; auto; lia).
          exists c'. split; [rewrite H; reflexivity|]. unfold c1 at 1 3 4 in X. cbn [c_tail] in X. replace (c_tail c + k + (n - k)) with (c_tail c + n) in X by lia.
          destruct X as [X|X]; [left|right]; tauto.
  Qed.
  Lemma c_discard_ok c n : At (c_tail c) (c_r c) -> c_err c = None -> length (c_buf c) = N ->
    exists c', c_head c' = c_head c /\
      ((c_tail c + n <= length D /\ c_discard c n = (None, c') /\ c_tail c' = c_tail c + n /\ At (c_tail c') (c_r c') /\ c_err c' = None /\ length (c_buf c') = N) \/
       (length D < c_tail c + n /\ c_discard c n = (Some EOF, c') /\ done c')).
  Proof.
    intros A E L. unfold c_discard. rewrite E. destruct (rd_disc (c_r c)); [|now apply discard_loop_ok].
    unfold rd_discard. pose proof A as (A1 & A2 & A3 & A4). assert (LS : length (rd_data (c_r c)) = length D - c_tail c) by (rewrite A1; apply skipn_length). rewrite LS.
    set (m := Nat.min n _). destruct (Nat.ltb_spec m n) as [C|C]; set (c1 := Chunker _ _ _ _ _); exists c1; (split; [reflexivity|]); unfold c1.
    - right. split; [unfold m in C; lia|]. rewrite A3. split; [reflexivity|]. constructor; cbn [c_tail c_err]; auto. unfold m in *. lia.
    - left. split; [unfold m in C; lia|]. split; [reflexivity|]. cbn [c_tail c_r c_err c_buf]. replace m with n by (unfold m in *; lia). split; auto. split; auto.
      unfold At, rd_take. cbn [rd_data rd_end rd_eager]. rewrite A1, skipn_plus. repeat split; auto. unfold m in C. lia.
  Qed.

  Lemma mod_diff a b : a < b -> b - a < N -> a mod N <> b mod N.
  Proof.
    intros H1 H2 E. pose proof (Nat.div_mod a N). pose proof (Nat.div_mod b N). assert (N * (b / N) = N * (a / N) + (b - a)) by lia.
    assert (a / N <= b / N) by nia. assert (a / N = b / N \/ a / N + 1 <= b / N) by lia. destruct H5; nia.
  Qed.
  Lemma c_more_ok c : good c -> c_head c <= c_tail c -> c_tail c - c_head c < N ->
    exists c', c_head c' = c_head c /\
      ((c_tail c < length D /\ c_more c = (None, c') /\ good c' /\ c_tail c < c_tail c' /\ c_tail c' - c_head c' <= N) \/
       (c_tail c = length D /\ c_more c = (Some EOF, c') /\ done c')).
  Proof.
    intros [A E L H] HT HN. unfold c_more. rewrite E, L. set (wt := c_tail c mod N). set (wh := c_head c mod N).
    assert (WT : wt < N) by (apply Nat.mod_upper_bound; lia). assert (WH : wh < N) by (apply Nat.mod_upper_bound; lia).
    set (room := if wh <=? wt then N - wt else wh - wt).
    assert (R : 0 < room /\ wt + room <= N /\ c_tail c + room - c_head c <= N).
    { pose proof (Nat.div_mod (c_tail c) N). pose proof (Nat.div_mod (c_head c) N). fold wt in H0. fold wh in H1.
      assert (Q : c_head c / N <= c_tail c / N) by (apply Nat.div_le_mono; lia).
      assert (Q2 : c_tail c / N <= c_head c / N + 1) by nia.
      unfold room. destruct (Nat.leb_spec wh wt).
      - assert (c_tail c / N = c_head c / N \/ c_tail c / N = c_head c / N + 1) as [Q3|Q3] by lia; [|nia]. nia.
      - assert (c_tail c / N = c_head c / N \/ c_tail c / N = c_head c / N + 1) as [Q3|Q3] by lia; nia. }
    destruct R as (R1 & R2 & R3).
    destruct (Nat.eq_dec (c_tail c) (length D)) as [TE|TN].
    - rewrite (read_end _ A TE). cbn [length]. eexists. split; [|right; split; [auto|]; split; [reflexivity|]]; [reflexivity|]. constructor; cbn [c_tail c_err]; auto. lia.
    - assert (TL : c_tail c < length D) by (destruct A; lia). destruct (read_some A TL R1) as (k & r' & -> & K & KD & A' & _).
      assert (LS : length (slice (c_tail c) k D) = k) by now apply slice_length. rewrite LS.
      set (d := slice (c_tail c) k D) in *. set (c1 := Chunker r' _ _ _ _). exists c1. split; [reflexivity|]. left. split; auto.
      split; [destruct d; [cbn [length] in LS; lia|reflexivity]|]. split; [|cbn [c1 c_tail c_head]; lia].
      constructor; auto.
      + unfold c1. cbn [c_buf]. rewrite !app_length, LS, firstn_length, skipn_length, L. lia.
      + intros j J. unfold c1 in *. cbn [c_head c_tail c_buf] in *. assert (LF : length (firstn wt (c_buf c)) = wt) by (rewrite firstn_length; lia).
        destruct (Nat.lt_ge_cases j (c_tail c)) as [JL|JL].
        * assert (DJ : j mod N < wt \/ wt + k <= j mod N).
          { destruct (Nat.lt_ge_cases (j mod N) wt); auto. right. destruct (Nat.lt_ge_cases (j mod N) (wt + k)) as [C|C]; auto. exfalso.
            apply (@mod_diff j (c_tail c + (j mod N - wt))); [lia|lia|]. rewrite Nat.add_mod by lia. fold wt.
            rewrite (Nat.mod_small (j mod N - wt)) by lia. rewrite (Nat.mod_small (wt + (j mod N - wt))) by lia. lia. }
          rewrite <- (H j) by lia. destruct DJ as [DJ|DJ].
          -- rewrite app_nth1 by lia. rewrite <- (firstn_skipn wt (c_buf c)) at 2. now rewrite app_nth1 by lia.
          -- rewrite app_nth2, app_nth2 by lia. rewrite LF, LS. rewrite <- (firstn_skipn (wt + k) (c_buf c)) at 2.
             rewrite app_nth2; rewrite firstn_length, L, Nat.min_l by lia; [|lia]. f_equal. lia.
        * replace j with (c_tail c + (j - c_tail c)) at 1 by lia. rewrite Nat.add_mod by lia. fold wt. rewrite (Nat.mod_small (j - c_tail c)) by lia.
          rewrite Nat.mod_small by lia. rewrite app_nth2 by lia. rewrite app_nth1 by lia. rewrite LF.
          replace (wt + (j - c_tail c) - wt) with (j - c_tail c) by lia. unfold d. rewrite slice_nth by lia. f_equal. lia.
  Qed.
  Lemma prime_ok fuel : forall c w, good c -> c_head c <= c_tail c -> c_tail c - c_head c <= N -> w < N -> c_head c + w - c_tail c < fuel ->
    exists c', c_head c' = c_head c /\
      ((c_head c + w <= length D /\ prime fuel w c = (None, c') /\ good c' /\ c_head c + w <= c_tail c' /\ c_tail c' - c_head c' <= N) \/
       (length D < c_head c + w /\ prime fuel w c = (Some EOF, c') /\ done c')).
  Proof.
    induction fuel as [|f IH]; intros c w G HT HN W F; [lia|]. cbn [prime]. destruct (Nat.ltb_spec (c_tail c) (c_head c + w)) as [C|C].
    - assert (X : c_tail c - c_head c < N) by lia. destruct (c_more_ok G HT X) as (c1 & H1 & [(L & -> & G1 & T1 & N1)|(L & -> & Z)]).
      + destruct (IH c1 w) as (c' & H & Y); auto; try lia. exists c'. split; [lia|]. rewrite H1 in Y. exact Y.
      + exists c1. split; auto. right. split; [lia|]. auto.
    - exists c. split; auto. left. assert (c_tail c <= length D) by apply (q_at G). repeat (split; auto); lia.
  Qed.
  Lemma window_ok c w : good c -> c_head c + w <= c_tail c -> w <= N -> fst (window_of c w) ++ snd (window_of c w) = slice (c_head c) w D.
  Proof.
    intros [A E L H] HT W. assert (TD : c_tail c <= length D) by (destruct A; lia).
    unfold window_of. rewrite L. set (h := c_head c mod N). assert (HN : h < N) by (apply Nat.mod_upper_bound; lia).
    assert (LB : length (skipn h (c_buf c)) = N - h) by (rewrite skipn_length; lia). rewrite LB.
    assert (S0 : forall i, (skipn h (c_buf c)).[i] = (c_buf c).[h + i]).
    { intro i. rewrite <- (firstn_skipn h (c_buf c)) at 2. rewrite app_nth2; rewrite firstn_length, Nat.min_l by lia; [|lia]. f_equal. lia. }
    destruct (Nat.leb_spec w (N - h)) as [C|C]; cbn [fst snd].
    - rewrite app_nil_r. apply nth_ext_z; [rewrite slice_length, firstn_length by lia; lia|]. intros i I. rewrite firstn_length in I.
      rewrite slice_nth by lia. rewrite <- (H (c_head c + i)) by lia.
      replace (firstn w (skipn h (c_buf c))) with (slice h w (c_buf c)) by reflexivity. rewrite slice_nth by lia. f_equal.
      rewrite Nat.add_mod by lia. fold h. rewrite (Nat.mod_small i) by lia. symmetry. apply Nat.mod_small. lia.
    - apply nth_ext_z; [rewrite app_length, slice_length, firstn_length by lia; lia|]. intros i I. rewrite app_length, firstn_length in I.
      rewrite slice_nth by lia. rewrite <- (H (c_head c + i)) by lia. destruct (Nat.lt_ge_cases i (N - h)) as [Q|Q].
      + rewrite app_nth1 by lia. rewrite S0. f_equal. rewrite Nat.add_mod by lia. fold h. rewrite (Nat.mod_small i) by lia. symmetry. apply Nat.mod_small. lia.
      + rewrite app_nth2 by lia. rewrite LB. replace (firstn (w - (N - h)) (c_buf c)) with (slice 0 (w - (N - h)) (c_buf c)) by reflexivity.
        rewrite slice_nth by lia. f_equal. rewrite Nat.add_mod by lia. fold h. rewrite (Nat.mod_small i) by lia.
        replace (h + i) with (0 + i - (N - h) + 1 * N) by lia. rewrite Nat.mod_add by lia. symmetry. apply Nat.mod_small. lia.
  Qed.

  (** * Rolling *)
  Variable P : Z.
  Hypothesis P_lo : (2 ^ 8 <= P)%Z.
  Hypothesis P_hi : (P < 2 ^ 64)%Z.
  Variable w : nat.
  Hypothesis w_pos : 0 < w.
  Hypothesis N_w : 2 * w <= N.
  Variable p : cparams.
  Hypothesis T_ok : new_table P w = Ok (cp_tab p).
  Hypothesis D_ok : bytes_ok D.
  Definition hit (e : nat) : Prop := Z.land (rabin P (slice (e - w) w D)) (cp_mask p) = cp_mask p.
  Lemma slice_ok o n : bytes_ok (slice o n D).
  Proof.
    unfold slice. assert (X : bytes_ok (skipn o D)) by (rewrite <- (firstn_skipn o D) in D_ok; now apply Forall_app in D_ok).
    rewrite <- (firstn_skipn n (skipn o D)) in X. now apply Forall_app in X.
  Qed.
  Lemma slice_step o : o + w < length D -> exists rest, slice o w D = D.[o] :: rest /\ slice (o + 1) w D = rest ++ [D.[o + w]] /\ length rest = w - 1.
  Proof.
    intro H. exists (slice (o + 1) (w - 1) D). split; [|split; [|apply slice_length; lia]].
    - apply nth_ext_z; [cbn [length]; rewrite !slice_length by lia; lia|]. intros i I. rewrite slice_length in I by lia. rewrite slice_nth by lia.
      destruct i; cbn [nth]; [f_equal; lia|]. rewrite slice_nth by lia. f_equal. lia.
    - apply nth_ext_z; [rewrite app_length; cbn [length]; rewrite !slice_length by lia; lia|]. intros i I. rewrite slice_length in I by lia. rewrite slice_nth by lia.
      destruct (Nat.eq_dec i (w - 1)) as [->|].
      + rewrite app_nth2; rewrite slice_length by lia; [|lia]. rewrite Nat.sub_diag. cbn [nth]. f_equal. lia.
      + rewrite app_nth1 by (rewrite slice_length; lia). now rewrite slice_nth by lia.
  Qed.
  Lemma roll_ok limit fuel : forall c hash, good c -> c_head c + w <= c_tail c -> c_tail c - c_head c <= N ->
    is_hash P (be_val (slice (c_head c) w D)) hash -> limit - c_head c < fuel -> c_head c <= limit ->
    exists c', roll fuel p limit (c_tail c - w) hash c = (None, c') /\ c_head c <= c_head c' <= limit /\ c_head c' + w <= length D /\
      (forall h, c_head c <= h < c_head c' -> ~ hit (h + w)) /\
      ((good c' /\ c_head c' + w <= c_tail c' /\ c_tail c' - c_head c' <= N /\ (c_head c' = limit \/ hit (c_head c' + w))) \/
       (done c' /\ c_head c' + w = length D /\ c_head c' < limit /\ ~ hit (c_head c' + w))).
  Proof.
    assert (TW : t_window (cp_tab p) = w) by exact (T_window T_ok).
    induction fuel as [|f IH]; intros c hash G HT HN HH F LM; [lia|]. cbn [roll]. rewrite TW.
    assert (HE : hash = rabin P (slice (c_head c) w D)) by (apply (is_hash_rabin P_lo P_hi); [apply slice_ok|auto]).
    assert (HHIT : (Z.land hash (cp_mask p) =? cp_mask p)%Z = true <-> hit (c_head c + w)).
    { unfold hit. replace (c_head c + w - w) with (c_head c) by lia. rewrite <- HE. apply Z.eqb_eq. }
    assert (TD : c_tail c <= length D) by (destruct G as [(? & ? & ?) ? ? ?]; lia).
    destruct (Z.land hash (cp_mask p) =? cp_mask p)%Z eqn:MK; cbn [negb andb].
    { exists c. split; auto. split; [lia|]. split; [lia|]. split; [lia|]. left. repeat (split; auto). right. now apply HHIT. }
    assert (NH : ~ hit (c_head c + w)) by (rewrite <- HHIT; discriminate).
    destruct (Nat.ltb_spec (c_head c) limit) as [LT|LT].
    2:{ exists c. split; auto. split; [lia|]. split; [lia|]. split; [lia|]. left. repeat (split; auto). left. lia. }
    (* one step, from a state with a byte to spare *)
    assert (STEP : forall c1, good c1 -> c_head c1 = c_head c -> c_head c + w < c_tail c1 -> c_tail c1 - c_head c1 <= N ->
      exists c', roll f p limit (c_tail c1 - w) (rpush (cp_tab p) (Z.lxor hash (t_pop (cp_tab p)).[Z.to_nat ((c_buf c1).[c_head c1 mod N])]) (c_buf c1).[(c_head c1 + w) mod N])
          (Chunker (c_r c1) (c_buf c1) (c_head c1 + 1) (c_tail c1) (c_err c1)) = (None, c') /\ c_head c <= c_head c' <= limit /\ c_head c' + w <= length D /\
      (forall h, c_head c <= h < c_head c' -> ~ hit (h + w)) /\
      ((good c' /\ c_head c' + w <= c_tail c' /\ c_tail c' - c_head c' <= N /\ (c_head c' = limit \/ hit (c_head c' + w))) \/
       (done c' /\ c_head c' + w = length D /\ c_head c' < limit /\ ~ hit (c_head c' + w)))).
    { intros c1 [A1 E1 L1 H1] C1 T1 N1. assert (TD1 : c_tail c1 <= length D) by (destruct A1; lia).
      rewrite (H1 (c_head c1)), (H1 (c_head c1 + w)) by lia. rewrite C1.
      destruct (@slice_step (c_head c)) as (rest & S1 & S2 & S3); [lia|]. pose proof (slice_ok (c_head c) w) as SO. rewrite S1 in HH, SO.
      set (c2 := Chunker (c_r c1) (c_buf c1) (c_head c + 1) (c_tail c1) (c_err c1)).
      assert (DB : forall i, i < length D -> is_byte D.[i]) by (intros i I; apply (proj1 (Forall_forall _ _) D_ok); now apply nth_In).
      destruct (IH c2 (rpush (cp_tab p) (Z.lxor hash (t_pop (cp_tab p)).[Z.to_nat D.[c_head c]]) D.[c_head c + w])) as (c' & Q1 & Q2 & Q3 & Q4 & Q5).
      - constructor; auto. intros j J. apply H1. cbn [c2 c_head c_tail] in J. lia.
      - cbn [c2 c_head c_tail]. lia.
      - cbn [c2 c_head c_tail]. lia.
      - cbn [c2 c_head]. rewrite S2, be_val_snoc. apply (push_ok P_lo P_hi T_ok).
        + apply be_val_bound. now inversion SO.
        + apply (pop_ok P_lo P_hi T_ok); auto; [lia|cbn [length]; lia].
        + apply DB. lia.
      - cbn [c2 c_head]. lia.
      - cbn [c2 c_head]. lia.
      - exists c'. split; [exact Q1|]. cbn [c2 c_head] in Q2, Q4. split; [lia|]. split; auto. split; auto.
        intros h I. destruct (Nat.eq_dec h (c_head c)) as [->|]; auto. apply Q4. lia. }
    destruct G as [A E L H] eqn:GE. rewrite L. destruct (Nat.eqb_spec (c_head c) (c_tail c - w)) as [RF|RF].
    - assert (X1 : c_head c <= c_tail c) by lia. assert (X2 : c_tail c - c_head c < N) by lia.
      destruct (c_more_ok G X1 X2) as (c1 & H1 & [(L1 & -> & G1 & T1 & N1)|(L1 & -> & Z)]).
      + apply STEP; auto; lia.
      + exists c1. rewrite H1. split; auto. split; [lia|]. split; [lia|]. split; [lia|]. right. repeat (split; auto). lia.
    - apply STEP; auto. lia.
  Qed.

  (** * Next *)
  Hypothesis min_w : w <= cp_min p.
  Hypothesis max_min : cp_min p <= cp_max p.
  Definition ready (c : chunker) : Prop := good c /\ c_head c <= c_tail c /\ c_tail c - c_head c <= N.
  (** the chunk was ended by its contents or its size, not by the end of the stream *)
  Definition full (n : nat) (R : bytes) : Prop :=
    cp_min p <= n /\ (n = cp_max p \/ Z.land (rabin P (lastn w (firstn n R))) (cp_mask p) = cp_mask p).
  Lemma lastn_slice s n : w <= n -> s + n <= length D -> lastn w (firstn n (skipn s D)) = slice (s + n - w) w D.
  Proof.
    intros W L. unfold lastn, slice. rewrite firstn_length, skipn_length, Nat.min_l by lia. rewrite skipn_firstn_comm, skipn_plus.
    f_equal; [lia|]. f_equal. lia.
  Qed.
  Lemma next_ok c : ready c ->
    let R := skipn (c_head c) D in
    (R = [] /\ exists c', done c' /\ c_next p c = (0, if w <? cp_min p then None else Some EOF, c')) \/
    (R <> [] /\ exists n c', c_next p c = (n, None, c') /\ is_cut P w (cp_min p) (cp_max p) (cp_mask p) R n /\
      ((full n R /\ ready c' /\ c_head c' = c_head c + n) \/ (~ full n R /\ n = length R /\ done c'))).
  Proof.
    intros (G & HT & HN) R. assert (TW : t_window (cp_tab p) = w) by exact (T_window T_ok).
    set (s := c_head c). assert (TD : c_tail c <= length D) by (destruct G as [(? & ? & ?) ? ? ?]; lia).
    assert (LR : length R = length D - s) by apply skipn_length.
    assert (RE : R = [] <-> length D = s).
    { split; intro Q; [rewrite Q in LR; cbn [length] in LR; unfold s; lia|]. unfold R. apply skipn_all2. fold s. lia. }
    unfold c_next. rewrite (q_err G), TW. fold s. set (c0 := at_head c (s + (cp_min p - w))).
    assert (SHORT : length D < s + cp_min p -> ~ full (length R) R /\ is_cut P w (cp_min p) (cp_max p) (cp_mask p) R (length R)).
    { intro Q. split; [intros [Q1 _]; lia|]. left. split; auto. lia. }
    assert (END : forall c', done c' -> length D < s + cp_min p ->
       (R = [] /\ (exists c'0, done c'0 /\ (c_tail c' - s, @None rerr, c') = (0, if w <? cp_min p then None else Some EOF, c'0))) \/ (R <> [] /\
        exists n c'0, (c_tail c' - s, @None rerr, c') = (n, None, c'0) /\ is_cut P w (cp_min p) (cp_max p) (cp_mask p) R n /\
        ((full n R /\ ready c'0 /\ c_head c'0 = s + n) \/ (~ full n R /\ n = length R /\ done c'0))) \/ (R = [] /\ cp_min p = w)).
    { intros c' Z Q. destruct (list_eq_dec Z.eq_dec R []) as [RN|RN].
      - destruct (Nat.ltb_spec w (cp_min p)) as [Q1|Q1]; [left|right; right; split; auto; lia]. split; auto. exists c'. split; auto.
        rewrite (z_tail Z). f_equal. f_equal. apply RE in RN. lia.
      - right. left. split; auto. exists (length R), c'. rewrite (z_tail Z), LR. split; auto. rewrite <- LR. destruct (SHORT Q). split; auto. }
    (* the part after the skip *)
    assert (REST : forall c1, good c1 -> c_head c1 = s + (cp_min p - w) -> c_head c1 <= c_tail c1 -> c_tail c1 - c_head c1 <= N ->
      let r := match prime (w + 1) w c1 with
      | (Some e, c) =>
          if (match e with EOF => true | _ => false end) && negb (c_tail c =? s) then (c_tail c - s, None, c)
          else (0, Some e, c)
      | (None, c) =>
        let '(b1, b2) := window_of c w in
        let hash := rupdate (cp_tab p) (rupdate (cp_tab p) 0 b1) b2 in
        let limit := s + cp_max p - w in
        match roll (limit + 1) p limit (c_tail c - w) hash c with
        | (Some e, c) => (0, Some e, c)
        | (None, c) => let head := c_head c + w in (head - s, None, at_head c head)
        end
      end in
      (R = [] /\ exists c', done c' /\ r = (0, if w <? cp_min p then None else Some EOF, c')) \/
      (R <> [] /\ exists n c', r = (n, None, c') /\ is_cut P w (cp_min p) (cp_max p) (cp_mask p) R n /\
      ((full n R /\ ready c' /\ c_head c' = s + n) \/ (~ full n R /\ n = length R /\ done c')))).
    { intros c1 G1 H1 T1 N1. assert (WN : w < N) by lia. assert (FU : c_head c1 + w - c_tail c1 < w + 1) by lia.
      destruct (@prime_ok (w + 1) c1 w G1 T1 N1 WN FU) as (c2 & H2 & [(L2 & -> & G2 & T2 & N2)|(L2 & -> & Z)]).
      - cbv zeta. destruct (window_of c2 w) as [b1 b2] eqn:WO. assert (WE : b1 ++ b2 = slice (c_head c2) w D).
        { rewrite <- (@window_ok c2 w) by (auto; lia). now rewrite WO. }
        set (limit := s + cp_max p - w).
        assert (HH : is_hash P (be_val (slice (c_head c2) w D)) (rupdate (cp_tab p) (rupdate (cp_tab p) 0 b1) b2)).
        { rewrite <- WE. pose proof (slice_ok (c_head c2) w) as SO. rewrite <- WE in SO. apply Forall_app in SO as [SO1 SO2].
          apply (update_ok P_lo P_hi T_ok); auto. apply (update_ok P_lo P_hi T_ok (m := [])); auto; [constructor|apply (is_hash_0 P_lo P_hi)]. }
        assert (T2' : c_head c2 + w <= c_tail c2) by lia. assert (F2 : limit - c_head c2 < limit + 1) by lia. assert (LM : c_head c2 <= limit) by (unfold limit; lia).
        destruct (roll_ok G2 T2' N2 HH F2 LM) as (c3 & -> & B3 & LE3 & NH3 & C3).
        right. assert (RN : R <> []) by (intro Q; apply RE in Q; lia). split; auto.
        set (n := c_head c3 + w - s). exists n. eexists. split; [reflexivity|].
        assert (EN : s + n = c_head c3 + w) by (unfold n; lia). assert (MN : cp_min p <= n) by (unfold n; lia).
        assert (HIT : forall k, w <= k -> s + k <= length D -> (Z.land (rabin P (lastn w (firstn k R))) (cp_mask p) = cp_mask p <-> hit (s + k))).
        { intros k K1 K2. unfold R. fold s. rewrite lastn_slice by auto. reflexivity. }
        assert (NS : forall k, cp_min p <= k < n -> ~ stop P w (cp_max p) (cp_mask p) R k).
        { intros k K [S|[S|S]].
          - unfold limit in B3. lia.
          - lia.
          - apply HIT in S; [|lia|lia]. apply (NH3 (s + k - w)); [lia|]. replace (s + k - w + w) with (s + k) by lia. exact S. }
        destruct C3 as [(G3 & T3 & N3 & S3)|(Z3 & E3 & L3 & NH)].
        + assert (FL : n = cp_max p \/ Z.land (rabin P (lastn w (firstn n R))) (cp_mask p) = cp_mask p).
          { destruct S3 as [S3|S3]; [left; unfold n, limit in *; lia|right]. apply HIT; [lia|lia|]. rewrite EN. exact S3. }
          split.
          * right. split; [lia|]. split; auto. destruct FL; [left|right; right]; auto.
          * left. split; [split; auto|]. split; [|cbn [at_head c_head]; clear -EN; lia]. split; [|cbn [at_head c_head c_tail]; clear -T3 N3; lia].
            destruct G3 as [A3 E3 L3 D3]. constructor; auto. intros j J. apply D3. cbn [at_head c_head c_tail] in J. clear -J. lia.
        + assert (NL : n = length R) by lia. split.
          * right. split; [lia|]. split; auto. right. left. auto.
          * right. split.
            -- intros [_ [Q|Q]]; [unfold limit in L3; lia|]. apply HIT in Q; [|lia|lia]. rewrite EN in Q. now apply NH.
            -- split; auto. constructor; cbn [at_head c_tail c_err]; apply Z3.
      - cbv zeta. cbn [andb]. pose proof (z_tail Z) as ZT. assert (Q : length D < s + cp_min p) by lia.
        destruct (Nat.eqb_spec (c_tail c2) s) as [TS|TS]; cbn [negb].
        + left. split; [apply RE; lia|]. exists c2. split; auto.
          destruct (Nat.ltb_spec w (cp_min p)) as [Q1|Q1]; auto. exfalso.
          (* the skip cannot have succeeded beyond the end *)
          pose proof (q_at G1) as (_ & TD1 & _). lia.
        + right. assert (RN : R <> []) by (intro X; apply RE in X; lia). split; auto. exists (length R), c2. rewrite ZT, LR. split; auto. rewrite <- LR.
          destruct (SHORT Q). split; auto. }
    cbn [at_head c_head c_tail] in *. fold s.
    change (c_tail c0) with (c_tail c). change (c_head c0) with (s + (cp_min p - w)).
    destruct (Nat.ltb_spec (c_tail c) (s + (cp_min p - w))) as [SK|SK].
    - destruct (@c_discard_ok c0 (s + (cp_min p - w) - c_tail c)) as (c1 & H1 & [(L1 & -> & T1 & A1 & E1 & B1)|(L1 & -> & Z)]); try apply G.
      + apply REST; auto; try lia.
        * constructor; auto. intros j J. rewrite T1, H1 in J. cbn [c0 at_head c_tail c_head] in J. lia.
        * rewrite T1, H1. cbn [c0 at_head c_tail c_head]. lia.
        * rewrite T1, H1. cbn [c0 at_head c_tail c_head]. lia.
      + destruct (END c1 Z) as [X|[X|[_ X]]]; auto. { cbn [c0 at_head c_tail] in L1. lia. } lia.
    - apply (REST c0); auto; cbn [c0 at_head c_tail c_head]; try lia.
      destruct G as [A E L H]. constructor; auto. intros j J. apply H. cbn [c0 at_head c_tail c_head] in J. lia.
  Qed.
End stream.
