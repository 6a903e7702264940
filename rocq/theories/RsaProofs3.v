(** Proofs about RSA: the block loop. *)
From Coq Require Import Znumtheory.
From Verif Require Import Base BigModel NumLib RsaModel RsaSpec RsaProofs RsaProofs2.
Set Implicit Arguments. Unset Strict Implicit.
Local Open Scope nat_scope.

Lemma io_loop_total (f : bytes -> bytes -> res (bytes * bytes)) (Q : bytes -> bytes -> Prop) bs : forall rd, bytes_ok rd ->
  (forall b rd, In b bs -> bytes_ok rd -> f b rd = Err \/ exists c rd', f b rd = Ok (c, rd') /\ bytes_ok rd' /\ Q b c) ->
  io_loop f bs rd = Err \/ exists cs rd', io_loop f bs rd = Ok (concat cs, rd') /\ bytes_ok rd' /\ Forall2 Q bs cs.
Proof.
  induction bs as [|b bs IH]; intros rd O H; cbn [io_loop].
  - right. exists [], rd. split; [reflexivity|]. split; [exact O|constructor].
  - destruct (H b rd (or_introl eq_refl) O) as [->|(c & r & -> & Or & Qc)]; [now left|]. cbn [rbind fst snd].
    destruct (IH r Or (fun b rd I => H b rd (or_intror I))) as [->|(cs & r' & -> & Or' & F)]; [now left|right]. cbn [rbind fst snd].
    exists (c :: cs), r'. split; [reflexivity|]. split; [exact Or'|]. now constructor.
Qed.
Lemma io_loop_norand f bs cs rd : Forall2 (fun b c => f b = Ok c) bs cs -> io_loop (no_rand f) bs rd = Ok (concat cs, rd).
Proof.
  induction 1 as [|b c bs cs H F IH]; cbn [io_loop]; [reflexivity|]. unfold no_rand at 1. rewrite H. cbn [rbind fst snd]. rewrite IH. reflexivity.
Qed.
Lemma io_loop_norand_inv f bs : forall rd o, io_loop (no_rand f) bs rd = Ok o -> Forall (fun b => exists c, f b = Ok c) bs.
Proof.
  induction bs as [|b bs IH]; intros rd o H; [constructor|]. cbn [io_loop] in H. unfold no_rand at 1 in H. destruct (f b) as [c| |] eqn:E; try discriminate. cbn [rbind fst snd] in H.
  destruct (io_loop (no_rand f) bs rd) as [o'| |] eqn:E2; try discriminate. constructor; [eauto|]. exact (IH _ _ E2).
Qed.
Lemma chunks_le n (l : bytes) : 0 < n -> Forall (fun b => length b <= n /\ incl b l) (chunks n l).
Proof.
  intros Hn. remember (length l) as m eqn:E. revert l E. induction m as [m IH] using lt_wf_ind. intros l ->. destruct l as [|x l]; [rewrite chunks_nil; constructor|].
  rewrite chunks_cons by (lia || discriminate). constructor.
  - split; [rewrite firstn_length; lia|]. intros y I. rewrite <- (firstn_skipn n (x :: l)). apply in_or_app. now left.
  - eapply Forall_impl; [|apply (IH (length (skipn n (x :: l)))); [rewrite skipn_length; cbn [length]; lia|reflexivity]].
    intros b [H1 H2]. split; [exact H1|]. intros y I. rewrite <- (firstn_skipn n (x :: l)). apply in_or_app. right. now apply H2.
Qed.
Lemma concat_len n (ls : list bytes) : Forall (fun b => length b = n) ls -> length (concat ls) = n * length ls.
Proof. induction 1 as [|b ls H F IH]; cbn [concat length]; [lia|]. rewrite app_length, IH, H. lia. Qed.
Lemma chunks_count n (l : bytes) : 0 < n -> n < length l -> 2 <= length (chunks n l).
Proof.
  intros Hn L. rewrite chunks_cons by (lia || (intros ->; cbn in L; lia)). cbn [length]. rewrite chunks_cons; [cbn [length]; lia|lia|]. intros E. apply (f_equal (@length Z)) in E. rewrite skipn_length in E. cbn in E. lia.
Qed.
Lemma bytes_ok_incl (b l : bytes) : bytes_ok l -> incl b l -> bytes_ok b.
Proof. intros O I. apply Forall_forall. intros x Ix. exact (proj1 (Forall_forall _ _) O x (I x Ix)). Qed.
Lemma forall2_len (A B : Type) (Q : A -> B -> Prop) l l' : Forall2 Q l l' -> length l = length l'.
Proof. induction 1; cbn; congruence. Qed.
