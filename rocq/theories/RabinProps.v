(** C62: Rabin fingerprints. C63: content-defined chunks. *)
From Verif Require Import Base WordModel HashSpec HbufSpec Gf2Spec Gf2Proofs ToolBytesProofs Hash3Proofs RabinModel RabinSpec RabinProofs ChunkerProofs.
Set Implicit Arguments. Unset Strict Implicit.
Local Open Scope nat_scope.

(** * C62 *)
(** [rabin P m] is the one polynomial of degree below that of P which is congruent to the message modulo P. *)
Theorem C62_remainder P m h : (2 ^ 8 <= P)%Z -> bytes_ok m ->
  ((0 <= h < 2 ^ Z.log2 P)%Z /\ eqp P h (be_val m)) <-> h = rabin P m.
Proof.
  intros LO B.
  assert (R : (0 <= rabin P m < 2 ^ Z.log2 P)%Z /\ eqp P (rabin P m) (be_val m)).
  { unfold rabin. split; [|apply pmod_eqp; lia]. apply pmod_bound; [lia|reflexivity|]. pose proof (be_val_bound B). split; [lia|].
    eapply Z.lt_le_trans; [apply H|]. change 256%Z with (2 ^ 8)%Z. rewrite <- Z.pow_mul_r by lia. apply Z.pow_le_mono_r; [lia|]. pose proof (Z.log2_nonneg P). lia. }
  split; [|now intros ->]. intros [H E]. destruct R as [R1 R2]. apply eqp_unique with P (Z.log2 P); auto; try lia.
  apply eqp_trans with (be_val m); auto. now apply eqp_sym.
Qed.
Print Assumptions C62_remainder.
(** In every history of Write, Sum and Reset each Sum returns the fingerprint of the bytes written, of the last [w] of
    them if there is a window, least significant byte first in as many bytes as hold the polynomial. *)
Theorem C62_streams P w T : (0 <= P < 2 ^ 64)%Z -> new_table P w = Ok T ->
  streams_bytes (r_write T) (r_sum T) (r_reset T) (r_new T)
    (fun m => le_bytes (Z.to_nat ((Z.log2 P + 8) / 8)) (rabin P (if w =? 0 then m else lastn w m))).
Proof.
  intros HP TK. assert (LO : (2 ^ 8 <= P)%Z).
  { unfold new_table, poly_degree in TK. destruct (Z.eqb_spec P 0); [discriminate|]. destruct (Z.ltb_spec (Z.log2 P) 8); [discriminate|]. apply Z.log2_le_pow2; lia. }
  destruct HP as [_ HI]. intros ops F.
  replace (Z.to_nat ((Z.log2 P + 8) / 8)) with (r_size T) by (unfold r_size; rewrite (T_degree LO TK); f_equal; f_equal; lia).
  change (fun m => le_bytes (r_size T) (rabin P (if w =? 0 then m else lastn w m))) with (rabin_digest P w T).
  assert (G : forall ops m d, bytes_ok m -> Forall hop_ok ops -> RInv P w m d -> hrun_r (r_write T) (r_sum T) (r_reset T) d ops = map Ok (expected (rabin_digest P w T) m ops)).
  { clear F ops. induction ops as [|[p|i|] ops IH]; intros m d B F I; cbn [hrun_r expected map]; auto; inversion F; subst.
    - apply IH; auto; [now apply Forall_app|]. now apply (r_write_ok LO HI TK).
    - rewrite (r_sum_ok LO HI TK i B I). f_equal. now apply IH.
    - apply IH; auto; [constructor|]. now apply (r_reset_ok LO HI TK I). }
  apply G; auto; [constructor|]. apply (r_new_ok LO HI TK).
Qed.
Print Assumptions C62_streams.
(** Sum64 after writing m *)
Theorem C62_sum64 P w T m : (0 <= P < 2 ^ 64)%Z -> new_table P w = Ok T -> bytes_ok m ->
  r_hash (r_write T (r_new T) m) = rabin P (if w =? 0 then m else lastn w m).
Proof.
  intros HP TK B. assert (LO : (2 ^ 8 <= P)%Z).
  { unfold new_table, poly_degree in TK. destruct (Z.eqb_spec P 0); [discriminate|]. destruct (Z.ltb_spec (Z.log2 P) 8); [discriminate|]. apply Z.log2_le_pow2; lia. }
  destruct HP as [_ HI]. apply (r_value LO HI); auto. apply (r_write_ok LO HI TK (m := [])). apply (r_new_ok LO HI TK).
Qed.
Print Assumptions C62_sum64.
(** The table can be made exactly for polynomials of degree 8 and more. *)
Theorem C62_table P w : (0 <= P)%Z -> (new_table P w = Panic <-> (P < 2 ^ 8)%Z).
Proof.
  intro H. unfold new_table, poly_degree. destruct (Z.eqb_spec P 0) as [->|]; [cbn; split; auto; lia|].
  destruct (Z.ltb_spec (Z.log2 P) 8) as [L|L]; split; try discriminate; auto; intro Q.
  - apply Z.log2_lt_pow2; lia.
  - apply Z.log2_lt_pow2 in Q; lia.
Qed.
Print Assumptions C62_table.
(** the polynomial Poly64, and a window of 4 bytes *)
Example C62_instance :
  match new_table 0xbfe6b8a5bf378d83 4 with
  | Ok T => hrun_r (r_write T) (r_sum T) (r_reset T) (r_new T) [HWrite [1;2;3;4;5]%Z; HWrite [6]%Z; HSum []; HReset; HWrite [9;8;7]%Z; HWrite [6;5]%Z; HWrite [4]%Z; HSum [0]%Z]
            = [Ok [6;5;4;3;0;0;0;0]%Z; Ok [0;4;5;6;7;0;0;0;0]%Z]
  | _ => False end /\
  rabin 0xbfe6b8a5bf378d83 [1;2;3;4;5;6;7;8;9;10]%Z <> 0%Z.
Proof. vm_compute. split; [reflexivity|discriminate]. Qed.

(** * C63 *)
(** The results of the first k calls of Next *)
Fixpoint nexts (p : cparams) (k : nat) (c : chunker) : list (nat * option rerr) :=
  match k with
  | O => []
  | S j => let '(n, e, c') := c_next p c in (n, e) :: nexts p j c'
  end.
(** the last chunk was ended by its contents or by its size; so was the empty stream *)
Fixpoint ends_full (P : Z) (w minB maxB : nat) (mask : Z) (D : bytes) (l : list nat) : Prop :=
  match l with
  | [] => True
  | [n] => minB <= n /\ (n = maxB \/ Z.land (rabin P (lastn w (firstn n D))) mask = mask)
  | n :: l => ends_full P w minB maxB mask (skipn n D) l
  end.
Lemma nexts_err p e : forall k c, c_err c = Some e -> nexts p k c = repeat (0, Some e) k.
Proof. induction k as [|k IH]; intros c H; cbn [nexts repeat]; auto. unfold c_next. rewrite H. f_equal. now apply IH. Qed.
Lemma log_buf_ge fuel : forall n w, 0 < n -> 2 * w <= n + fuel -> 2 * w <= log_buf fuel n w /\ 0 < log_buf fuel n w.
Proof.
  induction fuel as [|f IH]; intros n w N H; cbn [log_buf]; [lia|]. destruct (Nat.ltb_spec n (2 * w)); [apply IH; lia|lia].
Qed.
(** Reading a stream through any reader that reports the end of the stream after the data (with reads of any lengths,
    and whether or not it can discard), Next returns the chunks of the stream, then once more 0 without an error if the
    minimum exceeds the window and the last chunk ended with the stream by accident, and io.EOF from then on. *)
Theorem C63_chunker P T r minB avgB maxB p c : (0 <= P < 2 ^ 64)%Z -> new_table P (t_window T) = Ok T ->
  new_chunker T r minB avgB maxB = Ok (p, c) -> bytes_ok (rd_data r) -> rd_end r = EOF -> rd_eager r = false ->
  let w := t_window T in
  let mn := Z.to_nat minB in let mx := Z.to_nat maxB in let mask := Z.modulo (avgB - 1) (2 ^ 64) in
  exists ls extra, cuts P w mn mx mask (rd_data r) ls /\
    (extra = 1 /\ w < mn /\ ends_full P w mn mx mask (rd_data r) ls \/
     extra = 0 /\ ~ (w < mn /\ ends_full P w mn mx mask (rd_data r) ls)) /\
    forall k, nexts p (length ls + extra + k) c = map (fun n => (n, None)) ls ++ repeat (0, None) extra ++ repeat (0, Some EOF) k.
Proof.
  intros HP TK NC B RE RG w mn mx mask. assert (LO : (2 ^ 8 <= P)%Z).
  { unfold new_table, poly_degree in TK. destruct (Z.eqb_spec P 0); [discriminate|]. destruct (Z.ltb_spec (Z.log2 P) 8); [discriminate|]. apply Z.log2_le_pow2; lia. }
  destruct HP as [_ HI]. unfold new_chunker in NC. fold w in NC.
  destruct (Nat.eqb_spec w 0) as [|W]; [discriminate|]. destruct (Z.ltb_spec minB (Z.of_nat w)) as [|MW]; [discriminate|].
  destruct (Z.ltb_spec maxB minB) as [|MM]; [discriminate|]. destruct (negb _); [discriminate|]. injection NC as <- <-.
  fold mn mx mask. set (D := rd_data r) in *. set (N := log_buf (2 * w) 1024 w). set (p := CParams T mn mx mask).
  destruct (@log_buf_ge (2 * w) 1024 w) as [NW NP]; [lia|lia|]. fold N in NW, NP.
  assert (WP : 0 < w) by lia. assert (MW' : w <= cp_min p) by (cbn [cp_min p]; unfold mn; lia). assert (MM' : cp_min p <= cp_max p) by (cbn [cp_min cp_max p]; unfold mn, mx; lia).
  assert (G : forall l (c : chunker), length D - c_head c < l -> ready D N c ->
    exists ls extra, cuts P w mn mx mask (skipn (c_head c) D) ls /\
    (extra = 1 /\ w < mn /\ ends_full P w mn mx mask (skipn (c_head c) D) ls \/
     extra = 0 /\ ~ (w < mn /\ ends_full P w mn mx mask (skipn (c_head c) D) ls)) /\
    forall k, nexts p (length ls + extra + k) c = map (fun n => (n, None)) ls ++ repeat (0, None) extra ++ repeat (0, Some EOF) k).
  { induction l as [|l IH]; intros c L RD; [lia|].
    destruct (@next_ok D N NP P LO HI w WP NW p TK B MW' MM' c RD) as [(EM & c' & Z & NX)|(NE & n & c' & NX & CUT & REST)].
    - rewrite EM. exists []. destruct (Nat.ltb_spec w (cp_min p)) as [Q|Q]; cbn [cp_min p] in Q.
      + exists 1. split; [constructor|]. split; [left; repeat split; auto|]. intro k. cbn [length Nat.add nexts repeat map app]. rewrite NX. f_equal. apply nexts_err. apply Z.
      + exists 0. split; [constructor|]. split; [right; split; auto; lia|]. intro k. cbn [length Nat.add repeat map app]. destruct k; [reflexivity|].
        cbn [nexts repeat]. rewrite NX. f_equal. apply nexts_err. apply Z.
    - assert (NL : length (skipn (c_head c) D) = length D - c_head c) by apply skipn_length.
      assert (N0 : 0 < n /\ n <= length (skipn (c_head c) D)).
      { assert (0 < length (skipn (c_head c) D)) by (destruct (skipn (c_head c) D); [congruence|cbn [length]; lia]).
        destruct CUT as [[C1 ->]|[C1 _]]; [lia|]. cbn [cp_min p] in MW', C1. lia. }
      destruct REST as [(FL & RD' & HD)|(NF & NLN & Z)].
      + destruct (IH c') as (ls & extra & CS & EX & NS); auto; [lia|].
        assert (SK : skipn (c_head c') D = skipn n (skipn (c_head c) D)) by (rewrite HD, skipn_plus; f_equal; lia). rewrite SK in CS, EX.
        assert (EF : ends_full P w mn mx mask (skipn (c_head c) D) (n :: ls) <-> ends_full P w mn mx mask (skipn n (skipn (c_head c) D)) ls).
        { destruct ls as [|n2 ls]; [|reflexivity]. cbn [ends_full]. split; [auto|intros _; exact FL]. }
        exists (n :: ls), extra. split; [econstructor; eauto|]. rewrite EF. split; auto. intro k. cbn [length Nat.add nexts map app]. rewrite NX. f_equal. apply NS.
      + exists [n], 0. split; [|split].
        * econstructor; eauto. rewrite NLN, skipn_all. constructor.
        * right. split; auto. intros [_ Q]. cbn [ends_full] in Q. apply NF. exact Q.
        * intro k. cbn [length Nat.add nexts map app repeat]. rewrite NX. f_equal. apply nexts_err. apply Z. }
  destruct (G (S (length D)) (Chunker r (repeat 0%Z N) 0 0 None)) as (ls & extra & CS & EX & NS).
  - cbn [c_head]. lia.
  - split; [|cbn [c_head c_tail]; lia]. constructor; cbn [c_tail c_r c_err c_buf]; auto using repeat_length.
    + repeat split; auto. lia.
    + intros j J. cbn [c_head c_tail] in J. lia.
  - cbn [c_head skipn] in CS, EX. exists ls, extra. auto.
Qed.
Print Assumptions C63_chunker.
(** The chunks do not depend on how the stream was read: *)
Theorem C63_unique P w mn mx mask D l l' : cuts P w mn mx mask D l -> cuts P w mn mx mask D l' -> l = l'.
Proof.
  intro C. revert l'. induction C as [|D n l NE CT C IH]; intros l' C'; inversion C' as [|D' n' k NE' CT' C'' ]; subst; auto; try congruence.
  assert (n = n'); [|subst n'; f_equal; auto].
  destruct CT as [[A1 ->]|(A1 & A2 & A3)], CT' as [[B1 ->]|(B1 & B2 & B3)]; try lia.
  destruct (Nat.lt_trichotomy n n') as [H|[H|H]]; auto; exfalso; [now apply (B3 n); [lia|]|now apply (A3 n'); [lia|]].
Qed.
Print Assumptions C63_unique.
(** they cover the stream, and their lengths are within the bounds, but for a short last one. *)
Theorem C63_bounds P w mn mx mask D l : 0 < mn <= mx -> cuts P w mn mx mask D l ->
  list_sum l = length D /\ Forall (fun n => 0 < n <= mx) l /\ Forall (fun n => mn <= n) (removelast l).
Proof.
  intros M C. induction C as [|D n l NE CT C (S & F & R)]; [repeat split; constructor|].
  assert (DL : 0 < length D) by (destruct D; [congruence|cbn [length]; lia]).
  assert (NL : n <= length D /\ 0 < n <= mx).
  { destruct CT as [[A ->]|(A1 & A2 & A3)]; [lia|]. split; [lia|]. split; [lia|]. destruct (Nat.le_gt_cases n mx); auto. exfalso. apply (A3 mx); [lia|]. left. auto. }
  rewrite skipn_length in S. split; [cbn [list_sum fold_right]; change (fold_right Nat.add 0 l) with (list_sum l); lia|]. split; [constructor; auto; lia|].
  destruct l as [|n2 l]; [constructor|]. cbn [removelast]. constructor; auto.
  destruct CT as [[A ->]|(A1 & A2 & A3)]; [|lia]. exfalso. inversion C; subst. rewrite skipn_all in H1. congruence.
Qed.
Print Assumptions C63_bounds.
(** A change in the stream before a chunk boundary leaves the chunks after it as they are. *)
Theorem C63_resync P w mn mx mask A D l : cuts P w mn mx mask (A ++ D) l -> (exists i, list_sum (firstn i l) = length A) ->
  exists i, cuts P w mn mx mask D (skipn i l) /\ list_sum (firstn i l) = length A.
Proof.
  intros C (i & S). exists i. split; auto. revert A D C S. induction l as [|n l IH] in i |- *; intros A D C S.
  - destruct i; cbn in S; destruct A; try discriminate; cbn [skipn]; auto.
  - destruct i as [|i]; [cbn in S; destruct A; [exact C|discriminate]|]. cbn [firstn skipn list_sum fold_right] in S |- *. change (fold_right Nat.add 0 (firstn i l)) with (list_sum (firstn i l)) in S.
    inversion C as [|? ? ? NE CT C']; subst. apply (IH i (skipn n A) D); [|rewrite skipn_length; lia].
    rewrite skipn_app in C'. replace (n - length A) with 0 in C' by lia. exact C'.
Qed.
Print Assumptions C63_resync.

(** A reader that returns io.EOF together with the last bytes, as io.Reader allows, makes Next drop data: *)
Definition eager3 : reader := Reader [1;2;3]%Z EOF [] true false.
(** the results of the first k calls of Next of a new chunker *)
Definition chunked (P : Z) (w : nat) (r : reader) (minB avgB maxB : Z) (k : nat) : res (list (nat * option rerr)) :=
  rbind (new_table P w) (fun T => rbind (new_chunker T r minB avgB maxB) (fun '(p, c) => Ok (nexts p k c))).
Theorem C63_eager_refuted : chunked 0xbfe6b8a5bf378d83 1 eager3 1 1 1 3 = Ok [(1, None); (0, Some EOF); (0, Some EOF)] /\
  cuts 0xbfe6b8a5bf378d83 1 1 1 0 [1;2;3]%Z [1; 1; 1].
Proof.
  split; [vm_compute; reflexivity|].
  assert (K : forall D, D <> [] -> is_cut 0xbfe6b8a5bf378d83 1 1 1 0 D 1).
  { intros D H. right. assert (0 < length D) by (destruct D; [congruence|cbn [length]; lia]). split; [lia|]. split; [left; auto|lia]. }
  apply cuts_cons; [discriminate|apply K; discriminate|]; cbn [skipn]. apply cuts_cons; [discriminate|apply K; discriminate|]; cbn [skipn].
  apply cuts_cons; [discriminate|apply K; discriminate|]; cbn [skipn]. constructor.
Qed.
Print Assumptions C63_eager_refuted.
(** The end of an empty stream is reported late when the minimum exceeds the window. *)
Theorem C63_late_end_refuted : chunked 0xbfe6b8a5bf378d83 1 (Reader [] EOF [] false false) 2 2 4 2 = Ok [(0, None); (0, Some EOF)].
Proof. vm_compute. reflexivity. Qed.
Print Assumptions C63_late_end_refuted.
(** a stream of 20 bytes, read 3, 1, 7, ... bytes at a time *)
Example C63_instance :
  let r := Reader (map Z.of_nat (seq 1 20)) EOF [3; 1; 7] false false in
  match new_table 0xbfe6b8a5bf378d83 2 with
  | Ok T => t_window T = 2 /\ match new_chunker T r 3 4 8 with
            | Ok (p, c) => nexts p 9 c = [(3, None); (4, None); (4, None); (4, None); (4, None); (1, None); (0, Some EOF); (0, Some EOF); (0, Some EOF)]
            | _ => False end
  | _ => False end /\ bytes_ok (rd_data r).
Proof. split; [vm_compute; split; reflexivity|]. repeat constructor; lia. Qed.
