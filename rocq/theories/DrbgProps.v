(** C126-C130: the random generators of rand *)
From Verif Require Import Base BlockModeModel DrbgModel DrbgSpec DrbgProofs DrbgProofs2.
From Coq Require Import Lia.
Set Implicit Arguments. Unset Strict Implicit.
Local Open Scope nat_scope.

Definition hash_of (H : bytes -> bytes) (h : nat) : Prop := forall m, length (H m) = h /\ bytes_ok (H m).

(** ** C126 NewNISTHash *)
Theorem C126_nist_hash_history H h e n p : hash_of H h -> 0 < h <= 111 ->
  (good_new e n p -> exists s, h_new H h false e n p = Ok s /\
     forall ops, drun (h_reseed H) (h_generate H) s ops =
                 map seen (srun (hash_reseed H h) (hash_generate H h) (hash_instantiate H h e n p) 1 ops)) /\
  (~ good_new e n p -> h_new H h false e n p = Err).
Proof.
  intros HH Hh. assert (Hl : forall m, length (H m) = h) by (intros; apply HH). assert (Ho : forall m, bytes_ok (H m)) by (intros; apply HH).
  assert (h0 : 0 < h) by lia. assert (h1 : h <= 111) by lia.
  pose proof (h_new_rel h0 h1 Hl Ho false e n p) as Q. split; intros G.
  - apply new_ok_good in G. rewrite G in Q. destruct Q as (s & Es & R). exists s. split; auto. intros ops.
    apply (@hist _ _ _ _ _ _ (hrel h false) (fun _ => True)); auto.
    + intros. apply (@h_reseed_rel H h h0 h1 Hl Ho false s0 t n0 e0 a); auto.
    + intros. apply (@h_generate_rel H h h0 h1 Hl Ho false s0 t n0 o a); auto.
    + apply Forall_forall. auto.
  - destruct (new_ok e n p) eqn:K; [apply new_ok_good in K; tauto|auto].
Qed.

(** every accepted Generate fills the buffer *)
Definition filled (op : dop) (r : res bytes) : Prop := match op, r with Generate o _, Ok b => length b = length o | _, _ => True end.
Lemma srun_filled (St : Type) (rs : St -> bytes -> bytes -> St) gen ops : (forall s n o a, length (fst (gen s n o a)) = length o) ->
  forall s n, Forall2 filled ops (map seen (srun rs gen s n ops)).
Proof.
  intros L. induction ops as [|[e a|o a] ops IH]; intros s n; [constructor| |].
  - cbn [srun]. destruct (good_reseedb e a); constructor; cbn; auto.
  - cbn [srun]. destruct (2 ^ 48 <? n)%Z; [constructor; cbn; auto|]. pose proof (L s n o a) as Q. destruct (gen s n o a) as [o' s'].
    constructor; cbn in *; auto.
Qed.
Theorem C126_nist_hash_fills H h e n p s ops : hash_of H h -> 0 < h <= 111 -> h_new H h false e n p = Ok s ->
  Forall2 filled ops (drun (h_reseed H) (h_generate H) s ops).
Proof.
  intros HH Hh Es. destruct (@C126_nist_hash_history H h e n p HH Hh) as [G B].
  destruct (new_ok e n p) eqn:K.
  - apply new_ok_good in K. destruct (G K) as (s' & Es' & R). rewrite Es in Es'. injection Es' as <-. rewrite R.
    apply srun_filled. intros. cbn. apply stream_len; [lia|]. intros; apply HH.
  - rewrite B in Es; [discriminate|]. intros Q. apply new_ok_good in Q. congruence.
Qed.

(** ** C127 NewGMHash *)
Theorem C127_gm_hash_history H h e n p : hash_of H h -> 0 < h <= 111 ->
  (good_new e n p -> exists s, h_new H h true e n p = Ok s /\
     forall ops, drun (h_reseed H) (h_generate H) s ops =
                 map seen (srun (gm_reseed H h) (gm_generate H h) (hash_instantiate H h e n p) 1 ops)) /\
  (~ good_new e n p -> h_new H h true e n p = Err).
Proof.
  intros HH Hh. assert (Hl : forall m, length (H m) = h) by (intros; apply HH). assert (Ho : forall m, bytes_ok (H m)) by (intros; apply HH).
  assert (h0 : 0 < h) by lia. assert (h1 : h <= 111) by lia.
  pose proof (h_new_rel h0 h1 Hl Ho true e n p) as Q. split; intros G.
  - apply new_ok_good in G. rewrite G in Q. destruct Q as (s & Es & R). exists s. split; auto. intros ops.
    apply (@hist _ _ _ _ _ _ (hrel h true) (fun _ => True)); auto.
    + intros. apply (@h_reseed_rel H h h0 h1 Hl Ho true s0 t n0 e0 a); auto.
    + intros. apply (@h_generate_rel H h h0 h1 Hl Ho true s0 t n0 o a); auto.
    + apply Forall_forall. auto.
  - destruct (new_ok e n p) eqn:K; [apply new_ok_good in K; tauto|auto].
Qed.
(** in any history, what lies beyond the first digest in the caller's buffer is not random: it is what the caller put there *)
Definition tail_kept (h : nat) (op : dop) (r : res bytes) : Prop :=
  match op, r with Generate o _, Ok b => length b = length o /\ skipn h b = skipn h o | _, _ => True end.
Theorem C127_gm_hash_tail_refuted H h e n p s ops : hash_of H h -> 0 < h <= 111 -> h_new H h true e n p = Ok s ->
  Forall2 (tail_kept h) ops (drun (h_reseed H) (h_generate H) s ops).
Proof.
  intros HH Hh Es. destruct (@C127_gm_hash_history H h e n p HH Hh) as [G B].
  destruct (new_ok e n p) eqn:K.
  - apply new_ok_good in K. destruct (G K) as (s' & Es' & R). rewrite Es in Es'. injection Es' as <-. rewrite R. clear - HH Hh.
    generalize (hash_instantiate H h e n p) as t. generalize 1%Z as k.
    induction ops as [|[e' a|o a] ops IH]; intros k t; [constructor| |].
    + cbn [srun]. destruct (good_reseedb e' a); constructor; cbn; auto.
    + cbn [srun]. destruct (2 ^ 48 <? k)%Z; [constructor; cbn; auto|]. unfold gm_generate at 1. constructor; [|apply IH].
      cbn [seen tail_kept]. set (d := H _). assert (Ld : length d = h) by apply HH. rewrite Ld.
      rewrite app_length, firstn_length, skipn_length, Ld. split; [lia|].
      rewrite skipn_app, firstn_length, Ld. destruct (le_lt_dec h (length o)).
      * rewrite (skipn_all2 (firstn _ _)) by (rewrite firstn_length; lia). replace (h - Nat.min (length o) h) with 0 by lia. reflexivity.
      * rewrite (skipn_all2 (firstn _ _)) by (rewrite firstn_length; lia). rewrite (skipn_all2 o) by lia. rewrite skipn_nil. reflexivity.
  - rewrite B in Es; [discriminate|]. intros Q. apply new_ok_good in Q. congruence.
Qed.

(** ** C128 NewHMAC *)
Theorem C128_hmac_history hm h e n p : (forall k m, length (hm k m) = h) -> 0 < h ->
  (good_new e n p -> exists s, m_new hm h e n p = Ok s /\
     forall ops, drun (m_reseed hm) (m_generate hm) s ops =
                 map seen (srun (hmac_reseed hm) (hmac_generate hm h) (hmac_instantiate hm h e n p) 1 ops)) /\
  (~ good_new e n p -> m_new hm h e n p = Err).
Proof.
  intros HH Hh. pose proof (m_new_rel Hh HH e n p) as Q. split; intros G.
  - apply new_ok_good in G. rewrite G in Q. destruct Q as (s & Es & R). exists s. split; auto. intros ops.
    apply (@hist _ _ _ _ _ _ mrel (fun _ => True)); auto.
    + intros. eapply m_reseed_rel; eauto.
    + intros. apply (@m_generate_rel hm h Hh HH); auto.
    + apply Forall_forall. auto.
  - destruct (new_ok e n p) eqn:K; [apply new_ok_good in K; tauto|auto].
Qed.
Theorem C128_hmac_fills hm h e n p s ops : (forall k m, length (hm k m) = h) -> 0 < h -> m_new hm h e n p = Ok s ->
  Forall2 filled ops (drun (m_reseed hm) (m_generate hm) s ops).
Proof.
  intros HH Hh Es. destruct (@C128_hmac_history hm h e n p HH Hh) as [G B].
  destruct (new_ok e n p) eqn:K.
  - apply new_ok_good in K. destruct (G K) as (s' & Es' & R). rewrite Es in Es'. injection Es' as <-. rewrite R.
    apply srun_filled. intros. cbn [hmac_generate fst]. rewrite stream_shift, firstn_length.
    rewrite (@concat_len _ h Hh) by (intros; apply HH). pose proof (@cdiv_spec (length o) h Hh). lia.
  - rewrite B in Es; [discriminate|]. intros Q. apply new_ok_good in Q. congruence.
Qed.

(** ** C129 NewCTR *)
Definition block_cipher (newc : bytes -> res cipher) (E : bytes -> bytes -> bytes) (bs klen : nat) : Prop :=
  (forall k, isblock klen k -> exists c, newc k = Ok c /\ bsz c = bs /\ forall x, isblock bs x -> enc c x = E k x) /\
  (forall k x, isblock klen k -> isblock bs x -> isblock bs (E k x)).
Definition op_bytes (op : dop) : Prop := match op with Reseed e a => bytes_ok e /\ bytes_ok a | Generate o a => bytes_ok a end.
Theorem C129_ctr_history newc E bs klen e n p : block_cipher newc E bs klen -> 4 <= bs -> klen <= 256 -> bytes_ok e -> bytes_ok n -> bytes_ok p ->
  let pad := code_pad bs in
  (good_new e n p -> exists s, c_new newc klen e n p = Ok s /\
     forall ops, Forall op_bytes ops -> drun (c_reseed newc klen) (c_generate newc klen) s ops =
                 map seen (srun (ctr_reseed E bs klen pad) (ctr_generate E bs klen pad) (ctr_instantiate E bs klen pad e n p) 1 ops)) /\
  (~ good_new e n p -> c_new newc klen e n p = Err).
Proof.
  intros [H1 H2] B4 K256 Oe On Op pad. pose proof (c_new_rel B4 K256 H1 H2 Oe On Op) as Q. split; intros G.
  - apply new_ok_good in G. rewrite G in Q. destruct Q as (s & Es & R). exists s. split; auto. intros ops Ho.
    apply (@hist _ _ _ _ _ _ (crel bs klen) op_bytes); auto.
    + intros. destruct H. apply (@c_reseed_rel newc E bs klen B4 K256 H1 H2 s0 t n0 e0 a); auto.
    + intros. apply (@c_generate_rel newc E bs klen B4 K256 H1 H2 s0 t n0 o a); auto.
  - destruct (new_ok e n p) eqn:K; [apply new_ok_good in K; tauto|auto].
Qed.
(** the standard's padding, when no input of the derivation function has length -9 modulo the block length *)
Theorem C129_ctr_nist newc E bs klen e n p : block_cipher newc E bs klen -> 4 <= bs -> klen <= 256 -> bytes_ok e -> bytes_ok n -> bytes_ok p ->
  let pad := nist_pad bs in
  good_new e n p -> (length (e ++ n ++ p) + 9) mod bs <> 0 ->
  exists s, c_new newc klen e n p = Ok s /\
     forall ops, Forall op_bytes ops -> Forall (fun inp => (length inp + 9) mod bs <> 0) (df_inputs ops) ->
       drun (c_reseed newc klen) (c_generate newc klen) s ops =
       map seen (srun (ctr_reseed E bs klen pad) (ctr_generate E bs klen pad) (ctr_instantiate E bs klen pad e n p) 1 ops).
Proof.
  intros HB B4 K256 Oe On Op pad G P0. destruct (@C129_ctr_history newc E bs klen e n p HB B4 K256 Oe On Op) as [Q _].
  destruct (Q G) as (s & Es & R). exists s. split; auto. intros ops Ho Hp. rewrite R by auto.
  unfold ctr_instantiate. rewrite df_pad by auto. rewrite srun_pad by auto. reflexivity.
Qed.
Theorem C129_ctr_fills newc E bs klen e n p s ops : block_cipher newc E bs klen -> 4 <= bs -> klen <= 256 -> bytes_ok e -> bytes_ok n -> bytes_ok p ->
  Forall op_bytes ops -> c_new newc klen e n p = Ok s ->
  Forall2 filled ops (drun (c_reseed newc klen) (c_generate newc klen) s ops).
Proof.
  intros [H1 H2] B4 K256 Oe On Op Ho Es. pose proof (c_new_rel B4 K256 H1 H2 Oe On Op) as Q.
  destruct (new_ok e n p) eqn:K; [|congruence]. destruct Q as (s' & Es' & R). assert (s' = s) by congruence. subst s'.
  generalize dependent (ctr_instantiate E bs klen (code_pad bs) e n p). clear Es Es' K. generalize 1%Z as k. revert s.
  induction Ho as [|op ops Hop Ho IH]; intros s k t R; [constructor|]. cbn [drun]. destruct op as [e' a|o a]; cbn [dstep].
  - destruct Hop as [O1 O2]. pose proof (@c_reseed_rel newc E bs klen B4 K256 H1 H2 s t k e' a O1 O2 R) as Q.
    destruct (good_reseedb e' a).
    + destruct Q as (s' & -> & R'). cbn [rbind]. constructor; cbn; eauto.
    + rewrite Q. cbn [rbind]. constructor; cbn; eauto.
  - pose proof (@c_generate_rel newc E bs klen B4 K256 H1 H2 s t k o a Hop R) as Q. cbv zeta in Q.
    destruct (2 ^ 48 <? k)%Z.
    + rewrite Q. constructor; cbn; eauto.
    + destruct Q as (s' & -> & R'). constructor; [|eauto]. cbn [filled ctr_generate fst].
      set (s1 := match a return cstate with [] => t | _ => _ end).
      assert (B1 : isblock klen (fst s1)).
      { destruct R as (-> & Rk & Rv & _). destruct a as [|a0 a]; [exact Rk|]. unfold s1.
        apply (@c_update_eq newc E bs klen B4 K256 H1 H2 (ck s) (cv s)); auto. apply (@c_df_eq newc E bs klen B4 K256 H1 H2 (a0 :: a)); auto. }
      rewrite stream_shift, firstn_length. rewrite (@concat_len _ bs) by (try lia; intros; apply H2; auto using plus_block).
      pose proof (@cdiv_spec (length o) bs). lia.
Qed.

(** ** C130 the reseed interval, prng and keygen *)
Lemma nth_seen i l : nth i (map seen l) (Ok []) = Err <-> nth i l (Some []) = None.
Proof. change (@Ok bytes []) with (seen (Some [])). rewrite map_nth. destruct (nth i l (Some [])); cbn; split; congruence. Qed.
Theorem C130_hash_interval H h gm e n p s pre o a post : hash_of H h -> 0 < h <= 111 -> h_new H h gm e n p = Ok s ->
  nth (length pre) (drun (h_reseed H) (h_generate H) s (pre ++ Generate o a :: post)) (Ok []) = Err <-> (2 ^ 48 <= Z.of_nat (since 0 pre))%Z.
Proof.
  intros HH Hh Es. destruct (new_ok e n p) eqn:K; [apply new_ok_good in K|unfold h_new in Es; rewrite K in Es; discriminate].
  destruct gm.
  - destruct (@C127_gm_hash_history H h e n p HH Hh) as [G _]. destruct (G K) as (s' & Es' & R).
    assert (s' = s) by congruence. subst s'. rewrite R, nth_seen. apply (srun_count _ _ o a post pre _ 0).
  - destruct (@C126_nist_hash_history H h e n p HH Hh) as [G _]. destruct (G K) as (s' & Es' & R).
    assert (s' = s) by congruence. subst s'. rewrite R, nth_seen. apply (srun_count _ _ o a post pre _ 0).
Qed.
Theorem C130_hmac_interval hm h e n p s pre o a post : (forall k m, length (hm k m) = h) -> 0 < h -> m_new hm h e n p = Ok s ->
  nth (length pre) (drun (m_reseed hm) (m_generate hm) s (pre ++ Generate o a :: post)) (Ok []) = Err <-> (2 ^ 48 <= Z.of_nat (since 0 pre))%Z.
Proof.
  intros HH Hh Es. destruct (new_ok e n p) eqn:K; [apply new_ok_good in K|unfold m_new in Es; rewrite K in Es; discriminate].
  destruct (@C128_hmac_history hm h e n p HH Hh) as [G _]. destruct (G K) as (s' & Es' & R).
  assert (s' = s) by congruence. subst s'. rewrite R, nth_seen. apply (srun_count _ _ o a post pre _ 0).
Qed.
Theorem C130_ctr_interval newc E bs klen e n p s pre o a post : block_cipher newc E bs klen -> 4 <= bs -> klen <= 256 ->
  bytes_ok e -> bytes_ok n -> bytes_ok p -> Forall op_bytes (pre ++ Generate o a :: post) -> c_new newc klen e n p = Ok s ->
  nth (length pre) (drun (c_reseed newc klen) (c_generate newc klen) s (pre ++ Generate o a :: post)) (Ok []) = Err <-> (2 ^ 48 <= Z.of_nat (since 0 pre))%Z.
Proof.
  intros HB B4 K256 Oe On Op Ho Es. destruct (new_ok e n p) eqn:K; [apply new_ok_good in K|unfold c_new in Es; rewrite K in Es; discriminate].
  destruct (@C129_ctr_history newc E bs klen e n p HB B4 K256 Oe On Op) as [G _]. destruct (G K) as (s' & Es' & R).
  assert (s' = s) by congruence. subst s'. rewrite R, nth_seen by auto. apply (srun_count _ _ o a post pre _ 0).
Qed.
(** prng: Read gives the front of H(H(seed)) every time, and an error beyond one digest *)
Theorem C130_prng_read H h seed b : hash_of H h ->
  (length b <= h -> prng_read H seed b = Ok (firstn (length b) (H (H seed)))) /\ (h < length b -> prng_read H seed b = Err).
Proof.
  intros HH. unfold prng_read. rewrite (proj1 (HH (H seed))). split; intros L.
  - destruct (Nat.ltb_spec h (length b)); [lia|]. f_equal. apply gocopy_full. rewrite (proj1 (HH (H seed))). lia.
  - destruct (Nat.ltb_spec h (length b)); [auto|lia].
Qed.
(** keygen: the bytes the reader gave, then zeros *)
Theorem C130_keygen rd k d : (0 <= k)%Z -> rd (Z.to_nat (k / 8)) = Ok d -> length d <= Z.to_nat (k / 8) ->
  keygen rd k = Ok (d ++ repeat 0%Z (Z.to_nat (k / 8) - length d)).
Proof.
  intros Hk Hr Hd. unfold keygen. rewrite Z.quot_div_nonneg by lia. destruct (Z.ltb_spec (k / 8) 0) as [Q|Q].
  - pose proof (Z.div_pos k 8). lia.
  - rewrite Hr. f_equal. unfold gocopy, MacModel.zeros. set (m := Z.to_nat (k / 8)) in *. rewrite repeat_length.
    rewrite firstn_all2 with (l := d) by lia.
    assert (S : skipn (length d) (repeat 0%Z m) = repeat 0%Z (m - length d)).
    { replace m with (length d + (m - length d)) at 1 by lia. rewrite repeat_app, skipn_app, repeat_length, Nat.sub_diag, skipn_all2; auto. rewrite repeat_length. lia. }
    rewrite S. rewrite firstn_all2 by (rewrite app_length, repeat_length; lia).
    rewrite skipn_all2 by (rewrite repeat_length, app_length, repeat_length; lia). apply app_nil_r.
Qed.
(** a reader that gives fewer bytes, as io.Reader allows, gives a weak key and no error *)
Theorem C130_keygen_short_read_refuted : keygen (fun _ => Ok [7%Z]) 128 = Ok (7%Z :: repeat 0%Z 15).
Proof. apply (@C130_keygen (fun _ => Ok [7%Z]) 128 [7%Z]); [lia|auto|cbn; lia]. Qed.

(** ** Non-vacuity: a small hash, MAC and block cipher *)
Definition tH (m : bytes) : bytes := be_bytes 5 (fold_left (fun a b => a * 31 + b + 7)%Z m 1%Z).
Lemma tH_hash : hash_of tH 5. Proof. intros m. split; [apply be_bytes_length|apply be_bytes_ok]. Qed.
Definition thm (k m : bytes) : bytes := tH (k ++ m).
Definition tE (k x : bytes) : bytes := be_bytes 4 (be_val x + be_val k + 12345).
Definition tnew (k : bytes) : res cipher := if length k =? 3 then Ok {| bsz := 4; enc := tE k; dec := fun x => x |} else Err.
Lemma tE_cipher : block_cipher tnew tE 4 3.
Proof.
  split.
  - intros k [L _]. unfold tnew. rewrite L. cbn. eexists. split; [reflexivity|]. split; auto.
  - intros k x _ _. split; [apply be_bytes_length|apply be_bytes_ok].
Qed.
Definition ex_ops : list dop := [Generate [1; 2; 3; 4; 5; 6; 7]%Z []; Generate [0; 0; 0]%Z [9]%Z; Reseed [] []; Reseed [4]%Z [5]%Z; Generate [0; 0]%Z []].
Ltac bb := unfold bytes_ok; repeat (apply Forall_cons; [red; lia|]); apply Forall_nil.
Lemma good_ex : good_new [1; 2]%Z [3]%Z [].
Proof. unfold good_new, zlen. cbn. lia. Qed.
(** the histories run: three outputs of 7, 3 and 2 bytes, and the Reseed without entropy refused *)
Definition shape (l : list (res bytes)) : list (option nat) := map (fun r => match r with Ok b => Some (length b) | _ => None end) l.
Example C126_instance_history : exists s, h_new tH 5 false [1; 2]%Z [3]%Z [] = Ok s /\
  shape (drun (h_reseed tH) (h_generate tH) s ex_ops) = [Some 7; Some 3; None; Some 0; Some 2].
Proof.
  destruct (@C126_nist_hash_history tH 5 [1; 2]%Z [3]%Z [] tH_hash ltac:(lia)) as [G _]. destruct (G good_ex) as (s & Es & R).
  exists s. split; auto. rewrite R. reflexivity.
Qed.
Example C127_instance_tail : exists s b, h_new tH 5 true [1; 2]%Z [3]%Z [] = Ok s /\
  drun (h_reseed tH) (h_generate tH) s [Generate [1; 2; 3; 4; 5; 6; 7]%Z []] = [Ok b] /\ skipn 5 b = [6; 7]%Z /\ length (firstn 5 b) = 5.
Proof.
  destruct (@C127_gm_hash_history tH 5 [1; 2]%Z [3]%Z [] tH_hash ltac:(lia)) as [G _]. destruct (G good_ex) as (s & Es & R).
  exists s. eexists. split; auto. rewrite R. split; [reflexivity|]. split; reflexivity.
Qed.
Example C128_instance_history : exists s, m_new thm 5 [1; 2]%Z [3]%Z [] = Ok s /\
  shape (drun (m_reseed thm) (m_generate thm) s ex_ops) = [Some 7; Some 3; None; Some 0; Some 2].
Proof.
  destruct (@C128_hmac_history thm 5 [1; 2]%Z [3]%Z [] ltac:(intros; apply tH_hash) ltac:(lia)) as [G _]. destruct (G good_ex) as (s & Es & R).
  exists s. split; auto. rewrite R. reflexivity.
Qed.
Lemma ex_bytes : Forall op_bytes ex_ops.
Proof.
  unfold ex_ops. do 5 (apply Forall_cons; [cbn [op_bytes]; try (split; [|]); unfold bytes_ok; repeat (apply Forall_cons; [red; lia|]); apply Forall_nil|]). apply Forall_nil.
Qed.
Example C129_instance_history : exists s, c_new tnew 3 [1; 2]%Z [3]%Z [] = Ok s /\
  shape (drun (c_reseed tnew 3) (c_generate tnew 3) s ex_ops) = [Some 7; Some 3; None; Some 0; Some 2].
Proof.
  destruct (@C129_ctr_history tnew tE 4 3 [1; 2]%Z [3]%Z [] tE_cipher ltac:(lia) ltac:(lia) ltac:(bb) ltac:(bb) ltac:(bb)) as [G _].
  destruct (G good_ex) as (s & Es & R). exists s. split; auto. rewrite R by apply ex_bytes. reflexivity.
Qed.
(** three bytes of seed material fill the block, and the output is then not that of the standard *)
Theorem C129_ctr_padding_refuted : exists s b, c_new tnew 3 [1; 2]%Z [3]%Z [] = Ok s /\
  drun (c_reseed tnew 3) (c_generate tnew 3) s [Generate [0; 0; 0; 0]%Z []] = [Ok b] /\
  srun (ctr_reseed tE 4 3 (nist_pad 4)) (ctr_generate tE 4 3 (nist_pad 4)) (ctr_instantiate tE 4 3 (nist_pad 4) [1; 2]%Z [3]%Z []) 1
    [Generate [0; 0; 0; 0]%Z []] <> [Some b].
Proof.
  destruct (@C129_ctr_history tnew tE 4 3 [1; 2]%Z [3]%Z [] tE_cipher ltac:(lia) ltac:(lia) ltac:(bb) ltac:(bb) ltac:(bb)) as [G _].
  destruct (G good_ex) as (s & Es & R). exists s. eexists. split; auto. rewrite R by (repeat constructor). split; [reflexivity|].
  vm_compute. discriminate.
Qed.
Example C129_instance_nist : good_new [1; 2; 8]%Z [3]%Z [] /\ (length ([1; 2; 8] ++ [3] ++ [])%Z + 9) mod 4 <> 0.
Proof. split; [unfold good_new, zlen; cbn; lia|cbn; lia]. Qed.
Example C130_instance_prng : prng_read tH [1]%Z [0; 0]%Z = Ok (firstn 2 (tH (tH [1]%Z))) /\ prng_read tH [1]%Z (repeat 0%Z 6) = Err.
Proof. split; [apply (C130_prng_read [1]%Z [0; 0]%Z tH_hash); cbn; lia|apply (C130_prng_read [1]%Z (repeat 0%Z 6) tH_hash); cbn; lia]. Qed.
Definition assum_drbg := (C126_nist_hash_history, C126_nist_hash_fills, C127_gm_hash_history, C127_gm_hash_tail_refuted, C128_hmac_history,
  C128_hmac_fills, C129_ctr_history, C129_ctr_nist, C129_ctr_fills, C130_hash_interval, C130_hmac_interval, C130_ctr_interval, C130_prng_read,
  C130_keygen, C130_keygen_short_read_refuted, C129_ctr_padding_refuted, C126_instance_history, C127_instance_tail, C128_instance_history, C129_instance_history).
Print Assumptions assum_drbg.
