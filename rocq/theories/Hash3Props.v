(** C28 for Streebog and GOST R 34.11-94; C59: Streebog states can be saved and restored; C61: the key trees. *)
From Coq Require Import String.
From Verif Require Import Base WordModel WordLib HashSpec HexLit HbufSpec Hash1Props Hash3Model Hash3Spec Hash3Proofs.
Set Implicit Arguments. Unset Strict Implicit.
Local Open Scope nat_scope.

(** * C28 *)
Theorem C28_streebog_streams size d : stb_new size = Ok d ->
  (size = 32 \/ size = 64) /\ streams stb_write stb_sum stb_reset d (streebog (2 ^ 64) size).
Proof.
  intro H. destruct (sheld_new H) as [I S]. split; auto. intro ops.
  apply inv_run with (Inv := SHeld size); auto.
  - apply sheld_write.
  - apply sheld_reset.
  - intros. now apply stb_sum_ok.
Qed.
Print Assumptions C28_streebog_streams.
(** Up to 2^61 bytes that is the standard's digest. *)
Theorem C28_streebog_standard size m : (8 * Z.of_nat (length m) < 2 ^ 64)%Z -> streebog (2 ^ 64) size m = streebog (2 ^ 512) size m.
Proof. apply streebog_std. Qed.
Print Assumptions C28_streebog_standard.
Example C28_streebog_instance :
  (exists d, stb_new 32 = Ok d) /\ (exists d, stb_new 64 = Ok d) /\
  rev (streebog (2 ^ 512) 32 (rev (hx "fbe2e5f0eee3c820fbeafaebef20fffbf0e1e0f0f520e0ed20e8ece0ebe5f0f2f120fff0eeec20f120faf2fee5e2202ce8f6f3ede220e8e6eee1e8f0f2d1202ce8f0f2e5e220e5d1")))
    = hx "508f7e553c06501d749a66fc28c6cac0b005746d97537fa85d9e40904efed29d".
Proof. split; [eexists; reflexivity|]. split; [eexists; reflexivity|]. vm_compute. reflexivity. Qed.

Theorem C28_gost94_streams E : streams_bytes (g94_write E) (g94_sum E) g94_reset g94_new (gost94 E).
Proof.
  intros ops F. apply inv_run_bytes with (Inv := AHeld (g94_block E) 32 g94_iv); auto.
  - intros m d p H. apply awrite_held; auto. lia.
  - intros m d _. apply anew_held. lia.
  - intros. now apply g94_sum_ok.
  - constructor.
  - apply anew_held. lia.
Qed.
Print Assumptions C28_gost94_streams.
Example C28_gost94_instance :
  Forall hop_ok [HWrite (asc "nonce-"); HSum []; HWrite (asc "asdfg"); HSum [1%Z]] /\
  gost94 (fun _ b => b) (asc "nonce-asdfg") = hx "08246810594b02216e6f6e633d2d39733c666352565b5b6a344e580c0b4e580c".
Proof. split; [repeat constructor; cbn; unfold is_byte; try lia|vm_compute; reflexivity]. Qed.

(** * C59 *)
(** What MarshalBinary writes after any history, UnmarshalBinary turns back into the same state. *)
Theorem C59_streebog_restore size d ops : stb_new size = Ok d ->
  let e := hstate stb_write stb_reset d ops in stb_unmarshal (stb_marshal e) = Ok e.
Proof.
  intros H e. destruct (sheld_new H) as [I S].
  destruct (@inv_state _ stb_write stb_reset (SHeld size) (@sheld_write size) (@sheld_reset size) ops [] d I) as [m M].
  exact (stb_roundtrip M S).
Qed.
Print Assumptions C59_streebog_restore.
(** UnmarshalBinary refuses exactly short data and data with another name ... *)
Theorem C59_streebog_refuses data : stb_unmarshal data = Err <-> length data < 209 \/ firstn 8 data <> stb_name.
Proof.
  unfold stb_unmarshal. change (8 + 1 + 8 + 3 * 64) with 209. destruct (Nat.ltb_spec (length data) 209) as [L|L]; [split; auto|].
  destruct (bytes_eqb (firstn 8 data) stb_name) eqn:E; cbn [negb].
  - apply bytes_eqb_eq in E. split; [discriminate|]. intros [?|N]; [lia|contradiction].
  - split; auto. intros _. right. intro X. apply bytes_eqb_eq in X. congruence.
Qed.
Print Assumptions C59_streebog_refuses.
(** ... and accepts data whose buffer part is longer than a block allows, after which Sum panics. *)
Theorem C59_streebog_accepts_refuted data e : stb_unmarshal data = Ok e -> (stb_sum e [] = Panic <-> 273 <= length data).
Proof.
  unfold stb_unmarshal. change (8 + 1 + 8 + 3 * 64) with 209. destruct (Nat.ltb_spec (length data) 209) as [L|L]; [discriminate|].
  pose proof (skipn_length 209 data) as K. remember (skipn 209 data) as b eqn:EB. clear EB.
  destruct (negb _); [discriminate|]. intros [= <-]. unfold stb_sum, stb_checksum. cbn [st_b a_s a_buf].
  rewrite K. destruct (Nat.leb_spec 64 (length data - 209)) as [X|X]; cbn [rbind]; split; try discriminate; auto; lia.
Qed.
Print Assumptions C59_streebog_accepts_refuted.
Example C59_streebog_instance :
  (exists d, stb_new 64 = Ok d /\ let e := hstate stb_write stb_reset d [HWrite (repeat 5%Z 70); HSum [] ; HWrite [3%Z]] in
     stb_marshal e <> stb_marshal d /\ stb_unmarshal (stb_marshal e) = Ok e) /\
  (exists e, stb_unmarshal (stb_name ++ repeat 0%Z 265) = Ok e /\ stb_sum e [] = Panic).
Proof.
  split; eexists; (split; [reflexivity|]).
  - cbn zeta. split; [vm_compute; discriminate|]. apply (@C59_streebog_restore 64 _ [HWrite (repeat 5%Z 70); HSum [] ; HWrite [3%Z]]). reflexivity.
  - vm_compute. reflexivity.
Qed.

(** * C61: key trees *)
Definition mac256 : bytes -> bytes -> bytes := hmac (streebog (2 ^ 64) 32) 64.
Lemma streebog_len m : length (streebog (2 ^ 64) 32 m) = 32.
Proof.
  unfold streebog. cbn zeta. change (32 =? 32) with true. cbn iota. rewrite skipn_length.
  assert (P : 0 < 64) by lia. assert (R : length (rest 64 m) < 64).
  { unfold rest. rewrite skipn_length. pose proof (Nat.mod_upper_bound (length m) 64). pose proof (Nat.div_mod (length m) 64). lia. }
  assert (F : forall l h, length h = 64 -> Forall (fun ib : nat * bytes => length (snd ib) = 64) l ->
    length (fold_left (fun h ib => g_N (le_bytes 64 ((512 * Z.of_nat (fst ib)) mod 2 ^ 64)) h (snd ib)) l h) = 64).
  { induction l as [|b l IH]; intros h H A; cbn [fold_left]; auto. inversion A; subst. apply IH; auto. now apply g_N_len. }
  rewrite g_N_len; [reflexivity| |apply le_bytes_length]. apply g_N_len; [|apply le_bytes_length]. apply g_N_len; [|now apply stb_pad_len].
  apply F; [apply repeat_length|]. apply Forall_forall. intros [i b] I. apply in_combine_r in I. cbn [snd].
  assert (L : length (firstn (length m / 64 * 64) m) = length m / 64 * 64).
  { rewrite firstn_length. assert (64 * (length m / 64) <= length m) by (apply Nat.mul_div_le; lia). lia. }
  destruct (@chunks_all_len _ 64 _ _ P L) as [A _]. exact (proj1 (Forall_forall _ _) A b I).
Qed.
Lemma mac256_len k m : length (mac256 k m) = 32.
Proof. apply streebog_len. Qed.
Lemma gocopy_same k : length k = 32 -> gocopy (repeat 0%Z 32) k = k.
Proof. intro H. unfold gocopy. rewrite repeat_length, H, skipn_all2 by (rewrite repeat_length; lia). rewrite app_nil_r. apply firstn_all2. lia. Qed.

(** The keys returned by a history of TLSTree.Derive calls *)
Fixpoint tls_run (ps : list Z) (root : bytes) (t : tlstree) (seqs : list Z) : list bytes :=
  match seqs with
  | [] => []
  | s :: r => let '(k, t') := tls_derive mac256 ps root t s in k :: tls_run ps root t' r
  end.
(** The number is not 0, but no mask sees that. *)
Definition unseen (ps : list Z) (s : Z) : Prop := (0 < s)%Z /\ Z.land s ps.[0] = 0%Z /\ Z.land s ps.[1] = 0%Z /\ Z.land s ps.[2] = 0%Z.
Lemma tls_run_warm ps root : forall seqs p, tls_run ps root (Tls p (tls_fresh mac256 ps root p)) seqs = map (tls_fresh mac256 ps root) seqs.
Proof.
  induction seqs as [|s r IH]; intro p; cbn [tls_run map]; auto. unfold tls_derive, tls_derive_cached. cbn [tl_prev tl_key].
  assert (L : forall x, length (tls_fresh mac256 ps root x) = 32) by (intro; apply mac256_len).
  match goal with |- context [if ?c then _ else _] => destruct c eqn:C end.
  - apply Bool.andb_true_iff in C as [C C2]. apply Bool.andb_true_iff in C as [C C1]. apply Bool.andb_true_iff in C as [_ C0].
    apply Z.eqb_eq in C0, C1, C2. rewrite gocopy_same by auto. rewrite IH. f_equal. unfold tls_fresh. now rewrite C0, C1, C2.
  - rewrite gocopy_same by auto. f_equal. apply IH.
Qed.
(** Every key is the one derived from the root alone, from the first call on whose number the masks (or 0) tell from the
    initial state ... *)
Theorem C61_tlstree ps root pre s seqs : Forall (unseen ps) pre -> (0 <= s)%Z -> ~ unseen ps s ->
  tls_run ps root tls_new (pre ++ s :: seqs) = repeat (repeat 0%Z 32) (length pre) ++ map (tls_fresh mac256 ps root) (s :: seqs).
Proof.
  intros F S N. induction F as [|x pre (X & X0 & X1 & X2) F IH]; cbn [app tls_run map length repeat].
  - unfold tls_derive, tls_derive_cached, tls_new. cbn [tl_prev tl_key]. rewrite !Z.land_0_l.
    match goal with |- context [if ?c then _ else _] => destruct c eqn:C end.
    + exfalso. apply N. apply Bool.andb_true_iff in C as [C C2]. apply Bool.andb_true_iff in C as [C C1]. apply Bool.andb_true_iff in C as [CP C0].
      apply Z.eqb_eq in C0, C1, C2. apply Z.ltb_lt in CP. repeat split; auto.
    + rewrite gocopy_same by apply mac256_len. f_equal. apply tls_run_warm.
  - unfold tls_derive, tls_derive_cached. unfold tls_new at 1 2 3 4 5. cbn [tl_prev tl_key]. rewrite !Z.land_0_l, X0, X1, X2.
    apply Z.ltb_lt in X. rewrite X. cbn [Z.eqb andb]. f_equal. exact IH.
Qed.
Print Assumptions C61_tlstree.
(** ... so a tree whose first sequence number is small, but not 0, hands out 32 zero bytes as its key, whatever the root:
    with all the published parameters but the last. *)
Theorem C61_tlstree_zero_key_refuted root ps : In ps (firstn 5 tls_params) -> tls_run ps root tls_new [1%Z] = [repeat 0%Z 32].
Proof.
  intro H. cbn in H. repeat (destruct H as [<-|H]; [vm_compute; reflexivity|]). contradiction.
Qed.
Print Assumptions C61_tlstree_zero_key_refuted.
Example C61_tlstree_instance :
  let ps := nth 1 tls_params [] in
  Forall (unseen ps) [1; 63]%Z /\ ~ unseen ps 64 /\ ~ unseen ps 0 /\ (forall s, (0 < s < 2 ^ 64)%Z -> ~ unseen (nth 5 tls_params []) s).
Proof.
  cbn zeta. split; [repeat constructor|]. split; [intros (_ & _ & _ & H); vm_compute in H; discriminate|]. split; [intros (H & _); lia|].
  intros s S (P & _ & _ & H). change ((nth 5 tls_params []).[2]) with (Z.ones 64) in H. rewrite Z.land_ones in H by lia.
  rewrite Z.mod_small in H; lia.
Qed.

(** The keys returned by a history of ESPTree.Derive calls *)
Fixpoint esp_run (root : bytes) (t : esptree) (l : list bytes) : list (res bytes) :=
  match l with
  | [] => []
  | is :: r => match esp_derive mac256 root t is with
    | Ok (k, t') => Ok k :: esp_run root t' r
    | Err => [Err] | Panic => [Panic] end
  end.
Lemma esp_run_ok root l : forall t, length (es_prev t) = 5 -> es_key t = esp_fresh mac256 root (es_prev t) -> Forall (fun is : bytes => length is = 5) l ->
  esp_run root t l = map (fun is => Ok (esp_fresh mac256 root is)) l.
Proof.
  induction l as [|is l IH]; intros t P K F; cbn [esp_run map]; auto. inversion F; subst.
  unfold esp_derive, esp_derive_cached. rewrite H1. cbn [Nat.eqb negb].
  assert (L : forall x, length (esp_fresh mac256 root x) = 32) by (intro; apply mac256_len).
  destruct (bytes_eqb (es_prev t) is) eqn:E; cbn [rbind fst snd].
  - apply bytes_eqb_eq in E. rewrite K, gocopy_same, <- E by auto. f_equal. apply IH; auto.
  - rewrite gocopy_same by auto. f_equal. assert (G : gocopy (es_prev t) is = is).
    { unfold gocopy. rewrite P, H1, skipn_all2 by lia. rewrite app_nil_r. apply firstn_all2. lia. }
    apply IH; auto; cbn [es_prev es_key]; now rewrite G.
Qed.
(** ESPTree: every key is derived from the root and the five bytes alone. *)
Theorem C61_esptree root l : Forall (fun is : bytes => length is = 5) l ->
  exists t, esp_new mac256 root = Ok t /\ esp_run root t l = map (fun is => Ok (esp_fresh mac256 root is)) l.
Proof.
  intro F. eexists. split; [reflexivity|]. apply esp_run_ok; auto.
Qed.
Print Assumptions C61_esptree.
Theorem C61_esptree_panics root t is : length is <> 5 -> esp_derive mac256 root t is = Panic.
Proof. intro H. unfold esp_derive, esp_derive_cached. apply Nat.eqb_neq in H. now rewrite H. Qed.
Print Assumptions C61_esptree_panics.
(** RFC 7836: KDF_GOSTR3411_2012_256 (whose HMAC the same document gives for the same input) *)
Example C61_instance :
  gkdf mac256 (hx "000102030405060708090a0b0c0d0e0f101112131415161718191a1b1c1d1e1f") (hx "26bdb878") (hx "af21434145656378")
    = hx "a1aa5f7de402d7b3d323f2991c8d4534013137010a83754fd0af6d7cd4922ed9" /\
  Forall (fun is : bytes => length is = 5) [[0;0;0;0;0]; [1;0;0;0;2]]%Z.
Proof. split; [vm_compute; reflexivity|repeat constructor]. Qed.
