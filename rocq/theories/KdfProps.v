(** Theorems about the key derivation functions. *)
From Verif Require Import Base WordModel BigModel KdfModel KdfSpec KdfProofs KdfProofs2 KdfProofs3.
From Coq Require Import Lia Arith.
Set Implicit Arguments. Unset Strict Implicit.
Local Open Scope nat_scope.

(** A hash or PRF with digests of hs bytes. *)
Definition digests (H : bytes -> bytes) (hs : nat) : Prop := 0 < hs /\ forall m, length (H m) = hs /\ bytes_ok (H m).
(** A small hash that meets the hypotheses, for the instances. *)
Definition toy (m : bytes) : bytes := be_bytes 4 (fold_left (fun a b => (a * 167 + b + 41) mod 2 ^ 32)%Z m 1%Z).
Example toy_digests : digests toy 4.
Proof. split; [lia|]. intros m. split; [apply be_bytes_length|apply be_bytes_ok]. Qed.

(** * C73: PBKDF2 *)
Theorem C73_pbkdf2 H hs salt iter n : digests H hs -> (0 <= n)%Z -> exists key,
  pb2_key H hs salt iter n = Ok key /\ by_blocks hs (pbkdf2_block H hs salt (Nat.max 1 (Z.to_nat iter))) n key.
Proof. intros [P D] N. apply pb2_key_ok; auto. apply D. Qed.
Theorem C73_pbkdf2_prefix H hs salt iter n m : digests H hs -> (0 <= n <= m)%Z -> exists a b,
  pb2_key H hs salt iter n = Ok a /\ pb2_key H hs salt iter m = Ok b /\ a = firstn (Z.to_nat n) b.
Proof.
  intros D N. destruct (@C73_pbkdf2 H hs salt iter n D ltac:(lia)) as (a & Ea & Ba). destruct (@C73_pbkdf2 H hs salt iter m D ltac:(lia)) as (b & Eb & Bb).
  exists a, b. split; auto. split; auto. replace (Z.to_nat n) with (length a) by (destruct Ba; lia). apply (by_blocks_prefix Ba Bb). lia.
Qed.
Theorem C73_negative H hs salt iter n : (n < 0)%Z -> pb2_key H hs salt iter n = Panic.
Proof. apply pb2_key_neg. Qed.
Theorem C73_gost H hs bs password salt iter n : digests H hs -> 0 < bs -> (0 <= n)%Z -> exists key,
  returns (fun f => gp_key H hs f bs password salt iter n) (Ok key) /\
  by_blocks hs (pbkdf2_block (nested H (pad_beyond bs password)) hs salt (Nat.max 1 (Z.to_nat iter))) n key.
Proof. intros [P D] B N. apply (@gp_loop_ok H hs); auto; apply D. Qed.
Theorem C73_gost_is_pbkdf2 H hs bs password salt iter n : digests H hs -> length password < bs -> (0 <= n)%Z -> exists key,
  returns (fun f => gp_key H hs f bs password salt iter n) (Ok key) /\ pb2_key (hmac_of H bs password) hs salt iter n = Ok key.
Proof.
  intros D L N. destruct (@C73_gost H hs bs password salt iter n D ltac:(lia) N) as (key & R & B). exists key. split; auto.
  assert (D' : digests (hmac_of H bs password) hs) by (destruct D as [P D]; split; auto; intros; apply D).
  destruct (@C73_pbkdf2 (hmac_of H bs password) hs salt iter n D' N) as (key' & -> & B'). f_equal.
  apply (by_blocks_unique B'). apply (by_blocks_ext (T := pbkdf2_block (nested H (pad_beyond bs password)) hs salt (Nat.max 1 (Z.to_nat iter)))); auto.
  intros i. apply pbkdf2_block_ext. intros m. apply gp_hmac. auto.
Qed.
(** a password of one block or more is not treated as HMAC does *)
Theorem C73_gost_long_password_refuted : exists password salt key, length password = 8 /\
  returns (fun f => gp_key toy 4 f 8 password salt 1 4) (Ok key) /\ pb2_key (hmac_of toy 8 password) 4 salt 1 4 <> Ok key.
Proof.
  exists [1; 2; 3; 4; 5; 6; 7; 8]%Z, [9%Z]. destruct (@C73_gost toy 4 8 [1; 2; 3; 4; 5; 6; 7; 8]%Z [9%Z] 1 4 toy_digests ltac:(lia) ltac:(lia)) as (key & [k R] & B).
  exists key. split; [reflexivity|]. split; [exists k; exact R|]. specialize (R (Nat.max k 2) ltac:(lia)).
  assert (E : forall f, gp_key toy 4 (S (S f)) 8 [1; 2; 3; 4; 5; 6; 7; 8]%Z [9%Z] 1 4 = gp_key toy 4 2 8 [1; 2; 3; 4; 5; 6; 7; 8]%Z [9%Z] 1 4) by (intros; vm_compute; reflexivity).
  replace (Nat.max k 2) with (S (S (Nat.max k 2 - 2))) in R by lia. rewrite E in R. intros C.
  assert (X : match gp_key toy 4 2 8 [1; 2; 3; 4; 5; 6; 7; 8]%Z [9%Z] 1 4, pb2_key (hmac_of toy 8 [1; 2; 3; 4; 5; 6; 7; 8]%Z) 4 [9%Z] 1 4 with
    Some (Ok a), Ok b => bytes_eqb a b | _, _ => true end = false) by (vm_compute; reflexivity).
  rewrite R, C, bytes_eqb_refl in X. discriminate.
Qed.

(** gost_pbkdf2 on slices of one memory *)
Lemma nth_splice o (x m : bytes) p : o + length x <= length m -> p < length m -> (p < o \/ o + length x <= p) -> (splice o x m).[p] = m.[p].
Proof.
  intros L P D. unfold splice. destruct D.
  - rewrite app_nth1 by (rewrite firstn_length; lia). apply nth_firstn. auto.
  - rewrite app_assoc, app_nth2 by (rewrite app_length, firstn_length; lia). rewrite nth_skip, app_length, firstn_length. f_equal. lia.
Qed.
Definition spare (w : win) (p : nat) : Prop := w_off w + w_len w <= p < w_off w + w_cap w.
Theorem C73_gost_memory H hs bs m pw salt iter n : digests H hs -> 0 < bs -> (0 <= n)%Z -> inside m pw -> inside m salt ->
  (** the zeros appended to the password do not reach the salt *)
  (let k := bs - w_len pw mod bs in
   w_cap pw < w_len pw + k \/ w_off salt + w_len salt <= w_off pw + w_len pw \/ w_off pw + w_len pw + k <= w_off salt) ->
  exists key m', returns (fun f => gp_call H hs f bs m pw salt iter n) (m', Ok key) /\
    by_blocks hs (pbkdf2_block (nested H (pad_beyond bs (wget m pw))) hs (wget m salt) (Nat.max 1 (Z.to_nat iter))) n key /\
    length m' = length m /\ forall p, p < length m -> ~ spare pw p -> ~ spare salt p -> m'.[p] = m.[p].
Proof.
  intros [P D] B N Ip Is A. cbv zeta in A. assert (HL : forall m, length (H m) = hs) by apply D. assert (HB : forall m, bytes_ok (H m)) by apply D.
  unfold gp_call, gp_padlen. rewrite (wget_length Ip). set (k := bs - w_len pw mod bs) in *.
  destruct (wappend m pw (repeat 0%Z k)) as [m1 pw1] eqn:E1. unfold wappend in E1. rewrite repeat_length in E1.
  assert (PW : pw1 = pad_beyond bs (wget m pw)). { inversion E1. unfold pad_beyond. rewrite (wget_length Ip). reflexivity. }
  assert (M1 : wget m1 salt = wget m salt /\ length m1 = length m /\ forall p, p < length m -> ~ spare pw p -> m1.[p] = m.[p]).
  { destruct Ip as [Ip1 Ip2], Is as [Is1 Is2]. inversion E1. destruct (Nat.leb_spec (w_len pw + k) (w_cap pw)); [|auto]. split; [|split].
    - apply wget_splice_apart; [split; auto|rewrite repeat_length; lia|rewrite repeat_length; lia].
    - apply splice_length. rewrite repeat_length. lia.
    - intros p Hp Ns. apply nth_splice; rewrite ?repeat_length; auto; [lia|]. unfold spare in Ns. lia. }
  destruct M1 as (Ms & Ml & Mp). rewrite Ms. destruct (@gp_while H hs HL HB pw1 (wget m salt) iter n P N) as (c & W).
  set (T := pbkdf2_block (gp_prf H pw1) hs (wget m salt) (Nat.max 1 (Z.to_nat iter))) in *.
  assert (TL : forall i, length (T i) = hs) by (intros; apply xor_of_length).
  set (l := ((Z.of_nat c + 1) mod 2 ^ 32)%Z).
  exists (firstn (Z.to_nat n) (concat (map T (seq 0 c)))), (if (0 <? n)%Z then fst (wappend m1 salt (be_bytes 4 (l - 1))) else m1).
  split; [|split; [|split]].
  - exists (S c). intros f Hf. destruct (W f ltac:(lia)) as ([dk lp] & E & (I1 & I2) & K1 & K2). rewrite E. cbn [fst snd] in *.
    rewrite I1, I2. fold l T. rewrite cut_ok; auto. rewrite (concat_length c TL). auto.
  - destruct (W (S c) ltac:(lia)) as ([dk lp] & E & (I1 & I2) & K1 & K2). subst pw1. apply by_blocks_concat; auto.
  - destruct (0 <? n)%Z; auto. unfold wappend. cbn [fst]. destruct Is. rewrite be_bytes_length.
    destruct (Nat.leb_spec (w_len salt + 4) (w_cap salt)); auto. rewrite splice_length; auto. rewrite be_bytes_length. lia.
  - intros p Hp Np Ns. rewrite <- Mp by auto. destruct (0 <? n)%Z; auto. unfold wappend. cbn [fst]. destruct Is. rewrite be_bytes_length.
    destruct (Nat.leb_spec (w_len salt + 4) (w_cap salt)); auto. apply nth_splice; rewrite ?be_bytes_length; unfold spare in Ns; lia.
Qed.
(** password and salt cut from one buffer: the padding destroys the salt *)
Theorem C73_gost_adjacent_refuted : let m := [1; 2; 3; 4; 5; 6; 7; 8; 9; 10; 11; 12]%Z in
  exists m' key, returns (fun f => gp_call toy 4 f 8 m (Win 0 2 12) (Win 2 2 2) 1 4) (m', Ok key) /\ m' <> m /\
    returns (fun f => gp_key toy 4 f 8 [1; 2]%Z [0; 0]%Z 1 4) (Ok key) /\ ~ returns (fun f => gp_key toy 4 f 8 [1; 2]%Z [3; 4]%Z 1 4) (Ok key).
Proof.
  cbv zeta. set (m := [1; 2; 3; 4; 5; 6; 7; 8; 9; 10; 11; 12]%Z).
  assert (E : forall f, gp_call toy 4 (S (S f)) 8 m (Win 0 2 12) (Win 2 2 2) 1 4 = gp_call toy 4 2 8 m (Win 0 2 12) (Win 2 2 2) 1 4) by (intros; vm_compute; reflexivity).
  assert (E1 : forall f, gp_key toy 4 (S (S f)) 8 [1; 2]%Z [0; 0]%Z 1 4 = gp_key toy 4 2 8 [1; 2]%Z [0; 0]%Z 1 4) by (intros; vm_compute; reflexivity).
  assert (E2 : forall f, gp_key toy 4 (S (S f)) 8 [1; 2]%Z [3; 4]%Z 1 4 = gp_key toy 4 2 8 [1; 2]%Z [3; 4]%Z 1 4) by (intros; vm_compute; reflexivity).
  assert (X : match gp_call toy 4 2 8 m (Win 0 2 12) (Win 2 2 2) 1 4, gp_key toy 4 2 8 [1; 2]%Z [0; 0]%Z 1 4, gp_key toy 4 2 8 [1; 2]%Z [3; 4]%Z 1 4 with
    | Some (m', Ok a), Some (Ok b), Some (Ok c) => negb (bytes_eqb m' m) && bytes_eqb a b && negb (bytes_eqb a c) | _, _, _ => false end = true) by (vm_compute; reflexivity).
  destruct (gp_call toy 4 2 8 m (Win 0 2 12) (Win 2 2 2) 1 4) as [[m' [a| |]]|]; try discriminate.
  destruct (gp_key toy 4 2 8 [1; 2]%Z [0; 0]%Z 1 4) as [[b| |]|]; try discriminate.
  destruct (gp_key toy 4 2 8 [1; 2]%Z [3; 4]%Z 1 4) as [[c| |]|]; try discriminate.
  apply andb_prop in X. destruct X as [X X3]. apply andb_prop in X. destruct X as [X1 X2].
  apply bytes_eqb_eq in X2. subst b. exists m', a. split; [|split; [|split]].
  - exists 2. intros [|[|f]] Hf; try lia. apply E.
  - intros ->. rewrite bytes_eqb_refl in X1. discriminate.
  - exists 2. intros [|[|f]] Hf; try lia. apply E1.
  - intros [k R]. specialize (R (S (S k)) ltac:(lia)). rewrite E2 in R. inversion R; subst. rewrite bytes_eqb_refl in X3. discriminate.
Qed.
Example C73_instance : match pb2_key toy 4 [1; 2; 3]%Z 3 6 with Ok k => length k =? 6 | _ => false end = true
  /\ (let m := [1; 2; 3; 4; 5; 6; 7; 8; 9; 10; 11; 12]%Z in inside m (Win 0 2 2) /\ inside m (Win 2 2 10)).
Proof. split; [vm_compute; reflexivity|]. repeat split; cbn; lia. Qed.

(** * C74: RFC 7292 key derivation *)
Theorem C74_pkcs12 H u v salt password r ID n : digests H u -> 0 < v -> bytes_ok salt -> bytes_ok password -> (0 <= n)%Z -> exists key,
  p12_key H u v salt password r ID n = Ok key /\ by_blocks u (p12_block H v (Nat.max 1 (Z.to_nat r)) ID salt password) n key.
Proof. intros [P D] V Bs Bp N. apply p12_key_ok; auto; apply D. Qed.
Theorem C74_prefix H u v salt password r ID n m : digests H u -> 0 < v -> bytes_ok salt -> bytes_ok password -> (0 <= n <= m)%Z -> exists a b,
  p12_key H u v salt password r ID n = Ok a /\ p12_key H u v salt password r ID m = Ok b /\ a = firstn (Z.to_nat n) b.
Proof.
  intros D V Bs Bp N. destruct (@C74_pkcs12 H u v salt password r ID n D V Bs Bp ltac:(lia)) as (a & Ea & Ba).
  destruct (@C74_pkcs12 H u v salt password r ID m D V Bs Bp ltac:(lia)) as (b & Eb & Bb).
  exists a, b. split; auto. split; auto. replace (Z.to_nat n) with (length a) by (destruct Ba; lia). apply (by_blocks_prefix Ba Bb). lia.
Qed.
Theorem C74_negative H u v salt password r ID n : (n < 0)%Z -> p12_key H u v salt password r ID n = Panic.
Proof. apply p12_key_neg. Qed.
Example C74_instance : match p12_key toy 4 8 [1; 2; 3]%Z [255; 255; 255; 255; 255; 255; 255; 255; 9]%Z 2 1 11 with Ok k => length k =? 11 | _ => false end = true.
Proof. vm_compute. reflexivity. Qed.

(** * C75: SP 800-108 *)
Theorem C75_counter prf key label context hs cs n : digests (prf key) hs -> (0 <= cs <= 8)%Z -> (0 <= n < 2 ^ 60)%Z -> exists out L,
  returns (fun f => kb_counter prf f key label context cs n) (Ok out) /\ shortest_be (8 * n) L /\
  by_blocks hs (kb_counter_block (prf key) (Z.to_nat cs) (fixed_input label context L)) n out.
Proof.
  intros [P D] C N. destruct (@kb_counter_ok prf key label context hs (fun m => proj1 (D m)) P cs n C ltac:(lia)) as (out & R & B).
  exists out, (kb_fillL (n * 8)). split; auto. split; auto. rewrite Z.mul_comm. apply fillL_ok. lia.
Qed.
Theorem C75_feedback prf key label context iv hs cs n : digests (prf key) hs -> (0 <= cs <= 8)%Z -> (0 <= n < 2 ^ 60)%Z -> exists out L,
  returns (fun f => kb_feedback prf f key label context iv cs n) (Ok out) /\ shortest_be (8 * n) L /\
  by_blocks hs (kb_feedback_block (prf key) (Z.to_nat cs) (fixed_input label context L) iv) n out.
Proof.
  intros [P D] C N. destruct (@kb_feedback_ok prf key label context hs (fun m => proj1 (D m)) P cs n C ltac:(lia) iv) as (out & R & B).
  exists out, (kb_fillL (n * 8)). split; auto. split; auto. rewrite Z.mul_comm. apply fillL_ok. lia.
Qed.
Theorem C75_pipeline prf key label context hs cs n : digests (prf key) hs -> (0 <= cs <= 8)%Z -> (0 <= n < 2 ^ 60)%Z -> exists out L,
  returns (fun f => kb_pipeline prf f key label context cs n) (Ok out) /\ shortest_be (8 * n) L /\
  by_blocks hs (kb_pipeline_block (prf key) (Z.to_nat cs) (fixed_input label context L)) n out.
Proof.
  intros [P D] C N. destruct (@kb_pipeline_ok prf key label context hs (fun m => proj1 (D m)) P cs n C ltac:(lia)) as (out & R & B).
  exists out, (kb_fillL (n * 8)). split; auto. split; auto. rewrite Z.mul_comm. apply fillL_ok. lia.
Qed.
Theorem C75_bad_arguments prf f key label context iv cs n : (cs < 0 \/ 8 < cs \/ n < 0)%Z ->
  kb_counter prf f key label context cs n = Some Panic /\ kb_feedback prf f key label context iv cs n = Some Panic /\
  kb_pipeline prf f key label context cs n = Some Panic.
Proof.
  intros D. unfold kb_counter, kb_feedback, kb_pipeline, kb_size_bad. destruct (Z.ltb_spec cs 0); cbn [orb]; auto.
  destruct (Z.ltb_spec 8 cs); auto. destruct (Z.ltb_spec n 0); auto. lia.
Qed.
(** the counter is not checked: after 256^cs blocks, so with cs = 0 after one, the key repeats *)
Theorem C75_counter_repeats prf key label context hs cs n : digests (prf key) hs -> (0 <= cs <= 8)%Z -> (0 <= n < 2 ^ 60)%Z -> exists out,
  returns (fun f => kb_counter prf f key label context cs n) (Ok out) /\ Z.of_nat (length out) = n /\
  forall p q : nat, p < length out -> q < length out -> Z.of_nat q = (Z.of_nat p + 256 ^ cs * Z.of_nat hs)%Z -> out.[p] = out.[q].
Proof.
  intros D C N. destruct (@C75_counter prf key label context hs cs n D C N) as (out & L & R & _ & B1 & B2). destruct D as [P _].
  exists out. split; auto. split; auto. intros p q Hp Hq E. rewrite !B2 by auto. set (e := Z.to_nat (256 ^ cs)).
  pose proof (Z.pow_pos_nonneg 256 cs ltac:(lia) ltac:(lia)). assert (Q : q = p + e * hs).
  { apply Nat2Z.inj. rewrite E, Nat2Z.inj_add, Nat2Z.inj_mul. unfold e. rewrite Z2Nat.id by lia. reflexivity. }
  rewrite Q. rewrite Nat.div_add, Nat.mod_add by lia. f_equal. unfold kb_counter_block, counter_of. f_equal. f_equal.
  rewrite <- (OcbProofs.be_bytes_mod (Z.to_nat cs) (Z.of_nat (p / hs + e + 1))). rewrite <- (OcbProofs.be_bytes_mod (Z.to_nat cs)). f_equal.
  rewrite Z2Nat.id by lia. replace (Z.of_nat (p / hs + e + 1)) with (Z.of_nat (p / hs + 1) + 1 * 256 ^ cs)%Z by (unfold e; lia). symmetry. apply Z.mod_add. lia.
Qed.
Example C75_instance : match kb_pipeline (fun k m => toy (k ++ m)) 20 [1; 2; 3]%Z [4%Z] [5%Z] 3 11, kb_counter (fun k m => toy (k ++ m)) 20 [1; 2; 3]%Z [4%Z] [5%Z] 1 11,
  kb_feedback (fun k m => toy (k ++ m)) 20 [1; 2; 3]%Z [4%Z] [5%Z] [6%Z] 8 11 with
  Some (Ok a), Some (Ok b), Some (Ok c) => (length a =? 11) && (length b =? 11) && (length c =? 11) | _, _, _ => false end = true.
Proof. vm_compute. reflexivity. Qed.

(** * C76: KDF_TREE *)
Theorem C76_tree M hs label seed k : digests M hs -> 1 <= k <= 254 -> let n := Z.of_nat (k * hs) in exists key,
  returns (fun f => kt_key M hs f label seed n) (Ok key) /\ by_blocks hs (kt_block M label seed n) n key.
Proof. intros [P D] K. apply kt_key_ok; auto. apply D. Qed.
(** the documented maximum, 255 blocks, is accepted and never returns *)
Theorem C76_maximum_refuted M hs label seed : digests M hs -> never_returns (fun f => kt_key M hs f label seed (Z.of_nat (255 * hs))).
Proof. intros [P D]. apply kt_key_hangs; auto; apply D. Qed.
Theorem C76_refuses M hs label seed n : digests M hs -> (forall k, 1 <= k <= 255 -> n <> Z.of_nat (k * hs)) ->
  forall f, kt_key M hs f label seed n = Some Panic.
Proof. intros [P D]. apply kt_key_panics; auto; apply D. Qed.
Example C76_instance : match kt_key toy 4 9 [1%Z] [2%Z] 12 with Some (Ok k) => length k =? 12 | _ => false end = true.
Proof. vm_compute. reflexivity. Qed.

(** * C77: prf+ and X9.63 *)
Theorem C77_prfplus M hs password salt n : digests M hs -> password <> [] -> salt <> [] -> (0 <= n)%Z -> exists key,
  pp_key M hs password salt n = Ok key /\ by_blocks hs (prfplus_block M salt) n key.
Proof. intros [P D]. apply pp_key_ok; auto. apply D. Qed.
Theorem C77_prfplus_refuses M hs password salt n : password = [] \/ salt = [] -> pp_key M hs password salt n = Err.
Proof. apply pp_key_err. Qed.
Theorem C77_x963 H hs z n : digests H hs -> (0 <= n <= Z.of_nat hs * (2 ^ 32 - 2))%Z -> (n + Z.of_nat hs < 2 ^ 64)%Z -> exists key,
  sm_key H hs z n = Ok key /\ by_blocks hs (x963_block H z) n key.
Proof. intros [P D] N B. apply sm_key_ok; auto; try lia. apply D. Qed.
Theorem C77_x963_refuses H hs z n : digests H hs -> (n + Z.of_nat hs < 2 ^ 64)%Z -> (n < 0 \/ Z.of_nat hs * (2 ^ 32 - 2) < n)%Z -> sm_key H hs z n = Panic.
Proof. intros [P D] B [N|N]; [apply sm_key_neg; auto; apply D|apply sm_key_long; auto; apply D]. Qed.
Example C77_instance : match pp_key toy 4 [1%Z] [2%Z] 13, sm_key toy 4 [7%Z] 9 with Ok a, Ok b => (length a =? 13) && (length b =? 9) | _, _ => false end = true.
Proof. vm_compute. reflexivity. Qed.

(** * C78: OpenPGP S2K *)
Theorem C78_s2k H hs password salt count n : digests H hs -> (count <= 1)%Z \/ salt <> [] -> exists key,
  returns (fun f => s2k_key H hs f password salt count n) (Ok key) /\ by_blocks hs (s2k_block H salt password count) (Z.max 0 n) key.
Proof. intros [P D] C. apply s2k_key_ok; auto. apply D. Qed.
Theorem C78_needs_salt H hs password count n : (1 < count)%Z -> forall f, s2k_key H hs f password [] count n = Some Panic.
Proof. intros C f. apply s2k_key_panic; auto. Qed.
(** KeyWithTune asked to choose the count never returns *)
Theorem C78_tune_refuted H hs password salt n : never_returns (fun f => s2k_tuned H hs f password salt 0 n).
Proof. apply s2k_tuned_hangs. Qed.
Theorem C78_tune_given H hs password salt count n f : count <> 0%Z -> s2k_tuned H hs f password salt count n = s2k_key H hs f password salt count n.
Proof. intros C. apply s2k_tuned_set; auto. Qed.
Theorem C78_decode c : (0 <= c < 256)%Z -> s2k_decode c = rfc4880_count c.
Proof. apply decode_ok. Qed.
(** encodeCount gives the first code whose count is not below n, 255 when there is none *)
Theorem C78_encode n : (0 <= s2k_encode n <= 255)%Z /\ (forall c, (0 <= c < s2k_encode n)%Z -> (rfc4880_count c < n)%Z) /\
  (n <= rfc4880_count 255 -> n <= rfc4880_count (s2k_encode n))%Z.
Proof.
  destruct (encode_ok n) as (E1 & E2 & E3). split; [lia|]. split.
  - intros c Hc. rewrite <- decode_ok by lia. auto.
  - intros L. rewrite <- decode_ok by lia. apply E3. exact L.
Qed.
Theorem C78_code_roundtrip c : (0 <= c < 256)%Z -> s2k_encode (s2k_decode c) = c /\ s2k_round (s2k_decode c) = s2k_decode c.
Proof. intros B. unfold s2k_round. rewrite decode_encode by auto. auto. Qed.
Example C78_instance : match s2k_key toy 4 30 [1; 2; 3]%Z [9%Z] 11 7 with Some (Ok k) => length k =? 7 | _ => false end = true /\ s2k_round 65000 = 65536%Z.
Proof. split; vm_compute; reflexivity. Qed.

(** * C79: bcrypt_pbkdf *)
Theorem C79_bcrypt_pbkdf sha bh password salt rounds n : (forall a b, length (bh a b) = 32) -> (1 <= rounds)%Z -> password <> [] -> salt <> [] ->
  (Z.of_nat (length salt) <= 2 ^ 20)%Z -> (0 <= n <= 1024)%Z -> exists key nb,
    bc_key sha bh password salt rounds n = Ok key /\ Z.of_nat nb = ((n + 31) / 32)%Z /\ Z.of_nat (length key) = n /\
    forall p, p < length key -> key.[p] = (bcrypt_block sha bh password salt (Z.to_nat rounds) (p mod nb)).[p / nb].
Proof. intros B. apply bc_key_ok. auto. Qed.
Theorem C79_refuses sha bh password salt rounds n :
  (rounds < 1)%Z \/ password = [] \/ salt = [] \/ (2 ^ 20 < Z.of_nat (length salt))%Z \/ (1024 < n)%Z -> bc_key sha bh password salt rounds n = Err.
Proof. apply bc_key_err. Qed.
Example C79_instance : let bh := fun a b => be_bytes 32 (be_val (toy (a ++ b)) * 0x0102030405060708090a0b0c) in
  match bc_key toy bh [1%Z] [2%Z] 2 50 with Ok k => length k =? 50 | _ => false end = true /\ forall a b, length (bh a b) = 32.
Proof. split; [vm_compute; reflexivity|]. intros. apply be_bytes_length. Qed.

Definition C73_C79 := (C73_pbkdf2, C73_pbkdf2_prefix, C73_negative, C73_gost, C73_gost_is_pbkdf2, C73_gost_long_password_refuted, C73_gost_memory, C73_gost_adjacent_refuted,
  C74_pkcs12, C74_prefix, C74_negative, C75_counter, C75_feedback, C75_pipeline, C75_bad_arguments, C75_counter_repeats, C76_tree, C76_maximum_refuted, C76_refuses,
  C77_prfplus, C77_prfplus_refuses, C77_x963, C77_x963_refuses, C78_s2k, C78_needs_salt, C78_tune_refuted, C78_tune_given, C78_decode, C78_encode, C78_code_roundtrip,
  C79_bcrypt_pbkdf, C79_refuses).
Print Assumptions C73_C79.
