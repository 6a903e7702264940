(** Proofs about SM2: encryption and decryption. *)
From Verif Require Import Base BigModel NumLib ModRw ElgProofs CurveModel CurveSpec EcSigModel EcSigSpec EcSigProofs EcSigProofs2 KdfModel KdfSpec KdfProofs KdfProofs2 LmsProofs2 Sm2Model Sm2Spec Sm2Proofs.
From Coq Require Import Lia.
Set Implicit Arguments. Unset Strict Implicit.
Local Open Scope Z_scope.

Lemma all_zero_iff b : all_zero b = true <-> b = repeat 0 (length b).
Proof.
  split; [apply all_zero_repeat|]. unfold all_zero. intros ->. induction (length b); [reflexivity|]. cbn [repeat forallb]. rewrite IHn. reflexivity.
Qed.
Lemma rbind_ok A B (x : res A) (f : A -> res B) y : rbind x f = Ok y -> exists a, x = Ok a /\ f a = Ok y.
Proof. destruct x; cbn; intros H; try discriminate. eauto. Qed.

Lemma app_inj {A} (a b c d : list A) : length a = length c -> a ++ b = c ++ d -> a = c /\ b = d.
Proof.
  revert c. induction a as [|x a IH]; intros [|y c] L E; cbn in L; try lia; auto. cbn in E. injection E as -> E.
  destruct (IH c ltac:(lia) E) as [-> ->]. auto.
Qed.
Lemma app_inj_r {A} (a b c d : list A) : length b = length d -> a ++ b = c ++ d -> a = c /\ b = d.
Proof. intros L E. apply app_inj; auto. apply (f_equal (@length A)) in E. rewrite !app_length in E. lia. Qed.

Section E.
Variable (c : curve) (pt : Z -> Z * Z) (F : full_curve c pt).
Variable (h : hasher) (Hh : hasher_ok h) (Hp : (0 < hsize h)%nat).
Notation N := (cN c).
Notation L := (flen c).
Notation H := (hsum h).
Notation hs := (hsize h).
Let LW : lawful_curve c pt := fc_law F.

Lemma kdf_ok z n : kdf_room hs n -> exists key, sm_kdf h z n = Ok key /\ by_blocks hs (x963_block H z) (Z.of_nat n) key.
Proof. intros [A B]. apply sm_key_ok; auto; [intros m; apply Hh|lia]. Qed.
Lemma kdf_iff z n key : kdf_room hs n -> (sm_kdf h z n = Ok key <-> by_blocks hs (x963_block H z) (Z.of_nat n) key).
Proof.
  intros R. destruct (kdf_ok z R) as (k & E & B). rewrite E. split; [intros [= <-]; auto|]. intros B'. f_equal. eapply by_blocks_unique; eauto.
Qed.

Lemma enc_k_iff k a data d : 0 <= k -> kdf_room hs (length data) ->
  (sm_enc_k c h k (pt a) data = Ok (Some d) <->
   eX d = be_bytes L (fst (pt k)) /\ eY d = be_bytes L (snd (pt k)) /\ seals H hs L (pt (a * k)) data (eC d) (eH d)).
Proof.
  intros K R. unfold sm_enc_k. rewrite smul_pt with (pt := pt), base_z with (pt := pt) by auto. cbn [rbind]. rewrite !(coords_pt F). cbn [rbind fst snd].
  destruct (kdf_ok (be_bytes L (fst (pt (a * k))) ++ be_bytes L (snd (pt (a * k)))) R) as (t & E & B). rewrite E. cbn [rbind].
  assert (Lt : length t = length data) by (destruct B; lia).
  destruct (all_zero t) eqn:Az.
  - split; [discriminate|]. intros (_ & _ & t' & B' & Nz & _). exfalso. apply Nz. unfold point_os in B'.
    rewrite (by_blocks_unique B' B). apply all_zero_iff in Az. congruence.
  - split.
    + intros [= <-]. cbn [eX eY eC eH]. repeat split; auto. exists t. unfold point_os. repeat split; auto; try apply B.
      intros Q. rewrite <- Lt in Q. apply all_zero_iff in Q. congruence.
    + destruct d as [x y hh ct]. cbn [eX eY eC eH]. intros (-> & -> & t' & B' & Nz & -> & ->). unfold point_os in B'.
      rewrite (by_blocks_unique B' B). reflexivity.
Qed.
Lemma kdf_empty z : sm_kdf h z 0 = Ok [] \/ sm_kdf h z 0 = Panic.
Proof.
  unfold sm_kdf, sm_key. destruct (Nat.eqb hs 0); auto. cbn [Z.of_nat]. destruct (_ <=? _); auto. left.
  destruct (Nat.iter _ _ _) as [k x]. unfold cut. cbn. destruct (Z.ltb_spec (Z.of_nat (length k)) 0); [lia|]. reflexivity.
Qed.
Lemma enc_empty fuel : forall retry a rd, bytes_ok rd -> exists r, sm_enc_loop c h fuel retry (pt a) [] rd = r /\ (r = Err \/ r = Panic).
Proof.
  induction fuel; intros retry a rd B; cbn [sm_enc_loop]; [eauto|].
  destruct (sm_rand c rd) as [[k rd']| |] eqn:E; cbn [rbind fst snd]; [|eauto|eauto].
  apply (rand_ok F) in E as (K & B' & _); auto.
  assert (S : sm_enc_k c h k (pt a) [] = Ok None \/ sm_enc_k c h k (pt a) [] = Panic).
  { unfold sm_enc_k. rewrite smul_pt with (pt := pt), base_z with (pt := pt) by (auto; lia). cbn [rbind]. rewrite !(coords_pt F). cbn [rbind fst snd length].
    destruct (kdf_empty (be_bytes L (fst (pt (a * k))) ++ be_bytes L (snd (pt (a * k))))) as [->| ->]; cbn; auto. }
  destruct S as [->| ->]; cbn [rbind]; [|eauto]. destruct (_ <? _); eauto.
Qed.
Lemma enc_loop_inv data fuel : forall retry a rd d, bytes_ok rd -> sm_enc_loop c h fuel retry (pt a) data rd = Ok d ->
  exists k, 0 < k < N /\ sm_enc_k c h k (pt a) data = Ok (Some d).
Proof.
  induction fuel; intros retry a rd d B; cbn [sm_enc_loop]; [discriminate|].
  destruct (sm_rand c rd) as [[k rd']| |] eqn:E; cbn [rbind fst snd]; try discriminate.
  apply (rand_ok F) in E as (K & B' & _); auto.
  destruct (sm_enc_k c h k (pt a) data) as [[d'|]| |] eqn:S; cbn [rbind]; try discriminate.
  - intros [= <-]. eauto.
  - destruct (_ <? _); [discriminate|]. apply IHfuel; auto.
Qed.

Lemma seals_length S M C2 C3 : seals H hs L S M C2 C3 -> length C2 = length M /\ length C3 = hs /\ M <> [].
Proof.
  intros (t & [B _] & Nz & -> & ->). rewrite xorl_length. assert (length t = length M) by lia. split; [lia|]. split; [apply Hh|].
  intros ->. apply Nz. destruct t; [reflexivity|discriminate].
Qed.
Lemma dec_iff a D d M : 0 <= D -> (be_val (eX d), be_val (eY d)) = pt a -> kdf_room hs (length (eC d)) ->
  (sm_dec c h D d = Ok M <-> seals H hs L (pt (a * D)) M (eC d) (eH d)).
Proof.
  intros HD E R. unfold sm_dec. rewrite E, smul_pt with (pt := pt) by auto. cbn [rbind]. rewrite (coords_pt F). cbn [rbind fst snd].
  destruct (kdf_ok (be_bytes L (fst (pt (a * D))) ++ be_bytes L (snd (pt (a * D)))) R) as (t & Et & B). rewrite Et. cbn [rbind].
  assert (Lt : length t = length (eC d)) by (destruct B; lia).
  destruct (all_zero t) eqn:Az.
  - split; [discriminate|]. intros S. pose proof (seals_length S) as (S1 & _ & _). destruct S as (t' & B' & Nz & S2 & _). exfalso. apply Nz.
    unfold point_os in B'. rewrite <- S1 in B' |- *. rewrite (by_blocks_unique B' B). apply all_zero_iff in Az. congruence.
  - destruct (beq _ (eH d)) eqn:Eq.
    + apply beq_true in Eq. split.
      * intros X. apply ok_inj in X. subst M. exists t. rewrite xorl_length_eq by auto. unfold point_os. rewrite Lt.
        repeat split; auto; try apply B.
        -- intros Q. rewrite <- Lt in Q. apply all_zero_iff in Q. congruence.
        -- symmetry. apply xorl_cancel_l. lia.
      * intros S. pose proof (seals_length S) as (S1 & _ & _). destruct S as (t' & B' & Nz & S2 & S3). f_equal.
        unfold point_os in B'. rewrite <- S1 in B'. rewrite (by_blocks_unique B' B) in S2. rewrite S2. apply xorl_cancel_l. lia.
    + split; [discriminate|]. intros S. pose proof (seals_length S) as (S1 & _ & _). destruct S as (t' & B' & Nz & S2 & S3).
      unfold point_os in B'. rewrite <- S1 in B'. rewrite (by_blocks_unique B' B) in S2. exfalso.
      assert (beq (H (be_bytes L (fst (pt (a * D))) ++ xorl t (eC d) ++ be_bytes L (snd (pt (a * D))))) (eH d) = true); [|congruence].
      apply beq_true. rewrite S3. do 3 f_equal. rewrite S2. apply xorl_cancel_l. lia.
Qed.
Lemma dec_no_panic a D d : 0 <= D -> (be_val (eX d), be_val (eY d)) = pt a -> kdf_room hs (length (eC d)) -> sm_dec c h D d <> Panic.
Proof.
  intros HD E R. unfold sm_dec. rewrite E, smul_pt with (pt := pt) by auto. cbn [rbind]. rewrite (coords_pt F). cbn [rbind fst snd].
  destruct (kdf_ok (be_bytes L (fst (pt (a * D))) ++ be_bytes L (snd (pt (a * D)))) R) as (t & -> & B). cbn [rbind].
  destruct (all_zero t); [discriminate|]. destruct (beq _ _); discriminate.
Qed.
Lemma dec_off D d : good_point c (be_val (eX d), be_val (eY d)) = false -> sm_dec c h D d = Panic.
Proof. intros E. unfold sm_dec, smul. now rewrite E. Qed.

(** * Encoding *)
Definition enc_wf (d : encd) : Prop := length (eX d) = L /\ length (eY d) = L /\ length (eH d) = hs.
Lemma marshal_length m d : enc_wf d -> length (sm_marshal m d) = (1 + 2 * L + hs + length (eC d))%nat.
Proof. intros (A & B & C). destruct m; cbn [sm_marshal app length]; rewrite !app_length, A, B, C; lia. Qed.
Lemma marshal_inj m d e : enc_wf d -> enc_wf e -> sm_marshal m d = sm_marshal m e -> d = e.
Proof.
  intros (A & B & C) (A' & B' & C') E. destruct d as [x y t u], e as [x' y' t' u']. cbn [eX eY eH eC] in *.
  destruct m; cbn [sm_marshal app eX eY eH eC] in E; injection E as E.
  - apply app_inj in E as [-> E]; [|lia]. apply app_inj in E as [-> E]; [|lia]. apply app_inj in E as [-> E]; [|lia]. congruence.
  - apply app_inj in E as [-> E]; [|lia]. apply app_inj in E as [-> E]; [|lia]. apply app_inj_r in E as [-> E]; [|lia]. congruence.
Qed.
Lemma cutz_ok i n l : (i + n <= length l)%nat -> cutz (Z.of_nat i) (Z.of_nat (i + n)) l = Ok (slice i n l).
Proof.
  intros B. unfold cutz. replace (0 <=? Z.of_nat i) with true by lia. replace (Z.of_nat i <=? Z.of_nat (i + n)) with true by lia.
  replace (Z.of_nat (i + n) <=? Z.of_nat (length l)) with true by lia. cbn [andb]. rewrite Nat2Z.id. do 2 f_equal. lia.
Qed.
Lemma unmarshal_ok m rest : (2 * L + hs <= length rest)%nat -> exists d, sm_unmarshal c h m (4 :: rest) = Ok d /\ enc_wf d /\ sm_marshal m d = 4 :: rest.
Proof.
  intros B. unfold sm_unmarshal. cbn [Z.eqb negb Pos.eqb]. rewrite (proj2 (Z.ltb_ge _ _)) by (cbn [length]; lia).
  change 0 with (Z.of_nat 0). replace (2 * Z.of_nat L) with (Z.of_nat (0 + 2 * L)) by lia. rewrite cutz_ok by lia. cbn [rbind].
  assert (S0 : slice 0 (2 * L) rest = firstn (2 * L) rest) by reflexivity. rewrite S0.
  assert (FL : length (firstn L (firstn (2 * L) rest)) = L) by (rewrite firstn_length, firstn_length; lia).
  assert (SL : length (skipn L (firstn (2 * L) rest)) = L) by (rewrite skipn_length, firstn_length; lia).
  destruct m.
  - replace (Z.of_nat (0 + 2 * L) + Z.of_nat hs) with (Z.of_nat (2 * L + hs)) by lia. replace (0 + 2 * L)%nat with (2 * L)%nat by lia.
    rewrite cutz_ok by lia. cbn [rbind]. replace (Z.of_nat (length rest)) with (Z.of_nat ((2 * L + hs) + (length rest - (2 * L + hs)))) by lia.
    rewrite cutz_ok by lia. cbn [rbind]. eexists. split; [reflexivity|]. unfold enc_wf. cbn [sm_marshal eX eY eH eC app]. split.
    + repeat split; auto. rewrite slice_length; lia.
    + f_equal. rewrite app_assoc, firstn_skipn. rewrite (@slice_all_r _ (2 * L + hs)%nat _ rest) by lia.
      transitivity (firstn (2 * L) rest ++ skipn (2 * L) rest); [|apply firstn_skipn]. f_equal.
      transitivity (firstn hs (skipn (2 * L) rest) ++ skipn hs (skipn (2 * L) rest)); [|apply firstn_skipn]. unfold slice. f_equal.
      symmetry. apply skipn_skipn'.
  - replace (Z.of_nat (length rest) - Z.of_nat hs) with (Z.of_nat (2 * L + (length rest - hs - 2 * L))) by lia. replace (0 + 2 * L)%nat with (2 * L)%nat by lia.
    rewrite cutz_ok by lia. cbn [rbind]. replace (Z.of_nat (length rest)) with (Z.of_nat ((2 * L + (length rest - hs - 2 * L)) + hs)) by lia.
    rewrite cutz_ok by lia. cbn [rbind]. eexists. split; [reflexivity|]. unfold enc_wf. cbn [sm_marshal eX eY eH eC app]. split.
    + repeat split; auto. rewrite slice_length; lia.
    + f_equal. rewrite app_assoc, firstn_skipn. rewrite (@slice_all_r _ (2 * L + (length rest - hs - 2 * L))%nat _ rest) by lia.
      transitivity (firstn (2 * L) rest ++ skipn (2 * L) rest); [|apply firstn_skipn]. f_equal.
      set (q := (length rest - hs - 2 * L)%nat).
      transitivity (firstn q (skipn (2 * L) rest) ++ skipn q (skipn (2 * L) rest)); [|apply firstn_skipn]. unfold slice. f_equal.
      symmetry. apply skipn_skipn'.
Qed.
Lemma unmarshal_marshal m d : enc_wf d -> sm_unmarshal c h m (sm_marshal m d) = Ok d.
Proof.
  intros W. pose proof (marshal_length m W) as Ln. destruct (sm_marshal m d) as [|t rest] eqn:E; [cbn in Ln; lia|].
  assert (t = 4) by (destruct m; cbn in E; congruence). subst t. cbn [length] in Ln.
  destruct (@unmarshal_ok m rest) as (e & -> & We & Ee); [lia|]. f_equal. apply (marshal_inj (m := m)); auto. congruence.
Qed.
Lemma unmarshal_panic m t rest : sm_unmarshal c h m (t :: rest) = Panic <-> t = 4 /\ length (t :: rest) = (2 * L + hs)%nat.
Proof.
  destruct (Z.eqb_spec t 4) as [->|N4].
  - destruct (le_lt_dec (2 * L + hs) (length rest)) as [G|G].
    + destruct (@unmarshal_ok m rest G) as (e & -> & _). split; [discriminate|]. cbn [length]. lia.
    + unfold sm_unmarshal. cbn [Z.eqb negb Pos.eqb]. destruct (Z.ltb_spec (Z.of_nat (length (4 :: rest))) (2 * Z.of_nat L + Z.of_nat hs)) as [T|T].
      * split; [discriminate|]. lia.
      * cbn [length] in *. split; [lia|]. intros _. assert (Ln : length rest = (2 * L + hs - 1)%nat) by lia.
        change 0 with (Z.of_nat 0). replace (2 * Z.of_nat L) with (Z.of_nat (0 + 2 * L)) by lia. rewrite cutz_ok by lia. cbn [rbind].
        destruct m; unfold cutz.
        -- replace (Z.of_nat (0 + 2 * L) + Z.of_nat hs <=? Z.of_nat (length rest)) with false by lia. rewrite andb_false_r. reflexivity.
        -- replace (Z.of_nat (0 + 2 * L) <=? Z.of_nat (length rest) - Z.of_nat hs) with false by lia. rewrite andb_false_r. reflexivity.
  - unfold sm_unmarshal. rewrite (proj2 (Z.eqb_neq t 4)) by auto. cbn [negb]. split; [discriminate|]. tauto.
Qed.
Lemma unmarshal_inv m data d : sm_unmarshal c h m data = Ok d -> enc_wf d /\ sm_marshal m d = data.
Proof.
  destruct data as [|t rest]; [discriminate|]. intros E. destruct (Z.eqb_spec t 4) as [->|N4].
  - destruct (le_lt_dec (2 * L + hs) (length rest)) as [G|G].
    + destruct (@unmarshal_ok m rest G) as (e & E' & W). rewrite E in E'. apply ok_inj in E'. subst e. exact W.
    + exfalso. destruct (Nat.eq_dec (length (4 :: rest)) (2 * L + hs)) as [Q|Q].
      * destruct (unmarshal_panic m 4 rest) as [_ X]. rewrite X in E by auto. discriminate.
      * unfold sm_unmarshal in E. cbn [Z.eqb negb Pos.eqb] in E. rewrite (proj2 (Z.ltb_lt _ _)) in E by (cbn [length] in *; lia). discriminate.
  - unfold sm_unmarshal in E. rewrite (proj2 (Z.eqb_neq t 4)) in E by auto. discriminate.
Qed.
End E.
