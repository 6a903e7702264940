(** Proofs about SM2: key exchange. *)
From Verif Require Import Base BigModel NumLib ModRw ElgProofs CurveModel CurveSpec EcSigModel EcSigSpec EcSigProofs EcSigProofs2 KdfModel KdfSpec KdfProofs KdfProofs2 LmsProofs2 Sm2Model Sm2Spec Sm2Proofs Sm2Proofs2.
From Coq Require Import Lia.
Set Implicit Arguments. Unset Strict Implicit.
Local Open Scope Z_scope.

Lemma xhat_reduced x : 0 <= x -> ke_xhat x = reduced 127 x.
Proof.
  intros X. unfold ke_xhat, reduced. pose proof (big_bytes_ok x) as B. pose proof (be_val_big_bytes X) as V.
  set (buf := big_bytes x) in *. set (n := length buf) in *. rewrite (Z.add_comm (be_val _)). f_equal.
  destruct (Nat.leb_spec 16 n) as [G|G].
  - assert (Lr : length (repeat 0 (n - 16)) = (n - 16)%nat) by apply repeat_length.
    set (low := skipn (n - 16) buf). assert (Ll : length low = 16%nat) by (unfold low; rewrite skipn_length; unfold n in *; lia).
    assert (Bl : bytes_ok low) by (apply bytes_ok_skipn; auto).
    assert (Vl : be_val low = x mod 256 ^ Z.of_nat 16).
    { unfold low, n. rewrite be_val_skipn by (auto; fold n; lia). now rewrite V. }
    destruct low as [|b t]; [discriminate|]. cbn [length] in Ll.
    rewrite firstn_app, Lr, firstn_all2 by lia. rewrite Nat.sub_diag. cbn [firstn]. rewrite app_nil_r.
    rewrite app_nth2 by lia. rewrite Lr, Nat.sub_diag. cbn [nth].
    replace (skipn (n - 15) (repeat 0 (n - 16) ++ b :: t)) with t.
    2: { rewrite skipn_app, Lr. replace (n - 15 - (n - 16))%nat with 1%nat by lia. rewrite skipn_all2 by lia. reflexivity. }
    rewrite be_val_app, be_val_zeros, Z.mul_0_l, Z.add_0_l.
    change (Z.land b 127 :: t) with ([Z.land b 127] ++ t). rewrite be_val_app.
    change (b :: t) with ([b] ++ t) in Vl. rewrite be_val_app in Vl.
    assert (L15 : length t = 15%nat) by lia. rewrite L15 in Vl |- *. pose proof (Forall_inv Bl) as Hb. pose proof (Forall_inv_tail Bl) as Ht.
    assert (Tb : 0 <= be_val t < 256 ^ Z.of_nat 15). { pose proof (be_val_bound Ht) as Q. rewrite L15 in Q. exact Q. }
    assert (Q1 : forall z, be_val [z] = z) by (intros; unfold be_val; cbn; lia). rewrite Q1 in *.
    change 127 with (Z.ones 7) at 1. rewrite Z.land_ones by lia.
    change (256 ^ Z.of_nat 16) with (2 ^ 127 * 2) in Vl. change (256 ^ Z.of_nat 15) with (2 ^ 120) in *. change (2 ^ 7) with 128.
    assert (M : x mod 2 ^ 127 = (x mod (2 ^ 127 * 2)) mod 2 ^ 127).
    { rewrite Z.rem_mul_r by lia. rewrite Z.mul_comm, Z.mod_add, Z.mod_mod by lia. reflexivity. }
    rewrite M, <- Vl. clear M Vl. unfold is_byte in Hb. pose proof (Z.div_mod b 128 ltac:(lia)) as Db. pose proof (Z.mod_pos_bound b 128 ltac:(lia)) as Mb.
    change (2 ^ 127) with (128 * 2 ^ 120). apply Z.mod_unique with (q := b / 128); [left|]; set (p := 2 ^ 120) in *; clearbody p; nia.
  - replace (n - 16)%nat with 0%nat by lia. cbn [repeat skipn app]. rewrite V. symmetry. apply Z.mod_small. split; auto.
    pose proof (be_val_bound B) as Q. rewrite V in Q. fold n in Q. apply Z.lt_le_trans with (1 := proj2 Q).
    apply Z.le_trans with (256 ^ Z.of_nat 15); [apply Z.pow_le_mono_r; lia|]. vm_compute. discriminate.
Qed.

Section K.
Variable (c : curve) (pt : Z -> Z * Z) (F : full_curve c pt).
Variable (cB : Z) (cG : Z * Z) (h : hasher) (Hh : hasher_ok h) (Hp : (0 < hsize h)%nat).
Notation N := (cN c).
Notation L := (flen c).
Notation H := (hsum h).
Notation hs := (hsize h).
Let LW : lawful_curve c pt := fc_law F.
Notation ZAof := (fun id d => H (za_input L (abg c cB cG) id (pt d))).

Lemma w_pos : 0 <= ke_w c.
Proof. unfold ke_w. pose proof (n_big F). pose proof (@bitlen_pos N ltac:(lia)). pose proof (Nat.div_le_mono 2 (bitlen N + 1) 2 ltac:(lia) ltac:(lia)). cbn in H1. lia. Qed.
Lemma avf_reduced x : 0 <= x -> ke_avf c x = reduced (ke_w c) x.
Proof.
  intros X. unfold ke_avf, reduced. pose proof w_pos as W. rewrite Z.shiftl_1_l. f_equal. rewrite Z.sub_1_r, <- Z.ones_equiv, Z.land_comm.
  now rewrite Z.land_ones.
Qed.
Lemma avf_nonneg x : 0 <= ke_avf c (fst (pt x)).
Proof.
  pose proof (fits F x) as [A _]. rewrite avf_reduced by lia. unfold reduced. pose proof w_pos.
  pose proof (Z.pow_pos_nonneg 2 (ke_w c) ltac:(lia) ltac:(lia)). pose proof (Z.mod_pos_bound (fst (pt x)) (2 ^ ke_w c)). lia.
Qed.
Notation xr := (fun r => reduced (ke_w c) (fst (pt r))).

Lemma mqv_pt k d r d' r' : eD (kKey k) = d -> kPeer k = pt d' -> kR k = r -> kSecret k = pt r -> kPeerSecret k = pt r' ->
  ke_mqv c k = Ok (pt ((d + xr r * r) * (d' + xr r' * r'))).
Proof.
  intros E1 E2 E3 E4 E5. unfold ke_mqv. rewrite E1, E2, E3, E4, E5. pose proof (@avf_nonneg r). pose proof (@avf_nonneg r').
  rewrite smul_pt with (pt := pt) by auto. cbn [rbind]. rewrite sadd_pt with (pt := pt) by auto. cbn [rbind].
  pose proof (n_big F). pose proof (Z.mod_pos_bound (ke_avf c (fst (pt r)) * r + d) N ltac:(lia)).
  rewrite smul_pt with (pt := pt) by (auto; lia). f_equal. pose proof (fits F r) as [A _]. pose proof (fits F r') as [A' _].
  rewrite !avf_reduced by lia. apply (pt_cong LW). to_zq. rewrite zq_mod. apply Zq. f_equal. ring.
Qed.
Lemma tag_pt k a r r' (resp : bool) pre : kV k = pt a -> kSecret k = pt r -> kPeerSecret k = pt r' ->
  ke_sign c h k resp pre = Ok (if resp then exchange_tag H L pre (pt a) (pt r') (pt r) (kPeerZ k) (kZ k)
                               else exchange_tag H L pre (pt a) (pt r) (pt r') (kZ k) (kPeerZ k)).
Proof.
  intros E1 E2 E3. unfold ke_sign. rewrite E1, E2, E3, !(coords_pt F). cbn [rbind fst snd]. unfold exchange_tag, point_os.
  destruct resp; now rewrite <- !app_assoc.
Qed.
Lemma shared_pt k a (resp : bool) : kV k = pt a -> kdf_room hs (kLen k) ->
  exists key, ke_shared c h k resp = Ok key /\ exchange_key H hs L (pt a) (if resp then kPeerZ k else kZ k) (if resp then kZ k else kPeerZ k) (kLen k) key.
Proof.
  intros E R. unfold ke_shared. rewrite E, (coords_pt F). cbn [rbind fst snd]. unfold exchange_key, point_os.
  destruct resp; rewrite <- app_assoc; apply kdf_ok; auto.
Qed.
Lemma new_pt d d' id pid klen gen : Z.of_nat (length id) < 8192 -> Z.of_nat (length pid) < 8192 ->
  ke_new c cB cG h (EcKey (pt d) d) (pt d') id pid klen gen =
  Ok (Kex gen klen (EcKey (pt d) d) (ZAof (ke_uid id) d) (pt d') (ZAof (ke_uid pid) d') 0 (0, 0) (0, 0) (0, 0)).
Proof.
  intros I I'. unfold ke_new. cbn [ePub]. rewrite !(za_pt F).
  assert (Q : forall u, Z.of_nat (length u) < 8192 -> 8192 <=? Z.of_nat (length (ke_uid u)) = false).
  { intros u U. unfold ke_uid. destruct (Nat.eqb (length u) 0); [reflexivity|]. lia. }
  rewrite !Q by auto. reflexivity.
Qed.

(** A party's object: own secret d, own ephemeral r, the peer's public point. *)
Definition party (k : kex) (d d' r : Z) : Prop := eD (kKey k) = d /\ kPeer k = pt d' /\ kR k = r /\ kSecret k = pt r.
Lemma respond_pt k d d' r r' : eD (kKey k) = d -> kPeer k = pt d' -> 0 <= r -> r' mod N <> 0 ->
  let V := pt ((d + xr r * r) * (d' + xr r' * r')) in
  let k' := ke_set k r (pt r) (pt r') V in
  ke_respond c h k (pt r') r =
  if is_inf V then Err else
  Ok (k', pt r, if kGen k then Some (exchange_tag H L 2 V (pt r') (pt r) (kPeerZ k) (kZ k)) else None).
Proof.
  intros E1 E2 R R'. cbn zeta. unfold ke_respond. rewrite (lc_on LW) by auto. cbn [negb]. rewrite base_z with (pt := pt) by auto.
  rewrite (@mqv_pt _ d r d' r') by (auto). cbn [rbind]. destruct (is_inf _) eqn:I; [reflexivity|].
  cbn [kGen ke_set kSecret kR kPeerSecret]. destruct (kGen k); [|reflexivity].
  erewrite tag_pt by reflexivity. reflexivity.
Qed.
Lemma confirm_pt k d d' r r' sB : party k d d' r -> r' mod N <> 0 -> kdf_room hs (kLen k) ->
  let V := pt ((d + xr r * r) * (d' + xr r' * r')) in
  let tag pre := exchange_tag H L pre V (pt r) (pt r') (kZ k) (kPeerZ k) in
  exists key, exchange_key H hs L V (kZ k) (kPeerZ k) (kLen k) key /\
  ke_confirm_responder c h k (pt r') sB =
  if is_inf V then Err else
  if Nat.eqb (length sB) 0 || beq (tag 2) sB then Ok (key, if kGen k then Some (tag 3) else None) else Err.
Proof.
  intros (E1 & E2 & E3 & E4) R' Rm. cbn zeta. unfold ke_confirm_responder. rewrite (lc_on LW) by auto. cbn [negb].
  rewrite (@mqv_pt _ d r d' r') by auto. cbn [rbind]. set (V := pt _).
  set (k2 := ke_set (ke_set k (kR k) (kSecret k) (pt r') (kV k)) _ _ _ V).
  destruct (@shared_pt k2 ((d + xr r * r) * (d' + xr r' * r')) false eq_refl Rm) as (key & Ek & Bk).
  exists key. split; [exact Bk|]. destruct (is_inf V); [reflexivity|].
  rewrite !(@tag_pt k2 ((d + xr r * r) * (d' + xr r' * r')) r r') by auto. rewrite Ek. cbn [rbind].
  destruct (Nat.eqb (length sB) 0); cbn [rbind orb negb].
  - change (kGen k2) with (kGen k). destruct (kGen k); reflexivity.
  - change (kZ k2) with (kZ k). change (kPeerZ k2) with (kPeerZ k). fold V. destruct (beq _ sB); cbn [negb]; [|reflexivity].
    change (kGen k2) with (kGen k). destruct (kGen k); reflexivity.
Qed.
Lemma initiator_pt k a r r' s1 : kV k = pt a -> kSecret k = pt r -> kPeerSecret k = pt r' -> kdf_room hs (kLen k) ->
  exists key, exchange_key H hs L (pt a) (kPeerZ k) (kZ k) (kLen k) key /\
  ke_confirm_initiator c h k s1 =
  match s1 with
  | None => Ok key
  | Some s => if beq (exchange_tag H L 3 (pt a) (pt r') (pt r) (kPeerZ k) (kZ k)) s then Ok key else Err
  end.
Proof.
  intros E1 E2 E3 Rm. destruct (@shared_pt k a true E1 Rm) as (key & Ek & Bk). exists key. split; [exact Bk|].
  unfold ke_confirm_initiator. rewrite Ek. destruct s1 as [s|]; cbn [rbind negb]; [|reflexivity].
  rewrite (@tag_pt k a r r') by auto. cbn [rbind]. destruct (beq _ s); reflexivity.
Qed.
Lemma shared_comm dA rA dB rB : pt ((dB + xr rB * rB) * (dA + xr rA * rA)) = pt ((dA + xr rA * rA) * (dB + xr rB * rB)).
Proof. f_equal. ring. Qed.
Lemma agree dA dB rA rB ida idb klen gen : 0 <= dA -> 0 <= dB -> 0 <= rA -> 0 <= rB -> rA mod N <> 0 -> rB mod N <> 0 ->
  Z.of_nat (length ida) < 8192 -> Z.of_nat (length idb) < 8192 -> kdf_room hs klen ->
  let V := pt ((dA + xr rA * rA) * (dB + xr rB * rB)) in
  let ZA := ZAof (ke_uid ida) dA in let ZB := ZAof (ke_uid idb) dB in
  let tag pre := exchange_tag H L pre V (pt rA) (pt rB) ZA ZB in
  is_inf V = false ->
  exists A B B' key,
    ke_new c cB cG h (EcKey (pt dA) dA) (pt dB) ida idb klen gen = Ok A /\
    ke_new c cB cG h (EcKey (pt dB) dB) (pt dA) idb ida klen gen = Ok B /\
    ke_respond c h B (kSecret (ke_init c A rA)) rB = Ok (B', pt rB, if gen then Some (tag 2) else None) /\
    ke_confirm_responder c h (ke_init c A rA) (pt rB) (if gen then tag 2 else []) = Ok (key, if gen then Some (tag 3) else None) /\
    ke_confirm_initiator c h B' (if gen then Some (tag 3) else None) = Ok key /\
    exchange_key H hs L V ZA ZB klen key.
Proof.
  intros PA PB QA QB RA RB IA IB Rm V ZA ZB tag NI.
  rewrite !new_pt by auto. fold ZA ZB.
  set (A := Kex gen klen (EcKey (pt dA) dA) ZA (pt dB) ZB 0 (0, 0) (0, 0) (0, 0)).
  set (B := Kex gen klen (EcKey (pt dB) dB) ZB (pt dA) ZA 0 (0, 0) (0, 0) (0, 0)).
  exists A, B, (ke_set B rB (pt rB) (pt rA) V).
  assert (I : ke_init c A rA = ke_set A rA (pt rA) (0, 0) (0, 0)) by (unfold ke_init; rewrite base_z with (pt := pt) by auto; reflexivity).
  rewrite I. cbn [kSecret ke_set].
  destruct (@confirm_pt (ke_set A rA (pt rA) (0, 0) (0, 0)) dA dB rA rB (if gen then tag 2 else [])) as (key & Kk & Ek); [repeat split|auto|exact Rm|].
  cbn zeta in Ek. cbn [kZ kPeerZ kLen kGen A ke_set] in Ek, Kk. fold V in Ek, Kk. rewrite NI in Ek.
  exists key. split; [reflexivity|]. split; [reflexivity|].
  split. { rewrite (@respond_pt _ dB dA rB rA) by auto. rewrite shared_comm. fold V. rewrite NI. reflexivity. }
  split. { cbn [ke_set A kGen kLen kKey kZ kPeer kPeerZ]. rewrite Ek. destruct gen; [|reflexivity]. unfold tag. rewrite (proj2 (beq_true _ _)) by reflexivity. rewrite orb_true_r. reflexivity. }
  split; [|exact Kk].
  match goal with |- ke_confirm_initiator c h ?k ?s = _ =>
    destruct (@initiator_pt k ((dA + xr rA * rA) * (dB + xr rB * rB)) rB rA s) as (key' & Kk' & ->); [reflexivity|reflexivity|reflexivity|exact Rm|] end.
  cbn [kZ kPeerZ kLen ke_set B] in *. fold V in Kk' |- *.
  assert (key' = key) by (eapply by_blocks_unique; eauto). subst key'.
  destruct gen; [|reflexivity]. unfold tag. rewrite (proj2 (beq_true _ _)) by reflexivity. reflexivity.
Qed.

(** * KeyExchangeA and KeyExchangeB *)
Notation x7 := (fun r => reduced 127 (fst (pt r))).
Lemma x7_nonneg r : 0 <= x7 r.
Proof. cbn beta. unfold reduced. pose proof (Z.mod_pos_bound (fst (pt r)) (2 ^ 127)). lia. Qed.
Lemma kx_pt klen ida idb d d' r r' (isA : bool) : 0 <= d -> r' mod N <> 0 -> Z.of_nat (length ida) < 8192 -> kdf_room hs klen ->
  let V := pt ((d + x7 r * r) * (d' + x7 r' * r')) in
  let vx := big_bytes (fst V) in let vy := big_bytes (snd V) in
  let ZA := ZAof ida (if isA then d else d') in
  let ZB := if 8192 <=? Z.of_nat (length idb) then [] else ZAof idb (if isA then d' else d) in
  let os p := big_bytes (fst p) ++ big_bytes (snd p) in
  let RA := if isA then r else r' in let RB := if isA then r' else r in
  let hash := H (vx ++ ZA ++ ZB ++ os (pt RB) ++ os (pt RA)) in
  exists k, by_blocks hs (x963_block H (vx ++ vy ++ ZA ++ ZB)) (Z.of_nat klen) k /\
  kx c cB cG h klen ida idb (EcKey (pt d) d) (pt d') (EcKey (pt r) r) (pt r') isA =
  if all_zero k then Err else Ok (k, H ([2] ++ vy ++ hash), H ([3] ++ vy ++ hash)).
Proof.
  intros HD R' IA Rm. cbn zeta. unfold kx. cbn [eD ePub]. rewrite (lc_on LW) by auto. cbn [negb].
  pose proof (fits F r) as [A _]. pose proof (fits F r') as [A' _]. rewrite !xhat_reduced by lia.
  rewrite smul_pt with (pt := pt) by (auto; apply x7_nonneg). cbn [rbind]. rewrite sadd_pt with (pt := pt) by auto. cbn [rbind].
  pose proof (n_big F). pose proof (Z.mod_pos_bound (d + x7 r * r) N ltac:(lia)) as MB.
  rewrite smul_pt with (pt := pt) by (auto; lia). cbn [rbind].
  replace (pt ((d' + r' * reduced 127 (fst (pt r'))) * ((d + x7 r * r) mod N))) with (pt ((d + x7 r * r) * (d' + x7 r' * r'))).
  2: { apply (pt_cong LW). to_zq. rewrite zq_mod. apply Zq. f_equal. ring. }
  set (V := pt _). replace (if isA then pt d else pt d') with (pt (if isA then d else d')) by (destruct isA; reflexivity).
  replace (if isA then pt d' else pt d) with (pt (if isA then d' else d)) by (destruct isA; reflexivity).
  rewrite !(za_pt F). replace (8192 <=? Z.of_nat (length ida)) with false by lia. cbn [rbind].
  destruct (8192 <=? Z.of_nat (length idb)); cbn [rbind].
  - match goal with |- context [sm_kdf h ?z klen] => destruct (kdf_ok Hh Hp z Rm) as (k & -> & B) end. exists k. split; [exact B|]. cbn [rbind].
    destruct (all_zero k); [reflexivity|]. destruct isA; now rewrite <- !app_assoc.
  - match goal with |- context [sm_kdf h ?z klen] => destruct (kdf_ok Hh Hp z Rm) as (k & -> & B) end. exists k. split; [exact B|]. cbn [rbind].
    destruct (all_zero k); [reflexivity|]. destruct isA; now rewrite <- !app_assoc.
Qed.
Lemma kx_agree klen ida idb dA dB rA rB : 0 <= dA -> 0 <= dB -> rA mod N <> 0 -> rB mod N <> 0 -> Z.of_nat (length ida) < 8192 -> kdf_room hs klen ->
  kx c cB cG h klen ida idb (EcKey (pt dA) dA) (pt dB) (EcKey (pt rA) rA) (pt rB) true =
  kx c cB cG h klen ida idb (EcKey (pt dB) dB) (pt dA) (EcKey (pt rB) rB) (pt rA) false.
Proof.
  intros A B RA RB IA Rm. destruct (@kx_pt klen ida idb dA dB rA rB true A RB IA Rm) as (k & Bk & ->).
  destruct (@kx_pt klen ida idb dB dA rB rA false B RA IA Rm) as (k' & Bk' & ->). cbn zeta in *.
  replace (pt ((dB + x7 rB * rB) * (dA + x7 rA * rA))) with (pt ((dA + x7 rA * rA) * (dB + x7 rB * rB))) in * by (f_equal; ring).
  rewrite (by_blocks_unique Bk' Bk). reflexivity.
Qed.
End K.
