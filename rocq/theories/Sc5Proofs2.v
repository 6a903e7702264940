(** Spritz and WAKE. *)
From Coq Require Import Permutation.
From Verif Require Import Base BlockModeModel WordModel BlkSpec WordLib Sc5Model Sc5Spec Sc5Proofs.
Set Implicit Arguments. Unset Strict Implicit.
Local Open Scope nat_scope.

(** * From one call to histories *)
Lemma undone_from {Se Sd} (ecall : Se -> bytes * bytes -> res (Se * bytes)) (dcall : Sd -> bytes * bytes -> res (Sd * bytes)) (R : Se -> Sd -> Prop) :
  (forall se x, byte_call x -> exists se' o, ecall se x = Ok (se', o) /\ length o = length (snd x)) ->
  (forall se sd x y se' o, R se sd -> byte_call x -> byte_call y -> ecall se x = Ok (se', o) -> snd y = o ->
     exists sd', dcall sd y = Ok (sd', snd x) /\ R se' sd') ->
  forall se sd, R se sd -> undone_same_cut ecall dcall se sd.
Proof.
  intros H1 H2 se sd HR calls Hc.
  assert (E : exists se' outs, run_calls ecall se calls = Ok (se', outs) /\ map (@length Z) outs = map (fun x => length (snd x)) calls).
  { clear HR sd H2. revert se. induction Hc as [|x calls Hx Hc IH]; intros se; [exists se, []; auto|].
    destruct (H1 se x Hx) as (se1 & o & E & L). destruct (IH se1) as (se2 & outs & E2 & L2). cbn [run_calls]. rewrite E. cbn [rbind]. rewrite E2. cbn [rbind].
    eexists _, _. split; [reflexivity|]. cbn [map]. congruence. }
  destruct E as (se' & outs & E & L). exists se', outs. split; [exact E|]. split; [exact L|]. clear L. revert se sd outs HR E.
  induction Hc as [|x calls Hx Hc IH]; intros se sd outs HR E calls2 Hc2 Eo.
  - injection E as <- <-. destruct calls2; [|discriminate]. exists sd. reflexivity.
  - cbn [run_calls] in E. destruct (ecall se x) as [[se1 o]| |] eqn:E1; cbn [rbind] in E; try discriminate.
    destruct (run_calls ecall se1 calls) as [[se2 os]| |] eqn:E2; cbn [rbind] in E; try discriminate. injection E as <- <-.
    destruct calls2 as [|y calls2]; [discriminate|]. inversion Hc2; subst. injection Eo as Ey Eo.
    destruct (H2 se sd x y se1 o HR Hx ltac:(auto) E1 Ey) as (sd1 & D1 & R1).
    destruct (IH se1 sd1 os R1 E2 calls2 ltac:(auto) Eo) as (sd2 & D2). exists sd2. cbn [run_calls]. rewrite D1. cbn [rbind]. rewrite D2. reflexivity.
Qed.

(** * Spritz: the state *)
Definition sp_ok (c : spritz) : Prop := Permutation (sp_s c) (seqz 256) /\ sp_a c <= 128.
Lemma perm_len l : Permutation l (seqz 256) -> length l = 256. Proof. intros P. apply (perm_pos P). Qed.
Lemma swap_ok a b l : a < 256 -> b < 256 -> Permutation l (seqz 256) -> Permutation (swap a b l) (seqz 256).
Proof. intros Ha Hb P. pose proof (perm_len P). eapply perm_trans; [apply swap_perm; lia|exact P]. Qed.
Lemma update_ok c : sp_ok c -> sp_ok (sp_update c).
Proof. intros [P A]. split; [|exact A]. apply swap_ok; auto using idx_lt. Qed.
Lemma whip_ok r c : sp_ok c -> sp_ok (sp_whip r c).
Proof.
  intros H. assert (K : sp_ok (Nat.iter r sp_update c)) by (induction r; [exact H|apply update_ok; exact IHr]). exact K.
Qed.
Lemma crush_ok c : sp_ok c -> sp_ok (sp_crush c).
Proof.
  intros [P A]. split; [|exact A]. unfold sp_crush. cbn [sp_s]. assert (B : forall v, In v (seq 0 128) -> v < 128) by (intros v Hv; apply in_seq in Hv; lia).
  revert B P. generalize (sp_s c) as l. generalize (seq 0 128) as vs. induction vs as [|v vs IH]; intros l B P; [exact P|]. cbn [fold_left]. apply IH; [intros; apply B; right; auto|].
  unfold sp_crush_step. destruct (_ <? _)%Z; [|exact P]. pose proof (B v (or_introl eq_refl)). apply swap_ok; auto; lia.
Qed.
Lemma shuffle_n_ok r c : sp_ok c -> sp_ok (sp_shuffle_n r c).
Proof.
  intros H. assert (K : sp_ok (sp_whip r (sp_crush (sp_whip r (sp_crush (sp_whip r c)))))) by (apply whip_ok, crush_ok, whip_ok, crush_ok, whip_ok, H).
  destruct K as [K _]. split; [exact K|apply Nat.le_0_l].
Qed.
Lemma shuffle_n_iv r c : sp_iv (sp_shuffle_n r c) = sp_iv c.
Proof.
  assert (W : forall r c, sp_iv (sp_whip r c) = sp_iv c).
  { intros r0 c0. unfold sp_whip. cbn [sp_iv]. induction r0; [reflexivity|]. cbn [Nat.iter]. exact IHr0. }
  unfold sp_shuffle_n. cbn [sp_iv]. rewrite W. cbn [sp_crush sp_iv]. rewrite W. cbn [sp_crush sp_iv]. apply W.
Qed.
Lemma shuffle_ok c : sp_ok c -> sp_ok (sp_shuffle c). Proof. apply (shuffle_n_ok 512). Qed.
Lemma shuffle_iv c : sp_iv (sp_shuffle c) = sp_iv c. Proof. apply (shuffle_n_iv 512). Qed.
Lemma shuffle_n_a r c : sp_a (sp_shuffle_n r c) = 0. Proof. reflexivity. Qed.
Lemma shuffle_a c : sp_a (sp_shuffle c) = 0. Proof. apply (shuffle_n_a 512). Qed.
Lemma full_ok c : sp_ok c -> sp_ok (sp_full c) /\ sp_a (sp_full c) < 128 /\ sp_iv (sp_full c) = sp_iv c.
Proof.
  intros H. unfold sp_full. destruct (Nat.eqb_spec (sp_a c) 128) as [E|N].
  - split; [apply shuffle_ok; exact H|]. split; [rewrite shuffle_a; lia|apply shuffle_iv].
  - split; [exact H|]. split; [destruct H; lia|reflexivity].
Qed.
Lemma nibble_ok c x : (0 <= x < 16)%Z -> sp_ok c -> sp_ok (sp_nibble c x) /\ sp_iv (sp_nibble c x) = sp_iv c.
Proof.
  intros Hx H. unfold sp_nibble. destruct (full_ok H) as ([P A] & B & I). set (d := sp_full c) in *. clearbody d. split; [|exact I].
  split; [|cbn [sp_set sp_a]; lia]. apply swap_ok; auto; lia.
Qed.
Lemma absorb_ok d : forall c, sp_ok c -> sp_ok (sp_absorb c d) /\ sp_iv (sp_absorb c d) = sp_iv c.
Proof.
  induction d as [|b d IH]; intros c H; [auto|]. unfold sp_absorb. cbn [fold_left]. fold (sp_absorb (sp_nibble (sp_nibble c (Z.land b 15)) (Z.shiftr (Z.land b 240) 4)) d).
  assert (B1 : (0 <= Z.land b 15 < 16)%Z) by (change 15%Z with (Z.ones 4); rewrite Z.land_ones by lia; apply Z.mod_pos_bound; lia).
  assert (B2 : (0 <= Z.shiftr (Z.land b 240) 4 < 16)%Z).
  { rewrite Z.shiftr_land. change (Z.shiftr 240 4) with (Z.ones 4). rewrite Z.land_ones by lia. apply Z.mod_pos_bound; lia. }
  destruct (nibble_ok B1 H) as [H1 I1]. destruct (nibble_ok B2 H1) as [H2 I2]. destruct (IH _ H2) as [H3 I3]. split; [exact H3|congruence].
Qed.
Lemma stop_ok c : sp_ok c -> sp_ok (sp_stop c) /\ sp_iv (sp_stop c) = sp_iv c.
Proof. intros H. unfold sp_stop. destruct (full_ok H) as ([P A] & B & I). set (d := sp_full c) in *. clearbody d. split; [|exact I]. split; [exact P|cbn [sp_set sp_a]; lia]. Qed.
Definition sp_calm (c : spritz) : spritz := if 0 <? sp_a c then sp_shuffle c else c.
Lemma calm_ok c : sp_ok c -> sp_ok (sp_calm c).
Proof. unfold sp_calm. destruct (_ <? _); auto using shuffle_ok. Qed.
Lemma calm_a c : sp_a (sp_calm c) = 0.
Proof. unfold sp_calm. destruct (Nat.ltb_spec 0 (sp_a c)); [apply shuffle_a|lia]. Qed.
Lemma calm_iv c : sp_iv (sp_calm c) = sp_iv c.
Proof. unfold sp_calm. destruct (_ <? _); [apply shuffle_iv|reflexivity]. Qed.
Lemma calm_id c : sp_a c = 0 -> sp_calm c = c.
Proof. unfold sp_calm. intros ->. reflexivity. Qed.
Lemma drip_ok c : sp_ok c -> sp_ok (fst (sp_drip c)).
Proof. intros H. unfold sp_drip. fold (sp_calm c). pose proof (update_ok (calm_ok H)) as K. destruct K. split; assumption. Qed.
Lemma drip_a c : sp_a (fst (sp_drip c)) = 0.
Proof. unfold sp_drip. fold (sp_calm c). cbn [fst sp_a]. unfold sp_update. cbn [sp_a]. apply calm_a. Qed.
Lemma drip_iv c : sp_iv (fst (sp_drip c)) = sp_iv c.
Proof. unfold sp_drip. fold (sp_calm c). cbn [fst sp_iv]. unfold sp_update. cbn [sp_iv]. apply calm_iv. Qed.
Lemma drips_ok n : forall c, sp_ok c -> sp_ok (fst (sp_drips n c)) /\ sp_iv (fst (sp_drips n c)) = sp_iv c.
Proof.
  induction n as [|n IH]; intros c H; [auto|]. cbn [sp_drips]. pose proof (drip_ok H) as K. pose proof (drip_iv c) as I. destruct (sp_drip c) as [c1 z]. cbn [fst] in *.
  destruct (IH c1 K) as [K2 I2]. destruct (sp_drips n c1) as [c2 o]. cbn [fst] in *. split; [exact K2|congruence].
Qed.
Lemma drips_len n : forall c, length (snd (sp_drips n c)) = n.
Proof. induction n as [|n IH]; intros c; [reflexivity|]. cbn [sp_drips]. destruct (sp_drip c) as [c1 z]. specialize (IH c1). destruct (sp_drips n c1). cbn [snd length] in *. congruence. Qed.

(** the keystream from a calm state *)
Definition sp_at (c : spritz) (p : nat) : spritz := Nat.iter p (fun c => fst (sp_drip c)) c.
Definition sp_ks (c : spritz) (p : nat) : Z := snd (sp_drip (sp_at c p)).
Lemma drips_at c n : forall p, sp_drips n (sp_at c p) = (sp_at c (p + n), map (sp_ks c) (seq p n)).
Proof.
  induction n as [|n IH]; intros p; [rewrite Nat.add_0_r; reflexivity|]. cbn [sp_drips seq map].
  specialize (IH (S p)). unfold sp_ks at 1. change (sp_at c (S p)) with (fst (sp_drip (sp_at c p))) in IH.
  destruct (sp_drip (sp_at c p)) as [c1 z]. cbn [fst snd] in *. rewrite IH. replace (p + S n) with (S p + n) by lia. reflexivity.
Qed.
Lemma sp_at_a c p : sp_a c = 0 -> sp_a (sp_at c p) = 0.
Proof. intros H. destruct p; [exact H|]. apply drip_a. Qed.
Lemma sp_at_iv c p : sp_iv (sp_at c p) = sp_iv c.
Proof. induction p as [|p IH]; [reflexivity|]. change (sp_at c (S p)) with (fst (sp_drip (sp_at c p))). rewrite drip_iv. exact IH. Qed.
Lemma combine_at (f : Z -> Z -> Z) (g : nat -> Z) l : forall p, map (fun q => f (fst q) (snd q)) (combine l (map g (seq p (length l)))) = by_position (fun p x => f x (g p)) p l.
Proof. induction l as [|x l IH]; intros p; [reflexivity|]. cbn [length seq map combine by_position fst snd]. rewrite IH. reflexivity. Qed.
Definition sp_inv (c0 : spritz) (st : spritz) (p : nat) : Prop := sp_iv st = None /\ sp_calm st = sp_at (sp_calm c0) p.
Lemma sp_inv_next c0 st p n : sp_inv c0 st p ->
  sp_squeeze n (sp_ready st) = (sp_at (sp_calm c0) (p + n), map (sp_ks (sp_calm c0)) (seq p n)) /\ sp_inv c0 (sp_at (sp_calm c0) (p + n)) (p + n).
Proof.
  intros [I E]. unfold sp_ready. rewrite I. unfold sp_squeeze. fold (sp_calm st). rewrite E. split; [apply drips_at|].
  assert (Iv : sp_iv (sp_calm c0) = None) by (rewrite <- (sp_at_iv (sp_calm c0) p), <- E, calm_iv; exact I).
  split; [rewrite sp_at_iv; exact Iv|]. apply calm_id, sp_at_a, calm_a.
Qed.
Lemma sp_enc_stream c0 : sp_iv c0 = None -> substitutes sp_enc_call c0 (fun p x => to_byte (x + sp_ks (sp_calm c0) p)).
Proof.
  intros I. apply substitutes_from with (Inv := sp_inv c0); [|split; [exact I|reflexivity]].
  intros st pos x HI Hx. destruct (sp_inv_next (length (snd x)) HI) as [E K]. unfold sp_enc_call. rewrite (proj2 (Nat.ltb_ge _ _) Hx), E.
  eexists. split; [|exact K]. rewrite (combine_at (fun a b => to_byte (a + b))). reflexivity.
Qed.
Lemma sp_dec_stream c0 : sp_iv c0 = None -> substitutes sp_dec_call c0 (fun p x => to_byte (x - sp_ks (sp_calm c0) p)).
Proof.
  intros I. apply substitutes_from with (Inv := sp_inv c0); [|split; [exact I|reflexivity]].
  intros st pos x HI Hx. destruct (sp_inv_next (length (snd x)) HI) as [E K]. unfold sp_dec_call. rewrite (proj2 (Nat.ltb_ge _ _) Hx), E.
  eexists. split; [|exact K]. rewrite (combine_at (fun a b => to_byte (a - b))). reflexivity.
Qed.
Lemma sub_add x k : is_byte x -> to_byte (to_byte (x + k) - k) = x.
Proof. unfold is_byte, to_byte. intros H. rewrite Zminus_mod_idemp_l. replace (x + k - k)%Z with x by lia. apply Z.mod_small. lia. Qed.
Lemma combine_undo l : forall ks, bytes_ok l -> length ks = length l ->
  let o := map (fun p => to_byte (fst p + snd p)) (combine l ks) in
  map (fun p => to_byte (fst p - snd p)) (combine o ks) = l /\ length o = length l.
Proof.
  induction l as [|x l IH]; intros [|k ks] H L; cbn [length] in L; try discriminate; [split; reflexivity|]. inversion H; subst.
  cbn [combine map fst snd length]. destruct (IH ks ltac:(auto) ltac:(lia)) as [E1 E2]. split; [f_equal; [apply sub_add; auto|exact E1]|f_equal; exact E2].
Qed.
Lemma sp_undone c : undone_same_cut sp_enc_call sp_dec_call c c.
Proof.
  apply undone_from with (R := eq); [| |reflexivity].
  - intros se x [Hl Hb]. unfold sp_enc_call. rewrite (proj2 (Nat.ltb_ge _ _) Hl). pose proof (drips_len (length (snd x)) (sp_calm (sp_ready se))) as L.
    unfold sp_squeeze. fold (sp_calm (sp_ready se)). destruct (sp_drips _ _) as [c1 ks]. cbn [snd] in L. eexists _, _. split; [reflexivity|]. apply (combine_undo Hb L).
  - intros se sd x y se' o <- [Hl Hb] [Hy _] E Ey. unfold sp_enc_call in E. rewrite (proj2 (Nat.ltb_ge _ _) Hl) in E.
    unfold sp_dec_call. rewrite (proj2 (Nat.ltb_ge _ _) Hy). pose proof (drips_len (length (snd x)) (sp_calm (sp_ready se))) as L.
    unfold sp_squeeze in *. fold (sp_calm (sp_ready se)) in *. destruct (sp_drips (length (snd x)) _) as [c1 ks] eqn:Ed. cbn [snd] in L.
    injection E as <- <-. destruct (combine_undo Hb L) as [U1 U2]. rewrite Ey, U2, Ed, U1. eexists. split; reflexivity.
Qed.

(** * WAKE *)
Lemma wk_undo t l : forall w r n, let '(r', n', o) := wk_loop false t w r n l in wk_loop true t w r n o = (r', n', l).
Proof.
  induction l as [|x l IH]; intros w r n; [reflexivity|]. cbn [wk_loop]. set (k := (be_bytes 4 r.[3]).[n]). set (y := Z.lxor x k).
  set (w' := be_val (upd n y (be_bytes 4 w))). destruct (if S n =? 4 then (wk_next t r w', 0) else (r, S n)) as [r1 n1] eqn:E1.
  specialize (IH w' r1 n1). destruct (wk_loop false t w' r1 n1 l) as [[r2 n2] o]. cbn [wk_loop]. fold k. fold w'. rewrite E1, IH.
  unfold y. rewrite Z.lxor_assoc, Z.lxor_nilpotent, Z.lxor_0_r. reflexivity.
Qed.
Lemma wk_len d t l : forall w r n, length (snd (wk_loop d t w r n l)) = length l.
Proof.
  induction l as [|x l IH]; intros w r n; [reflexivity|]. cbn [wk_loop]. destruct (if S n =? 4 then _ else _) as [r1 n1].
  match goal with |- context [wk_loop d t ?a r1 n1 l] => specialize (IH a r1 n1); destruct (wk_loop d t a r1 n1 l) as [[r2 n2] o] end. cbn [snd length] in *. congruence.
Qed.
Lemma wk_undone c : undone_same_cut (wk_call false) (wk_call true) c c.
Proof.
  apply undone_from with (R := eq); [| |reflexivity].
  - intros se x [Hl _]. unfold wk_call. rewrite (proj2 (Nat.ltb_ge _ _) Hl). pose proof (wk_len false (wk_t se) (snd x) 0 (wk_r se) (wk_n se)) as L.
    destruct (wk_loop _ _ _ _ _ _) as [[r n] o]. eexists _, _. split; [reflexivity|exact L].
  - intros se sd x y se' o <- [Hl _] [Hy _] E Ey. unfold wk_call in *. rewrite (proj2 (Nat.ltb_ge _ _) Hl) in E. rewrite (proj2 (Nat.ltb_ge _ _) Hy).
    pose proof (wk_undo (wk_t se) (snd x) 0 (wk_r se) (wk_n se)) as U. destruct (wk_loop false _ _ _ _ _) as [[r n] o1]. injection E as <- <-.
    rewrite Ey, U. eexists. split; reflexivity.
Qed.
(** whole words *)
Definition quad (r : list Z) : Z * Z * Z * Z := (r.[0], r.[1], r.[2], r.[3]).
Lemma wk_m_spec t x y : wk_m t x y = wake_M (fun i => t.[i]) x y.
Proof.
  unfold wk_m, wake_M, w32. pose proof (Z.mod_pos_bound (x + y) (2 ^ 32) ltac:(lia)) as B. set (s := ((x + y) mod 2 ^ 32)%Z) in *. clearbody s.
  change 255%Z with (Z.ones 8). rewrite Z.land_ones by lia. change 16777215%Z with (Z.ones 24). rewrite Z.land_ones, Z.shiftr_div_pow2 by lia.
  rewrite (Z.mod_small (s / 2 ^ 8)); [reflexivity|]. split; [apply Z.div_pos; lia|]. apply Z.div_lt_upper_bound; lia.
Qed.
Lemma wk_next_spec t r v : quad (wk_next t r v) = wake_turn (fun i => t.[i]) (quad r) v.
Proof. unfold wk_next, quad, wake_turn. cbn [nth]. rewrite !wk_m_spec. reflexivity. Qed.
Lemma wk_four d t w r a b c e l : is_byte a -> is_byte b -> is_byte c -> is_byte e ->
  exists w', let o := xorl [a; b; c; e] (be_bytes 4 r.[3]) in
  wk_loop d t w r 0 (a :: b :: c :: e :: l) =
  (let '(r2, n2, o2) := wk_loop d t w' (wk_next t r (be_val (if d then [a; b; c; e] else o))) 0 l in (r2, n2, o ++ o2)).
Proof.
  intros Ha Hb Hc He. set (ks := be_bytes 4 r.[3]). assert (Lk : length ks = 4) by apply be_bytes_length. assert (Ok_ : bytes_ok ks) by apply be_bytes_ok.
  destruct ks as [|k0 [|k1 [|k2 [|k3 [|]]]]] eqn:Ek; try discriminate Lk. clear Lk.
  inversion Ok_ as [|? ? K0 Ok1]; subst. inversion Ok1 as [|? ? K1 Ok2]; subst. inversion Ok2 as [|? ? K2 Ok3]; subst. inversion Ok3 as [|? ? K3 _]; subst.
  assert (X : forall x k, is_byte x -> is_byte k -> is_byte (Z.lxor x k)) by (intros x k; apply (@inw_xor 8); lia).
  set (f := fun x k => if d then x else Z.lxor x k).
  assert (F : forall x k, is_byte x -> is_byte k -> is_byte (f x k)) by (intros; unfold f; destruct d; auto).
  exists (be_val [f a k0; f b k1; f c k2; f e k3]). cbn [wk_loop Nat.eqb].
  fold ks. rewrite Ek. cbn [nth xorl]. fold (f a k0) (f b k1) (f c k2) (f e k3).
  assert (V : forall w, exists v0 v1 v2 v3, be_bytes 4 w = [v0; v1; v2; v3] /\ is_byte v0 /\ is_byte v1 /\ is_byte v2 /\ is_byte v3).
  { intros w0. pose proof (be_bytes_length 4 w0) as L. pose proof (be_bytes_ok 4 w0) as O. destruct (be_bytes 4 w0) as [|v0 [|v1 [|v2 [|v3 [|]]]]]; try discriminate L.
    inversion O as [|? ? B0 O1]; subst. inversion O1 as [|? ? B1 O2]; subst. inversion O2 as [|? ? B2 O3]; subst. inversion O3 as [|? ? B3 _]; subst.
    exists v0, v1, v2, v3. auto. }
  assert (RT : forall v0 v1 v2 v3, is_byte v0 -> is_byte v1 -> is_byte v2 -> is_byte v3 -> be_bytes 4 (be_val [v0; v1; v2; v3]) = [v0; v1; v2; v3]).
  { intros v0 v1 v2 v3 H0 H1 H2 H3. apply be_bytes_val; [|reflexivity]. repeat (apply Forall_cons; [assumption|]). apply Forall_nil. }
  destruct (V w) as (v0 & v1 & v2 & v3 & -> & B0 & B1 & B2 & B3). cbn [upd].
  rewrite (RT (f a k0) v1 v2 v3) by auto. cbn [upd]. rewrite (RT (f a k0) (f b k1) v2 v3) by auto. cbn [upd]. rewrite (RT (f a k0) (f b k1) (f c k2) v3) by auto. cbn [upd].
  replace (if d then [a; b; c; e] else [Z.lxor a k0; Z.lxor b k1; Z.lxor c k2; Z.lxor e k3]) with [f a k0; f b k1; f c k2; f e k3] by (unfold f; destruct d; reflexivity).
  destruct (wk_loop d t _ _ 0 l) as [[r2 n2] o2]. reflexivity.
Qed.
Lemma wk_short d t w r l : length l < 4 -> snd (wk_loop d t w r 0 l) = xorl l (be_bytes 4 r.[3]) /\ (l = [] -> fst (wk_loop d t w r 0 l) = (r, 0)).
Proof.
  intros H. pose proof (be_bytes_length 4 r.[3]) as L. destruct l as [|a [|b [|c [|? ?]]]]; cbn [length] in H; try lia; cbn [wk_loop Nat.eqb];
    destruct (be_bytes 4 r.[3]) as [|k0 [|k1 [|k2 [|k3 [|]]]]]; try discriminate L; cbn [nth xorl snd fst]; split; auto; discriminate.
Qed.
Lemma four_ind (Q : bytes -> Prop) : (forall l, length l < 4 -> Q l) -> (forall a b c e l, Q l -> Q (a :: b :: c :: e :: l)) -> forall l, Q l.
Proof.
  intros H1 H2 l. remember (length l) as n eqn:E. revert l E. induction n as [n IH] using lt_wf_ind. intros l ->.
  destruct l as [|a [|b [|c [|e l]]]]; try (apply H1; cbn; lia). apply H2. apply (IH (length l)); cbn; lia.
Qed.
Lemma chunks_four (a b c e : Z) l : chunks 4 (a :: b :: c :: e :: l) = [a; b; c; e] :: chunks 4 l.
Proof. rewrite chunks_cons; [reflexivity|lia|discriminate]. Qed.
Lemma chunks_short (l : bytes) : length l < 4 -> chunks 4 l = if length l =? 0 then [] else [l].
Proof. intros H. destruct l as [|a [|b [|c [|e l]]]]; cbn in H; try lia; reflexivity. Qed.
Lemma wake_groups_short d t r l : length l < 4 -> wake_groups d t r (chunks 4 l) = xorl l (be_bytes 4 (snd r)).
Proof. intros H. rewrite chunks_short by auto. destruct l; [reflexivity|]. cbn [length Nat.eqb wake_groups]. apply app_nil_r. Qed.
Lemma wk_loop_groups d t l : forall w r, bytes_ok l ->
  snd (wk_loop d t w r 0 l) = wake_groups d (fun i => t.[i]) (quad r) (chunks 4 l).
Proof.
  induction l as [l H|a b c e l IH] using four_ind; intros w r Ol.
  - rewrite wake_groups_short by auto. apply wk_short. auto.
  - inversion Ol as [|? ? Ha O1]; subst. inversion O1 as [|? ? Hb O2]; subst. inversion O2 as [|? ? Hc O3]; subst. inversion O3 as [|? ? He O4]; subst.
    destruct (@wk_four d t w r a b c e l Ha Hb Hc He) as (w' & ->). rewrite chunks_four. cbn [wake_groups]. change (snd (quad r)) with r.[3].
    set (o := xorl [a; b; c; e] (be_bytes 4 r.[3])). specialize (IH w' (wk_next t r (be_val (if d then [a; b; c; e] else o))) O4).
    rewrite wk_next_spec in IH. destruct (wk_loop _ _ _ _ _ _) as [[r2 n2] o2]. cbn [snd] in *. rewrite IH. reflexivity.
Qed.
(** after whole words the object stands at a word boundary, and the rest goes on as if there had been one call *)
Lemma wk_loop_app d t l : length l mod 4 = 0 -> forall w r more, bytes_ok l -> bytes_ok more -> exists r', fst (wk_loop d t w r 0 l) = (r', 0) /\
  wake_groups d (fun i => t.[i]) (quad r) (chunks 4 (l ++ more)) =
  wake_groups d (fun i => t.[i]) (quad r) (chunks 4 l) ++ wake_groups d (fun i => t.[i]) (quad r') (chunks 4 more).
Proof.
  induction l as [l H|a b c e l IH] using four_ind; intros Hm w r more Ol Om.
  - rewrite Nat.mod_small in Hm by auto. destruct l; [|discriminate]. exists r. split; reflexivity.
  - inversion Ol as [|? ? Ha O1]; subst. inversion O1 as [|? ? Hb O2]; subst. inversion O2 as [|? ? Hc O3]; subst. inversion O3 as [|? ? He O4]; subst.
    destruct (@wk_four d t w r a b c e l Ha Hb Hc He) as (w' & ->). cbn [app]. rewrite !chunks_four. cbn [wake_groups]. change (snd (quad r)) with r.[3].
    set (o := xorl [a; b; c; e] (be_bytes 4 r.[3])).
    assert (Hm' : length l mod 4 = 0).
    { cbn [length] in Hm. replace (S (S (S (S (length l))))) with (length l + 1 * 4) in Hm by lia. rewrite Nat.mod_add in Hm by lia. exact Hm. }
    destruct (IH Hm' w' (wk_next t r (be_val (if d then [a; b; c; e] else o))) more O4 Om) as (r' & E1 & E2). rewrite wk_next_spec in E2.
    exists r'. destruct (wk_loop _ _ _ _ _ _) as [[r2 n2] o2]. cbn [fst] in *. split; [exact E1|]. rewrite E2, app_assoc. reflexivity.
Qed.
Lemma wk_calls_ok d calls : forall c x, wk_n c = 0 -> Forall byte_call calls -> Forall (fun y => length (snd y) mod 4 = 0) calls -> byte_call x ->
  exists c' outs, run_calls (wk_call d) c (calls ++ [x]) = Ok (c', outs) /\
    concat outs = wake_groups d (fun i => (wk_t c).[i]) (quad (wk_r c)) (chunks 4 (concat (map snd calls) ++ snd x)).
Proof.
  induction calls as [|y calls IH]; intros c x Hn Hc Hm [Hx Bx].
  - cbn [app run_calls]. unfold wk_call. rewrite (proj2 (Nat.ltb_ge _ _) Hx), Hn. cbn [map concat app].
    pose proof (wk_loop_groups d (wk_t c) 0 (wk_r c) Bx) as E. destruct (wk_loop _ _ _ _ _ _) as [[r n] o]. cbn [rbind snd] in *. eexists _, _. split; [reflexivity|].
    cbn [concat]. rewrite app_nil_r. exact E.
  - inversion Hc as [|? ? [Hy By] Hc']; subst. inversion Hm as [|? ? My Hm']; subst. cbn [app run_calls]. unfold wk_call at 1.
    rewrite (proj2 (Nat.ltb_ge _ _) Hy), Hn. pose proof (wk_loop_groups d (wk_t c) 0 (wk_r c) By) as E.
    assert (Bm : bytes_ok (concat (map snd calls) ++ snd x)).
    { apply bytes_ok_app; split; [|exact Bx]. clear - Hc'. induction Hc' as [|z zs [_ B] _ K]; [apply Forall_nil|]. cbn [map concat]. apply bytes_ok_app; split; auto. }
    destruct (@wk_loop_app d (wk_t c) (snd y) My 0%Z (wk_r c) _ By Bm) as (r' & E1 & E2).
    destruct (wk_loop d (wk_t c) 0 (wk_r c) 0 (snd y)) as [[r n] o]. cbn [fst snd] in *. injection E1 as -> ->.
    destruct (IH (Wake (wk_t c) r' 0) x eq_refl Hc' Hm' (conj Hx Bx)) as (c' & outs & R1 & R2). cbn [rbind]. rewrite R1. cbn [rbind].
    eexists _, _. split; [reflexivity|]. cbn [map concat wk_t wk_r] in *. rewrite R2, <- app_assoc, E2, E. reflexivity.
Qed.
Lemma wake_groups_bytes d t l : forall r, bytes_ok l -> bytes_ok (wake_groups d t r (chunks 4 l)) /\ length (wake_groups d t r (chunks 4 l)) = length l.
Proof.
  induction l as [l H|a b c e l IH] using four_ind; intros r Ol.
  - rewrite wake_groups_short by auto. pose proof (be_bytes_length 4 (snd r)) as L. split; [apply xorl_ok; auto using be_bytes_ok|].
    rewrite xorl_length, L. lia.
  - inversion Ol as [|? ? Ha O1]; subst. inversion O1 as [|? ? Hb O2]; subst. inversion O2 as [|? ? Hc O3]; subst. inversion O3 as [|? ? He O4]; subst.
    rewrite chunks_four. cbn [wake_groups]. set (o := xorl _ _). assert (Lo : length o = 4) by (unfold o; rewrite xorl_length, be_bytes_length; reflexivity).
    destruct (IH (wake_turn t r (be_val (if d then [a; b; c; e] else o))) O4) as [K1 K2]. split.
    + apply bytes_ok_app; split; [|exact K1]. apply xorl_ok; [|apply be_bytes_ok]. repeat (apply Forall_cons; [assumption|]). apply Forall_nil.
    + rewrite app_length, K2, Lo. reflexivity.
Qed.
Lemma wake_groups_cancel t l : forall r, bytes_ok l -> wake_groups true t r (chunks 4 (wake_groups false t r (chunks 4 l))) = l.
Proof.
  induction l as [l H|a b c e l IH] using four_ind; intros r Ol.
  - rewrite (@wake_groups_short false) by auto. pose proof (be_bytes_length 4 (snd r)) as L. rewrite wake_groups_short by (rewrite xorl_length; lia).
    destruct (be_bytes 4 (snd r)) as [|k0 [|k1 [|k2 [|k3 [|]]]]]; try discriminate L.
    destruct l as [|a [|b [|c [|? ?]]]]; cbn in H; try lia; cbn [xorl]; rewrite ?Z.lxor_assoc, ?Z.lxor_nilpotent, ?Z.lxor_0_r; reflexivity.
  - inversion Ol as [|? ? Ha O1]; subst. inversion O1 as [|? ? Hb O2]; subst. inversion O2 as [|? ? Hc O3]; subst. inversion O3 as [|? ? He O4]; subst.
    rewrite chunks_four. cbn [wake_groups]. set (ks := be_bytes 4 (snd r)). assert (Lk : length ks = 4) by apply be_bytes_length.
    set (o := xorl [a; b; c; e] ks). assert (Lo : length o = 4) by (unfold o; rewrite xorl_length, Lk; reflexivity).
    rewrite chunks_app_block by (auto; lia). cbn [wake_groups]. fold ks. rewrite IH by auto.
    unfold o. rewrite xorl_cancel_r by (rewrite Lk; cbn; lia). reflexivity.
Qed.
