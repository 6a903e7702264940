(** C20: CMAC. C42: the other block-cipher MACs of /repo/mac. *)
From Verif Require Import Base PaddingModel BlockModeModel StreamSpec StreamProofs ToolBytesModel ToolBytesSpec ToolBytesProofs HashSpec
  MacModel MacSpec MacProofs.
Set Implicit Arguments. Unset Strict Implicit.
Local Open Scope nat_scope.

(** ** C20: hash/cmac *)
(** The constructor accepts exactly these tag and block sizes. *)
Theorem C20_params : forall c ts,
  (exists d, hcmac_new c ts = Ok d) <-> (1 <= ts <= Z.of_nat (bsz c))%Z /\ In (bsz c) [8; 16; 32; 64; 128].
Proof.
  intros c ts. unfold hcmac_new, bad_size. split.
  - intros [d H]. destruct (Z.leb_spec ts 0); [discriminate|]. destruct (Z.ltb_spec (Z.of_nat (bsz c)) ts); [discriminate|].
    cbn [orb] in H. split; [lia|]. unfold hcmac_poly in H.
    repeat match type of H with context [?a =? ?b] => destruct (Nat.eqb_spec a b) as [->|]; [cbn [In]; tauto|] end.
    discriminate.
  - intros [H1 H2]. destruct (Z.leb_spec ts 0); [lia|]. destruct (Z.ltb_spec (Z.of_nat (bsz c)) ts); [lia|]. cbn [orb].
    destruct H2 as [E|[E|[E|[E|[E|[]]]]]]; rewrite <- E; cbn [hcmac_poly Nat.eqb]; eexists; reflexivity.
Qed.
Print Assumptions C20_params.

(** The polynomial the code reduces by at each block size. *)
Definition used_poly (n : nat) : Z :=
  if n =? 8 then 27 else if n =? 16 then 135 else if n =? 32 then 37 else if n =? 64 then 37 else 67.

(** Whatever the history of Write, Sum and Reset calls, every Sum appends the CMAC of what was
    written since the last Reset, and disturbs nothing. *)
Theorem C20_streaming : forall c ts d ops, lawful c -> hcmac_new c ts = Ok d -> Forall hop_ok ops ->
  hcmac_run c d ops =
  expected (fun m => firstn (Z.to_nat ts) (cmac_full (bsz c) (used_poly (bsz c)) (enc c) m)) [] ops.
Proof.
  intros c ts d ops HL Hd Hops.
  assert (Hp : pw2 c) by (destruct (proj1 (C20_params c ts) (ex_intro _ d Hd)) as [_ Hin]; unfold pw2; cbn [In] in Hin; intuition lia).
  set (n := bsz c). set (p := used_poly n). set (K1 := double n p (enc c (zeros n))). set (K2 := double n p K1).
  assert (Ed : d = {| cm_k0 := K1; cm_k1 := K2; cm_buf := zeros n; cm_off := 0; cm_tag := Z.to_nat ts |}).
  { unfold hcmac_new in Hd. destruct (bad_size c ts); [discriminate|].
    assert (Es : forall q x, (q mod 256 = p)%Z -> bytes_ok x -> length x = n -> hcmac_sub q x = double n p x).
    { intros q x Eq Ox Lx. rewrite (@hcmac_sub_eq c HL q x Ox Lx). now rewrite Eq. }
    assert (Hq : exists q, hcmac_poly (bsz c) = Some q /\ (q mod 256 = p)%Z).
    { unfold pw2 in Hp. unfold p, n. destruct Hp as [E|[E|[E|[E|E]]]]; rewrite E; eexists; split; reflexivity. }
    destruct Hq as (q & Hq & Eq). rewrite Hq in Hd. injection Hd as <-.
    destruct (L_block HL) as [L1 O1]. fold n in L1, O1 |- *. rewrite !(Es q); auto; [apply double_ok|apply double_length]. }
  assert (Inv : forall ops, Forall hop_ok ops -> forall m, bytes_ok m ->
    hcmac_run c {| cm_k0 := K1; cm_k1 := K2; cm_buf := fst (feeds c m (zeros n, 0)); cm_off := snd (feeds c m (zeros n, 0)); cm_tag := Z.to_nat ts |} ops
    = expected (fun m => firstn (Z.to_nat ts) (cmac_full n p (enc c) m)) m ops).
  { clear ops Hops. induction 1 as [|o ops Ho _ IH]; intros m Hm; [reflexivity|].
    unfold hcmac_run. destruct o as [x|i|]; cbn [hrun expected hop_ok] in *.
    - destruct (@feeds_inv c HL m (zeros n) 0 (zeros_block n) ltac:(lia) Hm) as [F1 F2].
      rewrite write_spec by auto. unfold bo. cbn [cm_buf cm_off]. rewrite <- surjective_pairing, <- feeds_app.
      destruct (feeds c (m ++ x) (zeros n, 0)) as [b o] eqn:Ef. cbn [with_buf cm_k0 cm_k1 cm_tag].
      specialize (IH (m ++ x)). rewrite Ef in IH. apply IH. apply bytes_ok_app; auto.
    - f_equal; [|apply IH; auto]. apply (sum_spec HL p (Z.to_nat ts) i Hm).
    - apply (IH [] ltac:(constructor)). }
  rewrite Ed. apply (Inv ops Hops []). constructor.
Qed.
Print Assumptions C20_streaming.

(** For 64-bit and 128-bit block ciphers this is the CMAC of NIST SP 800-38B. *)
Definition nist_poly (n : nat) : Z := if n =? 8 then 27 else 135.   (* 0x1b, 0x87 *)
Theorem C20_nist : forall c ts d ops, lawful c -> bsz c = 8 \/ bsz c = 16 -> hcmac_new c ts = Ok d -> Forall hop_ok ops ->
  hcmac_run c d ops =
  expected (fun m => firstn (Z.to_nat ts) (cmac_full (bsz c) (nist_poly (bsz c)) (enc c) m)) [] ops.
Proof.
  intros c ts d ops HL Hn Hd Ho. rewrite (@C20_streaming c ts d ops HL Hd Ho).
  destruct Hn as [E|E]; rewrite E; reflexivity.
Qed.
Print Assumptions C20_nist.

(** For larger blocks the constants 0x425, 0x125 and 0x80043 are cut to one byte, so the tags
    are not the CMAC for the polynomials the source names. *)
Definition named_poly (n : nat) : Z := if n =? 32 then 1061 else if n =? 64 then 293 else 524355.
Definition flip (n : nat) : cipher :=
  {| bsz := n; enc := fun b => xorl b (repeat 255%Z n); dec := fun b => xorl b (repeat 255%Z n) |}.
Lemma flip_lawful n : 0 < n -> lawful (flip n).
Proof.
  intro Hn. assert (R : isblock n (repeat 255%Z n)) by (split; [apply repeat_length|apply bytes_ok_repeat; unfold is_byte; lia]).
  split; cbn [bsz enc dec flip]; auto using xorl_block. intros b [Lb _]. apply xorl_cancel_r. rewrite Lb, repeat_length. lia.
Qed.
Theorem C20_large_blocks_refuted : forall n, In n [32; 64; 128] ->
  exists c d, lawful c /\ bsz c = n /\ hcmac_new c (Z.of_nat n) = Ok d /\
    hcmac_run c d [HSum []] <> [cmac_full n (named_poly n) (enc c) []].
Proof.
  intros n Hn. cbn [In] in Hn. exists (flip n).
  assert (Hd : exists d, hcmac_new (flip n) (Z.of_nat n) = Ok d).
  { apply C20_params. cbn [bsz flip In]. split; [lia|tauto]. }
  destruct Hd as [d Hd]. exists d. split; [apply flip_lawful; lia|]. split; [reflexivity|]. split; [exact Hd|].
  rewrite (@C20_streaming (flip n) (Z.of_nat n) d _ (@flip_lawful n ltac:(lia)) Hd) by (repeat constructor).
  clear Hd. destruct Hn as [<-|[<-|[<-|[]]]]; vm_compute; discriminate.
Qed.
Print Assumptions C20_large_blocks_refuted.

(** ** C20: mac.NewCMAC *)
Theorem C20_mac_cmac : forall c size f src, lawful c -> cmac_new c size = Ok f -> bytes_ok src ->
  f src = match src with
          | [] => cmac_full (bsz c) 135 (enc c) []
          | _ => firstn (Z.to_nat size) (cmac_full (bsz c) 135 (enc c) src)
          end.
Proof.
  intros c size f src HL Hf Hs. unfold cmac_new in Hf. destruct (bad_size c size); [discriminate|]. injection Hf as <-.
  destruct (L_block HL) as [L1 O1]. pose proof (n_pos HL) as Hn.
  rewrite !(cmac_sub_eq HL) by (auto; rewrite ?(cmac_sub_eq HL) by auto; apply double_ok || apply double_length).
  destruct src as [|x src'] eqn:Es.
  - rewrite (cmac_full_nil HL). f_equal.
    rewrite <- (@finish_partial (bsz c) (zeros (bsz c)) []); [|apply zeros_block|apply double_length|cbn; lia].
    cbn [length app]. rewrite Nat.sub_0_r. f_equal.
    unfold zeros. rewrite (@xorl_repeat0 (repeat 0%Z (bsz c)) (bsz c)) by (rewrite repeat_length; lia).
    rewrite xorl_repeat0 by (rewrite double_length; lia). unfold gocopy. rewrite repeat_length. rewrite firstn_all2 by (rewrite double_length; lia).
    rewrite skipn_all2 by (rewrite repeat_length, double_length; lia). apply app_nil_r.
  - rewrite <- Es in *. destruct (@decompose (bsz c) src Hn ltac:(rewrite Es; discriminate)) as (bl & tail & E1 & A & L).
    assert (Hbl : Forall (isblock (bsz c)) bl /\ bytes_ok tail).
    { rewrite E1 in Hs. apply bytes_ok_app in Hs as [H1 H2]. apply bytes_ok_concat in H1. split; auto.
      apply Forall_forall. intros b Hb. unfold all_len in A. rewrite Forall_forall in A, H1. split; auto. }
    destruct Hbl as [Hbl Hto]. f_equal. rewrite E1, chunks_tail by auto.
    rewrite (cmac_full_decomp HL 135 A L). apply (cmac_loop_spec HL); auto. apply zeros_block.
Qed.
Print Assumptions C20_mac_cmac.

(** It panics exactly on sizes outside 1..BlockSize. *)
Theorem C20_mac_cmac_params : forall c size,
  (cmac_new c size = Panic <-> ~ (1 <= size <= Z.of_nat (bsz c))%Z) /\ cmac_new c size <> Err.
Proof.
  intros c size. unfold cmac_new, bad_size. destruct (Z.leb_spec size 0), (Z.ltb_spec (Z.of_nat (bsz c)) size); cbn [orb];
    (split; [split; [intro H1|intro H1]; try discriminate; try lia; try reflexivity|discriminate]).
Qed.
Print Assumptions C20_mac_cmac_params.

(** Its tag of the empty message ignores the requested size. *)
Theorem C20_mac_cmac_empty_refuted : forall c size f, lawful c -> cmac_new c size = Ok f -> length (f []) = bsz c.
Proof.
  intros c size f HL Hf. rewrite (@C20_mac_cmac c size f [] HL Hf ltac:(constructor)). rewrite (cmac_full_nil HL).
  pose proof (n_pos HL). apply (law_enc HL). apply xorl_block; [apply zeros_block|].
  apply xorl_block; [apply pad2_isblock; [cbn; lia|constructor]|apply double_block].
Qed.
Print Assumptions C20_mac_cmac_empty_refuted.

(** Over a 64-bit cipher it reduces by the 128-bit polynomial, so it is not SP 800-38B CMAC. *)
Theorem C20_mac_cmac_64bit_refuted : exists c f, lawful c /\ bsz c = 8 /\ cmac_new c 8 = Ok f /\
  f [1; 2; 3]%Z <> cmac_full 8 27 (enc c) [1; 2; 3]%Z.
Proof.
  exists (flip 8). eexists. split; [apply flip_lawful; lia|].
  split; [reflexivity|]. split; [reflexivity|]. vm_compute. discriminate.
Qed.
Print Assumptions C20_mac_cmac_64bit_refuted.

Example C20_instance : lawful (toyn 16) /\
  exists d, hcmac_new (toyn 16) 12 = Ok d /\
  hcmac_run (toyn 16) d [HWrite (map Z.of_nat (seq 0 16)); HSum []; HWrite (map Z.of_nat (seq 16 21)); HWrite []; HSum [9]%Z]
   = [firstn 12 (cmac_full 16 135 (enc (toyn 16)) (map Z.of_nat (seq 0 16)));
      9%Z :: firstn 12 (cmac_full 16 135 (enc (toyn 16)) (map Z.of_nat (seq 0 37)))].
Proof. split; [apply toyn_lawful; lia|]. eexists. split; [reflexivity|]. vm_compute. reflexivity. Qed.

(** ** C42: the other MACs *)
Definition size_ok (c : cipher) (size : Z) : Prop := (1 <= size <= Z.of_nat (bsz c))%Z.

Lemma bad_size_ok c size : size_ok c size -> bad_size c size = false.
Proof. unfold size_ok, bad_size. intro H. destruct (Z.leb_spec size 0); [lia|]. destruct (Z.ltb_spec (Z.of_nat (bsz c)) size); [lia|reflexivity]. Qed.
Lemma bad_size_bad c size : ~ size_ok c size -> bad_size c size = true.
Proof. unfold size_ok, bad_size. intro H. destruct (Z.leb_spec size 0); [reflexivity|]. destruct (Z.ltb_spec (Z.of_nat (bsz c)) size); [reflexivity|lia]. Qed.

(** ISO/IEC 9797-1 algorithms over the padded message P = M || 10*:
    1: CBC-MAC; 2: EMAC; 3: retail MAC; 4: MacDES. *)
Definition P (c : cipher) (m : bytes) : list bytes := chunks (bsz c) (pad2 (bsz c) m).
Theorem C42_cbcmac : forall c size, lawful c -> size_ok c size ->
  exists f, cbcmac_new c size = Ok f /\
  forall m, f m = firstn (Z.to_nat size) (chain (enc c) (zeros (bsz c)) (P c m)).
Proof.
  intros c size HL Hs. unfold cbcmac_new. rewrite bad_size_ok by auto. eexists. split; [reflexivity|]. intro m. cbv beta.
  rewrite iso_pad_eq by apply (law_pos HL). reflexivity.
Qed.
Print Assumptions C42_cbcmac.

Theorem C42_two_key : forall (mk : bytes -> res cipher) k1 k2 b1 b2 size,
  mk k1 = Ok b1 -> mk k2 = Ok b2 -> lawful b1 -> size_ok b1 size ->
  (exists f, emac_new mk k1 k2 size = Ok f /\
     forall m, f m = firstn (Z.to_nat size) (enc b2 (chain (enc b1) (zeros (bsz b1)) (P b1 m)))) /\
  (exists f, retail_new mk k1 k2 size = Ok f /\
     forall m, f m = firstn (Z.to_nat size) (enc b1 (dec b2 (chain (enc b1) (zeros (bsz b1)) (P b1 m))))).
Proof.
  intros mk k1 k2 b1 b2 size E1 E2 HL Hs. unfold emac_new, retail_new. rewrite E1, E2. cbn [must rbind].
  rewrite bad_size_ok by auto. split; eexists; (split; [reflexivity|]); intro m; cbv beta; rewrite iso_pad_eq by apply (law_pos HL); reflexivity.
Qed.
Print Assumptions C42_two_key.

(** MacDES: the first block is encrypted under K1 then under K2 xor F0F0.., the rest chained
    under K1, and the result encrypted under K2. *)
Theorem C42_macdes : forall (mk : bytes -> res cipher) k1 k2 b1 b2 b3 size,
  mk k1 = Ok b1 -> mk k2 = Ok b2 -> mk (xorl k2 (repeat 240%Z (length k2))) = Ok b3 -> lawful b1 -> size_ok b1 size ->
  exists f, macdes_new mk k1 k2 size = Ok f /\
  forall m, exists b rest, P b1 m = b :: rest /\
    f m = firstn (Z.to_nat size) (enc b2 (chain (enc b1) (enc b3 (enc b1 b)) rest)).
Proof.
  intros mk k1 k2 b1 b2 b3 size E1 E2 E3 HL Hs. unfold macdes_new. rewrite E1, E2. cbn [must rbind].
  assert (Ex : map (fun k => Z.lxor k 240) k2 = xorl k2 (repeat 240%Z (length k2))).
  { clear. induction k2 as [|x k IH]; [reflexivity|]. cbn [map length repeat xorl]. now rewrite IH. }
  rewrite bad_size_ok by auto. rewrite Ex, E3. cbn [must rbind]. eexists. split; [reflexivity|]. intro m. cbv beta zeta.
  rewrite iso_pad_eq by apply (law_pos HL). unfold P. pose proof (law_pos HL).
  set (pm := pad2 (bsz b1) m). exists (firstn (bsz b1) pm), (chunks (bsz b1) (skipn (bsz b1) pm)).
  split; [|reflexivity]. apply chunks_cons; auto. unfold pm, pad2. destruct m; discriminate.
Qed.
Print Assumptions C42_macdes.

(** LMAC: K1 = E_K(1), K2 = E_K(2); the last block is encrypted under K2. The requested size is
    ignored: the tag always has a whole block. *)
Theorem C42_lmac : forall (mk : bytes -> res cipher) k b b1 b2 size,
  mk k = Ok b -> mk (enc b (be_bytes (bsz b) 1)) = Ok b1 -> mk (enc b (be_bytes (bsz b) 2)) = Ok b2 ->
  lawful b -> lawful b1 -> lawful b2 -> bsz b1 = bsz b -> bsz b2 = bsz b -> size_ok b size ->
  exists f, lmac_new mk k size = Ok f /\
  forall m, bytes_ok m -> exists bl l, P b m = bl ++ [l] /\
    f m = enc b2 (xorl (chain (enc b1) (zeros (bsz b)) bl) l) /\ length (f m) = bsz b.
Proof.
  intros mk k b b1 b2 size E0 E1 E2 HL HL1 HL2 S1 S2 Hs. pose proof (law_pos HL) as Hn.
  assert (Ek : forall v, (0 <= v < 256)%Z -> zeros (bsz b - 1) ++ [v] = be_bytes (bsz b) v).
  { intros v Hv. apply be_val_inj.
    - apply bytes_ok_app. split; [apply zeros_block|repeat constructor; auto; unfold is_byte; lia].
    - apply be_bytes_ok.
    - unfold zeros. rewrite app_length, repeat_length, be_bytes_length. cbn. lia.
    - rewrite be_val_snoc, be_val_bytes. replace (be_val (zeros (bsz b - 1))) with 0%Z.
      + rewrite Z.mod_small; [lia|]. split; [lia|]. destruct (bsz b) as [|q]; [lia|]. rewrite pow256_S. pose proof (pow256_pos q). nia.
      + unfold be_val, zeros. symmetry. clear. induction (bsz b - 1) as [|q IH]; [reflexivity|]. 
        assert (E : rev (repeat 0%Z (S q)) = rev (repeat 0%Z q) ++ [0%Z]) by reflexivity. rewrite E, le_val_app, IH. cbn. lia. }
  unfold lmac_new. rewrite E0. cbn [must rbind]. rewrite bad_size_ok by auto.
  rewrite !Ek by lia. rewrite E1, E2. cbn [must rbind]. eexists. split; [reflexivity|]. intros m Hm. cbv beta zeta.
  rewrite S1, iso_pad_eq by auto. fold (P b m).
  assert (Hne : P b m <> []).
  { unfold P. rewrite chunks_cons; [discriminate|auto|]. unfold pad2. destruct m; discriminate. }
  destruct (@exists_last _ (P b m) Hne) as (bl & l & El). exists bl, l. split; [exact El|].
  rewrite El, removelast_last, last_last. split; [reflexivity|]. rewrite <- S2. apply (law_enc HL2). rewrite S2.
  assert (Hall : Forall (isblock (bsz b)) (P b m)).
  { assert (O : bytes_ok (concat (P b m))) by (unfold P; rewrite chunks_concat by auto; now apply pad2_ok).
    apply bytes_ok_concat in O. assert (A : all_len (bsz b) (P b m)).
    { unfold P. apply chunks_all_len with (k := S (length m / bsz b)); auto. unfold pad2. rewrite app_length. cbn [length]. rewrite repeat_length.
      pose proof (Nat.div_mod (length m) (bsz b) ltac:(lia)). pose proof (Nat.mod_upper_bound (length m) (bsz b) ltac:(lia)). nia. }
    unfold all_len in A. rewrite Forall_forall in *. intros x Hx. split; auto. }
  rewrite El in Hall. apply Forall_app in Hall as [Hb Hl]. inversion Hl; subst.
  apply xorl_block; auto. rewrite <- S1 in *. apply (chain_block HL1); auto. apply zeros_block.
Qed.
Print Assumptions C42_lmac.

(** TrCBC and CBCR pad only a partial or empty message. *)
Definition needs_pad (n : nat) (m : bytes) : bool := (length m =? 0) || negb (length m mod n =? 0).
Definition P' (c : cipher) (m : bytes) : list bytes :=
  chunks (bsz c) (if needs_pad (bsz c) m then pad2 (bsz c) m else m).
Theorem C42_trcbc : forall c size, lawful c -> size_ok c size ->
  exists f, trcbc_new c size = Ok f /\
  forall m, let t := chain (enc c) (zeros (bsz c)) (P' c m) in
    f m = if needs_pad (bsz c) m then skipn (bsz c - Z.to_nat size) t else firstn (Z.to_nat size) t.
Proof.
  intros c size HL Hs. unfold trcbc_new. rewrite bad_size_ok by auto. eexists. split; [reflexivity|]. intros m. cbv beta zeta.
  unfold P'. fold (needs_pad (bsz c) m). rewrite iso_pad_eq by apply (law_pos HL). reflexivity.
Qed.
Print Assumptions C42_trcbc.

Lemma shl1_top a : is_byte a -> shl8 1 (Z.lxor a 128) = shl8 1 a.
Proof.
  intro Ha. assert (H : forallb (fun a => Z.eqb (shl8 1 (Z.lxor a 128)) (shl8 1 a)) (map Z.of_nat (seq 0 256)) = true) by (vm_compute; reflexivity).
  rewrite forallb_forall in H. apply Z.eqb_eq, H. apply in_map_iff. exists (Z.to_nat a). unfold is_byte in Ha.
  split; [lia|]. apply in_seq. lia.
Qed.
Lemma shift_carry_top a r : is_byte a -> fst (shift_carry (Z.lxor a 128 :: r)) = fst (shift_carry (a :: r)).
Proof. intro Ha. cbn [shift_carry]. destruct (shift_carry r). cbn [fst]. now rewrite shl1_top. Qed.

(** CBCR rotates the last chaining value right by one bit when the message fills its last block. *)
Theorem C42_cbcr : forall c size, lawful c -> size_ok c size ->
  exists f, cbcr_new c size = Ok f /\
  forall m, exists bl l, P' c m = bl ++ [l] /\
    f m = firstn (Z.to_nat size) (enc c (let t := xorl (chain (enc c) (enc c (zeros (bsz c))) bl) l in
            if needs_pad (bsz c) m then fst (shift_carry t) else shift_right t)).
Proof.
  intros c size HL Hs. pose proof (law_pos HL) as Hn. unfold cbcr_new. rewrite bad_size_ok by auto. eexists. split; [reflexivity|]. intros m. cbv beta zeta.
  fold (needs_pad (bsz c) m). rewrite iso_pad_eq by auto. fold (P' c m).
  assert (Hne : P' c m <> []).
  { unfold P'. rewrite chunks_cons; [discriminate|auto|]. unfold needs_pad. destruct m; [discriminate|].
    cbn [length Nat.eqb orb]. destruct (negb _); discriminate. }
  destruct (@exists_last _ (P' c m) Hne) as (bl & l & El). exists bl, l. split; [exact El|]. rewrite El, removelast_last, last_last. reflexivity.
Qed.
Print Assumptions C42_cbcr.

(** When it pads, CBCR drops the top bit of the last chaining value instead of rotating it in:
    flipping the top bit of the first byte of the last partial block never changes the tag. *)
Theorem C42_cbcr_forgery_refuted : forall c size f bl a r, lawful c -> cbcr_new c size = Ok f ->
  all_len (bsz c) bl -> S (length r) < bsz c -> bytes_ok (concat bl ++ a :: r) ->
  f (concat bl ++ Z.lxor a 128 :: r) = f (concat bl ++ a :: r) /\
  concat bl ++ Z.lxor a 128 :: r <> concat bl ++ a :: r.
Proof.
  intros c size f bl a r HL Hf A Lr Hok. pose proof (law_pos HL) as Hn. split.
  2:{ intro H. apply app_inv_head in H. injection H as H. apply (f_equal (fun z => Z.testbit z 7)) in H.
      rewrite Z.lxor_spec in H. change (Z.testbit 128 7) with true in H. destruct (Z.testbit a 7); discriminate. }
  apply bytes_ok_app in Hok as [Ob Oar]. inversion Oar as [|? ? Ha Or]; subst.
  unfold cbcr_new in Hf. destruct (bad_size c size); [discriminate|]. injection Hf as <-.
  assert (G : forall x, is_byte x -> chunks (bsz c) (if needs_pad (bsz c) (concat bl ++ x :: r) then iso_pad (bsz c) (concat bl ++ x :: r) else concat bl ++ x :: r) = bl ++ [pad2 (bsz c) (x :: r)] /\ needs_pad (bsz c) (concat bl ++ x :: r) = true).
  { intros x Hx. assert (Np : needs_pad (bsz c) (concat bl ++ x :: r) = true).
    { unfold needs_pad. rewrite app_length, (concat_len A), mod_tail by (cbn [length]; lia).
      destruct (Nat.eqb_spec (length (x :: r)) (bsz c)) as [E|E]; [cbn [length] in E; lia|]. cbn [length Nat.eqb negb]. apply orb_true_r. }
    split; [|exact Np]. rewrite Np, iso_pad_eq by auto. rewrite pad2_concat by (auto; cbn [length]; lia).
    apply chunks_tail; auto. rewrite pad2_block by (cbn [length]; lia). lia. }
  assert (Hx : is_byte (Z.lxor a 128)) by (apply lxor_byte; auto; unfold is_byte; lia).
  destruct (G _ Hx) as [G1 G2]. destruct (G a Ha) as [G3 G4]. unfold needs_pad in *.
  cbv zeta beta. rewrite G1, G2, G3, G4. rewrite !removelast_last, !last_last. f_equal. f_equal.
  assert (Hbl : Forall (isblock (bsz c)) bl).
  { apply bytes_ok_concat in Ob. unfold all_len in A. rewrite Forall_forall in *. intros y Hy. split; auto. }
  assert (Hc : isblock (bsz c) (mac_loop c (enc c (zeros (bsz c))) bl)) by (apply (chain_block HL); auto; apply (L_block HL)).
  destruct Hc as [Lc Oc]. destruct (mac_loop c (enc c (zeros (bsz c))) bl) as [|t0 t]; [cbn in Lc; lia|].
  unfold pad2. cbn [app xorl length].
  replace (Z.lxor t0 (Z.lxor a 128)) with (Z.lxor (Z.lxor t0 a) 128) by apply Z.lxor_assoc.
  apply shift_carry_top. apply lxor_byte; auto. now inversion Oc.
Qed.
Print Assumptions C42_cbcr_forgery_refuted.

(** All of them panic exactly on a size outside 1..BlockSize or a rejected key. *)
Theorem C42_params : forall c size, ~ size_ok c size ->
  cbcmac_new c size = Panic /\ trcbc_new c size = Panic /\ cbcr_new c size = Panic.
Proof.
  intros c size H. unfold cbcmac_new, trcbc_new, cbcr_new. now rewrite (bad_size_bad H).
Qed.
Print Assumptions C42_params.

Example C42_instance : lawful (toyn 8) /\ size_ok (toyn 8) 5 /\
  (exists f, cbcr_new (toyn 8) 8 = Ok f /\ f [1; 2; 3]%Z = f [129; 2; 3]%Z /\ f [1; 2; 3]%Z <> f [2; 2; 3]%Z) /\
  (exists f, lmac_new (fun _ => Ok (toyn 8)) [1]%Z 5 = Ok f /\ length (f [1]%Z) = 8).
Proof.
  split; [apply toyn_lawful; lia|]. split; [unfold size_ok; cbn; lia|].
  split; eexists; (split; [reflexivity|]); vm_compute; [split; [reflexivity|discriminate]|reflexivity].
Qed.
