(** Property theorems for the block modes of /repo/mode (C08, C09, C10, C32). *)
From Verif Require Import Base BlockModeModel BlockModeSpec BlockModeProofs.
Set Implicit Arguments.

(** C08: every mode decrypts what it encrypted, over any histories of calls,
    with any combination of in-place and separate buffers. *)
Theorem C08_ecb_roundtrip : forall c ip1 ip2, lawful c ->
  mode_roundtrip (bsz c) (mcall c ip1 (ecb_enc_mem c ip1)) (mcall c ip2 (ecb_dec_mem c ip2)) tt tt.
Proof.
  intros c ip1 ip2 HL.
  apply (@mroundtrip c ip1 ip2 (law_pos HL) _ _ (ecb_enc_mem c ip1) (ecb_dec_mem c ip2)
           (ecb_enc_step c) (ecb_dec_step c) (fun _ => True) (fun _ => True) (fun _ _ => True)); auto.
  - intros; now apply ecb_enc_len with (st := st) (b := b) (st' := st').
  - intros; now apply ecb_dec_len with (st := st) (b := b) (st' := st').
  - intros. now apply ecb_one.
Qed.
Print Assumptions C08_ecb_roundtrip.

Theorem C08_bc_roundtrip : forall c ip1 ip2 iv, lawful c -> isblock (bsz c) iv ->
  mode_roundtrip (bsz c) (mcall c ip1 (bc_enc_mem c ip1)) (mcall c ip2 (bc_dec_mem c ip2)) iv iv.
Proof.
  intros c ip1 ip2 iv HL Hiv.
  apply (@mroundtrip c ip1 ip2 (law_pos HL) _ _ (bc_enc_mem c ip1) (bc_dec_mem c ip2)
           (bc_enc_step c) (bc_dec_step c) (isblock (bsz c)) (isblock (bsz c))
           (fun a b => a = b /\ isblock (bsz c) a)); auto.
  - intros. now apply bc_enc_turn.
  - intros st b st' o. now apply bc_enc_len.
  - intros. now apply bc_dec_turn.
  - intros st b st' o. now apply bc_dec_len.
  - intros. now apply bc_one.
Qed.
Print Assumptions C08_bc_roundtrip.

(** PCBC: separate buffers only; see [C09_pcbc_inplace_refuted]. *)
Theorem C08_pcbc_roundtrip : forall c iv, lawful c -> isblock (bsz c) iv ->
  mode_roundtrip (bsz c) (mcall c false (pcbc_enc_mem c false))
    (mcall c false (pcbc_dec_mem c false)) iv iv.
Proof.
  intros c iv HL Hiv.
  apply (@mroundtrip c false false (law_pos HL) _ _ (pcbc_enc_mem c false) (pcbc_dec_mem c false)
           (pcbc_enc_step c false) (pcbc_dec_step c false) (isblock (bsz c)) (isblock (bsz c))
           (fun a b => a = b /\ isblock (bsz c) a)); auto.
  - intros. now apply pcbc_enc_turn.
  - intros st b st' o. now apply pcbc_enc_len.
  - intros. now apply pcbc_dec_turn.
  - intros st b st' o. now apply pcbc_dec_len.
  - intros. now apply pcbc_one.
Qed.
Print Assumptions C08_pcbc_roundtrip.

Lemma ige_new_I c iv : isblock (2 * bsz c) iv -> ige_I c (ige_new c iv).
Proof.
  intros [H1 H2]. unfold ige_I, ige_new. cbn [fst snd]. split; split;
    try (now apply bytes_ok_firstn); try (now apply bytes_ok_skipn);
    rewrite ?firstn_length, ?skipn_length; lia.
Qed.

Theorem C08_ige_roundtrip : forall c ip1 ip2 iv, lawful c -> isblock (2 * bsz c) iv ->
  mode_roundtrip (bsz c) (mcall c ip1 (ige_mem c ip1 (enc c))) (ige_dec_mcall c ip2)
    (ige_new c iv) (ige_new c iv).
Proof.
  intros c ip1 ip2 iv HL Hiv.
  pose proof (@ige_new_I c iv Hiv) as [HI1 HI2].
  assert (Q : mode_roundtrip (bsz c) (mcall c ip1 (ige_mem c ip1 (enc c)))
                (mcall c ip2 (ige_mem c ip2 (dec c))) (ige_new c iv)
                (snd (ige_new c iv), fst (ige_new c iv))).
  { apply (@mroundtrip c ip1 ip2 (law_pos HL) _ _ (ige_mem c ip1 (enc c)) (ige_mem c ip2 (dec c))
             (ige_step (enc c)) (ige_step (dec c)) (ige_I c) (ige_I c) (ige_R c)); auto.
    - intros. apply ige_turn.
    - intros st b st' o. apply ige_len. apply (law_enc HL).
    - intros. apply ige_turn.
    - intros st b st' o. apply ige_len. apply (law_dec HL).
    - intros. now apply ige_one.
    - split; auto.
    - split; auto.
    - unfold ige_R. auto. }
  intros msgs Hm. destruct (Q msgs Hm) as (se' & outs & E & HLo & Hd).
  exists se', outs. split; [exact E|]. split; [exact HLo|].
  intros cts Hc Ec. destruct (Hd cts Hc Ec) as ([x y] & ps & E2 & Hps).
  exists (y, x), ps. split; [|exact Hps].
  destruct (ige_new c iv) as [a b] eqn:En. rewrite ige_dec_swap. cbn [fst snd] in E2.
  rewrite E2. reflexivity.
Qed.
Print Assumptions C08_ige_roundtrip.

Theorem C08_ofbnlf_roundtrip : forall c newKey ip1 ip2 iv, lawful c -> isblock (bsz c) iv ->
  (forall k, isblock (bsz c) k -> exists c', newKey k = Some c' /\ lawful c' /\ bsz c' = bsz c) ->
  mode_roundtrip (bsz c) (mcall c ip1 (ofbnlf_mem c ip1 newKey enc))
    (mcall c ip2 (ofbnlf_mem c ip2 newKey dec)) iv iv.
Proof.
  intros c nk ip1 ip2 iv HL Hiv HK.
  apply (@mroundtrip c ip1 ip2 (law_pos HL) _ _ (ofbnlf_mem c ip1 nk enc) (ofbnlf_mem c ip2 nk dec)
           (ofbnlf_enc_step c nk) (ofbnlf_dec_step c nk) (isblock (bsz c)) (isblock (bsz c))
           (fun a b => a = b /\ isblock (bsz c) a)); auto.
  - intros. now apply ofbnlf_enc_turn.
  - intros st b st' o. now apply ofbnlf_enc_len.
  - intros. now apply ofbnlf_dec_turn.
  - intros st b st' o. now apply ofbnlf_dec_len.
  - intros. now apply ofbnlf_one.
Qed.
Print Assumptions C08_ofbnlf_roundtrip.

(** The hypotheses hold of a concrete cipher and history. *)
Example C08_instance :
  lawful toy /\ isblock (bsz toy) [7; 9]%Z /\
  Forall (call_ok (bsz toy)) [([0; 0], [1; 2]); ([0; 0; 0; 0; 5], [3; 4; 5; 250])]%Z /\
  run_calls (mcall toy false (bc_enc_mem toy false)) [7; 9]%Z
    [([0; 0], [1; 2]); ([0; 0; 0; 0; 5], [3; 4; 5; 250])]%Z =
  Ok ([252; 5]%Z, [[12; 9]; [5; 11; 242; 14]]%Z).
Proof.
  split; [apply toy_lawful|]. split; [split; [reflexivity|repeat constructor; unfold is_byte; lia]|].
  split; [|vm_compute; reflexivity].
  repeat constructor; cbn; unfold is_byte; try lia; reflexivity.
Qed.

(** C32: what the modes compute, block by block, over any history of calls. *)
Theorem C32_ecb_computes : forall c ip, lawful c ->
  mode_computes (bsz c) (mcall c ip (ecb_enc_mem c ip)) tt (ecb_spec (enc c)).
Proof.
  intros c ip HL msgs st' outs Hm E.
  apply (@mcalls_blocks c ip (law_pos HL) _ (ecb_enc_mem c ip) (ecb_enc_step c) (fun _ => True)) in E;
    auto; [|intros; now apply ecb_enc_len with (st := st) (b := b) (st' := st'0)].
  unfold ecb_spec. revert E. generalize (chunks (bsz c) (concat (map snd msgs))) as ps.
  generalize (chunks (bsz c) (concat outs)) as cs. intros cs ps; revert cs.
  induction ps as [|p ps IH]; intros cs E; cbn in E; [now injection E as _ <-|].
  destruct (block_loop (ecb_enc_step c) tt ps) as [[s o]| |] eqn:EB; cbn in E; try discriminate.
  injection E as <- <-. cbn [map]. f_equal. now apply IH.
Qed.
Print Assumptions C32_ecb_computes.

Theorem C32_bc_computes : forall c ip iv, lawful c -> isblock (bsz c) iv ->
  mode_computes (bsz c) (mcall c ip (bc_enc_mem c ip)) iv (bc_spec (enc c) iv).
Proof.
  intros c ip iv HL Hiv msgs st' outs Hm E.
  apply (@mcalls_blocks c ip (law_pos HL) _ (bc_enc_mem c ip) (bc_enc_step c) (isblock (bsz c))) in E;
    auto.
  - now apply bc_recurrence in E.
  - intros. now apply bc_enc_turn.
  - intros s b s' o. now apply bc_enc_len.
Qed.
Print Assumptions C32_bc_computes.

Theorem C32_pcbc_computes : forall c iv, lawful c -> isblock (bsz c) iv ->
  mode_computes (bsz c) (mcall c false (pcbc_enc_mem c false)) iv (pcbc_spec (enc c) iv).
Proof.
  intros c iv HL Hiv msgs st' outs Hm E.
  apply (@mcalls_blocks c false (law_pos HL) _ (pcbc_enc_mem c false) (pcbc_enc_step c false)
           (isblock (bsz c))) in E; auto.
  - now apply pcbc_recurrence in E.
  - intros. now apply pcbc_enc_turn.
  - intros s b s' o. now apply pcbc_enc_len.
Qed.
Print Assumptions C32_pcbc_computes.

Theorem C32_ige_computes : forall c ip iv, lawful c -> isblock (2 * bsz c) iv ->
  mode_computes (bsz c) (mcall c ip (ige_mem c ip (enc c))) (ige_new c iv)
    (ige_spec (enc c) (firstn (bsz c) iv) (skipn (bsz c) iv)).
Proof.
  intros c ip iv HL Hiv msgs st' outs Hm E.
  apply (@mcalls_blocks c ip (law_pos HL) _ (ige_mem c ip (enc c)) (ige_step (enc c)) (ige_I c)) in E;
    auto.
  - now apply ige_recurrence in E.
  - intros. now apply ige_turn.
  - intros s b s' o. apply ige_len. apply (law_enc HL).
  - now apply ige_new_I.
Qed.
Print Assumptions C32_ige_computes.

Theorem C32_ofbnlf_computes : forall c newKey ip iv, lawful c -> isblock (bsz c) iv ->
  (forall k, isblock (bsz c) k -> exists c', newKey k = Some c' /\ lawful c' /\ bsz c' = bsz c) ->
  mode_computes (bsz c) (mcall c ip (ofbnlf_mem c ip newKey enc)) iv
    (ofbnlf_spec (enc c) newKey iv).
Proof.
  intros c nk ip iv HL Hiv HK msgs st' outs Hm E.
  apply (@mcalls_blocks c ip (law_pos HL) _ (ofbnlf_mem c ip nk enc) (ofbnlf_enc_step c nk)
           (isblock (bsz c))) in E; auto.
  - now apply ofbnlf_recurrence in E.
  - intros. now apply ofbnlf_enc_turn.
  - intros s b s' o. now apply ofbnlf_enc_len.
Qed.
Print Assumptions C32_ofbnlf_computes.

Theorem C32_g3413cbc_computes : forall c ip iv, lawful c -> isblock (2 * bsz c) iv ->
  mode_computes (bsz c) (mcall c ip (g3413cbc_enc_mem c ip)) iv
    (g3413cbc_spec (enc c) (firstn (bsz c) iv) (skipn (bsz c) iv)).
Proof.
  intros c ip iv HL Hiv msgs st' outs Hm E.
  assert (Hall : Forall (isblock (bsz c)) (chunks (bsz c) (concat (map snd msgs)))).
  { apply chunks_isblock; [apply (law_pos HL)|]. pose proof (law_pos HL) as Hp. clear E.
    induction Hm as [|x l [[Hx1 Hx2] _] H IH].
    - split; [constructor|]. unfold aligned. apply Nat.mod_0_l. lia.
    - destruct IH as [I1 I2]. cbn [map concat]. split; [now apply bytes_ok_app|].
      unfold aligned in *. rewrite app_length, Nat.add_mod, Hx2, I2 by lia.
      apply Nat.mod_0_l. lia. }
  apply (@mcalls_blocks c ip (law_pos HL) _ (g3413cbc_enc_mem c ip) (g3413cbc_enc_step c)
           (isblock (2 * bsz c))) in E; auto.
  - destruct (g3413_enc_loop HL Hiv Hall) as (iv' & cs & E2 & HLc & _ & Hr).
    rewrite E in E2. injection E2 as _ <-. split; [exact HLc|exact Hr].
  - intros. now apply g3413cbc_enc_turn.
  - intros s b s' o. now apply g3413cbc_enc_len.
Qed.
Print Assumptions C32_g3413cbc_computes.

(** C09: in place = out of place; bytes of dst beyond len(src) are untouched;
    misuse panics. *)
Theorem C09_inplace : forall c, lawful c ->
  mode_inplace_ok c (ecb_enc_mem c) tt /\ mode_inplace_ok c (ecb_dec_mem c) tt /\
  (forall iv, isblock (bsz c) iv ->
     mode_inplace_ok c (bc_enc_mem c) iv /\ mode_inplace_ok c (bc_dec_mem c) iv) /\
  (forall iv, isblock (2 * bsz c) iv ->
     mode_inplace_ok c (fun ip => ige_mem c ip (enc c)) (ige_new c iv) /\
     mode_inplace_ok c (fun ip => ige_mem c ip (dec c)) (ige_new c iv) /\
     mode_inplace_ok c (g3413cbc_enc_mem c) iv).
Proof.
  intros c HL. split; [|split; [|split]].
  - apply (@inplace_ok c (law_pos HL) _ (ecb_enc_mem c) (ecb_enc_step c) (fun _ => True)); auto.
    + intros; now apply ecb_enc_len with (st := st) (b := b) (st' := st').
    + intros. eexists. reflexivity.
  - apply (@inplace_ok c (law_pos HL) _ (ecb_dec_mem c) (ecb_dec_step c) (fun _ => True)); auto.
    + intros; now apply ecb_dec_len with (st := st) (b := b) (st' := st').
    + intros. eexists. reflexivity.
  - intros iv Hiv. split.
    + apply (@inplace_ok c (law_pos HL) _ (bc_enc_mem c) (bc_enc_step c) (isblock (bsz c))); auto.
      * intros. now apply bc_enc_turn.
      * intros st b st' o. now apply bc_enc_len.
      * intros. eexists. reflexivity.
    + apply (@inplace_ok c (law_pos HL) _ (bc_dec_mem c) (bc_dec_step c) (isblock (bsz c))); auto.
      * intros. now apply bc_dec_turn.
      * intros st b st' o. now apply bc_dec_len.
      * intros. eexists. reflexivity.
  - intros iv Hiv. split; [|split].
    + apply (@inplace_ok c (law_pos HL) _ (fun ip => ige_mem c ip (enc c)) (ige_step (enc c)) (ige_I c)).
      * intros. now apply ige_turn.
      * intros st b st' o. apply ige_len. apply (law_enc HL).
      * intros [lc lp] b _ _. eexists. reflexivity.
      * now apply ige_new_I.
    + apply (@inplace_ok c (law_pos HL) _ (fun ip => ige_mem c ip (dec c)) (ige_step (dec c)) (ige_I c)).
      * intros. now apply ige_turn.
      * intros st b st' o. apply ige_len. apply (law_dec HL).
      * intros [lc lp] b _ _. eexists. reflexivity.
      * now apply ige_new_I.
    + apply (@inplace_ok c (law_pos HL) _ (g3413cbc_enc_mem c) (g3413cbc_enc_step c)
               (isblock (2 * bsz c))); auto.
      * intros. now apply g3413cbc_enc_turn.
      * intros st b st' o. now apply g3413cbc_enc_len.
      * intros. eexists. reflexivity.
Qed.
Print Assumptions C09_inplace.

Theorem C09_ofbnlf_inplace : forall c newKey iv, lawful c -> isblock (bsz c) iv ->
  (forall k, isblock (bsz c) k -> exists c', newKey k = Some c' /\ lawful c' /\ bsz c' = bsz c) ->
  mode_inplace_ok c (fun ip => ofbnlf_mem c ip newKey enc) iv /\
  mode_inplace_ok c (fun ip => ofbnlf_mem c ip newKey dec) iv.
Proof.
  intros c nk iv HL Hiv HK. split.
  - apply (@inplace_ok c (law_pos HL) _ (fun ip => ofbnlf_mem c ip nk enc) (ofbnlf_enc_step c nk)
             (isblock (bsz c))); auto.
    + intros. now apply ofbnlf_enc_turn.
    + intros st b st' o. now apply ofbnlf_enc_len.
    + intros st b Hs Hb. unfold ofbnlf_enc_step.
      destruct (HK _ (law_enc HL Hs)) as (c' & -> & _). eexists. reflexivity.
  - apply (@inplace_ok c (law_pos HL) _ (fun ip => ofbnlf_mem c ip nk dec) (ofbnlf_dec_step c nk)
             (isblock (bsz c))); auto.
    + intros. now apply ofbnlf_dec_turn.
    + intros st b st' o. now apply ofbnlf_dec_len.
    + intros st b Hs Hb. unfold ofbnlf_dec_step.
      destruct (HK _ (law_enc HL Hs)) as (c' & -> & _). eexists. reflexivity.
Qed.
Print Assumptions C09_ofbnlf_inplace.
Example C09_instance : call_ok (bsz toy) ([9; 9; 9; 9; 9], [1; 2; 3; 4])%Z /\
  crypt_blocks_mem toy false (bc_dec_mem toy false) [7; 9]%Z [9; 9; 9; 9; 9]%Z [1; 2; 3; 4]%Z =
  Ok ([5; 15], [248; 9; 7; 9; 9])%Z.
Proof.
  split; [repeat constructor; cbn; unfold is_byte; try lia; reflexivity|vm_compute; reflexivity].
Qed.

Theorem C09_guards : forall c ip S (mstep : S -> buffers -> nat -> res (S * buffers)),
  mode_guards c ip mstep.
Proof. exact guards. Qed.
Print Assumptions C09_guards.

(** PCBC recomputes its chaining value from src after dst was written: in place
    the second block is already wrong. *)
Theorem C09_pcbc_inplace_refuted :
  exists c iv src, lawful c /\ isblock (bsz c) iv /\ call_ok (bsz c) (src, src) /\
  exists st1 st2 o1 o2,
    crypt_blocks_mem c false (pcbc_enc_mem c false) iv src src = Ok (st1, o1) /\
    crypt_blocks_mem c true (pcbc_enc_mem c true) iv src src = Ok (st2, o2) /\ o1 <> o2.
Proof.
  exists toy, [7; 9]%Z, [1; 2; 3; 4]%Z.
  split; [apply toy_lawful|]. split; [split; [reflexivity|repeat constructor; unfold is_byte; lia]|].
  split; [repeat constructor; cbn; unfold is_byte; try lia; reflexivity|].
  eexists _, _, _, _. split; [vm_compute; reflexivity|]. split; [vm_compute; reflexivity|].
  discriminate.
Qed.
Print Assumptions C09_pcbc_inplace_refuted.

(** ... and encrypting then decrypting in place loses the message. *)
Theorem C09_pcbc_inplace_roundtrip_refuted :
  exists c iv src, lawful c /\ isblock (bsz c) iv /\ call_ok (bsz c) (src, src) /\
  exists st1 st2 o1 o2,
    crypt_blocks_mem c true (pcbc_enc_mem c true) iv src src = Ok (st1, o1) /\
    crypt_blocks_mem c true (pcbc_dec_mem c true) iv o1 o1 = Ok (st2, o2) /\
    o2 = src /\
    exists st3 o3, crypt_blocks_mem c false (pcbc_dec_mem c false) iv o1 o1 = Ok (st3, o3) /\
    o3 <> src.
Proof.
  exists toy, [7; 9]%Z, [1; 2; 3; 4]%Z.
  split; [apply toy_lawful|]. split; [split; [reflexivity|repeat constructor; unfold is_byte; lia]|].
  split; [repeat constructor; cbn; unfold is_byte; try lia; reflexivity|].
  eexists _, _, _, _. split; [vm_compute; reflexivity|]. split; [vm_compute; reflexivity|].
  split; [reflexivity|]. eexists _, _. split; [vm_compute; reflexivity|]. discriminate.
Qed.
Print Assumptions C09_pcbc_inplace_roundtrip_refuted.

(** In place the chaining value is dst xor dst = 0, so every block after the
    first is encrypted as in plain ECB: equal plaintext blocks give equal
    ciphertext blocks. *)
Theorem C09_pcbc_inplace_degenerates_to_ecb : forall c iv ps st cs,
  lawful c -> isblock (bsz c) iv -> Forall (isblock (bsz c)) ps ->
  crypt_blocks_mem c true (pcbc_enc_mem c true) iv (concat ps) (concat ps) = Ok (st, cs) ->
  forall i, 0 < i < length ps -> nth i (chunks (bsz c) cs) [] = enc c (nth i ps []).
Proof.
  intros c iv ps st cs HL Hiv Hps E i Hi. pose proof (law_pos HL) as Hp.
  destruct (concat_isblock Hp Hps) as [Hin Hch].
  rewrite (@crypt_blocks_mem_refines c true Hp _ (pcbc_enc_mem c true) (pcbc_enc_step c true)
             (isblock (bsz c))) in E; auto.
  2:{ intros. now apply pcbc_enc_turn. }
  2:{ intros s b s' o. now apply pcbc_enc_len. }
  cbv beta iota in E. rewrite crypt_blocks_aligned in E by apply Hin. rewrite Hch in E.
  destruct (block_loop (pcbc_enc_step c true) iv ps) as [[s1 os]| |] eqn:EB; cbn [rbind] in E;
    try discriminate.
  injection E as <- E. rewrite skipn_all, app_nil_r in E. subst cs.
  assert (Hos : all_len (bsz c) os).
  { eapply (@block_loop_all_len c _ (pcbc_enc_step c true) (isblock (bsz c))); eauto.
    intros s b s' o. now apply pcbc_enc_len. }
  rewrite chunks_of_concat by auto.
  assert (Hz : forall ps iv st os, Forall (isblock (bsz c)) ps ->
      (iv = repeat 0%Z (bsz c)) ->
      block_loop (pcbc_enc_step c true) iv ps = Ok (st, os) ->
      os = map (enc c) ps).
  { clear - HL. induction ps as [|p ps IH]; intros iv st os Hps -> E; cbn [block_loop] in E.
    - now injection E as _ <-.
    - apply Forall_cons_iff in Hps as [Hp1 Hps]. cbn [pcbc_enc_step rbind reread] in E.
      assert (Ex : xorl p (repeat 0%Z (bsz c)) = p).
      { destruct Hp1 as [HLp _]. apply xorl_repeat0. lia. }
      rewrite Ex, xorl_same in E.
      pose proof (law_enc HL Hp1) as [He _]. rewrite He in E.
      destruct (block_loop (pcbc_enc_step c true) (repeat 0%Z (bsz c)) ps) as [[s2 o2]| |] eqn:E2;
        cbn [rbind] in E; try discriminate.
      injection E as <- <-. cbn [map]. f_equal. eapply IH; eauto. }
  destruct ps as [|p ps]; cbn [length] in Hi; [lia|].
  apply Forall_cons_iff in Hps as [Hp1 Hps]. cbn [block_loop pcbc_enc_step rbind reread] in EB.
  rewrite xorl_same in EB. pose proof (law_enc HL (isblock_xorl Hp1 Hiv)) as [He _].
  rewrite He in EB.
  destruct (block_loop (pcbc_enc_step c true) (repeat 0%Z (bsz c)) ps) as [[s2 o2]| |] eqn:E2;
    cbn [rbind] in EB; try discriminate.
  injection EB as <- <-. rewrite (Hz _ _ _ _ Hps eq_refl E2).
  destruct i as [|i]; [lia|]. cbn [nth].
  rewrite (@nth_indep _ _ i [] (enc c [])) by (rewrite map_length; lia).
  apply map_nth.
Qed.
Print Assumptions C09_pcbc_inplace_degenerates_to_ecb.

(** C33: SetIV(iv) should put the object in the state of a fresh one built with
    iv; IGE loads the two halves the other way round. *)
Theorem C33_ige_set_iv_refuted :
  exists c iv src, lawful c /\ isblock (2 * bsz c) iv /\ call_ok (bsz c) (src, src) /\
  exists st1 st2 o1 o2,
    mcall c false (ige_mem c false (enc c)) (ige_new c iv) (src, src) = Ok (st1, o1) /\
    mcall c false (ige_mem c false (enc c)) (ige_set_iv c iv) (src, src) = Ok (st2, o2) /\
    o1 <> o2.
Proof.
  exists toy, [7; 9; 1; 2]%Z, [1; 2]%Z.
  split; [apply toy_lawful|]. split; [split; [reflexivity|repeat constructor; unfold is_byte; lia]|].
  split; [repeat constructor; cbn; unfold is_byte; try lia; reflexivity|].
  eexists _, _, _, _. split; [vm_compute; reflexivity|]. split; [vm_compute; reflexivity|].
  discriminate.
Qed.
Print Assumptions C33_ige_set_iv_refuted.
(** Exactly when it is harmless: the two halves of iv are equal. *)
Theorem C33_ige_set_iv_iff : forall c iv, length iv = 2 * bsz c ->
  (ige_set_iv c iv = ige_new c iv <-> firstn (bsz c) iv = skipn (bsz c) iv).
Proof.
  intros c iv H. unfold ige_set_iv, ige_new. split; [congruence|intros ->; reflexivity].
Qed.
Print Assumptions C33_ige_set_iv_iff.

(** C10: GOST R 34.13 CBC. One decrypter call recovers the message whatever
    history of encrypter calls produced the ciphertext, in place or not. *)
Theorem C10_g3413cbc_single_roundtrip : forall c ip1 ip2 iv, lawful c -> isblock (2 * bsz c) iv ->
  forall msgs, Forall (call_ok (bsz c)) msgs ->
  exists iv' outs, run_calls (mcall c ip1 (g3413cbc_enc_mem c ip1)) iv msgs = Ok (iv', outs) /\
    forall dst0, length dst0 = length (concat outs) ->
      g3413cbc_dec_call c ip2 iv dst0 (concat outs) = Ok (iv, concat (map snd msgs)).
Proof.
  intros c ip1 ip2 iv HL Hiv msgs Hm. pose proof (law_pos HL) as Hp.
  assert (Hin : Forall (input_ok (bsz c)) (map snd msgs)).
  { apply Forall_map. eapply Forall_impl; [|exact Hm]. intros ? [? ?]; auto. }
  assert (Ha : Forall (aligned (bsz c)) (map snd msgs)).
  { eapply Forall_impl; [|exact Hin]. intros ? [? ?]; auto. }
  assert (Hall : input_ok (bsz c) (concat (map snd msgs))).
  { clear Ha Hm. induction Hin as [|x l [Hx1 Hx2] H IH].
    - split; [constructor|]. unfold aligned. apply Nat.mod_0_l. lia.
    - destruct IH as [I1 I2]. cbn [concat]. split; [now apply bytes_ok_app|].
      unfold aligned in *. rewrite app_length, Nat.add_mod, Hx2, I2 by lia.
      apply Nat.mod_0_l. lia. }
  rewrite (@mcalls_refine c ip1 Hp _ (g3413cbc_enc_mem c ip1) (g3413cbc_enc_step c)
             (isblock (2 * bsz c))); auto.
  2:{ intros. now apply g3413cbc_enc_turn. }
  2:{ intros st b st' o. now apply g3413cbc_enc_len. }
  pose proof (@run_calls_concat _ (g3413cbc_enc_step c) (bsz c) Hp iv (map snd msgs) Ha) as Q.
  destruct (@g3413_dec_single c HL ip2 iv (chunks (bsz c) (concat (map snd msgs))) [] Hiv
              (chunks_isblock Hp Hall)) as (iv' & cs & E & _).
  rewrite E in Q. cbn [rbind] in Q.
  destruct (run_calls _ iv (map snd msgs)) as [[s1 outs]| |] eqn:ER; cbn [rbind] in Q; try discriminate.
  injection Q as -> Q. exists iv', outs. split; [reflexivity|].
  intros dst0 Hd. rewrite Q in *.
  destruct (@g3413_dec_single c HL ip2 iv (chunks (bsz c) (concat (map snd msgs))) dst0 Hiv
              (chunks_isblock Hp Hall)) as (iv2 & cs2 & E2 & D).
  rewrite E in E2. injection E2 as <- <-. rewrite (D Hd).
  now rewrite chunks_concat.
Qed.
Print Assumptions C10_g3413cbc_single_roundtrip.
Example C10_instance :
  run_calls (mcall toy false (g3413cbc_enc_mem toy false)) [7; 9; 1; 2]%Z
    [([0; 0], [1; 2]); ([0; 0; 0; 0], [3; 4; 5; 250])]%Z =
    Ok ([7; 5; 244; 12]%Z, [[12; 9]; [7; 5; 244; 12]]%Z) /\
  g3413cbc_dec_call toy false [7; 9; 1; 2]%Z [0; 0; 0; 0; 0; 0]%Z [12; 9; 7; 5; 244; 12]%Z =
  Ok ([7; 9; 1; 2], [1; 2; 3; 4; 5; 250])%Z.
Proof. split; vm_compute; reflexivity. Qed.

(** The decrypter never updates its register: a second call decrypts with the
    original iv and the message is lost. *)
Theorem C10_g3413cbc_multi_call_refuted :
  exists c iv m1 m2, lawful c /\ isblock (2 * bsz c) iv /\
    call_ok (bsz c) (m1, m1) /\ call_ok (bsz c) (m2, m2) /\
  exists st outs, run_calls (mcall c false (g3413cbc_enc_mem c false)) iv [(m1, m1); (m2, m2)]
    = Ok (st, outs) /\
  exists st' ps,
    run_calls (fun s x => g3413cbc_dec_call c false s x x) iv outs = Ok (st', ps) /\
    concat ps <> concat [m1; m2].
Proof.
  exists toy, [7; 9; 1; 2]%Z, [1; 2]%Z, [3; 4]%Z.
  split; [apply toy_lawful|]. split; [split; [reflexivity|repeat constructor; unfold is_byte; lia]|].
  split; [repeat constructor; cbn; unfold is_byte; try lia; reflexivity|].
  split; [repeat constructor; cbn; unfold is_byte; try lia; reflexivity|].
  eexists _, _. split; [vm_compute; reflexivity|]. eexists _, _. split; [vm_compute; reflexivity|].
  discriminate.
Qed.
Print Assumptions C10_g3413cbc_multi_call_refuted.
