(** Property theorems for the buffered stream modes of /repo/mode (C11, C12, C34, C35, C36). *)
From Verif Require Import Base BlockModeModel BlockModeSpec BlockModeProofs StreamModel StreamSpec StreamProofs.
Set Implicit Arguments.

(** C34: over any history of calls each mode XORs the concatenated input with
    the keystream of its definition. *)
Theorem C34_ofb_computes : forall c iv, lawful c -> bsz c <= 511 -> isblock (bsz c) iv ->
  stream_is (ofb_call c) (ofb_new c iv) (ofb_ks (enc c) (bsz c) iv).
Proof.
  intros c iv HL Hbs Hiv.
  apply (@stream_is_ext _ _ _ (ks (ofb_gen c) (bsz c) iv)); [reflexivity|].
  apply stream_is_from with (Inv := P (ofb_gen c) (bsz c) (buf_size (bsz c)) iv).
  - intros st pos [dst src] HP Hx. unfold ofb_call, stream_call, scall_ok in *. cbn [fst snd] in *.
    destruct (Nat.ltb_spec (length dst) (length src)); [lia|].
    destruct (@xor_loop_P _ (ofb_gen c) (bsz c) (buf_size (bsz c)) iv (ofb_more c)
       (ofb_gen_ok HL Hbs Hiv) (bsz c) (@ofb_more_pos c Hbs) (length src) src st pos (le_n _) HP)
      as (st' & E & HP'). rewrite E. exists st'. auto.
  - apply kst_new_P with (more := ofb_more c); auto. now apply ofb_gen_ok.
Qed.
Print Assumptions C34_ofb_computes.

Theorem C34_ofb8_computes : forall c iv, lawful c -> bsz c <= 511 -> isblock (bsz c) iv ->
  stream_is (ofb8_call c) (ofb8_new c iv) (ofb8_ks (enc c) iv).
Proof.
  intros c iv HL Hbs Hiv.
  apply (@stream_is_ext _ _ _ (ks (ofb8_gen c) 1 iv)); [intro; now apply ofb8_ks_eq|].
  apply stream_is_from with (Inv := P (ofb8_gen c) 1 (buf_size (bsz c)) iv).
  - intros st pos [dst src] HP Hx. unfold ofb8_call, stream_call, scall_ok in *. cbn [fst snd] in *.
    destruct (Nat.ltb_spec (length dst) (length src)); [lia|].
    destruct (@byte_loop_P _ (ofb8_gen c) 1 (buf_size (bsz c)) iv (ofb8_more c)
       (ofb8_gen_ok HL Hbs Hiv) (bsz c)) with (src := src) (st := st) (pos := pos) as (st' & E & HP').
    + unfold ofb8_more. rewrite buf_size_small by auto. intros r Hr. apply Nat.leb_gt in Hr. lia.
    + exact HP.
    + exists st'. auto.
  - apply kst_new_P with (more := ofb8_more c); auto. now apply ofb8_gen_ok.
Qed.
Print Assumptions C34_ofb8_computes.

Theorem C34_g3413ofb_computes : forall c iv, lawful c -> bsz c <= 511 -> isblock (2 * bsz c) iv ->
  stream_is (g3413ofb_call c) (g3413ofb_new c iv) (g3413ofb_ks (enc c) (bsz c) iv).
Proof.
  intros c iv HL Hbs Hiv.
  apply (@stream_is_ext _ _ _ (ks (g3413ofb_gen c) (bsz c) iv)); [intro; now apply g3413ofb_ks_eq|].
  apply stream_is_from with (Inv := P (g3413ofb_gen c) (bsz c) (buf_size (bsz c)) iv).
  - intros st pos [dst src] HP Hx. unfold g3413ofb_call, stream_call, scall_ok in *. cbn [fst snd] in *.
    destruct (Nat.ltb_spec (length dst) (length src)); [lia|].
    destruct (@xor_loop_P _ (g3413ofb_gen c) (bsz c) (buf_size (bsz c)) iv (ofb_more c)
       (g3413ofb_gen_ok HL Hbs Hiv) (bsz c) (@ofb_more_pos c Hbs) (length src) src st pos (le_n _) HP)
      as (st' & E & HP'). rewrite E. exists st'. auto.
  - apply kst_new_P with (more := ofb_more c); auto. now apply g3413ofb_gen_ok.
Qed.
Print Assumptions C34_g3413ofb_computes.

(** The length-(bs/2) IV is accepted by the constructor; the register is IV || 0. *)
Theorem C34_g3413ctr_computes : forall c s iv, lawful c -> 0 < s <= bsz c -> bsz c <= 256 ->
  length iv = bsz c / 2 -> bytes_ok iv ->
  exists st, g3413ctr_new c iv = Some st /\
  stream_is (g3413ctr_call c s) st (g3413ctr_ks (enc c) (bsz c) s iv).
Proof.
  intros c s iv HL Hs Hbs Hiv Hok. unfold g3413ctr_new.
  rewrite (proj2 (Nat.eqb_eq _ _) Hiv). eexists. split; [reflexivity|].
  assert (Hd : bsz c / 2 <= bsz c) by (apply Nat.div_le_upper_bound; lia).
  assert (Ec : gocopy (repeat 0%Z (bsz c)) iv = iv ++ repeat 0%Z (bsz c - length iv)).
  { unfold gocopy. rewrite repeat_length, firstn_all2 by lia. f_equal.
    replace (bsz c) with (length iv + (bsz c - length iv)) at 1 by lia.
    rewrite repeat_app. apply skipn_app_exact. now rewrite repeat_length. }
  rewrite Ec. set (ctr := iv ++ repeat 0%Z (bsz c - length iv)).
  assert (Hc : isblock (bsz c) ctr).
  { split; [unfold ctr; rewrite app_length, repeat_length; lia|].
    apply bytes_ok_app. split; auto. apply Forall_forall. intros x Hx. apply repeat_spec in Hx.
    subst. unfold is_byte. lia. }
  apply (@stream_is_ext _ _ _ (ks (g3413ctr_gen c s) s ctr)); [intro; now apply g3413ctr_ks_eq|].
  apply stream_is_from with (Inv := P (g3413ctr_gen c s) s (buf_size (bsz c)) ctr).
  - intros st pos [dst src] HP Hx. unfold g3413ctr_call, stream_call, scall_ok in *. cbn [fst snd] in *.
    destruct (Nat.ltb_spec (length dst) (length src)); [lia|].
    destruct (Nat.ltb_spec (bsz c) s); [lia|]. rewrite andb_false_r.
    destruct (@seg_loop_P _ (g3413ctr_gen c s) s (buf_size (bsz c)) ctr (g3413ctr_more c s)
       (g3413ctr_gen_ok HL Hs Hbs Hc) s ltac:(lia)
       ltac:(rewrite buf_size_small by lia; lia) (@g3413ctr_more_s c s Hs Hbs)
       (length src) src st pos (le_n _) HP)
      as (st' & E & HP'). exists st'. auto.
  - apply kst_new_P with (more := g3413ctr_more c s); auto. now apply g3413ctr_gen_ok.
Qed.
Print Assumptions C34_g3413ctr_computes.

(** NOFB: every call starts on a fresh keystream block. *)
Theorem C34_nofb_computes : forall c iv, lawful c -> bsz c <= 511 -> isblock (bsz c) iv ->
  forall calls, Forall scall_ok calls ->
  exists st', run_calls (nofb_call c) (ofb_new c iv) calls =
    Ok (st', nofb_outs (ofb_ks (enc c) (bsz c) iv) (bsz c) 0 (map snd calls)).
Proof.
  intros c iv HL Hbs Hiv calls Hc.
  exact (@nofb_run c HL Hbs iv Hiv calls _ _ (nofb_new_I HL Hbs Hiv) Hc).
Qed.
Print Assumptions C34_nofb_computes.

(** GOFB, one call on a fresh object. *)
Theorem C34_gofb_first_call_computes : forall c iv, lawful c -> bsz c = 8 -> isblock 8 iv ->
  forall dst src, scall_ok (dst, src) ->
  exists st', gofb_call c (gofb_new c iv) (dst, src) =
    Ok (st', xor_stream (gofb_ks (enc c) code_step4 iv) 0 src).
Proof.
  intros c iv HL Hbs Hiv dst src Hx. unfold scall_ok in Hx. cbn [fst snd] in Hx.
  unfold gofb_call, stream_call. cbn [fst snd].
  destruct (Nat.ltb_spec (length dst) (length src)); [lia|].
  destruct (Nat.ltb_spec (bsz c) 8); [lia|].
  destruct (@xor_loop_P _ (gofb_gen c) (bsz c) (buf_size (bsz c)) (gofb_load c iv) (ofb_more c)
     (@gofb_gen_ok c HL Hbs (gofb_load c iv) Hiv) (bsz c) (@ofb_more_pos c ltac:(lia)) (length src) src
     (kst_new (bsz c) (gofb_load c iv)) 0 (le_n _)) as (st' & E & _).
  { apply kst_new_P with (more := ofb_more c); auto. now apply gofb_gen_ok. }
  exists st'. unfold gofb_new. cbn [kst_new kg kbuf klen kused gcipher].
  unfold kst_new, gofb_load in E. unfold gofb_load in E. rewrite E. cbn [of_opt]. do 2 f_equal.
  apply xor_stream_ext. intros i _. exact (@gofb_ks_eq c HL Hbs iv i Hiv).
Qed.
Print Assumptions C34_gofb_first_call_computes.

(** C11: chunking does not matter. *)
Theorem C11_ofb_chunk_invariant : forall c iv, lawful c -> bsz c <= 511 -> isblock (bsz c) iv ->
  chunk_invariant (ofb_call c) (ofb_new c iv).
Proof. intros. eapply stream_is_chunk. now apply C34_ofb_computes. Qed.
Print Assumptions C11_ofb_chunk_invariant.

Theorem C11_ofb8_chunk_invariant : forall c iv, lawful c -> bsz c <= 511 -> isblock (bsz c) iv ->
  chunk_invariant (ofb8_call c) (ofb8_new c iv).
Proof. intros. eapply stream_is_chunk. now apply C34_ofb8_computes. Qed.
Print Assumptions C11_ofb8_chunk_invariant.

Theorem C11_g3413ofb_chunk_invariant : forall c iv, lawful c -> bsz c <= 511 ->
  isblock (2 * bsz c) iv -> chunk_invariant (g3413ofb_call c) (g3413ofb_new c iv).
Proof. intros. eapply stream_is_chunk. now apply C34_g3413ofb_computes. Qed.
Print Assumptions C11_g3413ofb_chunk_invariant.

Theorem C11_g3413ctr_chunk_invariant : forall c s iv st, lawful c -> 0 < s <= bsz c -> bsz c <= 256 ->
  bytes_ok iv -> g3413ctr_new c iv = Some st -> chunk_invariant (g3413ctr_call c s) st.
Proof.
  intros c s iv st HL Hs Hb Hok Hn.
  assert (Hiv : length iv = bsz c / 2).
  { unfold g3413ctr_new in Hn. destruct (Nat.eqb_spec (length iv) (bsz c / 2)); [auto|discriminate]. }
  destruct (@C34_g3413ctr_computes c s iv HL Hs Hb Hiv Hok) as (st' & E & H).
  rewrite Hn in E. injection E as <-. eapply stream_is_chunk, H.
Qed.
Print Assumptions C11_g3413ctr_chunk_invariant.

(** NOFB: cutting matters only inside a block. *)
Theorem C11_nofb_aligned_chunks : forall c iv, lawful c -> bsz c <= 511 -> isblock (bsz c) iv ->
  forall calls last, Forall scall_ok (calls ++ [last]) ->
  Forall (fun x => length (snd x) mod bsz c = 0) calls ->
  exists st' outs, run_calls (nofb_call c) (ofb_new c iv) (calls ++ [last]) = Ok (st', outs) /\
    concat outs = xor_stream (ofb_ks (enc c) (bsz c) iv) 0 (concat (map snd (calls ++ [last]))).
Proof.
  intros c iv HL Hbs Hiv calls last Hc Ha.
  destruct (C34_nofb_computes HL Hbs Hiv Hc) as (st' & E). eexists st', _. split; [exact E|].
  rewrite map_app. cbn [map]. rewrite nofb_outs_aligned.
  - rewrite concat_app. cbn [concat]. rewrite app_nil_r. reflexivity.
  - apply (law_pos HL).
  - clear -Ha. induction Ha; constructor; auto.
Qed.
Print Assumptions C11_nofb_aligned_chunks.

Theorem C11_nofb_chunk_refuted : exists c iv, lawful c /\ isblock (bsz c) iv /\ bsz c <= 511 /\
  ~ chunk_invariant (nofb_call c) (ofb_new c iv).
Proof.
  exists toy, [1; 2]%Z. split; [apply toy_lawful|]. split; [split; [reflexivity|repeat constructor; unfold is_byte; lia]|].
  split; [cbn; lia|]. intro H.
  destruct (H [([0;0;0], [0;0;0])]%Z [([0],[0]); ([0;0],[0;0])]%Z) as (s1 & s2 & o1 & o2 & E1 & E2 & E);
    try (repeat constructor; unfold scall_ok; cbn; lia); try reflexivity.
  vm_compute in E1, E2. injection E1 as _ <-. injection E2 as _ <-. discriminate.
Qed.
Print Assumptions C11_nofb_chunk_refuted.

Theorem C11_gofb_chunk_refuted : exists c iv, lawful c /\ bsz c = 8 /\ isblock 8 iv /\
  ~ chunk_invariant (gofb_call c) (gofb_new c iv).
Proof.
  exists (toyn 8), (repeat 7%Z 8). split; [apply toyn_lawful; lia|]. split; [reflexivity|].
  split; [split; [reflexivity|repeat constructor; unfold is_byte; lia]|]. intro H.
  pose (x1 := repeat 0%Z 500). pose (x2 := repeat 0%Z 16).
  destruct (H [(x1 ++ x2, x1 ++ x2)] [(x1, x1); (x2, x2)]) as (s1 & s2 & o1 & o2 & E1 & E2 & E).
  - constructor; [unfold scall_ok; cbn [fst snd]; lia|constructor].
  - repeat (constructor; [unfold scall_ok; cbn [fst snd]; lia|]). constructor.
  - reflexivity.
  - assert (D : match run_calls (gofb_call (toyn 8)) (gofb_new (toyn 8) (repeat 7%Z 8)) [(x1 ++ x2, x1 ++ x2)],
                      run_calls (gofb_call (toyn 8)) (gofb_new (toyn 8) (repeat 7%Z 8)) [(x1, x1); (x2, x2)] with
                | Ok (_, a), Ok (_, b) => bytes_eqb (concat a) (concat b) = false | _, _ => True end)
      by (vm_compute; reflexivity).
    rewrite E1, E2, E in D.
    assert (T : bytes_eqb (concat o2) (concat o2) = true) by (now apply bytes_eqb_eq).
    congruence.
Qed.
Print Assumptions C11_gofb_chunk_refuted.

(** C12: round trips. *)
Theorem C12_ofb_roundtrip : forall c iv, lawful c -> bsz c <= 511 -> isblock (bsz c) iv ->
  stream_roundtrip (ofb_call c) (ofb_call c) (ofb_new c iv) (ofb_new c iv).
Proof. intros. eapply stream_is_roundtrip; now apply C34_ofb_computes. Qed.
Print Assumptions C12_ofb_roundtrip.

Theorem C12_ofb8_roundtrip : forall c iv, lawful c -> bsz c <= 511 -> isblock (bsz c) iv ->
  stream_roundtrip (ofb8_call c) (ofb8_call c) (ofb8_new c iv) (ofb8_new c iv).
Proof. intros. eapply stream_is_roundtrip; now apply C34_ofb8_computes. Qed.
Print Assumptions C12_ofb8_roundtrip.

Theorem C12_g3413ofb_roundtrip : forall c iv, lawful c -> bsz c <= 511 -> isblock (2 * bsz c) iv ->
  stream_roundtrip (g3413ofb_call c) (g3413ofb_call c) (g3413ofb_new c iv) (g3413ofb_new c iv).
Proof. intros. eapply stream_is_roundtrip; now apply C34_g3413ofb_computes. Qed.
Print Assumptions C12_g3413ofb_roundtrip.

Theorem C12_g3413ctr_roundtrip : forall c s iv st, lawful c -> 0 < s <= bsz c -> bsz c <= 256 ->
  bytes_ok iv -> g3413ctr_new c iv = Some st ->
  stream_roundtrip (g3413ctr_call c s) (g3413ctr_call c s) st st.
Proof.
  intros c s iv st HL Hs Hb Hok Hn.
  assert (Hiv : length iv = bsz c / 2).
  { unfold g3413ctr_new in Hn. destruct (Nat.eqb_spec (length iv) (bsz c / 2)); [auto|discriminate]. }
  destruct (@C34_g3413ctr_computes c s iv HL Hs Hb Hiv Hok) as (st' & E & H).
  rewrite Hn in E. injection E as <-. eapply stream_is_roundtrip; apply H.
Qed.
Print Assumptions C12_g3413ctr_roundtrip.

Theorem C12_nofb_roundtrip : forall c iv, lawful c -> bsz c <= 511 -> isblock (bsz c) iv ->
  stream_roundtrip_same (nofb_call c) (nofb_call c) (ofb_new c iv) (ofb_new c iv).
Proof.
  intros c iv HL Hbs Hiv calls Hc.
  destruct (C34_nofb_computes HL Hbs Hiv Hc) as (st' & E). eexists st', _. split; [exact E|].
  split; [now rewrite nofb_outs_lengths, map_map|].
  intros calls2 Hc2 Em. destruct (C34_nofb_computes HL Hbs Hiv Hc2) as (st2 & E2).
  eexists st2, _. split; [exact E2|]. rewrite Em. apply nofb_outs_cancel.
Qed.
Print Assumptions C12_nofb_roundtrip.

Theorem C12_gofb_roundtrip : forall c iv, bsz c = 8 ->
  stream_roundtrip_same (gofb_call c) (gofb_call c) (gofb_new c iv) (gofb_new c iv).
Proof.
  intros c iv Hbs calls Hc.
  destruct (@gofb_same c Hbs calls _ (@gofb_new_W c Hbs iv) Hc) as (se & outs & E & El & Hb).
  exists se, outs. split; [auto|]. split; [auto|]. intros c2 H2 E2.
  exists se, (map snd calls). split; [now apply Hb|reflexivity].
Qed.
Print Assumptions C12_gofb_roundtrip.

(** C35: XORKeyStream returns for every block size below 512 (previous theorems);
    from 512 on OFB and G3413OFB loop for ever on any non-empty input, whatever
    the cipher: no number of loop turns is enough. *)
Theorem C35_ofb_large_block_diverges_refuted : forall c iv src fuel, 512 <= bsz c -> src <> [] ->
  xor_loop (ofb_gen c) (bsz c) (ofb_more c) fuel (bsz c) (ofb_new c iv) src = None /\
  xor_loop (g3413ofb_gen c) (bsz c) (ofb_more c) fuel (bsz c) (g3413ofb_new c iv) src = None.
Proof.
  intros c iv src fuel Hb Hs.
  assert (Hm : ofb_more c 0 = false).
  { unfold ofb_more, buf_size. destruct (Nat.ltb_spec 512 (bsz c)); apply Nat.ltb_ge; lia. }
  split; now apply xor_loop_stuck.
Qed.
Print Assumptions C35_ofb_large_block_diverges_refuted.

(** G3413CTR: a segment size above the block size panics on the first byte. *)
Theorem C35_g3413ctr_large_segment_panics : forall c s st dst src, bsz c < s -> src <> [] ->
  g3413ctr_call c s st (dst, src) = Panic.
Proof.
  intros c s st dst src Hs Hne. unfold g3413ctr_call, stream_call. cbn [fst snd].
  destruct (length dst <? length src); [reflexivity|].
  destruct src as [|b src]; [congruence|]. cbn [length Nat.eqb negb andb].
  now rewrite (proj2 (Nat.ltb_lt _ _) Hs).
Qed.
Print Assumptions C35_g3413ctr_large_segment_panics.

(** Short destinations are refused by every mode before anything is written. *)
Theorem C35_guards : forall c s dst src, length dst < length src ->
  (forall st, ofb_call c st (dst, src) = Panic) /\ (forall st, ofb8_call c st (dst, src) = Panic) /\
  (forall st, nofb_call c st (dst, src) = Panic) /\ (forall st, g3413ofb_call c st (dst, src) = Panic) /\
  (forall st, g3413ctr_call c s st (dst, src) = Panic) /\ (forall st, gofb_call c st (dst, src) = Panic).
Proof.
  intros c s dst src H.
  assert (E : length dst <? length src = true) by (now apply Nat.ltb_lt).
  repeat split; intro st; unfold ofb_call, ofb8_call, nofb_call, g3413ofb_call, g3413ctr_call, gofb_call,
    stream_call; cbn [fst snd]; now rewrite E.
Qed.
Print Assumptions C35_guards.

(** C36: the N4 counter is an addition modulo 2^32 - 1 ... *)
Theorem C36_gofb_counter_step : forall n, (0 <= n < 2 ^ 32)%Z -> (n + 16843012 <> 2 ^ 32)%Z ->
  (0 <= code_step4 n < 2 ^ 32)%Z /\
  (code_step4 n mod (2 ^ 32 - 1) = (n + 16843012) mod (2 ^ 32 - 1))%Z.
Proof.
  intros n Hn Hne. unfold code_step4, gost_step4.
  destruct (Z.eqb_spec (n + 16843012) (2 ^ 32)); [contradiction|].
  destruct (Z.ltb_spec (n + 16843012) (2 ^ 32)).
  - split; [lia|reflexivity].
  - split; [lia|]. replace (n + 16843012)%Z with (n + 16843012 - 2 ^ 32 + 1 + 1 * (2 ^ 32 - 1))%Z at 2 by lia.
    now rewrite Z_mod_plus_full.
Qed.
Print Assumptions C36_gofb_counter_step.

(** ... except that a sum of exactly 2^32 gives 0 instead of 1. *)
Theorem C36_gofb_counter_refuted : exists n, (0 <= n < 2 ^ 32)%Z /\
  code_step4 n <> gost_step4 n /\
  (code_step4 n mod (2 ^ 32 - 1) <> (n + 16843012) mod (2 ^ 32 - 1))%Z.
Proof. exists (2 ^ 32 - 16843012)%Z. repeat split; vm_compute; congruence. Qed.
Print Assumptions C36_gofb_counter_refuted.

(** Non-vacuity. *)
Example C34_instance :
  lawful toy /\ bsz toy <= 511 /\ isblock (bsz toy) [1; 2]%Z /\
  match run_calls (ofb_call toy) (ofb_new toy [1; 2]%Z) [([0;0;0], [10;20;30]); ([0;0], [40;50])]%Z with
  | Ok (_, outs) => concat outs = xor_stream (ofb_ks (enc toy) 2 [1; 2]%Z) 0 [10;20;30;40;50]%Z
  | _ => False end.
Proof.
  split; [apply toy_lawful|]. split; [cbn; lia|]. split; [split; [reflexivity|repeat constructor; unfold is_byte; lia]|].
  vm_compute. reflexivity.
Qed.
Example C34_ctr_instance :
  match g3413ctr_new (toyn 4) [1; 2]%Z with
  | Some st => match run_calls (g3413ctr_call (toyn 4) 3) st [([0;0;0;0], [10;20;30;40]); ([0;0], [40;50])]%Z with
     | Ok (_, outs) => concat outs = xor_stream (g3413ctr_ks (enc (toyn 4)) 4 3 [1; 2]%Z) 0 [10;20;30;40;40;50]%Z
     | _ => False end
  | None => False end.
Proof. vm_compute. reflexivity. Qed.
Example C34_gofb_instance : lawful (toyn 8) /\
  match gofb_call (toyn 8) (gofb_new (toyn 8) [1;2;3;4;5;6;7;8]%Z) (repeat 0 20, repeat 9 20)%Z with
  | Ok (_, o) => o = xor_stream (gofb_ks (enc (toyn 8)) code_step4 [1;2;3;4;5;6;7;8]%Z) 0 (repeat 9%Z 20)
  | _ => False end.
Proof. split; [apply toyn_lawful; lia|]. vm_compute. reflexivity. Qed.
