(** Property theorems for the cipher feedback modes of /repo/mode (C11, C12, C34, C35, C37, C38). *)
From Verif Require Import Base BlockModeModel BlockModeSpec BlockModeProofs StreamModel StreamSpec StreamProofs
  FeedbackModel FeedbackSpec FeedbackProofs FeedbackProofs2.
Set Implicit Arguments.

(** C34: what the modes compute, in both directions ([d] = decrypting), over any
    history of calls. *)
Theorem C34_cfb_computes : forall c iv d, len_ok c -> length iv = bsz c ->
  fstream_is (cfb_call c d) (cfb_new c iv) d (cfb_K (enc c) (bsz c) (bsz c) (bsz c)) iv.
Proof.
  intros c iv d HL Hiv. apply fstream_from with (Inv := cfb_Inv c).
  - now apply cfb_one.
  - now apply cfb_new_Inv.
Qed.
Print Assumptions C34_cfb_computes.

Theorem C34_cfb8_computes : forall c iv d, len_ok c -> length iv = bsz c ->
  fstream_is (cfb8_call c d) iv d (cfb_K (enc c) (bsz c) (bsz c) 1) iv.
Proof.
  intros c iv d HL Hiv. apply fstream_from with (Inv := cfb8_Inv c).
  - apply byte_one. intros. now apply cfb8_step_Inv.
  - now apply cfb8_new_Inv.
Qed.
Print Assumptions C34_cfb8_computes.

Theorem C34_cfb1_computes : forall c iv ip d, 0 < bsz c -> isblock (bsz c) iv ->
  bitstream_is (cfb1_call c ip d) iv ip d (cfb1_K (enc c) (bsz c)) (bits iv).
Proof. intros c iv ip d HL [Hiv Hok]. now apply cfb1_stream. Qed.
Print Assumptions C34_cfb1_computes.

Theorem C34_ncfb_computes : forall c iv d, len_ok c -> length iv = bsz c ->
  fstream_aligned (ncfb_call c d) iv d (cfb_K (enc c) (bsz c) (bsz c) (bsz c)) iv (bsz c).
Proof.
  intros c iv d HL Hiv. apply faligned_from with (Inv := cfbk_Inv c (bsz c)).
  - apply sloop_one with (step := ncfb_step c d).
    + apply HL.
    + intros. now apply ncfb_step_Inv.
    + intros st [dst src]. unfold ncfb_call, stream_call. cbn [fst snd].
      now rewrite ncfb_loop_sloop.
  - now apply cfbk_new_Inv.
Qed.
Print Assumptions C34_ncfb_computes.

Theorem C34_cfb16_32_64_computes : forall c iv k d, len_ok c -> length iv = bsz c -> bsz c = 2 * k ->
  fstream_aligned (cfbk_call c k d) iv d (cfb_K (enc c) (bsz c) (bsz c) k) iv k.
Proof.
  intros c iv k d HL Hiv Hk. assert (0 < k) by (destruct HL; lia).
  apply faligned_from with (Inv := cfbk_Inv c k).
  - apply sloop_one with (step := cfbk_step c d); auto.
    + intros. now apply cfbk_step_Inv.
    + intros st [dst src]. unfold cfbk_call, stream_call. cbn [fst snd].
      now rewrite cfbk_loop_sloop.
  - now apply cfbk_new_Inv.
Qed.
Print Assumptions C34_cfb16_32_64_computes.

(** The constructor accepts exactly two-block IVs and segments up to a block. *)
Theorem C34_g3413cfb_computes : forall c s iv ip d, len_ok c -> 0 < s <= bsz c ->
  length iv = 2 * bsz c -> ip && d = false ->
  exists st, g3413cfb_new c s iv = Some st /\
  fstream_aligned (g3413cfb_call c ip d s) st d (cfb_K (enc c) (bsz c) (2 * bsz c) s) iv s.
Proof.
  intros c s iv ip d HL Hs Hiv Hip. unfold g3413cfb_new.
  rewrite Hiv, Nat.eqb_refl. cbn [negb]. destruct (Nat.ltb_spec (bsz c) s); [lia|].
  eexists. split; [reflexivity|]. apply faligned_from with (Inv := g3413cfb_Inv c s).
  - now apply g3413cfb_one.
  - split; [reflexivity|]. exists 0. split; [lia|]. cbn [gnext].
    unfold slice. cbn [Nat.mul]. rewrite skipn_O. now rewrite firstn_all2 by lia.
Qed.
Print Assumptions C34_g3413cfb_computes.

(** GCFB on whole blocks, for a family of 8-byte block ciphers with 32-byte keys. *)
Definition family (mk : bytes -> cipher) : Prop :=
  forall k, length k = 32 -> bsz (mk k) = 8 /\ len_ok (mk k).
Definition whole_blocks (n : nat) (calls : list (bytes * bytes)) : Prop :=
  Forall (fun x => length (snd x) mod n = 0) calls.
Theorem C34_gcfb_computes : forall mk key iv d, family mk -> length key = 32 -> length iv = 8 ->
  exists st, gcfb_new mk key iv = Some st /\
  forall calls, Forall scall_ok calls -> whole_blocks 8 calls ->
  exists st' outs, run_calls (gcfb_call mk 8 d) st calls = Ok (st', outs) /\
    map (@length Z) outs = map (fun x => length (snd x)) calls /\
    concat outs = fb d (gcfb_K mk gcfbC false key) iv (concat (map snd calls)).
Proof.
  intros mk key iv d HM Hk Hiv.
  assert (E : gcfb_new mk key iv = Some {| greg := iv; gkey := key; giv := iv; gcnt := 0 |}).
  { unfold gcfb_new. destruct (HM key Hk) as [-> _]. now rewrite Hiv. }
  eexists. split; [exact E|]. intros calls Hc Hm.
  eapply gcfb_run; eauto. eapply gcfb_new_Inv; eauto.
Qed.
Print Assumptions C34_gcfb_computes.

(** OCFB without resynchronisation: the prefix followed by the ciphertext is the
    CFB encryption, with a zero IV, of the random block, its last two bytes
    repeated, and the message. *)
Theorem C34_ocfb_enc_computes : forall c rnd, len_ok c -> 2 <= bsz c -> length rnd = bsz c ->
  exists st prefix, ocfb_enc_new c rnd false = Ok (st, prefix) /\
  forall calls, Forall scall_ok calls ->
  exists st' outs, run_calls (ocfb_call c false) st calls = Ok (st', outs) /\
    map (@length Z) outs = map (fun x => length (snd x)) calls /\
    prefix ++ concat outs =
      fb false (cfb_K (enc c) (bsz c) (bsz c) (bsz c)) (repeat 0%Z (bsz c))
         (rnd ++ skipn (bsz c - 2) rnd ++ concat (map snd calls)).
Proof.
  intros c rnd HL H2 Hr. unfold ocfb_enc_new. rewrite Hr, Nat.eqb_refl. cbn [negb].
  destruct (Nat.ltb_spec (bsz c) 2); [lia|].
  set (bs := bsz c) in *. set (z := repeat 0%Z bs). set (p0 := xorl rnd (enc c z)).
  set (K := cfb_K (enc c) bs bs bs).
  assert (Lz : length z = bs) by apply repeat_length.
  assert (Lp0 : length p0 = bs) by (unfold p0; rewrite xorl_length, (proj2 HL) by exact Lz; fold bs; lia).
  set (p := p0 ++ _). assert (Lp : length p = bs + 2) by (unfold p; rewrite app_length, Lp0; reflexivity).
  assert (F0 : firstn bs p = p0) by (unfold p; apply firstn_app_exact; auto).
  eexists _, p. split; [reflexivity|]. intros calls Hc.
  destruct (@fstream_run _ (ocfb_call c false) false K (ocfb_Inv c)) with (calls := calls)
    (st := {| ofre := copy_at 0 (skipn bs p) (enc c p0); oused := 2 |}) (h := z ++ p)
    as (st' & outs & E & El & Eo).
  - apply byte_one. intros. now apply ocfb_step_Inv.
  - rewrite <- F0. apply ocfb_noresync_Inv; auto.
  - exact Hc.
  - exists st', outs. split; [exact E|]. split; [exact El|]. rewrite Eo.
    assert (E0 : fb false K z rnd = p0) by (apply fb_block; auto).
    assert (Es : skipn (bs - 2) rnd = [nth (bs - 2) rnd 0%Z; nth (bs - 1) rnd 0%Z]).
    { apply nth_ext with (d := 0%Z) (d' := 0%Z); [rewrite skipn_length; cbn; lia|].
      intros n Hn. rewrite skipn_length in Hn.
      assert (Hs : forall n, nth n (skipn (bs - 2) rnd) 0%Z = nth (bs - 2 + n) rnd 0%Z).
      { clear -Hr H2. intro n.
        rewrite <- (firstn_skipn (bs - 2) rnd) at 2. rewrite app_nth2; rewrite firstn_length; [f_equal|]; lia. }
      rewrite Hs. destruct n as [|[|n]]; [now rewrite Nat.add_0_r| |lia]. cbn [nth]. f_equal. lia. }
    assert (E1 : fb false K (z ++ p0) [nth (bs - 2) rnd 0%Z; nth (bs - 1) rnd 0%Z] =
      [Z.lxor (nth 0 (enc c p0) 0%Z) (nth (bs - 2) rnd 0%Z); Z.lxor (nth 1 (enc c p0) 0%Z) (nth (bs - 1) rnd 0%Z)]).
    { etransitivity; [apply fb_two; auto|]. now rewrite (Z.lxor_comm (nth (bs - 2) rnd 0%Z)), (Z.lxor_comm (nth (bs - 1) rnd 0%Z)). }
    rewrite fb_app. cbn [ct]. rewrite E0, Es, fb_app. cbn [ct]. rewrite E1.
    unfold p. now rewrite <- !app_assoc.
Qed.
Print Assumptions C34_ocfb_enc_computes.

(** With resynchronisation the message is CFB-encrypted with IV = prefix[2:]. *)
Theorem C34_ocfb_resync_computes : forall c rnd, len_ok c -> 2 <= bsz c -> length rnd = bsz c ->
  exists st prefix, ocfb_enc_new c rnd true = Ok (st, prefix) /\ length prefix = bsz c + 2 /\
  fstream_is (ocfb_call c false) st false (cfb_K (enc c) (bsz c) (bsz c) (bsz c)) (skipn 2 prefix).
Proof.
  intros c rnd HL H2 Hr. unfold ocfb_enc_new. rewrite Hr, Nat.eqb_refl. cbn [negb].
  destruct (Nat.ltb_spec (bsz c) 2); [lia|].
  set (p := _ ++ _).
  assert (Lp : length p = bsz c + 2).
  { unfold p. rewrite app_length, xorl_length, (proj2 HL) by apply repeat_length. cbn [length]. lia. }
  eexists _, p. split; [reflexivity|]. split; [exact Lp|].
  apply fstream_from with (Inv := ocfb_Inv c).
  - apply byte_one. intros. now apply ocfb_step_Inv.
  - apply ocfb_resync_Inv; auto. rewrite skipn_length. lia.
Qed.
Print Assumptions C34_ocfb_resync_computes.

(** C12 for OCFB: whatever the random block, the decrypter built from the prefix
    accepts it, shows the random block and its check bytes in place of the prefix,
    and recovers the message whatever the cuts. *)
Theorem C12_ocfb_roundtrip : forall c rnd resync, len_ok c -> 2 <= bsz c -> length rnd = bsz c ->
  exists se prefix sd,
    ocfb_enc_new c rnd resync = Ok (se, prefix) /\
    ocfb_dec_new c prefix resync = Ok (sd, rnd ++ skipn (bsz c - 2) rnd) /\
    stream_roundtrip (ocfb_call c false) (ocfb_call c true) se sd.
Proof.
  intros c rnd resync HL H2 Hr.
  set (bs := bsz c) in *. set (z := repeat 0%Z bs). set (p0 := xorl rnd (enc c z)).
  set (r0 := nth (bs - 2) rnd 0%Z). set (r1 := nth (bs - 1) rnd 0%Z).
  set (p := p0 ++ [Z.lxor (nth 0 (enc c p0) 0%Z) r0; Z.lxor (nth 1 (enc c p0) 0%Z) r1]).
  set (st := if resync then {| ofre := enc c (skipn 2 p); oused := 0 |}
             else {| ofre := copy_at 0 (skipn bs p) (enc c p0); oused := 2 |}).
  assert (Lz : length z = bs) by apply repeat_length.
  assert (Lez : length (enc c z) = bs) by (now apply (proj2 HL)).
  assert (Lp0 : length p0 = bs) by (unfold p0; rewrite xorl_length; lia).
  assert (Lp : length p = bs + 2) by (unfold p; rewrite app_length, Lp0; reflexivity).
  assert (F0 : firstn bs p = p0) by (unfold p; apply firstn_app_exact; auto).
  exists st, p, st. split; [|split].
  - unfold ocfb_enc_new. fold bs. rewrite Hr, Nat.eqb_refl. cbn [negb].
    destruct (Nat.ltb_spec bs 2); [lia|]. fold z p0 r0 r1 p. unfold st. now destruct resync.
  - unfold ocfb_dec_new. fold bs. rewrite Lp, Nat.eqb_refl. cbn [negb].
    destruct (Nat.ltb_spec bs 2); [lia|]. fold z. rewrite F0.
    assert (Eq : xorl p0 (enc c z) = rnd) by (unfold p0; apply xorl_cancel_r; lia).
    rewrite Eq. fold r0 r1.
    assert (Ea : Z.lxor (nth bs p 0%Z) (nth 0 (enc c p0) 0%Z) = r0).
    { unfold p. rewrite app_nth2 by lia. rewrite Lp0, Nat.sub_diag. cbn [nth].
      now rewrite Z.lxor_comm, <- Z.lxor_assoc, Z.lxor_nilpotent, Z.lxor_0_l. }
    assert (Eb : Z.lxor (nth (bs + 1) p 0%Z) (nth 1 (enc c p0) 0%Z) = r1).
    { unfold p. rewrite app_nth2 by lia. rewrite Lp0. replace (bs + 1 - bs) with 1 by lia. cbn [nth].
      now rewrite Z.lxor_comm, <- Z.lxor_assoc, Z.lxor_nilpotent, Z.lxor_0_l. }
    rewrite Ea, Eb, !Z.eqb_refl. cbn [negb orb].
    rewrite (@last_two rnd bs) by lia. fold r0 r1. unfold st. now destruct resync.
  - assert (HI : ocfb_Inv c st (if resync then skipn 2 p else z ++ p)).
    { unfold st. destruct resync; [apply ocfb_resync_Inv|rewrite <- F0; apply ocfb_noresync_Inv]; auto.
      rewrite skipn_length. fold bs. lia. }
    apply fstream_roundtrip with (K := cfb_K (enc c) bs bs bs) (h := if resync then skipn 2 p else z ++ p).
    + eapply fstream_from; [|exact HI]. apply byte_one. intros. now apply ocfb_step_Inv.
    + eapply fstream_from; [|exact HI]. apply byte_one. intros. now apply ocfb_step_Inv.
Qed.
Print Assumptions C12_ocfb_roundtrip.

(** C38: the decrypter accepts a prefix exactly when the CFB decryption (zero IV)
    of the prefix repeats its bytes bs-2, bs-1 in positions bs, bs+1. *)
Theorem C38_ocfb_quick_check : forall c prefix resync, len_ok c -> 2 <= bsz c ->
  length prefix = bsz c + 2 ->
  let q := fb true (cfb_K (enc c) (bsz c) (bsz c) (bsz c)) (repeat 0%Z (bsz c)) prefix in
  (skipn (bsz c) q = slice (bsz c - 2) 2 q -> exists sd, ocfb_dec_new c prefix resync = Ok (sd, q)) /\
  (skipn (bsz c) q <> slice (bsz c - 2) 2 q -> ocfb_dec_new c prefix resync = Panic).
Proof.
  intros c prefix resync HL H2 Lp q. set (bs := bsz c) in *. set (z := repeat 0%Z bs) in *.
  set (p0 := firstn bs prefix). set (K := cfb_K (enc c) bs bs bs) in *.
  assert (Lz : length z = bs) by apply repeat_length.
  assert (Lez : length (enc c z) = bs) by (now apply (proj2 HL)).
  assert (Lp0 : length p0 = bs) by (unfold p0; rewrite firstn_length; lia).
  assert (Ep : prefix = p0 ++ [nth bs prefix 0%Z; nth (bs + 1) prefix 0%Z]).
  { rewrite <- (firstn_skipn bs prefix) at 1. fold p0. f_equal.
    now apply last_two_ge. }
  set (x := nth bs prefix 0%Z) in *. set (y := nth (bs + 1) prefix 0%Z) in *.
  set (q0 := xorl p0 (enc c z)).
  assert (Lq0 : length q0 = bs) by (unfold q0; rewrite xorl_length; lia).
  assert (Eq : q = q0 ++ [Z.lxor x (nth 0 (enc c p0) 0%Z); Z.lxor y (nth 1 (enc c p0) 0%Z)]).
  { unfold q. rewrite Ep, fb_app. cbn [ct]. f_equal; [now apply fb_block|now apply fb_two]. }
  set (a := Z.lxor x _) in *. set (b := Z.lxor y _) in *.
  assert (S1 : skipn bs q = [a; b]) by (rewrite Eq; now apply skipn_app_exact).
  assert (S2 : slice (bs - 2) 2 q = [nth (bs - 2) q0 0%Z; nth (bs - 1) q0 0%Z]).
  { rewrite Eq, slice_app_l by lia. unfold slice. rewrite (@last_two q0 bs) by lia. reflexivity. }
  assert (D : ocfb_dec_new c prefix resync =
     if negb (Z.eqb (nth (bs - 2) q0 0%Z) a) || negb (Z.eqb (nth (bs - 1) q0 0%Z) b) then Panic
     else if resync then Ok ({| ofre := enc c (skipn 2 prefix); oused := 0 |}, q0 ++ [a; b])
     else Ok ({| ofre := copy_at 0 (skipn bs prefix) (enc c p0); oused := 2 |}, q0 ++ [a; b])).
  { unfold ocfb_dec_new. fold bs. rewrite Lp, Nat.eqb_refl. cbn [negb].
    destruct (Nat.ltb_spec bs 2); [lia|]. reflexivity. }
  rewrite S1, S2, D. split.
  - intro E. injection E as -> ->. rewrite !Z.eqb_refl. cbn [negb orb]. rewrite <- Eq.
    destruct resync; eauto.
  - intro N. destruct (Z.eqb_spec (nth (bs - 2) q0 0%Z) a) as [Na|]; [|reflexivity].
    destruct (Z.eqb_spec (nth (bs - 1) q0 0%Z) b) as [Nb|]; [|reflexivity]. now rewrite Na, Nb in N.
Qed.
Print Assumptions C38_ocfb_quick_check.

(** C11: chunking. *)
Theorem C11_cfb_chunk_invariant : forall c iv d, len_ok c -> length iv = bsz c ->
  chunk_invariant (cfb_call c d) (cfb_new c iv).
Proof. intros. eapply fstream_chunk. now apply C34_cfb_computes. Qed.
Print Assumptions C11_cfb_chunk_invariant.
Theorem C11_cfb8_chunk_invariant : forall c iv d, len_ok c -> length iv = bsz c ->
  chunk_invariant (cfb8_call c d) iv.
Proof. intros. eapply fstream_chunk. now apply C34_cfb8_computes. Qed.
Print Assumptions C11_cfb8_chunk_invariant.
(** CFB1, whether or not the calls are in place. *)
Theorem C11_cfb1_chunk_invariant : forall c iv ip1 ip2 d calls1 calls2, 0 < bsz c -> isblock (bsz c) iv ->
  Forall (bcall_ok ip1) calls1 -> Forall (bcall_ok ip2) calls2 ->
  concat (map snd calls1) = concat (map snd calls2) ->
  exists st1 st2 outs1 outs2,
    run_calls (cfb1_call c ip1 d) iv calls1 = Ok (st1, outs1) /\
    run_calls (cfb1_call c ip2 d) iv calls2 = Ok (st2, outs2) /\
    concat outs1 = concat outs2.
Proof.
  intros c iv ip1 ip2 d c1 c2 Hp Hiv H1 H2 E.
  destruct (@C34_cfb1_computes c iv ip1 d Hp Hiv c1 H1) as (s1 & o1 & E1 & _ & B1 & O1).
  destruct (@C34_cfb1_computes c iv ip2 d Hp Hiv c2 H2) as (s2 & o2 & E2 & _ & B2 & O2).
  exists s1, s2, o1, o2. split; [auto|]. split; [auto|].
  apply bits_inj; [now apply bytes_ok_concat|now apply bytes_ok_concat|]. now rewrite O1, O2, E.
Qed.
Print Assumptions C11_cfb1_chunk_invariant.

(** Cutting inside a block changes the result of the modes that keep no position. *)
Theorem C11_ncfb_chunk_refuted : exists c iv, len_ok c /\ length iv = bsz c /\
  ~ chunk_invariant (ncfb_call c false) iv.
Proof.
  exists (toyn 2), [1; 2]%Z. split; [apply toyn_len_ok; lia|]. split; [reflexivity|]. intro H.
  destruct (H [([0;0;0], [0;0;0])]%Z [([0],[0]); ([0;0],[0;0])]%Z) as (s1 & s2 & o1 & o2 & E1 & E2 & E);
    try (repeat constructor; unfold scall_ok; cbn; lia); try reflexivity.
  vm_compute in E1, E2. injection E1 as _ <-. injection E2 as _ <-. discriminate.
Qed.
Print Assumptions C11_ncfb_chunk_refuted.
Theorem C11_cfb16_chunk_refuted : exists c iv, len_ok c /\ bsz c = 4 /\ length iv = bsz c /\
  ~ chunk_invariant (cfbk_call c 2 false) iv.
Proof.
  exists (toyn 4), [1; 7; 30; 9]%Z. split; [apply toyn_len_ok; lia|]. split; [reflexivity|]. split; [reflexivity|]. intro H.
  destruct (H [([0;0;0], [0;0;0])]%Z [([0],[0]); ([0;0],[0;0])]%Z) as (s1 & s2 & o1 & o2 & E1 & E2 & E);
    try (repeat constructor; unfold scall_ok; cbn; lia); try reflexivity.
  vm_compute in E1, E2. injection E1 as _ <-. injection E2 as _ <-. discriminate.
Qed.
Print Assumptions C11_cfb16_chunk_refuted.

(** C12: round trips. *)
Theorem C12_cfb_roundtrip : forall c iv, len_ok c -> length iv = bsz c ->
  stream_roundtrip (cfb_call c false) (cfb_call c true) (cfb_new c iv) (cfb_new c iv).
Proof. intros. eapply fstream_roundtrip; now apply C34_cfb_computes. Qed.
Print Assumptions C12_cfb_roundtrip.
Theorem C12_cfb8_roundtrip : forall c iv, len_ok c -> length iv = bsz c ->
  stream_roundtrip (cfb8_call c false) (cfb8_call c true) iv iv.
Proof. intros. eapply fstream_roundtrip; now apply C34_cfb8_computes. Qed.
Print Assumptions C12_cfb8_roundtrip.
Theorem C12_cfb1_roundtrip : forall c iv ip1 ip2 calls, 0 < bsz c -> isblock (bsz c) iv ->
  Forall (bcall_ok ip1) calls ->
  exists se outs, run_calls (cfb1_call c ip1 false) iv calls = Ok (se, outs) /\
    length (concat outs) = length (concat (map snd calls)) /\
    forall calls2, Forall (bcall_ok ip2) calls2 -> concat (map snd calls2) = concat outs ->
    exists sd ps, run_calls (cfb1_call c ip2 true) iv calls2 = Ok (sd, ps) /\
      concat ps = concat (map snd calls).
Proof.
  intros c iv ip1 ip2 calls Hp Hiv H1.
  destruct (@C34_cfb1_computes c iv ip1 false Hp Hiv calls H1) as (s1 & o1 & E1 & L1 & B1 & O1).
  exists s1, o1. split; [auto|]. split.
  { apply (f_equal (@length bool)) in O1. rewrite fb_bits_length, !bits_length in O1. lia. }
  intros c2 H2 E.
  destruct (@C34_cfb1_computes c iv ip2 true Hp Hiv c2 H2) as (s2 & o2 & E2 & _ & B2 & O2).
  exists s2, o2. split; [auto|].
  apply bits_inj; [now apply bytes_ok_concat| |].
  - apply bytes_ok_concat. clear -H1. induction H1 as [|x l (_ & _ & Hx & _) H IH]; constructor; auto.
  - now rewrite O2, E, O1, fb_bits_inverse.
Qed.
Print Assumptions C12_cfb1_roundtrip.
Theorem C12_ncfb_roundtrip : forall c iv, len_ok c -> length iv = bsz c ->
  stream_roundtrip_same (ncfb_call c false) (ncfb_call c true) iv iv.
Proof.
  intros c iv HL Hiv.
  apply sback_run with (step_e := ncfb_step c false) (step_d := ncfb_step c true) (k := bsz c)
    (good := fun r => length r = bsz c); auto.
  - apply HL.
  - intros. now apply ncfb_back.
  - intros st [dst src]. unfold ncfb_call, stream_call. cbn [fst snd]. now rewrite ncfb_loop_sloop.
  - intros st [dst src]. unfold ncfb_call, stream_call. cbn [fst snd]. now rewrite ncfb_loop_sloop.
Qed.
Print Assumptions C12_ncfb_roundtrip.
(** CFB16 (k = 2), CFB32 (4), CFB64 (8): any cipher whose blocks hold a segment. *)
Theorem C12_cfb16_32_64_roundtrip : forall c iv k, len_ok c -> length iv = bsz c -> 0 < k <= bsz c ->
  stream_roundtrip_same (cfbk_call c k false) (cfbk_call c k true) iv iv.
Proof.
  intros c iv k HL Hiv Hk.
  apply sback_run with (step_e := cfbk_step c false) (step_d := cfbk_step c true) (k := k)
    (good := fun r => length r = bsz c); auto; try lia.
  - intros. apply cfbk_back with (k := k); auto; lia.
  - intros st [dst src]. unfold cfbk_call, stream_call. cbn [fst snd]. now rewrite cfbk_loop_sloop.
  - intros st [dst src]. unfold cfbk_call, stream_call. cbn [fst snd]. now rewrite cfbk_loop_sloop.
Qed.
Print Assumptions C12_cfb16_32_64_roundtrip.
(** G3413CFB: any two segment-aligned ways of cutting; the encrypter may work in place. *)
Theorem C12_g3413cfb_roundtrip : forall c s iv ip calls last, len_ok c -> 0 < s <= bsz c ->
  length iv = 2 * bsz c -> Forall scall_ok (calls ++ [last]) ->
  Forall (fun x => length (snd x) mod s = 0) calls ->
  exists st se outs, g3413cfb_new c s iv = Some st /\
    run_calls (g3413cfb_call c ip false s) st (calls ++ [last]) = Ok (se, outs) /\
    length (concat outs) = length (concat (map snd (calls ++ [last]))) /\
    forall calls2 last2, Forall scall_ok (calls2 ++ [last2]) ->
    Forall (fun x => length (snd x) mod s = 0) calls2 ->
    concat (map snd (calls2 ++ [last2])) = concat outs ->
    exists sd ps, run_calls (g3413cfb_call c false true s) st (calls2 ++ [last2]) = Ok (sd, ps) /\
      concat ps = concat (map snd (calls ++ [last])).
Proof.
  intros c s iv ip calls last HL Hs Hiv Hc Ha.
  destruct (@C34_g3413cfb_computes c s iv ip false HL Hs Hiv (andb_false_r ip)) as (st & En & He).
  destruct (@C34_g3413cfb_computes c s iv false true HL Hs Hiv eq_refl) as (st' & En' & Hd).
  assert (st' = st) by congruence. subst st'.
  destruct (He calls last Hc Ha) as (se & outs & E & _ & Eo).
  exists st, se, outs. split; [auto|]. split; [auto|]. split; [now rewrite Eo, fb_length|].
  intros c2 l2 Hc2 Ha2 E2. destruct (Hd c2 l2 Hc2 Ha2) as (sd & ps & E' & _ & Eo').
  exists sd, ps. split; [auto|]. rewrite Eo', E2, Eo. apply fb_inverse.
Qed.
Print Assumptions C12_g3413cfb_roundtrip.
Theorem C12_gcfb_roundtrip : forall mk key iv calls, family mk -> length key = 32 -> length iv = 8 ->
  Forall scall_ok calls -> whole_blocks 8 calls ->
  exists st se outs, gcfb_new mk key iv = Some st /\
    run_calls (gcfb_call mk 8 false) st calls = Ok (se, outs) /\
    length (concat outs) = length (concat (map snd calls)) /\
    forall calls2, Forall scall_ok calls2 -> whole_blocks 8 calls2 ->
    concat (map snd calls2) = concat outs ->
    exists sd ps, run_calls (gcfb_call mk 8 true) st calls2 = Ok (sd, ps) /\
      concat ps = concat (map snd calls).
Proof.
  intros mk key iv calls HM Hk Hiv Hc Hw.
  destruct (@C34_gcfb_computes mk key iv false HM Hk Hiv) as (st & En & He).
  destruct (@C34_gcfb_computes mk key iv true HM Hk Hiv) as (st' & En' & Hd).
  assert (st' = st) by congruence. subst st'.
  destruct (He calls Hc Hw) as (se & outs & E & _ & Eo).
  exists st, se, outs. split; [auto|]. split; [auto|]. split; [now rewrite Eo, fb_length|].
  intros c2 Hc2 Hw2 E2. destruct (Hd c2 Hc2 Hw2) as (sd & ps & E' & _ & Eo').
  exists sd, ps. split; [auto|]. rewrite Eo', E2, Eo. apply fb_inverse.
Qed.
Print Assumptions C12_gcfb_roundtrip.

(** G3413CFB decryption in place shifts the plaintext, not the ciphertext, into
    the register: the round trip fails from the third segment on. *)
Theorem C12_g3413cfb_inplace_refuted : exists c s iv st se ct,
  len_ok c /\ 0 < s <= bsz c /\ length iv = 2 * bsz c /\ g3413cfb_new c s iv = Some st /\
  g3413cfb_call c true false s st (repeat 0 4, repeat 0 4)%Z = Ok (se, ct) /\
  (exists sd, g3413cfb_call c false true s st (repeat 0%Z 4, ct) = Ok (sd, repeat 0%Z 4)) /\
  (exists sd p, g3413cfb_call c true true s st (ct, ct) = Ok (sd, p) /\ p <> repeat 0%Z 4).
Proof.
  exists (toyn 1), 1, [1; 2]%Z. eexists _, _, _. split; [apply toyn_len_ok; lia|]. split; [cbn; lia|].
  split; [reflexivity|]. split; [reflexivity|]. split; [vm_compute; reflexivity|].
  split; [eexists; vm_compute; reflexivity|]. eexists _, _. split; [vm_compute; reflexivity|discriminate].
Qed.
Print Assumptions C12_g3413cfb_inplace_refuted.

(** C35: further guards and divergences. *)
Theorem C35_feedback_guards : forall c k s ip d dst src, length dst < length src ->
  (forall st, cfb_call c d st (dst, src) = Panic) /\ (forall st, cfb8_call c d st (dst, src) = Panic) /\
  (forall st, cfb1_call c ip d st (dst, src) = Panic) /\ (forall st, ocfb_call c d st (dst, src) = Panic) /\
  (forall st, cfbk_call c k d st (dst, src) = Panic) /\ (forall st, ncfb_call c d st (dst, src) = Panic) /\
  (forall st, g3413cfb_call c ip d s st (dst, src) = Panic) /\
  (forall mk st, gcfb_call mk k d st (dst, src) = Panic).
Proof.
  intros c k s ip d dst src H.
  assert (E : length dst <? length src = true) by (now apply Nat.ltb_lt).
  repeat split; intros; unfold cfb_call, cfb8_call, cfb1_call, ocfb_call, cfbk_call, ncfb_call,
    g3413cfb_call, gcfb_call, byte_call, stream_call; cbn [fst snd]; now rewrite E.
Qed.
Print Assumptions C35_feedback_guards.
(** A segment longer than the block panics. *)
Theorem C35_cfbk_short_block_panics : forall c k d iv dst src, length iv < k -> k <= length src ->
  length src <= length dst -> cfbk_call c k d iv (dst, src) = Panic.
Proof.
  intros c k d iv dst src H1 H2 H3. unfold cfbk_call, stream_call. cbn [fst snd].
  destruct (Nat.ltb_spec (length dst) (length src)); [lia|].
  rewrite chunks_cons by (try lia; intro; subst; cbn in H2; lia). cbn [cfbk_loop].
  rewrite firstn_length, Nat.min_l by lia. destruct (Nat.ltb_spec (length iv) k); [reflexivity|lia].
Qed.
Print Assumptions C35_cfbk_short_block_panics.
(** G3413CFB: after a call that ends inside a segment the next one panics, unless
    the segment is at most half a block. *)
Theorem C35_g3413cfb_partial_then_panics : forall c s u d ip next out dst src,
  0 < u < s -> bsz c < u + s -> src <> [] -> length src <= length dst ->
  g3413cfb_call c ip d s {| gnext := next; gout := out; gused := u |} (dst, src) = Panic.
Proof.
  intros c s u d ip next out dst src Hu Hb Hs Hl. unfold g3413cfb_call. cbn [fst snd].
  destruct (Nat.ltb_spec (length dst) (length src)); [lia|].
  destruct (length src) as [|f] eqn:El; [destruct src; [congruence|discriminate]|].
  rewrite g3413cfb_loop_S by auto. cbv zeta. cbn [gused].
  destruct (Nat.eqb_spec u s); [lia|]. cbn [gused].
  destruct (Nat.ltb_spec (bsz c) (u + s)); [reflexivity|lia].
Qed.
Print Assumptions C35_g3413cfb_partial_then_panics.
(** A bit size below 8 gives s = 0 and the loop never advances. *)
Theorem C35_g3413cfb_zero_segment_diverges : forall c iv st ip d fuel dst src,
  len_ok c -> g3413cfb_new c 0 iv = Some st -> src <> [] ->
  g3413cfb_loop c fuel ip d 0 st dst src = Err.
Proof.
  intros c iv st ip d fuel dst src HL Hn Hs.
  assert (Q : forall fuel st dst, length (gnext st) = 2 * bsz c -> gused st = 0 ->
    g3413cfb_loop c fuel ip d 0 st dst src = Err).
  { clear -HL Hs. induction fuel as [|f IH]; intros st dst Ln Hu; [destruct src; [congruence|reflexivity]|].
    rewrite g3413cfb_loop_S by auto. cbv zeta. rewrite Hu. cbn [Nat.eqb gused gnext gout].
    rewrite Ln, Nat.add_0_r, Nat.sub_0_r. cbn [Nat.add].
    assert (B : (bsz c <? 0) || (2 * bsz c <? 0) || (2 * bsz c <? 2 * bsz c) = false)
      by (rewrite Nat.ltb_irrefl; reflexivity).
    rewrite B.
    assert (Eo : xorl src (slice 0 0 (enc c (firstn (bsz c) (gnext st)))) = []).
    { unfold slice. rewrite firstn_O. now destruct src. }
    rewrite Eo. cbn [length app]. rewrite !skipn_O.
    assert (Es : (if ip then src else src) = src) by (now destruct ip). rewrite Es.
    rewrite IH; [reflexivity| |reflexivity].
    cbn [gnext]. rewrite copy_at_length. unfold gocopy. rewrite app_length, firstn_length, !skipn_length. lia. }
  unfold g3413cfb_new in Hn. destruct (Nat.eqb_spec (length iv) (2 * bsz c)); [|discriminate].
  cbn [negb] in Hn. destruct (bsz c <? 0); [discriminate|]. injection Hn as <-. now apply Q.
Qed.
Print Assumptions C35_g3413cfb_zero_segment_diverges.
(** GCFB refuses (by panicking) any call that is not whole blocks. *)
Theorem C35_gcfb_partial_block_panics : forall mk d src st dst,
  length src mod 8 <> 0 -> length src <= length dst -> gcfb_call mk 8 d st (dst, src) = Panic.
Proof.
  intros mk d src st dst Hm Hl. unfold gcfb_call, stream_call. cbn [fst snd].
  destruct (Nat.ltb_spec (length dst) (length src)); [lia|]. clear Hl H dst. revert st.
  remember (length src) as n eqn:En. assert (Hn : length src <= n) by lia.
  assert (Hm' : length src mod 8 <> 0) by (now rewrite <- En). clear En Hm. revert src Hn Hm'.
  induction n as [|n IH]; intros src Hn Hm st.
  - destruct src; [|cbn in Hn; lia]. cbn in Hm. lia.
  - destruct src as [|b src'] eqn:Es; [cbn in Hm; lia|]. rewrite <- Es in *.
    rewrite chunks_cons by (try lia; subst; discriminate). cbn [gcfb_loop].
    rewrite firstn_length. destruct (Nat.ltb_spec (Nat.min 8 (length src)) 8); [reflexivity|].
    destruct (gcfb_block mk d st (firstn 8 src)) as [st1 o].
    rewrite IH; [reflexivity|rewrite skipn_length; lia|].
    rewrite skipn_length. intro Hz. apply Hm.
    replace (length src) with (length src - 8 + 1 * 8) by lia. rewrite Nat.mod_add by lia. exact Hz.
Qed.
Print Assumptions C35_gcfb_partial_block_panics.

(** C37: CFB16/32/64 keep a correct shift register only for blocks of exactly two
    segments. When a block is one segment (CFB64 on 8-byte blocks, CFB32 on 4-byte
    ones) the register never moves: for every cipher, IV and history of whole-block
    calls every block is masked with the same E(IV). *)
Theorem C37_cfbk_keystream_reuse_refuted : forall c iv k d calls, len_ok c -> length iv = bsz c -> k = bsz c ->
  Forall scall_ok calls -> whole_blocks k calls ->
  exists st' outs, run_calls (cfbk_call c k d) iv calls = Ok (st', outs) /\ st' = iv /\
    concat outs = xor_stream (fun i => nth (i mod k) (enc c iv) 0%Z) 0 (concat (map snd calls)).
Proof.
  intros c iv k d calls HL Hiv Hk Hc Hw. assert (Hp : 0 < k) by (destruct HL; lia).
  set (ks := fun i => nth (i mod k) (enc c iv) 0%Z).
  assert (Le : length (enc c iv) = k) by (rewrite (proj2 HL); auto).
  assert (One : forall n src q, length src <= n -> length src mod k = 0 ->
    cfbk_loop c d iv (chunks k src) = Ok (iv, xor_stream ks (q * k) src)).
  { induction n as [|n IH]; intros src q Hn Hm.
    - destruct src; [reflexivity|cbn in Hn; lia].
    - destruct src as [|b src'] eqn:Es; [reflexivity|]. rewrite <- Es in *.
      assert (Hge : k <= length src).
      { destruct (Nat.le_gt_cases k (length src)); [auto|].
        rewrite Nat.mod_small in Hm by lia. subst src; discriminate. }
      rewrite chunks_cons by (try lia; subst; discriminate).
      rewrite cfbk_loop_sloop. cbn [sloop].
      rewrite (@cfbk_stuck c d k iv (firstn k src)) by (auto; try lia; rewrite firstn_length; lia).
      cbn [rbind]. rewrite <- cfbk_loop_sloop, (IH (skipn k src) (S q)).
      + cbn [rbind]. do 2 f_equal. rewrite <- (firstn_skipn k src) at 3.
        rewrite (@xor_stream_app _ (firstn k src)). f_equal.
        * symmetry. apply xor_stream_block; [|rewrite firstn_length; lia].
          intros i Hi. unfold ks. rewrite firstn_length in Hi.
          rewrite Nat.add_comm, Nat.mod_add, Nat.mod_small by lia. reflexivity.
        * f_equal. rewrite firstn_length. lia.
      + rewrite skipn_length. lia.
      + rewrite skipn_length. replace (length src) with (length src - k + 1 * k) in Hm by lia.
        now rewrite Nat.mod_add in Hm by lia. }
  assert (Q : forall calls q, Forall scall_ok calls -> whole_blocks k calls ->
    exists outs, run_calls (cfbk_call c k d) iv calls = Ok (iv, outs) /\
      concat outs = xor_stream ks (q * k) (concat (map snd calls))).
  { clear calls Hc Hw. induction calls as [|[dst src] calls IH]; intros q Hc Hw; [exists []; auto|].
    apply Forall_cons_iff in Hc as [Hx Hc]. apply Forall_cons_iff in Hw as [Hwx Hw].
    unfold scall_ok in Hx. cbn [fst snd] in *.
    destruct (IH (q + length src / k) Hc Hw) as (outs & E & Eo).
    exists (xor_stream ks (q * k) src :: outs). cbn [run_calls]. unfold cfbk_call at 1, stream_call. cbn [fst snd].
    destruct (Nat.ltb_spec (length dst) (length src)); [lia|].
    rewrite (One (length src) src q) by auto. cbn [rbind]. rewrite E. cbn [rbind]. split; [reflexivity|].
    cbn [map concat snd]. rewrite Eo, xor_stream_app. f_equal. f_equal.
    rewrite Nat.mul_add_distr_r. f_equal. pose proof (Nat.div_mod (length src) k ltac:(lia)). lia. }
  destruct (Q calls 0 Hc Hw) as (outs & E & Eo). exists iv, outs. auto.
Qed.
Print Assumptions C37_cfbk_keystream_reuse_refuted.

(** For any other block size the second segment already differs from standard CFB:
    here CFB16 on 8-byte blocks. *)
Theorem C37_cfb16_nonstandard_refuted : exists c iv st out,
  len_ok c /\ bsz c = 8 /\ length iv = 8 /\
  cfbk_call c 2 false iv (repeat 0 6, repeat 0 6)%Z = Ok (st, out) /\
  out <> fb false (cfb_K (enc c) 8 8 2) iv (repeat 0%Z 6).
Proof.
  exists (toyn 8), [1;2;3;4;5;6;7;8]%Z. eexists _, _. split; [apply toyn_len_ok; lia|].
  split; [reflexivity|]. split; [reflexivity|]. split; [vm_compute; reflexivity|]. vm_compute. discriminate.
Qed.
Print Assumptions C37_cfb16_nonstandard_refuted.

(** C39: key meshing restarts from the IV of the previous meshing, not from the
    current register as RFC 4357 2.3.2 says. *)
Theorem C39_gcfb_rfc4357_refuted : exists mk key iv st,
  family mk /\ length key = 32 /\ length iv = 8 /\ gcfb_new mk key iv = Some st /\
  exists st' out, gcfb_call mk 8 false st (repeat 0%Z 1032, repeat 0%Z 1032) = Ok (st', out) /\
    out <> fb false (gcfb_K mk gcfbC true key) iv (repeat 0%Z 1032).
Proof.
  exists (fun _ => toyn 8), (repeat 0%Z 32), (repeat 7%Z 8). eexists.
  split; [intros k _; split; [reflexivity|apply toyn_len_ok; lia]|].
  split; [reflexivity|]. split; [reflexivity|]. split; [reflexivity|].
  eexists _, _. split; [vm_compute; reflexivity|].
  intro E. apply bytes_eqb_eq in E. revert E. vm_compute. discriminate.
Qed.
Print Assumptions C39_gcfb_rfc4357_refuted.
(** Up to the first meshing both agree. *)
Theorem C39_gcfb_before_meshing : forall mk key iv d msg, length iv = 8 -> length msg <= 1024 ->
  fb d (gcfb_K mk gcfbC false key) iv msg = fb d (gcfb_K mk gcfbC true key) iv msg.
Proof.
  intros mk key iv d msg Hiv Hm.
  assert (Q : forall xs h, length h + length xs <= 1032 -> 8 <= length h ->
    fb d (gcfb_K mk gcfbC false key) h xs = fb d (gcfb_K mk gcfbC true key) h xs).
  { induction xs as [|x xs IH]; intros h Hh H8; [reflexivity|]. cbn [fb]. cbn [length] in Hh.
    assert (EK : gcfb_K mk gcfbC false key h = gcfb_K mk gcfbC true key h).
    { unfold gcfb_K. assert (Et : (length h - 8) / 8 / 128 = 0).
      { rewrite Nat.div_div by lia. apply Nat.div_small. lia. }
      rewrite Et. reflexivity. }
    rewrite EK. f_equal. apply IH; rewrite app_length; cbn [length]; lia. }
  apply Q; lia.
Qed.
Print Assumptions C39_gcfb_before_meshing.

(** Non-vacuity. *)
Example C34_cfb_instance : len_ok (toyn 4) /\
  match run_calls (cfb_call (toyn 4) false) (cfb_new (toyn 4) [1;2;3;4]%Z)
          [([0;0;0], [10;20;30]); ([0;0;0;0], [40;50;60;70])]%Z with
  | Ok (_, outs) => concat outs = fb false (cfb_K (enc (toyn 4)) 4 4 4) [1;2;3;4]%Z [10;20;30;40;50;60;70]%Z
  | _ => False end.
Proof. split; [apply toyn_len_ok; lia|]. vm_compute. reflexivity. Qed.
Example C34_cfb1_instance : isblock (bsz (toyn 2)) [1;2]%Z /\
  Forall (bcall_ok true) [([10;20;30], [10;20;30])]%Z /\
  match run_calls (cfb1_call (toyn 2) true false) [1;2]%Z [([10;20;30], [10;20;30])]%Z with
  | Ok (_, outs) => bits (concat outs) = fb_bits false (cfb1_K (enc (toyn 2)) 2) (bits [1;2]%Z) (bits [10;20;30]%Z)
  | _ => False end.
Proof.
  split; [split; [reflexivity|repeat constructor; unfold is_byte; lia]|].
  split; [|vm_compute; reflexivity].
  constructor; [|constructor]. split; [unfold scall_ok; cbn; lia|].
  split; [repeat constructor; unfold is_byte; lia|]. split; [repeat constructor; unfold is_byte; lia|auto].
Qed.
Example C34_g3413cfb_instance : 0 < 3 <= bsz (toyn 4) /\
  match g3413cfb_new (toyn 4) 3 [1;2;3;4;5;6;7;8]%Z with
  | Some st =>
    match run_calls (g3413cfb_call (toyn 4) false false 3) st [(repeat 0 6, [10;20;30;40;50;60]); ([0;0], [7;8])]%Z with
    | Ok (_, outs) => concat outs =
        fb false (cfb_K (enc (toyn 4)) 4 8 3) [1;2;3;4;5;6;7;8]%Z [10;20;30;40;50;60;7;8]%Z
    | _ => False end
  | None => False end.
Proof. split; [cbn; lia|]. vm_compute. reflexivity. Qed.
Example C12_ocfb_instance :
  match ocfb_enc_new (toyn 4) [9;8;7;6]%Z true with
  | Ok (se, p) => match ocfb_dec_new (toyn 4) p true with
     | Ok (sd, q) => q = [9;8;7;6;7;6]%Z | _ => False end
  | _ => False end.
Proof. vm_compute. reflexivity. Qed.
Example C34_gcfb_instance : family (fun k => toyn 8) /\
  whole_blocks 8 [(repeat 0%Z 16, repeat 5%Z 16)].
Proof.
  split; [intros k _; split; [reflexivity|apply toyn_len_ok; lia]|]. constructor; [reflexivity|constructor].
Qed.
