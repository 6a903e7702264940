(** C18: SIV (mode/siv). *)
From Verif Require Import Base BlockModeModel StreamSpec StreamProofs AeadSpec HashSpec ToolBytesModel ToolBytesSpec ToolBytesProofs
  MacModel MacSpec MacProofs MacProps OffsetSpec PmacModel PmacSpec PmacProofs PmacProps SivSpec SivModel SivProofs.
Set Implicit Arguments. Unset Strict Implicit.
Local Open Scope nat_scope.

(** A call whose arguments are byte strings. *)
Definition siv_bytes (k : siv_call) : Prop :=
  match k with CSeal _ m data | COpen _ m data => bytes_ok m /\ Forall bytes_ok data end.
(** A call none of whose strings is longer than b bytes. *)
Definition siv_upto (b : nat) (k : siv_call) : Prop :=
  match k with CSeal _ m data | COpen _ m data => length m <= b /\ Forall (fun a => length a <= b) data end.

Lemma ge8_cmac c d : siv_new_cmac c = Ok d -> 8 <= bsz c.
Proof.
  intro H. destruct (proj1 (C20_params c _) (ex_intro _ d H)) as [_ I]. cbn [In] in I.
  repeat destruct I as [<-|I]; try lia; contradiction.
Qed.
Lemma ge8_pmac c d : siv_new_pmac c = Ok d -> 8 <= bsz c.
Proof.
  intro H. destruct (proj1 (C21_params c _) (ex_intro _ d H)) as [_ I]. cbn [In] in I.
  repeat destruct I as [<-|I]; try lia; contradiction.
Qed.
Lemma Forall_impl_True {A} (P : A -> Prop) l : (forall a, P a) -> Forall P l.
Proof. intro H. induction l; constructor; auto. Qed.

(** Every call of every history of Seal and Open calls on one CMAC-SIV object gives the correct
    answer, up to the polynomial used inside CMAC (see [used_poly] and C20). *)
Theorem C18_cmac_history : forall mac c2 d ks, lawful mac -> lawful c2 -> bsz c2 = bsz mac ->
  siv_new_cmac mac = Ok d -> Forall siv_bytes ks ->
  Forall2 (siv_answer 135 (cmac_full (bsz mac) (used_poly (bsz mac)) (enc mac)) c2) ks (siv_run (o := cmac_obj mac) c2 d ks).
Proof.
  intros mac c2 d ks HL H2 Hb Hd Hk. pose proof (cmac_law HL Hd) as ML.
  apply (run_ok (st0 := d : mo_st (cmac_obj mac)) (lim := fun _ => True) ML H2); auto; [apply (ge8_cmac Hd)|apply (ml_reset ML)|].
  eapply Forall_impl; [|exact Hk]. intros [dst m a|dst m a] [H H']; cbn; repeat split; auto; now apply Forall_impl_True.
Qed.
Print Assumptions C18_cmac_history.

(** Over a 128-bit cipher this is RFC 5297: MAC is the CMAC of NIST SP 800-38B (polynomial 0x87). *)
Theorem C18_rfc5297 : forall mac c2 d ks, lawful mac -> lawful c2 -> bsz c2 = 16 -> bsz mac = 16 ->
  siv_new_cmac mac = Ok d -> Forall siv_bytes ks ->
  Forall2 (siv_answer 135 (cmac_full 16 135 (enc mac)) c2) ks (siv_run (o := cmac_obj mac) c2 d ks).
Proof.
  intros mac c2 d ks HL H2 Hb Hb' Hd Hk. pose proof (C18_cmac_history HL H2 ltac:(lia) Hd Hk) as H. rewrite Hb' in H. exact H.
Qed.
Print Assumptions C18_rfc5297.

(** The same for PMAC-SIV, as long as no string is longer than n*2^(2n-1) bytes (32 GiB for a
    128-bit cipher, 256 KiB for a 64-bit one; beyond that hash/pmac panics, C21). *)
Theorem C18_pmac_history : forall mac c2 d h ks, lawful mac -> lawful c2 -> bsz c2 = bsz mac ->
  siv_new_pmac mac = Ok d -> is_half (bsz mac) 135 (enc mac (repeat 0%Z (bsz mac))) h ->
  Forall siv_bytes ks -> Forall (siv_upto (bsz mac * 2 ^ (2 * bsz mac - 1))) ks ->
  Forall2 (siv_answer 135 (pmac_full (bsz mac) 135 (enc mac) h) c2) ks (siv_run (o := pmac_obj mac) c2 d ks).
Proof.
  intros mac c2 d h ks HL H2 Hb Hd Hh Hk Hu. pose proof (pmac_law HL Hd Hh) as ML.
  apply (run_ok (st0 := d : mo_st (pmac_obj mac)) (lim := pmac_lim (bsz mac)) ML H2); auto.
  - apply (ge8_pmac Hd).
  - unfold pmac_lim. cbn [pmac_obj mo_bs]. rewrite <- (Nat.mul_1_r (bsz mac)) at 1. apply Nat.mul_le_mono_l.
    change 1 with (2 ^ 0). apply Nat.pow_le_mono_r; lia.
  - intros a b Hab Hl. unfold pmac_lim in *. lia.
  - apply (ml_reset ML).
  - rewrite Forall_forall in *. intros k Ik. specialize (Hk k Ik). specialize (Hu k Ik).
    destruct k as [dst m a|dst m a]; destruct Hk as [H H'], Hu as [H1 H1']; cbn; repeat split; auto.
Qed.
Print Assumptions C18_pmac_history.

Section wrapper.
  Variables (o : macobj) (st0 : mo_st o) (f : bytes -> bytes) (lim : nat -> Prop) (c2 : cipher).
  Hypothesis ML : mac_law st0 f lim.
  Hypothesis H2 : lawful c2.
  Hypothesis Hn : bsz c2 = mo_bs o.
  Hypothesis H8 : 8 <= mo_bs o.
  Hypothesis Hlim : lim (mo_bs o).
  Hypothesis Hmono : forall a b, a <= b -> lim b -> lim a.
  Lemma state_ok : forall ks st, mo_reset st = st0 -> Forall (call_ok lim) ks -> mo_reset (siv_state c2 st ks) = st0.
  Proof.
    induction ks as [|k ks IH]; intros st Rs Hk; [exact Rs|]. inversion_clear Hk as [|? ? H1 H3].
    apply IH; auto. now apply (step_ok ML H2 Hn H8 Hlim Hmono).
  Qed.
  Lemma items_len nonce data : length (siv_items nonce data) <= 126.
  Proof. destruct data; cbn; lia. Qed.
  Lemma aead_ok st nsz dst nonce x data : mo_reset st = st0 -> call_ok lim (CSeal dst x (siv_items nonce data)) ->
    ((0 <= nsz /\ Z.of_nat (length nonce) <> nsz)%Z -> snd (aead_seal c2 nsz st dst nonce x data) = Panic /\ snd (aead_open c2 nsz st dst nonce x data) = Panic) /\
    ((nsz < 0 \/ Z.of_nat (length nonce) = nsz)%Z ->
       snd (aead_seal c2 nsz st dst nonce x data) = Ok (dst ++ siv_spec 135 f c2 (siv_items nonce data) x) /\
       siv_answer 135 f c2 (COpen dst x (siv_items nonce data)) (snd (aead_open c2 nsz st dst nonce x data))).
  Proof.
    intros Rs Hk. unfold aead_seal, aead_open. split.
    - intros [A B]. destruct (Z.eqb_spec (Z.of_nat (length nonce)) nsz); [contradiction|]. destruct (Z.leb_spec 0 nsz); [|lia]. split; reflexivity.
    - intro A. assert (E : (negb (Z.of_nat (length nonce) =? nsz)%Z && (0 <=? nsz)%Z)%bool = false).
      { destruct (Z.eqb_spec (Z.of_nat (length nonce)) nsz), (Z.leb_spec 0 nsz); try reflexivity. lia. }
      rewrite E. clear E A.
      destruct (step_ok ML H2 Hn H8 Hlim Hmono Rs Hk) as [S _]. cbn [siv_answer siv_step] in S.
      pose proof (items_len nonce data) as Li. apply Nat.leb_le in Li. rewrite Li in S.
      assert (Hk' : call_ok lim (COpen dst x (siv_items nonce data))) by exact Hk.
      destruct (step_ok ML H2 Hn H8 Hlim Hmono Rs Hk') as [S' _]. cbn [siv_step] in S'.
      destruct data as [a|]; cbn [siv_items] in *; (split; [|exact S']).
      + destruct (siv_seal c2 st dst x [a; nonce]) as [s r]. cbn [snd] in *. now rewrite S.
      + destruct (siv_seal c2 st dst x [nonce]) as [s r]. cbn [snd] in *. now rewrite S.
  Qed.
End wrapper.

(** The cipher.AEAD objects of siv.NewCMAC (here) and siv.NewPMAC (next), after any history of
    calls: a nonce of another length than the one asked for panics, unless that is negative;
    otherwise Seal and Open are SIV with the associated strings [siv_items]. *)
Theorem C18_aead : forall mac c2 d ks nsz dst nonce x data, lawful mac -> lawful c2 -> bsz c2 = bsz mac ->
  siv_new_cmac mac = Ok d -> Forall siv_bytes ks -> siv_bytes (CSeal dst x (siv_items nonce data)) ->
  let st := siv_state (o := cmac_obj mac) c2 d ks in let f := cmac_full (bsz mac) (used_poly (bsz mac)) (enc mac) in
  ((0 <= nsz /\ Z.of_nat (length nonce) <> nsz)%Z ->
     snd (aead_seal (o := cmac_obj mac) c2 nsz st dst nonce x data) = Panic /\ snd (aead_open (o := cmac_obj mac) c2 nsz st dst nonce x data) = Panic) /\
  ((nsz < 0 \/ Z.of_nat (length nonce) = nsz)%Z ->
     snd (aead_seal (o := cmac_obj mac) c2 nsz st dst nonce x data) = Ok (dst ++ siv_spec 135 f c2 (siv_items nonce data) x) /\
     siv_answer 135 f c2 (COpen dst x (siv_items nonce data)) (snd (aead_open (o := cmac_obj mac) c2 nsz st dst nonce x data))).
Proof.
  intros mac c2 d ks nsz dst nonce x data HL H2 Hb Hd Hk Hx st f. pose proof (cmac_law HL Hd) as ML.
  assert (C : forall k, siv_bytes k -> call_ok (fun _ => True) k).
  { intros [? m a|? m a] [H H']; cbn; repeat split; auto; now apply Forall_impl_True. }
  apply (aead_ok (st0 := d : mo_st (cmac_obj mac)) (lim := fun _ => True) ML H2); auto; [apply (ge8_cmac Hd)|].
  apply (state_ok (st0 := d : mo_st (cmac_obj mac)) (lim := fun _ => True) ML H2); auto; [apply (ge8_cmac Hd)|apply (ml_reset ML)|].
  eapply Forall_impl; [|exact Hk]. exact C.
Qed.
Print Assumptions C18_aead.

Theorem C18_aead_pmac : forall mac c2 d h ks nsz dst nonce x data, lawful mac -> lawful c2 -> bsz c2 = bsz mac ->
  siv_new_pmac mac = Ok d -> is_half (bsz mac) 135 (enc mac (repeat 0%Z (bsz mac))) h ->
  Forall siv_bytes (CSeal dst x (siv_items nonce data) :: ks) ->
  Forall (siv_upto (bsz mac * 2 ^ (2 * bsz mac - 1))) (CSeal dst x (siv_items nonce data) :: ks) ->
  let st := siv_state (o := pmac_obj mac) c2 d ks in let f := pmac_full (bsz mac) 135 (enc mac) h in
  ((0 <= nsz /\ Z.of_nat (length nonce) <> nsz)%Z ->
     snd (aead_seal (o := pmac_obj mac) c2 nsz st dst nonce x data) = Panic /\ snd (aead_open (o := pmac_obj mac) c2 nsz st dst nonce x data) = Panic) /\
  ((nsz < 0 \/ Z.of_nat (length nonce) = nsz)%Z ->
     snd (aead_seal (o := pmac_obj mac) c2 nsz st dst nonce x data) = Ok (dst ++ siv_spec 135 f c2 (siv_items nonce data) x) /\
     siv_answer 135 f c2 (COpen dst x (siv_items nonce data)) (snd (aead_open (o := pmac_obj mac) c2 nsz st dst nonce x data))).
Proof.
  intros mac c2 d h ks nsz dst nonce x data HL H2 Hb Hd Hh Hk Hu st f. pose proof (pmac_law HL Hd Hh) as ML.
  assert (C : Forall (call_ok (pmac_lim (bsz mac))) (CSeal dst x (siv_items nonce data) :: ks)).
  { rewrite Forall_forall in *. intros k Ik. specialize (Hk k Ik). specialize (Hu k Ik).
    destruct k as [? m a|? m a]; destruct Hk as [H H'], Hu as [H1 H1']; cbn; repeat split; auto. }
  inversion_clear C as [|? ? C1 C2].
  assert (Hl : pmac_lim (bsz mac) (bsz mac)).
  { unfold pmac_lim. rewrite <- (Nat.mul_1_r (bsz mac)) at 1. apply Nat.mul_le_mono_l.
    change 1 with (2 ^ 0). apply Nat.pow_le_mono_r; lia. }
  assert (Hm : forall a b, a <= b -> pmac_lim (bsz mac) b -> pmac_lim (bsz mac) a) by (unfold pmac_lim; intros; lia).
  apply (aead_ok (st0 := d : mo_st (pmac_obj mac)) (lim := pmac_lim (bsz mac)) ML H2); auto; [apply (ge8_pmac Hd)|].
  apply (state_ok (st0 := d : mo_st (pmac_obj mac)) (lim := pmac_lim (bsz mac)) ML H2); auto; [apply (ge8_pmac Hd)|apply (ml_reset ML)].
Qed.
Print Assumptions C18_aead_pmac.

(** What Seal appended, Open takes back, after any history and with any other dst. *)
Theorem C18_round_trip : forall mac c2 d ks dst dst' pt data, lawful mac -> lawful c2 -> bsz c2 = bsz mac ->
  siv_new_cmac mac = Ok d -> Forall siv_bytes ks -> bytes_ok pt -> Forall bytes_ok data -> length data <= 126 ->
  let st := siv_state (o := cmac_obj mac) c2 d ks in
  exists c, snd (siv_seal (o := cmac_obj mac) c2 st dst pt data) = Ok (dst ++ c) /\ length c = length pt + bsz mac /\
            snd (siv_open (o := cmac_obj mac) c2 st dst' c data) = Ok (dst' ++ pt).
Proof.
  intros mac c2 d ks dst dst' pt data HL H2 Hb Hd Hk Hp Hda Hl st. pose proof (cmac_law HL Hd) as ML.
  assert (T : forall l : list bytes, Forall (fun _ => True) l) by (intro l; now apply Forall_impl_True).
  assert (C : forall k, siv_bytes k -> call_ok (fun _ => True) k) by (intros [? m a|? m a] [H H']; cbn; repeat split; auto).
  assert (Rs : mo_reset (m := cmac_obj mac) st = d).
  { apply (state_ok (st0 := d : mo_st (cmac_obj mac)) (lim := fun _ => True) ML H2); auto; [apply (ge8_cmac Hd)|apply (ml_reset ML)|].
    eapply Forall_impl; [|exact Hk]. exact C. }
  set (f := cmac_full (bsz mac) (used_poly (bsz mac)) (enc mac)) in *.
  set (c := siv_spec 135 f c2 data pt).
  assert (S : forall k, siv_bytes k -> siv_answer 135 f c2 k (snd (siv_step (o := cmac_obj mac) c2 st k))).
  { intros k Sk. apply (step_ok (st0 := d : mo_st (cmac_obj mac)) (lim := fun _ => True) ML H2); auto. apply (ge8_cmac Hd). }
  exists c. split; [|split].
  - specialize (S (CSeal dst pt data) (conj Hp Hda)). cbn [siv_answer siv_step] in S. apply Nat.leb_le in Hl. rewrite Hl in S. exact S.
  - unfold c, siv_spec. rewrite app_length, go_ctr_length by auto. rewrite Hb.
    destruct (@s2v_blk (cmac_obj mac) d f (fun _ => True) c2 ML Hb (ge8_cmac Hd) data pt Hda Hp) as [L _]. cbn [mo_bs cmac_obj] in L. lia.
  - pose proof (@s2v_blk (cmac_obj mac) d f (fun _ => True) c2 ML Hb (ge8_cmac Hd) data pt Hda Hp) as BV. cbn [mo_bs cmac_obj] in BV.
    assert (Oc : bytes_ok c).
    { unfold c, siv_spec. rewrite Hb. apply bytes_ok_app. split; [apply BV|now apply go_ctr_ok]. }
    pose proof (S (COpen dst' c data) (conj Oc Hda)) as A. cbn [siv_step] in A. unfold siv_answer in A.
    destruct (snd (siv_open (o := cmac_obj mac) c2 st dst' c data)) as [x| |] eqn:Ex.
    + destruct A as (_ & pt' & -> & E). f_equal. f_equal. unfold c, siv_spec in E. rewrite Hb in E.
      assert (Op' : bytes_ok pt').
      { unfold siv_open in Ex. cbn [mo_size cmac_obj] in Ex.
        destruct (126 <? length data); [discriminate|]. cbn zeta in Ex. 
        destruct (length c <? cm_tag st); [discriminate|].
        destruct (rbind (zero_iv_bits (firstn (cm_tag st) c)) (fun q => new_ctr_xor c2 q (skipn (cm_tag st) c))) as [out| |] eqn:Eo; [|discriminate|discriminate].
        destruct (s2v (o := cmac_obj mac) st data out) as [[st' e]| |]; [|discriminate|discriminate]. cbn [snd] in Ex.
        destruct (bytes_eqb (firstn (cm_tag st) c) e); [|discriminate]. injection Ex as Ex. apply app_inv_head in Ex. subst out.
        destruct (zero_iv_bits (firstn (cm_tag st) c)) as [q| |]; cbn [rbind] in Eo; [|discriminate|discriminate].
        unfold new_ctr_xor in Eo. destruct (length q =? bsz c2); [|discriminate]. injection Eo as <-. apply go_ctr_ok; auto. now apply bytes_ok_skipn. }
      pose proof (@s2v_blk (cmac_obj mac) d f (fun _ => True) c2 ML Hb (ge8_cmac Hd) data pt' Hda Op') as BV'. cbn [mo_bs cmac_obj] in BV'.
      assert (EV : s2v_spec (bsz mac) 135 f data pt = s2v_spec (bsz mac) 135 f data pt').
      { apply (f_equal (firstn (bsz mac))) in E. destruct BV, BV'. rewrite !firstn_app_exact in E by auto. exact E. }
      rewrite <- EV in E. apply app_inv_head in E. apply (f_equal (go_ctr c2 (siv_q (s2v_spec (bsz mac) 135 f data pt)))) in E.
      rewrite !go_ctr_inv in E by auto. now symmetry.
    + exfalso. destruct A as [A|A]; [lia|]. now apply (A pt Hp).
    + contradiction.
Qed.
Print Assumptions C18_round_trip.

(** The comment at cipher.go:84 allows plaintext and dst to alias exactly; then Seal panics for
    every plaintext longer than a block, and for shorter ones encrypts its own IV instead of the
    plaintext. *)
Theorem C18_in_place_refuted : forall mac c2 d ks pt data, lawful mac -> lawful c2 -> bsz c2 = bsz mac ->
  siv_new_cmac mac = Ok d -> Forall siv_bytes ks -> bytes_ok pt -> Forall bytes_ok data -> length data <= 126 ->
  let V := s2v_spec (bsz mac) 135 (cmac_full (bsz mac) (used_poly (bsz mac)) (enc mac)) data pt in
  snd (siv_seal_inplace (o := cmac_obj mac) c2 (siv_state (o := cmac_obj mac) c2 d ks) pt data) =
  if bsz mac <? length pt then Panic else Ok (V ++ go_ctr c2 (siv_q V) (firstn (length pt) V)).
Proof.
  intros mac c2 d ks pt data HL H2 Hb Hd Hk Hp Hda Hl V. pose proof (cmac_law HL Hd) as ML.
  assert (C : forall k, siv_bytes k -> call_ok (fun _ => True) k).
  { intros [? m a|? m a] [H H']; cbn; repeat split; auto; now apply Forall_impl_True. }
  apply (inplace_ok (st0 := d : mo_st (cmac_obj mac)) (lim := fun _ => True) ML); auto; [apply (ge8_cmac Hd)| |].
  - apply (state_ok (st0 := d : mo_st (cmac_obj mac)) (lim := fun _ => True) ML H2); auto; [apply (ge8_cmac Hd)|apply (ml_reset ML)|].
    eapply Forall_impl; [|exact Hk]. exact C.
  - apply (C (CSeal [] pt data)). split; auto.
Qed.
Print Assumptions C18_in_place_refuted.

(** mode/siv/aes: exactly the 32- and 64-byte keys are taken; the first half keys the MAC. *)
Theorem C18_aes_keys : forall mk key a b, siv_aes_keys mk key = Ok (a, b) <->
  exists k1 k2, key = k1 ++ k2 /\ length k1 = length k2 /\ (length k1 = 16 \/ length k1 = 32) /\ mk k1 = Ok a /\ mk k2 = Ok b.
Proof.
  intros mk key a b. unfold siv_aes_keys. split.
  - intro H. destruct (Nat.eqb_spec (length key) 32) as [E|N], (Nat.eqb_spec (length key) 64) as [E'|N']; cbn [negb andb] in H; try discriminate; try lia.
    all: exists (firstn (length key / 2) key), (skipn (length key / 2) key);
      destruct (mk (firstn (length key / 2) key)) as [x| |]; cbn [rbind] in H; try discriminate;
      destruct (mk (skipn (length key / 2) key)) as [y| |]; cbn [rbind] in H; try discriminate; injection H as -> ->;
      rewrite firstn_skipn, firstn_length, skipn_length.
    + rewrite E. cbn. repeat split; auto.
    + rewrite E'. cbn. repeat split; auto.
  - intros (k1 & k2 & -> & L & D & A & B). rewrite app_length, <- L.
    assert (Ed : (length k1 + length k1) / 2 = length k1) by (destruct D as [-> | ->]; reflexivity).
    rewrite Ed, firstn_app_exact, skipn_app_exact by auto. rewrite A, B. cbn [rbind].
    destruct D as [-> | ->]; reflexivity.
Qed.
Print Assumptions C18_aes_keys.

(** The hypotheses are met: a history on a 128-bit toy cipher. *)
Example C18_instance : exists d e h, let c := toyn 16 in let m := map Z.of_nat (seq 0 37) in
  siv_new_cmac c = Ok d /\ siv_new_pmac c = Ok e /\ is_half 16 135 (enc c (repeat 0%Z 16)) h /\ lawful c /\ lawful (flip 16) /\
  Forall siv_bytes [CSeal [7%Z] m [[1; 2]%Z; []]; COpen [] m []; CSeal [] [3%Z] []] /\
  Forall (siv_upto (16 * 2 ^ (2 * 16 - 1))) [CSeal [7%Z] m [[1; 2]%Z; []]; COpen [] m []] /\
  exists c1 c2, siv_run (o := cmac_obj c) (flip 16) d [CSeal [7%Z] m [[1; 2]%Z; []]; COpen [] m []; CSeal [] [3%Z] []] = [Ok c1; Err; Ok c2] /\
  length c1 = 54 /\ length c2 = 17.
Proof.
  pose proof (half_L (toyn_lawful (n := 16) ltac:(lia))) as Hh.
  eexists. eexists. eexists. cbn zeta. split; [reflexivity|]. split; [reflexivity|]. split; [exact Hh|].
  split; [apply toyn_lawful; lia|]. split; [apply flip_lawful; lia|]. split; [|split].
  - repeat constructor; unfold is_byte; lia.
  - assert (B : 40 <= 16 * 2 ^ (2 * 16 - 1)).
    { change 40 with (16 * 3 - 8). assert (3 <= 2 ^ (2 * 16 - 1)); [|lia]. transitivity (2 ^ 2); [cbn; lia|apply Nat.pow_le_mono_r; lia]. }
    set (b := 16 * 2 ^ (2 * 16 - 1)) in *. clearbody b. repeat constructor; cbn; lia.
  - do 2 eexists. split; [vm_compute; reflexivity|split; reflexivity].
Qed.
