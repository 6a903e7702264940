(** Proofs about HSS (C86, C87). *)
From Verif Require Import Base WordModel KdfModel KdfProofs LmsModel LmsSpec LmsProofs LmsProofs2 LmsProofs3 LmsProofs4.
Set Implicit Arguments. Unset Strict Implicit.
Local Open Scope nat_scope.


Section hss.
  Variables (R : registry) (n : nat).

  Lemma parse_sig_app l p s rest : lms_wf l p -> reg_ots R p -> reg_lms R l -> lshaped l p s ->
    hss_parse_sig R (sig_enc l p s ++ rest) = Ok (s, rest).
  Proof.
    intros LW RO RL Sh. pose proof (sig_enc_len LW Sh) as Lb. pose proof (lms_sig_parse_made LW RO RL Sh) as P.
    pose proof LW as (WF & Lm & Hh & TL). pose proof WF as (_ & Np & _ & _ & _ & _ & _ & _ & SL & TY).
    pose proof Sh as (T & Sh' & Lp & F & Bq). pose proof (ots_enc_len WF Sh') as Lo.
    set (ob := be_bytes 4 (o_type p) ++ og_c (g_ots s) ++ concat (og_y (g_ots s))) in *.
    assert (EB : sig_enc l p s = be_bytes 4 (g_q s) ++ ob ++ be_bytes 4 (l_type l) ++ concat (g_path s)) by reflexivity.
    assert (EB2 : sig_enc l p s = (be_bytes 4 (g_q s) ++ ob) ++ be_bytes 4 (l_type l) ++ concat (g_path s)) by (rewrite EB, <- app_assoc; reflexivity).
    set (b := sig_enc l p s) in *. clearbody b. pose proof (be_bytes_length 4 (g_q s)) as L4. unfold lms_sig_length in Lb.
    unfold hss_parse_sig. change 8 with (4 + 4). rewrite sub_ok by (rewrite app_length; lia). cbn [rbind].
    replace (slice 4 4 (b ++ rest)) with (be_bytes 4 (o_type p)).
    2: { rewrite slice_app_l by lia. rewrite EB. unfold ob. rewrite <- (app_assoc (be_bytes 4 (o_type p))). symmetry. apply slice_mid; apply be_bytes_length. }
    rewrite (getu32_be TY). unfold reg_ots, reg_lms in *. rewrite RO.
    destruct (Nat.leb_spec (4 + length (b ++ rest)) (4 + ots_sig_length p)) as [X|X]; [rewrite app_length in X; lia|].
    rewrite sub_ok by (rewrite app_length; lia). cbn [rbind]. rewrite slice_app_l by lia.
    replace (slice (4 + ots_sig_length p) 4 b) with (be_bytes 4 (l_type l)) by (rewrite EB2; symmetry; apply slice_mid; [rewrite app_length, L4, Lo; reflexivity|apply be_bytes_length]).
    rewrite (getu32_be TL), RL. change (lms_sig_length l p) with (0 + lms_sig_length l p) at 1. rewrite sub_ok by (rewrite app_length; unfold lms_sig_length; lia).
    cbn [rbind]. rewrite slice_app_l by (unfold lms_sig_length; lia). rewrite slice_0_all by (rewrite Lb; reflexivity). rewrite P. cbn [rbind].
    rewrite skipn_app_exact by (rewrite Lb; reflexivity). reflexivity.
  Qed.
  Lemma parse_pub_app k rest : lms_wf (p_typ k) (p_ots k) -> reg_ots R (p_ots k) -> reg_lms R (p_typ k) -> length (p_id k) = 16 -> length (p_k k) = l_m (p_typ k) ->
    hss_parse_pub R (lms_pub_bytes k ++ rest) = Ok (k, rest).
  Proof.
    intros LW RO RL Li Lk. pose proof (pub_roundtrip LW RO RL Li Lk) as P. destruct LW as (WF & Lm & Hh & TL).
    pose proof WF as (Sz & Np & _ & _ & _ & _ & _ & _ & SL & TY).
    assert (Lb : length (lms_pub_bytes k) = 24 + o_size (p_ots k)) by (unfold lms_pub_bytes; rewrite !app_length, !be_bytes_length, Li, Lk; lia).
    assert (EB : lms_pub_bytes k = be_bytes 4 (l_type (p_typ k)) ++ be_bytes 4 (o_type (p_ots k)) ++ p_id k ++ p_k k) by reflexivity.
    set (b := lms_pub_bytes k) in *. clearbody b. unfold hss_parse_pub.
    destruct (Nat.ltb_spec (length (b ++ rest)) 8) as [X|X]; [rewrite app_length in X; lia|].
    replace (slice 0 4 (b ++ rest)) with (be_bytes 4 (l_type (p_typ k))) by (rewrite slice_app_l, EB by lia; symmetry; apply slice_pre, be_bytes_length).
    replace (slice 4 4 (b ++ rest)) with (be_bytes 4 (o_type (p_ots k))) by (rewrite slice_app_l, EB by lia; symmetry; apply slice_mid; apply be_bytes_length).
    rewrite !getu32_be by auto. unfold reg_ots, reg_lms in *. rewrite RL, RO.
    change (sub 0 (24 + o_size (p_ots k))) with (sub 0 (0 + (24 + o_size (p_ots k)))). rewrite sub_ok by (rewrite app_length; lia). cbn [rbind].
    rewrite slice_app_l by lia. rewrite slice_0_all by lia. rewrite P. cbn [rbind]. rewrite skipn_app_exact by lia. reflexivity.
  Qed.
  Lemma parse_priv_app l p id seed q rest : lkey R n l p id seed -> (0 <= q < 2 ^ 32)%Z ->
    hss_parse_priv R (lms_priv_bytes (gk l p id seed q) ++ rest) = Ok (gk l p id seed q, rest).
  Proof.
    intros (LW & RO & RL & _ & Li & Ls) Bq. pose proof (priv_roundtrip LW RO RL Li (Nat.eq_le_incl _ _ (eq_sym Ls)) Bq) as P.
    rewrite firstn_all2 in P by lia. destruct LW as (WF & Lm & Hh & TL).
    assert (Lb : length (lms_priv_bytes (gk l p id seed q)) = 28 + l_m l) by (unfold lms_priv_bytes, gk; cbn [s_pub p_typ p_ots p_id s_q s_seed]; rewrite !app_length, !be_bytes_length, Li, Ls; lia).
    assert (EB : lms_priv_bytes (gk l p id seed q) = be_bytes 4 (l_type l) ++ be_bytes 4 (o_type p) ++ be_bytes 4 q ++ id ++ seed) by reflexivity.
    set (b := lms_priv_bytes (gk l p id seed q)) in *. clearbody b. unfold hss_parse_priv.
    destruct (Nat.ltb_spec (length (b ++ rest)) 8) as [X|X]; [rewrite app_length in X; lia|].
    replace (slice 0 4 (b ++ rest)) with (be_bytes 4 (l_type l)) by (rewrite slice_app_l, EB by lia; symmetry; apply slice_pre, be_bytes_length).
    rewrite getu32_be by auto. unfold reg_lms in RL. rewrite RL.
    change (sub 0 (28 + l_m l)) with (sub 0 (0 + (28 + l_m l))). rewrite sub_ok by (rewrite app_length; lia). cbn [rbind].
    rewrite slice_app_l by lia. rewrite slice_0_all by lia. rewrite P. cbn [rbind]. rewrite skipn_app_exact by lia. reflexivity.
  Qed.

  (** Each signature is the one of leaf 0 of its level on the public key of the next level. *)
  Fixpoint trust (ks : list lms_priv) (ss : list lms_sig) : Prop :=
    match ks, ss with
    | k :: ks', [] => ks' = [] /\ exists l p id seed q, lkey R n l p id seed /\ (0 <= q <= 2 ^ Z.of_nat (l_h l))%Z /\ k = gk l p id seed q
    | k :: ks', s :: ss' => match ks' with
        | k2 :: _ => trust ks' ss' /\ exists l p id seed q c, lkey R n l p id seed /\ (0 <= q <= 2 ^ Z.of_nat (l_h l))%Z /\ k = gk l p id seed q /\
            length c = n /\ s = made l p id seed 0 c (hss_digest (s_pub k) 0 c (lms_pub_bytes (s_pub k2)))
        | [] => False
        end
    | [], _ => False
    end.
  Lemma lkey_pub l p id seed q : lkey R n l p id seed -> let k := s_pub (gk l p id seed q) in
    lms_wf (p_typ k) (p_ots k) /\ reg_ots R (p_ots k) /\ reg_lms R (p_typ k) /\ length (p_id k) = 16 /\ length (p_k k) = l_m (p_typ k).
  Proof.
    intros (LW & RO & RL & Ln & Li & Ls). cbn [gk s_pub p_typ p_ots p_id p_k]. repeat (split; [assumption|]).
    unfold tree_root. rewrite node_hash. destruct LW as ((_ & _ & HL & _) & -> & _). apply HL.
  Qed.
  Lemma trust_head ks ss : trust ks ss -> exists k ks', ks = k :: ks' /\ exists l p id seed q, lkey R n l p id seed /\ (0 <= q <= 2 ^ Z.of_nat (l_h l))%Z /\ k = gk l p id seed q.
  Proof.
    destruct ks as [|k ks], ss as [|s ss]; cbn [trust]; try tauto.
    - intros (_ & H). exists k, ks. auto.
    - destruct ks as [|k2 ks]; [tauto|]. intros (_ & l & p & id & seed & q & c & A & B & C & _). exists k, (k2 :: ks). split; auto. exists l, p, id, seed, q. auto.
  Qed.
  Lemma trust_lengths ks ss : trust ks ss -> length ks = S (length ss).
  Proof.
    revert ss. induction ks as [|k ks IH]; intros [|s ss]; cbn [trust]; try tauto.
    - intros (-> & _). reflexivity.
    - destruct ks as [|k2 ks]; [tauto|]. intros (T & _). cbn [length]. f_equal. apply (IH ss T).
  Qed.
  Lemma pow_1 h : (1 <= 2 ^ Z.of_nat h)%Z.
  Proof. pose proof (Z.pow_pos_nonneg 2 (Z.of_nat h)). lia. Qed.
  Lemma made0_lshaped l p id seed c msg : lkey R n l p id seed -> length c = n -> lshaped l p (made l p id seed 0 c msg).
  Proof. intros (LW & _ & _ & Ln & _) L. pose proof (@pow_1 (l_h l)). apply made_lshaped; [auto|lia|congruence]. Qed.

  (** The parts of a signature that come from the upper levels. *)
  Lemma chain_exists ks ss : trust ks ss -> exists ch, hss_chain (tl ks) ss = Ok ch.
  Proof.
    revert ss. induction ks as [|k ks IH]; intros [|s ss]; cbn [trust]; try tauto.
    - intros (-> & _). cbn. eauto.
    - destruct ks as [|k2 ks]; [tauto|]. intros (T & l & p & id & seed & q & c & LK & Bq & Ek & Lc & Es).
      destruct (IH ss T) as (ch & E). cbn [tl] in *. cbn [hss_chain]. rewrite Es, (lms_sig_bytes_ok (made0_lshaped _ LK Lc)). cbn [rbind]. rewrite E. cbn [rbind]. eauto.
  Qed.
  Lemma verify_levels ks : forall ss ch l p id seed q c msg, trust ks ss -> hss_chain (tl ks) ss = Ok ch ->
    nth_error ks (length ss) = Some (gk l p id seed q) -> lkey R n l p id seed -> (0 <= q < 2 ^ Z.of_nat (l_h l))%Z -> length c = n ->
    forall k0, nth_error ks 0 = Some k0 ->
    hss_verify_loop R (length ss) (s_pub k0) msg (ch ++ sig_enc l p (made l p id seed q c msg)) = Ok true.
  Proof.
    induction ks as [|k ks IH]; intros [|s ss] ch l p id seed q c msg; cbn [trust]; try tauto.
    - intros (-> & _) E N LK Bq Lc k0 [= <-]. cbn [hss_chain tl] in E. injection E as <-. cbn [length nth_error] in N. injection N as ->.
      pose proof LK as (LW & RO & RL & Ln & _). cbn [length hss_verify_loop app].
      rewrite lms_sig_parse_made; auto; [|apply made_lshaped; auto; congruence]. apply lms_made_verifies; auto; congruence.
    - destruct ks as [|k2 ks]; [tauto|]. intros (T & l1 & p1 & id1 & seed1 & q1 & c1 & LK1 & Bq1 & Ek & Lc1 & Es) E N LK Bq Lc k0 [= <-].
      cbn [tl hss_chain] in E. pose proof (made0_lshaped (hss_digest (s_pub k) 0 c1 (lms_pub_bytes (s_pub k2))) LK1 Lc1) as Sh. rewrite <- Es in Sh.
      rewrite (lms_sig_bytes_ok Sh) in E. cbn [rbind] in E. destruct (hss_chain ks ss) as [rest| |] eqn:Er; try discriminate. cbn [rbind] in E. apply ok_inj in E. subst ch.
      pose proof LK1 as (LW1 & RO1 & RL1 & Ln1 & _). cbn [length hss_verify_loop]. rewrite <- !app_assoc, (parse_sig_app _ LW1 RO1 RL1 Sh).
      destruct (trust_head T) as (k2' & ks' & [= <- <-] & l2 & p2 & id2 & seed2 & q2 & LK2 & _ & Ek2).
      pose proof (lkey_pub q2 LK2) as LP. cbv zeta in LP. rewrite <- Ek2 in LP. destruct LP as (LP1 & LP2 & LP3 & LP4 & LP5).
      rewrite parse_pub_app by auto.
      replace (g_q s) with 0%Z by (rewrite Es; reflexivity). replace (og_c (g_ots s)) with c1 by (rewrite Es; reflexivity).
      pose proof (@pow_1 (l_h l1)). rewrite Es. rewrite Ek at 1. change (s_pub (gk l1 p1 id1 seed1 q1)) with (s_pub (gk l1 p1 id1 seed1 0)) at 1.
      rewrite lms_made_verifies by (auto; try lia; congruence).
      apply (IH ss rest l p id seed q c msg T); auto.
  Qed.
  Lemma chain_sign ks : forall ss k', trust ks ss -> forall l p id seed q, nth_error ks (length ss) = Some (gk l p id seed q) ->
    lkey R n l p id seed -> k' = gk l p id seed (q + 1) -> (0 <= q < 2 ^ Z.of_nat (l_h l))%Z ->
    trust (setl (length ss) k' ks) ss /\ hss_chain (tl (setl (length ss) k' ks)) ss = hss_chain (tl ks) ss /\
    nth_error (setl (length ss) k' ks) (length ss) = Some k' /\
    option_map s_pub (nth_error (setl (length ss) k' ks) 0) = option_map s_pub (nth_error ks 0).
  Proof.
    induction ks as [|k ks IH]; intros [|s ss] k'; cbn [trust]; try tauto.
    - intros (-> & _) l p id seed q N LK -> Bq. cbn [length nth_error] in N. injection N as ->. cbn [length setl tl hss_chain nth_error option_map].
      split; [split; [reflexivity|exists l, p, id, seed, (q + 1)%Z; split; [auto|split; [lia|reflexivity]]]|]. auto.
    - destruct ks as [|k2 ks]; [tauto|]. intros (T & l1 & p1 & id1 & seed1 & q1 & c1 & LK1 & Bq1 & Ek & Lc1 & Es) l p id seed q N LK E Bq.
      cbn [length nth_error] in N. destruct (IH ss k' T l p id seed q N LK E Bq) as (A & B & C & D).
      cbn [length setl]. cbn [setl] in A, B, C, D. destruct ss as [|s2 ss].
      + cbn [length] in *. cbn [setl tl] in *. cbn [nth_error option_map] in D. injection D as D. split.
        * split; [exact A|]. exists l1, p1, id1, seed1, q1, c1. repeat (split; [assumption|]). rewrite D. exact Es.
        * split; [|split; [exact C|reflexivity]]. cbn [hss_chain]. rewrite D. destruct ks; reflexivity.
      + cbn [length] in *. cbn [setl tl nth_error option_map] in *. split.
        * split; [exact A|]. exists l1, p1, id1, seed1, q1, c1. repeat (split; [assumption|]). exact Es.
        * split; [|split; [exact C|reflexivity]]. cbn [hss_chain]. cbn [hss_chain] in B. rewrite B. reflexivity.
  Qed.

  (** * Generation *)
  Lemma gen_down_ok l p id seed opts rds : lkey R n l p id seed -> n = 32 -> length rds = length opts ->
    Forall (fun o => lms_wf (fst o) (snd o) /\ reg_ots R (snd o) /\ reg_lms R (fst o) /\ o_n (snd o) = n) opts ->
    Forall (fun r => exists i c, r = (Some i, Some c) /\ length i = 16 /\ length c = 32) rds ->
    exists ks ss, hss_gen_down (gk l p id seed 0) seed opts rds = Ok (ks, ss) /\ trust ks ss /\ length ss = length opts /\
      option_map s_pub (nth_error ks 0) = Some (s_pub (gk l p id seed 0)) /\
      exists l' p' id', nth_error ks (length ss) = Some (gk l' p' id' seed 0) /\ lkey R n l' p' id' seed /\ (l', p') = last opts (l, p).
  Proof.
    intros LK E32. revert l p id rds LK. induction opts as [|[l2 p2] opts IH]; intros l p id rds LK Lr Fo Fr.
    - exists [gk l p id seed 0], []. cbn [hss_gen_down]. split; [destruct rds; reflexivity|]. pose proof (@pow_1 (l_h l)). split.
      + cbn [trust]. split; [reflexivity|]. exists l, p, id, seed, 0%Z. split; [auto|split; [lia|reflexivity]].
      + split; [reflexivity|]. split; [reflexivity|]. exists l, p, id. split; [reflexivity|]. split; [auto|reflexivity].
    - destruct rds as [|r rds]; [discriminate|]. pose proof (Forall_inv Fo) as (LW2 & RO2 & RL2 & Ln2). pose proof (Forall_inv Fr) as (i & c & -> & Li & Lc).
      cbn [fst snd] in *. assert (LK2 : lkey R n l2 p2 i seed).
      { destruct LK as ((_ & Lm & _) & _ & _ & Ln & _ & Ls). pose proof LW2 as (W2 & Lm2 & W3). unfold lkey. split; [exact LW2|]. split; [exact RO2|]. split; [exact RL2|]. split; [exact Ln2|]. split; [exact Li|]. congruence. }
      cbn [hss_gen_down]. rewrite gen_gk by auto. pose proof LK as (LW & _). pose proof (@pow_1 (l_h l)).
      rewrite (lms_sign_ok (q := 0) (opt := Some c) (rng := None) id seed (hss_digest (s_pub (gk l p id seed 0)) 0 c (lms_pub_bytes (s_pub (gk l2 p2 i seed 0)))) LW ltac:(lia) eq_refl).
      cbn [rbind]. destruct (IH l2 p2 i rds LK2 ltac:(cbn [length] in Lr; lia) (Forall_inv_tail Fo) (Forall_inv_tail Fr)) as (ks & ss & E & T & Ls & Hd & l' & p' & id' & N & LK' & La).
      rewrite E. cbn [rbind]. destruct (trust_head T) as (k0 & ks' & EK & l3 & p3 & id3 & seed3 & q3 & LK3 & _ & Ek0).
      exists (gk l p id seed (0 + 1) :: ks), (made l p id seed 0 c (hss_digest (s_pub (gk l p id seed 0)) 0 c (lms_pub_bytes (s_pub (gk l2 p2 i seed 0)))) :: ss).
      split; [reflexivity|]. rewrite EK in Hd. cbn [nth_error option_map] in Hd. injection Hd as Hd. split.
      + rewrite EK in T |- *. cbn [trust]. split; [exact T|]. exists l, p, id, seed, (0 + 1)%Z, c. split; [exact LK|]. split; [lia|]. split; [reflexivity|].
        split; [congruence|]. rewrite Hd. reflexivity.
      + cbn [length nth_error option_map]. split; [f_equal; exact Ls|]. split; [reflexivity|]. exists l', p', id'. split; [exact N|]. split; [exact LK'|].
        rewrite La. clear. revert l2 p2. induction opts as [|[x y] opts IH]; intros l2 p2; [reflexivity|].
        change (last ((l2, p2) :: (x, y) :: opts) (l, p)) with (last ((x, y) :: opts) (l, p)). rewrite <- (IH x y).
        destruct opts; [reflexivity|]. change (last ((x, y) :: p0 :: opts) (l2, p2)) with (last (p0 :: opts) (l2, p2)).
        clear. revert p0. induction opts as [|z opts IH]; intros p0; [reflexivity|]. exact (IH z).
  Qed.

  (** * Saving and loading *)
  Lemma parse_many_keys ks ss : forall c i rest, trust ks ss -> i + length ks <= c ->
    parse_many (hss_parse_priv R) c (length ks) i (concat (map lms_priv_bytes ks) ++ rest) = Ok (ks, rest).
  Proof.
    revert ss. induction ks as [|k ks IH]; intros ss c i rest T L; [reflexivity|].
    destruct (trust_head T) as (k' & ks' & [= <- <-] & l & p & id & seed & q & LK & Bq & Ek).
    cbn [length parse_many map concat]. rewrite <- app_assoc, Ek.
    pose proof LK as ((_ & _ & Hh & _) & _). pose proof (pow_h Hh).
    rewrite (parse_priv_app _ LK) by lia. cbn [rbind]. cbn [length] in L. destruct (Nat.leb_spec c i); [lia|].
    destruct ks as [|k2 ks]; [reflexivity|]. destruct ss as [|s ss]; [destruct T as [T _]; discriminate T|]. destruct T as [T _].
    rewrite (IH ss) by (auto; cbn [length] in *; lia). reflexivity.
  Qed.
  Lemma sigs_shaped ks ss : trust ks ss -> Forall (fun s => exists l p, lms_wf l p /\ reg_ots R p /\ reg_lms R l /\ lshaped l p s) ss.
  Proof.
    revert ss. induction ks as [|k ks IH]; intros [|s ss]; cbn [trust]; try tauto; [constructor|].
    destruct ks as [|k2 ks]; [tauto|]. intros (T & l1 & p1 & id1 & seed1 & q1 & c1 & LK1 & Bq1 & Ek & Lc1 & Es). constructor; [|apply IH; auto].
    exists l1, p1. pose proof LK1 as (A & B & C & _). repeat (split; [assumption|]). rewrite Es. apply made0_lshaped; auto.
  Qed.
  Lemma parse_many_sigs ss : Forall (fun s => exists l p, lms_wf l p /\ reg_ots R p /\ reg_lms R l /\ lshaped l p s) ss ->
    forall c i, i + length ss <= c -> exists sbs, rmap lms_sig_bytes ss = Ok sbs /\
      forall rest, parse_many (hss_parse_sig R) c (length ss) i (concat sbs ++ rest) = Ok (ss, rest).
  Proof.
    induction 1 as [|s ss (l & p & LW & RO & RL & Sh) F IH]; intros c i L; [exists []; split; reflexivity|].
    cbn [length] in L. destruct (IH c (S i) ltac:(lia)) as (sbs & E & P). exists (sig_enc l p s :: sbs). cbn [rmap]. rewrite (lms_sig_bytes_ok Sh). cbn [rbind]. rewrite E. cbn [rbind].
    split; [reflexivity|]. intros rest. cbn [length parse_many concat]. rewrite <- app_assoc, (parse_sig_app _ LW RO RL Sh). cbn [rbind].
    destruct (Nat.leb_spec c i); [lia|]. rewrite P. reflexivity.
  Qed.
  Lemma reload_ok ks ss pub k0 : trust ks ss -> length ss <= 4 -> nth_error ks 0 = Some k0 -> pub = HssPub (Z.of_nat (S (length ss))) (s_pub k0) ->
    rbind (hss_priv_bytes (HssPriv pub ks ss)) (hss_priv_parse R) = Ok (HssPriv pub ks ss).
  Proof.
    intros T L N ->. pose proof (trust_lengths T) as LK. unfold hss_priv_bytes. cbn [hs_pub hs_keys hs_sigs hp_levels].
    destruct (parse_many_sigs (sigs_shaped T) (c := 4) (i := 0) L) as (sbs & E & P). rewrite E. cbn [rbind].
    unfold hss_priv_parse. set (b := be_bytes 4 (Z.of_nat (S (length ss))) ++ concat (map lms_priv_bytes ks) ++ concat sbs).
    destruct (Nat.ltb_spec (length b) 4) as [X|X]; [unfold b in X; rewrite app_length, be_bytes_length in X; lia|].
    replace (slice 0 4 b) with (be_bytes 4 (Z.of_nat (S (length ss)))) by (symmetry; apply slice_pre, be_bytes_length).
    rewrite getu32_be by lia. rewrite Nat2Z.id. unfold b. rewrite (skipn_app_exact (n := 4)) by (apply be_bytes_length).
    rewrite <- LK. rewrite (parse_many_keys (ss := ss)) by (auto; lia). cbn [rbind]. rewrite LK. replace (S (length ss) - 1) with (length ss) by lia.
    rewrite <- (app_nil_r (concat sbs)), P. cbn [rbind]. destruct ks as [|k ks]; [discriminate|]. cbn [nth_error] in N. injection N as ->. reflexivity.
  Qed.

  (** * Histories *)
  Definition hstate (ss : list lms_sig) (pub : hss_pub) (ch : bytes) (l : lms_param) (p : ots_param) (id seed : bytes) (q : Z) (k : hss_priv) : Prop :=
    exists ks k0, k = HssPriv pub ks ss /\ trust ks ss /\ length ss <= 4 /\ nth_error ks 0 = Some k0 /\ pub = HssPub (Z.of_nat (S (length ss))) (s_pub k0) /\
      hss_chain (tl ks) ss = Ok ch /\ nth_error ks (length ss) = Some (gk l p id seed q) /\ lkey R n l p id seed /\ (0 <= q <= 2 ^ Z.of_nat (l_h l))%Z.
  Lemma hstate_sign ss pub ch l p id seed q k c msg : hstate ss pub ch l p id seed q k -> length c = n ->
    if (q <? 2 ^ Z.of_nat (l_h l))%Z then
      exists k', hss_sign k (Some c) msg = (k', Ok (be_bytes 4 (Z.of_nat (length ss)) ++ ch ++ sig_enc l p (made l p id seed q c msg))) /\ hstate ss pub ch l p id seed (q + 1) k' /\
        hss_verify R pub msg (be_bytes 4 (Z.of_nat (length ss)) ++ ch ++ sig_enc l p (made l p id seed q c msg)) = Ok true
    else exists k', hss_sign k (Some c) msg = (k', Err) /\ hstate ss pub ch l p id seed q k'.
  Proof.
    intros (ks & k0 & Ek & T & L4 & N0 & Ep & Ec & Nl & LK & Bq) Lc. unfold hss_sign. rewrite Ek. cbn [hs_pub hs_keys hs_sigs].
    replace (hp_levels pub) with (Z.of_nat (S (length ss))) by (rewrite Ep; reflexivity). replace (Z.to_nat (Z.of_nat (S (length ss)) - 1)) with (length ss) by lia.
    rewrite firstn_all, Ec, Nl. pose proof LK as (LW & RO & RL & Ln & _). destruct (Z.ltb_spec q (2 ^ Z.of_nat (l_h l))) as [Q|Q].
    - rewrite (lms_sign_ok (q := q) (opt := None) (rng := Some c) id seed msg LW ltac:(lia) eq_refl). cbn [rbind].
      assert (Sh : lshaped l p (made l p id seed q c msg)) by (apply made_lshaped; [auto|lia|congruence]).
      rewrite (lms_sig_bytes_ok Sh). cbn [rbind]. eexists. split; [reflexivity|].
      destruct (chain_sign T Nl LK eq_refl ltac:(lia)) as (T' & C' & N' & H'). split.
      + exists (setl (length ss) (gk l p id seed (q + 1)) ks). rewrite N0 in H'. cbn [option_map] in H'.
        destruct (nth_error (setl (length ss) (gk l p id seed (q + 1)) ks) 0) as [k0'|] eqn:N0'; [|discriminate]. cbn [option_map] in H'. injection H' as H'.
        exists k0'. split; [reflexivity|]. split; [exact T'|]. split; [exact L4|]. split; [reflexivity|]. split; [rewrite H'; exact Ep|]. split; [rewrite C'; exact Ec|].
        split; [exact N'|]. split; [exact LK|lia].
      + unfold hss_verify. set (b := be_bytes 4 _ ++ _). assert (4 <= length b) by (unfold b; rewrite app_length, be_bytes_length; lia).
        destruct (Nat.ltb_spec (length b) 4); [lia|].
        replace (slice 0 4 b) with (be_bytes 4 (Z.of_nat (length ss))) by (symmetry; apply slice_pre, be_bytes_length). rewrite getu32_be by lia.
        replace (hp_levels pub) with (Z.of_nat (S (length ss))) by (rewrite Ep; reflexivity). rewrite u32_small by lia.
        replace (Z.of_nat (S (length ss)) - 1)%Z with (Z.of_nat (length ss)) by lia. rewrite Z.eqb_refl. cbn [negb]. rewrite Nat2Z.id.
        unfold b. rewrite (skipn_app_exact (n := 4)) by (apply be_bytes_length).
        replace (hp_lms pub) with (s_pub k0) by (rewrite Ep; reflexivity). apply (verify_levels (q := q) (c := c) msg T Ec Nl LK ltac:(lia) Lc N0).
    - rewrite lms_sign_end by (auto; lia). cbn [rbind]. eexists. split; [reflexivity|].
      assert (ES : setl (length ss) (gk l p id seed q) ks = ks).
      { clear - Nl. revert Nl. generalize (length ss) as i. induction ks as [|x ks IH]; intros [|i] N; cbn [setl nth_error] in *; try discriminate; try reflexivity; f_equal; [congruence|auto]. }
      rewrite ES. exists ks, k0. repeat (split; [first [assumption|reflexivity]|]). exact Bq.
  Qed.
  Lemma hstate_reload ss pub ch l p id seed q k : hstate ss pub ch l p id seed q k -> rbind (hss_priv_bytes k) (hss_priv_parse R) = Ok k.
  Proof. intros (ks & k0 & -> & T & L4 & N0 & Ep & _). eapply reload_ok; eauto. Qed.
  Lemma hss_history ss pub ch l p id seed cs : Forall (fun c => exists x, snd (fst c) = Some x /\ length x = n) cs ->
    forall q k, hstate ss pub ch l p id seed q k ->
    length (hss_run R k cs) = length cs /\
    forall i rl rng msg, nth_error cs i = Some (rl, rng, msg) ->
      if (q + Z.of_nat i <? 2 ^ Z.of_nat (l_h l))%Z then
        exists s c, rng = Some c /\ s = made l p id seed (q + Z.of_nat i) c msg /\
          nth_error (hss_run R k cs) i = Some (Ok (be_bytes 4 (Z.of_nat (length ss)) ++ ch ++ sig_enc l p s)) /\
          hss_verify R pub msg (be_bytes 4 (Z.of_nat (length ss)) ++ ch ++ sig_enc l p s) = Ok true
      else nth_error (hss_run R k cs) i = Some Err.
  Proof.
    induction 1 as [|[[rl rng] msg] cs (x & Ex & Lx) F IH]; intros q k HS; cbn [hss_run]; [split; [reflexivity|intros [|i] ? ? ? E; discriminate E]|].
    cbn [fst snd] in Ex. subst rng.
    assert (RE : (if rl then match rbind (hss_priv_bytes k) (hss_priv_parse R) with Ok k' => k' | _ => k end else k) = k) by (destruct rl; [rewrite (hstate_reload HS)|]; reflexivity).
    rewrite RE. pose proof (hstate_sign msg HS Lx) as SG.
    destruct (Z.ltb_spec q (2 ^ Z.of_nat (l_h l))) as [Q|Q].
    - destruct SG as (k' & E & HS' & V). rewrite E. destruct (IH _ _ HS') as [IL IN]. split; [cbn [length]; f_equal; exact IL|].
      intros [|i] rl' rng' msg' N; cbn [nth_error] in N.
      + injection N as <- <- <-. rewrite Z.add_0_r. destruct (Z.ltb_spec q (2 ^ Z.of_nat (l_h l))); [|lia].
        exists (made l p id seed q x msg), x. split; [reflexivity|]. split; [reflexivity|]. split; [reflexivity|exact V].
      + specialize (IN i rl' rng' msg' N). replace (q + Z.of_nat (S i))%Z with (q + 1 + Z.of_nat i)%Z by lia. exact IN.
    - destruct SG as (k' & E & HS'). rewrite E. destruct (IH _ _ HS') as [IL IN]. split; [cbn [length]; f_equal; exact IL|].
      intros [|i] rl' rng' msg' N; cbn [nth_error] in N.
      + rewrite Z.add_0_r. destruct (Z.ltb_spec q (2 ^ Z.of_nat (l_h l))); [lia|]. reflexivity.
      + specialize (IN i rl' rng' msg' N). destruct (Z.ltb_spec (q + Z.of_nat i) (2 ^ Z.of_nat (l_h l))); [lia|].
        destruct (Z.ltb_spec (q + Z.of_nat (S i)) (2 ^ Z.of_nat (l_h l))); [lia|]. exact IN.
  Qed.
End hss.
