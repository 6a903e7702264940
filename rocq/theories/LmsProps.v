(** C80-C87: LM-OTS, LMS and HSS. *)
From Verif Require Import Base WordModel KdfModel KdfProofs LmsModel LmsSpec LmsProofs LmsProofs2 LmsProofs3 LmsProofs4 LmsProofs5 LmsProofs6.
Set Implicit Arguments. Unset Strict Implicit.
Local Open Scope nat_scope.

(** * C80: what is signed *)
Theorem C80_coefficients p d : ots_wf p -> length d = o_n p -> bytes_ok d ->
  exists cs, expand d p = Ok cs /\ winternitz p d cs /\ forall cs', winternitz p d cs' -> cs' = cs.
Proof.
  intros WF L B. destruct (@expand_winternitz p d WF L B) as (cs & E & W). exists cs. split; [exact E|]. split; [exact W|].
  intros cs' W'. apply winternitz_unique in W'; auto. congruence.
Qed.
(** Of two different digests each has a coefficient that is smaller than that of the other. *)
Theorem C80_no_domination p d1 d2 e1 e2 : ots_wf p -> length d1 = o_n p -> length d2 = o_n p -> bytes_ok d1 -> bytes_ok d2 -> d1 <> d2 ->
  winternitz p d1 e1 -> winternitz p d2 e2 -> exists i, i < o_p p /\ (e1.[i] < e2.[i])%Z.
Proof.
  intros WF L1 L2 B1 B2 N W1 W2. apply winternitz_unique in W1, W2; auto. apply (@no_domination p d1 d2 e1 e2); auto.
Qed.
Theorem C80_parameters sha sm3 : (forall m, length (sha m) = 32 /\ bytes_ok (sha m)) -> (forall m, length (sm3 m) = 32 /\ bytes_ok (sm3 m)) ->
  reg_wf (default_registry sha sm3) 32.
Proof.
  intros A B. split.
  - intros t p. cbn [default_registry get_ots].
    assert (S : forall ty h w n ls sl, (forall m, length (h m) = 32 /\ bytes_ok (h m)) -> (w = 1 \/ w = 2 \/ w = 4 \/ w = 8)%Z -> (0 <= ls < 16)%Z ->
      (Z.of_nat n * w = 8 * 32 + (16 - ls))%Z -> (8 / w * 32 * (2 ^ w - 1) < 2 ^ (16 - ls))%Z -> (0 < sl)%Z -> (sl = 4 + 32 + Z.of_nat n * 32)%Z -> (0 <= ty < 2 ^ 32)%Z ->
      ots_wf (ots_set ty h w n ls sl)).
    { intros ty h w n ls sl H Hw Hls Hn Hc Hs Hl Ht. unfold ots_wf, ots_set. cbn [o_size o_n o_hash o_w o_ls o_p o_type]. split; [reflexivity|]. split; [lia|]. split; [apply H|]. split; [apply H|].
      repeat (split; [assumption|]). split; [|exact Ht]. unfold ots_sig_length. cbn [o_siglen o_n o_p]. destruct (Nat.ltb_spec 0 (Z.to_nat sl)); lia. }
    repeat match goal with |- (if (t =? ?c)%Z then _ else _) = _ -> _ => destruct (Z.eqb_spec t c) as [->|_] end.
    9: discriminate.
    all: intros E; injection E as <-; (split; [reflexivity|split; [|reflexivity]]); apply S; auto; try lia; reflexivity.
  - intros t l. cbn [default_registry get_lms].
    destruct (Z.leb_spec 5 t), (Z.leb_spec t 9), (Z.leb_spec 25 t), (Z.leb_spec t 29); cbn [andb]; try lia; intros E; try discriminate; injection E as <-; cbn [l_type l_m l_h]; repeat split; lia.
Qed.

(** * C81: one-time signatures *)
Theorem C81_public_key p q id seed : os_pub (ots_gen p q id seed) = OtsPub p q id (ots_public p id seed q).
Proof. apply gen_pub. Qed.
(** Sign makes the signature of the RFC, which verifies also after being encoded, when the nonce has N bytes. *)
Theorem C81_sign R n p q id seed rng opt msg c : reg_wf R n -> reg_ots R p -> nonce opt rng = Ok c ->
  exists k' s, ots_sign (ots_gen p q id seed) rng opt msg = (k', Ok s) /\ rfc_ots_sig p id seed q c msg s /\ os_pub k' = os_pub (ots_gen p q id seed) /\
    (length c = o_n p -> ots_verify_sig (os_pub k') msg s = Ok true /\
       exists b, ots_sig_bytes s = Ok b /\ length b = ots_sig_length p /\ ots_verify R (os_pub k') msg b = Ok true) /\
    (length c <> o_n p -> forall pub m, ots_verify_sig pub m s = Ok false).
Proof.
  intros [RW RW'] RO N. destruct (RW _ _ RO) as (_ & WF & _). rewrite (sign_ok q id seed msg WF N). do 2 eexists. split; [reflexivity|].
  split; [apply made_rfc_ots; auto|]. split; [rewrite gen_pub; reflexivity|]. cbn [os_pub]. split.
  - intros L. pose proof (made_ots_shaped id seed q msg WF L) as Sh. set (s := OtsSig p c _) in *.
    assert (V : ots_verify_sig (OtsPub p q id (ots_public p id seed q)) msg s = Ok true).
    { unfold ots_verify_sig. cbn [ok_typ ok_id ok_q ok_k]. replace (og_typ s) with p by reflexivity. rewrite Z.eqb_refl. cbn [negb].
      unfold s. rewrite made_recovers by auto. cbn [ok_k]. f_equal. apply bytes_eqb_eq. reflexivity. }
    split; [exact V|]. eexists. split; [apply (ots_sig_bytes_ok Sh)|]. split.
    + apply (ots_sig_bytes_len WF Sh). apply (ots_sig_bytes_ok Sh).
    + unfold ots_verify. rewrite ots_sig_parse_made by auto. exact V.
  - intros L pub m. unfold ots_verify_sig. cbn [og_typ]. destruct (Z.eqb_spec (o_type (ok_typ pub)) (o_type p)) as [E|E]; cbn [negb]; [|reflexivity].
    unfold ots_recover. cbn [og_typ og_c]. rewrite E, Z.eqb_refl. cbn [negb]. pose proof WF as (Sz & _). destruct (Nat.eqb_spec (length c) (o_size p)); [lia|]. reflexivity.
Qed.
(** In every sequence of calls, the first one that gets a nonce makes the signature; all others fail. *)
Theorem C81_one_time p q id seed cs : ots_wf p -> forall i c, nth_error cs i = Some c ->
  (exists x s, nonce (c_opt c) (c_rng c) = Ok x /\ (forall j c', j < i -> nth_error cs j = Some c' -> nonce (c_opt c') (c_rng c') = Err) /\
     nth_error (ots_calls (ots_gen p q id seed) cs) i = Some (Ok s) /\ rfc_ots_sig p id seed q x (c_msg c) s) \/
  ((nonce (c_opt c) (c_rng c) = Err \/ exists j c' x', j < i /\ nth_error cs j = Some c' /\ nonce (c_opt c') (c_rng c') = Ok x') /\
   nth_error (ots_calls (ots_gen p q id seed) cs) i = Some Err).
Proof.
  intros WF i c N. destruct (ots_calls_ok q id seed WF N) as [(x & A & B & s & C & D)|H]; [left|right; exact H]. exists x, s. auto.
Qed.
(** Verify accepts exactly the encodings of signatures whose chains, followed to the end, hash to the public key. *)
Theorem C81_verify R n p id q k msg b : reg_wf R n -> reg_ots R p -> bytes_ok b ->
  ots_verify R (OtsPub p q id k) msg b = Ok true <->
  exists s, shaped p s /\ ots_sig_bytes s = Ok b /\ exists cs, winternitz p (msg_digest p id q (og_c s) msg) cs /\
    o_hash p (pblc p id q (verified_end p id q s cs)) = k.
Proof. apply ots_verify_inv. Qed.
(** What accepted bytes show, beside a signature (c, msg) issued with the key: either the chains end where those of the key end, or
    there is a collision; and either the digests are equal or some chain value lies below the one the issued signature gives away. *)
Theorem C81_forgery R n p q id seed c msg msg' b : reg_wf R n -> reg_ots R p -> bytes_ok b ->
  ots_verify R (OtsPub p q id (ots_public p id seed q)) msg' b = Ok true ->
  exists s cs cs', ots_sig_bytes s = Ok b /\ winternitz p (msg_digest p id q c msg) cs /\ winternitz p (msg_digest p id q (og_c s) msg') cs' /\
    ((forall i, i < o_p p -> verified_end p id q s cs' i = chain_end p id seed q i) \/
     collision p (pblc p id q (verified_end p id q s cs')) (pblc p id q (chain_end p id seed q))) /\
    (msg_digest p id q (og_c s) msg' = msg_digest p id q c msg \/ exists i, i < o_p p /\ (cs'.[i] < cs.[i])%Z).
Proof.
  intros RW RO B V. apply (ots_verify_inv _ _ _ _ RW RO B) in V as (s & Sh & Eb & cs' & W' & H). pose proof RW as [R1 _]. destruct (R1 _ _ RO) as (_ & WF & _).
  destruct (expand_winternitz WF (digest_len id q c msg WF) (digest_ok id q c msg WF)) as (cs & _ & W). exists s, cs, cs'.
  split; [exact Eb|]. split; [exact W|]. split; [exact W'|]. split; [apply ends_or_collision; auto|].
  destruct (bytes_dec (msg_digest p id q (og_c s) msg') (msg_digest p id q c msg)) as [E|NE]; [left; exact E|right].
  apply (@C80_no_domination p (msg_digest p id q (og_c s) msg') (msg_digest p id q c msg)); auto using digest_len, digest_ok.
Qed.

(** * C82: encodings of LM-OTS *)
Theorem C82_signature_roundtrip R n p s : reg_wf R n -> reg_ots R p -> shaped p s ->
  exists b, ots_sig_bytes s = Ok b /\ length b = ots_sig_length p /\ ots_sig_parse R b = Ok s.
Proof.
  intros [R1 _] RO Sh. destruct (R1 _ _ RO) as (_ & WF & _). eexists. split; [apply (ots_sig_bytes_ok Sh)|].
  split; [apply (ots_sig_bytes_len WF Sh), (ots_sig_bytes_ok Sh)|]. apply ots_sig_parse_made; auto.
Qed.
Theorem C82_signature_canonical R n b s : reg_wf R n -> bytes_ok b -> ots_sig_parse R b = Ok s -> ots_sig_bytes s = Ok b /\ exists p, reg_ots R p /\ shaped p s.
Proof. intros RW B E. destruct (ots_parse_shaped RW B E) as (p & A & _ & C & D). split; [exact D|]. exists p. auto. Qed.
Theorem C82_signature_total R n b : reg_wf R n -> ots_sig_parse R b <> Panic.
Proof. apply ots_parse_never_panics. Qed.
Theorem C82_public_key R n p q id k b pub : reg_wf R n ->
  (reg_ots R p -> (0 <= q < 2 ^ 32)%Z -> length id = 16 -> length k = o_n p ->
    ots_pub_parse R (ots_pub_bytes (OtsPub p q id k)) = Ok (OtsPub p q id k)) /\
  (bytes_ok b -> ots_pub_parse R b = Ok pub -> ots_pub_bytes pub = b) /\ ots_pub_parse R b <> Panic.
Proof.
  intros RW. split; [|split].
  - intros RO Bq Li Lk. destruct RW as [R1 _]. destruct (R1 _ _ RO) as (_ & WF & _). pose proof WF as (_ & _ & _ & _ & _ & _ & _ & _ & _ & T). apply ots_pub_rt; auto.
  - intros B E. apply (ots_pub_inv RW B E).
  - unfold ots_pub_parse. destruct (length b <? 4); [discriminate|]. destruct (get_ots R _); [|discriminate]. destruct (length b <? _); [discriminate|]. destruct (_ <? length b); discriminate.
Qed.

(** * C83: the tree *)
(** Every stored node is the one of the RFC: node r at height k above the leaves. *)
Theorem C83_tree l p id seed k r : lms_wf l p -> k <= l_h l -> (2 ^ Z.of_nat (l_h l - k) <= r < 2 ^ (Z.of_nat (l_h l - k) + 1))%Z ->
  nth (Z.to_nat (r - 1)) (s_tree (lms_gen l p id seed)) [] = node p id seed (l_h l) k r.
Proof.
  intros LW Lk Br. rewrite gen_gk by auto. destruct LW as (_ & _ & Hh & _). cbn [gk s_tree].
  pose proof (@pow_1 (l_h l - k)). assert ((2 ^ (Z.of_nat (l_h l - k) + 1) <= 2 ^ (Z.of_nat (l_h l) + 1))%Z) by (apply Z.pow_le_mono_r; lia).
  pose proof (@gen_tree_node l p id seed Hh r ltac:(lia)) as G. unfold tget in G. rewrite G. unfold nodeR.
  assert (EL : Z.log2 r = Z.of_nat (l_h l - k)) by (apply Z.log2_unique; rewrite <- ?Z.add_1_r; lia).
  rewrite EL, Nat2Z.id. f_equal. lia.
Qed.
Theorem C83_public_key l p id seed : lms_wf l p -> s_pub (lms_gen l p id seed) = LmsPub l p id (tree_root p id seed (l_h l)) /\ s_q (lms_gen l p id seed) = 0%Z.
Proof. intros LW. rewrite gen_gk by auto. split; reflexivity. Qed.

(** * C84: signing with LMS *)
Theorem C84_history R n l p id seed ops : lkey R n l p id seed ->
  exists k outs, lms_run R (lms_gen l p id seed) ops = (k, outs) /\ s_q k = Z.of_nat (length outs) /\ (Z.of_nat (length outs) <= 2 ^ Z.of_nat (l_h l))%Z /\
    lms_priv_parse R (lms_priv_bytes k) = Ok k /\
    forall i c s, nth_error outs i = Some (c, s) -> In (OSign c) ops /\ exists x, nonce (c_opt c) (c_rng c) = Ok x /\
      rfc_lms_sig l p id seed (Z.of_nat i) x (c_msg c) s /\
      (length x = n -> exists b, lms_sig_bytes s = Ok b /\ length b = lms_sig_length l p /\ lms_verify R (s_pub (lms_gen l p id seed)) (c_msg c) b = Ok true).
Proof.
  intros (LW & RO & RL & Ln & Li & Ls). rewrite gen_gk by auto. pose proof (@pow_1 (l_h l)) as P1.
  destruct (@run_ok R l p id seed ops LW RO RL Li Ls 0 ltac:(lia)) as (outs & E & Bo & Mq & F). rewrite Z.add_0_l in E, Bo. exists (gk l p id seed (Z.of_nat (length outs))), outs. split; [exact E|].
  split; [reflexivity|]. split; [exact Bo|]. pose proof LW as (WF & Lm & Hh & _). pose proof (pow_h Hh) as PH. split.
  { pose proof (@priv_roundtrip R l p id seed (Z.of_nat (length outs)) LW RO RL Li ltac:(lia) ltac:(lia)) as G. rewrite firstn_all2 in G by lia. exact G. }
  intros i c s N. assert (Li' : i < length outs) by (apply nth_error_Some; congruence). rewrite Forall_forall in F. destruct (F _ (nth_error_In _ _ N)) as (I & x & Nx & Es). cbn [fst snd] in *.
  assert (Eq : g_q s = Z.of_nat i).
  { apply (f_equal (fun v => nth_error v i)) in Mq. rewrite !nth_error_map, N in Mq. rewrite (nth_error_nth' _ 0) in Mq by (rewrite seq_length; lia). rewrite seq_nth in Mq by lia. cbn in Mq. injection Mq as Mq. lia. }
  rewrite Eq in Es. split; [exact I|]. exists x. split; [exact Nx|]. rewrite Es. split; [apply made_rfc; auto|]. intros Lx.
  assert (Sh : lshaped l p (made l p id seed (Z.of_nat i) x (c_msg c))) by (apply made_lshaped; [auto|lia|congruence]).
  eexists. split; [apply (lms_sig_bytes_ok Sh)|]. split; [apply (sig_enc_len LW Sh)|]. unfold lms_verify. rewrite lms_sig_parse_made by auto.
  apply (@lms_made_verifies l p id seed (Z.of_nat i)); auto; [lia|congruence].
Qed.
(** Exactly 2^h calls that get a nonce succeed. *)
Theorem C84_count R l p id seed cs : lms_wf l p -> Forall (fun c => exists x, nonce (c_opt c) (c_rng c) = Ok x) cs ->
  length (snd (lms_run R (lms_gen l p id seed) (map OSign cs))) = Nat.min (length cs) (Z.to_nat (2 ^ Z.of_nat (l_h l))).
Proof.
  intros LW F. pose proof (@pow_1 (l_h l)). rewrite gen_gk by auto. rewrite (@run_count R l p id seed cs LW F 0 ltac:(lia)). f_equal. f_equal. lia.
Qed.
(** A seed that is longer than M is cut when the key is saved and loaded: the loaded key is that of another seed. A shorter one cannot be loaded. *)
Theorem C84_seed_length_refuted R l p id seed : lms_wf l p -> reg_ots R p -> reg_lms R l -> length id = 16 ->
  (l_m l <= length seed -> lms_priv_parse R (lms_priv_bytes (lms_gen l p id seed)) = Ok (lms_gen l p id (firstn (l_m l) seed))) /\
  (length seed < l_m l -> lms_priv_parse R (lms_priv_bytes (lms_gen l p id seed)) = Err).
Proof.
  intros LW RO RL Li. rewrite !gen_gk by auto. split; intros L; [apply priv_roundtrip; auto; lia|apply priv_short; auto].
Qed.
(** Loading an old copy of a key signs with a leaf that is already used. *)
Theorem C84_old_copy R n l p id seed c1 c2 k1 s1 k0 s2 : lkey R n l p id seed ->
  lms_sign (lms_gen l p id seed) (c_rng c1) (c_opt c1) (c_msg c1) = (k1, Ok s1) ->
  lms_priv_parse R (lms_priv_bytes (lms_gen l p id seed)) = Ok k0 -> snd (lms_sign k0 (c_rng c2) (c_opt c2) (c_msg c2)) = Ok s2 -> g_q s2 = g_q s1.
Proof.
  intros (LW & RO & RL & Ln & Li & Ls) S1 P S2. rewrite gen_gk in * by auto. pose proof (@pow_1 (l_h l)).
  pose proof (@priv_roundtrip R l p id seed 0 LW RO RL Li ltac:(lia) ltac:(lia)) as G. rewrite firstn_all2 in G by lia. rewrite G in P. apply ok_inj in P. subst k0.
  destruct (nonce_cases (c_opt c1) (c_rng c1)) as [(x & N1)|N1]; [|rewrite lms_sign_none in S1 by auto; discriminate].
  destruct (nonce_cases (c_opt c2) (c_rng c2)) as [(y & N2)|N2]; [|rewrite lms_sign_none in S2 by auto; discriminate].
  rewrite (@lms_sign_ok l p id seed 0 _ _ (c_msg c1) x LW ltac:(lia) N1) in S1. rewrite (@lms_sign_ok l p id seed 0 _ _ (c_msg c2) y LW ltac:(lia) N2) in S2.
  injection S1 as <- <-. cbn [snd] in S2. apply ok_inj in S2. subst s2. reflexivity.
Qed.

(** * C85: verifying LMS *)
Theorem C85_verify R n l p id k msg b : reg_wf R n -> reg_ots R p -> reg_lms R l -> bytes_ok b ->
  lms_verify R (LmsPub l p id k) msg b = Ok true <->
  exists s, lshaped l p s /\ lms_sig_bytes s = Ok b /\ exists cs, winternitz p (msg_digest p id (g_q s) (og_c (g_ots s)) msg) cs /\
    o_hash p (up_input p id (l_h l) (g_q s) (o_hash p (pblc p id (g_q s) (verified_end p id (g_q s) (g_ots s) cs))) (g_path s) (l_h l)) = k.
Proof. apply lms_verify_inv. Qed.
(** Bytes accepted under a generated key carry the path of the key and chains that end as those of its leaf, or show two inputs
    with one hash: at the ends of the chains or at a node of the tree. *)
Theorem C85_binding R n l p id seed msg b : reg_wf R n -> reg_ots R p -> reg_lms R l -> bytes_ok b ->
  lms_verify R (s_pub (lms_gen l p id seed)) msg b = Ok true ->
  exists s cs, lms_sig_bytes s = Ok b /\ lshaped l p s /\ winternitz p (msg_digest p id (g_q s) (og_c (g_ots s)) msg) cs /\
    let kc := o_hash p (pblc p id (g_q s) (verified_end p id (g_q s) (g_ots s) cs)) in
    (((forall i, i < o_p p -> verified_end p id (g_q s) (g_ots s) cs i = chain_end p id seed (g_q s) i) /\ g_path s = map (sibling p id seed (l_h l) (g_q s)) (seq 0 (l_h l))) \/
     collision p (pblc p id (g_q s) (verified_end p id (g_q s) (g_ots s) cs)) (pblc p id (g_q s) (chain_end p id seed (g_q s))) \/
     exists j, j <= l_h l /\ collision p (up_input p id (l_h l) (g_q s) kc (g_path s) j)
                                (node_input p id seed (l_h l) j ((2 ^ Z.of_nat (l_h l) + g_q s) / 2 ^ Z.of_nat j))).
Proof.
  intros RW RO RL B V.
  assert (LW : lms_wf l p).
  { destruct RW as [A1 A2]. destruct (A1 _ _ RO) as (_ & WF & Ln). destruct (A2 _ _ RL) as (T & Lm & Hh & Bt). split; [exact WF|]. split; [congruence|]. split; [exact Hh|exact Bt]. }
  rewrite gen_gk in V by auto. cbn [gk s_pub] in V. apply (lms_verify_inv _ _ _ RW RO RL B) in V as (s & Sh & Eb & cs & W & H).
  exists s, cs. split; [exact Eb|]. split; [exact Sh|]. split; [exact W|]. cbv zeta. pose proof Sh as (_ & So & Lp & _ & Bq). pose proof LW as (WF & _ & Hh & _).
  set (kc := o_hash p (pblc p id (g_q s) _)) in *.
  assert (ER : ((2 ^ Z.of_nat (l_h l) + g_q s) / 2 ^ Z.of_nat (l_h l) = 1)%Z) by (symmetry; apply Z.div_unique with (r := g_q s); lia).
  assert (H' : o_hash p (up_input p id (l_h l) (g_q s) kc (g_path s) (l_h l)) = node p id seed (l_h l) (l_h l) ((2 ^ Z.of_nat (l_h l) + g_q s) / 2 ^ Z.of_nat (l_h l))) by (rewrite ER; exact H).
  destruct (@binding l p id seed Hh (g_q s) kc (g_path s) (l_h l) WF Bq (Nat.le_refl _) H') as [(Ek & Ep)|(j & Lj & NE & EH)].
  - destruct (ends_or_collision WF So Ek) as [A|A]; [left|right; left; exact A]. split; [exact A|].
    apply nth_ext with (d := []) (d' := []); [rewrite map_length, seq_length; exact Lp|]. intros i Li. rewrite nth_map_seq0 by lia. apply Ep. lia.
  - right. right. exists j. split; [exact Lj|]. split; assumption.
Qed.
Theorem C85_signature_roundtrip R n l p s : reg_wf R n -> reg_ots R p -> reg_lms R l -> lshaped l p s ->
  exists b, lms_sig_bytes s = Ok b /\ length b = lms_sig_length l p /\ lms_sig_parse R b = Ok s.
Proof.
  intros RW RO RL Sh. assert (LW : lms_wf l p).
  { destruct RW as [A1 A2]. destruct (A1 _ _ RO) as (_ & WF & Ln). destruct (A2 _ _ RL) as (T & Lm & Hh & Bt). split; [exact WF|]. split; [congruence|]. split; [exact Hh|exact Bt]. }
  eexists. split; [apply (lms_sig_bytes_ok Sh)|]. split; [apply (sig_enc_len LW Sh)|]. apply lms_sig_parse_made; auto.
Qed.
Theorem C85_signature_canonical R n b s : reg_wf R n -> bytes_ok b -> lms_sig_parse R b = Ok s ->
  lms_sig_bytes s = Ok b /\ exists l p, reg_ots R p /\ reg_lms R l /\ lshaped l p s.
Proof.
  intros RW B E. destruct (lms_parse_inv RW B E) as (l & p & LW & RO & RL & Sh & Eb). split; [rewrite (lms_sig_bytes_ok Sh); congruence|]. exists l, p. auto.
Qed.
(** Verify and NewLmsSignatureFromBytes do not always return: they panic for exactly these lengths. *)
Theorem C85_total_refuted R n l p id k msg b : reg_wf R n -> reg_ots R p -> reg_lms R l -> bytes_ok b ->
  (lms_verify R (LmsPub l p id k) msg b = Panic <-> lms_sig_parse R b = Panic) /\
  (lms_sig_parse R b = Panic <-> 8 <= length b /\ exists p', get_ots R (be_val (slice 4 4 b)) = Some p' /\ ots_sig_length p' < length b < ots_sig_length p' + 8).
Proof.
  intros RW RO RL B. split; [|apply (lms_parse_panics b RW)]. unfold lms_verify. destruct (lms_sig_parse R b) as [s| |] eqn:E; try (split; congruence).
  destruct (lms_parse_inv RW B E) as (l' & p' & LW & RO' & RL' & Sh & _).
  destruct (@verify_sig_total R n l p id k msg s RW RO RL) as (v & V); [exists l', p'; auto|]. rewrite V. split; discriminate.
Qed.
Theorem C85_public_key R n k b pub : reg_wf R n ->
  (reg_ots R (p_ots k) -> reg_lms R (p_typ k) -> length (p_id k) = 16 -> length (p_k k) = n -> lms_pub_parse R (lms_pub_bytes k) = Ok k) /\
  (bytes_ok b -> lms_pub_parse R b = Ok pub -> lms_pub_bytes pub = b) /\ lms_pub_parse R b <> Panic.
Proof.
  intros RW. split; [|split].
  - intros RO RL Li Lk. destruct RW as [A1 A2]. destruct (A1 _ _ RO) as (_ & WF & Ln). destruct (A2 _ _ RL) as (T & Lm & Hh & Bt). apply pub_roundtrip; auto; [|congruence].
    split; [exact WF|]. split; [congruence|]. split; [exact Hh|exact Bt].
  - intros B E. apply (pub_parse_inv RW B E).
  - unfold lms_pub_parse. destruct (length b <? 8); [discriminate|]. destruct (get_lms R _); [|discriminate]. destruct (get_ots R _); [|discriminate]. destruct (negb _); discriminate.
Qed.

(** * C86: HSS *)
Definition hss_opts_ok (R : registry) (opts : list (lms_param * ots_param)) : Prop :=
  1 <= length opts <= 5 /\ Forall (fun o => reg_lms R (fst o) /\ reg_ots R (snd o)) opts.
(** A generated key with up to 5 levels, saved and loaded at any time: call i makes the signature with leaf i of the lowest level, which
    verifies, until the 2^h leaves of that level are used; then every call fails. *)
Theorem C86_history R opts seed id rds cs : reg_wf R 32 -> hss_opts_ok R opts -> length seed = 32 -> length id = 16 -> S (length rds) = length opts ->
  Forall (fun r => exists i c, r = (Some i, Some c) /\ length i = 16 /\ length c = 32) rds ->
  Forall (fun c => exists x, snd (fst c) = Some x /\ length x = 32) cs ->
  exists k l p, hss_generate opts (Some seed) (Some id) rds = Ok k /\ hp_levels (hs_pub k) = Z.of_nat (length opts) /\ nth_error opts (length opts - 1) = Some (l, p) /\
    length (hss_run R k cs) = length cs /\
    forall i rl rng msg, nth_error cs i = Some (rl, rng, msg) ->
      if (Z.of_nat i <? 2 ^ Z.of_nat (l_h l))%Z then
        exists pre s b, nth_error (hss_run R k cs) i = Some (Ok (pre ++ b)) /\ lms_sig_bytes s = Ok b /\ g_q s = Z.of_nat i /\ hss_verify R (hs_pub k) msg (pre ++ b) = Ok true
      else nth_error (hss_run R k cs) i = Some Err.
Proof.
  intros RW (Lo & Fo) Ls Li Lr Fr Fc.
  assert (WF : forall l p, reg_lms R l -> reg_ots R p -> lms_wf l p /\ o_n p = 32).
  { intros l p RL RO. destruct RW as [A1 A2]. destruct (A1 _ _ RO) as (_ & WF & Ln). destruct (A2 _ _ RL) as (T & Lm & Hh & Bt). split; [|exact Ln]. split; [exact WF|]. split; [congruence|]. split; [exact Hh|exact Bt]. }
  destruct opts as [|[l0 p0] opts]; [cbn in Lo; lia|]. cbn [length] in *. pose proof (Forall_inv Fo) as (RL0 & RO0). cbn [fst snd] in *. destruct (WF l0 p0 RL0 RO0) as (LW0 & Ln0).
  assert (LK : lkey R 32 l0 p0 id seed) by (unfold lkey; repeat (split; [assumption|]); destruct LW0 as (_ & -> & _); congruence).
  destruct (@gen_down_ok R 32 l0 p0 id seed opts rds LK eq_refl ltac:(lia)) as (ks & ss & E & T & Lss & Hd & l & p & idl & N & LKl & La); [|exact Fr|].
  { apply Forall_inv_tail in Fo. eapply Forall_impl; [|exact Fo]. intros [l p] [A B]. cbn [fst snd] in *. destruct (WF l p A B). auto. }
  destruct (trust_head T) as (k0 & ks' & EK & _). rewrite EK in Hd. cbn [nth_error option_map] in Hd. injection Hd as Hd.
  destruct (chain_exists T) as (ch & Ech).
  set (pub := HssPub (Z.of_nat (S (length opts))) (s_pub k0)).
  assert (HS : hstate R 32 ss pub ch l p idl seed 0 (HssPriv pub ks ss)).
  { exists ks, k0. split; [reflexivity|]. split; [exact T|]. split; [lia|]. split; [rewrite EK; reflexivity|]. split; [unfold pub; rewrite Lss; reflexivity|]. split; [exact Ech|].
    split; [exact N|]. split; [exact LKl|]. pose proof (@pow_1 (l_h l)). lia. }
  exists (HssPriv pub ks ss), l, p. split.
  { unfold hss_generate. destruct (Nat.ltb_spec 5 (length ((l0, p0) :: opts))) as [X|X]; [cbn in X; lia|]. rewrite gen_gk by auto. rewrite E. cbn [rbind]. unfold pub. rewrite Hd. reflexivity. }
  split; [reflexivity|]. split.
  { rewrite La. clear. cbn [length]. replace (S (length opts) - 1) with (length opts) by lia. revert l0 p0. induction opts as [|[l p] opts IH]; intros l0 p0; [reflexivity|].
    cbn [length nth_error]. destruct opts as [|o opts]; [reflexivity|]. change (last ((l, p) :: o :: opts) (l0, p0)) with (last (o :: opts) (l0, p0)).
    rewrite (IH l p). f_equal. clear. revert o. induction opts as [|z opts IH]; intros o; [reflexivity|]. exact (IH z). }
  destruct (hss_history Fc HS) as (LL & H). split; [exact LL|]. intros i rl rng msg Ni. specialize (H i rl rng msg Ni). rewrite Z.add_0_l in H.
  destruct (Z.ltb_spec (Z.of_nat i) (2 ^ Z.of_nat (l_h l))) as [Q|Q]; [|exact H].
  destruct H as (s & c & Er & Es & No & V). cbn [hs_pub]. exists (be_bytes 4 (Z.of_nat (length ss)) ++ ch), s, (sig_enc l p s). rewrite <- app_assoc.
  split; [exact No|]. split; [|split; [rewrite Es; reflexivity|exact V]].
  apply (@lms_sig_bytes_ok l p). rewrite Es. rewrite Forall_forall in Fc. destruct (Fc _ (nth_error_In _ _ Ni)) as (x & Ex & Lx). cbn [fst snd] in Ex.
  destruct LKl as (LWl & _ & _ & Lnl & _). apply made_lshaped; [auto|lia|congruence].
Qed.
(** More than 5 levels, or none, are refused. *)
Theorem C86_levels opts rd1 rd2 rds : length opts = 0 \/ 5 < length opts -> hss_generate opts rd1 rd2 rds = Err.
Proof.
  unfold hss_generate. destruct opts as [|[l p] opts]; [reflexivity|]. intros [X|X]; [discriminate|].
  destruct (Nat.ltb_spec 5 (length ((l, p) :: opts))); [reflexivity|lia].
Qed.

(** * C87: HSS on arbitrary bytes *)
Theorem C87_public_key R n k b pub : reg_wf R n ->
  (reg_ots R (p_ots (hp_lms k)) -> reg_lms R (p_typ (hp_lms k)) -> length (p_id (hp_lms k)) = 16 -> length (p_k (hp_lms k)) = n -> (0 <= hp_levels k < 2 ^ 32)%Z ->
    hss_pub_parse R (hss_pub_bytes k) = Ok k) /\
  (bytes_ok b -> hss_pub_parse R b = Ok pub -> hss_pub_bytes pub = b) /\ hss_pub_parse R b <> Panic.
Proof.
  intros RW. split; [|split].
  - intros RO RL Li Lk Bl. destruct k as [lv k]. cbn [hp_lms hp_levels] in *. unfold hss_pub_parse, hss_pub_bytes. cbn [hp_lms hp_levels].
    destruct (Nat.ltb_spec (length (be_bytes 4 lv ++ lms_pub_bytes k)) 4) as [X|X]; [rewrite app_length, be_bytes_length in X; lia|].
    rewrite skipn_app_exact by apply be_bytes_length. rewrite (@slice_pre _ 4 (be_bytes 4 lv)) by apply be_bytes_length. rewrite getu32_be by auto.
    destruct (@C85_public_key R n k [] k RW) as (A & _). rewrite A by auto. reflexivity.
  - intros B E. unfold hss_pub_parse in E. destruct (Nat.ltb_spec (length b) 4) as [X|X]; [discriminate|].
    destruct (lms_pub_parse R (skipn 4 b)) as [kk| |] eqn:P; cbn [rbind] in E; try discriminate. apply ok_inj in E. subst pub. unfold hss_pub_bytes. cbn [hp_lms hp_levels].
    rewrite (pub_parse_inv RW (bytes_ok_skipn 4 B) P). rewrite be_getu32 by (auto using bytes_ok_slice; apply slice_length; lia). unfold slice. apply firstn_skipn.
  - unfold hss_pub_parse. destruct (length b <? 4); [discriminate|]. destruct (@C85_public_key R n (hp_lms pub) (skipn 4 b) (hp_lms pub) RW) as (_ & _ & A).
    destruct (lms_pub_parse R (skipn 4 b)); cbn [rbind]; congruence.
Qed.
(** Verify panics on signatures of keys with several levels when fewer than 8 bytes follow the number of levels. *)
Theorem C87_short_signature_refuted R pub msg rest : (2 <= hp_levels pub <= 5)%Z -> length rest < 8 ->
  hss_verify R pub msg (be_bytes 4 (hp_levels pub - 1) ++ rest) = Panic.
Proof.
  intros Lv Lr. unfold hss_verify. destruct (Nat.ltb_spec (length (be_bytes 4 (hp_levels pub - 1) ++ rest)) 4) as [X|X]; [rewrite app_length, be_bytes_length in X; lia|].
  rewrite (@slice_pre _ 4 (be_bytes 4 (hp_levels pub - 1))) by apply be_bytes_length. rewrite getu32_be by lia. rewrite u32_small by lia. rewrite Z.eqb_refl. cbn [negb].
  rewrite skipn_app_exact by apply be_bytes_length. destruct (Z.to_nat (hp_levels pub - 1)) as [|m] eqn:E; [lia|]. cbn [hss_verify_loop].
  unfold hss_parse_sig, sub. destruct (Nat.leb_spec 8 (length rest)); [lia|]. rewrite andb_false_r. reflexivity.
Qed.
(** Loading a private key with more than 5 levels panics instead of returning an error. *)
Theorem C87_many_levels_refuted R n ks rest : (6 <= Z.of_nat (length ks) < 2 ^ 32)%Z ->
  Forall (fun k => exists l p id seed q, lkey R n l p id seed /\ (0 <= q < 2 ^ 32)%Z /\ k = LmsPriv (LmsPub l p id (tree_root p id seed (l_h l))) q seed (s_tree (lms_gen l p id seed))) ks ->
  hss_priv_parse R (be_bytes 4 (Z.of_nat (length ks)) ++ concat (map lms_priv_bytes ks) ++ rest) = Panic.
Proof.
  intros L F. unfold hss_priv_parse. set (b := be_bytes 4 _ ++ _). destruct (Nat.ltb_spec (length b) 4) as [X|X]; [unfold b in X; rewrite app_length, be_bytes_length in X; lia|].
  unfold b. rewrite (@slice_pre _ 4 (be_bytes 4 (Z.of_nat (length ks)))) by apply be_bytes_length. rewrite getu32_be by lia. rewrite Nat2Z.id, skipn_app_exact by apply be_bytes_length.
  assert (G : forall i, i <= 5 -> 5 < i + length ks -> parse_many (hss_parse_priv R) 5 (length ks) i (concat (map lms_priv_bytes ks) ++ rest) = Panic).
  { clear L b X. induction F as [|k ks (l & p & id & seed & q & LK & Bq & Ek) F IH]; intros i Hi L; cbn [length] in L; [lia|].
    cbn [length parse_many map concat]. pose proof LK as (LW & _). assert (Eg : k = gk l p id seed q) by (rewrite Ek, gen_gk by auto; reflexivity).
    rewrite Eg, <- app_assoc, (parse_priv_app _ LK Bq). cbn [rbind]. destruct (Nat.leb_spec 5 i); [reflexivity|]. rewrite IH by lia. reflexivity. }
  rewrite G by lia. reflexivity.
Qed.

(** * The hypotheses are met *)
Definition toy_hash (n : nat) (m : bytes) : bytes := repeat (fold_left (fun a x => (a * 31 + a / 8 + x + 7) mod 256) m 0)%Z n.
Lemma toy_hash_ok n m : length (toy_hash n m) = n /\ bytes_ok (toy_hash n m).
Proof.
  split; [apply repeat_length|]. apply bytes_ok_repeat. assert (G : forall l a, is_byte a -> is_byte (fold_left (fun a x => (a * 31 + a / 8 + x + 7) mod 256) l a)%Z).
  { induction l as [|x l IH]; intros a Ha; cbn [fold_left]; auto. apply IH. apply Z.mod_pos_bound. lia. } apply G. split; lia.
Qed.
Definition toy_registry : registry := default_registry (toy_hash 32) (toy_hash 32).
Example C80_instance : reg_wf toy_registry 32.
Proof. apply C80_parameters; apply toy_hash_ok. Qed.
Example C84_instance : lkey toy_registry 32 (LmsP 5 32 5) (ots_set 1 (toy_hash 32) 1 265 7 8516) (repeat 1%Z 16) (repeat 2%Z 32).
Proof.
  assert (RO : get_ots toy_registry 1 = Some (ots_set 1 (toy_hash 32) 1 265 7 8516)) by reflexivity.
  destruct C80_instance as [A _]. destruct (A _ _ RO) as (_ & WF & _). split; [split; [exact WF|split; [reflexivity|cbn; lia]]|]. repeat split.
Qed.
Example C86_instance : hss_opts_ok toy_registry [(LmsP 5 32 5, ots_set 1 (toy_hash 32) 1 265 7 8516); (LmsP 6 32 10, ots_set 3 (toy_hash 32) 4 67 4 2180)].
Proof. split; [cbn; lia|]. repeat constructor. Qed.

(** A small parameter set, with a hash of one byte, and a tree of height 2. *)
Definition tiny : ots_param := OtsP 1 (toy_hash 1) 1 1 1 12 12 0.
Definition tiny_lms : lms_param := LmsP 5 1 2.
Definition tiny_registry : registry := Registry (fun t => if (t =? 1)%Z then Some tiny else None) (fun t => if (t =? 5)%Z then Some tiny_lms else None).
Example C85_instance : reg_wf tiny_registry 1.
Proof.
  split; intros t x; cbn [tiny_registry get_ots get_lms].
  - destruct (Z.eqb_spec t 1) as [->|]; [|discriminate]. intros E. injection E as <-. split; [reflexivity|]. split; [|reflexivity].
    unfold ots_wf. cbn [tiny o_size o_n o_hash o_w o_ls o_p o_type]. split; [reflexivity|]. split; [lia|]. split; [apply toy_hash_ok|]. split; [apply toy_hash_ok|]. repeat split; auto; lia.
  - destruct (Z.eqb_spec t 5) as [->|]; [|discriminate]. intros E. injection E as <-. cbn. lia.
Qed.
(** Two signatures of one key verify with their leaf numbers; one under another message does not; a cut one panics. *)
Example C84_runs :
  let k := lms_gen tiny_lms tiny (repeat 3%Z 16) [9%Z] in
  match lms_run tiny_registry k [OSign (Call (Some [7%Z]) None [1; 2]%Z); OReload; OSign (Call None (Some [8%Z]) [5]%Z); OPrecompute; OSign (Call None None [])] with
  | (_, [(_, s1); (_, s2)]) =>
      match lms_sig_bytes s1, lms_sig_bytes s2 with
      | Ok b1, Ok b2 => (g_q s1, g_q s2, lms_verify tiny_registry (s_pub k) [1; 2]%Z b1, lms_verify tiny_registry (s_pub k) [5]%Z b2,
          lms_verify tiny_registry (s_pub k) [5]%Z b1, lms_verify tiny_registry (s_pub k) [1; 2]%Z (firstn 19 b1)) = (0%Z, 1%Z, Ok true, Ok true, Ok false, Panic)
      | _, _ => False
      end
  | _ => False
  end.
Proof. vm_compute. reflexivity. Qed.
Example C84_seed_length_instance : p_k (s_pub (lms_gen tiny_lms tiny (repeat 3%Z 16) [9; 4]%Z)) <> p_k (s_pub (lms_gen tiny_lms tiny (repeat 3%Z 16) [9]%Z)).
Proof. vm_compute. discriminate. Qed.

(** RFC 8554 signs the public key of the next level; the code signs its hash. A signature made after the RFC is refused. *)
Definition rfc_two_levels : lms_priv * lms_priv * res lms_sig * res lms_sig :=
  let k1 := lms_gen tiny_lms tiny (repeat 3%Z 16) [9%Z] in let k2 := lms_gen tiny_lms tiny (repeat 4%Z 16) [9%Z] in
  (k1, k2, snd (lms_sign k1 None (Some [5%Z]) (lms_pub_bytes (s_pub k2))), snd (lms_sign k2 None (Some [6%Z]) [1%Z])).
Theorem C86_rfc_refuted : exists R pub next s1 s2 b1 b2 msg, reg_wf R 1 /\ lms_sig_bytes s1 = Ok b1 /\ lms_sig_bytes s2 = Ok b2 /\
  lms_verify R pub (lms_pub_bytes next) b1 = Ok true /\ lms_verify R next msg b2 = Ok true /\
  hss_verify R (HssPub 2 pub) msg (be_bytes 4 1 ++ b1 ++ lms_pub_bytes next ++ b2) = Ok false.
Proof.
  assert (H : match rfc_two_levels with
    | (k1, k2, Ok s1, Ok s2) => match lms_sig_bytes s1, lms_sig_bytes s2 with
      | Ok b1, Ok b2 => (lms_verify tiny_registry (s_pub k1) (lms_pub_bytes (s_pub k2)) b1, lms_verify tiny_registry (s_pub k2) [1%Z] b2,
          hss_verify tiny_registry (HssPub 2 (s_pub k1)) [1%Z] (be_bytes 4 1 ++ b1 ++ lms_pub_bytes (s_pub k2) ++ b2)) = (Ok true, Ok true, Ok false)
      | _, _ => False end
    | _ => False end) by (vm_compute; reflexivity).
  destruct rfc_two_levels as [[[k1 k2] [s1| |]] [s2| |]]; try contradiction. destruct (lms_sig_bytes s1) as [b1| |] eqn:E1; try contradiction.
  destruct (lms_sig_bytes s2) as [b2| |] eqn:E2; try contradiction. exists tiny_registry, (s_pub k1), (s_pub k2), s1, s2, b1, b2, [1%Z].
  split; [exact C85_instance|]. split; [exact E1|]. split; [exact E2|]. apply pair_equal_spec in H as [H H3]. apply pair_equal_spec in H as [H1 H2]. auto.
Qed.

Definition C80_C87 := (C80_coefficients, C80_no_domination, C80_parameters, C81_public_key, C81_sign, C81_one_time, C81_verify, C81_forgery, C82_signature_roundtrip,
  C82_signature_canonical, C82_signature_total, C82_public_key, C83_tree, C83_public_key, C84_history, C84_count, C84_seed_length_refuted, C84_old_copy, C85_verify, C85_binding,
  C85_signature_roundtrip, C85_signature_canonical, C85_total_refuted, C85_public_key, C86_history, C86_levels, C86_rfc_refuted, C87_public_key, C87_short_signature_refuted, C87_many_levels_refuted).
Print Assumptions C80_C87.
