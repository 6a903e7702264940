(** Proofs about PbeModel. *)
From Verif Require Import Base PaddingModel BlockModeModel StreamModel StreamSpec FeedbackModel FeedbackSpec AeadSpec CcmModel CcmSpec CcmProps FlModel BigModel
  KdfModel KdfSpec KdfProofs KdfProofs2 KdfProps PemModel PemSpec PemProofs PbeModel PbeSpec.
Set Implicit Arguments. Unset Strict Implicit.
Local Open Scope nat_scope.

(** ** pbes1: keys *)
Lemma by_blocks_inj h T n a b : by_blocks h T n a -> by_blocks h T n b -> a = b.
Proof.
  intros A B. pose proof (by_blocks_prefix A B (Z.le_refl n)) as E. destruct A as [A _], B as [B _]. rewrite E. apply firstn_all2. lia.
Qed.
Lemma by_blocks_ok h T n k : by_blocks h T n k -> 0 < h -> (forall i, bytes_ok (T i)) -> bytes_ok k.
Proof.
  intros [_ E] P O. unfold bytes_ok. apply (@FlProofs.Forall_nth' Z is_byte 0%Z). intros i Hi. rewrite E by auto.
  destruct (Nat.lt_ge_cases (i mod h) (length (T (i / h)))) as [L|L].
  - specialize (O (i / h)). exact (proj1 (Forall_forall _ _) O _ (nth_In _ _ L)).
  - rewrite nth_overflow by auto. unfold is_byte. lia.
Qed.
Lemma iter_digest H h x n : (forall y, length (H y) = h /\ bytes_ok (H y)) -> 0 < n -> length (Nat.iter n H x) = h /\ bytes_ok (Nat.iter n H x).
Proof. intros D P. destruct n; [lia|]. cbn [Nat.iter nat_rect]. apply D. Qed.
Lemma p12_block_ok H h v r ID s p i : (forall y, length (H y) = h /\ bytes_ok (H y)) -> 0 < r -> bytes_ok (p12_block H v r ID s p i).
Proof. intros D P. unfold p12_block, p12_A. now apply (@iter_digest H h). Qed.
(** with 20 for the length of the digest when it is 16: right as long as one block is enough *)
Lemma p12_short H h u v salt pw r ID n : (forall y, length (H y) = h /\ bytes_ok (H y)) -> 0 < v -> 0 < h <= u -> 0 < n <= h ->
  exists key, p12_key H u v salt pw r ID (Z.of_nat n) = Ok key /\ by_blocks h (p12_block H v (Nat.max 1 (Z.to_nat r)) ID salt pw) (Z.of_nat n) key.
Proof.
  intros D V U N. unfold p12_key. destruct (Nat.eqb_spec v 0); [lia|]. destruct (Nat.eqb_spec u 0); [lia|].
  assert (C : Z.quot (Z.of_nat n + Z.of_nat u - 1) (Z.of_nat u) = 1%Z). { symmetry. apply Z.quot_unique with (r := (Z.of_nat n - 1)%Z); lia. }
  rewrite C. destruct (Z.ltb_spec 1 0); [lia|]. change (Z.to_nat 1) with 1. change (seq 0 1) with [0]. cbn [fold_left]. unfold p12_step.
  change (0 <? 1 - 1) with false. cbn [Nat.mul firstn skipn app fst]. set (Ai := Nat.iter _ H _).
  assert (EA : Ai = p12_block H v (Nat.max 1 (Z.to_nat r)) ID salt pw 0).
  { unfold Ai, p12_block, p12_A. cbn [Nat.iter nat_rect]. rewrite !p12_fill_eq by auto. generalize (repeat ID v ++ repeated (ceil_to v (length salt)) salt ++ repeated (ceil_to v (length pw)) pw).
    intros x. replace (Nat.max 1 (Z.to_nat r)) with (S (Z.to_nat (r - 1))) by lia. generalize (Z.to_nat (r - 1)) as k.
    induction k as [|k IH]; [reflexivity|]. cbn [Nat.iter nat_rect] in *. unfold Nat.iter in IH. now rewrite IH. }
  assert (LA : length Ai = h). { rewrite EA. unfold p12_block, p12_A. apply (@iter_digest H h); auto. lia. }
  assert (LG : length (gocopy (repeat 0%Z (u + 0)) Ai) = u).
  { unfold gocopy. rewrite app_length, firstn_length, skipn_length, repeat_length. lia. }
  rewrite cut_ok by (rewrite ?LG; lia). eexists. split; [reflexivity|]. rewrite Nat2Z.id. split; [rewrite firstn_length, LG; lia|].
  intros p Hp. rewrite firstn_length, LG in Hp. assert (p < n) by lia. rewrite nth_firstn by auto. rewrite Nat.div_small, Nat.mod_small by lia. rewrite <- EA.
  rewrite nth_gocopy by (rewrite repeat_length; lia). destruct (Nat.ltb_spec p (length Ai)); [reflexivity|lia].
Qed.

Definition p1_good (a : p1alg) : bool :=
  match q_derive a with
  | DPkcs12 => match q_hash a with HSha1 => true | _ => (1 <=? q_key a) && (q_key a <=? 16) && (1 <=? q_bs a) && (q_bs a <=? 16) end
  | DPbkdf1 => q_key a + q_bs a <=? 16
  end &&
  match q_kind a with
  | K1Rc4 => (1 <=? q_key a) && (q_key a <=? 256)
  | K1Block k => (q_bs a =? bsize1 k) &&
      match k with D1Des => q_key a =? 8 | D1TDes => q_key a =? 24 | D1TwoDes => q_key a =? 16 | D1Rc2 => (1 <=? q_key a) && (q_key a <=? 128) | D1Cast5 => q_key a =? 16 | D1Twofish => q_key a =? 32 end
  end && (q_iter a =? 2048)%Z.
Lemma p1_all_good : forallb p1_good p1algs = true.
Proof. vm_compute. reflexivity. Qed.
Lemma p1_found : Forall (fun a => get_p1 (q_oid a) = Some a) p1algs.
Proof. unfold p1algs. repeat (apply Forall_cons; [vm_compute; reflexivity|]). apply Forall_nil. Qed.

Section p1.
  Variable hash : hkind -> bytes -> bytes.
  Variable newc : bkind1 -> bytes -> res cipher.
  Variable rc4 : bytes -> nat -> Z.
  Hypotheses (Hh : hashes hash) (Hc : block_ciphers1 newc).
  Lemma hsize_bound h : 16 <= hsize h <= 20. Proof. destruct h; cbn; lia. Qed.
  Lemma derive_ok a pw salt iter : In a p1algs -> bytes_ok pw -> bytes_ok salt ->
    exists key iv, derive hash a pw salt iter = Ok (key, iv) /\ derived hash a pw salt iter key iv /\ length key = q_key a /\ length iv = q_bs a /\
      bytes_ok key /\ bytes_ok iv /\ forall key' iv', derived hash a pw salt iter key' iv' -> key' = key /\ iv' = iv.
  Proof.
    intros I Op Os. pose proof (proj1 (forallb_forall _ _) p1_all_good a I) as G. unfold p1_good in G. rewrite !andb_true_iff in G. destruct G as [[G _] _].
    unfold derive, derived. set (h := q_hash a) in *. set (r := Nat.max 1 (Z.to_nat iter)). cbv zeta. pose proof (hsize_bound h) as HB.
    destruct (q_derive a).
    - assert (K : forall ID n, (h = HSha1 \/ 1 <= n <= 16) -> exists key, p12_key (hash h) 20 64 salt pw iter ID (Z.of_nat n) = Ok key /\
        by_blocks (hsize h) (p12_block (hash h) 64 r ID salt pw) (Z.of_nat n) key).
      { intros ID n Q. destruct (Nat.eq_dec (hsize h) 20) as [E|E].
        - rewrite E. apply C74_pkcs12; auto; try lia. split; [lia|]. rewrite <- E. apply Hh.
        - destruct Q as [Q|Q]; [rewrite Q in E; cbn in E; lia|]. assert (hsize h = 16) by (destruct h; cbn in *; lia).
          apply p12_short; try lia. apply Hh. }
      assert (Q : forall n, (1 <= n <= 16 \/ h = HSha1) -> h = HSha1 \/ 1 <= n <= 16) by tauto.
      assert (Qk : (h = HSha1 \/ 1 <= q_key a <= 16) /\ (h = HSha1 \/ 1 <= q_bs a <= 16)).
      { destruct h; try (rewrite !andb_true_iff, !Nat.leb_le in G; split; right; lia). split; left; reflexivity. }
      destruct (K 1%Z (q_key a)) as (key & E1 & B1); [tauto|]. destruct (K 2%Z (q_bs a)) as (iv & E2 & B2); [tauto|].
      exists key, iv. unfold derive_pkcs12. rewrite E1, E2. cbn [rbind]. split; [reflexivity|]. split; [auto|].
      assert (R0 : 0 < r) by (unfold r; lia).
      split; [destruct B1; lia|]. split; [destruct B2; lia|]. split; [eapply by_blocks_ok; eauto; [lia|]; intros; apply (@p12_block_ok _ (hsize h)); auto; apply Hh|].
      split; [eapply by_blocks_ok; eauto; [lia|]; intros; apply (@p12_block_ok _ (hsize h)); auto; apply Hh|].
      intros key' iv' [C1 C2]. split; eapply by_blocks_inj; eauto.
    - apply Nat.leb_le in G. unfold derive_pbkdf1.
      assert (ET : Nat.iter (Z.to_nat (iter - 1)) (hash h) (hash h (pw ++ salt)) = Nat.iter r (hash h) (pw ++ salt)).
      { unfold r. replace (Nat.max 1 (Z.to_nat iter)) with (S (Z.to_nat (iter - 1))) by lia. generalize (Z.to_nat (iter - 1)) as k.
        induction k as [|k IH]; [reflexivity|]. cbn [Nat.iter nat_rect] in *. unfold Nat.iter in IH. now rewrite IH. }
      rewrite ET. destruct (@iter_digest (hash h) (hsize h) (pw ++ salt) r (Hh h) ltac:(unfold r; lia)) as [LT OT]. set (T := Nat.iter r _ _) in *.
      rewrite LT. destruct (Nat.ltb_spec (hsize h) (q_key a)); [lia|]. destruct (Nat.ltb_spec (hsize h) (q_key a + q_bs a)); [lia|].
      do 2 eexists. split; [reflexivity|]. unfold slice.
      assert (L1 : length (firstn (q_key a) T) = q_key a) by (rewrite firstn_length; lia).
      assert (L2 : length (firstn (q_bs a) (skipn (q_key a) T)) = q_bs a) by (rewrite firstn_length, skipn_length; lia).
      split. { split; [auto|]. split; [auto|]. exists (skipn (q_bs a) (skipn (q_key a) T)). now rewrite !firstn_skipn. }
      split; [auto|]. split; [auto|]. split; [now apply bytes_ok_firstn|]. split; [now apply bytes_ok_firstn, bytes_ok_skipn|].
      intros key' iv' (M1 & M2 & rest & ->). rewrite <- M1, <- M2. rewrite firstn_app, Nat.sub_diag, firstn_O, app_nil_r, firstn_all.
      rewrite skipn_app, Nat.sub_diag, skipn_all. cbn [app skipn]. rewrite firstn_app, Nat.sub_diag, firstn_O, app_nil_r, firstn_all. auto.
  Qed.
  Lemma cipher_ok a k key : In a p1algs -> q_kind a = K1Block k -> length key = q_key a -> bytes_ok key ->
    exists c, newc k key = Ok c /\ lawful c /\ len_ok c /\ bsz c = q_bs a /\ bsz c <= 255.
  Proof.
    intros I K L O. pose proof (proj1 (forallb_forall _ _) p1_all_good a I) as G. unfold p1_good in G. rewrite K, !andb_true_iff in G.
    destruct G as [[_ [B G]] _]. apply Nat.eqb_eq in B. destruct (@Hc k key) as (c & E & Lc & Kc & S).
    { rewrite L. unfold bkey1. destruct k; rewrite ?andb_true_iff, ?Nat.eqb_eq, ?Nat.leb_le in G; auto. }
    { exact O. }
    exists c. rewrite S, B. split; [auto|]. split; [auto|]. split; [auto|]. split; [auto|]. destruct k; cbn; lia.
  Qed.
  Lemma rc4_key a : In a p1algs -> q_kind a = K1Rc4 -> 1 <= q_key a <= 256.
  Proof.
    intros I K. pose proof (proj1 (forallb_forall _ _) p1_all_good a I) as G. unfold p1_good in G. rewrite K, !andb_true_iff in G.
    destruct G as [[_ [B G]] _]. apply Nat.leb_le in B, G. lia.
  Qed.
  Lemma rc4_xor_eq a key x : In a p1algs -> q_kind a = K1Rc4 -> length key = q_key a -> rc4_xor rc4 key x = Ok (xor_stream (rc4 key) 0 x).
  Proof.
    intros I K L. pose proof (rc4_key I K). unfold rc4_xor. rewrite L. destruct (Nat.ltb_spec (q_key a) 1); [lia|]. destruct (Nat.ltb_spec 256 (q_key a)); [lia|]. reflexivity.
  Qed.
End p1.
Lemma xor_stream_inv ks x : forall o, xor_stream ks o (xor_stream ks o x) = x.
Proof. induction x as [|b x IH]; intros o; cbn; [reflexivity|]. rewrite IH, Z.lxor_assoc, Z.lxor_nilpotent, Z.lxor_0_r. reflexivity. Qed.

(** ** pbes2 *)
Section opened.
  Variable c : cipher.
  Hypotheses (HL : lawful c) (HK : len_ok c) (Hb : bsz c <= 255).
  Definition opened (m : smode) (iv ct : bytes) : res bytes :=
    if negb (length iv =? bsz c) then Err else if pads m then open_padded m c iv ct else sym_dec m c iv ct.
  Lemma opened_iff m iv ct x : bytes_ok iv -> bytes_ok ct ->
    (opened m iv ct = Ok x <-> length iv = bsz c /\ opens m c iv ct x) /\ opened m iv ct <> Panic.
  Proof.
    intros Oi Oc. unfold opened. destruct (Nat.eqb_spec (length iv) (bsz c)) as [L|L]; cbn [negb].
    2:{ split; [|discriminate]. split; [discriminate|]. intros [A _]. lia. }
    destruct (pads m) eqn:P.
    - destruct (@open_padded_iff c HL HK Hb m iv ct x (conj L Oi) Oc P) as [I N]. split; [|auto]. rewrite I. tauto.
    - destruct (@sym_dec_is c HL HK Hb m iv ct (conj L Oi) Oc) as (y & E & D & _ & _ & U); [congruence|]. rewrite E. split; [|discriminate].
      unfold opens. rewrite P. split; [intros A; injection A as ->; auto|]. intros [_ A]. now rewrite (U _ A).
  Qed.
  Lemma padded_ok m iv x : isblock (bsz c) iv -> bytes_ok x ->
    exists e, sym_enc m c iv (if pads m then pkcs7_pad x (Z.of_nat (bsz c)) else x) = Ok e /\ opened m iv e = Ok x.
  Proof.
    intros Hi Ox. unfold opened. rewrite (proj1 Hi), Nat.eqb_refl. cbn [negb]. destruct (pads m) eqn:P.
    - destruct (@open_padded_enc c HL HK Hb m iv x Hi Ox P) as (e & E & _ & D). eauto.
    - destruct (@sym_enc_ok c HL HK Hb m iv x Hi Ox) as (e & E & _ & D); [congruence|]. eauto.
  Qed.
  Lemma zero_block : isblock (bsz c) (repeat 0%Z (bsz c)).
  Proof. split; [apply repeat_length|]. apply Forall_forall. intros b I. apply repeat_spec in I. subst. red. lia. Qed.
  Lemma ecb_iff ct x : bytes_ok ct -> (open_padded MECB c [] ct = Ok x <-> opens MECB c [] ct x) /\ open_padded MECB c [] ct <> Panic.
  Proof. intros O. exact (@open_padded_iff c HL HK Hb MECB (repeat 0%Z (bsz c)) ct x zero_block O eq_refl). Qed.
  Lemma ecb_ok x : bytes_ok x -> exists e, sym_enc MECB c [] (pkcs7_pad x (Z.of_nat (bsz c))) = Ok e /\ open_padded MECB c [] e = Ok x.
  Proof. intros O. destruct (@open_padded_enc c HL HK Hb MECB (repeat 0%Z (bsz c)) x zero_block O eq_refl) as (e & E & _ & D). eauto. Qed.
  Lemma ccm_iff nonce ct m : bytes_ok nonce -> bytes_ok ct ->
    (rbind (ccm_aead c (length nonce)) (fun ae => a_open ae nonce ct []) = Ok m <->
     bsz c = 16 /\ 7 <= length nonce <= 13 /\ bytes_ok m /\
      (Z.of_nat (length m) <= Z.min (256 ^ Z.of_nat (15 - length nonce) - 1) (2 ^ 63 - 1 - 16))%Z /\
      ct = rfc_seal (enc c) 16 (15 - length nonce) nonce [] m) /\
    rbind (ccm_aead c (length nonce)) (fun ae => a_open ae nonce ct []) <> Panic.
  Proof.
    intros On Oc. unfold ccm_aead.
    destruct (@C14_params c (Z.of_nat (length nonce)) 16%Z ltac:(lia) ltac:(lia)) as [P1 P2]. rewrite !Nat2Z.id in *. change (Z.to_nat 16) with 16 in *.
    destruct (ccm_new c (Z.of_nat (length nonce)) 16) as [p| |] eqn:E; cbn [rbind].
    - destruct (P1 p eq_refl) as (-> & B & Q). cbn [fst snd a_open] in *. pose proof Q as (Q1 & _ & _).
      pose proof (@C14_maxlen _ _ Q) as ML.
      assert (In : isblock (length nonce) nonce) by (split; auto).
      split.
      + split.
        * intros A. destruct (@C14_opens_only_sealed c _ _ HL B Q nonce ct [] [] m (conj In (conj Oc (Forall_nil _))) A) as (pt & Em & S). cbn [app] in Em. subst pt.
          assert (Om : bytes_ok m).
          { unfold ccm_open in A. destruct (negb _); [discriminate|]. destruct (16 <? 4); [discriminate|]. destruct (length ct <? 16); [discriminate|].
            destruct (Z.ltb _ _); [discriminate|]. cbv zeta in A. destruct (bytes_eqb _ _); [|discriminate]. injection A as <-.
            apply (@go_ctr_ok c HL). now apply bytes_ok_firstn. }
          assert (Lm : (Z.of_nat (length m) <= ccm_maxlen (length nonce) 16)%Z).
          { destruct (Z.le_gt_cases (Z.of_nat (length m)) (ccm_maxlen (length nonce) 16)) as [G|G]; [auto|]. exfalso.
            destruct (@C14_guards c _ _ false [] nonce m [] Q) as [_ G2]. destruct (G2 eq_refl) as [G3 _]. rewrite (G3 G) in S. discriminate. }
          pose proof (@C14_seal_computes c _ _ [] nonce m [] HL B Q (conj In (conj Om (conj (Forall_nil _) Lm)))) as S'. cbn [app] in S'.
          rewrite S' in S. injection S as S. rewrite ML in Lm. change (Z.of_nat 16) with 16%Z in Lm. auto 6.
        * intros (_ & _ & Om & Lm & ->). change 16%Z with (Z.of_nat 16) in Lm. rewrite <- ML in Lm.
          destruct (@C14_opens_what_it_seals c _ _ HL B Q nonce m [] [] [] (conj In (conj Om (conj (Forall_nil _) Lm)))) as (e & S & _ & O).
          pose proof (@C14_seal_computes c _ _ [] nonce m [] HL B Q (conj In (conj Om (conj (Forall_nil _) Lm)))) as S'. rewrite S' in S. cbn [app] in *.
          injection S as <-. exact O.
      + unfold ccm_open. rewrite Nat.eqb_refl. cbn [negb]. change (16 <? 4) with false. destruct (length ct <? 16); [discriminate|]. destruct (Z.ltb _ _); [discriminate|].
        cbv zeta. destruct (bytes_eqb _ _); discriminate.
    - split; [|discriminate]. split; [discriminate|]. intros (B & Q & _). exfalso.
      assert (QQ : ccm_params (length nonce) 16) by (split; [auto|]; split; [lia|reflexivity]). pose proof (P2 B QQ). congruence.
    - exfalso. unfold ccm_new in E. repeat match type of E with (if ?b then _ else _) = _ => destruct b; [discriminate|] end. discriminate.
  Qed.
  Lemma ccm_ok2 nonce x : isblock (length nonce) nonce -> bytes_ok x -> bsz c = 16 -> 7 <= length nonce <= 13 ->
    (Z.of_nat (length x) <= Z.min (256 ^ Z.of_nat (15 - length nonce) - 1) (2 ^ 63 - 1 - 16))%Z ->
    exists e, rbind (ccm_aead c (length nonce)) (fun ae => a_seal ae nonce x []) = Ok e /\ rbind (ccm_aead c (length nonce)) (fun ae => a_open ae nonce e []) = Ok x.
  Proof.
    intros In Ox B N Lx. destruct (@C14_params c (Z.of_nat (length nonce)) 16%Z ltac:(lia) ltac:(lia)) as [_ P2]. rewrite !Nat2Z.id in *. change (Z.to_nat 16) with 16 in *.
    assert (Q : ccm_params (length nonce) 16) by (split; [auto|]; split; [lia|reflexivity]).
    unfold ccm_aead. rewrite (P2 B Q). cbn [rbind a_seal a_open fst snd]. change 16%Z with (Z.of_nat 16) in Lx. rewrite <- (@C14_maxlen _ _ Q) in Lx.
    destruct (@C14_opens_what_it_seals c _ _ HL B Q nonce x [] [] [] (conj In (conj Ox (conj (Forall_nil _) Lx)))) as (e & S & _ & O). eauto.
  Qed.
End opened.
