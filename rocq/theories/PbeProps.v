(** C134-C136: the encryption schemes of PBES1 and PBES2. *)
From Verif Require Import Base PaddingModel BlockModeModel StreamModel StreamSpec FeedbackModel FeedbackSpec AeadSpec CcmModel CcmSpec CcmProps FlModel BigModel
  KdfModel KdfSpec KdfProofs KdfProofs2 KdfProps PemModel PemSpec PemProofs PemProps PbeModel PbeSpec PbeProofs.
Set Implicit Arguments. Unset Strict Implicit.
Local Open Scope nat_scope.

(** ** C134: PBES1. What Encrypt wrote decrypts under the same password; the parameters hold the salt and the count 2048; the OID finds the scheme. *)
Theorem C134_pbes1_roundtrip : forall hash newc rc4 a rd password data,
  hashes hash -> block_ciphers1 newc -> In a p1algs -> bytes_ok rd -> bytes_ok password -> bytes_ok data ->
  (q_salt a <= length rd -> exists ct, p1e hash newc rc4 a rd password data = Ok (ct, DSeqOI (firstn (q_salt a) rd) 2048) /\
     p1d hash newc rc4 a password (DSeqOI (firstn (q_salt a) rd) 2048) ct = Ok data) /\
  (length rd < q_salt a -> p1e hash newc rc4 a rd password data = Err) /\
  get_p1 (q_oid a) = Some a.
Proof.
  intros hash newc rc4 a rd pw data Hh Hc I Or Op Od. split; [|split].
  - intros L. unfold p1e, read_full. rewrite (proj2 (Nat.leb_le _ _) L). cbn [rbind fst].
    assert (Q : q_iter a = 2048%Z). { pose proof (proj1 (forallb_forall _ _) p1_all_good a I) as G. unfold p1_good in G. rewrite !andb_true_iff in G. now apply Z.eqb_eq. }
    rewrite Q. unfold p1d. cbn [as_oi rbind fst snd].
    destruct (@derive_ok hash rc4 Hh a pw (firstn (q_salt a) rd) 2048%Z I Op (bytes_ok_firstn _ Or)) as (key & iv & -> & _ & Lk & Li & Ok' & Oi & _). cbn [rbind fst snd].
    destruct (q_kind a) as [k|] eqn:K.
    + destruct (@cipher_ok newc rc4 Hc a k key I K Lk Ok') as (c & -> & HL & HK & B & Hb). cbn [rbind]. rewrite <- B.
      destruct (@open_padded_enc c HL HK Hb MCBC iv data) as (e & -> & _ & D); auto. { split; congruence. } cbn [rbind]. eauto.
    + rewrite (@rc4_xor_eq rc4 a key data I K Lk). cbn [rbind]. eexists. split; [reflexivity|]. rewrite (@rc4_xor_eq rc4 a key _ I K Lk). now rewrite xor_stream_inv.
  - intros L. unfold p1e, read_full. rewrite (proj2 (Nat.leb_gt _ _) L). reflexivity.
  - exact (proj1 (Forall_forall _ _) p1_found a I).
Qed.
(** Decrypt returns exactly the plaintext of the standard, or an error; it never panics, whatever the salt, the count and the data *)
Theorem C134_pbes1_decrypt_exact : forall hash newc rc4 a password params ct m,
  hashes hash -> block_ciphers1 newc -> In a p1algs -> bytes_ok password -> der_ok params -> bytes_ok ct ->
  (p1d hash newc rc4 a password params ct = Ok m <-> pbe1_plain hash newc rc4 a password params ct m) /\ p1d hash newc rc4 a password params ct <> Panic.
Proof.
  intros hash newc rc4 a pw par ct m Hh Hc I Op Od Oc. unfold p1d, pbe1_plain.
  destruct par as [b| |salt iter|i o|i j o|o d|]; cbn [as_oi rbind];
    try (split; [|discriminate]; split; [discriminate|]; intros (s & t & k & v & A & _); discriminate).
  cbn [fst snd der_ok] in *.
  destruct (@derive_ok hash rc4 Hh a pw salt iter I Op Od) as (key & iv & -> & D & Lk & Li & Ok' & Oi & U). cbn [rbind fst snd].
  destruct (q_kind a) as [k|] eqn:K.
  - destruct (@cipher_ok newc rc4 Hc a k key I K Lk Ok') as (c & E & HL & HK & B & Hb). rewrite E. cbn [rbind].
    destruct (@open_padded_iff c HL HK Hb MCBC iv ct m) as [J N]; auto. { split; congruence. } split; [|auto]. rewrite J. split.
    + intros O. exists salt, iter, key, iv. eauto.
    + intros (s' & t' & k' & v' & A & D' & c' & E' & O). injection A as <- <-. destruct (U _ _ D') as [-> ->]. rewrite E in E'. injection E' as <-. exact O.
  - rewrite (@rc4_xor_eq rc4 a key ct I K Lk). split; [|discriminate]. split.
    + intros A. injection A as <-. exists salt, iter, key, iv. auto.
    + intros (s' & t' & k' & v' & A & D' & ->). injection A as <- <-. destruct (U _ _ D') as [-> ->]. reflexivity.
Qed.
(** an iteration count of zero, or a negative one, is not refused: it counts as one *)
Theorem C134_count_unchecked : forall hash newc rc4 a password salt iter ct, (iter <= 1)%Z -> In a p1algs -> hashes hash -> bytes_ok password -> bytes_ok salt ->
  p1d hash newc rc4 a password (DSeqOI salt iter) ct = p1d hash newc rc4 a password (DSeqOI salt 1) ct.
Proof.
  intros hash newc rc4 a pw salt iter ct L I Hh Op Os. unfold p1d. cbn [as_oi rbind fst snd].
  destruct (@derive_ok hash rc4 Hh a pw salt iter I Op Os) as (key & iv & -> & D & _).
  destruct (@derive_ok hash rc4 Hh a pw salt 1%Z I Op Os) as (key' & iv' & -> & _ & _ & _ & _ & _ & U).
  destruct (U key iv) as [-> ->]; [|reflexivity]. unfold derived in *. replace (Nat.max 1 (Z.to_nat 1)) with 1 by lia. replace (Nat.max 1 (Z.to_nat iter)) with 1 in D by lia. exact D.
Qed.

(** ** C135: PBES2. What Encrypt wrote decrypts under the same key; the random bytes are in the parameters; a short random source is an error. *)
Theorem C135_pbes2_roundtrip : forall SB newc newc5 (newg : bytes -> SB -> res cipher) sbox gcm a rd key data c,
  cipher_of newc newc5 newg sbox (r_kind a) key = Ok c -> good_new (Ok c) -> good_gcm gcm -> usable a c data -> bytes_ok rd -> bytes_ok data ->
  (needed a c <= length rd -> exists ct, p2e newc newc5 newg sbox gcm a rd key data = Ok (ct, params_of a (firstn (needed a c) rd)) /\
    p2d newc newc5 newg sbox gcm a key (params_of a (firstn (needed a c) rd)) ct = Ok data) /\
  (length rd < needed a c -> p2e newc newc5 newg sbox gcm a rd key data = Err).
Proof.
  intros SB newc newc5 newg sbox gcm a rd key data c E (HL & HK & Hb) G U Or Od.
  assert (RF : forall n, n <= length rd -> read_full n rd = Ok (firstn n rd, skipn n rd)). { intros n L. unfold read_full. now rewrite (proj2 (Nat.leb_le _ _) L). }
  assert (RE : forall n, length rd < n -> read_full n rd = Err). { intros n L. unfold read_full. now rewrite (proj2 (Nat.leb_gt _ _) L). }
  assert (IB : forall n, n <= length rd -> isblock n (firstn n rd)). { intros n L. split; [rewrite firstn_length; lia|now apply bytes_ok_firstn]. }
  assert (SYM : forall m n (par : bytes -> der), n = bsz c ->
    (n <= length rd -> exists ct, rbind (read_full n rd) (fun r => rbind (sym_enc m c (fst r) (if pads m then pkcs7_pad data (Z.of_nat n) else data)) (fun e => Ok (e, par (fst r)))) = Ok (ct, par (firstn n rd))
       /\ opened c m (firstn n rd) ct = Ok data)).
  { intros m n par -> L. rewrite (RF _ L). cbn [rbind fst]. destruct (@padded_ok c HL HK Hb m (firstn (bsz c) rd) data (IB _ L) Od) as (e & -> & D). cbn [rbind]. eauto. }
  assert (AEG : forall sq, bsz c = 16 /\ 0 < r_size a -> newc key = Ok c -> r_size a <= length rd -> exists ct,
    aead_enc newc gcm sq a rd key data = Ok (ct, if sq then DSeqOI (firstn (r_size a) rd) 16 else DOctet (firstn (r_size a) rd)) /\
    aead_dec newc gcm sq key (if sq then DSeqOI (firstn (r_size a) rd) 16 else DOctet (firstn (r_size a) rd)) ct = Ok data).
  { intros sq [B N] En L. destruct (G c (r_size a)) as (_ & X & Y). destruct (X B N) as (ae & EA). destruct (Y ae EA (firstn (r_size a) rd) (proj1 (IB _ L))) as [Z _].
    destruct (Z data Od) as (e & S & _ & O). exists e. unfold aead_enc, aead_dec. rewrite En. cbn [rbind]. rewrite (RF _ L). cbn [rbind fst]. rewrite EA. cbn [rbind]. rewrite S. cbn [rbind].
    split; [reflexivity|]. destruct sq; cbn [as_oi as_octet rbind fst snd]; rewrite (proj1 (IB _ L)), EA; cbn [rbind]; exact O. }
  assert (AEC : forall sq, (bsz c = 16 /\ 7 <= r_size a <= 13 /\ (Z.of_nat (length data) < 256 ^ Z.of_nat (15 - r_size a))%Z /\ (Z.of_nat (length data) < 2 ^ 62)%Z) ->
     newc key = Ok c -> r_size a <= length rd -> exists ct,
    aead_enc newc ccm_aead sq a rd key data = Ok (ct, if sq then DSeqOI (firstn (r_size a) rd) 16 else DOctet (firstn (r_size a) rd)) /\
    aead_dec newc ccm_aead sq key (if sq then DSeqOI (firstn (r_size a) rd) 16 else DOctet (firstn (r_size a) rd)) ct = Ok data).
  { intros sq (B & N & D1 & D2) En L. pose proof (IB _ L) as I0. set (nonce := firstn (r_size a) rd) in *.
    destruct (@ccm_ok2 c HL Hb nonce data) as (e & S & O); auto.
    { split; [reflexivity|apply I0]. } { rewrite (proj1 I0). exact N. } { rewrite (proj1 I0). apply Z.min_glb; [lia|]. change (2 ^ 63 - 1 - 16)%Z with 9223372036854775791%Z. change (2 ^ 62)%Z with 4611686018427387904%Z in D2. lia. }
    rewrite (proj1 I0) in S, O. exists e. unfold aead_enc, aead_dec. rewrite En. cbn [rbind]. rewrite (RF _ L). cbn [rbind fst]. fold nonce.
    destruct (ccm_aead c (r_size a)) as [ae| |] eqn:EA; try discriminate S. cbn [rbind] in *. rewrite S. cbn [rbind].
    split; [reflexivity|]. destruct sq; cbn [as_oi as_octet rbind fst snd]; rewrite (proj1 I0), EA; cbn [rbind]; exact O. }
  assert (AEE : forall mk sq, newc key = Ok c -> length rd < r_size a -> aead_enc newc mk sq a rd key data = Err).
  { intros mk sq En L. unfold aead_enc. rewrite En. cbn [rbind]. now rewrite (RE _ L). }
  unfold p2e, p2d, params_of, needed, usable, cipher_of in *. destruct (r_kind a) as [m|v|w r|o| | | |].
  - destruct m; rewrite E; cbn [rbind as_octet];
      try (match goal with |- context [read_full _ _] => idtac end; match goal with |- context [sym_enc ?md _ _ _] => pose proof (SYM md (r_size a) DOctet U) as SYM' end;
           split; [intros L; destruct (SYM' L) as (ct & X & Y); exists ct; split; [exact X|exact Y] | intros L; now rewrite (RE _ L)]).
    rewrite U. destruct (@ecb_ok c HL HK Hb data Od) as (e & -> & D). cbn [rbind]. split; [eauto|]. intros L. lia.
  - destruct U as [U V]. rewrite E. cbn [rbind as_io fst snd].
    destruct (Z.ltb_spec 1024 v); [lia|]. destruct (Z.ltb_spec v 1); [lia|]. cbn [orb].
    split; [intros L; destruct (SYM MCBC (r_size a) (DSeqIO v) U L) as (ct & X & Y); exists ct; split; [exact X|exact Y] | intros L; now rewrite (RE _ L)].
  - rewrite E. cbn [rbind as_iio fst snd]. rewrite E. cbn [rbind].
    split; [intros L; destruct (SYM MCBC (bsz c) (DSeqIIO w r) eq_refl L) as (ct & X & Y); exists ct; split; [exact X|exact Y] | intros L; now rewrite (RE _ L)].
  - destruct (sbox o) as [s|] eqn:ES; [|discriminate]. rewrite E. cbn [rbind as_od fst snd]. rewrite ES, E. cbn [rbind].
    split; [intros L; destruct (SYM MCFB (r_size a) (fun iv => DSeqOD iv o) U L) as (ct & X & Y); exists ct; split; [exact X|exact Y] | intros L; now rewrite (RE _ L)].
  - split; [exact (AEG true U E)|exact (AEE _ _ E)].
  - split; [exact (AEG false U E)|exact (AEE _ _ E)].
  - split; [exact (AEC true U E)|exact (AEE _ _ E)].
  - split; [exact (AEC false U E)|exact (AEE _ _ E)].
Qed.
(** the registry has one object for GCM and for CCM: it opens what the variants with a bare nonce wrote, and what they accept *)
Theorem C135_variants : forall SB newc newc5 (newg : bytes -> SB -> res cipher) sbox gcm n n' key params ct m,
  (p2d newc newc5 newg sbox gcm (P2Alg K2GcmIv n) key params ct = Ok m -> p2d newc newc5 newg sbox gcm (P2Alg K2Gcm n') key params ct = Ok m) /\
  (p2d newc newc5 newg sbox gcm (P2Alg K2CcmIv n) key params ct = Ok m -> p2d newc newc5 newg sbox gcm (P2Alg K2Ccm n') key params ct = Ok m).
Proof.
  intros SB newc newc5 newg sbox gcm n n' key par ct m. cbn [p2d r_kind]. unfold aead_dec.
  split; destruct (newc key) as [c| |]; cbn [rbind]; auto; destruct par; cbn; auto; discriminate.
Qed.
(** CCM with a nonce of n bytes cannot say a length of 256^(15-n) bytes or more: Encrypt panics *)
Theorem C135_ccm_too_long : forall SB newc newc5 (newg : bytes -> SB -> res cipher) sbox gcm n rd key data c, newc key = Ok c -> bsz c = 16 -> 7 <= n <= 13 -> n <= length rd ->
  (256 ^ Z.of_nat (15 - n) <= Z.of_nat (length data))%Z ->
  p2e newc newc5 newg sbox gcm (P2Alg K2Ccm n) rd key data = Panic /\ p2e newc newc5 newg sbox gcm (P2Alg K2CcmIv n) rd key data = Panic.
Proof.
  intros SB newc newc5 newg sbox gcm n rd key data c E B N L D. cbn [p2e r_kind]. unfold aead_enc. rewrite E. cbn [rbind r_size]. unfold read_full. rewrite (proj2 (Nat.leb_le _ _) L). cbn [rbind fst].
  destruct (@C14_params c (Z.of_nat n) 16%Z ltac:(lia) ltac:(lia)) as [_ P2]. rewrite !Nat2Z.id in *. change (Z.to_nat 16) with 16 in *.
  assert (Q : ccm_params n 16) by (split; [auto|]; split; [lia|reflexivity]).
  unfold ccm_aead. rewrite (P2 B Q). cbn [rbind a_seal fst snd].
  destruct (@C14_guards c n 16 false [] (firstn n rd) data [] Q) as [_ G]. destruct G as [G _]; [rewrite firstn_length; lia|].
  rewrite G; [split; reflexivity|]. rewrite (@C14_maxlen _ _ Q). lia.
Qed.

(** ** C136: Decrypt of PBES2 returns exactly the plaintext of the mode, or an error; never a panic *)
Theorem C136_pbes2_decrypt_exact : forall SB newc newc5 (newg : bytes -> SB -> res cipher) sbox gcm a key params ct m,
  good_new (newc key) -> (forall w r, good_new (newc5 key w r)) -> (forall s, good_new (newg key s)) -> good_gcm gcm -> der_ok params -> bytes_ok ct ->
  (p2d newc newc5 newg sbox gcm a key params ct = Ok m <-> pbe2_plain newc newc5 newg sbox gcm a key params ct m) /\
  p2d newc newc5 newg sbox gcm a key params ct <> Panic.
Proof.
  intros SB newc newc5 newg sbox gcm a key par ct m Gc G5 Gg G Op Oc.
  assert (OP : forall r mode iv, good_new r -> bytes_ok iv ->
    (rbind r (fun c => opened c mode iv ct) = Ok m <-> exists c, r = Ok c /\ length iv = bsz c /\ opens mode c iv ct m) /\ rbind r (fun c => opened c mode iv ct) <> Panic).
  { intros r mode iv Gr Oi. destruct r as [c| |]; cbn [good_new rbind] in *; [|split; [|discriminate]; split; [discriminate|]; intros (c & A & _); discriminate|tauto].
    destruct Gr as (HL & HK & Hb). destruct (@opened_iff c HL HK Hb mode iv ct m Oi Oc) as [I N]. split; [|auto]. rewrite I. split; [eauto|]. intros (c' & A & B). injection A as <-. exact B. }
  assert (AD : forall (mk : cipher -> nat -> res aead) (plain : bytes -> Prop) sq,
    (forall nonce, bytes_ok nonce -> (rbind (newc key) (fun c => rbind (mk c (length nonce)) (fun ae => a_open ae nonce ct [])) = Ok m <-> plain nonce) /\
       rbind (newc key) (fun c => rbind (mk c (length nonce)) (fun ae => a_open ae nonce ct [])) <> Panic) ->
    (forall c n, mk c n <> Panic) ->
    (aead_dec newc mk sq key par ct = Ok m <-> exists nonce, (if sq then par = DOctet nonce \/ par = DSeqOI nonce 16 else par = DOctet nonce) /\ plain nonce) /\
    aead_dec newc mk sq key par ct <> Panic).
  { intros mk plain sq P Nk. unfold aead_dec.
    assert (R1 : forall nonce, bytes_ok nonce -> par = DOctet nonce ->
       (rbind (newc key) (fun c => rbind (mk c (length nonce)) (fun ae => a_open ae nonce ct [])) = Ok m <->
        exists nonce, (if sq then par = DOctet nonce \/ par = DSeqOI nonce 16 else par = DOctet nonce) /\ plain nonce) /\
       rbind (newc key) (fun c => rbind (mk c (length nonce)) (fun ae => a_open ae nonce ct [])) <> Panic).
    { intros nonce On ->. destruct (P nonce On) as [I N]. split; [|auto]. rewrite I. split; [intros; exists nonce; destruct sq; auto|].
      intros (n' & A & B). destruct sq; [destruct A as [A|A]|]; try discriminate; injection A as ->; auto. }
    assert (FA : forall d, par = d -> (forall b, d <> DOctet b) -> (sq = true -> forall b, d <> DSeqOI b 16) ->
        ~ exists nonce, (if sq then par = DOctet nonce \/ par = DSeqOI nonce 16 else par = DOctet nonce) /\ plain nonce).
    { intros d -> N1 N2 (n' & A & _). destruct sq; [destruct A as [A|A]; [now apply N1 in A|now apply (N2 eq_refl) in A]|now apply N1 in A]. }
    assert (EP : newc key <> Panic) by (destruct (newc key); cbn [good_new] in Gc; [discriminate|discriminate|tauto]).
    destruct par as [b| |salt iter|i o|i j o|o d|] eqn:EQ; cbn [der_ok] in Op.
    - specialize (R1 b Op eq_refl). destruct sq; cbn [as_oi as_octet rbind fst snd]; exact R1.
    - specialize (FA _ eq_refl ltac:(discriminate) ltac:(discriminate)). split; [split; [|tauto]|]; destruct (newc key) as [c| |]; destruct sq; cbn; try discriminate; try tauto; congruence.
    - destruct sq.
      + cbn [as_oi rbind fst snd]. destruct (P salt Op) as [I N]. destruct (Z.eqb_spec iter 16) as [->|NE]; cbn [negb].
        * split; [|exact N]. rewrite I. split; [intros; exists salt; auto|]. intros (n' & [A|A] & B); [discriminate|]. injection A as ->. auto.
        * assert (FA' : ~ exists nonce, (DSeqOI salt iter = DOctet nonce \/ DSeqOI salt iter = DSeqOI nonce 16) /\ plain nonce) by (intros (n' & [A|A] & _); congruence).
          destruct (newc key) as [c| |]; cbn [rbind]; try (split; [split; [discriminate|tauto]|congruence]).
          specialize (Nk c (length salt)). destruct (mk c (length salt)); cbn [rbind]; (split; [split; [congruence|tauto]|congruence]).
      + specialize (FA _ eq_refl ltac:(discriminate) ltac:(discriminate)). split; [split; [|tauto]|]; destruct (newc key) as [c| |]; cbn; try discriminate; try tauto; congruence.
    - specialize (FA _ eq_refl ltac:(discriminate) ltac:(discriminate)). split; [split; [|tauto]|]; destruct (newc key) as [c| |]; destruct sq; cbn; try discriminate; try tauto; congruence.
    - specialize (FA _ eq_refl ltac:(discriminate) ltac:(discriminate)). split; [split; [|tauto]|]; destruct (newc key) as [c| |]; destruct sq; cbn; try discriminate; try tauto; congruence.
    - specialize (FA _ eq_refl ltac:(discriminate) ltac:(discriminate)). split; [split; [|tauto]|]; destruct (newc key) as [c| |]; destruct sq; cbn; try discriminate; try tauto; congruence.
    - specialize (FA _ eq_refl ltac:(discriminate) ltac:(discriminate)). split; [split; [|tauto]|]; destruct (newc key) as [c| |]; destruct sq; cbn; try discriminate; try tauto; congruence. }
  assert (PG : forall nonce, bytes_ok nonce -> (rbind (newc key) (fun c => rbind (gcm c (length nonce)) (fun ae => a_open ae nonce ct [])) = Ok m <-> aead_plain newc gcm nonce key ct m) /\
       rbind (newc key) (fun c => rbind (gcm c (length nonce)) (fun ae => a_open ae nonce ct [])) <> Panic).
  { intros nonce On. unfold aead_plain. destruct (newc key) as [c| |] eqn:E; cbn [rbind good_new] in *; [|split; [|discriminate]; split; [discriminate|]; intros (c & ae & A & _); discriminate|tauto].
    destruct (G c (length nonce)) as (N & _ & Y). destruct (gcm c (length nonce)) as [ae| |] eqn:EA; cbn [rbind];
      [|split; [|discriminate]; split; [discriminate|]; intros (c' & ae & A & B & _); injection A as <-; congruence|congruence].
    destruct (Y ae eq_refl nonce eq_refl) as [_ NP]. split; [|apply NP]. split; [intros; exists c, ae; auto|]. intros (c' & ae' & A & B & D). injection A as <-. rewrite EA in B. injection B as <-. exact D. }
  assert (PC : forall nonce, bytes_ok nonce -> (rbind (newc key) (fun c => rbind (ccm_aead c (length nonce)) (fun ae => a_open ae nonce ct [])) = Ok m <-> ccm_plain newc nonce key ct m) /\
       rbind (newc key) (fun c => rbind (ccm_aead c (length nonce)) (fun ae => a_open ae nonce ct [])) <> Panic).
  { intros nonce On. unfold ccm_plain. destruct (newc key) as [c| |] eqn:E; cbn [rbind good_new] in *; [|split; [|discriminate]; split; [discriminate|]; intros (c & A & _); discriminate|tauto].
    destruct Gc as (HL & HK & Hb). destruct (@ccm_iff c HL Hb nonce ct m On Oc) as [I N]. split; [|exact N]. rewrite I. split; [eauto|]. intros (c' & A & B). injection A as <-. exact B. }
  assert (NC : forall c n, ccm_aead c n <> Panic).
  { intros c n. unfold ccm_aead, ccm_new. repeat match goal with |- rbind (if ?b then _ else _) _ <> _ => destruct b; [discriminate|] end. discriminate. }
  assert (NG : forall c n, gcm c n <> Panic) by (intros c n; apply G).
  unfold p2d, pbe2_plain. destruct (r_kind a) as [mo|v|w r|o| | | |].
  - assert (SY : (rbind (as_octet par) (fun iv => rbind (newc key) (fun c => opened c mo iv ct)) = Ok m <->
       exists iv, par = DOctet iv /\ exists c, newc key = Ok c /\ length iv = bsz c /\ opens mo c iv ct m) /\ rbind (as_octet par) (fun iv => rbind (newc key) (fun c => opened c mo iv ct)) <> Panic).
    { destruct par; cbn [as_octet rbind der_ok] in *; try (split; [|discriminate]; split; [discriminate|]; intros (iv & A & _); discriminate).
      destruct (OP (newc key) mo b Gc Op) as [I N]. split; [|exact N]. rewrite I. split; [eauto|]. intros (iv & A & B). injection A as <-. exact B. }
    destruct mo; try exact SY. destruct (newc key) as [c| |] eqn:E; cbn [rbind good_new] in *; [|split; [|discriminate]; split; [discriminate|]; intros (c & A & _); discriminate|tauto].
    destruct Gc as (HL & HK & Hb). destruct (@ecb_iff c HL HK Hb ct m Oc) as [I N]. split; [|exact N]. rewrite I. split; [eauto|]. intros (c' & A & B). injection A as <-. exact B.
  - destruct par; cbn [as_io rbind der_ok fst snd] in *; try (split; [|discriminate]; split; [discriminate|]; intros (x & iv & A & _); discriminate).
    destruct (OP (newc key) MCBC o Gc Op) as [I N]. destruct (Z.ltb_spec 1024 i); cbn [orb]; [split; [|discriminate]; split; [discriminate|]; intros (x & iv & A & B & _); injection A as <- <-; lia|].
    destruct (Z.ltb_spec i 1); [split; [|discriminate]; split; [discriminate|]; intros (x & iv & A & B & _); injection A as <- <-; lia|].
    split; [|exact N]. unfold opened in I. rewrite I. split; [intros; exists i, o; split; [auto|]; split; [lia|auto]|]. intros (x & iv & A & _ & B). injection A as <- <-. exact B.
  - destruct par; cbn [as_iio rbind der_ok fst snd] in *; try (split; [|discriminate]; split; [discriminate|]; intros (x & y & iv & A & _); discriminate).
    destruct (OP (newc5 key i j) MCBC o (G5 i j) Op) as [I N]. split; [|exact N]. unfold opened in I. rewrite I. split; [intros; exists i, j, o; auto|]. intros (x & y & iv & A & B). injection A as <- <- <-. exact B.
  - destruct par; cbn [as_od rbind der_ok fst snd] in *; try (split; [|discriminate]; split; [discriminate|]; intros (iv & x & y & A & _); discriminate).
    destruct (sbox d) as [s|] eqn:ES; [|split; [|discriminate]; split; [discriminate|]; intros (iv & x & y & A & B & _); injection A as <- <-; congruence].
    destruct (OP (newg key s) MCFB o0 (Gg s) Op) as [I N]. split; [|exact N]. unfold opened in I. rewrite I. split; [intros; exists o0, d, s; auto|].
    intros (iv & x & y & A & B & D). injection A as <- <-. rewrite ES in B. injection B as <-. exact D.
  - exact (AD gcm (fun nonce => aead_plain newc gcm nonce key ct m) true PG NG).
  - exact (AD gcm (fun nonce => aead_plain newc gcm nonce key ct m) false PG NG).
  - exact (AD ccm_aead (fun nonce => ccm_plain newc nonce key ct m) true PC NC).
  - exact (AD ccm_aead (fun nonce => ccm_plain newc nonce key ct m) false PC NC).
Qed.
(** the version in the parameters of RC2 is not used: every one from 1 to 1024 decrypts alike *)
Theorem C136_rc2_version_ignored : forall SB newc newc5 (newg : bytes -> SB -> res cipher) sbox gcm v n key v1 v2 iv ct, (1 <= v1 <= 1024)%Z -> (1 <= v2 <= 1024)%Z ->
  p2d newc newc5 newg sbox gcm (P2Alg (K2Rc2 v) n) key (DSeqIO v1 iv) ct = p2d newc newc5 newg sbox gcm (P2Alg (K2Rc2 v) n) key (DSeqIO v2 iv) ct.
Proof.
  intros SB newc newc5 newg sbox gcm v n key v1 v2 iv ct H1 H2. cbn [p2d r_kind as_io rbind fst snd].
  destruct (Z.ltb_spec 1024 v1), (Z.ltb_spec v1 1), (Z.ltb_spec 1024 v2), (Z.ltb_spec v2 1); try lia. reflexivity.
Qed.

(** ** instances *)
Ltac bok := unfold bytes_ok; repeat (apply Forall_cons; [red; lia|]); apply Forall_nil.
Definition toy_h1 (h : hkind) (x : bytes) : bytes := repeat (fold_left Z.lxor x 7 mod 256)%Z (hsize h).
Lemma toy_h1_ok : hashes toy_h1.
Proof. intros h x. split; [apply repeat_length|]. apply bytes_ok_repeat. unfold is_byte. apply Z.mod_pos_bound. lia. Qed.
Lemma toy_good n key : 0 < n <= 255 -> lawful (toy n key) /\ len_ok (toy n key).
Proof.
  intros P. assert (R : forall b, isblock n b -> isblock n (rev b)). { intros b [A B]. split; [now rewrite rev_length|now apply Forall_rev]. }
  split; [constructor; cbn; auto; [lia|intros; apply rev_involutive]|]. split; cbn; [lia|]. intros. now rewrite rev_length.
Qed.
Definition toy_new1 (k : bkind1) (key : bytes) : res cipher := Ok (toy (bsize1 k) key).
Lemma toy_new1_ok : block_ciphers1 toy_new1.
Proof.
  intros k key _ _. exists (toy (bsize1 k) key). split; [reflexivity|]. destruct (@toy_good (bsize1 k) key) as [A B]; [destruct k; cbn; lia|]. auto.
Qed.
Definition toy_rc4 (key : bytes) (i : nat) : Z := nth (i mod length key) key 0%Z.
Definition p1_des : p1alg := P1Alg [1; 2; 840; 113549; 1; 5; 3]%Z (K1Block D1Des) HMd5 DPbkdf1 8 8 8 2048%Z.
Example C134_instance : exists ct, p1e toy_h1 toy_new1 toy_rc4 p1_des [1;2;3;4;5;6;7;8;9]%Z [65]%Z [10;20;30]%Z = Ok (ct, DSeqOI [1;2;3;4;5;6;7;8]%Z 2048) /\
  p1d toy_h1 toy_new1 toy_rc4 p1_des [65]%Z (DSeqOI [1;2;3;4;5;6;7;8]%Z 2048) ct = Ok [10;20;30]%Z.
Proof.
  refine (proj1 (@C134_pbes1_roundtrip toy_h1 toy_new1 toy_rc4 p1_des [1;2;3;4;5;6;7;8;9]%Z [65]%Z [10;20;30]%Z toy_h1_ok toy_new1_ok _ _ _ _) _); [|bok|bok|bok|cbn; lia].
  unfold p1algs. do 10 right. left. reflexivity.
Qed.
Example C134_instance_exact : p1d toy_h1 toy_new1 toy_rc4 p1_des [65]%Z (DSeqOI [1]%Z 0) [1;2;3]%Z <> Panic /\
  p1d toy_h1 toy_new1 toy_rc4 p1_des [65]%Z (DSeqOI [1]%Z (-5)) [1;2;3]%Z = p1d toy_h1 toy_new1 toy_rc4 p1_des [65]%Z (DSeqOI [1]%Z 1) [1;2;3]%Z.
Proof.
  assert (I : In p1_des p1algs) by (unfold p1algs; do 10 right; left; reflexivity). split.
  - refine (proj2 (@C134_pbes1_decrypt_exact toy_h1 toy_new1 toy_rc4 p1_des [65]%Z (DSeqOI [1]%Z 0) [1;2;3]%Z [] toy_h1_ok toy_new1_ok I _ _ _)); [bok|cbn; bok|bok].
  - apply C134_count_unchecked; auto; [lia|apply toy_h1_ok|bok|bok].
Qed.

Definition toy_gcm (c : cipher) (n : nat) : res aead :=
  if (bsz c =? 16) && (0 <? n) then
    Ok (Aead (fun _ x _ => Ok (x ++ repeat 0%Z 16)) (fun _ x _ => if length x <? 16 then Err else Ok (firstn (length x - 16) x))) else Err.
Lemma toy_gcm_ok : good_gcm toy_gcm.
Proof.
  intros c n. unfold toy_gcm. split; [destruct (_ && _); discriminate|]. split.
  - intros -> P. destruct (Nat.ltb_spec 0 n); [|lia]. cbn [Nat.eqb andb]. eauto.
  - intros ae E. destruct (_ && _); [|discriminate]. injection E as <-. cbn [a_seal a_open]. intros nonce _. split.
    + intros x _. eexists. split; [reflexivity|]. rewrite app_length. split; [reflexivity|]. cbn [length]. destruct (Nat.ltb_spec (length x + 16) 16); [lia|].
      replace (length x + 16 - 16) with (length x) by lia. now rewrite firstn_app, Nat.sub_diag, firstn_O, app_nil_r, firstn_all.
    + intros ct. destruct (_ <? _); discriminate.
Qed.
Definition toy16 (key : bytes) : res cipher := if length key =? 16 then Ok (toy 16 key) else Err.
Definition toy5 (key : bytes) (w r : Z) : res cipher := if (w =? 32)%Z then Ok (toy 8 key) else Err.
Definition toyg (key : bytes) (s : bool) : res cipher := if s then Ok (toy 8 key) else Err.
Definition toys (o : list Z) : option bool := match o with [] => None | _ => Some true end.
Definition k16 : bytes := repeat 3%Z 16.
Lemma toy16_good key : good_new (toy16 key).
Proof. unfold toy16. destruct (_ =? _); [|exact I]. destruct (@toy_good 16 key ltac:(lia)) as [A B]. split; [exact A|]. split; [exact B|cbn; lia]. Qed.
Lemma toy5_good key w r : good_new (toy5 key w r).
Proof. unfold toy5. destruct (Z.eqb _ _); [|exact I]. destruct (@toy_good 8 key ltac:(lia)) as [A B]. split; [exact A|]. split; [exact B|cbn; lia]. Qed.
Lemma toyg_good key s : good_new (toyg key s).
Proof. destruct s; [|exact I]. destruct (@toy_good 8 key ltac:(lia)) as [A B]. split; [exact A|]. split; [exact B|cbn; lia]. Qed.
Example C135_instance : exists ct, p2e toy16 toy5 toyg toys toy_gcm (P2Alg K2CcmIv 12) (repeat 1%Z 14) k16 [10;20]%Z = Ok (ct, DOctet (repeat 1%Z 12)) /\
  p2d toy16 toy5 toyg toys toy_gcm (P2Alg K2CcmIv 12) k16 (DOctet (repeat 1%Z 12)) ct = Ok [10;20]%Z.
Proof.
  refine (proj1 (@C135_pbes2_roundtrip bool toy16 toy5 toyg toys toy_gcm (P2Alg K2CcmIv 12) (repeat 1%Z 14) k16 [10;20]%Z (toy 16 k16) eq_refl (toy16_good k16) toy_gcm_ok _ _ _) _);
    [|bok|bok|cbn; lia]. split; [reflexivity|]. split; [cbn; lia|]. split; vm_compute; reflexivity.
Qed.
Example C135_instance_sym : forall m, exists ct par, p2e toy16 toy5 toyg toys toy_gcm (P2Alg (K2Sym m) 16) (repeat 1%Z 16) k16 [10;20]%Z = Ok (ct, par) /\
  p2d toy16 toy5 toyg toys toy_gcm (P2Alg (K2Sym m) 16) k16 par ct = Ok [10;20]%Z.
Proof.
  intros m. edestruct (proj1 (@C135_pbes2_roundtrip bool toy16 toy5 toyg toys toy_gcm (P2Alg (K2Sym m) 16) (repeat 1%Z 16) k16 [10;20]%Z (toy 16 k16) eq_refl (toy16_good k16) toy_gcm_ok
    eq_refl ltac:(bok) ltac:(bok))) as (ct & A & B); [destruct m; cbn; lia|]. eauto.
Qed.
Example C135_instance_rc5 : exists ct par, p2e toy16 toy5 toyg toys toy_gcm (P2Alg (K2Rc5 32 12) 16) (repeat 1%Z 16) k16 [10;20]%Z = Ok (ct, par) /\
  p2d toy16 toy5 toyg toys toy_gcm (P2Alg (K2Rc5 32 12) 16) k16 par ct = Ok [10;20]%Z.
Proof.
  edestruct (proj1 (@C135_pbes2_roundtrip bool toy16 toy5 toyg toys toy_gcm (P2Alg (K2Rc5 32 12) 16) (repeat 1%Z 16) k16 [10;20]%Z (toy 8 k16) eq_refl (toy5_good k16 32 12) toy_gcm_ok
    I ltac:(bok) ltac:(bok))) as (ct & A & B); [cbn; lia|]. eauto.
Qed.
Example C136_instance : forall a params, der_ok params -> p2d toy16 toy5 toyg toys toy_gcm a k16 params [1;2;3]%Z <> Panic.
Proof.
  intros a params O. refine (proj2 (@C136_pbes2_decrypt_exact bool toy16 toy5 toyg toys toy_gcm a k16 params [1;2;3]%Z [] (toy16_good k16) (toy5_good k16) (toyg_good k16) toy_gcm_ok O _)). bok.
Qed.

Definition assum_pbe := (C134_pbes1_roundtrip, C134_pbes1_decrypt_exact, C134_count_unchecked, C135_pbes2_roundtrip, C135_variants, C135_ccm_too_long, C136_pbes2_decrypt_exact, C136_rc2_version_ignored).
Print Assumptions assum_pbe.
