(** C19: HCTR (mode/hctr). *)
From Verif Require Import Base BlockModeModel CipherLaws Gf2Spec CcmSpec MacProps HctrSpec HctrModel HctrProofs.
Set Implicit Arguments. Unset Strict Implicit.
Local Open Scope nat_scope.

Lemma Ok_inj (A : Type) (x y : A) : Ok x = Ok y -> x = y.
Proof. intro H. now injection H. Qed.

Lemma seq_bytes a n : a + n <= 256 -> bytes_ok (map Z.of_nat (seq a n)).
Proof. intro H. apply Forall_forall. intros x Ix. apply in_map_iff in Ix as (i & <- & Ii). apply in_seq in Ii. unfold is_byte. lia. Qed.
(** The table-driven multiplication by the hash key is multiplication in GF(2^128) with the
    polynomial x^128 + x^7 + x^2 + x + 1, first bit = coefficient of x^0. *)
Theorem C19_field : forall c tweak hkey h y, hctr_new c tweak hkey = Ok h -> isblock 16 hkey -> isblock 16 y ->
  let r := hmul (hc_table h) (felem_of y) in be_bytes 8 (fst r) ++ be_bytes 8 (snd r) = gmul y hkey.
Proof.
  intros c tweak hkey h y H Hk Hy r. unfold hctr_new in H. destruct (_ || _)%bool; [discriminate|]. apply Ok_inj in H.
  assert (Et : hc_table h = htable f0 hdouble hadd (felem_of hkey)) by now rewrite <- H.
  pose proof (felem_of_V [] Hy) as [Wy Ey]. rewrite app_nil_r in Wy, Ey.
  destruct (hmul_FE Hk Et Wy) as [_ E]. unfold FE in E at 1. unfold r. rewrite E. f_equal. rewrite FE_val by auto. rewrite Ey. destruct Hy. now apply be_bytes_val.
Qed.
Print Assumptions C19_field.

Lemma new_ok c tweak hkey h : hctr_new c tweak hkey = Ok h ->
  hc_cipher h = c /\ hc_tweak h = tweak /\ hc_table h = htable f0 hdouble hadd (felem_of hkey) /\ length tweak = 16 /\ length hkey = 16.
Proof.
  unfold hctr_new. intro H. destruct (Nat.eqb_spec (length tweak) 16) as [E|]; [|discriminate].
  destruct (Nat.eqb_spec (length hkey) 16) as [E'|]; [|discriminate]. cbn [negb orb] in H. apply Ok_inj in H. subst h. repeat split; auto.
Qed.

(** NewHCTR panics exactly when the tweak or the hash key is not 16 bytes long; Encrypt and
    Decrypt panic exactly when the destination is shorter than the message or the message is
    shorter than a block. *)
Theorem C19_panics : forall c tweak hkey, (hctr_new c tweak hkey = Panic <-> ~ (length tweak = 16 /\ length hkey = 16)) /\
  forall h dst m, hctr_new c tweak hkey = Ok h ->
    (hctr_encrypt h dst m = Panic <-> length dst < length m \/ length m < 16) /\
    (hctr_decrypt h dst m = Panic <-> length dst < length m \/ length m < 16) /\
    hctr_encrypt h dst m <> Err /\ hctr_decrypt h dst m <> Err.
Proof.
  intros c tweak hkey. split.
  - unfold hctr_new. destruct (Nat.eqb_spec (length tweak) 16); destruct (Nat.eqb_spec (length hkey) 16); cbn [negb orb];
      split; intro; try discriminate; try reflexivity; try lia.
  - intros h dst m _. unfold hctr_encrypt, hctr_decrypt.
    destruct (Nat.ltb_spec (length dst) (length m)); [|destruct (Nat.ltb_spec (length m) 16)];
      (split; [|split; [|split]]); try discriminate; try (split; intro; [|reflexivity]; lia); split; intro HH; try discriminate; lia.
Qed.
Print Assumptions C19_panics.

(** For a message whose length is 0 or 8 modulo 16, Encrypt and Decrypt write the ciphertext and
    the plaintext of HCTR into a destination of the same length. *)
Theorem C19_computes : forall c tweak hkey h dst m, lawful c -> bsz c = 16 -> isblock 16 tweak -> isblock 16 hkey ->
  hctr_new c tweak hkey = Ok h -> bytes_ok m -> 16 <= length m -> (Z.of_nat (length m) < 2 ^ 60)%Z ->
  length m mod 16 = 0 \/ length m mod 16 = 8 -> length dst = length m ->
  hctr_encrypt h dst m = Ok (hctr_enc_spec (enc c) (uhash_spec hkey tweak) m) /\
  hctr_decrypt h dst m = Ok (hctr_dec_spec (enc c) (dec c) (uhash_spec hkey tweak) m).
Proof.
  intros c tweak hkey h dst m HL Hs Ht Hk Hn Om L16 Lm Hmod Ld. destruct (new_ok Hn) as (Ec & Ew & Et & _).
  subst c. pose proof (fun x => uhash_block h x) as HU.
  rewrite encrypt_eq, decrypt_eq by auto.
  assert (ES : forall x, bytes_ok x -> length x = length m - 16 -> uhash h x = uhash_spec hkey tweak x).
  { intros x Ox Lx. apply uhash_std; auto; [lia|]. rewrite Lx.
    replace (length m) with (length m - 16 + 1 * 16) in Hmod by lia. now rewrite Nat.mod_add in Hmod by lia. }
  assert (O1 : bytes_ok (skipn 16 m)) by now apply bytes_ok_skipn. assert (L1 : length (skipn 16 m) = length m - 16) by apply skipn_length.
  destruct (HU (skipn 16 m)) as [LU OU].
  assert (Bm : isblock 16 (xorl (firstn 16 m) (uhash h (skipn 16 m)))).
  { split; [rewrite xorl_length, firstn_length; lia|]. apply xorl_ok; auto. now apply bytes_ok_firstn. }
  assert (XB : forall a b, isblock 16 a -> isblock 16 b -> isblock 16 (xorl a b)).
  { intros a b [A1 A2] [B1 B2]. split; [rewrite xorl_length; lia|now apply xorl_ok]. }
  split; f_equal.
  - unfold hctr_enc_spec. rewrite <- (ES _ O1 L1). f_equal. f_equal. apply ES.
    + apply stream_ok; auto. apply XB; auto. rewrite <- Hs at 1. apply (law_enc HL). rewrite Hs. exact Bm.
    + rewrite stream_len; auto. apply XB; auto. rewrite <- Hs at 1. apply (law_enc HL). rewrite Hs. exact Bm.
  - unfold hctr_dec_spec. rewrite <- (ES _ O1 L1). f_equal. f_equal. apply ES.
    + apply stream_ok; auto. apply XB; auto. rewrite <- Hs at 1. apply (law_dec HL). rewrite Hs. exact Bm.
    + rewrite stream_len; auto. apply XB; auto. rewrite <- Hs at 1. apply (law_dec HL). rewrite Hs. exact Bm.
Qed.
Print Assumptions C19_computes.

(** For every length of at least a block, Encrypt and Decrypt keep the length and are inverse to
    each other, whatever the two destinations (of the same length as the message) held before. *)
Theorem C19_permutation : forall c tweak hkey h d1 d2 m, lawful c -> bsz c = 16 ->
  hctr_new c tweak hkey = Ok h -> bytes_ok m -> 16 <= length m -> (Z.of_nat (length m) < 2 ^ 60)%Z ->
  length d1 = length m -> length d2 = length m ->
  (exists e, hctr_encrypt h d1 m = Ok e /\ length e = length m /\ bytes_ok e /\ hctr_decrypt h d2 e = Ok m) /\
  (exists d, hctr_decrypt h d1 m = Ok d /\ length d = length m /\ bytes_ok d /\ hctr_encrypt h d2 d = Ok m).
Proof.
  intros c tweak hkey h d1 d2 m HL Hs Hn Om L16 Lm Ld1 Ld2. destruct (new_ok Hn) as (Ec & _). subst c. pose proof (fun x => uhash_block h x) as HU. split.
  - destruct (enc_props HL Hs HU Om L16) as (A & B & C). eexists. split; [apply encrypt_eq; auto|].
    split; [exact A|]. split; [exact B|]. rewrite decrypt_eq; auto; try lia. now rewrite C.
  - destruct (dec_props HL Hs HU Om L16) as (A & B & C). eexists. split; [apply decrypt_eq; auto|].
    split; [exact A|]. split; [exact B|]. rewrite encrypt_eq; auto; try lia. now rewrite C.
Qed.
Print Assumptions C19_permutation.

(** Defect: for a message whose length is k modulo 16, only the first 16-k bytes of the tweak and
    the (at most k) bytes from position k on are used: two tweaks that agree there give the same
    result, for every cipher, hash key, message and destination of the same length. *)
Theorem C19_tweak_refuted : forall c t1 t2 hkey h1 h2 dst m,
  hctr_new c t1 hkey = Ok h1 -> hctr_new c t2 hkey = Ok h2 -> length dst = length m ->
  let k := length m mod 16 in 0 < k ->
  firstn (16 - k) t1 = firstn (16 - k) t2 -> firstn k (skipn k t1) = firstn k (skipn k t2) ->
  hctr_encrypt h1 dst m = hctr_encrypt h2 dst m /\ hctr_decrypt h1 dst m = hctr_decrypt h2 dst m.
Proof.
  intros c t1 t2 hkey h1 h2 dst m H1 H2 Ld k Hk E1 E2. destruct (new_ok H1) as (C1 & W1 & T1 & L1 & _), (new_ok H2) as (C2 & W2 & T2 & L2 & _).
  unfold hctr_encrypt, hctr_decrypt. rewrite Ld. destruct (length m <? length m); [auto|]. destruct (Nat.ltb_spec (length m) 16); [auto|].
  assert (EU : forall x, length x = length m - 16 -> uhash h1 x = uhash h2 x).
  { intros x Lx. assert (Ek : length x mod 16 = k).
    { unfold k. rewrite Lx. replace (length m) with (length m - 16 + 1 * 16) at 2 by lia. now rewrite Nat.mod_add by lia. }
    apply uhash_ignores; rewrite ?Ek, ?W1, ?W2; auto. now rewrite T1, T2. }
  assert (Ls : forall h, length (skipn 16 (splice 16 (h : bytes) dst)) = length dst - 16 \/ True) by auto. clear Ls.
  assert (EC : hc_cipher h1 = hc_cipher h2) by congruence.
  rewrite !(EU (skipn 16 m)) by apply skipn_length. rewrite !EC. rewrite !(hctr_ctr_tab EC).
  assert (Lc : forall f i b src, length (hctr_ctr h2 f i b src) <= length src).
  { induction f as [|f IH]; intros i b src; cbn [hctr_ctr]; [cbn; lia|]. destruct (0 <? length src); [|cbn; lia].
    rewrite app_length. specialize (IH (w64 (i + 1)) b (skipn (length (xorl src (enc (hc_cipher h2) (xorl b (repeat 0%Z 8 ++ be_bytes 8 i))))) src)).
    rewrite skipn_length in IH. rewrite xorl_length in *. lia. }
  assert (Lsp : forall x, length x <= length m - 16 -> length (skipn 16 (splice 16 x dst)) = length m - 16).
  { intros x Lx. rewrite skipn_length, splice_length by lia. lia. }
  split; (rewrite EU; [reflexivity|]); apply Lsp; etransitivity; try apply Lc; rewrite skipn_length; lia.
Qed.
Print Assumptions C19_tweak_refuted.

(** Defect: with a destination longer than the message (which Encrypt accepts), the old bytes
    behind the ciphertext enter the hash, and the result does not decrypt. *)
Theorem C19_long_dst_refuted : exists c tweak hkey h dst m e d, lawful c /\ bsz c = 16 /\ isblock 16 tweak /\ isblock 16 hkey /\
  hctr_new c tweak hkey = Ok h /\ bytes_ok m /\ length m = 19 /\ length dst = 20 /\
  hctr_encrypt h dst m = Ok e /\ hctr_decrypt h m (firstn 19 e) = Ok d /\ d <> m.
Proof.
  set (w := map Z.of_nat (seq 3 16)).
  exists (flip 16), w, (rev w), {| hc_cipher := flip 16; hc_tweak := w; hc_table := htable f0 hdouble hadd (felem_of (rev w)) |}, (repeat 7%Z 20), (map Z.of_nat (seq 40 19)).
  do 2 eexists. split; [apply flip_lawful; lia|]. split; [reflexivity|].
  assert (Ow : bytes_ok w) by (unfold w; apply seq_bytes; lia).
  split; [split; [reflexivity|exact Ow]|]. split; [split; [reflexivity|now apply bytes_ok_rev]|].
  split; [reflexivity|]. split; [apply seq_bytes; lia|]. split; [reflexivity|]. split; [reflexivity|].
  split; [vm_compute; reflexivity|]. split; [vm_compute; reflexivity|]. vm_compute. discriminate.
Qed.
Print Assumptions C19_long_dst_refuted.

(** The hypotheses above are met: a 40-byte message (8 modulo 16) and a 35-byte one; two
    different tweaks that act the same on the second. *)
Example C19_instance : exists h h' e e', let w := map Z.of_nat (seq 3 16) in let w' := firstn 13 w ++ [200; 201; 202]%Z in
  let m := map Z.of_nat (seq 40 40) in
  lawful (flip 16) /\ hctr_new (flip 16) w (rev w) = Ok h /\ hctr_new (flip 16) w' (rev w) = Ok h' /\ w <> w' /\
  hctr_encrypt h (repeat 0%Z 40) m = Ok e /\ hctr_decrypt h (repeat 9%Z 40) e = Ok m /\ e <> m /\
  hctr_encrypt h (repeat 0%Z 35) (firstn 35 m) = Ok e' /\ hctr_encrypt h' (repeat 0%Z 35) (firstn 35 m) = Ok e'.
Proof.
  set (w := map Z.of_nat (seq 3 16)).
  exists {| hc_cipher := flip 16; hc_tweak := w; hc_table := htable f0 hdouble hadd (felem_of (rev w)) |},
    {| hc_cipher := flip 16; hc_tweak := firstn 13 w ++ [200; 201; 202]%Z; hc_table := htable f0 hdouble hadd (felem_of (rev w)) |}.
  do 2 eexists. cbv zeta. split; [apply flip_lawful; lia|]. split; [reflexivity|]. split; [reflexivity|]. split; [vm_compute; discriminate|].
  split; [vm_compute; reflexivity|]. split; [vm_compute; reflexivity|]. split; [vm_compute; discriminate|]. split; vm_compute; reflexivity.
Qed.
