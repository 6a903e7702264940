(** C131-C133: password protected PEM blocks. *)
From Coq Require Import String.
From Verif Require Import Base PaddingModel BlockModeModel StreamSpec FeedbackSpec AeadSpec FernetSpec BigModel PemModel PemSpec PemProofs.
Set Implicit Arguments. Unset Strict Implicit.
Local Open Scope nat_scope.

(** ** C131: a block encrypted with any of the 28 algorithms is recognised as encrypted and decrypts, with the same password, to the same data;
    its header names the algorithm and the iv, which are the next bytes of the random source *)
Theorem C131_pem_roundtrip : forall H newc a rd type data password,
  (forall x, length (H x) = 16) -> (forall x, bytes_ok (H x)) -> block_ciphers newc -> In a palgs -> bytes_ok rd -> bytes_ok data ->
  (pBs a <= length rd -> exists b, encrypt_pem H newc rd type data password (Some a) = Ok b /\
     bType b = type /\ is_encrypted b = true /\
     header (of_str "Proc-Type") (bHeaders b) = Some (of_str "4,ENCRYPTED") /\
     (exists hex, header (of_str "DEK-Info") (bHeaders b) = Some (pName a ++ of_str "," ++ hex) /\ hex_spells hex (firstn (pBs a) rd)) /\
     length (bBytes b) = (if pads (pMode a) then (length data / pBs a + 1) * pBs a else length data) /\
     decrypt_pem H newc b password = Ok data) /\
  (length rd < pBs a -> encrypt_pem H newc rd type data password (Some a) = Err).
Proof.
  intros H newc a rd type data password Hl Ho Hn I Ord Od. destruct (alg_facts I) as (A & B & C & D & F). unfold encrypt_pem, p1_encrypt, read_full.
  split; intros Lr; [|destruct (Nat.leb_spec (pBs a) (length rd)); [lia|reflexivity]].
  destruct (Nat.leb_spec (pBs a) (length rd)); [|lia]. cbn [rbind fst].
  set (iv := firstn (pBs a) rd). assert (Li : length iv = pBs a) by (unfold iv; rewrite firstn_length; lia).
  assert (Oi : bytes_ok iv) by (apply bytes_ok_firstn; auto).
  assert (Bs : 8 <= pBs a) by (rewrite B; destruct (pKind a); cbn; lia). rewrite Li, A. destruct (Nat.ltb_spec (pBs a) 8); [lia|]. cbv zeta.
  rewrite (@derive_key_eq H 16) by (auto; lia).
  destruct (@key_cipher H newc Hl Ho Hn a password (firstn 8 iv) I) as (c & E & L & K & S & T). rewrite E. cbn [rbind].
  assert (Hiv : isblock (bsz c) iv) by (split; congruence).
  assert (G : exists e, sym_enc (pMode a) c iv (if pads (pMode a) then pkcs7_pad data (Z.of_nat (bsz c)) else data) = Ok e /\
    length e = (if pads (pMode a) then (length data / pBs a + 1) * pBs a else length data) /\
    (if pads (pMode a) then open_padded (pMode a) c iv e else sym_dec (pMode a) c iv e) = Ok data).
  { rewrite <- S. destruct (pads (pMode a)) eqn:Pm; [now apply open_padded_enc|]. apply sym_enc_ok; auto. congruence. }
  destruct G as (e & Ee & Le & De). rewrite Ee. cbn [rbind fst snd]. eexists. split; [reflexivity|]. split; [reflexivity|]. split; [reflexivity|].
  split; [reflexivity|]. split.
  { exists (hex_encode iv). split; [reflexivity|]. now apply hex_encode_spells. }
  split; [exact Le|]. unfold decrypt_pem. cbn [bHeaders bBytes].
  replace (header dek_info _) with (Some (pName a ++ 44%Z :: hex_encode iv)) by reflexivity.
  rewrite (proj2 (cut_some _ _ _) (conj eq_refl D)), F. rewrite (proj2 (hex_decode_spells _ _) (hex_encode_spells Oi)). cbn [rbind].
  rewrite Li, Nat.eqb_refl. cbn [negb]. unfold p1_decrypt. rewrite A, Li. destruct (Nat.ltb_spec (pBs a) 8); [lia|]. cbv zeta.
  rewrite (@derive_key_eq H 16) by (auto; lia). rewrite E. exact De.
Qed.
(** no cipher given *)
Theorem C131_pem_nil_cipher : forall H newc rd type data password, encrypt_pem H newc rd type data password None = Err.
Proof. reflexivity. Qed.

(** ** C132: which blocks decrypt, and to what; never a panic. A block is told to be encrypted exactly when the header is there. *)
Theorem C132_pem_decrypt_exact : forall H newc b password m,
  (forall x, length (H x) = 16) -> (forall x, bytes_ok (H x)) -> block_ciphers newc -> bytes_ok (bBytes b) ->
  (decrypt_pem H newc b password = Ok m <-> pem_plain H newc b password m) /\ decrypt_pem H newc b password <> Panic /\
  (is_encrypted b = true <-> exists v, header (of_str "DEK-Info") (bHeaders b) = Some v).
Proof.
  intros H newc b password m Hl Ho Hn Ob. split; [|split].
  3:{ unfold is_encrypted. fold dek_info. destruct (header dek_info (bHeaders b)); split; eauto; try discriminate. intros [v K]. discriminate. }
  2:{ unfold decrypt_pem. destruct (header dek_info (bHeaders b)) as [dek|]; [|discriminate]. destruct (cut dek) as [[n x]|]; [|discriminate].
      destruct (find_alg n) as [a|] eqn:F; [|discriminate]. destruct (find_alg_some F) as [I _].
      destruct (hex_decode x) as [iv| |] eqn:E; cbn [rbind]; [|discriminate|now apply (@hex_decode_iff (length x) x [] (le_n _)) in E].
      destruct (Nat.eqb_spec (length iv) (pBs a)) as [L|]; [|discriminate]. cbn [negb]. apply hex_decode_spells, hex_spells_ok in E.
      exact (proj2 (@p1_decrypt_iff H newc Hl Ho Hn a password iv (bBytes b) [] I L E Ob)). }
  unfold pem_plain, decrypt_pem. split.
  - destruct (header dek_info (bHeaders b)) as [dek|]; [|discriminate]. destruct (cut dek) as [[n x]|] eqn:C; [|discriminate].
    destruct (find_alg n) as [a|] eqn:F; [|discriminate]. destruct (find_alg_some F) as [I <-].
    destruct (hex_decode x) as [iv| |] eqn:E; cbn [rbind]; [|discriminate|discriminate].
    destruct (Nat.eqb_spec (length iv) (pBs a)) as [L|]; [|discriminate]. cbn [negb]. apply hex_decode_spells in E. intros Q.
    apply (@p1_decrypt_iff H newc Hl Ho Hn a password iv (bBytes b) m I L (hex_spells_ok E) Ob) in Q as (c & Ec & Oc).
    apply cut_some in C as [-> _]. exists (pName a ++ 44%Z :: x), a, x, iv, c. auto 10.
  - intros (dek & a & x & iv & c & -> & I & -> & E & L & Ec & Oc). destruct (alg_facts I) as (_ & _ & _ & D & F).
    change (of_str ","%string ++ x) with (44%Z :: x). rewrite (proj2 (cut_some _ _ _) (conj eq_refl D)), F.
    rewrite (proj2 (hex_decode_spells _ _) E). cbn [rbind]. rewrite L, Nat.eqb_refl. cbn [negb].
    apply (@p1_decrypt_iff H newc Hl Ho Hn a password iv (bBytes b) m I L (hex_spells_ok E) Ob). eauto.
Qed.

(** The documentation promises IncorrectPasswordError "if an incorrect password is detected". Whether a block decrypts does not depend on the
    password at all: a block which decrypts with one password decrypts, without an error, with every other one. *)
Theorem C132_wrong_password_unreported : forall H newc b password m,
  (forall x, length (H x) = 16) -> (forall x, bytes_ok (H x)) -> block_ciphers newc -> bytes_ok (bBytes b) ->
  decrypt_pem H newc b password = Ok m -> forall password', exists m', decrypt_pem H newc b password' = Ok m'.
Proof.
  intros H newc b password m Hl Ho Hn Ob E pw'. apply C132_pem_decrypt_exact in E; auto.
  destruct E as (dek & a & x & iv & c & Hd & I & -> & E & L & Ec & Oc).
  destruct (@key_cipher H newc Hl Ho Hn a pw' (firstn 8 iv) I) as (c' & E' & L' & K' & S' & T').
  destruct (@key_cipher H newc Hl Ho Hn a password (firstn 8 iv) I) as (c2 & E2 & L2 & K2 & S2 & T2). assert (c2 = c) as -> by congruence.
  assert (Hiv : isblock (bsz c') iv) by (split; [congruence|exact (hex_spells_ok E)]).
  assert (G : exists m', opens (pMode a) c' iv (bBytes b) m').
  { unfold opens in *. destruct (pads (pMode a)) eqn:Pm.
    - destruct Oc as (N & M & _). destruct (@sym_dec_is c' L' K' T' (pMode a) iv (bBytes b) Hiv Ob) as (y & Ey & Dy & Ly & Oy & _); [intros _; congruence|].
      assert (Ny : y <> []) by (intros ->; destruct (bBytes b); [congruence|discriminate]).
      exists (unpad_or_keep y). split; [auto|]. split; [congruence|]. exists y. split; auto. now apply strip_spec; auto.
    - destruct (@sym_dec_is c' L' K' T' (pMode a) iv (bBytes b) Hiv Ob) as (y & Ey & Dy & _); [congruence|]. eauto. }
  destruct G as [m' G]. exists m'. apply C132_pem_decrypt_exact; auto. unfold pem_plain. repeat eexists; eauto.
Qed.

(** ** C133: DeriveKey is EVP_BytesToKey with one iteration, for every key length and every hash with non-empty digests of one length *)
Theorem C133_derive_key : forall H h password salt n, 0 < h -> (forall x, length (H x) = h) ->
  derive_key H password salt n = evp_key H password salt n /\ length (derive_key H password salt n) = n.
Proof. intros H h password salt n P L. rewrite (@derive_key_eq H h) by auto. split; [reflexivity|]. now apply (@evp_key_len H h). Qed.
(** a shorter key is the beginning of a longer one *)
Theorem C133_derive_key_prefix : forall H h password salt n k, 0 < h -> (forall x, length (H x) = h) ->
  firstn n (derive_key H password salt (n + k)) = derive_key H password salt n.
Proof.
  intros H h password salt n k P L. rewrite !(@derive_key_eq H h) by auto. unfold evp_key. rewrite firstn_firstn, Nat.min_l by lia.
  rewrite seq_app, map_app, concat_app, firstn_app, (@evp_concat_len H h P L). replace (n - n * h) with 0 by nia. now rewrite firstn_O, app_nil_r.
Qed.

(** ** The hypotheses are met *)
Definition toy (n : nat) (key : bytes) : cipher := {| bsz := n; enc := @rev Z; dec := @rev Z |}.
Definition toy_new (k : bkind) (key : bytes) : res cipher := Ok (toy (bkind_size k) key).
Definition toy_hash (x : bytes) : bytes := repeat (fold_left Z.lxor x 7 mod 256)%Z 16.
Lemma toy_ok : block_ciphers toy_new.
Proof.
  intros k key _ _. exists (toy (bkind_size k) key). split; [reflexivity|].
  assert (R : forall b, isblock (bkind_size k) b -> isblock (bkind_size k) (rev b)). { intros b [A B]. split; [now rewrite rev_length|now apply Forall_rev]. }
  split; [|split; [|reflexivity]].
  - constructor; cbn; auto; [destruct k; cbn; lia|]. intros. apply rev_involutive.
  - split; cbn; [destruct k; cbn; lia|]. intros. now rewrite rev_length.
Qed.
Lemma toy_hash_len x : length (toy_hash x) = 16. Proof. apply repeat_length. Qed.
Lemma toy_hash_ok x : bytes_ok (toy_hash x). Proof. apply bytes_ok_repeat. unfold is_byte. apply Z.mod_pos_bound. lia. Qed.
Definition des_cbc : palg := PAlg (of_str "DES-CBC") KDes 8 8 8 MCBC.
Example C131_instance : exists b, encrypt_pem toy_hash toy_new [1;2;3;4;5;6;7;8;9]%Z (of_str "K") [10;20;30]%Z [1;2]%Z (Some des_cbc) = Ok b /\
  decrypt_pem toy_hash toy_new b [1;2]%Z = Ok [10;20;30]%Z.
Proof.
  destruct (proj1 (@C131_pem_roundtrip toy_hash toy_new des_cbc [1;2;3;4;5;6;7;8;9]%Z (of_str "K") [10;20;30]%Z [1;2]%Z toy_hash_len toy_hash_ok toy_ok
    ltac:(left; reflexivity) ltac:(unfold bytes_ok; repeat (apply Forall_cons; [red; lia|]); apply Forall_nil)
    ltac:(unfold bytes_ok; repeat (apply Forall_cons; [red; lia|]); apply Forall_nil)) ltac:(cbn; lia)) as (b & E & _ & _ & _ & _ & _ & D). eauto.
Qed.
(** with another key the toy cipher gives the padded data back unchanged *)
Example C132_instance : forall b, encrypt_pem toy_hash toy_new [1;2;3;4;5;6;7;8;9]%Z (of_str "K") [10;20;30]%Z [1;2]%Z (Some des_cbc) = Ok b ->
  exists m, decrypt_pem toy_hash toy_new b [9]%Z = Ok m.
Proof.
  intros b E. vm_compute in E. injection E as <-.
  refine (@C132_wrong_password_unreported toy_hash toy_new _ [1;2]%Z [10;20;30]%Z toy_hash_len toy_hash_ok toy_ok _ _ [9]%Z).
  - cbn [bBytes]. unfold bytes_ok; repeat (apply Forall_cons; [red; lia|]); apply Forall_nil.
  - vm_compute. reflexivity.
Qed.
Example C133_instance : length (derive_key toy_hash [1]%Z [2]%Z 24) = 24.
Proof. exact (proj2 (@C133_derive_key toy_hash 16 [1]%Z [2]%Z 24 ltac:(lia) toy_hash_len)). Qed.

Definition assum_pem := (C131_pem_roundtrip, C131_pem_nil_cipher, C132_pem_decrypt_exact, C132_wrong_password_unreported, C133_derive_key, C133_derive_key_prefix).
Print Assumptions assum_pem.
