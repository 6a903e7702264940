(** C22: Fernet tokens (fernet). *)
From Verif Require Import Base BlockModeModel CipherLaws PaddingModel PaddingProofs MacProofs MacProps FernetSpec FernetModel FernetProofs.
Set Implicit Arguments. Unset Strict Implicit.
Local Open Scope nat_scope.

(** The standard library under Fernet: AES-128 of a 16-byte key is a lawful 16-byte block cipher,
    the MAC has 32 bytes, and base64 decoding undoes encoding. *)
Record std (aes : bytes -> cipher) (mac : bytes -> bytes -> bytes) (b64enc b64dec : bytes -> bytes) : Prop := {
  std_aes : forall k, length k = 16 -> lawful (aes k) /\ bsz (aes k) = 16;
  std_mac : forall k m, length (mac k m) = 32 /\ bytes_ok (mac k m);
  std_b64 : forall x, bytes_ok x -> b64dec (b64enc x) = x }.

Section props.
  Variables (aes : bytes -> cipher) (mac : bytes -> bytes -> bytes) (b64enc b64dec : bytes -> bytes).

  (** EncryptWithTime returns the Fernet token of the message, for the IV that the random source
      delivered and the second of the given time. *)
  Theorem C22_token : std aes mac b64enc b64dec -> forall iv msg k sec nsec,
    isblock 16 iv -> bytes_ok msg -> length k = 32 -> (- 2 ^ 62 <= sec <= 2 ^ 62)%Z ->
    encrypt_with_time aes mac b64enc iv msg k (sec + unix2internal, nsec)%Z = b64enc (token aes mac k (sec mod 2 ^ 64) iv msg).
  Proof.
    intros S iv msg k sec nsec Hi Om Lk Hs. unfold encrypt_with_time.
    assert (Lc : length (crypt_half k) = 16) by (unfold crypt_half; rewrite skipn_length; lia).
    destruct (std_aes S Lc) as [HL Hb].
    pose proof (encrypt_eq Lk (fun a b => proj1 (std_mac S a b)) HL Hb (sec + unix2internal, nsec)%Z Hi Om) as E.
    destruct (f_encrypt _ _ _ _ _ _ _) as [b n]. destruct E as [-> _]. unfold t_unix. cbn [fst].
    replace (sec + unix2internal - unix2internal)%Z with sec by lia. now rewrite int64_small by lia.
  Qed.

  (** With one key, DecryptWithTime returns m exactly if the decoded token is authentic for that key
      with payload m, and not stale. *)
  Theorem C22_decrypt_iff : std aes mac b64enc b64dec -> forall tok ttl k sec nsec m,
    length k = 32 -> bytes_ok (b64dec tok) -> (0 <= nsec < 10 ^ 9)%Z -> (- 2 ^ 61 <= sec <= 2 ^ 62)%Z -> (- 2 ^ 63 <= ttl < 2 ^ 63)%Z ->
    (- 2 ^ 62 <= signed64 (be_val (slice 1 8 (b64dec tok))) <= 2 ^ 62)%Z ->
    (decrypt_with_time aes mac b64dec tok ttl [k] (sec + unix2internal, nsec)%Z = Ok (Some m) <->
     exists u, (0 <= u < 2 ^ 64)%Z /\ authentic aes mac k (b64dec tok) u m /\ ~ stale ttl (instant sec nsec) (signed64 u)).
  Proof.
    intros S tok ttl k sec nsec m Lk Ot Hn Hsec Httl Hts. unfold decrypt_with_time. cbn [try_keys].
    assert (Lc : length (crypt_half k) = 16) by (unfold crypt_half; rewrite skipn_length; lia).
    destruct (std_aes S Lc) as [HL Hb].
    assert (TO : t_ok (sec + unix2internal, nsec)%Z) by (unfold t_ok, unix2internal; cbn [fst snd]; lia).
    assert (TN : t_ns (sec + unix2internal, nsec)%Z = instant sec nsec) by (unfold t_ns; cbn [fst snd]; f_equal; lia).
    rewrite <- TN. rewrite <- (decrypt_some Lk (fun a b => proj1 (std_mac S a b)) HL Hb m Ot TO Httl Hts).
    pose proof (@f_decrypt_not_err aes mac (b64dec tok) ttl (sec + unix2internal, nsec)%Z k) as NE.
    destruct (f_decrypt _ _ _ _ _ _) as [t' [[m'|]| |]]; cbn [snd] in *; split; intro H; try discriminate; auto.
  Qed.

  (** It panics exactly on an authentic token that is too short to hold an IV. *)
  Theorem C22_panic_iff : std aes mac b64enc b64dec -> forall tok ttl k sec nsec,
    length k = 32 -> bytes_ok (b64dec tok) -> (0 <= nsec < 10 ^ 9)%Z -> (- 2 ^ 61 <= sec <= 2 ^ 62)%Z -> (- 2 ^ 63 <= ttl < 2 ^ 63)%Z ->
    (- 2 ^ 62 <= signed64 (be_val (slice 1 8 (b64dec tok))) <= 2 ^ 62)%Z ->
    let t := b64dec tok in
    (decrypt_with_time aes mac b64dec tok ttl [k] (sec + unix2internal, nsec)%Z = Panic <->
     32 < length t < 57 /\ nth 0 t 0%Z = 128%Z /\ ~ stale ttl (instant sec nsec) (signed64 (be_val (slice 1 8 t))) /\
     skipn (length t - 32) t = mac (sign_half k) (firstn (length t - 32) t)).
  Proof.
    intros S tok ttl k sec nsec Lk Ot Hn Hsec Httl Hts t. unfold decrypt_with_time. cbn [try_keys].
    assert (TO : t_ok (sec + unix2internal, nsec)%Z) by (unfold t_ok, unix2internal; cbn [fst snd]; lia).
    assert (TN : t_ns (sec + unix2internal, nsec)%Z = instant sec nsec) by (unfold t_ns; cbn [fst snd]; f_equal; lia).
    rewrite <- TN. unfold t. assert (Lc : length (crypt_half k) = 16) by (unfold crypt_half; rewrite skipn_length; lia).
    destruct (std_aes S Lc) as [HL Hb].
    rewrite <- (@decrypt_panic aes mac k Lk (fun a b => proj1 (std_mac S a b)) Hb (b64dec tok) ttl _ Ot TO Httl Hts).
    pose proof (@f_decrypt_not_err aes mac (b64dec tok) ttl (sec + unix2internal, nsec)%Z k) as NE.
    destruct (f_decrypt _ _ _ _ _ _) as [t' [[m'|]| |]]; cbn [snd] in *; split; intro H; try discriminate; auto.
  Qed.

  (** Round trip: a token made at second s decrypts to its message with every list of keys that has
      its key behind keys whose MAC does not match, as long as it is not stale. *)
  Theorem C22_round_trip : std aes mac b64enc b64dec -> forall iv msg k s n ttl sec nsec pre post,
    isblock 16 iv -> bytes_ok msg -> length k = 32 -> (- 2 ^ 62 <= s <= 2 ^ 62)%Z ->
    (0 <= nsec < 10 ^ 9)%Z -> (- 2 ^ 61 <= sec <= 2 ^ 62)%Z -> (- 2 ^ 63 <= ttl < 2 ^ 63)%Z ->
    Forall (fun k' => length k' = 32 /\ forall b, mac (sign_half k') b <> mac (sign_half k) b) pre ->
    ~ stale ttl (instant sec nsec) s ->
    decrypt_with_time aes mac b64dec (encrypt_with_time aes mac b64enc iv msg k (s + unix2internal, n)%Z) ttl (pre ++ k :: post) (sec + unix2internal, nsec)%Z
    = Ok (Some msg).
  Proof.
    intros S iv msg k s n ttl sec nsec pre post Hi Om Lk Hs Hn Hsec Httl Hpre Hst.
    rewrite (C22_token S n Hi Om Lk Hs). set (u := (s mod 2 ^ 64)%Z). set (T := token aes mac k u iv msg).
    assert (Lc : length (crypt_half k) = 16) by (unfold crypt_half; rewrite skipn_length; lia).
    destruct (std_aes S Lc) as [HL Hb]. destruct (pad16_eq msg) as [_ Lp].
    assert (Bp : Forall (isblock 16) (chunks 16 (pad16 msg))).
    { apply blocks_ok with (n := length msg / 16 + 1); [now apply pad16_ok|lia]. }
    destruct (cbc_enc_blocks HL Hb Hi Bp) as (Bc & Lce & Edec). set (cs := cbc_enc (enc (aes (crypt_half k))) iv (chunks 16 (pad16 msg))) in *.
    assert (Bu : (0 <= u < 2 ^ 64)%Z) by (apply Z.mod_pos_bound; lia).
    assert (Su : signed64 u = s) by (apply signed64_mod; lia).
    assert (AU : authentic aes mac k T u msg).
    { exists iv, cs, (pad16 msg). split; [apply Hi|]. split; [now apply isb_len|]. split.
      - intro E0. rewrite E0 in Lce. cbn in Lce. assert (E1 : chunks 16 (pad16 msg) = []) by (destruct (chunks 16 (pad16 msg)); [auto|discriminate]).
        apply (f_equal (@concat Z)) in E1. rewrite chunks_concat in E1 by lia. apply (f_equal (@length Z)) in E1. cbn in E1. lia.
      - split; [reflexivity|]. split; [fold cs; rewrite Edec; now rewrite chunks_concat by lia|].
        unfold pad16. pose proof (Nat.mod_upper_bound (length msg) 16 ltac:(lia)). set (p := 16 - length msg mod 16).
        assert (EL : last (msg ++ repeat (Z.of_nat p) p) 0%Z = Z.of_nat p).
        { replace p with (p - 1 + 1) at 2 by lia. rewrite repeat_app. cbn [repeat]. rewrite app_assoc. apply last_last. }
        cbn zeta. rewrite EL. now rewrite Nat2Z.id. }
    assert (OB : bytes_ok (body aes k u iv msg)).
    { unfold body. apply bytes_ok_app. split; [repeat constructor; unfold is_byte; lia|]. apply bytes_ok_app. split; [apply be_bytes_ok|].
      apply bytes_ok_app. split; [apply Hi|]. fold cs. apply bytes_ok_concat. rewrite Forall_forall in *. intros x Ix. now apply Bc. }
    assert (OT : bytes_ok T).
    { unfold T, token. apply bytes_ok_app. split; [exact OB|]. apply (std_mac S). }
    assert (Eu : be_val (slice 1 8 T) = u).
    { unfold T, token, body, slice. cbn [app skipn]. rewrite <- !app_assoc. rewrite firstn_app_exact by apply be_bytes_length.
      rewrite be_val_bytes. now rewrite Z.mod_small. }
    assert (Hk : decrypt_with_time aes mac b64dec (b64enc T) ttl [k] (sec + unix2internal, nsec)%Z = Ok (Some msg)).
    { apply (C22_decrypt_iff S); rewrite ?(std_b64 S) by auto; auto.
      - rewrite Eu, Su. lia.
      - exists u. rewrite Su. auto. }
    unfold decrypt_with_time in *. rewrite (std_b64 S) in * by auto.
    induction pre as [|k' pre IH].
    - cbn [app try_keys] in *. destruct (f_decrypt _ _ _ _ _ _) as [t' [[m'|]| |]]; try discriminate; auto.
    - inversion_clear Hpre as [|? ? [Lk' H1] H2]. cbn [app try_keys]. rewrite f_decrypt_skip; auto.
      assert (LB : length T - 32 = length (body aes k u iv msg)) by (unfold T, token; rewrite app_length, (proj1 (std_mac S _ _)); lia).
      rewrite LB. unfold T, token. rewrite skipn_app_exact, firstn_app_exact by auto. intro E. now apply (H1 (body aes k u iv msg)).
  Qed.
End props.
Print Assumptions C22_token.
Print Assumptions C22_decrypt_iff.
Print Assumptions C22_panic_iff.
Print Assumptions C22_round_trip.

(** NewKey accepts exactly 32 bytes. *)
Theorem C22_new_key : forall k x, new_key k = Ok x <-> (length k = 32 /\ x = k).
Proof.
  intros k x. unfold new_key. destruct (Nat.eqb_spec (length k) 32); split; intro H; try discriminate; try lia.
  - injection H as <-. auto.
  - destruct H as [_ ->]. reflexivity.
Qed.
Print Assumptions C22_new_key.

(** A toy standard library for the examples: a byte-flipping cipher that depends on the key, a
    MAC that adds up the bytes, and the identity for base64. *)
Definition toy_aes (k : bytes) : cipher :=
  {| bsz := 16; enc := fun b => map (fun x => Z.lxor x (nth 0 k 0%Z mod 256)) b; dec := fun b => map (fun x => Z.lxor x (nth 0 k 0%Z mod 256)) b |}.
Definition toy_mac (k m : bytes) : bytes := be_bytes 32 (fold_left Z.add k (fold_left Z.add m 0%Z)).
Lemma lxor_byte a b : is_byte a -> is_byte b -> is_byte (Z.lxor a b).
Proof.
  intros A B. assert (H : bytes_ok (xorl [a] [b])) by (apply xorl_ok; constructor; auto; constructor). now inversion_clear H.
Qed.
Lemma toy_std : std toy_aes toy_mac (fun x => x) (fun x => x).
Proof.
  split.
  - intros k _. split; [|reflexivity].
    assert (K : is_byte (nth 0 k 0%Z mod 256)) by (unfold is_byte; apply Z.mod_pos_bound; lia).
    assert (M : forall b, isblock 16 b -> isblock 16 (map (fun x => Z.lxor x (nth 0 k 0%Z mod 256)) b)).
    { intros b [L O]. split; [now rewrite map_length|]. apply Forall_forall. intros x Ix. apply in_map_iff in Ix as (y & <- & Iy).
      apply lxor_byte; auto. unfold bytes_ok in O. rewrite Forall_forall in O. auto. }
    split; cbn [toy_aes bsz enc dec]; [lia|exact M|exact M|].
    intros b _. rewrite map_map. rewrite <- (map_id b) at 2. apply map_ext. intro a. now rewrite Z.lxor_assoc, Z.lxor_nilpotent, Z.lxor_0_r.
  - intros k m. split; [apply be_bytes_length|apply be_bytes_ok].
  - auto.
Qed.

(** Defect: an attempt with one key decrypts the shared buffer in place. With two keys that have
    the same signing half, a token of the second one is lost when the first one is tried before
    it, although it decrypts with the second one alone or first. *)
Theorem C22_key_order_refuted : exists aes mac b64enc b64dec iv msg k1 k2 at_ now, std aes mac b64enc b64dec /\
  length k1 = 32 /\ length k2 = 32 /\ isblock 16 iv /\ bytes_ok msg /\
  let tok := encrypt_with_time aes mac b64enc iv msg k2 at_ in
  decrypt_with_time aes mac b64dec tok 0 [k2] now = Ok (Some msg) /\
  decrypt_with_time aes mac b64dec tok 0 [k2; k1] now = Ok (Some msg) /\
  decrypt_with_time aes mac b64dec tok 0 [k1; k2] now = Ok None.
Proof.
  exists toy_aes, toy_mac, (fun x => x), (fun x => x), (repeat 5%Z 16), [104; 105]%Z,
    (repeat 7%Z 16 ++ repeat 3%Z 16), (repeat 7%Z 16 ++ repeat 200%Z 16), (unix2internal + 1000, 5)%Z, (unix2internal + 2000, 0)%Z.
  split; [apply toy_std|]. split; [reflexivity|]. split; [reflexivity|].
  split; [split; [reflexivity|repeat constructor; unfold is_byte; lia]|]. split; [repeat constructor; unfold is_byte; lia|].
  split; [vm_compute; reflexivity|]. split; vm_compute; reflexivity.
Qed.
Print Assumptions C22_key_order_refuted.

(** The hypotheses are met: made at second 1000, read at second 1060 with a life of 60 s; stale one
    nanosecond later. *)
Example C22_instance : std toy_aes toy_mac (fun x => x) (fun x => x) /\
  let tok := encrypt_with_time toy_aes toy_mac (fun x => x) (repeat 5%Z 16) [104; 105]%Z (map Z.of_nat (seq 9 32)) (1000 + unix2internal, 7)%Z in
  (forall b, toy_mac (sign_half (repeat 1%Z 32)) b <> toy_mac (sign_half (map Z.of_nat (seq 9 32))) b) /\
  ~ stale (60 * 10 ^ 9) (instant 1060 0) 1000 /\ stale (60 * 10 ^ 9) (instant 1060 1) 1000 /\
  decrypt_with_time toy_aes toy_mac (fun x => x) tok (60 * 10 ^ 9) [repeat 1%Z 32; map Z.of_nat (seq 9 32)] (1060 + unix2internal, 0)%Z = Ok (Some [104; 105]%Z) /\
  decrypt_with_time toy_aes toy_mac (fun x => x) tok (60 * 10 ^ 9) [repeat 1%Z 32; map Z.of_nat (seq 9 32)] (1060 + unix2internal, 1)%Z = Ok None.
Proof.
  split; [apply toy_std|]. cbv zeta. split.
  { intros b E. unfold toy_mac in E. apply (f_equal be_val) in E. rewrite !be_val_bytes in E. set (x := fold_left Z.add b 0%Z) in E.
    change (fold_left Z.add (sign_half (repeat 1%Z 32)) x) with (x+1+1+1+1+1+1+1+1+1+1+1+1+1+1+1+1)%Z in E.
    change (fold_left Z.add (sign_half (map Z.of_nat (seq 9 32))) x) with (x+9+10+11+12+13+14+15+16+17+18+19+20+21+22+23+24)%Z in E.
    clearbody x. change (256 ^ Z.of_nat 32)%Z with (2 ^ 256)%Z in E. Z.div_mod_to_equations. lia. }
  split; [unfold stale, instant; lia|]. split; [unfold stale, instant; lia|].
  split; vm_compute; reflexivity.
Qed.
