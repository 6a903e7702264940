(** Lemmas for C22. *)
From Verif Require Import Base BlockModeModel CipherLaws PaddingModel PaddingProofs MacProofs FernetSpec FernetModel.
Set Implicit Arguments. Unset Strict Implicit.
Local Open Scope nat_scope.

Section cbc.
  Variable c : cipher.
  Hypothesis HL : lawful c.
  Hypothesis Hs : bsz c = 16.
  Lemma xb a b : isblock 16 a -> isblock 16 b -> isblock 16 (xorl a b).
  Proof. intros [A1 A2] [B1 B2]. split; [rewrite xorl_length; lia|now apply xorl_ok]. Qed.
  Lemma cbc_enc_blocks : forall ps iv, isblock 16 iv -> Forall (isblock 16) ps ->
    Forall (isblock 16) (cbc_enc (enc c) iv ps) /\ length (cbc_enc (enc c) iv ps) = length ps /\
    cbc_dec (dec c) iv (cbc_enc (enc c) iv ps) = ps.
  Proof.
    induction ps as [|p ps IH]; intros iv Hi Hp; [cbn; auto|]. inversion_clear Hp as [|? ? Hp1 Hp2].
    pose proof (xb Hp1 Hi) as Bx.
    assert (Be : isblock 16 (enc c (xorl p iv))) by (rewrite <- Hs; apply (law_enc HL); rewrite Hs; exact Bx).
    destruct (IH _ Be Hp2) as (A & B & C). cbn [cbc_enc cbc_dec length]. split; [constructor; auto|]. split; [now rewrite B|].
    rewrite C. f_equal. rewrite (law_inv HL) by (rewrite Hs; exact Bx). apply xorl_cancel_r. destruct Hp1, Hi. lia.
  Qed.
  Lemma cbc_dec_blocks : forall cs iv, isblock 16 iv -> Forall (isblock 16) cs ->
    Forall (isblock 16) (cbc_dec (dec c) iv cs) /\ length (cbc_dec (dec c) iv cs) = length cs.
  Proof.
    induction cs as [|x cs IH]; intros iv Hi Hc; [cbn; auto|]. inversion_clear Hc as [|? ? Hc1 Hc2].
    destruct (IH _ Hc1 Hc2) as (A & B). cbn [cbc_dec length]. split; [|now rewrite B]. constructor; auto. apply xb; auto.
    rewrite <- Hs. apply (law_dec HL). rewrite Hs. exact Hc1.
  Qed.
End cbc.

(** ** time *)
Definition signed64 (u : Z) : Z := (if u <? 2 ^ 63 then u else u - 2 ^ 64)%Z.
Lemma int64_small x : (- 2 ^ 63 <= x < 2 ^ 63)%Z -> int64 x = x.
Proof. intro H. unfold int64. rewrite Z.mod_small by lia. lia. Qed.
Lemma int64_u x : (0 <= x < 2 ^ 64)%Z -> int64 x = signed64 x.
Proof.
  intro H. unfold int64, signed64. destruct (Z.ltb_spec x (2 ^ 63)).
  - rewrite Z.mod_small by lia. lia.
  - replace (x + 2 ^ 63)%Z with (x - 2 ^ 63 + 1 * 2 ^ 64)%Z by lia. rewrite Z.mod_add by lia. rewrite Z.mod_small by lia. lia.
Qed.
Lemma signed64_mod s : (- 2 ^ 63 <= s < 2 ^ 63)%Z -> signed64 (s mod 2 ^ 64) = s.
Proof.
  intro H. rewrite <- int64_u by (apply Z.mod_pos_bound; lia). unfold int64. rewrite Z.add_mod_idemp_l by lia. rewrite Z.mod_small by lia. lia.
Qed.
Definition t_ns (t : gtime) : Z := instant (fst t - unix2internal) (snd t).
Definition t_ok (t : gtime) : Prop := (0 <= snd t < 10 ^ 9 /\ - 2 ^ 62 <= fst t <= 2 ^ 62 + 2 ^ 61)%Z.
Lemma after_ns t u : (0 <= snd t < 10 ^ 9)%Z -> (0 <= snd u < 10 ^ 9)%Z -> t_after t u = (t_ns u <? t_ns t)%Z.
Proof.
  intros A B. unfold t_after, t_ns, instant. destruct (Z.ltb_spec (fst u) (fst t)); destruct (Z.eqb_spec (fst t) (fst u)); destruct (Z.ltb_spec (snd u) (snd t));
    destruct (Z.ltb_spec ((fst u - unix2internal) * 10 ^ 9 + snd u) ((fst t - unix2internal) * 10 ^ 9 + snd t)); cbn [orb andb]; auto; exfalso; nia.
Qed.
Lemma add_sec_small s d : (- 2 ^ 62 <= s <= 2 ^ 62 + 2 ^ 61)%Z -> (- 2 ^ 60 <= d <= 2 ^ 60)%Z -> add_sec s d = (s + d)%Z.
Proof.
  intros A B. unfold add_sec. rewrite int64_small by lia. destruct (Z.ltb_spec s (s + d)); destruct (Z.ltb_spec 0 d); cbn [Bool.eqb]; auto; lia.
Qed.
Lemma add_ns t d : t_ok t -> (- 2 ^ 63 <= d < 2 ^ 63)%Z -> (0 <= snd (t_add t d) < 10 ^ 9)%Z /\ t_ns (t_add t d) = (t_ns t + d)%Z.
Proof.
  intros [A B] D. unfold t_add. pose proof (Z.quot_rem d (10 ^ 9) ltac:(lia)) as QR.
  assert (R : (- 10 ^ 9 < Z.rem d (10 ^ 9) < 10 ^ 9)%Z).
  { pose proof (Z.rem_bound_abs d (10 ^ 9) ltac:(lia)). lia. }
  set (q := Z.quot d (10 ^ 9)) in *. set (r := Z.rem d (10 ^ 9)) in *.
  assert (Q : (- 2 ^ 34 <= q <= 2 ^ 34)%Z) by nia.
  destruct (Z.leb_spec (10 ^ 9) (snd t + r)); [|destruct (Z.ltb_spec (snd t + r) 0)]; cbn [fst snd];
    (rewrite add_sec_small by lia); unfold t_ns, instant; cbn [fst snd]; split; lia.
Qed.
Lemma of_unix_ok s : (- 2 ^ 62 <= s <= 2 ^ 62)%Z -> t_ok (t_of_unix s) /\ t_ns (t_of_unix s) = instant s 0.
Proof.
  intro H. unfold t_of_unix, t_ns, t_ok, unix2internal. rewrite int64_small by lia. cbn [fst snd]. split; [lia|]. unfold instant. lia.
Qed.
Lemma stale_ok ttl now s : t_ok now -> (- 2 ^ 63 <= ttl < 2 ^ 63)%Z -> (- 2 ^ 62 <= s <= 2 ^ 62)%Z ->
  ((0 <? ttl)%Z && (t_after now (t_add (t_of_unix s) ttl) || t_after (t_of_unix s) (t_add now (60 * 10 ^ 9))))%bool = true <->
  stale ttl (t_ns now) s.
Proof.
  intros Hn Ht Hs. destruct (of_unix_ok Hs) as [O1 E1]. destruct (add_ns O1 Ht) as [B1 A1].
  destruct (@add_ns now (60 * 10 ^ 9)%Z Hn ltac:(lia)) as [B2 A2]. pose proof Hn as [Hn1 _]. pose proof O1 as [O11 _].
  rewrite !after_ns by auto. rewrite A1, A2, E1. unfold stale. rewrite andb_true_iff, orb_true_iff, !Z.ltb_lt. lia.
Qed.

Lemma pad16_eq m : pkcs7_pad m 16 = pad16 m /\ length (pad16 m) = length m / 16 * 16 + 16.
Proof.
  rewrite pkcs7_pad_eq by lia. unfold pad_count, zlen, pad16. pose proof (Nat.mod_upper_bound (length m) 16 ltac:(lia)).
  assert (E : (16 - Z.of_nat (length m) mod 16)%Z = Z.of_nat (16 - length m mod 16)).
  { change 16%Z with (Z.of_nat 16) at 2. rewrite <- Nat2Z.inj_mod. lia. }
  rewrite E, Nat2Z.id. unfold to_byte. rewrite Z.mod_small by lia. split; [reflexivity|].
  rewrite app_length, repeat_length. pose proof (Nat.div_mod (length m) 16 ltac:(lia)). lia.
Qed.
Lemma pad16_ok m : bytes_ok m -> bytes_ok (pad16 m).
Proof.
  intro H. apply bytes_ok_app. split; auto. apply bytes_ok_repeat. unfold is_byte. lia.
Qed.
Lemma blocks_ok x n : bytes_ok x -> length x = n * 16 -> Forall (isblock 16) (chunks 16 x).
Proof.
  intros O L. assert (A : all_len 16 (chunks 16 x)) by (apply chunks_all_len with (k := n); lia).
  assert (O' : bytes_ok (concat (chunks 16 x))) by (rewrite chunks_concat by lia; auto). apply bytes_ok_concat in O'.
  unfold all_len in A. rewrite Forall_forall in *. intros y Iy. split; auto.
Qed.
Lemma isb_len l : Forall (isblock 16) l -> all_len 16 l.
Proof. intro H. eapply Forall_impl; [|exact H]. now intros a [A _]. Qed.
Lemma app_splice (a d b : bytes) off : length a = off -> length d <= length b -> splice off d (a ++ b) = a ++ d ++ skipn (length d) b.
Proof.
  intros La Ld. unfold splice. rewrite firstn_app_exact by auto. f_equal. f_equal. rewrite skipn_app, skipn_all2 by lia.
  cbn [app]. f_equal. lia.
Qed.
(** ** encryption *)
Section enc.
  Variables (aes : bytes -> cipher) (mac : bytes -> bytes -> bytes) (k : bytes).
  Hypothesis Lk : length k = 32.
  Hypothesis Hm : forall key m, length (mac key m) = 32.
  Let c := aes (crypt_half k).
  Hypothesis HL : lawful c.
  Hypothesis Hs : bsz c = 16.
  Lemma halves : crypt_bytes k = crypt_half k /\ sign_bytes k = sign_half k.
  Proof. unfold crypt_bytes, sign_bytes. rewrite Lk. split; reflexivity. Qed.
  Lemma ct_len iv m : isblock 16 iv -> bytes_ok m -> length (concat (cbc_enc (enc c) iv (chunks 16 (pad16 m)))) = length (pad16 m).
  Proof.
    intros Hi Om. destruct (pad16_eq m) as [_ L]. assert (B : Forall (isblock 16) (chunks 16 (pad16 m))).
    { apply blocks_ok with (n := length m / 16 + 1); [now apply pad16_ok|lia]. }
    destruct (cbc_enc_blocks HL Hs Hi B) as (A & E & _).
    rewrite (concat_len (n := 16)) by now apply isb_len. rewrite E. rewrite <- (@chunks_concat _ 16 (pad16 m)) at 2 by lia.
    rewrite (concat_len (n := 16)) by now apply isb_len. reflexivity.
  Qed.
  Lemma encrypt_eq iv m t : isblock 16 iv -> bytes_ok m ->
    let '(b, n) := f_encrypt aes mac (repeat 0%Z (encoded_len (length m))) m iv t k in
    firstn n b = token aes mac k (t_unix t mod 2 ^ 64) iv m /\ n = length b.
  Proof.
    intros Hi Om. unfold f_encrypt. destruct halves as [-> ->]. fold c. destruct (pad16_eq m) as [-> Lp].
    pose proof Hi as [Li Oi]. unfold encoded_len. set (N := length m / 16 * 16) in *.
    assert (skr : forall a b, b <= a -> skipn b (repeat 0%Z a) = repeat 0%Z (a - b)).
    { induction a as [|a IH]; intros [|b] Hb; cbn [skipn repeat Nat.sub]; auto; try lia. apply IH. lia. }
    assert (Lb8 : length (be_bytes 8 (t_unix t mod 2 ^ 64)) = 8) by apply be_bytes_length.
    set (T8 := be_bytes 8 (t_unix t mod 2 ^ 64)) in *.
    change (splice 0 [128%Z] (repeat 0%Z (N + 16 + 57))) with (128%Z :: skipn 1 (repeat 0%Z (N + 16 + 57))).
    rewrite skr by lia. change (128%Z :: repeat 0%Z (N + 16 + 57 - 1)) with ([128%Z] ++ repeat 0%Z (N + 16 + 57 - 1)).
    rewrite app_splice by (cbn [length]; rewrite ?repeat_length; lia). rewrite Lb8, skr by lia.
    rewrite app_assoc. rewrite app_splice by (rewrite ?app_length, ?repeat_length; cbn [length]; lia). rewrite Li, skr by lia.
    rewrite app_assoc. rewrite app_splice by (rewrite ?app_length, ?repeat_length; cbn [length]; lia). rewrite skr by lia.
    set (H25 := ([128%Z] ++ T8) ++ iv). assert (L25 : length H25 = 25) by (unfold H25; rewrite !app_length; cbn [length]; lia).
    assert (Es : slice 25 (length (pad16 m)) (H25 ++ pad16 m ++ repeat 0%Z (N + 16 + 57 - 1 - 8 - 16 - length (pad16 m))) = pad16 m).
    { unfold slice. rewrite skipn_app_exact by auto. now apply firstn_app_exact. }
    rewrite Es. set (ct := concat (cbc_enc (enc c) iv (chunks 16 (pad16 m)))).
    assert (Lc : length ct = length (pad16 m)) by now apply ct_len.
    rewrite app_splice by (rewrite ?app_length, ?repeat_length; lia). rewrite Lc, skipn_app_exact by auto.
    rewrite app_assoc. assert (L2 : length (H25 ++ ct) = 25 + length (pad16 m)) by (rewrite app_length; lia).
    rewrite firstn_app_exact by lia.
    assert (Eb : H25 ++ ct = body aes k (t_unix t mod 2 ^ 64) iv m).
    { unfold body. fold c. fold ct. fold T8. unfold H25. rewrite <- !app_assoc. reflexivity. }
    rewrite Eb in *. rewrite app_splice by (rewrite ?repeat_length, ?Hm; lia). rewrite Hm, skr by lia.
    replace (N + 16 + 57 - 1 - 8 - 16 - length (pad16 m) - 32) with 0 by lia. cbn [repeat]. rewrite app_nil_r.
    assert (Lt : length (token aes mac k (t_unix t mod 2 ^ 64) iv m) = 25 + length (pad16 m) + 32) by (unfold token; rewrite app_length, L2, Hm; lia).
    unfold token in *. rewrite Lt. split; [|reflexivity]. apply firstn_all2. lia.
  Qed.

  (** ** decryption with one key *)
  Lemma decrypt_some t ttl now m : bytes_ok t -> t_ok now -> (- 2 ^ 63 <= ttl < 2 ^ 63)%Z ->
    (- 2 ^ 62 <= signed64 (be_val (slice 1 8 t)) <= 2 ^ 62)%Z ->
    (snd (f_decrypt aes mac t ttl now k) = Ok (Some m) <->
     exists u, (0 <= u < 2 ^ 64)%Z /\ authentic aes mac k t u m /\ ~ stale ttl (t_ns now) (signed64 u)).
  Proof.
    intros Ot Hn Httl Hts. unfold f_decrypt. destruct halves as [-> ->]. fold c.
    assert (Bu : (0 <= be_val (slice 1 8 t) < 2 ^ 64)%Z).
    { unfold slice. assert (O8 : bytes_ok (firstn 8 (skipn 1 t))) by now apply bytes_ok_firstn, bytes_ok_skipn.
      pose proof (be_val_bound O8) as B. pose proof (firstn_le_length 8 (skipn 1 t)) as L. split; [lia|].
      eapply Z.lt_le_trans; [apply B|]. change (2 ^ 64)%Z with (256 ^ 8)%Z. apply Z.pow_le_mono_r; lia. }
    rewrite int64_u by auto. set (u := be_val (slice 1 8 t)) in *.
    pose proof (stale_ok Hn Httl Hts) as ST.
    set (st := ((0 <? ttl)%Z && _)%bool) in *.
    split.
    - intro E. destruct (Nat.ltb_spec (length t) 9) as [|L9]; [discriminate|]. destruct (Z.eqb_spec (nth 0 t 0%Z) 128) as [E128|]; [|discriminate].
      cbn [negb orb] in E. destruct st; [discriminate|]. destruct (Nat.leb_spec (length t) 32) as [|L32]; [discriminate|].
      destruct (bytes_eqb (skipn (length t - 32) t) _) eqn:EM; [|discriminate]. cbn [negb] in E.
      destruct (Nat.ltb_spec (length t - 32) 25) as [|L25]; [discriminate|].
      destruct (Nat.eqb_spec (length (slice 25 (length t - 32 - 25) t) mod 16) 0) as [Em|]; [|discriminate]. cbn [negb snd] in E.
      apply bytes_eqb_eq in EM.
      exists u. split; auto. split; [|rewrite <- ST; discriminate].
      set (pay := slice 25 (length t - 32 - 25) t) in *.
      assert (Lpay : length pay = length t - 57) by (unfold pay, slice; rewrite firstn_length, skipn_length; lia).
      assert (Opay : bytes_ok pay) by (unfold pay, slice; now apply bytes_ok_firstn, bytes_ok_skipn).
      assert (Liv : length (slice 9 16 t) = 16) by (unfold slice; rewrite firstn_length, skipn_length; lia).
      assert (Oiv : bytes_ok (slice 9 16 t)) by (unfold slice; now apply bytes_ok_firstn, bytes_ok_skipn).
      assert (Bp : Forall (isblock 16) (chunks 16 pay)).
      { apply blocks_ok with (n := length pay / 16); auto. pose proof (Nat.div_mod (length pay) 16 ltac:(lia)). lia. }
      exists (slice 9 16 t), (chunks 16 pay), (concat (cbc_dec (dec c) (slice 9 16 t) (chunks 16 pay))).
      destruct (cbc_dec_blocks HL Hs (conj Liv Oiv) Bp) as [Bd Ld].
      assert (Od : bytes_ok (concat (cbc_dec (dec c) (slice 9 16 t) (chunks 16 pay)))).
      { apply bytes_ok_concat. rewrite Forall_forall in *. intros x Ix. now apply Bd. }
      set (pt := concat (cbc_dec (dec c) (slice 9 16 t) (chunks 16 pay))) in *.
      assert (EU : pkcs7_unpad pt = Ok m) by (destruct (pkcs7_unpad pt); try discriminate; now injection E as ->).
      apply (pkcs7_unpad_iff pt m Od) in EU. destruct EU as [Ne EU].
      split; auto. split; [now apply isb_len|]. split.
      { intro E9. apply Ne. unfold pt. rewrite E9. reflexivity. }
      split; [|split; [reflexivity|exact EU]].
      assert (E0 : [128%Z] ++ be_bytes 8 u ++ slice 9 16 t ++ concat (chunks 16 pay) = firstn (length t - 32) t).
      { rewrite chunks_concat by lia. unfold u. rewrite be_bytes_val by (unfold slice; solve [now apply bytes_ok_firstn, bytes_ok_skipn|rewrite firstn_length, skipn_length; lia]).
        unfold pay. destruct t as [|a t']; [cbn in L9; lia|]. cbn [nth] in E128. subst a.
        replace (length (128%Z :: t') - 32) with (1 + (8 + (16 + (length (128%Z :: t') - 32 - 25)))) at 2 by lia.
        set (z := length (128%Z :: t') - 32 - 25).
        change (firstn (1 + (8 + (16 + z))) (128%Z :: t')) with (128%Z :: firstn (8 + (16 + z)) t').
        change (slice 1 8 (128%Z :: t')) with (firstn 8 t'). change (slice 9 16 (128%Z :: t')) with (firstn 16 (skipn 8 t')).
        change (slice 25 z (128%Z :: t')) with (firstn z (skipn 24 t')). cbn [app]. f_equal.
        assert (FS : forall a b (l : bytes), firstn (a + b) l = firstn a l ++ firstn b (skipn a l)).
        { induction a as [|a IH]; intros b [|x l]; cbn; auto; [now rewrite firstn_nil|]. f_equal. apply IH. }
        assert (SS : forall a b (l : bytes), skipn a (skipn b l) = skipn (b + a) l).
        { intros a b; revert a; induction b as [|b IH]; intros a [|x l]; cbn; auto. now rewrite skipn_nil. }
        rewrite (FS 8 (16 + z) t'), (FS 16 z). rewrite (SS 16 8). reflexivity. }
      cbv zeta. rewrite E0, <- EM. symmetry. apply firstn_skipn.
    - intros (u' & Bu' & (iv & cs & s & Liv & Acs & Ncs & Et & Es & Em) & Hst). cbv zeta in Et.
      set (b := [128%Z] ++ be_bytes 8 u' ++ iv ++ concat cs) in *.
      assert (Lb : length b = 25 + 16 * length cs).
      { unfold b. rewrite !app_length, be_bytes_length, (concat_len (n := 16)) by auto. cbn [length]. lia. }
      assert (Lcs : 0 < length cs) by (destruct cs; [congruence|cbn; lia]).
      assert (Lt : length t = 57 + 16 * length cs) by (rewrite Et, app_length, Hm; lia).
      assert (Eu : u' = u).
      { unfold u, slice. rewrite Et. unfold b. rewrite <- !app_assoc. cbn [app skipn]. rewrite firstn_app_exact by apply be_bytes_length.
        rewrite be_val_bytes. rewrite Z.mod_small; auto. }
      subst u'. assert (E128 : nth 0 t 0%Z = 128%Z) by (rewrite Et; reflexivity).
      destruct (Nat.ltb_spec (length t) 9) as [|_]; [lia|]. rewrite E128. change (128 =? 128)%Z with true. cbn [negb orb].
      destruct st; [exfalso; apply Hst; now apply ST|]. destruct (Nat.leb_spec (length t) 32); [lia|].
      replace (length t - 32) with (length b) by lia. rewrite Et at 1 2. rewrite skipn_app_exact, firstn_app_exact by auto.
      rewrite bytes_eqb_refl. cbn [negb]. destruct (Nat.ltb_spec (length b) 25); [lia|].
      assert (Ep : slice 25 (length b - 25) t = concat cs).
      { unfold slice. rewrite Et. unfold b at 2. rewrite !app_assoc. rewrite <- (app_assoc _ (concat cs)). rewrite skipn_app_exact by (rewrite !app_length, be_bytes_length; cbn [length]; lia).
        apply firstn_app_exact. rewrite (concat_len (n := 16)) by auto. lia. }
      assert (Ei : slice 9 16 t = iv).
      { unfold slice. rewrite Et. unfold b. rewrite !app_assoc. rewrite <- !(app_assoc _ _ (mac _ _)). rewrite <- (app_assoc _ iv). rewrite skipn_app_exact by (rewrite !app_length, be_bytes_length; cbn [length]; lia).
        now apply firstn_app_exact. }
      rewrite Ep, Ei. rewrite (concat_len (n := 16)) by auto. rewrite (Nat.mul_comm 16), Nat.mod_mul by lia. cbn [Nat.eqb negb snd].
      rewrite chunks_of_concat by (auto; lia). fold c in Es. rewrite <- Es.
      assert (Oc : Forall (isblock 16) cs).
      { assert (O' : bytes_ok (concat cs)) by (rewrite <- Ep; unfold slice; now apply bytes_ok_firstn, bytes_ok_skipn). apply bytes_ok_concat in O'.
        unfold all_len in Acs. rewrite Forall_forall in *. intros x Ix. split; auto. }
      assert (Oi : bytes_ok iv) by (rewrite <- Ei; unfold slice; now apply bytes_ok_firstn, bytes_ok_skipn).
      destruct (cbc_dec_blocks HL Hs (conj Liv Oi) Oc) as [Bd Ld].
      assert (Od : bytes_ok s).
      { rewrite Es. apply bytes_ok_concat. rewrite Forall_forall in *. intros x Ix. now apply Bd. }
      assert (Ns : s <> []).
      { intro E0. rewrite E0 in Es. apply (f_equal (@length Z)) in Es. rewrite (concat_len (n := 16)) in Es by now apply isb_len. rewrite Ld in Es. cbn in Es. lia. }
      assert (EU : pkcs7_unpad s = Ok m) by (apply (pkcs7_unpad_iff s m Od); split; auto).
      now rewrite EU.
  Qed.
  Lemma decrypt_panic t ttl now : bytes_ok t -> t_ok now -> (- 2 ^ 63 <= ttl < 2 ^ 63)%Z ->
    (- 2 ^ 62 <= signed64 (be_val (slice 1 8 t)) <= 2 ^ 62)%Z ->
    (snd (f_decrypt aes mac t ttl now k) = Panic <->
     32 < length t < 57 /\ nth 0 t 0%Z = 128%Z /\ ~ stale ttl (t_ns now) (signed64 (be_val (slice 1 8 t))) /\
     skipn (length t - 32) t = mac (sign_half k) (firstn (length t - 32) t)).
  Proof.
    intros Ot Hn Httl Hts. unfold f_decrypt. destruct halves as [-> ->]. fold c.
    assert (Bu : (0 <= be_val (slice 1 8 t) < 2 ^ 64)%Z).
    { unfold slice. assert (O8 : bytes_ok (firstn 8 (skipn 1 t))) by now apply bytes_ok_firstn, bytes_ok_skipn.
      pose proof (be_val_bound O8) as B. pose proof (firstn_le_length 8 (skipn 1 t)) as L. split; [lia|].
      eapply Z.lt_le_trans; [apply B|]. change (2 ^ 64)%Z with (256 ^ 8)%Z. apply Z.pow_le_mono_r; lia. }
    rewrite int64_u by auto. set (u := be_val (slice 1 8 t)) in *.
    pose proof (stale_ok Hn Httl Hts) as ST.
    set (st := ((0 <? ttl)%Z && _)%bool) in *.
    destruct (Nat.ltb_spec (length t) 9) as [L9|L9]; [cbn [orb]; split; [discriminate|lia]|].
    destruct (Z.eqb_spec (nth 0 t 0%Z) 128) as [E128|N]; [|cbn [negb orb]; split; [discriminate|tauto]].
    cbn [negb orb]. destruct st; [split; [discriminate|]; intros (_ & _ & H & _); exfalso; apply H; now apply ST|].
    destruct (Nat.leb_spec (length t) 32) as [|L32]; [split; [discriminate|lia]|].
    destruct (bytes_eqb (skipn (length t - 32) t) _) eqn:EM; cbn [negb].
    - apply bytes_eqb_eq in EM. destruct (Nat.ltb_spec (length t - 32) 25) as [L25|L25].
      + split; [|reflexivity]. intros _. split; [lia|]. split; auto. split; auto. intro H. apply ST in H. discriminate.
      + split; [|lia]. destruct (negb _); [discriminate|]. cbn [snd]. intro E.
        assert (NP : forall x, pkcs7_unpad x <> Panic).
        { intros [|a x]; [discriminate|]. unfold pkcs7_unpad. destruct (_ <? 0)%Z; [discriminate|]. destruct (forallb _ _); discriminate. }
        exfalso. destruct (pkcs7_unpad _) eqn:EP in E; try discriminate. now apply NP in EP.
    - split; [discriminate|]. intros (_ & _ & _ & H). rewrite H, bytes_eqb_refl in EM. discriminate.
  Qed.
End enc.
Lemma f_decrypt_not_err aes mac t ttl now k : snd (f_decrypt aes mac t ttl now k) <> Err.
Proof.
  unfold f_decrypt. destruct (_ || _)%bool; [discriminate|]. destruct (_ && _)%bool; [discriminate|]. destruct (_ <=? _); [discriminate|].
  destruct (negb _); [discriminate|]. destruct (_ <? _); [discriminate|]. destruct (negb _); [discriminate|]. cbn [snd].
  destruct (pkcs7_unpad _); discriminate.
Qed.
(** a key whose MAC does not match leaves the buffer alone *)
Lemma f_decrypt_skip aes mac t ttl now k : length k = 32 ->
  skipn (length t - 32) t <> mac (sign_half k) (firstn (length t - 32) t) -> f_decrypt aes mac t ttl now k = (t, Ok None).
Proof.
  intros Lk H. unfold f_decrypt. destruct (_ || _)%bool; [reflexivity|]. destruct (_ && _)%bool; [reflexivity|]. destruct (_ <=? _); [reflexivity|].
  destruct (halves Lk) as [_ ->]. apply bytes_eqb_neq in H. now rewrite H.
Qed.
