From Verif Require Import Base BlockModeModel AeadSpec CcmModel CcmSpec.
Set Implicit Arguments. Unset Strict Implicit.

Lemma be_val_app a b : be_val (a ++ b) = (be_val a * 256 ^ Z.of_nat (length b) + be_val b)%Z.
Proof.
  unfold be_val. rewrite rev_app_distr. rewrite <- (rev_length b). generalize (rev b) as u, (rev a) as v.
  intros u v. induction u as [|x u IH]; cbn [app le_val length].
  - change (256 ^ Z.of_nat 0)%Z with 1%Z. lia.
  - rewrite IH, Nat2Z.inj_succ, Z.pow_succ_r by lia. lia.
Qed.
Lemma le_bytes_split n m z : le_bytes (n + m) z = le_bytes n z ++ le_bytes m (z / 256 ^ Z.of_nat n).
Proof.
  revert z; induction n as [|n IH]; intro z; cbn [Nat.add le_bytes app].
  - now rewrite Z.div_1_r.
  - rewrite IH, Nat2Z.inj_succ, Z.pow_succ_r, Z.div_div by lia. reflexivity.
Qed.
Lemma le_bytes_mod n z : le_bytes n (z mod 256 ^ Z.of_nat n) = le_bytes n z.
Proof.
  revert z; induction n as [|n IH]; intro z; cbn [le_bytes]; [reflexivity|].
  rewrite Nat2Z.inj_succ, Z.pow_succ_r by lia.
  assert (0 < 256 ^ Z.of_nat n)%Z by lia. f_equal.
  - rewrite Z.rem_mul_r by lia. rewrite (Z.mul_comm 256), Z_mod_plus_full, Z.mod_mod by lia. reflexivity.
  - rewrite <- (IH (z / 256)%Z). f_equal.
    rewrite Z.rem_mul_r by lia. rewrite (Z.mul_comm 256), Z_div_plus_full by lia.
    rewrite Z.div_small by (apply Z.mod_pos_bound; lia). lia.
Qed.
Lemma be_bytes_split n m z : be_bytes (n + m) z = be_bytes n (z / 256 ^ Z.of_nat m) ++ be_bytes m z.
Proof. unfold be_bytes. rewrite Nat.add_comm, le_bytes_split, rev_app_distr. reflexivity. Qed.
Lemma be_bytes_cat n m A B : (0 <= B < 256 ^ Z.of_nat m)%Z ->
  be_bytes (n + m) (A * 256 ^ Z.of_nat m + B) = be_bytes n A ++ be_bytes m B.
Proof.
  intro H. rewrite be_bytes_split. f_equal.
  - f_equal. rewrite Z.div_add_l by lia. rewrite Z.div_small by lia. lia.
  - unfold be_bytes. f_equal. rewrite <- (le_bytes_mod m (A * _ + B)), Z.add_comm, Z_mod_plus_full, Z.mod_small by lia. reflexivity.
Qed.
(** Counting inside the last m bytes does not disturb the others. *)
Lemma be_incr a b i : bytes_ok a -> (be_val b + i < 256 ^ Z.of_nat (length b))%Z -> (0 <= be_val b + i)%Z ->
  be_bytes (length a + length b) (be_val (a ++ b) + i) = a ++ be_bytes (length b) (be_val b + i).
Proof.
  intros Ha H1 H2. rewrite be_val_app, <- Z.add_assoc, be_bytes_cat by lia. f_equal. now apply be_bytes_val.
Qed.

Lemma zpad16_small l : 0 < length l <= 16 -> zpad16 l = l ++ repeat 0%Z (16 - length l).
Proof.
  intro H. unfold zpad16. f_equal. f_equal. destruct (Nat.eq_dec (length l) 16) as [E|E]; [rewrite E; reflexivity|].
  rewrite (Nat.mod_small (length l)) by lia. rewrite Nat.mod_small by lia. reflexivity.
Qed.
Lemma zpad16_len l : 0 < length l <= 16 -> length (zpad16 l) = 16.
Proof. intro H. rewrite zpad16_small by auto. rewrite app_length, repeat_length. lia. Qed.

Lemma mod16_add a : (16 + a) mod 16 = a mod 16.
Proof. replace (16 + a) with (a + 1 * 16) by lia. apply Nat.mod_add. lia. Qed.

(** The blocks of a zero-padded string are the pieces of the string, each padded. *)
Lemma chunks_zpad16 l : chunks 16 (zpad16 l) = map zpad16 (chunks 16 l).
Proof.
  remember (length l) as n eqn:En. revert l En. induction n as [n IH] using lt_wf_ind. intros l En.
  destruct l as [|x l']; [reflexivity|]. remember (x :: l') as l. assert (l <> []) by (subst l; discriminate).
  assert (0 < length l) by (subst l; cbn; lia).
  destruct (Nat.le_gt_cases (length l) 16).
  - assert (Hz : length (zpad16 l) = 16) by (apply zpad16_len; lia).
    rewrite (chunks_cons (n := 16) (l := zpad16 l)) by (try lia; intro E; rewrite E in Hz; discriminate).
    rewrite firstn_all2, skipn_all2 by lia. rewrite (chunks_cons (n := 16) (l := l)) by (auto; lia).
    rewrite firstn_all2, skipn_all2 by lia. reflexivity.
  - rewrite (chunks_cons (n := 16) (l := l)) by (auto; lia). cbn [map].
    assert (E : zpad16 l = firstn 16 l ++ zpad16 (skipn 16 l)).
    { unfold zpad16. rewrite skipn_length. rewrite app_assoc, firstn_skipn. f_equal. f_equal. f_equal. f_equal.
      rewrite <- (mod16_add (length l - 16)). f_equal. lia. }
    assert (F : zpad16 (firstn 16 l) = firstn 16 l).
    { rewrite zpad16_small by (rewrite firstn_length; lia). rewrite firstn_length.
      replace (16 - Nat.min 16 (length l)) with 0 by lia. apply app_nil_r. }
    rewrite F. rewrite E. rewrite chunks_app_block by (try lia; rewrite firstn_length; lia).
    f_equal. apply (IH (length (skipn 16 l))); [rewrite skipn_length; lia|reflexivity].
Qed.

Lemma chunks_one (l : bytes) : length l = 16 -> chunks 16 l = [l].
Proof.
  intro H. rewrite chunks_cons by (try lia; intro E; rewrite E in H; discriminate).
  rewrite firstn_all2, skipn_all2 by lia. reflexivity.
Qed.
Lemma chunk_sizes (l : bytes) : Forall (fun d : bytes => 0 < length d <= 16) (chunks 16 l).
Proof.
  remember (length l) as n eqn:En. revert l En. induction n as [n IH] using lt_wf_ind. intros l En.
  destruct l as [|x l']; [constructor|]. rewrite chunks_cons by (try discriminate; lia).
  constructor; [rewrite firstn_length; cbn [length]; lia|].
  eapply IH; [|reflexivity]. subst n. rewrite skipn_length. cbn [length]. lia.
Qed.

Lemma gocopy0 n (s : bytes) : length s <= n -> gocopy (repeat 0%Z n) s = s ++ repeat 0%Z (n - length s).
Proof.
  intro H. unfold gocopy. rewrite repeat_length, firstn_all2 by lia. f_equal.
  replace n with (length s + (n - length s)) at 1 by lia. rewrite repeat_app.
  apply skipn_app_exact. apply repeat_length.
Qed.

Lemma be_bytes_tail k m z : k <= m -> skipn (m - k) (be_bytes m z) = be_bytes k z.
Proof.
  intro H. replace m with ((m - k) + k) at 2 by lia. rewrite be_bytes_split.
  apply skipn_app_exact. apply be_bytes_length.
Qed.


Section ccm.
  Variable c : cipher.
  Hypothesis Hs : bsz c = 16.
  Hypothesis HL : lawful c.

  Lemma xor_pad o d : length o = 16 -> 0 < length d <= 16 -> gocopy o (xorl o d) = xorl o (zpad16 d).
  Proof.
    intros Ho Hd. rewrite zpad16_small by auto. unfold gocopy. rewrite xorl_length.
    rewrite firstn_all2 by (rewrite xorl_length; lia).
    set (z := repeat 0%Z (16 - length d)).
    replace (xorl o (d ++ z)) with (xorl (firstn (length d) o ++ skipn (length d) o) (d ++ z)) by now rewrite firstn_skipn.
    rewrite xorl_app by (rewrite firstn_length; lia). f_equal.
    - symmetry. rewrite xorl_comm. rewrite xorl_firstn_r by lia. apply xorl_comm.
    - unfold z. rewrite xorl_repeat0 by (rewrite skipn_length; lia). f_equal. lia.
  Qed.

  Lemma enc_block b : isblock 16 b -> isblock 16 (enc c b).
  Proof. intro H. rewrite <- Hs. apply HL. now rewrite Hs. Qed.
  Lemma zpad16_ok d : bytes_ok d -> bytes_ok (zpad16 d).
  Proof. intro H. apply Forall_app. split; auto. apply bytes_ok_repeat. unfold is_byte. lia. Qed.
  Lemma chunks_ok n (l : bytes) : 0 < n -> bytes_ok l -> Forall bytes_ok (chunks n l).
  Proof.
    intros Hn. remember (length l) as k eqn:Ek. revert l Ek. induction k as [k IH] using lt_wf_ind. intros l Ek Hl.
    destruct l as [|x l']; [constructor|]. rewrite chunks_cons by (try discriminate; lia).
    constructor; [now apply bytes_ok_firstn|]. eapply IH; [|reflexivity|now apply bytes_ok_skipn].
    subst k. rewrite skipn_length. cbn [length]. lia.
  Qed.

  Lemma cmac_fold ds : forall o, isblock 16 o -> Forall (fun d => 0 < length d <= 16) ds -> Forall bytes_ok ds ->
    fold_left (fun o d => enc c (gocopy o (xorl o d))) ds o = fold_left (fun x b => enc c (xorl x b)) (map zpad16 ds) o /\
    isblock 16 (fold_left (fun x b => enc c (xorl x b)) (map zpad16 ds) o).
  Proof.
    induction ds as [|d ds IH]; intros o Ho Hd Hk; cbn [fold_left map]; [auto|].
    apply Forall_cons_iff in Hd as [Hd Hds]. apply Forall_cons_iff in Hk as [Hk Hks].
    rewrite xor_pad by (auto; apply Ho). apply IH; auto. apply enc_block. destruct Ho as [Ho1 Ho2]. split.
    - rewrite xorl_length, zpad16_len by auto. lia.
    - apply xorl_ok; auto. now apply zpad16_ok.
  Qed.
  Lemma cmac_spec o data : isblock 16 o -> bytes_ok data ->
    ccm_cmac c o data = fold_left (fun x b => enc c (xorl x b)) (chunks 16 (zpad16 data)) o /\
    isblock 16 (ccm_cmac c o data).
  Proof.
    intros Ho Hd. unfold ccm_cmac. rewrite chunks_zpad16.
    destruct (cmac_fold Ho (chunk_sizes data) (@chunks_ok 16 _ ltac:(lia) Hd)) as [E1 E2]. rewrite E1. auto.
  Qed.

  Variables nsz tsz : nat.
  Hypothesis Hn : 7 <= nsz <= 13.
  Hypothesis Ht : 4 <= tsz <= 16.
  Hypothesis Hte : Nat.even tsz = true.

  Lemma maxlen_bound : (0 <= ccm_maxlen nsz tsz)%Z /\ (ccm_maxlen nsz tsz <= 256 ^ Z.of_nat (15 - nsz) - 1)%Z /\
    (ccm_maxlen nsz tsz < 2 ^ 63)%Z.
  Proof.
    unfold ccm_maxlen.
    assert (Hc : nsz = 7 \/ nsz = 8 \/ nsz = 9 \/ nsz = 10 \/ nsz = 11 \/ nsz = 12 \/ nsz = 13) by lia.
    repeat destruct Hc as [->|Hc]; try subst nsz; cbn [Nat.sub];
    match goal with |- context [Z.of_nat ?k] => change (Z.of_nat k) with (Z.of_nat k) end;
    repeat match goal with |- context [Z.of_nat (S ?k)] => let v := eval vm_compute in (Z.of_nat (S k)) in change (Z.of_nat (S k)) with v end;
    repeat match goal with |- context [((Z.shiftl 1 ?k mod 2 ^ 64 - 1) mod 2 ^ 64)%Z] =>
      let v := eval vm_compute in ((Z.shiftl 1 k mod 2 ^ 64 - 1) mod 2 ^ 64)%Z in
      change ((Z.shiftl 1 k mod 2 ^ 64 - 1) mod 2 ^ 64)%Z with v end;
    repeat match goal with |- context [Z.ltb ?a ?b] => destruct (Z.ltb_spec a b) end; cbn [orb]; try lia.
  Qed.

  Lemma flags_eq (a : Z) : (a = 0 \/ a = 64)%Z ->
    Z.lor (Z.lor a (to_byte (Z.shiftl (to_byte (Z.of_nat tsz - 2)) 2))) (to_byte (14 - Z.of_nat nsz)) =
    (a + 8 * ((Z.of_nat tsz - 2) / 2) + (Z.of_nat (15 - nsz) - 1))%Z.
  Proof.
    intro Ha.
    assert (Hc : nsz = 7 \/ nsz = 8 \/ nsz = 9 \/ nsz = 10 \/ nsz = 11 \/ nsz = 12 \/ nsz = 13) by lia.
    assert (Hd : tsz = 4 \/ tsz = 6 \/ tsz = 8 \/ tsz = 10 \/ tsz = 12 \/ tsz = 14 \/ tsz = 16).
    { apply Nat.even_spec in Hte as [k ->]. lia. }
    clear -Ha Hc Hd. repeat destruct Hc as [->|Hc]; try subst nsz; repeat destruct Hd as [->|Hd]; try subst tsz;
      destruct Ha as [-> | ->]; reflexivity.
  Qed.

  Lemma b0_eq (nonce pt : bytes) f : length nonce = nsz ->
    splice 1 nonce (splice 8 (be_bytes 8 (Z.of_nat (length pt))) (f :: repeat 0%Z 15)) =
    f :: nonce ++ be_bytes (15 - nsz) (Z.of_nat (length pt)).
  Proof.
    intro H. unfold splice. rewrite !be_bytes_length.
    cbn [firstn app skipn repeat Nat.add]. f_equal. f_equal.
    rewrite H. cbn [app]. rewrite app_nil_r.
    set (B := be_bytes 8 _). assert (LB : length B = 8) by apply be_bytes_length.
    replace (skipn nsz _) with (skipn (nsz - 7) B).
    2:{ change (0%Z :: 0%Z :: 0%Z :: 0%Z :: 0%Z :: 0%Z :: 0%Z :: B) with (repeat 0%Z 7 ++ B).
        replace nsz with (7 + (nsz - 7)) at 2 by lia. rewrite <- skipn_skipn'. reflexivity. }
    unfold B. rewrite <- (be_bytes_tail (k := 15 - nsz) (m := 8)) by lia. f_equal. lia.
  Qed.

  Lemma counter_eq (nonce : bytes) : length nonce = nsz ->
    ccm_counter nsz nonce = (Z.of_nat (15 - nsz) - 1)%Z :: nonce ++ be_bytes (15 - nsz) 0.
  Proof.
    intro H. unfold ccm_counter. rewrite gocopy0 by lia. rewrite H. f_equal.
    - unfold to_byte. rewrite Z.mod_small by lia. lia.
    - f_equal. assert (Hc : nsz = 7 \/ nsz = 8 \/ nsz = 9 \/ nsz = 10 \/ nsz = 11 \/ nsz = 12 \/ nsz = 13) by lia.
      clear. generalize (15 - nsz). intro n. unfold be_bytes.
      assert (E : le_bytes n 0 = repeat 0%Z n).
      { induction n as [|n IH]; cbn [le_bytes repeat]; [reflexivity|]. change (0 mod 256)%Z with 0%Z. change (0 / 256)%Z with 0%Z. now rewrite IH. }
      rewrite E. induction n as [|n IH]; [reflexivity|]. cbn [repeat rev].
      assert (R : forall k, repeat 0%Z k ++ [0%Z] = 0%Z :: repeat 0%Z k).
      { induction k as [|k IHk]; [reflexivity|]. cbn [repeat app]. now rewrite IHk. }
      rewrite <- IH, R; auto. now injection E.
  Qed.
  Lemma set_low_eq (nonce : bytes) : length nonce = nsz ->
    set_low (ccm_counter nsz nonce) = (Z.of_nat (15 - nsz) - 1)%Z :: nonce ++ be_bytes (15 - nsz) 1.
  Proof.
    intro H. rewrite counter_eq by auto. unfold set_low, splice.
    set (f := (Z.of_nat (15 - nsz) - 1)%Z).
    remember (15 - nsz - 1) as k eqn:Ek. assert (E15 : 15 - nsz = k + 1) by lia. rewrite E15.
    rewrite !be_bytes_split. change (be_bytes 1 0) with [0%Z]. change (be_bytes 1 1) with [1%Z].
    change (0 / 256 ^ Z.of_nat 1)%Z with 0%Z. change (1 / 256 ^ Z.of_nat 1)%Z with 0%Z.
    set (h := f :: nonce ++ be_bytes k 0).
    assert (Lh : length h = 15) by (unfold h; cbn [length]; rewrite app_length, be_bytes_length; lia).
    replace (f :: nonce ++ be_bytes k 0 ++ [0%Z]) with (h ++ [0%Z]) by (unfold h; cbn [app]; now rewrite <- app_assoc).
    replace (f :: nonce ++ be_bytes k 0 ++ [1%Z]) with (h ++ [1%Z]) by (unfold h; cbn [app]; now rewrite <- app_assoc).
    rewrite firstn_app_exact by auto. rewrite app_nth2 by lia. rewrite Lh, Nat.sub_diag. cbn [nth].
    rewrite skipn_all2 by (rewrite app_length; cbn [length]; lia). reflexivity.
  Qed.

  Lemma adlen_eq n : ccm_adlen n = rfc_adlen n.
  Proof.
    unfold ccm_adlen, rfc_adlen. change (2 ^ 16 - 2 ^ 8)%Z with 65280%Z.
    destruct (Z.leb_spec n 65279), (Z.ltb_spec n 65280); try lia; reflexivity.
  Qed.
  Lemma adlen_len n : length (rfc_adlen n) <= 10 /\ 2 <= length (rfc_adlen n).
  Proof.
    unfold rfc_adlen. destruct (n <? _)%Z; [rewrite be_bytes_length; lia|].
    destruct (n <? _)%Z; rewrite app_length, be_bytes_length; cbn [length]; lia.
  Qed.
  Lemma adlen_ok n : bytes_ok (rfc_adlen n).
  Proof.
    unfold rfc_adlen. destruct (n <? _)%Z; [apply be_bytes_ok|].
    destruct (n <? _)%Z; apply Forall_app; (split; [repeat constructor; unfold is_byte; lia|apply be_bytes_ok]).
  Qed.

  Lemma auth_spec nonce pt ad mask : isblock nsz nonce -> bytes_ok pt -> bytes_ok ad -> isblock 16 mask ->
    ccm_auth c nsz tsz nonce pt ad mask = xorl (rfc_T (enc c) tsz (15 - nsz) nonce ad pt) (firstn tsz mask) /\
    length (ccm_auth c nsz tsz nonce pt ad mask) = tsz.
  Proof.
    intros [Hnl Hnk] Hp Ha [Hml Hmk]. unfold ccm_auth, rfc_T.
    rewrite b0_eq by auto. rewrite flags_eq by (destruct ad; auto).
    assert (B0 : forall f, is_byte f -> isblock 16 (f :: nonce ++ be_bytes (15 - nsz) (Z.of_nat (length pt)))).
    { intros f Hf. split; [cbn [length]; rewrite app_length, be_bytes_length; lia|].
      constructor; auto. apply Forall_app. split; auto. apply be_bytes_ok. }
    assert (Hff : forall a, (a = 0 \/ a = 64)%Z -> is_byte (a + 8 * ((Z.of_nat tsz - 2) / 2) + (Z.of_nat (15 - nsz) - 1))%Z).
    { intros a Ha'. unfold is_byte. assert (0 <= (Z.of_nat tsz - 2) / 2 <= 7)%Z.
      { split; [apply Z.div_pos; lia|]. apply Z.div_le_upper_bound; lia. } destruct Ha'; lia. }
    unfold rfc_b0.
    set (f := (_ + _ + _)%Z). set (f' := (64 * _ + _ + _)%Z).
    assert (Ef : f = f') by (unfold f, f'; destruct ad; lia). rewrite <- Ef. clear f' Ef.
    assert (Hf : is_byte f) by (apply Hff; destruct ad; auto).
    unfold cbc_mac. rewrite fold_left_app.
    pose proof (enc_block (B0 f Hf)) as H0. set (x0 := enc c _) in *.
    assert (A1 : match ad with [] => x0 | _ :: _ =>
          ccm_cmac c (ccm_cmac c x0 (ccm_adlen (Z.of_nat (length ad)) ++ gocopy (repeat 0%Z (16 - length (ccm_adlen (Z.of_nat (length ad))))) ad))
            (skipn (Nat.min (length (repeat 0%Z (16 - length (ccm_adlen (Z.of_nat (length ad)))))) (length ad)) ad) end =
       fold_left (fun x b => enc c (xorl x b)) (rfc_adblocks ad) x0 /\
       isblock 16 (fold_left (fun x b => enc c (xorl x b)) (rfc_adblocks ad) x0)).
    { unfold rfc_adblocks. destruct ad as [|a ad']; [cbn; auto|]. remember (a :: ad') as ad. 
      destruct (Nat.eqb_spec (length ad) 0); [subst ad; discriminate|]. rewrite adlen_eq.
      pose proof (adlen_len (Z.of_nat (length ad))) as [P1 P2]. pose proof (adlen_ok (Z.of_nat (length ad))) as P3.
      set (pre := rfc_adlen _) in *. rewrite repeat_length.
      set (i := Nat.min (16 - length pre) (length ad)).
      assert (Eb : pre ++ gocopy (repeat 0%Z (16 - length pre)) ad = zpad16 (pre ++ firstn i ad)).
      { rewrite zpad16_small by (rewrite app_length, firstn_length; lia). rewrite <- app_assoc. f_equal.
        unfold gocopy. rewrite repeat_length. 
        assert (Ei : firstn (16 - length pre) ad = firstn i ad).
        { unfold i. destruct (Nat.le_gt_cases (16 - length pre) (length ad)); [rewrite Nat.min_l by lia; reflexivity|].
          rewrite Nat.min_r by lia. rewrite !firstn_all2 by lia. reflexivity. }
        rewrite Ei. f_equal. rewrite app_length, firstn_length.
        assert (Hsk : forall n m, skipn n (repeat 0%Z m) = repeat 0%Z (m - n)).
        { clear. induction n as [|n IH]; intro m; [now rewrite Nat.sub_0_r|]. destruct m; [reflexivity|]. cbn [repeat skipn]. rewrite IH. f_equal. }
        rewrite Hsk. f_equal. lia. }
      rewrite Eb.
      assert (Hblk : bytes_ok (pre ++ firstn i ad)) by (apply Forall_app; split; auto; now apply bytes_ok_firstn).
      assert (Lz : length (zpad16 (pre ++ firstn i ad)) = 16) by (apply zpad16_len; rewrite app_length, firstn_length; lia).
      destruct (cmac_spec H0 (zpad16_ok Hblk)) as [C1 C2].
      destruct (cmac_spec C2 (bytes_ok_skipn i Ha)) as [C3 C4].
      rewrite C3, C1 in C4. rewrite C3, C1. rewrite <- fold_left_app in C4 |- *.
      assert (Ez : zpad16 (zpad16 (pre ++ firstn i ad)) = zpad16 (pre ++ firstn i ad)).
      { rewrite zpad16_small by lia. rewrite Lz, Nat.sub_diag. apply app_nil_r. }
      rewrite Ez in C4 |- *.
      assert (Ech : chunks 16 (pre ++ ad) = chunks 16 (pre ++ firstn i ad) ++ chunks 16 (skipn i ad)).
      { destruct (Nat.le_gt_cases (16 - length pre) (length ad)).
        - rewrite <- (firstn_skipn i ad) at 1. rewrite app_assoc.
          assert (L16 : length (pre ++ firstn i ad) = 16) by (rewrite app_length, firstn_length; lia).
          rewrite chunks_app_block by (auto; lia).
          rewrite (chunks_one L16). reflexivity.
        - replace i with (length ad) by lia. rewrite firstn_all, skipn_all. now rewrite app_nil_r. }
      assert (Eq : chunks 16 (zpad16 (pre ++ firstn i ad)) ++ chunks 16 (zpad16 (skipn i ad)) = chunks 16 (zpad16 (pre ++ ad)))
        by (rewrite !chunks_zpad16, Ech, map_app; reflexivity).
      rewrite Eq in C4 |- *. split; [reflexivity|exact C4]. }
    destruct A1 as [A1 A2]. cbv zeta. rewrite A1. clear A1.
    set (x1 := fold_left _ (rfc_adblocks ad) x0) in *.
    assert (A3 : match pt with [] => x1 | _ :: _ => ccm_cmac c x1 pt end =
       fold_left (fun x b => enc c (xorl x b)) (chunks 16 (zpad16 pt)) x1 /\
       isblock 16 (fold_left (fun x b => enc c (xorl x b)) (chunks 16 (zpad16 pt)) x1)).
    { destruct pt as [|p pt']; [cbn; auto|]. destruct (cmac_spec A2 Hp) as [C1 C2]. rewrite <- C1. auto. }
    destruct A3 as [A3 [A4 A5]]. rewrite A3. split; [apply xorl_firstn|].
    rewrite firstn_length, xorl_length. lia.
  Qed.

  Lemma ctr_spec nonce pt : isblock nsz nonce -> (Z.of_nat (length pt) <= ccm_maxlen nsz tsz)%Z ->
    go_ctr c (set_low (ccm_counter nsz nonce)) pt =
    xorl pt (concat (map (rfc_S (enc c) (15 - nsz) nonce) (seq 1 ((length pt + 15) / 16)))).
  Proof.
    intros [Hnl Hnk] Hm. unfold go_ctr. f_equal. f_equal. unfold ctr_blocks. rewrite Hs.
    replace (length pt + 16 - 1) with (length pt + 15) by lia. set (nb := (length pt + 15) / 16).
    assert (Hnb : 16 * nb <= length pt + 15) by (apply Nat.mul_div_le; lia).
    rewrite <- seq_shift, map_map. apply map_ext_in. intros i Hi. apply in_seq in Hi. unfold rfc_S. f_equal.
    rewrite set_low_eq by auto.
    set (f := (Z.of_nat (15 - nsz) - 1)%Z). change (f :: nonce ++ be_bytes (15 - nsz) 1) with ((f :: nonce) ++ be_bytes (15 - nsz) 1).
    pose proof maxlen_bound as (M0 & M1 & M2).
    assert (P256 : (256 <= 256 ^ Z.of_nat (15 - nsz))%Z).
    { replace 256%Z with (256 ^ 1)%Z at 1 by reflexivity. apply Z.pow_le_mono_r; lia. }
    assert (V1 : be_val (be_bytes (15 - nsz) 1) = 1%Z) by (rewrite be_val_bytes; apply Z.mod_small; lia).
    replace 16 with (length (f :: nonce) + length (be_bytes (15 - nsz) 1)) at 1 by (rewrite be_bytes_length; cbn [length]; lia).
    rewrite be_incr.
    - rewrite be_bytes_length, V1. cbn [app]. do 3 f_equal. lia.
    - constructor; [unfold is_byte, f; lia|auto].
    - rewrite be_bytes_length, V1. nia.
    - rewrite V1. lia.
  Qed.

  Lemma counter_block nonce : isblock nsz nonce -> isblock 16 (ccm_counter nsz nonce).
  Proof.
    intros [Hnl Hnk]. rewrite counter_eq by auto. split.
    - cbn [length]. rewrite app_length, be_bytes_length. lia.
    - constructor; [unfold is_byte; lia|]. apply Forall_app. split; [auto|apply be_bytes_ok].
  Qed.

  Lemma seal_spec dst nonce pt ad : isblock nsz nonce -> bytes_ok pt -> bytes_ok ad ->
    (Z.of_nat (length pt) <= ccm_maxlen nsz tsz)%Z ->
    ccm_seal c nsz tsz false dst nonce pt ad = Ok (dst ++ rfc_seal (enc c) tsz (15 - nsz) nonce ad pt).
  Proof.
    intros Hnn Hp Ha Hm. unfold ccm_seal. pose proof Hnn as [Hnl Hnk]. rewrite Hnl, Nat.eqb_refl. cbn [negb].
    destruct (Z.ltb_spec (ccm_maxlen nsz tsz) (Z.of_nat (length pt))); [lia|].
    cbv zeta. rewrite ctr_spec by auto.
    destruct (auth_spec Hnn Hp Ha (enc_block (counter_block Hnn))) as [E _]. rewrite E.
    unfold rfc_seal. do 4 f_equal. unfold rfc_S. rewrite counter_eq by auto. reflexivity.
  Qed.
End ccm.
