(** Proofs about PemModel. *)
From Coq Require Import String.
From Verif Require Import Base PaddingModel PaddingProofs BlockModeModel BlockModeSpec BlockModeProofs BlockModeProps StreamModel StreamSpec StreamProps
  FeedbackModel FeedbackSpec FeedbackProofs2 FeedbackProps AeadSpec SivModel FernetSpec FlModel FlProofs BigModel DrbgSpec DrbgProofs PemModel PemSpec.
Set Implicit Arguments. Unset Strict Implicit.
Local Open Scope nat_scope.

(** ** Modes *)
Lemma cbc_dec_blocks c : lawful c -> forall cs iv, isblock (bsz c) iv -> Forall (isblock (bsz c)) cs ->
  Forall (isblock (bsz c)) (cbc_dec (dec c) iv cs) /\ length (cbc_dec (dec c) iv cs) = length cs.
Proof.
  intros HL. induction cs as [|x cs IH]; intros iv Hiv F; [split; constructor|].
  apply Forall_cons_iff in F as [Fx F]. destruct (IH _ Fx F) as [A B]. cbn [cbc_dec length]. split; [constructor; auto|now rewrite B].
  apply isblock_xorl; auto. now apply (law_dec HL).
Qed.
Lemma fb_length d K xs : forall h, length (fb d K h xs) = length xs.
Proof. induction xs as [|x xs IH]; intros h; cbn; [reflexivity|now rewrite IH]. Qed.
Lemma xor_stream_length ks xs : forall o, length (xor_stream ks o xs) = length xs.
Proof. induction xs as [|x xs IH]; intros o; cbn; [reflexivity|now rewrite IH]. Qed.
Lemma scall1 (y : bytes) : Forall scall_ok [(repeat 0%Z (length y), y)].
Proof. constructor; [|constructor]. unfold scall_ok. cbn [fst snd]. rewrite repeat_length. lia. Qed.
Lemma fstream_one {S} (call : S -> bytes * bytes -> res (S * bytes)) st d K h x : fstream_is call st d K h -> one call st x = Ok (fb d K h x).
Proof.
  intros R. destruct (R _ (scall1 x)) as (s & o & E & _ & C). rewrite (one_call E), C. cbn [map snd concat]. now rewrite app_nil_r.
Qed.
Lemma sstream_one {S} (call : S -> bytes * bytes -> res (S * bytes)) st ks x : stream_is call st ks -> one call st x = Ok (xor_stream ks 0 x).
Proof.
  intros R. destruct (R _ (scall1 x)) as (s & o & E & _ & C). rewrite (one_call E), C. cbn [map snd concat]. now rewrite app_nil_r.
Qed.
Lemma ecb_dec_one c x : lawful c -> bytes_ok x -> length x mod bsz c = 0 ->
  one (mcall c false (ecb_dec_mem c false)) tt x = Ok (concat (map (dec c) (chunks (bsz c) x))).
Proof.
  intros HL Ox Al. unfold one.
  assert (K : call_ok (bsz c) (repeat 0%Z (length x), x)). { split; [split; auto|]. cbn [fst snd]. rewrite repeat_length. lia. }
  assert (R : mcall c false (ecb_dec_mem c false) tt (repeat 0%Z (length x), x) = crypt_blocks (ecb_dec_step c) (bsz c) tt (length x) x).
  { apply (@mcall_refines c false (law_pos HL) unit (ecb_dec_mem c false) (ecb_dec_step c) (fun _ => True)); auto.
    intros; now apply ecb_dec_len with (st := st) (b := b) (st' := st'). }
  rewrite R. unfold crypt_blocks. rewrite Al, Nat.ltb_irrefl. cbn [Nat.eqb negb].
  assert (B : forall l, block_loop (ecb_dec_step c) tt l = Ok (tt, map (dec c) l)). { induction l as [|b l IH]; cbn; [reflexivity|]. now rewrite IH. }
  rewrite B. reflexivity.
Qed.

Section mode.
  Variable c : cipher.
  Hypotheses (HL : lawful c) (HK : len_ok c) (Hb : bsz c <= 255).
  Lemma sym_dec_is m iv ct : isblock (bsz c) iv -> bytes_ok ct -> (pads m = true -> length ct mod bsz c = 0) ->
    exists x, sym_dec m c iv ct = Ok x /\ decrypts m c iv ct x /\ length x = length ct /\ (pads m = true -> bytes_ok x) /\
      forall x', decrypts m c iv ct x' -> x' = x.
  Proof.
    intros Hiv Oc Al. pose proof (law_pos HL) as Hp. pose proof Hiv as [Liv Oiv].
    assert (W : forall k, with_iv c iv k = k) by (intros k; unfold with_iv; now rewrite Liv, Nat.eqb_refl).
    destruct m; cbn [sym_dec decrypts pads] in *; try rewrite W.
    - specialize (Al eq_refl). assert (Fx : Forall (isblock (bsz c)) (chunks (bsz c) ct)) by (apply chunks_isblock; auto; split; auto).
      assert (A : Forall (isblock (bsz c)) (map (dec c) (chunks (bsz c) ct))).
      { apply Forall_map. eapply Forall_impl; [|exact Fx]. intros. now apply (law_dec HL). }
      exists (concat (map (dec c) (chunks (bsz c) ct))). split; [now apply ecb_dec_one|]. split; [reflexivity|]. split.
      { rewrite (FlProofs.concat_len A), map_length, <- (FlProofs.concat_len Fx). now rewrite chunks_concat. }
      split; [|now intros]. intros _. apply (@concat_isblock _ _ Hp A).
    - specialize (Al eq_refl). assert (Fx : Forall (isblock (bsz c)) (chunks (bsz c) ct)) by (apply chunks_isblock; auto; split; auto).
      destruct (cbc_dec_blocks HL Hiv Fx) as [A B].
      exists (concat (cbc_dec (dec c) iv (chunks (bsz c) ct))). unfold go_cbc. rewrite Al. split; [reflexivity|]. split; [reflexivity|]. split.
      { rewrite (FlProofs.concat_len A), B, <- (FlProofs.concat_len Fx). now rewrite chunks_concat. }
      split; [|now intros]. intros _. apply (@concat_isblock _ _ Hp A).
    - eexists. split; [apply fstream_one; now apply C34_cfb_computes|]. split; [reflexivity|]. split; [apply fb_length|]. split; [discriminate|now intros].
    - assert (K : Forall (bcall_ok false) [(repeat 0%Z (length ct), ct)]).
      { constructor; [|constructor]. unfold bcall_ok, scall_ok. cbn [fst snd]. rewrite repeat_length. split; [lia|]. split; [apply zeros_ok|]. split; [exact Oc|discriminate]. }
      destruct (@C34_cfb1_computes c iv false true Hp Hiv _ K) as (s & o & E & L & O & B).
      assert (Oo : bytes_ok (concat o)) by (apply bytes_ok_concat; exact O).
      exists (concat o). split; [exact (one_call E)|]. cbn [map snd concat] in B. rewrite app_nil_r in B. split; [split; auto|].
      split.
      { destruct o as [|o1 [|o2 o]]; cbn in L; try discriminate. injection L as L. cbn. now rewrite app_nil_r. }
      split; [discriminate|]. intros x' [Ox' Bx']. rewrite <- B in Bx'. now apply bits_inj.
    - eexists. split; [apply fstream_one; now apply C34_cfb8_computes|]. split; [reflexivity|]. split; [apply fb_length|]. split; [discriminate|now intros].
    - eexists. split; [apply sstream_one; apply C34_ofb_computes; auto; lia|]. split; [reflexivity|]. split; [apply xor_stream_length|]. split; [discriminate|now intros].
    - exists (go_ctr c iv ct). unfold new_ctr_xor. rewrite Liv, Nat.eqb_refl. split; [reflexivity|]. split; [reflexivity|]. split; [now apply go_ctr_length|].
      split; [discriminate|now intros].
  Qed.
  Lemma sym_enc_ok m iv x : isblock (bsz c) iv -> bytes_ok x -> (pads m = true -> length x mod bsz c = 0) ->
    exists e, sym_enc m c iv x = Ok e /\ length e = length x /\ sym_dec m c iv e = Ok x.
  Proof.
    intros Hiv Ox Al. pose proof (law_pos HL) as Hp. pose proof Hiv as [Liv Oiv].
    assert (W : forall k, with_iv c iv k = k) by (intros k; unfold with_iv; now rewrite Liv, Nat.eqb_refl).
    destruct m; cbn [sym_enc sym_dec pads] in *; try rewrite W.
    - specialize (Al eq_refl).
      exact (@block_one c HL _ _ _ _ _ _ x _ (@C08_ecb_roundtrip c false false HL) (@C32_ecb_computes c false HL) (ecb_bl HL) Ox Al).
    - destruct (cbc_one HL Hiv Ox (Al eq_refl)) as (e & E & L & D). exists e. rewrite W. auto.
    - destruct (stream_one x (@C12_cfb_roundtrip c iv HK Liv)) as (e & E & L & D). exists e. rewrite W. auto.
    - destruct (cfb1_one Hp Hiv Ox) as (e & E & L & D). exists e. rewrite W. auto.
    - destruct (stream_one x (@C12_cfb8_roundtrip c iv HK Liv)) as (e & E & L & D). exists e. rewrite W. auto.
    - destruct (stream_one x (@C12_ofb_roundtrip c iv HL ltac:(lia) Hiv)) as (e & E & L & D). exists e. rewrite W. auto.
    - exists (go_ctr c iv x). unfold new_ctr_xor. rewrite Liv, Nat.eqb_refl. split; [reflexivity|]. split; [now apply go_ctr_length|]. f_equal. now apply go_ctr_inv.
  Qed.
End mode.

(** ** Padding *)
Lemma repeat_snoc' {A} (a : A) k : repeat a (S k) = repeat a k ++ [a].
Proof. induction k as [|k IH]; [reflexivity|]. cbn [repeat app]. now rewrite <- IH. Qed.
Lemma strip_spec y : bytes_ok y -> y <> [] -> stripped y (unpad_or_keep y) /\ forall x, stripped y x -> x = unpad_or_keep y.
Proof.
  intros Oy Ny.
  assert (P : forall x, padded_of y x -> pkcs7_unpad y = Ok x).
  { intros x (k & Hk & E). apply pkcs7_unpad_iff; auto. split; auto.
    assert (L : last_byte y = Z.of_nat k). { rewrite E. destruct k; [lia|]. unfold last_byte. rewrite (repeat_snoc' (Z.of_nat (S k)) k), app_assoc. apply last_last. }
    rewrite L, Nat2Z.id. exact E. }
  assert (Q : forall x, pkcs7_unpad y = Ok x -> stripped y x).
  { intros x E. apply pkcs7_unpad_iff in E as [_ E]; auto. pose proof (last_byte_ok _ Oy) as B. unfold is_byte in B.
    destruct (Z.eq_dec (last_byte y) 0) as [Z0|N].
    - rewrite Z0 in E. cbn in E. rewrite app_nil_r in E. subst x. right. split; [|reflexivity]. intros (x' & K).
      pose proof K as (k & Hk & E'). assert (last_byte y = Z.of_nat k); [|lia].
      rewrite E'. destruct k; [lia|]. unfold last_byte. rewrite (repeat_snoc' (Z.of_nat (S k)) k), app_assoc. apply last_last.
    - left. exists (Z.to_nat (last_byte y)). split; [lia|]. rewrite Z2Nat.id by lia. exact E. }
  assert (R : stripped y (unpad_or_keep y)).
  { unfold unpad_or_keep. destruct (pkcs7_unpad y) as [x| |] eqn:E; [now apply Q|right; split; auto..]; intros (x' & K); apply P in K; congruence. }
  split; [exact R|]. intros x Hx.
  destruct Hx as [Hx|[Hx ->]].
  - unfold unpad_or_keep. now rewrite (P _ Hx).
  - destruct R as [R|[_ R]]; [|now rewrite R]. exfalso. apply Hx. eauto.
Qed.
Section open.
  Variable c : cipher.
  Hypotheses (HL : lawful c) (HK : len_ok c) (Hb : bsz c <= 255).
  Lemma open_padded_iff m iv ct x : isblock (bsz c) iv -> bytes_ok ct -> pads m = true ->
    (open_padded m c iv ct = Ok x <-> opens m c iv ct x) /\ open_padded m c iv ct <> Panic.
  Proof.
    intros Hiv Oc Pm. unfold open_padded, opens. rewrite Pm. destruct (Nat.eqb_spec (length ct mod bsz c) 0) as [Al|Al]; cbn [negb].
    2:{ split; [|discriminate]. split; [discriminate|]. intros (_ & A & _). lia. }
    destruct (@sym_dec_is c HL HK Hb m iv ct Hiv Oc (fun _ => Al)) as (y & E & D & L & O & U). rewrite E. cbn [rbind]. rewrite L, Al. cbn [Nat.eqb negb orb].
    destruct (Nat.eqb_spec (length ct) 0) as [Z|Z]; cbn [orb].
    { split; [|discriminate]. split; [discriminate|]. intros (A & _). destruct ct; [congruence|discriminate]. }
    assert (Ny : y <> []) by (intros ->; cbn in L; lia). destruct (strip_spec (O Pm) Ny) as [S1 S2].
    split; [|discriminate]. split.
    - intros K. injection K as <-. split; [intros ->; cbn in Z; lia|]. split; auto. eauto.
    - intros (_ & _ & y' & D' & S'). apply U in D' as ->. now rewrite (S2 _ S').
  Qed.
  Lemma open_padded_enc m iv x : isblock (bsz c) iv -> bytes_ok x -> pads m = true ->
    exists e, sym_enc m c iv (pkcs7_pad x (Z.of_nat (bsz c))) = Ok e /\ length e = (length x / bsz c + 1) * bsz c /\ open_padded m c iv e = Ok x.
  Proof.
    intros Hiv Ox Pm. pose proof (law_pos HL) as Hp. assert (Hz : (1 <= Z.of_nat (bsz c) <= 255)%Z) by lia.
    set (y := pkcs7_pad x (Z.of_nat (bsz c))).
    assert (Ly : length y = (length x / bsz c + 1) * bsz c).
    { pose proof (@pkcs7_pad_len x _ (proj1 Hz)) as A. fold y in A. unfold pad_count, zlen in A. rewrite <- Nat2Z.inj_mod in A.
      pose proof (Nat.mod_upper_bound (length x) (bsz c) ltac:(lia)). pose proof (Nat.div_mod (length x) (bsz c) ltac:(lia)). nia. }
    assert (Oy : bytes_ok y).
    { unfold y. rewrite pkcs7_pad_eq by lia. apply bytes_ok_app; split; auto. apply bytes_ok_repeat. apply to_byte_ok. }
    assert (My : length y mod bsz c = 0) by (rewrite Ly; apply Nat.mod_mul; lia).
    destruct (@sym_enc_ok c HL HK Hb m iv y Hiv Oy (fun _ => My)) as (e & E & L & D). exists e. split; [exact E|]. split; [congruence|].
    unfold open_padded. rewrite L, My. cbn [Nat.eqb negb]. rewrite D. cbn [rbind]. rewrite My. cbn [Nat.eqb negb orb].
    destruct (Nat.eqb_spec (length y) 0) as [Z|Z]; [nia|]. cbn [orb]. unfold unpad_or_keep, y. now rewrite pkcs7_roundtrip.
  Qed.
End open.

(** ** Keys *)
Lemma skipn_zeros k n : skipn k (repeat 0%Z n) = repeat 0%Z (n - k).
Proof. revert n. induction k; intros [|n]; cbn; auto. Qed.
Section key.
  Variable H : bytes -> bytes.
  Variable h : nat.
  Hypotheses (Hh : 0 < h) (HL : forall x, length (H x) = h).
  Variables password salt : bytes.
  Lemma evp_len i : length (evp H password salt i) = h.
  Proof. destruct i; cbn; apply HL. Qed.
  Lemma evp_concat_len i n : length (concat (map (evp H password salt) (seq i n))) = n * h.
  Proof. revert i. induction n; intros i; cbn [seq map concat]; [reflexivity|]. rewrite app_length, evp_len, IHn. lia. Qed.
  (** after i blocks *)
  Lemma dk_loop_spec n fuel : forall i, n - i * h <= fuel ->
    dk_loop H fuel password salt (i * h) (match i with 0 => [] | S j => evp H password salt j end)
      (firstn n (concat (map (evp H password salt) (seq 0 i))) ++ repeat 0%Z (n - i * h)) = evp_key H password salt n.
  Proof.
    assert (Done : forall i, n <= i * h -> firstn n (concat (map (evp H password salt) (seq 0 i))) ++ repeat 0%Z (n - i * h) = evp_key H password salt n).
    { intros i Hi. replace (n - i * h) with 0 by lia. cbn [repeat]. rewrite app_nil_r. unfold evp_key.
      destruct (Nat.le_gt_cases i n) as [C|C].
      - replace n with (i + (n - i)) at 3 by lia. rewrite seq_app, map_app, concat_app, firstn_app, evp_concat_len.
        replace (n - i * h) with 0 by lia. now rewrite firstn_O, app_nil_r.
      - replace i with (n + (i - n)) at 1 by lia. rewrite seq_app, map_app, concat_app, firstn_app, evp_concat_len.
        replace (n - n * h) with 0 by nia. now rewrite firstn_O, app_nil_r. }
    induction fuel as [|f IH]; intros i Hf; cbn [dk_loop]; [apply Done; lia|].
    set (out := firstn n _ ++ _).
    assert (Lo : length out = n). { unfold out. rewrite app_length, firstn_length, evp_concat_len, repeat_length. lia. }
    rewrite Lo. destruct (Nat.ltb_spec (i * h) n) as [C|C]; [|apply Done; lia].
    assert (Ed : H ((match i with 0 => [] | S j => evp H password salt j end) ++ password ++ salt) = evp H password salt i) by (destruct i; reflexivity).
    rewrite Ed. cbv zeta. rewrite evp_len. replace (i * h + h) with (S i * h) by lia.
    specialize (IH (S i)). cbn iota beta in IH.
    assert (Eo : firstn (i * h) out ++ gocopy (skipn (i * h) out) (evp H password salt i) =
      firstn n (concat (map (evp H password salt) (seq 0 (S i)))) ++ repeat 0%Z (n - S i * h)).
    { set (pre := concat (map (evp H password salt) (seq 0 i))). assert (Lp : length pre = i * h) by apply evp_concat_len.
      assert (E1 : out = pre ++ repeat 0%Z (n - i * h)). { unfold out. fold pre. now rewrite firstn_all2 by lia. }
      rewrite E1, firstn_app, skipn_app, Lp, Nat.sub_diag, firstn_O, app_nil_r, firstn_all2, skipn_all2 by lia. cbn [app].
      rewrite skipn_O. rewrite seq_S, map_app, concat_app. cbn [plus map concat]. fold pre. rewrite app_nil_r.
      rewrite firstn_app, Lp, (@firstn_all2 _ n pre) by lia. rewrite <- app_assoc. f_equal. unfold gocopy. rewrite repeat_length, evp_len. f_equal.
      replace (n - S i * h) with (n - i * h - h) by lia. apply skipn_zeros. }
    rewrite Eo. apply IH. lia.
  Qed.
End key.
Lemma derive_key_eq H h password salt n : 0 < h -> (forall x, length (H x) = h) -> derive_key H password salt n = evp_key H password salt n.
Proof.
  intros Hh HL. pose proof (@dk_loop_spec H h Hh HL password salt n n 0) as D. cbn [Nat.mul seq map concat] in D. rewrite firstn_nil, Nat.sub_0_r in D.
  apply D. lia.
Qed.
Lemma evp_key_len H h password salt n : 0 < h -> (forall x, length (H x) = h) -> length (evp_key H password salt n) = n.
Proof. intros Hh HL. unfold evp_key. rewrite firstn_length, (@evp_concat_len H h Hh HL). nia. Qed.
Lemma evp_key_ok H password salt n : (forall x, bytes_ok (H x)) -> bytes_ok (evp_key H password salt n).
Proof.
  intros O. unfold evp_key. apply bytes_ok_firstn. apply bytes_ok_concat. apply Forall_map, Forall_forall. intros i _. destruct i; cbn; apply O.
Qed.

(** ** Hexadecimal *)
Lemma unhex_iff a v : unhex a = Ok v <-> hex_value a v.
Proof.
  unfold unhex, hex_value.
  destruct (Z.leb_spec 48 a), (Z.leb_spec a 57), (Z.leb_spec 97 a), (Z.leb_spec a 102), (Z.leb_spec 65 a), (Z.leb_spec a 70); cbn [andb];
    (split; [intros K; try discriminate; injection K as <-; lia|intros K; try lia; f_equal; lia]).
Qed.
Lemma unhex_nopanic a : unhex a <> Panic.
Proof. unfold unhex. destruct (_ && _)%bool; [discriminate|]. destruct (_ && _)%bool; [discriminate|]. destruct (_ && _)%bool; discriminate. Qed.
Lemma hex_spells_inv a b s l : hex_spells (a :: b :: s) l ->
  exists x y t, hex_value a x /\ hex_value b y /\ hex_spells s t /\ l = (x * 16 + y)%Z :: t.
Proof. intros K. inversion K; subst. repeat eexists; eauto. Qed.
Lemma hex_decode_iff : forall n s l, length s <= n -> (hex_decode s = Ok l <-> hex_spells s l) /\ hex_decode s <> Panic.
Proof.
  induction n as [|n IH]; intros s l Hn.
  { destruct s; [|cbn in Hn; lia]. cbn. split; [|discriminate]. split; [intros K; injection K as <-; constructor|intros K; now inversion K]. }
  destruct s as [|a [|b s]].
  - cbn. split; [|discriminate]. split; [intros K; injection K as <-; constructor|intros K; now inversion K].
  - cbn. split; [|discriminate]. split; [discriminate|intros K; inversion K].
  - cbn [hex_decode]. assert (Hs : length s <= n) by (cbn in Hn; lia).
    destruct (unhex a) as [x| |] eqn:Ea; cbn [rbind].
    2:{ split; [|discriminate]. split; [discriminate|]. intros K. apply hex_spells_inv in K as (x & y & t & A & _). apply unhex_iff in A. congruence. }
    2:{ now apply unhex_nopanic in Ea. }
    destruct (unhex b) as [y| |] eqn:Eb; cbn [rbind].
    2:{ split; [|discriminate]. split; [discriminate|]. intros K. apply hex_spells_inv in K as (x' & y & t & _ & A & _). apply unhex_iff in A. congruence. }
    2:{ now apply unhex_nopanic in Eb. }
    destruct (hex_decode s) as [r| |] eqn:Er; cbn [rbind].
    + split; [|discriminate]. apply unhex_iff in Ea. apply unhex_iff in Eb. split.
      * intros K. injection K as <-. constructor; auto. now apply IH.
      * intros K. apply hex_spells_inv in K as (x' & y' & t & A & B & K & ->). destruct (IH s t Hs) as [[_ I] _]. rewrite (I K) in Er. injection Er as <-.
        unfold hex_value in *. do 2 f_equal; lia.
    + split; [|discriminate]. split; [discriminate|]. intros K. apply hex_spells_inv in K as (x' & y' & t & _ & _ & K & ->). destruct (IH s t Hs) as [[_ I] _]. rewrite (I K) in Er. discriminate.
    + now destruct (IH s l Hs) as [_ N].
Qed.
Lemma hex_decode_spells s l : hex_decode s = Ok l <-> hex_spells s l.
Proof. apply (@hex_decode_iff (length s)). lia. Qed.
Lemma hex_encode_spells l : bytes_ok l -> hex_spells (hex_encode l) l.
Proof.
  induction 1 as [|x l Hx _ IH]; cbn [hex_encode flat_map app]; [constructor|]. fold (hex_encode l). unfold is_byte in Hx.
  assert (D : forall v, (0 <= v < 16)%Z -> hex_value (hex_digit v) v). { intros v Hv. unfold hex_digit, hex_value. destruct (Z.ltb_spec v 10); lia. }
  pose proof (Z.div_mod x 16 ltac:(lia)) as E. pose proof (Z.mod_pos_bound x 16 ltac:(lia)).
  replace x with (x / 16 * 16 + x mod 16)%Z at 3 by lia. constructor; auto. apply D. lia.
Qed.
Lemma hex_spells_ok s l : hex_spells s l -> bytes_ok l.
Proof. induction 1 as [|a b x y s l Ha Hb _ IH]; constructor; auto. unfold hex_value, is_byte in *. lia. Qed.

(** ** The header *)
Lemma cut_none s : cut s = None <-> ~ In 44%Z s.
Proof.
  induction s as [|x s IH]; cbn [cut In]; [tauto|]. destruct (Z.eqb_spec x 44) as [->|N]; [split; [discriminate|tauto]|].
  destruct (cut s) as [[a b]|]; [split; [discriminate|]|]; [intros K; exfalso; apply K; right; destruct IH as [_ I]|tauto].
  destruct (in_dec Z.eq_dec 44%Z s); auto. discriminate (I n).
Qed.
Lemma cut_some s a b : cut s = Some (a, b) <-> s = a ++ 44%Z :: b /\ ~ In 44%Z a.
Proof.
  revert a. induction s as [|x s IH]; intros a; cbn [cut].
  { split; [discriminate|]. intros [K _]. destruct a; discriminate. }
  destruct (Z.eqb_spec x 44) as [->|N].
  - split; [intros K; injection K as <- <-; cbn; tauto|]. intros [E I]. destruct a as [|y a]; cbn in E; injection E as E; [now subst|].
    subst. exfalso. apply I. now left.
  - destruct (cut s) as [[p q]|].
    + split.
      * intros K. injection K as <- <-. destruct (proj1 (IH p) eq_refl) as [-> I]. split; [reflexivity|]. cbn. intuition.
      * intros [E I]. destruct a as [|y a]; cbn in E; injection E as E1 E2; [congruence|]. subst y.
        assert (K : Some (p, q) = Some (a, b)) by (apply IH; split; auto; intros J; apply I; now right). now injection K as -> ->.
    + split; [discriminate|]. intros [E I]. destruct a as [|y a]; cbn in E; injection E as E1 E2; [congruence|].
      assert (K : @None (bytes * bytes) = Some (a, b)) by (apply IH; split; auto; intros J; apply I; now right). discriminate.
Qed.
Definition alg_good (a : palg) : bool :=
  (pSalt a =? 8) && (pBs a =? bkind_size (pKind a)) &&
  (match pKind a with KDes => pKey a =? 8 | KTDes => pKey a =? 24 | KAes => (pKey a =? 16) || (pKey a =? 24) || (pKey a =? 32) | KSm4 => pKey a =? 16 | KKuz => pKey a =? 32 end) &&
  forallb (fun x => negb (x =? 44)%Z) (pName a).
Lemma algs_good : forallb alg_good palgs = true.
Proof. vm_compute. reflexivity. Qed.
Lemma algs_found : Forall (fun a => find_alg (pName a) = Some a) palgs.
Proof. unfold palgs. repeat (apply Forall_cons; [vm_compute; reflexivity|]). apply Forall_nil. Qed.
Lemma alg_facts a : In a palgs ->
  pSalt a = 8 /\ pBs a = bkind_size (pKind a) /\ bkind_key (pKind a) (pKey a) /\ ~ In 44%Z (pName a) /\ find_alg (pName a) = Some a.
Proof.
  intros I. pose proof (proj1 (forallb_forall _ _) algs_good a I) as G. unfold alg_good in G. rewrite !andb_true_iff in G.
  destruct G as [[[A B] C] D]. apply Nat.eqb_eq in A, B. split; [auto|]. split; [auto|]. split.
  { unfold bkind_key. destruct (pKind a); rewrite ?orb_true_iff, ?Nat.eqb_eq in C; tauto. }
  split; [|exact (proj1 (Forall_forall _ _) algs_found a I)].
  intros J. pose proof (proj1 (forallb_forall _ _) D _ J) as K. discriminate.
Qed.
Lemma find_alg_some n a : find_alg n = Some a -> In a palgs /\ pName a = n.
Proof. intros E. apply find_some in E as [I E]. apply in_rev in I. apply bytes_eqb_eq in E. auto. Qed.

Section pem.
  Variable H : bytes -> bytes.
  Variable newc : bkind -> bytes -> res cipher.
  Hypotheses (Hl : forall x, length (H x) = 16) (Ho : forall x, bytes_ok (H x)) (Hn : block_ciphers newc).
  Lemma key_cipher a pw salt : In a palgs -> exists c, newc (pKind a) (evp_key H pw salt (pKey a)) = Ok c /\ lawful c /\ len_ok c /\ bsz c = pBs a /\ bsz c <= 255.
  Proof.
    intros I. destruct (alg_facts I) as (A & B & C & _). destruct (@Hn (pKind a) (evp_key H pw salt (pKey a))) as (c & E & L & K & S).
    { rewrite (@evp_key_len H 16); auto; lia. } { now apply evp_key_ok. }
    exists c. rewrite B, S. split; [auto|]. split; [auto|]. split; [auto|]. split; [auto|]. destruct (pKind a); cbn; lia.
  Qed.
  Lemma p1_decrypt_iff a pw iv ct m : In a palgs -> length iv = pBs a -> bytes_ok iv -> bytes_ok ct ->
    (p1_decrypt H newc a pw iv ct = Ok m <-> exists c, newc (pKind a) (evp_key H pw (firstn 8 iv) (pKey a)) = Ok c /\ opens (pMode a) c iv ct m) /\
    p1_decrypt H newc a pw iv ct <> Panic.
  Proof.
    intros I Li Oi Oc. destruct (alg_facts I) as (A & B & C & _). unfold p1_decrypt. rewrite A, Li, B.
    assert (Bs : 8 <= bkind_size (pKind a)) by (destruct (pKind a); cbn; lia). destruct (Nat.ltb_spec (bkind_size (pKind a)) 8); [lia|]. cbv zeta.
    rewrite (@derive_key_eq H 16) by (auto; lia). destruct (@key_cipher a pw (firstn 8 iv) I) as (c & E & L & K & S & T). rewrite E. cbn [rbind].
    assert (Hiv : isblock (bsz c) iv) by (split; congruence).
    assert (G : forall P : cipher -> Prop, (exists c0, Ok c = Ok c0 /\ P c0) <-> P c). { intros P. split; [intros (c0 & Q & R); congruence|eauto]. }
    rewrite G. destruct (pads (pMode a)) eqn:Pm; [now apply open_padded_iff|]. unfold opens. rewrite Pm.
    destruct (@sym_dec_is c L K T (pMode a) iv ct Hiv Oc) as (x & Ex & D & _ & _ & U); [congruence|]. rewrite Ex. split; [|discriminate].
    split; [intros Q; now injection Q as <-|]. intros Q. now rewrite (U _ Q).
  Qed.
End pem.
