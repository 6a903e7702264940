(** Proofs about mode/ocb. *)
From Verif Require Import Base BlockModeModel BlockModeSpec ToolBytesModel ToolBytesSpec ToolBytesProofs MacModel MacSpec MacProofs
  OffsetSpec PmacModel PmacProofs OcbSpec OcbModel CipherLaws.
Set Implicit Arguments. Unset Strict Implicit.
Local Open Scope nat_scope.

(** ** Numbers *)
Lemma be_bytes_mod n z : be_bytes n (z mod 256 ^ Z.of_nat n) = be_bytes n z.
Proof.
  apply be_val_inj; try apply be_bytes_ok; [now rewrite !be_bytes_length|]. rewrite !be_val_bytes.
  apply Z.mod_mod. pose proof (pow256_pos n). lia.
Qed.
Lemma firstn_be_bytes k n z : k <= n -> firstn k (be_bytes n z) = be_bytes k (z / 256 ^ Z.of_nat (n - k)).
Proof.
  intro H. pose proof (be_val_app' (firstn k (be_bytes n z)) (skipn k (be_bytes n z))) as E.
  rewrite firstn_skipn, be_val_bytes, skipn_length, be_bytes_length in E.
  pose proof (pow256_pos (n - k)) as P. pose proof (pow256_pos k) as Pk.
  assert (Bs : (0 <= be_val (skipn k (be_bytes n z)) < 256 ^ Z.of_nat (n - k))%Z).
  { pose proof (be_val_bound (bytes_ok_skipn k (be_bytes_ok n z))) as B. now rewrite skipn_length, be_bytes_length in B. }
  assert (En : (256 ^ Z.of_nat n = 256 ^ Z.of_nat k * 256 ^ Z.of_nat (n - k))%Z).
  { rewrite <- Z.pow_add_r by lia. f_equal. lia. }
  apply be_val_inj; [apply bytes_ok_firstn, be_bytes_ok|apply be_bytes_ok|rewrite firstn_length, !be_bytes_length; lia|].
  rewrite be_val_bytes. rewrite En in E.
  rewrite (Z.mul_comm (256 ^ Z.of_nat k)), Z.rem_mul_r in E by lia.
  set (q := be_val (firstn k (be_bytes n z))) in *. set (s := be_val (skipn k (be_bytes n z))) in *.
  set (M := (256 ^ Z.of_nat (n - k))%Z) in *. set (w := ((z / M) mod 256 ^ Z.of_nat k)%Z) in *.
  pose proof (Z.mod_pos_bound z M P). nia.
Qed.
Lemma whole_tail m : m = concat (whole m) ++ tail m.
Proof. unfold whole, tail. rewrite chunks_concat by lia. symmetry. apply firstn_skipn. Qed.
Lemma whole_len m : all_len 16 (whole m).
Proof.
  apply (@chunks_all_len _ 16 (firstn (16 * (length m / 16)) m) (length m / 16)); [lia|]. rewrite firstn_length.
  pose proof (Nat.div_mod (length m) 16 ltac:(lia)). lia.
Qed.
Lemma tail_len m : length (tail m) = length m mod 16.
Proof. unfold tail. rewrite skipn_length. pose proof (Nat.div_mod (length m) 16 ltac:(lia)). lia. Qed.
Lemma whole_blocks m : bytes_ok m -> Forall (isblock 16) (whole m).
Proof.
  intro H. pose proof (whole_len m) as A. rewrite (whole_tail m) in H. apply bytes_ok_app in H as [H _]. apply bytes_ok_concat in H.
  unfold all_len in A. rewrite Forall_forall in *. intros b Hb. split; auto.
Qed.
Lemma tail_ok m : bytes_ok m -> bytes_ok (tail m).
Proof. intro H. unfold tail. now apply bytes_ok_skipn. Qed.
Lemma whole_count m : length (whole m) = length m / 16.
Proof.
  pose proof (f_equal (@length _) (whole_tail m)) as E. rewrite app_length, (concat_len (whole_len m)), tail_len in E.
  pose proof (Nat.div_mod (length m) 16 ltac:(lia)). lia.
Qed.
Lemma full_split (bl : list bytes) (t : bytes) : all_len 16 bl -> length t < 16 -> whole (concat bl ++ t) = bl /\ tail (concat bl ++ t) = t.
Proof.
  intros A Ht. assert (E : length (concat bl ++ t) / 16 = length bl).
  { rewrite app_length, (concat_len A). rewrite Nat.mul_comm, Nat.add_comm, Nat.div_add by lia. rewrite Nat.div_small by lia. lia. }
  assert (L : length (concat bl) = 16 * length bl) by apply (concat_len A).
  unfold whole, tail. rewrite E. rewrite firstn_app_exact, skipn_app_exact by auto. split; auto.
  apply chunks_of_concat; auto. lia.
Qed.

(** ** The mask table *)
Definition tbl (L0 : bytes) (L : list bytes) : Prop := 0 < length L /\ L = map (xpow 16 135 L0) (seq 0 (length L)).
Lemma gdbl_eq x : isblock 16 x -> gdbl x = double 16 135 x.
Proof. intros [L O]. unfold gdbl. now rewrite GfnDouble_spec. Qed.
Lemma tbl_last L0 L : tbl L0 L -> last L [] = xpow 16 135 L0 (length L - 1).
Proof.
  intros [Hp E]. rewrite E at 1. destruct (length L) as [|k] eqn:Ek; [lia|].
  replace (S k) with (k + 1) by lia. rewrite seq_app, map_app. cbn [seq map]. rewrite last_last.
  f_equal. lia.
Qed.
Lemma tbl_extend L0 L limit : isblock 16 L0 -> tbl L0 L -> tbl L0 (ocb_extend L limit) /\ limit < length (ocb_extend L limit).
Proof.
  intros HL0 HL. unfold ocb_extend. set (f := fun L0 => L0 ++ [gdbl (last L0 [])]).
  assert (K : forall k, tbl L0 (Nat.iter k f L) /\ length (Nat.iter k f L) = length L + k).
  { induction k as [|k [IH1 IH2]]; [split; [exact HL|cbn; lia]|].
    change (Nat.iter (S k) f L) with (f (Nat.iter k f L)). set (M := Nat.iter k f L) in *. unfold f.
    split; [|rewrite app_length; cbn [length]; lia]. split; [rewrite app_length; cbn [length]; lia|].
    rewrite app_length, seq_app, map_app. cbn [length seq map]. destruct IH1 as [P1 P2]. rewrite <- P2. f_equal.
    rewrite (tbl_last (conj P1 P2)), gdbl_eq by now apply xpow_block.
    change (double 16 135 (xpow 16 135 L0 (length M - 1))) with (xpow 16 135 L0 (S (length M - 1))).
    do 2 f_equal. lia. }
  destruct (K (S limit - length L)) as [K1 K2]. split; [exact K1|]. rewrite K2. lia.
Qed.
Lemma mask_ok L0 L i : isblock 16 L0 -> tbl L0 L ->
  exists L', ocb_mask L i = (L', xpow 16 135 L0 i) /\ tbl L0 L'.
Proof.
  intros HL0 HL. unfold ocb_mask.
  assert (G : forall M, tbl L0 M -> i < length M -> nth i M [] = xpow 16 135 L0 i).
  { intros M [P E] Hi. rewrite E. rewrite (nth_indep _ [] (xpow 16 135 L0 0)) by now rewrite map_length, seq_length.
    rewrite map_nth, seq_nth by auto. reflexivity. }
  destruct (Nat.ltb_spec (length L - 1) i).
  - destruct (@tbl_extend L0 L i HL0 HL) as [K1 K2]. eexists. split; [|exact K1]. f_equal. now apply G.
  - destruct HL as [P E]. eexists. split; [|split; [exact P|exact E]]. f_equal. apply G; [split; auto|lia].
Qed.

Lemma pad2_small (t : bytes) : length t < 16 -> t ++ 128%Z :: repeat 0%Z (16 - length t - 1) = pad2 16 t.
Proof. intro H. unfold pad2. do 3 f_equal. rewrite Nat.mod_small by lia. lia. Qed.
Section ocb.
  Variable c : cipher.
  Variable tsz : nat.
  Hypothesis HL : lawful c.
  Hypothesis Hs : bsz c = 16.
  Hypothesis Ht : tsz <= 16.

  Lemma E16 b : isblock 16 b -> isblock 16 (enc c b).
  Proof. intro H. rewrite <- Hs in *. now apply (law_enc HL). Qed.
  Lemma D16 b : isblock 16 b -> isblock 16 (dec c b).
  Proof. intro H. rewrite <- Hs in *. now apply (law_dec HL). Qed.
  Lemma Lstar_blk : isblock 16 (Lstar (enc c)).
  Proof. apply E16, zeros_block. Qed.
  Lemma L0_blk : isblock 16 (L0 (enc c)). Proof. apply double_block. Qed.
  Lemma Ldol_blk : isblock 16 (Ldollar (enc c)). Proof. apply double_block. Qed.

  Lemma loop_spec d ip start : isblock 16 start -> forall bl L k ck, tbl (L0 (enc c)) L ->
    let D := delta 16 135 (L0 (enc c)) start in
    let Y := mapk (fun k b => match d with Enc => xorl (enc c (xorl b (D k))) (D k) | Dec => xorl (dec c (xorl b (D k))) (D k) end) k bl in
    exists L', tbl (L0 (enc c)) L' /\
    ocb_loop d ip c L (D k) ck k bl =
      (L', D (k + length bl), fold_left xorl (match d with Enc => if ip then Y else bl | Dec => Y end) ck, Y).
  Proof.
    intros Hst. induction bl as [|b bl IH]; intros L k ck HT D Y.
    - exists L. split; auto. cbn. rewrite Nat.add_0_r. destruct d, ip; reflexivity.
    - cbn [ocb_loop]. destruct (@mask_ok _ L (trailing_zeros (k + 1)) L0_blk HT) as (L1 & E1 & T1). rewrite E1.
      rewrite ntz_trailing by lia. replace (k + 1) with (S k) by lia.
      change (xorl (D k) (xpow 16 135 (L0 (enc c)) (ntz (S k)))) with (D (S k)). set (y := match d with Enc => _ | Dec => _ end).
      edestruct (IH L1 (S k)) as (L' & T' & E'); [exact T1|]. fold D in E'. rewrite E'. exists L'. split; [exact T'|].
      cbn [length]. replace (S k + length bl) with (k + S (length bl)) by lia. unfold Y. cbn [mapk].
      destruct d, ip; reflexivity.
  Qed.
  Lemma hash_loop_spec : forall bl L k sum, tbl (L0 (enc c)) L ->
    let D := delta 16 135 (L0 (enc c)) zero16 in
    exists L', tbl (L0 (enc c)) L' /\
    ocb_hash_loop c L (D k) sum k bl = (L', D (k + length bl), xsum (fun k b => enc c (xorl b (D k))) k sum bl).
  Proof.
    induction bl as [|b bl IH]; intros L k sum HT D.
    - exists L. split; auto. cbn. now rewrite Nat.add_0_r.
    - cbn [ocb_hash_loop]. destruct (@mask_ok _ L (trailing_zeros (k + 1)) L0_blk HT) as (L1 & E1 & T1). rewrite E1.
      rewrite ntz_trailing by lia. replace (k + 1) with (S k) by lia.
      change (xorl (D k) (xpow 16 135 (L0 (enc c)) (ntz (S k)))) with (D (S k)).
      edestruct (IH L1 (S k)) as (L' & T' & E'); [exact T1|]. fold D in E'. rewrite E'. exists L'. split; [exact T'|].
      cbn [length xsum]. replace (S k + length bl) with (k + S (length bl)) by lia. reflexivity.
  Qed.
  Lemma hash_spec L A : tbl (L0 (enc c)) L -> exists L', tbl (L0 (enc c)) L' /\
    ocb_hash_m c (Lstar (enc c)) L A = (L', ocb_hash (enc c) A).
  Proof.
    intro HT. unfold ocb_hash_m. destruct (@hash_loop_spec (whole A) L 0 zero16 HT) as (L' & T' & E').
    cbn [delta] in E'. change (cut_blocks A) with (whole A). change (repeat 0%Z 16) with zero16. rewrite E'.
    exists L'. split; auto. cbn [Nat.add]. change (cut_rest A) with (tail A). unfold ocb_hash.
    destruct (Nat.eqb_spec (length A mod 16) 0) as [E|NE]; cbn [negb]; rewrite <- tail_len in *.
    - destruct (tail A); [reflexivity|discriminate].
    - pose proof (Nat.mod_upper_bound (length A) 16 ltac:(lia)) as Hm. rewrite <- tail_len in Hm. rewrite pad2_small by auto.
      destruct (tail A) as [|a t] eqn:Et; [cbn in NE; lia|]. reflexivity.
  Qed.

  (** ** The first offset *)
  Lemma land63 a : (Z.land a 63 = a mod 64)%Z.
  Proof. change 63%Z with (Z.ones 6). rewrite Z.land_ones by lia. reflexivity. Qed.
  Lemma land192 a : is_byte a -> (Z.land a 192 = a - a mod 64)%Z.
  Proof.
    intro Ha. assert (E : (a = Z.land a 192 + Z.land a 63)%Z); [|rewrite land63 in E; lia].
    unfold is_byte in Ha. assert (Z.land (Z.land a 192) (Z.land a 63) = 0)%Z.
    { rewrite <- Z.land_assoc, (Z.land_comm 192), <- !Z.land_assoc. change (Z.land 63 192) with 0%Z. now rewrite !Z.land_0_r. }
    rewrite Z.add_nocarry_lxor by auto. rewrite Z.lxor_lor by auto. rewrite <- Z.land_lor_distr_r.
    change (Z.lor 192 63) with (Z.ones 8). rewrite Z.land_ones by lia. symmetry. apply Z.mod_small. lia.
  Qed.
  Lemma nonce_split (N : bytes) : N <> [] -> exists p x, N = p ++ [x].
  Proof. intro H. destruct (@exists_last _ N H) as (p & x & E). eauto. Qed.
  Lemma padded_ok N : bytes_ok N -> 0 < length N < 16 ->
    ocb_padded tsz N = be_bytes 16 (nonce_val tsz N - nonce_val tsz N mod 64) /\
    (nonce_val tsz N mod 64 = last N 0 mod 64)%Z.
  Proof.
    intros ON LN. destruct (@nonce_split N) as (p & x & EN); [intros ->; cbn in LN; lia|].
    rewrite EN in ON, LN. apply bytes_ok_app in ON as [Op Ox]. assert (Hx : is_byte x) by now inversion Ox.
    rewrite app_length in LN. cbn [length] in LN.
    set (t := ((8 * Z.of_nat tsz) mod 128)%Z). assert (Bt : (0 <= t < 128)%Z) by (apply Z.mod_pos_bound; lia).
    assert (EL : last N 0%Z = x) by (rewrite EN; apply last_last).
    assert (V : (nonce_val tsz N = t * 2 ^ 121 + 2 ^ (8 * Z.of_nat (S (length p))) + 256 * be_val p + x)%Z).
    { unfold nonce_val. rewrite EN, app_length, be_val_snoc. cbn [length]. fold t. replace (length p + 1) with (S (length p)) by lia. lia. }
    assert (Vm : (nonce_val tsz N mod 64 = x mod 64)%Z).
    { rewrite V. replace (2 ^ (8 * Z.of_nat (S (length p))))%Z with (2 ^ (8 * Z.of_nat (length p) + 2) * 64)%Z.
      2: { change 64%Z with (2 ^ 6)%Z. rewrite <- Z.pow_add_r by lia. f_equal. lia. }
      change (2 ^ 121)%Z with (2 ^ 115 * 64)%Z.
      match goal with |- (?e mod 64 = _)%Z => replace e with (x + (t * 2 ^ 115 + 2 ^ (8 * Z.of_nat (length p) + 2) + 4 * be_val p) * 64)%Z by ring end.
      apply Z_mod_plus_full. }
    split; [|now rewrite EL]. rewrite Vm.
    assert (B0 : to_byte (Z.shiftl t 1) = (2 * t)%Z).
    { unfold to_byte. rewrite Z.shiftl_mul_pow2 by lia. rewrite Z.mod_small; lia. }
    set (q := ((repeat 0%Z (15 - length N) ++ [1%Z]) ++ p)%list).
    assert (Lq : length q = 15) by (unfold q; rewrite EN, !app_length, repeat_length; cbn [length]; lia).
    assert (Eq : repeat 0%Z (15 - length N) ++ [1%Z] ++ ocb_trunc N = q ++ [Z.land x 192]).
    { unfold ocb_trunc. rewrite EL. rewrite EN at 2. rewrite removelast_last. unfold q. now rewrite <- !app_assoc. }
    unfold ocb_padded. fold t. rewrite Eq, B0.
    assert (Hq : exists h q', q = h :: q' /\ (h = 0 \/ h = 1)%Z /\ (be_val q = 2 ^ (8 * Z.of_nat (length p)) + be_val p)%Z /\ bytes_ok q).
    { assert (Bq : (be_val q = 2 ^ (8 * Z.of_nat (length p)) + be_val p)%Z).
      { unfold q. rewrite !be_val_app', be_val_zeros, pow8. change (be_val [1%Z]) with 1%Z. ring. }
      assert (Oq : bytes_ok q).
      { unfold q. apply bytes_ok_app. split; auto. apply bytes_ok_app. split; [apply bytes_ok_repeat; unfold is_byte; lia|]. repeat constructor; unfold is_byte; lia. }
      destruct q as [|h q'] eqn:E; [discriminate|]. exists h, q'. repeat split; auto.
      unfold q in E. destruct (15 - length N); cbn in E; injection E as <- _; auto. }
    destruct Hq as (h & q' & Eh & Hh & Bq & Oq). rewrite Eh. cbn [app hd tl].
    assert (El : Z.lor h (2 * t) = (2 * t + h)%Z).
    { rewrite Z.lor_comm, (Z.mul_comm 2). change 2%Z with (2 ^ 1)%Z at 1. rewrite lor_disj by lia. lia. }
    rewrite El. change ((2 * t + h)%Z :: q' ++ [Z.land x 192]) with (((2 * t + h)%Z :: q') ++ [Z.land x 192]).
    rewrite removelast_last, last_last.
    assert (Ex : Z.land (Z.land x 192) 192 = (x - x mod 64)%Z).
    { rewrite <- Z.land_assoc, Z.land_diag. now apply land192. }
    rewrite Ex. assert (Lq' : length q' = 14) by (rewrite Eh in Lq; cbn in Lq; lia).
    assert (Bx : (0 <= x mod 64 <= x)%Z) by (unfold is_byte in Hx; pose proof (Z.mod_pos_bound x 64); pose proof (Z.mod_le x 64); lia).
    apply be_val_inj; [|apply be_bytes_ok| |].
    - apply bytes_ok_app. split; [|repeat constructor; unfold is_byte in *; lia]. rewrite Eh in Oq. inversion Oq; subst.
      constructor; auto. unfold is_byte. lia.
    - rewrite be_bytes_length, app_length. cbn [length]. lia.
    - rewrite be_val_snoc, be_val_cons, be_val_bytes, Lq'. rewrite Eh, be_val_cons, Lq' in Bq.
      change (256 ^ Z.of_nat 14)%Z with (2 ^ 112)%Z in *. change (256 ^ Z.of_nat 16)%Z with (2 ^ 128)%Z.
      rewrite V. pose proof (be_val_bound Op) as Bp. rewrite <- pow8 in Bp.
      replace (2 ^ (8 * Z.of_nat (S (length p))))%Z with (256 * 2 ^ (8 * Z.of_nat (length p)))%Z.
      2: { change 256%Z with (2 ^ 8)%Z. rewrite <- Z.pow_add_r by lia. f_equal. lia. }
      assert (2 ^ (8 * Z.of_nat (length p)) <= 2 ^ 112)%Z by (apply Z.pow_le_mono_r; lia).
      unfold is_byte in Hx. match goal with |- (_ = ?e mod 2 ^ 128)%Z => rewrite (Z.mod_small e) end; [lia|]. change (2 ^ 121)%Z with (2 ^ 9 * 2 ^ 112)%Z. change (2 ^ 128)%Z with (2 ^ 16 * 2 ^ 112)%Z. lia.
  Qed.

  Lemma start_ok N : bytes_ok N -> 0 < length N < 16 ->
    ocb_offset (enc c (ocb_padded tsz N)) N = ocb_start (enc c) tsz N.
  Proof.
    intros ON LN. destruct (padded_ok ON LN) as [Ep Em]. unfold ocb_offset, ocb_start. rewrite Ep, Em.
    set (b := (last N 0 mod 64)%Z). assert (Bb : (0 <= b < 64)%Z) by (apply Z.mod_pos_bound; lia).
    set (K := enc c _). assert (HK : isblock 16 K) by (apply E16; split; [apply be_bytes_length|apply be_bytes_ok]).
    destruct HK as [LK OK]. set (S := K ++ xorl (firstn 8 K) (slice 1 8 K)).
    assert (LS : length S = 24).
    { unfold S. rewrite app_length, xorl_length, firstn_length, LK. unfold slice. rewrite firstn_length, skipn_length, LK. reflexivity. }
    assert (OS : bytes_ok S).
    { unfold S. apply bytes_ok_app. split; auto. apply xorl_ok; [now apply bytes_ok_firstn|now apply bytes_ok_slice]. }
    rewrite land63. fold b. assert (Hb8 : Z.to_nat b / 8 <= length S).
    { rewrite LS. assert (Z.to_nat b <= 63) by lia. apply (Nat.div_le_mono _ _ 8) in H; [|lia]. change (63 / 8) with 7 in H. lia. }
    rewrite ShiftLeftN_spec; [|auto|intros E; rewrite E in LS; discriminate|exact Hb8].
    unfold shl_bits. rewrite LS, Z2Nat.id by lia. rewrite firstn_be_bytes by lia. f_equal.
    change (256 ^ Z.of_nat (24 - 16))%Z with (2 ^ 64)%Z.
    replace (2 ^ 64)%Z with (2 ^ (64 - b) * 2 ^ b)%Z by (rewrite <- Z.pow_add_r by lia; f_equal; lia).
    rewrite Z.mul_comm, (Z.mul_comm (2 ^ (64 - b))). apply Z.div_mul_cancel_l; apply Z.pow_nonzero; lia.
  Qed.
  Lemma start_blk N : isblock 16 (ocb_start (enc c) tsz N).
  Proof. split; [apply be_bytes_length|apply be_bytes_ok]. Qed.
  Lemma trunc_padded N M : ocb_trunc N = ocb_trunc M -> length N = length M -> ocb_padded tsz N = ocb_padded tsz M.
  Proof. intros E L. unfold ocb_padded. now rewrite E, L. Qed.
  Lemma trunc_length N : N <> [] -> length (ocb_trunc N) = length N.
  Proof.
    intro H. destruct (nonce_split H) as (p & x & ->). unfold ocb_trunc. rewrite removelast_last, !app_length. reflexivity.
  Qed.

  (** ** The object: what holds of every reachable state *)
  Definition good (st : ocbst) : Prop :=
    o_last st = Lstar (enc c) /\ o_ldol st = Ldollar (enc c) /\ tbl (L0 (enc c)) (o_L st) /\
    (o_prefix st = [] \/ exists N, N <> [] /\ o_prefix st = ocb_trunc N /\ o_ktop st = enc c (ocb_padded tsz N)).

  Lemma ktop_ok st N : good st -> N <> [] ->
    exists st', ocb_ktop c tsz st N = (st', enc c (ocb_padded tsz N)) /\ good st'.
  Proof.
    intros (G1 & G2 & G3 & G4) HN. unfold ocb_ktop. destruct (bytes_eqb (ocb_trunc N) (o_prefix st)) eqn:E.
    - apply bytes_eqb_eq in E. destruct G4 as [G4|(M & HM & EM & EK)].
      + exfalso. rewrite G4 in E. apply (f_equal (@length _)) in E. rewrite trunc_length in E by auto. destruct N; [congruence|discriminate].
      + exists st. split; [|split; [auto|split; [auto|split; [auto|right; exists M; auto]]]]. f_equal. rewrite EK. f_equal. symmetry. apply trunc_padded; [congruence|].
        rewrite <- (trunc_length HN), <- (trunc_length HM). congruence.
    - eexists. split; [reflexivity|]. split; [auto|split; [auto|split; [auto|]]]. right. exists N. auto.
  Qed.

  Lemma mapk_length F : forall bl k, length (mapk F k bl) = length bl.
  Proof. induction bl as [|b bl IH]; intro k; [reflexivity|]. cbn [mapk length]. now rewrite IH. Qed.

  (** the whole of Y in terms of the specification *)
  Definition decrypted (N X : bytes) : bytes :=
    let D := delta 16 135 (L0 (enc c)) (ocb_start (enc c) tsz N) in
    let bl := whole X in
    concat (mapk (fun k b => xorl (dec c (xorl b (D k))) (D k)) 0 bl) ++
    xorl (tail X) (enc c (xorl (D (length bl)) (Lstar (enc c)))).

  Lemma xorl_nil_l a : xorl [] a = []. Proof. reflexivity. Qed.

  Lemma crypt_enc st N A X : good st -> bytes_ok N -> 0 < length N < 16 ->
    exists st', ocb_crypt Enc false c tsz st N A X = Ok (st', ocb_encrypt (enc c) tsz N A X) /\ good st'.
  Proof.
    intros G ON LN. assert (HN : N <> []) by (intros ->; cbn in LN; lia).
    unfold ocb_crypt. destruct N as [|n0 N0] eqn:EN; [congruence|]. rewrite <- EN in *. clear EN n0 N0.
    destruct (ktop_ok G HN) as (st1 & E1 & (G1 & G2 & G3 & G4)). rewrite E1, start_ok by auto.
    destruct (@loop_spec Enc false _ (start_blk N) (whole X) (o_L st1) 0 zero16 G3) as (L' & T' & E'). cbn [delta] in E'.
    change (cut_blocks X) with (whole X). change (repeat 0%Z 16) with zero16 at 1. rewrite E'. cbn [Nat.add]. clear E'.
    change (cut_rest X) with (tail X). rewrite G1, G2. unfold ocb_encrypt.
    destruct (@hash_spec L' A T') as (L2 & T2 & E2).
    destruct (Nat.eqb_spec (length X mod 16) 0) as [E|NE]; cbn [negb]; rewrite <- tail_len in *.
    - rewrite E2. destruct (tail X); [|discriminate]. eexists. split; [reflexivity|]. split; [auto|split; [auto|split; [exact T2|exact G4]]].
    - pose proof (Nat.mod_upper_bound (length X) 16 ltac:(lia)). rewrite <- tail_len in *. rewrite pad2_small by auto. rewrite E2.
      destruct (tail X) as [|a t] eqn:Et; [cbn in NE; lia|]. eexists. split; [reflexivity|]. split; [auto|split; [auto|split; [exact T2|exact G4]]].
  Qed.
  Lemma checksum_app bl : forall acc, fold_left xorl bl acc = fold_left xorl bl acc. Proof. reflexivity. Qed.

  Lemma mapk_inv D : (forall k, isblock 16 (D k)) -> forall bl k, Forall (isblock 16) bl ->
    mapk (fun k b => xorl (enc c (xorl b (D k))) (D k)) k (mapk (fun k b => xorl (dec c (xorl b (D k))) (D k)) k bl) = bl /\
    mapk (fun k b => xorl (dec c (xorl b (D k))) (D k)) k (mapk (fun k b => xorl (enc c (xorl b (D k))) (D k)) k bl) = bl /\
    Forall (isblock 16) (mapk (fun k b => xorl (dec c (xorl b (D k))) (D k)) k bl) /\
    Forall (isblock 16) (mapk (fun k b => xorl (enc c (xorl b (D k))) (D k)) k bl).
  Proof.
    intros HD. induction bl as [|b bl IH]; intros k Hb; [repeat split; constructor|]. inversion Hb as [|? ? Hb1 Hb2]; subst.
    destruct (IH (S k) Hb2) as (I1 & I2 & I3 & I4). cbn [mapk]. rewrite I1, I2.
    assert (Hx : isblock 16 (xorl b (D (S k)))) by (apply xorl_block; auto).
    pose proof (D16 Hx) as [LD OD]. pose proof (E16 Hx) as [LE OE]. pose proof (HD (S k)) as [LDk ODk].
    assert (He : enc c (dec c (xorl b (D (S k)))) = xorl b (D (S k))) by (apply (lawful_surj HL); now rewrite Hs).
    assert (Hd : dec c (enc c (xorl b (D (S k)))) = xorl b (D (S k))) by (apply (law_inv HL); now rewrite Hs).
    destruct Hb1 as [Lb Ob].
    repeat split; try (constructor; auto; apply xorl_block; auto using D16, E16; split; auto).
    - f_equal. rewrite xorl_cancel_r by lia. rewrite He. apply xorl_cancel_r. lia.
    - f_equal. rewrite xorl_cancel_r by lia. rewrite Hd. apply xorl_cancel_r. lia.
  Qed.
  Lemma D_blk' N k : isblock 16 (delta 16 135 (L0 (enc c)) (ocb_start (enc c) tsz N) k).
  Proof. apply delta_block; [apply L0_blk|apply start_blk]. Qed.

  Lemma ck_blk bl : Forall (isblock 16) bl -> forall acc, isblock 16 acc -> isblock 16 (fold_left xorl bl acc).
  Proof. induction 1 as [|b bl Hb _ IH]; intros acc Ha; [exact Ha|]. cbn [fold_left]. apply IH. now apply xorl_block. Qed.
  Lemma hash_blk A : bytes_ok A -> isblock 16 (ocb_hash (enc c) A).
  Proof.
    intro OA. unfold ocb_hash. set (D := delta 16 135 (L0 (enc c)) zero16). assert (HD : forall k, isblock 16 (D k)) by (intro k; apply delta_block; [apply L0_blk|apply zeros_block]).
    pose proof (whole_blocks OA) as W. rewrite Forall_forall in W.
    assert (HS : isblock 16 (xsum (fun k b => enc c (xorl b (D k))) 0 zero16 (whole A))).
    { apply xsum_block; [apply zeros_block|]. intros k b Hb. apply E16, xorl_block; auto. }
    pose proof (tail_len A) as Lt. pose proof (tail_ok OA) as Ot. pose proof (Nat.mod_upper_bound (length A) 16 ltac:(lia)).
    destruct (tail A) as [|a t]; [exact HS|]. apply xorl_block; auto. apply E16. apply xorl_block; [|apply xorl_block; auto using Lstar_blk].
    apply pad2_isblock; auto. lia.
  Qed.
  Lemma tag_len A ck off : bytes_ok A -> isblock 16 ck -> isblock 16 off -> length (ocb_tag (enc c) tsz A ck off) = tsz.
  Proof.
    intros OA H1 H2. unfold ocb_tag. rewrite firstn_length.
    assert (H3 : isblock 16 (xorl (enc c (xorl (xorl ck off) (Ldollar (enc c)))) (ocb_hash (enc c) A))).
    { apply xorl_block; [|now apply hash_blk]. apply E16. apply xorl_block; [now apply xorl_block|apply Ldol_blk]. }
    destruct H3 as [-> _]. lia.
  Qed.

  (** Decryption gives a text of the same length whose encryption is X again, and the tag of that text. *)
  Lemma crypt_dec st N A X ip : good st -> bytes_ok N -> 0 < length N < 16 -> bytes_ok X -> bytes_ok A ->
    exists st' P T, ocb_crypt Dec ip c tsz st N A X = Ok (st', P ++ T) /\ good st' /\ length P = length X /\ bytes_ok P /\
      length T = tsz /\ ocb_encrypt (enc c) tsz N A P = X ++ T.
  Proof.
    intros G ON LN OX OA. assert (HN : N <> []) by (intros ->; cbn in LN; lia).
    unfold ocb_crypt. destruct N as [|n0 N0] eqn:EN; [congruence|]. rewrite <- EN in *. clear EN n0 N0.
    destruct (ktop_ok G HN) as (st1 & E1 & (G1 & G2 & G3 & G4)). rewrite E1, start_ok by auto.
    destruct (@loop_spec Dec ip _ (start_blk N) (whole X) (o_L st1) 0 zero16 G3) as (L' & T' & E'). cbn [delta] in E'.
    change (cut_blocks X) with (whole X). change (repeat 0%Z 16) with zero16 at 1. rewrite E'. cbn [Nat.add]. clear E'.
    change (cut_rest X) with (tail X). rewrite G1, G2.
    destruct (@hash_spec L' A T') as (L2 & T2 & E2).
    set (D := delta 16 135 (L0 (enc c)) (ocb_start (enc c) tsz N)).
    destruct (@mapk_inv D (D_blk' N) (whole X) 0 (whole_blocks OX)) as (I1 & I2 & I3 & I4).
    set (bl := mapk (fun k b => xorl (dec c (xorl b (D k))) (D k)) 0 (whole X)) in *.
    assert (Lbl : length bl = length (whole X)) by apply mapk_length.
    assert (A3 : all_len 16 bl) by (eapply Forall_impl; [|exact I3]; now intros ? []).
    assert (OB : bytes_ok (concat bl)) by (apply bytes_ok_concat; eapply Forall_impl; [|exact I3]; now intros ? []).
    destruct (Nat.eqb_spec (length X mod 16) 0) as [E|NE]; cbn [negb]; rewrite <- tail_len in *.
    - rewrite E2. destruct (tail X) as [|a t] eqn:Et; [|discriminate].
      assert (EX : X = concat (whole X)) by (rewrite (whole_tail X) at 1; rewrite Et; apply app_nil_r).
      assert (LC : length (concat bl) = length X) by (rewrite EX, (concat_len A3), (concat_len (whole_len X)), Lbl; reflexivity).
      destruct (@full_split bl [] A3 ltac:(cbn; lia)) as [W1 W2]. rewrite app_nil_r in W1, W2.
      eexists _, (concat bl), _. split; [reflexivity|]. split; [split; [auto|split; [auto|split; [exact T2|exact G4]]]|]. split; [exact LC|]. split; [exact OB|].
      rewrite <- Lbl in *. split.
      + apply (@tag_len A (fold_left xorl bl zero16) (D (length bl))); auto; [apply ck_blk; [exact I3|apply zeros_block]|apply D_blk'].
      + unfold ocb_encrypt. rewrite W1, W2. fold D. rewrite I1, <- EX. reflexivity.
    - pose proof (Nat.mod_upper_bound (length X) 16 ltac:(lia)) as Hm. rewrite <- tail_len in *.
      set (Ds := xorl (D (length (whole X))) (Lstar (enc c))). assert (HDs : isblock 16 Ds) by (apply xorl_block; [apply D_blk'|apply Lstar_blk]).
      pose proof (E16 HDs) as [LE OE]. set (t := xorl (tail X) (enc c Ds)).
      assert (Lt : length t = length (tail X)) by (unfold t; rewrite xorl_length; lia).
      assert (Ot : bytes_ok t) by (unfold t; apply xorl_ok; auto; now apply tail_ok).
      rewrite <- Lt. rewrite pad2_small by lia. rewrite E2.
      destruct (@full_split bl t A3 ltac:(lia)) as [W1 W2].
      eexists _, (concat bl ++ t), _. split; [rewrite <- app_assoc; reflexivity|]. split; [split; [auto|split; [auto|split; [exact T2|exact G4]]]|].
      split; [rewrite (whole_tail X) at 1; rewrite !app_length, (concat_len A3), (concat_len (whole_len X)); lia|].
      split; [apply bytes_ok_app; auto|]. split.
      + apply (@tag_len A (xorl (fold_left xorl bl zero16) (pad2 16 t)) Ds); auto.
        apply xorl_block; [apply ck_blk; [exact I3|apply zeros_block]|]. apply pad2_isblock; auto. lia.
      + unfold ocb_encrypt. rewrite W1, W2. fold D. rewrite I1. rewrite Lbl. fold Ds.
        assert (Ex : xorl t (enc c Ds) = tail X) by (unfold t; apply xorl_cancel_r; lia).
        assert (Nt : t <> []) by (intro E0; apply (f_equal (@length Z)) in E0; rewrite Lt in E0; cbn [length] in E0; lia). clearbody t.
        destruct t as [|t0 t']; [congruence|]. rewrite Ex, app_assoc. f_equal. symmetry. apply whole_tail.
  Qed.

  Definition body (N P : bytes) : bytes :=
    let D := delta 16 135 (L0 (enc c)) (ocb_start (enc c) tsz N) in
    concat (mapk (fun k b => xorl (enc c (xorl b (D k))) (D k)) 0 (whole P)) ++
    xorl (tail P) (enc c (xorl (D (length (whole P))) (Lstar (enc c)))).
  Lemma body_length N P : bytes_ok P -> length (body N P) = length P.
  Proof.
    intro OP. unfold body. set (D := delta 16 135 (L0 (enc c)) (ocb_start (enc c) tsz N)).
    destruct (@mapk_inv D (D_blk' N) (whole P) 0 (whole_blocks OP)) as (_ & _ & _ & I4).
    assert (A4 : all_len 16 (mapk (fun k b => xorl (enc c (xorl b (D k))) (D k)) 0 (whole P))) by (eapply Forall_impl; [|exact I4]; now intros ? []).
    assert (HDs : isblock 16 (xorl (D (length (whole P))) (Lstar (enc c)))) by (apply xorl_block; [apply D_blk'|apply Lstar_blk]).
    pose proof (E16 HDs) as [LE _]. pose proof (tail_len P). pose proof (Nat.mod_upper_bound (length P) 16 ltac:(lia)).
    rewrite (whole_tail P) at 4. rewrite !app_length, (concat_len A4), (concat_len (whole_len P)), mapk_length, xorl_length. lia.
  Qed.
  Lemma body_ok N P : bytes_ok P -> bytes_ok (body N P).
  Proof.
    intro OP. unfold body. set (D := delta 16 135 (L0 (enc c)) (ocb_start (enc c) tsz N)).
    destruct (@mapk_inv D (D_blk' N) (whole P) 0 (whole_blocks OP)) as (_ & _ & _ & I4). apply bytes_ok_app. split.
    - apply bytes_ok_concat. eapply Forall_impl; [|exact I4]; now intros ? [].
    - apply xorl_ok; [now apply tail_ok|]. apply E16. apply xorl_block; [apply D_blk'|apply Lstar_blk].
  Qed.
  Lemma body_inj N P Q : bytes_ok P -> bytes_ok Q -> body N P = body N Q -> P = Q.
  Proof.
    intros OP OQ E. pose proof (f_equal (@length _) E) as EL. rewrite !body_length in EL by auto.
    unfold body in E. set (D := delta 16 135 (L0 (enc c)) (ocb_start (enc c) tsz N)) in *.
    set (F := fun k b => xorl (enc c (xorl b (D k))) (D k)) in *.
    destruct (@mapk_inv D (D_blk' N) (whole P) 0 (whole_blocks OP)) as (_ & P2 & _ & P4).
    destruct (@mapk_inv D (D_blk' N) (whole Q) 0 (whole_blocks OQ)) as (_ & Q2 & _ & Q4). fold F in P2, P4, Q2, Q4.
    assert (AP : all_len 16 (mapk F 0 (whole P))) by (eapply Forall_impl; [|exact P4]; now intros ? []).
    assert (AQ : all_len 16 (mapk F 0 (whole Q))) by (eapply Forall_impl; [|exact Q4]; now intros ? []).
    assert (EW : length (whole P) = length (whole Q)) by (rewrite !whole_count; congruence).
    assert (HDs : isblock 16 (xorl (D (length (whole P))) (Lstar (enc c)))) by (apply xorl_block; [apply D_blk'|apply Lstar_blk]).
    pose proof (E16 HDs) as [LE _]. rewrite <- EW in E. set (K := enc c (xorl (D (length (whole P))) (Lstar (enc c)))) in *.
    pose proof (tail_len P) as TP. pose proof (tail_len Q) as TQ. pose proof (Nat.mod_upper_bound (length P) 16 ltac:(lia)). rewrite <- EL in TQ.
    destruct (@full_split (mapk F 0 (whole P)) (xorl (tail P) K) AP ltac:(rewrite xorl_length; lia)) as [W1 W2].
    destruct (@full_split (mapk F 0 (whole Q)) (xorl (tail Q) K) AQ ltac:(rewrite xorl_length; lia)) as [W3 W4].
    rewrite E in W1, W2. rewrite W3 in W1. rewrite W4 in W2.
    rewrite (whole_tail P), (whole_tail Q). f_equal.
    - f_equal. rewrite <- P2, <- Q2. now rewrite W1.
    - rewrite <- (@xorl_cancel_r (tail P) K), <- (@xorl_cancel_r (tail Q) K) by lia. now rewrite W2.
  Qed.
  Lemma encrypt_body N A P : bytes_ok P -> bytes_ok A -> exists T, ocb_encrypt (enc c) tsz N A P = body N P ++ T /\ length T = tsz.
  Proof.
    intros OP OA. unfold ocb_encrypt, body. set (D := delta 16 135 (L0 (enc c)) (ocb_start (enc c) tsz N)).
    assert (Hck : isblock 16 (checksum (whole P))) by (apply ck_blk; [now apply whole_blocks|apply zeros_block]).
    pose proof (tail_len P) as TP. pose proof (Nat.mod_upper_bound (length P) 16 ltac:(lia)). pose proof (tail_ok OP) as OT.
    destruct (tail P) as [|a t] eqn:Et.
    - rewrite xorl_nil_l, app_nil_r. eexists. split; [reflexivity|]. apply tag_len; auto. apply D_blk'.
    - eexists. split; [rewrite <- app_assoc; reflexivity|]. apply tag_len; auto; [|apply xorl_block; [apply D_blk'|apply Lstar_blk]].
      apply xorl_block; auto. apply pad2_isblock; auto. lia.
  Qed.
  Lemma encrypt_inj N A P Q X T U : bytes_ok P -> bytes_ok Q -> bytes_ok A -> length T = tsz -> length U = tsz ->
    ocb_encrypt (enc c) tsz N A P = X ++ T -> ocb_encrypt (enc c) tsz N A Q = X ++ U -> P = Q.
  Proof.
    intros OP OQ OA LT LU E1 E2. destruct (@encrypt_body N A P OP OA) as (T1 & F1 & L1). destruct (@encrypt_body N A Q OQ OA) as (T2 & F2 & L2).
    rewrite F1 in E1. rewrite F2 in E2. apply (@body_inj N); auto.
    assert (G : forall (a b x t : bytes), a ++ t = x ++ b -> length t = length b -> a = x).
    { intros a b x t E L. apply (f_equal (@length _)) in E as EL. rewrite !app_length in EL.
      transitivity (firstn (length a) (a ++ t)); [symmetry; now apply firstn_app_exact|]. rewrite E. apply firstn_app_exact. lia. }
    rewrite (G _ _ _ _ E1), (G _ _ _ _ E2); congruence.
  Qed.
End ocb.
