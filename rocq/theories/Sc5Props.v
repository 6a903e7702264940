(** C70, C71, C72: Enigma, Spritz and WAKE. *)
From Coq Require Import Permutation.
From Verif Require Import Base BlockModeModel WordModel BlkSpec WordLib Sc5Model Sc5Spec Sc5Proofs Sc5Proofs2.
Set Implicit Arguments. Unset Strict Implicit.
Local Open Scope nat_scope.

(** * C70: Enigma *)
Lemma m_sub_add v b : is_byte v -> (((v - b) mod 256 + b) mod 256 = v)%Z.
Proof. unfold is_byte. intros H. rewrite Zplus_mod_idemp_l. replace (v - b + b)%Z with v by lia. apply Z.mod_small. lia. Qed.
Lemma m_add_sub v b : is_byte v -> (((v + b) mod 256 - b) mod 256 = v)%Z.
Proof. unfold is_byte. intros H. rewrite Zminus_mod_idemp_l. replace (v + b - b)%Z with v by lia. apply Z.mod_small. lia. Qed.
Lemma m_byte z : is_byte (z mod 256). Proof. unfold is_byte. apply Z.mod_pos_bound. lia. Qed.
Lemma rotors_involution pi pi' rho p x : inverse_on_bytes pi pi' -> reflector rho -> is_byte x ->
  rotors pi pi' rho p (rotors pi pi' rho p x) = x /\ rotors pi pi' rho p x <> x.
Proof.
  intros I R Hx. unfold rotors. set (a := Z.of_nat (p mod 256)). set (b := Z.of_nat (p / 256 mod 256)). clearbody a b.
  set (xa := ((x + a) mod 256)%Z). assert (Bxa : is_byte xa) by apply m_byte. destruct (I xa Bxa) as (Bu & _ & Eu & _). set (u := pi xa) in *.
  destruct (R ((u + b) mod 256)%Z (m_byte _)) as (Bv & Ev & Nv). set (v := rho ((u + b) mod 256)%Z) in *.
  destruct (I ((v - b) mod 256)%Z (m_byte _)) as (_ & Bw & _ & Ew). set (w := pi' ((v - b) mod 256)%Z) in *.
  rewrite (m_sub_add a Bw), Ew, (m_sub_add b Bv), Ev, (m_add_sub b Bu), Eu. unfold xa. rewrite (m_add_sub a Hx). split; [reflexivity|].
  intros E. apply Nv. assert (Ewx : w = xa) by (unfold xa; rewrite <- E; symmetry; apply m_sub_add; auto).
  rewrite Ewx in Ew. fold u in Ew. rewrite Ew. symmetry. apply m_sub_add. exact Bv.
Qed.

(** a key that is not 13 bytes long is an error; for every other key and every seed the construction ends without a panic, and the
    object is a pair of rotors (one inverse pair of tables) with a reflector *)
Theorem C70_keysize key seed : length key <> 13 -> enigma_new key seed = Err.
Proof. intros H. apply Nat.eqb_neq in H. unfold enigma_new. rewrite H. reflexivity. Qed.
Theorem C70_rotors key seed : length key = 13 ->
  exists c pi pi' rho, enigma_new key seed = Ok c /\ inverse_on_bytes pi pi' /\ reflector rho /\ substitutes en_call c (rotors pi pi' rho).
Proof.
  intros L. unfold enigma_new. rewrite L. cbn [Nat.eqb negb]. destruct (en_turns_start key (en_seed key seed)) as (s & t1 & t3 & -> & P & Q).
  cbn [rbind]. set (c := Enigma t1 (en_invert t1) t3 0 0 0). exists c, (tab t1), (tab (en_invert t1)), (tab t3). split; [reflexivity|]. split; [apply tab_inv; exact P|]. split; [apply tab_pair; exact Q|].
  apply substitutes_from with (Inv := fun st p => en_t1 st = t1 /\ en_t2 st = en_invert t1 /\ en_t3 st = t3 /\ en_at st p).
  - intros st pos x (E1 & E2 & E3 & A) Hx. unfold en_call. rewrite (proj2 (Nat.ltb_ge _ _) Hx). destruct (@en_bytes_ok t1 (en_invert t1) t3 (snd x) st pos E1 E2 E3 A) as (K1 & K2 & K3 & K4 & K5).
    destruct (en_bytes st (snd x)) as [st' o]. cbn [fst snd] in *. exists st'. rewrite K1. auto.
  - split; [reflexivity|]. split; [reflexivity|]. split; [reflexivity|]. repeat split.
Qed.
Lemma by_position_nth f l i : forall p, i < length l -> nth i (by_position f p l) 0%Z = f (p + i) l.[i].
Proof.
  revert i. induction l as [|x l IH]; intros [|i] p H; cbn [length by_position nth] in *; try lia; [rewrite Nat.add_0_r; auto|].
  rewrite IH by lia. f_equal. lia.
Qed.
Lemma by_position_undo f l : forall p, (forall p x, is_byte x -> f p (f p x) = x) -> bytes_ok l -> by_position f p (by_position f p l) = l.
Proof. induction l as [|x l IH]; intros p H Hl; [reflexivity|]. inversion Hl; subst. cbn [by_position]. rewrite H, IH by auto. reflexivity. Qed.
(** so a second object undoes the first, however either text is cut *)
Theorem C70_round_trip key seed c calls : enigma_new key seed = Ok c -> Forall byte_call calls ->
  exists c1 outs, run_calls en_call c calls = Ok (c1, outs) /\
    forall calls2, Forall byte_call calls2 -> concat (map snd calls2) = concat outs ->
    exists c2 ps, run_calls en_call c calls2 = Ok (c2, ps) /\ concat ps = concat (map snd calls).
Proof.
  intros E Hc. destruct (Nat.eq_dec (length key) 13) as [L|N]; [|rewrite C70_keysize in E by auto; discriminate].
  destruct (C70_rotors seed L) as (c' & pi & pi' & rho & E' & I & R & K). rewrite E in E'. injection E' as <-.
  assert (W : forall cs, Forall byte_call cs -> Forall (fun x => length (snd x) <= length (fst x)) cs) by (intros cs; apply Forall_impl; intros x [H _]; exact H).
  destruct (K calls (W _ Hc)) as (c1 & outs & E1 & _ & O1). exists c1, outs. split; [exact E1|]. intros calls2 Hc2 Eo.
  destruct (K calls2 (W _ Hc2)) as (c2 & ps & E2 & _ & O2). exists c2, ps. split; [exact E2|]. rewrite O2, Eo, O1. apply by_position_undo.
  - intros p x Hx. apply rotors_involution; auto.
  - clear - Hc. induction Hc as [|x calls [_ B] _ IH]; [apply Forall_nil|]. cbn [map concat]. apply bytes_ok_app. split; auto.
Qed.
(** no byte is ever encrypted to itself, and equal bytes 65536 places apart to equal bytes *)
Theorem C70_no_fixed_point key seed c calls : enigma_new key seed = Ok c -> Forall byte_call calls ->
  exists c1 outs, run_calls en_call c calls = Ok (c1, outs) /\
    (forall i, i < length (concat (map snd calls)) -> nth i (concat outs) 0%Z <> nth i (concat (map snd calls)) 0%Z) /\
    (forall i, i + 256 * 256 < length (concat (map snd calls)) -> nth i (concat (map snd calls)) 0%Z = nth (i + 256 * 256) (concat (map snd calls)) 0%Z ->
       nth i (concat outs) 0%Z = nth (i + 256 * 256) (concat outs) 0%Z).
Proof.
  intros E Hc. destruct (Nat.eq_dec (length key) 13) as [L|N]; [|rewrite C70_keysize in E by auto; discriminate].
  destruct (C70_rotors seed L) as (c' & pi & pi' & rho & E' & I & R & K). rewrite E in E'. injection E' as <-.
  destruct (K calls) as (c1 & outs & E1 & _ & O1); [revert Hc; apply Forall_impl; intros x [H _]; exact H|]. exists c1, outs. split; [exact E1|].
  assert (B : bytes_ok (concat (map snd calls))).
  { clear - Hc. induction Hc as [|x calls [_ B] _ IH]; [apply Forall_nil|]. cbn [map concat]. apply bytes_ok_app. split; auto. }
  set (l := concat (map snd calls)) in *. clearbody l. rewrite O1. split.
  - intros i Hi. rewrite by_position_nth by auto. apply rotors_involution; auto. apply nth_byte. exact B.
  - intros i Hi Ei. rewrite !by_position_nth by lia. rewrite <- Ei. cbn [Nat.add]. generalize l.[i]. intros x. clear Hi Ei.
    unfold rotors. clear.
    replace ((i + 256 * 256) mod 256) with (i mod 256) by (symmetry; apply Nat.mod_add; discriminate).
    replace ((i + 256 * 256) / 256 mod 256) with (i / 256 mod 256); [reflexivity|]. rewrite Nat.div_add by discriminate.
    symmetry. rewrite <- Nat.add_mod_idemp_r by discriminate. rewrite Nat.mod_same by discriminate. rewrite Nat.add_0_r. reflexivity.
Qed.
(** the seed has no effect at all if the key has a zero byte *)
Theorem C70_seed_ignored key seed1 seed2 : (exists i, i < 13 /\ nth i key 0%Z = 0%Z) -> enigma_new key seed1 = enigma_new key seed2.
Proof.
  intros (i & Hi & E). unfold enigma_new. destruct (negb _); [reflexivity|]. assert (Es : en_seed key seed1 = en_seed key seed2); [|rewrite Es; reflexivity].
  unfold en_seed. replace 13 with (i + S (12 - i)) by lia. rewrite seq_app, !fold_left_app. cbn [seq fold_left Nat.add].
  rewrite E. change (i8 0) with 0%Z. rewrite !Z.mul_0_r. reflexivity.
Qed.
(** the repository's vector; the seed is indeed ignored for its key *)
Definition en_key : bytes := map Z.of_nat [101; 110; 97; 100; 121; 111; 116; 114; 0; 0; 0; 0; 0].
Example C70_instance : match enigma_new en_key 123 with
  | Ok c => match en_call c (repeat 0%Z 4, [0; 1; 2; 3]%Z) with Ok (_, o) => bytes_eqb o [0xf3; 0xed; 0xda; 0x7d]%Z | _ => false end | _ => false end = true.
Proof. vm_compute. reflexivity. Qed.

(** * C71: Spritz *)
Inductive spritz_reached : spritz -> Prop :=
| sp_new key iv c : spritz_new key iv = Ok c -> spritz_reached c
| sp_enc c x c' o : spritz_reached c -> sp_enc_call c x = Ok (c', o) -> spritz_reached c'
| sp_dec c x c' o : spritz_reached c -> sp_dec_call c x = Ok (c', o) -> spritz_reached c'.
Lemma zero_ok iv : sp_ok (sp_zero iv).
Proof. split; [apply Permutation_refl|apply Nat.le_0_l]. Qed.
Lemma ready_ok c : sp_ok c -> sp_ok (sp_ready c).
Proof. intros H. unfold sp_ready. destruct (sp_iv c); auto. apply absorb_ok, stop_ok, H. Qed.
Lemma squeeze_ok n c : sp_ok c -> sp_ok (fst (sp_squeeze n c)).
Proof. intros H. unfold sp_squeeze. fold (sp_calm c). apply drips_ok, calm_ok, H. Qed.
(** whatever is done, the state array stays a permutation of 0 .. 255 and the absorb counter at most 128: no index is out of range *)
Theorem C71_state c : spritz_reached c -> Permutation (sp_s c) (map Z.of_nat (seq 0 256)) /\ sp_a c <= 128.
Proof.
  induction 1 as [key iv c E|c x c' o R IH E|c x c' o R IH E].
  - unfold spritz_new in E. destruct (length key =? 0); [discriminate|]. injection E as <-. apply absorb_ok, zero_ok.
  - unfold sp_enc_call in E. destruct (_ <? _); [discriminate|]. pose proof (squeeze_ok (length (snd x)) (ready_ok IH)) as K. destruct (sp_squeeze _ _). injection E as <- <-. exact K.
  - unfold sp_dec_call in E. destruct (_ <? _); [discriminate|]. pose proof (squeeze_ok (length (snd x)) (ready_ok IH)) as K. destruct (sp_squeeze _ _). injection E as <- <-. exact K.
Qed.
Theorem C71_keysize key iv : spritz_new key iv = Err <-> key = [].
Proof. unfold spritz_new. destruct key; cbn [length Nat.eqb]; split; intros H; auto; discriminate. Qed.
(** with a nil IV all calls add one keystream, so that any two cuts of the text fit together *)
Theorem C71_stream key c : spritz_new key None = Ok c ->
  exists ks, substitutes sp_enc_call c (fun p x => to_byte (x + ks p)) /\ substitutes sp_dec_call c (fun p x => to_byte (x - ks p)).
Proof.
  intros E. assert (I : sp_iv c = None).
  { unfold spritz_new in E. destruct (length key =? 0); [discriminate|]. injection E as <-. apply (absorb_ok key (zero_ok None)). }
  exists (sp_ks (sp_calm c)). split; [apply sp_enc_stream|apply sp_dec_stream]; exact I.
Qed.
Lemma by_position_sub ks l : forall p, bytes_ok l -> by_position (fun p x => to_byte (x - ks p)) p (by_position (fun p x => to_byte (x + ks p)) p l) = l.
Proof. induction l as [|x l IH]; intros p H; [reflexivity|]. inversion H; subst. cbn [by_position]. rewrite sub_add, IH by auto. reflexivity. Qed.
Theorem C71_round_trip key c calls : spritz_new key None = Ok c -> Forall byte_call calls ->
  exists c1 outs, run_calls sp_enc_call c calls = Ok (c1, outs) /\
    forall calls2, Forall byte_call calls2 -> concat (map snd calls2) = concat outs ->
    exists c2 ps, run_calls sp_dec_call c calls2 = Ok (c2, ps) /\ concat ps = concat (map snd calls).
Proof.
  intros E Hc. destruct (C71_stream E) as (ks & K1 & K2).
  assert (W : forall cs, Forall byte_call cs -> Forall (fun x => length (snd x) <= length (fst x)) cs) by (intros cs; apply Forall_impl; intros x [H _]; exact H).
  destruct (K1 calls (W _ Hc)) as (c1 & outs & E1 & _ & O1). exists c1, outs. split; [exact E1|]. intros calls2 Hc2 Eo.
  destruct (K2 calls2 (W _ Hc2)) as (c2 & ps & E2 & _ & O2). exists c2, ps. split; [exact E2|]. rewrite O2, Eo, O1. apply by_position_sub.
  clear - Hc. induction Hc as [|x calls [_ B] _ IH]; [apply Forall_nil|]. cbn [map concat]. apply bytes_ok_app. split; auto.
Qed.
(** with an IV (also an empty one) it holds for equal cuts *)
Theorem C71_round_trip_iv c : spritz_reached c -> undone_same_cut sp_enc_call sp_dec_call c c.
Proof. intros _. apply sp_undone. Qed.
(** and for no others: every call takes the IV in again *)
Theorem C71_iv_cut_refuted : exists key iv c, spritz_new key (Some iv) = Ok c /\
  exists c1 c3 a b b', sp_enc_call c ([0; 0]%Z, [0; 0]%Z) = Ok (c1, [a; b]) /\
    run_calls sp_enc_call c [([0%Z], [0%Z]); ([0%Z], [0%Z])] = Ok (c3, [[a]; [b']]) /\ b <> b'.
Proof.
  assert (H : match spritz_new [1%Z] (Some []) with Ok c =>
      match sp_enc_call c ([0; 0]%Z, [0; 0]%Z), run_calls sp_enc_call c [([0%Z], [0%Z]); ([0%Z], [0%Z])] with
      | Ok (_, [a; b]), Ok (_, [[a']; [b']]) => Z.eqb a a' && negb (Z.eqb b b') | _, _ => false end | _ => false end = true) by (vm_compute; reflexivity).
  exists [1%Z], []. destruct (spritz_new [1%Z] (Some [])) as [c| |]; [|discriminate H..]. exists c. split; [reflexivity|].
  destruct (sp_enc_call c ([0; 0]%Z, [0; 0]%Z)) as [[c1 o1]| |]; [|discriminate H..].
  destruct (run_calls sp_enc_call c [([0%Z], [0%Z]); ([0%Z], [0%Z])]) as [[c3 o2]| |]; [|destruct o1 as [|? [|? [|]]]; discriminate H..].
  destruct o1 as [|a [|b [|]]]; try discriminate H. destruct o2 as [|[|a' [|]] [|[|b' [|]] [|]]]; try discriminate H.
  exists c1, c3, a, b, b'. apply andb_prop in H as [H1 H2]. apply Z.eqb_eq in H1. subst a'. split; [reflexivity|]. split; [reflexivity|].
  intros E. subst b'. rewrite Z.eqb_refl in H2. discriminate.
Qed.
(** Hash returns as many bytes as asked for *)
Theorem C71_hash m r : is_byte r -> length (spritz_hash m r) = Z.to_nat r.
Proof. intros _. unfold spritz_hash, sp_squeeze. apply drips_len. Qed.
(** the first vector of the paper *)
Example C71_instance : match spritz_new [65; 66; 67]%Z None with
  | Ok c => match sp_enc_call c (repeat 0%Z 4, repeat 0%Z 4) with Ok (_, o) => bytes_eqb o [0x77; 0x9a; 0x8e; 0x01]%Z | _ => false end | _ => false end = true.
Proof. vm_compute. reflexivity. Qed.

(** * C72: WAKE *)
Theorem C72_keysize key : wake_new key = Err <-> length key <> 16.
Proof. unfold wake_new. destruct (Nat.eqb_spec (length key) 16); cbn [negb]; split; intros H; auto; try discriminate; contradiction. Qed.
(** the registers of the start: the four words of the key *)
Definition wake_start (key : bytes) : Z * Z * Z * Z :=
  (be_val (firstn 4 key), be_val (firstn 4 (skipn 4 key)), be_val (firstn 4 (skipn 8 key)), be_val (skipn 12 key)).
Lemma wake_new_start key c : wake_new key = Ok c -> quad (wk_r c) = wake_start key /\ wk_n c = 0.
Proof.
  unfold wake_new. destruct (Nat.eqb_spec (length key) 16) as [L|]; cbn [negb]; [|discriminate]. intros E. injection E as <-. split; [|reflexivity].
  do 16 (destruct key as [|? key]; [discriminate L|]). destruct key; [|discriminate L]. reflexivity.
Qed.
(** calls of whole words, and a last one of any length, together are one encryption (decryption) of the words of the text *)
Theorem C72_words decr key c calls x : wake_new key = Ok c -> Forall byte_call calls -> Forall (fun y => length (snd y) mod 4 = 0) calls -> byte_call x ->
  exists c' outs, run_calls (wk_call decr) c (calls ++ [x]) = Ok (c', outs) /\
    concat outs = wake_groups decr (fun i => nth i (wk_t c) 0%Z) (wake_start key) (chunks 4 (concat (map snd calls) ++ snd x)).
Proof. intros E. destruct (wake_new_start E) as [<- N]. intros. apply wk_calls_ok; auto. Qed.
(** so another object undoes it, both texts being cut at word boundaries *)
Theorem C72_round_trip key c calls x calls2 x2 : wake_new key = Ok c -> Forall byte_call calls -> Forall (fun y => length (snd y) mod 4 = 0) calls -> byte_call x ->
  Forall byte_call calls2 -> Forall (fun y => length (snd y) mod 4 = 0) calls2 -> byte_call x2 ->
  exists c1 outs, run_calls (wk_call false) c (calls ++ [x]) = Ok (c1, outs) /\
    (concat (map snd (calls2 ++ [x2])) = concat outs ->
     exists c2 ps, run_calls (wk_call true) c (calls2 ++ [x2]) = Ok (c2, ps) /\ concat ps = concat (map snd (calls ++ [x]))).
Proof.
  intros E H1 M1 X1 H2 M2 X2. destruct (@C72_words false key c calls x E H1 M1 X1) as (c1 & outs & R1 & O1). exists c1, outs. split; [exact R1|]. intros Eo.
  destruct (@C72_words true key c calls2 x2 E H2 M2 X2) as (c2 & ps & R2 & O2). exists c2, ps. split; [exact R2|].
  rewrite map_app, concat_app in Eo. cbn [map concat] in Eo. rewrite app_nil_r in Eo. rewrite O2, Eo, O1, map_app, concat_app. cbn [map concat]. rewrite app_nil_r.
  apply wake_groups_cancel. apply bytes_ok_app. split; [|apply X1]. clear - H1. induction H1 as [|y ys [_ B] _ IH]; [apply Forall_nil|]. cbn [map concat]. apply bytes_ok_app. split; auto.
Qed.
(** equal cuts always fit, anywhere *)
Theorem C72_round_trip_same_cut c : undone_same_cut (wk_call false) (wk_call true) c c.
Proof. apply wk_undone. Qed.
(** other cuts do not: after a call that ends inside a word the bytes of that word are forgotten *)
Theorem C72_cut_refuted : exists key c c1 c2 o1 o2, wake_new key = Ok c /\
  wk_call false c (repeat 0%Z 5, repeat 0%Z 5) = Ok (c1, o1) /\
  run_calls (wk_call false) c [(repeat 0%Z 1, repeat 0%Z 1); (repeat 0%Z 4, repeat 0%Z 4)] = Ok (c2, o2) /\ concat o2 <> o1.
Proof.
  assert (H : match wake_new (repeat 1%Z 16) with Ok c =>
      match wk_call false c (repeat 0%Z 5, repeat 0%Z 5), run_calls (wk_call false) c [(repeat 0%Z 1, repeat 0%Z 1); (repeat 0%Z 4, repeat 0%Z 4)] with
      | Ok (_, o1), Ok (_, o2) => negb (bytes_eqb (concat o2) o1) | _, _ => false end | _ => false end = true) by (vm_compute; reflexivity).
  exists (repeat 1%Z 16). destruct (wake_new (repeat 1%Z 16)) as [c| |]; [|discriminate H..]. exists c.
  destruct (wk_call false c (repeat 0%Z 5, repeat 0%Z 5)) as [[c1 o1]| |]; [|discriminate H..].
  destruct (run_calls (wk_call false) c _) as [[c2 o2]| |]; [|discriminate H..]. exists c1, c2, o1, o2. split; [reflexivity|]. split; [reflexivity|]. split; [reflexivity|].
  intros E. rewrite E in H. rewrite (proj2 (bytes_eqb_eq _ _) eq_refl) in H. discriminate.
Qed.
(** the repository's vector *)
Example C72_instance : match wake_new (map (fun i => Z.of_nat (i * 5 + 10)) (seq 0 16)) with
  | Ok c => match wk_call false c (repeat 0%Z 9, map Z.of_nat (seq 5 9)) with
            | Ok (_, o) => bytes_eqb o [0x43; 0x4d; 0x57; 0x5d; 0x12; 0xd6; 0x2c; 0x46; 0x94]%Z | _ => false end | _ => false end = true.
Proof. vm_compute. reflexivity. Qed.

Definition C70_C72 := (C70_keysize, C70_rotors, C70_round_trip, C70_no_fixed_point, C70_seed_ignored, C71_state, C71_keysize, C71_stream, C71_round_trip,
  C71_round_trip_iv, C71_iv_cut_refuted, C71_hash, C72_keysize, C72_words, C72_round_trip, C72_round_trip_same_cut, C72_cut_refuted).
Print Assumptions C70_C72.
