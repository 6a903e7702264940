(** C64-C67: ZUC-128, ZUC-256, 128-EEA3, the buffering ZUC object and the ZUC MACs. *)
From Verif Require Import Base BlockModeModel WordModel WordLib StreamModel StreamSpec StreamProofs Sc2Proofs Sc3Model Sc3Spec Sc3Proofs Sc3Proofs2 Sc3Proofs3.
Set Implicit Arguments. Unset Strict Implicit.
Local Open Scope nat_scope.

(** * C64: the ciphers *)
Lemma z_same w s : emits s w 0 -> stream_roundtrip_same z_encrypt z_encrypt s s.
Proof.
  intros He calls Hc. destruct (z_run He Hc) as (s1 & E1). exists s1, (nofb_outs (ks_bytes w) 4 0 (map snd calls)).
  split; [exact E1|]. split; [rewrite nofb_outs_lengths, map_map; reflexivity|].
  intros calls2 H2 E. destruct (z_run He H2) as (s2 & E2). exists s2, (map snd calls). split; [|reflexivity].
  rewrite E2, E. f_equal. f_equal. apply nofb_outs_cancel.
Qed.
(** every call XORs the next whole words of the published keystream: what a call leaves of its last word is lost *)
Theorem C64_zuc128_stream key iv : length key = 16 -> length iv = 16 -> bytes_ok key -> bytes_ok iv ->
  exists st, zuc_new_cipher key iv = Ok st /\
    (forall calls, Forall scall_ok calls -> exists st',
       run_calls z_encrypt st calls = Ok (st', nofb_outs (ks_bytes (zuc_words key iv)) 4 0 (map snd calls))) /\
    stream_roundtrip_same z_encrypt z_encrypt st st.
Proof.
  intros Lk Li Hk Hi. destruct (z_new_emits Lk Li Hk Hi) as (s & E & He). exists s. split; [|split].
  - unfold zuc_new_cipher. rewrite Lk. exact E.
  - intros calls Hc. exact (z_run He Hc).
  - exact (z_same He).
Qed.
Print Assumptions C64_zuc128_stream.
Theorem C64_zuc256_stream key iv macbits : length key = 32 -> length iv = 23 -> bytes_ok key -> bytes_ok iv ->
  exists st, zuc256_new_cipher key iv macbits = Ok st /\
    (forall calls, Forall scall_ok calls -> exists st',
       run_calls z_encrypt st calls =
       Ok (st', nofb_outs (ks_bytes (zuc256_words (Nat.min 3 (macbits / 32)) key iv)) 4 0 (map snd calls))) /\
    stream_roundtrip_same z_encrypt z_encrypt st st.
Proof.
  intros Lk Li Hk Hi. destruct (@z256_new_emits key iv macbits Lk Li Hk Hi) as (s & E & _ & He). exists s. split; [|split].
  - unfold zuc256_new_cipher. rewrite Lk. exact E.
  - intros calls Hc. exact (z_run He Hc).
  - exact (z_same He).
Qed.
Print Assumptions C64_zuc256_stream.
(** calls of whole words, but for the last one, may be joined: together they XOR one stream *)
Theorem C64_zuc_aligned key iv calls last : length key = 16 -> length iv = 16 -> bytes_ok key -> bytes_ok iv ->
  Forall scall_ok (calls ++ [last]) -> Forall (fun x => length (snd x) mod 4 = 0) calls ->
  exists st st' outs, zuc_new_cipher key iv = Ok st /\ run_calls z_encrypt st (calls ++ [last]) = Ok (st', outs) /\
    concat outs = xor_stream (ks_bytes (zuc_words key iv)) 0 (concat (map snd (calls ++ [last]))).
Proof.
  intros Lk Li Hk Hi Hc Ha. destruct (C64_zuc128_stream Lk Li Hk Hi) as (st & E & R & _). destruct (R _ Hc) as (st' & E').
  eexists st, st', _. split; [exact E|]. split; [exact E'|]. rewrite map_app, concat_app. cbn [map concat]. rewrite app_nil_r.
  apply (@nofb_outs_aligned (ks_bytes (zuc_words key iv)) 4 (map snd calls) (snd last)); [lia|].
  apply Forall_map. exact Ha.
Qed.
Print Assumptions C64_zuc_aligned.
(** other cuts may not: two bytes at once and one by one *)
Theorem C64_zuc_cut_refuted :
  exists st, zuc_new_cipher (repeat 0%Z 16) (repeat 0%Z 16) = Ok st /\ ~ chunk_invariant z_encrypt st.
Proof.
  destruct (zuc_new_cipher (repeat 0%Z 16) (repeat 0%Z 16)) as [st| |] eqn:E; [|vm_compute in E; discriminate..].
  exists st. split; [reflexivity|]. intros H.
  destruct (H [([0%Z; 0%Z], [0%Z; 0%Z])] [([0%Z], [0%Z]); ([0%Z], [0%Z])]) as (s1 & s2 & o1 & o2 & E1 & E2 & Eo); [repeat constructor..|reflexivity|].
  vm_compute in E. injection E as <-. vm_compute in E1, E2. injection E1 as _ <-. injection E2 as _ <-. vm_compute in Eo. discriminate.
Qed.
Print Assumptions C64_zuc_cut_refuted.
(** a key of another length is an error; an IV of another length stops the program *)
Theorem C64_zuc_lengths key iv macbits :
  (length key <> 16 -> zuc_new_cipher key iv = Err) /\ (length key = 16 -> length iv <> 16 -> zuc_new_cipher key iv = Panic) /\
  (length key <> 32 -> zuc256_new_cipher key iv macbits = Err) /\
  (length key = 32 -> length iv <> 23 -> zuc256_new_cipher key iv macbits = Panic).
Proof.
  unfold zuc_new_cipher, zuc256_new_cipher, z_new, z256_new.
  destruct (Nat.eqb_spec (length key) 16); destruct (Nat.eqb_spec (length key) 32); destruct (Nat.eqb_spec (length iv) 16);
    destruct (Nat.eqb_spec (length iv) 23); cbn [negb]; repeat split; intros; auto; lia.
Qed.
Print Assumptions C64_zuc_lengths.
Example C64_instance :
  zuc_words (repeat 0%Z 16) (repeat 0%Z 16) 0 = 0x27bede74%Z /\ zuc256_words 0 (repeat 0%Z 32) (repeat 0%Z 23) 0 = 0x58d03ad6%Z.
Proof. split; vm_compute; reflexivity. Qed.

(** * C65: the buffering object *)
(** Write(in, out) puts the next complete words at the start of out, Sum appends the rest: together, however the data
    is cut, the XOR of the whole with the keystream *)
Theorem C65_zuc_buffer key iv calls data : length key = 16 -> length iv = 16 -> bytes_ok key -> bytes_ok iv -> room 0 calls ->
  exists z z' outs z'' tail, zb_new key iv = Ok z /\ run_calls zb_write z calls = Ok (z', outs) /\ rest_kept 0 calls outs /\
    zb_sum z' data = Ok (z'', data ++ tail) /\
    produced 0 calls outs ++ tail = xor_stream (ks_bytes (zuc_words key iv)) 0 (concat (map fst calls)).
Proof.
  intros Lk Li Hk Hi Hr. destruct (z_new_emits Lk Li Hk Hi) as (s & E & He). set (w := zuc_words key iv) in *. clearbody w.
  assert (HI : zbI w 0 (Zbuf s [])) by (split; [exact He|reflexivity]).
  destruct (zb_run HI Hr) as (z' & outs & E1 & H1 & K & P). destruct (zb_sum_ok data H1) as (z'' & E2).
  eexists _, z', outs, z'', _. split; [unfold zb_new; rewrite E; reflexivity|]. split; [exact E1|]. split; [exact K|]. split; [exact E2|]. exact P.
Qed.
Print Assumptions C65_zuc_buffer.
(** an out with less room than the complete words need stops the program *)
Theorem C65_zuc_noroom key iv calls src out : length key = 16 -> length iv = 16 -> bytes_ok key -> bytes_ok iv -> room 0 calls ->
  length out < ready (length (concat (map fst calls))) (length src) ->
  exists z z' outs, zb_new key iv = Ok z /\ run_calls zb_write z calls = Ok (z', outs) /\ zb_write z' (src, out) = Panic.
Proof.
  intros Lk Li Hk Hi Hr Ho. destruct (z_new_emits Lk Li Hk Hi) as (s & E & He). set (w := zuc_words key iv) in *. clearbody w.
  assert (HI : zbI w 0 (Zbuf s [])) by (split; [exact He|reflexivity]).
  destruct (zb_run HI Hr) as (z' & outs & E1 & H1 & _ & _). eexists _, z', outs. split; [unfold zb_new; rewrite E; reflexivity|].
  split; [exact E1|]. exact (zb_write_noroom H1 Ho).
Qed.
Print Assumptions C65_zuc_noroom.
(** an out as long as the in is not always enough: one byte after three gives a word *)
Example C65_instance : room 0 [([1; 2; 3]%Z, [])] /\ ready 3 1 = 4 /\ room 0 [([1; 2; 3]%Z, []); ([4; 5]%Z, [0; 0; 0; 0]%Z)].
Proof. cbn. lia. Qed.

(** * C66: the MACs *)
(** Zuc256Mac: any number of Writes, then Sum of nbits further bits *)
Theorem C66_zuc256_mac key iv macbits ws d nbits : length key = 32 -> length iv = 23 -> bytes_ok key -> bytes_ok iv ->
  Forall bytes_ok ws -> bytes_ok d -> nbits <= 8 * length d ->
  let n := if macbits <? 64 then 1 else if macbits =? 64 then 2 else 4 in
  exists m m', zn_new key iv macbits = Ok m /\
    zn_sum (fold_left zn_write ws m) d nbits =
    Ok (m', stw_be 4 (zuc256_mac n (zuc256_words (Nat.min 3 n) key iv) (firstn (8 * length (concat ws) + nbits) (msg_bits (concat ws ++ d))))).
Proof.
  intros Lk Li Hk Hi Hws Hd Hn n.
  assert (En : z256_macbits macbits / 32 = n).
  { unfold z256_macbits, n. destruct (Nat.ltb_spec macbits 32) as [A|A]; destruct (Nat.ltb_spec macbits 64) as [B|B]; try lia; auto.
    - destruct (Nat.ltb_spec 64 macbits); [lia|]. symmetry. apply Nat.div_unique with (macbits - 32); lia.
    - destruct (Nat.ltb_spec 64 macbits); destruct (Nat.eqb_spec macbits 64); try lia; subst; reflexivity. }
  destruct (@zn_new_ok key iv macbits Lk Li Hk Hi) as (m & E & HI & Hw). cbv zeta in *. rewrite En in *.
  set (w := zuc256_words (Nat.min 3 n) key iv) in *. clearbody w n.
  assert (HI2 := writes_ok Hw HI Hws). cbn [app] in HI2.
  destruct (zn_sum_ok Hw HI2 Hd Hn) as (m' & Es). exists m, m'. split; [exact E|]. exact Es.
Qed.
Print Assumptions C66_zuc256_mac.
(** ZucMac and EiaGenerateMac compute 128-EIA3 on the keystream with its first word taken twice *)
Definition first_twice (w : nat -> Z) (i : nat) : Z := match i with O => w 0 | S i' => w i' end.
Lemma dbl_twice w m : eia3 (dbl w) m = eia3 (first_twice w) m.
Proof.
  assert (E : forall i, dbl w i = first_twice w i) by (intros [|i]; reflexivity).
  assert (A : forall x, ks_at (dbl w) x = ks_at (first_twice w) x).
  { intros x. unfold ks_at. f_equal. apply map_ext. intros j. unfold ks_bit. rewrite E. reflexivity. }
  unfold eia3, mac_sum. rewrite A, E. do 3 f_equal. apply map_ext. intros. apply A.
Qed.
Theorem C66_zuc_mac key iv ws d nbits : length key = 16 -> length iv = 16 -> bytes_ok key -> bytes_ok iv ->
  Forall bytes_ok ws -> bytes_ok d -> nbits <= 8 * length d ->
  exists m m', zm_new key iv = Ok m /\
    zm_sum (fold_left zm_write ws m) d nbits =
    Ok (m', be_bytes 4 (eia3 (first_twice (zuc_words key iv)) (firstn (8 * length (concat ws) + nbits) (msg_bits (concat ws ++ d))))).
Proof.
  intros Lk Li Hk Hi Hws Hd Hn. destruct (zm_new_ok Lk Li Hk Hi) as (m & E & HI & Hw).
  set (w := zuc_words key iv) in *. clearbody w.
  assert (HI2 := zm_writes_ok Hw HI Hws). cbn [app] in HI2.
  destruct (zm_sum_ok Hw HI2 Hd Hn) as (m' & Es). exists m, m'. split; [exact E|]. rewrite <- dbl_twice. exact Es.
Qed.
Print Assumptions C66_zuc_mac.
Theorem C66_eia_mac data nbits key count bearer direction : length key = 16 -> bytes_ok key -> nbits <= 32 * length data ->
  exists t, eia_generate_mac data nbits key count bearer direction = Ok t /\
    t = eia3 (first_twice (zuc_words key (eia3_iv count (bearer mod 32) (direction mod 2)))) (firstn nbits (msg_bits (stw_be 4 data))).
Proof.
  intros Lk Hk Hn. unfold eia_generate_mac. rewrite eia_iv_eq.
  destruct (@eia3_iv_ok count (bearer mod 32) (direction mod 2)) as [Li Hi]; [apply Z.mod_pos_bound; lia..|].
  assert (Ld : length (stw_be 4 data) = 4 * length data).
  { unfold stw_be. clear. induction data as [|x l IH]; auto. cbn [map concat length]. rewrite app_length, be_bytes_length, IH. lia. }
  assert (Hd : bytes_ok (stw_be 4 data)).
  { unfold stw_be. clear. induction data as [|x l IH]; [constructor|]. cbn [map concat]. apply bytes_ok_app. split; [apply be_bytes_ok|exact IH]. }
  destruct (@C66_zuc_mac key (eia3_iv count (bearer mod 32) (direction mod 2)) [] (stw_be 4 data) nbits) as (m & m' & E1 & E2); auto; [lia|].
  rewrite E1. cbn [rbind]. cbn [fold_left concat app length] in E2. rewrite Nat.mul_0_r in E2. cbn [Nat.add] in E2. rewrite E2. cbn [rbind].
  eexists. split; [reflexivity|]. rewrite be_val_bytes. apply Z.mod_small. apply eia3_range. intros [|i].
  - destruct (zm_new_ok Lk Li Hk Hi) as (_ & _ & _ & Hw). apply Hw.
  - destruct (zm_new_ok Lk Li Hk Hi) as (_ & _ & _ & Hw). apply Hw.
Qed.
Print Assumptions C66_eia_mac.
(** so it is not 128-EIA3: the first test of the standard (key 0, one zero bit) has the answer c8a9595e *)
Theorem C66_eia3_refuted :
  eia_generate_mac [0%Z] 1 (repeat 0%Z 16) 0 0 0 = Ok 0x4efd3e32%Z /\
  eia3 (zuc_words (repeat 0%Z 16) (eia3_iv 0 0 0)) [false] = 0xc8a9595e%Z.
Proof. split; vm_compute; reflexivity. Qed.
Print Assumptions C66_eia3_refuted.
(** Reset does not lead back to the start: the tag of the empty message before and after *)
Theorem C66_reset_refuted : exists m m1 t1 m2 t2,
  zm_new (repeat 0%Z 16) (repeat 0%Z 16) = Ok m /\ zm_sum m [] 0 = Ok (m1, t1) /\ zm_sum (zm_reset m) [] 0 = Ok (m2, t2) /\ t1 <> t2.
Proof.
  destruct (zm_new (repeat 0%Z 16) (repeat 0%Z 16)) as [m| |] eqn:E; [|vm_compute in E; discriminate..].
  exists m. vm_compute in E. injection E as <-. do 4 eexists. split; [reflexivity|]. split; [vm_compute; reflexivity|]. split; [vm_compute; reflexivity|].
  discriminate.
Qed.
Print Assumptions C66_reset_refuted.
(** Sum changes the object: a second Sum of the same gives another tag *)
Theorem C66_sum_twice_refuted : exists m m1 t1 m2 t2,
  zm_new (repeat 0%Z 16) (repeat 0%Z 16) = Ok m /\ zm_sum m [] 0 = Ok (m1, t1) /\ zm_sum m1 [] 0 = Ok (m2, t2) /\ t1 <> t2.
Proof.
  destruct (zm_new (repeat 0%Z 16) (repeat 0%Z 16)) as [m| |] eqn:E; [|vm_compute in E; discriminate..].
  exists m. vm_compute in E. injection E as <-. do 4 eexists. split; [reflexivity|]. split; [vm_compute; reflexivity|]. split; [vm_compute; reflexivity|].
  discriminate.
Qed.
Print Assumptions C66_sum_twice_refuted.
(** the 32-bit tag of 400 zero bits published with ZUC-256 *)
Example C66_instance :
  zuc256_mac 1 (zuc256_words 1 (repeat 0%Z 32) (repeat 0%Z 23)) (repeat false 400) = [0x9b972a74%Z].
Proof. vm_compute. reflexivity. Qed.

(** * C67: 128-EEA3 *)
(** the first nbits bits are XORed with the keystream of the standard, the other bits of the last word are cleared, the
    words after it stay *)
Theorem C67_eea3 win wout nbits key count bearer direction : length key = 16 -> bytes_ok key ->
  let n := (nbits + 31) / 32 in n <= length win -> n <= length wout ->
  exists out, eea_encrypt win wout nbits key count bearer direction = Ok out /\ length out = length wout /\
    (forall i, i < nbits -> wbit out i =
       xorb (wbit win i) (ks_bit (zuc_words key (eea3_iv count (bearer mod 32) (direction mod 2))) i)) /\
    (forall i, nbits <= i < 32 * n -> wbit out i = false) /\ (forall j, n <= j -> out.[j] = wout.[j]).
Proof.
  intros Lk Hk n Ln Lo. unfold eea_encrypt. fold n. rewrite Lk, eea_iv_eq. change (16 <? 16) with false. cbv iota.
  destruct (Nat.ltb_spec (length wout) n); [lia|]. destruct (Nat.ltb_spec (length win) n); [lia|].
  destruct (@eea3_iv_ok count (bearer mod 32) (direction mod 2)) as [Li Hi]; [apply Z.mod_pos_bound; lia..|].
  destruct (z_new_emits Lk Li Hk Hi) as (s & E & He). unfold z_new in E. rewrite Lk, Li in E. cbn [Nat.eqb negb] in E. injection E as ->.
  set (w := zuc_words key (eea3_iv count (bearer mod 32) (direction mod 2))) in *. clearbody w.
  destruct (z_words_ok n He) as (s' & -> & _). cbn [snd].
  set (ks := map (fun i => w (0 + i)) (seq 0 n)). assert (Lks : length ks = n) by (unfold ks; rewrite map_length, seq_length; auto).
  assert (L0 : length (ks ++ skipn n wout) = length wout) by (rewrite app_length, skipn_length; lia).
  destruct (@upd_loop (fun x i => Z.lxor x win.[i]) n (ks ++ skipn n wout) ltac:(lia)) as [L1 N1]. cbv zeta in *.
  set (o := fold_left _ (seq 0 n) _) in *. exists (eea_mask nbits o). split; [reflexivity|].
  assert (Ln' : (nbits + 31) / 32 <= length o) by (fold n; lia).
  assert (Dn : forall i, i < 32 * n -> i / 32 < n) by (intros i Hlt; apply Nat.div_lt_upper_bound; lia).
  assert (Nn : nbits <= 32 * n) by (unfold n; pose proof (Nat.div_mod (nbits + 31) 32 ltac:(lia)); pose proof (Nat.mod_upper_bound (nbits + 31) 32 ltac:(lia)); lia).
  split; [|split; [|split]].
  - rewrite (proj2 (eea_mask_rest Ln' (le_n _))). lia.
  - intros i Hlt. rewrite eea_mask_bit by (auto; fold n; lia). destruct (Nat.ltb_spec i nbits); [|lia].
    unfold wbit. rewrite N1. destruct (Nat.ltb_spec (i / 32) n) as [Hq|Hq]; [|exfalso; specialize (Dn i); lia].
    rewrite Z.lxor_spec, xorb_comm. f_equal. unfold ks_bit. f_equal. rewrite app_nth1 by lia.
    unfold ks. rewrite (nth_indep _ 0%Z (w (0 + 0))) by (rewrite map_length, seq_length; lia).
    rewrite (map_nth (fun i => w (0 + i))). rewrite seq_nth by lia. reflexivity.
  - intros i Hr. rewrite eea_mask_bit by (auto; fold n; lia). destruct (Nat.ltb_spec i nbits); [lia|reflexivity].
  - intros j Hj. rewrite (proj1 (eea_mask_rest Ln' Hj)), N1. destruct (Nat.ltb_spec j n); [lia|].
    rewrite app_nth2 by lia. rewrite Sc2Proofs.nth_skipn', Lks. f_equal. lia.
Qed.
Print Assumptions C67_eea3.
(** encrypting the result with the same key and numbers gives the nbits bits back *)
Theorem C67_eea3_roundtrip win wout wout2 nbits key count bearer direction : length key = 16 -> bytes_ok key ->
  let n := (nbits + 31) / 32 in n <= length win -> n <= length wout -> n <= length wout2 ->
  exists ct pt, eea_encrypt win wout nbits key count bearer direction = Ok ct /\
    eea_encrypt ct wout2 nbits key count bearer direction = Ok pt /\ forall i, i < nbits -> wbit pt i = wbit win i.
Proof.
  intros Lk Hk n H1 H2 H3. destruct (@C67_eea3 win wout nbits key count bearer direction Lk Hk H1 H2) as (ct & E1 & L1 & B1 & _).
  destruct (@C67_eea3 ct wout2 nbits key count bearer direction Lk Hk ltac:(fold n; lia) H3) as (pt & E2 & L2 & B2 & _).
  exists ct, pt. split; [exact E1|]. split; [exact E2|]. intros i Hi. rewrite B2, B1 by auto.
  rewrite xorb_assoc, xorb_nilpotent, xorb_false_r. reflexivity.
Qed.
Print Assumptions C67_eea3_roundtrip.
(** with out = in the data is lost: whatever it was, zeros *)
Theorem C67_eea3_inplace_refuted buf nbits key count bearer direction : length key = 16 -> bytes_ok key ->
  let n := (nbits + 31) / 32 in n <= length buf ->
  exists out, eea_encrypt_inplace buf nbits key count bearer direction = Ok out /\ length out = length buf /\
    forall i, i < 32 * n -> wbit out i = false.
Proof.
  intros Lk Hk n Ln. unfold eea_encrypt_inplace. fold n. rewrite Lk. change (16 <? 16) with false. cbv iota. destruct (Nat.ltb_spec (length buf) n); [lia|].
  rewrite eea_iv_eq. destruct (@eea3_iv_ok count (bearer mod 32) (direction mod 2)) as [Li Hi]; [apply Z.mod_pos_bound; lia..|].
  destruct (z_new_emits Lk Li Hk Hi) as (s & E & He). unfold z_new in E. rewrite Lk, Li in E. cbn [Nat.eqb negb] in E. injection E as ->.
  destruct (z_words_ok n He) as (s' & -> & _). cbn [snd]. set (ks := map _ (seq 0 n)). assert (Lks : length ks = n) by (unfold ks; rewrite map_length, seq_length; auto).
  assert (L0 : length (ks ++ skipn n buf) = length buf) by (rewrite app_length, skipn_length; lia).
  destruct (@upd_loop (fun x i => Z.lxor x x) n (ks ++ skipn n buf) ltac:(lia)) as [L1 N1]. cbv zeta in *.
  set (o := fold_left _ (seq 0 n) _) in *. exists (eea_mask nbits o). split; [reflexivity|].
  assert (Ln' : (nbits + 31) / 32 <= length o) by (fold n; lia).
  split; [rewrite (proj2 (eea_mask_rest Ln' (le_n _))); lia|].
  intros i Hlt. rewrite eea_mask_bit by (auto; fold n; lia). destruct (i <? nbits); [|reflexivity].
  unfold wbit. rewrite N1. assert (i / 32 < n) by (apply Nat.div_lt_upper_bound; lia). destruct (Nat.ltb_spec (i / 32) n); [|lia].
  rewrite Z.lxor_nilpotent. apply Z.testbit_0_l.
Qed.
Print Assumptions C67_eea3_inplace_refuted.
(** five bits of a word *)
Example C67_instance : eea_encrypt [0%Z] [5%Z; 7%Z] 5 (repeat 0%Z 16) 0 0 0 = Ok [0x20000000%Z; 7%Z].
Proof. vm_compute. reflexivity. Qed.
