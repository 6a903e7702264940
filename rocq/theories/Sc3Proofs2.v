(** ZUC: key loading, the stream objects, the buffering object and 128-EEA3. *)
From Verif Require Import Base BlockModeModel BlockModeProofs WordModel BlkSpec WordLib StreamModel StreamSpec StreamProofs ToolBytesProofs Sc1Proofs Sc3Model Sc3Spec Sc3Proofs.
Set Implicit Arguments. Unset Strict Implicit.
Local Open Scope nat_scope.

Lemma nth_byte (l : bytes) i : bytes_ok l -> is_byte l.[i].
Proof.
  intros H. destruct (Nat.lt_ge_cases i (length l)); [|rewrite nth_overflow by lia; unfold is_byte; lia].
  unfold bytes_ok in H. rewrite Forall_forall in H. apply H, nth_In. lia.
Qed.
Lemma makeu31_eq k d iv : is_byte k -> is_byte iv -> (1 <= d < 2 ^ 15)%Z ->
  makeu31 k d iv = (k * 2 ^ 23 + d * 2 ^ 8 + iv)%Z /\ is_cell (makeu31 k d iv).
Proof.
  unfold is_byte, makeu31, is_cell, p31. intros Hk Hi Hd. rewrite !wshl_mul by lia. change (32 - 23)%Z with 9%Z. change (32 - 8)%Z with 24%Z.
  change (2 ^ 15)%Z with 32768%Z in *.
  rewrite !Z.mod_small by (change (2 ^ 9)%Z with 512%Z; change (2 ^ 24)%Z with 16777216%Z; lia).
  rewrite lor_disj by (change (2 ^ 8)%Z with 256%Z; change (2 ^ 23)%Z with 8388608%Z; lia).
  replace (k * 2 ^ 23 + d * 2 ^ 8)%Z with ((k * 2 ^ 15 + d) * 2 ^ 8)%Z by ring.
  rewrite lor_disj by (change (2 ^ 8)%Z with 256%Z; lia).
  change (2 ^ 8)%Z with 256%Z; change (2 ^ 15)%Z with 32768%Z; change (2 ^ 31)%Z with 2147483648%Z. lia.
Qed.
Lemma kd_ok i : i < 16 -> (1 <= zuc_KD.[i] < 2 ^ 15)%Z.
Proof.
  intros H. change (2 ^ 15)%Z with 32768%Z. do 16 (destruct i as [|i]; [cbn; lia|]). lia.
Qed.
Lemma z_load_eq key iv : bytes_ok key -> bytes_ok iv -> z_load key iv = zuc_cells key iv /\ cells_ok (zuc_cells key iv).
Proof.
  intros Hk Hi. assert (E : z_load key iv = zuc_cells key iv).
  { apply map_ext_in. intros i Hin. apply in_seq in Hin. apply makeu31_eq; try (apply nth_byte; auto). apply kd_ok. lia. }
  split; auto. rewrite <- E. split; [reflexivity|]. apply Forall_forall. intros x Hx. apply in_map_iff in Hx as (i & <- & Hin). apply in_seq in Hin.
  apply makeu31_eq; try (apply nth_byte; auto). apply kd_ok. lia.
Qed.
Lemma makeu31_4_eq a b c d : is_byte a -> (1 <= b < 2 ^ 7)%Z -> is_byte c -> is_byte d ->
  makeu31_4 a b c d = (a * 2 ^ 23 + b * 2 ^ 16 + c * 2 ^ 8 + d)%Z /\ is_cell (makeu31_4 a b c d).
Proof.
  unfold is_byte, makeu31_4, is_cell, p31. intros Ha Hb Hc Hd. rewrite !wshl_mul by lia.
  change (32 - 23)%Z with 9%Z. change (32 - 16)%Z with 16%Z. change (32 - 8)%Z with 24%Z. change (2 ^ 7)%Z with 128%Z in *.
  rewrite !Z.mod_small by (change (2 ^ 9)%Z with 512%Z; change (2 ^ 16)%Z with 65536%Z; change (2 ^ 24)%Z with 16777216%Z; lia).
  rewrite lor_disj by (change (2 ^ 16)%Z with 65536%Z; change (2 ^ 23)%Z with 8388608%Z; lia).
  replace (a * 2 ^ 23 + b * 2 ^ 16)%Z with ((a * 2 ^ 7 + b) * 2 ^ 16)%Z by ring.
  rewrite lor_disj by (change (2 ^ 16)%Z with 65536%Z; change (2 ^ 8)%Z with 256%Z; lia).
  replace ((a * 2 ^ 7 + b) * 2 ^ 16 + c * 2 ^ 8)%Z with ((a * 2 ^ 15 + b * 2 ^ 8 + c) * 2 ^ 8)%Z by ring.
  rewrite lor_disj by (change (2 ^ 8)%Z with 256%Z; lia).
  change (2 ^ 8)%Z with 256%Z; change (2 ^ 15)%Z with 32768%Z; change (2 ^ 31)%Z with 2147483648%Z. change (2 ^ 7)%Z with 128%Z. lia.
Qed.
Lemma iv6_bound iv j : (0 <= iv6 iv j < 64)%Z. Proof. apply Z.mod_pos_bound. lia. Qed.
Lemma hi2_eq a b : is_byte a -> is_byte b -> Z.lor (wshl 8 (Z.land a 3) 4) (Z.shiftr b 4) = (a mod 4 * 16 + b / 16)%Z.
Proof.
  unfold is_byte. intros Ha Hb. rewrite Z.shiftr_div_pow2 by lia. change 3%Z with (Z.ones 2). rewrite Z.land_ones by lia. rewrite wshl_mul by lia.
  change (2 ^ (8 - 4))%Z with 16%Z. change (2 ^ 2)%Z with 4%Z. rewrite (Z.mod_small (a mod 4)) by lia. apply lor_disj; [lia|]. change (2 ^ 4)%Z with 16%Z. lia.
Qed.
Lemma hi4_eq a b : is_byte a -> is_byte b -> Z.lor (wshl 8 (Z.land a 15) 2) (Z.shiftr b 6) = (a mod 16 * 4 + b / 64)%Z.
Proof.
  unfold is_byte. intros Ha Hb. rewrite Z.shiftr_div_pow2 by lia. change 15%Z with (Z.ones 4). rewrite Z.land_ones by lia. rewrite wshl_mul by lia.
  change (2 ^ (8 - 2))%Z with 64%Z. change (2 ^ 4)%Z with 16%Z. rewrite (Z.mod_small (a mod 16)) by lia. apply lor_disj; [lia|]. change (2 ^ 6)%Z with 64%Z. change (2 ^ 2)%Z with 4%Z. lia.
Qed.
Lemma slice6 iv : length iv = 23 -> slice 17 6 iv = [iv.[17]; iv.[18]; iv.[19]; iv.[20]; iv.[21]; iv.[22]].
Proof. intros H. do 23 (destruct iv as [|? iv]; [discriminate|]). reflexivity. Qed.
Lemma iv6_eq iv : length iv = 23 -> bytes_ok iv ->
  iv6 iv 17 = Z.shiftr iv.[17] 2 /\
  iv6 iv 18 = Z.lor (wshl 8 (Z.land iv.[17] 3) 4) (Z.shiftr iv.[18] 4) /\
  iv6 iv 19 = Z.lor (wshl 8 (Z.land iv.[18] 15) 2) (Z.shiftr iv.[19] 6) /\
  iv6 iv 20 = Z.land iv.[19] 0x3f /\
  iv6 iv 21 = Z.shiftr iv.[20] 2 /\
  iv6 iv 22 = Z.lor (wshl 8 (Z.land iv.[20] 3) 4) (Z.shiftr iv.[21] 4) /\
  iv6 iv 23 = Z.lor (wshl 8 (Z.land iv.[21] 15) 2) (Z.shiftr iv.[22] 6) /\
  iv6 iv 24 = Z.land iv.[22] 0x3f.
Proof.
  intros L H. unfold iv6. rewrite (slice6 L).
  pose proof (@nth_byte iv 17 H) as A. pose proof (@nth_byte iv 18 H) as B. pose proof (@nth_byte iv 19 H) as C.
  pose proof (@nth_byte iv 20 H) as D. pose proof (@nth_byte iv 21 H) as E. pose proof (@nth_byte iv 22 H) as F.
  rewrite !hi2_eq, !hi4_eq by auto. rewrite !Z.shiftr_div_pow2 by lia. change 0x3f%Z with (Z.ones 6). rewrite !Z.land_ones by lia.
  unfold is_byte in *. revert A B C D E F. generalize iv.[17] iv.[18] iv.[19] iv.[20] iv.[21] iv.[22]. clear. intros a b c d e f A B C D E F.
  unfold be_val. cbn [rev app le_val].
  repeat match goal with |- context [(2 ^ ?k)%Z] => let v := eval vm_compute in (2 ^ k)%Z in change (2 ^ k)%Z with v end.
  repeat split; lia.
Qed.
Lemma lor_nib a m k : (0 <= k)%Z -> (0 <= a < 2 ^ k)%Z -> Z.lor (m * 2 ^ k) a = (m * 2 ^ k + a)%Z.
Proof. intros. apply lor_disj; auto. Qed.
Lemma z256_load_eq key iv i : i < 4 -> bytes_ok key -> bytes_ok iv -> length iv = 23 ->
  z256_load key iv (nth i z256_D []) = zuc256_cells key iv (nth i z256_D []) /\ cells_ok (zuc256_cells key iv (nth i z256_D [])).
Proof.
  intros Hi Hk Hv L. destruct (iv6_eq L Hv) as (E17 & E18 & E19 & E20 & E21 & E22 & E23 & E24).
  assert (D : exists d0 d2, nth i z256_D [] = [d0;0x2F;d2;0x2A;0x6D;0x40;0x40;0x40;0x40;0x40;0x40;0x40;0x40;0x52;0x10;0x30]%Z /\ (1 <= d0 < 2 ^ 7 /\ 1 <= d2 < 2 ^ 7)%Z).
  { change (2 ^ 7)%Z with 128%Z. do 4 (destruct i as [|i]; [eexists _, _; split; [reflexivity|lia]|]). lia. }
  destruct D as (d0 & d2 & -> & B0 & B2). unfold z256_load, zuc256_cells. cbv zeta. cbn [nth].
  rewrite <- E17, <- E18, <- E19, <- E20, <- E21, <- E22, <- E23, <- E24.
  assert (G : forall j, Z.lor 64 (iv6 iv j) = (64 + iv6 iv j)%Z /\ (1 <= 64 + iv6 iv j < 2 ^ 7)%Z).
  { intros j. pose proof (iv6_bound iv j). split; [exact (@lor_disj 1 (iv6 iv j) 6 ltac:(lia) ltac:(lia))|change (2 ^ 7)%Z with 128%Z; lia]. }
  assert (K : forall j, is_byte key.[j]) by (intros; apply nth_byte; auto).
  assert (V : forall j, is_byte iv.[j]) by (intros; apply nth_byte; auto).
  pose proof (K 31) as K31. unfold is_byte in K31.
  assert (G14 : Z.lor 16 (Z.shiftr key.[31] 4) = (16 + key.[31] / 16)%Z /\ (1 <= 16 + key.[31] / 16 < 2 ^ 7)%Z).
  { rewrite Z.shiftr_div_pow2 by lia. change (2 ^ 4)%Z with 16%Z. change (2 ^ 7)%Z with 128%Z.
    split; [|lia]. apply (@lor_disj 1 (key.[31] / 16) 4); change (2 ^ 4)%Z with 16%Z; lia. }
  assert (G15 : Z.lor 48 (Z.land key.[31] 15) = (48 + key.[31] mod 16)%Z /\ (1 <= 48 + key.[31] mod 16 < 2 ^ 7)%Z).
  { change 15%Z with (Z.ones 4). rewrite Z.land_ones by lia. change (2 ^ 4)%Z with 16%Z. change (2 ^ 7)%Z with 128%Z.
    split; [|lia]. apply (@lor_disj 3 (key.[31] mod 16) 4); change (2 ^ 4)%Z with 16%Z; lia. }
  rewrite (proj1 G14), (proj1 G15). rewrite !(proj1 (G _)).
  assert (X : forall a b c d, is_byte a -> (1 <= b < 2 ^ 7)%Z -> is_byte c -> is_byte d ->
    makeu31_4 a b c d = (a * 2 ^ 23 + b * 2 ^ 16 + c * 2 ^ 8 + d)%Z /\ is_cell (a * 2 ^ 23 + b * 2 ^ 16 + c * 2 ^ 8 + d)%Z).
  { intros a b c d Ha Hb Hc Hd. destruct (makeu31_4_eq Ha Hb Hc Hd) as [Q W]. split; auto. rewrite <- Q. auto. }
  assert (C7 : (1 <= 0x2F < 2 ^ 7 /\ 1 <= 0x2A < 2 ^ 7 /\ 1 <= 0x6D < 2 ^ 7 /\ 1 <= 0x52 < 2 ^ 7)%Z) by (change (2 ^ 7)%Z with 128%Z; lia).
  destruct C7 as (C1 & C3 & C4 & C13). pose proof (proj2 G14) as C14. pose proof (proj2 G15) as C15.
  assert (GB : forall j, (1 <= 64 + iv6 iv j < 2 ^ 7)%Z) by apply G.
  clear G G14 G15 E17 E18 E19 E20 E21 E22 E23 E24.
  split.
  - assert (CE : forall (x y : Z) a b, x = y -> a = b -> x :: a = y :: b) by (intros; subst; auto). repeat (apply CE; [apply X; auto|]). reflexivity.
  - split; [reflexivity|]. repeat (apply Forall_cons; [apply X; auto|]). constructor.
Qed.

(** [s] puts out the words w p, w (p+1), ... *)
Definition emits (s : zst) (w : nat -> Z) (p : nat) : Prop := zok s /\ forall i, sp_out (Nat.iter i sp_next s) = w (p + i).
Lemma emits_step s w p : emits s w p -> exists s', z_word s = (s', w p) /\ emits s' w (S p).
Proof.
  intros [H E]. exists (sp_next s). rewrite (z_word_eq H). specialize (E 0) as E0. cbn [Nat.iter nat_rect] in E0. rewrite Nat.add_0_r in E0.
  change (Nat.iter 0 sp_next s) with s in E0. rewrite E0. split; auto. split; [apply sp_next_ok; auto|].
  intros i. specialize (E (i + 1)). rewrite <- (iter_plus sp_next i 1) in E. change (Nat.iter 1 sp_next s) with (sp_next s) in E. rewrite E. f_equal. lia.
Qed.
Lemma setup_emits l : cells_ok l -> emits (z_setup l) (sp_words l) 0.
Proof. intros H. split; [apply z_setup_eq; auto|]. intros i. rewrite sp_words_eq by auto. reflexivity. Qed.
Lemma z_new_emits key iv : length key = 16 -> length iv = 16 -> bytes_ok key -> bytes_ok iv ->
  exists s, z_new key iv = Ok s /\ emits s (zuc_words key iv) 0.
Proof.
  intros Lk Li Hk Hi. exists (z_init key iv). unfold z_new. rewrite Lk, Li. split; [reflexivity|].
  unfold z_init. destruct (z_load_eq Hk Hi) as [-> C]. apply setup_emits; auto.
Qed.
Lemma z256_D_idx mb : nth (if mb / 32 <? 3 then mb / 32 else 3) z256_D [] = zuc256_d (Nat.min 3 (mb / 32)).
Proof.
  unfold zuc256_d. destruct (Nat.ltb_spec (mb / 32) 3) as [H|H].
  - rewrite Nat.min_r by lia. destruct (mb / 32) as [|[|[|n]]]; try reflexivity. lia.
  - rewrite Nat.min_l by lia. reflexivity.
Qed.
Lemma z256_new_emits key iv mb : length key = 32 -> length iv = 23 -> bytes_ok key -> bytes_ok iv ->
  exists s, z256_new key iv mb = Ok s /\ s = z256_init key iv mb /\ emits s (zuc256_words (Nat.min 3 (mb / 32)) key iv) 0.
Proof.
  intros Lk Li Hk Hi. exists (z256_init key iv mb). unfold z256_new. rewrite Lk, Li. split; [reflexivity|]. split; [reflexivity|].
  unfold z256_init, zuc256_words. rewrite z256_D_idx.
  assert (E : zuc256_d (Nat.min 3 (mb / 32)) = nth (Nat.min 3 (mb / 32)) z256_D []).
  { unfold zuc256_d. assert (Nat.min 3 (mb / 32) <= 3) by lia. destruct (Nat.min 3 (mb / 32)) as [|[|[|[|n]]]]; try reflexivity. lia. }
  assert (Hlt : Nat.min 3 (mb / 32) < 4) by lia. rewrite E. destruct (z256_load_eq Hlt Hk Hi Li) as [-> C]. apply setup_emits; auto.
Qed.

Lemma xorl_word w p src : length src <= 4 -> xorl src (be_bytes 4 (w p)) = xor_stream (ks_bytes w) (p * 4) src.
Proof.
  intros H. rewrite (@xorl_stream (ks_bytes w) (be_bytes 4 (w p)) src (p * 4)).
  - rewrite be_bytes_length, firstn_all2 by lia. reflexivity.
  - rewrite be_bytes_length. intros i Hi. unfold ks_bytes. rewrite Nat.add_comm, Nat.div_add, Nat.mod_add by lia.
    rewrite Nat.div_small, Nat.mod_small by lia. reflexivity.
Qed.
Lemma z_crypt_ok w n : forall s p src, emits s w p -> length src / 4 = n ->
  exists s', z_crypt n s src = (s', xor_stream (ks_bytes w) (p * 4) src) /\ emits s' w (p + nblocks 4 src).
Proof.
  induction n as [|n IH]; intros s p src He Hn; cbn [z_crypt].
  - assert (length src < 4) by (apply Nat.div_small_iff; lia).
    destruct (Nat.ltb_spec 0 (length src)) as [H0|H0].
    + destruct (emits_step He) as (s' & -> & He'). exists s'. rewrite xorl_word by lia. split; auto.
      replace (nblocks 4 src) with 1. { rewrite Nat.add_comm. auto. }
      unfold nblocks. replace (length src + 4 - 1) with (length src - 1 + 1 * 4) by lia. rewrite Nat.div_add, Nat.div_small by lia. lia.
    + exists s. destruct src; [|cbn in H0; lia]. split; auto. cbn. rewrite Nat.add_0_r. auto.
  - destruct (emits_step He) as (s1 & -> & He1).
    assert (4 <= length src). { pose proof (Nat.div_mod (length src) 4 ltac:(lia)). lia. }
    assert (D : length (skipn 4 src) / 4 = n).
    { rewrite skipn_length. replace (length src) with (length src - 4 + 1 * 4) in Hn by lia. rewrite Nat.div_add in Hn by lia. lia. }
    destruct (IH s1 (S p) (skipn 4 src) He1 D) as (s2 & -> & He2). exists s2.
    rewrite xorl_word by (rewrite firstn_length; lia). split.
    + f_equal. rewrite <- (firstn_skipn 4 src) at 3. rewrite xor_stream_app. rewrite firstn_length, Nat.min_l by lia. f_equal. f_equal. lia.
    + replace (p + nblocks 4 src) with (S p + nblocks 4 (skipn 4 src)); auto. unfold nblocks. rewrite skipn_length.
      replace (length src + 4 - 1) with (length src - 4 + 4 - 1 + 1 * 4) by lia. rewrite Nat.div_add by lia. lia.
Qed.
Lemma z_encrypt_ok w s p x : emits s w p -> scall_ok x ->
  exists s', z_encrypt s x = Ok (s', xor_stream (ks_bytes w) (p * 4) (snd x)) /\ emits s' w (p + nblocks 4 (snd x)).
Proof.
  intros He Hx. unfold z_encrypt, scall_ok in *. destruct (Nat.ltb_spec (length (fst x)) (length (snd x))); [lia|].
  destruct (@z_crypt_ok w (length (snd x) / 4) s p (snd x) He eq_refl) as (s' & -> & H'). eauto.
Qed.
Lemma z_run w calls : forall s p, emits s w p -> Forall scall_ok calls ->
  exists s', run_calls z_encrypt s calls = Ok (s', nofb_outs (ks_bytes w) 4 p (map snd calls)).
Proof.
  induction calls as [|x calls IH]; intros s p He Hc; [exists s; reflexivity|].
  apply Forall_cons_iff in Hc as [Hx Hc]. destruct (z_encrypt_ok He Hx) as (s1 & E & H1). destruct (IH s1 _ H1 Hc) as (s2 & E2).
  cbn [run_calls]. rewrite E. cbn [rbind]. rewrite E2. exists s2. reflexivity.
Qed.

(** * The buffering object *)
Definition zbI (w : nat -> Z) (t : nat) (z : zbuf) : Prop := emits (zb_s z) w (t / 4) /\ length (zb_b z) = t mod 4.
Lemma ready_eq t n : ready t n = 4 * ((t mod 4 + n) / 4).
Proof.
  unfold ready. pose proof (Nat.div_mod t 4 ltac:(lia)). replace (t + n) with (t mod 4 + n + (t / 4) * 4) by lia.
  rewrite Nat.div_add by lia. lia.
Qed.
Lemma div4_add t n : (t + n) / 4 = t / 4 + (t mod 4 + n) / 4.
Proof.
  pose proof (Nat.div_mod t 4 ltac:(lia)). replace (t + n) with (t mod 4 + n + (t / 4) * 4) at 1 by lia.
  rewrite Nat.div_add by lia. lia.
Qed.
Lemma zb_step w p s src out : emits s w p ->
  let n := length src / 4 * 4 in
  n <= length out ->
  exists s', (if 4 <=? length src then
        rbind (z_encrypt s (out, firstn n src)) (fun '(s, o) => Ok (Zbuf s (skipn n src), o ++ skipn n out))
      else Ok (Zbuf s src, out)) = Ok (Zbuf s' (skipn n src), xor_stream (ks_bytes w) (p * 4) (firstn n src) ++ skipn n out) /\
    emits s' w (p + length src / 4).
Proof.
  intros He n Hn. destruct (Nat.leb_spec 4 (length src)) as [H|H].
  - assert (Hle : n <= length src) by (unfold n; pose proof (Nat.div_mod (length src) 4 ltac:(lia)); lia).
    destruct (@z_encrypt_ok w s p (out, firstn n src) He) as (s' & -> & He').
    { unfold scall_ok. cbn [fst snd]. rewrite firstn_length. lia. }
    cbn [rbind snd]. exists s'. split; auto. cbn [snd] in He'.
    replace (length src / 4) with (nblocks 4 (firstn n src)); auto. unfold nblocks. rewrite firstn_length, Nat.min_l by auto.
    unfold n. replace (length src / 4 * 4 + 4 - 1) with (3 + length src / 4 * 4) by lia. rewrite Nat.div_add by lia. reflexivity.
  - exists s. assert (length src / 4 = 0) as E by (apply Nat.div_small; lia).
    unfold n. rewrite E. cbn [Nat.mul firstn xor_stream skipn app]. rewrite Nat.add_0_r. split; auto.
Qed.
Lemma zb_write_ok w t z src out : zbI w t z -> ready t (length src) <= length out ->
  exists z' o, zb_write z (src, out) = Ok (z', o) /\ zbI w (t + length src) z' /\
    o = xor_stream (ks_bytes w) (t / 4 * 4) (firstn (ready t (length src)) (zb_b z ++ src)) ++ skipn (ready t (length src)) out /\
    zb_b z' = skipn (ready t (length src)) (zb_b z ++ src).
Proof.
  intros [He Hb] Hr. destruct z as [s b]. cbn [zb_s zb_b] in *.
  pose proof (Nat.mod_upper_bound t 4 ltac:(lia)) as Ht.
  rewrite ready_eq in *. unfold zb_write. cbn [zb_s zb_b]. destruct (Nat.leb_spec 4 (length b)); [lia|].
  unfold zbI. rewrite div4_add.
  assert (Hm : (t + length src) mod 4 = (t mod 4 + length src) mod 4) by (rewrite Nat.add_mod_idemp_l by lia; reflexivity).
  rewrite Hm. rewrite <- Hb in *.
  set (q := (length b + length src) / 4) in *.
  pose proof (Nat.div_mod (length b + length src) 4 ltac:(lia)) as D. fold q in D.
  assert (Lsk : length (skipn (4 * q) (b ++ src)) = (length b + length src) mod 4) by (rewrite skipn_length, app_length; lia).
  destruct (Nat.ltb_spec 0 (length b)) as [H0|H0].
  - destruct (Nat.ltb_spec (length src) (4 - length b)) as [H1|H1].
    + assert (q = 0) as Q0 by (unfold q; apply Nat.div_small; lia). rewrite Q0 in *. cbn [Nat.mul skipn firstn xor_stream app] in *.
      eexists _, _. split; [reflexivity|]. cbn [zb_s zb_b]. rewrite Nat.add_0_r. auto.
    + assert (F4 : firstn (4 - length b) src ++ skipn (4 - length b) src = src) by apply firstn_skipn.
      set (s0 := firstn (4 - length b) src) in *. set (s1 := skipn (4 - length b) src) in *.
      assert (L0 : length s0 = 4 - length b) by (unfold s0; rewrite firstn_length; lia).
      assert (L1 : length s1 = length b + length src - 4) by (unfold s1; rewrite skipn_length; lia).
      assert (Q1 : q = 1 + length s1 / 4). { unfold q. rewrite L1. replace (length b + length src) with (length b + length src - 4 + 1 * 4) by lia. rewrite Nat.div_add by lia. lia. }
      destruct (@z_encrypt_ok w s (t / 4) (out, b ++ s0) He) as (s2 & -> & He2).
      { unfold scall_ok. cbn [fst snd]. rewrite app_length. lia. }
      cbn [rbind snd] in *.
      assert (NB : nblocks 4 (b ++ s0) = 1) by (unfold nblocks; rewrite app_length, L0; replace (length b + (4 - length b)) with 4 by lia; reflexivity).
      rewrite NB in He2. cbn [zb_s].
      destruct (@zb_step w (t / 4 + 1) s2 s1 (skipn 4 out) He2) as (s3 & E3 & He3); [rewrite skipn_length; lia|].
      set (o1 := xor_stream (ks_bytes w) (t / 4 * 4) (b ++ s0)) in *.
      assert (Lo1 : length o1 = 4) by (unfold o1; rewrite xor_stream_length, app_length; lia).
      assert (Efull : b ++ src = (b ++ s0) ++ s1) by (rewrite <- app_assoc, F4; reflexivity).
      assert (Lb0 : length (b ++ s0) = 4) by (rewrite app_length; lia).
      assert (Esk : skipn (4 * q) (b ++ src) = skipn (length s1 / 4 * 4) s1).
      { rewrite Efull, skipn_app, Lb0. rewrite skipn_all2 by lia. cbn [app]. f_equal. lia. }
      assert (Efi : firstn (4 * q) (b ++ src) = (b ++ s0) ++ firstn (length s1 / 4 * 4) s1).
      { rewrite Efull, firstn_app, Lb0. rewrite firstn_all2 by lia. f_equal. f_equal. lia. }
      assert (Eout : xor_stream (ks_bytes w) (t / 4 * 4) (firstn (4 * q) (b ++ src)) ++ skipn (4 * q) out =
                     o1 ++ xor_stream (ks_bytes w) ((t / 4 + 1) * 4) (firstn (length s1 / 4 * 4) s1) ++ skipn (length s1 / 4 * 4) (skipn 4 out)).
      { rewrite Efi, xor_stream_app, Lb0, <- app_assoc. fold o1. do 2 f_equal; [f_equal; lia|].
        rewrite skipn_skipn'. f_equal. lia. }
      rewrite Eout, Esk.
      destruct (4 <=? length s1) eqn:E4.
      * destruct (z_encrypt s2 (skipn 4 out, firstn (length s1 / 4 * 4) s1)) as [[s4 o4]| |]; try discriminate. cbn [rbind] in *.
        inversion E3 as [[Hs Ho]]. subst s4.
        eexists _, _. split; [reflexivity|]. cbn [zb_s zb_b]. rewrite <- Lsk, <- Esk. split; [split; auto|split; auto].
        -- replace (t / 4 + q) with (t / 4 + 1 + length s1 / 4) by lia. apply He3.
        -- f_equal. exact Ho.
      * injection E3 as Hs Hb1 Ho. subst s3.
        eexists _, _. split; [reflexivity|]. cbn [zb_s zb_b]. rewrite <- Lsk, Esk.
        replace (t / 4 + q) with (t / 4 + 1 + length s1 / 4) by lia. split; [split; [auto|f_equal; exact Hb1]|split; [f_equal; exact Ho|exact Hb1]].
  - assert (b = []) by (destruct b; [auto|cbn in H0; lia]). subst b. cbn [length app Nat.add] in *.
    assert (q * 4 = 4 * q) as Q4 by lia.
    destruct (@zb_step w (t / 4) s src out He) as (s3 & E3 & He3); [unfold q in Hr; lia|].
    cbn [zb_s]. unfold q in *. rewrite Q4 in *. cbn [app] in *.
    destruct (4 <=? length src) eqn:E4.
    + destruct (z_encrypt s (out, firstn (4 * (length src / 4)) src)) as [[s4 o4]| |]; try discriminate. cbn [rbind] in *.
      inversion E3 as [[Hs Ho]]. subst s4. eexists _, _. split; [reflexivity|]. cbn [zb_s zb_b]. rewrite <- Lsk. split; [split; auto|split; auto].
    + injection E3 as Hs Hb1 Ho. subst s3. eexists _, _. split; [reflexivity|]. cbn [zb_s zb_b]. rewrite <- Lsk. split; [split; [auto|f_equal; exact Hb1]|split; [exact Ho|exact Hb1]].
Qed.
Lemma zb_run w calls : forall t z, zbI w t z -> room t calls ->
  exists z' outs, run_calls zb_write z calls = Ok (z', outs) /\ zbI w (t + length (concat (map fst calls))) z' /\
    rest_kept t calls outs /\
    produced t calls outs ++ xor_stream (ks_bytes w) ((t + length (concat (map fst calls))) / 4 * 4) (zb_b z') =
    xor_stream (ks_bytes w) (t / 4 * 4) (zb_b z ++ concat (map fst calls)).
Proof.
  induction calls as [|[src out] calls IH]; intros t z Hz Hr.
  - exists z, []. cbn. rewrite Nat.add_0_r, app_nil_r. repeat split; auto; apply Hz.
  - destruct Hr as [Hr0 Hr]. destruct (zb_write_ok Hz Hr0) as (z1 & o & E & Hz1 & Eo & Eb).
    destruct (IH _ _ Hz1 Hr) as (z2 & outs & E2 & Hz2 & Hk & Hp).
    exists z2, (o :: outs). cbn [run_calls]. rewrite E. cbn [rbind]. rewrite E2. cbn [rbind map fst concat produced rest_kept].
    rewrite app_length, Nat.add_assoc. split; [reflexivity|]. split; [auto|].
    assert (Lr : ready t (length src) <= length (zb_b z ++ src)).
    { rewrite ready_eq, app_length, (proj2 Hz). pose proof (Nat.div_mod (t mod 4 + length src) 4 ltac:(lia)). lia. }
    assert (Lx : length (xor_stream (ks_bytes w) (t / 4 * 4) (firstn (ready t (length src)) (zb_b z ++ src))) = ready t (length src)).
    { rewrite xor_stream_length, firstn_length. lia. }
    split; [split; auto|].
    + rewrite Eo. rewrite skipn_app_exact by auto. reflexivity.
    + rewrite <- app_assoc, Hp. rewrite Eo, firstn_app_exact by auto. rewrite Eb, div4_add.
      set (r := ready t (length src)) in *. rewrite (app_assoc (zb_b z)).
      assert (Esplit : (zb_b z ++ src) ++ concat (map fst calls) = firstn r (zb_b z ++ src) ++ skipn r (zb_b z ++ src) ++ concat (map fst calls)).
      { rewrite app_assoc, firstn_skipn. reflexivity. }
      rewrite Esplit, (@xor_stream_app _ (firstn r (zb_b z ++ src))). f_equal.
      rewrite firstn_length, Nat.min_l by auto. f_equal. unfold r. rewrite ready_eq. lia.
Qed.
Lemma zb_sum_ok w t z data : zbI w t z ->
  exists z', zb_sum z data = Ok (z', data ++ xor_stream (ks_bytes w) (t / 4 * 4) (zb_b z)).
Proof.
  intros [He Hb]. unfold zb_sum. pose proof (Nat.mod_upper_bound t 4 ltac:(lia)). destruct (Nat.leb_spec 4 (length (zb_b z))); [lia|].
  destruct (@z_encrypt_ok w (zb_s z) (t / 4) (zb_b z, zb_b z) He) as (s & -> & _); [unfold scall_ok; cbn; lia|]. cbn [rbind snd]. eauto.
Qed.
Lemma z_encrypt_short s x : length (fst x) < length (snd x) -> z_encrypt s x = Panic.
Proof. intros H. unfold z_encrypt. destruct (Nat.ltb_spec (length (fst x)) (length (snd x))); [auto|lia]. Qed.
Lemma zb_write_noroom w t z src out : zbI w t z -> length out < ready t (length src) -> zb_write z (src, out) = Panic.
Proof.
  intros [He Hb] Hr. destruct z as [s b]. cbn [zb_s zb_b] in *. pose proof (Nat.mod_upper_bound t 4 ltac:(lia)).
  rewrite ready_eq, <- Hb in Hr. unfold zb_write. cbn [zb_s zb_b]. destruct (Nat.leb_spec 4 (length b)); [lia|].
  set (q := (length b + length src) / 4) in *. pose proof (Nat.div_mod (length b + length src) 4 ltac:(lia)) as D. fold q in D.
  destruct (Nat.ltb_spec 0 (length b)) as [H1|H1].
  - destruct (Nat.ltb_spec (length src) (4 - length b)) as [H2|H2].
    + assert (q = 0) by (unfold q; apply Nat.div_small; lia). lia.
    + destruct (Nat.lt_ge_cases (length out) 4) as [H3|H3].
      * rewrite z_encrypt_short; [reflexivity|]. cbn [fst snd]. rewrite app_length, firstn_length. lia.
      * destruct (@z_encrypt_ok w s (t / 4) (out, b ++ firstn (4 - length b) src) He) as (s2 & -> & _).
        { unfold scall_ok. cbn [fst snd]. rewrite app_length, firstn_length. lia. }
        cbn [rbind zb_s]. set (s1 := skipn (4 - length b) src).
        assert (L1 : length s1 = length b + length src - 4) by (unfold s1; rewrite skipn_length; lia).
        assert (Q1 : q = 1 + length s1 / 4). { unfold q. rewrite L1. replace (length b + length src) with (length b + length src - 4 + 1 * 4) by lia. rewrite Nat.div_add by lia. lia. }
        pose proof (Nat.div_mod (length s1) 4 ltac:(lia)).
        destruct (Nat.leb_spec 4 (length s1)); [|assert (length s1 / 4 = 0) by (apply Nat.div_small; lia); lia].
        rewrite z_encrypt_short; [reflexivity|]. cbn [fst snd]. rewrite skipn_length, firstn_length. lia.
  - assert (length b = 0) by lia. rewrite H2 in *. cbn [Nat.add] in *.
    destruct (Nat.leb_spec 4 (length src)); [|assert (q = 0) by (unfold q; apply Nat.div_small; lia); lia].
    rewrite z_encrypt_short; [reflexivity|]. cbn [fst snd]. rewrite firstn_length. unfold q in *. lia.
Qed.

(** * 128-EEA3 *)
Lemma z_words_ok w n : forall s p, emits s w p -> exists s', z_words n s = (s', map (fun i => w (p + i)) (seq 0 n)) /\ emits s' w (p + n).
Proof.
  induction n as [|n IH]; intros s p He; cbn [z_words].
  - exists s. rewrite Nat.add_0_r. auto.
  - destruct (emits_step He) as (s1 & -> & H1). destruct (IH s1 (S p) H1) as (s2 & -> & H2). exists s2. split; [|rewrite Nat.add_succ_r; auto].
    cbn [seq map]. rewrite Nat.add_0_r. do 2 f_equal. rewrite <- seq_shift, map_map. apply map_ext. intros i. f_equal. lia.
Qed.
Lemma upd_loop (f : Z -> nat -> Z) n : forall out, n <= length out ->
  let o := fold_left (fun o i => upd i (f o.[i] i) o) (seq 0 n) out in
  length o = length out /\ forall j, o.[j] = if j <? n then f out.[j] j else out.[j].
Proof.
  induction n as [|n IH]; intros out Hn; cbv zeta.
  - split; auto.
  - rewrite seq_S, fold_left_app. cbn [fold_left Nat.add]. destruct (IH out ltac:(lia)) as [L N]. cbv zeta in *.
    set (o := fold_left _ (seq 0 n) out) in *. rewrite upd_len. split; auto. intros j.
    rewrite nth_upd by lia. rewrite !N, Nat.ltb_irrefl. destruct (Nat.eqb_spec j n) as [->|H].
    + destruct (Nat.ltb_spec n (S n)); [auto|lia].
    + destruct (Nat.ltb_spec j n), (Nat.ltb_spec j (S n)); auto; lia.
Qed.
Lemma mask_bit k j : k < 32 -> j < 32 -> Z.testbit (wshl 32 0xffffffff (Z.of_nat k)) (Z.of_nat j) = (k <=? j).
Proof.
  intros Hk Hj. unfold wshl. rewrite Z.mod_pow2_bits_low by lia. change 0xffffffff%Z with (Z.ones 32).
  destruct (Nat.leb_spec k j).
  - rewrite Z.shiftl_spec_high by lia. apply Z.ones_spec_low. lia.
  - apply Z.shiftl_spec_low. lia.
Qed.
Lemma eea_mask_bit nbits out i : (nbits + 31) / 32 <= length out -> i < 32 * ((nbits + 31) / 32) ->
  wbit (eea_mask nbits out) i = if i <? nbits then wbit out i else false.
Proof.
  intros L Hi. unfold eea_mask, wbit. set (n := (nbits + 31) / 32) in *.
  pose proof (Nat.div_mod (nbits + 31) 32 ltac:(lia)) as D. fold n in D. pose proof (Nat.mod_upper_bound (nbits + 31) 32 ltac:(lia)).
  pose proof (Nat.div_mod nbits 32 ltac:(lia)) as D2. pose proof (Nat.mod_upper_bound nbits 32 ltac:(lia)).
  pose proof (Nat.div_mod i 32 ltac:(lia)) as D3. pose proof (Nat.mod_upper_bound i 32 ltac:(lia)).
  destruct (Nat.eqb_spec (nbits mod 32) 0) as [E|E].
  - assert (n = nbits / 32). { unfold n. symmetry. apply Nat.div_unique with 31; lia. }
    destruct (Nat.ltb_spec i nbits); [auto|]. lia.
  - assert (n = nbits / 32 + 1). { unfold n. symmetry. apply Nat.div_unique with (nbits mod 32 - 1); lia. }
    rewrite nth_upd by lia. destruct (Nat.eqb_spec (i / 32) (n - 1)) as [E2|E2].
    + rewrite Z.land_spec. rewrite mask_bit by lia. rewrite <- E2.
      destruct (Nat.ltb_spec i nbits), (Nat.leb_spec (32 - nbits mod 32) (31 - i mod 32)); try lia; rewrite ?andb_true_r, ?andb_false_r; auto.
    + destruct (Nat.ltb_spec i nbits); [auto|]. assert (i / 32 < n) by (apply Nat.div_lt_upper_bound; lia). lia.
Qed.
Lemma eea_mask_rest nbits out j : (nbits + 31) / 32 <= length out -> (nbits + 31) / 32 <= j -> (eea_mask nbits out).[j] = out.[j] /\ length (eea_mask nbits out) = length out.
Proof.
  intros L Hj. unfold eea_mask. destruct (Nat.eqb_spec (nbits mod 32) 0); [auto|]. rewrite upd_len. split; auto.
  assert (1 <= (nbits + 31) / 32). { destruct nbits as [|k]; [cbn in n; lia|]. apply Nat.div_le_lower_bound; lia. }
  rewrite nth_upd by lia. destruct (Nat.eqb_spec j ((nbits + 31) / 32 - 1)); [lia|auto].
Qed.
Lemma count_bytes count : [to_byte (Z.shiftr count 24); to_byte (Z.shiftr count 16); to_byte (Z.shiftr count 8); to_byte count] = be_bytes 4 count.
Proof. rewrite be_bytes_4. unfold to_byte. rewrite !Z.shiftr_div_pow2 by lia. reflexivity. Qed.
Lemma eea_iv_eq count bearer direction : eea_iv count bearer direction = eea3_iv count (bearer mod 32) (direction mod 2).
Proof.
  unfold eea_iv, eea3_iv. rewrite <- count_bytes. cbn [app].
  assert (E : to_byte (wshl 32 (Z.lor (wshl 32 bearer 1) (Z.land direction 1)) 2) = (bearer mod 32 * 8 + direction mod 2 * 4)%Z).
  { change 1%Z with (Z.ones 1) at 2. rewrite Z.land_ones by lia. rewrite !wshl_mul by lia. rewrite lor_disj by lia.
    unfold to_byte. change (32 - 2)%Z with 30%Z. change (32 - 1)%Z with 31%Z. change (2 ^ 1)%Z with 2%Z. change (2 ^ 2)%Z with 4%Z.
    change (2 ^ 30)%Z with 1073741824%Z. change (2 ^ 31)%Z with 2147483648%Z. lia. }
  rewrite E. reflexivity.
Qed.
Lemma eea3_iv_ok count bearer direction : (0 <= bearer < 32)%Z -> (0 <= direction < 2)%Z ->
  length (eea3_iv count bearer direction) = 16 /\ bytes_ok (eea3_iv count bearer direction).
Proof.
  intros Hb Hd. assert (B : bytes_ok (be_bytes 4 count ++ [bearer * 8 + direction * 4; 0; 0; 0]%Z)).
  { apply bytes_ok_app. split; [apply be_bytes_ok|]. repeat constructor; unfold is_byte; lia. }
  unfold eea3_iv. split; [rewrite !app_length, be_bytes_length; reflexivity|apply bytes_ok_app; auto].
Qed.
Lemma wbit_xor a b i : Z.testbit (Z.lxor a b) i = xorb (Z.testbit a i) (Z.testbit b i).
Proof. apply Z.lxor_spec. Qed.
