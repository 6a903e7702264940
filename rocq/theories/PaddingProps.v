(** Property theorems for /repo/padding (C01-C07, C31). *)
From Verif Require Import Base PaddingModel PaddingProofs.
Open Scope Z_scope.

(** C01: PKCS#7 round trip, alignment and prefix. *)
Theorem C01_pkcs7_roundtrip :
  forall (x : bytes) (bs : Z), 1 <= bs <= 255 ->
  pkcs7_unpad (pkcs7_pad x bs) = Ok x /\
  (bs | zlen (pkcs7_pad x bs)) /\
  zlen x < zlen (pkcs7_pad x bs) <= zlen x + bs /\
  firstn (length x) (pkcs7_pad x bs) = x.
Proof.
  intros x bs H. split; [now apply pkcs7_roundtrip|].
  rewrite pkcs7_pad_len by lia. pose proof (pad_count_range x bs ltac:(lia)).
  split; [apply pad_count_mult; lia|]. split; [lia|].
  rewrite pkcs7_pad_eq by lia. now apply firstn_app_exact.
Qed.
Print Assumptions C01_pkcs7_roundtrip.
Example C01_instance : pkcs7_unpad (pkcs7_pad [1; 2; 3; 3; 3] 8) = Ok [1; 2; 3; 3; 3]
  /\ pkcs7_pad [1; 2; 3; 3; 3] 8 = [1; 2; 3; 3; 3; 3; 3; 3].
Proof. vm_compute. auto. Qed.

(** With a block size above 255 the count no longer fits a byte: the round
    trip works exactly when the number of padding bytes is at most 255. *)
Theorem C01_pkcs7_large_block :
  forall (x : bytes) (bs : Z), bytes_ok x -> 1 <= bs ->
  (pkcs7_unpad (pkcs7_pad x bs) = Ok x <-> bs - zlen x mod bs <= 255).
Proof.
  intros x bs Hx Hbs. fold (pad_count x bs).
  pose proof (pad_count_range x bs Hbs) as Hr.
  rewrite pkcs7_pad_eq by auto. set (k := pad_count x bs) in *.
  split; intro H.
  - apply pkcs7_unpad_iff in H.
    + destruct H as [_ H]. rewrite last_byte_repeat in H by lia.
      apply app_inv_head in H. apply (f_equal (@length Z)) in H.
      rewrite !repeat_length in H.
      assert (0 <= to_byte k < 256) by (apply Z.mod_pos_bound; lia). lia.
    + apply bytes_ok_app. split; auto. apply bytes_ok_repeat.
      apply Z.mod_pos_bound. lia.
  - unfold to_byte. rewrite Z.mod_small by lia. apply pkcs7_unpad_shape. lia.
Qed.
Print Assumptions C01_pkcs7_large_block.

(** C02: exact acceptance set of PKCS#7 unpadding. *)
Theorem C02_pkcs7_unpad_accepts :
  forall (s x : bytes), bytes_ok s ->
  (pkcs7_unpad s = Ok x <->
   exists k, s <> [] /\ last s 0 = k /\ s = x ++ repeat k (Z.to_nat k)).
Proof.
  intros s x H. rewrite (pkcs7_unpad_iff s x H). unfold last_byte. split.
  - intros [H1 H2]. eauto.
  - intros (k & H1 & <- & H2). auto.
Qed.
Print Assumptions C02_pkcs7_unpad_accepts.

(** The strict reading ("accepts only what Padding can produce") is false:
    a string ending in 0x00 is returned unchanged as if it were valid. *)
Theorem C02_pkcs7_strict_refuted :
  exists s x : bytes, bytes_ok s /\ pkcs7_unpad s = Ok x /\
    forall y bs, 1 <= bs <= 255 -> pkcs7_pad y bs <> s.
Proof.
  exists [7; 0], [7; 0]. split; [repeat constructor; unfold is_byte; lia|].
  split; [reflexivity|]. intros y bs H E.
  pose proof (pad_count_range y bs ltac:(lia)) as Hr.
  rewrite pkcs7_pad_eq in E by lia.
  apply (f_equal last_byte) in E. rewrite last_byte_repeat in E by lia.
  unfold to_byte in E. rewrite Z.mod_small in E by lia. cbn in E. lia.
Qed.
Print Assumptions C02_pkcs7_strict_refuted.

(** C03: PKCS#5, X9.23, ISO 10126. *)
Theorem C03_pkcs5_roundtrip :
  forall (x : bytes) (bs : Z),
  pkcs5_unpad (pkcs5_pad x bs) = Ok x /\ (8 | zlen (pkcs5_pad x bs)).
Proof. intros. split; [apply pkcs5_roundtrip|apply pkcs5_pad_len]. Qed.
Print Assumptions C03_pkcs5_roundtrip.

Theorem C03_pkcs5_accepts :
  forall (s x : bytes), bytes_ok s ->
  (pkcs5_unpad s = Ok x <->
   s <> [] /\ last s 0 <= 8 /\ s = x ++ repeat (last s 0) (Z.to_nat (last s 0))).
Proof. exact pkcs5_unpad_iff. Qed.
Print Assumptions C03_pkcs5_accepts.

Theorem C03_x923_roundtrip :
  forall (x : bytes) (bs : Z), 1 <= bs <= 255 ->
  x923_unpad (x923_pad x bs) = Ok x /\ (bs | zlen (x923_pad x bs)).
Proof.
  intros x bs H. split; [now apply x923_roundtrip|].
  rewrite x923_pad_len by lia. apply pad_count_mult. lia.
Qed.
Print Assumptions C03_x923_roundtrip.

Theorem C03_x923_accepts :
  forall (s x : bytes), bytes_ok s ->
  (x923_unpad s = Ok x <->
   (s <> [] /\ last s 0 = 0 /\ x = s) \/
   (exists k, 1 <= k <= 255 /\ s = x ++ repeat 0 (Z.to_nat (k - 1)) ++ [k])).
Proof. exact x923_unpad_iff. Qed.
Print Assumptions C03_x923_accepts.

(** For every outcome [rnd] of the random generator. *)
Theorem C03_iso10126_roundtrip :
  forall (rnd x : bytes) (bs : Z), 1 <= bs <= 255 ->
  zlen rnd = bs - zlen x mod bs - 1 ->
  iso10126_unpad (iso10126_pad rnd x bs) = Ok x /\ (bs | zlen (iso10126_pad rnd x bs)).
Proof.
  intros rnd x bs H Hr. split; [now apply iso10126_roundtrip|].
  rewrite iso10126_pad_len by (auto; lia). apply pad_count_mult. lia.
Qed.
Print Assumptions C03_iso10126_roundtrip.
Example C03_instance :
  iso10126_pad [97; 98] [1; 2; 3; 4; 5] 8 = [1; 2; 3; 4; 5; 97; 98; 3] /\
  x923_pad [1; 2; 3; 4; 5] 8 = [1; 2; 3; 4; 5; 0; 0; 3] /\
  pkcs5_pad [1; 2; 3; 4; 5] 16 = [1; 2; 3; 4; 5; 3; 3; 3].
Proof. vm_compute. auto. Qed.

(** C04: ISO 7816-4 = ISO 9797-1 method 2 = PBOC2. *)
Theorem C04_iso7816_roundtrip :
  forall (x : bytes) (bs : Z), 1 <= bs ->
  iso7816_unpad (iso7816_pad x bs) = Ok x /\ (bs | zlen (iso7816_pad x bs)).
Proof.
  intros x bs H. split; [now apply iso7816_roundtrip|].
  rewrite iso7816_pad_len by lia. apply pad_count_mult. lia.
Qed.
Print Assumptions C04_iso7816_roundtrip.

Theorem C04_iso7816_accepts :
  forall (s x : bytes),
  iso7816_unpad s = Ok x <-> exists n, s = x ++ [128] ++ repeat 0 n.
Proof. exact iso7816_unpad_iff. Qed.
Print Assumptions C04_iso7816_accepts.
Example C04_instance : iso7816_unpad (iso7816_pad [128; 0; 0] 4) = Ok [128; 0; 0].
Proof. reflexivity. Qed.

(** C05: zero padding. *)
Theorem C05_zero_roundtrip_iff :
  forall (x : bytes) (bs : Z), 1 <= bs ->
  (bs | zlen (zero_pad x bs)) /\
  (zero_unpad (zero_pad x bs) = Ok x <-> (x = [] \/ last x 0 <> 0)).
Proof.
  intros x bs H. split.
  - rewrite zero_pad_len by auto. now apply pad_count_mult.
  - rewrite zero_unpad_pad, <- trim_right_id_iff. split; [|congruence].
    intro E. now injection E.
Qed.
Print Assumptions C05_zero_roundtrip_iff.

(** What is lost is exactly the run of trailing zero bytes. *)
Theorem C05_zero_loses_trailing_zeros :
  forall (x : bytes) (bs : Z),
  exists y n, zero_unpad (zero_pad x bs) = Ok y /\ x = y ++ repeat 0 n /\
              (y = [] \/ last y 0 <> 0).
Proof.
  intros x bs. rewrite zero_unpad_pad.
  destruct (trim_right_spec 0 x) as [[n Hn] Hl].
  exists (trim_right 0 x), n. split; [reflexivity|]. split; [auto|].
  destruct Hl as [->|(a & y & -> & Hy)]; auto. right. now rewrite last_last.
Qed.
Print Assumptions C05_zero_loses_trailing_zeros.

(** zero.go:20 documents "pad only when the length is not aligned"; an aligned
    text gets a whole extra block. *)
Theorem C05_zero_aligned_unpadded_refuted :
  exists (x : bytes) (bs : Z), 1 <= bs /\ (bs | zlen x) /\ zero_pad x bs <> x.
Proof. exists [1; 2], 2. split; [lia|]. split; [exists 1; reflexivity|discriminate]. Qed.
Print Assumptions C05_zero_aligned_unpadded_refuted.

(** C06: TBC. *)
Theorem C06_tbc_roundtrip :
  forall (x : bytes) (bs : Z), bytes_ok x -> 1 <= bs ->
  tbc_unpad (tbc_pad x bs) = Ok x /\ (bs | zlen (tbc_pad x bs)).
Proof.
  intros x bs Hx H. split; [now apply tbc_roundtrip|].
  rewrite tbc_pad_len by auto. now apply pad_count_mult.
Qed.
Print Assumptions C06_tbc_roundtrip.
Example C06_instance : tbc_unpad (tbc_pad [255; 0; 1] 8) = Ok [255; 0; 1]
  /\ tbc_unpad (tbc_pad [255; 254] 8) = Ok [255; 254] /\ tbc_unpad (tbc_pad [] 8) = Ok [].
Proof. vm_compute. auto. Qed.

(** Whatever UnPadding accepts is text followed by a run of the complement
    of its last bit. *)
Theorem C06_tbc_accepts_only :
  forall (s x : bytes), tbc_unpad s = Ok x ->
  exists n, (0 < n)%nat /\
  ((s = x ++ repeat 0 n /\ x <> [] /\ Z.land (last x 0) 1 <> 0) \/
   (s = x ++ repeat 255 n /\ (x = [] \/ Z.land (last x 0) 1 = 0))).
Proof. exact tbc_unpad_sound. Qed.
Print Assumptions C06_tbc_accepts_only.

(** C07: PKCS#1-style padding, for every block type and filler. *)
Theorem C07_pkcs1_roundtrip :
  forall (bt : pkcs1_bt) (rnd x : bytes) (bs : Z),
  zlen x <= bs - 11 -> zlen x < 256 ->
  pkcs1_unpad (pkcs1_pad bt rnd x bs) = Ok x.
Proof. intros. apply pkcs1_roundtrip; lia. Qed.
Print Assumptions C07_pkcs1_roundtrip.
Example C07_instance :
  pkcs1_pad BT01 [] [5; 6] 13 = [5; 6; 0; 1; 255; 255; 255; 255; 255; 255; 255; 255; 0; 2].
Proof. reflexivity. Qed.

(** The padded text is one byte longer than the block size, for every input:
    "fills the block" is false. *)
Theorem C07_pkcs1_fills_block_refuted :
  forall (bt : pkcs1_bt) (rnd x : bytes) (bs : Z),
  zlen x <= bs - 11 -> bt <> BTother -> (bt = BT02 -> zlen rnd = bs - 3 - zlen x) ->
  zlen (pkcs1_pad bt rnd x bs) = bs + 1.
Proof. intros. apply pkcs1_pad_len; auto; lia. Qed.
Print Assumptions C07_pkcs1_fills_block_refuted.

(** A text too long for its block is passed through unpadded without an error,
    and UnPadding then returns something else. *)
Theorem C07_pkcs1_long_text_refuted :
  exists (bt : pkcs1_bt) (rnd x : bytes) (bs : Z), bytes_ok x /\ 1 <= bs /\
  pkcs1_pad bt rnd x bs = x /\ pkcs1_unpad (pkcs1_pad bt rnd x bs) <> Ok x.
Proof.
  exists BT01, [], [9; 1], 12. split; [repeat constructor; unfold is_byte; lia|].
  split; [lia|]. split; [reflexivity|discriminate].
Qed.
Print Assumptions C07_pkcs1_long_text_refuted.

(** C31: what Padding does to the caller's array. The text itself is never
    modified... *)
Theorem C31_padding_keeps_text :
  forall (s : gslice) (bs : Z), (slen s <= length (arr s))%nat ->
  firstn (slen s) (snd (pkcs7_pad_mem s bs)) = view s /\
  length (snd (pkcs7_pad_mem s bs)) = length (arr s) /\
  fst (pkcs7_pad_mem s bs) = pkcs7_pad (view s) bs.
Proof.
  intros s bs H. destruct (pkcs7_mem_prefix s bs H). split; [auto|]. split; [auto|].
  now apply pkcs7_mem_view.
Qed.
Print Assumptions C31_padding_keeps_text.

(** ...and nothing else changes when the capacity is too small for the padded
    text, ... *)
Theorem C31_padding_no_clobber_when_full :
  forall (s : gslice) (bs : Z), (slen s <= length (arr s))%nat -> 1 <= bs ->
  Z.of_nat (length (arr s)) < zlen (pkcs7_pad (view s) bs) ->
  snd (pkcs7_pad_mem s bs) = arr s.
Proof.
  intros s bs H1 H2 H3. apply pkcs7_mem_safe; auto. now rewrite <- pkcs7_pad_len by auto.
Qed.
Print Assumptions C31_padding_no_clobber_when_full.

(** ...but bytes of the caller behind the text are overwritten when it is not:
    "Padding does not modify the caller's buffer" is false. *)
Theorem C31_padding_clobbers_caller_refuted :
  exists (s : gslice) (bs : Z), (slen s <= length (arr s))%nat /\ 1 <= bs /\
  snd (pkcs7_pad_mem s bs) <> arr s.
Proof.
  exists {| arr := [1; 2; 3; 4; 5; 6]; slen := 2 |}, 4.
  split; [cbn; lia|]. split; [lia|]. discriminate.
Qed.
Print Assumptions C31_padding_clobbers_caller_refuted.
