(** Proofs about the BMP string model. *)
From Verif Require Import Base BmpSpec BmpModel.
Set Implicit Arguments. Unset Strict Implicit.
Local Open Scope nat_scope.

Lemma utf8_1_len r : 1 <= length (utf8_1 r) <= 4.
Proof. unfold utf8_1. destruct (r <? 128)%Z, (r <? 2048)%Z, (r <? 65536)%Z; cbn [length]; lia. Qed.
Lemma rune1_utf8 r s : scalar r -> rune1 (utf8_1 r ++ s) = (r, length (utf8_1 r)).
Proof.
  intros S. unfold scalar in S. unfold utf8_1.
  destruct (Z.ltb_spec r 128).
  { cbn [app rune1 length]. replace (r <? 128)%Z with true by lia. reflexivity. }
  destruct (Z.ltb_spec r 2048).
  { cbn [app rune1 length]. assert (2 <= r / 64 < 32)%Z by (split; [apply Z.div_le_lower_bound|apply Z.div_lt_upper_bound]; lia).
    pose proof (Z.mod_pos_bound r 64 ltac:(lia)). pose proof (Z.div_mod r 64 ltac:(lia)). unfold cont.
    replace (192 + r / 64 <? 128)%Z with false by lia. replace ((194 <=? 192 + r / 64) && (192 + r / 64 <=? 223))%Z with true by lia.
    replace ((128 <=? 128 + r mod 64) && (128 + r mod 64 <=? 191))%Z with true by lia. f_equal. lia. }
  destruct (Z.ltb_spec r 65536).
  { cbn [app rune1 length]. set (a := (r / 4096)%Z). set (b := (r / 64 mod 64)%Z). set (c := (r mod 64)%Z).
    assert (Hb : (0 <= b < 64)%Z) by (apply Z.mod_pos_bound; lia). assert (Hc : (0 <= c < 64)%Z) by (apply Z.mod_pos_bound; lia).
    assert (E : r = (a * 4096 + b * 64 + c)%Z).
    { unfold a, b, c. pose proof (Z.div_mod r 64 ltac:(lia)). pose proof (Z.div_mod (r / 64) 64 ltac:(lia)).
      rewrite Z.div_div in * by lia. change (64 * 64)%Z with 4096%Z in *. lia. }
    clearbody a b c. subst r. unfold cont.
    replace (224 + a <? 128)%Z with false by lia. replace ((194 <=? 224 + a) && (224 + a <=? 223))%Z with false by lia.
    replace ((224 <=? 224 + a) && (224 + a <=? 239))%Z with true by lia.
    replace ((128 <=? 128 + c) && (128 + c <=? 191))%Z with true by lia.
    replace ((if 224 + a =? 224 then 160 else 128) <=? 128 + b)%Z with true by (destruct (Z.eqb_spec (224 + a) 224); lia).
    replace (128 + b <=? (if 224 + a =? 237 then 159 else 191))%Z with true by (destruct (Z.eqb_spec (224 + a) 237); lia).
    cbn [andb]. f_equal. lia. }
  cbn [app rune1 length]. set (a := (r / 262144)%Z). set (b := (r / 4096 mod 64)%Z). set (c := (r / 64 mod 64)%Z). set (d := (r mod 64)%Z).
  assert (Hb : (0 <= b < 64)%Z) by (apply Z.mod_pos_bound; lia). assert (Hc : (0 <= c < 64)%Z) by (apply Z.mod_pos_bound; lia).
  assert (Hd : (0 <= d < 64)%Z) by (apply Z.mod_pos_bound; lia).
  assert (E : r = (a * 262144 + b * 4096 + c * 64 + d)%Z).
  { unfold a, b, c, d. pose proof (Z.div_mod r 64 ltac:(lia)). pose proof (Z.div_mod (r / 64) 64 ltac:(lia)). pose proof (Z.div_mod (r / 4096) 64 ltac:(lia)).
    rewrite !Z.div_div in * by lia. change (64 * 64)%Z with 4096%Z in *. change (4096 * 64)%Z with 262144%Z in *. lia. }
  clearbody a b c d. subst r. unfold cont.
  replace (240 + a <? 128)%Z with false by lia. replace ((194 <=? 240 + a) && (240 + a <=? 223))%Z with false by lia.
  replace ((224 <=? 240 + a) && (240 + a <=? 239))%Z with false by lia.
  replace ((240 <=? 240 + a) && (240 + a <=? 244))%Z with true by lia.
  replace ((128 <=? 128 + c) && (128 + c <=? 191))%Z with true by lia. replace ((128 <=? 128 + d) && (128 + d <=? 191))%Z with true by lia.
  replace ((if 240 + a =? 240 then 144 else 128) <=? 128 + b)%Z with true by (destruct (Z.eqb_spec (240 + a) 240); lia).
  replace (128 + b <=? (if 240 + a =? 244 then 143 else 191))%Z with true by (destruct (Z.eqb_spec (240 + a) 244); lia).
  cbn [andb]. f_equal. lia.
Qed.
Lemma runes_f_utf8 : forall rs f, Forall scalar rs -> length (utf8 rs) <= f -> runes_f f (utf8 rs) = rs.
Proof.
  induction rs as [|r rs IH]; intros f S F; [destruct f; reflexivity|].
  inversion S; subst. unfold utf8 in *. cbn [map concat] in *. rewrite app_length in F. pose proof (utf8_1_len r) as L.
  destruct f as [|f]; [lia|]. cbn [runes_f]. destruct (utf8_1 r ++ concat (map utf8_1 rs)) as [|x y] eqn:E.
  { apply app_eq_nil in E. destruct E as [E _]. rewrite E in L. cbn in L. lia. }
  rewrite <- E. rewrite rune1_utf8 by auto. rewrite skipn_app, skipn_all, Nat.sub_diag. cbn [app skipn]. f_equal. apply IH; auto. lia.
Qed.
Lemma runes_utf8 rs : Forall scalar rs -> runes (utf8 rs) = rs.
Proof. intros S. apply runes_f_utf8; auto. Qed.
(** a loop over any string yields scalar values, and stops at its end *)
Lemma rune1_scalar s : bytes_ok s -> s <> [] -> scalar (fst (rune1 s)) /\ 1 <= snd (rune1 s).
Proof.
  intros B N. assert (D : scalar 65533 /\ 1 <= 1) by (unfold scalar; lia).
  assert (Bd : Forall (fun b => 0 <= b < 256)%Z s) by exact B.
  destruct s as [|a s]; [congruence|]. cbn [rune1]. inversion Bd as [|? ? Ba Bs]; subst.
  destruct (Z.ltb_spec a 128); [cbn [fst snd]; unfold scalar; lia|].
  destruct ((194 <=? a) && (a <=? 223))%Z eqn:E1.
  { destruct s as [|b s]; auto. destruct (cont b) eqn:C; auto. unfold cont in C. cbn [fst snd]. unfold scalar. lia. }
  destruct ((224 <=? a) && (a <=? 239))%Z eqn:E2.
  { destruct s as [|b [|c s]]; auto.
    destruct (((if (a =? 224)%Z then 160 else 128) <=? b) && (b <=? (if (a =? 237)%Z then 159 else 191)) && cont c)%Z eqn:C; auto.
    unfold cont in C. cbn [fst snd]. unfold scalar. destruct (Z.eqb_spec a 224), (Z.eqb_spec a 237); lia. }
  destruct ((240 <=? a) && (a <=? 244))%Z eqn:E3.
  { destruct s as [|b [|c [|d s]]]; auto.
    destruct (((if (a =? 240)%Z then 144 else 128) <=? b) && (b <=? (if (a =? 244)%Z then 143 else 191)) && cont c && cont d)%Z eqn:C; auto.
    unfold cont in C. cbn [fst snd]. unfold scalar. destruct (Z.eqb_spec a 240), (Z.eqb_spec a 244); lia. }
  auto.
Qed.
Lemma runes_scalar s : bytes_ok s -> Forall scalar (runes s).
Proof.
  unfold runes. generalize (length s) as f. intros f. revert s. induction f as [|f IH]; intros s B; cbn [runes_f]; [constructor|].
  destruct s as [|a s]; [constructor|]. pose proof (@rune1_scalar (a :: s) B ltac:(discriminate)) as [H1 H2].
  destruct (rune1 (a :: s)) as [r n]. cbn [fst snd] in *. constructor; auto. apply IH.
  unfold bytes_ok in *. rewrite Forall_forall in *. intros x Hx. apply B. rewrite <- (firstn_skipn n (a :: s)). apply in_or_app. auto.
Qed.

Lemma encode_rune1_bmp r : scalar r -> (encode_rune1 r = 65533 <-> r < 65536)%Z.
Proof.
  intros S. unfold encode_rune1, scalar in *. destruct (Z.ltb_spec r 65536); cbn [orb]; [lia|].
  destruct (Z.ltb_spec 1114111 r); [lia|]. pose proof (Z.mod_pos_bound ((r - 65536) / 1024) 1024 ltac:(lia)). lia.
Qed.
Lemma be2 r : (0 <= r < 65536)%Z -> be_bytes 2 r = [to_byte (r / 256); to_byte (r mod 256)].
Proof.
  intros R. unfold be_bytes. cbn [le_bytes rev app]. unfold to_byte. rewrite Zmod_mod. reflexivity.
Qed.
Lemma bmp_loop_eq : forall rs ret, Forall scalar rs ->
  (Forall (fun r => r < 65536)%Z rs -> bmp_loop ret rs = Ok (ret ++ ucs2 rs)) /\ (~ Forall (fun r => r < 65536)%Z rs -> bmp_loop ret rs = Err).
Proof.
  induction rs as [|r rs IH]; intros ret S; cbn [bmp_loop].
  - split; [intros _; cbn; rewrite app_nil_r; reflexivity|intros H; exfalso; apply H; constructor].
  - inversion S; subst. destruct (Z.eqb_spec (encode_rune1 r) 65533) as [E|E]; cbn [negb].
    + apply encode_rune1_bmp in E; auto. destruct (IH (ret ++ [to_byte (r / 256); to_byte (r mod 256)]) ltac:(auto)) as [I1 I2]. split.
      * intros F. inversion F; subst. rewrite I1 by auto. f_equal. rewrite <- app_assoc. f_equal.
        unfold ucs2. cbn [map concat]. rewrite be2; [reflexivity|]. unfold scalar in *. lia.
      * intros F. apply I2. intros G. apply F. constructor; auto.
    + split; auto. intros F. inversion F; subst. exfalso. apply E. apply encode_rune1_bmp; auto.
Qed.
Lemma ucs2_len rs : length (ucs2 rs) = 2 * length rs.
Proof. unfold ucs2. induction rs; cbn [map concat length]; [reflexivity|]. rewrite app_length, IHrs. cbn [length be_bytes le_bytes rev app]. lia. Qed.
Lemma units_ucs2 : forall rs, Forall (fun r => 0 <= r < 65536)%Z rs -> units (ucs2 rs) = rs.
Proof.
  unfold ucs2. induction rs as [|r rs IH]; intros F; auto. inversion F; subst. cbn [map concat]. rewrite be2 by auto. cbn [app units].
  f_equal; [|apply IH; auto]. rewrite Z.shiftl_mul_pow2 by lia. change (2 ^ 8)%Z with 256%Z. unfold to_byte.
  assert (0 <= r / 256 < 256)%Z by (split; [apply Z.div_pos; lia|apply Z.div_lt_upper_bound; lia]).
  pose proof (Z.mod_pos_bound r 256 ltac:(lia)). rewrite !(Z.mod_small _ 256) by lia.
  pose proof (Z.div_mod r 256 ltac:(lia)). rewrite Z.mod_small by lia. lia.
Qed.
Lemma utf16_bmp : forall rs f, Forall (fun r => scalar r /\ r < 65536)%Z rs -> length rs <= f -> utf16_decode f rs = rs.
Proof.
  induction rs as [|r rs IH]; intros f F L; [destruct f; reflexivity|]. inversion F; subst. cbn [length] in L. destruct f as [|f]; [lia|].
  cbn [utf16_decode]. replace ((r <? 55296) || (57344 <=? r))%Z with true by (unfold scalar in *; lia). rewrite IH by (auto; lia). reflexivity.
Qed.
Lemma nth_app_end {A} (l : list A) x y d : nth (length l + 2 - 1) (l ++ [x; y]) d = y /\ nth (length l + 2 - 2) (l ++ [x; y]) d = x.
Proof.
  split; rewrite app_nth2 by lia.
  - replace (length l + 2 - 1 - length l) with 1 by lia. reflexivity.
  - replace (length l + 2 - 2 - length l) with 0 by lia. reflexivity.
Qed.
(** the terminator that DecodeBMPString takes off *)
Definition stripped (b : bytes) : bytes :=
  let l := length b in if (2 <=? l) && (nth (l - 1) b 1 =? 0)%Z && (nth (l - 2) b 1 =? 0)%Z then firstn (l - 2) b else b.
Lemma stripped_00 b : stripped (b ++ [0; 0]%Z) = b.
Proof.
  unfold stripped. rewrite app_length. cbn [length]. destruct (nth_app_end b 0%Z 0%Z 1%Z) as [-> ->].
  replace (2 <=? length b + 2) with true by (symmetry; apply Nat.leb_le; lia). cbn [Z.eqb andb].
  rewrite firstn_app. replace (length b + 2 - 2) with (length b) by lia. rewrite firstn_all, Nat.sub_diag. apply app_nil_r.
Qed.
Lemma stripped_keep b x y : ~ (x = 0 /\ y = 0)%Z -> stripped (b ++ [x; y]) = b ++ [x; y].
Proof.
  intros N. unfold stripped. rewrite app_length. cbn [length]. destruct (nth_app_end b x y 1%Z) as [-> ->].
  destruct (Z.eqb_spec x 0), (Z.eqb_spec y 0); rewrite ?andb_false_r, ?andb_false_l; auto; lia.
Qed.
Lemma decode_eq b : length b mod 2 = 0 -> decode_bmp b = Ok (utf8 (utf16_decode (length (units (stripped b))) (units (stripped b)))).
Proof. intros E. unfold decode_bmp. rewrite E. reflexivity. Qed.
Lemma ucs2_app a b : ucs2 (a ++ b) = ucs2 a ++ ucs2 b.
Proof. unfold ucs2. rewrite map_app, concat_app. reflexivity. Qed.
Lemma even2 n : (2 * n) mod 2 = 0.
Proof. rewrite Nat.mul_comm. apply Nat.mod_mul. lia. Qed.
(** bytes back from units *)
Lemma ucs2_units : forall n b, length b = 2 * n -> bytes_ok b -> ucs2 (units b) = b /\ Forall (fun u => 0 <= u < 65536)%Z (units b).
Proof.
  induction n as [|n IH]; intros b L B.
  - destruct b; [|cbn in L; lia]. split; [reflexivity|constructor].
  - destruct b as [|x [|y b]]; [cbn in L; lia|cbn in L; lia|]. cbn [length] in L.
    inversion B as [|? ? Hx B']; subst. inversion B' as [|? ? Hy B2]; subst. unfold is_byte in Hx, Hy. destruct (IH b ltac:(lia) B2) as [E F].
    cbn [units]. rewrite Z.shiftl_mul_pow2 by lia. change (2 ^ 8)%Z with 256%Z. rewrite Z.mod_small by lia. split.
    + unfold ucs2 in *. cbn [map concat]. rewrite E. rewrite be2 by lia. unfold to_byte.
      replace ((x * 256 + y) / 256)%Z with x by (rewrite Z.div_add_l by lia; rewrite Z.div_small by lia; lia).
      replace ((x * 256 + y) mod 256)%Z with y by (rewrite Z.add_comm, Z.mod_add by lia; rewrite Z.mod_small by lia; lia).
      rewrite !Z.mod_small by lia. reflexivity.
    + constructor; auto. lia.
Qed.
Lemma utf16_scalar : forall f s, Forall (fun u => 0 <= u < 65536)%Z s -> Forall scalar (utf16_decode f s).
Proof.
  induction f as [|f IH]; intros s F; cbn [utf16_decode]; [constructor|]. destruct s as [|u s]; [constructor|]. inversion F as [|? ? Hu Fs]; subst.
  destruct ((u <? 55296) || (57344 <=? u))%Z eqn:E; [constructor; [unfold scalar; lia|apply IH; auto]|].
  assert (D : scalar 65533) by (unfold scalar; lia).
  destruct s as [|v s]; [constructor; [exact D|apply IH; auto]|].
  destruct ((u <? 56320) && (56320 <=? v) && (v <? 57344))%Z eqn:E2.
  - inversion Fs; subst. constructor; [unfold scalar; lia|apply IH; auto].
  - constructor; [exact D|apply IH; auto].
Qed.
