(** MD2, SM3 and HAS-160: the last blocks. *)
From Verif Require Import Base WordModel WordLib HashSpec HbufModel HbufSpec HbufProofs Hash1Model Hash1Spec.
Set Implicit Arguments. Unset Strict Implicit.
Local Open Scope nat_scope.

Lemma held_blocks {S} (blk : S -> bytes -> S) bs iv m st k : 0 < bs -> Held blk bs iv m st -> length m = k * bs ->
  b_s st = iterated bs blk iv m /\ b_nx st = 0.
Proof.
  intros P H L. pose proof (held_nx P H) as N. rewrite L, Nat.mod_mul in N by lia.
  destruct H as (q & t & k' & []). split; auto.
  assert (T : t = []) by (destruct t; auto; cbn in *; lia). rewrite h_s. f_equal. now rewrite h_m, T, app_nil_r.
Qed.

Lemma copyat_mid a b c p : length p = length b -> copyat (length a) p (a ++ b ++ c) = a ++ p ++ c.
Proof.
  intro H. unfold copyat, gocopy. rewrite firstn_app_exact, skipn_app_exact by auto. f_equal.
  rewrite firstn_all2 by (rewrite app_length; lia). f_equal. rewrite H. now rewrite skipn_app_exact.
Qed.
Lemma copyat_mid_n n a b c p : length a = n -> length p = length b -> copyat n p (a ++ b ++ c) = a ++ p ++ c.
Proof. intros <-. apply copyat_mid. Qed.
Lemma upd_mid a x c v : upd (length a) v (a ++ x :: c) = a ++ v :: c.
Proof. induction a; cbn; congruence. Qed.
Lemma split_at (x : bytes) n : n < length x -> exists v c, x = firstn n x ++ v :: c /\ length c = length x - n - 1.
Proof.
  intro H. pose proof (firstn_skipn n x) as E. destruct (skipn n x) as [|v c] eqn:D.
  - exfalso. assert (length (skipn n x) = 0) by now rewrite D. rewrite skipn_length in *. lia.
  - exists v, c. split; [now rewrite E|]. assert (L : length (skipn n x) = 1 + length c) by now rewrite D. rewrite skipn_length in L. lia.
Qed.
(** x[nx] = v; copy(x[nx+1:], zeros) *)
Lemma mark_zero n v (x : bytes) : n < length x -> length x <= 64 ->
  copyat (n + 1) (repeat 0%Z 64) (upd n v x) = firstn n x ++ v :: repeat 0%Z (length x - n - 1).
Proof.
  intros H X. destruct (split_at H) as (w & c & E & L).
  assert (N : length (firstn n x) = n) by (rewrite firstn_length; lia).
  replace (upd n v x) with (firstn n x ++ v :: c).
  2:{ symmetry. rewrite E at 1. rewrite <- N at 1. apply upd_mid. }
  change (v :: c) with ([v] ++ c). rewrite app_assoc. unfold copyat.
  replace (n + 1) with (length (firstn n x ++ [v])) by (rewrite app_length, N; reflexivity).
  rewrite firstn_app_exact, skipn_app_exact by reflexivity. rewrite <- app_assoc. cbn [app]. f_equal. f_equal.
  unfold gocopy. rewrite repeat_length, (skipn_all2 c), app_nil_r by lia.
  rewrite L. replace 64 with (length x - n - 1 + (64 - (length x - n - 1))) by lia. rewrite repeat_app.
  now rewrite firstn_app_exact by apply repeat_length.
Qed.
Lemma copyat_zeros (x : bytes) : length x = 64 -> copyat 0 (repeat 0%Z 64) x = repeat 0%Z 64.
Proof.
  intro H. unfold copyat, gocopy. cbn [firstn skipn app]. rewrite H, repeat_length.
  rewrite firstn_all2 by (rewrite repeat_length; lia). now rewrite skipn_all2, app_nil_r by lia.
Qed.
Lemma repeat_split {A} (v : A) a b : repeat v (a + b) = repeat v a ++ repeat v b.
Proof. apply repeat_app. Qed.

(** the padded message in terms of whole blocks and the rest *)
Lemma strengthen_short enc q t k : length q = k * 64 -> length t <= 55 ->
  strengthen enc (q ++ t) = q ++ (t ++ 128%Z :: repeat 0%Z (55 - length t)) ++ enc (8 * Z.of_nat (length (q ++ t)))%Z.
Proof.
  intros Q T. unfold strengthen. rewrite app_length at 1. rewrite Q, Nat.add_comm, Nat.mod_add by lia.
  rewrite (Nat.mod_small (length t)) by lia.
  replace ((119 - length t) mod 64) with (55 - length t).
  - now rewrite <- !app_assoc.
  - replace (119 - length t) with (55 - length t + 1 * 64) by lia. rewrite Nat.mod_add by lia. rewrite Nat.mod_small; lia.
Qed.
Lemma strengthen_long enc q t k : length q = k * 64 -> 55 < length t < 64 ->
  strengthen enc (q ++ t) = q ++ (t ++ 128%Z :: repeat 0%Z (63 - length t)) ++ repeat 0%Z 56 ++ enc (8 * Z.of_nat (length (q ++ t)))%Z.
Proof.
  intros Q T. unfold strengthen. rewrite app_length at 1. rewrite Q, Nat.add_comm, Nat.mod_add by lia.
  rewrite (Nat.mod_small (length t)) by lia. rewrite (Nat.mod_small (119 - length t)) by lia.
  replace (119 - length t) with (63 - length t + 56) by lia. rewrite repeat_split.
  rewrite <- !app_assoc. reflexivity.
Qed.

(** * MD2 *)
Lemma md2_pair l s d : fold_left md2_block l (s, d) = (fold_left md2_compress l s, fold_left (fun c b => md2_chk c.[15] c b) l d).
Proof. revert s d; induction l as [|b l IH]; intros; cbn [fold_left]; auto. unfold md2_block at 2. apply IH. Qed.
Lemma md2_chk_len t d p : length d = length p -> length (md2_chk t d p) = length d.
Proof. revert t p; induction d; destruct p; cbn; intros; auto; lia. Qed.
Lemma md2_checkbytes_len q k : length q = k * 16 -> length (md2_checkbytes q) = 16.
Proof.
  unfold md2_checkbytes, iterated. intro H. assert (P : 0 < 16) by lia. destruct (chunks_all_len _ _ P H) as [A _]. unfold all_len in A. revert A.
  generalize (chunks 16 q). intros l A. assert (D : length (repeat 0%Z 16) = 16) by reflexivity.
  revert D A. generalize (repeat 0%Z 16). induction l as [|b l IH]; intros d D A; cbn; auto.
  inversion A; subst. apply IH; auto. rewrite md2_chk_len; lia.
Qed.
Lemma md2_padded_len m : exists k, length (md2_padded m) = k * 16.
Proof.
  exists (length m / 16 + 1). unfold md2_padded. rewrite app_length, repeat_length.
  pose proof (Nat.div_mod (length m) 16). pose proof (Nat.mod_upper_bound (length m) 16). lia.
Qed.
Lemma md2_sum_ok m d inp : Held md2_block 16 (repeat 0%Z 48, repeat 0%Z 16) m d -> md2_sum d inp = Ok (inp ++ md2_digest m).
Proof.
  intro H. unfold md2_sum, md2_checksum. assert (P : 0 < 16) by lia.
  pose proof (held_nx P H) as N.
  replace (repeat (to_byte (Z.of_nat (16 - b_nx d))) (16 - b_nx d)) with (skipn (length m) (md2_padded m)).
  2:{ unfold md2_padded. rewrite skipn_app_exact by auto. rewrite <- N. unfold to_byte. now rewrite Z.mod_small by lia. }
  assert (E : m ++ skipn (length m) (md2_padded m) = md2_padded m).
  { unfold md2_padded. now rewrite skipn_app_exact. }
  pose proof (write_held P (skipn (length m) (md2_padded m)) H) as H1. fold md2_write in H1. rewrite E in H1.
  destruct (md2_padded_len m) as [k L].
  destruct (held_blocks P H1 L) as [S1 N1]. rewrite N1. cbn [Nat.eqb negb].
  set (d1 := md2_write d _) in *.
  assert (S1' : b_s d1 = (iterated 16 md2_compress (repeat 0%Z 48) (md2_padded m), md2_checkbytes (md2_padded m))).
  { rewrite S1. unfold iterated. rewrite md2_pair. reflexivity. }
  pose proof (write_held P (snd (b_s d1)) H1) as H2. fold md2_write in H2.
  rewrite S1' in *. cbn [snd] in *.
  assert (L2 : length (md2_padded m ++ md2_checkbytes (md2_padded m)) = (k + 1) * 16).
  { rewrite app_length, L, (md2_checkbytes_len L). lia. }
  destruct (held_blocks P H2 L2) as [S2 N2]. rewrite N2. cbn [Nat.eqb negb rbind].
  do 2 f_equal. rewrite S2. unfold iterated. rewrite md2_pair. reflexivity.
Qed.

(** * SM3 *)
Lemma sm3_len_bytes L : (0 <= L)%Z ->
  be_bytes 4 (Z.shiftr (L mod 2 ^ 64 / 64) 23) ++ be_bytes 4 (wadd 64 (wshl 64 (L mod 2 ^ 64 / 64) 9) (wshl 64 (L mod 64) 3)) = be_bytes 8 (8 * L).
Proof.
  intro H.
  assert (B : forall z, be_bytes 4 (z / 2 ^ 32) ++ be_bytes 4 z = be_bytes 8 z).
  { intro z. unfold be_bytes. rewrite <- rev_app_distr. f_equal. cbn [le_bytes app]. rewrite !Z.div_div by lia. reflexivity. }
  assert (M : forall n z, be_bytes n z = be_bytes n (z mod 256 ^ Z.of_nat n)).
  { intros n z. rewrite <- (be_val_bytes n z). symmetry. apply be_bytes_val; [apply be_bytes_ok|apply be_bytes_length]. }
  rewrite <- B. rewrite (M 4 (wadd _ _ _)), (M 4 (8 * L)%Z), (M 4 (Z.shiftr _ _)), (M 4 (8 * L / 2 ^ 32)%Z).
  change (256 ^ Z.of_nat 4)%Z with (2 ^ 32)%Z. rewrite Z.shiftr_div_pow2 by lia. unfold wadd, wshl. rewrite !Z.shiftl_mul_pow2 by lia.
  assert (R : (forall a, (a mod 2 ^ 64) mod 2 ^ 32 = a mod 2 ^ 32)%Z).
  { intro a. change (2 ^ 64)%Z with (2 ^ 32 * 2 ^ 32)%Z. rewrite Z.rem_mul_r by lia. rewrite Z.mul_comm, Z.mod_add by lia. now rewrite Z.mod_mod by lia. }
  assert (Q : (L = 2 ^ 64 * (L / 2 ^ 64) + L mod 2 ^ 64)%Z) by (apply Z.div_mod; lia).
  assert (Q2 : (L mod 2 ^ 64 = 64 * (L mod 2 ^ 64 / 64) + L mod 64)%Z).
  { rewrite (Z.div_mod (L mod 2 ^ 64) 64) at 1 by lia. f_equal.
    change (2 ^ 64)%Z with (64 * 2 ^ 58)%Z. rewrite Z.rem_mul_r by lia. rewrite Z.mul_comm, Z.mod_add by lia. now rewrite Z.mod_mod by lia. }
  f_equal; f_equal.
  - (* high *)
    rewrite !Z.div_div by lia. change (64 * 2 ^ 23)%Z with (2 ^ 29)%Z.
    replace (8 * L / 2 ^ 32)%Z with (L / 2 ^ 29)%Z.
    2:{ change (2 ^ 32)%Z with (8 * 2 ^ 29)%Z. now rewrite Z.div_mul_cancel_l by lia. }
    rewrite Q at 2. replace (2 ^ 64 * (L / 2 ^ 64))%Z with ((L / 2 ^ 64 * 2 ^ 35) * 2 ^ 29)%Z by ring.
    rewrite Z.div_add_l by lia. replace (L / 2 ^ 64 * 2 ^ 35)%Z with (L / 2 ^ 64 * 2 ^ 3 * 2 ^ 32)%Z by ring.
    rewrite Z.add_comm, Z.mod_add by lia. reflexivity.
  - rewrite R. rewrite <- Z.add_mod_idemp_l, <- (Z.add_mod_idemp_r _ (_ mod 2 ^ 64)) by lia. rewrite !R.
    rewrite Z.add_mod_idemp_l, Z.add_mod_idemp_r by lia.
    transitivity ((8 * (L mod 2 ^ 64)) mod 2 ^ 32)%Z.
    + f_equal. rewrite Q2 at 2. ring.
    + rewrite Q at 2. replace (8 * (2 ^ 64 * (L / 2 ^ 64) + L mod 2 ^ 64))%Z with (8 * (L mod 2 ^ 64) + (2 ^ 35 * (L / 2 ^ 64)) * 2 ^ 32)%Z by ring.
      now rewrite Z.mod_add by lia.
Qed.
Lemma last_block a e1 e2 (z : bytes) : length a = 56 -> length e1 = 4 -> length e2 = 4 -> length z = 8 ->
  copyat 60 e2 (copyat 56 e1 (a ++ z)) = a ++ e1 ++ e2.
Proof.
  intros A E1 E2 Z8. do 8 (destruct z as [|? z]; [discriminate|]). destruct z; [|discriminate].
  match goal with |- context [a ++ ?w] => change w with (firstn 4 w ++ skipn 4 w) end.
  rewrite (@copyat_mid_n 56 a) by auto. cbn [skipn].
  rewrite app_assoc. rewrite <- (app_nil_r [_; _; _; _]).
  rewrite (@copyat_mid_n 60 (a ++ e1)) by (auto; rewrite app_length; lia). now rewrite app_nil_r, <- app_assoc.
Qed.
Lemma sm3_sum_ok m d inp : Held sm3_block 64 sm3_iv m d -> sm3_sum d inp = Ok (inp ++ sm3_digest m).
Proof.
  intro H. assert (P : 0 < 64) by lia. pose proof (held_nx P H) as N. destruct H as (q & t & k & []).
  unfold sm3_sum, sm3_digest. do 2 f_equal. unfold sm3_checksum.
  rewrite (Nat.mod_small (b_nx d)) by lia. rewrite mark_zero by lia. rewrite h_X, h_x.
  set (L := Z.of_nat (length m)) in *.
  assert (N' : Z.of_nat (b_nx d) = (L mod 64)%Z) by (unfold L; rewrite N; now rewrite Nat2Z.inj_mod).
  pose proof (@sm3_len_bytes L (Nat2Z.is_nonneg _)) as LB. rewrite <- h_len, <- N' in LB.
  destruct (64 - b_nx d <? 9) eqn:C.
  - apply Nat.ltb_lt in C. f_equal.
    set (x1 := t ++ 128%Z :: repeat 0%Z (64 - b_nx d - 1)).
    assert (X1 : length x1 = 64) by (unfold x1; rewrite app_length; cbn [length]; rewrite repeat_length; lia).
    rewrite copyat_zeros by auto.
    change (repeat 0%Z 64) with (repeat 0%Z 56 ++ repeat 0%Z 8).
    rewrite last_block; try reflexivity; try apply be_bytes_length. rewrite LB.
    rewrite h_m. rewrite (strengthen_long _ h_q) by lia. rewrite <- h_m. fold L.
    replace (63 - length t) with (64 - b_nx d - 1) by lia. fold x1.
    assert (B : length (repeat 0%Z 56 ++ be_bytes 8 (8 * L)) = 64) by (rewrite app_length, be_bytes_length; reflexivity).
    rewrite (iterated_app _ _ _ P h_q), (iterated_app _ _ _ P (X1 : length x1 = 1 * 64)).
    rewrite !iterated_one by (auto; lia). now rewrite h_s.
  - apply Nat.ltb_ge in C. f_equal.
    replace (64 - b_nx d - 1) with (55 - b_nx d + 8) by lia. rewrite repeat_split.
    change (128%Z :: repeat 0%Z (55 - b_nx d) ++ repeat 0%Z 8) with ((128%Z :: repeat 0%Z (55 - b_nx d)) ++ repeat 0%Z 8).
    rewrite app_assoc. set (x1 := t ++ 128%Z :: repeat 0%Z (55 - b_nx d)).
    assert (X1 : length x1 = 56) by (unfold x1; rewrite app_length; cbn [length]; rewrite repeat_length; lia).
    rewrite last_block; try reflexivity; try apply be_bytes_length; auto. rewrite LB.
    rewrite h_m. rewrite (strengthen_short _ h_q) by lia. rewrite <- h_m. fold L. rewrite h_t. fold x1.
    rewrite (iterated_app _ _ _ P h_q).
    rewrite iterated_one; [now rewrite h_s|lia|rewrite app_length, be_bytes_length; lia].
Qed.

(** * HAS-160 *)
Lemma le_bytes_mod n z : le_bytes n z = le_bytes n (z mod 256 ^ Z.of_nat n).
Proof.
  revert z; induction n as [|n IH]; intro z; [reflexivity|]. cbn [le_bytes].
  rewrite Nat2Z.inj_succ, Z.pow_succ_r by lia. assert (0 < 256 ^ Z.of_nat n)%Z by (apply Z.pow_pos_nonneg; lia).
  rewrite Z.rem_mul_r by lia. f_equal.
  - rewrite Z.mul_comm, Z.mod_add by lia. now rewrite Z.mod_mod by lia.
  - rewrite (Z.mul_comm 256 (_ mod _)), Z.div_add by lia. rewrite (Z.div_small (z mod 256)) by (apply Z.mod_pos_bound; lia). now rewrite Z.add_0_l, <- IH.
Qed.
Lemma has_last a e (z : bytes) : length a = 56 -> length e = 8 -> length z = 8 -> copyat 56 e (a ++ z) = a ++ e.
Proof.
  intros A E Z8. rewrite <- (app_nil_r z). rewrite (@copyat_mid_n 56) by lia. now rewrite app_nil_r.
Qed.
Lemma has_sum_ok m d inp : Held has_block 64 has_initH m d -> has_sum d inp = Ok (inp ++ has_digest m).
Proof.
  intro H. assert (P : 0 < 64) by lia. destruct H as (q & t & k & []).
  unfold has_sum, has_digest, has_checksum.
  destruct (length (b_x d) <=? b_nx d) eqn:C0; [apply Nat.leb_le in C0; lia|].
  set (L := Z.of_nat (length m)) in *.
  assert (LB : le_bytes 8 (wmul 64 (b_len d) 8) = le_bytes 8 (8 * L)).
  { unfold wmul. rewrite h_len, Z.mul_mod_idemp_l by lia. rewrite (le_bytes_mod 8 (8 * L)). change (256 ^ Z.of_nat 8)%Z with (2 ^ 64)%Z. now rewrite (Z.mul_comm 8). }
  rewrite LB.
  destruct (64 - 8 <? b_nx d + 1) eqn:C.
  - apply Nat.ltb_lt in C. cbn [rbind]. do 3 f_equal. rewrite mark_zero by lia. rewrite h_X, h_x.
    set (x1 := t ++ 128%Z :: repeat 0%Z (64 - b_nx d - 1)).
    assert (X1 : length x1 = 64) by (unfold x1; rewrite app_length; cbn [length]; rewrite repeat_length; lia).
    rewrite copyat_zeros by auto.
    change (repeat 0%Z 64) with (repeat 0%Z 56 ++ repeat 0%Z 8).
    rewrite has_last; try reflexivity.
    rewrite h_m. rewrite (strengthen_long _ h_q) by lia. rewrite <- h_m. fold L.
    replace (63 - length t) with (64 - b_nx d - 1) by lia. fold x1.
    rewrite (iterated_app _ _ _ P h_q), (iterated_app _ _ _ P (X1 : length x1 = 1 * 64)).
    rewrite !iterated_one by (auto; lia). now rewrite h_s.
  - apply Nat.ltb_ge in C. cbn [rbind]. do 3 f_equal. rewrite mark_zero by lia. rewrite h_X, h_x.
    replace (64 - b_nx d - 1) with (55 - b_nx d + 8) by lia. rewrite repeat_split.
    change (128%Z :: repeat 0%Z (55 - b_nx d) ++ repeat 0%Z 8) with ((128%Z :: repeat 0%Z (55 - b_nx d)) ++ repeat 0%Z 8).
    rewrite app_assoc. set (x1 := t ++ 128%Z :: repeat 0%Z (55 - b_nx d)).
    assert (X1 : length x1 = 56) by (unfold x1; rewrite app_length; cbn [length]; rewrite repeat_length; lia).
    rewrite has_last; try reflexivity; auto.
    rewrite h_m. rewrite (strengthen_short _ h_q) by lia. rewrite <- h_m. fold L. rewrite h_t. fold x1.
    rewrite (iterated_app _ _ _ P h_q).
    rewrite iterated_one; [now rewrite h_s|lia|rewrite app_length; cbn [length le_bytes]; lia].
Qed.
Lemma stw_be_len n ws : length (stw_be n ws) = length ws * n.
Proof. unfold stw_be. induction ws; cbn [map concat length]; auto. rewrite app_length, be_bytes_length, IHws. lia. Qed.
Lemma stw_len n ws : length (stw n ws) = length ws * n.
Proof. unfold stw. induction ws; cbn [map concat length]; auto. rewrite app_length, le_bytes_length, IHws. lia. Qed.
Lemma ldw_stw_be n ws : 0 < n -> Forall (inw (8 * Z.of_nat n)) ws -> ldw_be n (stw_be n ws) = ws.
Proof.
  intros P F. unfold ldw_be, stw_be. rewrite chunks_of_concat; auto.
  - rewrite map_map. rewrite <- (map_id ws) at 2. apply map_ext_in. rewrite Forall_forall in F. intros. apply val_byt_be. auto.
  - unfold all_len. rewrite Forall_map. apply Forall_forall. intros. apply be_bytes_length.
Qed.
