(** Proofs about JksModel. *)
From Verif Require Import Base CcmProofs OcbProofs JksModel JksSpec.
Set Implicit Arguments. Unset Strict Implicit.
Local Open Scope nat_scope.

Lemma chars_utf16 pw : bytes_ok pw -> chars_to_bytes pw = utf16 pw.
Proof.
  induction pw as [|c pw IH]; intros O; [reflexivity|]. inversion O as [|? ? Oc Op]; subst. cbn [chars_to_bytes utf16 flat_map app]. unfold utf16 in IH. rewrite IH by auto.
  f_equal. rewrite Z.shiftr_div_pow2 by lia. apply Z.div_small. red in Oc. lia.
Qed.

(** ** the key protector *)
Section protector.
  Variable H : bytes -> bytes.
  Hypothesis HL : forall x, length (H x) = 20.
  Lemma block_shift pw seed i : block H pw (block H pw seed 1) i = block H pw seed (S i).
  Proof. induction i as [|i IH]; [reflexivity|]. cbn [block] in *. rewrite IH. reflexivity. Qed.
  Lemma stream_S pw seed n : stream H pw seed (S n) = block H pw seed 1 ++ stream H pw (block H pw seed 1) n.
  Proof.
    unfold stream. cbn [seq map concat]. f_equal. f_equal. rewrite <- (seq_shift n 1), map_map. apply map_ext. intros i. symmetry. apply block_shift.
  Qed.
  Lemma stream_length pw seed n : length (stream H pw seed n) = 20 * n.
  Proof. revert seed. induction n as [|n IH]; intros seed; [reflexivity|]. rewrite stream_S, app_length, IH. cbn [block]. rewrite HL. lia. Qed.
  Lemma ks_loop_stream pw : forall f seed input n, length seed = 20 -> length input <= f -> length input <= n -> ks_loop H f pw seed input = xorl input (stream H pw seed n).
  Proof.
    induction f as [|f IH]; intros seed input n Ls Lf Ln.
    - destruct input; [reflexivity|cbn in Lf; lia].
    - destruct input as [|x input]; [reflexivity|]. set (inp := x :: input) in *. change (ks_loop H (S f) pw seed inp) with
       (let keystream := firstn (length seed) (H (pw ++ seed)) in xorl (firstn (length keystream) inp) keystream ++ ks_loop H f pw keystream (skipn (length keystream) inp)).
      cbv zeta. rewrite Ls. rewrite (@firstn_all2 _ 20 (H (pw ++ seed))) by (rewrite HL; lia). rewrite HL. destruct n as [|n]; [cbn in Ln; lia|]. rewrite stream_S. cbn [block].
      assert (L1 : 1 <= length inp) by (cbn; lia). rewrite (IH (H (pw ++ seed)) (skipn 20 inp) n); [|auto|rewrite skipn_length; lia|rewrite skipn_length; lia].
      rewrite <- (firstn_skipn 20 inp) at 3. destruct (Nat.le_gt_cases 20 (length inp)) as [G|G].
      + symmetry. apply xorl_app. rewrite firstn_length, HL. lia.
      + rewrite (skipn_all2 (n := 20)) by lia. rewrite app_nil_r. cbn [xorl]. rewrite app_nil_r. symmetry. apply xorl_app_r. rewrite firstn_length, HL. lia.
  Qed.
  Lemma encrypt_protect seed key pw : length seed = 20 -> bytes_ok pw -> encrypt_key H seed key pw = protect H pw seed key.
  Proof. intros Ls O. unfold encrypt_key, protect. cbv zeta. rewrite chars_utf16 by auto. rewrite (@ks_loop_stream _ _ _ _ (length key)) by auto. reflexivity. Qed.
  Lemma xorl_len_stream key pw seed : length (xorl key (stream H pw seed (length key))) = length key.
  Proof. rewrite xorl_length, stream_length. lia. Qed.
  Lemma protect_length pw seed key : length seed = 20 -> length (protect H pw seed key) = length key + 40.
  Proof. intros Ls. unfold protect. cbv zeta. rewrite !app_length, xorl_len_stream, HL. lia. Qed.
  Lemma decrypt_short e pw : decrypt_key H e pw = Panic <-> length e < 40.
  Proof.
    clear HL. unfold decrypt_key. destruct (Nat.ltb_spec (length e) 20); [split; [lia|auto]|]. destruct (Nat.ltb_spec (length e) 40); [split; auto|]. cbv zeta. destruct (bytes_eqb _ _); split; (discriminate || lia).
  Qed.
  Lemma skipn_app_len (a b : bytes) n : length a = n -> skipn n (a ++ b) = b.
  Proof. intros <-. now rewrite skipn_app, skipn_all, Nat.sub_diag. Qed.
  Lemma firstn_app_len (a b : bytes) n : length a = n -> firstn n (a ++ b) = a.
  Proof. intros <-. now rewrite firstn_app, firstn_all, Nat.sub_diag, firstn_O, app_nil_r. Qed.
  Lemma decrypt_exact e pw k : bytes_ok pw -> (decrypt_key H e pw = Ok k <-> exists seed, length seed = 20 /\ e = protect H pw seed k).
  Proof.
    intros O. split.
    - unfold decrypt_key. destruct (Nat.ltb_spec (length e) 20); [discriminate|]. destruct (Nat.ltb_spec (length e) 40); [discriminate|]. cbv zeta. rewrite chars_utf16 by auto.
      set (seed := firstn 20 e). set (c := slice 20 (length e - 40) e). set (chk := skipn (length e - 20) e).
      assert (Ls : length seed = 20) by (unfold seed; rewrite firstn_length; lia). assert (Lc : length c = length e - 40) by (unfold c, slice; rewrite firstn_length, skipn_length; lia).
      rewrite (@ks_loop_stream (utf16 pw) (length e - 40) seed c (length e - 40)) by lia. destruct (bytes_eqb _ _) eqn:E; [|discriminate]. intros K. injection K as K. apply bytes_eqb_eq in E.
      exists seed. split; [auto|]. unfold protect. cbv zeta. assert (Lk : length k = length e - 40) by (rewrite <- K, xorl_length, stream_length; lia).
      rewrite Lk. rewrite <- K. rewrite xorl_cancel_r by (rewrite stream_length; lia). rewrite <- E.
      unfold seed, c, chk, slice. rewrite <- (firstn_skipn 20 e) at 1. f_equal. rewrite <- (firstn_skipn (length e - 40) (skipn 20 e)) at 1. f_equal.
      replace (length e - 20) with (20 + (length e - 40)) by lia. set (m := length e - 40). clearbody m. clear. revert e. generalize 20 as j. induction j as [|j IHj]; intros e; [reflexivity|].
      destruct e as [|x e]; [cbn [skipn]; destruct m; reflexivity|]. cbn [skipn Nat.add]. apply IHj.
    - intros (seed & Ls & ->). unfold decrypt_key. rewrite protect_length by auto. destruct (Nat.ltb_spec (length k + 40) 20); [lia|]. destruct (Nat.ltb_spec (length k + 40) 40); [lia|]. cbv zeta.
      rewrite chars_utf16 by auto. replace (length k + 40 - 40) with (length k) by lia. unfold protect. cbv zeta. rewrite firstn_app_len by auto.
      assert (S : slice 20 (length k) (seed ++ xorl k (stream H (utf16 pw) seed (length k)) ++ H (utf16 pw ++ k)) = xorl k (stream H (utf16 pw) seed (length k))).
      { unfold slice. rewrite skipn_app_len by auto. apply firstn_app_len. apply xorl_len_stream. }
      rewrite S. rewrite (@ks_loop_stream _ _ _ _ (length k)) by (auto; rewrite xorl_len_stream; lia). rewrite xorl_cancel_r by (rewrite stream_length; lia).
      rewrite app_assoc. rewrite skipn_app_len by (rewrite app_length, xorl_len_stream; lia). rewrite bytes_eqb_refl. reflexivity.
  Qed.
End protector.

(** ** readers *)
Lemma read_n_app n (a r : bytes) : length a = n -> read_n n (a ++ r) = Ok (a, r).
Proof. intros L. unfold read_n. rewrite app_length. destruct (Nat.ltb_spec (length a + length r) n); [lia|]. now rewrite firstn_app_len, skipn_app_len. Qed.
Lemma read_n_inv n r a r' : read_n n r = Ok (a, r') -> r = a ++ r' /\ length a = n.
Proof. unfold read_n. destruct (Nat.ltb_spec (length r) n); [discriminate|]. intros E. injection E as <- <-. rewrite firstn_skipn, firstn_length. split; [auto|lia]. Qed.
Lemma read_n_np n r : read_n n r <> Panic.
Proof. unfold read_n. destruct (_ <? _); discriminate. Qed.
Lemma read_u32_app v r : (0 <= v < 2 ^ 32)%Z -> read_u32 (be_bytes 4 v ++ r) = Ok (v, r).
Proof. intros B. unfold read_u32. rewrite read_n_app by apply be_bytes_length. cbn [rbind fst snd]. rewrite be_val_bytes, Z.mod_small by (change (256 ^ Z.of_nat 4)%Z with (2 ^ 32)%Z; lia). reflexivity. Qed.
Lemma read_u32_inv r v r' : bytes_ok r -> read_u32 r = Ok (v, r') -> r = be_bytes 4 v ++ r'.
Proof.
  intros O. unfold read_u32. destruct (read_n 4 r) as [[a x]| |] eqn:R; cbn [rbind fst snd]; try discriminate. intros E. injection E as <- <-. apply read_n_inv in R as [-> L].
  apply Forall_app in O as [Oa _]. now rewrite be_bytes_val.
Qed.
Lemma read_int32_app cb r : length cb = 4 -> read_int32 (cb ++ r) = Ok (signed cb, r).
Proof. intros L. unfold read_int32. rewrite read_n_app by auto. cbn [rbind fst snd]. unfold signed. rewrite L. reflexivity. Qed.
Lemma read_int32_inv r v r' : read_int32 r = Ok (v, r') -> exists cb, r = cb ++ r' /\ length cb = 4 /\ v = signed cb.
Proof.
  unfold read_int32. destruct (read_n 4 r) as [[a x]| |] eqn:R; cbn [rbind fst snd]; try discriminate. intros E. injection E as <- <-. apply read_n_inv in R as [-> L].
  exists a. split; [auto|]. split; [auto|]. unfold signed. rewrite L. reflexivity.
Qed.
Lemma signed_be (n : nat) d : 1 <= n -> (- (256 ^ Z.of_nat n / 2) <= d < 256 ^ Z.of_nat n / 2)%Z -> signed (be_bytes n d) = d.
Proof.
  intros N B. unfold signed. rewrite be_bytes_length, be_val_bytes. set (m := (256 ^ Z.of_nat n)%Z) in *. assert (M : (m = 2 * (m / 2))%Z).
  { assert (m mod 2 = 0)%Z. { unfold m. replace (Z.of_nat n) with (Z.succ (Z.of_nat n - 1)) by lia. rewrite Z.pow_succ_r by lia. replace (256 * 256 ^ (Z.of_nat n - 1))%Z with (128 * 256 ^ (Z.of_nat n - 1) * 2)%Z by ring. apply Z.mod_mul. lia. }
    pose proof (Z.div_mod m 2 ltac:(lia)). lia. }
  assert (P : (0 < m)%Z) by (unfold m; apply Z.pow_pos_nonneg; lia).
  destruct (Z.lt_ge_cases d 0) as [G|G].
  - assert (E : (d mod m = d + m)%Z). { rewrite <- (Z.mod_add d 1 m) by lia. rewrite Z.mul_1_l. apply Z.mod_small. lia. } rewrite E. destruct (Z.ltb_spec (d + m) (m / 2)); lia.
  - rewrite Z.mod_small by lia. destruct (Z.ltb_spec d (m / 2)); lia.
Qed.
Lemma be_signed bs : bytes_ok bs -> 1 <= length bs -> be_bytes (length bs) (signed bs) = bs /\ (- (256 ^ Z.of_nat (length bs) / 2) <= signed bs < 256 ^ Z.of_nat (length bs) / 2)%Z.
Proof.
  intros O L. pose proof (be_val_bound O) as B. unfold signed. cbv zeta. set (m := (256 ^ Z.of_nat (length bs))%Z) in *. assert (M : (m = 2 * (m / 2))%Z).
  { assert (m mod 2 = 0)%Z. { unfold m. replace (Z.of_nat (length bs)) with (Z.succ (Z.of_nat (length bs) - 1)) by lia. rewrite Z.pow_succ_r by lia. replace (256 * 256 ^ (Z.of_nat (length bs) - 1))%Z with (128 * 256 ^ (Z.of_nat (length bs) - 1) * 2)%Z by ring. apply Z.mod_mul. lia. }
    pose proof (Z.div_mod m 2 ltac:(lia)). lia. }
  destruct (Z.ltb_spec (be_val bs) (m / 2)); (split; [|lia]).
  - now apply be_bytes_val.
  - rewrite <- be_bytes_mod. fold m. replace (be_val bs - m)%Z with (be_val bs + (-1) * m)%Z by ring. rewrite Z.mod_add by lia. rewrite Z.mod_small by lia. now apply be_bytes_val.
Qed.
Lemma read_utf_app s r : small (length s) (2 ^ 16) -> read_utf (text s ++ r) = Ok (s, r).
Proof.
  intros B. red in B. unfold read_utf, text. rewrite <- app_assoc. rewrite read_n_app by apply be_bytes_length. cbn [rbind fst snd]. rewrite be_val_bytes, Z.mod_small by (change (256 ^ Z.of_nat 2)%Z with (2 ^ 16)%Z; lia).
  rewrite Nat2Z.id. now apply read_n_app.
Qed.
Lemma read_utf_inv r s r' : bytes_ok r -> read_utf r = Ok (s, r') -> r = text s ++ r' /\ small (length s) (2 ^ 16).
Proof.
  intros O. unfold read_utf. destruct (read_n 2 r) as [[a x]| |] eqn:R; cbn [rbind fst snd]; try discriminate. intros E. apply read_n_inv in R as [-> L]. apply read_n_inv in E as [-> L2].
  apply Forall_app in O as [Oa Ob]. pose proof (be_val_bound Oa) as B. rewrite L in B. change (256 ^ Z.of_nat 2)%Z with (2 ^ 16)%Z in B. unfold text, small. rewrite L2. rewrite Z2Nat.id by lia. split; [|lia]. rewrite be_bytes_val by auto. now rewrite <- app_assoc.
Qed.
Lemma signed32 n : small n (2 ^ 31) -> signed (be_bytes 4 (Z.of_nat n)) = Z.of_nat n.
Proof. intros B. apply signed_be; [lia|]. red in B. change (256 ^ Z.of_nat 4 / 2)%Z with (2 ^ 31)%Z. lia. Qed.
Lemma read_bytes_app s r : small (length s) (2 ^ 31) -> read_bytes (blob s ++ r) = Ok (s, r).
Proof.
  intros B. unfold read_bytes, blob. rewrite <- app_assoc. rewrite read_int32_app by apply be_bytes_length. cbn [rbind fst snd]. rewrite signed32 by auto. destruct (Z.ltb_spec (Z.of_nat (length s)) 0); [lia|].
  rewrite Nat2Z.id. now apply read_n_app.
Qed.
Lemma read_bytes_inv r s r' : bytes_ok r -> read_bytes r = Ok (s, r') -> r = blob s ++ r' /\ small (length s) (2 ^ 31).
Proof.
  intros O. unfold read_bytes. destruct (read_int32 r) as [[v x]| |] eqn:R; cbn [rbind fst snd]; try discriminate. apply read_int32_inv in R as (cb & -> & L & ->). destruct (Z.ltb_spec (signed cb) 0) as [|G]; [discriminate|].
  intros E. apply read_n_inv in E as [-> L2]. apply Forall_app in O as [Oa Ob]. destruct (be_signed Oa ltac:(lia)) as [S1 S2]. rewrite L in S1, S2. change (256 ^ Z.of_nat 4 / 2)%Z with (2 ^ 31)%Z in S2.
  unfold blob, small. rewrite L2, Z2Nat.id by lia. split; [|lia]. rewrite S1. now rewrite <- app_assoc.
Qed.
Lemma date_eq v : (Z.quot v 1000 * 1000000000 + (v - Z.quot v 1000 * 1000) * 1000 * 1000 = v * 1000000)%Z.
Proof. ring. Qed.
Lemma read_date_app d r : (- 2 ^ 63 <= d < 2 ^ 63)%Z -> read_date (be_bytes 8 d ++ r) = Ok ((d * 1000000)%Z, r).
Proof.
  intros B. unfold read_date. rewrite read_n_app by apply be_bytes_length. cbn [rbind fst snd]. rewrite date_eq. pose proof (@signed_be 8 d ltac:(lia)) as S. unfold signed in S. rewrite be_bytes_length in S.
  change (256 ^ Z.of_nat 8 / 2)%Z with (2 ^ 63)%Z in S. change (256 ^ Z.of_nat 8)%Z with (2 ^ 64)%Z in S. rewrite S by lia. reflexivity.
Qed.
Lemma read_date_inv r t r' : bytes_ok r -> read_date r = Ok (t, r') -> exists d, r = be_bytes 8 d ++ r' /\ (- 2 ^ 63 <= d < 2 ^ 63)%Z /\ t = (d * 1000000)%Z.
Proof.
  intros O. unfold read_date. destruct (read_n 8 r) as [[a x]| |] eqn:R; cbn [rbind fst snd]; try discriminate. intros E. injection E as <- <-. apply read_n_inv in R as [-> L]. apply Forall_app in O as [Oa Ob].
  exists (signed a). destruct (be_signed Oa ltac:(lia)) as [S1 S2]. rewrite L in S1, S2. rewrite S1. split; [auto|]. split; [exact S2|]. rewrite date_eq. unfold signed. rewrite L. reflexivity.
Qed.
Lemma cert_type_small : small (length x509) (2 ^ 16).
Proof. cbv. reflexivity. Qed.
Lemma read_chain_app chain : forall r, Forall (fun c => small (length c) (2 ^ 31)) chain -> read_chain (length chain) (concat (map (fun c => text x509 ++ blob c) chain) ++ r) = Ok (chain, r).
Proof.
  induction chain as [|c chain IH]; intros r F; [reflexivity|]. inversion F; subst. cbn [length map concat read_chain]. rewrite <- !app_assoc. rewrite read_utf_app by apply cert_type_small. cbn [rbind fst snd].
  change cert_type with x509. rewrite bytes_eqb_refl. rewrite read_bytes_app by auto. cbn [rbind fst snd]. rewrite IH by auto. reflexivity.
Qed.
Lemma read_chain_inv n : forall r cs r', bytes_ok r -> read_chain n r = Ok (cs, r') -> r = concat (map (fun c => text x509 ++ blob c) cs) ++ r' /\ length cs = n /\ Forall (fun c => small (length c) (2 ^ 31)) cs.
Proof.
  induction n as [|n IH]; intros r cs r' O E; cbn [read_chain] in E; [injection E as <- <-; split; [reflexivity|split; [reflexivity|constructor]]|].
  destruct (read_utf r) as [[ty r1]| |] eqn:R1; cbn [rbind fst snd] in E; try discriminate. apply read_utf_inv in R1 as [-> _]; auto. apply Forall_app in O as [_ O].
  destruct (bytes_eqb ty cert_type) eqn:T; [|discriminate]. apply bytes_eqb_eq in T as ->. destruct (read_bytes r1) as [[c r2]| |] eqn:R2; cbn [rbind fst snd] in E; try discriminate.
  apply read_bytes_inv in R2 as [-> Sc]; auto. apply Forall_app in O as [_ O]. destruct (read_chain n r2) as [[cs' r3]| |] eqn:R3; cbn [rbind fst snd] in E; try discriminate. injection E as <- <-.
  apply IH in R3 as (-> & L & F); auto. split; [cbn [map concat]; rewrite <- !app_assoc; reflexivity|]. split; [cbn; lia|constructor; auto].
Qed.

(** ** entries *)
Definition ns (d : Z) : Z := (d * 1000000)%Z.
Definition add_one (st : jks) (ae : bytes * entry) : jks :=
  match snd ae with
  | KeyEntry d k c => mk (aliases st ++ [fst ae]) (certs st) (put (keys st) (fst ae) k) (put (chains st) (fst ae) c) (put (dates st) (fst ae) (ns d))
  | CertEntry d c => mk (aliases st ++ [fst ae]) (put (certs st) (fst ae) c) (keys st) (chains st) (put (dates st) (fst ae) (ns d))
  end.
Lemma entries_read es : forall parts st r, Forall2 reads_as es parts -> parse_entries (length es) st (concat parts ++ r) = Ok (fold_left add_one es st, r).
Proof.
  induction es as [|[a e] es IH]; intros parts st r F; inversion F as [|? p ? ps R Fs]; subst; [reflexivity|]. cbn [length parse_entries concat fold_left].
  destruct R as ((Sa & Bd & Oe) & count & (Lc & Oc & Ec) & ->). cbn [fst snd] in *. destruct e as [d k chain|d c]; cbn [entry_bytes date_of chain_count] in *; rewrite <- !app_assoc; rewrite read_int32_app by apply be_bytes_length; cbn [rbind fst snd].
  - change (signed (be_bytes 4 1)) with 1%Z. cbn [Z.eqb Pos.eqb]. unfold parse_key. rewrite read_utf_app by auto. cbn [rbind fst snd]. rewrite read_date_app by auto. cbn [rbind fst snd]. rewrite read_bytes_app by apply Oe. cbn [rbind fst snd].
    rewrite read_int32_app by auto. cbn [rbind fst snd]. rewrite <- Ec. rewrite read_chain_app by apply Oe. cbn [rbind fst snd]. rewrite IH by auto. reflexivity.
  - change (signed (be_bytes 4 2)) with 2%Z. cbn [Z.eqb Pos.eqb]. unfold parse_cert. rewrite read_utf_app by auto. cbn [rbind fst snd]. rewrite read_date_app by auto. cbn [rbind fst snd]. rewrite read_utf_app by apply cert_type_small. cbn [rbind fst snd].
    change cert_type with x509. rewrite bytes_eqb_refl. rewrite read_bytes_app by auto. cbn [rbind fst snd]. rewrite IH by auto. reflexivity.
Qed.
Lemma tag_bytes cb v : length cb = 4 -> bytes_ok cb -> signed cb = v -> cb = be_bytes 4 v.
Proof. intros L O <-. destruct (be_signed O ltac:(lia)) as [E _]. rewrite L in E. auto. Qed.
Lemma entries_inv n : forall st r st' r', bytes_ok r -> parse_entries n st r = Ok (st', r') ->
  exists es parts, length es = n /\ Forall2 reads_as es parts /\ r = concat parts ++ r' /\ st' = fold_left add_one es st.
Proof.
  induction n as [|n IH]; intros st r st' r' O E; cbn [parse_entries] in E.
  { injection E as <- <-. exists [], []. split; [auto|]. split; [constructor|]. split; reflexivity. }
  destruct (read_int32 r) as [[tag r1]| |] eqn:R1; cbn [rbind fst snd] in E; try discriminate. apply read_int32_inv in R1 as (cb & -> & Lcb & ->). apply Forall_app in O as [Ocb O].
  assert (K : forall ae p st1 r2, reads_as ae (cb ++ p) -> r1 = p ++ r2 -> st1 = add_one st ae -> parse_entries n st1 r2 = Ok (st', r') ->
     exists es parts, length es = S n /\ Forall2 reads_as es parts /\ cb ++ r1 = concat parts ++ r' /\ st' = fold_left add_one es st).
  { intros ae p st1 r2 Ra Er Es Ep. apply IH in Ep as (es & parts & L & F & Ep & Est); [|rewrite Er in O; apply Forall_app in O; apply O]. exists (ae :: es), ((cb ++ p) :: parts). split; [cbn; lia|]. split; [constructor; auto|].
    split; [cbn [concat]; rewrite Er, Ep, <- !app_assoc; reflexivity|]. cbn [fold_left]. congruence. }
  destruct (Z.eqb_spec (signed cb) 1) as [T|T]; [|destruct (Z.eqb_spec (signed cb) 2) as [T2|T2]; [|discriminate]].
  - apply (tag_bytes Lcb Ocb) in T. destruct (parse_key st r1) as [[st1 r2]| |] eqn:P; cbn [rbind fst snd] in E; try discriminate. unfold parse_key in P.
    destruct (read_utf r1) as [[a ra]| |] eqn:Q1; cbn [rbind fst snd] in P; try discriminate. apply read_utf_inv in Q1 as [E1 Sa]; auto. assert (O1 : bytes_ok ra) by (rewrite E1 in O; apply Forall_app in O; apply O).
    destruct (read_date ra) as [[d rd]| |] eqn:Q2; cbn [rbind fst snd] in P; try discriminate. apply read_date_inv in Q2 as (d0 & E2 & Bd & Ed); auto. assert (O2 : bytes_ok rd) by (rewrite E2 in O1; apply Forall_app in O1; apply O1).
    destruct (read_bytes rd) as [[k rk]| |] eqn:Q3; cbn [rbind fst snd] in P; try discriminate. apply read_bytes_inv in Q3 as [E3 Sk]; auto. assert (O3 : bytes_ok rk) by (rewrite E3 in O2; apply Forall_app in O2; apply O2).
    destruct (read_int32 rk) as [[m rm]| |] eqn:Q4; cbn [rbind fst snd] in P; try discriminate. apply read_int32_inv in Q4 as (cc & E4 & Lcc & Em). rewrite E4 in O3. apply Forall_app in O3 as [Occ O4].
    destruct (read_chain (Z.to_nat m) rm) as [[cs rc]| |] eqn:Q5; cbn [rbind fst snd] in P; try discriminate. apply read_chain_inv in Q5 as (E5 & Ln & Fc); auto. injection P as <- <-.
    eapply (K (a, KeyEntry d0 k cs) (text a ++ be_bytes 8 d0 ++ blob k ++ cc ++ concat (map (fun c => text x509 ++ blob c) cs))); [| | |exact E].
    + split; [split; [auto|split; [exact Bd|split; auto]]|]. exists cc. split; [split; [auto|split; [auto|cbn; congruence]]|]. cbn [fst snd entry_bytes]. rewrite T. reflexivity.
    + rewrite E1, E2, E3, E4, E5, <- !app_assoc. reflexivity.
    + unfold add_one. cbn [fst snd]. unfold ns. rewrite <- Ed. reflexivity.
  - apply (tag_bytes Lcb Ocb) in T2. destruct (parse_cert st r1) as [[st1 r2]| |] eqn:P; cbn [rbind fst snd] in E; try discriminate. unfold parse_cert in P.
    destruct (read_utf r1) as [[a ra]| |] eqn:Q1; cbn [rbind fst snd] in P; try discriminate. apply read_utf_inv in Q1 as [E1 Sa]; auto. assert (O1 : bytes_ok ra) by (rewrite E1 in O; apply Forall_app in O; apply O).
    destruct (read_date ra) as [[d rd]| |] eqn:Q2; cbn [rbind fst snd] in P; try discriminate. apply read_date_inv in Q2 as (d0 & E2 & Bd & Ed); auto. assert (O2 : bytes_ok rd) by (rewrite E2 in O1; apply Forall_app in O1; apply O1).
    destruct (read_utf rd) as [[ty rt]| |] eqn:Q3; cbn [rbind fst snd] in P; try discriminate. apply read_utf_inv in Q3 as [E3 _]; auto. assert (O3 : bytes_ok rt) by (rewrite E3 in O2; apply Forall_app in O2; apply O2).
    destruct (bytes_eqb ty cert_type) eqn:Ty; [|discriminate]. apply bytes_eqb_eq in Ty. destruct (read_bytes rt) as [[c rc]| |] eqn:Q4; cbn [rbind fst snd] in P; try discriminate. apply read_bytes_inv in Q4 as [E4 Sc]; auto. injection P as <- <-.
    eapply (K (a, CertEntry d0 c) (text a ++ be_bytes 8 d0 ++ text x509 ++ blob c)); [| | |exact E].
    + split; [split; [auto|split; [exact Bd|auto]]|]. exists (be_bytes 4 0). split; [split; [apply be_bytes_length|split; [apply be_bytes_ok|reflexivity]]|]. cbn [fst snd entry_bytes]. rewrite T2. reflexivity.
    + rewrite E1, E2, E3, E4, Ty, <- !app_assoc. reflexivity.
    + unfold add_one. cbn [fst snd]. unfold ns. rewrite <- Ed. reflexivity.
Qed.

Section file.
  Variable H : bytes -> bytes.
  Hypothesis HL : forall x, length (H x) = 20.
  Lemma load_complete es d rest data pw : bytes_ok pw -> file_of es d -> data = d ++ digest H pw d ++ rest -> load H data pw = Ok (fold_left add_one es new_jks).
  Proof.
    intros Opw (cb & parts & (Lcb & Ocb & En) & F & Ed) ED. unfold load, parse. assert (E' : data = be_bytes 4 4277010157 ++ be_bytes 4 2 ++ cb ++ concat parts ++ digest H pw d ++ rest).
      { rewrite ED, Ed. unfold header. rewrite <- !app_assoc. reflexivity. }
      rewrite E' at 1. rewrite read_u32_app by lia. cbn [rbind fst snd]. rewrite Z.eqb_refl. rewrite read_u32_app by lia. cbn [rbind fst snd]. rewrite Z.eqb_refl. rewrite read_int32_app by auto. cbn [rbind fst snd]. rewrite <- En.
      rewrite entries_read by auto. cbn [rbind fst snd]. assert (C : firstn (length data - length (digest H pw d ++ rest)) data = d) by (rewrite ED; apply firstn_app_len; rewrite app_length; lia). rewrite C. rewrite HL, chars_utf16 by auto.
      rewrite read_n_app by (unfold digest; apply HL). cbn [rbind fst snd]. unfold digest. change aphrodite with mighty. rewrite <- app_assoc, bytes_eqb_refl. reflexivity.
  Qed.
  Lemma load_exact data pw st : bytes_ok data -> bytes_ok pw -> (load H data pw = Ok st <-> exists es d rest, file_of es d /\ data = d ++ digest H pw d ++ rest /\ st = fold_left add_one es new_jks).
  Proof.
    intros O Opw. unfold load, parse. split.
    - destruct (read_u32 data) as [[m r1]| |] eqn:R1; cbn [rbind fst snd]; try discriminate. apply read_u32_inv in R1; auto. assert (O1 : bytes_ok r1) by (rewrite R1 in O; apply Forall_app in O; apply O).
      destruct (Z.eqb_spec m 4277010157) as [->|]; [|discriminate]. destruct (read_u32 r1) as [[v r2]| |] eqn:R2; cbn [rbind fst snd]; try discriminate. apply read_u32_inv in R2; auto. assert (O2 : bytes_ok r2) by (rewrite R2 in O1; apply Forall_app in O1; apply O1).
      destruct (Z.eqb_spec v 2) as [->|]; [|discriminate]. destruct (read_int32 r2) as [[n r3]| |] eqn:R3; cbn [rbind fst snd]; try discriminate. apply read_int32_inv in R3 as (cb & E3 & Lcb & En). rewrite E3 in O2. apply Forall_app in O2 as [Ocb O3].
      destruct (parse_entries (Z.to_nat n) new_jks r3) as [[st' r4]| |] eqn:R4; cbn [rbind fst snd]; try discriminate. apply entries_inv in R4 as (es & parts & Les & F & E4 & Est); auto.
      set (d := header cb ++ concat parts). assert (ED : data = d ++ r4) by (unfold d, header; rewrite R1, R2, E3, E4, <- !app_assoc; reflexivity).
      assert (C : firstn (length data - length r4) data = d) by (rewrite ED; apply firstn_app_len; rewrite app_length; lia). rewrite C. rewrite chars_utf16 by auto. rewrite HL.
      destruct (read_n 20 r4) as [[act r5]| |] eqn:R5; cbn [rbind fst snd]; try discriminate. apply read_n_inv in R5 as [E5 L5]. destruct (bytes_eqb _ act) eqn:B; [|discriminate]. apply bytes_eqb_eq in B. intros E. injection E as <-.
      exists es, d, r5. split; [exists cb, parts; split; [split; [auto|split; [auto|congruence]]|split; [auto|reflexivity]]|]. split; [|auto]. rewrite ED, E5. unfold digest. rewrite <- app_assoc in B. change mighty with aphrodite in B. rewrite B. reflexivity.
    - intros (es & d & rest & F & ED & ->). eapply load_complete; eauto.
  Qed.
End file.

(** ** what a store holds *)
Lemma add_all_holds es : forall st, aliases (fold_left add_one es st) = aliases st ++ map fst es /\ forall a,
  dates (fold_left add_one es st) a = fold_left (fun x ae => if bytes_eqb a (fst ae) then Some (date_of (snd ae)) else x) (map_dates ns es) (dates st a) /\
  (forall k0, k0 = match keys st a, chains st a with Some k, Some c => Some (k, c) | _, _ => None end -> (keys st a = None <-> chains st a = None) ->
   let r := fold_left (fun x ae => match snd ae with KeyEntry _ k c => if bytes_eqb a (fst ae) then Some (k, c) else x | CertEntry _ _ => x end) (map_dates ns es) k0 in
   keys (fold_left add_one es st) a = option_map fst r /\ chains (fold_left add_one es st) a = option_map snd r) /\
  certs (fold_left add_one es st) a = fold_left (fun x ae => match snd ae with CertEntry _ c => if bytes_eqb a (fst ae) then Some c else x | KeyEntry _ _ _ => x end) (map_dates ns es) (certs st a).
Proof.
  induction es as [|[b e] es IH]; intros st.
  - cbn [fold_left map map_dates]. rewrite app_nil_r. split; [auto|]. intros a. split; [auto|]. split; [|auto]. intros k0 -> I. cbv zeta. destruct (keys st a), (chains st a); try (split; reflexivity); destruct I as [I1 I2]; try (specialize (I1 eq_refl)); try (specialize (I2 eq_refl)); discriminate.
  - cbn [fold_left map map_dates fst snd]. destruct (IH (add_one st (b, e))) as [A B]. split.
    + rewrite A. unfold add_one. cbn [fst snd]. destruct e; cbn [aliases]; rewrite <- app_assoc; reflexivity.
    + intros a. destruct (B a) as (B1 & B2 & B3). fold (map_dates ns es). rewrite B1, B3. unfold add_one in *. cbn [fst snd] in *. destruct e as [d k c|d c]; cbn [dates certs with_date date_of keys chains] in *; unfold put in *.
      * split; [reflexivity|]. split; [|reflexivity]. intros k0 E I. apply B2; [|destruct (bytes_eqb a b); [split; discriminate|auto]]. destruct (bytes_eqb a b); auto.
      * split; [reflexivity|]. split; [|reflexivity]. intros k0 E I. apply B2; auto.
Qed.
Lemma load_holds es : holds (fold_left add_one es new_jks) (map_dates ns es).
Proof.
  destruct (add_all_holds es new_jks) as [A B]. split; [rewrite A; unfold map_dates; rewrite map_map; reflexivity|]. intros a. destruct (B a) as (B1 & B2 & B3). destruct (B2 None eq_refl ltac:(cbn; tauto)) as [K C].
  unfold get_date, get_encoded, get_chain, get_cert. rewrite B1, K, C, B3. repeat split.
Qed.

(** ** stores built by the methods *)
Definition inv (st : jks) (es : entries) : Prop := aliases st = map fst es /\ NoDup (map fst es) /\ forall a, match lookup a es with
  | None => dates st a = None /\ keys st a = None /\ chains st a = None /\ certs st a = None
  | Some (KeyEntry d k c) => dates st a = Some d /\ keys st a = Some k /\ chains st a = Some c /\ certs st a = None
  | Some (CertEntry d c) => dates st a = Some d /\ keys st a = None /\ chains st a = None /\ certs st a = Some c end.
Lemma lookup_in a es : lookup a es = None <-> ~ In a (map fst es).
Proof.
  induction es as [|[b e] es IH]; cbn [lookup map In fst]; [tauto|]. destruct (bytes_eqb a b) eqn:E; [apply bytes_eqb_eq in E; subst; split; [discriminate|tauto]|]. apply bytes_eqb_neq in E. rewrite IH. split; [intros N [->|I]; tauto|tauto].
Qed.
Lemma lookup_app a es b e : lookup a (es ++ [(b, e)]) = match lookup a es with Some x => Some x | None => if bytes_eqb a b then Some e else None end.
Proof. induction es as [|[b' e'] es IH]; cbn [lookup app]; [reflexivity|]. destruct (bytes_eqb a b'); auto. Qed.
Lemma replace_fst a e es : map fst (replace a e es) = map fst es.
Proof. induction es as [|[b' e'] es IH]; cbn [replace map fst]; [reflexivity|]. destruct (bytes_eqb a b'); cbn [map fst]; congruence. Qed.
Lemma lookup_replace a b e es : lookup b es <> None -> lookup a (replace b e es) = if bytes_eqb a b then Some e else lookup a es.
Proof.
  induction es as [|[b' e'] es IH]; cbn [replace lookup]; intros N; [congruence|]. destruct (bytes_eqb b b') eqn:B; cbn [lookup].
  - apply bytes_eqb_eq in B. subst b'. destruct (bytes_eqb a b); auto.
  - rewrite IH by auto. destruct (bytes_eqb a b') eqn:A; [|auto]. apply bytes_eqb_eq in A. subst b'. apply bytes_eqb_neq in B. destruct (bytes_eqb a b) eqn:C; [apply bytes_eqb_eq in C; congruence|auto].
Qed.
Lemma NoDup_snoc (l : list bytes) a : NoDup l -> ~ In a l -> NoDup (l ++ [a]).
Proof. intros N I. apply NoDup_Add with (a := a) (l := l); [|auto]. pose proof (Add_app a l []) as A. rewrite app_nil_r in A. exact A. Qed.
Lemma exists_lookup a es : existsb (bytes_eqb a) (map fst es) = match lookup a es with Some _ => true | None => false end.
Proof. induction es as [|[b e] es IH]; cbn [existsb map fst lookup]; [auto|]. destruct (bytes_eqb a b); auto. Qed.
Lemma add_key_inv st es a k c now : inv st es -> let '(es', ok) := add_key_entry a k c now es in
  (if has (certs st) a then (st, false) else (touch (mk (aliases st) (certs st) (put (keys st) a k) (put (chains st) a c) (dates st)) a now, true)) =
  ((if ok then touch (mk (aliases st) (certs st) (put (keys st) a k) (put (chains st) a c) (dates st)) a now else st), ok) /\
  inv (if ok then touch (mk (aliases st) (certs st) (put (keys st) a k) (put (chains st) a c) (dates st)) a now else st) es'.
Proof.
  intros (A & N & L). unfold add_key_entry. pose proof (L a) as La. unfold has. assert (X := exists_lookup a es). destruct (lookup a es) as [[d k' c'|d c']|] eqn:E; destruct La as (L1 & L2 & L3 & L4); rewrite L4; (split; [reflexivity|]).
  - unfold touch. cbn [aliases]. rewrite A, X. split; [cbn [aliases]; rewrite replace_fst; auto|]. split; [rewrite replace_fst; auto|]. intros b. rewrite lookup_replace by congruence. cbn [dates keys chains certs]. unfold put. destruct (bytes_eqb b a) eqn:B; [apply bytes_eqb_eq in B; subst; auto|apply L].
  - split; auto.
  - unfold touch. cbn [aliases]. rewrite A, X. split; [cbn [aliases]; rewrite map_app; cbn; auto|]. split; [rewrite map_app; apply NoDup_snoc; auto; apply lookup_in; auto|]. intros b. rewrite lookup_app. cbn [dates keys chains certs]. unfold put.
    destruct (bytes_eqb b a) eqn:B; [apply bytes_eqb_eq in B; subst; rewrite E; auto|]. specialize (L b). destruct (lookup b es); auto.
Qed.
Section history.
  Variable H : bytes -> bytes.
  Variable wrap : bytes -> bytes.
  Hypothesis HL : forall x, length (H x) = 20.
  Lemma step_inv st es o : op_ok o -> inv st es -> inv (fst (do_op H wrap st o)) (fst (step H wrap es o)) /\ snd (do_op H wrap st o) = snd (step H wrap es o).
  Proof.
    intros Oo I. destruct o as [a k pw c seed now|a k c now|a c now]; cbn [do_op step].
    - destruct Oo as [Opw Ls]. unfold add_key. rewrite encrypt_protect by auto. pose proof (add_key_inv a (wrap (protect H pw seed k)) c now I) as K. destruct (add_key_entry a _ c now es) as [es' ok]. destruct K as [K1 K2]. rewrite K1. cbn [fst snd]. auto.
    - unfold add_encoded. pose proof (add_key_inv a k c now I) as K. destruct (add_key_entry a _ c now es) as [es' ok]. destruct K as [K1 K2]. rewrite K1. cbn [fst snd]. auto.
    - unfold add_cert. destruct I as (A & N & L). pose proof (L a) as La. unfold has. assert (X := exists_lookup a es). destruct (length c =? 0).
      { destruct (keys st a); cbn [fst snd]; (split; [split; auto|auto]). }
      destruct (lookup a es) as [[d k' c'|d c']|] eqn:E; destruct La as (L1 & L2 & L3 & L4); rewrite L2; cbn [fst snd]; (split; [|reflexivity]).
      + split; auto.
      + unfold touch. cbn [aliases]. rewrite A, X. split; [cbn [aliases]; rewrite replace_fst; auto|]. split; [rewrite replace_fst; auto|]. intros b. rewrite lookup_replace by congruence. cbn [dates keys chains certs]. unfold put. destruct (bytes_eqb b a) eqn:B; [apply bytes_eqb_eq in B; subst; auto|apply L].
      + unfold touch. cbn [aliases]. rewrite A, X. split; [cbn [aliases]; rewrite map_app; cbn; auto|]. split; [rewrite map_app; apply NoDup_snoc; auto; apply lookup_in; auto|]. intros b. rewrite lookup_app. cbn [dates keys chains certs]. unfold put.
        destruct (bytes_eqb b a) eqn:B; [apply bytes_eqb_eq in B; subst; rewrite E; auto|]. specialize (L b). destruct (lookup b es); auto.
  Qed.
  Lemma run_inv os : forall st es, Forall op_ok os -> inv st es -> inv (fst (run H wrap st os)) (fst (history H wrap es os)) /\ snd (run H wrap st os) = snd (history H wrap es os).
  Proof.
    induction os as [|o os IH]; intros st es F I; [cbn; auto|]. inversion F; subst. cbn [run history]. pose proof (@step_inv st es o ltac:(auto) I) as [S1 S2]. destruct (do_op H wrap st o) as [st' ok], (step H wrap es o) as [es' ok']. cbn [fst snd] in *.
    specialize (IH st' es' ltac:(auto) S1) as [I1 I2]. destruct (run H wrap st' os) as [st'' oks], (history H wrap es' os) as [es'' oks']. cbn [fst snd] in *. split; [auto|congruence].
  Qed.
  Lemma inv_new : inv new_jks [].
  Proof. split; [reflexivity|]. split; [constructor|]. intros a. cbn. auto. Qed.
  Lemma last_none {B} (f : bytes * entry -> option B) a es (x : option B) : ~ In a (map fst es) -> fold_left (fun x ae => match f ae with Some v => if bytes_eqb a (fst ae) then Some v else x | None => x end) es x = x.
  Proof. revert x. induction es as [|[b e] es IH]; intros x N; [reflexivity|]. cbn [fold_left map In fst] in *. destruct (bytes_eqb a b) eqn:E; [apply bytes_eqb_eq in E; subst; tauto|]. transitivity (fold_left (fun x ae => match f ae with Some v => if bytes_eqb a (fst ae) then Some v else x | None => x end) es x); [|apply IH; tauto]. f_equal. destruct (f (b, e)); auto. Qed.
  Lemma last_lookup {B} (f : entry -> option B) a es : NoDup (map fst es) -> fold_left (fun x ae => match f (snd ae) with Some v => if bytes_eqb a (fst ae) then Some v else x | None => x end) es None = match lookup a es with Some e => f e | None => None end.
  Proof.
    induction es as [|[b e] es IH]; intros N; [reflexivity|]. cbn [map fst] in N. inversion N as [|? ? Nb Ns]; subst. cbn [fold_left lookup fst snd]. destruct (bytes_eqb a b) eqn:E.
    - apply bytes_eqb_eq in E. subst b. rewrite (@last_none _ (fun ae => f (snd ae))) by auto. destruct (f e); auto.
    - rewrite <- IH by auto. f_equal. destruct (f e); auto.
  Qed.
  Lemma fold_ext {A B} (f g : A -> B -> A) l : (forall x y, f x y = g x y) -> forall x, fold_left f l x = fold_left g l x.
  Proof. intros E. induction l as [|y l IH]; intros x; [reflexivity|]. cbn [fold_left]. rewrite E. apply IH. Qed.
  Lemma inv_holds st es : inv st es -> holds st es.
  Proof.
    intros (A & N & L). split; [auto|]. intros a. specialize (L a).
    assert (D : last_date a es = option_map date_of (lookup a es)). { pose proof (last_lookup (fun e => Some (date_of e)) a N) as X. cbv beta iota in X. unfold last_date. rewrite X. destruct (lookup a es); auto. }
    assert (K : last_key a es = match lookup a es with Some (KeyEntry _ k c) => Some (k, c) | _ => None end).
    { pose proof (last_lookup (fun e => match e with KeyEntry _ k c => Some (k, c) | CertEntry _ _ => None end) a N) as X. transitivity (match lookup a es with Some e => match e with KeyEntry _ k c => Some (k, c) | CertEntry _ _ => None end | None => None end); [rewrite <- X|destruct (lookup a es) as [[]|]; reflexivity].
      unfold last_key. apply fold_ext. intros x [b e]. cbn [fst snd]. destruct e; reflexivity. }
    assert (C : last_cert a es = match lookup a es with Some (CertEntry _ c) => Some c | _ => None end).
    { pose proof (last_lookup (fun e => match e with KeyEntry _ k c => None | CertEntry _ c => Some c end) a N) as X. transitivity (match lookup a es with Some e => match e with KeyEntry _ k c => None | CertEntry _ c => Some c end | None => None end); [rewrite <- X|destruct (lookup a es) as [[]|]; reflexivity].
      unfold last_cert. apply fold_ext. intros x [b e]. cbn [fst snd]. destruct e; reflexivity. }
    unfold get_date, get_encoded, get_chain, get_cert. rewrite D, K, C. destruct (lookup a es) as [[d k c|d c]|]; destruct L as (L1 & L2 & L3 & L4); rewrite L1, L2, L3, L4; repeat split.
  Qed.
  (** ** writing *)
  Definition ms (t : Z) : Z := Z.quot t 1000000.
  Lemma int64_id t : (- 2 ^ 63 <= t < 2 ^ 63)%Z -> int64 t = t.
  Proof. intros B. unfold int64. rewrite Z.mod_small; [lia|]. change (2 ^ 64)%Z with (2 * 2 ^ 63)%Z. lia. Qed.
  Lemma lookup_nodup es : NoDup (map fst es) -> forall a e, In (a, e) es -> lookup a es = Some e.
  Proof.
    induction es as [|[b e'] es IH]; intros N a e I; [destruct I|]. cbn [map fst] in N. inversion N as [|? ? Nb Ns]; subst. cbn [lookup]. destruct I as [I|I]; [injection I as -> ->; now rewrite bytes_eqb_refl|].
    destruct (bytes_eqb a b) eqn:E; [|apply IH; auto]. apply bytes_eqb_eq in E. subst. exfalso. apply Nb. apply in_map_iff. exists (b, e). auto.
  Qed.
  Lemma marshal_written st es pw : bytes_ok pw -> inv st es -> sizes_ok es -> marshal H st pw = written (map_dates ms es) ++ digest H pw (written (map_dates ms es)).
  Proof.
    intros Opw (A & N & L) [Sn Sz]. unfold marshal. cbv zeta.
    assert (E : write_u32 4277010157 ++ write_u32 2 ++ write_u32 (Z.of_nat (length (aliases st))) ++ concat (map (write_entry st) (aliases st)) = written (map_dates ms es)).
    { unfold written, header, count32, write_u32. rewrite <- !app_assoc. do 3 f_equal; [rewrite A; unfold map_dates; rewrite !map_length; reflexivity|]. f_equal. rewrite A. unfold map_dates. rewrite !map_map. apply map_ext_in.
      intros [a e] I. cbn [fst snd]. pose proof (@lookup_nodup es N a e I) as Lo. specialize (L a). rewrite Lo in L. assert (Z : entry_ok a e) by exact (proj1 (proj1 (Forall_forall _ _) Sz (a, e) I)). destruct Z as (Z1 & Z2 & _).
      unfold write_entry, has. destruct e as [d k c|d c]; destruct L as (L1 & L2 & L3 & L4); rewrite L4, L1; cbn [get with_date entry_bytes chain_count date_of] in *; unfold write_date; rewrite int64_id by auto.
      - rewrite L2, L3. reflexivity.
      - reflexivity. }
    rewrite E. f_equal. unfold digest. rewrite chars_utf16 by auto. rewrite <- app_assoc. reflexivity.
  Qed.
  Lemma ms_range t : (- 2 ^ 63 <= t < 2 ^ 63)%Z -> (- 2 ^ 63 <= ms t < 2 ^ 63)%Z.
  Proof.
    intros B. unfold ms. pose proof (Z.quot_rem' t 1000000) as Q. pose proof (Z.rem_bound_abs t 1000000 ltac:(lia)) as R.
    destruct (Z.lt_ge_cases t 0) as [G|G]; [pose proof (Z.rem_sign_nz t 1000000) as _; pose proof (Z.rem_nonpos t 1000000 ltac:(lia) ltac:(lia))|pose proof (Z.rem_nonneg t 1000000 ltac:(lia) ltac:(lia))]; lia.
  Qed.
  Lemma written_file es : sizes_ok es -> file_of (map_dates ms es) (written (map_dates ms es)).
  Proof.
    intros [Sn Sz]. assert (C : forall n, small n (2 ^ 31) -> count_is n (count32 n)). { intros n B. split; [apply be_bytes_length|]. split; [apply be_bytes_ok|]. unfold count32. rewrite signed32 by auto. lia. }
    exists (count32 (length (map_dates ms es))), (map (fun ae => entry_bytes (count32 (chain_count (snd ae))) (fst ae) (snd ae)) (map_dates ms es)).
    split; [apply C; unfold map_dates; rewrite map_length; auto|]. split; [|reflexivity]. clear Sn. induction es as [|[a e] es IH]; [constructor|]. inversion Sz as [|? ? [Z1 Z2] Zs]; subst. cbn [map map_dates fst snd] in *. constructor; [|apply IH; auto].
    split; cbn [fst snd].
    - destruct Z1 as (Y1 & Y2 & Y3). split; [auto|]. destruct e; cbn [with_date date_of] in *; (split; [apply ms_range; auto|auto]).
    - exists (count32 (chain_count (with_date ms e))). split; [apply C|reflexivity]. destruct e; cbn [with_date chain_count] in *; auto.
  Qed.
  Lemma marshal_load st es pw : bytes_ok pw -> inv st es -> sizes_ok es -> exists st', load H (marshal H st pw) pw = Ok st' /\ holds st' (map_dates (fun t => ns (ms t)) es).
  Proof.
    intros Opw I S. exists (fold_left add_one (map_dates ms es) new_jks). split.
    - eapply (load_complete HL) with (rest := []); [auto|apply written_file; auto|]. rewrite app_nil_r. apply marshal_written; auto.
    - assert (E : map_dates (fun t => ns (ms t)) es = map_dates ns (map_dates ms es)). { unfold map_dates. rewrite map_map. apply map_ext. intros [a e]. cbn [fst snd]. destruct e; reflexivity. } rewrite E. apply load_holds.
  Qed.
End history.

(** ** panics *)
Definition has_negative (data : bytes) : Prop := exists pre cb rest, data = pre ++ cb ++ rest /\ length cb = 4 /\ (signed cb < 0)%Z.
Lemma neg_app a r : has_negative r -> has_negative (a ++ r).
Proof. intros (p & cb & rest & -> & L & N). exists (a ++ p), cb, rest. split; [now rewrite <- app_assoc|auto]. Qed.
Lemma read_bytes_panic r : read_bytes r = Panic -> has_negative r.
Proof.
  unfold read_bytes. destruct (read_int32 r) as [[v x]| |] eqn:R; cbn [rbind fst snd]; try discriminate.
  - apply read_int32_inv in R as (cb & -> & L & ->). destruct (Z.ltb_spec (signed cb) 0) as [G|G]; [|intros E; exfalso; exact (read_n_np E)]. intros _. exists [], cb, x. auto.
  - unfold read_int32 in R. destruct (read_n 4 r) eqn:Q; cbn [rbind] in R; try discriminate. exfalso. exact (read_n_np Q).
Qed.
Lemma read_utf_np r : read_utf r <> Panic.
Proof. unfold read_utf. destruct (read_n 2 r) eqn:Q; cbn [rbind]; try discriminate; [apply read_n_np|]. exfalso. exact (read_n_np Q). Qed.
Lemma read_int32_np r : read_int32 r <> Panic.
Proof. unfold read_int32. destruct (read_n 4 r) eqn:Q; cbn [rbind]; try discriminate. exfalso. exact (read_n_np Q). Qed.
Lemma read_u32_np r : read_u32 r <> Panic.
Proof. unfold read_u32. destruct (read_n 4 r) eqn:Q; cbn [rbind]; try discriminate. exfalso. exact (read_n_np Q). Qed.
Lemma read_date_np r : read_date r <> Panic.
Proof. unfold read_date. destruct (read_n 8 r) eqn:Q; cbn [rbind]; try discriminate. exfalso. exact (read_n_np Q). Qed.
Lemma read_chain_panic n : forall r, bytes_ok r -> read_chain n r = Panic -> has_negative r.
Proof.
  induction n as [|n IH]; intros r O E; cbn [read_chain] in E; [discriminate|].
  destruct (read_utf r) as [[ty r1]| |] eqn:R1; cbn [rbind fst snd] in E; try discriminate; [|exfalso; exact (read_utf_np R1)]. apply read_utf_inv in R1 as [-> _]; auto. apply Forall_app in O as [_ O]. apply neg_app.
  destruct (bytes_eqb ty cert_type); [|discriminate]. destruct (read_bytes r1) as [[c r2]| |] eqn:R2; cbn [rbind fst snd] in E; try discriminate; [|apply read_bytes_panic; auto].
  apply read_bytes_inv in R2 as [-> _]; auto. apply Forall_app in O as [_ O]. apply neg_app. destruct (read_chain n r2) as [[cs' r3]| |] eqn:R3; cbn [rbind fst snd] in E; try discriminate. auto.
Qed.
Lemma parse_entries_panic n : forall st r, bytes_ok r -> parse_entries n st r = Panic -> has_negative r.
Proof.
  induction n as [|n IH]; intros st r O E; cbn [parse_entries] in E; [discriminate|].
  destruct (read_int32 r) as [[tag r1]| |] eqn:R1; cbn [rbind fst snd] in E; try discriminate; [|exfalso; exact (read_int32_np R1)]. apply read_int32_inv in R1 as (cb & -> & _). apply Forall_app in O as [_ O]. apply neg_app.
  assert (K : forall p, match p with Ok sr => exists q, r1 = q ++ snd sr | Err => True | Panic => has_negative r1 end -> rbind p (fun sr : jks * bytes => parse_entries n (fst sr) (snd sr)) = Panic -> has_negative r1).
  { intros [sr| |] Hp Ep; cbn [rbind] in Ep; [|discriminate|auto]. destruct Hp as (q & Eq). rewrite Eq in *. apply neg_app. apply Forall_app in O as [_ O]. eapply IH; eauto. }
  destruct (tag =? 1)%Z; [|destruct (tag =? 2)%Z; [|discriminate]].
  - revert E. apply K. clear K IH. unfold parse_key. destruct (read_utf r1) as [[a ra]| |] eqn:Q1; cbn [rbind fst snd]; [|auto|exfalso; exact (read_utf_np Q1)]. apply read_utf_inv in Q1 as [E1 Sa]; auto. assert (O1 : bytes_ok ra) by (rewrite E1 in O; apply Forall_app in O; apply O).
    destruct (read_date ra) as [[d rd]| |] eqn:Q2; cbn [rbind fst snd]; [|auto|exfalso; exact (read_date_np Q2)]. apply read_date_inv in Q2 as (d0 & E2 & Bd & Ed); auto. assert (O2 : bytes_ok rd) by (rewrite E2 in O1; apply Forall_app in O1; apply O1).
    destruct (read_bytes rd) as [[k rk]| |] eqn:Q3; cbn [rbind fst snd]; [|auto|rewrite E1, E2; do 2 apply neg_app; apply read_bytes_panic; auto]. apply read_bytes_inv in Q3 as [E3 Sk]; auto. assert (O3 : bytes_ok rk) by (rewrite E3 in O2; apply Forall_app in O2; apply O2).
    destruct (read_int32 rk) as [[m rm]| |] eqn:Q4; cbn [rbind fst snd]; [|auto|exfalso; exact (read_int32_np Q4)]. apply read_int32_inv in Q4 as (cc & E4 & Lcc & Em). rewrite E4 in O3. apply Forall_app in O3 as [Occ O4].
    destruct (read_chain (Z.to_nat m) rm) as [[cs rc]| |] eqn:Q5; cbn [rbind fst snd]; [|auto|rewrite E1, E2, E3, E4; do 4 apply neg_app; apply read_chain_panic in Q5; auto]. apply read_chain_inv in Q5 as (E5 & _); auto.
    rewrite E1, E2, E3, E4, E5. rewrite !app_assoc. eauto.
  - revert E. apply K. clear K IH. unfold parse_cert. destruct (read_utf r1) as [[a ra]| |] eqn:Q1; cbn [rbind fst snd]; [|auto|exfalso; exact (read_utf_np Q1)]. apply read_utf_inv in Q1 as [E1 Sa]; auto. assert (O1 : bytes_ok ra) by (rewrite E1 in O; apply Forall_app in O; apply O).
    destruct (read_date ra) as [[d rd]| |] eqn:Q2; cbn [rbind fst snd]; [|auto|exfalso; exact (read_date_np Q2)]. apply read_date_inv in Q2 as (d0 & E2 & Bd & Ed); auto. assert (O2 : bytes_ok rd) by (rewrite E2 in O1; apply Forall_app in O1; apply O1).
    destruct (read_utf rd) as [[ty rt]| |] eqn:Q3; cbn [rbind fst snd]; [|auto|exfalso; exact (read_utf_np Q3)]. apply read_utf_inv in Q3 as [E3 _]; auto. assert (O3 : bytes_ok rt) by (rewrite E3 in O2; apply Forall_app in O2; apply O2).
    destruct (bytes_eqb ty cert_type); [|auto]. destruct (read_bytes rt) as [[c rc]| |] eqn:Q4; cbn [rbind fst snd]; [|auto|rewrite E1, E2, E3; do 3 apply neg_app; apply read_bytes_panic; auto]. apply read_bytes_inv in Q4 as [E4 Sc]; auto.
    rewrite E1, E2, E3, E4. rewrite !app_assoc. eauto.
Qed.
Lemma load_panic H data pw : bytes_ok data -> load H data pw = Panic -> exists r, has_negative r /\ exists p, length p = 12 /\ data = p ++ r.
Proof.
  intros O. unfold load, parse. destruct (read_u32 data) as [[m r1]| |] eqn:R1; cbn [rbind fst snd]; try discriminate; [|intros _; exfalso; exact (read_u32_np R1)]. apply read_u32_inv in R1; auto. assert (O1 : bytes_ok r1) by (rewrite R1 in O; apply Forall_app in O; apply O).
  destruct (m =? _)%Z; [|discriminate]. destruct (read_u32 r1) as [[v r2]| |] eqn:R2; cbn [rbind fst snd]; try discriminate; [|intros _; exfalso; exact (read_u32_np R2)]. apply read_u32_inv in R2; auto. assert (O2 : bytes_ok r2) by (rewrite R2 in O1; apply Forall_app in O1; apply O1).
  destruct (v =? 2)%Z; [|discriminate]. destruct (read_int32 r2) as [[n r3]| |] eqn:R3; cbn [rbind fst snd]; try discriminate; [|intros _; exfalso; exact (read_int32_np R3)]. apply read_int32_inv in R3 as (cb & E3 & Lcb & En). rewrite E3 in O2. apply Forall_app in O2 as [Ocb O3].
  destruct (parse_entries (Z.to_nat n) new_jks r3) as [[st' r4]| |] eqn:R4; cbn [rbind fst snd]; try discriminate.
  - match goal with |- rbind (read_n ?k r4) _ = _ -> _ => destruct (read_n k r4) as [[act r5]| |] eqn:R5 end; cbn [rbind fst snd]; try discriminate; [|intros _; exfalso; exact (read_n_np R5)]. destruct (bytes_eqb _ act); discriminate.
  - intros _. exists r3. split; [eapply parse_entries_panic; eauto|]. exists (be_bytes 4 m ++ be_bytes 4 v ++ cb). split; [rewrite !app_length, !be_bytes_length; lia|]. rewrite R1, R2, E3, <- !app_assoc. reflexivity.
Qed.

(** ** aliases of 65536 bytes and more *)
Lemma repeat_cut (x : Z) n m : n <= m -> repeat x m = repeat x n ++ repeat x (m - n).
Proof. intros L. rewrite <- repeat_app. f_equal. lia. Qed.
Lemma long_alias H pw now cert m : Z.of_nat m = 65536%Z -> cert <> [] -> let st := fst (add_cert new_jks (repeat 97%Z m) cert now) in load H (marshal H st pw) pw = Err.
Proof.
  intros M C st. assert (Est : marshal H st pw = be_bytes 4 4277010157 ++ be_bytes 4 2 ++ be_bytes 4 1 ++ be_bytes 4 2 ++ be_bytes 2 0 ++ repeat 97%Z m ++ skipn (22 + m - 4) (marshal H st pw)).
  { unfold st, add_cert. cbn [has new_jks keys]. destruct (Nat.eqb_spec (length cert) 0) as [E|_]; [destruct cert; [congruence|discriminate]|]. cbn [fst]. unfold touch. cbn [aliases existsb new_jks]. unfold marshal. cbv zeta. cbn [aliases app map concat length]. rewrite app_nil_r.
    match goal with |- context[write_entry ?s ?a] => assert (W : exists w, write_entry s a = be_bytes 4 2 ++ be_bytes 2 0 ++ repeat 97%Z m ++ w) end.
    { unfold write_entry, has. cbn [certs]. unfold put at 1. rewrite bytes_eqb_refl. unfold write_u32, write_utf at 1. rewrite repeat_length, M. change (be_bytes 2 65536) with (be_bytes 2 0). rewrite <- !app_assoc. eauto. }
    destruct W as (w & W). rewrite W. unfold write_u32. change (Z.of_nat 1) with 1%Z. match goal with |- ?x = _ => set (full := x) end.
    assert (F : exists z, full = (be_bytes 4 4277010157 ++ be_bytes 4 2 ++ be_bytes 4 1 ++ be_bytes 4 2 ++ be_bytes 2 0 ++ repeat 97%Z m) ++ z) by (eexists; unfold full; rewrite <- !app_assoc; reflexivity).
    destruct F as (z & F). rewrite F at 2. rewrite skipn_app_len by (rewrite !app_length, !be_bytes_length, repeat_length; lia). rewrite F, <- !app_assoc. reflexivity. }
  set (tail := skipn (22 + m - 4) (marshal H st pw)) in Est. clearbody tail. unfold load, parse. rewrite Est at 1. rewrite read_u32_app by lia. cbn [rbind fst snd Z.eqb Pos.eqb]. rewrite read_u32_app by lia. cbn [rbind fst snd Z.eqb Pos.eqb].
  rewrite read_int32_app by apply be_bytes_length. cbn [rbind fst snd]. change (Z.to_nat (signed (be_bytes 4 1))) with 1. cbn [parse_entries]. rewrite read_int32_app by apply be_bytes_length. cbn [rbind fst snd]. change (signed (be_bytes 4 2)) with 2%Z. cbn [Z.eqb Pos.eqb].
  unfold parse_cert. change (be_bytes 2 0 ++ repeat 97%Z m ++ tail) with (text [] ++ repeat 97%Z m ++ tail). rewrite read_utf_app by (cbv; reflexivity). cbn [rbind fst snd].
  rewrite (@repeat_cut 97%Z 8 m) by lia. rewrite <- app_assoc. unfold read_date. rewrite read_n_app by (apply repeat_length). cbn [rbind fst snd].
  rewrite (@repeat_cut 97%Z 2 (m - 8)) by lia. rewrite <- app_assoc. unfold read_utf. rewrite read_n_app by (apply repeat_length). cbn [rbind fst snd]. change (be_val (repeat 97%Z 2)) with 24929%Z.
  rewrite (@repeat_cut 97%Z (Z.to_nat 24929) (m - 8 - 2)) by lia. rewrite <- app_assoc. rewrite read_n_app by (apply repeat_length). cbn [rbind fst snd].
  assert (B : bytes_eqb (repeat 97%Z (Z.to_nat 24929)) cert_type = false). { apply bytes_eqb_neq. intros E. apply (f_equal (@length Z)) in E. rewrite repeat_length in E. change (length cert_type) with 5 in E. lia. }
  rewrite B. reflexivity.
Qed.
