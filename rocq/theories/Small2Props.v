(** C154-C156: the ciphers SM4, SHACAL-2 and Skipjack. *)
From Verif Require Import Base BlockModeModel CipherLaws WordModel BlkSpec WordLib UndoLib HexLit ArxProofs Small1Props Small2Model Small2Spec Small2Proofs.
From Coq Require Import String.
Set Implicit Arguments. Unset Strict Implicit.
Local Open Scope nat_scope.

Lemma first_part (A : Type) n (a b : list A) : List.length a = n -> firstn n (a ++ b) = a.
Proof. intros <-. rewrite firstn_app, firstn_all, Nat.sub_diag, firstn_O. apply app_nil_r. Qed.
(** words written and read back *)
Lemma st4_len ws : List.length (List.concat (map (be_bytes 4) ws)) = 4 * List.length ws.
Proof. induction ws as [|x t IH]; [reflexivity|]. cbn [map List.concat List.length]. rewrite app_length, be_bytes_length, IH. lia. Qed.
Lemma st4_ok ws : bytes_ok (List.concat (map (be_bytes 4) ws)).
Proof. induction ws as [|x t IH]; [apply Forall_nil|]. cbn [map List.concat]. apply Forall_app; split; [apply be_bytes_ok|exact IH]. Qed.
Lemma ld4_st ws : Forall (inw 32) ws -> ldw_be 4 (List.concat (map (be_bytes 4) ws)) = ws.
Proof. intros F. unfold ldw_be. apply ld_st; auto; try lia; intros; try apply be_bytes_length; try apply be_bytes_ok; now apply val_byt_be. Qed.

(** ** SM4 *)
Theorem C154_sm4 : cipher_for [16] 16 sm4_new sm4_encrypt sm4_decrypt.
Proof.
  apply (@cipher_one _ 16 16 sm4_expand sm4_cph). intros key O L. split; [|reflexivity]. destruct (expand_std O L) as (a & b & c & d & _ & _ & R). now apply sm4_lawful.
Qed.
(** the four tables of the fast rounds are the byte-wise transformation, on every word *)
Theorem C154_sm4_tables (x : Z) : (0 <= x < 2 ^ 32)%Z -> sm4_fast x = sm4_slow x.
Proof. apply fast_slow. Qed.
(** key expansion and encryption of one block are those of the standard *)
Theorem C154_sm4_standard (k0 k1 k2 k3 x0 x1 x2 x3 : Z) (dst rest : bytes) :
  let S b := nth (Z.to_nat b) sm4_sbox 0%Z in let word x := (0 <= x < 2 ^ 32)%Z in
  word k0 -> word k1 -> word k2 -> word k3 -> word x0 -> word x1 -> word x2 -> word x3 -> 16 <= List.length dst ->
  let '(f0, f1, f2, f3) := FK in
  let rk := sm4_keys S (map CK (seq 0 32)) (Z.lxor k0 f0, Z.lxor k1 f1, Z.lxor k2 f2, Z.lxor k3 f3) in
  sm4_new (List.concat (map (be_bytes 4) [k0; k1; k2; k3])) = Ok rk /\
  sm4_encrypt rk dst (List.concat (map (be_bytes 4) [x0; x1; x2; x3]) ++ rest) = Ok (List.concat (map (be_bytes 4) (sm4_block S rk x0 x1 x2 x3)) ++ skipn 16 dst).
Proof.
  cbv zeta. intros K0 K1 K2 K3 X0 X1 X2 X3 LD. cbn [FK]. change (fun b => nth (Z.to_nat b) sm4_sbox 0%Z) with (at_byte sm4_sbox). change (map CK (seq 0 32)) with sm4_ck.
  set (key := List.concat (map (be_bytes 4) [k0; k1; k2; k3])). assert (LK : List.length key = 16) by (unfold key; cbn [map List.concat]; rewrite !app_length, !be_bytes_length; reflexivity).
  assert (OK : bytes_ok key) by (apply st4_ok).
  assert (EK : ldw_be 4 key = [k0; k1; k2; k3]).
  { apply ld4_st. repeat (apply Forall_cons; [assumption|]). apply Forall_nil. }
  destruct (expand_std OK LK) as (a & b & c & d & E & EX & R). rewrite EK in E. injection E as <- <- <- <-. cbv zeta in EX. unfold sm4_new. rewrite LK. cbn [Nat.eqb]. rewrite <- EX. split; [reflexivity|].
  set (src := List.concat (map (be_bytes 4) [x0; x1; x2; x3])). assert (LS : List.length src = 16) by (unfold src; cbn [map List.concat]; rewrite !app_length, !be_bytes_length; reflexivity).
  assert (ES : ldw_be 4 src = [x0; x1; x2; x3]).
  { apply ld4_st. repeat (apply Forall_cons; [assumption|]). apply Forall_nil. }
  unfold sm4_encrypt, blk_call. rewrite app_length, LS. destruct (Nat.ltb_spec (16 + List.length rest) 16); [lia|]. destruct (Nat.ltb_spec (List.length dst) 16); [lia|].
  rewrite (first_part rest LS). cbn [enc sm4_cph word_cipher_be]. rewrite ES. rewrite (@enc_std (sm4_expand key) x0 x1 x2 x3 R ltac:(rewrite EX, keys_len; reflexivity) (wordsok_4 X0 X1 X2 X3)). unfold splice, stw_be. generalize (sm4_expand key). intros rk. cbn [firstn app Nat.add].
  assert (LB : List.length (List.concat (map (be_bytes 4) (sm4_block Sb rk x0 x1 x2 x3))) = 16). { rewrite st4_len. unfold sm4_block. destruct (fold_left _ _ _) as [[[w x] y] z]. reflexivity. }
  rewrite LB. reflexivity.
Qed.
Example C154_instance : kat (sm4_new (hx "0123456789abcdeffedcba9876543210")) sm4_encrypt sm4_decrypt "0123456789abcdeffedcba9876543210" "681edf34d206965e86b3e94f536e4246".
Proof. kats. Qed.

(** ** SHACAL-2 *)
Lemma rho_ok x a b c : inw 32 x -> inw 32 (sh_rho x a b c). Proof. intros. unfold sh_rho. words. Qed.
Lemma choose_ok m a b : inw 32 m -> inw 32 a -> inw 32 b -> inw 32 (sh_choose m a b). Proof. intros. unfold sh_choose. words. Qed.
Lemma sigma_ok x a b s : (0 <= s)%Z -> inw 32 x -> inw 32 (sh_sigma x a b s). Proof. intros. unfold sh_sigma. words. Qed.
Lemma fwd_undone rk r : inw 32 rk.[r] -> undoes (wordsok 32 8) (fun s => sh_fwd rk s r) (fun s => sh_rev rk s r).
Proof.
  intros K s H. destruct (eight_words H) as (a & b & c & d & e & f & g & h & -> & A & B & C & D & E & F & G & HH). unfold sh_fwd, sh_rev. set (k := rk.[r]) in *. clearbody k. cbv zeta.
  unfold sh_pos. assert (BR : r mod 8 < 8) by (apply Nat.mod_upper_bound; lia). remember (r mod 8) as j eqn:EJ. clear EJ.
  do 8 (destruct j as [|j]; [cbn [Nat.sub Nat.add Nat.modulo Nat.divmod fst snd nth upd]; split; [apply wordsok_8; words|]; split; [apply wordsok_8; words|]; rewrite !wsub_wadd by words; reflexivity|]). lia.
Qed.
Lemma sh_lawful rk : (forall i, inw 32 rk.[i]) -> lawful (sh_cph rk).
Proof.
  intros R. apply word_lawful_be_u with 32%Z; try lia. apply undoes_rounds with (J := fun _ => True); [reflexivity|apply Forall_ups; auto|]. intros k _. apply fwd_undone, R.
Qed.
(** the registers in the order of their names *)
Definition view (r : nat) (s : list Z) : list Z := map (fun m => s.[sh_pos r m]) [0; 1; 2; 3; 4; 5; 6; 7].
Lemma rho_Sig0 x : inw 32 x -> sh_rho x 2 13 22 = Sig0 x. Proof. intros X. unfold sh_rho, Sig0, rrot, rotr. rewrite !rot_eq by (auto; lia). apply Z.lxor_assoc. Qed.
Lemma rho_Sig1 x : inw 32 x -> sh_rho x 6 11 25 = Sig1 x. Proof. intros X. unfold sh_rho, Sig1, rrot, rotr. rewrite !rot_eq by (auto; lia). apply Z.lxor_assoc. Qed.
Lemma sigma_0 x : inw 32 x -> sh_sigma x 7 18 3 = sig0 x. Proof. intros X. unfold sh_sigma, sig0, rrot, rotr. rewrite !rot_eq by (auto; lia). rewrite Z.shiftr_div_pow2 by lia. apply Z.lxor_assoc. Qed.
Lemma sigma_1 x : inw 32 x -> sh_sigma x 17 19 10 = sig1 x. Proof. intros X. unfold sh_sigma, sig1, rrot, rotr. rewrite !rot_eq by (auto; lia). rewrite Z.shiftr_div_pow2 by lia. apply Z.lxor_assoc. Qed.
Lemma choose_Ch x y z : inw 32 x -> inw 32 y -> inw 32 z -> sh_choose x y z = Ch x y z.
Proof.
  intros X Y Q. unfold sh_choose, Ch. change (2 ^ 32 - 1)%Z with (Z.ones 32). assert (E : (Z.ones 32 - x = Z.ldiff (Z.ones 32) x)%Z).
  { apply Z.sub_nocarry_ldiff. apply Z.ldiff_ones_r_low; [unfold inw in X; lia|]. destruct (Z.eq_dec x 0) as [->|N]; [reflexivity|]. apply Z.log2_lt_pow2; unfold inw in X; lia. }
  rewrite E. apply Z.bits_inj'. intros i Hi. rewrite !Z.lxor_spec, !Z.land_spec, !Z.lxor_spec, Z.ldiff_spec. destruct (Z.ltb_spec i 32).
  - rewrite Z.ones_spec_low by lia. destruct (Z.testbit x i), (Z.testbit y i), (Z.testbit z i); reflexivity.
  - rewrite (@inw_testbit 32 x), (@inw_testbit 32 y), (@inw_testbit 32 z) by (auto; lia). rewrite Z.ones_spec_high by lia. reflexivity.
Qed.
Lemma majority_Maj x y z : sh_majority x y z = Maj x y z.
Proof.
  unfold sh_majority, sh_choose, Maj. apply Z.bits_inj'. intros i Hi. rewrite !Z.lxor_spec, !Z.land_spec, !Z.lxor_spec. destruct (Z.testbit x i), (Z.testbit y i), (Z.testbit z i); reflexivity.
Qed.
Lemma new_h h x c k r m : (wadd 32 (wadd 32 h (wadd 32 (wadd 32 x c) k)) (wadd 32 r m) = (h + x + c + k + (r + m)) mod 2 ^ 32)%Z.
Proof. unfold wadd. rewrite ?Zplus_mod_idemp_l, ?Zplus_mod_idemp_r. rewrite (Z.add_comm h), ?Zplus_mod_idemp_l, ?Zplus_mod_idemp_r. rewrite <- !Z.add_assoc, ?Zplus_mod_idemp_l. f_equal. ring. Qed.
Lemma new_d d h x c k : (wadd 32 d (wadd 32 h (wadd 32 (wadd 32 x c) k)) = (d + (h + x + c + k)) mod 2 ^ 32)%Z.
Proof. unfold wadd. rewrite ?Zplus_mod_idemp_l, ?Zplus_mod_idemp_r. rewrite !Z.add_assoc. rewrite ?Zplus_mod_idemp_l, ?Zplus_mod_idemp_r. f_equal. ring. Qed.
Lemma view_step rk s r : wordsok 32 8 s -> view (S r) (sh_fwd rk s r) = sha_step (view r s) rk.[r].
Proof.
  intros H. assert (SM : (S r) mod 8 = S (r mod 8) mod 8) by (symmetry; exact (Nat.add_mod_idemp_r 1 r 8 ltac:(lia))).
  destruct (eight_words H) as (a & b & c & d & e & f & g & h & -> & A & B & C & D & E & F & G & HH). unfold view, sh_fwd. set (k := rk.[r]). clearbody k. cbv zeta. unfold sh_pos. rewrite SM.
  assert (BR : r mod 8 < 8) by (apply Nat.mod_upper_bound; lia). remember (r mod 8) as j eqn:EJ. clear EJ SM.
  do 8 (destruct j as [|j]; [cbn [Nat.sub Nat.add Nat.modulo Nat.divmod fst snd nth upd map sha_step]; rewrite !majority_Maj, rho_Sig0, rho_Sig1, choose_Ch by assumption; rewrite new_h, new_d; reflexivity|]). lia.
Qed.
Lemma view_0 s : List.length s = 8 -> view 0 s = s.
Proof. intros L. destruct s as [|a [|b [|c [|d [|e [|f [|g [|h [|x s]]]]]]]]]; try discriminate. reflexivity. Qed.
Lemma sh_enc_std rk s : (forall i, inw 32 rk.[i]) -> wordsok 32 8 s -> sh_enc rk s = fold_left sha_step (map (fun i => rk.[i]) (seq 0 64)) s.
Proof.
  intros R H. assert (G : forall n, wordsok 32 8 (fold_left (sh_fwd rk) (ups 0 n 1) s) /\ view n (fold_left (sh_fwd rk) (ups 0 n 1) s) = fold_left sha_step (map (fun i => rk.[i]) (seq 0 n)) s).
  { induction n as [|n [I1 I2]]; [split; [exact H|apply view_0, H]|]. rewrite ups_S, seq_S, map_app, !fold_left_app. cbn [fold_left map]. replace (0 + 1 * n) with n by lia. split; [apply (fwd_undone (R n)), I1|]. rewrite view_step by exact I1. now rewrite I2. }
  destruct (G 64) as [G1 G2]. unfold sh_enc. rewrite <- G2. symmetry. change (view 64) with (view 0). apply view_0, G1.
Qed.
(** the schedule *)
Lemma sched_ok n : forall w, List.length w = 16 -> Forall (inw 32) w ->
  let w' := fold_left sh_sched (ups 16 n 1) w in List.length w' = 16 + n /\ Forall (inw 32) w' /\ (forall t, t < 16 -> w'.[t] = w.[t]) /\
  (forall t, 16 <= t < 16 + n -> w'.[t] = ((sig1 w'.[t - 2] + w'.[t - 7] + sig0 w'.[t - 15] + w'.[t - 16]) mod 2 ^ 32)%Z).
Proof.
  induction n as [|n IH]; intros w L F w'; subst w'; [cbn [ups map seq fold_left]; repeat split; auto; intros; lia|]. destruct (IH w L F) as (I1 & I2 & I3 & I4). rewrite ups_S, fold_left_app. cbn [fold_left]. set (v := fold_left sh_sched (ups 16 n 1) w) in *. replace (16 + 1 * n) with (16 + n) by lia.
  assert (VI : forall i, inw 32 v.[i]) by (intros; apply nth_inw; auto; lia). set (x := wadd 32 (wadd 32 (wadd 32 v.[16 + n - 16] (sh_sigma v.[16 + n - 15] 7 18 3)) v.[16 + n - 7]) (sh_sigma v.[16 + n - 2] 17 19 10)). change (sh_sched v (16 + n)) with (v ++ [x]).
  assert (NL : forall t, t < 16 + n -> (v ++ [x]).[t] = v.[t]) by (intros; apply app_nth1; lia).
  split; [rewrite app_length, I1; cbn [List.length]; lia|]. split; [apply Forall_app; split; [exact I2|apply Forall_cons; [unfold x; words|apply Forall_nil]]|]. split; [intros t T0; rewrite NL by lia; auto|].
  intros t T0. destruct (Nat.eq_dec t (16 + n)) as [->|N].
  - rewrite (NL (16 + n - 2)), (NL (16 + n - 7)), (NL (16 + n - 15)), (NL (16 + n - 16)) by lia. rewrite app_nth2 by lia. replace (16 + n - List.length v) with 0 by lia. cbn [nth]. unfold x. rewrite sigma_0, sigma_1 by auto. unfold wadd. rewrite !Zplus_mod_idemp_l. rewrite <- !Z.add_assoc, ?Zplus_mod_idemp_l. f_equal. ring.
  - rewrite !NL by lia. apply I4. lia.
Qed.
Lemma words_ok key : bytes_ok key -> Forall (inw 32) (sh_words key).
Proof.
  intros O. unfold sh_words. set (k := firstn _ key). assert (L : List.length k = (List.length key / 4) * 4) by (unfold k; rewrite firstn_length_le; [lia|]; apply Nat.mul_div_le; lia). apply (@ldw_be_ok 4 (List.length key / 4) k 32 eq_refl ltac:(lia) L). unfold k. now apply bytes_ok_firstn.
Qed.
Lemma sixteen key : bytes_ok key -> List.length (firstn 16 (sh_words key ++ repeat 0%Z 16)) = 16 /\ Forall (inw 32) (firstn 16 (sh_words key ++ repeat 0%Z 16)).
Proof.
  intros O. split; [rewrite firstn_length_le; [reflexivity|]; rewrite app_length, repeat_length; lia|]. apply Forall_forall. intros x I. assert (I2 : In x (sh_words key ++ repeat 0%Z 16)) by (rewrite <- (firstn_skipn 16); apply in_or_app; now left).
  apply in_app_or in I2 as [I2|I2]; [pose proof (words_ok O) as W; rewrite Forall_forall in W; auto|]. apply repeat_spec in I2. subst x. split; [discriminate|reflexivity].
Qed.
Lemma rk_ok key i : inw 32 (sh_expand key).[i].
Proof. apply nth_inw; [lia|]. unfold sh_expand. apply Forall_map, Forall_forall. intros; words. Qed.
Lemma nth_tab (f : nat -> Z) n t : t < n -> (map f (seq 0 n)).[t] = f t.
Proof. intros T0. rewrite (nth_indep _ 0%Z (f 0)) by (rewrite map_length, seq_length; lia). rewrite (map_nth f (seq 0 n) 0 t). now rewrite seq_nth by lia. Qed.
Theorem C155_shacal2 : cipher_for (seq 4 253) 32 sh_new sh_encrypt sh_decrypt.
Proof.
  intros key O. unfold sh_new. rewrite in_seq. split.
  - intros L. destruct (Nat.ltb_spec (List.length key) 4); [lia|]. destruct (Nat.ltb_spec 256 (List.length key)); [lia|]. cbn [orb]. eexists. split; [reflexivity|]. apply (@lawful_block_cipher (sh_cph _) 32); [|reflexivity]. apply sh_lawful. intros. apply rk_ok.
  - intros L. destruct (Nat.ltb_spec (List.length key) 4); [reflexivity|]. destruct (Nat.ltb_spec 256 (List.length key)); [reflexivity|lia].
Qed.
Lemma sha_len l : forall x, List.length x = 8 -> List.length (fold_left sha_step l x) = 8.
Proof. induction l as [|k l IH]; intros x Lx; [exact Lx|]. cbn [fold_left]. apply IH. destruct x as [|a [|b [|c [|d [|e [|f [|g [|h [|y x]]]]]]]]]; try discriminate. reflexivity. Qed.
Lemma block_sha rk s dst rest : (forall i, inw 32 rk.[i]) -> List.length s = 8 -> Forall (inw 32) s -> 32 <= List.length dst ->
  sh_encrypt rk dst (List.concat (map (be_bytes 4) s) ++ rest) = Ok (List.concat (map (be_bytes 4) (fold_left sha_step (map (fun i => rk.[i]) (seq 0 64)) s)) ++ skipn 32 dst).
Proof.
  intros R Ls Fs LD. pose proof (ld4_st Fs) as ES. assert (LS : List.length (List.concat (map (be_bytes 4) s)) = 32) by (rewrite st4_len, Ls; reflexivity).
  assert (EE : enc (sh_cph rk) (List.concat (map (be_bytes 4) s)) = List.concat (map (be_bytes 4) (fold_left sha_step (map (fun i => rk.[i]) (seq 0 64)) s))).
  { rewrite <- (@sh_enc_std rk s R (conj Ls Fs)). unfold sh_cph, word_cipher_be. cbn [enc]. rewrite ES. reflexivity. }
  unfold sh_encrypt, blk_call. rewrite app_length, LS. destruct (Nat.ltb_spec (32 + List.length rest) 32); [lia|]. destruct (Nat.ltb_spec (List.length dst) 32); [lia|].
  rewrite (first_part rest LS), EE. pose proof (sha_len (map (fun i => rk.[i]) (seq 0 64)) Ls) as LL. revert LL. generalize (fold_left sha_step (map (fun i => rk.[i]) (seq 0 64)) s). intros o LL.
  unfold splice. rewrite st4_len, LL. reflexivity.
Qed.
Lemma new_sha m : List.length m = 16 -> Forall (inw 32) m -> exists w, schedule m w /\ sh_new (List.concat (map (be_bytes 4) m)) = Ok (map (fun t => ((nth t sh_rc 0 + w t) mod 2 ^ 32)%Z) (seq 0 64)).
Proof.
  intros Lm Fm. destruct (@sched_ok 48 m Lm Fm) as (W1 & W2 & W3 & W4). exists (fun t => (fold_left sh_sched (ups 16 48 1) m).[t]). split; [split; [exact W3|intros t T0; apply W4; lia]|].
  assert (LK : List.length (List.concat (map (be_bytes 4) m)) = 64) by (rewrite st4_len, Lm; reflexivity).
  assert (EK : sh_words (List.concat (map (be_bytes 4) m)) = m).
  { unfold sh_words. rewrite LK. change (4 * (64 / 4)) with 64. rewrite firstn_all2 by lia. apply ld4_st. exact Fm. }
  assert (E16 : firstn 16 (sh_words (List.concat (map (be_bytes 4) m)) ++ repeat 0%Z 16) = m) by (rewrite EK; now apply first_part).
  unfold sh_new. rewrite LK. change ((64 <? 4) || (256 <? 64)) with false. cbv iota. f_equal. unfold sh_expand. rewrite E16. generalize (fold_left sh_sched (ups 16 48 1) m). intros w. cbv zeta. apply map_ext. intros t. unfold wadd. now rewrite Z.add_comm.
Qed.
(** the cipher is the 64 steps of SHA-256 with the key as the message block *)
Theorem C155_shacal2_is_sha256 (m s : list Z) : List.length m = 16 -> List.length s = 8 -> Forall (fun x => 0 <= x < 2 ^ 32)%Z m -> Forall (fun x => 0 <= x < 2 ^ 32)%Z s ->
  exists w rk, schedule m w /\ sh_new (List.concat (map (be_bytes 4) m)) = Ok rk /\
  forall dst rest, 32 <= List.length dst ->
    sh_encrypt rk dst (List.concat (map (be_bytes 4) s) ++ rest) = Ok (List.concat (map (be_bytes 4) (fold_left sha_step (map (fun t => ((nth t sh_rc 0 + w t) mod 2 ^ 32)%Z) (seq 0 64)) s)) ++ skipn 32 dst).
Proof.
  intros Lm Ls Fm Fs. destruct (new_sha Lm Fm) as (w & SW & E). exists w, (map (fun t => ((nth t sh_rc 0 + w t) mod 2 ^ 32)%Z) (seq 0 64)). split; [exact SW|]. split; [exact E|]. intros dst rest LD.
  rewrite block_sha; [|intros i; apply nth_inw; [lia|]; apply Forall_map, Forall_forall; intros t _; apply Z.mod_pos_bound; reflexivity|exact Ls|exact Fs|exact LD].
  assert (EM : forall f : nat -> Z, map (fun i => (map f (seq 0 64)).[i]) (seq 0 64) = map f (seq 0 64)) by (intros f; apply map_ext_in; intros t I; apply in_seq in I; apply nth_tab; lia). rewrite EM. reflexivity.
Qed.
(** other keys are cut to whole words and to 64 bytes, or filled with zeros: many keys are one *)
Theorem C155_shacal2_equivalent_keys_refuted (key : bytes) : bytes_ok key -> 4 <= List.length key <= 256 ->
  let whole := firstn (4 * (List.length key / 4)) key in sh_new key = sh_new (firstn 64 (whole ++ repeat 0%Z 64)).
Proof.
  intros O L whole. set (k' := firstn 64 (whole ++ repeat 0%Z 64)). assert (LK : List.length k' = 64) by (unfold k'; rewrite firstn_length_le; [reflexivity|]; rewrite app_length, repeat_length; lia).
  unfold sh_new. rewrite LK. destruct (Nat.ltb_spec (List.length key) 4); [lia|]. destruct (Nat.ltb_spec 256 (List.length key)); [lia|]. change ((64 <? 4) || (256 <? 64)) with false. cbn [orb]. f_equal. unfold sh_expand.
  assert (E : firstn 16 (sh_words key ++ repeat 0%Z 16) = firstn 16 (sh_words k' ++ repeat 0%Z 16)); [|rewrite E; reflexivity].
  assert (OW : bytes_ok whole) by (unfold whole; now apply bytes_ok_firstn). assert (LW : List.length whole = List.length key / 4 * 4) by (unfold whole; rewrite firstn_length_le; [lia|]; apply Nat.mul_div_le; lia).
  assert (OZ : bytes_ok (whole ++ repeat 0%Z 64)) by (apply bytes_ok_app; split; [exact OW|apply bytes_ok_repeat; split; [discriminate|reflexivity]]).
  assert (Ok' : bytes_ok k') by (unfold k'; now apply bytes_ok_firstn).
  set (ws := sh_words key). assert (Fw : Forall (inw 32) ws) by (apply words_ok, O). assert (EW : List.concat (map (be_bytes 4) ws) = whole).
  { unfold ws, sh_words, ldw_be. fold whole. apply (@st_ld 4 be_val (be_bytes 4)) with (m := List.length key / 4); auto; try lia. intros b Ob Lb. rewrite <- Lb. apply be_bytes_val; auto. }
  assert (Ek : k' = List.concat (map (be_bytes 4) (firstn 16 (ws ++ repeat 0%Z 16)))).
  { unfold k'. rewrite <- EW. change (repeat 0%Z 64) with (List.concat (map (be_bytes 4) (repeat 0%Z 16))). rewrite <- concat_app, <- map_app. generalize (ws ++ repeat 0%Z 16). intros l. change 64 with (4 * 16). generalize 16. intros n. revert l. induction n as [|n IH]; intros [|x l]; [reflexivity..| |]; [reflexivity|].
    cbn [map List.concat firstn]. replace (4 * S n) with (List.length (be_bytes 4 x) + 4 * n) by (rewrite be_bytes_length; lia). rewrite firstn_app_2. f_equal. apply IH. }
  assert (S' : sh_words k' = firstn 16 (ws ++ repeat 0%Z 16)).
  { unfold sh_words. rewrite LK. change (4 * (64 / 4)) with 64. rewrite firstn_all2 by lia. rewrite Ek. apply ld4_st. apply (sixteen O). }
  rewrite S'. symmetry. apply first_part, (sixteen O).
Qed.
Example C155_instance :
  kat (sh_new (hx "80000000000000000000000000000000")) sh_encrypt sh_decrypt "0000000000000000000000000000000000000000000000000000000000000000" "361AB6322FA9E7A7BB23818D839E01BDDAFDF47305426EDD297AEDB9F6202BAE".
Proof. kats. Qed.
(** keys of 4 bytes that differ from longer ones make the same cipher *)
Example C155_instance_equivalent : sh_new [1; 2; 3; 4; 5]%Z = sh_new [1; 2; 3; 4; 6; 7]%Z /\ [1; 2; 3; 4; 5]%Z <> [1; 2; 3; 4; 6; 7]%Z.
Proof. split; [reflexivity|discriminate]. Qed.

(** ** Skipjack *)
Lemma skj_f_ok : Forall (inw 8) skj_f. Proof. apply lit_in_ok. vm_compute. reflexivity. Qed.
Section skipjack.
  Variable key : bytes.
  Hypothesis KO : bytes_ok key.
  Lemma fb b : inw 8 (at_byte skj_f b). Proof. apply at_byte_in; [lia|apply skj_f_ok]. Qed.
  Lemma split16 a b : inw 8 a -> inw 8 b -> ((a * 256 + b) / 256 = a /\ (a * 256 + b) mod 256 = b)%Z.
  Proof. unfold inw. intros. split; Z.div_mod_to_equations; lia. Qed.
  Lemma join16 w : inw 16 w -> inw 8 (w / 256) /\ inw 8 (w mod 256) /\ (w / 256 * 256 + w mod 256 = w)%Z.
  Proof. unfold inw. intros. repeat split; Z.div_mod_to_equations; lia. Qed.
  Lemma g_ok k w : inw 16 w -> inw 16 (skj_g key k w).
  Proof. intros W. destruct (join16 W) as (A & B & _). unfold skj_g. cbv zeta. set (g5 := Z.lxor _ (Z.lxor _ (w / 256))). set (g6 := Z.lxor _ (Z.lxor _ (w mod 256))). assert (G5 : inw 8 g5) by (unfold g5; repeat apply inw_xor; try lia; auto using fb). assert (G6 : inw 8 g6) by (unfold g6; repeat apply inw_xor; try lia; auto using fb). unfold inw in *. lia. Qed.
  Lemma ginv_ok k w : inw 16 w -> inw 16 (skj_ginv key k w).
  Proof. intros W. destruct (join16 W) as (A & B & _). unfold skj_ginv. cbv zeta. set (g2 := Z.lxor _ (Z.lxor _ (w mod 256))). set (g1 := Z.lxor _ (Z.lxor _ (w / 256))). assert (G1 : inw 8 g1) by (unfold g1; repeat apply inw_xor; try lia; auto using fb). assert (G2 : inw 8 g2) by (unfold g2; repeat apply inw_xor; try lia; auto using fb). unfold inw in *. lia. Qed.
  Lemma ginv_g k w : inw 16 w -> skj_ginv key k (skj_g key k w) = w.
  Proof.
    intros W. destruct (join16 W) as (A & B & J). unfold skj_g. cbv zeta. set (g1 := (w / 256)%Z) in *. set (g2 := (w mod 256)%Z) in *.
    set (g3 := Z.lxor _ g1). assert (G3 : inw 8 g3) by (apply inw_xor; try lia; auto using fb). set (g4 := Z.lxor _ g2). assert (G4 : inw 8 g4) by (apply inw_xor; try lia; auto using fb).
    set (g5 := Z.lxor _ g3). assert (G5 : inw 8 g5) by (apply inw_xor; try lia; auto using fb). set (g6 := Z.lxor _ g4). assert (G6 : inw 8 g6) by (apply inw_xor; try lia; auto using fb).
    unfold skj_ginv. cbv zeta. destruct (split16 G5 G6) as [-> ->].
    assert (E4 : Z.lxor (at_byte skj_f (Z.lxor g5 key.[(4 * k + 3) mod 10])) g6 = g4) by (unfold g6; apply lxor_cancel_l). rewrite E4.
    assert (E3 : Z.lxor (at_byte skj_f (Z.lxor g4 key.[(4 * k + 2) mod 10])) g5 = g3) by (unfold g5; apply lxor_cancel_l). rewrite E3.
    assert (E2 : Z.lxor (at_byte skj_f (Z.lxor g3 key.[(4 * k + 1) mod 10])) g4 = g2) by (unfold g4; apply lxor_cancel_l). rewrite E2.
    assert (E1 : Z.lxor (at_byte skj_f (Z.lxor g2 key.[(4 * k + 0) mod 10])) g3 = g1) by (unfold g3; apply lxor_cancel_l). rewrite E1. exact J.
  Qed.
  Lemma k_in k : k < 32 -> inw 16 (Z.of_nat k + 1). Proof. unfold inw. lia. Qed.
  Lemma a_undone k : k < 32 -> undoes (wordsok 16 4) (fun s => skj_a key s k) (fun s => skj_una key s (S k)).
  Proof.
    intros K s H. destruct (four_words H) as (a & b & c & d & -> & A & B & C & D). unfold skj_a, skj_una. cbn [nth]. cbv zeta. replace (S k - 1) with k by lia. replace (Z.of_nat (S k)) with (Z.of_nat k + 1)%Z by lia. pose proof (k_in K).
    split; [apply wordsok_4; auto using g_ok, inw_xor; repeat apply inw_xor; auto using g_ok; lia|]. split; [apply wordsok_4; auto using ginv_ok; repeat apply inw_xor; auto using ginv_ok; lia|]. rewrite ginv_g by exact A. repeat f_equal. bits_lxor.
  Qed.
  Lemma b_undone k : k < 32 -> undoes (wordsok 16 4) (fun s => skj_b key s k) (fun s => skj_unb key s (S k)).
  Proof.
    intros K s H. destruct (four_words H) as (a & b & c & d & -> & A & B & C & D). unfold skj_b, skj_unb. cbn [nth]. cbv zeta. replace (S k - 1) with k by lia. replace (Z.of_nat (S k)) with (Z.of_nat k + 1)%Z by lia. pose proof (k_in K).
    split; [apply wordsok_4; auto using g_ok, inw_xor; repeat apply inw_xor; auto using g_ok; lia|]. split; [apply wordsok_4; auto using ginv_ok; repeat apply inw_xor; auto using ginv_ok; lia|]. rewrite ginv_g by exact A. repeat f_equal. bits_lxor.
  Qed.
  Lemma eight_undone (f g : list Z -> nat -> list Z) x : x + 8 <= 32 -> (forall k, k < 32 -> undoes (wordsok 16 4) (fun s => f s k) (fun s => g s (S k))) ->
    undoes (wordsok 16 4) (fun s => fold_left f (ups x 8 1) s) (fun s => fold_left g (downs (x + 8) 8 1) s).
  Proof.
    intros X U. apply (@undoes_rounds2 _ (wordsok 16 4) nat nat (fun i => i < 32) S); [|apply Forall_ups; intros; lia|exact U]. unfold ups, downs. cbn [seq map rev app]. repeat (f_equal; [lia|]). f_equal. lia.
  Qed.
  Lemma skj_lawful : lawful (skj_cph key).
  Proof.
    apply word_lawful_be_u with 16%Z; try lia. unfold skj_enc, skj_dec.
    exact (undoes_comp (undoes_comp (undoes_comp (@eight_undone _ _ 0 ltac:(lia) a_undone) (@eight_undone _ _ 8 ltac:(lia) b_undone)) (@eight_undone _ _ 16 ltac:(lia) a_undone)) (@eight_undone _ _ 24 ltac:(lia) b_undone)).
  Qed.
End skipjack.
Theorem C156_skipjack : cipher_for [10] 8 skj_new skj_encrypt skj_decrypt.
Proof. apply (@cipher_one _ 10 8 (fun key => key) skj_cph). intros key O L. split; [|reflexivity]. now apply skj_lawful. Qed.
(** the answer of the specification *)
Example C156_instance : kat (skj_new (hx "00998877665544332211")) skj_encrypt skj_decrypt "33221100ddccbbaa" "2587cae27a12d300".
Proof. kats. Qed.

Definition assum_small2 := (C154_sm4, C154_sm4_tables, C154_sm4_standard, C155_shacal2, C155_shacal2_is_sha256, C155_shacal2_equivalent_keys_refuted, C156_skipjack).
Print Assumptions assum_small2.
