(** C98-C101: integer helpers, rational helpers, cascade and Lion block ciphers. *)
From Verif Require Import Base BlockModeModel BlkSpec CombModel CombProofs.
From Coq Require Import Lia.
Set Implicit Arguments. Unset Strict Implicit.
Local Open Scope Z_scope.

(** * C98: greatest common divisors. The fuel bounds the number of rounds: with more rounds than the argument names the functions end. *)
Definition int64 (x : Z) : Prop := - 2 ^ 63 <= x < 2 ^ 63.
(** Recursive and Iterative give the divisor up to sign, and the divisor itself for arguments that are not negative. *)
Theorem C98_gcd fuel a b : int64 a -> int64 b -> (Z.abs_nat b < fuel)%nat ->
  exists g, gcd_rec fuel a b = Some g /\ Z.abs g = Z.gcd a b /\ (0 <= a -> 0 <= b -> g = Z.gcd a b).
Proof.
  intros A B F. destruct (@gcd_rec_ok fuel a b F) as (g & E & G & P). exists g. split; auto. split; auto. intros A0 B0. specialize (P A0 B0). lia.
Qed.
(** Extended, ExtendedRecursive and ExtendedIterative: Bezout's identity holds exactly, so no step has wrapped. *)
Theorem C98_extended fuel a b : 0 <= a < 2 ^ 63 -> 0 <= b < 2 ^ 63 -> (Z.to_nat a < fuel)%nat ->
  exists x y, extended fuel a b = Some (Z.gcd a b, x, y) /\ a * x + b * y = Z.gcd a b /\ int64 x /\ int64 y.
Proof. intros A B F. destruct (@extended_ok fuel a b A B F) as (x & y & E & Z & X & Y & _). exists x, y. unfold int64. split; auto. split; auto. lia. Qed.
Theorem C98_extended_recursive fuel a b : 0 <= a < 2 ^ 63 -> 0 <= b < 2 ^ 63 -> (Z.to_nat b < fuel)%nat ->
  exists x y, extended_rec fuel a b = Some (Z.gcd a b, x, y) /\ a * x + b * y = Z.gcd a b /\ int64 x /\ int64 y.
Proof. intros A B F. destruct (@extended_rec_ok fuel a b A B F) as (x & y & E & Z & X & Y & _). exists x, y. unfold int64. split; auto. split; auto. lia. Qed.
Theorem C98_extended_iterative fuel a b : 0 <= a < 2 ^ 63 -> 0 <= b < 2 ^ 63 -> (Z.to_nat a < fuel)%nat ->
  exists x y, extended_iter fuel a b = Some (Z.gcd a b, x, y) /\ a * x + b * y = Z.gcd a b.
Proof. apply extended_iter_ok. Qed.
(** For negative arguments ExtendedRecursive and ExtendedIterative stop at once: the answer need not be a divisor of both. *)
Theorem C98_negative_refuted : (forall f a b, b <= 0 -> extended_rec (S f) a b = Some (a, 1, 0)) /\ (forall f a b, a <= 0 -> extended_iter (S f) a b = Some (b, 0, 1)) /\ ~ (4 | 6).
Proof.
  split; [|split].
  - intros f a b B. cbn [extended_rec]. now replace (0 <? b) with false by lia.
  - intros f a b A. unfold extended_iter. cbn [ext_loop]. now replace (0 <? a) with false by lia.
  - intros [k K]. lia.
Qed.
Theorem C98_lcm fuel a b : 0 < a -> 0 < b -> a * b <= 2 ^ 53 -> (Z.to_nat b < fuel)%nat -> lcm_go fuel a b = Some (Z.lcm a b).
Proof. apply lcm_ok. Qed.
Example C98_instance : gcd_rec 99 98 56 = Some 14 /\ extended 60 30 50 = Some (10, 2, -1) /\ extended_rec 60 30 50 = Some (10, 2, -1) /\ extended_iter 60 30 50 = Some (10, 2, -1) /\ lcm_go 10 16 8 = Some 16 /\
  extended_rec 10 4 (-6) = Some (4, 1, 0).
Proof. repeat split; vm_compute; reflexivity. Qed.

(** * C99: rationals and rotations *)
(** k is the floor / the ceiling of the rational *)
Theorem C99_floor n : 0 < rd n -> rat_floor n * rd n <= rn n < (rat_floor n + 1) * rd n.
Proof. intros D. unfold rat_floor. pose proof (Z.div_mod (rn n) (rd n) ltac:(lia)). pose proof (Z.mod_pos_bound (rn n) (rd n) D). nia. Qed.
Theorem C99_ceil n : 0 < rd n -> (rat_ceil n - 1) * rd n < rn n <= rat_ceil n * rd n.
Proof. intros D. destruct (ceil_ok D). lia. Qed.
(** Below zero Round gives the nearest integer, the one away from zero on a tie. *)
Theorem C99_round_negative n : 0 < rd n -> rn n < 0 ->
  2 * Z.abs (rn n - rat_round n * rd n) <= rd n /\ (2 * Z.abs (rn n - rat_round n * rd n) = rd n -> rat_round n * rd n < rn n).
Proof. apply round_neg. Qed.
(** From zero on it is right on ties only, and one too much for every other number, integers included. *)
Theorem C99_round_refuted n : 0 < rd n -> 0 <= rn n ->
  ((2 * rn n) mod (2 * rd n) = rd n -> 2 * (rat_round n * rd n - rn n) = rd n) /\
  ((2 * rn n) mod (2 * rd n) <> rd n -> 2 * Z.abs (rn n - (rat_round n - 1) * rd n) < rd n).
Proof. apply round_nonneg. Qed.
Theorem C99_odd n : Z.odd (odd_up n) = true /\ n <= odd_up n <= n + 1.
Proof.
  unfold odd_up. pose proof (Zmod_odd n) as O. destruct (Z.odd n) eqn:P; rewrite O; cbn [Z.eqb]; [split; [auto|lia]|]. split; [|lia].
  rewrite Z.odd_add, P. reflexivity.
Qed.
(** RotateLeft and RotateRight move bit j to position j+r (j-r) modulo s, and only the low s bits take part. *)
Theorem C99_rotate x r s i : 0 <= r <= s -> 0 <= i ->
  Z.testbit (rotate_left x r s (mask s)) i = (i <? s) && Z.testbit x ((i - r) mod s) /\
  Z.testbit (rotate_right x r s (mask s)) i = (i <? s) && Z.testbit x ((i + r) mod s).
Proof.
  intros R I. split; [now apply rotl_bit|]. unfold rotate_right. rewrite rotl_bit by lia. destruct (Z.ltb_spec i s); [|reflexivity]. cbn [andb]. f_equal.
  replace (i - (s - r)) with (i + r + (-1) * s) by ring. apply Z.mod_add. lia.
Qed.
(** Sqrt: never below the root, and a further step never leads away from it. *)
Definition sq_ge (x : rat) (n : Z) : Prop := n * (rd x * rd x) <= rn x * rn x.
Definition rat_le (x y : rat) : Prop := rn x * rd y <= rn y * rd x.
Lemma newton_ok n x : 0 < n -> 0 < rn x -> 0 < rd x -> 0 < rn (newton n x) /\ 0 < rd (newton n x) /\ sq_ge (newton n x) n /\ (sq_ge x n -> rat_le (newton n x) x).
Proof.
  intros N A B. unfold newton, sq_ge, rat_le. cbn [rn rd]. split; [nia|]. split; [nia|]. split.
  { pose proof (Z.square_nonneg (rn x * rn x - n * rd x * rd x)). assert (E : (rn x * rn x + n * rd x * rd x) * (rn x * rn x + n * rd x * rd x) = n * (2 * rn x * rd x * (2 * rn x * rd x)) + (rn x * rn x - n * rd x * rd x) * (rn x * rn x - n * rd x * rd x)) by ring. lia. }
  intros Q. set (a := rn x) in *. set (b := rd x) in *. assert (b * (a * a + n * b * b) <= b * (2 * (a * a))) by (apply Z.mul_le_mono_nonneg_l; nia). nia.
Qed.
Theorem C99_sqrt n k : 0 < n -> 0 < rn (sqrt_rat k n) /\ 0 < rd (sqrt_rat k n) /\ sq_ge (sqrt_rat k n) n /\ rat_le (sqrt_rat (S k) n) (sqrt_rat k n).
Proof.
  intros N. unfold sqrt_rat. replace (n =? 0) with false by lia.
  assert (G : forall k x, 0 < rn x -> 0 < rd x -> let y := sqrt_loop (S k) n x in 0 < rn y /\ 0 < rd y /\ sq_ge y n /\ rat_le (newton n y) y /\ sqrt_loop (S (S k)) n x = newton n y).
  { induction k0 as [|k0 IH]; intros x A B.
    - cbn [sqrt_loop]. destruct (newton_ok N A B) as (P1 & P2 & P3 & _). destruct (newton_ok N P1 P2) as (_ & _ & _ & P4). exact (conj P1 (conj P2 (conj P3 (conj (P4 P3) eq_refl)))).
    - destruct (newton_ok N A B) as (P1 & P2 & _). exact (IH (newton n x) P1 P2). }
  destruct (G k (Rat 1 1) ltac:(cbn; lia) ltac:(cbn; lia)) as (P1 & P2 & P3 & P4 & P5). rewrite P5. auto.
Qed.
Example C99_instance : rat_round (Rat 2 1) = 3 /\ rat_round (Rat 3 10) = 1 /\ rat_round (Rat 5 2) = 3 /\ rat_round (Rat (-7) 10) = -1 /\ rotate_left 9 1 4 (mask 4) = 3 /\ sqrt_rat 1 2 = Rat 17 12.
Proof. repeat split; reflexivity. Qed.

(** * C100: cascade *)
Local Open Scope nat_scope.
(** Two block ciphers with block sizes of product at most 2^53 make a block cipher whose block size is the least common multiple. *)
Theorem C100_cascade fuel c1 c2 : lawful c1 -> lawful c2 -> (Z.of_nat (bsz c1) * Z.of_nat (bsz c2) <= 2 ^ 53)%Z -> bsz c2 < fuel ->
  exists c, cascade_new fuel c1 c2 = Ok c /\ csB c = Nat.lcm (bsz c1) (bsz c2) /\ block_cipher (csB c) (cascade_encrypt c) (cascade_decrypt c).
Proof.
  intros L1 L2 P F. eexists. split; [apply casc_new; auto|]. split; [reflexivity|]. apply casc_block; auto.
  - destruct (Nat.divide_lcm_l (bsz c1) (bsz c2)) as [k K]. exists k. exact K.
  - destruct (Nat.divide_lcm_r (bsz c1) (bsz c2)) as [k K]. exists k. exact K.
Qed.
(** What is computed: every block goes through the first cipher, then every block of the result through the second. *)
Theorem C100_cascade_is c1 c2 bs dst xs ys : lawful c1 -> lawful c2 -> all_len (bsz c1) xs -> all_len (bsz c2) ys -> length (concat xs) = bs -> length dst = bs ->
  concat (map (enc c1) xs) = concat ys ->
  cascade_encrypt (Cascade c1 c2 bs) dst (concat xs) = Ok (concat (map (enc c2) ys)).
Proof.
  intros L1 L2 A B L D E. unfold cascade_encrypt, each. cbn [csB cs1 cs2]. rewrite L, D, Nat.ltb_irrefl. rewrite firstn_all2 by lia. rewrite (@chunks_of_concat Z (bsz c1) xs) by (auto; now apply law_pos).
  rewrite E, (@chunks_of_concat Z (bsz c2) ys) by (auto; now apply law_pos). now rewrite skipn_all2, app_nil_r by lia.
Qed.
Definition addc (k : Z) (n : nat) : cipher := {| bsz := n; enc := map (fun b => ((b + k) mod 256)%Z); dec := map (fun b => ((b - k) mod 256)%Z) |}.
Lemma addc_lawful k n : 0 < n -> lawful (addc k n).
Proof.
  intros N. split; cbn [bsz enc dec addc]; auto.
  - intros b [L O]. split; [now rewrite map_length|]. apply Forall_map, Forall_forall. intros x X. apply Z.mod_pos_bound. lia.
  - intros b [L O]. split; [now rewrite map_length|]. apply Forall_map, Forall_forall. intros x X. apply Z.mod_pos_bound. lia.
  - intros b [L O]. rewrite map_map. rewrite <- (map_id b) at 2. apply map_ext_in. intros x X. unfold bytes_ok in O. rewrite Forall_forall in O. specialize (O x X). unfold is_byte in O.
    rewrite Zminus_mod_idemp_l. replace (x + k - k)%Z with x by ring. apply Z.mod_small. lia.
Qed.
Example C100_instance : lawful (addc 3 2) /\ lawful (addc 250 3) /\ exists c, cascade_new 9 (addc 3 2) (addc 250 3) = Ok c /\ csB c = 6 /\
  cascade_encrypt c (repeat 0%Z 7) [1; 2; 3; 4; 5; 6]%Z = Ok [254; 255; 0; 1; 2; 3; 0]%Z.
Proof. split; [apply addc_lawful; lia|]. split; [apply addc_lawful; lia|]. eexists. split; [vm_compute; reflexivity|]. split; reflexivity. Qed.

(** * C101: Lion *)
(** Any hash with hs bytes of output, any stream cipher that takes every key of that size. *)
Section c101.
Variable hs : nat.
Variable H : bytes -> bytes.
Variable stream : bytes -> option (nat -> bytes).
Hypothesis HL : forall m, length (H m) = hs.
Hypothesis SL : forall k, exists ks, stream k = Some ks /\ forall n, length (ks n) = n.
(** NewCipher takes every key and block size; a block size below 2*hs+1 is raised to that. *)
Theorem C101_new bs key : exists c, lion_new hs bs key = Ok c /\ lnB c = Nat.max (2 * hs + 1) bs.
Proof. unfold lion_new. replace (Nat.max (2 * hs + 1) bs <? 2 * hs + 1) with false by (symmetry; apply Nat.ltb_ge; lia). eexists. split; reflexivity. Qed.
(** Encrypt and Decrypt undo one another on source and destination of the same length, which may be larger than a block: then the
    whole of it is encrypted as one block. *)
Theorem C101_roundtrip bs key c dst dst' src : lion_new hs bs key = Ok c -> lnB c <= length src -> length dst = length src -> length dst' = length src ->
  (exists ct, lion_encrypt hs H stream c dst src = Ok ct /\ length ct = length src /\ lion_decrypt hs H stream c dst' ct = Ok src) /\
  (exists pt, lion_decrypt hs H stream c dst src = Ok pt /\ length pt = length src /\ lion_encrypt hs H stream c dst' pt = Ok src).
Proof.
  intros N L D D'. destruct (C101_new bs key) as (c' & N' & B). rewrite N in N'. injection N' as <-.
  split; unfold lion_encrypt, lion_decrypt; apply lion_inv; auto; lia.
Qed.
(** The three rounds: left half xor hash, right half xor key stream. *)
Theorem C101_is_lion c L R dst ks1 ks2 : length L = hs -> length dst = length (L ++ R) -> lnB c <= length (L ++ R) ->
  stream (xorl L (lnK1 c)) = Some ks1 -> (let R1 := xorl R (ks1 (length R)) in let L1 := xorl L (H R1) in
    stream (xorl L1 (lnK2 c)) = Some ks2 -> length (ks1 (length R)) = length R -> length (ks2 (length R)) = length R ->
    lion_encrypt hs H stream c dst (L ++ R) = Ok (L1 ++ xorl R1 (ks2 (length R)))).
Proof.
  intros LL LD LB S1. cbn zeta. intros S2 K1 K2. unfold lion_encrypt, lion_crypt. replace (length (L ++ R) <? lnB c) with false by (symmetry; apply Nat.ltb_ge; lia).
  replace (length dst <? lnB c) with false by (symmetry; apply Nat.ltb_ge; lia). rewrite firstn_app_exact, skipn_app_exact by auto. unfold xor_ks. rewrite S1. rewrite app_length in LD.
  replace (length (skipn hs dst) <? length R) with false by (symmetry; apply Nat.ltb_ge; rewrite skipn_length; lia). rewrite skipn_all2 by (rewrite skipn_length; lia). rewrite app_nil_r. cbn [rbind].
  rewrite S2. rewrite Nat.ltb_irrefl. rewrite skipn_all2, app_nil_r by lia. cbn [rbind]. rewrite xorl_length, K1, Nat.min_id. reflexivity.
Qed.
(** A source longer than the destination panics, although both hold a block. *)
Theorem C101_long_source_refuted c dst src : length dst < length src -> lnB c <= length dst -> hs <= length dst ->
  lion_encrypt hs H stream c dst src = Panic /\ lion_decrypt hs H stream c dst src = Panic.
Proof. intros L B Hd. split; apply lion_src_long; auto. Qed.
End c101.
(** Key bytes beyond hs of either half have no effect. *)
Theorem C101_key_tail_refuted hs bs key key' : length key = length key' ->
  firstn hs (firstn (Nat.div (length key) 2) key) = firstn hs (firstn (Nat.div (length key) 2) key') ->
  firstn hs (skipn (Nat.div (length key) 2) key) = firstn hs (skipn (Nat.div (length key) 2) key') -> lion_new hs bs key = lion_new hs bs key'.
Proof.
  intros L A B. unfold lion_new. destruct (_ <? _); auto. rewrite <- L. unfold gocopy. rewrite repeat_length, A, B. rewrite !firstn_length, !skipn_length, <- L. reflexivity.
Qed.
Definition toyH (m : bytes) : bytes := [fold_left (fun a b => ((a * 3 + b) mod 256)%Z) m 7%Z; Z.of_nat (length m) mod 256]%Z.
Definition toyS (k : bytes) : option (nat -> bytes) := Some (fun n => map (fun i => ((Z.of_nat i * 5 + nth 0 k 0 + 2 * nth 1 k 0) mod 256)%Z) (seq 0 n)).
Definition lc : lion := Lion [1; 2]%Z [3; 4]%Z 5.
Definition lsrc : bytes := [10; 20; 30; 40; 50]%Z.
Example C101_instance : (forall m, length (toyH m) = 2) /\ (forall k, exists ks, toyS k = Some ks /\ forall n, length (ks n) = n) /\ lion_new 2 0 [1; 2; 3; 4]%Z = Ok lc /\
  exists ct, lion_encrypt 2 toyH toyS lc (repeat 0%Z 5) lsrc = Ok ct /\ ct <> lsrc /\ lion_decrypt 2 toyH toyS lc (repeat 9%Z 5) ct = Ok lsrc.
Proof.
  split; [reflexivity|]. split; [intros k; eexists; split; [reflexivity|]; intros n; cbv beta; now rewrite map_length, seq_length|]. split; [reflexivity|].
  eexists. split; [vm_compute; reflexivity|]. split; [discriminate|vm_compute; reflexivity].
Qed.
(** A destination longer than the source: the hash covers what lay in the rest of it, and the block does not come back. *)
Theorem C101_long_destination_refuted : exists ct pt, lion_encrypt 2 toyH toyS lc (repeat 9%Z 7) lsrc = Ok ct /\
  lion_decrypt 2 toyH toyS lc (repeat 0%Z 5) (firstn 5 ct) = Ok pt /\ pt <> lsrc.
Proof. eexists _, _. split; [vm_compute; reflexivity|]. split; [vm_compute; reflexivity|]. discriminate. Qed.

Definition C98_C101 := (C98_gcd, C98_extended, C98_extended_recursive, C98_extended_iterative, C98_negative_refuted, C98_lcm, C99_floor, C99_ceil, C99_round_negative, C99_round_refuted, C99_odd, C99_rotate, C99_sqrt,
  C100_cascade, C100_cascade_is, (C101_new, C101_roundtrip, C101_is_lion, C101_long_source_refuted, C101_key_tail_refuted, C101_long_destination_refuted)).
Print Assumptions C98_C101.
