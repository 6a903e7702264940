(** C41: the byte-string helpers of /repo/tool/bytes and /repo/tool/alias. *)
From Verif Require Import Base ToolBytesModel ToolBytesSpec ToolBytesProofs.
Set Implicit Arguments. Unset Strict Implicit.

Theorem C41_shift_left : forall x, bytes_ok x ->
  ShiftLeft x = match x with [] => Panic | _ => Ok (shl_bits 1 x) end.
Proof.
  intros x Hx. destruct x as [|a x]; [reflexivity|]. unfold ShiftLeft. f_equal. rewrite shift_left_fwd_eq.
  pose proof (shift_carry_spec Hx) as S. destruct (shift_carry (a :: x)) as [r z]. destruct S as (L & O & Z01 & E). cbn [fst].
  specialize (E ltac:(discriminate)). unfold shl_bits. apply be_val_inj; auto; [apply be_bytes_ok|now rewrite be_bytes_length|].
  rewrite be_val_bytes. change (2 ^ 1)%Z with 2%Z. rewrite (Z.mul_comm (be_val _)), E, Z.add_comm, Z_mod_plus_full. symmetry.
  apply Z.mod_small. pose proof (be_val_bound O) as B. now rewrite L in B.
Qed.
Print Assumptions C41_shift_left.

(** GfnDouble multiplies by x in GF(2^128) with x^128 + x^7 + x^2 + x + 1, and panics on other
    lengths. *)
Theorem C41_gfn_double : forall x, bytes_ok x ->
  GfnDouble x = if length x =? 16 then Ok (double 16 135 x) else Panic.
Proof.
  intros x Hx. destruct (Nat.eqb_spec (length x) 16) as [E|E]; [now apply GfnDouble_spec|].
  unfold GfnDouble. destruct (Nat.eqb_spec (length x) 16); [congruence|reflexivity].
Qed.
Print Assumptions C41_gfn_double.

(** ShiftLeftN into a zeroed buffer of the same length shifts by n bits. *)
Theorem C41_shift_left_n : forall x n, bytes_ok x -> x <> [] -> n / 8 <= length x ->
  ShiftLeftN (repeat 0%Z (length x)) x n = Ok (shl_bits (Z.of_nat n) x).
Proof. intros. now apply ShiftLeftN_spec. Qed.
Print Assumptions C41_shift_left_n.
(** Into a buffer that is not zeroed it does not: the promised trailing zeros are appended to a
    local slice only. *)
Theorem C41_shift_left_n_refuted : exists dst x, length dst = length x /\ bytes_ok dst /\ bytes_ok x /\
  ShiftLeftN dst x 8 <> Ok (shl_bits 8 x).
Proof.
  exists [7; 9]%Z, [1; 2]%Z. split; [reflexivity|]. split; [repeat constructor; unfold is_byte; lia|].
  split; [repeat constructor; unfold is_byte; lia|]. vm_compute. discriminate.
Qed.
Print Assumptions C41_shift_left_n_refuted.

Theorem C41_right_xor : forall X Y,
  (length X < length Y -> RightXOR X Y = Panic) /\
  (length Y <= length X -> RightXOR X Y = Ok (xorl X (repeat 0%Z (length X - length Y) ++ Y))).
Proof.
  intros X Y. unfold RightXOR. split; intro H.
  - destruct (Nat.ltb_spec (length X) (length Y)); [reflexivity|lia].
  - destruct (Nat.ltb_spec (length X) (length Y)); [lia|]. f_equal. set (o := length X - length Y).
    rewrite <- (firstn_skipn o X) at 3. rewrite xorl_app by (rewrite repeat_length, firstn_length; lia).
    f_equal. symmetry. apply xorl_repeat0. rewrite firstn_length. lia.
Qed.
Print Assumptions C41_right_xor.

(** SplitSize cuts into pieces of exactly [size] bytes but for a shorter non-empty last one. *)
Theorem C41_split_size : forall buf size, 0 < size ->
  concat (SplitSize buf size) = buf /\
  Forall (fun p => 0 < length p <= size) (SplitSize buf size) /\
  Forall (fun p => length p = size) (removelast (SplitSize buf size)).
Proof.
  intros buf size Hs. unfold SplitSize.
  enough (H : forall fuel buf, length buf < fuel ->
    concat (split_loop fuel buf size) = buf /\ Forall (fun p => 0 < length p <= size) (split_loop fuel buf size) /\
    Forall (fun p => length p = size) (removelast (split_loop fuel buf size))) by (apply H; lia).
  clear buf. induction fuel as [|f IH]; intros buf Hf; [lia|]. cbn [split_loop].
  destruct (Nat.leb_spec size (length buf)) as [Hle|Hgt].
  - destruct (IH (skipn size buf)) as (I1 & I2 & I3); [rewrite skipn_length; lia|].
    assert (L : length (firstn size buf) = size) by (rewrite firstn_length; lia).
    split; [cbn [concat]; rewrite I1; apply firstn_skipn|]. split; [constructor; auto; lia|].
    destruct (split_loop f (skipn size buf) size) eqn:E; cbn [removelast]; [constructor|]. constructor; auto.
  - destruct buf as [|x b]; [repeat split; constructor|]. cbn [concat removelast]. rewrite app_nil_r.
    split; [reflexivity|]. split; [|constructor]. constructor; [cbn in *; lia|constructor].
Qed.
Print Assumptions C41_split_size.

Theorem C41_all_zero : forall l, bytes_ok l -> (ConstantTimeAllZero l = true <-> l = repeat 0%Z (length l)).
Proof.
  intros l Hl. unfold ConstantTimeAllZero. rewrite Z.eqb_eq.
  assert (G : forall l a, (0 <= a)%Z -> bytes_ok l -> (fold_left Z.lor l a = 0%Z <-> a = 0%Z /\ l = repeat 0%Z (length l))).
  { clear. induction l as [|x l IH]; intros a Ha Hl; cbn [fold_left length repeat]; [tauto|].
    inversion Hl as [|? ? Hx Hl']; subst. rewrite IH by (auto; apply Z.lor_nonneg; unfold is_byte in Hx; lia).
    rewrite Z.lor_eq_0_iff. split; [intros [[-> ->] E]; split; auto; now f_equal|].
    intros [-> E]. injection E as -> E. auto. }
  rewrite G by (auto; lia). tauto.
Qed.
Print Assumptions C41_all_zero.

Example C41_instance : bytes_ok [129; 0; 255]%Z /\ ShiftLeft [129; 0; 255]%Z = Ok [2; 1; 254]%Z /\
  ShiftLeftN [0; 0; 0]%Z [129; 0; 255]%Z 10 = Ok [3; 252; 0]%Z /\ SplitSize [1; 2; 3; 4; 5]%Z 2 = [[1; 2]; [3; 4]; [5]]%Z /\
  GfnDouble (128 :: repeat 0 15)%Z = Ok (repeat 0 15 ++ [135])%Z.
Proof. split; [repeat constructor; unfold is_byte; lia|]. repeat split; vm_compute; reflexivity. Qed.
