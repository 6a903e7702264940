(** Common vocabulary of the model: byte strings, Go outcomes, slices, XOR.
    This file models no particular function of the repository; it fixes how Go
    values are represented (see DESIGN.md, "Conventions"). *)
From Coq Require Export List ZArith Lia Bool Arith.
From Coq Require Export ZifyBool ZifyNat.
Export ListNotations.

Set Implicit Arguments.

(** A byte string. *)
Notation bytes := (list Z) (only parsing).

(** Every element is a byte value. *)
Definition is_byte (b : Z) : Prop := (0 <= b < 256)%Z.
Definition bytes_ok (l : bytes) : Prop := Forall is_byte l.

(** Outcome of a Go call: a value, a returned non-nil error, or a run-time
    panic. *)
Inductive res (A : Type) : Type :=
| Ok (a : A)
| Err
| Panic.
Arguments Ok {A} _.
Arguments Err {A}.
Arguments Panic {A}.

Definition rbind {A B} (x : res A) (f : A -> res B) : res B :=
  match x with Ok a => f a | Err => Err | Panic => Panic end.

(** Go's [byte(n)] conversion of an int. *)
Definition to_byte (n : Z) : Z := (n mod 256)%Z.

(** [l[off : off+n]] *)
Definition slice {A} (off n : nat) (l : list A) : list A := firstn n (skipn off l).

(** Overwrite [l[off : off + len d]] by [d]; Go's [copy(l[off:], d)] when [d]
    fits. *)
Definition splice {A} (off : nat) (d l : list A) : list A :=
  firstn off l ++ d ++ skipn (off + length d) l.

(** Go's [copy(dst, src)]: overwrite the first min(len dst, len src). *)
Definition gocopy {A} (dst src : list A) : list A :=
  firstn (length dst) src ++ skipn (length src) dst.

(** Byte-wise XOR; stops at the shorter operand, as
    crypto/subtle.XORBytes does. *)
Fixpoint xorl (a b : bytes) : bytes :=
  match a, b with
  | x :: a', y :: b' => Z.lxor x y :: xorl a' b'
  | _, _ => []
  end.

(** Big-endian and little-endian coding of an unsigned number in n bytes. *)
Fixpoint le_bytes (n : nat) (z : Z) : bytes :=
  match n with
  | O => []
  | S n' => (z mod 256)%Z :: le_bytes n' (z / 256)%Z
  end.
Definition be_bytes (n : nat) (z : Z) : bytes := rev (le_bytes n z).
Fixpoint le_val (l : bytes) : Z :=
  match l with
  | [] => 0%Z
  | b :: l' => (b + 256 * le_val l')%Z
  end.
Definition be_val (l : bytes) : Z := le_val (rev l).

(** Boolean equality of byte strings (bytes.Equal / subtle.ConstantTimeCompare
    = 1). *)
Fixpoint bytes_eqb (a b : bytes) : bool :=
  match a, b with
  | [], [] => true
  | x :: a', y :: b' => Z.eqb x y && bytes_eqb a' b'
  | _, _ => false
  end.

(** Cut a list into consecutive pieces of length n (the last one may be
    shorter); what a loop [for len(src) > 0 { ...; src = src[n:] }] visits. *)
Fixpoint chunks_fuel {A} (fuel n : nat) (l : list A) : list (list A) :=
  match fuel with
  | O => []
  | S f => match l with
           | [] => []
           | _ => firstn n l :: chunks_fuel f n (skipn n l)
           end
  end.
Definition chunks {A} (n : nat) (l : list A) : list (list A) :=
  chunks_fuel (length l) n l.

(** * Lemmas *)

Lemma bytes_eqb_eq a b : bytes_eqb a b = true <-> a = b.
Proof.
  revert b; induction a as [|x a IH]; intros [|y b]; cbn; split; intro H;
    try reflexivity; try discriminate.
  - apply andb_true_iff in H as [H1 H2]. apply Z.eqb_eq in H1.
    apply IH in H2. congruence.
  - injection H as -> ->. rewrite Z.eqb_refl. cbn. now apply IH.
Qed.

Lemma bytes_eqb_refl a : bytes_eqb a a = true.
Proof. now apply bytes_eqb_eq. Qed.

Lemma bytes_eqb_neq a b : bytes_eqb a b = false <-> a <> b.
Proof.
  rewrite <- bytes_eqb_eq. destruct (bytes_eqb a b); split; congruence.
Qed.

Lemma xorl_length a b : length (xorl a b) = Nat.min (length a) (length b).
Proof. revert b; induction a as [|x a IH]; intros [|y b]; cbn; auto. Qed.

Lemma xorl_length_eq a b : length a = length b -> length (xorl a b) = length a.
Proof. rewrite xorl_length. lia. Qed.

Lemma xorl_comm a b : xorl a b = xorl b a.
Proof.
  revert b; induction a as [|x a IH]; intros [|y b]; cbn; auto.
  now rewrite Z.lxor_comm, IH.
Qed.

Lemma xorl_assoc a b c : xorl (xorl a b) c = xorl a (xorl b c).
Proof.
  revert b c; induction a as [|x a IH]; intros [|y b] [|z c]; cbn; auto.
  now rewrite Z.lxor_assoc, IH.
Qed.

(** XOR with the same string twice gives back the prefix that was covered. *)
Lemma xorl_cancel_r a k : length a <= length k -> xorl (xorl a k) k = a.
Proof.
  revert k; induction a as [|x a IH]; intros [|y k] H; cbn in *; auto; try lia.
  rewrite Z.lxor_assoc, Z.lxor_nilpotent, Z.lxor_0_r, IH by lia. reflexivity.
Qed.

Lemma xorl_cancel_l a k : length a <= length k -> xorl k (xorl k a) = a.
Proof.
  intro H. rewrite (xorl_comm k a), xorl_comm. now apply xorl_cancel_r.
Qed.

Lemma xorl_nil_r a : xorl a [] = [].
Proof. now destruct a. Qed.

Lemma xorl_app a1 a2 b1 b2 :
  length a1 = length b1 -> xorl (a1 ++ a2) (b1 ++ b2) = xorl a1 b1 ++ xorl a2 b2.
Proof.
  revert b1; induction a1 as [|x a1 IH]; intros [|y b1] H; cbn in *; try lia; auto.
  now rewrite IH by lia.
Qed.

Lemma xorl_firstn n a b : firstn n (xorl a b) = xorl (firstn n a) (firstn n b).
Proof.
  revert a b; induction n as [|n IH]; intros [|x a] [|y b]; cbn; auto.
  now rewrite IH.
Qed.

Lemma xorl_skipn n a b : skipn n (xorl a b) = xorl (skipn n a) (skipn n b).
Proof.
  revert a b; induction n as [|n IH]; intros [|x a] [|y b]; cbn; auto.
  now rewrite xorl_nil_r.
Qed.

(** Only the covered prefix of the longer operand matters. *)
Lemma xorl_firstn_r a k n : length a <= n -> xorl a (firstn n k) = xorl a k.
Proof.
  revert k n; induction a as [|x a IH]; intros [|y k] [|n] H; cbn in *; auto; try lia.
  rewrite IH by lia. reflexivity.
Qed.

Lemma xorl_app_r a k r : length a <= length k -> xorl a (k ++ r) = xorl a k.
Proof.
  revert k; induction a as [|x a IH]; intros [|y k] H; cbn in *; auto; try lia.
  rewrite IH by lia. reflexivity.
Qed.

Lemma xorl_repeat0 a n : length a <= n -> xorl a (repeat 0%Z n) = a.
Proof.
  revert n; induction a as [|x a IH]; intros [|n] H; cbn in *; auto; try lia.
  rewrite Z.lxor_0_r, IH by lia. reflexivity.
Qed.

Lemma xorl_same a : xorl a a = repeat 0%Z (length a).
Proof. induction a; cbn; auto. rewrite Z.lxor_nilpotent. now f_equal. Qed.

Lemma lxor_byte x y : is_byte x -> is_byte y -> is_byte (Z.lxor x y).
Proof.
  unfold is_byte. intros Hx Hy.
  split. { apply Z.lxor_nonneg; lia. }
  destruct (Z.eq_dec (Z.lxor x y) 0) as [->|Hn]; [lia|].
  assert (0 <= Z.lxor x y)%Z by (apply Z.lxor_nonneg; lia).
  change 256%Z with (2 ^ 8)%Z. apply Z.log2_lt_pow2; [lia|].
  pose proof (Z.log2_lxor x y ltac:(lia) ltac:(lia)) as Hl.
  assert (Z.log2 x < 8)%Z.
  { destruct (Z.eq_dec x 0) as [->|]; [cbn; lia|]. apply Z.log2_lt_pow2; cbn; lia. }
  assert (Z.log2 y < 8)%Z.
  { destruct (Z.eq_dec y 0) as [->|]; [cbn; lia|]. apply Z.log2_lt_pow2; cbn; lia. }
  lia.
Qed.

Lemma xorl_ok a b : bytes_ok a -> bytes_ok b -> bytes_ok (xorl a b).
Proof.
  revert b; induction a as [|x a IH]; intros [|y b] Ha Hb; cbn; try constructor.
  - inversion Ha; inversion Hb; subst. now apply lxor_byte.
  - inversion Ha; inversion Hb; subst. now apply IH.
Qed.

Lemma bytes_ok_app a b : bytes_ok (a ++ b) <-> bytes_ok a /\ bytes_ok b.
Proof. unfold bytes_ok. apply Forall_app. Qed.

Lemma bytes_ok_firstn n a : bytes_ok a -> bytes_ok (firstn n a).
Proof.
  unfold bytes_ok. intro H. rewrite <- (firstn_skipn n a) in H.
  apply Forall_app in H. tauto.
Qed.

Lemma bytes_ok_skipn n a : bytes_ok a -> bytes_ok (skipn n a).
Proof.
  unfold bytes_ok. intro H. rewrite <- (firstn_skipn n a) in H.
  apply Forall_app in H. tauto.
Qed.

Lemma bytes_ok_slice o n a : bytes_ok a -> bytes_ok (slice o n a).
Proof. intro. now apply bytes_ok_firstn, bytes_ok_skipn. Qed.

Lemma bytes_ok_repeat b n : is_byte b -> bytes_ok (repeat b n).
Proof. intro H. induction n; cbn; constructor; auto. Qed.

Lemma le_bytes_length n z : length (le_bytes n z) = n.
Proof. revert z; induction n; intro z; cbn [le_bytes length]; auto. Qed.
Lemma be_bytes_length n z : length (be_bytes n z) = n.
Proof. unfold be_bytes. now rewrite rev_length, le_bytes_length. Qed.

Lemma le_bytes_ok n z : bytes_ok (le_bytes n z).
Proof.
  revert z; induction n; intro z; cbn [le_bytes]; constructor; [|apply IHn].
  apply Z.mod_pos_bound. lia.
Qed.
Lemma bytes_ok_rev l : bytes_ok l -> bytes_ok (rev l).
Proof. unfold bytes_ok. apply Forall_rev. Qed.
Lemma be_bytes_ok n z : bytes_ok (be_bytes n z).
Proof. apply bytes_ok_rev, le_bytes_ok. Qed.

Lemma le_val_bytes n z : le_val (le_bytes n z) = (z mod 256 ^ Z.of_nat n)%Z.
Proof.
  revert z; induction n as [|n IH]; intro z; cbn [le_bytes le_val].
  - change (256 ^ Z.of_nat 0)%Z with 1%Z. now rewrite Z.mod_1_r.
  - rewrite IH, Nat2Z.inj_succ, Z.pow_succ_r by lia.
    rewrite (Z.rem_mul_r z 256 (256 ^ Z.of_nat n)) by
      (try lia; apply Z.pow_pos_nonneg; lia). lia.
Qed.
Lemma be_val_bytes n z : be_val (be_bytes n z) = (z mod 256 ^ Z.of_nat n)%Z.
Proof. unfold be_val, be_bytes. now rewrite rev_involutive, le_val_bytes. Qed.

Lemma le_val_bound l : bytes_ok l -> (0 <= le_val l < 256 ^ Z.of_nat (length l))%Z.
Proof.
  induction l as [|b l IH]; intro H; cbn [le_val length].
  - change (256 ^ Z.of_nat 0)%Z with 1%Z. lia.
  - inversion H as [|? ? Hb Hl]; subst. specialize (IH Hl). unfold is_byte in Hb.
    rewrite Nat2Z.inj_succ, Z.pow_succ_r by lia. lia.
Qed.
Lemma be_val_bound l : bytes_ok l -> (0 <= be_val l < 256 ^ Z.of_nat (length l))%Z.
Proof.
  intro H. unfold be_val. rewrite <- (rev_length l). apply le_val_bound.
  now apply bytes_ok_rev.
Qed.

Lemma le_bytes_val l n : bytes_ok l -> length l = n -> le_bytes n (le_val l) = l.
Proof.
  revert n; induction l as [|b l IH]; intros [|n] H Hn; cbn [le_val le_bytes length] in *;
    try lia; auto.
  inversion H as [|? ? Hb Hl]; subst. unfold is_byte in Hb.
  rewrite Z.mul_comm, Z.mod_add, Z.mod_small by lia.
  rewrite Z.div_add, Z.div_small by lia. cbn [Z.add].
  rewrite IH by (auto; lia). reflexivity.
Qed.
Lemma be_bytes_val l n : bytes_ok l -> length l = n -> be_bytes n (be_val l) = l.
Proof.
  intros H Hn. unfold be_bytes, be_val.
  rewrite le_bytes_val; [apply rev_involutive|now apply bytes_ok_rev|
    now rewrite rev_length].
Qed.

Lemma slice_length {A} o n (l : list A) :
  o + n <= length l -> length (slice o n l) = n.
Proof. intro H. unfold slice. rewrite firstn_length, skipn_length. lia. Qed.

Lemma splice_length {A} o (d l : list A) :
  o + length d <= length l -> length (splice o d l) = length l.
Proof.
  intro H. unfold splice. rewrite !app_length, firstn_length, skipn_length. lia.
Qed.

Lemma gocopy_length {A} (d s : list A) : length (gocopy d s) = length d.
Proof.
  unfold gocopy. rewrite app_length, firstn_length, skipn_length. lia.
Qed.

Lemma firstn_app_exact {A} n (a b : list A) : length a = n -> firstn n (a ++ b) = a.
Proof. intros <-. rewrite firstn_app, firstn_all, Nat.sub_diag. cbn. apply app_nil_r. Qed.
Lemma skipn_app_exact {A} n (a b : list A) : length a = n -> skipn n (a ++ b) = b.
Proof. intros <-. rewrite skipn_app, skipn_all, Nat.sub_diag. reflexivity. Qed.

Lemma skipn_skipn' {A} a b (l : list A) : skipn a (skipn b l) = skipn (b + a) l.
Proof.
  revert l; induction b as [|b IH]; intro l; cbn; auto.
  destruct l; [now rewrite skipn_nil|apply IH].
Qed.

Lemma chunks_fuel_enough {A} f1 f2 n (l : list A) :
  0 < n -> length l <= f1 -> length l <= f2 -> chunks_fuel f1 n l = chunks_fuel f2 n l.
Proof.
  intro Hn. revert f2 l; induction f1 as [|f1 IH]; intros [|f2] l H1 H2;
    try (destruct l; cbn in *; try lia; reflexivity).
  destruct l as [|x l]; [reflexivity|].
  cbn [chunks_fuel]. f_equal. apply IH; rewrite skipn_length; cbn [length] in *; lia.
Qed.

Lemma chunks_nil {A} n : chunks n (@nil A) = [].
Proof. reflexivity. Qed.

Lemma chunks_cons {A} n (l : list A) :
  0 < n -> l <> [] -> chunks n l = firstn n l :: chunks n (skipn n l).
Proof.
  intros Hn Hl. unfold chunks. destruct l as [|x l]; [congruence|].
  cbn [length chunks_fuel]. f_equal.
  apply chunks_fuel_enough; auto; rewrite skipn_length; cbn [length]; lia.
Qed.

Lemma chunks_concat {A} n (l : list A) : 0 < n -> concat (chunks n l) = l.
Proof.
  intro Hn. remember (length l) as k eqn:Hk. revert l Hk.
  induction k as [k IH] using lt_wf_ind; intros l Hk.
  destruct l as [|x l]; [reflexivity|].
  rewrite chunks_cons by (auto; congruence). cbn [concat].
  rewrite (IH (length (skipn n (x :: l)))); auto.
  - apply firstn_skipn.
  - subst k. rewrite skipn_length. cbn [length]. lia.
Qed.

Lemma chunks_app_block {A} n (b l : list A) :
  0 < n -> length b = n -> chunks n (b ++ l) = b :: chunks n l.
Proof.
  intros Hn Hb. rewrite chunks_cons; auto.
  - now rewrite firstn_app_exact, skipn_app_exact by auto.
  - destruct b; cbn in *; [lia|congruence].
Qed.

(** Blocks all of the given length, for aligned input. *)
Definition all_len {A} (n : nat) (ls : list (list A)) : Prop :=
  Forall (fun l => length l = n) ls.

Lemma chunks_all_len {A} n (l : list A) k :
  0 < n -> length l = k * n -> all_len n (chunks n l) /\ length (chunks n l) = k.
Proof.
  intro Hn. revert l; induction k as [|k IH]; intros l Hl.
  - destruct l; cbn in Hl; [|lia]. split; [constructor|reflexivity].
  - assert (l <> []) by (destruct l; cbn in *; [lia|congruence]).
    rewrite chunks_cons by auto.
    destruct (IH (skipn n l)) as [H1 H2]. { rewrite skipn_length; lia. }
    split; [|cbn; lia]. constructor; auto. rewrite firstn_length. lia.
Qed.

Lemma chunks_of_concat {A} n (bs : list (list A)) :
  0 < n -> all_len n bs -> chunks n (concat bs) = bs.
Proof.
  intro Hn. induction bs as [|b bs IH]; intro H; [reflexivity|].
  inversion H; subst. cbn [concat]. rewrite chunks_app_block by auto.
  now rewrite IH.
Qed.

Lemma concat_all_len {A} n (bs : list (list A)) :
  all_len n bs -> length (concat bs) = length bs * n.
Proof.
  induction bs as [|b bs IH]; intro H; [reflexivity|].
  inversion H; subst. cbn [concat length]. rewrite app_length, IH by auto. lia.
Qed.
