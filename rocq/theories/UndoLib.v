(** Layers of a cipher and the layers that undo them. *)
From Verif Require Import Base BlockModeModel CipherLaws WordModel BlkSpec WordLib.
Set Implicit Arguments. Unset Strict Implicit.
Local Open Scope nat_scope.

Section undo.
Variables (S : Type) (I : S -> Prop).
Definition undoes (f g : S -> S) : Prop := forall s, I s -> I (f s) /\ I (g s) /\ g (f s) = s.
Lemma undoes_comp f1 g1 f2 g2 : undoes f1 g1 -> undoes f2 g2 -> undoes (fun s => f2 (f1 s)) (fun s => g1 (g2 s)).
Proof.
  intros H1 H2 s Is. destruct (H1 s Is) as (A & B & C). destruct (H2 (f1 s) A) as (D & E & F). split; auto.
  split; [apply H1, H2; auto|]. rewrite F. exact C.
Qed.
Lemma undoes_3 f1 g1 f2 g2 f3 g3 : undoes f1 g1 -> undoes f2 g2 -> undoes f3 g3 -> undoes (fun s => f3 (f2 (f1 s))) (fun s => g1 (g2 (g3 s))).
Proof. intros H1 H2 H3. exact (undoes_comp (undoes_comp H1 H2) H3). Qed.
Lemma undoes_id : undoes (fun s => s) (fun s => s). Proof. intros s H. auto. Qed.
Lemma undoes_rounds (K : Type) (J : K -> Prop) (f g : S -> K -> S) ks ks' : ks' = rev ks -> Forall J ks ->
  (forall k, J k -> undoes (fun s => f s k) (fun s => g s k)) ->
  undoes (fun s => fold_left f ks s) (fun s => fold_left g ks' s).
Proof.
  intros -> F H s Is. split; [|split].
  - apply rounds_ok with (J := J); auto. intros; apply H; auto.
  - apply rounds_ok with (J := J); auto; [intros; apply H; auto|]. apply Forall_rev; auto.
  - apply (@rounds_inv _ _ I J f g); auto. intros; split; apply H; auto.
Qed.
(** rounds whose undoing uses other round numbers *)
Lemma undoes_rounds2 (K L : Type) (J : K -> Prop) (h : K -> L) (f : S -> K -> S) (g : S -> L -> S) ks ks' : ks' = map h (rev ks) -> Forall J ks ->
  (forall k, J k -> undoes (fun s => f s k) (fun s => g s (h k))) ->
  undoes (fun s => fold_left f ks s) (fun s => fold_left g ks' s).
Proof.
  intros -> F H s Is. rewrite !fold_left_map. apply (@undoes_rounds _ J f (fun s k => g s (h k)) ks (rev ks)); auto.
Qed.
Lemma undoes_ext f g f' g' : (forall s, I s -> f s = f' s) -> (forall s, I s -> g s = g' s) -> undoes f g -> undoes f' g'.
Proof.
  intros E1 E2 H s Is. destruct (H s Is) as (A & B & C). rewrite <- (E1 s Is), <- (E2 s Is). rewrite <- (E2 (f s)) by auto. auto.
Qed.
End undo.

Lemma word_lawful_u n m E D w : w = (8 * Z.of_nat n)%Z -> 0 < n -> 0 < m -> undoes (wordsok w m) E D -> lawful (word_cipher n m E D).
Proof. intros W N M U. apply word_lawful with w; auto; intros; apply U; auto. Qed.
Lemma word_lawful_be_u n m E D w : w = (8 * Z.of_nat n)%Z -> 0 < n -> 0 < m -> undoes (wordsok w m) E D -> lawful (word_cipher_be n m E D).
Proof. intros W N M U. apply word_lawful_be with w; auto; intros; apply U; auto. Qed.

(** a NewCipher that tests the key length against one value *)
Lemma cipher_one (C : Type) (n bs : nat) (mk : bytes -> C) (cph : C -> cipher) :
  (forall key, bytes_ok key -> length key = n -> lawful (cph (mk key)) /\ bsz (cph (mk key)) = bs) ->
  cipher_for [n] bs (fun key => if length key =? n then Ok (mk key) else Err)
    (fun c => blk_call bs (enc (cph c))) (fun c => blk_call bs (dec (cph c))).
Proof.
  intros H key O. split.
  - intros [E|[]]. rewrite <- E, Nat.eqb_refl. destruct (H key O (eq_sym E)) as [L B]. eexists. split; [reflexivity|].
    apply lawful_block_cipher; auto.
  - intros N. destruct (Nat.eqb_spec (length key) n); auto. exfalso. apply N. left. auto.
Qed.
