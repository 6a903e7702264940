(** A block cipher that decrypts what it encrypts also encrypts what it decrypts: there are only
    finitely many blocks. *)
From Verif Require Import Base BlockModeModel.
Set Implicit Arguments. Unset Strict Implicit.
Local Open Scope nat_scope.

Definition all_blocks (n : nat) : list bytes :=
  nodup (list_eq_dec Z.eq_dec) (map (fun i => be_bytes n (Z.of_nat i)) (seq 0 (Z.to_nat (256 ^ Z.of_nat n)))).
Lemma all_blocks_in n b : In b (all_blocks n) <-> isblock n b.
Proof.
  unfold all_blocks. rewrite nodup_In, in_map_iff. split.
  - intros (i & <- & _). split; [apply be_bytes_length|apply be_bytes_ok].
  - intros [L O]. exists (Z.to_nat (be_val b)). pose proof (be_val_bound O) as B. rewrite L in B. split.
    + rewrite Z2Nat.id by lia. now apply be_bytes_val.
    + apply in_seq. lia.
Qed.
Lemma NoDup_map_in {A B} (f : A -> B) l : NoDup l -> (forall x y, In x l -> In y l -> f x = f y -> x = y) -> NoDup (map f l).
Proof.
  induction 1 as [|a l Hn _ IH]; intro Hf; [constructor|]. cbn [map]. constructor.
  - intro Hin. apply in_map_iff in Hin as (y & E & Hy). apply Hn. rewrite (Hf a y); auto; [now left|now right].
  - apply IH. intros x y Hx Hy. apply Hf; now right.
Qed.
Lemma lawful_surj c : lawful c -> forall b, isblock (bsz c) b -> enc c (dec c b) = b.
Proof.
  intros HL b Hb. set (l := all_blocks (bsz c)).
  assert (N : NoDup (map (enc c) l)).
  { apply NoDup_map_in; [apply NoDup_nodup|]. intros x y Hx Hy E. apply all_blocks_in in Hx, Hy.
    rewrite <- (law_inv HL Hx), <- (law_inv HL Hy). now rewrite E. }
  assert (I : incl (map (enc c) l) l).
  { intros y Hy. apply in_map_iff in Hy as (x & <- & Hx). apply all_blocks_in in Hx. apply all_blocks_in. now apply (law_enc HL). }
  assert (J : incl l (map (enc c) l)) by (apply NoDup_length_incl; auto; now rewrite map_length).
  assert (Hin : In b (map (enc c) l)) by (apply J; now apply all_blocks_in).
  apply in_map_iff in Hin as (x & <- & Hx). apply all_blocks_in in Hx. now rewrite (law_inv HL Hx).
Qed.
