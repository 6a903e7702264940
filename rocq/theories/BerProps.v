(** Theorems C137 and C138: ber.Ber2der. *)
From Verif Require Import Base BerModel BerSpec BerProofs.
Set Implicit Arguments. Unset Strict Implicit.
Local Open Scope nat_scope.

(** ** C137 *)
(** every BER encoding of a tree, whatever forms it uses for the lengths and whatever follows it, becomes the DER encoding of the tree *)
Theorem C137_ber2der (t : tree) (b rest : bytes) : ber_of t b -> (Z.of_nat (length b) < 2 ^ 59)%Z -> ber2der (b ++ rest) = Ok (der t).
Proof. apply ber2der_ok. Qed.
(** what comes out is the DER encoding of a tree *)
Theorem C137_output_is_der (ber y : bytes) : bytes_ok ber -> ber2der ber = Ok y -> (Z.of_nat (length y) < 2 ^ 63)%Z -> exists t, tree_ok t /\ y = der t.
Proof. intros O H B. destruct (ber2der_inv O H) as (t & Ot & ->). exists t. split; auto. apply encode_der. auto. Qed.
(** and normalising it again changes nothing *)
Theorem C137_idempotent (ber y : bytes) : bytes_ok ber -> ber2der ber = Ok y -> (Z.of_nat (length y) < 2 ^ 31)%Z -> ber2der y = Ok y.
Proof.
  intros O H B. assert (2 ^ 31 < 2 ^ 63)%Z by reflexivity. destruct (C137_output_is_der O H ltac:(lia)) as (t & Ot & ->).
  rewrite <- (app_nil_r (der t)) at 1. apply C137_ber2der; [apply der_len; auto|]. assert (2 ^ 31 < 2 ^ 59)%Z by reflexivity. lia.
Qed.
(** encodings of different trees do not collide *)
Theorem C137_injective (t t' : tree) (b b' : bytes) : ber_of t b -> ber_of t' b' -> (Z.of_nat (length b) < 2 ^ 27)%Z -> (Z.of_nat (length b') < 2 ^ 27)%Z ->
  (ber2der b = ber2der b' <-> t = t').
Proof.
  intros H H' B B'. assert (P : (2 ^ 27 < 2 ^ 59 /\ 9 * 2 ^ 27 < 2 ^ 31)%Z) by (split; reflexivity).
  rewrite <- (app_nil_r b), <- (app_nil_r b'). rewrite (C137_ber2der [] H), (C137_ber2der [] H') by lia. split; [|congruence]. intros E. injection E as E.
  apply der_inj; auto; [eapply ber_of_ok; eauto|eapply ber_of_ok; eauto|]. pose proof (proj1 encode_sizes t b H ltac:(lia)) as S1. rewrite encode_der in S1; [lia|]. assert (2 ^ 31 < 2 ^ 63)%Z by reflexivity. lia.
Qed.

(** a SEQUENCE in the indefinite form with an INTEGER whose length takes three octets, and an OCTET STRING in the constructed form *)
Definition ex_tree : tree := TCons [48%Z] [TPrim [2%Z] [5%Z]; TCons [36%Z] [TPrim [4%Z] [7; 8]%Z]].
Definition ex_ber : bytes := [48; 128; 2; 129; 1; 5; 36; 128; 4; 2; 7; 8; 0; 0; 0; 0]%Z.
Lemma ex_tag b c : is_byte b -> Z.testbit b 5 = c -> (b mod 32 <> 31)%Z -> tag_ok c [b].
Proof. intros B T M. exists b, []. split; [reflexivity|]. split; [auto|]. split; [auto|]. left. auto. Qed.
Lemma ex_ber_of : ber_of ex_tree ex_ber.
Proof.
  apply (@BIndef [48%Z] [TPrim [2%Z] [5%Z]; TCons [36%Z] [TPrim [4%Z] [7; 8]%Z]] [2; 129; 1; 5; 36; 128; 4; 2; 7; 8; 0; 0]%Z); [apply ex_tag; [red; lia|reflexivity|cbv; discriminate]| |discriminate].
  apply (@BNext true _ _ [2; 129; 1; 5]%Z); [|discriminate|apply (@BNext true _ _ [36; 128; 4; 2; 7; 8; 0; 0]%Z []); [|discriminate|constructor]].
  - apply (@BPrim [2%Z] [5%Z] [129; 1]%Z); [apply ex_tag; [red; lia|reflexivity|cbv; discriminate]|constructor; [red; lia|constructor]|].
    right. exists 1. cbn. repeat split; try lia.
  - apply (@BIndef [36%Z] [TPrim [4%Z] [7; 8]%Z] [4; 2; 7; 8]%Z); [apply ex_tag; [red; lia|reflexivity|cbv; discriminate]| |discriminate].
    apply (@BNext true _ _ [4; 2; 7; 8]%Z []); [|discriminate|constructor].
    apply (@BPrim [4%Z] [7; 8]%Z [2%Z]); [apply ex_tag; [red; lia|reflexivity|cbv; discriminate]|constructor; [red; lia|constructor; [red; lia|constructor]]|]. left. split; [cbn; lia|reflexivity].
Qed.
Example C137_instance : ber2der (ex_ber ++ [255]%Z) = Ok [48; 9; 2; 1; 5; 36; 4; 4; 2; 7; 8]%Z.
Proof. rewrite (@C137_ber2der ex_tree ex_ber [255%Z] ex_ber_of); [vm_compute; reflexivity|cbn; lia]. Qed.
Example C137_instance_idem : ber2der [48; 9; 2; 1; 5; 36; 4; 4; 2; 7; 8]%Z = Ok [48; 9; 2; 1; 5; 36; 4; 4; 2; 7; 8]%Z.
Proof. apply (@C137_idempotent (ex_ber ++ [255]%Z)); [unfold bytes_ok; cbn [ex_ber app]; repeat (apply Forall_cons; [red; lia|]); apply Forall_nil|exact C137_instance|cbn; lia]. Qed.
Example C137_instance_inj : ber2der ex_ber = ber2der (ex_ber ++ []).
Proof. rewrite app_nil_r. apply (proj2 (C137_injective ex_ber_of ex_ber_of ltac:(cbn; lia) ltac:(cbn; lia))). reflexivity. Qed.
(** 200 octets: the length 81 C8 *)
Example C137_instance_long : exists pre, ber2der ([4; 130; 0; 200]%Z ++ repeat 9%Z 200) = Ok (pre ++ repeat 9%Z 200) /\ pre = [4; 129; 200]%Z.
Proof.
  exists [4; 129; 200]%Z. split; [|reflexivity]. rewrite <- (app_nil_r (_ ++ repeat 9%Z 200)) at 1. rewrite (@C137_ber2der (TPrim [4%Z] (repeat 9%Z 200))); [vm_compute; reflexivity| |rewrite app_length, repeat_length; cbn; lia].
  apply (@BPrim [4%Z] (repeat 9%Z 200) [130; 0; 200]%Z); [apply ex_tag; [red; lia|reflexivity|cbv; discriminate]|apply bytes_ok_repeat; red; lia|].
  rewrite repeat_length. right. exists 2. split; [lia|]. split; [cbn; lia|]. split; [cbn; lia|]. split; [cbn; lia|vm_compute; reflexivity].
Qed.

(** ** C138 *)
(** the only inputs that can make it panic end within the octets of a tag with a number over 30, or right after them *)
Theorem C138_panic_only_cut_tag (ber : bytes) : bytes_ok ber -> ber2der ber = Panic -> cut_high_tag ber.
Proof. apply ber2der_panic. Qed.
Theorem C138_panics_refuted : ~ (forall ber, bytes_ok ber -> ber2der ber <> Panic).
Proof. intros H. apply (H [31; 129]%Z); [constructor; [red; lia|constructor; [red; lia|constructor]]|vm_compute; reflexivity]. Qed.
Example C138_instance_panics : ber2der [31; 129]%Z = Panic /\ ber2der [31; 0]%Z = Panic /\ ber2der [48; 4; 5; 0; 31; 1]%Z = Panic /\ ber2der [31; 0; 0]%Z = Ok [31; 0; 0]%Z.
Proof. repeat split; vm_compute; reflexivity. Qed.
(** a constructed value whose declared length ends anywhere inside its content is taken as if the length were right *)
Theorem C138_overrun_accepted (t : tree) (b : bytes) (k : nat) : ber_of t b -> 1 <= k <= length b -> k < 128 -> (Z.of_nat (length b) < 2 ^ 58)%Z ->
  ber2der (48%Z :: Z.of_nat k :: b) = Ok (der (TCons [48%Z] [t])).
Proof. apply overrun. Qed.
Example C138_instance_overrun : ber2der [48; 1; 4; 3; 7; 8; 9]%Z = Ok [48; 5; 4; 3; 7; 8; 9]%Z.
Proof.
  apply (@C138_overrun_accepted (TPrim [4%Z] [7; 8; 9]%Z) [4; 3; 7; 8; 9]%Z 1); [|cbn; lia|lia|cbn; lia].
  apply (@BPrim [4%Z] [7; 8; 9]%Z [3%Z]); [apply ex_tag; [red; lia|reflexivity|cbv; discriminate]|repeat (apply Forall_cons; [red; lia|]); apply Forall_nil|left; split; [cbn; lia|reflexivity]].
Qed.
(** so that octets are read again and again: 6n + 2 octets can take time and output exponential in n *)
Theorem C138_exponential (n : nat) : exists ber y, length ber = 6 * n + 2 /\ bytes_ok ber /\ ber2der ber = Ok y /\ 2 ^ n <= length y.
Proof.
  destruct (exponential n) as (y & H & L). exists (nest n), y. split; [apply nest_length|]. split; [|auto].
  induction n as [|n IH] in |- *; cbn [nest block app]; unfold bytes_ok in *; repeat (apply Forall_cons; [red; lia|]); auto.
Qed.
Example C138_instance_exponential : exists y, ber2der [48; 5; 48; 2; 48; 1; 48; 5; 48; 2; 48; 1; 5; 0]%Z = Ok y /\ length y = 26.
Proof. eexists. split; vm_compute; reflexivity. Qed.
(** the indefinite form without content, which is BER, is an error *)
Theorem C138_empty_indefinite (tag : bytes) : tag_ok true tag -> ber2der (tag ++ [128; 0; 0]%Z) = Err.
Proof. apply empty_indefinite. Qed.
Example C138_instance_empty : ber2der [48; 128; 0; 0]%Z = Err /\ ber2der [48; 128; 0; 0; 0; 0]%Z = Ok [48; 2; 0; 0]%Z.
Proof. split; [apply (@C138_empty_indefinite [48%Z]); apply ex_tag; [red; lia|reflexivity|cbv; discriminate]|vm_compute; reflexivity]. Qed.

Definition assum_ber := (C137_ber2der, C137_output_is_der, C137_idempotent, C137_injective, C138_panic_only_cut_tag, C138_panics_refuted, C138_overrun_accepted, C138_exponential, C138_empty_indefinite).
Print Assumptions assum_ber.
