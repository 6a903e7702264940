(** C60: the BELT block cipher. *)
From Coq Require Import String.
From Verif Require Import Base BlockModeModel CipherLaws WordModel BlkSpec WordLib UndoLib ArxProofs HexLit BeltModel.
Set Implicit Arguments. Unset Strict Implicit.
Local Open Scope nat_scope.

Definition okb := wordsok 32 4.
Section belt.
  Variable rot : Z -> Z -> Z.
  Hypothesis rot_ok : forall k x, inw 32 x -> inw 32 (rot k x).
  Variable ks : list Z.
  Lemma SB_ok x a : inw 32 (belt_SB x a). Proof. apply inw_shl. lia. Qed.
  Lemma G_ok x r : inw 32 (belt_G rot x r).
  Proof. apply rot_ok. repeat (apply inw_or; [lia| |]); apply SB_ok. Qed.
  Lemma idx_ok i : i < 8 -> inw 32 (Z.of_nat (i + 1)).
  Proof. intro H. unfold inw. assert (2 ^ 32 = 4294967296)%Z by reflexivity. lia. Qed.
  Lemma rnd_ok s i : i < 8 -> okb s -> okb (belt_rnd rot ks s i).
  Proof.
    intros I H. destruct (four_words H) as (a & b & c & d & -> & A & B & C & D). cbn [belt_rnd].
    pose proof (idx_ok I). pose proof G_ok as G.
    apply wordsok_4; repeat first [apply inw_xor; [lia| |] | apply inw_add; lia | apply inw_sub; lia | apply G | assumption].
  Qed.
  Lemma unrnd_ok s i : i < 8 -> okb s -> okb (belt_unrnd rot ks s i).
  Proof.
    intros I H. destruct (four_words H) as (a & b & c & d & -> & A & B & C & D). cbn [belt_unrnd].
    pose proof (idx_ok I). pose proof G_ok as G.
    apply wordsok_4; repeat first [apply inw_xor; [lia| |] | apply inw_add; lia | apply inw_sub; lia | apply G | assumption].
  Qed.
  Lemma wadd_sub_sum b c e : wadd 32 (wadd 32 b e) (wsub 32 c e) = wadd 32 b c.
  Proof.
    unfold wadd, wsub. rewrite <- Zplus_mod. f_equal. lia.
  Qed.
  (** one round taken back, on the words in the order of the ciphertext *)
  Lemma rnd_back s i : i < 8 -> okb s -> belt_unrnd rot ks (belt_out (belt_rnd rot ks s i)) i = belt_out s.
  Proof.
    intros I H. destruct (four_words H) as (a & b & c & d & -> & A & B & C & D).
    cbn [belt_rnd belt_out nth belt_unrnd]. pose proof G_ok as G. pose proof (idx_ok I) as II.
    set (b1 := Z.lxor b _). set (c1 := Z.lxor c _). set (a1 := _ -w belt_G rot (b1 +w _) 13).
    set (e := Z.lxor (belt_G rot (b1 +w c1 +w _) 21) _).
    set (b2 := b1 +w e). set (c2 := c1 -w e). set (d1 := d +w _).
    rewrite !lxor_cancel_r.
    assert (B1 : inw 32 b1) by (unfold b1; apply inw_xor; auto; lia).
    assert (C1 : inw 32 c1) by (unfold c1; apply inw_xor; auto; lia).
    assert (D1 : wsub 32 d1 (belt_G rot (c2 +w belt_key ks i 4) 13) = d) by (unfold d1; apply wsub_wadd; auto; lia).
    rewrite D1.
    assert (S : c2 +w b2 = b1 +w c1) by (rewrite wadd_comm; apply wadd_sub_sum). rewrite S. fold e.
    assert (E1 : c2 +w e = c1) by (unfold c2; apply wadd_wsub; auto; lia).
    assert (E2 : b2 -w e = b1) by (unfold b2; apply wsub_wadd; auto; lia). rewrite E1, E2.
    assert (E3 : a1 +w belt_G rot (b1 +w belt_key ks i 2) 13 = a) by (unfold a1; apply wadd_wsub; auto; lia).
    rewrite E3. unfold b1, c1. rewrite !lxor_cancel_r. reflexivity.
  Qed.
  Lemma rnds_back l : Forall (fun i => i < 8) l -> forall s, okb s ->
    okb (fold_left (belt_rnd rot ks) l s) /\ fold_left (belt_unrnd rot ks) (rev l) (belt_out (fold_left (belt_rnd rot ks) l s)) = belt_out s.
  Proof.
    induction 1 as [|i l I F IH]; intros s H; [auto|]. cbn [fold_left rev]. destruct (IH _ (rnd_ok I H)) as [K E]. split; auto.
    rewrite fold_left_app. cbn [fold_left]. rewrite E. now apply rnd_back.
  Qed.
  Lemma belt_undoes : undoes okb (belt_enc rot ks) (belt_dec rot ks).
  Proof.
    assert (F : Forall (fun i => i < 8) (ups 0 8 1)) by (repeat constructor).
    intros s H. unfold belt_enc, belt_dec. destruct (rnds_back F H) as [K E].
    assert (P : forall s, okb s -> okb (belt_out s)).
    { intros t T. destruct (four_words T) as (a & b & c & d & -> & ? & ? & ? & ?). now apply wordsok_4. }
    assert (Q : forall s, okb s -> okb (belt_unout s)).
    { intros t T. destruct (four_words T) as (a & b & c & d & -> & ? & ? & ? & ?). now apply wordsok_4. }
    split; [auto|split].
    - apply Q. apply rounds_ok with (J := fun i => i < 8); auto; [intros; now apply unrnd_ok|repeat constructor].
    - change (downs 7 8 1) with (rev (ups 0 8 1)). rewrite E.
      destruct (four_words H) as (a & b & c & d & -> & ? & ? & ? & ?). reflexivity.
  Qed.
  Lemma belt_lawful : lawful (belt_cph rot ks).
  Proof. apply word_lawful_u with 32%Z; auto; try lia. apply belt_undoes. Qed.
End belt.

Theorem C60_belt : cipher_for [16; 24; 32] 16 belt_new belt_encrypt belt_decrypt.
Proof.
  intros key O. unfold belt_new. split.
  - intro I. exists (ldw 4 (belt_expand key)). split; [destruct I as [E|[E|[E|[]]]]; now rewrite <- E|].
    apply lawful_block_cipher; [|reflexivity]. apply belt_lawful. intros; apply inw_rotr; auto; lia.
  - intros N. destruct (List.length key) as [|n]; [reflexivity|].
    do 34 (destruct n as [|n]; [first [reflexivity | exfalso; apply N; cbn; tauto]|]). reflexivity.
Qed.
Print Assumptions C60_belt.
(** the vectors of the package's tests *)
Example C60_instance :
  kat (belt_new (hx "2342bb9efa38542cbed0ac83940ac2988d7c47ce264908461cc1b5137ae6b604")) belt_encrypt belt_decrypt
    "000000000000000000000000bdf4e311" "74bc468e2d40f5839633370e7d67bd23" /\
  kat (belt_new (hx "2342bb9efa38542cbed0ac83940ac298bac77a7717942863")) belt_encrypt belt_decrypt
    "000000000000000000000000de255aff" "312de1e84c285f8a4c3ee45de9a8bacc" /\
  kat (belt_new (hx "2342bb9efa38542c0af75647f29f615d")) belt_encrypt belt_decrypt
    "0000000000000000000000000c9b2807" "c362d0c8e930486e00df76023439047d".
Proof. kats. Qed.
(** STB 34.101.31 rotates left; the copy of the cipher inside hash/belt does and gives the standard's vector (table A.1),
    the package cipher/belt rotates right and does not: it is a cipher, but not BELT. *)
Theorem C60_not_standard_refuted : exists key pt ct : bytes,
  List.length key = 32 /\ hbelt_encrypt key pt = ct /\ belt_encrypt (ldw 4 key) (repeat 0%Z 16) pt <> Ok ct.
Proof.
  exists (hx "E9DEE72C8F0C0FA62DDB49F46F73964706075316ED247A3739CBA38303A98BF6"), (hx "B194BAC80A08F53B366D008E584A5DE4"),
    (hx "69CCA1C93557C9E3D66BC3E0FA88FA6E").
  split; [reflexivity|]. split; [vm_compute; reflexivity|]. vm_compute. discriminate.
Qed.
Print Assumptions C60_not_standard_refuted.
(** The copy inside hash/belt inverts as well. *)
Theorem C60_hash_copy ks b : bytes_ok b -> List.length b = 16 ->
  hbelt_decrypt ks (hbelt_encrypt ks b) = b /\ hbelt_encrypt ks (hbelt_decrypt ks b) = b.
Proof.
  intros O L. pose proof (@belt_lawful (rotl 32) (fun k x H => @inw_rotl 32 k x eq_refl H) (ldw 4 ks)) as W.
  unfold hbelt_encrypt, hbelt_decrypt. split; [apply W|apply (lawful_surj W)]; split; auto.
Qed.
Print Assumptions C60_hash_copy.
