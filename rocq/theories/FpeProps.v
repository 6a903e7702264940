(** C96-C97: format-preserving encryption, FF1 and FF3. *)
From Verif Require Import Base FpeModel FpeSpec FpeProofs FpeProofs2 FpeProofs3.
From Coq Require Import Lia.
Set Implicit Arguments. Unset Strict Implicit.
Local Open Scope Z_scope.

(** The block cipher gives blocks of 16 bytes; nothing else is needed of it. *)
Definition cipher16 (aes : bytes -> bytes -> bytes) : Prop := forall k x, length x = 16%nat -> length (aes k x) = 16%nat.
(** A character that is no digit to the base r: digits are 0-9, then a-z, then A-Z, where up to base 36 A-Z are read as a-z. *)
Definition digit_char (r ch : Z) : Prop :=
  exists d, 0 <= d < r /\ (ch = char_of d \/ (r <= 36 /\ 10 <= d /\ ch = 55 + d)).

Section c96.
Variable aes : bytes -> bytes -> bytes.
Hypothesis AES : cipher16 aes.
Variable fb : nat -> nat.
Variable c : ff1.
Hypothesis RADIX : 2 <= f1Radix c <= 62.
Hypothesis MIN : 2 <= f1Min c.
Variable tw : bytes.
Hypothesis TWEAK : Z.of_nat (length tw) <= f1MaxT c.

(** Encryption is FF1 of SP 800-38G, if the byte length computed in floating point is the exact one. *)
Theorem C96_ff1_is_standard X : numerals (f1Radix c) X -> f1Min c <= Z.of_nat (length X) < 2 ^ 32 ->
  let v := f1_v (length X) in byte_count (f1Radix c) v (fb v) ->
  ff1_encrypt aes fb c (written X) tw = Ok (written (FF1_encrypt (aes (f1Key c)) (f1Radix c) tw (length X) (fb v) X)).
Proof.
  intros NX L v [B1 B2]. apply ff1_spec with (n := length X); auto.
  assert (fb v <= v)%nat. { apply B2. apply Z.pow_le_mono_l. lia. } fold v. unfold v, f1_v in *. lia.
Qed.
(** Encryption permutes the numeral strings of each length and decryption is its inverse, both ways round, as soon as the
    computed byte length is large enough. *)
Theorem C96_ff1_permutation X : numerals (f1Radix c) X -> f1Min c <= Z.of_nat (length X) < 2 ^ 32 ->
  (let v := f1_v (length X) in f1Radix c ^ Z.of_nat v <= 256 ^ Z.of_nat (fb v)) ->
  (exists Y, length Y = length X /\ numerals (f1Radix c) Y /\ ff1_encrypt aes fb c (written X) tw = Ok (written Y) /\ ff1_decrypt aes fb c (written Y) tw = Ok (written X)) /\
  (exists Y, length Y = length X /\ numerals (f1Radix c) Y /\ ff1_decrypt aes fb c (written X) tw = Ok (written Y) /\ ff1_encrypt aes fb c (written Y) tw = Ok (written X)).
Proof. intros NX L FB. apply ff1_perm; auto. Qed.
(** Neither direction panics, whatever the string and the tweak. *)
Theorem C96_ff1_no_panic X t : Z.of_nat (length X) < 2 ^ 32 -> (let v := f1_v (length X) in f1Radix c ^ Z.of_nat v <= 256 ^ Z.of_nat (fb v)) ->
  ff1_encrypt aes fb c X t <> Panic /\ ff1_decrypt aes fb c X t <> Panic.
Proof. intros. apply ff1_nopanic; auto. Qed.
End c96.

Lemma not_digit r ch : r <= 62 -> ~ digit_char r ch -> dig r ch = None.
Proof.
  intros RM H. unfold dig. cbn zeta. match goal with |- (if ?x <? r then _ else _) = _ => destruct (Z.ltb_spec x r) as [L|L]; [|reflexivity] end. exfalso. apply H. clear H. revert L.
  destruct ((48 <=? ch) && (ch <=? 57)) eqn:A; [|destruct ((97 <=? ch) && (ch <=? 122)) eqn:B; [|destruct ((65 <=? ch) && (ch <=? 90)) eqn:C; [destruct (Z.leb_spec r 36)|]]]; intros L.
  - apply andb_prop in A as [A1 A2]. exists (ch - 48). split; [lia|]. left. unfold char_of. replace (ch - 48 <? 10) with true by lia. lia.
  - apply andb_prop in B as [A1 A2]. exists (ch - 87). split; [lia|]. left. unfold char_of. replace (ch - 87 <? 10) with false by lia. replace (ch - 87 <? 36) with true by lia. lia.
  - apply andb_prop in C as [A1 A2]. exists (ch - 55). split; [lia|]. right. lia.
  - apply andb_prop in C as [A1 A2]. exists (ch - 29). split; [lia|]. left. unfold char_of. replace (ch - 29 <? 10) with false by lia. replace (ch - 29 <? 36) with false by lia. lia.
  - lia.
Qed.

(** Refused: too short a string, too long a tweak, a character that is neither a digit nor a sign, a character other than the
    first that is not a digit. *)
Theorem C96_ff1_refuses aes fb c X tw : 2 <= f1Radix c <= 62 ->
  Z.of_nat (length X) < f1Min c \/ f1MaxT c < Z.of_nat (length tw) \/
  (exists ch, In ch X /\ ch <> 43 /\ ch <> 45 /\ ~ digit_char (f1Radix c) ch) \/
  (exists x s ch, X = x :: s /\ In ch s /\ ~ digit_char (f1Radix c) ch) ->
  ff1_encrypt aes fb c X tw = Err /\ ff1_decrypt aes fb c X tw = Err.
Proof.
  intros R H. apply ff1_refuse; [exact R|]. destruct H as [H|[H|[(ch & I & A & B & D)|(x & s & ch & E & I & D)]]]; auto.
  - right. right. left. exists ch. split; auto. split; [unfold signch; lia|]. apply not_digit; auto; lia.
  - do 3 right. exists x, s, ch. split; auto. split; auto. apply not_digit; auto; lia.
Qed.
(** The constructor: which parameters are accepted, and what is kept. *)
Theorem C96_ff1_new mn radix maxT key tw :
  (exists c, ff1_new mn radix maxT key tw = Ok c /\ f1Key c = key /\ f1Tweak c = tw /\ f1Radix c = radix /\ f1Min c = mn /\ f1MaxT c = maxT) <->
  (length key = 16 \/ length key = 24 \/ length key = 32)%nat /\ 2 <= radix <= 62 /\ Z.of_nat (length tw) <= maxT /\ 2 <= mn < 2 ^ 32.
Proof.
  unfold ff1_new. cbn zeta. destruct (Nat.eqb_spec (length key) 16); destruct (Nat.eqb_spec (length key) 24); destruct (Nat.eqb_spec (length key) 32); cbn [orb negb];
    try (split; [intros (c & Q & _); discriminate Q|intros (K & _); lia]);
    (destruct (Z.ltb_spec radix 2); [split; [intros (c & Q & _); discriminate Q|lia]|]; destruct (Z.ltb_spec 62 radix); [split; [intros (c & Q & _); discriminate Q|lia]|];
     destruct (Z.ltb_spec maxT (Z.of_nat (length tw))); [split; [intros (c & Q & _); discriminate Q|lia]|];
     destruct (Z.ltb_spec mn 2); [split; [intros (c & Q & _); discriminate Q|lia]|]; destruct (Z.ltb_spec (2 ^ 32 - 1) mn); [split; [intros (c & Q & _); discriminate Q|lia]|];
     split; [intros _; repeat split; lia|intros _; eexists; split; [reflexivity|cbn; auto]]).
Qed.
(** Not every accepted string comes back: a leading '+' is encrypted as if it were the numeral 0 ... *)
Theorem C96_ff1_sign_refuted aes fb c tw X : cipher16 aes -> 2 <= f1Radix c <= 62 -> 2 <= f1Min c -> Z.of_nat (length tw) <= f1MaxT c ->
  numerals (f1Radix c) X -> f1Min c <= Z.of_nat (S (length X)) < 2 ^ 32 -> (3 <= length X)%nat ->
  (let v := f1_v (S (length X)) in f1Radix c ^ Z.of_nat v <= 256 ^ Z.of_nat (fb v)) ->
  exists Y, ff1_encrypt aes fb c (43 :: written X) tw = Ok Y /\ ff1_decrypt aes fb c Y tw = Ok (48 :: written X).
Proof.
  intros A R M T NX L L3 FB. rewrite ff1_plus; [|lia|unfold written; rewrite map_length; lia].
  destruct (@C96_ff1_permutation aes A fb c R M tw T (0 :: X)) as [(Y & _ & _ & E & D) _]; [constructor; [lia|auto]|auto|auto|].
  exists (written Y). split; assumption.
Qed.
(** ... and up to base 36 capital letters come back as small ones. *)
Theorem C96_ff1_capitals_refuted aes fb c tw X : cipher16 aes -> 2 <= f1Radix c <= 36 -> 2 <= f1Min c -> Z.of_nat (length tw) <= f1MaxT c ->
  numerals (f1Radix c) X -> f1Min c <= Z.of_nat (length X) < 2 ^ 32 ->
  (let v := f1_v (length X) in f1Radix c ^ Z.of_nat v <= 256 ^ Z.of_nat (fb v)) ->
  exists Y, ff1_encrypt aes fb c (map (fun d => if d <? 10 then 48 + d else 55 + d) X) tw = Ok Y /\ ff1_decrypt aes fb c Y tw = Ok (written X).
Proof.
  intros A R M T NX L FB. replace (map _ X) with (map capital (written X)).
  2:{ unfold written. rewrite map_map. apply map_ext_in. intros d D. unfold numerals in NX. rewrite Forall_forall in NX. specialize (NX d D). unfold char_of, capital.
      destruct (Z.ltb_spec d 10). { now replace (97 <=? 48 + d) with false by lia. } replace (d <? 36) with true by lia. replace (97 <=? 87 + d) with true by lia. replace (87 + d <=? 122) with true by lia. cbn [andb]. lia. }
  rewrite ff1_capital by lia. destruct (@C96_ff1_permutation aes A fb c ltac:(lia) M tw T X) as [(Y & _ & _ & E & D) _]; auto. eauto.
Qed.

Section c97.
Variable aes : bytes -> bytes -> bytes.
Hypothesis AES : cipher16 aes.
Variable c : ff3.
Hypothesis RADIX : 2 <= f3Radix c <= 62.
Hypothesis MIN : 2 <= f3Min c.
(** maxLen is twice the number of numerals that fit 96 bits *)
Hypothesis MAX : exists m, 0 <= m /\ f3Max c = 2 * m /\ f3Radix c ^ m <= 2 ^ 96.
Variable tw : bytes.
Hypothesis TWEAK : length tw = 8%nat.
Lemma half_fits n : Z.of_nat n < f3Max c -> f3Radix c ^ Z.of_nat (f3_u n) <= 256 ^ 12 /\ Z.of_nat n < 2 ^ 32.
Proof.
  destruct MAX as (m & M0 & M1 & M2'). intros L. assert (M96 : m <= 96). { apply (Z.pow_le_mono_r_iff 2); [lia|lia|]. apply Z.le_trans with (f3Radix c ^ m); [apply Z.pow_le_mono_l; lia|exact M2']. }
  split; [|lia]. change (256 ^ 12) with (2 ^ 96). apply Z.le_trans with (f3Radix c ^ m); [|exact M2']. apply Z.pow_le_mono_r; [lia|]. unfold f3_u.
  pose proof (Nat.div_mod (n + 1) 2 ltac:(lia)). pose proof (Nat.mod_upper_bound (n + 1) 2 ltac:(lia)). lia.
Qed.
Theorem C97_ff3_is_standard X : numerals (f3Radix c) X -> f3Min c <= Z.of_nat (length X) < f3Max c ->
  ff3_encrypt aes c (written X) tw = Ok (written (FF3_encrypt (aes (f3Key c)) (f3Radix c) tw (length X) X)).
Proof. intros NX L. destruct (half_fits (proj2 L)). apply ff3_spec; auto. Qed.
Theorem C97_ff3_permutation X : numerals (f3Radix c) X -> f3Min c <= Z.of_nat (length X) < f3Max c ->
  (exists Y, length Y = length X /\ numerals (f3Radix c) Y /\ ff3_encrypt aes c (written X) tw = Ok (written Y) /\ ff3_decrypt aes c (written Y) tw = Ok (written X)) /\
  (exists Y, length Y = length X /\ numerals (f3Radix c) Y /\ ff3_decrypt aes c (written X) tw = Ok (written Y) /\ ff3_encrypt aes c (written Y) tw = Ok (written X)).
Proof. intros NX L. destruct (half_fits (proj2 L)). apply ff3_perm; auto. Qed.
(** Capital letters come back as small ones up to base 36. *)
Theorem C97_ff3_capitals_refuted X : f3Radix c <= 36 -> numerals (f3Radix c) X -> f3Min c <= Z.of_nat (length X) < f3Max c ->
  exists Y, ff3_encrypt aes c (map (fun d => if d <? 10 then 48 + d else 55 + d) X) tw = Ok Y /\ ff3_decrypt aes c Y tw = Ok (written X).
Proof.
  intros R NX L. replace (map _ X) with (map capital (written X)).
  2:{ unfold written. rewrite map_map. apply map_ext_in. intros d D. unfold numerals in NX. rewrite Forall_forall in NX. specialize (NX d D). unfold char_of, capital.
      destruct (Z.ltb_spec d 10). { now replace (97 <=? 48 + d) with false by lia. } replace (d <? 36) with true by lia. replace (97 <=? 87 + d) with true by lia. replace (87 + d <=? 122) with true by lia. cbn [andb]. lia. }
  rewrite ff3_capital by lia. destruct (C97_ff3_permutation NX L) as [(Y & _ & _ & E & D) _]. eauto.
Qed.
End c97.
(** Refused: a length outside [min, max), where the standard allows max itself, and a tweak that has not 8 bytes. *)
Theorem C97_ff3_refuses aes c X tw : Z.of_nat (length X) < 2 ^ 32 ->
  Z.of_nat (length X) < f3Min c \/ f3Max c <= Z.of_nat (length X) \/ length tw <> 8%nat ->
  ff3_encrypt aes c X tw = Err /\ ff3_decrypt aes c X tw = Err.
Proof. apply ff3_refuse. Qed.
(** A character that is not a digit is never encrypted or decrypted, at whatever place, a sign included. *)
Theorem C97_ff3_refuses_char aes c X tw ch o : 2 <= f3Radix c <= 62 -> 2 <= f3Min c -> In ch X -> ~ digit_char (f3Radix c) ch ->
  ff3_encrypt aes c X tw <> Ok o /\ ff3_decrypt aes c X tw <> Ok o.
Proof.
  intros R M I D. apply not_digit in D; [|lia]. destruct (signch ch) eqn:S.
  - destruct X as [|x s]; [contradiction|]. destruct I as [->|I]; [now apply ff3_sign|].
    destruct (@ff3_refuse_char aes c (x :: s) tw R) as [-> ->]; [right; exists x, s, ch; auto|]. split; discriminate.
  - destruct (@ff3_refuse_char aes c X tw R) as [-> ->]; [left; exists ch; auto|]. split; discriminate.
Qed.
(** The constructor leaves the caller's key slice reversed, so a second cipher made from the same slice has another key. *)
Theorem C97_key_slice_refuted mn mx radix key tw c : fst (ff3_new mn mx radix key tw) = Ok c ->
  f3Key c = rev key /\ snd (ff3_new mn mx radix key tw) = rev key /\
  exists c', ff3_new mn mx radix (snd (ff3_new mn mx radix key tw)) tw = (Ok c', key) /\ f3Key c' = key.
Proof.
  destruct (ff3_new mn mx radix key tw) as [q k'] eqn:Q. cbn [fst snd]. intros ->. revert Q. unfold ff3_new. cbn zeta. destruct (negb (_ || _ || _)) eqn:A; [discriminate|]. destruct (_ || (62 <? radix)) eqn:B; [discriminate|].
  destruct (negb (Nat.eqb (length tw) 8)) eqn:C; [discriminate|]. destruct ((mn <? 2) || _) eqn:D; [discriminate|]. intros [= <- <-]. split; [reflexivity|]. split; [reflexivity|].
  exists (FF3 key tw radix mn mx). rewrite rev_length, A, rev_involutive. auto.
Qed.
Theorem C97_ff3_new mn mx radix key tw :
  (exists c, fst (ff3_new mn mx radix key tw) = Ok c /\ f3Key c = rev key /\ f3Tweak c = tw /\ f3Radix c = radix /\ f3Min c = mn /\ f3Max c = mx) <->
  (length key = 16 \/ length key = 24 \/ length key = 32)%nat /\ 2 <= radix <= 62 /\ length tw = 8%nat /\ 2 <= mn <= mx.
Proof.
  unfold ff3_new. cbn zeta. destruct (Nat.eqb_spec (length key) 16); destruct (Nat.eqb_spec (length key) 24); destruct (Nat.eqb_spec (length key) 32); cbn [orb negb];
    try (split; [intros (c & Q & _); discriminate Q|intros (K & _); lia]);
    (destruct (Z.ltb_spec radix 2); [split; [intros (c & Q & _); discriminate Q|lia]|]; destruct (Z.ltb_spec 62 radix); [split; [intros (c & Q & _); discriminate Q|lia]|];
     destruct (Nat.eqb_spec (length tw) 8); [|split; [intros (c & Q & _); discriminate Q|lia]];
     destruct (Z.ltb_spec mn 2); [split; [intros (c & Q & _); discriminate Q|lia]|]; destruct (Z.ltb_spec mx mn); [split; [intros (c & Q & _); discriminate Q|lia]|];
     split; [intros _; repeat split; lia|intros _; eexists; split; [reflexivity|cbn; auto]]).
Qed.

(** * Instances *)
Definition toy (k x : bytes) : bytes := map (fun b => (b * 5 + hd 0 k) mod 256) (rev x).
Lemma toy_ok : cipher16 toy. Proof. intros k x L. unfold toy. now rewrite map_length, rev_length. Qed.
Definition k16 : bytes := [7; 1; 2; 3; 4; 5; 6; 7; 8; 9; 10; 11; 12; 13; 14; 15].
Definition c1 : ff1 := FF1 k16 [] 10 2 20.
Definition x6 : list Z := [1; 2; 3; 4; 5; 6].
Example C96_instance :
  numerals 10 x6 /\ byte_count 10 (f1_v 6) 2 /\ ff1_new 2 10 20 k16 [] = Ok c1 /\
  exists y, ff1_encrypt toy (fun _ => 2%nat) c1 (written x6) [1; 2] = Ok y /\ y <> written x6 /\ ff1_decrypt toy (fun _ => 2%nat) c1 y [1; 2] = Ok (written x6).
Proof.
  split; [repeat constructor; lia|]. split; [split; [cbn; lia|]; intros b'; destruct b' as [|[|b']]; cbn [f1_v]; try lia; cbn; lia|]. split; [reflexivity|].
  eexists. split; [vm_compute; reflexivity|]. split; [discriminate|vm_compute; reflexivity].
Qed.
Example C96_instance_sign : exists y, ff1_encrypt toy (fun _ => 2%nat) c1 (43 :: written [2; 3; 4; 5; 6]) [1; 2] = Ok y /\ ff1_decrypt toy (fun _ => 2%nat) c1 y [1; 2] <> Ok (43 :: written [2; 3; 4; 5; 6]).
Proof. eexists. split; [vm_compute; reflexivity|vm_compute; discriminate]. Qed.
Definition c3 : ff3 := FF3 (rev k16) [1; 2; 3; 4; 5; 6; 7; 8] 10 2 56.
Definition c3' : ff3 := FF3 k16 [1; 2; 3; 4; 5; 6; 7; 8] 10 2 56.
Example C97_instance :
  (exists m, 0 <= m /\ f3Max c3 = 2 * m /\ f3Radix c3 ^ m <= 2 ^ 96) /\ fst (ff3_new 2 56 10 k16 (f3Tweak c3)) = Ok c3 /\
  fst (ff3_new 2 56 10 (snd (ff3_new 2 56 10 k16 (f3Tweak c3))) (f3Tweak c3)) = Ok c3' /\
  exists y, ff3_encrypt toy c3 (written x6) (f3Tweak c3) = Ok y /\ y <> written x6 /\ ff3_decrypt toy c3 y (f3Tweak c3) = Ok (written x6)
    /\ ff3_decrypt toy c3' y (f3Tweak c3) <> Ok (written x6).
Proof.
  split; [exists 28; split; [lia|split; [reflexivity|vm_compute; discriminate]]|]. split; [reflexivity|]. split; [reflexivity|]. eexists. split; [vm_compute; reflexivity|]. split; [discriminate|]. split; [vm_compute; reflexivity|vm_compute; discriminate].
Qed.

Definition C96_C97 := (C96_ff1_is_standard, C96_ff1_permutation, C96_ff1_no_panic, C96_ff1_refuses, C96_ff1_new, C96_ff1_sign_refuted, C96_ff1_capitals_refuted,
  C97_ff3_is_standard, C97_ff3_permutation, C97_ff3_capitals_refuted, C97_ff3_refuses, C97_ff3_refuses_char, C97_key_slice_refuted, C97_ff3_new).
Print Assumptions C96_C97.
