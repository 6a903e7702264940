(** Property C25: BMP strings. *)
From Verif Require Import Base BmpSpec BmpModel BmpProofs.
Set Implicit Arguments. Unset Strict Implicit.
Local Open Scope nat_scope.

(** BmpString writes the UCS-2 of the characters of any Go string, and fails exactly when one is
    outside the Basic Multilingual Plane. *)
Theorem C25_encode : forall s, bytes_ok s ->
  (Forall (fun r => r < 65536)%Z (runes s) -> bmp_string s = Ok (ucs2 (runes s)) /\ bmp_string_z s = Ok (ucs2 (runes s) ++ [0; 0]%Z)) /\
  (~ Forall (fun r => r < 65536)%Z (runes s) -> bmp_string s = Err /\ bmp_string_z s = Err).
Proof.
  intros s B. destruct (bmp_loop_eq [] (runes_scalar B)) as [H1 H2]. unfold bmp_string_z, bmp_string.
  split; intros H; [rewrite H1 by auto|rewrite H2 by auto]; auto.
Qed.
Print Assumptions C25_encode.
(** ... where the characters of a valid string are the ones it encodes. *)
Theorem C25_characters : forall rs, Forall scalar rs -> runes (utf8 rs) = rs.
Proof. exact runes_utf8. Qed.
Print Assumptions C25_characters.
Lemma bmp_parts rs : Forall (fun r => scalar r /\ r < 65536)%Z rs ->
  Forall scalar rs /\ Forall (fun r => r < 65536)%Z rs /\ Forall (fun r => 0 <= r < 65536)%Z rs.
Proof.
  intros F. repeat split; (eapply Forall_impl; [|exact F]); cbn; unfold scalar; intros a Ha; lia.
Qed.
Lemma utf8_byte rs : Forall scalar rs -> bytes_ok (utf8 rs).
Proof.
  induction 1 as [|r rs S F IH]; [constructor|]. unfold utf8. cbn [map concat]. apply Forall_app. split; [|exact IH].
  unfold scalar in S. unfold utf8_1.
  destruct (Z.ltb_spec r 128); [constructor; [red; lia|constructor]|].
  pose proof (Z.mod_pos_bound r 64 ltac:(lia)). pose proof (Z.mod_pos_bound (r / 64) 64 ltac:(lia)). pose proof (Z.mod_pos_bound (r / 4096) 64 ltac:(lia)).
  destruct (Z.ltb_spec r 2048).
  { assert (0 <= r / 64 < 32)%Z by (split; [apply Z.div_pos; lia|apply Z.div_lt_upper_bound; lia]). repeat (apply Forall_cons; [red; lia|]); constructor. }
  destruct (Z.ltb_spec r 65536).
  { assert (0 <= r / 4096 < 16)%Z by (split; [apply Z.div_pos; lia|apply Z.div_lt_upper_bound; lia]). repeat (apply Forall_cons; [red; lia|]); constructor. }
  assert (0 <= r / 262144 < 8)%Z by (split; [apply Z.div_pos; lia|apply Z.div_lt_upper_bound; lia]). repeat (apply Forall_cons; [red; lia|]); constructor.
Qed.
(** A zero-terminated BMP string decodes to the string. *)
Theorem C25_round_trip_z : forall rs, Forall (fun r => scalar r /\ r < 65536)%Z rs ->
  exists b, bmp_string_z (utf8 rs) = Ok b /\ decode_bmp b = Ok (utf8 rs).
Proof.
  intros rs F. destruct (bmp_parts F) as [S [L R]]. destruct (C25_encode (utf8_byte S)) as [H _]. rewrite runes_utf8 in H by auto.
  exists (ucs2 rs ++ [0; 0]%Z). split; [apply H; auto|]. rewrite decode_eq.
  - rewrite stripped_00, units_ucs2 by auto. rewrite utf16_bmp by auto. reflexivity.
  - rewrite app_length, ucs2_len. cbn [length]. replace (2 * length rs + 2) with (2 * (length rs + 1)) by lia. apply even2.
Qed.
Print Assumptions C25_round_trip_z.
(** Without the terminator the round trip is exact unless the string ends in NUL, and then it loses that NUL. *)
Theorem C25_round_trip : forall rs, Forall (fun r => scalar r /\ r < 65536)%Z rs ->
  exists b, bmp_string (utf8 rs) = Ok b /\
    decode_bmp b = Ok (utf8 (match rev rs with 0%Z :: q => rev q | _ => rs end)).
Proof.
  intros rs F. destruct (bmp_parts F) as [S [L R]]. destruct (C25_encode (utf8_byte S)) as [H _]. rewrite runes_utf8 in H by auto.
  exists (ucs2 rs). split; [apply H; auto|]. rewrite decode_eq by (rewrite ucs2_len; apply even2).
  destruct (rev rs) as [|x q] eqn:E.
  { apply (f_equal (@rev Z)) in E. rewrite rev_involutive in E. subst rs. reflexivity. }
  apply (f_equal (@rev Z)) in E. rewrite rev_involutive in E. cbn [rev] in E. subst rs.
  apply Forall_app in F. destruct F as [Fq Fx]. inversion Fx as [|? ? [Sx Lx] _]; subst.
  destruct (bmp_parts Fq) as [Sq [Lq Rq]].
  assert (E2 : ucs2 (rev q ++ [x]) = ucs2 (rev q) ++ [to_byte (x / 256); to_byte (x mod 256)]).
  { rewrite ucs2_app. f_equal. unfold ucs2. cbn [map concat]. rewrite be2 by (unfold scalar in Sx; lia). reflexivity. }
  destruct (Z.eq_dec x 0) as [->|N].
  - rewrite E2. change (to_byte (0 / 256)) with 0%Z. change (to_byte (0 mod 256)) with 0%Z. rewrite stripped_00.
    rewrite units_ucs2 by auto. rewrite utf16_bmp by auto. reflexivity.
  - rewrite E2, stripped_keep, <- E2.
    + rewrite units_ucs2 by auto. rewrite utf16_bmp; auto; [|apply Forall_app; auto].
      destruct x; congruence.
    + unfold to_byte. unfold scalar in Sx.
      assert (0 <= x / 256 < 256)%Z by (split; [apply Z.div_pos; lia|apply Z.div_lt_upper_bound; lia]).
      pose proof (Z.div_mod x 256 ltac:(lia)). rewrite Zmod_mod. rewrite (Z.mod_small (x / 256)) by lia. lia.
Qed.
Print Assumptions C25_round_trip.
(** Different valid strings have different BMP strings. *)
Theorem C25_injective : forall rs rs' b, Forall scalar rs -> Forall scalar rs' ->
  bmp_string (utf8 rs) = Ok b -> bmp_string (utf8 rs') = Ok b -> rs = rs'.
Proof.
  assert (K : forall rs b, Forall scalar rs -> bmp_string (utf8 rs) = Ok b -> rs = units b).
  { intros rs b S H. destruct (C25_encode (utf8_byte S)) as [H1 H2]. rewrite runes_utf8 in H1, H2 by auto.
    destruct (Forall_dec (fun r => r < 65536)%Z (fun r => Z_lt_dec r 65536) rs) as [D|D]; [|destruct (H2 D); congruence].
    destruct (H1 D) as [H3 _]. rewrite H3 in H. injection H as <-. symmetry. apply units_ucs2.
    rewrite Forall_forall in *. intros x Hx. specialize (S x Hx). specialize (D x Hx). unfold scalar in S. lia. }
  intros rs rs' b S S' H H'. rewrite (K _ _ S H), (K _ _ S' H'). reflexivity.
Qed.
Print Assumptions C25_injective.
(** DecodeBMPString fails exactly on odd lengths, and its result is valid UTF-8. *)
Theorem C25_decode : forall b, bytes_ok b ->
  (length b mod 2 <> 0 -> decode_bmp b = Err) /\
  (length b mod 2 = 0 -> exists rs, Forall scalar rs /\ decode_bmp b = Ok (utf8 rs)).
Proof.
  intros b B. split; intros H.
  - unfold decode_bmp. destruct (Nat.eqb_spec (length b mod 2) 0); [contradiction|reflexivity].
  - rewrite decode_eq by auto. eexists. split; [|reflexivity]. apply utf16_scalar.
    assert (E : length b = 2 * (length b / 2)) by (apply Nat.div_exact; lia).
    assert (Q : exists n, length (stripped b) = 2 * n /\ bytes_ok (stripped b)).
    { unfold stripped. destruct (_ && _ && _) eqn:C.
      - exists (length b / 2 - 1). split; [rewrite firstn_length; lia|]. apply Forall_forall. intros x Hx.
        unfold bytes_ok in B. rewrite Forall_forall in B. apply B. rewrite <- (firstn_skipn (length b - 2) b). apply in_or_app. auto.
      - exists (length b / 2). split; auto. }
    destruct Q as [n [Q1 Q2]]. apply (ucs2_units Q1 Q2).
Qed.
Print Assumptions C25_decode.
(** A BMP string without surrogates is recovered from what it decodes to (with its terminator). *)
Theorem C25_reencode : forall b rs, Forall scalar rs -> b = ucs2 rs -> Forall (fun r => r < 65536)%Z rs ->
  exists s, decode_bmp (b ++ [0; 0]%Z) = Ok s /\ bmp_string_z s = Ok (b ++ [0; 0]%Z).
Proof.
  intros b rs S -> L. assert (F : Forall (fun r => scalar r /\ r < 65536)%Z rs) by (rewrite Forall_forall in *; auto).
  destruct (C25_round_trip_z F) as [b' [E1 E2]]. destruct (C25_encode (utf8_byte S)) as [H _]. rewrite runes_utf8 in H by auto.
  destruct (H L) as [_ H3]. rewrite H3 in E1. injection E1 as <-. exists (utf8 rs). auto.
Qed.
Print Assumptions C25_reencode.
(** Strings that are not valid UTF-8 are not distinguished: "\xff", "\xfe" and U+FFFD have the same BMP string (so,
    as PKCS #12 passwords, they open the same files). *)
Theorem C25_invalid_refuted : exists s t, s <> t /\ bytes_ok s /\ bytes_ok t /\ bmp_string_z s = bmp_string_z t /\ bmp_string_z s = Ok [255; 253; 0; 0]%Z.
Proof.
  exists [255%Z], [254%Z]. split; [discriminate|]. split; [constructor; [red; lia|constructor]|]. split; [constructor; [red; lia|constructor]|].
  split; vm_compute; reflexivity.
Qed.
Print Assumptions C25_invalid_refuted.

(** Non-vacuity: a, U+00E9, U+4E2D, NUL; and a surrogate pair on decoding (U+1F600), refused on encoding. *)
Example C25_instance :
  Forall (fun r => scalar r /\ r < 65536)%Z [97; 233; 20013; 0]%Z /\
  bmp_string (utf8 [97; 233; 20013; 0]%Z) = Ok [0; 97; 0; 233; 78; 45; 0; 0]%Z /\
  decode_bmp [0; 97; 0; 233; 78; 45; 0; 0]%Z = Ok (utf8 [97; 233; 20013]%Z) /\
  decode_bmp [216; 61; 222; 0]%Z = Ok (utf8 [128512]%Z) /\ bmp_string (utf8 [128512]%Z) = Err.
Proof.
  split; [repeat constructor; unfold scalar; lia|]. repeat split; vm_compute; reflexivity.
Qed.
