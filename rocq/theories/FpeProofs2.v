(** Proofs about FF1 and FF3: the round functions and the whole ciphers. *)
From Verif Require Import Base BigModel WordModel WordLib NumLib ElgProofs EcSigProofs EcSigProofs2 LmsProofs2 HbufProofs Sc5Proofs FpeModel FpeSpec FpeProofs.
From Coq Require Import Lia.
Set Implicit Arguments. Unset Strict Implicit.
Local Open Scope Z_scope.

Lemma big_pad n x : 0 <= x < 256 ^ Z.of_nat n -> (length (big_bytes x) <= n)%nat /\ be_bytes n x = repeat 0 (n - length (big_bytes x)) ++ big_bytes x.
Proof.
  intros H. pose proof (byteceil_le H) as L. unfold big_bytes. rewrite be_bytes_length, Z.abs_eq by lia. split; [exact L|].
  apply be_bytes_grow; [exact L|]. split; [lia|]. apply byteceil_bound. lia.
Qed.
Lemma nat_mod_mul k n : (0 < n)%nat -> Nat.modulo (k * n) n = 0%nat.
Proof. intros. apply Nat.mod_mul. lia. Qed.

Lemma fn_rep (a b : nat) : (a <= b)%nat -> firstn a (repeat 0 b) = repeat 0 a.
Proof. intros H. replace b with (a + (b - a))%nat by lia. rewrite repeat_app. rewrite firstn_app_exact by apply repeat_length. reflexivity. Qed.

Section prf.
Variable E : bytes -> bytes.
Hypothesis EL : forall x, length x = 16%nat -> length (E x) = 16%nat.
Lemma cbc0_len bs : forall iv, length iv = 16%nat -> all_len 16 bs -> all_len 16 (cbc0 E iv bs) /\ length (cbc0 E iv bs) = length bs.
Proof.
  induction bs as [|b bs IH]; intros iv Hi A; [split; [constructor|reflexivity]|]. inversion A; subst. cbn [cbc0 length].
  assert (L : length (E (xorl b iv)) = 16%nat) by (apply EL; rewrite xorl_length; lia).
  destruct (IH _ L) as [I1 I2]; auto. split; [constructor; auto|lia].
Qed.
Lemma cbc0_last bs : forall iv, length iv = 16%nat -> all_len 16 bs -> bs <> [] ->
  skipn (length (concat (cbc0 E iv bs)) - 16) (concat (cbc0 E iv bs)) = fold_left (fun y b => E (xorl y b)) bs iv.
Proof.
  induction bs as [|b bs IH]; intros iv Hi A NE; [congruence|]. inversion A; subst. cbn [cbc0 concat fold_left].
  assert (L : length (E (xorl b iv)) = 16%nat) by (apply EL; rewrite xorl_length; lia). rewrite (xorl_comm iv b).
  destruct bs as [|b' bs]; [cbn [cbc0 concat fold_left]; rewrite app_nil_r, L; reflexivity|].
  rewrite <- IH by (auto; congruence). set (y := concat (cbc0 E (E (xorl b iv)) (b' :: bs))).
  assert (LY : (16 <= length y)%nat). { unfold y. destruct (cbc0_len L H2) as [I1 I2]. rewrite (concat_all_len I1), I2. cbn [length]. lia. }
  rewrite app_length, L. rewrite skipn_app, L. replace (16 + length y - 16 - 16)%nat with (length y - 16)%nat by lia.
  rewrite skipn_all2 by lia. reflexivity.
Qed.
Lemma ciph_ok x k : length x = (k * 16)%nat -> exists o, ciph E x = Ok o /\ length o = length x /\ o = concat (cbc0 E (repeat 0 16) (chunks 16 x)).
Proof.
  intros L. unfold ciph. rewrite L, nat_mod_mul by lia. cbn [Nat.eqb negb]. eexists. split; [reflexivity|]. split; [|reflexivity].
  destruct (@chunks_all_len Z 16 x k ltac:(lia) L) as [C1 C2]. destruct (@cbc0_len (chunks 16 x) (repeat 0 16) (repeat_length _ _) C1) as [I1 I2].
  rewrite (concat_all_len I1), I2, C2. auto.
Qed.
Lemma prf_ok x k : length x = (k * 16)%nat -> (0 < k)%nat -> prf E x = Ok (PRF E x) /\ length (PRF E x) = 16%nat.
Proof.
  intros L K. unfold prf. destruct (ciph_ok L) as (o & -> & Lo & Eo). cbn [rbind].
  destruct (@chunks_all_len Z 16 x k ltac:(lia) L) as [C1 C2]. assert (NE : chunks 16 x <> []) by (intros Q; rewrite Q in C2; cbn in C2; lia).
  assert (Q : skipn (length o - 16) o = PRF E x) by (rewrite Eo; apply cbc0_last; auto). rewrite Q. split; [reflexivity|]. rewrite <- Q, skipn_length. lia.
Qed.
Lemma ciph_one x : length x = 16%nat -> ciph E x = Ok (E x).
Proof.
  intros L. destruct (@ciph_ok x 1 L) as (o & -> & _ & ->). f_equal. rewrite chunks_single by (auto; lia). cbn [cbc0 concat]. rewrite app_nil_r. f_equal.
  apply xorl_repeat0. now rewrite L.
Qed.
Definition cnt (j : nat) : bytes := repeat 0 8 ++ be_bytes 8 (Z.of_nat j).
Lemma more_ok R js : length R = 16%nat -> ff1_more E R js = Ok (concat (map (fun j => E (xorl R (cnt j))) js)).
Proof.
  intros L. induction js as [|j js IH]; [reflexivity|]. cbn [ff1_more map concat]. fold (cnt j).
  assert (C : length (cnt j) = 16%nat) by (unfold cnt; now rewrite app_length, repeat_length, be_bytes_length).
  rewrite ciph_one by (rewrite xorl_length; lia). cbn [rbind]. rewrite IH. reflexivity.
Qed.

(** The round function of FF1 as a function of round and number. *)
Definition yf (P tw : bytes) (pad b maxJ d i : nat) (x : Z) : Z :=
  let R := PRF E (P ++ tw ++ repeat 0 pad ++ [Z.of_nat i] ++ be_bytes b x) in
  be_val (firstn d (R ++ concat (map (fun j => E (xorl R (cnt j))) (seq 1 (maxJ - 1))))).
Definition q_ok (tw : bytes) (pad lenQ : nat) (Q : bytes) : Prop := length Q = lenQ /\ firstn (length tw + pad) Q = tw ++ repeat 0 pad.
Lemma y_ok P tw pad b maxJ d Q i x k : length P = 16%nat -> (length tw + b + 1 + pad)%nat = (k * 16)%nat ->
  q_ok tw pad (length tw + b + 1 + pad) Q -> 0 <= x < 256 ^ Z.of_nat b ->
  exists Q', ff1_y E P (length tw) pad (length tw + b + 1 + pad) maxJ d Q i x = Ok (Q', yf P tw pad b maxJ d i x)
    /\ q_ok tw pad (length tw + b + 1 + pad) Q'.
Proof.
  intros LP LK [LQ FQ] Hx. destruct (big_pad Hx) as [Ln En]. set (t := length tw) in *. set (lenQ := (t + b + 1 + pad)%nat) in *.
  unfold ff1_y. set (nb := big_bytes x) in *. cbn zeta.
  replace (lenQ <? length nb)%nat with false by (symmetry; apply Nat.ltb_ge; unfold lenQ; lia).
  set (Q2 := splice _ _ _).
  assert (E2 : Q2 = tw ++ repeat 0 pad ++ [Z.of_nat i] ++ be_bytes b x).
  { unfold Q2. rewrite upd_split by lia. rewrite FQ. replace (t + pad + 1)%nat with (length ((tw ++ repeat 0 pad) ++ [Z.of_nat i])) by (rewrite !app_length, repeat_length; cbn; lia).
    change (Z.of_nat i :: skipn (S (t + pad)) Q) with ([Z.of_nat i] ++ skipn (S (t + pad)) Q). rewrite (app_assoc _ [Z.of_nat i]).
    rewrite firstn_app_exact by reflexivity. set (hd := (tw ++ repeat 0 pad) ++ [Z.of_nat i]).
    assert (Lh : length hd = (t + pad + 1)%nat) by (unfold hd; rewrite !app_length, repeat_length; reflexivity).
    rewrite Lh. replace (lenQ - (t + pad + 1))%nat with b by (unfold lenQ; lia).
    rewrite En. unfold splice. rewrite firstn_app, Lh. rewrite firstn_all2 by (unfold lenQ; lia).
    replace (lenQ - length nb - (t + pad + 1))%nat with (b - length nb)%nat by (unfold lenQ; lia).
    replace (firstn (b - length nb) (repeat 0 b)) with (repeat 0 (b - length nb)) by (symmetry; apply fn_rep; lia).
    rewrite skipn_all2 by (rewrite app_length, repeat_length; unfold lenQ; lia). rewrite app_nil_r. unfold hd. now rewrite <- !app_assoc. }
  rewrite E2. assert (LX : length (P ++ tw ++ repeat 0 pad ++ [Z.of_nat i] ++ be_bytes b x) = (S k * 16)%nat).
  { rewrite !app_length, repeat_length, be_bytes_length. cbn [length]. fold t. lia. }
  destruct (prf_ok LX ltac:(lia)) as [-> LR]. cbn [rbind]. rewrite (more_ok _ LR). cbn [rbind]. exists (tw ++ repeat 0 pad ++ [Z.of_nat i] ++ be_bytes b x).
  split; [reflexivity|]. split; [rewrite !app_length, repeat_length, be_bytes_length; cbn [length]; unfold lenQ, t; lia|].
  rewrite app_assoc, firstn_app_exact; [reflexivity|]. rewrite app_length, repeat_length. reflexivity.
Qed.
End prf.

Section ff1.
Variable aes : bytes -> bytes -> bytes.
Hypothesis AL : forall k x, length x = 16%nat -> length (aes k x) = 16%nat.
Variable fb : nat -> nat.
Variable (c : ff1).
Notation r := (f1Radix c).
Hypothesis R : radix_ok r.
Hypothesis M2 : 2 <= f1Min c.
Variable tw : bytes.
Hypothesis TL : Z.of_nat (length tw) <= f1MaxT c.
Variable n : nat.
Hypothesis N1 : f1Min c <= Z.of_nat n < 2 ^ 32.
Let u := f1_u n.
Let v := f1_v n.
Let b := fb v.
Hypothesis FB : r ^ Z.of_nat v <= 256 ^ Z.of_nat b.
Let pad := Z.to_nat ((- Z.of_nat (length tw) - Z.of_nat b - 1) mod 16).
Let lenQ := (length tw + b + 1 + pad)%nat.
Let d := f1_d b.
Let maxJ := Nat.div (d + 15) 16.
Let P := f1_P r tw n.
Let su A B := Setup P (length tw) pad lenQ maxJ d (tw ++ repeat 0 (lenQ - length tw)) u v A B.

Lemma uv : (0 < u)%nat /\ (u <= v)%nat /\ (u + v = n)%nat.
Proof. unfold u, v, f1_v, f1_u. pose proof (Nat.div_mod n 2 ltac:(lia)). pose proof (Nat.mod_upper_bound n 2 ltac:(lia)). lia. Qed.
Lemma lenq16 : exists k, lenQ = (k * 16)%nat.
Proof.
  unfold lenQ, pad. set (x := - Z.of_nat (length tw) - Z.of_nat b - 1). pose proof (Z.mod_pos_bound x 16 ltac:(lia)).
  exists (Z.to_nat (- (x / 16))). pose proof (Z.div_mod x 16 ltac:(lia)). unfold x in *. lia.
Qed.
Lemma rem_mod x : (let p := Z.rem x 16 in if p <? 0 then p + 16 else p) = x mod 16.
Proof.
  cbn zeta. pose proof (Z.quot_rem' x 16). assert (B : - 16 < Z.rem x 16 < 16). { pose proof (Z.rem_bound_abs x 16 ltac:(lia)). lia. }
  destruct (Z.ltb_spec (Z.rem x 16) 0).
  - apply Z.mod_unique with (q := Z.quot x 16 - 1); lia.
  - apply Z.mod_unique with (q := Z.quot x 16); lia.
Qed.
Lemma q0_ok : q_ok tw pad lenQ (tw ++ repeat 0 (lenQ - length tw)).
Proof.
  split; [rewrite app_length, repeat_length; unfold lenQ; lia|]. rewrite firstn_app, firstn_all2 by lia. f_equal.
  replace (length tw + pad - length tw)%nat with pad by lia. apply fn_rep. unfold lenQ. lia.
Qed.
Lemma P_len : length P = 16%nat.
Proof. reflexivity. Qed.
Definition F i x := yf (aes (f1Key c)) P tw pad b maxJ d i x.
Lemma setup_ok X : length X = n -> set_string r X <> None ->
  ff1_setup fb c X tw = match set_string r (firstn u X), set_string r (skipn u X) with Some x, Some y => Ok (su x y) | _, _ => Err end.
Proof.
  intros L S. unfold ff1_setup. rewrite L, Z.mod_small by lia. replace (Z.of_nat n <? f1Min c) with false by lia.
  replace (f1MaxT c <? Z.of_nat (length tw)) with false by lia. destruct (set_string r X); [|congruence]. cbn zeta.
  replace (Z.to_nat (Z.of_nat n / 2)) with u by (unfold u, f1_u; change 2 with (Z.of_nat 2); rewrite <- Nat2Z.inj_div, Nat2Z.id; reflexivity).
  rewrite Nat2Z.id. fold v. change (n - u)%nat with v. fold b. pose proof (rem_mod (- Z.of_nat (length tw) - Z.of_nat b - 1)) as RM. cbn zeta in RM. rewrite RM. fold pad. fold lenQ.
  assert (EP : [1; 2; 1; 0] ++ be_bytes 2 r ++ [10; to_byte (Z.of_nat u)] ++ be_bytes 4 (Z.of_nat n) ++ be_bytes 4 (Z.of_nat (length tw)) = P).
  { unfold P, f1_P. unfold radix_ok in R. rewrite (@be_bytes_grow 2 3 r) by (cbn; lia). reflexivity. }
  rewrite EP. reflexivity.
Qed.
Lemma mods : 0 < r ^ Z.of_nat u /\ r ^ Z.of_nat u <= r ^ Z.of_nat v.
Proof. unfold radix_ok in R. destruct uv as (A & B & C). split; [apply Z.pow_pos_nonneg; lia|apply Z.pow_le_mono_r; lia]. Qed.
Notation U := (r ^ Z.of_nat u).
Notation V := (r ^ Z.of_nat v).
Lemma upos : 0 < r ^ Z.of_nat u. Proof. apply mods. Qed.
Lemma vpos : 0 < r ^ Z.of_nat v. Proof. pose proof mods. lia. Qed.
Lemma under i x : 0 <= x < modulus U V i -> 0 <= x < 256 ^ Z.of_nat b.
Proof. pose proof mods. unfold modulus. destruct (Nat.even i); lia. Qed.
Lemma big_val x : 0 <= x -> be_val (big_bytes x) = x.
Proof. intros. now rewrite be_val_big_bytes. Qed.
Lemma mod_eq A B i : ff1_mod c (su A B) i = modulus U V i. Proof. reflexivity. Qed.
Lemma enc_rounds A B k : forall i Q x y, q_ok tw pad lenQ Q -> bounded U V i (x, y) ->
  ff1_enc_rounds aes c (su A B) (seq i k) Q x y = Ok (fold_left (fe U V F) (seq i k) (x, y)).
Proof.
  destruct lenq16 as [kq LK]. induction k as [|k IH]; intros i Q x y HQ HB; [reflexivity|]. cbn [seq ff1_enc_rounds fold_left sP sT sPad sLenQ sMaxJ sD su].
  destruct HB as [Ha Hb]. cbn [fst snd] in *.
  destruct (@y_ok (aes (f1Key c)) (AL (f1Key c)) P tw pad b maxJ d Q i y kq P_len LK HQ (under Hb)) as (Q' & EY & HQ').
  fold lenQ in EY. rewrite EY. cbn [rbind fst snd]. rewrite big_val by lia. rewrite mod_eq. fold (F i y). rewrite IH; auto.
  exact (@fe_bounded U V upos vpos F i (x, y) (conj Ha Hb)).
Qed.
Lemma dec_rounds A B k : forall i Q x y, q_ok tw pad lenQ Q -> bounded U V (i + k) (x, y) ->
  ff1_dec_rounds aes c (su A B) (rev (seq i k)) Q x y = Ok (fold_left (fd U V F) (rev (seq i k)) (x, y)).
Proof.
  destruct lenq16 as [kq LK]. induction k as [|k IH]; intros i Q x y HQ HB; [reflexivity|].
  rewrite seq_S, rev_app_distr. cbn [rev app ff1_dec_rounds fold_left sP sT sPad sLenQ sMaxJ sD su].
  pose proof HB as [Ha Hb]. cbn [fst snd] in *. replace (i + S k)%nat with (S (i + k)) in * by lia.
  destruct (@y_ok (aes (f1Key c)) (AL (f1Key c)) P tw pad b maxJ d Q (i + k)%nat x kq P_len LK HQ (under Ha)) as (Q' & EY & HQ').
  fold lenQ in EY. rewrite EY. cbn [rbind fst snd]. rewrite big_val by lia. rewrite mod_eq. fold (F (i + k) x).
  rewrite IH; auto. exact (@fd_bounded U V upos vpos F (i + k)%nat (x, y) HB).
Qed.
Definition join (ab : Z * Z) : bytes := written (str r u (fst ab) ++ str r v (snd ab)).
Lemma out_ok A B ab : bounded U V 0 ab -> ff1_out c (su A B) ab = Ok (join ab).
Proof.
  intros [Ha Hb]. unfold ff1_out. cbn [sU sV su]. destruct uv as (X & Y & Z0). unfold radix_ok in R.
  rewrite !lpad_text by (auto; lia). cbn [rbind]. unfold join, written. now rewrite map_app.
Qed.
Definition halves (X : list Z) : Z * Z := (num r (firstn u X), num r (skipn u X)).
Lemma numerals_parts X : numerals r X -> numerals r (firstn u X) /\ numerals r (skipn u X).
Proof. intros H. rewrite <- (firstn_skipn u X) in H. now apply Forall_app in H. Qed.
Lemma halves_bounded X : length X = n -> numerals r X -> bounded U V 0 (halves X).
Proof.
  intros L NX. destruct (numerals_parts NX) as [N3 N4]. destruct uv as (A & B & C). unfold radix_ok in R. unfold bounded, halves, modulus. cbn [fst snd Nat.even].
  pose proof (@num_bound r _ ltac:(lia) N3) as B1. pose proof (@num_bound r _ ltac:(lia) N4) as B2. rewrite firstn_length in B1. rewrite skipn_length in B2.
  replace (Nat.min u (length X)) with u in B1 by lia. replace (length X - u)%nat with v in B2 by lia. split; assumption.
Qed.
Lemma join_halves X : length X = n -> numerals r X -> join (halves X) = written X.
Proof.
  intros L NX. destruct (numerals_parts NX) as [N3 N4]. destruct uv as (A & B & C). unfold radix_ok in R. unfold join, halves. cbn [fst snd]. f_equal.
  pose proof (@str_num r _ ltac:(lia) N3) as B1. pose proof (@str_num r _ ltac:(lia) N4) as B2. rewrite firstn_length in B1. rewrite skipn_length in B2.
  replace (Nat.min u (length X)) with u in B1 by lia. replace (length X - u)%nat with v in B2 by lia. rewrite B1, B2. apply firstn_skipn.
Qed.
Lemma halves_join ab : bounded U V 0 ab -> exists X, join ab = written X /\ length X = n /\ numerals r X /\ halves X = ab.
Proof.
  intros [Ha Hb]. unfold modulus in Ha, Hb. cbn [Nat.even] in *. exists (str r u (fst ab) ++ str r v (snd ab)). destruct uv as (A & B & C). unfold radix_ok in R. split; [reflexivity|].
  split; [rewrite app_length, !str_length; lia|]. split; [apply Forall_app; split; apply str_numerals; lia|].
  unfold halves. rewrite firstn_app_exact, skipn_app_exact by apply str_length. rewrite !num_str by lia. rewrite !Z.mod_small by lia. destruct ab; reflexivity.
Qed.
Lemma setup_written X : length X = n -> numerals r X -> ff1_setup fb c (written X) tw = Ok (su (fst (halves X)) (snd (halves X))).
Proof.
  intros L NX. destruct (numerals_parts NX) as [N3 N4]. destruct uv as (A & B & C).
  rewrite setup_ok; [|unfold written; now rewrite map_length|rewrite set_string_written; auto; [discriminate|intros ->; cbn in L; lia]].
  unfold written. rewrite firstn_map, skipn_map. fold (written (firstn u X)) (written (skipn u X)).
  rewrite !set_string_written; auto; intros Q; apply (f_equal (@length Z)) in Q; rewrite ?firstn_length, ?skipn_length in Q; cbn [length] in Q; lia.
Qed.
Lemma encrypt_eq X : length X = n -> numerals r X ->
  ff1_encrypt aes fb c (written X) tw = Ok (join (fold_left (fe U V F) (seq 0 10) (halves X))).
Proof.
  intros L NX. unfold ff1_encrypt. rewrite setup_written by auto. cbn [rbind]. pose proof (halves_bounded L NX) as HB.
  cbn [sQ sA sB su]. rewrite (@enc_rounds _ _ 10 0) by (try apply q0_ok; destruct (halves X); exact HB). cbn [rbind].
  rewrite <- surjective_pairing. apply out_ok. exact (@run_bounded U V upos vpos F 10 0 _ HB).
Qed.
Lemma decrypt_eq X : length X = n -> numerals r X ->
  ff1_decrypt aes fb c (written X) tw = Ok (join (fold_left (fd U V F) (rev (seq 0 10)) (halves X))).
Proof.
  intros L NX. unfold ff1_decrypt. rewrite setup_written by auto. cbn [rbind]. pose proof (halves_bounded L NX) as HB.
  cbn [sQ sA sB su]. rewrite (@dec_rounds _ _ 10 0) by (try apply q0_ok; destruct (halves X); exact HB). cbn [rbind].
  rewrite <- surjective_pairing. apply out_ok. exact (@unrun_bounded U V upos vpos F 10 0 _ HB).
Qed.
Lemma ff1_perm X : length X = n -> numerals r X ->
  (exists Y, length Y = n /\ numerals r Y /\ ff1_encrypt aes fb c (written X) tw = Ok (written Y) /\ ff1_decrypt aes fb c (written Y) tw = Ok (written X)) /\
  (exists Y, length Y = n /\ numerals r Y /\ ff1_decrypt aes fb c (written X) tw = Ok (written Y) /\ ff1_encrypt aes fb c (written Y) tw = Ok (written X)).
Proof.
  intros L NX. pose proof (halves_bounded L NX) as HB. pose proof mods as M. split.
  - assert (B' := @run_bounded U V upos vpos F 10 0 _ HB). change (bounded U V 0 (fold_left (fe U V F) (seq 0 10) (halves X))) in B'.
    destruct (halves_join B') as (Y & J & LY & NY & HY). exists Y. split; auto. split; auto. rewrite encrypt_eq, J by auto. split; auto.
    rewrite decrypt_eq by auto. rewrite HY. rewrite (@unrun_run U V upos vpos F 10 0 _ HB). now rewrite join_halves.
  - assert (B' := @unrun_bounded U V upos vpos F 10 0 _ HB).
    destruct (halves_join B') as (Y & J & LY & NY & HY). exists Y. split; auto. split; auto. rewrite decrypt_eq, J by auto. split; auto.
    rewrite encrypt_eq by auto. rewrite HY. rewrite (@run_unrun U V upos vpos F 10 0 _ HB). now rewrite join_halves.
Qed.
(** Against the standard's recursion. *)
Hypothesis BSmall : Z.of_nat b < 2 ^ 32.
Lemma F_spec i B : F i (num r B) = f1_y (aes (f1Key c)) r tw n b i B.
Proof.
  unfold F, yf, f1_y. fold pad. fold P. fold d. fold maxJ. cbn zeta. do 4 f_equal. apply map_ext_in. intros j J. apply in_seq in J. do 2 f_equal.
  unfold cnt. rewrite (@be_bytes_grow 8 16); [reflexivity|lia|]. split; [lia|].
  assert (Z.of_nat j < 2 ^ 40); [|cbn in *; lia]. unfold maxJ, d, f1_d in J.
  pose proof (Nat.div_le_upper_bound (b + 3) 4 (b + 3) ltac:(lia) ltac:(lia)). pose proof (Nat.div_le_upper_bound (4 * Nat.div (b + 3) 4 + 4 + 15) 16 (4 * Nat.div (b + 3) 4 + 4 + 15) ltac:(lia) ltac:(lia)). lia.
Qed.
Lemma spec_rounds k : forall i A B, numerals r A -> numerals r B -> length A = (if Nat.even i then u else v) -> length B = (if Nat.even i then v else u) ->
  f1_rounds (aes (f1Key c)) r tw n b (seq i k) A B =
  let ab := fold_left (fe U V F) (seq i k) (num r A, num r B) in
  str r (if Nat.even (i + k) then u else v) (fst ab) ++ str r (if Nat.even (i + k) then v else u) (snd ab).
Proof.
  unfold radix_ok in R. induction k as [|k IH]; intros i A B NA NB LA LB.
  - cbn [seq f1_rounds fold_left fst snd]. cbn zeta. rewrite Nat.add_0_r. rewrite <- LA, <- LB. cbn [fst snd]. rewrite !str_num by (auto; lia). reflexivity.
  - cbn [seq f1_rounds fold_left]. fold u v. cbn zeta. rewrite IH; auto.
    + cbn zeta. replace (i + S k)%nat with (S i + k)%nat by lia. replace (fe U V F (num r A, num r B) i) with (num r B, (num r A + F i (num r B)) mod modulus U V i) by reflexivity. rewrite num_str by lia. rewrite F_spec.
      replace (r ^ Z.of_nat (if Nat.even i then u else v)) with (modulus U V i) by (unfold modulus; destruct (Nat.even i); reflexivity).
      rewrite Z.mod_mod by (pose proof (@modulus_pos U V upos vpos i); lia). reflexivity.
    + apply str_numerals. lia.
    + rewrite LB, Nat.even_succ, <- Nat.negb_even. destruct (Nat.even i); reflexivity.
    + rewrite str_length, Nat.even_succ, <- Nat.negb_even. destruct (Nat.even i); reflexivity.
Qed.
Lemma ff1_spec X : length X = n -> numerals r X -> ff1_encrypt aes fb c (written X) tw = Ok (written (FF1_encrypt (aes (f1Key c)) r tw n b X)).
Proof.
  intros L NX. rewrite encrypt_eq by auto. unfold join, FF1_encrypt. destruct (numerals_parts NX) as [N3 N4]. destruct uv as (A & B & C).
  fold u. rewrite spec_rounds; auto; rewrite ?firstn_length, ?skipn_length; cbn [Nat.even]; lia.
Qed.
End ff1.

Section ff3.
Variable aes : bytes -> bytes -> bytes.
Hypothesis AL : forall k x, length x = 16%nat -> length (aes k x) = 16%nat.
Variable (c : ff3).
Notation r := (f3Radix c).
Hypothesis R : radix_ok r.
Hypothesis M2 : 2 <= f3Min c.
Variable tw : bytes.
Hypothesis TL : length tw = 8%nat.
Hypothesis TB : bytes_ok tw.
Variable n : nat.
Hypothesis N1 : f3Min c <= Z.of_nat n < f3Max c.
Hypothesis N2 : Z.of_nat n < 2 ^ 32.
Let u := f3_u n.
Let v := f3_v n.
Hypothesis FB : r ^ Z.of_nat u <= 256 ^ 12.
Notation U := (r ^ Z.of_nat u).
Notation V := (r ^ Z.of_nat v).
Lemma uv3 : (0 < v)%nat /\ (v <= u)%nat /\ (u + v = n)%nat.
Proof. unfold u, v, f3_v, f3_u. pose proof (Nat.div_mod (n + 1) 2 ltac:(lia)). pose proof (Nat.mod_upper_bound (n + 1) 2 ltac:(lia)). lia. Qed.
Lemma upos3 : 0 < U. Proof. unfold radix_ok in R. apply Z.pow_pos_nonneg; lia. Qed.
Lemma vpos3 : 0 < V. Proof. unfold radix_ok in R. apply Z.pow_pos_nonneg; lia. Qed.
Lemma vu3 : V <= U. Proof. unfold radix_ok in R. pose proof uv3. apply Z.pow_le_mono_r; lia. Qed.
Definition G (i : nat) (x : Z) : Z :=
  let W := if Nat.even i then skipn 4 tw else firstn 4 tw in
  be_val (rev (aes (f3Key c) (rev (xorl W (be_bytes 4 (Z.of_nat i)) ++ be_bytes 12 x)))).
(** the string the code keeps for a number: its numerals least significant first *)
Definition low (m : nat) (x : Z) : bytes := rev (written (str r m x)).
Lemma rev_low m x : rev (low m x) = written (str r m x). Proof. apply rev_involutive. Qed.
Lemma set_low m x : (0 < m)%nat -> 0 <= x < r ^ Z.of_nat m -> set_string r (rev (low m x)) = Some x.
Proof.
  intros M X. unfold radix_ok in R. rewrite rev_low, set_string_written; auto; [|apply str_numerals; lia|intros Q; apply (f_equal (@length Z)) in Q; rewrite str_length in Q; cbn in Q; lia].
  rewrite num_str, Z.mod_small by lia. reflexivity.
Qed.
Definition wid (i : nat) : nat := if Nat.even i then u else v.
Lemma wid_pos i : (0 < wid i)%nat. Proof. pose proof uv3. unfold wid. destruct (Nat.even i); lia. Qed.
Lemma wid_mod i : r ^ Z.of_nat (wid i) = modulus U V i. Proof. unfold wid, modulus. destruct (Nat.even i); reflexivity. Qed.
Lemma y3_ok i P x j : (i < 8)%nat -> length P = 16%nat -> 0 <= x < modulus U V j ->
  exists P', ff3_y (aes (f3Key c)) r tw i P (low (wid j) x) = Ok (P', G i x) /\ length P' = 16%nat.
Proof.
  intros I LP X. assert (Hx : 0 <= x < 256 ^ Z.of_nat 12). { pose proof vu3. unfold modulus in X. change (Z.of_nat 12) with 12. destruct (Nat.even j); lia. }
  destruct (big_pad Hx) as [Ln En]. unfold ff3_y. rewrite set_low by (try apply wid_pos; rewrite wid_mod; exact X).
  set (W := if Nat.even i then skipn 4 tw else firstn 4 tw). cbn zeta.
  assert (LW : length W = 4%nat) by (unfold W; destruct (Nat.even i); rewrite ?skipn_length, ?firstn_length, TL; reflexivity).
  replace (16 <? length (big_bytes x))%nat with false by (symmetry; apply Nat.ltb_ge; lia).
  assert (EW : firstn 3 W ++ [Z.lxor (nth 3 W 0) (Z.of_nat i)] = xorl W (be_bytes 4 (Z.of_nat i))).
  { clearbody W. destruct W as [|w0 [|w1 [|w2 [|w3 [|]]]]]; try discriminate LW. do 8 (destruct i as [|i]; [cbn; rewrite ?Z.lxor_0_r; reflexivity|]). lia. }
  assert (ES : forall X4, length X4 = 4%nat -> splice (16 - length (big_bytes x)) (big_bytes x) (splice 4 (repeat 0 (12 - length (big_bytes x))) (X4 ++ skipn 4 P)) = X4 ++ be_bytes 12 x).
  { intros X4 L4. rewrite En. set (nb := big_bytes x) in *. unfold splice at 2. rewrite firstn_app_exact by auto. rewrite repeat_length.
    rewrite (app_assoc X4). set (hd := X4 ++ repeat 0 (12 - length nb)). assert (Lh : length hd = (16 - length nb)%nat) by (unfold hd; rewrite app_length, repeat_length; lia).
    unfold splice. rewrite firstn_app_exact by auto.
    replace (skipn (16 - length nb + length nb) _) with (@nil Z); [unfold hd; now rewrite app_nil_r, <- app_assoc|].
    symmetry. apply skipn_all2. rewrite !app_length, Lh, skipn_length, app_length, skipn_length. lia. }
  rewrite app_assoc, EW, ES by (rewrite xorl_length, be_bytes_length; lia). eexists. split; [unfold G; fold W; reflexivity|].
  rewrite rev_length, AL; [reflexivity|]. rewrite rev_length, app_length, xorl_length, !be_bytes_length. lia.
Qed.
Lemma c3_ok i x op : 0 <= x < modulus U V i ->
  ff3_c r u v i op (low (wid i) x) = Ok (low (wid i) (op x mod modulus U V i)).
Proof.
  intros X. unfold ff3_c. rewrite set_low by (try apply wid_pos; rewrite wid_mod; exact X). unfold radix_ok in R. cbn zeta. fold (wid i).
  fold (modulus U V i). rewrite lpad0_text; [reflexivity|lia|apply wid_pos|]. rewrite wid_mod. apply Z.mod_pos_bound, modulus_pos; [apply upos3|apply vpos3].
Qed.
Definition lows (i : nat) (ab : Z * Z) : bytes * bytes := (low (wid i) (fst ab), low (wid (S i)) (snd ab)).
Lemma wid_ss i : wid (S (S i)) = wid i. Proof. reflexivity. Qed.
Lemma enc_rounds3 k : forall i P ab, length P = 16%nat -> (i + k <= 8)%nat -> bounded U V i ab ->
  ff3_enc_rounds aes c tw u v (seq i k) P (fst (lows i ab)) (snd (lows i ab)) = Ok (lows (i + k) (fold_left (fe U V G) (seq i k) ab)).
Proof.
  induction k as [|k IH]; intros i P ab LP K HB; [rewrite Nat.add_0_r; reflexivity|]. cbn [seq ff3_enc_rounds fold_left]. destruct HB as [Ha Hb].
  unfold lows at 1 2. cbn [fst snd]. destruct (@y3_ok i P (snd ab) (S i) ltac:(lia) LP Hb) as (P' & EY & LP'). rewrite EY. cbn [rbind fst snd].
  rewrite c3_ok by exact Ha. cbn [rbind]. replace (i + S k)%nat with (S i + k)%nat by lia.
  rewrite <- (IH (S i) P' (fe U V G ab i)); [|auto|lia|exact (@fe_bounded U V upos3 vpos3 G i ab (conj Ha Hb))]. reflexivity.
Qed.
Lemma dec_rounds3 k : forall i P ab, length P = 16%nat -> (i + k <= 8)%nat -> bounded U V (i + k) ab ->
  ff3_dec_rounds aes c tw u v (rev (seq i k)) P (fst (lows (i + k) ab)) (snd (lows (i + k) ab)) = Ok (lows i (fold_left (fd U V G) (rev (seq i k)) ab)).
Proof.
  induction k as [|k IH]; intros i P ab LP K HB; [rewrite Nat.add_0_r; reflexivity|]. rewrite seq_S, rev_app_distr. cbn [rev app ff3_dec_rounds fold_left].
  replace (i + S k)%nat with (S (i + k)) in * by lia. pose proof HB as [Ha Hb].
  unfold lows at 1 2. cbn [fst snd]. destruct (@y3_ok (i + k) P (fst ab) (S (i + k)) ltac:(lia) LP Ha) as (P' & EY & LP'). rewrite EY. cbn [rbind fst snd].
  rewrite wid_ss, c3_ok by exact Hb. cbn [rbind].
  rewrite <- (IH i P' (fd U V G ab (i + k))); [|auto|lia|exact (@fd_bounded U V upos3 vpos3 G (i + k)%nat ab HB)]. reflexivity.
Qed.
Definition halves3 (X : list Z) : Z * Z := (num r (rev (firstn u X)), num r (rev (skipn u X))).
Lemma numerals_rev X : numerals r X -> numerals r (rev X). Proof. apply Forall_rev. Qed.
Lemma parts3 X : numerals r X -> numerals r (firstn u X) /\ numerals r (skipn u X).
Proof. intros H. rewrite <- (firstn_skipn u X) in H. now apply Forall_app in H. Qed.
Lemma low_num Y m : numerals r Y -> length Y = m -> low m (num r (rev Y)) = written Y.
Proof.
  intros NY <-. unfold low, radix_ok in *. rewrite <- (rev_length Y), str_num by (try apply numerals_rev; auto; lia). unfold written. rewrite <- map_rev, rev_involutive. reflexivity.
Qed.
Lemma lows_halves X : length X = n -> numerals r X -> lows 0 (halves3 X) = (firstn u (written X), skipn u (written X)).
Proof.
  intros L NX. destruct (parts3 NX) as [N3 N4]. pose proof uv3. unfold lows, halves3. cbn [fst snd]. unfold wid. cbn [Nat.even].
  rewrite !low_num; auto; rewrite ?firstn_length, ?skipn_length; try lia. unfold written. now rewrite firstn_map, skipn_map.
Qed.
Lemma bounded3 X : length X = n -> numerals r X -> bounded U V 0 (halves3 X).
Proof.
  intros L NX. destruct (parts3 NX) as [N3 N4]. pose proof uv3. unfold radix_ok in R.
  pose proof (@num_bound r _ ltac:(lia) (numerals_rev N3)) as B1. pose proof (@num_bound r _ ltac:(lia) (numerals_rev N4)) as B2.
  rewrite rev_length, ?firstn_length, ?skipn_length in *. replace (Nat.min u (length X)) with u in B1 by lia. replace (length X - u)%nat with v in B2 by lia.
  split; assumption.
Qed.
Definition join3 (ab : Z * Z) : bytes := fst (lows 0 ab) ++ snd (lows 0 ab).
Lemma halves_join3 ab : bounded U V 0 ab -> exists X, join3 ab = written X /\ length X = n /\ numerals r X /\ halves3 X = ab.
Proof.
  intros [Ha Hb]. unfold modulus in Ha, Hb. cbn [Nat.even] in *. exists (rev (str r u (fst ab)) ++ rev (str r v (snd ab))). pose proof uv3. unfold radix_ok in R.
  split. { unfold join3, lows, low, written, wid. cbn [fst snd Nat.even]. now rewrite map_app, !map_rev. }
  split; [rewrite app_length, !rev_length, !str_length; lia|]. split; [apply Forall_app; split; apply numerals_rev, str_numerals; lia|].
  unfold halves3. rewrite firstn_app_exact, skipn_app_exact by (now rewrite rev_length, str_length). rewrite !rev_involutive, !num_str, !Z.mod_small by lia. destruct ab; reflexivity.
Qed.
Lemma join_halves3 X : length X = n -> numerals r X -> join3 (halves3 X) = written X.
Proof. intros L NX. unfold join3. rewrite lows_halves by auto. apply firstn_skipn. Qed.
Lemma setup3 X : length X = n -> numerals r X -> ff3_setup c (written X) tw = Ok (u, v).
Proof.
  intros L NX. unfold ff3_setup. replace (length (written X)) with n by (unfold written; now rewrite map_length). rewrite Z.mod_small by lia. replace (Z.of_nat n <? f3Min c) with false by lia.
  replace (f3Max c <=? Z.of_nat n) with false by lia. rewrite TL, set_string_written; auto; [|intros ->; cbn in L; lia]. cbn [orb Nat.eqb negb]. cbn zeta. rewrite Nat2Z.id.
  replace (Z.to_nat ((Z.of_nat n + 1) / 2)) with u; [reflexivity|]. unfold u, f3_u. change 2 with (Z.of_nat 2). replace (Z.of_nat n + 1) with (Z.of_nat (n + 1)) by lia.
  rewrite <- Nat2Z.inj_div, Nat2Z.id. reflexivity.
Qed.
Lemma encrypt3_eq X : length X = n -> numerals r X -> ff3_encrypt aes c (written X) tw = Ok (join3 (fold_left (fe U V G) (seq 0 8) (halves3 X))).
Proof.
  intros L NX. unfold ff3_encrypt. rewrite setup3 by auto. cbn [rbind fst snd]. pose proof (lows_halves L NX) as LH.
  replace (firstn u (written X)) with (fst (lows 0 (halves3 X))) by (now rewrite LH). replace (skipn u (written X)) with (snd (lows 0 (halves3 X))) by (now rewrite LH).
  rewrite (@enc_rounds3 8 0) by (auto using repeat_length; now apply bounded3). reflexivity.
Qed.
Lemma decrypt3_eq X : length X = n -> numerals r X -> ff3_decrypt aes c (written X) tw = Ok (join3 (fold_left (fd U V G) (rev (seq 0 8)) (halves3 X))).
Proof.
  intros L NX. unfold ff3_decrypt. rewrite setup3 by auto. cbn [rbind fst snd]. pose proof (lows_halves L NX) as LH.
  replace (firstn u (written X)) with (fst (lows (0 + 8) (halves3 X))) by (change (lows (0 + 8) (halves3 X)) with (lows 0 (halves3 X)); now rewrite LH).
  replace (skipn u (written X)) with (snd (lows (0 + 8) (halves3 X))) by (change (lows (0 + 8) (halves3 X)) with (lows 0 (halves3 X)); now rewrite LH).
  rewrite (@dec_rounds3 8 0) by (auto using repeat_length; now apply bounded3). reflexivity.
Qed.
Lemma ff3_perm X : length X = n -> numerals r X ->
  (exists Y, length Y = n /\ numerals r Y /\ ff3_encrypt aes c (written X) tw = Ok (written Y) /\ ff3_decrypt aes c (written Y) tw = Ok (written X)) /\
  (exists Y, length Y = n /\ numerals r Y /\ ff3_decrypt aes c (written X) tw = Ok (written Y) /\ ff3_encrypt aes c (written Y) tw = Ok (written X)).
Proof.
  intros L NX. pose proof (bounded3 L NX) as HB. split.
  - assert (B' := @run_bounded U V upos3 vpos3 G 8 0 _ HB). change (bounded U V 0 (fold_left (fe U V G) (seq 0 8) (halves3 X))) in B'.
    destruct (halves_join3 B') as (Y & J & LY & NY & HY). exists Y. split; auto. split; auto. rewrite encrypt3_eq, J by auto. split; auto.
    rewrite decrypt3_eq by auto. rewrite HY. rewrite (@unrun_run U V upos3 vpos3 G 8 0 _ HB). now rewrite join_halves3.
  - assert (B' := @unrun_bounded U V upos3 vpos3 G 8 0 _ HB).
    destruct (halves_join3 B') as (Y & J & LY & NY & HY). exists Y. split; auto. split; auto. rewrite decrypt3_eq, J by auto. split; auto.
    rewrite encrypt3_eq by auto. rewrite HY. rewrite (@run_unrun U V upos3 vpos3 G 8 0 _ HB). now rewrite join_halves3.
Qed.
Lemma spec_rounds3 k : forall i A B, numerals r A -> numerals r B -> length A = wid i -> length B = wid (S i) ->
  written (f3_rounds (aes (f3Key c)) r tw n (seq i k) A B) =
  let ab := lows (i + k) (fold_left (fe U V G) (seq i k) (num r (rev A), num r (rev B))) in fst ab ++ snd ab.
Proof.
  unfold radix_ok in R. induction k as [|k IH]; intros i A B NA NB LA LB.
  - cbn [seq f3_rounds fold_left]. cbn zeta. rewrite Nat.add_0_r. unfold lows. cbn [fst snd]. rewrite !low_num by auto. unfold written. apply map_app.
  - cbn [seq f3_rounds fold_left]. fold u v. fold (wid i). cbn zeta. rewrite IH; auto.
    + cbn zeta. replace (i + S k)%nat with (S i + k)%nat by lia.
      replace (fe U V G (num r (rev A), num r (rev B)) i) with (num r (rev B), (num r (rev A) + G i (num r (rev B))) mod modulus U V i) by reflexivity.
      rewrite rev_involutive, num_str by lia. rewrite wid_mod.
      rewrite Z.mod_mod by (pose proof (@modulus_pos U V upos3 vpos3 i); lia). reflexivity.
    + apply numerals_rev, str_numerals. lia.
    + rewrite rev_length, str_length. reflexivity.
Qed.
Lemma ff3_spec X : length X = n -> numerals r X -> ff3_encrypt aes c (written X) tw = Ok (written (FF3_encrypt (aes (f3Key c)) r tw n X)).
Proof.
  intros L NX. rewrite encrypt3_eq by auto. f_equal. unfold FF3_encrypt. fold u. destruct (parts3 NX) as [N3 N4]. pose proof uv3.
  rewrite spec_rounds3; auto; rewrite ?firstn_length, ?skipn_length; unfold wid; cbn [Nat.even]; lia.
Qed.
End ff3.
