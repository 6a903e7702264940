(** Proofs about the password hashes: base64, decimal numbers, splitting. *)
From Coq Require Import String.
From Verif Require Import Base BigModel WordLib CcmProofs ToolBytesProofs BencodeSpec BencodeModel BencodeProofs PwModel PwSpec.
Set Implicit Arguments. Unset Strict Implicit.
Local Open Scope Z_scope.

Lemma ind3 (Q : bytes -> Prop) : Q [] -> (forall a, Q [a]) -> (forall a b, Q [a; b]) -> (forall a b c t, Q t -> Q (a :: b :: c :: t)) -> forall l, Q l.
Proof. intros H0 H1 H2 H3. fix F 1. intros [|a [|b [|c t]]]; [exact H0|exact (H1 a)|exact (H2 a b)|exact (H3 a b c t (F t))]. Qed.
Lemma ind4 (Q : bytes -> Prop) : (forall l, (List.length l < 4)%nat -> Q l) -> (forall a b c d t, Q t -> Q (a :: b :: c :: d :: t)) -> forall l, Q l.
Proof. intros H0 H1. fix F 1. intros [|a [|b [|c [|d t]]]]; [apply H0; cbn; lia..|]. apply H1. apply F. Qed.
Ltac euc := Z.to_euclidean_division_equations; lia.

Lemma alphabet_spec : alphabet = b64_alphabet.
Proof. reflexivity. Qed.
Definition plain_char (c : Z) : Prop := c <> 10 /\ c <> 13 /\ c <> 36 /\ c <> 61 /\ c <> 44.
Lemma dec_enc v : 0 <= v < 64 -> dec_char (enc_char v) = Some v.
Proof.
  intros H. assert (T : allz (fun v => match dec_char (enc_char v) with Some w => w =? v | None => false end) 64 0 = true) by (vm_compute; reflexivity).
  pose proof (allz_spec T (y := v) ltac:(lia)) as E. cbn beta in E. destruct (dec_char (enc_char v)); [|discriminate]. apply Z.eqb_eq in E. congruence.
Qed.
Lemma enc_plain v : 0 <= v < 64 -> plain_char (enc_char v).
Proof.
  intros H. assert (T : allz (fun v => let c := enc_char v in negb ((c =? 10) || (c =? 13) || (c =? 36) || (c =? 61) || (c =? 44))) 64 0 = true) by (vm_compute; reflexivity).
  pose proof (allz_spec T (y := v) ltac:(lia)) as E. cbn beta zeta in E. unfold plain_char. lia.
Qed.
Lemma index_of_inv c l : forall i v, index_of c l i = Some v -> i <= v < i + Z.of_nat (List.length l) /\ nth (Z.to_nat (v - i)) l 0 = c.
Proof.
  induction l as [|x l IH]; intros i v; cbn [index_of List.length]; [discriminate|]. destruct (Z.eqb_spec c x) as [->|N].
  - intros [= <-]. rewrite Z.sub_diag. split; [lia|reflexivity].
  - intros H. apply IH in H. destruct H as [B E]. split; [lia|]. replace (Z.to_nat (v - i)) with (S (Z.to_nat (v - (i + 1)))) by lia. exact E.
Qed.
Lemma dec_inv c v : dec_char c = Some v -> 0 <= v < 64 /\ enc_char v = c.
Proof. intros H. apply index_of_inv in H. change (Z.of_nat (List.length alphabet)) with 64 in H. rewrite Z.sub_0_r in H. destruct H as [B E]. split; [lia|exact E]. Qed.

Lemma b64enc_plain l : bytes_ok l -> Forall plain_char (b64enc false l).
Proof.
  induction l as [|a|a b|a b c t IH] using ind3; intros O; cbn [b64enc].
  - constructor.
  - inversion_clear O as [|? ? Ha O1]. red in Ha. repeat (apply Forall_cons; [apply enc_plain; euc|]). constructor.
  - inversion_clear O as [|? ? Ha O1]. inversion_clear O1 as [|? ? Hb O2]. red in Ha, Hb. repeat (apply Forall_cons; [apply enc_plain; euc|]). constructor.
  - inversion_clear O as [|? ? Ha O1]. inversion_clear O1 as [|? ? Hb O2]. inversion_clear O2 as [|? ? Hc O3]. red in Ha, Hb, Hc. repeat (apply Forall_cons; [apply enc_plain; euc|]). now apply IH.
Qed.
Lemma no_newline_plain l : Forall plain_char l -> no_newline l = l.
Proof. induction 1 as [|c l H F IH]; [reflexivity|]. cbn. destruct H as (N1 & N2 & _). destruct (Z.eqb_spec c 10); [lia|]. destruct (Z.eqb_spec c 13); [lia|]. cbn. now rewrite <- IH at 2. Qed.
Lemma quad_enc a b c : is_byte a -> is_byte b -> is_byte c -> quad (a / 4) (a mod 4 * 16 + b / 16) (b mod 16 * 4 + c / 64) (c mod 64) = [a; b; c].
Proof. unfold is_byte, quad. intros Ha Hb Hc. f_equal; [euc|]. f_equal; [euc|]. f_equal. euc. Qed.
Lemma raw_enc_go l : bytes_ok l -> b64raw_go (b64enc false l) = l.
Proof.
  induction l as [|a|a b|a b c t IH] using ind3; intros O; cbn [b64enc b64raw_go].
  - reflexivity.
  - inversion_clear O as [|? ? Ha O1]. red in Ha. rewrite !dec_enc by euc. pose proof (@quad_enc a 0 0 Ha ltac:(red; lia) ltac:(red; lia)) as Q. cbn -[Z.mul Z.div Z.modulo Z.add] in Q |- *. f_equal. euc.
  - inversion_clear O as [|? ? Ha O1]. inversion_clear O1 as [|? ? Hb O2]. red in Ha, Hb. rewrite !dec_enc by euc. unfold quad. cbn -[Z.mul Z.div Z.modulo Z.add]. f_equal; [euc|]. f_equal. euc.
  - inversion_clear O as [|? ? Ha O1]. inversion_clear O1 as [|? ? Hb O2]. inversion_clear O2 as [|? ? Hc O3]. rewrite !dec_enc by (red in Ha, Hb, Hc; euc). rewrite quad_enc by assumption. cbn [app]. now rewrite IH.
Qed.
Lemma raw_enc l : bytes_ok l -> b64raw (b64enc false l) = l.
Proof. intros O. unfold b64raw. rewrite no_newline_plain by now apply b64enc_plain. now apply raw_enc_go. Qed.

(** base64 as a number *)
Lemma digits64_cong m v w : v mod 64 ^ Z.of_nat m = w mod 64 ^ Z.of_nat m -> digits64 m v = digits64 m w.
Proof.
  revert v w. induction m as [|m IH]; intros v w H; [reflexivity|]. cbn [digits64]. assert (P : 0 < 64 ^ Z.of_nat m) by (apply Z.pow_pos_nonneg; lia).
  replace (Z.of_nat (S m)) with (Z.of_nat m + 1) in H by lia. rewrite Z.pow_add_r, Z.pow_1_r in H by lia.
  assert (K : forall x, x mod (64 ^ Z.of_nat m * 64) = 64 ^ Z.of_nat m * ((x / 64 ^ Z.of_nat m) mod 64) + x mod 64 ^ Z.of_nat m) by (intros x; rewrite Z.rem_mul_r by lia; lia).
  rewrite !K in H. pose proof (Z.mod_pos_bound v (64 ^ Z.of_nat m) P). pose proof (Z.mod_pos_bound w (64 ^ Z.of_nat m) P). 
  destruct (Z.div_mod_unique _ _ _ _ _ (or_introl H0) (or_introl H1) H) as [Q R]. rewrite Q. f_equal. now apply IH.
Qed.
Lemma digits64_S m d v : 0 <= d < 64 -> 0 <= v < 64 ^ Z.of_nat m -> digits64 (S m) (d * 64 ^ Z.of_nat m + v) = enc_char d :: digits64 m v.
Proof.
  intros Hd Hv. cbn [digits64]. rewrite Z.div_add_l, (Z.div_small v) by lia. rewrite Z.add_0_r, Z.mod_small by lia. f_equal. apply digits64_cong. rewrite Z.add_comm. apply Z_mod_plus_full.
Qed.
Lemma b64enc_spec l : bytes_ok l -> b64enc false l = base64 l.
Proof.
  induction l as [|a|a b|a b c t IH] using ind3; intros O.
  - reflexivity.
  - inversion_clear O as [|? ? Ha O1]. red in Ha. unfold base64. cbn [List.length]. change (Nat.div (8 * 1 + 5) 6) with 2%nat. change (2 ^ (6 * Z.of_nat 2 - 8 * Z.of_nat 1)) with 16.
    replace (be_val [a] * 16) with ((a / 4) * 64 ^ Z.of_nat 1 + ((a mod 4 * 16) * 64 ^ Z.of_nat 0 + 0)) by (rewrite be_val_cons; unfold be_val; cbn -[Z.mul Z.div Z.modulo Z.add]; euc).
    rewrite digits64_S; [|euc|cbn -[Z.mul Z.div Z.modulo Z.add]; euc]. rewrite digits64_S; [|euc|cbn; lia]. reflexivity.
  - inversion_clear O as [|? ? Ha O1]. inversion_clear O1 as [|? ? Hb O2]. red in Ha, Hb. unfold base64. cbn [List.length]. change (Nat.div (8 * 2 + 5) 6) with 3%nat. change (2 ^ (6 * Z.of_nat 3 - 8 * Z.of_nat 2)) with 4.
    replace (be_val [a; b] * 4) with ((a / 4) * 64 ^ Z.of_nat 2 + ((a mod 4 * 16 + b / 16) * 64 ^ Z.of_nat 1 + ((b mod 16 * 4) * 64 ^ Z.of_nat 0 + 0)))
      by (rewrite !be_val_cons; unfold be_val; cbn -[Z.mul Z.div Z.modulo Z.add]; euc).
    rewrite digits64_S; [|euc|cbn -[Z.mul Z.div Z.modulo Z.add]; euc]. rewrite digits64_S; [|euc|cbn -[Z.mul Z.div Z.modulo Z.add]; euc]. rewrite digits64_S; [|euc|cbn; lia]. reflexivity.
  - inversion_clear O as [|? ? Ha O1]. inversion_clear O1 as [|? ? Hb O2]. inversion_clear O2 as [|? ? Hc O3]. red in Ha, Hb, Hc. cbn [b64enc]. rewrite (IH O3). clear IH. unfold base64. cbn [List.length]. set (n := List.length t).
    set (m := Nat.div (8 * n + 5) 6). replace (Nat.div (8 * S (S (S n)) + 5) 6) with (4 + m)%nat by (unfold m; replace (8 * S (S (S n)) + 5)%nat with (4 * 6 + (8 * n + 5))%nat by lia; rewrite Nat.div_add_l by lia; reflexivity).
    assert (Hm : 8 * Z.of_nat n <= 6 * Z.of_nat m) by (unfold m; pose proof (Nat.div_mod (8 * n + 5) 6 ltac:(lia)); pose proof (Nat.mod_upper_bound (8 * n + 5) 6 ltac:(lia)); lia).
    replace (6 * Z.of_nat (4 + m) - 8 * Z.of_nat (S (S (S n)))) with (6 * Z.of_nat m - 8 * Z.of_nat n) by lia. set (k := 2 ^ (6 * Z.of_nat m - 8 * Z.of_nat n)).
    assert (E : 256 ^ Z.of_nat n * k = 64 ^ Z.of_nat m). { unfold k. change 256 with (2 ^ 8). change 64 with (2 ^ 6). rewrite <- !Z.pow_mul_r by lia. rewrite <- Z.pow_add_r by lia. f_equal. lia. }
    pose proof (be_val_bound O3) as B. fold n in B. assert (Kp : 0 < k) by (apply Z.pow_pos_nonneg; lia). assert (Bv : 0 <= be_val t * k < 64 ^ Z.of_nat m) by nia.
    assert (V : be_val (a :: b :: c :: t) * k = (a / 4) * 64 ^ Z.of_nat (3 + m) + ((a mod 4 * 16 + b / 16) * 64 ^ Z.of_nat (2 + m) + ((b mod 16 * 4 + c / 64) * 64 ^ Z.of_nat (1 + m) + ((c mod 64) * 64 ^ Z.of_nat m + be_val t * k)))).
    { rewrite !be_val_cons. cbn [List.length]. fold n. replace (Z.of_nat (S (S n))) with (2 + Z.of_nat n) by lia. replace (Z.of_nat (S n)) with (1 + Z.of_nat n) by lia. rewrite !Nat2Z.inj_add, !Z.pow_add_r by lia.
      change (256 ^ 2) with 65536. change (256 ^ 1) with 256. change (64 ^ Z.of_nat 3) with 262144. change (64 ^ Z.of_nat 2) with 4096. change (64 ^ Z.of_nat 1) with 64. rewrite <- E.
      replace (((a * (65536 * 256 ^ Z.of_nat n) + (b * (256 * 256 ^ Z.of_nat n) + (c * 256 ^ Z.of_nat n + be_val t))) * k)) with ((a * 65536 + b * 256 + c) * (256 ^ Z.of_nat n * k) + be_val t * k) by ring.
      replace (a * 65536 + b * 256 + c) with ((a / 4) * 262144 + (a mod 4 * 16 + b / 16) * 4096 + (b mod 16 * 4 + c / 64) * 64 + c mod 64) by euc. ring. }
    rewrite V. set (w := 64 ^ Z.of_nat m) in *. assert (Wp : 0 < w) by (apply Z.pow_pos_nonneg; lia).
    assert (P3 : forall j, 64 ^ Z.of_nat (j + m) = 64 ^ Z.of_nat j * w) by (intros j; unfold w; rewrite Nat2Z.inj_add, Z.pow_add_r by lia; reflexivity).
    assert (D1 : 0 <= a mod 4 * 16 + b / 16 < 64) by euc. assert (D2 : 0 <= b mod 16 * 4 + c / 64 < 64) by euc. assert (D3 : 0 <= c mod 64 < 64) by euc. assert (D0 : 0 <= a / 4 < 64) by euc.
    set (d0 := a / 4) in *. set (d1 := a mod 4 * 16 + b / 16) in *. set (d2 := b mod 16 * 4 + c / 64) in *. set (d3 := c mod 64) in *. set (v := be_val t * k) in *.
    assert (B3 : 0 <= d3 * w + v < 64 ^ Z.of_nat (1 + m)) by (rewrite P3; change (64 ^ Z.of_nat 1) with 64; nia).
    assert (B2 : 0 <= d2 * 64 ^ Z.of_nat (1 + m) + (d3 * w + v) < 64 ^ Z.of_nat (2 + m)) by (rewrite !P3 in *; change (64 ^ Z.of_nat 1) with 64 in *; change (64 ^ Z.of_nat 2) with 4096; nia).
    assert (B1 : 0 <= d1 * 64 ^ Z.of_nat (2 + m) + (d2 * 64 ^ Z.of_nat (1 + m) + (d3 * w + v)) < 64 ^ Z.of_nat (3 + m)) by (rewrite !P3 in *; change (64 ^ Z.of_nat 1) with 64 in *; change (64 ^ Z.of_nat 2) with 4096 in *; change (64 ^ Z.of_nat 3) with 262144; nia).
    change (4 + m)%nat with (S (3 + m)). rewrite digits64_S by assumption. change (3 + m)%nat with (S (2 + m)) at 1. rewrite digits64_S by assumption. change (2 + m)%nat with (S (1 + m)) at 1. rewrite digits64_S by assumption.
    change (1 + m)%nat with (S m) at 1. unfold w. rewrite digits64_S by assumption. reflexivity.
Qed.

(** splitting *)
Lemma split_app sep a b : ~ In sep a -> split sep (a ++ sep :: b) = a :: split sep b.
Proof.
  induction a as [|c a IH]; intros N; cbn [app split]; [now rewrite Z.eqb_refl|]. destruct (Z.eqb_spec c sep) as [->|]; [exfalso; apply N; now left|]. rewrite IH; [reflexivity|]. intros I. apply N. now right.
Qed.
Lemma split_last sep a : ~ In sep a -> split sep a = [a].
Proof. induction a as [|c a IH]; intros N; cbn [split]; [reflexivity|]. destruct (Z.eqb_spec c sep) as [->|]; [exfalso; apply N; now left|]. rewrite IH; [reflexivity|]. intros I. apply N. now right. Qed.

(** numbers *)
Lemma digits_ge s : forall acc z, 0 <= acc -> digits acc s = Some z -> acc <= z.
Proof.
  induction s as [|c s IH]; intros acc z Ha H; cbn [digits] in H; [injection H as <-; lia|]. destruct ((48 <=? c) && (c <=? 57))%bool eqn:E; [|discriminate]. apply IH in H; lia.
Qed.
Lemma scan_digits s : forall acc z, 0 <= acc -> digits acc s = Some z -> z < 2 ^ 64 -> scan_uint acc s = Some z.
Proof.
  induction s as [|c s IH]; intros acc z Ha H B; cbn [digits scan_uint] in *; [exact H|]. destruct ((48 <=? c) && (c <=? 57))%bool eqn:E; [|discriminate]. cbv zeta.
  pose proof (@digits_ge s (acc * 10 + (c - 48)) z ltac:(lia) H). destruct (Z.leb_spec (2 ^ 64) (acc * 10 + (c - 48))); [lia|]. apply IH; [lia|exact H|exact B].
Qed.
Lemma decimal_pos_form z : 0 <= z -> exists c r, decimal z = c :: r /\ 48 <= c <= 57 /\ digits 0 (decimal z) = Some z.
Proof.
  intros Hz. destruct (decimal_nat_hd (Z.to_nat z)) as (c & r & E & D). rewrite Z2Nat.id in E by lia. unfold is_digit in D. exists c, r. split; [exact E|]. split; [lia|].
  destruct (num_complete z) as [_ H]. rewrite E in H |- *. cbn [parse_int] in H. destruct (Z.eqb_spec c 43); [lia|]. destruct (Z.eqb_spec c 45); [lia|]. exact H.
Qed.
Lemma atoi_decimal z : 0 <= z < 2 ^ 63 -> atoi (decimal z) = z.
Proof.
  intros B. destruct (@decimal_pos_form z ltac:(lia)) as (c & r & E & D & G). unfold atoi. rewrite E. destruct (Z.eqb_spec c 45); [lia|]. destruct (Z.eqb_spec c 43); [lia|]. unfold uint_of.
  rewrite E in G. rewrite (@scan_digits (c :: r) 0 z ltac:(lia) G) by lia. rewrite Z.min_l by lia. reflexivity.
Qed.
Lemma decimal_not c z : c <> 45 -> ~ (48 <= c <= 57) -> ~ In c (decimal z).
Proof. intros N1 N2 I. pose proof (proj1 (Forall_forall _ _) (decimal_chars z) c I) as H. cbn in H. lia. Qed.
Lemma b64_not c l : bytes_ok l -> c = 36 \/ c = 61 \/ c = 44 -> ~ In c (b64enc false l).
Proof. intros O H I. pose proof (proj1 (Forall_forall _ _) (b64enc_plain O) c I) as (_ & _ & N1 & N2 & N3). lia. Qed.

(** the padded decoder: a full-length result means that the text is the encoding *)
Lemma quad_inv w x y z : 0 <= w < 64 -> 0 <= x < 64 -> 0 <= y < 64 -> 0 <= z < 64 ->
  exists a b c, quad w x y z = [a; b; c] /\ is_byte a /\ is_byte b /\ is_byte c /\ w = a / 4 /\ x = a mod 4 * 16 + b / 16 /\ y = b mod 16 * 4 + c / 64 /\ z = c mod 64.
Proof. intros Hw Hx Hy Hz. do 3 eexists. split; [reflexivity|]. unfold is_byte. repeat split; euc. Qed.
Lemma std_go_inv l : (4 * List.length (b64std_go l) <= 3 * List.length l)%nat /\ bytes_ok (b64std_go l) /\
  ((4 * List.length (b64std_go l) = 3 * List.length l)%nat -> l = b64enc false (b64std_go l)).
Proof.
  induction l as [l L|w x y z t (I1 & I2 & I3)] using ind4.
  - assert (E : b64std_go l = []) by (destruct l as [|? [|? [|? [|? ?]]]]; reflexivity || (cbn in L; lia)). rewrite E. cbn [List.length]. split; [lia|]. split; [constructor|]. intros H. destruct l; [reflexivity|cbn in H; lia].
  - cbn [b64std_go]. destruct (dec_char w) as [w'|] eqn:W; [|cbn; split; [lia|split; [constructor|lia]]]. destruct (dec_char x) as [x'|] eqn:X; [|cbn; split; [lia|split; [constructor|lia]]].
    destruct (dec_inv W) as [Bw Ew]. destruct (dec_inv X) as [Bx Ex]. destruct (dec_char y) as [y'|] eqn:Y.
    + destruct (dec_inv Y) as [By Ey]. destruct (dec_char z) as [z'|] eqn:Z'.
      * destruct (dec_inv Z') as [Bz Ez]. destruct (quad_inv Bw Bx By Bz) as (a & b & c & Q & Oa & Ob & Oc & E1 & E2 & E3 & E4). rewrite Q. cbn [app List.length]. split; [lia|]. split; [repeat (apply Forall_cons; [assumption|]); exact I2|].
        intros H. cbn [b64enc]. rewrite <- I3 by lia. rewrite <- E1, <- E2, <- E3, <- E4, Ew, Ex, Ey, Ez. reflexivity.
      * destruct (Z.eqb_spec z 61).
        -- destruct (quad_inv Bw Bx By (z := 0) ltac:(lia)) as (a & b & c & Q & Oa & Ob & Oc & _). rewrite Q. cbn [firstn List.length]. split; [lia|]. split; [repeat (apply Forall_cons; [assumption|]); constructor|lia].
        -- cbn; split; [lia|split; [constructor|lia]].
    + destruct ((y =? 61) && (z =? 61))%bool.
      * destruct (quad_inv Bw Bx (y := 0) ltac:(lia) (z := 0) ltac:(lia)) as (a & b & c & Q & Oa & Ob & Oc & _). rewrite Q. cbn [firstn List.length]. split; [lia|]. split; [repeat (apply Forall_cons; [assumption|]); constructor|lia].
      * cbn; split; [lia|split; [constructor|lia]].
Qed.
Lemma filter_le (f : Z -> bool) l : (List.length (filter f l) <= List.length l)%nat /\ (List.length (filter f l) = List.length l -> filter f l = l).
Proof. induction l as [|c l [I1 I2]]; cbn [filter List.length]; [split; auto|]. destruct (f c); cbn [List.length]; split; try lia. intros H. f_equal. apply I2. lia. Qed.
Lemma std_full l n : List.length l = (4 * n)%nat -> List.length (b64std l) = (3 * n)%nat -> l = b64enc false (b64std l) /\ bytes_ok (b64std l).
Proof.
  intros L D. unfold b64std in *. destruct (std_go_inv (no_newline l)) as (I1 & I2 & I3). destruct (filter_le (fun c => negb ((c =? 10) || (c =? 13))) l) as [F1 F2]. fold (no_newline l) in F1, F2.
  split; [|exact I2]. rewrite <- I3 by lia. symmetry. apply F2. lia.
Qed.
Lemma enc_pad_full l : forall n, List.length l = (3 * n)%nat -> b64enc true l = b64enc false l.
Proof. induction l as [|a|a b|a b c t IH] using ind3; intros n L; cbn [List.length] in L; [reflexivity|lia|lia|]. cbn [b64enc]. destruct n as [|n]; [lia|]. rewrite (IH n) by lia. reflexivity. Qed.
Lemma std_go_enc l : forall n, bytes_ok l -> List.length l = (3 * n)%nat -> b64std_go (b64enc false l) = l.
Proof.
  induction l as [|a|a b|a b c t IH] using ind3; intros n O L; cbn [List.length] in L; [reflexivity|lia|lia|].
  inversion_clear O as [|? ? Ha O1]. inversion_clear O1 as [|? ? Hb O2]. inversion_clear O2 as [|? ? Hc O3]. cbn [b64enc b64std_go]. rewrite !dec_enc by (red in Ha, Hb, Hc; euc). rewrite quad_enc by assumption. cbn [app]. destruct n as [|n]; [lia|]. rewrite (IH n); [reflexivity|exact O3|lia].
Qed.
Lemma std_enc l n : bytes_ok l -> List.length l = (3 * n)%nat -> b64std (b64enc false l) = l.
Proof. intros O L. unfold b64std. rewrite no_newline_plain by now apply b64enc_plain. now apply std_go_enc with n. Qed.
Lemma b64enc_len l : forall n, List.length l = (3 * n)%nat -> List.length (b64enc false l) = (4 * n)%nat.
Proof. induction l as [|a|a b|a b c t IH] using ind3; intros n L; cbn [List.length] in L; [cbn; lia|lia|lia|]. destruct n as [|n]; [lia|]. cbn [b64enc List.length]. rewrite (IH n) by lia. lia. Qed.
