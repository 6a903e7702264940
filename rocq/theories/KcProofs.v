(** The bit-cutting helpers and PPGF of kcdsa. *)
From Verif Require Import Base BigModel NumLib ElgProofs CurveModel CurveSpec EcSigProofs EcSigProofs2 KcModel KcSpec.
Set Implicit Arguments. Unset Strict Implicit.
Local Open Scope Z_scope.

Lemma byteceil_ge bits : (bits <= 8 * byteceil bits < bits + 8)%nat.
Proof. unfold byteceil. pose proof (Nat.div_mod (bits + 7) 8 ltac:(lia)). pose proof (Nat.mod_upper_bound (bits + 7) 8 ltac:(lia)). lia. Qed.
Lemma pow256 n : 256 ^ Z.of_nat n = 2 ^ (8 * Z.of_nat n).
Proof. rewrite Z.pow_mul_r by lia. reflexivity. Qed.
Lemma mod_mod_pow a m n : 0 <= m <= n -> (a mod 2 ^ n) mod 2 ^ m = a mod 2 ^ m.
Proof.
  intros H. pose proof (Z.pow_pos_nonneg 2 m ltac:(lia) ltac:(lia)). pose proof (Z.pow_pos_nonneg 2 (n - m) ltac:(lia) ltac:(lia)).
  replace (2 ^ n) with (2 ^ m * 2 ^ (n - m)) by (rewrite <- Z.pow_add_r by lia; f_equal; lia).
  rewrite Z.rem_mul_r by lia. rewrite Z.mul_comm, Z.mod_add by lia. apply Z.mod_mod; lia.
Qed.
Lemma okinj (A : Type) (x y : A) : Ok x = Ok y -> x = y.
Proof. intros E. now injection E. Qed.
Lemma bytes_ok_land b bits : bytes_ok b -> forall b', keep_bits bits b = Ok b' -> bytes_ok b' /\ length b' = length b.
Proof.
  intros Hb b'. unfold keep_bits. destruct (Nat.eqb _ 0); [intros E; injection E as <-; auto|]. destruct b as [|x t]; [discriminate|]. intros E. apply okinj in E. subst b'.
  apply Forall_inv in Hb as Hx. apply Forall_inv_tail in Hb as Ht. split; [|reflexivity]. constructor; [|exact Ht]. unfold is_byte in *.
  pose proof (@land_mask_le x (Z.of_nat (Nat.modulo bits 8)) ltac:(lia) ltac:(lia)). lia.
Qed.
Lemma keep_ok bits b : bytes_ok b -> length b = byteceil bits ->
  exists b', keep_bits bits b = Ok b' /\ bytes_ok b' /\ length b' = length b /\ be_val b' = be_val b mod 2 ^ Z.of_nat bits.
Proof.
  intros Hb Hl. pose proof (byteceil_ge bits) as G. pose proof (Nat.div_mod bits 8 ltac:(lia)) as D. pose proof (Nat.mod_upper_bound bits 8 ltac:(lia)) as M.
  pose proof (bytes_ok_land Hb (bits := bits)) as K. unfold keep_bits in *. destruct (Nat.eqb_spec (Nat.modulo bits 8) 0) as [E|E].
  - exists b. split; [reflexivity|]. split; [exact Hb|]. split; [reflexivity|]. pose proof (be_val_bound Hb) as B. rewrite pow256, Hl in B.
    replace (8 * Z.of_nat (byteceil bits)) with (Z.of_nat bits) in B by lia. now rewrite Z.mod_small.
  - destruct b as [|x t]; [cbn [length] in Hl; lia|]. eexists. split; [reflexivity|]. destruct (K _ eq_refl) as [K1 K2]. split; [exact K1|]. split; [exact K2|].
    change (x :: t) with ([x] ++ t). change (?y :: t) with ([y] ++ t). rewrite !be_val_app. cbn [length] in Hl.
    apply Forall_inv in Hb as Hx. apply Forall_inv_tail in Hb as Ht. pose proof (be_val_bound Ht) as Bt. rewrite pow256 in Bt |- *.
    assert (V1 : forall y, be_val [y] = y) by (intros; unfold be_val; cbn; lia). rewrite !V1. set (r := Z.of_nat (Nat.modulo bits 8)) in *. set (n := 8 * Z.of_nat (length t)) in *.
    replace (Z.of_nat bits) with (n + r) by lia. pose proof (Z.pow_pos_nonneg 2 n ltac:(lia) ltac:(lia)). pose proof (Z.pow_pos_nonneg 2 r ltac:(lia) ltac:(lia)).
    replace (2 ^ r - 1) with (Z.ones r) by (rewrite Z.ones_equiv; lia). rewrite Z.land_ones by lia. rewrite Z.pow_add_r by lia.
    rewrite Z.rem_mul_r by lia. rewrite (Z.add_comm (x * 2 ^ n)), Z.mod_add, Z.div_add, (Z.mod_small (be_val t)), (Z.div_small (be_val t)) by lia. cbn [Z.add]. lia.
Qed.
Lemma right_ok bits b : bytes_ok b -> (Nat.modulo bits 8 = 0 \/ byteceil bits <= length b)%nat ->
  exists b', right_most b bits = Ok b' /\ bytes_ok b' /\ length b' = Nat.min (byteceil bits) (length b) /\ be_val b' = be_val b mod 2 ^ Z.of_nat bits.
Proof.
  intros Hb Hl. pose proof (byteceil_ge bits) as G. unfold right_most. destruct (Nat.leb_spec (byteceil bits) (length b)) as [L|L].
  - destruct (@keep_ok bits (skipn (length b - byteceil bits) b) (bytes_ok_skipn _ Hb)) as (b' & E & O & N & V).
    { rewrite skipn_length. lia. }
    exists b'. rewrite E. split; [reflexivity|]. split; [exact O|]. rewrite N, skipn_length. split; [lia|]. rewrite V, be_val_skipn by (auto; lia).
    rewrite pow256. apply mod_mod_pow. lia.
  - destruct Hl as [E|]; [|lia]. pose proof (Nat.div_mod bits 8 ltac:(lia)) as D. exists b. unfold keep_bits. rewrite E. cbn [Nat.eqb]. split; [reflexivity|].
    split; [exact Hb|]. split; [lia|]. pose proof (be_val_bound Hb) as B. rewrite pow256 in B. symmetry. apply Z.mod_small. split; [lia|].
    eapply Z.lt_le_trans; [apply B|]. apply Z.pow_le_mono_r; lia.
Qed.
Lemma read_bits_ok bits rd b rd' : bytes_ok rd -> read_bits bits rd = Ok (b, rd') ->
  bytes_ok b /\ bytes_ok rd' /\ length b = byteceil bits /\ 0 <= be_val b < 2 ^ Z.of_nat bits.
Proof.
  intros Hrd. unfold read_bits. destruct (read_full _ rd) as [[b0 r0]| |] eqn:E; try discriminate. cbn [rbind fst snd]. apply read_full_ok in E; [|exact Hrd].
  destruct E as (L & O & R & _). destruct (@keep_ok bits b0 O L) as (b' & -> & O' & N & V). cbn [rbind]. intros E. injection E as <- <-.
  split; [exact O'|]. split; [exact R|]. split; [congruence|]. rewrite V. apply Z.mod_pos_bound. apply Z.pow_pos_nonneg; lia.
Qed.
Lemma read_bits_np bits rd : read_bits bits rd <> Panic.
Proof.
  unfold read_bits, read_full. destruct (Nat.leb_spec (byteceil bits) (length rd)) as [L|]; cbn [rbind fst snd]; [|discriminate].
  unfold keep_bits. destruct (Nat.eqb_spec (Nat.modulo bits 8) 0) as [|E]; [discriminate|]. destruct (firstn (byteceil bits) rd) as [|x t] eqn:F; [|discriminate].
  pose proof (firstn_length_le rd L) as FL. rewrite F in FL. cbn [length] in FL. pose proof (byteceil_ge bits). assert (bits = 0%nat) by lia. subst bits. now elim E.
Qed.

(** PPGF *)
Section ppgf.
Variable h : hasher.
Hypothesis Hh : hasher_ok h.
Hypothesis Hs : (0 < hsize h)%nat.
Definition blk (src : bytes) (j : nat) : bytes := hsum h (src ++ [Z.of_nat j mod 256]).
Definition blks (src : bytes) (j m : nat) : bytes := concat (map (blk src) (rev (seq j m))).
Lemma blk_len src j : length (blk src j) = hsize h. Proof. apply Hh. Qed.
Lemma blks_S src j m : blks src j (S m) = blks src (S j) m ++ blk src j.
Proof. unfold blks. cbn [seq rev]. rewrite map_app, concat_app. cbn. now rewrite app_nil_r. Qed.
Lemma blks_len src m : forall j, length (blks src j m) = (m * hsize h)%nat.
Proof. induction m; intros j; [reflexivity|]. rewrite blks_S, app_length, IHm, blk_len. lia. Qed.
Lemma blks_ok src m : forall j, bytes_ok (blks src j m).
Proof. induction m; intros j; [constructor|]. rewrite blks_S. apply Forall_app. split; [apply IHm|apply Hh]. Qed.
Lemma loop_ok src : forall fuel i j dst m, (i < fuel)%nat -> (i <= length dst)%nat -> (i <= m * hsize h)%nat ->
  ppgf_loop fuel h src i j dst = skipn (m * hsize h - i) (blks src j m) ++ skipn i dst.
Proof.
  induction fuel as [|f IH]; intros i j dst m Hf Hd Hm; [lia|]. cbn [ppgf_loop].
  change (hsum h (src ++ [to_byte (Z.of_nat j)])) with (blk src j). pose proof (blk_len src j) as Lb.
  destruct (Nat.leb_spec (hsize h) i) as [L|L].
  - destruct m as [|m]; [lia|]. rewrite blks_S. pose proof (blks_len src m (S j)) as Lm. cbn [Nat.mul] in Hm.
    rewrite firstn_all2 by lia. set (i' := (i - hsize h)%nat) in *.
    assert (E : splice i' (blk src j) dst = firstn i' dst ++ blk src j ++ skipn i dst).
    { unfold splice. rewrite Lb. replace (i' + hsize h)%nat with i by lia. now rewrite <- ?app_assoc. }
    rewrite E. replace (S m * hsize h - i)%nat with (m * hsize h - i')%nat by (cbn [Nat.mul]; lia).
    rewrite skipn_app, Lm. replace (m * hsize h - i' - m * hsize h)%nat with 0%nat by lia. rewrite skipn_O.
    destruct (Nat.eqb_spec i' 0) as [E0|E0].
    + rewrite E0, Nat.sub_0_r, (skipn_all2 (blks src (S j) m)) by lia. reflexivity.
    + rewrite (IH i' (S j) _ m) by (rewrite ?app_length, ?firstn_length; lia). rewrite <- app_assoc. f_equal.
      rewrite skipn_app_exact by (rewrite firstn_length; lia). reflexivity.
  - rewrite Lb. unfold gocopy. rewrite firstn_all2 by (rewrite skipn_length; lia). rewrite skipn_length, Lb. replace (hsize h - (hsize h - i))%nat with i by lia.
    f_equal. destruct m as [|m].
    + assert (i = 0%nat) by lia. subst i. rewrite Nat.sub_0_r, skipn_all2 by lia. reflexivity.
    + rewrite blks_S, skipn_app, blks_len, (skipn_all2 (blks src (S j) m)) by (rewrite blks_len; cbn [Nat.mul]; lia). cbn [app]. f_equal. cbn [Nat.mul]. lia.
Qed.
Lemma ppgf_ok dst bits src : length dst = byteceil bits ->
  exists b, ppgf dst bits h src = Ok b /\ bytes_ok b /\ length b = byteceil bits /\ be_val b = ppgf_value (hsum h) (hsize h) src bits.
Proof.
  intros Hd. unfold ppgf. set (m := S (bits / (8 * hsize h))). pose proof (byteceil_ge bits) as G.
  assert (Hm : (byteceil bits <= m * hsize h)%nat).
  { pose proof (Nat.div_mod bits (8 * hsize h) ltac:(lia)) as D. pose proof (Nat.mod_upper_bound bits (8 * hsize h) ltac:(lia)) as M.
    unfold m. cbn [Nat.mul]. set (d := (bits / (8 * hsize h))%nat) in *. assert (8 * hsize h * d = 8 * (d * hsize h))%nat by ring. lia. }
  rewrite (@loop_ok src (S (byteceil bits)) (byteceil bits) 0 dst m) by lia. rewrite (skipn_all2 dst) by lia. rewrite app_nil_r.
  pose proof (blks_len src m 0) as Lm. pose proof (blks_ok src m 0) as Om.
  destruct (@right_ok bits (skipn (m * hsize h - byteceil bits) (blks src 0 m)) (bytes_ok_skipn _ Om)) as (b & E & O & L & V).
  { right. rewrite skipn_length, Lm. lia. }
  exists b. split; [exact E|]. split; [exact O|]. split; [rewrite L, skipn_length, Lm; lia|]. rewrite V. rewrite <- Lm, be_val_skipn by (auto; lia). rewrite pow256, mod_mod_pow by lia. reflexivity.
Qed.
End ppgf.
