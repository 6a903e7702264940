(** C142-C146: RSA encryption with either key, the block loop and the unpadded variant. *)
From Coq Require Import Znumtheory.
From Verif Require Import Base BigModel NumLib CcmProofs ElgProofs EcSigProofs EcSigProofs2 SrProofs2 KcProofs ToolBytesProofs DhProps DhSpec RsaModel RsaSpec RsaProofs RsaProofs2 RsaProofs3.
Set Implicit Arguments. Unset Strict Implicit.
Local Open Scope Z_scope.

(** C142: with any valid key, any precomputed values and any reader, the private operation is c^d mod N or the reader's error *)
Theorem C142_rsa_private_operation k c rd : valid_priv k -> bytes_ok rd -> 0 <= c <= rN (rpub k) ->
  rsa_decrypt rd k c = Err \/ exists rd', rsa_decrypt rd k c = Ok (c ^ rD k mod rN (rpub k), rd').
Proof. intros W O B. destruct (decrypt_ok W O B) as [H|(rd' & H & _)]; [now left|right; eauto]. Qed.
Theorem C142_rsa_private_too_large k c rd : rN (rpub k) < c -> rsa_decrypt rd k c = Err.
Proof. intros H. unfold rsa_decrypt. cbv zeta. destruct (Z.ltb_spec (rN (rpub k)) c); [reflexivity|lia]. Qed.
(** the two operations undo each other on every number below N *)
Theorem C142_rsa_key_equation n e d primes m : valid_key n e d primes -> 0 <= m < n ->
  (m ^ e mod n) ^ d mod n = m /\ (m ^ d mod n) ^ e mod n = m.
Proof. intros V B. rewrite (key_power' V), (key_power_inv V). rewrite Z.mod_small by lia. auto. Qed.
(** the blinding only fails when the reader runs out: a first draw prime to N is enough *)
Theorem C142_rsa_blinding_enough N r rd : 1 < N -> 0 < r < N -> Z.gcd r N = 1 ->
  exists ir, blinding N (be_bytes (byteceil (bitlen (N - 1))) r ++ rd) = Ok (r, ir, rd) /\ (r * ir) mod N = 1.
Proof.
  intros HN B G. set (n := byteceil (bitlen (N - 1))). assert (BL : bitlen (N - 1) <> 0%nat) by (pose proof (@bitlen_pos (N - 1) ltac:(lia)); lia).
  assert (R : rand_int N (be_bytes n r ++ rd) = Ok (r, rd)).
  { unfold rand_int. destruct (Z.leb_spec N 0); [lia|]. destruct (Nat.eqb_spec (bitlen (N - 1)) 0); [contradiction|]. fold n. unfold until. cbn [retry]. unfold read_full. rewrite app_length, be_bytes_length.
    destruct (Nat.leb_spec n (n + length rd)); [|lia]. cbn [rbind fst snd].
    assert (F1 : firstn n (be_bytes n r ++ rd) = be_bytes n r).
    { rewrite firstn_app, be_bytes_length, Nat.sub_diag, firstn_O, app_nil_r. apply firstn_all2. rewrite be_bytes_length. lia. }
    assert (F2 : skipn n (be_bytes n r ++ rd) = rd).
    { rewrite skipn_app, be_bytes_length, Nat.sub_diag. rewrite skipn_all2 by (rewrite be_bytes_length; lia). reflexivity. }
    rewrite F1, F2. assert (M : mask_top (bitlen (N - 1)) (be_bytes n r) = be_bytes n r).
    { destruct (be_bytes n r) as [|x t] eqn:E; [reflexivity|]. unfold mask_top. f_equal. set (e := Nat.modulo (bitlen (N - 1)) 8). set (e' := if Nat.eqb e 0 then 8%nat else e).
      pose proof (be_bytes_ok n r) as O. pose proof (be_bytes_length n r) as L. rewrite E in O, L. cbn [length] in L. inversion_clear O as [|? ? Hx Ot].
      destruct (bitlen_bound (N - 1)) as [[_ Hb]|]; [|lia]. pose proof (byteceil_ge (bitlen (N - 1))) as Hc. fold n in Hc.
      assert (V : be_val (x :: t) = r). { rewrite <- E. apply be_val_fit. rewrite pow256. split; [lia|]. apply Z.lt_le_trans with (2 ^ Z.of_nat (bitlen (N - 1))); [lia|]. apply Z.pow_le_mono_r; lia. }
      rewrite be_val_cons in V. pose proof (be_val_bound Ot) as Bt.
      assert (He : (bitlen (N - 1) = 8 * length t + e')%nat).
      { unfold e'. pose proof (Nat.div_mod (bitlen (N - 1)) 8 ltac:(lia)) as DM. fold e in DM. pose proof (Nat.mod_upper_bound (bitlen (N - 1)) 8 ltac:(lia)) as MB. fold e in MB. destruct (Nat.eqb_spec e 0); lia. }
      assert (Xb : x < 2 ^ Z.of_nat e').
      { rewrite He in Hb. rewrite Nat2Z.inj_add, Z.pow_add_r in Hb by lia. replace (2 ^ Z.of_nat (8 * length t)) with (256 ^ Z.of_nat (length t)) in Hb by (rewrite pow256; f_equal; lia).
        set (w := 256 ^ Z.of_nat (length t)) in *. assert (0 < w) by (unfold w; apply Z.pow_pos_nonneg; lia). nia. }
      rewrite Z.sub_1_r, <- Z.ones_equiv, Z.land_ones by lia. apply Z.mod_small. destruct Hx. lia. }
    rewrite M. assert (V : be_val (be_bytes n r) = r). { apply be_val_fit. split; [lia|]. pose proof (@byteceil_bound (N - 1) ltac:(lia)) as Q. fold n in Q. lia. }
    rewrite V. destruct (Z.ltb_spec r N); [reflexivity|lia]. }
  unfold blinding, until. cbn [retry]. rewrite R. cbn [rbind fst snd]. destruct (Z.eqb_spec r 0); [lia|]. destruct (rsa_inverse r N) as [ir|] eqn:I; [|apply inverse_none in I; contradiction].
  exists ir. split; [reflexivity|]. apply inverse_some in I; [|lia|lia]. rewrite I. apply Z.mod_small. lia.
Qed.

(** C143: a message of at most k - 11 bytes comes back, from the public to the private key and from the private to the public *)
Theorem C143_rsa_public_roundtrip k msg rd : valid_priv k -> bytes_ok rd -> bytes_ok msg -> (length msg + 11 <= rsa_size (rN (rpub k)))%nat ->
  public_key_bytes (rpub k) msg true rd = Err \/
  exists c rd', public_key_bytes (rpub k) msg true rd = Ok (c, rd') /\ bytes_ok c /\ length c = rsa_size (rN (rpub k)) /\
    (exists b, is_block2 (rsa_size (rN (rpub k))) msg b /\ be_val c = be_val b ^ rE (rpub k) mod rN (rpub k)) /\
    forall rd2, private_key_bytes k c false rd2 = Ok (msg, rd2).
Proof.
  intros W O Om L. pose proof (key_pos (proj1 W)) as NP. pose proof (vk_e (proj1 W)) as HE. set (N := rN (rpub k)) in *. assert (EP : RsaPub N (rE (rpub k)) = rpub k) by (unfold N; now destruct (rpub k)).
  unfold public_key_bytes, rsa_bytes. fold N. cbv zeta. destruct (Nat.ltb_spec (rsa_size N) 11); [lia|]. destruct (Nat.leb_spec (length msg) (rsa_size N - 11)); [|lia].
  destruct (@std_encrypt_ok N (rE (rpub k)) msg rd NP ltac:(lia) O Om L) as [Er|(b & rd' & Er & Hb & _)]; rewrite EP in Er; [now left|right]. eexists _, rd'. split; [exact Er|].
  split; [apply be_bytes_ok|]. split; [apply be_bytes_length|]. split.
  - exists b. split; [exact Hb|]. apply be_val_fit. pose proof (Z.mod_pos_bound (be_val b ^ rE (rpub k)) N NP). destruct (size_bound NP). lia.
  - intros rd2. unfold private_key_bytes, rsa_bytes. fold N. rewrite be_bytes_length. rewrite Nat.leb_refl. unfold no_rand. unfold N in *. rewrite (std_decrypt_ok W Om L Hb). reflexivity.
Qed.
Theorem C143_rsa_private_roundtrip k msg rd : valid_priv k -> bytes_ok rd -> bytes_ok msg -> (length msg + 11 <= rsa_size (rN (rpub k)))%nat ->
  let c := be_bytes (rsa_size (rN (rpub k))) (be_val (block1 (rsa_size (rN (rpub k))) msg) ^ rD k mod rN (rpub k)) in
  (private_key_bytes k msg true rd = Err \/ exists rd', private_key_bytes k msg true rd = Ok (c, rd')) /\
  forall rd2, public_key_bytes (rpub k) c false rd2 = Ok (msg, rd2).
Proof.
  intros W O Om L c. split.
  - unfold private_key_bytes, rsa_bytes. destruct (Nat.ltb_spec (rsa_size (rN (rpub k))) 11); [lia|]. destruct (Nat.leb_spec (length msg) (rsa_size (rN (rpub k)) - 11)); [|lia].
    destruct (pri_encrypt_ok W O Om L) as [Hq|(rd' & Hq & _)]; [now left|right; eauto].
  - intros rd2. unfold public_key_bytes, rsa_bytes. unfold c at 1. rewrite be_bytes_length, Nat.leb_refl. unfold no_rand, c. rewrite (pub_decrypt_ok W Om L). reflexivity.
Qed.

(** C144: a longer message is cut into blocks of k - 11 bytes, but the result starts with k - 11 zero bytes that no block produced *)
Theorem C144_rsa_long_layout k msg rd : valid_priv k -> bytes_ok rd -> bytes_ok msg -> (12 <= rsa_size (rN (rpub k)))%nat -> (rsa_size (rN (rpub k)) - 11 < length msg)%nat ->
  let s := rsa_size (rN (rpub k)) in
  (public_key_bytes (rpub k) msg true rd = Err \/
   exists cs rd', public_key_bytes (rpub k) msg true rd = Ok (repeat 0 (s - 11) ++ concat cs, rd') /\
     Forall2 (fun b c => length c = s /\ std_decrypt k c = Ok b) (chunks (s - 11) msg) cs) /\
  (private_key_bytes k msg true rd = Err \/
   exists cs rd', private_key_bytes k msg true rd = Ok (repeat 0 (s - 11) ++ concat cs, rd') /\
     Forall2 (fun b c => length c = s /\ pub_decrypt (rpub k) c = Ok b) (chunks (s - 11) msg) cs).
Proof.
  intros W O Om S12 L s. pose proof (key_pos (proj1 W)) as NP. pose proof (vk_e (proj1 W)) as HE. fold s in S12, L. assert (EP : RsaPub (rN (rpub k)) (rE (rpub k)) = rpub k) by (now destruct (rpub k)).
  pose proof (@chunks_le (s - 11) msg ltac:(lia)) as CH. rewrite Forall_forall in CH.
  split; unfold public_key_bytes, private_key_bytes, rsa_bytes; cbv zeta; fold s; (destruct (Nat.ltb_spec s 11); [lia|]); (destruct (Nat.leb_spec (length msg) (s - 11)); [lia|]); unfold io_bytes; (destruct (Nat.eqb_spec (s - 11) 0); [lia|]).
  - edestruct (@io_loop_total (std_encrypt (rpub k)) (fun b c => length c = s /\ std_decrypt k c = Ok b) (chunks (s - 11) msg) rd O) as [->|(cs & rd' & -> & _ & F)]; [|now left|right; exists cs, rd'; now split].
    intros b r I Or. destruct (CH b I) as [Lb Ib]. pose proof (bytes_ok_incl Om Ib) as Ob.
    destruct (@std_encrypt_ok (rN (rpub k)) (rE (rpub k)) b r NP ltac:(lia) Or Ob ltac:(fold s; lia)) as [Er|(x & rd' & Er & Hb & Or')]; rewrite EP in Er; [now left|right]. eexists _, rd'. split; [exact Er|]. split; [exact Or'|].
    split; [apply be_bytes_length|]. apply std_decrypt_ok; [exact W|exact Ob|fold s; lia|exact Hb].
  - edestruct (@io_loop_total (fun b rd => pri_encrypt rd k b) (fun b c => length c = s /\ pub_decrypt (rpub k) c = Ok b) (chunks (s - 11) msg) rd O) as [->|(cs & rd' & -> & _ & F)]; [|now left|right; exists cs, rd'; now split].
    intros b r I Or. destruct (CH b I) as [Lb Ib]. pose proof (bytes_ok_incl Om Ib) as Ob.
    destruct (@pri_encrypt_ok k b r W Or Ob ltac:(fold s; lia)) as [->|(rd' & -> & Or')]; [now left|right]. eexists _, rd'. split; [reflexivity|]. split; [exact Or'|]. split; [apply be_bytes_length|].
    apply pub_decrypt_ok; [exact W|exact Ob|fold s; lia].
Qed.
(** so what the private key made of a long message never comes back from the public key *)
Theorem C144_rsa_long_private_refuted k msg rd c rd' rd2 : valid_priv k -> bytes_ok rd -> bytes_ok msg -> (12 <= rsa_size (rN (rpub k)))%nat -> (rsa_size (rN (rpub k)) - 11 < length msg)%nat ->
  private_key_bytes k msg true rd = Ok (c, rd') -> forall m, public_key_bytes (rpub k) c false rd2 <> Ok m.
Proof.
  intros W O Om S12 L E m H. destruct (C144_rsa_long_layout W O Om S12 L) as [_ [E'|(cs & r & E' & F)]]; rewrite E in E'; [discriminate|]. injection E' as -> _. set (s := rsa_size (rN (rpub k))) in *.
  assert (Fl : Forall (fun c => length c = s) cs) by (clear -F; induction F as [|b c bs cs [H _] F IH]; constructor; auto).
  pose proof (@chunks_count (s - 11) msg ltac:(lia) L) as C2. pose proof (forall2_len F) as FL. pose proof (concat_len Fl) as CL.
  set (inp := repeat 0 (s - 11) ++ concat cs) in *. assert (IL : length inp = (s - 11 + s * length cs)%nat) by (unfold inp; rewrite app_length, repeat_length; lia).
  unfold public_key_bytes, rsa_bytes in H. fold s in H. cbv zeta in H. destruct (Nat.leb_spec (length inp) s); [nia|]. unfold io_bytes in H. destruct (Nat.eqb_spec s 0); [lia|].
  destruct (io_loop (no_rand (pub_decrypt (rpub k))) (chunks s inp) rd2) as [o| |] eqn:E2; try discriminate. apply io_loop_norand_inv in E2.
  assert (Fc : Forall (fun b => length b = s) (chunks s inp)).
  { eapply Forall_impl; [|exact E2]. intros b [x Hx]. unfold pub_decrypt in Hx. fold s in Hx. cbv zeta in Hx. destruct (Nat.eqb_spec s (length b)); [congruence|discriminate]. }
  apply concat_len in Fc. rewrite chunks_concat in Fc by lia. rewrite IL in Fc.
  assert (M : (s * length (chunks s inp) = s * length cs + (s - 11))%nat) by lia. clear -M S12. assert ((length cs < length (chunks s inp))%nat \/ (length (chunks s inp) <= length cs)%nat) by lia. nia.
Qed.
(** and whatever the private key makes of more than k bytes, if anything, starts with k zero bytes *)
Theorem C144_rsa_long_public_refuted k c rd o rd' : (rsa_size (rN (rpub k)) < length c)%nat -> private_key_bytes k c false rd = Ok (o, rd') ->
  firstn (rsa_size (rN (rpub k))) o = repeat 0 (rsa_size (rN (rpub k))).
Proof.
  intros L H. unfold private_key_bytes, rsa_bytes, io_bytes in H. cbv zeta in H. destruct (Nat.leb_spec (length c) (rsa_size (rN (rpub k)))); [lia|]. destruct (Nat.eqb_spec (rsa_size (rN (rpub k))) 0); [discriminate|].
  destruct (io_loop _ _ rd) as [[x r]| |]; try discriminate. cbn [rbind fst snd] in H. injection H as <- _. rewrite firstn_app, repeat_length, Nat.sub_diag, firstn_O, app_nil_r. apply firstn_all2. rewrite repeat_length. lia.
Qed.
Theorem C144_rsa_long_roundtrip_refuted k msg rd c rd' rd2 : valid_priv k -> bytes_ok rd -> bytes_ok msg -> (12 <= rsa_size (rN (rpub k)))%nat -> (rsa_size (rN (rpub k)) - 11 < length msg)%nat ->
  firstn (rsa_size (rN (rpub k))) msg <> repeat 0 (rsa_size (rN (rpub k))) ->
  public_key_bytes (rpub k) msg true rd = Ok (c, rd') -> forall r, private_key_bytes k c false rd2 <> Ok (msg, r).
Proof.
  intros W O Om S12 L NZ E r H. apply NZ. apply (C144_rsa_long_public_refuted (c := c)) in H; [exact H|].
  destruct (C144_rsa_long_layout W O Om S12 L) as [[E'|(cs & r' & E' & F)] _]; rewrite E in E'; [discriminate|]. injection E' as -> _. set (s := rsa_size (rN (rpub k))) in *.
  assert (Fl : Forall (fun c => length c = s) cs) by (clear -F; induction F as [|b c bs cs [H _] F IH]; constructor; auto).
  pose proof (@chunks_count (s - 11) msg ltac:(lia) L) as C2. pose proof (forall2_len F) as FL. pose proof (concat_len Fl) as CL. rewrite app_length, repeat_length. nia.
Qed.
(** the plain concatenation of two or more blocks, as other implementations send it, decrypts to k zero bytes followed by the message *)
Theorem C144_rsa_foreign_blocks k cs ms rd : (2 <= length cs)%nat -> (1 <= rsa_size (rN (rpub k)))%nat -> Forall (fun c => length c = rsa_size (rN (rpub k))) cs ->
  (Forall2 (fun c m => std_decrypt k c = Ok m) cs ms -> private_key_bytes k (concat cs) false rd = Ok (repeat 0 (rsa_size (rN (rpub k))) ++ concat ms, rd)) /\
  (Forall2 (fun c m => pub_decrypt (rpub k) c = Ok m) cs ms -> public_key_bytes (rpub k) (concat cs) false rd = Ok (repeat 0 (rsa_size (rN (rpub k))) ++ concat ms, rd)).
Proof.
  intros L2 S1 F. set (s := rsa_size (rN (rpub k))) in *. pose proof (concat_len F) as CL. assert (CC : chunks s (concat cs) = cs) by (apply chunks_of_concat; [lia|exact F]).
  split; intros F2; unfold public_key_bytes, private_key_bytes, rsa_bytes, io_bytes; cbv zeta; fold s; rewrite CL; (destruct (Nat.leb_spec (s * length cs) s); [nia|]); (destruct (Nat.eqb_spec s 0); [lia|]); rewrite CC; rewrite (io_loop_norand rd F2); reflexivity.
Qed.

(** C145: exactly what the public key recovers, when it panics, and what anyone can make it recover *)
Theorem C145_rsa_public_recover N e data m : 0 < N -> 0 <= e -> (2 <= rsa_size N)%nat ->
  (pub_decrypt (RsaPub N e) data = Ok m <->
   length data = rsa_size N /\ be_val data <= N /\
   exists t ps, (t = 0 \/ t = 1) /\ Forall (fun x => x <> 0) ps /\ be_bytes (rsa_size N) (be_val data ^ e mod N) = [0; t] ++ ps ++ [0] ++ m).
Proof.
  intros NP HE K. split.
  - intros H. assert (L : length data = rsa_size N) by (unfold pub_decrypt in H; cbn [rN] in H; cbv zeta in H; destruct (Nat.eqb_spec (rsa_size N) (length data)); [congruence|discriminate]).
    assert (B : be_val data <= N). { unfold pub_decrypt in H. cbn [rN] in H. cbv zeta in H. rewrite L, Nat.eqb_refl in H. cbn [negb] in H. destruct (Z.ltb_spec N (be_val data)); [discriminate|lia]. }
    split; [exact L|]. split; [exact B|]. rewrite pub_decrypt_eq in H by assumption. destruct (be_bytes _ _) as [|d0 [|d1 t]]; try discriminate.
    destruct (Z.eqb_spec d0 0) as [->|]; [|discriminate]. cbn [negb] in H. assert (T : d1 = 0 \/ d1 = 1) by (destruct (Z.eqb_spec d1 0); [auto|]; destruct (Z.eqb_spec d1 1); [auto|discriminate]).
    assert (H' : after_zero t = Ok m) by (destruct T as [-> | ->]; exact H). apply after_zero_inv in H'. destruct H' as (ps & -> & F). exists d1, ps. auto.
  - intros (L & B & t & ps & T & F & E). rewrite pub_decrypt_eq by assumption. rewrite E. cbn [app]. destruct T as [-> | ->]; cbn [Z.eqb negb andb]; apply after_zero_app; exact F.
Qed.
Theorem C145_rsa_public_panic N e data : 0 < N -> 0 <= e -> (2 <= rsa_size N)%nat ->
  (pub_decrypt (RsaPub N e) data = Panic <->
   length data = rsa_size N /\ be_val data <= N /\
   exists t ps, (t = 0 \/ t = 1) /\ Forall (fun x => x <> 0) ps /\ be_bytes (rsa_size N) (be_val data ^ e mod N) = [0; t] ++ ps).
Proof.
  intros NP HE K. split.
  - intros H. assert (L : length data = rsa_size N) by (unfold pub_decrypt in H; cbn [rN] in H; cbv zeta in H; destruct (Nat.eqb_spec (rsa_size N) (length data)); [congruence|discriminate]).
    assert (B : be_val data <= N). { unfold pub_decrypt in H. cbn [rN] in H. cbv zeta in H. rewrite L, Nat.eqb_refl in H. cbn [negb] in H. destruct (Z.ltb_spec N (be_val data)); [discriminate|lia]. }
    split; [exact L|]. split; [exact B|]. rewrite pub_decrypt_eq in H by assumption. pose proof (be_bytes_length (rsa_size N) (be_val data ^ e mod N)) as Lb. destruct (be_bytes _ _) as [|d0 [|d1 t]]; cbn [length] in Lb; try lia.
    destruct (Z.eqb_spec d0 0) as [->|]; [|discriminate]. cbn [negb] in H. assert (T : d1 = 0 \/ d1 = 1) by (destruct (Z.eqb_spec d1 0); [auto|]; destruct (Z.eqb_spec d1 1); [auto|discriminate]).
    assert (H' : after_zero t = Panic) by (destruct T as [-> | ->]; exact H). apply after_zero_panic in H'. exists d1, t. auto.
  - intros (L & B & t & ps & T & F & E). rewrite pub_decrypt_eq by assumption. rewrite E. cbn [app]. destruct T as [-> | ->]; cbn [Z.eqb negb andb]; apply after_zero_panic; exact F.
Qed.
(** every valid key has inputs of the right length that panic *)
Theorem C145_rsa_panic_refuted k : valid_priv k -> (2 <= rsa_size (rN (rpub k)))%nat ->
  exists data, bytes_ok data /\ length data = rsa_size (rN (rpub k)) /\ forall rd, public_key_bytes (rpub k) data false rd = Panic.
Proof.
  intros [V _] K. pose proof (key_pos V) as NP. pose proof (vk_e V) as HE. set (N := rN (rpub k)) in *. destruct (size_bound NP) as [B1 B2]. assert (EP : RsaPub N (rE (rpub k)) = rpub k) by (unfold N; now destruct (rpub k)).
  set (b := [0; 1] ++ repeat 255 (rsa_size N - 2)). assert (Ob : bytes_ok b) by (unfold b; cbn [app]; constructor; [red; lia|constructor; [red; lia|apply bytes_ok_repeat; red; lia]]).
  assert (Lb : length b = rsa_size N) by (unfold b; cbn [app length]; rewrite repeat_length; lia).
  assert (Vb : 0 <= be_val b < N). { unfold b. cbn [app]. pose proof (@block_small (rsa_size N) 1 (repeat 255 (rsa_size N - 2)) ltac:(red; lia) ltac:(apply bytes_ok_repeat; red; lia) ltac:(apply repeat_length) K). lia. }
  pose proof (Z.mod_pos_bound (be_val b ^ rD k) N NP). exists (be_bytes (rsa_size N) (be_val b ^ rD k mod N)). split; [apply be_bytes_ok|]. split; [apply be_bytes_length|]. intros rd.
  unfold public_key_bytes, rsa_bytes. fold N. cbv zeta. rewrite be_bytes_length, Nat.leb_refl. unfold no_rand. rewrite <- EP at 1.
  rewrite (proj2 (@C145_rsa_public_panic N (rE (rpub k)) (be_bytes (rsa_size N) (be_val b ^ rD k mod N)) NP ltac:(lia) K)); [reflexivity|].
  split; [apply be_bytes_length|]. rewrite be_val_fit by lia. split; [lia|]. exists 1, (repeat 255 (rsa_size N - 2)). split; [now right|]. split; [apply Forall_forall; intros x I; apply repeat_spec in I; lia|].
  unfold N at 2 3. rewrite (key_power_inv V). fold N. rewrite Z.mod_small by lia. apply be_bytes_val; assumption.
Qed.
(** without the private key, every e-th power below 256^(k-3) is a message anyone can make the public key recover *)
Theorem C145_rsa_forgery_refuted N e x rd : 0 < N -> 0 < e -> (3 <= rsa_size N)%nat -> 0 <= x -> x ^ e < 256 ^ Z.of_nat (rsa_size N - 3) ->
  public_key_bytes (RsaPub N e) (be_bytes (rsa_size N) x) false rd = Ok (be_bytes (rsa_size N - 3) (x ^ e), rd).
Proof.
  intros NP HE K Hx B. destruct (size_bound NP) as [B1 B2]. set (s := rsa_size N) in *. assert (P0 : 0 <= x ^ e) by (apply Z.pow_nonneg; lia).
  assert (M : 256 ^ Z.of_nat (s - 3) <= 256 ^ Z.of_nat (s - 1)) by (apply Z.pow_le_mono_r; lia). assert (Q : x <= x ^ e). { destruct (Z.eq_dec x 0) as [->|]; [lia|]. rewrite <- (Z.pow_1_r x) at 1. apply Z.pow_le_mono_r; lia. }
  unfold public_key_bytes, rsa_bytes. cbn [rN]. fold s. cbv zeta. rewrite be_bytes_length, Nat.leb_refl. unfold no_rand.
  rewrite (proj2 (@C145_rsa_public_recover N e (be_bytes s x) (be_bytes (s - 3) (x ^ e)) NP ltac:(lia) ltac:(fold s; lia))); [reflexivity|]. fold s. split; [apply be_bytes_length|]. rewrite be_val_fit by lia. split; [lia|].
  exists 0, []. split; [now left|]. split; [constructor|]. rewrite Z.mod_small by lia. set (l := [0; 0] ++ [] ++ [0] ++ be_bytes (s - 3) (x ^ e)).
  assert (Ol : bytes_ok l) by (unfold l; cbn [app]; repeat (constructor; [red; lia|]); apply be_bytes_ok). assert (Ll : length l = s) by (unfold l; cbn [app length]; rewrite be_bytes_length; lia).
  replace (x ^ e) with (be_val l); [now apply be_bytes_val|]. unfold l. cbn [app]. rewrite !be_val_zero. apply be_val_fit. lia.
Qed.

(** C146: the unpadded variant works on numbers: leading zeros and everything above N are lost *)
Theorem C146_rsa_lower_roundtrip k msg : valid_priv k -> bytes_ok msg ->
  lower_decrypt k (lower_encrypt (rpub k) msg) = big_bytes (be_val msg mod rN (rpub k)).
Proof.
  intros [V _] O. pose proof (key_pos V) as NP. pose proof (vk_e V) as HE. pose proof (vk_d V) as HD. unfold lower_decrypt, lower_encrypt.
  rewrite !powm_spec by lia. rewrite be_val_big_bytes by (apply Z.mod_pos_bound; lia). now rewrite (key_power' V).
Qed.
Theorem C146_rsa_lower_shortest k msg : valid_priv k -> bytes_ok msg -> be_val msg < rN (rpub k) ->
  shortest (be_val msg) (lower_decrypt k (lower_encrypt (rpub k) msg)).
Proof.
  intros W O B. pose proof (be_val_bound O). rewrite C146_rsa_lower_roundtrip by assumption. rewrite Z.mod_small by lia. apply bytes_shortest. lia.
Qed.
Theorem C146_rsa_lower_leading_zero_refuted k t : valid_priv k -> bytes_ok t -> lower_decrypt k (lower_encrypt (rpub k) (0 :: t)) <> 0 :: t.
Proof.
  intros W O H. rewrite C146_rsa_lower_roundtrip in H by (assumption || (constructor; [red; lia|exact O])). pose proof (key_pos (proj1 W)) as NP.
  pose proof (@bytes_shortest (be_val (0 :: t) mod rN (rpub k)) ltac:(apply Z.mod_pos_bound; lia)) as (_ & _ & S). rewrite H in S. now apply S.
Qed.
Theorem C146_rsa_lower_exact k msg : valid_priv k -> bytes_ok msg ->
  (lower_decrypt k (lower_encrypt (rpub k) msg) = msg <-> be_val msg < rN (rpub k) /\ match msg with x :: _ => x <> 0 | [] => True end).
Proof.
  intros W O. pose proof (key_pos (proj1 W)) as NP. pose proof (be_val_bound O) as VB. rewrite C146_rsa_lower_roundtrip by assumption. pose proof (Z.mod_pos_bound (be_val msg) (rN (rpub k)) NP) as MB. split.
  - intros H. pose proof (@bytes_shortest (be_val msg mod rN (rpub k)) ltac:(lia)) as (_ & Vv & S). rewrite H in Vv, S. split; [lia|exact S].
  - intros [B Sm]. rewrite Z.mod_small by lia. destruct (@bytes_shortest (be_val msg) ltac:(lia)) as (Ob & Vb & Sb). set (b := big_bytes (be_val msg)) in *.
    assert (Hlen : forall x y : bytes, bytes_ok x -> bytes_ok y -> be_val x = be_val y -> match x with v :: _ => v <> 0 | [] => True end -> (length x <= length y)%nat).
    { intros x y Ox Oy E Nx. destruct x as [|v x]; [cbn; lia|]. inversion_clear Ox as [|? ? Hv Ox']. rewrite be_val_cons in E. pose proof (be_val_bound Ox'). pose proof (be_val_bound Oy) as By. cbn [length].
      destruct (Nat.leb_spec (S (length x)) (length y)); [assumption|exfalso]. assert (256 ^ Z.of_nat (length y) <= 256 ^ Z.of_nat (length x)) by (apply Z.pow_le_mono_r; lia). destruct Hv. nia. }
    assert (L : length b = length msg) by (apply Nat.le_antisymm; apply Hlen; assumption || congruence). rewrite <- (be_bytes_val (l := b) (n := length b)), <- (be_bytes_val (l := msg) (n := length msg)) by (assumption || reflexivity). now rewrite L, Vb.
Qed.

(** a 98-bit key with thirteen primes and e = 3 meets the hypotheses *)
Definition ex_primes := [113; 131; 137; 149; 167; 173; 179; 191; 197; 227; 233; 239; 251].
Definition ex_pub := RsaPub 186562852773459262819586661083 3.
Definition ex_pre := RsaPre 75 87 44 [(91, 98, 14803); (99, 133, 2028011); (111, 83, 302173639); (115, 168, 50462997713); (119, 67, 8730098604349); (127, 135, 1562687650178471);
  (131, 17, 298473341184087961); (151, 67, 58799248213265328317); (155, 86, 13347429344411229527959); (159, 138, 3109951037247816480014447); (167, 237, 743278297902228138723452833)].
Definition ex_key (pre : option rsa_pre) := RsaPriv ex_pub 10565630324940478667 ex_primes pre.
Ltac divides := apply Z.mod_divide; [lia|reflexivity].
Example C142_instance_key : valid_priv (ex_key (Some ex_pre)) /\ valid_priv (ex_key None).
Proof.
  assert (V : valid_key 186562852773459262819586661083 3 10565630324940478667 ex_primes).
  { constructor; try lia; [cbn; lia| | |reflexivity|].
    - repeat (apply Forall_cons; [apply primeb_prime; reflexivity|]). apply Forall_nil.
    - repeat (constructor; [cbn; intuition lia|]). constructor.
    - intros p I. cbn in I. repeat (destruct I as [<-|I]; [divides|]). contradiction. }
  split; (split; [exact V|]); [|exact I]. cbn -[Z.mul Z.modulo Z.sub Z.divide Z.lt]. split; [repeat split; try lia; try reflexivity; divides|]. repeat (split; [split; [lia|divides]|split; [reflexivity|split; [reflexivity|]]]). exact I.
Qed.
Example C143_instance : let rd := repeat 0 12 ++ [2] in
  rsa_size (rN ex_pub) = 13%nat /\
  private_key_bytes (ex_key (Some ex_pre)) [65; 66] true rd = private_key_bytes (ex_key None) [65; 66] true (repeat 0 12 ++ [3]) /\
  rbind (private_key_bytes (ex_key (Some ex_pre)) [65; 66] true rd) (fun cr => public_key_bytes ex_pub (fst cr) false []) = Ok ([65; 66], []) /\
  rbind (public_key_bytes ex_pub [65; 66] true [1; 2; 0; 4; 5; 6; 7; 8; 9]) (fun cr => private_key_bytes (ex_key None) (fst cr) false []) = Ok ([65; 66], []).
Proof. vm_compute. repeat split. Qed.
(** three bytes, with blocks of two *)
Example C144_instance : let rd := repeat 0 12 ++ [2] ++ repeat 0 12 ++ [3] in
  exists c, private_key_bytes (ex_key None) [65; 66; 67] true rd = Ok (0 :: 0 :: c, []) /\ length c = 26%nat /\
  public_key_bytes ex_pub (0 :: 0 :: c) false [] = Err /\ public_key_bytes ex_pub c false [] = Ok (repeat 0 13 ++ [65; 66; 67], []).
Proof. eexists. split; [vm_compute; reflexivity|]. split; [reflexivity|]. split; vm_compute; reflexivity. Qed.
(** 677298013 cubed has no zero byte after its leading one: a stranger's panic; 7 cubed: a stranger's message *)
Example C145_instance : public_key_bytes ex_pub (be_bytes 13 677298013) false [] = Panic /\
  public_key_bytes ex_pub (be_bytes 13 7) false [] = Ok (repeat 0 8 ++ [1; 87], []).
Proof. split; vm_compute; reflexivity. Qed.
Example C146_instance : lower_decrypt (ex_key None) (lower_encrypt ex_pub [7; 8]) = [7; 8] /\ lower_decrypt (ex_key None) (lower_encrypt ex_pub [0; 7; 8]) = [7; 8].
Proof. split; vm_compute; reflexivity. Qed.

Definition rsa_all := (C142_rsa_private_operation, C142_rsa_private_too_large, C142_rsa_key_equation, C142_rsa_blinding_enough, C143_rsa_public_roundtrip, C143_rsa_private_roundtrip, C144_rsa_long_layout,
  C144_rsa_long_private_refuted, C144_rsa_long_public_refuted, C144_rsa_long_roundtrip_refuted, C144_rsa_foreign_blocks, C145_rsa_public_recover, C145_rsa_public_panic, C145_rsa_panic_refuted, C145_rsa_forgery_refuted,
  C146_rsa_lower_roundtrip, C146_rsa_lower_shortest, C146_rsa_lower_leading_zero_refuted, C146_rsa_lower_exact).
Print Assumptions rsa_all.
