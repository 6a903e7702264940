(** Proofs about RSA: the private operation, the blocks and the bytes. *)
From Coq Require Import Znumtheory.
From Verif Require Import Base BigModel NumLib CcmProofs ElgProofs EcSigProofs EcSigProofs2 SrProofs2 KcProofs ToolBytesProofs DhProps RsaModel RsaSpec RsaProofs.
Set Implicit Arguments. Unset Strict Implicit.
Local Open Scope Z_scope.

(** a private key of crypto/rsa whose numbers are those of RFC 8017, whatever was precomputed *)
Definition valid_priv (k : rsa_priv) : Prop :=
  valid_key (rN (rpub k)) (rE (rpub k)) (rD k) (rPrimes k) /\
  match rPre k with
  | None => True
  | Some pre =>
      match rPrimes k with
      | p :: q :: ps => valid_pair (rD k) p q (pDp pre) (pDq pre) (pQinv pre) /\ valid_crt (rD k) (p * q) (pCRT pre) ps
      | _ => False
      end
  end.

Lemma sub_mul_cong p a b m co R : p <> 0 -> (R * co) mod p = 1 mod p -> a =[p]= b -> m + ((a - m) * co) * R =[p]= b.
Proof.
  intros Hp H Hab. transitivity ((m + (b - m) * 1) mod p); [|f_equal; ring]. apply cong_add; [reflexivity|]. rewrite <- Z.mul_assoc. apply cong_mul; [apply cong_sub; [exact Hab|reflexivity]|]. now rewrite Z.mul_comm.
Qed.
Lemma mod_neg_cong m p : 0 < p -> (if m mod p <? 0 then m mod p + p else m mod p) =[p]= m.
Proof. intros Hp. pose proof (Z.mod_pos_bound m p Hp). destruct (Z.ltb_spec (m mod p) 0); [lia|]. apply Zmod_mod. Qed.
Lemma crt_rest_ok d c vs : forall ps R m ds, 0 < d -> Forall prime ps -> R = zprod ds -> valid_crt d R vs ps ->
  (forall p, In p ds -> m =[p]= c ^ d) -> exists m', crt_rest c m vs ps = Ok m' /\ forall p, In p ds \/ In p ps -> m' =[p]= c ^ d.
Proof.
  induction vs as [|[[ex co] R'] vs IH]; intros ps R m ds Hd Hp HR V H; destruct ps as [|p ps]; try contradiction.
  - exists m. split; [reflexivity|]. intros p [I|[]]. now apply H.
  - cbn [valid_crt] in V. destruct V as ((E0 & E1) & Co & -> & V). inversion_clear Hp as [|? ? Pp Pps]. pose proof (prime_ge_2 _ Pp) as P2. cbn [crt_rest].
    set (m2 := ((powm c ex p - m) * co) mod p). set (m' := m + _ * R). destruct (IH ps (R * p) m' (p :: ds) Hd Pps) as (r & Er & Hr).
    + subst R. cbn. fold (zprod ds). ring.
    + exact V.
    + intros q [<-|I].
      * unfold m'. transitivity ((m + ((powm c ex p - m) * co) * R) mod p).
        { apply cong_add; [reflexivity|]. apply cong_mul; [|reflexivity]. unfold m2. apply mod_neg_cong. lia. }
        apply sub_mul_cong; [lia|exact Co|]. rewrite powm_spec by lia. rewrite Zmod_mod. apply pow_fermat; [exact Pp|lia|exact Hd|]. destruct E1 as [t E1]. exists (- t). lia.
      * unfold m'. assert (D : (q | R)) by (subst R; now apply prod_in). destruct D as [y ->]. rewrite Z.mul_assoc. rewrite Z_mod_plus_full. now apply H.
    + exists r. split; [exact Er|]. intros q [I|[<-|I]]; apply Hr; [left; now right|left; now left|now right].
Qed.
Lemma power_ok k c : valid_priv k -> exists m, rsa_power k c = Ok m /\ m =[rN (rpub k)]= c ^ rD k.
Proof.
  intros [V P]. pose proof (key_pos V) as NP. pose proof (vk_d V) as HD. unfold rsa_power. destruct (rPre k) as [pre|].
  2:{ eexists. split; [reflexivity|]. rewrite powm_spec by lia. apply Zmod_mod. }
  destruct (rPrimes k) as [|p [|q ps]] eqn:EP; try contradiction. destruct P as (((Dp0 & Dp) & (Dq0 & Dq) & Qi) & VC).
  pose proof (vk_prime V) as F. inversion_clear F as [|? ? Pp F']. inversion_clear F' as [|? ? Pq F]. pose proof (prime_ge_2 _ Pp). pose proof (prime_ge_2 _ Pq).
  assert (Cp : powm c (pDp pre) p =[p]= c ^ rD k).
  { rewrite powm_spec by lia. rewrite Zmod_mod. apply pow_fermat; [exact Pp|lia|lia|]. destruct Dp as [t Dp]. exists (- t). lia. }
  assert (Cq : powm c (pDq pre) q =[q]= c ^ rD k).
  { rewrite powm_spec by lia. rewrite Zmod_mod. apply pow_fermat; [exact Pq|lia|lia|]. destruct Dq as [t Dq]. exists (- t). lia. }
  set (m := powm c (pDp pre) p) in *. set (m2 := powm c (pDq pre) q) in *. set (m1 := if m - m2 <? 0 then _ else _). set (m3 := (m1 * pQinv pre) mod p).
  destruct (@crt_rest_ok (rD k) c (pCRT pre) ps (p * q) (m3 * q + m2) [p; q] HD F ltac:(cbn; ring) VC) as (r & Er & Hr).
  - intros x [<-|[<-|[]]].
    + transitivity ((m2 + ((m - m2) * pQinv pre) * q) mod p).
      * rewrite Z.add_comm. apply cong_add; [reflexivity|]. apply cong_mul; [|reflexivity]. unfold m3. rewrite Zmod_mod. apply cong_mul; [|reflexivity]. unfold m1. destruct (m - m2 <? 0); [|reflexivity].
        rewrite <- (Z.mul_1_l p) at 1. apply Z_mod_plus_full.
      * apply sub_mul_cong; [lia|exact Qi|exact Cp].
    + rewrite Z.add_comm, Z_mod_plus_full. exact Cq.
  - exists r. split; [exact Er|]. apply (key_cong V). intros x Ix. apply Hr. destruct Ix as [<-|[<-|I]]; [left; now left|left; right; now left|now right].
Qed.
Lemma decrypt_ok k c rd : valid_priv k -> bytes_ok rd -> 0 <= c <= rN (rpub k) ->
  rsa_decrypt rd k c = Err \/ exists rd', rsa_decrypt rd k c = Ok (c ^ rD k mod rN (rpub k), rd') /\ bytes_ok rd'.
Proof.
  intros W O B. pose proof (proj1 W) as V. pose proof (key_gt1 V) as NP. pose proof (vk_e V) as HE. pose proof (vk_d V) as HD. set (N := rN (rpub k)) in *. unfold rsa_decrypt. fold N. destruct (Z.ltb_spec N c); [lia|].
  destruct (blinding_total NP O) as [->|(r & ir & rd' & -> & Or & Br & Ir)]; [now left|right]. cbn [rbind]. exists rd'. split; [|exact Or].
  destruct (power_ok ((c * powm r (rE (rpub k)) N) mod N) W) as (m & -> & Hm). cbn [rbind]. do 2 f_equal. fold N in Hm.
  transitivity ((c ^ rD k * (r * ir)) mod N).
  - rewrite Z.mul_assoc. apply cong_mul; [|reflexivity]. rewrite Hm. transitivity (((c * r ^ rE (rpub k)) ^ rD k) mod N).
    + apply cong_pow. rewrite Zmod_mod. apply cong_mul; [reflexivity|]. rewrite powm_spec by lia. apply Zmod_mod.
    + rewrite Z.pow_mul_l. apply cong_mul; [reflexivity|]. rewrite <- Z.pow_mul_r by lia. apply (key_power V).
  - transitivity ((c ^ rD k * 1) mod N); [|now rewrite Z.mul_1_r]. apply cong_mul; [reflexivity|exact Ir].
Qed.

(** sizes *)
Lemma size_bound N : 0 < N -> N < 256 ^ Z.of_nat (rsa_size N) /\ 256 ^ Z.of_nat (rsa_size N - 1) <= N.
Proof. intros H. split; [apply byteceil_bound; lia|now apply below_p]. Qed.
Lemma big_bytes_pad v k : 0 <= v < 256 ^ Z.of_nat k -> (length (big_bytes v) <= k)%nat /\ repeat 0 (k - length (big_bytes v)) ++ big_bytes v = be_bytes k v.
Proof.
  intros B. assert (L : (length (big_bytes v) <= k)%nat).
  { unfold big_bytes. rewrite be_bytes_length. destruct (Z.eq_dec v 0) as [->|]; [cbn; lia|]. pose proof (@below_p v ltac:(lia)) as P.
    destruct (Nat.leb_spec (byteceil (bitlen v)) k); [auto|]. exfalso. assert (256 ^ Z.of_nat k <= 256 ^ Z.of_nat (byteceil (bitlen v) - 1)) by (apply Z.pow_le_mono_r; lia). lia. }
  split; [exact L|]. set (l := _ ++ _). assert (O : bytes_ok l). { unfold l. apply bytes_ok_app. split; [apply bytes_ok_repeat; red; lia|apply be_bytes_ok]. }
  assert (E : length l = k) by (unfold l; rewrite app_length, repeat_length; lia). replace v with (be_val l). { symmetry. now apply be_bytes_val. }
  unfold l. rewrite be_val_app. rewrite be_val_zeros. rewrite be_val_big_bytes by lia. lia.
Qed.
Lemma copy_left_pad_ok v k : 0 <= v < 256 ^ Z.of_nat k -> copy_left_pad k (big_bytes v) = Ok (be_bytes k v).
Proof. intros B. destruct (big_bytes_pad B) as [L E]. unfold copy_left_pad. destruct (Nat.leb_spec (length (big_bytes v)) k); [|lia]. now rewrite E. Qed.
Lemma left_pad_ok v k : 0 <= v < 256 ^ Z.of_nat k -> left_pad (big_bytes v) k = be_bytes k v.
Proof. intros B. destruct (big_bytes_pad B) as [L E]. unfold left_pad. rewrite Nat.min_l by lia. rewrite firstn_all. exact E. Qed.
Lemma block_small k b0 t : is_byte b0 -> bytes_ok t -> length t = (k - 2)%nat -> (2 <= k)%nat -> 0 <= be_val (0 :: b0 :: t) < 256 ^ Z.of_nat (k - 1).
Proof.
  intros H0 Ht L K. rewrite be_val_zero. assert (O : bytes_ok (b0 :: t)) by (constructor; auto). pose proof (be_val_bound O) as B. cbn [length] in B. replace (k - 1)%nat with (S (length t)) by lia. exact B.
Qed.

(** the padding string *)
Lemma redraw_ok rd : forall b, bytes_ok rd -> is_byte b -> redraw b rd = Err \/ exists x r, redraw b rd = Ok (x, r) /\ bytes_ok r /\ is_byte x /\ x <> 0.
Proof.
  induction rd as [|y rd IH]; intros b O Hb; cbn [redraw]; destruct (Z.eqb_spec b 0) as [Z0|NZ]; try (right; eexists _, _; split; [reflexivity|]; auto; fail); [now left|].
  inversion_clear O. apply IH; [assumption|]. apply lxor_byte; [assumption|red; lia].
Qed.
Lemma redraw_all_ok s : forall rd, bytes_ok rd -> bytes_ok s ->
  redraw_all s rd = Err \/ exists x r, redraw_all s rd = Ok (x, r) /\ bytes_ok r /\ bytes_ok x /\ Forall (fun v => v <> 0) x /\ length x = length s.
Proof.
  induction s as [|b s IH]; intros rd O Os; cbn [redraw_all].
  - right. exists [], rd. repeat split; auto.
  - inversion_clear Os. destruct (@redraw_ok rd b O ltac:(assumption)) as [->|(x & r & -> & Or & Bx & Nx)]; [now left|]. cbn [rbind fst snd].
    destruct (IH r Or ltac:(assumption)) as [->|(xs & r' & -> & Or' & Oxs & Nxs & L)]; [now left|right]. cbn [rbind fst snd]. exists (x :: xs), r'.
    split; [reflexivity|]. split; [exact Or'|]. split; [constructor; auto|]. split; [constructor; auto|]. cbn. now rewrite L.
Qed.
Lemma nonzero_random_ok n rd : bytes_ok rd ->
  nonzero_random n rd = Err \/ exists x r, nonzero_random n rd = Ok (x, r) /\ bytes_ok r /\ bytes_ok x /\ Forall (fun v => v <> 0) x /\ length x = n.
Proof.
  intros O. unfold nonzero_random. destruct (read_full n rd) as [[b r]| |] eqn:E; [|now left|].
  - apply read_full_ok in E; [|exact O]. destruct E as (L & Ob & Or & _). cbn [rbind fst snd]. rewrite <- L. now apply redraw_all_ok.
  - unfold read_full in E. destruct (Nat.leb n (length rd)); discriminate.
Qed.
Lemma first_zero_app ps i m : Forall (fun x => x <> 0) ps -> first_zero i (ps ++ 0 :: m) = Some ((i + length ps)%nat, m).
Proof.
  revert i. induction ps as [|x ps IH]; intros i H; cbn [app first_zero length].
  - cbn. now rewrite Nat.add_0_r.
  - inversion_clear H. destruct (Z.eqb_spec x 0); [contradiction|]. rewrite IH by assumption. do 2 f_equal. lia.
Qed.
Lemma after_zero_app ps m : Forall (fun x => x <> 0) ps -> after_zero (ps ++ 0 :: m) = Ok m.
Proof. induction ps as [|x ps IH]; intros H; cbn; [reflexivity|]. inversion_clear H. destruct (Z.eqb_spec x 0); [contradiction|]. auto. Qed.
Lemma after_zero_inv l m : after_zero l = Ok m -> exists ps, l = ps ++ 0 :: m /\ Forall (fun x => x <> 0) ps.
Proof.
  induction l as [|x l IH]; cbn; [discriminate|]. destruct (Z.eqb_spec x 0) as [->|N].
  - intros [= ->]. exists []. split; [reflexivity|constructor].
  - intros H. destruct (IH H) as (ps & -> & F). exists (x :: ps). split; [reflexivity|]. now constructor.
Qed.
Lemma after_zero_panic l : after_zero l = Panic <-> Forall (fun x => x <> 0) l.
Proof.
  induction l as [|x l IH]; cbn; [split; [constructor|reflexivity]|]. destruct (Z.eqb_spec x 0) as [->|N].
  - split; [discriminate|]. intros H. inversion_clear H. contradiction.
  - rewrite IH. split; [now constructor|]. intros H. now inversion_clear H.
Qed.
Lemma after_zero_err l : after_zero l <> Err.
Proof. induction l as [|x l IH]; cbn; [discriminate|]. destruct (x =? 0); [discriminate|exact IH]. Qed.

(** one block *)
Lemma std_encrypt_ok N e msg rd : 0 < N -> 0 <= e -> bytes_ok rd -> bytes_ok msg -> (length msg + 11 <= rsa_size N)%nat ->
  std_encrypt (RsaPub N e) msg rd = Err \/
  exists b rd', std_encrypt (RsaPub N e) msg rd = Ok (be_bytes (rsa_size N) (be_val b ^ e mod N), rd') /\ is_block2 (rsa_size N) msg b /\ bytes_ok rd'.
Proof.
  intros NP HE O Om L. unfold std_encrypt. cbn [rN rE]. destruct (Nat.ltb_spec (rsa_size N) (length msg + 11)); [lia|].
  destruct (@nonzero_random_ok (rsa_size N - length msg - 3) rd O) as [->|(ps & r & -> & Or & Op & Np & Lp)]; [now left|right]. cbn [rbind fst snd].
  exists (0 :: 2 :: ps ++ 0 :: msg), r. split; [now rewrite powm_spec by lia|]. split; [|exact Or]. exists ps. split; [reflexivity|]. split; [|split; [exact Op|split; [exact Np|lia]]].
  cbn [length]. rewrite app_length. cbn [length]. lia.
Qed.
Lemma block2_small N msg b : 0 < N -> bytes_ok msg -> (length msg + 11 <= rsa_size N)%nat -> is_block2 (rsa_size N) msg b -> bytes_ok b /\ 0 <= be_val b < N.
Proof.
  intros NP Om L (ps & -> & Lb & Op & Np & L8). cbn [app] in *. assert (Ot : bytes_ok (ps ++ 0 :: msg)) by (apply bytes_ok_app; split; [exact Op|constructor; [red; lia|exact Om]]).
  split; [constructor; [red; lia|constructor; [red; lia|exact Ot]]|]. cbn [length] in Lb. destruct (size_bound NP) as [_ B].
  pose proof (@block_small (rsa_size N) 2 (ps ++ 0 :: msg) ltac:(red; lia) Ot ltac:(lia) ltac:(lia)). lia.
Qed.
Lemma std_decrypt_ok k msg b : valid_priv k -> bytes_ok msg -> (length msg + 11 <= rsa_size (rN (rpub k)))%nat -> is_block2 (rsa_size (rN (rpub k))) msg b ->
  std_decrypt k (be_bytes (rsa_size (rN (rpub k))) (be_val b ^ rE (rpub k) mod rN (rpub k))) = Ok msg.
Proof.
  intros [V _] Om L Hb. pose proof (key_pos V) as NP. pose proof (vk_e V). pose proof (vk_d V). set (N := rN (rpub k)) in *. destruct (block2_small NP Om L Hb) as [Ob Bb].
  unfold std_decrypt. fold N. cbv zeta. destruct (Nat.ltb_spec (rsa_size N) 11); [lia|]. destruct (size_bound NP) as [B1 _]. pose proof (Z.mod_pos_bound (be_val b ^ rE (rpub k)) N NP).
  rewrite be_val_fit by lia. destruct (Z.leb_spec N (be_val b ^ rE (rpub k) mod N)); [lia|]. rewrite powm_spec by lia. unfold N at 2 3. rewrite (key_power' V). fold N. rewrite Z.mod_small by lia.
  destruct Hb as (ps & E & Lb & Op & Np & L8). rewrite be_bytes_val by (exact Ob || exact Lb). rewrite E. cbn [app]. rewrite first_zero_app by exact Np. destruct (Nat.leb_spec 10 (2 + length ps)); [reflexivity|lia].
Qed.

Lemma pri_encrypt_ok k msg rd : valid_priv k -> bytes_ok rd -> bytes_ok msg -> (length msg + 11 <= rsa_size (rN (rpub k)))%nat ->
  pri_encrypt rd k msg = Err \/
  exists rd', pri_encrypt rd k msg = Ok (be_bytes (rsa_size (rN (rpub k))) (be_val (block1 (rsa_size (rN (rpub k))) msg) ^ rD k mod rN (rpub k)), rd') /\ bytes_ok rd'.
Proof.
  intros W O Om L. pose proof (key_pos (proj1 W)) as NP. set (N := rN (rpub k)) in *. unfold pri_encrypt. fold N. cbv zeta. destruct (Nat.ltb_spec (rsa_size N) (length msg + 11)); [lia|].
  fold (block1 (rsa_size N) msg). change (0 :: 1 :: repeat 255 (rsa_size N - length msg - 3) ++ 0 :: msg) with (block1 (rsa_size N) msg).
  assert (B : 0 <= be_val (block1 (rsa_size N) msg) < N).
  { destruct (size_bound NP) as [_ B]. unfold block1. cbn [app]. pose proof (@block_small (rsa_size N) 1 (repeat 255 (rsa_size N - length msg - 3) ++ 0 :: msg) ltac:(red; lia)) as Q.
    enough (0 <= be_val (0 :: 1 :: repeat 255 (rsa_size N - length msg - 3) ++ 0 :: msg) < 256 ^ Z.of_nat (rsa_size N - 1)) by lia. apply Q; [|rewrite app_length, repeat_length; cbn [length]; lia|lia].
    apply bytes_ok_app. split; [apply bytes_ok_repeat; red; lia|constructor; [red; lia|exact Om]]. }
  destruct (@decrypt_ok k (be_val (block1 (rsa_size N) msg)) rd W O ltac:(fold N; lia)) as [->|(rd' & -> & Or)]; [now left|right]. cbn [rbind fst snd]. fold N. exists rd'. split; [|exact Or].
  destruct (size_bound NP) as [B1 _]. pose proof (Z.mod_pos_bound (be_val (block1 (rsa_size N) msg) ^ rD k) N NP). rewrite copy_left_pad_ok by lia. reflexivity.
Qed.
(** what the public key recovers is decided by the k-byte form of c^e mod N *)
Lemma pub_decrypt_eq N e data : 0 < N -> 0 <= e -> (2 <= rsa_size N)%nat -> length data = rsa_size N -> be_val data <= N ->
  pub_decrypt (RsaPub N e) data = match be_bytes (rsa_size N) (be_val data ^ e mod N) with
    | d0 :: d1 :: t => if negb (d0 =? 0) then Err else if negb (d1 =? 0) && negb (d1 =? 1) then Err else after_zero t | _ => Panic end.
Proof.
  intros NP HE K L B. unfold pub_decrypt. cbn [rN rE]. cbv zeta. rewrite L, Nat.eqb_refl. cbn [negb]. destruct (Z.ltb_spec N (be_val data)); [lia|]. rewrite powm_spec by lia.
  destruct (size_bound NP) as [B1 _]. pose proof (Z.mod_pos_bound (be_val data ^ e) N NP). rewrite left_pad_ok by lia.
  pose proof (be_bytes_length (rsa_size N) (be_val data ^ e mod N)) as Lb. destruct (be_bytes _ _) as [|d0 [|d1 t]]; cbn [length] in Lb; try lia. reflexivity.
Qed.
Lemma pub_decrypt_ok k msg : valid_priv k -> bytes_ok msg -> (length msg + 11 <= rsa_size (rN (rpub k)))%nat ->
  pub_decrypt (rpub k) (be_bytes (rsa_size (rN (rpub k))) (be_val (block1 (rsa_size (rN (rpub k))) msg) ^ rD k mod rN (rpub k))) = Ok msg.
Proof.
  intros [V _] Om L. pose proof (key_pos V) as NP. pose proof (vk_e V) as HE. pose proof (vk_d V) as HD. set (N := rN (rpub k)) in *. replace (rpub k) with (RsaPub N (rE (rpub k))) at 1 by (unfold N; now destruct (rpub k)).
  destruct (size_bound NP) as [B1 B2]. pose proof (Z.mod_pos_bound (be_val (block1 (rsa_size N) msg) ^ rD k) N NP). rewrite pub_decrypt_eq; [|exact NP|lia|lia|apply be_bytes_length|rewrite be_val_fit; lia].
  rewrite be_val_fit by lia. unfold N at 3 4. rewrite (key_power_inv V). fold N. assert (Ob : bytes_ok (block1 (rsa_size N) msg)).
  { unfold block1. cbn [app]. constructor; [red; lia|constructor; [red; lia|]]. apply bytes_ok_app. split; [apply bytes_ok_repeat; red; lia|constructor; [red; lia|exact Om]]. }
  assert (Lb : length (block1 (rsa_size N) msg) = rsa_size N) by (unfold block1; cbn [app length]; rewrite app_length, repeat_length; cbn [length]; lia).
  rewrite Z.mod_small. 2:{ pose proof (be_val_bound Ob) as Q. unfold block1 in Q |- *. cbn [app] in Q |- *. rewrite be_val_zero in Q |- *. set (t := 1 :: _) in *. assert (Lt : length t = (rsa_size N - 1)%nat). { unfold t. cbn [length]. rewrite app_length, repeat_length. cbn [length]. lia. }
    assert (Ot : bytes_ok t) by (unfold block1 in Ob; now inversion_clear Ob). pose proof (be_val_bound Ot) as Q2. rewrite Lt in Q2. lia. }
  rewrite be_bytes_val by (exact Ob || exact Lb). unfold block1. cbn [app]. cbn [Z.eqb negb andb]. apply after_zero_app. apply Forall_forall. intros x I. apply repeat_spec in I. lia.
Qed.
