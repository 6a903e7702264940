(** Proofs about RSA: the key equation, the Chinese remainder computation and the blinding. *)
From Coq Require Import Znumtheory.
From Verif Require Import Base BigModel NumLib ElgProofs EcSigProofs EcSigProofs2 SrProofs2 KcProofs RsaModel RsaSpec.
Set Implicit Arguments. Unset Strict Implicit.
Local Open Scope Z_scope.

Lemma pow_fermat p x a b : prime p -> 0 < a -> 0 < b -> (p - 1 | a - b) -> x ^ a =[p]= x ^ b.
Proof.
  intros Hp Ha Hb D. pose proof (prime_ge_2 _ Hp) as P2. destruct (Z.eq_dec (x mod p) 0) as [Z0|NZ].
  - assert (Q : forall a, 0 < a -> x ^ a mod p = 0).
    { clear a b Ha Hb D. intros a Ha. replace a with (Z.succ (a - 1)) by lia. rewrite Z.pow_succ_r by lia. rewrite Zmult_mod, Z0. reflexivity. }
    now rewrite !Q.
  - pose proof (fermat Hp NZ) as F. apply (@pow_order x (p - 1) p); try lia; try exact F. apply cong_div; [lia|exact D].
Qed.

Definition zprod := fold_right Z.mul 1.
Lemma prod_prime p l : prime p -> Forall prime l -> ~ In p l -> Z.gcd p (zprod l) = 1.
Proof.
  intros Hp Hl Hn. induction l as [|q l IH]; [apply Z.gcd_1_r|]. cbn [zprod fold_right]. fold (zprod l).
  inversion_clear Hl as [|? ? Hq Hl']. rewrite Z.gcd_comm. apply gcd_mul.
  - rewrite Z.gcd_comm. apply Zgcd_1_rel_prime. apply prime_rel_prime; [exact Hp|]. intros D. apply prime_div_prime in D; [|exact Hp|exact Hq]. apply Hn. left. congruence.
  - rewrite Z.gcd_comm. apply IH; [exact Hl'|]. intros I. apply Hn. now right.
Qed.
Lemma prod_div l x : Forall prime l -> NoDup l -> (forall p, In p l -> (p | x)) -> (zprod l | x).
Proof.
  revert x. induction l as [|p l IH]; intros x Hl Hd H; [apply Z.divide_1_l|]. cbn [zprod fold_right]. fold (zprod l).
  inversion_clear Hl as [|? ? Hp Hl']. inversion_clear Hd as [|? ? Hn Hd'].
  destruct (H p ltac:(now left)) as [y ->]. rewrite Z.mul_comm. apply Z.mul_divide_mono_r. apply IH; [exact Hl'|exact Hd'|].
  intros q Iq. pose proof (proj1 (Forall_forall _ _) Hl' q Iq) as Pq. specialize (H q ltac:(now right)). apply prime_mult in H; [|exact Pq]. destruct H as [H|H]; [exact H|].
  apply prime_div_prime in H; [|exact Pq|exact Hp]. subst q. contradiction.
Qed.
Lemma prod_pos l : Forall prime l -> 0 < zprod l.
Proof. induction 1 as [|p l Hp Hl IH]; cbn; [lia|]. apply prime_ge_2 in Hp. fold (zprod l). nia. Qed.
Lemma prod_in l p : In p l -> (p | zprod l).
Proof.
  induction l as [|q l IH]; [contradiction|]. cbn [zprod fold_right]. fold (zprod l). intros [->|I]; [apply Z.divide_factor_l|]. now apply Z.divide_mul_r, IH.
Qed.

Section Key.
  Variables (n e d : Z) (ps : list Z).
  Hypothesis V : valid_key n e d ps.
  Lemma key_pos : 0 < n.
  Proof. rewrite (vk_n V). apply prod_pos. apply (vk_prime V). Qed.
  Lemma key_cong a b : (forall p, In p ps -> a =[p]= b) -> a =[n]= b.
  Proof.
    intros H. pose proof key_pos. apply cong_div; [lia|]. rewrite (vk_n V). apply prod_div; [apply (vk_prime V)|apply (vk_distinct V)|].
    intros p I. pose proof (proj1 (Forall_forall _ _) (vk_prime V) p I) as Hp. apply prime_ge_2 in Hp. apply cong_div; [lia|]. now apply H.
  Qed.
  Lemma key_power x : x ^ (e * d) =[n]= x.
  Proof.
    apply key_cong. intros p I. pose proof (proj1 (Forall_forall _ _) (vk_prime V) p I) as Hp. pose proof (vk_e V). pose proof (vk_d V).
    transitivity (x ^ 1 mod p); [|now rewrite Z.pow_1_r]. apply pow_fermat; [exact Hp|nia|lia|]. now apply (vk_ed V).
  Qed.
  Lemma key_power' x : (x ^ e mod n) ^ d mod n = x mod n.
  Proof.
    pose proof key_pos. pose proof (vk_e V). pose proof (vk_d V). rewrite <- (key_power x). rewrite Z.pow_mul_r by lia. apply cong_pow. apply cong_mod.
  Qed.
  Lemma key_power_inv x : (x ^ d mod n) ^ e mod n = x mod n.
  Proof.
    pose proof key_pos. pose proof (vk_e V). pose proof (vk_d V). rewrite <- (key_power x). rewrite (Z.mul_comm e d), Z.pow_mul_r by lia. apply cong_pow. apply cong_mod.
  Qed.
  Lemma key_gt1 : 1 < n.
  Proof.
    rewrite (vk_n V). pose proof (vk_two V) as T. pose proof (vk_prime V) as F. destruct ps as [|p [|q l]]; cbn in T; try lia.
    inversion_clear F as [|? ? Hp F']. inversion_clear F' as [|? ? Hq F]. apply prime_ge_2 in Hp. apply prime_ge_2 in Hq. pose proof (prod_pos F). cbn. fold (zprod l). nia.
  Qed.
End Key.

Lemma inverse_some a n ir : 0 < n -> 0 <= a -> rsa_inverse a n = Some ir -> a * ir =[n]= 1.
Proof.
  intros Hn Ha. unfold rsa_inverse. destruct (Z.eqb_spec (Z.gcd a n) 1) as [G|]; [|discriminate].
  destruct (bitlen_bound n) as [Hb|]; [|lia]. pose proof (egcd_spec (a := a) Hb Ha) as He. destruct (egcd (S (2 * bitlen n)) a n) as [u v]. cbn [fst].
  rewrite G in He. intros [= <-]. destruct (u <? 1).
  - replace (a * (u + n)) with (1 + (a - v) * n) by nia. apply Z_mod_plus_full.
  - replace (a * u) with (1 + - v * n) by nia. apply Z_mod_plus_full.
Qed.
Lemma inverse_none a n : rsa_inverse a n = None <-> Z.gcd a n <> 1.
Proof. unfold rsa_inverse. destruct (Z.eqb_spec (Z.gcd a n) 1); split; congruence. Qed.

Lemma retry_total (A : Type) fuel (step : bytes -> res (option A * bytes)) rd : bytes_ok rd ->
  (forall rd, bytes_ok rd -> step rd = Err \/ exists o r, step rd = Ok (o, r) /\ bytes_ok r) ->
  retry fuel step rd = Err \/ exists a r, retry fuel step rd = Ok (a, r) /\ bytes_ok r.
Proof.
  intros O H. revert rd O. induction fuel as [|f IH]; intros rd O; [now left|]. cbn. destruct (H rd O) as [->|([a|] & r & -> & Or)]; [now left|right; eauto|apply IH; exact Or].
Qed.
Lemma rand_int_total max rd : 0 < max -> bytes_ok rd -> rand_int max rd = Err \/ exists k r, rand_int max rd = Ok (k, r) /\ bytes_ok r /\ 0 <= k < max.
Proof.
  intros Hm O. enough (H : rand_int max rd = Err \/ exists k r, rand_int max rd = Ok (k, r) /\ bytes_ok r).
  { destruct H as [H|(k & r & H & Or)]; [now left|right; exists k, r]. split; [exact H|]. split; [exact Or|]. exact (rand_int_range O H). }
  unfold rand_int. destruct (Z.leb_spec max 0); [lia|]. destruct (Nat.eqb _ 0); [right; eauto|]. unfold until. apply retry_total; [exact O|].
  intros r Or. unfold read_full. destruct (Nat.leb _ _); [right|now left]. cbn [rbind fst snd]. eexists _, _. split; [reflexivity|]. now apply bytes_ok_skipn.
Qed.
Lemma blinding_total N rd : 1 < N -> bytes_ok rd ->
  blinding N rd = Err \/ exists r ir rd', blinding N rd = Ok (r, ir, rd') /\ bytes_ok rd' /\ 0 < r < N /\ r * ir =[N]= 1.
Proof.
  intros HN O. assert (T : blinding N rd = Err \/ exists a r, blinding N rd = Ok (a, r) /\ bytes_ok r).
  { unfold blinding, until. apply retry_total; [exact O|]. intros s Os. destruct (rand_int_total (max := N) ltac:(lia) Os) as [->|(k & r & -> & Or & _)]; [now left|right]. cbn [rbind fst snd]. eauto. }
  destruct T as [T|([r ir] & rd' & T & Or)]; [now left|right; exists r, ir, rd'; split; [exact T|split; [exact Or|]]].
  enough (Q : (fun p : Z * Z => 0 < fst p < N /\ fst p * snd p =[N]= 1) (r, ir)) by exact Q.
  revert T. unfold blinding, until. generalize (S (length rd)). intros fuel. revert rd O. induction fuel as [|f IH]; intros rd O; [discriminate|]. cbn [retry].
  destruct (rand_int_total (max := N) ltac:(lia) O) as [->|(k & s & -> & Os & B)]; [discriminate|]. cbn [rbind fst snd].
  set (k' := if k =? 0 then 1 else k). assert (B' : 0 < k' < N) by (unfold k'; destruct (Z.eqb_spec k 0); lia). clearbody k'.
  destruct (rsa_inverse k' N) as [i|] eqn:I; [|now apply IH]. intros [= -> -> ->]. cbn [fst snd]. split; [exact B'|]. apply inverse_some; [lia|lia|exact I].
Qed.
