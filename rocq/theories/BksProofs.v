(** Proofs about the BKS readers and writers. *)
From Coq Require Import Permutation.
From Verif Require Import Base JksModel JksSpec JksProofs BksModel BksSpec.
Set Implicit Arguments. Unset Strict Implicit.
Local Open Scope nat_scope.

(** ** the map *)
Lemma bput_new a e es : bfind a es = None -> bput a e es = es ++ [(a, e)].
Proof. induction es as [|[b x] es IH]; cbn [bfind bput app]; [reflexivity|]. destruct (bytes_eqb a b); [discriminate|]. intros H. now rewrite IH. Qed.
Lemma bfind_put a b e es : bfind a (bput b e es) = if bytes_eqb a b then Some e else bfind a es.
Proof.
  induction es as [|[c x] es IH]; cbn [bput bfind]; [reflexivity|]. destruct (bytes_eqb b c) eqn:E.
  - apply bytes_eqb_eq in E. subst c. cbn [bfind]. destruct (bytes_eqb a b); reflexivity.
  - cbn [bfind]. destruct (bytes_eqb a c) eqn:E2; [|exact IH]. apply bytes_eqb_eq in E2. subst c. destruct (bytes_eqb a b) eqn:E3; [|reflexivity]. apply bytes_eqb_eq in E3. subst b. now rewrite bytes_eqb_refl in E.
Qed.
Lemma bfind_none a es : bfind a es = None <-> ~ In a (map fst es).
Proof.
  induction es as [|[b x] es IH]; cbn; [tauto|]. destruct (bytes_eqb a b) eqn:E; [apply bytes_eqb_eq in E; subst; split; [discriminate|intros N; exfalso; apply N; now left]|].
  apply bytes_eqb_neq in E. rewrite IH. intuition congruence.
Qed.
Lemma bfind_app a es fs : bfind a (es ++ fs) = match bfind a es with Some e => Some e | None => bfind a fs end.
Proof. induction es as [|[b x] es IH]; cbn; [reflexivity|]. destruct (bytes_eqb a b); [reflexivity|exact IH]. Qed.
Lemma bfind_in a e es : NoDup (map fst es) -> (bfind a es = Some e <-> In (a, e) es).
Proof.
  induction es as [|[b x] es IH]; intros N; cbn; [split; [discriminate|tauto]|]. inversion N as [|? ? N1 N2]; subst. destruct (bytes_eqb a b) eqn:E.
  - apply bytes_eqb_eq in E. subst b. split; [intros [= <-]; now left|]. intros [[= <-]|I]; [reflexivity|]. exfalso. apply N1. apply in_map_iff. exists (a, e). auto.
  - apply bytes_eqb_neq in E. rewrite IH by exact N2. split; [auto|]. intros [[= -> _]|I]; [congruence|exact I].
Qed.
Lemma bfind_perm es fs a : NoDup (map fst es) -> Permutation es fs -> bfind a es = bfind a fs.
Proof.
  intros N P. assert (N2 : NoDup (map fst fs)) by (eapply Permutation_NoDup; [apply Permutation_map; exact P|exact N]). destruct (bfind a es) as [e|] eqn:E.
  - apply (bfind_in _ _ N) in E. symmetry. apply (bfind_in _ _ N2). eapply Permutation_in; eauto.
  - destruct (bfind a fs) as [e|] eqn:F; [|reflexivity]. apply (bfind_in _ _ N2) in F. apply Permutation_sym in P. apply (Permutation_in _ P) in F. apply (bfind_in _ _ N) in F. congruence.
Qed.
Lemma bput_keys a e es : map fst (bput a e es) = if existsb (bytes_eqb a) (map fst es) then map fst es else map fst es ++ [a].
Proof.
  induction es as [|[b x] es IH]; cbn; [reflexivity|]. destruct (bytes_eqb a b) eqn:E; cbn; [apply bytes_eqb_eq in E; now subst|]. rewrite IH. destruct (existsb (bytes_eqb a) (map fst es)); reflexivity.
Qed.
Lemma bput_nodup a e es : NoDup (map fst es) -> NoDup (map fst (bput a e es)).
Proof.
  intros N. rewrite bput_keys. destruct (existsb (bytes_eqb a) (map fst es)) eqn:E; [exact N|]. apply NoDup_snoc; [exact N|]. intros I. assert (existsb (bytes_eqb a) (map fst es) = true); [|congruence]. apply existsb_exists. exists a. split; [exact I|apply bytes_eqb_refl].
Qed.

(** ** readers *)
Lemma read_u8_app v r : (0 <= v < 256)%Z -> read_u8 ([v] ++ r) = Ok (v, r).
Proof. intros B. unfold read_u8. rewrite read_n_app by reflexivity. cbn [rbind fst snd]. unfold be_val. cbn. now rewrite ?Z.add_0_r. Qed.
Lemma read_u8_inv r v r' : bytes_ok r -> read_u8 r = Ok (v, r') -> r = [v] ++ r' /\ (0 <= v < 256)%Z.
Proof.
  intros O. unfold read_u8. destruct (read_n 1 r) as [[a x]| |] eqn:R; cbn [rbind fst snd]; try discriminate. intros E. injection E as <- <-. apply read_n_inv in R as [-> L]. destruct a as [|c [|? ?]]; cbn in L; try lia.
  apply Forall_app in O as [Oa _]. inversion Oa as [|? ? Oc]; subst. red in Oc. replace (be_val [c]) with c by (unfold be_val; cbn; lia). auto.
Qed.
Lemma br_cert_app ty c r : small (length ty) (2 ^ 16) -> small (length c) (2 ^ 31) -> br_cert ((text ty ++ blob c) ++ r) = Ok ((ty, c), r).
Proof. intros H1 H2. unfold br_cert. rewrite <- app_assoc. rewrite read_utf_app by exact H1. cbn [rbind fst snd]. rewrite read_bytes_app by exact H2. reflexivity. Qed.
Lemma br_cert_inv r ty c r' : bytes_ok r -> br_cert r = Ok ((ty, c), r') -> r = (text ty ++ blob c) ++ r' /\ small (length ty) (2 ^ 16) /\ small (length c) (2 ^ 31).
Proof.
  intros O. unfold br_cert. destruct (read_utf r) as [[t x]| |] eqn:R; cbn [rbind fst snd]; try discriminate. apply read_utf_inv in R as [-> L]; [|exact O]. apply Forall_app in O as [_ O].
  destruct (read_bytes x) as [[d y]| |] eqn:R2; cbn [rbind fst snd]; try discriminate. apply read_bytes_inv in R2 as [-> L2]; [|exact O]. intros E. injection E as <- <- <-. split; [now rewrite <- app_assoc|auto].
Qed.
Lemma br_key_app k r : key_fits k -> br_key (key_bytes k ++ r) = Ok (k, r).
Proof.
  intros (B & F & A & E). unfold br_key, key_bytes. rewrite <- !app_assoc. rewrite read_u8_app by exact B. cbn [rbind fst snd]. rewrite read_utf_app by exact F. cbn [rbind fst snd]. rewrite read_utf_app by exact A. cbn [rbind fst snd]. rewrite read_bytes_app by exact E. destruct k; reflexivity.
Qed.
Lemma br_key_inv r k r' : bytes_ok r -> br_key r = Ok (k, r') -> r = key_bytes k ++ r' /\ key_fits k.
Proof.
  intros O. unfold br_key. destruct (read_u8 r) as [[t r1]| |] eqn:R1; cbn [rbind fst snd]; try discriminate. apply read_u8_inv in R1 as [-> B]; [|exact O]. apply Forall_app in O as [_ O].
  destruct (read_utf r1) as [[f r2]| |] eqn:R2; cbn [rbind fst snd]; try discriminate. apply read_utf_inv in R2 as [-> F]; [|exact O]. apply Forall_app in O as [_ O].
  destruct (read_utf r2) as [[a r3]| |] eqn:R3; cbn [rbind fst snd]; try discriminate. apply read_utf_inv in R3 as [-> A]; [|exact O]. apply Forall_app in O as [_ O].
  destruct (read_bytes r3) as [[e r4]| |] eqn:R4; cbn [rbind fst snd]; try discriminate. apply read_bytes_inv in R4 as [-> E]; [|exact O]. intros X. injection X as <- <-. unfold key_bytes, key_fits. cbn [bk_type bk_format bk_alg bk_enc]. split; [now rewrite <- !app_assoc|auto].
Qed.
Lemma br_chain_app chain : forall r, Forall (fun tc : bytes * bytes => small (length (fst tc)) (2 ^ 16) /\ small (length (snd tc)) (2 ^ 31)) chain ->
  br_chain (length chain) (concat (map (fun tc => text (fst tc) ++ blob (snd tc)) chain) ++ r) = Ok (map snd chain, r).
Proof.
  induction chain as [|[ty c] chain IH]; intros r F; [reflexivity|]. inversion F as [|? ? [F1 F2] F3]; subst. cbn [length map concat br_chain fst snd]. rewrite <- app_assoc. rewrite br_cert_app by (exact F1 || exact F2). cbn [rbind fst snd]. rewrite IH by exact F3. reflexivity.
Qed.
Lemma br_chain_inv n : forall r cs r', bytes_ok r -> br_chain n r = Ok (cs, r') -> exists chain, length chain = n /\ cs = map snd chain /\
  Forall (fun tc : bytes * bytes => small (length (fst tc)) (2 ^ 16) /\ small (length (snd tc)) (2 ^ 31)) chain /\ r = concat (map (fun tc => text (fst tc) ++ blob (snd tc)) chain) ++ r'.
Proof.
  induction n as [|n IH]; intros r cs r' O E; cbn [br_chain] in E; [injection E as <- <-; exists []; repeat split; auto|].
  destruct (br_cert r) as [[[ty c] r1]| |] eqn:R1; cbn [rbind fst snd] in E; try discriminate. apply br_cert_inv in R1 as (-> & L1 & L2); [|exact O]. apply Forall_app in O as [_ O].
  destruct (br_chain n r1) as [[cs' r2]| |] eqn:R2; cbn [rbind fst snd] in E; try discriminate. injection E as <- <-. apply IH in R2 as (chain & L & -> & F & ->); [|exact O].
  exists ((ty, c) :: chain). cbn [length map concat fst snd]. split; [lia|]. split; [reflexivity|]. split; [constructor; auto|]. now rewrite <- !app_assoc.
Qed.
Lemma br_kind_app k r : kind_fits k -> br_kind (tag k) (contents k ++ r) = Ok (k, r).
Proof.
  destruct k as [ty c|k|s|enc n pw]; cbn [kind_fits tag contents]; unfold br_kind; cbn [Z.eqb Pos.eqb].
  - intros [H1 H2]. rewrite br_cert_app by assumption. reflexivity.
  - intros H1. rewrite br_key_app by assumption. reflexivity.
  - intros H1. rewrite read_bytes_app by assumption. reflexivity.
  - intros (H1 & -> & ->). rewrite read_bytes_app by assumption. reflexivity.
Qed.
Lemma br_kind_inv t r k r' : bytes_ok r -> br_kind t r = Ok (k, r') -> t = tag k /\ kind_fits k /\ r = contents k ++ r'.
Proof.
  intros O. unfold br_kind. destruct (Z.eqb_spec t 1) as [->|_].
  { destruct (br_cert r) as [[[ty c] r1]| |] eqn:R; cbn [rbind fst snd]; try discriminate. apply br_cert_inv in R as (-> & L1 & L2); [|exact O]. intros E. injection E as <- <-. cbn. auto. }
  destruct (Z.eqb_spec t 2) as [->|_].
  { destruct (br_key r) as [[k' r1]| |] eqn:R; cbn [rbind fst snd]; try discriminate. apply br_key_inv in R as (-> & L1); [|exact O]. intros E. injection E as <- <-. cbn. auto. }
  destruct (Z.eqb_spec t 3) as [->|_].
  { destruct (read_bytes r) as [[k' r1]| |] eqn:R; cbn [rbind fst snd]; try discriminate. apply read_bytes_inv in R as (-> & L1); [|exact O]. intros E. injection E as <- <-. cbn. auto. }
  destruct (Z.eqb_spec t 4) as [->|_]; [|discriminate].
  destruct (read_bytes r) as [[k' r1]| |] eqn:R; cbn [rbind fst snd]; try discriminate. apply read_bytes_inv in R as (-> & L1); [|exact O]. intros E. injection E as <- <-. cbn. auto.
Qed.
Lemma tag_range k : (1 <= tag k <= 4)%Z.
Proof. destruct k; cbn; lia. Qed.
(** one entry is consumed *)
Lemma entries_step f es a e p r : reads_bks (a, e) p -> bfind a es = None -> br_entries (S f) es (p ++ r) = br_entries f (es ++ [(a, e)]) r.
Proof.
  intros (ms & count & chain & La & Bm & Ed & Ec & (Lc & _ & Cn) & Fc & Fk & ->) N. cbn [fst snd] in *. unfold part. rewrite <- !app_assoc. cbn [br_entries]. pose proof (tag_range (be_kind e)) as T. rewrite read_u8_app by lia. cbn [rbind fst snd].
  destruct (Z.eqb_spec (tag (be_kind e)) 0); [lia|]. rewrite read_utf_app by exact La. cbn [rbind fst snd]. rewrite read_date_app by exact Bm. cbn [rbind fst snd]. rewrite read_int32_app by exact Lc. cbn [rbind fst snd]. rewrite <- Cn.
  rewrite br_chain_app by exact Fc. cbn [rbind fst snd]. rewrite br_kind_app by exact Fk. cbn [rbind fst snd]. rewrite N. rewrite bput_new by exact N. do 3 f_equal. rewrite <- Ed, <- Ec. destruct e; reflexivity.
Qed.
Lemma entries_app new : forall parts acc f r, Forall2 reads_bks new parts -> NoDup (map fst (acc ++ new)) -> length new < f -> br_entries f acc (concat parts ++ [0%Z] ++ r) = Ok (acc ++ new, r).
Proof.
  induction new as [|[a e] new IH]; intros parts acc f r F N L; inversion F as [|? p ? ps F1 F2]; subst; destruct f as [|f]; cbn [length] in L; try lia.
  - cbn [concat app]. cbn [br_entries]. change (0%Z :: r) with ([0%Z] ++ r). rewrite read_u8_app by lia. cbn [rbind fst snd Z.eqb]. now rewrite app_nil_r.
  - cbn [concat]. rewrite <- app_assoc. rewrite map_app in N. cbn [map fst] in N. assert (NI : bfind a acc = None). { apply bfind_none. intros I. apply NoDup_remove_2 in N. apply N. apply in_or_app. now left. }
    rewrite (entries_step _ _ F1 NI). rewrite IH; [now rewrite <- app_assoc|exact F2|rewrite <- app_assoc, map_app; exact N|lia].
Qed.
Lemma entries_inv2 f : forall acc r es r', bytes_ok r -> NoDup (map fst acc) -> br_entries f acc r = Ok (es, r') ->
  exists new parts, es = acc ++ new /\ NoDup (map fst es) /\ Forall2 reads_bks new parts /\ r = concat parts ++ [0%Z] ++ r'.
Proof.
  induction f as [|f IH]; intros acc r es r' O N E; cbn [br_entries] in E; [discriminate|]. destruct (read_u8 r) as [[t r1]| |] eqn:R1; cbn [rbind fst snd] in E; try discriminate. apply read_u8_inv in R1 as [-> Bt]; [|exact O]. apply Forall_app in O as [_ O].
  destruct (Z.eqb_spec t 0) as [->|Nt].
  { injection E as <- <-. exists [], []. rewrite app_nil_r. repeat split; auto. }
  destruct (read_utf r1) as [[a r2]| |] eqn:R2; cbn [rbind fst snd] in E; try discriminate. apply read_utf_inv in R2 as [-> La]; [|exact O]. apply Forall_app in O as [_ O].
  destruct (read_date r2) as [[d r3]| |] eqn:R3; cbn [rbind fst snd] in E; try discriminate. apply read_date_inv in R3 as (ms & -> & Bm & ->); [|exact O]. apply Forall_app in O as [_ O].
  destruct (read_int32 r3) as [[n r4]| |] eqn:R4; cbn [rbind fst snd] in E; try discriminate. apply read_int32_inv in R4 as (cb & -> & Lcb & ->). apply Forall_app in O as [Ocb O].
  destruct (br_chain _ r4) as [[cs r5]| |] eqn:R5; cbn [rbind fst snd] in E; try discriminate. apply br_chain_inv in R5 as (chain & Lch & -> & Fch & ->); [|exact O]. apply Forall_app in O as [_ O].
  destruct (br_kind t r5) as [[k r6]| |] eqn:R6; cbn [rbind fst snd] in E; try discriminate. apply br_kind_inv in R6 as (-> & Fk & ->); [|exact O]. apply Forall_app in O as [_ O].
  destruct (bfind a acc) eqn:Fd; [discriminate|]. rewrite bput_new in E by exact Fd. set (e := BEntry (ms * 1000000)%Z (map snd chain) k) in *.
  assert (Na : NoDup (map fst (acc ++ [(a, e)]))). { rewrite map_app. cbn [map fst]. apply NoDup_snoc; [exact N|]. now apply bfind_none. }
  apply IH in E as (new & parts & -> & N2 & F & ->); [|exact O|exact Na]. exists ((a, e) :: new), (part ms cb chain a k :: parts). split; [now rewrite <- app_assoc|]. split; [exact N2|]. split.
  - constructor; [|exact F]. exists ms, cb, chain. cbn [fst snd e be_date be_chain be_kind]. unfold count_is. repeat split; auto; lia.
  - cbn [concat]. unfold part. rewrite <- !app_assoc. reflexivity.
Qed.
Lemma br_entries_body data es r' : bytes_ok data -> br_entries (S (length data)) [] data = Ok (es, r') <-> exists body, data = body ++ r' /\ body_of es body.
Proof.
  intros O. split.
  - intros E. apply entries_inv2 in E as (new & parts & -> & N & F & E); [|exact O|constructor]. cbn [app] in *. exists (concat parts ++ [0%Z]). split; [rewrite E; now rewrite <- app_assoc|]. split; [exact N|]. eauto.
  - intros (body & -> & N & parts & F & ->). rewrite <- app_assoc. change es with ([] ++ es) at 1. apply entries_app; [exact F|exact N|]. rewrite !app_length. cbn [length].
    assert (length es <= length (concat parts)); [|lia]. clear -F. induction F as [|x p es ps Fx F IH]; cbn [length concat]; [lia|]. rewrite app_length. destruct Fx as (ms & c & ch & _ & _ & _ & _ & _ & _ & _ & ->). unfold part. cbn [app length]. lia.
Qed.

(** ** writers *)
Section write.
  Variable seal : bytes -> bytes -> Z -> bytes -> bytes.
  Lemma bw_key_spec k : key_fits k -> bw_key k = key_bytes k.
  Proof. intros (B & _). unfold bw_key, key_bytes. unfold to_byte. rewrite Z.mod_small by lia. reflexivity. Qed.
  Lemma write_date_spec t : (- 2 ^ 63 <= t < 2 ^ 63)%Z -> write_date t = be_bytes 8 (millis t) /\ (- 2 ^ 63 <= millis t < 2 ^ 63)%Z.
  Proof.
    intros B. unfold write_date, millis, int64. replace ((t + 2 ^ 63) mod 2 ^ 64 - 2 ^ 63)%Z with t by (rewrite Z.mod_small; lia). split; [reflexivity|].
    pose proof (Z.quot_rem' t 1000000). pose proof (Z.rem_bound_abs t 1000000 ltac:(lia)). assert (Z.rem t 1000000 * t >= 0)%Z by (pose proof (Z.rem_sign_mul t 1000000 ltac:(lia)); lia). nia.
  Qed.
  Lemma bw_data_spec tg alias e : small (length alias) (2 ^ 16) -> (- 2 ^ 63 <= be_date e < 2 ^ 63)%Z ->
    bw_data tg alias e = [tg] ++ text alias ++ be_bytes 8 (millis (be_date e)) ++ be_bytes 4 (Z.of_nat (length (be_chain e))) ++ concat (map (fun tc => text (fst tc) ++ blob (snd tc)) (map (pair x509_4) (be_chain e))).
  Proof. intros La B. unfold bw_data. rewrite (proj1 (write_date_spec B)). rewrite map_map. reflexivity. Qed.
  Lemma bw_entry_spec salts a e : writable seal (salts a) a e -> exists p, bw_entry seal salts (a, e) = Ok p /\ reads_bks (a, reloaded seal (salts a) e) p.
  Proof.
    intros (La & Bd & Lc & Fc & Fk).
    assert (G : forall k, kind_fits k -> be_kind (reloaded seal (salts a) e) = k -> reads_bks (a, reloaded seal (salts a) e) (bw_data (tag k) a e ++ contents k)).
    { intros k Fk' Ek. exists (millis (be_date e)), (be_bytes 4 (Z.of_nat (length (be_chain e)))), (map (pair x509_4) (be_chain e)). cbn [fst snd]. rewrite Ek. split; [exact La|]. split; [apply write_date_spec; exact Bd|]. split; [reflexivity|].
      split; [cbn; rewrite map_map; cbn [snd]; now rewrite map_id|]. split. { split; [apply be_bytes_length|]. split; [apply be_bytes_ok|]. rewrite map_length, signed32 by exact Lc. lia. }
      split. { apply Forall_map. eapply Forall_impl; [|exact Fc]. intros c Hc. cbn [fst snd]. split; [vm_compute; reflexivity|exact Hc]. }
      split; [exact Fk'|]. rewrite bw_data_spec by assumption. unfold part. now rewrite <- !app_assoc. }
    unfold bw_entry. destruct (be_kind e) as [ty c|k|s|enc [k|] pw] eqn:EK; cbn [kind_fits] in Fk; try tauto.
    - eexists. split; [reflexivity|]. apply (G (KCert ty c)); [exact Fk|]. unfold reloaded. rewrite EK. reflexivity.
    - eexists. split; [rewrite (bw_key_spec Fk); reflexivity|]. apply (G (KKey k)); [exact Fk|]. unfold reloaded. rewrite EK. reflexivity.
    - eexists. split; [reflexivity|]. apply (G (KSecret s)); [exact Fk|]. unfold reloaded. rewrite EK. reflexivity.
    - destruct Fk as [Fk1 Fk2]. eexists. split; [cbn [bw_sealed rbind]; rewrite (bw_key_spec Fk1); reflexivity|]. apply (G (KSealed (sealed seal pw (salts a) k) None [])); [cbn; auto|]. unfold reloaded. rewrite EK. reflexivity.
  Qed.
  Lemma bw_entries_spec salts order : Forall (fun ae => writable seal (salts (fst ae)) (fst ae) (snd ae)) order ->
    exists parts, bw_entries seal salts order = Ok (concat parts ++ [0%Z]) /\ Forall2 reads_bks (map (fun ae => (fst ae, reloaded seal (salts (fst ae)) (snd ae))) order) parts.
  Proof.
    induction 1 as [|[a e] order W F (parts & E & R)]; [exists []; cbn; auto|]. cbn [fst snd] in W. destruct (bw_entry_spec W) as (p & Ep & Rp). exists (p :: parts). cbn [bw_entries]. rewrite Ep. cbn [rbind]. rewrite E. cbn [rbind concat]. rewrite <- app_assoc. split; [reflexivity|]. cbn [map fst snd]. constructor; assumption.
  Qed.
  Lemma body_written salts order : NoDup (map fst order) -> Forall (fun ae => writable seal (salts (fst ae)) (fst ae) (snd ae)) order ->
    exists body, bw_entries seal salts order = Ok body /\ body_of (map (fun ae => (fst ae, reloaded seal (salts (fst ae)) (snd ae))) order) body.
  Proof.
    intros N F. destruct (bw_entries_spec F) as (parts & E & R). exists (concat parts ++ [0%Z]). split; [exact E|]. split; [|eauto]. rewrite map_map. cbn [fst]. exact N.
  Qed.
  Lemma bfind_map_reload salts order a : bfind a (map (fun ae => (fst ae, reloaded seal (salts (fst ae)) (snd ae))) order) = option_map (reloaded seal (salts a)) (bfind a order).
  Proof. induction order as [|[b e] order IH]; cbn; [reflexivity|]. destruct (bytes_eqb a b) eqn:E; [apply bytes_eqb_eq in E; subst b; reflexivity|exact IH]. Qed.
End write.
