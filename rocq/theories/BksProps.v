(** C150 the BKS store, C151 what Parse accepts, C152 sealed keys, C153 the UBER store. *)
From Coq Require Import Permutation.
From Verif Require Import Base JksModel JksSpec JksProofs BksModel BksSpec BksProofs.
Set Implicit Arguments. Unset Strict Implicit.
Local Open Scope nat_scope.

(** *** C150 *)
(** every Add function puts its entry under its alias, whatever was there; the last one counts, and aliases stay distinct *)
Theorem C150_bks_history (adds : bmap) : let es := fold_left (fun m ae => bput (fst ae) (snd ae) m) adds [] in
  NoDup (map fst es) /\ forall a, bfind a es = last_added a adds.
Proof.
  cbv zeta. assert (G : forall m x, NoDup (map fst m) -> (forall a, bfind a m = x a) -> let es := fold_left (fun m ae => bput (fst ae) (snd ae) m) adds m in
    NoDup (map fst es) /\ forall a, bfind a es = fold_left (fun x ae => if bytes_eqb a (fst ae) then Some (snd ae) else x) adds (x a)).
  { induction adds as [|[b e] adds IH]; intros m x N F; cbn [fold_left fst snd]; [auto|]. apply (IH (bput b e m) (fun a => if bytes_eqb a b then Some e else x a)); [now apply bput_nodup|]. intros a. rewrite bfind_put, F. reflexivity. }
  exact (G [] (fun _ => None) (NoDup_nil _) (fun _ => eq_refl)).
Qed.
Theorem C150_bks_adds (es : bmap) (typ : Z) (alias cert key alg pw : bytes) (chain : list bytes) (now : Z) (a : bytes) :
  let get e := if bytes_eqb a alias then Some e else bfind a es in
  let k fmt := BKeyRec typ fmt alg key in let fmt := (if typ =? 0 then [80; 75; 67; 83; 56] else if typ =? 1 then [88; 53; 48; 57] else [82; 65; 87])%Z in
  bfind a (bks_add_cert es alias cert chain now) = get (BEntry now chain (KCert [88; 53; 48; 57]%Z cert)) /\
  bfind a (bks_add_key es typ alias key alg chain now) = get (BEntry now chain (KKey (k fmt))) /\
  bfind a (bks_add_sealed es typ alias key alg pw chain now) = get (BEntry now chain (KSealed [] (Some (k fmt)) pw)) /\
  bfind a (bks_add_secret es alias key chain now) = get (BEntry now chain (KSecret key)).
Proof. cbv zeta. unfold bks_add_cert, bks_add_key, bks_add_sealed, bks_add_secret. rewrite !bfind_put. auto. Qed.
Section C150.
  Variables (K : bytes -> bytes -> Z -> nat -> bytes) (HM : bytes -> bytes -> bytes) (seal : bytes -> bytes -> Z -> bytes -> bytes).
  Lemma parse_written salt body rest st pw version iter : (version = 1 \/ version = 2)%Z -> small (length salt) (2 ^ 31) -> (length iter = 4)%nat -> body_of st body ->
    bks_parse K HM (be_bytes 4 version ++ blob salt ++ iter ++ body ++ HM (K pw salt (signed iter) (mac_key_len version)) body ++ rest) pw = Ok (version, st).
  Proof.
    intros V Ls Li B. unfold bks_parse. rewrite read_u32_app by lia. cbn [rbind fst snd]. assert (E : ((version =? 1) || (version =? 2))%Z = true) by lia. rewrite E. rewrite read_bytes_app by exact Ls. cbn [rbind fst snd]. rewrite read_int32_app by exact Li. cbn [rbind fst snd].
    set (mac := HM _ body). set (tl := body ++ mac ++ rest). assert (R : br_entries (S (length tl)) [] tl = Ok (st, mac ++ rest)).
    { destruct B as (N & parts & F & ->). unfold tl. rewrite <- app_assoc. change st with ([] ++ st) at 1. apply entries_app; [exact F|exact N|]. rewrite !app_length. cbn [length]. assert (length st <= length (concat parts)); [|lia].
      clear -F. induction F as [|x p es ps Fx F IH]; cbn [length concat]; [lia|]. rewrite app_length. destruct Fx as (ms & c & ch & _ & _ & _ & _ & _ & _ & _ & ->). unfold part. cbn [app length]. lia. }
    rewrite R. cbn [rbind fst snd]. replace (firstn (length tl - length (mac ++ rest)) tl) with body. 2: { unfold tl. rewrite (app_length body). replace (length body + length (mac ++ rest) - length (mac ++ rest)) with (length body) by lia. now rewrite firstn_app_len. }
    cbv zeta. fold mac. rewrite read_n_app by reflexivity. cbn [rbind fst snd]. rewrite bytes_eqb_refl. reflexivity.
  Qed.
  (** a store that is written and read again has the same entries; dates lose what is below a millisecond, sealed keys are locked *)
  Theorem C150_bks_roundtrip (es order : bmap) (salts : bytes -> bytes) (salt pw : bytes) (version iter : Z) :
    NoDup (map fst es) -> Permutation es order -> Forall (fun ae => writable seal (salts (fst ae)) (fst ae) (snd ae)) es ->
    (version = 1 \/ version = 2)%Z -> small (length salt) (2 ^ 31) -> (0 <= iter < 2 ^ 31)%Z ->
    exists d st, bks_marshal K HM seal salts salt order pw version iter = Ok d /\ bks_parse K HM d pw = Ok (version, st) /\
      forall a, bfind a st = option_map (reloaded seal (salts a)) (bfind a es).
  Proof.
    intros N P W V Ls Bi. assert (N2 : NoDup (map fst order)) by (eapply Permutation_NoDup; [apply Permutation_map; exact P|exact N]). assert (W2 : Forall (fun ae => writable seal (salts (fst ae)) (fst ae) (snd ae)) order) by (eapply Permutation_Forall; eauto).
    destruct (body_written N2 W2) as (body & E & B). eexists. eexists. split; [unfold bks_marshal; assert (X : ((version =? 1) || (version =? 2))%Z = true) by lia; rewrite X, E; reflexivity|]. split.
    - pose proof (@parse_written salt body [] _ pw version (be_bytes 4 iter) V Ls (be_bytes_length 4 iter) B) as G. rewrite app_nil_r in G. assert (SI : signed (be_bytes 4 iter) = iter) by (apply signed_be; [lia|change (256 ^ Z.of_nat 4 / 2)%Z with (2 ^ 31)%Z; lia]). rewrite SI in G. exact G.
    - intros a. rewrite bfind_map_reload. f_equal. symmetry. now apply bfind_perm.
  Qed.
  (** the file, byte by byte *)
  Theorem C150_bks_format (order : bmap) (salts : bytes -> bytes) (salt pw : bytes) (version iter : Z) :
    NoDup (map fst order) -> Forall (fun ae => writable seal (salts (fst ae)) (fst ae) (snd ae)) order -> (version = 1 \/ version = 2)%Z ->
    exists body, body_of (map (fun ae => (fst ae, reloaded seal (salts (fst ae)) (snd ae))) order) body /\
    bks_marshal K HM seal salts salt order pw version iter =
      Ok (be_bytes 4 version ++ blob salt ++ be_bytes 4 iter ++ body ++ HM (K pw salt iter (if (version =? 1)%Z then 2 else 20)) body).
  Proof.
    intros N W V. destruct (body_written N W) as (body & E & B). exists body. split; [exact B|]. unfold bks_marshal. assert (X : ((version =? 1) || (version =? 2))%Z = true) by lia. rewrite X, E. reflexivity.
  Qed.

  (** *** C151 *)
  Theorem C151_bks_parse_exact (data pw : bytes) (v : Z) (st : bmap) : bytes_ok data ->
    bks_parse K HM data pw = Ok (v, st) <->
    (v = 1 \/ v = 2)%Z /\ exists salt iter body rest, small (length salt) (2 ^ 31) /\ length iter = 4 /\ body_of st body /\
      data = be_bytes 4 v ++ blob salt ++ iter ++ body ++ HM (K pw salt (signed iter) (if (v =? 1)%Z then 2 else 20)) body ++ rest.
  Proof.
    intros O. split; [|intros (V & salt & iter & body & rest & Ls & Li & B & ->); now apply parse_written].
    unfold bks_parse. destruct (read_u32 data) as [[v' r1]| |] eqn:R1; cbn [rbind fst snd]; try discriminate. apply read_u32_inv in R1; [|exact O]. subst data. apply Forall_app in O as [_ O].
    destruct ((v' =? 1) || (v' =? 2))%Z eqn:V; [|discriminate]. destruct (read_bytes r1) as [[salt r2]| |] eqn:R2; cbn [rbind fst snd]; try discriminate. apply read_bytes_inv in R2 as [-> Ls]; [|exact O]. apply Forall_app in O as [_ O].
    destruct (read_int32 r2) as [[it r3]| |] eqn:R3; cbn [rbind fst snd]; try discriminate. apply read_int32_inv in R3 as (iter & -> & Li & ->). apply Forall_app in O as [_ O].
    destruct (br_entries (S (length r3)) [] r3) as [[es r4]| |] eqn:R4; cbn [rbind fst snd]; try discriminate. apply br_entries_body in R4; [|exact O]. destruct R4 as (body & -> & B).
    replace (firstn (length (body ++ r4) - length r4) (body ++ r4)) with body. 2: { rewrite app_length. replace (length body + length r4 - length r4) with (length body) by lia. now rewrite firstn_app_len. }
    cbv zeta. set (mac := HM _ body). destruct (read_n (length mac) r4) as [[act r5]| |] eqn:R5; cbn [rbind fst snd]; try discriminate. apply read_n_inv in R5 as [-> La]. destruct (bytes_eqb mac act) eqn:E; [|discriminate]. apply bytes_eqb_eq in E. subst act. intros X. injection X as <- <-.
    split; [lia|]. exists salt, iter, body, r5. repeat split; auto; apply B.
  Qed.
  (** version 1, the default: for any entries one of the keys of two bytes makes a file that every loader accepts, whatever its password *)
  Theorem C151_bks_v1_forgery_refuted (pw salt body : bytes) (iter : Z) (st : bmap) :
    (forall p s i n, length (K p s i n) = n) -> body_of st body -> small (length salt) (2 ^ 31) ->
    exists k, length k = 2 /\ bks_parse K HM (be_bytes 4 1 ++ blob salt ++ be_bytes 4 iter ++ body ++ HM k body) pw = Ok (1%Z, st).
  Proof.
    intros LK B Ls. exists (K pw salt (signed (be_bytes 4 iter)) 2). split; [apply LK|]. pose proof (@parse_written salt body [] st pw 1%Z (be_bytes 4 iter) (or_introl eq_refl) Ls (be_bytes_length 4 iter) B) as G. rewrite app_nil_r in G. exact G.
  Qed.
End C150.
Lemma read_u8_np r : read_u8 r <> Panic.
Proof. unfold read_u8. destruct (read_n 1 r) eqn:Q; cbn [rbind]; try discriminate. exfalso. exact (read_n_np Q). Qed.
Lemma br_cert_panic r : bytes_ok r -> br_cert r = Panic -> has_negative r.
Proof.
  intros O. unfold br_cert. destruct (read_utf r) as [[t x]| |] eqn:R; cbn [rbind fst snd]; try discriminate; [|intros _; exfalso; exact (read_utf_np R)]. apply read_utf_inv in R as [-> _]; [|exact O]. apply Forall_app in O as [_ O].
  destruct (read_bytes x) as [[d y]| |] eqn:R2; cbn [rbind fst snd]; try discriminate. intros _. apply neg_app. now apply read_bytes_panic.
Qed.
Lemma br_key_panic r : bytes_ok r -> br_key r = Panic -> has_negative r.
Proof.
  intros O. unfold br_key. destruct (read_u8 r) as [[t r1]| |] eqn:R1; cbn [rbind fst snd]; try discriminate; [|intros _; exfalso; exact (read_u8_np R1)]. apply read_u8_inv in R1 as [-> B]; [|exact O]. apply Forall_app in O as [_ O]. intros E. apply neg_app. revert E.
  destruct (read_utf r1) as [[f r2]| |] eqn:R2; cbn [rbind fst snd]; try discriminate; [|intros _; exfalso; exact (read_utf_np R2)]. apply read_utf_inv in R2 as [-> F]; [|exact O]. apply Forall_app in O as [_ O]. intros E. apply neg_app. revert E.
  destruct (read_utf r2) as [[a r3]| |] eqn:R3; cbn [rbind fst snd]; try discriminate; [|intros _; exfalso; exact (read_utf_np R3)]. apply read_utf_inv in R3 as [-> A]; [|exact O]. apply Forall_app in O as [_ O]. intros E. apply neg_app. revert E.
  destruct (read_bytes r3) as [[e r4]| |] eqn:R4; cbn [rbind fst snd]; try discriminate. intros _. now apply read_bytes_panic.
Qed.
Lemma br_chain_panic n : forall r, bytes_ok r -> br_chain n r = Panic -> has_negative r.
Proof.
  induction n as [|n IH]; intros r O E; cbn [br_chain] in E; [discriminate|]. destruct (br_cert r) as [[[ty c] r1]| |] eqn:R1; cbn [rbind fst snd] in E; try discriminate; [|now apply br_cert_panic]. apply br_cert_inv in R1 as (-> & _); [|exact O]. apply Forall_app in O as [_ O]. apply neg_app.
  destruct (br_chain n r1) as [[cs' r2]| |] eqn:R2; cbn [rbind fst snd] in E; try discriminate. now apply IH.
Qed.
Lemma br_kind_panic t r : bytes_ok r -> br_kind t r = Panic -> has_negative r.
Proof.
  intros O. unfold br_kind. destruct (t =? 1)%Z; [|destruct (t =? 2)%Z; [|destruct (t =? 3)%Z; [|destruct (t =? 4)%Z; [|discriminate]]]].
  - destruct (br_cert r) eqn:R; cbn [rbind]; try discriminate. intros _. now apply br_cert_panic.
  - destruct (br_key r) eqn:R; cbn [rbind]; try discriminate. intros _. now apply br_key_panic.
  - destruct (read_bytes r) eqn:R; cbn [rbind]; try discriminate. intros _. now apply read_bytes_panic.
  - destruct (read_bytes r) eqn:R; cbn [rbind]; try discriminate. intros _. now apply read_bytes_panic.
Qed.
Lemma br_entries_panic f : forall es r, bytes_ok r -> br_entries f es r = Panic -> has_negative r.
Proof.
  induction f as [|f IH]; intros es r O E; cbn [br_entries] in E; [discriminate|]. destruct (read_u8 r) as [[t r1]| |] eqn:R1; cbn [rbind fst snd] in E; try discriminate; [|exfalso; exact (read_u8_np R1)]. apply read_u8_inv in R1 as [-> _]; [|exact O]. apply Forall_app in O as [_ O]. apply neg_app.
  destruct (t =? 0)%Z; [discriminate|]. destruct (read_utf r1) as [[a r2]| |] eqn:R2; cbn [rbind fst snd] in E; try discriminate; [|exfalso; exact (read_utf_np R2)]. apply read_utf_inv in R2 as [-> _]; [|exact O]. apply Forall_app in O as [_ O]. apply neg_app.
  destruct (read_date r2) as [[d r3]| |] eqn:R3; cbn [rbind fst snd] in E; try discriminate; [|exfalso; exact (read_date_np R3)]. apply read_date_inv in R3 as (ms & -> & _); [|exact O]. apply Forall_app in O as [_ O]. apply neg_app.
  destruct (read_int32 r3) as [[n r4]| |] eqn:R4; cbn [rbind fst snd] in E; try discriminate; [|exfalso; exact (read_int32_np R4)]. apply read_int32_inv in R4 as (cb & -> & _). apply Forall_app in O as [_ O]. apply neg_app.
  destruct (br_chain _ r4) as [[cs r5]| |] eqn:R5; cbn [rbind fst snd] in E; try discriminate; [|eapply br_chain_panic; eauto]. apply br_chain_inv in R5 as (chain & _ & _ & _ & ->); [|exact O]. apply Forall_app in O as [_ O]. apply neg_app.
  destruct (br_kind t r5) as [[k r6]| |] eqn:R6; cbn [rbind fst snd] in E; try discriminate; [|eapply br_kind_panic; eauto]. apply br_kind_inv in R6 as (_ & _ & ->); [|exact O]. apply Forall_app in O as [_ O]. apply neg_app. destruct (bfind a es); [discriminate|]. eapply IH; eauto.
Qed.
(** Parse panics only on a negative length, and does so before any MAC is checked *)
Theorem C151_bks_panic_negative_length (K : bytes -> bytes -> Z -> nat -> bytes) (HM : bytes -> bytes -> bytes) (data pw : bytes) : bytes_ok data -> bks_parse K HM data pw = Panic ->
  exists pre cb rest, data = pre ++ cb ++ rest /\ length cb = 4 /\ (signed cb < 0)%Z.
Proof.
  intros O. unfold bks_parse. destruct (read_u32 data) as [[v' r1]| |] eqn:R1; cbn [rbind fst snd]; try discriminate; [|intros _; exfalso; exact (read_u32_np R1)]. apply read_u32_inv in R1; [|exact O]. subst data. apply Forall_app in O as [_ O].
  destruct ((v' =? 1) || (v' =? 2))%Z eqn:V; [|discriminate]. intros E. apply neg_app. revert E. destruct (read_bytes r1) as [[salt r2]| |] eqn:R2; cbn [rbind fst snd]; try discriminate; [|intros _; now apply read_bytes_panic]. apply read_bytes_inv in R2 as [-> Ls]; [|exact O]. apply Forall_app in O as [_ O].
  intros E. apply neg_app. revert E. destruct (read_int32 r2) as [[it r3]| |] eqn:R3; cbn [rbind fst snd]; try discriminate; [|intros _; exfalso; exact (read_int32_np R3)]. apply read_int32_inv in R3 as (iter & -> & Li & ->). apply Forall_app in O as [_ O].
  intros E. apply neg_app. revert E. destruct (br_entries (S (length r3)) [] r3) as [[es r4]| |] eqn:R4; cbn [rbind fst snd]; try discriminate.
  - cbv zeta. destruct (read_n _ r4) as [[act r5]| |] eqn:R5; cbn [rbind fst snd]; try discriminate; [destruct (bytes_eqb _ _); discriminate|]. intros _. exfalso. exact (read_n_np R5).
  - intros _. eapply br_entries_panic; eauto.
Qed.
Theorem C151_bks_negative_salt_panics (K : bytes -> bytes -> Z -> nat -> bytes) (HM : bytes -> bytes -> bytes) (v : Z) (cb rest pw : bytes) :
  (v = 1 \/ v = 2)%Z -> length cb = 4 -> (signed cb < 0)%Z -> bks_parse K HM (be_bytes 4 v ++ cb ++ rest) pw = Panic.
Proof.
  intros V L N. unfold bks_parse. rewrite read_u32_app by lia. cbn [rbind fst snd]. assert (E : ((v =? 1) || (v =? 2))%Z = true) by lia. rewrite E. unfold read_bytes. rewrite read_int32_app by exact L. cbn [rbind fst snd]. destruct (Z.ltb_spec (signed cb) 0); [reflexivity|lia].
Qed.

(** *** C152 *)
Section C152.
  Variables (K : bytes -> bytes -> Z -> nat -> bytes) (HM : bytes -> bytes -> bytes).
  Variables (seal : bytes -> bytes -> Z -> bytes -> bytes) (unseal : bytes -> bytes -> Z -> bytes -> res bytes).
  (** a sealed key that was added, written and read again is returned for its password *)
  Theorem C152_sealed_roundtrip (st : bmap) (a salt pw alg key : bytes) (typ d : Z) (chain : list bytes) :
    (forall p s i m, unseal p s i (seal p s i m) = Ok m) -> (0 <= typ <= 2)%Z -> small (length salt) (2 ^ 31) -> small (length alg) (2 ^ 16) -> small (length key) (2 ^ 31) ->
    bfind a st = Some (reloaded seal salt (BEntry d chain (KSealed [] (Some (BKeyRec typ (bks_format typ) alg key)) pw))) ->
    snd (bks_get_sealed unseal st a pw) = Ok (Some (typ, key)).
  Proof.
    intros U B Ls La Lk F. unfold bks_get_sealed. rewrite F. cbn [reloaded be_kind]. unfold bks_decrypt. cbn [reloaded be_kind]. set (k := BKeyRec typ (bks_format typ) alg key). unfold sealed.
    destruct (Nat.eqb_spec (length (blob salt ++ be_bytes 4 2048 ++ seal pw salt 2048%Z (key_bytes k))) 0) as [E|_]; [unfold blob in E; rewrite !app_length, be_bytes_length in E; lia|].
    rewrite read_bytes_app by exact Ls. rewrite read_int32_app by apply be_bytes_length. change (signed (be_bytes 4 2048)) with 2048%Z. rewrite U.
    assert (FK : key_fits k). { unfold key_fits, k. cbn [bk_type bk_format bk_alg bk_enc]. split; [lia|]. split; [unfold bks_format; destruct (typ =? 0)%Z; [|destruct (typ =? 1)%Z]; vm_compute; reflexivity|auto]. }
    rewrite <- (app_nil_r (key_bytes k)). rewrite br_key_app by exact FK. cbn [snd rbind be_kind]. unfold bks_recover, k. cbn [bk_type bk_format bk_enc]. unfold bks_format.
    assert (T : (typ = 0 \/ typ = 1 \/ typ = 2)%Z) by lia. destruct T as [->|[->| ->]]; reflexivity.
  Qed.
  (** the key is found only if the ciphertext opens under the given password to exactly such a key *)
  Theorem C152_sealed_sound (st : bmap) (a enc pw pw0 key : bytes) (typ d : Z) (chain : list bytes) :
    (forall p s i c m, unseal p s i c = Ok m -> bytes_ok m) -> bytes_ok enc -> bfind a st = Some (BEntry d chain (KSealed enc None pw0)) -> snd (bks_get_sealed unseal st a pw) = Ok (Some (typ, key)) ->
    exists salt iter ct fmt alg rest, enc = blob salt ++ iter ++ ct /\ length iter = 4 /\ unseal pw salt (signed iter) ct = Ok (key_bytes (BKeyRec typ fmt alg key) ++ rest).
  Proof.
    intros UO Oe F. unfold bks_get_sealed. rewrite F. cbn [be_kind]. unfold bks_decrypt. cbn [be_kind]. destruct (Nat.eqb_spec (length enc) 0) as [E|_]; [cbn [snd rbind be_kind]; discriminate|].
    destruct (read_bytes enc) as [[salt r]| |] eqn:R1; try discriminate. apply read_bytes_inv in R1 as [-> Ls]; [|exact Oe]. destruct (read_int32 r) as [[it ct]| |] eqn:R2; try discriminate. apply read_int32_inv in R2 as (iter & -> & Li & ->).
    destruct (unseal pw salt (signed iter) ct) as [m| |] eqn:U; try discriminate. destruct (br_key m) as [[k rest]| |] eqn:BK; try discriminate. apply br_key_inv in BK as [-> FK]; [|eauto]. cbn [snd rbind be_kind]. intros X.
    exists salt, iter, ct, (bk_format k), (bk_alg k), rest. split; [reflexivity|]. split; [exact Li|]. rewrite U. do 2 f_equal. unfold bks_recover in X.
    destruct (Z.eqb_spec (bk_type k) 0) as [T|_]; [|destruct (Z.eqb_spec (bk_type k) 1) as [T|_]; [|destruct (Z.eqb_spec (bk_type k) 2) as [T|_]; [|discriminate]]];
      (match type of X with context [if ?b then _ else _] => destruct b end; cbn [rbind] in X; [|discriminate]; injection X as <- <-; rewrite <- T; destruct k; reflexivity).
  Qed.
  (** a loaded store with a sealed key cannot be written: Marshal panics *)
  Theorem C152_reloaded_marshal_panics_refuted (order : bmap) (salts : bytes -> bytes) (salt a enc pw0 pw : bytes) (d version iter : Z) (chain : list bytes) :
    In (a, BEntry d chain (KSealed enc None pw0)) order -> (version = 1 \/ version = 2)%Z -> bks_marshal K HM seal salts salt order pw version iter = Panic.
  Proof.
    intros I V. unfold bks_marshal. assert (X : ((version =? 1) || (version =? 2))%Z = true) by lia. rewrite X. assert (E : bw_entries seal salts order = Panic); [|rewrite E; reflexivity].
    assert (NE : forall ae, bw_entry seal salts ae <> Err). { intros [b [dd cc [? ?|?|?|? [?|] ?]]]; cbn; discriminate. }
    assert (NE2 : forall o, bw_entries seal salts o <> Err). { induction o as [|ae o IHo]; cbn [bw_entries]; [discriminate|]. destruct (bw_entry seal salts ae) eqn:G; cbn [rbind]; [|now apply NE in G|discriminate]. destruct (bw_entries seal salts o); cbn [rbind]; [discriminate|congruence|discriminate]. }
    induction order as [|ae order IH]; [destruct I|]. cbn [bw_entries]. destruct I as [->|I]; [reflexivity|]. destruct (bw_entry seal salts ae) eqn:G; cbn [rbind]; [|now apply NE in G|reflexivity]. rewrite IH by exact I. reflexivity.
  Qed.
  (** once it was opened with its password, the store is written, but the key is then sealed with the empty password *)
  Theorem C152_reseal_empty_password_refuted (st order : bmap) (salts : bytes -> bytes) (salt a enc pw storepw : bytes) (d typ version iter : Z) (chain : list bytes) (key : bytes) :
    (forall p s i m, unseal p s i (seal p s i m) = Ok m) -> (forall p s i c m, unseal p s i c = Ok m -> bytes_ok m) ->
    bfind a st = Some (BEntry d chain (KSealed enc None [])) -> snd (bks_get_sealed unseal st a pw) = Ok (Some (typ, key)) ->
    let st' := fst (bks_get_sealed unseal st a pw) in
    NoDup (map fst st') -> Permutation st' order -> Forall (fun ae => writable seal (salts (fst ae)) (fst ae) (snd ae)) st' -> (version = 1 \/ version = 2)%Z -> small (length salt) (2 ^ 31) -> (0 <= iter < 2 ^ 31)%Z -> small (length (salts a)) (2 ^ 31) ->
    exists file st2, bks_marshal K HM seal salts salt order storepw version iter = Ok file /\ bks_parse K HM file storepw = Ok (version, st2) /\ snd (bks_get_sealed unseal st2 a []) = Ok (Some (typ, key)).
  Proof.
    intros U UO F G st' N P W V Ls Bi La. destruct (@C150_bks_roundtrip K HM seal st' order salts salt storepw version iter N P W V Ls Bi) as (file & st2 & E1 & E2 & E3). exists file, st2. split; [exact E1|]. split; [exact E2|].
    assert (X : exists k, bfind a st' = Some (BEntry d chain (KSealed [] (Some k) [])) /\ key_fits k /\ rbind (bks_recover k) (fun x => Ok (Some x)) = Ok (Some (typ, key))).
    { revert G. unfold st', bks_get_sealed. rewrite F. cbn [be_kind]. unfold bks_decrypt. cbn [be_kind be_date be_chain]. destruct (Nat.eqb_spec (length enc) 0) as [E|_]; [cbn [snd rbind be_kind]; discriminate|].
      destruct (read_bytes enc) as [[s r]| |]; try discriminate. destruct (read_int32 r) as [[it ct]| |]; try discriminate. destruct (unseal pw s it ct) as [m| |] eqn:Um; try discriminate. destruct (br_key m) as [[k rest]| |] eqn:BK; try discriminate.
      apply br_key_inv in BK as [_ FK]; [|eauto]. cbn [fst snd rbind be_kind]. intros G. exists k. rewrite bfind_put, bytes_eqb_refl. auto. }
    destruct X as (k & Fk & FK & Rk). unfold bks_get_sealed. rewrite E3, Fk. cbn [option_map reloaded be_kind]. unfold bks_decrypt. cbn [reloaded be_kind be_date be_chain]. unfold sealed.
    match goal with |- context [Nat.eqb ?x 0] => destruct (Nat.eqb_spec x 0) as [E|_]; [unfold blob in E; rewrite !app_length, be_bytes_length in E; lia|] end.
    rewrite read_bytes_app by exact La. rewrite read_int32_app by apply be_bytes_length. change (signed (be_bytes 4 2048)) with 2048%Z. rewrite U. rewrite <- (app_nil_r (key_bytes k)). rewrite br_key_app by exact FK. cbn [snd rbind be_kind]. exact Rk.
  Qed.
  (** a password under which the data decrypts to something that is not a key replaces the key by an empty one, which is what is then written *)
  Theorem C152_failed_open_destroys_refuted (st : bmap) (salts : bytes -> bytes) (a salt iter ct m pw pw0 : bytes) (d : Z) (chain : list bytes) :
    let enc := blob salt ++ iter ++ ct in small (length salt) (2 ^ 31) -> length iter = 4 -> bfind a st = Some (BEntry d chain (KSealed enc None pw0)) -> unseal pw salt (signed iter) ct = Ok m -> br_key m = Err ->
    let r := bks_get_sealed unseal st a pw in let e' := BEntry d chain (KSealed enc (Some (BKeyRec 0 [] [] [])) pw0) in
    snd r = Err /\ bfind a (fst r) = Some e' /\ be_kind (reloaded seal (salts a) e') = KSealed (blob (salts a) ++ be_bytes 4 2048 ++ seal pw0 (salts a) 2048%Z (repeat 0%Z 9)) None [].
  Proof.
    intros enc Ls Li F U BK. cbv zeta. assert (D : bks_decrypt unseal (BEntry d chain (KSealed enc None pw0)) pw = (BEntry d chain (KSealed enc (Some (BKeyRec 0 [] [] [])) pw0), Err)).
    { unfold bks_decrypt. cbn [be_kind be_date be_chain]. destruct (Nat.eqb_spec (length enc) 0) as [E|_]; [unfold enc, blob in E; rewrite !app_length, be_bytes_length in E; lia|].
      replace (read_bytes enc) with (Ok (salt, iter ++ ct)) by (symmetry; now apply read_bytes_app). rewrite read_int32_app by exact Li. rewrite U, BK. reflexivity. }
    unfold bks_get_sealed. rewrite F. cbn [be_kind]. rewrite D. cbn [fst snd rbind]. split; [reflexivity|]. split; [rewrite bfind_put, bytes_eqb_refl; reflexivity|reflexivity].
  Qed.
  (** a sealed entry without data makes GetSealedKey panic *)
  Theorem C152_empty_sealed_panics_refuted (st : bmap) (a pw pw0 : bytes) (d : Z) (chain : list bytes) : bfind a st = Some (BEntry d chain (KSealed [] None pw0)) -> snd (bks_get_sealed unseal st a pw) = Panic.
  Proof. intros F. unfold bks_get_sealed. rewrite F. reflexivity. Qed.
  (** plain keys, certificates and secrets are returned as they are; other kinds give nothing and no error *)
  Theorem C152_plain_getters (st : bmap) (a : bytes) (e : bentry) : bfind a st = Some e ->
    bks_get_cert st a = Ok (match be_kind e with KCert _ c => Some c | _ => None end) /\ bks_get_secret st a = Ok (match be_kind e with KSecret s => Some s | _ => None end) /\
    (forall typ alg key, (0 <= typ <= 2)%Z -> be_kind e = KKey (BKeyRec typ (bks_format typ) alg key) -> bks_get_key st a = Ok (Some (typ, key))) /\
    (match be_kind e with KSealed _ _ _ => False | _ => True end -> forall pw, bks_get_sealed unseal st a pw = (st, Ok None)).
  Proof.
    intros F. unfold bks_get_cert, bks_get_secret, bks_get_key, bks_get_sealed. rewrite F. split; [destruct (be_kind e); reflexivity|]. split; [destruct (be_kind e); reflexivity|]. split.
    - intros typ alg key B ->. assert (T : (typ = 0 \/ typ = 1 \/ typ = 2)%Z) by lia. destruct T as [->|[->| ->]]; reflexivity.
    - destruct (be_kind e); [reflexivity..|tauto].
  Qed.
End C152.

(** *** C153 *)
Section C153.
  Variables (H : bytes -> bytes) (seal seal2 : bytes -> bytes -> Z -> bytes -> bytes) (unseal2 : bytes -> bytes -> Z -> bytes -> res bytes).
  Hypothesis H_len : forall x, length (H x) = 20.
  Theorem C153_uber_parse_exact (data pw : bytes) (st : bmap) : (forall p s i c m, unseal2 p s i c = Ok m -> bytes_ok m) -> bytes_ok data ->
    uber_parse H unseal2 data pw = Ok st <->
    exists salt iter ct body rest, small (length salt) (2 ^ 31) /\ length iter = 4 /\ data = be_bytes 4 1 ++ blob salt ++ iter ++ ct /\
      unseal2 pw salt (signed iter) ct = Ok ((body ++ rest) ++ H (body ++ rest)) /\ body_of st body.
  Proof.
    intros UO O. unfold uber_parse. split.
    - destruct (read_u32 data) as [[v r1]| |] eqn:R1; cbn [rbind fst snd]; try discriminate. apply read_u32_inv in R1; [|exact O]. subst data. apply Forall_app in O as [_ O]. destruct (Z.eqb_spec v 1) as [->|]; [|discriminate].
      destruct (read_bytes r1) as [[salt r2]| |] eqn:R2; cbn [rbind fst snd]; try discriminate. apply read_bytes_inv in R2 as [-> Ls]; [|exact O]. apply Forall_app in O as [_ O]. destruct (read_int32 r2) as [[it ct]| |] eqn:R3; cbn [rbind fst snd]; try discriminate. apply read_int32_inv in R3 as (iter & -> & Li & ->).
      replace (skipn (length salt + 12) (be_bytes 4 1 ++ blob salt ++ iter ++ ct)) with ct. 2: { rewrite 2 app_assoc. rewrite skipn_app_len; [reflexivity|]. unfold blob. rewrite !app_length, !be_bytes_length. lia. }
      destruct (unseal2 pw salt (signed iter) ct) as [dd| |] eqn:U; cbn [rbind]; try discriminate. destruct (Nat.ltb_spec (length dd) 20) as [|Ld]; [discriminate|]. cbv zeta. destruct (bytes_eqb _ _) eqn:E; [|discriminate]. apply bytes_eqb_eq in E.
      set (store := firstn (length dd - 20) dd) in *. assert (Os : bytes_ok store) by (apply bytes_ok_firstn; eauto). destruct (br_entries (S (length store)) [] store) as [[es r4]| |] eqn:R4; cbn [rbind fst snd]; try discriminate. intros X. injection X as <-. apply br_entries_body in R4; [|exact Os]. destruct R4 as (body & Eb & B).
      exists salt, iter, ct, body, r4. repeat split; auto; try apply B. rewrite U. f_equal. rewrite <- Eb, E. unfold store. symmetry. apply firstn_skipn.
    - intros (salt & iter & ct & body & rest & Ls & Li & -> & U & B). rewrite read_u32_app by lia. cbn [rbind fst snd Z.eqb Pos.eqb]. rewrite read_bytes_app by exact Ls. cbn [rbind fst snd]. rewrite read_int32_app by exact Li. cbn [rbind fst snd].
      replace (skipn (length salt + 12) (be_bytes 4 1 ++ blob salt ++ iter ++ ct)) with ct. 2: { rewrite 2 app_assoc. rewrite skipn_app_len; [reflexivity|]. unfold blob. rewrite !app_length, !be_bytes_length. lia. }
      rewrite U. cbn [rbind]. assert (Os : bytes_ok (body ++ rest)) by (apply UO in U; apply Forall_app in U; apply U). rewrite (app_length (body ++ rest)), H_len. destruct (Nat.ltb_spec (length (body ++ rest) + 20) 20); [lia|]. cbv zeta.
      replace (length (body ++ rest) + 20 - 20) with (length (body ++ rest)) by lia. rewrite firstn_app_len, skipn_app_len by reflexivity. rewrite bytes_eqb_refl.
      assert (R4 : br_entries (S (length (body ++ rest))) [] (body ++ rest) = Ok (st, rest)) by (apply br_entries_body; eauto). rewrite R4. reflexivity.
  Qed.
  Theorem C153_uber_roundtrip (es order : bmap) (salts : bytes -> bytes) (salt pw : bytes) (iter : Z) :
    (forall p s i m, unseal2 p s i (seal2 p s i m) = Ok m) -> (forall p s i c m, unseal2 p s i c = Ok m -> bytes_ok m) -> (forall p s i m, bytes_ok (seal2 p s i m)) -> bytes_ok salt ->
    NoDup (map fst es) -> Permutation es order -> Forall (fun ae => writable seal (salts (fst ae)) (fst ae) (snd ae)) es -> small (length salt) (2 ^ 31) -> (0 <= iter < 2 ^ 31)%Z ->
    exists d st, uber_marshal H seal seal2 salts salt order pw iter = Ok d /\ uber_parse H unseal2 d pw = Ok st /\ forall a, bfind a st = option_map (reloaded seal (salts a)) (bfind a es).
  Proof.
    intros U UO SO Os N P W Ls Bi. assert (N2 : NoDup (map fst order)) by (eapply Permutation_NoDup; [apply Permutation_map; exact P|exact N]). assert (W2 : Forall (fun ae => writable seal (salts (fst ae)) (fst ae) (snd ae)) order) by (eapply Permutation_Forall; eauto).
    destruct (body_written N2 W2) as (body & E & B). eexists. eexists. split; [unfold uber_marshal; rewrite E; reflexivity|]. split.
    - apply C153_uber_parse_exact; [exact UO| |].
      + apply Forall_app. split; [apply be_bytes_ok|]. apply Forall_app. split; [apply Forall_app; split; [apply be_bytes_ok|exact Os]|]. apply Forall_app. split; [apply be_bytes_ok|apply SO].
      + exists salt, (be_bytes 4 iter), (seal2 pw salt iter (body ++ H body)), body, []. split; [exact Ls|]. split; [apply be_bytes_length|]. split; [reflexivity|]. split; [|exact B]. assert (SI : signed (be_bytes 4 iter) = iter) by (apply signed_be; [lia|change (256 ^ Z.of_nat 4 / 2)%Z with (2 ^ 31)%Z; lia]).
        rewrite SI, U, app_nil_r. reflexivity.
    - intros a. rewrite bfind_map_reload. f_equal. symmetry. now apply bfind_perm.
  Qed.
  (** data that decrypts to less than a digest panics instead of failing *)
  Theorem C153_uber_short_panics_refuted (pw salt iter ct m : bytes) : small (length salt) (2 ^ 31) -> length iter = 4 -> unseal2 pw salt (signed iter) ct = Ok m -> length m < 20 ->
    uber_parse H unseal2 (be_bytes 4 1 ++ blob salt ++ iter ++ ct) pw = Panic.
  Proof.
    intros Ls Li U L. unfold uber_parse. rewrite read_u32_app by lia. cbn [rbind fst snd Z.eqb Pos.eqb]. rewrite read_bytes_app by exact Ls. cbn [rbind fst snd]. rewrite read_int32_app by exact Li. cbn [rbind fst snd].
    replace (skipn (length salt + 12) (be_bytes 4 1 ++ blob salt ++ iter ++ ct)) with ct. 2: { rewrite 2 app_assoc. rewrite skipn_app_len; [reflexivity|]. unfold blob. rewrite !app_length, !be_bytes_length. lia. }
    rewrite U. cbn [rbind]. destruct (Nat.ltb_spec (length m) 20); [reflexivity|lia].
  Qed.
End C153.

(** *** instances *)
Definition tK (p s : bytes) (i : Z) (n : nat) : bytes := repeat ((fold_right Z.add 0 p + fold_right Z.add 0 s + i) mod 256)%Z n.
Definition tHM (k m : bytes) : bytes := be_bytes 20 (fold_left (fun a b => (a * 31 + b) mod 2 ^ 61)%Z (k ++ m) 7%Z).
Definition tH (m : bytes) : bytes := tHM [] m.
(** a "cipher" that checks the sum of the password and fails otherwise *)
Definition tseal (p s : bytes) (i : Z) (m : bytes) : bytes := (fold_right Z.add 0 p mod 256)%Z :: map (fun x => (x mod 256)%Z) m.
Definition tunseal (p s : bytes) (i : Z) (c : bytes) : res bytes := match c with [] => Err | x :: m => if (x =? fold_right Z.add 0 p mod 256)%Z then Ok m else Err end.
Definition ex_store : bmap := bks_add_secret (bks_add_sealed (bks_add_key (bks_add_cert [] [97]%Z [1; 2]%Z [] 5000001%Z) 0 [98]%Z [7]%Z [82]%Z [[3]%Z; [4; 4]%Z] 0) 2 [99]%Z [9; 9]%Z [65]%Z [112]%Z [] (-1500000)%Z) [97]%Z [8]%Z [] 12000000%Z.
Definition ex_salts (a : bytes) : bytes := [5; 5; 5; 5; 5; 5; 5; 5]%Z.
Example C150_instance : NoDup (map fst ex_store) /\ Forall (fun ae => writable tseal (ex_salts (fst ae)) (fst ae) (snd ae)) ex_store.
Proof. split; [vm_compute; repeat constructor; cbn; intuition discriminate|].
  change ex_store with [nth 0 ex_store ([], BEntry 0 [] (KSecret [])); nth 1 ex_store ([], BEntry 0 [] (KSecret [])); nth 2 ex_store ([], BEntry 0 [] (KSecret []))].
  apply Forall_cons; [|apply Forall_cons; [|apply Forall_cons; [|apply Forall_nil]]]; (split; [vm_compute; reflexivity|]; split; [vm_compute; split; [discriminate|reflexivity]|]; split; [vm_compute; reflexivity|]; split; [cbn; repeat (apply Forall_cons; [vm_compute; reflexivity|]); apply Forall_nil|]).
  - vm_compute. reflexivity.
  - vm_compute. repeat split; try reflexivity; discriminate.
  - vm_compute. repeat split; try reflexivity; discriminate.
Qed.
Definition ex_file : bytes := match bks_marshal tK tHM tseal ex_salts [1; 2]%Z (rev ex_store) [120]%Z 1 1000 with Ok d => d | _ => [] end.
Definition ex_loaded : bmap := match bks_parse tK tHM ex_file [120]%Z with Ok x => snd x | _ => [] end.
Example C150_instance_run : length ex_loaded = 3 /\ bks_get_secret ex_loaded [97]%Z = Ok (Some [8]%Z) /\ bks_get_key ex_loaded [98]%Z = Ok (Some (0, [7])%Z) /\ bks_get_key ex_loaded [100]%Z = Err /\
  bks_parse tK tHM ex_file [121]%Z = Err /\ bks_parse tK tHM (ex_file ++ [1]%Z) [120]%Z = Ok (1%Z, ex_loaded).
Proof. vm_compute. repeat split; reflexivity. Qed.
Example C151_instance : bks_parse tK tHM (be_bytes 4 2 ++ be_bytes 4 (-1)) [] = Panic /\ body_of [] [0%Z].
Proof. split; [vm_compute; reflexivity|]. split; [constructor|]. exists []. split; [constructor|reflexivity]. Qed.
Example C152_instance : snd (bks_get_sealed tunseal ex_loaded [99]%Z [112]%Z) = Ok (Some (2, [9; 9])%Z) /\ snd (bks_get_sealed tunseal ex_loaded [99]%Z [113]%Z) = Err /\
  bks_marshal tK tHM tseal ex_salts [1; 2]%Z ex_loaded [120]%Z 1 1000 = Panic /\
  exists d st2, bks_marshal tK tHM tseal ex_salts [1; 2]%Z (fst (bks_get_sealed tunseal ex_loaded [99]%Z [112]%Z)) [120]%Z 1 1000 = Ok d /\ bks_parse tK tHM d [120]%Z = Ok (1%Z, st2) /\
    snd (bks_get_sealed tunseal st2 [99]%Z []) = Ok (Some (2, [9; 9])%Z) /\ snd (bks_get_sealed tunseal st2 [99]%Z [112]%Z) = Err.
Proof. split; [vm_compute; reflexivity|]. split; [vm_compute; reflexivity|]. split; [vm_compute; reflexivity|]. do 2 eexists. split; [vm_compute; reflexivity|]. split; [vm_compute; reflexivity|]. split; vm_compute; reflexivity. Qed.
Example C153_instance : exists d st, uber_marshal tH tseal tseal ex_salts [1; 2]%Z ex_store [120]%Z 1000 = Ok d /\ uber_parse tH tunseal d [120]%Z = Ok st /\ bks_get_secret st [97]%Z = Ok (Some [8]%Z) /\
  uber_parse tH tunseal d [121]%Z = Err /\ uber_parse tH tunseal (be_bytes 4 1 ++ be_bytes 4 0 ++ be_bytes 4 1 ++ [0; 1]%Z) [] = Panic.
Proof. do 2 eexists. split; [vm_compute; reflexivity|]. split; [vm_compute; reflexivity|]. split; [vm_compute; reflexivity|]. split; vm_compute; reflexivity. Qed.

Definition assum_bks := (C150_bks_history, C150_bks_adds, C150_bks_roundtrip, C150_bks_format, C151_bks_parse_exact, C151_bks_v1_forgery_refuted, C151_bks_panic_negative_length, C151_bks_negative_salt_panics,
  C152_sealed_roundtrip, C152_sealed_sound, C152_reloaded_marshal_panics_refuted, C152_reseal_empty_password_refuted, C152_failed_open_destroys_refuted, C152_empty_sealed_panics_refuted, C152_plain_getters,
  C153_uber_parse_exact, C153_uber_roundtrip, C153_uber_short_panics_refuted).
Print Assumptions assum_bks.
