(** Theorems C139 to C141: the JKS key store. SHA-1 is any function [H] with digests of 20 bytes. *)
From Verif Require Import Base JksModel JksSpec JksProofs.
Set Implicit Arguments. Unset Strict Implicit.
Local Open Scope nat_scope.

(** a stand-in for SHA-1 in the examples *)
Definition toyH (x : bytes) : bytes := be_bytes 20 (fold_left (fun a b => (a * 31 + b) mod 2 ^ 61)%Z x 7%Z).
Lemma toyH_len x : length (toyH x) = 20. Proof. apply be_bytes_length. Qed.
Ltac bok := unfold bytes_ok; repeat (apply Forall_cons; [red; lia|]); apply Forall_nil.

(** ** C139: the protection of private keys *)
(** seed, key XOR chained digests, digest of password and key *)
Theorem C139_encrypt_is_protector (H : bytes -> bytes) (seed key pw : bytes) : (forall x, length (H x) = 20) -> length seed = 20 -> bytes_ok pw -> encrypt_key H seed key pw = protect H pw seed key.
Proof. intros HL. now apply encrypt_protect. Qed.
Theorem C139_roundtrip (H : bytes -> bytes) (seed key pw : bytes) : (forall x, length (H x) = 20) -> length seed = 20 -> bytes_ok pw -> decrypt_key H (encrypt_key H seed key pw) pw = Ok key.
Proof. intros HL L O. apply decrypt_exact; auto. exists seed. split; [auto|]. now apply encrypt_protect. Qed.
(** decryption returns a key exactly for its protected forms *)
Theorem C139_decrypt_exact (H : bytes -> bytes) (e pw key : bytes) : (forall x, length (H x) = 20) -> bytes_ok pw -> (decrypt_key H e pw = Ok key <-> exists seed, length seed = 20 /\ e = protect H pw seed key).
Proof. intros HL O. now apply decrypt_exact. Qed.
(** and panics on a payload of fewer than 40 bytes *)
Theorem C139_short_panics (H : bytes -> bytes) (e pw : bytes) : decrypt_key H e pw = Panic <-> length e < 40.
Proof. apply decrypt_short. Qed.
Definition ex_seed : bytes := map Z.of_nat (seq 1 20).
Example C139_instance : decrypt_key toyH (encrypt_key toyH ex_seed (repeat 65%Z 23) [112; 119]%Z) [112; 119]%Z = Ok (repeat 65%Z 23) /\ decrypt_key toyH (encrypt_key toyH ex_seed (repeat 65%Z 23) [112; 119]%Z) [112]%Z = Err.
Proof. split; [apply C139_roundtrip; [exact toyH_len|reflexivity|bok]|vm_compute; reflexivity]. Qed.
Example C139_instance_protect : length (protect toyH [112; 119]%Z ex_seed (repeat 65%Z 23)) = 63 /\ encrypt_key toyH ex_seed (repeat 65%Z 23) [112; 119]%Z = protect toyH [112; 119]%Z ex_seed (repeat 65%Z 23).
Proof. split; [vm_compute; reflexivity|apply C139_encrypt_is_protector; [exact toyH_len|reflexivity|bok]]. Qed.
Example C139_instance_short : decrypt_key toyH (repeat 0%Z 39) [] = Panic.
Proof. apply C139_short_panics. rewrite repeat_length. lia. Qed.

(** ** C140: stores built by the methods, written and read again *)
(** the methods do to a store what [step] does to a list of entries with different aliases *)
Theorem C140_history (H wrap : bytes -> bytes) (os : list op) : (forall x, length (H x) = 20) -> Forall op_ok os ->
  let st := fst (run H wrap new_jks os) in let es := fst (history H wrap [] os) in
  snd (run H wrap new_jks os) = snd (history H wrap [] os) /\ holds st es /\ NoDup (map fst es).
Proof.
  intros HL F st es. destruct (run_inv wrap HL F inv_new) as [I E]. split; [exact E|]. split; [exact (inv_holds wrap I)|]. apply I.
Qed.
(** Marshal then Load with the same password gives the same entries, dates cut to milliseconds *)
Theorem C140_marshal_load (H wrap : bytes -> bytes) (os : list op) (pw : bytes) : (forall x, length (H x) = 20) -> Forall op_ok os -> bytes_ok pw ->
  let st := fst (run H wrap new_jks os) in let es := fst (history H wrap [] os) in sizes_ok es ->
  exists st', load H (marshal H st pw) pw = Ok st' /\ holds st' (map_dates (fun t => Z.quot t 1000000 * 1000000)%Z es).
Proof.
  intros HL F O st es S. destruct (run_inv wrap HL F inv_new) as [I _]. exact (marshal_load HL O I S).
Qed.
(** the bytes that are written are the JKS format *)
Theorem C140_marshal_format (H wrap : bytes -> bytes) (os : list op) (pw : bytes) : (forall x, length (H x) = 20) -> Forall op_ok os -> bytes_ok pw ->
  let st := fst (run H wrap new_jks os) in let d := written (map_dates (fun t => Z.quot t 1000000) (fst (history H wrap [] os))) in sizes_ok (fst (history H wrap [] os)) ->
  marshal H st pw = d ++ digest H pw d.
Proof. intros HL F O st d S. destruct (run_inv wrap HL F inv_new) as [I _]. exact (marshal_written H O I S). Qed.
(** a key that was added is returned under its password, and only then *)
Theorem C140_get_key (H wrap : bytes -> bytes) (unwrap : bytes -> res bytes) (st : jks) (es : entries) (a key pw seed : bytes) (chain : list bytes) : (forall x, length (H x) = 20) -> (forall x, unwrap (wrap x) = Ok x) ->
  bytes_ok pw -> length seed = 20 -> holds st es -> last_key a es = Some (wrap (protect H pw seed key), chain) -> get_key H unwrap st a pw = Ok key /\ get_chain st a = Ok chain.
Proof.
  intros HL W O Ls (_ & Hs) L. destruct (Hs a) as (_ & K & C & _). rewrite L in K, C. cbn [option_map fst snd found] in K, C. split; [|exact C]. unfold get_key. unfold get_encoded in K. rewrite K. cbn [rbind]. rewrite W. cbn [rbind].
  apply decrypt_exact; auto. eauto.
Qed.
(** an alias of 65536 bytes is accepted, but the file that Marshal writes cannot be loaded *)
Theorem C140_long_alias_refuted : ~ (forall (H : bytes -> bytes) (pw alias cert : bytes) (now : Z), snd (add_cert new_jks alias cert now) = true -> load H (marshal H (fst (add_cert new_jks alias cert now)) pw) pw <> Err).
Proof.
  intros A. apply (A (fun _ => []) [] (repeat 97%Z (Z.to_nat 65536)) [1%Z] 0%Z); [reflexivity|]. apply long_alias; [rewrite Z2Nat.id; lia|discriminate].
Qed.
(** a failing random source leaves an empty key in place of the one of the alias *)
Theorem C140_failed_random_destroys_key (H wrap : bytes -> bytes) (st : jks) (a key pw : bytes) (chain : list bytes) (now : Z) : get_cert st a = Err ->
  let '(st', ok) := add_key H wrap st a key pw chain None now in ok = false /\ get_encoded st' a = Ok [].
Proof. intros C. unfold get_cert in C. unfold add_key, has. destruct (certs st a); [discriminate|]. split; [reflexivity|]. unfold get_encoded. cbn [keys]. unfold put. rewrite bytes_eqb_refl. reflexivity. Qed.

Definition ex_wrap (x : bytes) : bytes := 48%Z :: x.
Definition ex_unwrap (x : bytes) : res bytes := match x with [] => Err | _ :: t => Ok t end.
(** a key, a certificate under the same alias (refused), another certificate, the key again *)
Definition ex_ops : list op := [AddKey [97]%Z [1; 2; 3]%Z [112]%Z [[7; 7]%Z] ex_seed 1500000007%Z; AddCert [97]%Z [9]%Z 5%Z; AddCert [98]%Z [8; 8]%Z (-2000001)%Z; AddKey [97]%Z [4; 5]%Z [113]%Z [] ex_seed 9%Z; AddCert [99]%Z [] 1%Z].
Example C140_instance_ops : snd (history toyH ex_wrap [] ex_ops) = [true; false; true; true; false] /\
  fst (history toyH ex_wrap [] ex_ops) = [([97]%Z, KeyEntry 1500000007 (ex_wrap (protect toyH [113]%Z ex_seed [4; 5]%Z)) []); ([98]%Z, CertEntry (-2000001) [8; 8]%Z)].
Proof. split; reflexivity. Qed.
Lemma ex_ops_ok : Forall op_ok ex_ops.
Proof. unfold ex_ops. repeat (apply Forall_cons; [cbn [op_ok]; first [exact I|split; [bok|reflexivity]]|]). apply Forall_nil. Qed.
Lemma ex_sizes : sizes_ok (fst (history toyH ex_wrap [] ex_ops)).
Proof. rewrite (proj2 C140_instance_ops). split; [cbv; reflexivity|]. repeat (apply Forall_cons; [|]); try apply Forall_nil; (split; [split; [cbv; reflexivity|split; [cbn; lia|]]|cbv; reflexivity]); [split; [vm_compute; reflexivity|constructor]|cbv; reflexivity]. Qed.
Example C140_instance_load : exists st', load toyH (marshal toyH (fst (run toyH ex_wrap new_jks ex_ops)) [120]%Z) [120]%Z = Ok st' /\ get_key toyH ex_unwrap st' [97]%Z [113]%Z = Ok [4; 5]%Z /\
  get_cert st' [98]%Z = Ok [8; 8]%Z /\ get_date st' [98]%Z = Ok (-2000000)%Z /\ get_cert st' [97]%Z = Err.
Proof.
  destruct (@C140_marshal_load toyH ex_wrap ex_ops [120]%Z toyH_len ex_ops_ok ltac:(bok) ex_sizes) as (st' & L & Hs). exists st'. split; [exact L|]. rewrite (proj2 C140_instance_ops) in Hs. split.
  - refine (proj1 (@C140_get_key toyH ex_wrap ex_unwrap st' _ [97]%Z [4; 5]%Z [113]%Z ex_seed [] toyH_len _ _ eq_refl Hs _)); [reflexivity|bok|reflexivity].
  - destruct Hs as (_ & Hs). destruct (Hs [98]%Z) as (D & _ & _ & C). destruct (Hs [97]%Z) as (_ & _ & _ & C'). rewrite D, C, C'. repeat split; reflexivity.
Qed.
Example C140_instance_format : length (marshal toyH (fst (run toyH ex_wrap new_jks ex_ops)) [120]%Z) = 126.
Proof. rewrite (@C140_marshal_format toyH ex_wrap ex_ops [120]%Z toyH_len ex_ops_ok ltac:(bok) ex_sizes). vm_compute. reflexivity. Qed.
Example C140_instance_destroys : let st := fst (run toyH ex_wrap new_jks ex_ops) in get_encoded (fst (add_key toyH ex_wrap st [97]%Z [6]%Z [] [] None 0%Z)) [97]%Z = Ok [].
Proof. exact (proj2 (@C140_failed_random_destroys_key toyH ex_wrap (fst (run toyH ex_wrap new_jks ex_ops)) [97]%Z [6]%Z [] [] 0%Z eq_refl)). Qed.

(** ** C141: what Load accepts *)
(** Load returns a store exactly if the data start with the entries in the JKS format and the digest of password and entries; the last entry of an alias counts *)
Theorem C141_load_exact (H : bytes -> bytes) (data pw : bytes) : (forall x, length (H x) = 20) -> bytes_ok data -> bytes_ok pw ->
  ((exists st, load H data pw = Ok st) <-> exists es d rest, file_of es d /\ data = d ++ digest H pw d ++ rest) /\
  (forall st, load H data pw = Ok st -> exists es d rest, file_of es d /\ data = d ++ digest H pw d ++ rest /\ holds st (map_dates (fun t => t * 1000000)%Z es)).
Proof.
  intros HL O Op. split.
  - split.
    + intros (st & L). apply (load_exact HL) in L as (es & d & rest & F & E & _); auto. eauto.
    + intros (es & d & rest & F & E). eexists. exact (load_complete HL Op F E).
  - intros st L. apply (load_exact HL) in L as (es & d & rest & F & E & ->); auto. exists es, d, rest. split; [auto|]. split; [auto|]. apply load_holds.
Qed.
(** it panics only if there is a 32 bit length field with the top bit set after the header, and does on such files *)
Theorem C141_panic_negative_length (H : bytes -> bytes) (data pw : bytes) : bytes_ok data -> load H data pw = Panic ->
  exists pre cb rest, data = pre ++ cb ++ rest /\ 12 <= length pre /\ length cb = 4 /\ (signed cb < 0)%Z.
Proof.
  intros O L. destruct (load_panic O L) as (r & (p & cb & rest & -> & Lc & N) & q & Lq & ->). exists (q ++ p), cb, rest. split; [now rewrite <- app_assoc|]. split; [rewrite app_length; lia|auto].
Qed.
Definition ex_negative : bytes := (header (be_bytes 4 1) ++ be_bytes 4 1 ++ text [97] ++ be_bytes 8 0 ++ be_bytes 4 (-1))%Z.
Theorem C141_panics_refuted : ~ (forall (H : bytes -> bytes) (data pw : bytes), bytes_ok data -> load H data pw <> Panic).
Proof. intros A. apply (A toyH ex_negative []); [vm_compute; repeat (apply Forall_cons; [split; [discriminate|reflexivity]|]); apply Forall_nil|vm_compute; reflexivity]. Qed.
Example C141_instance_negative_count : exists st, load toyH (header (be_bytes 4 (-5)) ++ digest toyH [120]%Z (header (be_bytes 4 (-5))) ++ [1; 2]%Z) [120]%Z = Ok st /\ aliases st = [].
Proof.
  exists (fold_left add_one [] new_jks). split; [apply (load_exact toyH_len); [|bok|]|].
  - vm_compute. repeat (apply Forall_cons; [split; [discriminate|reflexivity]|]). apply Forall_nil.
  - exists [], (header (be_bytes 4 (-5))), [1; 2]%Z. split; [|split; reflexivity]. exists (be_bytes 4 (-5)), []. split; [split; [reflexivity|split; [apply be_bytes_ok|reflexivity]]|]. split; [constructor|]. rewrite app_nil_r. reflexivity.
  - reflexivity.
Qed.
Example C141_instance_wrong_password : load toyH (marshal toyH (fst (run toyH ex_wrap new_jks ex_ops)) [120]%Z) [121]%Z = Err.
Proof. vm_compute. reflexivity. Qed.

Definition assum_jks := (C139_encrypt_is_protector, C139_roundtrip, C139_decrypt_exact, C139_short_panics, C140_history, C140_marshal_load, C140_marshal_format, C140_get_key, C140_long_alias_refuted, C140_failed_random_destroys_key, C141_load_exact, C141_panic_negative_length, C141_panics_refuted).
Print Assumptions assum_jks.
