(** The BKS file format, for C150 to C153, over the strings ([text]), byte arrays ([blob]) and counts of [JksSpec]. *)
From Verif Require Import Base JksSpec BksModel.
Set Implicit Arguments.
Local Open Scope nat_scope.

(** ** entries: tag, alias, date in milliseconds, certificates with their types, contents *)
Definition key_bytes (k : bkey) : bytes := [bk_type k] ++ text (bk_format k) ++ text (bk_alg k) ++ blob (bk_enc k).
Definition key_fits (k : bkey) : Prop :=
  (0 <= bk_type k < 256)%Z /\ small (length (bk_format k)) (2 ^ 16) /\ small (length (bk_alg k)) (2 ^ 16) /\ small (length (bk_enc k)) (2 ^ 31).
Definition tag (k : kind) : Z := match k with KCert _ _ => 1 | KKey _ => 2 | KSecret _ => 3 | KSealed _ _ _ => 4 end.
Definition contents (k : kind) : bytes :=
  match k with KCert ty c => text ty ++ blob c | KKey k => key_bytes k | KSecret s => blob s | KSealed enc _ _ => blob enc end.
(** a sealed key read from a file is only its ciphertext *)
Definition kind_fits (k : kind) : Prop :=
  match k with
  | KCert ty c => small (length ty) (2 ^ 16) /\ small (length c) (2 ^ 31)
  | KKey k => key_fits k
  | KSecret s => small (length s) (2 ^ 31)
  | KSealed enc nested pw => small (length enc) (2 ^ 31) /\ nested = None /\ pw = []
  end.
Definition part (ms : Z) (count : bytes) (chain : list (bytes * bytes)) (alias : bytes) (k : kind) : bytes :=
  [tag k] ++ text alias ++ be_bytes 8 ms ++ count ++ concat (map (fun tc => text (fst tc) ++ blob (snd tc)) chain) ++ contents k.
(** [p] is what is read as the entry: a store keeps nanoseconds, and of the chain the certificates only *)
Definition reads_bks (ae : bytes * bentry) (p : bytes) : Prop :=
  exists ms count chain, small (length (fst ae)) (2 ^ 16) /\ (- 2 ^ 63 <= ms < 2 ^ 63)%Z /\ be_date (snd ae) = (ms * 1000000)%Z /\
    be_chain (snd ae) = map snd chain /\ count_is (length chain) count /\
    Forall (fun tc => small (length (fst tc)) (2 ^ 16) /\ small (length (snd tc)) (2 ^ 31)) chain /\
    kind_fits (be_kind (snd ae)) /\ p = part ms count chain (fst ae) (be_kind (snd ae)).
(** entries with distinct aliases, and a zero byte *)
Definition body_of (es : bmap) (body : bytes) : Prop := NoDup (map fst es) /\ exists parts, Forall2 reads_bks es parts /\ body = concat parts ++ [0%Z].

(** ** what can be written, and what it becomes when read again *)
Section written.
  Variable seal : bytes -> bytes -> Z -> bytes -> bytes.
  (** a sealed key: salt, 2048 iterations, ciphertext of the key *)
  Definition sealed (password salt : bytes) (k : bkey) : bytes := blob salt ++ be_bytes 4 2048 ++ seal password salt 2048%Z (key_bytes k).
  Definition millis (t : Z) : Z := Z.quot t 1000000.
  Definition reloaded (salt : bytes) (e : bentry) : bentry :=
    BEntry (millis (be_date e) * 1000000)%Z (be_chain e)
      (match be_kind e with KSealed _ (Some k) pw => KSealed (sealed pw salt k) None [] | k => k end).
  (** the lengths fit their fields; a sealed key is not locked *)
  Definition writable (salt alias : bytes) (e : bentry) : Prop :=
    small (length alias) (2 ^ 16) /\ (- 2 ^ 63 <= be_date e < 2 ^ 63)%Z /\ small (length (be_chain e)) (2 ^ 31) /\ Forall (fun c => small (length c) (2 ^ 31)) (be_chain e) /\
    match be_kind e with
    | KSealed _ (Some k) pw => key_fits k /\ small (length (sealed pw salt k)) (2 ^ 31)
    | KSealed _ None _ => False
    | k => kind_fits k
    end.
End written.
(** the last of a list of additions *)
Definition last_added (a : bytes) (adds : bmap) : option bentry := fold_left (fun x ae => if bytes_eqb a (fst ae) then Some (snd ae) else x) adds None.
