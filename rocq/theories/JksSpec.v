(** Java's JKS format and its key protector, for C139 to C141. *)
From Verif Require Import Base JksModel.
Set Implicit Arguments. Unset Strict Implicit.
Local Open Scope nat_scope.

(** the password as UTF-16, of which the code knows only the characters up to 255 *)
Definition utf16 (password : bytes) : bytes := flat_map (fun c => [0%Z; c]) password.

(** ** the key protector *)
Section protector.
  Variable H : bytes -> bytes.
  (** block 0 is the seed; block i + 1 is the digest of the password and block i *)
  Fixpoint block (pw seed : bytes) (i : nat) : bytes := match i with 0 => seed | S i' => H (pw ++ block pw seed i') end.
  (** blocks 1, 2, ..., n *)
  Definition stream (pw seed : bytes) (n : nat) : bytes := concat (map (block pw seed) (seq 1 n)).
  Definition protect (password seed key : bytes) : bytes :=
    let pw := utf16 password in seed ++ xorl key (stream pw seed (length key)) ++ H (pw ++ key).
End protector.

(** ** entries and files. Dates are in milliseconds in a file and in nanoseconds in a store. *)
Inductive entry := KeyEntry (date : Z) (encoded : bytes) (chain : list bytes) | CertEntry (date : Z) (cert : bytes).
Notation entries := (list (bytes * entry)).
Definition date_of (e : entry) : Z := match e with KeyEntry d _ _ => d | CertEntry d _ => d end.
Definition with_date (f : Z -> Z) (e : entry) : entry := match e with KeyEntry d k c => KeyEntry (f d) k c | CertEntry d c => CertEntry (f d) c end.
Definition map_dates (f : Z -> Z) (es : entries) : entries := map (fun ae => (fst ae, with_date f (snd ae))) es.

(** two's complement *)
Definition signed (bs : bytes) : Z := let m := (256 ^ Z.of_nat (length bs))%Z in (if be_val bs <? m / 2 then be_val bs else be_val bs - m)%Z.
Definition text (s : bytes) : bytes := be_bytes 2 (Z.of_nat (length s)) ++ s.
Definition blob (s : bytes) : bytes := be_bytes 4 (Z.of_nat (length s)) ++ s.
Definition x509 : bytes := [88; 46; 53; 48; 57]%Z.
Definition entry_bytes (count : bytes) (alias : bytes) (e : entry) : bytes :=
  match e with
  | KeyEntry d k chain => be_bytes 4 1 ++ text alias ++ be_bytes 8 d ++ blob k ++ count ++ concat (map (fun c => text x509 ++ blob c) chain)
  | CertEntry d c => be_bytes 4 2 ++ text alias ++ be_bytes 8 d ++ text x509 ++ blob c
  end.
Definition header (count : bytes) : bytes := be_bytes 4 4277010157 ++ be_bytes 4 2 ++ count.
Definition small (n : nat) (z : Z) : Prop := (Z.of_nat n < z)%Z.
Definition entry_ok (alias : bytes) (e : entry) : Prop :=
  small (length alias) (2 ^ 16) /\ (- 2 ^ 63 <= date_of e < 2 ^ 63)%Z /\
  match e with KeyEntry _ k chain => small (length k) (2 ^ 31) /\ Forall (fun c => small (length c) (2 ^ 31)) chain | CertEntry _ c => small (length c) (2 ^ 31) end.
(** a count is read as a signed number; negative ones as 0 *)
Definition count_is (n : nat) (count : bytes) : Prop := length count = 4 /\ bytes_ok count /\ n = Z.to_nat (signed count).
Definition chain_count (e : entry) : nat := match e with KeyEntry _ _ chain => length chain | CertEntry _ _ => 0 end.
(** [part] is what is read as an entry *)
Definition reads_as (ae : bytes * entry) (part : bytes) : Prop :=
  entry_ok (fst ae) (snd ae) /\ exists count, count_is (chain_count (snd ae)) count /\ part = entry_bytes count (fst ae) (snd ae).
Definition file_of (es : entries) (d : bytes) : Prop :=
  exists count parts, count_is (length es) count /\ Forall2 reads_as es parts /\ d = header count ++ concat parts.
(** the form that is written *)
Definition count32 (n : nat) : bytes := be_bytes 4 (Z.of_nat n).
Definition written (es : entries) : bytes := header (count32 (length es)) ++ concat (map (fun ae => entry_bytes (count32 (chain_count (snd ae))) (fst ae) (snd ae)) es).
(** "Mighty Aphrodite" *)
Definition aphrodite : bytes := [77; 105; 103; 104; 116; 121; 32; 65; 112; 104; 114; 111; 100; 105; 116; 101]%Z.
Definition digest (H : bytes -> bytes) (password d : bytes) : bytes := H (utf16 password ++ aphrodite ++ d).

(** the answer of a lookup *)
Definition found {A} (x : option A) : res A := match x with Some v => Ok v | None => Err end.
(** ** what a store holds after entries were added in order: the last one counts *)
Definition last_date (a : bytes) (es : entries) : option Z := fold_left (fun x ae => if bytes_eqb a (fst ae) then Some (date_of (snd ae)) else x) es None.
Definition last_key (a : bytes) (es : entries) : option (bytes * list bytes) :=
  fold_left (fun x ae => match snd ae with KeyEntry _ k c => if bytes_eqb a (fst ae) then Some (k, c) else x | CertEntry _ _ => x end) es None.
Definition last_cert (a : bytes) (es : entries) : option bytes :=
  fold_left (fun x ae => match snd ae with CertEntry _ c => if bytes_eqb a (fst ae) then Some c else x | KeyEntry _ _ _ => x end) es None.

(** ** histories *)
Inductive op := AddKey (alias key password : bytes) (chain : list bytes) (seed : bytes) (now : Z) | AddEncoded (alias encoded : bytes) (chain : list bytes) (now : Z) | AddCert (alias cert : bytes) (now : Z).
Fixpoint lookup (a : bytes) (es : entries) : option entry := match es with [] => None | (b, e) :: es' => if bytes_eqb a b then Some e else lookup a es' end.
Fixpoint replace (a : bytes) (e : entry) (es : entries) : entries := match es with [] => [] | (b, e') :: es' => if bytes_eqb a b then (b, e) :: es' else (b, e') :: replace a e es' end.
(** an alias keeps its place, its date and its kind *)
Definition add_key_entry (a k : bytes) (chain : list bytes) (now : Z) (es : entries) : entries * bool :=
  match lookup a es with
  | None => (es ++ [(a, KeyEntry now k chain)], true)
  | Some (KeyEntry d _ _) => (replace a (KeyEntry d k chain) es, true)
  | Some (CertEntry _ _) => (es, false)
  end.
Definition step (H : bytes -> bytes) (wrap : bytes -> bytes) (es : entries) (o : op) : entries * bool :=
  match o with
  | AddKey a k pw chain seed now => add_key_entry a (wrap (protect H pw seed k)) chain now es
  | AddEncoded a e chain now => add_key_entry a e chain now es
  | AddCert a c now =>
    if length c =? 0 then (es, false) else
    match lookup a es with
    | None => (es ++ [(a, CertEntry now c)], true)
    | Some (CertEntry d _) => (replace a (CertEntry d c) es, true)
    | Some (KeyEntry _ _ _) => (es, false)
    end
  end.
Fixpoint history (H : bytes -> bytes) (wrap : bytes -> bytes) (es : entries) (os : list op) : entries * list bool :=
  match os with [] => (es, []) | o :: os' => let '(es', ok) := step H wrap es o in let '(es'', oks) := history H wrap es' os' in (es'', ok :: oks) end.
(** lengths fit their fields and dates an int64 *)
Definition sizes_ok (es : entries) : Prop := small (length es) (2 ^ 31) /\ Forall (fun ae => entry_ok (fst ae) (snd ae) /\ small (chain_count (snd ae)) (2 ^ 31)) es.

(** ** the store, through its methods *)
(** aliases in order, and for every alias the date, key, chain and certificate *)
Definition holds (st : jks) (es : entries) : Prop := aliases st = map fst es /\ forall a,
  get_date st a = found (last_date a es) /\ get_encoded st a = found (option_map fst (last_key a es)) /\ get_chain st a = found (option_map snd (last_key a es)) /\ get_cert st a = found (last_cert a es).
Section run.
  Variables (H wrap : bytes -> bytes).
  Definition do_op (st : jks) (o : op) : jks * bool :=
    match o with
    | AddKey a k pw chain seed now => add_key H wrap st a k pw chain (Some seed) now
    | AddEncoded a e chain now => add_encoded st a e chain now
    | AddCert a c now => add_cert st a c now
    end.
  Fixpoint run (st : jks) (os : list op) : jks * list bool :=
    match os with [] => (st, []) | o :: os' => let '(st', ok) := do_op st o in let '(st'', oks) := run st' os' in (st'', ok :: oks) end.
  Definition op_ok (o : op) : Prop := match o with AddKey _ _ pw _ seed _ => bytes_ok pw /\ length seed = 20 | _ => True end.
End run.
