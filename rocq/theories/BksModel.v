(** Model of the BKS and UBER key stores: jceks/bks.go, jceks/bks_entry.go, jceks/bks_encode.go, jceks/bks_decode.go, jceks/uber_encode.go,
    jceks/uber_decode.go, over the readers and writers of jceks/binary.go in [JksModel].
    Strings are byte lists and a time is a number of nanoseconds since 1970. derivedHmacKey is the parameter [K], HMAC-SHA-1 is [HM], SHA-1 is [H];
    CipherBlockCBC.encrypt and decrypt are [seal] and [unseal] for Triple DES and [seal2], [unseal2] for Twofish, with the salt as an argument. The
    random source does not fail. The map of the entries is a list with distinct aliases; [order] is the order in which a range statement visits it.
    Only the Bytes variants of the Add functions are modelled, and Recover up to the parsing of PKCS#8 and X.509 keys. *)
From Coq Require Import Permutation.
From Verif Require Import Base JksModel.
Set Implicit Arguments. Unset Strict Implicit.
Local Open Scope nat_scope.

(** bks_entry.go:53-60 bksKeyEntry *)
Record bkey := BKeyRec { bk_type : Z; bk_format : bytes; bk_alg : bytes; bk_enc : bytes }.
(** bks_entry.go:53-60, 137-142, 159-163, 180-186: the kinds of entries; [encrypted], [nested] and [password] for a sealed one *)
Inductive kind := KCert (ctype cert : bytes) | KKey (k : bkey) | KSecret (s : bytes) | KSealed (encrypted : bytes) (nested : option bkey) (password : bytes).
(** bks_entry.go:25-29 abstractBksEntry, with the kind *)
Record bentry := BEntry { be_date : Z; be_chain : list bytes; be_kind : kind }.
(** bks.go:29-38: the map of the entries *)
Notation bmap := (list (bytes * bentry)).
Fixpoint bfind (a : bytes) (es : bmap) : option bentry := match es with [] => None | (b, e) :: t => if bytes_eqb a b then Some e else bfind a t end.
Fixpoint bput (a : bytes) (e : bentry) (es : bmap) : bmap := match es with [] => [(a, e)] | (b, e') :: t => if bytes_eqb a b then (a, e) :: t else (b, e') :: bput a e t end.

Section bks.
  Variables (K : bytes -> bytes -> Z -> nat -> bytes) (HM : bytes -> bytes -> bytes) (H : bytes -> bytes).
  Variables (seal : bytes -> bytes -> Z -> bytes -> bytes) (unseal : bytes -> bytes -> Z -> bytes -> res bytes).
  Variables (seal2 : bytes -> bytes -> Z -> bytes -> bytes) (unseal2 : bytes -> bytes -> Z -> bytes -> res bytes).

  (** "X509", "PKCS8" and "RAW" *)
  Definition x509_4 : bytes := [88; 53; 48; 57]%Z.
  Definition pkcs8 : bytes := [80; 75; 67; 83; 56]%Z.
  Definition raw : bytes := [82; 65; 87]%Z.
  (** "X.509" and "PKCS#8" *)
  Definition x509_5 : bytes := [88; 46; 53; 48; 57]%Z.
  Definition pkcs_8 : bytes := [80; 75; 67; 83; 35; 56]%Z.

  (** ** adding: an existing entry of any kind is replaced *)
  (** bks_encode.go:28-38 AddCertBytes *)
  Definition bks_add_cert (es : bmap) (alias cert : bytes) (chain : list bytes) (now : Z) : bmap := bput alias (BEntry now chain (KCert x509_4 cert)) es.
  (** bks_encode.go:64-81, 165-182, 264-281: AddKeyPrivateBytes (0), AddKeyPublicBytes (1), AddKeySecretBytes (2) *)
  Definition bks_format (typ : Z) : bytes := if (typ =? 0)%Z then pkcs8 else if (typ =? 1)%Z then x509_4 else raw.
  Definition bks_add_key (es : bmap) (typ : Z) (alias key alg : bytes) (chain : list bytes) (now : Z) : bmap :=
    bput alias (BEntry now chain (KKey (BKeyRec typ (bks_format typ) alg key))) es.
  (** bks_encode.go:108-130, 209-231, 302-324: the same WithPassword *)
  Definition bks_add_sealed (es : bmap) (typ : Z) (alias key alg password : bytes) (chain : list bytes) (now : Z) : bmap :=
    bput alias (BEntry now chain (KSealed [] (Some (BKeyRec typ (bks_format typ) alg key)) password)) es.
  (** bks_encode.go:341-354 AddSecretBytes *)
  Definition bks_add_secret (es : bmap) (alias secret : bytes) (chain : list bytes) (now : Z) : bmap := bput alias (BEntry now chain (KSecret secret)) es.

  (** ** writing *)
  (** bks_encode.go:356-370 marshalCert *)
  Definition bw_cert (ty c : bytes) : bytes := write_utf ty ++ write_bytes c.
  (** bks_encode.go:372-396 marshalKey *)
  Definition bw_key (k : bkey) : bytes := [to_byte (bk_type k)] ++ write_utf (bk_format k) ++ write_utf (bk_alg k) ++ write_bytes (bk_enc k).
  (** bks_entry.go:252-290 Encrypt; marshalKey of a nil entry panics. [salt] is what genRandom(8) returns *)
  Definition bw_sealed (salt : bytes) (nested : option bkey) (password : bytes) : res bytes :=
    match nested with
    | None => Panic
    | Some k => Ok (write_bytes salt ++ write_u32 2048 ++ seal password salt 2048 (bw_key k))
    end.
  (** bks_encode.go:427-470 marshalEntryData *)
  Definition bw_data (tag : Z) (alias : bytes) (e : bentry) : bytes :=
    [tag] ++ write_utf alias ++ write_date (be_date e) ++ write_u32 (Z.of_nat (length (be_chain e))) ++ concat (map (bw_cert x509_4) (be_chain e)).
  (** bks_encode.go:477-509: one entry; 398-407 marshalSecret and 409-424 marshalSealed *)
  Definition bw_entry (salts : bytes -> bytes) (ae : bytes * bentry) : res bytes :=
    let '(alias, e) := ae in
    match be_kind e with
    | KCert ty c => Ok (bw_data 1 alias e ++ bw_cert ty c)
    | KKey k => Ok (bw_data 2 alias e ++ bw_key k)
    | KSecret s => Ok (bw_data 3 alias e ++ write_bytes s)
    | KSealed _ n pw => rbind (bw_sealed (salts alias) n pw) (fun s => Ok (bw_data 4 alias e ++ write_bytes s))
    end.
  (** bks_encode.go:473-519 marshalEntries *)
  Fixpoint bw_entries (salts : bytes -> bytes) (order : bmap) : res bytes :=
    match order with
    | [] => Ok [0%Z]
    | ae :: t => rbind (bw_entry salts ae) (fun x => rbind (bw_entries salts t) (fun y => Ok (x ++ y)))
    end.
  (** bks_encode.go:579-583 and bks_decode.go:171-176: hmacKeySize / 8 is 20 / 8 or 160 / 8 *)
  Definition mac_key_len (version : Z) : nat := if (version =? 1)%Z then 2 else 20.
  (** bks_encode.go:535-605 Marshal *)
  Definition bks_marshal (salts : bytes -> bytes) (salt : bytes) (order : bmap) (password : bytes) (version iter : Z) : res bytes :=
    if (version =? 1)%Z || (version =? 2)%Z then
      rbind (bw_entries salts order) (fun body =>
      Ok (write_u32 version ++ write_bytes salt ++ write_u32 iter ++ body ++ HM (K password salt iter (mac_key_len version)) body))
    else Err.

  (** ** reading *)
  Definition read_u8 (r : bytes) : res (Z * bytes) := rbind (read_n 1 r) (fun x => Ok (be_val (fst x), snd x)).
  (** bks_decode.go:16-32 readCert *)
  Definition br_cert (r : bytes) : res ((bytes * bytes) * bytes) :=
    rbind (read_utf r) (fun ty => rbind (read_bytes (snd ty)) (fun c => Ok ((fst ty, fst c), snd c))).
  (** bks_decode.go:34-63 readKey *)
  Definition br_key (r : bytes) : res (bkey * bytes) :=
    rbind (read_u8 r) (fun t => rbind (read_utf (snd t)) (fun f => rbind (read_utf (snd f)) (fun a => rbind (read_bytes (snd a)) (fun e =>
    Ok (BKeyRec (fst t) (fst f) (fst a) (fst e), snd e))))).
  (** bks_decode.go:117-126: the chain; the types are dropped *)
  Fixpoint br_chain (n : nat) (r : bytes) : res (list bytes * bytes) :=
    match n with
    | 0 => Ok ([], r)
    | S n' => rbind (br_cert r) (fun c => rbind (br_chain n' (snd c)) (fun cs => Ok (snd (fst c) :: fst cs, snd cs)))
    end.
  (** bks_decode.go:128-141, with 65-75 readSecret and 78-88 readSealed *)
  Definition br_kind (tag : Z) (r : bytes) : res (kind * bytes) :=
    if (tag =? 1)%Z then rbind (br_cert r) (fun c => Ok (KCert (fst (fst c)) (snd (fst c)), snd c))
    else if (tag =? 2)%Z then rbind (br_key r) (fun k => Ok (KKey (fst k), snd k))
    else if (tag =? 3)%Z then rbind (read_bytes r) (fun s => Ok (KSecret (fst s), snd s))
    else if (tag =? 4)%Z then rbind (read_bytes r) (fun s => Ok (KSealed (fst s) None [], snd s))
    else Err.
  (** bks_decode.go:91-156 loadEntries; every turn reads a byte, so a fuel above the number of bytes is never used up *)
  Fixpoint br_entries (fuel : nat) (es : bmap) (r : bytes) : res (bmap * bytes) :=
    match fuel with
    | 0 => Err
    | S f =>
      rbind (read_u8 r) (fun t =>
      if (fst t =? 0)%Z then Ok (es, snd t)
      else rbind (read_utf (snd t)) (fun a => rbind (read_date (snd a)) (fun d => rbind (read_int32 (snd d)) (fun n =>
           rbind (br_chain (Z.to_nat (fst n)) (snd n)) (fun c => rbind (br_kind (fst t) (snd c)) (fun k =>
           match bfind (fst a) es with
           | Some _ => Err
           | None => br_entries f (bput (fst a) (BEntry (fst d) (fst c) (fst k)) es) (snd k)
           end))))))
    end.
  (** bks_decode.go:159-210 Parse of a new store; the bytes after the MAC are not read. The result is the version and the entries *)
  Definition bks_parse (data password : bytes) : res (Z * bmap) :=
    rbind (read_u32 data) (fun v =>
    if (fst v =? 1)%Z || (fst v =? 2)%Z then
      rbind (read_bytes (snd v)) (fun s => rbind (read_int32 (snd s)) (fun it =>
      rbind (br_entries (S (length (snd it))) [] (snd it)) (fun sr =>
      let consumed := firstn (length (snd it) - length (snd sr)) (snd it) in
      let computed := HM (K password (fst s) (fst it) (mac_key_len (fst v))) consumed in
      rbind (read_n (length computed) (snd sr)) (fun actual =>
      if bytes_eqb computed (fst actual) then Ok (fst v, fst sr) else Err))))
    else Err).

  (** ** sealed keys *)
  (** bks_entry.go:200-249 Decrypt: the entry afterwards, and nil or an error; the blob is the rest of the data *)
  Definition bks_decrypt (e : bentry) (password : bytes) : bentry * res unit :=
    match be_kind e with
    | KSealed enc nested pw =>
        if Nat.eqb (length enc) 0 then (e, Ok tt)
        else match read_bytes enc with
        | Ok (salt, r) =>
            match read_int32 r with
            | Ok (it, blob) =>
                match unseal password salt it blob with
                | Ok d =>
                    match br_key d with
                    | Ok (k, _) => (BEntry (be_date e) (be_chain e) (KSealed [] (Some k) pw), Ok tt)
                    | Err => (BEntry (be_date e) (be_chain e) (KSealed enc (Some (BKeyRec 0 [] [] [])) pw), Err)
                    | Panic => (e, Panic)
                    end
                | Err => (e, Err)
                | Panic => (e, Panic)
                end
            | Err => (e, Err)
            | Panic => (e, Panic)
            end
        | Err => (e, Err)
        | Panic => (e, Panic)
        end
    | _ => (e, Ok tt)
    end.
  (** bks_entry.go:88-133 Recover, up to the parsing: the type and the encoded key *)
  Definition bks_recover (k : bkey) : res (Z * bytes) :=
    if (bk_type k =? 0)%Z then if bytes_eqb (bk_format k) pkcs8 || bytes_eqb (bk_format k) pkcs_8 then Ok (0%Z, bk_enc k) else Err
    else if (bk_type k =? 1)%Z then if bytes_eqb (bk_format k) x509_5 || bytes_eqb (bk_format k) x509_4 then Ok (1%Z, bk_enc k) else Err
    else if (bk_type k =? 2)%Z then if bytes_eqb (bk_format k) raw then Ok (2%Z, bk_enc k) else Err
    else Err.
  (** bks_decode.go:376-400 GetSealedKey: the store afterwards and the key; None is an entry of another kind: no key and no error *)
  Definition bks_get_sealed (es : bmap) (alias password : bytes) : bmap * res (option (Z * bytes)) :=
    match bfind alias es with
    | None => (es, Err)
    | Some e =>
        match be_kind e with
        | KSealed _ _ _ =>
            let '(e', r) := bks_decrypt e password in
            (bput alias e' es,
             rbind r (fun _ => match be_kind e' with KSealed _ (Some k) _ => rbind (bks_recover k) (fun x => Ok (Some x)) | _ => Panic end))
        | _ => (es, Ok None)
        end
    end.
  (** bks_decode.go:269-292 GetKey, 313-331 GetCertBytes, 334-350 GetSecret, 417-431 GetCertChainBytes, 434-448 GetCreateDate *)
  Definition bks_get_key (es : bmap) (alias : bytes) : res (option (Z * bytes)) :=
    match bfind alias es with None => Err | Some e => match be_kind e with KKey k => rbind (bks_recover k) (fun x => Ok (Some x)) | _ => Ok None end end.
  Definition bks_get_cert (es : bmap) (alias : bytes) : res (option bytes) :=
    match bfind alias es with None => Err | Some e => match be_kind e with KCert _ c => Ok (Some c) | _ => Ok None end end.
  Definition bks_get_secret (es : bmap) (alias : bytes) : res (option bytes) :=
    match bfind alias es with None => Err | Some e => match be_kind e with KSecret s => Ok (Some s) | _ => Ok None end end.

  (** ** UBER *)
  (** uber_encode.go:20-94 Marshal *)
  Definition uber_marshal (salts : bytes -> bytes) (salt : bytes) (order : bmap) (password : bytes) (iter : Z) : res bytes :=
    rbind (bw_entries salts order) (fun body => Ok (write_u32 1 ++ write_bytes salt ++ write_u32 iter ++ seal2 password salt iter (body ++ H body))).
  (** uber_decode.go:12-78 Parse: decrypted[:len - 20] panics for less than 20 bytes; what follows the end mark is not read *)
  Definition uber_parse (data password : bytes) : res bmap :=
    rbind (read_u32 data) (fun v =>
    if (fst v =? 1)%Z then
      rbind (read_bytes (snd v)) (fun s => rbind (read_int32 (snd s)) (fun it =>
      rbind (unseal2 password (fst s) (fst it) (skipn (length (fst s) + 12) data)) (fun d =>
      if length d <? 20 then Panic
      else let store := firstn (length d - 20) d in
           if bytes_eqb (H store) (skipn (length d - 20) d) then
             rbind (br_entries (S (length store)) [] store) (fun sr => Ok (fst sr))
           else Err)))
    else Err).
End bks.
