(** Model of the JKS key store: jceks/binary.go, jceks/jks_encryptkey.go, jceks/jks_utils.go, jceks/jks_decode.go, jceks/jks_encode.go.
    Strings are byte lists; maps are partial functions. A time is a number of nanoseconds since 1970. SHA-1 is the parameter [H], asn1.Marshal and
    asn1.Unmarshal of the EncryptedPrivateKeyInfo are [wrap] and [unwrap]. Only the Bytes variants of the functions are modelled: the others
    parse or marshal PKCS#8 keys and X.509 certificates first. An io.Reader is the list of bytes left; the hash of the TeeReader is that of the
    bytes consumed. The state left in the store by a Parse that fails is not represented. *)
From Verif Require Import Base.
Set Implicit Arguments. Unset Strict Implicit.
Local Open Scope nat_scope.

Section jks.
  Variable H : bytes -> bytes.
  Variable wrap : bytes -> bytes.
  Variable unwrap : bytes -> res bytes.

  (** jks_utils.go:23-36: password[i] >> 8 of a byte is 0 *)
  Fixpoint chars_to_bytes (password : bytes) : bytes := match password with [] => [] | c :: p => Z.shiftr c 8 :: c :: chars_to_bytes p end.

  (** jks_encryptkey.go:25-36 and 62-73: the loop over the blocks of the key stream *)
  Fixpoint ks_loop (fuel : nat) (passwd keystream input : bytes) : bytes :=
    match fuel with
    | 0 => []
    | S f =>
      match input with
      | [] => []
      | _ => let keystream := firstn (length keystream) (H (passwd ++ keystream)) in
             xorl (firstn (length keystream) input) keystream ++ ks_loop f passwd keystream (skipn (length keystream) input)
      end
    end.
  (** jks_encryptkey.go:10-46, after DecryptedPrivateKeyInfo *)
  Definition decrypt_key (encr passwd : bytes) : res bytes :=
    if length encr <? 20 then Panic
    else if length encr <? 40 then Panic
    else let passwd := chars_to_bytes passwd in
         let key := ks_loop (length encr - 40) passwd (firstn 20 encr) (slice 20 (length encr - 40) encr) in
         if bytes_eqb (skipn (length encr - 20) encr) (H (passwd ++ key)) then Ok key else Err.
  (** jks_encryptkey.go:49-83; [seed] is what genRandom(20) returns *)
  Definition encrypt_key (seed key passwd : bytes) : bytes :=
    let passwd := chars_to_bytes passwd in
    seed ++ ks_loop (length key) passwd seed key ++ H (passwd ++ key).

  (** jks.go:14-41 *)
  Record jks := mk { aliases : list bytes; certs : bytes -> option bytes; keys : bytes -> option bytes; chains : bytes -> option (list bytes); dates : bytes -> option Z }.
  Definition new_jks : jks := mk [] (fun _ => None) (fun _ => None) (fun _ => None) (fun _ => None).
  Definition put {A} (m : bytes -> option A) (k : bytes) (v : A) : bytes -> option A := fun x => if bytes_eqb x k then Some v else m x.
  (** jks_utils.go:70-78 *)
  Definition has {A} (m : bytes -> option A) (k : bytes) : bool := match m k with Some _ => true | None => false end.

  (** ** writing: binary.go *)
  (** 28-30, 39-41, 93-101 and 126-133: the length is cut to 16 or 32 bits *)
  Definition write_u32 (v : Z) : bytes := be_bytes 4 v.
  Definition write_utf (v : bytes) : bytes := be_bytes 2 (Z.of_nat (length v)) ++ v.
  Definition write_bytes (v : bytes) : bytes := be_bytes 4 (Z.of_nat (length v)) ++ v.
  (** 67-71; UnixNano is an int64 and / truncates *)
  Definition int64 (z : Z) : Z := ((z + 2 ^ 63) mod 2 ^ 64 - 2 ^ 63)%Z.
  Definition write_date (t : Z) : bytes := be_bytes 8 (Z.quot (int64 t) 1000000).
  (** consts.go:7-9, "X.509" *)
  Definition cert_type : bytes := [88; 46; 53; 48; 57]%Z.
  (** jks_utils.go:17, "Mighty Aphrodite" *)
  Definition mighty : bytes := [77; 105; 103; 104; 116; 121; 32; 65; 112; 104; 114; 111; 100; 105; 116; 101]%Z.
  (** the zero Time of a missing map entry is the year 1 *)
  Definition zero_time : Z := (-62135596800 * 1000000000)%Z.
  Definition get {A} (d : A) (x : option A) : A := match x with Some v => v | None => d end.
  (** jks_encode.go:153-216: one alias *)
  Definition write_entry (st : jks) (alias : bytes) : bytes :=
    if has (certs st) alias then
      write_u32 2 ++ write_utf alias ++ write_date (get zero_time (dates st alias)) ++ write_utf cert_type ++ write_bytes (get [] (certs st alias))
    else
      let chain := get [] (chains st alias) in
      write_u32 1 ++ write_utf alias ++ write_date (get zero_time (dates st alias)) ++ write_bytes (get [] (keys st alias)) ++
      write_u32 (Z.of_nat (length chain)) ++ concat (map (fun item => write_utf cert_type ++ write_bytes item) chain).
  (** jks_encode.go:134-235 and jks_utils.go:10-21 *)
  Definition marshal (st : jks) (password : bytes) : bytes :=
    let buf := write_u32 4277010157 ++ write_u32 2 ++ write_u32 (Z.of_nat (length (aliases st))) ++ concat (map (write_entry st) (aliases st)) in
    buf ++ H ((chars_to_bytes password ++ mighty) ++ buf).

  (** ** reading: binary.go *)
  Definition read_n (n : nat) (r : bytes) : res (bytes * bytes) := if length r <? n then Err else Ok (firstn n r, skipn n r).
  (** 32-37 *)
  Definition read_u32 (r : bytes) : res (Z * bytes) := rbind (read_n 4 r) (fun x => Ok (be_val (fst x), snd x)).
  Definition read_int32 (r : bytes) : res (Z * bytes) :=
    rbind (read_n 4 r) (fun x => let v := be_val (fst x) in Ok ((if v <? 2 ^ 31 then v else v - 2 ^ 32)%Z, snd x)).
  (** 54-65: (v - sec*1000) * 10^6 nanoseconds after sec seconds, where sec = v / 1000 *)
  Definition read_date (r : bytes) : res (Z * bytes) :=
    rbind (read_n 8 r) (fun x => let v := be_val (fst x) in let v := (if v <? 2 ^ 63 then v else v - 2 ^ 64)%Z in
      let sec := Z.quot v 1000 in Ok ((sec * 1000000000 + (v - sec * 1000) * 1000 * 1000)%Z, snd x)).
  (** 76-91 *)
  Definition read_utf (r : bytes) : res (bytes * bytes) := rbind (read_n 2 r) (fun x => read_n (Z.to_nat (be_val (fst x))) (snd x)).
  (** 106-121: make of a negative length panics *)
  Definition read_bytes (r : bytes) : res (bytes * bytes) :=
    rbind (read_int32 r) (fun x => if (fst x <? 0)%Z then Panic else read_n (Z.to_nat (fst x)) (snd x)).

  (** jks_decode.go:37-55: the loop over the chain *)
  Fixpoint read_chain (n : nat) (r : bytes) : res (list bytes * bytes) :=
    match n with
    | 0 => Ok ([], r)
    | S n' =>
      rbind (read_utf r) (fun ty =>
      if bytes_eqb (fst ty) cert_type then
        rbind (read_bytes (snd ty)) (fun c => rbind (read_chain n' (snd c)) (fun cs => Ok (fst c :: fst cs, snd cs)))
      else Err)
    end.
  (** jks_decode.go:14-59 *)
  Definition parse_key (st : jks) (r : bytes) : res (jks * bytes) :=
    rbind (read_utf r) (fun a => let alias := fst a in
    rbind (read_date (snd a)) (fun d =>
    rbind (read_bytes (snd d)) (fun k =>
    rbind (read_int32 (snd k)) (fun n =>
    rbind (read_chain (Z.to_nat (fst n)) (snd n)) (fun cs =>
    Ok (mk (aliases st ++ [alias]) (certs st) (put (keys st) alias (fst k)) (put (chains st) alias (fst cs)) (put (dates st) alias (fst d)), snd cs)))))).
  (** jks_decode.go:61-90 *)
  Definition parse_cert (st : jks) (r : bytes) : res (jks * bytes) :=
    rbind (read_utf r) (fun a => let alias := fst a in
    rbind (read_date (snd a)) (fun d =>
    rbind (read_utf (snd d)) (fun ty =>
    if bytes_eqb (fst ty) cert_type then
      rbind (read_bytes (snd ty)) (fun c =>
      Ok (mk (aliases st ++ [alias]) (put (certs st) alias (fst c)) (keys st) (chains st) (put (dates st) alias (fst d)), snd c))
    else Err))).
  (** jks_decode.go:119-143 *)
  Fixpoint parse_entries (n : nat) (st : jks) (r : bytes) : res (jks * bytes) :=
    match n with
    | 0 => Ok (st, r)
    | S n' =>
      rbind (read_int32 r) (fun t =>
      rbind (if (fst t =? 1)%Z then parse_key st (snd t) else if (fst t =? 2)%Z then parse_cert st (snd t) else Err) (fun sr =>
      parse_entries n' (fst sr) (snd sr)))
    end.
  (** jks_decode.go:93-156 *)
  Definition parse (st : jks) (data password : bytes) : res jks :=
    rbind (read_u32 data) (fun magic =>
    if (fst magic =? 4277010157)%Z then
      rbind (read_u32 (snd magic)) (fun version =>
      if (fst version =? 2)%Z then
        rbind (read_int32 (snd version)) (fun count =>
        rbind (parse_entries (Z.to_nat (fst count)) st (snd count)) (fun sr =>
        let consumed := firstn (length data - length (snd sr)) data in
        let computed := H ((chars_to_bytes password ++ mighty) ++ consumed) in
        rbind (read_n (length computed) (snd sr)) (fun actual =>
        if bytes_eqb computed (fst actual) then Ok (fst sr) else Err)))
      else Err)
    else Err).
  (** jks.go:44-60 *)
  Definition load (data password : bytes) : res jks := parse new_jks data password.

  (** ** the methods: the new store and whether the error was nil *)
  (** jks_encode.go:55-58, 95-98, 126-129 *)
  Definition touch (st : jks) (alias : bytes) (now : Z) : jks :=
    if existsb (bytes_eqb alias) (aliases st) then st else mk (aliases st ++ [alias]) (certs st) (keys st) (chains st) (put (dates st) alias now).
  (** jks_encode.go:78-101; both branches on the chain store a list with the same elements *)
  Definition add_encoded (st : jks) (alias encoded : bytes) (chain : list bytes) (now : Z) : jks * bool :=
    if has (certs st) alias then (st, false)
    else (touch (mk (aliases st) (certs st) (put (keys st) alias encoded) (put (chains st) alias chain) (dates st)) alias now, true).
  (** jks_encode.go:32-61; [seed] is None if the random source fails, and then the map has nil for the alias *)
  Definition add_key (st : jks) (alias key password : bytes) (chain : list bytes) (seed : option bytes) (now : Z) : jks * bool :=
    if has (certs st) alias then (st, false)
    else match seed with
         | None => (mk (aliases st) (certs st) (put (keys st) alias []) (chains st) (dates st), false)
         | Some seed => (touch (mk (aliases st) (certs st) (put (keys st) alias (wrap (encrypt_key seed key password))) (put (chains st) alias chain) (dates st)) alias now, true)
         end.
  (** jks_encode.go:112-132 *)
  Definition add_cert (st : jks) (alias cert : bytes) (now : Z) : jks * bool :=
    if has (keys st) alias then (st, false)
    else if length cert =? 0 then (st, false)
    else (touch (mk (aliases st) (put (certs st) alias cert) (keys st) (chains st) (dates st)) alias now, true).
  Definition of_option {A} (x : option A) : res A := match x with Some v => Ok v | None => Err end.
  (** jks_decode.go:179-191 *)
  Definition get_key (st : jks) (alias password : bytes) : res bytes := rbind (of_option (keys st alias)) (fun e => rbind (unwrap e) (fun d => decrypt_key d password)).
  (** jks_decode.go:194-201, 225-232, 250-257, 260-267 *)
  Definition get_encoded (st : jks) (alias : bytes) : res bytes := of_option (keys st alias).
  Definition get_chain (st : jks) (alias : bytes) : res (list bytes) := of_option (chains st alias).
  Definition get_cert (st : jks) (alias : bytes) : res bytes := of_option (certs st alias).
  Definition get_date (st : jks) (alias : bytes) : res Z := of_option (dates st alias).
End jks.
