(** Model of the password hashes: passhash/argon2fmt/argon2fmt.go, passhash/argon2/argon2.go, passhash/passhash9/passhash9.go.
    Strings are byte lists. Argon2 itself is the parameter [A] behind the guards of kdf/argon2 (deriveKey and blake2bHash), PBKDF2 is [P] behind
    the key check of Blowfish. From the standard library: fmt's %d is [decimal], strconv.Atoi is [atoi], strings.Split is [split], base64 is
    [b64enc] and [b64raw], [b64std], which give the bytes DecodeString returns next to an error that the code ignores. (true, nil) is [Ok tt]. *)
From Verif Require Import Base BigModel BencodeSpec.
Set Implicit Arguments. Unset Strict Implicit.
Local Open Scope Z_scope.

(** ** standard library *)
(** the alphabet A-Z a-z 0-9 + / *)
Definition alphabet : bytes := map Z.of_nat (seq 65 26 ++ seq 97 26 ++ seq 48 10 ++ [43; 47]%nat).
Definition enc_char (v : Z) : Z := nth (Z.to_nat v) alphabet 0.
Fixpoint index_of (c : Z) (l : bytes) (i : Z) : option Z :=
  match l with [] => None | x :: t => if c =? x then Some i else index_of c t (i + 1) end.
Definition dec_char (c : Z) : option Z := index_of c alphabet 0.
Fixpoint b64enc (pad : bool) (l : bytes) : bytes :=
  match l with
  | a :: b :: c :: t => enc_char (a / 4) :: enc_char (a mod 4 * 16 + b / 16) :: enc_char (b mod 16 * 4 + c / 64) :: enc_char (c mod 64) :: b64enc pad t
  | [a; b] => enc_char (a / 4) :: enc_char (a mod 4 * 16 + b / 16) :: enc_char (b mod 16 * 4) :: if pad then [61] else []
  | [a] => enc_char (a / 4) :: enc_char (a mod 4 * 16) :: if pad then [61; 61] else []
  | [] => []
  end.
(** the bytes of two, three or four characters *)
Definition quad (w x y z : Z) : bytes := [w * 4 + x / 16; x mod 16 * 16 + y / 4; y mod 4 * 64 + z].
(** decoding without padding stops at the first group with a foreign character *)
Fixpoint b64raw_go (l : bytes) : bytes :=
  match l with
  | w :: x :: y :: z :: t =>
      match dec_char w, dec_char x, dec_char y, dec_char z with
      | Some w, Some x, Some y, Some z => quad w x y z ++ b64raw_go t | _, _, _, _ => [] end
  | [w; x; y] => match dec_char w, dec_char x, dec_char y with Some w, Some x, Some y => firstn 2 (quad w x y 0) | _, _, _ => [] end
  | [w; x] => match dec_char w, dec_char x with Some w, Some x => firstn 1 (quad w x 0 0) | _, _ => [] end
  | _ => []
  end.
(** with padding: a group may end in one or two '='; whatever follows such a group is ignored *)
Fixpoint b64std_go (l : bytes) : bytes :=
  match l with
  | w :: x :: y :: z :: t =>
      match dec_char w, dec_char x with
      | Some w, Some x =>
          match dec_char y with
          | Some y => match dec_char z with
                      | Some z => quad w x y z ++ b64std_go t
                      | None => if z =? 61 then firstn 2 (quad w x y 0) else []
                      end
          | None => if (y =? 61) && (z =? 61) then firstn 1 (quad w x 0 0) else []
          end
      | _, _ => []
      end
  | _ => []
  end.
(** line feeds and carriage returns are skipped *)
Definition no_newline (l : bytes) : bytes := filter (fun c => negb ((c =? 10) || (c =? 13))) l.
Definition b64raw (l : bytes) : bytes := b64raw_go (no_newline l).
Definition b64std (l : bytes) : bytes := b64std_go (no_newline l).
(** strings.Split with a separator of one byte *)
Fixpoint split (sep : Z) (l : bytes) : list bytes :=
  match l with
  | [] => [[]]
  | c :: t => if c =? sep then [] :: split sep t else match split sep t with h :: r => (c :: h) :: r | [] => [[c]] end
  end.
(** strconv.ParseUint in base 10 with 64 bits: out of range gives 2^64 - 1 at once, a foreign character an error *)
Fixpoint scan_uint (acc : Z) (s : bytes) : option Z :=
  match s with
  | [] => Some acc
  | c :: r => if (48 <=? c) && (c <=? 57) then let a := acc * 10 + (c - 48) in if 2 ^ 64 <=? a then Some (2 ^ 64 - 1) else scan_uint a r else None
  end.
Definition uint_of (s : bytes) : option Z := match s with [] => None | _ => scan_uint 0 s end.
(** strconv.Atoi with a 64 bit int, the error dropped: 0 for a malformed number, the nearest int for one out of range *)
Definition atoi (s : bytes) : Z :=
  match s with
  | [] => 0
  | c :: r =>
      if c =? 45 then match uint_of r with Some u => - Z.min u (2 ^ 63) | None => 0 end
      else match uint_of (if c =? 43 then r else s) with Some u => Z.min u (2 ^ 63 - 1) | None => 0 end
  end.

Section pw.
  Variable A : Z -> bytes -> bytes -> Z -> Z -> Z -> Z -> bytes.
  Variable P : Z -> bytes -> bytes -> Z -> bytes.

  (** kdf/argon2/argon2.go:123-129 and blake2b.go:16-25: blake2b.New of length 0 is nil and its Write panics *)
  Definition argon2 (mode : Z) (password salt : bytes) (time memory threads keyLen : Z) : res bytes :=
    if time <? 1 then Panic else if threads <? 1 then Panic else if keyLen =? 0 then Panic
    else Ok (A mode password salt time memory threads keyLen).

  (** argon2fmt.go:35-41 Opts *)
  Record opts := Opts { oSaltLen : nat; oTime : Z; oMemory : Z; oThreads : Z; oKeyLen : Z }.
  (** argon2fmt.go:17-33 the types, as the mode constants of kdf/argon2 (0 d, 1 i, 2 id), and their names "argon2d", "argon2i", "argon2id" *)
  Definition name_d : bytes := [97; 114; 103; 111; 110; 50; 100].
  Definition name_i : bytes := [97; 114; 103; 111; 110; 50; 105].
  Definition name_id : bytes := [97; 114; 103; 111; 110; 50; 105; 100].
  (** argon2.go (passhash):26-27, the further type Argon2 = 3, "argon2" *)
  Definition name_plain : bytes := [97; 114; 103; 111; 110; 50].
  Definition type_name (plain : bool) (typ : Z) : option (bytes * Z) :=
    if typ =? 2 then Some (name_id, 2) else if typ =? 1 then Some (name_i, 1) else if typ =? 0 then Some (name_d, 0)
    else if plain && (typ =? 3) then Some (name_plain, 1) else None.
  Definition name_type (plain : bool) (n : bytes) : option Z :=
    if bytes_eqb n name_id then Some 2 else if bytes_eqb n name_i then Some 1 else if bytes_eqb n name_d then Some 0
    else if plain && bytes_eqb n name_plain then Some 1 else None.

  (** argon2fmt.go:72-126 GenerateSaltedHashWithTypeAndOpts: "$%s$v=19$m=%d,t=%d,p=%d$%s$%s" *)
  Definition fmt_generate (rd password : bytes) (typ : Z) (o : opts) : res bytes :=
    if Nat.eqb (length password) 0 then Err
    else rbind (read_full (oSaltLen o) rd) (fun sr =>
      match type_name false typ with
      | None => Err
      | Some (name, mode) =>
          rbind (argon2 mode password (fst sr) (oTime o) (oMemory o) (oThreads o) (oKeyLen o)) (fun key =>
          Ok ([36] ++ name ++ [36; 118; 61; 49; 57; 36; 109; 61] ++ decimal (oMemory o) ++ [44; 116; 61] ++ decimal (oTime o) ++
              [44; 112; 61] ++ decimal (oThreads o) ++ [36] ++ b64enc false (fst sr) ++ [36] ++ b64enc false key))
      end).
  (** argon2fmt.go:146-167: the loop over the parameters; (memory, time, threads) *)
  Fixpoint fmt_params (ps : list bytes) (acc : Z * Z * Z) : res (Z * Z * Z) :=
    match ps with
    | [] => Ok acc
    | p :: rest =>
        match split 61 p with
        | [k; v] =>
            let '(m, t, th) := acc in
            fmt_params rest (if bytes_eqb k [109] then (atoi v, t, th) else if bytes_eqb k [116] then (m, atoi v, th)
                             else if bytes_eqb k [112] then (m, t, atoi v) else acc)
        | _ => Err
        end
    end.
  (** argon2fmt.go:170-201, argon2.go:146-180: salt and key are decoded, errors dropped; the parameters are cut to 32 and 8 bits *)
  Definition check_key (plain : bool) (password name : bytes) (memory time threads : Z) (salt64 key64 : bytes) : res unit :=
    let salt := b64raw salt64 in let key := b64raw key64 in
    match name_type plain name with
    | None => Err
    | Some mode =>
        rbind (argon2 mode password salt (time mod 2 ^ 32) (memory mod 2 ^ 32) (threads mod 2 ^ 8) (Z.of_nat (length key) mod 2 ^ 32)) (fun calc =>
        if bytes_eqb key calc then Ok tt else Err)
    end.
  (** argon2fmt.go:129-202 CompareHashWithPassword *)
  Definition fmt_compare (hash password : bytes) : res unit :=
    if Nat.eqb (length hash) 0 || Nat.eqb (length password) 0 then Err
    else match split 36 hash with
         | [_; name; version; params; salt64; key64] =>
             if bytes_eqb version [118; 61; 49; 57] then
               let ps := split 44 params in
               if Nat.eqb (length ps) 3 then
                 rbind (fmt_params ps (0, 0, 0)) (fun q => let '(m, t, th) := q in check_key false password name m t th salt64 key64)
               else Err
             else Err
         | _ => Err
         end.

  (** argon2.go:76-127 (passhash): "%s$%d$%d$%d$%d$%s$%s"; the error of generateSalt is dropped and the salt is then nil *)
  Definition pa_generate (rd password : bytes) (typ : Z) (o : opts) : res bytes :=
    if Nat.eqb (length password) 0 then Err
    else let salt := match read_full (oSaltLen o) rd with Ok (s, _) => s | _ => [] end in
      match type_name true typ with
      | None => Err
      | Some (name, mode) =>
          rbind (argon2 mode password salt (oTime o) (oMemory o) (oThreads o) (oKeyLen o)) (fun key =>
          Ok (name ++ [36] ++ decimal 19 ++ [36] ++ decimal (oMemory o) ++ [36] ++ decimal (oTime o) ++ [36] ++ decimal (oThreads o) ++
              [36] ++ b64enc false salt ++ [36] ++ b64enc false key))
      end.
  (** argon2.go:130-181 CompareHashWithPassword *)
  Definition pa_compare (hash password : bytes) : res unit :=
    if Nat.eqb (length hash) 0 || Nat.eqb (length password) 0 then Err
    else match split 36 hash with
         | [name; version; memory; time; threads; salt64; key64] =>
             if atoi version =? 19 then check_key true password name (atoi memory) (atoi time) (atoi threads) salt64 key64 else Err
         | _ => Err
         end.

  (** passhash9.go:113-146 GetPbkdfPRF, and kdf/pbkdf2/prf.go:38-50: Blowfish (algorithm 2) takes keys of 1 to 56 bytes *)
  Definition pbkdf (alg : Z) (password salt : bytes) (iterations : Z) : res bytes :=
    if (alg =? 2) && (Nat.eqb (length password) 0 || Nat.ltb 56 (length password)) then Panic else Ok (P alg password salt iterations).
  Definition known_alg (alg : Z) : bool := (0 <=? alg) && (alg <=? 4).
  (** passhash9.go:29-66 GenerateHash; its panics are [Panic] *)
  Definition p9_generate (rd password : bytes) (work : Z) (alg : Z) : res bytes :=
    if negb ((0 <? work) && (work <? 512)) then Panic
    else if negb (known_alg alg) then Panic
    else match read_full 12 rd with
         | Ok (salt, _) => rbind (pbkdf alg password salt (10000 * work)) (fun key =>
             Ok ([36; 57; 36] ++ b64enc true ([to_byte alg] ++ be_bytes 2 work ++ salt ++ key)))
         | _ => Panic
         end.
  (** passhash9.go:68-111 CompareHash *)
  Definition p9_compare (password hash : bytes) : res bool :=
    if negb (Nat.eqb (length hash) 55) then Ok false
    else if negb (bytes_eqb (firstn 3 hash) [36; 57; 36]) then Ok false
    else let bin := b64std (skipn 3 hash) in
    if negb (Nat.eqb (length bin) 39) then Ok false
    else let alg := nth 0 bin 0 in let work := be_val (slice 1 2 bin) in
    if work =? 0 then Ok false
    else if 512 <? work then Panic
    else if negb (known_alg alg) then Ok false
    else rbind (pbkdf alg password (slice 3 12 bin) (10000 * work)) (fun cmp => Ok (bytes_eqb cmp (skipn 15 bin))).
End pw.
