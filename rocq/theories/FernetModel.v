(** Model of /repo/fernet/{fernet,utils,key}.go. AES, HMAC-SHA256 and the base64 coder of the
    standard library are parameters. A time.Time is (seconds since year 1 as int64, nanoseconds),
    as in package time; monotonic clock readings do not matter here (the token time has none). *)
From Verif Require Import Base BlockModeModel PaddingModel FernetSpec.
Set Implicit Arguments. Unset Strict Implicit.
Local Open Scope nat_scope.

Definition int64 (x : Z) : Z := ((x + 2 ^ 63) mod 2 ^ 64 - 2 ^ 63)%Z.
(** package time *)
Definition gtime := (Z * Z)%type.
Definition unix2internal : Z := 62135596800%Z.
(** time.Unix(sec, 0) *)
Definition t_of_unix (s : Z) : gtime := (int64 (s + unix2internal), 0%Z).
(** Time.Unix *)
Definition t_unix (t : gtime) : Z := int64 (fst t - unix2internal).
(** Time.addSec: saturating *)
Definition add_sec (s d : Z) : Z :=
  let sum := int64 (s + d) in
  if Bool.eqb (s <? sum)%Z (0 <? d)%Z then sum
  else if (0 <? d)%Z then (2 ^ 63 - 1)%Z else (- (2 ^ 63 - 1))%Z.
(** Time.Add *)
Definition t_add (t : gtime) (d : Z) : gtime :=
  let dsec := Z.quot d (10 ^ 9) in
  let nsec := (snd t + Z.rem d (10 ^ 9))%Z in
  let '(dsec, nsec) :=
    if (10 ^ 9 <=? nsec)%Z then (dsec + 1, nsec - 10 ^ 9)%Z
    else if (nsec <? 0)%Z then (dsec - 1, nsec + 10 ^ 9)%Z else (dsec, nsec) in
  (add_sec (fst t) dsec, nsec).
(** Time.After *)
Definition t_after (t u : gtime) : bool :=
  ((fst u <? fst t) || (fst t =? fst u) && (snd u <? snd t))%Z.

Section fernet.
  Variables (aes : bytes -> cipher) (mac : bytes -> bytes -> bytes).
  Variables (b64enc b64dec : bytes -> bytes).
  (** utils.go:50-53 encodedLen; overhead = 1 + 8 + 16 + 32 (fernet.go:19) *)
  Definition encoded_len (n : nat) : nat := n / 16 * 16 + 16 + 57.
  (** key.go:33-39 cryptBytes, signBytes *)
  Definition crypt_bytes (k : bytes) : bytes := skipn (length k / 2) k.
  Definition sign_bytes (k : bytes) : bytes := firstn (length k / 2) k.
  (** fernet.go:74-89 encrypt: the contents of tok and the returned length *)
  Definition f_encrypt (tok msg iv : bytes) (ts : gtime) (k : bytes) : bytes * nat :=
    let tok := splice 0 [128%Z] tok in
    let tok := splice 1 (be_bytes 8 (t_unix ts mod 2 ^ 64)) tok in
    let tok := splice 9 iv tok in
    let p := pkcs7_pad msg 16 in
    let tok := splice 25 p tok in
    let n := length p in
    let tok := splice 25 (concat (cbc_enc (enc (aes (crypt_bytes k))) iv (chunks 16 (slice 25 n tok)))) tok in
    let tok := splice (25 + n) (mac (sign_bytes k) (firstn (25 + n) tok)) tok in
    (tok, 25 + n + 32).
  (** fernet.go:29-41 EncryptWithTime; iv is what rand.Reader delivered *)
  Definition encrypt_with_time (iv msg k : bytes) (at_ : gtime) : bytes :=
    let '(b, n) := f_encrypt (repeat 0%Z (encoded_len (length msg))) msg iv at_ k in
    b64enc (firstn n b).
  (** fernet.go:92-130 decrypt with msg = nil: the token buffer afterwards and the result *)
  Definition f_decrypt (tok : bytes) (ttl : Z) (now : gtime) (k : bytes) : bytes * res (option bytes) :=
    if ((length tok <? 9) || negb (nth 0 tok 0%Z =? 128)%Z)%bool then (tok, Ok None)
    else
      let ts := t_of_unix (int64 (be_val (slice 1 8 tok))) in
      if ((0 <? ttl)%Z && (t_after now (t_add ts ttl) || t_after ts (t_add now (60 * 10 ^ 9))))%bool then (tok, Ok None)
      else if length tok <=? 32 then (tok, Ok None)
      else
        let n := length tok - 32 in
        if negb (bytes_eqb (skipn n tok) (mac (sign_bytes k) (firstn n tok))) then (tok, Ok None)
        else if n <? 25 then (tok, Panic)
        else
          let pay := slice 25 (n - 25) tok in
          if negb (length pay mod 16 =? 0) then (tok, Ok None)
          else
            let iv := slice 9 16 tok in
            let pt := concat (cbc_dec (dec (aes (crypt_bytes k))) iv (chunks 16 pay)) in
            (splice 25 pt tok, match pkcs7_unpad pt with Ok m => Ok (Some m) | Err => Ok None | Panic => Panic end).
  (** fernet.go:50-63: the loop over the keys works on one buffer *)
  Fixpoint try_keys (tok : bytes) (ttl : Z) (now : gtime) (ks : list bytes) : res (option bytes) :=
    match ks with
    | [] => Ok None
    | k :: ks' =>
        match f_decrypt tok ttl now k with
        | (_, Panic) => Panic
        | (_, Err) => Err
        | (_, Ok (Some m)) => Ok (Some m)
        | (tok', Ok None) => try_keys tok' ttl now ks'
        end
    end.
  Definition decrypt_with_time (tok : bytes) (ttl : Z) (ks : list bytes) (now : gtime) : res (option bytes) :=
    try_keys (b64dec tok) ttl now ks.
End fernet.
(** key.go:23-32 NewKey *)
Definition new_key (k : bytes) : res bytes := if length k =? 32 then Ok k else Err.
