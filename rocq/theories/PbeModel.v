(** Model of pkcs/pbes1 and pkcs/pbes2: the password based encryption schemes behind PKCS#8 and PKCS#12 (cipher_blockcbc.go, cipher_rc4.go,
    cipher_derived_key.go, the table of cipher_setting.go and the registry of cipher.go of pbes1; the cipher_*.go files and GetCipher of pbes2).
    The DER encoding of encoding/asn1 is not modelled: algorithm parameters are the decoded values [der], and Unmarshal succeeds exactly on the
    values of the wanted shape, integers which do not fit in an int and everything else being [DOther]. Hashes, block ciphers, RC4's key stream
    and GCM of the standard library are parameters; error texts are dropped. The table of pbes2 is not written out: theorems hold for every
    combination of a mode, a cipher and the sizes; how pbes2 derives keys (pkcs8/pbes2) is not part of it. *)
From Verif Require Import Base PaddingModel BlockModeModel StreamModel StreamSpec FeedbackModel CcmModel FlModel BigModel KdfModel PemModel.
Set Implicit Arguments. Unset Strict Implicit.
Local Open Scope nat_scope.

(** a parsed parameter: OCTET STRING, NULL, and SEQUENCEs of OCTET STRING (o), INTEGER (i) and OBJECT IDENTIFIER (d) *)
Inductive der := DOctet (b : bytes) | DNull | DSeqOI (o : bytes) (i : Z) | DSeqIO (i : Z) (o : bytes) | DSeqIIO (i j : Z) (o : bytes)
  | DSeqOD (o : bytes) (d : list Z) | DOther.
Definition as_octet (d : der) : res bytes := match d with DOctet b => Ok b | _ => Err end.
Definition as_oi (d : der) : res (bytes * Z) := match d with DSeqOI o i => Ok (o, i) | _ => Err end.
Definition as_io (d : der) : res (Z * bytes) := match d with DSeqIO i o => Ok (i, o) | _ => Err end.
Definition as_iio (d : der) : res (Z * Z * bytes) := match d with DSeqIIO i j o => Ok (i, j, o) | _ => Err end.
Definition as_od (d : der) : res (bytes * list Z) := match d with DSeqOD o i => Ok (o, i) | _ => Err end.

(** * pbes1 *)
Inductive bkind1 := D1Des | D1TDes | D1TwoDes | D1Rc2 | D1Cast5 | D1Twofish.
Inductive kind1 := K1Block (k : bkind1) | K1Rc4.
Inductive hkind := HMd2 | HMd5 | HSha1.
Inductive dkind := DPkcs12 | DPbkdf1.
Record p1alg := P1Alg { q_oid : list Z; q_kind : kind1; q_hash : hkind; q_derive : dkind; q_salt : nat; q_key : nat; q_bs : nat; q_iter : Z }.
(** cipher_setting.go:52-219 *)
Definition p1algs : list p1alg :=
  [ P1Alg [1; 2; 840; 113549; 1; 12; 1; 1]%Z K1Rc4 HSha1 DPkcs12 20 16 16 2048%Z;
     P1Alg [1; 2; 840; 113549; 1; 12; 1; 2]%Z K1Rc4 HSha1 DPkcs12 20 5 5 2048%Z;
     P1Alg [1; 2; 840; 113549; 1; 12; 1; 3]%Z (K1Block D1TDes) HSha1 DPkcs12 8 24 8 2048%Z;
     P1Alg [1; 2; 840; 113549; 1; 12; 1; 4]%Z (K1Block D1TwoDes) HSha1 DPkcs12 8 16 8 2048%Z;
     P1Alg [1; 2; 840; 113549; 1; 12; 1; 5]%Z (K1Block D1Rc2) HSha1 DPkcs12 20 16 8 2048%Z;
     P1Alg [1; 2; 840; 113549; 1; 12; 1; 6]%Z (K1Block D1Rc2) HSha1 DPkcs12 20 5 8 2048%Z;
     P1Alg [1; 2; 840; 113533; 7; 66; 12]%Z (K1Block D1Cast5) HMd5 DPkcs12 8 16 8 2048%Z;
     P1Alg [1; 2; 840; 113549; 1; 12; 21]%Z (K1Block D1Twofish) HSha1 DPkcs12 16 32 16 2048%Z;
     P1Alg [1; 2; 840; 113549; 1; 5; 1]%Z (K1Block D1Des) HMd2 DPbkdf1 8 8 8 2048%Z;
     P1Alg [1; 2; 840; 113549; 1; 5; 4]%Z (K1Block D1Rc2) HMd2 DPbkdf1 20 8 8 2048%Z;
     P1Alg [1; 2; 840; 113549; 1; 5; 3]%Z (K1Block D1Des) HMd5 DPbkdf1 8 8 8 2048%Z;
     P1Alg [1; 2; 840; 113549; 1; 5; 6]%Z (K1Block D1Rc2) HMd5 DPbkdf1 20 8 8 2048%Z;
     P1Alg [1; 2; 840; 113549; 1; 5; 10]%Z (K1Block D1Des) HSha1 DPbkdf1 8 8 8 2048%Z;
     P1Alg [1; 2; 840; 113549; 1; 5; 11]%Z (K1Block D1Rc2) HSha1 DPbkdf1 20 8 8 2048%Z ].

Section pbes1.
  Variable hash : hkind -> bytes -> bytes.
  Variable newc : bkind1 -> bytes -> res cipher.
  (** crypto/rc4: the key stream of a key *)
  Variable rc4 : bytes -> nat -> Z.

  (** cipher_derived_key.go:18-26 DerivedKeyPbkdf1: the key and the iv *)
  Definition derive_pbkdf1 (h : hkind) (password salt : bytes) (iter : Z) (keyLen ivLen : nat) : res (bytes * bytes) :=
    let key := Nat.iter (Z.to_nat (iter - 1)) (hash h) (hash h (password ++ salt)) in
    if length key <? keyLen then Panic else if length key <? keyLen + ivLen then Panic
    else Ok (firstn keyLen key, slice keyLen ivLen key).
  (** cipher_derived_key.go:10-15 DerivedKeyPkcs12: 20 and 64 are fixed, whatever the hash *)
  Definition derive_pkcs12 (h : hkind) (password salt : bytes) (iter : Z) (keyLen ivLen : nat) : res (bytes * bytes) :=
    rbind (p12_key (hash h) 20 64 salt password iter 1 (Z.of_nat keyLen)) (fun key =>
    rbind (p12_key (hash h) 20 64 salt password iter 2 (Z.of_nat ivLen)) (fun iv => Ok (key, iv))).
  Definition derive (a : p1alg) (password salt : bytes) (iter : Z) : res (bytes * bytes) :=
    match q_derive a with
    | DPkcs12 => derive_pkcs12 (q_hash a) password salt iter (q_key a) (q_bs a)
    | DPbkdf1 => derive_pbkdf1 (q_hash a) password salt iter (q_key a) (q_bs a)
    end.
  (** rc4.NewCipher refuses keys of 0 and of more than 256 bytes *)
  Definition rc4_xor (key x : bytes) : res bytes :=
    if (length key <? 1) || (256 <? length key) then Err else Ok (xor_stream (rc4 key) 0 x).
  (** cipher_blockcbc.go:62-96, cipher_rc4.go:60-91 *)
  Definition p1e (a : p1alg) (rd password plain : bytes) : res (bytes * der) :=
    rbind (read_full (q_salt a) rd) (fun r => let salt := fst r in
    rbind (derive a password salt (q_iter a)) (fun kv =>
    rbind (match q_kind a with
           | K1Block k => rbind (newc k (fst kv)) (fun c => sym_enc MCBC c (snd kv) (pkcs7_pad plain (Z.of_nat (q_bs a))))
           | K1Rc4 => rc4_xor (fst kv) plain
           end) (fun e => Ok (e, DSeqOI salt (q_iter a))))).
  (** cipher_blockcbc.go:99-137, cipher_rc4.go:94-112 *)
  Definition p1d (a : p1alg) (password : bytes) (params : der) (ct : bytes) : res bytes :=
    rbind (as_oi params) (fun p =>
    rbind (derive a password (fst p) (snd p)) (fun kv =>
    match q_kind a with
    | K1Block k => rbind (newc k (fst kv)) (fun c => open_padded MCBC c (snd kv) ct)
    | K1Rc4 => rc4_xor (fst kv) ct
    end)).
  (** cipher.go:64-88 GetCipher by OID *)
  Definition get_p1 (oid : list Z) : option p1alg := find (fun a => bytes_eqb (q_oid a) oid) (rev p1algs).
End pbes1.

(** * pbes2 *)
Inductive kind2 :=
| K2Sym (m : smode)          (* cipher_ecb.go, cipher_cbc.go, cipher_cfb.go, cipher_cfb1.go, cipher_cfb8.go, cipher_ofb.go, cipher_ctr.go *)
| K2Rc2 (version : Z)        (* cipher_rc2_cbc.go *)
| K2Rc5 (w r : Z)            (* cipher_rc5_cbc.go *)
| K2Gost (sbox : list Z)     (* cipher_gost_cfb.go *)
| K2Gcm | K2GcmIv | K2Ccm | K2CcmIv.
(** the size is blockSize, or nonceSize for GCM and CCM; RC5 takes the size of the cipher *)
Record p2alg := P2Alg { r_kind : kind2; r_size : nat }.

Section pbes2.
  Variable SB : Type.
  (** cipherFunc: of a key; of a key, word size and rounds; of a key and the substitution box *)
  Variable newc : bytes -> res cipher.
  Variable newc5 : bytes -> Z -> Z -> res cipher.
  Variable newg : bytes -> SB -> res cipher.
  (** cipher_gost_cfb.go:40-55 GetGostSboxByOID *)
  Variable sbox : list Z -> option SB.
  (** cipher.NewGCMWithNonceSize *)
  Variable gcm : cipher -> nat -> res aead.

  (** ccm.NewCCMWithNonceSize(block, n): the tag has 16 bytes *)
  Definition ccm_aead (c : cipher) (n : nat) : res aead :=
    rbind (ccm_new c (Z.of_nat n) 16) (fun nt =>
    Ok (Aead (fun nonce x ad => ccm_seal c (fst nt) (snd nt) false [] nonce x ad) (fun nonce x ad => ccm_open c (fst nt) (snd nt) [] nonce x ad))).
  Definition aead_enc (mk : cipher -> nat -> res aead) (seq : bool) (a : p2alg) (rd key plain : bytes) : res (bytes * der) :=
    rbind (newc key) (fun c =>
    rbind (read_full (r_size a) rd) (fun r => let nonce := fst r in
    rbind (mk c (r_size a)) (fun ae =>
    rbind (a_seal ae nonce plain []) (fun e => Ok (e, if seq then DSeqOI nonce 16 else DOctet nonce))))).
  (** cipher_gcm.go:85-126, cipher_ccm.go:85-126 ([seq]); cipher_gcm_iv.go:77-97, cipher_ccm_iv.go. Overhead() is 16. *)
  Definition aead_dec (mk : cipher -> nat -> res aead) (seq : bool) (key : bytes) (params : der) (ct : bytes) : res bytes :=
    rbind (newc key) (fun c =>
    rbind (match (if seq then as_oi params else Err) with Ok p => Ok (fst p, Some (snd p)) | _ => rbind (as_octet params) (fun n => Ok (n, None)) end) (fun ni =>
    rbind (mk c (length (fst ni))) (fun ae =>
    if match snd ni with Some i => negb (i =? 16)%Z | None => false end then Err
    else a_open ae (fst ni) ct []))).

  (** Encrypt: cipher_cbc.go:42-72, cipher_cfb.go:42-69, cipher_cfb1.go:45-71, cipher_cfb8.go:45-71, cipher_ofb.go:44-69, cipher_ctr.go:44-69,
      cipher_ecb.go:43-63, cipher_rc2_cbc.go:48-82, cipher_rc5_cbc.go:49-85, cipher_gost_cfb.go:102-135, cipher_gcm.go:53-82 *)
  Definition p2e (a : p2alg) (rd key plain : bytes) : res (bytes * der) :=
    let padded m (c : cipher) (n : nat) (par : bytes -> der) :=
      rbind (read_full n rd) (fun r => let iv := fst r in
      rbind (sym_enc m c iv (if pads m then pkcs7_pad plain (Z.of_nat n) else plain)) (fun e => Ok (e, par iv))) in
    match r_kind a with
    | K2Sym MECB => rbind (newc key) (fun c => rbind (sym_enc MECB c [] (pkcs7_pad plain (Z.of_nat (r_size a)))) (fun e => Ok (e, DNull)))
    | K2Sym m => rbind (newc key) (fun c => padded m c (r_size a) DOctet)
    | K2Rc2 v => rbind (newc key) (fun c => padded MCBC c (r_size a) (DSeqIO v))
    | K2Rc5 w n => rbind (newc5 key w n) (fun c => padded MCBC c (bsz c) (DSeqIIO w n))
    | K2Gost o => match sbox o with None => Err | Some s => rbind (newg key s) (fun c => padded MCFB c (r_size a) (fun iv => DSeqOD iv o)) end
    | K2Gcm => aead_enc gcm true a rd key plain
    | K2GcmIv => aead_enc gcm false a rd key plain
    | K2Ccm => aead_enc ccm_aead true a rd key plain
    | K2CcmIv => aead_enc ccm_aead false a rd key plain
    end.
  (** Decrypt; the iv must have the length of a block. uint(param.WordSize) and uint(param.Rounds) wrap a negative number to one that
      rc5.NewCipher refuses, as it refuses the negative number here *)
  Definition p2d (a : p2alg) (key : bytes) (params : der) (ct : bytes) : res bytes :=
    let opened m (c : cipher) iv :=
      if negb (length iv =? bsz c) then Err else if pads m then open_padded m c iv ct else sym_dec m c iv ct in
    match r_kind a with
    | K2Sym MECB => rbind (newc key) (fun c => open_padded MECB c [] ct)
    | K2Sym m => rbind (as_octet params) (fun iv => rbind (newc key) (fun c => opened m c iv))
    | K2Rc2 _ => rbind (as_io params) (fun p => if ((1024 <? fst p) || (fst p <? 1))%Z then Err else rbind (newc key) (fun c => opened MCBC c (snd p)))
    | K2Rc5 _ _ => rbind (as_iio params) (fun p => rbind (newc5 key (fst (fst p)) (snd (fst p))) (fun c => opened MCBC c (snd p)))
    | K2Gost _ => rbind (as_od params) (fun p => match sbox (snd p) with None => Err | Some s => rbind (newg key s) (fun c => opened MCFB c (fst p)) end)
    | K2Gcm => aead_dec gcm true key params ct
    | K2GcmIv => aead_dec gcm false key params ct
    | K2Ccm => aead_dec ccm_aead true key params ct
    | K2CcmIv => aead_dec ccm_aead false key params ct
    end.
End pbes2.
