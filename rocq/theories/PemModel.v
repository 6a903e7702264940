(** Model of pkcs1: password protected PEM blocks (pkcs1.go, cipher.go, cipher_cbc.go, cipher_cfb.go, cipher_ofb.go, cipher_ctr.go and the table
    of cipher_setting.go). The constructors of the five block ciphers are [newc], MD5 is [H]; strings are byte strings, the headers of a block a
    list of pairs, the random source the bytes it will deliver. Error texts are dropped. The PEM text format (encoding/pem) and user defined
    ciphers (AddCipher, Cipher implementations of the caller) are not represented. *)
From Coq Require Import String Ascii.
From Verif Require Import Base PaddingModel BlockModeModel StreamModel FeedbackModel AeadSpec SivModel FernetSpec FlModel BigModel.
Set Implicit Arguments. Unset Strict Implicit.
Local Open Scope nat_scope.

Definition of_str (s : string) : bytes := map (fun a => Z.of_nat (nat_of_ascii a)) (list_ascii_of_string s).

(** ** encoding/hex: EncodeToString and DecodeString; the digits of both cases are read, an odd number of them is refused *)
Definition hex_digit (n : Z) : Z := (if n <? 10 then 48 + n else 87 + n)%Z.
Definition hex_encode (b : bytes) : bytes := flat_map (fun x => [hex_digit (x / 16); hex_digit (x mod 16)]) b.
Definition unhex (c : Z) : res Z :=
  (if (48 <=? c) && (c <=? 57) then Ok (c - 48)
   else if (97 <=? c) && (c <=? 102) then Ok (c - 87)
   else if (65 <=? c) && (c <=? 70) then Ok (c - 55) else Err)%Z.
Fixpoint hex_decode (s : bytes) : res bytes :=
  match s with
  | [] => Ok []
  | [_] => Err
  | a :: b :: t => rbind (unhex a) (fun x => rbind (unhex b) (fun y => rbind (hex_decode t) (fun r => Ok ((x * 16 + y)%Z :: r))))
  end.
(** strings.Cut(s, ","): what is before and after the first comma *)
Fixpoint cut (s : bytes) : option (bytes * bytes) :=
  match s with
  | [] => None
  | x :: t => if (x =? 44)%Z then Some ([], t) else match cut t with Some (a, b) => Some (x :: a, b) | None => None end
  end.

(** ** Encryption of a whole message with a new mode object: cipher_cbc.go:53-66, cipher_cfb.go:50-56, cipher_ofb.go:50-56, cipher_ctr.go:50-56;
    the modes ECB, CFB1 and CFB8 are used by pkcs/pbes2 *)
Inductive smode := MECB | MCBC | MCFB | MCFB1 | MCFB8 | MOFB | MCTR.
Definition sym_enc (m : smode) (c : cipher) (iv x : bytes) : res bytes :=
  match m with
  | MECB => one (mcall c false (ecb_enc_mem c false)) tt x
  | MCBC => with_iv c iv (go_cbc cbc_enc (enc c) c iv x)
  | MCFB => with_iv c iv (one (cfb_call c false) (cfb_new c iv) x)
  | MCFB1 => with_iv c iv (one (cfb1_call c false false) iv x)
  | MCFB8 => with_iv c iv (one (cfb8_call c false) iv x)
  | MOFB => with_iv c iv (one (ofb_call c) (ofb_new c iv) x)
  | MCTR => new_ctr_xor c iv x
  end.
Definition sym_dec (m : smode) (c : cipher) (iv x : bytes) : res bytes :=
  match m with
  | MECB => one (mcall c false (ecb_dec_mem c false)) tt x
  | MCBC => with_iv c iv (go_cbc cbc_dec (dec c) c iv x)
  | MCFB => with_iv c iv (one (cfb_call c true) (cfb_new c iv) x)
  | MCFB1 => with_iv c iv (one (cfb1_call c false true) iv x)
  | MCFB8 => with_iv c iv (one (cfb8_call c true) iv x)
  | MOFB => with_iv c iv (one (ofb_call c) (ofb_new c iv) x)
  | MCTR => new_ctr_xor c iv x
  end.
Definition pads (m : smode) : bool := match m with MECB | MCBC => true | _ => false end.
(** cipher_cbc.go:82-106 and the same lines in pkcs/pbes1 and pkcs/pbes2: the length check before, the padding after; a padding which cannot
    be removed is returned with the data *)
Definition unpad_or_keep (plain : bytes) : bytes := match pkcs7_unpad plain with Ok pt => pt | _ => plain end.
Definition open_padded (m : smode) (c : cipher) (iv ct : bytes) : res bytes :=
  if negb (Nat.modulo (length ct) (bsz c) =? 0) then Err
  else rbind (sym_dec m c iv ct) (fun plain =>
    if (length plain =? 0) || negb (Nat.modulo (length plain) (bsz c) =? 0) then Err else Ok (unpad_or_keep plain)).

(** ** cipher_setting.go:11-352 *)
Inductive bkind := KDes | KTDes | KAes | KSm4 | KKuz.
Record palg := PAlg { pName : bytes; pKind : bkind; pSalt : nat; pKey : nat; pBs : nat; pMode : smode }.
(** the 28 ciphers, registered by name in the same order (:75-100, 168-193, 261-286, 354-379) *)
Definition palgs : list palg :=
  [ PAlg (of_str "DES-CBC") KDes 8 8 8 MCBC;
    PAlg (of_str "DES-EDE3-CBC") KTDes 8 24 8 MCBC;
    PAlg (of_str "AES-128-CBC") KAes 8 16 16 MCBC;
    PAlg (of_str "AES-192-CBC") KAes 8 24 16 MCBC;
    PAlg (of_str "AES-256-CBC") KAes 8 32 16 MCBC;
    PAlg (of_str "SM4-CBC") KSm4 8 16 16 MCBC;
    PAlg (of_str "GRASSHOPPER-CBC") KKuz 8 32 16 MCBC;
    PAlg (of_str "DES-CFB") KDes 8 8 8 MCFB;
    PAlg (of_str "DES-EDE3-CFB") KTDes 8 24 8 MCFB;
    PAlg (of_str "AES-128-CFB") KAes 8 16 16 MCFB;
    PAlg (of_str "AES-192-CFB") KAes 8 24 16 MCFB;
    PAlg (of_str "AES-256-CFB") KAes 8 32 16 MCFB;
    PAlg (of_str "SM4-CFB") KSm4 8 16 16 MCFB;
    PAlg (of_str "GRASSHOPPER-CFB") KKuz 8 32 16 MCFB;
    PAlg (of_str "DES-OFB") KDes 8 8 8 MOFB;
    PAlg (of_str "DES-EDE3-OFB") KTDes 8 24 8 MOFB;
    PAlg (of_str "AES-128-OFB") KAes 8 16 16 MOFB;
    PAlg (of_str "AES-192-OFB") KAes 8 24 16 MOFB;
    PAlg (of_str "AES-256-OFB") KAes 8 32 16 MOFB;
    PAlg (of_str "SM4-OFB") KSm4 8 16 16 MOFB;
    PAlg (of_str "GRASSHOPPER-OFB") KKuz 8 32 16 MOFB;
    PAlg (of_str "DES-CTR") KDes 8 8 8 MCTR;
    PAlg (of_str "DES-EDE3-CTR") KTDes 8 24 8 MCTR;
    PAlg (of_str "AES-128-CTR") KAes 8 16 16 MCTR;
    PAlg (of_str "AES-192-CTR") KAes 8 24 16 MCTR;
    PAlg (of_str "AES-256-CTR") KAes 8 32 16 MCTR;
    PAlg (of_str "SM4-CTR") KSm4 8 16 16 MCTR;
    PAlg (of_str "GRASSHOPPER-CTR") KKuz 8 32 16 MCTR ]%string.
(** cipher.go:28-43: AddCipher and GetCipher; a later registration of the same name replaces the earlier one *)
Definition find_alg (name : bytes) : option palg := find (fun a => bytes_eqb (pName a) name) (rev palgs).

Record block := Block { bType : bytes; bHeaders : list (bytes * bytes); bBytes : bytes }.
Fixpoint header (k : bytes) (h : list (bytes * bytes)) : option bytes :=
  match h with [] => None | (k', v) :: t => if bytes_eqb k' k then Some v else header k t end.
Definition dek_info : bytes := of_str "DEK-Info".

Section pem.
  Variable H : bytes -> bytes.
  Variable newc : bkind -> bytes -> res cipher.

  (** cipher.go:48-63 DeriveKey; [digest[:0]] is the array of the previous digest, which is written to the hash before. The loop ends since
      digests are not empty: [fuel] is the number of bytes to make. *)
  Fixpoint dk_loop (fuel : nat) (password salt : bytes) (i : nat) (digest out : bytes) : bytes :=
    match fuel with
    | 0 => out
    | S f => if i <? length out then
        let digest := H (digest ++ password ++ salt) in
        dk_loop f password salt (i + length digest) digest (firstn i out ++ gocopy (skipn i out) digest)
      else out
    end.
  Definition derive_key (password salt : bytes) (keySize : nat) : bytes := dk_loop keySize password salt 0 [] (repeat 0%Z keySize).

  (** cipher_cbc.go:36-68, cipher_cfb.go:36-58, cipher_ofb.go:36-58, cipher_ctr.go:36-58: the ciphertext and the iv *)
  Definition p1_encrypt (a : palg) (rd password plain : bytes) : res (bytes * bytes) :=
    rbind (read_full (pBs a) rd) (fun r => let iv := fst r in
    if length iv <? pSalt a then Panic else
    let key := derive_key password (firstn (pSalt a) iv) (pKey a) in
    rbind (newc (pKind a) key) (fun c =>
    let x := if pads (pMode a) then pkcs7_pad plain (Z.of_nat (bsz c)) else plain in
    rbind (sym_enc (pMode a) c iv x) (fun e => Ok (e, iv)))).
  (** cipher_cbc.go:71-107, cipher_cfb.go:61-79, cipher_ofb.go:61-79, cipher_ctr.go:61-79 *)
  Definition p1_decrypt (a : palg) (password iv ct : bytes) : res bytes :=
    if length iv <? pSalt a then Err else
    let key := derive_key password (firstn (pSalt a) iv) (pKey a) in
    rbind (newc (pKind a) key) (fun c => if pads (pMode a) then open_padded (pMode a) c iv ct else sym_dec (pMode a) c iv ct).

  (** pkcs1.go:22-25 *)
  Definition is_encrypted (b : block) : bool := match header dek_info (bHeaders b) with Some _ => true | None => false end.
  (** pkcs1.go:42-73 *)
  Definition decrypt_pem (b : block) (password : bytes) : res bytes :=
    match header dek_info (bHeaders b) with
    | None => Err
    | Some dek =>
        match cut dek with
        | None => Err
        | Some (mode, hexIV) =>
            match find_alg mode with
            | None => Err
            | Some a => rbind (hex_decode hexIV) (fun iv => if negb (length iv =? pBs a) then Err else p1_decrypt a password iv (bBytes b))
            end
        end
    end.
  (** pkcs1.go:82-100; None is the nil cipher *)
  Definition encrypt_pem (rd blockType data password : bytes) (a : option palg) : res block :=
    match a with
    | None => Err
    | Some a =>
        rbind (p1_encrypt a rd password data) (fun r =>
        Ok (Block blockType [(of_str "Proc-Type", of_str "4,ENCRYPTED"); (dek_info, pName a ++ [44%Z] ++ hex_encode (snd r))] (fst r)))
    end.
End pem.
