(** PBES1 (RFC 8018 section 6.1, RFC 7292 appendix C) and the encryption schemes of PBES2, for C134-C136. *)
From Verif Require Import Base BlockModeModel StreamSpec FeedbackSpec CcmModel CcmSpec FlModel KdfSpec PemModel PemSpec PbeModel.
Set Implicit Arguments. Unset Strict Implicit.
Local Open Scope nat_scope.

Definition hsize (h : hkind) : nat := match h with HSha1 => 20 | _ => 16 end.
Definition hashes (hash : hkind -> bytes -> bytes) : Prop := forall h x, length (hash h x) = hsize h /\ bytes_ok (hash h x).
Definition bsize1 (k : bkind1) : nat := match k with D1Twofish => 16 | _ => 8 end.
Definition bkey1 (k : bkind1) (n : nat) : Prop :=
  match k with D1Des => n = 8 | D1TDes => n = 24 | D1TwoDes => n = 16 | D1Rc2 => 1 <= n <= 128 | D1Cast5 => n = 16 | D1Twofish => n = 32 end.
Definition block_ciphers1 (newc : bkind1 -> bytes -> res cipher) : Prop :=
  forall k key, bkey1 k (length key) -> bytes_ok key -> exists c, newc k key = Ok c /\ lawful c /\ len_ok c /\ bsz c = bsize1 k.

(** the key and the iv of a password: the PKCS#12 derivation with the identifiers 1 and 2, or the two parts of PBKDF1's T_c = H(H(...H(P S))).
    A count of zero or less counts as one. *)
Definition derived (hash : hkind -> bytes -> bytes) (a : p1alg) (password salt : bytes) (iter : Z) (key iv : bytes) : Prop :=
  let r := Nat.max 1 (Z.to_nat iter) in let H := hash (q_hash a) in
  match q_derive a with
  | DPkcs12 => by_blocks (hsize (q_hash a)) (p12_block H 64 r 1 salt password) (Z.of_nat (q_key a)) key /\
               by_blocks (hsize (q_hash a)) (p12_block H 64 r 2 salt password) (Z.of_nat (q_bs a)) iv
  | DPbkdf1 => length key = q_key a /\ length iv = q_bs a /\ exists rest, Nat.iter r H (password ++ salt) = key ++ iv ++ rest
  end.
Definition pbe1_plain (hash : hkind -> bytes -> bytes) (newc : bkind1 -> bytes -> res cipher) (rc4 : bytes -> nat -> Z)
    (a : p1alg) (password : bytes) (params : der) (ct m : bytes) : Prop :=
  exists salt iter key iv, params = DSeqOI salt iter /\ derived hash a password salt iter key iv /\
    match q_kind a with
    | K1Block k => exists c, newc k key = Ok c /\ opens MCBC c iv ct m
    | K1Rc4 => m = xor_stream (rc4 key) 0 ct
    end.

(** bytes inside parameters are bytes *)
Definition der_ok (d : der) : Prop :=
  match d with DOctet b | DSeqOI b _ | DSeqIO _ b | DSeqIIO _ _ b | DSeqOD b _ => bytes_ok b | _ => True end.

(** cipherFunc gives block ciphers or an error *)
Definition good_new (r : res cipher) : Prop := match r with Ok c => lawful c /\ len_ok c /\ bsz c <= 255 | Err => True | Panic => False end.
(** GCM objects: Open returns what Seal was given, Open does not panic for a nonce of the right length, the empty nonce is refused *)
Definition good_gcm (gcm : cipher -> nat -> res aead) : Prop :=
  forall c n, gcm c n <> Panic /\ (bsz c = 16 -> 0 < n -> exists ae, gcm c n = Ok ae) /\
    forall ae, gcm c n = Ok ae -> forall nonce, length nonce = n ->
      (forall x, bytes_ok x -> exists e, a_seal ae nonce x [] = Ok e /\ length e = length x + 16 /\ a_open ae nonce e [] = Ok x) /\
      (forall ct, a_open ae nonce ct [] <> Panic).
Definition rc5_refuses (newc5 : bytes -> Z -> Z -> res cipher) : Prop := forall key w r, (w < 0 \/ r < 0)%Z -> newc5 key w r = Err.

Section pbes2.
  Variable SB : Type.
  Variable newc : bytes -> res cipher.
  Variable newc5 : bytes -> Z -> Z -> res cipher.
  Variable newg : bytes -> SB -> res cipher.
  Variable sbox : list Z -> option SB.
  Variable gcm : cipher -> nat -> res aead.

  (** the cipher an algorithm encrypts with *)
  Definition cipher_of (k : kind2) (key : bytes) : res cipher :=
    match k with
    | K2Rc5 w r => newc5 key w r
    | K2Gost o => match sbox o with Some s => newg key s | None => Err end
    | _ => newc key
    end.
  (** the sizes fit the cipher; the data is not too long for CCM's length field; the version can be encoded *)
  Definition usable (a : p2alg) (c : cipher) (data : bytes) : Prop :=
    match r_kind a with
    | K2Sym _ | K2Gost _ => r_size a = bsz c
    | K2Rc2 v => r_size a = bsz c /\ (1 <= v <= 1024)%Z
    | K2Rc5 _ _ => True
    | K2Gcm | K2GcmIv => bsz c = 16 /\ 0 < r_size a
    | K2Ccm | K2CcmIv => bsz c = 16 /\ 7 <= r_size a <= 13 /\ (Z.of_nat (length data) < 256 ^ Z.of_nat (15 - r_size a))%Z
                         /\ (Z.of_nat (length data) < 2 ^ 62)%Z
    end.
  (** random bytes needed *)
  Definition needed (a : p2alg) (c : cipher) : nat :=
    match r_kind a with K2Sym MECB => 0 | K2Rc5 _ _ => bsz c | _ => r_size a end.

  (** the parameters written for the random iv or nonce *)
  Definition params_of (a : p2alg) (iv : bytes) : der :=
    match r_kind a with
    | K2Sym MECB => DNull
    | K2Sym _ | K2GcmIv | K2CcmIv => DOctet iv
    | K2Rc2 v => DSeqIO v iv
    | K2Rc5 w r => DSeqIIO w r iv
    | K2Gost o => DSeqOD iv o
    | K2Gcm | K2Ccm => DSeqOI iv 16
    end.

  (** what a decryption returns *)
  Definition aead_plain (mk : cipher -> nat -> res aead) (nonce key ct m : bytes) : Prop :=
    exists c ae, newc key = Ok c /\ mk c (length nonce) = Ok ae /\ a_open ae nonce ct [] = Ok m.
  (** RFC 3610 with a 16 byte tag: ct is the sealing of m *)
  Definition ccm_plain (nonce key ct m : bytes) : Prop :=
    exists c, newc key = Ok c /\ bsz c = 16 /\ 7 <= length nonce <= 13 /\ bytes_ok m /\
      (Z.of_nat (length m) <= Z.min (256 ^ Z.of_nat (15 - length nonce) - 1) (2 ^ 63 - 1 - 16))%Z /\
      ct = rfc_seal (enc c) 16 (15 - length nonce) nonce [] m.
  Definition pbe2_plain (a : p2alg) (key : bytes) (params : der) (ct m : bytes) : Prop :=
    let with_c r mode iv := exists c, r = Ok c /\ length iv = bsz c /\ opens mode c iv ct m in
    match r_kind a with
    | K2Sym MECB => exists c, newc key = Ok c /\ opens MECB c [] ct m
    | K2Sym mode => exists iv, params = DOctet iv /\ with_c (newc key) mode iv
    | K2Rc2 _ => exists v iv, params = DSeqIO v iv /\ (1 <= v <= 1024)%Z /\ with_c (newc key) MCBC iv
    | K2Rc5 _ _ => exists w r iv, params = DSeqIIO w r iv /\ with_c (newc5 key w r) MCBC iv
    | K2Gost _ => exists iv o s, params = DSeqOD iv o /\ sbox o = Some s /\ with_c (newg key s) MCFB iv
    | K2Gcm => exists nonce, (params = DOctet nonce \/ params = DSeqOI nonce 16) /\ aead_plain gcm nonce key ct m
    | K2GcmIv => exists nonce, params = DOctet nonce /\ aead_plain gcm nonce key ct m
    | K2Ccm => exists nonce, (params = DOctet nonce \/ params = DSeqOI nonce 16) /\ ccm_plain nonce key ct m
    | K2CcmIv => exists nonce, params = DOctet nonce /\ ccm_plain nonce key ct m
    end.
End pbes2.
