(** Model of pubkey/elgamal (encryption, homomorphic product, signatures, key generation) and
    pubkey/egdsa.  The ASN.1 wrappers (EncryptASN1, SignASN1, ...) only marshal the pair of
    integers with the standard library and are not modelled; Equal, XML and PKCS encodings are
    not modelled.  rand.Prime and ProbablyPrime (elgamal.go:500-508) are not modelled: the key
    generator below starts from the numbers they return. *)
From Verif Require Import Base BigModel.
Set Implicit Arguments. Unset Strict Implicit.
Local Open Scope Z_scope.

(** elgamal.go:31-33, 60-64; egdsa.go:21-23, 45-49 *)
Record elg_pub := ElgPub { kP : Z; kG : Z; kY : Z }.
Record elg_priv := ElgPriv { kpub : elg_pub; kX : Z }.

(** elgamal.go:537-553 nonZeroRandomBytes, the loop over the bytes first read: a zero byte is
    replaced by fresh single bytes until one is not zero. *)
Definition nonzero_byte (rd : bytes) : res (Z * bytes) :=
  until (fun rd => rbind (read_full 1 rd) (fun br =>
    let x := nth 0 (fst br) 0 in Ok (if x =? 0 then None else Some x, snd br))) rd.
Fixpoint nonzero_fix (s : bytes) (rd : bytes) : res (bytes * bytes) :=
  match s with
  | [] => Ok ([], rd)
  | x :: t => rbind (if x =? 0 then nonzero_byte rd else Ok (x, rd)) (fun yr =>
              rbind (nonzero_fix t (snd yr)) (fun tr => Ok (fst yr :: fst tr, snd tr)))
  end.
Definition nonzero_bytes (n : nat) (rd : bytes) : res (bytes * bytes) :=
  rbind (read_full n rd) (fun br => nonzero_fix (fst br) (snd br)).

(** elgamal.go:171-185 EncryptLegacy *)
Definition elg_encrypt_legacy (rd : bytes) (pub : elg_pub) (msg : bytes) : res ((Z * Z) * bytes) :=
  let m := be_val msg in
  rbind (rand_int (kP pub) rd) (fun kr =>
  let k := fst kr in
  let c1 := powm (kG pub) k (kP pub) in
  let s := powm (kY pub) k (kP pub) in
  Ok ((c1, (s * m) mod kP pub), snd kr)).

(** elgamal.go:124-143 Encrypt: EM = 02 || PS || 00 || M.  [len(msg) > pLen-11] is a comparison of
    signed integers, so a modulus of fewer than 11 bytes accepts no message. *)
Definition elg_encrypt (rd : bytes) (pub : elg_pub) (msg : bytes) : res ((Z * Z) * bytes) :=
  let plen := byteceil (bitlen (kP pub)) in
  if Z.of_nat (length msg) >? Z.of_nat plen - 11 then Err
  else rbind (nonzero_bytes (plen - 1 - length msg - 2) rd) (fun pr =>
       elg_encrypt_legacy (snd pr) pub (2 :: fst pr ++ 0 :: msg)).

(** elgamal.go:188-199 DecryptLegacy *)
Definition elg_decrypt_legacy (priv : elg_priv) (c1 c2 : Z) : res bytes :=
  let p := kP (kpub priv) in
  let s := powm c1 (kX priv) p in
  match mod_inverse s p with
  | None => Err
  | Some i => Ok (big_bytes ((i * c2) mod p))
  end.

(** elgamal.go:157-161, the scan for the first zero byte: position i, the two state variables. *)
Fixpoint elg_scan (i : nat) (looking : bool) (index : nat) (em : bytes) : bool * nat :=
  match em with
  | [] => (looking, index)
  | b :: t => let eq0 := b =? 0 in
              elg_scan (S i) (if eq0 then false else looking) (if looking && eq0 then i else index) t
  end.
(** elgamal.go:146-168 Decrypt; [em[0]] panics when em is empty *)
Definition elg_decrypt (priv : elg_priv) (c1 c2 : Z) : res bytes :=
  rbind (elg_decrypt_legacy priv c1 c2) (fun em =>
  match em with
  | [] => Panic
  | b0 :: t => let (looking, index) := elg_scan 1 true 0 t in
               if negb (b0 =? 2) || looking || (index <? 9)%nat then Err
               else Ok (skipn (index + 1) em)
  end).

(** elgamal.go:231-245 EncryptBytes, 248-262 DecryptBytes: each half has BitLen(P) bytes *)
Definition elg_encrypt_bytes (rd : bytes) (pub : elg_pub) (msg : bytes) : res bytes :=
  rbind (elg_encrypt rd pub msg) (fun cr =>
  let n := bitlen (kP pub) in
  rbind (fill_bytes n (fst (fst cr))) (fun b1 =>
  rbind (fill_bytes n (snd (fst cr))) (fun b2 => Ok (b1 ++ b2)))).
Definition elg_decrypt_bytes (priv : elg_priv) (ct : bytes) : res bytes :=
  let n := bitlen (kP (kpub priv)) in
  if negb (length ct =? 2 * n)%nat then Err
  else let c1 := be_val (firstn n ct) in
       let c2 := be_val (slice n n ct) in
       if (kP (kpub priv) <=? c1) || (kP (kpub priv) <=? c2) then Err
       else elg_decrypt priv c1 c2.

(** elgamal.go:267-296 HomomorphicEncTwo, 301-335 HommorphicEncMultiple *)
Definition elg_hom_two (pub : elg_pub) (c1 c2 d1 d2 : bytes) : res (Z * Z) :=
  let p := kP pub in
  if (be_val c1 >? p) && (be_val c2 >? p) then Err
  else if (be_val d1 >? p) && (be_val d2 >? p) then Err
  else Ok ((be_val c1 * be_val d1) mod p, (be_val c2 * be_val d2) mod p).
Fixpoint elg_hom_loop (p : Z) (C1 C2 : Z) (cts : list (bytes * bytes)) : res (Z * Z) :=
  match cts with
  | [] => Ok (C1, C2)
  | (c1, c2) :: r => if (be_val c1 >? p) && (be_val c2 >? p) then Err
                     else elg_hom_loop p ((C1 * be_val c1) mod p) ((C2 * be_val c2) mod p) r
  end.
Definition elg_hom_many (pub : elg_pub) (cts : list (bytes * bytes)) : res (Z * Z) :=
  elg_hom_loop (kP pub) 1 1 cts.

(** elgamal.go:338-385 Sign.  k is drawn below p-2 until it is not 1 and is prime to p-1. *)
Definition elg_sign_k (p : Z) (rd : bytes) : res (Z * bytes) :=
  until (fun rd => rbind (rand_int (p - 2) rd) (fun kr =>
    let k := fst kr in
    Ok (if k =? 1 then None else if Z.gcd k (p - 1) =? 1 then Some k else None, snd kr))) rd.
Definition elg_sign_with (priv : elg_priv) (hash : bytes) (k : Z) : res (Z * Z) :=
  let p := kP (kpub priv) in
  let m := be_val hash in
  let r := powm (kG (kpub priv)) k p in
  let xr := (r * kX priv) mod (p - 1) in
  let hmxr := m - xr in
  match mod_inverse k (p - 1) with
  | None => Panic
  | Some ki => Ok (r, (hmxr * ki) mod (p - 1))
  end.
Definition elg_sign (rd : bytes) (priv : elg_priv) (hash : bytes) : res (Z * Z) :=
  rbind (elg_sign_k (kP (kpub priv)) rd) (fun kr => elg_sign_with priv hash (fst kr)).

(** elgamal.go:388-425 Verify; [Ok true] is "verified", an error stands for (false, err) *)
Definition elg_verify (pub : elg_pub) (hash : bytes) (r s : Z) : res bool :=
  let p := kP pub in
  if r <? 0 then Err else if r >? p then Err
  else if s <? 0 then Err else if s >? p - 1 then Err
  else let m := be_val hash in
       if powm (kG pub) m p =? (powm (kY pub) r p * powm r s p) mod p then Ok true else Err.

(** elgamal.go:462-476 SignBytes, 480-490 VerifyBytes *)
Definition elg_sign_bytes (rd : bytes) (priv : elg_priv) (hash : bytes) : res bytes :=
  rbind (elg_sign rd priv hash) (fun rs =>
  let n := bitlen (kP (kpub priv)) in
  rbind (fill_bytes n (fst rs)) (fun b1 =>
  rbind (fill_bytes n (snd rs)) (fun b2 => Ok (b1 ++ b2)))).
Definition elg_verify_bytes (pub : elg_pub) (hash sig : bytes) : res bool :=
  let n := bitlen (kP pub) in
  if negb (length sig =? 2 * n)%nat then Err
  else elg_verify pub hash (be_val (firstn n sig)) (be_val (slice n n sig)).

(** elgamal.go:510-525, 228-259 of egdsa.go: the search for g, given p and q *)
Definition elg_gen_g (p q : Z) (rd : bytes) : res (Z * bytes) :=
  until (fun rd => rbind (rand_int p rd) (fun gr =>
    let g := fst gr in
    Ok (if powm g 2 p =? 1 then None else if powm g q p =? 1 then Some g else None, snd gr))) rd.
(** elgamal.go:98-121 GenerateKey, 75-97 of egdsa.go, given the prime q of rand.Prime and the
    secret x of math/rand's [Rand], which is documented to lie in [0, q-1). *)
Definition elg_generate (q x : Z) (rd : bytes) : res elg_priv :=
  let p := q * 2 + 1 in
  rbind (elg_gen_g p q rd) (fun gr =>
  Ok (ElgPriv (ElgPub p (fst gr) (powm (fst gr) x p)) x)).

(** egdsa.go:131-181 Sign.  k is drawn below p and lowered by one, so it may be -1. *)
Definition egd_sign_k (p : Z) (rd : bytes) : res (Z * bytes) :=
  until (fun rd => rbind (rand_int p rd) (fun kr =>
    let k := fst kr - 3 + 2 in
    Ok (if Z.gcd k (p - 1) =? 1 then Some k else None, snd kr))) rd.
(** egdsa.go:155-158, 202-205; Mod panics for p = 3 *)
Definition egd_m (p : Z) (hash : bytes) : res Z :=
  if p - 3 =? 0 then Panic else Ok (be_val hash mod (p - 3) + 2).
Definition egd_sign_with (priv : elg_priv) (hash : bytes) (k : Z) : res (Z * Z) :=
  let p := kP (kpub priv) in
  rbind (egd_m p hash) (fun m =>
  rbind (big_exp (kG (kpub priv)) k p) (fun r =>
  let xr := r * kX priv - p * (p - 1) in
  let hmxr := (m - xr) mod (p - 1) in
  match mod_inverse k (p - 1) with
  | None => Panic
  | Some ki => Ok (r, (hmxr * ki) mod (p - 1))
  end)).
Definition egd_sign (rd : bytes) (priv : elg_priv) (hash : bytes) : res (Z * Z) :=
  rbind (egd_sign_k (kP (kpub priv)) rd) (fun kr => egd_sign_with priv hash (fst kr)).

(** egdsa.go:186-225 Verify *)
Definition egd_verify (pub : elg_pub) (hash : bytes) (r s : Z) : res bool :=
  let p := kP pub in
  if r <? 0 then Err else if r >? p then Err
  else if s <? 0 then Err else if s >? p - 1 then Err
  else rbind (egd_m p hash) (fun m =>
       if powm (kG pub) m p =? (powm (kY pub) r p * powm r s p) mod p then Ok true else Err).
