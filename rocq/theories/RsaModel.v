(** Model of pubkey/rsa: encryption.go (PublicKeyBytes, PrivateKeyBytes, pubKeyIO, priKeyIO, pubKeyDecrypt, priKeyEncrypt, decrypt,
    copyWithLeftPad, leftPad, modInverse, nonZeroRandomBytes) and lower_safe.go (LowerSafeEncrypt, LowerSafeDecrypt).
    EncryptPKCS1v15 and DecryptPKCS1v15 of Go's crypto/rsa are outside the repository: [std_encrypt] and [std_decrypt] fix their
    documented results (RFC 8017, 7.2), without their checks of the size of E and N. xml.go and nil keys are not modelled. *)
From Verif Require Import Base BigModel.
Set Implicit Arguments. Unset Strict Implicit.
Local Open Scope Z_scope.

(** crypto/rsa PublicKey, PrivateKey with Primes and Precomputed; [None] is Precomputed.Dp == nil;
    an element of [pCRT] is a CRTValue (Exp, Coeff, R) *)
Record rsa_pub := RsaPub { rN : Z; rE : Z }.
Record rsa_pre := RsaPre { pDp : Z; pDq : Z; pQinv : Z; pCRT : list (Z * Z * Z) }.
Record rsa_priv := RsaPriv { rpub : rsa_pub; rD : Z; rPrimes : list Z; rPre : option rsa_pre }.
(** encryption.go:22, 45, 67, 105, 141, 176: (N.BitLen() + 7) / 8 *)
Definition rsa_size (N : Z) : nat := byteceil (bitlen N).

(** encryption.go:288-296, the inner loop: redraw while the byte is zero *)
Fixpoint redraw (b : Z) (rd : bytes) {struct rd} : res (Z * bytes) :=
  if b =? 0 then match rd with [] => Err | x :: t => redraw (Z.lxor x 66) t end else Ok (b, rd).
Fixpoint redraw_all (s rd : bytes) : res (bytes * bytes) :=
  match s with
  | [] => Ok ([], rd)
  | b :: t => rbind (redraw b rd) (fun br => rbind (redraw_all t (snd br)) (fun tr => Ok (fst br :: fst tr, snd tr)))
  end.
(** encryption.go:283-298 nonZeroRandomBytes, a copy of the one crypto/rsa uses *)
Definition nonzero_random (n : nat) (rd : bytes) : res (bytes * bytes) :=
  rbind (read_full n rd) (fun sr => redraw_all (fst sr) (snd sr)).

(** crypto/rsa EncryptPKCS1v15; the reader is what is left after MaybeReadByte *)
Definition std_encrypt (pub : rsa_pub) (msg rd : bytes) : res (bytes * bytes) :=
  let k := rsa_size (rN pub) in
  if Nat.ltb k (length msg + 11) then Err
  else rbind (nonzero_random (k - length msg - 3) rd) (fun pr =>
    Ok (be_bytes k (powm (be_val (0 :: 2 :: fst pr ++ 0 :: msg)) (rE pub) (rN pub)), snd pr)).
(** the position of the first zero, counted from [i], and what follows it *)
Fixpoint first_zero (i : nat) (l : bytes) : option (nat * bytes) :=
  match l with [] => None | x :: t => if x =? 0 then Some (i, t) else first_zero (S i) t end.
(** crypto/rsa DecryptPKCS1v15 *)
Definition std_decrypt (priv : rsa_priv) (c : bytes) : res bytes :=
  let N := rN (rpub priv) in let k := rsa_size N in
  if Nat.ltb k 11 then Err
  else if N <=? be_val c then Err
  else match be_bytes k (powm (be_val c) (rD priv) N) with
       | 0 :: 2 :: t => match first_zero 2 t with Some (i, m) => if Nat.leb 10 i then Ok m else Err | None => Err end
       | _ => Err
       end.

(** encryption.go:310-321 modInverse; x is the first coefficient of GCD(x, y, a, n) *)
Definition rsa_inverse (a n : Z) : option Z :=
  if Z.gcd a n =? 1 then let x := fst (egcd (S (2 * bitlen n)) a n) in Some (if x <? 1 then x + n else x) else None.
(** encryption.go:214-232: draw r until it is invertible; r = 0 becomes 1 *)
Definition blinding (N : Z) (rd : bytes) : res (Z * Z * bytes) :=
  until (fun rd => rbind (rand_int N rd) (fun vr =>
    let r := if fst vr =? 0 then 1 else fst vr in
    Ok (match rsa_inverse r N with Some ir => Some (r, ir) | None => None end, snd vr))) rd.
(** encryption.go:252-262: the primes after the second; the loop runs over CRTValues *)
Fixpoint crt_rest (c m : Z) (vs : list (Z * Z * Z)) (ps : list Z) : res Z :=
  match vs with
  | [] => Ok m
  | (ex, co, R) :: vs' =>
      match ps with
      | [] => Panic
      | p :: ps' =>
          let m2 := ((powm c ex p - m) * co) mod p in
          crt_rest c (m + (if m2 <? 0 then m2 + p else m2) * R) vs' ps'
      end
  end.
(** encryption.go:238-263: c^D mod N, with or without the precomputed values *)
Definition rsa_power (priv : rsa_priv) (c : Z) : res Z :=
  match rPre priv with
  | None => Ok (powm c (rD priv) (rN (rpub priv)))
  | Some pre =>
      match rPrimes priv with
      | p :: q :: ps =>
          let m := powm c (pDp pre) p in let m2 := powm c (pDq pre) q in
          let m := m - m2 in
          let m := if m <? 0 then m + p else m in
          let m := (m * pQinv pre) mod p in
          crt_rest c (m * q + m2) (pCRT pre) ps
      | _ => Panic
      end
  end.
(** encryption.go:206-270 decrypt, always called with a reader *)
Definition rsa_decrypt (rd : bytes) (priv : rsa_priv) (c : Z) : res (Z * bytes) :=
  let N := rN (rpub priv) in
  if N <? c then Err
  else rbind (blinding N rd) (fun b =>
    let '(r, ir, rd') := b in
    let c' := (c * powm r (rE (rpub priv)) N) mod N in
    rbind (rsa_power priv c') (fun m => Ok ((m * ir) mod N, rd'))).

(** encryption.go:273-279 copyWithLeftPad: a source longer than the destination is sliced at a negative index *)
Definition copy_left_pad (k : nat) (src : bytes) : res bytes :=
  if Nat.leb (length src) k then Ok (repeat 0 (k - length src) ++ src) else Panic.
(** encryption.go:300-308 leftPad *)
Definition left_pad (input : bytes) (size : nat) : bytes :=
  let n := Nat.min (length input) size in repeat 0 (size - n) ++ firstn n input.
(** encryption.go:174-195 priKeyEncrypt *)
Definition pri_encrypt (rd : bytes) (priv : rsa_priv) (msg : bytes) : res (bytes * bytes) :=
  let k := rsa_size (rN (rpub priv)) in let t := length msg in
  if Nat.ltb k (t + 11) then Err
  else let em := 0 :: 1 :: repeat 255 (k - t - 3) ++ 0 :: msg in
       rbind (rsa_decrypt rd priv (be_val em)) (fun cr =>
         rbind (copy_left_pad k (big_bytes (fst cr))) (fun em' => Ok (em', snd cr))).
(** encryption.go:160-167: what follows the first zero; without one, d[len(d)+1:] panics *)
Fixpoint after_zero (l : bytes) : res bytes :=
  match l with [] => Panic | x :: t => if x =? 0 then Ok t else after_zero t end.
(** encryption.go:140-171 pubKeyDecrypt *)
Definition pub_decrypt (pub : rsa_pub) (data : bytes) : res bytes :=
  let k := rsa_size (rN pub) in
  if negb (Nat.eqb k (length data)) then Err
  else if rN pub <? be_val data then Err
  else match left_pad (big_bytes (powm (be_val data) (rE pub) (rN pub))) k with
       | [] => Panic
       | d0 :: r =>
           if negb (d0 =? 0) then Err
           else match r with
                | [] => Panic
                | d1 :: t => if negb (d1 =? 0) && negb (d1 =? 1) then Err else after_zero t
                end
       end.

(** encryption.go:66-99, 104-137: Read fills the buffer while the input lasts, so the blocks are the
    successive slices of the buffer's size *)
Fixpoint io_loop (f : bytes -> bytes -> res (bytes * bytes)) (bs : list bytes) (rd : bytes) : res (bytes * bytes) :=
  match bs with
  | [] => Ok ([], rd)
  | b :: t => rbind (f b rd) (fun cr => rbind (io_loop f t (snd cr)) (fun o => Ok (fst cr ++ fst o, snd o)))
  end.
(** encryption.go:31-38, 54-61: bytes.NewBuffer(make([]byte, k)) already holds k zero bytes when the blocks are
    written. A negative k panics; with k = 0 the loop of the code does not end (represented as a panic). *)
Definition io_bytes (k : nat) (f : bytes -> bytes -> res (bytes * bytes)) (inp rd : bytes) : res (bytes * bytes) :=
  if Nat.eqb k 0 then Panic else rbind (io_loop f (chunks k inp) rd) (fun o => Ok (repeat 0 k ++ fst o, snd o)).
Definition no_rand (f : bytes -> res bytes) (b rd : bytes) : res (bytes * bytes) := rbind (f b) (fun m => Ok (m, rd)).
Definition rsa_bytes (N : Z) (enc : bool) (fe fd : bytes -> bytes -> res (bytes * bytes)) (inp rd : bytes) : res (bytes * bytes) :=
  let k := rsa_size N in
  if enc then
    if Nat.ltb k 11 then Panic
    else if Nat.leb (length inp) (k - 11) then fe inp rd else io_bytes (k - 11) fe inp rd
  else if Nat.leb (length inp) k then fd inp rd else io_bytes k fd inp rd.
(** encryption.go:21-41 PublicKeyBytes *)
Definition public_key_bytes (pub : rsa_pub) (inp : bytes) (enc : bool) (rd : bytes) : res (bytes * bytes) :=
  rsa_bytes (rN pub) enc (std_encrypt pub) (no_rand (pub_decrypt pub)) inp rd.
(** encryption.go:44-63 PrivateKeyBytes *)
Definition private_key_bytes (priv : rsa_priv) (inp : bytes) (enc : bool) (rd : bytes) : res (bytes * bytes) :=
  rsa_bytes (rN (rpub priv)) enc (fun b rd => pri_encrypt rd priv b) (no_rand (std_decrypt priv)) inp rd.

(** lower_safe.go:10-20 LowerSafeEncrypt *)
Definition lower_encrypt (pub : rsa_pub) (msg : bytes) : bytes := big_bytes (powm (be_val msg) (rE pub) (rN pub)).
(** lower_safe.go:23-31 LowerSafeDecrypt *)
Definition lower_decrypt (priv : rsa_priv) (msg : bytes) : bytes := big_bytes (powm (be_val msg) (rD priv) (rN (rpub priv))).
