(** Model of pubkey/sdsa (Schnorr signatures over a DSA group) and pubkey/rabin (Rabin encryption,
    its prime search).  Simplifications: numbers of keys are not negative and P of an sdsa key is
    positive; GenerateParameters of sdsa and the ASN.1 forms are not modelled; the digest of sdsa is any
    [hasher], SHA-256 of rabin any function of byte strings. *)
From Verif Require Import Base BigModel CurveModel.
Set Implicit Arguments. Unset Strict Implicit.
Local Open Scope Z_scope.

(** ** pubkey/sdsa/sdsa.go *)
(** sdsa.go:37-48 Parameters, PublicKey; :74-79 PrivateKey *)
Record sdsa_pub := SdsaPub { sP : Z; sQ : Z; sG : Z; sY : Z }.
Record sdsa_priv := SdsaPriv { spub : sdsa_pub; sX : Z }.

(** sdsa.go:219-246 GenerateKey: reads BitLen(Q)/8 bytes until the number is in 1..Q-1.  With fewer than 8
    bits nothing is read and the loop never ends; the model then ends with an error. *)
Definition sdsa_generate (p q g : Z) (rd : bytes) : res (sdsa_priv * bytes) :=
  rbind (until (fun rd => rbind (read_full (Nat.div (bitlen q) 8) rd) (fun br =>
    let x := be_val (fst br) in Ok (if negb (x =? 0) && (x <? q) then Some x else None, snd br))) rd) (fun xr =>
  rbind (big_exp g (fst xr) p) (fun y => Ok (SdsaPriv (SdsaPub p q g y) (fst xr), snd xr))).

(** sdsa.go:353-381: the attempts; [w] is what has been written to the hash, which is not reset *)
Fixpoint sdsa_try (fuel : nat) (h : hasher) (key : sdsa_priv) (k : Z) (data w : bytes) : res (Z * Z) :=
  match fuel with
  | O => Err
  | S f =>
    let u := spub key in
    rbind (big_exp (sG u) k (sP u)) (fun pi =>
    rbind (fill_bytes (byteceil (bitlen (sP u))) pi) (fun piBuf =>
    let w' := w ++ piBuf ++ data in
    let r := be_val (hsum h w') in
    let rr := r mod sQ u in
    if rr =? 0 then sdsa_try f h key k data w'
    else let s := ((sX key * rr) mod sQ u + k) mod sQ u in
      if negb (s =? 0) then Ok (r, s) else sdsa_try f h key k data w'))
  end.
(** sdsa.go:343-390 SignUsingK *)
Definition sdsa_sign_k (h : hasher) (k : Z) (key : sdsa_priv) (data : bytes) : res (Z * Z) :=
  let u := spub key in
  if (sQ u <=? 0) || (sP u <=? 0) || (sG u <=? 0) || (sX key <=? 0) then Err
  else sdsa_try 10 h key k data [].
(** sdsa.go:316-340 Sign *)
Definition sdsa_sign (h : hasher) (rd : bytes) (key : sdsa_priv) (data : bytes) : res (Z * Z) :=
  let q := sQ (spub key) in let n := bitlen q in
  if negb (Nat.eqb (Nat.modulo n 8) 0) then Err
  else rbind (until (fun rd => rbind (read_full (Nat.div n 8) rd) (fun br =>
    let k := be_val (fst br) in Ok (if (0 <? k) && (k <? q) then Some k else None, snd br))) rd) (fun kr =>
  sdsa_sign_k h (fst kr) key data).
(** sdsa.go:393-431 Verify *)
Definition sdsa_verify (h : hasher) (u : sdsa_pub) (data : bytes) (r s : Z) : res bool :=
  if sP u =? 0 then Ok false
  else if r <? 1 then Ok false
  else if (s <? 1) || (sQ u <=? s) then Ok false
  else
    let rr := sQ u - r mod sQ u in
    rbind (big_exp (sY u) rr (sP u)) (fun w =>
    rbind (big_exp (sG u) s (sP u)) (fun pi0 =>
    let pi := (pi0 * w) mod sP u in
    rbind (fill_bytes (byteceil (bitlen (sP u))) pi) (fun piBuf =>
    let hashed := hsum h (piBuf ++ data) in
    rbind (fill_bytes (hsize h) r) (fun rPrime => Ok (if list_eq_dec Z.eq_dec rPrime hashed then true else false))))).
(** sdsa.go:279-297 SignBytes, :299-313 VerifyBytes *)
Definition sdsa_sign_bytes (h : hasher) (rd : bytes) (key : sdsa_priv) (data : bytes) : res bytes :=
  rbind (sdsa_sign h rd key data) (fun rs =>
  rbind (fill_bytes (hsize h) (fst rs)) (fun a =>
  rbind (fill_bytes (byteceil (bitlen (sQ (spub key)))) (snd rs)) (fun b => Ok (a ++ b)))).
Definition sdsa_verify_bytes (h : hasher) (u : sdsa_pub) (data sig : bytes) : res bool :=
  let hlen := hsize h in
  if negb (Nat.eqb (length sig) (hlen + byteceil (bitlen (sQ u)))) then Ok false
  else sdsa_verify h u data (be_val (firstn hlen sig)) (be_val (skipn hlen sig)).

(** ** pubkey/rabin *)
(** fmt.Sprintf("%b", z) for z >= 0: the binary digits, most significant first *)
Fixpoint bin_pos (p : positive) : list Z := match p with xH => [1] | xO p' => bin_pos p' ++ [0] | xI p' => bin_pos p' ++ [1] end.
Definition bin_digits (z : Z) : list Z := match z with Zpos p => bin_pos p | _ => [0] end.

(** utils.go:154-177 squareAndMultiple; Mod by 0 panics *)
Definition sq_mul (a b c : Z) : res Z :=
  if c =? 0 then Panic
  else let i := a mod c in
    Ok (fold_left (fun r d => let t := (r * r) mod c in if d =? 1 then (t * i) mod c else t) (tl (bin_digits b)) i).
(** utils.go:99-119 squareAndMultiplyWithoutMod: starts from 1 and skips the top digit *)
Definition sq_mul_nomod (b e : Z) : Z :=
  if e =? 1 then b
  else fold_left (fun v d => if d =? 1 then v * v * b else v * v) (tl (bin_digits e)) 1.

(** utils.go:179-229 extendedEuclideanAlgorithm: the loop runs while b > 0 *)
Fixpoint ext_loop (fuel : nat) (a b x2 x1 y2 y1 : Z) : res (Z * Z * Z) :=
  if b <=? 0 then Ok (a, x2, y2)
  else match fuel with
  | O => Err
  | S f => let q := a / b in ext_loop f b (a - q * b) x1 (x2 - q * x1) y1 (y2 - q * y1)
  end.
Definition ext_euclid (a b : Z) : res (Z * Z * Z) :=
  if b =? 0 then Ok (a, 1, 0) else ext_loop (S (Z.to_nat b)) a b 1 0 0 1.

(** utils.go:231-239 getSquareRoot *)
Definition rab_root (C v : Z) : res Z := sq_mul C ((v + 1) / 4) v.
(** utils.go:268-283 and :292-308: bring v into range; a negative multiple of N becomes N *)
Definition rab_norm (v N : Z) : Z := if v <? 0 then v + (Z.abs v / N + 1) * N else v mod N.
(** utils.go:241-318 decrypt *)
Definition rab_roots (p q C N : Z) : res (Z * Z * Z * Z) :=
  rbind (rab_root C p) (fun mp =>
  rbind (rab_root C q) (fun mq =>
  rbind (ext_euclid p q) (fun e =>
  let '(_, yp, yq) := e in
  let a := yp * p * mq in let b := q * mp * yq in
  if N =? 0 then Panic
  else let m1 := rab_norm (a + b) N in let m3 := rab_norm (a - b) N in
    Ok (m1, N - m1, m3, N - m3)))).

Section Rabin.
  Variable sha : bytes -> bytes.
  (** rabin.go:41-58 Encrypt; the length is kept in 32 bits *)
  Definition rab_encrypt (N : Z) (pl : bytes) : res bytes :=
    rbind (sq_mul (be_val pl) 2 N) (fun c => Ok (be_bytes 4 (Z.of_nat (length pl)) ++ big_bytes c ++ sha pl)).
  (** utils.go:320-333 hashEqual *)
  Definition hash_equal (m : Z) (h : bytes) (len : nat) : res (option bytes) :=
    if Nat.ltb (len * 8) (bitlen m) then Ok None
    else rbind (fill_bytes len m) (fun d => Ok (if list_eq_dec Z.eq_dec (sha d) h then Some d else None)).
  (** rabin.go:102-110: the first root whose hash is right *)
  Fixpoint first_root (ms : list Z) (h : bytes) (len : nat) : res bytes :=
    match ms with
    | [] => Err
    | m :: t => rbind (hash_equal m h len) (fun o => match o with Some d => Ok d | None => first_root t h len end)
    end.
  (** rabin.go:84-113 Decrypt *)
  Definition rab_decrypt (P Q N : Z) (ct : bytes) : res bytes :=
    if Nat.leb (length ct) 36 then Err
    else
      let len := Z.to_nat (be_val (firstn 4 ct)) in
      let h := skipn (length ct - 32) ct in
      let c := be_val (slice 4 (length ct - 36) ct) in
      rbind (rab_roots P Q c N) (fun r => let '(m1, m2, m3, m4) := r in first_root [m1; m2; m3; m4] h len).
End Rabin.

(** utils.go:121-152 millerRabinPrimalityTest: the base is always 10^12+1 *)
Definition mr_base : Z := 1000000000001.
Fixpoint mr_loop (fuel : nat) (x n : Z) : bool :=
  match fuel with
  | O => false
  | S f => let x' := (x * x) mod n in if x' =? 1 then false else if x' =? n - 1 then true else mr_loop f x' n
  end.
Definition mr_test (n d r : Z) : res bool :=
  rbind (sq_mul mr_base d n) (fun x => Ok (if (x =? 1) || (x =? n - 1) then true else mr_loop (Z.to_nat (r - 1)) x n)).
(** utils.go:66-81: the search for r *)
Fixpoint prime_r (fuel : nat) (v r e : Z) : option Z :=
  match fuel with
  | O => None
  | S f => if v mod e =? 0 then prime_r f v (r + 1) (sq_mul_nomod 2 (r + 1)) else Some r
  end.
(** utils.go:54-97 isaPrimeNumber: the same test five times.  [None]: the search for r has not ended within
    [fuel] steps (for number 1 it never does). *)
Definition is_prime_number (fuel : nat) (n : Z) : res (option bool) :=
  if n mod 2 =? 0 then Ok (Some false)
  else match prime_r fuel (n - 1) 2 2 with
  | None => Ok None
  | Some r0 => let r := r0 - 1 in let d := (n - 1) / sq_mul_nomod 2 r in
    rbind (mr_test n d r) (fun b => Ok (Some b))
  end.
(** utils.go:43-52 generateNumber: 0 when the reader fails.  io.ReadFull on a reader that ends takes what is
    left. *)
Definition gen_number (len : nat) (rd : bytes) : Z * bytes :=
  match read_full len rd with Ok (b, rd') => (be_val b, rd') | _ => (0, []) end.
(** utils.go:12-41 generateRabinPrimeNumber with getprimeNumber: both loops in one.  [None]: still drawing
    after [fuel] numbers, or still testing one. *)
Fixpoint gen_prime (fuel tf len : nat) (rd : bytes) : res (option (Z * bytes)) :=
  match fuel with
  | O => Ok None
  | S f => let (n, rd') := gen_number len rd in
    rbind (is_prime_number tf n) (fun o =>
    match o with
    | None => Ok None
    | Some b => if b && (n mod 4 =? 3) then Ok (Some (n, rd')) else gen_prime f tf len rd'
    end)
  end.
(** rabin.go:137-149 GenerateKeyWithBitLength: P, Q, N *)
Definition rab_generate (fuel tf len : nat) (rd : bytes) : res (option (Z * Z * Z)) :=
  rbind (gen_prime fuel tf len rd) (fun o => match o with None => Ok None | Some (p, rd1) =>
  rbind (gen_prime fuel tf len rd1) (fun o => match o with None => Ok None | Some (q, _) => Ok (Some (p, q, p * q)) end) end).
