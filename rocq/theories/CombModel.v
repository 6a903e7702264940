(** Model of tool/math (gcd/*.go, lcm/lcm.go, math.go), cipher/cascade/cascade.go and cipher/lion/lion.go. int64 arithmetic wraps;
    a big.Rat is a pair of numerator and positive denominator, not necessarily in lowest terms. Slices passed to Encrypt and
    Decrypt are disjoint or identical (the overlap check panics otherwise and is not modelled). *)
From Verif Require Import Base BlockModeModel.
Set Implicit Arguments. Unset Strict Implicit.
Local Open Scope Z_scope.

(** int64: wrap around *)
Definition i64 (x : Z) : Z := (x + 2 ^ 63) mod 2 ^ 64 - 2 ^ 63.
(** gcd/gcd.go:4-9 Recursive; gcd/gcditerative.go:4-9 Iterative is the same loop. Go's % truncates. [None]: out of fuel *)
Fixpoint gcd_rec (fuel : nat) (a b : Z) : option Z :=
  match fuel with O => None | S f => if b =? 0 then Some a else gcd_rec f b (Z.rem a b) end.
(** gcd/extended.go:4-10 Extended *)
Fixpoint extended (fuel : nat) (a b : Z) : option (Z * Z * Z) :=
  match fuel with
  | O => None
  | S f => if a =? 0 then Some (b, 0, 1)
           else match extended f (Z.rem b a) a with
                | Some (g, x', y') => Some (g, i64 (y' - i64 (i64 (Z.quot b a) * x')), x')
                | None => None
                end
  end.
(** gcd/extendedgcd.go:4-12 ExtendedRecursive *)
Fixpoint extended_rec (fuel : nat) (a b : Z) : option (Z * Z * Z) :=
  match fuel with
  | O => None
  | S f => if 0 <? b
           then match extended_rec f b (Z.rem a b) with
                | Some (d, y, x) => Some (d, x, i64 (y - i64 (i64 (Z.quot a b) * x)))
                | None => None
                end
           else Some (a, 1, 0)
  end.
(** gcd/extendedgcditerative.go:4-13 ExtendedIterative *)
Fixpoint ext_loop (fuel : nat) (a b u y v x : Z) : option (Z * Z * Z) :=
  match fuel with
  | O => None
  | S f => if 0 <? a
           then let q := i64 (Z.quot b a) in
                ext_loop f (i64 (b - i64 (q * a))) a (i64 (x - i64 (q * u))) v (i64 (y - i64 (q * v))) u
           else Some (b, x, y)
  end.
Definition extended_iter (fuel : nat) (a b : Z) : option (Z * Z * Z) := ext_loop fuel a b 1 1 0 0.
(** lcm/lcm.go:10-12 Lcm: the quotient is taken in float64, which is exact while |a*b| <= 2^53; other arguments are not modelled *)
Definition lcm_go (fuel : nat) (a b : Z) : option Z :=
  if 2 ^ 53 <? Z.abs (a * b) then None else
  match gcd_rec fuel a b with Some g => if g =? 0 then None else Some (Z.quot (Z.abs (a * b)) g) | None => None end.

(** * math.go *)
Record rat := Rat { rn : Z; rd : Z }.
(** math.go:103-110 Ceil; math.go:112-115 Floor: big.Int.Div is the Euclidean quotient, the floor as the denominator is positive *)
Definition rat_floor (n : rat) : Z := rn n / rd n.
Definition rat_ceil (n : rat) : Z := if rn n mod rd n =? 0 then rn n / rd n else rn n / rd n + 1.
(** math.go:150-160 Round *)
Definition rat_round (n : rat) : Z :=
  rat_ceil (if rn n <? 0 then Rat (2 * rn n - rd n) (2 * rd n) else Rat (2 * rn n + rd n) (2 * rd n)).
(** math.go:84-94 E: the partial sums, with accumulator acc and term f *)
Definition radd (a b : rat) : rat := Rat (rn a * rd b + rn b * rd a) (rd a * rd b).
Fixpoint e_loop (k : nat) (i : Z) (acc f : rat) : rat :=
  match k with O => acc | S k' => let f := Rat (rn f) (rd f * i) in e_loop k' (i + 1) (radd acc f) f end.
Definition e_rat (rounds : nat) : rat := e_loop (rounds - 2) 2 (Rat 2 1) (Rat 1 1).
(** math.go:162-186 Sqrt for n > 0, with steps+1 Newton steps *)
Definition newton (n : Z) (x : rat) : rat := Rat (rn x * rn x + n * rd x * rd x) (2 * rn x * rd x).
Fixpoint sqrt_loop (k : nat) (n : Z) (x : rat) : rat := match k with O => x | S k' => sqrt_loop k' n (newton n x) end.
Definition sqrt_rat (steps : nat) (n : Z) : rat := if n =? 0 then Rat 0 1 else sqrt_loop (S steps) n (Rat 1 1).
(** math.go:117-125 Odd *)
Definition odd_up (n : Z) : Z := if n mod 2 =? 0 then n + 1 else n.
(** math.go:127-132 Mask *)
Definition mask (s : Z) : Z := Z.shiftl 1 s - 1.
(** math.go:134-143 RotateLeft for r <= s *)
Definition rotate_left (x r s m : Z) : Z :=
  let masked := Z.land x m in Z.lor (Z.land (Z.shiftl masked r) m) (Z.shiftr masked (s - r)).
(** math.go:145-147 RotateRight *)
Definition rotate_right (x r s m : Z) : Z := rotate_left x (s - r) s m.

(** * cipher/cascade *)
(** cascade.go:18-31 NewCipher; [None] from lcm_go is not modelled and refused here *)
Record cascade := Cascade { cs1 : cipher; cs2 : cipher; csB : nat }.
Definition cascade_new (fuel : nat) (c1 c2 : cipher) : res cascade :=
  match lcm_go fuel (Z.of_nat (bsz c1)) (Z.of_nat (bsz c2)) with
  | None => Err
  | Some l => let bs := Z.to_nat l in
              if Nat.eqb (bs mod bsz c1) 0 && Nat.eqb (bs mod bsz c2) 0 then Ok (Cascade c1 c2 bs) else Err
  end.
(** one loop over the blocks of size n *)
Definition each (n : nat) (f : bytes -> bytes) (l : bytes) : bytes := concat (map f (chunks n l)).
(** cascade.go:37-53, 73-88 Encrypt *)
Definition cascade_encrypt (c : cascade) (dst src : bytes) : res bytes :=
  let bs := csB c in
  if (length src <? bs)%nat then Panic else if (length dst <? bs)%nat then Panic else
  Ok (each (bsz (cs2 c)) (enc (cs2 c)) (each (bsz (cs1 c)) (enc (cs1 c)) (firstn bs src)) ++ skipn bs dst).
(** cascade.go:55-71, 90-104 Decrypt *)
Definition cascade_decrypt (c : cascade) (dst src : bytes) : res bytes :=
  let bs := csB c in
  if (length src <? bs)%nat then Panic else if (length dst <? bs)%nat then Panic else
  Ok (each (bsz (cs1 c)) (dec (cs1 c)) (each (bsz (cs2 c)) (dec (cs2 c)) (firstn bs src)) ++ skipn bs dst).

(** * cipher/lion *)
Section lion.
(** the hash with hs bytes of output; the stream cipher for a key: an error, or its key stream of the wanted length *)
Variable hs : nat.
Variable H : bytes -> bytes.
Variable stream : bytes -> option (nat -> bytes).
Record lion := Lion { lnK1 : bytes; lnK2 : bytes; lnB : nat }.
(** lion.go:131-139 expandKey, lion.go:24-37 NewCipher *)
Definition lion_new (bs : nat) (key : bytes) : res lion :=
  let b := Nat.max (2 * hs + 1) bs in
  if (b <? 2 * hs + 1)%nat then Err else
  let half := Nat.div (length key) 2 in
  Ok (Lion (gocopy (repeat 0 hs) (firstn half key)) (gocopy (repeat 0 hs) (skipn half key)) b).
(** XORKeyStream(dst, src): panics when dst is shorter; the rest of dst stays *)
Definition xor_ks (key dst src : bytes) : res bytes :=
  match stream key with
  | None => Panic
  | Some ks => if (length dst <? length src)%nat then Panic else Ok (xorl src (ks (length src)) ++ skipn (length src) dst)
  end.
(** lion.go:83-129: encrypt with ka, kb = key1, key2; decrypt with key2, key1 *)
Definition lion_crypt (bs : nat) (ka kb dst src : bytes) : res bytes :=
  if (length src <? bs)%nat then Panic else if (length dst <? bs)%nat then Panic else
  rbind (xor_ks (xorl (firstn hs src) ka) (skipn hs dst) (skipn hs src)) (fun r1 =>
  let l := xorl (firstn hs src) (H r1) in
  rbind (xor_ks (xorl l kb) r1 r1) (fun r2 => Ok (l ++ r2))).
Definition lion_encrypt (c : lion) (dst src : bytes) : res bytes := lion_crypt (lnB c) (lnK1 c) (lnK2 c) dst src.
Definition lion_decrypt (c : lion) (dst src : bytes) : res bytes := lion_crypt (lnB c) (lnK2 c) (lnK1 c) dst src.
End lion.
