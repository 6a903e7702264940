(** Model of pubkey/kcdsa: kcdsa.go (GenerateParameters, GenerateParametersTTAK, RegenerateParameters, GenerateKey,
    GenerateKeyWithSeed, Sign, Verify, SignBytes, VerifyBytes, sign, verify), utils.go and ppgf.go. A hash is a [hasher]:
    digest size, block size and the digest of all bytes written. ProbablyPrime(64) is a function [pp]: Go's test picks its
    bases from the number. The scratch buffers are lists; only where a stale buffer could be seen (the destination of ppgf) or
    is too short (the scratch of sign) do they appear. ASN.1 forms, key.go and the nil checks of the parameters are not
    represented. *)
From Verif Require Import Base BigModel CurveModel.
Set Implicit Arguments. Unset Strict Implicit.
Local Open Scope Z_scope.

(** kcdsa.go:73-78 Parameters, :87-90 PublicKey, :113-116 PrivateKey *)
Record kc_par := KcPar { kcP : Z; kcQ : Z; kcG : Z }.
Record kc_pub := KcPub { kcpar : kc_par; kcY : Z }.
Record kc_priv := KcPriv { kcpub : kc_pub; kcX : Z }.
(** parameter.go:29-35 ParameterSize: bits of P, bits of Q, the hash *)
Record kc_size := KcSize { kA : nat; kB : nat; kH : hasher }.

(** utils.go:354-367, 325-341: b[0] &= 1<<remain - 1; the index panics on an empty slice *)
Definition keep_bits (bits : nat) (b : bytes) : res bytes :=
  if Nat.eqb (Nat.modulo bits 8) 0 then Ok b
  else match b with [] => Panic | x :: t => Ok (Z.land x (2 ^ Z.of_nat (Nat.modulo bits 8) - 1) :: t) end.
(** utils.go:354-367 RightMost *)
Definition right_most (b : bytes) (bits : nat) : res bytes :=
  keep_bits bits (if Nat.leb (byteceil bits) (length b) then skipn (length b - byteceil bits) b else b).
(** utils.go:325-341 ReadBits *)
Definition read_bits (bits : nat) (rd : bytes) : res (bytes * bytes) :=
  rbind (read_full (byteceil bits) rd) (fun br => rbind (keep_bits bits (fst br)) (fun b => Ok (b, snd br))).

(** ppgf.go:36-61: [i] bytes still to fill, [n] the value of iBuf[0] before it wraps. A hash of size 0 never ends: fuel. *)
Fixpoint ppgf_loop (fuel : nat) (h : hasher) (src : bytes) (i n : nat) (dst : bytes) : bytes :=
  match fuel with
  | O => dst
  | S f =>
    let hb := hsum h (src ++ [to_byte (Z.of_nat n)]) in
    if Nat.leb (hsize h) i then
      let i := (i - hsize h)%nat in
      let dst := splice i (firstn (length dst - i) hb) dst in
      if Nat.eqb i 0 then dst else ppgf_loop f h src i (S n) dst
    else gocopy dst (skipn (length hb - i) hb)
  end.
(** ppgf.go:29-64 Generate, :14-19 ppgf; [src] is initSources and src in order, [dst] what Grow returned *)
Definition ppgf (dst : bytes) (bits : nat) (h : hasher) (src : bytes) : res bytes :=
  right_most (ppgf_loop (S (byteceil bits)) h src (byteceil bits) 0 dst) bits.
(** utils.go:316-323 Grow on a buffer too small to be reused *)
Definition fresh (bits : nat) : bytes := repeat 0 (byteceil bits).

(** utils.go:296-305 GenerateY, :448-451 FermatInverse *)
Definition kc_y (a : kc_par) (x : Z) : res Z := rbind (big_exp x (kcQ a - 2) (kcQ a)) (fun i => big_exp (kcG a) i (kcP a)).
(** kcdsa.go:225-250 GenerateKey *)
Definition kc_generate (a : kc_par) (rd : bytes) : res (kc_priv * bytes) :=
  rbind (until (fun rd => rbind (read_full (byteceil (bitlen (kcQ a))) rd) (fun br =>
    let x := be_val (fst br) in Ok (if (0 <? x) && (x <? kcQ a) then Some x else None, snd br))) rd) (fun xr =>
  rbind (kc_y a (fst xr)) (fun y => Ok (KcPriv (KcPub a y) (fst xr), snd xr))).
(** utils.go:277-289: addition from the last byte on, here on reversed lists *)
Fixpoint add_carry (s k : bytes) (carry : Z) : bytes :=
  match s with
  | [] => []
  | x :: s' => let sum := x + carry + (match k with y :: _ => y | [] => 0 end) in
               to_byte sum :: add_carry s' (tl k) (Z.shiftr sum 8)
  end.
(** utils.go:271-294 GenerateX *)
Definition kc_x (q : Z) (upri xkey : bytes) (z : kc_size) : res Z :=
  rbind (ppgf (fresh (kB z)) (kB z) (kH z) upri) (fun xseed =>
  rbind (right_most (rev (add_carry (rev xseed) (rev xkey) 0)) (kB z)) (fun xval =>
  rbind (ppgf (fresh (kB z)) (kB z) (kH z) xval) (fun x => Ok (be_val x mod q)))).
(** kcdsa.go:252-284 GenerateKeyWithSeed *)
Definition kc_generate_seed (a : kc_par) (rd xkey upri : bytes) (z : kc_size) : res (kc_priv * bytes * bytes) :=
  rbind (if Nat.eqb (length xkey) 0 then read_bits (kB z) rd
         else if Nat.ltb (length xkey) (byteceil (kB z)) then Err else Ok (xkey, rd)) (fun xr =>
  rbind (if Nat.eqb (length upri) 0 then read_full 64 (snd xr) else Ok (upri, snd xr)) (fun ur =>
  rbind (kc_x (kcQ a) (fst ur) (fst xr) z) (fun x => rbind (kc_y a x) (fun y => Ok (KcPriv (KcPub a y) x, fst xr, fst ur))))).

(** kcdsa.go:494-500, 546-551: the key block Z, the last l bytes of Y *)
Definition kc_z (l : nat) (y : Z) : res bytes :=
  rbind (fill_bytes (Nat.max (byteceil (bitlen y)) l) y) (fun b => right_most b (l * 8)).
(** kcdsa.go:465-516 sign: the scratch buffer holds byteceil(bitlen P) bytes and is cut to the length of Z (:498) *)
Definition kc_sign_k (h : hasher) (key : kc_priv) (k : Z) (data : bytes) : res (option (Z * Z)) :=
  let a := kcpar (kcpub key) in let b := bitlen (kcQ a) in let y := kcY (kcpub key) in
  rbind (big_exp (kcG a) k (kcP a)) (fun w =>
  rbind (fill_bytes (byteceil (bitlen (kcP a))) w) (fun wb =>
  rbind (right_most (hsum h wb) b) (fun rb =>
  let r := be_val rb in
  if Nat.ltb (byteceil (bitlen (kcP a))) (Nat.max (byteceil (bitlen y)) (hblock h)) then Panic else
  rbind (kc_z (hblock h) y) (fun z =>
  rbind (right_most (hsum h (z ++ data)) b) (fun hb =>
  let e := Z.lxor r (be_val hb) mod kcQ a in
  let s := (kcX key * ((k - e) mod kcQ a)) mod kcQ a in
  Ok (if negb (r =? 0) && negb (s =? 0) then Some (r, s) else None)))))).
(** kcdsa.go:304-315: the nonce *)
Definition kc_nonce (q : Z) (rd : bytes) : res (Z * bytes) :=
  until (fun rd => rbind (read_bits (bitlen q) rd) (fun br =>
    let k := be_val (fst br) + 1 in Ok (if (0 <? k) && (k <? q) then Some k else None, snd br))) rd.
(** kcdsa.go:303-334: at most ten attempts *)
Fixpoint kc_attempts (n : nat) (h : hasher) (key : kc_priv) (data rd : bytes) : res (Z * Z) :=
  match n with
  | O => Err
  | S n => rbind (kc_nonce (kcQ (kcpar (kcpub key))) rd) (fun kr =>
           rbind (kc_sign_k h key (fst kr) data) (fun o =>
           match o with Some rs => Ok rs | None => kc_attempts n h key data (snd kr) end))
  end.
(** kcdsa.go:286-337 Sign *)
Definition kc_sign (h : hasher) (rd : bytes) (key : kc_priv) (data : bytes) : res (Z * Z) :=
  let a := kcpar (kcpub key) in
  if (kcQ a <=? 0) || (kcP a <=? 0) || (kcG a <=? 0) || (kcX key <=? 0) || negb (Nat.eqb (Nat.modulo (bitlen (kcQ a)) 8) 0) then Err
  else kc_attempts 10 h key data rd.
(** kcdsa.go:339-352 Verify, :518-576 verify *)
Definition kc_verify (h : hasher) (u : kc_pub) (data : bytes) (r s : Z) : res bool :=
  let a := kcpar u in let b := bitlen (kcQ a) in
  if kcP a <=? 0 then Ok false
  else if r <? 1 then Ok false
  else if (s <? 1) || (kcQ a <=? s) then Ok false
  else rbind (kc_z (hblock h) (kcY u)) (fun z =>
    rbind (right_most (hsum h (z ++ data)) b) (fun hb =>
    let e := Z.lxor r (be_val hb) mod kcQ a in
    rbind (big_exp (kcY u) s (kcP a)) (fun w =>
    rbind (big_exp (kcG a) e (kcP a)) (fun g =>
    rbind (fill_bytes (byteceil (bitlen (kcP a))) ((w * g) mod kcP a)) (fun wb =>
    rbind (right_most (hsum h wb) b) (fun rb => Ok (r =? be_val rb))))))).
(** kcdsa.go:355-379 SignBytes, :382-403 VerifyBytes *)
Definition kc_rlen (h : hasher) (q : Z) : nat := if Nat.leb (hsize h) (byteceil (bitlen q)) then hsize h else byteceil (bitlen q).
Definition kc_sign_bytes (h : hasher) (rd : bytes) (key : kc_priv) (data : bytes) : res bytes :=
  let q := kcQ (kcpar (kcpub key)) in
  rbind (kc_sign h rd key data) (fun rs =>
  rbind (fill_bytes (kc_rlen h q) (fst rs)) (fun a => rbind (fill_bytes (byteceil (bitlen q)) (snd rs)) (fun b => Ok (a ++ b)))).
Definition kc_verify_bytes (h : hasher) (u : kc_pub) (data sig : bytes) : res bool :=
  let q := kcQ (kcpar u) in
  if negb (Nat.eqb (length sig) (kc_rlen h q + byteceil (bitlen q))) then Ok false
  else kc_verify h u data (be_val (firstn (kc_rlen h q) sig)) (be_val (skipn (kc_rlen h q) sig)).

Section primes.
Variable pp : Z -> bool.
(** buf[len(buf)-1] |= 1, SetBytes and SetBit(top, 1) of utils.go:34-36, 46-48, 154-156, 182-184, 214-216 *)
Definition odd_top (v : Z) (top : nat) : Z := Z.lor (Z.lor v 1) (2 ^ Z.of_nat top).
(** utils.go:43-60: one candidate for P *)
Definition fast_p (z : kc_size) (q : Z) (rd : bytes) : res (option Z * bytes) :=
  rbind (read_bits (kA z) rd) (fun br =>
  let p := odd_top (be_val (fst br)) (kA z - 1) in
  let p := p - (p mod q - 1) in
  Ok (if Nat.ltb (bitlen p) (kA z) then None else if negb (pp p) then None else Some p, snd br)).
(** utils.go:42-61: at most 4A candidates *)
Fixpoint fast_ps (n : nat) (z : kc_size) (q : Z) (rd : bytes) : res (option Z * bytes) :=
  match n with
  | O => Ok (None, rd)
  | S n => rbind (fast_p z q rd) (fun o => match fst o with Some p => Ok (Some p, snd o) | None => fast_ps n z q (snd o) end)
  end.
(** utils.go:29-62 *)
Definition fast_pq (z : kc_size) (rd : bytes) : res (option (Z * Z) * bytes) :=
  rbind (read_bits (kB z) rd) (fun br =>
  let q := odd_top (be_val (fst br)) (kB z - 1) in
  if negb (pp q) then Ok (None, snd br)
  else rbind (fast_ps (4 * kA z) z q (snd br)) (fun o =>
    Ok (match fst o with Some p => Some (p, q) | None => None end, snd o))).
(** utils.go:64-85 *)
Definition fast_g (z : kc_size) (p q : Z) (rd : bytes) : res (option Z * bytes) :=
  rbind (read_bits (kA z) rd) (fun br =>
  let f := be_val (fst br) + 2 in
  if p <=? f then Ok (None, snd br)
  else rbind (big_exp f ((p - 1) / q) p) (fun g =>
    Ok (if g <=? 1 then None else if p <=? g then None else Some g, snd br))).
(** utils.go:21-92 GenerateParametersFast *)
Definition kc_params_fast (z : kc_size) (rd : bytes) : res (kc_par * bytes) :=
  rbind (until (fast_pq z) rd) (fun pr => let '((p, q), rd) := pr in
  rbind (until (fast_g z p q) rd) (fun gr => Ok (KcPar p q (fst gr), snd gr))).

(** utils.go:174-192 GenerateJ *)
Definition ttak_j (z : kc_size) (seed : bytes) : res (option Z) :=
  rbind (ppgf (fresh (kA z - kB z - 4)) (kA z - kB z - 4) (kH z) seed) (fun b =>
  let j := odd_top (be_val b) (kA z - kB z - 1) in Ok (if pp j then Some j else None)).
(** utils.go:135-172 RegeneratePQ, which is also one pass of GeneratePQ (:208-233) *)
Definition ttak_pq (z : kc_size) (j : Z) (seed : bytes) (count : Z) : res (option (Z * Z)) :=
  rbind (ppgf (fresh (kB z)) (kB z) (kH z) (seed ++ be_bytes 4 count)) (fun u =>
  let q := odd_top (be_val u) (kB z - 1) in
  let p := Z.shiftl (j * q) 1 + 1 in
  Ok (if Nat.ltb (kA z) (bitlen p) then None else if negb (pp q) then None else if negb (pp p) then None else Some (p, q))).
(** utils.go:194-236 GeneratePQ; n passes are left *)
Fixpoint ttak_search (n : nat) (z : kc_size) (j : Z) (seed : bytes) (count : Z) : res (option (Z * Z * Z)) :=
  match n with
  | O => Ok None
  | S n => rbind (ttak_pq z j seed (count + 1)) (fun o =>
           match o with Some pq => Ok (Some (pq, count + 1)) | None => ttak_search n z j seed (count + 1) end)
  end.
(** utils.go:238-258 GenerateHG, :260-269 GenerateG, :407-446 ReadBigInt *)
Definition ttak_g (p j : Z) (rd : bytes) : res (Z * bytes) :=
  until (fun rd => rbind (rand_int p rd) (fun hr =>
    rbind (big_exp (fst hr + 2) (Z.shiftl j 1) p) (fun g => Ok (if negb (g =? 1) then Some g else None, snd hr)))) rd.
Record ttak := Ttak { tPar : kc_par; tJ : Z; tSeed : bytes; tCount : Z }.
(** utils.go:94-133 generateParametersTTAK; count runs to 2^24 + 1 *)
Definition kc_params_ttak (z : kc_size) (rd : bytes) : res (ttak * bytes) :=
  until (fun rd => rbind (read_full (byteceil (kB z)) rd) (fun sr =>
    let seed := fst sr in
    rbind (ttak_j z seed) (fun oj =>
    match oj with
    | None => Ok (None, snd sr)
    | Some j => rbind (ttak_search (Z.to_nat (2 ^ 24 + 1)) z j seed 0) (fun o =>
        match o with
        | None => Ok (None, snd sr)
        | Some (p, q, count) => rbind (ttak_g p j (snd sr)) (fun gr => Ok (Some (Ttak (KcPar p q (fst gr)) j seed count), snd gr))
        end)
    end))) rd.
(** kcdsa.go:185-223 RegenerateParameters; binary.PutUint32 keeps 32 bits of count *)
Definition kc_regenerate (z : kc_size) (j : Z) (seed : bytes) (count : Z) (rd : bytes) : res (kc_par * bytes) :=
  if (count =? 0) || Nat.eqb (length seed) 0 then Err
  else if j <=? 0 then Err
  else if negb (Nat.eqb (length seed) (byteceil (kB z))) then Err
  else rbind (ttak_pq z j seed (count mod 2 ^ 32)) (fun o =>
    match o with None => Err | Some (p, q) => rbind (ttak_g p j rd) (fun gr => Ok (KcPar p q (fst gr), snd gr)) end).
End primes.
