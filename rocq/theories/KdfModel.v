(** Model of the key derivation functions kdf/pbkdf, kdf/pbkdf2, kdf/gost_pbkdf2, kdf/kbkdf, kdf/kdftree,
    kdf/gost_prfplus, kdf/smkdf, kdf/pgp_s2k and kdf/bcrypt_pbkdf. A hash.Hash is the function H from all bytes written since
    Reset to the digest, with Size() = hs; an HMAC or CMAC object is the same with the key fixed; a PRF of kbkdf takes the key
    and the concatenation of its arguments. Loops whose end depends on the data take fuel: the result None means that the
    fuel ran out. Overflow of int and allocation failure are not modelled. *)
From Verif Require Import Base WordModel BigModel Hash3Model.
Set Implicit Arguments. Unset Strict Implicit.
Local Open Scope nat_scope.

(** [for c(s) { s = b(s) }] *)
Fixpoint go_while {T} (fuel : nat) (c : T -> bool) (b : T -> option T) (s : T) : option T :=
  match fuel with
  | O => None
  | S f => if c s then match b s with Some s' => go_while f c b s' | None => None end else Some s
  end.
(** v written byte by byte into n bytes, high byte first *)
Definition put_be (n : nat) (v : Z) : bytes := map (fun i => to_byte (Z.shiftr v (8 * Z.of_nat (n - 1 - i)))) (seq 0 n).
(** x[:n] of a slice with exactly length x elements *)
Definition cut (n : Z) (x : bytes) : res bytes :=
  if ((n <? 0) || (Z.of_nat (length x) <? n))%Z%bool then Panic else Ok (firstn (Z.to_nat n) x).

Section hash.
  Variable H : bytes -> bytes.
  Variable hs : nat.

  (** * kdf/pbkdf2 (H is the keyed PRF) *)
  (** pbkdf2.go:15-38, one block; dk holds the blocks before *)
  Definition pb2_block (salt : bytes) (iter : Z) (dk : bytes) (block : nat) : bytes :=
    let dk := dk ++ H (salt ++ put_be 4 (Z.of_nat block)) in
    let T := skipn (length dk - hs) dk in
    let '(T, U) := Nat.iter (Z.to_nat (iter - 1)) (fun '(T, U) => let U := H U in (xorl T U, U)) (T, T) in
    firstn (length dk - hs) dk ++ T.
  (** pbkdf2.go:5-42 *)
  Definition pb2_key (salt : bytes) (iter keyLen : Z) : res bytes :=
    if hs =? 0 then Panic else
    let numBlocks := Z.quot (keyLen + Z.of_nat hs - 1) (Z.of_nat hs) in
    if (numBlocks <? 0)%Z then Panic else
    cut keyLen (fold_left (pb2_block salt iter) (seq 1 (Z.to_nat numBlocks)) []).

  (** * kdf/gost_pbkdf2 *)
  (** gost_pbkdf2.go:17-18, 35-45; the block size bs is not 0 *)
  Definition gp_padlen (bs : nat) (password : bytes) : nat := bs - length password mod bs.
  Definition gp_prf (password msg : bytes) : bytes :=
    H (xorl password (repeat 92%Z (length password)) ++ H (xorl password (repeat 54%Z (length password)) ++ msg)).
  (** gost_pbkdf2.go:55-71; pw is the padded password *)
  Definition gp_body (pw salt : bytes) (iterations : Z) (s : bytes * Z) : option (bytes * Z) :=
    let '(dkey, loop) := s in
    let prev := gp_prf pw (salt ++ be_bytes 4 loop) in
    let '(prev, rkey) := Nat.iter (Z.to_nat (iterations - 1))
      (fun '(prev, rkey) => let prev := gp_prf pw prev in (prev, Z.lxor rkey (be_val prev))) (prev, be_val prev) in
    Some (dkey ++ be_bytes hs rkey, (loop + 1) mod 2 ^ 32)%Z.
  (** gost_pbkdf2.go:47-74; FillBytes cannot fail since every digest has hs bytes *)
  Definition gp_loop (fuel : nat) (pw salt : bytes) (iterations dklen : Z) : option (res bytes) :=
    match go_while fuel (fun s => Z.of_nat (length (fst s)) <? dklen)%Z (gp_body pw salt iterations) ([], 1%Z) with
    | Some s => Some (cut dklen (fst s))
    | None => None
    end.
  (** A slice of the caller's memory: offset, length and capacity. *)
  Record win := Win { w_off : nat; w_len : nat; w_cap : nat }.
  Definition wget (m : bytes) (w : win) : bytes := slice (w_off w) (w_len w) m.
  (** append(w, x...): in place when the capacity allows it. Returns the memory and the contents of the new slice. *)
  Definition wappend (m : bytes) (w : win) (x : bytes) : bytes * bytes :=
    (if w_len w + length x <=? w_cap w then splice (w_off w + w_len w) x m else m, wget m w ++ x).
  (** gost_pbkdf2.go:11-74 on slices of one memory m; returns the memory and the key. The salt is read after the password was
      padded; each round appends the counter to the salt (line 58), of which the last round is what stays in memory. *)
  Definition gp_call (fuel bs : nat) (m : bytes) (password salt : win) (iterations dklen : Z) : option (bytes * res bytes) :=
    let pw0 := wget m password in
    let '(m, pw) := wappend m password (repeat 0%Z (gp_padlen bs pw0)) in
    let s := wget m salt in
    match go_while fuel (fun s => Z.of_nat (length (fst s)) <? dklen)%Z (gp_body pw s iterations) ([], 1%Z) with
    | Some (dk, loop) => Some (if (0 <? dklen)%Z then fst (wappend m salt (be_bytes 4 (loop - 1))) else m, cut dklen dk)
    | None => None
    end.
  (** the same for slices that share no memory and have no spare capacity *)
  Definition gp_key (fuel bs : nat) (password salt : bytes) (iterations dklen : Z) : option (res bytes) :=
    gp_loop fuel (password ++ repeat 0%Z (gp_padlen bs password)) salt iterations dklen.

  (** * kdf/pbkdf *)
  (** pbkdf.go:132-139; v is not 0 *)
  Definition p12_fill (pattern : bytes) (v : nat) : bytes :=
    if length pattern =? 0 then [] else
    let outputLen := v * ((length pattern + v - 1) / v) in
    firstn outputLen (concat (repeat pattern ((outputLen + length pattern - 1) / length pattern))).
  (** pbkdf.go:90-112 *)
  Definition p12_add (v : nat) (B Ij : bytes) : bytes :=
    let Ijb := big_bytes (be_val Ij + be_val B + 1) in
    let Ijb := if v <? length Ijb then skipn (length Ijb - v) Ijb else Ijb in
    if length Ijb <? v then repeat 0%Z (v - length Ijb) ++ Ijb else Ijb.
  (** pbkdf.go:71-118; the repetition of line 80 ends since digests are not empty *)
  Definition p12_step (D : bytes) (u v c : nat) (r : Z) (s : bytes * bytes) (i : nat) : bytes * bytes :=
    let '(A, Iv) := s in
    let Ai := Nat.iter (Z.to_nat (r - 1)) H (H (D ++ Iv)) in
    let A := firstn (i * u) A ++ gocopy (skipn (i * u) A) Ai in
    if i <? c - 1 then
      let B := firstn v (concat (repeat Ai v)) in
      (A, fold_left (fun Iv j => splice (j * v) (p12_add v B (slice (j * v) v Iv)) Iv) (seq 0 (length Iv / v)) Iv)
    else (A, Iv).
  (** pbkdf.go:57-121; u and v are not negative. Without salt, password and v the code panics only for two blocks or more. *)
  Definition p12_key (u v : nat) (salt password : bytes) (r : Z) (ID : Z) (size : Z) : res bytes :=
    if v =? 0 then Panic else
    if u =? 0 then Panic else
    let D := repeat ID v in
    let Iv := p12_fill salt v ++ p12_fill password v in
    let c := Z.quot (size + Z.of_nat u - 1) (Z.of_nat u) in
    if (c <? 0)%Z then Panic else
    let c := Z.to_nat c in
    cut size (fst (fold_left (p12_step D u v c r) (seq 0 c) (repeat 0%Z (c * u), Iv))).

  (** * kdf/smkdf *)
  (** smkdf.go:10-35 *)
  Definition sm_key (z : bytes) (size : Z) : res bytes :=
    if hs =? 0 then Panic else
    let limit := (((size mod 2 ^ 64 + Z.of_nat hs - 1) mod 2 ^ 64) / Z.of_nat hs)%Z in
    if (2 ^ 32 - 1 <=? limit)%Z then Panic else
    let '(k, _) := Nat.iter (Z.to_nat limit)
      (fun '(k, count) => (k ++ H (z ++ be_bytes 4 count), (count + 1) mod 2 ^ 32)%Z) ([], 1%Z) in
    cut size k.

  (** * kdf/pgp_s2k *)
  (** pgp_s2k.go:52-59: what is written after the zeros *)
  Definition s2k_feed (fuel : nat) (inputBuf : bytes) (iterations : Z) : option bytes :=
    if length inputBuf =? 0 then Some [] else
    match go_while fuel (fun '(_, rem) => 0 <? rem)%Z
      (fun '(w, rem) => let t := Z.min rem (Z.of_nat (length inputBuf)) in
        Some (w ++ firstn (Z.to_nat t) inputBuf, (rem - t)%Z))
      ([], Z.max iterations (Z.of_nat (length inputBuf))) with
    | Some (w, _) => Some w
    | None => None
    end.
  (** pgp_s2k.go:42-67; state: output, pass, generated *)
  Definition s2k_body (fuel : nat) (inputBuf : bytes) (iterations keylen : Z) (s : bytes * nat * Z) : option (bytes * nat * Z) :=
    let '(out, pass, generated) := s in
    let outputThisPass := Z.min (Z.of_nat hs) (keylen - generated) in
    match s2k_feed fuel inputBuf iterations with
    | Some w => Some (out ++ firstn (Z.to_nat outputThisPass) (H (repeat 0%Z pass ++ w)), S pass, generated + outputThisPass)%Z
    | None => None
    end.
  (** pgp_s2k.go:25-70 *)
  Definition s2k_key (fuel : nat) (password salt : bytes) (iterations keylen : Z) : option (res bytes) :=
    if ((1 <? iterations)%Z && (length salt =? 0))%bool then Some Panic else
    match go_while fuel (fun '(_, _, generated) => generated <? keylen)%Z (s2k_body fuel (salt ++ password) iterations keylen)
      ([], 0, 0%Z) with
    | Some (out, _, _) => Some (Ok out)
    | None => None
    end.
  (** s2k_family.go:14-29: the loop receives from the timer, counts and re-arms it while the time used is below tune_time; no
      statement leaves it. A receive that blocks for ever is a step that changes nothing. State: eventCount, timeUsed, armed. *)
  Definition tune_step (tune_time : Z) (s : Z * Z * bool) : Z * Z * bool :=
    let '(ev, used, armed) := s in
    if armed then (ev + 1, used + 1024, used + 1024 <? tune_time)%Z else s.
  Definition s2k_tune (fuel : nat) (tune_time : Z) : option Z :=
    match go_while fuel (fun _ => true) (fun s => Some (tune_step tune_time s)) (0, 0, true)%Z with
    | Some (ev, _, _) => Some ev
    | None => None
    end.
  (** pgp_s2k.go:72-78; the computation after the loop of tune is never reached and is left out *)
  Definition s2k_tuned (fuel : nat) (password salt : bytes) (iterations keylen : Z) : option (res bytes) :=
    if (iterations =? 0)%Z then
      match s2k_tune fuel 10000000 with
      | Some it => s2k_key fuel password salt it keylen
      | None => None
      end
    else s2k_key fuel password salt iterations keylen.
End hash.

(** pgp_s2k/iters.go:3-27 *)
Definition s2k_iters : list Z :=
  [1024; 1088; 1152; 1216; 1280; 1344; 1408; 1472; 1536; 1600; 1664; 1728; 1792; 1856; 1920; 1984;
   2048; 2176; 2304; 2432; 2560; 2688; 2816; 2944; 3072; 3200; 3328; 3456; 3584; 3712; 3840; 3968;
   4096; 4352; 4608; 4864; 5120; 5376; 5632; 5888; 6144; 6400; 6656; 6912; 7168; 7424; 7680; 7936;
   8192; 8704; 9216; 9728; 10240; 10752; 11264; 11776; 12288; 12800; 13312; 13824; 14336; 14848; 15360; 15872;
   16384; 17408; 18432; 19456; 20480; 21504; 22528; 23552; 24576; 25600; 26624; 27648; 28672; 29696; 30720; 31744;
   32768; 34816; 36864; 38912; 40960; 43008; 45056; 47104; 49152; 51200; 53248; 55296; 57344; 59392; 61440; 63488;
   65536; 69632; 73728; 77824; 81920; 86016; 90112; 94208; 98304; 102400; 106496; 110592; 114688; 118784; 122880; 126976;
   131072; 139264; 147456; 155648; 163840; 172032; 180224; 188416; 196608; 204800; 212992; 221184; 229376; 237568; 245760; 253952;
   262144; 278528; 294912; 311296; 327680; 344064; 360448; 376832; 393216; 409600; 425984; 442368; 458752; 475136; 491520; 507904;
   524288; 557056; 589824; 622592; 655360; 688128; 720896; 753664; 786432; 819200; 851968; 884736; 917504; 950272; 983040; 1015808;
   1048576; 1114112; 1179648; 1245184; 1310720; 1376256; 1441792; 1507328; 1572864; 1638400; 1703936; 1769472; 1835008; 1900544; 1966080; 2031616;
   2097152; 2228224; 2359296; 2490368; 2621440; 2752512; 2883584; 3014656; 3145728; 3276800; 3407872; 3538944; 3670016; 3801088; 3932160; 4063232;
   4194304; 4456448; 4718592; 4980736; 5242880; 5505024; 5767168; 6029312; 6291456; 6553600; 6815744; 7077888; 7340032; 7602176; 7864320; 8126464;
   8388608; 8912896; 9437184; 9961472; 10485760; 11010048; 11534336; 12058624; 12582912; 13107200; 13631488; 14155776; 14680064; 15204352; 15728640; 16252928;
   16777216; 17825792; 18874368; 19922944; 20971520; 22020096; 23068672; 24117248; 25165824; 26214400; 27262976; 28311552; 29360128; 30408704; 31457280; 32505856;
   33554432; 35651584; 37748736; 39845888; 41943040; 44040192; 46137344; 48234496; 50331648; 52428800; 54525952; 56623104; 58720256; 60817408; 62914560; 65011712]%Z.
(** iters.go:51-59 *)
Fixpoint s2k_lower (k : nat) (l : list Z) (iter : Z) : nat :=
  match l with
  | [] => k
  | v :: l' => if (iter <=? v)%Z then k else s2k_lower (S k) l' iter
  end.
(** iters.go:29-41 *)
Definition s2k_encode (n : Z) : Z :=
  if (n <=? s2k_iters.[0])%Z then 0%Z else
  if (s2k_iters.[255] <=? n)%Z then 255%Z else
  to_byte (Z.of_nat (s2k_lower 0 s2k_iters n)).
(** iters.go:43-45 *)
Definition s2k_decode (c : Z) : Z := s2k_iters.[Z.to_nat c].
(** iters.go:47-49 *)
Definition s2k_round (n : Z) : Z := s2k_decode (s2k_encode n).

(** * kdf/kbkdf *)
(** kbkdf.go:100-162 *)
Definition kb_fillL (v : Z) : bytes :=
  (if v <? 2 ^ 8 then put_be 1 v else if v <? 2 ^ 16 then put_be 2 v else if v <? 2 ^ 24 then put_be 3 v else
   if v <? 2 ^ 32 then put_be 4 v else if v <? 2 ^ 40 then put_be 5 v else if v <? 2 ^ 48 then put_be 6 v else
   if v <? 2 ^ 56 then put_be 7 v else put_be 8 v)%Z.
(** kbkdf.go:178-183, from the last byte *)
Fixpoint kb_ripple (l : bytes) : bytes :=
  match l with
  | [] => []
  | b :: l' => let b := ((b + 1) mod 256)%Z in if (0 <? b)%Z then b :: l' else b :: kb_ripple l'
  end.
(** kbkdf.go:164-185 *)
Definition kb_inc (b : bytes) : bytes :=
  match length b with
  | 1 => be_bytes 1 (be_val b + 1)
  | 2 => be_bytes 2 (be_val b + 1)
  | 4 => be_bytes 4 (be_val b + 1)
  | 8 => be_bytes 8 (be_val b + 1)
  | _ => rev (kb_ripple (rev b))
  end.

Section kbkdf.
  Variable prf : bytes -> bytes -> bytes.
  Definition kb_size_bad (counterSize : Z) : bool := ((counterSize <? 0) || (8 <? counterSize))%Z.
  (** copy(out[off:], K) *)
  Definition put_at (off : nat) (K out : bytes) : bytes := firstn off out ++ gocopy (skipn off out) K.
  (** kbkdf.go:20-43; state: out, off, I *)
  Definition kb_counter (fuel : nat) (key label context : bytes) (counterSize length' : Z) : option (res bytes) :=
    if kb_size_bad counterSize then Some Panic else
    if (length' <? 0)%Z then Some Panic else
    let L := kb_fillL (length' * 8) in
    match go_while fuel (fun '(_, off, _) => Z.of_nat off <? length')%Z
      (fun '(out, off, Iv) =>
        let Iv := kb_inc Iv in
        let K := prf key (Iv ++ label ++ [0%Z] ++ context ++ L) in
        Some (put_at off K out, off + length K, Iv))
      (repeat 0%Z (Z.to_nat length'), 0, repeat 0%Z (Z.to_nat counterSize)) with
    | Some (out, _, _) => Some (Ok out)
    | None => None
    end.
  (** kbkdf.go:46-68; state: out, off, I, K *)
  Definition kb_feedback (fuel : nat) (key label context iv : bytes) (counterSize length' : Z) : option (res bytes) :=
    if kb_size_bad counterSize then Some Panic else
    if (length' <? 0)%Z then Some Panic else
    let L := kb_fillL (length' * 8) in
    match go_while fuel (fun '(_, off, _, _) => Z.of_nat off <? length')%Z
      (fun '(out, off, Iv, K) =>
        let Iv := kb_inc Iv in
        let K := prf key (K ++ Iv ++ label ++ [0%Z] ++ context ++ L) in
        Some (put_at off K out, off + length K, Iv, K))
      (repeat 0%Z (Z.to_nat length'), 0, repeat 0%Z (Z.to_nat counterSize), iv) with
    | Some (out, _, _, _) => Some (Ok out)
    | None => None
    end.
  (** kbkdf.go:71-98; state: out, off, I, A *)
  Definition kb_pipeline (fuel : nat) (key label context : bytes) (counterSize length' : Z) : option (res bytes) :=
    if kb_size_bad counterSize then Some Panic else
    if (length' <? 0)%Z then Some Panic else
    let L := kb_fillL (length' * 8) in
    let Iv := kb_inc (repeat 0%Z (Z.to_nat counterSize)) in
    let A := prf key (label ++ [0%Z] ++ context ++ L) in
    let K := prf key (A ++ Iv ++ label ++ [0%Z] ++ context ++ L) in
    let out := put_at 0 K (repeat 0%Z (Z.to_nat length')) in
    match go_while fuel (fun '(_, off, _, _) => Z.of_nat off <? length')%Z
      (fun '(out, off, Iv, A) =>
        let Iv := kb_inc Iv in
        let A := prf key A in
        let K := prf key (A ++ Iv ++ label ++ [0%Z] ++ context ++ L) in
        Some (put_at off K out, off + length K, Iv, A))
      (out, Nat.min (length out) (length K), Iv, A) with
    | Some (out, _, _, _) => Some (Ok out)
    | None => None
    end.
End kbkdf.

Section tree.
  (** the HMAC under the secret, with Size() = hs *)
  Variable M : bytes -> bytes.
  Variable hs : nat.
  (** * kdf/kdftree *)
  (** kdftree.go:19-51; i and n are uint8 *)
  Definition kt_key (fuel : nat) (label seed : bytes) (len : Z) : option (res bytes) :=
    if (len =? 0)%Z then Some Panic else
    if hs =? 0 then Some Panic else
    if (negb (Z.rem len (Z.of_nat hs) =? 0) || (Z.of_nat hs * 255 <? len))%Z%bool then Some Panic else
    if (len <? 0)%Z then Some Panic else
    let Lb := be_bytes 2 (8 * len) in
    let n := to_byte (len / Z.of_nat hs) in
    match go_while fuel (fun '(_, i) => i <=? n)%Z
      (fun '(out, i) => Some (out ++ M ([i] ++ label ++ [0%Z] ++ seed ++ Lb), to_byte (i + 1))) ([], 1%Z) with
    | Some (out, _) => Some (Ok out)
    | None => None
    end.

  (** * kdf/gost_prfplus *)
  (** gost_prfplus.go:48-63; state: in, dst, offset of out *)
  Definition pp_step (n : nat) (s : bytes * bytes * nat) (i : nat) : bytes * bytes * nat :=
    let '(inn, dst, off) := s in
    let inn := upd (length inn - 1) (to_byte (Z.of_nat i + 2)) inn in
    let inn := gocopy (firstn hs inn) (M inn) ++ skipn hs inn in
    let dst := put_at off (firstn hs inn) dst in
    (inn, dst, if i + 1 =? n then off else off + hs).
  (** gost_prfplus.go:10-66 for a mac whose Size() is not 0 *)
  Definition pp_key (password salt : bytes) (keyLen : Z) : res bytes :=
    if length password =? 0 then Err else
    if length salt =? 0 then Err else
    let inn := repeat 0%Z (hs + length salt + 1) in
    let inn := upd (length inn - 1) 1%Z inn in
    let inn := put_at hs salt inn in
    let inn := gocopy (firstn hs inn) (M (skipn hs inn)) ++ skipn hs inn in
    if (keyLen <? 0)%Z then Panic else
    let dst := gocopy (repeat 0%Z (Z.to_nat keyLen)) (firstn hs inn) in
    let n := length dst / hs in
    if n =? 0 then Ok dst else
    let n := if n * hs =? length dst then n else n + 1 in
    let n := n - 1 in
    let '(_, dst, _) := fold_left (pp_step n) (seq 0 n) (inn, dst, hs) in
    Ok dst.
End tree.

Section bcrypt.
  (** SHA-512, and bcryptHash of lines 67-88 as a function of shapass and shasalt (blowfish is outside the repository) *)
  Variable sha : bytes -> bytes.
  Variable bh : bytes -> bytes -> bytes.
  (** * kdf/bcrypt_pbkdf *)
  (** bcrypt_pbkdf.go:39-60 *)
  Definition bc_block (shapass salt : bytes) (rounds : Z) (numBlocks : nat) (key : bytes) (block : nat) : bytes :=
    let tmp := bh shapass (sha (salt ++ be_bytes 4 (Z.of_nat block))) in
    let '(out, _) := Nat.iter (Z.to_nat (rounds - 1))
      (fun '(out, tmp) => let tmp := bh shapass (sha tmp) in (xorl out tmp, tmp)) (tmp, tmp) in
    fold_left (fun key i => upd (i * numBlocks + (block - 1)) out.[i] key) (seq 0 32) key.
  (** bcrypt_pbkdf.go:13-63 *)
  Definition bc_key (password salt : bytes) (rounds keyLen : Z) : res bytes :=
    if (rounds <? 1)%Z then Err else
    if length password =? 0 then Err else
    if ((length salt =? 0) || (2 ^ 20 <? Z.of_nat (length salt))%Z)%bool then Err else
    if (1024 <? keyLen)%Z then Err else
    let numBlocks := Z.quot (keyLen + 31) 32 in
    if (numBlocks <? 0)%Z then Panic else
    let nb := Z.to_nat numBlocks in
    cut keyLen (fold_left (bc_block (sha password) salt rounds nb) (seq 1 nb) (repeat 0%Z (nb * 32))).
End bcrypt.
