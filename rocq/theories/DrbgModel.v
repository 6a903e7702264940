(** Model of rand: drbg/utils.go, drbg/hash.go, drbg/hmac.go, drbg/ctr.go, prng/prng.go and keygen/keygen.go. A hash is a function [H] of the
    bytes written since Reset, with Size [hsz]; hmac.New of the standard library is a function of key and message; the constructor of the block
    cipher given to NewCTR is a parameter. Arrays of fixed size are lists of that length. Lengths of Go slices are natural numbers without
    bound. A method that returns an error leaves the generator as it was, as in the code, where the checks come first. *)
From Verif Require Import Base WordModel BlockModeModel MacModel.
Set Implicit Arguments. Unset Strict Implicit.
Local Open Scope nat_scope.

(** ** utils.go *)
(** utils.go:9 MAX_BYTES *)
Definition MAX_BYTES : Z := (2 ^ 27)%Z.
Definition zlen (l : bytes) : Z := Z.of_nat (length l).

(** utils.go:68-76 drbg_add: i from seedlen-1 down to 0 *)
Fixpoint add_loop (i : nat) (R A : bytes) (temp : Z) : bytes :=
  match i with
  | O => R
  | S j => let temp := (temp + (nth j R 0 + nth j A 0))%Z in
           add_loop j (upd j (to_byte (Z.land temp 255)) R) A (Z.shiftr temp 8)
  end.
Definition drbg_add (R A : bytes) (seedlen : nat) : bytes := add_loop seedlen R A 0%Z.
(** utils.go:78-86 drbg_add1 *)
Fixpoint add1_loop (i : nat) (R : bytes) (temp : Z) : bytes :=
  match i with
  | O => R
  | S j => let temp := (temp + nth j R 0)%Z in
           add1_loop j (upd j (to_byte (Z.land temp 255)) R) (Z.shiftr temp 8)
  end.
Definition drbg_add1 (R : bytes) (seedlen : nat) : bytes := add1_loop seedlen R 1%Z.

(** The calls a user makes on a generator: Reseed(entropy, additional) and Generate(out, additional), [out] with its contents before the call. *)
Inductive dop := Reseed (entropy additional : bytes) | Generate (out additional : bytes).

(** A caller that carries on after an error and stops at a panic: the contents of [out] after each Generate, [] for Reseed *)
Section run.
  Variable St : Type.
  Variable reseed : St -> bytes -> bytes -> res St.
  Variable generate : St -> bytes -> bytes -> res (bytes * St).
  Definition dstep (s : St) (op : dop) : res (bytes * St) :=
    match op with
    | Reseed e a => rbind (reseed s e a) (fun s' => Ok ([], s'))
    | Generate o a => generate s o a
    end.
  Fixpoint drun (s : St) (ops : list dop) : list (res bytes) :=
    match ops with
    | [] => []
    | op :: t => match dstep s op with
                 | Ok (o, s') => Ok o :: drun s' t
                 | Err => Err :: drun s t
                 | Panic => [Panic]
                 end
    end.
End run.

(** ctr.go:27-37, hash.go:37-47, hmac.go:21-31: the same checks in the three constructors *)
Definition new_ok (entropy nonce pers : bytes) : bool :=
  negb ((zlen entropy <=? 0) || (MAX_BYTES <=? zlen entropy))%Z
  && negb ((zlen nonce =? 0) || (Z.shiftr MAX_BYTES 1 <=? zlen nonce))%Z
  && negb (MAX_BYTES <=? zlen pers)%Z.
(** ctr.go:75-81, hash.go:97-103, hmac.go:62-68 *)
Definition reseed_ok (entropy additional : bytes) : bool :=
  negb ((zlen entropy <=? 0) || (MAX_BYTES <=? zlen entropy))%Z && negb (MAX_BYTES <=? zlen additional)%Z.

(** [for temp.Len() < n { ...; temp.Write(b) }]: each turn changes the state and writes some bytes *)
Section grow.
  Variable A : Type.
  Variable step : A -> res (A * bytes).
  Fixpoint grow (fuel n : nat) (st : A) (temp : bytes) : res (A * bytes) :=
    if length temp <? n then
      match fuel with
      | O => Panic
      | S f => rbind (step st) (fun sb => grow f n (fst sb) (temp ++ snd sb))
      end
    else Ok (st, temp).
End grow.

(** ** hash.go *)
Section Hash.
  Variable H : bytes -> bytes.
  Variable hsz : nat.

  (** utils.go:34-61 hashDF: the loop [for outlen > 0] *)
  Fixpoint df_loop (fuel : nat) (counter : Z) (outbits inp out : bytes) (nlength outlen : nat) : bytes :=
    match fuel with
    | O => out
    | S f =>
      if outlen =? 0 then out else
      let dgst := H ([counter] ++ outbits ++ inp) in
      let len := if outlen <? length dgst then outlen else length dgst in
      df_loop f (to_byte (counter + 1)) outbits inp (splice nlength (firstn len dgst) out) (nlength + len) (outlen - len)
    end.
  Definition hash_df (inp out : bytes) : bytes :=
    df_loop (length out) 1%Z (be_bytes 4 (Z.of_nat (length out) * 8)) inp out 0 (length out).

  (** hash.go:10-15 *)
  Definition MAXS : nat := 111.
  Definition INTERVAL : Z := (2 ^ 48)%Z.
  (** hash.go:26-33 *)
  Record hst := { hv : bytes; hc : bytes; seedlen : nat; hctr : Z; isgm : bool }.

  (** hash.go:79-86 and :130-137: V = Hash_df(seedMaterial), C = Hash_df(0x00 || V), reseedCounter = 1 *)
  Definition h_seed (v c : bytes) (sl : nat) (gm : bool) (material : bytes) : hst :=
    let v := splice 0 (hash_df material (firstn sl v)) v in
    let c := splice 0 (hash_df ([0%Z] ++ firstn sl v) (firstn sl c)) c in
    {| hv := v; hc := c; seedlen := sl; hctr := 1; isgm := gm |}.
  (** hash.go:36-92 NewHash and init. isGm is set after init, which does not read it. *)
  Definition h_new (gm : bool) (entropy nonce pers : bytes) : res hst :=
    if new_ok entropy nonce pers then
      let sl := if hsz <=? 32 then 55 else 111 in
      Ok (h_seed (zeros MAXS) (zeros MAXS) sl gm (entropy ++ nonce ++ pers))
    else Err.
  (** hash.go:94-140 Reseed *)
  Definition h_reseed (s : hst) (entropy additional : bytes) : res hst :=
    if reseed_ok entropy additional then
      let v := firstn (seedlen s) (hv s) in
      let material := [1%Z] ++ (if isgm s then entropy ++ v else v ++ entropy) ++ additional in
      Ok (h_seed (hv s) (hc s) (seedlen s) (isgm s) material)
    else Err.
  (** hash.go:142-184 hashgen *)
  Fixpoint hashgen_loop (fuel sl : nat) (data out : bytes) (nlength outlen : nat) : bytes :=
    match fuel with
    | O => out
    | S f =>
      if outlen =? 0 then out else
      let dgst := H (firstn sl data) in
      let len := if outlen <? length dgst then outlen else length dgst in
      hashgen_loop f sl (drbg_add1 data sl) (splice nlength (firstn len dgst) out) (nlength + len) (outlen - len)
    end.
  Definition hashgen (s : hst) (out : bytes) : bytes :=
    let sl := seedlen s in
    if isgm s then gocopy out (H (firstn sl (hv s)))
    else hashgen_loop (length out) sl (splice 0 (firstn sl (hv s)) (zeros MAXS)) out 0 (length out).
  (** hash.go:204-206, :221-222: T = 0...0 || d, aligned to seedlen *)
  Definition t_of (sl : nat) (d : bytes) : res bytes :=
    if sl <? length d then Panic else Ok (splice (sl - length d) d (zeros MAXS)).
  (** hash.go:186-237 Generate *)
  Definition h_generate (s : hst) (out additional : bytes) : res (bytes * hst) :=
    if (INTERVAL <? hctr s)%Z then Err else
    let sl := seedlen s in
    rbind (if 0 <? length additional then
             rbind (t_of sl (H ([2%Z] ++ firstn sl (hv s) ++ additional))) (fun T => Ok (drbg_add (hv s) T sl))
           else Ok (hv s)) (fun v =>
    let out := hashgen {| hv := v; hc := hc s; seedlen := sl; hctr := hctr s; isgm := isgm s |} out in
    rbind (t_of sl (H ([3%Z] ++ firstn sl v))) (fun T =>
    let v := drbg_add v T sl in
    let v := drbg_add v (hc s) sl in
    let T := splice (sl - 8) (be_bytes 8 (hctr s)) (zeros MAXS) in
    let v := drbg_add v T sl in
    Ok (out, {| hv := v; hc := hc s; seedlen := sl; hctr := (hctr s + 1) mod 2 ^ 64; isgm := isgm s |}))).
End Hash.

(** ** hmac.go *)
Section Hmac.
  (** [hm key msg]: hmac.New(h, key), Write(msg), Sum(nil) *)
  Variable hm : bytes -> bytes -> bytes.
  Variable hsz : nat.
  Record mst := { mk : bytes; mv : bytes; mctr : Z }.
  (** hmac.go:109-133 update *)
  Definition m_update (k v data : bytes) : bytes * bytes :=
    let k := hm k (v ++ [0%Z] ++ data) in
    let v := hm k v in
    if length data =? 0 then (k, v) else
    let k := hm k (v ++ [1%Z] ++ data) in
    let v := hm k v in
    (k, v).
  (** hmac.go:20-58 NewHMAC and init *)
  Definition m_new (entropy nonce pers : bytes) : res mst :=
    if new_ok entropy nonce pers then
      let '(k, v) := m_update (zeros hsz) (repeat 1%Z hsz) (entropy ++ nonce ++ pers) in
      Ok {| mk := k; mv := v; mctr := 1 |}
    else Err.
  (** hmac.go:60-78 Reseed *)
  Definition m_reseed (s : mst) (entropy additional : bytes) : res mst :=
    if reseed_ok entropy additional then
      let '(k, v) := m_update (mk s) (mv s) (entropy ++ additional) in
      Ok {| mk := k; mv := v; mctr := 1 |}
    else Err.
  (** hmac.go:80-107 Generate *)
  Definition m_generate (s : mst) (out additional : bytes) : res (bytes * mst) :=
    if (2 ^ 48 <? mctr s)%Z then Err else
    let '(k, v) := if 0 <? length additional then m_update (mk s) (mv s) additional else (mk s, mv s) in
    rbind (grow (fun v => let v' := hm k v in Ok (v', v')) (length out) (length out) v []) (fun vt =>
    let out := gocopy out (snd vt) in
    let '(k, v) := m_update k (fst vt) additional in
    Ok (out, {| mk := k; mv := v; mctr := ((mctr s + 1) mod 2 ^ 64)%Z |})).
End Hmac.

(** ** ctr.go *)
Section Ctr.
  Variable newc : bytes -> res cipher.
  Variable keylen : nat.
  Record cst := { ck : bytes; cv : bytes; cctr : Z }.
  (** ctr.go:228-237 encrypt: a refused key is a panic *)
  Definition c_encrypt (key inp : bytes) : res bytes :=
    match newc key with Ok c => Ok (enc c inp) | _ => Panic end.
  (** ctr.go:126-153 update *)
  Fixpoint upd_loop_c (n i outlen : nat) (key v temp : bytes) : res bytes :=
    match n with
    | O => Ok temp
    | S n' =>
      let v := drbg_add1 v outlen in
      rbind (c_encrypt key v) (fun o =>
      upd_loop_c n' (S i) outlen key v (firstn (i * outlen) temp ++ gocopy (skipn (i * outlen) temp) o))
    end.
  Definition c_update (key v seed : bytes) : res (bytes * bytes) :=
    let outlen := length v in
    let sl := keylen + outlen in
    if outlen =? 0 then Panic else
    rbind (upd_loop_c ((sl + outlen - 1) / outlen) 0 outlen key v (zeros sl)) (fun temp =>
    let temp := gocopy temp (xorl temp seed) in
    Ok (gocopy key temp, gocopy v (skipn keylen temp))).
  (** ctr.go:156-168 bcc *)
  Fixpoint bcc_loop (n i bs : nat) (key data value : bytes) : res bytes :=
    match n with
    | O => Ok value
    | S n' => rbind (c_encrypt key (gocopy value (xorl value (skipn (i * bs) data)))) (fun value => bcc_loop n' (S i) bs key data value)
    end.
  Definition bcc (bs : nat) (key data : bytes) : res bytes :=
    if bs =? 0 then Panic else bcc_loop (length data / bs) 0 bs key data (zeros bs).
  (** ctr.go:171-226 blockCipherDF *)
  Definition c_df (bs : nat) (input : bytes) (requested : nat) : res bytes :=
    if bs <? 4 then Panic else
    let s := be_bytes 4 (zlen input) ++ be_bytes 4 (Z.of_nat requested) ++ input ++ [128%Z] in
    let s := s ++ repeat 0%Z (bs - length s mod bs) in
    let key := map (fun i => to_byte (Z.of_nat i)) (seq 0 keylen) in
    rbind (grow (fun (i : Z) =>
                   let iv := splice 0 (be_bytes 4 i) (zeros bs) in
                   rbind (bcc bs key (iv ++ s)) (fun b => Ok (((i + 1) mod 2 ^ 32)%Z, b)))
                (keylen + bs) (keylen + bs) 0%Z []) (fun it =>
    let temp := snd it in
    let k := gocopy (zeros keylen) temp in
    let x := gocopy (zeros bs) (skipn keylen temp) in
    rbind (grow (fun x => rbind (c_encrypt k x) (fun x => Ok (x, x))) requested requested x []) (fun xt =>
    Ok (firstn requested (snd xt)))).
  (** ctr.go:26-72 NewCTR and init *)
  Definition c_new (entropy nonce pers : bytes) : res cst :=
    if new_ok entropy nonce pers then
      rbind (newc (zeros keylen)) (fun c =>
      let bs := bsz c in
      rbind (c_df bs (entropy ++ nonce ++ pers) (keylen + bs)) (fun seed =>
      rbind (c_update (zeros keylen) (zeros bs) seed) (fun kv =>
      Ok {| ck := fst kv; cv := snd kv; cctr := 1 |})))
    else Err.
  (** ctr.go:74-96 Reseed *)
  Definition c_reseed (s : cst) (entropy additional : bytes) : res cst :=
    if reseed_ok entropy additional then
      rbind (c_df (length (cv s)) (entropy ++ additional) (keylen + length (cv s))) (fun seed =>
      rbind (c_update (ck s) (cv s) seed) (fun kv =>
      Ok {| ck := fst kv; cv := snd kv; cctr := 1 |}))
    else Err.
  (** ctr.go:98-124 Generate *)
  Definition c_generate (s : cst) (out additional : bytes) : res (bytes * cst) :=
    if (2 ^ 48 <? cctr s)%Z then Err else
    let bs := length (cv s) in
    let sl := keylen + bs in
    rbind (if 0 <? length additional then
             rbind (c_df bs additional sl) (fun a =>
             rbind (c_update (ck s) (cv s) a) (fun kv => Ok (a, kv)))
           else Ok (zeros sl, (ck s, cv s))) (fun akv =>
    let '(a, (k, v)) := akv in
    rbind (grow (fun v => let v := drbg_add1 v bs in rbind (c_encrypt k v) (fun o => Ok (v, o))) (length out) (length out) v []) (fun vt =>
    let out := gocopy out (snd vt) in
    rbind (c_update k (fst vt) a) (fun kv =>
    Ok (out, {| ck := fst kv; cv := snd kv; cctr := ((cctr s + 1) mod 2 ^ 64)%Z |})))).
End Ctr.

(** ** prng/prng.go and keygen/keygen.go *)
(** prng.go:38-49 Read into a buffer [b]; the generator is not changed *)
Definition prng_read (H : bytes -> bytes) (seed b : bytes) : res bytes :=
  let hashs := H (H seed) in
  if length hashs <? length b then Err else Ok (gocopy b hashs).
(** keygen.go:19-39 GenerateKey. The reader is asked once: [rd n] is what it puts into a buffer of n bytes, at most n bytes, or an error.
    The second loop starts at num = len(key) and does nothing. *)
Definition keygen (rd : nat -> res bytes) (len : Z) : res bytes :=
  let num := Z.quot len 8 in
  if (num <? 0)%Z then Panic else
  let n := Z.to_nat num in
  match rd n with
  | Ok d => let key := gocopy (zeros n) d in Ok (gocopy (zeros n) key)
  | Err => Err
  | Panic => Panic
  end.
