(** NIST SP 800-90A Rev. 1: Hash_DRBG (10.1.1), HMAC_DRBG (10.1.2), CTR_DRBG with the derivation function (10.2.1, 10.3.2, 10.3.3). *)
From Verif Require Import Base DrbgModel.
Set Implicit Arguments. Unset Strict Implicit.
Local Open Scope nat_scope.

(** ceil(n / h), and the first [n] bytes of the blocks [f i], [f (i+1)], ... of [h] bytes *)
Definition cdiv (n h : nat) : nat := (n + h - 1) / h.
Definition stream (f : nat -> bytes) (h i n : nat) : bytes := firstn n (concat (map f (seq i (cdiv n h)))).

Definition good_new (entropy nonce pers : bytes) : Prop :=
  (0 < zlen entropy < 2 ^ 27 /\ 0 < zlen nonce < 2 ^ 26 /\ zlen pers < 2 ^ 27)%Z.
Definition good_reseed (entropy additional : bytes) : Prop := (0 < zlen entropy < 2 ^ 27 /\ zlen additional < 2 ^ 27)%Z.
Definition good_reseedb (entropy additional : bytes) : bool :=
  ((0 <? zlen entropy) && (zlen entropy <? 2 ^ 27) && (zlen additional <? 2 ^ 27))%Z.

(** What a caller sees of a history, for a generator with working state [St]; [n] is the reseed counter *)
Section srun.
  Variable St : Type.
  Variable reseed : St -> bytes -> bytes -> St.
  Variable generate : St -> Z -> bytes -> bytes -> bytes * St.
  Fixpoint srun (s : St) (n : Z) (ops : list dop) : list (option bytes) :=
    match ops with
    | [] => []
    | Reseed e a :: t => if good_reseedb e a then Some [] :: srun (reseed s e a) 1 t else None :: srun s n t
    | Generate o a :: t => if (2 ^ 48 <? n)%Z then None :: srun s n t
                           else let '(o', s') := generate s n o a in Some o' :: srun s' (n + 1) t
    end.
End srun.
Definition seen (o : option bytes) : res bytes := match o with Some b => Ok b | None => Err end.

Section Hash.
  Variable H : bytes -> bytes.
  Variable h : nat.
  Definition slen : nat := if h <=? 32 then 55 else 111.
  Definition M : Z := (256 ^ Z.of_nat slen)%Z.
  Definition B (z : Z) : bytes := be_bytes slen z.
  (** 10.3.1 Hash_df for seedlen bits *)
  Definition hash_df_spec (inp : bytes) : bytes :=
    stream (fun i => H ([Z.of_nat i] ++ be_bytes 4 (8 * Z.of_nat slen) ++ inp)) h 1 slen.
  (** the working state: V and C as numbers *)
  Definition hstate := (Z * Z)%type.
  (** 10.1.1.2 *)
  Definition seed_from (material : bytes) : hstate :=
    let V := be_val (hash_df_spec material) in (V, be_val (hash_df_spec ([0%Z] ++ B V))).
  Definition hash_instantiate (entropy nonce pers : bytes) : hstate := seed_from (entropy ++ nonce ++ pers).
  (** 10.1.1.3 *)
  Definition hash_reseed (s : hstate) (entropy additional : bytes) : hstate :=
    seed_from ([1%Z] ++ B (fst s) ++ entropy ++ additional).
  (** GM/T 0105: entropy before V *)
  Definition gm_reseed (s : hstate) (entropy additional : bytes) : hstate :=
    seed_from ([1%Z] ++ entropy ++ B (fst s) ++ additional).
  (** 10.1.1.4 *)
  Definition hashgen_spec (V : Z) (n : nat) : bytes := stream (fun i => H (B ((V + Z.of_nat i) mod M))) h 0 n.
  Definition with_additional (V : Z) (a : bytes) : Z :=
    match a with [] => V | _ => ((V + be_val (H ([2%Z] ++ B V ++ a))) mod M)%Z end.
  Definition hash_next (V C ctr : Z) : hstate := (((V + be_val (H ([3%Z] ++ B V)) + C + ctr) mod M)%Z, C).
  Definition hash_generate (s : hstate) (ctr : Z) (out a : bytes) : bytes * hstate :=
    let V := with_additional (fst s) a in (hashgen_spec V (length out), hash_next V (snd s) ctr).
  (** the GM variant writes one digest at the front of the buffer *)
  Definition gm_generate (s : hstate) (ctr : Z) (out a : bytes) : bytes * hstate :=
    let V := with_additional (fst s) a in
    let d := H (B V) in (firstn (length out) d ++ skipn (length d) out, hash_next V (snd s) ctr).
End Hash.

Section Hmac.
  Variable hm : bytes -> bytes -> bytes.
  Variable h : nat.
  Definition mstate := (bytes * bytes)%type.
  (** 10.1.2.2 HMAC_DRBG_Update *)
  Definition hmac_update (s : mstate) (data : bytes) : mstate :=
    let K1 := hm (fst s) (snd s ++ 0%Z :: data) in
    let V1 := hm K1 (snd s) in
    let K2 := hm K1 (V1 ++ 1%Z :: data) in
    let V2 := hm K2 V1 in
    match data with [] => (K1, V1) | _ => (K2, V2) end.
  (** 10.1.2.3, 10.1.2.4 *)
  Definition hmac_instantiate (entropy nonce pers : bytes) : mstate :=
    hmac_update (repeat 0%Z h, repeat 1%Z h) (entropy ++ nonce ++ pers).
  Definition hmac_reseed (s : mstate) (entropy additional : bytes) : mstate := hmac_update s (entropy ++ additional).
  (** 10.1.2.5: V_0 = V, V_i = HMAC(K, V_(i-1)) *)
  Definition vi (K V : bytes) (i : nat) : bytes := Nat.iter i (hm K) V.
  Definition hmac_generate (s : mstate) (ctr : Z) (out a : bytes) : bytes * mstate :=
    let s1 := match a with [] => s | _ => hmac_update s a end in
    let m := cdiv (length out) h in
    (stream (vi (fst s1) (snd s1)) h 1 (length out), hmac_update (fst s1, vi (fst s1) (snd s1) m) a).
End Hmac.

Section Ctr.
  (** Block_Encrypt, block length, key length; [pad L] zero bytes follow the L bytes of S *)
  Variable E : bytes -> bytes -> bytes.
  Variables (bs klen : nat).
  Variable pad : nat -> nat.
  (** (V + i) mod 2^blocklen *)
  Definition plus (V : bytes) (i : nat) : bytes := be_bytes bs (be_val V + Z.of_nat i).
  (** 10.3.3 BCC *)
  Definition bcc_spec (K data : bytes) : bytes := fold_left (fun c b => E K (xorl c b)) (chunks bs data) (repeat 0%Z bs).
  (** 10.3.2 Block_Cipher_df *)
  Definition df_s (inp : bytes) (n : nat) : bytes :=
    let s := be_bytes 4 (zlen inp) ++ be_bytes 4 (Z.of_nat n) ++ inp ++ [128%Z] in s ++ repeat 0%Z (pad (length s)).
  Definition df_spec (inp : bytes) (n : nat) : bytes :=
    let K0 := map Z.of_nat (seq 0 klen) in
    let temp := concat (map (fun i => bcc_spec K0 (be_bytes 4 (Z.of_nat i) ++ repeat 0%Z (bs - 4) ++ df_s inp n)) (seq 0 (cdiv (klen + bs) bs))) in
    let K := firstn klen temp in
    let X := firstn bs (skipn klen temp) in
    stream (fun i => Nat.iter i (E K) X) bs 1 n.
  Definition cstate := (bytes * bytes)%type.
  (** 10.2.1.2 CTR_DRBG_Update *)
  Definition ctr_update (s : cstate) (data : bytes) : cstate :=
    let temp := xorl (stream (fun i => E (fst s) (plus (snd s) i)) bs 1 (klen + bs)) data in
    (firstn klen temp, skipn klen temp).
  (** 10.2.1.3.2, 10.2.1.4.2, 10.2.1.5.2 *)
  Definition ctr_instantiate (entropy nonce pers : bytes) : cstate :=
    ctr_update (repeat 0%Z klen, repeat 0%Z bs) (df_spec (entropy ++ nonce ++ pers) (klen + bs)).
  Definition ctr_reseed (s : cstate) (entropy additional : bytes) : cstate := ctr_update s (df_spec (entropy ++ additional) (klen + bs)).
  Definition ctr_generate (s : cstate) (ctr : Z) (out a : bytes) : bytes * cstate :=
    let data := match a with [] => repeat 0%Z (klen + bs) | _ => df_spec a (klen + bs) end in
    let s1 := match a with [] => s | _ => ctr_update s data end in
    let m := cdiv (length out) bs in
    (stream (fun i => E (fst s1) (plus (snd s1) i)) bs 1 (length out), ctr_update (fst s1, plus (snd s1) m) data).
End Ctr.
(** 10.3.2 step 4: pad S with zeros until its length is a multiple of the block length *)
Definition nist_pad (bs L : nat) : nat := (bs - L mod bs) mod bs.
(** what the code does *)
Definition code_pad (bs L : nat) : nat := bs - L mod bs.
(** the inputs given to Block_Cipher_df in a history *)
Definition df_inputs (ops : list dop) : list bytes :=
  concat (map (fun op => match op with Reseed e a => [e ++ a] | Generate o [] => [] | Generate o a => [a] end) ops).
(** calls of Generate since the last accepted Reseed *)
Fixpoint since (n : nat) (ops : list dop) : nat :=
  match ops with
  | [] => n
  | Reseed e a :: t => since (if good_reseedb e a then 0 else n) t
  | Generate _ _ :: t => since (S n) t
  end.
