(** Specification vocabulary for cipher feedback modes. *)
From Verif Require Import Base BlockModeModel StreamSpec.
Set Implicit Arguments.

(** All the modes need of the cipher: Encrypt maps blocks to blocks. *)
Definition len_ok (c : cipher) : Prop :=
  0 < bsz c /\ forall b, length b = bsz c -> length (enc c b) = bsz c.

(** A feedback stream: [h] is the IV followed by all ciphertext so far, and the
    next keystream byte is a function K of it. [d]: decrypting. *)
Fixpoint fb (d : bool) (K : bytes -> Z) (h : bytes) (xs : bytes) : bytes :=
  match xs with
  | [] => []
  | x :: r => let o := Z.lxor x (K h) in o :: fb d K (h ++ [if d then x else o]) r
  end.

(** CFB with an m-byte register and s-byte segments: segment q is masked with the
    first s bytes of E applied to the first block of the register, the register
    being the last m bytes of h when the segment starts. m = s = bs: full-block
    CFB; m = bs, s = 1: CFB-8; m = 2 bs: GOST R 34.13. *)
Definition cfb_K (E : bytes -> bytes) (bs m s : nat) (h : bytes) : Z :=
  let i := length h - m in nth (i mod s) (E (slice (i / s * s) bs h)) 0%Z.

(** Over any history of calls the object is that stream. *)
Definition fstream_is {S} (call : S -> bytes * bytes -> res (S * bytes)) (st : S)
    (d : bool) (K : bytes -> Z) (h : bytes) : Prop :=
  forall calls, Forall scall_ok calls ->
  exists st' outs, run_calls call st calls = Ok (st', outs) /\
    map (@length Z) outs = map (fun x => length (snd x)) calls /\
    concat outs = fb d K h (concat (map snd calls)).
(** The same for histories in which every call but the last is a multiple of [a] bytes. *)
Definition fstream_aligned {S} (call : S -> bytes * bytes -> res (S * bytes)) (st : S)
    (d : bool) (K : bytes -> Z) (h : bytes) (a : nat) : Prop :=
  forall calls last, Forall scall_ok (calls ++ [last]) ->
  Forall (fun x => length (snd x) mod a = 0) calls ->
  exists st' outs, run_calls call st (calls ++ [last]) = Ok (st', outs) /\
    map (@length Z) outs = map (fun x => length (snd x)) (calls ++ [last]) /\
    concat outs = fb d K h (concat (map snd (calls ++ [last]))).

(** Bits of a byte string, most significant first. *)
Definition byte_bits (b : Z) : list bool := map (fun j => Z.testbit b (7 - j)) [0;1;2;3;4;5;6;7]%Z.
Definition bits (l : bytes) : list bool := flat_map byte_bits l.
(** One-bit feedback stream on bit strings: h is the IV and the ciphertext bits. *)
Fixpoint fb_bits (d : bool) (K : list bool -> bool) (h xs : list bool) : list bool :=
  match xs with
  | [] => []
  | x :: r => let o := xorb x (K h) in o :: fb_bits d K (h ++ [if d then x else o]) r
  end.
(** Packing eight bits per byte. *)
Definition bit_val (l : list bool) : Z := fold_left (fun a b => 2 * a + Z.b2z b)%Z l 0%Z.
Definition unbits (l : list bool) : bytes := map bit_val (chunks 8 l).
(** CFB-1: the keystream bit is the top bit of E applied to the last 8 bs bits. *)
Definition cfb1_K (E : bytes -> bytes) (bs : nat) (h : list bool) : bool :=
  Z.testbit (nth 0 (E (unbits (skipn (length h - 8 * bs) h))) 0%Z) 7.
(** A call on byte buffers; in place: the two are the same memory. *)
Definition bcall_ok (ip : bool) (x : bytes * bytes) : Prop :=
  scall_ok x /\ bytes_ok (fst x) /\ bytes_ok (snd x) /\ (ip = true -> fst x = snd x).
Definition bitstream_is {S} (call : S -> bytes * bytes -> res (S * bytes)) (st : S)
    (ip d : bool) (K : list bool -> bool) (h : list bool) : Prop :=
  forall calls, Forall (bcall_ok ip) calls ->
  exists st' outs, run_calls call st calls = Ok (st', outs) /\
    map (@length Z) outs = map (fun x => length (snd x)) calls /\
    Forall bytes_ok outs /\
    bits (concat outs) = fb_bits d K h (bits (concat (map snd calls))).

(** GOST CFB with CryptoPro key meshing (RFC 4357), block size 8: after every 1024
    bytes the key is replaced by the encryption of the constant C under it, and the
    register by its encryption under the new key. [rfc = true]: the register that
    is encrypted is the current one, the last ciphertext block, as RFC 4357 says;
    [rfc = false]: it is the register of the previous meshing (initially the IV). *)
Section gcfb.
  Variable mk : bytes -> cipher.
  Variable C : bytes.
  Variable rfc : bool.
  Definition mesh_key (k : bytes) : bytes :=
    enc (mk k) (slice 0 8 C) ++ enc (mk k) (slice 8 8 C) ++
    enc (mk k) (slice 16 8 C) ++ enc (mk k) (slice 24 8 C).
  Definition key_at (key : bytes) (t : nat) : bytes := Nat.iter t mesh_key key.
  Fixpoint iv_at (key h : bytes) (t : nat) : bytes :=
    match t with
    | O => slice 0 8 h
    | S t' => enc (mk (key_at key t)) (if rfc then slice (1024 * t) 8 h else iv_at key h t')
    end.
  Definition gcfb_K (key h : bytes) : Z :=
    let i := length h - 8 in
    let j := i / 8 in
    let t := j / 128 in
    let reg := if j mod 128 =? 0 then iv_at key h t else slice (8 * j) 8 h in
    nth (i mod 8) (enc (mk (key_at key t)) reg) 0%Z.
End gcfb.
