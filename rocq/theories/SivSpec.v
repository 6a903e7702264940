(** Specification of SIV (RFC 5297) over a keyed function MAC of n bytes and doubling modulo
    x^(8n) + p. RFC 5297 itself is n = 16, p = 0x87, MAC = AES-CMAC. *)
From Verif Require Import Base BlockModeModel ToolBytesSpec MacSpec AeadSpec.
Set Implicit Arguments. Unset Strict Implicit.
Local Open Scope nat_scope.

(** RFC 5297 section 2.4: S2V of the strings [ads] and, last, [sn]. *)
Definition s2v_spec (n : nat) (p : Z) (MAC : bytes -> bytes) (ads : list bytes) (sn : bytes) : bytes :=
  let D := fold_left (fun D a => xorl (double n p D) (MAC a)) ads (MAC (repeat 0%Z n)) in
  MAC (if n <=? length sn then xor_end sn D else xorl (double n p D) (pad2 n sn)).
(** section 2.5: V bitand (1^64 || 0 || 1^31 || 0 || 1^31) clears bits 63 and 31. *)
Definition siv_q (V : bytes) : bytes := be_bytes (length V) (Z.ldiff (be_val V) (2 ^ 63 + 2 ^ 31)).
(** section 2.6: SIV-ENCRYPT; [c2] is the block cipher under the second key. *)
Definition siv_spec (p : Z) (MAC : bytes -> bytes) (c2 : cipher) (ads : list bytes) (pt : bytes) : bytes :=
  let V := s2v_spec (bsz c2) p MAC ads pt in V ++ go_ctr c2 (siv_q V) pt.
(** The cipher.AEAD wrapper: the nonce is the last associated string, a nil additional data is
    left out while an empty one is an associated string. *)
Definition siv_items (nonce : bytes) (data : option bytes) : list bytes :=
  match data with None => [nonce] | Some a => [a; nonce] end.

(** One call on a Cipher: dst, plaintext or ciphertext, associated strings. *)
Inductive siv_call := CSeal (dst pt : bytes) (data : list bytes) | COpen (dst ct : bytes) (data : list bytes).
(** The correct answer to a call: Seal appends the SIV ciphertext; Open appends the plaintext of
    which its input is the SIV ciphertext, and reports an error if there is none. More than
    126 associated strings are an error. *)
Definition siv_answer (p : Z) (MAC : bytes -> bytes) (c2 : cipher) (k : siv_call) (r : res bytes) : Prop :=
  match k with
  | CSeal dst pt data => r = if length data <=? 126 then Ok (dst ++ siv_spec p MAC c2 data pt) else Err
  | COpen dst ct data =>
      match r with
      | Ok x => length data <= 126 /\ exists pt, x = dst ++ pt /\ ct = siv_spec p MAC c2 data pt
      | Err => 126 < length data \/ forall pt, bytes_ok pt -> ct <> siv_spec p MAC c2 data pt
      | Panic => False
      end
  end.
