(** What a password protected PEM block is (RFC 1421, RFC 1423 and OpenSSL's EVP_BytesToKey), for C131-C133. *)
From Coq Require Import String.
From Verif Require Import Base PaddingModel BlockModeModel StreamSpec FeedbackSpec AeadSpec FernetSpec PemModel.
Set Implicit Arguments. Unset Strict Implicit.
Local Open Scope nat_scope.

(** EVP_BytesToKey with count 1: D_0 = H(password salt), D_(i+1) = H(D_i password salt); the key is the first bytes of D_0 D_1 ... *)
Fixpoint evp (H : bytes -> bytes) (password salt : bytes) (i : nat) : bytes :=
  match i with 0 => H (password ++ salt) | S j => H (evp H password salt j ++ password ++ salt) end.
Definition evp_key (H : bytes -> bytes) (password salt : bytes) (n : nat) : bytes := firstn n (concat (map (evp H password salt) (seq 0 n))).

(** a hexadecimal spelling of a byte string, in any case *)
Definition hex_value (c v : Z) : Prop :=
  (48 <= c <= 57 /\ v = c - 48 \/ 97 <= c <= 102 /\ v = c - 87 \/ 65 <= c <= 70 /\ v = c - 55)%Z.
Inductive hex_spells : bytes -> bytes -> Prop :=
| hs_nil : hex_spells [] []
| hs_cons a b x y s l : hex_value a x -> hex_value b y -> hex_spells s l -> hex_spells (a :: b :: s) ((x * 16 + y)%Z :: l).

(** what removing a PKCS#7 padding gives when the data ends in one, and the data otherwise *)
Definition padded_of (y x : bytes) : Prop := exists k : nat, 1 <= k <= 255 /\ y = x ++ repeat (Z.of_nat k) k.
Definition stripped (y x : bytes) : Prop := padded_of y x \/ (~ (exists x', padded_of y x') /\ x = y).

(** the block ciphers behind the 28 algorithms: a key of the algorithm's length gives a permutation of blocks of the algorithm's size *)
Definition bkind_size (k : bkind) : nat := match k with KDes | KTDes => 8 | _ => 16 end.
Definition bkind_key (k : bkind) (n : nat) : Prop :=
  match k with KDes => n = 8 | KTDes => n = 24 | KAes => n = 16 \/ n = 24 \/ n = 32 | KSm4 => n = 16 | KKuz => n = 32 end.
Definition block_ciphers (newc : bkind -> bytes -> res cipher) : Prop :=
  forall k key, bkind_key k (length key) -> bytes_ok key -> exists c, newc k key = Ok c /\ lawful c /\ len_ok c /\ bsz c = bkind_size k.

(** decryption of a whole message: x is the plain text of ct. ECB and CBC on the blocks of ct; CFB, CFB-8 and CFB-1 as feedback streams on bytes
    and bits; OFB and CTR as key streams (SP 800-38A) *)
Definition decrypts (m : smode) (c : cipher) (iv ct x : bytes) : Prop :=
  match m with
  | MECB => x = concat (map (dec c) (chunks (bsz c) ct))
  | MCBC => x = concat (cbc_dec (dec c) iv (chunks (bsz c) ct))
  | MCFB => x = fb true (cfb_K (enc c) (bsz c) (bsz c) (bsz c)) iv ct
  | MCFB1 => bytes_ok x /\ bits x = fb_bits true (cfb1_K (enc c) (bsz c)) (bits iv) (bits ct)
  | MCFB8 => x = fb true (cfb_K (enc c) (bsz c) (bsz c) 1) iv ct
  | MOFB => x = xor_stream (ofb_ks (enc c) (bsz c) iv) 0 ct
  | MCTR => x = go_ctr c iv ct
  end.
(** what a decryption returns: for the padded modes the data must be whole blocks, at least one, and the padding is removed if there is one *)
Definition opens (m : smode) (c : cipher) (iv ct x : bytes) : Prop :=
  if pads m then ct <> [] /\ length ct mod bsz c = 0 /\ exists y, decrypts m c iv ct y /\ stripped y x
  else decrypts m c iv ct x.
(** the acceptance of a protected block: the header names one of the algorithms, and the iv in hexadecimal *)
Definition pem_plain (H : bytes -> bytes) (newc : bkind -> bytes -> res cipher) (b : block) (password m : bytes) : Prop :=
  exists dek a hex iv c, header dek_info (bHeaders b) = Some dek /\ In a palgs /\ dek = pName a ++ of_str ","%string ++ hex /\ hex_spells hex iv /\
    length iv = pBs a /\ newc (pKind a) (evp_key H password (firstn 8 iv) (pKey a)) = Ok c /\ opens (pMode a) c iv (bBytes b) m.
