(** The digests of MD2, SM3 and HAS-160 as published: padding and iteration. *)
From Verif Require Import Base WordModel HbufSpec Hash1Model.
Set Implicit Arguments. Unset Strict Implicit.
Local Open Scope nat_scope.

(** RFC 1319, 3.1: append p bytes of value p so that the length becomes a multiple of 16; p is 1 to 16. *)
Definition md2_padded (m : bytes) : bytes :=
  let p := 16 - length m mod 16 in m ++ repeat (Z.of_nat p) p.
(** RFC 1319, 3.2: the checksum of all blocks is appended; 3.3-3.5: the blocks are mixed into 48 bytes, of which the
    first 16 are the digest. *)
Definition md2_checkbytes (padded : bytes) : bytes :=
  iterated 16 (fun c b => md2_chk c.[15] c b) (repeat 0%Z 16) padded.
Definition md2_compress (s b : bytes) : bytes := md2_mix (firstn 16 s ++ b ++ xorl b (firstn 16 s)).
Definition md2_digest (m : bytes) : bytes :=
  let q := md2_padded m in
  firstn 16 (iterated 16 md2_compress (repeat 0%Z 48) (q ++ md2_checkbytes q)).

(** GB/T 32905-2016, 5.2 *)
Definition sm3_digest (m : bytes) : bytes := stw_be 4 (iterated 64 sm3_block sm3_iv (strengthen (be_bytes 8) m)).
(** TTAS.KO-12.0011/R2 *)
Definition has_digest (m : bytes) : bytes := stw 4 (iterated 64 has_block has_initH (strengthen (le_bytes 8) m)).
