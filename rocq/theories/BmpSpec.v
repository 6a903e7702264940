(** Specification of BMP strings (UCS-2, big endian) and UTF-8 (RFC 3629). *)
From Verif Require Import Base.
Set Implicit Arguments. Unset Strict Implicit.
Local Open Scope nat_scope.

(** Unicode scalar values: code points without the surrogates. *)
Definition scalar (r : Z) : Prop := (0 <= r < 55296 \/ 57344 <= r < 1114112)%Z.
(** UTF-8 of one scalar value *)
Definition utf8_1 (r : Z) : bytes :=
  (if r <? 128 then [r]
   else if r <? 2048 then [192 + r / 64; 128 + r mod 64]
   else if r <? 65536 then [224 + r / 4096; 128 + r / 64 mod 64; 128 + r mod 64]
   else [240 + r / 262144; 128 + r / 4096 mod 64; 128 + r / 64 mod 64; 128 + r mod 64])%Z.
Definition utf8 (rs : list Z) : bytes := concat (map utf8_1 rs).
(** UCS-2: two bytes per character *)
Definition ucs2 (rs : list Z) : bytes := concat (map (be_bytes 2) rs).
