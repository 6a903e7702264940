(** Model of the shared shape of Encrypt and Decrypt in cipher/{noekeon,gost,kseed,multi2,magenta,e2,crypton1}: the
    whole source is turned into words, one block of them is processed into a zeroed array of as many words, and that
    array is copied over dst. The overlap check is not modelled. *)
From Verif Require Import Base.
Set Implicit Arguments. Unset Strict Implicit.
Local Open Scope nat_scope.
(** noekeon.go:42-62, gost.go:61-81, kseed.go:42-62, multi2.go:43-63: w bytes per word, f works on one block *)
Definition zblk_call (bs w : nat) (f : bytes -> bytes) (dst src : bytes) : res bytes :=
  if (length src <? bs) || (length dst <? bs) then Panic
  else Ok (gocopy dst (f (firstn bs src) ++ repeat 0%Z (w * (length src / w) - bs))).
