(** Model of /repo/tool/bytes (the byte-string helpers the AEAD modes are built on)
    and of the doubling loops of /repo/mac and /repo/hash. *)
From Verif Require Import Base.
Set Implicit Arguments. Unset Strict Implicit.

(** byte(x << k), x >> k for a uint8 *)
Definition shl8 (k x : Z) : Z := to_byte (Z.shiftl x k).
Definition shr8 (k x : Z) : Z := Z.shiftr x k.

(** tool/bytes/bytes.go:36-45 ShiftLeft: left-to-right loop. An empty argument
    indexes dst[-1] and panics. *)
Fixpoint shift_left_fwd (x : bytes) : bytes :=
  match x with
  | [] => []
  | a :: r => match r with
              | [] => [shl8 1 a]
              | b :: _ => Z.lor (shl8 1 a) (shr8 7 b) :: shift_left_fwd r
              end
  end.
Definition ShiftLeft (x : bytes) : res bytes :=
  match x with [] => Panic | _ => Ok (shift_left_fwd x) end.

(** The right-to-left loop of mac/cmac.go:85-94 shiftLeft, hash/cmac/utils.go:7-16
    shift, hash/pmac/block.go:38-47 Dbl: the shifted bytes and the bit shifted out. *)
Fixpoint shift_carry (x : bytes) : bytes * Z :=
  match x with
  | [] => ([], 0%Z)
  | a :: r => let '(r', z) := shift_carry r in (Z.lor (shl8 1 a) z :: r', shr8 7 a)
  end.

(** mac/cbcr_mac.go:66-74 shiftRight: a rotation by one bit *)
Fixpoint shift_right_loop (lsb : Z) (x : bytes) : bytes * Z :=
  match x with
  | [] => ([], lsb)
  | a :: r => let '(r', z) := shift_right_loop (shl8 7 a) r in (Z.lor (shr8 1 a) lsb :: r', z)
  end.
Definition shift_right (x : bytes) : bytes :=
  let '(r, lsb) := shift_right_loop 0 x in
  match r with [] => [] | a :: t => Z.lxor a lsb :: t end.

(** x[len(x)-1] ^= p *)
Fixpoint xor_last (p : Z) (x : bytes) : bytes :=
  match x with
  | [] => []
  | a :: r => match r with [] => [Z.lxor a p] | _ => a :: xor_last p r end
  end.

(** tool/bytes/bytes.go:23-33 GfnDouble *)
Definition GfnDouble (x : bytes) : res bytes :=
  if negb (length x =? 16) then Panic
  else rbind (ShiftLeft x) (fun s => Ok (xor_last (to_byte (shr8 7 (hd 0%Z x) * 135)) s)).

(** tool/bytes/bytes.go:48-62 ShiftLeftN: what is stored in the caller's dst. The final
    append works on a local slice header, so the trailing bytes keep what [copy] left:
    the old contents of dst. x[n/8:] panics when n/8 > len(x). *)
Fixpoint shift_bits (bits : Z) (d : bytes) : bytes :=
  match d with
  | [] => []
  | a :: r => match r with
              | [] => [shl8 bits a]
              | b :: _ => Z.lor (shl8 bits a) (Z.shiftr b (8 - bits)) :: shift_bits bits r
              end
  end.
Definition ShiftLeftN (dst x : bytes) (n : nat) : res bytes :=
  if length x <? n / 8 then Panic
  else match dst with
       | [] => Panic
       | _ => Ok (shift_bits (Z.of_nat (n mod 8)) (gocopy dst (skipn (n / 8) x)))
       end.

(** tool/bytes/bytes.go:75-84 RightXOR; xored[offset:] panics for a longer Y *)
Definition RightXOR (X Y : bytes) : res bytes :=
  if length X <? length Y then Panic
  else let off := length X - length Y in Ok (firstn off X ++ xorl (skipn off X) Y).

(** tool/bytes/bytes.go:87-102 SplitSize. With size <= 0 Go divides by zero or loops for
    ever; here size is positive (the callers pass constants). *)
Fixpoint split_loop (fuel : nat) (buf : bytes) (size : nat) : list bytes :=
  match fuel with
  | 0 => []
  | S f => if size <=? length buf then firstn size buf :: split_loop f (skipn size buf) size
           else match buf with [] => [] | _ => [buf] end
  end.
Definition SplitSize (buf : bytes) (size : nat) : list bytes := split_loop (S (length buf)) buf size.

(** tool/alias/alias.go:75-82 ConstantTimeAllZero *)
Definition ConstantTimeAllZero (l : bytes) : bool := (fold_left Z.lor l 0 =? 0)%Z.

(** hash/pmac/pmac.go:96-113: division by x (the loop runs from the right and reads the
    not yet shifted neighbour). R>>1 = 0x43. *)
Fixpoint shift_right_from (prev : Z) (x : bytes) : bytes :=
  match x with
  | [] => []
  | a :: r => Z.lor (shr8 1 a) (if (Z.land prev 1 =? 0)%Z then 0 else 128)%Z :: shift_right_from a r
  end.
Definition pmac_half (R : Z) (x : bytes) : bytes :=
  let lastbit := Z.land (last x 0%Z) 1 in
  let s := shift_right_from 0 x in
  let s := match s with [] => [] | a :: t => Z.lxor a (if (lastbit =? 0)%Z then 0 else 128)%Z :: t end in
  xor_last (if (lastbit =? 0)%Z then 0 else Z.shiftr R 1)%Z s.
