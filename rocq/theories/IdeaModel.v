(** Model of the block cipher cipher/idea: key expansion, key inversion, Encrypt and Decrypt. The overlap check is not
    modelled. *)
From Verif Require Import Base BlockModeModel WordModel.
Set Implicit Arguments. Unset Strict Implicit.
Local Open Scope nat_scope.
(** idea.go:207-227: mul, on uint16 *)
Definition idea_mul (x y : Z) : Z :=
  if (y =? 0)%Z then wsub 16 1 x
  else if (x =? 0)%Z then wsub 16 1 y
  else let t := (x * y mod 2 ^ 32)%Z in
       let lo := (t mod 65536)%Z in let hi := (t / 65536)%Z in
       if (lo <? hi)%Z then wadd 16 (wsub 16 lo hi) 1 else wsub 16 lo hi.
(** idea.go:189-202: one turn of the loop does both halves; the divisors halve, so 20 turns are more than enough *)
Fixpoint idea_euclid (fuel : nat) (x y t0 t1 : Z) : Z :=
  match fuel with
  | O => 0%Z
  | S fuel =>
    if (y =? 1)%Z then wsub 16 1 t1
    else let q := (x / y)%Z in let x := (x mod y)%Z in let t0 := wadd 16 t0 (wmul 16 q t1) in
         if (x =? 1)%Z then t0
         else let q := (y / x)%Z in let y := (y mod x)%Z in
              idea_euclid fuel x y t0 (wadd 16 t1 (wmul 16 q t0))
  end.
(** idea.go:173-205: mulInv *)
Definition idea_inv (x : Z) : Z :=
  if (x <=? 1)%Z then x
  else let t1 := (0x10001 / x mod 65536)%Z in let y := (0x10001 mod x)%Z in
       if (y =? 1)%Z then wsub 16 1 t1 else idea_euclid 20 x y 1 t1.
(** idea.go:89-94: the loop body; the slice EK starts at b *)
Definition idea_exp1 (st : list Z * nat * nat) (_ : nat) : list Z * nat * nat :=
  let '(ek, b, i) := st in
  let i := i + 1 in
  let v := Z.lor (wshl 16 ek.[b + i mod 8] 9) (Z.shiftr ek.[b + (i + 1) mod 8] 7) in
  (upd (b + i + 7) v ek, if i =? 8 then b + 8 else b, i mod 8).
(** idea.go:79-94 *)
Definition idea_expand (key : bytes) : list Z :=
  let '(ek, _, _) := fold_left idea_exp1 (seq 8 44) (ldw_be 2 key ++ repeat 0%Z 44, 0, 0) in ek.
(** idea.go:101-170: p is filled from the end, so the keys of the last layer come first; the middle additive keys
    change places except in the first and the last layer *)
Definition idea_neg (x : Z) : Z := wsub 16 0 x.
Definition idea_quad (ek : list Z) (i : nat) : list Z := [idea_inv ek.[i]; idea_neg ek.[i + 1]; idea_neg ek.[i + 2]; idea_inv ek.[i + 3]].
Definition idea_swapped (ek : list Z) (i : nat) : list Z := [idea_inv ek.[i]; idea_neg ek.[i + 2]; idea_neg ek.[i + 1]; idea_inv ek.[i + 3]].
Definition idea_invert (ek : list Z) : list Z :=
  idea_quad ek 48 ++
  flat_map (fun i => [ek.[6 * i + 4]; ek.[6 * i + 5]] ++ idea_swapped ek (6 * i)) [7; 6; 5; 4; 3; 2; 1] ++
  [ek.[4]; ek.[5]] ++ idea_quad ek 0.
Record idea_cipher := { idea_ek : list Z; idea_dk : list Z }.
(** idea.go:33-42 *)
Definition idea_new (key : bytes) : res idea_cipher :=
  if length key =? 16 then Ok {| idea_ek := idea_expand key; idea_dk := idea_invert (idea_expand key) |} else Err.
(** idea.go:240-268: round r, counted from 0 *)
Definition idea_rnd (key : list Z) (s : list Z) (r : nat) : list Z :=
  let x1 := idea_mul s.[0] key.[6 * r] in
  let x2 := wadd 16 s.[1] key.[6 * r + 1] in
  let x3 := wadd 16 s.[2] key.[6 * r + 2] in
  let x4 := idea_mul s.[3] key.[6 * r + 3] in
  let s3 := x3 in
  let x3 := idea_mul (Z.lxor x3 x1) key.[6 * r + 4] in
  let s2 := x2 in
  let x2 := idea_mul (wadd 16 (Z.lxor x2 x4) x3) key.[6 * r + 5] in
  let x3 := wadd 16 x3 x2 in
  [Z.lxor x1 x2; Z.lxor x2 s3; Z.lxor x3 s2; Z.lxor x4 x3].
(** idea.go:271-282 *)
Definition idea_last (key : list Z) (s : list Z) : list Z :=
  [idea_mul s.[0] key.[48]; wadd 16 s.[2] key.[49]; wadd 16 s.[1] key.[50]; idea_mul s.[3] key.[51]].
(** idea.go:230-283 *)
Definition idea_crypt (key : list Z) (s : list Z) : list Z := idea_last key (fold_left (idea_rnd key) (seq 0 8) s).
Definition idea_cph (c : idea_cipher) : cipher := word_cipher_be 2 4 (idea_crypt (idea_ek c)) (idea_crypt (idea_dk c)).
(** idea.go:48-77 *)
Definition idea_encrypt c := blk_call 8 (enc (idea_cph c)).
Definition idea_decrypt c := blk_call 8 (dec (idea_cph c)).
