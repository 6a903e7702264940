(** Model of /repo/mode/mgm/mgm.go. The guards against inputs above 2^64-1 bytes never fire and
    are left out. *)
From Verif Require Import Base BlockModeModel StreamModel.
Set Implicit Arguments. Unset Strict Implicit.
Local Open Scope nat_scope.

(** mgm.go:32-42 NewMGM *)
Definition mgm_new (c : cipher) : res unit := if negb (bsz c =? 16) then Err else Ok tt.

(** mgm.go:228-245: the loop of mul; y has at most 128 bits, so it stops by itself *)
Fixpoint mgm_mul_loop (fuel : nat) (x y z : Z) : Z :=
  match fuel with
  | O => z
  | S f =>
      if (y =? 0)%Z then z
      else
        let z := if Z.testbit y 0 then Z.lxor z x else z in
        let x := if Z.testbit x 127 then Z.lxor (Z.shiftl (Z.clearbit x 127) 1) 135 else Z.shiftl x 1 in
        mgm_mul_loop f x (Z.shiftr y 1) z
  end.
(** mgm.go:222-255 mul: z.Bytes() right-aligned in 16 bytes *)
Definition mgm_mul (x y : bytes) : bytes := be_bytes 16 (mgm_mul_loop 128 (be_val x) (be_val y) 0).

(** mgm.go:52-59 incr is [ctr_inc]; incr(bufP[:8]) and incr(bufP[8:]) *)
Definition incr_l (b : bytes) : bytes := ctr_inc (firstn 8 b) ++ skipn 8 b.
Definition incr_r (b : bytes) : bytes := firstn 8 b ++ ctr_inc (skipn 8 b).

(** for len(x) >= 16 { ... x = x[16:] }: the whole blocks, then the rest *)
Definition mgm_blocks (m : bytes) : list bytes := chunks 16 (firstn (16 * (length m / 16)) m).
Definition mgm_rest (m : bytes) : bytes := skipn (16 * (length m / 16)) m.
(** one step of auth: sum ^= E(Z) (x) block; Z = incr_l(Z) *)
Definition mgm_absorb (c : cipher) (st : bytes * bytes) (b : bytes) : bytes * bytes :=
  let '(sum, z) := st in (xorl sum (mgm_mul (enc c z) b), incr_l z).
(** mgm.go:74-98 and the same lines for the text *)
Definition mgm_absorb_all (c : cipher) (st : bytes * bytes) (m : bytes) : bytes * bytes :=
  let st := fold_left (mgm_absorb c) (mgm_blocks m) st in
  match mgm_rest m with
  | [] => st
  | r => mgm_absorb c st (gocopy (repeat 0%Z 16) r)
  end.
(** icn[0] |= 0x80 *)
Definition set_top (n : bytes) : bytes := match n with [] => [] | a :: r => Z.lor a 128 :: r end.
Definition clear_top (n : bytes) : bytes := match n with [] => [] | a :: r => Z.land a 127 :: r end.
(** mgm.go:61-127 auth *)
Definition mgm_auth (c : cipher) (text ad icn : bytes) : bytes :=
  let st := (repeat 0%Z 16, enc c (set_top icn)) in
  let st := mgm_absorb_all c st ad in
  let '(sum, z) := mgm_absorb_all c st text in
  let lens := be_bytes 8 (Z.of_nat (length ad) * 8) ++ be_bytes 8 (Z.of_nat (length text) * 8) in
  enc c (xorl sum (mgm_mul (enc c z) lens)).
(** mgm.go:129-146 crypt *)
Fixpoint mgm_crypt_loop (c : cipher) (y : bytes) (bl : list bytes) : list bytes :=
  match bl with
  | [] => []
  | b :: r => xorl (enc c y) b :: mgm_crypt_loop c (incr_r y) r
  end.
Definition mgm_crypt (c : cipher) (m icn : bytes) : bytes :=
  let y := enc c (clear_top icn) in
  concat (mgm_crypt_loop c y (mgm_blocks m)) ++
  match mgm_rest m with [] => [] | r => xorl r (enc c (Nat.iter (length (mgm_blocks m)) incr_r y)) end.

(** len(nonce) != 16 || nonce[0]&0x80 > 0 *)
Definition bad_nonce (n : bytes) : bool := negb (length n =? 16) || (0 <? Z.land (hd 0 n) 128)%Z.
(** mgm.go:148-181 Seal. The tag is computed from the written ciphertext, and every block is read
    before it is written: sealing in place is the same computation. *)
Definition mgm_seal (c : cipher) (dst nonce pt ad : bytes) : res bytes :=
  if bad_nonce nonce then Panic
  else if (length pt =? 0) && (length ad =? 0) then Panic
  else let ct := mgm_crypt c pt nonce in Ok (dst ++ ct ++ mgm_auth c ct ad nonce).
(** mgm.go:183-220 Open: the tag is checked before anything is written *)
Definition mgm_open (c : cipher) (dst nonce ct ad : bytes) : res bytes :=
  if bad_nonce nonce then Panic
  else if (length ct =? 0) && (length ad =? 0) then Panic
  else if length ct <? 16 then Panic
  else
    let body := firstn (length ct - 16) ct in
    if bytes_eqb (mgm_auth c body ad nonce) (skipn (length ct - 16) ct) then Ok (dst ++ mgm_crypt c body nonce) else Err.
