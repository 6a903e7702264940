(** Model of the block buffer that the Write methods of /repo/hash/{md2,sm3,has160,belt,bash}/digest.go share. *)
From Verif Require Import Base.
Set Implicit Arguments. Unset Strict Implicit.
Local Open Scope nat_scope.

(** Go's copy(x[n:], p) *)
Definition copyat (n : nat) (p x : bytes) : bytes := firstn n x ++ gocopy (skipn n x) p.

Section buf.
  Variable S : Type.
  (** the block function, called with the whole buffer *)
  Variable blk : S -> bytes -> S.
  (** the block size *)
  Variable bs : nat.

  (** The fields s, x, nx and len of the digest struct, the first one with whatever else the block function updates. *)
  Record bufst := Buf { b_s : S; b_x : bytes; b_nx : nat; b_len : Z }.

  (** md2/digest.go:53-65, sm3/digest.go:48-58, has160/digest.go:47-59, belt/digest.go:53-63, bash/digest.go:74-84:
      for nx + plen >= BlockSize { copy(x[nx:], p); block(x); p = p[BlockSize-nx:]; nx = 0 }.
      [fuel] bounds the number of iterations; length p is always enough. *)
  Fixpoint bwrite_loop (fuel : nat) (s : S) (x : bytes) (nx : nat) (p : bytes) : S * bytes * nat * bytes :=
    match fuel with
    | O => (s, x, nx, p)
    | Datatypes.S f =>
        if bs <=? nx + length p then
          let x' := copyat nx p x in
          bwrite_loop f (blk s x') x' 0 (skipn (bs - nx) p)
        else (s, x, nx, p)
    end.
  (** md2/digest.go:48-72, sm3/digest.go:40-64, has160/digest.go:41-66, belt/digest.go:46-69, bash/digest.go:67-90.
      The byte count is added up once: md2 and has160 add the same total piece by piece. sm3 also masks nx with 0x3f
      first, which changes nothing while nx < 64. *)
  Definition bwrite (st : bufst) (p : bytes) : bufst :=
    let '(s, x, nx, r) := bwrite_loop (Datatypes.S (length p)) (b_s st) (b_x st) (b_nx st) p in
    Buf s (copyat nx r x) (nx + length r) ((b_len st + Z.of_nat (length p)) mod 2 ^ 64)%Z.
End buf.
