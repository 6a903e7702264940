(** Model of /repo/hash/pmac/pmac.go and block.go. *)
From Verif Require Import Base BlockModeModel ToolBytesModel HashSpec.
Set Implicit Arguments. Unset Strict Implicit.
Local Open Scope nat_scope.

(** pmac.go:18-50 (the finished flag is only ever set in the copy made by Sum, so it is not kept) *)
Record pmacst := { pm_l : list bytes; pm_linv : bytes; pm_digest : bytes; pm_offset : bytes; pm_buf : bytes;
                   pm_pos : nat; pm_ctr : nat; pm_tag : nat }.
(** block.go:39-49 Dbl *)
Definition pm_dbl (x : bytes) : bytes :=
  let '(s, z) := shift_carry x in xor_last (if (z =? 0)%Z then 0 else 135)%Z s.
(** pmac.go:82-94: the table of 2*blocksize-1 doublings *)
Fixpoint pm_table (k : nat) (tmp : bytes) : list bytes :=
  match k with O => [] | S j => tmp :: pm_table j (pm_dbl tmp) end.
Definition pm_zero (n : nat) : bytes := repeat 0%Z n.
(** pmac.go:61-116 NewWithTagSize *)
Definition pmac_new (c : cipher) (tagsize : Z) : res pmacst :=
  let n := bsz c in
  if ((tagsize <=? 0) || (Z.of_nat n <? tagsize))%Z then Err
  else if ((n =? 8) || (n =? 16) || (n =? 32) || (n =? 64) || (n =? 128))%bool then
    let l0 := enc c (pm_zero n) in
    Ok {| pm_l := pm_table (2 * n - 1) l0; pm_linv := pmac_half 135 l0; pm_digest := pm_zero n;
          pm_offset := pm_zero n; pm_buf := pm_zero n; pm_pos := 0; pm_ctr := 0; pm_tag := Z.to_nat tagsize |}
  else Err.
Definition pm_with (d : pmacst) (dg off buf : bytes) (pos ctr : nat) : pmacst :=
  {| pm_l := pm_l d; pm_linv := pm_linv d; pm_digest := dg; pm_offset := off; pm_buf := buf; pm_pos := pos;
     pm_ctr := ctr; pm_tag := pm_tag d |}.
(** pmac.go:119-126 Reset *)
Definition pmac_reset (c : cipher) (d : pmacst) : pmacst :=
  pm_with d (pm_zero (bsz c)) (pm_zero (bsz c)) (pm_zero (bsz c)) 0 0.
(** bits.TrailingZeros(uint) of a positive value *)
Fixpoint trailing_zeros_pos (p : positive) : nat := match p with xO q => S (trailing_zeros_pos q) | _ => 0 end.
Definition trailing_zeros (i : nat) : nat := match Z.of_nat i with Zpos p => trailing_zeros_pos p | _ => 64 end.
(** pmac.go:210-218 processBuffer *)
Definition pm_process (c : cipher) (d : pmacst) : res pmacst :=
  match nth_error (pm_l d) (trailing_zeros (pm_ctr d + 1)) with
  | None => Panic
  | Some li =>
      let off := xorl (pm_offset d) li in
      let buf := enc c (xorl (pm_buf d) off) in
      Ok (pm_with d (xorl (pm_digest d) buf) off buf 0 (pm_ctr d + 1))
  end.
Definition pm_setbuf (d : pmacst) (buf : bytes) (pos : nat) : pmacst :=
  pm_with d (pm_digest d) (pm_offset d) buf pos (pm_ctr d).
(** pmac.go:158-167: for msgLen > blocksize *)
Fixpoint pm_loop (fuel : nat) (c : cipher) (d : pmacst) (msg : bytes) : res (pmacst * bytes) :=
  match fuel with
  | O => Ok (d, msg)
  | S f =>
      if bsz c <? length msg then
        rbind (pm_process c (pm_setbuf d (splice 0 (firstn (bsz c) msg) (pm_buf d)) (pm_pos d))) (fun d' =>
        pm_loop f c d' (skipn (bsz c) msg))
      else Ok (d, msg)
  end.
(** pmac.go:137-175 Write *)
Definition pmac_write (c : cipher) (d : pmacst) (msg : bytes) : res pmacst :=
  let remaining := bsz c - pm_pos d in
  rbind (if remaining <? length msg then
           rbind (pm_process c (pm_setbuf d (splice (pm_pos d) (firstn remaining msg) (pm_buf d)) (pm_pos d))) (fun d' =>
           Ok (d', skipn remaining msg))
         else Ok (d, msg)) (fun '(d, msg) =>
  rbind (pm_loop (length msg) c d msg) (fun '(d, msg) =>
  if 0 <? length msg then Ok (pm_setbuf d (splice (pm_pos d) msg (pm_buf d)) (pm_pos d + length msg)) else Ok d)).
(** pmac.go:179-207 Sum and checkSum. [d0 := *d] copies slice headers, so the digest bytes are
    shared and the object's digest is overwritten. *)
Definition pmac_sum (c : cipher) (d : pmacst) (inp : bytes) : pmacst * bytes :=
  let dg :=
    if pm_pos d =? bsz c then xorl (xorl (pm_digest d) (pm_buf d)) (pm_linv d)
    else let x := gocopy (pm_digest d) (xorl (pm_digest d) (firstn (pm_pos d) (pm_buf d))) in
         splice (pm_pos d) [Z.lxor (nth (pm_pos d) x 0%Z) 128] x in
  let dg := enc c dg in
  (pm_with d dg (pm_offset d) (pm_buf d) (pm_pos d) (pm_ctr d), inp ++ firstn (pm_tag d) dg).
(** a history of calls on one object *)
Fixpoint pmac_run (c : cipher) (d : pmacst) (ops : list hop) : res (list bytes) :=
  match ops with
  | [] => Ok []
  | HWrite m :: r => rbind (pmac_write c d m) (fun d => pmac_run c d r)
  | HSum i :: r => let '(d, out) := pmac_sum c d i in rbind (pmac_run c d r) (fun o => Ok (out :: o))
  | HReset :: r => pmac_run c (pmac_reset c d) r
  end.
(** verify.go:9-19 Sum *)
Definition pmac_oneshot (c : cipher) (tagsize : Z) (msg : bytes) : res bytes :=
  rbind (pmac_new c tagsize) (fun d => rbind (pmac_write c d msg) (fun d => Ok (snd (pmac_sum c d [])))).
(** verify.go:22-29 Verify *)
Definition pmac_verify (c : cipher) (tagsize : Z) (mac msg : bytes) : res bool :=
  match pmac_oneshot c tagsize msg with
  | Err => Ok false
  | Panic => Panic
  | Ok sum => Ok (bytes_eqb mac sum)
  end.
