(** Model of the block modes of /repo/mode: ecb.go, bc.go, pcbc.go, ige.go,
    ofbnlf.go, g3413cbc.go.

    A [cipher.Block] is an arbitrary record. [dst] and [src] are either disjoint
    or the same buffer ([inplace]); the loops advance both by one block per
    turn, so the only way aliasing matters is that reading the current [src]
    block after the current [dst] block was written yields the written bytes.
    The optional fast paths ([b.(bcEncAble)] etc.) are not modelled: no cipher
    in the repository implements those interfaces. *)
From Verif Require Import Base.
Set Implicit Arguments.

Record cipher := { bsz : nat; enc : bytes -> bytes; dec : bytes -> bytes }.

Definition isblock (n : nat) (b : bytes) : Prop := length b = n /\ bytes_ok b.

(** What the modes need from a block cipher: a permutation of blocks with its
    inverse. Concrete ciphers of the repository are shown lawful elsewhere. *)
Record lawful (c : cipher) : Prop := {
  law_pos : 0 < bsz c;
  law_enc : forall b, isblock (bsz c) b -> isblock (bsz c) (enc c b);
  law_dec : forall b, isblock (bsz c) b -> isblock (bsz c) (dec c b);
  law_inv : forall b, isblock (bsz c) b -> dec c (enc c b) = b
}.

Section loops.
  Variable S : Type.
  Variable step : S -> bytes -> res (S * bytes).

  (** The loop [for len(src) > 0 { ...; src = src[bs:]; dst = dst[bs:] }]. *)
  Fixpoint block_loop (st : S) (blocks : list bytes) : res (S * list bytes) :=
    match blocks with
    | [] => Ok (st, [])
    | b :: rest =>
        rbind (step st b) (fun '(st1, o) =>
        rbind (block_loop st1 rest) (fun '(st2, os) => Ok (st2, o :: os)))
    end.

  (** CryptBlocks(dst, src) with the two length guards common to all modes
      (ecb.go:32-38, bc.go:51-57, pcbc.go:61-67, ige.go:34-39, ofbnlf.go:53-59,
      g3413cbc.go:74-79). The result is the new state and dst[:len(src)]. *)
  Definition crypt_blocks (bs : nat) (st : S) (dstlen : nat) (src : bytes)
    : res (S * bytes) :=
    if negb (length src mod bs =? 0) then Panic
    else if dstlen <? length src then Panic
    else rbind (block_loop st (chunks bs src)) (fun '(st', os) => Ok (st', concat os)).
End loops.

(** A history of calls on one object; each call passes a dst exactly as long as
    its src. *)
Fixpoint run_calls {S X} (call : S -> X -> res (S * bytes)) (st : S) (srcs : list X)
  : res (S * list bytes) :=
  match srcs with
  | [] => Ok (st, [])
  | s :: rest =>
      rbind (call st s) (fun '(st1, o) =>
      rbind (run_calls call st1 rest) (fun '(st2, os) => Ok (st2, o :: os)))
  end.

Section modes.
  Variable c : cipher.
  Variable inplace : bool.

  (** What [src[i:i+bs]] reads once [dst[i:i+bs]] has been written. *)
  Definition reread (src dst : bytes) : bytes := if inplace then dst else src.

  (** mode/ecb.go:40-44 and 68-72 *)
  Definition ecb_enc_step (st : unit) (src : bytes) : res (unit * bytes) :=
    Ok (st, enc c src).
  Definition ecb_dec_step (st : unit) (src : bytes) : res (unit * bytes) :=
    Ok (st, dec c src).

  (** mode/bc.go:65-72 *)
  Definition bc_enc_step (iv src : bytes) : res (bytes * bytes) :=
    let dst := xorl src iv in
    let dst := enc c dst in
    Ok (xorl iv dst, dst).
  (** mode/bc.go:127-135 *)
  Definition bc_dec_step (iv src : bytes) : res (bytes * bytes) :=
    let next := xorl iv src in
    let dst := dec c src in
    let dst := xorl dst iv in
    Ok (next, dst).

  (** mode/pcbc.go:76-81: iv is recomputed from src after dst was written. *)
  Definition pcbc_enc_step (iv src : bytes) : res (bytes * bytes) :=
    let dst := xorl src iv in
    let dst := enc c dst in
    Ok (xorl (reread src dst) dst, dst).
  (** mode/pcbc.go:142-147 *)
  Definition pcbc_dec_step (iv src : bytes) : res (bytes * bytes) :=
    let dst := dec c src in
    let dst := xorl dst iv in
    Ok (xorl dst (reread src dst), dst).

  (** mode/ige.go:5-10: state (lastciphertext, lastplaintext). *)
  Definition ige_state := (bytes * bytes)%type.
  (** mode/ige.go:14-26: lastciphertext = iv[:bs], lastplaintext = iv[bs:]. *)
  Definition ige_new (iv : bytes) : ige_state :=
    (firstn (bsz c) iv, skipn (bsz c) iv).
  (** mode/ige.go:41-58 (cryptFunc = f). src is read before dst is written. *)
  Definition ige_step (f : bytes -> bytes) (st : ige_state) (src : bytes)
    : res (ige_state * bytes) :=
    let '(lc, lp) := st in
    let lc := xorl lc src in
    let lc := f lc in
    let lc := xorl lc lp in
    Ok ((lc, src), lc).
  (** mode/ige.go:80-86: SetIV. *)
  Definition ige_set_iv (iv : bytes) : ige_state :=
    (skipn (bsz c) iv, firstn (bsz c) iv).

  (** mode/ofbnlf.go:68-82 and 136-150. [newKey] may fail, then the code
      panics. *)
  Variable newKey : bytes -> option cipher.
  Definition ofbnlf_enc_step (iv src : bytes) : res (bytes * bytes) :=
    let k := enc c iv in
    match newKey k with
    | None => Panic
    | Some c' => Ok (k, enc c' src)
    end.
  Definition ofbnlf_dec_step (iv src : bytes) : res (bytes * bytes) :=
    let k := enc c iv in
    match newKey k with
    | None => Panic
    | Some c' => Ok (k, dec c' src)
    end.

  (** mode/g3413cbc.go:86-97: iv is a register of two blocks. *)
  Definition g3413cbc_enc_step (iv src : bytes) : res (bytes * bytes) :=
    let dst := xorl src (firstn (bsz c) iv) in
    let dst := enc c dst in
    let iv := gocopy iv (skipn (bsz c) iv) in
    let iv := splice (bsz c) dst iv in
    Ok (iv, dst).

  (** ** The same loops on memory
      [src] and [dst] buffers; [inplace] means they are one buffer. *)
  Record buffers := { bsrc : bytes; bdst : bytes }.
  Definition rd_src (m : buffers) (off n : nat) : bytes := slice off n (bsrc m).
  Definition rd_dst (m : buffers) (off n : nat) : bytes := slice off n (bdst m).
  Definition wr_dst (m : buffers) (off : nat) (d : bytes) : buffers :=
    let dst' := splice off d (bdst m) in
    {| bsrc := if inplace then dst' else bsrc m; bdst := dst' |}.

  (** The loop: [off] is how far src and dst have been advanced. *)
  Fixpoint mem_loop {S} (mstep : S -> buffers -> nat -> res (S * buffers))
      (nb off : nat) (st : S) (m : buffers) : res (S * buffers) :=
    match nb with
    | O => Ok (st, m)
    | Datatypes.S k =>
        rbind (mstep st m off) (fun '(st', m') => mem_loop mstep k (off + bsz c) st' m')
    end.
  (** CryptBlocks(dst, src) on memory, returning the whole dst afterwards.
      [dst0] is the prior content of dst (ignored when [inplace]). *)
  Definition crypt_blocks_mem {S} (mstep : S -> buffers -> nat -> res (S * buffers))
      (st : S) (dst0 src : bytes) : res (S * bytes) :=
    let dst := if inplace then src else dst0 in
    if negb (length src mod bsz c =? 0) then Panic
    else if length dst <? length src then Panic
    else rbind (mem_loop mstep (length src / bsz c) 0 st {| bsrc := src; bdst := dst |})
               (fun '(st', m) => Ok (st', bdst m)).

  (** One call as the caller sees it: argument (dst, src), result dst[:len(src)]. *)
  Definition mcall {S} (mstep : S -> buffers -> nat -> res (S * buffers))
      (st : S) (x : bytes * bytes) : res (S * bytes) :=
    rbind (crypt_blocks_mem mstep st (fst x) (snd x))
          (fun '(st', d) => Ok (st', firstn (length (snd x)) d)).

  (** mode/ecb.go:41, 69 *)
  Definition ecb_enc_mem (st : unit) (m : buffers) (off : nat) : res (unit * buffers) :=
    Ok (st, wr_dst m off (enc c (rd_src m off (bsz c)))).
  Definition ecb_dec_mem (st : unit) (m : buffers) (off : nat) : res (unit * buffers) :=
    Ok (st, wr_dst m off (dec c (rd_src m off (bsz c)))).
  (** mode/bc.go:66-68 *)
  Definition bc_enc_mem (iv : bytes) (m : buffers) (off : nat) : res (bytes * buffers) :=
    let m := wr_dst m off (xorl (rd_src m off (bsz c)) iv) in
    let m := wr_dst m off (enc c (rd_dst m off (bsz c))) in
    Ok (xorl iv (rd_dst m off (bsz c)), m).
  (** mode/bc.go:128-132 *)
  Definition bc_dec_mem (iv : bytes) (m : buffers) (off : nat) : res (bytes * buffers) :=
    let next := xorl iv (rd_src m off (bsz c)) in
    let m := wr_dst m off (dec c (rd_src m off (bsz c))) in
    let m := wr_dst m off (xorl (rd_dst m off (bsz c)) iv) in
    Ok (next, m).
  (** mode/pcbc.go:77-80 *)
  Definition pcbc_enc_mem (iv : bytes) (m : buffers) (off : nat) : res (bytes * buffers) :=
    let m := wr_dst m off (xorl (rd_src m off (bsz c)) iv) in
    let m := wr_dst m off (enc c (rd_dst m off (bsz c))) in
    Ok (xorl (rd_src m off (bsz c)) (rd_dst m off (bsz c)), m).
  (** mode/pcbc.go:143-146 *)
  Definition pcbc_dec_mem (iv : bytes) (m : buffers) (off : nat) : res (bytes * buffers) :=
    let m := wr_dst m off (dec c (rd_src m off (bsz c))) in
    let m := wr_dst m off (xorl (rd_dst m off (bsz c)) iv) in
    Ok (xorl (rd_dst m off (bsz c)) (rd_src m off (bsz c)), m).
  (** mode/ige.go:42-54 *)
  Definition ige_mem (f : bytes -> bytes) (st : ige_state) (m : buffers) (off : nat)
    : res (ige_state * buffers) :=
    let '(lc, lp) := st in
    let lc := xorl lc (rd_src m off (bsz c)) in
    let lc := f lc in
    let lc := xorl lc lp in
    let lp := rd_src m off (bsz c) in
    Ok ((lc, lp), wr_dst m off lc).
  (** mode/ige.go:102-112 on memory *)
  Definition ige_dec_mcall (st : ige_state) (x : bytes * bytes) : res (ige_state * bytes) :=
    let '(lc, lp) := st in
    rbind (mcall (ige_mem (dec c)) (lp, lc) x)
          (fun '((lc', lp'), o) => Ok ((lp', lc'), o)).
  (** mode/ofbnlf.go:69-81, 137-149 *)
  Definition ofbnlf_mem (f : cipher -> bytes -> bytes) (iv : bytes) (m : buffers) (off : nat)
    : res (bytes * buffers) :=
    let k := enc c iv in
    match newKey k with
    | None => Panic
    | Some c' => Ok (k, wr_dst m off (f c' (rd_src m off (bsz c))))
    end.
  (** mode/g3413cbc.go:88-93 *)
  Definition g3413cbc_enc_mem (iv : bytes) (m : buffers) (off : nat) : res (bytes * buffers) :=
    let m := wr_dst m off (xorl (rd_src m off (bsz c)) (firstn (bsz c) iv)) in
    let m := wr_dst m off (enc c (rd_dst m off (bsz c))) in
    let iv := gocopy iv (skipn (bsz c) iv) in
    let iv := splice (bsz c) (rd_dst m off (bsz c)) iv in
    Ok (iv, m).

  (** mode/g3413cbc.go:173-183: the backward loop over blocks 2..start. [nb]
      counts the blocks still to do: the current block has index [nb-1]; the
      loop runs while that index is above 1. *)
  (** one turn: Decrypt dst[start:end] from src[start:end], XOR with [prev]
      read after the write. *)
  Definition g3413_turn (m : buffers) (start : nat) (prev : buffers -> bytes) : buffers :=
    let m1 := wr_dst m start (dec c (rd_src m start (bsz c))) in
    wr_dst m1 start (xorl (slice start (bsz c) (bdst m1)) (prev m1)).
  Fixpoint g3413_back (nb : nat) (m : buffers) : buffers :=
    match nb with
    | O | 1 | 2 => m
    | Datatypes.S k =>
        g3413_back k
          (g3413_turn m (k * bsz c)
             (fun m => rd_src m ((k - 2) * bsz c) (bsz c)))
    end.
  (** mode/g3413cbc.go:146-196; the iv is never updated. [dst0] is the prior
      content of dst[:len(src)] when the buffers are distinct. *)
  Definition g3413cbc_dec_call (iv dst0 src : bytes) : res (bytes * bytes) :=
    if negb (length src mod bsz c =? 0) then Panic
    else if length src =? 0 then Ok (iv, [])
    else
      let nb := length src / bsz c in
      let m := {| bsrc := src; bdst := if inplace then src else dst0 |} in
      let m :=
        if bsz c <? length src then
          let m := if 2 * bsz c <? length src then g3413_back nb m else m in
          g3413_turn m (bsz c) (fun _ => skipn (bsz c) iv)
        else m in
      let m := g3413_turn m 0 (fun _ => firstn (bsz c) iv) in
      Ok (iv, bdst m).
End modes.
