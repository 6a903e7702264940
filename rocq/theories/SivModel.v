(** Model of /repo/mode/siv/cipher.go and siv.go. *)
From Verif Require Import Base BlockModeModel ToolBytesModel AeadSpec MacModel PmacModel SivSpec.
Set Implicit Arguments. Unset Strict Implicit.
Local Open Scope nat_scope.

(** The hash.Hash object held in Cipher.h (cipher.go:28-29). *)
Record macobj := { mo_st : Type; mo_write : mo_st -> bytes -> res mo_st; mo_sum : mo_st -> bytes -> mo_st * bytes;
                   mo_reset : mo_st -> mo_st; mo_bs : nat; mo_size : mo_st -> nat }.
(** hash/cmac/cmac.go as that object *)
Definition cmac_obj (c : cipher) : macobj :=
  {| mo_st := cmacst; mo_write := fun d m => Ok (hcmac_write c d m); mo_sum := fun d i => (d, hcmac_sum c d i);
     mo_reset := hcmac_reset c; mo_bs := bsz c; mo_size := cm_tag |}.
(** hash/pmac/pmac.go as that object *)
Definition pmac_obj (c : cipher) : macobj :=
  {| mo_st := pmacst; mo_write := pmac_write c; mo_sum := pmac_sum c;
     mo_reset := pmac_reset c; mo_bs := bsz c; mo_size := pm_tag |}.

(** cipher.go:39-55 NewCMACCipher (cmac.New uses the block size as the tag size, hash/cmac/cmac.go:35-37) *)
Definition siv_new_cmac (mac : cipher) : res cmacst := hcmac_new mac (Z.of_nat (bsz mac)).
(** cipher.go:58-74 NewPMACCipher (hash/pmac/pmac.go:56-58) *)
Definition siv_new_pmac (mac : cipher) : res pmacst := pmac_new mac (Z.of_nat (bsz mac)).

(** cipher.go:195-201 zeroIVBits; indexing panics below 8 bytes *)
Definition and7f (i : nat) (l : bytes) : bytes := splice i [Z.land (nth i l 0%Z) 127] l.
Definition zero_iv_bits (iv : bytes) : res bytes :=
  if length iv <? 8 then Panic else Ok (and7f (length iv - 4) (and7f (length iv - 8) iv)).
(** crypto/cipher.NewCTR panics when the iv is not one block long *)
Definition new_ctr_xor (c : cipher) (iv src : bytes) : res bytes :=
  if length iv =? bsz c then Ok (go_ctr c iv src) else Panic.

Section siv.
  Variable o : macobj.
  Variable c2 : cipher.
  (** The scratch blocks tmp1, tmp2 (cipher.go:34-35) have the block size [mo_bs o]. tmp1 is
      cleared and tmp2 completely overwritten before use in s2v, so they are locals here. *)
  Definition sv_zero : bytes := repeat 0%Z (mo_bs o).

  (** cipher.go:160-171: for _, v := range s. copy(x, h.Sum(x[:0])) *)
  Fixpoint s2v_items (st : mo_st o) (d tmp : bytes) (s : list bytes) : res (mo_st o * bytes * bytes) :=
    match s with
    | [] => Ok (st, d, tmp)
    | v :: r =>
        rbind (mo_write st v) (fun st =>
        let '(st, t) := mo_sum st [] in
        let tmp := gocopy tmp t in
        let st := mo_reset st in
        s2v_items st (gocopy (pm_dbl d) (xorl (pm_dbl d) tmp)) tmp r)
    end.
  (** cipher.go:143-193 s2v; returns the new state of the hash object too *)
  Definition s2v (st : mo_st o) (s : list bytes) (sn : bytes) : res (mo_st o * bytes) :=
    let st := mo_reset st in
    rbind (mo_write st sv_zero) (fun st =>
    let '(st, t) := mo_sum st [] in
    let d := gocopy sv_zero t in
    let st := mo_reset st in
    rbind (s2v_items st d sv_zero s) (fun '(st, d, _) =>
    rbind (if mo_bs o <=? length sn then
             let n := length sn - length d in
             rbind (mo_write st (firstn n sn)) (fun st => Ok (st, d, gocopy sv_zero (skipn n sn)))
           else Ok (st, pm_dbl d, splice (length sn) [128%Z] (gocopy sv_zero sn))) (fun '(st, d, tmp) =>
    rbind (mo_write st (gocopy tmp (xorl tmp d))) (fun st =>
    Ok (mo_sum st []))))).

  (** cipher.go:87-107 Seal, plaintext and dst not overlapping *)
  Definition siv_seal (st : mo_st o) (dst pt : bytes) (data : list bytes) : mo_st o * res bytes :=
    if 126 <? length data then (st, Err)
    else match s2v st data pt with
         | Ok (st, iv) =>
             (st, rbind (zero_iv_bits iv) (fun q => rbind (new_ctr_xor c2 q pt) (fun ct => Ok (dst ++ iv ++ ct))))
         | Err => (st, Err) | Panic => (st, Panic)
         end.
  (** cipher.go:117-141 Open *)
  Definition siv_open (st : mo_st o) (dst ct : bytes) (data : list bytes) : mo_st o * res bytes :=
    if 126 <? length data then (st, Err)
    else if length ct <? mo_size st then (st, Err)
    else
      let n := mo_size st in
      match rbind (zero_iv_bits (firstn n ct)) (fun q => new_ctr_xor c2 q (skipn n ct)) with
      | Ok out =>
          match s2v st data out with
          | Ok (st, e) => (st, if bytes_eqb (firstn n ct) e then Ok (dst ++ out) else Err)
          | Err => (st, Err) | Panic => (st, Panic)
          end
      | Err => (st, Err) | Panic => (st, Panic)
      end.

  (** siv.go:63-83 and 85-95: the cipher.AEAD wrapper; [data] is None for a nil slice *)
  Definition aead_seal (nsz : Z) (st : mo_st o) (dst nonce pt : bytes) (data : option bytes) : mo_st o * res bytes :=
    if (negb (Z.of_nat (length nonce) =? nsz)%Z && (0 <=? nsz)%Z)%bool then (st, Panic)
    else let '(st, r) := match data with
                         | None => siv_seal st dst pt [nonce]
                         | Some a => siv_seal st dst pt [a; nonce]
                         end in
         (st, match r with Err => Panic | r => r end).
  Definition aead_open (nsz : Z) (st : mo_st o) (dst nonce ct : bytes) (data : option bytes) : mo_st o * res bytes :=
    if (negb (Z.of_nat (length nonce) =? nsz)%Z && (0 <=? nsz)%Z)%bool then (st, Panic)
    else match data with
         | None => siv_open st dst ct [nonce]
         | Some a => siv_open st dst ct [a; nonce]
         end.

  (** cipher.go:87-107 Seal called as the comment at cipher.go:84 allows, with dst and plaintext
      aliasing exactly: dst = plaintext[:0] with enough capacity. [out] starts where the
      plaintext starts, so copy(out, iv) at line 95 overwrites the plaintext and
      XORKeyStream(out[len(iv):], plaintext) at line 101 panics on inexact overlap
      (crypto/cipher) when the two ranges meet. *)
  Definition siv_seal_inplace (st : mo_st o) (pt : bytes) (data : list bytes) : mo_st o * res bytes :=
    if 126 <? length data then (st, Err)
    else match s2v st data pt with
         | Ok (st, iv) =>
             (st, rbind (zero_iv_bits iv) (fun q =>
                  if length iv <? length pt then Panic
                  else rbind (new_ctr_xor c2 q (firstn (length pt) iv)) (fun ct => Ok (iv ++ ct))))
         | Err => (st, Err) | Panic => (st, Panic)
         end.
  (** A history of calls on one Cipher *)
  Definition siv_step (st : mo_st o) (k : siv_call) : mo_st o * res bytes :=
    match k with CSeal d p a => siv_seal st d p a | COpen d p a => siv_open st d p a end.
  Fixpoint siv_run (st : mo_st o) (ks : list siv_call) : list (res bytes) :=
    match ks with [] => [] | k :: r => let '(st, x) := siv_step st k in x :: siv_run st r end.
  (** the state after a history *)
  Definition siv_state (st : mo_st o) (ks : list siv_call) : mo_st o := fold_left (fun st k => fst (siv_step st k)) ks st.
End siv.
(** mode/siv/aes/siv.go:17-35, 41-59: the key is split in two halves; [mk] is aes.NewCipher *)
Definition siv_aes_keys (mk : bytes -> res cipher) (key : bytes) : res (cipher * cipher) :=
  let n := length key in
  if (negb (n =? 32) && negb (n =? 64))%bool then Err
  else rbind (mk (firstn (n / 2) key)) (fun a => rbind (mk (skipn (n / 2) key)) (fun b => Ok (a, b))).
