(** Model of /repo/mode/ccm/ccm.go. The hook [ccmAble] is not modelled (no cipher in
    the repository has it). int is 64 bits wide. *)
From Verif Require Import Base BlockModeModel AeadSpec.
Set Implicit Arguments. Unset Strict Implicit.

(** ccm.go:56-84 NewCCMWithNonceAndTagSize: the accepted parameters *)
Definition ccm_new (c : cipher) (nsz tsz : Z) : res (nat * nat) :=
  if ((tsz <? 4) || (16 <? tsz) || negb (Z.land tsz 1 =? 0))%Z then Err
  else if (nsz <=? 0)%Z then Err
  else if ((15 - nsz <? 2) || (8 <? 15 - nsz))%Z then Err
  else if negb (bsz c =? 16) then Err
  else Ok (Z.to_nat nsz, Z.to_nat tsz).

Section ccm.
  Variable c : cipher.
  Variables nsz tsz : nat.

  (** ccm.go:94-109 MaxLength, maxlen (uint64 arithmetic; L = 15 - nonceSize) *)
  Definition ccm_maxlen : Z :=
    let L := Z.of_nat (15 - nsz) in
    let mx := ((Z.shiftl 1 (8 * L) mod 2 ^ 64 - 1) mod 2 ^ 64)%Z in
    let m64 := (2 ^ 63 - 1 - Z.of_nat tsz)%Z in
    if ((8 <? L) || (m64 <? mx))%Z then m64 else mx.

  (** ccm.go:112-115 deriveCounter on a zeroed array *)
  Definition ccm_counter (nonce : bytes) : bytes :=
    to_byte (14 - Z.of_nat nsz) :: gocopy (repeat 0%Z 15) nonce.
  (** ccm.go:174 counter[15] |= 1 *)
  Definition set_low (l : bytes) : bytes := splice 15 [Z.lor (nth 15 l 0%Z) 1] l.

  (** ccm.go:117-130 cmac; XORBytes touches only len(data) bytes of out *)
  Definition ccm_cmac (out data : bytes) : bytes :=
    fold_left (fun o d => enc c (gocopy o (xorl o d))) (chunks 16 data) out.

  (** ccm.go:147-172: the length field of the associated data *)
  Definition ccm_adlen (n : Z) : bytes :=
    if (n <=? 65279)%Z then be_bytes 2 n
    else if (n <? 2 ^ 32)%Z then [255; 254]%Z ++ be_bytes 4 n
    else [255; 255]%Z ++ be_bytes 8 n.

  (** ccm.go:133-186 auth *)
  Definition ccm_auth (nonce pt ad mask : bytes) : bytes :=
    let f0 := match ad with [] => 0%Z | _ => 64%Z end in
    let f1 := Z.lor f0 (to_byte (Z.shiftl (to_byte (Z.of_nat tsz - 2)) 2)) in
    let f := Z.lor f1 (to_byte (14 - Z.of_nat nsz)) in
    let b0 := splice 1 nonce (splice 8 (be_bytes 8 (Z.of_nat (length pt))) (f :: repeat 0%Z 15)) in
    let out := enc c b0 in
    let out :=
      match ad with
      | [] => out
      | _ =>
          let pre := ccm_adlen (Z.of_nat (length ad)) in
          let room := repeat 0%Z (16 - length pre) in
          let i := Nat.min (length room) (length ad) in
          ccm_cmac (ccm_cmac out (pre ++ gocopy room ad)) (skipn i ad)
      end in
    let out := match pt with [] => out | _ => ccm_cmac out pt end in
    firstn tsz (xorl out mask).

  (** ccm.go:188-215 Seal. [ip]: plaintext and out are the same memory (dst is
      plaintext[:0]); auth then reads the buffer after it was overwritten. *)
  Definition ccm_seal (ip : bool) (dst nonce pt ad : bytes) : res bytes :=
    if negb (length nonce =? nsz) then Panic
    else if (ccm_maxlen <? Z.of_nat (length pt))%Z then Panic
    else
      let counter := ccm_counter nonce in
      let mask := enc c counter in
      let ct := go_ctr c (set_low counter) pt in
      let tag := ccm_auth nonce (if ip then ct else pt) ad mask in
      Ok (dst ++ ct ++ tag).

  (** ccm.go:217-266 Open *)
  Definition ccm_open (dst nonce ct ad : bytes) : res bytes :=
    if negb (length nonce =? nsz) then Panic
    else if tsz <? 4 then Panic
    else if length ct <? tsz then Err
    else if (ccm_maxlen + Z.of_nat tsz <? Z.of_nat (length ct))%Z then Err
    else
      let tag := skipn (length ct - tsz) ct in
      let body := firstn (length ct - tsz) ct in
      let counter := ccm_counter nonce in
      let mask := enc c counter in
      let pt := go_ctr c (set_low counter) body in
      if bytes_eqb (ccm_auth nonce pt ad mask) tag then Ok (dst ++ pt) else Err.
End ccm.
