(** Model of /repo/mac/*.go and /repo/hash/cmac/cmac.go. *)
From Verif Require Import Base PaddingModel BlockModeModel ToolBytesModel HashSpec.
Set Implicit Arguments. Unset Strict Implicit.
Local Open Scope nat_scope.

(** padding.NewISO97971().Padding(src, blockSize) *)
Definition iso_pad (n : nat) (src : bytes) : bytes := iso7816_pad src (Z.of_nat n).
(** size <= 0 || size > b.BlockSize() *)
Definition bad_size (c : cipher) (size : Z) : bool := ((size <=? 0) || (Z.of_nat (bsz c) <? size))%Z.
(** a BlockCipherFunc: key to cipher or error *)
Notation creator := (bytes -> res cipher).
(** panic(err) on a creator error *)
Definition must {A} (r : res A) : res A := match r with Err => Panic | x => x end.
Definition zeros (n : nat) : bytes := repeat 0%Z n.

(** for len(src) > 0 { XORBytes(tag, tag, src[:bs]); b.Encrypt(tag, tag); src = src[bs:] } *)
Definition mac_loop (c : cipher) (tag : bytes) (blocks : list bytes) : bytes :=
  fold_left (fun t b => enc c (xorl t b)) blocks tag.

(** cbc_mac.go:18-51 *)
Definition cbcmac_new (c : cipher) (size : Z) : res (bytes -> bytes) :=
  if bad_size c size then Panic
  else Ok (fun src => firstn (Z.to_nat size) (mac_loop c (zeros (bsz c)) (chunks (bsz c) (iso_pad (bsz c) src)))).

(** emac.go:19-63 *)
Definition emac_new (mk : creator) (key1 key2 : bytes) (size : Z) : res (bytes -> bytes) :=
  rbind (must (mk key1)) (fun b1 =>
  if bad_size b1 size then Panic
  else rbind (must (mk key2)) (fun b2 =>
  Ok (fun src => firstn (Z.to_nat size)
        (enc b2 (mac_loop b1 (zeros (bsz b1)) (chunks (bsz b1) (iso_pad (bsz b1) src))))))).

(** ansi_retail_mac.go:19-63 *)
Definition retail_new (mk : creator) (key1 key2 : bytes) (size : Z) : res (bytes -> bytes) :=
  rbind (must (mk key1)) (fun b1 =>
  if bad_size b1 size then Panic
  else rbind (must (mk key2)) (fun b2 =>
  Ok (fun src => firstn (Z.to_nat size)
        (enc b1 (dec b2 (mac_loop b1 (zeros (bsz b1)) (chunks (bsz b1) (iso_pad (bsz b1) src)))))))).

(** mac_des.go:19-80 *)
Definition macdes_new (mk : creator) (key1 key2 : bytes) (size : Z) : res (bytes -> bytes) :=
  rbind (must (mk key1)) (fun b1 =>
  if bad_size b1 size then Panic
  else rbind (must (mk key2)) (fun b2 =>
  rbind (must (mk (map (fun k => Z.lxor k 240) key2))) (fun b3 =>
  Ok (fun src =>
        let p := iso_pad (bsz b1) src in
        let tag := enc b3 (enc b1 (firstn (bsz b1) p)) in
        firstn (Z.to_nat size) (enc b2 (mac_loop b1 tag (chunks (bsz b1) (skipn (bsz b1) p)))))))).

(** lmac.go:19-77: the tag is not truncated and Size() is the block size *)
Definition lmac_new (mk : creator) (key : bytes) (size : Z) : res (bytes -> bytes) :=
  rbind (must (mk key)) (fun b =>
  if bad_size b size then Panic
  else
  rbind (must (mk (enc b (zeros (bsz b - 1) ++ [1%Z])))) (fun b1 =>
  rbind (must (mk (enc b (zeros (bsz b - 1) ++ [2%Z])))) (fun b2 =>
  Ok (fun src =>
        let bl := chunks (bsz b1) (iso_pad (bsz b1) src) in
        enc b2 (xorl (mac_loop b1 (zeros (bsz b1)) (removelast bl)) (last bl []))))) ).

(** tr_cbc_mac.go:18-58 *)
Definition trcbc_new (c : cipher) (size : Z) : res (bytes -> bytes) :=
  if bad_size c size then Panic
  else Ok (fun src =>
    let padded := (length src =? 0) || negb (length src mod bsz c =? 0) in
    let p := if padded then iso_pad (bsz c) src else src in
    let tag := mac_loop c (zeros (bsz c)) (chunks (bsz c) p) in
    if padded then skipn (bsz c - Z.to_nat size) tag else firstn (Z.to_nat size) tag).

(** cbcr_mac.go:19-75. shiftLeft drops the bit shifted out, shiftRight rotates. *)
Definition cbcr_new (c : cipher) (size : Z) : res (bytes -> bytes) :=
  if bad_size c size then Panic
  else Ok (fun src =>
    let tag0 := enc c (zeros (bsz c)) in
    let padded := (length src =? 0) || negb (length src mod bsz c =? 0) in
    let p := if padded then iso_pad (bsz c) src else src in
    let bl := chunks (bsz c) p in
    let tag := xorl (mac_loop c tag0 (removelast bl)) (last bl []) in
    let tag := if padded then fst (shift_carry tag) else shift_right tag in
    firstn (Z.to_nat size) (enc c tag)).

(** mac/cmac.go:19-44 NewCMAC: subkeys, with 0x87 at every block size *)
Definition cmac_sub (x : bytes) : bytes :=
  let '(s, msb) := shift_carry x in xor_last (to_byte (msb * 135)) s.
(** tag[i] ^= 0x80 *)
Definition xor_at (off : nat) (buf d : bytes) : bytes := splice off (xorl (skipn off buf) d) buf.
(** mac/cmac.go:50-82 MAC *)
Fixpoint cmac_loop (c : cipher) (k1 k2 tag : bytes) (blocks : list bytes) : bytes :=
  match blocks with
  | [] => tag
  | b :: rest =>
      if length b =? bsz c then
        let t := xorl b tag in
        let t := match rest with [] => xorl k1 t | _ => t end in
        cmac_loop c k1 k2 (enc c t) rest
      else
        let t := gocopy tag (xorl b tag) in
        let t := xorl k2 t in
        enc c (xor_at (length b) t [128%Z])
  end.
Definition cmac_new (c : cipher) (size : Z) : res (bytes -> bytes) :=
  if bad_size c size then Panic
  else
    let k1 := cmac_sub (enc c (zeros (bsz c))) in
    let k2 := cmac_sub k1 in
    Ok (fun src =>
      match src with
      | [] => enc c (xor_at 0 (gocopy (zeros (bsz c)) k2) [128%Z])
      | _ => firstn (Z.to_nat size) (cmac_loop c k1 k2 (zeros (bsz c)) (chunks (bsz c) src))
      end).

(** ** hash/cmac/cmac.go: the streaming object *)
Record cmacst := { cm_k0 : bytes; cm_k1 : bytes; cm_buf : bytes; cm_off : nat; cm_tag : nat }.

(** cmac.go:67-79: the polynomial constants *)
Definition hcmac_poly (bs : nat) : option Z :=
  if bs =? 8 then Some 27%Z else if bs =? 16 then Some 135%Z else if bs =? 32 then Some 1061%Z
  else if bs =? 64 then Some 293%Z else if bs =? 128 then Some 524355%Z else None.
(** cmac.go:59-100 NewWithTagSize; [byte(ConstantTimeSelect(v, p, 0))] keeps the low byte *)
Definition hcmac_sub (p : Z) (x : bytes) : bytes :=
  let '(s, v) := shift_carry x in xor_last (to_byte (if (v =? 0)%Z then 0 else p)%Z) s.
Definition hcmac_new (c : cipher) (tagsize : Z) : res cmacst :=
  if bad_size c tagsize then Err
  else match hcmac_poly (bsz c) with
       | None => Err
       | Some p =>
           let k0 := hcmac_sub p (enc c (zeros (bsz c))) in
           Ok {| cm_k0 := k0; cm_k1 := hcmac_sub p k0; cm_buf := zeros (bsz c); cm_off := 0;
                 cm_tag := Z.to_nat tagsize |}
       end.
Definition with_buf (d : cmacst) (buf : bytes) (off : nat) : cmacst :=
  {| cm_k0 := cm_k0 d; cm_k1 := cm_k1 d; cm_buf := buf; cm_off := off; cm_tag := cm_tag d |}.
(** cmac.go:110-115 Reset *)
Definition hcmac_reset (c : cipher) (d : cmacst) : cmacst := with_buf d (zeros (bsz c)) 0.
(** cmac.go:117-155 Write *)
Definition hcmac_write_tail (c : cipher) (d : cmacst) (msg : bytes) : cmacst :=
  let bs := bsz c in
  let '(d, msg) :=
    if bs <? length msg then
      let nn := Z.to_nat (Z.land (Z.of_nat (length msg)) (Z.lnot (Z.of_nat bs - 1))) in
      let nn := if length msg =? nn then nn - bs else nn in
      (with_buf d (fold_left (fun t b => enc c (xorl t b)) (chunks bs (firstn nn msg)) (cm_buf d)) (cm_off d),
       skipn nn msg)
    else (d, msg) in
  if 0 <? length msg then with_buf d (xor_at (cm_off d) (cm_buf d) msg) (cm_off d + length msg) else d.
Definition hcmac_write (c : cipher) (d : cmacst) (msg : bytes) : cmacst :=
  let bs := bsz c in
  if 0 <? cm_off d then
    let dif := bs - cm_off d in
    if dif <? length msg then
      hcmac_write_tail c (with_buf d (enc c (xor_at (cm_off d) (cm_buf d) (firstn dif msg))) 0) (skipn dif msg)
    else with_buf d (xor_at (cm_off d) (cm_buf d) msg) (cm_off d + length msg)
  else hcmac_write_tail c d msg.
(** cmac.go:157-183 Sum, checkSum: works on copies, the state is unchanged *)
Definition hcmac_sum (c : cipher) (d : cmacst) (inp : bytes) : bytes :=
  let hash := gocopy (zeros (bsz c)) (if cm_off d <? bsz c then cm_k1 d else cm_k0 d) in
  let hash := xorl hash (cm_buf d) in
  let hash := if cm_off d <? bsz c then xor_at (cm_off d) hash [128%Z] else hash in
  inp ++ firstn (cm_tag d) (enc c hash).

(** A history of calls on the object; the outputs of the Sum calls. *)
Definition hcmac_run (c : cipher) (d : cmacst) (ops : list hop) : list bytes :=
  hrun (hcmac_write c) (hcmac_sum c) (hcmac_reset c) d ops.
