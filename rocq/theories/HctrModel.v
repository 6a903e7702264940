(** Model of /repo/mode/hctr/hctr.go. 64-bit words are numbers below 2^64. *)
From Verif Require Import Base BlockModeModel.
Set Implicit Arguments. Unset Strict Implicit.
Local Open Scope nat_scope.

Definition w64 (x : Z) : Z := (x mod 2 ^ 64)%Z.
(** hctr.go:262-264 hctrFieldElement {low, high} *)
Definition felem := (Z * Z)%type.
(** hctr.go:19-24 hctrReductionTable *)
Definition hctr_red : list Z :=
  [0x0000; 0x1c20; 0x3840; 0x2460; 0x7080; 0x6ca0; 0x48c0; 0x54e0;
   0xe100; 0xfd20; 0xd940; 0xc560; 0x9180; 0x8da0; 0xa9c0; 0xb5e0]%Z.
(** hctr.go:266-270 reverseBits *)
Definition hrev (i : Z) : Z :=
  let i := Z.lor (Z.land (Z.shiftl i 2) 12) (Z.land (Z.shiftr i 2) 3) in
  Z.lor (Z.land (Z.shiftl i 1) 10) (Z.land (Z.shiftr i 1) 5).
(** hctr.go:272-274 hctrAdd *)
Definition hadd (x y : felem) : felem := (Z.lxor (fst x) (fst y), Z.lxor (snd x) (snd y)).
(** hctr.go:276-288 hctrDouble *)
Definition hdouble (x : felem) : felem :=
  let h := Z.lor (Z.shiftr (snd x) 1) (w64 (Z.shiftl (fst x) 63)) in
  let l := Z.shiftr (fst x) 1 in
  (if (Z.land (snd x) 1 =? 1)%Z then Z.lxor l 0xe100000000000000 else l, h).
(** the productTable of 16 elements *)
Definition tset {A} (t : list A) (i : nat) (v : A) : list A := splice i [v] t.
Definition tidx (i : nat) : nat := Z.to_nat (hrev (Z.of_nat i)).
(** hctr.go:44-54; [dbl], [add] are hctrDouble and hctrAdd *)
Definition htable {A} (zero : A) (dbl : A -> A) (add : A -> A -> A) (x : A) : list A :=
  fold_left (fun t i =>
      let t := tset t (tidx i) (dbl (nth (tidx (i / 2)) t zero)) in
      tset t (tidx (i + 1)) (add (nth (tidx i) t zero) x))
    [2; 4; 6; 8; 10; 12; 14] (tset (repeat zero 16) (tidx 1) x).
(** hctr.go:26-30, 32-57 NewHCTR *)
Record hctr := { hc_cipher : cipher; hc_tweak : bytes; hc_table : list felem }.
Definition f0 : felem := (0, 0)%Z.
Definition felem_of (b : bytes) : felem := (be_val (firstn 8 b), be_val (firstn 8 (skipn 8 b))).
Definition hctr_new (c : cipher) (tweak hkey : bytes) : res hctr :=
  if (negb (length tweak =? 16) || negb (length hkey =? 16))%bool then Panic
  else Ok {| hc_cipher := c; hc_tweak := tweak; hc_table := htable f0 hdouble hadd (felem_of hkey) |}.

(** hctr.go:132-150: one step of the inner loop of mul *)
Definition hmul_step (t : list felem) (zw : felem * Z) : felem * Z :=
  let '((zl, zh), word) := zw in
  let msw := Z.land zh 15 in
  let zh := Z.lor (Z.shiftr zh 4) (w64 (Z.shiftl zl 60)) in
  let zl := Z.lxor (Z.shiftr zl 4) (w64 (Z.shiftl (nth (Z.to_nat msw) hctr_red 0%Z) 48)) in
  let '(tl, th) := nth (Z.to_nat (Z.land word 15)) t f0 in
  ((Z.lxor zl tl, Z.lxor zh th), Z.shiftr word 4).
(** hctr.go:122-154 mul: the high word first, then the low one *)
Definition hmul (t : list felem) (y : felem) : felem :=
  let '(z, _) := Nat.iter 16 (hmul_step t) (f0, snd y) in
  fst (Nat.iter 16 (hmul_step t) (z, fst y)).
Section obj.
  Variable h : hctr.
  (** hctr.go:156-161 updateBlock *)
  Definition hupdate (block : bytes) (y : felem) : felem := hmul (hc_table h) (hadd y (felem_of block)).
  (** hctr.go:167-171: whole blocks *)
  Fixpoint hblocks (fuel : nat) (msg : bytes) (y : felem) : bytes * felem :=
    match fuel with
    | O => (msg, y)
    | S k => if 16 <=? length msg then hblocks k (skipn 16 msg) (hupdate msg y) else (msg, y)
    end.
  (** hctr.go:163-199 uhash (the 16 bytes written to out) *)
  Definition uhash (m : bytes) : bytes :=
    let '(msg, y) := hblocks (length m) m f0 in
    let k := length msg in
    let y :=
      if 0 <? k then
        let pb := gocopy (repeat 0%Z 16) msg in
        let pb := firstn k pb ++ gocopy (skipn k pb) (hc_tweak h) in
        let y := hupdate pb y in
        let pb := gocopy pb (skipn k (hc_tweak h)) in
        let pb := firstn k pb ++ repeat 0%Z (16 - k) in
        hupdate pb y
      else hupdate (hc_tweak h) y in
    let y := (fst y, Z.lxor (snd y) (w64 (Z.of_nat (length m + 16) * 8))) in
    let y := hmul (hc_table h) y in
    be_bytes 8 (fst y) ++ be_bytes 8 (snd y).
  (** hctr.go:201-254 ctr. The batched path (lines 206-226) is taken only for ciphers that offer
      EncryptBlocks; it encrypts the same counter blocks in the same order and is not modelled
      separately. [i] is a uint64. Returns the bytes written to dst[:len(src)]. *)
  Fixpoint hctr_ctr (fuel : nat) (i : Z) (base src : bytes) : bytes :=
    match fuel with
    | O => []
    | S k =>
        if 0 <? length src then
          let num := repeat 0%Z 8 ++ be_bytes 8 i in
          let ks := enc (hc_cipher h) (xorl base num) in
          let o := xorl src ks in
          o ++ hctr_ctr k (w64 (i + 1)) base (skipn (length o) src)
        else []
    end.
  (** hctr.go:63-88 Encrypt: the new contents of the whole destination slice. dst either does not
      overlap the source or starts where it starts; in the second case every byte of the source
      is read before it is overwritten, so the same values result. (Other overlaps panic.) *)
  Definition hctr_encrypt (dst pt : bytes) : res bytes :=
    if length dst <? length pt then Panic
    else if length pt <? 16 then Panic
    else
      let z1 := xorl (uhash (skipn 16 pt)) (firstn 16 pt) in
      let z2 := enc (hc_cipher h) z1 in
      let z1 := xorl z1 z2 in
      let dst := splice 16 (hctr_ctr (length pt) 1 z1 (skipn 16 pt)) dst in
      let z1 := uhash (skipn 16 dst) in
      Ok (splice 0 (xorl z2 z1) dst).
  (** hctr.go:90-115 Decrypt *)
  Definition hctr_decrypt (dst ct : bytes) : res bytes :=
    if length dst <? length ct then Panic
    else if length ct <? 16 then Panic
    else
      let z2 := xorl (uhash (skipn 16 ct)) (firstn 16 ct) in
      let z1 := dec (hc_cipher h) z2 in
      let z2 := xorl z2 z1 in
      let dst := splice 16 (hctr_ctr (length ct) 1 z2 (skipn 16 ct)) dst in
      let z2 := uhash (skipn 16 dst) in
      Ok (splice 0 (xorl z2 z1) dst).
End obj.
