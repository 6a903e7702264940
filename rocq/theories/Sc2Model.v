(** Model of /repo/cipher/hc: the stream ciphers HC-128 and HC-256. The sixteen unrolled calls of gen_block_* are a loop
    over x = 0 .. 15. As in Sc1Model, buffers that overlap inexactly (a panic) are not modelled. *)
From Verif Require Import Base BlockModeModel WordModel.
Set Implicit Arguments. Unset Strict Implicit.
Local Open Scope nat_scope.

(** hc128.go:9-17, hc256.go:9-17 *)
Record hc := Hc { hc_block : list Z; hc_P : list Z; hc_Q : list Z; hc_X : list Z; hc_Y : list Z; hc_words : nat; hc_pos : nat }.

(** utils.go:55-61 *)
Definition hc_f1 (x : Z) : Z := Z.lxor (Z.lxor (rotr 32 7 x) (rotr 32 18 x)) (Z.shiftr x 3).
Definition hc_f2 (x : Z) : Z := Z.lxor (Z.lxor (rotr 32 17 x) (rotr 32 19 x)) (Z.shiftr x 10).
(** utils.go:63-69 *)
Definition g256 (x y : Z) (Q : list Z) : Z :=
  wadd 32 (Z.lxor (rotr 32 10 x) (rotr 32 23 y)) Q.[Z.to_nat (Z.land (Z.lxor x y) 0x3ff)].
Definition h256 (x : Z) (Q : list Z) : Z :=
  let b k := Z.to_nat (Z.shiftr x k mod 256) in
  wadd 32 (wadd 32 (wadd 32 Q.[b 0%Z] Q.[256 + b 8%Z]) Q.[512 + b 16%Z]) Q.[768 + b 24%Z].
(** utils.go:164-174 *)
Definition g128p (x y z : Z) : Z := wadd 32 (Z.lxor (rotr 32 10 x) (rotr 32 23 z)) (rotr 32 8 y).
Definition g128q (x y z : Z) : Z := wadd 32 (Z.lxor (rotl 32 10 x) (rotl 32 23 z)) (rotl 32 8 y).
Definition h128 (x : Z) (Q : list Z) : Z := wadd 32 Q.[Z.to_nat (x mod 256)] Q.[256 + Z.to_nat (Z.shiftr x 16 mod 256)].

(** One word; h is absent in the set-up, where no word is put out. [new old x13 x6 next x4 Q] is what P[i+x] becomes; utils.go:71-96, 176-210, 231-265: P[Pindex] is P[0] at
    the last place of the table (P32L, x = 15) and P[i+1+x] elsewhere *)
Section words.
  Variable N : nat.
  Variable new : Z -> Z -> Z -> Z -> Z -> list Z -> Z.
  Variable h : option (Z -> list Z -> Z).
  Definition hc_word (Q : list Z) (i : nat) (st : list Z * list Z * list Z) (x : nat) : list Z * list Z * list Z :=
    let '(P, X, block) := st in
    let idx := if (x =? 15) && (i =? N - 16) then 0 else i + 1 + x in
    let v := new P.[i + x] X.[(x + 13) mod 16] X.[(x + 6) mod 16] P.[idx] X.[(x + 4) mod 16] Q in
    let P := upd (i + x) v P in
    let X := upd x v X in
    (P, X, match h with Some h => upd x (Z.lxor (h X.[(x + 4) mod 16] Q) P.[i + x]) block | None => block end).
  (** utils.go:98-134, 212-229, 267-322 *)
  Definition hc_gen (P Q X block : list Z) (i : nat) : list Z * list Z * list Z := fold_left (hc_word Q i) (ups 0 16 1) (P, X, block).
End words.
(** what the four kinds of step put into the table *)
Definition new256 (old x13 x6 nx x4 : Z) (Q : list Z) : Z := wadd 32 (wadd 32 old x6) (g256 x13 nx Q).
Definition new128 (g : Z -> Z -> Z -> Z) (old x13 x6 nx x4 : Z) (Q : list Z) : Z := wadd 32 old (g x13 x6 nx).
Definition new128i (g : Z -> Z -> Z -> Z) (old x13 x6 nx x4 : Z) (Q : list Z) : Z := Z.lxor (wadd 32 old (g x13 x6 nx)) (h128 x4 Q).
(** utils.go:136-160, 324-348: sixteen words, from P or from Q *)
Section generate.
  Variable N : nat.
  Variables newP newQ : Z -> Z -> Z -> Z -> Z -> list Z -> Z.
  Variable h : option (Z -> list Z -> Z).
  Definition hc_generate (s : hc) : hc :=
    if hc_words s <? N then
      let '(P, X, b) := hc_gen N newP h (hc_P s) (hc_Q s) (hc_X s) (hc_block s) (hc_words s) in
      Hc b P (hc_Q s) X (hc_Y s) (hc_words s + 16) (hc_pos s)
    else
      let '(Q, Y, b) := hc_gen N newQ h (hc_Q s) (hc_P s) (hc_Y s) (hc_block s) (hc_words s - N) in
      let w := hc_words s + 16 in
      Hc b (hc_P s) Q (hc_X s) Y (if w =? 2 * N then 0 else w) (hc_pos s).
End generate.
Definition gen128 := hc_generate 512 (new128 g128p) (new128 g128q) (Some h128).
(** the set-up steps *)
Definition gen128i := hc_generate 512 (new128i g128p) (new128i g128q) None.
Definition gen256 := hc_generate 1024 new256 new256 (Some h256).
Definition gen256i := hc_generate 1024 new256 new256 None.

(** hc128.go:107-110, hc256.go:107-110; the words in reverse order, W[i-1] first *)
Fixpoint hc_W (n : nat) (i : Z) (w : list Z) : list Z :=
  match n with
  | O => w
  | S m => hc_W m (i + 1) (wadd 32 (wadd 32 (wadd 32 (wadd 32 (hc_f2 w.[1]) w.[6]) (hc_f1 w.[14])) w.[15]) i :: w)
  end.
Definition hc_blank : list Z := repeat 0%Z 16.
(** hc128.go:85-122 *)
Definition hc128_init (key iv : bytes) : hc :=
  let k := ldw 4 key in let v := ldw 4 iv in
  let W := rev (hc_W 1264 16 (rev (k ++ k ++ v ++ v))) in
  let P := slice 256 512 W in let Q := slice 768 512 W in
  Nat.iter (1024 / 16) gen128i (Hc hc_blank P Q (slice 496 16 P) (slice 496 16 Q) 0 0).
(** hc256.go:85-122 *)
Definition hc256_init (key iv : bytes) : hc :=
  let W := rev (hc_W 2544 16 (rev (ldw 4 key ++ ldw 4 iv))) in
  let P := slice 512 1024 W in let Q := slice 1536 1024 W in
  Nat.iter (4096 / 16) gen256i (Hc hc_blank P Q (slice 1008 16 P) (slice 1008 16 Q) 0 0).
(** hc128.go:20-32, hc256.go:20-32 *)
Definition hc128_new (key iv : bytes) : res hc :=
  if negb (length key =? 16) then Err else if negb (length iv =? 16) then Err else Ok (hc128_init key iv).
Definition hc256_new (key iv : bytes) : res hc :=
  if negb (length key =? 32) then Err else if negb (length iv =? 32) then Err else Ok (hc256_init key iv).

(** hc128.go:34-83, hc256.go:34-83 *)
Section crypt.
  Variable gen : hc -> hc.
  Definition set_pos (s : hc) (p : nat) : hc := Hc (hc_block s) (hc_P s) (hc_Q s) (hc_X s) (hc_Y s) (hc_words s) p.
  (** the loop from line 69 on; one round per 64 bytes and one for the rest *)
  Fixpoint hc_rounds (s : hc) (parts : list bytes) : hc * bytes :=
    match parts with
    | [] => (s, [])
    | p :: r =>
        let s := gen s in
        let s := if length p =? 64 then s else set_pos s (length p) in
        let '(s', o) := hc_rounds s r in (s', xorl p (stw 4 (hc_block s)) ++ o)
    end.
  Definition hc_crypt (s : hc) (src : bytes) : hc * bytes :=
    let n := if 0 <? hc_pos s then Nat.min (length src) (64 - hc_pos s) else 0 in
    let o := xorl (firstn n src) (skipn (hc_pos s) (stw 4 (hc_block s))) in
    let s := set_pos s (hc_pos s + n) in
    let rest := skipn n src in
    let s := if 0 <? length rest then set_pos s 0 else s in
    let '(s, o') := hc_rounds s (chunks 64 rest) in (s, o ++ o').
  Definition hc_call (s : hc) (x : bytes * bytes) : res (hc * bytes) :=
    let '(dst, src) := x in
    if length src =? 0 then Ok (s, []) else if length dst <? length src then Panic else Ok (hc_crypt s src).
End crypt.
Definition hc128_call := hc_call gen128.
Definition hc256_call := hc_call gen256.
(** hc.go:21-31: the kind of cipher goes by the length of the key *)
Definition hc_new (key iv : bytes) : res hc :=
  if length key =? 16 then hc128_new key iv else if length key =? 32 then hc256_new key iv else Err.
