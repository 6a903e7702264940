(** Model of cipher/fpe/ff1/ff1.go and cipher/fpe/ff3/ff3.go, with the parts of math/big they use on strings (SetString, Text).
    AES is an arbitrary function [aes] of key and block. The floating-point expressions for the byte length b and for minLen and
    maxLen are parameters [fb], [mn], [mx]: theorems say what they need of them. A slice that is reversed in place is returned as
    the new content of the caller's slice. The error values are not distinguished. *)
From Verif Require Import Base BigModel WordModel.
Set Implicit Arguments. Unset Strict Implicit.
Local Open Scope Z_scope.

(** math/big nat.scan: the value of a digit character, if it is one to the base r (2 <= r <= 62) *)
Definition dig (r ch : Z) : option Z :=
  let d := if (48 <=? ch) && (ch <=? 57) then ch - 48
           else if (97 <=? ch) && (ch <=? 122) then ch - 97 + 10
           else if (65 <=? ch) && (ch <=? 90) then (if r <=? 36 then ch - 65 + 10 else ch - 65 + 36)
           else 63 in
  if d <? r then Some d else None.
Fixpoint scan (r acc : Z) (s : bytes) : option Z :=
  match s with [] => Some acc | ch :: s' => match dig r ch with Some d => scan r (acc * r + d) s' | None => None end end.
Definition scan1 (r : Z) (s : bytes) : option Z := match s with [] => None | _ => scan r 0 s end.
(** math/big Int.SetString for a base from 2 to 62 *)
Definition set_string (r : Z) (s : bytes) : option Z :=
  match s with
  | ch :: s' => if ch =? 45 then option_map Z.opp (scan1 r s') else if ch =? 43 then scan1 r s' else scan1 r s
  | [] => None
  end.
(** math/big Int.Text for a number that is not negative *)
Definition chr (d : Z) : Z := if d <? 10 then 48 + d else if d <? 36 then 97 + d - 10 else 65 + d - 36.
Fixpoint digs (fuel : nat) (r v : Z) : bytes :=
  match fuel with O => [] | S f => if v <? r then [chr v] else digs f r (v / r) ++ [chr (v mod r)] end.
Definition text (r v : Z) : bytes := digs (S (bitlen v)) r v.
(** strings.Repeat("0", m-len(s)) + s; Repeat panics for a negative count *)
Definition lpad (m : nat) (s : bytes) : res bytes := if (m <? length s)%nat then Panic else Ok (repeat 48 (m - length s) ++ s).

Section fpe.
Variable aes : bytes -> bytes -> bytes.

(** * FF1 *)
(** ff1.go:45-55 *)
Record ff1 := FF1 { f1Key : bytes; f1Tweak : bytes; f1Radix : Z; f1Min : Z; f1MaxT : Z }.
(** ff1.go:59-106 NewCipher; [mn] is minLen as computed; maxLen is MaxUint32 *)
Definition ff1_new (mn : Z) (radix maxTLen : Z) (key tweak : bytes) : res ff1 :=
  let k := length key in
  if negb (Nat.eqb k 16 || Nat.eqb k 24 || Nat.eqb k 32) then Err else
  if (radix <? 2) || (62 <? radix) then Err else
  if maxTLen <? Z.of_nat (length tweak) then Err else
  if (mn <? 2) || (2 ^ 32 - 1 <? mn) then Err else
  Ok (FF1 key tweak radix mn maxTLen).

(** ff1.go:570-584 ciph: CBC with zero IV, in place *)
Fixpoint cbc0 (E : bytes -> bytes) (iv : bytes) (bs : list bytes) : list bytes :=
  match bs with [] => [] | b :: bs' => let y := E (xorl b iv) in y :: cbc0 E y bs' end.
Definition ciph (E : bytes -> bytes) (input : bytes) : res bytes :=
  if negb (Nat.eqb (length input mod 16) 0) then Err else Ok (concat (cbc0 E (repeat 0 16) (chunks 16 input))).
(** ff1.go:589-597 prf *)
Definition prf (E : bytes -> bytes) (input : bytes) : res bytes :=
  rbind (ciph E input) (fun o => Ok (skipn (length o - 16) o)).

(** ff1.go:269-293, 511-535: the blocks after R in Y, for j = 1 .. maxJ-1 *)
Fixpoint ff1_more (E : bytes -> bytes) (R : bytes) (js : list nat) : res bytes :=
  match js with
  | [] => Ok []
  | j :: js' => rbind (ciph E (xorl R (repeat 0 8 ++ be_bytes 8 (Z.of_nat j)))) (fun x =>
                rbind (ff1_more E R js') (fun xs => Ok (x ++ xs)))
  end.
(** ff1.go:241-295 (483-537): one evaluation of the round function on the number [num] in round i. Q is the buffer shared by the
    rounds; the result is the new Q and numY. Y and PQ share memory with one another but not with Q. *)
Definition ff1_y (E : bytes -> bytes) (P : bytes) (t pad lenQ maxJ d : nat) (Q : bytes) (i : nat) (num : Z) : res (bytes * Z) :=
  let Q := upd (t + pad) (Z.of_nat i) Q in
  let nb := big_bytes num in
  let Q := firstn (t + pad + 1) Q ++ repeat 0 (lenQ - (t + pad + 1)) in
  if (lenQ <? length nb)%nat then Panic else
  let Q := splice (lenQ - length nb) nb Q in
  rbind (prf E (P ++ Q)) (fun R =>
  rbind (ff1_more E R (seq 1 (maxJ - 1))) (fun xs => Ok (Q, be_val (firstn d (R ++ xs))))).

Section ff1.
(** ff1.go:152, 394: b as computed for v *)
Variable fb : nat -> nat.

(** ff1.go:117-236, 359-478: checks and values set up before the rounds: P, t, numPad, lenQ, maxJ, d, Q, u, v, numA, numB *)
Record setup := Setup { sP : bytes; sT : nat; sPad : nat; sLenQ : nat; sMaxJ : nat; sD : nat; sQ : bytes; sU : nat; sV : nat; sA : Z; sB : Z }.
Definition ff1_setup (c : ff1) (X tweak : bytes) : res setup :=
  let n := Z.of_nat (length X) mod 2 ^ 32 in
  let t := length tweak in
  if n <? f1Min c then Err else
  if f1MaxT c <? Z.of_nat t then Err else
  match set_string (f1Radix c) X with
  | None => Err
  | Some _ =>
    let u := Z.to_nat (n / 2) in
    let v := (Z.to_nat n - u)%nat in
    let A := firstn u X in
    let B := skipn u X in
    let b := fb v in
    let d := (4 * Nat.div (b + 3) 4 + 4)%nat in
    let maxJ := Nat.div (d + 15) 16 in
    let p := Z.rem (- Z.of_nat t - Z.of_nat b - 1) 16 in
    let pad := Z.to_nat (if p <? 0 then p + 16 else p) in
    let P := [1; 2; 1; 0] ++ be_bytes 2 (f1Radix c) ++ [10; to_byte (Z.of_nat u)] ++ be_bytes 4 n ++ be_bytes 4 (Z.of_nat t) in
    let lenQ := (t + b + 1 + pad)%nat in
    let Q := tweak ++ repeat 0 (lenQ - t) in
    match set_string (f1Radix c) A, set_string (f1Radix c) B with
    | Some a, Some b' => Ok (Setup P t pad lenQ maxJ d Q u v a b')
    | _, _ => Err
    end
  end.
(** ff1.go:297-301, 539-543: the modulus of round i *)
Definition ff1_mod (c : ff1) (s : setup) (i : nat) : Z :=
  if Nat.even i then f1Radix c ^ Z.of_nat (sU s) else f1Radix c ^ Z.of_nat (sV s).
Fixpoint ff1_enc_rounds (c : ff1) (s : setup) (is : list nat) (Q : bytes) (a b : Z) : res (Z * Z) :=
  match is with
  | [] => Ok (a, b)
  | i :: is' =>
    rbind (ff1_y (aes (f1Key c)) (sP s) (sT s) (sPad s) (sLenQ s) (sMaxJ s) (sD s) Q i b) (fun qy =>
    ff1_enc_rounds c s is' (fst qy) (be_val (big_bytes b)) ((a + snd qy) mod ff1_mod c s i))
  end.
Fixpoint ff1_dec_rounds (c : ff1) (s : setup) (is : list nat) (Q : bytes) (a b : Z) : res (Z * Z) :=
  match is with
  | [] => Ok (a, b)
  | i :: is' =>
    rbind (ff1_y (aes (f1Key c)) (sP s) (sT s) (sPad s) (sLenQ s) (sMaxJ s) (sD s) Q i a) (fun qy =>
    ff1_dec_rounds c s is' (fst qy) ((b - snd qy) mod ff1_mod c s i) (be_val (big_bytes a)))
  end.
Definition ff1_out (c : ff1) (s : setup) (ab : Z * Z) : res bytes :=
  rbind (lpad (sU s) (text (f1Radix c) (fst ab))) (fun A =>
  rbind (lpad (sV s) (text (f1Radix c) (snd ab))) (fun B => Ok (A ++ B))).
(** ff1.go:120-336 EncryptWithTweak *)
Definition ff1_encrypt (c : ff1) (X tweak : bytes) : res bytes :=
  rbind (ff1_setup c X tweak) (fun s =>
  rbind (ff1_enc_rounds c s (seq 0 10) (sQ s) (sA s) (sB s)) (ff1_out c s)).
(** ff1.go:349-565 DecryptWithTweak *)
Definition ff1_decrypt (c : ff1) (X tweak : bytes) : res bytes :=
  rbind (ff1_setup c X tweak) (fun s =>
  rbind (ff1_dec_rounds c s (rev (seq 0 10)) (sQ s) (sA s) (sB s)) (ff1_out c s)).
End ff1.

(** * FF3 *)
(** ff3.go:32-40; f3Key is the reversed key *)
Record ff3 := FF3 { f3Key : bytes; f3Tweak : bytes; f3Radix : Z; f3Min : Z; f3Max : Z }.
(** ff3.go:44-87 NewCipher: the cipher and what the caller's key slice holds afterwards. [mn], [mx]: minLen and maxLen as computed;
    the third of the length checks compares maxLen with the number it was rounded down from and is left out. *)
Definition ff3_new (mn mx : Z) (radix : Z) (key tweak : bytes) : res ff3 * bytes :=
  let k := length key in
  if negb (Nat.eqb k 16 || Nat.eqb k 24 || Nat.eqb k 32) then (Err, key) else
  if (radix <? 2) || (62 <? radix) then (Err, key) else
  if negb (Nat.eqb (length tweak) 8) then (Err, key) else
  if (mn <? 2) || (mx <? mn) then (Err, key) else
  (Ok (FF3 (rev key) tweak radix mn mx), rev key).

(** ff3.go:176-205 (303-332): numY in round i for the string B, and P afterwards *)
Definition ff3_y (E : bytes -> bytes) (r : Z) (tweak : bytes) (i : nat) (P B : bytes) : res (bytes * Z) :=
  let W := if Nat.even i then skipn 4 tweak else firstn 4 tweak in
  let P := firstn 3 W ++ [Z.lxor (nth 3 W 0) (Z.of_nat i)] ++ skipn 4 P in
  match set_string r (rev B) with
  | None => Err
  | Some nb =>
    let b := big_bytes nb in
    let P := splice 4 (repeat 0 (12 - length b)) P in
    if (16 <? length b)%nat then Panic else
    let P := splice (16 - length b) b P in
    let S := rev (E (rev P)) in
    Ok (S, be_val S)
  end.
(** ff3.go:208-226 (335-353) : the new half *)
Fixpoint lpad0 (fuel m : nat) (s : bytes) : bytes := match fuel with O => s | S f => if (length s <? m)%nat then lpad0 f m (48 :: s) else s end.
Definition ff3_c (r : Z) (u v i : nat) (op : Z -> Z) (A : bytes) : res bytes :=
  match set_string r (rev A) with
  | None => Err
  | Some na =>
    let c := op na mod (if Nat.even i then r ^ Z.of_nat u else r ^ Z.of_nat v) in
    let m := if Nat.even i then u else v in
    Ok (rev (lpad0 m m (text r c)))
  end.
Fixpoint ff3_enc_rounds (c : ff3) (tweak : bytes) (u v : nat) (is : list nat) (P A B : bytes) : res (bytes * bytes) :=
  match is with
  | [] => Ok (A, B)
  | i :: is' =>
    rbind (ff3_y (aes (f3Key c)) (f3Radix c) tweak i P B) (fun py =>
    rbind (ff3_c (f3Radix c) u v i (fun x => x + snd py) A) (fun C =>
    ff3_enc_rounds c tweak u v is' (fst py) B C))
  end.
Fixpoint ff3_dec_rounds (c : ff3) (tweak : bytes) (u v : nat) (is : list nat) (P A B : bytes) : res (bytes * bytes) :=
  match is with
  | [] => Ok (A, B)
  | i :: is' =>
    rbind (ff3_y (aes (f3Key c)) (f3Radix c) tweak i P A) (fun py =>
    rbind (ff3_c (f3Radix c) u v i (fun x => x - snd py) B) (fun C =>
    ff3_dec_rounds c tweak u v is' (fst py) C A))
  end.
(** ff3.go:100-142, 233-275: the checks and the split *)
Definition ff3_setup (c : ff3) (X tweak : bytes) : res (nat * nat) :=
  let n := Z.of_nat (length X) mod 2 ^ 32 in
  if (n <? f3Min c) || (f3Max c <=? n) then Err else
  if negb (Nat.eqb (length tweak) 8) then Err else
  match set_string (f3Radix c) X with
  | None => Err
  | Some _ => let u := Z.to_nat ((n + 1) / 2) in Ok (u, (Z.to_nat n - u)%nat)
  end.
(** ff3.go:100-231 EncryptWithTweak *)
Definition ff3_encrypt (c : ff3) (X tweak : bytes) : res bytes :=
  rbind (ff3_setup c X tweak) (fun uv =>
  rbind (ff3_enc_rounds c tweak (fst uv) (snd uv) (seq 0 8) (repeat 0 16) (firstn (fst uv) X) (skipn (fst uv) X)) (fun ab => Ok (fst ab ++ snd ab))).
(** ff3.go:244-376 DecryptWithTweak *)
Definition ff3_decrypt (c : ff3) (X tweak : bytes) : res bytes :=
  rbind (ff3_setup c X tweak) (fun uv =>
  rbind (ff3_dec_rounds c tweak (fst uv) (snd uv) (rev (seq 0 8)) (repeat 0 16) (firstn (fst uv) X) (skipn (fst uv) X)) (fun ab => Ok (fst ab ++ snd ab))).
End fpe.
