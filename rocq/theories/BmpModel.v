(** Model of /repo/tool/bmp_string/bmp_string.go, on Go strings as byte strings. The loop over a string
    ([for range], Go language specification) and unicode/utf16 of the standard library are modelled, too. *)
From Verif Require Import Base BmpSpec.
Set Implicit Arguments. Unset Strict Implicit.
Local Open Scope nat_scope.

(** the first rune of a non-empty string and its width: U+FFFD and 1 for an invalid sequence *)
Definition cont (b : Z) : bool := ((128 <=? b) && (b <=? 191))%Z.
Definition rune1 (s : bytes) : Z * nat :=
  (match s with
   | [] => (65533, 1%nat)
   | a :: s =>
       if a <? 128 then (a, 1%nat)
       else if (194 <=? a) && (a <=? 223) then
         match s with b :: _ => if cont b then ((a - 192) * 64 + (b - 128), 2%nat) else (65533, 1%nat) | _ => (65533, 1%nat) end
       else if (224 <=? a) && (a <=? 239) then
         match s with
         | b :: c :: _ =>
             if ((if a =? 224 then 160 else 128) <=? b) && (b <=? (if a =? 237 then 159 else 191)) && cont c
             then ((a - 224) * 4096 + (b - 128) * 64 + (c - 128), 3%nat) else (65533, 1%nat)
         | _ => (65533, 1%nat)
         end
       else if (240 <=? a) && (a <=? 244) then
         match s with
         | b :: c :: d :: _ =>
             if ((if a =? 240 then 144 else 128) <=? b) && (b <=? (if a =? 244 then 143 else 191)) && cont c && cont d
             then ((a - 240) * 262144 + (b - 128) * 4096 + (c - 128) * 64 + (d - 128), 4%nat) else (65533, 1%nat)
         | _ => (65533, 1%nat)
         end
       else (65533, 1%nat)
   end)%Z.
Fixpoint runes_f (fuel : nat) (s : bytes) : list Z :=
  match fuel with
  | O => []
  | S f => match s with [] => [] | _ => let '(r, n) := rune1 s in r :: runes_f f (skipn n s) end
  end.
Definition runes (s : bytes) : list Z := runes_f (length s) s.
(** utf16.EncodeRune, first result *)
Definition encode_rune1 (r : Z) : Z :=
  (if (r <? 65536) || (1114111 <? r) then 65533 else 55296 + (r - 65536) / 1024 mod 1024)%Z.

(** bmp_string.go:23-40 BmpString *)
Fixpoint bmp_loop (ret : bytes) (rs : list Z) : res bytes :=
  match rs with
  | [] => Ok ret
  | r :: rs => if negb (encode_rune1 r =? 65533)%Z then Err else bmp_loop (ret ++ [to_byte (r / 256); to_byte (r mod 256)]) rs
  end.
Definition bmp_string (s : bytes) : res bytes := bmp_loop [] (runes s).
(** bmp_string.go:9-20 BmpStringZeroTerminated *)
Definition bmp_string_z (s : bytes) : res bytes := rbind (bmp_string s) (fun r => Ok (r ++ [0; 0]%Z)).

(** utf16.Decode *)
Fixpoint utf16_decode (fuel : nat) (s : list Z) : list Z :=
  match fuel with
  | O => []
  | S f =>
      match s with
      | [] => []
      | u :: r =>
          if ((u <? 55296) || (57344 <=? u))%Z then u :: utf16_decode f r
          else match r with
               | v :: r' => if ((u <? 56320) && (56320 <=? v) && (v <? 57344))%Z
                            then ((u - 55296) * 1024 + (v - 56320) + 65536)%Z :: utf16_decode f r'
                            else 65533%Z :: utf16_decode f r
               | [] => 65533%Z :: utf16_decode f r
               end
      end
  end.
(** bmp_string.go:53-57: the 16-bit units *)
Fixpoint units (s : bytes) : list Z :=
  match s with a :: b :: r => ((Z.shiftl a 8 + b) mod 65536)%Z :: units r | _ => [] end.
(** bmp_string.go:43-60 DecodeBMPString; string([]rune) is UTF-8 *)
Definition decode_bmp (b : bytes) : res bytes :=
  if negb (length b mod 2 =? 0) then Err
  else let l := length b in
       let b := if (2 <=? l) && (nth (l - 1) b 1 =? 0)%Z && (nth (l - 2) b 1 =? 0)%Z then firstn (l - 2) b else b in
       let u := units b in
       Ok (utf8 (utf16_decode (length u) u)).
