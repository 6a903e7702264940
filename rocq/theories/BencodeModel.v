(** Model of /repo/bencode/{bencode,encode,decode}.go for values of type any: integers (int64 or
    big.Int), strings, []any and map[string]any, and for the raw type Bytes. strconv.AppendInt and
    big.Int.String are [decimal]; struct fields, tags and the other Go types are not modelled.
    The recursion of the decoder takes fuel (PFuel when it runs out, which is shown not to happen). *)
From Verif Require Import Base BencodeSpec.
Set Implicit Arguments. Unset Strict Implicit.
Local Open Scope nat_scope.

(** Go's < on strings *)
Fixpoint bltb (a b : bytes) : bool :=
  match a, b with
  | _, [] => false
  | [], _ :: _ => true
  | x :: a', y :: b' => ((x <? y)%Z || ((x =? y)%Z && bltb a' b'))%bool
  end.
(** sort.Sort of the keys (encode.go:41-46, 147-152); keys are distinct, so every sorting gives this *)
Fixpoint ins {A} (x : bytes * A) (m : list (bytes * A)) : list (bytes * A) :=
  match m with [] => [x] | y :: r => if bltb (fst y) (fst x) then y :: ins x r else x :: m end.
Definition sortk {A} (m : list (bytes * A)) : list (bytes * A) := fold_right ins [] m.

(** encode.go:55-72 reflectString: writeStringPrefix and writeString (in pieces of 64 bytes) *)
Fixpoint write_string (fuel : nat) (s : bytes) : bytes :=
  match fuel with O => [] | S f => match s with [] => [] | _ => firstn 64 s ++ write_string f (skipn 64 s) end end.
Definition enc_string (s : bytes) : bytes := decimal (Z.of_nat (length s)) ++ [58%Z] ++ write_string (length s) s.
(** encode.go:100-176 reflectValue *)
Fixpoint encode (v : bval) : bytes :=
  match v with
  | BInt z => [105%Z] ++ decimal z ++ [101%Z]
  | BStr s => enc_string s
  | BList l => [108%Z] ++ concat (map encode l) ++ [101%Z]
  | BDict m => [100%Z] ++ concat (map (fun kb => enc_string (fst kb) ++ snd kb) (sortk (map (fun kv => let '(k, x) := kv in (k, encode x)) m))) ++ [101%Z]
  end.

(** decode.go:100-108 readUntil *)
Fixpoint read_until (sep : Z) (s : bytes) : option (bytes * bytes) :=
  match s with
  | [] => None
  | b :: r => if (b =? sep)%Z then Some ([], r)
              else match read_until sep r with Some (p, r') => Some (b :: p, r') | None => None end
  end.
(** decode.go:188-204 checkBufferedInt *)
Definition check_int (b : bytes) : bool :=
  if length b <=? 1 then true
  else let b := match b with x :: r => if (x =? 45)%Z then r else b | [] => b end in
       let c := hd 0%Z b in negb ((c <? 49)%Z || (57 <? c)%Z).
(** strconv.ParseInt in base 10 and, out of range, big.Int.SetString: sign and digits *)
Fixpoint digits (acc : Z) (s : bytes) : option Z :=
  match s with
  | [] => Some acc
  | c :: r => if ((48 <=? c)%Z && (c <=? 57)%Z)%bool then digits (acc * 10 + (c - 48)) r else None
  end.
Definition parse_int (s : bytes) : option Z :=
  match s with
  | [] => None
  | c :: r =>
      if (c =? 43)%Z then match r with [] => None | _ => digits 0 r end
      else if (c =? 45)%Z then match r with [] => None | _ => option_map Z.opp (digits 0 r) end
      else digits 0 s
  end.
(** decode.go:17 DefaultDecodeMaxStrLen *)
Definition max_str : Z := (2 ^ 27 - 1)%Z.
Inductive pres (A : Type) := PVal (v : A) (r : bytes) | PEnd (r : bytes) | PErr | PFuel.
Arguments PVal {A} _ _. Arguments PEnd {A} _. Arguments PErr {A}. Arguments PFuel {A}.
(** decode.go:688-714 parseIntInterface, 127-140 readInt *)
Definition p_int (s : bytes) : option (Z * bytes) :=
  match read_until 101 s with
  | None => None
  | Some (b, r) => if check_int b then match parse_int b with Some z => Some (z, r) | None => None end else None
  end.
(** decode.go:206-225 parseStringLength, 716-743 readBytes, parseStringInterface; [b0] is the first
    digit, which was consumed *)
Definition p_string (b0 : Z) (s : bytes) : option (bytes * bytes) :=
  match read_until 58 s with
  | None => None
  | Some (b, r) =>
      if check_int (b0 :: b) then
        match parse_int (b0 :: b) with
        | Some n => if (n <=? max_str)%Z then if length r <? Z.to_nat n then None else Some (firstn (Z.to_nat n) r, skipn (Z.to_nat n) r) else None
        | None => None
        end
      else None
  end.
Definition is_digit (b : Z) : bool := ((48 <=? b)%Z && (b <=? 57)%Z)%bool.
(** decode.go:658-685 parseValueInterface; 745-782 parseDictInterface; 784-794 parseListInterface *)
Fixpoint p_value (fuel : nat) (s : bytes) : pres bval :=
  match fuel with
  | O => PFuel
  | S f =>
      match s with
      | [] => PErr
      | b :: r =>
          if (b =? 101)%Z then PEnd r
          else if (b =? 100)%Z then p_dict f None [] r
          else if (b =? 108)%Z then p_list f [] r
          else if (b =? 105)%Z then match p_int r with Some (z, r') => PVal (BInt z) r' | None => PErr end
          else if is_digit b then match p_string b r with Some (x, r') => PVal (BStr x) r' | None => PErr end
          else PErr
      end
  end
with p_list (fuel : nat) (acc : list bval) (s : bytes) : pres bval :=
  match fuel with
  | O => PFuel
  | S f =>
      match p_value f s with
      | PVal v r => p_list f (acc ++ [v]) r
      | PEnd r => PVal (BList acc) r
      | PErr => PErr | PFuel => PFuel
      end
  end
with p_dict (fuel : nat) (last : option bytes) (acc : list (bytes * bval)) (s : bytes) : pres bval :=
  match fuel with
  | O => PFuel
  | S f =>
      match p_value f s with
      | PEnd r => PVal (BDict acc) r
      | PVal (BStr k) r =>
          if match last with Some lk => negb (bltb lk k) | None => false end then PErr
          else match p_value f r with
               | PVal v r' => p_dict f (Some k) (acc ++ [(k, v)]) r'
               | PEnd _ => PErr
               | PErr => PErr | PFuel => PFuel
               end
      | PVal _ _ => PErr
      | PErr => PErr | PFuel => PFuel
      end
  end.
Definition fuel_for (s : bytes) : nat := 2 * length s + 2.
(** bencode.go:51-62 Unmarshal into *any. Every error panic is recovered (decode.go:34-60), also the
    one of reflect.Value.Set for a lone 'e'. *)
Definition unmarshal (s : bytes) : res bval :=
  match p_value (fuel_for s) s with PVal v [] => Ok v | _ => Err end.

(** decode.go:520-569 readOneValue: the bytes copied to the buffer, and the rest; PEnd: an 'e' was
    seen and put back *)
Fixpoint r_one (fuel : nat) (s : bytes) : pres bytes :=
  match fuel with
  | O => PFuel
  | S f =>
      match s with
      | [] => PErr
      | b :: r =>
          if (b =? 101)%Z then PEnd s
          else if ((b =? 100)%Z || (b =? 108)%Z)%bool then
            match r_many f r with
            | PVal w (e :: r') => PVal (b :: w ++ [e]) r'
            | PFuel => PFuel | _ => PErr
            end
          else if (b =? 105)%Z then
            match read_until 101 r with Some (p, r') => PVal (b :: p ++ [101%Z]) r' | None => PErr end
          else if is_digit b then
            match read_until 58 r with
            | Some (p, r') =>
                match parse_int (b :: p) with
                | Some n => if ((2 ^ 63 <=? n) || (Z.of_nat (length r') <? n))%Z then PErr
                            else PVal (b :: p ++ [58%Z] ++ firstn (Z.to_nat n) r') (skipn (Z.to_nat n) r')
                | None => PErr
                end
            | None => PErr
            end
          else PErr
      end
  end
with r_many (fuel : nat) (s : bytes) : pres bytes :=
  match fuel with
  | O => PFuel
  | S f => match r_one f s with
           | PVal w r => match r_many f r with PVal w' r' => PVal (w ++ w') r' | x => x end
           | PEnd r => PVal [] r
           | PErr => PErr | PFuel => PFuel
           end
  end.
(** Unmarshal into a *Bytes (bytes.go:18-21): the raw text of the value *)
Definition unmarshal_raw (s : bytes) : res bytes :=
  match r_one (fuel_for s) s with PVal w [] => Ok w | _ => Err end.

(** Unmarshal into a *map[string]any: parseDict (decode.go:402-456) reads the keys with parseValue into
    a string and does not compare them; SetMapIndex overwrites. [m_key] is that parseValue
    (decode.go:597-648): a list of one string and an empty dictionary are accepted as keys, too. *)
Fixpoint m_key (fuel : nat) (s : bytes) : pres bytes :=
  match fuel with
  | O => PFuel
  | S f =>
      match s with
      | [] => PErr
      | b :: r =>
          if (b =? 101)%Z then PEnd r
          else if (b =? 100)%Z then match m_key f r with PEnd r' => PVal [] r' | PFuel => PFuel | _ => PErr end
          else if (b =? 108)%Z then match m_keys f [] r with PVal [k] r' => PVal k r' | PFuel => PFuel | _ => PErr end
          else if is_digit b then match p_string b r with Some (x, r') => PVal x r' | None => PErr end
          else PErr
      end
  end
with m_keys (fuel : nat) (acc : list bytes) (s : bytes) : pres (list bytes) :=
  match fuel with
  | O => PFuel
  | S f => match m_key f s with
           | PVal k r => m_keys f (acc ++ [k]) r
           | PEnd r => PVal acc r
           | PErr => PErr | PFuel => PFuel
           end
  end.
Fixpoint map_set (m : list (bytes * bval)) (k : bytes) (v : bval) : list (bytes * bval) :=
  match m with [] => [(k, v)] | (k', v') :: r => if bytes_eqb k' k then (k, v) :: r else (k', v') :: map_set r k v end.
Fixpoint m_items (fuel : nat) (m : list (bytes * bval)) (s : bytes) : pres (list (bytes * bval)) :=
  match fuel with
  | O => PFuel
  | S f => match m_key f s with
           | PEnd r => PVal m r
           | PVal k r => match p_value f r with
                         | PVal v r' => m_items f (map_set m k v) r'
                         | PFuel => PFuel | _ => PErr
                         end
           | PErr => PErr | PFuel => PFuel
           end
  end.
(** only the inputs that start with 'd' (a list of one dictionary is accepted as well, decode.go:458-475) *)
Definition unmarshal_map (s : bytes) : res (list (bytes * bval)) :=
  match s with
  | 100%Z :: r => match m_items (fuel_for r) [] r with PVal m [] => Ok m | _ => Err end
  | _ => Err
  end.
(** decode.go:143-186 parseInt for a bool (after 'i'): only the text "0" is false *)
Definition unmarshal_bool (s : bytes) : res bool :=
  match s with
  | 105%Z :: r => match read_until 101 r with
                  | Some (b, []) => if check_int b then Ok (negb (bytes_eqb b [48%Z])) else Err
                  | _ => Err
                  end
  | _ => Err
  end.
