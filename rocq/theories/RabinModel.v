(** Model of /repo/hash/rabin: the fingerprint (rabin.go, poly.go) and the chunker (chunker.go). *)
From Verif Require Import Base WordModel.
Set Implicit Arguments. Unset Strict Implicit.
Local Open Scope nat_scope.

(** poly.go:71-98, after the checks: for i := da - db; i >= 0; i-- ; n counts i + 1 *)
Fixpoint poly_mod_loop (b db : Z) (n : nat) (out : Z) : Z :=
  match n with
  | O => out
  | S k => poly_mod_loop b db k (if Z.testbit out (Z.of_nat k + db) then Z.lxor out (Z.shiftl b (Z.of_nat k)) else out)
  end.
(** poly.go:24-26: BitLen - 1, for the nonnegative numbers that occur *)
Definition poly_degree (a : Z) : Z := if (a =? 0)%Z then (-1)%Z else Z.log2 a.
(** poly.go:71-98; b is not 0 here *)
Definition poly_mod (a b : Z) : Z := poly_mod_loop b (poly_degree b) (Z.to_nat (poly_degree a - poly_degree b + 1)) a.

(** rabin.go:33-39; window 0 stands for every window <= 0 *)
Record table := Table { t_push : list Z; t_pop : list Z; t_degree : Z; t_window : nat }.
(** rabin.go:72-85; Uint64 takes the low 64 bits *)
Definition push_entry (p : Z) (i : Z) : Z :=
  let f := Z.shiftl i (poly_degree p) in Z.modulo (Z.lxor f (poly_mod f p)) (2 ^ 64).
(** rabin.go:88-95; (window-1)*8 is assumed not to overflow an int *)
Definition pop_entry (p : Z) (window : nat) (i : Z) : Z :=
  Z.modulo (poly_mod (Z.shiftl i (8 * (Z.of_nat window - 1))) p) (2 ^ 64).
Definition bytes256 : list Z := map Z.of_nat (seq 0 256).
(** rabin.go:57-98 *)
Definition new_table (polynomial : Z) (window : nat) : res table :=
  if (poly_degree polynomial <? 8)%Z then Panic
  else Ok (Table (map (push_entry polynomial) bytes256)
    (if window =? 0 then repeat 0%Z 256 else map (pop_entry polynomial window) bytes256) (poly_degree polynomial) window).
(** rabin.go:142-144, 237-238, chunker.go:183-184: one byte *)
Definition rpush (t : table) (hash b : Z) : Z :=
  let top := Z.modulo (Z.shiftr hash (t_degree t - 8)) 256 in
  Z.lxor (Z.lor (wshl 64 hash 8) b) (t_push t).[Z.to_nat top].
(** rabin.go:102-148 *)
Definition rupdate (t : table) (hash : Z) (p : bytes) : Z := fold_left (rpush t) p hash.

(** rabin.go:153-158; msg is empty when there is no window *)
Record rhash := RHash { r_hash : Z; r_msg : bytes; r_pos : nat }.
(** rabin.go:162-172 *)
Definition r_new (t : table) : rhash := RHash 0 (repeat 0%Z (t_window t)) 0.
(** rabin.go:175-183 *)
Definition r_reset (t : table) (h : rhash) : rhash :=
  if t_window t =? 0 then RHash 0 (r_msg h) (r_pos h) else RHash 0 (map (fun _ => 0%Z) (r_msg h)) 0.
(** rabin.go:228-239 *)
Definition r_roll (t : table) (h : rhash) (b : Z) : rhash :=
  let pop := (r_msg h).[r_pos h] in
  let msg := upd (r_pos h) b (r_msg h) in
  let pos := if r_pos h + 1 =? length msg then 0 else r_pos h + 1 in
  RHash (rpush t (Z.lxor (r_hash h) (t_pop t).[Z.to_nat pop]) b) msg pos.
(** rabin.go:209-243 *)
Definition r_write (t : table) (h : rhash) (p : bytes) : rhash :=
  if t_window t =? 0 then RHash (rupdate t (r_hash h) p) (r_msg h) (r_pos h)
  else
    let window := length (r_msg h) in
    if window <=? length p then
      let p := skipn (length p - window) p in
      RHash (rupdate t 0 p) (gocopy (r_msg h) p) 0
    else fold_left (r_roll t) p h.
(** rabin.go:187-190 *)
Definition r_size (t : table) : nat := Z.to_nat ((t_degree t + 1 + 7) / 8).
(** rabin.go:247-254 *)
Definition r_sum (t : table) (h : rhash) (b : bytes) : res bytes := Ok (b ++ firstn (r_size t) (le_bytes 8 (r_hash h))).

(** * Readers *)
Inductive rerr := EOF | Fail.
(** An io.Reader that delivers [rd_data], then the error [rd_end]. [rd_plan] bounds the lengths of the reads (none for
    those after its end); an eager reader returns the error together with the last bytes. [rd_disc]: it is a Discarder. *)
Record reader := Reader { rd_data : bytes; rd_end : rerr; rd_plan : list nat; rd_eager : bool; rd_disc : bool }.
Definition rd_take (r : reader) (k : nat) (plan : list nat) : reader :=
  Reader (skipn k (rd_data r)) (rd_end r) plan (rd_eager r) (rd_disc r).
(** Read of up to n > 0 bytes: at least one while there are data *)
Definition rd_read (r : reader) (n : nat) : bytes * option rerr * reader :=
  match rd_data r with
  | [] => ([], Some (rd_end r), r)
  | d => let k := Nat.min n (match rd_plan r with [] => length d | k :: _ => Nat.min (length d) (Nat.max 1 k) end) in
      (firstn k d, if rd_eager r && (k =? length d) then Some (rd_end r) else None, rd_take r k (tl (rd_plan r)))
  end.
(** Discard of n bytes *)
Definition rd_discard (r : reader) (n : nat) : nat * option rerr * reader :=
  let m := Nat.min n (length (rd_data r)) in
  (m, if m <? n then Some (rd_end r) else None, rd_take r m (rd_plan r)).

(** * The chunker *)
(** chunker.go:11-32; head and tail are uint64 counters, taken not to wrap *)
Record chunker := Chunker { c_r : reader; c_buf : bytes; c_head : nat; c_tail : nat; c_err : option rerr }.
(** chunker.go:84-89 *)
Fixpoint log_buf (fuel : nat) (n window : nat) : nat :=
  match fuel with O => n | S f => if n <? 2 * window then log_buf f (2 * n) window else n end.
Record cparams := CParams { cp_tab : table; cp_min : nat; cp_max : nat; cp_mask : Z }.
(** chunker.go:69-96 *)
Definition new_chunker (t : table) (r : reader) (minB avgB maxB : Z) : res (cparams * chunker) :=
  if t_window t =? 0 then Panic
  else if (minB <? Z.of_nat (t_window t))%Z then Panic
  else if (maxB <? minB)%Z then Panic
  else if negb (Z.land avgB (avgB - 1) =? 0)%Z then Panic
  else Ok (CParams t (Z.to_nat minB) (Z.to_nat maxB) (Z.modulo (avgB - 1) (2 ^ 64)),
           Chunker r (repeat 0%Z (log_buf (2 * t_window t) 1024 (t_window t))) 0 0 None).
(** chunker.go:232-246: without a Discarder *)
Fixpoint discard_loop (fuel : nat) (c : chunker) (n : nat) : option rerr * chunker :=
  match fuel with
  | O => (None, c)
  | S f =>
    if n =? 0 then (None, c)
    else
      let '(d, err, r) := rd_read (c_r c) (Nat.min (length (c_buf c)) n) in
      let c := Chunker r (gocopy (c_buf c) d) (c_head c) (c_tail c + length d) err in
      match err with
      | Some e => (Some e, c)
      | None => discard_loop f c (n - length d)
      end
  end.
(** chunker.go:215-247 *)
Definition c_discard (c : chunker) (n : nat) : option rerr * chunker :=
  match c_err c with
  | Some e => (Some e, c)
  | None =>
    if rd_disc (c_r c) then
      let '(m, err, r) := rd_discard (c_r c) n in (err, Chunker r (c_buf c) (c_head c) (c_tail c + m) err)
    else discard_loop n c n
  end.
(** chunker.go:251-281; len(c.buf) is a power of two, so & bufMask is mod; a Read of these readers returns no bytes only
    with an error *)
Definition c_more (c : chunker) : option rerr * chunker :=
  match c_err c with
  | Some e => (Some e, c)
  | None =>
    let N := length (c_buf c) in
    let wtail := c_tail c mod N in
    let whead := c_head c mod N in
    let room := if whead <=? wtail then N - wtail else whead - wtail in
    let '(d, err, r) := rd_read (c_r c) room in
    let c' := Chunker r (firstn wtail (c_buf c) ++ d ++ skipn (wtail + length d) (c_buf c)) (c_head c) (c_tail c + length d) err in
    match d with
    | [] => (err, c')
    | _ => (None, c')
    end
  end.
(** chunker.go:142-150 *)
Fixpoint prime (fuel : nat) (w : nat) (c : chunker) : option rerr * chunker :=
  match fuel with
  | O => (None, c)
  | S f =>
    if c_tail c <? c_head c + w then
      match c_more c with
      | (Some e, c') => (Some e, c')
      | (None, c') => prime f w c'
      end
    else (None, c)
  end.
(** chunker.go:151-157 *)
Definition window_of (c : chunker) (w : nat) : bytes * bytes :=
  let b1 := skipn (c_head c mod length (c_buf c)) (c_buf c) in
  if w <=? length b1 then (firstn w b1, []) else (b1, firstn (w - length b1) (c_buf c)).
(** chunker.go:166-197: head is the local variable, which also lives in c_head here (it is written back at each refill
    and at the end); the result is an error to return, or none *)
Fixpoint roll (fuel : nat) (p : cparams) (limit refill : nat) (hash : Z) (c : chunker) : option rerr * chunker :=
  match fuel with
  | O => (None, c)
  | S f =>
    let w := t_window (cp_tab p) in
    let N := length (c_buf c) in
    if negb (Z.land hash (cp_mask p) =? cp_mask p)%Z && (c_head c <? limit) then
      let step c refill :=
        let pop := (c_buf c).[c_head c mod N] in
        let push := (c_buf c).[(c_head c + w) mod N] in
        roll f p limit refill (rpush (cp_tab p) (Z.lxor hash (t_pop (cp_tab p)).[Z.to_nat pop]) push)
          (Chunker (c_r c) (c_buf c) (c_head c + 1) (c_tail c) (c_err c)) in
      if c_head c =? refill then
        match c_more c with
        | (Some EOF, c') => (None, c')
        | (Some e, c') => (Some e, c')
        | (None, c') => step c' (c_tail c' - w)
        end
      else step c refill
    else (None, c)
  end.
Definition at_head (c : chunker) (h : nat) : chunker := Chunker (c_r c) (c_buf c) h (c_tail c) (c_err c).
(** chunker.go:116-206 *)
Definition c_next (p : cparams) (c : chunker) : nat * option rerr * chunker :=
  match c_err c with
  | Some e => (0, Some e, c)
  | None =>
    let start := c_head c in
    let w := t_window (cp_tab p) in
    let c := at_head c (c_head c + (cp_min p - w)) in
    let '(err, c) := if c_tail c <? c_head c then c_discard c (c_head c - c_tail c) else (None, c) in
    match err with
    | Some EOF => (c_tail c - start, None, c)
    | Some e => (0, Some e, c)
    | None =>
      match prime (w + 1) w c with
      | (Some e, c) =>
          if (match e with EOF => true | _ => false end) && negb (c_tail c =? start) then (c_tail c - start, None, c)
          else (0, Some e, c)
      | (None, c) =>
        let '(b1, b2) := window_of c w in
        let hash := rupdate (cp_tab p) (rupdate (cp_tab p) 0 b1) b2 in
        let limit := start + cp_max p - w in
        match roll (limit + 1) p limit (c_tail c - w) hash c with
        | (Some e, c) => (0, Some e, c)
        | (None, c) => let head := c_head c + w in (head - start, None, at_head c head)
        end
      end
    end
  end.
