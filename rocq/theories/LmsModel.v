(** Model of pubkey/lms: LM-OTS, LMS and HSS signatures (RFC 8554). A parameter set carries its hash as the function from all
    bytes written since Reset to the digest, and Size(). The registries of parameter sets (params.go) are functions from the type
    code. A random source is what the one Read of a call leaves in the buffer, None for an error. Slices have no spare capacity,
    so that slicing beyond the length panics. Interfaces are never nil. Equal, the getters and sharing of memory between a key
    and the bytes it was made from are not modelled. *)
From Verif Require Import Base WordModel KdfModel.
Set Implicit Arguments. Unset Strict Implicit.
Local Open Scope nat_scope.

(** lmots_params.go:31-40; o_size is Hash().Size(), o_w the window *)
Record ots_param := OtsP { o_type : Z; o_hash : bytes -> bytes; o_size : nat; o_n : nat; o_w : Z; o_p : nat; o_ls : Z; o_siglen : nat }.
(** lms_params.go:32-38; the field Hash is never used *)
Record lms_param := LmsP { l_type : Z; l_m : nat; l_h : nat }.
(** params.go:38-49, the maps of lmots_params.go:69-84 and lms_params.go:65-80 *)
Record registry := Registry { get_ots : Z -> option ots_param; get_lms : Z -> option lms_param }.

Definition u32 (z : Z) : Z := (z mod 2 ^ 32)%Z.
(** b[lo:hi] *)
Definition sub (lo hi : nat) (b : bytes) : res bytes :=
  if (lo <=? hi) && (hi <=? length b) then Ok (slice lo (hi - lo) b) else Panic.
(** l[i] = v *)
Fixpoint setl {A} (i : nat) (v : A) (l : list A) : list A :=
  match l, i with
  | [], _ => []
  | _ :: t, O => v :: t
  | x :: t, S j => x :: setl j v t
  end.
(** the elements computed in a loop, in order, stopping at the first that is not Ok *)
Fixpoint rmap {A B} (f : A -> res B) (l : list A) : res (list B) :=
  match l with
  | [] => Ok []
  | a :: t => rbind (f a) (fun b => rbind (rmap f t) (fun bs => Ok (b :: bs)))
  end.
(** utils.go:11-13 *)
Definition getu32 (b : bytes) : Z := be_val b.

(** consts.go:50-53 *)
Definition D_PBLC : bytes := [128; 128]%Z.
Definition D_MESG : bytes := [129; 129]%Z.
Definition D_LEAF : bytes := [130; 130]%Z.
Definition D_INTR : bytes := [131; 131]%Z.

(** consts.go:35-48 *)
Definition win_mask (w : Z) : res Z :=
  if (w =? 1)%Z then Ok 1%Z else if (w =? 2)%Z then Ok 3%Z else if (w =? 4)%Z then Ok 15%Z else if (w =? 8)%Z then Ok 255%Z else Panic.
(** utils.go:20-37 *)
Definition coefs (x : bytes) (w : Z) : res (list Z) :=
  rbind (win_mask w) (fun mask =>
  let e := Z.to_nat (8 / w) in
  Ok (map (fun i => Z.land (Z.shiftr x.[i / e] (8 - w - Z.of_nat (i mod e) * w)) mask) (seq 0 (e * length x)))).
(** utils.go:40-49 *)
Definition cksm (cs : list Z) (w ls : Z) : Z :=
  (Z.shiftl (fold_left (fun sum c => (sum + (2 ^ w - 1 - c)) mod 2 ^ 16) cs 0) ls mod 2 ^ 16)%Z.
(** utils.go:53-64 *)
Definition expand (msg : bytes) (p : ots_param) : res (list Z) :=
  rbind (coefs msg (o_w p)) (fun r =>
  rbind (coefs (be_bytes 2 (cksm r (o_w p) (o_ls p))) (o_w p)) (fun c =>
  if o_p p <=? length (r ++ c) then Ok (firstn (o_p p) (r ++ c)) else Panic)).

(** lmots_params.go:53-59 *)
Definition ots_sig_length (p : ots_param) : nat := if 0 <? o_siglen p then o_siglen p else 4 + o_n p + o_p p * o_n p.
(** lms_params.go:51-55 *)
Definition lms_sig_length (l : lms_param) (p : ots_param) : nat := 4 + 4 + ots_sig_length p + l_h l * l_m l.

(** * LM-OTS *)
(** lmots.go:242-247 *)
Record ots_pub := OtsPub { ok_typ : ots_param; ok_q : Z; ok_id : bytes; ok_k : bytes }.
(** lmots.go:24-28 *)
Record ots_priv := OtsPriv { os_pub : ots_pub; os_x : list bytes; os_valid : bool }.
(** lmots.go:444-448 *)
Record ots_sig := OtsSig { og_typ : ots_param; og_c : bytes; og_y : list bytes }.

(** One step of a chain, lmots.go:176-186, 220-230, 345-355. *)
Definition ots_step (p : ots_param) (id : bytes) (q : Z) (i : nat) (y : bytes) (j : nat) : bytes :=
  o_hash p (id ++ be_bytes 4 q ++ be_bytes 2 (Z.of_nat i) ++ [to_byte (Z.of_nat j)] ++ y).
(** for j := a; j < b; j++ *)
Definition ots_walk (p : ots_param) (id : bytes) (q : Z) (i a b : nat) (x : bytes) : bytes :=
  fold_left (ots_step p id q i) (seq a (b - a)) x.
(** (1 << w) - 1 *)
Definition ots_last (p : ots_param) : nat := Z.to_nat (2 ^ o_w p - 1).
(** lmots.go:201-239 *)
Definition ots_root (p : ots_param) (id : bytes) (q : Z) (x : list bytes) : bytes :=
  o_hash p (id ++ be_bytes 4 q ++ D_PBLC ++ concat (map (fun i => ots_walk p id q i 0 (ots_last p) (nth i x [])) (seq 0 (o_p p)))).
(** lmots.go:46-80 *)
Definition ots_gen (p : ots_param) (q : Z) (id seed : bytes) : ots_priv :=
  let x := map (fun i => o_hash p (id ++ be_bytes 4 q ++ be_bytes 2 (Z.of_nat i) ++ [255%Z] ++ seed)) (seq 0 (o_p p)) in
  OtsPriv (OtsPub p q id (ots_root p id q x)) x true.
(** lmots.go:145-151; opt is the option C (nil is None), rng what Read leaves in the buffer of N bytes *)
Definition nonce (opt rng : option bytes) : res bytes :=
  match opt with Some c => Ok c | None => match rng with Some c => Ok c | None => Err end end.
(** lmots.go:129-199; the key afterwards and the signature *)
Definition ots_sign (k : ots_priv) (rng opt : option bytes) (msg : bytes) : ots_priv * res ots_sig :=
  if negb (os_valid k) then (k, Err) else
  let '(OtsPub p q id _) := os_pub k in
  match nonce opt rng with
  | Ok c =>
      match expand (o_hash p (id ++ be_bytes 4 q ++ D_MESG ++ c ++ msg)) p with
      | Ok e =>
          let y := map (fun i => ots_walk p id q i 0 (Z.to_nat e.[i]) (nth i (os_x k) [])) (seq 0 (o_p p)) in
          (OtsPriv (os_pub k) [] false, Ok (OtsSig p c y))
      | Err => (k, Err)
      | Panic => (k, Panic)
      end
  | Err => (k, Err)
  | Panic => (k, Panic)
  end.
(** lmots.go:290-367; Err is the result false *)
Definition ots_recover (s : ots_sig) (msg : bytes) (typ : ots_param) (id : bytes) (q : Z) : res ots_pub :=
  if negb (o_type (og_typ s) =? o_type typ)%Z then Err else
  let p := og_typ s in
  if negb (length (og_c s) =? o_size p) then Err else
  if negb (length (og_y s) =? o_p p) then Err else
  if negb (forallb (fun y => length y =? o_size p) (og_y s)) then Err else
  rbind (expand (o_hash p (id ++ be_bytes 4 q ++ D_MESG ++ og_c s ++ msg)) p) (fun e =>
  Ok (OtsPub p q id (o_hash p (id ++ be_bytes 4 q ++ D_PBLC ++
    concat (map (fun i => ots_walk p id q i (Z.to_nat e.[i]) (ots_last p) (nth i (og_y s) [])) (seq 0 (o_p p))))))).
(** lmots.go:275-286 *)
Definition ots_verify_sig (pub : ots_pub) (msg : bytes) (s : ots_sig) : res bool :=
  if negb (o_type (ok_typ pub) =? o_type (og_typ s))%Z then Ok false else
  match ots_recover s msg (ok_typ pub) (ok_id pub) (ok_q pub) with
  | Ok kc => Ok (bytes_eqb (ok_k pub) (ok_k kc))
  | Err => Ok false
  | Panic => Panic
  end.
(** lmots.go:419-441 *)
Definition ots_pub_bytes (pub : ots_pub) : bytes :=
  be_bytes 4 (o_type (ok_typ pub)) ++ ok_id pub ++ be_bytes 4 (ok_q pub) ++ ok_k pub.
(** lmots.go:499-520; y[i] beyond the end panics *)
Definition ots_sig_bytes (s : ots_sig) : res bytes :=
  if length (og_y s) <? o_p (og_typ s) then Panic
  else Ok (be_bytes 4 (o_type (og_typ s)) ++ og_c s ++ concat (firstn (o_p (og_typ s)) (og_y s))).

Section reg.
  Variable R : registry.

  (** lmots.go:377-416 *)
  Definition ots_pub_parse (b : bytes) : res ots_pub :=
    if length b <? 4 then Err else
    match get_ots R (getu32 (slice 0 4 b)) with
    | None => Err
    | Some p =>
        if length b <? 4 + 16 + 4 + o_n p then Err else
        if 4 + 16 + 4 + o_n p <? length b then Err else
        Ok (OtsPub p (getu32 (slice 20 4 b)) (slice 4 16 b) (skipn 24 b))
    end.
  (** lmots.go:456-496 *)
  Definition ots_sig_parse (b : bytes) : res ots_sig :=
    if length b <? 4 then Err else
    match get_ots R (getu32 (slice 0 4 b)) with
    | None => Err
    | Some p =>
        if length b <? ots_sig_length p then Err else
        if ots_sig_length p <? length b then Err else
        rbind (sub 4 (4 + o_n p) b) (fun c =>
        rbind (rmap (fun i => let cur := 4 + o_n p + i * o_n p in sub cur (cur + o_n p) b) (seq 0 (o_p p))) (fun y =>
        Ok (OtsSig p c y)))
    end.
  (** lmots.go:264-271 *)
  Definition ots_verify (pub : ots_pub) (msg sig : bytes) : res bool :=
    match ots_sig_parse sig with
    | Ok s => ots_verify_sig pub msg s
    | Err => Ok false
    | Panic => Panic
    end.
End reg.

(** * LMS *)
(** lms.go:303-308 *)
Record lms_pub := LmsPub { p_typ : lms_param; p_ots : ots_param; p_id : bytes; p_k : bytes }.
(** lms.go:26-31 *)
Record lms_priv := LmsPriv { s_pub : lms_pub; s_q : Z; s_seed : bytes; s_tree : list bytes }.
(** lms.go:488-493 *)
Record lms_sig := LmsSig { g_typ : lms_param; g_q : Z; g_ots : ots_sig; g_path : list bytes }.

(** authtree[x-1], x a uint32 *)
Definition tget (t : list bytes) (x : Z) : bytes := nth (Z.to_nat (x - 1)) t [].
(** lms.go:283-296, one round *)
Definition tree_up (p : ots_param) (id : bytes) (s : list bytes * Z * Z) : option (list bytes * Z * Z) :=
  let '(t, r, j) := s in
  let r := Z.shiftr (u32 (r - 1)) 1 in
  let j := Z.shiftr (u32 (j - 1)) 1 in
  let h := o_hash p (id ++ be_bytes 4 r ++ D_INTR ++ tget t (2 * r) ++ tget t (2 * r + 1)) in
  Some (setl (Z.to_nat (r - 1)) h t, r, j).
(** lms.go:264-297, one leaf. The loop takes fuel: j is a uint32 and halves in each round. *)
Definition tree_leaf (l : lms_param) (p : ots_param) (id seed : bytes) (t : list bytes) (i : nat) : list bytes :=
  let r := u32 (Z.of_nat i + u32 (2 ^ Z.of_nat (l_h l))) in
  let k := ok_k (os_pub (ots_gen p (Z.of_nat i) id seed)) in
  let t := setl (Z.to_nat (r - 1)) (o_hash p (id ++ be_bytes 4 r ++ D_LEAF ++ k)) t in
  match go_while 33 (fun '(_, _, j) => j mod 2 =? 1)%Z (tree_up p id) (t, r, Z.of_nat i) with
  | Some (t, _, _) => t
  | None => t
  end.
(** lms.go:252-300 *)
Definition gen_tree (l : lms_param) (p : ots_param) (id seed : bytes) : list bytes :=
  fold_left (tree_leaf l p id seed) (seq 0 (Z.to_nat (u32 (2 ^ Z.of_nat (l_h l)))))
    (repeat [] (Z.to_nat (u32 (2 ^ Z.of_nat (l_h l + 1) - 1)))).
(** lms.go:55-72 *)
Definition lms_gen (l : lms_param) (p : ots_param) (id seed : bytes) : lms_priv :=
  let t := gen_tree l p id seed in LmsPriv (LmsPub l p id (nth 0 t [])) 0 seed t.
(** lms.go:35-51; the two reads *)
Definition lms_generate (l : lms_param) (p : ots_param) (rd1 rd2 : option bytes) : res lms_priv :=
  match rd1, rd2 with
  | Some seed, Some id => Ok (lms_gen l p id seed)
  | _, _ => Err
  end.
(** lms.go:102-152; the key afterwards and the signature *)
Definition lms_sign (k : lms_priv) (rng opt : option bytes) (msg : bytes) : lms_priv * res lms_sig :=
  let '(LmsPub l p id _) := s_pub k in
  let leaves := u32 (2 ^ Z.of_nat (l_h l)) in
  if (leaves <=? s_q k)%Z then (k, Err) else
  match snd (ots_sign (ots_gen p (s_q k) id (s_seed k)) rng opt msg) with
  | Ok s =>
      let r := u32 (leaves + s_q k) in
      let path := map (fun i => tget (s_tree k) (Z.lxor (Z.shiftr r (Z.of_nat i)) 1)) (seq 0 (l_h l)) in
      let q := u32 (s_q k + 1) in
      (LmsPriv (s_pub k) q (s_seed k) (s_tree k), Ok (LmsSig l (u32 (q - 1)) s path))
  | Err => (k, Err)
  | Panic => (k, Panic)
  end.
(** lms.go:161-168 *)
Definition lms_precompute (k : lms_priv) : lms_priv :=
  LmsPriv (s_pub k) (s_q k) (s_seed k) (gen_tree (p_typ (s_pub k)) (p_ots (s_pub k)) (p_id (s_pub k)) (s_seed k)).
(** lms.go:172-201 *)
Definition lms_priv_bytes (k : lms_priv) : bytes :=
  be_bytes 4 (l_type (p_typ (s_pub k))) ++ be_bytes 4 (o_type (p_ots (s_pub k))) ++ be_bytes 4 (s_q k) ++ p_id (s_pub k) ++ s_seed k.
(** lms.go:352-402 *)
Definition lms_climb (p : ots_param) (id : bytes) (s : Z * bytes) (sib : bytes) : Z * bytes :=
  let '(node, tmp) := s in
  let pre := id ++ be_bytes 4 (Z.shiftr node 1) ++ D_INTR in
  (Z.shiftr node 1, o_hash p (if (node mod 2 =? 1)%Z then pre ++ sib ++ tmp else pre ++ tmp ++ sib)).
Definition lms_verify_sig (pub : lms_pub) (msg : bytes) (s : lms_sig) : res bool :=
  let '(LmsPub l p id k) := pub in
  if negb (l_type l =? l_type (g_typ s))%Z then Ok false else
  match ots_recover (g_ots s) msg p id (g_q s) with
  | Ok kc =>
      let node := u32 (g_q s + u32 (2 ^ Z.of_nat (l_h l))) in
      let tmp := o_hash p (id ++ be_bytes 4 node ++ D_LEAF ++ ok_k kc) in
      if length (g_path s) <? l_h l then Panic else
      Ok (bytes_eqb (snd (fold_left (lms_climb p id) (firstn (l_h l) (g_path s)) (node, tmp))) k)
  | Err => Ok false
  | Panic => Panic
  end.
(** lms.go:405-430 *)
Definition lms_pub_bytes (k : lms_pub) : bytes :=
  be_bytes 4 (l_type (p_typ k)) ++ be_bytes 4 (o_type (p_ots k)) ++ p_id k ++ p_k k.
(** lms.go:497-518 *)
Definition lms_new_sig (l : lms_param) (q : Z) (o : ots_sig) (path : list bytes) : res lms_sig :=
  if (u32 (2 ^ Z.of_nat (l_h l)) <=? q)%Z then Err else
  if negb (length path =? l_h l) then Err else Ok (LmsSig l q o path).
(** lms.go:600-631; path[i] beyond the end panics *)
Definition lms_sig_bytes (s : lms_sig) : res bytes :=
  rbind (ots_sig_bytes (g_ots s)) (fun o =>
  if length (g_path s) <? l_h (g_typ s) then Panic
  else Ok (be_bytes 4 (g_q s) ++ o ++ be_bytes 4 (l_type (g_typ s)) ++ concat (firstn (l_h (g_typ s)) (g_path s)))).

Section reg2.
  Variable R : registry.

  (** lms.go:205-248 *)
  Definition lms_priv_parse (b : bytes) : res lms_priv :=
    if length b <? 8 then Err else
    match get_lms R (getu32 (slice 0 4 b)) with
    | None => Err
    | Some l =>
        match get_ots R (getu32 (slice 4 4 b)) with
        | None => Err
        | Some p =>
            if length b <? l_m l + 28 then Err else
            let k := lms_gen l p (slice 12 16 b) (slice 28 (l_m l) b) in
            Ok (LmsPriv (s_pub k) (getu32 (slice 8 4 b)) (s_seed k) (s_tree k))
        end
    end.
  (** lms.go:446-484 *)
  Definition lms_pub_parse (b : bytes) : res lms_pub :=
    if length b <? 8 then Err else
    match get_lms R (getu32 (slice 0 4 b)) with
    | None => Err
    | Some l =>
        match get_ots R (getu32 (slice 4 4 b)) with
        | None => Err
        | Some p =>
            if negb (length b =? l_m l + 24) then Err else
            Ok (LmsPub l p (slice 8 16 b) (skipn 24 b))
        end
    end.
  (** lms.go:522-597 *)
  Definition lms_sig_parse (b : bytes) : res lms_sig :=
    if length b <? 8 then Err else
    let q := getu32 (slice 0 4 b) in
    match get_ots R (getu32 (slice 4 4 b)) with
    | None => Err
    | Some p =>
        let omax := 4 + ots_sig_length p in
        if 4 + length b <=? omax then Err else
        rbind (sub omax (omax + 4) b) (fun tc =>
        match get_lms R (getu32 tc) with
        | None => Err
        | Some l =>
            if negb (lms_sig_length l p =? length b) then Err else
            rbind (sub 4 omax b) (fun ob =>
            rbind (ots_sig_parse R ob) (fun o =>
            if (2 ^ Z.of_nat (l_h l) <=? q)%Z then Err else
            rbind (rmap (fun i => let start := omax + 4 + i * l_m l in sub start (start + l_m l) b) (seq 0 (l_h l))) (fun path =>
            Ok (LmsSig l q o path))))
        end)
    end.
  (** lms.go:341-348 *)
  Definition lms_verify (pub : lms_pub) (msg sig : bytes) : res bool :=
    match lms_sig_parse sig with
    | Ok s => lms_verify_sig pub msg s
    | Err => Ok false
    | Panic => Panic
    end.

  (** * HSS *)
  (** hss.go:14-17 *)
  Record hss_pub := HssPub { hp_levels : Z; hp_lms : lms_pub }.
  (** hss.go:187-191; the used elements of the two arrays, which have 5 and 4 elements *)
  Record hss_priv := HssPriv { hs_pub : hss_pub; hs_keys : list lms_priv; hs_sigs : list lms_sig }.

  (** hss.go:455-470 *)
  Definition hss_digest (pub : lms_pub) (q : Z) (c data : bytes) : bytes :=
    o_hash (p_ots pub) (p_id pub ++ be_bytes 4 q ++ D_MESG ++ c ++ data).
  (** hss.go:101-134 *)
  Definition hss_parse_sig (b : bytes) : res (lms_sig * bytes) :=
    rbind (sub 4 8 b) (fun ot =>
    match get_ots R (getu32 ot) with
    | None => Err
    | Some p =>
        let omax := 4 + ots_sig_length p in
        if 4 + length b <=? omax then Err else
        rbind (sub omax (omax + 4) b) (fun tc =>
        match get_lms R (getu32 tc) with
        | None => Err
        | Some l =>
            rbind (sub 0 (lms_sig_length l p) b) (fun sb =>
            rbind (lms_sig_parse sb) (fun s => Ok (s, skipn (lms_sig_length l p) b)))
        end)
    end).
  (** hss.go:136-165 *)
  Definition hss_parse_pub (b : bytes) : res (lms_pub * bytes) :=
    if length b <? 8 then Err else
    match get_lms R (getu32 (slice 0 4 b)) with
    | None => Err
    | Some _ =>
        match get_ots R (getu32 (slice 4 4 b)) with
        | None => Err
        | Some p =>
            rbind (sub 0 (24 + o_size p) b) (fun pb =>
            rbind (lms_pub_parse pb) (fun k => Ok (k, skipn (24 + o_size p) b)))
        end
    end.
  (** hss.go:52-73, n rounds, then hss.go:75-84; Err is the result false *)
  Fixpoint hss_verify_loop (n : nat) (pub : lms_pub) (msg sig : bytes) : res bool :=
    match n with
    | O => match lms_sig_parse sig with Ok s => lms_verify_sig pub msg s | Err => Ok false | Panic => Panic end
    | S n' =>
        match hss_parse_sig sig with
        | Ok (s, sig) =>
            match hss_parse_pub sig with
            | Ok (next, sig) =>
                match lms_verify_sig pub (hss_digest pub (g_q s) (og_c (g_ots s)) (lms_pub_bytes next)) s with
                | Ok true => hss_verify_loop n' next msg sig
                | Ok false => Ok false
                | Err => Ok false
                | Panic => Panic
                end
            | Err => Ok false
            | Panic => Panic
            end
        | Err => Ok false
        | Panic => Panic
        end
    end.
  (** hss.go:32-85 *)
  Definition hss_verify (pub : hss_pub) (msg sig : bytes) : res bool :=
    if length sig <? 4 then Ok false else
    let num := getu32 (slice 0 4 sig) in
    if negb (num =? u32 (hp_levels pub - 1))%Z then Ok false else
    hss_verify_loop (Z.to_nat num) (hp_lms pub) msg (skipn 4 sig).
  (** hss.go:88-99 *)
  Definition hss_pub_bytes (pub : hss_pub) : bytes := be_bytes 4 (hp_levels pub) ++ lms_pub_bytes (hp_lms pub).
  (** hss.go:168-184 *)
  Definition hss_pub_parse (b : bytes) : res hss_pub :=
    if length b <? 4 then Err else
    rbind (lms_pub_parse (skipn 4 b)) (fun k => Ok (HssPub (getu32 (slice 0 4 b)) k)).

  (** hss.go:249-260: the signatures and public keys of the lower levels *)
  Fixpoint hss_chain (ks : list lms_priv) (ss : list lms_sig) : res bytes :=
    match ss, ks with
    | s :: ss', k :: ks' =>
        rbind (lms_sig_bytes s) (fun sb => rbind (hss_chain ks' ss') (fun rest => Ok (sb ++ lms_pub_bytes (s_pub k) ++ rest)))
    | _, _ => Ok []
    end.
  (** hss.go:239-275. The last key is LmsKey[num]; it is updated in place. *)
  Definition hss_sign (k : hss_priv) (rng : option bytes) (msg : bytes) : hss_priv * res bytes :=
    let num := Z.to_nat (hp_levels (hs_pub k) - 1) in
    match hss_chain (tl (hs_keys k)) (firstn num (hs_sigs k)), nth_error (hs_keys k) num with
    | Ok chain, Some key =>
        let '(key', r) := lms_sign key rng None msg in
        (HssPriv (hs_pub k) (setl num key' (hs_keys k)) (hs_sigs k),
         rbind r (fun s => rbind (lms_sig_bytes s) (fun sb => Ok (be_bytes 4 (Z.of_nat num) ++ chain ++ sb))))
    | Ok _, None => (k, Panic)
    | Err, _ => (k, Err)
    | Panic, _ => (k, Panic)
    end.
  (** hss.go:278-300 *)
  Definition hss_priv_bytes (k : hss_priv) : res bytes :=
    rbind (rmap lms_sig_bytes (hs_sigs k)) (fun sbs =>
    Ok (be_bytes 4 (hp_levels (hs_pub k)) ++ concat (map lms_priv_bytes (hs_keys k)) ++ concat sbs)).
  (** hss.go:302-325 *)
  Definition hss_parse_priv (b : bytes) : res (lms_priv * bytes) :=
    if length b <? 8 then Err else
    match get_lms R (getu32 (slice 0 4 b)) with
    | None => Err
    | Some l =>
        rbind (sub 0 (28 + l_m l) b) (fun kb => rbind (lms_priv_parse kb) (fun k => Ok (k, skipn (28 + l_m l) b)))
    end.
  (** n rounds of a loop that stores a parsed object in element i of an array of c elements; hss.go:342-358 *)
  Fixpoint parse_many {A} (f : bytes -> res (A * bytes)) (c n i : nat) (b : bytes) : res (list A * bytes) :=
    match n with
    | O => Ok ([], b)
    | S n' => rbind (f b) (fun '(a, b) =>
        if c <=? i then Panic else rbind (parse_many f c n' (S i) b) (fun '(l, b) => Ok (a :: l, b)))
    end.
  (** hss.go:328-366. With levels = 0 the code returns a key without parameters, here Err. *)
  Definition hss_priv_parse (b : bytes) : res hss_priv :=
    if length b <? 4 then Err else
    let levels := Z.to_nat (getu32 (slice 0 4 b)) in
    rbind (parse_many hss_parse_priv 5 levels 0 (skipn 4 b)) (fun '(ks, b) =>
    rbind (parse_many hss_parse_sig 4 (levels - 1) 0 b) (fun '(ss, _) =>
    match ks with
    | [] => Err
    | k :: _ => Ok (HssPriv (HssPub (Z.of_nat levels) (s_pub k)) ks ss)
    end)).

  (** hss.go:420-450: the levels below key, which has q = 0; the reads of each level are an id and a nonce. Returns the keys from
      this level down and the signatures. The signing key is LmsKey[i-1], updated in place. *)
  Fixpoint hss_gen_down (key : lms_priv) (seed : bytes) (opts : list (lms_param * ots_param)) (rds : list (option bytes * option bytes)) :
    res (list lms_priv * list lms_sig) :=
    match opts, rds with
    | [], _ => Ok ([key], [])
    | (l, p) :: opts', (Some id, Some c) :: rds' =>
        let next := lms_gen l p id seed in
        let '(key', r) := lms_sign key None (Some c) (hss_digest (s_pub key) 0 c (lms_pub_bytes (s_pub next))) in
        rbind r (fun s =>
        rbind (hss_gen_down next seed opts' rds') (fun '(ks, ss) => Ok (key' :: ks, s :: ss)))
    | _, _ => Err
    end.
  (** hss.go:387-453 *)
  Definition hss_generate (opts : list (lms_param * ots_param)) (rd1 rd2 : option bytes) (rds : list (option bytes * option bytes)) : res hss_priv :=
    match opts with
    | [] => Err
    | (l, p) :: opts' =>
        if 5 <? length opts then Err else
        match rd1, rd2 with
        | Some seed, Some id =>
            let key := lms_gen l p id seed in
            rbind (hss_gen_down key seed opts' rds) (fun '(ks, ss) =>
            Ok (HssPriv (HssPub (Z.of_nat (length opts)) (s_pub key)) ks ss))
        | _, _ => Err
        end
    end.
End reg2.

(** lmots_params.go:88-172, 174-202 and lms_params.go:84-190; sha and sm3 are the two hash functions *)
Definition ots_set (type : Z) (H : bytes -> bytes) (w : Z) (p : nat) (ls siglen : Z) : ots_param := OtsP type H 32 32 w p ls (Z.to_nat siglen).
Definition default_registry (sha sm3 : bytes -> bytes) : registry := Registry
  (fun t => if (t =? 1)%Z then Some (ots_set 1 sha 1 265 7 8516) else if (t =? 2)%Z then Some (ots_set 2 sha 2 133 6 4292)
    else if (t =? 3)%Z then Some (ots_set 3 sha 4 67 4 2180) else if (t =? 4)%Z then Some (ots_set 4 sha 8 34 0 1124)
    else if (t =? 17)%Z then Some (ots_set 17 sm3 1 265 7 8516) else if (t =? 18)%Z then Some (ots_set 18 sm3 2 133 6 4292)
    else if (t =? 19)%Z then Some (ots_set 19 sm3 4 67 4 2180) else if (t =? 20)%Z then Some (ots_set 20 sm3 8 34 0 1124) else None)
  (fun t => if ((5 <=? t) && (t <=? 9))%Z%bool then Some (LmsP t 32 (Z.to_nat ((t - 4) * 5)))
    else if ((25 <=? t) && (t <=? 29))%Z%bool then Some (LmsP t 32 (Z.to_nat ((t - 24) * 5))) else None).
