(** Model of pubkey/gost: the curve arithmetic it implements itself (curve.go), GOST R 34.10 keys and
    signatures (gost.go), point encoding (marshal.go), VKO key agreement (vko.go) and the twisted Edwards
    coordinates (edwards.go).  Simplifications: curve parameters are not negative and P, Q are positive;
    the ASN.1 signature form, the caching of the Edwards constants and nil arguments are not modelled; the
    digest of the KEK functions is any [hasher].  A [ModInverse] without result leaves its receiver
    unchanged, which [mod_inv_or] expresses. *)
From Verif Require Import Base BigModel CurveModel.
Set Implicit Arguments. Unset Strict Implicit.
Local Open Scope Z_scope.

(** ** pubkey/gost/curve.go *)
(** curve.go:16-43 Curve; E and D may be nil *)
Record gcurve := GCurve { gP : Z; gQ : Z; gCo : Z; gA : Z; gB : Z; gE : option Z; gD : option Z; gX : Z; gY : Z }.
(** curve.go:91-97 PointSize *)
Definition g_size (c : gcurve) : nat := if Nat.ltb 256 (bitlen (gP c)) then 64%nat else 32%nat.
(** curve.go:124-128 pos *)
Definition g_pos (c : gcurve) (v : Z) : Z := if v <? 0 then v + gP c else v.
(** curve.go:100-112 polynomial, :115-122 IsOnCurve *)
Definition g_poly (c : gcurve) (x : Z) : Z := g_pos c (((x * x + gA c) * x + gB c) mod gP c).
Definition g_on (c : gcurve) (p : Z * Z) : bool := g_poly c (fst p) =? (snd p * snd p) mod gP c.
(** curve.go:45-71 NewCurve *)
Definition g_new_curve (p q a b x y : Z) (e d co : option Z) : res gcurve :=
  let c := GCurve p q 1 a b None None x y in
  if negb (g_on c (x, y)) then Err
  else let '(e', d') := match e, d with Some _, Some _ => (e, d) | _, _ => (None, None) end in
    Ok (GCurve p q (match co with None => 1 | Some k => k end) a b e' d' x y).

(** [z.ModInverse(x, m)] where [z] held [old] *)
Definition mod_inv_or (old x m : Z) : Z := match mod_inverse x m with Some i => i | None => old end.
(** curve.go:130-167 add: the new value of the first point.  [t] is fresh, so 0, in the chord case; in the
    tangent case the receiver is the argument. *)
Definition g_add (c : gcurve) (p1 p2 : Z * Z) : Z * Z :=
  let '(p1x, p1y) := p1 in let '(p2x, p2y) := p2 in
  let t := if (p1x =? p2x) && (p1y =? p2y)
    then let tx := 2 * p1y in ((p1x * p1x * 3 + gA c) * mod_inv_or tx tx (gP c)) mod gP c
    else let tx := g_pos c ((p2x - p1x) mod gP c) in let ty := g_pos c ((p2y - p1y) mod gP c) in
      (mod_inv_or 0 tx (gP c) * ty) mod gP c in
  let tx := g_pos c ((t * t - p1x - p2x) mod gP c) in
  let ty := g_pos c (((p1x - tx) * t - p1y) mod gP c) in
  (tx, ty).
(** curve.go:251-261 panicIfNotOnCurve *)
Definition g_guard (A : Type) (c : gcurve) (p : Z * Z) (k : res A) : res A :=
  if (fst p =? 0) && (snd p =? 0) then k else if negb (g_on c p) then Panic else k.
(** curve.go:169-179 Add, :181-188 Double *)
Definition g_Add (c : gcurve) (p q : Z * Z) : res (Z * Z) := g_guard c p (g_guard c q (Ok (g_add c p q))).
Definition g_Double (c : gcurve) (p : Z * Z) : res (Z * Z) := g_guard c p (g_Add c p p).
(** curve.go:223-230: the loop of Exp on dg > 0; [t] the accumulator, [s] the running double *)
Fixpoint g_exp_loop (c : gcurve) (dg : positive) (t s : Z * Z) : Z * Z :=
  match dg with
  | xH => g_add c t s
  | xO d => g_exp_loop c d t (g_add c s s)
  | xI d => g_exp_loop c d (g_add c t s) (g_add c s s)
  end.
(** curve.go:212-233 Exp, for degree >= 0 (a negative degree does not end) *)
Definition g_exp (c : gcurve) (degree : Z) (p : Z * Z) : res (Z * Z) :=
  if degree =? 0 then Err
  else Ok (match degree - 1 with Zpos dg => g_exp_loop c dg p p | _ => p end).
(** curve.go:190-206 ScalarMult, :208-210 ScalarBaseMult *)
Definition g_mult (c : gcurve) (p : Z * Z) (key : bytes) : res (Z * Z) :=
  g_guard c p (
  let k := be_val key in
  if k =? 0 then Panic
  else match g_exp c (k mod gQ c) p with Ok r => Ok r | _ => Panic end).
Definition g_base (c : gcurve) (key : bytes) : res (Z * Z) := g_mult c (gX c, gY c) key.
(** curve.go:242-243: nil-or-Cmp; Cmp on one nil pointer panics *)
Definition opt_cmp (a b : option Z) : res bool :=
  match a, b with
  | None, None => Ok true
  | Some x, Some y => Ok (x =? y)
  | _, _ => Panic
  end.
(** curve.go:235-245 Equal *)
Definition g_equal (c x : gcurve) : res bool :=
  if (gP c =? gP x) && (gQ c =? gQ x) && (gA c =? gA x) && (gB c =? gB x) && (gX c =? gX x) && (gY c =? gY x)
  then rbind (opt_cmp (gE c) (gE x)) (fun e => if negb e then Ok false
    else rbind (opt_cmp (gD c) (gD x)) (fun d => if negb d then Ok false else Ok (gCo c =? gCo x)))
  else Ok false.

(** ** pubkey/gost/gost.go *)
(** gost.go:21-25 PublicKey, :76-79 PrivateKey *)
Record gpub := GPub { gcur : gcurve; gpt : Z * Z }.
Record gpriv := GPriv { gpk : gpub; gd : Z }.
(** utils.go:8-17 Reverse is [rev]; gost.go:135-147 newPrivateKey *)
Definition g_new_private (c : gcurve) (raw : bytes) : res gpriv :=
  let k := be_val raw in
  if k =? 0 then Err
  else rbind (g_base c (big_bytes k)) (fun p => Ok (GPriv (GPub c p) k)).
(** gost.go:150-157 GenerateKey *)
Definition g_generate (c : gcurve) (rd : bytes) : res (gpriv * bytes) :=
  rbind (read_full (g_size c) rd) (fun br => rbind (g_new_private c (fst br)) (fun k => Ok (k, snd br))).
(** gost.go:160-162 NewPrivateKey, :165-170 PrivateKeyTo *)
Definition g_private_from (c : gcurve) (raw : bytes) : res gpriv := g_new_private c (rev raw).
Definition g_private_to (k : gpriv) : res bytes := rbind (fill_bytes (g_size (gcur (gpk k))) (gd k)) (fun b => Ok (rev b)).
(** gost.go:235-242 and :291-297: the digest as a number *)
Definition g_digest (c : gcurve) (digest : bytes) : Z :=
  let e := be_val (rev digest) mod gQ c in if e =? 0 then 1 else e.
(** gost.go:253-277: one pass from Retry *)
Definition g_round (k : gpriv) (e : Z) (rd : bytes) : res (option (Z * Z) * bytes) :=
  let c := gcur (gpk k) in
  rbind (read_full (g_size c) rd) (fun br =>
  let kk := be_val (fst br) mod gQ c in
  if kk =? 0 then Ok (None, snd br)
  else rbind (g_base c (big_bytes kk)) (fun p =>
    let r := fst p mod gQ c in
    if r =? 0 then Ok (None, snd br)
    else let s := (gd k * r + kk * e) mod gQ c in
      if s =? 0 then Ok (None, snd br) else Ok (Some (r, s), snd br))).
(** gost.go:234-280 SignToRS *)
Definition g_sign_rs (rd : bytes) (k : gpriv) (digest : bytes) : res ((Z * Z) * bytes) :=
  until (g_round k (g_digest (gcur (gpk k)) digest)) rd.
(** gost.go:101-115 Sign: s then r *)
Definition g_sign (rd : bytes) (k : gpriv) (digest : bytes) : res (bytes * bytes) :=
  rbind (g_sign_rs rd k digest) (fun rsr =>
  let '((r, s), rd') := rsr in let n := g_size (gcur (gpk k)) in
  rbind (fill_bytes n s) (fun a => rbind (fill_bytes n r) (fun b => Ok (a ++ b, rd')))).
(** gost.go:283-339 VerifyWithRS *)
Definition g_verify_rs (u : gpub) (digest : bytes) (r s : Z) : res bool :=
  let c := gcur u in
  if (r <=? 0) || (gQ c <=? r) || (s <=? 0) || (gQ c <=? s) then Ok false
  else
    let e := g_digest c digest in
    let v := mod_inv_or 0 e (gQ c) in
    let z1 := (s * v) mod gQ c in
    let z2 := gQ c - (r * v) mod gQ c in
    rbind (g_base c (big_bytes z1)) (fun p1 =>
    rbind (g_mult c (gpt u) (big_bytes z2)) (fun q1 =>
    let lm := fst q1 - fst p1 in
    let lm := if lm <? 0 then lm + gP c else lm in
    let lm := mod_inv_or lm lm (gP c) in
    let z1 := snd q1 - snd p1 in
    let lm := (lm * z1) mod gP c in
    let lm := (lm * lm) mod gP c in
    let lm := (lm - fst p1 - fst q1) mod gP c in
    let lm := if lm <? 0 then lm + gP c else lm in
    Ok (lm mod gQ c =? r))).
(** gost.go:42-57 Verify *)
Definition g_verify (u : gpub) (digest sig : bytes) : res bool :=
  let n := g_size (gcur u) in
  if negb (Nat.eqb (length sig) (2 * n)) then Err
  else g_verify_rs u digest (be_val (skipn n sig)) (be_val (firstn n sig)).

(** ** pubkey/gost/marshal.go *)
(** marshal.go:8-19 Marshal, :24-45 Unmarshal, gost.go:173-186 NewPublicKey, :189-191 PublicKeyTo *)
Definition g_marshal (c : gcurve) (p : Z * Z) : res bytes :=
  g_guard c p (let n := g_size c in
  rbind (fill_bytes n (snd p)) (fun a => rbind (fill_bytes n (fst p)) (fun b => Ok (rev (a ++ b))))).
Definition g_unmarshal (c : gcurve) (data : bytes) : option (Z * Z) :=
  let n := g_size c in
  if negb (Nat.eqb (length data) (2 * n)) then None
  else let data := rev data in
    let y := be_val (firstn n data) in let x := be_val (skipn n data) in
    if (gP c <=? x) || (gP c <=? y) then None
    else if negb (g_on c (x, y)) then None else Some (x, y).
Definition g_public_from (c : gcurve) (data : bytes) : res gpub :=
  match g_unmarshal c data with None => Err | Some p => Ok (GPub c p) end.
Definition g_public_to (u : gpub) : res bytes := g_marshal (gcur u) (gpt u).

(** ** pubkey/gost/vko.go *)
(** vko.go:15-22 NewUKM *)
Definition g_ukm (raw : bytes) : Z := be_val (map (fun i => nth (length raw - i - 1) raw 0) (seq 0 (length raw))).
(** vko.go:24-41 KEK *)
Definition g_kek (k : gpriv) (u : gpub) (ukm : Z) : res bytes :=
  let c := gcur (gpk k) in
  rbind (g_equal c (gcur u)) (fun same =>
  if negb same then Err
  else rbind (g_mult c (gpt u) (big_bytes (gd k))) (fun key =>
    let w := ukm * gCo c in
    rbind (if negb (w =? 1) then g_mult c key (big_bytes w) else Ok key) (fun key' => g_marshal c key'))).
(** vko.go:57-77 KEK2001; :93-105 KEK2012256 and :121-133 KEK2012512 *)
Definition g_kek2001 (h : hasher) (k : gpriv) (u : gpub) (ukm : Z) : res bytes :=
  if negb (Nat.eqb (g_size (gcur (gpk k))) 32) then Err else rbind (g_kek k u ukm) (fun key => Ok (hsum h key)).
Definition g_kek2012 (h : hasher) (k : gpriv) (u : gpub) (ukm : Z) : res bytes :=
  rbind (g_kek k u ukm) (fun key => Ok (hsum h key)).

(** ** pubkey/gost/edwards.go *)
(** edwards.go:11-35 EdwardsST; [t] holds 4, then 6 *)
Definition g_edwards_st (c : gcurve) (e d : Z) : Z * Z :=
  ((g_pos c (e - d) * mod_inv_or 4 4 (gP c)) mod gP c, ((e + d) * mod_inv_or 6 6 (gP c)) mod gP c).
(** edwards.go:38-61 XY2UV: panics when E is nil (D is then nil as well); D nil with E set panics in Sub *)
Definition g_xy2uv (c : gcurve) (p : Z * Z) : res (Z * Z) :=
  match gE c, gD c with
  | Some e, Some d =>
    let '(edS, edT) := g_edwards_st c e d in let '(x, y) := p in
    let t := g_pos c (x - edT) in
    let u := (mod_inv_or 0 y (gP c) * t) mod gP c in
    let v := g_pos c (t - edS) in
    let t' := t + edS in
    Ok (u, (v * mod_inv_or t' t' (gP c)) mod gP c)
  | _, _ => Panic
  end.
(** edwards.go:64-89 UV2XY *)
Definition g_uv2xy (c : gcurve) (p : Z * Z) : res (Z * Z) :=
  match gE c, gD c with
  | Some e, Some d =>
    let '(edS, edT) := g_edwards_st c e d in let '(u, v) := p in
    let tx := ((1 + v) * edS) mod gP c in
    let ty := g_pos c (1 - v) in
    let x := (mod_inv_or 0 ty (gP c) * tx + edT) mod gP c in
    let y0 := u * ty in
    let y := (mod_inv_or y0 y0 (gP c) * tx) mod gP c in
    Ok (x, y)
  | _, _ => Panic
  end.
