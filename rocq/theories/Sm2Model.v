(** Model of gm/sm2: sm2.go (signature, encryption, ZA, key construction), marshal.go, utils.go, key_exchange.go
    (KeyExchangeA/B), keyexchange.go (KeyExchange) and the checks of sm2curve/sm2curve.go around the point arithmetic.
    The curve is a [curve] record whose operations are only constrained where a theorem says so; a point the code refuses makes
    Add and ScalarMult panic as in sm2curve.go. A hash object is the digest of what was written to it. encoding/asn1 is a pair
    of functions [aenc]/[adec] (marshal and unmarshal of two integers and two byte strings) and [senc]/[sdec] (two integers).
    The error errInvalidK is [Ok None]; other errors are [Err]. Nil pointers, destroying of state (Reset) and the sharing of
    PublicKey pointers between caller and KeyExchange are not represented. *)
From Verif Require Import Base BigModel CurveModel EcSigModel KdfModel.
Set Implicit Arguments. Unset Strict Implicit.
Local Open Scope Z_scope.

(** sm2.go:56-59 *)
Inductive sm2_mode := C1C3C2 | C1C2C3.
(** sm2.go:40-43 *)
Definition default_uid : bytes := [49; 50; 51; 52; 53; 54; 55; 56; 49; 50; 51; 52; 53; 54; 55; 56].
(** sm2.go:574-580 encryptedData *)
Record encd := EncD { eX : bytes; eY : bytes; eH : bytes; eC : bytes }.
(** tool/alias ConstantTimeAllZero *)
Definition all_zero (b : bytes) : bool := forallb (Z.eqb 0) b.
Definition is_inf (p : Z * Z) : bool := (fst p =? 0) && (snd p =? 0).

Section sm2.
Variable c : curve.
(** curve.Params().B and (Gx, Gy) *)
Variable cB : Z.
Variable cG : Z * Z.
Variable h : hasher.

Notation N := (cN c).
Notation L := (flen c).

(** sm2curve.go:27-50 pointFromAffine succeeds: infinity as (0,0), or a point IsOnCurve accepts *)
Definition good_point (p : Z * Z) : bool := is_inf p || on_curve c p.
(** sm2curve.go:106-119 ScalarMult *)
Definition smul (p : Z * Z) (k : bytes) : res (Z * Z) := if good_point p then Ok (cmul c p k) else Panic.
(** sm2curve.go:66-78 Add *)
Definition sadd (p q : Z * Z) : res (Z * Z) := if good_point p && good_point q then Ok (cadd c p q) else Panic.

(** utils.go:17-24 bigIntToBytes of both coordinates *)
Definition coords (p : Z * Z) : res (bytes * bytes) :=
  rbind (fill_bytes L (fst p)) (fun x => rbind (fill_bytes L (snd p)) (fun y => Ok (x, y))).

(** sm2.go:977-999 randFieldElement *)
Definition sm_rand (rd : bytes) : res (Z * bytes) :=
  rbind (read_full (Nat.div (cBits c) 8 + 8) rd) (fun br => Ok (be_val (fst br) mod (N - 1) + 1, snd br)).

(** sm2.go:448-463 GenerateKey *)
Definition sm_generate (rd : bytes) : res (eckey * bytes) :=
  rbind (sm_rand rd) (fun kr => Ok (EcKey (cbase c (big_bytes (fst kr))) (fst kr), snd kr)).
(** sm2.go:466-483 NewPrivateKey *)
Definition sm_new_private (d : bytes) : res eckey :=
  if N - 1 <=? be_val d then Err else Ok (EcKey (cbase c d) (be_val d)).
(** sm2.go:486-489 PrivateKeyTo *)
Definition sm_private_to (key : eckey) : res bytes := fill_bytes (byteceil (bitlen N)) (eD key).
(** sm2.go:512-514 PublicKeyTo = sm2curve/marshal.go:9-21 Marshal *)
Definition sm_public_to (p : Z * Z) : res bytes :=
  if good_point p then rbind (coords p) (fun xy => Ok (4 :: fst xy ++ snd xy)) else Panic.
(** sm2.go:493-509 NewPublicKey = sm2curve.go:155-174 Unmarshal; sm2ec.go:60-75: SetBytes takes 1+2L bytes, coordinates below P
    and a point on the curve *)
Definition sm_new_public (data : bytes) : res (Z * Z) :=
  match data with
  | [] => Err
  | t :: rest =>
    if negb (t =? 4) then Err else
    if negb (Nat.eqb (length rest) (2 * L)) then Err else
    let p := (be_val (firstn L rest), be_val (skipn L rest)) in
    if (fst p <? cP c) && (snd p <? cP c) && on_curve c p then Ok p else Err
  end.

(** * Signatures *)
(** sm2.go:844-877 signUsingK *)
Definition sm_sign_k (k D : Z) (hash : bytes) : res (option (Z * Z)) :=
  let e := be_val hash in
  let r := (fst (cbase c (big_bytes k)) + e) mod N in
  if negb (r =? 0) && (r + k =? N) then Ok None else
  match mod_inverse (D + 1) N with
  | None => Panic
  | Some i => let s := ((k - D * r) * i) mod N in
              if s =? 0 then Ok None else Ok (Some (r, s))
  end.
(** sm2.go:819-841 sign, one round *)
Definition sm_sign_step (D : Z) (hash : bytes) (rd : bytes) : res ((Z * Z) + bytes) :=
  rbind (sm_rand rd) (fun kr =>
    rbind (sm_sign_k (fst kr) D hash) (fun o =>
      Ok (match o with Some rs => inl rs | None => inr (snd kr) end))).
Definition sm_sign (rd : bytes) (D : Z) (hash : bytes) : res (Z * Z) :=
  sign_loop (S (length rd)) (sm_sign_step D hash) rd.
(** sm2.go:880-912 verify *)
Definition sm_verify (pub : Z * Z) (hash : bytes) (r s : Z) : res bool :=
  if (r <=? 0) || (s <=? 0) then Ok false else
  if (N <=? r) || (N <=? s) then Ok false else
  let t := (r + s) mod N in
  if t =? 0 then Ok false else
  rbind (smul pub (big_bytes t)) (fun p2 =>
  rbind (sadd (cbase c (big_bytes s)) p2) (fun p =>
  Ok ((fst p + be_val hash) mod N =? r))).

(** sm2.go:947-975 calculateZA *)
Definition sm_za (pub : Z * Z) (uid : bytes) : res bytes :=
  if 8192 <=? Z.of_nat (length uid) then Err else
  let entla := (8 * Z.of_nat (length uid)) mod 2 ^ 16 in
  rbind (coords pub) (fun xy =>
  Ok (hsum h ([Z.land (Z.shiftr entla 8) 255; Z.land entla 255] ++ uid
       ++ big_bytes (cP c - 3) ++ big_bytes cB ++ big_bytes (fst cG) ++ big_bytes (snd cG) ++ fst xy ++ snd xy))).
(** sm2.go:919-934 calculateHash *)
Definition sm_hash (pub : Z * Z) (msg uid : bytes) : res bytes :=
  rbind (sm_za pub (if Nat.eqb (length uid) 0 then default_uid else uid)) (fun z => Ok (hsum h (z ++ msg))).
(** sm2.go:749-761 SignToRS *)
Definition sm_sign_msg (rd : bytes) (key : eckey) (msg uid : bytes) : res (Z * Z) :=
  rbind (sm_hash (ePub key) msg uid) (sm_sign rd (eD key)).
(** sm2.go:764-776 SignUsingKToRS *)
Definition sm_sign_msg_k (k : Z) (key : eckey) (msg uid : bytes) : res (option (Z * Z)) :=
  rbind (sm_hash (ePub key) msg uid) (sm_sign_k k (eD key)).
(** sm2.go:779-796 VerifyWithRS *)
Definition sm_verify_msg (pub : Z * Z) (msg uid : bytes) (r s : Z) : res bool :=
  match sm_hash pub msg uid with
  | Ok e => sm_verify pub e r s
  | Err => Ok false
  | Panic => Panic
  end.
(** sm2.go:383-390 SignBytes, marshal.go:11-20; sm2.go:207-214 VerifyBytes, marshal.go:22-33 *)
Definition sm_sign_bytes rd key msg uid : res bytes := rbind (sm_sign_msg rd key msg uid) (sig_bytes L L).
Definition sm_verify_bytes pub msg uid sig : res bool := with_sig L L sig (sm_verify_msg pub msg uid).
(** sm2.go:332-354 Sign and sm2.go:182-203 Verify with EncodingASN1 (the default) *)
Definition sm_sign_asn (senc : Z -> Z -> bytes) rd key msg uid : res bytes :=
  rbind (sm_sign_msg rd key msg uid) (fun rs => Ok (senc (fst rs) (snd rs))).
Definition sm_verify_asn (sdec : bytes -> option (Z * Z)) pub msg uid sig : res bool :=
  match sdec sig with Some rs => sm_verify_msg pub msg uid (fst rs) (snd rs) | None => Ok false end.

(** * Encryption *)
(** smkdf.Key(h, z, n) *)
Definition sm_kdf (z : bytes) (n : nat) : res bytes := sm_key (hsum h) (hsize h) z (Z.of_nat n).
(** sm2.go:607-643 encryptUsingK *)
Definition sm_enc_k (k : Z) (pub : Z * Z) (data : bytes) : res (option encd) :=
  let p1 := cbase c (big_bytes k) in
  rbind (smul pub (big_bytes k)) (fun p2 =>
  rbind (coords p1) (fun xy1 => rbind (coords p2) (fun xy2 =>
  let hashed := hsum h (fst xy2 ++ data ++ snd xy2) in
  rbind (sm_kdf (fst xy2 ++ snd xy2) (length data)) (fun ct =>
  if all_zero ct then Ok None
  else Ok (Some (EncD (fst xy1) (snd xy1) hashed (xorl ct data))))))).
(** sm2.go:582-605 encrypt; [retry] is retryCount *)
Fixpoint sm_enc_loop (fuel : nat) (retry : Z) (pub : Z * Z) (data rd : bytes) : res encd :=
  match fuel with
  | O => Err
  | S f => rbind (sm_rand rd) (fun kr =>
           rbind (sm_enc_k (fst kr) pub data) (fun o =>
           match o with
           | Some e => Ok e
           | None => let retry := retry + 1 in
                     if 100 <? retry then Err else sm_enc_loop f retry pub data (snd kr)
           end))
  end.
Definition sm_enc (rd : bytes) (pub : Z * Z) (data : bytes) : res encd := sm_enc_loop (S (length rd)) 0 pub data rd.
(** sm2.go:645-680 decrypt *)
Definition sm_dec (D : Z) (d : encd) : res bytes :=
  rbind (smul (be_val (eX d), be_val (eY d)) (big_bytes D)) (fun p2 =>
  rbind (coords p2) (fun xy2 =>
  rbind (sm_kdf (fst xy2 ++ snd xy2) (length (eC d))) (fun k =>
  if all_zero k then Err else
  let m := xorl k (eC d) in
  if beq (hsum h (fst xy2 ++ m ++ snd xy2)) (eH d) then Ok m else Err))).
(** marshal.go:56-79 marshalCipherBytes *)
Definition sm_marshal (m : sm2_mode) (d : encd) : bytes :=
  match m with
  | C1C2C3 => [4] ++ eX d ++ eY d ++ eC d ++ eH d
  | C1C3C2 => [4] ++ eX d ++ eY d ++ eH d ++ eC d
  end.
(** data[i:j]. Simplification: Go admits j up to the capacity; below such a j only occurs before a slice that panics in any
    case (marshal.go:112-113 with 2*byteLen+hashSize = len+1). *)
Definition cutz (i j : Z) (l : bytes) : res bytes :=
  if (0 <=? i) && (i <=? j) && (j <=? Z.of_nat (length l)) then Ok (slice (Z.to_nat i) (Z.to_nat (j - i)) l) else Panic.
(** marshal.go:81-122 unmarshalCipherBytes *)
Definition sm_unmarshal (m : sm2_mode) (data : bytes) : res encd :=
  match data with
  | [] => Panic
  | t :: rest =>
    if negb (t =? 4) then Err else
    let hs := Z.of_nat (hsize h) in
    let l := Z.of_nat L in
    if Z.of_nat (length data) <? 2 * l + hs then Err else
    let n := Z.of_nat (length rest) in
    rbind (cutz 0 (2 * l) rest) (fun c1 =>
    match m with
    | C1C2C3 => rbind (cutz (2 * l) (n - hs) rest) (fun c2 => rbind (cutz (n - hs) n rest) (fun c3 =>
                Ok (EncD (firstn L c1) (skipn L c1) c3 c2)))
    | C1C3C2 => rbind (cutz (2 * l) (2 * l + hs) rest) (fun c3 => rbind (cutz (2 * l + hs) n rest) (fun c2 =>
                Ok (EncD (firstn L c1) (skipn L c1) c3 c2)))
    end)
  end.
(** sm2.go:217-240, 243-266 Encrypt and EncryptUsingK; sm2.go:404-428 Decrypt; encoding bytes (the default) *)
Definition sm_encrypt (m : sm2_mode) rd pub data : res bytes := rbind (sm_enc rd pub data) (fun d => Ok (sm_marshal m d)).
Definition sm_encrypt_k (m : sm2_mode) k pub data : res bytes :=
  rbind (sm_enc_k k pub data) (fun o => match o with Some d => Ok (sm_marshal m d) | None => Err end).
Definition sm_decrypt (m : sm2_mode) D data : res bytes := rbind (sm_unmarshal m data) (sm_dec D).

Section asn.
(** asn1.Marshal and asn1.Unmarshal of SEQUENCE { INTEGER, INTEGER, OCTET STRING, OCTET STRING } *)
Variable aenc : Z -> Z -> bytes -> bytes -> bytes.
Variable adec : bytes -> option (Z * Z * bytes * bytes).
(** marshal.go:125-131, 151-158, 189-196 *)
Definition sm_marshal_asn (m : sm2_mode) (d : encd) : bytes :=
  match m with
  | C1C2C3 => aenc (be_val (eX d)) (be_val (eY d)) (eC d) (eH d)
  | C1C3C2 => aenc (be_val (eX d)) (be_val (eY d)) (eH d) (eC d)
  end.
(** marshal.go:133-139, 161-177, 199-215 *)
Definition sm_unmarshal_asn (m : sm2_mode) (data : bytes) : res encd :=
  match adec data with
  | None => Err
  | Some (x, y, f3, f4) =>
    rbind (coords (x, y)) (fun xy =>
    Ok (match m with C1C2C3 => EncD (fst xy) (snd xy) f4 f3 | C1C3C2 => EncD (fst xy) (snd xy) f3 f4 end))
  end.
(** sm2.go:269-286 EncryptASN1; sm2.go:431-443 DecryptASN1 *)
Definition sm_encrypt_asn (m : sm2_mode) rd pub data : res bytes := rbind (sm_enc rd pub data) (fun d => Ok (sm_marshal_asn m d)).
Definition sm_decrypt_asn (m : sm2_mode) D data : res bytes := rbind (sm_unmarshal_asn m data) (sm_dec D).
End asn.

(** * Key exchange *)
(** keyexchange.go:38-47, 173-177: 2^w + (x & (2^w - 1)), w = (N.BitLen()+1)/2 - 1 *)
Definition ke_w : Z := Z.of_nat (Nat.div (bitlen N + 1) 2) - 1.
Definition ke_avf (x : Z) : Z := Z.shiftl 1 ke_w + Z.land (Z.shiftl 1 ke_w - 1) x.
(** keyexchange.go:16-29; the fields set by NewKeyExchange, Init, Repond, ConfirmResponder *)
Record kex := Kex { kGen : bool; kLen : nat; kKey : eckey; kZ : bytes; kPeer : Z * Z; kPeerZ : bytes;
                    kR : Z; kSecret : Z * Z; kPeerSecret : Z * Z; kV : Z * Z }.
(** keyexchange.go:32-68, 97-123: NewKeyExchange with a peer key *)
Definition ke_uid (uid : bytes) : bytes := if Nat.eqb (length uid) 0 then default_uid else uid.
Definition ke_new (key : eckey) (peer : Z * Z) (uid puid : bytes) (klen : nat) (gen : bool) : res kex :=
  rbind (sm_za (ePub key) (ke_uid uid)) (fun z =>
  rbind (sm_za peer (ke_uid puid)) (fun pz =>
  Ok (Kex gen klen key z peer pz 0 (0, 0) (0, 0) (0, 0)))).
(** keyexchange.go:72-86 Init with the number r drawn *)
Definition ke_init (k : kex) (r : Z) : kex :=
  Kex (kGen k) (kLen k) (kKey k) (kZ k) (kPeer k) (kPeerZ k) r (cbase c (big_bytes r)) (kPeerSecret k) (kV k).
(** keyexchange.go:125-153 sign *)
Definition ke_sign (k : kex) (responder : bool) (prefix : Z) : res bytes :=
  rbind (coords (kV k)) (fun v => rbind (coords (kSecret k)) (fun s => rbind (coords (kPeerSecret k)) (fun p =>
  let body := if responder then kPeerZ k ++ kZ k ++ fst p ++ snd p ++ fst s ++ snd s
              else kZ k ++ kPeerZ k ++ fst s ++ snd s ++ fst p ++ snd p in
  Ok (hsum h ([prefix] ++ snd v ++ hsum h (fst v ++ body)))))).
(** keyexchange.go:155-170 generateSharedKey *)
Definition ke_shared (k : kex) (responder : bool) : res bytes :=
  rbind (coords (kV k)) (fun v =>
  sm_kdf (fst v ++ snd v ++ (if responder then kPeerZ k ++ kZ k else kZ k ++ kPeerZ k)) (kLen k)).
(** keyexchange.go:180-198 mqv: the point v *)
Definition ke_mqv (k : kex) : res (Z * Z) :=
  let t := (ke_avf (fst (kSecret k)) * kR k + eD (kKey k)) mod N in
  let x1 := ke_avf (fst (kPeerSecret k)) in
  rbind (smul (kPeerSecret k) (big_bytes x1)) (fun p =>
  rbind (sadd (kPeer k) p) (fun q => smul q (big_bytes t))).
Definition ke_set (k : kex) (r : Z) (sec psec v : Z * Z) : kex :=
  Kex (kGen k) (kLen k) (kKey k) (kZ k) (kPeer k) (kPeerZ k) r sec psec v.
(** keyexchange.go:205-237 Repond with the number r drawn: new state, own ephemeral key, signature *)
Definition ke_respond (k : kex) (rA : Z * Z) (r : Z) : res (kex * (Z * Z) * option bytes) :=
  if negb (on_curve c rA) then Err else
  let k1 := ke_set k r (cbase c (big_bytes r)) rA (kV k) in
  rbind (ke_mqv k1) (fun v =>
  let k2 := ke_set k1 (kR k1) (kSecret k1) (kPeerSecret k1) v in
  if is_inf v then Err else
  if kGen k2 then rbind (ke_sign k2 true 2) (fun s => Ok (k2, kSecret k2, Some s)) else Ok (k2, kSecret k2, None)).
(** keyexchange.go:245-277 ConfirmResponder: key and signature *)
Definition ke_confirm_responder (k : kex) (rB : Z * Z) (sB : bytes) : res (bytes * option bytes) :=
  if negb (on_curve c rB) then Err else
  let k1 := ke_set k (kR k) (kSecret k) rB (kV k) in
  rbind (ke_mqv k1) (fun v =>
  let k2 := ke_set k1 (kR k1) (kSecret k1) (kPeerSecret k1) v in
  if is_inf v then Err else
  rbind (if Nat.eqb (length sB) 0 then Ok true else rbind (ke_sign k2 false 2) (fun b => Ok (beq b sB))) (fun ok =>
  if negb ok then Err else
  rbind (ke_shared k2 false) (fun key =>
  if kGen k2 then rbind (ke_sign k2 false 3) (fun s => Ok (key, Some s)) else Ok (key, None)))).
(** keyexchange.go:280-289 ConfirmInitiator; None is a nil signature *)
Definition ke_confirm_initiator (k : kex) (s1 : option bytes) : res bytes :=
  rbind (match s1 with None => Ok true | Some s => rbind (ke_sign k true 3) (fun b => Ok (beq b s)) end) (fun ok =>
  if negb ok then Err else ke_shared k true).

(** key_exchange.go:105-123 keXHat on the bytes of x *)
Definition ke_xhat (x : Z) : Z :=
  let buf := big_bytes x in
  let n := length buf in
  let buf := repeat 0 (n - 16) ++ skipn (n - 16) buf in
  let buf := if (16 <=? n)%nat then firstn (n - 16) buf ++ Z.land (nth (n - 16) buf 0) 127 :: skipn (n - 15) buf else buf in
  be_val buf + 2 ^ 127.
(** key_exchange.go:32-101 keyExchange; sm3.Sum is the digest. The error of CalculateZA(pzb) and "V is infinite" are assigned
    to err and then overwritten: not represented, a failing CalculateZA yields the empty zb. *)
Definition kx (klen : nat) (ida idb : bytes) (pri : eckey) (pub : Z * Z) (rpri : eckey) (rpub : Z * Z) (thisA : bool)
  : res (bytes * bytes * bytes) :=
  let tb := (eD pri + ke_xhat (fst (ePub rpri)) * eD rpri) mod N in
  if negb (on_curve c rpub) then Err else
  rbind (smul rpub (big_bytes (ke_xhat (fst rpub)))) (fun ra =>
  rbind (sadd pub ra) (fun vt =>
  rbind (smul vt (big_bytes tb)) (fun v =>
  let vx := big_bytes (fst v) in
  let vy := big_bytes (snd v) in
  rbind (sm_za (if thisA then ePub pri else pub) ida) (fun za =>
  rbind (match sm_za (if thisA then pub else ePub pri) idb with Err => Ok [] | r => r end) (fun zb =>
  rbind (sm_kdf (vx ++ vy ++ za ++ zb) klen) (fun k =>
  if all_zero k then Err else
  let own := big_bytes (fst (ePub rpri)) ++ big_bytes (snd (ePub rpri)) in
  let his := big_bytes (fst rpub) ++ big_bytes (snd rpub) in
  let hash := hsum h (vx ++ za ++ zb ++ (if thisA then his ++ own else own ++ his)) in
  Ok (k, hsum h ([2] ++ vy ++ hash), hsum h ([3] ++ vy ++ hash)))))))).
End sm2.
