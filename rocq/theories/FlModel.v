(** Model of cryptobin/crypto (the chained API): cryptobin.go, encrypt.go, encrypt_multiple.go (BlockEncrypt, BlockDecrypt and the block
    ciphers' Encrypt and Decrypt), encrypt_mode.go, encrypt_padding.go, from.go, with.go, use.go, on.go, error.go, with tool/config,
    tool/error_event and tool/recover. Paddings and modes are the models of those packages. Values are copied on every call as in Go, but the
    Config and the arrays behind Errors and the list of handlers live in a heap. Simplifications: error texts are the two codes "returned" and
    "panicked"; the registry of ciphers [reg] maps an identifier to NewCipher of a block cipher, the stream ciphers of encrypt_multiple.go and
    the modes of the sub-packages are not represented; GCM of the standard library is a parameter; GenRandom and randomBytes are [rand] and do
    not fail; locks are not represented, each method is one step; WithConfig, SetConfig and WithErrors, which replace the Config or the list of errors,
    are not represented. *)
From Verif Require Import Base PaddingModel BlockModeModel StreamModel FeedbackModel AeadSpec SivModel CcmModel HctrModel FernetSpec.
Set Implicit Arguments. Unset Strict Implicit.
Local Open Scope nat_scope.

(** ** Options *)
(** tool/config/config.go: the names the modelled code uses, and any other *)
Inductive cname := Additional | NonceSize | TagSize | Resync | Tweak | Hkey | OtherName (n : Z).
Definition cname_eqb (a b : cname) : bool :=
  match a, b with
  | Additional, Additional | NonceSize, NonceSize | TagSize, TagSize | Resync, Resync | Tweak, Tweak | Hkey, Hkey => true
  | OtherName x, OtherName y => Z.eqb x y
  | _, _ => false
  end.
Inductive cval := CInt (n : Z) | CBytes (b : bytes) | CBool (b : bool).
Definition cfg := list (cname * cval).
(** config.go:41-48 Set, :70-79 Get *)
Definition cfg_set (k : cname) (v : cval) (g : cfg) : cfg := (k, v) :: g.
Fixpoint cfg_get (k : cname) (g : cfg) : option cval :=
  match g with [] => None | (k', v) :: t => if cname_eqb k k' then Some v else cfg_get k t end.
(** config.go: GetInt, GetBytes, GetBool: the zero value when missing or of another type *)
Definition cfg_int (k : cname) (g : cfg) : Z := match cfg_get k g with Some (CInt n) => n | _ => 0%Z end.
Definition cfg_bytes (k : cname) (g : cfg) : bytes := match cfg_get k g with Some (CBytes b) => b | _ => [] end.
Definition cfg_bool (k : cname) (g : cfg) : bool := match cfg_get k g with Some (CBool b) => b | _ => false end.
(** interface.go:11-35 IOption *)
Record opts := Opts { oKey : bytes; oIv : bytes; oMode : Z; oPad : Z; oCfg : cfg }.

Record aead := Aead { a_seal : bytes -> bytes -> bytes -> res bytes; a_open : bytes -> bytes -> bytes -> res bytes }.

Section fl.
Variable gcm : cipher -> Z -> Z -> res aead.
Variable rand : nat -> bytes.

(** ** Padding: types.go:309-321 for the numbers, encrypt_padding.go:146-177 for the table *)
Definition fl_pad (p : Z) (text : bytes) (bs : nat) : res bytes :=
  let b := Z.of_nat bs in
  (match p with
   | 1 => Ok text
   | 2 => Ok (zero_pad text b)
   | 3 => Ok (pkcs5_pad text b)
   | 4 => Ok (pkcs7_pad text b)
   | 5 => Ok (x923_pad text b)
   | 6 => Ok (iso10126_pad (rand (bs - Nat.modulo (length text) bs - 1)) text b)
   | 7 | 8 | 9 => Ok (iso7816_pad text b)
   | 10 => Ok (tbc_pad text b)
   | _ => Err
   end)%Z.
Definition fl_unpad (p : Z) (text : bytes) : res bytes :=
  (match p with
   | 1 => Ok text
   | 2 => zero_unpad text
   | 3 => pkcs5_unpad text
   | 4 => pkcs7_unpad text
   | 5 => x923_unpad text
   | 6 => iso10126_unpad text
   | 7 | 8 | 9 => iso7816_unpad text
   | 10 => tbc_unpad text
   | _ => Err
   end)%Z.

(** ** Modes: types.go:253-269, encrypt_mode.go:362-399, 458-462, 490-494, 522-526 *)
(** a new object, one call into a fresh buffer *)
Definition one {S} (call : S -> bytes * bytes -> res (S * bytes)) (st : S) (src : bytes) : res bytes :=
  rbind (call st (repeat 0%Z (length src), src)) (fun r => Ok (snd r)).
(** the constructors panic on an iv of another length (mode/*.go, crypto/cipher) *)
Definition with_iv (c : cipher) (iv : bytes) (k : res bytes) : res bytes := if Nat.eqb (length iv) (bsz c) then k else Panic.
(** encrypt_mode.go:35-55 ModeCBC: cipher.NewCBCEncrypter of the standard library *)
Definition go_cbc (f : (bytes -> bytes) -> bytes -> list bytes -> list bytes) (E : bytes -> bytes) (c : cipher) (iv src : bytes) : res bytes :=
  if Nat.eqb (Nat.modulo (length src) (bsz c)) 0 then Ok (concat (f E iv (chunks (bsz c) src))) else Panic.
(** encrypt_mode.go:245-257, 273-285: which GCM; :308-319, 338-349: which CCM *)
Definition fl_gcm (c : cipher) (g : cfg) : res aead :=
  if (0 <? cfg_int TagSize g)%Z then gcm c 0 (cfg_int TagSize g) else if (0 <? cfg_int NonceSize g)%Z then gcm c (cfg_int NonceSize g) 0 else gcm c 0 0.
Definition fl_ccm (c : cipher) (g : cfg) : res (nat * nat) :=
  ccm_new c (if (0 <? cfg_int NonceSize g)%Z then cfg_int NonceSize g else 12%Z) (if (0 <? cfg_int TagSize g)%Z then cfg_int TagSize g else 16%Z).
(** encrypt_mode.go:13-360, 406-433, 466-478, 498-511: the Encrypt methods *)
Definition fl_mode_enc (c : cipher) (o : opts) (plain : bytes) : res bytes :=
  let iv := oIv o in
  (match oMode o with
   | 1 => one (mcall c false (ecb_enc_mem c false)) tt plain
   | 2 => with_iv c iv (go_cbc cbc_enc (enc c) c iv plain)
   | 3 => with_iv c iv (one (mcall c false (pcbc_enc_mem c false)) iv plain)
   | 4 | 7 => with_iv c iv (one (cfb_call c false) (cfb_new c iv) plain)
   | 5 => with_iv c iv (one (cfb1_call c false false) iv plain)
   | 6 => with_iv c iv (one (cfb8_call c false) iv plain)
   | 8 => rbind (ocfb_enc_new c (rand (bsz c)) (cfg_bool Resync (oCfg o))) (fun sp =>
          rbind (one (ocfb_call c false) (fst sp) plain) (fun ct => Ok (snd sp ++ ct)))
   | 9 => with_iv c iv (one (ofb_call c) (ofb_new c iv) plain)
   | 10 => with_iv c iv (one (ofb8_call c) (ofb8_new c iv) plain)
   | 11 => new_ctr_xor c iv plain
   | 12 => rbind (fl_gcm c (oCfg o)) (fun a => a_seal a iv plain (cfg_bytes Additional (oCfg o)))
   | 13 => rbind (fl_ccm c (oCfg o)) (fun nt => ccm_seal c (fst nt) (snd nt) false [] iv plain (cfg_bytes Additional (oCfg o)))
   | 14 => with_iv c iv (one (mcall c false (bc_enc_mem c false)) iv plain)
   | 15 => rbind (hctr_new c (cfg_bytes Tweak (oCfg o)) (cfg_bytes Hkey (oCfg o))) (fun h => hctr_encrypt h (repeat 0%Z (length plain)) plain)
   | _ => Err
   end)%Z.
(** the Decrypt methods: the plain text, and what the caller's data is afterwards. ModeCCM drops the error of the constructor and
    calls Open on nil (encrypt_mode.go:338-354). OCFB decrypts the prefix in place, inside the caller's data (:443-447, mode/ocfb.go); that is
    kept here when the call succeeds, and the other objects holding the same data slice are not updated. *)
Definition kept (data : bytes) (r : res bytes) : res (bytes * bytes) := rbind r (fun m => Ok (m, data)).
Definition fl_mode_dec (c : cipher) (o : opts) (data : bytes) : res (bytes * bytes) :=
  let iv := oIv o in
  (match oMode o with
   | 1 => kept data (one (mcall c false (ecb_dec_mem c false)) tt data)
   | 2 => kept data (with_iv c iv (go_cbc cbc_dec (dec c) c iv data))
   | 3 => kept data (with_iv c iv (one (mcall c false (pcbc_dec_mem c false)) iv data))
   | 4 | 7 => kept data (with_iv c iv (one (cfb_call c true) (cfb_new c iv) data))
   | 5 => kept data (with_iv c iv (one (cfb1_call c false true) iv data))
   | 6 => kept data (with_iv c iv (one (cfb8_call c true) iv data))
   | 8 => if (length data <? bsz c + 2)%nat then Err
          else rbind (ocfb_dec_new c (firstn (bsz c + 2) data) (cfg_bool Resync (oCfg o))) (fun sp =>
               rbind (one (ocfb_call c true) (fst sp) (skipn (bsz c + 2) data)) (fun m => Ok (m, snd sp ++ skipn (bsz c + 2) data)))
   | 9 => kept data (with_iv c iv (one (ofb_call c) (ofb_new c iv) data))
   | 10 => kept data (with_iv c iv (one (ofb8_call c) (ofb8_new c iv) data))
   | 11 => kept data (new_ctr_xor c iv data)
   | 12 => kept data (rbind (fl_gcm c (oCfg o)) (fun a => a_open a iv data (cfg_bytes Additional (oCfg o))))
   | 13 => match fl_ccm c (oCfg o) with
           | Ok nt => kept data (ccm_open c (fst nt) (snd nt) [] iv data (cfg_bytes Additional (oCfg o)))
           | _ => Panic
           end
   | 14 => kept data (with_iv c iv (one (mcall c false (bc_dec_mem c false)) iv data))
   | 15 => kept data (rbind (hctr_new c (cfg_bytes Tweak (oCfg o)) (cfg_bytes Hkey (oCfg o))) (fun h => hctr_decrypt h (repeat 0%Z (length data)) data))
   | _ => Err
   end)%Z.

(** encrypt_multiple.go:80-106 BlockEncrypt *)
Definition block_encrypt (c : cipher) (o : opts) (data : bytes) : res bytes :=
  rbind (fl_pad (oPad o) data (bsz c)) (fun padded =>
  if (negb (oPad o =? 1)%Z && negb (Nat.eqb (Nat.modulo (length padded) (bsz c)) 0))%bool then Err
  else fl_mode_enc c o padded).
(** encrypt_multiple.go:110-145 BlockDecrypt: the text and the caller's data afterwards *)
Definition block_decrypt (c : cipher) (o : opts) (data : bytes) : res (bytes * bytes) :=
  if (negb (oPad o =? 1)%Z && negb (Nat.eqb (Nat.modulo (length data) (bsz c)) 0))%bool then Err
  else rbind (fl_mode_dec c o data) (fun md => rbind (fl_unpad (oPad o) (fst md)) (fun m => Ok (m, snd md))).

(** ** The chained object *)
(** A slice: which array, and how many of its cells *)
Record slc := Slc { s_at : nat; s_len : nat }.
(** cryptobin.go:14-44; [fCfg] is the address of the Config *)
Record chain := Chain { fData : bytes; fKey : bytes; fIv : bytes; fMult : Z; fMode : Z; fPad : Z; fCfg : nat; fParsed : bytes; fHand : slc; fErrs : slc }.
(** The heap: configs, arrays of error codes and handler names, and the calls of handlers made so far. *)
Record world := World { wCfg : list cfg; wArr : list (list Z); wLog : list (Z * list Z) }.

Fixpoint set_nth {A} (i : nat) (v : A) (l : list A) : list A :=
  match l, i with [], _ => [] | _ :: t, 0 => v :: t | x :: t, S j => x :: set_nth j v t end.
Definition cells (w : world) (s : slc) : list Z := firstn (s_len s) (nth (s_at s) (wArr w) []).
(** append(s, x): in place while the array has room, else a new array; Go doubles the capacity of short slices *)
Definition sappend (w : world) (s : slc) (x : Z) : world * slc :=
  let a := nth (s_at s) (wArr w) [] in
  if s_len s <? length a
  then (World (wCfg w) (set_nth (s_at s) (set_nth (s_len s) x a) (wArr w)) (wLog w), Slc (s_at s) (S (s_len s)))
  else (World (wCfg w) (wArr w ++ [firstn (s_len s) a ++ x :: repeat 0%Z (s_len s - 1)]) (wLog w), Slc (length (wArr w)) (S (s_len s))).
(** cryptobin.go:47-56 NewCryptobin: AES is number 1, ECB 1, NoPadding 1 *)
Definition fl_new (w : world) : world * chain :=
  let n := length (wArr w) in
  (World (wCfg w ++ [[]]) (wArr w ++ [[]; []]) (wLog w), Chain [] [] [] 1 1 1 (length (wCfg w)) [] (Slc n 0) (Slc (S n) 0)).
(** tool/config Set through the pointer *)
Definition fl_put (w : world) (t : chain) (k : cname) (v : cval) : world :=
  World (set_nth (fCfg t) (cfg_set k v (nth (fCfg t) (wCfg w) [])) (wCfg w)) (wArr w) (wLog w).
(** error.go:9-13 AppendError of one error, on.go:12-16 OnError *)
Definition fl_append_error (w : world) (t : chain) (e : Z) : world * chain :=
  let (w', s) := sappend w (fErrs t) e in (w', Chain (fData t) (fKey t) (fIv t) (fMult t) (fMode t) (fPad t) (fCfg t) (fParsed t) (fHand t) s).
Definition fl_on_error (w : world) (t : chain) (h : Z) : world * chain :=
  let (w', s) := sappend w (fHand t) h in (w', Chain (fData t) (fKey t) (fIv t) (fMult t) (fMode t) (fPad t) (fCfg t) (fParsed t) s (fErrs t)).
(** from.go:37-47, 56-66: FromBase64String and FromHexString, [d] the decoded text *)
Definition set_data (t : chain) (d : bytes) : chain := Chain d (fKey t) (fIv t) (fMult t) (fMode t) (fPad t) (fCfg t) (fParsed t) (fHand t) (fErrs t).
Definition set_parsed (t : chain) (d : bytes) : chain := Chain (fData t) (fKey t) (fIv t) (fMult t) (fMode t) (fPad t) (fCfg t) d (fHand t) (fErrs t).
Definition fl_from_text (w : world) (t : chain) (d : option bytes) : world * chain :=
  match d with Some d => (w, set_data t d) | None => fl_append_error w t 1 end.
(** config.go (crypto):22-55 NewConfig *)
Definition fl_opts (w : world) (t : chain) : opts := Opts (fKey t) (fIv t) (fMode t) (fPad t) (nth (fCfg t) (wCfg w) []).

Variable reg : Z -> option (bytes -> res cipher).
Variable hpanic : Z -> bool.
(** on.go:20-24, error_event.go:35-41: every handler is called with the errors, until one panics *)
Fixpoint run_handlers (hs : list Z) (es : list Z) (log : list (Z * list Z)) : list (Z * list Z) * bool :=
  match hs with
  | [] => (log, true)
  | h :: t => if hpanic h then (log ++ [(h, es)], false) else run_handlers t es (log ++ [(h, es)])
  end.
Definition fl_trigger (w : world) (t : chain) : world * bool :=
  let (l, ok) := run_handlers (cells w (fHand t)) (cells w (fErrs t)) (wLog w) in (World (wCfg w) (wArr w) l, ok).
(** encrypt_multiple.go:157-176 and the like: NewCipher, then BlockEncrypt or BlockDecrypt *)
Definition fl_cipher (w : world) (t : chain) : res cipher := match reg (fMult t) with None => Err | Some mk => mk (fKey t) end.
(** encrypt.go:37-67, 71-101: the work under Recover. A returned error is code 1, a panic code 2. The result: world, object and whether
    the call returned (false: it panicked into the caller). *)
Definition fl_run (work : res (bytes * bytes)) (w : world) (t : chain) : world * chain * bool :=
  match work with
  | Ok (m, data) =>
    let t1 := set_parsed (set_data t data) m in
    let (w1, ok) := fl_trigger w t1 in
    if ok then (w1, t1, true)
    else let (w2, t2) := fl_append_error w1 (set_data t data) 2 in let (w3, ok) := fl_trigger w2 t2 in (w3, t2, ok)
  | Err =>
    let (w0, t0) := fl_append_error w t 1 in let (w1, ok) := fl_trigger w0 t0 in
    if ok then (w1, t0, true)
    else let (w2, t2) := fl_append_error w1 t 2 in let (w3, ok) := fl_trigger w2 t2 in (w3, t2, ok)
  | Panic => let (w2, t2) := fl_append_error w t 2 in let (w3, ok) := fl_trigger w2 t2 in (w3, t2, ok)
  end.
Definition fl_encrypt (w : world) (t : chain) : world * chain * bool :=
  fl_run (rbind (fl_cipher w t) (fun c => rbind (block_encrypt c (fl_opts w t) (fData t)) (fun m => Ok (m, fData t)))) w t.
Definition fl_decrypt (w : world) (t : chain) : world * chain * bool :=
  fl_run (rbind (fl_cipher w t) (fun c => block_decrypt c (fl_opts w t) (fData t))) w t.
End fl.
