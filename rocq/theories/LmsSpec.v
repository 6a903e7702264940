(** Specification of LM-OTS, LMS and HSS (C80-C87), after RFC 8554. *)
From Verif Require Import Base WordModel LmsModel.
Set Implicit Arguments. Unset Strict Implicit.
Local Open Scope nat_scope.

(** cs are digits to the base 2^w, the most significant first, and their number is v. *)
Definition digits (w : Z) (cs : list Z) (v : Z) : Prop :=
  Forall (fun c => 0 <= c < 2 ^ w)%Z cs /\ fold_left (fun a c => a * 2 ^ w + c)%Z cs 0%Z = v.
(** The checksum of RFC 8554, 4.4. *)
Definition checksum (w : Z) (cs : list Z) : Z := fold_right (fun c s => 2 ^ w - 1 - c + s)%Z 0%Z cs.

(** A usable LM-OTS parameter set: the hash has N bytes, the window is 1, 2, 4 or 8, the P coefficients are those of the digest
    and of a checksum in 16 - LS bits, which no checksum exceeds, and the signature length is 4 + N + P * N. *)
Definition ots_wf (p : ots_param) : Prop :=
  o_size p = o_n p /\ 0 < o_n p /\ (forall m, length (o_hash p m) = o_n p) /\ (forall m, bytes_ok (o_hash p m)) /\
  (o_w p = 1 \/ o_w p = 2 \/ o_w p = 4 \/ o_w p = 8)%Z /\ (0 <= o_ls p < 16)%Z /\
  (Z.of_nat (o_p p) * o_w p = 8 * Z.of_nat (o_n p) + (16 - o_ls p))%Z /\
  (8 / o_w p * Z.of_nat (o_n p) * (2 ^ o_w p - 1) < 2 ^ (16 - o_ls p))%Z /\
  ots_sig_length p = 4 + o_n p + o_p p * o_n p /\ (0 <= o_type p < 2 ^ 32)%Z.
(** A usable LMS parameter set, together with the LM-OTS one. *)
Definition lms_wf (l : lms_param) (p : ots_param) : Prop := ots_wf p /\ l_m l = o_n p /\ l_h l <= 31 /\ (0 <= l_type l < 2 ^ 32)%Z.
(** Registered under their own codes. *)
Definition reg_ots (R : registry) (p : ots_param) : Prop := get_ots R (o_type p) = Some p.
Definition reg_lms (R : registry) (l : lms_param) : Prop := get_lms R (l_type l) = Some l.
(** All registered sets are usable, with one hash size n. *)
Definition reg_wf (R : registry) (n : nat) : Prop :=
  (forall t p, get_ots R t = Some p -> o_type p = t /\ ots_wf p /\ o_n p = n) /\
  (forall t l, get_lms R t = Some l -> l_type l = t /\ l_m l = n /\ l_h l <= 31 /\ (0 <= t < 2 ^ 32)%Z).

Section rfc.
  Variable p : ots_param.
  Variable id seed : bytes.
  Let H := o_hash p.

  (** n steps of a hash chain from position a *)
  Fixpoint chain (q : Z) (i a n : nat) (x : bytes) : bytes :=
    match n with
    | O => x
    | S n' => chain q i (S a) n' (H (id ++ be_bytes 4 q ++ be_bytes 2 (Z.of_nat i) ++ [Z.of_nat a mod 256]%Z ++ x))
    end.
  (** RFC 8554, appendix A *)
  Definition secret (q : Z) (i : nat) : bytes := H (id ++ be_bytes 4 q ++ be_bytes 2 (Z.of_nat i) ++ [255]%Z ++ seed).
  (** The bytes whose hash is the one-time public key, given the ends of the chains; RFC 8554, 4.3 *)
  Definition pblc (q : Z) (ends : nat -> bytes) : bytes := id ++ be_bytes 4 q ++ [128; 128]%Z ++ concat (map ends (seq 0 (o_p p))).
  Definition chain_end (q : Z) (i : nat) : bytes := chain q i 0 (Z.to_nat (2 ^ o_w p - 1)) (secret q i).
  Definition ots_public (q : Z) : bytes := H (pblc q (chain_end q)).
  (** the digest that is signed; RFC 8554, 4.5 *)
  Definition msg_digest (q : Z) (c msg : bytes) : bytes := H (id ++ be_bytes 4 q ++ [129; 129]%Z ++ c ++ msg).

  (** The tree of height h: node r has the children 2r and 2r+1, the leaves are 2^h ... 2^(h+1)-1; RFC 8554, 5.3. The first argument is
      the height of the node. *)
  Fixpoint node (h k : nat) (r : Z) : bytes :=
    match k with
    | O => H (id ++ be_bytes 4 r ++ [130; 130]%Z ++ ots_public (r - 2 ^ Z.of_nat h))
    | S k' => H (id ++ be_bytes 4 r ++ [131; 131]%Z ++ node h k' (2 * r) ++ node h k' (2 * r + 1))
    end.
  (** what is hashed at that node *)
  Definition node_input (h k : nat) (r : Z) : bytes :=
    match k with
    | O => id ++ be_bytes 4 r ++ [130; 130]%Z ++ ots_public (r - 2 ^ Z.of_nat h)
    | S k' => id ++ be_bytes 4 r ++ [131; 131]%Z ++ node h k' (2 * r) ++ node h k' (2 * r + 1)
    end.
  Definition tree_root (h : nat) : bytes := node h h 1.
  (** the sibling at height k of the ancestor of leaf q *)
  Definition sibling (h : nat) (q : Z) (k : nat) : bytes :=
    let r := ((2 ^ Z.of_nat h + q) / 2 ^ Z.of_nat k)%Z in node h k (if Z.even r then r + 1 else r - 1).

  (** What a verifier hashes at height k, for a leaf q with one-time public key kc and the siblings path. *)
  Fixpoint up_input (h : nat) (q : Z) (kc : bytes) (path : list bytes) (k : nat) : bytes :=
    let r := ((2 ^ Z.of_nat h + q) / 2 ^ Z.of_nat k)%Z in
    match k with
    | O => id ++ be_bytes 4 r ++ [130; 130]%Z ++ kc
    | S k' =>
        let below := H (up_input h q kc path k') in
        let sib := nth k' path [] in
        id ++ be_bytes 4 r ++ [131; 131]%Z ++
          (if Z.even ((2 ^ Z.of_nat h + q) / 2 ^ Z.of_nat k') then below ++ sib else sib ++ below)
    end.
End rfc.

(** cs are the coefficients signed for the digest d: its digits to the base 2^w, and those of their checksum. *)
Definition winternitz (p : ots_param) (d : bytes) (cs : list Z) : Prop :=
  exists a b, cs = a ++ b /\ digits (o_w p) a (be_val d) /\ digits (o_w p) b (checksum (o_w p) a) /\
    (Z.of_nat (length a) * o_w p = 8 * Z.of_nat (length d))%Z /\ length cs = o_p p.
(** The one-time signature of RFC 8554, 4.5, with nonce c. *)
Definition rfc_ots_sig (p : ots_param) (id seed : bytes) (q : Z) (c msg : bytes) (s : ots_sig) : Prop :=
  og_typ s = p /\ og_c s = c /\ length (og_y s) = o_p p /\
  exists cs, winternitz p (msg_digest p id q c msg) cs /\
    forall i, i < o_p p -> nth i (og_y s) [] = chain p id q i 0 (Z.to_nat cs.[i]) (secret p id seed q i).
(** The LMS signature of RFC 8554, 5.4, with leaf q. *)
Definition rfc_lms_sig (l : lms_param) (p : ots_param) (id seed : bytes) (q : Z) (c msg : bytes) (s : lms_sig) : Prop :=
  g_typ s = l /\ g_q s = q /\ rfc_ots_sig p id seed q c msg (g_ots s) /\ g_path s = map (sibling p id seed (l_h l) q) (seq 0 (l_h l)).
(** What the verifier computes at the end of chain i, for the coefficients cs. *)
Definition verified_end (p : ots_param) (id : bytes) (q : Z) (s : ots_sig) (cs : list Z) (i : nat) : bytes :=
  chain p id q i (Z.to_nat cs.[i]) (Z.to_nat (2 ^ o_w p - 1) - Z.to_nat cs.[i]) (nth i (og_y s) []).
(** Signatures with the parts and lengths of the parameter sets. *)
Definition shaped (p : ots_param) (s : ots_sig) : Prop :=
  og_typ s = p /\ length (og_c s) = o_n p /\ length (og_y s) = o_p p /\ Forall (fun y => length y = o_n p) (og_y s).
Definition lshaped (l : lms_param) (p : ots_param) (s : lms_sig) : Prop :=
  g_typ s = l /\ shaped p (g_ots s) /\ length (g_path s) = l_h l /\ Forall (fun y => length y = o_n p) (g_path s) /\ (0 <= g_q s < 2 ^ Z.of_nat (l_h l))%Z.
(** Registered parameter sets with hashes of n bytes, an identifier and a seed of the right lengths. *)
Definition lkey (R : registry) (n : nat) (l : lms_param) (p : ots_param) (id seed : bytes) : Prop :=
  lms_wf l p /\ reg_ots R p /\ reg_lms R l /\ o_n p = n /\ length id = 16 /\ length seed = l_m l.
(** Two different inputs of the hash with one output. *)
Definition collision (p : ots_param) (a b : bytes) : Prop := a <> b /\ o_hash p a = o_hash p b.

(** * Histories *)
(** One call of Sign with its random source, option C and message. *)
Record call := Call { c_rng : option bytes; c_opt : option bytes; c_msg : bytes }.
(** The nonce the call uses has n bytes and is available. *)
Definition good_call (n : nat) (c : call) : Prop := exists x, nonce (c_opt c) (c_rng c) = Ok x /\ length x = n /\ bytes_ok x.

(** LM-OTS: calls in order, with the outcomes *)
Fixpoint ots_calls (k : ots_priv) (cs : list call) : list (res ots_sig) :=
  match cs with
  | [] => []
  | c :: cs' => let '(k', r) := ots_sign k (c_rng c) (c_opt c) (c_msg c) in r :: ots_calls k' cs'
  end.

(** What a program may do with an LMS private key: sign, save and load it, compute the tree again. *)
Inductive lms_op := OSign (c : call) | OReload | OPrecompute.
(** The key after the operations and the signatures made, with their messages. *)
Fixpoint lms_run (R : registry) (k : lms_priv) (ops : list lms_op) : lms_priv * list (call * lms_sig) :=
  match ops with
  | [] => (k, [])
  | OSign c :: ops' =>
      let '(k', r) := lms_sign k (c_rng c) (c_opt c) (c_msg c) in
      let '(k'', l) := lms_run R k' ops' in
      (k'', match r with Ok s => (c, s) :: l | _ => l end)
  | OReload :: ops' =>
      lms_run R (match lms_priv_parse R (lms_priv_bytes k) with Ok k' => k' | _ => k end) ops'
  | OPrecompute :: ops' => lms_run R (lms_precompute k) ops'
  end.

(** HSS: the random sources and messages of the Sign calls, and whether the key is saved and loaded before the call. *)
Fixpoint hss_run (R : registry) (k : hss_priv) (cs : list (bool * option bytes * bytes)) : list (res bytes) :=
  match cs with
  | [] => []
  | (reload, rng, msg) :: cs' =>
      let k := if reload then
        match rbind (hss_priv_bytes k) (hss_priv_parse R) with Ok k' => k' | _ => k end else k in
      let '(k', r) := hss_sign k rng msg in r :: hss_run R k' cs'
  end.
