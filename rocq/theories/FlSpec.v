(** What a caller of the chained API sees: which settings fit a text, what comes back after a round trip, what a call reports, and, for any
    program that builds objects from one another, which objects share their options and their list of errors. *)
From Verif Require Import Base BlockModeModel FlModel.
Set Implicit Arguments. Unset Strict Implicit.
Local Open Scope nat_scope.

(** ** Settings: the public numbers of types.go *)
(** ECB, CBC, PCBC, BC take whole blocks; CFB, CFB1, CFB8, CFB128, OFB, OFB8, CTR take any text. *)
Definition block_mode (m : Z) : Prop := In m [1; 2; 3; 14]%Z.
Definition stream_mode (m : Z) : Prop := In m [4; 5; 6; 7; 9; 10; 11]%Z.
Definition known_padding (p : Z) : Prop := In p [1; 2; 3; 4; 5; 6; 7; 8; 9; 10]%Z.
Definition iv_fits (m : Z) (iv : bytes) (bs : nat) : Prop := m = 1%Z \/ length iv = bs.
(** A text of n bytes: without padding the block modes need whole blocks; PKCS5 always pads to a multiple of 8, whatever the block size;
    the other paddings fit every text. *)
Definition text_fits (m p : Z) (n bs : nat) : Prop :=
  (p = 1%Z -> block_mode m -> n mod bs = 0) /\ (p = 3%Z -> ((n / 8 + 1) * 8) mod bs = 0).
(** What decryption gives back: the text, but zero padding loses the zeros at its end. *)
Definition restored (p : Z) (text back : bytes) : Prop :=
  if (p =? 2)%Z then (exists n, text = back ++ repeat 0%Z n) /\ (back = [] \/ last back 0%Z <> 0%Z) else back = text.

(** The authenticated and wide-block modes, in the same terms: what one needs of a nonce and a text. *)
Definition aead_ok (a : aead) (tag : nat) : Prop :=
  forall nonce pt ad ct, a_seal a nonce pt ad = Ok ct -> length ct = length pt + tag /\ a_open a nonce ct ad = Ok pt.

Definition options (w : world) (t : chain) (k : cname) : option cval := cfg_get k (nth (fCfg t) (wCfg w) []).
Definition same_settings (w : world) (t : chain) (w' : world) (t' : chain) : Prop :=
  fKey t' = fKey t /\ fIv t' = fIv t /\ fMult t' = fMult t /\ fMode t' = fMode t /\ fPad t' = fPad t /\
  forall k, options w' t' k = options w t k.

(** ** What a call does *)
Definition errors (w : world) (t : chain) : list Z := cells w (fErrs t).
Definition handlers (w : world) (t : chain) : list Z := cells w (fHand t).
Definition told (hs : list Z) (es : list Z) : list (Z * list Z) := map (fun h => (h, es)) hs.
Definition quiet (hpanic : Z -> bool) (w : world) (t : chain) : Prop := Forall (fun h => hpanic h = false) (handlers w t).
(** the settings of the object that comes back are those of the object it was called on *)
Definition keeps_settings (t t' : chain) : Prop :=
  fKey t' = fKey t /\ fIv t' = fIv t /\ fMult t' = fMult t /\ fMode t' = fMode t /\ fPad t' = fPad t /\ fCfg t' = fCfg t.
(** Success: the result is stored, no error is added. Failure: the result of the last success is still there, one error is added.
    In both cases every handler is told all errors so far. *)
Definition call_succeeded (w : world) (t : chain) (r : world * chain * bool) (out : bytes) : Prop :=
  snd r = true /\ fParsed (snd (fst r)) = out /\ keeps_settings t (snd (fst r)) /\ errors (fst (fst r)) (snd (fst r)) = errors w t /\
  wLog (fst (fst r)) = wLog w ++ told (handlers w t) (errors w t).
Definition call_failed (w : world) (t : chain) (r : world * chain * bool) : Prop :=
  exists e, snd r = true /\ fParsed (snd (fst r)) = fParsed t /\ fData (snd (fst r)) = fData t /\ keeps_settings t (snd (fst r)) /\
  errors (fst (fst r)) (snd (fst r)) = errors w t ++ [e] /\
  wLog (fst (fst r)) = wLog w ++ told (handlers w t) (errors w t ++ [e]).

(** ** Programs *)
(** Every method returns a new object; a program may keep all of them and call methods on any. Object 0 is the package's default object,
    from which FromString and the like start. *)
Inductive op :=
  | New
  | With (i : nat) (f : chain -> chain)          (* setters of data, key, iv, cipher, mode, padding *)
  | Put (i : nat) (k : cname) (v : cval)         (* setters that store an option *)
  | AddError (i : nat) (e : Z)
  | OnError (i : nat) (h : Z)
  | Encrypt (i : nat) | Decrypt (i : nat).
(** A setter leaves the rest of the object alone. *)
Definition setter (f : chain -> chain) : Prop := forall t, fCfg (f t) = fCfg t /\ fHand (f t) = fHand t /\ fErrs (f t) = fErrs t.
Definition source (o : op) : option nat :=
  match o with New => None | With i _ | Put i _ _ | AddError i _ | OnError i _ | Encrypt i | Decrypt i => Some i end.
Definition legal (n : nat) (o : op) : Prop :=
  match source o with None => True | Some i => i < n end /\ match o with With _ f => setter f | _ => True end.

Section prog.
  Variable gcm : cipher -> Z -> Z -> res aead.
  Variable rand : nat -> bytes.
  Variable reg : Z -> option (bytes -> res cipher).
  Variable hpanic : Z -> bool.
  Definition obj (s : world * list chain) (i : nat) : chain := nth i (snd s) (snd (fl_new (World [] [] []))).
  (** the new object is added at the end *)
  Definition step (s : world * list chain) (o : op) : world * list chain :=
    let (w, t) := match o with
                  | New => fl_new (fst s)
                  | With i f => (fst s, f (obj s i))
                  | Put i k v => (fl_put (fst s) (obj s i) k v, obj s i)
                  | AddError i e => fl_append_error (fst s) (obj s i) e
                  | OnError i h => fl_on_error (fst s) (obj s i) h
                  | Encrypt i => fst (fl_encrypt gcm rand reg hpanic (fst s) (obj s i))
                  | Decrypt i => fst (fl_decrypt gcm reg hpanic (fst s) (obj s i))
                  end in (w, snd s ++ [t]).
  Definition start : world * list chain := let (w, t) := fl_new (World [] [] []) in (w, [t]).
  Definition exec (p : list op) : world * list chain := fold_left step p start.
End prog.
(** Read off the program alone: which New (or the default) each object descends from. *)
Definition origins_step (r : list nat) (o : op) : list nat :=
  r ++ [match source o with None => length r | Some i => nth i r 0 end].
Definition origins (p : list op) : list nat := fold_left origins_step p [0].
Fixpoint legal_from (n : nat) (p : list op) : Prop := match p with [] => True | o :: t => legal n o /\ legal_from (S n) t end.
Definition legal_prog (p : list op) : Prop := legal_from 1 p.

(** An object some program has, in the heap at the end of that program. *)
Definition reachable gcm rand reg hpanic (w : world) (t : chain) : Prop :=
  exists p i, legal_prog p /\ i <= length p /\ w = fst (exec gcm rand reg hpanic p) /\ t = obj (exec gcm rand reg hpanic p) i.
(** Every object with these settings that holds the text [ct] decrypts it to the original. *)
Definition decrypts_everywhere gcm rand reg hpanic (w : world) (t : chain) (ct : bytes) : Prop :=
  forall w' t', reachable gcm rand reg hpanic w' t' -> quiet hpanic w' t' -> same_settings w t w' t' -> fData t' = ct ->
  exists m, restored (fPad t) (fData t) m /\ call_succeeded w' t' (fl_decrypt gcm reg hpanic w' t') m.
Definition never_decrypts gcm rand reg hpanic (w : world) (t : chain) (ct : bytes) : Prop :=
  forall w' t', reachable gcm rand reg hpanic w' t' -> quiet hpanic w' t' -> same_settings w t w' t' -> fData t' = ct ->
  call_failed w' t' (fl_decrypt gcm reg hpanic w' t').
(** The tag length of GCM and CCM: the option tag_size when positive, else 16. *)
Definition tag_len (v : option cval) : nat := match v with Some (CInt n) => if (0 <? n)%Z then Z.to_nat n else 16 | _ => 16 end.
(** The GCM of the standard library, as far as it is used: the second number is the tag size, 0 for the default *)
Definition gcm_lawful (gcm : cipher -> Z -> Z -> res aead) : Prop :=
  forall c ns ts a, gcm c ns ts = Ok a -> aead_ok a (tag_len (Some (CInt ts))).
Definition rand_ok (rand : nat -> bytes) : Prop := forall n, length (rand n) = n /\ bytes_ok (rand n).
(** In the rest [q] of a program, options are only stored through objects that do not descend from [a]. *)
Fixpoint puts_elsewhere (r : list nat) (a : nat) (q : list op) : Prop :=
  match q with
  | [] => True
  | o :: t => match o with Put i _ _ => nth i r 0 <> a | _ => True end /\ puts_elsewhere (origins_step r o) a t
  end.
(** ... and nothing that can report an error is called on a descendant of [a] that has fewer than [n] errors. *)
Section quietly.
  Variable gcm : cipher -> Z -> Z -> res aead.
  Variable rand : nat -> bytes.
  Variable reg : Z -> option (bytes -> res cipher).
  Variable hpanic : Z -> bool.
  Fixpoint no_branching (s : world * list chain) (r : list nat) (a n : nat) (q : list op) : Prop :=
    match q with
    | [] => True
    | o :: t => match o with AddError i _ | Encrypt i | Decrypt i => nth i r 0 <> a \/ n <= length (errors (fst s) (obj s i)) | _ => True end /\
                no_branching (step gcm rand reg hpanic s o) (origins_step r o) a n t
    end.
End quietly.
