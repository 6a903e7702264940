(** Properties C23 (Marshal) and C24 (Unmarshal) of the bencode package. *)
From Coq Require Import Sorting.Sorted Sorting.Permutation.
From Verif Require Import Base BencodeSpec BencodeModel BencodeProofs.
Set Implicit Arguments. Unset Strict Implicit.
Local Open Scope nat_scope.

(** C23: Marshal writes the bencoding of the value, the only one there is. *)
Theorem C23_marshal : forall v, distinct v -> forall s, BE v s <-> s = encode v.
Proof. intros v D s. split; [apply BE_unique|intros ->; apply encode_BE; exact D]. Qed.
Print Assumptions C23_marshal.

(** Two values with the same encoding are the same up to the order in which dictionaries are listed. *)
Theorem C23_round_trip : forall v, distinct v -> short max_str v ->
  exists v', unmarshal (encode v) = Ok v' /\ same v v' /\ encode v' = encode v.
Proof.
  intros v D S. exists (canon v). split; [|split; [apply canon_same|apply canon_encode]].
  assert (B : BE (canon v) (encode v)).
  { rewrite <- canon_encode. apply encode_BE. pose proof (canon_sorted D) as H. revert H. unfold sorted, distinct. clear.
    induction (canon v) as [z|s|l IH|m IH] using bval_rect'; auto.
    - rewrite !all_dicts_list. rewrite !Forall_forall in *. auto.
    - rewrite !all_dicts_dict. intros [H1 H2]. split; [apply sorted_nodup; auto|]. rewrite !Forall_forall in *. auto. }
  unfold unmarshal. rewrite <- (app_nil_r (encode v)) at 2.
  rewrite (@complete (canon v) (encode v) (fuel_for (encode v)) []); auto.
  - apply canon_sorted; auto.
  - apply canon_short; auto.
  - unfold fuel_for. lia.
Qed.
Print Assumptions C23_round_trip.
Theorem C23_prefix_free : forall v w s t, distinct v -> distinct w -> short max_str v -> short max_str w ->
  encode v ++ s = encode w ++ t -> encode v = encode w /\ s = t.
Proof.
  assert (K : forall v, distinct v -> BE (canon v) (encode v)).
  { intros v D. rewrite <- canon_encode. apply encode_BE. pose proof (canon_sorted D) as H. revert H. unfold sorted, distinct. clear.
    induction (canon v) as [z|s|l IH|m IH] using bval_rect'; auto.
    - rewrite !all_dicts_list. rewrite !Forall_forall in *. auto.
    - rewrite !all_dicts_dict. intros [H1 H2]. split; [apply sorted_nodup; auto|]. rewrite !Forall_forall in *. auto. }
  intros v w s t Dv Dw Sv Sw E.
  set (f := 2 * length (encode v) + 2 * length (encode w)).
  pose proof (@complete (canon v) (encode v) f s (K v Dv) (canon_sorted Dv) (canon_short Sv) ltac:(unfold f; lia)) as P1.
  pose proof (@complete (canon w) (encode w) f t (K w Dw) (canon_sorted Dw) (canon_short Sw) ltac:(unfold f; lia)) as P2.
  rewrite E in P1. rewrite P1 in P2. injection P2 as E1 E2. split; [|exact E2].
  rewrite <- (canon_encode v), <- (canon_encode w), E1. reflexivity.
Qed.
Print Assumptions C23_prefix_free.

(** C24: Unmarshal into an any accepts exactly the canonical encodings (whose strings are not too long), and
    returns the value; everything else is an error, and the decoder always terminates. *)
Theorem C24_accepts : forall s v, unmarshal s = Ok v <-> BE v s /\ sorted v /\ short max_str v.
Proof.
  intros s v. split.
  - unfold unmarshal. destruct (p_value (fuel_for s) s) as [x [|y r]| | |] eqn:P; try discriminate. intros H. injection H as <-.
    destruct (sound (fuel_for s)) as [H _]. destruct (H s) as [Hv _]. destruct (Hv _ _ P) as [t [E [B [S L]]]].
    rewrite app_nil_r in E. subst t. auto.
  - intros [B [S L]]. unfold unmarshal. rewrite <- (app_nil_r s) at 2. rewrite (@complete v s (fuel_for s) [] B S L) by (unfold fuel_for; lia). reflexivity.
Qed.
Print Assumptions C24_accepts.
Theorem C24_total : forall s, p_value (fuel_for s) s <> PFuel /\ unmarshal s <> Panic.
Proof.
  intros s. split.
  - destruct (fuel_ok (fuel_for s)) as [H _]. specialize (H s). intros E. rewrite E in H. apply H. unfold fuel_for. lia.
  - unfold unmarshal. destruct (p_value (fuel_for s) s) as [x [|y r]| | |]; discriminate.
Qed.
Print Assumptions C24_total.
Theorem C24_reencode : forall s v, unmarshal s = Ok v -> encode v = s.
Proof. intros s v H. apply C24_accepts in H. destruct H as [B _]. symmetry. apply BE_unique. exact B. Qed.
Print Assumptions C24_reencode.
(** Decoding into a Bytes keeps the text of the value. *)
Theorem C24_raw : forall v s, BE v s -> short (2 ^ 63 - 1) v -> unmarshal_raw s = Ok s.
Proof.
  intros v s B L. unfold unmarshal_raw. rewrite <- (app_nil_r s) at 2. rewrite (@raw v s (fuel_for s) [] B L) by (unfold fuel_for; lia). reflexivity.
Qed.
Print Assumptions C24_raw.
(** ... and so does the part of an input that holds more: exactly one value is taken. *)
Theorem C24_raw_one : forall v s r, BE v s -> short (2 ^ 63 - 1) v -> r_one (fuel_for (s ++ r)) (s ++ r) = PVal s r.
Proof. intros v s r B L. apply (@raw v s _ r B L). unfold fuel_for. rewrite app_length. lia. Qed.
Print Assumptions C24_raw_one.
(** Decoding into a map[string]any agrees on canonical input ... *)
Theorem C24_map : forall m s, unmarshal s = Ok (BDict m) -> unmarshal_map s = Ok m.
Proof.
  intros m s H. apply C24_accepts in H. destruct H as [B [S L]]. inversion B as [| | |m0 m' bs P K F]; subst.
  apply all_dicts_dict in S. apply short_dict in L. destruct S as [K' S].
  assert (m' = m) by (apply sorted_unique; auto; apply Permutation_sym; auto). subst m'.
  cbn [app unmarshal_map]. fold (items m bs).
  rewrite (@map_complete m bs [] _ []); auto.
  - rewrite Forall_map. exact S.
  - cbn [app]. apply sorted_nodup. exact K.
  - unfold fuel_for. rewrite app_length. cbn [length]. lia.
Qed.
Print Assumptions C24_map.
(** ... but accepts more: keys in any order (every listing of a dictionary with distinct keys decodes), *)
Theorem C24_map_any_order : forall m bs, Forall2 BE (map snd m) bs -> Forall sorted (map snd m) -> short max_str (BDict m) ->
  NoDup (map fst m) ->
  unmarshal_map ([100%Z] ++ concat (map (fun kb => be_str (fst kb) ++ snd kb) (combine (map fst m) bs)) ++ [101%Z]) = Ok m.
Proof.
  intros m bs F S L N. apply short_dict in L. cbn [app unmarshal_map]. fold (items m bs).
  rewrite (@map_complete m bs [] _ []); auto. unfold fuel_for. rewrite app_length. cbn [length]. lia.
Qed.
Print Assumptions C24_map_any_order.
(** a repeated key (the last value wins), a list of one string or an empty dictionary in place of a key:
    d1:b0:1:a0:e, d1:a1:x1:a1:ye, dl1:ae1:xe, dde1:xe *)
Theorem C24_map_refuted :
  unmarshal_map [100;49;58;98;48;58;49;58;97;48;58;101]%Z = Ok [([98]%Z, BStr []); ([97]%Z, BStr [])] /\
  unmarshal_map [100;49;58;97;49;58;120;49;58;97;49;58;121;101]%Z = Ok [([97]%Z, BStr [121]%Z)] /\
  unmarshal_map [100;108;49;58;97;101;49;58;120;101]%Z = Ok [([97]%Z, BStr [120]%Z)] /\
  unmarshal_map [100;100;101;49;58;120;101]%Z = Ok [([], BStr [120]%Z)] /\
  (forall s, In s [[100;49;58;98;48;58;49;58;97;48;58;101]; [100;49;58;97;49;58;120;49;58;97;49;58;121;101];
                   [100;108;49;58;97;101;49;58;120;101]; [100;100;101;49;58;120;101]]%Z -> unmarshal s = Err).
Proof.
  repeat (split; [vm_compute; reflexivity|]). intros s H. cbn [In] in H.
  destruct H as [<-|[<-|[<-|[<-|[]]]]]; vm_compute; reflexivity.
Qed.
Print Assumptions C24_map_refuted.
(** Decoding into a bool takes any text between i and e with an acceptable first digit for true: "ie", "i1ze". *)
Theorem C24_bool_refuted :
  unmarshal_bool [105;101]%Z = Ok true /\ unmarshal_bool [105;49;122;101]%Z = Ok true /\
  unmarshal [105;101]%Z = Err /\ unmarshal [105;49;122;101]%Z = Err.
Proof. repeat (split; [vm_compute; reflexivity|]). vm_compute. reflexivity. Qed.
Print Assumptions C24_bool_refuted.
(** A bool that was marshalled is read back. *)
Theorem C24_bool : forall b : bool, unmarshal_bool (encode (BInt (if b then 1 else 0))) = Ok b.
Proof. intros []; reflexivity. Qed.
Print Assumptions C24_bool.

(** Non-vacuity: {"b": [-12, "x"], "a": 2^70} with the keys listed in the wrong order. *)
Definition ex_v : bval := BDict [([98]%Z, BList [BInt (-12); BStr [120]%Z]); ([97]%Z, BInt (2 ^ 70))].
Example C23_instance : distinct ex_v /\ short max_str ex_v /\ ~ sorted ex_v /\
  encode ex_v = [100; 49;58;97; 105;49;49;56;48;53;57;49;54;50;48;55;49;55;52;49;49;51;48;51;52;50;52;101;
                 49;58;98; 108;105;45;49;50;101;49;58;120;101; 101]%Z /\
  unmarshal (encode ex_v) = Ok (BDict [([97]%Z, BInt (2 ^ 70)); ([98]%Z, BList [BInt (-12); BStr [120]%Z])]).
Proof.
  split; [cbn; repeat constructor; cbn; intuition discriminate|].
  split; [cbn; unfold max_str; repeat split; lia|].
  split; [|split; vm_compute; reflexivity].
  cbn. intros [H _]. inversion H as [|? ? _ F]; subst. inversion F as [|? ? L _]; subst. apply bltb_blt in L. discriminate.
Qed.
Example C24_instance : (* 00:  1:  i-0e  i03e  di1e0:e  d1:b0:1:a0:e  le1  e *)
  map unmarshal [[48;48;58]; [49;58]; [105;45;48;101]; [105;48;51;101]; [100;105;49;101;48;58;101]; [100;49;58;98;48;58;49;58;97;48;58;101]; [108;101;49]; [101]]%Z
  = repeat Err 8.
Proof. vm_compute. reflexivity. Qed.
