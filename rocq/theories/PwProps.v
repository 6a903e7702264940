(** Password hashes: C147 argon2fmt, C148 argon2, C149 passhash9. *)
From Coq Require Import String.
From Verif Require Import Base BigModel ElgProofs BencodeSpec PwModel PwSpec PwProofs.
Set Implicit Arguments. Unset Strict Implicit.
Local Open Scope Z_scope.

Lemma name_type_variant plain mode name : variant mode name -> name_type plain name = Some mode.
Proof. intros [[-> ->]|[[-> ->]|[-> ->]]]; destruct plain; reflexivity. Qed.
Lemma name_type_inv n mode : name_type false n = Some mode -> variant mode n.
Proof.
  unfold name_type, variant. cbn [andb]. destruct (bytes_eqb n name_id) eqn:E1; [apply bytes_eqb_eq in E1; intros [= <-]; auto|]. destruct (bytes_eqb n name_i) eqn:E2; [apply bytes_eqb_eq in E2; intros [= <-]; auto|].
  destruct (bytes_eqb n name_d) eqn:E3; [apply bytes_eqb_eq in E3; intros [= <-]; auto|]. discriminate.
Qed.
Lemma variant_no_dollar mode name : variant mode name -> ~ In 36 name.
Proof. intros [[-> ->]|[[-> ->]|[-> ->]]]; cbn; intuition discriminate. Qed.
Lemma type_name_variant plain mode name : variant mode name -> type_name plain mode = Some (name, mode).
Proof. intros [[-> ->]|[[-> ->]|[-> ->]]]; destruct plain; reflexivity. Qed.
Lemma type_name_inv typ n mode : type_name false typ = Some (n, mode) -> mode = typ /\ variant typ n.
Proof.
  unfold type_name, variant. cbn [andb]. destruct (Z.eqb_spec typ 2) as [->|]; [intros [= <- <-]; auto|]. destruct (Z.eqb_spec typ 1) as [->|]; [intros [= <- <-]; auto|]. destruct (Z.eqb_spec typ 0) as [->|]; [intros [= <- <-]; auto|]. discriminate.
Qed.
Lemma clean_decimal z : clean (decimal z).
Proof. unfold clean. repeat split; apply decimal_not; lia. Qed.
Lemma clean_base64 l : bytes_ok l -> clean (base64 l).
Proof. intros O. rewrite <- b64enc_spec by exact O. unfold clean. repeat split; apply b64_not; auto. Qed.
Lemma raw_base64 l : bytes_ok l -> b64raw (base64 l) = l.
Proof. intros O. rewrite <- b64enc_spec by exact O. now apply raw_enc. Qed.
Lemma nonempty_eqb (l : bytes) : l <> [] -> Nat.eqb (List.length l) 0 = false.
Proof. destruct l; [congruence|reflexivity]. Qed.
Lemma in_app2 (c : Z) a b : ~ In c a -> ~ In c b -> ~ In c (a ++ b).
Proof. intros N1 N2 I. apply in_app_or in I. tauto. Qed.

(** the fields of a PHC string reach the check *)
Lemma fmt_fields A name m t p s k pw : ~ In 36 name -> clean m -> clean t -> clean p -> clean s -> clean k -> pw <> [] ->
  fmt_compare A (phc name m t p s k) pw = check_key A false pw name (atoi m) (atoi t) (atoi p) s k.
Proof.
  intros Nn (M1 & M2 & M3) (T1 & T2 & T3) (P1 & P2 & P3) (S1 & _) (K1 & _) Npw. unfold fmt_compare. rewrite (nonempty_eqb Npw), Bool.orb_false_r. unfold phc.
  change (str "$") with [36]. change (str "$v=19$m=") with (36 :: [118; 61; 49; 57] ++ 36 :: [109; 61]). change (str ",t=") with [44; 116; 61]. change (str ",p=") with [44; 112; 61].
  replace ([36] ++ name ++ (36 :: [118; 61; 49; 57] ++ 36 :: [109; 61]) ++ m ++ [44; 116; 61] ++ t ++ [44; 112; 61] ++ p ++ [36] ++ s ++ [36] ++ k)
    with ([] ++ 36 :: name ++ 36 :: [118; 61; 49; 57] ++ 36 :: ([109; 61] ++ m ++ [44; 116; 61] ++ t ++ [44; 112; 61] ++ p) ++ 36 :: s ++ 36 :: k) by (cbn [app]; rewrite <- !app_assoc; cbn [app]; rewrite <- !app_assoc; reflexivity).
  match goal with |- context [Nat.eqb ?x 0] => destruct (Nat.eqb_spec x 0) as [E|_]; [cbn in E; lia|] end.
  assert (NQ : ~ In 36 ([109; 61] ++ m ++ [44; 116; 61] ++ t ++ [44; 112; 61] ++ p)) by (repeat apply in_app2; auto; cbn; intuition discriminate).
  rewrite split_app by (cbn; tauto). rewrite split_app by exact Nn. rewrite split_app by (cbn; intuition discriminate). rewrite split_app by exact NQ. rewrite split_app by exact S1. rewrite split_last by exact K1.
  change (bytes_eqb [118; 61; 49; 57] [118; 61; 49; 57]) with true. cbv iota.
  replace ([109; 61] ++ m ++ [44; 116; 61] ++ t ++ [44; 112; 61] ++ p) with ((109 :: 61 :: m) ++ 44 :: (116 :: 61 :: t) ++ 44 :: 112 :: 61 :: p) by (cbn [app]; rewrite <- ?app_assoc; cbn [app]; rewrite <- ?app_assoc; reflexivity).
  assert (C : forall c x, c <> 44 -> ~ In 44 x -> ~ In 44 (c :: 61 :: x)) by (intros c x N1 N2 [I|[I|I]]; [lia|lia|tauto]).
  rewrite split_app by (apply C; [lia|assumption]). rewrite split_app by (apply C; [lia|assumption]). rewrite split_last by (apply C; [lia|assumption]). cbv zeta. cbn [List.length Nat.eqb].
  assert (F : forall c x, c <> 61 -> ~ In 61 x -> split 61 (c :: 61 :: x) = [[c]; x]) by (intros c x N1 N2; change (c :: 61 :: x) with ([c] ++ 61 :: x); rewrite split_app by (cbn; intuition lia); rewrite split_last by exact N2; reflexivity).
  cbn [fmt_params]. rewrite !F by (lia || assumption). reflexivity.
Qed.
(** the check, in words *)
Lemma check_exact A plain mode name m t p s k pw salt key : name_type plain name = Some mode -> b64raw s = salt -> b64raw k = key -> Z.of_nat (List.length key) < 2 ^ 32 ->
  (check_key A plain pw name m t p s k = Ok tt <-> t mod 2 ^ 32 <> 0 /\ p mod 2 ^ 8 <> 0 /\ key <> [] /\ A mode pw salt (t mod 2 ^ 32) (m mod 2 ^ 32) (p mod 2 ^ 8) (Z.of_nat (List.length key)) = key) /\
  (check_key A plain pw name m t p s k = Panic <-> t mod 2 ^ 32 = 0 \/ p mod 2 ^ 8 = 0 \/ key = []).
Proof.
  intros V Es Ek L. unfold check_key. rewrite V, Es, Ek. cbv zeta. rewrite (Z.mod_small (Z.of_nat (List.length key))) by lia. unfold argon2.
  pose proof (Z.mod_pos_bound t (2 ^ 32) ltac:(lia)). pose proof (Z.mod_pos_bound p (2 ^ 8) ltac:(lia)).
  destruct (Z.ltb_spec (t mod 2 ^ 32) 1); [cbn; split; split; intros; try discriminate; intuition lia|]. destruct (Z.ltb_spec (p mod 2 ^ 8) 1); [cbn; split; split; intros; try discriminate; intuition lia|].
  destruct (Z.eqb_spec (Z.of_nat (List.length key)) 0) as [E|N].
  - assert (key = []) by (destruct key; [reflexivity|cbn in E; lia]). cbn [rbind]. split; split; intros; try discriminate; tauto || (right; right; assumption) || reflexivity.
  - assert (key <> []) by (intros ->; apply N; reflexivity). cbn [rbind]. destruct (bytes_eqb key _) eqn:E.
    + apply bytes_eqb_eq in E. split; split; intros; try discriminate; try reflexivity; [repeat split; try lia; auto; congruence|intuition lia].
    + split; split; intros G; try discriminate; [|intuition lia]. destruct G as (_ & _ & _ & G). rewrite G, bytes_eqb_refl in E. discriminate.
Qed.

(** *** C147 *)
Theorem C147_argon2fmt_compare_exact A mode name m t p salt key pw :
  variant mode name -> 0 <= m < 2 ^ 63 -> 0 <= t < 2 ^ 63 -> 0 <= p < 2 ^ 63 -> bytes_ok salt -> bytes_ok key -> Z.of_nat (List.length key) < 2 ^ 32 -> pw <> [] ->
  let h := phc name (decimal m) (decimal t) (decimal p) (base64 salt) (base64 key) in
  (fmt_compare A h pw = Ok tt <->
     t mod 2 ^ 32 <> 0 /\ p mod 2 ^ 8 <> 0 /\ key <> [] /\ A mode pw salt (t mod 2 ^ 32) (m mod 2 ^ 32) (p mod 2 ^ 8) (Z.of_nat (List.length key)) = key) /\
  (fmt_compare A h pw = Panic <-> t mod 2 ^ 32 = 0 \/ p mod 2 ^ 8 = 0 \/ key = []).
Proof.
  intros V Hm Ht Hp Os Ok' L N h. unfold h. rewrite fmt_fields by (eauto using variant_no_dollar, clean_decimal, clean_base64). rewrite !atoi_decimal by assumption.
  apply check_exact; [now apply name_type_variant|now apply raw_base64|now apply raw_base64|exact L].
Qed.
Theorem C147_argon2fmt_generate_exact A rd pw typ o h : argon_ok A -> bytes_ok rd -> 0 <= oKeyLen o ->
  fmt_generate A rd pw typ o = Ok h <->
  exists name salt rest, pw <> [] /\ variant typ name /\ rd = salt ++ rest /\ List.length salt = oSaltLen o /\ 1 <= oTime o /\ 1 <= oThreads o /\ oKeyLen o <> 0 /\
    h = phc name (decimal (oMemory o)) (decimal (oTime o)) (decimal (oThreads o)) (base64 salt) (base64 (A typ pw salt (oTime o) (oMemory o) (oThreads o) (oKeyLen o))).
Proof.
  intros HA Or Hk. unfold fmt_generate. destruct pw as [|c pw']; [cbn; split; [discriminate|]; intros (? & ? & ? & N & _); congruence|]. set (pw := c :: pw'). cbn [List.length Nat.eqb pw].
  unfold read_full. destruct (Nat.leb_spec (oSaltLen o) (List.length rd)) as [L|L]; cbn [rbind fst].
  2: { split; [discriminate|]. intros (name & salt & rest & _ & _ & E & E2 & _). rewrite E, app_length in L. lia. }
  assert (OS : bytes_ok (firstn (oSaltLen o) rd)) by now apply bytes_ok_firstn.
  assert (U : forall salt rest, rd = salt ++ rest -> List.length salt = oSaltLen o -> salt = firstn (oSaltLen o) rd) by (intros salt rest -> <-; rewrite firstn_app, Nat.sub_diag, firstn_all, firstn_O, app_nil_r; reflexivity).
  destruct (type_name false typ) as [[name mode]|] eqn:T.
  2: { split; [discriminate|]. intros (name & salt & rest & _ & V & _). rewrite (type_name_variant false V) in T. discriminate. }
  destruct (type_name_inv T) as [-> V]. unfold argon2.
  assert (NV : forall n, variant typ n -> n = name) by (intros n V2; rewrite (type_name_variant false V2) in T; congruence).
  destruct (Z.ltb_spec (oTime o) 1); [cbn; split; [discriminate|]; intros (? & ? & ? & H'); intuition lia|]. destruct (Z.ltb_spec (oThreads o) 1); [cbn; split; [discriminate|]; intros (? & ? & ? & H'); intuition lia|].
  destruct (Z.eqb_spec (oKeyLen o) 0); [cbn; split; [discriminate|]; intros (? & ? & ? & H'); intuition lia|]. cbn [rbind].
  destruct (HA typ pw (firstn (oSaltLen o) rd) (oTime o) (oMemory o) (oThreads o) (oKeyLen o) Hk) as [_ OK]. rewrite !b64enc_spec by assumption. split.
  - intros [= <-]. exists name, (firstn (oSaltLen o) rd), (skipn (oSaltLen o) rd). split; [discriminate|]. split; [exact V|]. split; [symmetry; apply firstn_skipn|]. split; [rewrite firstn_length; lia|]. repeat split; auto.
  - intros (name' & salt & rest & _ & V2 & E & E2 & _ & _ & _ & ->). rewrite (NV _ V2), (U _ _ E E2). reflexivity.
Qed.
Theorem C147_argon2fmt_roundtrip A rd pw typ o h : argon_ok A -> bytes_ok rd -> fmt_generate A rd pw typ o = Ok h ->
  0 <= oMemory o < 2 ^ 32 -> 0 <= oTime o < 2 ^ 32 -> 0 <= oThreads o < 2 ^ 8 -> 0 <= oKeyLen o < 2 ^ 32 ->
  let key q := A typ q (firstn (oSaltLen o) rd) (oTime o) (oMemory o) (oThreads o) (oKeyLen o) in
  fmt_compare A h pw = Ok tt /\ forall q, fmt_compare A h q <> Panic /\ (fmt_compare A h q = Ok tt <-> q <> [] /\ key q = key pw).
Proof.
  intros HA Or G Hm Ht Hp Hk key. apply C147_argon2fmt_generate_exact in G; [|exact HA|exact Or|lia]. destruct G as (name & salt & rest & Npw & V & E & Ls & T1 & P1 & K1 & ->).
  assert (Os : bytes_ok salt) by (subst rd; apply bytes_ok_app in Or; tauto). assert (U : firstn (oSaltLen o) rd = salt) by (subst rd; rewrite <- Ls, firstn_app, Nat.sub_diag, firstn_all, firstn_O, app_nil_r; reflexivity).
  unfold key. rewrite U. destruct (HA typ pw salt (oTime o) (oMemory o) (oThreads o) (oKeyLen o) ltac:(lia)) as [LK OK]. set (k := A typ pw salt (oTime o) (oMemory o) (oThreads o) (oKeyLen o)) in *.
  assert (Zk : Z.of_nat (List.length k) = oKeyLen o) by lia. assert (Nk : k <> []) by (intros E0; rewrite E0 in Zk; cbn in Zk; lia).
  assert (X : forall q, q <> [] -> fmt_compare A (phc name (decimal (oMemory o)) (decimal (oTime o)) (decimal (oThreads o)) (base64 salt) (base64 k)) q <> Panic /\
    (fmt_compare A (phc name (decimal (oMemory o)) (decimal (oTime o)) (decimal (oThreads o)) (base64 salt) (base64 k)) q = Ok tt <-> A typ q salt (oTime o) (oMemory o) (oThreads o) (oKeyLen o) = k)).
  { intros q Nq. destruct (@C147_argon2fmt_compare_exact A typ name (oMemory o) (oTime o) (oThreads o) salt k q V ltac:(lia) ltac:(lia) ltac:(lia) Os OK ltac:(lia) Nq) as [X1 X2]. cbv zeta in X1, X2. rewrite (Z.mod_small (oTime o)) in X1, X2 by lia. rewrite (Z.mod_small (oThreads o)) in X1, X2 by lia. rewrite (Z.mod_small (oMemory o)) in X1 by lia. rewrite Zk in X1. split; [intros F; apply X2 in F; intuition lia|]. split; [intros F; apply X1 in F; tauto|]. intros F. apply X1. repeat split; auto; lia. }
  split; [apply X; auto|]. intros q. destruct q as [|c q]; [|destruct (X (c :: q) ltac:(discriminate)) as [X1 X2]; split; [exact X1|]; split; [intros F; split; [discriminate|now apply X2]|intros [_ F]; now apply X2]].
  unfold fmt_compare. cbn [List.length Nat.eqb]. rewrite Bool.orb_true_r. split; [discriminate|]. split; [discriminate|]. intros [F _]. congruence.
Qed.
(** a number that does not begin with a digit or a sign counts as zero, and a zero for the time or the threads panics *)
Lemma atoi_bad s : no_number s -> atoi s = 0.
Proof. destruct s as [|c r]; cbn [no_number]; [reflexivity|]. intros (D & N1 & N2). unfold atoi. destruct (Z.eqb_spec c 45); [lia|]. destruct (Z.eqb_spec c 43); [lia|]. unfold uint_of. cbn [scan_uint]. destruct ((48 <=? c) && (c <=? 57))%bool eqn:E; [lia|reflexivity]. Qed.
Theorem C147_argon2fmt_malformed_panics A mode name m t p s k pw : variant mode name -> clean m -> clean t -> clean p -> clean s -> clean k -> pw <> [] ->
  no_number t \/ no_number p -> fmt_compare A (phc name m t p s k) pw = Panic.
Proof.
  intros V Cm Ct Cp Cs Ck N H. rewrite fmt_fields by eauto using variant_no_dollar. unfold check_key. rewrite (name_type_variant false V). cbv zeta. unfold argon2. destruct H as [H|H]; rewrite (atoi_bad H); [reflexivity|].
  change (0 mod 2 ^ 8 <? 1) with true. destruct (_ <? 1); reflexivity.
Qed.
(** whatever is accepted, Argon2 of this password gives a non-empty stored key *)
Lemma check_sound A plain pw name m t p s k : check_key A plain pw name m t p s k = Ok tt ->
  exists mode, name_type plain name = Some mode /\ exists T M Q n, 1 <= T < 2 ^ 32 /\ 0 <= M < 2 ^ 32 /\ 1 <= Q < 2 ^ 8 /\ n <> 0 /\ n = Z.of_nat (List.length (b64raw k)) mod 2 ^ 32 /\ A mode pw (b64raw s) T M Q n = b64raw k.
Proof.
  unfold check_key. cbv zeta. destruct (name_type plain name) as [mode|]; [|discriminate]. intros H. exists mode. split; [reflexivity|]. unfold argon2 in H.
  destruct (Z.ltb_spec (t mod 2 ^ 32) 1); [discriminate|]. destruct (Z.ltb_spec (p mod 2 ^ 8) 1); [discriminate|]. destruct (Z.eqb_spec (Z.of_nat (List.length (b64raw k)) mod 2 ^ 32) 0); [discriminate|]. cbn [rbind] in H.
  destruct (bytes_eqb (b64raw k) _) eqn:E; [|discriminate]. apply bytes_eqb_eq in E. pose proof (Z.mod_pos_bound t (2 ^ 32) ltac:(lia)). pose proof (Z.mod_pos_bound p (2 ^ 8) ltac:(lia)). pose proof (Z.mod_pos_bound m (2 ^ 32) ltac:(lia)).
  exists (t mod 2 ^ 32), (m mod 2 ^ 32), (p mod 2 ^ 8), (Z.of_nat (List.length (b64raw k)) mod 2 ^ 32). repeat split; try lia. now symmetry.
Qed.
Fixpoint join (sep : Z) (l : list bytes) : bytes := match l with [] => [] | [a] => a | a :: r => a ++ sep :: join sep r end.
Lemma split_join sep l : join sep (split sep l) = l.
Proof.
  induction l as [|c l IH]; [reflexivity|]. cbn [split]. destruct (Z.eqb_spec c sep) as [->|].
  - destruct (split sep l) as [|h r] eqn:E; [destruct l; cbn in E; [discriminate|destruct (_ =? _); [discriminate|destruct (split sep l); discriminate]]|]. cbn [join app]. cbn [join] in IH. now rewrite IH.
  - destruct (split sep l) as [|h r]; [cbn in IH; subst; reflexivity|]. cbn [join] in *. destruct r; [now rewrite IH|]. cbn [app]. now rewrite IH.
Qed.
Theorem C147_argon2fmt_accept_sound A h pw : fmt_compare A h pw = Ok tt ->
  pw <> [] /\ exists pre name params salt64 key64, h = pre ++ str "$" ++ name ++ str "$v=19$" ++ params ++ str "$" ++ salt64 ++ str "$" ++ key64 /\
  exists mode T M Q n, variant mode name /\ 1 <= T < 2 ^ 32 /\ 0 <= M < 2 ^ 32 /\ 1 <= Q < 2 ^ 8 /\ n <> 0 /\ n = Z.of_nat (List.length (b64raw key64)) mod 2 ^ 32 /\ A mode pw (b64raw salt64) T M Q n = b64raw key64.
Proof.
  unfold fmt_compare. destruct (Nat.eqb (List.length h) 0 || Nat.eqb (List.length pw) 0)%bool eqn:E0; [discriminate|]. intros H. split; [intros ->; rewrite Bool.orb_true_r in E0; discriminate|].
  pose proof (split_join 36 h) as J. destruct (split 36 h) as [|pre [|name [|version [|params [|s [|k [|? ?]]]]]]]; try discriminate. destruct (bytes_eqb version [118; 61; 49; 57]) eqn:V; [|discriminate]. apply bytes_eqb_eq in V. subst version. cbv zeta in H.
  destruct (Nat.eqb _ 3); [|discriminate]. destruct (fmt_params _ _) as [[[m t] th]| |]; [|discriminate|discriminate]. cbn [rbind] in H. apply check_sound in H. destruct H as (mode & NT & T & M & Q & n & H).
  exists pre, name, params, s, k. split; [rewrite <- J; reflexivity|]. exists mode, T, M, Q, n. split; [now apply name_type_inv|exact H].
Qed.

(** *** C148 *)
Definition variant4 (mode : Z) (name : bytes) : Prop := variant mode name \/ (mode = 1 /\ name = str "argon2").
(** the type argument: 0 d, 1 i, 2 id, 3 "argon2", which runs as i *)
Definition type4 (typ mode : Z) (name : bytes) : Prop := (typ = mode /\ variant mode name) \/ (typ = 3 /\ mode = 1 /\ name = str "argon2").
Lemma name_type4 mode name : variant4 mode name -> name_type true name = Some mode.
Proof. intros [V|[-> ->]]; [now apply name_type_variant|reflexivity]. Qed.
Lemma variant4_no_dollar mode name : variant4 mode name -> ~ In 36 name.
Proof. intros [V|[-> ->]]; [eauto using variant_no_dollar|cbn; intuition discriminate]. Qed.
Lemma type_name4 typ mode name : type4 typ mode name -> type_name true typ = Some (name, mode).
Proof. intros [[-> V]|(-> & -> & ->)]; [now apply type_name_variant|reflexivity]. Qed.
Lemma type_name4_inv typ n mode : type_name true typ = Some (n, mode) -> type4 typ mode n.
Proof.
  unfold type_name, type4, variant. cbn [andb]. destruct (Z.eqb_spec typ 2) as [->|]; [intros [= <- <-]; auto 10|]. destruct (Z.eqb_spec typ 1) as [->|]; [intros [= <- <-]; auto 10|]. destruct (Z.eqb_spec typ 0) as [->|]; [intros [= <- <-]; auto 10|].
  destruct (Z.eqb_spec typ 3) as [->|]; [intros [= <- <-]; auto 10|]. discriminate.
Qed.
Lemma pa_fields A name v m t p s k pw : ~ In 36 name -> clean v -> clean m -> clean t -> clean p -> clean s -> clean k -> pw <> [] -> atoi v = 19 ->
  pa_compare A (seven name v m t p s k) pw = check_key A true pw name (atoi m) (atoi t) (atoi p) s k.
Proof.
  intros Nn (V1 & _) (M1 & _) (T1 & _) (P1 & _) (S1 & _) (K1 & _) Npw Ev. unfold pa_compare. rewrite (nonempty_eqb Npw), Bool.orb_false_r. unfold seven. change (str "$") with [36]. cbn [app].
  match goal with |- context [Nat.eqb ?x 0] => destruct (Nat.eqb_spec x 0) as [E|_]; [rewrite !app_length in E; cbn in E; lia|] end.
  rewrite !split_app by assumption. rewrite split_last by exact K1. rewrite Ev. reflexivity.
Qed.
Theorem C148_argon2_compare_exact A mode name m t p salt key pw :
  variant4 mode name -> 0 <= m < 2 ^ 63 -> 0 <= t < 2 ^ 63 -> 0 <= p < 2 ^ 63 -> bytes_ok salt -> bytes_ok key -> Z.of_nat (List.length key) < 2 ^ 32 -> pw <> [] ->
  let h := seven name (str "19") (decimal m) (decimal t) (decimal p) (base64 salt) (base64 key) in
  (pa_compare A h pw = Ok tt <->
     t mod 2 ^ 32 <> 0 /\ p mod 2 ^ 8 <> 0 /\ key <> [] /\ A mode pw salt (t mod 2 ^ 32) (m mod 2 ^ 32) (p mod 2 ^ 8) (Z.of_nat (List.length key)) = key) /\
  (pa_compare A h pw = Panic <-> t mod 2 ^ 32 = 0 \/ p mod 2 ^ 8 = 0 \/ key = []).
Proof.
  intros V Hm Ht Hp Os Ok' L N h. unfold h. rewrite pa_fields; [|eauto using variant4_no_dollar, clean_decimal, clean_base64..|reflexivity]; [|unfold clean; cbn; intuition discriminate]. rewrite !atoi_decimal by assumption.
  apply check_exact; [now apply name_type4|now apply raw_base64|now apply raw_base64|exact L].
Qed.
(** the salt is what the reader gives, or nothing when it gives too little: no error then *)
Theorem C148_argon2_generate_exact A rd pw typ o h : argon_ok A -> bytes_ok rd -> 0 <= oKeyLen o ->
  pa_generate A rd pw typ o = Ok h <->
  exists mode name, pw <> [] /\ type4 typ mode name /\ 1 <= oTime o /\ 1 <= oThreads o /\ oKeyLen o <> 0 /\
    let salt := if Nat.leb (oSaltLen o) (List.length rd) then firstn (oSaltLen o) rd else [] in
    h = seven name (str "19") (decimal (oMemory o)) (decimal (oTime o)) (decimal (oThreads o)) (base64 salt) (base64 (A mode pw salt (oTime o) (oMemory o) (oThreads o) (oKeyLen o))).
Proof.
  intros HA Or Hk. unfold pa_generate. destruct pw as [|c pw']; [cbn; split; [discriminate|]; intros (? & ? & N & _); congruence|]. set (pw := c :: pw'). cbn [List.length Nat.eqb pw]. cbv zeta.
  assert (ES : match read_full (oSaltLen o) rd with Ok (s, _) => s | _ => [] end = if Nat.leb (oSaltLen o) (List.length rd) then firstn (oSaltLen o) rd else []) by (unfold read_full; destruct (Nat.leb _ _); reflexivity). rewrite ES.
  set (salt := if Nat.leb (oSaltLen o) (List.length rd) then firstn (oSaltLen o) rd else []). assert (OS : bytes_ok salt) by (unfold salt; destruct (Nat.leb _ _); [now apply bytes_ok_firstn|constructor]).
  destruct (type_name true typ) as [[name mode]|] eqn:T.
  2: { split; [discriminate|]. intros (mode & name & _ & V & _). rewrite (type_name4 V) in T. discriminate. }
  pose proof (type_name4_inv T) as V. unfold argon2.
  destruct (Z.ltb_spec (oTime o) 1); [cbn; split; [discriminate|]; intros (? & ? & H'); intuition lia|]. destruct (Z.ltb_spec (oThreads o) 1); [cbn; split; [discriminate|]; intros (? & ? & H'); intuition lia|].
  destruct (Z.eqb_spec (oKeyLen o) 0); [cbn; split; [discriminate|]; intros (? & ? & H'); intuition lia|]. cbn [rbind].
  destruct (HA mode pw salt (oTime o) (oMemory o) (oThreads o) (oKeyLen o) Hk) as [_ OK]. rewrite !b64enc_spec by assumption. split.
  - intros [= <-]. exists mode, name. split; [discriminate|]. split; [exact V|]. repeat split; auto.
  - intros (mode' & name' & _ & V2 & _ & _ & _ & ->). rewrite (type_name4 V2) in T. injection T as -> ->. reflexivity.
Qed.
Theorem C148_argon2_roundtrip A rd pw typ o h : argon_ok A -> bytes_ok rd -> pa_generate A rd pw typ o = Ok h ->
  0 <= oMemory o < 2 ^ 32 -> 0 <= oTime o < 2 ^ 32 -> 0 <= oThreads o < 2 ^ 8 -> 0 <= oKeyLen o < 2 ^ 32 ->
  let mode := if typ =? 3 then 1 else typ in let salt := if Nat.leb (oSaltLen o) (List.length rd) then firstn (oSaltLen o) rd else [] in
  let key q := A mode q salt (oTime o) (oMemory o) (oThreads o) (oKeyLen o) in
  pa_compare A h pw = Ok tt /\ forall q, pa_compare A h q <> Panic /\ (pa_compare A h q = Ok tt <-> q <> [] /\ key q = key pw).
Proof.
  intros HA Or G Hm Ht Hp Hk mode salt key. apply C148_argon2_generate_exact in G; [|exact HA|exact Or|lia]. destruct G as (md & name & Npw & V & T1 & P1 & K1 & E). cbv zeta in E. fold salt in E. subst h.
  assert (Em : mode = md /\ variant4 md name). { unfold mode, variant4. destruct V as [[-> V]|(-> & -> & ->)]; [|auto]. split; [|auto]. destruct (Z.eqb_spec md 3) as [->|]; [|reflexivity]. exfalso. destruct V as [[? _]|[[? _]|[? _]]]; lia. } destruct Em as [Em V4]. unfold key. rewrite Em.
  assert (Os : bytes_ok salt) by (unfold salt; destruct (Nat.leb _ _); [now apply bytes_ok_firstn|constructor]).
  destruct (HA md pw salt (oTime o) (oMemory o) (oThreads o) (oKeyLen o) ltac:(lia)) as [LK OK]. set (k := A md pw salt (oTime o) (oMemory o) (oThreads o) (oKeyLen o)) in *.
  assert (Zk : Z.of_nat (List.length k) = oKeyLen o) by lia. assert (Nk : k <> []) by (intros E0; rewrite E0 in Zk; cbn in Zk; lia).
  set (h := seven name (str "19") (decimal (oMemory o)) (decimal (oTime o)) (decimal (oThreads o)) (base64 salt) (base64 k)).
  assert (X : forall q, q <> [] -> pa_compare A h q <> Panic /\ (pa_compare A h q = Ok tt <-> A md q salt (oTime o) (oMemory o) (oThreads o) (oKeyLen o) = k)).
  { intros q Nq. destruct (@C148_argon2_compare_exact A md name (oMemory o) (oTime o) (oThreads o) salt k q V4 ltac:(lia) ltac:(lia) ltac:(lia) Os OK ltac:(lia) Nq) as [X1 X2]. cbv zeta in X1, X2. fold h in X1, X2. rewrite (Z.mod_small (oTime o)) in X1, X2 by lia. rewrite (Z.mod_small (oThreads o)) in X1, X2 by lia. rewrite (Z.mod_small (oMemory o)) in X1 by lia. rewrite Zk in X1. split; [intros F; apply X2 in F; intuition lia|]. split; [intros F; apply X1 in F; tauto|]. intros F. apply X1. repeat split; auto; lia. }
  split; [apply X; auto|]. intros q. destruct q as [|c q]; [|destruct (X (c :: q) ltac:(discriminate)) as [X1 X2]; split; [exact X1|]; split; [intros F; split; [discriminate|now apply X2]|intros [_ F]; now apply X2]].
  unfold pa_compare. cbn [List.length Nat.eqb]. rewrite Bool.orb_true_r. split; [discriminate|]. split; [discriminate|]. intros [F _]. congruence.
Qed.
(** readers that fail leave the hash unsalted: it depends on the password and the options only *)
Theorem C148_argon2_unsalted_refuted A rd rd' pw typ o : (List.length rd < oSaltLen o)%nat -> (List.length rd' < oSaltLen o)%nat ->
  pa_generate A rd pw typ o = pa_generate A rd' pw typ o /\
  (forall mode name, pw <> [] -> type4 typ mode name -> 1 <= oTime o -> 1 <= oThreads o -> oKeyLen o <> 0 -> exists h, pa_generate A rd pw typ o = Ok h).
Proof.
  intros L L'. assert (E : forall r, (List.length r < oSaltLen o)%nat -> read_full (oSaltLen o) r = Err) by (intros r Lr; unfold read_full; destruct (Nat.leb_spec (oSaltLen o) (List.length r)); [lia|reflexivity]).
  unfold pa_generate. rewrite !E by assumption. split; [reflexivity|]. intros mode name N V T P K. rewrite (nonempty_eqb N). cbv zeta. rewrite (type_name4 V). unfold argon2. destruct (Z.ltb_spec (oTime o) 1); [lia|]. destruct (Z.ltb_spec (oThreads o) 1); [lia|]. destruct (Z.eqb_spec (oKeyLen o) 0); [lia|]. cbn [rbind]. eauto.
Qed.
Theorem C148_argon2_accept_sound A h pw : pa_compare A h pw = Ok tt ->
  pw <> [] /\ exists name v m t p salt64 key64, h = seven name v m t p salt64 key64 /\
  exists mode T M Q n, variant4 mode name /\ 1 <= T < 2 ^ 32 /\ 0 <= M < 2 ^ 32 /\ 1 <= Q < 2 ^ 8 /\ n <> 0 /\ n = Z.of_nat (List.length (b64raw key64)) mod 2 ^ 32 /\ A mode pw (b64raw salt64) T M Q n = b64raw key64.
Proof.
  unfold pa_compare. destruct (Nat.eqb (List.length h) 0 || Nat.eqb (List.length pw) 0)%bool eqn:E0; [discriminate|]. intros H. split; [intros ->; rewrite Bool.orb_true_r in E0; discriminate|].
  pose proof (split_join 36 h) as J. destruct (split 36 h) as [|name [|v [|m [|t [|p [|s [|k [|? ?]]]]]]]]; try discriminate. destruct (atoi v =? 19); [|discriminate]. apply check_sound in H. destruct H as (mode & NT & T & M & Q & n & H).
  exists name, v, m, t, p, s, k. split; [rewrite <- J; reflexivity|]. exists mode, T, M, Q, n. split; [|exact H]. unfold variant4, variant. revert NT. unfold name_type. cbn [andb].
  destruct (bytes_eqb name name_id) eqn:E1; [apply bytes_eqb_eq in E1; intros [= <-]; auto 10|]. destruct (bytes_eqb name name_i) eqn:E2; [apply bytes_eqb_eq in E2; intros [= <-]; auto 10|].
  destruct (bytes_eqb name name_d) eqn:E3; [apply bytes_eqb_eq in E3; intros [= <-]; auto 10|]. destruct (bytes_eqb name name_plain) eqn:E4; [apply bytes_eqb_eq in E4; intros [= <-]; auto 10|]. discriminate.
Qed.

(** *** C149 *)
Lemma p9_len alg work salt key : List.length salt = 12%nat -> List.length key = 24%nat -> List.length ([alg] ++ be_bytes 2 work ++ salt ++ key) = (3 * 13)%nat.
Proof. intros L1 L2. rewrite !app_length, be_bytes_length. cbn [List.length]. lia. Qed.
Lemma p9_ok alg work salt key : 0 <= alg < 256 -> bytes_ok salt -> bytes_ok key -> bytes_ok ([alg] ++ be_bytes 2 work ++ salt ++ key).
Proof. intros B O1 O2. apply bytes_ok_app. split; [constructor; [exact B|constructor]|]. apply bytes_ok_app. split; [apply be_bytes_ok|]. apply bytes_ok_app. auto. Qed.
(** the binary of a well-formed hash *)
Lemma p9_fields P pw alg work salt key : 0 <= alg < 256 -> 0 <= work < 65536 -> bytes_ok salt -> bytes_ok key -> List.length salt = 12%nat -> List.length key = 24%nat ->
  p9_compare P pw (passhash9 alg work salt key) =
  if work =? 0 then Ok false else if 512 <? work then Panic else if negb (known_alg alg) then Ok false else rbind (pbkdf P alg pw salt (10000 * work)) (fun cmp => Ok (bytes_eqb cmp key)).
Proof.
  intros Ba Bw Os OK Ls Lk. unfold p9_compare, passhash9. set (bin := [alg] ++ be_bytes 2 work ++ salt ++ key). pose proof (p9_len alg work Ls Lk) as Lb. fold bin in Lb. pose proof (p9_ok work Ba Os OK) as Ob. fold bin in Ob.
  rewrite <- b64enc_spec by exact Ob. change (str "$9$") with [36; 57; 36]. rewrite app_length, (b64enc_len Lb). cbn [List.length Nat.mul Nat.add Nat.eqb negb]. change (firstn 3 ([36; 57; 36] ++ b64enc false bin)) with [36; 57; 36]. change (skipn 3 ([36; 57; 36] ++ b64enc false bin)) with (b64enc false bin). change (bytes_eqb [36; 57; 36] [36; 57; 36]) with true. cbn [negb].
  rewrite (std_enc Ob Lb), Lb. cbn [Nat.mul Nat.add Nat.eqb negb].
  assert (Eb : bin = alg :: be_bytes 2 work ++ salt ++ key) by reflexivity.
  assert (E2 : List.length (be_bytes 2 work) = 2%nat) by apply be_bytes_length.
  assert (W : be_val (slice 1 2 bin) = work). { rewrite Eb. unfold slice. cbn [skipn]. rewrite firstn_app, E2, Nat.sub_diag, firstn_O, app_nil_r, firstn_all2 by lia. rewrite be_val_bytes. change (256 ^ Z.of_nat 2) with 65536. apply Z.mod_small. lia. }
  assert (S' : slice 3 12 bin = salt). { rewrite Eb. unfold slice. change 3%nat with (1 + 2)%nat. cbn [skipn Nat.add]. destruct (be_bytes 2 work) as [|x [|y [|? ?]]]; cbn in E2; try lia. cbn [app skipn]. rewrite firstn_app, Ls, Nat.sub_diag, firstn_O, app_nil_r, firstn_all2 by lia. reflexivity. }
  assert (K' : skipn 15 bin = key). { rewrite Eb. destruct (be_bytes 2 work) as [|x [|y [|? ?]]]; cbn in E2; try lia. cbn [app]. change (skipn 15 (alg :: x :: y :: salt ++ key)) with (skipn 12 (salt ++ key)). rewrite skipn_app, Ls, Nat.sub_diag, (skipn_all2 salt) by lia. reflexivity. }
  rewrite W, S', K'. rewrite Eb. reflexivity.
Qed.
Lemma known_spec alg : known_alg alg = true <-> 0 <= alg <= 4.
Proof. unfold known_alg. lia. Qed.
(** any other text is refused: what gets past the format checks is a well-formed hash *)
Lemma p9_form P pw h : p9_compare P pw h <> Ok false -> exists alg work salt key, 0 <= alg < 256 /\ 0 <= work < 65536 /\ bytes_ok salt /\ bytes_ok key /\ List.length salt = 12%nat /\ List.length key = 24%nat /\ h = passhash9 alg work salt key.
Proof.
  unfold p9_compare. destruct (Nat.eqb_spec (List.length h) 55) as [L|]; [|cbn; congruence]. cbn [negb]. destruct (bytes_eqb (firstn 3 h) [36; 57; 36]) eqn:E3; [|cbn; congruence]. apply bytes_eqb_eq in E3. cbn [negb].
  set (bin := b64std (skipn 3 h)). destruct (Nat.eqb_spec (List.length bin) 39) as [Lb|]; [|cbn; congruence]. intros _.
  destruct (@std_full (skipn 3 h) 13) as [Eh Ob]; [rewrite skipn_length; lia|exact Lb|]. fold bin in Eh, Ob.
  assert (D : bin = [nth 0 bin 0] ++ slice 1 2 bin ++ slice 3 12 bin ++ skipn 15 bin). { destruct bin as [|a [|b [|c r]]]; cbn in Lb; try lia. unfold slice. change (a :: b :: c :: r = a :: b :: c :: (firstn 12 r ++ skipn 12 r)). rewrite firstn_skipn. reflexivity. }
  assert (L2 : List.length (slice 1 2 bin) = 2%nat) by (unfold slice; rewrite firstn_length, skipn_length; lia).
  assert (O2 : bytes_ok (slice 1 2 bin)) by (apply bytes_ok_firstn, bytes_ok_skipn; exact Ob).
  exists (nth 0 bin 0), (be_val (slice 1 2 bin)), (slice 3 12 bin), (skipn 15 bin).
  split. { destruct bin as [|a r]; [cbn in Lb; lia|]. inversion Ob; subst. assumption. }
  split. { pose proof (be_val_bound O2) as B. rewrite L2 in B. exact B. }
  split; [apply bytes_ok_firstn, bytes_ok_skipn; exact Ob|]. split; [apply bytes_ok_skipn; exact Ob|]. split; [unfold slice; rewrite firstn_length, skipn_length; lia|]. split; [rewrite skipn_length; lia|].
  unfold passhash9. rewrite be_bytes_val by (exact O2 || exact L2). rewrite <- D. rewrite <- b64enc_spec by exact Ob. rewrite <- Eh. change (str "$9$") with [36; 57; 36]. rewrite <- E3. symmetry. apply firstn_skipn.
Qed.
Theorem C149_passhash9_compare_exact P pw h : pbkdf_ok P ->
  (p9_compare P pw h = Ok true <-> exists alg work salt, 0 <= alg <= 4 /\ 1 <= work <= 512 /\ bytes_ok salt /\ List.length salt = 12%nat /\
     (alg = 2 -> 1 <= Z.of_nat (List.length pw) <= 56) /\ h = passhash9 alg work salt (P alg pw salt (10000 * work))) /\
  (p9_compare P pw h = Panic <-> exists alg work salt key, 0 <= alg < 256 /\ 1 <= work < 65536 /\ bytes_ok salt /\ List.length salt = 12%nat /\ bytes_ok key /\ List.length key = 24%nat /\
     h = passhash9 alg work salt key /\ (512 < work \/ (alg = 2 /\ ~ (1 <= Z.of_nat (List.length pw) <= 56)))) /\
  p9_compare P pw h <> Err.
Proof.
  intros HP. assert (PB : forall alg s i, (alg = 2 -> 1 <= Z.of_nat (List.length pw) <= 56) -> pbkdf P alg pw s i = Ok (P alg pw s i)).
  { intros alg s i H. unfold pbkdf. destruct (Z.eqb_spec alg 2) as [->|]; [|reflexivity]. specialize (H eq_refl). destruct (Nat.eqb_spec (List.length pw) 0); [lia|]. destruct (Nat.ltb_spec 56 (List.length pw)); [lia|]. reflexivity. }
  assert (PN : forall alg s i, alg = 2 /\ ~ (1 <= Z.of_nat (List.length pw) <= 56) -> pbkdf P alg pw s i = Panic).
  { intros alg s i [-> H]. unfold pbkdf. cbn [Z.eqb Pos.eqb andb]. destruct (Nat.eqb_spec (List.length pw) 0); [reflexivity|]. destruct (Nat.ltb_spec 56 (List.length pw)); [reflexivity|lia]. }
  assert (DEC : forall alg, (alg = 2 /\ ~ (1 <= Z.of_nat (List.length pw) <= 56)) \/ (alg = 2 -> 1 <= Z.of_nat (List.length pw) <= 56)) by (intros alg; lia).
  split; [|split].
  - split.
    + intros H. destruct (@p9_form P pw h) as (alg & work & salt & key & Ba & Bw & Os & OK & Ls & Lk & ->); [congruence|]. rewrite p9_fields in H by assumption. destruct (Z.eqb_spec work 0); [discriminate|]. destruct (Z.ltb_spec 512 work); [discriminate|].
      destruct (known_alg alg) eqn:KA; [|discriminate]. apply known_spec in KA. cbn [negb] in H. destruct (DEC alg) as [D|D]; [rewrite (PN _ _ _ D) in H; discriminate|]. rewrite (PB _ _ _ D) in H. cbn [rbind] in H. injection H as H. apply bytes_eqb_eq in H. subst key.
      exists alg, work, salt. repeat split; auto; lia.
    + intros (alg & work & salt & Ba & Bw & Os & Ls & D & ->). destruct (HP alg pw salt (10000 * work)) as [LP OP]. rewrite p9_fields by (assumption || lia). destruct (Z.eqb_spec work 0); [lia|]. destruct (Z.ltb_spec 512 work); [lia|].
      rewrite (proj2 (known_spec alg) Ba). cbn [negb]. rewrite (PB _ _ _ D). cbn [rbind]. now rewrite bytes_eqb_refl.
  - split.
    + intros H. destruct (@p9_form P pw h) as (alg & work & salt & key & Ba & Bw & Os & OK & Ls & Lk & ->); [congruence|]. rewrite p9_fields in H by assumption. destruct (Z.eqb_spec work 0); [discriminate|]. exists alg, work, salt, key.
      repeat (split; [auto; lia|]). destruct (Z.ltb_spec 512 work); [auto|]. destruct (known_alg alg) eqn:KA; [|discriminate]. cbn [negb] in H. destruct (DEC alg) as [D|D]; [auto|]. rewrite (PB _ _ _ D) in H. discriminate.
    + intros (alg & work & salt & key & Ba & Bw & Os & Ls & OK & Lk & -> & D). rewrite p9_fields by (assumption || lia). destruct (Z.eqb_spec work 0); [lia|]. destruct (Z.ltb_spec 512 work); [reflexivity|]. destruct D as [D|D]; [lia|].
      rewrite (proj2 (known_spec alg)) by lia. cbn [negb]. rewrite (PN _ _ _ D). reflexivity.
  - intros H. destruct (@p9_form P pw h) as (alg & work & salt & key & Ba & Bw & Os & OK & Ls & Lk & ->); [congruence|]. rewrite p9_fields in H by assumption. destruct (Z.eqb_spec work 0); [discriminate|]. destruct (Z.ltb_spec 512 work); [discriminate|].
    destruct (known_alg alg); [|discriminate]. cbn [negb] in H. destruct (DEC alg) as [D|D]; [rewrite (PN _ _ _ D) in H|rewrite (PB _ _ _ D) in H]; discriminate.
Qed.
Theorem C149_passhash9_generate_exact P rd pw work alg h : pbkdf_ok P -> bytes_ok rd ->
  p9_generate P rd pw work alg = Ok h <->
  1 <= work <= 511 /\ 0 <= alg <= 4 /\ (12 <= List.length rd)%nat /\ (alg = 2 -> 1 <= Z.of_nat (List.length pw) <= 56) /\
  h = passhash9 alg work (firstn 12 rd) (P alg pw (firstn 12 rd) (10000 * work)).
Proof.
  intros HP Or. unfold p9_generate. destruct ((0 <? work) && (work <? 512))%bool eqn:W; cbn [negb]; [|split; [discriminate|lia]]. destruct (known_alg alg) eqn:KA; cbn [negb]; [apply known_spec in KA|split; [discriminate|intros (_ & B & _); apply known_spec in B; congruence]].
  unfold read_full. destruct (Nat.leb_spec 12 (List.length rd)) as [L|L]; [|split; [discriminate|lia]]. cbv iota beta. set (salt := firstn 12 rd). assert (Os : bytes_ok salt) by now apply bytes_ok_firstn. assert (Ls : List.length salt = 12%nat) by (unfold salt; rewrite firstn_length; lia).
  destruct (HP alg pw salt (10000 * work)) as [LP OP]. assert (TB : to_byte alg = alg) by (unfold to_byte; rewrite Z.mod_small; lia).
  assert (E : [36; 57; 36] ++ b64enc true ([to_byte alg] ++ be_bytes 2 work ++ salt ++ P alg pw salt (10000 * work)) = passhash9 alg work salt (P alg pw salt (10000 * work))).
  { rewrite TB. rewrite (enc_pad_full (p9_len alg work Ls LP)). rewrite b64enc_spec by (apply p9_ok; auto; lia). reflexivity. }
  unfold pbkdf. destruct ((alg =? 2) && (Nat.eqb (List.length pw) 0 || Nat.ltb 56 (List.length pw)))%bool eqn:B; cbn [rbind].
  - split; [discriminate|]. intros (_ & _ & _ & D & _). apply andb_prop in B. destruct B as [B1 B2]. apply Z.eqb_eq in B1. specialize (D B1). destruct (Nat.eqb_spec (List.length pw) 0); [lia|]. destruct (Nat.ltb_spec 56 (List.length pw)); [lia|discriminate].
  - rewrite E. split.
    + intros [= <-]. repeat split; try lia; auto. all: intros ->; cbn [Z.eqb Pos.eqb andb] in B; destruct (Nat.eqb_spec (List.length pw) 0); try discriminate; destruct (Nat.ltb_spec 56 (List.length pw)); try discriminate; lia.
    + intros (_ & _ & _ & _ & ->). reflexivity.
Qed.
Theorem C149_passhash9_roundtrip P rd pw work alg h : pbkdf_ok P -> bytes_ok rd -> p9_generate P rd pw work alg = Ok h ->
  p9_compare P pw h = Ok true /\
  forall q, (alg = 2 -> 1 <= Z.of_nat (List.length q) <= 56) -> p9_compare P q h = Ok (bytes_eqb (P alg q (firstn 12 rd) (10000 * work)) (P alg pw (firstn 12 rd) (10000 * work))).
Proof.
  intros HP Or G. apply C149_passhash9_generate_exact in G; [|assumption..]. destruct G as (W & KA & L & D & ->). set (salt := firstn 12 rd). assert (Os : bytes_ok salt) by now apply bytes_ok_firstn. assert (Ls : List.length salt = 12%nat) by (unfold salt; rewrite firstn_length; lia).
  assert (X : forall q, (alg = 2 -> 1 <= Z.of_nat (List.length q) <= 56) -> p9_compare P q (passhash9 alg work salt (P alg pw salt (10000 * work))) = Ok (bytes_eqb (P alg q salt (10000 * work)) (P alg pw salt (10000 * work)))).
  { intros q Dq. destruct (HP alg pw salt (10000 * work)) as [LP OP]. rewrite p9_fields by (assumption || lia). destruct (Z.eqb_spec work 0); [lia|]. destruct (Z.ltb_spec 512 work); [lia|]. rewrite (proj2 (known_spec alg) KA). cbn [negb].
    unfold pbkdf. destruct ((alg =? 2) && (Nat.eqb (List.length q) 0 || Nat.ltb 56 (List.length q)))%bool eqn:B; [|reflexivity]. exfalso. apply andb_prop in B. destruct B as [B1 B2]. apply Z.eqb_eq in B1. specialize (Dq B1). destruct (Nat.eqb_spec (List.length q) 0); [lia|]. destruct (Nat.ltb_spec 56 (List.length q)); [lia|discriminate]. }
  split; [rewrite X by exact D; now rewrite bytes_eqb_refl|exact X].
Qed.
(** the limits differ: the work factor 512 cannot be generated but is accepted *)
Theorem C149_passhash9_limit_refuted P rd pw alg salt : pbkdf_ok P -> alg = 0 -> bytes_ok salt -> List.length salt = 12%nat ->
  p9_generate P rd pw 512 alg = Panic /\ p9_compare P pw (passhash9 alg 512 salt (P alg pw salt (10000 * 512))) = Ok true.
Proof.
  intros HP -> Os Ls. split; [reflexivity|]. apply C149_passhash9_compare_exact; [exact HP|]. exists 0, 512, salt. repeat split; auto; lia.
Qed.

(** *** instances *)
Definition toyA (mode : Z) (pw salt : bytes) (t m p n : Z) : bytes := repeat ((fold_right Z.add 0 pw + 3 * fold_right Z.add 0 salt + mode + t + m + p) mod 256) (Z.to_nat n).
Definition toyP (alg : Z) (pw salt : bytes) (i : Z) : bytes := repeat ((fold_right Z.add 0 pw + 3 * fold_right Z.add 0 salt + alg + i) mod 256) 24.
Lemma toyA_ok : argon_ok toyA.
Proof. intros mode pw salt t m p n H. unfold toyA. split; [apply repeat_length|]. apply bytes_ok_repeat. apply Z.mod_pos_bound. lia. Qed.
Lemma toyP_ok : pbkdf_ok toyP.
Proof. intros alg pw salt i. unfold toyP. split; [apply repeat_length|]. apply bytes_ok_repeat. apply Z.mod_pos_bound. lia. Qed.
Definition o1 : opts := Opts 2 1 8 4 5.
Example C147_instance : fmt_generate toyA [9; 8; 7] [1; 2] 2 o1 = Ok (str "$argon2id$v=19$m=8,t=1,p=4$CQg$RUVFRUU") /\
  fmt_compare toyA (str "$argon2id$v=19$m=8,t=1,p=4$CQg$RUVFRUU") [1; 2] = Ok tt /\ fmt_compare toyA (str "$argon2id$v=19$m=8,t=1,p=4$CQg$RUVFRUU") [1; 3] = Err /\
  fmt_compare toyA (str "$argon2id$v=19$m=8,t=1,p=256$CQg$RUVFRUU") [1; 2] = Panic /\ fmt_compare toyA (str "$argon2id$v=19$m=8,t=x,p=4$CQg$RUVFRUU") [1; 2] = Panic /\
  fmt_compare toyA (str "$argon2id$v=19$m=8,t=1,p=4$CQg$") [1; 2] = Panic /\ fmt_compare toyA (str "$argon2id$v=19$m=8,t=1,p=260$CQg$RUVFRUU") [1; 2] = Ok tt.
Proof. repeat split; vm_compute; reflexivity. Qed.
Example C148_instance : pa_generate toyA [9; 8; 7] [1; 2] 3 o1 = Ok (str "argon2$19$8$1$4$CQg$REREREQ") /\ pa_compare toyA (str "argon2$19$8$1$4$CQg$REREREQ") [1; 2] = Ok tt /\
  pa_generate toyA [9] [1; 2] 3 o1 = Ok (str "argon2$19$8$1$4$$ERERERE") /\
  pa_compare toyA (str "argon2$19$8$1$4$$ERERERE") [1; 2] = Ok tt /\ pa_compare toyA (str "argon2$19$8$1$4$$ERERERE") [1; 3] = Err.
Proof. repeat split; vm_compute; reflexivity. Qed.
Example C149_instance : exists h, p9_generate toyP (repeat 5 20) [1; 2] 3 1 = Ok h /\ p9_compare toyP [1; 2] h = Ok true /\ p9_compare toyP [1; 3] h = Ok false.
Proof. eexists. split; [vm_compute; reflexivity|]. split; vm_compute; reflexivity. Qed.
Definition C147_149_all := (C147_argon2fmt_compare_exact, C147_argon2fmt_generate_exact, C147_argon2fmt_roundtrip, C147_argon2fmt_malformed_panics, C147_argon2fmt_accept_sound,
  C148_argon2_compare_exact, C148_argon2_generate_exact, C148_argon2_roundtrip, C148_argon2_unsalted_refuted, C148_argon2_accept_sound,
  C149_passhash9_compare_exact, C149_passhash9_generate_exact, C149_passhash9_roundtrip, C149_passhash9_limit_refuted).
Print Assumptions C147_149_all.
