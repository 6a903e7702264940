(** C16: OCB (mode/ocb). *)
From Verif Require Import Base BlockModeModel BlockModeSpec StreamSpec StreamProofs ToolBytesSpec MacModel MacSpec MacProofs
  OffsetSpec OcbSpec OcbModel OcbProofs.
Set Implicit Arguments. Unset Strict Implicit.
Local Open Scope nat_scope.

(** The constructor accepts exactly these sizes; a tag size of 0 or below is among them. *)
Theorem C16_params : forall c nsz tsz,
  (exists st, ocb_new c nsz tsz = Ok st) <-> bsz c = 16 /\ (1 <= nsz <= 15)%Z /\ (tsz <= 16)%Z.
Proof.
  intros c nsz tsz. unfold ocb_new. destruct (Nat.eqb_spec (bsz c) 16); cbn [negb].
  2: { split; [intros [? H]; discriminate|intros [H _]; contradiction]. }
  destruct (Z.ltb_spec nsz 1); [split; [intros [? H0]; discriminate|lia]|].
  destruct (Z.leb_spec 16 nsz); [split; [intros [? H1]; discriminate|lia]|].
  destruct (Z.ltb_spec 16 tsz); [split; [intros [? H2]; discriminate|lia]|].
  split; [intros _; repeat split; auto; lia|intros _; eexists; reflexivity].
Qed.
Print Assumptions C16_params.

Lemma new_good c tsz nsz st : lawful c -> ocb_new c nsz (Z.of_nat tsz) = Ok st -> good c tsz st.
Proof.
  intros HL H. assert (P : exists st, ocb_new c nsz (Z.of_nat tsz) = Ok st) by eauto. apply C16_params in P as (Hs & _ & _).
  unfold ocb_new in H. rewrite Hs in H. cbn [Nat.eqb negb] in H.
  destruct (nsz <? 1)%Z; [discriminate|]. destruct (16 <=? nsz)%Z; [discriminate|]. destruct (16 <? Z.of_nat tsz)%Z; [discriminate|].
  injection H as <-. assert (B : isblock 16 (enc c (repeat 0%Z 16))) by (rewrite <- Hs; apply (law_enc HL), zeros_block).
  split; [reflexivity|]. split; [now apply gdbl_eq|]. split; [|now left]. cbn [o_L]. split; [cbn [length]; lia|].
  assert (Eg : gdbl (gdbl (enc c (repeat 0%Z 16))) = L0 (enc c)) by (rewrite (gdbl_eq B), gdbl_eq by apply double_block; reflexivity).
  cbn [repeat] in Eg. rewrite Eg. reflexivity.
Qed.

(** What a user expects of one call, whatever was called before. *)
Definition args_ok (nsz : nat) (o : aop) : Prop :=
  match o with ASeal d n p a | AOpen d n p a => bytes_ok n /\ 0 < length n <= nsz /\ bytes_ok p /\ bytes_ok a end.
Definition ocb_answer (c : cipher) (tsz : nat) (o : aop) (r : res bytes) : Prop :=
  match o with
  | ASeal d n p a => r = Ok (d ++ ocb_encrypt (enc c) tsz n a p)
  | AOpen [] n ct a => r <> Panic /\ forall pt, r = Ok pt <-> bytes_ok pt /\ ocb_encrypt (enc c) tsz n a pt = ct
  | AOpen _ _ _ _ => r = Err      (* defect: a non-empty dst is always refused *)
  end.

Lemma open_ok c nsz tsz st d n ct a : lawful c -> bsz c = 16 -> tsz <= 16 -> nsz < 16 -> good c tsz st ->
  args_ok nsz (AOpen d n ct a) ->
  exists st' r, ocb_open false c nsz tsz st d n ct a = Ok (st', r) /\ good c tsz st' /\ ocb_answer c tsz (AOpen d n ct a) r.
Proof.
  intros HL Hs Ht Hn G (On & Ln & Oc & Oa). unfold ocb_open. destruct (Nat.ltb_spec nsz (length n)); [lia|].
  destruct (Nat.ltb_spec (length ct) tsz) as [Hsh|Hlong].
  - exists st, Err. split; [reflexivity|]. split; [auto|]. destruct d; [|reflexivity]. cbn. split; [discriminate|].
    intro pt. split; [discriminate|]. intros [Op E]. exfalso. destruct (@encrypt_body c tsz HL Hs Ht n a pt Op Oa) as (T & E' & LT).
    rewrite E' in E. apply (f_equal (@length _)) in E. rewrite app_length in E. lia.
  - set (sep := length ct - tsz).
    destruct (@crypt_dec c tsz HL Hs Ht st n a (firstn sep ct) false G On ltac:(lia) (bytes_ok_firstn sep Oc) Oa) as (st' & P & T & E & G' & LP & OP & LT & EE).
    rewrite E. cbn [rbind]. rewrite firstn_length in LP. replace (Nat.min sep (length ct)) with sep in LP by lia.
    assert (Lc : length (skipn sep ct) = tsz) by (rewrite skipn_length; lia).
    destruct d as [|d0 d].
    + cbn [app]. rewrite skipn_app_exact, firstn_app_exact by auto.
      destruct (bytes_eqb T (skipn sep ct)) eqn:Eb.
      * apply bytes_eqb_eq in Eb. exists st', (Ok P). split; [reflexivity|]. split; auto. cbn. split; [discriminate|]. intro pt. split.
        -- intro Hp. injection Hp as <-. split; auto. rewrite EE, Eb. apply firstn_skipn.
        -- intros [Op Ep]. f_equal. apply (@encrypt_inj c tsz HL Hs Ht n a P pt (firstn sep ct) T T); auto. rewrite Ep, Eb. symmetry. apply firstn_skipn.
      * exists st', Err. split; [reflexivity|]. split; auto. cbn. split; [discriminate|]. intro pt. split; [discriminate|].
        intros [Op Ep]. exfalso. assert (Epp : P = pt).
        { apply (@encrypt_inj c tsz HL Hs Ht n a P pt (firstn sep ct) T (skipn sep ct)); auto. rewrite Ep. symmetry. apply firstn_skipn. }
        subst pt. rewrite EE in Ep. rewrite <- (firstn_skipn sep ct) in Ep at 2. apply app_inv_head in Ep. apply bytes_eqb_neq in Eb. contradiction.
    + assert (Eb : bytes_eqb (skipn sep ((d0 :: d) ++ P ++ T)) (skipn sep ct) = false).
      { apply bytes_eqb_neq. intro E0. apply (f_equal (@length _)) in E0. rewrite !skipn_length, !app_length in E0. cbn [length] in E0. lia. }
      rewrite Eb. exists st', Err. split; [reflexivity|]. split; auto. reflexivity.
Qed.

(** Any sequence of Seal and Open calls on one object: the cached nonce and the growing table
    never show. Sealing appends the OCB ciphertext of RFC 7253; opening with an empty dst returns pt
    exactly for the strings that are the OCB ciphertext of pt. *)
Theorem C16_ocb_history : forall c nsz tsz st ops, lawful c -> ocb_new c (Z.of_nat nsz) (Z.of_nat tsz) = Ok st ->
  Forall (args_ok nsz) ops ->
  exists rs, ocb_run c nsz tsz st ops = Ok rs /\ Forall2 (ocb_answer c tsz) ops rs.
Proof.
  intros c nsz tsz st ops HL Hnew Hops. pose proof (new_good HL Hnew) as G.
  assert (P : exists st, ocb_new c (Z.of_nat nsz) (Z.of_nat tsz) = Ok st) by eauto. apply C16_params in P as (Hs & Hn & Ht).
  clear Hnew. revert st G. induction Hops as [|o ops Ho _ IH]; intros st G; [exists []; split; constructor|].
  destruct o as [d n p a|d n ct a]; cbn [ocb_run].
  - destruct Ho as (On & Ln & Op & Oa). unfold ocb_seal. destruct (Nat.ltb_spec nsz (length n)); [lia|].
    destruct (@crypt_enc c tsz HL Hs ltac:(lia) st n a p G On ltac:(lia)) as (st' & E & G'). rewrite E. cbn [rbind].
    destruct (IH st' G') as (rs & Er & F). rewrite Er. cbn [rbind]. eexists. split; [reflexivity|]. constructor; auto. reflexivity.
  - destruct (@open_ok c nsz tsz st d n ct a HL Hs ltac:(lia) ltac:(lia) G Ho) as (st' & r & E & G' & An). rewrite E. cbn [rbind].
    destruct (IH st' G') as (rs & Er & F). rewrite Er. cbn [rbind]. eexists. split; [reflexivity|]. constructor; auto.
Qed.
Print Assumptions C16_ocb_history.

(** Opening in place (dst = ciphertext[:0], the usual call) accepts every string that is at
    least as long as the tag: nothing is authenticated. *)
Theorem C16_open_in_place_refuted : forall c nsz tsz st n ct a, lawful c -> ocb_new c (Z.of_nat nsz) (Z.of_nat tsz) = Ok st ->
  args_ok nsz (AOpen [] n ct a) -> tsz <= length ct ->
  exists st' pt, ocb_open true c nsz tsz st [] n ct a = Ok (st', Ok pt) /\ length pt = length ct - tsz.
Proof.
  intros c nsz tsz st n ct a HL Hnew (On & Ln & Oc & Oa) Hl. pose proof (new_good HL Hnew) as G.
  assert (P : exists st, ocb_new c (Z.of_nat nsz) (Z.of_nat tsz) = Ok st) by eauto. apply C16_params in P as (Hs & Hn & Ht).
  unfold ocb_open. destruct (Nat.ltb_spec nsz (length n)); [lia|]. destruct (Nat.ltb_spec (length ct) tsz); [lia|].
  set (sep := length ct - tsz).
  destruct (@crypt_dec c tsz HL Hs ltac:(lia) st n a (firstn sep ct) true G On ltac:(lia) (bytes_ok_firstn sep Oc) Oa) as (st' & P & T & E & G' & LP & OP & LT & EE).
  rewrite E. cbn [rbind app]. rewrite bytes_eqb_refl. exists st', (firstn sep (P ++ T)). split; [reflexivity|].
  rewrite firstn_length, app_length. rewrite firstn_length in LP. lia.
Qed.
Print Assumptions C16_open_in_place_refuted.

(** Sealing in place computes the checksum from the ciphertext: the result does not open. *)
Theorem C16_seal_in_place_refuted :
  exists c st st' n p ct, lawful c /\ ocb_new c 12 16 = Ok st /\ args_ok 12 (ASeal [] n p []) /\
    ocb_seal true c 12 16 st [] n p [] = Ok (st', ct) /\ exists st'', ocb_open false c 12 16 st' [] n ct [] = Ok (st'', Err).
Proof.
  exists (toyn 16). destruct (ocb_new (toyn 16) 12 16) as [st| |] eqn:E; [|discriminate|discriminate].
  exists st. destruct (ocb_seal true (toyn 16) 12 16 st [] [1; 2]%Z (repeat 7%Z 20) []) as [[st' ct]| |] eqn:E2.
  - exists st', [1; 2]%Z, (repeat 7%Z 20), ct. split; [apply toyn_lawful; lia|]. split; [reflexivity|].
    split; [repeat split; cbn; try lia; repeat constructor; unfold is_byte; lia|]. split; [exact E2|].
    injection E as <-. vm_compute in E2. injection E2 as <- <-. eexists. vm_compute. reflexivity.
  - exfalso. injection E as <-. vm_compute in E2. discriminate.
  - exfalso. injection E as <-. vm_compute in E2. discriminate.
Qed.
Print Assumptions C16_seal_in_place_refuted.

(** Sealing a message that does not end on a block boundary overwrites the byte that follows it in
    the caller's array. *)
Theorem C16_seal_writes_behind_refuted : forall pt s spare, length pt mod 16 <> 0 -> s <> 128%Z ->
  ocb_spare pt (s :: spare) <> s :: spare.
Proof.
  intros pt s spare Hm Hs. unfold ocb_spare. destruct (Nat.eqb_spec (length pt mod 16) 0); [contradiction|].
  destruct (16 - length pt mod 16 <=? _); unfold splice; cbn [firstn app skipn length]; intro E; injection E; intros; congruence.
Qed.
Print Assumptions C16_seal_writes_behind_refuted.

(** The empty nonce passes every check and panics; so does a nonce longer than announced. *)
Theorem C16_nonce_guards : forall c nsz tsz st d p a,
  ocb_seal false c nsz tsz st d [] p a = Panic /\
  (forall n, nsz < length n -> ocb_seal false c nsz tsz st d n p a = Panic /\ ocb_open false c nsz tsz st d n p a = Panic).
Proof.
  intros c nsz tsz st d p a. split; [unfold ocb_seal; cbn [length]; destruct (Nat.ltb_spec nsz 0); reflexivity|].
  intros n Hn. unfold ocb_seal, ocb_open. destruct (Nat.ltb_spec nsz (length n)); [auto|lia].
Qed.
Print Assumptions C16_nonce_guards.

Example C16_instance : lawful (toyn 16) /\
  let n1 := [1; 2; 3; 4; 5; 6; 7; 8; 9; 10; 11; 200]%Z in let n2 := [1; 2; 3; 4; 5; 6; 7; 8; 9; 10; 11; 201]%Z in
  let p := map Z.of_nat (seq 0 75) in let a := map Z.of_nat (seq 100 50) in
  exists st c1 c2, ocb_new (toyn 16) 12 12 = Ok st /\ c1 <> c2 /\
    ocb_run (toyn 16) 12 12 st [ASeal [] n1 p a; ASeal [9]%Z n2 p a; AOpen [] n1 c1 a; AOpen [] n2 c1 a]
    = Ok [Ok c1; Ok (9%Z :: c2); Ok p; Err] /\ c1 = ocb_encrypt (enc (toyn 16)) 12 n1 a p.
Proof.
  split; [apply toyn_lawful; lia|]. intros n1 n2 p a. destruct (ocb_new (toyn 16) 12 12) as [st| |] eqn:E; [|discriminate|discriminate].
  exists st, (ocb_encrypt (enc (toyn 16)) 12 n1 a p), (ocb_encrypt (enc (toyn 16)) 12 n2 a p).
  split; [reflexivity|]. injection E as <-. split; [vm_compute; discriminate|]. split; [vm_compute; reflexivity|reflexivity].
Qed.
