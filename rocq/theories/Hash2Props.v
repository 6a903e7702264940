(** C28 for the BELT hash and for Bash. *)
From Coq Require Import String.
From Verif Require Import Base WordModel WordLib HashSpec HexLit HbufModel HbufSpec HbufProofs Hash1Props BeltModel Hash2Model Hash2Spec Hash2Proofs.
Set Implicit Arguments. Unset Strict Implicit.
Local Open Scope nat_scope.

Theorem C28_belt_streams : streams bh_write bh_sum bh_reset bh_new belt_digest.
Proof. apply buf_streams; [lia|reflexivity|reflexivity|]. intros. now apply bh_sum_ok. Qed.
Print Assumptions C28_belt_streams.
(** the vectors of STB 34.101.31 *)
Example C28_belt_instance :
  belt_digest (hx "B194BAC80A08F53B366D008E58") = hx "ABEF9725D4C5A83597A367D14494CC2542F20F659DDFECC961A3EC550CBA8C75" /\
  belt_digest (hx "B194BAC80A08F53B366D008E584A5DE48504FA9D1BB6C7AC252E72C202FDCE0D5BE3D61217B96181FE6786AD716B890B")
    = hx "9D02EE446FB6A29FE5C982D4B13AF9D3E90861BC4CEF27CF306BFB0B174A154A" /\
  bh_oneshot (hx "B194BAC80A08F53B366D008E58") = Ok (belt_digest (hx "B194BAC80A08F53B366D008E58")).
Proof. vm_compute. repeat split; reflexivity. Qed.

(** Bash, for every digest size from 8 to 512 bits: right as long as no Write crosses the end of a block. *)
Theorem C28_bash_streams hs ops : 1 <= hs <= 64 -> fits (bash_bs hs) 0 ops ->
  hrun_r (bash_write hs) (bash_sum hs) (bash_reset hs) (bash_init hs) ops = map Ok (expected (bash_digest hs) [] ops).
Proof. intros H F. apply bash_run; auto. now apply bash_init_held. Qed.
Print Assumptions C28_bash_streams.
(** In particular every message can be hashed byte by byte. *)
Lemma fits_bytewise bs m : 0 < bs -> forall pos ops, pos < bs -> (forall q, q < bs -> fits bs q ops) -> fits bs pos (map (fun b => HWrite [b]) m ++ ops).
Proof.
  intro P. induction m as [|b m IH]; intros pos ops Q F; cbn [map app fits]; auto.
  split; [cbn [length]; lia|]. apply IH; auto. apply Nat.mod_upper_bound. lia.
Qed.
Theorem C28_bash_bytewise hs m : 1 <= hs <= 64 ->
  hrun_r (bash_write hs) (bash_sum hs) (bash_reset hs) (bash_init hs) (map (fun b => HWrite [b]) m ++ [HSum []]) = [Ok (bash_digest hs m)].
Proof.
  intro H. rewrite C28_bash_streams; auto.
  - assert (E : forall a, expected (bash_digest hs) a (map (fun b => HWrite [b]) m ++ [HSum []]) = [bash_digest hs (a ++ m)]).
    { induction m as [|b m IH]; intro a; cbn [map app expected]; [now rewrite app_nil_r|]. rewrite IH, <- app_assoc. reflexivity. }
    rewrite E. reflexivity.
  - apply fits_bytewise; unfold bash_bs; try lia. intros. exact I.
Qed.
Print Assumptions C28_bash_bytewise.
Example C28_bash_instance :
  bash_digest 28 (hx "1F877C") = hx "c8b22035a5357c9b31cd13788b7e898ad61d87fb459e5e309def9e9b" /\
  fits (bash_bs 28) 0 [HWrite (hx "1F87"); HSum []; HWrite (hx "7C"); HSum []].
Proof. split; [vm_compute; reflexivity|]. cbn. unfold bash_bs. repeat split; lia. Qed.
(** The digest of a message depends on how it is cut into Writes: 137 zero bytes, in one Write or in two. *)
Theorem C28_bash_chunking_refuted :
  hrun_r (bash_write 28) (bash_sum 28) (bash_reset 28) (bash_init 28) [HWrite (repeat 0%Z 136); HWrite [7%Z]; HSum []] = [Ok (bash_digest 28 (repeat 0%Z 136 ++ [7%Z]))] /\
  hrun_r (bash_write 28) (bash_sum 28) (bash_reset 28) (bash_init 28) [HWrite (repeat 0%Z 136 ++ [7%Z]); HSum []] <> [Ok (bash_digest 28 (repeat 0%Z 136 ++ [7%Z]))].
Proof.
  split.
  - rewrite C28_bash_streams; [reflexivity|lia|]. cbn [fits]. rewrite repeat_length. vm_compute. repeat split; lia.
  - vm_compute. discriminate.
Qed.
Print Assumptions C28_bash_chunking_refuted.
(** The constructor: which sizes it takes. *)
Theorem C28_bash_sizes n : bash_new n = Err <-> (n = 0 \/ 512 < n \/ (0 < n /\ n mod 8 <> 0))%Z.
Proof.
  unfold bash_new. destruct (Z.eqb_spec n 0) as [->|Z0]; [split; auto|].
  destruct (Z.ltb_spec 0 (Z.rem n 8)) as [R|R].
  - assert (0 < n)%Z. { destruct (Z.le_gt_cases n 0); auto. pose proof (Z.rem_nonpos n 8). lia. }
    rewrite Z.rem_mod_nonneg in R by lia. split; auto. intros _. right. right. lia.
  - destruct (Z.ltb_spec 512 n) as [B|B]; [split; auto|]. split; [discriminate|]. intros [?|[?|[P M]]]; lia.
Qed.
Print Assumptions C28_bash_sizes.
