(** C28: Router.  C42: PythonCan. *)
From Coq Require Import Ascii String ZArith List Bool Lia ZifyBool ZifyNat Permutation.
From Verif Require Import PyBase PyBytes Zbits Mux_Model Protocol_Spec Fw_Spec Ctrl_Model Async
  Async_Proofs Serial Async_Inv Fdcanusb_Model Props_Fdcanusb Router_Model.
Import ListNotations.
Open Scope Z_scope.
Ltac Zify.zify_post_hook ::= Z.div_mod_to_equations.

Section Router.
Context {T R : Type}.
Notation dest := (T * list Z)%type.

(** ** Specification *)

(** An id is listed for a transport. *)
Definition owns (d : dest) (c : command) : Prop := In (cmd_destination c) (snd d).
(** No id is listed twice, for two entries. *)
Definition partition (ds : list dest) : Prop :=
  forall i j d e c, nth_error ds i = Some d -> nth_error ds j = Some e ->
    owns d c -> owns e c -> i = j.
Definition owned (ds : list dest) (c : command) : Prop := exists d, In d ds /\ owns d c.

(** [l] without the elements that are not in [P], in the same order. *)
Inductive picked {A} (P : A -> Prop) : list A -> list A -> Prop :=
| pk_nil : picked P [] []
| pk_in x l m : P x -> picked P l m -> picked P (x :: l) (x :: m)
| pk_out x l m : ~ P x -> picked P l m -> picked P (x :: l) m.

(** The calls made by cycle: the transport and its commands. *)
Definition calls_made (ds : list dest) (cs : list command) (calls : list (T * list command)) : Prop :=
  exists o, runs (@router_cycle T R ds cs) tt [] o [Gather calls].

Lemma id_in_spec ids c : id_in ids c = true <-> In (cmd_destination c) ids.
Proof.
  unfold id_in. rewrite existsb_exists. split.
  - intros (x & H & E). apply Z.eqb_eq in E. now subst.
  - intros H. exists (cmd_destination c). split; auto. apply Z.eqb_refl.
Qed.

Lemma picked_filter ids cs : picked (fun c => In (cmd_destination c) ids) cs (filter (id_in ids) cs).
Proof.
  induction cs as [|c cs IH]; cbn; [constructor|].
  destruct (id_in ids c) eqn:E.
  - constructor; auto. now apply id_in_spec.
  - constructor; auto. rewrite <- id_in_spec. congruence.
Qed.

Lemma picked_det A (P : A -> Prop) l m : picked P l m -> forall m', picked P l m' -> m = m'.
Proof.
  induction 1; intros m' H'; inversion H'; subst; auto; try contradiction. f_equal. auto.
Qed.

Lemma calls_arguments ds cs calls : calls_made ds cs calls <-> calls = router_arguments ds cs.
Proof.
  split.
  - intros (o & [|n] & H); [discriminate|]. cbn in H. now injection H as _ <-.
  - intros ->. eexists. apply runs_wait.
Qed.

(** Cycle makes one call for each entry that has a command, in the order of the
    entries, with the commands whose id is listed in the entry, in their
    order. *)
Theorem C28_calls : forall ds cs calls, calls_made ds cs calls ->
  exists groups, Forall2 (fun d g => picked (owns d) cs g) ds groups /\
    picked (fun x => snd x <> []) (combine (map fst ds) groups) calls.
Proof.
  intros ds cs calls H. apply calls_arguments in H. subst.
  exists (map (fun d => filter (id_in (snd d)) cs) ds). split.
  - induction ds as [|d ds IH]; cbn; constructor; auto. apply picked_filter.
  - unfold router_arguments. induction ds as [|d ds IH]; cbn; [constructor|].
    destruct (filter (id_in (snd d)) cs) as [|x l]; cbn.
    + apply pk_out; auto.
    + apply pk_in; auto. discriminate.
Qed.

Lemma concat_arguments ds cs : concat (map snd (router_arguments ds cs)) =
  concat (map (fun d : dest => filter (id_in (snd d)) cs) ds).
Proof.
  unfold router_arguments. induction ds as [|d ds IH]; cbn; auto.
  destruct (filter (id_in (snd d)) cs) as [|x l] eqn:E; cbn; auto. now rewrite IH.
Qed.

Lemma partition_tail d ds : partition (d :: ds) -> partition ds.
Proof.
  intros P i j a b c Hi Hj Ha Hb. assert (S i = S j) as E by (eapply P; eauto). lia.
Qed.

Lemma partition_head d ds c : partition (d :: ds) -> owns d c -> ~ owned ds c.
Proof.
  intros P H (e & He & Hc). apply In_nth_error in He. destruct He as [j He].
  assert (0%nat = S j) by (eapply P; [reflexivity|exact He|exact H|exact Hc]). lia.
Qed.

(** If no id is listed twice, every command with a listed id is in exactly one
    call, and no other command is in any: together the calls hold exactly the
    commands with a listed id. *)
Theorem C28_exactly_once : forall ds cs calls, partition ds -> calls_made ds cs calls ->
  exists m, picked (owned ds) cs m /\ Permutation (concat (map snd calls)) m.
Proof.
  intros ds cs calls P H. apply calls_arguments in H. subst. rewrite concat_arguments.
  induction cs as [|c cs IH].
  - exists []. split; [constructor|].
    assert (concat (map (fun d : dest => filter (id_in (snd d)) []) ds) = []) as ->; auto.
    clear. induction ds; cbn; auto.
  - destruct IH as (m & Hm & Pm).
    assert ((owned ds c /\ Permutation (concat (map (fun d : dest => filter (id_in (snd d)) (c :: cs)) ds))
              (c :: concat (map (fun d : dest => filter (id_in (snd d)) cs) ds))) \/
            (~ owned ds c /\ concat (map (fun d : dest => filter (id_in (snd d)) (c :: cs)) ds) =
              concat (map (fun d : dest => filter (id_in (snd d)) cs) ds))) as X.
    { clear Hm Pm. induction ds as [|d ds IH].
      - right. split; auto. intros (d & [] & _).
      - specialize (IH (partition_tail _ _ P)). cbn [map concat].
        assert (filter (id_in (snd d)) (c :: cs) =
          if id_in (snd d) c then c :: filter (id_in (snd d)) cs else filter (id_in (snd d)) cs)
          as Ef by reflexivity. rewrite Ef. clear Ef.
        destruct (id_in (snd d) c) eqn:E.
        + left. assert (owns d c) as Hd by now apply id_in_spec.
          split; [exists d; split; [now left|exact Hd]|].
          destruct IH as [[O _]|[_ ->]]; [|reflexivity].
          exfalso. eapply partition_head; eauto.
        + assert (~ owns d c) as Hd by (unfold owns; rewrite <- id_in_spec; congruence).
          destruct IH as [[(e & He & Hc) X]|[N ->]].
          * left. split; [exists e; split; [now right|exact Hc]|].
            rewrite X. symmetry. apply Permutation_middle.
          * right. split; auto. intros (e & [<-|He] & Hc); auto. apply N. exists e. auto. }
    destruct X as [[O X]|[N ->]].
    + exists (c :: m). split; [now constructor|]. rewrite X. now constructor.
    + exists m. split; auto. now constructor.
Qed.

(** The results: the list of the results of the calls, in the order of the
    entries.  If a call fails, cycle fails with the exception of one of them. *)
Definition gathers (outs : list (res (list R))) (r : res (list (list R))) : Prop :=
  match r with
  | Ok l => outs = map Ok l
  | Raise e => In (Raise e) outs
  end.

Theorem C28_results : forall ds cs calls (outs : list (res (list R))) r,
  calls_made ds cs calls -> List.length outs = List.length calls -> gathers outs r ->
  exists o, runs (router_cycle ds cs) tt [r] o [Gather calls] /\
  match o with
  | Returned l _ _ => exists per, outs = map Ok per /\ l = concat per
  | Raised e _ _ => In (Raise e) outs
  | Waiting _ _ => False
  end.
Proof.
  intros ds cs calls outs r H L G. apply calls_arguments in H. subst.
  exists (finish (bind r (fun l => Ok (concat l))) tt []). split.
  - unfold router_cycle. destruct r; cbn; apply runs_await; cbn; [apply runs_ret|apply runs_throw].
  - destruct r as [l|e]; cbn in *; [|exact G]. exists l. auto.
Qed.

(** Where every transport answers a call with one result for each command, the
    result of cycle is the results of the calls' commands in the order of the
    calls: with C28_calls and C28_exactly_once, one result for each command with
    a listed id. *)
Corollary C28_all_answered : forall ds cs calls (reply : command -> R),
  partition ds -> calls_made ds cs calls ->
  exists l m, runs (router_cycle ds cs) tt [Ok (map (fun c => map reply (snd c)) calls)]
      (Returned l tt []) [Gather calls] /\
    picked (owned ds) cs m /\ Permutation l (map reply m).
Proof.
  intros ds cs calls reply P H. destruct (C28_exactly_once ds cs calls P H) as (m & Hm & Pm).
  exists (concat (map (fun c => map reply (snd c)) calls)), m. apply calls_arguments in H.
  split; [|split; auto].
  - subst. unfold router_cycle. cbn. apply runs_await. cbn. apply runs_ret.
  - rewrite <- Pm. clear. induction calls as [|[t g] calls IH]; cbn; auto.
    rewrite map_app. now apply Permutation_app_head.
Qed.

(** Commands with an unlisted id are dropped without an error: if there are only
    such commands no call is made and the result is the empty list. *)
Theorem C28_unlisted : forall ds cs, (forall c, In c cs -> ~ owned ds c) ->
  runs (@router_cycle T R ds cs) tt [Ok []] (Returned [] tt []) [Gather []].
Proof.
  intros ds cs H. assert (router_arguments ds cs = []) as E.
  { unfold router_arguments. induction ds as [|d ds IH]; auto. cbn.
    assert (filter (id_in (snd d)) cs = []) as ->.
    { assert (forall c, In c cs -> id_in (snd d) c = false) as X.
      { intros c Hc. destruct (id_in (snd d) c) eqn:E; auto. exfalso. apply (H c Hc).
        exists d. split; [now left|]. now apply id_in_spec. }
      clear - X. induction cs as [|c cs IH]; auto. cbn. rewrite X by now left. apply IH.
      intros; apply X; now right. }
    cbn. apply IH. intros c Hc (e & He & X). apply (H c Hc). exists e. split; [now right|auto]. }
  unfold router_cycle. rewrite E. cbn. apply runs_await. cbn. apply runs_ret.
Qed.

(** write and read never work, whatever the router and the command. *)
Theorem C28_write_refuted : forall (ds : list dest) c, router_write ds c = Raise AttributeError.
Proof. reflexivity. Qed.
Theorem C28_read_refuted : forall ds : list dest, router_read ds = Raise AttributeError.
Proof. reflexivity. Qed.
End Router.

Definition to (id : Z) : command :=
  {| cmd_destination := id; cmd_source := 0; cmd_reply_required := true; cmd_data := [0x14; 4; 0];
     cmd_can_prefix := 0; cmd_expected_reply_size := 0; cmd_raw := false; cmd_arbitration_id := 0 |}.

Lemma partition_two T (t u : T) a b : (forall x, In x a -> ~ In x b) -> partition [(t, a); (u, b)].
Proof.
  intros H i j d e c Hi Hj Hd He.
  assert (forall k x, nth_error [(t, a); (u, b)] k = Some x ->
    (k = 0%nat /\ x = (t, a)) \/ (k = 1%nat /\ x = (u, b))) as X.
  { intros [|[|k]] x Hx; cbn in Hx; [injection Hx as <-; auto|injection Hx as <-; auto|].
    destruct k; discriminate. }
  destruct (X _ _ Hi) as [[-> ->]|[-> ->]], (X _ _ Hj) as [[-> ->]|[-> ->]]; auto;
    exfalso; unfold owns in *; cbn in *; eapply H; eauto.
Qed.

(** The order of the results is not that of the commands: result 0 here is that
    of command 1. *)
Theorem C28_command_order_refuted : exists (ds : list (nat * list Z)) cs (calls : list (nat * list command)),
  partition ds /\ calls_made (R := Z) ds cs calls /\
  cs = [to 1; to 3] /\
  runs (router_cycle ds cs) tt [Ok (map (fun c => map cmd_destination (snd c)) calls)]
    (Returned [3; 1] tt []) [Gather calls].
Proof.
  exists [(0%nat, [3; 6]); (1%nat, [1; 4])], [to 1; to 3], [(0%nat, [to 3]); (1%nat, [to 1])].
  split; [|split; [|split; [reflexivity|]]].
  - apply partition_two. cbn. lia.
  - eexists. apply runs_wait.
  - apply runs_await. cbn. apply runs_ret.
Qed.

(** An id listed twice: the command is sent twice. *)
Theorem C28_listed_twice : forall T R (t u : T) id cs, cs = [to id] ->
  calls_made (R := R) [(t, [id]); (u, [id])] cs [(t, cs); (u, cs)].
Proof.
  intros T R t u id cs ->. apply calls_arguments. unfold router_arguments, id_in. cbn [map filter snd fst].
  cbn [existsb to cmd_destination]. rewrite Z.eqb_refl. reflexivity.
Qed.

Example C28_ex : partition [(0%nat, [3; 6]); (1%nat, [1; 4])] /\
  router_arguments [(0%nat, [3; 6]); (1%nat, [1; 4])] [to 4; to 3; to 9; to 6; to 1] =
    [(0%nat, [to 3; to 6]); (1%nat, [to 4; to 1])].
Proof.
  split; [|reflexivity]. apply partition_two. cbn. lia.
Qed.

(** ** C42: PythonCan *)
Section Python_can.
Context {V : Type}.
Notation PC := (prog (list can_frame) preq message).

(** The frame: the command's data padded to the least CAN-FD length, which does
    not change its meaning, and the id made of destination, reply flag and
    prefix. *)
Theorem C42_frame : forall brs c, (List.length (cmd_data c) <= 64)%nat ->
  0 <= cmd_destination c < 256 -> 0 <= cmd_can_prefix c ->
  let f := can_message brs c in let id := fr_arbitration_id f in
  fr_data f = cmd_data c ++ padding (Z.of_nat (List.length (cmd_data c))) /\
  fr_dlc f = Z.of_nat (List.length (fr_data f)) /\ can_fd_length (fr_dlc f) /\
  (forall m, can_fd_length m -> Z.of_nat (List.length (cmd_data c)) <= m -> fr_dlc f <= m) /\
  (forall acc, spec_decode (cmd_data c) = Some acc -> spec_decode (fr_data f) = Some acc) /\
  id mod 256 = cmd_destination c /\ (id / 256) mod 128 = 0 /\
  ((id / 32768) mod 2 = if cmd_reply_required c then 1 else 0) /\
  id / 65536 = cmd_can_prefix c.
Proof.
  intros brs c L D P f id.
  assert (fr_data f = cmd_data c ++ padding (Z.of_nat (List.length (cmd_data c)))) as E
    by (rewrite padding_dlc by lia; reflexivity).
  pose proof (C25_least_length (Z.of_nat (List.length (cmd_data c))) ltac:(lia)) as (A & B & C).
  split; [exact E|]. split; [rewrite E; now rewrite C25_padded|].
  split; [exact A|]. split; [exact C|]. split.
  { intros acc H. rewrite E. now apply C25_same_meaning. }
  pose (c0 := {| cmd_destination := cmd_destination c; cmd_source := 0;
    cmd_reply_required := cmd_reply_required c; cmd_data := []; cmd_can_prefix := cmd_can_prefix c;
    cmd_expected_reply_size := 0; cmd_raw := false; cmd_arbitration_id := 0 |}).
  destruct (C24_bus_id c0 eq_refl D P) as (_ & X). exact X.
Qed.

(** The frame is extended exactly when the id does not fit the 11 bits of a
    standard one: for a servo id, when a reply is requested or a prefix is
    set. *)
Theorem C42_extended : forall brs c, 0 <= cmd_destination c < 128 -> 0 <= cmd_can_prefix c ->
  let f := can_message brs c in
  (fr_is_extended_id f = false <-> fr_arbitration_id f < 2 ^ 11) /\
  (fr_is_extended_id f = true <-> cmd_reply_required c = true \/ 0 < cmd_can_prefix c).
Proof.
  intros brs c D P f.
  pose (c0 := {| cmd_destination := cmd_destination c; cmd_source := 0;
    cmd_reply_required := cmd_reply_required c; cmd_data := []; cmd_can_prefix := cmd_can_prefix c;
    cmd_expected_reply_size := 0; cmd_raw := false; cmd_arbitration_id := 0 |}).
  destruct (C24_bus_id c0 eq_refl ltac:(cbn; lia) P) as (N & X1 & X2 & X3 & X4).
  change (bus_id c0) with (fr_arbitration_id f) in *. cbn [c0 cmd_destination cmd_reply_required
    cmd_can_prefix] in *.
  assert (fr_is_extended_id f = (0x7ff <=? fr_arbitration_id f)) as E by reflexivity.
  rewrite E. set (id := fr_arbitration_id f) in *. clearbody id. clear E f.
  destruct (cmd_reply_required c); (split; split; intros H; try lia).
Qed.

(** A raw command is sent with the id of a servo command, not with its own. *)
Theorem C42_raw_refuted : exists c, cmd_raw c = true /\
  forall brs, fr_arbitration_id (can_message brs c) <> cmd_arbitration_id c.
Proof.
  exists {| cmd_destination := 1; cmd_source := 0; cmd_reply_required := true; cmd_data := [1];
    cmd_can_prefix := 0; cmd_expected_reply_size := 0; cmd_raw := true; cmd_arbitration_id := 0x123 |}.
  split; [reflexivity|]. intros brs. vm_compute. discriminate.
Qed.

(** One cycle by itself: [ms] the messages it takes, in order; [frames] what it
    sends. *)
Inductive exchanged (brs : bool) : list (@can_command V) -> list message -> list can_frame ->
  res (list V) -> Prop :=
| ex_nil : exchanged brs [] [] [] (Ok [])
| ex_none c cs ms fs r : cmd_reply_required (cc c) = false -> exchanged brs cs ms fs r ->
    exchanged brs (c :: cs) ms (can_message brs (cc c) :: fs) r
| ex_some c cs m ms fs v r : cmd_reply_required (cc c) = true -> cc_parse c m = Ok v ->
    exchanged brs cs ms fs r ->
    exchanged brs (c :: cs) (m :: ms) (can_message brs (cc c) :: fs) (bind r (fun l => Ok (v :: l)))
| ex_error c cs m e : cmd_reply_required (cc c) = true -> cc_parse c m = Raise e ->
    exchanged brs (c :: cs) [m] [can_message brs (cc c)] (Raise e).

Definition wanting (cs : list (@can_command V)) : nat :=
  List.length (filter (fun c => cmd_reply_required (cc c)) cs).

Theorem C42_cycle : forall brs cs sent ms,
  (exists used rest fs r, ms = used ++ rest /\ exchanged brs cs used fs r /\
     runs (pc_cycle brs cs) sent (map Ok ms) (finish r (sent ++ fs) (map Ok rest))
       (repeat GetMessage (List.length used))) \/
  ((List.length ms < wanting cs)%nat /\ exists fs,
     runs (pc_cycle brs cs) sent (map Ok ms) (Waiting (sent ++ fs) GetMessage)
       (repeat GetMessage (S (List.length ms)))).
Proof.
  intros brs cs. induction cs as [|c cs IH]; intros sent ms.
  - left. exists [], ms, [], (Ok []). split; [reflexivity|]. split; [constructor|].
    cbn. rewrite app_nil_r. apply runs_ret.
  - cbn [pc_cycle]. unfold pc_do_command, pc_write. unfold wanting. cbn [filter pbind].
    destruct (cmd_reply_required (cc c)) eqn:Er; cbn [negb].
    + destruct ms as [|m ms].
      * right. split; [cbn; lia|]. exists [can_message brs (cc c)].
        apply runs_get, runs_put. cbn. apply runs_wait.
      * destruct (cc_parse c m) as [v|e] eqn:Ep.
        -- destruct (IH (sent ++ [can_message brs (cc c)]) ms)
             as [(used & rest & fs & r & -> & X & R)|(L & fs & R)].
           ++ left. exists (m :: used), rest, (can_message brs (cc c) :: fs), (bind r (fun l => Ok (v :: l))).
              split; [reflexivity|]. split; [now constructor|].
              apply runs_get, runs_put. cbn [map pbind lift List.length repeat await]. apply runs_await.
              cbn [lift pbind]. rewrite Ep. cbn [lift pbind].
              rewrite <- app_assoc in R. cbn [app] in R.
              destruct r as [l|e].
              ** rewrite <- (app_nil_r (repeat _ _)). eapply runs_bind; [exact R|]. apply runs_ret.
              ** now apply runs_bind_raise.
           ++ right. split; [cbn; unfold wanting in L; lia|].
              exists (can_message brs (cc c) :: fs).
              apply runs_get, runs_put. cbn [map pbind lift List.length repeat await]. apply runs_await.
              cbn [lift pbind]. rewrite Ep. cbn [lift pbind].
              rewrite <- app_assoc in R. cbn [app] in R. now apply runs_bind_wait.
        -- left. exists [m], ms, [can_message brs (cc c)], (Raise e).
           split; [reflexivity|]. split; [now constructor|].
           apply runs_get, runs_put. cbn [map pbind lift List.length repeat await]. apply runs_await.
           cbn [lift pbind]. rewrite Ep. apply runs_throw.
    + destruct (IH (sent ++ [can_message brs (cc c)]) ms)
        as [(used & rest & fs & r & -> & X & R)|(L & fs & R)].
      * left. exists used, rest, (can_message brs (cc c) :: fs), r.
        split; [reflexivity|]. split; [now constructor|].
        apply runs_get, runs_put. cbn [pbind]. rewrite <- app_assoc in R. cbn [app] in R.
        destruct r as [l|e].
        -- rewrite <- (app_nil_r (repeat _ _)). eapply runs_bind; [exact R|]. apply runs_ret.
        -- now apply runs_bind_raise.
      * right. split; [exact L|]. exists (can_message brs (cc c) :: fs).
        apply runs_get, runs_put. cbn [pbind]. rewrite <- app_assoc in R. cbn [app] in R.
        now apply runs_bind_wait.
Qed.
End Python_can.

Definition ask (id : Z) (reply : bool) : @can_command (list Z) :=
  {| cc := {| cmd_destination := id; cmd_source := 0; cmd_reply_required := reply;
       cmd_data := [0x14; 4; 0]; cmd_can_prefix := 0; cmd_expected_reply_size := 0;
       cmd_raw := false; cmd_arbitration_id := 0 |}; cc_parse := fun m => Ok (m_data m) |}.
Definition reply_from (id : Z) (d : list Z) := {| m_arbitration_id := id * 256; m_data := d |}.

(** The results are not aligned with the commands: those without reply are left
    out (Fdcanusb.cycle gives None for them, C27). *)
Theorem C42_alignment_refuted : forall brs,
  runs (pc_cycle brs [ask 1 false; ask 2 true]) [] [Ok (reply_from 2 [7])]
    (Returned [[7]] [can_message brs (cc (ask 1 false)); can_message brs (cc (ask 2 true))] [])
    [GetMessage].
Proof. intros brs. exists 20%nat. reflexivity. Qed.

(** Two cycles at the same time: nothing keeps the reply of servo 2 from the
    caller that asked servo 1. *)
Theorem C42_concurrent_refuted : forall brs, exists P,
  steps (start []) [Spawn (pc_cycle brs [ask 1 true]); Spawn (pc_cycle brs [ask 2 true]);
                    Answer 0 (Ok (reply_from 2 [22])); Answer 1 (Ok (reply_from 1 [11]))] P /\
  sh_st (po_shared P) = [can_message brs (cc (ask 1 true)); can_message brs (cc (ask 2 true))] /\
  po_tasks P = [Done (Ok [[22]]); Done (Ok [[11]])].
Proof.
  intros brs. eexists. split; [eapply (exec_events_steps _ 20); reflexivity|]. split; reflexivity.
Qed.

Example C42_ex : exchanged false [ask 1 true; ask 2 false; ask 3 true]
  [reply_from 1 [5]; reply_from 3 [6]]
  [can_message false (cc (ask 1 true)); can_message false (cc (ask 2 false));
   can_message false (cc (ask 3 true))] (Ok [[5]; [6]]).
Proof.
  apply (ex_some _ _ _ _ _ _ [5] (Ok [[6]])); auto. apply ex_none; auto.
  apply (ex_some _ _ _ _ _ _ [6] (Ok [])); auto. constructor.
Qed.
Example C42_ex_frame : can_message false (cc (ask 1 true)) =
  {| fr_arbitration_id := 0x8001; fr_is_extended_id := true; fr_dlc := 3; fr_data := [0x14; 4; 0];
     fr_is_fd := true; fr_bitrate_switch := true |}.
Proof. reflexivity. Qed.

Print Assumptions C28_calls.
Print Assumptions C28_exactly_once.
Print Assumptions C28_results.
Print Assumptions C28_all_answered.
Print Assumptions C28_unlisted.
Print Assumptions C28_write_refuted.
Print Assumptions C28_read_refuted.
Print Assumptions C28_command_order_refuted.
Print Assumptions C28_listed_twice.
Print Assumptions C42_frame.
Print Assumptions C42_extended.
Print Assumptions C42_raw_refuted.
Print Assumptions C42_cycle.
Print Assumptions C42_alignment_refuted.
Print Assumptions C42_concurrent_refuted.
