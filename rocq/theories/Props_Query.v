(** C11-C13: query frames. *)
From Coq Require Import ZArith List Bool Lia Sorted FinFun.
From Coq Require Import ZifyBool ZifyNat.
From Verif Require Import PyBase PyFloat Mux_Model Protocol_Spec Fw_Spec Zbits Mux_Proofs
  Parser_Proofs Ctrl_Model Combiner_Proofs Query_Proofs.
Ltac Zify.zify_post_hook ::= Z.div_mod_to_equations.
Import ListNotations.
Open Scope Z_scope.

(** ** What a query asks for (docs/reference.md register list)

    The register each field of QueryResolution stands for.  The home state
    register is asked for at the larger of the resolutions given under its
    two names. *)
Definition larger (a b : resolution) : resolution :=
  match find (fun r => res_eqb r a || res_eqb r b) [F32; INT32; INT16; INT8] with
  | Some r => r
  | None => IGNORE
  end.

Definition requested (q : query_resolution) : list (Z * resolution) :=
  [(0x00, q_mode q); (0x01, q_position q); (0x02, q_velocity q); (0x03, q_torque q);
   (0x04, q_q_current q); (0x05, q_d_current q); (0x06, q_abs_position q); (0x07, q_power q);
   (0x0a, q_motor_temperature q); (0x0b, q_trajectory_complete q);
   (0x0c, larger (q_rezero_state q) (q_home_state q));
   (0x0d, q_voltage q); (0x0e, q_temperature q); (0x0f, q_fault q);
   (0x5e, q_aux1_gpio q); (0x5f, q_aux2_gpio q)].

(** A dictionary of registers the query can be made from. *)
Definition registers_ok (d : list (Z * resolution)) : Prop :=
  NoDup (map fst d) /\ Forall (fun p => 0 <= fst p < 2 ^ 35) d.

Lemma merge_larger : forall a b, merge_resolutions a b = larger a b.
Proof. intros [] []; reflexivity. Qed.

Lemma bounds_ok : forall d k ks, registers_ok d -> keys d = k :: ks ->
  0 <= list_min k ks /\
  list_min k ks + Z.of_nat (length (extra_resolutions d (list_min k ks) (list_max k ks))) <= 2 ^ 35.
Proof.
  intros d k ks [_ F] EK.
  assert (FK : Forall (fun x => 0 <= x < 2 ^ 35) (k :: ks)).
  { rewrite <- EK. unfold keys. apply Forall_map. exact F. }
  rewrite Forall_forall in FK.
  pose proof (FK _ (list_min_in ks k)). pose proof (FK _ (list_max_in ks k)).
  pose proof (list_min_le ks k) as [A _]. pose proof (list_max_ge ks k) as [B _].
  unfold extra_resolutions. rewrite map_length, Zrange_length. cbv beta in *. lia.
Qed.

Lemma query_data_ok : forall q, registers_ok (q_extra q) -> ~ long_run (q_extra q) ->
  exists data size L, make_query_data q = Ok (data, size) /\
    kframe KRead data (reads (used (requested q) ++ L)) size /\ listing (q_extra q) L.
Proof.
  intros q RK NL. unfold make_query_data. rewrite merge_larger.
  set (g1 := [q_mode q; _; _; _; _; _; _; _]).
  set (g2 := [q_motor_temperature q; _; _; _; _; _]).
  set (g3 := [q_aux1_gpio q; _]).
  destruct (run_query_reads [] R_MODE g1) as (c1 & d1 & E1 & W1 & F1);
    [unfold R_MODE; lia|cbn; lia|apply runs_ok_short; cbn; lia|].
  rewrite E1. cbn [bind].
  destruct (run_query_reads (c_writer c1) R_MOTOR_TEMPERATURE g2) as (c2 & d2 & E2 & W2 & F2);
    [unfold R_MOTOR_TEMPERATURE; lia|cbn; lia|apply runs_ok_short; cbn; lia|].
  rewrite E2. cbn [bind].
  destruct (run_query_reads (c_writer c2) R_AUX1_GPIO_STATUS g3) as (c3 & d3 & E3 & W3 & F3);
    [unfold R_AUX1_GPIO_STATUS; lia|cbn; lia|apply runs_ok_short; cbn; lia|].
  rewrite E3. cbn [bind].
  cbn [app] in W1. rewrite W1 in W2. rewrite W2 in W3. rewrite <- app_assoc in W3.
  pose proof (kframe_app _ _ _ _ _ _ _ F1 (kframe_app _ _ _ _ _ _ _ F2 F3)) as F.
  rewrite <- !reads_app, <- !used_app in F.
  change (index R_MODE g1 ++ index R_MOTOR_TEMPERATURE g2 ++ index R_AUX1_GPIO_STATUS g3)
    with (requested q) in F.
  destruct (keys (q_extra q)) as [|k ks] eqn:EK.
  - exists (c_writer c3), (c_reply_size c1 + c_reply_size c2 + c_reply_size c3), [].
    split; [reflexivity|]. rewrite app_nil_r, W3, <- Z.add_assoc. split; [exact F|].
    split; [constructor|]. destruct (q_extra q); [|discriminate]. cbn. tauto.
  - destruct (bounds_ok _ _ _ RK EK) as [B1 B2]. destruct RK as [ND RK].
    assert (RO : runs_ok None (extra_resolutions (q_extra q) (list_min k ks) (list_max k ks))).
    { destruct (runs_ok_dec (extra_resolutions (q_extra q) (list_min k ks) (list_max k ks)) None) as [H|H]; auto.
      exfalso. apply NL. apply (long_run_runs _ _ _ EK ND). destruct H as (a & r & c & Hr & E).
      rewrite E. intro R. destruct (runs_ok_long _ _ _ _ Hr R). discriminate. }
    destruct (run_query_reads (c_writer c3) (list_min k ks)
                (extra_resolutions (q_extra q) (list_min k ks) (list_max k ks)))
      as (c4 & d4 & E4 & W4 & F4); auto.
    rewrite E4. cbn [bind]. eexists _, _, _. split; [reflexivity|].
    rewrite W4, W3, <- !app_assoc, reads_app.
    split.
    + pose proof (kframe_app _ _ _ _ _ _ _ F F4) as FF. rewrite <- !app_assoc in FF.
      replace (c_reply_size c1 + c_reply_size c2 + c_reply_size c3 + c_reply_size c4)
        with (c_reply_size c1 + (c_reply_size c2 + c_reply_size c3) + c_reply_size c4) by lia.
      exact FF.
    + apply used_listing; auto.
Qed.

Lemma query_data_long : forall q, registers_ok (q_extra q) -> long_run (q_extra q) ->
  make_query_data q = Raise StructError.
Proof.
  intros q RK LR. unfold make_query_data. rewrite merge_larger.
  set (g1 := [q_mode q; _; _; _; _; _; _; _]).
  set (g2 := [q_motor_temperature q; _; _; _; _; _]).
  set (g3 := [q_aux1_gpio q; _]).
  destruct (run_query_reads [] R_MODE g1) as (c1 & d1 & E1 & _ & _);
    [unfold R_MODE; lia|cbn; lia|apply runs_ok_short; cbn; lia|].
  rewrite E1. cbn [bind].
  destruct (run_query_reads (c_writer c1) R_MOTOR_TEMPERATURE g2) as (c2 & d2 & E2 & _ & _);
    [unfold R_MOTOR_TEMPERATURE; lia|cbn; lia|apply runs_ok_short; cbn; lia|].
  rewrite E2. cbn [bind].
  destruct (run_query_reads (c_writer c2) R_AUX1_GPIO_STATUS g3) as (c3 & d3 & E3 & _ & _);
    [unfold R_AUX1_GPIO_STATUS; lia|cbn; lia|apply runs_ok_short; cbn; lia|].
  rewrite E3. cbn [bind].
  destruct (keys (q_extra q)) as [|k ks] eqn:EK.
  - exfalso. destruct LR as (x & r & _ & H). specialize (H 0 ltac:(lia)).
    destruct (q_extra q); [|discriminate]. destruct H.
  - destruct (bounds_ok _ _ _ RK EK) as [B1 B2]. destruct RK as [ND RK].
    rewrite run_query_raise; [reflexivity|lia|]. apply long_run_runs; auto.
Qed.

Lemma kframe_spec : forall l a s, kframe KRead l a s ->
  spec_decode l = Some a /\ spec_reply_size l = Some s.
Proof. intros l a s H. apply frame_decode; [eapply kframe_frame; eauto|lia]. Qed.

Lemma reads_app_pairs : forall q L, reads (used (requested q) ++ L)
  = map (fun p => ARead (fst p) (snd p))
        (filter (fun p => negb (res_eqb (snd p) IGNORE)) (requested q) ++ L).
Proof. reflexivity. Qed.

(** ** C11 *)

(** make_query(query_override = q), decoded by the protocol, reads exactly
    the registers of q that are not IGNORE, then the extra ones in
    increasing order. *)
Theorem C11_make_query : forall ct q,
  registers_ok (q_extra q) -> ~ long_run (q_extra q) ->
  exists cmd L, make_query ct (Some q) = Ok cmd /\
    cmd_reply_required cmd = true /\ cmd_destination cmd = ct_id ct /\
    StronglySorted (fun a b => fst a < fst b) L /\
    (forall k r, In (k, r) L <-> In (k, r) (q_extra q) /\ r <> IGNORE) /\
    spec_decode (cmd_data cmd) =
      Some (map (fun p => ARead (fst p) (snd p))
             (filter (fun p => negb (res_eqb (snd p) IGNORE)) (requested q) ++ L)).
Proof.
  intros ct q RK NL. destruct (query_data_ok q RK NL) as (data & size & L & E & F & [S I]).
  unfold make_query. rewrite E. cbn [bind]. eexists _, L. split; [reflexivity|].
  cbn [cmd_reply_required cmd_destination cmd_data make_command fst orb].
  split; [reflexivity|]. split; [reflexivity|]. split; [exact S|]. split; [exact I|].
  apply (kframe_spec _ _ _ F).
Qed.

(** The query a Controller was constructed with: what make_query() without
    an override sends. *)
Theorem C11_default_query : forall id q p v cu pw prefix,
  registers_ok (q_extra q) -> ~ long_run (q_extra q) ->
  exists ct cmd L, make_controller id q p v cu pw prefix = Ok ct /\
    make_query ct None = Ok cmd /\ cmd_destination cmd = id /\ cmd_reply_required cmd = true /\
    StronglySorted (fun a b => fst a < fst b) L /\
    (forall k r, In (k, r) L <-> In (k, r) (q_extra q) /\ r <> IGNORE) /\
    spec_decode (cmd_data cmd) =
      Some (map (fun p => ARead (fst p) (snd p))
             (filter (fun p => negb (res_eqb (snd p) IGNORE)) (requested q) ++ L)).
Proof.
  intros id q p v cu pw prefix RK NL.
  destruct (query_data_ok q RK NL) as (data & size & L & E & F & [S I]).
  unfold make_controller. rewrite E. cbn [bind]. eexists _, _, L. split; [reflexivity|].
  split; [reflexivity|]. cbn [cmd_reply_required cmd_destination cmd_data make_command fst orb ct_id ct_query_data].
  split; [reflexivity|]. split; [reflexivity|]. split; [exact S|]. split; [exact I|].
  apply (kframe_spec _ _ _ F).
Qed.

(** make_custom_query: the registers of the dictionary, in order. *)
Theorem C11_make_custom_query : forall ct d,
  registers_ok d -> ~ long_run d -> d <> [] ->
  exists cmd L, make_custom_query ct d = Ok cmd /\
    cmd_reply_required cmd = true /\ cmd_destination cmd = ct_id ct /\
    StronglySorted (fun a b => fst a < fst b) L /\
    (forall k r, In (k, r) L <-> In (k, r) d /\ r <> IGNORE) /\
    spec_decode (cmd_data cmd) = Some (map (fun p => ARead (fst p) (snd p)) L) /\
    spec_reply_size (cmd_data cmd) = Some (cmd_expected_reply_size cmd) /\
    query_parse (cmd_data cmd) = Ok (map Some L).
Proof.
  intros ct d RK NL NE. unfold make_custom_query.
  destruct (keys d) as [|k ks] eqn:EK; [destruct d; [congruence|discriminate]|].
  destruct (bounds_ok _ _ _ RK EK) as [B1 B2]. destruct RK as [ND RK].
  assert (RO : runs_ok None (extra_resolutions d (list_min k ks) (list_max k ks))).
  { destruct (runs_ok_dec (extra_resolutions d (list_min k ks) (list_max k ks)) None) as [H|H]; auto.
    exfalso. apply NL. apply (long_run_runs _ _ _ EK ND). destruct H as (a & r & c & Hr & E).
    rewrite E. intro R. destruct (runs_ok_long _ _ _ _ Hr R). discriminate. }
  destruct (run_query_reads [] (list_min k ks) (extra_resolutions d (list_min k ks) (list_max k ks)))
    as (c & q & E & W & F); auto.
  rewrite E. cbn [bind]. cbn [app] in W. subst q.
  destruct (used_listing d k ks EK ND) as [S I].
  eexists _, _. split; [reflexivity|].
  cbn [cmd_reply_required cmd_destination cmd_data cmd_expected_reply_size make_command orb].
  split; [reflexivity|]. split; [reflexivity|]. split; [exact S|]. split; [exact I|].
  destruct (kframe_spec _ _ _ F) as [D Z]. split; [exact D|]. split; [exact Z|].
  rewrite (query_parse_kframe _ _ _ F), read_pairs_reads. reflexivity.
Qed.

(** The failures: an empty dictionary, and more than 127 consecutive
    registers at one resolution. *)
Theorem C11_long_run_raises : forall ct q d,
  registers_ok (q_extra q) -> registers_ok d ->
  (long_run (q_extra q) <-> make_query ct (Some q) = Raise StructError) /\
  (long_run d <-> make_custom_query ct d = Raise StructError) /\
  make_custom_query ct [] = Raise ValueError.
Proof.
  intros ct q d RQ RD.
  assert (DEC : forall d, registers_ok d -> long_run d \/ ~ long_run d).
  { intros e [ND _]. destruct (keys e) as [|k ks] eqn:EK.
    - right. intros (x & r & _ & H). specialize (H 0 ltac:(lia)). destruct e; [destruct H|discriminate].
    - assert (ND' : NoDup (keys e)) by exact ND.
      destruct (runs_ok_dec (extra_resolutions e (list_min k ks) (list_max k ks)) None) as [R|(a & r & c & Hr & E)].
      + right. rewrite (long_run_runs _ _ _ EK ND'). tauto.
      + left. rewrite (long_run_runs _ _ _ EK ND'), E. intro R.
        destruct (runs_ok_long _ _ _ _ Hr R). discriminate. }
  split; [|split; [|reflexivity]].
  - split; intro H.
    + unfold make_query. rewrite query_data_long; auto.
    + destruct (DEC _ RQ) as [|N]; auto.
      destruct (C11_make_query ct q RQ N) as (? & ? & E & _). congruence.
  - split; intro H.
    + unfold make_custom_query. destruct (keys d) as [|k ks] eqn:EK.
      * destruct H as (x & r & _ & H). specialize (H 0 ltac:(lia)). destruct d; [destruct H|discriminate].
      * destruct (bounds_ok _ _ _ RD EK) as [B1 B2]. destruct RD as [ND RD].
        rewrite run_query_raise; [reflexivity|lia|]. apply long_run_runs; auto.
    + destruct (DEC _ RD) as [|N]; auto.
      assert (NE : d <> []) by (intro X; rewrite X in H; discriminate).
      destruct (C11_make_custom_query ct d RD N NE) as (? & ? & E & _). congruence.
Qed.

(** A negative register number makes write_varuint loop for ever. *)
Theorem C11_negative_register_diverges : forall ct k r, k < 0 -> r <> IGNORE ->
  make_custom_query ct [(k, r)] = Raise Diverges.
Proof.
  intros ct k r Hk Hr. unfold make_custom_query. cbn [keys map fst list_min list_max fold_left].
  unfold extra_resolutions. rewrite Zrange_cons, Zrange_nil by lia. cbn [map extra_get].
  rewrite Z.eqb_refl. unfold run_query.
  destruct r; try congruence; cbn -[write_varuint]; unfold write_varuint;
    rewrite varuint_negative by lia; reflexivity.
Qed.

Definition ex_query : query_resolution := {|
  q_mode := INT8; q_position := F32; q_velocity := F32; q_torque := F32;
  q_q_current := F32; q_d_current := IGNORE; q_abs_position := INT16; q_power := INT16;
  q_motor_temperature := IGNORE; q_trajectory_complete := INT8; q_rezero_state := INT8;
  q_home_state := INT32; q_voltage := INT8; q_temperature := INT8; q_fault := INT8;
  q_aux1_gpio := IGNORE; q_aux2_gpio := INT8;
  q_extra := [(0x58, INT16); (0x50, F32); (0x51, IGNORE); (0x130, INT8)] |}.

Definition ex_controller : controller := {|
  ct_id := 5; ct_query := default_query_resolution; ct_position := default_position_resolution;
  ct_vfoc := default_vfoc_resolution; ct_current := default_current_resolution;
  ct_pwm := default_pwm_resolution; ct_prefix := 0;
  ct_query_data := [0x11; 0; 0x1f; 1; 0x13; 0x0d]; ct_query_reply_size := 22 |}.

Example ex_query_ok : registers_ok (q_extra ex_query) /\ ~ long_run (q_extra ex_query).
Proof.
  split; [split|].
  - repeat constructor; cbn; intuition congruence.
  - repeat constructor; cbn; lia.
  - intros (k & r & _ & H). pose proof (H 0 ltac:(lia)). pose proof (H 1 ltac:(lia)).
    cbn [q_extra ex_query In] in *.
    repeat match goal with X : _ \/ _ |- _ => destruct X end; try contradiction;
    repeat match goal with X : (_, _) = (_, _) |- _ => apply pair_equal_spec in X; destruct X end;
    try lia; subst r; discriminate.
Qed.

Example C11_example :
  match make_query ex_controller (Some ex_query) with
  | Ok cmd => spec_decode (cmd_data cmd) =
      Some [ARead 0 INT8; ARead 1 F32; ARead 2 F32; ARead 3 F32; ARead 4 F32;
            ARead 6 INT16; ARead 7 INT16; ARead 0xb INT8; ARead 0xc INT32; ARead 0xd INT8;
            ARead 0xe INT8; ARead 0xf INT8; ARead 0x5f INT8;
            ARead 0x50 F32; ARead 0x58 INT16; ARead 0x130 INT8]
  | Raise _ => False
  end.
Proof. vm_compute. reflexivity. Qed.

Example C11_long_run_example :
  long_run (map (fun i => (Z.of_nat i, INT8)) (seq 0 200)) /\
  registers_ok (map (fun i => (Z.of_nat i, INT8)) (seq 0 200)).
Proof.
  split.
  - exists 3, INT8. split; [discriminate|]. intros i Hi. apply in_map_iff.
    exists (Z.to_nat (3 + i)). split; [f_equal; lia|]. apply in_seq. lia.
  - split.
    + rewrite map_map. cbn [fst]. apply Injective_map_NoDup; [|apply seq_NoDup].
      intros a b H. lia.
    + apply Forall_map. apply Forall_forall. intros x I. apply in_seq in I. cbn [fst]. lia.
Qed.

(** ** C12 *)

(** QueryParser.parse gives back the registers of a query frame. *)
Theorem C12_query_parser_inverts : forall ct q,
  registers_ok (q_extra q) -> ~ long_run (q_extra q) ->
  exists cmd L, make_query ct (Some q) = Ok cmd /\
    StronglySorted (fun a b => fst a < fst b) L /\
    (forall k r, In (k, r) L <-> In (k, r) (q_extra q) /\ r <> IGNORE) /\
    query_parse (cmd_data cmd)
    = Ok (map Some (filter (fun p => negb (res_eqb (snd p) IGNORE)) (requested q) ++ L)).
Proof.
  intros ct q RK NL. destruct (query_data_ok q RK NL) as (data & size & L & E & F & [S I]).
  unfold make_query. rewrite E. cbn [bind]. eexists _, L. split; [reflexivity|].
  split; [exact S|]. split; [exact I|]. cbn [cmd_data make_command fst].
  rewrite (query_parse_kframe _ _ _ F), read_pairs_reads. reflexivity.
Qed.

(** The same frame padded with NOPs to a CAN-FD size: an extra None. *)
Theorem C12_padding_adds_none : forall ct q n,
  registers_ok (q_extra q) -> ~ long_run (q_extra q) -> (1 <= n)%nat ->
  exists cmd l, make_query ct (Some q) = Ok cmd /\
    query_parse (cmd_data cmd) = Ok l /\
    query_parse (cmd_data cmd ++ repeat 0x50 n) = Ok (l ++ [None]).
Proof.
  intros ct q n RK NL Hn. destruct (query_data_ok q RK NL) as (data & size & L & E & F & [S I]).
  unfold make_query. rewrite E. cbn [bind]. eexists _, _. split; [reflexivity|].
  cbn [cmd_data make_command fst]. split; [apply (query_parse_kframe _ _ _ F)|].
  apply (query_parse_padded _ _ _ n F Hn).
Qed.

(** Padding is therefore not harmless, as it is for replies. *)
Corollary C12_padding_harmless_refuted : exists cmd,
  make_query ex_controller None = Ok cmd /\
  query_parse (cmd_data cmd ++ [0x50]) <> query_parse (cmd_data cmd).
Proof. eexists. split; [reflexivity|]. vm_compute. discriminate. Qed.

(** On arbitrary bytes the parser stops, with a list or an exception. *)
Theorem C12_query_parser_terminates : forall data, bytes_ok data ->
  query_parse data <> Raise Diverges.
Proof.
  intros data B. unfold query_parse. apply qparse_terminates; auto.
  - unfold p_size. cbn. lia.
  - cbn. lia.
  - unfold p_size, parser_init. cbn [p_data p_offset p_remaining]. lia.
Qed.

Example C12_example :
  match make_query ex_controller (Some ex_query) with
  | Ok cmd => query_parse (cmd_data cmd) =
      Ok (map Some [(0, INT8); (1, F32); (2, F32); (3, F32); (4, F32); (6, INT16); (7, INT16);
            (0xb, INT8); (0xc, INT32); (0xd, INT8); (0xe, INT8); (0xf, INT8); (0x5f, INT8);
            (0x50, F32); (0x58, INT16); (0x130, INT8)])
  | Raise _ => False
  end.
Proof. vm_compute. reflexivity. Qed.

(** ** C13 *)

Lemma numbered_accesses : forall (val : Z -> resolution -> list Z) n start r,
  numbered start r (map (fun i => val (start + Z.of_nat i) r) (seq 0 n))
  = map (fun p => (fst p, snd p, val (fst p) (snd p))) (index start (repeat r n)).
Proof.
  induction n as [|n IH]; intros start r; [reflexivity|].
  cbn [seq map repeat index numbered fst snd]. rewrite Z.add_0_r. f_equal.
  rewrite <- IH. rewrite <- seq_shift, map_map. f_equal. apply map_ext. intro. f_equal. lia.
Qed.

Definition access_pairs (a : list access) : list (Z * resolution) :=
  flat_map (fun x => match x with ARead k r => [(k, r)] | _ => [] end) a.

Lemma access_pairs_reads : forall l, access_pairs (reads l) = l.
Proof. induction l as [|[k r] l IH]; [reflexivity|]. cbn. f_equal. exact IH. Qed.

Lemma access_pairs_accesses : forall bs start r,
  access_pairs (accesses KRead start r bs) = index start (repeat r (length bs)).
Proof.
  induction bs as [|b bs IH]; intros; [reflexivity|].
  cbn [accesses access_pairs flat_map mk_access length repeat index app]. f_equal. apply IH.
Qed.

Lemma kframe_reply : forall (val : Z -> resolution -> list Z),
  (forall k r, r <> IGNORE -> bytes_ok (val k r) /\ length (val k r) = spec_width r) ->
  forall l a s, kframe KRead l a s ->
  exists reply,
    encodes_reply reply (map (fun p => (fst p, snd p, val (fst p) (snd p))) (access_pairs a)) /\
    Z.of_nat (length reply) = s.
Proof.
  intros val Hval. induction 1 as [|r n start vu bs l a s Hr Hn Hv HL HB H (reply & ER & LR)].
  - exists []. split; [constructor|reflexivity].
  - set (vals := map (fun i => val (start + Z.of_nat i) r) (seq 0 (Z.to_nat n))).
    assert (LV : Z.of_nat (length vals) = n) by (unfold vals; rewrite map_length, seq_length; lia).
    assert (FV : Forall (fun v => bytes_ok v /\ length v = spec_width r) vals).
    { apply Forall_forall. intros v I. apply in_map_iff in I. destruct I as (i & <- & _). auto. }
    set (long := negb (n <=? 3)).
    exists (reply_header long r (Z.of_nat (length vals)) ++ vu ++ concat vals ++ reply). split.
    + unfold access_pairs. rewrite flat_map_app, map_app.
      fold (access_pairs a). fold (access_pairs (accesses KRead start r bs)).
      rewrite access_pairs_accesses, HL, <- numbered_accesses. fold vals.
      apply er_sub; auto. rewrite LV. unfold long. destruct (Z.leb_spec n 3); cbn; lia.
    + rewrite !app_length.
      assert (LC : length (concat vals) = (Z.to_nat n * spec_width r)%nat).
      { replace (Z.to_nat n) with (length vals) by lia. clear - FV.
        induction FV as [|v vals [_ E] _ IH]; [reflexivity|]. cbn. rewrite app_length, IH. lia. }
      assert (LH : length (reply_header long r (Z.of_nat (length vals))) = length (hdr KRead r n)).
      { unfold reply_header, long, hdr. destruct (n <=? 3); reflexivity. }
      rewrite LC, LH. nia.
Qed.

(** For any register values, the reply that answers a query, subframe by
    subframe, has the size the command announces; and so has at least one
    encoding of exactly those registers. *)
Theorem C13_expected_reply_size : forall ct q val,
  registers_ok (q_extra q) -> ~ long_run (q_extra q) ->
  (forall k r, r <> IGNORE -> bytes_ok (val k r) /\ length (val k r) = spec_width r) ->
  exists cmd L reply, make_query ct (Some q) = Ok cmd /\
    spec_reply_size (cmd_data cmd) = Some (cmd_expected_reply_size cmd) /\
    (forall k r, In (k, r) L <-> In (k, r) (q_extra q) /\ r <> IGNORE) /\
    encodes_reply reply (map (fun p => (fst p, snd p, val (fst p) (snd p)))
      (filter (fun p => negb (res_eqb (snd p) IGNORE)) (requested q) ++ L)) /\
    Z.of_nat (length reply) = cmd_expected_reply_size cmd.
Proof.
  intros ct q val RK NL Hval. destruct (query_data_ok q RK NL) as (data & size & L & E & F & [S I]).
  unfold make_query. rewrite E. cbn [bind].
  destruct (kframe_reply val Hval _ _ _ F) as (reply & ER & LR).
  rewrite access_pairs_reads in ER.
  eexists _, L, reply. split; [reflexivity|].
  cbn [cmd_expected_reply_size cmd_data make_command fst snd].
  split; [apply (kframe_spec _ _ _ F)|]. split; [exact I|]. split; [exact ER|exact LR].
Qed.

(** The default query of a Controller, and make_custom_query. *)
Theorem C13_default_and_custom : forall id q p v cu pw prefix ct cmd,
  registers_ok (q_extra q) -> ~ long_run (q_extra q) ->
  make_controller id q p v cu pw prefix = Ok ct ->
  (make_query ct None = Ok cmd ->
     spec_reply_size (cmd_data cmd) = Some (cmd_expected_reply_size cmd)) /\
  (forall d cmd', registers_ok d -> ~ long_run d -> d <> [] ->
     make_custom_query ct d = Ok cmd' ->
     spec_reply_size (cmd_data cmd') = Some (cmd_expected_reply_size cmd')).
Proof.
  intros id q p v cu pw prefix ct cmd RK NL EC. split.
  - intro EQ. destruct (query_data_ok q RK NL) as (data & size & L & E & F & _).
    unfold make_controller in EC. rewrite E in EC. cbn [bind] in EC.
    injection EC as <-. cbn in EQ. injection EQ as <-. cbn. apply (kframe_spec _ _ _ F).
  - intros d cmd' RD ND NE EQ.
    destruct (C11_make_custom_query ct d RD ND NE) as (c & L & E & _ & _ & _ & _ & _ & Z & _).
    congruence.
Qed.

(** make_read_gpio announces the size of the default query's reply. *)
Theorem C13_read_gpio_size_refuted : exists ct cmd,
  make_controller 1 default_query_resolution default_position_resolution
    default_vfoc_resolution default_current_resolution default_pwm_resolution 0 = Ok ct /\
  make_read_gpio ct = Ok cmd /\
  spec_reply_size (cmd_data cmd) = Some 4 /\ cmd_expected_reply_size cmd = 22.
Proof.
  eexists _, _. split; [vm_compute; reflexivity|]. split; [vm_compute; reflexivity|].
  split; vm_compute; reflexivity.
Qed.

Example C13_example :
  match make_query ex_controller (Some ex_query) with
  | Ok cmd => cmd_expected_reply_size cmd = 59 /\ spec_reply_size (cmd_data cmd) = Some 59
  | Raise _ => False
  end.
Proof. vm_compute. auto. Qed.

Print Assumptions C11_make_query.
Print Assumptions C11_default_query.
Print Assumptions C11_make_custom_query.
Print Assumptions C11_long_run_raises.
Print Assumptions C11_negative_register_diverges.
Print Assumptions C12_query_parser_inverts.
Print Assumptions C12_padding_adds_none.
Print Assumptions C12_padding_harmless_refuted.
Print Assumptions C12_query_parser_terminates.
Print Assumptions C13_expected_reply_size.
Print Assumptions C13_default_and_custom.
Print Assumptions C13_read_gpio_size_refuted.
