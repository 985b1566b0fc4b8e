(** C60: what calibration needs before it changes anything, and options that cannot be used. *)
From Coq Require Import Ascii String ZArith List Bool Lia ZifyBool Floats.SpecFloat.
From Verif Require Import PyBase PyBytes PyFloat Tool_Model Calib_Model Config_Model Encoder_Model Calfile_Model
  Proc Device_Model Calproc_Model Device_Spec Device_Proofs Calproc_Spec Calproc_Proofs Calproc_Examples Calproc_Bench
  Props_Calproc Props_Stop Ready_Spec.
Import ListNotations.
Open Scope Z_scope.

Lemma contains_says needle text : contains needle text = true -> says needle text.
Proof.
  induction text as [|c text IH]; cbn [contains]; intros H; apply orb_true_iff in H as [H|H]; try discriminate.
  - apply startswith_begins in H as (r & ->). exists [], r. reflexivity.
  - apply startswith_begins in H as (r & ->). exists [], r. reflexivity.
  - apply IH in H as (x & y & ->). exists (c :: x), y. reflexivity.
Qed.

Section P.
Variable parse_float : list Z -> res float.
Variable float_str : float -> list Z.
Variable fixed3 : float -> list Z.
Variable hypot : float -> float -> float.
Variable py_sum : list float -> float.
Variable minimize : list float -> bool * list float.
Notation do_calibrate := (do_calibrate parse_float float_str fixed3 hypot py_sum minimize).
Notation calibrate_motor := (calibrate_motor parse_float float_str fixed3 hypot py_sum minimize).
Ltac ob H x t1 t2 H1 := apply traces_ok_bind in H; destruct H as (x & t1 & t2 & -> & H1 & H).

Lemma supported_reply name t b : traces (is_config_supported name) t (Some (inr b)) ->
  exists r, t = [got name r] /\ (b = false -> absent r).
Proof.
  unfold is_config_supported. intros H. ob H r t1 t2 H1. apply traces_ok_command_any in H1. subst t1. exists r.
  destruct (startswith (lit "ERR") r) eqn:E.
  - destruct (negb _) eqn:N; [now apply traces_ok_throw in H|]. apply traces_ok_ret in H as [-> <-]. split; [reflexivity|]. intros _.
    split; [now apply startswith_begins|]. apply negb_false_iff, orb_true_iff in N as [N|N]; apply contains_says in N; auto.
  - apply traces_ok_ret in H as [-> <-]. split; [reflexivity|discriminate].
Qed.

Lemma options_spec a a' : calibration_parameters a = Ok a' -> options_ok a.
Proof.
  unfold calibration_parameters, options_ok. intros H. destruct (deprecated (a_power a) _) eqn:D1; cbn [bind] in H; [|discriminate].
  destruct (deprecated (a_speed a) _) eqn:D2; cbn [bind] in H; [|discriminate].
  destruct (a_voltage a) eqn:D3; cbn [bind] in H; [discriminate|].
  destruct (deprecated (a_kv_voltage a) _) eqn:D4; cbn [bind] in H; [|discriminate].
  unfold deprecated in *. destruct (a_power a), (a_ll_encoder_voltage a), (a_speed a), (a_kv_voltage a), (a_ll_kv_voltage a); try discriminate; auto.
Qed.

Lemma prepare_ready a t fw c a' : traces (prepare a) t (Some (inr (fw, c, a'))) -> ready a t.
Proof.
  intros H. unfold prepare in H. ob H fw' t1 s1 H1. apply (traces_ok_await ReadFirmware) in H1. subst t1.
  ob H c' t2 s2 H2. ob H u t3 s3 H3. destruct (fw_version fw' >? 266) eqn:V; [now apply traces_ok_throw in H3|]. apply traces_ok_ret in H3 as [-> _].
  ob H b t4 s4 H4. apply supported_reply in H4 as (r & -> & A). ob H v t5 s5 H5. ob H a'' t6 s6 H6. apply traces_ok_lift in H6 as [-> H6].
  apply options_spec in H6. ob H w t7 s7 H7. apply (traces_ok_await (Sleep _)) in H7. subst t7. apply traces_ok_ret in H as [-> E]. destruct w.
  exists fw', (t2 ++ [] ++ [got (lit "motor_position.commutation_source") r] ++ t5 ++ [] ++ [answered (Sleep (float_of_Z 2)) (inr tt)] ++ []).
  split; [reflexivity|]. split; [lia|]. split; [exact H6|]. split; [|split].
  - intros N. rewrite N in H2. apply traces_ok_command in H2. subst t2. exists c'. now left.
  - exists t2, r. eexists. split; [reflexivity|]. destruct b; [right|left; now apply A].
    ob H5 n t8 t9 H8. unfold read_config_int in H8. ob H8 r2 t10 t11 H10. apply traces_ok_command_any in H10. subst t10.
    apply traces_ok_lift in H8 as [-> H8]. destruct (n =? 0) eqn:Z; cbn [negb] in H5; [|now apply traces_ok_throw in H5].
    apply traces_ok_ret in H5 as [-> _]. apply Z.eqb_eq in Z. subst n. exists r2. eexists. split; [reflexivity|exact H8].
  - rewrite !in_app_iff. right. right. right. right. right. left. now left.
Qed.

Lemma ready_more a t u : ready a t -> ready a (t ++ u).
Proof.
  intros (fw & t' & -> & V & O & N & (t1 & r1 & t2 & E & S) & W). exists fw, (t' ++ u). split; [reflexivity|]. split; [exact V|]. split; [exact O|].
  split; [|split].
  - intros Hn. destruct (N Hn) as (c & I). exists c. apply in_or_app. now left.
  - exists t1, r1, (t2 ++ u). split; [rewrite E, <- app_assoc; reflexivity|]. destruct S as [S|(r2 & t3 & -> & S)]; [now left|].
    right. exists r2, (t3 ++ u). auto.
  - apply in_or_app. now left.
Qed.

(** Until these things are so, the device is only looked at. *)
Theorem C60_ready_before_changes a t o t1 e t2 text : traces (do_calibrate a) t o -> t = t1 ++ e :: t2 ->
  sent e = Some text -> ~ reading text -> ready a t1.
Proof.
  intros T E S R. unfold Calproc_Model.do_calibrate in T.
  assert (K : forall u x, traces (prepare a) u x -> ~ In e u).
  { intros u x H I. apply (w_prepare []) in H. rewrite Forall_forall in H. apply H in I. apply R. destruct e as [q y].
    unfold sent in S. cbn [question projT1] in S, I. assert (Q : starts (p_get ++ []) text = true).
    { destruct q; try discriminate S; injection S as ->; exact I. }
    unfold starts in Q. cbn in Q. apply orb_true_iff in Q as [Q|Q]; [left; now apply startswith_begins|].
    apply orb_true_iff in Q as [Q|Q]; [right; now apply startswith_begins|discriminate]. }
  apply traces_bind in T as [[T _]|[(x & T & _)|([[fw c] a'] & u1 & u2 & Et & T & _)]].
  1,2: exfalso; apply (K _ _ T); rewrite E; apply in_or_app; right; now left.
  rewrite E in Et. pose proof (K _ _ T) as N. apply prepare_ready in T.
  assert (exists w, t1 = u1 ++ w) as (w & ->); [|now apply ready_more].
  clear -Et N. revert t1 Et. induction u1 as [|x u1 IH]; intros t1 Et; [exists t1; reflexivity|].
  destruct t1 as [|y t1]; injection Et as -> Et; [exfalso; apply N; now left|].
  apply IH in Et as (w & ->); [exists w; reflexivity|]. intros I. apply N. now right.
Qed.

(** So they were when a calibration succeeded. *)
Theorem C60_ready_on_success a t r : traces (do_calibrate a) t (Some (inr r)) -> ready a t.
Proof. intros H. unfold Calproc_Model.do_calibrate in H. ob H x t1 t2 H1. destruct x as [[fw c] a']. apply prepare_ready in H1. now apply ready_more. Qed.

Lemma motor_mapping a fw t r : traces (calibrate_motor a fw) t (Some (inr r)) ->
  exists V res n u x, traces (calibrate_encoder_mapping parse_float float_str py_sum minimize a (fw_version fw) V res n) u (Some (inr x)).
Proof.
  intros H. unfold Calproc_Model.calibrate_motor in H.
  do 9 (let x := fresh "x" in let t1 := fresh "t" in let t2 := fresh "s" in let H1 := fresh "K" in ob H x t1 t2 H1).
  ob H y t10 s10 H10. destruct y as [[res hv] n]. do 5 (let x := fresh "x" in let t1 := fresh "t" in let t2 := fresh "s" in let H1 := fresh "K" in ob H x t1 t2 H1).
  ob H z ta sa Ha. ob H w tb sb Hb. eauto 8.
Qed.

Lemma mapping_no_tuple a ver V res n u x : traces (calibrate_encoder_mapping parse_float float_str py_sum minimize a ver V res n) u (Some (inr x)) ->
  given (a_ll_encoder_voltage a) = None.
Proof.
  intros H. unfold calibrate_encoder_mapping in H. ob H w t1 t2 H1. apply traces_ok_lift in H1 as [-> H1]. ob H v t3 t4 H3.
  destruct w as [w|w]; [|now apply traces_ok_throw in H3]. unfold find_encoder_cal_voltage in H1.
  destruct (given (a_ll_encoder_voltage a)); [congruence|reflexivity].
Qed.

(** The voltage for the encoder cannot be chosen: with --cal-ll-encoder-voltage or --cal-power, other
    than 0, no calibration succeeds. *)
Theorem C60_encoder_voltage_refuted a t r : traces (do_calibrate a) t (Some (inr r)) ->
  given (a_ll_encoder_voltage a) = None /\ given (a_power a) = None.
Proof.
  intros H. unfold Calproc_Model.do_calibrate in H. ob H x t1 t2 H1. destruct x as [[fw c] a']. apply prepare_args in H1 as (Ha & _ & _).
  ob H y t3 t4 H3. apply motor_mapping in H3 as (V & res & n & u & z & H3). apply mapping_no_tuple in H3.
  unfold calibration_parameters in Ha. destruct (deprecated (a_power a) (a_ll_encoder_voltage a)) as [v|] eqn:D; cbn [bind] in Ha; [|discriminate].
  destruct (deprecated (a_speed a) _); cbn [bind] in Ha; [|discriminate].
  destruct (match a_voltage a with Some _ => _ | None => _ end); cbn [bind] in Ha; [|discriminate].
  destruct (deprecated (a_kv_voltage a) _); cbn [bind] in Ha; [|discriminate]. injection Ha as <-. cbn [a_ll_encoder_voltage] in H3.
  unfold deprecated in D. destruct (a_power a), (a_ll_encoder_voltage a); try discriminate; injection D as <-; auto.
Qed.

(** A run that succeeds without --encoder-bw-hz set the current loop, for which the inductance must
    have been measured, or there is no encoder filter to set. *)
Theorem C60_needs_inductance a t r : traces (do_calibrate a) t (Some (inr r)) -> given (a_encoder_bw_hz a) = None ->
  (exists value e, In e t /\ accepted (set_text (lit "servo.pid_dq.kp") value) e) \/
  (exists r1 r2, In (got (lit "motor_position.sources.0.pll_filter_hz") r1) t /\ absent r1 /\
                 In (got (lit "servo.encoder_filter.enabled") r2) t /\ absent r2).
Proof.
  intros H N. unfold Calproc_Model.do_calibrate in H. ob H x t1 t2 H1. destruct x as [[fw c] a']. apply prepare_args in H1 as (Ha & _ & _).
  assert (N' : given (a_encoder_bw_hz a') = None).
  { unfold calibration_parameters in Ha. repeat match type of Ha with bind ?x _ = _ => destruct x; cbn [bind] in Ha; [|discriminate] end. injection Ha as <-. exact N. }
  ob H y t3 t4 H3. clear H Ha N. revert H3. generalize dependent a'. intros a' N H.
  enough (G : (exists value e, In e t3 /\ accepted (set_text (lit "servo.pid_dq.kp") value) e) \/
    (exists r1 r2, In (got (lit "motor_position.sources.0.pll_filter_hz") r1) t3 /\ absent r1 /\
                 In (got (lit "servo.encoder_filter.enabled") r2) t3 /\ absent r2)).
  { destruct G as [(v & e & I & A)|(r1 & r2 & I1 & A1 & I2 & A2)].
    - left. exists v, e. split; [rewrite !in_app_iff; auto|exact A].
    - right. exists r1, r2. rewrite !in_app_iff. auto 8. }
  unfold Calproc_Model.calibrate_motor in H.
  do 9 (let x := fresh "x" in let t1 := fresh "u" in let t2 := fresh "s" in let H1 := fresh "K" in ob H x t1 t2 H1).
  ob H z u10 s10 H10. destruct z as [[res hv] n]. do 3 (let x := fresh "x" in let t1 := fresh "u" in let t2 := fresh "s" in let H1 := fresh "K" in ob H x t1 t2 H1).
  ob H loop ul sl HL. ob H enc ue se HE.
  assert (G : (exists value e, In e ul /\ accepted (set_text (lit "servo.pid_dq.kp") value) e) \/
    (exists r1 r2, In (got (lit "motor_position.sources.0.pll_filter_hz") r1) ue /\ absent r1 /\
                 In (got (lit "servo.encoder_filter.enabled") r2) ue /\ absent r2)).
  { unfold set_encoder_filter in HE. ob HE b1 e1 f1 HE1. apply supported_reply in HE1 as (r1 & -> & A1).
    ob HE b2 e2 f2 HE2. apply supported_reply in HE2 as (r2 & -> & A2). destruct (negb b1 && negb b2) eqn:B.
    - right. apply andb_true_iff in B as [B1 B2]. apply negb_true_iff in B1, B2. exists r1, r2. rewrite !in_app_iff. cbn. auto 8.
    - left. unfold set_current_loop in HL. match type of HL with context [given ?i] => destruct (given i) as [ind|] end.
      + ob HL q l1 l2 HL1. destruct q as [[kp ki] bw]. ob HL w l3 l4 HL3. unfold set_float in HL3. ob HL3 p l5 l6 HL5.
        apply traces_ok_command in HL5. subst l5. exists (float_str kp), (answered (Command (set_text (lit "servo.pid_dq.kp") (float_str kp)) false) (inr p)).
        split; [rewrite !in_app_iff; cbn; auto|]. exists false, p. reflexivity.
      + exfalso. apply traces_ok_ret in HL as [_ <-]. ob HE d e3 e4 HE3. unfold desired_encoder_bw in HE3. rewrite N in HE3. cbn [option_map] in HE3.
        ob HE3 q e5 e6 HE5. apply traces_ok_lift in HE5 as [_ HE5]. discriminate. }
  destruct G as [(v & e & I & A)|(r1 & r2 & I1 & A1 & I2 & A2)].
  - left. exists v, e. split; [rewrite !in_app_iff; tauto|exact A].
  - right. exists r1, r2. rewrite !in_app_iff. tauto.
Qed.

(** Looking for the index of the encoder ends with the motor stopped. *)
Theorem C53_index_search_is_stopped a v t : traces (find_index float_str a v) t (Some (inr tt)) -> stopped t.
Proof.
  intros H. apply rest_stopped. unfold find_index in H. ob H x t1 t2 H1. ob H y t3 t4 H3. ob H z t5 t6 H5. ob H w t7 t8 H7.
  apply traces_ok_ret in H as [-> _]. rewrite app_nil_r. do 3 apply rest_r. exact (rest_here _ _ H7).
Qed.
End P.

(** ** Examples *)

(** A run that succeeds without --encoder-bw-hz; the current loop was set. *)
Example ex_ready : exists t r, traces (bench_calibrate true) t (Some (inr r)) /\ ready (bench_args true) t /\
  given (a_encoder_bw_hz (bench_args true)) = None /\ Exists (sends (set_text (lit "motor.poles") (lit "4"))) t.
Proof.
  destruct (bench_traces true never (fun t o => match o with inr _ => existsb (sends_b (set_text (lit "motor.poles") (lit "4"))) t | inl _ => false end))
    as (t & o & T & K); [vm_compute; reflexivity|].
  destruct o as [e|r]; [discriminate|]. exists t, r. split; [exact T|]. split; [|split; [reflexivity|]].
  - exact (C60_ready_on_success _ _ _ _ _ _ (bench_args true) _ _ T).
  - apply existsb_exists in K as (e & I & K). apply Exists_exists. exists e. split; [exact I|now apply sends_b_true].
Qed.

(** The options of the bench, with a voltage for the encoder. *)
Definition volt_args : cal_args :=
  {| a_invert := false; a_hall := false; a_bw_hz := float_of_Z 200; a_encoder_bw_hz := None; a_no_update := false;
     a_ll_encoder_voltage := Some (flit 4 1); a_ll_encoder_speed := float_of_Z 1; a_ll_kv_voltage := None; a_power := None;
     a_speed := None; a_voltage := None; a_kv_voltage := None; a_motor_power := flit 75 1;
     a_motor_speed := float_of_Z 6; a_motor_poles := Some 4; a_force_kv := None;
     a_force_optimize := false; a_disable_optimize := true; a_max_remainder := flit 1 1;
     a_max_kv_power_factor := flit 125 2; a_write_raw := false; a_force_current_mode := false |}.
Definition volt_calibrate : T report := do_calibrate toy_parse toy_str milli fadd left_sum (fun l => (false, l)) volt_args.
Definition volt_run := drive (Z.to_nat 20000) (bench_device (lit "1") never) ({| pwms := 0; polls := 0; clock := 0 |}, 0) volt_calibrate.
Lemma volt_traces ok : (match volt_run with Some (t, o, _) => ok t o | None => false end) = true ->
  exists t o, traces volt_calibrate t (Some o) /\ ok t o = true.
Proof.
  unfold volt_run. destruct (drive _ _ _ _) as [[[t o] w]|] eqn:E; [|discriminate]. intros H. exists t, o. split; auto.
  exact (drive_traces _ _ _ _ _ _ _ _ _ E).
Qed.

(** The options are accepted, the motor is driven, and then the run fails with a TypeError. *)
Example ex_tuple : options_ok volt_args /\ given (a_ll_encoder_voltage volt_args) = Some (flit 4 1) /\
  exists t, traces volt_calibrate t (Some (inl (Exn TypeError))) /\
    exists e text, In e t /\ sent e = Some text /\ begins (lit "d pwm ") text.
Proof.
  split; [unfold options_ok; cbn; auto|]. split; [vm_compute; reflexivity|].
  destruct (volt_traces (fun t o => match o with inl (Exn TypeError) =>
    existsb (fun e => match sent e with Some y => startswith (lit "d pwm ") y | None => false end) t | _ => false end))
    as (t & o & T & K); [vm_compute; reflexivity|].
  destruct o as [[x|m]|r]; try discriminate. destruct x; try discriminate.
  exists t. split; [exact T|]. apply existsb_exists in K as (e & I & K).
  destruct (sent e) as [y|] eqn:S; [|discriminate]. exists e, y. split; [exact I|]. split; [exact S|]. now apply startswith_begins.
Qed.

Print Assumptions C60_ready_before_changes.
Print Assumptions C60_ready_on_success.
Print Assumptions C60_encoder_voltage_refuted.
Print Assumptions C60_needs_inductance.
Print Assumptions C53_index_search_is_stopped.
