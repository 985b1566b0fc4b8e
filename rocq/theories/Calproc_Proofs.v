(** Proofs about the calibration procedure. *)
From Coq Require Import Ascii String ZArith List Bool Lia ZifyBool ZifyNat.
From Verif Require Import PyBase PyBytes PyFloat Tool_Model Calib_Model Config_Model Encoder_Model
  Calfile_Model Proc Device_Model Calproc_Model Device_Spec Device_Proofs Calproc_Spec.
Import ListNotations.
Open Scope Z_scope.

(** ** Texts by how they start *)
Definition starts (ps : list (list Z)) (text : list Z) : bool := existsb (fun p => startswith p text) ps.
(** Requests that send only such texts. *)
Definition within (ps : list (list Z)) (r : treq) : Prop :=
  match r with
  | Command text _ | CommandWithin text | WriteMessage text => starts ps text = true
  | _ => True
  end.

Definition p_get : list (list Z) := [lit "conf get "; lit "conf enumerate"].
Definition p_move : list (list Z) :=
  map lit ["d pwm "; "d pos "; "d cal "; "d cali "; "d ind "; "d vdq "; "d stop"; "d index 0"]%string.

Lemma starts_app ps qs text : starts (ps ++ qs) text = starts ps text || starts qs text.
Proof. apply existsb_app. Qed.
Lemma within_l ps qs r : within ps r -> within (ps ++ qs) r.
Proof. destruct r; cbn; auto; rewrite starts_app; intros ->; reflexivity. Qed.
Lemma within_r ps qs r : within qs r -> within (ps ++ qs) r.
Proof. destruct r; cbn; auto; rewrite starts_app; intros ->; apply orb_true_r. Qed.

Ltac leaf := cbn [within]; repeat match goal with |- context [if ?b then _ else _] => destruct b end;
  first [exact I | reflexivity].

Section P.
Variable parse_float : list Z -> res float.
Variable float_str : float -> list Z.
Variable fixed3 : float -> list Z.
Variable hypot : float -> float -> float.
Variable py_sum : list float -> float.
Variable minimize : list float -> bool * list float.

Ltac go := repeat (only_step; try leaf).

Lemma w_supported qs name : only (within (p_get ++ qs)) (is_config_supported name).
Proof. unfold is_config_supported. go. Qed.
Lemma w_int qs name : only (within (p_get ++ qs)) (read_config_int name).
Proof. unfold read_config_int. go. Qed.
Lemma w_double qs name : only (within (p_get ++ qs)) (read_config_double parse_float name).
Proof. unfold read_config_double. go. Qed.
Lemma w_stats ps : only (within ps) read_servo_stats.
Proof. unfold read_servo_stats. go. Qed.
Lemma w_fault ps : only (within ps) check_for_fault.
Proof. unfold check_for_fault. only_step; [apply w_stats|go]. Qed.
Lemma w_currents ps n : only (within ps) (read_currents hypot n).
Proof. induction n as [|n IH]; cbn [read_currents]; go; auto. apply w_stats. Qed.

Ltac known := first [apply w_supported | apply w_int | apply w_double | apply w_stats | apply w_fault | apply w_currents].
Ltac more := repeat (first [known | only_step]; try leaf).

Lemma w_prepare qs a : only (within (p_get ++ qs)) (prepare a).
Proof. unfold prepare. more. Qed.
Lemma w_clear qs : only (within (lit "conf set motor.offset." :: qs)) clear_motor_offsets.
Proof. unfold clear_motor_offsets. more. Qed.
Lemma w_scale qs : only (within (p_get ++ qs)) (position_scale parse_float).
Proof. unfold position_scale. more. Qed.
Lemma w_rate qs : only (within (p_get ++ qs)) (control_rate parse_float).
Proof. unfold control_rate. more. Qed.

Lemma w_sweep qs a v : only (within (p_move ++ qs)) (sweep fixed3 hypot py_sum a v).
Proof. unfold sweep, find_current. more. Qed.
Lemma w_resistance qs a v : only (within (p_move ++ lit "conf set motor.resistance_ohm " :: qs))
  (calibrate_winding_resistance2 float_str fixed3 hypot py_sum a v).
Proof. unfold calibrate_winding_resistance2, set_float. more. apply w_sweep. Qed.

Lemma w_periods qs ver cv iv ps : forall best, only (within (p_move ++ qs)) (test_periods float_str ver cv iv ps best).
Proof.
  induction ps as [|p ps IH]; intros best; cbn [test_periods]; unfold test_inductance_period; more; apply IH.
Qed.
Lemma w_inductance qs ver cv iv : only (within (p_get ++ p_move ++ lit "conf set motor.poles " :: qs))
  (calibrate_inductance float_str ver cv iv).
Proof.
  unfold calibrate_inductance. more.
  eapply only_weaken; [apply (w_periods [])|]. intros r H. apply within_r. now apply within_l.
Qed.

Definition p_loop : list (list Z) := map lit ["conf set servo.pid_dq.kp "; "conf set servo.pid_dq.ki "]%string.
Lemma w_loop qs a r i c : only (within (p_get ++ p_loop ++ qs)) (set_current_loop parse_float float_str a r i c).
Proof. unfold set_current_loop, calculate_bandwidth, set_float. more. Qed.

Definition p_filter : list (list Z) := map lit ["conf set servo.encoder_filter."; "conf set motor_position.sources."]%string.
Lemma w_filter qs a b i c : only (within (p_get ++ p_filter ++ qs)) (set_encoder_filter float_str a b i c).
Proof. unfold set_encoder_filter, desired_encoder_bw, set_float. more. Qed.

Lemma w_theta qs a v : only (within (p_get ++ p_move ++ lit "conf set motor.poles " :: qs))
  (ensure_valid_theta parse_float float_str a v).
Proof. unfold ensure_valid_theta, find_index. more. Qed.

Lemma w_offsets qs i l : only (within (lit "conf set motor.offset." :: qs)) (set_offsets float_str i l).
Proof. revert i. induction l as [|x l IH]; intros i; cbn [set_offsets]; more. apply IH. Qed.

Definition p_encoder : list (list Z) :=
  map lit ["conf set motor.poles "; "conf set motor.offset."; "conf set motor.phase_invert "; "conf set motor.invert ";
           "conf set motor_position.sources."; "conf set motor_position.output.sign "; "conf set aux";
           "conf set servo.voltage_mode_control "]%string.

Lemma within_mono ps qs r : (forall text, starts ps text = true -> starts qs text = true) -> within ps r -> within qs r.
Proof. destruct r; cbn; auto. Qed.

Lemma starts_incl ps qs text : incl ps qs -> starts ps text = true -> starts qs text = true.
Proof.
  intros H S. unfold starts in *. apply existsb_exists in S. destruct S as (p & I & S). apply existsb_exists.
  exists p. split; auto.
Qed.
Lemma only_incl ps qs A (p : T A) : only (within ps) p -> incl ps qs -> only (within qs) p.
Proof. intros H I. eapply only_weaken; [exact H|]. intros r. apply within_mono. intros text. now apply starts_incl. Qed.

Lemma w_collect ps : only (within ps) collect_data.
Proof. unfold collect_data. more. Qed.

Lemma incl_b (ps qs : list (list Z)) : forallb (fun p => existsb (bytes_eqb p) qs) ps = true -> incl ps qs.
Proof.
  intros H p I. rewrite forallb_forall in H. apply H in I. apply existsb_exists in I. destruct I as (q & I & E).
  apply bytes_eqb_same in E. now subst q.
Qed.
Ltac inclusion := apply incl_b; reflexivity.

Lemma w_absolute qs a ver v c n : only (within (p_get ++ p_move ++ p_encoder ++ qs))
  (calibrate_encoder_mapping_absolute parse_float float_str py_sum minimize a ver v c n).
Proof.
  unfold calibrate_encoder_mapping_absolute. 
  only_step; [eapply only_incl; [apply (w_theta [])|inclusion]|]. more.
  all: first [apply w_collect | eapply only_incl; [apply (w_offsets [])|inclusion]].
Qed.

Lemma w_hall_samples qs v c steps : only (within (p_move ++ qs)) (hall_samples float_str v c steps).
Proof. induction steps as [|i steps IH]; cbn [hall_samples]; more. exact IH. Qed.

Lemma w_hall qs a v : only (within (p_get ++ p_move ++ p_encoder ++ qs)) (calibrate_encoder_mapping_hall float_str py_sum a v).
Proof.
  unfold calibrate_encoder_mapping_hall. more.
  all: eapply only_incl; [apply (w_hall_samples [])|inclusion].
Qed.

Lemma w_encoder qs a ver iv r n : only (within (p_get ++ p_move ++ p_encoder ++ qs))
  (calibrate_encoder_mapping parse_float float_str py_sum minimize a ver iv r n).
Proof.
  unfold calibrate_encoder_mapping. more.
  all: first [apply w_absolute | apply w_hall].
Qed.

Lemma w_speed qs a v s : only (within (p_move ++ qs)) (find_speed fixed3 hypot py_sum a v s).
Proof. unfold find_speed. more. Qed.
Lemma w_speeds qs a l : only (within (p_move ++ qs)) (find_speeds fixed3 hypot py_sum a l).
Proof. induction l as [|v l IH]; cbn [find_speeds]; more; auto. apply w_speed. Qed.
Lemma w_idle qs : only (within (p_move ++ qs)) stop_and_idle.
Proof. unfold stop_and_idle. more. Qed.
Lemma w_kv_voltage qs a iv s : only (within (p_move ++ qs)) (find_kv_cal_voltage fixed3 hypot py_sum a iv s).
Proof. unfold find_kv_cal_voltage. more. all: apply w_speed. Qed.

Definition p_limits : list (list Z) := map lit ["conf set servopos.position_min "; "conf set servopos.position_max "]%string.
Lemma w_measure_kv qs a ver v iv sc sg :
  only (within (p_get ++ p_move ++ lit "conf set motor.poles " :: p_limits ++ qs))
    (measure_kv parse_float float_str fixed3 hypot py_sum a ver v iv sc sg).
Proof.
  unfold measure_kv, set_float.
  only_step; [eapply only_incl; [apply (w_theta [])|inclusion]|]. more.
  all: eapply only_incl; [first [apply (w_kv_voltage [])|apply (w_idle [])|apply (w_speeds [])]|inclusion].
Qed.

Definition p_kv : list (list Z) := map lit ["conf set motor.Kv "; "conf set motor.v_per_hz "]%string.
Lemma w_kv qs a fw v iv sc sg :
  only (within (p_get ++ p_move ++ lit "conf set motor.poles " :: p_limits ++ p_kv ++ qs))
    (calibrate_kv_rating parse_float float_str fixed3 hypot py_sum a fw v iv sc sg).
Proof.
  unfold calibrate_kv_rating, set_float. more. all: eapply only_incl; [apply (w_measure_kv [])|inclusion].
Qed.

Definition p_mode : list (list Z) := [lit "conf set servo.voltage_mode_control "].
Lemma w_mode qs iv r n : only (within (p_get ++ p_mode ++ qs)) (set_voltage_mode iv r n).
Proof. unfold set_voltage_mode. more. Qed.
Lemma w_info qs : only (within (p_get ++ qs)) get_device_info.
Proof. unfold get_device_info, read_uuid. more. Qed.

Definition p_all : list (list Z) :=
  p_get ++ p_move ++ [lit "conf set motor.resistance_ohm "; lit "d rezero"] ++ p_encoder ++ p_loop ++ p_filter ++ p_limits ++ p_kv ++ p_mode.

Lemma w_motor a fw : only (within p_all) (calibrate_motor parse_float float_str fixed3 hypot py_sum minimize a fw).
Proof.
  assert (I : forall (A : Type) (p : T A) ps, only (within ps) p -> incl ps p_all -> only (within p_all) p)
    by (intros A p ps H J; eapply only_incl; eauto).
  unfold calibrate_motor, try_set.
  repeat (first
    [ only_step
    | eapply I; [first [apply (w_clear []) | apply (w_scale []) | apply (w_rate []) | apply (w_stats []) | apply (w_fault [])
                       | apply (w_resistance []) | apply (w_inductance []) | apply (w_loop []) | apply (w_filter [])
                       | apply (w_encoder []) | apply (w_kv []) | apply (w_mode []) | apply (w_info [])]
                |unfold p_all; inclusion]]; try leaf).
Qed.
End P.
