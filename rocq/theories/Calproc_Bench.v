(** A second device to run calibration against: its motor turns, and it can
    fail at a chosen request. *)
From Coq Require Import Ascii String ZArith List Bool.
From Verif Require Import PyBase PyBytes PyFloat Tool_Model Calib_Model Config_Model Encoder_Model
  Calfile_Model Proc Device_Model Calproc_Model Calproc_Examples.
Import ListNotations.
Open Scope Z_scope.

(** Its state: that of the first device, and the voltage in thousandths. *)
Definition bench : Type := toy * Z.

(** [kind]: what "conf get motor_position.sources.0.type" answers; 4 are hall sensors. *)
Definition bench_config (kind : list Z) : list (list Z * list Z) :=
  (lit "motor_position.sources.0.type", kind) ::
  (lit "servopos.position_min", lit "-1") :: (lit "servopos.position_max", lit "2") ::
  (lit "servo.voltage_mode_control", lit "0") :: (lit "motor_position.output.sign", lit "-1") :: toy_config.

(** The motor makes ten turns per second for each volt; its current is measured with noise.
    [bad w r]: the request is answered with an error. *)
Definition bench_device (kind : list Z) (bad : toy -> treq -> bool) (w : bench) (r : treq) : bench * (err + trep r) :=
  if bad (fst w) r then (w, inl (CmdErr (lit "ERR failed")))
  else
    match r return bench * (err + trep r) with
    | Command text any =>
        if startswith (lit "conf get ") text then
          (w, inr (match lookup (skipn 9 text) (bench_config kind) with
                   | Some v => v
                   | None => lit "ERR error reading"
                   end))
        else
          let '(toy', x) := toy_command [] (fst w) text in
          let volts := if startswith (lit "d vdq 0 ") text
                       then match int10 (skipn 8 text) with Ok v => v | Raise _ => 0 end
                       else if bytes_eqb text (lit "d stop") then 0 else snd w in
          ((toy', volts), x)
    | ReadServoStats =>
        (({| pwms := pwms (fst w); polls := polls (fst w); clock := clock (fst w) + 1 |}, snd w),
         inr {| ss_mode := 0; ss_bus_V := float_of_Z 12;
                   ss_d_A := float_of_Z (2 * pwms (fst w) + clock (fst w) mod 2); ss_q_A := float_of_Z 0;
                   ss_velocity := fdiv (float_of_Z (snd w)) (float_of_Z 100); ss_velocity_filt := None;
                   ss_ind := Some (float_of_Z 1); ss_position_raw := Some 0 |})
    | r => let '(toy', x) := toy_device [] (fst w) r in ((toy', snd w), x)
    end.

Definition milli (x : float) : list Z := toy_str (fmul x (float_of_Z 1000)).

Definition bench_args (hall : bool) : cal_args :=
  {| a_invert := false; a_hall := hall; a_bw_hz := float_of_Z 200; a_encoder_bw_hz := None; a_no_update := false;
     a_ll_encoder_voltage := None; a_ll_encoder_speed := float_of_Z 1; a_ll_kv_voltage := None; a_power := None;
     a_speed := None; a_voltage := None; a_kv_voltage := None; a_motor_power := flit 75 1;
     a_motor_speed := float_of_Z 6; a_motor_poles := Some 4; a_force_kv := None;
     a_force_optimize := false; a_disable_optimize := true; a_max_remainder := flit 1 1;
     a_max_kv_power_factor := flit 125 2; a_write_raw := false; a_force_current_mode := false |}.

Definition bench_calibrate (hall : bool) : T report :=
  do_calibrate toy_parse toy_str milli fadd left_sum (fun l => (false, l)) (bench_args hall).

Definition bench_run (hall : bool) (bad : toy -> treq -> bool) :=
  drive (Z.to_nat 20000) (bench_device (if hall then lit "4" else lit "1") bad)
    ({| pwms := 0; polls := 0; clock := 0 |}, 0) (bench_calibrate hall).

Definition never (w : toy) (r : treq) : bool := false.
Definition refuses (what : list Z) (w : toy) (r : treq) : bool :=
  match r with Command text _ => bytes_eqb text what | _ => false end.
Definition second_position (w : toy) (r : treq) : bool :=
  match r with ReadMotorPosition => polls w =? 1 | _ => false end.
