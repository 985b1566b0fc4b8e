(** A device to run procedures against. *)
From Coq Require Import Ascii String ZArith List Bool.
From Verif Require Import PyBase PyBytes PyFloat Tool_Model Calib_Model Config_Model Encoder_Model
  Calfile_Model Proc Device_Model Calproc_Model.
Import ListNotations.
Open Scope Z_scope.

(** The parameters this device has, and their values. *)
Definition toy_config : list (list Z * list Z) :=
  map (fun p => (lit (fst p), lit (snd p)))
    [("motor_position.commutation_source", "0"); ("motor_position.sources.0.type", "4");
     ("motor_position.sources.0.aux_number", "1"); ("motor_position.output.source", "0");
     ("motor_position.rotor_to_output_ratio", "1"); ("motor_position.output.sign", "1");
     ("motor_position.sources.0.pll_filter_hz", "100"); ("motor.phase_invert", "0"); ("motor.poles", "0")]%string.

Fixpoint lookup (name : list Z) (l : list (list Z * list Z)) : option (list Z) :=
  match l with
  | [] => None
  | (n, v) :: l => if bytes_eqb n name then Some v else lookup name l
  end.

(** Its state: commands to drive the motor, readings of the position, and of the clock. *)
Record toy := { pwms : Z; polls : Z; clock : Z }.

(** [refuse]: a text that is refused. *)
Definition toy_command (refuse : list Z) (w : toy) (text : list Z) : toy * (err + list Z) :=
  if bytes_eqb text refuse then (w, inl (CmdErr (lit "ERR refused")))
  else if startswith (lit "conf get ") text then
    (w, inr (match lookup (skipn 9 text) toy_config with Some v => v | None => lit "ERR error reading" end))
  else if bytes_eqb text (lit "conf enumerate uuid") then (w, inl (CmdErr (lit "ERR unknown group")))
  else if bytes_eqb text (lit "conf enumerate") then (w, inr (lit "motor.poles 14" ++ [10; 10] ++ lit "servo.x 2 " ++ [10]))
  else if bytes_eqb text (lit "conf set motor.offset.64 0") then (w, inl (CmdErr (lit "ERR error setting")))
  else if startswith (lit "d pwm") text then
    ({| pwms := pwms w + 1; polls := polls w; clock := clock w |}, inr [])
  else (w, inr []).

Definition toy_stats (w : toy) : servo_stats :=
  {| ss_mode := 0; ss_bus_V := float_of_Z 12; ss_d_A := float_of_Z (pwms w); ss_q_A := float_of_Z 0;
     ss_velocity := float_of_Z 0; ss_velocity_filt := None; ss_ind := Some (float_of_Z 1); ss_position_raw := Some 0 |}.

Definition toy_device (refuse : list Z) (w : toy) (r : treq) : toy * (err + trep r) :=
  match r return toy * (err + trep r) with
  | Command text _ => toy_command refuse w text
  | CommandWithin text => toy_command refuse w text
  | WriteMessage text => (w, inr tt)
  | Readline => (w, inr (lit "CAL done"))
  | FlushRead => (w, inr tt)
  | ReadFirmware => (w, inr {| fw_version := 0x010a; fw_family := Some 0; fw_serial := [1; 2; 3]; fw_model := 5 |})
  | ReadGit => (w, inr {| git_hash := [1]; git_dirty := None; git_timestamp := None |})
  | ReadServoStats => (w, inr (toy_stats w))
  | ReadMotorPosition =>
      ({| pwms := pwms w; polls := polls w + 1; clock := clock w |},
       inr {| mp_homed := 1; mp_theta_valid := true; mp_error := 0;
              mp_raw := [nth (Z.to_nat (polls w / 4)) [1; 3; 2; 6; 4; 5] 0] |})
  | Sleep _ => (w, inr tt)
  | Now => ({| pwms := pwms w; polls := polls w; clock := clock w + 1 |}, inr (float_of_Z (clock w)))
  | SaveFile _ => (w, inr tt)
  | SaveReport => (w, inr tt)
  | Console => (w, inr tt)
  end.

Definition toy_parse (s : list Z) : res float := let* n := int10 s in Ok (float_of_Z n).
Definition toy_str (x : float) : list Z := match py_int x with Ok n => int_str n | Raise _ => lit "nan" end.
Definition toy_args (no_update : bool) : cal_args :=
  {| a_invert := false; a_hall := true; a_bw_hz := float_of_Z 200; a_encoder_bw_hz := None; a_no_update := no_update;
     a_ll_encoder_voltage := None; a_ll_encoder_speed := float_of_Z 1; a_ll_kv_voltage := None; a_power := None;
     a_speed := None; a_voltage := None; a_kv_voltage := None; a_motor_power := flit 75 1;
     a_motor_speed := float_of_Z 6; a_motor_poles := Some 4; a_force_kv := Some (float_of_Z 100);
     a_force_optimize := false; a_disable_optimize := true; a_max_remainder := flit 1 1;
     a_max_kv_power_factor := flit 125 2; a_write_raw := false; a_force_current_mode := false |}.

Definition toy_run (refuse : list Z) (no_update : bool) :=
  drive (Z.to_nat 5000) (toy_device refuse) {| pwms := 0; polls := 0; clock := 0 |}
    (do_calibrate toy_parse toy_str toy_str fadd left_sum (fun l => (false, l)) (toy_args no_update)).
