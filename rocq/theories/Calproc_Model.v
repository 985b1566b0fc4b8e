(** Model of the calibration procedure of moteus_tool:
    /repo/lib/python/moteus/moteus_tool.py 74-79, 521-529, 986-1209 and
    1211-1984.  Printing is left out.  Numbers are floats; where the code has
    an integer in a calculation it is the float of the same value. *)
From Coq Require Import Ascii String ZArith List Bool Floats.SpecFloat.
From Verif Require Import PyBase PyBytes PyFloat Tool_Model Calib_Model Config_Model
  Encoder_Model Calfile_Model Proc Device_Model.
Import ListNotations.
Open Scope Z_scope.

(** The options of calibration (moteus_tool.py 2201-2275). *)
Record cal_args := {
  a_invert : bool;                       (* --cal-invert *)
  a_hall : bool;                         (* --cal-hall *)
  a_bw_hz : float;                       (* --cal-bw-hz *)
  a_encoder_bw_hz : option float;        (* --encoder-bw-hz *)
  a_no_update : bool;                    (* --cal-no-update *)
  a_ll_encoder_voltage : option float;   (* --cal-ll-encoder-voltage *)
  a_ll_encoder_speed : float;            (* --cal-ll-encoder-speed; the default is 1.0 *)
  a_ll_kv_voltage : option float;        (* --cal-ll-kv-voltage *)
  a_power : option float;                (* --cal-power *)
  a_speed : option float;                (* --cal-speed *)
  a_voltage : option float;              (* --cal-voltage *)
  a_kv_voltage : option float;           (* --cal-kv-voltage *)
  a_motor_power : float;                 (* --cal-motor-power *)
  a_motor_speed : float;                 (* --cal-motor-speed *)
  a_motor_poles : option Z;              (* --cal-motor-poles *)
  a_force_kv : option float;             (* --cal-force-kv *)
  a_force_optimize : bool;
  a_disable_optimize : bool;
  a_max_remainder : float;
  a_max_kv_power_factor : float;
  a_write_raw : bool;                    (* --cal-write-raw given *)
  a_force_current_mode : bool            (* --cal-force-encoder-current-mode *)
}.

(** math.sqrt *)
Definition float_sqrt (x : float) : res float :=
  if fltb x (float_of_Z 0) then Raise ValueError else Ok (SFsqrt prec64 emax64 x).

(** min(x, y), max(x, y): the first one unless the second is smaller, or greater *)
Definition fmin (x y : float) : float := if fltb y x then y else x.

(** x ** 2; a finite number whose square is not is an OverflowError *)
Definition float_sq (x : float) : res float :=
  let y := fmul x x in
  if isfinite x && negb (isfinite y) then Raise OverflowError else Ok y.

(** a truthy option *)
Definition given (x : option float) : option float :=
  match x with
  | Some v => if feqb v (float_of_Z 0) then None else Some v
  | None => None
  end.

(** _round_nearest_4v (moteus_tool.py 521-525) *)
Definition round_nearest_4v (input_V : float) : res float :=
  if fltb input_V (float_of_Z 14) then Ok (float_of_Z 12)
  else
    let* n := float_round (fdiv input_V (float_of_Z 4)) in
    Ok (float_of_Z (n * 4)).

(** calculate_calibration_parameters (moteus_tool.py 986-1004): the options
    afterwards.  There is no option --cal-ll-resistance-voltage. *)
Definition deprecated (old new : option float) : res (option float) :=
  match old, new with
  | Some _, Some _ => Raise RuntimeError
  | Some x, None => Ok (Some x)
  | None, _ => Ok new
  end.
Definition calibration_parameters (a : cal_args) : res cal_args :=
  let* v := deprecated (a_power a) (a_ll_encoder_voltage a) in
  let* _ := deprecated (a_speed a) (Some (a_ll_encoder_speed a)) in
  let* _ := match a_voltage a with Some _ => Raise AttributeError | None => Ok tt end in
  let* k := deprecated (a_kv_voltage a) (a_ll_kv_voltage a) in
  Ok {| a_invert := a_invert a; a_hall := a_hall a; a_bw_hz := a_bw_hz a;
        a_encoder_bw_hz := a_encoder_bw_hz a; a_no_update := a_no_update a;
        a_ll_encoder_voltage := v; a_ll_encoder_speed := a_ll_encoder_speed a; a_ll_kv_voltage := k;
        a_power := a_power a; a_speed := a_speed a; a_voltage := a_voltage a;
        a_kv_voltage := a_kv_voltage a; a_motor_power := a_motor_power a;
        a_motor_speed := a_motor_speed a; a_motor_poles := a_motor_poles a;
        a_force_kv := a_force_kv a; a_force_optimize := a_force_optimize a;
        a_disable_optimize := a_disable_optimize a; a_max_remainder := a_max_remainder a;
        a_max_kv_power_factor := a_max_kv_power_factor a; a_write_raw := a_write_raw a;
        a_force_current_mode := a_force_current_mode a |}.

Section Calibration.
  (** float(s), f"{x}" and f"{x:.3f}" of a float, math.hypot, sum() of floats, and
      scipy.optimize.minimize (as in Encoder_Model.v). *)
  Variable parse_float : list Z -> res float.
  Variable float_str : float -> list Z.
  Variable fixed3 : float -> list Z.
  Variable hypot : float -> float -> float.
  Variable py_sum : list float -> float.
  Variable minimize : list float -> bool * list float.

  Let read_config_double := read_config_double parse_float.
  Let ar := float_arith py_sum.
  Let two_pi := fmul (float_of_Z 2) fpi.

  (** f"conf set {name} {x}" *)
  Definition set_float (name : list Z) (x : float) : T unit :=
    do _ <- command (lit "conf set " ++ name ++ [32] ++ float_str x);
    Ret tt.

  (** _average (moteus_tool.py 528-529) *)
  Definition average (l : list float) : res float :=
    float_div (py_sum l) (float_of_Z (Z.of_nat (length l))).

  (** stddev (moteus_tool.py 74-79) *)
  Definition stddev (l : list float) : res float :=
    match l with
    | [] => Ok (float_of_Z 0)
    | _ =>
        let* mean := average l in
        let* sq := map_res (fun x => float_sq (fsub x mean)) l in
        let* v := average sq in
        float_sqrt v
    end.

  (** clear_motor_offsets (moteus_tool.py 1006-1017) *)
  Definition clear_motor_offsets : T unit :=
    Loop (fun i : Z =>
      catch_command
        (do _ <- command (lit "conf set motor.offset." ++ int_str i ++ lit " 0");
         Ret (inl (i + 1)))
        (fun message => if contains (lit "error setting") message then Ret (inr tt)
                        else Throw (CmdErr message))) 0 Ret.

  (** [0; 1; ... ] readings of the current (moteus_tool.py 1472-1477) *)
  Fixpoint read_currents (n : nat) : T (list float) :=
    match n with
    | O => Ret []
    | S n =>
        do s <- read_servo_stats;
        do l <- read_currents n;
        Ret (hypot (ss_d_A s) (ss_q_A s) :: l)
    end.

  (** assert voltage < 20.0, assert voltage >= 0.0 (moteus_tool.py 1464-1465, 1770-1771) *)
  Definition check_voltage (voltage : float) : res unit :=
    if negb (fltb voltage (float_of_Z 20)) then Raise AssertionError
    else if negb (fleb (float_of_Z 0) voltage) then Raise AssertionError
    else Ok tt.

  (** find_current (moteus_tool.py 1463-1488) *)
  Definition find_current (voltage : float) : T (float * float) :=
    do _ <- lift (check_voltage voltage);
    do _ <- command (lit "d pwm 0 " ++ fixed3 voltage);
    do _ <- await (Sleep (flit 15 2));
    do data <- read_currents 20;
    do _ <- command (lit "d stop");
    do _ <- await (Sleep (flit 5 2));
    do current_A <- lift (average data);
    do noise_A <- lift (stddev data);
    Ret (current_A, noise_A).

  (** One measurement of the sweep: voltage, current, noise.  The resistance of
      the step (moteus_tool.py 1521-1524) is only printed, but its division can fail. *)
  Definition measured : Type := float * float * float.

  (** The loop of calibrate_winding_resistance2 (moteus_tool.py 1518-1539); [results] in
      reverse. *)
  Definition sweep (a : cal_args) (input_V : float) : T (list measured) :=
    Loop (fun st : float * list measured =>
      let '(cal_voltage, results) := st in
      do c <- find_current cal_voltage;
      let '(this_current, this_noise) := c in
      do _ <- lift (match results with
                    | [] => Ok (float_of_Z 0)
                    | (v, i, _) :: _ => float_div (fsub cal_voltage v) (fsub this_current i)
                    end);
      let results := (cal_voltage, this_current, this_noise) :: results in
      let power := fmul (fmul this_current cal_voltage) (flit 15 1) in
      if fgtb power (a_motor_power a) || fgtb cal_voltage (fmul (flit 4 1) input_V)
      then Ret (inr results)
      else Ret (inl (fmul cal_voltage (flit 11 1), results))) (flit 1 2, []) Ret.

  (** calibrate_winding_resistance2 (moteus_tool.py 1495-1566) *)
  Definition calibrate_winding_resistance2 (a : cal_args) (input_V : float) : T (float * float * float) :=
    do results <- sweep a input_V;
    do last_result <- lift (match results with [] => Raise IndexError | x :: _ => Ok x end);
    let '(last_V, last_A, last_noise) := last_result in
    do less_than <- lift (match filter (fun x => fltb (snd (fst x)) (fmul (flit 60 2) last_A)) results with
                          | [] => Raise IndexError
                          | x :: _ => Ok x
                          end);
    let '(less_V, less_A, _) := less_than in
    do resistance <- lift (float_div (fsub last_V less_V) (fsub last_A less_A));
    do _ <- set_float (lit "motor.resistance_ohm") resistance;
    Ret (resistance, last_V, last_noise).

  (** _test_inductance_period (moteus_tool.py 1569-1602) *)
  Definition test_inductance_period (version : Z) (cal_voltage input_V : float) (ind_period : Z)
    : T (float * float) :=
    let offset := fmin (fmul (flit 2 1) input_V) cal_voltage in
    let ind_voltage := if version <? 0x010a then cal_voltage
                       else fmin (fmul (flit 15 2) input_V) (fmul (flit 80 2) cal_voltage) in
    do _ <- await (CommandWithin
      (if version <? 0x010a
       then lit "d ind " ++ float_str cal_voltage ++ [32] ++ int_str ind_period
       else lit "d ind " ++ float_str ind_voltage ++ [32] ++ int_str ind_period ++ lit " o" ++ float_str offset));
    do start <- await Now;
    do _ <- await (Sleep (float_of_Z 1));
    do _ <- (if version <? 0x010a then command (lit "d stop")
             else command (lit "d pos nan 0 nan o" ++ float_str offset ++ lit " b1"));
    do end_ <- await Now;
    do data <- read_servo_stats;
    let delta_time := fsub end_ start in
    do ind <- lift (match ss_ind data with Some x => Ok x | None => Raise AttributeError end);
    do di_dt <- lift (float_div ind delta_time);
    Ret (di_dt, ind_voltage).

  (** periods_to_test (moteus_tool.py 1626) *)
  Definition periods_to_test : list Z := [2; 3; 4; 6; 8; 10; 12; 16; 20; 24; 32].

  (** The loop (moteus_tool.py 1633-1653); [best] is highest_di_dt, highest_cal_voltage and since_highest. *)
  Fixpoint test_periods (version : Z) (cal_voltage input_V : float) (periods : list Z)
    (best : option (float * float * Z)) : T (option (float * float * Z)) :=
    match periods with
    | [] => Ret best
    | period :: periods =>
        do x <- test_inductance_period version cal_voltage input_V period;
        let '(this_di_dt, this_ind_voltage) := x in
        let '(highest, voltage, since) :=
          match best with
          | None => (this_di_dt, this_ind_voltage, 0)
          | Some (highest, voltage, since) =>
              if fgtb this_di_dt highest then (this_di_dt, this_ind_voltage, 0)
              else (highest, voltage, since + 1)
          end in
        if fgtb highest (float_of_Z 0) &&
           (fltb this_di_dt (fmul (flit 5 1) highest) || (since >? 2))
        then Ret (Some (highest, voltage, since))
        else test_periods version cal_voltage input_V periods (Some (highest, voltage, since))
    end.

  (** calibrate_inductance (moteus_tool.py 1605-1672) *)
  Definition calibrate_inductance (version : Z) (cal_voltage input_V : float) : T (option float) :=
    do old_motor_poles <- read_config_int (lit "motor.poles");
    do _ <- (if old_motor_poles =? 0 then command (lit "conf set motor.poles 2") else Ret []);
    do x <- catch (do best <- test_periods version cal_voltage input_V periods_to_test None;
                   do _ <- command (lit "d stop");
                   Ret best);
    match x with
    | inl (CmdErr message) =>
        if negb (contains (lit "unknown command") message) then Throw (CmdErr message) else Ret None
    | inl (Exn TimeoutError) => Ret None
    | inl e => Throw e
    | inr None => Throw (Exn TypeError)
    | inr (Some (highest_di_dt, highest_cal_voltage, _)) =>
        do inductance <- lift (float_div highest_cal_voltage highest_di_dt);
        if fltb inductance (flit 1 6) then Throw (Exn RuntimeError) else Ret (Some inductance)
    end.

  (** calculate_bandwidth (moteus_tool.py 1734-1767) *)
  Definition calculate_bandwidth (a : cal_args) (resistance inductance control_rate_hz : float)
    : T (float * float * float) :=
    do s <- is_config_supported (lit "servo.current_sense_ohm");
    do _ <- (if s : bool then read_config_double (lit "servo.current_sense_ohm") else Ret (flit 5 4));
    do rate <- lift (float_div control_rate_hz (float_of_Z 30));
    let board_limit_rad_s := fmul (fmul rate (float_of_Z 2)) fpi in
    let cal_bw_rad_s := fmul (a_bw_hz a) two_pi in
    let w_3db := fmin board_limit_rad_s cal_bw_rad_s in
    do bw <- lift (float_div w_3db two_pi);
    Ret (fmul w_3db inductance, fmul w_3db resistance, bw).

  (** The value of a number, and min and max of numbers. *)
  Definition num_float (n : num) : float := match n with NInt z => float_of_Z z | NFloat x => x end.
  Definition num_min (x y : num) : num := if fltb (num_float y) (num_float x) then y else x.
  Definition num_max (x y : num) : num := if fltb (num_float x) (num_float y) then y else x.

  (** The bandwidth asked for (moteus_tool.py 1681-1708) *)
  Definition desired_encoder_bw (a : cal_args) (torque_bw_hz inductance : option float) : T num :=
    match given (a_encoder_bw_hz a) with
    | Some hz => Ret (NFloat hz)
    | None =>
        do desired <- lift (match torque_bw_hz with
                            | Some bw => Ok (num_max (NInt 10) (NFloat bw))
                            | None => Raise TypeError
                            end);
        do s <- is_config_supported (lit "motor_position.rotor_to_output_ratio");
        do hall_output <- (if s : bool then
                             do output_encoder <- read_config_int (lit "motor_position.output.source");
                             do output_type <- read_config_int
                               (lit "motor_position.sources." ++ int_str output_encoder ++ lit ".type");
                             Ret (output_type =? 4)
                           else Ret false);
        if hall_output : bool then
          do desired <- (match given inductance with
                         | Some ind =>
                             do x <- lift (float_div (flit 2 2) ind);
                             Ret (num_min desired (NFloat x))
                         | None => Ret desired
                         end);
          do poles <- lift (match a_motor_poles a with Some p => Ok p | None => Raise TypeError end);
          Ret (num_min desired (NFloat (fmul (fmul (flit 5 1) (float_of_Z poles)) (a_motor_speed a))))
        else Ret desired
    end.

  (** set_encoder_filter (moteus_tool.py 1674-1732) *)
  Definition set_encoder_filter (a : cal_args) (torque_bw_hz inductance : option float) (control_rate_hz : float)
    : T (option (float * float * num)) :=
    do motor_position_style <- is_config_supported (lit "motor_position.sources.0.pll_filter_hz");
    do servo_style <- is_config_supported (lit "servo.encoder_filter.enabled");
    if negb motor_position_style && negb servo_style then Ret None
    else
      do desired <- desired_encoder_bw a torque_bw_hz inductance;
      do rate <- lift (float_div control_rate_hz (float_of_Z 30));
      let encoder_bw_hz := num_min (NFloat rate) desired in
      let w_3db := fmul (fmul (num_float encoder_bw_hz) (float_of_Z 2)) fpi in
      let kp := fmul (float_of_Z 2) w_3db in
      let ki := fmul w_3db w_3db in
      do _ <- (if servo_style : bool then
                 do _ <- command (lit "conf set servo.encoder_filter.enabled 1");
                 do _ <- set_float (lit "servo.encoder_filter.kp") kp;
                 set_float (lit "servo.encoder_filter.ki") ki
               else
                 do commutation_source <- read_config_int (lit "motor_position.commutation_source");
                 do _ <- command (lit "conf set motor_position.sources." ++ int_str commutation_source ++
                                  lit ".pll_filter_hz " ++ num_str float_str encoder_bw_hz);
                 Ret tt);
      Ret (Some (kp, ki, encoder_bw_hz)).

  (** ** The encoder *)

  (** find_index (moteus_tool.py 1327-1340) *)
  Definition find_index (a : cal_args) (encoder_cal_voltage : float) : T unit :=
    let theta_speed := fmul (fmul (a_ll_encoder_speed a) (float_of_Z 2)) fpi in
    do _ <- command (lit "d pwm 0 " ++ float_str encoder_cal_voltage ++ [32] ++ float_str theta_speed);
    do start_time <- await Now;
    do _ <- Loop (fun _ : unit =>
      do _ <- await (Sleep (flit 5 1));
      do motor_position <- await ReadMotorPosition;
      if negb (mp_homed motor_position =? 0) || mp_theta_valid motor_position then Ret (inr tt)
      else
        do now <- await Now;
        if fgtb (fsub now start_time) (float_of_Z 40) then Throw (Exn RuntimeError) else Ret (inl tt)) tt Ret;
    do _ <- command (lit "d stop");
    Ret tt.

  (** ensure_valid_theta (moteus_tool.py 1342-1362) *)
  Definition ensure_valid_theta (a : cal_args) (encoder_cal_voltage : float) : T unit :=
    do poles <- read_config_double (lit "motor.poles");
    do _ <- (if feqb poles (float_of_Z 0) then command (lit "conf set motor.poles 2") else Ret []);
    do x <- catch (await ReadMotorPosition);
    match x with
    | inl (Exn RuntimeError) | inl (CmdErr _) => Ret tt
    | inl e => Throw e
    | inr motor_position =>
        if negb (mp_error motor_position =? 0) then Throw (Exn RuntimeError)
        else if (mp_homed motor_position =? 0) && negb (mp_theta_valid motor_position)
        then find_index a encoder_cal_voltage
        else Ret tt
    end.

  (** Reading the samples (moteus_tool.py 1398-1414), as [collect] of Calfile_Model.v *)
  Definition collect_data : T (list Z) :=
    Loop (fun cal_data : list Z =>
      do raw <- await Readline;
      let line := bytes_strip raw in
      let cal_data := cal_data ++ line ++ [10] in
      if startswith (lit "CAL done") line || startswith (lit "CALI done") line then Ret (inr cal_data)
      else if startswith (lit "CAL start") line || startswith (lit "CALI start") line then Ret (inl cal_data)
      else if startswith (lit "ERR") line then Throw (Exn RuntimeError)
      else if startswith (lit "CAL") line then Throw (Exn RuntimeError)
      else Ret (inl cal_data)) [] Ret.

  (** calibrate_encoder_mapping_absolute (moteus_tool.py 1364-1461) *)
  Definition calibrate_encoder_mapping_absolute (a : cal_args) (version : Z)
    (encoder_cal_voltage encoder_cal_current current_noise : float) : T (cal_result float) :=
    do _ <- ensure_valid_theta a encoder_cal_voltage;
    do current_quality_factor <- lift (float_div encoder_cal_current current_noise);
    let use_current_calibration :=
      (fgtb current_quality_factor (float_of_Z 20) || a_force_current_mode a) && (version >=? 0x010a) in
    let speed := a_ll_encoder_speed a in
    do _ <- (if use_current_calibration then
               do _ <- read_config_int (lit "motor.poles");
               do _ <- command (lit "conf set motor.poles 2");
               do _ <- command (lit "d pos nan 0 nan c" ++ float_str encoder_cal_current ++ lit " b1");
               do _ <- await (Sleep (float_of_Z 3));
               await (WriteMessage (lit "d cali i" ++ float_str encoder_cal_current ++ lit " s" ++ float_str speed))
             else
               do _ <- command (lit "d pwm 0 " ++ float_str encoder_cal_voltage);
               do _ <- await (Sleep (float_of_Z 3));
               await (WriteMessage (lit "d cal " ++ float_str encoder_cal_voltage ++ lit " s" ++ float_str speed)));
    do cal_data <- collect_data;
    do _ <- (if a_write_raw a then await (SaveFile cal_data) else Ret tt);
    do cal_file <- lift (parse_file parse_float cal_data);
    do allow_phase_invert <- is_config_supported (lit "motor.phase_invert");
    do x <- lift (calibrate ar float_ops minimize (fst cal_file) (snd cal_file)
                    (if negb (a_invert a) then 1 else -1) (a_max_remainder a) allow_phase_invert
                    (negb (a_disable_optimize a)) (a_force_optimize a));
    let cal_result := fst x in
    do _ <- (match r_errors cal_result with [] => Ret tt | _ => Throw (Exn RuntimeError) end);
    do _ <- (match a_motor_poles a with
             | Some p => if negb (p =? r_poles cal_result) then Throw (Exn RuntimeError) else Ret tt
             | None => Ret tt
             end);
    do _ <- command (lit "conf set motor.poles " ++ int_str (r_poles cal_result));
    do s <- is_config_supported (lit "motor_position.sources.0.sign");
    do _ <- (if s : bool
             then command (lit "conf set motor_position.sources.0.sign " ++
                           int_str (if r_invert cal_result then -1 else 1))
             else command (lit "conf set motor.invert " ++ int_str (if r_invert cal_result then 1 else 0)));
    do _ <- (if allow_phase_invert : bool
             then command (lit "conf set motor.phase_invert " ++
                           int_str (if r_phase_invert cal_result then 1 else 0))
             else Ret []);
    do _ <- set_offsets float_str 0 (map NFloat (r_offset cal_result));
    Ret cal_result.

  (** The samples of the hall sensors (moteus_tool.py 1289-1297): (phase, state) *)
  Definition hall_phase (i : Z) : float :=
    fmul (fmul (fdiv (float_of_Z i) (float_of_Z 24)) (float_of_Z 2)) fpi.
  Fixpoint hall_samples (encoder_cal_voltage : float) (commutation_source : Z) (steps : list Z)
    : T (list (float * Z)) :=
    match steps with
    | [] => Ret []
    | i :: steps =>
        do _ <- command (lit "d pwm " ++ float_str (hall_phase i) ++ [32] ++ float_str encoder_cal_voltage);
        do _ <- await (Sleep (flit 5 1));
        do motor_position <- await ReadMotorPosition;
        do raw <- lift (py_index (mp_raw motor_position) commutation_source);
        do l <- hall_samples encoder_cal_voltage commutation_source steps;
        Ret ((hall_phase i, raw) :: l)
    end.

  (** calibrate_encoder_mapping_hall (moteus_tool.py 1275-1325).  The file of
      --cal-write-raw holds JSON here, which is not modelled. *)
  Definition calibrate_encoder_mapping_hall (a : cal_args) (encoder_cal_voltage : float) : T hall_result :=
    do poles <- (match a_motor_poles a with Some p => Ret p | None => Throw (Exn RuntimeError) end);
    do _ <- (if poles mod 2 =? 1 then Throw (Exn RuntimeError) else Ret tt);
    do commutation_source <- read_config_int (lit "motor_position.commutation_source");
    do aux_number <- read_config_int
      (lit "motor_position.sources." ++ int_str commutation_source ++ lit ".aux_number");
    do hall_cal_data <- hall_samples encoder_cal_voltage commutation_source (py_range 0 24);
    do _ <- (if a_write_raw a then await (SaveFile []) else Ret tt);
    do _ <- command (lit "d stop");
    do allow_phase_invert <- is_config_supported (lit "motor.phase_invert");
    do cal_result <- lift (calibrate_hall ar hall_cal_data (if negb (a_invert a) then 1 else -1)
                             allow_phase_invert);
    do _ <- command (lit "conf set motor.poles " ++ int_str poles);
    do _ <- command (lit "conf set motor_position.sources." ++ int_str commutation_source ++ lit ".sign " ++
                     int_str (h_sign cal_result));
    do _ <- command (lit "conf set motor_position.sources." ++ int_str commutation_source ++ lit ".offset " ++
                     int_str (h_offset cal_result));
    do _ <- command (lit "conf set aux" ++ int_str aux_number ++ lit ".hall.polarity " ++
                     int_str (h_polarity cal_result));
    do _ <- (if allow_phase_invert : bool
             then command (lit "conf set motor.phase_invert " ++
                           int_str (if negb (h_phase_invert cal_result =? 0) then 1 else 0))
             else Ret []);
    do _ <- each (fun i => do _ <- command (lit "conf set motor.offset." ++ int_str i ++ lit " 0"); Ret tt)
              (py_range 0 64);
    Ret cal_result.

  (** find_encoder_cal_voltage (moteus_tool.py 1211-1219): a number, or a tuple of one (the comma
      at the end of 1213). *)
  Inductive voltage := Volts (v : float) | Tuple (v : float).
  Definition find_encoder_cal_voltage (a : cal_args) (input_V winding_resistance : float) : res voltage :=
    match given (a_ll_encoder_voltage a) with
    | Some v => Ok (Tuple v)
    | None =>
        let* p := float_div (a_motor_power a) (flit 15 1) in
        let* s := float_sqrt (fmul p winding_resistance) in
        Ok (Volts (fmin (fmul (flit 4 1) input_V) s))
    end.

  (** What the encoder calibration gives: CalibrationResult or HallCalibrationResult. *)
  Definition encoder_result : Type := cal_result float + hall_result.

  (** calibrate_encoder_mapping (moteus_tool.py 1221-1272): the result, and self.encoder_cal_voltage.
      A tuple cannot be divided. *)
  Definition calibrate_encoder_mapping (a : cal_args) (version : Z)
    (input_V winding_resistance current_noise : float) : T (encoder_result * float) :=
    do v <- lift (find_encoder_cal_voltage a input_V winding_resistance);
    do encoder_cal_voltage <- (match v with Volts v => Ret v | Tuple _ => Throw (Exn TypeError) end);
    do encoder_cal_current <- lift (float_div encoder_cal_voltage winding_resistance);
    do s <- is_config_supported (lit "motor_position.commutation_source");
    do hall_configured <- (if s : bool then
                             do commutation_source <- read_config_int (lit "motor_position.commutation_source");
                             do encoder_type <- read_config_int
                               (lit "motor_position.sources." ++ int_str commutation_source ++ lit ".type");
                             Ret (encoder_type =? 4)
                           else Ret false);
    if a_hall a || hall_configured then
      if negb hall_configured then Throw (Exn RuntimeError)
      else
        do r <- calibrate_encoder_mapping_hall a encoder_cal_voltage;
        Ret (inr r, encoder_cal_voltage)
    else
      (* old_output_sign and old_voltage_mode_control as far as they are known
         when the block ends: the block is in two parts for this. *)
      do x <- catch (do s <- is_config_supported (lit "motor_position.output.sign");
                     if s : bool
                     then do old <- read_config_int (lit "motor_position.output.sign"); Ret (Some old)
                     else Ret None);
      let old_output_sign := match x with inr o => o | inl _ => None end in
      do y <- catch (match x with
                     | inl e => Throw e
                     | inr (Some _) =>
                         do _ <- command (lit "conf set motor_position.output.sign 1");
                         do old <- read_config_int (lit "servo.voltage_mode_control");
                         Ret (Some old)
                     | inr None => Ret None
                     end);
      let old_voltage_mode_control := match y with inr o => o | inl _ => None end in
      do r <- finally
        (match y with
         | inl e => Throw e
         | inr _ => calibrate_encoder_mapping_absolute a version encoder_cal_voltage encoder_cal_current
                      current_noise
         end)
        (do _ <- command (lit "d stop");
         match old_output_sign with
         | Some old =>
             do _ <- command (lit "conf set motor_position.output.sign " ++ int_str old);
             do _ <- command (lit "conf set servo.voltage_mode_control " ++
                              match old_voltage_mode_control with
                              | Some m => int_str m
                              | None => lit "None"
                              end);
             Ret tt
         | None => Ret tt
         end);
      Ret (inl r, encoder_cal_voltage).

  (** ** Kv *)

  (** l[-n:] *)
  Definition last_n {A} (n : nat) (l : list A) : list A := skipn (length l - n) l.

  (** sign (moteus_tool.py 1785-1786) *)
  Definition sign_of (x : float) : bool := fleb (float_of_Z 0) x.

  (** find_speed (moteus_tool.py 1769-1843).  AVERAGE_COUNT is int(0.10 / 0.02), that is 5.  The state of
      the loop is power_samples and velocity_samples. *)
  Definition find_speed (a : cal_args) (voltage sleep_time : float) : T float :=
    do _ <- lift (check_voltage voltage);
    do _ <- command (lit "d vdq 0 " ++ fixed3 voltage);
    do _ <- await (Sleep sleep_time);
    do start_time <- await Now;
    Loop (fun st : list float * list float =>
      let '(power_samples, velocity_samples) := st in
      do data <- read_servo_stats;
      let total_current_A := hypot (ss_d_A data) (ss_q_A data) in
      let total_power_W := fmul (fmul voltage total_current_A) (flit 15 1) in
      let power_samples := power_samples ++ [total_power_W] in
      let power_samples := if (5 <? length power_samples)%nat then tl power_samples else power_samples in
      let velocity_samples := velocity_samples ++ [ss_velocity data] in
      let velocity_samples := if (15 <? length velocity_samples)%nat then tl velocity_samples
                              else velocity_samples in
      do recent_average <- lift (average (last_n 5 velocity_samples));
      do now <- await Now;
      if fgtb (fsub now start_time) (float_of_Z 2) then Ret (inr recent_average)
      else
        let slow := fltb (SFabs recent_average) (flit 2 1) in
        do _ <- (if (5 <=? length power_samples)%nat then
                   do average_power_W <- lift (average power_samples);
                   let max_power_W := fmul (a_max_kv_power_factor a) (a_motor_power a) in
                   if slow && fgtb average_power_W max_power_W then
                     do _ <- command (lit "d stop");
                     Throw (Exn RuntimeError)
                   else Ret tt
                 else Ret tt);
        if (5 <=? length velocity_samples)%nat && slow then Ret (inr recent_average)
        else
          do done <- (if (length velocity_samples =? 15)%nat then
                        do average_1 <- lift (average (firstn 5 velocity_samples));
                        do average_2 <- lift (average (slice velocity_samples 5 10));
                        Ret (negb (Bool.eqb (sign_of (fsub recent_average average_2))
                                            (sign_of (fsub average_2 average_1))))
                      else Ret false);
          if done : bool then Ret (inr recent_average)
          else
            do _ <- await (Sleep (flit 2 2));
            Ret (inl (power_samples, velocity_samples))) ([], []) Ret.

  (** find_kv_cal_voltage (moteus_tool.py 1852-1883) *)
  Definition find_kv_cal_voltage (a : cal_args) (input_V unwrapped_position_scale : float) : T float :=
    match given (a_ll_kv_voltage a) with
    | Some v => Ret v
    | None =>
        Loop (fun st : float * option float =>
          let '(maybe_result, first_nonzero_speed_voltage) := st in
          if fgtb maybe_result (fmul (flit 2 1) input_V) then Ret (inr maybe_result)
          else
            do speed <- find_speed a maybe_result (flit 5 1);
            do this_speed <- lift (float_div speed unwrapped_position_scale);
            let first_nonzero_speed_voltage :=
              match first_nonzero_speed_voltage with
              | None => if fgtb (SFabs this_speed) (fmul (flit 1 1) (a_motor_speed a))
                        then Some maybe_result else None
              | x => x
              end in
            if match first_nonzero_speed_voltage with
               | Some first => fgtb maybe_result (fmul (float_of_Z 2) first) &&
                               fgtb (SFabs this_speed) (a_motor_speed a)
               | None => false
               end
            then Ret (inr maybe_result)
            else Ret (inl (fmul maybe_result (flit 11 1), first_nonzero_speed_voltage))) (flit 1 2, None) Ret
    end.

  (** stop_and_idle (moteus_tool.py 1966-1984) *)
  Definition stop_and_idle : T unit :=
    do _ <- command (lit "d stop");
    Loop (fun stop_count : Z =>
      do servo_stats <- read_servo_stats;
      let v := match ss_velocity_filt servo_stats with Some v => v | None => ss_velocity servo_stats end in
      let stop_count := if fltb (SFabs v) (flit 3 1) then stop_count + 1 else 0 in
      if stop_count >? 5 then Ret (inr tt)
      else
        do _ <- await (Sleep (flit 2 1));
        Ret (inl stop_count)) 0 Ret.

  (** [await self.find_speed_and_print(voltage, sleep_time=2) for voltage in voltages]
      (moteus_tool.py 1905-1907, 1847-1850), with the voltages *)
  Fixpoint find_speeds (a : cal_args) (voltages : list float) : T (list (float * float)) :=
    match voltages with
    | [] => Ret []
    | v :: voltages =>
        do s <- find_speed a v (float_of_Z 2);
        do l <- find_speeds a voltages;
        Ret ((v, s) :: l)
    end.

  (** The measurement of Kv (moteus_tool.py 1888-1945) *)
  Definition measure_kv (a : cal_args) (version : Z) (encoder_cal_voltage input_V unwrapped_position_scale
    motor_output_sign : float) : T float :=
    do _ <- ensure_valid_theta a encoder_cal_voltage;
    do original_position_min <- read_config_double (lit "servopos.position_min");
    do original_position_max <- read_config_double (lit "servopos.position_max");
    do _ <- command (lit "conf set servopos.position_min NaN");
    do _ <- command (lit "conf set servopos.position_max NaN");
    do _ <- command (lit "d index 0");
    do kv_cal_voltage <- find_kv_cal_voltage a input_V unwrapped_position_scale;
    do _ <- stop_and_idle;
    let voltages := map (fun x => fmul x kv_cal_voltage)
                        [float_of_Z 0; flit 25 2; flit 5 1; flit 75 2; float_of_Z 1] in
    do voltage_speed_hzs <- find_speeds a voltages;
    do _ <- stop_and_idle;
    do _ <- await (Sleep (flit 5 1));
    do _ <- set_float (lit "servopos.position_min") original_position_min;
    do _ <- set_float (lit "servopos.position_max") original_position_max;
    let speed_threshold := SFabs (fmul (flit 45 2) (snd (last voltage_speed_hzs (fnan, fnan)))) in
    let voltage_speed_hzs := filter (fun p => fgtb (SFabs (snd p)) speed_threshold) voltage_speed_hzs in
    do line <- lift (linear_regression ar (map fst voltage_speed_hzs) (map snd voltage_speed_hzs));
    do geared_v_per_hz <- lift (float_div (float_of_Z 1) (snd line));
    let v_per_hz := fmul geared_v_per_hz unwrapped_position_scale in
    let v_per_hz := if version <=? 0x0106 then fmul v_per_hz motor_output_sign else v_per_hz in
    if fltb v_per_hz (float_of_Z 0) then Throw (Exn RuntimeError)
    else lift (float_div (fmul (fmul (flit 114 2) (flit 5 1)) (float_of_Z 60)) v_per_hz).

  (** calibrate_kv_rating (moteus_tool.py 1885-1964) *)
  Definition calibrate_kv_rating (a : cal_args) (fw : firmware) (encoder_cal_voltage input_V
    unwrapped_position_scale motor_output_sign : float) : T float :=
    let version := fw_version fw in
    do motor_kv <- (match a_force_kv a with
                    | None => measure_kv a version encoder_cal_voltage input_V unwrapped_position_scale
                                motor_output_sign
                    | Some kv => Ret kv
                    end);
    do motor_kv <- (if version >=? 0x010a then
                      do _ <- set_float (lit "motor.Kv") motor_kv;
                      Ret motor_kv
                    else
                      do motor_kv <- (if match fw_family fw with Some f => f | None => 0 end =? 2
                                      then lift (float_div motor_kv (flit 138 2)) else Ret motor_kv);
                      do v_per_hz <- lift (float_div (fmul (fmul (flit 109 2) (flit 5 1)) (float_of_Z 60)) motor_kv);
                      do _ <- set_float (lit "motor.v_per_hz") v_per_hz;
                      Ret motor_kv);
    if fltb motor_kv (float_of_Z 0) then Throw (Exn RuntimeError) else Ret motor_kv.

  (** ** do_calibrate (moteus_tool.py 1019-1209) *)

  (** unwrapped_position_scale and motor_output_sign (moteus_tool.py 1054-1062); None: not
      assigned *)
  Definition position_scale : T (option (float * float)) :=
    do s <- is_config_supported (lit "motor.unwrapped_position_scale");
    if s : bool then
      do scale <- read_config_double (lit "motor.unwrapped_position_scale");
      Ret (Some (scale, float_of_Z 1))
    else
      do s <- is_config_supported (lit "motor_position.rotor_to_output_ratio");
      if s : bool then
        do scale <- read_config_double (lit "motor_position.rotor_to_output_ratio");
        do sign <- read_config_double (lit "motor_position.output.sign");
        Ret (Some (scale, sign))
      else Ret None.

  (** control_rate_hz (moteus_tool.py 1065-1071) *)
  Definition control_rate : T float :=
    do s <- is_config_supported (lit "servo.pwm_rate_hz");
    if s : bool then
      do pwm_rate_hz <- read_config_double (lit "servo.pwm_rate_hz");
      if fleb pwm_rate_hz (float_of_Z 40000) then Ret pwm_rate_hz
      else lift (float_div pwm_rate_hz (float_of_Z 2))
    else Ret (float_of_Z 40000).

  (** A setting old firmware does not have (moteus_tool.py 1076-1083, 1085-1090) *)
  Definition try_set (text : list Z) : T unit :=
    catch_command (do _ <- command text; Ret tt)
      (fun message => if negb (contains (lit "error setting") message) then Throw (CmdErr message)
                      else Ret tt).

  (** cal_result.to_json() *)
  Definition json_of (r : encoder_result) : cal_json :=
    match r with
    | inl c => CalJson (r_invert c) (r_phase_invert c) (r_poles c) (map NFloat (r_offset c))
    | inr h => HallJson (h_offset h) (h_sign h) (h_polarity h) (h_phase_invert h)
    end.

  (** The part before anything moves (moteus_tool.py 1020-1044): the firmware, the old
      configuration for --cal-no-update and the options. *)
  Definition prepare (a : cal_args) : T (firmware * list Z * cal_args) :=
    do fw <- await ReadFirmware;
    do old_config <- (if a_no_update a then command (lit "conf enumerate") else Ret []);
    do _ <- (if fw_version fw >? 0x010a then Throw (Exn RuntimeError) else Ret tt);
    do s <- is_config_supported (lit "motor_position.commutation_source");
    do _ <- (if s : bool then
               do commutation_source <- read_config_int (lit "motor_position.commutation_source");
               if negb (commutation_source =? 0) then Throw (Exn RuntimeError) else Ret tt
             else Ret tt);
    do a <- lift (calibration_parameters a);
    do _ <- await (Sleep (float_of_Z 2));
    Ret (fw, old_config, a).

  (** kp, ki and torque_bw_hz (moteus_tool.py 1113-1122) *)
  Definition set_current_loop (a : cal_args) (winding_resistance : float) (inductance : option float)
    (control_rate_hz : float) : T (option (float * float * float)) :=
    match given inductance with
    | None => Ret None
    | Some ind =>
        do b <- calculate_bandwidth a winding_resistance ind control_rate_hz;
        let '(kp, ki, torque_bw_hz) := b in
        do _ <- set_float (lit "servo.pid_dq.kp") kp;
        do _ <- set_float (lit "servo.pid_dq.ki") ki;
        do _ <- check_for_fault;
        Ret (Some (kp, ki, torque_bw_hz))
    end.

  (** voltage_mode_control (moteus_tool.py 1140-1158) *)
  Definition set_voltage_mode (input_V winding_resistance current_noise : float) : T bool :=
    do s <- is_config_supported (lit "servo.voltage_mode_control");
    if s : bool then
      do max_possible_current <- lift (float_div (fmul (flit 5 1) input_V) winding_resistance);
      do max_current_quality <- lift (float_div max_possible_current current_noise);
      let voltage_mode_control := fltb max_current_quality (float_of_Z 40) in
      do _ <- command (lit "conf set servo.voltage_mode_control " ++ int_str (if voltage_mode_control then 1 else 0));
      Ret voltage_mode_control
    else Ret false.

  (** Everything from the first command that changes something to the last
      measurement (moteus_tool.py 1049-1161): the report. *)
  Definition calibrate_motor (a : cal_args) (fw : firmware) : T report :=
    do _ <- clear_motor_offsets;
    do _ <- command (lit "d stop");
    do scale <- position_scale;
    do control_rate_hz <- control_rate;
    do _ <- try_set (lit "conf set motor.phase_invert 0");
    do _ <- try_set (lit "conf set motor_position.sources.0.sign 1");
    do stats <- read_servo_stats;
    do input_V <- lift (round_nearest_4v (ss_bus_V stats));
    do _ <- check_for_fault;
    do x <- calibrate_winding_resistance2 a input_V;
    let '(winding_resistance, highest_voltage, current_noise) := x in
    do _ <- check_for_fault;
    do inductance <- calibrate_inductance (fw_version fw) highest_voltage input_V;
    do _ <- check_for_fault;
    do loop <- set_current_loop a winding_resistance inductance control_rate_hz;
    let torque_bw_hz := option_map (fun x => snd x) loop in
    do enc <- set_encoder_filter a torque_bw_hz inductance control_rate_hz;
    do _ <- check_for_fault;
    do x <- calibrate_encoder_mapping a (fw_version fw) input_V winding_resistance current_noise;
    let '(cal_result, encoder_cal_voltage) := x in
    do _ <- check_for_fault;
    do scale <- lift (match scale with Some s => Ok s | None => Raise NameError end);
    do motor_kv <- calibrate_kv_rating a fw encoder_cal_voltage input_V (fst scale) (snd scale);
    do _ <- check_for_fault;
    do _ <- command (lit "d rezero");
    do _ <- set_voltage_mode input_V winding_resistance current_noise;
    do device_info <- get_device_info;
    Ret {| rp_serial := di_serial device_info; rp_calibration := json_of cal_result;
           rp_resistance := NFloat winding_resistance;
           rp_kv := Some (NFloat motor_kv); rp_v_per_hz := None;
           rp_kp := option_map (fun x => NFloat (fst (fst x))) loop;
           rp_ki := option_map (fun x => NFloat (snd (fst x))) loop;
           rp_enc_kp := option_map (fun x => NFloat (fst (fst x))) enc;
           rp_enc_ki := option_map (fun x => NFloat (snd (fst x))) enc;
           rp_enc_hz := option_map (fun x => snd x) enc |}.

  (** do_calibrate (moteus_tool.py 1019-1209): the report that is written. *)
  Definition do_calibrate (a : cal_args) : T report :=
    do x <- prepare a;
    let '(fw, old_config, a) := x in
    do r <- calibrate_motor a fw;
    do _ <- (if negb (a_no_update a) then command (lit "conf write")
             else do _ <- restore_config old_config; Ret []);
    do _ <- await SaveReport;
    Ret r.
End Calibration.
