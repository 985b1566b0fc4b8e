(** Model of the frame building and reply parsing part of
    lib/python/moteus/moteus.py (lines 149-1419). *)
From Coq Require Import ZArith List Bool.
From Coq Require Import Floats.SpecFloat.
From Verif Require Import PyBase PyFloat Mux_Model.
Import ListNotations.
Open Scope Z_scope.
Open Scope py_scope.

(** ** Register and Mode numbers, moteus.py:149-307 *)
Definition R_MODE := 0x000.
Definition R_POSITION := 0x001.
Definition R_VELOCITY := 0x002.
Definition R_TORQUE := 0x003.
Definition R_Q_CURRENT := 0x004.
Definition R_D_CURRENT := 0x005.
Definition R_ABS_POSITION := 0x006.
Definition R_POWER := 0x007.
Definition R_MOTOR_TEMPERATURE := 0x00a.
Definition R_TRAJECTORY_COMPLETE := 0x00b.
Definition R_HOME_STATE := 0x00c.
Definition R_VOLTAGE := 0x00d.
Definition R_TEMPERATURE := 0x00e.
Definition R_FAULT := 0x00f.
Definition R_VFOC_THETA := 0x018.
Definition R_COMMAND_Q_CURRENT := 0x01c.
Definition R_COMMAND_D_CURRENT := 0x01d.
Definition R_COMMAND_POSITION := 0x020.
Definition R_WITHIN_LOWER := 0x040.
Definition R_AUX1_GPIO_COMMAND := 0x05c.
Definition R_AUX1_GPIO_STATUS := 0x05e.
Definition R_AUX2_GPIO_STATUS := 0x05f.
Definition R_CLOCK_TRIM := 0x071.
Definition R_AUX1_PWM1 := 0x076.
Definition R_AUX2_PWM5 := 0x07f.
Definition R_SET_OUTPUT_NEAREST := 0x130.
Definition R_SET_OUTPUT_EXACT := 0x131.
Definition R_REQUIRE_REINDEX := 0x132.
Definition R_RECAPTURE := 0x133.

Definition M_STOPPED := 0.
Definition M_VOLTAGE_FOC := 7.
Definition M_CURRENT := 9.
Definition M_POSITION := 10.
Definition M_STAY_WITHIN := 13.
Definition M_BRAKE := 15.

(** math.pi = 0x1.921fb54442d18p+1 *)
Definition py_pi : float := S754_finite false 7074237752028440 (-51).

(** ** Unit scales of class Writer, moteus.py:420-453 *)
Definition W_position := {| s8 := flit 1 2; s16 := flit 1 4; s32 := flit 1 5 |}.
Definition W_velocity := {| s8 := flit 1 1; s16 := flit 25 5; s32 := flit 1 5 |}.
Definition W_accel := {| s8 := flit 5 2; s16 := flit 1 3; s32 := flit 1 5 |}.
Definition W_torque := {| s8 := flit 5 1; s16 := flit 1 2; s32 := flit 1 3 |}.
Definition W_pwm := {| s8 := fdiv (flit 1 0) (flit 127 0);
                       s16 := fdiv (flit 1 0) (flit 32767 0);
                       s32 := fdiv (flit 1 0) (flit 2147483647 0) |}.
Definition W_voltage := {| s8 := flit 5 1; s16 := flit 1 1; s32 := flit 1 3 |}.
Definition W_temperature := {| s8 := flit 1 0; s16 := flit 1 1; s32 := flit 1 3 |}.
Definition W_time := {| s8 := flit 1 2; s16 := flit 1 3; s32 := flit 1 6 |}.
Definition W_current := {| s8 := flit 1 0; s16 := flit 1 1; s32 := flit 1 3 |}.
Definition W_power := {| s8 := flit 10 0; s16 := flit 5 2; s32 := flit 1 4 |}.

(** ** Unit scales of class Parser, moteus.py:384-414 *)
Definition P_position := {| s8 := flit 1 2; s16 := flit 1 4; s32 := flit 1 5 |}.
Definition P_velocity := {| s8 := flit 1 1; s16 := flit 25 5; s32 := flit 1 5 |}.
Definition P_accel := {| s8 := flit 5 2; s16 := flit 1 3; s32 := flit 1 5 |}.
Definition P_torque := {| s8 := flit 5 1; s16 := flit 1 2; s32 := flit 1 3 |}.
Definition P_pwm := {| s8 := fdiv (flit 1 0) (flit 127 0);
                       s16 := fdiv (flit 1 0) (flit 32767 0);
                       s32 := fdiv (flit 1 0) (flit 2147483647 0) |}.
Definition P_voltage := {| s8 := flit 5 1; s16 := flit 1 1; s32 := flit 1 3 |}.
Definition P_temperature := {| s8 := flit 1 0; s16 := flit 1 1; s32 := flit 1 3 |}.
Definition P_time := {| s8 := flit 1 2; s16 := flit 1 3; s32 := flit 1 6 |}.
Definition P_current := {| s8 := flit 1 0; s16 := flit 1 1; s32 := flit 1 3 |}.
Definition P_power := {| s8 := flit 10 0; s16 := flit 5 2; s32 := flit 1 4 |}.

(** ** parse_register, moteus.py:456-550 *)
Inductive regkind := KInt | KMapped (s : scales) | KRaw.

(** The chain of comparisons of moteus.py:456-550, by register number. *)
Definition reg_kind (reg : Z) : regkind :=
  if reg =? R_MODE then KInt
  else if reg =? R_POSITION then KMapped P_position
  else if reg =? R_VELOCITY then KMapped P_velocity
  else if reg =? R_TORQUE then KMapped P_torque
  else if reg =? R_Q_CURRENT then KMapped P_current
  else if reg =? R_D_CURRENT then KMapped P_current
  else if reg =? R_ABS_POSITION then KMapped P_position
  else if reg =? R_POWER then KMapped P_power
  else if reg =? R_TRAJECTORY_COMPLETE then KInt
  else if reg =? R_HOME_STATE then KInt
  else if reg =? R_VOLTAGE then KMapped P_voltage
  else if reg =? R_MOTOR_TEMPERATURE then KMapped P_temperature
  else if reg =? R_TEMPERATURE then KMapped P_temperature
  else if reg =? R_FAULT then KInt
  else if reg =? 0x030 then KMapped P_torque      (* POSITION_KP *)
  else if reg =? 0x031 then KMapped P_torque      (* POSITION_KI *)
  else if reg =? 0x032 then KMapped P_torque      (* POSITION_KD *)
  else if reg =? 0x033 then KMapped P_torque      (* POSITION_FEEDFORWARD *)
  else if reg =? 0x034 then KMapped P_torque      (* POSITION_COMMAND *)
  else if reg =? 0x038 then KMapped P_position    (* CONTROL_POSITION *)
  else if reg =? 0x039 then KMapped P_velocity    (* CONTROL_VELOCITY *)
  else if reg =? 0x03a then KMapped P_torque      (* CONTROL_TORQUE *)
  else if reg =? 0x03b then KMapped P_position    (* POSITION_ERROR *)
  else if reg =? 0x03c then KMapped P_velocity    (* VELOCITY_ERROR *)
  else if reg =? 0x03d then KMapped P_torque      (* TORQUE_ERROR *)
  else if reg =? 0x050 then KMapped P_position    (* ENCODER_0_POSITION *)
  else if reg =? 0x051 then KMapped P_velocity    (* ENCODER_0_VELOCITY *)
  else if reg =? 0x052 then KMapped P_position    (* ENCODER_1_POSITION *)
  else if reg =? 0x053 then KMapped P_velocity    (* ENCODER_1_VELOCITY *)
  else if reg =? 0x054 then KMapped P_position    (* ENCODER_2_POSITION *)
  else if reg =? 0x055 then KMapped P_velocity    (* ENCODER_2_VELOCITY *)
  else if reg =? 0x058 then KInt                  (* ENCODER_VALIDITY *)
  else if reg =? 0x05c then KInt                  (* AUX1_GPIO_COMMAND *)
  else if reg =? 0x05d then KInt                  (* AUX2_GPIO_COMMAND *)
  else if reg =? 0x05e then KInt                  (* AUX1_GPIO_STATUS *)
  else if reg =? 0x05f then KInt                  (* AUX2_GPIO_STATUS *)
  else if (reg =? 0x060) || (reg =? 0x061) || (reg =? 0x062) || (reg =? 0x063)
       || (reg =? 0x064) || (reg =? 0x068) || (reg =? 0x069) || (reg =? 0x06a)
       || (reg =? 0x06b) || (reg =? 0x06c) then KMapped P_pwm  (* AUXx_ANALOG_INy *)
  else if reg =? 0x070 then KInt                  (* MILLISECOND_COUNTER *)
  else if reg =? 0x071 then KInt                  (* CLOCK_TRIM *)
  else if (R_AUX1_PWM1 <=? reg) && (reg <=? R_AUX2_PWM5) then KMapped P_pwm
  else KRaw.

Definition parse_register (p : parser) (reg : Z) (r : resolution)
  : res (parser * pyval) :=
  match reg_kind reg with
  | KInt => read_int p r
  | KMapped s => read_mapped p r s
  | KRaw => read p r
  end.

(** A Python dict with int keys, in insertion order; assignment replaces
    in place or appends. *)
Definition dict := list (Z * pyval).
Fixpoint dict_set (d : dict) (k : Z) (v : pyval) : dict :=
  match d with
  | [] => [(k, v)]
  | (k', v') :: d => if k' =? k then (k', v) :: d else (k', v') :: dict_set d k v
  end.
Fixpoint dict_get (d : dict) (k : Z) : option pyval :=
  match d with
  | [] => None
  | (k', v') :: d => if k' =? k then Some v' else dict_get d k
  end.

(** moteus.py:553-563 parse_reply.  Each round consumes at least one byte,
    so the fuel suffices (proved). *)
Fixpoint parse_reply_loop (fuel : nat) (p : parser) (result : dict) : res dict :=
  match fuel with
  | O => Raise Diverges
  | S fuel =>
      match next p with
      | (p, None) => Ok result
      | (p, Some (reg, r)) =>
          let* pv := parse_register p reg r in
          parse_reply_loop fuel (fst pv) (dict_set result reg (snd pv))
      end
  end.

Definition parse_reply (data : list Z) : res dict :=
  parse_reply_loop (S (length data)) (parser_init data) [].

(** moteus.py:597-613 parse_diagnostic_data, on message.data. *)
Definition parse_diagnostic_data (data : list Z) (channel : Z) : option (list Z) :=
  if (length data <? 3)%nat then None
  else if negb (nth 0 data 0 =? STREAM_SERVER_DATA) then None
  else if negb (nth 1 data 0 =? channel) then None
  else match read_varuint 2 data with
       | (None, _) => None
       | (Some datalen, nextoff) =>
           if datalen >? Z.of_nat (length data) - Z.of_nat nextoff then None
           else Some (slice data nextoff (nextoff + Z.to_nat datalen))
       end.

(** ** Resolution settings, moteus.py:318-381 *)
Record query_resolution := {
  q_mode : resolution; q_position : resolution; q_velocity : resolution;
  q_torque : resolution; q_q_current : resolution; q_d_current : resolution;
  q_abs_position : resolution; q_power : resolution;
  q_motor_temperature : resolution; q_trajectory_complete : resolution;
  q_rezero_state : resolution; q_home_state : resolution;
  q_voltage : resolution; q_temperature : resolution; q_fault : resolution;
  q_aux1_gpio : resolution; q_aux2_gpio : resolution;
  q_extra : list (Z * resolution)   (* the _extra dictionary: distinct keys *)
}.

(** moteus.py:318-342 *)
Definition default_query_resolution : query_resolution := {|
  q_mode := INT8; q_position := F32; q_velocity := F32; q_torque := F32;
  q_q_current := IGNORE; q_d_current := IGNORE; q_abs_position := IGNORE;
  q_power := IGNORE; q_motor_temperature := IGNORE;
  q_trajectory_complete := IGNORE; q_rezero_state := IGNORE;
  q_home_state := IGNORE; q_voltage := INT8; q_temperature := INT8;
  q_fault := INT8; q_aux1_gpio := IGNORE; q_aux2_gpio := IGNORE; q_extra := [] |}.

Record position_resolution := {
  pr_position : resolution; pr_velocity : resolution;
  pr_feedforward_torque : resolution; pr_kp_scale : resolution;
  pr_kd_scale : resolution; pr_maximum_torque : resolution;
  pr_stop_position : resolution; pr_watchdog_timeout : resolution;
  pr_velocity_limit : resolution; pr_accel_limit : resolution;
  pr_fixed_voltage_override : resolution; pr_ilimit_scale : resolution }.

(** moteus.py:345-357 *)
Definition default_position_resolution : position_resolution := {|
  pr_position := F32; pr_velocity := F32; pr_feedforward_torque := F32;
  pr_kp_scale := F32; pr_kd_scale := F32; pr_maximum_torque := F32;
  pr_stop_position := F32; pr_watchdog_timeout := F32; pr_velocity_limit := F32;
  pr_accel_limit := F32; pr_fixed_voltage_override := F32; pr_ilimit_scale := F32 |}.

Record vfoc_resolution := {
  vr_theta : resolution; vr_voltage : resolution; vr_theta_rate : resolution }.

(** moteus.py:360-363 *)
Definition default_vfoc_resolution := {| vr_theta := F32; vr_voltage := F32; vr_theta_rate := F32 |}.

Record current_resolution := { cr_d_A : resolution; cr_q_A : resolution }.

(** moteus.py:366-368 *)
Definition default_current_resolution := {| cr_d_A := F32; cr_q_A := F32 |}.

(** moteus.py:371-381: aux1_pwm1..5, aux2_pwm1..5, as a list of ten. *)
Definition default_pwm_resolution : list resolution := repeat INT16 10.

(** moteus.py:310-315 _merge_resolutions; max on the numeric codes. *)
Definition merge_resolutions (a b : resolution) : resolution :=
  if res_eqb a IGNORE then b
  else if res_eqb b IGNORE then a
  else if res_code a <? res_code b then b else a.

(** ** Running a WriteCombiner

    The code of every make_* method is a sequence of
      `if combiner.maybe_write(): writer.write_xxx(value, resolution)`.
    [run_fields c acts] executes that sequence, one entry of [acts] per
    statement. *)
Fixpoint run_fields (c : combiner) (acts : list (writer -> res writer)) : res combiner :=
  match acts with
  | [] => Ok c
  | act :: acts =>
      let* cb := maybe_write c in
      let (c, go) := (cb : combiner * bool) in
      let* w := (if go then act (c_writer c) else Ok (c_writer c)) in
      run_fields {| c_writer := w; c_base := c_base c; c_start := c_start c;
                    c_resolutions := c_resolutions c; c_reply_size := c_reply_size c;
                    c_offset := c_offset c; c_current := c_current c |} acts
  end.

(** for i in range(c.size()): c.maybe_write()   (moteus.py:699-700 etc.) *)
Definition run_query (w : writer) (start : Z) (rs : list resolution) : res combiner :=
  run_fields (combiner_init w 0x10 start rs) (map (fun _ w => Ok w) rs).

(** dictionary.get(i, IGNORE) for i in range(min_val, max_val + 1),
    moteus.py:727-732, 786-790. *)
Fixpoint extra_get (d : list (Z * resolution)) (k : Z) : resolution :=
  match d with
  | [] => IGNORE
  | (k', r) :: d => if k' =? k then r else extra_get d k
  end.

Definition keys (d : list (Z * resolution)) : list Z := map fst d.
Definition list_min (x : Z) (l : list Z) : Z := fold_left Z.min l x.
Definition list_max (x : Z) (l : list Z) : Z := fold_left Z.max l x.

Definition Zrange (a b : Z) : list Z :=   (* range(a, b) *)
  map (fun i => a + Z.of_nat i) (seq 0 (Z.to_nat (b - a))).

Definition extra_resolutions (d : list (Z * resolution)) (mn mx : Z) : list resolution :=
  map (extra_get d) (Zrange mn (mx + 1)).

(** moteus.py:680-737 _make_query_data: the bytes and expected_reply_size. *)
Definition make_query_data (qr : query_resolution) : res (list Z * Z) :=
  let* c1 := run_query [] R_MODE
    [q_mode qr; q_position qr; q_velocity qr; q_torque qr; q_q_current qr;
     q_d_current qr; q_abs_position qr; q_power qr] in
  let* c2 := run_query (c_writer c1) R_MOTOR_TEMPERATURE
    [q_motor_temperature qr; q_trajectory_complete qr;
     merge_resolutions (q_rezero_state qr) (q_home_state qr);
     q_voltage qr; q_temperature qr; q_fault qr] in
  let* c3 := run_query (c_writer c2) R_AUX1_GPIO_STATUS [q_aux1_gpio qr; q_aux2_gpio qr] in
  let size := c_reply_size c1 + c_reply_size c2 + c_reply_size c3 in
  match keys (q_extra qr) with
  | [] => Ok (c_writer c3, size)
  | k :: ks =>
      let mn := list_min k ks in
      let mx := list_max k ks in
      let* c4 := run_query (c_writer c3) mn (extra_resolutions (q_extra qr) mn mx) in
      Ok (c_writer c4, size + c_reply_size c4)
  end.

(** command.py:16-29, the fields set by Controller. *)
Record command := {
  cmd_destination : Z; cmd_source : Z; cmd_reply_required : bool;
  cmd_data : list Z; cmd_can_prefix : Z; cmd_expected_reply_size : Z;
  cmd_raw : bool; cmd_arbitration_id : Z
}.

Record controller := {
  ct_id : Z;
  ct_query : query_resolution;
  ct_position : position_resolution;
  ct_vfoc : vfoc_resolution;
  ct_current : current_resolution;
  ct_pwm : list resolution;
  ct_prefix : Z;
  ct_query_data : list Z;         (* _query_data *)
  ct_query_reply_size : Z         (* _default_query_reply_size *)
}.

(** moteus.py:644-663 Controller.__init__ *)
Definition make_controller (id : Z) (q : query_resolution) (p : position_resolution)
  (v : vfoc_resolution) (cu : current_resolution) (pw : list resolution) (prefix : Z)
  : res controller :=
  let* d := make_query_data q in
  Ok {| ct_id := id; ct_query := q; ct_position := p; ct_vfoc := v; ct_current := cu;
        ct_pwm := pw; ct_prefix := prefix; ct_query_data := fst d;
        ct_query_reply_size := snd d |}.

(** moteus.py:749-759 _make_command, with the data it will be given. *)
Definition make_command (ct : controller) (query : bool)
  (query_override : option query_resolution) (data : list Z) (reply_size : Z) : command :=
  {| cmd_destination := ct_id ct; cmd_source := 0;
     cmd_reply_required := query || match query_override with Some _ => true | None => false end;
     cmd_data := data; cmd_can_prefix := ct_prefix ct;
     cmd_expected_reply_size := reply_size; cmd_raw := false; cmd_arbitration_id := 0 |}.

(** moteus.py:757: the initial expected_reply_size *)
Definition initial_reply_size (ct : controller) (query : bool) : Z :=
  if query then ct_query_reply_size ct else 0.

(** moteus.py:739-747 _format_query: appends the query to the buffer and
    gives the new expected_reply_size. *)
Definition format_query (ct : controller) (query : bool)
  (query_override : option query_resolution) (buf : list Z) : res (list Z * Z) :=
  match query_override with
  | Some q => let* d := make_query_data q in Ok (buf ++ fst d, snd d)
  | None =>
      if query then Ok (buf ++ ct_query_data ct, ct_query_reply_size ct)
      else Ok (buf, initial_reply_size ct query)
  end.

(** The common end of the make_* methods: _format_query then
    result.data = data_buf.getvalue(). *)
Definition finish (ct : controller) (query : bool) (qo : option query_resolution)
  (buf : list Z) : res command :=
  let* d := format_query ct query qo buf in
  Ok (make_command ct query qo (fst d) (snd d)).

(** moteus.py:761-770 make_query *)
Definition make_query (ct : controller) (qo : option query_resolution) : res command :=
  match qo with
  | Some q => let* d := make_query_data q in Ok (make_command ct true qo (fst d) (snd d))
  | None => Ok (make_command ct true None (ct_query_data ct) (ct_query_reply_size ct))
  end.

(** moteus.py:775-796 make_custom_query (min of an empty dict: ValueError) *)
Definition make_custom_query (ct : controller) (d : list (Z * resolution)) : res command :=
  match keys d with
  | [] => Raise ValueError
  | k :: ks =>
      let mn := list_min k ks in
      let mx := list_max k ks in
      let* c := run_query [] mn (extra_resolutions d mn mx) in
      Ok (make_command ct true None (c_writer c) (c_reply_size c))
  end.

(** writer.write_int8 three times: a one register int8 write
    (moteus.py:810-812 etc.) *)
Definition write_mode (w : writer) (mode : Z) : res writer :=
  let* w := write_int8 w (Z.lor WRITE_INT8 0x01) in
  let* w := write_int8 w R_MODE in
  write_int8 w mode.

(** moteus.py:801-818 make_stop, 1216-1230 make_brake *)
Definition make_stop (ct : controller) (query : bool) qo : res command :=
  let* w := write_mode [] M_STOPPED in finish ct query qo w.
Definition make_brake (ct : controller) (query : bool) qo : res command :=
  let* w := write_mode [] M_BRAKE in finish ct query qo w.

(** moteus.py:823-847 make_set_output (849-886: nearest, exact, rezero) *)
Definition make_set_output (ct : controller) (position : float) (query : bool) qo (cmd : Z)
  : res command :=
  let* w := write_int8 [] (Z.lor WRITE_F32 0x01) in
  let* w := write_varuint w cmd in
  let* w := write_f32 w position in
  finish ct query qo w.
Definition make_set_output_nearest ct position query qo :=
  make_set_output ct position query qo R_SET_OUTPUT_NEAREST.
Definition make_set_output_exact ct position query qo :=
  make_set_output ct position query qo R_SET_OUTPUT_EXACT.
Definition make_rezero ct position query qo :=
  make_set_output ct position query qo R_SET_OUTPUT_NEAREST.

(** moteus.py:891-904 make_require_reindex, 910-923
    make_recapture_position_velocity: no _format_query call. *)
Definition make_write1 (ct : controller) (query : bool) qo (reg : Z) : res command :=
  let* w := write_int8 [] (Z.lor WRITE_INT8 0x01) in
  let* w := write_varuint w reg in
  let* w := write_int8 w 1 in
  Ok (make_command ct query qo w (initial_reply_size ct query)).
Definition make_require_reindex ct query qo := make_write1 ct query qo R_REQUIRE_REINDEX.
Definition make_recapture_position_velocity ct query qo := make_write1 ct query qo R_RECAPTURE.

(** `r if value is not None else mp.IGNORE` *)
Definition res_if {A} (value : option A) (r : resolution) : resolution :=
  match value with Some _ => r | None => IGNORE end.

(** writer.write_xxx(value, resolution) where value may be None: the code
    only gets here when maybe_write() said so; math.isfinite(None) raises
    TypeError. *)
Definition write_opt (value : option float) (s : scales) (r : resolution)
  : writer -> res writer :=
  fun w => match value with
           | Some x => write_mapped w x s r
           | None => match r with IGNORE => Raise IndexError | _ => Raise TypeError end
           end.

Record position_args := {
  a_position : option float; a_velocity : option float;
  a_feedforward_torque : option float; a_kp_scale : option float;
  a_kd_scale : option float; a_maximum_torque : option float;
  a_stop_position : option float; a_watchdog_timeout : option float;
  a_velocity_limit : option float; a_accel_limit : option float;
  a_fixed_voltage_override : option float; a_ilimit_scale : option float }.

(** moteus.py:931-1008 make_position *)
Definition make_position (ct : controller) (a : position_args) (query : bool) qo
  : res command :=
  let pr := ct_position ct in
  let resolutions := [
    res_if (a_position a) (pr_position pr);
    res_if (a_velocity a) (pr_velocity pr);
    res_if (a_feedforward_torque a) (pr_feedforward_torque pr);
    res_if (a_kp_scale a) (pr_kp_scale pr);
    res_if (a_kd_scale a) (pr_kd_scale pr);
    res_if (a_maximum_torque a) (pr_maximum_torque pr);
    res_if (a_stop_position a) (pr_stop_position pr);
    res_if (a_watchdog_timeout a) (pr_watchdog_timeout pr);
    res_if (a_velocity_limit a) (pr_velocity_limit pr);
    res_if (a_accel_limit a) (pr_accel_limit pr);
    res_if (a_fixed_voltage_override a) (pr_fixed_voltage_override pr);
    res_if (a_ilimit_scale a) (pr_ilimit_scale pr) ] in
  let* w := write_mode [] M_POSITION in
  let* c := run_fields (combiner_init w 0x00 R_COMMAND_POSITION resolutions) [
    write_opt (a_position a) W_position (pr_position pr);
    write_opt (a_velocity a) W_velocity (pr_velocity pr);
    write_opt (a_feedforward_torque a) W_torque (pr_feedforward_torque pr);
    write_opt (a_kp_scale a) W_pwm (pr_kp_scale pr);
    write_opt (a_kd_scale a) W_pwm (pr_kd_scale pr);
    write_opt (a_maximum_torque a) W_torque (pr_maximum_torque pr);
    write_opt (a_stop_position a) W_position (pr_stop_position pr);
    write_opt (a_watchdog_timeout a) W_time (pr_watchdog_timeout pr);
    write_opt (a_velocity_limit a) W_velocity (pr_velocity_limit pr);
    write_opt (a_accel_limit a) W_accel (pr_accel_limit pr);
    write_opt (a_fixed_voltage_override a) W_voltage (pr_fixed_voltage_override pr);
    write_opt (a_ilimit_scale a) W_voltage (pr_ilimit_scale pr) ] in
  finish ct query qo (c_writer c).

(** moteus.py:1046-1097 make_vfoc.  theta and voltage may be None;
    `theta_rate != 0.0 and theta_rate is not None` *)
Definition make_vfoc (ct : controller) (theta voltage theta_rate : option float)
  (query : bool) qo : res command :=
  let cr := ct_vfoc ct in
  let over_pi (x : option float) := option_map (fun t => fdiv t py_pi) x in
  let resolutions := [
    res_if theta (vr_theta cr);
    res_if voltage (vr_voltage cr);
    IGNORE; IGNORE; IGNORE; IGNORE;
    match theta_rate with
    | Some x => if feqb x (S754_zero false) then IGNORE else vr_theta_rate cr
    | None => IGNORE
    end ] in
  let* w := write_mode [] M_VOLTAGE_FOC in
  let* c := run_fields (combiner_init w 0x00 R_VFOC_THETA resolutions) [
    write_opt (over_pi theta) W_pwm (vr_theta cr);
    write_opt voltage W_voltage (vr_voltage cr);
    (fun _ => Raise AssertionError); (fun _ => Raise AssertionError);
    (fun _ => Raise AssertionError); (fun _ => Raise AssertionError);
    write_opt (over_pi theta_rate) W_velocity (vr_theta_rate cr) ] in
  finish ct query qo (c_writer c).

(** moteus.py:1102-1142 make_current *)
Definition make_current (ct : controller) (d_A q_A : option float) (query : bool) qo
  : res command :=
  let cr := ct_current ct in
  let resolutions := [ res_if d_A (cr_d_A cr); res_if q_A (cr_q_A cr) ] in
  let* w := write_mode [] M_CURRENT in
  let* c := run_fields (combiner_init w 0x00 R_COMMAND_Q_CURRENT resolutions) [
    write_opt q_A W_current (cr_q_A cr);
    write_opt d_A W_current (cr_d_A cr) ] in
  finish ct query qo (c_writer c).

Record within_args := {
  wa_lower_bound : option float; wa_upper_bound : option float;
  wa_feedforward_torque : option float; wa_kp_scale : option float;
  wa_kd_scale : option float; wa_maximum_torque : option float;
  wa_stop_position : option float;   (* accepted and ignored *)
  wa_watchdog_timeout : option float; wa_ilimit_scale : option float }.

(** moteus.py:1147-1211 make_stay_within *)
Definition make_stay_within (ct : controller) (a : within_args) (query : bool) qo
  : res command :=
  let pr := ct_position ct in
  let resolutions := [
    res_if (wa_lower_bound a) (pr_position pr);
    res_if (wa_upper_bound a) (pr_position pr);
    res_if (wa_feedforward_torque a) (pr_feedforward_torque pr);
    res_if (wa_kp_scale a) (pr_kp_scale pr);
    res_if (wa_kd_scale a) (pr_kd_scale pr);
    res_if (wa_maximum_torque a) (pr_maximum_torque pr);
    res_if (wa_watchdog_timeout a) (pr_watchdog_timeout pr);
    res_if (wa_ilimit_scale a) (pr_ilimit_scale pr) ] in
  let* w := write_mode [] M_STAY_WITHIN in
  let* c := run_fields (combiner_init w 0x00 R_WITHIN_LOWER resolutions) [
    write_opt (wa_lower_bound a) W_position (pr_position pr);
    write_opt (wa_upper_bound a) W_position (pr_position pr);
    write_opt (wa_feedforward_torque a) W_torque (pr_feedforward_torque pr);
    write_opt (wa_kp_scale a) W_pwm (pr_kp_scale pr);
    write_opt (wa_kd_scale a) W_pwm (pr_kd_scale pr);
    write_opt (wa_maximum_torque a) W_torque (pr_maximum_torque pr);
    write_opt (wa_watchdog_timeout a) W_time (pr_watchdog_timeout pr);
    write_opt (wa_ilimit_scale a) W_pwm (pr_ilimit_scale pr) ] in
  finish ct query qo (c_writer c).

(** moteus.py:1235-1264 make_write_gpio *)
Definition make_write_gpio (ct : controller) (aux1 aux2 : option Z) (query : bool) qo
  : res command :=
  let write_aux (v : option Z) : writer -> res writer :=
    fun w => match v with Some z => write_int8 w z | None => Raise StructError end in
  let* c := run_fields
    (combiner_init [] 0x00 R_AUX1_GPIO_COMMAND [res_if aux1 INT8; res_if aux2 INT8])
    [write_aux aux1; write_aux aux2] in
  finish ct query qo (c_writer c).

(** moteus.py:1269-1287 make_read_gpio: expected_reply_size keeps the
    value _make_command gave it. *)
Definition make_read_gpio (ct : controller) : res command :=
  let* c := run_query [] R_AUX1_GPIO_STATUS [INT8; INT8] in
  Ok (make_command ct true None (c_writer c) (initial_reply_size ct true)).

(** moteus.py:1304-1318 make_diagnostic_write *)
Definition make_diagnostic_write (ct : controller) (data : list Z) (channel : Z)
  : res command :=
  if (length data <=? 61)%nat then
    let* w := write_int8 [] STREAM_CLIENT_DATA in
    let* w := write_int8 w channel in
    let* w := write_int8 w (Z.of_nat (length data)) in
    Ok (make_command ct false None (w ++ data) (initial_reply_size ct false))
  else Raise AssertionError.

(** moteus.py:1323-1336 make_diagnostic_read *)
Definition make_diagnostic_read (ct : controller) (max_length channel : Z) : res command :=
  let* w := write_int8 [] STREAM_CLIENT_POLL in
  let* w := write_int8 w channel in
  let* w := write_int8 w max_length in
  Ok (make_command ct true None w (3 + max_length)).

(** moteus.py:1342-1352 make_set_trim *)
Definition make_set_trim (ct : controller) (trim : Z) : res command :=
  let* w := write_int8 [] (Z.lor WRITE_INT32 0x01) in
  let* w := write_varuint w R_CLOCK_TRIM in
  let* w := write_int32 w trim in
  Ok (make_command ct false None w (initial_reply_size ct false)).

(** moteus.py:1357-1416 make_aux_pwm; [a] lists aux1_pwm1..5,
    aux2_pwm1..5, and the ten resolutions are in the same order. *)
Definition make_aux_pwm (ct : controller) (a : list (option float)) (query : bool) qo
  : res command :=
  let pr := ct_pwm ct in
  let resolutions := map (fun vr => res_if (fst vr) (snd vr)) (combine a pr) in
  let* c := run_fields (combiner_init [] 0x00 R_AUX1_PWM1 resolutions)
    (map (fun vr => write_opt (fst vr) W_pwm (snd vr)) (combine a pr)) in
  finish ct query qo (c_writer c).
