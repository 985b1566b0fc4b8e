(** Specification for C35 and C36: configuration texts and the settings
    that a change of firmware version is about.  Nothing here refers to
    the model. *)
From Coq Require Import Ascii String ZArith List Bool.
From Verif Require Import PyBytes.
Import ListNotations.
Open Scope Z_scope.

(** ** Texts *)

(** [text] consists of the lines [ls]: none has a line feed, and a line
    feed stands between two of them. *)
Inductive text_lines : list Z -> list (list Z) -> Prop :=
| tl_one l : ~ In 10 l -> text_lines l [l]
| tl_more l text ls : ~ In 10 l -> text_lines text ls -> text_lines (l ++ [10] ++ text) (l :: ls).

(** The line that gives setting [k] the value [v]. *)
Definition setting_line (k v : list Z) : list Z := k ++ lit " " ++ v.

(** [text] gives setting [k] the value [v]: of the lines about [k], that
    is those starting with [k] and a space, the last one counts. *)
Definition setting (text k v : list Z) : Prop :=
  ~ In 32 k /\
  exists ls before after, text_lines text ls /\ ls = before ++ [setting_line k v] ++ after /\
    forall w, ~ In (setting_line k w) after.

Definition has_setting (text k : list Z) : Prop := exists v, setting text k v.

(** A text that can be read: a line with a space in it is a name without
    spaces, a space and a value without spaces. *)
Definition readable (text : list Z) : Prop :=
  exists ls, text_lines text ls /\
    forall l, In l ls -> In 32 l -> exists k v, l = setting_line k v /\ ~ In 32 k /\ ~ In 32 v.

(** ** The settings each version is about *)

(** A group of settings: one name, or all names with a prefix. *)
Inductive group := Name (s : string) | Prefix (s : string).
Definition in_group (k : list Z) (g : group) : Prop :=
  match g with
  | Name s => k = lit s
  | Prefix s => exists rest, k = lit s ++ rest
  end.

Definition i2c_poll : list group :=
  map Name ["aux1.i2c.devices.0.poll_rate_us"; "aux1.i2c.devices.1.poll_rate_us";
            "aux1.i2c.devices.2.poll_rate_us"; "aux2.i2c.devices.0.poll_rate_us";
            "aux2.i2c.devices.1.poll_rate_us"; "aux2.i2c.devices.2.poll_rate_us";
            "aux1.i2c.devices.0.poll_ms"; "aux1.i2c.devices.1.poll_ms";
            "aux1.i2c.devices.2.poll_ms"; "aux2.i2c.devices.0.poll_ms";
            "aux2.i2c.devices.1.poll_ms"; "aux2.i2c.devices.2.poll_ms"]%string.

Definition compensation : list group :=
  [Prefix "motor_position.sources.0.compensation_table.";
   Prefix "motor_position.sources.1.compensation_table.";
   Prefix "motor_position.sources.2.compensation_table.";
   Name "motor_position.sources.0.compensation_scale";
   Name "motor_position.sources.1.compensation_scale";
   Name "motor_position.sources.2.compensation_scale"]%string.

Definition power : list group :=
  map Name ["motor.Kv"; "motor.v_per_hz"; "servo.max_power_W"]%string.

Definition pwm_compensation : list group :=
  map Name ["servo.pwm_scale"; "servo.pwm_comp_off"; "servo.pwm_comp_mag"]%string.

(** What an upgrade to version [t] from the one before it is about. *)
Definition up_about (t : Z) : list group :=
  if t =? 0x0101 then [Name "servo.feedforward_scale"]
  else if t =? 0x0103 then pwm_compensation
  else if t =? 0x0104 then pwm_compensation
  else if t =? 0x0105 then
    [Prefix "abs_port."] ++
    map Name ["servo.rezero_from_abs"; "aux2.i2c.i2c_hz"; "aux2.i2c.i2c_mode";
              "aux2.i2c.devices.0.type"; "aux2.i2c.devices.0.address"; "aux2.i2c.devices.0.poll_ms";
              "aux2.pins.0.mode"; "aux2.pins.1.mode"; "aux2.pins.0.pull"; "aux2.pins.1.pull";
              "motor_position.sources.1.type"; "motor_position.sources.1.aux_number";
              "motor_position.sources.1.i2c_device"; "motor_position.sources.1.offset";
              "motor_position.sources.1.reference"; "motor_position.sources.1.pll_filter_hz";
              "motor_position.sources.1.cpr"; "motor_position.sources.1.sign";
              "motor_position.output.reference_source"; "encoder.mode"; "aux1.spi.mode";
              "aux1.pins.0.mode"; "aux1.pins.1.mode"; "aux1.pins.2.mode"; "aux1.pins.3.mode";
              "motor.position_offset"; "motor.unwrapped_position_scale"; "motor.invert";
              "motor_position.output.offset"; "motor_position.sources.0.sign";
              "motor_position.rotor_to_output_ratio"; "servo.velocity_filter_length";
              "servo.encoder_filter.kp"; "servo.encoder_filter.ki"; "servo.encoder_filter.enabled";
              "servo.encoder_filter.debug_override"; "motor_position.sources.0.pll_filter_hz";
              "motor_position.sources.0.debug_override"; "servo.pwm_rate_hz"]%string
  else if t =? 0x0106 then i2c_poll
  else if t =? 0x0108 then [Name "servo.bemf_feedforward"]
  else if t =? 0x0109 then
    [Prefix "motor.offset."; Name "servo.motor_thermistor_ohm"] ++ compensation
  else if t =? 0x010a then power
  else [].

(** What a downgrade from version [t] to the one before it is about. *)
Definition down_about (t : Z) : list group :=
  if t =? 0x0101 then [Name "servo.feedforward_scale"]
  else if t =? 0x0103 then map Name ["servo.pwm_comp_off"; "servo.pwm_comp_mag"; "motor.poles"]%string
  else if t =? 0x0104 then pwm_compensation
  else if t =? 0x0105 then
    [Name "motor.invert"; Name "motor.position_offset"; Name "motor.unwrapped_position_scale";
     Prefix "motor_position."; Prefix "aux1."; Prefix "aux2."; Prefix "icpz1."; Prefix "icpz2.";
     Prefix "motor.cogging_dq"; Prefix "servo.current_feedforward"]%string
  else if t =? 0x0106 then i2c_poll
  else if t =? 0x0107 then [Name "motor_position.output.sign"]
  else if t =? 0x0108 then [Name "servo.bemf_feedforward"]
  else if t =? 0x0109 then
    map Name ["servo.enable_motor_temperature"; "servo.motor_thermistor_ohm";
              "aux1.pwm_period_us"; "aux2.pwm_period_us"]%string ++ compensation
  else if t =? 0x010a then power
  else [].

(** Setting [k] is named by a rule between versions [a] and [b]. *)
Definition named (a b : Z) (k : list Z) : Prop :=
  exists t, (a < t <= b /\ Exists (in_group k) (up_about t)) \/
            (b < t <= a /\ Exists (in_group k) (down_about t)).

(** The polling period of each I2C device: the setting since 0x0106, in
    microseconds, and the one before, in milliseconds. *)
Definition i2c_pairs : list (string * string) :=
  [("aux1.i2c.devices.0.poll_rate_us", "aux1.i2c.devices.0.poll_ms");
   ("aux1.i2c.devices.1.poll_rate_us", "aux1.i2c.devices.1.poll_ms");
   ("aux1.i2c.devices.2.poll_rate_us", "aux1.i2c.devices.2.poll_ms");
   ("aux2.i2c.devices.0.poll_rate_us", "aux2.i2c.devices.0.poll_ms");
   ("aux2.i2c.devices.1.poll_rate_us", "aux2.i2c.devices.1.poll_ms");
   ("aux2.i2c.devices.2.poll_rate_us", "aux2.i2c.devices.2.poll_ms")]%string.
