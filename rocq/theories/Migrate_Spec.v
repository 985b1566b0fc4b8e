(** Specification for C57: what a change of firmware version by one step
    does to the settings, in terms of the texts before ([o], old) and
    after ([n], new).  [read_float] is Python's float() of a text,
    [show_float] and [show_int] its str() of a float and of an integer, [py_sum] its sum() and [wrap] the
    angle in -pi..pi (C37).  Comparisons and arithmetic are those of
    binary64 numbers. *)
From Coq Require Import Ascii String ZArith List Bool Floats.SpecFloat.
From Verif Require Import PyBase PyBytes PyFloat Config_Spec Props_Tool.
Import ListNotations.
Open Scope Z_scope.

Section Migrate.
  Variable read_float : list Z -> res float.
  Variable show_float : float -> list Z.
  Variable show_int : Z -> list Z.
  Variable py_sum : list float -> float.
  Variable wrap : float -> res float.

  (** ** Settings of a text *)

  (** Setting [k] is the number [x], the integer [z]. *)
  Definition num (t k : list Z) (x : float) : Prop := exists v, setting t k v /\ read_float v = Ok x.
  Definition whole (t k : list Z) (z : Z) : Prop := exists v, setting t k v /\ int_text v z.

  Definition missing (t k : list Z) : Prop := ~ has_setting t k.

  (** ... a missing one counting as [d]. *)
  Definition num_or (t k : list Z) (d x : float) : Prop := num t k x \/ missing t k /\ x = d.
  Definition whole_or (t k : list Z) (d z : Z) : Prop := whole t k z \/ missing t k /\ z = d.

  (** Settings [ks] are in [n] as in [o]. *)
  Definition same (o n : list Z) (ks : list string) : Prop :=
    forall k, In k ks -> forall v, setting n (lit k) v <-> setting o (lit k) v.

  (** Setting [k'] of [n] has the text that [k] has in [o]. *)
  Definition copied (o : list Z) (k : string) (n : list Z) (k' : string) : Prop :=
    exists v, setting o (lit k) v /\ setting n (lit k') v.

  (** The settings of [n] are as listed. *)
  Definition are (n : list Z) (l : list (string * string)) : Prop :=
    forall k v, In (k, v) l -> setting n (lit k) (lit v).

  Definition gone (n : list Z) (ks : list string) : Prop := forall k, In k ks -> missing n (lit k).

  (** If [c] holds the settings of [n] are as listed in
      [l], and otherwise as in [o]. *)
  Definition when (c : bool) (o n : list Z) (l : list (string * string)) : Prop :=
    if c then are n l else same o n (map fst l).

  (** ** Upgrades *)

  Definition to_0101 (o n : list Z) : Prop := exists x,
    num o (lit "servo.feedforward_scale") x /\
    are n [("servo.feedforward_scale", if feqb x (float_of_Z 1) then "0.5" else "0.0")]%string.

  Definition to_0103 (o n : list Z) : Prop := exists x,
    num_or o (lit "servo.pwm_comp_mag") (float_of_Z 0) x /\
    when (feqb x (flit 3 3)) o n
      [("servo.pwm_scale", "1.15"); ("servo.pwm_comp_off", "0.048"); ("servo.pwm_comp_mag", "0.011")]%string.

  Definition to_0104 (o n : list Z) : Prop := exists x,
    num_or o (lit "servo.pwm_comp_mag") (float_of_Z 0) x /\
    if feqb x (flit 11 3) then exists y, num_or o (lit "servo.pwm_comp_off") (float_of_Z 0) y /\
      when (feqb y (flit 48 3)) o n
        [("servo.pwm_scale", "1.00"); ("servo.pwm_comp_off", "0.055"); ("servo.pwm_comp_mag", "0.005")]%string
    else same o n ["servo.pwm_scale"; "servo.pwm_comp_off"; "servo.pwm_comp_mag"]%string.

  (** The absolute encoder port becomes I2C device 0 of the second
      auxiliary port, and the second source when it gave the position. *)
  Definition abs_device : list string :=
    ["aux2.i2c.devices.0.type"; "aux2.i2c.devices.0.address"; "aux2.i2c.devices.0.poll_ms";
     "aux2.pins.0.mode"; "aux2.pins.1.mode"; "aux2.pins.0.pull"; "aux2.pins.1.pull"]%string.
  Definition abs_source : list string :=
    ["motor_position.sources.1.type"; "motor_position.sources.1.aux_number";
     "motor_position.sources.1.i2c_device"; "motor_position.sources.1.offset";
     "motor_position.sources.1.reference"; "motor_position.sources.1.pll_filter_hz";
     "motor_position.sources.1.cpr"; "motor_position.sources.1.sign";
     "motor_position.output.reference_source"]%string.

  Definition abs_port_moved (o n : list Z) : Prop :=
    copied o "abs_port.i2c_hz" n "aux2.i2c.i2c_hz" /\
    copied o "abs_port.i2c_mode" n "aux2.i2c.i2c_mode" /\
    gone n ["servo.rezero_from_abs"%string] /\
    (forall rest, missing n (lit "abs_port." ++ rest)) /\
    exists mode rezero,
      whole o (lit "abs_port.mode") mode /\ whole o (lit "servo.rezero_from_abs") rezero /\
      (if mode =? 0 then same o n abs_device
       else
         copied o "abs_port.mode" n "aux2.i2c.devices.0.type" /\
         copied o "abs_port.encoder_i2c_address" n "aux2.i2c.devices.0.address" /\
         copied o "abs_port.encoder_poll_ms" n "aux2.i2c.devices.0.poll_ms" /\
         are n [("aux2.pins.0.mode", "13"); ("aux2.pins.1.mode", "13");
                ("aux2.pins.0.pull", "1"); ("aux2.pins.1.pull", "1")]%string) /\
      (if rezero =? 0 then same o n abs_source
       else
         copied o "abs_port.position_offset" n "motor_position.sources.1.offset" /\
         are n [("motor_position.sources.1.type", "7"); ("motor_position.sources.1.aux_number", "2");
                ("motor_position.sources.1.i2c_device", "0"); ("motor_position.sources.1.reference", "1");
                ("motor_position.sources.1.pll_filter_hz", "10");
                ("motor_position.sources.1.cpr", if (mode =? 1)%Z then "65536" else "16384");
                ("motor_position.output.reference_source", "1")]%string /\
         exists scale, num o (lit "abs_port.position_scale") scale /\
           when (feqb scale (float_of_Z (-1))) o n [("motor_position.sources.1.sign", "-1")]%string).

  Definition port_moves (o n : list Z) : Prop :=
    has_setting o (lit "abs_port.i2c_mode") /\ abs_port_moved o n \/
    missing o (lit "abs_port.i2c_mode") /\
    same o n (["aux2.i2c.i2c_hz"; "aux2.i2c.i2c_mode"; "servo.rezero_from_abs"]%string ++ abs_device ++ abs_source) /\
    (forall rest v, setting n (lit "abs_port." ++ rest) v <-> setting o (lit "abs_port." ++ rest) v).

  (** An external encoder becomes an SPI encoder of the first auxiliary port. *)
  Definition encoder_moves (o n : list Z) : Prop :=
    gone n ["encoder.mode"]%string /\
    exists m, whole_or o (lit "encoder.mode") 0 m /\
      when (negb (m =? 0)) o n
        [("aux1.spi.mode", "2"); ("aux1.pins.0.mode", "2"); ("aux1.pins.1.mode", "1");
         ("aux1.pins.2.mode", "1"); ("aux1.pins.3.mode", "1")]%string.

  (** The offset, 65536ths of a turn of the rotor, is in turns of the
      output; the inversion is a sign. *)
  Definition offset_moves (o n : list Z) : Prop :=
    gone n ["motor.position_offset"; "motor.unwrapped_position_scale"; "motor.invert"]%string /\
    copied o "motor.unwrapped_position_scale" n "motor_position.rotor_to_output_ratio" /\
    (exists a s, num o (lit "motor.position_offset") a /\ num o (lit "motor.unwrapped_position_scale") s /\
       setting n (lit "motor_position.output.offset") (show_float (fmul (fdiv a (float_of_Z 65536)) s))) /\
    exists i, whole_or o (lit "motor.invert") 0 i /\
      are n [("motor_position.sources.0.sign", if (i =? 0)%Z then "1" else "-1")]%string.

  (** The filter's bandwidth is kp / 2 / (2 pi), or 0 when not enabled. *)
  Definition filters_move (pi : float) (o n : list Z) : Prop :=
    gone n ["servo.velocity_filter_length"; "servo.encoder_filter.kp"]%string /\
    (missing o (lit "servo.encoder_filter.kp") /\
     same o n ["motor_position.sources.0.pll_filter_hz"; "motor_position.sources.0.debug_override";
               "servo.encoder_filter.ki"; "servo.encoder_filter.enabled";
               "servo.encoder_filter.debug_override"]%string \/
     exists kp en debug,
       num o (lit "servo.encoder_filter.kp") kp /\ whole o (lit "servo.encoder_filter.enabled") en /\
       whole o (lit "servo.encoder_filter.debug_override") debug /\
       gone n ["servo.encoder_filter.ki"; "servo.encoder_filter.enabled";
               "servo.encoder_filter.debug_override"]%string /\
       setting n (lit "motor_position.sources.0.pll_filter_hz")
         (if en =? 0 then lit "0"
          else show_float (fdiv (fdiv kp (float_of_Z 2)) (fmul (float_of_Z 2) pi))) /\
       if debug <? 0 then same o n ["motor_position.sources.0.debug_override"]%string
       else whole n (lit "motor_position.sources.0.debug_override") debug).

  (** The old default PWM rate becomes the new one. *)
  Definition pwm_rate_drops (o n : list Z) : Prop :=
    exists r, whole_or o (lit "servo.pwm_rate_hz") 0 r /\
      when (r =? 40000) o n [("servo.pwm_rate_hz", "30000")]%string.

  Definition to_0105 (pi : float) (o n : list Z) : Prop :=
    port_moves o n /\ encoder_moves o n /\ offset_moves o n /\ filters_move pi o n /\ pwm_rate_drops o n.

  (** Only an I2C device that has a period in microseconds gets a new one. *)
  Definition to_0106 (o n : list Z) : Prop :=
    forall us ms, In (us, ms) i2c_pairs ->
      missing o (lit us) /\ same o n [us; ms] \/
      has_setting o (lit us) /\ gone n [ms] /\
      exists z, whole o (lit ms) z /\ whole n (lit us) (z * 1000).

  Definition to_0108 (o n : list Z) : Prop := exists x,
    num_or o (lit "servo.bemf_feedforward") (float_of_Z 1) x /\
    when (feqb x (float_of_Z 1)) o n [("servo.bemf_feedforward", "0.0")]%string.

  (** *** 0x0109 *)

  Definition offset_name (i : Z) : list Z := lit "motor.offset." ++ show_int i.
  Definition table_name (source i : Z) : list Z :=
    lit "motor_position.sources." ++ show_int source ++ lit ".compensation_table." ++ show_int i.
  Definition scale_name (source : Z) : list Z :=
    lit "motor_position.sources." ++ show_int source ++ lit ".compensation_scale".

  (** The numbers of the settings [name] 0, 1, ... are [l]. *)
  Definition nums (t : list Z) (name : Z -> list Z) (l : list float) : Prop :=
    forall i, 0 <= i < Z.of_nat (List.length l) -> exists x, nth_error l (Z.to_nat i) = Some x /\ num t (name i) x.

  (** [u] is [l] without jumps: each angle is reached from the one before
      by the difference wrapped to -pi..pi. *)
  Definition unwrapped (l u : list float) : Prop :=
    List.length u = List.length l /\ nth_error u 0 = nth_error l 0 /\
    forall i a b, nth_error u i = Some a -> nth_error l (S i) = Some b ->
      exists w, wrap (fsub b a) = Ok w /\ nth_error u (S i) = Some (fadd a w).

  (** The commutation offsets, up to the first one missing, without jumps
      and moved by whole turns (the mean minus the mean wrapped) so that
      their mean is in -pi..pi; written only when one of them moves by
      more than 0.01. *)
  Definition offsets_centred (o n : list Z) : Prop :=
    exists l u w, nums o offset_name l /\ missing o (offset_name (Z.of_nat (List.length l))) /\ l <> [] /\
      unwrapped l u /\
      let mean := fdiv (py_sum u) (float_of_Z (Z.of_nat (List.length u))) in
      wrap mean = Ok w /\
      let new := map (fun x => fsub x (fsub mean w)) u in
      ((exists i x y, nth_error new i = Some x /\ nth_error l i = Some y /\
          fltb (flit 1 2) (SFabs (fsub x y)) = true) /\
       (forall i x, nth_error new i = Some x -> setting n (offset_name (Z.of_nat i)) (show_float x)) \/
       (forall i x y, nth_error new i = Some x -> nth_error l i = Some y ->
          fltb (flit 1 2) (SFabs (fsub x y)) = false) /\
       (forall i v, setting n (offset_name i) v <-> setting o (offset_name i) v)).

  Definition thermistor_named (o n : list Z) : Prop :=
    exists e, whole_or o (lit "servo.enable_motor_temperature") 0 e /\
      when (negb (e =? 0)) o n [("servo.motor_thermistor_ohm", "47000")]%string.

  (** Value [i] / 256 of the way through a table of 32 values, between
      value [i / 8] and the next one, the last being followed by the first. *)
  Definition between (l : list float) (i : Z) (x : float) : Prop :=
    exists a b, nth_error l (Z.to_nat (i / 8)) = Some a /\ nth_error l (Z.to_nat ((i / 8 + 1) mod 32)) = Some b /\
      let f := fdiv (float_of_Z (i mod 8)) (float_of_Z 8) in
      x = fadd (fmul a (fsub (float_of_Z 1) f)) (fmul b f).

  (** The 32 numbers of the table of a source become 256 integers, which
      count 127ths of the greatest absolute value among the numbers. *)
  Definition table_grows (o n : list Z) (source : Z) : Prop :=
    exists l scale, List.length l = 32%nat /\ nums o (table_name source) l /\
      In scale (map SFabs l) /\ (forall x, In x l -> fltb scale (SFabs x) = false) /\
      setting n (scale_name source) (show_float scale) /\
      forall i, 0 <= i < 256 -> exists z, setting n (table_name source i) (show_int z) /\
        if feqb scale (float_of_Z 0) then z = 0
        else exists x, between l i x /\ py_int (fdiv (fmul (float_of_Z 127) x) scale) = Ok z.

  Definition to_0109 (o n : list Z) : Prop :=
    offsets_centred o n /\ thermistor_named o n /\
    (has_setting o (table_name 0 0) /\ (forall s, 0 <= s < 3 -> table_grows o n s) \/
     missing o (table_name 0 0) /\
     forall s, 0 <= s < 3 -> (forall v, setting n (scale_name s) v <-> setting o (scale_name s) v) /\
       forall i v, setting n (table_name s i) v <-> setting o (table_name s i) v).

  (** *** 0x010a *)

  (** The power limit boards of a family had. *)
  Definition family_default (family : option Z) (p : Z) : Prop :=
    p = 450 /\ (family = None \/ family = Some 0 \/ family = Some 1) \/ p = 100 /\ family = Some 2.

  (** 1.09 * 0.5 * 60 *)
  Definition kv_factor : float := fmul (fmul (flit 109 2) (flit 5 1)) (float_of_Z 60).

  (** [n]'s [k'] is the factor over [o]'s [k], zero staying zero. *)
  Definition reciprocal (o : list Z) (k : string) (n : list Z) (k' : string) : Prop :=
    exists x, num o (lit k) x /\
      setting n (lit k') (if feqb x (float_of_Z 0) then lit "0" else show_float (fdiv kv_factor x)).

  Definition to_010a (family : option Z) (o n : list Z) : Prop :=
    gone n ["motor.v_per_hz"]%string /\ reciprocal o "motor.v_per_hz" n "motor.Kv" /\
    (gone o ["servo.max_power_W"]%string /\ gone n ["servo.max_power_W"]%string \/
     exists p d, num o (lit "servo.max_power_W") p /\ family_default family d /\
       if feqb p (float_of_Z d) then are n [("servo.max_power_W", "nan")]%string
       else exists r, num_or o (lit "servo.pwm_rate_hz") (float_of_Z 40000) r /\
         setting n (lit "servo.max_power_W") (show_float (fmul p (fdiv r (float_of_Z 40000))))).

  (** ** Downgrades *)

  Definition from_010a (family : option Z) (o n : list Z) : Prop :=
    gone n ["motor.Kv"]%string /\ reciprocal o "motor.Kv" n "motor.v_per_hz" /\
    (gone o ["servo.max_power_W"]%string /\ gone n ["servo.max_power_W"]%string \/
     exists p, num o (lit "servo.max_power_W") p /\
       if isfinite p then exists r, num o (lit "servo.pwm_rate_hz") r /\ feqb r (float_of_Z 0) = false /\
         setting n (lit "servo.max_power_W") (show_float (fmul p (fdiv (float_of_Z 40000) r)))
       else family_default family 450 /\ are n [("servo.max_power_W", "450.0")]%string \/
            family_default family 100 /\ are n [("servo.max_power_W", "100.0")]%string).

  (** A thermistor the older firmware would not read right is disabled. *)
  Definition thermistor_unnamed (o n : list Z) : Prop :=
    gone n ["servo.motor_thermistor_ohm"; "aux1.pwm_period_us"; "aux2.pwm_period_us"]%string /\
    exists e, whole_or o (lit "servo.enable_motor_temperature") 0 e /\
      if e =? 0 then same o n ["servo.enable_motor_temperature"]%string
      else exists x z, num_or o (lit "servo.motor_thermistor_ohm") (float_of_Z 0) x /\ py_int x = Ok z /\
        when (negb (z =? 47000)) o n [("servo.enable_motor_temperature", "0")]%string.

  (** Every eighth of 256 integers, times a 127th of the scale. *)
  Definition table_shrinks (o n : list Z) (source : Z) : Prop :=
    missing n (scale_name source) /\
    exists l scale, List.length l = 256%nat /\ nums o (table_name source) l /\
      num_or o (scale_name source) (float_of_Z 0) scale /\
      (forall i, 32 <= i < 256 -> missing n (table_name source i)) /\
      forall i, 0 <= i < 32 -> exists x, nth_error l (Z.to_nat (8 * i)) = Some x /\
        setting n (table_name source i) (show_float (fmul x (fdiv scale (float_of_Z 127)))).

  Definition from_0109 (o n : list Z) : Prop :=
    thermistor_unnamed o n /\
    (has_setting o (table_name 0 0) /\ (forall s, 0 <= s < 3 -> table_shrinks o n s) \/
     missing o (table_name 0 0) /\
     forall s, 0 <= s < 3 -> (forall v, setting n (scale_name s) v <-> setting o (scale_name s) v) /\
       forall i v, setting n (table_name s i) v <-> setting o (table_name s i) v).

  Definition from_0108 (o n : list Z) : Prop := exists x,
    num_or o (lit "servo.bemf_feedforward") (float_of_Z 0) x /\
    when (feqb x (float_of_Z 0)) o n [("servo.bemf_feedforward", "1.0")]%string.

  Definition from_0107 (o n : list Z) : Prop := exists s,
    whole o (lit "motor_position.output.sign") s /\
    when (negb (s =? 1)) o n [("motor_position.output.sign", "1")]%string.

  Definition from_0106 (o n : list Z) : Prop :=
    forall us ms, In (us, ms) i2c_pairs -> gone n [us] /\
      exists z, whole o (lit us) z /\ whole n (lit ms) (Z.max 1 (z / 1000)).

  (** Only the onboard encoder, used for everything and without an offset,
      has a counterpart. *)
  Definition plain_encoder (o : list Z) : Prop :=
    whole o (lit "aux1.spi.mode") 0 /\
    whole o (lit "motor_position.sources.0.type") 1 /\
    whole o (lit "motor_position.commutation_source") 0 /\
    whole o (lit "motor_position.output.source") 0 /\
    whole o (lit "motor_position.output.reference_source") (-1) /\
    (exists x, num o (lit "motor_position.sources.0.offset") x /\ feqb x (float_of_Z 0) = true) /\
    whole o (lit "motor_position.output.sign") 1.

  Definition from_0105 (o n : list Z) : Prop :=
    (forall k, Exists (in_group k)
       (map Prefix ["motor_position."; "aux1."; "aux2."; "icpz1."; "icpz2.";
                    "motor.cogging_dq"; "servo.current_feedforward"]%string) -> missing n k) /\
    (~ plain_encoder o /\
     same o n ["motor.invert"; "motor.position_offset"; "motor.unwrapped_position_scale"]%string \/
     plain_encoder o /\
     copied o "motor_position.rotor_to_output_ratio" n "motor.unwrapped_position_scale" /\
     (exists s, whole o (lit "motor_position.sources.0.sign") s /\
        are n [("motor.invert", if (s =? -1)%Z then "1" else "0")]%string) /\
     exists a r z, num o (lit "motor_position.output.offset") a /\
       num o (lit "motor_position.rotor_to_output_ratio") r /\ feqb r (float_of_Z 0) = false /\
       py_int (fmul (fdiv a r) (float_of_Z 65536)) = Ok z /\ whole n (lit "motor.position_offset") z).

  Definition from_0104 (o n : list Z) : Prop := exists x,
    num_or o (lit "servo.pwm_comp_mag") (float_of_Z 0) x /\
    if feqb x (flit 5 3) then exists y, num_or o (lit "servo.pwm_comp_off") (float_of_Z 0) y /\
      when (feqb y (flit 55 3)) o n
        [("servo.pwm_scale", "1.15"); ("servo.pwm_comp_off", "0.048"); ("servo.pwm_comp_mag", "0.011")]%string
    else same o n ["servo.pwm_scale"; "servo.pwm_comp_off"; "servo.pwm_comp_mag"]%string.

  (** A calibration with inverted phases has no counterpart: the motor
      counts as not calibrated. *)
  Definition from_0103 (o n : list Z) : Prop :=
    (exists x, num_or o (lit "servo.pwm_scale") (float_of_Z 0) x /\
     if feqb x (flit 115 2) then exists y, num_or o (lit "servo.pwm_comp_off") (float_of_Z 0) y /\
       when (feqb y (flit 48 3)) o n [("servo.pwm_comp_off", "0.048"); ("servo.pwm_comp_mag", "0.003")]%string
     else same o n ["servo.pwm_comp_off"; "servo.pwm_comp_mag"]%string) /\
    exists p, whole o (lit "motor.phase_invert") p /\ when (negb (p =? 0)) o n [("motor.poles", "0")]%string.

  Definition from_0101 (o n : list Z) : Prop := exists x,
    num o (lit "servo.feedforward_scale") x /\
    when (feqb x (flit 5 1)) o n [("servo.feedforward_scale", "1.0")]%string.

  (** ** The tables *)

  (** From the version before [t] to [t]. *)
  Definition upgraded (pi : float) (t : Z) (family : option Z) (o n : list Z) : Prop :=
    if t =? 0x0101 then to_0101 o n
    else if t =? 0x0103 then to_0103 o n
    else if t =? 0x0104 then to_0104 o n
    else if t =? 0x0105 then to_0105 pi o n
    else if t =? 0x0106 then to_0106 o n
    else if t =? 0x0108 then to_0108 o n
    else if t =? 0x0109 then to_0109 o n
    else if t =? 0x010a then to_010a family o n
    else forall k v, setting n k v <-> setting o k v.

  (** From [t] to the version before. *)
  Definition downgraded (t : Z) (family : option Z) (o n : list Z) : Prop :=
    if t =? 0x0101 then from_0101 o n
    else if t =? 0x0103 then from_0103 o n
    else if t =? 0x0104 then from_0104 o n
    else if t =? 0x0105 then from_0105 o n
    else if t =? 0x0106 then from_0106 o n
    else if t =? 0x0107 then from_0107 o n
    else if t =? 0x0108 then from_0108 o n
    else if t =? 0x0109 then from_0109 o n
    else if t =? 0x010a then from_010a family o n
    else forall k v, setting n k v <-> setting o k v.
End Migrate.
