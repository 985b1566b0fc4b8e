(** Specification for C58: which voltages and currents a calibration may
    put on the motor, in terms of what has been seen before.  [fixed3] is
    Python's f"{x:.3f}", [show] its f"{x}", [hypot] math.hypot and [py_sum]
    sum(); comparisons and arithmetic are those of binary64 numbers. *)
From Coq Require Import Ascii String ZArith List Bool Floats.SpecFloat.
From Verif Require Import PyBase PyBytes PyFloat Calib_Model Encoder_Model Config_Model Proc Device_Model Calproc_Model Device_Spec.
Import ListNotations.
Open Scope Z_scope.

Section Volt.
  Variable show fixed3 : float -> list Z.
  Variable hypot : float -> float -> float.
  Variable py_sum : list float -> float.

  (** [v] is [x] or less; [v] is not more than [x]. *)
  Definition at_most (x v : float) : Prop := v = x \/ fltb v x = true.
  Definition not_above (x v : float) : Prop := fltb x v = false.

  (** From 0 to less than 20 V. *)
  Definition safe (v : float) : Prop := fleb (float_of_Z 0) v = true /\ fltb v (float_of_Z 20) = true.

  (** The answers with measurements in [t]. *)
  Definition readings (t : list ev) : list servo_stats :=
    flat_map (fun e : ev => match e with existT _ ReadServoStats (Some (inr s)) => [s] | _ => [] end) t.

  (** The mean of the currents measured in [t]. *)
  Definition mean_current (t : list ev) : float :=
    let l := map (fun s => hypot (ss_d_A s) (ss_q_A s)) (readings t) in
    fdiv (py_sum l) (float_of_Z (Z.of_nat (List.length l))).

  (** [V] is the supply voltage as first measured: 12 V for less than 14 V,
      and the nearest multiple of four otherwise. *)
  Definition supply (t : list ev) (V : float) : Prop :=
    exists s l, readings t = s :: l /\
      if fltb (ss_bus_V s) (float_of_Z 14) then V = float_of_Z 12
      else exists n, float_round (fdiv (ss_bus_V s) (float_of_Z 4)) = Ok n /\ V = float_of_Z (n * 4).

  Definition sweep_text (v : float) : list Z := lit "d pwm 0 " ++ fixed3 v.

  (** The voltage for the next measurement of the resistance: 10 mV, or 10 % more than the
      voltage [u] of the last one, when in the 20 readings since that was put on the power was not more
      than [P] and [u] is not more than 40 % of the supply. *)
  Definition raised (V P : float) (t : list ev) (v : float) : Prop :=
    v = flit 1 2 \/
    exists ta tb u e, t = ta ++ e :: tb /\ accepted (sweep_text u) e /\ safe u /\
      Forall (fun e => forall text, sent e = Some text -> ~ energises text) tb /\
      List.length (readings tb) = 20%nat /\
      v = fmul u (flit 11 1) /\
      not_above P (fmul (fmul (mean_current tb) u) (flit 15 1)) /\
      not_above (fmul (flit 4 1) V) u.

  (** A voltage the resistance has been measured with. *)
  Definition tried_volts (t : list ev) (h : float) : Prop := safe h /\ exists e, In e t /\ accepted (sweep_text h) e.

  (** Measuring the inductance, [h] being such a voltage: with [h] itself before version 0x010a, and
      later with at most 15 % of the supply, around at most 20 % of it. *)
  Definition inductance_text (V h : float) (text : list Z) : Prop :=
    (exists period, text = lit "d ind " ++ show h ++ [32] ++ int_str period) \/
    exists v o, at_most (fmul (flit 15 2) V) v /\ at_most (fmul (flit 2 1) V) o /\
      (v = fmul (flit 15 2) V \/ v = fmul (flit 80 2) h) /\ (o = fmul (flit 2 1) V \/ o = h) /\
      ((exists period, text = lit "d ind " ++ show v ++ [32] ++ int_str period ++ lit " o" ++ show o) \/
       text = lit "d pos nan 0 nan o" ++ show o ++ lit " b1").

  (** Turning the motor for the encoder: with a voltage [v] of at most 40 % of the supply, or
      with the current it causes in the resistance that has been set. *)
  Definition encoder_text (V speed : float) (t : list ev) (text : list Z) : Prop :=
    exists v, at_most (fmul (flit 4 1) V) v /\
      (text = lit "d pwm 0 " ++ show v \/
       text = lit "d pwm 0 " ++ show v ++ [32] ++ show (fmul (fmul speed (float_of_Z 2)) fpi) \/
       (exists i, 0 <= i < 24 /\
          text = lit "d pwm " ++ show (fmul (fmul (fdiv (float_of_Z i) (float_of_Z 24)) (float_of_Z 2)) fpi) ++ [32] ++ show v) \/
       text = lit "d cal " ++ show v ++ lit " s" ++ show speed \/
       exists r e, In e t /\ accepted (set_text (lit "motor.resistance_ohm") (show r)) e /\
         (text = lit "d pos nan 0 nan c" ++ show (fdiv v r) ++ lit " b1" \/
          text = lit "d cali i" ++ show (fdiv v r) ++ lit " s" ++ show speed)).

  (** Turning the motor for Kv, with fractions of a voltage [k] that was asked for, or that is found going
      up by 10 % from 10 mV until it is more than 20 % of the supply. *)
  Definition kv_level (V k : float) : Prop :=
    k = flit 1 2 \/ exists u, k = fmul u (flit 11 1) /\ not_above (fmul (flit 2 1) V) u.
  Definition kv_text (V : float) (asked : list float) (text : list Z) : Prop :=
    exists v, safe v /\ text = lit "d vdq 0 " ++ fixed3 v /\
      ((kv_level V v /\ not_above (fmul (flit 2 1) V) v) \/
       exists x k, In x [float_of_Z 0; flit 25 2; flit 5 1; flit 75 2; float_of_Z 1] /\ v = fmul x k /\
         (In k asked \/ kv_level V k)).

  (** The voltages that were asked for. *)
  Definition asked_volts (a : cal_args) : list float :=
    match a_kv_voltage a with Some v => [v] | None => [] end ++ match a_ll_kv_voltage a with Some v => [v] | None => [] end.

  Definition allowed (a : cal_args) (t : list ev) (text : list Z) : Prop :=
    exists V, supply t V /\
      ((exists v, safe v /\ text = sweep_text v /\ raised V (a_motor_power a) t v) \/
       (exists h, tried_volts t h /\ inductance_text V h text) \/
       encoder_text V (a_ll_encoder_speed a) t text \/
       kv_text V (asked_volts a) text).

  (** Too much power for a motor that hardly turns, while [v] volts are on: in the last five readings of [t] the
      mean speed is less than 0.2 Hz and the mean power more than the allowed
      multiple of the power asked for. *)
  Definition last_five {A} (l : list A) : list A := skipn (List.length l - 5) l.
  Definition mean (l : list float) : float := fdiv (py_sum l) (float_of_Z (Z.of_nat (List.length l))).
  Definition overloaded (a : cal_args) (v : float) (t : list ev) : Prop :=
    let r := last_five (readings t) in
    List.length r = 5%nat /\
    fltb (SFabs (mean (map ss_velocity r))) (flit 2 1) = true /\
    fltb (fmul (a_max_kv_power_factor a) (a_motor_power a))
         (mean (map (fun s => fmul (fmul v (hypot (ss_d_A s) (ss_q_A s))) (flit 15 1)) r)) = true.
End Volt.
