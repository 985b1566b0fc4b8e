(** What each command must do, as a table: the register, the unit, the
    value given by the caller and the resolution it is sent with
    (docs/reference.md register list; the docstrings of make_* in
    moteus.py).  A value that is None, or whose resolution is IGNORE, is
    not sent. *)
From Coq Require Import ZArith List Bool.
From Coq Require Import Floats.SpecFloat.
From Verif Require Import PyBase PyFloat Mux_Model Protocol_Spec Fw_Spec Ctrl_Model.
Import ListNotations.
Open Scope Z_scope.

Record field := {
  f_reg : Z; f_unit : unit_; f_val : option float; f_res : resolution }.

Definition writes (fs : list field) : list access :=
  flat_map (fun f =>
    match f_val f, f_res f with
    | None, _ | _, IGNORE => []
    | Some x, r => [AWrite (f_reg f) r (spec_quantise x r (unit_float (f_unit f) r))]
    end) fs.

(** Some value is sent as a 32 bit float and is finite, but too large for
    one. *)
Definition too_large (x : float) : bool := isinf (to_f32 x) && negb (isinf x).
Definition overflows (fs : list field) : Prop :=
  exists f x, In f fs /\ f_val f = Some x /\ f_res f = F32 /\ too_large x = true.

Definition mkf reg u v r := {| f_reg := reg; f_unit := u; f_val := v; f_res := r |}.

Definition position_fields (a : position_args) (p : position_resolution) : list field := [
  mkf 0x20 UPosition (a_position a) (pr_position p);
  mkf 0x21 UVelocity (a_velocity a) (pr_velocity p);
  mkf 0x22 UTorque (a_feedforward_torque a) (pr_feedforward_torque p);
  mkf 0x23 UPwm (a_kp_scale a) (pr_kp_scale p);
  mkf 0x24 UPwm (a_kd_scale a) (pr_kd_scale p);
  mkf 0x25 UTorque (a_maximum_torque a) (pr_maximum_torque p);
  mkf 0x26 UPosition (a_stop_position a) (pr_stop_position p);
  mkf 0x27 UTime (a_watchdog_timeout a) (pr_watchdog_timeout p);
  mkf 0x28 UVelocity (a_velocity_limit a) (pr_velocity_limit p);
  mkf 0x29 UAcceleration (a_accel_limit a) (pr_accel_limit p);
  mkf 0x2a UVoltage (a_fixed_voltage_override a) (pr_fixed_voltage_override p);
  (* as the code does it; the controller expects UPwm here: see C16 *)
  mkf 0x2b UVoltage (a_ilimit_scale a) (pr_ilimit_scale p) ].

Definition within_fields (a : within_args) (p : position_resolution) : list field := [
  mkf 0x40 UPosition (wa_lower_bound a) (pr_position p);
  mkf 0x41 UPosition (wa_upper_bound a) (pr_position p);
  mkf 0x42 UTorque (wa_feedforward_torque a) (pr_feedforward_torque p);
  mkf 0x43 UPwm (wa_kp_scale a) (pr_kp_scale p);
  mkf 0x44 UPwm (wa_kd_scale a) (pr_kd_scale p);
  mkf 0x45 UTorque (wa_maximum_torque a) (pr_maximum_torque p);
  mkf 0x46 UTime (wa_watchdog_timeout a) (pr_watchdog_timeout p);
  mkf 0x47 UPwm (wa_ilimit_scale a) (pr_ilimit_scale p) ].

(** Angles are sent divided by pi; a rate of zero is not sent. *)
Definition by_pi (x : option float) : option float :=
  match x with Some t => Some (fdiv t py_pi) | None => None end.
Definition nonzero (x : option float) : option float :=
  match x with
  | Some (S754_zero _) => None
  | _ => x
  end.
Definition vfoc_fields (theta voltage theta_rate : option float) (v : vfoc_resolution)
  : list field := [
  mkf 0x18 UPwm (by_pi theta) (vr_theta v);
  mkf 0x19 UVoltage voltage (vr_voltage v);
  mkf 0x1e UVelocity (by_pi (nonzero theta_rate)) (vr_theta_rate v) ].

Definition current_fields (d_A q_A : option float) (c : current_resolution) : list field := [
  mkf 0x1c UCurrent q_A (cr_q_A c);
  mkf 0x1d UCurrent d_A (cr_d_A c) ].

Fixpoint pwm_fields (reg : Z) (a : list (option float)) (rs : list resolution) : list field :=
  match a, rs with
  | v :: a, r :: rs => mkf reg UPwm v r :: pwm_fields (reg + 1) a rs
  | _, _ => []
  end.

(** Every float of a Python program is a binary64 number. *)
Definition opt_ok (x : option float) : Prop :=
  match x with Some v => float_ok v | None => True end.
Definition fields_ok (fs : list field) : Prop := Forall (fun f => opt_ok (f_val f)) fs.
