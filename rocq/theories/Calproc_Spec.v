(** What is said about calibration, in terms of the requests and answers. *)
From Coq Require Import Ascii String ZArith List Bool.
From Verif Require Import PyBase PyBytes PyFloat Config_Model Proc Device_Model Device_Spec.
Import ListNotations.
Open Scope Z_scope.

Definition says (needle message : list Z) : Prop := exists a b, message = a ++ needle ++ b.

(** ** What calibration may send *)

(** Looking at the device. *)
Definition reading (text : list Z) : Prop :=
  begins (lit "conf get ") text \/ begins (lit "conf enumerate") text.

(** Moving the motor, or stopping it. *)
Definition moving (text : list Z) : Prop :=
  energises text \/ begins (lit "d stop") text \/ begins (lit "d index 0") text \/ begins (lit "d rezero") text.

(** The parameters it sets: whole groups where it says so. *)
Definition calibrated_parameters : list (list Z) :=
  map lit ["motor.offset."; "motor.resistance_ohm "; "motor.poles "; "motor.invert "; "motor.phase_invert ";
           "motor.Kv "; "motor.v_per_hz ";
           "servo.pid_dq.kp "; "servo.pid_dq.ki "; "servo.encoder_filter."; "servo.voltage_mode_control ";
           "servopos.position_min "; "servopos.position_max ";
           "motor_position.sources."; "motor_position.output.sign "; "aux"]%string.
Definition setting (text : list Z) : Prop :=
  exists p, In p calibrated_parameters /\ begins (lit "conf set " ++ p) text.

(** ** What it takes for a failure *)

(** Requests made while the inductance is measured. *)
Definition inductance_request (r : treq) : Prop :=
  match r with
  | CommandWithin text => begins (lit "d ind ") text
  | Command text _ => text = lit "d stop" \/ begins (lit "d pos nan 0 nan o") text
  | Now | Sleep _ | ReadServoStats => True
  | _ => False
  end.

(** The failures that only show that the firmware is old:
    - of a setting it does not have: further offsets, the inversion of
      phases and the sign of the encoder;
    - it has no uuid;
    - it cannot measure inductance;
    - it has no motor_position. *)
Definition old_firmware (r : treq) (e : err) : Prop :=
  match e with
  | CmdErr m =>
      match r with
      | Command text _ =>
          (says (lit "error setting") m /\
           (begins (lit "conf set motor.offset.") text \/ text = lit "conf set motor.phase_invert 0" \/
            text = lit "conf set motor_position.sources.0.sign 1")) \/
          (says (lit "unknown group") m /\ text = lit "conf enumerate uuid")
      | ReadMotorPosition => True
      | _ => False
      end \/
      (says (lit "unknown command") m /\ inductance_request r)
  | Exn RuntimeError => r = ReadMotorPosition
  | Exn TimeoutError => inductance_request r
  | _ => False
  end.

(** An answer came, which was no failure and no fault. *)
Definition went_well (e : ev) : Prop :=
  match e with
  | existT _ r (Some (inr v)) =>
      (match r return trep r -> Prop with
       | ReadServoStats => fun s => ss_mode s <> 1
       | _ => fun _ => True
       end) v
  | existT _ r (Some (inl e)) => old_firmware r e
  | existT _ r None => False
  end.
