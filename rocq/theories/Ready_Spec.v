(** Specification for C60: what must be so before a calibration changes anything. *)
From Coq Require Import Ascii String ZArith List Bool Floats.SpecFloat.
From Verif Require Import PyBase PyBytes PyFloat Tool_Model Config_Model Proc Device_Model Calproc_Model Device_Spec Calproc_Spec.
Import ListNotations.
Open Scope Z_scope.

(** The answer to "conf get" of a parameter, and that the parameter does not exist. *)
Definition got (name reply : list Z) : ev := answered (Command (lit "conf get " ++ name) true) (inr reply).
Definition absent (reply : list Z) : Prop :=
  begins (lit "ERR") reply /\ (says (lit "error reading") reply \/ says (lit "unknown group") reply).

(** No option is given under its old and its new name; --cal-speed has a new
    name that always has a value, and the new name of --cal-voltage does not exist. *)
Definition options_ok (a : cal_args) : Prop :=
  (a_power a = None \/ a_ll_encoder_voltage a = None) /\
  (a_kv_voltage a = None \/ a_ll_kv_voltage a = None) /\
  a_speed a = None /\ a_voltage a = None.

(** The device commutates from source 0, or is too old to say. *)
Definition source_zero (t : list ev) : Prop :=
  let name := lit "motor_position.commutation_source" in
  exists t1 r1 t2, t = t1 ++ got name r1 :: t2 /\
    (absent r1 \/ exists r2 t3, t2 = got name r2 :: t3 /\ int10 r2 = Ok 0).

(** The firmware is known, the options can be used, with --cal-no-update the configuration has been
    read, and the user has had two seconds to read the warning. *)
Definition ready (a : cal_args) (t : list ev) : Prop :=
  exists fw t', t = answered ReadFirmware (inr fw) :: t' /\ fw_version fw <= 0x010a /\ options_ok a /\
    (a_no_update a = true -> exists config, In (answered (Command (lit "conf enumerate") false) (inr config)) t') /\
    source_zero t' /\ In (answered (Sleep (float_of_Z 2)) (inr tt)) t'.
