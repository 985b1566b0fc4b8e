(** Specification for C59: what setting the position of the output does. *)
From Coq Require Import Ascii String ZArith List Bool Floats.SpecFloat.
From Verif Require Import PyBase PyBytes PyFloat Config_Model Proc Device_Model Device_Spec.
Import ListNotations.
Open Scope Z_scope.

Section Offset.
  Variable show : float -> list Z.   (* Python's f"{x}" *)

  Definition new_text (value : float) : list Z := lit "d cfg-set-output " ++ show value.
  Definition old_text (raw : Z) : list Z := lit "conf set motor.position_offset " ++ int_str (- raw).

  (** [placed value t]: in [t] the device has been told the position: in the new way, or, when it
      does not know that, the value is zero and the device is not in fault mode,
      with the raw position it reports, negated. *)
  Inductive placed (value : float) : list ev -> Prop :=
  | placed_new reply : placed value [answered (Command (new_text value) false) (inr reply)]
  | placed_old message stats raw reply :
      feqb value (float_of_Z 0) = true -> ss_mode stats <> 1 -> ss_position_raw stats = Some raw ->
      placed value [answered (Command (new_text value) false) (inl (CmdErr message));
                    answered ReadServoStats (inr stats);
                    answered (Command (old_text raw) false) (inr reply)].

  (** Then the configuration is stored, and the device takes the position over. *)
  Definition set_and_stored (value : float) (t : list ev) : Prop :=
    exists t1 r2 r3, placed value t1 /\
      t = t1 ++ [answered (Command (lit "conf write") false) (inr r2);
                 answered (Command (lit "d rezero " ++ show value) false) (inr r3)].
End Offset.
