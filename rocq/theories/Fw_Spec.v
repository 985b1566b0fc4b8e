(** What the registers mean: the unit mappings of docs/reference.md:511-575
    and the use the controller makes of them (fw/moteus_controller.cc).
    Written from those two sources, independently of the Python code. *)
From Coq Require Import ZArith List Bool.
From Coq Require Import Floats.SpecFloat.
From Verif Require Import PyBase PyFloat Mux_Model.
Import ListNotations.
Open Scope Z_scope.

Inductive unit_ :=
| UPosition | UVelocity | UAcceleration | UTorque | UPwm | UVoltage | UTemperature
| UTime | UCurrent | UPower.

(** docs/reference.md:517-575 (= fw/moteus_controller.cc:86-128): one count
    is worth num/den. *)
Definition unit_ratio (u : unit_) (r : resolution) : Z * Z :=
  match u, r with
  | UCurrent, INT8 => (1, 1) | UCurrent, INT16 => (1, 10) | UCurrent, INT32 => (1, 1000)
  | UTorque, INT8 => (1, 2) | UTorque, INT16 => (1, 100) | UTorque, INT32 => (1, 1000)
  | UVoltage, INT8 => (1, 2) | UVoltage, INT16 => (1, 10) | UVoltage, INT32 => (1, 1000)
  | UTemperature, INT8 => (1, 1) | UTemperature, INT16 => (1, 10) | UTemperature, INT32 => (1, 1000)
  | UTime, INT8 => (1, 100) | UTime, INT16 => (1, 1000) | UTime, INT32 => (1, 1000000)
  | UPosition, INT8 => (1, 100) | UPosition, INT16 => (1, 10000) | UPosition, INT32 => (1, 100000)
  | UVelocity, INT8 => (1, 10) | UVelocity, INT16 => (1, 4000) | UVelocity, INT32 => (1, 100000)
  | UAcceleration, INT8 => (1, 20) | UAcceleration, INT16 => (1, 1000)
  | UAcceleration, INT32 => (1, 100000)
  | UPwm, INT8 => (1, 127) | UPwm, INT16 => (1, 32767) | UPwm, INT32 => (1, 2147483647)
  | UPower, INT8 => (10, 1) | UPower, INT16 => (1, 20) | UPower, INT32 => (1, 10000)
  | _, _ => (1, 1)   (* float: no scaling *)
  end.

(** The double nearest to it. *)
Definition unit_float (u : unit_) (r : resolution) : float :=
  fdiv (float_of_Z (fst (unit_ratio u r))) (float_of_Z (snd (unit_ratio u r))).

(** What a register holds: an integer, a quantity in a unit, a quantity in
    a unit after division by pi. *)
Inductive meaning := MInt | MUnit (u : unit_) | MUnitPi (u : unit_).

Fixpoint lookup {A} (t : list (Z * A)) (k : Z) : option A :=
  match t with
  | [] => None
  | (k', a) :: t => if k' =? k then Some a else lookup t k
  end.

Definition span {A} (first : Z) (n : nat) (a : A) : list (Z * A) :=
  map (fun i => (first + Z.of_nat i, a)) (seq 0 n).

(** The telemetry registers, docs/reference.md:581-1206;
    fw/moteus_controller.cc:853-1125 (Read). *)
Definition fw_reply_table : list (Z * meaning) :=
  [(0x000, MInt); (0x001, MUnit UPosition); (0x002, MUnit UVelocity); (0x003, MUnit UTorque);
   (0x004, MUnit UCurrent); (0x005, MUnit UCurrent); (0x006, MUnit UPosition);
   (0x007, MUnit UPower); (0x00a, MUnit UTemperature); (0x00b, MInt); (0x00c, MInt);
   (0x00d, MUnit UVoltage); (0x00e, MUnit UTemperature); (0x00f, MInt);
   (0x030, MUnit UTorque); (0x031, MUnit UTorque); (0x032, MUnit UTorque);
   (0x033, MUnit UTorque); (0x034, MUnit UTorque);
   (0x038, MUnit UPosition); (0x039, MUnit UVelocity); (0x03a, MUnit UTorque);
   (0x03b, MUnit UPosition); (0x03c, MUnit UVelocity); (0x03d, MUnit UTorque);
   (0x050, MUnit UPosition); (0x051, MUnit UVelocity); (0x052, MUnit UPosition);
   (0x053, MUnit UVelocity); (0x054, MUnit UPosition); (0x055, MUnit UVelocity);
   (0x058, MInt); (0x05c, MInt); (0x05d, MInt); (0x05e, MInt); (0x05f, MInt)]
  ++ span 0x060 5 (MUnit UPwm) ++ span 0x068 5 (MUnit UPwm)
  ++ [(0x070, MInt); (0x071, MInt)] ++ span 0x076 10 (MUnit UPwm).

(** The command registers, fw/moteus_controller.cc:556-800 (Write) and the
    same units in Read, 893-967. *)
Definition fw_command_table : list (Z * meaning) :=
  [(0x000, MInt);
   (0x010, MUnit UPwm); (0x011, MUnit UPwm); (0x012, MUnit UPwm);
   (0x014, MUnit UVoltage); (0x015, MUnit UVoltage); (0x016, MUnit UVoltage);
   (0x018, MUnitPi UPwm); (0x019, MUnit UVoltage); (0x01a, MUnit UVoltage);
   (0x01b, MUnit UVoltage); (0x01c, MUnit UCurrent); (0x01d, MUnit UCurrent);
   (0x01e, MUnitPi UVelocity);
   (0x020, MUnit UPosition); (0x021, MUnit UVelocity); (0x022, MUnit UTorque);
   (0x023, MUnit UPwm); (0x024, MUnit UPwm); (0x025, MUnit UTorque);
   (0x026, MUnit UPosition); (0x027, MUnit UTime); (0x028, MUnit UVelocity);
   (0x029, MUnit UAcceleration); (0x02a, MUnit UVoltage); (0x02b, MUnit UPwm);
   (0x02c, MUnit UCurrent); (0x02d, MInt);
   (0x040, MUnit UPosition); (0x041, MUnit UPosition); (0x042, MUnit UTorque);
   (0x043, MUnit UPwm); (0x044, MUnit UPwm); (0x045, MUnit UTorque);
   (0x046, MUnit UTime); (0x047, MUnit UPwm); (0x048, MInt);
   (0x05c, MInt); (0x05d, MInt); (0x071, MInt)]
  ++ span 0x076 10 (MUnit UPwm)
  ++ [(0x130, MUnit UPosition); (0x131, MUnit UPosition); (0x132, MInt); (0x133, MInt)].

(** The most negative integer of each width, which stands for "not a number". *)
Definition most_negative (r : resolution) : Z :=
  match r with INT8 => -128 | INT16 => -32768 | _ => -2147483648 end.

(** What a client should make of the raw value [v] of register [reg],
    reported at resolution [r]: the most negative integer is "not a
    number" for quantities; otherwise counts times the unit.  Registers
    that are not telemetry are left alone. *)
Definition spec_reading (reg : Z) (r : resolution) (v : pyval) : res pyval :=
  match lookup fw_reply_table reg with
  | None => Ok v
  | Some MInt =>
      match v with
      | PInt z => Ok (PInt z)
      | PFloat x =>
          if isnan x then Raise ValueError
          else if isinf x then Raise OverflowError
          else Ok (PInt (ftrunc x))
      end
  | Some (MUnit u) | Some (MUnitPi u) =>
      match v with
      | PFloat x => Ok (PFloat x)
      | PInt z =>
          if z =? most_negative r then Ok (PFloat fnan)
          else Ok (PFloat (fmul (float_of_Z z) (unit_float u r)))
      end
  end.
