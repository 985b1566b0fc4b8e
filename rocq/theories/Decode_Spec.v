(** What a decoder of frames should print, from docs/reference.md A.1 (lines
    474-503) and A.2.a, independently of the decoder's code.  The stream
    subframes 0x40-0x42 are those of mjlib's multiplex/format.h. *)
From Coq Require Import Ascii String ZArith List Bool.
From Coq Require Import Floats.SpecFloat.
From Verif Require Import PyBase PyFloat Mux_Model Protocol_Spec Fw_Spec Decode_Model.
Import ListNotations.
Open Scope Z_scope.

Definition named (reg : Z) : Prop := exists name, In (reg, name) register_names.

(** What a register holds: the controller's tables of telemetry and of
    commands. *)
Definition register_meaning (reg : Z) : option meaning :=
  match lookup fw_reply_table reg with
  | Some m => Some m
  | None => lookup fw_command_table reg
  end.

(** The registers that hold a quantity in a unit, but for which the decoder
    gives the count only: motor temperature, the integrator limit scales, the
    three terms of the position loop, the control and error quantities, the
    upper bound of stay-within, and the analog inputs. *)
Definition unit_left_out : list Z :=
  [0x00a; 0x02b; 0x02c; 0x030; 0x031; 0x032; 0x038; 0x039; 0x03a; 0x03b; 0x03c; 0x03d;
   0x041; 0x047; 0x060; 0x061; 0x062; 0x063; 0x064; 0x068; 0x069; 0x06a; 0x06b; 0x06c;
   0x130; 0x131].

(** What should follow the value [v] of register [reg] at resolution [r]: the
    name of a mode; that the most negative integer means not a number; the
    quantity, counts times the unit. *)
Definition documented_note (reg : Z) (r : resolution) (v : pyval) (n : note) : Prop :=
  if reg =? 0 then
    match v with
    | PInt z => (exists name, In (z, name) mode_names /\ n = NoteMode name)
                \/ (~ In z (map fst mode_names) /\ n = NoNote)
    | PFloat x => (exists z name, In (z, name) mode_names /\ feqb (float_of_Z z) x = true /\
                     n = NoteMode name)
                  \/ ((forall z, In z (map fst mode_names) -> feqb (float_of_Z z) x = false) /\
                      n = NoNote)
    end
  else
    match register_meaning reg, v with
    | Some (MUnit u), PInt z =>
        if existsb (Z.eqb reg) unit_left_out then n = NoNote
        else n = if z =? most_negative r then NoteNaN
                 else NoteScaled (fmul (float_of_Z z) (unit_float u r))
    | _, _ => n = NoNote
    end.

(** The header of a register subframe of kind [base] (0x00 write, 0x10 read,
    0x20 reply) with its two or three lines. *)
Inductive header (base : Z) (r : resolution) : Z -> Z -> list Z -> list line -> Prop :=
| h_short n vu start name :
    1 <= n <= 3 -> is_varuint vu start -> In (start, name) register_names ->
    header base r n start ((base + 4 * spec_code r + n) :: vu)
      [([base + 4 * spec_code r + n], SHead base r (Some n)); (vu, SStart start name)]
| h_long n vn vu start name :
    is_varuint vn n -> is_varuint vu start -> In (start, name) register_names ->
    header base r n start ((base + 4 * spec_code r) :: vn ++ vu)
      [([base + 4 * spec_code r], SHead base r None); (vn, SCount n); (vu, SStart start name)].

(** The raw values of registers reg, reg + 1, ... with a line for each. *)
Inductive value_lines (r : resolution) : Z -> list (list Z) -> list line -> Prop :=
| v_nil reg : value_lines r reg [] []
| v_cons reg raw raws name n lines :
    bytes_ok raw -> List.length raw = spec_width r -> In (reg, name) register_names ->
    documented_note reg r (spec_python r raw) n ->
    value_lines r (reg + 1) raws lines ->
    value_lines r reg (raw :: raws)
      ((raw, SValue reg name (spec_python r raw) n) :: lines).

(** A subframe and the lines that explain it. *)
Inductive explained : list Z -> list line -> Prop :=
| x_nop : explained [0x50] [([0x50], SName 0x50)]
| x_read r n start bytes lines :
    r <> IGNORE -> header 0x10 r n start bytes lines -> explained bytes lines
| x_values base r start raws bytes lines vlines :
    base = 0x00 \/ base = 0x20 -> r <> IGNORE ->
    header base r (Z.of_nat (List.length raws)) start bytes lines ->
    value_lines r start raws vlines ->
    explained (bytes ++ List.concat raws) (lines ++ vlines)
| x_error cmd vr reg name ve code :
    cmd = 0x30 \/ cmd = 0x31 ->
    is_varuint vr reg -> In (reg, name) register_names -> is_varuint ve code ->
    explained (cmd :: vr ++ ve) [([cmd], SName cmd); (vr, SRegister reg name); (ve, SError code)]
| x_stream cmd vc channel vn data :
    cmd = 0x40 \/ cmd = 0x41 ->
    is_varuint vc channel -> is_varuint vn (Z.of_nat (List.length data)) ->
    explained (cmd :: vc ++ vn ++ data)
      [([cmd], SName cmd); (vc, SChannel channel);
       (vn, SBytes (Z.of_nat (List.length data))); (data, SData)]
| x_poll vc channel vn n :
    is_varuint vc channel -> is_varuint vn n ->
    explained (0x42 :: vc ++ vn) [([0x42], SName 0x42); (vc, SChannel channel); (vn, SAtMost n)].

Inductive frame_explained : list Z -> list line -> Prop :=
| f_nil : frame_explained [] []
| f_cons bytes lines rest more :
    explained bytes lines -> frame_explained rest more ->
    frame_explained (bytes ++ rest) (lines ++ more).

(** Reading the lines back: the register accesses they tell of. *)
Definition telling : Type := akind * Z * resolution * option pyval.

Definition telling_of (a : access) : telling :=
  let python v := match v with PFloat y => PFloat (of_f32 y) | _ => v end in
  match a with
  | AWrite reg r v => (KWrite, reg, r, Some (python v))
  | ARead reg r => (KRead, reg, r, None)
  | AReply reg r v => (KReply, reg, r, Some (python v))
  end.

Fixpoint told (kind : akind) (r : resolution) (count : Z) (lines : list line) : list telling :=
  match lines with
  | [] => []
  | (_, SHead c r n) :: lines =>
      let kind := if c =? 0x00 then KWrite else if c =? 0x10 then KRead else KReply in
      told kind r (match n with Some n => n | None => count end) lines
  | (_, SCount n) :: lines => told kind r n lines
  | (_, SStart reg _) :: lines =>
      match kind with
      | KRead => map (fun i => (KRead, reg + Z.of_nat i, r, None)) (seq 0 (Z.to_nat count))
      | _ => []
      end ++ told kind r count lines
  | (_, SValue reg _ v _) :: lines => (kind, reg, r, Some v) :: told kind r count lines
  | _ :: lines => told kind r count lines
  end.

(** The registers a frame mentions: the start register of each subframe, and
    the register of each value. *)
Fixpoint mentioned_n (fuel : nat) (l : list Z) : list Z :=
  match fuel, l with
  | S fuel, c :: l =>
      if c =? 0x50 then mentioned_n fuel l
      else
        let k := if c <? 0x10 then KWrite else if c <? 0x20 then KRead else KReply in
        let r := spec_resolution ((c / 4) mod 4) in
        match (if c mod 4 =? 0 then spec_varuint l else Some (c mod 4, l)) with
        | None => []
        | Some (count, l) =>
            match spec_varuint l with
            | None => []
            | Some (reg, l) =>
                match spec_values k r (Z.to_nat count) reg l with
                | None => []
                | Some (_, l) =>
                    reg :: match k with
                           | KRead => []
                           | _ => map (fun i => reg + Z.of_nat i) (seq 0 (Z.to_nat count))
                           end ++ mentioned_n fuel l
                end
            end
        end
  | _, _ => []
  end.
Definition mentioned (l : list Z) : list Z := mentioned_n (List.length l) l.

(** ** Names of registers *)

(** fw/moteus_controller.cc:222-360 enum class Register, without the leading k: what the
    controller itself calls its registers. *)
Definition fw_registers : list (Z * string) :=
  [(0x000, "Mode"); (0x001, "Position"); (0x002, "Velocity"); (0x003, "Torque");
   (0x004, "QCurrent"); (0x005, "DCurrent"); (0x006, "AbsPosition"); (0x007, "Power");
   (0x00a, "MotorTemperature"); (0x00b, "TrajectoryComplete"); (0x00c, "HomeState");
   (0x00d, "Voltage"); (0x00e, "Temperature"); (0x00f, "Fault"); (0x010, "PwmPhaseA");
   (0x011, "PwmPhaseB"); (0x012, "PwmPhaseC"); (0x014, "VoltagePhaseA"); (0x015, "VoltagePhaseB");
   (0x016, "VoltagePhaseC"); (0x018, "VFocTheta"); (0x019, "VFocVoltage"); (0x01a, "VoltageDqD");
   (0x01b, "VoltageDqQ"); (0x01c, "CommandQCurrent"); (0x01d, "CommandDCurrent");
   (0x01e, "VFocThetaRate"); (0x020, "CommandPosition"); (0x021, "CommandVelocity");
   (0x022, "CommandFeedforwardTorque"); (0x023, "CommandKpScale"); (0x024, "CommandKdScale");
   (0x025, "CommandPositionMaxTorque"); (0x026, "CommandStopPosition"); (0x027, "CommandTimeout");
   (0x028, "CommandVelocityLimit"); (0x029, "CommandAccelLimit");
   (0x02a, "CommandFixedVoltageOverride"); (0x02b, "CommandIlimitScale");
   (0x02c, "CommandFixedCurrentOverride"); (0x02d, "CommandIgnorePositionBounds");
   (0x030, "PositionKp"); (0x031, "PositionKi"); (0x032, "PositionKd");
   (0x033, "PositionFeedforward"); (0x034, "PositionCommandTorque"); (0x038, "ControlPosition");
   (0x039, "ControlVelocity"); (0x03a, "ControlTorque"); (0x03b, "ErrorPosition");
   (0x03c, "ErrorVelocity"); (0x03d, "ErrorTorque"); (0x040, "StayWithinLower");
   (0x041, "StayWithinUpper"); (0x042, "StayWithinFeedforward"); (0x043, "StayWithinKpScale");
   (0x044, "StayWithinKdScale"); (0x045, "StayWithinMaxTorque"); (0x046, "StayWithinTimeout");
   (0x047, "StayWithinIlimitScale"); (0x048, "StayWithinIgnorePositionBounds");
   (0x050, "Encoder0Position"); (0x051, "Encoder0Velocity"); (0x052, "Encoder1Position");
   (0x053, "Encoder1Velocity"); (0x054, "Encoder2Position"); (0x055, "Encoder2Velocity");
   (0x058, "EncoderValidity"); (0x05c, "Aux1GpioCommand"); (0x05d, "Aux2GpioCommand");
   (0x05e, "Aux1GpioStatus"); (0x05f, "Aux2GpioStatus"); (0x060, "Aux1AnalogIn1");
   (0x061, "Aux1AnalogIn2"); (0x062, "Aux1AnalogIn3"); (0x063, "Aux1AnalogIn4");
   (0x064, "Aux1AnalogIn5"); (0x068, "Aux2AnalogIn1"); (0x069, "Aux2AnalogIn2");
   (0x06a, "Aux2AnalogIn3"); (0x06b, "Aux2AnalogIn4"); (0x06c, "Aux2AnalogIn5");
   (0x070, "MillisecondCounter"); (0x071, "ClockTrim"); (0x076, "Aux1Pwm1"); (0x077, "Aux1Pwm2");
   (0x078, "Aux1Pwm3"); (0x079, "Aux1Pwm4"); (0x07a, "Aux1Pwm5"); (0x07b, "Aux2Pwm1");
   (0x07c, "Aux2Pwm2"); (0x07d, "Aux2Pwm3"); (0x07e, "Aux2Pwm4"); (0x07f, "Aux2Pwm5");
   (0x100, "ModelNumber"); (0x101, "FirmwareVersion"); (0x102, "RegisterMapVersion");
   (0x110, "MultiplexId"); (0x120, "SerialNumber1"); (0x121, "SerialNumber2");
   (0x122, "SerialNumber3"); (0x130, "SetOutputNearest"); (0x131, "SetOutputExact");
   (0x132, "RequireReindex"); (0x133, "RecapturePositionVelocity"); (0x140, "DriverFault1");
   (0x141, "DriverFault2"); (0x150, "Uuid1"); (0x151, "Uuid2"); (0x152, "Uuid3"); (0x153, "Uuid4");
   (0x154, "UuidMask1"); (0x155, "UuidMask2"); (0x156, "UuidMask3"); (0x157, "UuidMask4")]%string.

(** A name in capitals with underscores, as the library writes it, of a name in camel case. *)
Definition upper (c : ascii) : ascii :=
  let n := nat_of_ascii c in
  if (97 <=? n)%nat && (n <=? 122)%nat then ascii_of_nat (n - 32) else c.
Fixpoint plain_name (s : string) : string :=
  match s with
  | EmptyString => EmptyString
  | String c s => if Ascii.eqb c "_" then plain_name s else String (upper c) (plain_name s)
  end.

(** The registers that the library calls otherwise than the controller. *)
Definition renamed : list (string * string) :=
  [("REZERO_STATE", "HomeState");
   ("POSITION_COMMAND", "PositionCommandTorque");
   ("POSITION_ERROR", "ErrorPosition");
   ("VELOCITY_ERROR", "ErrorVelocity");
   ("TORQUE_ERROR", "ErrorTorque");
   ("COMMAND_WITHIN_LOWER_BOUND", "StayWithinLower");
   ("COMMAND_WITHIN_UPPER_BOUND", "StayWithinUpper");
   ("COMMAND_WITHIN_FEEDFORWARD_TORQUE", "StayWithinFeedforward");
   ("COMMAND_WITHIN_KP_SCALE", "StayWithinKpScale");
   ("COMMAND_WITHIN_KD_SCALE", "StayWithinKdScale");
   ("COMMAND_WITHIN_MAX_TORQUE", "StayWithinMaxTorque");
   ("COMMAND_WITHIN_TIMEOUT", "StayWithinTimeout");
   ("COMMAND_WITHIN_ILIMIT_SCALE", "StayWithinIlimitScale");
   ("SERIAL_NUMBER", "SerialNumber1");
   ("REZERO", "SetOutputNearest")]%string.

Definition same_register (name fw_name : string) : Prop :=
  plain_name name = plain_name fw_name \/ In (name, fw_name) renamed.
