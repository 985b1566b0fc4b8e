(** Model of utils/decode_can_frame.py, which prints what a CAN frame says.

    The printed text is kept as a list of lines, each with the bytes shown in
    hexadecimal in its left column and what the rest of it says.  Left out:
    turning the hexadecimal arguments into bytes (line 228), and how a number
    is written as text. *)
From Coq Require Import Ascii String ZArith List Bool.
From Coq Require Import Floats.SpecFloat.
From Verif Require Import PyBase PyFloat Mux_Model Ctrl_Model.
Import ListNotations.
Open Scope Z_scope.
Open Scope py_scope.

(** moteus.py:158-289 class Register: number and name.  Of two names for the
    same number, an enum keeps the first. *)
Definition register_names : list (Z * string) :=
  [(0x000, "MODE"); (0x001, "POSITION"); (0x002, "VELOCITY"); (0x003, "TORQUE");
   (0x004, "Q_CURRENT"); (0x005, "D_CURRENT"); (0x006, "ABS_POSITION"); (0x007, "POWER");
   (0x00a, "MOTOR_TEMPERATURE"); (0x00b, "TRAJECTORY_COMPLETE"); (0x00c, "REZERO_STATE");
   (0x00d, "VOLTAGE"); (0x00e, "TEMPERATURE"); (0x00f, "FAULT");
   (0x010, "PWM_PHASE_A"); (0x011, "PWM_PHASE_B"); (0x012, "PWM_PHASE_C");
   (0x014, "VOLTAGE_PHASE_A"); (0x015, "VOLTAGE_PHASE_B"); (0x016, "VOLTAGE_PHASE_C");
   (0x018, "VFOC_THETA"); (0x019, "VFOC_VOLTAGE"); (0x01a, "VOLTAGEDQ_D");
   (0x01b, "VOLTAGEDQ_Q"); (0x01c, "COMMAND_Q_CURRENT"); (0x01d, "COMMAND_D_CURRENT");
   (0x01e, "VFOC_THETA_RATE");
   (0x020, "COMMAND_POSITION"); (0x021, "COMMAND_VELOCITY");
   (0x022, "COMMAND_FEEDFORWARD_TORQUE"); (0x023, "COMMAND_KP_SCALE");
   (0x024, "COMMAND_KD_SCALE"); (0x025, "COMMAND_POSITION_MAX_TORQUE");
   (0x026, "COMMAND_STOP_POSITION"); (0x027, "COMMAND_TIMEOUT");
   (0x028, "COMMAND_VELOCITY_LIMIT"); (0x029, "COMMAND_ACCEL_LIMIT");
   (0x02a, "COMMAND_FIXED_VOLTAGE_OVERRIDE"); (0x02b, "COMMAND_ILIMIT_SCALE");
   (0x030, "POSITION_KP"); (0x031, "POSITION_KI"); (0x032, "POSITION_KD");
   (0x033, "POSITION_FEEDFORWARD"); (0x034, "POSITION_COMMAND");
   (0x038, "CONTROL_POSITION"); (0x039, "CONTROL_VELOCITY"); (0x03a, "CONTROL_TORQUE");
   (0x03b, "POSITION_ERROR"); (0x03c, "VELOCITY_ERROR"); (0x03d, "TORQUE_ERROR");
   (0x040, "COMMAND_WITHIN_LOWER_BOUND"); (0x041, "COMMAND_WITHIN_UPPER_BOUND");
   (0x042, "COMMAND_WITHIN_FEEDFORWARD_TORQUE"); (0x043, "COMMAND_WITHIN_KP_SCALE");
   (0x044, "COMMAND_WITHIN_KD_SCALE"); (0x045, "COMMAND_WITHIN_MAX_TORQUE");
   (0x046, "COMMAND_WITHIN_TIMEOUT"); (0x047, "COMMAND_WITHIN_ILIMIT_SCALE");
   (0x050, "ENCODER_0_POSITION"); (0x051, "ENCODER_0_VELOCITY");
   (0x052, "ENCODER_1_POSITION"); (0x053, "ENCODER_1_VELOCITY");
   (0x054, "ENCODER_2_POSITION"); (0x055, "ENCODER_2_VELOCITY");
   (0x058, "ENCODER_VALIDITY"); (0x05c, "AUX1_GPIO_COMMAND"); (0x05d, "AUX2_GPIO_COMMAND");
   (0x05e, "AUX1_GPIO_STATUS"); (0x05f, "AUX2_GPIO_STATUS");
   (0x060, "AUX1_ANALOG_IN1"); (0x061, "AUX1_ANALOG_IN2"); (0x062, "AUX1_ANALOG_IN3");
   (0x063, "AUX1_ANALOG_IN4"); (0x064, "AUX1_ANALOG_IN5");
   (0x068, "AUX2_ANALOG_IN1"); (0x069, "AUX2_ANALOG_IN2"); (0x06a, "AUX2_ANALOG_IN3");
   (0x06b, "AUX2_ANALOG_IN4"); (0x06c, "AUX2_ANALOG_IN5");
   (0x070, "MILLISECOND_COUNTER"); (0x071, "CLOCK_TRIM");
   (0x076, "AUX1_PWM1"); (0x077, "AUX1_PWM2"); (0x078, "AUX1_PWM3"); (0x079, "AUX1_PWM4");
   (0x07a, "AUX1_PWM5"); (0x07b, "AUX2_PWM1"); (0x07c, "AUX2_PWM2"); (0x07d, "AUX2_PWM3");
   (0x07e, "AUX2_PWM4"); (0x07f, "AUX2_PWM5");
   (0x102, "REGISTER_MAP_VERSION"); (0x120, "SERIAL_NUMBER"); (0x121, "SERIAL_NUMBER2");
   (0x122, "SERIAL_NUMBER3");
   (0x130, "REZERO"); (0x131, "SET_OUTPUT_EXACT"); (0x132, "REQUIRE_REINDEX");
   (0x133, "RECAPTURE_POSITION_VELOCITY");
   (0x140, "DRIVER_FAULT1"); (0x141, "DRIVER_FAULT2");
   (0x150, "UUID1"); (0x151, "UUID2"); (0x152, "UUID3"); (0x153, "UUID4");
   (0x154, "UUID_MASK1"); (0x155, "UUID_MASK2"); (0x156, "UUID_MASK3");
   (0x157, "UUID_MASK4")]%string.

(** moteus.py:292-307 class Mode *)
Definition mode_names : list (Z * string) :=
  [(0, "STOPPED"); (1, "FAULT"); (5, "PWM"); (6, "VOLTAGE"); (7, "VOLTAGE_FOC");
   (8, "VOLTAGE_DQ"); (9, "CURRENT"); (10, "POSITION"); (11, "TIMEOUT");
   (12, "ZERO_VELOCITY"); (13, "STAY_WITHIN"); (14, "MEASURE_IND"); (15, "BRAKE")]%string.

(** The name an enum gives a number. *)
Fixpoint enum_name (t : list (Z * string)) (k : Z) : option string :=
  match t with
  | [] => None
  | (k', s) :: t => if k' =? k then Some s else enum_name t k
  end.

(** What follows the plain number of a value (format_value). *)
Inductive note := NoNote | NoteNaN | NoteScaled (x : float) | NoteMode (name : string).

(** What a line says, apart from the bytes it shows:
    the name of the subframe with its type and, in the short form, the number
    of registers; "n registers"; "Starting at reg"; "Reg .. = .."; a name
    alone; "register"; "error"; "channel"; "bytes"; "at most .. bytes"; bytes;
    nothing. *)
Inductive says :=
| SHead (command : Z) (typ : resolution) (count : option Z)
| SCount (n : Z)
| SStart (reg : Z) (name : string)
| SValue (reg : Z) (name : string) (v : pyval) (n : note)
| SName (command : Z)
| SRegister (reg : Z) (name : string)
| SError (n : Z)
| SChannel (n : Z)
| SBytes (n : Z)
| SAtMost (n : Z)
| SData
| SNothing.

Definition line : Type := list Z * says.

(** A piece of the program: from the bytes left in the stream to what it
    prints, and its outcome with the bytes left. *)
Definition dec (A : Type) : Type := list Z -> list line * res (A * list Z).

Definition dret {A} (a : A) : dec A := fun s => ([], Ok (a, s)).
Definition draise {A} (e : exn) : dec A := fun s => ([], Raise e).
Definition print (l : line) : dec unit := fun s => ([l], Ok (tt, s)).
Definition dbind {A B} (x : dec A) (f : A -> dec B) : dec B := fun s =>
  match x s with
  | (o, Raise e) => (o, Raise e)
  | (o, Ok (a, s)) => let '(o', r) := f a s in (o ++ o', r)
  end.
Notation "'dec*' x ':=' e 'in' f" := (dbind e (fun x => f))
  (at level 200, x pattern, e at level 100, f at level 200) : py_scope.

(** decode_can_frame.py:46-48 _read_byte *)
Definition read_byte : dec Z := fun s =>
  match s with [] => ([], Raise IndexError) | b :: s => ([], Ok (b, s)) end.

(** decode_can_frame.py:50-52 _read_value *)
Definition read_value (size : nat) : dec (list Z) := fun s =>
  ([], Ok (firstn size s, skipn size s)).

(** decode_can_frame.py:54-69, 86-95 read_struct with the format of a type;
    the type comes from two bits, so read_type always knows it *)
Definition read_struct (r : resolution) : dec (list Z * pyval) :=
  dec* data := read_value (resolution_size r) in
  if (List.length data =? resolution_size r)%nat then dret (data, unpack r data)
  else draise StructError.

(** decode_can_frame.py:71-84 read_varuint; [n], [shift], [result_number],
    [result_data] are the loop variables. *)
Fixpoint dec_varuint_loop (n : nat) (result_number : Z) (result_data : list Z) (shift : Z)
  : dec (list Z * Z) :=
  match n with
  | O => draise RuntimeError
  | S n =>
      dec* this_byte := read_byte in
      let result_data := result_data ++ [this_byte] in
      let result_number := Z.lor result_number (Z.shiftl (Z.land this_byte 0x7f) shift) in
      if Z.land this_byte 0x80 =? 0 then dret (result_data, result_number)
      else dec_varuint_loop n result_number result_data (shift + 7)
  end.
Definition dec_varuint : dec (list Z * Z) := dec_varuint_loop 5 0 [] 0.

(** decode_can_frame.py:98-103 format_reg: only TypeError is caught, and
    Register() raises ValueError for a number it does not have. *)
Definition format_reg (reg : Z) : res string :=
  match enum_name register_names reg with
  | Some name => Ok name
  | None => Raise ValueError
  end.
Definition dec_reg (reg : Z) : dec string := fun s =>
  ([], match format_reg reg with Ok n => Ok (n, s) | Raise e => Raise e end).

(** decode_can_frame.py:105-112 IsNan *)
Definition is_nan_code (r : resolution) (v : pyval) : bool :=
  match r, v with
  | INT8, PInt z => z =? - 2 ^ 7
  | INT16, PInt z => z =? - 2 ^ 15
  | INT32, PInt z => z =? - 2 ^ 31
  | _, _ => false
  end.

(** decode_can_frame.py:115-125 format_scaled: what it adds to the value *)
Definition format_scaled (r : resolution) (v : pyval) (s : scales) : note :=
  if is_nan_code r v then NoteNaN
  else match r, v with
       | INT8, PInt z => NoteScaled (fmul (float_of_Z z) (s8 s))
       | INT16, PInt z => NoteScaled (fmul (float_of_Z z) (s16 s))
       | INT32, PInt z => NoteScaled (fmul (float_of_Z z) (s32 s))
       | _, _ => NoNote
       end.

(** decode_can_frame.py:134-201 SCALE_TYPES *)
Definition scale_types : list (list Z * scales) :=
  [([0x001; 0x006; 0x020; 0x026; 0x040; 0x050; 0x052; 0x054],
    {| s8 := flit 1 2; s16 := flit 1 4; s32 := flit 1 5 |});
   ([0x002; 0x021; 0x028; 0x051; 0x053; 0x055],
    {| s8 := flit 1 1; s16 := flit 25 5; s32 := flit 1 5 |});
   ([0x003; 0x022; 0x025; 0x033; 0x034; 0x042; 0x045],
    {| s8 := flit 5 1; s16 := flit 1 2; s32 := flit 1 3 |});
   ([0x004; 0x005; 0x01c; 0x01d],
    {| s8 := flit 1 0; s16 := flit 1 1; s32 := flit 1 3 |});
   ([0x00d; 0x014; 0x015; 0x016; 0x019; 0x01a; 0x01b; 0x02a],
    {| s8 := flit 5 1; s16 := flit 1 1; s32 := flit 1 3 |});
   ([0x00e],
    {| s8 := flit 1 0; s16 := flit 1 1; s32 := flit 1 3 |});
   ([0x010; 0x011; 0x012; 0x023; 0x024; 0x043; 0x044; 0x076; 0x077; 0x078; 0x079; 0x07a;
     0x07b; 0x07c; 0x07d; 0x07e; 0x07f],
    {| s8 := fdiv (flit 1 0) (flit 127 0); s16 := fdiv (flit 1 0) (flit 32767 0);
       s32 := fdiv (flit 1 0) (flit 2147483647 0) |});
   ([0x029],
    {| s8 := flit 5 2; s16 := flit 1 3; s32 := flit 1 5 |});
   ([0x027; 0x046],
    {| s8 := flit 1 2; s16 := flit 1 3; s32 := flit 1 6 |});
   ([0x007],
    {| s8 := flit 10 0; s16 := flit 5 2; s32 := flit 1 4 |})].

(** decode_can_frame.py:213-219, the loop over SCALE_TYPES *)
Fixpoint scale_type_of (t : list (list Z * scales)) (reg : Z) : option scales :=
  match t with
  | [] => None
  | (regs, s) :: t => if existsb (Z.eqb reg) regs then Some s else scale_type_of t reg
  end.

(** moteus.Mode(value).name: an enum finds a member equal to the value, so a
    float equal to the number of a mode is found as well; any other value
    raises ValueError, which lines 209-212 catch. *)
Definition mode_name (v : pyval) : option string :=
  match v with
  | PInt z => enum_name mode_names z
  | PFloat x => if isfinite x && feqb (float_of_Z (ftrunc x)) x
                then enum_name mode_names (ftrunc x) else None
  end.

(** decode_can_frame.py:205-219 format_value: what it adds to the value *)
Definition format_value (reg : Z) (r : resolution) (v : pyval) : note :=
  if reg =? 0 then
    match mode_name v with Some n => NoteMode n | None => NoNote end
  else match scale_type_of scale_types reg with
       | Some s => format_scaled r v s
       | None => NoNote
       end.

(** decode_can_frame.py:239-247, 250-259: the number of registers and the
    start register *)
Definition read_header (data : list Z) (upper : Z) (maybe_type : resolution) (maybe_num : Z)
  : dec (Z * Z) :=
  dec* length :=
    (if 0 <? maybe_num then
       dec* _ := print (data, SHead upper maybe_type (Some maybe_num)) in dret maybe_num
     else
       dec* _ := print (data, SHead upper maybe_type None) in
       dec* (length_data, length) := dec_varuint in
       dec* _ := print (length_data, SCount length) in dret length) in
  dec* (start_reg_data, start_reg) := dec_varuint in
  dec* name := dec_reg start_reg in
  dec* _ := print (start_reg_data, SStart start_reg name) in
  dret (length, start_reg).

(** decode_can_frame.py:261-265, the loop over the values *)
Fixpoint read_values (n : nat) (maybe_type : resolution) (cur_reg : Z) : dec unit :=
  match n with
  | O => dret tt
  | S n =>
      dec* (data, value) := read_struct maybe_type in
      dec* name := dec_reg cur_reg in
      dec* _ := print (data, SValue cur_reg name value (format_value cur_reg maybe_type value)) in
      read_values n maybe_type (cur_reg + 1)
  end.

(** decode_can_frame.py:231-289, the body of the loop of main() *)
Definition decode_subframe : dec unit :=
  dec* (data, v) := read_struct INT8 in
  let cmd := match v with PInt z => z | PFloat _ => 0 end in
  let upper := Z.land cmd 0xf0 in
  let maybe_type := res_of_code (Z.shiftr (Z.land cmd 12) 2) in
  let maybe_num := Z.land cmd 3 in
  if upper =? 0x10 then
    dec* _ := read_header data upper maybe_type maybe_num in dret tt
  else if (upper =? 0x00) || (upper =? 0x20) then
    dec* (length, start_reg) := read_header data upper maybe_type maybe_num in
    read_values (Z.to_nat length) maybe_type start_reg
  else if (cmd =? 0x31) || (cmd =? 0x30) then
    dec* _ := print (data, SName cmd) in
    dec* (data, value) := dec_varuint in
    dec* name := dec_reg value in
    dec* _ := print (data, SRegister value name) in
    dec* (data, value) := dec_varuint in
    print (data, SError value)
  else if (cmd =? 0x40) || (cmd =? 0x41) then
    dec* _ := print (data, SName cmd) in
    dec* (channel_data, channel) := dec_varuint in
    dec* _ := print (channel_data, SChannel channel) in
    dec* (nbytes_data, nbytes) := dec_varuint in
    dec* _ := print (nbytes_data, SBytes nbytes) in
    dec* data := read_value (Z.to_nat nbytes) in
    print (data, SData)
  else if cmd =? 0x42 then
    dec* _ := print (data, SName cmd) in
    dec* (channel_data, channel) := dec_varuint in
    dec* _ := print (channel_data, SChannel channel) in
    dec* (nbytes_data, nbytes) := dec_varuint in
    print (nbytes_data, SAtMost nbytes)
  else if cmd =? 0x50 then
    print (data, SName cmd)
  else
    print (data, SNothing).

(** decode_can_frame.py:230, `while stream.remaining()`; each round takes at
    least one byte. *)
Fixpoint decode_loop (fuel : nat) : dec unit := fun s =>
  match s with
  | [] => ([], Ok (tt, []))
  | _ =>
      match fuel with
      | O => ([], Raise Diverges)
      | S fuel => dbind decode_subframe (fun _ => decode_loop fuel) s
      end
  end.

(** decode_can_frame.py:222-289 main(): what it prints for a frame, and the
    exception it ends with, if any. *)
Definition decode_frame (frame : list Z) : list line * option exn :=
  match decode_loop (List.length frame) frame with
  | (o, Ok _) => (o, None)
  | (o, Raise e) => (o, Some e)
  end.
