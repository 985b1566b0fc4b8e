(** Model of the parts of moteus_tool that talk to one device, except
    calibration (Calproc_Model.v): /repo/lib/python/moteus/moteus_tool.py
    732-984, 1966-1984 and 1987-2043.  The choice of devices and of the action
    is in Runner_Model.v. *)
From Coq Require Import Ascii String ZArith List Bool Floats.SpecFloat.
From Verif Require Import PyBase PyBytes PyFloat Fdcanusb_Model Tool_Model Calib_Model Config_Model
  Encoder_Model Calfile_Model Flash_Model Proc.
Import ListNotations.
Open Scope Z_scope.

(** ** What is awaited *)

(** The data of read_data (moteus_tool.py 742-743): the members that are
    used.  Only members the code tests for, or that old firmware is known not to
    have, can be absent. *)
Record firmware := { fw_version : Z; fw_family : option Z; fw_serial : list Z; fw_model : Z }.
Record git := { git_hash : list Z; git_dirty : option Z; git_timestamp : option Z }.
Record servo_stats := {
  ss_mode : Z; ss_bus_V : float; ss_d_A : float; ss_q_A : float; ss_velocity : float;
  ss_velocity_filt : option float; ss_ind : option float; ss_position_raw : option Z
}.
Record motor_position := { mp_homed : Z; mp_theta_valid : bool; mp_error : Z; mp_raw : list Z }.

Inductive treq :=
| Command (text : list Z) (any : bool)  (* Stream.command, and allow_any_response *)
| CommandWithin (text : list Z)         (* asyncio.wait_for(Stream.command, 0.25) *)
| WriteMessage (text : list Z)          (* Stream.write_message *)
| Readline                              (* Stream.readline *)
| FlushRead                             (* Stream.flush_read *)
| ReadFirmware | ReadGit | ReadServoStats | ReadMotorPosition  (* Stream.read_data *)
| Sleep (seconds : float)               (* asyncio.sleep *)
| Now                                   (* time.time() *)
| SaveFile (data : list Z)              (* writing --cal-write-raw, or the old configuration *)
| SaveReport                            (* writing the report of a calibration *)
| Console.                              (* Stream.do_console *)

Definition trep (r : treq) : Type :=
  match r with
  | Command _ _ | CommandWithin _ | Readline => list Z
  | ReadFirmware => firmware
  | ReadGit => git
  | ReadServoStats => servo_stats
  | ReadMotorPosition => motor_position
  | Now => float
  | _ => unit
  end.

Notation T := (proc treq trep).

Definition await (r : treq) : T (trep r) := @ask treq trep r.

(** Stream.command (moteus_tool.py 732-735) of a text known to be latin1 *)
Definition command (text : list Z) : T (list Z) := await (Command text false).
Definition command_any (text : list Z) : T (list Z) := await (Command text true).

(** 'needle' in text *)
Fixpoint contains (needle text : list Z) : bool :=
  startswith needle text || match text with [] => false | _ :: text => contains needle text end.

(** except moteus.CommandError: a CommandError is also a RuntimeError
    (moteus.py 1430-1433). *)
Definition catch_command {A} (p : T A) (handler : list Z -> T A) : T A :=
  do x <- catch p;
  match x with
  | inr a => Ret a
  | inl (CmdErr message) => handler message
  | inl e => Throw e
  end.

Section Device.
  (** float(s), f"{x}" of a float. *)
  Variable parse_float : list Z -> res float.
  Variable float_str : float -> list Z.

  (** moteus_tool.py 748-750 *)
  Definition read_config_int (name : list Z) : T Z :=
    do result <- command_any (lit "conf get " ++ name);
    lift (int10 result).

  (** moteus_tool.py 752-754 *)
  Definition read_config_double (name : list Z) : T float :=
    do result <- command_any (lit "conf get " ++ name);
    lift (parse_float result).

  (** moteus_tool.py 756-763 *)
  Definition is_config_supported (name : list Z) : T bool :=
    do result <- command_any (lit "conf get " ++ name);
    if startswith (lit "ERR") result then
      if negb (contains (lit "error reading") result || contains (lit "unknown group") result)
      then Throw (Exn RuntimeError)
      else Ret false
    else Ret true.

  (** One line of the answer (moteus_tool.py 768-769) *)
  Definition uuid_byte (x : list Z) : res Z :=
    let* f := py_index (split_on 32 x) 1 in
    int10 f.

  (** uuid.UUID(bytes=bytes(l)) (moteus_tool.py 768-770): its 16 bytes *)
  Definition uuid_of (text_data : list Z) : res (list Z) :=
    let* b := map_res uuid_byte (filter (fun x => negb (length x =? 0)%nat) (split_on 10 text_data)) in
    if forallb byte_okb b && (length b =? 16)%nat then Ok b else Raise ValueError.

  (** moteus_tool.py 765-774 *)
  Definition read_uuid : T (option (list Z)) :=
    catch_command
      (do text_data <- command (lit "conf enumerate uuid");
       do b <- lift (uuid_of text_data);
       Ret (Some b))
      (fun message =>
         if negb (contains (lit "unknown group") message) then Throw (CmdErr message)
         else Ret None).

  (** The dict of get_device_info (moteus_tool.py 781-790); the model as the number it is
      the hexadecimal text of, uuid as bytes, absent for ''. *)
  Record device_info := {
    di_serial : list Z; di_model : Z; di_git_hash : list Z; di_git_dirty : bool;
    di_git_timestamp : Z; di_uuid : option (list Z)
  }.

  (** moteus_tool.py 776-792 *)
  Definition get_device_info : T device_info :=
    do firmware <- await ReadFirmware;
    do git <- await ReadGit;
    do uuid <- read_uuid;
    do s1 <- lift (py_index (fw_serial firmware) 0);
    do s2 <- lift (py_index (fw_serial firmware) 1);
    do s3 <- lift (py_index (fw_serial firmware) 2);
    Ret {| di_serial := base64_serial_number s1 s2 s3;
           di_model := fw_model firmware;
           di_git_hash := bytes_hex (git_hash git);
           di_git_dirty := negb (match git_dirty git with Some d => d | None => 0 end =? 0);
           di_git_timestamp := match git_timestamp git with Some t => t | None => 0 end;
           di_uuid := uuid |}.

  (** moteus_tool.py 962-966 *)
  Definition read_servo_stats : T servo_stats :=
    do s <- await ReadServoStats;
    if ss_mode s =? 1 then Throw (Exn RuntimeError) else Ret s.

  (** moteus_tool.py 968-969 *)
  Definition check_for_fault : T unit :=
    do _ <- read_servo_stats;
    Ret tt.

  (** moteus_tool.py 797-810 *)
  Definition do_set_offset (value : float) : T unit :=
    do _ <- catch_command
      (command (lit "d cfg-set-output " ++ float_str value))
      (fun _ =>
         if negb (feqb value (float_of_Z 0)) then Throw (Exn RuntimeError)
         else
           do servo_stats <- read_servo_stats;
           do position_raw <- lift (match ss_position_raw servo_stats with
                                    | Some p => Ok p
                                    | None => Raise AttributeError
                                    end);
           command (lit "conf set motor.position_offset " ++ int_str (- position_raw)));
    do _ <- command (lit "conf write");
    do _ <- command (lit "d rezero " ++ float_str value);
    Ret tt.

  (** str.rstrip() *)
  Definition str_rstrip (l : list Z) : list Z := rev (str_drop (rev l)).

  (** line[0:line.index('#')] if there is one (moteus_tool.py 817-818) *)
  Fixpoint uncomment (line : list Z) : list Z :=
    match line with
    | [] => []
    | c :: line => if c =? 35 then [] else c :: uncomment line
    end.

  (** The loop of do_restore_config (moteus_tool.py 816-826): the lines that could not be set. *)
  Fixpoint restore_lines (lines : list (list Z)) : T (list (list Z)) :=
    match lines with
    | [] => Ret []
    | line :: lines =>
        let line := str_rstrip (uncomment line) in
        if (length line =? 0)%nat then restore_lines lines
        else
          do text <- lift (if forallb byte_okb line then Ok (lit "conf set " ++ line)
                           else Raise UnicodeError);
          do bad <- catch_command (do _ <- command text; Ret []) (fun _ => Ret [line]);
          do errors <- restore_lines lines;
          Ret (bad ++ errors)
    end.

  (** do_restore_config (moteus_tool.py 812-834): [lines] is what readlines() gives, as code
      points; the result is what is printed as not set.  Simplification: white
      space above 255 is not stripped. *)
  Definition do_restore_config (lines : list (list Z)) : T (list (list Z)) :=
    do errors <- restore_lines lines;
    do _ <- command (lit "conf write");
    Ret errors.

  (** The loop of write_config_stream (moteus_tool.py 845-857) *)
  Fixpoint write_lines (lines : list (list Z)) : T (list (list Z)) :=
    match lines with
    | [] => Ret []
    | line :: lines =>
        let line := rstrip line in
        if (length line =? 0)%nat then write_lines lines
        else
          do bad <- catch_command (do _ <- command line; Ret []) (fun _ => Ret [line]);
          do errors <- write_lines lines;
          Ret (bad ++ errors)
    end.

  (** write_config_stream (moteus_tool.py 840-865), also do_write_config (836-838): the
      argument is the content of the file, the result what is printed as not set. *)
  Definition write_config_stream (data : list Z) : T (list (list Z)) :=
    write_lines (read_lines data).

  (** restore_config (moteus_tool.py 971-984) *)
  Definition restore_config (old_config : list Z) : T (list (list Z)) :=
    let new_config :=
      flat_map (fun line => if (length (bytes_strip line) =? 0)%nat then []
                            else [lit "conf set " ++ line ++ [10]]) (split_on 10 old_config) in
    do errors <- write_config_stream (List.concat new_config);
    do _ <- command (lit "conf write");
    do _ <- await (WriteMessage (lit "d reset"));
    Ret errors.

  (** write_flash (Flash_Model.v) with the requests of this file.  Simplification: the message
      of a CommandError is dropped; nothing looks at it. *)
  Fixpoint of_prog {A} (p : Async.prog unit creq (list Z) A) : T A :=
    match p with
    | Async.Ret a => Ret a
    | Async.Throw e => Throw (Exn e)
    | Async.Get k => of_prog (k tt)
    | Async.Put _ k => of_prog k
    | Async.Acquire k => of_prog (k (Ok tt))
    | Async.Release k => of_prog k
    | Async.Await r k =>
        Ask (Rep := trep) (Command (fst r) (snd r)) (fun x =>
          of_prog (k (match x with
                      | inr v => Ok v
                      | inl (Exn e) => Raise e
                      | inl (CmdErr _) => Raise CommandError
                      end)))
    | Async.Loop body x k => Loop (fun x => of_prog (body x)) x (fun b => of_prog (k b))
    end.

  (** do_flash (moteus_tool.py 867-920).  [elf_version] and [sections] are what _read_elf gives;
      a file is written with the old configuration (900-903), which is not
      read again. *)
  Variable py_sum : list float -> float.
  Definition do_flash (elf_version : Z) (sections : list block) (bootloader_active no_restore_config : bool)
    : T unit :=
    do old_firmware <- (if negb bootloader_active
                        then do f <- await ReadFirmware; Ret (Some f)
                        else Ret None);
    let old := match old_firmware with Some f => fw_version f | None => elf_version end in
    let family := match old_firmware with
                  | Some f => Some (match fw_family f with Some x => x | None => 0 end)
                  | None => None
                  end in
    do _ <- (if elf_version >? 0x010a then Throw (Exn RuntimeError)
             else if old >? 0x010a then Throw (Exn RuntimeError) else Ret tt);
    do old_config <- (if negb bootloader_active && negb no_restore_config
                      then do c <- command (lit "conf enumerate");
                           do _ <- await (SaveFile c); Ret c
                      else Ret []);
    do _ <- await (WriteMessage (lit "d flash"));
    do _ <- await Readline;
    do _ <- command (lit "unlock");
    do _ <- of_prog (write_flash sections);
    do _ <- command (lit "lock");
    do _ <- await (WriteMessage (lit "reset"));
    do _ <- await (Sleep (float_of_Z 1));
    if negb bootloader_active && negb no_restore_config then
      do new_config <- lift (fix_config parse_float float_str py_sum old elf_version family old_config);
      do _ <- restore_config new_config;
      Ret tt
    else Ret tt.

  (** ** Restoring a calibration *)

  (** A number in a report: json.loads keeps integers and floats apart. *)
  Inductive num := NInt (z : Z) | NFloat (x : float).
  Definition num_str (n : num) : list Z :=
    match n with NInt z => int_str z | NFloat x => float_str x end.
  Definition num_truth (n : num) : bool :=
    match n with NInt z => negb (z =? 0) | NFloat x => negb (feqb x (float_of_Z 0)) end.

  (** report['calibration']: what CalibrationResult.to_json (calibrate_encoder.py 203-211) or
      HallCalibrationResult.to_json (456-462) give. *)
  Inductive cal_json :=
  | CalJson (invert phase_invert : bool) (poles : Z) (offset : list num)
  | HallJson (offset sign polarity phase_invert : Z).

  (** A report (moteus_tool.py 1179-1196): the members used.  Each of the last
      six is None for null and for a missing key; [rp_v_per_hz], which newer reports do
      not have, is a KeyError then. *)
  Record report := {
    rp_serial : list Z; rp_calibration : cal_json; rp_resistance : num;
    rp_kv : option num; rp_v_per_hz : option num;
    rp_kp : option num; rp_ki : option num; rp_enc_kp : option num; rp_enc_ki : option num;
    rp_enc_hz : option num
  }.

  (** for index, offset in enumerate(l) (moteus_tool.py 2010-2011, also 1456-1457) *)
  Fixpoint set_offsets (i : Z) (l : list num) : T unit :=
    match l with
    | [] => Ret tt
    | x :: l =>
        do _ <- command (lit "conf set motor.offset." ++ int_str i ++ [32] ++ num_str x);
        set_offsets (i + 1) l
    end.

  Definition need {A} (x : option A) : res A :=
    match x with Some a => Ok a | None => Raise KeyError end.
  Definition is_true (x : option num) : bool := match x with Some n => num_truth n | None => false end.
  Definition set_if (present : bool) (name : list Z) (x : option num) : T unit :=
    match x with
    | Some n => if present then do _ <- command (lit "conf set " ++ name ++ [32] ++ num_str n); Ret tt
                else Ret tt
    | None => Ret tt
    end.

  (** do_restore_calibration (moteus_tool.py 1987-2043).  A hall report has no 'poles'; another
      serial number ends in report['serial_number'], which there is not. *)
  Definition do_restore_calibration (r : report) : T unit :=
    do device_info <- get_device_info;
    if negb (bytes_eqb (di_serial device_info) (rp_serial r)) then Throw (Exn KeyError)
    else
    match rp_calibration r with
    | HallJson _ _ _ _ => Throw (Exn KeyError)
    | CalJson invert phase_invert poles offset =>
        do _ <- command (lit "conf set motor.poles " ++ int_str poles);
        do s <- is_config_supported (lit "motor_position.sources.0.sign");
        do _ <- (if s : bool
                 then command (lit "conf set motor_position.sources.0.sign " ++ int_str (if invert then -1 else 1))
                 else command (lit "conf set motor.invert " ++ int_str (if invert then 1 else 0)));
        do s <- is_config_supported (lit "motor.phase_invert");
        do _ <- (if s : bool
                 then command (lit "conf set motor.phase_invert " ++ int_str (if phase_invert then 1 else 0))
                 else Ret []);
        do _ <- set_offsets 0 offset;
        do _ <- command (lit "conf set motor.resistance_ohm " ++ num_str (rp_resistance r));
        do s <- is_config_supported (lit "motor.v_per_hz");
        do _ <- (if s : bool then
                   do v <- lift (need (rp_v_per_hz r));
                   command (lit "conf set motor.v_per_hz " ++ num_str v)
                 else
                   do s <- is_config_supported (lit "motor.Kv");
                   if s : bool then
                     do v <- lift (need (rp_kv r));
                     command (lit "conf set motor.Kv " ++ num_str v)
                   else Ret []);
        do _ <- set_if true (lit "servo.pid_dq.kp") (rp_kp r);
        do _ <- set_if true (lit "servo.pid_dq.ki") (rp_ki r);
        do s <- (if is_true (rp_enc_hz r)
                 then is_config_supported (lit "motor_position.sources.0.pll_filter_hz")
                 else Ret false);
        do _ <- (if s : bool then set_if true (lit "motor_position.sources.0.pll_filter_hz") (rp_enc_hz r)
                 else
                   do s <- is_config_supported (lit "servo.encoder_filter.kp");
                   if s : bool then
                     do _ <- set_if (is_true (rp_enc_kp r)) (lit "servo.encoder_filter.kp") (rp_enc_kp r);
                     set_if (is_true (rp_enc_ki r)) (lit "servo.encoder_filter.ki") (rp_enc_ki r)
                   else Ret tt);
        do _ <- command (lit "conf write");
        Ret tt
    end.
End Device.
