(** Model of the choice of devices and actions of moteus_tool:
    /repo/lib/python/moteus/moteus_tool.py 2046-2146 (Runner) and 713-718.
    do_console, the ELF file and the report are as in Device_Model.v. *)
From Coq Require Import Ascii String ZArith List Bool Floats.SpecFloat.
From Verif Require Import PyBase PyBytes PyFloat Tool_Model Calib_Model Config_Model Encoder_Model
  Flash_Model Proc Device_Model Calproc_Model.
Import ListNotations.
Open Scope Z_scope.

(** The options that choose (moteus_tool.py 2152-2195).  A file is given by what is read from
    it. *)
Record run_args := {
  g_target : list (list Z);              (* -t *)
  g_can_prefix : Z;                      (* --can-prefix *)
  g_tel_stop : bool;
  g_no_tel_stop : bool;
  g_stop : bool;
  g_info : bool;
  g_console : bool;
  g_dump_config : bool;
  g_restore_config : option (list (list Z));
  g_write_config : option (list Z);
  g_flash : option (Z * list block);
  g_no_restore_config : bool;
  g_bootloader_active : bool;
  g_calibrate : bool;
  g_restore_cal : option report;
  g_zero_offset : bool;
  g_set_offset : option float;
  g_cal : cal_args
}.

(** What is awaited: query() of the controller with a prefix and an id, within
    FIND_TARGET_TIMEOUT (whether there is a response), and the requests to a device. *)
Inductive rreq := Query (prefix id : Z) | At (prefix id : Z) (r : treq).
Definition rrep (r : rreq) : Type :=
  match r with Query _ _ => bool | At _ _ r => trep r end.
Notation RP := (proc rreq rrep).

(** Stream(args, target_id, transport) (moteus_tool.py 713-718): everything goes to one device. *)
Fixpoint at_device (prefix id : Z) {A} (p : T A) : RP A :=
  match p with
  | Ret a => Ret a
  | Throw e => Throw e
  | Ask r k => Ask (Rep := rrep) (At prefix id r) (fun x => at_device prefix id (k x))
  | Loop body x k => Loop (fun x => at_device prefix id (body x)) x (fun b => at_device prefix id (k b))
  end.

(** The loop of find_targets (moteus_tool.py 2078-2086): the controller is made without a
    prefix. *)
Fixpoint discover (ids : list Z) : RP (list Z) :=
  match ids with
  | [] => Ret []
  | i :: ids =>
      do x <- catch (@ask rreq rrep (Query 0 i));
      do found <- (match x with
                   | inr true => Ret [i]
                   | inr false => Ret []
                   | inl (Exn TimeoutError) => Ret []
                   | inl e => Throw e
                   end);
      do l <- discover ids;
      Ret (found ++ l)
  end.

(** find_targets (moteus_tool.py 2071-2088) *)
Definition find_targets (cmdline_targets : list Z) : RP (list Z) :=
  match cmdline_targets with
  | [] => discover (py_range 1 127)
  | l => Ret l
  end.

(** default_tel_stop (moteus_tool.py 2090-2105) *)
Definition default_tel_stop (g : run_args) : bool :=
  if g_console g then false
  else if match g_flash g with Some _ => g_bootloader_active g | None => false end then false
  else if g_stop g then false
  else true.

Section Runner.
  Variable parse_float : list Z -> res float.
  Variable float_str : float -> list Z.
  Variable fixed3 : float -> list Z.
  Variable hypot : float -> float -> float.
  Variable py_sum : list float -> float.
  Variable minimize : list float -> bool * list float.

  (** Nothing but whether it worked. *)
  Definition drop {A} (p : T A) : T unit := do _ <- p; Ret tt.

  (** The action (moteus_tool.py 2123-2146).  --set-offset is taken by its truth value. *)
  Definition action (g : run_args) : T unit :=
    if g_console g then await Console
    else if g_stop g then drop (command (lit "d stop"))
    else if g_dump_config g then drop (command (lit "conf enumerate"))
    else if g_info g then drop get_device_info
    else if g_zero_offset g then do_set_offset float_str (float_of_Z 0)
    else match given (g_set_offset g) with
    | Some v => do_set_offset float_str v
    | None =>
    match g_restore_config g with
    | Some lines => drop (do_restore_config lines)
    | None =>
    match g_write_config g with
    | Some data => drop (write_config_stream data)
    | None =>
    match g_flash g with
    | Some (version, sections) =>
        do_flash parse_float float_str py_sum version sections (g_bootloader_active g) (g_no_restore_config g)
    | None =>
    if g_calibrate g then drop (do_calibrate parse_float float_str fixed3 hypot py_sum minimize (g_cal g))
    else
    match g_restore_cal g with
    | Some r => do_restore_calibration float_str r
    | None => Throw (Exn RuntimeError)
    end end end end end.

  (** run_action (moteus_tool.py 2107-2146) *)
  Definition run_action (g : run_args) : T unit :=
    let tel_stop := default_tel_stop g in
    let tel_stop := if g_tel_stop g then true else tel_stop in
    let tel_stop := if g_no_tel_stop g then false else tel_stop in
    do _ <- (if tel_stop then
               do _ <- await (WriteMessage (lit "tel stop"));
               await FlushRead
             else Ret tt);
    action g.

  (** The options after an action: calculate_calibration_parameters assigns to them
      (moteus_tool.py 998-999). *)
  Definition args_after (g : run_args) : run_args :=
    if g_calibrate g then
      {| g_target := g_target g; g_can_prefix := g_can_prefix g; g_tel_stop := g_tel_stop g;
         g_no_tel_stop := g_no_tel_stop g; g_stop := g_stop g; g_info := g_info g;
         g_console := g_console g; g_dump_config := g_dump_config g;
         g_restore_config := g_restore_config g; g_write_config := g_write_config g;
         g_flash := g_flash g; g_no_restore_config := g_no_restore_config g;
         g_bootloader_active := g_bootloader_active g; g_calibrate := g_calibrate g;
         g_restore_cal := g_restore_cal g; g_zero_offset := g_zero_offset g;
         g_set_offset := g_set_offset g;
         g_cal := match calibration_parameters (g_cal g) with Ok a => a | Raise _ => g_cal g end |}
    else g.

  (** The loop of start (moteus_tool.py 2066-2069) *)
  Fixpoint run_targets (g : run_args) (targets : list Z) : RP unit :=
    match targets with
    | [] => Ret tt
    | target :: targets =>
        do _ <- at_device (g_can_prefix g) target (run_action g);
        run_targets (args_after g) targets
    end.

  (** start (moteus_tool.py 2062-2069), with the constructor (2047-2053) *)
  Definition start (g : run_args) : RP unit :=
    do cmdline_targets <- lift (expand_targets (g_target g));
    do targets <- find_targets cmdline_targets;
    run_targets g targets.
End Runner.
