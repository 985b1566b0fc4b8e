(** Model of what tview (/repo/utils/gui/moteus_gui/tview.py) does with a line the user
    enters: _handle_user_input, _run_user_command_line, _wait_user_query and
    _run_user_command (1093-1157), with Device.wait_for_data and ensure_record_active
    (776-788). *)
From Coq Require Import Ascii String ZArith List Bool.
From Verif Require Import PyBase PyBytes.
Import ListNotations.
Open Scope Z_scope.

(** What Python knows about characters: the value of a decimal digit (what \d matches and int
    reads), and white space (what \s matches and strip removes). *)
Record unicode := { u_digit : Z -> option Z; u_space : Z -> bool }.

Section Line.
Variable u : unicode.

Definition is_digit (c : Z) : bool := match u_digit u c with Some _ => true | None => false end.

Fixpoint drop (l : list Z) : list Z :=
  match l with c :: l' => if u_space u c then drop l' else l | [] => [] end.
(** str.strip() *)
Definition strip (l : list Z) : list Z := rev (drop (rev (drop l))).

(** line.split('&&') (1104); [acc] is the piece so far. *)
Fixpoint split_amp (acc l : list Z) : list (list Z) :=
  match l with
  | [] => [acc]
  | 38 :: 38 :: l => acc :: split_amp [] l
  | c :: l => split_amp (acc ++ [c]) l
  end.

(** \d*, and what follows *)
Fixpoint span_digits (l : list Z) : list Z * list Z :=
  match l with
  | c :: l' => if is_digit c then let '(a, b) := span_digits l' in (c :: a, b) else ([], l)
  | [] => ([], [])
  end.
(** int(s) of digits *)
Definition number_of (ds : list Z) : Z :=
  fold_left (fun n c => 10 * n + match u_digit u c with Some d => d | None => 0 end) ds 0.

(** $ : the end, or a newline before the end *)
Definition at_end (l : list Z) : bool := match l with [] | [10] => true | _ => false end.

(** r"^:(\d+)$" (1137): group 1 *)
Definition delay_re (s : list Z) : option (list Z) :=
  match s with
  | 58 :: s => match span_digits s with
               | ([], _) => None
               | (ds, rest) => if at_end rest then Some ds else None
               end
  | _ => None
  end.

(** r"^(\?(\d+)?)$" (1139): group 2 *)
Definition traj_re (s : list Z) : option (option (list Z)) :=
  match s with
  | 63 :: s => match span_digits s with
               | ([], rest) => if at_end rest then Some None else None
               | (ds, rest) => if at_end rest then Some (Some ds) else None
               end
  | _ => None
  end.

(** The group of any characters but newlines, and $ : the text, without a newline at the end *)
Fixpoint dot_star (s : list Z) : option (list Z) :=
  match s with
  | [] => Some []
  | [10] => Some []
  | 10 :: _ => None
  | c :: s => option_map (cons c) (dot_star s)
  end.

(** device_re (1138), A or digits, then >, white space, and text to the end: group 1, None for 'A', and group 2.  A digit is not 'A' and
    '>' is not a digit, so that nothing is gained by matching fewer digits, nor by matching
    less white space, as what follows must be free of newlines anyway. *)
Definition device_re (s : list Z) : option (option (list Z) * list Z) :=
  match s with
  | 65 :: 62 :: rest => option_map (fun t => (None, t)) (dot_star (drop rest))
  | _ => match span_digits s with
         | ([], _) => None
         | (ds, 62 :: rest) => option_map (fun t => (Some ds, t)) (dot_star (drop rest))
         | _ => None
         end
  end.

(** What a command does, in order: writes to the device at a position of self.devices, waits. *)
Inductive action :=
| Write (i : nat) (data : list Z)
| Sleep (ms : Z)
| Query (i : nat).         (* the loops of 1124-1134 for one device *)

(** The positions of the devices whose number is in [nums]. *)
Fixpoint selected (k : nat) (devices : list Z) (nums : list Z) : list nat :=
  match devices with
  | [] => []
  | n :: ds => if existsb (Z.eqb n) nums then k :: selected (S k) ds nums else selected (S k) ds nums
  end.

(** (command + '\n').encode('latin1') *)
Definition encode_line (command : list Z) : res (list Z) :=
  if forallb (fun c => c <=? 255) command then Ok (command ++ [LF]) else Raise UnicodeError.

(** _run_user_command (1136-1157).  Where numbers are distinct at most one device is waited
    for; the loop of 1130-1134 over several is left out. *)
Definition run_user_command (devices : list Z) (command : list Z) : list action * option exn :=
  match devices with
  | [] => ([], Some IndexError)                                       (* 1141 *)
  | first :: _ =>
      let send nums command :=
        match selected 0 devices nums with
        | [] => ([], None)
        | targets => match encode_line command with
                     | Ok data => (map (fun i => Write i data) targets, None)
                     | Raise e => ([], Some e)
                     end
        end in
      match traj_re command with
      | Some maybe_id =>                                              (* 1111-1122 *)
          let nums := match maybe_id with Some ds => [number_of ds] | None => [first] end in
          (map Query (selected 0 devices nums), None)
      | None =>
          match delay_re command with
          | Some ds => ([Sleep (number_of ds)], None)                 (* 1147-1148 *)
          | None =>
              match device_re command with
              | Some (None, command) => send devices command
              | Some (Some ds, command) => send [number_of ds] command
              | None => send [first] command
              end
          end
      end
  end.

(** The loop of 1104-1105; an exception ends it and is printed (1106-1107). *)
Fixpoint run_commands (devices : list Z) (commands : list (list Z)) : list action :=
  match commands with
  | [] => []
  | c :: cs => match run_user_command devices c with
               | (acts, None) => acts ++ run_commands devices cs
               | (acts, Some _) => acts
               end
  end.

(** _run_user_command_line (1102-1109), as the actions it would do if never cancelled. *)
Definition run_user_command_line (devices : list Z) (line : list Z) : list action :=
  run_commands devices (map strip (split_amp [] line)).

End Line.

(** ** The task *)

(** Device._data and _events for 'servo_stats': trajectory_done of the latest value, False if
    it has none, and whether the event is set; [s_recent] is whether it came less than 0.2 s
    ago (786). *)
Record stats := { s_done : bool; s_set : bool; s_recent : bool }.

(** What happens. *)
Inductive uentry :=
| Entered (line : list Z)
| Did (a : action)                 (* a write, or the beginning of a wait *)
| Asked_rate (i : nat)             (* 'tel rate servo_stats 100' is written (788) *)
| Arrived (i : nat) (done : bool)  (* do_data (763-772) with a value of servo_stats *)
| Satisfied (i : nat)              (* _wait_user_query returns *)
| Waited.                          (* asyncio.sleep returns *)

(** Where user_task is: to be started; sleeping; in a call of wait_for_data, with the number of
    calls of 1126-1127 still to come; none or ended. *)
Inductive place :=
| ToStart (rest : list action)
| Asleep (rest : list action)
| Waits (i : nat) (togo : nat) (rest : list action)
| NoTask.

Record ustate := { us_place : place; us_stats : list stats; us_log : list uentry }.

Inductive uevent :=
| UInput (line : list Z)           (* _handle_user_input *)
| UResume                          (* the event loop runs the task, if it can *)
| UData (i : nat) (done : bool)    (* servo_stats of a device arrives *)
| UOld (i : nat).                  (* 0.2 s pass without one *)

Definition no_stats : stats := {| s_done := false; s_set := false; s_recent := false |}.
Definition stat (i : nat) (l : list stats) : stats := nth i l no_stats.
Fixpoint put (i : nat) (s : stats) (l : list stats) : list stats :=
  match i, l with
  | O, [] => [s]
  | O, _ :: l => s :: l
  | S i, [] => no_stats :: put i s []
  | S i, x :: l => x :: put i s l
  end.
Definition cleared (s : stats) : stats := {| s_done := s_done s; s_set := false; s_recent := s_recent s |}.

(** The task runs from the beginning of an action to its next suspension. *)
Fixpoint perform (acts : list action) (ss : list stats) : place * list stats * list uentry :=
  match acts with
  | [] => (NoTask, ss, [])
  | Write i data :: rest => let '(p, ss, l) := perform rest ss in (p, ss, Did (Write i data) :: l)
  | Sleep ms :: rest => (Asleep rest, ss, [Did (Sleep ms)])
  | Query i :: rest =>
      let l := Did (Query i) :: if s_recent (stat i ss) then [] else [Asked_rate i] in   (* 1125 *)
      if s_set (stat i ss)                                            (* the event is set: 1126 returns *)
      then (Waits i 1 rest, put i (cleared (stat i ss)) ss, l)
      else (Waits i 2 rest, ss, l)
  end.

Definition ustep (devices : list Z) (u : unicode) (s : ustate) (e : uevent) : ustate :=
  match e with
  | UInput line =>                                                    (* 1094-1100 *)
      {| us_place := ToStart (run_user_command_line u devices line); us_stats := us_stats s;
         us_log := us_log s ++ [Entered line] |}
  | UResume =>
      match us_place s with
      | ToStart acts =>
          let '(p, ss, l) := perform acts (us_stats s) in
          {| us_place := p; us_stats := ss; us_log := us_log s ++ l |}
      | Asleep rest =>
          let '(p, ss, l) := perform rest (us_stats s) in
          {| us_place := p; us_stats := ss; us_log := us_log s ++ Waited :: l |}
      | Waits i togo rest =>
          let st := stat i (us_stats s) in
          if s_set st then
            let ss := put i (cleared st) (us_stats s) in               (* 781 *)
            match togo with
            | S togo => {| us_place := Waits i togo rest; us_stats := ss; us_log := us_log s |}
            | O => if s_done st then                                  (* 1133-1134 *)
                     let '(p, ss, l) := perform rest ss in
                     {| us_place := p; us_stats := ss; us_log := us_log s ++ Satisfied i :: l |}
                   else {| us_place := Waits i 0 rest; us_stats := ss; us_log := us_log s |}
            end
          else s
      | NoTask => s
      end
  | UData i done =>
      {| us_place := us_place s;
         us_stats := put i {| s_done := done; s_set := true; s_recent := true |} (us_stats s);
         us_log := us_log s ++ [Arrived i done] |}
  | UOld i =>
      let st := stat i (us_stats s) in
      {| us_place := us_place s;
         us_stats := put i {| s_done := s_done st; s_set := s_set st; s_recent := false |} (us_stats s);
         us_log := us_log s |}
  end.

Definition ustart : ustate := {| us_place := NoTask; us_stats := []; us_log := [] |}.
Definition uruns (devices : list Z) (u : unicode) (es : list uevent) : ustate :=
  fold_left (ustep devices u) es ustart.
