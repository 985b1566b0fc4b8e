(** Model of the loop of tview (/repo/utils/gui/moteus_gui/tview.py) that serves all
    devices: TviewMainWindow._dispatch_until and _run_transport (1027-1084), together with
    the writing half of DeviceStream (500-515) and Device.start (619-632). *)
From Coq Require Import Ascii String ZArith List Bool.
From Verif Require Import PyBase PyBytes Ctrl_Model Tview_Model.
Import ListNotations.
Open Scope Z_scope.

(** Where Device.start is: not run yet; in the loop of 624-625; past 627. *)
Inductive progress := Created | Sleeping | Running.

(** A Device (593-617) with its DeviceStream (486-495). *)
Record dev := {
  d_ct : controller;          (* controller; its id is Device.number *)
  d_progress : progress;
  d_mach : mach;              (* the task from 629 on, and _read_data *)
  d_wbuf : list Z;            (* _write_data *)
  d_emits : nat;              (* stream.emit_count *)
  d_polls : nat;              (* stream.poll_count *)
  d_errors : nat;             (* error_count *)
  d_skip : nat;               (* poll_count *)
}.

Definition number (d : dev) : Z := ct_id (d_ct d).

(** Where _run_transport_iteration is: before device [i] in the loop of 1055-1056, before
    device [i] in the loop of 1060-1082, awaiting an answer of device [i] (1067-1071), or
    ended by an exception. *)
Inductive pc := AtEmit (i : nat) | AtPoll (i : nat) | Awaiting (i : nat) | Dead (e : exn).

(** What happens, in order. *)
Inductive by_ := User | Task.
Inductive entry :=
| Wrote (i : nat) (b : by_) (data : list Z)      (* stream.write of device [i] *)
| Frame (i : nat) (c : Ctrl_Model.command)                  (* transport.write of 515 *)
| Asked (i : nat) (c : Ctrl_Model.command)                  (* transport.write of 505 *)
| Skipped (i : nat)                              (* 1061-1063 *)
| Answered (i : nat)                             (* 1073-1074 *)
| TimedOut (i : nat)                             (* 1081-1082 *)
| Received (id : Z) (data : list Z)              (* transport.read returned a message *)
| Begun (i : nat)                                (* 627 *)
| Ran (i : nat)                                  (* the task of device [i] was run after 627 *)
| Pass.                                          (* an iteration ended *)

Record win := { w_devs : list dev; w_pc : pc; w_log : list entry }.

Inductive wevent :=
| EUser (i : nat) (data : list Z)     (* the user makes tview write to device [i] *)
| ERun (i : nat)                      (* the task of device [i] is run *)
| EStep                               (* the task of the transport is run up to its next await *)
| ERecv (id : Z) (data : list Z)      (* transport.read returns a message; until it is called, messages stay in the transport *)
| ETimeout.                           (* POLL_TIMEOUT_S is over *)

Fixpoint change (i : nat) (f : dev -> dev) (l : list dev) : list dev :=
  match i, l with
  | _, [] => []
  | O, d :: l => f d :: l
  | S i, d :: l => d :: change i f l
  end.

(** DeviceStream.write (500-501) *)
Definition add_write (data : list Z) (d : dev) : dev :=
  {| d_ct := d_ct d; d_progress := d_progress d; d_mach := d_mach d; d_wbuf := d_wbuf d ++ data;
     d_emits := d_emits d; d_polls := d_polls d; d_errors := d_errors d; d_skip := d_skip d |}.
Definition set_progress (p : progress) (m : mach) (d : dev) : dev :=
  {| d_ct := d_ct d; d_progress := p; d_mach := m; d_wbuf := d_wbuf d;
     d_emits := d_emits d; d_polls := d_polls d; d_errors := d_errors d; d_skip := d_skip d |}.
Definition emitted (d : dev) : dev :=
  {| d_ct := d_ct d; d_progress := d_progress d; d_mach := d_mach d; d_wbuf := skipn MAX_SEND (d_wbuf d);
     d_emits := S (d_emits d); d_polls := d_polls d; d_errors := d_errors d; d_skip := d_skip d |}.
Definition polled (d : dev) : dev :=
  {| d_ct := d_ct d; d_progress := d_progress d; d_mach := d_mach d; d_wbuf := d_wbuf d;
     d_emits := d_emits d; d_polls := S (d_polls d); d_errors := d_errors d; d_skip := d_skip d |}.
Definition set_errors (errors skip : nat) (d : dev) : dev :=
  {| d_ct := d_ct d; d_progress := d_progress d; d_mach := d_mach d; d_wbuf := d_wbuf d;
     d_emits := d_emits d; d_polls := d_polls d; d_errors := errors; d_skip := skip |}.

(** 1032 *)
Definition source_id (arbitration_id : Z) : Z := Z.land (Z.shiftr arbitration_id 8) 0xff.

(** The loop of 1034-1037: the first device with the number. *)
Fixpoint find_dev (l : list dev) (source : Z) : option nat :=
  match l with
  | [] => None
  | d :: l => if number d =? source then Some O else option_map S (find_dev l source)
  end.

(** DeviceStream.process_message (517-538).  What arrives before 627 is dropped there. *)
Definition deliver (data : list Z) (d : dev) : dev :=
  match d_progress d with
  | Running => set_progress Running (step (d_mach d) (Msg data)) d
  | _ => d
  end.

Definition tel_stop : list Z := [CR; LF] ++ lit "tel stop" ++ [CR; LF].

(** The notes of [m'] that [m] does not have. *)
Definition new_notes (m m' : mach) : list note := skipn (length (m_notes m)) (m_notes m').

Definition writes (ns : list note) : list (list Z) :=
  flat_map (fun n => match n with Sends d => [d] | _ => [] end) ns.

(** The task of device [i] is run. *)
Definition run_device (i : nat) (w : win) : win :=
  match nth_error (w_devs w) i with
  | None => w
  | Some d =>
      match d_progress d with
      | Created =>                                                      (* 621 *)
          {| w_devs := change i (fun d => add_write tel_stop (set_progress Sleeping (d_mach d) d)) (w_devs w);
             w_pc := w_pc w; w_log := w_log w ++ [Wrote i Task tel_stop] |}
      | Sleeping =>                                                     (* 624-627 *)
          if (d_polls d <? 5)%nat || (d_emits d <? 1)%nat then w
          else {| w_devs := change i (set_progress Running (start_of session)) (w_devs w);
                  w_pc := w_pc w; w_log := w_log w ++ [Begun i] |}
      | Running =>
          let m := step (d_mach d) Run in
          let sends := writes (new_notes (d_mach d) m) in
          {| w_devs := change i (fun d => add_write (concat sends) (set_progress Running m d)) (w_devs w);
             w_pc := w_pc w; w_log := w_log w ++ Ran i :: map (Wrote i Task) sends |}
      end
  end.

(** _run_transport_iteration (1050-1084) to its next await *)
Definition run_transport (w : win) : win :=
  match w_pc w with
  | AtEmit i =>
      match nth_error (w_devs w) i with
      | None => {| w_devs := w_devs w; w_pc := AtPoll 0; w_log := w_log w |}
      | Some d =>
          if (length (d_wbuf d) =? 0)%nat                               (* 508-509 *)
          then {| w_devs := w_devs w; w_pc := AtEmit (S i); w_log := w_log w |}
          else
            match make_diagnostic_write (d_ct d) (firstn MAX_SEND (d_wbuf d)) 1 with
            | Ok c => {| w_devs := change i emitted (w_devs w); w_pc := AtEmit (S i);
                         w_log := w_log w ++ [Frame i c] |}
            | Raise e => {| w_devs := change i emitted (w_devs w); w_pc := Dead e; w_log := w_log w |}
            end
      end
  | AtPoll i =>
      match nth_error (w_devs w) i with
      | None => {| w_devs := w_devs w; w_pc := AtEmit 0; w_log := w_log w ++ [Pass] |}
      | Some d =>
          if (0 <? d_skip d)%nat                                        (* 1061-1063 *)
          then {| w_devs := change i (set_errors (d_errors d) (d_skip d - 1)) (w_devs w);
                  w_pc := AtPoll (S i); w_log := w_log w ++ [Skipped i] |}
          else
            match make_diagnostic_read (d_ct d) 48 1 with               (* 503-505 *)
            | Ok c => {| w_devs := change i polled (w_devs w); w_pc := Awaiting i;
                         w_log := w_log w ++ [Asked i c] |}
            | Raise e => {| w_devs := change i polled (w_devs w); w_pc := Dead e; w_log := w_log w |}
            end
      end
  | _ => w
  end.

(** A message is returned to _dispatch_until (1027-1039). *)
Definition receive (id : Z) (data : list Z) (w : win) : win :=
  match w_pc w with
  | Awaiting i =>
      let source := source_id id in
      let devs := match find_dev (w_devs w) source with
                  | Some j => change j (deliver data) (w_devs w)
                  | None => w_devs w
                  end in
      let log := w_log w ++ [Received id data] in
      match nth_error devs i with
      | None => w
      | Some d =>
          if source =? number d                                         (* 1070, 1073-1074 *)
          then {| w_devs := change i (set_errors 0 0) devs; w_pc := AtPoll (S i);
                  w_log := log ++ [Answered i] |}
          else {| w_devs := devs; w_pc := Awaiting i; w_log := log |}
      end
  | _ => w
  end.

(** The timeout of 1071, and 1081-1082. *)
Definition time_out (w : win) : win :=
  match w_pc w with
  | Awaiting i =>
      {| w_devs := change i (fun d => let e := Nat.min 1000 (d_errors d + 1) in set_errors e e d) (w_devs w);
         w_pc := AtPoll (S i); w_log := w_log w ++ [TimedOut i] |}
  | _ => w
  end.

Definition wstep (w : win) (e : wevent) : win :=
  match e with
  | EUser i data =>
      match nth_error (w_devs w) i with
      | None => w
      | Some _ => {| w_devs := change i (add_write data) (w_devs w); w_pc := w_pc w;
                     w_log := w_log w ++ [Wrote i User data] |}
      end
  | ERun i => run_device i w
  | EStep => run_transport w
  | ERecv id data => receive id data w
  | ETimeout => time_out w
  end.

(** _open (994-1021): the devices, none of whose tasks has been run. *)
Definition fresh (ct : controller) : dev :=
  {| d_ct := ct; d_progress := Created; d_mach := start_of session; d_wbuf := [];
     d_emits := 0; d_polls := 0; d_errors := 0; d_skip := 0 |}.
Definition opened (cts : list controller) : win :=
  {| w_devs := map fresh cts; w_pc := AtEmit 0; w_log := [] |}.

Definition wruns (cts : list controller) (es : list wevent) : win := fold_left wstep es (opened cts).
