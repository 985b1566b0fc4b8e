(** Models of Router (/repo/lib/python/moteus/router.py) and of PythonCan
    (/repo/lib/python/moteus/pythoncan.py). *)
From Coq Require Import String ZArith List Bool.
From Verif Require Import PyBase Ctrl_Model Async Fdcanusb_Model.
Import ListNotations.
Open Scope Z_scope.

(** ** Router *)
Section Router.
Context {T R : Type}.        (* transports, results *)

(** What is awaited: asyncio.gather over target.cycle(commands) (router.py
    41-42).  Its result is the list of the results in the order of the calls. *)
Inductive router_req := Gather (calls : list (T * list command)).

(** x.destination in these_ids (router.py 37) *)
Definition id_in (ids : list Z) (c : command) : bool :=
  existsb (Z.eqb (cmd_destination c)) ids.

(** router.py 36-40 *)
Definition router_arguments (destinations : list (T * list Z)) (commands : list command)
  : list (T * list command) :=
  filter (fun x => negb (Nat.eqb (List.length (snd x)) 0))
    (map (fun d => (fst d, filter (id_in (snd d)) commands)) destinations).

(** router.py 35-43 cycle; sum(results, []) concatenates. *)
Definition router_cycle (destinations : list (T * list Z)) (commands : list command)
  : prog unit router_req (list (list R)) (list R) :=
  do results <- await (Gather (router_arguments destinations commands));
  Ret (List.concat results).

(** The attributes of a command.Command (command.py 16-30). *)
Definition command_attributes : list string :=
  ["destination"; "source"; "reply_required"; "data"; "can_prefix"; "expected_reply_size";
   "raw"; "arbitration_id"; "bus"; "parse"]%string.
(** The public methods of a Python list. *)
Definition list_attributes : list string :=
  ["append"; "clear"; "copy"; "count"; "extend"; "index"; "insert"; "pop"; "remove"; "reverse";
   "sort"]%string.

Definition get_attribute {A} (attributes : list string) (name : string) (value : A) : res A :=
  if existsb (String.eqb name) attributes then Ok value else Raise AttributeError.

(** router.py 45-46 write: self._id_map[command.id].write(command).  The
    result: the transport the command is written to. *)
Definition router_write (destinations : list (T * list Z)) (c : command) : res (option T) :=
  let* id := get_attribute command_attributes "id" (cmd_destination c) in
  match find (fun d => existsb (Z.eqb id) (snd d)) (rev destinations) with
  | Some d => Ok (Some (fst d))
  | None => Raise KeyError
  end.

(** router.py 48-60 read: its first line, self._destinations.keys() on the
    list given to the constructor.  The result would be the targets. *)
Definition router_read (destinations : list (T * list Z)) : res (list T) :=
  get_attribute list_attributes "keys" (map fst destinations).
End Router.

(** ** PythonCan *)

(** can.Message as constructed in pythoncan.py 107-112. *)
Record can_frame := {
  fr_arbitration_id : Z; fr_is_extended_id : bool; fr_dlc : Z; fr_data : list Z;
  fr_is_fd : bool; fr_bitrate_switch : bool
}.

(** pythoncan.py 100-112; _round_up_dlc (120-137) is the same function as in
    fdcanusb.py 210-227. *)
Definition can_message (disable_brs : bool) (c : command) : can_frame :=
  let arbitration_id :=
    Z.lor (Z.lor (cmd_destination c) (if cmd_reply_required c then 0x8000 else 0))
          (Z.shiftl (cmd_can_prefix c) 16) in
  let size := Z.of_nat (List.length (cmd_data c)) in
  let on_wire_size := round_up_dlc size in
  {| fr_arbitration_id := arbitration_id;
     fr_is_extended_id := 0x7ff <=? arbitration_id;
     fr_dlc := on_wire_size;
     fr_data := cmd_data c ++ repeat 0x50 (Z.to_nat (on_wire_size - size));
     fr_is_fd := true;
     fr_bitrate_switch := negb disable_brs |}.

Section Python_can.
Context {V : Type}.
Variable disable_brs : bool.

(** What is awaited: the next message of the AsyncBufferedReader.  The state is
    the list of the frames sent: can.Bus.send is an ordinary call. *)
Inductive preq := GetMessage.
Notation PC := (prog (list can_frame) preq message).

(** pythoncan.py 99-114 write *)
Definition pc_write (c : command) : PC unit :=
  Get (fun sent => Put (sent ++ [can_message disable_brs c]) (Ret tt)).

(** pythoncan.py 85-97 _do_command *)
Definition pc_do_command (c : @can_command V) : PC (option V) :=
  do _ <- pc_write (cc c);
  if negb (cmd_reply_required (cc c)) then Ret None
  else
    do reply <- await GetMessage;
    do v <- lift (cc_parse c reply);
    Ret (Some v).

(** pythoncan.py 74-83 cycle: None results are left out. *)
Fixpoint pc_cycle (cs : list (@can_command V)) : PC (list V) :=
  match cs with
  | [] => Ret []
  | c :: cs =>
      do reply <- pc_do_command c;
      do result <- pc_cycle cs;
      Ret (match reply with Some v => v :: result | None => result end)
  end.

(** pythoncan.py 116-118 read *)
Definition pc_read : PC message := await GetMessage.
End Python_can.
