(** Model of the part of tview (/repo/utils/gui/moteus_gui/tview.py) that talks to one
    controller: DeviceStream (485-583) and Device (586-893).  Text is a list of latin1
    character codes, so decode('latin1') and encode('latin1') are the identity. *)
From Coq Require Import Ascii String ZArith List Bool.
From Verif Require Import PyBase PyBytes Flash_Model Reader_Model.
Import ListNotations.
Open Scope Z_scope.

(** tview.py 82 *)
Definition MAX_SEND : nat := 61.

(** ** DeviceStream: reading *)

(** DeviceStream.process_message (517-538): the bytes appended to _read_data, or None if
    the message is not taken. *)
Definition process_message (data : list Z) : option (list Z) :=
  match data with
  | d0 :: d1 :: d2 :: rest =>
      if negb (d0 =? 0x41) then None
      else if negb (d1 =? 1) then None
      else if d2 >? Z.of_nat MAX_SEND then None
      else if d2 >? Z.of_nat (length rest) then None
      else Some (firstn (Z.to_nat d2) rest)
  | _ => None
  end.

(** One turn of the loop of DeviceStream.readline (550-558) with _read_maybe_empty_line
    (540-548): the line returned, or None before an await of the condition, and the new
    _read_data. *)
Definition try_line (buf : list Z) : option (list Z) * list Z :=
  match find_newline buf with
  | None => (None, buf)
  | Some first_newline =>
      let maybe_line := rstrip (firstn (first_newline + 1) buf) in
      let buf := skipn (first_newline + 1) buf in
      if (0 <? length maybe_line)%nat then (Some maybe_line, buf) else (None, buf)
  end.

(** One turn of the loop of DeviceStream.read_sized_block (570-583): the inner option is
    None where the code returns False. *)
Definition try_block (buf : list Z) : option (option (list Z)) * list Z :=
  if (5 <=? length buf)%nat then
    let size := le_value (slice buf 1 5) in
    if size >? 2 ^ 24 then (Some None, buf)
    else
      let total := (5 + Z.to_nat size)%nat in
      if (total <=? length buf)%nat then (Some (Some (slice buf 5 total)), skipn total buf)
      else (None, buf)
  else (None, buf).

(** ** The task of a device *)

(** What the task does besides reading. *)
Inductive note :=
| Sends (data : list Z)                                   (* stream.write (500-501) *)
| Prints (text : list Z)                                  (* _add_text (884-889) *)
| Updating (b : bool)                                     (* _updating_config = b *)
| ShowsConfig (name : list Z) (v : value)                 (* the tree of one element (672-682) *)
| ShowsLine (name rest text : list Z)                     (* one line of conf enumerate (847-882) *)
| AddsChannel (name : list Z) (t : ty)                    (* a record of telemetry (697-701) *)
| ShowsData (name : list Z) (v : value)                   (* a new value of a record (766-774) *)
| Complains.                                              (* "Error reading data" (715-721) *)

(** The task as the tree of what it awaits.  [Stop]: the coroutine ends with an exception. *)
CoInductive task :=
| Line (k : list Z -> task)               (* await self._stream.readline() *)
| Block (k : option (list Z) -> task)     (* await self._stream.read_sized_block() *)
| Resync (k : task)                       (* await self._stream.resynchronize() *)
| Note (n : note) (k : task)
| Stop (e : exn).

(** Device.readline (817-821) *)
Definition readline (k : list Z -> task) : task :=
  Line (fun result =>
    if startswith (lit "emit ") result then k result
    else Note (Prints (result ++ [LF])) (k result)).

(** Device.write_line (891-893) *)
Definition write_line (line : list Z) (k : task) : task := Note (Prints line) (Note (Sends line) k).

Definition CRLF : list Z := [CR; LF].

(** Device.command 836-845 *)
CoFixpoint command_lines (k : list Z -> task) (ke : exn -> task) (result line : list Z) : task :=
  if startswith (lit "ERR") line then ke CommandError
  else if startswith (lit "OK") line then k result
  else Line (fun line' =>
    if startswith (lit "emit ") line' then command_lines k ke (result ++ line ++ [LF]) line'
    else Note (Prints (line' ++ [LF])) (command_lines k ke (result ++ line ++ [LF]) line')).

(** Device.command 829-833 *)
CoFixpoint command_first (k : list Z -> task) : task :=
  readline (fun line =>
    if startswith (lit "emit ") line || startswith (lit "schema ") line then command_first k
    else k line).

(** Device.command (823-845) *)
Definition command (message : list Z) (k : list Z -> task) (ke : exn -> task) : task :=
  write_line (message ++ CRLF) (command_first (fun line => command_lines k ke [] line)).

(** Device.read_schema (735-744, which replaces 724-733) *)
CoFixpoint read_schema (name : list Z) (k : option (list Z) -> task) (ke : exn -> task) : task :=
  readline (fun line =>
    if startswith (lit "ERR") line then ke CommandError
    else if bytes_eqb line (lit "schema " ++ name) || bytes_eqb line (lit "cschema " ++ name) then Block k
    else read_schema name k ke).

(** Device.read_data (746-754) *)
CoFixpoint read_data (name : list Z) (k : option (list Z) -> task) (ke : exn -> task) : task :=
  readline (fun line =>
    if negb (bytes_eqb line (lit "cdata " ++ name)) then read_data name k ke
    else if startswith (lit "ERR") line then ke CommandError
    else Block k).

(** io.BytesIO(x) of what read_sized_block returned *)
Definition bytes_io (x : option (list Z)) : res (list Z) :=
  match x with Some d => Ok d | None => Raise TypeError end.

(** reader.Type.from_binary(io.BytesIO(schema), name=name) *)
Definition archive (name : list Z) (schema : option (list Z)) : res ty :=
  let* d := bytes_io schema in
  let* x := type_from_binary name d in
  Ok (fst x).

(** archive.read(reader.Stream(io.BytesIO(data))) *)
Definition archive_read (t : ty) (data : option (list Z)) : res value :=
  let* d := bytes_io data in
  let* x := read t d in
  Ok (fst x).

(** 665-682.  Filling the tree is not modelled: a value is shown. *)
Fixpoint schema_elements (elements : list (list Z)) (k : task) (ke : exn -> task) : task :=
  match elements with
  | [] => k
  | element :: elements =>
      write_line (lit "conf schema " ++ element ++ CRLF) (
      read_schema element (fun schema =>
      write_line (lit "conf data " ++ element ++ CRLF) (
      read_data element (fun data =>
      match archive element schema with
      | Raise e => ke e
      | Ok t =>
          match archive_read t data with
          | Raise e => ke e
          | Ok v => Note (ShowsConfig element v) (schema_elements elements k ke)
          end
      end) ke)) ke)
  end.

(** [x.strip() for x in text.split('\n') if x.strip() != ''] *)
Definition stripped_lines (text : list Z) : list (list Z) :=
  filter (fun x => negb (length x =? 0)%nat) (map str_strip (split_on LF text)).

(** Device.schema_update_config (661-682) *)
Definition schema_update_config (k : task) (ke : exn -> task) : task :=
  command (lit "conf list") (fun text => schema_elements (stripped_lines text) k ke) ke.

(** s.split(c, 1) unpacked into two names *)
Definition split_once (c : Z) (s : list Z) : res (list Z * list Z) :=
  match bytes_find c s with
  | Some i => Ok (firstn i s, skipn (S i) s)
  | None => Raise ValueError
  end.

(** Device.add_config_line (847-882); the tree items are not modelled. *)
Definition add_config_line (line : list Z) : res note :=
  let* kv := split_once 32 line in
  let* nr := split_once 46 (fst kv) in
  Ok (ShowsLine (fst nr) (snd nr) (snd kv)).

(** text.split('\n') without the blank lines, unstripped (654-656, 690-692) *)
Definition kept_lines (text : list Z) : list (list Z) :=
  filter (fun x => negb (length (str_strip x) =? 0)%nat) (split_on LF text).

Fixpoint config_lines (configs : list (list Z)) (k : task) (ke : exn -> task) : task :=
  match configs with
  | [] => k
  | config :: configs =>
      match add_config_line config with
      | Raise e => ke e
      | Ok n => Note n (config_lines configs k ke)
      end
  end.

(** Device.update_config (634-659) *)
Definition update_config (k : task) (ke : exn -> task) : task :=
  let k := Note (Updating false) k in
  let ke' e := Note (Updating false) (ke e) in
  Note (Updating true)
    (schema_update_config k (fun e =>
      match e with
      | CommandError =>
          command (lit "conf enumerate") (fun text => config_lines (kept_lines text) k ke') ke'
      | _ => ke' e
      end)).

(** Device._telemetry_records: the latest entry first *)
Definition records : Type := list (list Z * ty).

Fixpoint lookup (rs : records) (name : list Z) : option ty :=
  match rs with
  | [] => None
  | (n, t) :: rs => if bytes_eqb n name then Some t else lookup rs name
  end.

(** Device.update_telemetry (685-703) *)
Fixpoint channels (names : list (list Z)) (rs : records) (k : records -> task) (ke : exn -> task) : task :=
  match names with
  | [] => k rs
  | name :: names =>
      write_line (lit "tel schema " ++ name ++ CRLF) (
      read_schema name (fun schema =>
      match archive name schema with
      | Raise e => ke e
      | Ok t =>
          Note (AddsChannel name t) (
          Note (Prints (lit "<schema name=" ++ name ++ lit ">" ++ [LF])) (
          channels names ((name, t) :: rs) k ke))
      end) ke)
  end.

Definition update_telemetry (k : records -> task) (ke : exn -> task) : task :=
  command (lit "tel list") (fun text => channels (kept_lines text) [] k ke) ke.

(** Device.do_data (756-774) inside the try of 713-721 *)
Definition do_data (rs : records) (name : list Z) (k : task) : task :=
  Block (fun data =>
    match data with
    | None | Some [] => k
    | Some data =>
        match lookup rs name with
        | None => k
        | Some t =>
            match archive_read t (Some data) with
            | Raise _ => Note Complains k
            | Ok v => Note (ShowsData name v) k
            end
        end
    end).

(** _has_nonascii (97-98) *)
Definition has_nonascii (s : list Z) : bool := existsb (fun c => c >? 127) s.

(** Device.run (705-721) *)
CoFixpoint run (rs : records) : task :=
  readline (fun line =>
    let rest :=
      if startswith (lit "emit ") line then do_data rs (nth 1 (split_on 32 line) []) (run rs)
      else run rs in
    if has_nonascii line then Resync rest else rest).

(** Device.start (629-632), after the waiting of 619-627. *)
Definition session : task := update_config (update_telemetry run Stop) Stop.

(** ** The task under a schedule *)

(** [Ready]: to go on; [Waiting]: suspended in the wait of the condition; [Woken]: notified
    but not yet run.  The lock of the condition is never held across an await, so taking it
    never suspends. *)
Inductive phase := Ready | Waiting | Woken.

Record mach := {
  m_task : task;
  m_buf : list Z;            (* _read_data *)
  m_phase : phase;
  m_old : nat;               (* oldlen of resynchronize *)
  m_notes : list note;
}.

Inductive event :=
| Msg (data : list Z)        (* process_message is awaited for a message with this data *)
| Run.                       (* the event loop lets the task run *)

(** The task from where it stands to its next note or result of reading.  asyncio lets it
    run to its next suspension, so that its schedules are some of those modelled here. *)
Definition run_once (m : mach) : mach :=
  let set t b p := {| m_task := t; m_buf := b; m_phase := p; m_old := m_old m; m_notes := m_notes m |} in
  match m_task m with
  | Note n k => {| m_task := k; m_buf := m_buf m; m_phase := Ready; m_old := m_old m; m_notes := m_notes m ++ [n] |}
  | Stop e => m
  | Line k =>
      match try_line (m_buf m) with
      | (Some line, buf) => set (k line) buf Ready
      | (None, buf) => set (m_task m) buf Waiting
      end
  | Block k =>
      match try_block (m_buf m) with
      | (Some x, buf) => set (k x) buf Ready
      | (None, buf) => set (m_task m) buf Waiting
      end
  | Resync k =>                                                   (* 560-568 *)
      let wait := {| m_task := m_task m; m_buf := m_buf m; m_phase := Waiting;
                     m_old := length (m_buf m); m_notes := m_notes m |} in
      match m_phase m with
      | Woken =>
          if (length (m_buf m) =? m_old m)%nat then
            {| m_task := k; m_buf := []; m_phase := Ready; m_old := 0; m_notes := m_notes m |}
          else wait
      | _ => wait
      end
  end.

Definition step (m : mach) (e : event) : mach :=
  match e with
  | Msg data =>
      match process_message data with
      | None => m
      | Some bytes =>
          {| m_task := m_task m; m_buf := m_buf m ++ bytes;
             m_phase := match m_phase m with Waiting => Woken | p => p end;
             m_old := m_old m; m_notes := m_notes m |}
      end
  | Run => match m_phase m with Waiting => m | _ => run_once m end
  end.

Definition start_of (t : task) : mach :=
  {| m_task := t; m_buf := []; m_phase := Ready; m_old := 0; m_notes := [] |}.

Definition runs (t : task) (es : list event) : mach := fold_left step es (start_of t).
