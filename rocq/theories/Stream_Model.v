(** Model of [Stream], the file-like view of the diagnostic channel
    (/repo/lib/python/moteus/moteus.py 1436-1584). *)
From Coq Require Import Ascii String ZArith List Bool.
From Verif Require Import PyBase PyBytes Async.
Import ListNotations.
Open Scope Z_scope.

Section Stream.
(** The telemetry reader (moteus/reader.py): schema decoder and data
    decoder.  [T] is a decoded schema, [V] a decoded value. *)
Context {T V : Type}.
Variable from_binary : list Z -> res T.
Variable read_value : T -> list Z -> res V.
(** self.channel (moteus.py 1443) *)
Variable channel : Z.

(** The attributes (moteus.py 1446-1449); the lock is part of [Async]. *)
Record sst := {
  s_read : list Z;                       (* _read_data *)
  s_write : list Z;                      (* _write_data *)
  s_readers : list (list Z * T);         (* _readers *)
  s_written : list Z     (* history: everything passed to write() so far;
                            only [stream_write] changes it, nothing reads it *)
}.

(** What a Stream awaits: Controller.send_diagnostic_write,
    Controller.diagnostic_read, asyncio.sleep(0.01) and
    Controller.flush_transport. *)
Inductive sreq :=
| DiagWrite (data : list Z) (channel : Z)
| DiagRead (max_length : Z) (channel : Z)
| SleepReq
| FlushTransport.

(** The result of diagnostic_read: the [data] of each DiagnosticResult
    ([None] when the reply did not parse).  The other requests' results are
    not looked at. *)
Definition srep := list (option (list Z)).

Notation P := (prog sst sreq srep).

(** b''.join(x.data for x in these_results if x.data)
    (moteus.py 1471, 1503) *)
Definition joined (rs : srep) : list Z :=
  List.concat (map (fun x => match x with Some d => d | None => [] end) rs).

Definition set_read (s : sst) (d : list Z) : sst :=
  {| s_read := d; s_write := s_write s; s_readers := s_readers s;
     s_written := s_written s |}.
Definition set_write (s : sst) (d : list Z) : sst :=
  {| s_read := s_read s; s_write := d; s_readers := s_readers s;
     s_written := s_written s |}.

(** Stream.write (moteus.py 1451-1452) *)
Definition stream_write (data : list Z) (s : sst) : sst :=
  {| s_read := s_read s; s_write := s_write s ++ data;
     s_readers := s_readers s; s_written := s_written s ++ data |}.

(** A Stream as constructed (moteus.py 1440-1449) *)
Definition stream_init : sst :=
  {| s_read := []; s_write := []; s_readers := []; s_written := [] |}.

(** Stream.drain (moteus.py 1454-1460) *)
Definition drain : P unit :=
  Loop (fun _ : unit =>
    Get (fun s =>
      if (0 <? length (s_write s))%nat then
        let to_write := firstn 61 (s_write s) in
        Put (set_write s (skipn 61 (s_write s)))
          (do _ <- with_lock (await (DiagWrite to_write channel));
           Ret (inl tt))
      else Ret (inr tt)))
    tt Ret.

(** Controller.diagnostic_read (moteus.py 1338-1340) as the Stream calls it,
    with the length as positional argument: only keyword arguments are
    passed on, so make_diagnostic_read uses its default length, 48
    (moteus.py 1323). *)
Definition diagnostic_read (max_length : Z) : sreq := DiagRead 48 channel.

(** The body shared by the two loops that fetch more data (moteus.py
    1465-1477 and 1499-1508): ask for [max_length] bytes, append what came,
    sleep if nothing did. *)
Definition fetch {B} (max_length : Z) : P (unit + B) :=
  do these_results <- with_lock (await (diagnostic_read max_length));
  let this_data := joined these_results in
  Get (fun s =>
    Put (set_read s (s_read s ++ this_data))
      (if (length this_data =? 0)%nat then
         do _ <- await SleepReq; Ret (inl tt)
       else Ret (inl tt))).

(** Stream.read (moteus.py 1462-1480).  Modelled for size >= 0. *)
Definition stream_read (size : nat) (block : bool) : P (list Z) :=
  Loop (fun _ : unit =>
    Get (fun s =>
      if ((block && (length (s_read s) <? size)%nat)
          || (length (s_read s) =? 0)%nat)%bool then
        fetch (Z.min 61 (Z.of_nat size - Z.of_nat (length (s_read s))))
      else Ret (inr tt)))
    tt
    (fun _ =>
       Get (fun s =>
         Put (set_read s (skipn size (s_read s)))
           (Ret (firstn size (s_read s))))).

(** Stream._read_maybe_empty_line (moteus.py 1497-1515) *)
Definition read_maybe_empty_line : P (list Z) :=
  Loop (fun _ : unit =>
    Get (fun s =>
      match bytes_find LF (s_read s), bytes_find CR (s_read s) with
      | None, None => fetch 61
      | _, _ => Ret (inr tt)
      end))
    tt
    (fun _ =>
       Get (fun s =>
         match find_newline (s_read s) with
         | Some first_newline =>
             Put (set_read s (skipn (first_newline + 1) (s_read s)))
               (Ret (firstn (first_newline + 1) (s_read s)))
         | None => Throw TypeError        (* None + 1 *)
         end)).

(** Stream.readline (moteus.py 1517-1523; printing is left out) *)
Definition readline : P (list Z) :=
  Loop (fun _ : unit =>
    do raw <- read_maybe_empty_line;
    let line := rstrip raw in
    if (0 <? length line)%nat then Ret (inr line) else Ret (inl tt))
    tt Ret.

(** Stream.read_until_OK (moteus.py 1525-1533); the text of the
    CommandError is left out. *)
Definition read_until_OK : P (list Z) :=
  Loop (fun result : list Z =>
    do line <- readline;
    if startswith (lit "OK") line then Ret (inr result)
    else if startswith (lit "ERR") line then Throw CommandError
    else Ret (inl (result ++ line ++ [LF])))
    [] Ret.

(** Stream.write_message (moteus.py 1544-1549) *)
Definition write_message (data : list Z) : P unit :=
  Get (fun s => Put (stream_write (data ++ [LF]) s) drain).

(** Stream.command (moteus.py 1535-1542) *)
Definition command (data : list Z) (allow_any_response : bool) : P (list Z) :=
  do _ <- write_message data;
  if allow_any_response then readline else read_until_OK.

(** Stream.read_binary_blob (moteus.py 1551-1556) *)
Definition read_binary_blob : P (list Z) :=
  do size_bytes <- stream_read 5 true;
  match size_bytes with
  | b0 :: rest =>
      if b0 =? 0x0a then
        if (length rest =? 4)%nat
        then stream_read (Z.to_nat (le_value rest)) true
        else Throw StructError
      else Throw RuntimeError
  | [] => Throw IndexError
  end.

(** Stream.flush_read (moteus.py 1482-1495).  asyncio.wait_for cancels the
    coroutine it runs when the time is up: the timeout is the arrival of
    CancelledError at one of its awaits. *)
Definition flush_read : P unit :=
  Get (fun s => Put (set_read s [])
    (do r <- catch (stream_read (Z.to_nat 65536) true);
     match r with
     | Ok _ => Throw RuntimeError
     | Raise CancelledError =>
         Get (fun s => Put (set_read s [])
           (do _ <- await FlushTransport; Ret tt))
     | Raise e => Throw e
     end)).

Fixpoint lookup_reader (l : list (list Z * T)) (name : list Z) : option T :=
  match l with
  | [] => None
  | (n, t) :: l => if bytes_eqb n name then Some t else lookup_reader l name
  end.

(** Stream.read_data (moteus.py 1558-1584).  [name] is the latin1 text. *)
Definition read_data (name : list Z) : P V :=
  do _ <- Get (fun s =>
    match lookup_reader (s_readers s) name with
    | Some _ => Ret tt
    | None =>
        do _ <- write_message (lit "tel schema " ++ name);
        do announce <- readline;
        if bytes_eqb announce (lit "schema " ++ name) then
          do schema <- read_binary_blob;
          do t <- lift (from_binary schema);
          Get (fun s => Put {| s_read := s_read s; s_write := s_write s;
                               s_readers := (name, t) :: s_readers s;
                               s_written := s_written s |}
            (do _ <- command (lit "tel fmt " ++ name ++ lit " 0") false;
             Ret tt))
        else Throw RuntimeError
    end);
  Get (fun s =>
    match lookup_reader (s_readers s) name with
    | None => Throw KeyError
    | Some reader =>
        do _ <- write_message (lit "tel get " ++ name);
        do announce <- readline;
        if bytes_eqb announce (lit "emit " ++ name) then
          do data <- read_binary_blob;
          lift (read_value reader data)
        else Throw RuntimeError
    end).

End Stream.
