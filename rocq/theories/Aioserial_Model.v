(** Model of AioSerial (/repo/lib/python/moteus/posix_aioserial.py), over
    asyncio.Event (Python's Lib/asyncio/locks.py). *)
From Coq Require Import ZArith List Bool.
From Verif Require Import PyBase Async.
Import ListNotations.
Open Scope Z_scope.

(** The attributes (posix_aioserial.py 47-51).  [as_flag] and [as_futures] are
    _read_event: its flag, and for each future a wait() created, whether it is
    resolved.  [as_sent] is what serial.write passed to the device. *)
Record aio := {
  as_read : list Z;
  as_write : list Z;
  as_flag : bool;
  as_futures : list bool;
  as_sent : list Z
}.
Definition aio0 : aio :=
  {| as_read := []; as_write := []; as_flag := false; as_futures := []; as_sent := [] |}.

(** Awaiting the future with that number. *)
Inductive areq := Future (i : nat).

Definition set_flag (b : bool) (fs : list bool) (s : aio) : aio :=
  {| as_read := as_read s; as_write := as_write s; as_flag := b; as_futures := fs;
     as_sent := as_sent s |}.
Definition set_read (d : list Z) (s : aio) : aio :=
  {| as_read := d; as_write := as_write s; as_flag := as_flag s; as_futures := as_futures s;
     as_sent := as_sent s |}.

(** asyncio.Event.set: wakes every waiter, once per change of the flag.
    Simplification: futures of waiters that are gone are resolved too, which
    nobody can see. *)
Definition event_set (s : aio) : aio :=
  if as_flag s then s else set_flag true (map (fun _ => true) (as_futures s)) s.

(** asyncio.Event.wait *)
Definition event_wait : prog aio areq unit unit :=
  Get (fun s =>
    if as_flag s then Ret tt
    else Put (set_flag false (as_futures s ++ [false]) s)
           (await (Future (List.length (as_futures s))))).

(** asyncio.Event.clear *)
Definition event_clear : prog aio areq unit unit :=
  Get (fun s => Put (set_flag false (as_futures s) s) (Ret tt)).

(** posix_aioserial.py 77-79: while len(self._read_data) == 0 *)
Definition wait_body (_ : unit) : prog aio areq unit (unit + unit) :=
  Get (fun s =>
    match as_read s with
    | [] => do _ <- event_wait; do _ <- event_clear; Ret (inl tt)
    | _ :: _ => Ret (inr tt)
    end).

(** posix_aioserial.py 81-89 *)
Definition take (size : Z) (block : bool) (result : list Z)
  : prog aio areq unit (list Z + list Z) :=
  Get (fun s =>
    let read_size := Z.min (size - Z.of_nat (List.length result))
                           (Z.of_nat (List.length (as_read s))) in
    if read_size >? 0 then
      let n := Z.to_nat read_size in
      let result := result ++ firstn n (as_read s) in
      Put (set_read (skipn n (as_read s)) s)
        (if negb block || (Z.of_nat (List.length result) =? size)
         then Ret (inr result) else Ret (inl result))
    else Throw AssertionError).

(** posix_aioserial.py 76-89: one turn of while True *)
Definition read_body (size : Z) (block : bool) (result : list Z)
  : prog aio areq unit (list Z + list Z) :=
  Loop wait_body tt (fun _ => take size block result).

(** posix_aioserial.py 73-89 read *)
Definition aio_read (size : Z) (block : bool) : prog aio areq unit (list Z) :=
  Loop (read_body size block) [] Ret.

(** posix_aioserial.py 91-92 write *)
Definition aio_write (data : list Z) (s : aio) : aio :=
  {| as_read := as_read s; as_write := as_write s ++ data; as_flag := as_flag s;
     as_futures := as_futures s; as_sent := as_sent s |}.

(** posix_aioserial.py 94-96 drain.  [err] is what serial.write does: it writes
    everything, or [Some (n, e)]: raises [e] having written [n] bytes. *)
Definition aio_drain (err : option (nat * exn)) (s : aio) : res unit * aio :=
  let to_write := as_write s in
  let written := match err with None => to_write | Some (n, _) => firstn n to_write end in
  (match err with None => Ok tt | Some (_, e) => Raise e end,
   {| as_read := as_read s; as_write := []; as_flag := as_flag s; as_futures := as_futures s;
      as_sent := as_sent s ++ written |}).

(** posix_aioserial.py 98-100 _handle_read, [d] being what serial.read(8192)
    returned. *)
Definition handle_read (d : list Z) (s : aio) : aio :=
  event_set (set_read (as_read s ++ d) s).
