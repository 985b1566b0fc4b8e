(** Model of AioStream (/repo/lib/python/moteus/aiostream.py): reading and
    writing through two threads.  Its serial port subclass on Windows
    (win32_aioserial.py 29-56) adds only the opening and closing of the port.

    The event loop and the two threads take turns as a schedule says.  The
    writing half and the reading half of an AioStream have no attribute in
    common but [fd], so each is a machine of its own.  What a thread does under
    its lock is one step: the event loop takes the same lock before it changes
    [skip].  The timeout of q.get (aiostream.py 31-39) only makes the thread look
    again. *)
From Coq Require Import ZArith List Bool.
From Verif Require Import PyBase.
Import ListNotations.

Definition upd {A} (f : nat -> option A) (n : nat) (x : option A) : nat -> option A :=
  fun m => if Nat.eqb m n then x else f m.

(** The future that a call of drain or read awaits.  [Gone]: the task was
    cancelled, so that the await raises CancelledError, be the future pending
    or not. *)
Inductive fut (A : Type) := Pending | Got (v : A) | Gone.
Arguments Pending {A}.
Arguments Got {A} v.
Arguments Gone {A}.

(** ** Writing *)

(** A queued do_write: the number of the call of drain and its write_data. *)
Definition wjob : Type := nat * list Z.

Record wstate := {
  w_buf : list Z;                 (* _write_data *)
  w_queue : list wjob;            (* _write_queue *)
  w_cur : option wjob;            (* taken by the thread, before it has the lock *)
  w_skip : list nat;              (* the calls whose skip[0] is True *)
  w_posts : list nat;             (* _async_set_future on its way to the loop *)
  w_fut : nat -> option (fut unit);
  w_next : nat;                   (* the number of the next call of drain *)
  w_alive : bool;                 (* the thread has not died of an exception *)
  w_fd : list Z                   (* what fd was given *)
}.

(** aiostream.py 43-57 *)
Definition winit : wstate :=
  {| w_buf := []; w_queue := []; w_cur := None; w_skip := []; w_posts := [];
     w_fut := fun _ => None; w_next := 0; w_alive := true; w_fd := [] |}.

Inductive waction :=
| WWrite (data : list Z)          (* a call of write *)
| WDrain                          (* a call of drain, up to its await *)
| WTake                           (* the thread: q.get *)
| WRun (short : option nat)       (* the thread: do_write; [Some k]: fd.write takes only k bytes *)
| WFail                           (* the thread: do_write, where fd.write raises *)
| WDeliver                        (* the loop: _async_set_future *)
| WResume (n : nat)               (* the loop: call n of drain goes on *)
| WCancel (n : nat)               (* its task is cancelled *)
| WUnwind (n : nat).              (* the loop: CancelledError in call n *)

(** What a user sees. *)
Inductive wevent :=
| Wrote (data : list Z)
| Drain (n : nat)
| Drained (n : nat)
| DrainCancelled (n : nat).

Definition in_nat (n : nat) (l : list nat) : bool := existsb (Nat.eqb n) l.

(** One step; None when the schedule asks for what cannot happen. *)
Definition wstep (s : wstate) (a : waction) : option (wstate * list wevent) :=
  match a with
  | WWrite data =>                                       (* aiostream.py 91-92 *)
      Some ({| w_buf := w_buf s ++ data; w_queue := w_queue s; w_cur := w_cur s; w_skip := w_skip s;
               w_posts := w_posts s; w_fut := w_fut s; w_next := w_next s; w_alive := w_alive s;
               w_fd := w_fd s |}, [Wrote data])
  | WDrain =>                                            (* aiostream.py 94-109 *)
      Some ({| w_buf := []; w_queue := w_queue s ++ [(w_next s, w_buf s)]; w_cur := w_cur s;
               w_skip := w_skip s; w_posts := w_posts s;
               w_fut := upd (w_fut s) (w_next s) (Some Pending); w_next := S (w_next s);
               w_alive := w_alive s; w_fd := w_fd s |}, [Drain (w_next s)])
  | WTake =>                                             (* aiostream.py 31-37, 118-119 *)
      match w_queue s, w_cur s, w_alive s with
      | j :: q, None, true =>
          Some ({| w_buf := w_buf s; w_queue := q; w_cur := Some j; w_skip := w_skip s;
                   w_posts := w_posts s; w_fut := w_fut s; w_next := w_next s; w_alive := true;
                   w_fd := w_fd s |}, [])
      | _, _, _ => None
      end
  | WRun short =>                                        (* aiostream.py 100-105 *)
      match w_cur s with
      | None => None
      | Some (n, data) =>
          let skip := in_nat n (w_skip s) in
          Some ({| w_buf := w_buf s; w_queue := w_queue s; w_cur := None; w_skip := w_skip s;
                   w_posts := if skip then w_posts s else w_posts s ++ [n];
                   w_fut := w_fut s; w_next := w_next s; w_alive := w_alive s;
                   w_fd := if skip then w_fd s
                           else w_fd s ++ match short with Some k => firstn k data | None => data end |}, [])
      end
  | WFail =>                                             (* aiostream.py 104, and nothing catches it in 31-39 *)
      match w_cur s with
      | None => None
      | Some (n, data) =>
          if in_nat n (w_skip s) then None
          else
            Some ({| w_buf := w_buf s; w_queue := w_queue s; w_cur := None; w_skip := w_skip s;
                     w_posts := w_posts s; w_fut := w_fut s; w_next := w_next s; w_alive := false;
                     w_fd := w_fd s |}, [])
      end
  | WDeliver =>                                          (* aiostream.py 24-28 *)
      match w_posts s with
      | [] => None
      | n :: posts =>
          Some ({| w_buf := w_buf s; w_queue := w_queue s; w_cur := w_cur s; w_skip := w_skip s;
                   w_posts := posts;
                   w_fut := match w_fut s n with
                            | Some Pending => upd (w_fut s) n (Some (Got tt))
                            | _ => w_fut s
                            end;
                   w_next := w_next s; w_alive := w_alive s; w_fd := w_fd s |}, [])
      end
  | WResume n =>                                         (* aiostream.py 109 *)
      match w_fut s n with
      | Some (Got _) =>
          Some ({| w_buf := w_buf s; w_queue := w_queue s; w_cur := w_cur s; w_skip := w_skip s;
                   w_posts := w_posts s; w_fut := upd (w_fut s) n None; w_next := w_next s;
                   w_alive := w_alive s; w_fd := w_fd s |}, [Drained n])
      | _ => None
      end
  | WCancel n =>
      match w_fut s n with
      | Some _ =>
          Some ({| w_buf := w_buf s; w_queue := w_queue s; w_cur := w_cur s; w_skip := w_skip s;
                   w_posts := w_posts s; w_fut := upd (w_fut s) n (Some Gone); w_next := w_next s;
                   w_alive := w_alive s; w_fd := w_fd s |}, [])
      | None => None
      end
  | WUnwind n =>                                         (* aiostream.py 110-113 *)
      match w_fut s n with
      | Some Gone =>
          Some ({| w_buf := w_buf s; w_queue := w_queue s; w_cur := w_cur s; w_skip := n :: w_skip s;
                   w_posts := w_posts s; w_fut := upd (w_fut s) n None; w_next := w_next s;
                   w_alive := w_alive s; w_fd := w_fd s |}, [DrainCancelled n])
      | _ => None
      end
  end.

(** A schedule, and what was seen. *)
Fixpoint wrun (s : wstate) (l : list waction) : option (wstate * list wevent) :=
  match l with
  | [] => Some (s, [])
  | a :: l =>
      match wstep s a with
      | None => None
      | Some (s, h) =>
          match wrun s l with
          | None => None
          | Some (s, h') => Some (s, h ++ h')
          end
      end
  end.

(** ** Reading *)

(** A call of read: its number, size, block, remaining and
    accumulated_result. *)
Record rop := { o_id : nat; o_size : nat; o_block : bool; o_left : nat; o_acc : list Z }.

(** A queued do_read: its own number, the call of read it is of, and its
    remaining. *)
Record rjob := { j_no : nat; j_op : nat; j_left : nat }.

Record rstate := {
  r_queue : list rjob;                              (* _read_queue *)
  r_cur : option rjob;
  r_skip : list nat;                                (* the do_reads whose skip[0] is True *)
  r_posts : list (nat * list Z);
  r_wait : nat -> option (rop * fut (list Z));      (* who awaits which do_read *)
  r_jobs : nat;                                     (* the next number of a do_read *)
  r_ops : nat;                                      (* the next number of a call *)
  r_alive : bool;
  r_fd : list Z                                     (* what fd has given *)
}.

(** aiostream.py 43-57 *)
Definition rinit : rstate :=
  {| r_queue := []; r_cur := None; r_skip := []; r_posts := []; r_wait := fun _ => None;
     r_jobs := 0; r_ops := 0; r_alive := true; r_fd := [] |}.

Inductive raction :=
| RRead (size : nat) (block : bool)   (* a call of read, up to its await *)
| RTake
| RRun (chunk : list Z)               (* the thread: do_read, where fd.read gives this *)
| RFail
| RDeliver
| RResume (n : nat)
| RCancel (n : nat)
| RUnwind (n : nat).

Inductive revent :=
| Read (id size : nat) (block : bool)
| ReadGives (id : nat) (data : list Z)
| ReadCancelled (id : nat).

(** A turn of the loop of read up to its await (aiostream.py 64-79) *)
Definition start_round (s : rstate) (o : rop) : rstate :=
  {| r_queue := r_queue s ++ [{| j_no := r_jobs s; j_op := o_id o; j_left := o_left o |}];
     r_cur := r_cur s; r_skip := r_skip s; r_posts := r_posts s;
     r_wait := upd (r_wait s) (r_jobs s) (Some (o, Pending)); r_jobs := S (r_jobs s);
     r_ops := r_ops s; r_alive := r_alive s; r_fd := r_fd s |}.

Definition set_wait (s : rstate) (n : nat) (x : option (rop * fut (list Z))) : rstate :=
  {| r_queue := r_queue s; r_cur := r_cur s; r_skip := r_skip s; r_posts := r_posts s;
     r_wait := upd (r_wait s) n x; r_jobs := r_jobs s; r_ops := r_ops s; r_alive := r_alive s;
     r_fd := r_fd s |}.

Definition rstep (s : rstate) (a : raction) : option (rstate * list revent) :=
  match a with
  | RRead size block =>                                  (* aiostream.py 59-79 *)
      let o := {| o_id := r_ops s; o_size := size; o_block := block; o_left := size; o_acc := [] |} in
      Some (start_round
              {| r_queue := r_queue s; r_cur := r_cur s; r_skip := r_skip s; r_posts := r_posts s;
                 r_wait := r_wait s; r_jobs := r_jobs s; r_ops := S (r_ops s); r_alive := r_alive s;
                 r_fd := r_fd s |} o,
            [Read (r_ops s) size block])
  | RTake =>                                             (* aiostream.py 31-37, 115-116 *)
      match r_queue s, r_cur s, r_alive s with
      | j :: q, None, true =>
          Some ({| r_queue := q; r_cur := Some j; r_skip := r_skip s; r_posts := r_posts s;
                   r_wait := r_wait s; r_jobs := r_jobs s; r_ops := r_ops s; r_alive := true;
                   r_fd := r_fd s |}, [])
      | _, _, _ => None
      end
  | RRun chunk =>                                        (* aiostream.py 68-75 *)
      match r_cur s with
      | None => None
      | Some j =>
          if in_nat (j_no j) (r_skip s) then
            Some ({| r_queue := r_queue s; r_cur := None; r_skip := r_skip s; r_posts := r_posts s;
                     r_wait := r_wait s; r_jobs := r_jobs s; r_ops := r_ops s; r_alive := r_alive s;
                     r_fd := r_fd s |}, [])
          else if (length chunk <=? j_left j)%nat then
            Some ({| r_queue := r_queue s; r_cur := None; r_skip := r_skip s;
                     r_posts := r_posts s ++ [(j_no j, chunk)];
                     r_wait := r_wait s; r_jobs := r_jobs s; r_ops := r_ops s; r_alive := r_alive s;
                     r_fd := r_fd s ++ chunk |}, [])
          else None
      end
  | RFail =>                                             (* aiostream.py 74 raises *)
      match r_cur s with
      | None => None
      | Some j =>
          if in_nat (j_no j) (r_skip s) then None
          else
            Some ({| r_queue := r_queue s; r_cur := None; r_skip := r_skip s; r_posts := r_posts s;
                     r_wait := r_wait s; r_jobs := r_jobs s; r_ops := r_ops s; r_alive := false;
                     r_fd := r_fd s |}, [])
      end
  | RDeliver =>                                          (* aiostream.py 24-28 *)
      match r_posts s with
      | [] => None
      | (n, v) :: posts =>
          Some ({| r_queue := r_queue s; r_cur := r_cur s; r_skip := r_skip s; r_posts := posts;
                   r_wait := match r_wait s n with
                             | Some (o, Pending) => upd (r_wait s) n (Some (o, Got v))
                             | _ => r_wait s
                             end;
                   r_jobs := r_jobs s; r_ops := r_ops s; r_alive := r_alive s; r_fd := r_fd s |}, [])
      end
  | RResume n =>                                         (* aiostream.py 79, 86-89 *)
      match r_wait s n with
      | Some (o, Got this_round) =>
          let acc := o_acc o ++ this_round in
          let left := (o_left o - length this_round)%nat in
          let s := set_wait s n None in
          if negb (o_block o) || (left =? 0)%nat then Some (s, [ReadGives (o_id o) acc])
          else Some (start_round s {| o_id := o_id o; o_size := o_size o; o_block := o_block o;
                                      o_left := left; o_acc := acc |}, [])
      | _ => None
      end
  | RCancel n =>
      match r_wait s n with
      | Some (o, _) => Some (set_wait s n (Some (o, Gone)), [])
      | None => None
      end
  | RUnwind n =>                                         (* aiostream.py 80-84 *)
      match r_wait s n with
      | Some (o, Gone) =>
          let s := set_wait s n None in
          Some ({| r_queue := r_queue s; r_cur := r_cur s; r_skip := n :: r_skip s; r_posts := r_posts s;
                   r_wait := r_wait s; r_jobs := r_jobs s; r_ops := r_ops s; r_alive := r_alive s;
                   r_fd := r_fd s |}, [ReadCancelled (o_id o)])
      | _ => None
      end
  end.

Fixpoint rrun (s : rstate) (l : list raction) : option (rstate * list revent) :=
  match l with
  | [] => Some (s, [])
  | a :: l =>
      match rstep s a with
      | None => None
      | Some (s, h) =>
          match rrun s l with
          | None => None
          | Some (s, h') => Some (s, h ++ h')
          end
      end
  end.
