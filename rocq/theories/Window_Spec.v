(** Specification for C67: what the loop of tview should do for each device. *)
From Coq Require Import ZArith List Bool.
From Verif Require Import PyBase Ctrl_Model Tview_Model Window_Model.
Import ListNotations.
Open Scope Z_scope.

(** Reading the log of what happens, for device [i]. *)
Definition written (i : nat) (log : list entry) : list (list Z) :=
  flat_map (fun e => match e with Wrote j _ data => if (j =? i)%nat then [data] else [] | _ => [] end) log.
Definition user_written (i : nat) (log : list entry) : list (list Z) :=
  flat_map (fun e => match e with Wrote j User data => if (j =? i)%nat then [data] else [] | _ => [] end) log.
Definition task_written (i : nat) (log : list entry) : list (list Z) :=
  flat_map (fun e => match e with Wrote j Task data => if (j =? i)%nat then [data] else [] | _ => [] end) log.
Definition frames (i : nat) (log : list entry) : list Ctrl_Model.command :=
  flat_map (fun e => match e with Frame j c => if (j =? i)%nat then [c] else [] | _ => [] end) log.
(** The bytes a frame brings to stream 1 of a controller. *)
Definition payload (c : Ctrl_Model.command) : list Z :=
  match cmd_data c with
  | 0x40 :: 1 :: n :: data => firstn (Z.to_nat n) data
  | _ => []
  end.
Definition bytes_sent (i : nat) (log : list entry) : list Z := concat (map payload (frames i log)).
Definition passes (log : list entry) : nat :=
  length (filter (fun e => match e with Pass => true | _ => false end) log).
Definition begun (i : nat) (log : list entry) : bool :=
  existsb (fun e => match e with Begun j => (j =? i)%nat | _ => false end) log.

(** What the user did to device [i]. *)
Definition user_events (i : nat) (es : list wevent) : list (list Z) :=
  flat_map (fun e => match e with EUser j data => if (j =? i)%nat then [data] else [] | _ => [] end) es.

(** *** Turns *)

(** In a pass a device is asked, and answers or not, or is left out. *)
Inductive turn := Ask | Skip.
Definition turn_dec : forall a b : turn, {a = b} + {a <> b}. Proof. decide equality. Defined.
Definition turns_of (i : nat) (log : list entry) : list turn :=
  flat_map (fun e => match e with
                     | Asked j _ => if (j =? i)%nat then [Ask] else []
                     | Skipped j => if (j =? i)%nat then [Skip] else []
                     | _ => [] end) log.
(** Whether it answered when it was asked. *)
Definition outcomes (i : nat) (log : list entry) : list bool :=
  flat_map (fun e => match e with
                     | Answered j => if (j =? i)%nat then [true] else []
                     | TimedOut j => if (j =? i)%nat then [false] else []
                     | _ => [] end) log.

(** After the [n]th timeout in a row it is left out [n] times, but never more than 1000 times;
    after an answer not at all. *)
Fixpoint schedule (failures : nat) (answered : list bool) : list turn :=
  match answered with
  | [] => []
  | true :: l => Ask :: schedule 0 l
  | false :: l => Ask :: repeat Skip (Nat.min 1000 (S failures)) ++ schedule (S failures) l
  end.

(** The devices whose turn it was, in order. *)
Definition order (log : list entry) : list nat :=
  flat_map (fun e => match e with Asked j _ | Skipped j => [j] | _ => [] end) log.

(** *** Messages *)

(** The controller with number [n] sends with [n] in bits 8 to 15 of the identifier. *)
Definition sent_byb (n id : Z) : bool := (id / 256) mod 256 =? n.

(** What the task of device [i], which has the number [n], sees: its messages and its runs. *)
Fixpoint seen_by (i : nat) (n : Z) (log : list entry) : list event :=
  match log with
  | [] => []
  | Ran j :: log => if (j =? i)%nat then Run :: seen_by i n log else seen_by i n log
  | Received id data :: log => if sent_byb n id then Msg data :: seen_by i n log else seen_by i n log
  | _ :: log => seen_by i n log
  end.
(** The same from its beginning on. *)
Fixpoint history (i : nat) (n : Z) (log : list entry) : list event :=
  match log with
  | [] => []
  | Begun j :: log => if (j =? i)%nat then seen_by i n log else history i n log
  | _ :: log => history i n log
  end.
