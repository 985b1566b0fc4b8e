(** What the theorems about AioStream are stated with: histories of calls of
    write, drain and read and of their ends.  Nothing here is about queues,
    threads or futures. *)
From Coq Require Import ZArith List Bool.
From Verif Require Import Aiostream_Model.
Import ListNotations.

(** [a] is [b] with some elements left out. *)
Inductive subseq {A} : list A -> list A -> Prop :=
| subseq_nil : subseq [] []
| subseq_keep : forall x a b, subseq a b -> subseq (x :: a) (x :: b)
| subseq_drop : forall x a b, subseq a b -> subseq a (x :: b).

(** All the bytes given to write. *)
Fixpoint written (h : list wevent) : list Z :=
  match h with
  | [] => []
  | Wrote data :: h => data ++ written h
  | _ :: h => written h
  end.

(** The calls of drain, each with the bytes given to write since the call of
    drain before it. *)
Fixpoint parcels_from (given : list Z) (h : list wevent) : list (nat * list Z) :=
  match h with
  | [] => []
  | Wrote data :: h => parcels_from (given ++ data) h
  | Drain n :: h => (n, given) :: parcels_from [] h
  | Drained _ :: h | DrainCancelled _ :: h => parcels_from given h
  end.

Definition parcels := parcels_from [].

(** fd.write always takes all that it is given. *)
Definition takes_all (l : list waction) : Prop := forall k, ~ In (WRun (Some k)) l.

(** The reads follow one another: each is called after the one before has
    returned, and none is cancelled. *)
Fixpoint in_turn_from (busy : bool) (h : list revent) : bool :=
  match h with
  | [] => true
  | Read _ _ _ :: h => negb busy && in_turn_from true h
  | ReadGives _ _ :: h => in_turn_from false h
  | ReadCancelled _ :: _ => false
  end.

Definition in_turn := in_turn_from false.

(** No read is under way at the end of the history. *)
Fixpoint settled_from (busy : bool) (h : list revent) : bool :=
  match h with
  | [] => negb busy
  | Read _ _ _ :: h => settled_from true h
  | ReadGives _ _ :: h => settled_from false h
  | ReadCancelled _ :: h => settled_from false h
  end.

Definition settled := settled_from false.

(** What the reads returned, one after the other. *)
Fixpoint given (h : list revent) : list Z :=
  match h with
  | [] => []
  | ReadGives _ data :: h => data ++ given h
  | _ :: h => given h
  end.

(** The chunks that went to one call of read. *)
Definition of_call (id : nat) (c : list (nat * list Z)) : list Z :=
  concat (map snd (filter (fun x => Nat.eqb (fst x) id) c)).
