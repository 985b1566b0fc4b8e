(** The methods of Python's [bytes] the code uses. *)
From Coq Require Import Ascii String ZArith List Bool.
From Verif Require Import PyBase.
Import ListNotations.
Open Scope Z_scope.

(** A bytes literal b'...'. *)
Fixpoint lit (s : string) : list Z :=
  match s with
  | EmptyString => []
  | String c s => Z.of_nat (nat_of_ascii c) :: lit s
  end.

Definition CR : Z := 13.
Definition LF : Z := 10.

(** bytes.find(c) for one byte: None for -1. *)
Fixpoint bytes_find (c : Z) (l : list Z) : option nat :=
  match l with
  | [] => None
  | b :: l => if b =? c then Some 0%nat else option_map S (bytes_find c l)
  end.

(** min((data.find(c) for c in b'\r\n' if c in data), default=None)
    (moteus.py 1507-1508, fdcanusb.py 81-82) *)
Definition find_newline (l : list Z) : option nat :=
  match bytes_find CR l, bytes_find LF l with
  | Some i, Some j => Some (min i j)
  | Some i, None => Some i
  | None, x => x
  end.

(** The whitespace bytes.rstrip() and bytes.split() remove. *)
Definition is_space (b : Z) : bool :=
  ((9 <=? b) && (b <=? 13)) || (b =? 32).

Fixpoint drop_space (l : list Z) : list Z :=
  match l with
  | b :: l' => if is_space b then drop_space l' else l
  | [] => []
  end.

(** bytes.rstrip() *)
Definition rstrip (l : list Z) : list Z := rev (drop_space (rev l)).

(** bytes.startswith *)
Fixpoint startswith (p l : list Z) : bool :=
  match p, l with
  | [], _ => true
  | a :: p, b :: l => (a =? b) && startswith p l
  | _ :: _, [] => false
  end.

(** bytes.split(sep) for one separator byte: never empty. *)
Fixpoint split_on (sep : Z) (l : list Z) : list (list Z) :=
  match l with
  | [] => [[]]
  | b :: l =>
      if b =? sep then [] :: split_on sep l
      else match split_on sep l with
           | w :: ws => (b :: w) :: ws
           | [] => [[b]]
           end
  end.

Fixpoint bytes_eqb (a b : list Z) : bool :=
  match a, b with
  | [], [] => true
  | x :: a, y :: b => (x =? y) && bytes_eqb a b
  | _, _ => false
  end.
