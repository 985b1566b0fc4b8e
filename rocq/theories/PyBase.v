(** Python values used by every model file.

    [int] is [Z], [bytes] is [list Z] (every element in [0,256), see
    [bytes_ok]), an exception is a value of [res]. *)
From Coq Require Import ZArith List Bool.
Import ListNotations.
Open Scope Z_scope.

(** The exceptions the modelled code can raise.  [Diverges] stands for a
    Python loop that does not terminate: it is only produced when the
    fuel of a loop runs out.  [Unmodelled] stands for an outcome the model
    does not follow; a theorem that concludes [Ok] excludes it. *)
Inductive exn :=
| StructError | OverflowError | ValueError | IndexError | KeyError
| AssertionError | RuntimeError | TypeError | EOFError | ZeroDivisionError
| AttributeError | UnicodeError | CommandError | CancelledError
| TimeoutError | NameError | ParseError | Unmodelled | Diverges.

Inductive res (A : Type) := Ok (a : A) | Raise (e : exn).
Arguments Ok {A} a.
Arguments Raise {A} e.

Definition bind {A B} (x : res A) (f : A -> res B) : res B :=
  match x with Ok a => f a | Raise e => Raise e end.

Declare Scope py_scope.
Delimit Scope py_scope with py.
Notation "'let*' x ':=' e 'in' f" := (bind e (fun x => f))
  (at level 200, x pattern, e at level 100, f at level 200) : py_scope.
Open Scope py_scope.

Definition is_ok {A} (x : res A) : bool :=
  match x with Ok _ => true | Raise _ => false end.

(** A byte, and a Python [bytes] object. *)
Definition byte_ok (b : Z) : Prop := 0 <= b < 256.
Definition bytes_ok (l : list Z) : Prop := Forall byte_ok l.

Definition byte_okb (b : Z) : bool := (0 <=? b) && (b <? 256).

(** Little endian encoding of [n] bytes of [v] (taken modulo 256^n), as
    [struct] with the '<' prefix lays integers out. *)
Fixpoint le_bytes (n : nat) (v : Z) : list Z :=
  match n with
  | O => []
  | S n => (v mod 256) :: le_bytes n (v / 256)
  end.

Fixpoint le_value (l : list Z) : Z :=
  match l with
  | [] => 0
  | b :: l => b + 256 * le_value l
  end.

(** Python slice [l[a:b]] for 0 <= a. *)
Definition slice {A} (l : list A) (a b : nat) : list A :=
  firstn (b - a) (skipn a l).
