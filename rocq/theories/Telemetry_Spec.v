(** Specification for C61: which messages reading telemetry sends. *)
From Coq Require Import Ascii String ZArith List Bool.
From Verif Require Import PyBase PyBytes.
Import ListNotations.
Open Scope Z_scope.

(** The lines about one name. *)
Definition ask_schema (name : list Z) : list Z := lit "tel schema " ++ name ++ [LF].
Definition ask_binary (name : list Z) : list Z := lit "tel fmt " ++ name ++ lit " 0" ++ [LF].
Definition ask_value (name : list Z) : list Z := lit "tel get " ++ name ++ [LF].

(** Reading [name]: its schema is asked for when it is not known. *)
Definition requests (known : bool) (name : list Z) : list (list Z) :=
  if known then [ask_value name] else [ask_schema name; ask_binary name; ask_value name].

(** Reading [names] one after the other: for the first value of each name its schema is asked for. *)
Fixpoint all_requests (known names : list (list Z)) : list (list Z) :=
  match names with
  | [] => []
  | name :: names => requests (existsb (bytes_eqb name) known) name ++ all_requests (name :: known) names
  end.
