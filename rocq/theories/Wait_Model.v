(** Models of Controller.execute, set_position, set_position_wait_complete
    and of get_singleton_transport (/repo/lib/python/moteus/moteus.py). *)
From Coq Require Import String ZArith List Bool SpecFloat.
From Verif Require Import PyBase PyFloat Mux_Model Ctrl_Model Async.
Import ListNotations.
Open Scope Z_scope.

(** What is awaited: transport.cycle([command]) and asyncio.sleep(period_s).
    A cycle gives a list of results: the values of a parsed reply, or None
    (fdcanusb.py 137 puts None for a command without reply). *)
Inductive wreq := Cycle (c : command) | Sleep (period : float).
Definition wrep := list (option dict).

Notation W := (prog unit wreq wrep).

(** moteus.py 1421-1424 _extract *)
Definition extract (value : wrep) : option dict :=
  match value with x :: _ => x | [] => None end.

(** moteus.py 1426-1427 execute, around the constructed command *)
Definition execute (c : res command) : W (option dict) :=
  do c <- lift c;
  do value <- await (Cycle c);
  Ret (extract value).

(** moteus.py 1010-1011 set_position *)
Definition set_position (ct : controller) (a : position_args) (query : bool)
  (qo : option query_resolution) : W (option dict) :=
  execute (make_position ct a query qo).

(** query_override.trajectory_complete = mp.INT8 (moteus.py 1029), on a
    copy *)
Definition set_trajectory_complete (q : query_resolution) : query_resolution :=
  {| q_mode := q_mode q; q_position := q_position q; q_velocity := q_velocity q;
     q_torque := q_torque q; q_q_current := q_q_current q; q_d_current := q_d_current q;
     q_abs_position := q_abs_position q; q_power := q_power q;
     q_motor_temperature := q_motor_temperature q; q_trajectory_complete := INT8;
     q_rezero_state := q_rezero_state q; q_home_state := q_home_state q;
     q_voltage := q_voltage q; q_temperature := q_temperature q; q_fault := q_fault q;
     q_aux1_gpio := q_aux1_gpio q; q_aux2_gpio := q_aux2_gpio q; q_extra := q_extra q |}.

(** The truth value of a number. *)
Definition truthy (v : pyval) : bool :=
  match v with
  | PInt z => negb (z =? 0)
  | PFloat (S754_zero _) => false
  | PFloat _ => true
  end.

(** moteus.py 1013-1044 set_position_wait_complete.  [qo] is the
    query_override argument, [query] the one in kwargs. *)
Definition wait_turn (ct : controller) (period : float) (override : query_resolution)
  (a : position_args) (query : bool) (count : Z) : W (Z + dict) :=
  do result <- set_position ct a query (Some override);
  let count := match result with Some _ => Z.max (count - 1) 0 | None => count end in
  let again := do _ <- await (Sleep period); Ret (inl count) in
  if count =? 0 then
    match result with
    | None => again
    | Some values =>
        match dict_get values R_TRAJECTORY_COMPLETE with
        | None => Throw KeyError
        | Some v => if truthy v then Ret (inr values) else again
        end
    end
  else again.

Definition set_position_wait_complete (ct : controller) (period : float)
  (qo : option query_resolution) (a : position_args) (query : bool) : W dict :=
  let override := set_trajectory_complete
                    (match qo with None => ct_query ct | Some q => q end) in
  Loop (wait_turn ct period override a query) 2 Ret.

(** ** get_singleton_transport (moteus.py 116-146) *)
Section Transport.
Context {Args Tr : Type}.

(** A transport factory: its class attributes, is_args_set, and calling it
    with the parsed arguments ([None]: it raises). *)
Record factory := {
  f_name : string;
  f_priority : Z;
  f_args_set : Args -> bool;
  f_make : option Args -> option Tr
}.

(** args.force_transport; "" counts as not given. *)
Variable force_transport : Args -> option string.

(** sorted(..., key=PRIORITY) is stable: insertion after the elements with
    a key that is not larger. *)
Fixpoint insert (f : factory) (l : list factory) : list factory :=
  match l with
  | [] => [f]
  | g :: l' => if f_priority f <? f_priority g then f :: l else g :: insert f l'
  end.
Definition py_sorted (l : list factory) : list factory :=
  fold_left (fun acc f => insert f acc) l [].

(** for factory in to_try: try ... except Exception *)
Fixpoint try_all (args : option Args) (l : list factory) : option Tr :=
  match l with
  | [] => None
  | f :: l => match f_make f args with Some t => Some t | None => try_all args l end
  end.

(** The result and the new GLOBAL_TRANSPORT. *)
Definition get_singleton_transport (factories : list factory) (global : option Tr)
  (args : option Args) : res Tr * option Tr :=
  match global with
  | Some t => (Ok t, global)
  | None =>
      let to_try := py_sorted factories in
      let to_try :=
        match args with
        | None => to_try
        | Some a =>
            match force_transport a with
            | Some name => filter (fun x => String.eqb (f_name x) name) to_try
            | None =>
                if existsb (fun x => f_args_set x a) factories
                then filter (fun x => f_args_set x a) to_try
                else to_try
            end
        end in
      match try_all args to_try with
      | None => (Raise RuntimeError, global)
      | Some t => (Ok t, Some t)
      end
  end.
End Transport.
