(** Model of /repo/lib/python/examples/synchronized_movement.py: the clock of a controller that is
    kept at the time of the host ([ServoClock]), and the waiting for an event ([Poller]).

    Numbers are over a record of operations, as in Calib_Model.v.  Division of two integers is
    division of the two as numbers, which is the same up to 2^53. *)
From Coq Require Import ZArith List Bool Floats.SpecFloat.
From Verif Require Import PyBase PyFloat Calib_Model Encoder_Model Proc.
Import ListNotations.
Open Scope Z_scope.

(** ** _calculate_ms_delta (synchronized_movement.py 29-39) *)
Definition ms_delta (time1 time2 : Z) : option Z :=
  let result_ms := if (time2 <? 0) && (time1 >? 0) then time2 + 2 ^ 32 - time1 else time2 - time1 in
  if (result_ms >? 100000) || (time2 <? time1) then None else Some result_ms.

(** The registers of an answer that are used: MILLISECOND_COUNTER and CLOCK_TRIM
    (synchronized_movement.py 70-73); [None] is a register that the answer does not have. *)
Record sample := { sa_ms : option Z; sa_trim : option Z }.

(** values[...] of what execute() returned, which is None without an answer
    (synchronized_movement.py 89-91, 132; moteus.py 1421-1427). *)
Definition value (get : sample -> option Z) (s : option sample) : res Z :=
  match s with
  | None => Raise AttributeError
  | Some s => match get s with Some v => Ok v | None => Raise KeyError end
  end.

Section Clock.
  Context {T : Type} (ar : arith T) (co : cal_ops T).
  Let num := a_of_Z ar.

  (** synchronized_movement.py 53, 57 *)
  Definition TIME_CONSTANT : T := num 5.
  Definition TRIM_STEP_SIZE : T := c_lit co 25 4.

  (** The fields of ServoClock that change (synchronized_movement.py 59-68, 141). [None] in
      [k_last] is a field that does not exist yet. *)
  Record clock := {
    k_initial : option T;        (* initial_time *)
    k_state : option sample;     (* state *)
    k_count : Z;                 (* device_ms_count *)
    k_error : T;                 (* time_error_s *)
    k_last : option T            (* last_time *)
  }.

  Definition new_clock : clock :=
    {| k_initial := None; k_state := None; k_count := 0; k_error := num 0; k_last := None |}.

  (** What one call meets: what execute() gives, the time afterwards, and what set_trim() gives, if
      it is called. *)
  Record moment := { m_answer : res (option sample); m_now : T; m_accepts : res unit }.

  (** What one call does: the trim it sent, if it did, and how it ended. *)
  Record effect := { e_trim : option Z; e_end : res unit }.

  (** synchronized_movement.py 138-141 *)
  Definition finish (s : clock) (now : T) : clock :=
    {| k_initial := match k_initial s with None => Some now | Some i => Some i end;
       k_state := k_state s; k_count := k_count s; k_error := k_error s; k_last := Some now |}.

  (** synchronized_movement.py 113-114 *)
  Definition drift (s : clock) (initial now : T) : res T :=
    let* device := a_div ar (num (k_count s)) (num 1000) in
    Ok (a_sub ar device (a_sub ar now initial)).

  (** synchronized_movement.py 116-133 *)
  Definition new_trim (s : clock) (delta : Z) (now absolute : T) : res Z :=
    let* last := match k_last s with Some l => Ok l | None => Raise AttributeError end in
    let* d := a_div ar (num delta) (num 1000) in
    let* rate := a_div ar d (a_sub ar now last) in
    let* q := a_div ar (a_neg ar absolute) TIME_CONSTANT in
    let desired := a_add ar (num 1) q in
    let* x := a_div ar (a_sub ar desired rate) TRIM_STEP_SIZE in
    let* n := c_round co x in
    let* t := value sa_trim (k_state s) in
    Ok (t + n).

  (** synchronized_movement.py 100-141, with [delta] the ms_count_delta.  The attribute last_time is
      read (109) before the drift is stored (114): the two fields are set together, so that the
      order is not seen.  A period of no time (118) is an error after the drift is stored. *)
  Definition correct (measure_only : bool) (s : clock) (delta : option Z) (m : moment) : clock * effect :=
    match k_initial s, delta with
    | None, _ | _, Some 0 => (finish s (m_now m), {| e_trim := None; e_end := Ok tt |})
    | Some _, None => (s, {| e_trim := None; e_end := Raise TypeError |})
    | Some initial, Some delta =>
        match drift s initial (m_now m) with
        | Raise e => (s, {| e_trim := None; e_end := Raise e |})
        | Ok absolute =>
            let s := {| k_initial := k_initial s; k_state := k_state s; k_count := k_count s;
                        k_error := absolute; k_last := k_last s |} in
            match new_trim s delta (m_now m) absolute with
            | Raise e => (s, {| e_trim := None; e_end := Raise e |})
            | Ok t =>
                if measure_only then (finish s (m_now m), {| e_trim := None; e_end := Ok tt |})
                else match m_accepts m with
                     | Raise e => (s, {| e_trim := Some t; e_end := Raise e |})
                     | Ok _ => (finish s (m_now m), {| e_trim := Some t; e_end := Ok tt |})
                     end
            end
        end
    end.

  (** update_second (synchronized_movement.py 75-141) *)
  Definition update_second (measure_only : bool) (s : clock) (m : moment) : clock * effect :=
    match m_answer m with
    | Raise e => (s, {| e_trim := None; e_end := Raise e |})
    | Ok st =>
        let s1 := {| k_initial := k_initial s; k_state := st; k_count := k_count s;
                     k_error := k_error s; k_last := k_last s |} in
        match k_state s with
        | None => correct measure_only s1 (Some 0) m
        | Some old =>
            match (let* t1 := value sa_ms (Some old) in
                   let* t2 := value sa_ms st in Ok (ms_delta t1 t2)) with
            | Raise e => (s1, {| e_trim := None; e_end := Raise e |})
            | Ok None =>
                correct measure_only
                  {| k_initial := None; k_state := st; k_count := 0;
                     k_error := k_error s; k_last := k_last s |} None m
            | Ok (Some d) =>
                correct measure_only
                  {| k_initial := k_initial s; k_state := st; k_count := k_count s + d;
                     k_error := k_error s; k_last := k_last s |} (Some d) m
            end
        end
    end.

  (** Calls one after the other, whether they end well or not: the clock afterwards, and the trims
      sent.  This is no function of the code. *)
  Fixpoint updates (measure_only : bool) (s : clock) (l : list moment) : clock * list effect :=
    match l with
    | [] => (s, [])
    | m :: l =>
        let '(s, e) := update_second measure_only s m in
        let '(s, es) := updates measure_only s l in
        (s, e :: es)
    end.

  (** ** Poller.wait_for_event (synchronized_movement.py 144-182) *)
  Inductive wreq :=
  | WNow                 (* time.time() *)
  | WClocks              (* update_second() of each clock *)
  | WSleep (seconds : T) (* asyncio.sleep *)
  | WQuery               (* query() of each controller, into servo_data *)
  | WCycle               (* per_cycle() *)
  | WCondition.          (* condition() *)
  Definition wrep (r : wreq) : Type :=
    match r with WNow => T | WCondition => bool | _ => unit end.
  Definition wait_proc (A : Type) := @proc wreq wrep A.

  (** synchronized_movement.py 145-146 *)
  Definition TIMESTAMP_S : T := c_lit co 1 2.
  Definition CLOCK_UPDATE_S : T := num 1.

  (** One turn of the loop (synchronized_movement.py 163-182).  The state is [last_time] and
      [next_clock_time]; the loop ends with the two. *)
  Definition wait_turn (timeout : option T) (per_cycle : bool) (start : T) (x : T * T)
    : wait_proc ((T * T) + (T * T)) :=
    let '(last, next) := x in
    pbind (ask WNow) (fun now =>
    match timeout with
    | None => Throw (Exn TypeError)
    | Some timeout =>
        if a_lt ar timeout (a_sub ar now start) then Throw (Exn RuntimeError)
        else
          pbind (if a_lt ar next now
                 then pbind (ask WClocks) (fun _ => Ret (a_add ar next CLOCK_UPDATE_S))
                 else Ret next) (fun next =>
          let last := a_add ar last TIMESTAMP_S in
          pbind (ask (WSleep (a_sub ar last now))) (fun _ =>
          pbind (ask WQuery) (fun _ =>
          pbind (if per_cycle then ask WCycle else Ret tt) (fun _ =>
          pbind (ask WCondition) (fun b =>
          Ret (if b : bool then inr (last, next) else inl (last, next)))))))
    end).

  Definition wait_for_event (timeout : option T) (per_cycle : bool) (x : T * T) : wait_proc (T * T) :=
    pbind (ask WNow) (fun start =>
    Loop (wait_turn timeout per_cycle start) x (fun x => Ret x)).
End Clock.

Arguments clock : clear implicits.
Arguments moment : clear implicits.
