(** What is meant by the counter of a controller, by a history of answers and by a device that obeys,
    for C73. *)
From Coq Require Import ZArith List Bool Reals.
From Verif Require Import PyBase Calib_Model Encoder_Model Clock_Model.
Import ListNotations.
Open Scope Z_scope.

(** A count of milliseconds as the register shows it, in 32 bits with a sign. *)
Definition int32 (c : Z) : Z := (c + 2 ^ 31) mod 2 ^ 32 - 2 ^ 31.

(** The controller answered, with this count and this trim. *)
Definition answers {T} (m : moment T) (count trim : Z) : Prop :=
  m_answer m = Ok (Some {| sa_ms := Some count; sa_trim := Some trim |}).

(** From one answer to the next the counter went on, by 100 seconds at most. *)
Definition goes_on (before after : Z) : Prop := 0 <= after - before <= 100000.

(** It did so from each answer to the next. *)
Fixpoint steady (c : Z) (l : list Z) : Prop :=
  match l with
  | [] => True
  | d :: l => goes_on c d /\ steady d l
  end.

(** The clock counts since one of the calls, with what it counts: its own time then, and how far the
    counter went on since. [cs] are the counts of the answers to the calls [l]. *)
Definition counts_since {T} (l : list (moment T)) (cs : list Z) (initial : option T) (count : Z) : Prop :=
  exists before start after cb c0 ca,
    l = before ++ start :: after /\ cs = cb ++ c0 :: ca /\ length before = length cb /\
    initial = Some (m_now start) /\ count = last ca c0 - c0 /\
    steady c0 ca /\
    (cb = [] \/ ~ goes_on (last cb 0) c0).

(** A call at which the device shows [offset] and the time of the host, to the millisecond, and
    accepts what it is told. *)
Definition on_time (offset : R) (m : moment R) : Prop :=
  exists count trim, answers m count trim /\ IZR count = (1000 * (m_now m - offset))%R /\ m_accepts m = Ok tt.

(** The device obeys: from each call to the next its rate, as measured, is the rate of the time before
    with the change of trim asked for, each step of trim being 0.0025, up to [eps].  [rate] and
    [change] are the rate of the time before the first call and what was asked for at its end. *)
Fixpoint obeys (eps shortest : R) (s : clock R) (rate : R) (change : Z) (l : list (moment R)) : Prop :=
  match l with
  | [] => True
  | m :: l =>
      exists old c0 count trim before,
        k_state s = Some old /\ sa_ms old = Some c0 /\ k_last s = Some before /\
        answers m count trim /\ m_accepts m = Ok tt /\
        0 < count - c0 <= 100000 /\
        (0 < shortest)%R /\ (shortest <= m_now m - before <= 5)%R /\
        let rate' := (IZR (count - c0) / 1000 / (m_now m - before))%R in
        (Rabs (rate' - (rate + 25 / 10000 * IZR change)) <= eps)%R /\
        forall s' sent, update_second real_arith real_ops false s m = (s', {| e_trim := Some sent; e_end := Ok tt |}) ->
          obeys eps shortest s' rate' (sent - trim) l
  end.

(** ** Waiting for an event *)
From Verif Require Import Proc.
Section Waiting.
  Context {T : Type} (ar : arith T) (co : cal_ops T).
  Notation wevent := (event (@wreq T) (@wrep T)).

  (** The time that one look at the clock gave. *)
  Definition shows (e : wevent) : option T :=
    match e with
    | existT _ WNow (Some (inr now)) => Some now
    | _ => None
    end.
  Definition times (h : list wevent) : list T :=
    flat_map (fun e => match shows e with Some t => [t] | None => [] end) h.

  (** How often something was asked for. *)
  Definition sleeps (e : wevent) : bool := match question e with WSleep _ => true | _ => false end.
  Definition clocks (e : wevent) : bool := match question e with WClocks => true | _ => false end.
  Definition how_often (f : wevent -> bool) (h : list wevent) : nat := length (filter f h).

  (** [n] steps from [x] *)
  Fixpoint steps (step : T) (n : nat) (x : T) : T :=
    match n with O => x | S n => a_add ar (steps step n x) step end.

  (** What is asked for after [h], given the time limit, the time until which was slept last and the
      time at which the clocks are due: only time is asked for once the time is over; a sleep lasts
      until the next hundredth of a second, and the clocks are updated when a second is over. *)
  Definition due (limit last next : T) (h : list wevent) (e : wevent) : Prop :=
    question e = WNow \/
    exists start between now,
      times h = start :: between ++ [now] /\ a_lt ar limit (a_sub ar now start) = false /\
      match question e with
      | WSleep seconds => seconds = a_sub ar (steps (TIMESTAMP_S co) (S (how_often sleeps h)) last) now
      | WClocks => a_lt ar (steps (CLOCK_UPDATE_S ar) (how_often clocks h) next) now = true
      | _ => True
      end.
  (** How waiting ends: with the condition true, on data asked for just before; or because the time is
      over; or because something asked for failed. *)
  Definition ends (limit : T) (per : bool) (h : list wevent) (o : option (err + (T * T))) : Prop :=
    match o with
    | None => True
    | Some (inr _) => exists h', h = h' ++ answered WQuery (inr tt) ::
                        (if per then [answered WCycle (inr tt)] else []) ++ [answered WCondition (inr true)]
    | Some (inl e) =>
        (exists h' r, h = h' ++ [answered r (inl e)]) \/
        (e = Exn RuntimeError /\ exists h' start between now, h = h' ++ [answered WNow (inr now)] /\
           times h = start :: between ++ [now] /\ a_lt ar limit (a_sub ar now start) = true)
    end.
End Waiting.
