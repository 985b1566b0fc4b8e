(** Model of the plots of tview (/repo/utils/gui/moteus_gui/tview.py): _get_data (102-110),
    RecordSignal (167-190), PlotItem (193-257), Record (393-425) and the parts of
    _handle_telemetry_context_menu (1206-1232) and _handle_plot_item_remove (1260-1268) that
    begin and end a plot.

    Simplification: the plots of one record.  Axes, colours, legends and drawing are left out. *)
From Coq Require Import Ascii String ZArith List Bool.
From Verif Require Import PyBase PyBytes PyFloat Reader_Model Tree_Model.
Import ListNotations.
Open Scope Z_scope.

(** int(field), for the labels of array elements, which are decimal digits.  Simplification:
    signs, blanks and underscores are refused. *)
Fixpoint digits_to (n : Z) (s : str) : option Z :=
  match s with
  | [] => Some n
  | c :: s => if (48 <=? c) && (c <=? 57) then digits_to (10 * n + (c - 48)) s else None
  end.
Definition int_of (s : str) : option Z := match s with [] => None | _ => digits_to 0 s end.

(** _get_data (102-110), after the split. *)
Fixpoint get_data (fields : list str) (v : value) : res value :=
  match fields with
  | [] => Ok v
  | field :: fields =>
      match v with
      | VList vs =>                                                    (* 105-106 *)
          match int_of field with
          | None => Raise ValueError
          | Some i => match nth_error vs (Z.to_nat i) with
                      | Some x => get_data fields x
                      | None => Raise IndexError
                      end
          end
      | VTuple attrs => match assoc field attrs with                   (* 107-108 *)
                        | Some x => get_data fields x
                        | None => Raise AttributeError
                        end
      | _ => Raise AttributeError
      end
  end.

Definition STDDEV : str := lit "__STDDEV_".
Definition MEAN : str := lit "__MEAN_".
(** What comes before the next [sep] *)
Fixpoint upto (sep l : str) : str :=
  if startswith sep l then [] else match l with [] => [] | c :: l => c :: upto sep l end.
(** key.split(sep)[1] of a key that starts with sep *)
Definition second_part (sep key : str) : str := upto sep (skipn (length sep) key).

(** The entries of the menu *)
Inductive kind := Plain | StdDev | Mean.

(** The key of the signal (1213-1228): the labels are those from the record down to the item. *)
Definition signal_key (k : kind) (labels : list str) : res str :=
  match split1 46 (item_name labels) with
  | None => Raise IndexError                                           (* 1216 *)
  | Some (_, leaf) => Ok (match k with Plain => leaf | StdDev => STDDEV ++ leaf | Mean => MEAN ++ leaf end)
  end.

Fixpoint bind_list {A B} (f : A -> res B) (l : list A) : res (list B) :=
  match l with
  | [] => Ok []
  | x :: l => bind (f x) (fun y => bind (bind_list f l) (fun ys => Ok (y :: ys)))
  end.

Definition MAX_HISTORY_SIZE : nat := 100.

Section Plots.
(** Times and their arithmetic: >= (with its sides swapped) and -, which are those of floats. *)
Variable T : Type.
Variable leb : T -> T -> bool.
Variable minus : T -> T -> T.
(** numpy.std and numpy.mean *)
Variables std mean : list value -> res value.

(** PlotItem: whether there is a line, xdata and ydata. *)
Record plot := { p_line : bool; p_x : list T; p_y : list value }.

(** 241-246: the first index that is not before the window, less 1. *)
Fixpoint oldest_index (oldest_time : T) (i : Z) (x : list T) : option Z :=
  match x with
  | [] => None
  | a :: x => if leb oldest_time a then Some (i - 1) else oldest_index oldest_time (i + 1) x
  end.

(** PlotItem._handle_update (228-257) *)
Definition handle_update (paused : bool) (history_s now : T) (value : value) (p : plot) : plot :=
  if paused then p
  else
    let x := p_x p ++ [now] in
    let y := p_y p ++ [value] in
    match oldest_index (minus now history_s) 0 x with
    | Some i => if negb (i =? 0) && (i >? 1)
                then {| p_line := true; p_x := skipn (Z.to_nat i) x; p_y := skipn (Z.to_nat i) y |}
                else {| p_line := true; p_x := x; p_y := y |}
    | None => {| p_line := true; p_x := x; p_y := y |}
    end.

(** The record and the plots.  A signal has the numbers of the plots connected to it, in order
    of the connections. *)
Record state := {
  s_history : list value;
  s_signals : list (str * list nat);
  s_plots : list plot;
  s_paused : bool;
  s_window : T;
}.

Definition change_plot (i : nat) (f : plot -> plot) : list plot -> list plot :=
  (fix go i ps := match ps, i with
                  | [], _ => []
                  | p :: ps, O => f p :: ps
                  | p :: ps, S i => p :: go i ps
                  end) i.

(** RecordSignal.update (187-190) *)
Fixpoint signal_update (paused : bool) (window : T) (now : nat -> T) (v : value) (ids : list nat) (ps : list plot) : list plot :=
  match ids with
  | [] => ps
  | i :: ids => signal_update paused window now v ids (change_plot i (handle_update paused window (now i) v) ps)
  end.

(** The value of 413-422 *)
Definition signal_value (history : list value) (struct : value) (key : str) : res value :=
  if startswith STDDEV key then
    bind (bind_list (get_data (split_on 46 (second_part STDDEV key))) history) std
  else if startswith MEAN key then
    bind (bind_list (get_data (split_on 46 (second_part MEAN key))) history) mean
  else get_data (split_on 46 key) struct.

(** The loop of 412-424 *)
Fixpoint signals_update (paused : bool) (window : T) (now : nat -> T) (history : list value) (struct : value)
  (signals : list (str * list nat)) (ps : list plot) : list plot * option exn :=
  match signals with
  | [] => (ps, None)
  | (key, ids) :: signals =>
      match signal_value history struct key with
      | Raise e => (ps, Some e)
      | Ok v => signals_update paused window now history struct signals (signal_update paused window now v ids ps)
      end
  end.

(** get_signal (400-404) and connect (172-185) *)
Fixpoint connect (key : str) (i : nat) (signals : list (str * list nat)) : list (str * list nat) :=
  match signals with
  | [] => [(key, [i])]
  | (k, ids) :: signals => if str_eqb k key then (k, ids ++ [i]) :: signals else (k, ids) :: connect key i signals
  end.
(** Connection.remove (182-183) *)
Definition disconnect (i : nat) (signals : list (str * list nat)) : list (str * list nat) :=
  map (fun '(k, ids) => (k, filter (fun j => negb (j =? i)%nat) ids)) signals.

(** What happens: a value arrives, [now] being what the clock says when it is the turn of a plot;
    the user plots an item, removes a plot, stops or goes on, or sets the length of the window. *)
Inductive event :=
| EPacket (struct : value) (now : nat -> T)
| EPlot (labels : list str) (k : kind)
| ERemove (i : nat)
| EPause (paused : bool)
| EWindow (history_s : T).

Definition set_plots (s : state) (ps : list plot) : state :=
  {| s_history := s_history s; s_signals := s_signals s; s_plots := ps; s_paused := s_paused s; s_window := s_window s |}.

Definition plot_step (s : state) (e : event) : state * option exn :=
  match e with
  | EPacket struct now =>                                              (* 406-425 *)
      let h := s_history s ++ [struct] in
      let h := if (MAX_HISTORY_SIZE <? length h)%nat then tl h else h in
      let '(ps, e) := signals_update (s_paused s) (s_window s) now h struct (s_signals s) (s_plots s) in
      ({| s_history := h; s_signals := s_signals s; s_plots := ps; s_paused := s_paused s; s_window := s_window s |}, e)
  | EPlot labels k =>
      match signal_key k labels with
      | Raise e => (s, Some e)
      | Ok key =>
          ({| s_history := s_history s;
              s_signals := connect key (length (s_plots s)) (s_signals s);
              s_plots := s_plots s ++ [{| p_line := false; p_x := []; p_y := [] |}];
              s_paused := s_paused s; s_window := s_window s |}, None)
      end
  | ERemove i =>
      match nth_error (s_plots s) i with
      | None => (s, None)                                              (* not in the box *)
      | Some p =>
          if p_line p then
            ({| s_history := s_history s; s_signals := disconnect i (s_signals s); s_plots := s_plots s;
                s_paused := s_paused s; s_window := s_window s |}, None)
          else (s, Some AttributeError)                                (* None.remove(), 216 *)
      end
  | EPause b =>
      ({| s_history := s_history s; s_signals := s_signals s; s_plots := s_plots s; s_paused := b; s_window := s_window s |}, None)
  | EWindow h =>
      ({| s_history := s_history s; s_signals := s_signals s; s_plots := s_plots s; s_paused := s_paused s; s_window := h |}, None)
  end.

(** Histories, the latest event first. *)
Fixpoint plot_runs (window : T) (es : list event) : state :=
  match es with
  | [] => {| s_history := []; s_signals := []; s_plots := []; s_paused := false; s_window := window |}
  | e :: es => fst (plot_step (plot_runs window es) e)
  end.

End Plots.
