(** Specification for C70: what a plot of tview should show. *)
From Coq Require Import Ascii String ZArith List Bool.
From Verif Require Import PyBase PyBytes PyFloat Reader_Model Reader_Spec Tree_Model Tree_Spec Plot_Model.
Import ListNotations.
Open Scope Z_scope.

(** The single value at a path in a value *)
Definition leaf_value (name : str) (t : ty) (path : list str) (v : value) : option value :=
  match find (fun x => if list_eq_dec (list_eq_dec Z.eq_dec) (fst (fst x)) path then true else false) (leaves name t v) with
  | Some (_, x) => x
  | None => None
  end.
Definition number (v : value) : Prop := match v with VInt _ | VFloat _ | VBool _ | VEnum _ _ => True | _ => False end.
Definition contains (sep s : str) : Prop := exists a b, s = a ++ sep ++ b.

Definition last_n {A} (n : nat) (l : list A) : list A := skipn (length l - n) l.

Fixpoint somes {A} (l : list (option A)) : list A :=
  match l with [] => [] | Some x :: l => x :: somes l | None :: l => somes l end.

Section Plots.
Variable T : Type.
Variable leb : T -> T -> bool.
Variable minus : T -> T -> T.
Variables std mean : list value -> res value.
Variable name : str.
Variable t : ty.
Notation event := (event T).
Implicit Types es : list event.

(** All about a history, the latest event first *)
Fixpoint packets es : list value :=
  match es with [] => [] | EPacket _ v _ :: es => packets es ++ [v] | _ :: es => packets es end.
Fixpoint plots es : list (list str * kind) :=
  match es with [] => [] | EPlot _ p k :: es => plots es ++ [(p, k)] | _ :: es => plots es end.
Fixpoint paused es : bool :=
  match es with [] => false | EPause _ b :: _ => b | _ :: es => paused es end.
Fixpoint window (w : T) es : T :=
  match es with [] => w | EWindow _ h :: _ => h | _ :: es => window w es end.

(** What a plot of this kind should get when the last of these values arrives: the value, or the
    deviation or mean of the last 100. *)
Definition sample (p : list str) (k : kind) (vs : list value) : res value :=
  let recent := somes (map (leaf_value name t p) (last_n 100 vs)) in
  match k with
  | Plain => match leaf_value name t p (last vs VNone) with Some x => Ok x | None => Raise KeyError end
  | StdDev => std recent
  | Mean => mean recent
  end.

(** Plot i is on the screen; one that has never got anything stays when it is removed.  And what
    it got: a sample with its time, for each value that arrives while it is there and not paused. *)
Fixpoint running (i : nat) es : bool :=
  match es with
  | [] => false
  | EPlot _ _ _ :: es => (i =? length (plots es))%nat || running i es
  | ERemove _ j :: es => running i es && negb ((i =? j)%nat && negb (length (got i es) =? 0)%nat)
  | _ :: es => running i es
  end
with got (i : nat) es : list (T * value) :=
  match es with
  | [] => []
  | EPacket _ v now :: es =>
      if running i es && negb (paused es) then
        match nth_error (plots es) i with
        | Some (p, k) => match sample p k (packets es ++ [v]) with
                         | Ok x => got i es ++ [(now i, x)]
                         | Raise _ => got i es
                         end
        | None => got i es
        end
      else got i es
  | _ :: es => got i es
  end.

(** The plots are of single values that every packet has, below the record, with names free of
    what tview marks its own keys with; deviations and means only of numbers. *)
Definition fits es : Prop :=
  Forall (fun v => exists b, enc t v b) (packets es) /\
  Forall (fun '(p, k) =>
    (2 <= length p)%nat /\ ~ contains STDDEV (item_name p) /\ ~ contains MEAN (item_name p) /\
    Forall (fun v => exists x, leaf_value name t p v = Some x /\ (k <> Plain -> number x)) (packets es)) (plots es).

(** What a plot shows after a sample at [now] was added to what it had: all of it, but for some of
    the beginning that is before the window, and at most two of these are left. *)
Definition in_window (now w : T) (s : T * value) : bool := leb (minus now w) (fst s).
Definition trimmed (now w : T) (all shown : list (T * value)) : Prop :=
  exists dropped old rest, all = dropped ++ shown /\ shown = old ++ rest /\
    Forall (fun s => in_window now w s = false) (dropped ++ old) /\
    (dropped <> [] -> rest <> []) /\
    match rest with s :: _ => in_window now w s = true /\ (length old <= 2)%nat | [] => True end.

(** What the plot has *)
Definition shown (i : nat) (s : state T) : list (T * value) :=
  match nth_error (s_plots _ s) i with Some p => combine (p_x _ p) (p_y _ p) | None => [] end.
End Plots.
