(** What is meant by the best value and by a trial, for C74. *)
From Coq Require Import ZArith List Bool.
From Verif Require Import PyBase PyFloat Proc Bct_Model.
Import ListNotations.
Open Scope Z_scope.

Section Least.
  Context {M : Type} (meq mlt : M -> M -> bool).

  (** The metrics are ordered. *)
  Definition ordered : Prop :=
    (forall a b, meq a b = true <-> a = b) /\
    (forall a, mlt a a = false) /\
    (forall a b c, mlt a b = true -> mlt b c = true -> mlt a c = true) /\
    (forall a b, a = b \/ mlt a b = true \/ mlt b a = true).

  (** [p] is a value with its metric; none of [l] has a smaller one, and none of smaller value has the same. *)
  Definition least (l : list (Z * M)) (p : Z * M) : Prop :=
    In p l /\ forall q, In q l -> mlt (snd q) (snd p) = false /\ (snd q = snd p -> fst p <= fst q).
End Least.

(** The values tried first, and those tried around the best of them. *)
Definition coarse : list Z := map (fun i => -248 + 31 * Z.of_nat i) (seq 0 17).
Definition fine (v : Z) : list Z :=
  if v =? -248 then map (fun i => -248 + 2 * Z.of_nat i) (seq 0 16)
  else if v =? 248 then map (fun i => 217 + 2 * Z.of_nat i) (seq 0 16)
  else map (fun i => v - 31 + 3 * Z.of_nat i) (seq 0 21).

(** A search in which each value tried gets the next of these metrics: the best, and the metrics left. *)
Fixpoint feed {M} (meq mlt : M -> M -> bool) (s : @searcher M) (v : Z) (ms : list M) : res (option ((Z * M) * list M)) :=
  match ms with
  | [] => Ok None
  | m :: ms =>
      let* r := search meq mlt s (Some (v, m)) in
      match r with
      | (s, (Some v, _)) => feed meq mlt s v ms
      | (_, (None, Some best)) => Ok (Some (best, ms))
      | (_, (None, None)) => Raise TypeError
      end
  end.
Definition searched {M} (meq mlt : M -> M -> bool) (ms : list M) : res (option ((Z * M) * list M)) :=
  let* r := search meq mlt new_searcher None in
  match r with
  | (s, (Some v, _)) => feed meq mlt s v ms
  | (_, (None, _)) => Raise TypeError
  end.

(** ** Of a run *)
Notation bevent := (event breq brep).
Definition done (m : bmsg) : bevent := @answered breq brep (BCommand m) (inr tt).
Definition failed (m : bmsg) (e : err) : bevent := @answered breq brep (BCommand m) (inl e).

(** The axis of a value, and how much *)
Definition axis (v : Z) : Z := if 0 <? v then 1 else 2.

(** [v] was set and then measured, with this metric. *)
Definition tried (np_std : list float -> float) (voltage : float) (source : Z) (v : Z) (m : float) (h : list bevent) : Prop :=
  exists h1 values h2,
    h = h1 ++ [done (TrimMsg (axis v)); done (BctMsg (Z.abs v)); done (PosMsg voltage);
               @answered breq brep (BSleep (flit 1 0)) (inr tt); @answered breq brep (BCapture source) (inr values)] ++ h2 /\
    m = np_std (filter isfinite values).

(** What the device said of one parameter. *)
Definition was (n : bname) (x : float) (t : list bevent) : Prop := In (@answered breq brep (BRead n) (inr x)) t.

(** One test of a voltage, and tests of growing voltages until the power is reached. *)
Definition tested (v : float) (data : list float) : list bevent :=
  [done (PwmMsg v); @answered breq brep (BSleep (flit 15 2)) (inr tt)] ++
  map (fun x => @answered breq brep BCurrent (inr x)) data ++
  [done StopMsg; @answered breq brep (BSleep (flit 5 2)) (inr tt)].
Inductive climbs (py_sum : list float -> float) (power : float) : float -> list bevent -> float -> Prop :=
| climbs_here v data : length data = 10%nat ->
    fltb power (fmul (fdiv (py_sum data) (float_of_Z 10)) v) = true -> climbs py_sum power v (tested v data) v
| climbs_on v data t w : length data = 10%nat ->
    fltb power (fmul (fdiv (py_sum data) (float_of_Z 10)) v) = false ->
    climbs py_sum power (fmul v (flit 11 1)) t w -> climbs py_sum power v (tested v data ++ t) w.

Definition is_pwm (e : bevent) : bool := match question e with BCommand (PwmMsg _) => true | _ => false end.
