(** Model of the numeric helpers of encoder calibration and of the
    configuration upgrade: /repo/lib/python/moteus/calibrate_encoder.py 78-172, /repo/lib/python/moteus/regression.py 16-34 and
    /repo/lib/python/moteus/moteus_tool.py 54-71.

    The functions are written once over a record of arithmetic
    operations.  Two records are used: Python's floats, which is what the
    code runs on, and the real numbers, over which the properties that
    ignore rounding are stated. *)
From Coq Require Import ZArith List Bool Floats.SpecFloat Reals.
From Verif Require Import PyBase PyFloat.
Import ListNotations.
Open Scope Z_scope.

(** The operations the code uses on numbers.  Division by zero is
    Python's ZeroDivisionError; [a_floor] is int(math.floor(x)); [a_sum]
    is sum() of a list.  [a_turns x] bounds the turns of a loop that
    brings [x] closer to zero, and is no operation of the code (see
    [wrap_down]). *)
Record arith (T : Type) := Arith {
  a_of_Z : Z -> T;
  a_pi : T;
  a_add : T -> T -> T;
  a_sub : T -> T -> T;
  a_mul : T -> T -> T;
  a_div : T -> T -> res T;
  a_neg : T -> T;
  a_abs : T -> T;
  a_lt : T -> T -> bool;
  a_eq : T -> T -> bool;
  a_floor : T -> res Z;
  a_sum : list T -> T;
  a_turns : T -> nat
}.
Arguments a_of_Z {T} _ _. Arguments a_pi {T} _. Arguments a_add {T} _ _ _.
Arguments a_sub {T} _ _ _. Arguments a_mul {T} _ _ _. Arguments a_div {T} _ _ _.
Arguments a_neg {T} _ _. Arguments a_abs {T} _ _. Arguments a_lt {T} _ _ _.
Arguments a_eq {T} _ _ _. Arguments a_floor {T} _ _. Arguments a_sum {T} _ _.
Arguments a_turns {T} _ _.

(** Python's indexing l[i], with negative indices. *)
Definition py_index {A} (l : list A) (i : Z) : res A :=
  let i := if i <? 0 then i + Z.of_nat (length l) else i in
  if i <? 0 then Raise IndexError
  else match nth_error l (Z.to_nat i) with
       | Some x => Ok x
       | None => Raise IndexError
       end.

Fixpoint map_res {A B} (f : A -> res B) (l : list A) : res (list B) :=
  match l with
  | [] => Ok []
  | x :: l => let* y := f x in let* ys := map_res f l in Ok (y :: ys)
  end.

Section Calib.
  Context {T : Type} (ar : arith T).
  Let num := a_of_Z ar.

  (** ** _wrap_neg_pi_to_pi (moteus_tool.py 54-59, the same code as calibrate_encoder.py 94-99) *)
  Definition two_pi : T := a_mul ar (num 2) (a_pi ar).

  (** [while value > math.pi: value -= 2.0 * math.pi], for at most [n]
      turns; Diverges when they run out.  The number of turns given by
      [wrap] is enough: C37_float_turns shows that a loop still running
      then never ends. *)
  Fixpoint wrap_down (n : nat) (v : T) : res T :=
    match n with
    | O => Raise Diverges
    | S n => if a_lt ar (a_pi ar) v then wrap_down n (a_sub ar v two_pi) else Ok v
    end.

  (** [while value < -math.pi: value += 2.0 * math.pi] *)
  Fixpoint wrap_up (n : nat) (v : T) : res T :=
    match n with
    | O => Raise Diverges
    | S n => if a_lt ar v (a_neg ar (a_pi ar)) then wrap_up n (a_add ar v two_pi) else Ok v
    end.

  Definition wrap (v : T) : res T :=
    let* v := wrap_down (a_turns ar v) v in
    wrap_up (a_turns ar v) v.

  (** ** _unwrap (calibrate_encoder.py 102-109); the loop of fix_config
      (moteus_tool.py 429-432) is the same computation in place. *)
  Fixpoint unwrap_loop (last : T) (l : list T) : res (list T) :=
    match l with
    | [] => Ok []
    | item :: l =>
        let* w := wrap (a_sub ar item last) in
        let this := a_add ar last w in
        let* rest := unwrap_loop this l in
        Ok (this :: rest)
    end.

  Definition unwrap (l : list T) : res (list T) :=
    match l with
    | [] => Ok []
    | item :: l => let* rest := unwrap_loop item l in Ok (item :: rest)
    end.

  (** ** lerp (moteus_tool.py 62-71) *)
  Definition lerp (array : list T) (ratio : T) : res T :=
    let size := Z.of_nat (length array) in
    let* left_index := a_floor ar (a_mul ar ratio (num size)) in
    let* right_index := (if size =? 0 then Raise ZeroDivisionError
                         else Ok ((left_index + 1) mod size)) in
    let* q := a_div ar (num left_index) (num size) in
    let fraction := a_mul ar (a_sub ar ratio q) (num size) in
    let* left_comp := py_index array left_index in
    let* right_comp := py_index array right_index in
    Ok (a_add ar (a_mul ar left_comp (a_sub ar (num 1) fraction))
                 (a_mul ar right_comp fraction)).

  (** ** _linspace (calibrate_encoder.py 112-118) *)
  Definition linspace (first last : T) (count : Z) : res (list T) :=
    map_res (fun i =>
      if i + 1 =? count then Ok last
      else
        let* q := a_div ar (a_mul ar (num i) (a_sub ar last first)) (num (count - 1)) in
        Ok (a_add ar q first))
      (map Z.of_nat (seq 0 (Z.to_nat count))).

  (** ** _interpolate (calibrate_encoder.py 121-152) *)

  (** The search (calibrate_encoder.py 134-136); [n] bounds its turns. *)
  Fixpoint advance (n : nat) (x : list T) (point : T) (xindex : Z) : res Z :=
    match n with
    | O => Raise Diverges
    | S n =>
        if xindex + 2 <? Z.of_nat (length x) then
          let* next := py_index x (xindex + 1) in
          if a_lt ar next point || a_eq ar next point then advance n x point (xindex + 1)
          else Ok xindex
        else Ok xindex
    end.

  (** One sample point (calibrate_encoder.py 129-150): the value and the
      index the next point starts from. *)
  Definition interpolate1 (x y : list T) (xindex : Z) (point : T) : res (Z * T) :=
    let* x0 := py_index x xindex in
    if a_lt ar point x0 then
      let* v := py_index y xindex in Ok (xindex, v)
    else
      let* xindex := advance (length x) x point xindex in
      let* x1 := py_index x (xindex + 1) in
      if a_lt ar x1 point then
        let* v := py_index y (xindex + 1) in Ok (xindex, v)
      else
        let* x0 := py_index x xindex in
        let len := a_sub ar x1 x0 in
        if a_eq ar len (num 0) then
          let* v := py_index y (xindex + 1) in Ok (xindex, v)
        else
          let* ratio := a_div ar (a_sub ar point x0) len in
          let* y1 := py_index y (xindex + 1) in
          let* y0 := py_index y xindex in
          Ok (xindex, a_add ar (a_mul ar (a_sub ar y1 y0) ratio) y0).

  Fixpoint interpolate_loop (x y : list T) (xindex : Z) (points : list T) : res (list T) :=
    match points with
    | [] => Ok []
    | point :: points =>
        let* r := interpolate1 x y xindex point in
        let* rest := interpolate_loop x y (fst r) points in
        Ok (snd r :: rest)
    end.

  Definition interpolate (points x y : list T) : res (list T) :=
    if negb (1 <? Z.of_nat (length x)) then Raise AssertionError
    else if negb (Z.of_nat (length x) =? Z.of_nat (length y)) then Raise AssertionError
    else interpolate_loop x y 0 points.

  (** ** _window_average (calibrate_encoder.py 155-172) *)
  Definition window_wrap (len v : Z) : Z :=
    if v <? 0 then v + len else if v >=? len then v - len else v.

  Definition window_average (values : list T) (window_size : Z) : res (list T) :=
    let len := Z.of_nat (length values) in
    map_res (fun i =>
      let first := i - window_size / 2 in
      let last := i + window_size / 2 in
      let* errs := map_res (fun j => py_index values (window_wrap len (first + j)))
                           (map Z.of_nat (seq 0 (Z.to_nat (last - first)))) in
      a_div ar (a_sum ar errs) (num (Z.of_nat (length errs))))
      (map Z.of_nat (seq 0 (length values))).

  (** ** linear_regression (regression.py 16-34): (intercept, slope) *)
  Definition linear_regression (xvals yvals : list T) : res (T * T) :=
    if negb (Z.of_nat (length xvals) =? Z.of_nat (length yvals)) then Raise AssertionError
    else
      let* mean_x := a_div ar (a_sum ar xvals) (num (Z.of_nat (length xvals))) in
      let* mean_y := a_div ar (a_sum ar yvals) (num (Z.of_nat (length yvals))) in
      let* b := a_div ar
        (a_sum ar (map (fun p => a_mul ar (a_sub ar (fst p) mean_x) (a_sub ar (snd p) mean_y))
                       (combine xvals yvals)))
        (a_sum ar (map (fun x => a_mul ar (a_sub ar x mean_x) (a_sub ar x mean_x)) xvals)) in
      Ok (a_sub ar mean_y (a_mul ar b mean_x), b).
End Calib.

(** ** _wrap_uint16, _wrap_int16 (calibrate_encoder.py 78-91), on Python's
    integers.  The loops get as many turns as the number has units, which
    is enough (C43_uint16 and C43_int16 show that they return). *)
Fixpoint step_until (n : nat) (go : Z -> bool) (step v : Z) : res Z :=
  match n with
  | O => Raise Diverges
  | S n => if go v then step_until n go step (v + step) else Ok v
  end.

Definition wrap_uint16 (v : Z) : res Z :=
  let* v := step_until (S (Z.to_nat (Z.abs v))) (fun v => v <? 0) 65536 v in
  step_until (S (Z.to_nat (Z.abs v))) (fun v => v >? 65535) (-65536) v.

Definition wrap_int16 (v : Z) : res Z :=
  let* v := step_until (S (Z.to_nat (Z.abs v))) (fun v => v >? 32767) (-65536) v in
  step_until (S (Z.to_nat (Z.abs v))) (fun v => v <? -32768) 65536 v.

(** ** The two instances *)

(** math.floor of a finite float. *)
Definition ffloor (x : float) : Z :=
  match x with
  | S754_finite s m e =>
      if e <? 0 then (if s then - Zpos m else Zpos m) / 2 ^ (- e)
      else (if s then - Zpos m else Zpos m) * 2 ^ e
  | _ => 0
  end.

Definition float_floor (x : float) : res Z :=
  match x with
  | S754_nan => Raise ValueError
  | S754_infinity _ => Raise OverflowError
  | _ => Ok (ffloor x)
  end.

(** x / y: Python refuses a zero denominator. *)
Definition float_div (x y : float) : res float :=
  if feqb y (float_of_Z 0) then Raise ZeroDivisionError else Ok (fdiv x y).

(** math.pi *)
Definition fpi : float := S754_finite false 7074237752028440 (-51).

(** [py_sum] is sum() of a list of floats: a plain left fold up to Python
    3.11, a compensated sum since 3.12. *)
Definition float_arith (py_sum : list float -> float) : arith float :=
  Arith _ float_of_Z fpi fadd fsub fmul float_div fneg SFabs fltb feqb float_floor py_sum
    (fun v => S (S (Z.to_nat (Z.abs (ftrunc v))))).

(** sum() up to Python 3.11. *)
Definition left_sum (l : list float) : float := fold_left fadd l (float_of_Z 0).

(** The real numbers.  Comparison is by the decision procedure of the
    standard library. *)
Definition Rltb (x y : R) : bool := if Rlt_dec x y then true else false.
Definition Reqb (x y : R) : bool := if Req_EM_T x y then true else false.
Definition Rsum (l : list R) : R := fold_right Rplus 0%R l.

Definition real_arith : arith R :=
  Arith _ IZR PI Rplus Rminus Rmult
    (fun x y => if Req_EM_T y 0 then Raise ZeroDivisionError else Ok (x / y)%R)
    Ropp Rabs Rltb Reqb (fun x => Ok (up x - 1)) Rsum
    (fun v => S (S (Z.to_nat (up (Rabs v))))).
