(** Model of /repo/utils/measure_ma732_bct.py, which looks for the bias current trim of an off axis
    encoder.

    Printing is left out.  The messages to the device are constructors instead of text; what
    histogram.capture_histogram and find_source do is one request each. *)
From Coq Require Import ZArith List Bool Floats.SpecFloat.
From Verif Require Import PyBase PyFloat Proc.
Import ListNotations.
Open Scope Z_scope.

(** range(a, b, step) of a positive step *)
Definition py_range (a b step : Z) : list Z :=
  map (fun i => a + Z.of_nat i * step) (seq 0 (Z.to_nat ((b - a + step - 1) / step))).

(** ** Searcher (measure_ma732_bct.py 36-76)

    The metrics are of any type with == and <. *)
Section Searcher.
  Context {M : Type} (meq mlt : M -> M -> bool).

  Record searcher := { s_low : Z; s_high : Z; s_todo : list Z; s_results : list (Z * M) }.

  (** start_range (measure_ma732_bct.py 44-47), with count = 16 (40) *)
  Definition start_range (low high : Z) : searcher :=
    let step := Z.max 2 ((high - low) / 16) in
    {| s_low := low; s_high := high; s_todo := py_range low (high + 1) step; s_results := [] |}.

  (** measure_ma732_bct.py 37-42 *)
  Definition new_searcher : searcher := start_range (-248) 248.

  (** (b, a) < (d, c), as Python orders pairs *)
  Definition pair_lt (p q : Z * M) : bool :=
    if meq (snd p) (snd q) then fst p <? fst q else mlt (snd p) (snd q).

  (** min(sorted([(b, a) for a, b in self.results])) (measure_ma732_bct.py 60).  The sorting before
      the minimum is left out: it changes nothing where the metrics can be ordered. *)
  Definition best_of (l : list (Z * M)) : res (Z * M) :=
    match l with
    | [] => Raise ValueError
    | p :: l => Ok (fold_left (fun b p => if pair_lt p b then p else b) l p)
    end.

  (** The index of the first result of this value (measure_ma732_bct.py 64-65) *)
  Fixpoint index_of (v : Z) (l : list (Z * M)) (i : nat) : res nat :=
    match l with
    | [] => Raise IndexError
    | p :: l => if fst p =? v then Ok i else index_of v l (S i)
    end.

  Definition at_index (l : list (Z * M)) (i : nat) : res Z :=
    match nth_error l i with Some p => Ok (fst p) | None => Raise IndexError end.

  (** __call__ (measure_ma732_bct.py 49-76): the searcher afterwards, and the value to try or the best
      one.  The call of itself (76) finds something to do, as the new range is not empty; so it is
      unfolded once. *)
  Definition search (s : searcher) (x : option (Z * M)) : res (searcher * (option Z * option (Z * M))) :=
    let results := match x with Some p => s_results s ++ [p] | None => s_results s end in
    match s_todo s with
    | v :: todo =>
        Ok ({| s_low := s_low s; s_high := s_high s; s_todo := todo; s_results := results |}, (Some v, None))
    | [] =>
        let* best := best_of results in
        let* index := index_of (fst best) results 0 in
        let before := Nat.pred index in
        let after := Nat.min (length results - 1) (S index) in
        let* low := at_index results before in
        let* high := at_index results after in
        if high - low <? 8 then
          Ok ({| s_low := low; s_high := high; s_todo := []; s_results := results |}, (None, Some best))
        else
          let s := start_range low high in
          match s_todo s with
          | v :: todo =>
              Ok ({| s_low := low; s_high := high; s_todo := todo; s_results := [] |}, (Some v, None))
          | [] => Raise Unmodelled
          end
    end.
End Searcher.

(** ** Requests *)
Inductive bmsg :=
| StopMsg                       (* d stop *)
| PwmMsg (voltage : float)      (* d pwm 0 {voltage:.3f} *)
| PosMsg (voltage : float)      (* d pos nan {espeed} nan o{voltage} a{eaccel} *)
| TrimMsg (axis : Z)            (* conf set auxN.spi.trim *)
| BctMsg (bct : Z)              (* conf set auxN.spi.bct *)
| PolesMsg (poles : float)      (* conf set motor.poles *)
| MinMsg (position : float)     (* conf set servopos.position_min *)
| MaxMsg (position : float)     (* conf set servopos.position_max *)
| WriteMsg.                     (* conf write *)

Inductive bname := NBct | NTrim | NPoles | NMin | NMax.

Inductive breq :=
| BTelStop                      (* write_message(b"tel stop") *)
| BFlush                        (* flush_read() *)
| BCommand (m : bmsg)           (* Stream.command *)
| BRead (n : bname)             (* histogram.read_config_double *)
| BCurrent                      (* hypot(d_A, q_A) of read_data("servo_stats") *)
| BSleep (seconds : float)      (* asyncio.sleep *)
| BSource                       (* find_source, 197-229 *)
| BCapture (source : Z).        (* histogram.capture_histogram, 246-253: the values *)
Definition brep (r : breq) : Type :=
  match r with
  | BRead _ | BCurrent => float
  | BSource => Z
  | BCapture _ => list float
  | _ => unit
  end.
Notation bproc := (proc breq brep).
Definition bask (r : breq) : bproc (brep r) := ask r.
Definition bcommand (m : bmsg) : bproc unit := bask (BCommand m).

Section Program.
  (** sum() of floats, and numpy.std *)
  Variables (py_sum : list float -> float) (np_std : list float -> float).
  (** --power and --force-voltage *)
  Variables (power : float) (force_voltage : option float).

  (** [[... for _ in range(n)]] *)
  Fixpoint currents (n : nat) : bproc (list float) :=
    match n with
    | O => Ret []
    | S n => do x <- bask BCurrent; do xs <- currents n; Ret (x :: xs)
    end.

  (** find_current (measure_ma732_bct.py 155-170) *)
  Definition find_current (voltage : float) : bproc float :=
    do _ <- bcommand (PwmMsg voltage);
    do _ <- bask (BSleep (flit 15 2));
    do data <- currents 10;
    do _ <- bcommand StopMsg;
    do _ <- bask (BSleep (flit 5 2));
    Ret (fdiv (py_sum data) (float_of_Z 10)).

  (** find_open_loop_voltage (measure_ma732_bct.py 172-186) *)
  Definition voltage_turn (voltage : float) : bproc (float + float) :=
    do this_current <- find_current voltage;
    if fltb power (fmul this_current voltage) then Ret (inr voltage)
    else Ret (inl (fmul voltage (flit 11 1))).
  Definition find_open_loop_voltage : bproc float :=
    match force_voltage with
    | Some v => Ret v
    | None => Loop voltage_turn (flit 1 2) (fun v => Ret v)
    end.

  (** find_best_bct (measure_ma732_bct.py 232-270).  [None] to try is compared with a number (238),
      which is a TypeError. *)
  Definition bct_turn (voltage : float) (source : Z) (x : @searcher float * option Z)
    : bproc ((@searcher float * option Z) + (Z * float)) :=
    let '(s, to_try) := x in
    match to_try with
    | None => Throw (Exn TypeError)
    | Some v =>
        do _ <- bcommand (TrimMsg (if v >? 0 then 1 else 2));
        do _ <- bcommand (BctMsg (Z.abs v));
        do _ <- bcommand (PosMsg voltage);
        do _ <- bask (BSleep (flit 1 0));
        do values <- bask (BCapture source);
        do _ <- bcommand StopMsg;
        do _ <- bask (BSleep (flit 5 1));
        let finite := filter isfinite values in
        if fltb (float_of_Z (Z.of_nat (length finite))) (fmul (flit 3 1) (float_of_Z (Z.of_nat (length values)))) then
          do r <- lift (search feqb fltb s None);
          let '(s, (to_try, _)) := r in Ret (inl (s, to_try))
        else
          do r <- lift (search feqb fltb s (Some (v, np_std finite)));
          let '(s, (to_try, best)) := r in
          match best with
          | Some b => Ret (inr b)
          | None => Ret (inl (s, to_try))
          end
    end.
  Definition find_best_bct (voltage : float) (source : Z) : bproc (Z * float) :=
    do r <- lift (search feqb fltb new_searcher None);
    let '(s, (to_try, _)) := r in
    Loop (bct_turn voltage source) (s, to_try) (fun b => Ret b).

  Definition fnan : float := S754_nan.

  (** measure_ma732_bct.py 94-129, up to the limit that is switched off last: what was read of the
      poles and limits, the voltage and the source *)
  Definition opening : bproc (float * float * float * float * Z) :=
    do _ <- bask BTelStop;
    do _ <- bask BFlush;
    do _ <- bcommand StopMsg;
    do _ <- bask (BRead NBct);
    do _ <- bask (BRead NTrim);
    do poles <- bask (BRead NPoles);
    do lo <- bask (BRead NMin);
    do hi <- bask (BRead NMax);
    do voltage <- find_open_loop_voltage;
    do source <- bask BSource;
    do _ <- bcommand (BctMsg 0);
    do _ <- bcommand (TrimMsg 0);
    do _ <- bcommand (PolesMsg (float_of_Z 2));
    do _ <- bcommand (MinMsg fnan);
    Ret (poles, lo, hi, voltage, source).

  (** measure_ma732_bct.py 134-140 *)
  Definition measuring (voltage : float) (source : Z) : bproc unit :=
    do b <- find_best_bct voltage source;
    do _ <- bcommand StopMsg;
    do _ <- bcommand (TrimMsg (if fst b >? 0 then 1 else 2));
    bcommand (BctMsg (fst b)).

  (** measure_ma732_bct.py 144-150 *)
  Definition restoring (poles lo hi : float) : bproc unit :=
    do _ <- bcommand StopMsg;
    do _ <- bcommand (PolesMsg poles);
    do _ <- bcommand (MinMsg lo);
    bcommand (MaxMsg hi).

  (** run (measure_ma732_bct.py 90-153) *)
  Definition run : bproc unit :=
    do x <- opening;
    let '(poles, lo, hi, voltage, source) := x in
    do _ <- bcommand (MaxMsg fnan);
    do _ <- finally (measuring voltage source) (restoring poles lo hi);
    bcommand WriteMsg.
End Program.
