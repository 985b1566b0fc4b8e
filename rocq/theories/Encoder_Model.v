(** Model of encoder calibration:
    /repo/lib/python/moteus/calibrate_encoder.py 20-26 (a sample), 175-190 (the result),
    214-436 (calibrate) and 465-510 (calibrate_hall).  The file of samples is in
    Calfile_Model.v.  Progress output and
    the debug dict are left out. *)
From Coq Require Import ZArith List Bool Floats.SpecFloat Reals.
From Verif Require Import PyBase PyBytes PyFloat Tool_Model Calib_Model.
Import ListNotations.
Open Scope Z_scope.

(** More operations on numbers: a decimal literal m / 10^k, round(x) to the
    nearest integer (ties to the even one) and int(x). *)
Record cal_ops (T : Type) := CalOps {
  c_lit : Z -> Z -> T;
  c_round : T -> res Z;
  c_trunc : T -> res Z
}.
Arguments c_lit {T} _ _ _. Arguments c_round {T} _ _. Arguments c_trunc {T} _ _.

(** class Entry (calibrate_encoder.py 20-26) *)
Record entry (T : Type) := Entry {
  e_direction : Z; e_phase : Z; e_encoder : Z; e_i1 : T; e_i2 : T; e_i3 : T
}.
Arguments Entry {T} _ _ _ _ _ _. Arguments e_direction {T} _. Arguments e_phase {T} _.
Arguments e_encoder {T} _. Arguments e_i1 {T} _. Arguments e_i2 {T} _. Arguments e_i3 {T} _.

(** What is appended to result.errors, without the texts. *)
Inductive cal_error :=
| EncoderDistance        (* calibrate_encoder.py 244 *)
| NotIntegral            (* 297-299 *)
| ExcessiveError.        (* 415-416 *)

(** class CalibrationResult (calibrate_encoder.py 175-190); current_quality_factor is not set
    by calibrate. *)
Record cal_result (T : Type) := CalResult {
  r_invert : bool; r_phase_invert : bool; r_poles : Z; r_offset : list T;
  r_total_phase : T; r_total_delta : Z; r_ratio : T; r_fit_metric : T;
  r_errors : list cal_error
}.
Arguments CalResult {T} _ _ _ _ _ _ _ _ _.
Arguments r_invert {T} _. Arguments r_phase_invert {T} _. Arguments r_poles {T} _.
Arguments r_offset {T} _. Arguments r_total_phase {T} _. Arguments r_total_delta {T} _.
Arguments r_ratio {T} _. Arguments r_fit_metric {T} _. Arguments r_errors {T} _.

(** sum([_wrap_int16(b - a) for a, b in zip(l[0:], l[1:])])
    (calibrate_encoder.py 237-239 and 289-291) *)
Fixpoint total_steps (l : list Z) : res Z :=
  match l with
  | a :: ((b :: _) as l') =>
      let* d := wrap_int16 (b - a) in
      let* s := total_steps l' in
      Ok (d + s)
  | _ => Ok 0
  end.

(** Which signs to invert (calibrate_encoder.py 246-265): (invert, phase_invert).
    Simplification: desired_direction is an integer. *)
Definition inversions (desired_direction total_delta : Z) : res (bool * bool) :=
  if (desired_direction >? 0) && (total_delta >? 0) then Ok (false, false)
  else if (desired_direction <? 0) && (total_delta <? 0) then Ok (true, false)
  else if (desired_direction <? 0) && (total_delta >? 0) then Ok (true, true)
  else if (desired_direction >? 0) && (total_delta <? 0) then Ok (false, true)
  else Raise RuntimeError.

(** sorted(l, key=lambda x: x.encoder) (calibrate_encoder.py 309-310), which is stable. *)
Fixpoint insert_entry {T} (e : entry T) (l : list (entry T)) : list (entry T) :=
  match l with
  | [] => [e]
  | f :: l' => if e_encoder e <? e_encoder f then e :: l else f :: insert_entry e l'
  end.
Definition sort_entries {T} (l : list (entry T)) : list (entry T) :=
  fold_left (fun acc e => insert_entry e acc) l [].

Definition set_phase {T} (p : Z) (e : entry T) : entry T :=
  Entry (e_direction e) p (e_encoder e) (e_i1 e) (e_i2 e) (e_i3 e).

(** calibrate_encoder.py 274-275, 277-278 *)
Definition flip_phase {T} (e : entry T) : res (entry T) :=
  let* p := wrap_uint16 (- e_phase e) in
  Ok (Entry (e_direction e) p (e_encoder e) (e_i1 e) (e_i3 e) (e_i2 e)).

(** calibrate_encoder.py 282, 284 *)
Definition flip_encoder {T} (e : entry T) : entry T :=
  Entry (e_direction e) (e_phase e) (65535 - e_encoder e) (e_i1 e) (e_i2 e) (e_i3 e).

Section Calibrate.
  Context {T : Type} (ar : arith T) (co : cal_ops T).
  Let num := a_of_Z ar.

  (** scipy.optimize.minimize(metric, offset, tol=1e1)
      (calibrate_encoder.py 395): optimres.success and optimres.x *)
  Variable minimize : list T -> bool * list T.

  (** What is known after the first half: the data as changed, and the first
      attributes of the result. *)
  Record front := Front {
    f_up : list (entry T); f_down : list (entry T);
    f_invert : bool; f_phase_invert : bool;
    f_total_phase : T; f_total_delta : Z; f_ratio : T; f_poles : Z;
    f_errors : list cal_error
  }.

  (** calibrate_encoder.py 229-305 *)
  Definition calibrate_front (phase_up phase_down : list (entry T)) (desired_direction : Z)
    (max_remainder_error : T) (allow_phase_invert : bool) : res front :=
    if (length phase_up <? 2)%nat || (length phase_down <? 2)%nat then Raise RuntimeError
    else
      let phase_up := skipn 4 phase_up in
      let* total_delta := total_steps (map e_encoder phase_up) in
      let errors := if Z.abs (Z.abs total_delta - 65536) >? 5000 then [EncoderDistance] else [] in
      let* inv := inversions desired_direction total_delta in
      let '(invert, phase_invert) := inv in
      if phase_invert && negb allow_phase_invert then Raise RuntimeError
      else
        let* phase_up := (if phase_invert then map_res flip_phase phase_up else Ok phase_up) in
        let* phase_down := (if phase_invert then map_res flip_phase phase_down else Ok phase_down) in
        let phase_up := if invert then map flip_encoder phase_up else phase_up in
        let phase_down := if invert then map flip_encoder phase_down else phase_down in
        let total_delta := if invert then total_delta * -1 else total_delta in
        let* steps := total_steps (map e_phase phase_up) in
        let total_phase := num steps in
        let* ratio := a_div ar total_phase (num total_delta) in
        let* rounded := c_round co ratio in
        let remainder := a_abs ar (a_sub ar (num rounded) ratio) in
        let errors := if a_lt ar max_remainder_error remainder
                      then errors ++ [NotIntegral] else errors in
        Ok (Front phase_up phase_down invert phase_invert total_phase total_delta ratio
                  (rounded * 2) errors).

  (** Making the two start from the same place (calibrate_encoder.py 312-317): what is added to
      the phases of [down]. *)
  Definition phase_change (up down : list (entry T)) : res Z :=
    let* d0 := py_index down 0 in
    let* u0 := py_index up 0 in
    let offset := e_phase d0 - e_phase u0 in
    if Z.abs offset >? 32767 then
      let* q := a_div ar (num offset) (num 65536) in
      let* r := c_round co q in
      Ok (-65536 * r)
    else Ok 0.

  (** 2.0 * math.pi / 65536.0 *)
  Definition phase_scale : res T := a_div ar (a_mul ar (num 2) (a_pi ar)) (num 65536).

  (** 0.80 * MAX_ERROR and 0.80 * MAX_STEP_CHANGE (calibrate_encoder.py 349-356) *)
  Definition MAX_ERROR : T := c_lit co 8 1.
  Definition MAX_STEP_CHANGE : T := c_lit co 35 1.
  Definition PENALTY_RATIO : T := c_lit co 8 1.

  (** list(range(0, 65536, 65536 // BIN_COUNT)) (calibrate_encoder.py 346) *)
  Definition offset_x : list T := map (fun i => num (1024 * Z.of_nat i)) (seq 0 64).

  (** calibrate_encoder.py 361-362, 407-408; list(x) + [x[0]] *)
  Definition resample (xpos x : list T) : res (list T) :=
    let* x0 := py_index x 0 in
    interpolate ar xpos (offset_x ++ [num 65536]) (x ++ [x0]).

  (** calibrate_encoder.py 363-371: result and errors.  x ** 2 is taken as x * x. *)
  Fixpoint metric_samples (l : list (T * T)) (result : T) (errors : Z) : res (T * Z) :=
    match l with
    | [] => Ok (result, errors)
    | (a, b) :: l =>
        let* w := wrap ar (a_sub ar a b) in
        let this_err := a_abs ar w in
        let limit := a_mul ar PENALTY_RATIO MAX_ERROR in
        let this_err := if a_lt ar limit this_err
                        then a_add ar limit (a_mul ar (a_sub ar this_err limit) (num 10))
                        else this_err in
        let errors := if a_lt ar MAX_ERROR this_err then errors + 1 else errors in
        metric_samples l (a_add ar result (a_mul ar this_err this_err)) errors
    end.

  (** calibrate_encoder.py 373-378 *)
  Fixpoint metric_steps (x : list T) (is : list nat) (result : T) : res T :=
    match is with
    | [] => Ok result
    | i :: is =>
        let nexti := (Z.of_nat i + 1) mod Z.of_nat (length x) in
        let* b := py_index x nexti in
        let* a := py_index x (Z.of_nat i) in
        let delta := a_abs ar (a_sub ar b a) in
        let limit := a_mul ar PENALTY_RATIO MAX_STEP_CHANGE in
        let over := a_sub ar delta limit in
        metric_steps x is
          (if a_lt ar limit delta
           then a_add ar result (a_mul ar (num 10) (a_mul ar over over)) else result)
    end.

  (** full_metric (calibrate_encoder.py 358-379) *)
  Definition full_metric (xpos err x : list T) : res (T * Z) :=
    let* resampled := resample xpos x in
    let* r := metric_samples (combine err resampled) (num 0) 0 in
    let* m := metric_steps x (seq 0 (length x)) (fst r) in
    Ok (m, snd r).

  (** The error against the expected phase (calibrate_encoder.py 319-341); up and down are sorted
      by encoder.  [xpos]: see below. *)
  Definition phase_error (xpos : list T) (up down : list (entry T)) (poles : Z) : res (list T) :=
    let* s := phase_scale in
    let angles l := unwrap ar (map (fun e => a_mul ar s (num (e_phase e))) l) in
    let encoders l := map (fun e => num (e_encoder e)) l in
    let* phase_up_phase := angles up in
    let* phase_down_phase := angles down in
    let* pu_interp := interpolate ar xpos (encoders up) phase_up_phase in
    let* pd_interp := interpolate ar xpos (encoders down) phase_down_phase in
    let avg_interp := map (fun p => a_mul ar (c_lit co 5 1) (a_add ar (fst p) (snd p)))
                          (combine pu_interp pd_interp) in
    let* half := a_div ar (num poles) (num 2) in
    let expected := map (fun x => a_mul ar (a_mul ar s half) x) xpos in
    let err := map (fun p => a_sub ar (fst p) (snd p)) (combine avg_interp expected) in
    let* mean_err := a_div ar (a_sum ar err) (num (Z.of_nat (length err))) in
    let* wrapped_mean_err := wrap ar mean_err in
    let delta_mean_err := a_sub ar mean_err wrapped_mean_err in
    Ok (map (fun x => a_sub ar x delta_mean_err) err).

  (** calibrate_encoder.py 343-347 *)
  Definition initial_offset (xpos err : list T) (poles : Z) : res (list T) :=
    let* q := a_div ar (num (Z.of_nat (length err))) (num poles) in
    let* avg_window := c_trunc co q in
    let* avg_err := window_average ar err avg_window in
    interpolate ar offset_x xpos avg_err.

  (** calibrate_encoder.py 386-402.  When the optimisation did not succeed,
      [result.message] is read (399), which a CalibrationResult does not
      have. *)
  Definition optimize (allow_optimize force_optimize : bool) (xpos err offset : list T)
    : res (list T) :=
    let* start := full_metric xpos err offset in
    if force_optimize || (allow_optimize && (a_lt ar (num 30) (fst start) || (snd start >? 0))) then
      let '(success, x) := minimize offset in
      if success : bool then Ok x else Raise AttributeError
    else Ok offset.

  (** calibrate_encoder.py 229-436 calibrate: the result, and phase_up and
      phase_down of the argument afterwards. *)
  Definition calibrate (phase_up phase_down : list (entry T)) (desired_direction : Z)
    (max_remainder_error : T) (allow_phase_invert allow_optimize force_optimize : bool)
    : res (cal_result T * (list (entry T) * list (entry T))) :=
    let* f := calibrate_front phase_up phase_down desired_direction max_remainder_error
                              allow_phase_invert in
    let phase_up_by_encoder := sort_entries (f_up f) in
    let phase_down_by_encoder := sort_entries (f_down f) in
    let* change := phase_change phase_up_by_encoder phase_down_by_encoder in
    let shift e := set_phase (e_phase e + change) e in
    let phase_down_by_encoder := map shift phase_down_by_encoder in
    let* xpos := linspace ar (num 0) (num 65535) 10000 in
    let* err := phase_error xpos phase_up_by_encoder phase_down_by_encoder (f_poles f) in
    let* offset := initial_offset xpos err (f_poles f) in
    let* offset := optimize allow_optimize force_optimize xpos err offset in
    let* fit := full_metric xpos err offset in
    let* resampled_offset := resample xpos offset in
    let* sample_errors := map_res (fun p => wrap ar (a_sub ar (fst p) (snd p)))
                                  (combine err resampled_offset) in
    let errors := f_errors f ++
      (if existsb (fun x => a_lt ar MAX_ERROR (a_abs ar x)) sample_errors
       then [ExcessiveError] else []) in
    Ok (CalResult (f_invert f) (f_phase_invert f) (f_poles f) offset
          (f_total_phase f) (f_total_delta f) (f_ratio f) (fst fit) errors,
        (f_up f, map shift (f_down f))).

  (** ** calibrate_hall (calibrate_encoder.py 465-510) *)

  (** hall_mapping (calibrate_encoder.py 470-472) *)
  Definition hall_mapping : list Z := [0; 0; 2; 1; 4; 5; 3; 0].

  (** min() of pairs: the first of the smallest, compared by the first component,
      and by the second where the first ones are equal. *)
  Definition pair_lt (p q : T * Z) : bool :=
    if a_eq ar (fst p) (fst q) then snd p <? snd q else a_lt ar (fst p) (fst q).
  Definition pair_min (l : list (T * Z)) : res (T * Z) :=
    match l with
    | [] => Raise ValueError
    | p :: l => Ok (fold_left (fun m q => if pair_lt q m then q else m) l p)
    end.

  (** The first count after the start that is different (calibrate_encoder.py 491-495) *)
  Fixpoint next_count (start : Z) (last : Z) (states : list Z) : res Z :=
    match states with
    | [] => Ok last
    | x :: states =>
        let* n := py_index hall_mapping x in
        if negb (n =? start) then Ok n else next_count start n states
    end.

  Record hall_result := HallResult {
    h_offset : Z; h_sign : Z; h_polarity : Z; h_phase_invert : Z
  }.

  (** calibrate_encoder.py 465-510.  Simplification: the states are integers. *)
  Definition calibrate_hall (data : list (T * Z)) (desired_direction : Z)
    (allow_phase_invert : bool) : res hall_result :=
    let states := map snd data in
    let counts := nodup Z.eq_dec states in
    if negb (length counts =? 6)%nat then Raise RuntimeError
    else if existsb (Z.eqb 0) states || existsb (Z.eqb 7) states then Raise RuntimeError
    else
      let* distances := map_res (fun x => let* w := wrap ar (fst x) in Ok (a_abs ar w, snd x)) data in
      let* closest_to_zero := pair_min distances in
      let* count := py_index hall_mapping (snd closest_to_zero) in
      let* first := py_index states 0 in
      let* start_count := py_index hall_mapping first in
      let* next_count := next_count start_count start_count (tl states) in
      let sign := if (next_count + 6 + 3 - start_count) mod 6 - 3 >? 0 then 1 else -1 in
      if desired_direction =? -1 then
        if negb allow_phase_invert then Raise RuntimeError
        else Ok (HallResult (- count) (sign * -1) 0 1)
      else Ok (HallResult (- count) sign 0 0).
End Calibrate.
Arguments Front {T} _ _ _ _ _ _ _ _ _. Arguments f_up {T} _. Arguments f_down {T} _.
Arguments f_invert {T} _. Arguments f_phase_invert {T} _. Arguments f_total_phase {T} _.
Arguments f_total_delta {T} _. Arguments f_ratio {T} _. Arguments f_poles {T} _.
Arguments f_errors {T} _.

(** ** The instances *)

(** round() of a float: the sign, and the magnitude as a fraction. *)
Definition round_half_even (z d : Z) : Z :=
  let q := z / d in
  let r := z mod d in
  if 2 * r <? d then q
  else if 2 * r >? d then q + 1
  else if Z.even q then q else q + 1.

Definition float_round (x : float) : res Z :=
  match x with
  | S754_nan => Raise ValueError
  | S754_infinity _ => Raise OverflowError
  | S754_zero _ => Ok 0
  | S754_finite s m e =>
      let z := if s then - Zpos m else Zpos m in
      if e <? 0 then Ok (round_half_even z (2 ^ (- e))) else Ok (z * 2 ^ e)
  end.

Definition float_ops : cal_ops float := CalOps _ flit float_round py_int.

Definition real_round (x : R) : Z :=
  let q := up x - 1 in
  if Rltb (x - IZR q) (1 / 2) then q
  else if Rltb (1 / 2) (x - IZR q) then q + 1
  else if Z.even q then q else q + 1.

Definition real_trunc (x : R) : Z := if Rltb x 0 then - (up (- x) - 1) else up x - 1.

Definition real_ops : cal_ops R :=
  CalOps _ (fun m k => (IZR m / IZR (10 ^ k))%R) (fun x => Ok (real_round x)) (fun x => Ok (real_trunc x)).
