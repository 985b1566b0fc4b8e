(** Model of the two programs that record and store compensation tables:
    /repo/utils/compensate_cogging.py and /repo/utils/compensate_encoder.py, with what they use of
    /repo/utils/histogram.py.

    Plots and printing are left out, except where printing can fail.  sys.exit() is the result
    [None].  Simplifications: the answer of the device is ASCII where the code decodes it as UTF-8
    (other bytes are an error here, as almost all of them are there), and numbers whose conversion
    to a float overflows do not occur as counts. *)
From Coq Require Import Ascii String ZArith List Bool Floats.SpecFloat.
From Verif Require Import PyBase PyBytes PyFloat Tool_Model Calib_Model Config_Model Encoder_Model
  Calfile_Model Flash_Model Tree_Model Proc.
Import ListNotations.
Open Scope Z_scope.

(** ** What is awaited *)

(** The registers of an answer that are used (compensate_encoder.py 139-145, 171-172). *)
Record reading := { rd_encoder0 : float; rd_encoder1 : float; rd_encoder2 : float; rd_mode : Z; rd_fault : Z }.

Inductive kreq :=
| KCommand (text : list Z) (any : bool)   (* Stream.command, and allow_any_response *)
| KWrite (text : list Z)                  (* Stream.write_message *)
| KFlush                                  (* Stream.flush_read *)
| KSources                                (* read_data("motor_position").sources: active_velocity, active_theta *)
| KStats                                  (* read_data('servo_stats'): mode, fault *)
| KPosition (velocity kp_scale : float)   (* Controller.set_position(position=nan, query=True) *)
| KStop                                   (* Controller.set_stop() *)
| KSleep (seconds : float)                (* asyncio.sleep *)
| KNow                                    (* time.time() *)
| KSave (reverse forward : option (list float))  (* json.dump of the recording *)
| KNote (points : list (float * float)).  (* --write-unbiased, --write-integrated *)

Definition krep (r : kreq) : Type :=
  match r with
  | KCommand _ _ => list Z
  | KSources => list (bool * bool)
  | KStats => (Z * Z)%type
  | KPosition _ _ => option reading       (* None: no answer *)
  | KNow => float
  | _ => unit
  end.

Notation K := (proc kreq krep).
Definition kawait (r : kreq) : K (krep r) := @ask kreq krep r.
Definition kcommand (text : list Z) : K (list Z) := kawait (KCommand text false).

(** .decode('utf8'), for ASCII *)
Definition ascii (l : list Z) : res (list Z) :=
  if forallb (fun b => (0 <=? b) && (b <=? 127)) l then Ok l else Raise UnicodeError.

(** min(l) of floats: the first of the least *)
Definition fmin_list (l : list float) : res float :=
  match l with
  | [] => Raise ValueError
  | x :: l => Ok (fold_left (fun m x => if fltb x m then x else m) l x)
  end.
(** max(x, y) of two *)
Definition fmax2 (x y : float) : float := if fgtb y x then y else x.

(** for i, x in enumerate(l) *)
Fixpoint each_from {X} (i : Z) (f : Z -> X -> K unit) (l : list X) : K unit :=
  match l with
  | [] => Ret tt
  | x :: l => do _ <- f i x; each_from (i + 1) f l
  end.

(** ** The calculations of compensate_encoder.py

    They are over the operations of [arith] (Calib_Model.v); [fmod] is math.fmod(x, 1.0) and [np_mean]
    numpy.mean. *)
Section Numbers.
  Context {N : Type} (ar : arith N) (fmod : N -> res N) (np_mean : list N -> N).
  Let num := a_of_Z ar.
  Let half_of : res N := a_div ar (num 1) (num 2).

  (** mean_value (83-84) *)
  Definition mean_value (l : list (N * N)) : res N :=
    a_div ar (a_sum ar (map snd l)) (num (Z.of_nat (length l))).

  (** integrate (87-103): the loop; [old] is xyvalues[i - 1] and [rest] the values from
      xyvalues[i % len] on. *)
  Fixpoint integrate_from (lastx v : N) (old : N * N) (rest : list (N * N)) : res (list (N * N)) :=
    match rest with
    | [] => Ok []
    | cur :: rest =>
        let* h := half_of in
        let* d := fmod (a_add ar (a_sub ar (fst cur) (fst old)) (num 1)) in
        let delta := a_mul ar (a_mul ar d h) (a_add ar (snd cur) (snd old)) in
        let v := a_add ar v delta in
        let* d' := fmod (a_sub ar (a_add ar (num 1) (fst cur)) (fst old)) in
        let x := a_add ar lastx d' in
        let* l := integrate_from x v cur rest in
        Ok ((x, v) :: l)
    end.
  Definition integrate (l : list (N * N)) : res (list (N * N)) :=
    match l with
    | [] => Raise IndexError
    | p :: rest =>
        let* r := integrate_from (fst p) (num 0) p (rest ++ [p]) in
        Ok ((fst p, num 0) :: r)
    end.

  (** measured_velocities (263-265) *)
  Fixpoint placed (i n : Z) (l : list N) : res (list (N * N)) :=
    match l with
    | [] => Ok []
    | v :: l =>
        let* h := half_of in
        let* x := a_div ar (a_add ar (num i) h) (num n) in
        let* r := placed (i + 1) n l in
        Ok ((x, v) :: r)
    end.

  (** unbiased_velocities (270-275) *)
  Definition unbiased (l : list (N * N)) : res (list (N * N)) :=
    let* mean := mean_value l in
    map_res (fun p => let* q := a_div ar (snd p) mean in Ok (fst p, a_sub ar q (num 1))) l.

  (** integrated_velocities, unbiased_integrated_velocities (294-299) *)
  Definition integrated (l : list (N * N)) : res (list (N * N)) :=
    let* i := integrate l in
    let* mean := mean_value i in
    Ok (map (fun p => (fst p, a_sub ar (snd p) mean)) i).

  (** wrap_half (123-128), wrap_zero_one (131-136).  The loops get turns enough for the number; on an
      infinity, or where 1.0 is lost in rounding, the code never returns. *)
  Fixpoint wrap_loop (n : nat) (go : N -> bool) (step : N -> N) (v : N) : res N :=
    match n with
    | O => Raise Diverges
    | S n => if go v then wrap_loop n go step (step v) else Ok v
    end.
  Let down (v : N) := a_sub ar v (num 1).
  Let upward (v : N) := a_add ar v (num 1).
  Definition wrap_half (value : N) : res N :=
    let* h := half_of in
    let* v := wrap_loop (a_turns ar value) (fun v => a_lt ar h v) down value in
    wrap_loop (a_turns ar v) (fun v => a_lt ar v (a_neg ar h)) upward v.
  Definition wrap_zero_one (value : N) : res N :=
    let* v := wrap_loop (a_turns ar value) (fun v => a_lt ar (num 1) v) down value in
    wrap_loop (a_turns ar v) (fun v => a_lt ar v (num 0)) upward v.

  (** offset and error_values (189-191), each with its place; a pair is what the reference and the
      measured encoder read. *)
  Definition deviations (pairs : list (N * N)) : res (list (N * N)) :=
    let* offsets := map_res (fun p => wrap_zero_one (a_sub ar (fst p) (snd p))) pairs in
    let offset := np_mean offsets in
    map_res (fun p => let* w := wrap_half (a_sub ar (a_sub ar (fst p) offset) (snd p)) in
                      Ok (snd p, a_neg ar w)) pairs.
End Numbers.

Section Compensate.
  (** float(s), f"{x}" of a float, sum() of floats, numpy.mean. *)
  Variable parse_float : list Z -> res float.
  Variable float_str : float -> list Z.
  Variable py_sum : list float -> float.
  Variable np_mean : list float -> float.

  (** ** histogram.py *)

  (** capture_histogram: one line (46, 49) *)
  Definition hist_row (x : list Z) : res float :=
    let* row := map_res parse_float (split_on 32 (str_strip x)) in
    py_index row 1.

  (** capture_histogram: the answer to "d hend" (44-49) *)
  Definition hist_rows (results : list Z) : res (list float) :=
    let* results := ascii results in
    map_res hist_row (filter (fun x => negb (length (str_strip x) =? 0)%nat) (split_on 10 results)).

  (** f'm{start} M{end}' (30-34) *)
  Definition split_str (i n : Z) : list Z :=
    if n >? 1 then lit "m" ++ float_str (fdiv (float_of_Z i) (float_of_Z n)) ++
                   lit " M" ++ float_str (fdiv (float_of_Z (i + 1)) (float_of_Z n))
    else [].

  (** ' '.join(cmd_args) (36-41); [options] is ' '.join(hist_options), which is never blank *)
  Definition hstart (options split : list Z) : list Z :=
    lit "d hstart " ++ options ++ (match split with [] => [] | _ => 32 :: split end).

  (** capture_histogram (22-51): the values; the other result is not used *)
  Fixpoint capture_splits (options : list Z) (n : Z) (sample_time : Z) (splits : list Z) : K (list float) :=
    match splits with
    | [] => Ret []
    | i :: splits =>
        do _ <- kcommand (hstart options (split_str i n));
        do _ <- kawait (KSleep (float_of_Z sample_time));
        do results <- kcommand (lit "d hend");
        do data <- lift (hist_rows results);
        do rest <- capture_splits options n sample_time splits;
        Ret (data ++ rest)
    end.
  Definition capture_histogram (options : list Z) (split_count sample_time : Z) : K (list float) :=
    capture_splits options split_count sample_time (py_range 0 split_count).

  (** read_config_double (54-57) *)
  Definition get_double (name : list Z) : K float :=
    do result <- kawait (KCommand (lit "conf get " ++ name) true);
    do text <- lift (ascii result);
    lift (parse_float text).

  (** f"motor_position.sources.{n}.{name}" *)
  Definition source (n : Z) (name : list Z) : list Z :=
    lit "motor_position.sources." ++ int_str n ++ lit "." ++ name.

  (** can_compensate_encoder (60-70): None for sys.exit *)
  Definition can_compensate_encoder (channel : Z) : K (option unit) :=
    do sources <- kawait KSources;
    do s <- lift (py_index sources channel);
    if negb (fst s && snd s) then Ret None
    else
      do type <- get_double (source channel (lit "type"));
      if feqb type (float_of_Z 4) then Ret None else Ret (Some tt).

  (** f'conf set {name} {value}' *)
  Definition conf_set (name value : list Z) : list Z := lit "conf set " ++ name ++ [32] ++ value.
  Definition kset (name value : list Z) : K unit :=
    do _ <- kcommand (conf_set name value); Ret tt.

  (** await s.write_message(b"tel stop"), await s.flush_read(), await s.command(b"d stop")
      (compensate_cogging.py 105-107, compensate_encoder.py 373-375) *)
  Definition quiet : K unit :=
    do _ <- kawait (KWrite (lit "tel stop"));
    do _ <- kawait KFlush;
    do _ <- kcommand (lit "d stop");
    Ret tt.

  (** ** compensate_cogging.py *)
  Record cogging_args := {
    cg_input : option (res (list float * list float));  (* --input: what is read, reverse and forward *)
    cg_average_count : Z; cg_speed : float; cg_split_count : Z; cg_store : bool
  }.

  Definition COGGING_TABLE_SIZE : Z := 1024.

  (** One direction of read_data (54-68): None for sys.exit *)
  Definition one_direction (a : cogging_args) (speed output_scale velocity : float) : K (option (list float)) :=
    do _ <- kcommand (lit "d pos nan " ++ float_str (fmul velocity output_scale) ++ lit " nan a4");
    do _ <- kawait (KSleep (float_of_Z 2));
    do q <- lift (float_div (float_of_Z (cg_average_count a)) speed);
    do sample_time <- lift (py_int q);
    do values <- capture_histogram (lit "yq") (cg_split_count a) sample_time;
    do _ <- kcommand (lit "d stop");
    do _ <- kawait (KSleep (float_of_Z 2));
    if existsb (fun x => negb (isfinite x)) values then Ret None else Ret (Some values).

  (** result['reverse'] = values or result['forward'] = values (70-73) *)
  Definition keep (velocity : float) (values : list float) (result : option (list float) * option (list float)) :=
    if fltb velocity (float_of_Z 0) then (Some values, snd result) else (fst result, Some values).

  (** read_data (31-80): the members 'reverse' and 'forward' *)
  Definition read_data (a : cogging_args) (speed : float) : K (option (option (list float) * option (list float))) :=
    match cg_input a with
    | Some data => do d <- lift data; Ret (Some (Some (fst d), Some (snd d)))
    | None =>
        do _ <- lift (float_div (float_of_Z (cg_average_count a)) speed);           (* 38 *)
        do _ <- kawait (KSleep (float_of_Z 3));
        do position_min <- get_double (lit "servopos.position_min");
        do position_max <- get_double (lit "servopos.position_max");
        do output_scale <- get_double (lit "motor_position.rotor_to_output_ratio");
        do _ <- kcommand (lit "conf set servopos.position_min nan");
        do _ <- kcommand (lit "conf set servopos.position_max nan");
        do first <- one_direction a speed output_scale (fneg speed);
        match first with
        | None => Ret None
        | Some v1 =>
            do second <- one_direction a speed output_scale speed;
            match second with
            | None => Ret None
            | Some v2 =>
                do _ <- kset (lit "servopos.position_min") (float_str position_min);
                do _ <- kset (lit "servopos.position_max") (float_str position_max);
                Ret (Some (keep speed v2 (keep (fneg speed) v1 (None, None))))
            end
        end
    end.

  (** l[start:end] with 0 <= start <= end *)
  Definition slice {A} (start stop : Z) (l : list A) : list A :=
    firstn (Z.to_nat (stop - start)) (skipn (Z.to_nat start) l).

  (** The average of one bin (137-146) *)
  Definition window_average (forward reverse : list float) (source_length i : Z) : res float :=
    let start := i * source_length / COGGING_TABLE_SIZE in
    let stop := (i + 1) * source_length / COGGING_TABLE_SIZE in
    let fwd_window := slice start stop forward in
    let rev_window := slice start stop reverse in
    float_div (fadd (py_sum fwd_window) (py_sum rev_window))
              (float_of_Z (Z.of_nat (length fwd_window) + Z.of_nat (length rev_window))).

  (** The table (130-146) *)
  Definition cogging_average (reverse forward : list float) : res (list float) :=
    let source_length := Z.of_nat (length reverse) in
    if negb (Z.of_nat (length forward) =? source_length) then Raise AssertionError
    else map_res (window_average forward reverse source_length) (py_range 0 COGGING_TABLE_SIZE).

  (** scale and scaled_average (154-155) *)
  Definition cogging_scaled (average : list float) : res (float * list Z) :=
    let* hi := fmax average in
    let* lo := fmin_list average in
    let* scale := float_div (fmax2 (SFabs hi) (SFabs lo)) (float_of_Z 127) in
    let* scaled := map_res (fun x => let* q := float_div x scale in py_int q) average in
    Ok (scale, scaled).

  (** --store (151-161) *)
  Definition cogging_store (average : list float) : K unit :=
    do s <- lift (cogging_scaled average);
    let '(scale, scaled) := s in
    do _ <- kset (lit "motor.cogging_dq_scale") (float_str scale);
    do _ <- each_from 0 (fun i d => kset (lit "motor.cogging_dq_comp." ++ int_str i) (int_str d)) scaled;
    do _ <- kcommand (lit "conf write");
    Ret tt.

  (** main (82-168): None for sys.exit *)
  Definition cogging_main (a : cogging_args) : K (option unit) :=
    do _ <- quiet;
    do p <- get_double (lit "motor.poles");
    do poles <- lift (py_int p);
    do c <- get_double (lit "motor_position.commutation_source");
    do channel <- lift (py_int c);
    do ready <- can_compensate_encoder channel;
    match ready with
    | None => Ret None
    | Some _ =>
        do speed <- lift (float_div (cg_speed a) (float_of_Z poles));
        do data <- read_data a speed;
        match data with
        | None => Ret None
        | Some (reverse, forward) =>
            do _ <- kawait (KSave reverse forward);
            do reverse <- lift (match reverse with Some l => Ok l | None => Raise KeyError end);
            do forward <- lift (match forward with Some l => Ok l | None => Raise KeyError end);
            do average <- lift (cogging_average reverse forward);
            if cg_store a then do _ <- cogging_store average; Ret (Some tt)
            else Ret (Some tt)
        end
    end.

  (** ** compensate_encoder.py *)
  Record encoder_args := {
    en_zero : bool; en_channel : Z; en_reference : option Z;
    en_revolutions : float; en_velocity : float; en_initial_time : float; en_period : float;
    en_kp_scale : float; en_voltage : float; en_split_count : Z;
    en_analyze : bool; en_no_store : bool; en_factor : float; en_absolute : bool;
    en_write_unbiased : bool; en_write_integrated : bool
  }.

  (** --reference-encoder implies --absolute (361-362) *)
  Definition absolute (a : encoder_args) : bool :=
    en_absolute a || match en_reference a with Some _ => true | None => false end.

  (** parse_config (65-68) *)
  Fixpoint parse_config (lines : list (list Z)) (d : items) : res items :=
    match lines with
    | [] => Ok d
    | line :: lines =>
        if (length (bytes_strip line) =? 0)%nat then parse_config lines d
        else match split1 32 line with
             | Some (k, v) => parse_config lines (dset k v d)
             | None => Raise ValueError
             end
    end.

  (** find_compensation_size (70-80).  int(math.log2(size)) is Z.log2 where the next test passes *)
  Definition find_compensation_size (d : items) : res Z :=
    let size := Z.of_nat (length (filter (fun p =>
                  startswith (lit "motor_position.sources.0.compensation_table") (fst p)) d)) in
    if size =? 0 then Raise ValueError
    else if 2 ^ Z.log2 size =? size then Ok size else Raise RuntimeError.

  (** get_encoder (139-145); None for None, of any other channel *)
  Definition get_encoder (x : option reading) (number : Z) : res (option float) :=
    match number with
    | 0 => match x with Some r => Ok (Some (rd_encoder0 r)) | None => Raise AttributeError end
    | 1 => match x with Some r => Ok (Some (rd_encoder1 r)) | None => Raise AttributeError end
    | 2 => match x with Some r => Ok (Some (rd_encoder2 r)) | None => Raise AttributeError end
    | _ => Ok None
    end.

  (** r - m, where neither may be None *)
  Definition number_of (x : option float) : res float :=
    match x with Some v => Ok v | None => Raise TypeError end.

  (** sorted(zip(measure_values, error_values)), by comparison of pairs *)
  Definition pair_ltb (p q : float * float) : bool :=
    fltb (fst p) (fst q) || (feqb (fst p) (fst q) && fltb (snd p) (snd q)).
  Fixpoint insert_pair (p : float * float) (l : list (float * float)) : list (float * float) :=
    match l with
    | [] => [p]
    | q :: l' => if pair_ltb p q then p :: l else q :: insert_pair p l'
    end.
  Definition sort_pairs (l : list (float * float)) : list (float * float) :=
    fold_left (fun acc p => insert_pair p acc) l [].

  (** The loop of run_reference_compensation (155-182): the variables are last_print and the results,
      the last one first. *)
  Definition reference_step (a : encoder_args) (reference : Z) (start total : float)
      (x : float * list (option reading)) : K ((float * list (option reading)) + list (option reading)) :=
    let '(last_print, results) := x in
    do this_result <- kawait (KPosition (en_velocity a) (en_kp_scale a));
    do now <- kawait KNow;
    let duration := fsub now start in
    if fgtb duration total then Ret (inr results)
    else
      let results := if fgtb duration (en_initial_time a) then this_result :: results else results in
      do r <- lift (match this_result with Some r => Ok r | None => Raise AttributeError end);
      if (rd_mode r =? 11) || negb (rd_fault r =? 0) then Throw (Exn RuntimeError)
      else
        do _ <- kawait (KSleep (en_period a));
        if fgtb (fsub now last_print) (flit 1 1) then
          do _ <- lift (let* v := get_encoder this_result reference in
                        let* _ := number_of v in
                        let* v := get_encoder this_result (en_channel a) in
                        number_of v);                                              (* 180-182 *)
          Ret (inl (now, results))
        else Ret (inl (last_print, results)).

  (** What both encoders read (186-187, and the operands of 189) *)
  Definition both_encoders (a : encoder_args) (reference : Z) (results : list (option reading))
      : res (list (float * float)) :=
    let* rs := map_res (fun x => get_encoder x reference) results in
    let* ms := map_res (fun x => get_encoder x (en_channel a)) results in
    map_res (fun p => let* r := number_of (fst p) in
                      let* m := number_of (snd p) in Ok (r, m)) (combine rs ms).

  (** run_reference_compensation (148-210): None for sys.exit *)
  Definition run_reference (a : encoder_args) (reference : Z) : K (option (list (float * float))) :=
    do start <- kawait KNow;
    do q <- lift (float_div (en_revolutions a) (en_velocity a));
    let total := fadd q (en_initial_time a) in
    do results <- Loop (reference_step a reference start total) (start, []) Ret;
    do _ <- kawait KStop;
    do pairs <- lift (both_encoders a reference (rev results));
    do errors <- lift (deviations (float_arith py_sum) np_mean pairs);
    do _ <- lift (fmax (map (fun p => SFabs (snd p)) errors));                      (* 199 *)
    if en_analyze a then Ret None else Ret (Some (sort_pairs errors)).

  (** math.fmod(x, 1.0) *)
  Definition fmod1 (x : float) : res float :=
    match x with
    | S754_nan => Ok S754_nan
    | S754_infinity _ => Raise ValueError
    | S754_zero s => Ok (S754_zero s)
    | S754_finite s m e =>
        Ok (if e <? 0 then binary_normalize prec64 emax64 (cond_Zopp s (Zpos m mod 2 ^ (- e))) e s
            else S754_zero s)
    end.
End Compensate.

Section Encoder.
  Variable parse_float : list Z -> res float.
  Variable float_str : float -> list Z.
  Variable py_sum : list float -> float.
  Variable np_mean : list float -> float.
  (** sample (compensate_encoder.py 106-116): numpy.interp(period=1.0) of the points at n places from
      0 to 1, the heights only; the places are used in a plot. *)
  Variable sample : list (float * float) -> Z -> res (list float).
  Let ar := float_arith py_sum.

  (** The options of the histogram (242-253) *)
  Definition hist_options (a : encoder_args) : list Z :=
    let tap := if en_analyze a || negb (absolute a) then lit "c" else lit "o" in
    lit "xo" ++ int_str (en_channel a) ++ lit " y" ++ tap ++ int_str (en_channel a) ++ lit "d".

  (** run_inertial_compensation (213-301): None for sys.exit *)
  Definition run_inertial (a : encoder_args) : K (option (list (float * float))) :=
    do _ <- kawait (KSleep (float_of_Z 1));
    do _ <- kcommand (lit "d vdq 0 " ++ float_str (en_voltage a));
    do _ <- kawait (KSleep (float_of_Z 1));
    do stats <- kawait KStats;
    if negb (fst stats =? 8) then
      if snd stats =? 36 then Ret None else Throw (Exn RuntimeError)
    else
      do values <- capture_histogram parse_float float_str (hist_options a) (en_split_count a) 8;
      do _ <- kcommand (lit "d stop");
      do measured <- lift (placed ar 0 (Z.of_nat (length values)) values);
      do unbiased_velocities <- lift (unbiased ar measured);
      do _ <- (if en_write_unbiased a then kawait (KNote unbiased_velocities) else Ret tt);
      if en_analyze a then Ret None
      else do r <- lift (integrated ar fmod1 unbiased_velocities); Ret (Some r).

  (** conf set motor_position.sources.{channel}.compensation_table.{i} {value} *)
  Definition table_name (channel i : Z) : list Z := source channel (lit "compensation_table." ++ int_str i).
  Definition scale_name (channel : Z) : list Z := source channel (lit "compensation_scale").

  (** Zeroing the table (396-406) *)
  Definition zero_table (a : encoder_args) (size : Z) (used has_scale : bool) : K unit :=
    do _ <- each_from 0 (fun i _ => kset (table_name (en_channel a) i) (lit "0")) (py_range 0 size);
    do _ <- (if has_scale then kset (scale_name (en_channel a)) (lit "0") else Ret tt);
    do _ <- (if used then do _ <- kcommand (lit "conf set motor.poles 0"); Ret tt else Ret tt);
    do _ <- kcommand (lit "conf write");
    Ret tt.

  (** The table so far, in revolutions (458-463) *)
  Definition old_table (d : items) (channel size : Z) (has_scale : bool) : res (list float) :=
    let* scale := (if has_scale then
                     let* t := Config_Model.item (scale_name channel) d in
                     let* x := parse_float t in
                     float_div x (float_of_Z 127)
                   else Ok (float_of_Z 1)) in
    map_res (fun i => let* t := Config_Model.item (table_name channel i) d in
                      let* x := parse_float t in Ok (fmul x scale)) (py_range 0 size).

  (** The new one (465-470) *)
  Fixpoint new_table (a : encoder_args) (sampled table : list float) : res (list float) :=
    match sampled, table with
    | [], _ => Ok table
    | _ :: _, [] => Raise IndexError
    | x :: sampled, t :: table =>
        let update := fneg x in
        let* r := new_table a sampled table in
        Ok ((if absolute a then update else fadd t (fmul (en_factor a) update)) :: r)
    end.

  (** int(127 * table[i] / new_scale) (475) *)
  Definition quantise (new_scale x : float) : res Z :=
    let* q := float_div (fmul (float_of_Z 127) x) new_scale in
    py_int q.

  (** for i in range(COMPENSATION_SIZE), setting table[i] (474-476, 479-480) *)
  Fixpoint set_table (channel i : Z) (text : float -> res (list Z)) (table : list float) : K unit :=
    match table with
    | [] => Ret tt
    | x :: table =>
        do t <- lift (text x);
        do _ <- kset (table_name channel i) t;
        set_table channel (i + 1) text table
    end.

  (** Saving (458-486) *)
  Definition store (a : encoder_args) (d : items) (size : Z) (used has_scale : bool) (sampled : list float) : K unit :=
    do table <- lift (old_table d (en_channel a) size has_scale);
    do table <- lift (new_table a sampled table);
    do _ <- (if has_scale then
               do new_scale <- lift (fmax (map SFabs table));
               do _ <- set_table (en_channel a) 0
                         (fun x => let* n := quantise new_scale x in Ok (int_str n)) table;
               kset (scale_name (en_channel a)) (float_str new_scale)
             else set_table (en_channel a) 0 (fun x => Ok (float_str x)) table);
    do _ <- (if used then do _ <- kcommand (lit "conf set motor.poles 0"); Ret tt else Ret tt);
    do _ <- kcommand (lit "conf write");
    Ret tt.

  (** try and finally (426-437) *)
  Definition compensation (a : encoder_args) (position_min position_max : float)
      : K (option (list (float * float))) :=
    finally
      (match en_reference a with
       | Some r => run_reference py_sum np_mean a r
       | None => run_inertial a
       end)
      (do _ <- kawait KFlush;
       do _ <- kawait KStop;
       do _ <- kset (lit "servopos.position_min") (float_str position_min);
       kset (lit "servopos.position_max") (float_str position_max)).

  (** The rest of main, after zeroing (414-486): None for sys.exit *)
  Definition measure_and_store (a : encoder_args) (d : items) (size : Z) (used has_scale : bool) : K (option unit) :=
    do ready <- can_compensate_encoder parse_float (en_channel a);
    match ready with
    | None => Ret None
    | Some _ =>
        do position_min <- get_double parse_float (lit "servopos.position_min");
        do position_max <- get_double parse_float (lit "servopos.position_max");
        do _ <- kcommand (lit "conf set servopos.position_min nan");
        do _ <- kcommand (lit "conf set servopos.position_max nan");
        do points <- compensation a position_min position_max;
        match points with
        | None => Ret None
        | Some points =>
            do _ <- (if en_write_integrated a then kawait (KNote points) else Ret tt);
            do sampled <- lift (sample points size);
            if en_no_store a then Ret (Some tt)
            else do _ <- store a d size used has_scale sampled; Ret (Some tt)
        end
    end.

  (** main (304-497): None for sys.exit *)
  Definition encoder_main (a : encoder_args) : K (option unit) :=
    do _ <- quiet;
    do text <- kcommand (lit "conf enumerate motor_position");
    do d <- lift (parse_config (split_on 10 text) []);
    do size <- lift (find_compensation_size d);
    do c <- lift (Config_Model.item (lit "motor_position.commutation_source") d);
    do commutation <- lift (int10 c);
    let used := commutation =? en_channel a in
    let has_scale := dmem (lit "motor_position.sources.0.compensation_scale") d in
    let by_reference := match en_reference a with Some _ => true | None => false end in
    if used && by_reference then Ret (Some tt)
    else
      do _ <- (if en_zero a || (by_reference && negb (en_analyze a))
               then zero_table a size used has_scale else Ret tt);
      if en_zero a && negb by_reference then Ret (Some tt)
      else measure_and_store a d size used has_scale.
End Encoder.
