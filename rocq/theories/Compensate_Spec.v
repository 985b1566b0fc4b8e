(** What a user of compensate_cogging.py and compensate_encoder.py sees, without reference to how
    they work: what is sent to the device, and what the tables mean there. *)
From Coq Require Import Ascii String ZArith List Bool Reals Floats.SpecFloat Permutation Sorted.
From Flocq Require Import Core BinarySingleNaN.
From Verif Require Import PyBase PyBytes PyFloat Float_Proofs Calib_Model Config_Model Proc Compensate_Model.
Import ListNotations.
Open Scope Z_scope.

Notation kev := (event kreq krep).
Notation kanswered := (@answered kreq krep).

(** ** What is sent *)
Definition sent (e : kev) : option (list Z) :=
  match question e with
  | KCommand text _ | KWrite text => Some text
  | _ => None
  end.

(** All texts sent, in order. *)
Definition texts (t : list kev) : list (list Z) :=
  flat_map (fun e => match sent e with Some x => [x] | None => [] end) t.

Definition begins (p text : list Z) : Prop := exists rest, text = p ++ rest.

(** A text that sets a parameter, and one that sets any parameter that starts so. *)
Definition set_text (name value : list Z) : list Z := lit "conf set " ++ name ++ [32] ++ value.
Definition sets (name text : list Z) : Prop := begins (lit "conf set " ++ name) text.

(** The device accepted the command. *)
Definition accepted (text : list Z) (e : kev) : Prop :=
  exists any reply, e = kanswered (KCommand text any) (inr reply).

(** [holds name value t]: at the end of [t], [value] is what the device last accepted for the
    parameter [name], and no later attempt to set it was made. *)
Definition holds (name value : list Z) (t : list kev) : Prop :=
  exists t1 e t2, t = t1 ++ e :: t2 /\ accepted (set_text name value) e /\
    Forall (fun e => forall text, sent e = Some text -> ~ begins (set_text name []) text) t2.

(** The device told the value of a parameter. *)
Definition told (name reply : list Z) (t : list kev) : Prop :=
  In (kanswered (KCommand (lit "conf get " ++ name) true) (inr reply)) t.

(** The answers to "d hend", in order. *)
Definition histograms (t : list kev) : list (list Z) :=
  flat_map (fun e : kev => match e with
                           | existT _ (KCommand text any) (Some (inr reply)) =>
                               if bytes_eqb text (lit "d hend") then [reply] else []
                           | _ => []
                           end) t.

(** A motor that may turn: what starts it, and an accepted stop afterwards. *)
Definition starts (e : kev) : Prop :=
  match question e with
  | KCommand text _ => begins (lit "d pos ") text \/ begins (lit "d vdq ") text
  | KPosition _ _ => True
  | _ => False
  end.
Definition stops (e : kev) : Prop := accepted (lit "d stop") e \/ e = kanswered KStop (inr tt).
Definition stopped (t : list kev) : Prop :=
  forall t1 e t2, t = t1 ++ e :: t2 -> starts e -> Exists stops t2.

(** Parameters name.i, name.(i+1), ... set one after the other. *)
Fixpoint numbered (name : list Z) (i : Z) (values : list (list Z)) : list (list Z) :=
  match values with
  | [] => []
  | v :: values => set_text (name ++ int_str i) v :: numbered name (i + 1) values
  end.

(** ** Recording

    A histogram is asked for in [n] parts of the turn, one after the other. *)
Definition part_text (float_str : float -> list Z) (options : list Z) (n i : Z) : list Z :=
  lit "d hstart " ++ options ++
  (if n >? 1 then lit " m" ++ float_str (fdiv (float_of_Z i) (float_of_Z n)) ++
                  lit " M" ++ float_str (fdiv (float_of_Z (i + 1)) (float_of_Z n))
   else []).
Fixpoint part_texts (float_str : float -> list Z) (options : list Z) (n : Z) (i : Z) (parts : nat) : list (list Z) :=
  match parts with
  | O => []
  | S parts => part_text float_str options n i :: lit "d hend" :: part_texts float_str options n (i + 1) parts
  end.

(** What compensate_cogging.py sends: at first, in one direction, while it records, and to store. *)
Definition opening (channel : Z) : list (list Z) :=
  [lit "tel stop"; lit "d stop"; lit "conf get motor.poles"; lit "conf get motor_position.commutation_source";
   lit "conf get motor_position.sources." ++ int_str channel ++ lit ".type"].
Definition direction_texts (float_str : float -> list Z) (n : Z) (ratio v : float) : list (list Z) :=
  (lit "d pos nan " ++ float_str (fmul v ratio) ++ lit " nan a4") ::
  part_texts float_str (lit "yq") n 0 (Z.to_nat n) ++ [lit "d stop"].
Definition recording_texts (float_str : float -> list Z) (n : Z) (ratio speed lo hi : float) : list (list Z) :=
  [lit "conf get servopos.position_min"; lit "conf get servopos.position_max";
   lit "conf get motor_position.rotor_to_output_ratio";
   set_text (lit "servopos.position_min") (lit "nan"); set_text (lit "servopos.position_max") (lit "nan")] ++
  direction_texts float_str n ratio (fneg speed) ++ direction_texts float_str n ratio speed ++
  [set_text (lit "servopos.position_min") (float_str lo); set_text (lit "servopos.position_max") (float_str hi)].
Definition storing_texts (float_str : float -> list Z) (scale : float) (ds : list Z) : list (list Z) :=
  set_text (lit "motor.cogging_dq_scale") (float_str scale) ::
  numbered (lit "motor.cogging_dq_comp.") 0 (map int_str ds) ++ [lit "conf write"].

(** ** A histogram

    Lines of two numbers each, a blank between them; [ys] are the second ones. *)
Definition word (w : list Z) : Prop := w <> [] /\ Forall (fun c => 33 <= c <= 126) w.
Inductive histogram (parse_float : list Z -> res float) : list Z -> list float -> Prop :=
| histogram_end : histogram parse_float [] []
| histogram_line x y vx vy rest ys : word x -> word y -> parse_float x = Ok vx -> parse_float y = Ok vy ->
    histogram parse_float rest ys ->
    histogram parse_float (x ++ [32] ++ y ++ [10] ++ rest) (vy :: ys).

(** ** The table of cogging torque

    A recording is cut into 1024 pieces, as equal as can be; an entry is the mean of the pieces
    of both directions. *)
Definition pieces (l : list float) (ps : list (list float)) : Prop :=
  concat ps = l /\ Z.of_nat (length ps) = 1024 /\
  forall p, In p ps -> Z.of_nat (length l) / 1024 <= Z.of_nat (length p) <= Z.of_nat (length l) / 1024 + 1.
Definition averages (py_sum : list float -> float) (reverse forward average : list float) : Prop :=
  exists rs fs, pieces reverse rs /\ pieces forward fs /\ Z.of_nat (length average) = 1024 /\
    forall i r f a, nth_error rs i = Some r -> nth_error fs i = Some f -> nth_error average i = Some a ->
      length r = length f /\
      a = fdiv (fadd (py_sum f) (py_sum r)) (float_of_Z (2 * Z.of_nat (length f))).

(** ** What a table of small integers means

    The firmware multiplies each by [step] (bldc_servo.cc 2134-2135, motor_position.h 963-964).  It keeps
    them in 8 bits (bldc_servo_structs.h 416, motor_position.h 91).  What results is within one step of
    what was wanted, and a few rounding errors. *)
Definition in_steps (step : R) (wanted : list float) (table : list Z) : Prop :=
  Forall2 (fun x d => -127 <= d <= 127 /\
             (Rabs (IZR d * step - F2 x) <= step * (1 + bpow radix2 (-45)))%R) wanted table.

(** All are numbers, and the greatest is not tiny. *)
Definition usable (l : list float) : Prop :=
  Forall (fun x => float_ok x /\ isfinite x = true) l /\
  exists x, In x l /\ (bpow radix2 (-1000) <= Rabs (F2 x))%R.

(** The greatest of the absolute values. *)
Definition greatest (l : list float) (M : R) : Prop :=
  (exists x, In x l /\ Rabs (F2 x) = M) /\ forall x, In x l -> (Rabs (F2 x) <= M)%R.

(** ** compensate_encoder.py *)

(** The answer to "conf enumerate": a line for each parameter, its name, a blank and its value.  The last
    line with the name counts. *)
Definition listed (reply name value : list Z) : Prop :=
  exists before after, split_on 10 reply = before ++ (name ++ 32 :: value) :: after /\ ~ In 32 name /\
    Forall (fun line => ~ begins (name ++ [32]) line) after.

Definition table_entry (channel : Z) : list Z := lit "motor_position.sources." ++ int_str channel ++ lit ".compensation_table.".
Definition table_scale (channel : Z) : list Z := lit "motor_position.sources." ++ int_str channel ++ lit ".compensation_scale".

(** What writes a table: the entries, the scale if there is one, then the configuration.  Where the encoder
    commutates the motor, that must be calibrated again. *)
Definition writing_texts (channel : Z) (values : list (list Z)) (scale : option (list Z)) (used : bool) : list (list Z) :=
  numbered (table_entry channel) 0 values ++
  match scale with Some x => [set_text (table_scale channel) x] | None => [] end ++
  (if used then [set_text (lit "motor.poles") (lit "0")] else []) ++ [lit "conf write"].

(** What measures: the motor is driven by a voltage and one histogram recorded, against the position before
    compensation, of the speed after ("c") or before ("o") it.  With a reference nothing is sent but
    positions. *)
Definition measuring_texts (float_str : float -> list Z) (channel : Z) (reference : option Z) (tap : list Z)
    (voltage : float) (n : Z) : list (list Z) :=
  match reference with
  | Some _ => []
  | None => (lit "d vdq 0 " ++ float_str voltage) ::
      part_texts float_str (lit "xo" ++ int_str channel ++ lit " y" ++ tap ++ int_str channel ++ lit "d") n 0 (Z.to_nat n) ++ [lit "d stop"]
  end.

(** The new entry: less what was measured, or that much less than before. *)
Definition corrected (absolute : bool) (factor old x new : float) : Prop :=
  new = if absolute then fneg x else fadd old (fmul factor (fneg x)).

(** A table is made anew, not changed, when asked for and always with a reference. *)
Definition anew (asked : bool) (reference : option Z) : bool :=
  match reference with Some _ => true | None => asked end.

(** What was read from the device, and from the clock, in order. *)
Definition readings (t : list kev) : list (option reading) :=
  flat_map (fun e : kev => match e with existT _ (KPosition _ _) (Some (inr x)) => [x] | _ => [] end) t.
Definition clocks (t : list kev) : list float :=
  flat_map (fun e : kev => match e with existT _ KNow (Some (inr x)) => [x] | _ => [] end) t.

(** [x] is what encoder [number] read. *)
Definition reads (r : reading) (number : Z) (x : float) : Prop :=
  number = 0 /\ x = rd_encoder0 r \/ number = 1 /\ x = rd_encoder1 r \/ number = 2 /\ x = rd_encoder2 r.

(** Measuring with a reference: the motor turns until the time for all revolutions, and the initial time, is
    over.  Each reading up to then is of a motor without fault that did not time out (mode 11).  Those after
    the initial time count; the deviation at each is computed, and all are put in order of their place. *)
Definition reference_points (py_sum np_mean : list float -> float) (channel reference : Z)
    (revolutions velocity initial : float) (t : list kev) (points : list (float * float)) : Prop :=
  exists start q visits last last_time pairs errors,
    float_div revolutions velocity = Ok q /\
    readings t = map (fun v => Some (fst v)) visits ++ [last] /\
    clocks t = start :: map snd visits ++ [last_time] /\
    fgtb (fsub last_time start) (fadd q initial) = true /\
    Forall (fun v => fgtb (fsub (snd v) start) (fadd q initial) = false /\ rd_mode (fst v) <> 11 /\ rd_fault (fst v) = 0) visits /\
    Forall2 (fun v p => reads (fst v) reference (fst p) /\ reads (fst v) channel (snd p))
      (filter (fun v => fgtb (fsub (snd v) start) initial) visits) pairs /\
    deviations (float_arith py_sum) np_mean pairs = Ok errors /\
    Permutation errors points /\
    (Forall (fun p => float_ok (fst p) /\ isfinite (fst p) = true) errors ->
       Sorted (fun p p' => (F2 (fst p) <= F2 (fst p'))%R) points).
