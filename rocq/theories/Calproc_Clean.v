(** Calibration goes on only after answers that are no failure. *)
From Coq Require Import Ascii String ZArith List Bool Lia ZifyBool ZifyNat.
From Verif Require Import PyBase PyBytes PyFloat Tool_Model Calib_Model Config_Model Encoder_Model
  Calfile_Model Proc Device_Model Calproc_Model Device_Spec Device_Proofs Calproc_Spec Calproc_Proofs.
Import ListNotations.
Open Scope Z_scope.

(** ** Rules *)

(** What comes after an exception of the first part cannot end well. *)
Definition doomed {A} (p : T A) : Prop := forall t a, ~ traces p t (Some (inr a)).

Lemma doomed_throw A e : doomed (@Throw treq trep A e).
Proof. intros t a H. exact (traces_ok_throw _ _ _ _ H). Qed.
Lemma doomed_bind A B (p : T A) (f : A -> T B) : doomed p -> doomed (pbind p f).
Proof. intros H t b T. apply traces_ok_bind in T. destruct T as (a & t1 & t2 & _ & T & _). exact (H _ _ T). Qed.
Lemma doomed_after A B (p : T A) (f : A -> T B) : (forall a, doomed (f a)) -> doomed (pbind p f).
Proof. intros H t b T. apply traces_ok_bind in T. destruct T as (a & t1 & t2 & _ & _ & T). exact (H _ _ _ T). Qed.

Lemma clean_doomed ok A (p : T A) : doomed p -> clean ok p.
Proof. intros H t a T. now apply H in T. Qed.

(** A block whose exceptions the rest does not survive. *)
Lemma clean_catch_bind ok A B (p : T A) (f : err + A -> T B) :
  clean ok p -> (forall a, clean ok (f (inr a))) -> (forall e, doomed (f (inl e))) -> clean ok (pbind (catch p) f).
Proof.
  intros P F D t b T. apply traces_ok_bind in T. destruct T as (x & t1 & t2 & -> & T1 & T2).
  apply traces_catch_ok in T1. destruct x as [e|a]; [now apply D in T2|].
  apply Forall_app. split; [exact (P _ _ T1)|exact (F _ _ _ T2)].
Qed.

Lemma clean_finally ok A (p : T A) (q : T unit) : clean ok p -> clean ok q -> clean ok (finally p q).
Proof.
  intros P Q. apply clean_catch_bind; [exact P| |].
  - intros a. apply clean_bind; [exact Q|]. intros _. apply clean_ret.
  - intros e. apply doomed_after. intros _. apply doomed_throw.
Qed.

(** A command whose refusal is looked at. *)
Lemma clean_catch_command (ok : ev -> Prop) A (text : list Z) (f : list Z -> T A) h :
  (forall v, ok (answered (Command text false) (inr v))) -> (forall a, clean ok (f a)) ->
  (forall v, only (fun _ => False) (f v)) -> (forall v t e, traces (f v) t (Some (inl e)) -> exists x, e = Exn x) ->
  (forall m, ok (answered (Command text false) (inl (CmdErr m))) \/ doomed (h m)) -> (forall m, clean ok (h m)) ->
  clean ok (catch_command (do x <- command text; f x) h).
Proof.
  intros O F NF EF HO H t b T. unfold catch_command in T. apply traces_ok_bind in T. destruct T as (x & t1 & t2 & -> & T1 & T2).
  apply traces_catch_ok in T1. apply traces_bind in T1. destruct T1 as [[_ E]|[(e & T1 & E)|(v & u1 & u2 & -> & T1 & T1')]]; try discriminate.
  - injection E as ->. destruct T1 as [[E _]|(y & u & -> & T1)]; [discriminate|].
    destruct y as [e'|v]; destruct T1 as [-> [E|E]]; try discriminate. injection E as ->.
    destruct e' as [e'|m]; [now apply traces_ok_throw in T2|].
    destruct (HO m) as [O'|D]; [|now apply D in T2]. constructor; auto. exact (H _ _ _ T2).
  - apply traces_ok_command in T1. subst u1. assert (u2 = []) as ->.
    { apply NF in T1'. destruct u2; auto. inversion T1'; contradiction. }
    destruct x as [e|a].
    + destruct (EF _ _ _ T1') as (x & ->). now apply traces_ok_throw in T2.
    + apply traces_ok_ret in T2. destruct T2 as [-> _]. constructor; auto.
Qed.

(** [blame ok own p]: an exception is one of its own, or the answer that came last. *)
Definition blame (ok : ev -> Prop) (own : err -> Prop) {A} (p : T A) : Prop :=
  clean ok p /\ forall t e, traces p t (Some (inl e)) ->
    own e \/ exists t0 r, t = t0 ++ [answered r (inl e)] /\ Forall ok t0.

Lemma blame_ret ok own A (a : A) : blame ok own (Ret a).
Proof. split; [apply clean_ret|]. intros t e [_ [H|H]]; discriminate. Qed.
Lemma blame_throw ok (own : err -> Prop) A e : own e -> blame ok own (@Throw treq trep A e).
Proof. intros H. split; [apply clean_throw|]. intros t e' [_ [E|E]]; [discriminate|]. injection E as <-. auto. Qed.
Lemma blame_lift ok (own : err -> Prop) A (x : res A) : (forall e, x = Raise e -> own (Exn e)) -> blame ok own (lift x).
Proof. destruct x; cbn [lift]; intros H; [apply blame_ret|apply blame_throw; auto]. Qed.
Lemma blame_await (ok : ev -> Prop) own r : (forall v, ok (answered r (inr v))) -> blame ok own (await r).
Proof.
  intros H. split; [apply clean_await; auto|]. intros t e [[E _]|(x & t' & -> & T)]; [discriminate|].
  destruct x as [e'|v]; destruct T as [-> [E|E]]; try discriminate. injection E as ->.
  right. exists [], r. auto.
Qed.
Lemma blame_bind ok own A B (p : T A) (f : A -> T B) :
  blame ok own p -> (forall a, blame ok own (f a)) -> blame ok own (pbind p f).
Proof.
  intros [P P'] F. split; [apply clean_bind; auto; apply F|]. intros t e T. apply traces_bind in T.
  destruct T as [[_ E]|[(e' & T & E)|(a & t1 & t2 & -> & T & T2)]]; try discriminate.
  - injection E as ->. auto.
  - destruct (F a) as [_ G]. destruct (G _ _ T2) as [O|(t0 & r & -> & O)]; auto. right. exists (t1 ++ t0), r.
    rewrite app_assoc. split; auto. apply Forall_app. split; auto. exact (P _ _ T).
Qed.

(** ** The parts *)
Notation well := (clean went_well).

Lemma well_get text any v : went_well (answered (Command text any) (inr v)).
Proof. exact I. Qed.
Lemma well_ask r : match r with ReadServoStats => False | _ => True end -> forall v, went_well (answered r (inr v)).
Proof. destruct r; intros H v; try exact I. contradiction. Qed.

Lemma well_await r : match r with ReadServoStats => False | _ => True end -> well (await r).
Proof. intros H. apply clean_await. now apply well_ask. Qed.

Lemma well_command text : well (command text).
Proof. exact (well_await (Command text false) I). Qed.
Lemma well_command_any text : well (command_any text).
Proof. exact (well_await (Command text true) I). Qed.

Lemma well_stats : well read_servo_stats.
Proof.
  intros t s T. apply traces_ok_bind in T. destruct T as (x & t1 & t2 & -> & T1 & T2). apply (traces_ok_await ReadServoStats) in T1. subst t1.
  destruct (ss_mode x =? 1) eqn:E; [now apply traces_ok_throw in T2|]. apply traces_ok_ret in T2. destruct T2 as [-> ->].
  repeat constructor. cbn. lia.
Qed.

Section P.
Variable parse_float : list Z -> res float.
Variable float_str : float -> list Z.
Variable fixed3 : float -> list Z.
Variable hypot : float -> float -> float.
Variable py_sum : list float -> float.
Variable minimize : list float -> bool * list float.

Ltac wstep :=
  match goal with
  | |- clean _ (await _) => apply well_await; exact I
  | |- clean _ (command _) => apply well_command
  | |- clean _ (command_any _) => apply well_command_any
  | |- clean _ read_servo_stats => apply well_stats
  | |- _ => clean_step
  end.
Ltac wgo := repeat wstep.

Lemma well_supported name : well (is_config_supported name).
Proof. unfold is_config_supported. wgo. Qed.
Lemma well_int name : well (read_config_int name).
Proof. unfold read_config_int. wgo. Qed.
Lemma well_double name : well (read_config_double parse_float name).
Proof. unfold read_config_double. wgo. Qed.
Lemma well_fault : well check_for_fault.
Proof. unfold check_for_fault. wgo. Qed.

Ltac known := first [apply well_supported | apply well_int | apply well_double | apply well_fault].
Ltac more := repeat first [known | wstep].

Lemma well_prepare a : well (prepare a).
Proof. unfold prepare. more. Qed.
Lemma well_scale : well (position_scale parse_float).
Proof. unfold position_scale. more. Qed.
Lemma well_rate : well (control_rate parse_float).
Proof. unfold control_rate. more. Qed.

Lemma says_contains n m : contains n m = true -> says n m.
Proof. apply contains_spec. Qed.

Lemma well_clear : well clear_motor_offsets.
Proof.
  unfold clear_motor_offsets. apply clean_loop; [|intros; apply clean_ret]. intros i.
  apply clean_catch_command.
  - intros v. exact I.
  - intros. apply clean_ret.
  - intros. apply only_ret.
  - intros v t e [_ [E|E]]; discriminate.
  - intros m. destruct (contains (lit "error setting") m) eqn:E; [left|right; apply doomed_throw].
    left. left. split; [now apply says_contains|]. left. eexists. reflexivity.
  - intros m. more.
Qed.

Lemma well_try_set text : text = lit "conf set motor.phase_invert 0" \/ text = lit "conf set motor_position.sources.0.sign 1" ->
  well (try_set text).
Proof.
  intros H. unfold try_set. apply clean_catch_command.
  - intros v. exact I.
  - intros. apply clean_ret.
  - intros. apply only_ret.
  - intros v t e [_ [E|E]]; discriminate.
  - intros m. destruct (contains (lit "error setting") m) eqn:E; [left|right; apply doomed_throw].
    left. left. split; [now apply says_contains|]. now right.
  - intros m. more.
Qed.

Lemma own_lift A (x : res A) : (forall e, x = Raise e -> e <> TimeoutError) ->
  blame went_well (fun e => exists x, e = Exn x /\ x <> TimeoutError) (lift x).
Proof. intros H. apply blame_lift. intros e E. exists e. split; auto. Qed.

Definition own (e : err) : Prop := exists x, e = Exn x /\ x <> TimeoutError.

Lemma blame_stats : blame went_well own read_servo_stats.
Proof.
  split; [apply well_stats|]. intros t e T. apply traces_bind in T.
  destruct T as [[_ E]|[(e' & T & E)|(a & t1 & t2 & -> & T & T2)]]; try discriminate.
  - injection E as ->. destruct T as [[E _]|(x & t' & -> & T)]; [discriminate|].
    destruct x as [e''|v]; destruct T as [-> [E|E]]; try discriminate. injection E as ->.
    right. exists [], ReadServoStats. auto.
  - destruct (ss_mode a =? 1); destruct T2 as [_ [E|E]]; try discriminate. injection E as ->. left. exists RuntimeError.
    split; [reflexivity|discriminate].
Qed.

Lemma float_div_no_timeout x y e : float_div x y = Raise e -> e <> TimeoutError.
Proof. unfold float_div. destruct (feqb _ _); congruence. Qed.

Ltac bstep :=
  match goal with
  | |- blame _ _ (Ret _) => apply blame_ret
  | |- blame _ _ (pbind _ _) => apply blame_bind; [|intros ?]
  | |- blame _ _ (await _) => apply blame_await; intros ?; exact I
  | |- blame _ _ (command ?t) => apply (blame_await went_well _ (Command t false)); intros ?; exact I
  | |- blame _ _ read_servo_stats => apply blame_stats
  | |- blame _ _ (lift _) => apply own_lift
  | |- blame _ _ (let '(_, _) := ?x in _) => destruct x
  | |- blame _ _ (match ?x with _ => _ end) => destruct x
  | |- blame _ _ (if ?x then _ else _) => destruct x
  end.

Lemma blame_periods ver cv iv ps : forall best, blame went_well own (test_periods float_str ver cv iv ps best).
Proof.
  induction ps as [|p ps IH]; intros best; cbn [test_periods]; unfold test_inductance_period; repeat bstep; try apply IH.
  all: intros e E; first [now apply float_div_no_timeout in E | destruct (ss_ind _); congruence].
Qed.

Lemma ind_periods ver cv iv ps : forall best, only inductance_request (test_periods float_str ver cv iv ps best).
Proof.
  induction ps as [|p ps IH]; intros best; cbn [test_periods]; unfold test_inductance_period, read_servo_stats;
    repeat (only_step; try (cbn [inductance_request]; first [exact I
      | destruct (ver <? _); eexists; reflexivity | left; reflexivity | right; eexists; reflexivity])); apply IH.
Qed.

Lemma well_inductance ver cv iv : well (calibrate_inductance float_str ver cv iv).
Proof.
  unfold calibrate_inductance. apply clean_bind; [more|]. intros poles. apply clean_bind; [more|]. intros _.
  set (block := do best <- test_periods _ _ _ _ _ _; _).
  assert (B : blame went_well own block) by (unfold block; repeat bstep; apply blame_periods).
  assert (O : only inductance_request block).
  { unfold block. only_step; [apply ind_periods|]. repeat only_step. left. reflexivity. }
  clearbody block. destruct B as [B1 B2]. intros t a T. apply traces_ok_bind in T. destruct T as (x & t1 & t2 & -> & T1 & T2).
  apply traces_catch_ok in T1. apply Forall_app. split.
  - destruct x as [e|b]; [|exact (B1 _ _ T1)].
    destruct (B2 _ _ T1) as [(x & -> & N)|(t0 & r & -> & W)].
    + destruct x; try (now apply traces_ok_throw in T2). contradiction.
    + apply Forall_app. split; auto. apply O in T1. apply Forall_app in T1. destruct T1 as [_ T1].
      inversion T1 as [|? ? IR _]; subst. constructor; auto. cbn [question projT1] in IR.
      unfold went_well. cbn.
      destruct e as [[]|m]; try (now apply traces_ok_throw in T2); [exact IR|].
      destruct (contains (lit "unknown command") m) eqn:E; [|now apply traces_ok_throw in T2].
      right. split; auto. now apply says_contains.
  - revert T2. destruct x as [e|b].
    + intros T2. assert (C : well (match e with
        | CmdErr message => if negb (contains (lit "unknown command") message) then Throw (CmdErr message) else Ret (@None float)
        | Exn TimeoutError => Ret None | e => Throw e end)) by (repeat clean_step).
      exact (C _ _ T2).
    + intros T2. revert t2 a T2. change (well (match b with None => Throw (Exn TypeError) | Some (h, c, _) =>
        do inductance <- lift (float_div c h); if fltb inductance (flit 1 6) then Throw (Exn RuntimeError) else Ret (Some inductance) end)).
      more.
Qed.

Lemma well_currents n : well (read_currents hypot n).
Proof. induction n as [|n IH]; cbn [read_currents]; more; auto. Qed.
Lemma well_resistance a v : well (calibrate_winding_resistance2 float_str fixed3 hypot py_sum a v).
Proof. unfold calibrate_winding_resistance2, sweep, find_current, set_float. repeat first [apply well_currents|more]. Qed.
Lemma well_loop a r i c : well (set_current_loop parse_float float_str a r i c).
Proof. unfold set_current_loop, calculate_bandwidth, set_float. more. Qed.
Lemma well_filter a b i c : well (set_encoder_filter float_str a b i c).
Proof. unfold set_encoder_filter, desired_encoder_bw, set_float. more. Qed.
Lemma well_index a v : well (find_index float_str a v).
Proof. unfold find_index. more. Qed.

Lemma well_theta a v : well (ensure_valid_theta parse_float float_str a v).
Proof.
  unfold ensure_valid_theta. apply clean_bind; [more|]. intros poles. apply clean_bind; [more|]. intros _ t x T.
  apply traces_ok_bind in T. destruct T as (y & t1 & t2 & -> & T1 & T2). apply traces_catch_ok in T1.
  assert (t1 = [answered ReadMotorPosition y]) as ->.
  { destruct T1 as [[E _]|(z & t' & -> & T1)]; [discriminate|]. destruct z as [e|z]; destruct T1 as [-> [E|E]]; try discriminate;
      injection E as ->; reflexivity. }
  destruct y as [e|mp].
  - destruct e as [[]|m]; try (now apply traces_ok_throw in T2); apply traces_ok_ret in T2; destruct T2 as [-> _]; repeat constructor.
  - constructor; [exact I|]. revert t2 x T2. change (well (if negb (mp_error mp =? 0) then Throw (Exn RuntimeError)
      else if (mp_homed mp =? 0) && negb (mp_theta_valid mp) then find_index float_str a v else Ret tt)).
    repeat first [apply well_index | more].
Qed.

Lemma well_offsets i l : well (set_offsets float_str i l).
Proof. revert i. induction l as [|x l IH]; intros i; cbn [set_offsets]; more. apply IH. Qed.
Lemma well_collect : well collect_data.
Proof. unfold collect_data. more. Qed.
Lemma well_absolute a ver v c n : well (calibrate_encoder_mapping_absolute parse_float float_str py_sum minimize a ver v c n).
Proof. unfold calibrate_encoder_mapping_absolute. repeat first [apply well_theta|apply well_collect|apply well_offsets|more]. Qed.
Lemma well_hall_samples v c steps : well (hall_samples float_str v c steps).
Proof. induction steps as [|i steps IH]; cbn [hall_samples]; more; auto. Qed.
Lemma well_hall a v : well (calibrate_encoder_mapping_hall float_str py_sum a v).
Proof. unfold calibrate_encoder_mapping_hall. repeat first [apply well_hall_samples|more]. Qed.

Lemma doomed_finally A (p : T A) (q : T unit) : doomed p -> doomed (finally p q).
Proof.
  intros P t a H. apply traces_ok_bind in H. destruct H as (x & t1 & t2 & _ & H1 & H2). apply traces_catch_ok in H1.
  apply traces_ok_bind in H2. destruct H2 as (u & t3 & t4 & _ & _ & H2). destruct x as [e|x]; [now apply traces_ok_throw in H2|].
  now apply P in H1.
Qed.

Lemma well_encoder a ver iv r n : well (calibrate_encoder_mapping parse_float float_str py_sum minimize a ver iv r n).
Proof.
  unfold calibrate_encoder_mapping. do 5 (apply clean_bind; [more|intros ?]).
  destruct (_ || _); [destruct (negb _); repeat first [apply well_hall|more]|].
  apply clean_catch_bind; [more| |].
  - intros x. apply clean_catch_bind; [more| |].
    + intros y. apply clean_bind; [|intros; apply clean_ret]. apply clean_finally; [apply well_absolute|more].
    + intros e. apply doomed_bind, doomed_finally, doomed_throw.
  - intros e. cbn [catch pbind]. apply doomed_bind, doomed_finally, doomed_throw.
Qed.

Lemma well_speed a v s : well (find_speed fixed3 hypot py_sum a v s).
Proof. unfold find_speed. more. Qed.
Lemma well_speeds a l : well (find_speeds fixed3 hypot py_sum a l).
Proof. induction l as [|v l IH]; cbn [find_speeds]; repeat first [apply well_speed|more]; auto. Qed.
Lemma well_idle : well stop_and_idle.
Proof. unfold stop_and_idle. more. Qed.
Lemma well_kv_voltage a iv s : well (find_kv_cal_voltage fixed3 hypot py_sum a iv s).
Proof. unfold find_kv_cal_voltage. repeat first [apply well_speed|more]. Qed.
Lemma well_kv a fw v iv sc sg : well (calibrate_kv_rating parse_float float_str fixed3 hypot py_sum a fw v iv sc sg).
Proof.
  unfold calibrate_kv_rating, measure_kv, set_float.
  repeat first [apply well_theta|apply well_kv_voltage|apply well_idle|apply well_speeds|more].
Qed.
Lemma well_mode iv r n : well (set_voltage_mode iv r n).
Proof. unfold set_voltage_mode. more. Qed.

Lemma well_uuid : well read_uuid.
Proof.
  unfold read_uuid. apply clean_catch_command.
  - intros v. exact I.
  - intros v. more.
  - intros v. repeat only_step.
  - intros v t e T. apply traces_bind in T. destruct T as [[_ E]|[(e' & T & E)|(b & t1 & t2 & -> & T & T2)]]; try discriminate.
    + injection E as ->. destruct (uuid_of v); destruct T as [_ [E|E]]; try discriminate. injection E as ->. eauto.
    + destruct T2 as [_ [E|E]]; discriminate.
  - intros m. destruct (contains (lit "unknown group") m) eqn:E; [left|right; apply doomed_throw].
    left. right. split; [now apply says_contains|reflexivity].
  - intros m. more.
Qed.
Lemma well_info : well get_device_info.
Proof. unfold get_device_info. repeat first [apply well_uuid|more]. Qed.

Lemma well_motor a fw : well (calibrate_motor parse_float float_str fixed3 hypot py_sum minimize a fw).
Proof.
  unfold calibrate_motor.
  repeat first [apply well_clear|apply well_scale|apply well_rate|apply well_try_set; auto|apply well_resistance|apply well_inductance
    |apply well_loop|apply well_filter|apply well_encoder|apply well_kv|apply well_mode|apply well_info|more].
Qed.
End P.
