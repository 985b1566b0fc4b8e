(** Proofs for C58. *)
From Coq Require Import Ascii String ZArith List Bool Lia ZifyBool ZifyNat Floats.SpecFloat.
From Verif Require Import PyBase PyBytes PyFloat Tool_Model Calib_Model Config_Model Encoder_Model Calfile_Model
  Proc Device_Model Calproc_Model Device_Spec Device_Proofs Calproc_Spec Calproc_Proofs Props_Tool Props_Calproc Props_Stop Volt_Spec.
Import ListNotations.
Open Scope Z_scope.

(** ** What may be asked depending on what has been seen *)
Definition onlyh (ok : list ev -> treq -> Prop) (h : list ev) {A} (p : T A) : Prop :=
  forall t o, traces p t o -> forall t1 e t2, t = t1 ++ e :: t2 -> ok (h ++ t1) (question e).

Lemma split_at {A} (t u t1 : list A) e t2 : t ++ u = t1 ++ e :: t2 ->
  (exists t', t = t1 ++ e :: t') \/ exists u1, t1 = t ++ u1 /\ u = u1 ++ e :: t2.
Proof.
  revert t1. induction t as [|x t IH]; intros t1 E; cbn in E; [right; exists t1; auto|].
  destruct t1 as [|y t1]; cbn in E; injection E as -> E.
  - left. exists t. reflexivity.
  - apply IH in E as [(t' & ->)|(u1 & -> & ->)]; [left; exists t'|right; exists u1]; auto.
Qed.

Section H.
  Variable ok : list ev -> treq -> Prop.

  Lemma onlyh_bind h A B (p : T A) (f : A -> T B) : onlyh ok h p ->
    (forall t a, traces p t (Some (inr a)) -> onlyh ok (h ++ t) (f a)) -> onlyh ok h (pbind p f).
  Proof.
    intros P F t o T t1 e t2 E. apply traces_bind in T as [[T ->]|[(x & T & ->)|(a & u1 & u2 & -> & T & T2)]].
    - eapply P; eauto.
    - eapply P; eauto.
    - apply split_at in E as [(t' & ->)|(u & -> & ->)]; [eapply P; eauto|].
      rewrite app_assoc. eapply F; eauto.
  Qed.

  Lemma onlyh_only (ok' : treq -> Prop) h A (p : T A) : only ok' p -> (forall h r, ok' r -> ok h r) -> onlyh ok h p.
  Proof.
    intros P W t o T t1 e t2 ->. apply W. apply P in T. apply Forall_app in T as [_ T]. now inversion T.
  Qed.

  Lemma onlyh_ret h A (a : A) : onlyh ok h (Ret a).
  Proof. intros t o [-> _] t1 e t2 E. now destruct t1. Qed.
  Lemma onlyh_throw h A x : onlyh ok h (@Throw treq trep A x).
  Proof. intros t o [-> _] t1 e t2 E. now destruct t1. Qed.
  Lemma onlyh_lift h A (x : res A) : onlyh ok h (lift x).
  Proof. destruct x; [apply onlyh_ret|apply onlyh_throw]. Qed.

  Lemma onlyh_await h r : ok h r -> onlyh ok h (await r).
  Proof.
    intros H t o T t1 e t2 E. apply traces_await in T as [[_ [->|(x & ->)]]|(x & -> & _)].
    - now destruct t1.
    - destruct t1 as [|y [|? t1]]; [|discriminate|discriminate]. injection E as <- _. now rewrite app_nil_r.
    - destruct t1 as [|y [|? t1]]; [|discriminate|discriminate]. injection E as <- _. now rewrite app_nil_r.
  Qed.

  Lemma onlyh_catch h A (p : T A) : onlyh ok h p -> onlyh ok h (catch p).
  Proof. intros P t o T. apply traces_catch in T as [[_ T]|(o' & _ & T)]; exact (P _ _ T). Qed.

  Lemma onlyh_loop A X B (I : list ev -> X -> Prop) (K : B -> T A) h body x :
    I h x ->
    (forall h x, I h x -> onlyh ok h (body x) /\
       (forall t x', traces (body x) t (Some (inr (inl x'))) -> I (h ++ t) x') /\
       (forall t b, traces (body x) t (Some (inr (inr b))) -> onlyh ok (h ++ t) (K b))) ->
    onlyh ok h (Loop body x K).
  Proof.
    intros H0 HB t o T. cbn [traces] in T. revert h H0.
    induction T as [x t T|x t e T|x t x' t' o T _ IH|x t b t' o T T2]; intros h H0 t1 z t2 E; destruct (HB _ _ H0) as (B1 & B2 & B3).
    - eapply B1; eauto.
    - eapply B1; eauto.
    - apply split_at in E as [(t'' & ->)|(u & -> & ->)]; [eapply B1; eauto|]. rewrite app_assoc. eapply IH; eauto.
    - apply split_at in E as [(t'' & ->)|(u & -> & ->)]; [eapply B1; eauto|]. rewrite app_assoc. eapply B3; eauto.
  Qed.
End H.

Lemma readings_app t u : readings (t ++ u) = readings t ++ readings u.
Proof. apply flat_map_app. Qed.

Section P.
Variable parse_float : list Z -> res float.
Variable float_str : float -> list Z.
Variable fixed3 : float -> list Z.
Variable hypot : float -> float -> float.
Variable py_sum : list float -> float.
Variable minimize : list float -> bool * list float.
Notation do_calibrate := (do_calibrate parse_float float_str fixed3 hypot py_sum minimize).
Notation calibrate_motor := (calibrate_motor parse_float float_str fixed3 hypot py_sum minimize).
Ltac ob H x t1 t2 H1 := apply traces_ok_bind in H; destruct H as (x & t1 & t2 & -> & H1 & H).

Lemma stats_event t s : traces read_servo_stats t (Some (inr s)) -> t = [answered ReadServoStats (inr s)].
Proof.
  intros H. unfold read_servo_stats in H. ob H x t1 t2 H1. apply (traces_ok_await ReadServoStats) in H1. subst t1.
  destruct (ss_mode x =? 1); [now apply traces_ok_throw in H|]. apply traces_ok_ret in H as [-> ->]. reflexivity.
Qed.

Lemma currents_event n : forall t l, traces (read_currents hypot n) t (Some (inr l)) ->
  List.length (readings t) = n /\ l = map (fun s => hypot (ss_d_A s) (ss_q_A s)) (readings t).
Proof.
  induction n as [|n IH]; intros t l H; cbn [read_currents] in H.
  - apply traces_ok_ret in H as [-> <-]. auto.
  - ob H s t1 t2 H1. ob H m t3 t4 H3. apply traces_ok_ret in H as [-> <-]. apply stats_event in H1. subst t1.
    apply IH in H3 as [L ->]. rewrite app_nil_r. cbn. auto.
Qed.

Lemma check_safe v u : check_voltage v = Ok u -> safe v.
Proof.
  unfold check_voltage, safe. destruct (fltb v (float_of_Z 20)); cbn [negb]; [|discriminate].
  destruct (fleb (float_of_Z 0) v); cbn [negb]; [auto|discriminate].
Qed.

Lemma fd_ok x y q : float_div x y = Ok q -> q = fdiv x y.
Proof. unfold float_div. destruct (feqb y _); [discriminate|]. now intros [= <-]. Qed.

Definition p_still : list (list Z) := [lit "d stop"; lit "d index 0"; lit "d rezero"; lit "conf "].

Lemma current_event v t i n : traces (find_current fixed3 hypot py_sum v) t (Some (inr (i, n))) ->
  safe v /\ exists e tb, t = e :: tb /\ accepted (sweep_text fixed3 v) e /\ calm tb /\
    List.length (readings tb) = 20%nat /\ i = mean_current hypot py_sum tb.
Proof.
  intros H. unfold find_current in H.
  ob H u t1 t2 H1. apply traces_ok_lift in H1 as [-> H1]. split; [now apply check_safe in H1|].
  ob H r t3 t4 H3. apply traces_ok_command in H3. subst t3.
  exists (answered (Command (lit "d pwm 0 " ++ fixed3 v) false) (inr r)), t4. split; [reflexivity|].
  split; [now exists false, r|]. split.
  { match type of H with traces ?p _ _ => assert (W : only (within p_still) p) end.
    { repeat (first [apply (w_currents hypot p_still)|only_step]; try leaf). }
    eapply calm_within; [exact (W _ _ H)|reflexivity]. }
  ob H r1 t5 t6 H5. apply (traces_ok_await (Sleep _)) in H5. subst t5.
  ob H l t7 t8 H7. apply currents_event in H7 as [L ->].
  ob H r2 t9 t10 H9. apply traces_ok_command in H9. subst t9.
  ob H r3 t11 t12 H11. apply (traces_ok_await (Sleep _)) in H11. subst t11.
  ob H i' t13 t14 H13. apply traces_ok_lift in H13 as [-> H13].
  ob H n' t15 t16 H15. apply traces_ok_lift in H15 as [-> H15].
  apply traces_ok_ret in H as [-> E]. injection E as -> ->.
  unfold mean_current. rewrite !readings_app. cbn [readings flat_map app Proc.answered]. rewrite !app_nil_r.
  split; [exact L|]. unfold average in H13. apply fd_ok in H13. exact H13.
Qed.

(** ** The parts *)
Section Args.
Variable a : cal_args.       (* the options as they are used *)
Variable asked : list float.
Hypothesis Hasked : forall v, given (a_ll_kv_voltage a) = Some v -> In v asked.
Variable V : float.

Definition fine (h : list ev) (text : list Z) : Prop :=
  (exists v, safe v /\ text = sweep_text fixed3 v /\ raised fixed3 hypot py_sum V (a_motor_power a) h v) \/
  (exists x, tried_volts fixed3 h x /\ inductance_text float_str V x text) \/
  encoder_text float_str V (a_ll_encoder_speed a) h text \/
  kv_text fixed3 V asked text.
Definition ok (h : list ev) (r : treq) : Prop :=
  forall text, sent (existT _ r None : ev) = Some text -> energises text -> fine h text.

Lemma still ps r h : within ps r -> forallb (fun p => forallb (fun q => negb (meet q p)) ps) energising = true -> ok h r.
Proof.
  intros W N text S B. exfalso. assert (C : calm [existT _ r None : ev]).
  { apply (calm_within ps); [constructor; [exact W|constructor]|exact N]. }
  inversion C as [|? ? C1 _]. exact (C1 _ S B).
Qed.

Lemma onlyh_still ps h A (p : T A) : only (within ps) p ->
  forallb (fun q => forallb (fun x => negb (meet x q)) ps) energising = true -> onlyh ok h p.
Proof. intros W N. eapply onlyh_only; [exact W|]. intros h' r Hr. now apply (still ps). Qed.

Lemma onlyh_command h text : (energises text -> fine h text) -> onlyh ok h (command text).
Proof. intros H. apply (onlyh_await ok h (Command text false)). intros x S B. cbn in S. injection S as <-. auto. Qed.

Ltac stay := solve [apply (onlyh_still p_still); [repeat (first [apply w_currents|apply w_stats|only_step]; try leaf)|reflexivity]].

Lemma h_sweep h : onlyh ok h (sweep fixed3 hypot py_sum a V).
Proof.
  unfold sweep. apply (onlyh_loop ok _ _ _ (fun h st => raised fixed3 hypot py_sum V (a_motor_power a) h (fst st))); [now left|].
  clear h. intros h [v l] I. cbn [fst] in I. split; [|split].
  - apply onlyh_bind; [|intros t [i n] _; stay].
    unfold find_current. apply onlyh_bind; [apply onlyh_lift|]. intros t u Hc. apply traces_ok_lift in Hc as [-> Hc]. rewrite app_nil_r.
    apply onlyh_bind; [|intros; stay]. apply onlyh_command. intros _. left. exists v.
    split; [now apply check_safe in Hc|]. auto.
  - intros t st H. ob H c t1 t2 H1. destruct c as [i n]. apply current_event in H1 as (Sv & e & tb & -> & Acc & C & L & ->).
    ob H u t3 t4 H3. apply traces_ok_lift in H3 as [-> _]. cbn [app] in H.
    destruct (fgtb _ _ || fgtb _ _) eqn:E; apply traces_ok_ret in H as [-> H]; [discriminate|].
    injection H as <-. cbn [fst]. apply orb_false_iff in E as [E1 E2]. right.
    exists h, tb, v, e. rewrite app_nil_r. split; [reflexivity|]. split; [exact Acc|]. split; [exact Sv|]. split; [exact C|]. split; [exact L|]. split; [reflexivity|]. split; [exact E1|exact E2].
  - intros t b _. apply onlyh_ret.
Qed.

(** What the sweep gives: the last voltage has been tried. *)
Lemma sweep_result h t l : traces (sweep fixed3 hypot py_sum a V) t (Some (inr l)) ->
  forall v i n r, l = (v, i, n) :: r -> tried_volts fixed3 (h ++ t) v.
Proof.
  intros H. unfold sweep in H. cbn [traces] in H.
  remember (Some (inr l)) as o eqn:Eo. remember (flit 1 2, []) as st eqn:Est. clear Est. revert h.
  induction H as [x t T|x t e T|x t x' t' o T _ IH|x t b t' o T T2]; intros h v i n r E; try discriminate.
  - rewrite app_assoc. eapply IH; eauto.
  - destruct T2 as [-> [T2|T2]]; subst o; [discriminate|]. injection T2 as ->. subst b. rewrite app_nil_r.
    destruct x as [v' l']. ob T c t1 t2 H1. destruct c as [i' n']. apply current_event in H1 as (Sv & e & tb & -> & Acc & _).
    ob T u t3 t4 H3. apply traces_ok_lift in H3 as [-> _].
    destruct (fgtb _ _ || fgtb _ _); apply traces_ok_ret in T as [-> T]; [|discriminate]. injection T as -> _ _ _.
    split; [exact Sv|]. exists e. split; [|exact Acc]. apply in_or_app. right. now left.
Qed.

Lemma h_resistance h : onlyh ok h (calibrate_winding_resistance2 float_str fixed3 hypot py_sum a V).
Proof.
  unfold calibrate_winding_resistance2. apply onlyh_bind; [apply h_sweep|]. intros t l _.
  apply (onlyh_still p_still); [|reflexivity]. unfold set_float. repeat (only_step; try leaf).
Qed.

Definition resistance_set (h : list ev) (r : float) : Prop :=
  exists e, In e h /\ accepted (set_text (lit "motor.resistance_ohm") (float_str r)) e.

Lemma resistance_result h t r v n :
  traces (calibrate_winding_resistance2 float_str fixed3 hypot py_sum a V) t (Some (inr (r, v, n))) ->
  tried_volts fixed3 (h ++ t) v /\ resistance_set (h ++ t) r.
Proof.
  intros H. unfold calibrate_winding_resistance2 in H. ob H l t1 t2 H1. pose proof (sweep_result h _ _ H1) as Q.
  ob H x t3 t4 H3. apply traces_ok_lift in H3 as [-> H3]. destruct l as [|[[v1 i1] n1] l]; [discriminate|].
  injection H3 as <-. destruct (Q v1 i1 n1 l eq_refl) as (Sv & e & In1 & Acc).
  ob H y t5 t6 H5. apply traces_ok_lift in H5 as [-> _]. destruct y as [[v2 i2] n2].
  ob H z t7 t8 H7. apply traces_ok_lift in H7 as [-> _].
  ob H w t9 t10 H9. unfold set_float in H9. ob H9 q t11 t12 H11. apply traces_ok_command in H11. subst t11.
  apply traces_ok_ret in H9 as [-> _]. apply traces_ok_ret in H as [-> E]. injection E as -> -> _. split.
  - split; [exact Sv|]. exists e. split; [|exact Acc]. rewrite app_assoc. apply in_or_app. now left.
  - eexists. split; [|exists false, q; reflexivity]. apply in_or_app. right. apply in_or_app. right. cbn. now left.
Qed.

Lemma fmin_at_most x y : at_most x (fmin x y).
Proof. unfold fmin, at_most. destruct (fltb y x) eqn:E; auto. Qed.
Lemma fmin_or x y : fmin x y = x \/ fmin x y = y.
Proof. unfold fmin. destruct (fltb y x); auto. Qed.

Lemma tried_more h t x : tried_volts fixed3 h x -> tried_volts fixed3 (h ++ t) x.
Proof. intros (S & e & I & A). split; [exact S|]. exists e. split; [apply in_or_app; now left|exact A]. Qed.

Lemma h_periods ver x ps : forall h best, tried_volts fixed3 h x -> onlyh ok h (test_periods float_str ver x V ps best).
Proof.
  induction ps as [|p ps IH]; intros h best Hx; cbn [test_periods]; [apply onlyh_ret|].
  apply onlyh_bind.
  - unfold test_inductance_period. apply onlyh_bind.
    + apply onlyh_await. intros text S B. injection S as <-. right. left. exists x. split; [exact Hx|].
      destruct (ver <? 266); [left; eexists; reflexivity|]. right. exists (fmin (fmul (flit 15 2) V) (fmul (flit 80 2) x)), (fmin (fmul (flit 2 1) V) x).
      split; [apply fmin_at_most|]. split; [apply fmin_at_most|]. split; [apply fmin_or|]. split; [apply fmin_or|]. left. eexists. reflexivity.
    + intros t1 r1 _. apply onlyh_bind; [stay|]. intros t2 s _. apply onlyh_bind; [stay|]. intros t3 r3 _.
      apply onlyh_bind; [|intros; stay]. destruct (ver <? 266); [stay|]. apply onlyh_command. intros _.
      right. left. exists x. split; [now repeat apply tried_more|]. right.
      exists (fmin (fmul (flit 15 2) V) (fmul (flit 80 2) x)), (fmin (fmul (flit 2 1) V) x).
      split; [apply fmin_at_most|]. split; [apply fmin_at_most|]. split; [apply fmin_or|]. split; [apply fmin_or|]. right. reflexivity.
  - intros t [d v] _. destruct (match best with None => _ | Some _ => _ end) as [[hi vo] since].
    destruct (_ && _); [apply onlyh_ret|]. apply IH. now apply tried_more.
Qed.

Lemma h_inductance ver x h : tried_volts fixed3 h x -> onlyh ok h (calibrate_inductance float_str ver x V).
Proof.
  intros Hx. unfold calibrate_inductance. apply onlyh_bind; [apply (onlyh_still p_still); [unfold read_config_int; repeat (only_step; try leaf)|reflexivity]|].
  intros t1 poles _. apply onlyh_bind; [destruct (poles =? 0); [stay|apply onlyh_ret]|]. intros t2 u _.
  apply onlyh_bind; [|intros; apply (onlyh_still p_still); [|reflexivity]].
  - apply onlyh_catch. apply onlyh_bind; [apply h_periods; now repeat apply tried_more|]. intros; stay.
  - repeat (only_step; try leaf).
Qed.

(** ** The encoder *)
Lemma set_more h t r : resistance_set h r -> resistance_set (h ++ t) r.
Proof. intros (e & I & A). exists e. split; [apply in_or_app; now left|exact A]. Qed.

Definition p_settings : list (list Z) := [lit "d stop"; lit "d index 0"; lit "d rezero"; lit "conf "].
Ltac staying := apply (onlyh_still p_settings); [unfold read_config_double, read_config_int, is_config_supported, set_float; repeat (first [apply w_currents|apply w_stats|apply w_fault|apply w_collect|only_step]; try leaf)|reflexivity].

Section Enc.
Variable v : float.
Hypothesis Hv : at_most (fmul (flit 4 1) V) v.

Lemma h_theta h : onlyh ok h (ensure_valid_theta parse_float float_str a v).
Proof.
  unfold ensure_valid_theta. apply onlyh_bind; [staying|]. intros t1 poles _.
  apply onlyh_bind; [destruct (feqb poles _); staying|]. intros t2 u _. apply onlyh_bind; [staying|]. intros t3 [[]|m] _; try solve [apply onlyh_ret|apply onlyh_throw].
  - destruct e; solve [apply onlyh_ret|apply onlyh_throw].
  - destruct (negb _); [apply onlyh_throw|]. destruct (_ && _); [|apply onlyh_ret]. unfold find_index.
    apply onlyh_bind; [|intros; staying]. apply onlyh_command. intros _. right. right. left. exists v. split; [exact Hv|]. right. left. reflexivity.
Qed.

Lemma h_absolute ver r n c h : resistance_set h r -> c = fdiv v r ->
  onlyh ok h (calibrate_encoder_mapping_absolute parse_float float_str py_sum minimize a ver v c n).
Proof.
  intros Hr ->. unfold calibrate_encoder_mapping_absolute. apply onlyh_bind; [apply h_theta|]. intros t1 u1 _.
  apply onlyh_bind; [apply onlyh_lift|]. intros t2 q _. apply onlyh_bind.
  - destruct ((_ || _) && _).
    + apply onlyh_bind; [staying|]. intros t3 u3 _. apply onlyh_bind; [staying|]. intros t4 u4 _. apply onlyh_bind.
      * apply onlyh_command. intros _. right. right. left. exists v. split; [exact Hv|]. do 4 right.
        destruct (set_more _ t4 _ (set_more _ t3 _ (set_more _ t2 _ (set_more _ t1 _ Hr)))) as (e & I & Acc). exists r, e. auto.
      * intros t5 u5 _. apply onlyh_bind; [staying|]. intros t6 u6 _. apply onlyh_await. intros text S B. injection S as <-.
        right. right. left. exists v. split; [exact Hv|]. do 4 right.
        destruct (set_more _ t6 _ (set_more _ t5 _ (set_more _ t4 _ (set_more _ t3 _ (set_more _ t2 _ (set_more _ t1 _ Hr)))))) as (e & I & Acc).
        exists r, e. auto.
    + apply onlyh_bind.
      * apply onlyh_command. intros _. right. right. left. exists v. split; [exact Hv|]. left. reflexivity.
      * intros t3 u3 _. apply onlyh_bind; [staying|]. intros t6 u6 _. apply onlyh_await. intros text S B. injection S as <-.
        right. right. left. exists v. split; [exact Hv|]. do 3 right. left. reflexivity.
  - intros t3 u3 _. apply (onlyh_still (lit "conf set motor.offset." :: p_settings)); [|reflexivity].
    unfold is_config_supported. repeat (first [apply w_collect|apply w_offsets|only_step]; try leaf).
Qed.

Lemma h_samples c l : Forall (fun i => 0 <= i < 24) l -> forall h, onlyh ok h (hall_samples float_str v c l).
Proof.
  induction 1 as [|i l Hi _ IH]; intros h; cbn [hall_samples]; [apply onlyh_ret|].
  apply onlyh_bind.
  - apply onlyh_command. intros _. right. right. left. exists v. split; [exact Hv|]. do 2 right. left. exists i. auto.
  - intros t1 u1 _. apply onlyh_bind; [staying|]. intros t2 u2 _. apply onlyh_bind; [staying|]. intros t3 m _.
    apply onlyh_bind; [apply onlyh_lift|]. intros t4 raw _. apply onlyh_bind; [apply IH|]. intros. apply onlyh_ret.
Qed.

Lemma h_hall h : onlyh ok h (calibrate_encoder_mapping_hall float_str py_sum a v).
Proof.
  unfold calibrate_encoder_mapping_hall. apply onlyh_bind; [staying|]. intros t1 poles _.
  apply onlyh_bind; [staying|]. intros t2 u2 _. apply onlyh_bind; [staying|]. intros t3 src _.
  apply onlyh_bind; [staying|]. intros t4 aux _. apply onlyh_bind.
  - apply h_samples. apply Forall_forall. intros i Hi. apply Props_Tool.in_range in Hi. exact Hi.
  - intros t5 data _. staying.
Qed.
End Enc.

Lemma encoder_volts r w : find_encoder_cal_voltage a V r = Ok (Volts w) -> at_most (fmul (flit 4 1) V) w.
Proof.
  unfold find_encoder_cal_voltage. destruct (given (a_ll_encoder_voltage a)); [intros H; discriminate H|]. destruct (float_div _ _); cbn [bind]; [|discriminate].
  destruct (float_sqrt _); cbn [bind]; [|discriminate]. intros [= <-]. apply fmin_at_most.
Qed.

Lemma h_mapping ver r n h : resistance_set h r ->
  onlyh ok h (calibrate_encoder_mapping parse_float float_str py_sum minimize a ver V r n).
Proof.
  intros Hr. unfold calibrate_encoder_mapping. apply onlyh_bind; [apply onlyh_lift|]. intros t1 w H1. apply traces_ok_lift in H1 as [-> H1].
  rewrite app_nil_r. apply onlyh_bind; [destruct w; [apply onlyh_ret|apply onlyh_throw]|]. intros t2 v H2.
  destruct w as [w|w]; [|now apply traces_ok_throw in H2]. apply traces_ok_ret in H2 as [-> ->]. rewrite app_nil_r.
  apply encoder_volts in H1. apply onlyh_bind; [apply onlyh_lift|]. intros t3 c H3. apply traces_ok_lift in H3 as [-> H3]. apply fd_ok in H3. rewrite app_nil_r.
  apply onlyh_bind; [staying|]. intros t4 s _. apply onlyh_bind; [staying|]. intros t5 hc _.
  destruct (a_hall a || hc).
  - destruct (negb hc); [apply onlyh_throw|]. apply onlyh_bind; [now apply h_hall|]. intros. apply onlyh_ret.
  - apply onlyh_bind; [staying|]. intros t6 x _. apply onlyh_bind; [staying|]. intros t7 y _.
    apply onlyh_bind; [|intros; apply onlyh_ret]. unfold finally. apply onlyh_bind.
    + apply onlyh_catch. destruct y; [apply onlyh_throw|]. apply (h_absolute v H1 ver r); [|exact H3]. now repeat apply set_more.
    + intros t8 z _. apply onlyh_bind; [staying|]. intros t9 u9 _. destruct z; [apply onlyh_throw|apply onlyh_ret].
Qed.

Lemma mapping_volts ver r n t x w :
  traces (calibrate_encoder_mapping parse_float float_str py_sum minimize a ver V r n) t (Some (inr (x, w))) -> at_most (fmul (flit 4 1) V) w.
Proof.
  intros H. unfold calibrate_encoder_mapping in H. ob H u t1 s1 H1. apply traces_ok_lift in H1 as [-> H1].
  ob H w' t2 s2 H2. destruct u as [u|u]; [|now apply traces_ok_throw in H2]. apply traces_ok_ret in H2 as [-> ->]. apply encoder_volts in H1.
  enough (w = w') as -> by exact H1.
  ob H cur t3 s3 H3. ob H sup t4 s4 H4. ob H hc t5 s5 H5. destruct (a_hall a || hc).
  - destruct (negb hc); [now apply traces_ok_throw in H|]. ob H h t6 s6 H6. apply traces_ok_ret in H as [_ H]. congruence.
  - ob H x0 t6 s6 H6. ob H y t7 s7 H7. ob H z t8 s8 H8. apply traces_ok_ret in H as [_ H]. congruence.
Qed.

(** ** Kv *)
Definition kv_volts (v : float) : Prop :=
  (kv_level V v /\ not_above (fmul (flit 2 1) V) v) \/
  exists x k, In x [float_of_Z 0; flit 25 2; flit 5 1; flit 75 2; float_of_Z 1] /\ v = fmul x k /\ (In k asked \/ kv_level V k).

Lemma h_speed v s h : kv_volts v -> onlyh ok h (find_speed fixed3 hypot py_sum a v s).
Proof.
  intros Hv. unfold find_speed. apply onlyh_bind; [apply onlyh_lift|]. intros t1 u H1. apply traces_ok_lift in H1 as [-> H1]. rewrite app_nil_r.
  apply onlyh_bind; [|intros; staying]. apply onlyh_command. intros _. right. right. right. exists v.
  split; [now apply check_safe in H1|]. split; [reflexivity|exact Hv].
Qed.

Lemma h_speeds l : Forall kv_volts l -> forall h, onlyh ok h (find_speeds fixed3 hypot py_sum a l).
Proof.
  induction 1 as [|v l Hv _ IH]; intros h; cbn [find_speeds]; [apply onlyh_ret|].
  apply onlyh_bind; [now apply h_speed|]. intros t s _. apply onlyh_bind; [apply IH|]. intros. apply onlyh_ret.
Qed.

Lemma h_kv_voltage sc h : onlyh ok h (find_kv_cal_voltage fixed3 hypot py_sum a V sc).
Proof.
  unfold find_kv_cal_voltage. destruct (given _); [apply onlyh_ret|].
  apply (onlyh_loop ok _ _ _ (fun _ st => kv_level V (fst st))); [now left|]. clear h. intros h [v f] I. cbn [fst] in I.
  destruct (fgtb v _) eqn:E.
  { split; [apply onlyh_ret|]. split; intros t b T; [|apply onlyh_ret]. apply traces_ok_ret in T as [_ T]. discriminate. }
  split; [|split].
  - apply onlyh_bind; [apply h_speed; left; auto|]. intros; staying.
  - intros t st T. ob T s t1 t2 T1. ob T q t3 t4 T3. destruct (match _ with None => false | Some _ => _ end); apply traces_ok_ret in T as [_ T]; [discriminate|].
    injection T as <-. cbn [fst]. right. exists v. auto.
  - intros. apply onlyh_ret.
Qed.

Lemma kv_result sc t k : traces (find_kv_cal_voltage fixed3 hypot py_sum a V sc) t (Some (inr k)) -> In k asked \/ kv_level V k.
Proof.
  intros H. unfold find_kv_cal_voltage in H. destruct (given _) eqn:G.
  - apply traces_ok_ret in H as [_ <-]. left. now apply Hasked.
  - right. cbn [traces] in H. remember (Some (inr k)) as o eqn:Eo.
    assert (I : kv_level V (fst (flit 1 2, @None float))) by now left. revert I Eo. generalize (flit 1 2, @None float) H. clear H.
    intros st H. induction H as [x t T|x t e T|x t x' t' o T _ IH|x t b t' o T T2]; intros I Eo; try discriminate.
    + apply IH; [|exact Eo]. destruct x as [v f]. cbn [fst] in I. destruct (fgtb v _) eqn:E; [apply traces_ok_ret in T as [_ T]; discriminate|].
      ob T s t1 t2 T1. ob T q t3 t4 T3. destruct (match _ with None => false | Some _ => _ end); apply traces_ok_ret in T as [_ T]; [discriminate|].
      injection T as <-. cbn [fst]. right. exists v. auto.
    + destruct T2 as [-> [T2|T2]]; rewrite T2 in Eo; [discriminate|]. injection Eo as ->. destruct x as [v f]. cbn [fst] in I.
      destruct (fgtb v _) eqn:E; [apply traces_ok_ret in T as [_ T]; now injection T as <-|].
      ob T s t1 t2 T1. ob T q t3 t4 T3. destruct (match _ with None => false | Some _ => _ end); apply traces_ok_ret in T as [_ T]; [|discriminate].
      now injection T as <-.
Qed.

Lemma h_kv fw v sc sg h : at_most (fmul (flit 4 1) V) v ->
  onlyh ok h (calibrate_kv_rating parse_float float_str fixed3 hypot py_sum a fw v V sc sg).
Proof.
  intros Hv. unfold calibrate_kv_rating. apply onlyh_bind; [|intros; staying]. destruct (a_force_kv a); [apply onlyh_ret|].
  unfold measure_kv. apply onlyh_bind; [now apply h_theta|]. intros t1 u1 _. do 5 (apply onlyh_bind; [staying|]; intros ? ? _).
  apply onlyh_bind; [apply h_kv_voltage|]. intros tk k Hk. apply kv_result in Hk. apply onlyh_bind; [unfold stop_and_idle; staying|]. intros ti ui _.
  apply onlyh_bind.
  - apply h_speeds. apply Forall_forall. intros w Hw. apply in_map_iff in Hw as (x & <- & Hx). right. exists x, k. auto.
  - intros tl l _. unfold stop_and_idle. staying.
Qed.

(** ** Everything after the supply has been measured *)
Definition after_supply (fw : firmware) (scale : option (float * float)) (rate : float) : T report :=
  do _ <- check_for_fault;
  do x <- calibrate_winding_resistance2 float_str fixed3 hypot py_sum a V;
  let '(winding_resistance, highest_voltage, current_noise) := x in
  do _ <- check_for_fault;
  do inductance <- calibrate_inductance float_str (fw_version fw) highest_voltage V;
  do _ <- check_for_fault;
  do loop <- set_current_loop parse_float float_str a winding_resistance inductance rate;
  let torque_bw_hz := option_map (fun x => snd x) loop in
  do enc <- set_encoder_filter float_str a torque_bw_hz inductance rate;
  do _ <- check_for_fault;
  do x <- calibrate_encoder_mapping parse_float float_str py_sum minimize a (fw_version fw) V winding_resistance current_noise;
  let '(cal_result, encoder_cal_voltage) := x in
  do _ <- check_for_fault;
  do scale <- lift (match scale with Some s => Ok s | None => Raise NameError end);
  do motor_kv <- calibrate_kv_rating parse_float float_str fixed3 hypot py_sum a fw encoder_cal_voltage V (fst scale) (snd scale);
  do _ <- check_for_fault;
  do _ <- command (lit "d rezero");
  do _ <- set_voltage_mode V winding_resistance current_noise;
  do device_info <- get_device_info;
  Ret {| rp_serial := di_serial device_info; rp_calibration := json_of cal_result;
         rp_resistance := NFloat winding_resistance;
         rp_kv := Some (NFloat motor_kv); rp_v_per_hz := None;
         rp_kp := option_map (fun x => NFloat (fst (fst x))) loop;
         rp_ki := option_map (fun x => NFloat (snd (fst x))) loop;
         rp_enc_kp := option_map (fun x => NFloat (fst (fst x))) enc;
         rp_enc_ki := option_map (fun x => NFloat (snd (fst x))) enc;
         rp_enc_hz := option_map (fun x => snd x) enc |}.

Lemma h_after fw scale rate h : onlyh ok h (after_supply fw scale rate).
Proof.
  unfold after_supply. apply onlyh_bind; [staying|]. intros t1 u1 _.
  apply onlyh_bind; [apply h_resistance|]. intros t2 [[r hv] n] H2. apply (resistance_result (h ++ t1)) in H2 as [Ht Hr].
  apply onlyh_bind; [staying|]. intros t3 u3 _. apply onlyh_bind; [apply h_inductance; now apply tried_more|]. intros t4 ind _.
  apply onlyh_bind; [staying|]. intros t5 u5 _.
  apply onlyh_bind; [apply (onlyh_still (p_get ++ p_loop ++ [])); [apply w_loop|reflexivity]|]. intros t6 loop _.
  apply onlyh_bind; [apply (onlyh_still (p_get ++ p_filter ++ [])); [apply w_filter|reflexivity]|]. intros t7 enc _.
  apply onlyh_bind; [staying|]. intros t8 u8 _. apply onlyh_bind; [apply h_mapping; repeat first [exact Hr|apply set_more]|].
  intros t9 [res w] H9. apply mapping_volts in H9. apply onlyh_bind; [staying|]. intros t10 u10 _. apply onlyh_bind; [apply onlyh_lift|]. intros t11 sc _.
  apply onlyh_bind; [now apply h_kv|]. intros t12 kv _. apply onlyh_bind; [staying|]. intros t13 u13 _. apply onlyh_bind; [staying|]. intros t14 u14 _.
  apply onlyh_bind; [apply (onlyh_still (p_get ++ p_mode ++ [])); [apply w_mode|reflexivity]|]. intros t15 m _.
  apply onlyh_bind; [apply (onlyh_still (p_get ++ [])); [apply w_info|reflexivity]|]. intros. apply onlyh_ret.
Qed.
End Args.
End P.
