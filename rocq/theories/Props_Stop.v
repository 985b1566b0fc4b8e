(** C53: the motor is stopped when a calibration ends. *)
From Coq Require Import Ascii String ZArith List Bool Lia ZifyBool ZifyNat.
From Verif Require Import PyBase PyBytes PyFloat Tool_Model Calib_Model Config_Model Config_Spec Encoder_Model
  Calfile_Model Proc Device_Model Calproc_Model Device_Spec Device_Proofs Props_Restore Calproc_Spec
  Calproc_Proofs Calproc_Clean Calproc_Examples Calproc_Bench Props_Calproc Props_Report.
Import ListNotations.
Open Scope Z_scope.

(** ** Nothing energises the motor after an accepted "d stop" *)
Definition energising : list (list Z) := map lit ["d pwm "; "d pos "; "d cal "; "d cali "; "d ind "; "d vdq "]%string.
Definition calm (t : list ev) : Prop := Forall (fun e => forall text, sent e = Some text -> ~ energises text) t.
Definition at_rest (t : list ev) : Prop := exists ta e tb, t = ta ++ e :: tb /\ accepted (lit "d stop") e /\ calm tb.

Lemma energises_in text : energises text -> exists p, In p energising /\ begins p text.
Proof.
  unfold energises, energising. cbn [map]. intros H.
  repeat match type of H with _ \/ _ => destruct H as [H|H] end; eexists; (split; [|exact H]); cbn [In]; auto 10.
Qed.

Lemma calm_within ps t : Forall (fun e : ev => within ps (question e)) t ->
  forallb (fun p => forallb (fun q => negb (meet q p)) ps) energising = true -> calm t.
Proof.
  intros W N. eapply Forall_impl; [|exact W]. intros [r x] We text S B. apply energises_in in B. destruct B as (p & I & B).
  rewrite forallb_forall in N. apply N in I. unfold sent in S. cbn [question projT1] in *.
  destruct r; try discriminate; injection S as ->; cbn [within] in We; exact (within_no _ _ _ We I B).
Qed.

Lemma rest_stopped t : at_rest t -> stopped t.
Proof.
  intros (ta & e & tb & -> & A & C) t1 x t2 text E S B.
  assert (K : forall ta t1, ta ++ e :: tb = t1 ++ x :: t2 -> Exists (accepted (lit "d stop")) t2 \/ In x tb \/ x = e).
  { clear -A. induction ta as [|y ta IH]; intros t1 E; destruct t1 as [|z t1]; cbn [app] in E; injection E as E1 E2.
    - auto.
    - right. left. rewrite E2. apply in_or_app. right. now left.
    - left. rewrite <- E2. apply Exists_exists. exists e. split; auto. apply in_or_app. right. now left.
    - exact (IH _ E2). }
  destruct (K _ _ E) as [H|[H|H]]; [exact H| |].
  - unfold calm in C. rewrite Forall_forall in C. destruct (C _ H _ S B).
  - subst x. destruct A as (any & reply & ->). cbn in S. injection S as <-. exfalso. apply energises_in in B.
    destruct B as (p & I & r & B). cbn in I. repeat (destruct I as [<-|I]; [discriminate B|]). destruct I.
Qed.

Lemma rest_r t1 t2 : at_rest t2 -> at_rest (t1 ++ t2).
Proof. intros (ta & e & tb & -> & H). exists (t1 ++ ta), e, tb. rewrite app_assoc. auto. Qed.
Lemma rest_calm t1 t2 : at_rest t1 -> calm t2 -> at_rest (t1 ++ t2).
Proof. intros (ta & e & tb & -> & A & C) D. exists ta, e, (tb ++ t2). rewrite <- app_assoc. split; auto. split; auto. apply Forall_app. auto. Qed.
Lemma rest_here t r : traces (command (lit "d stop")) t (Some (inr r)) -> at_rest t.
Proof.
  intros H. apply traces_ok_command in H. subst t. exists [], (answered (Command (lit "d stop") false) (inr r)), [].
  split; [reflexivity|]. split; [exists false, r; reflexivity|constructor].
Qed.

Section P.
Variable parse_float : list Z -> res float.
Variable float_str : float -> list Z.
Variable fixed3 : float -> list Z.
Variable hypot : float -> float -> float.
Variable py_sum : list float -> float.
Variable minimize : list float -> bool * list float.
Notation do_calibrate := (do_calibrate parse_float float_str fixed3 hypot py_sum minimize).
Notation calibrate_motor := (calibrate_motor parse_float float_str fixed3 hypot py_sum minimize).

Ltac ob H x t1 t2 H1 := apply traces_ok_bind in H; destruct H as (x & t1 & t2 & -> & H1 & H).

Lemma calm_at ps A (p : T A) t o : traces p t o -> only (within ps) p ->
  forallb (fun p => forallb (fun q => negb (meet q p)) ps) energising = true -> calm t.
Proof. intros H W N. apply W in H. exact (calm_within _ _ H N). Qed.

Lemma idle_rest t u : traces stop_and_idle t (Some (inr u)) -> at_rest t.
Proof.
  intros H. unfold stop_and_idle in H. ob H r t1 t2 H1. apply rest_calm; [exact (rest_here _ _ H1)|].
  match type of H with traces ?p _ _ => assert (W : only (within []) p) end.
  { repeat (first [apply (w_stats []) | only_step]; try leaf). }
  eapply calm_at; [exact H|exact W|reflexivity].
Qed.

Definition p_quiet : list (list Z) := [lit "conf "; lit "d rezero"].

Lemma measure_rest a ver v iv sc sg t kv :
  traces (measure_kv parse_float float_str fixed3 hypot py_sum a ver v iv sc sg) t (Some (inr kv)) -> at_rest t.
Proof.
  intros H. unfold measure_kv in H. ob H u1 t1 s1 H1. ob H x2 t2 s2 H2. ob H x3 t3 s3 H3. ob H u4 t4 s4 H4. ob H u5 t5 s5 H5. ob H u6 t6 s6 H6.
  ob H kcv t7 s7 H7. ob H u8 t8 s8 H8. ob H l t9 s9 H9. ob H u10 t10 s10 H10. do 9 apply rest_r. apply rest_calm; [exact (idle_rest _ _ H10)|].
  match type of H with traces ?p _ _ => assert (W : only (within p_quiet) p) end.
  { unfold set_float. repeat (only_step; try leaf). }
  eapply calm_at; [exact H|exact W|reflexivity].
Qed.

Lemma mapping_rest a ver iv r n t x :
  traces (calibrate_encoder_mapping parse_float float_str py_sum minimize a ver iv r n) t (Some (inr x)) -> at_rest t.
Proof.
  intros H. unfold calibrate_encoder_mapping in H. ob H w t1 s1 H1. ob H ecv t2 s2 H2. ob H cur t3 s3 H3. ob H sup t4 s4 H4. ob H hc t5 s5 H5.
  do 5 apply rest_r. destruct (a_hall a || hc).
  - destruct (negb hc); [now apply traces_ok_throw in H|]. ob H h t6 s6 H6. apply traces_ok_ret in H. destruct H as [-> _]. rewrite app_nil_r.
    clear -H6. rename H6 into H. unfold calibrate_encoder_mapping_hall in H.
    ob H poles t0 s0 H0. ob H u1 t1 s1 H1. ob H source t2 s2 H2. ob H aux t3 s3 H3. ob H data t4 s4 H4. ob H u5 t5 s5 H5.
    ob H r6 t7 s7 H6. do 6 apply rest_r. apply rest_calm; [exact (rest_here _ _ H6)|].
    match type of H with traces ?p _ _ => assert (W : only (within p_quiet) p) end.
    { unfold is_config_supported. repeat (only_step; try leaf). }
    eapply calm_at; [exact H|exact W|reflexivity].
  - ob H x0 t6 s6 H6. ob H y t7 s7 H7. ob H z t8 s8 H8. apply traces_ok_ret in H. destruct H as [-> _]. rewrite app_nil_r.
    do 2 apply rest_r. unfold finally in H8. ob H8 z' t9 s9 H9. ob H8 u t10 s10 H10. ob H10 u2 t11 s11 H11. apply rest_r. rewrite <- app_assoc.
    apply rest_calm; [exact (rest_here _ _ H11)|]. apply Forall_app. split.
    + match type of H10 with traces ?p _ _ => assert (W : only (within p_quiet) p) by (repeat (only_step; try leaf)) end.
      eapply calm_at; [exact H10|exact W|reflexivity].
    + destruct z' as [e|z']; [now apply traces_ok_throw in H8|]. apply traces_ok_ret in H8. destruct H8 as [-> _]. constructor.
Qed.

Lemma kv_rest a fw v iv sc sg t kv :
  traces (calibrate_kv_rating parse_float float_str fixed3 hypot py_sum a fw v iv sc sg) t (Some (inr kv)) -> calm t \/ at_rest t.
Proof.
  intros H. unfold calibrate_kv_rating in H. ob H m t1 t2 H1.
  assert (C : calm t2).
  { match type of H with traces ?p _ _ => assert (W : only (within p_quiet) p) end.
    { unfold set_float. repeat (only_step; try leaf). }
    eapply calm_at; [exact H|exact W|reflexivity]. }
  destruct (a_force_kv a).
  - apply traces_ok_ret in H1. destruct H1 as [-> _]. left. exact C.
  - right. apply rest_calm; [exact (measure_rest _ _ _ _ _ _ _ _ H1)|exact C].
Qed.

Lemma motor_rest a fw t r : traces (calibrate_motor a fw) t (Some (inr r)) -> at_rest t.
Proof.
  intros H. unfold calibrate_motor in H.
  ob H u1 t1 s1 H1. ob H u2 t2 s2 H2. ob H sc t3 s3 H3. ob H cr t4 s4 H4. ob H u5 t5 s5 H5. ob H u6 t6 s6 H6. ob H st t7 s7 H7.
  ob H iv t8 s8 H8. ob H u9 t9 s9 H9. ob H rvn t10 s10 H10. destruct rvn as [[wr hv] noise]. ob H u11 t11 s11 H11.
  ob H ind t12 s12 H12. ob H u13 t13 s13 H13. ob H loop t14 s14 H14. ob H enc t15 s15 H15. ob H u16 t16 s16 H16.
  ob H cv t17 s17 H17. destruct cv as [cal ecv]. ob H u18 t18 s18 H18. ob H scale t19 s19 H19. ob H kv t20 s20 H20.
  do 16 apply rest_r. apply traces_ok_lift in H19. destruct H19 as [-> _].
  assert (C : calm s20).
  { match type of H with traces ?p _ _ => assert (W : only (within p_quiet) p) end.
    { unfold set_voltage_mode, is_config_supported, get_device_info, read_uuid. repeat (first [apply (w_fault p_quiet)|only_step]; try leaf). }
    eapply calm_at; [exact H|exact W|reflexivity]. }
  apply kv_rest in H20. destruct H20 as [K|K].
  - apply rest_calm; [exact (mapping_rest _ _ _ _ _ _ _ H17)|]. apply Forall_app. split.
    + eapply calm_at; [exact H18|apply (w_fault [])|reflexivity].
    + cbn [app]. unfold calm. apply Forall_app. auto.
  - do 2 apply rest_r. cbn [app]. apply rest_calm; auto.
Qed.


Lemma restore_texts c t o e text : traces (restore_config c) t o -> In e t -> sent e = Some text ->
  begins (lit "c") text \/ text = lit "d reset".
Proof.
  intros H I S. pose proof (Props_Config.split_text_lines c) as L. set (ls := split_on 10 c) in *.
  pose proof (proj2 (settings_contents _ _ (settings c) L) eq_refl) as C.
  destruct (C49_restore_config_order _ _ _ _ _ L C H) as (r & P).
  assert (J : In text (settings c ++ [lit "conf write"; lit "d reset"])).
  { rewrite P. apply in_or_app. left. unfold texts. apply in_flat_map. exists e. split; [exact I|]. rewrite S. now left. }
  apply in_app_iff in J. destruct J as [J|[J|[J|[]]]]; [|left; rewrite <- J; eexists; reflexivity|now right].
  left. unfold settings in J. apply in_map_iff in J. destruct J as (y & E & _). pose proof (nonempty_set y) as N. rewrite E in N.
  assert (K : trimmed is_space (lit "conf set " ++ y) text) by now apply trimmed_rstrip.
  destruct K as (w & K & _). destruct text as [|c0 text]; [discriminate|]. injection K as <- _. now exists text.
Qed.
Lemma restore_calm c t o : traces (restore_config c) t o -> calm t.
Proof.
  intros H. unfold calm. rewrite Forall_forall. intros e I text S B. apply energises_in in B. destruct B as (p & Ip & k & B).
  destruct (restore_texts _ _ _ _ _ H I S) as [(q & E)|E]; rewrite E in B;
    repeat (destruct Ip as [<-|Ip]; [discriminate B|]); destruct Ip.
Qed.

(** A calibration that succeeds leaves the motor without voltage. *)
Theorem C53_stopped_on_success a t r : traces (do_calibrate a) t (Some (inr r)) -> stopped t.
Proof.
  intros H. apply rest_stopped. unfold Calproc_Model.do_calibrate in H. ob H x tp s1 HP. destruct x as [[fw c] a']. ob H r' tm s2 HM.
  ob H u t3 s3 H3. apply rest_r, rest_calm; [exact (motor_rest _ _ _ _ HM)|]. apply Forall_app. split.
  - destruct (negb (a_no_update a')).
    + apply traces_ok_command in H3. subst t3. constructor; [|constructor]. intros text S B. injection S as <-.
      apply energises_in in B. destruct B as (p & Ip & k & B). repeat (destruct Ip as [<-|Ip]; [discriminate B|]). destruct Ip.
    + ob H3 bad t4 s4 H4. apply traces_ok_ret in H3. destruct H3 as [-> _]. rewrite app_nil_r. exact (restore_calm _ _ _ H4).
  - match type of H with traces ?p _ _ => assert (W : only (within []) p) by (repeat (only_step; try leaf)) end.
    eapply calm_at; [exact H|exact W|reflexivity].
Qed.


(** ** What is put right whether a block fails or not *)

Lemma split_app {A} (t u t1 : list A) e t2 : t ++ u = t1 ++ e :: t2 ->
  (exists v, t = t1 ++ e :: v /\ t2 = v ++ u) \/ exists v, t1 = t ++ v /\ u = v ++ e :: t2.
Proof.
  revert t1. induction t as [|x t IH]; intros t1 E; [right; exists t1; auto|]. destruct t1 as [|y t1]; cbn in E; injection E as -> E.
  - left. exists t. auto.
  - destruct (IH _ E) as [(v & -> & ->)|(v & -> & ->)]; [left|right]; exists v; auto.
Qed.

(** Properties of finished runs that hold of a sequence when they hold of its parts, and of what
    sends nothing that begins with [w]. *)
Section Ends.
Variable S : list ev -> Prop.
Variable w : list Z.
Hypothesis S_app : forall t u, S t -> S u -> S (t ++ u).
Hypothesis S_free : forall t, Forall (fun e : ev => forall text, sent e = Some text -> ~ begins w text) t -> S t.
Definition ends A (p : T A) : Prop := forall t o, traces p t (Some o) -> S t.

Lemma ends_bind A B (p : T A) (f : A -> T B) : ends A p -> (forall a, ends B (f a)) -> ends B (pbind p f).
Proof.
  intros H K t o T. apply traces_bind in T. destruct T as [[_ T]|[(e & T & E)|(a & t1 & t2 & -> & T1 & T2)]]; [discriminate| |].
  - exact (H _ _ T).
  - apply S_app; [exact (H _ _ T1)|exact (K _ _ _ T2)].
Qed.
Lemma ends_free ps A (p : T A) : only (within ps) p -> forallb (fun x => negb (meet x w)) ps = true -> ends A p.
Proof.
  intros W N t o T. apply W in T. apply S_free. eapply Forall_impl; [|exact T]. intros [r x] We text E. unfold sent in E.
  cbn [question projT1] in *. destruct r; try discriminate; injection E as ->; cbn [within] in We; exact (within_no _ _ _ We N).
Qed.
Lemma ends_ret A (a : A) : ends A (Ret a).
Proof. intros t o [-> _]. apply S_free. constructor. Qed.
Lemma ends_throw A e : ends A (Throw e).
Proof. intros t o [-> _]. apply S_free. constructor. Qed.
Lemma ends_lift A (x : res A) : ends A (lift x).
Proof. destruct x; cbn [lift]; [apply ends_ret|apply ends_throw]. Qed.

Definition p_free : list (list Z) :=
  map lit ["conf get "; "conf enumerate"; "conf write"; "conf set motor.offset."; "conf set motor.resistance_ohm ";
           "conf set motor.poles "; "conf set motor.invert "; "conf set motor.phase_invert "; "conf set motor.Kv ";
           "conf set motor.v_per_hz "; "conf set servo"; "conf set motor_position.sources."; "conf set aux";
           "d pwm "; "d pos "; "d ind "; "d vdq "; "d stop"; "d index 0"; "d rezero"]%string.

Ltac fk := first [ apply (w_stats p_free) | apply (w_fault p_free) | apply w_currents | apply (w_prepare (skipn 2 p_free)) ].
Ltac free := repeat (first [fk | only_step]; try leaf).

Lemma free_periods ver cv iv ps : forall best, only (within p_free) (test_periods float_str ver cv iv ps best).
Proof.
  induction ps as [|p ps IH]; intros best; cbn [test_periods]; [free|]. unfold test_inductance_period. free. all: apply IH.
Qed.

Lemma free_hall a v : only (within p_free) (calibrate_encoder_mapping_hall float_str py_sum a v).
Proof.
  assert (H : forall c steps, only (within p_free) (hall_samples float_str v c steps)).
  { intros c steps. induction steps as [|i steps IH]; cbn [hall_samples]; free. exact IH. }
  unfold calibrate_encoder_mapping_hall, read_config_int, is_config_supported. free. all: apply H.
Qed.

Lemma free_kv a fw v iv sc sg : only (within p_free) (calibrate_kv_rating parse_float float_str fixed3 hypot py_sum a fw v iv sc sg).
Proof.
  assert (FS : forall v s, only (within p_free) (find_speed fixed3 hypot py_sum a v s)) by (intros; unfold find_speed; free).
  assert (FSS : forall l, only (within p_free) (find_speeds fixed3 hypot py_sum a l)).
  { induction l as [|x l IH]; cbn [find_speeds]; free; auto. }
  unfold calibrate_kv_rating, measure_kv, ensure_valid_theta, find_index, find_kv_cal_voltage, stop_and_idle, set_float, read_config_double.
  free; auto.
Qed.

(** Only the encoder mapping has to be looked at. *)
Lemma ends_calibrate a : forallb (fun x => negb (meet x w)) p_free = true ->
  (forall a ver iv r n, ends _ (calibrate_encoder_mapping parse_float float_str py_sum minimize a ver iv r n)) ->
  (a_no_update a = true -> forall c, ends _ (restore_config c)) -> ends _ (do_calibrate a).
Proof.
  intros N M R. assert (F : forall A (p : T A), only (within p_free) p -> ends A p) by (intros A p W; exact (ends_free _ _ _ W N)).
  unfold Calproc_Model.do_calibrate.
  assert (P : forall t fw c a', traces (prepare a) t (Some (inr (fw, c, a'))) -> a_no_update a' = a_no_update a).
  { intros t fw c a' H. exact (proj1 (proj2 (prepare_args _ _ _ _ _ H))). }
  intros t o H. apply traces_bind in H. destruct H as [[_ H]|[(e & H & _)|([[fw c] a'] & t1 & t2 & -> & H1 & H)]]; [discriminate| |].
  { revert t e H. change (forall t e, traces (prepare a) t (Some (inl e)) -> S t). intros t e H. exact (F _ (prepare a) ltac:(free) _ _ H). }
  apply P in H1 as Pa. apply S_app; [exact (F _ (prepare a) ltac:(free) _ _ H1)|]. revert t2 o H.
  match goal with |- forall t2 o, traces ?p _ _ -> _ => change (ends _ p) end. apply ends_bind.
  - unfold calibrate_motor. 
    apply ends_bind; [apply F; unfold clear_motor_offsets; free|]. intros _.
    apply ends_bind; [apply F; free|]. intros _.
    apply ends_bind; [apply F; unfold position_scale, is_config_supported, read_config_double; free|]. intros scale.
    apply ends_bind; [apply F; unfold control_rate, is_config_supported, read_config_double; free|]. intros cr.
    apply ends_bind; [apply F; unfold try_set; free|]. intros _. apply ends_bind; [apply F; unfold try_set; free|]. intros _.
    apply ends_bind; [apply F; free|]. intros st. apply ends_bind; [apply ends_lift|]. intros iv.
    apply ends_bind; [apply F; free|]. intros _.
    apply ends_bind; [apply F; unfold calibrate_winding_resistance2, sweep, find_current, set_float; free|]. intros [[wr hv] n].
    apply ends_bind; [apply F; free|]. intros _.
    apply ends_bind; [apply F; unfold calibrate_inductance, read_config_int; free; apply free_periods|]. intros ind.
    apply ends_bind; [apply F; free|]. intros _.
    apply ends_bind; [apply F; unfold set_current_loop, calculate_bandwidth, is_config_supported, read_config_double, set_float; free|]. intros loop.
    apply ends_bind; [apply F; unfold set_encoder_filter, desired_encoder_bw, is_config_supported, read_config_int, set_float; free|]. intros enc.
    apply ends_bind; [apply F; free|]. intros _.
    apply ends_bind; [apply M|]. intros [cal ecv].
    apply ends_bind; [apply F; free|]. intros _. apply ends_bind; [apply ends_lift|]. intros sc.
    apply ends_bind; [apply F, free_kv|]. intros kv.
    apply F. unfold set_voltage_mode, is_config_supported, get_device_info, read_uuid. free.
  - intros r. apply ends_bind; [|intros _; apply F; free].
    destruct (a_no_update a') eqn:U; cbn [negb]; [|apply F; free]. apply ends_bind; [apply R; congruence|intros; apply ends_ret].
Qed.
End Ends.

(** ** The spin of the encoder calibration *)
Definition spun (t : list ev) : Prop :=
  forall t1 e t2 text, t = t1 ++ e :: t2 -> sent e = Some text -> begins (lit "d cal") text -> Exists (sends (lit "d stop")) t2.

Lemma spun_app t u : spun t -> spun u -> spun (t ++ u).
Proof.
  intros H K t1 e t2 text E S B. apply split_app in E. destruct E as [(v & -> & ->)|(v & -> & ->)].
  - apply Exists_app. left. exact (H _ _ _ _ eq_refl S B).
  - exact (K _ _ _ _ eq_refl S B).
Qed.
Lemma spun_free t : Forall (fun e : ev => forall text, sent e = Some text -> ~ begins (lit "d cal") text) t -> spun t.
Proof. intros F t1 e t2 text -> S B. apply Forall_app in F. destruct F as [_ F]. inversion F; subst. now destruct (H1 _ S). Qed.

(** What a finally block that begins with "d stop" does. *)
Lemma finally_stop A (p : T A) (q : T unit) t o :
  traces (finally p (do _ <- command (lit "d stop"); q)) t (Some o) ->
  exists t1 x t2 o1, t = t1 ++ answered (Command (lit "d stop") false) x :: t2 /\ traces p t1 (Some o1) /\
    match x with
    | inl _ => t2 = []
    | inr _ => exists o2, traces q t2 (Some o2)
    end.
Proof.
  intros H. unfold finally in H. apply traces_bind in H. destruct H as [[_ H]|[(e & H & _)|(y & t1 & t2 & -> & H1 & H2)]]; [discriminate| |].
  - apply traces_catch in H. destruct H as [[H _]|(o' & H & _)]; discriminate.
  - apply traces_catch_ok in H1. apply traces_bind in H2. destruct H2 as [[_ H]|[(e & H & _)|(u & t3 & t4 & -> & H3 & H4)]]; [discriminate| |].
    + apply traces_bind in H. destruct H as [[_ H]|[(e' & H & E')|(u & t3 & t4 & -> & H3 & H4)]]; [discriminate| |].
      * destruct H as [[H _]|(x & t3 & -> & H)]; [discriminate|]. exists t1, x, t3, y.
        destruct x as [e2|x]; cbn [answer] in H; [|destruct H as [_ [H|H]]; discriminate]. destruct H as [-> _]. auto.
      * apply traces_ok_command in H3. subst t3. exists t1, (inr u), t4, y. split; [reflexivity|]. split; [exact H1|]. exists (inl e). exact H4.
    + ob H3 r t5 t6 H5. apply traces_ok_command in H5. subst t5. exists t1, (inr r), (t6 ++ t4), y.
      split; [reflexivity|]. split; [exact H1|]. 
      assert (E : t4 = []) by (destruct y; destruct H4; assumption). subst t4. rewrite app_nil_r. exists (inr u). exact H3.
Qed.

(** The three parts of the absolute encoder mapping. *)
Definition p_before : list (list Z) := [lit "conf get "].

Theorem C53_spin_is_stopped a t o : traces (do_calibrate a) t (Some o) ->
  forall t1 e t2 text, t = t1 ++ e :: t2 -> sent e = Some text -> begins (lit "d cal") text -> Exists (sends (lit "d stop")) t2.
Proof.
  intros H. revert t o H. change (ends spun _ (do_calibrate a)). 
  apply (ends_calibrate spun (lit "d cal") spun_app spun_free); [reflexivity| |].
  - clear a. intros a ver iv r n. unfold calibrate_encoder_mapping.
    assert (F : forall A (p : T A), only (within p_free) p -> ends spun A p).
    { intros A p W. exact (ends_free spun _ spun_free _ _ _ W eq_refl). }
    assert (G : forall A (p : T A), only (within [lit "conf "]) p -> ends spun A p).
    { intros A p W. exact (ends_free spun _ spun_free _ _ _ W eq_refl). }
    assert (B : forall A B (p : T A) (f : A -> T B), ends spun A p -> (forall a, ends spun B (f a)) -> ends spun B (pbind p f)).
    { intros. now apply ends_bind; [apply spun_app| |]. }
    apply B; [apply (G _ (lift _)); repeat (only_step; try leaf)|]. intros v.
    apply B; [destruct v; apply (G _); repeat (only_step; try leaf)|]. intros ecv.
    apply B; [apply (G _ (lift _)); repeat (only_step; try leaf)|]. intros cur.
    apply B; [apply G; unfold is_config_supported; repeat (only_step; try leaf)|]. intros s.
    apply B; [apply G; unfold read_config_int; repeat (only_step; try leaf)|]. intros hc.
    destruct (a_hall a || hc).
    + destruct (negb hc); [apply (G _ (Throw _)); repeat (only_step; try leaf)|].
      apply B; [apply F, free_hall|]. intros h. apply (G _ (Ret _)); repeat (only_step; try leaf).
    + apply B; [apply G; unfold is_config_supported, read_config_int; repeat (only_step; try leaf)|]. intros x.
      apply B; [apply G; unfold read_config_int; repeat (only_step; try leaf)|]. intros y.
      apply B; [|intros z; apply (G _ (Ret _)); repeat (only_step; try leaf)].
      intros t o H. apply finally_stop in H. destruct H as (t1 & u & t2 & o1 & -> & _ & Q).
      assert (Q' : spun (answered (Command (lit "d stop") false) u :: t2)).
      { apply (spun_app [_] t2); [apply spun_free; constructor; [|constructor]; intros text E (k & K); injection E as <-; discriminate|].
        destruct u as [e|u]; [subst t2; apply spun_free; constructor|]. destruct Q as (o2 & Q). revert t2 o2 Q.
        match goal with |- forall t2 o2, traces ?p _ _ -> _ => change (ends spun _ p) end.
        apply G. repeat (only_step; try leaf). }
      intros u1 e u2 text E S K. apply split_app in E. destruct E as [(w & -> & ->)|(w & -> & E)].
      * apply Exists_app. right. now left.
      * exact (Q' _ _ _ _ E S K).
  - intros _ c t o H. apply spun_free. rewrite Forall_forall. intros e I text S (k & B).
    destruct (restore_texts _ _ _ _ _ H I S) as [(q & E)|E]; rewrite E in B; discriminate.
Qed.

(** ** The sign of the output *)
Definition p_spin : list (list Z) := lit "d cal" :: p_free.
Lemma spin_absolute a ver v c n :
  only (within p_spin) (calibrate_encoder_mapping_absolute parse_float float_str py_sum minimize a ver v c n).
Proof.
  assert (O : forall l i, only (within p_spin) (set_offsets float_str i l)).
  { induction l as [|x l IH]; intros i; cbn [set_offsets]; repeat (only_step; try leaf). apply IH. }
  unfold calibrate_encoder_mapping_absolute, ensure_valid_theta, find_index, collect_data, is_config_supported, read_config_int,
    read_config_double.
  repeat (only_step; try leaf). all: apply O.
Qed.

Definition sign_name : list Z := lit "motor_position.output.sign".
Definition signed (t : list ev) : Prop :=
  forall t1 e t2, t = t1 ++ e :: t2 -> sends (set_text sign_name (lit "1")) e ->
  exists reply z, In (answered (Command (lit "conf get " ++ sign_name) true) (inr reply)) t1 /\ int10 reply = Ok z /\
    (z = 1 \/ Exists (sends (set_text sign_name (int_str z))) t2 \/
     Exists (fun e => exists x, e = answered (Command (lit "d stop") false) (inl x)) t2).

Lemma signed_app t u : signed t -> signed u -> signed (t ++ u).
Proof.
  intros H K t1 e t2 E S. apply split_app in E. destruct E as [(v & -> & ->)|(v & -> & ->)].
  - destruct (H _ _ _ eq_refl S) as (reply & z & I & P & D). exists reply, z. split; [exact I|]. split; [exact P|].
    destruct D as [D|[D|D]]; [auto|right; left|right; right]; apply Exists_app; auto.
  - destruct (K _ _ _ eq_refl S) as (reply & z & I & P & D). exists reply, z. split; [apply in_or_app; auto|auto].
Qed.
Lemma signed_free t : Forall (fun e : ev => forall text, sent e = Some text -> ~ begins (set_text sign_name []) text) t -> signed t.
Proof.
  intros F t1 e t2 -> S. apply Forall_app in F. destruct F as [_ F]. inversion F as [|? ? H _]; subst.
  destruct (H _ S). exists (lit "1"). reflexivity.
Qed.

Lemma finished_command text t o : traces (command text) t (Some o) -> exists x, t = [answered (Command text false) x].
Proof.
  intros [[H _]|(x & t' & -> & H)]; [discriminate|]. exists x. destruct x; destruct H as [-> _]; reflexivity.
Qed.

(** The sign of the output is put back, unless the device refuses "d stop". *)
Theorem C53_sign_is_restored a t o : a_no_update a = false -> traces (do_calibrate a) t (Some o) ->
  forall t1 e t2, t = t1 ++ e :: t2 -> sends (set_text sign_name (lit "1")) e ->
  exists reply z, In (answered (Command (lit "conf get " ++ sign_name) true) (inr reply)) t1 /\ int10 reply = Ok z /\
    (z = 1 \/ Exists (sends (set_text sign_name (int_str z))) t2 \/
     Exists (fun e => exists x, e = answered (Command (lit "d stop") false) (inl x)) t2).
Proof.
  intros U H. revert t o H. change (ends signed _ (do_calibrate a)).
  apply (ends_calibrate signed (set_text sign_name []) signed_app signed_free); [reflexivity| |congruence].
  clear a U. intros a ver iv r n. unfold calibrate_encoder_mapping.
  assert (F : forall A (p : T A), only (within p_free) p -> ends signed A p).
  { intros A p W. exact (ends_free signed _ signed_free _ _ _ W eq_refl). }
  assert (B : forall A B (p : T A) (f : A -> T B), ends signed A p -> (forall a, ends signed B (f a)) -> ends signed B (pbind p f)).
  { intros. now apply ends_bind; [apply signed_app| |]. }
  apply B; [apply (F _ (lift _)); repeat (only_step; try leaf)|]. intros v.
  apply B; [destruct v; apply (F _); repeat (only_step; try leaf)|]. intros ecv.
  apply B; [apply (F _ (lift _)); repeat (only_step; try leaf)|]. intros cur.
  apply B; [apply F; unfold is_config_supported; repeat (only_step; try leaf)|]. intros s.
  apply B; [apply F; unfold read_config_int; repeat (only_step; try leaf)|]. intros hc.
  destruct (a_hall a || hc).
  { destruct (negb hc); [apply (F _ (Throw _)); repeat (only_step; try leaf)|].
    apply B; [apply F, free_hall|]. intros h. apply (F _ (Ret _)); repeat (only_step; try leaf). }
  intros t o H. apply traces_bind in H. destruct H as [[_ H]|[(e & H & _)|(x & tx & t2 & -> & H1 & H)]]; [discriminate| |].
  { apply traces_catch in H. destruct H as [[H _]|(o' & H & _)]; discriminate. }
  apply traces_catch_ok in H1.
  assert (Q1 : Forall (fun e : ev => forall text, sent e = Some text -> ~ begins (set_text sign_name []) text) tx).
  { match type of H1 with traces ?p _ _ => assert (W : only (within p_free) p) end.
    { unfold is_config_supported, read_config_int. repeat (only_step; try leaf). }
    apply W in H1. eapply Forall_impl; [|exact H1]. intros [q y] We text E. unfold sent in E.
    cbn [question projT1] in *. destruct q; try discriminate; injection E as ->; cbn [within] in We; refine (within_no _ _ _ We _); reflexivity. }
  apply traces_bind in H. destruct H as [[_ H]|[(e & H & _)|(y & ty & t3 & -> & H2 & H)]]; [discriminate| |].
  { apply traces_catch in H. destruct H as [[H _]|(o' & H & _)]; discriminate. }
  apply traces_catch_ok in H2.
  assert (H3 : exists o', traces (finally
        (match y with
         | inl e => Throw e
         | inr _ => calibrate_encoder_mapping_absolute parse_float float_str py_sum minimize a ver ecv cur n
         end)
        (do _ <- command (lit "d stop");
         match match x with inr o => o | inl _ => None end with
         | Some old =>
             do _ <- command (lit "conf set motor_position.output.sign " ++ int_str old);
             do _ <- command (lit "conf set servo.voltage_mode_control " ++
                              match match y with inr o => o | inl _ => None end with
                              | Some m => int_str m
                              | None => lit "None"
                              end);
             Ret tt
         | None => Ret tt
         end)) t3 (Some o')).
  { apply traces_bind in H. destruct H as [[_ H]|[(e & H & _)|(z & t4 & t5 & -> & H4 & H5)]]; [discriminate|eauto|].
    destruct H5 as [-> _]. rewrite app_nil_r. eauto. }
  destruct H3 as (o' & H3). clear H. apply finally_stop in H3. destruct H3 as (t4 & w & t5 & o1 & -> & H4 & H5).
  assert (Q4 : Forall (fun e : ev => forall text, sent e = Some text -> ~ begins (set_text sign_name []) text) t4).
  { match type of H4 with traces ?p _ _ => assert (W : only (within p_spin) p) end.
    { destruct y; [repeat (only_step; try leaf)|apply spin_absolute]. }
    apply W in H4. eapply Forall_impl; [|exact H4]. intros [q z] We text E. unfold sent in E.
    cbn [question projT1] in *. destruct q; try discriminate; injection E as ->; cbn [within] in We; refine (within_no _ _ _ We _); reflexivity. }
  destruct x as [e|[old|]].
  - (* the sign could not be read *)
    assert (E : ty = []) by (destruct H2; assumption). subst ty. cbn [app].
    apply signed_app; [apply signed_free; exact Q1|]. apply signed_app; [apply signed_free; exact Q4|]. apply signed_free.
    constructor; [intros text E (k & K); injection E as <-; discriminate|]. destruct w as [e'|w]; [subst t5; constructor|].
    destruct H5 as (o2 & [-> _]). constructor.
  - (* it was read *)
    assert (R : exists reply, In (answered (Command (lit "conf get " ++ sign_name) true) (inr reply)) tx /\ int10 reply = Ok old).
    { ob H1 sup s1 s2 K1. destruct sup; [|apply traces_ok_ret in H1; destruct H1; discriminate].
      ob H1 z s3 s4 K2. apply traces_ok_ret in H1. destruct H1 as [-> E]. injection E as ->. unfold read_config_int in K2.
      ob K2 reply s5 s6 K3. apply traces_ok_lift in K2. destruct K2 as [-> K2]. apply traces_ok_command_any in K3. subst s5.
      exists reply. split; [|exact K2]. rewrite !in_app_iff. right. left. left. now left. }
    destruct R as (reply & I & P).
    assert (TAIL : Exists (sends (set_text sign_name (int_str old))) t5 \/ exists e', w = inl e').
    { destruct w as [e'|w]; [eauto|]. left. destruct H5 as (o2 & H5). apply traces_bind in H5.
      destruct H5 as [[_ H]|[(e & H & _)|(u & t6 & t7 & -> & H6 & H7)]]; [discriminate| |].
      - apply finished_command in H. destruct H as (z & ->). constructor. reflexivity.
      - apply traces_ok_command in H6. subst t6. constructor. reflexivity. }
    intros u1 e u2 E S. exists reply, old.
    assert (EX : forall p q, Exists p (t4 ++ answered (Command (lit "d stop") false) w :: t5) -> Exists p (q ++ t4 ++ answered (Command (lit "d stop") false) w :: t5)).
    { intros p q K. apply Exists_app. auto. }
    apply split_app in E. destruct E as [(v' & Ex & ->)|(v' & -> & E)].
    { exfalso. rewrite Ex in Q1. apply Forall_app in Q1. destruct Q1 as [_ Q1]. inversion Q1 as [|? ? K _]; subst.
      destruct (K _ S). exists (lit "1"). reflexivity. }
    split; [apply in_or_app; auto|]. split; [exact P|].
    assert (EE : Exists (sends (set_text sign_name (int_str old))) (t4 ++ answered (Command (lit "d stop") false) w :: t5) \/
      Exists (fun e => exists x, e = answered (Command (lit "d stop") false) (inl x)) (t4 ++ answered (Command (lit "d stop") false) w :: t5)).
    { destruct TAIL as [K|(e' & ->)]; [left|right]; apply Exists_app; right; [now right|left; eauto]. }
    apply split_app in E. destruct E as [(v2 & -> & ->)|(v2 & -> & E)].
    { right. destruct EE as [K|K]; [left|right]; now apply EX. }
    apply split_app in E. destruct E as [(v3 & -> & ->)|(v3 & -> & E)].
    { exfalso. apply Forall_app in Q4. destruct Q4 as [_ Q4]. inversion Q4 as [|? ? K _]; subst.
      destruct (K _ S). exists (lit "1"). reflexivity. }
    destruct v3 as [|z v3]; cbn [app] in E; injection E as E1 E; [subst e; discriminate S|].
    (* it is the one that puts the value back *)
    destruct w as [e'|w]; [subst t5; destruct v3; discriminate|]. destruct H5 as (o2 & H5). left.
    apply traces_bind in H5.
    assert (ONE' : forall z, sends (set_text sign_name (lit "1"))
      (answered (Command (lit "conf set motor_position.output.sign " ++ int_str old) false) z) -> old = 1).
    { intros y' K. apply (f_equal (fun o => match o with Some x => x | None => [] end)) in K.
      apply (app_inv_head (lit "conf set motor_position.output.sign ")) in K. apply Config_Proofs.int_str_inj. exact K. }
    assert (ONE : forall z, [answered (Command (lit "conf set motor_position.output.sign " ++ int_str old) false) z] = v3 ++ e :: u2 -> old = 1).
    { intros y' K. destruct v3 as [|? v3]; [|destruct v3; discriminate]. injection K as <- _. exact (ONE' _ S). }
    destruct H5 as [[_ H]|[(e' & H & _)|(u & t6 & t7 & -> & H6 & H7)]]; [discriminate| |].
    + apply finished_command in H. destruct H as (z' & ->). exact (ONE _ E).
    + apply split_app in E. destruct E as [(v4 & -> & ->)|(v4 & -> & E)].
      * apply finished_command in H6. destruct H6 as (z' & H6). symmetry in H6.
        destruct v3 as [|? v3]; [|destruct v3; discriminate]. injection H6 as <- _. exact (ONE' _ S).
      * exfalso. subst t7. match type of H7 with traces ?p _ _ => assert (W : only (within p_free) p) by (repeat (only_step; try leaf)) end.
        apply W in H7. apply Forall_app in H7. destruct H7 as [_ H7]. inversion H7 as [|? ? We _]; subst.
        destruct e as [q z']. unfold sends, sent in S. cbn [question projT1] in *.
        assert (NN : begins (set_text sign_name []) (set_text sign_name (lit "1"))) by (exists (lit "1"); reflexivity).
        destruct q; try discriminate; injection S as ->; cbn [within] in We; refine (within_no _ _ _ We _ NN); reflexivity.
  - (* there is none *)
    assert (E : ty = []) by (destruct H2; assumption). subst ty. cbn [app].
    apply signed_app; [apply signed_free; exact Q1|]. apply signed_app; [apply signed_free; exact Q4|]. apply signed_free.
    constructor; [intros text E (k & K); injection E as <-; discriminate|]. destruct w as [e'|w]; [subst t5; constructor|].
    destruct H5 as (o2 & [-> _]). constructor.
Qed.

(** ** The limits of the position *)

(** [name] ends with the number it had before anything set it. *)
Definition kept (name : list Z) (t : list ev) : Prop :=
  exists t1 reply t2 x, t = t1 ++ answered (Command (lit "conf get " ++ name) true) (inr reply) :: t2 /\
    Forall (quiet name) t1 /\ parse_float reply = Ok x /\ holds name (float_str x) t.

Lemma kept_between name t1 t2 t3 : Forall (quiet name) t1 -> kept name t2 -> Forall (quiet name) t3 -> kept name (t1 ++ t2 ++ t3).
Proof.
  intros Q1 (a & reply & b & x & -> & Q2 & P & H) Q3. exists (t1 ++ a), reply, (b ++ t3), x. rewrite <- !app_assoc. split; [reflexivity|].
  split; [apply Forall_app; auto|]. split; [exact P|]. apply holds_app_r. 
  change (holds name (float_str x) ((a ++ (answered (Command (lit "conf get " ++ name) true) (inr reply) :: b) ++ t3))).
  rewrite app_assoc. now apply holds_keep.
Qed.

Lemma double_event name t x : traces (read_config_double parse_float name) t (Some (inr x)) ->
  exists reply, t = [answered (Command (lit "conf get " ++ name) true) (inr reply)] /\ parse_float reply = Ok x.
Proof.
  intros H. unfold read_config_double in H. ob H reply t1 t2 H1. apply traces_ok_lift in H. destruct H as [-> E].
  apply traces_ok_command_any in H1. subst t1. exists reply. auto.
Qed.

Lemma measure_kept a ver v iv sc sg t kv :
  traces (measure_kv parse_float float_str fixed3 hypot py_sum a ver v iv sc sg) t (Some (inr kv)) ->
  kept (lit "servopos.position_min") t /\ kept (lit "servopos.position_max") t.
Proof.
  intros H. unfold measure_kv in H. ob H u1 t1 s1 H1. ob H lo t2 s2 H2. ob H hi t3 s3 H3. ob H u4 t4 s4 H4. ob H u5 t5 s5 H5. ob H u6 t6 s6 H6.
  ob H kcv t7 s7 H7. ob H u8 t8 s8 H8. ob H l t9 s9 H9. ob H u10 t10 s10 H10. ob H u11 t11 s11 H11. ob H u12 t12 s12 H12. ob H u13 t13 s13 H13.
  assert (Q : s13 = []).
  { ob H ln v1 v2 K1. apply traces_ok_lift in K1. destruct K1 as [-> _]. ob H g v3 v4 K2. apply traces_ok_lift in K2. destruct K2 as [-> _].
    cbn [app]. destruct (fltb _ _); [now apply traces_ok_throw in H|]. apply traces_ok_lift in H. now destruct H as [-> _]. }
  subst s13. rewrite app_nil_r. clear H.
  assert (Q1 : forall name, meet (lit "conf get ") (set_text name []) = false ->
            forallb (fun x => negb (meet x (set_text name []))) (p_get ++ p_move ++ [lit "conf set motor.poles "]) = true -> Forall (quiet name) t1).
  { intros name _ N. eapply quiet_at; [exact H1|exact (w_theta parse_float float_str [] a v)|exact N]. }
  destruct (double_event _ _ _ H2) as (reply1 & -> & P1). destruct (double_event _ _ _ H3) as (reply2 & -> & P2).
  apply set_float_event in H12. split.
  - exists t1, reply1. do 2 eexists. split; [reflexivity|]. split; [apply Q1; reflexivity|]. split; [exact P1|].
    do 11 apply holds_app_r. apply holds_keep; [exact H12|].
    match type of H13 with traces ?p _ _ => assert (W : only (within [lit "conf set servopos.position_max "]) p) by
      (unfold set_float; repeat (only_step; try leaf)) end.
    eapply quiet_at; [exact H13|exact W|reflexivity].
  - apply set_float_event in H13. exists (t1 ++ [answered (Command (lit "conf get servopos.position_min") true) (inr reply1)]), reply2.
    do 2 eexists. split; [rewrite <- app_assoc; reflexivity|]. split.
    { apply Forall_app. split; [apply Q1; reflexivity|]. constructor; [|constructor]. intros text E (k & K). injection E as <-. discriminate. }
    split; [exact P2|]. do 12 apply holds_app_r. exact H13.
Qed.

Definition p_first : list (list Z) :=
  p_get ++ p_move ++ map lit ["conf set motor"; "conf set servo."; "conf set aux"; "d rezero"; "conf write"]%string.

(** When Kv is measured, the limits are set again to what they were. *)
Theorem C53_limits_are_restored a t r : a_no_update a = false -> a_force_kv a = None -> traces (do_calibrate a) t (Some (inr r)) ->
  kept (lit "servopos.position_min") t /\ kept (lit "servopos.position_max") t.
Proof.
  intros N K H. unfold Calproc_Model.do_calibrate in H. ob H x tp s1 HP. destruct x as [[fw c] a']. ob H r' tm s2 HM.
  destruct (prepare_args _ _ _ _ _ HP) as (E & N' & t' & Ep). rewrite N', N in H. cbn [negb] in H.
  assert (K' : a_force_kv a' = None).
  { unfold calibration_parameters in E. repeat match type of E with bind ?x _ = _ => destruct x; cbn [bind] in E; [|discriminate] end.
    injection E as <-. exact K. }
  assert (G : forall name, forallb (fun x => negb (meet x (set_text name []))) p_first = true -> kept name tm -> kept name (tp ++ tm ++ s2)).
  { intros name M KM. apply kept_between; [|exact KM|].
    - eapply quiet_at; [exact HP|exact (w_prepare [] a)|]. apply forallb_forall. intros q I. rewrite forallb_forall in M. apply M.
      unfold p_first. apply in_or_app. left. rewrite app_nil_r in I. exact I.
    - match type of H with traces ?p _ _ => assert (W : only (within p_first) p) by (repeat (only_step; try leaf)) end.
      eapply quiet_at; [exact H|exact W|exact M]. }
  enough (KM : kept (lit "servopos.position_min") tm /\ kept (lit "servopos.position_max") tm).
  { split; (apply G; [reflexivity|apply KM]). }
  clear G H HP N N' Ep E K s2. rename HM into H. unfold calibrate_motor in H.
  ob H u1 t1 s1 H1. ob H u2 t2 s2 H2. ob H sc t3 s3 H3. ob H cr t4 s4 H4. ob H u5 t5 s5 H5. ob H u6 t6 s6 H6. ob H st t7 s7 H7.
  ob H iv t8 s8 H8. ob H u9 t9 s9 H9. ob H rvn t10 s10 H10. destruct rvn as [[wr hv] noise]. ob H u11 t11 s11 H11.
  ob H ind t12 s12 H12. ob H u13 t13 s13 H13. ob H loop t14 s14 H14. ob H enc t15 s15 H15. ob H u16 t16 s16 H16.
  ob H cv t17 s17 H17. destruct cv as [cal ecv]. ob H u18 t18 s18 H18. ob H scale t19 s19 H19. ob H kv t20 s20 H20.
  pose proof (w_clear [] _ _ H1) as W1.
  assert (W2 : Forall (fun e : ev => within p_first (question e)) t2).
  { match type of H2 with traces ?p _ _ => assert (W : only (within p_first) p) by (repeat (only_step; try leaf)) end. exact (W _ _ H2). }
  pose proof (w_scale parse_float [] _ _ H3) as W3. pose proof (w_rate parse_float [] _ _ H4) as W4.
  assert (W5 : Forall (fun e : ev => within p_first (question e)) t5).
  { match type of H5 with traces ?p _ _ => assert (W : only (within p_first) p) by (unfold try_set; repeat (only_step; try leaf)) end. exact (W _ _ H5). }
  assert (W6 : Forall (fun e : ev => within p_first (question e)) t6).
  { match type of H6 with traces ?p _ _ => assert (W : only (within p_first) p) by (unfold try_set; repeat (only_step; try leaf)) end. exact (W _ _ H6). }
  pose proof (w_stats [] _ _ H7) as W7. apply traces_ok_lift in H8. destruct H8 as [-> _]. pose proof (w_fault [] _ _ H9) as W9.
  pose proof (w_resistance float_str fixed3 hypot py_sum [] _ _ _ _ H10) as W10.
  pose proof (w_fault [] _ _ H11) as W11.
  pose proof (w_inductance float_str [] _ _ _ _ _ H12) as W12.
  pose proof (w_fault [] _ _ H13) as W13.
  pose proof (w_loop parse_float float_str [] _ _ _ _ _ _ H14) as W14.
  pose proof (w_filter float_str [] _ _ _ _ _ _ H15) as W15.
  pose proof (w_fault [] _ _ H16) as W16.
  pose proof (w_encoder parse_float float_str py_sum minimize [] _ _ _ _ _ _ _ H17) as W17.
  pose proof (w_fault [] _ _ H18) as W18. apply traces_ok_lift in H19. destruct H19 as [-> _].
  assert (W21 : Forall (fun e : ev => within p_first (question e)) s20).
  { match type of H with traces ?p _ _ => assert (W : only (within p_first) p) end.
    { unfold set_voltage_mode, is_config_supported, get_device_info, read_uuid.
      repeat (first [apply (w_fault p_first)|only_step]; try leaf). }
    exact (W _ _ H). }
  unfold calibrate_kv_rating in H20. rewrite K' in H20. ob H20 m ta tb HA.
  assert (WB : Forall (fun e : ev => within p_first (question e)) tb).
  { match type of H20 with traces ?p _ _ => assert (W : only (within p_first) p) end.
    { unfold set_float. repeat (only_step; try leaf). }
    exact (W _ _ H20). }
  apply measure_kept in HA.
  replace (t1 ++ t2 ++ t3 ++ t4 ++ t5 ++ t6 ++ t7 ++ [] ++ t9 ++ t10 ++ t11 ++ t12 ++ t13 ++ t14 ++ t15 ++ t16 ++ t17 ++ t18 ++ [] ++ (ta ++ tb) ++ s20)
    with ((t1 ++ t2 ++ t3 ++ t4 ++ t5 ++ t6 ++ t7 ++ t9 ++ t10 ++ t11 ++ t12 ++ t13 ++ t14 ++ t15 ++ t16 ++ t17 ++ t18) ++ ta ++ (tb ++ s20))
    by (cbn [app]; rewrite <- !app_assoc; reflexivity).
  split; (apply kept_between; [|apply HA|]); rewrite !Forall_app; repeat split; (eapply quiet_within; [eassumption|reflexivity]).
Qed.
End P.

(** ** Examples *)
Lemma bench_traces hall bad ok : (match bench_run hall bad with Some (t, o, _) => ok t o | None => false end) = true ->
  exists t o, traces (bench_calibrate hall) t (Some o) /\ ok t o = true.
Proof.
  unfold bench_run. destruct (drive _ _ _ _) as [[[t o] w]|] eqn:E; [|discriminate]. intros H. exists t, o. split; auto.
  exact (drive_traces _ _ _ _ _ _ _ _ _ E).
Qed.
Definition sends_b (x : list Z) (e : ev) : bool := match sent e with Some y => bytes_eqb y x | None => false end.
Lemma sends_b_true x e : sends_b x e = true -> sends x e.
Proof. unfold sends_b, sends. destruct (sent e); [|discriminate]. intros H. apply bytes_eqb_same in H. now subst. Qed.

(** Hall sensors, and Kv is measured: the motor turned, is stopped, and the limits are as before. *)
Example ex_stopped : exists t r, traces (bench_calibrate true) t (Some (inr r)) /\
  Exists (sends (lit "d vdq 0 602")) t /\ stopped t /\ kept toy_parse toy_str (lit "servopos.position_min") t.
Proof.
  destruct (bench_traces true never (fun t o => match o with inr _ => existsb (sends_b (lit "d vdq 0 602")) t | inl _ => false end))
    as (t & o & T & K); [vm_compute; reflexivity|].
  destruct o as [e|r]; [discriminate|]. exists t, r. split; [exact T|]. split; [|split].
  - apply existsb_exists in K. destruct K as (e & I & K). apply Exists_exists. exists e. split; [exact I|now apply sends_b_true].
  - exact (C53_stopped_on_success _ _ _ _ _ _ (bench_args true) _ _ T).
  - exact (proj1 (C53_limits_are_restored _ _ _ _ _ _ (bench_args true) _ _ eq_refl eq_refl T)).
Qed.

(** An absolute encoder; the spin gives no samples, and calibration fails. *)
Example ex_spin : exists t e, traces (bench_calibrate false) t (Some (inl e)) /\
  exists t1 x t2 text, t = t1 ++ x :: t2 /\ sent x = Some text /\ begins (lit "d cal") text /\ Exists (sends (lit "d stop")) t2.
Proof.
  destruct (bench_traces false never (fun t o => match o with inl _ =>
    existsb (fun e => match sent e with Some y => startswith (lit "d cal") y | None => false end) t | inr _ => false end))
    as (t & o & T & K); [vm_compute; reflexivity|].
  destruct o as [e|r]; [|discriminate]. exists t, e. split; [exact T|]. apply existsb_exists in K. destruct K as (x & I & K).
  destruct (sent x) as [y|] eqn:S; [|discriminate]. apply startswith_begins in K. apply in_split in I. destruct I as (t1 & t2 & E).
  exists t1, x, t2, y. split; [exact E|]. split; [exact S|]. split; [exact K|].
  exact (C53_spin_is_stopped _ _ _ _ _ _ (bench_args false) _ _ T _ _ _ _ E S K).
Qed.

(** In the same run the sign, which was -1, is set to 1 and then put back. *)
Example ex_sign : exists t e, traces (bench_calibrate false) t (Some (inl e)) /\
  exists t1 x t2, t = t1 ++ x :: t2 /\ sends (set_text sign_name (lit "1")) x /\ Exists (sends (set_text sign_name (lit "-1"))) t2.
Proof.
  destruct (bench_traces false never (fun t o => match o with inl _ =>
    existsb (sends_b (set_text sign_name (lit "1"))) t &&
    forallb (fun e => match e with
      | existT _ (Command text any) (Some (inr reply)) =>
          if bytes_eqb text (lit "conf get " ++ sign_name) then bytes_eqb reply (lit "-1") else true
      | existT _ (Command text any) (Some (inl _)) => negb (bytes_eqb text (lit "d stop"))
      | _ => true end) t | inr _ => false end))
    as (t & o & T & K); [vm_compute; reflexivity|].
  destruct o as [e|r]; [|discriminate]. exists t, e. split; [exact T|]. apply andb_true_iff in K. destruct K as [K F].
  apply existsb_exists in K. destruct K as (x & I & K). apply sends_b_true in K. apply in_split in I. destruct I as (t1 & t2 & E).
  exists t1, x, t2. split; [exact E|]. split; [exact K|]. rewrite forallb_forall in F.
  destruct (C53_sign_is_restored _ _ _ _ _ _ (bench_args false) _ _ eq_refl T _ _ _ E K) as (reply & z & G & P & D).
  assert (Z : z = -1).
  { assert (J : In (answered (Command (lit "conf get " ++ sign_name) true) (inr reply)) t) by (rewrite E; apply in_or_app; now left).
    apply F in J. cbn [Proc.answered] in J. change (bytes_eqb reply (lit "-1") = true) in J. apply bytes_eqb_same in J. subst reply.
    vm_compute in P. congruence. }
  subst z. destruct D as [D|[D|D]]; [discriminate|exact D|]. exfalso. apply Exists_exists in D. destruct D as (y & J & (m & ->)).
  assert (J' : In (answered (Command (lit "d stop") false) (inl m)) t) by (rewrite E; apply in_or_app; right; now right).
  apply F in J'. discriminate J'.
Qed.

(** ** What is not so *)

(** Elsewhere the motor keeps its voltage when calibration fails: here the second position
    of the hall sensors cannot be read. *)
Theorem C53_stopped_on_failure_refuted :
  ~ (forall t e, traces (bench_calibrate true) t (Some (inl e)) -> stopped t).
Proof.
  intros C. destruct (bench_traces true second_position (fun t o => match o with inl _ =>
    match rev t with
    | _ :: _ :: x :: _ => match sent x with Some y => startswith (lit "d pwm ") y | None => false end &&
        forallb (fun e => match sent e with None => true | Some _ => false end) (firstn 2 (rev t))
    | _ => false end | inr _ => false end)) as (t & o & T & K); [vm_compute; reflexivity|].
  destruct o as [e|r]; [|discriminate]. apply C in T. destruct (rev t) as [|e1 [|e2 [|x l]]] eqn:R; try discriminate.
  apply (f_equal (@rev _)) in R. rewrite rev_involutive in R. cbn [rev] in R. rewrite <- !app_assoc in R. cbn [app] in R.
  apply andb_true_iff in K. destruct K as [K1 K2]. destruct (sent x) as [y|] eqn:S; [|discriminate]. apply startswith_begins in K1.
  pose proof (T _ _ _ _ R S (or_introl K1)) as X. cbn [firstn forallb] in K2. apply andb_true_iff in K2. destruct K2 as [K2 K3].
  apply andb_true_iff in K3. destruct K3 as [K3 _].
  inversion X as [? ? (any & reply & E)|? ? X2]; subst; [discriminate K3|].
  inversion X2 as [? ? (any & reply & E)|? ? X3]; subst; [discriminate K2|inversion X3].
Qed.

(** The limits of the position are lost when the measurement of Kv fails: here "d index 0" is refused. *)
Theorem C53_limits_on_failure_refuted :
  ~ (forall t e, traces (bench_calibrate true) t (Some (inl e)) -> ~ holds (lit "servopos.position_min") (lit "NaN") t).
Proof.
  intros C. destruct (bench_traces true (refuses (lit "d index 0")) (fun t o => match o with inl _ =>
    match rev t with
    | e1 :: e2 :: x :: _ => match x with
                            | existT _ (Command text _) (Some (inr _)) => bytes_eqb text (lit "conf set servopos.position_min NaN")
                            | _ => false
                            end && sends_b (lit "conf set servopos.position_max NaN") e2 && sends_b (lit "d index 0") e1
    | _ => false end | inr _ => false end)) as (t & o & T & K); [vm_compute; reflexivity|].
  destruct o as [e|r]; [|discriminate]. apply (C _ _ T). destruct (rev t) as [|e1 [|e2 [|x l]]] eqn:R; try discriminate.
  apply (f_equal (@rev _)) in R. rewrite rev_involutive in R. cbn [rev] in R. rewrite <- !app_assoc in R. cbn [app] in R.
  apply andb_true_iff in K. destruct K as [K K3]. apply andb_true_iff in K. destruct K as [K1 K2].
  apply sends_b_true in K2, K3. destruct x as [q [[?|y]|]]; try (destruct q; discriminate). destruct q as [text any| | | | | | | | | | | | | ]; try discriminate.
  apply bytes_eqb_same in K1. subst text. exists (rev l), (answered (Command (lit "conf set servopos.position_min NaN") any) (inr y)), [e2; e1].
  split; [exact R|]. split; [exists any, y; reflexivity|].
  constructor; [|constructor; [|constructor]]; intros text S (k & B); [rewrite K2 in S|rewrite K3 in S]; injection S as <-; discriminate.
Qed.

(** When servo.voltage_mode_control cannot be read, the device is told to set it to "None". *)
Theorem C53_mode_on_failure_refuted :
  ~ (forall t e, traces (bench_calibrate false) t (Some (inl e)) ->
       ~ Exists (sends (lit "conf set servo.voltage_mode_control None")) t).
Proof.
  intros C. destruct (bench_traces false (refuses (lit "conf get servo.voltage_mode_control")) (fun t o => match o with inl _ =>
    existsb (sends_b (lit "conf set servo.voltage_mode_control None")) t | inr _ => false end)) as (t & o & T & K); [vm_compute; reflexivity|].
  destruct o as [e|r]; [|discriminate]. apply (C _ _ T). apply existsb_exists in K. destruct K as (x & I & K).
  apply Exists_exists. exists x. split; [exact I|now apply sends_b_true].
Qed.

Print Assumptions C53_stopped_on_success.
Print Assumptions C53_spin_is_stopped.
Print Assumptions C53_sign_is_restored.
Print Assumptions C53_limits_are_restored.
Print Assumptions C53_stopped_on_failure_refuted.
Print Assumptions C53_limits_on_failure_refuted.
Print Assumptions C53_mode_on_failure_refuted.
