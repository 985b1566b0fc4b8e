(** C58: the voltages and currents calibration puts on the motor. *)
From Coq Require Import Ascii String ZArith List Bool Lia ZifyBool ZifyNat Floats.SpecFloat.
From Verif Require Import PyBase PyBytes PyFloat Tool_Model Calib_Model Config_Model Encoder_Model Calfile_Model
  Proc Device_Model Calproc_Model Device_Spec Device_Proofs Calproc_Spec Calproc_Proofs Calproc_Examples Calproc_Bench
  Props_Calproc Props_Stop Volt_Spec Volt_Proofs.
Import ListNotations.
Open Scope Z_scope.

Section P.
Variable parse_float : list Z -> res float.
Variable float_str : float -> list Z.
Variable fixed3 : float -> list Z.
Variable hypot : float -> float -> float.
Variable py_sum : list float -> float.
Variable minimize : list float -> bool * list float.
Notation do_calibrate := (do_calibrate parse_float float_str fixed3 hypot py_sum minimize).
Notation calibrate_motor := (calibrate_motor parse_float float_str fixed3 hypot py_sum minimize).
Ltac ob H x t1 t2 H1 := apply traces_ok_bind in H; destruct H as (x & t1 & t2 & -> & H1 & H).

Definition unread (r : treq) : Prop := match r with ReadServoStats => False | _ => True end.
Lemma unread_nil (t : list ev) : Forall (fun e => unread (question e)) t -> readings t = [].
Proof.
  induction 1 as [|[r x] t H _ IH]; [reflexivity|]. cbn. destruct r; cbn in H; try contradiction; exact IH.
Qed.

Definition goal (a : cal_args) (h : list ev) (r : treq) : Prop :=
  forall text, sent (existT _ r None : ev) = Some text -> energises text -> allowed float_str fixed3 hypot py_sum a h text.

Lemma goal_still a ps h A (p : T A) : only (within ps) p ->
  forallb (fun q => forallb (fun x => negb (meet x q)) ps) energising = true -> onlyh (goal a) h p.
Proof.
  intros W N. eapply onlyh_only; [exact W|]. intros h' r Hr text S B. exfalso. assert (C : calm [existT _ r None : ev]).
  { apply (calm_within ps); [constructor; [exact Hr|constructor]|exact N]. }
  inversion C as [|? ? C1 _]. exact (C1 _ S B).
Qed.

Lemma supply_more h t V : supply h V -> supply (h ++ t) V.
Proof. intros (s & l & E & H). exists s, (l ++ readings t). rewrite readings_app, E. auto. Qed.

Lemma asked_options a a' : calibration_parameters a = Ok a' ->
  a_motor_power a' = a_motor_power a /\ a_ll_encoder_speed a' = a_ll_encoder_speed a /\
  forall v, given (a_ll_kv_voltage a') = Some v -> In v (asked_volts a).
Proof.
  unfold calibration_parameters. intros H. destruct (deprecated (a_power a) _); cbn [bind] in H; [|discriminate].
  destruct (deprecated (a_speed a) _); cbn [bind] in H; [|discriminate].
  destruct (match a_voltage a with Some _ => _ | None => _ end); cbn [bind] in H; [|discriminate].
  destruct (deprecated (a_kv_voltage a) (a_ll_kv_voltage a)) as [k|] eqn:D; cbn [bind] in H; [|discriminate].
  injection H as <-. split; [reflexivity|]. split; [reflexivity|]. intros v G. cbn [a_ll_kv_voltage] in G.
  assert (k = Some v) as -> by (unfold given in G; destruct k as [k|]; [|discriminate]; destruct (feqb _ _); congruence).
  unfold asked_volts. unfold deprecated in D. destruct (a_kv_voltage a), (a_ll_kv_voltage a); try discriminate; injection D as ->; cbn; auto.
Qed.

(** A calibration puts on the motor only these voltages and currents,
    none of them before the supply voltage has been read. *)
Theorem C58_voltages a t o t1 e t2 text : traces (do_calibrate a) t o -> t = t1 ++ e :: t2 ->
  sent e = Some text -> energises text -> allowed float_str fixed3 hypot py_sum a t1 text.
Proof.
  intros T E S B. assert (O : onlyh (goal a) [] (do_calibrate a)).
  { unfold Calproc_Model.do_calibrate. apply onlyh_bind; [apply (goal_still a (p_get ++ [])); [apply w_prepare|reflexivity]|].
    intros h0 [[fw c] a'] H0. assert (R0 : readings h0 = []).
    { apply unread_nil. assert (W : only unread (prepare a)) by (unfold prepare, is_config_supported, read_config_int; repeat (only_step; try exact I)).
      exact (W _ _ H0). }
    apply prepare_args in H0 as (Ha & _ & _). apply asked_options in Ha as (Pw & Sp & As). cbn [app]. apply onlyh_bind.
    - unfold Calproc_Model.calibrate_motor.
      apply onlyh_bind; [apply (goal_still a (lit "conf set motor.offset." :: [])); [apply w_clear|reflexivity]|]. intros s1 u1 H1.
      apply onlyh_bind; [apply (goal_still a [lit "d stop"]); [only_step; leaf|reflexivity]|]. intros s2 u2 H2.
      apply onlyh_bind; [apply (goal_still a (p_get ++ [])); [apply w_scale|reflexivity]|]. intros s3 scale H3.
      apply onlyh_bind; [apply (goal_still a (p_get ++ [])); [apply w_rate|reflexivity]|]. intros s4 rate H4.
      apply onlyh_bind; [apply (goal_still a [lit "conf "]); [unfold try_set; repeat (only_step; try leaf)|reflexivity]|]. intros s5 u5 H5.
      apply onlyh_bind; [apply (goal_still a [lit "conf "]); [unfold try_set; repeat (only_step; try leaf)|reflexivity]|]. intros s6 u6 H6.
      assert (R : readings (h0 ++ s1 ++ s2 ++ s3 ++ s4 ++ s5 ++ s6) = []).
      { rewrite !readings_app, R0.
        assert (W1 : only unread clear_motor_offsets) by (unfold clear_motor_offsets; repeat (only_step; try exact I)).
        assert (W2 : only unread (command (lit "d stop"))) by (repeat (only_step; try exact I)).
        assert (W3 : only unread (position_scale parse_float)) by (unfold position_scale, is_config_supported, read_config_double; repeat (only_step; try exact I)).
        assert (W4 : only unread (control_rate parse_float)) by (unfold control_rate, is_config_supported, read_config_double; repeat (only_step; try exact I)).
        assert (W5 : forall x, only unread (try_set x)) by (intros x; unfold try_set; repeat (only_step; try exact I)).
        rewrite (unread_nil _ (W1 _ _ H1)), (unread_nil _ (W2 _ _ H2)), (unread_nil _ (W3 _ _ H3)), (unread_nil _ (W4 _ _ H4)),
          (unread_nil _ (W5 _ _ _ H5)), (unread_nil _ (W5 _ _ _ H6)). reflexivity. }
      apply onlyh_bind; [apply (goal_still a []); [apply w_stats|reflexivity]|]. intros s7 stats H7. apply stats_event in H7. subst s7.
      apply onlyh_bind; [apply onlyh_lift|]. intros s8 V H8. apply traces_ok_lift in H8 as [-> H8].
      assert (SV : supply ((((((((h0 ++ s1) ++ s2) ++ s3) ++ s4) ++ s5) ++ s6) ++ [answered ReadServoStats (inr stats)]) ++ []) V).
      { exists stats, []. split.
        - rewrite <- !app_assoc. cbn [app]. rewrite !app_assoc. rewrite readings_app. rewrite <- !app_assoc. rewrite R. reflexivity.
        - unfold round_nearest_4v in H8. destruct (fltb _ _); [now injection H8 as <-|].
          destruct (float_round _) as [n|] eqn:F; cbn [bind] in H8; [|discriminate]. injection H8 as <-. exists n. auto. }
      set (h := _ ++ []) in *. clearbody h. intros u o' U u1' x u2' EU text' S' B'. exists V. split; [now apply supply_more|].
      pose proof (h_after parse_float float_str fixed3 hypot py_sum minimize a' (asked_volts a) As V fw scale rate h u o' U u1' x u2' EU text' S' B') as F.
      unfold fine in F. rewrite Pw, Sp in F. exact F.
    - intros s r _. apply onlyh_bind; [|intros; apply (goal_still a [lit "conf "]); [repeat (only_step; try leaf)|reflexivity]].
      destruct (negb _); [apply (goal_still a [lit "conf "]); [repeat (only_step; try leaf)|reflexivity]|].
      apply onlyh_bind; [|intros; apply onlyh_ret]. intros u o' U u1 x u2 -> text' S' B'. apply restore_calm in U.
      apply Forall_app in U as [_ U]. inversion U as [|? ? U1 _]. exfalso. refine (U1 text' _ B'). destruct x as [q y]. exact S'. }
  refine (O _ _ T _ _ _ E text _ B). destruct e as [q y]. exact S.
Qed.

(** ** The guard while Kv is measured *)
Lemma last_n_map {A B} (f : A -> B) n l : last_n n (map f l) = map f (last_n n l).
Proof. unfold last_n. rewrite map_length. now rewrite skipn_map. Qed.

Lemma last_n_length {A} n (l : list A) : List.length (last_n n l) = Nat.min n (List.length l).
Proof. unfold last_n. rewrite skipn_length. lia. Qed.

Lemma skipn_skipn {A} x y (l : list A) : skipn x (skipn y l) = skipn (x + y) l.
Proof. revert l. induction y as [|y IH]; intros l; [now rewrite Nat.add_0_r|]. rewrite Nat.add_succ_r. destruct l; cbn [skipn]; [now destruct x|]. apply IH. Qed.

Lemma last_n_push {A} n (l : list A) x : (0 < n)%nat ->
  (if (n <? List.length (last_n n l ++ [x]))%nat then tl (last_n n l ++ [x]) else last_n n l ++ [x]) = last_n n (l ++ [x]).
Proof.
  intros Hn. rewrite app_length, last_n_length. cbn [List.length]. unfold last_n. rewrite app_length. cbn [List.length].
  destruct (Nat.leb_spec n (List.length l)) as [L|L].
  - replace (Nat.min n (List.length l) + 1)%nat with (S n) by lia. destruct (n <? S n)%nat eqn:E; [|lia].
    replace (List.length l + 1 - n)%nat with (S (List.length l - n)) by lia. rewrite skipn_app.
    replace (S (List.length l - n) - List.length l)%nat with 0%nat by lia. change (skipn 0 [x]) with [x].
    assert (Q : skipn (List.length l - n) l <> []) by (intros Q; apply (f_equal (@List.length A)) in Q; rewrite skipn_length in Q; cbn in Q; lia).
    change (S (List.length l - n)) with (1 + (List.length l - n))%nat. rewrite <- skipn_skipn.
    destruct (skipn (List.length l - n) l); [congruence|reflexivity].
  - replace (Nat.min n (List.length l) + 1)%nat with (S (List.length l)) by lia. destruct (n <? S (List.length l))%nat eqn:E; [lia|].
    replace (List.length l - n)%nat with 0%nat by lia. replace (List.length l + 1 - n)%nat with 0%nat by lia. reflexivity.
Qed.

Lemma last_n_of_last {A} n m (l : list A) : (n <= m)%nat -> last_n n (last_n m l) = last_n n l.
Proof.
  intros H. unfold last_n. rewrite skipn_skipn. f_equal. rewrite skipn_length. lia.
Qed.

Lemma stop_then B C (p : T C) x (f : C -> T B) t o : p = (do _ <- command (lit "d stop"); Throw x) -> traces (pbind p f) t o ->
  (o = None \/ exists y, o = Some (inl y)) /\ forall e t2, t = e :: t2 -> sends (lit "d stop") e /\ t2 = [].
Proof.
  intros -> T. assert (Q : traces (do _ <- command (lit "d stop"); @Throw treq trep C x) t None /\ (o = None \/ exists y, o = Some (inl y))).
  { apply traces_bind in T as [[T ->]|[(y & T & ->)|(b & u1 & u2 & -> & T & _)]].
    - auto.
    - split; [exact (traces_unfinished _ _ _ _ T)|eauto].
    - apply traces_ok_bind in T as (? & ? & ? & _ & _ & T). now apply traces_ok_throw in T. }
  destruct Q as [Q Ho]. split; [exact Ho|]. intros e t2 ->.
  assert (R : exists y, e :: t2 = [existT _ (Command (lit "d stop") false) y]).
  { apply traces_bind in Q as [[Q _]|[(y & _ & [=])|(b & u1 & u2 & E & Q & [-> _])]].
    - apply (traces_await (Command (lit "d stop") false)) in Q as [[_ [Q|(y & Q)]]|(y & Q & _)]; [discriminate| |]; rewrite Q; eexists; reflexivity.
    - rewrite E, app_nil_r. apply traces_ok_command in Q. rewrite Q. eexists; reflexivity. }
  destruct R as (y & R). injection R as -> ->. split; reflexivity.
Qed.

Definition powers (v : float) (r : list servo_stats) : list float :=
  map (fun s => fmul (fmul v (hypot (ss_d_A s) (ss_q_A s))) (flit 15 1)) r.
Definition sampled (v : float) (r : list servo_stats) : list float * list float :=
  (last_n 5 (powers v r), last_n 15 (map ss_velocity r)).

Definition is_now (r : treq) : Prop := match r with Now => True | _ => False end.

Definition now_value (e : ev) : option float := match e with existT _ Now (Some (inr x)) => Some x | _ => None end.
Lemma now_same x y (t u : list ev) : answered Now (inr x) :: t = answered Now (inr y) :: u -> x = y /\ t = u.
Proof.
  intros E. pose proof (f_equal (fun l => match l with e :: _ => now_value e | [] => None end) E) as E1. cbn in E1. injection E1 as ->.
  split; [reflexivity|]. exact (f_equal (@tl ev) E).
Qed.

Lemma readings_answers r : readings (map (fun s => answered ReadServoStats (inr s)) r) = r.
Proof. induction r as [|s r IH]; [reflexivity|]. cbn. f_equal. exact IH. Qed.

Lemma average_some l : List.length l = 5%nat -> average py_sum l = Ok (mean py_sum l).
Proof. intros H. unfold average, mean, float_div. rewrite H. reflexivity. Qed.

(** While the motor turns for Kv, a reading that shows an overload within two seconds is followed by "d stop", and
    the measurement fails. *)
Theorem C58_overload a v wait t o c w start t1 now e t2 : traces (find_speed fixed3 hypot py_sum a v wait) t o ->
  t = [c; w; answered Now (inr start)] ++ t1 ++ [answered Now (inr now); e] ++ t2 ->
  fltb (float_of_Z 2) (fsub now start) = false -> overloaded hypot py_sum a v t1 ->
  sends (lit "d stop") e /\ t2 = [] /\ (o = None \/ exists x, o = Some (inl x)).
Proof.
  intros T -> Ht Hot. unfold find_speed in T.
  apply traces_bind in T as [[T _]|[(x & T & _)|(u & s1 & s2 & E & T & T2)]].
  { destruct (check_voltage v); destruct T as [T _]; discriminate. }
  { destruct (check_voltage v); destruct T as [T _]; discriminate. }
  apply traces_ok_lift in T as [-> _]. cbn [app] in E. subst s2.
  apply traces_bind in T2 as [[T _]|[(x & T & _)|(r1 & s1 & s2 & E & T & T2)]];
    try (apply (traces_await (Command _ false)) in T as [[_ [T|(y & T)]]|(y & T & _)]; discriminate).
  apply traces_ok_command in T. subst s1. injection E as _ <-.
  apply traces_bind in T2 as [[T _]|[(x & T & _)|(r2 & s1 & s2 & E & T & T2)]];
    try (apply traces_await in T as [[_ [T|(y & T)]]|(y & T & _)]; discriminate).
  apply traces_ok_await in T. subst s1. injection E as _ <-.
  apply traces_bind in T2 as [[T _]|[(x & T & _)|(st & s1 & s2 & E & T & T2)]];
    try (apply traces_await in T as [[_ [T|(y & T)]]|(y & T & _)]; try discriminate; destruct t1; discriminate).
  apply (traces_ok_await Now) in T. subst s1. cbn [app] in E. apply now_same in E as [<- <-].
  match type of T2 with traces (Loop ?b _ _) _ _ => pose (body := b); change b with body in T2 end.
  assert (BF : forall r0 t o u1 u2, traces (body (sampled v r0)) t o -> t = u1 ++ [answered Now (inr now); e] ++ u2 ->
            overloaded hypot py_sum a v (map (fun s => answered ReadServoStats (inr s)) r0 ++ u1) ->
            sends (lit "d stop") e /\ u2 = [] /\ (o = None \/ exists x, o = Some (inl x))).
  { intros r0 t o0 u1 u2 B E O. unfold body, sampled in B. cbn beta iota in B.
    apply traces_bind in B as [[B _]|[(x & B & _)|(data & s1 & s2 & Es & B & B2)]].
    1,2: exfalso; assert (W : only (fun r => ~ is_now r) read_servo_stats) by (unfold read_servo_stats; repeat (only_step; try (cbn; tauto)));
      apply W in B; rewrite E in B; apply Forall_app in B as [_ B]; inversion B as [|? ? B1 _]; apply B1; exact I.
    apply stats_event in B. subst s1.
    apply traces_bind in B2 as [[B _]|[(x & B & _)|(ra & s1 & s3 & -> & B & B2)]].
    1,2: exfalso; destruct (average _ _); destruct B as [-> _]; rewrite Es in E; destruct u1 as [|? [|? ?]]; discriminate.
    apply traces_ok_lift in B as [-> Ra]. cbn [app] in Es.
    apply traces_bind in B2 as [[B _]|[(x & B & _)|(n & s1 & s2 & -> & B & B2)]].
    1,2: exfalso; apply (traces_await Now) in B as [[_ [->|(y & ->)]]|(y & -> & _)]; rewrite Es in E; destruct u1 as [|? [|? [|? ?]]]; discriminate.
    apply (traces_ok_await Now) in B. subst s1. cbn [app] in Es. rewrite Es in E. clear Es t.
    destruct u1 as [|x1 u1]; [discriminate|]. injection E as <- E.
    assert (u1 = [] /\ now = n /\ s2 = e :: u2) as (-> & <- & ->).
    { destruct u1 as [|x2 u1]; cbn [app] in E.
      - apply now_same in E as [-> ->]. auto.
      - exfalso. injection E as _ E. match type of B2 with traces ?q _ _ => assert (W : only (fun r => ~ is_now r) q) by (repeat (only_step; try (cbn; tauto))) end.
        apply W in B2. rewrite E in B2. apply Forall_app in B2 as [_ B2]. inversion B2 as [|? ? B1 _]. apply B1. exact I. }
    clear E. unfold overloaded in O. rewrite readings_app in O.
    rewrite readings_answers in O.
    cbn [readings flat_map app Proc.answered] in O. change (@last_five servo_stats) with (@last_n servo_stats 5) in O. destruct O as (L & Sl & Pw).
    rewrite last_n_push in Ra by lia.
    replace (map ss_velocity r0 ++ [ss_velocity data]) with (map ss_velocity (r0 ++ [data])) in Ra by now rewrite map_app.
    rewrite last_n_of_last in Ra by lia. rewrite last_n_map in Ra. rewrite average_some in Ra by (rewrite map_length; exact L). injection Ra as <-.
    replace (fgtb (fsub now start) (float_of_Z 2)) with false in B2 by (symmetry; exact Ht).
    rewrite !last_n_push in B2 by lia.
    match type of B2 with context [Nat.leb 5 (List.length ?P)] =>
      assert (PE : P = map (fun s => fmul (fmul v (hypot (ss_d_A s) (ss_q_A s))) (flit 15 1)) (last_n 5 (r0 ++ [data])))
        by (unfold powers; rewrite <- last_n_map, map_app; reflexivity); rewrite PE in B2;
      assert (PL : List.length P = 5%nat) by (rewrite PE, map_length; exact L); rewrite PE in PL end.
    rewrite PL in B2. change (5 <=? 5)%nat with true in B2. cbn iota in B2.
    rewrite average_some in B2 by exact PL.
    cbn [lift pbind] in B2.
    match type of B2 with context [if ?c && ?d then _ else Ret tt] => replace (c && d) with true in B2
      by (symmetry; apply andb_true_iff; split; [exact Sl|exact Pw]) end.
    apply (stop_then _ _ _ (Exn RuntimeError)) in B2; [|reflexivity]. destruct B2 as [Ho He]. destruct (He _ _ eq_refl) as [H1 H2]. auto. }
  assert (BN : forall r0 t st', traces (body (sampled v r0)) t (Some (inr (inl st'))) ->
            exists data, st' = sampled v (r0 ++ [data]) /\ readings t = [data] /\ exists t' x, t = t' ++ [answered (Sleep (flit 2 2)) x]).
  { intros r0 t st' B. unfold body, sampled in B. cbn beta iota in B. ob B data s1 s2 B1. apply stats_event in B1. subst s1.
    ob B ra s1 s3 B1. apply traces_ok_lift in B1 as [-> _]. ob B n s1 s4 B1. apply (traces_ok_await Now) in B1. subst s1.
    destruct (fgtb (fsub n start) _); [apply traces_ok_ret in B as [_ B]; discriminate|].
    ob B u3 s1 s5 B1. assert (s1 = []) as ->.
    { destruct (Nat.leb 5 _); [|now apply traces_ok_ret in B1 as [-> _]]. ob B1 m s6 s7 B2. apply traces_ok_lift in B2 as [-> _].
      destruct (_ && _); [ob B1 m2 s6 s8 B2; now apply traces_ok_throw in B1|now apply traces_ok_ret in B1 as [-> _]]. }
    destruct (_ && _); [apply traces_ok_ret in B as [_ B]; discriminate|].
    ob B d s1 s6 B2. assert (s1 = []) as ->.
    { destruct (Nat.eqb _ 15); [|now apply traces_ok_ret in B2 as [-> _]]. ob B2 m s7 s8 B3. apply traces_ok_lift in B3 as [-> _].
      ob B2 m2 s7 s9 B3. apply traces_ok_lift in B3 as [-> _]. now apply traces_ok_ret in B2 as [-> _]. }
    destruct d; [apply traces_ok_ret in B as [_ B]; discriminate|].
    ob B u4 s1 s7 B3. apply (traces_ok_await (Sleep _)) in B3. subst s1. apply traces_ok_ret in B as [-> B]. exists data.
    injection B as <-. split; [|split].
    - rewrite !last_n_push by lia. unfold sampled, powers. now rewrite !map_app.
    - reflexivity.
    - exists [answered ReadServoStats (inr data); answered Now (inr n)], (inr u4). reflexivity. }
  assert (G : forall st t o0, turns (fun x => traces (body x)) (fun b => traces (Ret b)) st t o0 -> forall r0 u1 u2, st = sampled v r0 ->
            t = u1 ++ [answered Now (inr now); e] ++ u2 ->
            overloaded hypot py_sum a v (map (fun s => answered ReadServoStats (inr s)) r0 ++ u1) ->
            sends (lit "d stop") e /\ u2 = [] /\ (o0 = None \/ exists x, o0 = Some (inl x))).
  { intros st t o0 H. induction H as [x t T|x t x0 T|x t x' t' o0 T _ IH|x t b t' o0 T T3]; intros r0 u1 u2 -> E O.
    - destruct (BF _ _ _ _ _ T E O) as (H1 & H2 & _). auto.
    - destruct (BF _ _ _ _ _ T E O) as (H1 & H2 & _). eauto.
    - destruct (BN _ _ _ T) as (data & -> & R & t'' & y & Et). pose proof E as E0. apply split_at in E as [(w' & E)|(w' & -> & E)].
      + exfalso. destruct w' as [|e' w'].
        * rewrite E in Et. apply app_inj_tail in Et as [_ Et]. discriminate.
        * assert (e' = e) as ->.
          { rewrite E, <- app_assoc in E0. apply app_inv_head in E0. exact (f_equal (fun l => hd e (tl l)) E0). }
          destruct (BF _ _ _ u1 w' T E O) as (_ & _ & [?|(? & ?)]); discriminate.
      + apply (IH (r0 ++ [data]) w' u2); [reflexivity|exact E|]. unfold overloaded in *. rewrite readings_app in *. rewrite readings_app in O.
        rewrite readings_answers in *. rewrite R in O. rewrite <- app_assoc. exact O.
    - destruct T3 as [-> T3]. rewrite app_nil_r in E. destruct (BF _ _ _ _ _ T E O) as (_ & _ & [?|(? & ?)]); discriminate. }
  apply (G _ _ _ T2 [] t1 t2 eq_refl eq_refl Hot).
Qed.
End P.

(** ** Examples *)

(** The run of Props_Stop.v with Hall sensors: 602 stands for the voltage the motor turns with. *)
Example ex_volts : exists t o t1 e t2, traces (bench_calibrate true) t o /\ t = t1 ++ e :: t2 /\
  sends (lit "d vdq 0 602") e /\ energises (lit "d vdq 0 602").
Proof.
  destruct (bench_traces true never (fun t o => existsb (sends_b (lit "d vdq 0 602")) t)) as (t & o & T & K); [vm_compute; reflexivity|].
  apply existsb_exists in K as (e & I & K). apply sends_b_true in K. apply in_split in I as (t1 & t2 & E).
  exists t, (Some o), t1, e, t2. split; [exact T|]. split; [exact E|]. split; [exact K|]. do 5 right. exists (lit "0 602"). reflexivity.
Qed.

(** A motor that is held: 100 A and no speed. *)
Definition held (w : unit) (r : treq) : unit * (err + trep r) :=
  match r return unit * (err + trep r) with
  | ReadServoStats => (w, inr {| ss_mode := 0; ss_bus_V := float_of_Z 12; ss_d_A := float_of_Z 100; ss_q_A := float_of_Z 0;
                                 ss_velocity := float_of_Z 0; ss_velocity_filt := None; ss_ind := None; ss_position_raw := None |})
  | r => (w, snd (toy_device [] {| pwms := 0; polls := 0; clock := 0 |} r))
  end.
Example ex_overload : exists t c w start t1 now e t2,
  traces (find_speed milli fadd left_sum (bench_args true) (float_of_Z 1) (flit 5 1)) t (Some (inl (Exn RuntimeError))) /\
  t = [c; w; answered Now (inr start)] ++ t1 ++ [answered Now (inr now); e] ++ t2 /\
  fltb (float_of_Z 2) (fsub now start) = false /\ overloaded fadd left_sum (bench_args true) (float_of_Z 1) t1 /\ List.length t1 = 13%nat.
Proof.
  destruct (drive 100 held tt (find_speed milli fadd left_sum (bench_args true) (float_of_Z 1) (flit 5 1))) as [[[t o] u]|] eqn:E;
    [|vm_compute in E; discriminate].
  pose proof (drive_traces _ _ _ _ _ _ _ _ _ E) as T. vm_compute in E. injection E as <- <- <-.
  match type of T with traces _ ?l _ => pose (x := existT _ Now None : ev);
    exists l, (nth 0 l x), (nth 1 l x), (float_of_Z 0), (firstn 13 (skipn 3 l)), (float_of_Z 0), (nth 17 l x), [] end.
  split; [exact T|]. split; [vm_compute; reflexivity|]. split; [vm_compute; reflexivity|]. split; [|vm_compute; reflexivity].
  unfold overloaded. split; [vm_compute; reflexivity|]. split; vm_compute; reflexivity.
Qed.

Print Assumptions C58_voltages.
Print Assumptions C58_overload.
