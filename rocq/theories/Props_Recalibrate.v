(** C56: restoring a calibration. *)
From Coq Require Import Ascii String ZArith List Bool Lia ZifyBool ZifyNat.
From Verif Require Import PyBase PyBytes PyFloat Tool_Model Calib_Model Config_Model Config_Spec Encoder_Model
  Calfile_Model Proc Device_Model Calproc_Model Device_Spec Device_Proofs Props_Restore Calproc_Spec
  Calproc_Proofs Calproc_Clean Calproc_Examples Props_Calproc Props_Report.
From Verif Require Config_Proofs.
Import ListNotations.
Open Scope Z_scope.

(** ** Specification *)

(** The device told its firmware has this serial number. *)
Definition serial_read (serial : list Z) (t : list ev) : Prop :=
  exists fw s1 s2 s3 rest, In (answered ReadFirmware (inr fw)) t /\
    fw_serial fw = s1 :: s2 :: s3 :: rest /\ base64_serial_number s1 s2 s3 = serial.

(** A text that only reads. *)
Definition looks (text : list Z) : Prop := begins (lit "conf get ") text \/ begins (lit "conf enumerate") text.

Section Spec.
Variable float_str : float -> list Z.
Notation num_str := (num_str float_str).

(** The number is there and not zero. *)
Definition nonzero (x : option num) : bool :=
  match x with
  | Some (NInt z) => negb (z =? 0)
  | Some (NFloat f) => negb (feqb f (float_of_Z 0))
  | None => false
  end.

(** Everything a report can ask to be set. *)
Inductive value_of (r : report) : list Z -> list Z -> Prop :=
| v_poles i p n l : rp_calibration r = CalJson i p n l -> value_of r (lit "motor.poles") (int_str n)
| v_sign i p n l : rp_calibration r = CalJson i p n l ->
    value_of r (lit "motor_position.sources.0.sign") (if i then lit "-1" else lit "1")
| v_invert i p n l : rp_calibration r = CalJson i p n l -> value_of r (lit "motor.invert") (bit i)
| v_phase i p n l : rp_calibration r = CalJson i p n l -> value_of r (lit "motor.phase_invert") (bit p)
| v_offset i p n l k x : rp_calibration r = CalJson i p n l -> nth_error l k = Some x ->
    value_of r (lit "motor.offset." ++ int_str (Z.of_nat k)) (num_str x)
| v_resistance : value_of r (lit "motor.resistance_ohm") (num_str (rp_resistance r))
| v_v_per_hz x : rp_v_per_hz r = Some x -> value_of r (lit "motor.v_per_hz") (num_str x)
| v_kv x : rp_kv r = Some x -> value_of r (lit "motor.Kv") (num_str x)
| v_kp x : rp_kp r = Some x -> value_of r (lit "servo.pid_dq.kp") (num_str x)
| v_ki x : rp_ki r = Some x -> value_of r (lit "servo.pid_dq.ki") (num_str x)
| v_hz x : rp_enc_hz r = Some x -> value_of r (lit "motor_position.sources.0.pll_filter_hz") (num_str x)
| v_enc_kp x : rp_enc_kp r = Some x -> value_of r (lit "servo.encoder_filter.kp") (num_str x)
| v_enc_ki x : rp_enc_ki r = Some x -> value_of r (lit "servo.encoder_filter.ki") (num_str x).

(** The report is in the device, as far as the device knows the parameters. *)
Definition restored (r : report) (t : list ev) : Prop :=
  serial_read (rp_serial r) t /\
  (exists invert phase_invert poles offset, rp_calibration r = CalJson invert phase_invert poles offset /\
     holds (lit "motor.poles") (int_str poles) t /\
     (holds (lit "motor_position.sources.0.sign") (if invert then lit "-1" else lit "1") t \/
      (lacks (lit "motor_position.sources.0.sign") t /\ holds (lit "motor.invert") (bit invert) t)) /\
     phase_invert_held phase_invert t /\
     forall k x, nth_error offset k = Some x -> holds (lit "motor.offset." ++ int_str (Z.of_nat k)) (num_str x) t) /\
  loop_held float_str r t /\
  ((exists v, rp_v_per_hz r = Some v /\ holds (lit "motor.v_per_hz") (num_str v) t) \/
   (lacks (lit "motor.v_per_hz") t /\
    ((exists v, rp_kv r = Some v /\ holds (lit "motor.Kv") (num_str v) t) \/ lacks (lit "motor.Kv") t))) /\
  ((nonzero (rp_enc_hz r) = true /\
    exists hz, rp_enc_hz r = Some hz /\ holds (lit "motor_position.sources.0.pll_filter_hz") (num_str hz) t) \/
   ((nonzero (rp_enc_hz r) = false \/ lacks (lit "motor_position.sources.0.pll_filter_hz") t) /\
    (lacks (lit "servo.encoder_filter.kp") t \/
     (forall x, rp_enc_kp r = Some x -> nonzero (rp_enc_kp r) = true -> holds (lit "servo.encoder_filter.kp") (num_str x) t) /\
     (forall x, rp_enc_ki r = Some x -> nonzero (rp_enc_ki r) = true -> holds (lit "servo.encoder_filter.ki") (num_str x) t)))).
End Spec.

(** ** Proofs *)
Section P.
Variable float_str : float -> list Z.
Notation num_str := (num_str float_str).
Notation restore := (do_restore_calibration float_str).

Lemma nonzero_true x : is_true x = nonzero x.
Proof. destruct x as [[z|f]|]; reflexivity. Qed.

(** Parts that do not store. *)
Definition silent {A} (p : T A) : Prop := forall t o, traces p t o -> Forall (fun e => ~ stores e) t.

Lemma silent_within ps A (p : T A) : only (within ps) p ->
  forallb (fun p => negb (meet p (lit "conf write"))) ps = true -> silent p.
Proof. intros W N t o H. exact (within_not_stores _ _ N (W _ _ H)). Qed.

Lemma silent_bind A B (p : T A) (k : A -> T B) t o : silent p -> traces (pbind p k) t o ->
  (Forall (fun e => ~ stores e) t /\ forall b, o <> Some (inr b)) \/
  exists a t1 t2, t = t1 ++ t2 /\ traces p t1 (Some (inr a)) /\ Forall (fun e => ~ stores e) t1 /\ traces (k a) t2 o.
Proof.
  intros S H. apply traces_bind in H. destruct H as [[H ->]|[(e & H & ->)|(a & t1 & t2 & -> & H1 & H2)]].
  - left. split; [exact (S _ _ H)|discriminate].
  - left. split; [exact (S _ _ H)|discriminate].
  - right. exists a, t1, t2. split; auto. split; auto. split; auto. exact (S _ _ H1).
Qed.

Definition p_values : list (list Z) := p_get ++ map lit ["conf set "]%string.
Lemma silent_info : silent get_device_info.
Proof. eapply silent_within with (ps := p_get); [apply (w_info [])|reflexivity]. Qed.
Lemma silent_offsets i l : silent (set_offsets float_str i l).
Proof. eapply silent_within; [apply (w_offsets float_str [])|reflexivity]. Qed.

Lemma info_serial t d : traces get_device_info t (Some (inr d)) -> serial_read (di_serial d) t.
Proof.
  intros H. unfold get_device_info in H. ob H fw t1 t2 H1. apply (traces_ok_await ReadFirmware) in H1. subst t1.
  ob H g t3 t4 H3. ob H u t5 t6 H5. ob H s1 t7 t8 H7. ob H s2 t9 t10 H9. ob H s3 t11 t12 H11.
  apply traces_ok_lift in H7, H9, H11. destruct H7 as [_ H7], H9 as [_ H9], H11 as [_ H11].
  apply traces_ok_ret in H. destruct H as [_ <-]. exists fw.
  destruct (fw_serial fw) as [|a [|b [|c rest]]] eqn:E; try discriminate.
  unfold py_index in H7, H9, H11. cbn in H7, H9, H11. injection H7 as ->. injection H9 as ->. injection H11 as ->.
  exists s1, s2, s3, rest. split; [now left|]. split; auto.
Qed.

(** ** The run *)
Definition tail_of : T unit := do _ <- command (lit "conf write"); Ret tt.

Lemma set_if_held b name x v t u : traces (set_if float_str b name x) t (Some (inr u)) -> x = Some v -> b = true ->
  holds name (num_str v) t.
Proof.
  intros H -> ->. unfold set_if in H. ob H r t1 t2 H1. apply traces_ok_ret in H. destruct H as [-> _]. rewrite app_nil_r.
  now apply set_event in H1.
Qed.
Definition p_set (name : list Z) : list Z := lit "conf set " ++ name ++ [32].
Lemma w_set ps b name x : starts ps (p_set name) = true -> only (within ps) (set_if float_str b name x).
Proof.
  intros S. unfold set_if. repeat only_step; cbn [within]; apply existsb_exists in S; destruct S as (p & I & S); apply existsb_exists;
  exists p; (split; [exact I|]); apply startswith_begins in S; apply startswith_begins; destruct S as (w & S);
  exists (w ++ num_str n); rewrite (app_assoc p), <- S; unfold p_set; rewrite <- !app_assoc; reflexivity.
Qed.

Ltac sil := eapply silent_within with (ps := p_values);
  [solve [repeat (first [apply (w_supported (skipn 2 p_values)) | apply w_set; reflexivity | only_step]; try leaf)]|reflexivity].
Ltac sbx H a t1 t2 H1 N1 tac :=
  apply silent_bind in H; [destruct H as [[H NS]|(a & t1 & t2 & -> & H1 & N1 & H)];
    [left; split; [repeat (apply Forall_app; split); assumption|exact (NS tt)]|]|tac].
Ltac sb H a t1 t2 H1 N1 := sbx H a t1 t2 H1 N1 sil.

Ltac qt := repeat (apply Forall_app; split); (eapply quiet_within; [eassumption|reflexivity]).

Lemma restore_runs r t o : traces (restore r) t o ->
  (Forall (fun e => ~ stores e) t /\ o <> Some (inr tt)) \/
  exists ta tw, t = ta ++ tw /\ Forall (fun e => ~ stores e) ta /\ restored float_str r ta /\ traces tail_of tw o.
Proof.
  intros H. unfold do_restore_calibration in H.
  sbx H d t1 t2 H1 N1 ltac:(exact silent_info).
  destruct (bytes_eqb (di_serial d) (rp_serial r)) eqn:ES; cbn [negb] in H.
  2:{ left. destruct H as [-> [->| ->]]; (split; [rewrite app_nil_r; assumption|discriminate]). }
  apply bytes_eqb_same in ES. pose proof (info_serial _ _ H1) as SR. rewrite ES in SR.
  destruct (rp_calibration r) as [invert phase_invert poles offset|] eqn:EC.
  2:{ left. destruct H as [-> [->| ->]]; (split; [rewrite app_nil_r; assumption|discriminate]). }
  sb H a2 t3 t4 H3 N3. sb H a3 t5 t6 H5 N5. sb H a4 t7 t8 H7 N7. sb H a5 t9 t10 H9 N9. sb H a6 t11 t12 H11 N11.
  sbx H a7 t13 t14 H13 N13 ltac:(apply silent_offsets).
  sb H a8 t15 t16 H15 N15. sb H a9 t17 t18 H17 N17. sb H a10 t19 t20 H19 N19. sb H a11 t21 t22 H21 N21. sb H a12 t23 t24 H23 N23.
  sb H a13 t25 t26 H25 N25. sb H a14 t27 t28 H27 N27.
  pose proof (w_info [] _ _ H1) as W1.
  assert (W3 : Forall (fun e : ev => within [lit "conf set motor.poles "] (question e)) t3).
  { refine ((_ : only _ (command _)) _ _ H3). repeat only_step. reflexivity. }
  pose proof (w_supported [] _ _ _ H5) as W5.
  assert (W7 : Forall (fun e : ev => within (map lit ["conf set motor_position.sources.0.sign "; "conf set motor.invert "]%string) (question e)) t7).
  { match type of H7 with traces ?p _ _ => refine ((_ : only _ p) _ _ H7) end. repeat (only_step; try leaf). }
  pose proof (w_supported [] _ _ _ H9) as W9.
  assert (W11 : Forall (fun e : ev => within [lit "conf set motor.phase_invert "] (question e)) t11).
  { match type of H11 with traces ?p _ _ => refine ((_ : only _ p) _ _ H11) end. repeat (only_step; try leaf). }
  pose proof (w_offsets float_str [] _ _ _ _ H13) as W13.
  assert (W15 : Forall (fun e : ev => within [lit "conf set motor.resistance_ohm "] (question e)) t15).
  { refine ((_ : only _ (command _)) _ _ H15). repeat only_step. reflexivity. }
  pose proof (w_supported [] _ _ _ H17) as W17.
  assert (W19 : Forall (fun e : ev => within (p_get ++ map lit ["conf set motor.v_per_hz "; "conf set motor.Kv "]%string) (question e)) t19).
  { match type of H19 with traces ?p _ _ => refine ((_ : only _ p) _ _ H19) end. repeat (first [apply w_supported|only_step]; try leaf). }
  assert (W21 : Forall (fun e : ev => within [lit "conf set servo.pid_dq.kp "] (question e)) t21).
  { refine ((_ : only _ (set_if _ _ _ _)) _ _ H21). now apply w_set. }
  assert (W23 : Forall (fun e : ev => within [lit "conf set servo.pid_dq.ki "] (question e)) t23).
  { refine ((_ : only _ (set_if _ _ _ _)) _ _ H23). now apply w_set. }
  assert (W25 : Forall (fun e : ev => within (p_get ++ []) (question e)) t25).
  { match type of H25 with traces ?p _ _ => refine ((_ : only _ p) _ _ H25) end. destruct (is_true _); [apply w_supported|only_step]. }
  assert (W27 : Forall (fun e : ev => within (p_get ++ map lit ["conf set motor_position.sources.0.pll_filter_hz ";
    "conf set servo.encoder_filter.kp "; "conf set servo.encoder_filter.ki "]%string) (question e)) t27).
  { match type of H27 with traces ?p _ _ => refine ((_ : only _ p) _ _ H27) end.
    repeat (first [apply w_supported|apply w_set; reflexivity|only_step]; try leaf). }
  right. exists (t1 ++ t3 ++ t5 ++ t7 ++ t9 ++ t11 ++ t13 ++ t15 ++ t17 ++ t19 ++ t21 ++ t23 ++ t25 ++ t27), t28.
  split; [now rewrite <- !app_assoc|]. split; [repeat (apply Forall_app; split); assumption|]. split; [|exact H].
  pose proof (supported_event _ _ _ H5) as L5. pose proof (supported_event _ _ _ H9) as L9. pose proof (supported_event _ _ _ H17) as L17.
  apply (set_event (lit "motor.poles") (int_str poles)) in H3.
  apply (set_event (lit "motor.resistance_ohm") (num_str (rp_resistance r))) in H15.
  unfold restored. split; [|split; [|split; [|split]]].
  - destruct SR as (fw & s1 & s2 & s3 & rest & I & E). exists fw, s1, s2, s3, rest. split; [apply in_or_app; now left|exact E].
  - exists invert, phase_invert, poles, offset. split; [exact EC|]. split; [|split; [|split]].
    + apply holds_app_r, holds_keep; [exact H3|qt].
    + destruct L5 as [->|[-> L5]].
      * left. apply (set_event (lit "motor_position.sources.0.sign") (int_str (if invert then -1 else 1))) in H7. do 3 apply holds_app_r. apply holds_keep; [|qt]. destruct invert; exact H7.
      * right. apply (set_event (lit "motor.invert") (int_str (if invert then 1 else 0))) in H7.
        split; [do 2 apply lacks_r; now apply lacks_l|]. do 3 apply holds_app_r. apply holds_keep; [|qt]. destruct invert; exact H7.
    + destruct L9 as [->|[-> L9]].
      * apply (set_event (lit "motor.phase_invert") (int_str (if phase_invert then 1 else 0))) in H11. left. do 5 apply holds_app_r. apply holds_keep; [|qt]. destruct phase_invert; exact H11.
      * right. do 4 apply lacks_r. now apply lacks_l.
    + intros k x E. do 6 apply holds_app_r. apply holds_keep; [exact (offsets_held (fun _ => Raise ValueError) float_str offset 0 _ _ k x H13 E)|qt].
  - split; [|split].
    + do 7 apply holds_app_r. apply holds_keep; [exact H15|qt].
    + intros k E. do 10 apply holds_app_r. apply holds_keep; [exact (set_if_held _ _ _ _ _ _ H21 E eq_refl)|qt].
    + intros k E. do 11 apply holds_app_r. apply holds_keep; [exact (set_if_held _ _ _ _ _ _ H23 E eq_refl)|qt].
  - destruct L17 as [->|[-> L17]].
    + left. ob H19 v s1 s2 K1. apply traces_ok_lift in K1. destruct K1 as [-> K1]. unfold need in K1.
      destruct (rp_v_per_hz r) as [v'|]; [|discriminate]. injection K1 as ->. exists v. split; auto.
      apply (set_event (lit "motor.v_per_hz") (num_str v)) in H19. do 9 apply holds_app_r. apply holds_keep; [|qt]. exact H19.
    + right. split; [do 8 apply lacks_r; now apply lacks_l|]. ob H19 s s1 s2 K1. apply supported_event in K1. destruct K1 as [->|[-> K1]].
      * left. ob H19 v s3 s4 K2. apply traces_ok_lift in K2. destruct K2 as [-> K2]. unfold need in K2.
        destruct (rp_kv r) as [v'|]; [|discriminate]. injection K2 as ->. exists v. split; auto. apply (set_event (lit "motor.Kv") (num_str v)) in H19.
        do 9 apply holds_app_r. apply holds_keep; [|qt]. apply holds_app_r. exact H19.
      * right. do 9 apply lacks_r. apply lacks_l. now apply lacks_l.
  - rewrite <- nonzero_true. destruct (is_true (rp_enc_hz r)) eqn:EH.
    + apply supported_event in H25. destruct H25 as [->|[-> L]].
      * left. split; auto. destruct (rp_enc_hz r) as [hz|] eqn:EZ; [|discriminate]. exists hz. split; auto.
        do 13 apply holds_app_r. exact (set_if_held _ _ _ _ _ _ H27 eq_refl eq_refl).
      * right. split; [right; do 12 apply lacks_r; now apply lacks_l|].
        ob H27 s s1 s2 K1. apply supported_event in K1. destruct K1 as [->|[-> K1]]; [|left; do 13 apply lacks_r; now apply lacks_l].
        right. ob H27 u s3 s4 K2.
        assert (WK : Forall (fun e : ev => within [lit "conf set servo.encoder_filter.ki "] (question e)) s4).
        { refine ((_ : only _ (set_if _ _ _ _)) _ _ H27). now apply w_set. }
        rewrite <- !nonzero_true. split; intros x E B; do 14 apply holds_app_r.
        -- apply holds_keep; [exact (set_if_held _ _ _ _ _ _ K2 E B)|qt].
        -- apply holds_app_r. exact (set_if_held _ _ _ _ _ _ H27 E B).
    + apply traces_ok_ret in H25. destruct H25 as [-> <-]. right. split; [now left|].
      ob H27 s s1 s2 K1. apply supported_event in K1. destruct K1 as [->|[-> K1]]; [|left; do 13 apply lacks_r; now apply lacks_l].
      right. ob H27 u s3 s4 K2.
      assert (WK : Forall (fun e : ev => within [lit "conf set servo.encoder_filter.ki "] (question e)) s4).
      { refine ((_ : only _ (set_if _ _ _ _)) _ _ H27). now apply w_set. }
      rewrite <- !nonzero_true. split; intros x E B; do 14 apply holds_app_r.
      * apply holds_keep; [exact (set_if_held _ _ _ _ _ _ K2 E B)|qt].
      * apply holds_app_r. exact (set_if_held _ _ _ _ _ _ H27 E B).
Qed.

(** ** C56 *)

Lemma tail_runs t o : traces tail_of t o ->
  (t = [] /\ o <> Some (inr tt)) \/
  exists x, t = [existT _ (Command (lit "conf write") false) x] /\
    (o = Some (inr tt) -> exists reply, x = Some (inr reply)).
Proof.
  intros H. unfold tail_of in H. apply traces_bind in H. destruct H as [[H ->]|[(e & H & ->)|(a & t1 & t2 & -> & H & H2)]].
  - apply (traces_await (Command (lit "conf write") false)) in H. destruct H as [[_ [->|(x & ->)]]|(x & -> & _)].
    + left. split; [reflexivity|discriminate].
    + right. exists x. split; [reflexivity|discriminate].
    + right. exists (Some x). split; [reflexivity|discriminate].
  - apply (traces_await (Command (lit "conf write") false)) in H. destruct H as [[E _]|(x & -> & E)]; [discriminate|].
    right. exists (Some x). split; [reflexivity|discriminate].
  - apply traces_ok_command in H. subst t1. destruct H2 as [-> _]. right. exists (Some (inr a)). split; [reflexivity|eauto].
Qed.

(** A restored calibration is in the device and stored. *)
Theorem C56_success r t : traces (restore r) t (Some (inr tt)) ->
  exists t1 reply, t = t1 ++ [answered (Command (lit "conf write") false) (inr reply)] /\ restored float_str r t1.
Proof.
  intros H. apply restore_runs in H. destruct H as [[_ N]|(ta & tw & -> & _ & R & H)]; [now destruct N|].
  apply tail_runs in H. destruct H as [[_ N]|(x & -> & N)]; [now destruct N|]. destruct (N eq_refl) as (reply & ->).
  exists ta, reply. split; [reflexivity|exact R].
Qed.

(** Nothing is stored before all of it is in the device, and nothing is sent after. *)
Theorem C56_stores_all_or_nothing r t o t1 e t2 : traces (restore r) t o -> t = t1 ++ e :: t2 -> stores e ->
  restored float_str r t1 /\ t2 = [].
Proof.
  intros H E S. apply restore_runs in H. destruct H as [[N _]|(ta & tw & Et & N & R & H)].
  - exfalso. rewrite Forall_forall in N. apply (N e); [|exact S]. rewrite E. apply in_or_app. right. now left.
  - rewrite E in Et. symmetry in Et. destruct (split_store _ _ _ _ _ N S Et) as (w & -> & Ew).
    apply tail_runs in H. destruct H as [[-> _]|(x & -> & _)].
    + destruct w; discriminate.
    + destruct w as [|y w]; [|destruct w; discriminate]. injection Ew as _ <-. rewrite app_nil_r. auto.
Qed.

(** Only what is in the report is set. *)
Theorem C56_only_report r t o : traces (restore r) t o ->
  Forall (fun e => forall text, sent e = Some text ->
    looks text \/ text = lit "conf write" \/ exists name value, value_of float_str r name value /\ text = set_text name value) t.
Proof.
  set (ok := fun text => looks text \/ text = lit "conf write" \/ exists name value, value_of float_str r name value /\ text = set_text name value).
  set (okr := fun q => match q with Command text _ | CommandWithin text | WriteMessage text => ok text | _ => True end).
  intros H. apply (Forall_impl (P := fun e : ev => okr (question e))).
  { intros e K text S. unfold sent in S. destruct (question e); try discriminate; injection S as <-; exact K. }
  revert t o H. change (only okr (restore r)).
  assert (G : forall n, ok (lit "conf get " ++ n)) by (intros n; left; left; now exists n).
  assert (SU : forall n, only okr (is_config_supported n)) by (intros n; unfold is_config_supported; repeat only_step; apply G).
  assert (V : forall n v, value_of float_str r n v -> ok (set_text n v)) by (intros n v K; right; right; eauto).
  assert (SI : forall n x b, (forall y, x = Some y -> value_of float_str r n (num_str y)) -> only okr (set_if float_str b n x)).
  { intros n x b K. unfold set_if. destruct x as [y|]; repeat only_step. exact (V _ _ (K y eq_refl)). }
  unfold do_restore_calibration. only_step.
  { unfold get_device_info, read_uuid. repeat only_step; try exact I. left. right. now exists (lit " uuid"). }
  only_step; [only_step|]. destruct (rp_calibration r) as [invert phase_invert poles offset|] eqn:EC; [|only_step].
  only_step; [only_step; exact (V _ _ (v_poles _ _ _ _ _ _ EC))|].
  only_step; [apply SU|]. only_step.
  { only_step; only_step.
    - destruct invert; exact (V _ _ (v_sign _ _ _ _ _ _ EC)).
    - destruct invert; exact (V _ _ (v_invert _ _ _ _ _ _ EC)). }
  only_step; [apply SU|]. only_step.
  { only_step; only_step. destruct phase_invert; exact (V _ _ (v_phase _ _ _ _ _ _ EC)). }
  only_step.
  { assert (L : forall l k, (forall j x, nth_error l j = Some x -> nth_error offset (k + j) = Some x) ->
      only okr (set_offsets float_str (Z.of_nat k) l)).
    { induction l as [|x l IH]; intros k K; cbn [set_offsets]; only_step.
      - only_step. refine (V _ _ (v_offset _ _ _ _ _ _ k x EC _)). rewrite <- (Nat.add_0_r k). now apply K.
      - replace (Z.of_nat k + 1) with (Z.of_nat (S k)) by lia. apply IH. intros j y E.
        replace (S k + j)%nat with (k + S j)%nat by lia. now apply K. }
    apply (L offset 0%nat). auto. }
  only_step; [only_step; exact (V _ _ (v_resistance _ _))|].
  only_step; [apply SU|]. only_step.
  { only_step.
    - destruct (rp_v_per_hz r) as [x|] eqn:E; cbn [need lift pbind]; repeat only_step. exact (V _ _ (v_v_per_hz _ _ _ E)).
    - only_step; [apply SU|]. only_step; [|only_step].
      destruct (rp_kv r) as [x|] eqn:E; cbn [need lift pbind]; repeat only_step. exact (V _ _ (v_kv _ _ _ E)). }
  only_step; [apply SI; intros y E; exact (v_kp _ _ _ E)|].
  only_step; [apply SI; intros y E; exact (v_ki _ _ _ E)|].
  only_step; [only_step; [apply SU|only_step]|].
  only_step.
  { only_step; [apply SI; intros y E; exact (v_hz _ _ _ E)|]. only_step; [apply SU|]. only_step; [|only_step].
    only_step; [apply SI; intros y E; exact (v_enc_kp _ _ _ E)|apply SI; intros y E; exact (v_enc_ki _ _ _ E)]. }
  repeat only_step. right. now left.
Qed.

(** A device with another serial number is only looked at. *)
Theorem C56_other_device r t o e text : traces (restore r) t o -> In e t -> sent e = Some text -> ~ looks text ->
  serial_read (rp_serial r) t.
Proof.
  assert (L : forall t, Forall (fun e : ev => within (p_get ++ []) (question e)) t -> In e t -> sent e = Some text -> looks text).
  { intros t' W I S. rewrite Forall_forall in W. specialize (W e I). destruct e as [q x]. unfold sent in S. cbn [question projT1] in *.
    destruct q; try discriminate; injection S as ->; cbn [within p_get app] in W; apply existsb_exists in W;
      destruct W as (p & Ip & W); apply startswith_begins in W; destruct Ip as [<-|[<-|[]]]; first [left; exact W|right; exact W]. }
  intros H I S N. unfold do_restore_calibration in H. apply traces_bind in H. destruct H as [[H ->]|[(x & H & ->)|(d & t1 & t2 & -> & H1 & H)]].
  - exfalso. apply N. exact (L _ (w_info [] _ _ H) I S).
  - exfalso. apply N. exact (L _ (w_info [] _ _ H) I S).
  - destruct (bytes_eqb (di_serial d) (rp_serial r)) eqn:E; cbn [negb] in H.
    + apply bytes_eqb_same in E. rewrite <- E. destruct (info_serial _ _ H1) as (fw & s1 & s2 & s3 & rest & I1 & E1).
      exists fw, s1, s2, s3, rest. split; auto. apply in_or_app. now left.
    + exfalso. apply N. destruct H as [-> _]. rewrite app_nil_r in I. exact (L _ (w_info [] _ _ H1) I S).
Qed.

(** A report on hall sensors cannot be restored. *)
Theorem C56_hall_refuted r offset sign polarity phase_invert : rp_calibration r = HallJson offset sign polarity phase_invert ->
  forall t o, traces (restore r) t o -> o <> Some (inr tt) /\ forall e text, In e t -> sent e = Some text -> looks text.
Proof.
  intros EC t o H. split.
  - intros ->. destruct (C56_success _ _ H) as (t1 & x & _ & _ & (i & p & n & l & E & _) & _). congruence.
  - unfold do_restore_calibration in H. rewrite EC in H.
    assert (W : only (within (p_get ++ [])) (do device_info <- get_device_info;
      if negb (bytes_eqb (di_serial device_info) (rp_serial r)) then Throw (Exn KeyError) else Throw (A := unit) (Exn KeyError))).
    { only_step; [apply w_info|repeat only_step]. }
    apply W in H. intros e text I S. rewrite Forall_forall in H. specialize (H e I). destruct e as [q x]. unfold sent in S. cbn [question projT1] in *.
    destruct q; try discriminate; injection S as ->; cbn [within p_get app] in H; apply existsb_exists in H;
      destruct H as (p & Ip & H); apply startswith_begins in H; destruct Ip as [<-|[<-|[]]]; first [left; exact H|right; exact H].
Qed.
End P.

(** ** Calibrating, then restoring *)
Section Q.
Variable parse_float : list Z -> res float.
Variable float_str : float -> list Z.
Variable fixed3 : float -> list Z.
Variable hypot : float -> float -> float.
Variable py_sum : list float -> float.
Variable minimize : list float -> bool * list float.
Notation do_calibrate := (do_calibrate parse_float float_str fixed3 hypot py_sum minimize).
Notation restore := (do_restore_calibration float_str).

(** The report names the device, and has no v_per_hz. *)
Theorem C56_report_device a t r : traces (do_calibrate a) t (Some (inr r)) ->
  serial_read (rp_serial r) t /\ rp_v_per_hz r = None.
Proof.
  intros H. unfold Calproc_Model.do_calibrate in H. ob H x tp s1 HP. destruct x as [[fw c] a']. ob H r' tm s2 HM. ob H u t3 s3 H3.
  ob H y t5 t6 H5. apply traces_ok_ret in H. destruct H as [-> <-]. clear - HM. unfold calibrate_motor in HM.
  ob HM u1 t1 q1 H1. ob HM u2 t2 q2 H2. ob HM sc t4 q4 H4. ob HM cr t7 q7 H7. ob HM u8 t8 q8 H8. ob HM u9 t9 q9 H9. ob HM st t10 q10 H10.
  ob HM iv t11 q11 H11. ob HM u12 t12 q12 H12. ob HM rvn t13 q13 H13. destruct rvn as [[wr hv] noise]. ob HM u14 t14 q14 H14.
  ob HM ind t15 q15 H15. ob HM u16 t16 q16 H16. ob HM loop t17 q17 H17. ob HM enc t18 q18 H18. ob HM u19 t19 q19 H19.
  ob HM cv t20 q20 H20. destruct cv as [cal ecv]. ob HM u21 t21 q21 H21. ob HM scale t22 q22 H22. ob HM kv t23 q23 H23. ob HM u24 t24 q24 H24.
  ob HM r25 t25 q25 H25. ob HM b26 t26 q26 H26. ob HM di t27 q27 H27. apply traces_ok_ret in HM. destruct HM as [-> <-].
  cbn [rp_serial rp_v_per_hz]. split; [|reflexivity]. apply info_serial in H27. destruct H27 as (f & n1 & n2 & n3 & rest & I & E).
  exists f, n1, n2, n3, rest. split; [|exact E]. rewrite !in_app_iff. tauto.
Qed.

Definition agree (name : list Z) (t1 t2 : list ev) : Prop := exists value, holds name value t1 /\ holds name value t2.

(** One firmware knows the parameter and the other does not. *)
Definition changed (name : list Z) (t1 t2 : list ev) : Prop :=
  (lacks name t1 /\ exists value, holds name value t2) \/ (lacks name t2 /\ exists value, holds name value t1).

(** What the calibration stored is what restoring its report stores. *)
Theorem C56_same_settings a t r t' invert phase_invert poles offset :
  a_no_update a = false -> traces (do_calibrate a) t (Some (inr r)) -> traces (restore r) t' (Some (inr tt)) ->
  rp_calibration r = CalJson invert phase_invert poles offset ->
  exists t1 t1' fw reply reply', t = t1 ++ [answered (Command (lit "conf write") false) (inr reply); answered SaveReport (inr tt)] /\
    t' = t1' ++ [answered (Command (lit "conf write") false) (inr reply')] /\
    hd_error t1 = Some (answered ReadFirmware (inr fw)) /\
    agree (lit "motor.resistance_ohm") t1 t1' /\
    (forall k, (k < length offset)%nat -> agree (lit "motor.offset." ++ int_str (Z.of_nat k)) t1 t1') /\
    (agree (lit "motor.poles") t1 t1' \/ reads_no_poles parse_float t1) /\
    (agree (lit "motor_position.sources.0.sign") t1 t1' \/
     (lacks (lit "motor_position.sources.0.sign") t1 /\ lacks (lit "motor_position.sources.0.sign") t1' /\ agree (lit "motor.invert") t1 t1') \/
     changed (lit "motor_position.sources.0.sign") t1 t1') /\
    (agree (lit "motor.phase_invert") t1 t1' \/ (lacks (lit "motor.phase_invert") t1 /\ lacks (lit "motor.phase_invert") t1') \/
     changed (lit "motor.phase_invert") t1 t1') /\
    (rp_kp r = None \/ agree (lit "servo.pid_dq.kp") t1 t1') /\
    (rp_ki r = None \/ agree (lit "servo.pid_dq.ki") t1 t1') /\
    (0x010a <= fw_version fw -> agree (lit "motor.Kv") t1 t1' \/ lacks (lit "motor.Kv") t1') /\
    ((forall source, says (lit "motor_position.commutation_source") source t1 -> source = 0) -> nonzero (rp_enc_hz r) = true ->
     agree (lit "motor_position.sources.0.pll_filter_hz") t1 t1' \/
     lacks (lit "motor_position.sources.0.pll_filter_hz") t1' \/
     exists value, holds (lit "servo.encoder_filter.kp") value t1) /\
    (forall kp ki, rp_enc_kp r = Some kp -> rp_enc_ki r = Some ki ->
     holds (lit "servo.encoder_filter.kp") (num_str float_str kp) t1 -> holds (lit "servo.encoder_filter.ki") (num_str float_str ki) t1 ->
     nonzero (rp_enc_kp r) = true -> nonzero (rp_enc_ki r) = true ->
     (agree (lit "servo.encoder_filter.kp") t1 t1' /\ agree (lit "servo.encoder_filter.ki") t1 t1') \/
     lacks (lit "servo.encoder_filter.kp") t1' \/
     exists value, holds (lit "motor_position.sources.0.pll_filter_hz") value t1').
Proof.
  intros N H H' EC. pose proof (C56_report_device _ _ _ H) as [_ NV].
  destruct (C52_report_is_stored _ _ _ _ _ _ _ _ _ N H) as (t1 & fw & reply & E1 & FW & (L1 & L2 & L3) & FH & (kv & K1 & K2 & _) & EN & _).
  destruct (C56_success _ _ _ H') as (t1' & reply' & E2 & _ & (i & p & n & l & EC' & R1 & R2 & R3 & R4) & (M1 & M2 & M3) & RK & RF).
  rewrite EC in EC'. injection EC' as <- <- <- <-. rewrite EC in EN. destruct EN as (P1 & P2 & P3 & P4).
  exists t1, t1', fw, reply, reply'. repeat (split; [assumption|]). split; [|split; [|split; [|split; [|split; [|split; [|split; [|split; [|split]]]]]]]].
  - eexists; split; eassumption.
  - intros k K. apply nth_error_Some in K. destruct (nth_error offset k) as [x|] eqn:E; [|congruence].
    eexists; split; [exact (P4 _ _ E)|exact (R4 _ _ E)].
  - destruct P1 as (ta & tb & -> & _ & [P|(rp & v & I & E)]); [left; eexists; split; eassumption|]. right. exists rp, v. split; [apply in_or_app; now right|exact E].
  - destruct P2 as [P2|[P2 P5]]; destruct R2 as [R2|[R2 R5]].
    + left. eexists; split; eassumption.
    + right. right. right. eauto.
    + right. right. left. eauto.
    + right. left. split; auto. split; auto. eexists; split; eassumption.
  - destruct P3 as [P3|P3]; destruct R3 as [R3|R3].
    + left. eexists; split; eassumption.
    + right. right. right. eauto.
    + right. right. left. eauto.
    + auto.
  - destruct (rp_kp r) as [k|] eqn:E; [right|now left]. eexists; split; [exact (L2 _ eq_refl)|exact (M2 _ eq_refl)].
  - destruct (rp_ki r) as [k|] eqn:E; [right|now left]. eexists; split; [exact (L3 _ eq_refl)|exact (M3 _ eq_refl)].
  - intros V. destruct RK as [(v & E & _)|[_ [(v & E & R)|R]]]; [congruence| |now right].
    left. rewrite K1 in E. injection E as <-. eexists; split; [exact (K2 V)|exact R].
  - intros S0 NZ. destruct (rp_enc_hz r) as [hz|] eqn:EH; [|discriminate]. destruct (FH _ EH) as [(so & SY & F)|(kp & ki & _ & _ & F & _)].
    + rewrite (S0 _ SY) in F. destruct RF as [[_ (hz' & E & R)]|[[R|R] _]]; [|congruence|auto]. injection E as <-. left. eexists; split; eassumption.
    + right. right. eauto.
  - intros kp ki E3 E4 F1 F2 Z1 Z2. destruct RF as [[_ (hz' & E & R)]|[_ [R|[R R']]]]; [right; right; eauto|auto|].
    left. split; (eexists; split; [eassumption|auto]).
Qed.

(** A report of a calibration is refused by firmware that knows motor.v_per_hz, after much of it is set. *)
Theorem C56_old_firmware_refuted a t r : traces (do_calibrate a) t (Some (inr r)) ->
  forall t' o, traces (restore r) t' o -> o = Some (inr tt) \/ (exists e, In e t' /\ stores e) -> lacks (lit "motor.v_per_hz") t'.
Proof.
  intros H t' o H' S. apply C56_report_device in H. destruct H as [_ NV].
  assert (K : forall t1, restored float_str r t1 -> lacks (lit "motor.v_per_hz") t1).
  { intros t1 (_ & _ & _ & [(v & E & _)|[L _]] & _); [congruence|exact L]. }
  destruct S as [->|(e & I & S)].
  - destruct (C56_success _ _ _ H') as (t1 & rp & -> & R). apply lacks_l. exact (K _ R).
  - apply in_split in I. destruct I as (t1 & t2 & E). destruct (C56_stores_all_or_nothing _ _ _ _ _ _ _ H' E S) as [R _].
    rewrite E. apply lacks_l. exact (K _ R).
Qed.
End Q.

(** ** Examples *)
Definition ex_rp (serial : list Z) : report :=
  {| rp_serial := serial; rp_calibration := CalJson true false 14 [NFloat (float_of_Z 3); NFloat (float_of_Z (-2))];
     rp_resistance := NInt 5; rp_kv := Some (NInt 300); rp_v_per_hz := None;
     rp_kp := Some (NInt 7); rp_ki := None; rp_enc_kp := Some (NInt 8); rp_enc_ki := Some (NInt 9); rp_enc_hz := Some (NInt 100) |}.

(** A device that knows some parameters. *)
Definition ex_known (known : list string) (w : unit) (r : treq) : unit * (err + trep r) :=
  match r return unit * (err + trep r) with
  | Command text _ =>
      (w, if startswith (lit "conf get ") text
          then inr (if existsb (fun n => bytes_eqb (lit n) (skipn 9 text)) known then lit "1" else lit "ERR error reading")
          else if bytes_eqb text (lit "conf enumerate uuid") then inl (CmdErr (lit "ERR unknown group")) else inr [])
  | r => (w, snd (toy_device [] {| pwms := 0; polls := 0; clock := 0 |} r))
  end.

Lemma ex_known_runs known r ok :
  match drive 200 (ex_known known) tt (do_restore_calibration toy_str r) with Some (t, o, _) => ok t o | None => false end = true ->
  exists t o, traces (do_restore_calibration toy_str r) t (Some o) /\ ok t o = true.
Proof.
  destruct (drive _ _ _ _) as [[[t o] w]|] eqn:E; [|discriminate]. intros H. exists t, o. split; [|exact H].
  exact (drive_traces _ _ _ _ _ _ _ _ _ E).
Qed.

Definition texts_b (t : list ev) (l : list (list Z)) : bool := if list_eq_dec (list_eq_dec Z.eq_dec) (texts t) l then true else false.

Example C56_example : exists t, traces (do_restore_calibration toy_str (ex_rp (base64_serial_number 1 2 3))) t (Some (inr tt)) /\
  texts t = map lit ["conf enumerate uuid"; "conf set motor.poles 14"; "conf get motor_position.sources.0.sign";
    "conf set motor_position.sources.0.sign -1"; "conf get motor.phase_invert"; "conf set motor.phase_invert 0";
    "conf set motor.offset.0 3"; "conf set motor.offset.1 -2"; "conf set motor.resistance_ohm 5";
    "conf get motor.v_per_hz"; "conf get motor.Kv"; "conf set motor.Kv 300"; "conf set servo.pid_dq.kp 7";
    "conf get motor_position.sources.0.pll_filter_hz"; "conf set motor_position.sources.0.pll_filter_hz 100"; "conf write"]%string.
Proof.
  destruct (ex_known_runs ["motor_position.sources.0.sign"; "motor.phase_invert"; "motor.Kv"; "motor_position.sources.0.pll_filter_hz"]%string
    (ex_rp (base64_serial_number 1 2 3)) (fun t o => match o with inr _ => texts_b t (map lit ["conf enumerate uuid"; "conf set motor.poles 14"; "conf get motor_position.sources.0.sign";
    "conf set motor_position.sources.0.sign -1"; "conf get motor.phase_invert"; "conf set motor.phase_invert 0";
    "conf set motor.offset.0 3"; "conf set motor.offset.1 -2"; "conf set motor.resistance_ohm 5";
    "conf get motor.v_per_hz"; "conf get motor.Kv"; "conf set motor.Kv 300"; "conf set servo.pid_dq.kp 7";
    "conf get motor_position.sources.0.pll_filter_hz"; "conf set motor_position.sources.0.pll_filter_hz 100"; "conf write"]%string) | inl _ => false end)) as (t & o & T & E).
  { vm_compute. reflexivity. }
  exists t. destruct o as [e|[]]; [discriminate|]. split; [exact T|]. unfold texts_b in E. destruct (list_eq_dec _ _ _); [assumption|discriminate].
Qed.

(** Old firmware: the offsets are set and not stored. *)
Example C56_old_firmware_example : exists t, traces (do_restore_calibration toy_str (ex_rp (base64_serial_number 1 2 3))) t (Some (inl (Exn KeyError))) /\
  texts t = map lit ["conf enumerate uuid"; "conf set motor.poles 14"; "conf get motor_position.sources.0.sign";
    "conf set motor.invert 1"; "conf get motor.phase_invert";
    "conf set motor.offset.0 3"; "conf set motor.offset.1 -2"; "conf set motor.resistance_ohm 5"; "conf get motor.v_per_hz"]%string.
Proof.
  destruct (ex_known_runs ["motor.v_per_hz"]%string
    (ex_rp (base64_serial_number 1 2 3)) (fun t o => match o with inl (Exn KeyError) => texts_b t (map lit ["conf enumerate uuid"; "conf set motor.poles 14"; "conf get motor_position.sources.0.sign";
    "conf set motor.invert 1"; "conf get motor.phase_invert";
    "conf set motor.offset.0 3"; "conf set motor.offset.1 -2"; "conf set motor.resistance_ohm 5"; "conf get motor.v_per_hz"]%string) | _ => false end)) as (t & o & T & E).
  { vm_compute. reflexivity. }
  exists t. destruct o as [[[]|]|]; try discriminate. split; [exact T|]. unfold texts_b in E. destruct (list_eq_dec _ _ _); [assumption|discriminate].
Qed.

(** Another device: it is only looked at, and the message names a key that is not there. *)
Example C56_other_device_example : exists t, traces (do_restore_calibration toy_str (ex_rp (base64_serial_number 1 2 4))) t (Some (inl (Exn KeyError))) /\
  texts t = [lit "conf enumerate uuid"].
Proof.
  destruct (ex_known_runs ["motor.v_per_hz"]%string (ex_rp (base64_serial_number 1 2 4))
    (fun t o => match o with inl (Exn KeyError) => texts_b t [lit "conf enumerate uuid"] | _ => false end)) as (t & o & T & E).
  { vm_compute. reflexivity. }
  exists t. destruct o as [[[]|]|]; try discriminate. split; [exact T|]. unfold texts_b in E. destruct (list_eq_dec _ _ _); [assumption|discriminate].
Qed.

(** A calibration of hall sensors whose report cannot be restored. *)
Example C56_hall_example : exists t r, traces (toy_calibrate (toy_args false)) t (Some (inr r)) /\
  forall t' o, traces (do_restore_calibration toy_str r) t' o -> o <> Some (inr tt).
Proof.
  destruct ex_calibrated as (t & r & T & _ & C & _). exists t, r. split; [exact T|]. intros t' o H.
  exact (proj1 (C56_hall_refuted _ _ _ _ _ _ C _ _ H)).
Qed.

Print Assumptions C56_success.
Print Assumptions C56_stores_all_or_nothing.
Print Assumptions C56_only_report.
Print Assumptions C56_other_device.
Print Assumptions C56_hall_refuted.
Print Assumptions C56_report_device.
Print Assumptions C56_same_settings.
Print Assumptions C56_old_firmware_refuted.
