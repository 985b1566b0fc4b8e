(** C52: the report of a calibration is what the device was told. *)
From Coq Require Import Ascii String ZArith List Bool Lia ZifyBool ZifyNat.
From Verif Require Import PyBase PyBytes PyFloat Tool_Model Calib_Model Config_Model Config_Spec Encoder_Model
  Calfile_Model Proc Device_Model Calproc_Model Device_Spec Device_Proofs Props_Restore Calproc_Spec
  Calproc_Proofs Calproc_Clean Calproc_Examples Props_Calproc.
From Verif Require Config_Proofs.
Import ListNotations.
Open Scope Z_scope.

(** ** Specification *)

(** The device was asked for a parameter and answered with an error. *)
Definition lacks (name : list Z) (t : list ev) : Prop :=
  exists reply, In (answered (Command (lit "conf get " ++ name) true) (inr reply)) t /\ begins (lit "ERR") reply.

(** The device was asked for a parameter and answered with this number. *)
Definition says (name : list Z) (n : Z) (t : list ev) : Prop :=
  exists reply, In (answered (Command (lit "conf get " ++ name) true) (inr reply)) t /\ int10 reply = Ok n.

Definition bit (b : bool) : list Z := if b then lit "1" else lit "0".

Section Spec.
Variable parse_float : list Z -> res float.
Variable float_str : float -> list Z.

(** The device read zero for the number of poles. *)
Definition reads_no_poles (t : list ev) : Prop :=
  exists reply v, In (answered (Command (lit "conf get motor.poles") true) (inr reply)) t /\
    parse_float reply = Ok v /\ feqb v (float_of_Z 0) = true.

(** The number of poles is what the device was told last, unless it forgot it afterwards. *)
Definition poles_held (poles : Z) (t : list ev) : Prop :=
  exists ta tb, t = ta ++ tb /\ holds (lit "motor.poles") (int_str poles) ta /\
    (holds (lit "motor.poles") (int_str poles) t \/ reads_no_poles tb).

Definition phase_invert_held (b : bool) (t : list ev) : Prop :=
  holds (lit "motor.phase_invert") (bit b) t \/ lacks (lit "motor.phase_invert") t.

(** The part of the report on the encoder. *)
Definition encoder_held (c : cal_json) (t : list ev) : Prop :=
  match c with
  | CalJson invert phase_invert poles offset =>
      poles_held poles t /\
      (holds (lit "motor_position.sources.0.sign") (if invert then lit "-1" else lit "1") t \/
       (lacks (lit "motor_position.sources.0.sign") t /\ holds (lit "motor.invert") (bit invert) t)) /\
      phase_invert_held phase_invert t /\
      forall i x, nth_error offset i = Some x ->
        holds (lit "motor.offset." ++ int_str (Z.of_nat i)) (num_str float_str x) t
  | HallJson offset sign polarity phase_invert =>
      exists source aux,
        says (lit "motor_position.commutation_source") source t /\
        says (lit "motor_position.sources." ++ int_str source ++ lit ".aux_number") aux t /\
        holds (lit "motor_position.sources." ++ int_str source ++ lit ".sign") (int_str sign) t /\
        holds (lit "motor_position.sources." ++ int_str source ++ lit ".offset") (int_str offset) t /\
        holds (lit "aux" ++ int_str aux ++ lit ".hall.polarity") (int_str polarity) t /\
        phase_invert_held (negb (phase_invert =? 0)) t /\
        forall i, 0 <= i < 64 -> holds (lit "motor.offset." ++ int_str i) (lit "0") t
  end.

Definition loop_held (r : report) (t : list ev) : Prop :=
  holds (lit "motor.resistance_ohm") (num_str float_str (rp_resistance r)) t /\
  (forall k, rp_kp r = Some k -> holds (lit "servo.pid_dq.kp") (num_str float_str k) t) /\
  (forall k, rp_ki r = Some k -> holds (lit "servo.pid_dq.ki") (num_str float_str k) t).

Definition filter_held (r : report) (t : list ev) : Prop :=
  forall hz, rp_enc_hz r = Some hz ->
    (exists source, says (lit "motor_position.commutation_source") source t /\
       holds (lit "motor_position.sources." ++ int_str source ++ lit ".pll_filter_hz") (num_str float_str hz) t) \/
    (exists kp ki, rp_enc_kp r = Some kp /\ rp_enc_ki r = Some ki /\
       holds (lit "servo.encoder_filter.kp") (num_str float_str kp) t /\
       holds (lit "servo.encoder_filter.ki") (num_str float_str ki) t).

(** Kv; older firmware is told the voltage for one turn per second instead. *)
Definition kv_held (version : Z) (r : report) (t : list ev) : Prop :=
  exists kv, rp_kv r = Some (NFloat kv) /\
    (0x010a <= version -> holds (lit "motor.Kv") (float_str kv) t) /\
    (version < 0x010a -> exists v, float_div (fmul (fmul (flit 109 2) (flit 5 1)) (float_of_Z 60)) kv = Ok v /\
       holds (lit "motor.v_per_hz") (float_str v) t).
End Spec.

(** ** Rules for [holds] *)
Definition quiet (name : list Z) (e : ev) : Prop := forall text, sent e = Some text -> ~ begins (set_text name []) text.

Lemma holds_app_r name value t1 t2 : holds name value t2 -> holds name value (t1 ++ t2).
Proof. intros (a & e & b & -> & H). exists (t1 ++ a), e, b. rewrite app_assoc. auto. Qed.
Lemma holds_keep name value t1 t2 : holds name value t1 -> Forall (quiet name) t2 -> holds name value (t1 ++ t2).
Proof.
  intros (a & e & b & -> & H & K) Q. exists a, e, (b ++ t2). rewrite <- app_assoc. split; [reflexivity|]. split; auto.
  apply Forall_app. auto.
Qed.
Lemma holds_here name value r : holds name value [answered (Command (set_text name value) false) (inr r)].
Proof. exists [], (answered (Command (set_text name value) false) (inr r)), []. split; [reflexivity|]. split; [|constructor]. exists false, r. reflexivity. Qed.

Lemma quiet_within ps name t : Forall (fun e : ev => within ps (question e)) t ->
  forallb (fun p => negb (meet p (set_text name []))) ps = true -> Forall (quiet name) t.
Proof.
  intros W N. eapply Forall_impl; [|exact W]. intros [r x] We text S. unfold sent in S. cbn [question projT1] in *.
  destruct r; try discriminate; injection S as ->; cbn [within] in We; exact (within_no _ _ _ We N).
Qed.

Lemma lacks_l name t1 t2 : lacks name t1 -> lacks name (t1 ++ t2).
Proof. intros (r & I & B). exists r. split; auto. apply in_or_app. auto. Qed.
Lemma lacks_r name t1 t2 : lacks name t2 -> lacks name (t1 ++ t2).
Proof. intros (r & I & B). exists r. split; auto. apply in_or_app. auto. Qed.

Lemma says_l name n t1 t2 : says name n t1 -> says name n (t1 ++ t2).
Proof. intros (r & I & B). exists r. split; auto. apply in_or_app. auto. Qed.
Lemma says_r name n t1 t2 : says name n t2 -> says name n (t1 ++ t2).
Proof. intros (r & I & B). exists r. split; auto. apply in_or_app. auto. Qed.

Ltac ob H x t1 t2 H1 := apply traces_ok_bind in H; destruct H as (x & t1 & t2 & -> & H1 & H).

Lemma set_event name value t r :
  traces (command (lit "conf set " ++ name ++ [32] ++ value)) t (Some (inr r)) -> holds name value t.
Proof. intros H. apply traces_ok_command in H. subst t. apply holds_here. Qed.

Lemma set_float_event float_str name x t u : traces (set_float float_str name x) t (Some (inr u)) -> holds name (float_str x) t.
Proof.
  intros H. unfold set_float in H. ob H r t1 t2 H1. apply traces_ok_ret in H. destruct H as [-> _]. rewrite app_nil_r.
  now apply set_event in H1.
Qed.

Lemma int_event name t n : traces (read_config_int name) t (Some (inr n)) -> says name n t.
Proof.
  intros H. unfold read_config_int in H. ob H r t1 t2 H1. apply traces_ok_command_any in H1. subst t1.
  apply traces_ok_lift in H. destruct H as [-> H]. exists r. split; [now left|exact H].
Qed.

Lemma supported_event name t b : traces (is_config_supported name) t (Some (inr b)) ->
  b = true \/ (b = false /\ lacks name t).
Proof.
  intros H. unfold is_config_supported in H. ob H r t1 t2 H1. apply traces_ok_command_any in H1. subst t1.
  destruct (startswith (lit "ERR") r) eqn:E.
  - destruct (negb _); [now apply traces_ok_throw in H|]. apply traces_ok_ret in H. destruct H as [-> <-].
    right. split; auto. exists r. split; [now left|]. now apply startswith_begins.
  - apply traces_ok_ret in H. destruct H as [-> <-]. now left.
Qed.

(** ** Numbers in names *)
Lemma int_str_chars z c : In c (int_str z) -> c = 45 \/ 48 <= c <= 57.
Proof.
  unfold int_str. destruct (z <? 0) eqn:E.
  - intros [H|H]; [auto|]. right. apply Config_Proofs.nat_digits_in in H; lia.
  - intros H. right. apply Config_Proofs.nat_digits_in in H; lia.
Qed.
Lemma word_begins sep a b r s : ~ In sep a -> ~ In sep b -> begins (b ++ sep :: s) (a ++ sep :: r) -> a = b /\ begins s r.
Proof.
  revert b. induction a as [|x a IH]; intros b Na Nb (k & E); destruct b as [|y b]; cbn in E.
  - injection E as ->. split; auto. exists k. reflexivity.
  - injection E as <- _. exfalso. apply Nb. now left.
  - injection E as -> _. exfalso. apply Na. now left.
  - injection E as -> E. destruct (IH b) as [-> B]; [intros I; apply Na; now right|intros I; apply Nb; now right|exists k; exact E|]. auto.
Qed.
Lemma app_begins p s t : begins (p ++ s) (p ++ t) -> begins s t.
Proof. intros (r & E). rewrite <- app_assoc in E. apply app_inv_head in E. exists r. exact E. Qed.

(** Two settings with numbers in their names. *)
Lemma numbered pre a b r s sep : sep = 32 \/ sep = 46 ->
  begins (lit "conf set " ++ pre ++ int_str b ++ sep :: s) (lit "conf set " ++ pre ++ int_str a ++ sep :: r) -> a = b /\ begins s r.
Proof.
  intros H B. apply app_begins, app_begins, word_begins in B.
  - destruct B as [E B]. apply Config_Proofs.int_str_inj in E. auto.
  - intros I. apply int_str_chars in I. lia.
  - intros I. apply int_str_chars in I. lia.
Qed.

Section P.
Variable parse_float : list Z -> res float.
Variable float_str : float -> list Z.
Variable fixed3 : float -> list Z.
Variable hypot : float -> float -> float.
Variable py_sum : list float -> float.
Variable minimize : list float -> bool * list float.
Notation do_calibrate := (do_calibrate parse_float float_str fixed3 hypot py_sum minimize).
Notation calibrate_motor := (calibrate_motor parse_float float_str fixed3 hypot py_sum minimize).

(** ** The parts *)
Lemma resistance_held a iv t res v n :
  traces (calibrate_winding_resistance2 float_str fixed3 hypot py_sum a iv) t (Some (inr (res, v, n))) ->
  holds (lit "motor.resistance_ohm") (float_str res) t.
Proof.
  intros H. unfold calibrate_winding_resistance2 in H. ob H results t1 t2 H1. ob H lr t3 t4 H3. destruct lr as [[lv la] ln].
  ob H ltn t5 t6 H5. destruct ltn as [[tv ta] tn]. ob H r t7 t8 H7. ob H u t9 t10 H9. apply traces_ok_ret in H. destruct H as [-> H].
  injection H as -> -> ->. apply set_float_event in H9. rewrite app_nil_r. now do 4 apply holds_app_r.
Qed.

Lemma loop_event a r i c t kp ki bw : traces (set_current_loop parse_float float_str a r i c) t (Some (inr (Some (kp, ki, bw)))) ->
  holds (lit "servo.pid_dq.kp") (float_str kp) t /\ holds (lit "servo.pid_dq.ki") (float_str ki) t.
Proof.
  intros H. unfold set_current_loop in H. destruct (given i) as [ind|]; [|apply traces_ok_ret in H; destruct H; discriminate].
  ob H b t1 t2 H1. destruct b as [[kp' ki'] bw']. ob H u1 t3 t4 H3. ob H u2 t5 t6 H5. ob H u3 t7 t8 H7.
  apply traces_ok_ret in H. destruct H as [-> H]. injection H as -> -> ->. rewrite app_nil_r.
  pose proof (set_float_event _ _ _ _ _ H3) as K1. pose proof (set_float_event _ _ _ _ _ H5) as K2.
  assert (W5 : only (within [lit "conf set servo.pid_dq.ki "]) (set_float float_str (lit "servo.pid_dq.ki") ki)).
  { unfold set_float. repeat only_step. reflexivity. }
  apply (w_fault []) in H7. apply W5 in H5. split; apply holds_app_r.
  - apply holds_keep; [exact K1|]. apply Forall_app. split; eapply quiet_within; try eassumption; reflexivity.
  - apply holds_app_r. apply holds_keep; [exact K2|]. eapply quiet_within; [eassumption|reflexivity].
Qed.

Lemma filter_event a b i c t kp ki hz : traces (set_encoder_filter float_str a b i c) t (Some (inr (Some (kp, ki, hz)))) ->
  (exists source, says (lit "motor_position.commutation_source") source t /\
     holds (lit "motor_position.sources." ++ int_str source ++ lit ".pll_filter_hz") (num_str float_str hz) t) \/
  (holds (lit "servo.encoder_filter.kp") (float_str kp) t /\ holds (lit "servo.encoder_filter.ki") (float_str ki) t).
Proof.
  intros H. unfold set_encoder_filter in H. ob H ms t1 t2 H1. ob H ss t3 t4 H3.
  destruct (negb ms && negb ss); [apply traces_ok_ret in H; destruct H; discriminate|].
  ob H d t5 t6 H5. ob H rate t7 t8 H7. ob H u t9 t10 H9. apply traces_ok_ret in H. destruct H as [-> H]. injection H as <- <- <-.
  rewrite app_nil_r. destruct ss.
  - right. ob H9 u1 s1 s2 K1. ob H9 u2 s3 s4 K2.
    assert (W : only (within [lit "conf set servo.encoder_filter.ki "]) (set_float float_str (lit "servo.encoder_filter.ki")
      (fmul (fmul (fmul (num_float (num_min (NFloat rate) d)) (float_of_Z 2)) fpi) (fmul (fmul (num_float (num_min (NFloat rate) d)) (float_of_Z 2)) fpi)))).
    { unfold set_float. repeat only_step. reflexivity. }
    pose proof (set_float_event _ _ _ _ _ K2) as E1. pose proof (set_float_event _ _ _ _ _ H9) as E2.
    split; do 5 apply holds_app_r.
    + apply holds_keep; [exact E1|]. apply W in H9. eapply quiet_within; [exact H9|reflexivity].
    + apply holds_app_r. exact E2.
  - left. ob H9 source s1 s2 K1. ob H9 v s3 s4 K2. apply traces_ok_ret in H9. destruct H9 as [-> _]. exists source.
    split; [do 4 apply says_r; apply says_l; exact (int_event _ _ _ K1)|]. do 5 apply holds_app_r. rewrite app_nil_r. apply (set_event (lit "motor_position.sources." ++ int_str source ++ lit ".pll_filter_hz") _ _ v).
    rewrite <- !app_assoc. exact K2.
Qed.

(** A part of encoder calibration may set these, and no other parameter of a source. *)
Definition p_encoder' : list (list Z) :=
  map lit ["conf set motor.poles "; "conf set motor.offset."; "conf set motor.phase_invert "; "conf set motor.invert ";
           "conf set motor_position.output.sign "; "conf set aux"; "conf set servo.voltage_mode_control "]%string.
Section Encoder.
Variable ok : treq -> Prop.
Hypothesis Hok : forall r, within (p_get ++ p_move ++ p_encoder') r -> ok r.
Hypothesis Hsign : forall x y, ok (Command (lit "conf set motor_position.sources." ++ int_str x ++ lit ".sign " ++ int_str y) false).
Hypothesis Hoffset : forall x y, ok (Command (lit "conf set motor_position.sources." ++ int_str x ++ lit ".offset " ++ int_str y) false).

Lemma ok_part ps A (p : T A) : only (within ps) p -> incl ps (p_get ++ p_move ++ p_encoder') -> only ok p.
Proof. intros H I. eapply only_weaken; [exact H|]. intros r W. apply Hok. eapply within_mono; [|exact W]. intros text. now apply starts_incl. Qed.

Ltac ok_leaf := first [ apply Hsign | apply Hoffset | solve [apply (Hsign 0)] | apply Hok; leaf ].
Ltac ok_known := first
  [ eapply ok_part; [first [apply (w_supported []) | apply (w_int []) | apply (w_double parse_float []) | apply (w_stats []) | apply (w_fault [])
                           | apply (w_collect []) | apply (w_theta parse_float float_str []) | apply (w_offsets float_str [])
                           | apply (w_hall_samples float_str [])]|apply incl_b; reflexivity]].

Lemma ok_encoder a ver iv r n : only ok (calibrate_encoder_mapping parse_float float_str py_sum minimize a ver iv r n).
Proof.
  unfold calibrate_encoder_mapping, calibrate_encoder_mapping_absolute, calibrate_encoder_mapping_hall.
  repeat (first [ok_known|only_step]; try ok_leaf).
Qed.
End Encoder.

(** Names that a text cannot set, by its start. *)
Definition only_quiet name A (p : T A) : Prop := forall t o, traces p t o -> Forall (quiet name) t.
Lemma oq_within ps name A (p : T A) : only (within ps) p -> forallb (fun x => negb (meet x (set_text name []))) ps = true -> only_quiet name A p.
Proof. intros H N t o T. apply H in T. exact (quiet_within _ _ _ T N). Qed.

Lemma offset_text i v : lit "conf set motor.offset." ++ int_str i ++ [32] ++ v = set_text (lit "motor.offset." ++ int_str i) v.
Proof. unfold set_text. rewrite <- app_assoc. reflexivity. Qed.

Lemma offset_quiet i j v r : i <> j -> quiet (lit "motor.offset." ++ int_str i) (existT _ (Command (lit "conf set motor.offset." ++ int_str j ++ [32] ++ v) false) r).
Proof.
  intros N text S B. assert (E : text = set_text (lit "motor.offset." ++ int_str j) v).
  { rewrite <- offset_text. change (Some (lit "conf set motor.offset." ++ int_str j ++ [32] ++ v) = Some text) in S.
    apply (f_equal (fun o => match o with Some x => x | None => [] end)) in S. exact (eq_sym S). }
  subst text. unfold set_text in B. rewrite <- !app_assoc in B.
  apply numbered in B; [|now left]. destruct B as [E _]. congruence.
Qed.

Lemma command_cases text t o : traces (command text) t o -> t = [] \/ exists x, t = [existT _ (Command text false) x].
Proof.
  intros H. apply (traces_await (Command text false)) in H. destruct H as [[_ [->|(x & ->)]]|(x & -> & _)]; [now left|right; now exists x|right].
  exists (Some x). reflexivity.
Qed.

Lemma offsets_quiet i l : forall j, i < j -> only_quiet (lit "motor.offset." ++ int_str i) _ (set_offsets float_str j l).
Proof.
  induction l as [|x l IH]; intros j J t o H; cbn [set_offsets] in H.
  - destruct H as [-> _]. constructor.
  - apply traces_bind in H. destruct H as [[H _]|[(e & H & _)|(r & t1 & t2 & -> & H & H2)]].
    1, 2: apply command_cases in H; destruct H as [->|(y & ->)]; constructor; [|constructor]; apply offset_quiet; lia.
    apply Forall_app. split; [|apply (IH (j + 1) ltac:(lia) _ _ H2)].
    apply command_cases in H; destruct H as [->|(y & ->)]; constructor; [|constructor]; apply offset_quiet; lia.
Qed.

Lemma offsets_held l : forall i t u k x, traces (set_offsets float_str i l) t (Some (inr u)) -> nth_error l k = Some x ->
  holds (lit "motor.offset." ++ int_str (i + Z.of_nat k)) (num_str float_str x) t.
Proof.
  induction l as [|y l IH]; intros i t u k x H E; [destruct k; discriminate|]. cbn [set_offsets] in H. ob H r t1 t2 H1. destruct k as [|k].
  - injection E as ->. apply holds_keep.
    + rewrite offset_text in H1. rewrite Z.add_0_r. exact (set_event _ _ _ _ H1).
    + rewrite Z.add_0_r. refine (offsets_quiet i l (i + 1) _ _ _ H). lia.
  - apply holds_app_r. replace (i + Z.of_nat (S k)) with (i + 1 + Z.of_nat k) by lia. exact (IH _ _ _ _ _ H E).
Qed.

Lemma zeros_held l : NoDup l -> forall t u i,
  traces (each (fun i => do _ <- command (lit "conf set motor.offset." ++ int_str i ++ lit " 0"); Ret tt) l) t (Some (inr u)) ->
  In i l -> holds (lit "motor.offset." ++ int_str i) (lit "0") t.
Proof.
  assert (Q : forall l i, ~ In i l -> only_quiet (lit "motor.offset." ++ int_str i) _
    (each (fun i => do _ <- command (lit "conf set motor.offset." ++ int_str i ++ lit " 0"); Ret tt) l)).
  { induction l0 as [|j l0 IH]; intros i N t o H; cbn [each] in H; [destruct H as [-> _]; constructor|].
    assert (K : only_quiet (lit "motor.offset." ++ int_str i) _ (do _ <- command (lit "conf set motor.offset." ++ int_str j ++ lit " 0"); Ret tt)).
    { clear -N. intros t o H. assert (C : t = [] \/ exists x, t = [existT _ (Command (lit "conf set motor.offset." ++ int_str j ++ lit " 0") false) x]).
      { apply traces_bind in H. destruct H as [[H _]|[(e & H & _)|(r & t1 & t2 & -> & H & H2)]]; [now apply command_cases in H..|].
        destruct H2 as [-> _]. rewrite app_nil_r. now apply command_cases in H. }
      destruct C as [->|(y & ->)]; constructor; [|constructor]. apply (offset_quiet i j (lit "0")). intros ->. apply N. now left. }
    apply traces_bind in H. destruct H as [[H _]|[(e & H & _)|(r & t1 & t2 & -> & H & H2)]]; [exact (K _ _ H)..|].
    apply Forall_app. split; [exact (K _ _ H)|]. apply (IH i (fun I => N (or_intror I)) _ _ H2). }
  induction 1 as [|j l N ND IH]; intros t u i H I; [destruct I|]. cbn [each] in H. ob H v t1 t2 H1.
  ob H1 r t3 t4 H3. apply traces_ok_ret in H1. destruct H1 as [-> _]. rewrite app_nil_r.
  destruct (Z.eq_dec i j) as [->|D].
  - apply holds_keep; [|exact (Q _ _ N _ _ H)]. apply (set_event _ _ _ r). rewrite <- app_assoc. exact H3.
  - destruct I as [E|I]; [congruence|]. apply holds_app_r. exact (IH _ _ _ H I).
Qed.

Definition p_sign : list (list Z) := [lit "conf set motor_position.sources.0.sign "; lit "conf set motor.invert "].
Definition p_phase : list (list Z) := [lit "conf set motor.phase_invert "].
Definition p_offset : list (list Z) := [lit "conf set motor.offset."].

Lemma bit_str b : int_str (if b : bool then 1 else 0) = bit b.
Proof. destruct b; reflexivity. Qed.

Lemma quiet_at ps name A (p : T A) t o : traces p t o -> only (within ps) p ->
  forallb (fun x => negb (meet x (set_text name []))) ps = true -> Forall (quiet name) t.
Proof. intros H W N. apply W in H. exact (quiet_within _ _ _ H N). Qed.

Lemma absolute_event a ver v cur n t c :
  traces (calibrate_encoder_mapping_absolute parse_float float_str py_sum minimize a ver v cur n) t (Some (inr c)) ->
  holds (lit "motor.poles") (int_str (r_poles c)) t /\
  (holds (lit "motor_position.sources.0.sign") (if r_invert c then lit "-1" else lit "1") t \/
   (lacks (lit "motor_position.sources.0.sign") t /\ holds (lit "motor.invert") (bit (r_invert c)) t)) /\
  phase_invert_held (r_phase_invert c) t /\
  (forall i x, nth_error (map NFloat (r_offset c)) i = Some x ->
     holds (lit "motor.offset." ++ int_str (Z.of_nat i)) (num_str float_str x) t) /\
  r_errors c = [] /\ (forall p, a_motor_poles a = Some p -> p = r_poles c).
Proof.
  intros H. unfold calibrate_encoder_mapping_absolute in H.
  ob H u1 t1 s1 H1. ob H q t2 s2 H2. ob H u3 t3 s3 H3. ob H data t4 s4 H4. ob H u5 t5 s5 H5. ob H file t6 s6 H6. ob H allow t7 s7 H7.
  ob H x t8 s8 H8. ob H u9 t9 s9 H9. ob H u10 t10 s10 H10. ob H r11 t11 s11 H11. ob H sup t12 s12 H12. ob H r13 t13 s13 H13.
  ob H r14 t14 s14 H14. ob H u15 t15 s15 H15. apply traces_ok_ret in H. destruct H as [-> H]. subst c.
  set (c := fst x) in *.
  assert (W13 : only (within p_sign) (if sup : bool
             then command (lit "conf set motor_position.sources.0.sign " ++ int_str (if r_invert c then -1 else 1))
             else command (lit "conf set motor.invert " ++ int_str (if r_invert c then 1 else 0)))) by (repeat (only_step; try leaf)).
  assert (W14 : only (within p_phase) (if allow : bool
             then command (lit "conf set motor.phase_invert " ++ int_str (if r_phase_invert c then 1 else 0))
             else Ret [])) by (repeat (only_step; try leaf)).
  pose proof (w_offsets float_str [] 0 (map NFloat (r_offset c))) as W15.
  repeat split.
  - do 10 apply holds_app_r. apply holds_keep; [apply (set_event (lit "motor.poles") _ _ _ H11)|].
    rewrite !Forall_app. split; [|split; [|split; [|split; [|constructor]]]].
    + (eapply quiet_at; [exact H12|exact (w_supported [] _)|reflexivity]).
    + (eapply quiet_at; [exact H13|exact W13|reflexivity]).
    + (eapply quiet_at; [exact H14|exact W14|reflexivity]).
    + (eapply quiet_at; [exact H15|exact W15|reflexivity]).
  - assert (Q : forall name, forallb (fun x => negb (meet x (set_text name []))) (p_phase ++ p_offset) = true -> Forall (quiet name) (t14 ++ t15 ++ [])).
    { intros name N. rewrite forallb_app in N. apply andb_true_iff in N. destruct N as [N1 N2]. rewrite !Forall_app. split; [|split; [|constructor]].
      - exact (quiet_at _ _ _ _ _ _ H14 W14 N1).
      - exact (quiet_at _ _ _ _ _ _ H15 W15 N2). }
    destruct sup.
    + left. do 12 apply holds_app_r. apply holds_keep; [|apply Q; reflexivity].
      revert H13. destruct (r_invert c); intros H13; exact (set_event (lit "motor_position.sources.0.sign") _ _ _ H13).
    + right. apply supported_event in H12. destruct H12 as [H12|[_ H12]]; [discriminate|]. split.
      * do 11 apply lacks_r. now apply lacks_l.
      * do 12 apply holds_app_r. apply holds_keep; [|apply Q; reflexivity]. rewrite <- bit_str. exact (set_event (lit "motor.invert") _ _ _ H13).
  - destruct allow.
    + left. do 13 apply holds_app_r. rewrite app_nil_r. apply holds_keep; [|(eapply quiet_at; [exact H15|exact W15|reflexivity])].
      rewrite <- bit_str. exact (set_event (lit "motor.phase_invert") _ _ _ H14).
    + right. apply supported_event in H7. destruct H7 as [H7|[_ H7]]; [discriminate|]. do 6 apply lacks_r. now apply lacks_l.
  - intros i y E. do 14 apply holds_app_r. rewrite app_nil_r. exact (offsets_held _ _ _ _ _ _ H15 E).
  - destruct (r_errors c); [reflexivity|]. now apply traces_ok_throw in H9.
  - intros p E. rewrite E in H10. destruct (negb (p =? r_poles c)) eqn:B; [now apply traces_ok_throw in H10|]. lia.
Qed.

Ltac quiets := rewrite ?Forall_app; repeat match goal with |- _ /\ _ => split end;
  first [ apply Forall_nil | eapply quiet_at; [eassumption|eassumption|reflexivity] | eapply quiet_within; [eassumption|reflexivity] | idtac ].

Lemma source_quiet x y f g v r : (forall w, ~ begins (g ++ [32]) (f ++ [32] ++ w)) ->
  quiet (lit "motor_position.sources." ++ int_str y ++ 46 :: g)
    (existT _ (Command (lit "conf set motor_position.sources." ++ int_str x ++ 46 :: f ++ 32 :: v) false) r).
Proof.
  intros N text S B. assert (E : text = lit "conf set " ++ lit "motor_position.sources." ++ int_str x ++ 46 :: f ++ 32 :: v).
  { apply (f_equal (fun o => match o with Some x => x | None => [] end)) in S. exact (eq_sym S). }
  subst text. unfold set_text in B. rewrite <- !app_assoc in B. cbn [app] in B. apply numbered in B; [|now right]. destruct B as [_ B].
  exact (N _ B).
Qed.

Lemma source_event x f v t r : traces (command (lit "conf set motor_position.sources." ++ int_str x ++ 46 :: f ++ 32 :: v)) t (Some (inr r)) ->
  holds (lit "motor_position.sources." ++ int_str x ++ 46 :: f) v t.
Proof.
  intros H. apply (set_event _ _ _ r). rewrite <- !app_assoc. exact H.
Qed.

Definition p_aux : list (list Z) := [lit "conf set aux"].
Definition p_sources : list (list Z) := [lit "conf set motor_position.sources."].

Lemma hall_event a v t h :
  traces (calibrate_encoder_mapping_hall float_str py_sum a v) t (Some (inr h)) ->
  (exists p, a_motor_poles a = Some p /\ holds (lit "motor.poles") (int_str p) t) /\
  exists source aux,
    says (lit "motor_position.commutation_source") source t /\
    says (lit "motor_position.sources." ++ int_str source ++ lit ".aux_number") aux t /\
    holds (lit "motor_position.sources." ++ int_str source ++ lit ".sign") (int_str (h_sign h)) t /\
    holds (lit "motor_position.sources." ++ int_str source ++ lit ".offset") (int_str (h_offset h)) t /\
    holds (lit "aux" ++ int_str aux ++ lit ".hall.polarity") (int_str (h_polarity h)) t /\
    phase_invert_held (negb (h_phase_invert h =? 0)) t /\
    forall i, 0 <= i < 64 -> holds (lit "motor.offset." ++ int_str i) (lit "0") t.
Proof.
  intros H. unfold calibrate_encoder_mapping_hall in H.
  ob H poles t0 s0 H0. ob H u1 t1 s1 H1. ob H source t2 s2 H2. ob H aux t3 s3 H3. ob H data t4 s4 H4. ob H u5 t5 s5 H5.
  ob H r6 t6 s6 H6. ob H allow t7 s7 H7. ob H c t8 s8 H8. ob H r9 t9 s9 H9. ob H r10 t10 s10 H10. ob H r11 t11 s11 H11.
  ob H r12 t12 s12 H12. ob H r13 t13 s13 H13. ob H u14 t14 s14 H14. apply traces_ok_ret in H. destruct H as [-> ->].
  assert (W10 : only (within p_sources) (command (lit "conf set motor_position.sources." ++ int_str source ++ lit ".sign " ++ int_str (h_sign h))))
    by (repeat (only_step; try leaf)).
  assert (W11 : only (within p_sources) (command (lit "conf set motor_position.sources." ++ int_str source ++ lit ".offset " ++ int_str (h_offset h))))
    by (repeat (only_step; try leaf)).
  assert (W12 : only (within p_aux) (command (lit "conf set aux" ++ int_str aux ++ lit ".hall.polarity " ++ int_str (h_polarity h))))
    by (repeat (only_step; try leaf)).
  assert (W13 : only (within p_phase) (if allow : bool
             then command (lit "conf set motor.phase_invert " ++ int_str (if negb (h_phase_invert h =? 0) then 1 else 0))
             else Ret [])) by (repeat (only_step; try leaf)).
  assert (W14 : only (within p_offset) (each (fun i => do _ <- command (lit "conf set motor.offset." ++ int_str i ++ lit " 0"); Ret tt) (py_range 0 64)))
    by (repeat (only_step; try leaf)).
  rewrite app_nil_r. split; [|exists source, aux; repeat split].
  - destruct (a_motor_poles a) as [p|]; [|now apply traces_ok_throw in H0]. apply traces_ok_ret in H0. destruct H0 as [-> <-]. exists p.
    split; [reflexivity|]. do 9 apply holds_app_r. apply holds_keep; [exact (set_event (lit "motor.poles") _ _ _ H9)|]. quiets.
  - do 2 apply says_r. apply says_l. exact (int_event _ _ _ H2).
  - do 3 apply says_r. apply says_l. exact (int_event _ _ _ H3).
  - do 10 apply holds_app_r. apply holds_keep; [exact (source_event source (lit "sign") _ _ _ H10)|]. quiets.
    apply command_cases in H11. destruct H11 as [->|(x & ->)]; constructor; [|constructor].
    apply (source_quiet source source (lit "offset") (lit "sign")). intros w (k & E). discriminate.
  - do 11 apply holds_app_r. apply holds_keep; [exact (source_event source (lit "offset") _ _ _ H11)|]. quiets.
  - do 12 apply holds_app_r. apply holds_keep; [|quiets]. apply (set_event _ _ _ r12). rewrite <- !app_assoc. exact H12.
  - destruct allow.
    + left. do 13 apply holds_app_r. apply holds_keep; [|quiets]. rewrite <- bit_str. exact (set_event (lit "motor.phase_invert") _ _ _ H13).
    + right. apply supported_event in H7. destruct H7 as [H7|[_ H7]]; [discriminate|]. do 7 apply lacks_r. now apply lacks_l.
  - intros i I. do 14 apply holds_app_r. refine (zeros_held _ _ _ _ _ H14 _).
    + vm_compute. repeat (constructor; [cbn; lia|]). constructor.
    + vm_compute. lia.
Qed.

Ltac known ps := first
  [ eapply only_incl; [first [ apply (w_supported []) | apply (w_int []) | apply (w_double parse_float []) | apply (w_stats []) | apply (w_fault [])
      | apply (w_speed fixed3 hypot py_sum []) | apply (w_speeds fixed3 hypot py_sum [])
      | apply (w_kv_voltage fixed3 hypot py_sum []) | apply (w_idle []) ] | apply incl_b; reflexivity] ].

Lemma theta_event a v t o : traces (ensure_valid_theta parse_float float_str a v) t o ->
  Forall (quiet (lit "motor.poles")) t \/ reads_no_poles parse_float t.
Proof.
  intros H. unfold ensure_valid_theta in H. apply traces_bind in H.
  destruct H as [[H _]|[(e & H & _)|(poles & t1 & t2 & -> & H1 & H)]].
  1, 2: left; eapply quiet_at; [exact H|apply (w_double parse_float [])|reflexivity].
  destruct (feqb poles (float_of_Z 0)) eqn:Z.
  - right. unfold read_config_double in H1. ob H1 reply t3 t4 H3. apply traces_ok_command_any in H3. subst t3.
    apply traces_ok_lift in H1. destruct H1 as [-> H1]. exists reply, poles. split; [now left|]. auto.
  - left. apply Forall_app. split; [eapply quiet_at; [exact H1|apply (w_double parse_float [])|reflexivity]|].
    match type of H with traces ?p _ _ => assert (W : only (within (p_get ++ p_move)) p) end.
    { unfold find_index. repeat (first [known ps|only_step]; try leaf). }
    eapply quiet_at; [exact H|exact W|reflexivity].
Qed.

Lemma measure_event a ver v iv sc sg t o : traces (measure_kv parse_float float_str fixed3 hypot py_sum a ver v iv sc sg) t o ->
  Forall (quiet (lit "motor.poles")) t \/ reads_no_poles parse_float t.
Proof.
  intros H. unfold measure_kv in H. apply traces_bind in H.
  destruct H as [[H _]|[(e & H & _)|(u & t1 & t2 & -> & H1 & H)]]; [exact (theta_event _ _ _ _ H)..|].
  apply theta_event in H1. destruct H1 as [H1|(reply & x & I & H1)].
  - left. apply Forall_app. split; [exact H1|].
    match type of H with traces ?p _ _ => assert (W : only (within (p_get ++ p_move ++ p_limits)) p) end.
    { unfold set_float. repeat (first [known ps|only_step]; try leaf). }
    eapply quiet_at; [exact H|exact W|reflexivity].
  - right. exists reply, x. split; [apply in_or_app; now left|exact H1].
Qed.

Lemma kv_event a fw v iv sc sg t kv : traces (calibrate_kv_rating parse_float float_str fixed3 hypot py_sum a fw v iv sc sg) t (Some (inr kv)) ->
  (0x010a <= fw_version fw -> holds (lit "motor.Kv") (float_str kv) t) /\
  (fw_version fw < 0x010a -> exists v, float_div (fmul (fmul (flit 109 2) (flit 5 1)) (float_of_Z 60)) kv = Ok v /\
     holds (lit "motor.v_per_hz") (float_str v) t) /\
  (Forall (quiet (lit "motor.poles")) t \/ reads_no_poles parse_float t).
Proof.
  intros H. unfold calibrate_kv_rating in H. ob H m t1 t2 H1. ob H m' t3 t4 H3.
  destruct (fltb m' (float_of_Z 0)); [now apply traces_ok_throw in H|]. apply traces_ok_ret in H. destruct H as [-> ->].
  rewrite app_nil_r. split; [|split].
  - intros V. replace (fw_version fw >=? 0x010a) with true in H3 by lia. ob H3 u s1 s2 K. apply traces_ok_ret in H3. destruct H3 as [-> ->].
    rewrite app_nil_r. apply holds_app_r. exact (set_float_event _ _ _ _ _ K).
  - intros V. replace (fw_version fw >=? 0x010a) with false in H3 by lia. ob H3 m2 s1 s2 K. ob H3 w s3 s4 L. ob H3 u s5 s6 M.
    apply traces_ok_ret in H3. destruct H3 as [-> ->]. rewrite app_nil_r. apply traces_ok_lift in L. destruct L as [-> L].
    exists w. split; [exact L|]. do 3 apply holds_app_r. exact (set_float_event _ _ _ _ _ M).
  - assert (Q : Forall (quiet (lit "motor.poles")) t3).
    { match type of H3 with traces ?p _ _ => assert (W : only (within p_kv) p) end.
      { unfold set_float. repeat (only_step; try leaf). }
      eapply quiet_at; [exact H3|exact W|reflexivity]. }
    destruct (a_force_kv a) as [k|].
    + apply traces_ok_ret in H1. destruct H1 as [-> _]. left. exact Q.
    + apply measure_event in H1. destruct H1 as [H1|(reply & x & I & H1)]; [left; apply Forall_app; auto|].
      right. exists reply, x. split; [apply in_or_app; now left|exact H1].
Qed.

(** ** All of it *)

(** [encoder_held] but for the poles *)
Definition encoder_rest (c : cal_json) (t : list ev) : Prop :=
  match c with
  | CalJson invert phase_invert poles offset =>
      (holds (lit "motor_position.sources.0.sign") (if invert then lit "-1" else lit "1") t \/
       (lacks (lit "motor_position.sources.0.sign") t /\ holds (lit "motor.invert") (bit invert) t)) /\
      phase_invert_held phase_invert t /\
      forall i x, nth_error offset i = Some x ->
        holds (lit "motor.offset." ++ int_str (Z.of_nat i)) (num_str float_str x) t
  | HallJson _ _ _ _ => encoder_held parse_float float_str c t
  end.

Definition p_end : list (list Z) := [lit "d stop"; lit "conf set motor_position.output.sign "; lit "conf set servo.voltage_mode_control "].
Definition p_after : list (list Z) := p_get ++ p_move ++ p_end ++ lit "conf set motor.poles " :: p_limits ++ p_kv ++ p_mode ++ [lit "d rezero"].

Lemma keep_after name value t1 t t2 : holds name value t -> Forall (fun e : ev => within p_after (question e)) t2 ->
  forallb (fun x => negb (meet x (set_text name []))) p_after = true -> holds name value (t1 ++ t ++ t2).
Proof. intros H W N. apply holds_app_r, holds_keep; [exact H|]. exact (quiet_within _ _ _ W N). Qed.

Lemma rest_after c t1 t t2 : encoder_rest c t -> Forall (fun e : ev => within p_after (question e)) t2 -> encoder_rest c (t1 ++ t ++ t2).
Proof.
  intros H W.
  assert (P : forall b, phase_invert_held b t -> phase_invert_held b (t1 ++ t ++ t2)).
  { intros b [K|K]; [left; apply keep_after; auto|right; apply lacks_r; now apply lacks_l]. }
  destruct c as [i p n l|o s p i]; cbn [encoder_rest encoder_held] in *.
  - destruct H as (H1 & H2 & H3). split; [|split; [auto|]].
    + destruct H1 as [H1|[L H1]]; [left; apply keep_after; auto|right]. split; [apply lacks_r; now apply lacks_l|apply keep_after; auto].
    + intros k x E. apply keep_after; auto. 
  - destruct H as (so & aux & A1 & A2 & H1 & H2 & H3 & H4 & H5). exists so, aux.
    split; [apply says_r; now apply says_l|]. split; [apply says_r; now apply says_l|].
    repeat split; [apply keep_after; auto..|auto|].
    intros k K. apply keep_after; auto.
Qed.

Lemma mapping_event a ver iv r n t c v :
  traces (calibrate_encoder_mapping parse_float float_str py_sum minimize a ver iv r n) t (Some (inr (c, v))) ->
  encoder_rest (json_of c) t /\
  exists p, holds (lit "motor.poles") (int_str p) t /\ (forall q, a_motor_poles a = Some q -> q = p) /\
    match c with inl c => r_poles c = p | inr _ => True end.
Proof.
  intros H. unfold calibrate_encoder_mapping in H. ob H w t1 s1 H1. ob H ecv t2 s2 H2. ob H cur t3 s3 H3. ob H sup t4 s4 H4. ob H hc t5 s5 H5.
  destruct (a_hall a || hc).
  - destruct (negb hc); [now apply traces_ok_throw in H|]. ob H h t6 s6 H6. apply traces_ok_ret in H. destruct H as [-> H].
    injection H as <- <-. apply hall_event in H6. destruct H6 as [(p & E & P) R]. 
    replace (t1 ++ t2 ++ t3 ++ t4 ++ t5 ++ t6 ++ []) with ((t1 ++ t2 ++ t3 ++ t4 ++ t5) ++ t6 ++ []) by (rewrite <- !app_assoc; reflexivity).
    split; [apply rest_after; [exact R|constructor]|]. exists p. split; [rewrite app_nil_r; now apply holds_app_r|]. split; [intros q; congruence|exact I].
  - ob H x t6 s6 H6. ob H y t7 s7 H7. ob H z t8 s8 H8. apply traces_ok_ret in H. destruct H as [-> H]. injection H as <- <-.
    unfold finally in H8. ob H8 z' t9 s9 H9. ob H8 u t10 s10 H10. destruct z' as [e|z']; [now apply traces_ok_throw in H8|].
    apply traces_ok_ret in H8. destruct H8 as [-> ->]. apply traces_catch_ok in H9. destruct y as [e|y]; [now apply traces_ok_throw in H9|].
    apply absolute_event in H9. destruct H9 as (A1 & A2 & A3 & A4 & A5 & A6).
    assert (W : Forall (fun e : ev => within p_after (question e)) (t10 ++ [])).
    { rewrite app_nil_r. match type of H10 with traces ?p _ _ => assert (W : only (within p_after) p) end; [|exact (W _ _ H10)].
      repeat (only_step; try leaf). }
    replace (t1 ++ t2 ++ t3 ++ t4 ++ t5 ++ t6 ++ t7 ++ (t9 ++ t10 ++ []) ++ []) with
      ((t1 ++ t2 ++ t3 ++ t4 ++ t5 ++ t6 ++ t7) ++ t9 ++ (t10 ++ [])) by (rewrite <- !app_assoc, !app_nil_r; reflexivity).
    split; [apply rest_after; [|exact W]; cbn [json_of encoder_rest]; auto|]. exists (r_poles z). split; [|auto].
    apply holds_app_r, holds_keep; [exact A1|]. apply Forall_app. split; [|constructor].
    match type of H10 with traces ?p _ _ => assert (W' : only (within p_end) p) by (repeat (only_step; try leaf)) end.
    eapply quiet_at; [exact H10|exact W'|reflexivity].
Qed.

Definition not_filter source (r : treq) : Prop :=
  match r with Command text _ | CommandWithin text | WriteMessage text =>
    ~ begins (set_text (lit "motor_position.sources." ++ int_str source ++ lit ".pll_filter_hz") []) text | _ => True end.

Lemma encoder_not_filter source a ver iv r n : only (not_filter source) (calibrate_encoder_mapping parse_float float_str py_sum minimize a ver iv r n).
Proof.
  assert (N : forall x f v, (forall w, ~ begins (lit "pll_filter_hz ") (f ++ w)) ->
    not_filter source (Command (lit "conf set motor_position.sources." ++ int_str x ++ 46 :: f ++ v) false)).
  { intros x f v N B. unfold set_text in B. rewrite <- !app_assoc in B.
    apply (numbered (lit "motor_position.sources.") x source (f ++ v) (lit "pll_filter_hz ") 46) in B; [|now right].
    destruct B as [_ B]. exact (N _ B). }
  apply ok_encoder.
  - intros q W. destruct q; cbn [not_filter]; auto; cbn [within] in W; refine (within_no _ _ _ W _); reflexivity.
  - intros x y. apply (N x (lit "sign ") (int_str y)). intros w (k & E). discriminate.
  - intros x y. apply (N x (lit "offset ") (int_str y)). intros w (k & E). discriminate.
Qed.

Lemma not_filter_quiet source (t : list ev) : Forall (fun e => not_filter source (question e)) t ->
  Forall (quiet (lit "motor_position.sources." ++ int_str source ++ lit ".pll_filter_hz")) t.
Proof.
  apply Forall_impl. intros [q x] N text S. unfold sent in S. cbn [question projT1] in *. destruct q; try discriminate; injection S as ->; exact N.
Qed.

Lemma motor_event a fw t r : traces (calibrate_motor a fw) t (Some (inr r)) ->
  loop_held float_str r t /\ filter_held float_str r t /\ kv_held float_str (fw_version fw) r t /\
  encoder_held parse_float float_str (rp_calibration r) t /\ (forall p, a_motor_poles a = Some p -> poles_held parse_float p t).
Proof.
  intros H. unfold calibrate_motor in H.
  ob H u1 t1 s1 H1. ob H u2 t2 s2 H2. ob H sc t3 s3 H3. ob H cr t4 s4 H4. ob H u5 t5 s5 H5. ob H u6 t6 s6 H6. ob H st t7 s7 H7.
  ob H iv t8 s8 H8. ob H u9 t9 s9 H9. ob H rvn t10 s10 H10. destruct rvn as [[wr hv] noise]. ob H u11 t11 s11 H11.
  ob H ind t12 s12 H12. ob H u13 t13 s13 H13. ob H loop t14 s14 H14. ob H enc t15 s15 H15. ob H u16 t16 s16 H16.
  ob H cv t17 s17 H17. destruct cv as [cal ecv]. ob H u18 t18 s18 H18. ob H scale t19 s19 H19. ob H kv t20 s20 H20. ob H u21 t21 s21 H21.
  ob H r22 t22 s22 H22. ob H b23 t23 s23 H23. ob H di t24 s24 H24. apply traces_ok_ret in H. destruct H as [-> <-]. rewrite app_nil_r.
  pose proof (w_fault [] _ _ H11) as W11.
  pose proof (w_inductance float_str [] _ _ _ _ _ H12) as W12.
  pose proof (w_fault [] _ _ H13) as W13.
  pose proof (w_loop parse_float float_str [] _ _ _ _ _ _ H14) as W14.
  pose proof (w_filter float_str [] _ _ _ _ _ _ H15) as W15.
  pose proof (w_fault [] _ _ H16) as W16.
  pose proof (w_encoder parse_float float_str py_sum minimize [] _ _ _ _ _ _ _ H17) as W17.
  pose proof (w_fault [] _ _ H18) as W18. apply traces_ok_lift in H19. destruct H19 as [-> _].
  pose proof (w_kv parse_float float_str fixed3 hypot py_sum [] _ _ _ _ _ _ _ _ H20) as W20.
  pose proof (w_fault [] _ _ H21) as W21.
  assert (W22 : Forall (fun e : ev => within [lit "d rezero"] (question e)) t22).
  { apply traces_ok_command in H22. subst t22. constructor; [reflexivity|constructor]. }
  pose proof (w_mode [] _ _ _ _ _ H23) as W23.
  pose proof (w_info [] _ _ H24) as W24.
  cbn [rp_resistance rp_kp rp_ki rp_enc_hz rp_enc_kp rp_enc_ki rp_kv rp_calibration].
  assert (L : forall ps t, Forall (fun e : ev => within ps (question e)) t -> incl ps p_after -> Forall (fun e : ev => within p_after (question e)) t).
  { clear. intros ps t H I. eapply Forall_impl; [|exact H]. intros e. apply within_mono. intros text. now apply starts_incl. }
  assert (WA : Forall (fun e : ev => within p_after (question e)) (t18 ++ [] ++ t20 ++ t21 ++ t22 ++ t23 ++ t24)).
  { rewrite !Forall_app. repeat split; try constructor; (eapply L; [eassumption|apply incl_b; reflexivity]). }
  split; [|split; [|split; [|]]].
  - split; [|split].
    + do 9 apply holds_app_r. apply holds_keep; [exact (resistance_held _ _ _ _ _ _ H10)|]. quiets.
    + intros k E. destruct loop as [[[kp ki] bw]|]; [|discriminate]. injection E as <-. apply loop_event in H14.
      do 13 apply holds_app_r. apply holds_keep; [exact (proj1 H14)|]. quiets.
    + intros k E. destruct loop as [[[kp ki] bw]|]; [|discriminate]. injection E as <-. apply loop_event in H14.
      do 13 apply holds_app_r. apply holds_keep; [exact (proj2 H14)|]. quiets.
  - intros hz E. destruct enc as [[[kp ki] hz']|]; [|discriminate]. injection E as <-. apply filter_event in H15. destruct H15 as [(so & SY & K)|[K1 K2]].
    + left. exists so. split; [do 14 apply says_r; now apply says_l|]. do 14 apply holds_app_r. apply holds_keep; [exact K|]. quiets.
      apply not_filter_quiet. exact (encoder_not_filter _ _ _ _ _ _ _ _ H17).
    + right. exists (NFloat kp), (NFloat ki). split; [reflexivity|]. split; [reflexivity|].
      split; do 14 apply holds_app_r; (apply holds_keep; [eassumption|]; quiets).
  - exists kv. split; [reflexivity|]. apply kv_event in H20. destruct H20 as (K1 & K2 & _). split.
    + intros V. specialize (K1 V). do 19 apply holds_app_r. apply holds_keep; [exact K1|]. quiets.
    + intros V. destruct (K2 V) as (w & E & K). exists w. split; [exact E|]. do 19 apply holds_app_r. apply holds_keep; [exact K|]. quiets.
  - apply mapping_event in H17. destruct H17 as (R & p & P & Q & J). apply kv_event in H20. destruct H20 as (_ & _ & Z).
    assert (PH : poles_held parse_float p (t1 ++ t2 ++ t3 ++ t4 ++ t5 ++ t6 ++ t7 ++ t8 ++ t9 ++ t10 ++ t11 ++ t12 ++ t13 ++ t14 ++ t15 ++ t16 ++ t17 ++
      t18 ++ [] ++ t20 ++ t21 ++ t22 ++ t23 ++ t24)).
    { exists (t1 ++ t2 ++ t3 ++ t4 ++ t5 ++ t6 ++ t7 ++ t8 ++ t9 ++ t10 ++ t11 ++ t12 ++ t13 ++ t14 ++ t15 ++ t16 ++ t17),
        (t18 ++ [] ++ t20 ++ t21 ++ t22 ++ t23 ++ t24). split; [rewrite <- !app_assoc; reflexivity|]. split; [now do 16 apply holds_app_r|].
      destruct Z as [Z|(reply & x & I & Z)].
      - left. do 16 apply holds_app_r. apply holds_keep; [exact P|]. quiets. exact Z.
      - right. exists reply, x. split; [|exact Z]. cbn [app]. rewrite !in_app_iff. tauto. }
    split.
    + match goal with |- encoder_held _ _ _ (?a) => replace a with ((t1 ++ t2 ++ t3 ++ t4 ++ t5 ++ t6 ++ t7 ++ t8 ++ t9 ++ t10 ++ t11 ++ t12 ++ t13 ++ t14 ++ t15 ++ t16) ++
        t17 ++ (t18 ++ [] ++ t20 ++ t21 ++ t22 ++ t23 ++ t24)) in * by (rewrite <- !app_assoc; reflexivity) end.
      pose proof (rest_after _ (t1 ++ t2 ++ t3 ++ t4 ++ t5 ++ t6 ++ t7 ++ t8 ++ t9 ++ t10 ++ t11 ++ t12 ++ t13 ++ t14 ++ t15 ++ t16) _ _ R WA) as R'.
      destruct cal as [c|h]; cbn [json_of encoder_rest] in *; [|exact R'].
      subst p. cbn [encoder_held]. split; [exact PH|exact R'].
    + intros q E. rewrite (Q q E). exact PH.
Qed.

Theorem C52_report_is_stored a t r : a_no_update a = false -> traces (do_calibrate a) t (Some (inr r)) ->
  exists t1 fw reply, t = t1 ++ [answered (Command (lit "conf write") false) (inr reply); answered SaveReport (inr tt)] /\
    hd_error t1 = Some (answered ReadFirmware (inr fw)) /\
    loop_held float_str r t1 /\ filter_held float_str r t1 /\ kv_held float_str (fw_version fw) r t1 /\
    encoder_held parse_float float_str (rp_calibration r) t1 /\
    (forall p, a_motor_poles a = Some p -> poles_held parse_float p t1).
Proof.
  intros N H. unfold Calproc_Model.do_calibrate in H. ob H x tp s1 HP. destruct x as [[fw c] a']. ob H r' tm s2 HM. ob H u t3 s3 H3.
  destruct (prepare_args _ _ _ _ _ HP) as (E & N' & t' & ->). rewrite N', N in H3. cbn [negb] in H3.
  apply traces_ok_command in H3. subst t3.
  ob H y t5 t6 H5. apply (traces_ok_await SaveReport) in H5. subst t5. apply traces_ok_ret in H. destruct H as [-> ->]. destruct y.
  set (tp := _ :: _). exists (tp ++ tm), fw, u. split; [rewrite <- app_assoc; reflexivity|]. split; [reflexivity|].
  assert (K : forall name value, holds name value tm -> holds name value (tp ++ tm)) by (intros; now apply holds_app_r).
  assert (PH : forall p, poles_held parse_float p tm -> poles_held parse_float p (tp ++ tm)).
  { intros p (ta & tb & -> & P1 & P2). exists (tp ++ ta), tb. split; [now rewrite app_assoc|]. split; [now apply holds_app_r|].
    destruct P2 as [P2|P2]; auto. }
  assert (EP : a_motor_poles a' = a_motor_poles a).
  { unfold calibration_parameters in E. repeat match type of E with bind ?x _ = _ => destruct x; cbn [bind] in E; [|discriminate] end.
    injection E as <-. reflexivity. }
  apply motor_event in HM. destruct HM as ((L1 & L2 & L3) & F & (kv & V1 & V2 & V3) & EN & PO). repeat split.
  - auto.
  - auto.
  - auto.
  - intros hz G. destruct (F hz G) as [(so & SY & Q)|(kp & ki & G1 & G2 & Q1 & Q2)]; [left; exists so; split; [now apply says_r|auto]|right]. exists kp, ki. auto.
  - exists kv. split; [exact V1|]. split; [auto|]. intros V. destruct (V3 V) as (w & G & Q). eauto.
  - destruct (rp_calibration r) as [i p n l|o s p i]; cbn [encoder_held] in *.
    + destruct EN as (E1 & E2 & E3 & E4). split; [auto|]. split; [|split; [|auto]].
      * destruct E2 as [E2|[E2 E5]]; [auto|]. right. split; [now apply lacks_r|auto].
      * destruct E3 as [E3|E3]; [left; auto|right; now apply lacks_r].
    + destruct EN as (so & aux & A1 & A2 & E1 & E2 & E3 & E4 & E5). exists so, aux.
      repeat split; auto using says_r.
      destruct E4 as [E4|E4]; [left; auto|right; now apply lacks_r].
  - intros p Q. rewrite <- EP in Q. auto.
Qed.
End P.

(** ** Example: the run of ex_calibrated *)
Example ex_report : exists t r t1, traces (toy_calibrate (toy_args false)) t (Some (inr r)) /\
  rp_calibration r = HallJson 0 1 0 0 /\ (exists e1 e2, t = t1 ++ [e1; e2]) /\ poles_held toy_parse 4 t1 /\
  exists source, holds (lit "motor_position.sources." ++ int_str source ++ lit ".sign") (lit "1") t1.
Proof.
  destruct ex_calibrated as (t & r & T & _ & C & _).
  destruct (C52_report_is_stored _ _ _ _ _ _ (toy_args false) _ _ eq_refl T) as (t1 & fw & reply & E1 & _ & _ & _ & _ & E & P).
  exists t, r, t1. split; [exact T|]. split; [exact C|]. split; [rewrite E1; eauto|]. split; [exact (P 4 eq_refl)|].
  rewrite C in E. destruct E as (source & aux & _ & _ & E & _). exists source. exact E.
Qed.

Print Assumptions C52_report_is_stored.
