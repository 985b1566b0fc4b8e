(** C57: what each step between two neighbouring firmware versions does
    to the settings. *)
From Coq Require Import Ascii String ZArith List Bool Lia Floats.SpecFloat.
From Verif Require Import PyBase PyBytes PyFloat Config_Spec Config_Model Config_Proofs Props_Config
  Tool_Model Calib_Model Migrate_Spec Migrate_Proofs Migrate_Tables.
Import ListNotations.
Open Scope Z_scope.

Section Step.
  Variable pf : list Z -> res float.
  Variable fs : float -> list Z.
  Variable py_sum : list float -> float.
  Hypothesis fs_clean : forall x, clean (fs x).
  Local Notation up := (upgrade pf fs py_sum).
  Local Notation mig := (migrate pf fs py_sum).

  (** Both texts are read as the model's dictionaries are. *)
  Lemma seen a b family o n : up a b family o = Ok n ->
    exists d d', sees o d /\ sees n d' /\ mig a b family d = Ok d'.
  Proof.
    intros H. apply upgrade_inv in H as (_ & _ & d & d' & H1 & H2 & ->). exists d, d'. split; [|split; [|exact H2]].
    - intros k v. symmetry. now apply parse_config_get.
    - intros k v. symmetry. apply parse_config_get. apply parse_print.
      apply (migrate_ok _ _ _ fs_clean _ _ _ _ _ H2). now apply parse_config_ok in H1.
  Qed.

  Lemma rule_true f d : rule true f d = f d.
  Proof. reflexivity. Qed.

  Lemma bind_ok {A} (r : res A) : bind r Ok = r.
  Proof. now destruct r. Qed.

  Ltac one := unfold migrate; repeat (rewrite rule_false by reflexivity; cbn [bind]);
    match goal with |- bind (rule ?c ?f ?d) _ = _ => change (rule c f d) with (f d) | |- rule ?c ?f ?d = _ => change (rule c f d) with (f d) end;
    match goal with |- bind ?r _ = ?r => destruct r; cbn [bind]; [|reflexivity] | _ => idtac end;
    repeat (rewrite rule_false by reflexivity; cbn [bind]); reflexivity.

  Lemma m_up_0101 f d : mig 0x100 0x101 f d = up_0101 pf d. Proof. one. Qed.
  Lemma m_up_0103 f d : mig 0x102 0x103 f d = up_0103 pf d. Proof. one. Qed.
  Lemma m_up_0104 f d : mig 0x103 0x104 f d = up_0104 pf d. Proof. one. Qed.
  Lemma m_up_0105 f d : mig 0x104 0x105 f d = Config_Model.up_0105 pf fs d. Proof. one. Qed.
  Lemma m_up_0107 f d : mig 0x106 0x107 f d = up_0107 d. Proof. one. Qed.
  Lemma m_up_0108 f d : mig 0x107 0x108 f d = up_0108 pf d. Proof. one. Qed.
  Lemma m_up_0109 f d : mig 0x108 0x109 f d = up_0109 pf fs py_sum d. Proof. one. Qed.
  Lemma m_up_010a f d : mig 0x109 0x10a f d = up_010a pf fs f d. Proof. one. Qed.
  Lemma m_dn_0101 f d : mig 0x101 0x100 f d = down_0101 pf d. Proof. one. Qed.
  Lemma m_dn_0103 f d : mig 0x103 0x102 f d = down_0103 pf d. Proof. one. Qed.
  Lemma m_dn_0104 f d : mig 0x104 0x103 f d = down_0104 pf d. Proof. one. Qed.
  Lemma m_dn_0105 f d : mig 0x105 0x104 f d = down_0105 pf d. Proof. one. Qed.
  Lemma m_dn_0107 f d : mig 0x107 0x106 f d = down_0107 d. Proof. one. Qed.
  Lemma m_dn_0108 f d : mig 0x108 0x107 f d = down_0108 pf d. Proof. one. Qed.
  Lemma m_dn_0109 f d : mig 0x109 0x108 f d = down_0109 pf fs d. Proof. one. Qed.
  Lemma m_dn_010a f d : mig 0x10a 0x109 f d = down_010a pf fs f d. Proof. one. Qed.

  Lemma unchanged o n d : sees o d -> sees n d -> forall k v, setting n k v <-> setting o k v.
  Proof. intros Ho Hn k v. rewrite (Hn k v), (Ho k v). reflexivity. Qed.
End Step.

(** Moving to version [t] from the version before turns the settings
    into those of the table [upgraded]. *)
Theorem C57_upgrade : forall parse_float float_str py_sum, (forall x, clean (float_str x)) ->
  forall t family o n, 0x0101 <= t <= 0x010a ->
  upgrade parse_float float_str py_sum (t - 1) t family o = Ok n ->
  upgraded parse_float float_str int_str py_sum (wrap (float_arith py_sum)) fpi t family o n.
Proof.
  intros pf fs py_sum Hc t family o n Ht H. apply (seen pf fs py_sum Hc) in H as (d & d' & Ho & Hn & H).
  assert (C : t = 0x101 \/ t = 0x102 \/ t = 0x103 \/ t = 0x104 \/ t = 0x105 \/ t = 0x106 \/ t = 0x107 \/ t = 0x108
    \/ t = 0x109 \/ t = 0x10a) by lia.
  unfold upgraded.
  destruct C as [C|[C|[C|[C|[C|[C|[C|[C|[C|C]]]]]]]]]; subst t; cbn [Z.sub Z.opp Z.add Z.pos_sub Z.succ_double Z.pred_double Z.double Pos.pred_double] in H.
  - change (to_0101 pf o n). apply (step_to_0101 pf) with d d'; [exact Ho|exact Hn|]. rewrite <- (m_up_0101 pf fs py_sum family). exact H.
  - change (forall k v, setting n k v <-> setting o k v). apply (unchanged o n d Ho).
    replace d with d'; [exact Hn|]. symmetry. apply Ok_inj. rewrite <- H. reflexivity.
  - change (to_0103 pf o n). apply (step_to_0103 pf) with d d'; [exact Ho|exact Hn|]. rewrite <- (m_up_0103 pf fs py_sum family). exact H.
  - change (to_0104 pf o n). apply (step_to_0104 pf) with d d'; [exact Ho|exact Hn|]. rewrite <- (m_up_0104 pf fs py_sum family). exact H.
  - change (to_0105 pf fs fpi o n). apply (step_to_0105 pf fs py_sum Hc) with d d'; [exact Ho|exact Hn|]. rewrite <- (m_up_0105 pf fs py_sum family). exact H.
  - change (to_0106 o n). apply step_to_0106 with d d'; [exact Ho|exact Hn|]. rewrite <- (migrate_poll_up pf fs py_sum family). exact H.
  - change (forall k v, setting n k v <-> setting o k v). apply (unchanged o n d Ho). rewrite m_up_0107 in H.
    unfold up_0107 in H. destruct (geti _ _ d); [|discriminate]. apply Ok_inj in H. now subst d'.
  - change (to_0108 pf o n). apply (step_to_0108 pf) with d d'; [exact Ho|exact Hn|]. rewrite <- (m_up_0108 pf fs py_sum family). exact H.
  - change (to_0109 pf fs int_str py_sum (wrap (float_arith py_sum)) o n).
    apply (step_to_0109 pf fs py_sum) with d d'; [exact Ho|exact Hn|]. rewrite <- (m_up_0109 pf fs py_sum family). exact H.
  - change (to_010a pf fs family o n). apply (step_to_010a pf fs) with d d'; [exact Ho|exact Hn|]. rewrite <- (m_up_010a pf fs py_sum family). exact H.
Qed.

(** Moving from version [t] to the version before turns the settings
    into those of the table [downgraded]. *)
Theorem C57_downgrade : forall parse_float float_str py_sum, (forall x, clean (float_str x)) ->
  forall t family o n, 0x0101 <= t <= 0x010a ->
  upgrade parse_float float_str py_sum t (t - 1) family o = Ok n ->
  downgraded parse_float float_str int_str t family o n.
Proof.
  intros pf fs py_sum Hc t family o n Ht H. apply (seen pf fs py_sum Hc) in H as (d & d' & Ho & Hn & H).
  assert (C : t = 0x101 \/ t = 0x102 \/ t = 0x103 \/ t = 0x104 \/ t = 0x105 \/ t = 0x106 \/ t = 0x107 \/ t = 0x108
    \/ t = 0x109 \/ t = 0x10a) by lia.
  unfold downgraded.
  destruct C as [C|[C|[C|[C|[C|[C|[C|[C|[C|C]]]]]]]]]; subst t; cbn [Z.sub Z.opp Z.add Z.pos_sub Z.succ_double Z.pred_double Z.double Pos.pred_double] in H.
  - change (from_0101 pf o n). apply (step_from_0101 pf) with d d'; [exact Ho|exact Hn|]. rewrite <- (m_dn_0101 pf fs py_sum family). exact H.
  - change (forall k v, setting n k v <-> setting o k v). apply (unchanged o n d Ho).
    replace d with d'; [exact Hn|]. symmetry. apply Ok_inj. rewrite <- H. reflexivity.
  - change (from_0103 pf o n). apply (step_from_0103 pf) with d d'; [exact Ho|exact Hn|]. rewrite <- (m_dn_0103 pf fs py_sum family). exact H.
  - change (from_0104 pf o n). apply (step_from_0104 pf) with d d'; [exact Ho|exact Hn|]. rewrite <- (m_dn_0104 pf fs py_sum family). exact H.
  - change (from_0105 pf o n). apply (step_from_0105 pf o d Ho n d' Hn). rewrite <- (m_dn_0105 pf fs py_sum family). exact H.
  - change (from_0106 o n). apply step_from_0106 with d d'; [exact Ho|exact Hn|]. rewrite <- (migrate_poll_down pf fs py_sum family). exact H.
  - change (from_0107 o n). apply step_from_0107 with d d'; [exact Ho|exact Hn|]. rewrite <- (m_dn_0107 pf fs py_sum family). exact H.
  - change (from_0108 pf o n). apply (step_from_0108 pf) with d d'; [exact Ho|exact Hn|]. rewrite <- (m_dn_0108 pf fs py_sum family). exact H.
  - change (from_0109 pf fs int_str o n). apply (step_from_0109 pf fs) with d d'; [exact Ho|exact Hn|].
    rewrite <- (m_dn_0109 pf fs py_sum family). exact H.
  - change (from_010a pf fs family o n). apply (step_from_010a pf fs) with d d'; [exact Ho|exact Hn|]. rewrite <- (m_dn_010a pf fs py_sum family). exact H.
Qed.

(** ** Examples *)

(** The hypotheses of the theorems are met: every kind of setting moves. *)
Definition ex_o4 : list Z := ex_lines
  ["abs_port.mode 2"; "abs_port.i2c_hz 400000"; "abs_port.i2c_mode 1"; "abs_port.encoder_i2c_address 64";
   "abs_port.encoder_poll_ms 5"; "abs_port.position_offset 17"; "abs_port.position_scale -1";
   "servo.rezero_from_abs 1"; "encoder.mode 1"; "motor.invert 1";
   "servo.encoder_filter.kp 200"; "servo.encoder_filter.ki 10000"; "servo.encoder_filter.enabled 1";
   "servo.encoder_filter.debug_override 3";
   "motor.unwrapped_position_scale -0.5"; "motor.position_offset 32768"; "servo.pwm_rate_hz 40000"; "id.id 4"]%string.
Definition ex_n5 : list Z := ex_lines
  ["servo.pwm_rate_hz 30000"; "id.id 4"; "aux2.i2c.i2c_hz 400000"; "aux2.i2c.i2c_mode 1";
   "aux2.i2c.devices.0.type 2"; "aux2.i2c.devices.0.address 64"; "aux2.i2c.devices.0.poll_ms 5";
   "aux2.pins.0.mode 13"; "aux2.pins.1.mode 13"; "aux2.pins.0.pull 1"; "aux2.pins.1.pull 1";
   "motor_position.sources.1.type 7"; "motor_position.sources.1.aux_number 2";
   "motor_position.sources.1.i2c_device 0"; "motor_position.sources.1.offset 17";
   "motor_position.sources.1.reference 1"; "motor_position.sources.1.pll_filter_hz 10";
   "motor_position.sources.1.cpr 16384"; "motor_position.sources.1.sign -1";
   "motor_position.output.reference_source 1"; "aux1.spi.mode 2"; "aux1.pins.0.mode 2"; "aux1.pins.1.mode 1";
   "aux1.pins.2.mode 1"; "aux1.pins.3.mode 1"; "motor_position.output.offset -250e-3";
   "motor_position.sources.0.sign -1"; "motor_position.rotor_to_output_ratio -0.5";
   "motor_position.sources.0.pll_filter_hz 15915e-3"; "motor_position.sources.0.debug_override 3"]%string.

Example ex_up_0105 : upgrade ex_parse ex_str left_sum (0x0105 - 1) 0x0105 None ex_o4 = Ok ex_n5.
Proof. vm_compute. reflexivity. Qed.

Example ex_to_0105 : to_0105 ex_parse ex_str fpi ex_o4 ex_n5.
Proof. exact (C57_upgrade ex_parse ex_str left_sum ex_str_clean 0x0105 None ex_o4 ex_n5 (ltac:(lia)) ex_up_0105). Qed.

(** A table of 32 values 0, 1, .. 31 becomes one of 256 integers scaled by 31; back again, the values are near the old ones. *)
Definition ex_table : list Z := join_lines (lit "motor.offset.0 1.0" ::
  concat (map (fun s => map (fun i => table_key s i ++ lit " " ++ int_str i) (py_range 0 32)) (py_range 0 3))).

(** The texts of settings [ks] in what a step gives. *)
Definition ex_values (r : res (list Z)) (ks : list (list Z)) : list Z :=
  match (let* n := r in parse_config n) with
  | Ok d => concat (map (fun k => match dget k d with Some v => v ++ [32] | None => lit "- " end) ks)
  | Raise _ => []
  end.

Example ex_up_tables : ex_values (upgrade ex_parse ex_str left_sum (0x0109 - 1) 0x0109 None ex_table)
    [scale_key 1; table_key 1 0; table_key 1 4; table_key 1 8; table_key 1 248; table_key 1 252; lit "motor.offset.0"] =
  lit "31000e-3 0 2 4 127 63 1.0 ".
Proof. vm_compute. reflexivity. Qed.

Example ex_down_tables : ex_values (upgrade ex_parse ex_str left_sum 0x0109 (0x0109 - 1) None
    (join_lines (lit "servo.motor_thermistor_ohm 0" :: lit "aux1.pwm_period_us 1" :: lit "aux2.pwm_period_us 1" :: concat (map (fun s => (scale_key s ++ lit " 31") ::
       map (fun i => table_key s i ++ lit " " ++ int_str (i / 2)) (py_range 0 256)) (py_range 0 3)))))
    [scale_key 2; table_key 2 0; table_key 2 8; table_key 2 31; table_key 2 32] =
  lit "- 0e-3 7811e-3 30267e-3 - ".
Proof. vm_compute. reflexivity. Qed.

Example ex_down_010a :
  upgrade ex_parse ex_str left_sum 0x010a (0x010a - 1) (Some 2)
    (ex_lines ["id.id 1"; "motor.Kv 100"; "servo.max_power_W 100"; "servo.pwm_rate_hz 20000"]%string) =
  Ok (ex_lines ["id.id 1"; "servo.max_power_W 200000e-3"; "servo.pwm_rate_hz 20000"; "motor.v_per_hz 327e-3"]%string).
Proof. vm_compute. reflexivity. Qed.

Print Assumptions C57_upgrade.
Print Assumptions C57_downgrade.
