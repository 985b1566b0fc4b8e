(** The make_* methods: from fields to decoded writes. *)
From Coq Require Import ZArith List Bool Lia.
From Coq Require Import Floats.SpecFloat.
From Coq Require Import ZifyBool ZifyNat.
From Verif Require Import PyBase PyFloat Mux_Model Protocol_Spec Fw_Spec Zbits Mux_Proofs
  Float_Proofs Quant_Proofs Props_Quant
  Parser_Proofs Ctrl_Model Combiner_Proofs Query_Proofs Command_Spec.
Ltac Zify.zify_post_hook ::= Z.div_mod_to_equations.
Import ListNotations.
Open Scope Z_scope.

(** The scales class Writer uses for each unit, moteus.py:420-453. *)
Definition usc (u : unit_) : scales :=
  match u with
  | UPosition => W_position | UVelocity => W_velocity | UAcceleration => W_accel
  | UTorque => W_torque | UPwm => W_pwm | UVoltage => W_voltage
  | UTemperature => W_temperature | UTime => W_time | UCurrent => W_current
  | UPower => W_power
  end.

Lemma usc_unit : forall u r, r <> IGNORE -> scale_at (usc u) r = unit_float u r.
Proof. intros [] [] H; try congruence; vm_compute; reflexivity. Qed.

Lemma usc_api : forall u, In (usc u) api_scales.
Proof. intros []; cbn; tauto. Qed.

Definition eff (f : field) : resolution := res_if (f_val f) (f_res f).

Lemma eff_some : forall f, eff f <> IGNORE -> exists x, f_val f = Some x /\ eff f = f_res f.
Proof. intros f H. unfold eff, res_if in *. destruct (f_val f); [eauto|congruence]. Qed.

(** Bytes written for a field, or the exception. *)
Definition field_out (f : field) : res (list Z) :=
  match f_val f, f_res f with
  | None, _ | _, IGNORE => Ok []
  | Some x, r => write_mapped [] x (usc (f_unit f)) r
  end.

Lemma write_mapped_app : forall w x sc r, r <> IGNORE ->
  write_mapped w x sc r =
  match write_mapped [] x sc r with Ok b => Ok (w ++ b) | Raise e => Raise e end.
Proof.
  intros w x sc r H. unfold write_mapped. destruct r; try congruence;
    (destruct (saturate _ _ _); cbn [bind]; [|reflexivity]; unfold w_write;
     destruct (pack _ _); reflexivity).
Qed.

Lemma field_out_does : forall f, eff f <> IGNORE ->
  does (write_opt (f_val f) (usc (f_unit f)) (f_res f)) (field_out f).
Proof.
  intros f H w. destruct (eff_some f H) as (x & E & R). rewrite R in H.
  unfold write_opt, field_out. rewrite E.
  rewrite write_mapped_app by auto. destruct (f_res f); congruence || reflexivity.
Qed.

Lemma field_out_spec : forall f, opt_ok (f_val f) -> eff f <> IGNORE ->
  (exists x, f_val f = Some x /\ f_res f = F32 /\ too_large x = true /\
             field_out f = Raise OverflowError) \/
  (exists x b, f_val f = Some x /\ (f_res f = F32 -> too_large x = false) /\
     field_out f = Ok b /\ length b = spec_width (f_res f) /\
     spec_value (f_res f) b = spec_quantise x (f_res f) (unit_float (f_unit f) (f_res f))).
Proof.
  intros f Hok H. destruct (eff_some f H) as (x & E & R). rewrite R in H. rewrite E in Hok. cbn in Hok.
  destruct (res_eqb (f_res f) F32) eqn:RF.
  - apply res_eqb_eq in RF. unfold field_out. rewrite E, RF.
    rewrite write_mapped_f32 by auto. fold (too_large x). destruct (too_large x) eqn:T.
    + left. eauto 6.
    + right. eexists x, _. split; [reflexivity|]. split; [auto|]. split; [reflexivity|].
      split; [reflexivity|]. cbn [app]. rewrite spec_value_f32. reflexivity.
  - right. assert (IR : int_res (f_res f)).
    { unfold int_res. destruct (f_res f); auto; try congruence. discriminate. }
    destruct (C05_api_scales_apply (usc (f_unit f)) (f_res f) (usc_api _)) as [S1 S2].
    destruct (write_mapped_int [] x (usc (f_unit f)) (f_res f) IR Hok S1 S2) as (b & W & L & _ & V).
    exists x, b. split; [exact E|]. split; [intro X; rewrite X in RF; discriminate|].
    split.
    { unfold field_out. rewrite E. destruct (f_res f); try congruence; exact W. }
    split; [exact L|]. rewrite V, usc_unit by auto. reflexivity.
Qed.

Fixpoint consecutive (start : Z) (fs : list field) : Prop :=
  match fs with
  | [] => True
  | f :: fs => (eff f = IGNORE \/ f_reg f = start) /\ consecutive (start + 1) fs
  end.

Definition ovf (f : field) : bool :=
  match f_val f, f_res f with Some x, F32 => too_large x | _, _ => false end.

Lemma ovf_spec : forall fs, existsb ovf fs = true <-> overflows fs.
Proof.
  intro fs. rewrite existsb_exists. unfold overflows, ovf. split.
  - intros (f & I & E). exists f. destruct (f_val f) as [x|] eqn:V; [|discriminate].
    exists x. destruct (f_res f) eqn:R; try discriminate. auto.
  - intros (f & x & I & V & R & T). exists f. rewrite V, R. auto.
Qed.

Lemma collect_fields : forall fs, fields_ok fs ->
  match collect (map eff fs) (map field_out fs) with
  | Raise e => e = OverflowError /\ existsb ovf fs = true
  | Ok bs => existsb ovf fs = false /\ length bs = length fs /\
      (forall i r b, nth_error (map eff fs) i = Some r -> nth_error bs i = Some b ->
         r <> IGNORE -> length b = spec_width r) /\
      forall start, consecutive start fs -> wanted KWrite start (map eff fs) bs = writes fs
  end.
Proof.
  induction 1 as [|f fs Hok _ IH]; cbn [map collect existsb].
  - repeat split; auto. intros [|i]; discriminate.
  - destruct (res_eqb (eff f) IGNORE) eqn:EI.
    + apply res_eqb_eq in EI.
      assert (W1 : forall l, writes (f :: l) = writes l).
      { intro l. unfold writes. cbn [flat_map]. unfold eff, res_if in EI.
        destruct (f_val f); [|reflexivity]. rewrite EI. reflexivity. }
      assert (O1 : ovf f = false).
      { unfold ovf. unfold eff, res_if in EI. destruct (f_val f); [|reflexivity]. rewrite EI. reflexivity. }
      rewrite O1. cbn [orb].
      destruct (collect (map eff fs) (map field_out fs)) as [bs|e]; [|exact IH].
      destruct IH as (A & B & C & D). split; [exact A|]. split; [cbn; lia|]. split.
      * intros [|i] r b E1 E2 N; cbn in E1, E2; [congruence|eapply C; eauto].
      * intros start [_ Hc]. cbn [wanted]. rewrite EI. cbn [res_eqb app]. rewrite W1. apply D. exact Hc.
    + assert (NI : eff f <> IGNORE) by (intro X; rewrite X in EI; discriminate).
      destruct (field_out_spec f Hok NI) as [(x & V & R & T & E)|(x & b & V & T & E & L & Q)]; rewrite E.
      * split; [reflexivity|]. unfold ovf. rewrite V, R, T. reflexivity.
      * destruct (eff_some f NI) as (x' & V' & R').
        assert (O1 : ovf f = false).
        { unfold ovf. rewrite V. destruct (f_res f) eqn:R; try reflexivity. auto. }
        rewrite O1. cbn [orb].
        destruct (collect (map eff fs) (map field_out fs)) as [bs|e]; [|exact IH].
        destruct IH as (A & B & C & D). split; [exact A|]. split; [cbn; lia|]. split.
        -- intros [|i] r b' E1 E2 N; cbn in E1, E2; [|eapply C; eauto].
           injection E1 as <-. injection E2 as <-. rewrite R'. exact L.
        -- intros start [[Hc0|Hc0] Hc]; [congruence|]. cbn [wanted]. rewrite EI, R'. cbn [app mk_access].
           rewrite (D _ Hc). unfold writes. cbn [flat_map]. rewrite V, Hc0.
           rewrite R' in NI. destruct (f_res f) eqn:R; try congruence; cbn [app]; do 2 f_equal; exact Q.
Qed.

(** Running the fields of a command. *)
Lemma fields_run : forall fs w start acts, fields_ok fs -> consecutive start fs ->
  length acts = length fs ->
  (forall i f act, nth_error fs i = Some f -> nth_error acts i = Some act -> eff f <> IGNORE ->
     act = write_opt (f_val f) (usc (f_unit f)) (f_res f)) ->
  (length fs <= 127)%nat -> 0 <= start <= 2 ^ 34 ->
  (overflows fs /\
   run_fields (combiner_init w 0 start (map eff fs)) acts = Raise OverflowError) \/
  (~ overflows fs /\
   exists c bs, run_fields (combiner_init w 0 start (map eff fs)) acts = Ok c /\
     c_writer c = w ++ enc KWrite None start (map eff fs) bs /\
     length bs = length fs /\
     (forall i r b, nth_error (map eff fs) i = Some r -> nth_error bs i = Some b ->
         r <> IGNORE -> length b = spec_width r) /\
     kframe KWrite (enc KWrite None start (map eff fs) bs) (writes fs) 0).
Proof.
  intros fs w start acts OK CO LA HA LF HS.
  assert (RO : runs_ok None (map eff fs)) by (apply runs_ok_short; rewrite map_length; exact LF).
  pose proof (run_fields_spec (map eff fs) acts (map field_out fs) KWrite
                (combiner_init w 0 start (map eff fs)) []) as R.
  cbn [c_writer c_base c_start c_resolutions c_reply_size c_offset c_current combiner_init length] in R.
  specialize (R ltac:(discriminate) eq_refl eq_refl eq_refl ltac:(lia)).
  rewrite !map_length in R. specialize (R LA eq_refl).
  assert (DO : forall i r act o, nth_error (map eff fs) i = Some r -> nth_error acts i = Some act ->
     nth_error (map field_out fs) i = Some o -> r <> IGNORE -> does act o).
  { intros i r act o E1 E2 E3 N. rewrite nth_error_map in E1, E3.
    destruct (nth_error fs i) as [f|] eqn:EF; [|discriminate]. cbn in E1, E3.
    injection E1 as <-. injection E3 as <-. rewrite (HA i f act EF E2 N).
    apply field_out_does. exact N. }
  specialize (R DO RO). rewrite Z.add_0_r in R.
  pose proof (collect_fields fs OK) as CF.
  destruct (collect (map eff fs) (map field_out fs)) as [bs|e].
  - right. destruct CF as (A & B & C & D). split; [rewrite <- ovf_spec, A; discriminate|].
    destruct R as (_ & c & E & W & _). exists c, bs. split; [exact E|]. split; [exact W|].
    split; [exact B|]. split; [exact C|].
    rewrite <- (D start CO).
    apply (enc_frame (length (map eff fs)) (map eff fs) bs KWrite None start); auto.
    + rewrite map_length. exact B.
    + destruct (map eff fs); cbn; auto.
    + lia.
    + rewrite map_length. lia.
  - left. destruct CF as [-> A]. split; [apply ovf_spec; exact A|]. exact R.
Qed.

(** A single register, int8 or other, written by hand. *)
Lemma one_write : forall r start b vu, r <> IGNORE -> is_varuint vu start ->
  length b = spec_width r ->
  frame ((4 * spec_code r + 1) :: vu ++ b) [AWrite start r (spec_value r b)] 0.
Proof.
  intros r start b vu Hr Hv HL.
  pose proof (fr_sub KWrite r 1 start vu [b] [] [] 0 Hr ltac:(lia) Hv eq_refl
                ltac:(constructor; [exact HL|constructor]) fr_nil) as F.
  cbn [concat accesses mk_access hdr base_of Z.leb] in F. rewrite !app_nil_r in F.
  exact F.
Qed.

Definition mode_bytes (m : Z) : list Z := [1; 0; m].

Lemma write_mode_ok : forall m, 0 <= m <= 127 -> write_mode [] m = Ok (mode_bytes m).
Proof.
  intros m Hm. unfold write_mode. change (write_int8 [] (Z.lor WRITE_INT8 1)) with (@Ok writer [1]).
  cbn [bind]. change (write_int8 [1] R_MODE) with (@Ok writer [1; 0]). cbn [bind].
  rewrite write_int8_ok by lia. reflexivity.
Qed.

Lemma mode_frame : forall m, 0 <= m <= 127 ->
  frame (mode_bytes m) [AWrite 0 INT8 (PInt m)] 0.
Proof.
  intros m Hm. pose proof (one_write INT8 0 [m] [0] ltac:(discriminate) (is_varuint_byte 0 ltac:(lia)) eq_refl) as F.
  cbn [spec_value le_value app] in F. unfold spec_signed in F.
  replace (m + 256 * 0) with m in F by lia.
  replace (m <? 2 ^ (8 - 1)) with true in F by lia. exact F.
Qed.
