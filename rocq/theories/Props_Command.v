(** C14, C15, C18: what the command frames do. *)
From Coq Require Import ZArith List Bool Lia Sorted.
From Coq Require Import Floats.SpecFloat Reals.
From Coq Require Import ZifyBool ZifyNat.
From Flocq Require Import Core.
From Verif Require Import PyBase PyFloat Mux_Model Protocol_Spec Fw_Spec Zbits Mux_Proofs
  Float_Proofs Quant_Proofs Props_Quant
  Parser_Proofs Ctrl_Model Combiner_Proofs Query_Proofs Props_Query Command_Spec Command_Proofs.
Ltac Zify.zify_post_hook ::= Z.div_mod_to_equations.
Import ListNotations.
Open Scope Z_scope.

(** A query that can be made at all (see C11). *)
Definition query_ok (q : query_resolution) : Prop :=
  registers_ok (q_extra q) /\ ~ long_run (q_extra q).

(** [a] reads the registers of q. *)
Definition asks (q : query_resolution) (a : list access) : Prop :=
  exists L, StronglySorted (fun x y => fst x < fst y) L /\
    (forall k r, In (k, r) L <-> In (k, r) (q_extra q) /\ r <> IGNORE) /\
    a = map (fun p => ARead (fst p) (snd p))
          (filter (fun p => negb (res_eqb (snd p) IGNORE)) (requested q) ++ L).

(** What the arguments query and query_override append to a command. *)
Definition query_tail (ct : controller) (query : bool) (qo : option query_resolution)
  (a : list access) : Prop :=
  match qo with
  | Some q => asks q a
  | None => if query then asks (ct_query ct) a else a = []
  end.

Definition constructed (ct : controller) : Prop :=
  exists id q p v cu pw prefix, query_ok q /\ make_controller id q p v cu pw prefix = Ok ct.

Definition override_ok (qo : option query_resolution) : Prop :=
  match qo with Some q => query_ok q | None => True end.

Lemma constructed_query : forall ct, constructed ct ->
  query_ok (ct_query ct) /\
  make_query_data (ct_query ct) = Ok (ct_query_data ct, ct_query_reply_size ct).
Proof.
  intros ct (id & q & p & v & cu & pw & prefix & Q & E). unfold make_controller in E.
  destruct (make_query_data q) as [[d s]|e] eqn:D; [|discriminate].
  cbn [bind] in E. injection E as <-. cbn. auto.
Qed.

Lemma query_data_asks : forall q, query_ok q -> exists data size a,
  make_query_data q = Ok (data, size) /\ kframe KRead data a size /\ asks q a.
Proof.
  intros q [RK NL]. destruct (query_data_ok q RK NL) as (data & size & L & E & F & [S I]).
  exists data, size, (reads (used (requested q) ++ L)). split; [exact E|]. split; [exact F|].
  exists L. auto.
Qed.

(** The end of every make_* method. *)
Lemma finish_ok : forall ct query qo w aw sw, constructed ct -> override_ok qo -> frame w aw sw ->
  exists cmd a, finish ct query qo w = Ok cmd /\ query_tail ct query qo a /\
    spec_decode (cmd_data cmd) = Some (aw ++ a) /\
    cmd_destination cmd = ct_id ct /\
    cmd_reply_required cmd = query || match qo with Some _ => true | None => false end.
Proof.
  intros ct query qo w aw sw C O F. destruct (constructed_query ct C) as [Q E].
  assert (DEC : forall d a s, kframe KRead d a s -> spec_decode (w ++ d) = Some (aw ++ a)).
  { intros d a s K. apply kframe_frame in K. pose proof (frame_app _ _ _ _ _ _ F K) as FF.
    apply (frame_decode _ _ _ FF). lia. }
  unfold finish, format_query. destruct qo as [q|].
  - cbn in O. destruct (query_data_asks q O) as (data & size & a & E' & K & A).
    rewrite E'. cbn [bind fst snd]. eexists _, a. split; [reflexivity|].
    cbn [cmd_data cmd_destination cmd_reply_required make_command].
    split; [exact A|]. split; [eapply DEC; eauto|]. auto.
  - destruct query.
    + destruct (query_data_asks _ Q) as (data & size & a & E' & K & A).
      assert (X : data = ct_query_data ct) by congruence. subst data.
      cbn [bind fst snd]. eexists _, a. split; [reflexivity|].
      cbn [cmd_data cmd_destination cmd_reply_required make_command].
      split; [exact A|]. split; [eapply DEC; eauto|]. auto.
    + cbn [bind fst snd]. eexists _, []. split; [reflexivity|].
      cbn [cmd_data cmd_destination cmd_reply_required make_command].
      split; [reflexivity|]. rewrite app_nil_r. split; [|auto].
      apply (frame_decode _ _ _ F). lia.
Qed.

(** ** C14: one theorem per method

    [performs r m fs ct query qo]: the method raised OverflowError because
    a float does not fit in 32 bits, or it returned a command whose data
    decodes to the writes [m] followed by those of the table [fs] and the
    query, and nothing else. *)
Definition performs (result : res command) (m : list access) (fs : list field)
  (ct : controller) (query : bool) (qo : option query_resolution) : Prop :=
  (overflows fs /\ result = Raise OverflowError) \/
  (~ overflows fs /\ exists cmd a, result = Ok cmd /\ query_tail ct query qo a /\
     spec_decode (cmd_data cmd) = Some (m ++ writes fs ++ a) /\
     cmd_destination cmd = ct_id ct /\
     cmd_reply_required cmd = query || match qo with Some _ => true | None => false end).

Lemma performs_fields : forall ct query qo fs w start acts aw sw,
  constructed ct -> override_ok qo -> frame w aw sw ->
  fields_ok fs -> consecutive start fs -> length acts = length fs ->
  (forall i f act, nth_error fs i = Some f -> nth_error acts i = Some act -> eff f <> IGNORE ->
     act = write_opt (f_val f) (usc (f_unit f)) (f_res f)) ->
  (length fs <= 127)%nat -> 0 <= start <= 2 ^ 34 ->
  performs (bind (run_fields (combiner_init w 0 start (map eff fs)) acts)
                 (fun c => finish ct query qo (c_writer c))) aw fs ct query qo.
Proof.
  intros ct query qo fs w start acts aw sw C O F OK CO LA HA LF HS.
  destruct (fields_run fs w start acts OK CO LA HA LF HS) as [[V E]|(V & c & bs & E & W & _ & _ & K)].
  - left. split; [exact V|]. rewrite E. reflexivity.
  - right. split; [exact V|]. rewrite E. cbn [bind]. rewrite W. apply kframe_frame in K.
    destruct (finish_ok ct query qo _ _ _ C O (frame_app _ _ _ _ _ _ F K))
      as (cmd & a & E1 & E2 & E3 & E4 & E5).
    exists cmd, a. rewrite <- app_assoc in E3. auto.
Qed.

(** Each action of a literal list is the one of its field. *)
Ltac each_action :=
  let i := fresh "i" in let f := fresh "f" in let act := fresh "act" in
  intros i f act E1 E2 N;
  repeat (destruct i as [|i];
    [cbn in E1, E2; injection E1 as <-; injection E2 as <-; try reflexivity|]);
  try (destruct i; discriminate).

Theorem C14_make_position : forall ct a query qo,
  constructed ct -> override_ok qo -> fields_ok (position_fields a (ct_position ct)) ->
  performs (make_position ct a query qo)
    [AWrite 0x000 INT8 (PInt 10)] (position_fields a (ct_position ct)) ct query qo.
Proof.
  intros ct a query qo C O OK. unfold make_position.
  rewrite write_mode_ok by (unfold M_POSITION; lia). cbn [bind].
  apply (performs_fields ct query qo (position_fields a (ct_position ct)) (mode_bytes M_POSITION)
           R_COMMAND_POSITION) with (sw := 0); auto.
  - apply mode_frame. unfold M_POSITION. lia.
  - repeat split; right; reflexivity.
  - each_action.
  - cbn. lia.
  - unfold R_COMMAND_POSITION. lia.
Qed.

Theorem C14_make_stay_within : forall ct a query qo,
  constructed ct -> override_ok qo -> fields_ok (within_fields a (ct_position ct)) ->
  performs (make_stay_within ct a query qo)
    [AWrite 0x000 INT8 (PInt 13)] (within_fields a (ct_position ct)) ct query qo.
Proof.
  intros ct a query qo C O OK. unfold make_stay_within.
  rewrite write_mode_ok by (unfold M_STAY_WITHIN; lia). cbn [bind].
  apply (performs_fields ct query qo (within_fields a (ct_position ct)) (mode_bytes M_STAY_WITHIN)
           R_WITHIN_LOWER) with (sw := 0); auto.
  - apply mode_frame. unfold M_STAY_WITHIN. lia.
  - repeat split; right; reflexivity.
  - each_action.
  - cbn. lia.
  - unfold R_WITHIN_LOWER. lia.
Qed.

Lemma feqb_zero : forall x, feqb x (S754_zero false) = match x with S754_zero _ => true | _ => false end.
Proof. intros [[]|[]| |[] ? ?]; reflexivity. Qed.

Lemma by_pi_ok : forall x, opt_ok x -> opt_ok (by_pi x).
Proof.
  intros [x|] H; [|exact I]. cbn [by_pi opt_ok] in *. apply fdiv_ok; auto. vm_compute. reflexivity.
Qed.
Lemma nonzero_ok : forall x, opt_ok x -> opt_ok (nonzero x).
Proof. intros [[]|] H; exact H || exact I. Qed.

Theorem C14_make_vfoc : forall ct theta voltage theta_rate query qo,
  constructed ct -> override_ok qo ->
  opt_ok theta -> opt_ok voltage -> opt_ok theta_rate ->
  performs (make_vfoc ct theta voltage theta_rate query qo)
    [AWrite 0x000 INT8 (PInt 7)] (vfoc_fields theta voltage theta_rate (ct_vfoc ct)) ct query qo.
Proof.
  intros ct theta voltage theta_rate query qo C O O1 O2 O3. unfold make_vfoc.
  rewrite write_mode_ok by (unfold M_VOLTAGE_FOC; lia). cbn [bind].
  (* the four unused registers in between *)
  set (gap := fun k => mkf k UPwm None INT8).
  set (fs := vfoc_fields theta voltage theta_rate (ct_vfoc ct)).
  set (gs := [mkf 0x18 UPwm (by_pi theta) (vr_theta (ct_vfoc ct));
              mkf 0x19 UVoltage voltage (vr_voltage (ct_vfoc ct));
              gap 0x1a; gap 0x1b; gap 0x1c; gap 0x1d;
              mkf 0x1e UVelocity (by_pi (nonzero theta_rate)) (vr_theta_rate (ct_vfoc ct))]).
  assert (WS : writes fs = writes gs) by reflexivity.
  assert (OS : overflows fs <-> overflows gs).
  { unfold overflows. clear.
    split; intros (f & x & I & V & R & T); exists f, x; repeat split; auto.
    - unfold fs, vfoc_fields in I. unfold gs. cbn [In] in *. tauto.
    - unfold fs, vfoc_fields. unfold gs in I. cbn [In] in *.
      destruct I as [I|[I|[I|[I|[I|[I|[I|[]]]]]]]]; auto; subst f; discriminate. }
  assert (PI : float_ok py_pi) by (vm_compute; reflexivity).
  assert (P : performs
    (bind (run_fields (combiner_init (mode_bytes M_VOLTAGE_FOC) 0 R_VFOC_THETA (map eff gs)) [
      write_opt (option_map (fun t => fdiv t py_pi) theta) W_pwm (vr_theta (ct_vfoc ct));
      write_opt voltage W_voltage (vr_voltage (ct_vfoc ct));
      (fun _ => Raise AssertionError); (fun _ => Raise AssertionError);
      (fun _ => Raise AssertionError); (fun _ => Raise AssertionError);
      write_opt (option_map (fun t => fdiv t py_pi) theta_rate) W_velocity (vr_theta_rate (ct_vfoc ct)) ])
      (fun c => finish ct query qo (c_writer c)))
    [AWrite 0x000 INT8 (PInt 7)] gs ct query qo).
  { apply (performs_fields ct query qo gs (mode_bytes M_VOLTAGE_FOC) R_VFOC_THETA) with (sw := 0); auto.
    - apply mode_frame. unfold M_VOLTAGE_FOC. lia.
    - unfold fields_ok, gs. repeat (apply Forall_cons); try apply Forall_nil;
        cbn [f_val mkf gap]; try exact I; auto using by_pi_ok, nonzero_ok.
    - cbn. repeat split; try (left; reflexivity); right; reflexivity.
    - each_action.
      + cbn in N. congruence.
      + cbn in N. congruence.
      + cbn in N. congruence.
      + cbn in N. congruence.
      + cbn in N |- *. destruct theta_rate as [[]|]; try reflexivity. cbn in N. congruence.
    - cbn. lia.
    - unfold R_VFOC_THETA. lia. }
  assert (RS : map eff gs = [ res_if theta (vr_theta (ct_vfoc ct));
    res_if voltage (vr_voltage (ct_vfoc ct)); IGNORE; IGNORE; IGNORE; IGNORE;
    match theta_rate with
    | Some x => if feqb x (S754_zero false) then IGNORE else vr_theta_rate (ct_vfoc ct)
    | None => IGNORE
    end ]).
  { unfold gs. cbn [map]. unfold eff. cbn [f_val f_res mkf gap].
    f_equal; [destruct theta; reflexivity|]. do 5 f_equal. f_equal.
    destruct theta_rate as [x|]; [|reflexivity]. rewrite feqb_zero. destruct x; reflexivity. }
  rewrite RS in P. unfold performs in *. rewrite WS, OS. exact P.
Qed.

Lemma pwm_fields_map : forall a rs reg,
  map eff (pwm_fields reg a rs) = map (fun vr => res_if (fst vr) (snd vr)) (combine a rs).
Proof. induction a as [|v a IH]; intros [|r rs] reg; try reflexivity. cbn. f_equal. apply IH. Qed.

Lemma pwm_fields_consecutive : forall a rs reg, consecutive reg (pwm_fields reg a rs).
Proof. induction a as [|v a IH]; intros [|r rs] reg; cbn; auto. Qed.

Theorem C14_make_aux_pwm : forall ct a query qo,
  constructed ct -> override_ok qo -> length a = 10%nat -> length (ct_pwm ct) = 10%nat ->
  Forall opt_ok a ->
  performs (make_aux_pwm ct a query qo) [] (pwm_fields 0x076 a (ct_pwm ct)) ct query qo.
Proof.
  intros ct a query qo C O LA LR OK. unfold make_aux_pwm. cbv zeta.
  rewrite <- (pwm_fields_map a (ct_pwm ct) R_AUX1_PWM1).
  assert (L : forall reg, length (pwm_fields reg a (ct_pwm ct)) = length (combine a (ct_pwm ct))).
  { generalize (ct_pwm ct). clear. induction a as [|v a IH]; intros [|r rs] reg; cbn; auto. }
  apply (performs_fields ct query qo (pwm_fields R_AUX1_PWM1 a (ct_pwm ct)) [] R_AUX1_PWM1) with (sw := 0); auto.
  - constructor.
  - unfold fields_ok. generalize (ct_pwm ct) R_AUX1_PWM1. clear - OK.
    induction OK as [|v a H _ IH]; intros [|r rs] reg; cbn; constructor; auto.
  - apply pwm_fields_consecutive.
  - rewrite map_length, L. reflexivity.
  - generalize (ct_pwm ct) R_AUX1_PWM1. clear.
    induction a as [|v a IH]; intros [|r rs] reg [|i] f act E1 E2 N; try discriminate; cbn in E1, E2.
    + injection E1 as <-. injection E2 as <-. reflexivity.
    + eapply IH; eauto.
  - rewrite L, combine_length. lia.
  - unfold R_AUX1_PWM1. lia.
Qed.

(** make_stop, make_brake: the mode and the query. *)
Theorem C14_make_stop_brake : forall ct query qo, constructed ct -> override_ok qo ->
  performs (make_stop ct query qo) [AWrite 0x000 INT8 (PInt 0)] [] ct query qo /\
  performs (make_brake ct query qo) [AWrite 0x000 INT8 (PInt 15)] [] ct query qo.
Proof.
  intros ct query qo C O. unfold make_stop, make_brake.
  rewrite !write_mode_ok by (unfold M_STOPPED, M_BRAKE; lia). cbn [bind].
  split; right; (split; [intros (f & x & [] & _)|]).
  - apply (finish_ok ct query qo _ _ _ C O (mode_frame M_STOPPED ltac:(unfold M_STOPPED; lia))).
  - apply (finish_ok ct query qo _ _ _ C O (mode_frame M_BRAKE ltac:(unfold M_BRAKE; lia))).
Qed.

Lemma write_f32_app : forall w x, write_f32 w x =
  if too_large x then Raise OverflowError
  else Ok (w ++ le_bytes 4 (bits_of_f32 (to_f32 x))).
Proof. intros w x. unfold write_f32, w_write, pack, pack_f32, too_large. destruct (_ && _); reflexivity. Qed.

Lemma set_output_performs : forall ct x query qo reg, constructed ct -> override_ok qo ->
  0 <= reg < 2 ^ 35 ->
  performs (make_set_output ct x query qo reg) [] [mkf reg UPosition (Some x) F32] ct query qo.
Proof.
  intros ct x query qo reg C O Hreg. unfold make_set_output.
  change (write_int8 [] (Z.lor WRITE_F32 1)) with (@Ok writer [0x0d]). cbn [bind].
  rewrite write_vub by lia. cbn [bind]. rewrite write_f32_app.
  destruct (too_large x) eqn:T.
  - left. split; [|reflexivity]. exists (mkf reg UPosition (Some x) F32), x. cbn. auto.
  - right. split.
    { intros (f & y & [<-|[]] & V & _ & T'). cbn in V. congruence. }
    cbn [bind].
    pose proof (one_write F32 reg (le_bytes 4 (bits_of_f32 (to_f32 x))) (vub reg) ltac:(discriminate)
                  (vub_varuint reg Hreg) eq_refl) as F.
    rewrite spec_value_f32 in F. cbn [spec_code] in F. change (4 * 3 + 1) with 13 in F.
    rewrite <- app_assoc. cbn [app].
    exact (finish_ok ct query qo _ _ _ C O F).
Qed.

(** make_set_output_nearest, make_set_output_exact and make_rezero *)
Theorem C14_make_set_output : forall ct x query qo, constructed ct -> override_ok qo ->
  performs (make_set_output_nearest ct x query qo) [] [mkf 0x130 UPosition (Some x) F32] ct query qo /\
  performs (make_set_output_exact ct x query qo) [] [mkf 0x131 UPosition (Some x) F32] ct query qo /\
  performs (make_rezero ct x query qo) [] [mkf 0x130 UPosition (Some x) F32] ct query qo.
Proof.
  intros ct x query qo C O. repeat split; apply set_output_performs; auto; lia.
Qed.

(** make_write_gpio: small integers are sent as they are; larger ones make
    struct.pack fail. *)
Theorem C14_make_write_gpio : forall ct aux1 aux2 query qo, constructed ct -> override_ok qo ->
  let given (reg : Z) (v : option Z) :=
    match v with Some z => [AWrite reg INT8 (PInt z)] | None => [] end in
  let fits (v : option Z) := match v with Some z => -128 <= z <= 127 | None => True end in
  (fits aux1 /\ fits aux2 ->
   exists cmd a, make_write_gpio ct aux1 aux2 query qo = Ok cmd /\ query_tail ct query qo a /\
     spec_decode (cmd_data cmd) = Some (given 0x5c aux1 ++ given 0x5d aux2 ++ a) /\
     cmd_reply_required cmd = query || match qo with Some _ => true | None => false end) /\
  (~ (fits aux1 /\ fits aux2) -> make_write_gpio ct aux1 aux2 query qo = Raise StructError).
Proof.
  intros ct aux1 aux2 query qo C O given fits.
  set (act := fun v : option Z => fun w => match v with Some z => write_int8 w z | None => Raise StructError end).
  set (rs := [res_if aux1 INT8; res_if aux2 INT8]).
  assert (GE : make_write_gpio ct aux1 aux2 query qo =
    bind (run_fields (combiner_init [] 0 R_AUX1_GPIO_COMMAND rs) [act aux1; act aux2])
         (fun c => finish ct query qo (c_writer c))) by reflexivity.
  rewrite GE. clear GE.
  set (out := fun v : option Z => match v with
              | Some z => if (-128 <=? z) && (z <=? 127) then Ok (le_bytes 1 z) else Raise StructError
              | None => @Ok (list Z) [] end).
  assert (DO : forall v r, r = res_if v INT8 -> r <> IGNORE -> does (act v) (out v)).
  { intros v r -> N w. destruct v as [z|]; [|cbn in N; congruence]. cbn [act out].
    unfold write_int8, w_write, pack, pack_int. cbn [int_width].
    change (2 ^ (8 * Z.of_nat 1 - 1)) with 128. replace (-(128)) with (-128) by reflexivity.
    replace (z <? 128) with (z <=? 127) by lia. destruct (_ && _); reflexivity. }
  pose proof (run_fields_spec rs [act aux1; act aux2] [out aux1; out aux2] KWrite
                (combiner_init [] 0 R_AUX1_GPIO_COMMAND rs) []) as R.
  cbn [c_writer c_base c_start c_resolutions c_reply_size c_offset c_current combiner_init length app] in R.
  specialize (R ltac:(discriminate) eq_refl eq_refl eq_refl
                ltac:(unfold R_AUX1_GPIO_COMMAND; lia) eq_refl eq_refl).
  assert (DO2 : forall i r a o, nth_error rs i = Some r -> nth_error [act aux1; act aux2] i = Some a ->
     nth_error [out aux1; out aux2] i = Some o -> r <> IGNORE -> does a o).
  { intros [|[|i]] r a o E1 E2 E3 N; [| |destruct i; discriminate];
      injection E1 as E1; injection E2 as <-; injection E3 as <-; symmetry in E1; eapply DO; eauto. }
  specialize (R DO2 (runs_ok_short rs None ltac:(cbn; lia))).
  rewrite Z.add_0_r in R.
  assert (VAL : forall z, -128 <= z <= 127 -> spec_value INT8 (le_bytes 1 z) = PInt z).
  { intros z Hz. apply (spec_value_int INT8 z); [left; reflexivity|]. unfold in_range. cbn. lia. }
  split.
  - intros [F1 F2].
    set (by_ := fun v : option Z => match v with Some z => le_bytes 1 z | None => [] end).
    assert (CO : collect rs [out aux1; out aux2] = Ok [by_ aux1; by_ aux2]).
    { unfold rs, out, by_. destruct aux1 as [z1|], aux2 as [z2|]; unfold fits in F1, F2; cbn [res_if collect res_eqb];
        repeat match goal with |- context [(-128 <=? ?z) && _] =>
          replace ((-128 <=? z) && (z <=? 127)) with true by lia end; reflexivity. }
    rewrite CO in R. destruct R as (_ & c & E & W & _). rewrite E. cbn [bind].
    assert (K : kframe KWrite (enc KWrite None R_AUX1_GPIO_COMMAND rs [by_ aux1; by_ aux2])
                 (wanted KWrite R_AUX1_GPIO_COMMAND rs [by_ aux1; by_ aux2]) 0).
    { apply (enc_frame 2 rs); auto.
      - unfold rs. cbn. destruct aux1; cbn; auto.
      - apply runs_ok_short. cbn. lia.
      - unfold R_AUX1_GPIO_COMMAND. lia.
      - cbn. unfold R_AUX1_GPIO_COMMAND. lia.
      - intros [|[|i]] r b E1 E2 N; [| |destruct i; discriminate];
          injection E1 as <-; injection E2 as <-; unfold by_;
          [destruct aux1|destruct aux2]; cbn in N |- *; congruence. }
    apply kframe_frame in K.
    destruct (finish_ok ct query qo _ _ _ C O K) as (cmd & a & E1 & E2 & E3 & E4 & E5).
    exists cmd, a. rewrite W. cbn [app]. split; [exact E1|]. split; [exact E2|]. split; [|exact E5].
    rewrite E3. f_equal. rewrite app_assoc. f_equal. unfold rs, by_, given.
    destruct aux1 as [z1|], aux2 as [z2|]; unfold fits in F1, F2;
      cbn [wanted res_if res_eqb mk_access app]; rewrite ?VAL by auto; reflexivity.
  - intro NF.
    assert (CO : collect rs [out aux1; out aux2] = Raise StructError).
    { unfold rs, out. destruct aux1 as [z1|], aux2 as [z2|]; unfold fits in NF; cbn [res_if collect res_eqb];
        repeat match goal with |- context [(-128 <=? ?z) && _] =>
          destruct ((-128 <=? z) && (z <=? 127)) eqn:?; cbn [collect res_eqb] end; try reflexivity; exfalso; apply NF; lia. }
    rewrite CO in R. rewrite R. reflexivity.
Qed.

(** make_set_trim: an int32 write; out of range raises. *)
Theorem C14_make_set_trim : forall ct trim,
  (- 2 ^ 31 <= trim < 2 ^ 31 ->
   exists cmd, make_set_trim ct trim = Ok cmd /\ cmd_reply_required cmd = false /\
     spec_decode (cmd_data cmd) = Some [AWrite 0x71 INT32 (PInt trim)]) /\
  (~ (- 2 ^ 31 <= trim < 2 ^ 31) -> make_set_trim ct trim = Raise StructError).
Proof.
  intros ct trim. unfold make_set_trim.
  change (write_int8 [] (Z.lor WRITE_INT32 1)) with (@Ok writer [9]). cbn [bind].
  change (write_varuint [9] R_CLOCK_TRIM) with (@Ok writer [9; 0x71]). cbn [bind].
  unfold write_int32, w_write, pack, pack_int. cbn [int_width].
  change (2 ^ (8 * Z.of_nat 4 - 1)) with (2 ^ 31). split; intro H.
  - replace ((- 2 ^ 31 <=? trim) && (trim <? 2 ^ 31)) with true by lia. cbn [bind].
    eexists. split; [reflexivity|]. split; [reflexivity|]. cbn [cmd_data make_command].
    pose proof (one_write INT32 0x71 (le_bytes 4 trim) [0x71] ltac:(discriminate)
                  (is_varuint_byte 0x71 ltac:(lia)) eq_refl) as F.
    change (spec_value INT32 (le_bytes 4 trim))
      with (spec_value INT32 (le_bytes (int_width INT32) trim)) in F.
    rewrite (spec_value_int INT32 trim) in F; [|right; right; reflexivity|unfold in_range; cbn; lia].
    exact (proj1 (frame_decode _ _ _ F _ (le_n _))).
  - replace ((- 2 ^ 31 <=? trim) && (trim <? 2 ^ 31)) with false by lia. reflexivity.
Qed.

(** When does a float overflow? *)
Theorem C14_overflow_bound : forall x, float_ok x -> isfinite x = true ->
  too_large x = true <-> (bpow radix2 128 - bpow radix2 103 <= Rabs (F2 x))%R.
Proof.
  intros x H F. unfold too_large.
  replace (negb (isinf x)) with true by (destruct x; try discriminate; reflexivity).
  rewrite andb_true_r. apply f32_overflow_iff. exact F.
Qed.

(** Non-trivial instances *)
Definition ex_ct : controller :=
  match make_controller 3 default_query_resolution default_position_resolution
    default_vfoc_resolution default_current_resolution default_pwm_resolution 0 with
  | Ok ct => ct
  | Raise _ => ex_controller
  end.

Example ex_ct_constructed : constructed ex_ct.
Proof.
  exists 3, default_query_resolution, default_position_resolution, default_vfoc_resolution,
    default_current_resolution, default_pwm_resolution, 0.
  split; [|vm_compute; reflexivity]. split.
  - split; constructor.
  - intros (k & r & _ & H). apply (H 0). lia.
Qed.

Definition ex_position : position_args := {|
  a_position := Some (flit 15 1); a_velocity := None; a_feedforward_torque := Some fnan;
  a_kp_scale := Some (flit 5 1); a_kd_scale := None; a_maximum_torque := Some (flit 1 0);
  a_stop_position := None; a_watchdog_timeout := None; a_velocity_limit := Some (flit 2 0);
  a_accel_limit := None; a_fixed_voltage_override := None; a_ilimit_scale := None |}.

Example C14_example_ok : fields_ok (position_fields ex_position (ct_position ex_ct)).
Proof.
  unfold fields_ok. repeat (apply Forall_cons; [vm_compute; auto|]). apply Forall_nil.
Qed.

Example C14_example :
  match make_position ex_ct ex_position true None with
  | Ok cmd => spec_decode (cmd_data cmd) =
      Some [AWrite 0 INT8 (PInt 10);
            AWrite 0x20 F32 (PFloat (to_f32 (flit 15 1)));
            AWrite 0x22 F32 (PFloat fnan); AWrite 0x23 F32 (PFloat (to_f32 (flit 5 1)));
            AWrite 0x25 F32 (PFloat (to_f32 (flit 1 0)));
            AWrite 0x28 F32 (PFloat (to_f32 (flit 2 0)));
            ARead 0 INT8; ARead 1 F32; ARead 2 F32; ARead 3 F32;
            ARead 0xd INT8; ARead 0xe INT8; ARead 0xf INT8]
  | Raise _ => False
  end.
Proof. vm_compute. reflexivity. Qed.

(** ** C15: make_current *)

(** What the caller asks for: q_A in 0x1c, d_A in 0x1d.  This holds when
    both currents are given with the same resolution. *)
Theorem C15_make_current_same_resolution : forall ct d_A q_A query qo,
  constructed ct -> override_ok qo -> float_ok d_A -> float_ok q_A ->
  cr_d_A (ct_current ct) = cr_q_A (ct_current ct) ->
  performs (make_current ct (Some d_A) (Some q_A) query qo)
    [AWrite 0x000 INT8 (PInt 9)] (current_fields (Some d_A) (Some q_A) (ct_current ct)) ct query qo.
Proof.
  intros ct d_A q_A query qo C O O1 O2 EQ. unfold make_current.
  rewrite write_mode_ok by (unfold M_CURRENT; lia). cbn [bind].
  set (fs := current_fields (Some d_A) (Some q_A) (ct_current ct)).
  assert (RS : [res_if (Some d_A) (cr_d_A (ct_current ct)); res_if (Some q_A) (cr_q_A (ct_current ct))]
               = map eff fs).
  { unfold fs. cbn. rewrite EQ. reflexivity. }
  rewrite RS.
  apply (performs_fields ct query qo fs (mode_bytes M_CURRENT) R_COMMAND_Q_CURRENT) with (sw := 0); auto.
  - apply mode_frame. unfold M_CURRENT. lia.
  - repeat (apply Forall_cons; [cbn; auto|]). apply Forall_nil.
  - repeat split; right; reflexivity.
  - each_action.
  - cbn. lia.
  - unfold R_COMMAND_Q_CURRENT. lia.
Qed.

(** With no current given the command is just the mode. *)
Theorem C15_make_current_none : forall ct query qo, constructed ct -> override_ok qo ->
  performs (make_current ct None None query qo)
    [AWrite 0x000 INT8 (PInt 9)] [] ct query qo.
Proof.
  intros ct query qo C O. unfold make_current.
  rewrite write_mode_ok by (unfold M_CURRENT; lia). cbn [bind res_if].
  assert (E : forall a b, run_fields (combiner_init (mode_bytes M_CURRENT) 0 R_COMMAND_Q_CURRENT [IGNORE; IGNORE]) [a; b]
     = Ok {| c_writer := mode_bytes M_CURRENT; c_base := 0; c_start := R_COMMAND_Q_CURRENT;
             c_resolutions := [IGNORE; IGNORE]; c_reply_size := 0; c_offset := 2;
             c_current := Some IGNORE |}) by reflexivity.
  rewrite E. cbn [bind c_writer]. right. split; [intros (f & x & [] & _)|].
  apply (finish_ok ct query qo _ _ _ C O (mode_frame M_CURRENT ltac:(unfold M_CURRENT; lia))).
Qed.

(** With exactly one current given, the documented use for a pure q or d
    current command, the method fails. *)
Theorem C15_one_current_refuted : forall ct x query qo,
  cr_d_A (ct_current ct) <> IGNORE -> cr_q_A (ct_current ct) <> IGNORE ->
  make_current ct None (Some x) query qo = Raise TypeError /\
  make_current ct (Some x) None query qo = Raise TypeError.
Proof.
  intros ct x query qo N1 N2. unfold make_current.
  rewrite write_mode_ok by (unfold M_CURRENT; lia). cbn [bind res_if].
  split.
  - destruct (cr_d_A (ct_current ct)), (cr_q_A (ct_current ct)); try congruence; reflexivity.
  - destruct (cr_d_A (ct_current ct)), (cr_q_A (ct_current ct)); try congruence; reflexivity.
Qed.

(** With different resolutions the frame is never the one asked for: the
    value of q_A is announced with the resolution of d_A. *)
Lemma decode_second : forall r b l, r <> IGNORE ->
  l = mode_bytes 9 ++ (4 * spec_code r + 1) :: 0x1c :: b ->
  match spec_decode l with
  | None => True
  | Some a => exists v rest, a = AWrite 0 INT8 (PInt 9) :: AWrite 0x1c r v :: rest
  end.
Proof.
  intros r b l Hr ->. unfold spec_decode.
  change (mode_bytes 9 ++ (4 * spec_code r + 1) :: 0x1c :: b)
    with (1 :: 0 :: 9 :: (4 * spec_code r + 1) :: 0x1c :: b).
  cbn [length]. generalize (length b). intro f.
  assert (D1 : forall f l, spec_decode_n (S f) (1 :: 0 :: 9 :: l) =
    match spec_decode_n f l with
    | Some a => Some (AWrite 0 INT8 (PInt 9) :: a)
    | None => None
    end).
  { intros f0 l. cbn [spec_decode_n].
    change (1 =? 80) with false. change ((0 <=? 1) && (1 <? 48)) with true. cbv iota.
    change (1 mod 4 =? 0) with false. cbv iota.
    change (spec_varuint (0 :: 9 :: l)) with (Some (0, 9 :: l)). cbv iota beta.
    change (spec_values _ _ (Z.to_nat (1 mod 4)) 0 (9 :: l))
      with (Some ([AWrite 0 INT8 (PInt 9)], l)). cbv iota beta. reflexivity. }
  rewrite D1. generalize (S (S (S f))). clear f D1. intro f. cbn [spec_decode_n].
  destruct (cmd_facts KWrite r 1 Hr ltac:(lia)) as (C1 & C2 & C3 & C4 & C5).
  cbn [base_of] in *. rewrite Z.add_0_l in *. rewrite C1, C2, C3, C4, C5.
  change (1 =? 0) with false. cbv iota.
  change (spec_varuint (28 :: b)) with (Some (28, b)). cbv iota beta.
  change (Z.to_nat 1) with 1%nat. cbn [spec_values].
  destruct (length b <? spec_width r)%nat; [exact I|].
  destruct (spec_decode_n _ _); [|exact I]. cbn [app]. eauto.
Qed.

Theorem C15_different_resolutions_refuted : forall ct d_A q_A query qo cmd,
  cr_d_A (ct_current ct) <> IGNORE -> cr_q_A (ct_current ct) <> IGNORE ->
  cr_d_A (ct_current ct) <> cr_q_A (ct_current ct) ->
  make_current ct (Some d_A) (Some q_A) query qo = Ok cmd ->
  forall a, spec_decode (cmd_data cmd)
            <> Some (AWrite 0 INT8 (PInt 9) :: writes (current_fields (Some d_A) (Some q_A) (ct_current ct)) ++ a).
Proof.
  intros ct d_A q_A query qo cmd N1 N2 ND E a.
  set (fs := current_fields (Some d_A) (Some q_A) (ct_current ct)).
  set (rd := cr_d_A (ct_current ct)) in *. set (rq := cr_q_A (ct_current ct)) in *.
  unfold make_current in E. rewrite write_mode_ok in E by (unfold M_CURRENT; lia). cbn [bind res_if] in E.
  fold rd rq in E.
  pose proof (run_fields_spec [rd; rq]
    [write_opt (Some q_A) W_current rq; write_opt (Some d_A) W_current rd]
    (map field_out fs) KWrite
    (combiner_init (mode_bytes M_CURRENT) 0 R_COMMAND_Q_CURRENT [rd; rq]) []) as R.
  cbn [c_writer c_base c_start c_resolutions c_reply_size c_offset c_current combiner_init length app] in R.
  specialize (R ltac:(discriminate) eq_refl eq_refl eq_refl
                ltac:(unfold R_COMMAND_Q_CURRENT; lia) eq_refl eq_refl).
  assert (DO : forall i r act o, nth_error [rd; rq] i = Some r ->
     nth_error [write_opt (Some q_A) W_current rq; write_opt (Some d_A) W_current rd] i = Some act ->
     nth_error (map field_out fs) i = Some o -> r <> IGNORE -> does act o).
  { intros [|[|i]] r act o E1 E2 E3 N; [| |destruct i; discriminate];
      injection E1 as E1; injection E2 as <-; injection E3 as <-.
    - apply (field_out_does (mkf 0x1c UCurrent (Some q_A) rq)). exact N2.
    - apply (field_out_does (mkf 0x1d UCurrent (Some d_A) rd)). exact N1. }
  specialize (R DO (runs_ok_short [rd; rq] None ltac:(cbn; lia))).
  destruct (collect [rd; rq] (map field_out fs)) as [bs|e].
  2:{ rewrite R in E. discriminate. }
  destruct R as (LB & c & E' & W & _). rewrite E' in E. cbn [bind] in E.
  rewrite W in E. destruct bs as [|b1 [|b2 [|]]]; try discriminate.
  assert (NE : res_eqb rd rq = false).
  { destruct (res_eqb rd rq) eqn:X; [|reflexivity]. apply res_eqb_eq in X. contradiction. }
  assert (NE' : res_eqb rq rd = false) by (destruct rq, rd; discriminate NE || reflexivity).
  assert (NI : res_eqb rd IGNORE = false) by (destruct rd; congruence || reflexivity).
  rewrite Z.add_0_r in E.
  cbn [enc] in E. rewrite NI in E. cbn [same_as leading] in E. rewrite ?NE, ?NE' in E.
  change (1 + 0) with 1 in E. change (vub R_COMMAND_Q_CURRENT) with [0x1c] in E.
  change (hdr KWrite rd 1) with [4 * spec_code rd + 1] in E.
  assert (D : exists b, cmd_data cmd = mode_bytes 9 ++ (4 * spec_code rd + 1) :: 0x1c :: b).
  { unfold finish, format_query in E.
    destruct qo as [q|].
    - destruct (make_query_data q) as [d|]; [|discriminate]. cbn [bind fst snd] in E.
      injection E as <-. cbn [cmd_data make_command]. rewrite <- !app_assoc. eexists. reflexivity.
    - destruct query; cbn [bind fst snd] in E;
        injection E as <-; cbn [cmd_data make_command]; rewrite <- ?app_assoc; eexists; reflexivity. }
  destruct D as [b D]. pose proof (decode_second rd b _ N1 D) as S. intro X.
  assert (HW : exists v' t, writes fs ++ a = AWrite 0x1c rq v' :: t).
  { unfold fs, current_fields. fold rd rq. unfold writes. cbn [flat_map f_val f_res f_reg f_unit mkf].
    destruct rq; try congruence; cbn [app]; eauto. }
  destruct HW as (v' & t & HW). rewrite HW in X. rewrite X in S.
  destruct S as (v & rest & S). injection S as S1 _ _. congruence.
Qed.

Definition ex_ct_current : controller :=
  match make_controller 3 default_query_resolution default_position_resolution
    default_vfoc_resolution {| cr_d_A := INT16; cr_q_A := F32 |} default_pwm_resolution 0 with
  | Ok ct => ct
  | Raise _ => ex_controller
  end.

(** Sixteen-bit d, float q: the controller reads garbage, or stops early. *)
Example C15_different_resolutions_example :
  exists cmd, make_current ex_ct_current (Some (flit 1 0)) (Some (flit 2 0)) false None = Ok cmd /\
    cmd_data cmd = [1; 0; 9; 5; 0x1c; 0; 0; 0; 0x40; 0x0d; 0x1d; 10; 0] /\
    spec_decode (cmd_data cmd) = None.
Proof. eexists. split; [vm_compute; reflexivity|]. split; vm_compute; reflexivity. Qed.

Example C15_same_resolution_example :
  exists cmd, make_current ex_ct (Some (flit 1 0)) (Some (flit 2 0)) false None = Ok cmd /\
    spec_decode (cmd_data cmd) =
      Some [AWrite 0 INT8 (PInt 9); AWrite 0x1c F32 (PFloat (to_f32 (flit 2 0)));
            AWrite 0x1d F32 (PFloat (to_f32 (flit 1 0)))].
Proof. eexists. split; [vm_compute; reflexivity|]. vm_compute. reflexivity. Qed.

Print Assumptions C14_make_position.
Print Assumptions C14_make_stay_within.
Print Assumptions C14_make_vfoc.
Print Assumptions C14_make_aux_pwm.
Print Assumptions C14_make_stop_brake.
Print Assumptions C14_make_set_output.
Print Assumptions C14_make_write_gpio.
Print Assumptions C14_make_set_trim.
Print Assumptions C14_overflow_bound.
Print Assumptions C15_make_current_same_resolution.
Print Assumptions C15_make_current_none.
Print Assumptions C15_one_current_refuted.
Print Assumptions C15_different_resolutions_refuted.
