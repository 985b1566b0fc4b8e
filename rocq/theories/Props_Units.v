(** C16: the controller hears the value the caller gave. *)
From Coq Require Import ZArith List Bool Lia Lra Reals.
From Coq Require Import Floats.SpecFloat.
From Coq Require Import ZifyBool ZifyNat.
From Flocq Require Import Core.
From Flocq Require Import Relative.
From Verif Require Import PyBase PyFloat Mux_Model Protocol_Spec Fw_Spec Zbits Mux_Proofs
  Float_Proofs Quant_Proofs Props_Quant
  Parser_Proofs Ctrl_Model Combiner_Proofs Query_Proofs Props_Query Command_Spec Command_Proofs
  Props_Command.
Ltac Zify.zify_post_hook ::= Z.div_mod_to_equations.
Import ListNotations.
Open Scope Z_scope.

(** One count of a unit, exactly. *)
Definition count (u : unit_) (r : resolution) : R :=
  (IZR (fst (unit_ratio u r)) / IZR (snd (unit_ratio u r)))%R.

(** What the controller makes of the value [v] written to [reg] at
    resolution [r] (fw/moteus_controller.cc:86-128 and 556-800): counts
    times the unit of the register; nothing ("not a number") for the most
    negative integer.  Angles (MUnitPi) are in multiples of pi.
    Simplification: the firmware's own binary32 rounding of the product is
    left out. *)
Definition heard (reg : Z) (r : resolution) (v : pyval) : option R :=
  match lookup fw_command_table reg with
  | Some (MUnit u) | Some (MUnitPi u) =>
      match v with
      | PInt z =>
          if z =? - 2 ^ (8 * Z.of_nat (spec_width r) - 1) then None
          else Some (IZR z * count u r)%R
      | PFloat y => if isfinite y then Some (F2 y) else None
      end
  | _ => None
  end.

Lemma count_pos : forall u r, (0 < count u r)%R.
Proof. intros u r. unfold count. destruct u, r; cbn; lra. Qed.

Lemma unit_float_close : forall u r, float_ok (unit_float u r) /\ (0 < F2 (unit_float u r))%R /\
  (Rabs (F2 (unit_float u r) - count u r) <= bpow radix2 (-53) * count u r)%R.
Proof.
  intros u r. pose proof (count_pos u r) as CP.
  assert (B : 1 <= fst (unit_ratio u r) <= 10 /\ 1 <= snd (unit_ratio u r) <= 2147483647)
    by (destruct u, r; cbn; lia).
  unfold unit_float, count in *. set (n := fst (unit_ratio u r)) in *. set (d := snd (unit_ratio u r)) in *.
  destruct (float_of_Z_correct n ltac:(lia)) as [Fn Vn].
  destruct (float_of_Z_correct d ltac:(lia)) as [Fd Vd].
  assert (D1 : (1 <= IZR d <= 2147483647)%R) by (split; apply IZR_le; lia).
  assert (N1 : (1 <= IZR n <= 10)%R) by (split; apply IZR_le; lia).
  pose proof (fdiv_correct (float_of_Z n) (float_of_Z d) (float_of_Z_ok n) (float_of_Z_ok d) Fn
                ltac:(rewrite Vd; lra)) as C.
  rewrite Vn, Vd in C. set (q := (IZR n / IZR d)%R) in *.
  assert (I1 : (/ 2147483647 <= / IZR d <= 1)%R).
  { split; [apply Rinv_le; lra|]. rewrite <- Rinv_1. apply Rinv_le; lra. }
  assert (Q : (bpow radix2 (-31) <= q <= bpow radix2 4)%R).
  { unfold q, Rdiv. split.
    - apply Rle_trans with (/ 2147483647)%R; [cbn; lra|]. nra.
    - apply Rle_trans with 10%R; [nra|cbn; lra]. }
  assert (AQ : Rabs q = q) by (apply Rabs_pos_eq; lra).
  assert (ML : (bpow radix2 (-1022) <= bpow radix2 (-31))%R) by (apply bpow_le; lia).
  pose proof (rnd64_rel q ltac:(rewrite AQ; lra)) as E. rewrite AQ in E.
  assert (S : (bpow radix2 (-53) <= / 2)%R).
  { change (/ 2)%R with (bpow radix2 (-1)). apply bpow_le. lia. }
  assert (P53 := bpow_gt_0 radix2 (-53)).
  apply Rabs_le_inv in E.
  assert (POS : (0 < rnd64 q)%R) by nra.
  assert (UB : (rnd64 q <= bpow radix2 5)%R).
  { apply Rle_trans with (2 * bpow radix2 4)%R; [nra|cbn; lra]. }
  rewrite Rlt_bool_true in C.
  2:{ rewrite Rabs_pos_eq by lra. eapply Rle_lt_trans; [exact UB|]. apply bpow_lt. reflexivity. }
  destruct C as (_ & C & _). split; [apply fdiv_ok; apply float_of_Z_ok|].
  rewrite C. split; [exact POS|]. apply Rabs_le. exact E.
Qed.

(** Counts times the unit, against the value that was quantised. *)
Lemma quantise_heard : forall x r u, int_res r -> float_ok x -> isfinite x = true ->
  (Rabs (F2 x) <= IZR (spec_max r) * count u r)%R ->
  exists z, spec_quantise x r (unit_float u r) = PInt z /\
    z <> - 2 ^ (8 * Z.of_nat (spec_width r) - 1) /\
    (Rabs (IZR z * count u r - F2 x) < count u r * (1 + bpow radix2 (-20)))%R.
Proof.
  intros x r u Hr Hx Fx HR. pose proof (count_pos u r) as CP.
  destruct (unit_float_close u r) as (Os & Ps & E). apply Rabs_le_inv in E.
  destruct (int_max_spec r Hr) as [_ BM].
  destruct (quantise_real x r _ Hr Hx Fx Os Ps) as (z & EZ & Q1 & Q2 & Q3).
  exists z. split; [exact EZ|].
  set (s := F2 (unit_float u r)) in *. set (c := count u r) in *.
  set (q := (F2 x / s)%R) in *.
  assert (Xq : F2 x = (q * s)%R) by (unfold q; field; lra).
  assert (S53 := bpow_gt_0 radix2 (-53)).
  assert (P22 : bpow radix2 (-22) = (bpow radix2 31 * bpow radix2 (-53))%R)
    by (rewrite <- bpow_plus; reflexivity).
  assert (P20 : bpow radix2 (-20) = (4 * bpow radix2 (-22))%R).
  { change 4%R with (bpow radix2 2). rewrite <- bpow_plus. reflexivity. }
  assert (P22' : (bpow radix2 (-22) <= / 2)%R).
  { change (/ 2)%R with (bpow radix2 (-1)). apply bpow_le. lia. }
  assert (S22 := bpow_gt_0 radix2 (-22)).
  assert (S53' : (bpow radix2 (-53) <= bpow radix2 (-22))%R) by (apply bpow_le; lia).
  assert (M31 : (0 <= IZR (spec_max r) <= bpow radix2 31)%R).
  { split; [apply IZR_le; lia|]. apply bpow_31. lia. }
  set (M := IZR (spec_max r)) in *.
  assert (XB := Rabs_le_inv _ _ HR).
  assert (MIN : - spec_max r - 1 = - 2 ^ (8 * Z.of_nat (spec_width r) - 1)).
  { destruct Hr as [->|[->| ->]]; reflexivity. }
  destruct (Rle_or_lt (Rabs q) M) as [In|Out].
  - specialize (Q1 In).
    assert (HQ31 : (Rabs q <= bpow radix2 31)%R) by lra.
    assert (E1 : (Rabs (IZR z - q) < 1 + bpow radix2 (-22))%R).
    { rewrite Q1. pose proof (Ztrunc_dist (rnd64 q)) as T.
      pose proof (rnd64_error q 31 ltac:(lia) HQ31) as E'. change (31 - 53) with (-22) in E'.
      replace (IZR (Ztrunc (rnd64 q)) - q)%R
        with ((IZR (Ztrunc (rnd64 q)) - rnd64 q) + (rnd64 q - q))%R by ring.
      eapply Rle_lt_trans; [apply Rabs_triang|]. lra. }
    assert (ZB : - spec_max r <= z <= spec_max r).
    { unfold spec_quantise in EZ. rewrite Fx in EZ. destruct Hr as [->|[->| ->]]; cbn [spec_max] in *;
        destruct (fdiv x _) as [|[]| |]; injection EZ as <-; lia. }
    split; [lia|].
    assert (ZM : (Rabs (IZR z) <= bpow radix2 31)%R).
    { rewrite <- abs_IZR. apply bpow_31. lia. }
    replace (IZR z * c - F2 x)%R with (IZR z * (c - s) + (IZR z - q) * s)%R by (rewrite Xq; ring).
    eapply Rle_lt_trans; [apply Rabs_triang|]. rewrite !Rabs_mult, (Rabs_pos_eq s) by lra.
    assert (A1 : (Rabs (c - s) <= bpow radix2 (-53) * c)%R) by (apply Rabs_le; lra).
    assert (A2 : (Rabs (IZR z) * Rabs (c - s) <= bpow radix2 (-22) * c)%R).
    { rewrite P22, Rmult_assoc. apply Rmult_le_compat; auto using Rabs_pos. }
    assert (A3 : (Rabs (IZR z - q) * s <= (1 + bpow radix2 (-22)) * s)%R).
    { apply Rmult_le_compat_r; lra. }
    assert (A4 : (s <= c + bpow radix2 (-22) * c)%R) by nra.
    rewrite P20. nra.
  - assert (AD : (Rabs (c - s) <= bpow radix2 (-53) * c)%R) by (apply Rabs_le; lra).
    assert (MD : (M * Rabs (c - s) <= bpow radix2 (-22) * c)%R).
    { rewrite P22, Rmult_assoc. apply Rmult_le_compat; auto using Rabs_pos; lra. }
    assert (MD1 : (M * (c - s) <= bpow radix2 (-22) * c)%R).
    { eapply Rle_trans; [|exact MD]. apply Rmult_le_compat_l; [lra|]. apply Rle_abs. }
    destruct (Rle_or_lt 0 q) as [SP|SN].
    + rewrite Rabs_pos_eq in Out by exact SP. specialize (Q2 ltac:(lra)). subst z. split; [lia|].
      fold M. assert (M * s <= F2 x)%R by (rewrite Xq; nra).
      rewrite P20. apply Rabs_def1; nra.
    + rewrite Rabs_left in Out by exact SN. specialize (Q3 ltac:(lra)). subst z. split; [lia|].
      rewrite opp_IZR. fold M. assert (F2 x <= - (M * s))%R by (rewrite Xq; nra).
      rewrite P20. apply Rabs_def1; nra.
Qed.

Lemma f32_heard : forall x, isfinite x = true -> too_large x = false ->
  isfinite (to_f32 x) = true /\
  (Rabs (F2 (to_f32 x) - F2 x) <= bpow radix2 (-24) * Rabs (F2 x) + bpow radix2 (-150))%R.
Proof.
  intros x F T. pose proof (to_f32_correct x F) as C.
  destruct (Rlt_bool_spec (Rabs (rnd32 (F2 x))) (bpow radix2 emax32)) as [L|L].
  - destruct C as (C1 & C2 & _). split; [exact C2|]. rewrite C1.
    destruct (error_N_FLT radix2 (-149) 24 ltac:(reflexivity) (fun t => negb (Z.even t)) (F2 x))
      as (eps & eta & H1 & H2 & _ & E).
    change (rnd32 (F2 x)) with (round radix2 (FLT_exp (-149) 24) (Znearest (fun t => negb (Z.even t))) (F2 x)).
    rewrite E. replace (F2 x * (1 + eps) + eta - F2 x)%R with (eps * F2 x + eta)%R by ring.
    eapply Rle_trans; [apply Rabs_triang|]. rewrite Rabs_mult.
    assert (P1 : (/ 2 * bpow radix2 (- (24) + 1) = bpow radix2 (-24))%R).
    { change (/ 2)%R with (bpow radix2 (-1)). rewrite <- bpow_plus. reflexivity. }
    assert (P2 : (/ 2 * bpow radix2 (-149) = bpow radix2 (-150))%R).
    { change (/ 2)%R with (bpow radix2 (-1)). rewrite <- bpow_plus. reflexivity. }
    rewrite P1 in H1. rewrite P2 in H2.
    apply Rplus_le_compat; [|exact H2]. apply Rmult_le_compat_r; [apply Rabs_pos|exact H1].
  - exfalso. unfold too_large in T. rewrite C in T. destruct x; try discriminate.
Qed.

(** ** The claim

    The value of field [f] arrives: in range of an integer resolution, to
    within one count (a count of the register as the controller decodes
    it); as a float, to within binary32 rounding. *)
Definition arrives (f : field) (v : pyval) : Prop :=
  forall x u, f_val f = Some x -> isfinite x = true ->
  (lookup fw_command_table (f_reg f) = Some (MUnit u) \/
   lookup fw_command_table (f_reg f) = Some (MUnitPi u)) ->
  (f_res f = F32 \/ (Rabs (F2 x) <= IZR (spec_max (f_res f)) * count u (f_res f))%R) ->
  exists y, heard (f_reg f) (f_res f) v = Some y /\
    (Rabs (y - F2 x) <= match f_res f with
                        | F32 => bpow radix2 (-24) * Rabs (F2 x) + bpow radix2 (-150)
                        | r => count u r * (1 + bpow radix2 (-20))
                        end)%R.

Definition unit_agrees (f : field) : Prop :=
  lookup fw_command_table (f_reg f) = Some (MUnit (f_unit f)) \/
  lookup fw_command_table (f_reg f) = Some (MUnitPi (f_unit f)).

Lemma field_arrives : forall f x, unit_agrees f -> f_val f = Some x -> float_ok x ->
  f_res f <> IGNORE -> (f_res f = F32 -> too_large x = false) ->
  arrives f (spec_quantise x (f_res f) (unit_float (f_unit f) (f_res f))).
Proof.
  intros f x UA V OK NI NT x' u V' Fx LK RG.
  assert (x' = x) by congruence. subst x'.
  assert (u = f_unit f) by (destruct UA, LK; congruence). subst u.
  assert (HD : forall v, heard (f_reg f) (f_res f) v = match v with
      | PInt z =>
          if z =? - 2 ^ (8 * Z.of_nat (spec_width (f_res f)) - 1) then None
          else Some (IZR z * count (f_unit f) (f_res f))%R
      | PFloat y => if isfinite y then Some (F2 y) else None
      end).
  { intro v. unfold heard. destruct UA as [-> | ->]; reflexivity. }
  rewrite HD. clear HD LK UA V V'.
  destruct (res_eqb (f_res f) F32) eqn:RF.
  - apply res_eqb_eq in RF. rewrite RF in *. cbn [spec_quantise].
    destruct (f32_heard x Fx (NT eq_refl)) as [A B]. rewrite A. eauto.
  - assert (IR : int_res (f_res f)).
    { unfold int_res. destruct (f_res f); auto; try congruence. discriminate. }
    destruct RG as [RG|RG]; [rewrite RG in RF; discriminate|].
    destruct (quantise_heard x (f_res f) (f_unit f) IR OK Fx RG) as (z & EZ & NZ & B).
    rewrite EZ. rewrite (proj2 (Z.eqb_neq _ _)) by exact NZ. eexists. split; [reflexivity|].
    apply Rlt_le. destruct (f_res f); try exact B; try discriminate; congruence.
Qed.

(** Which fields: all but the integral limit scale of make_position. *)
Definition command_fields (fs : list field) : Prop :=
  (exists a p, fs = position_fields a p) \/ (exists a p, fs = within_fields a p) \/
  (exists t v tr p, fs = vfoc_fields t v tr p) \/ (exists d q p, fs = current_fields d q p) \/
  (exists a rs, (length a <= 10)%nat /\ fs = pwm_fields 0x076 a rs) \/
  (exists x, fs = [mkf 0x130 UPosition x F32] \/ fs = [mkf 0x131 UPosition x F32]).

Lemma pwm_agrees : forall a rs k f, (length a <= 10 - k)%nat -> (k <= 10)%nat ->
  In f (pwm_fields (0x076 + Z.of_nat k) a rs) -> unit_agrees f.
Proof.
  induction a as [|v a IH]; intros [|r rs] k f L K I; cbn [pwm_fields In] in I; try contradiction.
  cbn [length] in L. destruct I as [<-|I].
  - left. cbn [f_reg f_unit mkf].
    do 10 (destruct k as [|k]; [reflexivity|]). lia.
  - apply (IH rs (S k) f); try lia.
    replace (118 + Z.of_nat (S k)) with (118 + Z.of_nat k + 1) by lia. exact I.
Qed.

Theorem C16_command_value_arrives : forall fs f x, command_fields fs -> In f fs ->
  f_reg f <> 0x2b -> f_val f = Some x -> float_ok x -> f_res f <> IGNORE ->
  ~ overflows fs ->
  exists v, In (AWrite (f_reg f) (f_res f) v) (writes fs) /\ arrives f v /\
    exists u, lookup fw_command_table (f_reg f) = Some (MUnit u) \/
              lookup fw_command_table (f_reg f) = Some (MUnitPi u).
Proof.
  intros fs f x CF I NR V OK NI NO.
  assert (UA : unit_agrees f).
  { destruct CF as [(a & p & ->)|[(a & p & ->)|[(t & v & tr & p & ->)|[(d & q & p & ->)|[(a & rs & L & ->)|(y & [-> | ->])]]]]].
    - unfold position_fields in I. cbn [In] in I. unfold unit_agrees.
      repeat (destruct I as [<-|I]; [cbn [f_reg f_unit mkf] in *; (left; reflexivity) || congruence|]).
      contradiction.
    - unfold within_fields in I. cbn [In] in I. unfold unit_agrees.
      repeat (destruct I as [<-|I]; [left; reflexivity|]). contradiction.
    - unfold vfoc_fields in I. cbn [In] in I. unfold unit_agrees.
      repeat (destruct I as [<-|I]; [(left; reflexivity) || (right; reflexivity)|]). contradiction.
    - unfold current_fields in I. cbn [In] in I. unfold unit_agrees.
      repeat (destruct I as [<-|I]; [left; reflexivity|]). contradiction.
    - apply (pwm_agrees a rs 0 f); [lia|lia|exact I].
    - destruct I as [<-|[]]. left. reflexivity.
    - destruct I as [<-|[]]. left. reflexivity. }
  exists (spec_quantise x (f_res f) (unit_float (f_unit f) (f_res f))). split; [|split].
  - unfold writes. apply in_flat_map. exists f. split; [exact I|]. rewrite V.
    destruct (f_res f) eqn:R; try congruence; left; reflexivity.
  - apply field_arrives; auto. intro RF.
    destruct (too_large x) eqn:T; [|reflexivity]. exfalso. apply NO. exists f, x. auto.
  - exists (f_unit f). exact UA.
Qed.

(** A "not a number" argument is heard as such. *)
Theorem C16_nan_arrives : forall reg r u, r <> IGNORE ->
  heard reg r (spec_quantise fnan r (unit_float u r)) = None.
Proof.
  intros reg r u H. unfold heard. destruct (lookup fw_command_table reg) as [[]|]; [reflexivity| | |reflexivity];
    destruct r; try congruence; reflexivity.
Qed.

(** ilimit_scale: encoded as a voltage, heard as a fraction: at 16 bits a
    scale of 1 arrives as less than a thousandth. *)
Definition ex_ilimit : position_args := {|
  a_position := None; a_velocity := None; a_feedforward_torque := None;
  a_kp_scale := None; a_kd_scale := None; a_maximum_torque := None;
  a_stop_position := None; a_watchdog_timeout := None; a_velocity_limit := None;
  a_accel_limit := None; a_fixed_voltage_override := None; a_ilimit_scale := Some (flit 1 0) |}.

Definition ex_ct_ilimit : controller :=
  match make_controller 3 default_query_resolution
    {| pr_position := F32; pr_velocity := F32; pr_feedforward_torque := F32; pr_kp_scale := F32;
       pr_kd_scale := F32; pr_maximum_torque := F32; pr_stop_position := F32;
       pr_watchdog_timeout := F32; pr_velocity_limit := F32; pr_accel_limit := F32;
       pr_fixed_voltage_override := F32; pr_ilimit_scale := INT16 |}
    default_vfoc_resolution default_current_resolution default_pwm_resolution 0 with
  | Ok ct => ct
  | Raise _ => ex_controller
  end.

Theorem C16_ilimit_scale_refuted :
  exists cmd v y, make_position ex_ct_ilimit ex_ilimit false None = Ok cmd /\
    spec_decode (cmd_data cmd) = Some [AWrite 0 INT8 (PInt 10); AWrite 0x2b INT16 v] /\
    heard 0x2b INT16 v = Some y /\ (y < / 1000)%R.
Proof.
  eexists. exists (PInt 10), (IZR 10 * count UPwm INT16)%R.
  split; [vm_compute; reflexivity|]. split; [vm_compute; reflexivity|].
  split; [reflexivity|]. unfold count. cbn. lra.
Qed.

(** make_set_trim sends 32 bits; the controller keeps the low 8
    (fw/moteus_controller.cc:129-133, 705-708). *)
Definition heard_int8 (v : pyval) : option Z :=
  match v with PInt z => Some (spec_signed 8 (z mod 256)) | PFloat _ => None end.

Theorem C16_set_trim_value : forall ct trim, - 2 ^ 31 <= trim < 2 ^ 31 ->
  exists cmd v, make_set_trim ct trim = Ok cmd /\
    spec_decode (cmd_data cmd) = Some [AWrite 0x71 INT32 v] /\
    (heard_int8 v = Some trim <-> -128 <= trim <= 127).
Proof.
  intros ct trim H. destruct (proj1 (C14_make_set_trim ct trim) H) as (cmd & E & _ & D).
  exists cmd, (PInt trim). split; [exact E|]. split; [exact D|].
  unfold heard_int8, spec_signed. change (2 ^ (8 - 1)) with 128. change (2 ^ 8) with 256.
  split.
  - intro X. injection X as X. destruct (trim mod 256 <? 128) eqn:L; lia.
  - intro B. f_equal. destruct (trim mod 256 <? 128) eqn:L; lia.
Qed.

Example C16_example :
  let fs := position_fields ex_position (ct_position ex_ct) in
  command_fields fs /\ In (mkf 0x20 UPosition (Some (flit 15 1)) F32) fs /\ ~ overflows fs.
Proof.
  cbv zeta. split; [left; eauto|]. split; [left; reflexivity|].
  intro O. apply ovf_spec in O. vm_compute in O. discriminate.
Qed.

Print Assumptions C16_command_value_arrives.
Print Assumptions C16_nan_arrives.
Print Assumptions C16_ilimit_scale_refuted.
Print Assumptions C16_set_trim_value.
