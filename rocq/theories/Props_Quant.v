(** C05-C07: mapped values on the wire.  [F2 x] is the real value of the
    float x (Flocq's SF2R). *)
From Coq Require Import ZArith List Bool Lia Reals Lra Psatz.
From Coq Require Import Floats.SpecFloat.
From Coq Require Import ZifyBool ZifyNat.
From Flocq Require Import Core BinarySingleNaN Relative.
From Verif Require Import PyBase PyFloat Mux_Model Protocol_Spec Zbits Mux_Proofs
  Float_Proofs Quant_Proofs Ctrl_Model.
Import ListNotations.
Open Scope Z_scope.

(** A scale the theorems apply to, and that the ones of moteus.py are. *)
Definition good_scale (s : float) : Prop :=
  float_ok s /\ isfinite s = true /\ (bpow radix2 (-1022) <= F2 s <= bpow radix2 900)%R.

Definition api_scales : list scales :=
  [W_position; W_velocity; W_accel; W_torque; W_pwm; W_voltage; W_temperature; W_time;
   W_current; W_power; P_position; P_velocity; P_accel; P_torque; P_pwm; P_voltage;
   P_temperature; P_time; P_current; P_power].

(** A decidable sufficient condition. *)
Definition scale_check (s : float) : bool :=
  match s with
  | S754_finite false m e => valid_binary prec64 emax64 s && (-100 <=? e) && (e <=? 100)
  | _ => false
  end.

Lemma scale_check_good : forall s, scale_check s = true -> good_scale s.
Proof.
  intros [| | |[] m e] H; try discriminate. cbn [scale_check] in H.
  apply andb_true_iff in H. destruct H as [H H3].
  apply andb_true_iff in H. destruct H as [H1 H2].
  split; [exact H1|]. split; [reflexivity|].
  cbn [SF2R cond_Zopp]. unfold F2R. cbn [Fnum Fexp].
  assert (M : 1 <= Zpos m < 2 ^ 53).
  { cbn in H1. unfold bounded in H1. apply andb_true_iff in H1. destruct H1 as [H1 _].
    unfold canonical_mantissa in H1. apply Zeq_bool_eq in H1.
    unfold SpecFloat.fexp, emin, prec64, emax64 in *.
    pose proof (digits_bounds m) as D. split; [lia|].
    apply Z.lt_le_trans with (2 ^ Zpos (digits2_pos m)); [lia|]. apply Z.pow_le_mono_r; lia. }
  split.
  - apply Rle_trans with (1 * bpow radix2 e)%R.
    + rewrite Rmult_1_l. apply bpow_le. lia.
    + apply Rmult_le_compat_r; [apply bpow_ge_0|]. apply IZR_le. lia.
  - apply Rle_trans with (bpow radix2 53 * bpow radix2 e)%R.
    + apply Rmult_le_compat_r; [apply bpow_ge_0|]. rewrite <- IZR_Zpower by lia.
      apply IZR_le. change (radix2 : Z) with 2. lia.
    + rewrite <- bpow_plus. apply bpow_le. lia.
Qed.

Lemma api_scales_good : forall sc r, In sc api_scales -> good_scale (scale_at sc r).
Proof.
  intros sc r H. apply scale_check_good.
  assert (C : forallb (fun sc => forallb (fun r => scale_check (scale_at sc r))
              [INT8; INT16; INT32; F32; IGNORE]) api_scales = true)
    by (vm_compute; reflexivity).
  rewrite forallb_forall in C. specialize (C _ H). rewrite forallb_forall in C.
  apply C. destruct r; cbn; auto 6.
Qed.

Lemma good_pos : forall s, good_scale s -> (0 < F2 s)%R.
Proof.
  intros s (_ & _ & H & _). pose proof (bpow_gt_0 radix2 (-1022)). lra.
Qed.

(** C05. *)
Theorem C05_int_write_never_raises : forall w x sc r,
  r = INT8 \/ r = INT16 \/ r = INT32 ->
  float_ok x -> float_ok (scale_at sc r) -> (0 < F2 (scale_at sc r))%R ->
  exists b z, write_mapped w x sc r = Ok (w ++ b) /\ length b = spec_width r /\
    spec_value r b = PInt z /\
    (isfinite x = true -> - spec_max r <= z <= spec_max r) /\
    (z = - spec_max r - 1 <-> isfinite x = false).
Proof.
  intros w x sc r Hr Hx Hs Ps.
  destruct (write_mapped_int w x sc r Hr Hx Hs Ps) as (b & E & L & _ & V).
  destruct (int_max_spec r Hr) as [_ BM].
  assert (Q : exists z, spec_quantise x r (scale_at sc r) = PInt z /\
    (isfinite x = true -> - spec_max r <= z <= spec_max r) /\
    (isfinite x = false -> z = - spec_max r - 1)).
  { unfold spec_quantise.
    destruct Hr as [->|[->| ->]]; (eexists; split; [reflexivity|]);
      destruct (isfinite x); (split; [intro|intro]); try discriminate; try lia;
      destruct (fdiv x _) as [c|c| |c m e]; try lia; destruct c; lia. }
  destruct Q as (z & QE & Q1 & Q2). exists b, z. rewrite V. split; [auto|]. split; [auto|]. split; [auto|].
  split; [auto|]. split; [|auto]. intro Hz. destruct (isfinite x); auto. specialize (Q1 eq_refl). lia.
Qed.

(** Which value is written: the documented one. *)
Theorem C05_int_write_value : forall w x sc r,
  r = INT8 \/ r = INT16 \/ r = INT32 ->
  float_ok x -> float_ok (scale_at sc r) -> (0 < F2 (scale_at sc r))%R ->
  exists b, write_mapped w x sc r = Ok (w ++ b) /\ length b = spec_width r /\
    spec_value r b = spec_quantise x r (scale_at sc r).
Proof.
  intros w x sc r Hr Hx Hs Ps.
  destruct (write_mapped_int w x sc r Hr Hx Hs Ps) as (b & E & L & _ & V). eauto.
Qed.

Theorem C05_f32_overflow_iff : forall w x sc, float_ok x ->
  (write_mapped w x sc F32 = Raise OverflowError
   <-> isfinite x = true /\ (bpow radix2 128 - bpow radix2 103 <= Rabs (F2 x))%R) /\
  (write_mapped w x sc F32 <> Raise OverflowError ->
   exists b, write_mapped w x sc F32 = Ok (w ++ b) /\ length b = 4%nat /\
     spec_value F32 b = PFloat (to_f32 x)).
Proof.
  intros w x sc Hx. rewrite write_mapped_f32 by auto. split.
  - destruct (isfinite x) eqn:F.
    + pose proof (f32_overflow_iff x F) as O. fold f32_limit.
      assert (N : isinf x = false) by (destruct x; auto; discriminate).
      rewrite N. cbn [negb]. rewrite andb_true_r.
      destruct (isinf (to_f32 x)); split; intro H; auto; try discriminate.
      * split; auto. apply O. reflexivity.
      * exfalso. destruct H as [_ H]. apply O in H. discriminate.
    + split; [|intros [? _]; discriminate].
      destruct x as [s|s| |s m e]; try discriminate.
  - destruct (_ && _); intro H; [congruence|].
    eexists. split; [reflexivity|]. split; [apply le_bytes_length|apply spec_value_f32].
Qed.

(** Every scale triple of the API satisfies the hypotheses. *)
Theorem C05_api_scales_apply : forall sc r, In sc api_scales ->
  float_ok (scale_at sc r) /\ (0 < F2 (scale_at sc r))%R.
Proof.
  intros sc r H. pose proof (api_scales_good sc r H) as G. split; [apply G|].
  apply good_pos. exact G.
Qed.

Example C05_example :
  write_mapped [] (flit 5 1) W_position INT8 = Ok [50]
  /\ write_mapped [] (flit 15 1) W_position INT8 = Ok [127]
  /\ write_mapped [] finf W_position INT8 = Ok [128]
  /\ write_mapped [] (S754_finite false (2 ^ 52) 100) W_position F32 = Raise OverflowError.
Proof. vm_compute. auto. Qed.

(** ** Reading back *)

Lemma read_at : forall p w b post r, p_data p = w ++ b ++ post -> p_offset p = length w ->
  length b = resolution_size r ->
  read p r = Ok (set_offset p (length w + length b), unpack r b).
Proof.
  intros p w b post r Hd Ho HL. unfold read, p_size. rewrite Hd, Ho, <- HL.
  rewrite !app_length. replace (_ <? _)%nat with false by lia.
  do 2 f_equal. unfold slice. rewrite skipn_app, skipn_all, Nat.sub_diag. cbn [skipn app].
  replace (length w + length b - length w)%nat with (length b) by lia.
  rewrite firstn_app, firstn_all, Nat.sub_diag. cbn [firstn]. now rewrite app_nil_r.
Qed.

Lemma unpack_spec_int : forall r b, int_res r -> unpack r b = spec_value r b.
Proof. intros r b [->|[->| ->]]; reflexivity. Qed.

Lemma unpack_spec_f32 : forall b x, spec_value F32 b = PFloat x -> unpack F32 b = PFloat (of_f32 x).
Proof. intros b x H. cbn in *. unfold unpack_f32. congruence. Qed.

(** [delivered w x wsc r rsc d]: the value x, written with scales wsc after
    the bytes w, is read back with scales rsc as d, whatever follows it in
    the frame. *)
Definition delivered (w : list Z) (x : float) (wsc : scales) (r : resolution)
  (rsc : scales) (d : float) : Prop :=
  exists b, write_mapped w x wsc r = Ok (w ++ b) /\
    forall p post, p_data p = w ++ b ++ post -> p_offset p = length w ->
      read_mapped p r rsc = Ok (set_offset p (length w + length b), PFloat d).

Lemma deliver_int : forall w x wsc r rsc, int_res r -> float_ok x ->
  float_ok (scale_at wsc r) -> (0 < F2 (scale_at wsc r))%R ->
  exists z, spec_quantise x r (scale_at wsc r) = PInt z /\
    (isfinite x = true -> - spec_max r <= z <= spec_max r) /\
    (isfinite x = false -> z = - spec_max r - 1) /\
    delivered w x wsc r rsc (pymul (nanify (PInt z) r) (scale_at rsc r)).
Proof.
  intros w x wsc r rsc Hr Hx Hs Ps.
  destruct (write_mapped_int w x wsc r Hr Hx Hs Ps) as (b & E & L & _ & V).
  destruct (C05_int_write_never_raises w x wsc r Hr Hx Hs Ps) as (b' & z & E' & L' & V' & B1 & B2).
  assert (b' = b) by (rewrite E in E'; injection E' as E'; apply app_inv_head in E'; auto).
  subst b'. exists z. rewrite V' in V. repeat split; auto; try tauto; try (apply B1; auto).
  exists b. split; auto. intros p post Hd Ho. unfold read_mapped.
  rewrite (read_at p w b post r) by (auto; destruct Hr as [->|[->| ->]]; auto).
  cbn [bind fst snd]. rewrite unpack_spec_int, V' by auto. reflexivity.
Qed.

Lemma deliver_f32 : forall w x wsc rsc, float_ok x ->
  (isfinite x = true -> (Rabs (F2 x) < bpow radix2 128 - bpow radix2 103)%R) ->
  delivered w x wsc F32 rsc (of_f32 (to_f32 x)).
Proof.
  intros w x wsc rsc Hx Hlim.
  destruct (C05_f32_overflow_iff w x wsc Hx) as [O1 O2].
  destruct O2 as (b & E & L & V).
  { intro H. apply O1 in H. destruct H as [F H]. specialize (Hlim F). lra. }
  exists b. split; auto. intros p post Hd Ho. unfold read_mapped.
  rewrite (read_at p w b post F32) by auto. cbn [bind fst snd].
  rewrite (unpack_spec_f32 _ _ V). cbn [nanify scale_at pymul].
  rewrite fmul_1; auto. apply of_f32_ok, to_f32_ok.
Qed.

(** C06. *)
Theorem C06_nan_survives : forall w wsc r rsc, r <> IGNORE ->
  In wsc api_scales -> delivered w fnan wsc r rsc fnan.
Proof.
  intros w wsc r rsc Hr Hw.
  assert (H : int_res r \/ r = F32) by (unfold int_res; destruct r; auto; congruence).
  destruct H as [H| ->].
  - destruct (C05_api_scales_apply wsc r Hw) as [S1 S2].
    destruct (deliver_int w fnan wsc r rsc H eq_refl S1 S2) as (z & _ & _ & Z & D).
    rewrite (Z eq_refl) in D.
    replace fnan with (pymul (nanify (PInt (- spec_max r - 1)) r) (scale_at rsc r)) at 2; auto.
    destruct H as [->|[->| ->]]; reflexivity.
  - apply (deliver_f32 w fnan wsc rsc eq_refl). discriminate.
Qed.

Theorem C06_infinity : forall w wsc r rsc s, r <> IGNORE -> In wsc api_scales ->
  delivered w (S754_infinity s) wsc r rsc
    (match r with F32 => S754_infinity s | _ => fnan end).
Proof.
  intros w wsc r rsc s Hr Hw.
  assert (H : int_res r \/ r = F32) by (unfold int_res; destruct r; auto; congruence).
  destruct H as [H| ->].
  - destruct (C05_api_scales_apply wsc r Hw) as [S1 S2].
    destruct (deliver_int w (S754_infinity s) wsc r rsc H eq_refl S1 S2) as (z & _ & _ & Z & D).
    rewrite (Z eq_refl) in D.
    destruct H as [->|[->| ->]]; exact D.
  - apply (deliver_f32 w (S754_infinity s) wsc rsc eq_refl). discriminate.
Qed.

(** No finite value becomes NaN (here the reader may use any finite
    scale): whenever a finite value is delivered, it is not as NaN. *)
Theorem C06_finite_never_nan : forall w x wsc r rsc d, r <> IGNORE ->
  In wsc api_scales -> float_ok (scale_at rsc r) -> isfinite (scale_at rsc r) = true ->
  float_ok x -> isfinite x = true ->
  delivered w x wsc r rsc d -> isnan d = false.
Proof.
  intros w x wsc r rsc d Hr Hw Hrs Frs Hx Fx D.
  assert (UNIQ : forall d1 d2, delivered w x wsc r rsc d1 -> delivered w x wsc r rsc d2 -> d1 = d2).
  { intros d1 d2 (b1 & E1 & R1) (b2 & E2 & R2). rewrite E1 in E2. injection E2 as E2.
    apply app_inv_head in E2. subst b2.
    set (p := {| p_data := w ++ b1 ++ []; p_offset := length w; p_remaining := 0;
                 p_register := 0; p_resolution := INT8 |}).
    specialize (R1 p [] eq_refl eq_refl). specialize (R2 p [] eq_refl eq_refl). congruence. }
  assert (H : int_res r \/ r = F32) by (unfold int_res; destruct r; auto; congruence).
  destruct H as [H| ->].
  - destruct (C05_api_scales_apply wsc r Hw) as [S1 S2].
    destruct (deliver_int w x wsc r rsc H Hx S1 S2) as (z & _ & B & _ & D').
    rewrite (UNIQ _ _ D D'). specialize (B Fx).
    assert (N : nanify (PInt z) r = PInt z).
    { unfold nanify. destruct H as [->|[->| ->]]; cbn in B;
        (rewrite (proj2 (Z.eqb_neq _ _)) by lia); reflexivity. }
    rewrite N. cbn [pymul].
    destruct (int_max_spec r H) as [_ BM].
    destruct (float_of_Z_correct z) as [FZ _]; [lia|].
    pose proof (fmul_correct (float_of_Z z) (scale_at rsc r) (float_of_Z_ok z) Hrs FZ Frs) as C.
    destruct (Rlt_bool _ _).
    + destruct C as [C _]. destruct (fmul _ _); auto; discriminate.
    + rewrite C. reflexivity.
  - destruct (Rlt_or_le (Rabs (F2 x)) (bpow radix2 128 - bpow radix2 103)) as [L|L].
    + rewrite (UNIQ _ _ D (deliver_f32 w x wsc rsc Hx (fun _ => L))).
      pose proof (to_f32_correct x Fx) as C.
      assert (NI : isinf (to_f32 x) = false).
      { destruct (isinf (to_f32 x)) eqn:I; auto. apply f32_overflow_iff in I; auto.
        unfold f32_limit in I. lra. }
      destruct (Rlt_bool _ _).
      * destruct C as (_ & C & _).
        destruct (of_f32_correct (to_f32 x) (to_f32_ok x) C) as (_ & _ & G & _).
        destruct (of_f32 (to_f32 x)); auto; discriminate.
      * rewrite C in NI. discriminate.
    + destruct (C05_f32_overflow_iff w x wsc Hx) as [O1 _].
      destruct D as (b & E & _). rewrite (proj2 O1 (conj Fx L)) in E. discriminate.
Qed.

Example C06_example :
  write_mapped [] fnan W_position INT16 = Ok [0; 128]
  /\ read_mapped (parser_init [0; 128]) INT16 P_position
     = Ok (set_offset (parser_init [0; 128]) 2, PFloat fnan).
Proof. vm_compute. auto. Qed.

(** ** C07 *)

Lemma bpow_31 : forall z, (IZR z <= bpow radix2 31)%R <-> z <= 2 ^ 31.
Proof.
  intro z. replace (bpow radix2 31) with (IZR (2 ^ 31)).
  - split; [apply le_IZR|apply IZR_le].
  - rewrite <- IZR_Zpower by lia. reflexivity.
Qed.

(** Rounding error of numbers up to 2^k in units of the last place. *)
Lemma rnd64_error : forall x k, -1000 <= k -> (Rabs x <= bpow radix2 k)%R ->
  (Rabs (rnd64 x - x) <= bpow radix2 (k - 53))%R.
Proof.
  intros x k Hk H.
  pose proof (error_le_half_ulp radix2 fexp64 (fun t => negb (Z.even t)) x) as E.
  assert (U : (ulp radix2 fexp64 x <= ulp radix2 fexp64 (bpow radix2 k))%R).
  { apply ulp_le; [apply fexp_correct; reflexivity|apply fexp_monotone|].
    rewrite (Rabs_pos_eq (bpow radix2 k)) by apply bpow_ge_0. exact H. }
  rewrite ulp_bpow in U.
  replace (fexp64 (k + 1)) with (k - 52) in U
    by (unfold SpecFloat.fexp, emin, prec64, emax64; lia).
  replace (k - 52) with (1 + (k - 53)) in U by lia. rewrite bpow_plus in U.
  change (bpow radix2 1) with 2%R in U. lra.
Qed.

(** Relative form for normal numbers. *)
Lemma rnd64_rel : forall x, (bpow radix2 (-1022) <= Rabs x)%R ->
  (Rabs (rnd64 x - x) <= bpow radix2 (-53) * Rabs x)%R.
Proof.
  intros x H.
  pose proof (relative_error_N_FLT radix2 (-1074) 53 ltac:(reflexivity)
                (fun t => negb (Z.even t)) x) as E.
  apply Rle_trans with (/ 2 * bpow radix2 (- 53 + 1) * Rabs x)%R.
  - apply E. exact H.
  - apply Req_le. change (-53 + 1) with (-1 + -51).
    replace (bpow radix2 (-53)) with (bpow radix2 (-1) * bpow radix2 (-52))%R
      by (rewrite <- bpow_plus; reflexivity).
    change (-1 + -51) with (-52). change (bpow radix2 (-1)) with (/ 2)%R. ring.
Qed.

Lemma Ztrunc_dist : forall x, (Rabs (IZR (Ztrunc x) - x) < 1)%R.
Proof.
  intro x. unfold Ztrunc. destruct (Rlt_bool_spec x 0) as [L|L].
  - pose proof (Zceil_ub x). pose proof (Zceil_lb x). apply Rabs_def1; lra.
  - pose proof (Zfloor_lb x). pose proof (Zfloor_ub x). apply Rabs_def1; lra.
Qed.

(** What integer is written, in terms of real numbers. *)
Lemma quantise_real : forall x r s, int_res r -> float_ok x -> isfinite x = true ->
  float_ok s -> (0 < F2 s)%R ->
  exists z, spec_quantise x r s = PInt z /\
    ((Rabs (F2 x / F2 s) <= IZR (spec_max r))%R -> z = Ztrunc (rnd64 (F2 x / F2 s))) /\
    ((IZR (spec_max r) <= F2 x / F2 s)%R -> z = spec_max r) /\
    ((F2 x / F2 s <= - IZR (spec_max r))%R -> z = - spec_max r).
Proof.
  intros x r s Hr Hx Fx Hs Ps. destruct (int_max_spec r Hr) as [_ BM].
  pose proof (fdiv_correct x s Hx Hs Fx ltac:(lra)) as C.
  assert (FM : generic_format radix2 fexp64 (IZR (spec_max r))) by (apply IZR_format64; lia).
  assert (FMO : generic_format radix2 fexp64 (- IZR (spec_max r)))
    by (apply generic_format_opp; exact FM).
  assert (MONO : forall a b, (a <= b)%R -> (rnd64 a <= rnd64 b)%R).
  { intros. apply round_le; auto. apply fexp_correct; reflexivity. apply valid_rnd_N. }
  assert (RM : rnd64 (IZR (spec_max r)) = IZR (spec_max r))
    by (apply round_generic; [apply valid_rnd_N|exact FM]).
  assert (RMO : rnd64 (- IZR (spec_max r)) = (- IZR (spec_max r))%R)
    by (apply round_generic; [apply valid_rnd_N|exact FMO]).
  set (q := (F2 x / F2 s)%R) in *.
  destruct (Rlt_bool_spec (Rabs (rnd64 q)) (bpow radix2 emax64)) as [L|L].
  - destruct C as (C1 & C2 & _).
    assert (E : spec_quantise x r s
      = PInt (Z.max (- spec_max r) (Z.min (spec_max r) (Ztrunc (rnd64 q))))).
    { unfold spec_quantise. rewrite Fx. rewrite <- C2, <- ftrunc_correct by exact C1.
      destruct Hr as [->|[->| ->]]; destruct (fdiv x s); try reflexivity; discriminate. }
    rewrite E. eexists. split; [reflexivity|]. repeat split; intro H.
    + apply Rabs_le_inv in H. destruct H as [H1 H2].
      apply MONO in H1. apply MONO in H2. rewrite RM in H2. rewrite RMO in H1.
      pose proof (Ztrunc_bounds (rnd64 q) (spec_max r) ltac:(lia) (conj H1 H2)). lia.
    + apply MONO in H. rewrite RM in H. apply Ztrunc_le in H. rewrite Ztrunc_IZR in H. lia.
    + apply MONO in H. rewrite RMO, <- opp_IZR in H. apply Ztrunc_le in H.
      rewrite Ztrunc_IZR in H. lia.
  - assert (BIG : (IZR (spec_max r) < bpow radix2 emax64)%R).
    { apply Rle_lt_trans with (bpow radix2 31); [apply bpow_31; lia|apply bpow_lt; reflexivity]. }
    assert (SG : xorb (fsign x) (fsign s) = Rlt_bool q 0).
    { assert (fsign s = false) as ->.
      { destruct s as [b|b| |b m e]; cbn in Ps; try lra. destruct b; auto. exfalso.
        cbn [cond_Zopp] in Ps. pose proof (F2R_lt_0 radix2 (Float radix2 (Zneg m) e) ltac:(reflexivity)).
        cbn in *. lra. }
      rewrite xorb_false_r.
      destruct x as [b|b| |b m e]; try discriminate.
      - exfalso. unfold q in L. cbn [SF2R] in L. unfold Rdiv in L. rewrite Rmult_0_l in L.
        rewrite round_0 in L by apply valid_rnd_N. rewrite Rabs_R0 in L.
        pose proof (bpow_gt_0 radix2 emax64). lra.
      - assert (IS : (0 < / F2 s)%R) by (apply Rinv_0_lt_compat; exact Ps).
        cbn [fsign sign_SF]. unfold q, Rdiv. destruct b.
        + rewrite Rlt_bool_true; auto.
          pose proof (F2R_lt_0 radix2 (Float radix2 (Zneg m) e) ltac:(reflexivity)) as G.
          change (F2 (S754_finite true m e)) with (F2R (Float radix2 (Zneg m) e)). nra.
        + rewrite Rlt_bool_false; auto.
          pose proof (F2R_gt_0 radix2 (Float radix2 (Zpos m) e) ltac:(reflexivity)) as G.
          change (F2 (S754_finite false m e)) with (F2R (Float radix2 (Zpos m) e)). nra. }
    assert (E : spec_quantise x r s = PInt (if Rlt_bool q 0 then - spec_max r else spec_max r)).
    { unfold spec_quantise. rewrite Fx, C, SG. destruct Hr as [->|[->| ->]]; reflexivity. }
    rewrite E. eexists. split; [reflexivity|].
    assert (P0 : (0 <= IZR (spec_max r))%R) by (apply IZR_le; lia).
    assert (NR : ~ (Rabs q <= IZR (spec_max r))%R).
    { intro H. apply Rabs_le_inv in H. destruct H as [H1 H2].
      apply MONO in H1. apply MONO in H2. rewrite RM in H2. rewrite RMO in H1.
      assert (Rabs (rnd64 q) <= IZR (spec_max r))%R by (apply Rabs_le; lra). lra. }
    repeat split; intro H; try contradiction.
    + rewrite Rlt_bool_false; auto. lra.
    + destruct (Rlt_bool_spec q 0) as [G|G]; auto. exfalso. apply NR.
      apply Rabs_le. lra.
Qed.

(** In range: truncation of the correctly rounded quotient; out of range:
    the nearest end. *)
Theorem C07_quantised_value : forall w x sc r,
  r = INT8 \/ r = INT16 \/ r = INT32 -> float_ok x -> isfinite x = true ->
  float_ok (scale_at sc r) -> (0 < F2 (scale_at sc r))%R ->
  exists b z, write_mapped w x sc r = Ok (w ++ b) /\ spec_value r b = PInt z /\
    let q := (F2 x / F2 (scale_at sc r))%R in
    ((Rabs q <= IZR (spec_max r))%R -> z = Ztrunc (rnd64 q)) /\
    ((IZR (spec_max r) <= q)%R -> z = spec_max r) /\
    ((q <= - IZR (spec_max r))%R -> z = - spec_max r).
Proof.
  intros w x sc r Hr Hx Fx Hs Ps.
  destruct (write_mapped_int w x sc r Hr Hx Hs Ps) as (b & E & L & _ & V).
  destruct (quantise_real x r _ Hr Hx Fx Hs Ps) as (z & EZ & Q).
  exists b, z. rewrite V. auto.
Qed.

(** Error of a value sent and read back with the same scale. *)
Theorem C07_error_bound : forall w x sc r,
  r = INT8 \/ r = INT16 \/ r = INT32 -> float_ok x -> isfinite x = true ->
  good_scale (scale_at sc r) ->
  (Rabs (F2 x) <= IZR (spec_max r) * F2 (scale_at sc r))%R ->
  exists d, delivered w x sc r sc d /\ isfinite d = true /\
    (Rabs (F2 d - F2 x) < F2 (scale_at sc r) * (1 + bpow radix2 (-21)))%R.
Proof.
  intros w x sc r Hr Hx Fx G HR. pose proof (good_pos _ G) as Ps.
  destruct G as (Hs & Fs & Gl & Gu).
  destruct (int_max_spec r Hr) as [_ BM].
  destruct (deliver_int w x sc r sc Hr Hx Hs Ps) as (z & EZ & B & _ & D).
  specialize (B Fx).
  destruct (quantise_real x r _ Hr Hx Fx Hs Ps) as (z' & EZ' & Q & _).
  assert (z' = z) by congruence. subst z'.
  set (s := scale_at sc r) in *. set (q := (F2 x / F2 s)%R) in *.
  assert (Xq : F2 x = (q * F2 s)%R) by (unfold q; field; lra).
  assert (HQ : (Rabs q <= IZR (spec_max r))%R).
  { rewrite Xq, Rabs_mult, (Rabs_pos_eq (F2 s)) in HR by lra.
    apply Rmult_le_reg_r with (F2 s); auto. }
  specialize (Q HQ).
  assert (HQ31 : (Rabs q <= bpow radix2 31)%R).
  { eapply Rle_trans; [exact HQ|]. apply bpow_31. lia. }
  assert (N : nanify (PInt z) r = PInt z).
  { unfold nanify. destruct Hr as [->|[->| ->]]; cbn in B;
      (rewrite (proj2 (Z.eqb_neq _ _)) by lia); reflexivity. }
  rewrite N in D. cbn [pymul] in D.
  destruct (float_of_Z_correct z) as [FZ VZ]; [lia|].
  pose proof (fmul_correct (float_of_Z z) s (float_of_Z_ok z) Hs FZ Fs) as C.
  rewrite VZ in C.
  (* first error: the quotient *)
  assert (E1 : (Rabs (IZR z - q) < 1 + bpow radix2 (-22))%R).
  { rewrite Q. pose proof (Ztrunc_dist (rnd64 q)) as T.
    pose proof (rnd64_error q 31 ltac:(lia) HQ31) as E. change (31 - 53) with (-22) in E.
    replace (IZR (Ztrunc (rnd64 q)) - q)%R
      with ((IZR (Ztrunc (rnd64 q)) - rnd64 q) + (rnd64 q - q))%R by ring.
    eapply Rle_lt_trans; [apply Rabs_triang|]. lra. }
  (* second error: the product *)
  assert (AZ : (Rabs (IZR z) <= bpow radix2 31)%R).
  { rewrite <- abs_IZR. apply bpow_31. lia. }
  assert (E2 : (Rabs (rnd64 (IZR z * F2 s) - IZR z * F2 s) <= bpow radix2 (-22) * F2 s)%R).
  { destruct (Z.eq_dec z 0) as [->|NZ].
    - rewrite Rmult_0_l, round_0 by apply valid_rnd_N.
      rewrite Rminus_0_r, Rabs_R0. apply Rmult_le_pos; [apply bpow_ge_0|lra].
    - assert (1 <= Rabs (IZR z))%R.
      { rewrite <- abs_IZR. apply IZR_le. lia. }
      assert (AM : Rabs (IZR z * F2 s) = (Rabs (IZR z) * F2 s)%R).
      { rewrite Rabs_mult. f_equal. apply Rabs_pos_eq. lra. }
      eapply Rle_trans; [apply rnd64_rel|].
      + rewrite AM. nra.
      + rewrite AM. rewrite <- Rmult_assoc. apply Rmult_le_compat_r; [lra|].
        replace (bpow radix2 (-22)) with (bpow radix2 (-53) * bpow radix2 31)%R
          by (rewrite <- bpow_plus; reflexivity).
        apply Rmult_le_compat_l; [apply bpow_ge_0|exact AZ]. }
  assert (NOV : (Rabs (rnd64 (IZR z * F2 s)) < bpow radix2 emax64)%R).
  { replace (rnd64 (IZR z * F2 s)) with
      ((rnd64 (IZR z * F2 s) - IZR z * F2 s) + IZR z * F2 s)%R by ring.
    eapply Rle_lt_trans; [apply Rabs_triang|].
    rewrite Rabs_mult, (Rabs_pos_eq (F2 s)) by lra.
    assert (X1 : (bpow radix2 (-22) * F2 s <= 1 * bpow radix2 900)%R).
    { apply Rmult_le_compat; try lra. apply bpow_ge_0.
      change 1%R with (bpow radix2 0). apply bpow_le. lia. }
    assert (X2 : (Rabs (IZR z) * F2 s <= bpow radix2 31 * bpow radix2 900)%R).
    { apply Rmult_le_compat; try lra. apply Rabs_pos. }
    rewrite <- bpow_plus in X2. change (31 + 900) with 931 in X2.
    assert (X3 : (bpow radix2 900 <= bpow radix2 931)%R) by (apply bpow_le; lia).
    assert (X4 : (bpow radix2 emax64 >= 4 * bpow radix2 931)%R).
    { change 4%R with (bpow radix2 2). rewrite <- bpow_plus. apply Rle_ge, bpow_le.
      unfold emax64. lia. }
    pose proof (bpow_gt_0 radix2 931). lra. }
  rewrite Rlt_bool_true in C by exact NOV. destruct C as (C1 & C2 & _).
  eexists. split; [exact D|]. split; [exact C1|]. rewrite C2.
  replace (rnd64 (IZR z * F2 s) - F2 x)%R
    with ((rnd64 (IZR z * F2 s) - IZR z * F2 s) + (IZR z - q) * F2 s)%R by (rewrite Xq; ring).
  eapply Rle_lt_trans; [apply Rabs_triang|].
  rewrite Rabs_mult, (Rabs_pos_eq (F2 s)) by lra.
  replace (bpow radix2 (-21)) with (2 * bpow radix2 (-22))%R.
  - nra.
  - change 2%R with (bpow radix2 1). rewrite <- bpow_plus. reflexivity.
Qed.

Theorem C07_monotone : forall w w' x y sc r bx b_y zx zy,
  r = INT8 \/ r = INT16 \/ r = INT32 -> float_ok x -> float_ok y ->
  isfinite x = true -> isfinite y = true ->
  float_ok (scale_at sc r) -> (0 < F2 (scale_at sc r))%R ->
  (F2 x <= F2 y)%R ->
  write_mapped w x sc r = Ok (w ++ bx) -> write_mapped w' y sc r = Ok (w' ++ b_y) ->
  spec_value r bx = PInt zx -> spec_value r b_y = PInt zy -> zx <= zy.
Proof.
  intros w w' x y sc r bx b_y zx zy Hr Hx Hy Fx Fy Hs Ps LE Ex Ey Vx Vy.
  destruct (C07_quantised_value w x sc r Hr Hx Fx Hs Ps) as (b1 & z1 & E1 & V1 & A1 & A2 & A3).
  destruct (C07_quantised_value w' y sc r Hr Hy Fy Hs Ps) as (b2 & z2 & E2 & V2 & B1 & B2 & B3).
  destruct (C05_int_write_never_raises w x sc r Hr Hx Hs Ps) as (b3 & z3 & E3 & _ & V3 & R3 & _).
  destruct (C05_int_write_never_raises w' y sc r Hr Hy Hs Ps) as (b4 & z4 & E4 & _ & V4 & R4 & _).
  rewrite Ex in E1, E3. rewrite Ey in E2, E4.
  injection E1 as E1. injection E2 as E2. injection E3 as E3. injection E4 as E4.
  apply app_inv_head in E1. apply app_inv_head in E2.
  apply app_inv_head in E3. apply app_inv_head in E4. subst b1 b2 b3 b4.
  assert (z1 = zx) by congruence. assert (z2 = zy) by congruence.
  assert (z3 = zx) by congruence. assert (z4 = zy) by congruence. subst.
  specialize (R3 Fx). specialize (R4 Fy).
  set (s := F2 (scale_at sc r)) in *.
  assert (Q : (F2 x / s <= F2 y / s)%R).
  { unfold Rdiv. apply Rmult_le_compat_r; [left; apply Rinv_0_lt_compat; exact Ps|exact LE]. }
  destruct (Rle_or_lt (IZR (spec_max r)) (F2 y / s)) as [Y|Y]; [rewrite (B2 Y); lia|].
  destruct (Rle_or_lt (F2 x / s) (- IZR (spec_max r))) as [X|X]; [rewrite (A3 X); lia|].
  rewrite A1 by (apply Rabs_le; lra). rewrite B1 by (apply Rabs_le; lra).
  apply Ztrunc_le. apply round_le; [apply fexp_correct; reflexivity|apply valid_rnd_N|exact Q].
Qed.

(** The scales of the API satisfy [good_scale]. *)
Theorem C07_api_scales_apply : forall sc r, In sc api_scales -> good_scale (scale_at sc r).
Proof. exact api_scales_good. Qed.

Example C07_example :
  write_mapped [] (flit 12345 4) W_position INT16 = Ok (le_bytes 2 12344)
  /\ write_mapped [] (fneg (flit 12345 4)) W_position INT8 = Ok (le_bytes 1 (-123)).
Proof. vm_compute. auto. Qed.

Print Assumptions C05_int_write_never_raises.
Print Assumptions C05_int_write_value.
Print Assumptions C05_f32_overflow_iff.
Print Assumptions C05_api_scales_apply.
Print Assumptions C06_nan_survives.
Print Assumptions C06_infinity.
Print Assumptions C06_finite_never_nan.
Print Assumptions C07_quantised_value.
Print Assumptions C07_error_bound.
Print Assumptions C07_monotone.
Print Assumptions C07_api_scales_apply.
