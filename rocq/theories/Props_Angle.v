(** C37, C38: wrapping and unwrapping of angles. *)
From Coq Require Import ZArith List Bool Lia Reals Lra Psatz.
From Coq Require Import Floats.SpecFloat.
From Flocq Require Import Core BinarySingleNaN Sterbenz.
From Verif Require Import PyBase PyFloat Float_Proofs Fsum_Proofs Props_Quant Calib_Model.
Import ListNotations.
Open Scope Z_scope.

(** ** Specification *)

(** Two angles are the same up to whole turns. *)
Definition same_angle (x y : R) : Prop := exists k : Z, x = (y + IZR k * (2 * PI))%R.

(** Two lists of angles, element by element. *)
Definition same_angles (l l' : list R) : Prop := Forall2 same_angle l l'.

(** Neighbours in the list differ by at most [d]. *)
Fixpoint steps_within (d : R) (l : list R) : Prop :=
  match l with
  | x :: (y :: _) as l' => (Rabs (y - x) <= d)%R /\ steps_within d l'
  | _ => True
  end.

Fixpoint steps_below (d : R) (l : list R) : Prop :=
  match l with
  | x :: (y :: _) as l' => (Rabs (y - x) < d)%R /\ steps_below d l'
  | _ => True
  end.

(** ** The real numbers *)
Lemma Rltb_spec x y : reflect (x < y)%R (Rltb x y).
Proof. unfold Rltb. destruct (Rlt_dec x y); now constructor. Qed.

Lemma PI_gt_1 : (1 < PI)%R.
Proof. pose proof PI2_1. unfold PI2 in *. pose proof PI_RGT_0. lra. Qed.

Lemma two_pi_real : two_pi real_arith = (2 * PI)%R.
Proof. reflexivity. Qed.

Lemma same_angle_refl x : same_angle x x.
Proof. exists 0. ring. Qed.

Lemma wrap_down_real n : forall v, (1 <= n)%nat -> (v <= INR n)%R ->
  exists r, wrap_down real_arith n v = Ok r /\ same_angle r v /\ (r <= PI)%R /\ (r = v \/ - PI < r)%R.
Proof.
  pose proof PI_gt_1 as HP.
  induction n as [|n IH]; intros v Hn Hv; [lia|]. cbn [wrap_down]. rewrite two_pi_real.
  change (a_lt real_arith (a_pi real_arith) v) with (Rltb PI v).
  change (a_sub real_arith v (2 * PI)%R) with (v - 2 * PI)%R.
  destruct (Rltb_spec PI v) as [H|H].
  - assert (Hn' : (1 <= n)%nat) by (destruct n; [cbn in Hv; lra|lia]).
    rewrite S_INR in Hv. destruct (IH (v - 2 * PI)%R Hn') as (r & E & (k & A) & B & C); [lra|].
    exists r. split; auto. split; [exists (k - 1); rewrite A, minus_IZR; ring|]. split; auto.
    right. destruct C as [->|C]; lra.
  - exists v. split; auto. split; [apply same_angle_refl|]. split; [lra|auto].
Qed.

Lemma wrap_up_real n : forall v, (1 <= n)%nat -> (- v <= INR n)%R ->
  exists r, wrap_up real_arith n v = Ok r /\ same_angle r v /\ (- PI <= r)%R /\ (r = v \/ r < PI)%R.
Proof.
  pose proof PI_gt_1 as HP.
  induction n as [|n IH]; intros v Hn Hv; [lia|]. cbn [wrap_up]. rewrite two_pi_real.
  change (a_lt real_arith v (a_neg real_arith (a_pi real_arith))) with (Rltb v (- PI)).
  change (a_add real_arith v (2 * PI)%R) with (v + 2 * PI)%R.
  destruct (Rltb_spec v (- PI)) as [H|H].
  - assert (Hn' : (1 <= n)%nat) by (destruct n; [cbn in Hv; lra|lia]).
    rewrite S_INR in Hv. destruct (IH (v + 2 * PI)%R Hn') as (r & E & (k & A) & B & C); [lra|].
    exists r. split; auto. split; [exists (k + 1); rewrite A, plus_IZR; ring|]. split; auto.
    right. destruct C as [->|C]; lra.
  - exists v. split; auto. split; [apply same_angle_refl|]. split; [lra|auto].
Qed.

Lemma turns_real v : (1 <= a_turns real_arith v)%nat /\ (Rabs v <= INR (a_turns real_arith v))%R.
Proof.
  cbn [a_turns real_arith]. split; [lia|]. rewrite !S_INR.
  destruct (archimed (Rabs v)) as [A _]. pose proof (Rabs_pos v) as B.
  assert (0 <= up (Rabs v)) by (apply le_IZR; lra).
  rewrite INR_IZR_INZ, Z2Nat.id by lia. lra.
Qed.

(** Over the reals the function always returns, a value in [-pi, pi], the same angle. *)
Theorem C37_real : forall x, exists r, wrap real_arith x = Ok r /\
  (- PI <= r <= PI)%R /\ same_angle r x.
Proof.
  intros x. unfold wrap. destruct (turns_real x) as [T1 T2].
  destruct (wrap_down_real _ x T1) as (r & -> & (k & A) & B & C).
  { pose proof (Rle_abs x). lra. }
  cbn [bind]. destruct (turns_real r) as [T3 T4].
  destruct (wrap_up_real _ r T3) as (q & -> & (k' & A') & B' & C').
  { pose proof (Rle_abs (- r)) as H. rewrite Rabs_Ropp in H. lra. }
  exists q. split; auto. split; [destruct C' as [->|C']; lra|].
  exists (k + k'). rewrite A', A, plus_IZR. ring.
Qed.

(** Angles in range are left as they are. *)
Lemma wrap_id x : (- PI <= x <= PI)%R -> wrap real_arith x = Ok x.
Proof.
  intros H. unfold wrap. cbn [a_turns real_arith wrap_down].
  change (a_lt real_arith (a_pi real_arith) x) with (Rltb PI x).
  destruct (Rltb_spec PI x) as [C|C]; [lra|]. cbn [bind wrap_up].
  change (a_lt real_arith x (a_neg real_arith (a_pi real_arith))) with (Rltb x (- PI)).
  destruct (Rltb_spec x (- PI)) as [D|D]; [lra|]. reflexivity.
Qed.

(** Whole turns do not matter, except that half a turn has two names. *)
Lemma same_angle_strict x y : same_angle x y -> (- PI <= x <= PI)%R -> (- PI < y < PI)%R -> x = y.
Proof.
  intros (k & E) Hx Hy. pose proof PI_RGT_0 as HP.
  assert (k = 0) as ->; [|lra].
  destruct (Z.lt_trichotomy k 0) as [H|[H|H]]; auto; exfalso.
  - assert (IZR k <= -1)%R by (apply IZR_le; lia). nra.
  - assert (1 <= IZR k)%R by (apply IZR_le; lia). nra.
Qed.

(** The result depends on the angle only, away from half a turn. *)
Theorem C37_real_unique : forall x y, same_angle x y -> (- PI < y < PI)%R -> wrap real_arith x = Ok y.
Proof.
  intros x y H Hy. destruct (C37_real x) as (r & -> & B & (k & C)). f_equal.
  apply same_angle_strict; auto. destruct H as (k' & ->). exists (k' + k). rewrite C, plus_IZR. ring.
Qed.

(** ** Floats *)

(** 2.0 * math.pi as a number *)
Definition tau : R := F2 (two_pi (float_arith left_sum)).

Lemma two_pi_float s : two_pi (float_arith s) = S754_finite false 7074237752028440 (-50).
Proof. vm_compute. reflexivity. Qed.

Lemma tau_value : tau = (7074237752028440 * / 1125899906842624)%R.
Proof. unfold tau. rewrite two_pi_float. reflexivity. Qed.
Lemma fpi_value : F2 fpi = (7074237752028440 * / 2251799813685248)%R.
Proof. reflexivity. Qed.

Lemma tau_bounds : (6 < tau < 7)%R /\ F2 fpi = (tau / 2)%R.
Proof. rewrite tau_value, fpi_value. lra. Qed.

Lemma fpi_ok : float_ok fpi. Proof. reflexivity. Qed.
Lemma tp_ok : float_ok (S754_finite false 7074237752028440 (-50)). Proof. reflexivity. Qed.
Lemma tau_F2 : F2 (S754_finite false 7074237752028440 (-50)) = tau.
Proof. unfold tau. now rewrite two_pi_float. Qed.

Global Instance fexp64_valid : Valid_exp fexp64 := FLT.FLT_exp_valid (-1074) 53.
Global Instance fexp64_mono : Monotone_exp fexp64 := FLT.FLT_exp_monotone (-1074) 53.
Lemma fexp64_FLT e : fexp64 e = FLT.FLT_exp (-1074) 53 e.
Proof. reflexivity. Qed.

Lemma format_bpow e : -1074 <= e -> generic_format radix2 fexp64 (bpow radix2 e).
Proof. intros H. apply generic_format_bpow. rewrite fexp64_FLT. unfold FLT.FLT_exp. lia. Qed.

Lemma format_fpi : generic_format radix2 fexp64 (F2 fpi).
Proof. apply F2_format64, fpi_ok. Qed.
Lemma format_tau : generic_format radix2 fexp64 tau.
Proof. rewrite <- tau_F2. apply F2_format64, tp_ok. Qed.

Lemma ulp_56 : ulp radix2 fexp64 (bpow radix2 56) = 16%R.
Proof. rewrite ulp_bpow. reflexivity. Qed.

(** Rounding x - tau: no lower than -pi. *)
Lemma rnd_low x : (F2 fpi < x)%R -> (- F2 fpi <= rnd64 (x - tau))%R.
Proof.
  intros H. destruct tau_bounds as [_ B].
  apply round_ge_generic; auto with typeclass_instances.
  - apply generic_format_opp, format_fpi.
  - lra.
Qed.

(** Up to 2^56 it makes progress. *)
Lemma rnd_progress x : (F2 fpi < x <= bpow radix2 56)%R -> (rnd64 (x - tau) <= x - 2)%R.
Proof.
  intros [H1 H2]. destruct tau_bounds as [B1 B2].
  pose proof (error_le_half_ulp radix2 fexp64 (fun t => negb (Z.even t)) (x - tau)) as E.
  assert (U : (ulp radix2 fexp64 (x - tau) <= 8)%R).
  { assert (Hm : (Rabs (x - tau) < bpow radix2 56)%R) by (apply Rabs_lt; cbn in *; lra).
    destruct (Req_dec (x - tau) 0) as [->|Hne].
    - change (ulp radix2 (FLT.FLT_exp (-1074) 53) 0 <= 8)%R. rewrite ulp_FLT_0 by reflexivity. change 8%R with (bpow radix2 3). apply bpow_le. lia.
    - rewrite ulp_neq_0 by exact Hne. change 8%R with (bpow radix2 3). apply bpow_le.
      unfold cexp. rewrite fexp64_FLT. unfold FLT.FLT_exp.
      assert (mag radix2 (x - tau) <= 56) by (apply mag_le_bpow; auto). lia. }
  apply Rabs_le_inv in E. lra.
Qed.

(** Above it does not. *)
Lemma rnd_stuck x : generic_format radix2 fexp64 x -> (bpow radix2 56 < x)%R -> rnd64 (x - tau) = x.
Proof.
  intros F H. destruct tau_bounds as [B1 B2].
  apply Rle_antisym.
  - rewrite <- (round_generic radix2 fexp64 ZnearestE x F) at 2.
    apply round_le; auto with typeclass_instances. lra.
  - apply round_N_ge_midp; auto with typeclass_instances.
    assert (P : (bpow radix2 56 <= pred radix2 fexp64 x)%R).
    { apply pred_ge_gt; auto with typeclass_instances. apply format_bpow. lia. }
    assert (0 < bpow radix2 56)%R by apply bpow_gt_0.
    pose proof (pred_plus_ulp radix2 fexp64 x ltac:(lra) F) as Q.
    assert (U : (16 <= ulp radix2 fexp64 (pred radix2 fexp64 x))%R).
    { rewrite <- ulp_56. apply ulp_le; auto with typeclass_instances.
      rewrite !Rabs_pos_eq by lra. exact P. }
    lra.
Qed.

(** Between half of tau and twice tau the subtraction is exact. *)
Lemma rnd_exact x : generic_format radix2 fexp64 x -> (tau / 2 <= x <= 2 * tau)%R ->
  rnd64 (x - tau) = (x - tau)%R.
Proof.
  intros F H. apply round_generic; auto with typeclass_instances.
  apply sterbenz; auto with typeclass_instances. apply format_tau.
Qed.

Lemma small_no_overflow x : (Rabs x <= bpow radix2 1000)%R -> (Rabs (rnd64 x) < bpow radix2 emax64)%R.
Proof.
  intros H. apply Rle_lt_trans with (bpow radix2 1000); [|apply bpow_lt; reflexivity].
  apply abs_round_le_generic; auto with typeclass_instances. apply format_bpow. lia.
Qed.

(** One step loses at most half a unit in the last place of the start. *)
Lemma rnd_error x X : (tau / 2 < x <= X)%R ->
  (Rabs (rnd64 (x - tau) - (x - tau)) <= bpow radix2 (-53) * X)%R.
Proof.
  intros [H1 H2]. destruct tau_bounds as [B1 B2].
  eapply Rle_trans; [apply error_le_half_ulp; auto with typeclass_instances|].
  assert (U : (ulp radix2 fexp64 (x - tau) <= ulp radix2 fexp64 X)%R).
  { apply ulp_le; auto with typeclass_instances. rewrite (Rabs_pos_eq X) by lra. apply Rabs_le. lra. }
  assert (V : (ulp radix2 fexp64 X <= Rabs X * bpow radix2 (-52))%R).
  { change (ulp radix2 (FLT.FLT_exp (-1074) 53) X <= Rabs X * bpow radix2 (1 - 53))%R.
    apply ulp_FLT_le. rewrite Rabs_pos_eq by lra.
    apply Rle_trans with (bpow radix2 0); [apply bpow_le; lia|]. cbn. lra. }
  rewrite Rabs_pos_eq in V by lra.
  replace (bpow radix2 (-52)) with (2 * bpow radix2 (-53))%R in V by (cbn; lra). lra.
Qed.

Section Float.
  Variable py_sum : list float -> float.
  Notation fa := (float_arith py_sum).
  Notation P := (F2 fpi).

  Lemma step_down v : float_ok v -> isfinite v = true -> (P < F2 v)%R ->
    float_ok (a_sub fa v (two_pi fa)) /\ isfinite (a_sub fa v (two_pi fa)) = true /\
    F2 (a_sub fa v (two_pi fa)) = rnd64 (F2 v - tau).
  Proof.
    intros O F H. rewrite two_pi_float. cbn [a_sub float_arith]. split; [apply fsub_ok; auto; reflexivity|].
    rewrite <- tau_F2. apply fsub_correct; auto; [reflexivity|]. rewrite tau_F2.
    destruct tau_bounds as [B1 B2].
    apply Rle_lt_trans with (Rabs (F2 v)); [|apply F2_lt_emax; auto].
    apply abs_round_le_generic; auto with typeclass_instances.
    - apply generic_format_abs, F2_format64; auto.
    - rewrite (Rabs_pos_eq (F2 v)) by lra. apply Rabs_le. lra.
  Qed.

  Lemma rnd_opp x : rnd64 (- x) = (- rnd64 x)%R.
  Proof. apply round_NE_opp. Qed.

  Lemma step_up v : float_ok v -> isfinite v = true -> (F2 v < - P)%R ->
    float_ok (a_add fa v (two_pi fa)) /\ isfinite (a_add fa v (two_pi fa)) = true /\
    F2 (a_add fa v (two_pi fa)) = (- rnd64 (- F2 v - tau))%R.
  Proof.
    intros O F H. rewrite two_pi_float. cbn [a_add float_arith]. split; [apply fadd_ok; auto; reflexivity|].
    rewrite <- rnd_opp. replace (- (- F2 v - tau))%R with (F2 v + tau)%R by ring.
    rewrite <- tau_F2. apply fadd_correct; auto; [reflexivity|]. rewrite tau_F2.
    destruct tau_bounds as [B1 B2].
    apply Rle_lt_trans with (Rabs (F2 v)); [|apply F2_lt_emax; auto].
    apply abs_round_le_generic; auto with typeclass_instances.
    - apply generic_format_abs, F2_format64; auto.
    - rewrite <- (Rabs_Ropp (F2 v)), (Rabs_pos_eq (- F2 v)) by lra. apply Rabs_le. lra.
  Qed.

  Lemma test_down v : float_ok v -> isfinite v = true -> a_lt fa (a_pi fa) v = Rlt_bool P (F2 v).
  Proof. intros O F. apply fltb_correct; auto; reflexivity. Qed.
  Lemma test_up v : float_ok v -> isfinite v = true ->
    a_lt fa v (a_neg fa (a_pi fa)) = Rlt_bool (F2 v) (- P).
  Proof. intros O F. cbn [a_lt a_neg a_pi float_arith]. rewrite fltb_correct, fneg_F2; auto; reflexivity. Qed.

  (** The downward loop: it ends, at or below pi, and each turn costs at most [B]. *)
  Lemma wrap_down_float n : forall v X, (1 <= n)%nat -> (F2 v <= INR n)%R -> (F2 v <= bpow radix2 56)%R ->
    float_ok v -> isfinite v = true -> (F2 v <= X)%R ->
    exists r k, wrap_down fa n v = Ok r /\ float_ok r /\ isfinite r = true /\ (F2 r <= P)%R /\
      0 <= k /\ (r = v /\ k = 0%Z \/ - P <= F2 r /\ P < F2 v)%R /\
      (Rabs (F2 r - (F2 v - IZR k * tau)) <= IZR k * (bpow radix2 (-53) * X))%R.
  Proof.
    destruct tau_bounds as [B1 B2].
    induction n as [|n IH]; intros v X Hn Hv Hb O F HX; [lia|]. cbn [wrap_down].
    rewrite test_down by auto.
    destruct (Rlt_bool_spec P (F2 v)) as [H|H].
    - assert (Hn' : (1 <= n)%nat) by (destruct n; [cbn in Hv; lra|lia]).
      rewrite S_INR in Hv.
      destruct (step_down v O F H) as (O' & F' & E').
      pose proof (rnd_progress (F2 v) (conj H Hb)) as Q. pose proof (rnd_low (F2 v) H) as L.
      assert (HX' : (tau / 2 < F2 v <= X)%R) by lra.
      pose proof (rnd_error (F2 v) X HX') as ER.
      destruct (IH (a_sub fa v (two_pi fa)) X Hn') as (r & k & E & Or & Fr & A & K & C & D); auto; try lra.
      exists r, (k + 1). split; auto. split; auto. split; auto. split; auto. split; [lia|].
      split; [right; split; auto; destruct C as [[-> _]|[C _]]; lra|].
      rewrite E' in D. rewrite plus_IZR.
      replace (F2 r - (F2 v - (IZR k + 1) * tau))%R
        with ((F2 r - (rnd64 (F2 v - tau) - IZR k * tau)) + (rnd64 (F2 v - tau) - (F2 v - tau)))%R by ring.
      eapply Rle_trans; [apply Rabs_triang|]. lra.
    - exists v, 0. split; auto. split; auto. split; auto. split; auto. split; [lia|]. split; [auto|].
      replace (F2 v - (F2 v - 0 * tau))%R with 0%R by ring. rewrite Rabs_R0. lra.
  Qed.

  Lemma wrap_up_float n : forall v X, (1 <= n)%nat -> (- F2 v <= INR n)%R -> (- F2 v <= bpow radix2 56)%R ->
    float_ok v -> isfinite v = true -> (- F2 v <= X)%R ->
    exists r k, wrap_up fa n v = Ok r /\ float_ok r /\ isfinite r = true /\ (- P <= F2 r)%R /\
      0 <= k /\ (r = v /\ k = 0%Z \/ F2 r <= P /\ F2 v < - P)%R /\
      (Rabs (F2 r - (F2 v + IZR k * tau)) <= IZR k * (bpow radix2 (-53) * X))%R.
  Proof.
    destruct tau_bounds as [B1 B2].
    induction n as [|n IH]; intros v X Hn Hv Hb O F HX; [lia|]. cbn [wrap_up].
    rewrite test_up by auto.
    destruct (Rlt_bool_spec (F2 v) (- P)) as [H|H].
    - assert (Hn' : (1 <= n)%nat) by (destruct n; [cbn in Hv; lra|lia]).
      rewrite S_INR in Hv.
      destruct (step_up v O F H) as (O' & F' & E').
      assert (H' : (P < - F2 v)%R) by lra.
      pose proof (rnd_progress (- F2 v) (conj H' Hb)) as Q. pose proof (rnd_low (- F2 v) H') as L.
      assert (HX' : (tau / 2 < - F2 v <= X)%R) by lra.
      pose proof (rnd_error (- F2 v) X HX') as ER.
      destruct (IH (a_add fa v (two_pi fa)) X Hn') as (r & k & E & Or & Fr & A & K & C & D); auto; try lra.
      exists r, (k + 1). split; auto. split; auto. split; auto. split; auto. split; [lia|].
      split; [right; split; auto; destruct C as [[-> _]|[C _]]; lra|].
      rewrite E' in D. rewrite plus_IZR.
      replace (F2 r - (F2 v + (IZR k + 1) * tau))%R
        with ((F2 r - (- rnd64 (- F2 v - tau) + IZR k * tau)) + - (rnd64 (- F2 v - tau) - (- F2 v - tau)))%R by ring.
      eapply Rle_trans; [apply Rabs_triang|]. rewrite (Rabs_Ropp (rnd64 _ - _)). lra.
    - exists v, 0. split; auto. split; auto. split; auto. split; [lra|]. split; [lia|]. split; [auto|].
      replace (F2 v - (F2 v + 0 * tau))%R with 0%R by ring. rewrite Rabs_R0. lra.
  Qed.

  Lemma turns_float v : isfinite v = true -> (1 <= a_turns fa v)%nat /\ (Rabs (F2 v) <= INR (a_turns fa v))%R.
  Proof.
    intros F. cbn [a_turns float_arith]. split; [lia|]. rewrite ftrunc_correct by auto.
    rewrite !S_INR, INR_IZR_INZ, Z2Nat.id by lia. rewrite <- Ztrunc_abs.
    rewrite Ztrunc_floor by apply Rabs_pos.
    pose proof (Zfloor_ub (Rabs (F2 v))). lra.
  Qed.

  (** Every finite float up to 2^56 in magnitude (which includes every
      angle a motor can report): the function returns a finite float
      between -math.pi and math.pi.  It differs from the argument by a
      whole number k of turns of 2.0 * math.pi, up to k rounding errors
      each at most 2^-53 of the argument. *)
  Theorem C37_float : forall x, float_ok x -> isfinite x = true -> (Rabs (F2 x) <= bpow radix2 56)%R ->
    exists r k, wrap fa x = Ok r /\ float_ok r /\ isfinite r = true /\ (- F2 fpi <= F2 r <= F2 fpi)%R /\
      (Rabs (F2 r - (F2 x - IZR k * tau)) <= Rabs (IZR k) * (bpow radix2 (-53) * Rabs (F2 x)))%R.
  Proof.
    intros x O F H. unfold wrap. destruct (turns_float x F) as [T1 T2].
    destruct tau_bounds as [B1 B2].
    pose proof (Rle_abs (F2 x)) as A1. pose proof (Rle_abs (- F2 x)) as A2. rewrite Rabs_Ropp in A2.
    destruct (wrap_down_float _ x (Rabs (F2 x)) T1) as (r & k & -> & Or & Fr & R1 & K & C & D); auto; try lra.
    cbn [bind]. destruct (turns_float r Fr) as [T3 T4].
    pose proof (Rle_abs (F2 r)) as A3. pose proof (Rle_abs (- F2 r)) as A4. rewrite Rabs_Ropp in A4.
    assert (56 <= bpow radix2 56)%R by (cbn; lra).
    destruct C as [[-> ->]|[C1 C2]].
    - destruct (wrap_up_float _ x (Rabs (F2 x)) T3) as (q & k' & -> & Oq & Fq & Q1 & K' & C' & D'); auto; try lra.
      exists q, (- k'). split; auto. split; auto. split; auto.
      split; [destruct C' as [[-> _]|[C' _]]; lra|].
      rewrite opp_IZR, Rabs_Ropp, (Rabs_pos_eq (IZR k')) by (apply IZR_le; auto).
      replace (F2 x - - IZR k' * tau)%R with (F2 x + IZR k' * tau)%R by ring. exact D'.
    - destruct (wrap_up_float _ r (- F2 r) T3) as (q & k' & -> & Oq & Fq & Q1 & K' & C' & D'); auto; try lra.
      destruct C' as [[-> ->]|[_ C']]; [|exfalso; lra].
      exists r, k. split; auto. split; auto. split; auto. split; [lra|].
      rewrite (Rabs_pos_eq (IZR k)) by (apply IZR_le; auto). exact D.
  Qed.

  (** Up to one and a half turns no rounding happens at all. *)
  Theorem C37_float_exact : forall x, float_ok x -> isfinite x = true -> (Rabs (F2 x) <= 3 * F2 fpi)%R ->
    exists r k, wrap fa x = Ok r /\ -1 <= k <= 1 /\ (- F2 fpi <= F2 r <= F2 fpi)%R /\
      F2 r = (F2 x - IZR k * tau)%R.
  Proof.
    intros x O F H. destruct tau_bounds as [B1 B2]. unfold wrap. apply Rabs_le_inv in H.
    assert (Fmt : generic_format radix2 fexp64 (F2 x)) by (apply F2_format64; auto).
    cbn [a_turns float_arith].
    cbn [wrap_down]. rewrite test_down by auto.
    destruct (Rlt_bool_spec P (F2 x)) as [H1|H1].
    - destruct (step_down x O F H1) as (O' & F' & E'). rewrite rnd_exact in E' by (auto; lra).
      rewrite test_down by auto. rewrite Rlt_bool_false by (rewrite E'; lra). cbn [bind wrap_up].
      rewrite test_up by auto. rewrite Rlt_bool_false by (rewrite E'; lra).
      eexists; exists 1. split; [reflexivity|]. rewrite E'. split; [lia|]. split; lra.
    - cbn [bind wrap_up]. rewrite test_up by auto. destruct (Rlt_bool_spec (F2 x) (- P)) as [H2|H2].
      + destruct (step_up x O F H2) as (O' & F' & E').
        rewrite rnd_exact in E' by (try lra; apply generic_format_opp; auto).
        rewrite test_up by auto. rewrite Rlt_bool_false by (rewrite E'; lra).
        eexists; exists (-1). split; [reflexivity|]. rewrite E'. split; [lia|]. split; lra.
      + exists x, 0. split; auto. split; [lia|]. split; lra.
  Qed.

  (** Beyond 2^56 the subtraction changes nothing: the call never returns,
      however many turns it is given. *)
  Lemma fsign_F2 x : isfinite x = true -> (0 < F2 x)%R -> fsign x = false.
  Proof.
    destruct x as [s|s| |s m e]; cbn; intros F H; try discriminate; try lra.
    destruct s; auto. exfalso. assert (F2R (Float radix2 (Zneg m) e) < 0)%R by now apply F2R_lt_0.
    unfold F2R in *. cbn in *. lra.
  Qed.
  Lemma fsign_F2n x : isfinite x = true -> (F2 x < 0)%R -> fsign x = true.
  Proof.
    destruct x as [s|s| |s m e]; cbn; intros F H; try discriminate; try lra.
    destruct s; auto. exfalso. assert (0 < F2R (Float radix2 (Zpos m) e))%R by now apply F2R_gt_0.
    unfold F2R in *. cbn in *. lra.
  Qed.

  Lemma stuck_down n x : float_ok x -> isfinite x = true -> (bpow radix2 56 < F2 x)%R ->
    wrap_down fa n x = Raise Diverges.
  Proof.
    intros O F H. destruct tau_bounds as [B1 B2]. assert (56 <= bpow radix2 56)%R by (cbn; lra).
    induction n as [|n IH]; auto. cbn [wrap_down].
    rewrite test_down by auto. rewrite Rlt_bool_true by lra.
    destruct (step_down x O F ltac:(lra)) as (O' & F' & E').
    rewrite rnd_stuck in E' by (auto using F2_format64).
    replace (a_sub fa x (two_pi fa)) with x; auto. symmetry. apply float_eq; auto.
    rewrite !fsign_F2; auto; lra.
  Qed.

  Lemma stuck_up n x : float_ok x -> isfinite x = true -> (F2 x < - bpow radix2 56)%R ->
    wrap_up fa n x = Raise Diverges.
  Proof.
    intros O F H. destruct tau_bounds as [B1 B2]. assert (56 <= bpow radix2 56)%R by (cbn; lra).
    induction n as [|n IH]; auto. cbn [wrap_up].
    rewrite test_up by auto. rewrite Rlt_bool_true by lra.
    destruct (step_up x O F ltac:(lra)) as (O' & F' & E').
    rewrite rnd_stuck in E' by (try lra; apply generic_format_opp, F2_format64; auto).
    rewrite Ropp_involutive in E'.
    replace (a_add fa x (two_pi fa)) with x; auto. symmetry. apply float_eq; auto.
    rewrite !fsign_F2n; auto; lra.
  Qed.

  Lemma stuck_pinf n : wrap_down fa n (S754_infinity false) = Raise Diverges.
  Proof. induction n as [|n IH]; auto. Qed.
  Lemma stuck_ninf n : wrap_up fa n (S754_infinity true) = Raise Diverges.
  Proof. induction n as [|n IH]; auto. Qed.

  (** With any number of turns for either loop. *)
  Theorem C37_float_hangs : forall x, float_ok x ->
    isinf x = true \/ (isfinite x = true /\ (bpow radix2 56 < Rabs (F2 x))%R) ->
    (forall n m, (let* v := wrap_down fa n x in wrap_up fa m v) = Raise Diverges) /\
    wrap fa x = Raise Diverges.
  Proof.
    intros x O H.
    assert (G : forall n m, (let* v := wrap_down fa n x in wrap_up fa m v) = Raise Diverges).
    { intros n m. destruct H as [H|[F H]].
      - destruct x as [s|s| |s mm e]; try discriminate. destruct s.
        + destruct n; auto. cbn [wrap_down]. cbn [a_lt float_arith fltb SFltb SFcompare bind]. apply stuck_ninf.
        + now rewrite stuck_pinf.
      - destruct (Rle_or_lt 0 (F2 x)) as [S0|S0].
        + rewrite Rabs_pos_eq in H by auto. now rewrite stuck_down.
        + rewrite Rabs_left in H by auto. destruct n; auto. cbn [wrap_down]. rewrite test_down by auto.
          destruct tau_bounds as [B1 B2]. rewrite Rlt_bool_false by lra. cbn [bind]. apply stuck_up; auto; lra. }
    split; auto. unfold wrap.
    specialize (G (a_turns fa x)).
    destruct (wrap_down fa (a_turns fa x) x) as [v|e] eqn:E; cbn [bind] in *; auto.
    exact (G (a_turns fa x)).
  Qed.

  (** Not a number stays not a number. *)
  Theorem C37_float_nan : wrap fa S754_nan = Ok S754_nan.
  Proof. reflexivity. Qed.

  (** The number of turns of the model is enough: whenever some number of
      turns lets the call return, the model returns that value. *)
  Lemma wrap_down_more n m v r : wrap_down fa n v = Ok r -> wrap_down fa m v = Ok r \/ wrap_down fa m v = Raise Diverges.
  Proof.
    revert m v. induction n as [|n IH]; intros m v H; [discriminate|]. destruct m as [|m]; [auto|].
    cbn [wrap_down] in *. destruct (a_lt fa (a_pi fa) v); auto.
  Qed.
  Lemma wrap_up_more n m v r : wrap_up fa n v = Ok r -> wrap_up fa m v = Ok r \/ wrap_up fa m v = Raise Diverges.
  Proof.
    revert m v. induction n as [|n IH]; intros m v H; [discriminate|]. destruct m as [|m]; [auto|].
    cbn [wrap_up] in *. destruct (a_lt fa v (a_neg fa (a_pi fa))); auto.
  Qed.

  Theorem C37_float_turns : forall x n m r, float_ok x ->
    (let* v := wrap_down fa n x in wrap_up fa m v) = Ok r -> wrap fa x = Ok r.
  Proof.
    intros x n m r O H.
    destruct (isnan x) eqn:N.
    { destruct x; try discriminate. destruct n; [discriminate|].
      cbn [wrap_down a_lt float_arith fltb SFltb SFcompare bind] in H. destruct m; [discriminate|].
      cbn [wrap_up a_lt a_neg float_arith fltb SFltb SFcompare bind] in H. exact H. }
    assert (D : isinf x = true \/ (isfinite x = true /\ (bpow radix2 56 < Rabs (F2 x))%R) \/
                (isfinite x = true /\ (Rabs (F2 x) <= bpow radix2 56)%R)).
    { destruct (isinf x) eqn:I; auto. assert (F : isfinite x = true) by (destruct x; auto; discriminate).
      destruct (Rle_or_lt (Rabs (F2 x)) (bpow radix2 56)); auto. }
    destruct D as [D|[D|[F D]]].
    - destruct (C37_float_hangs x O) as [G _]; auto. rewrite G in H. discriminate.
    - destruct (C37_float_hangs x O) as [G _]; auto. rewrite G in H. discriminate.
    - destruct (C37_float x O F D) as (q & k & E & _). rewrite E. unfold wrap in E.
      destruct (wrap_down fa n x) as [v|] eqn:Ev; [|discriminate]. cbn [bind] in H.
      destruct (wrap_down_more n (a_turns fa x) x v Ev) as [E1|E1]; rewrite E1 in E; [|discriminate].
      cbn [bind] in E. destruct (wrap_up_more m (a_turns fa v) v r H) as [E2|E2]; congruence.
  Qed.
End Float.

(** Non-vacuous: 100 radians wrap to about -0.53, 1e300 hangs. *)
Example C37_example :
  wrap (float_arith left_sum) (float_of_Z 100) = Ok (S754_finite true 4782506785541440 (-53)) /\
  (exists r, wrap (float_arith left_sum) (float_of_Z (-4)) = Ok r /\ F2 r = (-4 + tau)%R) /\
  wrap (float_arith left_sum) (float_of_Z (10 ^ 300)) = Raise Diverges.
Proof.
  split; [vm_compute; reflexivity|]. split.
  - assert (E : wrap (float_arith left_sum) (float_of_Z (-4)) = Ok (S754_finite false 5141276249315888 (-51)))
      by (vm_compute; reflexivity).
    eexists. split; [exact E|]. rewrite tau_value.
    change (5141276249315888 * / 2251799813685248 = -4 + 7074237752028440 * / 1125899906842624)%R. lra.
  - destruct (C37_float_hangs left_sum (float_of_Z (10 ^ 300))) as [_ H]; [vm_compute; reflexivity| |exact H].
    right. split; [vm_compute; reflexivity|].
    assert (E : (bpow radix2 56 < F2 (float_of_Z (10 ^ 300)))%R).
    { remember (float_of_Z (10 ^ 300)) as f eqn:Ef. vm_compute in Ef. subst f. unfold F2. cbn [SF2R]. unfold F2R.
      cbn [Fnum Fexp cond_Zopp]. rewrite <- (Rmult_1_l (bpow radix2 56)). apply Rmult_gt_0_lt_compat; try apply bpow_gt_0; try lra.
      apply bpow_lt. reflexivity. }
    rewrite Rabs_pos_eq; auto. pose proof (bpow_gt_0 radix2 56). lra.
Qed.

(** ** Unwrapping *)
Lemma wrap_bounds x r : wrap real_arith x = Ok r -> (- PI <= r <= PI)%R /\ same_angle r x.
Proof. intros H. destruct (C37_real x) as (q & E & A & B). rewrite E in H. injection H as <-. auto. Qed.

Lemma unwrap_loop_real l : forall last, exists l',
  unwrap_loop real_arith last l = Ok l' /\ same_angles l' l /\ steps_within PI (last :: l').
Proof.
  induction l as [|x l IH]; intros last.
  - exists []. repeat split; constructor.
  - cbn [unwrap_loop]. destruct (C37_real (a_sub real_arith x last)) as (w & -> & Bw & (k & Sw)).
    cbn [bind a_add a_sub real_arith] in *. destruct (IH (last + w)%R) as (l' & -> & A & B). cbn [bind].
    exists ((last + w)%R :: l'). split; auto. split.
    + constructor; auto. exists k. rewrite Sw. ring.
    + cbn [steps_within]. split; [|exact B]. replace (last + w - last)%R with w by ring. apply Rabs_le. lra.
Qed.

(** Unwrapping always returns: the first angle is kept, every angle is the
    same up to whole turns, and no step is longer than half a turn. *)
Theorem C38_unwrap : forall l, exists l', unwrap real_arith l = Ok l' /\
  hd_error l' = hd_error l /\ same_angles l' l /\ steps_within PI l'.
Proof.
  intros [|x l].
  - exists []. repeat split; constructor.
  - cbn [unwrap]. destruct (unwrap_loop_real l x) as (l' & -> & A & B). cbn [bind].
    exists (x :: l'). split; auto. split; auto. split; [|exact B]. constructor; auto. apply same_angle_refl.
Qed.

(** A continuous sequence of angles is recovered from its values modulo
    whole turns: if the true angles move by less than half a turn per
    sample, and the samples give them up to whole turns with the first one
    right, unwrapping gives the true angles. *)
Lemma unwrap_loop_recovers l : forall last truth, same_angles l truth -> steps_below PI (last :: truth) ->
  unwrap_loop real_arith last l = Ok truth.
Proof.
  induction l as [|x l IH]; intros last truth A B; inversion A as [|? t ? ts Ax Al]; subst; auto.
  cbn [steps_below] in B. destruct B as [B1 B2]. cbn [unwrap_loop a_sub real_arith].
  destruct Ax as (k & Ax). apply Rabs_def2 in B1.
  rewrite (C37_real_unique (x - last) (t - last)); [|exists k; rewrite Ax; ring|lra].
  cbn [bind a_add real_arith]. replace (last + (t - last))%R with t by ring. now rewrite (IH t ts).
Qed.

Theorem C38_recovers : forall l truth, hd_error l = hd_error truth -> same_angles l truth ->
  steps_below PI truth -> unwrap real_arith l = Ok truth.
Proof.
  intros l truth H A B. destruct A as [|x t l ts Ax Al]; auto. cbn in H. injection H as ->.
  cbn [unwrap]. now rewrite (unwrap_loop_recovers l t ts).
Qed.

(** Unwrapping twice is unwrapping once, when no step is exactly half a turn. *)
Corollary C38_idempotent : forall l, steps_below PI l -> unwrap real_arith l = Ok l.
Proof.
  intros l H. apply C38_recovers; auto. unfold same_angles. clear H.
  induction l; constructor; auto. apply same_angle_refl.
Qed.

(** Wrapping throws away whole turns and unwrapping restores them. *)
Corollary C38_inverse : forall truth wrapped, (forall t ts, truth = t :: ts -> (- PI <= t <= PI)%R) ->
  steps_below PI truth -> map_res (wrap real_arith) truth = Ok wrapped ->
  unwrap real_arith wrapped = Ok truth.
Proof.
  intros truth wrapped H B E. apply C38_recovers; auto.
  - destruct truth as [|t ts]; cbn [map_res] in E; [now injection E as <-|].
    rewrite wrap_id in E by (eapply H; reflexivity). cbn [bind] in E.
    destruct (map_res _ ts); [|discriminate]. cbn [bind] in E. injection E as <-. reflexivity.
  - clear H B. revert wrapped E. induction truth as [|t ts IH]; intros wrapped E; cbn [map_res] in E.
    + injection E as <-. constructor.
    + destruct (wrap real_arith t) as [w|] eqn:W; [|discriminate]. cbn [bind] in E.
      destruct (map_res (wrap real_arith) ts) as [ws|]; [|discriminate]. cbn [bind] in E. injection E as <-.
      constructor; [exact (proj2 (wrap_bounds _ _ W))|]. apply IH. reflexivity.
Qed.

(** The bound on the step is needed: a jump of more than half a turn is
    taken for a step the other way. *)
Theorem C38_fast_refuted : exists l truth, hd_error l = hd_error truth /\ same_angles l truth /\
  steps_within (2 * PI) truth /\ unwrap real_arith l <> Ok truth.
Proof.
  pose proof PI_RGT_0 as HP.
  exists [0; 3 * PI / 2]%R, [0; 3 * PI / 2]%R. split; auto. split.
  { repeat constructor; apply same_angle_refl. }
  split. { cbn. split; auto. apply Rabs_le. lra. }
  intros H. destruct (C38_unwrap [0; 3 * PI / 2]%R) as (l' & E & _ & _ & B).
  rewrite E in H. injection H as ->. cbn in B. destruct B as [B _]. apply Rabs_le_inv in B. lra.
Qed.

(** Non-vacuous: three turns in steps of 1 radian. *)
Example C38_example : let truth := map INR (seq 0 20) in
  steps_below PI truth /\ hd_error truth = Some 0%R /\ same_angles truth truth /\
  unwrap real_arith truth = Ok truth.
Proof.
  cbn zeta. assert (B : steps_below PI (map INR (seq 0 20))).
  { pose proof PI_gt_1. cbn [seq map steps_below].
    repeat match goal with |- _ /\ _ => split end; try exact I;
    (rewrite ?S_INR; match goal with |- (Rabs ?e < _)%R => replace e with 1%R by ring end; rewrite Rabs_R1; auto). }
  split; auto. split; auto. split; [|now apply C38_idempotent].
  unfold same_angles. generalize (map INR (seq 0 20)) as l. induction l; constructor; auto. apply same_angle_refl.
Qed.

Print Assumptions C37_real.
Print Assumptions C37_real_unique.
Print Assumptions C37_float.
Print Assumptions C37_float_exact.
Print Assumptions C37_float_hangs.
Print Assumptions C37_float_nan.
Print Assumptions C37_float_turns.
Print Assumptions C38_unwrap.
Print Assumptions C38_recovers.
Print Assumptions C38_idempotent.
Print Assumptions C38_inverse.
Print Assumptions C38_fast_refuted.
