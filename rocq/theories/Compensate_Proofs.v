(** Lemmas about the compensation tables: rounding to 127 steps. *)
From Coq Require Import Ascii String ZArith List Bool Lia Reals Lra Psatz.
From Coq Require Import Floats.SpecFloat.
From Flocq Require Import Core BinarySingleNaN Relative.
From Verif Require Import PyBase PyBytes PyFloat Float_Proofs Tool_Model Calib_Model Config_Model
  Migrate_Tables Compensate_Model.
Import ListNotations.
Open Scope R_scope.

Notation emin64 := (-1074)%Z.

Lemma half_format n : (Z.abs n <= 2 ^ 52)%Z -> generic_format radix2 fexp64 (IZR n / 2).
Proof.
  intros H. replace (IZR n / 2) with (F2R (Float radix2 n (-1))) by (unfold F2R; cbn; lra).
  apply (generic_format_FLT radix2 emin64 53). exists (Float radix2 n (-1)); cbn; try lia. reflexivity.
Qed.

(** Rounding of what is at most 127.5. *)
Lemma rnd_small y : Rabs y <= 255 / 2 -> Rabs (rnd64 y) <= 255 / 2 /\ Rabs (rnd64 y - y) <= / 2 * bpow radix2 (-46).
Proof.
  intros H. apply Rabs_le_inv in H. split.
  - apply Rabs_le. split.
    + replace (- (255 / 2)) with (rnd64 (- (255 / 2))); [apply round_le; try typeclasses eauto; lra|].
      apply round_generic; [typeclasses eauto|]. replace (- (255 / 2)) with (IZR (-255) / 2) by lra. apply half_format. lia.
    + replace (255 / 2) with (rnd64 (255 / 2)); [apply round_le; try typeclasses eauto; lra|].
      apply round_generic; [typeclasses eauto|]. apply half_format. lia.
  - eapply Rle_trans; [apply error_le_half_ulp; typeclasses eauto|].
    apply Rmult_le_compat_l; [lra|].
    eapply Rle_trans; [apply (ulp_le radix2 fexp64 y (255 / 2))|].
    + rewrite (Rabs_pos_eq (255 / 2)) by lra. now apply Rabs_le.
    + rewrite ulp_neq_0 by lra. unfold cexp. rewrite (mag_unique radix2 (255 / 2) 7); [apply Rle_refl|].
      rewrite Rabs_pos_eq by lra. cbn. lra.
Qed.

(** Rounding of what is not tiny. *)
Lemma rnd_relative y : bpow radix2 (-1022) <= Rabs y -> Rabs (rnd64 y - y) <= bpow radix2 (-53) * Rabs y.
Proof.
  intros H. pose proof (relative_error_N_FLT radix2 emin64 53 eq_refl (fun x => negb (Z.even x)) y H) as R.
  eapply Rle_trans; [exact R|]. apply Rmult_le_compat_r; [apply Rabs_pos|]. cbn. lra.
Qed.

Lemma trunc_small q n : Rabs q < IZR n + 1 -> (Z.abs (Ztrunc q) <= n)%Z.
Proof.
  intros H. destruct (Rle_or_lt 0 q) as [G|G].
  - rewrite Rabs_pos_eq in H by auto. rewrite Ztrunc_floor by auto.
    assert (0 <= Zfloor q)%Z by (apply Zfloor_lub; auto). rewrite Z.abs_eq by auto.
    enough (Zfloor q < n + 1)%Z by lia. apply lt_IZR. rewrite plus_IZR. eapply Rle_lt_trans; [apply Zfloor_lb|lra].
  - rewrite Rabs_left in H by auto. rewrite Ztrunc_ceil by lra.
    assert (Zceil q <= 0)%Z by (apply Zceil_glb; cbn; lra). rewrite Z.abs_neq by auto.
    enough (- n - 1 < Zceil q)%Z by lia. apply lt_IZR. rewrite minus_IZR, opp_IZR. eapply Rlt_le_trans; [|apply Zceil_ub]. lra.
Qed.
Lemma trunc_near q : Rabs (IZR (Ztrunc q) - q) < 1.
Proof.
  destruct (Rle_or_lt 0 q) as [G|G].
  - rewrite Ztrunc_floor by auto. pose proof (Zfloor_lb q). pose proof (Zfloor_ub q). apply Rabs_lt. lra.
  - rewrite Ztrunc_ceil by lra. pose proof (Zceil_ub q). pose proof (Zceil_lb q). apply Rabs_lt. lra.
Qed.
Lemma trunc_large q n : IZR n <= Rabs q -> (0 <= n)%Z -> (n <= Z.abs (Ztrunc q))%Z.
Proof.
  intros H N. destruct (Rle_or_lt 0 q) as [G|G].
  - rewrite Rabs_pos_eq in H by auto. rewrite Ztrunc_floor by auto.
    apply Zfloor_lub in H. lia.
  - rewrite Rabs_left in H by auto. rewrite Ztrunc_ceil by lra.
    enough (Zceil q <= - n)%Z by lia. apply Zceil_glb. rewrite opp_IZR. lra.
Qed.

Lemma py_int_ok x : isfinite x = true -> py_int x = Ok (Ztrunc (F2 x)).
Proof. intros H. rewrite <- ftrunc_correct by exact H. destruct x; try discriminate; reflexivity. Qed.

Lemma div_finite x s : float_ok x -> float_ok s -> isfinite x = true -> F2 s <> 0 ->
  Rabs (rnd64 (F2 x / F2 s)) < bpow radix2 1024 ->
  isfinite (fdiv x s) = true /\ F2 (fdiv x s) = rnd64 (F2 x / F2 s).
Proof.
  intros X S F N B. pose proof (fdiv_correct x s X S F N) as C.
  rewrite Rlt_bool_true in C by exact B. tauto.
Qed.

Lemma feqb_zero s : float_ok s -> isfinite s = true -> F2 s <> 0 -> feqb s (float_of_Z 0) = false.
Proof.
  intros O F N. destruct s as [b|b| |b m e]; try discriminate; try reflexivity.
  - now elim N.
  - now destruct b.
Qed.

Lemma F2_127 : F2 (float_of_Z 127) = 127 /\ isfinite (float_of_Z 127) = true.
Proof. split; [|reflexivity]. apply (float_of_Z_correct 127). lia. Qed.

Lemma F2_abs x : F2 (SFabs x) = Rabs (F2 x).
Proof.
  destruct x as [s|s| |s m e]; cbn; try (now rewrite Rabs_R0).
  rewrite <- F2R_Zabs. destruct s; reflexivity.
Qed.
Lemma fin_abs x : isfinite (SFabs x) = isfinite x.
Proof. now destruct x. Qed.
Lemma ok_abs x : float_ok x -> float_ok (SFabs x).
Proof. now destruct x. Qed.

(** ** The quotient by a 127th of the greatest *)
Definition big : R := bpow radix2 1024.

Lemma big_127 : 255 / 2 < big.
Proof. apply Rlt_trans with (bpow radix2 7); [cbn; lra|]. apply bpow_lt. lia. Qed.

Lemma step_scale M : float_ok M -> isfinite M = true -> bpow radix2 (-1015) <= F2 M ->
  let s := fdiv M (float_of_Z 127) in
  float_ok s /\ isfinite s = true /\ 0 < F2 s /\
  Rabs (F2 s - F2 M / 127) <= bpow radix2 (-53) * (F2 M / 127).
Proof.
  intros O F L s. destruct F2_127 as [E E'].
  assert (P : 0 < F2 M) by (eapply Rlt_le_trans; [apply bpow_gt_0|exact L]).
  assert (Lo : bpow radix2 (-1022) <= F2 M / 127).
  { change (-1022)%Z with (-1015 + -7)%Z. rewrite bpow_plus.
    assert (bpow radix2 (-1015) * / 128 <= F2 M * / 128) by (apply Rmult_le_compat_r; [lra|exact L]).
    change (bpow radix2 (-7)) with (/ 128). lra. }
  assert (R : Rabs (rnd64 (F2 M / 127) - F2 M / 127) <= bpow radix2 (-53) * (F2 M / 127)).
  { eapply Rle_trans; [apply rnd_relative|]; rewrite Rabs_pos_eq by lra; [exact Lo|apply Rle_refl]. }
  assert (U : 0 < bpow radix2 (-53) < / 1000) by (cbn; lra).
  assert (Q : 0 < F2 M / 127) by lra.
  apply Rabs_le_inv in R as R'.
  assert (H1 : 0 < rnd64 (F2 M / 127) < F2 M) by nra.
  pose proof (div_finite M (float_of_Z 127) O (float_of_Z_ok 127) F) as D. rewrite E in D.
  destruct D as [D1 D2]; [lra| |].
  { rewrite Rabs_pos_eq by lra. eapply Rlt_trans; [apply H1|].
    pose proof (F2_lt_emax M O) as B. rewrite Rabs_pos_eq in B by lra. exact B. }
  split; [apply fdiv_ok; auto; apply float_of_Z_ok|]. split; [exact D1|]. unfold s. rewrite D2. split; [lra|exact R].
Qed.

(** One number x, the greatest being M, in steps of s. *)
Lemma step_quotient M x : float_ok M -> isfinite M = true -> bpow radix2 (-1015) <= F2 M ->
  float_ok x -> isfinite x = true -> Rabs (F2 x) <= F2 M ->
  let s := fdiv M (float_of_Z 127) in
  exists d, (let* q := float_div x s in py_int q) = Ok d /\ (Z.abs d <= 127)%Z /\
    Rabs (IZR d * F2 s - F2 x) <= F2 s * (1 + bpow radix2 (-46)) /\
    (Rabs (F2 x) = F2 M -> (126 <= Z.abs d)%Z).
Proof.
  intros O F L Ox Fx B s. destruct (step_scale M O F L) as (Os & Fs & Ps & R). fold s in Os, Fs, Ps, R.
  assert (P : 0 < F2 M) by (eapply Rlt_le_trans; [apply bpow_gt_0|exact L]).
  assert (U : 0 < bpow radix2 (-53) < / 100000) by (cbn; lra).
  apply Rabs_le_inv in R.
  assert (S1 : F2 M <= 255 / 2 * F2 s) by nra.
  assert (S2 : 253 / 2 * F2 s <= F2 M) by nra.
  assert (Y : Rabs (F2 x / F2 s) <= 255 / 2).
  { unfold Rdiv at 1. rewrite Rabs_mult, Rabs_inv, (Rabs_pos_eq (F2 s)) by lra.
    apply Rmult_le_reg_r with (F2 s); [lra|]. rewrite Rmult_assoc, Rinv_l by lra. lra. }
  destruct (rnd_small _ Y) as [Y1 Y2].
  destruct (div_finite x s Ox Os Fx) as [D1 D2]; [lra|eapply Rle_lt_trans; [exact Y1|exact big_127]|].
  exists (Ztrunc (F2 (fdiv x s))). unfold float_div. rewrite feqb_zero by (auto; lra). cbn [bind].
  rewrite py_int_ok by exact D1. rewrite D2. split; [reflexivity|]. split; [|split].
  - apply trunc_small. lra.
  - pose proof (trunc_near (rnd64 (F2 x / F2 s))) as T.
    set (d := IZR (Ztrunc _)) in *. set (q := rnd64 _) in *.
    replace (d * F2 s - F2 x) with ((d - q + (q - F2 x / F2 s)) * F2 s) by (field; lra).
    rewrite Rabs_mult, (Rabs_pos_eq (F2 s)) by lra. rewrite Rmult_comm. apply Rmult_le_compat_l; [lra|].
    eapply Rle_trans; [apply Rabs_triang|].
    assert (0 < bpow radix2 (-46)) by apply bpow_gt_0. lra.
  - intros G. apply trunc_large; [|lia].
    assert (253 / 2 <= Rabs (F2 x / F2 s)).
    { unfold Rdiv at 2. rewrite Rabs_mult, Rabs_inv, (Rabs_pos_eq (F2 s)), G by lra.
      apply Rmult_le_reg_r with (F2 s); [lra|]. rewrite Rmult_assoc, Rinv_l by lra. lra. }
    pose proof (Rabs_triang_inv (F2 x / F2 s) (F2 x / F2 s - rnd64 (F2 x / F2 s))) as T.
    replace (F2 x / F2 s - (F2 x / F2 s - rnd64 (F2 x / F2 s))) with (rnd64 (F2 x / F2 s)) in T by lra.
    rewrite (Rabs_minus_sym (F2 x / F2 s) (rnd64 _)) in T.
    assert (/ 2 * bpow radix2 (-46) < / 2) by (cbn; lra). lra.
Qed.

(** ** 127 times the number, by the greatest *)
Lemma product_quotient M x : float_ok M -> isfinite M = true ->
  bpow radix2 (-1000) <= F2 M <= bpow radix2 1000 ->
  float_ok x -> isfinite x = true -> Rabs (F2 x) <= F2 M ->
  exists d, quantise M x = Ok d /\ (Z.abs d <= 127)%Z /\
    Rabs (IZR d * (F2 M / 127) - F2 x) <= F2 M / 127 * (1 + bpow radix2 (-45)) /\
    (Rabs (F2 x) = F2 M -> (126 <= Z.abs d)%Z).
Proof.
  intros O F [L H] Ox Fx B. destruct F2_127 as [E E'].
  assert (P : 0 < F2 M) by (eapply Rlt_le_trans; [apply bpow_gt_0|exact L]).
  set (y := 127 * F2 x).
  assert (W : Rabs (rnd64 y - y) <= bpow radix2 (-53) * (127 * F2 M)).
  { eapply Rle_trans; [apply error_le_half_ulp; typeclasses eauto|].
    eapply Rle_trans; [apply Rmult_le_compat_l; [lra|]; apply (ulp_le radix2 fexp64 y (127 * F2 M))|].
    - unfold y. rewrite !Rabs_mult, (Rabs_pos_eq 127), (Rabs_pos_eq (F2 M)) by lra. apply Rmult_le_compat_l; lra.
    - change (ulp radix2 fexp64 (127 * F2 M)) with (ulp radix2 (FLT_exp emin64 53) (127 * F2 M)).
      pose proof (ulp_FLT_le radix2 emin64 53 (127 * F2 M)) as V.
      rewrite (Rabs_pos_eq (127 * F2 M)) in V by lra.
      assert (bpow radix2 (emin64 + 53 - 1) <= 127 * F2 M).
      { apply Rle_trans with (bpow radix2 (-1000)); [apply bpow_le; lia|]. lra. }
      specialize (V H0). replace (bpow radix2 (-53)) with (/ 2 * bpow radix2 (1 - 53)) by (cbn; lra). lra. }
  assert (U : 0 < bpow radix2 (-53) < / 100000) by (cbn; lra).
  assert (Y : Rabs (rnd64 y) <= 255 / 2 * F2 M).
  { replace (rnd64 y) with (rnd64 y - y + y) by lra. eapply Rle_trans; [apply Rabs_triang|].
    assert (Rabs y <= 127 * F2 M) by (unfold y; rewrite Rabs_mult, (Rabs_pos_eq 127) by lra; apply Rmult_le_compat_l; lra).
    nra. }
  assert (FM : isfinite (fmul (float_of_Z 127) x) = true /\ F2 (fmul (float_of_Z 127) x) = rnd64 y).
  { pose proof (fmul_correct (float_of_Z 127) x (float_of_Z_ok 127) Ox E' Fx) as C. rewrite E in C. fold y in C.
    rewrite Rlt_bool_true in C; [tauto|]. eapply Rle_lt_trans; [exact Y|].
    apply Rle_lt_trans with (bpow radix2 7 * bpow radix2 1000); [|rewrite <- bpow_plus; apply bpow_lt; unfold emax64; lia].
    apply Rmult_le_compat; try lra. cbn. lra. }
  destruct FM as [Fp Ep]. pose proof (fmul_ok _ _ (float_of_Z_ok 127) Ox) as Op.
  assert (Z1 : Rabs (rnd64 y / F2 M) <= 255 / 2).
  { unfold Rdiv at 1. rewrite Rabs_mult, Rabs_inv, (Rabs_pos_eq (F2 M)) by lra.
    apply Rmult_le_reg_r with (F2 M); [lra|]. rewrite Rmult_assoc, Rinv_l by lra. lra. }
  destruct (rnd_small _ Z1) as [Y1 Y2].
  destruct (div_finite (fmul (float_of_Z 127) x) M Op O Fp) as [D1 D2]; [lra|rewrite Ep; eapply Rle_lt_trans; [exact Y1|exact big_127]|].
  rewrite Ep in D2.
  assert (W' : Rabs (rnd64 y / F2 M - y / F2 M) <= 127 * bpow radix2 (-53)).
  { replace (rnd64 y / F2 M - y / F2 M) with ((rnd64 y - y) / F2 M) by (field; lra).
    unfold Rdiv. rewrite Rabs_mult, Rabs_inv, (Rabs_pos_eq (F2 M)) by lra.
    apply Rmult_le_reg_r with (F2 M); [lra|]. rewrite Rmult_assoc, Rinv_l by lra. lra. }
  exists (Ztrunc (F2 (fdiv (fmul (float_of_Z 127) x) M))). unfold quantise, float_div.
  rewrite feqb_zero by (auto; lra). cbn [bind].
  rewrite py_int_ok by exact D1. rewrite D2. split; [reflexivity|].
  assert (N : 127 * bpow radix2 (-53) + / 2 * bpow radix2 (-46) <= bpow radix2 (-45)) by (cbn; lra).
  split; [|split].
  - apply trunc_small. lra.
  - pose proof (trunc_near (rnd64 (rnd64 y / F2 M))) as T.
    set (d := IZR (Ztrunc _)) in *. set (q := rnd64 (rnd64 y / F2 M)) in *.
    replace (d * (F2 M / 127) - F2 x) with ((d - q + ((q - rnd64 y / F2 M) + (rnd64 y / F2 M - y / F2 M))) * (F2 M / 127))
      by (unfold y; field; lra).
    rewrite Rabs_mult, (Rabs_pos_eq (F2 M / 127)) by lra. rewrite Rmult_comm. apply Rmult_le_compat_l; [lra|].
    eapply Rle_trans; [apply Rabs_triang|].
    eapply Rle_trans; [apply Rplus_le_compat_l; apply Rabs_triang|]. lra.
  - intros G. apply trunc_large; [|lia].
    assert (G1 : Rabs (y / F2 M) = 127).
    { unfold y, Rdiv. rewrite !Rabs_mult, Rabs_inv, (Rabs_pos_eq (F2 M)), G, (Rabs_pos_eq 127) by lra. field. lra. }
    set (q := rnd64 (rnd64 y / F2 M)) in *.
    pose proof (Rabs_triang (y / F2 M - rnd64 y / F2 M) (rnd64 y / F2 M - q)) as T1.
    pose proof (Rabs_triang_inv (y / F2 M) (y / F2 M - q)) as T.
    replace (y / F2 M - (y / F2 M - q)) with q in T by lra.
    replace (y / F2 M - rnd64 y / F2 M + (rnd64 y / F2 M - q)) with (y / F2 M - q) in T1 by lra.
    rewrite (Rabs_minus_sym (y / F2 M) (rnd64 y / F2 M)), (Rabs_minus_sym (rnd64 y / F2 M) q) in T1.
    assert (bpow radix2 (-45) < / 2) by (cbn; lra). lra.
Qed.

(** ** The greatest and the least *)
Definition number (x : float) : Prop := float_ok x /\ isfinite x = true.

Lemma lt_cases x y : number x -> number y -> (fltb x y = true /\ F2 x < F2 y) \/ (fltb x y = false /\ F2 y <= F2 x).
Proof.
  intros [X FX] [Y FY]. rewrite fltb_correct by auto. destruct (Rlt_bool_spec (F2 x) (F2 y)); auto.
Qed.

Lemma fold_least l : forall x, Forall number (x :: l) ->
  let m := fold_left (fun m x => if fltb x m then x else m) l x in
  In m (x :: l) /\ forall y, In y (x :: l) -> F2 m <= F2 y.
Proof.
  induction l as [|a l IH]; intros x N m.
  - unfold m. cbn. split; [auto|]. intros y [->|[]]. lra.
  - inversion N as [|? ? Nx N']; subst. inversion N' as [|? ? Na Nl]; subst. unfold m. cbn [fold_left].
    destruct (lt_cases a x Na Nx) as [[E L]|[E L]]; rewrite E.
    + destruct (IH a) as [I J]; [constructor; auto|]. split; [right; exact I|].
      intros y [<-|H]; [|auto]. pose proof (J a (or_introl eq_refl)). lra.
    + destruct (IH x) as [I J]; [constructor; auto|]. split; [destruct I as [I|I]; [left|right; right]; exact I|].
      intros y [<-|[<-|H]].
      * apply J. now left.
      * pose proof (J x (or_introl eq_refl)). lra.
      * apply J. now right.
Qed.
Lemma fold_greatest l : forall x, Forall number (x :: l) ->
  let m := fold_left (fun m x => if fgtb x m then x else m) l x in
  In m (x :: l) /\ forall y, In y (x :: l) -> F2 y <= F2 m.
Proof.
  induction l as [|a l IH]; intros x N m.
  - unfold m. cbn. split; [auto|]. intros y [->|[]]. lra.
  - inversion N as [|? ? Nx N']; subst. inversion N' as [|? ? Na Nl]; subst. unfold m. cbn [fold_left].
    change (fgtb a x) with (fltb x a). destruct (lt_cases x a Nx Na) as [[E L]|[E L]]; rewrite E.
    + destruct (IH a) as [I J]; [constructor; auto|]. split; [right; exact I|].
      intros y [<-|H]; [|auto]. pose proof (J a (or_introl eq_refl)). lra.
    + destruct (IH x) as [I J]; [constructor; auto|]. split; [destruct I as [I|I]; [left|right; right]; exact I|].
      intros y [<-|[<-|H]].
      * apply J. now left.
      * pose proof (J x (or_introl eq_refl)). lra.
      * apply J. now right.
Qed.

Lemma number_abs x : number x -> number (SFabs x).
Proof. intros [O F]. split; [now apply ok_abs|now rewrite fin_abs]. Qed.

(** max(abs(max(l)), abs(min(l))) *)
Lemma two_sided l : Forall number l -> l <> [] -> exists hi lo, fmax l = Ok hi /\ fmin_list l = Ok lo /\
  let M := fmax2 (SFabs hi) (SFabs lo) in
  number M /\ (exists x, In x l /\ Rabs (F2 x) = F2 M) /\ forall x, In x l -> Rabs (F2 x) <= F2 M.
Proof.
  intros N E. destruct l as [|a l]; [congruence|]. cbn [fmax fmin_list].
  destruct (fold_greatest l a N) as [H1 H2]. destruct (fold_least l a N) as [L1 L2].
  do 2 eexists. split; [reflexivity|]. split; [reflexivity|].
  set (hi := fold_left (fun m x => if fgtb x m then x else m) l a) in *.
  set (lo := fold_left (fun m x => if fltb x m then x else m) l a) in *.
  assert (Nh : number hi) by (rewrite Forall_forall in N; auto).
  assert (Nl : number lo) by (rewrite Forall_forall in N; auto).
  cbv zeta. unfold fmax2. change (fgtb (SFabs lo) (SFabs hi)) with (fltb (SFabs hi) (SFabs lo)).
  assert (B : forall x, In x (a :: l) -> Rabs (F2 x) <= Rmax (Rabs (F2 hi)) (Rabs (F2 lo))).
  { intros x I. specialize (H2 x I). specialize (L2 x I).
    apply Rabs_le. pose proof (Rmax_l (Rabs (F2 hi)) (Rabs (F2 lo))). pose proof (Rmax_r (Rabs (F2 hi)) (Rabs (F2 lo))).
    pose proof (Rle_abs (F2 hi)). pose proof (Rle_abs (- F2 lo)). rewrite Rabs_Ropp in *. lra. }
  destruct (lt_cases _ _ (number_abs hi Nh) (number_abs lo Nl)) as [[E' L]|[E' L]]; rewrite E'; rewrite !F2_abs in *.
  - split; [now apply number_abs|]. split; [exists lo; auto|]. intros x I. specialize (B x I). rewrite Rmax_right in B; lra.
  - split; [now apply number_abs|]. split; [exists hi; auto|]. intros x I. specialize (B x I). rewrite Rmax_left in B; lra.
Qed.

(** max(abs(x) for x in l) *)
Lemma one_sided l : Forall number l -> l <> [] -> exists M, fmax (map SFabs l) = Ok M /\
  number M /\ (exists x, In x l /\ Rabs (F2 x) = F2 M) /\ forall x, In x l -> Rabs (F2 x) <= F2 M.
Proof.
  intros N E. destruct l as [|a l]; [congruence|]. cbn [fmax map].
  assert (N' : Forall number (SFabs a :: map SFabs l)).
  { change (Forall number (map SFabs (a :: l))). rewrite Forall_map. eapply Forall_impl; [|exact N]. intros x. apply number_abs. }
  destruct (fold_greatest (map SFabs l) (SFabs a) N') as [H1 H2].
  eexists. split; [reflexivity|]. set (M := fold_left _ _ _) in *.
  split; [rewrite Forall_forall in N'; auto|]. split.
  - change (In M (map SFabs (a :: l))) in H1. apply in_map_iff in H1 as (x & Ex & I). exists x. split; [exact I|].
    rewrite <- Ex, F2_abs. reflexivity.
  - intros x I. rewrite <- F2_abs. apply H2. change (In (SFabs x) (map SFabs (a :: l))). now apply in_map.
Qed.
