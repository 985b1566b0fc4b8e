(** The float operations of PyFloat.v related to the real numbers, through
    Flocq.  [SF2R radix2 x] is the real value of x. *)
From Coq Require Import ZArith List Bool Lia Reals Lra Psatz.
From Coq Require Import Floats.SpecFloat.
From Flocq Require Import Core BinarySingleNaN.
From Verif Require Import PyBase PyFloat.
Import ListNotations.
Open Scope Z_scope.

Notation F2 := (SF2R radix2).

(** ** SpecFloat's functions are Flocq's *)

Section Equiv.
  Variable prec emax : Z.

  Lemma rne_equiv s m l : round_nearest_even m l = choice_mode mode_NE s m l.
  Proof.
    case l; [reflexivity|intro c]. case c; [|reflexivity..].
    now simpl; unfold Round.cond_incr; case Z.even.
  Qed.

  Lemma round_aux_equiv sx mx ex lx :
    SpecFloat.binary_round_aux prec emax sx mx ex lx
    = BinarySingleNaN.binary_round_aux prec emax mode_NE sx mx ex lx.
  Proof.
    unfold SpecFloat.binary_round_aux, BinarySingleNaN.binary_round_aux.
    set (mrse' := shr_fexp _ _ _ _ _). case mrse'; intros mrs' e'; simpl.
    now rewrite (rne_equiv sx).
  Qed.

  Context (prec_gt_0_ : FLX.Prec_gt_0 prec) (Hmax : Prec_lt_emax prec emax).

  Lemma round_equiv s m e :
    SpecFloat.binary_round prec emax s m e
    = BinarySingleNaN.binary_round prec emax mode_NE s m e.
  Proof.
    unfold SpecFloat.binary_round, BinarySingleNaN.binary_round, shl_align_fexp.
    set (me := shl_align _ _ _). case me as [mz ez]. apply round_aux_equiv.
  Qed.

  Lemma normalize_equiv m e szero :
    SpecFloat.binary_normalize prec emax m e szero
    = B2SF (BinarySingleNaN.binary_normalize prec emax _ _ mode_NE m e szero).
  Proof.
    case m as [|p|p].
    - now simpl.
    - simpl. rewrite B2SF_SF2B. apply round_equiv.
    - simpl. rewrite B2SF_SF2B. apply round_equiv.
  Qed.

  Lemma mul_equiv (x y : binary_float prec emax) :
    SFmul prec emax (B2SF x) (B2SF y) = B2SF (Bmult mode_NE x y).
  Proof.
    case x as [sx|sx| |sx mx ex Bx]; case y as [sy|sy| |sy my ey By]; [now trivial.. | ].
    simpl. rewrite B2SF_SF2B. apply round_aux_equiv.
  Qed.

  Lemma div_equiv (x y : binary_float prec emax) :
    SFdiv prec emax (B2SF x) (B2SF y) = B2SF (Bdiv mode_NE x y).
  Proof.
    case x as [sx|sx| |sx mx ex Bx]; case y as [sy|sy| |sy my ey By];
      [now (trivial || simpl; case Bool.eqb).. | ].
    simpl. rewrite B2SF_SF2B. set (melz := SFdiv_core_binary _ _ _ _ _ _).
    case melz as [[mz ez] lz]. apply round_aux_equiv.
  Qed.
End Equiv.

(** ** binary64 *)

Global Instance prec64_gt_0 : FLX.Prec_gt_0 prec64.
Proof. reflexivity. Qed.
Global Instance prec64_lt : Prec_lt_emax prec64 emax64.
Proof. reflexivity. Qed.
Global Instance prec32_gt_0 : FLX.Prec_gt_0 prec32.
Proof. reflexivity. Qed.
Global Instance prec32_lt : Prec_lt_emax prec32 emax32.
Proof. reflexivity. Qed.

Notation fexp64 := (SpecFloat.fexp prec64 emax64).
Notation fexp32 := (SpecFloat.fexp prec32 emax32).
Notation rnd64 := (round radix2 fexp64 ZnearestE).
Notation rnd32 := (round radix2 fexp32 ZnearestE).

Definition b64 (x : float) (H : float_ok x) : binary_float prec64 emax64 := SF2B x H.

Lemma B2SF_b64 x H : B2SF (b64 x H) = x.
Proof. apply B2SF_SF2B. Qed.
Lemma B2R_b64 x H : B2R (b64 x H) = F2 x.
Proof. apply B2R_SF2B. Qed.
Lemma fin_b64 x H : is_finite (b64 x H) = isfinite x.
Proof. unfold b64. rewrite is_finite_SF2B. destruct x; reflexivity. Qed.

Lemma isfinite_SF x : is_finite_SF x = isfinite x.
Proof. destruct x; reflexivity. Qed.

Lemma F2_B2SF (b : binary_float prec64 emax64) : F2 (B2SF b) = B2R b.
Proof. apply SF2R_B2SF. Qed.

Definition fsign (x : float) : bool := sign_SF x.

Lemma overflow_inf s : binary_overflow prec64 emax64 mode_NE s = S754_infinity s.
Proof. reflexivity. Qed.

Lemma fdiv_ok : forall x s, float_ok x -> float_ok s -> float_ok (fdiv x s).
Proof.
  intros x s Hx Hs. unfold fdiv. rewrite <- (B2SF_b64 x Hx), <- (B2SF_b64 s Hs).
  rewrite (div_equiv prec64 emax64 prec64_gt_0 prec64_lt). apply valid_binary_B2SF.
Qed.

Lemma fmul_ok : forall x s, float_ok x -> float_ok s -> float_ok (fmul x s).
Proof.
  intros x s Hx Hs. unfold fmul. rewrite <- (B2SF_b64 x Hx), <- (B2SF_b64 s Hs).
  rewrite (mul_equiv prec64 emax64 prec64_gt_0 prec64_lt). apply valid_binary_B2SF.
Qed.

Lemma fdiv_correct : forall x s, float_ok x -> float_ok s -> isfinite x = true ->
  F2 s <> 0%R ->
  if Rlt_bool (Rabs (rnd64 (F2 x / F2 s))) (bpow radix2 emax64) then
    isfinite (fdiv x s) = true /\ F2 (fdiv x s) = rnd64 (F2 x / F2 s)
    /\ fsign (fdiv x s) = xorb (fsign x) (fsign s)
  else fdiv x s = S754_infinity (xorb (fsign x) (fsign s)).
Proof.
  intros x s Hx Hs Fx Ns. unfold fdiv.
  pose proof (Bdiv_correct prec64 emax64 _ _ mode_NE (b64 x Hx) (b64 s Hs)) as C.
  rewrite !B2R_b64 in C. specialize (C Ns). cbn [round_mode] in C.
  assert (E : SFdiv prec64 emax64 x s = B2SF (Bdiv mode_NE (b64 x Hx) (b64 s Hs))).
  { rewrite <- (div_equiv prec64 emax64 prec64_gt_0 prec64_lt). now rewrite !B2SF_b64. }
  rewrite !E. clear E.
  assert (Sx : forall y H, Bsign (b64 y H) = fsign y) by (intros; apply Bsign_SF2B).
  rewrite !Sx in C.
  destruct (Rlt_bool _ _).
  - destruct C as (C1 & C2 & C3). rewrite fin_b64, Fx in C2.
    rewrite <- isfinite_SF, is_finite_SF_B2SF, F2_B2SF. repeat split; auto.
    rewrite <- C3.
    + unfold fsign. destruct (Bdiv mode_NE (b64 x Hx) (b64 s Hs)); reflexivity.
    + destruct (Bdiv mode_NE (b64 x Hx) (b64 s Hs)); auto; discriminate.
  - rewrite C. reflexivity.
Qed.

Lemma fmul_correct : forall x s, float_ok x -> float_ok s -> isfinite x = true ->
  isfinite s = true ->
  if Rlt_bool (Rabs (rnd64 (F2 x * F2 s))) (bpow radix2 emax64) then
    isfinite (fmul x s) = true /\ F2 (fmul x s) = rnd64 (F2 x * F2 s)
    /\ fsign (fmul x s) = xorb (fsign x) (fsign s)
  else fmul x s = S754_infinity (xorb (fsign x) (fsign s)).
Proof.
  intros x s Hx Hs Fx Fs. unfold fmul.
  pose proof (Bmult_correct prec64 emax64 _ _ mode_NE (b64 x Hx) (b64 s Hs)) as C.
  rewrite !B2R_b64 in C. cbn [round_mode] in C.
  assert (E : SFmul prec64 emax64 x s = B2SF (Bmult mode_NE (b64 x Hx) (b64 s Hs))).
  { rewrite <- (mul_equiv prec64 emax64 prec64_gt_0 prec64_lt). now rewrite !B2SF_b64. }
  rewrite !E. clear E.
  assert (Sx : forall y H, Bsign (b64 y H) = fsign y) by (intros; apply Bsign_SF2B).
  rewrite !Sx in C.
  destruct (Rlt_bool _ _).
  - destruct C as (C1 & C2 & C3). rewrite !fin_b64, Fx, Fs in C2.
    rewrite <- isfinite_SF, is_finite_SF_B2SF, F2_B2SF. repeat split; auto.
    rewrite <- C3.
    + unfold fsign. destruct (Bmult mode_NE (b64 x Hx) (b64 s Hs)); reflexivity.
    + destruct (Bmult mode_NE (b64 x Hx) (b64 s Hs)); auto; discriminate.
  - rewrite C. reflexivity.
Qed.

Lemma fltb_correct : forall x y, float_ok x -> float_ok y ->
  isfinite x = true -> isfinite y = true -> fltb x y = Rlt_bool (F2 x) (F2 y).
Proof.
  intros x y Hx Hy Fx Fy. unfold fltb.
  rewrite <- (B2SF_b64 x Hx) at 1. rewrite <- (B2SF_b64 y Hy) at 1.
  change (Bltb (b64 x Hx) (b64 y Hy) = Rlt_bool (F2 x) (F2 y)).
  rewrite Bltb_correct by (rewrite fin_b64; assumption). rewrite !B2R_b64. reflexivity.
Qed.

Lemma fleb_correct : forall x y, float_ok x -> float_ok y ->
  isfinite x = true -> isfinite y = true -> fleb x y = Rle_bool (F2 x) (F2 y).
Proof.
  intros x y Hx Hy Fx Fy. unfold fleb.
  rewrite <- (B2SF_b64 x Hx) at 1. rewrite <- (B2SF_b64 y Hy) at 1.
  change (Bleb (b64 x Hx) (b64 y Hy) = Rle_bool (F2 x) (F2 y)).
  rewrite Bleb_correct by (rewrite fin_b64; assumption). rewrite !B2R_b64. reflexivity.
Qed.

Lemma fneg_ok : forall x, float_ok x -> float_ok (fneg x).
Proof. intros [] H; exact H. Qed.
Lemma fneg_F2 : forall x, F2 (fneg x) = (- F2 x)%R.
Proof.
  intros [s|s| |s m e]; cbn; try (now rewrite Ropp_0).
  rewrite <- F2R_Zopp. f_equal. destruct s; reflexivity.
Qed.
Lemma fneg_fin : forall x, isfinite (fneg x) = isfinite x.
Proof. intros []; reflexivity. Qed.

(** Truncation. *)
Lemma ftrunc_correct : forall x, isfinite x = true -> ftrunc x = Ztrunc (F2 x).
Proof.
  intros [s|s| |s m e] F; try discriminate; cbn [ftrunc SF2R].
  - unfold F2. cbn. now rewrite Ztrunc_IZR.
  - assert (A : Ztrunc (F2R (Float radix2 (Zpos m) e))
                = (if e <? 0 then Zpos m / 2 ^ (- e) else Zpos m * 2 ^ e)).
    { unfold F2R. cbn [Fnum Fexp]. destruct (Z.ltb_spec e 0).
      - rewrite Ztrunc_floor.
        + replace (bpow radix2 e) with (/ IZR (2 ^ (- e)))%R.
          * change (IZR (Zpos m) * / IZR (2 ^ (- e)))%R with (IZR (Zpos m) / IZR (2 ^ (- e)))%R.
            rewrite Zfloor_div; auto. apply Z.pow_nonzero; lia.
          * change 2 with (radix_val radix2). rewrite IZR_Zpower by lia.
            rewrite <- bpow_opp. f_equal. lia.
        + apply Rmult_le_pos; [apply IZR_le; lia|apply bpow_ge_0].
      - rewrite <- IZR_Zpower by lia. rewrite <- mult_IZR. apply Ztrunc_IZR. }
    cbn [cond_Zopp]. destruct s; cbn [cond_Zopp].
    + rewrite <- A. rewrite <- Ztrunc_opp. f_equal. rewrite <- F2R_Zopp. reflexivity.
    + rewrite <- A. reflexivity.
Qed.

(** Integers of at most 53 bits are exact. *)
Lemma normalize64 : forall m e s,
  let x := F2R (Float radix2 m e) in
  float_ok (SpecFloat.binary_normalize prec64 emax64 m e s) /\
  if Rlt_bool (Rabs (rnd64 x)) (bpow radix2 emax64) then
    F2 (SpecFloat.binary_normalize prec64 emax64 m e s) = rnd64 x
    /\ isfinite (SpecFloat.binary_normalize prec64 emax64 m e s) = true
    /\ fsign (SpecFloat.binary_normalize prec64 emax64 m e s)
       = match Rcompare x 0 with Eq => s | Lt => true | Gt => false end
  else SpecFloat.binary_normalize prec64 emax64 m e s = S754_infinity (Rlt_bool x 0).
Proof.
  intros m e s x. rewrite (normalize_equiv prec64 emax64 prec64_gt_0 prec64_lt).
  split; [apply valid_binary_B2SF|].
  pose proof (binary_normalize_correct prec64 emax64 _ _ mode_NE m e s) as C.
  cbn [round_mode] in C. cbv zeta in C. fold x in C.
  destruct (Rlt_bool _ _).
  - destruct C as (C1 & C2 & C3). rewrite F2_B2SF. rewrite <- isfinite_SF, is_finite_SF_B2SF.
    repeat split; auto. rewrite <- C3.
    unfold fsign. destruct (BinarySingleNaN.binary_normalize _ _ _ _ _ _ _ _); auto.
  - exact C.
Qed.

Lemma normalize32 : forall m e s,
  let x := F2R (Float radix2 m e) in
  float32_ok (SpecFloat.binary_normalize prec32 emax32 m e s) /\
  if Rlt_bool (Rabs (rnd32 x)) (bpow radix2 emax32) then
    F2 (SpecFloat.binary_normalize prec32 emax32 m e s) = rnd32 x
    /\ isfinite (SpecFloat.binary_normalize prec32 emax32 m e s) = true
    /\ fsign (SpecFloat.binary_normalize prec32 emax32 m e s)
       = match Rcompare x 0 with Eq => s | Lt => true | Gt => false end
  else SpecFloat.binary_normalize prec32 emax32 m e s = S754_infinity (Rlt_bool x 0).
Proof.
  intros m e s x. rewrite (normalize_equiv prec32 emax32 prec32_gt_0 prec32_lt).
  split; [apply valid_binary_B2SF|].
  pose proof (binary_normalize_correct prec32 emax32 _ _ mode_NE m e s) as C.
  cbn [round_mode] in C. cbv zeta in C. fold x in C.
  destruct (Rlt_bool _ _).
  - destruct C as (C1 & C2 & C3). rewrite SF2R_B2SF. rewrite <- isfinite_SF, is_finite_SF_B2SF.
    repeat split; auto. rewrite <- C3.
    unfold fsign. destruct (BinarySingleNaN.binary_normalize _ _ _ _ _ _ _ _); auto.
  - exact C.
Qed.

Lemma float_of_Z_ok : forall z, float_ok (float_of_Z z).
Proof. intro z. apply (normalize64 z 0 false). Qed.

Lemma IZR_format64 : forall z, Z.abs z <= 2 ^ 53 -> generic_format radix2 fexp64 (IZR z).
Proof.
  intros z Hz. replace (IZR z) with (F2R (Float radix2 z 0)).
  2:{ unfold F2R. cbn. ring. }
  destruct (Z.eq_dec (Z.abs z) (2 ^ 53)) as [E|E].
  - assert (z = 2 ^ 53 \/ z = - 2 ^ 53) as [-> | ->] by lia.
    + replace (F2R _) with (bpow radix2 53).
      * apply generic_format_bpow. unfold fexp64. cbn. lia.
      * unfold F2R. cbn [Fnum Fexp]. rewrite <- IZR_Zpower by lia. cbn. lra.
    + replace (F2R _) with (- bpow radix2 53)%R.
      * apply generic_format_opp. apply generic_format_bpow. unfold fexp64. cbn. lia.
      * unfold F2R. cbn [Fnum Fexp]. rewrite <- IZR_Zpower by lia. cbn. lra.
  - apply generic_format_F2R. intro NZ. unfold cexp.
    rewrite mag_F2R_Zdigits by exact NZ.
    assert (Zdigits radix2 z <= 53).
    { apply Zdigits_le_Zpower. cbn. lia. }
    unfold fexp64, prec64, emax64, emin. lia.
Qed.

Lemma float_of_Z_correct : forall z, Z.abs z <= 2 ^ 53 ->
  isfinite (float_of_Z z) = true /\ F2 (float_of_Z z) = IZR z.
Proof.
  intros z Hz. unfold float_of_Z. pose proof (normalize64 z 0 false) as [_ C].
  replace (F2R (Float radix2 z 0)) with (IZR z) in C by (unfold F2R; cbn; ring).
  rewrite round_generic in C; [|apply valid_rnd_N|apply IZR_format64; exact Hz].
  rewrite Rlt_bool_true in C.
  - tauto.
  - rewrite <- abs_IZR. apply Rle_lt_trans with (IZR (2 ^ 53)); [apply IZR_le; exact Hz|].
    replace (IZR (2 ^ 53)) with (bpow radix2 53).
    + apply bpow_lt. reflexivity.
    + rewrite <- IZR_Zpower by lia. reflexivity.
Qed.

Lemma F2_format64 : forall x, float_ok x -> generic_format radix2 fexp64 (F2 x).
Proof. intros x H. rewrite <- (B2R_b64 x H). apply generic_format_B2R. Qed.

Lemma F2_lt_emax : forall x, float_ok x -> (Rabs (F2 x) < bpow radix2 emax64)%R.
Proof. intros x H. rewrite <- (B2R_b64 x H). apply abs_B2R_lt_emax. Qed.

(** Floats are determined by their value and sign. *)
Lemma float_eq : forall x y, float_ok x -> float_ok y -> isfinite x = true ->
  isfinite y = true -> F2 x = F2 y -> fsign x = fsign y -> x = y.
Proof.
  intros x y Hx Hy Fx Fy E S.
  rewrite <- (B2SF_b64 x Hx), <- (B2SF_b64 y Hy). f_equal.
  apply B2R_Bsign_inj; rewrite ?fin_b64, ?B2R_b64; auto.
  unfold b64. rewrite !Bsign_SF2B. exact S.
Qed.

Lemma flit1_F2 : F2 (flit 1 0) = 1%R.
Proof. vm_compute. lra. Qed.

Lemma flit1_ok : float_ok (flit 1 0).
Proof. vm_compute. reflexivity. Qed.

(** x / 1.0 = x and x * 1.0 = x *)
Lemma fdiv_1 : forall x, float_ok x -> isfinite x = true -> fdiv x (flit 1 0) = x.
Proof.
  intros x Hx Fx.
  pose proof (fdiv_correct x (flit 1 0) Hx flit1_ok Fx) as C.
  rewrite flit1_F2 in C. specialize (C ltac:(lra)).
  replace (F2 x / 1)%R with (F2 x) in C by field.
  rewrite round_generic in C; [|apply valid_rnd_N|apply F2_format64; auto].
  rewrite Rlt_bool_true in C by (apply F2_lt_emax; auto).
  destruct C as (C1 & C2 & C3).
  apply float_eq; auto.
  - apply fdiv_ok; auto. exact flit1_ok.
  - rewrite C3. replace (fsign (flit 1 0)) with false by (vm_compute; reflexivity).
    apply xorb_false_r.
Qed.

Lemma fmul_1 : forall x, float_ok x -> fmul x (flit 1 0) = x.
Proof.
  intros x Hx. destruct (isfinite x) eqn:Fx.
  - pose proof (fmul_correct x (flit 1 0) Hx flit1_ok Fx) as C.
    specialize (C ltac:(vm_compute; reflexivity)). rewrite flit1_F2 in C.
    rewrite Rmult_1_r in C.
    rewrite round_generic in C; [|apply valid_rnd_N|apply F2_format64; auto].
    rewrite Rlt_bool_true in C by (apply F2_lt_emax; auto).
    destruct C as (C1 & C2 & C3).
    apply float_eq; auto.
    + apply fmul_ok; auto. exact flit1_ok.
    + rewrite C3. replace (fsign (flit 1 0)) with false by (vm_compute; reflexivity).
      apply xorb_false_r.
  - destruct x as [s|s| |s m e]; try discriminate.
    + destruct s; vm_compute; reflexivity.
    + reflexivity.
Qed.
