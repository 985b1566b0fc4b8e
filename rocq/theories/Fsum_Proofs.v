(** Addition and subtraction of floats related to the real numbers. *)
From Coq Require Import ZArith List Bool Lia Reals Lra Psatz.
From Coq Require Import Floats.SpecFloat.
From Flocq Require Import Core BinarySingleNaN.
From Verif Require Import PyBase PyFloat Float_Proofs.
Import ListNotations.
Open Scope Z_scope.

Section Equiv.
  Variable prec emax : Z.
  Context (prec_gt_0_ : FLX.Prec_gt_0 prec) (Hmax : Prec_lt_emax prec emax).

  Lemma add_equiv (x y : binary_float prec emax) :
    SFadd prec emax (B2SF x) (B2SF y) = B2SF (Bplus mode_NE x y).
  Proof.
    case x as [sx|sx| |sx mx ex Bx]; case y as [sy|sy| |sy my ey By];
      try (now (trivial || (destruct sx, sy; trivial))).
    cbn [B2SF SFadd Bplus]. cbv zeta. apply (normalize_equiv prec emax prec_gt_0_ Hmax).
  Qed.

  Lemma sub_equiv (x y : binary_float prec emax) :
    SFsub prec emax (B2SF x) (B2SF y) = B2SF (Bminus mode_NE x y).
  Proof.
    case x as [sx|sx| |sx mx ex Bx]; case y as [sy|sy| |sy my ey By];
      try (now (trivial || (destruct sx, sy; trivial))).
    cbn [B2SF SFsub Bminus]. cbv zeta. rewrite (normalize_equiv prec emax prec_gt_0_ Hmax).
    unfold Fplus_naive. do 2 f_equal. now destruct sy.
  Qed.
End Equiv.

Lemma fadd_ok : forall x y, float_ok x -> float_ok y -> float_ok (fadd x y).
Proof.
  intros x s Hx Hs. unfold fadd. rewrite <- (B2SF_b64 x Hx), <- (B2SF_b64 s Hs).
  rewrite (add_equiv prec64 emax64 prec64_gt_0 prec64_lt). apply valid_binary_B2SF.
Qed.

Lemma fsub_ok : forall x y, float_ok x -> float_ok y -> float_ok (fsub x y).
Proof.
  intros x s Hx Hs. unfold fsub. rewrite <- (B2SF_b64 x Hx), <- (B2SF_b64 s Hs).
  rewrite (sub_equiv prec64 emax64 prec64_gt_0 prec64_lt). apply valid_binary_B2SF.
Qed.

Lemma fadd_correct : forall x y, float_ok x -> float_ok y -> isfinite x = true -> isfinite y = true ->
  (Rabs (rnd64 (F2 x + F2 y)) < bpow radix2 emax64)%R ->
  isfinite (fadd x y) = true /\ F2 (fadd x y) = rnd64 (F2 x + F2 y).
Proof.
  intros x y Hx Hy Fx Fy Hb. unfold fadd.
  pose proof (Bplus_correct prec64 emax64 _ _ mode_NE (b64 x Hx) (b64 y Hy)) as C.
  rewrite !fin_b64, !B2R_b64 in C. specialize (C Fx Fy). cbn [round_mode] in C.
  rewrite Rlt_bool_true in C by exact Hb. destruct C as (C1 & C2 & _).
  assert (E : SFadd prec64 emax64 x y = B2SF (Bplus mode_NE (b64 x Hx) (b64 y Hy))).
  { rewrite <- (add_equiv prec64 emax64 prec64_gt_0 prec64_lt). now rewrite !B2SF_b64. }
  rewrite !E, <- isfinite_SF, is_finite_SF_B2SF, F2_B2SF. auto.
Qed.

Lemma fsub_correct : forall x y, float_ok x -> float_ok y -> isfinite x = true -> isfinite y = true ->
  (Rabs (rnd64 (F2 x - F2 y)) < bpow radix2 emax64)%R ->
  isfinite (fsub x y) = true /\ F2 (fsub x y) = rnd64 (F2 x - F2 y).
Proof.
  intros x y Hx Hy Fx Fy Hb. unfold fsub.
  pose proof (Bminus_correct prec64 emax64 _ _ mode_NE (b64 x Hx) (b64 y Hy)) as C.
  rewrite !fin_b64, !B2R_b64 in C. specialize (C Fx Fy). cbn [round_mode] in C.
  rewrite Rlt_bool_true in C by exact Hb. destruct C as (C1 & C2 & _).
  assert (E : SFsub prec64 emax64 x y = B2SF (Bminus mode_NE (b64 x Hx) (b64 y Hy))).
  { rewrite <- (sub_equiv prec64 emax64 prec64_gt_0 prec64_lt). now rewrite !B2SF_b64. }
  rewrite !E, <- isfinite_SF, is_finite_SF_B2SF, F2_B2SF. auto.
Qed.
