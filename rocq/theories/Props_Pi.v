(** C14, C37: how close the constant for math.pi is to the number pi, from the bounds that
    Coq's library proves with Machin's formula. *)
From Coq Require Import ZArith List Bool Lia Lra Reals QArith Qreals Machin.
From Coq Require Import Floats.SpecFloat.
From Flocq Require Import Core IEEE754.BinarySingleNaN.
From Verif Require Import PyBase PyFloat Float_Proofs Ctrl_Model Calib_Model.

Fixpoint qpow (q : Q) (n : nat) : Q :=
  match n with
  | O => 1
  | S m => Qmult q (qpow q m)
  end.

(** The terms of the series for pi/4, as fractions. *)
Definition term (n : nat) : Q :=
  Qmult (qpow (-1) n)
    (Qdiv (Qplus (Qmult 2 (qpow (1 # 3) (2 * n + 1))) (qpow (1 # 7) (2 * n + 1)))
       (inject_Z (Z.of_nat (2 * n + 1)))).

Fixpoint total (n : nat) : Q :=
  match n with
  | O => term 0
  | S m => Qred (Qplus (total m) (term n))
  end.

Lemma Q2R_power : forall q n, Q2R (qpow q n) = (Q2R q ^ n)%R.
Proof.
  intros q n. induction n as [| n IH]; cbn [qpow pow].
  - apply RMicromega.Q2R_1.
  - now rewrite Q2R_mult, IH.
Qed.

Lemma term_correct : forall n, Q2R (term n) = tg_alt PI_2_3_7_tg n.
Proof.
  intros n. unfold term, tg_alt, PI_2_3_7_tg, Ratan_seq.
  assert (P : (0 < INR (2 * n + 1))%R) by (apply lt_0_INR; lia).
  assert (I : Q2R (inject_Z (Z.of_nat (2 * n + 1))) = INR (2 * n + 1)).
  { unfold Q2R, inject_Z. cbn [Qnum Qden]. rewrite <- INR_IZR_INZ. field. }
  rewrite Q2R_mult, Q2R_power. unfold Qdiv. rewrite Q2R_mult, Q2R_inv, I, Q2R_plus, Q2R_mult, !Q2R_power.
  - replace (Q2R (-1)) with (-1)%R by (unfold Q2R; cbn; field).
    replace (Q2R 2) with 2%R by (unfold Q2R; cbn; field).
    replace (Q2R (1 # 3)) with (/ 3)%R by (unfold Q2R; cbn; field).
    replace (Q2R (1 # 7)) with (/ 7)%R by (unfold Q2R; cbn; field).
    field. lra.
  - intros E. apply Qeq_eqR in E. rewrite I, RMicromega.Q2R_0 in E. lra.
Qed.

Lemma total_correct : forall n, Q2R (total n) = sum_f_R0 (tg_alt PI_2_3_7_tg) n.
Proof.
  induction n as [| n IH]; cbn [total sum_f_R0].
  - apply term_correct.
  - rewrite (Qeq_eqR _ _ (Qred_correct _)), Q2R_plus, IH, term_correct. reflexivity.
Qed.

(** The constant for math.pi is within half a unit of its last place of pi, that
    is the double nearest to it. *)
Theorem C14_pi : (Rabs (SF2R radix2 py_pi - PI) < / 2 ^ 52)%R.
Proof.
  pose proof (PI_2_3_7_ineq 10) as (L & U). rewrite <- !total_correct in *.
  assert (Lq : Qle (Qmult (1 # 4) (3141592653589793115997963468544185161590576171875 # 1000000000000000000000000000000000000000000000000)) (total (S (2 * 10))))
    by (vm_compute; discriminate).
  assert (Uq : Qle (total (2 * 10)) (Qmult (1 # 4) (31415926535897933 # 10000000000000000)))
    by (vm_compute; discriminate).
  apply Qle_Rle in Lq, Uq.
  assert (V : SF2R radix2 py_pi = (7074237752028440 / 2251799813685248)%R) by reflexivity.
  rewrite V.
  replace (Q2R (Qmult (1 # 4) (3141592653589793115997963468544185161590576171875 # 1000000000000000000000000000000000000000000000000)))
    with (/ 4 * (3141592653589793115997963468544185161590576171875 / 1000000000000000000000000000000000000000000000000))%R in Lq
    by (unfold Q2R; cbn; lra).
  replace (Q2R (Qmult (1 # 4) (31415926535897933 # 10000000000000000)))
    with (/ 4 * (31415926535897933 / 10000000000000000))%R in Uq by (unfold Q2R; cbn; lra).
  apply Rabs_def1; lra.
Qed.

(** So is the one of the calibration, of the angles that it wraps and of the
    configuration rules. *)
Theorem C37_pi : (Rabs (SF2R radix2 fpi - PI) < / 2 ^ 52)%R.
Proof. exact C14_pi. Qed.

Print Assumptions C14_pi.
Print Assumptions C37_pi.
