(** C39, C40, C43: regression, interpolation and averaging of calibration data. *)
From Coq Require Import ZArith List Bool Lia Reals Lra Psatz Sorting.Sorted.
From Coq Require Import Floats.SpecFloat.
From Flocq Require Import Core BinarySingleNaN.
From Verif Require Import PyBase PyFloat Float_Proofs Fsum_Proofs Props_Quant Calib_Model Props_Angle.
Import ListNotations.
Open Scope Z_scope.

(** ** Specification *)

(** The squared error of the line y = a + b x over the samples. *)
Definition squared_error (a b : R) (xs ys : list R) : R :=
  Rsum (map (fun p => (snd p - (a + b * fst p)) * (snd p - (a + b * fst p)))%R (combine xs ys)).

(** The value [v] at [p] of the line through the points (x_i, y_i): level
    before the first and after the last point, straight between
    neighbours.  Where two neighbours stand at the same x it is the second. *)
Definition on_polyline (x y : list R) (p v : R) : Prop :=
  exists i x0 x1 y0 y1,
    nth_error x i = Some x0 /\ nth_error x (S i) = Some x1 /\
    nth_error y i = Some y0 /\ nth_error y (S i) = Some y1 /\
    ((i = 0%nat /\ (p < x0)%R /\ v = y0) \/
     (S (S i) = length x /\ (x1 < p)%R /\ v = y1) \/
     ((x0 <= p <= x1)%R /\ x0 <> x1 /\ v = (y0 + (y1 - y0) * ((p - x0) / (x1 - x0)))%R) \/
     (x0 = p /\ p = x1 /\ v = y1)).

(** ** Sums *)
Lemma Rsum_cons x l : Rsum (x :: l) = (x + Rsum l)%R.
Proof. reflexivity. Qed.
Lemma Rsum_nil : Rsum [] = 0%R.
Proof. reflexivity. Qed.
Lemma Rsum_map_plus {A} (f g : A -> R) l :
  Rsum (map (fun x => f x + g x)%R l) = (Rsum (map f l) + Rsum (map g l))%R.
Proof. induction l as [|x l IH]; cbn [map]; rewrite ?Rsum_cons, ?Rsum_nil; [ring|]. rewrite IH. ring. Qed.
Lemma Rsum_map_scale {A} (c : R) (f : A -> R) l :
  Rsum (map (fun x => c * f x)%R l) = (c * Rsum (map f l))%R.
Proof. induction l as [|x l IH]; cbn [map]; rewrite ?Rsum_cons, ?Rsum_nil; [ring|]. rewrite IH. ring. Qed.
Lemma Rsum_map_const {A} (c : R) (l : list A) :
  Rsum (map (fun _ => c) l) = (INR (length l) * c)%R.
Proof. induction l as [|x l IH]; [cbn; ring|]. cbn [map length]. rewrite S_INR, Rsum_cons, IH. ring. Qed.
Lemma Rsum_ext {A} (f g : A -> R) l : (forall x, f x = g x) -> Rsum (map f l) = Rsum (map g l).
Proof. intros H. f_equal. apply map_ext, H. Qed.
Lemma Rsum_sq_nonneg {A} (f : A -> R) l : (0 <= Rsum (map (fun x => f x * f x)%R l))%R.
Proof. induction l as [|x l IH]; cbn [map]; rewrite ?Rsum_cons, ?Rsum_nil; [lra|]. nra. Qed.
Lemma Rsum_sq_zero {A} (f : A -> R) l :
  Rsum (map (fun x => f x * f x)%R l) = 0%R -> forall x, In x l -> f x = 0%R.
Proof.
  induction l as [|x l IH]; cbn [map In]; [tauto|]. rewrite Rsum_cons. intros H y [->|Hy].
  - pose proof (Rsum_sq_nonneg f l) as N. nra.
  - pose proof (Rsum_sq_nonneg f l) as N. apply IH; auto. nra.
Qed.

Lemma split_pairs (xs ys : list R) : length xs = length ys -> exists l, xs = map fst l /\ ys = map snd l.
Proof.
  revert ys. induction xs as [|x xs IH]; destruct ys as [|y ys]; intros H; try discriminate.
  - exists []. auto.
  - destruct (IH ys) as (l & -> & ->); [now injection H|]. exists ((x, y) :: l). auto.
Qed.
Lemma combine_fst_snd {A B} (l : list (A * B)) : combine (map fst l) (map snd l) = l.
Proof. induction l as [|[a b] l IH]; cbn; congruence. Qed.

(** ** Regression *)
Definition mean (f : R * R -> R) (l : list (R * R)) : R := (Rsum (map f l) / INR (length l))%R.

Lemma mean_centred f l : l <> [] -> Rsum (map (fun p => f p - mean f l)%R l) = 0%R.
Proof.
  intros H. unfold Rminus. rewrite Rsum_map_plus, Rsum_map_const. unfold mean.
  assert (INR (length l) <> 0%R). { apply not_0_INR. destruct l; [congruence|cbn; lia]. }
  field. auto.
Qed.

Definition sxx (l : list (R * R)) : R :=
  Rsum (map (fun p => (fst p - mean fst l) * (fst p - mean fst l))%R l).
Definition sxy (l : list (R * R)) : R :=
  Rsum (map (fun p => (fst p - mean fst l) * (snd p - mean snd l))%R l).

Lemma regression_pairs l : linear_regression real_arith (map fst l) (map snd l) =
  if Req_EM_T (sxx l) 0 then Raise ZeroDivisionError
  else Ok ((mean snd l - sxy l / sxx l * mean fst l)%R, (sxy l / sxx l)%R).
Proof.
  unfold linear_regression. rewrite !map_length, Z.eqb_refl. cbn [negb].
  cbn [a_div a_of_Z a_sum a_sub a_mul real_arith].
  destruct l as [|p l].
  { assert (E : sxx [] = 0%R) by reflexivity. rewrite E. cbn [length map Z.of_nat].
    destruct (Req_EM_T 0 0) as [_|n]; [reflexivity|congruence]. }
  destruct (Req_EM_T (IZR (Z.of_nat (length (p :: l)))) 0) as [E|_].
  { exfalso. rewrite <- INR_IZR_INZ in E. apply (not_0_INR (length (p :: l))); [cbn; lia|auto]. }
  cbn [bind]. rewrite <- !INR_IZR_INZ, combine_fst_snd.
  rewrite (map_map fst (fun x => _)).
  change (Rsum (map fst (p :: l)) / INR (length (p :: l)))%R with (mean fst (p :: l)).
  change (Rsum (map snd (p :: l)) / INR (length (p :: l)))%R with (mean snd (p :: l)).
  fold (sxx (p :: l)). fold (sxy (p :: l)).
  destruct (Req_EM_T (sxx (p :: l)) 0); reflexivity.
Qed.

Lemma sxx_zero l : sxx l = 0%R <-> (forall p q, In p l -> In q l -> fst p = fst q).
Proof.
  split.
  - intros H p q Hp Hq. unfold sxx in H.
    pose proof (Rsum_sq_zero _ _ H p Hp) as A. pose proof (Rsum_sq_zero _ _ H q Hq) as B.
    cbn beta in *. lra.
  - intros H. destruct l as [|p l]; [reflexivity|].
    assert (E : forall q, In q (p :: l) -> fst q = fst p).
    { intros q Hq. apply H; [exact Hq|now left]. }
    assert (M : mean fst (p :: l) = fst p).
    { unfold mean. rewrite (map_ext_in fst (fun _ => fst p) (p :: l) E), Rsum_map_const.
      field. apply not_0_INR. cbn; lia. }
    unfold sxx. rewrite M.
    rewrite (map_ext_in _ (fun _ => 0%R) (p :: l)); [rewrite Rsum_map_const; ring|].
    intros q Hq. rewrite (E q Hq). ring.
Qed.

(** The residuals sum to zero and are orthogonal to x. *)
Lemma normal_equations l : sxx l <> 0%R ->
  let b := (sxy l / sxx l)%R in let a := (mean snd l - b * mean fst l)%R in
  let e := fun p : R * R => (snd p - (a + b * fst p))%R in
  Rsum (map e l) = 0%R /\ Rsum (map (fun p => fst p * e p)%R l) = 0%R.
Proof.
  intros H b a e. assert (N : l <> []) by (intros ->; apply H; reflexivity).
  assert (E : forall p, e p = ((snd p - mean snd l) + (- b) * (fst p - mean fst l))%R).
  { intros p. unfold e, a. ring. }
  assert (S0 : Rsum (map e l) = 0%R).
  { rewrite (Rsum_ext e _ l E), Rsum_map_plus, Rsum_map_scale, !mean_centred by auto. ring. }
  split; auto.
  assert (S1 : Rsum (map (fun p => (fst p - mean fst l) * e p)%R l) = 0%R).
  { rewrite (Rsum_ext _ (fun p => ((fst p - mean fst l) * (snd p - mean snd l) +
        (- b) * ((fst p - mean fst l) * (fst p - mean fst l)))%R) l).
    - rewrite Rsum_map_plus, Rsum_map_scale. fold (sxx l). fold (sxy l). unfold b. field. auto.
    - intros p. rewrite E. ring. }
  rewrite (Rsum_ext _ (fun p => ((fst p - mean fst l) * e p + mean fst l * e p)%R) l) by (intros; ring).
  rewrite Rsum_map_plus, Rsum_map_scale, S0, S1. ring.
Qed.

Lemma squared_error_split l a b a' b' :
  let e := fun p : R * R => (snd p - (a + b * fst p))%R in
  Rsum (map e l) = 0%R -> Rsum (map (fun p => fst p * e p)%R l) = 0%R ->
  squared_error a' b' (map fst l) (map snd l) =
  (squared_error a b (map fst l) (map snd l) +
   Rsum (map (fun p => ((a - a') + (b - b') * fst p) * ((a - a') + (b - b') * fst p))%R l))%R.
Proof.
  intros e E0 E1. unfold squared_error. rewrite combine_fst_snd.
  rewrite (Rsum_ext _ (fun p => (e p * e p + (2 * (a - a') * e p + (2 * (b - b') * (fst p * e p) +
     ((a - a') + (b - b') * fst p) * ((a - a') + (b - b') * fst p))))%R) l) by (intros p; unfold e; ring).
  rewrite !Rsum_map_plus, !Rsum_map_scale, E0, E1. unfold e. ring.
Qed.

(** The line returned has the least squared error of all lines, and no
    other line is as good. *)
Theorem C39_least_squares : forall xs ys a b, linear_regression real_arith xs ys = Ok (a, b) ->
  forall a' b', (squared_error a b xs ys <= squared_error a' b' xs ys)%R /\
    (squared_error a' b' xs ys = squared_error a b xs ys -> a' = a /\ b' = b).
Proof.
  intros xs ys a b H a' b'.
  destruct (Z.eqb_spec (Z.of_nat (length xs)) (Z.of_nat (length ys))) as [L|L].
  2:{ unfold linear_regression in H. apply Z.eqb_neq in L. rewrite L in H. discriminate. }
  destruct (split_pairs xs ys) as (l & -> & ->); [lia|]. rewrite regression_pairs in H.
  destruct (Req_EM_T (sxx l) 0) as [|N]; [discriminate|].
  destruct (normal_equations l N) as [E0 E1].
  injection H as Ha Hb. rewrite Hb in *. rewrite Ha in *.
  rewrite (squared_error_split l a b a' b' E0 E1).
  pose proof (Rsum_sq_nonneg (fun p : R * R => ((a - a') + (b - b') * fst p)%R) l) as P. cbn beta in P.
  split; [lra|]. intros Q.
  assert (Z0 : Rsum (map (fun p : R * R => ((a - a') + (b - b') * fst p) * ((a - a') + (b - b') * fst p))%R l) = 0%R) by lra.
  pose proof (Rsum_sq_zero (fun p : R * R => ((a - a') + (b - b') * fst p)%R) l Z0) as V. cbn beta in V.
  assert (D : b' = b).
  { destruct (Req_dec b' b) as [|D]; auto. exfalso. apply N. apply sxx_zero. intros p q Hp Hq.
    pose proof (V p Hp). pose proof (V q Hq). apply Rmult_eq_reg_l with (b - b')%R; lra. }
  split; auto. subst b'.
  destruct l as [|p l]; [exfalso; apply N; reflexivity|].
  pose proof (V p (or_introl eq_refl)) as W. replace (b - b)%R with 0%R in W by ring. lra.
Qed.

(** When it returns, and what it raises otherwise. *)
Theorem C39_defined : forall xs ys,
  (length xs <> length ys -> linear_regression real_arith xs ys = Raise AssertionError) /\
  (length xs = length ys -> (forall x x', In x xs -> In x' xs -> x = x') ->
     linear_regression real_arith xs ys = Raise ZeroDivisionError) /\
  (length xs = length ys -> (exists x x', In x xs /\ In x' xs /\ x <> x') ->
     exists a b, linear_regression real_arith xs ys = Ok (a, b)).
Proof.
  intros xs ys. split; [|split].
  - intros L. unfold linear_regression.
    assert (E : Z.of_nat (length xs) =? Z.of_nat (length ys) = false) by (apply Z.eqb_neq; lia).
    now rewrite E.
  - intros L H. destruct (split_pairs xs ys L) as (l & -> & ->). rewrite regression_pairs.
    destruct (Req_EM_T (sxx l) 0) as [|N]; auto. exfalso. apply N, sxx_zero.
    intros p q Hp Hq. apply H; now apply in_map.
  - intros L (x & x' & Hx & Hx' & D). destruct (split_pairs xs ys L) as (l & -> & ->). rewrite regression_pairs.
    destruct (Req_EM_T (sxx l) 0) as [E|N]; [|eauto]. exfalso. apply D.
    apply in_map_iff in Hx. destruct Hx as (p & <- & Hp).
    apply in_map_iff in Hx'. destruct Hx' as (q & <- & Hq). now apply sxx_zero with l.
Qed.

(** Points on a line give that line. *)
Theorem C39_exact : forall xs a b, (exists x x', In x xs /\ In x' xs /\ x <> x') ->
  linear_regression real_arith xs (map (fun x => a + b * x)%R xs) = Ok (a, b).
Proof.
  intros xs a b H.
  destruct (C39_defined xs (map (fun x => a + b * x)%R xs)) as (_ & _ & D).
  destruct D as (a0 & b0 & E); [now rewrite map_length|auto|]. rewrite E. f_equal.
  destruct (C39_least_squares _ _ _ _ E a b) as [A B].
  assert (Z0 : squared_error a b xs (map (fun x => a + b * x)%R xs) = 0%R).
  { unfold squared_error. clear. induction xs as [|x xs IH]; cbn [map combine]; rewrite ?Rsum_cons, ?Rsum_nil; [reflexivity|]. rewrite IH. cbn [fst snd]. ring. }
  assert (P : (0 <= squared_error a0 b0 xs (map (fun x => a + b * x)%R xs))%R).
  { unfold squared_error. apply (Rsum_sq_nonneg (fun p : R * R => (snd p - (a0 + b0 * fst p))%R)). }
  destruct B as [-> ->]; [lra|reflexivity].
Qed.

Example C39_example : exists a b, linear_regression real_arith [0; 1; 2]%R [1; 1; 4]%R = Ok (a, b) /\
  a = (1 / 2)%R /\ b = (3 / 2)%R.
Proof.
  exists (1 / 2)%R, (3 / 2)%R. split; auto.
  change ([0; 1; 2]%R) with (map fst [(0, 1); (1, 1); (2, 4)]%R).
  change ([1; 1; 4]%R) with (map snd [(0, 1); (1, 1); (2, 4)]%R). rewrite regression_pairs.
  assert (Hx : sxx [(0, 1); (1, 1); (2, 4)]%R = 2%R) by (unfold sxx, mean; cbn; field).
  assert (Hy : sxy [(0, 1); (1, 1); (2, 4)]%R = 3%R) by (unfold sxy, mean; cbn; field).
  rewrite Hx, Hy. destruct (Req_EM_T 2 0); [lra|]. do 2 f_equal. unfold mean. cbn. field.
Qed.

(** ** Interpolation *)
Lemma py_index_nat {A} (l : list A) k v : nth_error l k = Some v -> py_index l (Z.of_nat k) = Ok v.
Proof.
  intros H. unfold py_index. destruct (Z.ltb_spec (Z.of_nat k) 0); [lia|].
  destruct (Z.ltb_spec (Z.of_nat k) 0); [lia|]. now rewrite Nat2Z.id, H.
Qed.

Lemma nth_exists {A} (l : list A) k : (k < length l)%nat -> exists v, nth_error l k = Some v.
Proof. intros H. destruct (nth_error l k) eqn:E; eauto. apply nth_error_None in E. lia. Qed.

Lemma Reqb_spec x y : reflect (x = y) (Reqb x y).
Proof. unfold Reqb. destruct (Req_EM_T x y); now constructor. Qed.

Lemma advance_real n x p : forall k xk, (length x <= n + k)%nat -> (S k < length x)%nat ->
  nth_error x k = Some xk -> (xk <= p)%R ->
  exists j xj x', advance real_arith n x p (Z.of_nat k) = Ok (Z.of_nat j) /\ (k <= j)%nat /\
    nth_error x j = Some xj /\ nth_error x (S j) = Some x' /\ (xj <= p)%R /\
    (S (S j) = length x \/ (p < x')%R).
Proof.
  induction n as [|n IH]; intros k xk Hn Hk Ex Hp; [lia|]. cbn [advance].
  destruct (nth_exists x (S k) Hk) as (x' & E').
  destruct (Z.ltb_spec (Z.of_nat k + 2) (Z.of_nat (length x))) as [L|L].
  - replace (Z.of_nat k + 1) with (Z.of_nat (S k)) by lia. rewrite (py_index_nat _ _ _ E'). cbn [bind].
    cbn [a_lt a_eq real_arith]. destruct (Rltb_spec x' p) as [A|A]; cbn [orb].
    + destruct (IH (S k) x') as (j & xj & x2 & -> & Q); auto; try lia; try lra.
      exists j, xj, x2. intuition lia.
    + destruct (Reqb_spec x' p) as [B|B].
      * destruct (IH (S k) x') as (j & xj & x2 & -> & Q); auto; try lia; try lra.
        exists j, xj, x2. intuition lia.
      * exists k, xk, x'. repeat (split; auto). right. lra.
  - exists k, xk, x'. repeat (split; auto). left. lia.
Qed.

Lemma interpolate1_real x y k p : (S k < length x)%nat -> length x = length y ->
  (forall xk, nth_error x k = Some xk -> k = 0%nat \/ (xk <= p)%R) ->
  exists j v, interpolate1 real_arith x y (Z.of_nat k) p = Ok (Z.of_nat j, v) /\ (S j < length x)%nat /\
    on_polyline x y p v /\ (forall xj, nth_error x j = Some xj -> j = 0%nat \/ (xj <= p)%R).
Proof.
  intros Hk L H. unfold interpolate1.
  destruct (nth_exists x k ltac:(lia)) as (x0 & E0). rewrite (py_index_nat _ _ _ E0). cbn [bind].
  cbn [a_lt a_eq a_sub a_div a_of_Z a_add a_mul real_arith].
  destruct (Rltb_spec p x0) as [A|A].
  - destruct (H x0 E0) as [->|B]; [|lra].
    destruct (nth_exists x 1 Hk) as (x1 & E1).
    destruct (nth_exists y 0 ltac:(lia)) as (y0 & F0). destruct (nth_exists y 1 ltac:(lia)) as (y1 & F1).
    rewrite (py_index_nat _ _ _ F0). cbn [bind].
    exists 0%nat, y0. split; auto. split; auto. split; auto.
    exists 0%nat, x0, x1, y0, y1. auto 10.
  - destruct (advance_real (length x) x p k x0) as (j & xj & x' & -> & J & Ej & E' & Hj & D); auto; try lia; try lra.
    cbn [bind]. replace (Z.of_nat j + 1) with (Z.of_nat (S j)) by lia. rewrite (py_index_nat _ _ _ E'). cbn [bind].
    assert (Hl : (S j < length x)%nat) by (apply nth_error_Some; congruence).
    destruct (nth_exists y j ltac:(lia)) as (yj & Fj). destruct (nth_exists y (S j) ltac:(lia)) as (y' & F').
    assert (G : forall v, (S (S j) = length x /\ (x' < p)%R /\ v = y' \/
     (xj <= p <= x')%R /\ xj <> x' /\ v = (yj + (y' - yj) * ((p - xj) / (x' - xj)))%R \/
     xj = p /\ p = x' /\ v = y') ->
     (S j < length x)%nat /\ on_polyline x y p v /\
       (forall xi, nth_error x j = Some xi -> j = 0%nat \/ (xi <= p)%R)).
    { intros v V. split; auto. split.
      - exists j, xj, x', yj, y'. tauto.
      - intros xi Ei. right. congruence. }
    destruct (Rltb_spec x' p) as [B|B].
    + rewrite (py_index_nat _ _ _ F'). cbn [bind]. exists j, y'. split; auto. apply G.
      destruct D as [D|D]; [auto|lra].
    + rewrite (py_index_nat _ _ _ Ej). cbn [bind].
      destruct (Reqb_spec (x' - xj) 0) as [C|C].
      * rewrite (py_index_nat _ _ _ F'). cbn [bind]. exists j, y'. split; auto. apply G. right. right.
        repeat split; auto; lra.
      * destruct (Req_EM_T (x' - xj) 0) as [C'|_]; [contradiction|]. cbn [bind].
        rewrite (py_index_nat _ _ _ F'), (py_index_nat _ _ _ Fj). cbn [bind].
        eexists j, _. split; [reflexivity|]. apply G. right. left.
        split; [lra|]. split; [lra|]. ring.
Qed.

Lemma interpolate_loop_real x y points : forall k, (S k < length x)%nat -> length x = length y ->
  (forall xk p, In p points -> nth_error x k = Some xk -> k = 0%nat \/ (xk <= p)%R) ->
  StronglySorted Rle points ->
  exists l, interpolate_loop real_arith x y (Z.of_nat k) points = Ok l /\ Forall2 (on_polyline x y) points l.
Proof.
  induction points as [|p points IH]; intros k Hk L H S; cbn [interpolate_loop].
  - exists []. auto.
  - inversion S as [|? ? S' F]; subst.
    destruct (interpolate1_real x y k p Hk L) as (j & v & -> & Hj & V & N).
    { intros xk E. apply H; [now left|auto]. }
    cbn [bind fst snd]. destruct (IH j Hj L) as (l & -> & FA); auto.
    { intros xk q Hq E. destruct (N xk E) as [N0|N0]; auto. right.
      rewrite Forall_forall in F. specialize (F q Hq). cbn beta in F. lra. }
    cbn [bind]. exists (v :: l). auto.
Qed.

(** With two or more points and the samples asked for in order, every
    result is the value of the line through the points. *)
Theorem C40_interpolate : forall points x y, (2 <= length x)%nat -> length x = length y ->
  StronglySorted Rle points ->
  exists l, interpolate real_arith points x y = Ok l /\ Forall2 (on_polyline x y) points l.
Proof.
  intros points x y N L S. unfold interpolate.
  destruct (Z.ltb_spec 1 (Z.of_nat (length x))); [|lia]. cbn [negb].
  assert (E : Z.of_nat (length x) =? Z.of_nat (length y) = true) by (apply Z.eqb_eq; lia).
  rewrite E. cbn [negb].
  apply (interpolate_loop_real x y points 0); auto.
Qed.

Theorem C40_interpolate_refused : forall points x y, (length x < 2)%nat \/ length x <> length y ->
  interpolate real_arith points x y = Raise AssertionError.
Proof.
  intros points x y H. unfold interpolate.
  destruct (Z.ltb_spec 1 (Z.of_nat (length x))); cbn [negb]; auto.
  destruct (Z.eqb_spec (Z.of_nat (length x)) (Z.of_nat (length y))); cbn [negb]; auto. lia.
Qed.

Lemma sorted_nth x : StronglySorted Rlt x -> forall i j a b, (i < j)%nat ->
  nth_error x i = Some a -> nth_error x j = Some b -> (a < b)%R.
Proof.
  induction 1 as [|h t S IH F]; intros i j a b Hij Hi Hj; [destruct i; discriminate|].
  destruct j as [|j]; [lia|]. destruct i as [|i]; cbn in *.
  - injection Hi as <-. rewrite Forall_forall in F. apply F. eapply nth_error_In; eauto.
  - eapply (IH i j); eauto. lia.
Qed.

(** For strictly increasing x that line has one value at every point. *)
Lemma on_polyline_le x y p v v' i i' : StronglySorted Rlt x -> (i <= i')%nat ->
  forall x0 x1 y0 y1 x0' x1' y0' y1',
  nth_error x i = Some x0 -> nth_error x (S i) = Some x1 ->
  nth_error y i = Some y0 -> nth_error y (S i) = Some y1 ->
  nth_error x i' = Some x0' -> nth_error x (S i') = Some x1' ->
  nth_error y i' = Some y0' -> nth_error y (S i') = Some y1' ->
  ((i = 0%nat /\ (p < x0)%R /\ v = y0) \/
     (S (S i) = length x /\ (x1 < p)%R /\ v = y1) \/
     ((x0 <= p <= x1)%R /\ x0 <> x1 /\ v = (y0 + (y1 - y0) * ((p - x0) / (x1 - x0)))%R) \/
     (x0 = p /\ p = x1 /\ v = y1)) ->
  ((i' = 0%nat /\ (p < x0')%R /\ v' = y0') \/
     (S (S i') = length x /\ (x1' < p)%R /\ v' = y1') \/
     ((x0' <= p <= x1')%R /\ x0' <> x1' /\ v' = (y0' + (y1' - y0') * ((p - x0') / (x1' - x0')))%R) \/
     (x0' = p /\ p = x1' /\ v' = y1')) -> v = v'.
Proof.
  intros S Hi x0 x1 y0 y1 x0' x1' y0' y1' A B C D A' B' C' D' V V'.
  pose proof (sorted_nth x S i (Datatypes.S i) x0 x1 ltac:(lia) A B) as L1.
  pose proof (sorted_nth x S i' (Datatypes.S i') x0' x1' ltac:(lia) A' B') as L2.
  assert (Len : (Datatypes.S i' < length x)%nat) by (apply nth_error_Some; congruence).
  destruct (Nat.eq_dec i i') as [<-|Ne].
  - assert (x0' = x0) by congruence. assert (x1' = x1) by congruence.
    assert (y0' = y0) by congruence. assert (y1' = y1) by congruence. subst.
    destruct V as [V|[V|[V|V]]]; destruct V' as [V'|[V'|[V'|V']]]; try (exfalso; lra);
      destruct V as (? & ? & ?); destruct V' as (? & ? & ?); congruence.
  - assert (M : (x1 <= x0')%R /\ (x1 = x0' -> Datatypes.S i = i')).
    { destruct (Nat.eq_dec (Datatypes.S i) i') as [E|E].
      - subst i'. rewrite B in A'. injection A' as ->. split; [lra|auto].
      - pose proof (sorted_nth x S (Datatypes.S i) i' x1 x0' ltac:(lia) B A'). split; [lra|intros; lra]. }
    destruct M as [M1 M2].
    destruct V as [(? & V & ?)|[(? & V & ?)|[(V & Vn & Ev)|(V & V0 & Ev)]]]; [| |  |exfalso; lra].
    + destruct V' as [(? & V' & ?)|[(? & V' & ?)|[(V' & ? & ?)|(V' & ? & ?)]]]; try (exfalso; lra); lia.
    + lia.
    + destruct V' as [(? & V' & ?)|[(? & V' & ?)|[(V' & Vn' & Ev')|(V' & ? & ?)]]]; try (exfalso; lra); try lia.
      assert (P : p = x1) by lra. assert (Q : x1 = x0') by lra. specialize (M2 Q). subst i'.
      rewrite C' in D. injection D as ->. rewrite Ev, Ev', P, <- Q. field. lra.
Qed.

Theorem C40_unique : forall x y p v v', StronglySorted Rlt x ->
  on_polyline x y p v -> on_polyline x y p v' -> v = v'.
Proof.
  intros x y p v v' S (i & x0 & x1 & y0 & y1 & A & B & C & D & V) (i' & x0' & x1' & y0' & y1' & A' & B' & C' & D' & V').
  destruct (Nat.le_ge_cases i i') as [L|L].
  - eapply on_polyline_le with (i := i) (i' := i'); eauto.
  - symmetry. eapply on_polyline_le with (i := i') (i' := i); eauto.
Qed.

(** At the points themselves it gives the points. *)
Theorem C40_at_points : forall x y i p q v, StronglySorted Rlt x -> length x = length y -> (2 <= length x)%nat ->
  nth_error x i = Some p -> nth_error y i = Some q -> on_polyline x y p v -> v = q.
Proof.
  intros x y i p q v S L N Hx Hy V. apply (C40_unique x y p v q S V).
  assert (Hi : (i < length x)%nat) by (apply nth_error_Some; congruence).
  destruct (Nat.eq_dec (Datatypes.S i) (length x)) as [E|E].
  - destruct i as [|i]; [lia|]. destruct (nth_exists x i ltac:(lia)) as (x0 & A).
    destruct (nth_exists y i ltac:(lia)) as (y0 & B). exists i, x0, p, y0, q. repeat (split; auto).
    pose proof (sorted_nth x S i (Datatypes.S i) x0 p ltac:(lia) A Hx). right. right. left.
    split; [lra|]. split; [lra|]. field. lra.
  - destruct (nth_exists x (Datatypes.S i) ltac:(lia)) as (x1 & A).
    destruct (nth_exists y (Datatypes.S i) ltac:(lia)) as (y1 & B). exists i, p, x1, q, y1. repeat (split; auto).
    pose proof (sorted_nth x S i (Datatypes.S i) p x1 ltac:(lia) Hx A). right. right. left.
    split; [lra|]. split; [lra|]. field. lra.
Qed.

(** No result is outside the range of the data. *)
Theorem C40_in_range : forall x y p v lo hi, (forall q, In q y -> (lo <= q <= hi)%R) ->
  on_polyline x y p v -> (lo <= v <= hi)%R.
Proof.
  intros x y p v lo hi H (i & x0 & x1 & y0 & y1 & _ & _ & C & D & V).
  apply nth_error_In in C, D. apply H in C, D.
  destruct V as [(_ & _ & ->)|[(_ & _ & ->)|[(P & N & ->)|(_ & _ & ->)]]]; auto.
  assert (T : (0 <= (p - x0) / (x1 - x0) <= 1)%R).
  { split; [apply Rle_mult_inv_pos; lra|]. apply Rmult_le_reg_r with (x1 - x0)%R; [lra|]. field_simplify; lra. }
  set (t := ((p - x0) / (x1 - x0))%R) in *. nra.
Qed.

(** The samples have to be asked for in order: the search never goes back. *)
Theorem C40_unsorted_refuted : exists points x y l, StronglySorted Rlt x /\ length x = length y /\
  interpolate real_arith points x y = Ok l /\ ~ Forall2 (on_polyline x y) points l.
Proof.
  exists [2; 0]%R, [0; 1; 2]%R, [5; 0; 0]%R, [0; 0]%R.
  assert (S : StronglySorted Rlt [0; 1; 2]%R) by (repeat constructor; lra).
  split; auto. split; auto. split.
  - unfold interpolate. cbn [length Z.of_nat]. cbn [Z.ltb Z.eqb negb Z.compare Pos.compare Pos.compare_cont Pos.of_succ_nat Pos.succ Pos.eqb].
    cbn [interpolate_loop]. unfold interpolate1 at 1.
    cbn [py_index Z.ltb Z.compare nth_error Z.to_nat bind a_lt real_arith].
    destruct (Rltb_spec 2 0) as [X|_]; [lra|]. cbn [length advance].
    change (0 + 2 <? Z.of_nat 3) with true. cbn iota. change (py_index [0; 1; 2]%R (0 + 1)) with (Ok 1%R). cbn [bind a_lt a_eq real_arith].
    destruct (Rltb_spec 1 2) as [_|X]; [|lra]. cbn [orb]. change (0 + 1 + 2 <? Z.of_nat 3) with false. cbn iota. cbn [bind].
    change (py_index [0; 1; 2]%R (0 + 1 + 1)) with (Ok 2%R). cbn [bind].
    destruct (Rltb_spec 2 2) as [X|_]; [lra|].
    change (py_index [0; 1; 2]%R (0 + 1)) with (Ok 1%R). cbn [bind a_eq a_sub a_of_Z a_div real_arith].
    destruct (Reqb_spec (2 - 1) 0) as [X|_]; [lra|]. destruct (Req_EM_T (2 - 1) 0) as [X|_]; [lra|]. cbn [bind].
    change (py_index [5; 0; 0]%R (0 + 1 + 1)) with (Ok 0%R). change (py_index [5; 0; 0]%R (0 + 1)) with (Ok 0%R).
    cbn [bind fst snd a_add a_mul a_sub real_arith]. unfold interpolate1.
    change (py_index [0; 1; 2]%R (0 + 1)) with (Ok 1%R). cbn [bind a_lt real_arith].
    destruct (Rltb_spec 0 1) as [_|X]; [|lra]. change (py_index [5; 0; 0]%R (0 + 1)) with (Ok 0%R). cbn [bind fst snd].
    do 2 f_equal. field.
  - intros F. inversion F as [|? ? ? ? _ F']; subst. inversion F' as [|? ? ? ? V _]; subst.
    pose proof (C40_at_points [0; 1; 2]%R [5; 0; 0]%R 0 0%R 5%R 0%R S eq_refl ltac:(cbn; lia) eq_refl eq_refl V). lra.
Qed.

Example C40_example : exists l, interpolate real_arith [0; 1; 3]%R [1; 2]%R [10; 20]%R = Ok l /\
  l = [10; 10; 20]%R.
Proof.
  assert (S2 : StronglySorted Rlt [1; 2]%R) by (repeat constructor; lra).
  destruct (C40_interpolate [0; 1; 3]%R [1; 2]%R [10; 20]%R) as (l & E & F); auto.
  { repeat constructor; lra. }
  exists l. split; auto.
  assert (V : Forall2 (on_polyline [1; 2]%R [10; 20]%R) [0; 1; 3]%R [10; 10; 20]%R).
  { repeat constructor; exists 0%nat, 1%R, 2%R, 10%R, 20%R; repeat (split; [reflexivity|]).
    - left. split; auto. split; lra.
    - right. right. left. split; [lra|]. split; [lra|]. field.
    - right. left. split; auto. split; lra. }
  inversion F as [|? v1 ? l1 A1 F1]; subst. inversion F1 as [|? v2 ? l2 A2 F2]; subst.
  inversion F2 as [|? v3 ? l3 A3 F3]; subst. inversion F3; subst.
  inversion V as [|? ? ? ? B1 V1]; subst. inversion V1 as [|? ? ? ? B2 V2]; subst. inversion V2 as [|? ? ? ? B3 V3]; subst.
  now rewrite (C40_unique _ _ _ _ _ S2 A1 B1), (C40_unique _ _ _ _ _ S2 A2 B2), (C40_unique _ _ _ _ _ S2 A3 B3).
Qed.

(** ** lerp: a table over one turn *)
Lemma floor_real x : exists k, a_floor real_arith x = Ok k /\ (IZR k <= x < IZR k + 1)%R.
Proof.
  cbn [a_floor real_arith]. exists (up x - 1). split; auto. rewrite minus_IZR.
  destruct (archimed x). lra.
Qed.

Lemma py_index_mod {A} (l : list A) i v : - Z.of_nat (length l) <= i < Z.of_nat (length l) ->
  nth_error l (Z.to_nat (i mod Z.of_nat (length l))) = Some v -> py_index l i = Ok v.
Proof.
  intros H E. unfold py_index.
  destruct (Z.ltb_spec i 0) as [N|N].
  - destruct (Z.ltb_spec (i + Z.of_nat (length l)) 0); [lia|].
    replace (i mod Z.of_nat (length l)) with (i + Z.of_nat (length l)) in E; [now rewrite E|].
    rewrite <- (Z.mod_small (i + Z.of_nat (length l)) (Z.of_nat (length l))) by lia.
    rewrite <- (Z.mul_1_l (Z.of_nat (length l))) at 1. apply Z.mod_add. lia.
  - destruct (Z.ltb_spec i 0); [lia|]. rewrite Z.mod_small in E by lia. now rewrite E.
Qed.

(** [lerp array ratio], for a ratio from -1 up to but excluding 1: the
    array is a closed curve sampled at 0, 1/n, 2/n, ..., and the result is
    on the chord between the two samples around the ratio. *)
Theorem C40_lerp : forall array ratio, array <> [] -> (-1 <= ratio < 1)%R ->
  let n := Z.of_nat (length array) in
  exists i f a b, (IZR i <= ratio * IZR n < IZR i + 1)%R /\ f = (ratio * IZR n - IZR i)%R /\
    nth_error array (Z.to_nat (i mod n)) = Some a /\ nth_error array (Z.to_nat ((i + 1) mod n)) = Some b /\
    lerp real_arith array ratio = Ok (a * (1 - f) + b * f)%R.
Proof.
  intros array ratio NE H n. assert (Hn : 0 < n) by (unfold n; destruct array; [congruence|cbn; lia]).
  assert (Hr : (0 < IZR n)%R) by now apply IZR_lt.
  unfold lerp. fold n. cbn [a_mul a_of_Z real_arith].
  destruct (floor_real (ratio * IZR n)) as (i & Ei & B). rewrite Ei. cbn [bind].
  destruct (Z.eqb_spec n 0); [lia|]. cbn [bind a_div real_arith].
  destruct (Req_EM_T (IZR n) 0); [lra|]. cbn [bind a_sub a_add real_arith].
  assert (I1 : - n <= i).
  { assert (IZR (- n) < IZR (i + 1))%R by (rewrite opp_IZR, plus_IZR; nra). apply lt_IZR in H0. lia. }
  assert (I2 : i < n). { apply lt_IZR. nra. }
  destruct (nth_exists array (Z.to_nat (i mod n))) as (a & Ea).
  { pose proof (Z.mod_pos_bound i n Hn). unfold n in *. lia. }
  destruct (nth_exists array (Z.to_nat ((i + 1) mod n))) as (b & Eb).
  { pose proof (Z.mod_pos_bound (i + 1) n Hn). unfold n in *. lia. }
  rewrite (py_index_mod array i a) by (auto; unfold n in *; lia).
  rewrite (py_index_mod array ((i + 1) mod n) b).
  - cbn [bind]. exists i, (ratio * IZR n - IZR i)%R, a, b. repeat (split; auto); try lra.
    f_equal. field. lra.
  - pose proof (Z.mod_pos_bound (i + 1) n Hn). fold n. lia.
  - fold n. rewrite Z.mod_mod by lia. exact Eb.
Qed.

(** At the sample points it is the sample. *)
Theorem C40_lerp_sample : forall array k a, nth_error array k = Some a ->
  lerp real_arith array (INR k / INR (length array))%R = Ok a.
Proof.
  intros array k a E.
  assert (L : (k < length array)%nat) by (apply nth_error_Some; congruence).
  assert (K : (INR k < INR (length array))%R) by now apply lt_INR.
  assert (K0 : (0 <= INR k)%R) by apply pos_INR.
  destruct (C40_lerp array (INR k / INR (length array))) as (i & f & x & b & B & F & Ex & _ & ->).
  { destruct array; [cbn in L; lia|discriminate]. }
  { split.
    - apply Rle_trans with 0%R; [lra|]. apply Rle_mult_inv_pos; lra.
    - apply Rmult_lt_reg_r with (INR (length array)); [lra|]. field_simplify; lra. }
  rewrite <- INR_IZR_INZ in *.
  replace (INR k / INR (length array) * INR (length array))%R with (INR k) in * by (field; lra).
  rewrite INR_IZR_INZ in B. destruct B as [B1 B2]. apply le_IZR in B1. rewrite <- plus_IZR in B2. apply lt_IZR in B2.
  assert (i = Z.of_nat k) by lia. subst i. rewrite Z.mod_small in Ex by lia. rewrite Nat2Z.id in Ex.
  assert (x = a) by congruence. subst x. rewrite INR_IZR_INZ in F.
  replace f with 0%R by lra. f_equal. ring.
Qed.

(** A ratio of 1 or more, or below -1, is refused, and so is an empty table. *)
Theorem C40_lerp_refused : forall array ratio, array <> [] -> (ratio < -1 \/ 1 <= ratio)%R ->
  lerp real_arith array ratio = Raise IndexError.
Proof.
  intros array ratio NE H. unfold lerp. set (n := Z.of_nat (length array)).
  assert (Hn : 0 < n) by (unfold n; destruct array; [congruence|cbn; lia]).
  assert (Hr : (0 < IZR n)%R) by now apply IZR_lt.
  cbn [a_mul a_of_Z real_arith]. destruct (floor_real (ratio * IZR n)) as (i & -> & B). cbn [bind].
  destruct (Z.eqb_spec n 0); [lia|]. cbn [bind a_div real_arith].
  destruct (Req_EM_T (IZR n) 0); [lra|]. cbn [bind].
  assert (Hi : i < - n \/ n <= i).
  { destruct H as [H|H].
    - left. apply lt_IZR. rewrite opp_IZR. nra.
    - right. assert (n < i + 1); [|lia]. apply lt_IZR. rewrite plus_IZR. nra. }
  unfold py_index. fold n.
  destruct (Z.ltb_spec i 0).
  - destruct (Z.ltb_spec (i + n) 0); [auto|lia].
  - destruct (Z.ltb_spec i 0); [lia|].
    destruct (nth_error array (Z.to_nat i)) eqn:E; auto. exfalso.
    assert (Z.to_nat i < length array)%nat by (apply nth_error_Some; congruence). unfold n in *. lia.
Qed.

Theorem C40_lerp_empty : forall ratio, lerp real_arith [] ratio = Raise ZeroDivisionError.
Proof. reflexivity. Qed.

(** On floats too: no ratio in [0, 1) is rounded up past the end of the table. *)
Lemma ffloor_correct x : isfinite x = true -> ffloor x = Zfloor (F2 x).
Proof.
  destruct x as [s|s| |s m e]; intros F; try discriminate.
  - symmetry. apply (Zfloor_IZR 0).
  - unfold F2. cbn [ffloor SF2R]. unfold F2R. cbn [Fnum Fexp]. replace (cond_Zopp s (Zpos m)) with (if s then - Zpos m else Zpos m) by (destruct s; reflexivity).
    set (z := if s then - Zpos m else Zpos m). destruct (Z.ltb_spec e 0).
    + symmetry. rewrite <- (Zfloor_div z (2 ^ - e)).
      * f_equal. unfold Rdiv. f_equal.
        rewrite <- (Z.opp_involutive e) at 1. rewrite bpow_opp. f_equal. symmetry. apply (IZR_Zpower radix2). lia.
      * apply Z.pow_nonzero; lia.
    + rewrite <- (IZR_Zpower radix2) by auto. rewrite <- mult_IZR. symmetry. apply Zfloor_IZR.
Qed.

Lemma rnd_below n r : (1 <= n)%R -> generic_format radix2 fexp64 n -> generic_format radix2 fexp64 r ->
  (0 <= r < 1)%R -> (rnd64 (r * n) < n)%R.
Proof.
  intros Hn Fn Fr Hr.
  assert (F1 : generic_format radix2 fexp64 1) by (apply (format_bpow 0); lia).
  assert (R1 : (r <= 1 - bpow radix2 (-53))%R).
  { apply Rle_trans with (pred radix2 fexp64 1).
    - apply pred_ge_gt; auto with typeclass_instances; lra.
    - right. rewrite pred_eq_pos by lra. unfold pred_pos.
      assert (M : mag radix2 1 = 1%Z :> Z) by (apply (mag_unique_pos radix2 1 1); cbn; lra).
      rewrite M. rewrite Req_bool_true by reflexivity. reflexivity. }
  assert (Pn : (0 < n)%R) by lra.
  pose proof (pred_lt_id radix2 fexp64 n ltac:(lra)) as PL.
  apply Rle_lt_trans with (pred radix2 fexp64 n); auto.
  apply round_N_le_midp; auto with typeclass_instances.
  - apply generic_format_pred; auto with typeclass_instances.
  - rewrite succ_pred by (auto with typeclass_instances).
    pose proof (pred_plus_ulp radix2 fexp64 n ltac:(lra) Fn) as Q.
    assert (P0 : (0 <= pred radix2 fexp64 n)%R) by (apply pred_ge_0; auto with typeclass_instances).
    assert (P1 : (bpow radix2 (-53) <= pred radix2 fexp64 n)%R).
    { apply pred_ge_gt; auto with typeclass_instances; [apply format_bpow; lia|].
      apply Rlt_le_trans with (bpow radix2 0); [apply bpow_lt; lia|cbn; lra]. }
    assert (U : (ulp radix2 fexp64 (pred radix2 fexp64 n) <= pred radix2 fexp64 n * bpow radix2 (-52))%R).
    { rewrite <- (Rabs_pos_eq (pred radix2 fexp64 n)) at 2 by auto.
      change (ulp radix2 (FLT.FLT_exp (-1074) 53) (pred radix2 fexp64 n) <= Rabs (pred radix2 fexp64 n) * bpow radix2 (1 - 53))%R.
      apply ulp_FLT_le. rewrite Rabs_pos_eq by auto. eapply Rle_trans; [|exact P1]. apply bpow_le. lia. }
    assert (B0 : (0 < bpow radix2 (-53))%R) by apply bpow_gt_0.
    replace (bpow radix2 (-52)) with (2 * bpow radix2 (-53))%R in U by (cbn; lra).
    set (pn := pred radix2 fexp64 n) in *. set (eps := bpow radix2 (-53)) in *.
    assert (r * n <= (1 - eps) * n)%R by (apply Rmult_le_compat_r; lra). nra.
Qed.

Theorem C40_lerp_float : forall py_sum array ratio, array <> [] -> Z.of_nat (length array) <= 2 ^ 53 ->
  float_ok ratio -> isfinite ratio = true -> (0 <= F2 ratio < 1)%R ->
  exists v, lerp (float_arith py_sum) array ratio = Ok v.
Proof.
  intros py_sum array ratio NE L O F H. unfold lerp. set (n := Z.of_nat (length array)) in *.
  assert (Hn : 1 <= n) by (unfold n; destruct array; [congruence|cbn; lia]).
  assert (Hn1 : (1 <= IZR n)%R) by now apply IZR_le.
  destruct (float_of_Z_correct n ltac:(lia)) as (Fn & En).
  pose proof (float_of_Z_ok n) as On.
  assert (Rb : (rnd64 (F2 ratio * IZR n) < IZR n)%R).
  { apply rnd_below; auto; [apply IZR_format64; lia|now apply F2_format64]. }
  assert (R0 : (0 <= rnd64 (F2 ratio * IZR n))%R).
  { apply round_ge_generic; auto with typeclass_instances; [apply generic_format_0|nra]. }
  pose proof (fmul_correct ratio (float_of_Z n) O On F Fn) as C. rewrite En in C.
  rewrite Rlt_bool_true in C.
  2:{ rewrite Rabs_pos_eq by auto. eapply Rlt_trans; [exact Rb|].
      pose proof (F2_lt_emax (float_of_Z n) On) as E. rewrite En, Rabs_pos_eq in E; lra. }
  destruct C as (C1 & C2 & _).
  cbn [a_floor a_mul a_of_Z float_arith].
  assert (Ef : float_floor (fmul ratio (float_of_Z n)) = Ok (Zfloor (rnd64 (F2 ratio * IZR n)))).
  { rewrite <- C2, <- ffloor_correct by auto. unfold float_floor.
    destruct (fmul ratio (float_of_Z n)); auto; discriminate. }
  rewrite Ef. cbn [bind]. set (i := Zfloor _).
  assert (I1 : 0 <= i) by (apply Zfloor_lub; auto).
  assert (I2 : i < n). { apply lt_IZR. eapply Rle_lt_trans; [apply Zfloor_lb|auto]. }
  destruct (Z.eqb_spec n 0); [lia|]. cbn [bind a_div float_arith]. unfold float_div.
  assert (Z0 : feqb (float_of_Z n) (float_of_Z 0) = false).
  { destruct (feqb (float_of_Z n) (float_of_Z 0)) eqn:E; auto. exfalso. revert E En.
    change (float_of_Z 0) with (S754_zero false). destruct (float_of_Z n) as [s|s| |s m e]; try discriminate.
    - cbn. intros _ En. lra.
    - destruct s; discriminate. }
  rewrite Z0. cbn [bind].
  destruct (nth_exists array (Z.to_nat i)) as (a & Ea); [unfold n in *; lia|].
  pose proof (Z.mod_pos_bound (i + 1) n ltac:(lia)) as M.
  destruct (nth_exists array (Z.to_nat ((i + 1) mod n))) as (b & Eb); [unfold n in *; lia|].
  rewrite <- (Z2Nat.id i), (py_index_nat array _ a Ea) by lia.
  rewrite Z2Nat.id by lia.
  rewrite <- (Z2Nat.id ((i + 1) mod n)), (py_index_nat array _ b Eb) by lia. cbn [bind]. eauto.
Qed.

(** ** linspace *)
Lemma map_res_ok {A B} (f : A -> res B) (g : A -> B) l : (forall x, In x l -> f x = Ok (g x)) ->
  map_res f l = Ok (map g l).
Proof.
  induction l as [|x l IH]; intros H; cbn [map_res map]; auto.
  rewrite H by (now left). cbn [bind]. rewrite IH; auto. intros y Hy. apply H. now right.
Qed.

(** The requested number of points, equally spaced, from the first to the last. *)
Theorem C40_linspace : forall first last count, 2 <= count -> exists l,
  linspace real_arith first last count = Ok l /\ Z.of_nat (length l) = count /\
  forall i, 0 <= i < count ->
    nth_error l (Z.to_nat i) = Some (first + IZR i / IZR (count - 1) * (last - first))%R.
Proof.
  intros first last count H. unfold linspace.
  assert (Hc : IZR (count - 1) <> 0%R) by (apply not_0_IZR; lia).
  set (g := fun i : Z => (first + IZR i / IZR (count - 1) * (last - first))%R).
  rewrite (map_res_ok _ g).
  - eexists. split; [reflexivity|]. rewrite !map_length, seq_length. split; [lia|].
    intros i Hi. rewrite map_map, nth_error_map. rewrite nth_error_nth' with (d := 0%nat) by (rewrite seq_length; lia).
    rewrite seq_nth by lia. cbn [option_map Nat.add]. now rewrite Z2Nat.id by lia.
  - intros i _. cbn [a_div a_mul a_sub a_add a_of_Z real_arith]. unfold g.
    destruct (Z.eqb_spec (i + 1) count) as [E|E].
    + f_equal. replace i with (count - 1) by lia. field. auto.
    + destruct (Req_EM_T (IZR (count - 1)) 0); [contradiction|]. cbn [bind]. f_equal. field. auto.
Qed.

Theorem C40_linspace_ends : forall first last, linspace real_arith first last 1 = Ok [last] /\
  (forall count, count <= 0 -> linspace real_arith first last count = Ok []) /\
  forall count l, 2 <= count -> linspace real_arith first last count = Ok l ->
    nth_error l 0 = Some first /\ nth_error l (Z.to_nat (count - 1)) = Some last.
Proof.
  intros first last. split; [reflexivity|]. split.
  - intros count H. unfold linspace. replace (Z.to_nat count) with 0%nat by lia. reflexivity.
  - intros count l H E. destruct (C40_linspace first last count H) as (l' & E' & _ & N).
    rewrite E in E'. injection E' as <-. split.
    + change 0%nat with (Z.to_nat 0). rewrite (N 0) by lia. f_equal. field. apply not_0_IZR; lia.
    + rewrite (N (count - 1)) by lia. f_equal. field. apply not_0_IZR; lia.
Qed.

Example C40_linspace_example : linspace real_arith 0%R 6%R 4 = Ok [0; 2; 4; 6]%R.
Proof.
  destruct (C40_linspace 0%R 6%R 4 ltac:(lia)) as (l & E & L & N). rewrite E. f_equal.
  assert (L4 : length l = 4%nat) by lia.
  destruct l as [|a [|b [|c [|d [|e l]]]]]; try discriminate.
  pose proof (N 0 ltac:(lia)) as H0. pose proof (N 1 ltac:(lia)) as H1.
  pose proof (N 2 ltac:(lia)) as H2. pose proof (N 3 ltac:(lia)) as H3. cbn in H0, H1, H2, H3.
  injection H0 as ->. injection H1 as ->. injection H2 as ->. injection H3 as ->.
  f_equal; [lra|]. f_equal; [lra|]. f_equal; [lra|]. f_equal. lra.
Qed.

(** ** Sixteen bit counters (C43) *)
Theorem C43_uint16 : forall v, wrap_uint16 v = Ok (v mod 65536).
Proof.
  assert (Up : forall n v, Z.of_nat n > (if v <? 0 then - v else 0) ->
    exists r, step_until n (fun v => v <? 0) 65536 v = Ok r /\ r mod 65536 = v mod 65536 /\ 0 <= r /\
      (v >= 0 -> r = v) /\ (v < 0 -> r < 65536)).
  { induction n as [|n IH]; intros v H; [destruct (Z.ltb_spec v 0); lia|]. cbn [step_until].
    destruct (Z.ltb_spec v 0) as [L|L].
    - destruct (IH (v + 65536)) as (r & E & M & P & Q1 & Q2); [destruct (Z.ltb_spec (v + 65536) 0); lia|].
      exists r. split; auto. split.
      + rewrite M. rewrite <- (Z.mul_1_l 65536) at 1. now rewrite Z.mod_add by lia.
      + split; auto. split; [lia|]. intros _. destruct (Z.ltb_spec (v + 65536) 0); [auto|rewrite Q1; lia].
    - exists v. repeat split; auto; lia. }
  assert (Dn : forall n v, Z.of_nat n > v -> 0 <= v -> 
    step_until n (fun v => v >? 65535) (-65536) v = Ok (v mod 65536)).
  { induction n as [|n IH]; intros v H H0; [lia|]. cbn [step_until]. rewrite Z.gtb_ltb.
    destruct (Z.ltb_spec 65535 v) as [L|L].
    - rewrite IH by lia. f_equal. replace (v + -65536) with (v + (-1) * 65536) by lia. now rewrite Z.mod_add by lia.
    - f_equal. symmetry. apply Z.mod_small. lia. }
  intros v. unfold wrap_uint16.
  destruct (Up (S (Z.to_nat (Z.abs v))) v) as (r & -> & M & P & _); [destruct (Z.ltb_spec v 0); lia|].
  cbn [bind]. rewrite Dn by lia. congruence.
Qed.

Theorem C43_int16 : forall v, exists r, wrap_int16 v = Ok r /\ -32768 <= r <= 32767 /\ r mod 65536 = v mod 65536.
Proof.
  assert (Dn : forall n v, Z.of_nat n > Z.max 0 v ->
    exists r, step_until n (fun v => v >? 32767) (-65536) v = Ok r /\ r mod 65536 = v mod 65536 /\ r <= 32767 /\
      (v > 32767 -> -32768 <= r) /\ (v <= 32767 -> r = v)).
  { induction n as [|n IH]; intros v H; [lia|]. cbn [step_until]. rewrite Z.gtb_ltb.
    destruct (Z.ltb_spec 32767 v) as [L|L].
    - destruct (IH (v + -65536)) as (r & E & M & P & Q1 & Q2); [lia|]. exists r. split; auto. split.
      + rewrite M. replace (v + -65536) with (v + (-1) * 65536) by lia. now rewrite Z.mod_add by lia.
      + split; auto. split; [|lia]. intros _. destruct (Z.ltb_spec 32767 (v + -65536)); [lia|rewrite Q2; lia].
    - exists v. repeat split; auto; lia. }
  assert (Up : forall n v, Z.of_nat n > Z.max 0 (- v) -> v <= 32767 ->
    exists r, step_until n (fun v => v <? -32768) 65536 v = Ok r /\ r mod 65536 = v mod 65536 /\ -32768 <= r <= 32767).
  { induction n as [|n IH]; intros v H H0; [lia|]. cbn [step_until].
    destruct (Z.ltb_spec v (-32768)) as [L|L].
    - destruct (IH (v + 65536)) as (r & E & M & P); [lia|lia|]. exists r. split; auto. split; auto.
      rewrite M. rewrite <- (Z.mul_1_l 65536) at 1. now rewrite Z.mod_add by lia.
    - exists v. repeat split; auto; lia. }
  intros v. unfold wrap_int16.
  destruct (Dn (S (Z.to_nat (Z.abs v))) v) as (r & -> & M & P & _); [lia|]. cbn [bind].
  destruct (Up (S (Z.to_nat (Z.abs r))) r) as (q & -> & M' & P'); [lia|lia|].
  exists q. repeat split; lia.
Qed.

Example C43_example : wrap_uint16 (-1) = Ok 65535 /\ wrap_int16 65535 = Ok (-1).
Proof. split; vm_compute; reflexivity. Qed.

(** ** The circular average (C44) *)

(** The values at positions first, first+1, ..., taken around the circle. *)
Definition around (values : list R) (first count : Z) : list R :=
  map (fun j => nth (Z.to_nat ((first + Z.of_nat j) mod Z.of_nat (length values))) values 0%R)
      (seq 0 (Z.to_nat count)).

Lemma window_index (values : list R) v : let n := Z.of_nat (length values) in 0 < n -> - n - 1 <= v <= 2 * n - 1 ->
  py_index values (window_wrap n v) = Ok (nth (Z.to_nat (v mod n)) values 0%R).
Proof.
  intros n Hn Hv. pose proof (Z.mod_pos_bound v n Hn) as M.
  apply py_index_mod.
  - fold n. unfold window_wrap. rewrite Z.geb_leb. destruct (Z.ltb_spec v 0); [lia|]. destruct (Z.leb_spec n v); lia.
  - fold n. replace (window_wrap n v mod n) with (v mod n).
    + apply nth_error_nth'. unfold n in *. lia.
    + unfold window_wrap. rewrite Z.geb_leb. destruct (Z.ltb_spec v 0); [|destruct (Z.leb_spec n v); auto].
      * rewrite <- (Z.mul_1_l n) at 2. now rewrite Z.mod_add by lia.
      * replace (v - n) with (v + (-1) * n) by lia. now rewrite Z.mod_add by lia.
Qed.

(** For windows of two up to about twice the length of the data, every
    output is the mean of the values around it on the circle. *)
Theorem C44_window : forall values window, let n := Z.of_nat (length values) in let h := window / 2 in
  1 <= h <= n + 1 ->
  exists l, window_average real_arith values window = Ok l /\ length l = length values /\
    forall i, 0 <= i < n -> nth_error l (Z.to_nat i) = Some (Rsum (around values (i - h) (2 * h)) / IZR (2 * h))%R.
Proof.
  intros values window n h H. unfold window_average. fold n. fold h.
  assert (Hh : IZR (2 * h) <> 0%R) by (apply not_0_IZR; lia).
  set (g := fun i => (Rsum (around values (i - h) (2 * h)) / IZR (2 * h))%R).
  rewrite (map_res_ok _ g).
  - eexists. split; [reflexivity|]. rewrite !map_length, seq_length. split; auto.
    intros i Hi. rewrite map_map, nth_error_map.
    rewrite nth_error_nth' with (d := 0%nat) by (rewrite seq_length; unfold n in *; lia).
    rewrite seq_nth by (unfold n in *; lia). cbn [option_map Nat.add]. now rewrite Z2Nat.id by lia.
  - intros i Hi. apply in_map_iff in Hi. destruct Hi as (k & <- & Hk). apply in_seq in Hk.
    assert (Hn : 0 < n) by (unfold n; lia).
    replace (Z.of_nat k + h - (Z.of_nat k - h)) with (2 * h) by lia.
    rewrite (map_res_ok _ (fun j => nth (Z.to_nat ((Z.of_nat k - h + j) mod n)) values 0%R)).
    2:{ intros j Hj. apply in_map_iff in Hj. destruct Hj as (m & <- & Hm). apply in_seq in Hm.
        apply window_index; unfold n in *; lia. }
    cbn [bind]. rewrite map_map. cbn [a_div a_sum a_of_Z real_arith].
    match goal with |- context [Rsum ?l] => change l with (around values (Z.of_nat k - h) (2 * h)) end.
    assert (L : Z.of_nat (length (around values (Z.of_nat k - h) (2 * h))) = 2 * h).
    { unfold around. rewrite map_length, seq_length. lia. }
    rewrite L. destruct (Req_EM_T (IZR (2 * h)) 0); [contradiction|]. reflexivity.
Qed.

(** No output leaves the range of the data, and the average of the outputs
    is the average of the data: smoothing adds no offset. *)
Lemma Rsum_app l l' : Rsum (l ++ l') = (Rsum l + Rsum l')%R.
Proof. induction l as [|x l IH]; cbn [app]; rewrite ?Rsum_cons, ?Rsum_nil; [ring|]. rewrite IH. ring. Qed.

Lemma Rsum_bounds lo hi l : (forall x, In x l -> (lo <= x <= hi)%R) ->
  (INR (length l) * lo <= Rsum l <= INR (length l) * hi)%R.
Proof.
  induction l as [|x l IH]; intros H; [cbn; lra|]. rewrite Rsum_cons. cbn [length]. rewrite S_INR.
  pose proof (H x (or_introl eq_refl)). assert (INR (length l) * lo <= Rsum l <= INR (length l) * hi)%R.
  { apply IH. intros y Hy. apply H. now right. }
  lra.
Qed.

Lemma nth_error_ext {A} (l l' : list A) : (forall k, nth_error l k = nth_error l' k) -> l = l'.
Proof.
  revert l'. induction l as [|x l IH]; intros [|x' l'] H; auto.
  - discriminate (H 0%nat).
  - discriminate (H 0%nat).
  - pose proof (H 0%nat) as H0. injection H0 as ->. f_equal. apply IH. intros k. exact (H (S k)).
Qed.

Lemma window_nth values window l : let n := Z.of_nat (length values) in let h := window / 2 in
  1 <= h <= n + 1 -> window_average real_arith values window = Ok l ->
  l = map (fun i => Rsum (around values (Z.of_nat i - h) (2 * h)) / IZR (2 * h))%R (seq 0 (length values)).
Proof.
  intros n h H E. destruct (C44_window values window H) as (l' & E' & L & N). rewrite E in E'. injection E' as <-.
  apply nth_error_ext. intros k.
  destruct (Nat.lt_ge_cases k (length values)) as [K|K].
  - specialize (N (Z.of_nat k) ltac:(fold n; unfold n; lia)). rewrite Nat2Z.id in N. rewrite N.
    rewrite nth_error_map, nth_error_nth' with (d := 0%nat) by (rewrite seq_length; lia).
    rewrite seq_nth by lia. reflexivity.
  - rewrite (proj2 (nth_error_None l k)) by lia. symmetry. apply nth_error_None. rewrite map_length, seq_length. lia.
Qed.

Theorem C44_in_range : forall values window l lo hi, let n := Z.of_nat (length values) in let h := window / 2 in
  1 <= h <= n + 1 -> window_average real_arith values window = Ok l ->
  (forall x, In x values -> (lo <= x <= hi)%R) -> forall x, In x l -> (lo <= x <= hi)%R.
Proof.
  intros values window l lo hi n h H E B x Hx. rewrite (window_nth values window l H E) in Hx.
  apply in_map_iff in Hx. destruct Hx as (i & <- & Hi). apply in_seq in Hi. fold h.
  set (a := around values (Z.of_nat i - h) (2 * h)).
  assert (La : length a = Z.to_nat (2 * h)) by (unfold a, around; now rewrite map_length, seq_length).
  assert (Ba : (INR (length a) * lo <= Rsum a <= INR (length a) * hi)%R).
  { apply Rsum_bounds. intros y Hy. unfold a, around in Hy. apply in_map_iff in Hy. destruct Hy as (j & <- & Hj).
    apply B. apply nth_In.
    pose proof (Z.mod_pos_bound (Z.of_nat i - h + Z.of_nat j) (Z.of_nat (length values)) ltac:(lia)). lia. }
  rewrite La, INR_IZR_INZ, Z2Nat.id in Ba by lia.
  assert (P : (0 < IZR (2 * h))%R) by (apply IZR_lt; lia).
  split; apply Rmult_le_reg_r with (IZR (2 * h)); auto; field_simplify; lra.
Qed.

(** Summing around the whole circle gives the sum, wherever one starts. *)
Lemma rotate_sum values c : values <> [] ->
  Rsum (map (fun i => nth (Z.to_nat ((Z.of_nat i + c) mod Z.of_nat (length values))) values 0%R)
            (seq 0 (length values))) = Rsum values.
Proof.
  intros NE. set (n := length values). assert (Hn : (0 < n)%nat) by (unfold n; destruct values; [congruence|cbn; lia]).
  set (k := Z.to_nat (c mod Z.of_nat n)).
  pose proof (Z.mod_pos_bound c (Z.of_nat n) ltac:(lia)) as M.
  assert (Hk : (k < n)%nat) by (unfold k; lia).
  rewrite (map_ext_in _ (fun i => nth i (skipn k values ++ firstn k values) 0%R)).
  - assert (L : length (skipn k values ++ firstn k values) = n).
    { rewrite app_length, skipn_length, firstn_length. unfold n in *. lia. }
    assert (Id : forall l : list R, map (fun i => nth i l 0%R) (seq 0 (length l)) = l).
    { intros l. apply nth_error_ext. intros j. destruct (Nat.lt_ge_cases j (length l)) as [J|J].
      - rewrite nth_error_map, nth_error_nth' with (d := 0%nat) by (rewrite seq_length; lia).
        rewrite seq_nth by lia. cbn. symmetry. now apply nth_error_nth'.
      - rewrite (proj2 (nth_error_None l j)) by lia. apply nth_error_None. rewrite map_length, seq_length. lia. }
    rewrite <- L, Id, Rsum_app, Rplus_comm, <- Rsum_app, firstn_skipn. reflexivity.
  - intros i Hi. apply in_seq in Hi.
    assert (E : (Z.of_nat i + c) mod Z.of_nat n = (Z.of_nat i + Z.of_nat k) mod Z.of_nat n).
    { unfold k. rewrite Z2Nat.id by lia. now rewrite Zplus_mod_idemp_r. }
    rewrite E.
    destruct (Nat.lt_ge_cases (i + k) n) as [A|A].
    + rewrite Z.mod_small by lia. rewrite app_nth1 by (rewrite skipn_length; unfold n in *; lia).
      rewrite <- (firstn_skipn k values) at 1.
      rewrite app_nth2 by (rewrite firstn_length; unfold n in *; lia).
      f_equal. rewrite firstn_length. unfold n in *. lia.
    + replace (Z.of_nat i + Z.of_nat k) with (Z.of_nat (i + k - n) + 1 * Z.of_nat n) by lia.
      rewrite Z.mod_add, Z.mod_small by lia. rewrite app_nth2 by (rewrite skipn_length; unfold n in *; lia).
      rewrite <- (firstn_skipn k values) at 1.
      rewrite app_nth1 by (rewrite firstn_length; unfold n in *; lia).
      f_equal. rewrite skipn_length. unfold n in *. lia.
Qed.

Lemma Rsum_swap {A B} (f : A -> B -> R) la lb :
  Rsum (map (fun a => Rsum (map (f a) lb)) la) = Rsum (map (fun b => Rsum (map (fun a => f a b) la)) lb).
Proof.
  induction la as [|a la IH]; cbn [map].
  - rewrite Rsum_nil. rewrite Rsum_map_const. ring.
  - rewrite Rsum_cons, IH, <- Rsum_map_plus. f_equal.
Qed.

Theorem C44_no_offset : forall values window l, let n := Z.of_nat (length values) in let h := window / 2 in
  1 <= h <= n + 1 -> window_average real_arith values window = Ok l -> Rsum l = Rsum values.
Proof.
  intros values window l n h H E. rewrite (window_nth values window l H E).
  destruct (list_eq_dec Req_EM_T values []) as [->|NE]; [reflexivity|].
  assert (Hh : IZR (2 * h) <> 0%R) by (apply not_0_IZR; lia).
  rewrite (map_ext _ (fun i : nat => / IZR (2 * h) * Rsum (around values (Z.of_nat i - h) (2 * h)))%R)
    by (intros i; fold h; field; auto).
  rewrite Rsum_map_scale. unfold around.
  rewrite Rsum_swap.
  rewrite (map_ext _ (fun _ : nat => Rsum values)).
  - rewrite Rsum_map_const, seq_length, INR_IZR_INZ, Z2Nat.id by lia. field. auto.
  - intros j. rewrite <- (rotate_sum values (- h + Z.of_nat j) NE). f_equal. apply map_ext. intros i.
    do 3 f_equal. lia.
Qed.

(** A window below two has nothing to average. *)
Theorem C44_small_window : forall values window, values <> [] -> 0 <= window < 2 ->
  window_average real_arith values window = Raise ZeroDivisionError.
Proof.
  intros values window NE H. unfold window_average. assert (E : window / 2 = 0) by (apply Z.div_small; lia).
  rewrite E. destruct values as [|v values]; [congruence|]. cbn [length seq map map_res Z.of_nat].
  change (Z.to_nat (0 + 0 - (0 - 0))) with 0%nat. cbn [seq map map_res bind length Z.of_nat a_div a_of_Z real_arith].
  destruct (Req_EM_T 0 0); [reflexivity|congruence].
Qed.

Example C44_example : exists l, window_average real_arith [0; 6; 0; 0]%R 2 = Ok l /\ l = [0; 3; 3; 0]%R.
Proof.
  destruct (C44_window [0; 6; 0; 0]%R 2) as (l & E & _ & _); [cbn; lia|]. exists l. split; auto.
  rewrite (window_nth [0; 6; 0; 0]%R 2 l) by (auto; cbn; lia).
  unfold around. cbn [length seq map]. change (2 / 2) with 1. change (Z.to_nat (2 * 1)) with 2%nat.
  cbn [seq map]. change (2 * 1) with 2.
  unfold Rsum. cbn [fold_right]. cbn -[Rplus Rdiv].
  change (Pos.to_nat 1) with 1%nat. change (Pos.to_nat 2) with 2%nat. change (Pos.to_nat 3) with 3%nat. cbv iota.
  f_equal; [lra|]. f_equal; [lra|]. f_equal; [lra|]. f_equal. lra.
Qed.

Print Assumptions C39_least_squares.
Print Assumptions C39_defined.
Print Assumptions C39_exact.
Print Assumptions C40_interpolate.
Print Assumptions C40_interpolate_refused.
Print Assumptions C40_unique.
Print Assumptions C40_at_points.
Print Assumptions C40_in_range.
Print Assumptions C40_unsorted_refuted.
Print Assumptions C40_lerp.
Print Assumptions C40_lerp_sample.
Print Assumptions C40_lerp_refused.
Print Assumptions C40_lerp_empty.
Print Assumptions C40_lerp_float.
Print Assumptions C40_linspace.
Print Assumptions C40_linspace_ends.
Print Assumptions C43_uint16.
Print Assumptions C43_int16.
Print Assumptions C44_window.
Print Assumptions C44_in_range.
Print Assumptions C44_no_offset.
Print Assumptions C44_small_window.
