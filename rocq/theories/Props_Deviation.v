(** C72 in exact numbers: what the deviation of an encoder is computed to be. *)
From Coq Require Import ZArith List Bool Lia ZifyBool ZifyNat Reals Lra Floats.SpecFloat.
From Flocq Require Import Core Digits BinarySingleNaN.
From Verif Require Import PyBase PyFloat Float_Proofs Calib_Model Compensate_Model.
Import ListNotations.
Open Scope R_scope.

(** math.fmod(x, 1.0) *)
Definition fmodR (x : R) : res R := Ok (x - IZR (Ztrunc x)).

Lemma fmodR_mid x : 0 <= x < 1 -> fmodR x = Ok x.
Proof. intros H. unfold fmodR. rewrite Ztrunc_floor by lra. rewrite (Zfloor_imp 0) by (change (IZR (0 + 1)) with 1; lra). f_equal. lra. Qed.
Lemma fmodR_one x : 1 <= x < 2 -> fmodR x = Ok (x - 1).
Proof. intros H. unfold fmodR. rewrite Ztrunc_floor by lra. rewrite (Zfloor_imp 1) by (change (IZR (1 + 1)) with 2; lra). reflexivity. Qed.

Lemma Rsum_app l m : Rsum (l ++ m) = Rsum l + Rsum m.
Proof. unfold Rsum. induction l as [|x l IH]; cbn [app fold_right]; [lra|]. rewrite IH. lra. Qed.
Lemma Rsum_affine {A} (f : A -> R) c l : Rsum (map (fun x => f x - c) l) = Rsum (map f l) - INR (length l) * c.
Proof. unfold Rsum. induction l as [|x l IH]; [cbn; lra|]. cbn [map length fold_right]. rewrite S_INR, IH. lra. Qed.

Lemma half_real : a_div real_arith 1 2 = Ok (1 / 2).
Proof. cbn. destruct (Req_EM_T 2 0); [lra|reflexivity]. Qed.

(** ** Integration *)
Definition step (h : R) (a b : R * R) : Prop :=
  fmodR (fst b - fst a + 1) = Ok h /\ fmodR (1 + fst b - fst a) = Ok h.
Fixpoint spaced (h : R) (old : R * R) (rest : list (R * R)) : Prop :=
  match rest with
  | [] => True
  | b :: rest => step h old b /\ spaced h b rest
  end.

Lemma integrate_spec h : forall rest lastx v old, spaced h old rest ->
  exists r, integrate_from real_arith fmodR lastx v old rest = Ok r /\ length r = length rest /\
    (forall k p, nth_error r k = Some p -> fst p = lastx + INR (S k) * h) /\
    (forall k a b p q, nth_error (old :: rest) k = Some a -> nth_error rest k = Some b ->
       nth_error ((lastx, v) :: r) k = Some p -> nth_error r k = Some q ->
       snd q - snd p = h / 2 * (snd a + snd b)) /\
    snd (last r (lastx, v)) = v + h / 2 * (Rsum (map snd rest) + Rsum (map snd (old :: rest)) - snd (last rest old)).
Proof.
  induction rest as [|b rest IH]; intros lastx v old S.
  - exists []. cbn. repeat split; try (intros [|k]; discriminate). lra.
  - destruct S as [[S1 S2] S]. cbn [integrate_from]. change (a_of_Z real_arith 1) with 1. change (a_of_Z real_arith 2) with 2. rewrite half_real. cbn [bind].
    change (a_add real_arith (a_sub real_arith (fst b) (fst old)) 1) with (fst b - fst old + 1). rewrite S1. cbn [bind].
    change (a_sub real_arith (a_add real_arith 1 (fst b)) (fst old)) with (1 + fst b - fst old). rewrite S2. cbn [bind].
    cbn [a_add a_mul real_arith].
    destruct (IH (lastx + h) (v + h * (1 / 2) * (snd b + snd old)) b S) as (r & E & L & X & Y & T).
    rewrite E. cbn [bind]. eexists. split; [reflexivity|]. split; [cbn; lia|]. split; [|split].
    + intros [|k] p; cbn [nth_error].
      * intros [= <-]. cbn. lra.
      * intros N. rewrite (X k p N). rewrite !S_INR. lra.
    + intros [|k] a b' p q; cbn [nth_error].
      * intros [= <-] [= <-] [= <-] [= <-]. cbn. lra.
      * intros Na Nb Np Nq. apply (Y k a b' p q); auto.
    + assert (E1 : last ((lastx + h, v + h * (1 / 2) * (snd b + snd old)) :: r) (lastx, v) =
                   last r (lastx + h, v + h * (1 / 2) * (snd b + snd old))).
      { destruct r as [|x r]; [reflexivity|]. change (last (x :: r) (lastx, v) = last (x :: r) (lastx + h, v + h * (1 / 2) * (snd b + snd old))).
        clear. revert x. induction r as [|y r IH]; intros x; [reflexivity|]. exact (IH y). }
      rewrite E1, T.
      assert (E2 : last (b :: rest) old = last rest b).
      { clear. revert b. induction rest as [|y r IH]; intros b; [reflexivity|]. change (last (y :: r) old = last (y :: r) b).
        clear. revert y. induction r as [|z r IH]; intros y; [reflexivity|]. exact (IH z). }
      rewrite E2. cbn. unfold Rsum. lra.
Qed.

(** ** The points *)
Definition point (n : nat) (c : R) (k : nat) (v : R) : R * R := ((INR k + 1 / 2) / INR n, v / c - 1).
Fixpoint points (n : nat) (c : R) (k : nat) (l : list R) : list (R * R) :=
  match l with
  | [] => []
  | v :: l => point n c k v :: points n c (S k) l
  end.
Lemma points_length n c l : forall k, length (points n c k l) = length l.
Proof. induction l as [|v l IH]; intros k; cbn; [reflexivity|]. now rewrite IH. Qed.
Lemma points_nth n c l : forall k i v, nth_error l i = Some v -> nth_error (points n c k l) i = Some (point n c (k + i) v).
Proof.
  induction l as [|x l IH]; intros k [|i] v; cbn [nth_error points]; try discriminate.
  - intros [= ->]. now rewrite Nat.add_0_r.
  - intros H. rewrite (IH (S k) i v H). do 2 f_equal. lia.
Qed.

Lemma placed_spec n l : (0 < n)%nat -> forall k, exists m, placed real_arith (Z.of_nat k) (Z.of_nat n) l = Ok m /\
  map snd m = l /\ forall c, c <> 0 -> map_res (fun p => let* q := a_div real_arith (snd p) c in Ok (fst p, a_sub real_arith q 1)) m = Ok (points n c k l).
Proof.
  intros N. induction l as [|v l IH]; intros k; cbn [placed].
  - exists []. cbn. auto.
  - change (a_of_Z real_arith 1) with 1. change (a_of_Z real_arith 2) with 2. rewrite half_real. cbn [bind].
    cbn [a_of_Z a_add a_div real_arith]. destruct (Req_EM_T (IZR (Z.of_nat n)) 0) as [E|_].
    { rewrite <- INR_IZR_INZ in E. apply INR_eq in E || idtac. apply lt_INR in N. cbn in N. lra. }
    cbn [bind]. destruct (IH (S k)) as (m & E & M & P). replace (Z.of_nat k + 1)%Z with (Z.of_nat (S k)) by lia. rewrite E. cbn [bind].
    eexists. split; [reflexivity|]. split; [cbn; now rewrite M|]. intros c C. cbn [map_res]. cbn [a_div real_arith snd fst] in *.
    rewrite P by exact C. destruct (Req_EM_T c 0); [contradiction|]. cbn [bind points a_sub]. unfold point. rewrite !INR_IZR_INZ. reflexivity.
Qed.

Lemma spaced_points n c l : (2 <= n)%nat -> forall k v, (k + length l < n)%nat ->
  spaced (/ INR n) (point n c k v) (points n c (S k) l).
Proof.
  intros N. assert (P : 2 <= INR n) by (change 2 with (INR 2); now apply le_INR).
  induction l as [|w l IH]; intros k v L; cbn [points spaced]; [exact I|]. split; [|apply IH; cbn in L; lia].
  assert (D : (INR (S k) + 1 / 2) / INR n - (INR k + 1 / 2) / INR n = / INR n) by (rewrite S_INR; field; lra).
  assert (H : 0 < / INR n <= / 2). { split; [apply Rinv_0_lt_compat; lra|apply Rinv_le_contravar; lra]. }
  unfold step, point. cbn [fst]. split.
  - rewrite fmodR_one by lra. f_equal. lra.
  - rewrite fmodR_one by lra. f_equal. lra.
Qed.
Lemma spaced_app h l : forall old p, spaced h old l -> step h (last l old) p -> spaced h old (l ++ [p]).
Proof.
  induction l as [|b l IH]; intros old p S H; cbn [app spaced last] in *; [auto|]. destruct S as [S1 S2]. split; [exact S1|].
  apply IH; [exact S2|]. destruct l as [|b' l]; [exact H|].
  replace (last (b' :: l) b) with (last (b' :: l) old); [exact H|]. clear. revert b'. induction l as [|z l IH]; intros y; [reflexivity|]. exact (IH z).
Qed.

(** The deviation of the position that comes from the speeds over a turn: it changes by the mean excess of
    speed, ends where it began, and is zero on average. *)
Theorem C72_closed (values : list R) : (2 <= length values)%nat -> Rsum values <> 0 ->
  let n := length values in
  let mean := Rsum values / INR n in
  exists m u pts, placed real_arith 0 (Z.of_nat n) values = Ok m /\ unbiased real_arith m = Ok u /\
    integrated real_arith fmodR u = Ok pts /\ length pts = S n /\
    (forall k p, nth_error pts k = Some p -> fst p = (INR k + 1 / 2) / INR n) /\
    (forall k p q v w, nth_error pts k = Some p -> nth_error pts (S k) = Some q ->
       nth_error values k = Some v -> nth_error values (S k mod n) = Some w ->
       snd q - snd p = ((v / mean - 1) + (w / mean - 1)) / 2 / INR n) /\
    (forall p q, nth_error pts 0 = Some p -> nth_error pts n = Some q -> snd p = snd q) /\
    Rsum (map snd pts) = 0.
Proof.
  intros N S0 n mean. assert (P : 2 <= INR n) by (change 2 with (INR 2); now apply le_INR).
  assert (M0 : mean <> 0).
  { unfold mean. intros E. apply S0. replace (Rsum values) with (Rsum values / INR n * INR n) by (field; lra). rewrite E. lra. }
  destruct (placed_spec n values ltac:(lia) 0) as (m & Em & Mm & Pm). change (Z.of_nat 0) with 0%Z in Em.
  exists m, (points n mean 0 values).
  assert (Lm : length m = n) by (rewrite <- (map_length snd m), Mm; reflexivity).
  assert (Eu : unbiased real_arith m = Ok (points n mean 0 values)).
  { unfold unbiased, mean_value. rewrite Lm. cbn [a_div a_sum a_of_Z real_arith]. rewrite Mm.
    destruct (Req_EM_T (IZR (Z.of_nat n)) 0) as [E|_]; [rewrite <- INR_IZR_INZ in E; lra|]. cbn [bind].
    rewrite <- INR_IZR_INZ. fold mean. change (a_of_Z real_arith 1) with 1. apply Pm, M0. }
  assert (SU : Rsum (map snd (points n mean 0 values)) = 0).
  { assert (G : forall l k, Rsum (map snd (points n mean k l)) = Rsum l / mean - INR (length l)).
    { induction l as [|v l IH]; intros k; [cbn; field; exact M0|]. cbn [points map length]. rewrite S_INR.
      change (Rsum (snd (point n mean k v) :: map snd (points n mean (S k) l))) with (snd (point n mean k v) + Rsum (map snd (points n mean (S k) l))).
      rewrite IH. change (Rsum (v :: l)) with (v + Rsum l). unfold point. cbn [snd]. field. exact M0. }
    rewrite G. fold n. unfold mean. field. split; [lra|exact S0]. }
  destruct values as [|v0 vs]; [cbn in N; lia|].
  assert (Ei : exists r, integrate real_arith fmodR (points n mean 0 (v0 :: vs)) = Ok ((fst (point n mean 0 v0), 0) :: r) /\ length r = n /\
    (forall k p, nth_error r k = Some p -> fst p = fst (point n mean 0 v0) + INR (S k) * / INR n) /\
    (forall k a b p q, nth_error (points n mean 0 (v0 :: vs) ++ [point n mean 0 v0]) k = Some a ->
       nth_error (points n mean 1 vs ++ [point n mean 0 v0]) k = Some b ->
       nth_error ((fst (point n mean 0 v0), 0) :: r) k = Some p -> nth_error r k = Some q ->
       snd q - snd p = / INR n / 2 * (snd a + snd b)) /\
    snd (last r (fst (point n mean 0 v0), 0)) = 0).
  { cbn [points integrate]. change (a_of_Z real_arith 0) with 0.
    destruct (integrate_spec (/ INR n) (points n mean 1 vs ++ [point n mean 0 v0]) (fst (point n mean 0 v0)) 0 (point n mean 0 v0))
      as (r & E & L & X & Y & T).
    { apply spaced_app; [apply spaced_points; [exact N|cbn; lia]|].
      assert (Hl : exists w, last (points n mean 1 vs) (point n mean 0 v0) = point n mean (n - 1) w).
      { assert (G : forall l k v, exists w, last (points n mean (S k) l) (point n mean k v) = point n mean (k + length l) w).
        { induction l as [|z l IH]; intros k v; [exists v; cbn; now rewrite Nat.add_0_r|]. destruct (IH (S k) z) as [w W]. exists w.
          cbn [length]. rewrite <- plus_n_Sm. change (S (k + length l)) with (S k + length l)%nat. rewrite <- W.
          cbn [points]. destruct l as [|z' l]; [reflexivity|]. cbn [points].
          change (last (point n mean (S (S k)) z' :: points n mean (S (S (S k))) l) (point n mean k v) =
                  last (point n mean (S (S k)) z' :: points n mean (S (S (S k))) l) (point n mean (S k) z)).
          generalize (points n mean (S (S (S k))) l) (point n mean (S (S k)) z'). clear.
          induction l as [|y l IH]; intros x; [reflexivity|]. exact (IH y). }
        destruct (G vs 0%nat v0) as [w W]. exists w. rewrite W. f_equal. unfold n. cbn. lia. }
      destruct Hl as [w ->]. unfold step, point. cbn [fst].
      assert (D : (INR 0 + 1 / 2) / INR n - (INR (n - 1) + 1 / 2) / INR n + 1 = / INR n).
      { rewrite minus_INR by lia. change (INR 0) with 0. change (INR 1) with 1. field. lra. }
      assert (H : 0 < / INR n <= / 2). { split; [apply Rinv_0_lt_compat; lra|apply Rinv_le_contravar; lra]. }
      split; [rewrite D|replace (1 + (INR 0 + 1 / 2) / INR n - (INR (n - 1) + 1 / 2) / INR n) with (/ INR n) by lra]; apply fmodR_mid; lra. }
    rewrite E. cbn [bind]. exists r. split; [reflexivity|]. split; [rewrite L, app_length, points_length; unfold n; cbn; lia|].
    split; [exact X|]. split; [exact Y|]. rewrite T. rewrite last_last.
    change (Rsum (map snd (point n mean 0 v0 :: points n mean 1 vs ++ [point n mean 0 v0])))
      with (snd (point n mean 0 v0) + Rsum (map snd (points n mean 1 vs ++ [point n mean 0 v0]))).
    change (snd (point n mean 0 v0) + Rsum (map snd (points n mean 1 vs)) = 0) in SU.
    rewrite map_app, Rsum_app. change (Rsum (map snd [point n mean 0 v0])) with (snd (point n mean 0 v0) + 0).
    replace (_ + _ - _) with (2 * (snd (point n mean 0 v0) + Rsum (map snd (points n mean 1 vs)))) by lra. rewrite SU. lra. }
  destruct Ei as (r & Ei & L & X & Y & T). set (p0 := point n mean 0 v0) in *.
  set (i := (fst p0, 0) :: r) in *. set (c := Rsum (map snd i) / INR (S n)).
  exists (map (fun p => (fst p, snd p - c)) i). split; [exact Em|]. split; [exact Eu|].
  assert (Li : length i = S n) by (unfold i; cbn [length]; now rewrite L).
  split.
  { unfold integrated. rewrite Ei. cbn [bind]. unfold mean_value. rewrite Li. cbn [a_div a_sum a_of_Z real_arith].
    destruct (Req_EM_T (IZR (Z.of_nat (S n))) 0) as [E|_]; [rewrite <- INR_IZR_INZ, S_INR in E; lra|]. cbn [bind]. rewrite <- INR_IZR_INZ. reflexivity. }
  split; [rewrite map_length; exact Li|]. split; [|split; [|split]].
  - intros k p Np. rewrite nth_error_map in Np. destruct (nth_error i k) as [q|] eqn:Nq; [|discriminate]. injection Np as <-. cbn [fst].
    destruct k as [|k]; cbn [i nth_error] in Nq; [injection Nq as <-; reflexivity|]. rewrite (X k q Nq). unfold p0, point. cbn [fst].
    rewrite S_INR. cbn [INR]. field. lra.
  - intros k p q v w Np Nq Nv Nw. rewrite nth_error_map in Np, Nq. destruct (nth_error i k) as [p'|] eqn:Np'; [|discriminate].
    destruct (nth_error i (S k)) as [q'|] eqn:Nq'; [|discriminate]. injection Np as <-. injection Nq as <-. cbn [snd].
    cbn [i nth_error] in Nq'.
    assert (Lk : (k < n)%nat) by (apply nth_error_Some; unfold n in *; congruence).
    assert (Na : nth_error (points n mean 0 (v0 :: vs) ++ [p0]) k = Some (point n mean k v)).
    { rewrite nth_error_app1 by (rewrite points_length; exact Lk). exact (points_nth n mean (v0 :: vs) 0 k v Nv). }
    assert (Nb : exists j, nth_error (points n mean 1 vs ++ [p0]) k = Some (point n mean j w)).
    { destruct (Nat.eq_dec (S k) n) as [E|E].
      - exists 0%nat. rewrite E, Nat.mod_same in Nw by lia. injection Nw as <-. rewrite nth_error_app2 by (rewrite points_length; unfold n in E; cbn in E; lia).
        rewrite points_length. replace (k - length vs)%nat with 0%nat by (unfold n in E; cbn in E; lia). reflexivity.
      - rewrite Nat.mod_small in Nw by lia. exists (1 + k)%nat. rewrite nth_error_app1 by (rewrite points_length; unfold n in *; cbn in *; lia).
        apply points_nth. exact Nw. }
    destruct Nb as [j Nb]. pose proof (Y k _ _ p' q' Na Nb Np' Nq') as D. unfold point in D. cbn [snd] in D.
    replace (snd q' - c - (snd p' - c)) with (snd q' - snd p') by lra. rewrite D. field. repeat split; try lra; exact M0.
  - intros p q Np Nq. rewrite nth_error_map in Np, Nq. cbn [i nth_error] in Np. injection Np as <-.
    destruct (nth_error i n) as [q'|] eqn:Nq'; [|discriminate]. injection Nq as <-. cbn [snd fst].
    enough (snd q' = 0) by lra. rewrite <- T. f_equal.
    assert (N0 : (2 <= n)%nat) by exact N. clearbody n p0. clear - Nq' L N0. unfold i in Nq'. destruct n as [|n']; [lia|]. cbn [nth_error] in Nq'.
    destruct (@exists_last _ r) as (r' & z & ->); [intros ->; discriminate|]. rewrite last_last. rewrite app_length in L. cbn [length] in L.
    rewrite nth_error_app2 in Nq' by lia. replace (n' - length r')%nat with 0%nat in Nq' by lia. now injection Nq' as <-.
  - rewrite map_map. cbn [snd]. rewrite Rsum_affine, Li. unfold c. field. rewrite S_INR. lra.
Qed.

(** An encoder whose speed is the same all round the turn has no deviation. *)
Theorem C72_constant (v : R) (n : nat) : (2 <= n)%nat -> v <> 0 ->
  exists m u pts, placed real_arith 0 (Z.of_nat n) (repeat v n) = Ok m /\ unbiased real_arith m = Ok u /\
    integrated real_arith fmodR u = Ok pts /\ length pts = S n /\ forall p, In p pts -> snd p = 0.
Proof.
  intros N V. assert (P : 2 <= INR n) by (change 2 with (INR 2); now apply le_INR).
  assert (SR : forall k, Rsum (repeat v k) = INR k * v).
  { induction k as [|k IH]; [cbn; lra|]. rewrite S_INR. change (Rsum (repeat v (S k))) with (v + Rsum (repeat v k)). rewrite IH. lra. }
  destruct (C72_closed (repeat v n)) as (m & u & pts & A & B & C & L & X & Y & Z & Sum0).
  { rewrite repeat_length. exact N. }
  { rewrite SR. apply Rmult_integral_contrapositive. split; [lra|exact V]. }
  rewrite repeat_length in *. rewrite SR in Y. replace (INR n * v / INR n) with v in Y by (field; lra).
  exists m, u, pts. repeat split; try assumption.
  destruct pts as [|p0 pts]; [discriminate|].
  assert (H : forall k p, nth_error (p0 :: pts) k = Some p -> snd p = snd p0).
  { induction k as [|k IH]; intros p Np; [now injection Np as <-|].
    assert (Lk : (S k < S n)%nat) by (rewrite <- L; apply nth_error_Some; congruence).
    destruct (nth_error (p0 :: pts) k) as [q|] eqn:Nq; [|apply nth_error_None in Nq; lia].
    assert (R1 : forall j, (j < n)%nat -> nth_error (repeat v n) j = Some v).
    { intros j J. rewrite (nth_error_nth' _ v) by (rewrite repeat_length; exact J). f_equal. apply nth_repeat. }
    pose proof (Y k q p v v Nq Np (R1 k ltac:(lia)) (R1 (S k mod n)%nat ltac:(apply Nat.mod_upper_bound; lia))) as D.
    rewrite <- (IH q eq_refl). replace ((v / v - 1 + (v / v - 1)) / 2 / INR n) with 0 in D by (field; lra). lra. }
  assert (G : forall l c, (forall p : R * R, In p l -> snd p = c) -> Rsum (map snd l) = INR (length l) * c).
  { clear. induction l as [|p l IH]; intros c Hc; [cbn; lra|]. cbn [map length]. rewrite S_INR.
    change (Rsum (snd p :: map snd l)) with (snd p + Rsum (map snd l)). rewrite (IH c), (Hc p) by (try (intros; apply Hc); cbn; auto). lra. }
  assert (K : forall p, In p (p0 :: pts) -> snd p = snd p0).
  { intros p I. apply In_nth_error in I. destruct I as [k I]. exact (H k p I). }
  rewrite (G _ _ K), L, S_INR in Sum0. intros p I. rewrite (K p I). apply Rmult_integral in Sum0. destruct Sum0; lra.
Qed.
Example C72_closed_ex : exists m u pts, placed real_arith 0 2 [1; 3] = Ok m /\ unbiased real_arith m = Ok u /\
  integrated real_arith fmodR u = Ok pts /\ length pts = 3%nat /\ Rsum (map snd pts) = 0.
Proof.
  destruct (C72_closed [1; 3]) as (m & u & pts & A & B & C & L & _ & _ & _ & S); [cbn; lia|cbn; lra|]. exists m, u, pts. auto.
Qed.

(** ** Wrapping *)
Lemma up_pos x : 0 <= x -> x < INR (Z.to_nat (up x)).
Proof.
  intros H. destruct (archimed x) as [A _]. rewrite INR_IZR_INZ, Z2Nat.id; [lra|]. apply le_IZR. lra.
Qed.
Lemma Rltb_true x y : x < y -> Rltb x y = true.
Proof. intros H. unfold Rltb. destruct (Rlt_dec x y); [reflexivity|contradiction]. Qed.
Lemma Rltb_false x y : y <= x -> Rltb x y = false.
Proof. intros H. unfold Rltb. destruct (Rlt_dec x y); [lra|reflexivity]. Qed.

Lemma loop_down b : forall n k x, (k < n)%nat -> x <= b -> b < x + 1 ->
  wrap_loop n (fun v => Rltb b v) (fun v => v - 1) (x + INR k) = Ok x.
Proof.
  induction n as [|n IH]; intros k x K A B; [lia|]. cbn [wrap_loop]. destruct k as [|k].
  - change (INR 0) with 0. rewrite Rplus_0_r. rewrite Rltb_false by lra. reflexivity.
  - rewrite S_INR. pose proof (pos_INR k). rewrite Rltb_true by lra. replace (x + (INR k + 1) - 1) with (x + INR k) by lra. apply IH; [lia|lra|lra].
Qed.
Lemma loop_up b : forall n k x, (k < n)%nat -> b <= x -> x - 1 < b ->
  wrap_loop n (fun v => Rltb v b) (fun v => v + 1) (x - INR k) = Ok x.
Proof.
  induction n as [|n IH]; intros k x K A B; [lia|]. cbn [wrap_loop]. destruct k as [|k].
  - change (INR 0) with 0. rewrite Rminus_0_r. rewrite Rltb_false by lra. reflexivity.
  - rewrite S_INR. pose proof (pos_INR k). rewrite Rltb_true by lra. replace (x - (INR k + 1) + 1) with (x - INR k) by lra. apply IH; [lia|lra|lra].
Qed.
Definition turnsR (v : R) : nat := S (S (Z.to_nat (up (Rabs v)))).
(** Both loops together bring [d] plus a whole number of turns back to [d]. *)
Lemma wrap_back lo hi d k : lo <= d <= hi -> hi < d + 1 -> d - 1 < lo -> lo <= hi -> Rabs lo <= 1 -> Rabs hi <= 1 ->
  (let* v := wrap_loop (turnsR (d + IZR k)) (fun v => Rltb hi v) (fun v => v - 1) (d + IZR k) in
   wrap_loop (turnsR v) (fun v => Rltb v lo) (fun v => v + 1) v) = Ok d.
Proof.
  intros D A B C Hl Hh. assert (Ad : Rabs d <= 1). { apply Rabs_le. apply Rabs_le_inv in Hl, Hh. lra. }
  assert (T : forall x j, INR j <= Rabs x + 1 -> (j < turnsR x)%nat).
  { intros x j J. apply INR_lt. unfold turnsR. rewrite !S_INR. pose proof (up_pos (Rabs x) (Rabs_pos x)). lra. }
  destruct (Z_le_gt_dec 0 k) as [K|K].
  - replace (IZR k) with (INR (Z.to_nat k)) by (rewrite INR_IZR_INZ, Z2Nat.id by lia; reflexivity).
    rewrite loop_down; [|apply T|lra|lra].
    + cbn [bind]. replace (wrap_loop (turnsR d) _ _ d) with (wrap_loop (turnsR d) (fun v => Rltb v lo) (fun v => v + 1) (d - INR 0)).
      * apply loop_up; [unfold turnsR; lia|lra|lra].
      * f_equal. cbn. lra.
    + pose proof (pos_INR (Z.to_nat k)). apply Rabs_le_inv in Ad. pose proof (Rle_abs (d + INR (Z.to_nat k))). lra.
  - replace (IZR k) with (- INR (Z.to_nat (- k))) by (rewrite INR_IZR_INZ, Z2Nat.id by lia; rewrite opp_IZR; lra).
    assert (J : 1 <= INR (Z.to_nat (- k))). { change 1 with (INR 1). apply le_INR. lia. }
    replace (wrap_loop _ (fun v => Rltb hi v) _ _) with (Ok (d + - INR (Z.to_nat (- k)))).
    + cbn [bind]. replace (d + - INR (Z.to_nat (- k))) with (d - INR (Z.to_nat (- k))) by lra. apply loop_up; [|lra|lra].
      apply T. apply Rabs_le_inv in Ad. rewrite Rabs_minus_sym. pose proof (Rle_abs (INR (Z.to_nat (- k)) - d)). lra.
    + cbn [wrap_loop turnsR]. rewrite Rltb_false by lra. reflexivity.
Qed.
Lemma zero_one_real d k : 0 < d < 1 -> wrap_zero_one real_arith (d + IZR k) = Ok d.
Proof.
  intros D. refine (wrap_back 0 1 d k _ _ _ _ _ _); try lra; [rewrite Rabs_R0; lra|rewrite Rabs_R1; lra].
Qed.
Lemma half_real_wrap d k : - (1 / 2) < d < 1 / 2 -> wrap_half real_arith (d + IZR k) = Ok d.
Proof.
  intros D. unfold wrap_half. change (a_of_Z real_arith 1) with 1. change (a_of_Z real_arith 2) with 2. rewrite half_real. cbn [bind].
  refine (wrap_back (- (1 / 2)) (1 / 2) d k _ _ _ _ _ _); try lra; [rewrite Rabs_Ropp|]; rewrite Rabs_pos_eq; lra.
Qed.

Definition meanR (l : list R) : R := Rsum l / INR (length l).

(** The measured encoder reads [m]; the reference is [k] whole turns and a part [d] of a turn ahead of it.
    When [d] stays clear of the ends of a turn and within half a turn of its mean, what is recorded at [m]
    is how far the measured encoder is ahead of where the reference, less the mean difference, puts it. *)
Theorem C72_reference (samples : list (R * Z * R)) :
  let mean := meanR (map snd samples) in
  Forall (fun d => 0 < d < 1 /\ Rabs (d - mean) < 1 / 2) (map snd samples) ->
  deviations real_arith meanR (map (fun '(m, k, d) => (m + IZR k + d, m)) samples) =
  Ok (map (fun '(m, k, d) => (m, mean - d)) samples).
Proof.
  intros mean F. unfold deviations.
  assert (E : forall ss, Forall (fun d => 0 < d < 1) (map snd ss) ->
    map_res (fun p => wrap_zero_one real_arith (a_sub real_arith (fst p) (snd p)))
      (map (fun '(m, k, d) => (m + IZR k + d, m)) ss) = Ok (map (@snd (R * Z) R) ss)).
  { induction ss as [|[[m k] d] ss IH]; intros Fs; [reflexivity|]. inversion Fs as [|? ? Ds Fs']; subst.
    cbn [map map_res]. cbn [fst snd a_sub real_arith] in *.
    replace (m + IZR k + d - m) with (d + IZR k) by lra. rewrite zero_one_real by exact Ds. cbn [bind].
    rewrite IH by exact Fs'. reflexivity. }
  rewrite E. 2:{ eapply Forall_impl; [|exact F]. cbn. tauto. }
  cbn [bind]. fold mean. clear E. clearbody mean.
  induction samples as [|[[m k] d] ss IH]; [reflexivity|]. inversion F as [|? ? [Ds Dc] Fs']; subst.
  cbn [map map_res]. cbn [fst snd a_sub a_neg real_arith] in *.
  replace (m + IZR k + d - mean - m) with ((d - mean) + IZR k) by lra.
  rewrite half_real_wrap by (apply Rabs_def2 in Dc; lra). cbn [bind]. rewrite IH by exact Fs'. cbn [bind].
  do 3 f_equal. lra.
Qed.
Example C72_reference_ex : deviations real_arith meanR [(1 / 8 + 3 + 1 / 4, 1 / 8); (5 / 8 + -2 + 1 / 2, 5 / 8)] = Ok [(1 / 8, 1 / 8); (5 / 8, - (1 / 8))].
Proof.
  pose proof (C72_reference [((1 / 8), 3%Z, 1 / 4); ((5 / 8), (-2)%Z, 1 / 2)]) as H. cbn [map snd] in H.
  assert (M : meanR [1 / 4; 1 / 2] = 3 / 8) by (unfold meanR, Rsum; cbn; field). rewrite M in H. rewrite H.
  - f_equal; f_equal; [|f_equal]; apply f_equal2; lra.
  - repeat constructor; try lra; apply Rabs_def1; lra.
Qed.

(** The hypothesis is needed: when the encoders agree but for a hundredth of a turn either way, the
    differences wrap to both ends of a turn, their mean is half a turn, and the deviations recorded are of
    almost half a turn instead of a hundredth. *)
Theorem C72_reference_refuted :
  deviations real_arith meanR [(1 / 4 + 1 / 100, 1 / 4); (3 / 4 - 1 / 100, 3 / 4)] = Ok [(1 / 4, 49 / 100); (3 / 4, - (49 / 100))].
Proof.
  pose proof (C72_reference [((1 / 4), 0%Z, 1 / 100); ((3 / 4), (-1)%Z, 99 / 100)]) as H. cbn [map snd] in H.
  assert (M : meanR [1 / 100; 99 / 100] = 1 / 2) by (unfold meanR, Rsum; cbn; field). rewrite M in H.
  replace (1 / 4 + 1 / 100) with (1 / 4 + IZR 0 + 1 / 100) by lra. replace (3 / 4 - 1 / 100) with (3 / 4 + IZR (-1) + 99 / 100) by lra. rewrite H.
  - f_equal; f_equal; [|f_equal]; apply f_equal2; lra.
  - repeat constructor; try lra; apply Rabs_def1; lra.
Qed.

(** The remainder that the program computes on floats is this one, without any rounding. *)
Theorem C72_remainder x : float_ok x -> isfinite x = true ->
  exists y, fmod1 x = Ok y /\ float_ok y /\ isfinite y = true /\ fmodR (F2 x) = Ok (F2 y).
Proof.
  intros O F. unfold fmodR. destruct x as [b|b| |b m e]; try discriminate; cbn [fmod1].
  - exists (S754_zero b). repeat split. f_equal. cbn. rewrite Ztrunc_IZR. lra.
  - rewrite <- (ftrunc_correct _ F). cbn [ftrunc]. destruct (Z.ltb_spec e 0) as [E|E].
    + set (r := (Z.pos m mod 2 ^ (- e))%Z). set (q := (Z.pos m / 2 ^ (- e))%Z).
      assert (P2 : (0 < 2 ^ (- e))%Z) by (apply Z.pow_pos_nonneg; lia).
      assert (Hr : (0 <= r <= Z.pos m)%Z).
      { unfold r. split; [apply Z.mod_pos_bound; exact P2|apply Z.mod_le; lia]. }
      assert (Dm : Z.pos m = (2 ^ (- e) * q + r)%Z) by (apply Z.div_mod; lia).
      assert (V : F2 (S754_finite b m e) - IZR (cond_Zopp b q) = F2R (Float radix2 (cond_Zopp b r) e)).
      { cbn [SF2R].
        assert (B : IZR (2 ^ (- e)) * bpow radix2 e = 1).
        { change 2%Z with (radix_val radix2). rewrite IZR_Zpower by lia. rewrite <- bpow_plus. replace (- e + e)%Z with 0%Z by lia. reflexivity. }
        assert (M : IZR (Z.pos m) * bpow radix2 e = IZR q + IZR r * bpow radix2 e).
        { rewrite Dm, plus_IZR, mult_IZR. rewrite Rmult_plus_distr_r. replace (IZR (2 ^ (- e)) * IZR q * bpow radix2 e) with (IZR q * (IZR (2 ^ (- e)) * bpow radix2 e)) by ring.
          rewrite B. ring. }
        rewrite !F2R_cond_Zopp. assert (Q : IZR (cond_Zopp b q) = cond_Ropp b (IZR q)) by (destruct b; [apply opp_IZR|reflexivity]).
        rewrite Q. unfold F2R. cbn [Fnum Fexp]. destruct b; cbn [cond_Ropp]; lra. }
      assert (G : generic_format radix2 fexp64 (F2R (Float radix2 (cond_Zopp b r) e))).
      { apply generic_format_F2R. intros NZ. unfold cexp. rewrite mag_F2R_Zdigits by exact NZ.
        assert (C : fexp64 (Zdigits radix2 (Z.pos m) + e)%Z = e).
        { unfold float_ok, valid_binary, bounded, canonical_mantissa in O. apply andb_prop in O as [O _]. apply Zeq_bool_eq in O.
          rewrite <- O at 2. f_equal. f_equal. now rewrite <- Zpos_digits2_pos. }
        assert (D : (Zdigits radix2 (cond_Zopp b r) <= Zdigits radix2 (Z.pos m))%Z).
        { rewrite <- Zdigits_abs. rewrite abs_cond_Zopp. rewrite Z.abs_eq by lia. apply Zdigits_le; lia. }
        unfold fexp64 in *. lia. }
      pose proof (normalize64 (cond_Zopp b r) e b) as [On C]. cbv zeta in On, C.
      rewrite round_generic in C; [|apply valid_rnd_N|exact G].
      rewrite Rlt_bool_true in C.
      * destruct C as (C1 & C2 & _). eexists. split; [reflexivity|]. split; [exact On|]. split; [exact C2|].
        f_equal. change (match b with true => Z.opp q | false => q end) with (cond_Zopp b q). rewrite C1. exact V.
      * apply Rle_lt_trans with (Rabs (F2 (S754_finite b m e))); [|now apply F2_lt_emax].
        cbn [SF2R]. rewrite <- !F2R_Zabs. apply F2R_le. rewrite !abs_cond_Zopp. rewrite Z.abs_eq by lia. cbn. lia.
    + exists (S754_zero b). repeat split. f_equal. cbn [SF2R]. rewrite F2R_cond_Zopp.
      assert (Q : IZR (cond_Zopp b (Z.pos m * 2 ^ e)) = cond_Ropp b (IZR (Z.pos m) * bpow radix2 e)).
      { rewrite <- IZR_Zpower by lia. change (radix_val radix2) with 2%Z. rewrite <- mult_IZR. destruct b; [apply opp_IZR|reflexivity]. }
      unfold F2R. cbn [Fnum Fexp]. change (match b with true => Z.opp (Z.pos m * 2 ^ e) | false => Z.pos m * 2 ^ e end)%Z with (cond_Zopp b (Z.pos m * 2 ^ e)). rewrite Q. lra.
Qed.
Example C72_remainder_ex : fmod1 (flit (-15) 0) = Ok (S754_zero true) /\ float_ok (fdiv (float_of_Z 7) (float_of_Z 4)) /\
  fmod1 (fdiv (float_of_Z 7) (float_of_Z 4)) = Ok (fdiv (float_of_Z 3) (float_of_Z 4)).
Proof. repeat split; vm_compute; reflexivity. Qed.

Print Assumptions C72_closed.
Print Assumptions C72_constant.
Print Assumptions C72_reference.
Print Assumptions C72_reference_refuted.
Print Assumptions C72_remainder.
