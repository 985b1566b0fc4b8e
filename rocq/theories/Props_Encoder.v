(** Encoder calibration: theorems (C45, C46). *)
From Coq Require Import ZArith List Bool Lia Reals Lra Psatz.
From Coq Require Import ZifyBool ZifyNat.
From Flocq Require Import Core.
From Verif Require Import PyBase PyBytes PyFloat Tool_Model Calib_Model Encoder_Model Encoder_Spec.
From Verif Require Import Float_Proofs Props_Angle Props_Fit Encoder_Proofs.
Import ListNotations.
Open Scope Z_scope.
Ltac Zify.zify_post_hook ::= Z.div_mod_to_equations.

(** ** Turning the samples around *)
Definition turned {T} (p q b : Z) (e e' : entry T) : Prop :=
  e_encoder e' = q * e_encoder e + b /\ (e_phase e' - p * e_phase e) mod 65536 = 0.

Lemma flip_phases {T} (l : list (entry T)) : exists l', map_res flip_phase l = Ok l' /\ Forall2 (turned (-1) 1 0) l l'.
Proof.
  induction l as [|e l (l' & E & F)]; [exists []; split; [reflexivity|constructor]|].
  cbn [map_res]. unfold flip_phase at 1. rewrite C43_uint16. cbn [bind].
  rewrite E. cbn [bind]. eexists. split; [reflexivity|]. constructor; auto. split; cbn [e_encoder e_phase]; lia.
Qed.

Lemma turned_id {T} (l : list (entry T)) : Forall2 (turned 1 1 0) l l.
Proof. induction l as [|e l IH]; constructor; auto. split; [lia|]. replace (e_phase e - 1 * e_phase e) with 0 by ring. reflexivity. Qed.

Lemma flip_encoders {T} p (l l' : list (entry T)) : Forall2 (turned p 1 0) l l' -> Forall2 (turned p (-1) 65535) l (map flip_encoder l').
Proof. induction 1 as [|e e' l l' [A B] _ IH]; cbn [map]; constructor; auto. split; cbn [flip_encoder e_encoder e_phase]; [lia|auto]. Qed.

Lemma covers_flip g l : covers g l -> 0 <= g -> covers g (map (fun x => 65535 - x) l).
Proof.
  intros C G x A B. destruct (C (65535 - x - g)) as (e & I & E); [lia..|]. exists (65535 - e).
  split; [apply in_map_iff; eauto|lia].
Qed.

Lemma turned_encoders {T} p q b (l l' : list (entry T)) : Forall2 (turned p q b) l l' -> map e_encoder l' = map (fun x => q * x + b) (map e_encoder l).
Proof. induction 1 as [|e e' l l' [A _] _ IH]; cbn [map]; congruence. Qed.

Lemma turned_near s n c eps p q b m (l l' : list (entry R)) : p * s = q -> (p = 1 \/ p = -1) -> (q = 1 \/ q = -1) ->
  recorded m l -> follows s n c eps m -> Forall2 (turned p q b) l l' ->
  Forall (near n (IZR p * c - IZR n * IZR b)%R eps) l'.
Proof.
  intros Eq Hp Hq R. revert l'. induction R as [|t e m l [Re Rp] _ IH]; intros l' F T; inversion T as [|? e' ? l2 [Te Tp] T']; subst; constructor.
  2:{ apply IH; auto. now inversion F. }
  inversion F as [|? ? B _]; subst. exists (p * snd t - 65536 * n * (p * s) * (fst t / 65536)). split.
  - rewrite Rp in Tp. destruct Hp; subst p; lia.
  - rewrite Te, Re. replace (fst t mod 65536) with (fst t - 65536 * (fst t / 65536)) by lia.
    rewrite !minus_IZR, !plus_IZR, !mult_IZR, minus_IZR, !mult_IZR.
    assert (PP : (IZR p * IZR p = 1)%R) by (destruct Hp; subst p; lra).
    rewrite mult_IZR in B.
    match goal with |- (Rabs ?x <= _)%R => replace x with (IZR p * (IZR (snd t) - (IZR s * IZR n * IZR (fst t) + c)))%R by ring end.
    rewrite Rabs_mult. replace (Rabs (IZR p)) with 1%R by (destruct Hp; subst p; [rewrite Rabs_pos_eq|rewrite Rabs_left]; lra). lra.
Qed.

Lemma turned_range m p q b (l l' : list (entry R)) : (q = 1 /\ b = 0 \/ q = -1 /\ b = 65535) -> recorded m l ->
  Forall2 (turned p q b) l l' -> Forall in_range l'.
Proof.
  intros Q R. revert l'. induction R as [|t e m l [Re _] _ IH]; intros l' T; inversion T as [|? e' ? l2 [Te _] T']; subst; constructor; auto.
  unfold in_range. rewrite Te, Re. destruct Q as [[-> ->]|[-> ->]]; lia.
Qed.

Lemma turned_covers {T} g p q b (l l' : list (entry T)) : 0 <= g -> (q = 1 /\ b = 0 \/ q = -1 /\ b = 65535) ->
  Forall2 (turned p q b) l l' -> covers g (map e_encoder l) -> covers g (map e_encoder l').
Proof.
  intros G Q Tu C. rewrite (turned_encoders _ _ _ _ _ Tu). destruct Q as [[-> ->]|[-> ->]].
  - rewrite (map_ext _ (fun x => x)), map_id by (intros; lia). auto.
  - rewrite (map_ext _ (fun x => 65535 - x)) by (intros; lia). now apply covers_flip.
Qed.

Lemma steps_small_neg p l : p = 1 \/ p = -1 -> steps_small l -> steps_small (map (Z.mul p) l).
Proof.
  intros P. induction l as [|a [|b l] IH]; intros H; [exact I..|]. destruct H as [A B].
  split; [destruct P; subst p; lia|]. now apply IH.
Qed.

Lemma turned_phases {T} p q b m (l l' : list (entry T)) : recorded m l -> Forall2 (turned p q b) l l' ->
  Forall2 (fun t x => x mod 65536 = t mod 65536) (map (Z.mul p) (map snd m)) (map e_phase l').
Proof.
  intros R. revert l'. induction R as [|t e m l [_ Rp] _ IH]; intros l' F; inversion F as [|? e' ? l2 [_ Tp] F']; subst; cbn [map]; constructor; auto.
  rewrite Rp in Tp. lia.
Qed.

Lemma recorded_encoders {T} m (l : list (entry T)) : recorded m l ->
  Forall2 (fun t x => x mod 65536 = t mod 65536) (map fst m) (map e_encoder l).
Proof. induction 1 as [|t e m l [Re _] _ IH]; cbn [map]; constructor; auto. rewrite Re. lia. Qed.

Lemma hd_map {A B} (f : A -> B) d l : hd (f d) (map f l) = f (hd d l).
Proof. now destruct l. Qed.
Lemma last_map {A B} (f : A -> B) d l : last (map f l) (f d) = f (last l d).
Proof. induction l as [|a [|b l] IH]; auto. Qed.

Lemma in_last {A} (l : list A) d : l <> [] -> In (last l d) l.
Proof. induction l as [|a [|b l] IH]; intros H; [congruence|now left|]. right. apply IH. discriminate. Qed.
Lemma in_hd {A} (l : list A) d : l <> [] -> In (hd d l) l.
Proof. destruct l; [congruence|now left]. Qed.

(** ** Which signs are turned around *)
Lemma front_turn {T} (up down : list (entry T)) pi inv p q b :
  (p = 1 /\ pi = false \/ p = -1 /\ pi = true) ->
  (q = 1 /\ b = 0 /\ inv = false \/ q = -1 /\ b = 65535 /\ inv = true) ->
  exists u1 d1, (if pi : bool then map_res flip_phase up else Ok up) = Ok u1 /\
    (if pi then map_res flip_phase down else Ok down) = Ok d1 /\
    Forall2 (turned p q b) up (if inv : bool then map flip_encoder u1 else u1) /\
    Forall2 (turned p q b) down (if inv then map flip_encoder d1 else d1).
Proof.
  intros P Q.
  assert (H : forall l : list (entry T), exists l1, (if pi then map_res flip_phase l else Ok l) = Ok l1 /\
    Forall2 (turned p q b) l (if inv then map flip_encoder l1 else l1)).
  { intros l. assert (A : exists l1, (if pi then map_res flip_phase l else Ok l) = Ok l1 /\ Forall2 (turned p 1 0) l l1).
    { destruct P as [[-> ->]|[-> ->]]; [exists l; split; auto using turned_id|apply flip_phases]. }
    destruct A as (l1 & E & F). exists l1. split; auto. destruct Q as [(-> & -> & ->)|(-> & -> & ->)]; auto using flip_encoders. }
  destruct (H up) as (u1 & A & B). destruct (H down) as (d1 & C & D). exists u1, d1. auto.
Qed.

Lemma front_spec s n c eps d mre bogus up down mup mdown :
  (s = 1 \/ s = -1) -> 1 <= n -> (0 <= eps <= 3337)%R -> d <> 0 -> (2 * eps / 60536 <= mre)%R ->
  length bogus = 4%nat -> recorded mup up -> recorded mdown down ->
  follows s n c eps mup -> follows s n c eps mdown ->
  steps_small (map fst mup) -> steps_small (map snd mup) -> (2 <= length down)%nat ->
  60536 <= s * (fst (last mup (0, 0)) - fst (hd (0, 0) mup)) <= 70536 ->
  exists f p b, calibrate_front real_arith real_ops (bogus ++ up) down d mre true = Ok f /\
    f_invert f = (d <? 0) /\ f_phase_invert f = negb (d * s >? 0) /\ f_poles f = n * 2 /\ f_errors f = [] /\
    (p = 1 /\ f_phase_invert f = false \/ p = -1 /\ f_phase_invert f = true) /\
    (p * s = 1 /\ b = 0 /\ f_invert f = false \/ p * s = -1 /\ b = 65535 /\ f_invert f = true) /\
    Forall2 (turned p (p * s) b) up (f_up f) /\ Forall2 (turned p (p * s) b) down (f_down f).
Proof.
  intros Hs Hn He Hd Hm Lb Ru Rd Fu Fd Su Sp Ld Tr.
  set (dE := fst (last mup (0, 0)) - fst (hd (0, 0) mup)) in *.
  set (dP := snd (last mup (0, 0)) - snd (hd (0, 0) mup)).
  assert (NE : mup <> []) by (intros ->; cbn in *; lia).
  assert (Err : (Rabs (IZR dP - IZR (s * n) * IZR dE) <= 2 * eps)%R).
  { unfold follows in Fu. rewrite Forall_forall in Fu. pose proof (Fu _ (in_last mup (0, 0) NE)) as A.
    pose proof (Fu _ (in_hd mup (0, 0) NE)) as B. unfold dP, dE. rewrite !minus_IZR. apply Rabs_le_inv in A, B. apply Rabs_le. lra. }
  unfold calibrate_front. rewrite app_length, Lb.
  destruct (Nat.ltb_spec (4 + length up) 2); [lia|]. destruct (Nat.ltb_spec (length down) 2); [lia|]. cbn [orb].
  rewrite skipn_app, Lb, skipn_all2 by lia. change (skipn (4 - 4) up) with up. cbn [app].
  rewrite (total_steps_true (map fst mup)) by auto using recorded_encoders. cbn [bind].
  replace (last (map fst mup) 0 - hd 0 (map fst mup)) with dE
    by (unfold dE; symmetry; f_equal; [apply (last_map fst (0, 0))|apply (hd_map fst (0, 0))]).
  assert (Inv : inversions d dE = Ok (d <? 0, negb (d * s >? 0))).
  { unfold inversions. destruct Hs; subst s;
      destruct (Z.gtb_spec d 0), (Z.ltb_spec d 0), (Z.gtb_spec dE 0), (Z.ltb_spec dE 0); cbn [andb]; try lia;
      match goal with |- context [?x >? 0] => destruct (Z.gtb_spec x 0); try lia; reflexivity end. }
  destruct (Z.gtb_spec (Z.abs (Z.abs dE - 65536)) 5000); [destruct Hs; subst s; lia|].
  rewrite Inv. cbn [bind]. rewrite andb_false_r.
  set (pi := negb (d * s >? 0)). set (p := if pi then -1 else 1).
  set (inv := d <? 0). set (b := if inv then 65535 else 0).
  assert (Pp : p = 1 /\ pi = false \/ p = -1 /\ pi = true) by (unfold p; destruct pi; auto).
  assert (Pq : p * s = 1 /\ b = 0 /\ inv = false \/ p * s = -1 /\ b = 65535 /\ inv = true).
  { unfold p, pi, b, inv. destruct Hs; subst s; destruct (Z.ltb_spec d 0);
      match goal with |- context [?x >? 0] => destruct (Z.gtb_spec x 0) end; cbn [negb]; lia. }
  clearbody p b.
  destruct (front_turn up down pi inv p (p * s) b Pp Pq) as (u1 & d1 & E1 & E2 & T1 & T2).
  fold pi inv. rewrite E1. cbn [bind]. rewrite E2. cbn [bind].
  set (u2 := if inv then map flip_encoder u1 else u1) in *. set (d2 := if inv then map flip_encoder d1 else d1) in *.
  assert (Pp' : p = 1 \/ p = -1) by (destruct Pp; tauto).
  rewrite (total_steps_true (map (Z.mul p) (map snd mup))) by (eauto using turned_phases, steps_small_neg).
  cbn [bind]. rewrite !map_map.
  assert (Ph : last (map (fun x => p * snd x) mup) 0 - hd 0 (map (fun x => p * snd x) mup) = p * dP).
  { assert (Z0 : 0 = (fun x : Z * Z => p * snd x) (0, 0)) by (cbn; lia).
    unfold dP. rewrite Z.mul_sub_distr_l. f_equal.
    - rewrite <- (last_map (fun x => p * snd x) (0, 0)). f_equal. exact Z0.
    - rewrite <- (hd_map (fun x => p * snd x) (0, 0)). f_equal. exact Z0. }
  rewrite Ph.
  assert (Dd : (if inv then dE * -1 else dE) = p * s * dE) by (destruct Pq as [(-> & _ & ->)|(-> & _ & ->)]; lia).
  rewrite Dd. cbn [a_div a_of_Z real_arith].
  assert (PP : p * p = 1) by (destruct Pp'; subst p; reflexivity).
  assert (SS : s * s = 1) by (destruct Hs; subst s; reflexivity).
  assert (Q0 : p * s * dE <> 0) by (destruct Pp', Hs; subst p s; lia).
  destruct (Req_EM_T (IZR (p * s * dE)) 0) as [X|_]; [apply eq_IZR in X; lia|]. cbn [bind c_round real_ops].
  assert (Rt : (Rabs (IZR (p * dP) / IZR (p * s * dE) - IZR n) <= 2 * eps / 60536)%R).
  { assert (A : (60536 <= Rabs (IZR (p * s * dE)))%R).
    { rewrite <- abs_IZR. apply IZR_le. destruct Pp', Hs; subst p s; lia. }
    replace (IZR (p * dP) / IZR (p * s * dE) - IZR n)%R with ((IZR p * (IZR dP - IZR (s * n) * IZR dE)) / IZR (p * s * dE))%R.
    - unfold Rdiv. rewrite Rabs_mult, Rabs_inv, Rabs_mult.
      replace (Rabs (IZR p)) with 1%R by (destruct Pp'; subst p; [rewrite Rabs_pos_eq|rewrite Rabs_left]; lra).
      rewrite Rmult_1_l. apply Rmult_le_compat; auto using Rabs_pos.
      + apply Rlt_le, Rinv_0_lt_compat. lra.
      + apply Rinv_le_contravar; lra.
    - rewrite !mult_IZR. field. repeat split; apply not_0_IZR; destruct Pp', Hs; subst p s; lia. }
  assert (E60 : (2 * eps / 60536 < 1 / 2)%R) by lra.
  rewrite (real_round_unique _ n) by lra.
  cbn [a_lt a_abs a_sub real_arith]. rewrite Rabs_minus_sym.
  destruct (Rltb_spec mre (Rabs (IZR (p * dP) / IZR (p * s * dE) - IZR n))) as [X|_]; [lra|].
  eexists (Front _ _ _ _ _ _ _ _ _), p, b. split; [reflexivity|]. cbn [f_invert f_phase_invert f_poles f_errors f_up f_down].
  repeat split; auto.
Qed.

(** ** C46: a spin that follows the phase calibrates *)
Lemma commutates_close n c eps g K p q b (r : cal_result R) (l l' : list (entry R)) : 1 <= n -> 0 <= g ->
  (p = 1 /\ r_phase_invert r = false \/ p = -1 /\ r_phase_invert r = true) ->
  (q = 1 /\ b = 0 /\ r_invert r = false \/ q = -1 /\ b = 65535 /\ r_invert r = true) ->
  Forall2 (turned p q b) l l' -> Forall (near n c eps) l' ->
  close K (sc * (eps + IZR n * IZR g)) (r_offset r) -> same_angle K (sc * c) ->
  Forall (commutates n (2 * (2 * PI / 65536 * (eps + IZR n * IZR g)))%R r) l.
Proof.
  intros Hn Hg P Q T N C (j & J). revert N. induction T as [|e e' l l' [Te Tp] _ IH]; intros N; constructor.
  2:{ apply IH. now inversion N. }
  assert (NB : near n c eps e') by (inversion N; auto). destruct NB as (q' & Mq & B). clear IH N. unfold commutates. fold sc.
  assert (Ep : (if r_phase_invert r then - e_phase e else e_phase e) = p * e_phase e) by (destruct P as [[-> ->]|[-> ->]]; lia).
  assert (Ee : (if r_invert r then 65535 - e_encoder e else e_encoder e) = e_encoder e') by (destruct Q as [(-> & -> & ->)|(-> & -> & ->)]; lia).
  rewrite Ep, Ee. set (m := (p * e_phase e - q') / 65536).
  assert (Em : p * e_phase e = q' + 65536 * m).
  { unfold m. assert ((p * e_phase e - q') mod 65536 = 0).
    { replace (p * e_phase e - q') with (- ((e_phase e' - p * e_phase e) + (q' - e_phase e'))) by ring.
      assert (X : ((e_phase e' - p * e_phase e) + (q' - e_phase e')) mod 65536 = 0) by (rewrite Zplus_mod, Tp, Mq; reflexivity).
      apply Z_mod_zero_opp_full. exact X. }
    lia. }
  exists (m - j). intros o1 o o2 I1 I2 B12. apply (close_in _ _ _ C) in I1, I2. rewrite Em, plus_IZR, mult_IZR, minus_IZR.
  pose proof sc_pos as SP. rewrite <- sc_turn in *.
  replace (sc * (IZR q' + 65536 * IZR m) - (sc * (IZR n * IZR (e_encoder e')) + o) - sc * 65536 * (IZR m - IZR j))%R
    with (sc * (IZR q' - (IZR n * IZR (e_encoder e') + c)) + (K - o))%R by (rewrite J; ring).
  apply Rabs_le_inv in B.
  assert (N0 : (0 <= IZR n * IZR g)%R) by (rewrite <- mult_IZR; apply IZR_le; nia).
  assert (- (sc * eps) <= sc * (IZR q' - (IZR n * IZR (e_encoder e') + c)) <= sc * eps)%R by (split; nra).
  apply Rabs_le. nra.
Qed.

Lemma good_spin_calibrates :
  forall minimize s n c eps g d max_remainder ao fo bogus up down mup mdown,
  good_spin s n c eps g d max_remainder bogus up down mup mdown ->
  (exists off, fo = true -> fst (minimize off) = false ->
    calibrate real_arith real_ops minimize (bogus ++ up) down d max_remainder true ao fo = Raise AttributeError) /\
  (fo = false -> (ao = true -> (eps + IZR n * IZR g <= 285)%R) ->
   exists r st, calibrate real_arith real_ops minimize (bogus ++ up) down d max_remainder true ao fo = Ok (r, st) /\
    r_errors r = [] /\ r_poles r = 2 * n /\ length (r_offset r) = 64%nat /\
    r_invert r = (d <? 0) /\ r_phase_invert r = negb (d * s >? 0) /\
    Forall (commutates n (2 * (2 * PI / 65536 * (eps + IZR n * IZR g)))%R r) (up ++ down)).
Proof.
  intros minimize s n c eps g d mre ao fo bogus up down mup mdown
    (Hs & Hn & Hd & Lb & Ru & Rd & Fu & Fd & Su & Sp & Tr & Cu & Cd & Hg & He & Hb & Hm).
  assert (N0 : (0 <= IZR n * IZR g)%R) by (rewrite <- mult_IZR; apply IZR_le; nia).
  assert (G : 0 <= g <= 3337) by (apply (covered n g eps); auto; lia).
  assert (L2 : (2 <= length down)%nat).
  { destruct (Cd 0) as (a & Ia & Ba); [lia..|]. destruct (Cd (65535 - g)) as (z & Iz & Bz); [lia..|].
    destruct down as [|e1 [|e2 l]]; cbn [map In length] in *; [tauto| |lia].
    destruct Ia as [<-|[]], Iz as [<-|[]]. lia. }
  destruct (front_spec s n c eps d mre bogus up down mup mdown) as (f & p & b & Ef & Ei & Ep & Epo & Eer & Pp & Pq & Tu & Td); auto; try lia; try lra.
  assert (Pp' : p = 1 \/ p = -1) by (destruct Pp; tauto).
  assert (Pq' : p * s = 1 \/ p * s = -1) by (destruct Pq; tauto).
  assert (Pr : p * s = 1 /\ b = 0 \/ p * s = -1 /\ b = 65535) by (destruct Pq; tauto).
  set (c' := (IZR p * c - IZR n * IZR b)%R).
  assert (Nu : Forall (near n c' eps) (f_up f)) by (eapply (turned_near s n c eps p (p * s) b mup up); eauto).
  assert (Nd : Forall (near n c' eps) (f_down f)) by (eapply (turned_near s n c eps p (p * s) b mdown down); eauto).
  destruct (back_spec minimize n c' eps g f ao fo) as (off & Lo & (K & CK & SK) & Back);
    auto; eauto using turned_range, turned_covers.
  destruct (Back _ _ _ _ _ Ef) as [Bad Good]. split; [exists off; auto|].
  intros Hf Ho. destruct (Good Hf Ho) as (r & st & Er & R1 & R2 & R3 & R4 & R5).
  exists r, st. split; [exact Er|]. rewrite R4, R1, R2, R5. repeat split; auto; [lia|].
  rewrite <- R1 in Pq. rewrite <- R2 in Pp. rewrite <- R5 in CK.
  apply Forall_app. split; eapply commutates_close; eauto; lia.
Qed.

Theorem C46_good_spin :
  forall minimize s n c eps g d max_remainder allow_optimize bogus up down mup mdown,
  good_spin s n c eps g d max_remainder bogus up down mup mdown ->
  (allow_optimize = true -> (eps + IZR n * IZR g <= 285)%R) ->
  exists r st, calibrate real_arith real_ops minimize (bogus ++ up) down d max_remainder true allow_optimize false = Ok (r, st) /\
    r_errors r = [] /\ r_poles r = 2 * n /\ length (r_offset r) = 64%nat /\
    r_invert r = (d <? 0) /\ r_phase_invert r = negb (d * s >? 0) /\
    Forall (commutates n (2 * (2 * PI / 65536 * (eps + IZR n * IZR g)))%R r) (up ++ down).
Proof.
  intros minimize s n c eps g d mre ao bogus up down mup mdown G Ho.
  destruct (good_spin_calibrates minimize s n c eps g d mre ao false bogus up down mup mdown G) as [_ H]. auto.
Qed.

(** An optimisation that does not succeed should be one of the errors of the
    result; it is an AttributeError. *)
Theorem C46_optimizer_failure_refuted :
  forall minimize s n c eps g d max_remainder allow_optimize bogus up down mup mdown,
  good_spin s n c eps g d max_remainder bogus up down mup mdown ->
  (forall offset, fst (minimize offset) = false) ->
  calibrate real_arith real_ops minimize (bogus ++ up) down d max_remainder true allow_optimize true = Raise AttributeError.
Proof.
  intros minimize s n c eps g d mre ao bogus up down mup mdown G F.
  destruct (good_spin_calibrates minimize s n c eps g d mre ao true bogus up down mup mdown G) as [(off & H) _]. auto.
Qed.

(** A motor with 14 poles whose encoder counts down as the phase goes up: 1639
    samples each way, 40 counts apart. *)
Definition ex_motion : motion := map (fun i => (- 40 * Z.of_nat i, 280 * Z.of_nat i + 1000)) (seq 0 1639).
Definition ex_samples (m : motion) : list (entry R) :=
  map (fun t => Entry 1 (snd t mod 65536) (fst t mod 65536) 0%R 0%R 0%R) m.

Lemma ex_recorded m : recorded m (ex_samples m).
Proof. unfold recorded, ex_samples. induction m as [|t m IH]; cbn [map]; constructor; auto. Qed.

Lemma ex_follows m : (forall t, In t m -> In t ex_motion) -> follows (-1) 7 1000 0 m.
Proof.
  intros H. apply Forall_forall. intros t I. apply H in I. apply in_map_iff in I. destruct I as (i & <- & _). cbn [fst snd].
  rewrite plus_IZR, !mult_IZR. match goal with |- (Rabs ?x <= _)%R => replace x with 0%R by ring end. rewrite Rabs_R0. lra.
Qed.

Lemma ex_steps (f : nat -> Z) k : (forall i, -32768 < f (S i) - f i < 32768) -> forall a, steps_small (map f (seq a k)).
Proof.
  intros H. induction k as [|k IH]; intros a; [exact I|]. destruct k as [|k]; [exact I|]. split; [apply H|]. apply (IH (S a)).
Qed.

Lemma ex_covers m : (forall t, In t ex_motion -> In t m) -> covers 40 (map e_encoder (ex_samples m)).
Proof.
  intros H x A B. exists (65536 - 40 * ((65536 - x) / 40)). split; [|lia].
  unfold ex_samples. rewrite map_map. apply in_map_iff. set (i := Z.to_nat ((65536 - x) / 40)).
  exists (- 40 * Z.of_nat i, 280 * Z.of_nat i + 1000). cbn [fst snd e_encoder]. split; [unfold i; rewrite Z2Nat.id by lia; lia|].
  apply H. apply in_map_iff. exists i. split; auto. apply in_seq. unfold i. lia.
Qed.

Lemma ex_is_good : good_spin (-1) 7 1000 0 40 (-1) (1 / 10) (repeat (Entry 1 0 0 0%R 0%R 0%R) 4)
    (ex_samples ex_motion) (ex_samples (rev ex_motion)) ex_motion (rev ex_motion).
Proof.
  unfold good_spin. repeat match goal with |- _ /\ _ => split end; auto using ex_recorded; try lia; try lra.
  - now apply ex_follows.
  - apply ex_follows. intros t I. apply in_rev. exact I.
  - unfold ex_motion. rewrite map_map. apply ex_steps. cbn [fst]. lia.
  - unfold ex_motion. rewrite map_map. apply ex_steps. cbn [snd]. lia.
  - vm_compute. discriminate.
  - vm_compute. discriminate.
  - now apply ex_covers.
  - apply ex_covers. intros t I. now apply -> in_rev.
Qed.

Example ex_good_spin : exists r st,
  calibrate real_arith real_ops (fun o => (true, o))
    (repeat (Entry 1 0 0 0%R 0%R 0%R) 4 ++ ex_samples ex_motion) (ex_samples (rev ex_motion)) (-1) (1 / 10)%R true true false = Ok (r, st) /\
  r_errors r = [] /\ r_poles r = 14 /\ r_invert r = true /\ r_phase_invert r = false /\ length (r_offset r) = 64%nat.
Proof.
  destruct (C46_good_spin (fun o => (true, o)) _ _ _ _ _ _ _ true _ _ _ _ _ ex_is_good) as (r & st & E & A & B & C & D & F & _); [intros; lra|].
  exists r, st. repeat split; auto.
Qed.

(** ** C45: the signs, the number of poles and the refusals, for any data *)
Definition travel (m : motion) : Z := fst (last m (0, 0)) - fst (hd (0, 0) m).
Definition advance_of (m : motion) : Z := snd (last m (0, 0)) - snd (hd (0, 0) m).

Lemma travel_steps {T} m (l : list (entry T)) : recorded m l -> steps_small (map fst m) ->
  total_steps (map e_encoder l) = Ok (travel m).
Proof.
  intros Rc S. rewrite (total_steps_true (map fst m)) by auto using recorded_encoders. f_equal. unfold travel.
  f_equal; [apply (last_map fst (0, 0))|apply (hd_map fst (0, 0))].
Qed.

Lemma inversions_spec d t : inversions d t = if d * t =? 0 then Raise RuntimeError else Ok (d <? 0, d * t <? 0).
Proof.
  unfold inversions. destruct (Z.gtb_spec d 0), (Z.ltb_spec d 0), (Z.gtb_spec t 0), (Z.ltb_spec t 0); cbn [andb]; try lia;
    destruct (Z.eqb_spec (d * t) 0), (Z.ltb_spec (d * t) 0); try reflexivity; nia.
Qed.

Lemma front_shape {T} (ar : arith T) co up down d mre api m f :
  recorded m (skipn 4 up) -> steps_small (map fst m) ->
  calibrate_front ar co up down d mre api = Ok f ->
  d * travel m <> 0 /\ f_invert f = (d <? 0) /\ f_phase_invert f = (d * travel m <? 0) /\
  (f_phase_invert f = true -> api = true) /\
  f_total_delta f = (if d <? 0 then - travel m else travel m) /\
  (let p := if f_phase_invert f then -1 else 1 in let q := if d <? 0 then -1 else 1 in
   let b := if d <? 0 then 65535 else 0 in
   Forall2 (turned p q b) (skipn 4 up) (f_up f) /\ Forall2 (turned p q b) down (f_down f)) /\
  exists steps rd, total_steps (map e_phase (f_up f)) = Ok steps /\ f_total_phase f = a_of_Z ar steps /\
    a_div ar (a_of_Z ar steps) (a_of_Z ar (f_total_delta f)) = Ok (f_ratio f) /\
    c_round co (f_ratio f) = Ok rd /\ f_poles f = 2 * rd /\
    f_errors f = (if Z.abs (Z.abs (travel m) - 65536) >? 5000 then [EncoderDistance] else []) ++
                 (if a_lt ar mre (a_abs ar (a_sub ar (a_of_Z ar rd) (f_ratio f))) then [NotIntegral] else []).
Proof.
  intros Rc S. unfold calibrate_front. destruct (_ || _); [discriminate|]. cbv zeta.
  rewrite (travel_steps _ _ Rc S). cbn [bind]. rewrite inversions_spec.
  destruct (Z.eqb_spec (d * travel m) 0) as [|N0]; [discriminate|]. cbn [bind].
  destruct ((d * travel m <? 0) && negb api) eqn:Ea; [discriminate|].
  set (pi := d * travel m <? 0) in *. set (inv := d <? 0).
  destruct (front_turn (skipn 4 up) down pi inv (if pi then -1 else 1) (if inv then -1 else 1) (if inv then 65535 else 0))
    as (u1 & d1 & -> & -> & Tu & Td); [destruct pi; auto|destruct inv; auto|]. cbn [bind].
  set (u2 := if inv then map flip_encoder u1 else u1) in *.
  destruct (total_steps (map e_phase u2)) as [steps|] eqn:Es; [|discriminate]. cbn [bind].
  destruct (a_div ar _ _) as [ratio|] eqn:Er; [|discriminate]. cbn [bind].
  destruct (c_round co ratio) as [rd|] eqn:Erd; [|discriminate]. cbn [bind]. intros E. apply Ok_inj' in E. subst f.
  cbn [f_invert f_phase_invert f_total_delta f_up f_down f_total_phase f_ratio f_poles f_errors].
  assert (Et : (if inv then travel m * -1 else travel m) = (if inv then - travel m else travel m)) by (destruct inv; lia).
  split; auto. split; auto. split; auto. split; [intros Hp; rewrite Hp in Ea; now destruct api|]. split; auto. split; auto.
  exists steps, rd. repeat split; auto; [lia|].
  destruct (_ >? 5000), (a_lt ar mre _); reflexivity.
Qed.

Lemma calibrate_front_of {T} (ar : arith T) co minimize up down d mre api ao fo r st :
  calibrate ar co minimize up down d mre api ao fo = Ok (r, st) ->
  exists f, calibrate_front ar co up down d mre api = Ok f /\ r_invert r = f_invert f /\ r_phase_invert r = f_phase_invert f /\
    r_poles r = f_poles f /\ r_total_delta r = f_total_delta f /\ r_ratio r = f_ratio f /\ r_total_phase r = f_total_phase f /\
    exists l, r_errors r = f_errors f ++ l /\ Forall (eq ExcessiveError) l.
Proof.
  unfold calibrate. destruct (calibrate_front ar co up down d mre api) as [f|]; [|discriminate]. cbn [bind].
  do 9 (match goal with |- bind ?x _ = _ -> _ => destruct x; [|discriminate]; cbn [bind] end || cbv zeta || idtac).
  intros E. apply Ok_inj' in E. injection E as <- <-. exists f. cbn. repeat split; auto.
  eexists. split; [reflexivity|]. destruct (existsb _ _); repeat constructor.
Qed.

Theorem C45_direction : forall (T : Type) (ar : arith T) co minimize up down d max_remainder allow_phase_invert ao fo r st m,
  recorded m (skipn 4 up) -> steps_small (map fst m) ->
  calibrate ar co minimize up down d max_remainder allow_phase_invert ao fo = Ok (r, st) ->
  d <> 0 /\ travel m <> 0 /\
  r_invert r = (d <? 0) /\ r_phase_invert r = xorb (d <? 0) (travel m <? 0) /\
  (r_phase_invert r = true -> allow_phase_invert = true) /\
  r_total_delta r = (if r_invert r then - travel m else travel m) /\
  (In EncoderDistance (r_errors r) <-> ~ 60536 <= Z.abs (travel m) <= 70536).
Proof.
  intros T ar co minimize up down d mre api ao fo r st m Rc S E. apply calibrate_front_of in E.
  destruct E as (f & Ef & R1 & R2 & R3 & R4 & _ & _ & l & Rl & Fl).
  destruct (front_shape _ _ _ _ _ _ _ _ _ Rc S Ef) as (N0 & F1 & F2' & F3 & F4 & _ & steps & rd & _ & _ & _ & _ & _ & Fe).
  assert (N1 : d <> 0 /\ travel m <> 0) by lia. destruct N1 as [N1 N2].
  rewrite R1, R2, R4, F1, F4. repeat split; auto.
  - rewrite F2'. destruct (Z.ltb_spec d 0), (Z.ltb_spec (travel m) 0), (Z.ltb_spec (d * travel m) 0); try reflexivity; nia.
  - rewrite Rl, Fe. intros I. rewrite !in_app_iff in I. destruct I as [[I|I]|I].
    + destruct (Z.gtb_spec (Z.abs (Z.abs (travel m) - 65536)) 5000); [lia|destruct I].
    + destruct (a_lt _ _ _); [destruct I as [I|[]]; discriminate|destruct I].
    + rewrite Forall_forall in Fl. apply Fl in I. discriminate.
  - intros H. rewrite Rl, Fe, !in_app_iff. left. left.
    destruct (Z.gtb_spec (Z.abs (Z.abs (travel m) - 65536)) 5000); [now left|lia].
Qed.

Theorem C45_refused : forall (T : Type) (ar : arith T) co minimize up down d max_remainder allow_phase_invert ao fo m,
  recorded m (skipn 4 up) -> steps_small (map fst m) ->
  (length down < 2)%nat \/ d = 0 \/ travel m = 0 \/ (d * travel m < 0 /\ allow_phase_invert = false) ->
  calibrate ar co minimize up down d max_remainder allow_phase_invert ao fo = Raise RuntimeError.
Proof.
  intros T ar co minimize up down d mre api ao fo m Rc S H. unfold calibrate.
  assert (E : calibrate_front ar co up down d mre api = Raise RuntimeError); [|now rewrite E].
  unfold calibrate_front. destruct (Nat.ltb_spec (length down) 2); [now rewrite orb_true_r|]. rewrite orb_false_r.
  destruct (length up <? 2)%nat; auto. cbv zeta.
  rewrite (travel_steps _ _ Rc S). cbn [bind]. rewrite inversions_spec. destruct (Z.eqb_spec (d * travel m) 0); auto. cbn [bind].
  destruct H as [H|[->|[H|[H ->]]]]; try lia. destruct (Z.ltb_spec (d * travel m) 0); [reflexivity|lia].
Qed.

(** The number of poles.  [advance_of m] is how far the phase went. *)
Lemma front_phase {T} (ar : arith T) co up down d mre api m f :
  recorded m (skipn 4 up) -> steps_small (map fst m) -> steps_small (map snd m) ->
  calibrate_front ar co up down d mre api = Ok f ->
  travel m <> 0 /\ exists p rd, (p = 1 \/ p = -1) /\
    a_div ar (a_of_Z ar (p * advance_of m)) (a_of_Z ar (p * Z.abs (travel m))) = Ok (f_ratio f) /\
    c_round co (f_ratio f) = Ok rd /\ f_poles f = 2 * rd /\
    (In NotIntegral (f_errors f) -> a_lt ar mre (a_abs ar (a_sub ar (a_of_Z ar rd) (f_ratio f))) = true).
Proof.
  intros Rc S1 S2 E. destruct (front_shape _ _ _ _ _ _ _ _ _ Rc S1 E) as (N0 & F1 & F2' & F3 & F4 & [Tu _] & steps & rd & Es & _ & Er & Erd & Ep & Ee).
  split; [lia|]. set (p := if f_phase_invert f then -1 else 1) in *. exists p, rd.
  assert (Hp : p = 1 \/ p = -1) by (unfold p; destruct (f_phase_invert f); auto).
  rewrite (total_steps_true (map (Z.mul p) (map snd m))) in Es by eauto using turned_phases, steps_small_neg.
  apply Ok_inj' in Es.
  assert (Ea : p * advance_of m = steps).
  { rewrite <- Es, map_map. assert (Z0 : 0 = (fun x : Z * Z => p * snd x) (0, 0)) by (cbn; lia).
    unfold advance_of. rewrite Z.mul_sub_distr_l. symmetry. f_equal.
    - rewrite <- (last_map (fun x => p * snd x) (0, 0)). f_equal. exact Z0.
    - rewrite <- (hd_map (fun x => p * snd x) (0, 0)). f_equal. exact Z0. }
  assert (Et : p * Z.abs (travel m) = f_total_delta f).
  { rewrite F4. unfold p. rewrite F2'. destruct (Z.ltb_spec d 0), (Z.ltb_spec (d * travel m) 0); nia. }
  rewrite Ea, Et. repeat split; auto. rewrite Ee, in_app_iff. intros [I|I].
  - destruct (_ >? 5000); [destruct I as [I|[]]; discriminate|destruct I].
  - destruct (a_lt _ _ _); [reflexivity|destruct I].
Qed.

Theorem C45_poles_real : forall minimize up down d mre api ao fo r st m n,
  recorded m (skipn 4 up) -> steps_small (map fst m) -> steps_small (map snd m) ->
  calibrate real_arith real_ops minimize up down d mre api ao fo = Ok (r, st) ->
  2 * Z.abs (advance_of m - n * Z.abs (travel m)) < Z.abs (travel m) -> r_poles r = 2 * n.
Proof.
  intros minimize up down d mre api ao fo r st m n Rc S1 S2 E H. apply calibrate_front_of in E.
  destruct E as (f & Ef & _ & _ & -> & _). destruct (front_phase _ _ _ _ _ _ _ _ _ Rc S1 S2 Ef) as (N0 & p & rd & Hp & Er & Erd & -> & _).
  cbn [a_div a_of_Z real_arith c_round real_ops] in *. destruct (Req_EM_T _ _) as [|N]; [discriminate|].
  apply Ok_inj' in Er, Erd. f_equal. rewrite <- Erd. apply real_round_unique. rewrite <- Er.
  set (t := Z.abs (travel m)) in *. assert (T0 : 0 < t) by lia. apply IZR_lt in T0 as T1.
  assert (P0 : (IZR p <> 0)%R) by (apply not_0_IZR; lia).
  replace (IZR (p * advance_of m) / IZR (p * t) - IZR n)%R with (IZR (advance_of m - n * t) / IZR t)%R
    by (rewrite minus_IZR, !mult_IZR; field; split; [lra|auto]).
  unfold Rdiv. rewrite Rabs_mult, Rabs_inv, (Rabs_pos_eq (IZR t)) by lra. rewrite <- abs_IZR.
  apply Rmult_lt_reg_r with (2 * IZR t)%R; [lra|]. apply IZR_lt in H. rewrite mult_IZR in H. field_simplify; lra.
Qed.

(** On floats: a quarter instead of a half, so that rounding does not matter. *)
Lemma quarter_format z : Z.abs z < 2 ^ 40 -> generic_format radix2 (SpecFloat.fexp prec64 emax64) (IZR z / 4).
Proof.
  intros H. replace (IZR z / 4)%R with (F2R (Float radix2 z (-2))) by (unfold F2R; cbn; lra).
  apply generic_format_F2R. intros NZ. unfold cexp. rewrite mag_F2R_Zdigits by exact NZ.
  assert (Zdigits radix2 z <= 40) by (apply Zdigits_le_Zpower; cbn; lia).
  unfold SpecFloat.fexp, prec64, emax64, SpecFloat.emin. lia.
Qed.

Lemma float_round_unique x n : isfinite x = true -> (Rabs (F2 x - IZR n) < 1 / 2)%R -> float_round x = Ok n.
Proof.
  intros F H. apply Rabs_def2 in H. destruct x as [s| | |s m e]; try discriminate.
  - cbn [float_round]. assert (E : F2 (SpecFloat.S754_zero s) = 0%R) by reflexivity. rewrite E in H. f_equal.
    assert (n < 1) by (apply lt_IZR; lra). assert (-1 < n) by (apply lt_IZR; lra). lia.
  - cbn [float_round]. set (z := if s then - Z.pos m else Z.pos m).
    assert (E : F2 (SpecFloat.S754_finite s m e) = (IZR z * bpow radix2 e)%R) by (unfold z; destruct s; reflexivity).
    rewrite E in H. destruct (Z.ltb_spec e 0) as [He|He]; f_equal.
    + set (dd := 2 ^ (- e)). assert (Dp : 0 < dd) by (apply Z.pow_pos_nonneg; lia).
      assert (Eb : (bpow radix2 e * IZR dd = 1)%R).
      { unfold dd. change 2 with (radix_val radix2). rewrite IZR_Zpower, <- bpow_plus by lia.
        replace (e + - e) with 0 by ring. reflexivity. }
      apply IZR_lt in Dp as Dr.
      assert (L : (IZR (2 * (z - n * dd)) < IZR dd)%R).
      { rewrite mult_IZR, minus_IZR, mult_IZR. replace (IZR z) with (IZR z * bpow radix2 e * IZR dd)%R by (rewrite Rmult_assoc, Eb; ring). nra. }
      assert (U : (IZR (- dd) < IZR (2 * (z - n * dd)))%R).
      { rewrite opp_IZR, mult_IZR, minus_IZR, mult_IZR. replace (IZR z) with (IZR z * bpow radix2 e * IZR dd)%R by (rewrite Rmult_assoc, Eb; ring). nra. }
      apply lt_IZR in L, U. clearbody dd z. clear -L U Dp. unfold round_half_even.
      pose proof (Z.div_mod z dd ltac:(lia)) as DM. pose proof (Z.mod_pos_bound z dd Dp) as MB.
      set (q := z / dd) in *. set (rr := z mod dd) in *. clearbody q rr.
      assert (C : n = q \/ n = q + 1) by nia.
      destruct (Z.ltb_spec (2 * rr) dd); [|destruct (Z.gtb_spec (2 * rr) dd)]; [| |destruct (Z.even q)]; destruct C; nia.
    + assert (Eb : bpow radix2 e = IZR (2 ^ e)) by (change 2 with (radix_val radix2); now rewrite IZR_Zpower).
      rewrite Eb, <- mult_IZR in H. rewrite <- minus_IZR in H. set (y := z * 2 ^ e) in *.
      assert (y - n < 1) by (apply lt_IZR; lra). assert (-1 < y - n) by (apply lt_IZR; lra). lia.
Qed.

Theorem C45_poles_float : forall py_sum minimize up down d mre api ao fo r st m n,
  recorded m (skipn 4 up) -> steps_small (map fst m) -> steps_small (map snd m) ->
  calibrate (float_arith py_sum) float_ops minimize up down d mre api ao fo = Ok (r, st) ->
  Z.abs n < 2 ^ 30 -> Z.abs (advance_of m) <= 2 ^ 53 -> Z.abs (travel m) <= 2 ^ 53 ->
  4 * Z.abs (advance_of m - n * Z.abs (travel m)) <= Z.abs (travel m) -> r_poles r = 2 * n.
Proof.
  intros py_sum minimize up down d mre api ao fo r st m n Rc S1 S2 E Hn Ha Ht H. apply calibrate_front_of in E.
  destruct E as (f & Ef & _ & _ & -> & _). destruct (front_phase _ _ _ _ _ _ _ _ _ Rc S1 S2 Ef) as (N0 & p & rd & Hp & Er & Erd & -> & _).
  cbn [a_div a_of_Z float_arith c_round float_ops] in *. unfold float_div in Er. destruct (feqb _ _); [discriminate|].
  apply Ok_inj' in Er. set (t := Z.abs (travel m)) in *. assert (T0 : 0 < t) by lia. apply IZR_lt in T0 as T1.
  destruct (float_of_Z_correct (p * advance_of m)) as [Fa Va]; [destruct Hp; subst p; lia|].
  destruct (float_of_Z_correct (p * t)) as [Ft Vt]; [destruct Hp; subst p; lia|].
  assert (P0 : (IZR p <> 0)%R) by (apply not_0_IZR; lia).
  pose proof (fdiv_correct _ _ (float_of_Z_ok (p * advance_of m)) (float_of_Z_ok (p * t)) Fa) as C.
  rewrite Va, Vt in C. specialize (C ltac:(apply not_0_IZR; nia)). rewrite Er in C.
  assert (B : (IZR (4 * n - 1) / 4 <= IZR (p * advance_of m) / IZR (p * t) <= IZR (4 * n + 1) / 4)%R).
  { replace (IZR (p * advance_of m) / IZR (p * t))%R with (IZR (advance_of m) / IZR t)%R by (rewrite !mult_IZR; field; split; [lra|auto]).
    assert (L : (IZR ((4 * n - 1) * t) <= IZR (4 * advance_of m))%R) by (apply IZR_le; lia).
    assert (U : (IZR (4 * advance_of m) <= IZR ((4 * n + 1) * t))%R) by (apply IZR_le; lia).
    rewrite !mult_IZR in L, U. split; apply Rmult_le_reg_r with (4 * IZR t)%R; try lra; field_simplify; lra. }
  assert (B' : (IZR (4 * n - 1) / 4 <= rnd64 (IZR (p * advance_of m) / IZR (p * t)) <= IZR (4 * n + 1) / 4)%R).
  { split; [apply round_ge_generic|apply round_le_generic]; try typeclasses eauto; try apply valid_rnd_N; try apply B; apply quarter_format; lia. }
  set (x := rnd64 _) in *. clearbody x. rewrite plus_IZR, minus_IZR, !mult_IZR in B'.
  assert (NB : (Rabs (IZR n) < 1073741824)%R) by (rewrite <- abs_IZR; apply (IZR_lt _ (2 ^ 30)); lia). apply Rabs_def2 in NB.
  rewrite Rlt_bool_true in C.
  - destruct C as (C1 & C2 & _). rewrite (float_round_unique _ n) in Erd; [now apply Ok_inj' in Erd; subst rd| auto|].
    rewrite C2. apply Rabs_def1; lra.
  - apply Rlt_trans with (IZR (2 ^ 31)); [apply Rabs_def1; change (2 ^ 31) with 2147483648; lra|].
    change (2 ^ 31) with (Zpower radix2 31). rewrite IZR_Zpower by lia. apply bpow_lt. reflexivity.
Qed.

(** *** The cases of the theorems *)

(** A failed optimiser on the good spin above. *)
Example ex_optimizer_failure :
  calibrate real_arith real_ops (fun o => (false, o))
    (repeat (Entry 1 0 0 0%R 0%R 0%R) 4 ++ ex_samples ex_motion) (ex_samples (rev ex_motion)) (-1) (1 / 10)%R true true true
  = Raise AttributeError.
Proof. now apply (C46_optimizer_failure_refuted _ _ _ _ _ _ _ _ _ _ _ _ _ _ ex_is_good). Qed.

(** The good spin meets the hypotheses of C45_direction and C45_poles_real. *)
Example ex_C45 : exists r st,
  calibrate real_arith real_ops (fun o => (true, o))
    (repeat (Entry 1 0 0 0%R 0%R 0%R) 4 ++ ex_samples ex_motion) (ex_samples (rev ex_motion)) (-1) (1 / 10)%R true true false = Ok (r, st) /\
  recorded ex_motion (skipn 4 (repeat (Entry 1 0 0 0%R 0%R 0%R) 4 ++ ex_samples ex_motion)) /\
  steps_small (map fst ex_motion) /\ steps_small (map snd ex_motion) /\
  travel ex_motion = -65520 /\ advance_of ex_motion = 7 * 65520.
Proof.
  destruct ex_good_spin as (r & st & E & _). exists r, st. split; [exact E|].
  split; [cbn [repeat app skipn]; apply ex_recorded|].
  split; [unfold ex_motion; rewrite map_map; apply ex_steps; cbn [fst]; lia|].
  split; [unfold ex_motion; rewrite map_map; apply ex_steps; cbn [snd]; lia|].
  split; vm_compute; reflexivity.
Qed.

(** The same spin is refused where the phases may not be inverted and the
    wanted direction is the other one. *)
Example ex_C45_refused :
  calibrate real_arith real_ops (fun o => (true, o))
    (repeat (Entry 1 0 0 0%R 0%R 0%R) 4 ++ ex_samples ex_motion) (ex_samples (rev ex_motion)) 1 (1 / 10)%R false true false
  = Raise RuntimeError.
Proof.
  destruct ex_C45 as (_ & _ & _ & Rc & S1 & _ & Tr & _). apply (C45_refused _ _ _ _ _ _ _ _ _ _ _ _ Rc S1).
  right. right. right. rewrite Tr. split; [lia|reflexivity].
Qed.

(** A spin with the code's numbers: the part of calibrate up to the number of
    poles, computed.  (The rest, with its 10000 points, takes too long to compute here.) *)
Definition ex_float_motion : motion := map (fun i => (4096 * Z.of_nat i, 28672 * Z.of_nat i + 1000)) (seq 0 17).
Definition ex_float_samples (m : motion) : list (entry float) :=
  map (fun t => Entry 1 (snd t mod 65536) (fst t mod 65536) (float_of_Z 0) (float_of_Z 0) (float_of_Z 0)) m.
Example ex_C45_float :
  recorded ex_float_motion (ex_float_samples ex_float_motion) /\
  steps_small (map fst ex_float_motion) /\ steps_small (map snd ex_float_motion) /\
  4 * Z.abs (advance_of ex_float_motion - 7 * Z.abs (travel ex_float_motion)) <= Z.abs (travel ex_float_motion) /\
  exists f, calibrate_front (float_arith (fun l => fold_left fadd l (float_of_Z 0))) float_ops
    (repeat (Entry 1 0 0 (float_of_Z 0) (float_of_Z 0) (float_of_Z 0)) 4 ++ ex_float_samples ex_float_motion)
    (ex_float_samples (rev ex_float_motion)) (-1) (flit 1 1) true = Ok f /\
    f_poles f = 14 /\ f_errors f = [] /\ f_invert f = true /\ f_phase_invert f = true.
Proof.
  split; [unfold recorded, ex_float_samples; induction ex_float_motion as [|t l IH]; cbn [map]; constructor; auto|].
  split; [unfold ex_float_motion; rewrite map_map; apply ex_steps; cbn [fst]; lia|].
  split; [unfold ex_float_motion; rewrite map_map; apply ex_steps; cbn [snd]; lia|].
  split; [vm_compute; discriminate|]. eexists. split; [vm_compute; reflexivity|]. vm_compute. auto.
Qed.

Print Assumptions C45_direction.
Print Assumptions C45_refused.
Print Assumptions C45_poles_real.
Print Assumptions C45_poles_float.
Print Assumptions C46_good_spin.
Print Assumptions C46_optimizer_failure_refuted.
