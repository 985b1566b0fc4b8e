(** Calibration of hall sensors: theorems (C47). *)
From Coq Require Import ZArith List Bool Lia Reals Lra Psatz.
From Coq Require Import ZifyBool ZifyNat.
From Flocq Require Import Core.
From Verif Require Import PyBase PyBytes PyFloat Tool_Model Calib_Model Encoder_Model Props_Angle.
Import ListNotations.
Open Scope Z_scope.
Ltac Zify.zify_post_hook ::= Z.div_mod_to_equations.

(** ** Specification *)

(** The six states of three hall sensors 120 degrees apart, in the order in which a turning
    rotor passes them: from each to the next one sensor changes. *)
Definition hall_sequence : list Z := [1; 3; 2; 6; 4; 5].

(** The distance of an angle from zero, whole turns not counted. *)
Definition nearest (a t : R) : Prop := same_angle a t /\ forall a', same_angle a' t -> (Rabs a <= Rabs a')%R.

(** From one sample to the next the state stays, or moves one place in the
    direction [dir] (1 or -1). *)
Definition hall_step (dir x y : Z) : Prop :=
  x = y \/ exists k, 0 <= k < 6 /\ nth_error hall_sequence (Z.to_nat k) = Some x /\
                     nth_error hall_sequence (Z.to_nat ((k + dir) mod 6)) = Some y.
Fixpoint hall_turns (dir : Z) (l : list Z) : Prop :=
  match l with
  | x :: ((y :: _) as l') => hall_step dir x y /\ hall_turns dir l'
  | _ => True
  end.

Definition three_bits (data : list (R * Z)) : Prop := Forall (fun x => 0 <= snd x <= 7) data.
Definition all_seen (data : list (R * Z)) : Prop := forall x, In x (map snd data) <-> 1 <= x <= 6.

(** ** Proofs *)
Lemma hall_index x : 1 <= x <= 6 -> exists k, py_index hall_mapping x = Ok k /\ 0 <= k < 6 /\
  nth_error hall_sequence (Z.to_nat k) = Some x.
Proof.
  intros H. assert (C : x = 1 \/ x = 2 \/ x = 3 \/ x = 4 \/ x = 5 \/ x = 6) by lia.
  destruct C as [->|[->|[->|[->|[->| ->]]]]]; eexists; (split; [reflexivity|]); split; try reflexivity; lia.
Qed.

Lemma position_unique x k : 0 <= k < 6 -> nth_error hall_sequence (Z.to_nat k) = Some x ->
  py_index hall_mapping x = Ok k /\ 1 <= x <= 6.
Proof.
  intros H E. assert (C : k = 0 \/ k = 1 \/ k = 2 \/ k = 3 \/ k = 4 \/ k = 5) by lia.
  destruct C as [->|[->|[->|[->|[->| ->]]]]]; cbn in E; injection E as <-; split; try reflexivity; lia.
Qed.

Lemma nearest_wrap t w : wrap real_arith t = Ok w -> nearest w t.
Proof.
  intros E. destruct (C37_real t) as (w' & E' & B & S). rewrite E' in E. injection E as <-. split; auto.
  intros a' (k' & K'). destruct S as (k & K). pose proof PI_RGT_0 as P.
  assert (A : a' = (w' + IZR (k' - k) * (2 * PI))%R) by (rewrite K', K, minus_IZR; ring).
  destruct (Z.eq_dec (k' - k) 0) as [Z0|Z0]; [rewrite A, Z0; apply Req_le; f_equal; ring|].
  assert (W : (Rabs w' <= PI)%R) by (apply Rabs_le; lra).
  apply Rle_trans with PI; auto. rewrite A. destruct (Z.lt_total (k' - k) 0) as [L|[L|L]]; [|lia|].
  - assert (IZR (k' - k) <= -1)%R by (apply IZR_le; lia). rewrite Rabs_left1; [|apply Rabs_le_inv in W; nra]. apply Rabs_le_inv in W. nra.
  - assert (1 <= IZR (k' - k))%R by (apply IZR_le; lia). rewrite Rabs_pos_eq; [|apply Rabs_le_inv in W; nra]. apply Rabs_le_inv in W. nra.
Qed.

Lemma all_seen_counts data : all_seen data -> length (nodup Z.eq_dec (map snd data)) = 6%nat.
Proof.
  intros H. apply Nat.le_antisymm.
  - change 6%nat with (length hall_sequence). apply NoDup_incl_length; [apply NoDup_nodup|].
    intros x I. apply nodup_In, H in I. cbn. lia.
  - change 6%nat with (length hall_sequence). apply NoDup_incl_length.
    + unfold hall_sequence. repeat constructor; cbn; lia.
    + intros x I. apply nodup_In, H. cbn in I. lia.
Qed.

Lemma counts_all_seen data : three_bits data -> length (nodup Z.eq_dec (map snd data)) = 6%nat ->
  ~ In 0 (map snd data) -> ~ In 7 (map snd data) -> all_seen data.
Proof.
  intros B L N0 N7. set (l := map snd data) in *.
  assert (I1 : forall x, In x l -> 1 <= x <= 6).
  { intros x I. assert (0 <= x <= 7).
    { unfold l in I. apply in_map_iff in I. destruct I as (y & <- & I). unfold three_bits in B. rewrite Forall_forall in B. now apply B. }
    assert (x <> 0) by (intros ->; auto). assert (x <> 7) by (intros ->; auto). lia. }
  intros x. split; auto. intros Hx. apply (nodup_In Z.eq_dec).
  apply (NoDup_length_incl (l := nodup Z.eq_dec l) (l' := hall_sequence)).
  - apply NoDup_nodup.
  - rewrite L. reflexivity.
  - intros y I. apply nodup_In, I1 in I. cbn. lia.
  - cbn. lia.
Qed.

Lemma existsb_eqb k l : existsb (Z.eqb k) l = true <-> In k l.
Proof.
  rewrite existsb_exists. split.
  - intros (x & I & E). apply Z.eqb_eq in E. now subst.
  - intros I. exists k. split; auto. apply Z.eqb_refl.
Qed.

Lemma distances_of (data : list (R * Z)) : exists l : list (R * Z), 
  map_res (fun x => let* w := wrap real_arith (fst x) in Ok (a_abs real_arith w, snd x)) data = Ok l /\
  Forall2 (fun x y => snd y = snd x /\ exists w, nearest w (fst x) /\ fst y = Rabs w) data l.
Proof.
  induction data as [|[t x] data (l & E & F)]; [exists []; split; [reflexivity|constructor]|].
  cbn [map_res fst snd]. destruct (C37_real t) as (w & Ew & _). rewrite Ew. cbn [bind]. rewrite E. cbn [bind].
  eexists. split; [reflexivity|]. constructor; auto. cbn [fst snd]. split; auto. exists w. split; auto. now apply nearest_wrap.
Qed.

Lemma pair_min_le (l : list (R * Z)) : l <> [] -> exists m, pair_min real_arith l = Ok m /\ In m l /\ forall p, In p l -> (fst m <= fst p)%R.
Proof.
  destruct l as [|p l]; [congruence|]. intros _. unfold pair_min.
  assert (H : forall l p, let m := fold_left (fun m q => if pair_lt real_arith q m then q else m) l p in
    In m (p :: l) /\ forall q, In q (p :: l) -> (fst m <= fst q)%R).
  { clear. induction l as [|q l IH]; intros p; cbn [fold_left].
    - split; [now left|]. intros q [<-|[]]. lra.
    - destruct (pair_lt real_arith q p) eqn:E.
      + destruct (IH q) as [A B]. split; [destruct A; [right; now left|right; now right]|].
        intros x [<-|[<-|I]]; [|apply B; now left|apply B; now right].
        assert (X : (fst q <= fst p)%R); [|specialize (B q (or_introl eq_refl)); lra].
        unfold pair_lt in E. cbn [a_eq a_lt real_arith] in E. unfold Reqb in E. destruct (Req_EM_T (fst q) (fst p)); [lra|].
        destruct (Rltb_spec (fst q) (fst p)); [lra|discriminate].
      + destruct (IH p) as [A B]. split; [destruct A; [now left|right; now right]|].
        intros x [<-|[<-|I]]; [apply B; now left| |apply B; now right].
        assert (X : (fst p <= fst q)%R); [|specialize (B p (or_introl eq_refl)); lra].
        unfold pair_lt in E. cbn [a_eq a_lt real_arith] in E. unfold Reqb in E. destruct (Req_EM_T (fst q) (fst p)); [lra|].
        destruct (Rltb_spec (fst q) (fst p)); [discriminate|lra]. }
  destruct (H l p) as [A B]. eexists. split; [reflexivity|]. split; auto.
Qed.

Lemma next_count_ok start : forall l last, Forall (fun x => 1 <= x <= 6) l -> exists k, next_count start last l = Ok k.
Proof.
  induction l as [|x l IH]; intros last F; [eexists; reflexivity|]. inversion F as [|? ? Hx F']; subst.
  cbn [next_count]. destruct (hall_index x Hx) as (k & -> & _). cbn [bind]. destruct (negb _); eauto.
Qed.

Lemma next_count_turns dir start : forall l x, dir = 1 \/ dir = -1 -> 0 <= start < 6 ->
  nth_error hall_sequence (Z.to_nat start) = Some x -> hall_turns dir (x :: l) -> (exists y, In y l /\ y <> x) ->
  next_count start start l = Ok ((start + dir) mod 6).
Proof.
  induction l as [|y l IH]; intros x Hd Hs E H (z & I & N); [destruct I|]. destruct H as [H1 H2]. cbn [next_count].
  destruct (position_unique _ _ Hs E) as [Px _]. destruct H1 as [<-|(k & Bk & Ek & Ey)].
  - rewrite Px. cbn [bind]. rewrite Z.eqb_refl. cbn [negb]. apply (IH x); auto.
    destruct I as [->|I]; [congruence|]. eauto.
  - destruct (position_unique _ _ Bk Ek) as [Pk _]. rewrite Px in Pk. injection Pk as <-.
    assert (Bm : 0 <= (start + dir) mod 6 < 6) by lia. destruct (position_unique _ _ Bm Ey) as [-> _]. cbn [bind].
    destruct (Z.eqb_spec ((start + dir) mod 6) start); [lia|]. reflexivity.
Qed.

Theorem C47_offset : forall data d allow_phase_invert,
  all_seen data -> (d = -1 -> allow_phase_invert = true) ->
  exists h, calibrate_hall real_arith data d allow_phase_invert = Ok h /\
    h_polarity h = 0 /\ h_phase_invert h = (if d =? -1 then 1 else 0) /\ (h_sign h = 1 \/ h_sign h = -1) /\
    exists t x k a, In (t, x) data /\ nth_error hall_sequence k = Some x /\ h_offset h = - Z.of_nat k /\
      nearest a t /\ forall t' x' a', In (t', x') data -> nearest a' t' -> (Rabs a <= Rabs a')%R.
Proof.
  intros data d api Sn Hd. unfold calibrate_hall. rewrite (all_seen_counts _ Sn). cbn [Nat.eqb negb].
  destruct (existsb (Z.eqb 0) (map snd data)) eqn:E0; [apply existsb_eqb, Sn in E0; lia|].
  destruct (existsb (Z.eqb 7) (map snd data)) eqn:E7; [apply existsb_eqb, Sn in E7; lia|]. cbn [orb].
  destruct (distances_of data) as (l & -> & F). cbn [bind].
  assert (NE : l <> []) by (intros ->; inversion F; subst; destruct (proj2 (Sn 1)); lia).
  destruct (pair_min_le l NE) as (m & -> & Im & Lm). cbn [bind].
  assert (Fm : exists t, In (t, snd m) data /\ exists w, nearest w t /\ fst m = Rabs w).
  { clear -F Im. induction F as [|[t x] y data l [A (w & W)] F IH]; [destruct Im|]. destruct Im as [->|Im].
    - exists t. cbn [fst snd] in *. rewrite A. split; [now left|eauto].
    - destruct (IH Im) as (t' & I & H). exists t'. split; [now right|auto]. }
  destruct Fm as (t & It & w & Wt & Wm).
  assert (R6 : forall x, In x (map snd data) -> 1 <= x <= 6) by (intros x; apply Sn).
  destruct (hall_index (snd m)) as (k & Ek & Bk & Nk); [apply R6, in_map_iff; exists (t, snd m); auto|]. rewrite Ek. cbn [bind].
  destruct data as [|x0 data]; [destruct It|].
  change (py_index (map snd (x0 :: data)) 0) with (Ok (snd x0)). cbn [bind map tl].
  destruct (hall_index (snd x0)) as (k0 & -> & _); [apply R6; now left|]. cbn [bind].
  destruct (next_count_ok k0 (map snd data) k0) as (kn & ->).
  { apply Forall_forall. intros x I. apply R6. now right. }
  cbn [bind].
  assert (Near : exists t x k' a, In (t, x) (x0 :: data) /\ nth_error hall_sequence k' = Some x /\ - k = - Z.of_nat k' /\
      nearest a t /\ forall t' x' a', In (t', x') (x0 :: data) -> nearest a' t' -> (Rabs a <= Rabs a')%R).
  { exists t, (snd m), (Z.to_nat k), w. split; auto. split; auto. split; [lia|]. split; auto.
    intros t' x' a' I' [Sa Ma]. rewrite <- Wm.
    assert (X : exists y w', In y l /\ nearest w' t' /\ fst y = Rabs w').
    { clear -F I'. induction F as [|z y data' l [A (w & W)] F IH]; [destruct I'|]. destruct I' as [->|I'].
      - exists y, w. split; [now left|]. tauto.
      - destruct (IH I') as (y' & w' & J & K). exists y', w'. split; [now right|auto]. }
    destruct X as (y & w' & Iy & [Sw Mw] & Ey). apply Rle_trans with (fst y); auto. rewrite Ey. now apply Mw. }
  destruct (Z.eqb_spec d (-1)) as [->|Nd].
  - rewrite (Hd eq_refl). cbn [negb]. eexists. split; [reflexivity|]. cbn [h_polarity h_phase_invert h_sign h_offset].
    repeat split; auto. destruct (_ >? 0); auto.
  - eexists. split; [reflexivity|]. cbn [h_polarity h_phase_invert h_sign h_offset]. repeat split; auto. destruct (_ >? 0); auto.
Qed.

Theorem C47_direction : forall data d allow_phase_invert dir h,
  (dir = 1 \/ dir = -1) -> all_seen data -> hall_turns dir (map snd data) ->
  calibrate_hall real_arith data d allow_phase_invert = Ok h ->
  h_sign h = (if d =? -1 then - dir else dir).
Proof.
  intros data d api dir h Hdir Sn Ht. unfold calibrate_hall. rewrite (all_seen_counts _ Sn). cbn [Nat.eqb negb].
  destruct (existsb (Z.eqb 0) (map snd data)) eqn:E0; [apply existsb_eqb, Sn in E0; lia|].
  destruct (existsb (Z.eqb 7) (map snd data)) eqn:E7; [apply existsb_eqb, Sn in E7; lia|]. cbn [orb].
  destruct (map_res _ data) as [l|]; [|discriminate]. cbn [bind]. destruct (pair_min _ l) as [m|]; [|discriminate]. cbn [bind].
  destruct (py_index hall_mapping (snd m)) as [k|]; [|discriminate]. cbn [bind].
  destruct data as [|x0 data]; [destruct (proj2 (Sn 1)); lia|].
  change (py_index (map snd (x0 :: data)) 0) with (Ok (snd x0)). cbn [bind map tl].
  destruct (hall_index (snd x0)) as (k0 & -> & B0 & N0); [apply Sn; now left|]. cbn [bind].
  rewrite (next_count_turns dir k0 (map snd data) (snd x0)); auto.
  - cbn [bind].
    assert (E : (if ((k0 + dir) mod 6 + 6 + 3 - k0) mod 6 - 3 >? 0 then 1 else -1) = dir).
    { destruct (Z.gtb_spec (((k0 + dir) mod 6 + 6 + 3 - k0) mod 6 - 3) 0); destruct Hdir; subst dir; lia. }
    rewrite E. destruct (d =? -1); [destruct (negb api); [discriminate|]|]; intros H; injection H as <-; cbn [h_sign]; lia.
  - destruct (Z.eq_dec (snd x0) 1) as [X|X].
    + exists 2. split; [|lia]. destruct (proj2 (Sn 2)) as [Y|Y]; [lia|lia|]. exact Y.
    + exists 1. split; [|lia]. destruct (proj2 (Sn 1)) as [Y|Y]; [lia|congruence|]. exact Y.
Qed.

Theorem C47_refused : forall data d allow_phase_invert,
  three_bits data -> ~ all_seen data \/ (d = -1 /\ allow_phase_invert = false) ->
  calibrate_hall real_arith data d allow_phase_invert = Raise RuntimeError.
Proof.
  intros data d api B H.
  destruct H as [H|[-> ->]].
  - unfold calibrate_hall. destruct (Nat.eqb_spec (length (nodup Z.eq_dec (map snd data))) 6) as [L|L]; cbn [negb]; auto.
    destruct (existsb (Z.eqb 0) (map snd data)) eqn:E0; auto. destruct (existsb (Z.eqb 7) (map snd data)) eqn:E7; auto.
    exfalso. apply H. apply counts_all_seen; auto; rewrite <- existsb_eqb; congruence.
  - destruct (Nat.eqb_spec (length (nodup Z.eq_dec (map snd data))) 6) as [L|L];
      [|unfold calibrate_hall; apply Nat.eqb_neq in L; rewrite L; reflexivity].
    destruct (existsb (Z.eqb 0) (map snd data)) eqn:E0; [unfold calibrate_hall; rewrite L, E0; reflexivity|].
    destruct (existsb (Z.eqb 7) (map snd data)) eqn:E7; [unfold calibrate_hall; rewrite L, E0, E7; reflexivity|].
    assert (Sn : all_seen data) by (apply counts_all_seen; auto; rewrite <- existsb_eqb; congruence).
    destruct (C47_offset data (-1) true Sn) as (h & Eh & _); auto.
    unfold calibrate_hall in *. destruct (negb _); [discriminate|]. destruct (_ || _); [discriminate|].
    do 6 (match goal with H : bind ?x _ = _ |- _ => destruct x; [|discriminate]; cbn [bind] in * end). reflexivity.
Qed.

(** Seven samples of a rotor turning backwards. *)
Definition ex_hall : list (R * Z) :=
  [(1%R, 4); (2%R, 6); (3%R, 2); (4%R, 3); (5%R, 1); (6%R, 5); (7%R, 4)].

Lemma ex_hall_seen : all_seen ex_hall.
Proof. intros x. cbn. lia. Qed.

Example ex_hall_turns : hall_turns (-1) (map snd ex_hall).
Proof.
  cbn. unfold hall_step. repeat split; right; [exists 4|exists 3|exists 2|exists 1|exists 0|exists 5]; repeat split; try reflexivity; lia.
Qed.

Example ex_hall_result : exists h, calibrate_hall real_arith ex_hall 1 true = Ok h /\ h_sign h = -1 /\ h_phase_invert h = 0.
Proof.
  destruct (C47_offset ex_hall 1 true ex_hall_seen) as (h & E & _ & P & _); [discriminate|]. exists h. split; auto. split; auto.
  exact (C47_direction _ _ _ (-1) _ (or_intror eq_refl) ex_hall_seen ex_hall_turns E).
Qed.

Example ex_hall_refused : calibrate_hall real_arith (tl (tl ex_hall)) 1 true = Raise RuntimeError.
Proof.
  apply C47_refused.
  - repeat constructor; cbn; lia.
  - left. intros H. specialize (proj2 (H 6)). cbn. lia.
Qed.

Print Assumptions C47_offset.
Print Assumptions C47_direction.
Print Assumptions C47_refused.
