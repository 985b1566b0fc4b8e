(** Lemmas for C64: the firmware's counts in terms of real numbers. *)
From Coq Require Import ZArith List Bool Lia Reals Lra Psatz.
From Coq Require Import Floats.SpecFloat.
From Flocq Require Import Core BinarySingleNaN Relative.
From Verif Require Import PyBase PyFloat Mux_Model Protocol_Spec Fw_Spec Mux_Proofs Float_Proofs
  Quant_Proofs Props_Quant Answer_Spec.
Import ListNotations.
Open Scope Z_scope.

(** ** binary32 *)

Definition b32 (x : float) (H : float32_ok x) : binary_float prec32 emax32 := SF2B x H.

Lemma B2SF_b32 x H : B2SF (b32 x H) = x.
Proof. apply B2SF_SF2B. Qed.
Lemma B2R_b32 x H : B2R (b32 x H) = F2 x.
Proof. apply B2R_SF2B. Qed.
Lemma fin_b32 x H : is_finite (b32 x H) = isfinite x.
Proof. unfold b32. rewrite is_finite_SF2B. destruct x; reflexivity. Qed.

Lemma div32_correct : forall x s, float32_ok x -> float32_ok s -> isfinite x = true ->
  F2 s <> 0%R ->
  float32_ok (SFdiv prec32 emax32 x s) /\
  if Rlt_bool (Rabs (rnd32 (F2 x / F2 s))) (bpow radix2 emax32) then
    isfinite (SFdiv prec32 emax32 x s) = true
    /\ F2 (SFdiv prec32 emax32 x s) = rnd32 (F2 x / F2 s)
  else SFdiv prec32 emax32 x s = S754_infinity (xorb (fsign x) (fsign s)).
Proof.
  intros x s Hx Hs Fx Ns.
  pose proof (Bdiv_correct prec32 emax32 _ _ mode_NE (b32 x Hx) (b32 s Hs)) as C.
  rewrite !B2R_b32 in C. specialize (C Ns). cbn [round_mode] in C.
  assert (E : SFdiv prec32 emax32 x s = B2SF (Bdiv mode_NE (b32 x Hx) (b32 s Hs))).
  { rewrite <- (div_equiv prec32 emax32 prec32_gt_0 prec32_lt). now rewrite !B2SF_b32. }
  rewrite !E. clear E.
  assert (Sx : forall y H, Bsign (b32 y H) = fsign y) by (intros; apply Bsign_SF2B).
  rewrite !Sx in C. split; [apply valid_binary_B2SF|].
  destruct (Rlt_bool _ _).
  - destruct C as (C1 & C2 & C3). rewrite fin_b32, Fx in C2.
    rewrite <- isfinite_SF, is_finite_SF_B2SF, SF2R_B2SF. auto.
  - rewrite C. reflexivity.
Qed.

Lemma ltb32_correct : forall x y, float32_ok x -> float32_ok y ->
  isfinite x = true -> isfinite y = true -> SFltb x y = Rlt_bool (F2 x) (F2 y).
Proof.
  intros x y Hx Hy Fx Fy.
  rewrite <- (B2SF_b32 x Hx) at 1. rewrite <- (B2SF_b32 y Hy) at 1.
  rewrite <- (B2R_b32 x Hx), <- (B2R_b32 y Hy).
  apply Bltb_correct; rewrite fin_b32; auto.
Qed.

Lemma opp32_ok : forall x, float32_ok x -> float32_ok (SFopp x).
Proof. intros [] H; exact H. Qed.

Lemma rnd32_rel : forall x, exists d e, rnd32 x = (x * (1 + d) + e)%R /\
  (Rabs d <= bpow radix2 (-24))%R /\ (Rabs e <= bpow radix2 (-150))%R.
Proof.
  intro x.
  destruct (error_N_FLT radix2 (-149) 24 ltac:(reflexivity) (fun t => negb (Z.even t)) x)
    as (d & e & A & B & _ & C).
  exists d, e. split; [exact C|]. split.
  - eapply Rle_trans; [exact A|]. apply Req_le. replace (bpow radix2 (-24)) with (bpow radix2 (-1) * bpow radix2 (-23))%R
      by (rewrite <- bpow_plus; reflexivity). reflexivity.
  - eapply Rle_trans; [exact B|]. apply Req_le. replace (bpow radix2 (-150)) with (bpow radix2 (-1) * bpow radix2 (-149))%R
      by (rewrite <- bpow_plus; reflexivity). reflexivity.
Qed.

(** ** The units *)

(** [s] is m * 2^e, e <= 0, and off by less than one part in 2^k from n/d. *)
Definition near_check (k : Z) (n d : Z) (s : float) : bool :=
  match s with
  | S754_finite false m e =>
      (e <=? 0) && (0 <? d) && (0 <? n) &&
      (Z.abs (Zpos m * d - n * 2 ^ (- e)) * 2 ^ k <=? n * 2 ^ (- e))
  | _ => false
  end.

Lemma near_check_ok : forall k n d s, 0 <= k -> near_check k n d s = true ->
  (Rabs (F2 s - IZR n / IZR d) <= IZR n / IZR d * bpow radix2 (- k))%R /\ (0 < IZR n / IZR d)%R.
Proof.
  intros k n d [| | |[] m e] Hk H; try discriminate. cbn [near_check] in H.
  rewrite !andb_true_iff in H. destruct H as [[[He Hd] Hn] H].
  apply Z.leb_le in He, H. apply Z.ltb_lt in Hd, Hn.
  assert (PD : (0 < IZR d)%R) by (apply IZR_lt; lia).
  assert (PN : (0 < IZR n)%R) by (apply IZR_lt; lia).
  split; [|apply Rdiv_lt_0_compat; assumption].
  cbn [SF2R cond_Zopp]. unfold F2R. cbn [Fnum Fexp].
  apply IZR_le in H. rewrite mult_IZR, abs_IZR, minus_IZR, !mult_IZR in H.
  change 2 with (radix_val radix2) in H. rewrite !IZR_Zpower in H by lia.
  set (P := bpow radix2 (- e)) in *. set (K := bpow radix2 k) in *.
  assert (PP : (0 < P)%R) by apply bpow_gt_0. assert (PK : (0 < K)%R) by apply bpow_gt_0.
  replace (bpow radix2 e) with (/ P)%R by (unfold P; rewrite <- bpow_opp; f_equal; lia).
  replace (bpow radix2 (- k)) with (/ K)%R by (unfold K; rewrite <- bpow_opp; reflexivity).
  replace (IZR (Zpos m) * / P - IZR n / IZR d)%R
    with ((IZR (Zpos m) * IZR d - IZR n * P) * (/ (P * IZR d)))%R by (field; lra).
  assert (PI : (0 < / (P * IZR d))%R) by (apply Rinv_0_lt_compat; nra).
  rewrite Rabs_mult, (Rabs_pos_eq (/ (P * IZR d))) by lra.
  apply Rmult_le_reg_r with (K * (P * IZR d))%R; [apply Rmult_lt_0_compat; nra|].
  replace (Rabs (IZR (Z.pos m) * IZR d - IZR n * P) * / (P * IZR d) * (K * (P * IZR d)))%R
    with (Rabs (IZR (Z.pos m) * IZR d - IZR n * P) * K)%R by (field; nra).
  replace (IZR n / IZR d * / K * (K * (P * IZR d)))%R with (IZR n * P)%R by (field; lra).
  exact H.
Qed.

Definition all_units : list unit_ :=
  [UPosition; UVelocity; UAcceleration; UTorque; UPwm; UVoltage; UTemperature; UTime; UCurrent; UPower].

Lemma units_checked : forallb (fun u => forallb (fun r =>
    near_check 24 (fst (unit_ratio u r)) (snd (unit_ratio u r)) (unit_f32 u r)
    && valid_binary prec32 emax32 (unit_f32 u r)
    && near_check 53 (fst (unit_ratio u r)) (snd (unit_ratio u r)) (unit_float u r)
    && valid_binary prec64 emax64 (unit_float u r)
    && (snd (unit_ratio u r) <=? 2 ^ 31) && (fst (unit_ratio u r) <=? 10)
    && (1 <=? fst (unit_ratio u r)) && (1 <=? snd (unit_ratio u r)))
  [INT8; INT16; INT32]) all_units = true.
Proof. vm_compute. reflexivity. Qed.

Lemma near_finite : forall k n d s, near_check k n d s = true -> isfinite s = true.
Proof. intros k n d [| | |[] m e] H; try discriminate; reflexivity. Qed.

Lemma unit_facts : forall u r, int_res r ->
  float32_ok (unit_f32 u r) /\
  (Rabs (F2 (unit_f32 u r) - unit_real u r) <= unit_real u r * bpow radix2 (-24))%R /\
  float_ok (unit_float u r) /\ isfinite (unit_float u r) = true /\
  (Rabs (F2 (unit_float u r) - unit_real u r) <= unit_real u r * bpow radix2 (-53))%R /\
  (bpow radix2 (-31) <= unit_real u r <= 10)%R.
Proof.
  intros u r Hr. pose proof units_checked as C. rewrite forallb_forall in C.
  assert (Iu : In u all_units) by (destruct u; cbn; tauto).
  specialize (C u Iu). cbv beta in C. rewrite forallb_forall in C.
  assert (Ir : In r [INT8; INT16; INT32]) by (destruct Hr as [->|[->| ->]]; cbn; tauto).
  specialize (C r Ir). cbv beta in C. rewrite !andb_true_iff in C.
  destruct C as [[[[[[[C1 C2] C3] C4] C5] C6] C7] C8].
  destruct (near_check_ok 24 _ _ _ ltac:(lia) C1) as [A1 P].
  destruct (near_check_ok 53 _ _ _ ltac:(lia) C3) as [A2 _].
  apply Z.leb_le in C5, C6, C7, C8. fold (unit_real u r) in *.
  split; [exact C2|]. split; [exact A1|]. split; [exact C4|]. split; [eapply near_finite; eauto|].
  split; [exact A2|].
  unfold unit_real. set (n := fst (unit_ratio u r)) in *. set (d := snd (unit_ratio u r)) in *.
  apply IZR_le in C5, C6, C7, C8.
  change (bpow radix2 (-31)) with (/ IZR (2 ^ 31))%R.
  assert (0 < / IZR d)%R by (apply Rinv_0_lt_compat; lra).
  assert (/ IZR d <= 1)%R by (rewrite <- Rinv_1; apply Rinv_le; lra).
  assert (/ IZR (2 ^ 31) <= / IZR d)%R by (apply Rinv_le; lra).
  unfold Rdiv. split; nra.
Qed.

Lemma top_facts : forall r, int_res r ->
  float32_ok (f32_of_Z (spec_max r)) /\ isfinite (f32_of_Z (spec_max r)) = true /\
  (IZR (spec_max r) <= F2 (f32_of_Z (spec_max r)))%R /\
  F2 (f32_of_Z (spec_max r)) = IZR (match r with INT32 => 2 ^ 31 | _ => spec_max r end).
Proof.
  intros r Hr.
  assert (E : F2 (f32_of_Z (spec_max r)) = IZR (match r with INT32 => 2 ^ 31 | _ => spec_max r end)).
  { destruct Hr as [->|[->| ->]]; vm_compute; lra. }
  split; [destruct Hr as [->|[->| ->]]; vm_compute; reflexivity|].
  split; [destruct Hr as [->|[->| ->]]; vm_compute; reflexivity|].
  split; [|exact E]. rewrite E. apply IZR_le. destruct Hr as [->|[->| ->]]; vm_compute; discriminate.
Qed.

(** ** The counts *)

Lemma counts_in : forall u r x, int_res r -> float32_ok x -> isfinite x = true ->
  (Rabs (rnd32 (F2 x / F2 (unit_f32 u r))) <= IZR (spec_max r))%R ->
  fw_counts u r x = Ztrunc (rnd32 (F2 x / F2 (unit_f32 u r))).
Proof.
  intros u r x Hr Hx Fx B. destruct (unit_facts u r Hr) as (S1 & S2 & _ & _ & _ & S3).
  destruct (top_facts r Hr) as (T1 & T2 & T3 & _). destruct (int_max_spec r Hr) as [_ BM].
  assert (SP : (0 < F2 (unit_f32 u r))%R).
  { apply Rabs_le_inv in S2. pose proof (bpow_gt_0 radix2 (-31)).
    assert (bpow radix2 (-24) < 1)%R by (change 1%R with (bpow radix2 0); apply bpow_lt; lia). nra. }
  destruct (div32_correct x (unit_f32 u r) Hx S1 Fx ltac:(lra)) as [D1 D2].
  rewrite Rlt_bool_true in D2.
  2:{ eapply Rle_lt_trans; [exact B|]. apply Rle_lt_trans with (bpow radix2 31).
      - apply bpow_31. lia.
      - apply bpow_lt. reflexivity. }
  destruct D2 as [D2 D3]. unfold fw_counts. rewrite Fx. cbn [negb].
  rewrite ltb32_correct; auto; [|apply opp32_ok; auto|rewrite fneg_fin; auto].
  change SFopp with fneg. rewrite fneg_F2, D3. apply Rabs_le_inv in B.
  rewrite Rlt_bool_false by lra.
  rewrite ltb32_correct by auto. rewrite D3, Rlt_bool_false by lra.
  rewrite ftrunc_correct, D3 by exact D2.
  pose proof (Ztrunc_bounds _ (spec_max r) ltac:(lia) B). lia.
Qed.

Lemma counts_over : forall u r x, int_res r -> float32_ok x -> isfinite x = true ->
  let q := rnd32 (F2 x / F2 (unit_f32 u r)) in
  let top := match r with INT32 => 2 ^ 31 | _ => spec_max r end in
  ((IZR top <= q)%R -> fw_counts u r x = spec_max r) /\
  ((q <= - IZR top)%R -> fw_counts u r x = - top).
Proof.
  intros u r x Hr Hx Fx q top. destruct (unit_facts u r Hr) as (S1 & S2 & _ & _ & _ & S3).
  destruct (top_facts r Hr) as (T1 & T2 & T3 & T4). destruct (int_max_spec r Hr) as [_ BM].
  fold top in T4.
  assert (TB : spec_max r <= top <= 2 ^ 31) by (destruct Hr as [->|[->| ->]]; vm_compute; split; discriminate).
  assert (TR : (IZR top < bpow radix2 emax32)%R).
  { apply Rle_lt_trans with (bpow radix2 31); [apply bpow_31; lia|apply bpow_lt; reflexivity]. }
  assert (T0 : (0 < IZR top)%R) by (apply IZR_lt; lia).
  assert (SP : (0 < F2 (unit_f32 u r))%R).
  { apply Rabs_le_inv in S2. pose proof (bpow_gt_0 radix2 (-31)).
    assert (bpow radix2 (-24) < 1)%R by (change 1%R with (bpow radix2 0); apply bpow_lt; lia). nra. }
  destruct (div32_correct x (unit_f32 u r) Hx S1 Fx ltac:(lra)) as [D1 D2]. fold q in D2.
  assert (LT : ftrunc (f32_of_Z (spec_max r)) = top).
  { rewrite ftrunc_correct, T4 by exact T2. apply Ztrunc_IZR. }
  assert (LO : ftrunc (SFopp (f32_of_Z (spec_max r))) = - top).
  { rewrite ftrunc_correct by (change SFopp with fneg; rewrite fneg_fin; exact T2).
    change SFopp with fneg. rewrite fneg_F2, T4, <- opp_IZR. apply Ztrunc_IZR. }
  unfold fw_counts. rewrite Fx. cbn [negb].
  destruct (Rlt_bool_spec (Rabs q) (bpow radix2 emax32)) as [L|L].
  - destruct D2 as [D2 D3].
    rewrite ltb32_correct; auto; [|apply opp32_ok; auto|change SFopp with fneg; rewrite fneg_fin; auto].
    replace (F2 (SFopp (f32_of_Z (spec_max r)))) with (- IZR top)%R
      by (change SFopp with fneg; rewrite fneg_F2, T4; reflexivity).
    rewrite ltb32_correct by auto. rewrite D3, T4. split; intro H.
    + rewrite Rlt_bool_false by lra.
      destruct (Rlt_bool_spec (IZR top) q) as [G|G].
      * rewrite LT. lia.
      * rewrite ftrunc_correct, D3 by exact D2. replace q with (IZR top) by lra.
        rewrite Ztrunc_IZR. lia.
    + destruct (Rlt_bool_spec q (- IZR top)) as [G|G].
      * rewrite LO. lia.
      * rewrite Rlt_bool_false by lra. rewrite ftrunc_correct, D3 by exact D2.
        replace q with (IZR (- top)) by (rewrite opp_IZR; lra). rewrite Ztrunc_IZR. lia.
  - (* the quotient overflows *)
    assert (SG : xorb (fsign x) (fsign (unit_f32 u r)) = Rlt_bool q 0).
    { assert (FS : fsign (unit_f32 u r) = false).
      { destruct (unit_f32 u r) as [b|b| |b m e]; cbn in SP; try lra. destruct b; auto. exfalso.
        cbn [cond_Zopp] in SP. pose proof (F2R_lt_0 radix2 (Float radix2 (Zneg m) e) ltac:(reflexivity)).
        cbn in *. lra. }
      rewrite FS, xorb_false_r.
      assert (IS : (0 < / F2 (unit_f32 u r))%R) by (apply Rinv_0_lt_compat; exact SP).
      assert (BP : (0 < bpow radix2 emax32)%R) by apply bpow_gt_0.
      destruct x as [b|b| |b m e]; try discriminate.
      - exfalso. unfold q in L. cbn [SF2R] in L. unfold Rdiv in L. rewrite Rmult_0_l in L.
        rewrite round_0 in L by apply valid_rnd_N. rewrite Rabs_R0 in L. lra.
      - cbn [fsign sign_SF]. destruct b.
        + rewrite Rlt_bool_true; auto.
          pose proof (F2R_lt_0 radix2 (Float radix2 (Zneg m) e) ltac:(reflexivity)) as G.
          assert (N : (F2 (S754_finite true m e) / F2 (unit_f32 u r) <= 0)%R).
          { change (F2 (S754_finite true m e)) with (F2R (Float radix2 (Zneg m) e)). unfold Rdiv. nra. }
          assert (Q : (q <= 0)%R).
          { unfold q. rewrite <- (round_0 radix2 fexp32 ZnearestE).
            apply round_le; [apply fexp_correct; reflexivity|apply valid_rnd_N|exact N]. }
          destruct (Req_dec q 0) as [Z0|Z0]; [|lra]. rewrite Z0, Rabs_R0 in L. lra.
        + rewrite Rlt_bool_false; auto.
          pose proof (F2R_gt_0 radix2 (Float radix2 (Zpos m) e) ltac:(reflexivity)) as G.
          assert (N : (0 <= F2 (S754_finite false m e) / F2 (unit_f32 u r))%R).
          { change (F2 (S754_finite false m e)) with (F2R (Float radix2 (Zpos m) e)). unfold Rdiv. nra. }
          unfold q. rewrite <- (round_0 radix2 fexp32 ZnearestE).
          apply round_le; [apply fexp_correct; reflexivity|apply valid_rnd_N|exact N]. }
    rewrite D2, SG. split; intro H.
    + rewrite Rlt_bool_false by lra.
      assert (X1 : SFltb (S754_infinity false) (SFopp (f32_of_Z (spec_max r))) = false)
        by (destruct Hr as [->|[->| ->]]; vm_compute; reflexivity).
      assert (X2 : SFltb (f32_of_Z (spec_max r)) (S754_infinity false) = true)
        by (destruct Hr as [->|[->| ->]]; vm_compute; reflexivity).
      rewrite X1, X2, LT. lia.
    + rewrite Rlt_bool_true by lra.
      assert (X1 : SFltb (S754_infinity true) (SFopp (f32_of_Z (spec_max r))) = true)
        by (destruct Hr as [->|[->| ->]]; vm_compute; reflexivity).
      rewrite X1, LO. lia.
Qed.

(** ** Errors, in counts *)

Lemma bpow_m24 : bpow radix2 (-24) = (/ 16777216)%R.
Proof. reflexivity. Qed.
Lemma bpow_m22 : bpow radix2 (-22) = (/ 4194304)%R.
Proof. reflexivity. Qed.
Lemma bpow_m40 : bpow radix2 (-40) = (/ 1099511627776)%R.
Proof. reflexivity. Qed.
Lemma bpow_m53 : bpow radix2 (-53) = (/ 9007199254740992)%R.
Proof. reflexivity. Qed.
Lemma bpow_m150 : (0 < bpow radix2 (-150) < / 1125899906842624)%R.
Proof.
  split; [apply bpow_gt_0|]. change (/ 1125899906842624)%R with (bpow radix2 (-50)). apply bpow_lt. lia.
Qed.

(** The quotient as the firmware computes it, against the exact one. *)
Lemma quotient_error : forall u r x, int_res r ->
  let Y := (F2 x / unit_real u r)%R in
  exists t, rnd32 (F2 x / F2 (unit_f32 u r)) = (Y + t)%R /\
    (Rabs t <= 3 * bpow radix2 (-24) * Rabs Y + bpow radix2 (-50))%R /\
    (Rabs t <= (2 * bpow radix2 (-24) + bpow radix2 (-40)) * Rabs Y + bpow radix2 (-50))%R.
Proof.
  intros u r x Hr Y. destruct (unit_facts u r Hr) as (_ & S2 & _ & _ & _ & S3 & _).
  set (U := unit_real u r) in *. set (s := F2 (unit_f32 u r)) in *.
  assert (PU : (0 < U)%R) by (pose proof (bpow_gt_0 radix2 (-31)); lra).
  destruct (rnd32_rel (F2 x / s)) as (d & e & E & B1 & B2).
  rewrite bpow_m24 in *. pose proof bpow_m150 as BE.
  assert (D1 : exists d1, s = (U * (1 + d1))%R /\ (Rabs d1 <= / 16777216)%R).
  { exists ((s - U) / U)%R. split; [field; lra|]. unfold Rdiv. rewrite Rabs_mult.
    rewrite (Rabs_pos_eq (/ U)) by (apply Rlt_le, Rinv_0_lt_compat; exact PU).
    apply Rmult_le_reg_r with U; [exact PU|]. rewrite Rmult_assoc, Rinv_l, Rmult_1_r by lra. lra. }
  destruct D1 as (d1 & ES & B3). apply Rabs_le_inv in B1, B3.
  assert (EQ : (F2 x / s = Y * / (1 + d1))%R).
  { unfold Y. rewrite ES. field. split; lra. }
  exists (Y * ((1 + d) * / (1 + d1) - 1) + e)%R.
  split. { rewrite E, EQ. ring. }
  assert (K : ((1 + d) * / (1 + d1) - 1 = (d - d1) * / (1 + d1))%R) by (field; lra).
  assert (KI : (/ (1 + d1) <= 1 + / 8388608)%R).
  { apply Rmult_le_reg_l with (1 + d1)%R; [lra|]. rewrite Rinv_r by lra. nra. }
  assert (KP : (0 < / (1 + d1))%R) by (apply Rinv_0_lt_compat; lra).
  assert (KB : (Rabs ((d - d1) * / (1 + d1)) <= 2 * / 16777216 + / 1099511627776)%R).
  { rewrite Rabs_mult, (Rabs_pos_eq (/ (1 + d1))) by lra.
    assert (Rabs (d - d1) <= 2 * / 16777216)%R by (apply Rabs_le; lra).
    pose proof (Rabs_pos (d - d1)). nra. }
  rewrite bpow_m40. change (bpow radix2 (-50)) with (/ 1125899906842624)%R.
  assert (T : (Rabs (Y * ((1 + d) * / (1 + d1) - 1) + e)
    <= (2 * / 16777216 + / 1099511627776) * Rabs Y + / 1125899906842624)%R).
  { eapply Rle_trans; [apply Rabs_triang|]. rewrite K, Rabs_mult.
    pose proof (Rabs_pos Y). nra. }
  split; [|exact T]. pose proof (Rabs_pos Y). nra.
Qed.

(** What the client makes of a number of counts. *)
Lemma counts_value : forall u r n, int_res r -> - spec_max r <= n <= spec_max r ->
  let d := fmul (float_of_Z n) (unit_float u r) in
  isfinite d = true /\
  (Rabs (F2 d - IZR n * unit_real u r) <= Rabs (IZR n) * unit_real u r * bpow radix2 (-51))%R.
Proof.
  intros u r n Hr Hn d. destruct (unit_facts u r Hr) as (_ & _ & S1 & S2 & S3 & S4).
  destruct (int_max_spec r Hr) as [_ BM].
  destruct (float_of_Z_correct n) as [Fn En]; [lia|].
  pose proof (fmul_correct (float_of_Z n) (unit_float u r) (float_of_Z_ok n) S1 Fn S2) as C.
  rewrite En in C. fold d in C. set (U := unit_real u r) in *. set (v := F2 (unit_float u r)) in *.
  assert (NB : (Rabs (IZR n) <= 2147483648)%R).
  { rewrite <- abs_IZR. apply IZR_le. lia. }
  rewrite bpow_m53 in S3. pose proof (bpow_gt_0 radix2 (-31)) as P31.
  assert (VB : (U * (1 - / 9007199254740992) <= v <= U * (1 + / 9007199254740992))%R).
  { apply Rabs_le_inv in S3. lra. }
  assert (PB : (Rabs (IZR n * v) <= bpow radix2 36)%R).
  { change (bpow radix2 36) with 68719476736%R. rewrite Rabs_mult, (Rabs_pos_eq v) by nra.
    pose proof (Rabs_pos (IZR n)). nra. }
  assert (RE : (Rabs (rnd64 (IZR n * v) - IZR n * v) <= bpow radix2 (-53) * Rabs (IZR n * v))%R).
  { destruct (Z.eq_dec n 0) as [->|N].
    - rewrite Rmult_0_l, round_0, Rminus_0_r, Rabs_R0 by apply valid_rnd_N. lra.
    - apply rnd64_rel. rewrite Rabs_mult, (Rabs_pos_eq v) by nra.
      assert (1 <= Rabs (IZR n))%R by (rewrite <- abs_IZR; apply IZR_le; lia).
      apply Rle_trans with (bpow radix2 (-32)).
      + apply bpow_le. lia.
      + assert (H32 : bpow radix2 (-32) = (bpow radix2 (-31) * / 2)%R).
        { change (/ 2)%R with (bpow radix2 (-1)). rewrite <- bpow_plus. reflexivity. }
        rewrite H32. nra. }
  rewrite bpow_m53 in RE.
  assert (SM : (Rabs (rnd64 (IZR n * v)) < bpow radix2 emax64)%R).
  { apply Rle_lt_trans with (bpow radix2 37); [|apply bpow_lt; reflexivity].
    change (bpow radix2 36) with 68719476736%R in PB. change (bpow radix2 37) with 137438953472%R.
    replace (rnd64 (IZR n * v)) with ((rnd64 (IZR n * v) - IZR n * v) + IZR n * v)%R by ring.
    eapply Rle_trans; [apply Rabs_triang|]. lra. }
  rewrite Rlt_bool_true in C by exact SM. destruct C as (C1 & C2 & _).
  split; [exact C1|]. rewrite C2.
  change (bpow radix2 (-51)) with (/ 2251799813685248)%R.
  replace (rnd64 (IZR n * v) - IZR n * U)%R
    with ((rnd64 (IZR n * v) - IZR n * v) + IZR n * (v - U))%R by ring.
  eapply Rle_trans; [apply Rabs_triang|]. rewrite Rabs_mult in RE. rewrite (Rabs_mult (IZR n) (v - U)).
  rewrite (Rabs_pos_eq v) in RE by nra.
  pose proof (Rabs_pos (IZR n)). set (N := Rabs (IZR n)) in *.
  assert (N * v <= N * (U * 2))%R by (apply Rmult_le_compat_l; lra).
  assert (N * Rabs (v - U) <= N * (U * / 9007199254740992))%R by (apply Rmult_le_compat_l; lra).
  nra.
Qed.

(** In range: the reading is the quantity, up to one count and a few units
    in the last place of binary32. *)
Lemma reported_value : forall u r x, int_res r -> float32_ok x -> isfinite x = true ->
  (Rabs (F2 x) <= IZR (spec_max r) * unit_real u r * (1 - bpow radix2 (-22)))%R ->
  let n := fw_counts u r x in let d := fmul (float_of_Z n) (unit_float u r) in
  - spec_max r <= n <= spec_max r /\ isfinite d = true /\
  (Rabs (F2 d - F2 x) <= unit_real u r * (1 + bpow radix2 (-40)) + Rabs (F2 x) * bpow radix2 (-22))%R.
Proof.
  intros u r x Hr Hx Fx B n d. destruct (unit_facts u r Hr) as (_ & _ & _ & _ & _ & S4).
  destruct (int_max_spec r Hr) as [_ BM].
  set (U := unit_real u r) in *. pose proof (bpow_gt_0 radix2 (-31)) as P31.
  assert (PU : (0 < U)%R) by lra.
  destruct (quotient_error u r x Hr) as (t & E & T1 & T2). fold U in E, T1, T2.
  set (Y := (F2 x / U)%R) in *.
  assert (EX : F2 x = (Y * U)%R) by (unfold Y; field; lra).
  rewrite bpow_m22 in *. rewrite bpow_m24 in *. rewrite bpow_m40 in *.
  change (bpow radix2 (-50)) with (/ 1125899906842624)%R in T1, T2.
  assert (YB : (Rabs Y <= IZR (spec_max r) * (1 - / 4194304))%R).
  { rewrite EX, Rabs_mult, (Rabs_pos_eq U) in B by lra.
    apply Rmult_le_reg_r with U; [exact PU|]. lra. }
  assert (M : (127 <= IZR (spec_max r))%R) by (apply IZR_le; lia).
  assert (QB : (Rabs (Y + t) <= IZR (spec_max r))%R).
  { eapply Rle_trans; [apply Rabs_triang|]. pose proof (Rabs_pos Y). lra. }
  rewrite <- E in QB. pose proof (counts_in u r x Hr Hx Fx QB) as EN. rewrite E in EN, QB.
  fold n in EN.
  assert (NB : - spec_max r <= n <= spec_max r).
  { rewrite EN. apply Ztrunc_bounds; [lia|]. apply Rabs_le_inv. exact QB. }
  destruct (counts_value u r n Hr NB) as [D1 D2]. fold d in D1, D2. fold U in D2.
  split; [exact NB|]. split; [exact D1|].
  pose proof (Ztrunc_dist (Y + t)) as TD. rewrite <- EN in TD.
  change (bpow radix2 (-51)) with (/ 2251799813685248)%R in D2.
  assert (NY : (Rabs (IZR n - Y) <= 1 + 3 * / 16777216 * Rabs Y + / 1125899906842624)%R).
  { replace (IZR n - Y)%R with ((IZR n - (Y + t)) + t)%R by ring.
    eapply Rle_trans; [apply Rabs_triang|]. lra. }
  assert (NN : (Rabs (IZR n) <= 2 + 2 * Rabs Y)%R).
  { replace (IZR n) with ((IZR n - Y) + Y)%R by ring.
    eapply Rle_trans; [apply Rabs_triang|]. pose proof (Rabs_pos Y). lra. }
  rewrite EX. rewrite (Rabs_mult Y U), (Rabs_pos_eq U) by lra.
  replace (F2 d - Y * U)%R with ((F2 d - IZR n * U) + (IZR n - Y) * U)%R by ring.
  eapply Rle_trans; [apply Rabs_triang|]. rewrite (Rabs_mult (IZR n - Y) U), (Rabs_pos_eq U) by lra.
  pose proof (Rabs_pos Y).
  assert (Rabs (IZR n) * U <= (2 + 2 * Rabs Y) * U)%R by (apply Rmult_le_compat_r; lra).
  assert (Rabs (IZR n - Y) * U <= (1 + 3 * / 16777216 * Rabs Y + / 1125899906842624) * U)%R
    by (apply Rmult_le_compat_r; lra).
  nra.
Qed.

(** Out of range. *)
Lemma reported_over : forall u r x, int_res r -> float32_ok x -> isfinite x = true ->
  ((IZR (spec_max r) * unit_real u r * (1 + bpow radix2 (-22)) <= F2 x)%R ->
   fw_counts u r x = spec_max r) /\
  ((F2 x <= - (IZR (spec_max r) * unit_real u r * (1 + bpow radix2 (-22))))%R ->
   fw_counts u r x = match r with INT32 => - 2 ^ 31 | _ => - spec_max r end).
Proof.
  intros u r x Hr Hx Fx. destruct (unit_facts u r Hr) as (_ & _ & _ & _ & _ & S4).
  destruct (int_max_spec r Hr) as [_ BM].
  set (U := unit_real u r) in *. pose proof (bpow_gt_0 radix2 (-31)) as P31.
  assert (PU : (0 < U)%R) by lra.
  destruct (quotient_error u r x Hr) as (t & E & _ & T). fold U in E, T.
  set (Y := (F2 x / U)%R) in *.
  assert (EX : F2 x = (Y * U)%R) by (unfold Y; field; lra).
  rewrite bpow_m22 in *. rewrite bpow_m24 in *. rewrite bpow_m40 in *.
  change (bpow radix2 (-50)) with (/ 1125899906842624)%R in T.
  set (top := match r with INT32 => 2 ^ 31 | _ => spec_max r end).
  assert (TOP : (IZR top <= IZR (spec_max r) * (1 + / 2147483647))%R).
  { unfold top. assert (0 <= IZR (spec_max r))%R by (apply IZR_le; lia).
    destruct Hr as [->|[->| ->]]; [nra|nra|].
    change (spec_max INT32) with 2147483647. change (2 ^ 31) with 2147483648. lra. }
  assert (M : (127 <= IZR (spec_max r))%R) by (apply IZR_le; lia).
  destruct (counts_over u r x Hr Hx Fx) as [HI LO]. rewrite E in HI, LO. fold top in HI, LO.
  apply Rabs_le_inv in T. split; intro H.
  - apply HI. rewrite EX in H.
    assert (YB : (IZR (spec_max r) * (1 + / 4194304) <= Y)%R)
      by (apply Rmult_le_reg_r with U; [exact PU|lra]).
    rewrite (Rabs_pos_eq Y) in T by lra. lra.
  - rewrite LO; [unfold top; destruct r; reflexivity|]. rewrite EX in H.
    assert (YB : (Y <= - (IZR (spec_max r) * (1 + / 4194304)))%R)
      by (apply Rmult_le_reg_r with U; [exact PU|lra]).
    rewrite (Rabs_left1 Y) in T by lra. lra.
Qed.

Lemma counts_low : forall u r x, int_res r -> float32_ok x -> isfinite x = true ->
  - spec_max r - 1 <= fw_counts u r x.
Proof.
  intros u r x Hr Hx Fx. destruct (int_max_spec r Hr) as [_ BM].
  destruct (top_facts r Hr) as (T1 & T2 & T3 & T4).
  set (top := match r with INT32 => 2 ^ 31 | _ => spec_max r end) in *.
  assert (TB : spec_max r <= top <= spec_max r + 1)
    by (destruct Hr as [->|[->| ->]]; vm_compute; split; discriminate).
  set (q := rnd32 (F2 x / F2 (unit_f32 u r))).
  destruct (counts_over u r x Hr Hx Fx) as [HI LO]. fold q top in HI, LO.
  destruct (Rle_or_lt (IZR top) q) as [H|H]; [rewrite HI by exact H; lia|].
  destruct (Rle_or_lt q (- IZR top)) as [H'|H']; [rewrite LO by exact H'; lia|].
  destruct (unit_facts u r Hr) as (S1 & S2 & _ & _ & _ & S3).
  assert (SP : (0 < F2 (unit_f32 u r))%R).
  { apply Rabs_le_inv in S2. pose proof (bpow_gt_0 radix2 (-31)).
    assert (bpow radix2 (-24) < 1)%R by (change 1%R with (bpow radix2 0); apply bpow_lt; lia). nra. }
  destruct (div32_correct x (unit_f32 u r) Hx S1 Fx ltac:(lra)) as [D1 D2]. fold q in D2.
  rewrite Rlt_bool_true in D2.
  2:{ apply Rlt_trans with (IZR top); [apply Rabs_def1; lra|].
      apply Rle_lt_trans with (bpow radix2 31); [apply bpow_31; lia|apply bpow_lt; reflexivity]. }
  destruct D2 as [D2 D3]. unfold fw_counts. rewrite Fx. cbn [negb].
  rewrite ltb32_correct; auto; [|apply opp32_ok; auto|change SFopp with fneg; rewrite fneg_fin; auto].
  change SFopp with fneg. rewrite fneg_F2, D3, T4, Rlt_bool_false by lra.
  rewrite ltb32_correct by auto. rewrite D3, T4, Rlt_bool_false by lra.
  rewrite ftrunc_correct, D3 by exact D2.
  pose proof (Ztrunc_bounds q top ltac:(lia) ltac:(lra)). lia.
Qed.
