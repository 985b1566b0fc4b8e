(** Mapped values: saturate, binary32 packing (multiplex.py:75-98). *)
From Coq Require Import ZArith List Bool Lia Reals Lra Psatz.
From Coq Require Import Floats.SpecFloat.
From Coq Require Import ZifyBool ZifyNat.
From Flocq Require Import Core BinarySingleNaN.
From Verif Require Import PyBase PyFloat Mux_Model Protocol_Spec Zbits Mux_Proofs Float_Proofs.
Import ListNotations.
Open Scope Z_scope.

(** ** Binary32 *)

Lemma F2_finite : forall s m e, F2 (S754_finite s m e) = F2R (Float radix2 (cond_Zopp s (Zpos m)) e).
Proof. reflexivity. Qed.

Lemma sign_finite : forall s m e,
  match Rcompare (F2R (Float radix2 (cond_Zopp s (Zpos m)) e)) 0 with
  | Eq => s | Lt => true | Gt => false end = s.
Proof.
  intros [] m e; cbn [cond_Zopp].
  - rewrite Rcompare_Lt; auto. apply F2R_lt_0. reflexivity.
  - rewrite Rcompare_Gt; auto. apply F2R_gt_0. reflexivity.
Qed.

Lemma to_f32_ok : forall x, float32_ok (to_f32 x).
Proof.
  intros [s|s| |s m e]; try reflexivity. apply normalize32.
Qed.

Lemma to_f32_correct : forall x, isfinite x = true ->
  if Rlt_bool (Rabs (rnd32 (F2 x))) (bpow radix2 emax32) then
    F2 (to_f32 x) = rnd32 (F2 x) /\ isfinite (to_f32 x) = true
    /\ fsign (to_f32 x) = fsign x
  else to_f32 x = S754_infinity (fsign x).
Proof.
  intros [s|s| |s m e] F; try discriminate.
  - cbn [SF2R to_f32]. rewrite round_0 by (apply valid_rnd_N). rewrite Rabs_R0.
    rewrite Rlt_bool_true by (apply bpow_gt_0). auto.
  - cbn [to_f32]. rewrite F2_finite. pose proof (normalize32 (cond_Zopp s (Zpos m)) e s) as [_ C].
    cbv zeta in C. destruct (Rlt_bool _ _).
    + destruct C as (C1 & C2 & C3). rewrite sign_finite in C3. auto.
    + rewrite C. f_equal. cbn [fsign sign_SF].
      destruct s; [rewrite Rlt_bool_true|rewrite Rlt_bool_false]; auto.
      * apply F2R_lt_0. reflexivity.
      * apply F2R_ge_0. cbn. lia.
Qed.

Lemma digits_bounds : forall m, 2 ^ (Zpos (digits2_pos m) - 1) <= Zpos m < 2 ^ Zpos (digits2_pos m).
Proof.
  intro m. rewrite Digits.Zpos_digits2_pos.
  pose proof (Digits.Zdigits_correct radix2 (Zpos m)) as H. cbn [Z.abs] in H. exact H.
Qed.

(** What a canonical binary32 mantissa and exponent look like. *)
Lemma bounded32 : forall m e, bounded prec32 emax32 m e = true ->
  -149 <= e <= 104 /\ Zpos m < 2 ^ 24 /\ (e = -149 \/ 2 ^ 23 <= Zpos m).
Proof.
  intros m e H. unfold bounded in H. apply andb_true_iff in H. destruct H as [H1 H2].
  unfold canonical_mantissa in H1. apply Zeq_bool_eq in H1.
  unfold SpecFloat.fexp, emin, prec32, emax32 in *.
  pose proof (digits_bounds m) as D.
  assert (D1 : Zpos (digits2_pos m) <= 24) by lia.
  assert (Zpos m < 2 ^ 24).
  { apply Z.lt_le_trans with (2 ^ Zpos (digits2_pos m)); [lia|]. apply Z.pow_le_mono_r; lia. }
  repeat split; try lia.
  destruct (Z.eq_dec e (-149)); [auto|right].
  assert (Zpos (digits2_pos m) = 24) as E by lia. rewrite E in D. exact (proj1 D).
Qed.

Lemma bounded32_conv : forall m e, -149 <= e <= 104 -> Zpos m < 2 ^ 24 ->
  (e = -149 \/ 2 ^ 23 <= Zpos m) -> bounded prec32 emax32 m e = true.
Proof.
  intros m e He Hm Hc. unfold bounded. apply andb_true_iff. split.
  - unfold canonical_mantissa. apply Zeq_is_eq_bool.
    unfold SpecFloat.fexp, emin, prec32, emax32.
    pose proof (digits_bounds m) as D.
    assert (Zpos (digits2_pos m) <= 24).
    { destruct (Z.le_gt_cases (Zpos (digits2_pos m)) 24) as [|G]; auto. exfalso.
      assert (2 ^ 24 <= 2 ^ (Zpos (digits2_pos m) - 1)) by (apply Z.pow_le_mono_r; lia). lia. }
    destruct Hc as [->|Hc]; [lia|].
    assert (24 <= Zpos (digits2_pos m)).
    { destruct (Z.le_gt_cases 24 (Zpos (digits2_pos m))) as [|G]; auto. exfalso.
      assert (2 ^ Zpos (digits2_pos m) <= 2 ^ 23) by (apply Z.pow_le_mono_r; lia). lia. }
    lia.
  - unfold emax32, prec32. lia.
Qed.

Lemma of_f32_correct : forall y, float32_ok y -> isfinite y = true ->
  float_ok (of_f32 y) /\ F2 (of_f32 y) = F2 y /\ isfinite (of_f32 y) = true
  /\ fsign (of_f32 y) = fsign y.
Proof.
  intros [s|s| |s m e] H F; try discriminate; cbn [of_f32].
  - repeat split.
  - destruct (bounded32 m e H) as (He & Hm & _).
    pose proof (normalize64 (cond_Zopp s (Zpos m)) e s) as [C0 C]. cbv zeta in C.
    split; [exact C0|]. rewrite F2_finite.
    assert (G : generic_format radix2 fexp64 (F2R (Float radix2 (cond_Zopp s (Zpos m)) e))).
    { apply generic_format_F2R. intro NZ. unfold cexp. rewrite mag_F2R_Zdigits by exact NZ.
      assert (Digits.Zdigits radix2 (cond_Zopp s (Zpos m)) <= 24).
      { apply Digits.Zdigits_le_Zpower. destruct s; cbn [cond_Zopp]; change (radix2 : Z) with 2; lia. }
      unfold SpecFloat.fexp, emin, prec64, emax64. lia. }
    rewrite round_generic in C; [|apply valid_rnd_N|exact G].
    rewrite Rlt_bool_true in C.
    + destruct C as (C1 & C2 & C3). rewrite sign_finite in C3. auto.
    + rewrite <- F2R_Zabs. apply Rlt_trans with (bpow radix2 (24 + e)).
      * rewrite bpow_plus. unfold F2R. cbn [Fnum Fexp].
        apply Rmult_lt_compat_r; [apply bpow_gt_0|].
        rewrite <- IZR_Zpower by lia. apply IZR_lt. change (radix2 : Z) with 2.
        destruct s; cbn [cond_Zopp]; lia.
      * apply bpow_lt. unfold emax64. lia.
Qed.

Lemma of_f32_ok : forall y, float32_ok y -> float_ok (of_f32 y).
Proof.
  intros y H. destruct (isfinite y) eqn:F.
  - apply of_f32_correct; auto.
  - destruct y; try discriminate; reflexivity.
Qed.

(** Bits. *)
Lemma bits_range : forall y, float32_ok y -> 0 <= bits_of_f32 y < 2 ^ 32.
Proof.
  intros [s|s| |s m e] H; cbn [bits_of_f32]; try (destruct s; lia); try lia.
  destruct (bounded32 m e H) as (He & Hm & Hc).
  destruct (Z.ltb_spec (Zpos m) (2 ^ 23)); destruct s; lia.
Qed.

Lemma bits_split : forall (s : bool) ex m, 0 <= ex < 256 -> 0 <= m < 2 ^ 23 ->
  let b := (if s then 2 ^ 31 else 0) + (ex * 2 ^ 23 + m) in
  (2 ^ 31 <=? b mod 2 ^ 32) = s /\ (b / 2 ^ 23) mod 256 = ex /\ b mod 2 ^ 23 = m.
Proof.
  intros s ex m He Hm b. subst b.
  assert (M : forall k, 0 <= k -> ((k * 256 + ex) * 2 ^ 23 + m) / 2 ^ 23 = k * 256 + ex
             /\ ((k * 256 + ex) * 2 ^ 23 + m) mod 2 ^ 23 = m).
  { intros k Hk. split.
    - rewrite Z.add_comm, Z.div_add by lia. rewrite Z.div_small by lia. lia.
    - rewrite Z.add_comm, Z.mod_add by lia. apply Z.mod_small. lia. }
  destruct s.
  - destruct (M 1 ltac:(lia)) as [M1 M2].
    replace (2 ^ 31 + (ex * 2 ^ 23 + m)) with ((1 * 256 + ex) * 2 ^ 23 + m) by lia.
    rewrite M1, M2. rewrite (Z.mod_small _ (2 ^ 32)) by lia.
    repeat split; [apply Z.leb_le; lia|].
    replace (1 * 256 + ex) with (ex + 1 * 256) by lia. rewrite Z.mod_add by lia.
    apply Z.mod_small. lia.
  - destruct (M 0 ltac:(lia)) as [M1 M2].
    replace (0 + (ex * 2 ^ 23 + m)) with ((0 * 256 + ex) * 2 ^ 23 + m) by lia.
    rewrite M1, M2. rewrite (Z.mod_small _ (2 ^ 32)) by lia.
    repeat split; [apply Z.leb_gt; lia|].
    replace (0 * 256 + ex) with ex by lia. apply Z.mod_small. lia.
Qed.

Lemma f32_bits : forall y, float32_ok y -> f32_of_bits (bits_of_f32 y) = y.
Proof.
  intros [s|s| |s m e] H; cbn [bits_of_f32].
  - destruct s; vm_compute; reflexivity.
  - destruct s; vm_compute; reflexivity.
  - vm_compute; reflexivity.
  - destruct (bounded32 m e H) as (He & Hm & Hc). unfold f32_of_bits.
    destruct (Z.ltb_spec (Zpos m) (2 ^ 23)).
    + destruct (bits_split s 0 (Zpos m)) as (B1 & B2 & B3); try lia.
      replace ((if s then 2 ^ 31 else 0) + (0 * 2 ^ 23 + Zpos m))
        with ((if s then 2 ^ 31 else 0) + Zpos m) in * by lia.
      rewrite B1, B2, B3. cbn [Z.eqb]. f_equal. lia.
    + destruct (bits_split s (e + 150) (Zpos m - 2 ^ 23)) as (B1 & B2 & B3); try lia.
      rewrite B1, B2, B3.
      replace (e + 150 =? 255) with false by (symmetry; apply Z.eqb_neq; lia).
      replace (e + 150 =? 0) with false by (symmetry; apply Z.eqb_neq; lia).
      replace (Zpos m - 2 ^ 23 + 2 ^ 23) with (Zpos m) by lia.
      f_equal. lia.
Qed.

Lemma f32_of_bits_ok : forall b, float32_ok (f32_of_bits b).
Proof.
  intro b. unfold f32_of_bits.
  set (s := _ <=? _). set (ex := (b / 2 ^ 23) mod 256). set (m := b mod 2 ^ 23).
  assert (0 <= ex < 256) by (apply Z.mod_pos_bound; lia).
  assert (0 <= m < 2 ^ 23) by (apply Z.mod_pos_bound; lia).
  destruct (Z.eqb_spec ex 255).
  - destruct (m =? 0); reflexivity.
  - destruct (Z.eqb_spec ex 0).
    + destruct m as [|p|p] eqn:E; try reflexivity. apply bounded32_conv; lia.
    + destruct (m + 2 ^ 23) as [|p|p] eqn:E; try reflexivity. apply bounded32_conv; lia.
Qed.

Lemma unpack_f32_ok : forall b, float_ok (unpack_f32 b).
Proof. intro b. unfold unpack_f32. apply of_f32_ok. apply f32_of_bits_ok. Qed.

(** Packing, when it does not overflow. *)
Lemma pack_f32_spec : forall x,
  (isinf (to_f32 x) && negb (isinf x) = true /\ pack_f32 x = Raise OverflowError) \/
  (isinf (to_f32 x) && negb (isinf x) = false /\
   pack_f32 x = Ok (le_bytes 4 (bits_of_f32 (to_f32 x)))).
Proof. intro x. unfold pack_f32. destruct (_ && _); auto. Qed.

Lemma le_value_bits : forall x, le_value (le_bytes 4 (bits_of_f32 (to_f32 x))) = bits_of_f32 (to_f32 x).
Proof.
  intro x. rewrite le_value_bytes. apply Z.mod_small. change (8 * Z.of_nat 4) with 32.
  apply bits_range. apply to_f32_ok.
Qed.

Lemma spec_value_f32 : forall x,
  spec_value F32 (le_bytes 4 (bits_of_f32 (to_f32 x))) = PFloat (to_f32 x).
Proof.
  intro x. unfold spec_value. rewrite le_value_bits, f32_bits by apply to_f32_ok. reflexivity.
Qed.

(** Where the binary32 conversion of a finite number overflows: from half
    way between the largest binary32 and 2^128 on. *)
Definition f32_limit : R := (bpow radix2 128 - bpow radix2 103)%R.

Lemma F2R_shift : forall m e e', e' <= e ->
  F2R (Float radix2 m e) = F2R (Float radix2 (m * 2 ^ (e - e')) e').
Proof.
  intros m e e' H. unfold F2R. cbn [Fnum Fexp]. rewrite mult_IZR.
  change 2 with (radix_val radix2). rewrite IZR_Zpower by lia.
  rewrite Rmult_assoc, <- bpow_plus. do 2 f_equal. lia.
Qed.

Lemma limit_rounds : (bpow radix2 128 <= rnd32 f32_limit)%R.
Proof.
  pose proof (normalize32 (2 ^ 25 - 1) 103 false) as [_ C]. cbv zeta in C.
  replace (F2R (Float radix2 (2 ^ 25 - 1) 103)) with f32_limit in C.
  - destruct (Rlt_bool_spec (Rabs (rnd32 f32_limit)) (bpow radix2 emax32)) as [L|L].
    + destruct C as (_ & C & _). vm_compute in C. discriminate.
    + rewrite Rabs_pos_eq in L; [exact L|].
      apply round_ge_generic; [apply fexp_correct; reflexivity|apply valid_rnd_N|apply generic_format_0|].
      unfold f32_limit. pose proof (bpow_le radix2 103 128 ltac:(lia)). lra.
  - unfold f32_limit, F2R. cbn [Fnum Fexp]. rewrite minus_IZR.
    change 128 with (25 + 103)%Z. rewrite bpow_plus.
    replace (IZR (2 ^ 25)) with (bpow radix2 25); [ring|].
    rewrite <- IZR_Zpower by lia. reflexivity.
Qed.

Lemma max32_format : generic_format radix2 fexp32 (bpow radix2 128 - bpow radix2 104)%R.
Proof.
  replace (bpow radix2 128 - bpow radix2 104)%R with (F2R (Float radix2 (2 ^ 24 - 1) 104)).
  - apply generic_format_F2R. intro NZ. unfold cexp. rewrite mag_F2R_Zdigits by exact NZ.
    vm_compute. discriminate.
  - unfold F2R. cbn [Fnum Fexp]. rewrite minus_IZR.
    change 128 with (24 + 104)%Z. rewrite bpow_plus.
    replace (IZR (2 ^ 24)) with (bpow radix2 24); [ring|].
    rewrite <- IZR_Zpower by lia. reflexivity.
Qed.

Lemma emax32_format : generic_format radix2 fexp32 (bpow radix2 128).
Proof. apply generic_format_bpow. vm_compute. discriminate. Qed.

Lemma rnd32_pos_lt : forall x, (0 <= x)%R ->
  (rnd32 x < bpow radix2 128)%R <-> (x < f32_limit)%R.
Proof.
  intros x Hx. split; intro H.
  - destruct (Rlt_or_le x f32_limit) as [|G]; auto. exfalso.
    assert (rnd32 f32_limit <= rnd32 x)%R.
    { apply round_le; [apply fexp_correct; reflexivity|apply valid_rnd_N|exact G]. }
    pose proof limit_rounds. lra.
  - assert (P : bpow radix2 104 = (2 * bpow radix2 103)%R).
    { change 104 with (1 + 103). rewrite bpow_plus. reflexivity. }
    assert (P128 : (bpow radix2 104 < bpow radix2 128)%R) by (apply bpow_lt; lia).
    assert (P103 : (0 < bpow radix2 103)%R) by apply bpow_gt_0.
    unfold f32_limit in H.
    destruct (Rle_or_lt x (bpow radix2 128 - bpow radix2 104)) as [L|L].
    + apply Rle_lt_trans with (bpow radix2 128 - bpow radix2 104)%R; [|lra].
      apply round_le_generic; [apply fexp_correct; reflexivity|apply valid_rnd_N
                              |apply max32_format|exact L].
    + assert (LE : (rnd32 x <= bpow radix2 128)%R).
      { apply round_le_generic; [apply fexp_correct; reflexivity|apply valid_rnd_N
                                |apply emax32_format|lra]. }
      destruct (Req_dec (rnd32 x) (bpow radix2 128)) as [E|NE]; [|lra]. exfalso.
      assert (N : Rnd_N_pt (generic_format radix2 fexp32) x (rnd32 x))
        by (apply round_N_pt; apply fexp_correct; reflexivity).
      destruct N as [_ N].
      specialize (N _ max32_format). rewrite E in N.
      rewrite (Rabs_pos_eq (bpow radix2 128 - x)) in N by lra.
      rewrite (Rabs_left1 (_ - x)) in N by lra. lra.
Qed.

Lemma f32_overflow_iff : forall x, isfinite x = true ->
  isinf (to_f32 x) = true <-> (f32_limit <= Rabs (F2 x))%R.
Proof.
  intros x F. pose proof (to_f32_correct x F) as C.
  assert (A : Rabs (rnd32 (F2 x)) = rnd32 (Rabs (F2 x))).
  { symmetry. apply round_NE_abs. apply fexp_correct; reflexivity. }
  rewrite A in C.
  pose proof (rnd32_pos_lt (Rabs (F2 x)) (Rabs_pos _)) as R. change (bpow radix2 emax32) with (bpow radix2 128) in C.
  destruct (Rlt_bool_spec (rnd32 (Rabs (F2 x))) (bpow radix2 128)) as [L|L].
  - destruct C as (_ & C & _). apply R in L. split; intro H.
    + destruct (to_f32 x); discriminate.
    + lra.
  - rewrite C. split; auto. intros _.
    destruct (Rlt_or_le (Rabs (F2 x)) f32_limit) as [G|]; auto. apply R in G. lra.
Qed.

(** ** saturate *)

Definition int_res (r : resolution) : Prop := r = INT8 \/ r = INT16 \/ r = INT32.

Lemma int_max_spec : forall r, int_res r -> int_max r = spec_max r /\ 127 <= spec_max r < 2 ^ 31.
Proof. intros r [->|[->| ->]]; vm_compute; repeat split; discriminate || reflexivity. Qed.

Lemma Ztrunc_bounds : forall x m, 0 <= m -> (- IZR m <= x <= IZR m)%R -> - m <= Ztrunc x <= m.
Proof.
  intros x m Hm [H1 H2]. split.
  - rewrite <- (Ztrunc_IZR (- m)). apply Ztrunc_le. rewrite opp_IZR. exact H1.
  - rewrite <- (Ztrunc_IZR m). apply Ztrunc_le. exact H2.
Qed.

Lemma saturate_finite : forall x r s, int_res r -> float_ok x -> float_ok s ->
  isfinite x = true -> (0 < F2 s)%R ->
  (isfinite (fdiv x s) = true /\
   saturate x r s
   = Ok (PInt (Z.max (- spec_max r) (Z.min (spec_max r) (ftrunc (fdiv x s)))))) \/
  (exists b, fdiv x s = S754_infinity b /\
   saturate x r s = Ok (PInt (if b then - spec_max r else spec_max r))).
Proof.
  intros x r s Hr Hx Hs Fx Ps.
  destruct (int_max_spec r Hr) as [EM BM].
  assert (Hb : saturate x r s =
    if fltb (fdiv x s) (fneg (float_of_Z (int_max r))) then Ok (PInt (- int_max r))
    else if fgtb (fdiv x s) (float_of_Z (int_max r)) then Ok (PInt (int_max r))
    else bind (py_int (fdiv x s)) (fun z => Ok (PInt z))).
  { unfold saturate. rewrite Fx. destruct Hr as [->|[->| ->]]; reflexivity. }
  rewrite Hb. clear Hb. rewrite EM.
  destruct (float_of_Z_correct (spec_max r)) as [FM RM]; [lia|].
  pose proof (float_of_Z_ok (spec_max r)) as OM.
  pose proof (fdiv_correct x s Hx Hs Fx ltac:(lra)) as C.
  pose proof (fdiv_ok x s Hx Hs) as OQ.
  destruct (Rlt_bool _ _).
  - destruct C as (C1 & C2 & C3). set (q := fdiv x s) in *.
    left. split; auto. rewrite ftrunc_correct by exact C1.
    unfold fgtb. rewrite (fltb_correct q (fneg _)); auto.
    2:{ apply fneg_ok; auto. } 2:{ rewrite fneg_fin; auto. }
    change (SFltb (float_of_Z (spec_max r)) q) with (fltb (float_of_Z (spec_max r)) q).
    rewrite (fltb_correct _ q); auto. rewrite fneg_F2, RM.
    destruct (Rlt_bool_spec (F2 q) (- IZR (spec_max r))) as [L|L].
    + do 2 f_equal. assert (Ztrunc (F2 q) <= - spec_max r).
      { rewrite <- (Ztrunc_IZR (- spec_max r)). apply Ztrunc_le. rewrite opp_IZR. lra. }
      lia.
    + destruct (Rlt_bool_spec (IZR (spec_max r)) (F2 q)) as [G|G].
      * do 2 f_equal. assert (spec_max r <= Ztrunc (F2 q)).
        { rewrite <- (Ztrunc_IZR (spec_max r)). apply Ztrunc_le. lra. }
        lia.
      * assert (P : py_int q = Ok (ftrunc q)) by (destruct q; auto; discriminate).
        rewrite P. cbn [bind]. rewrite ftrunc_correct by exact C1. do 2 f_equal.
        pose proof (Ztrunc_bounds (F2 q) (spec_max r) ltac:(lia) (conj L G)). lia.
  - right. eexists. split; [exact C|]. rewrite C.
    destruct (float_of_Z (spec_max r)) as [a|a| |a m e] eqn:EF; try discriminate;
      destruct (xorb (fsign x) (fsign s)); cbn; destruct a; reflexivity || discriminate.
Qed.

(** The value written for an integer resolution is the documented one. *)
Lemma saturate_spec : forall x r s, int_res r -> float_ok x -> float_ok s ->
  (0 < F2 s)%R -> saturate x r s = Ok (spec_quantise x r s).
Proof.
  intros x r s Hr Hx Hs Ps. destruct (isfinite x) eqn:Fx.
  - unfold spec_quantise. rewrite Fx.
    destruct (saturate_finite x r s Hr Hx Hs Fx Ps) as [[F ->]|(b & E & ->)].
    + destruct Hr as [->|[->| ->]]; destruct (fdiv x s) as [b|b| |b m e];
        try discriminate; reflexivity.
    + rewrite E. destruct Hr as [->|[->| ->]]; destruct b; reflexivity.
  - unfold saturate, spec_quantise. rewrite Fx. cbn [negb].
    destruct Hr as [->|[->| ->]]; reflexivity.
Qed.

Lemma saturate_F32 : forall x, float_ok x -> saturate x F32 (flit 1 0) = Ok (PFloat x).
Proof.
  intros x Hx. unfold saturate. destruct (isfinite x) eqn:F; cbn [negb]; auto.
  rewrite fdiv_1 by auto. reflexivity.
Qed.

(** Bytes of a mapped value; [q] the value on the wire. *)
Lemma quantise_in_range : forall x r s, int_res r -> exists z, spec_quantise x r s = PInt z /\
  in_range (int_width r) z /\ - spec_max r - 1 <= z <= spec_max r.
Proof.
  intros x r s Hr.
  assert (B : exists z, spec_quantise x r s = PInt z /\ - spec_max r - 1 <= z <= spec_max r).
  { destruct (int_max_spec r Hr) as [_ BM]. unfold spec_quantise.
    destruct Hr as [->|[->| ->]]; (eexists; split; [reflexivity|]);
      destruct (isfinite x); try lia; destruct (fdiv x s) as [b|b| |b m e]; try lia;
      destruct b; lia. }
  destruct B as (z & E & Hz). exists z. repeat split; auto;
    destruct Hr as [->|[->| ->]]; cbn [int_width spec_max] in *;
    unfold in_range; cbn [Z.of_nat Z.mul Z.sub] in *; cbn; cbn in Hz; lia.
Qed.

Lemma spec_value_int : forall r z, int_res r -> in_range (int_width r) z ->
  spec_value r (le_bytes (int_width r) z) = PInt z.
Proof.
  intros r z Hr Hz.
  pose proof (signed_bytes (int_width r) z
    ltac:(destruct Hr as [->|[->| ->]]; cbn; lia) Hz) as S.
  unfold unpack_int in S.
  destruct Hr as [->|[->| ->]]; cbn [int_width spec_value] in *; unfold spec_signed;
    f_equal; exact S.
Qed.

(** write_mapped: the bytes written are the encoding of the documented
    value, or F32 overflow. *)
Lemma write_mapped_int : forall w x sc r, int_res r -> float_ok x ->
  float_ok (scale_at sc r) -> (0 < F2 (scale_at sc r))%R ->
  exists b, write_mapped w x sc r = Ok (w ++ b) /\ length b = spec_width r /\
    bytes_ok b /\ spec_value r b = spec_quantise x r (scale_at sc r).
Proof.
  intros w x sc r Hr Hx Hs Ps.
  destruct (quantise_in_range x r (scale_at sc r) Hr) as (z & E & Hz & _).
  exists (le_bytes (int_width r) z). repeat split.
  - assert (W : write_mapped w x sc r =
      bind (saturate x r (scale_at sc r)) (fun v => w_write w v r))
      by (destruct Hr as [->|[->| ->]]; reflexivity).
    rewrite W, saturate_spec by auto. cbn [bind]. rewrite E. unfold w_write.
    assert (P : pack r (PInt z) = pack_int (int_width r) z)
      by (destruct Hr as [->|[->| ->]]; reflexivity).
    rewrite P, pack_int_ok by auto. reflexivity.
  - rewrite le_bytes_length. destruct Hr as [->|[->| ->]]; reflexivity.
  - apply le_bytes_ok.
  - rewrite E. apply spec_value_int; auto.
Qed.

Lemma write_mapped_f32 : forall w x sc, float_ok x ->
  write_mapped w x sc F32 =
  if isinf (to_f32 x) && negb (isinf x) then Raise OverflowError
  else Ok (w ++ le_bytes 4 (bits_of_f32 (to_f32 x))).
Proof.
  intros w x sc Hx. unfold write_mapped. cbn [scale_at]. rewrite saturate_F32 by auto.
  cbn [bind]. unfold w_write, pack, pack_f32. destruct (_ && _); reflexivity.
Qed.
