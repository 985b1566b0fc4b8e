(** Lemmas about the model of encoder calibration. *)
From Coq Require Import ZArith List Bool Lia Reals Lra Psatz Ratan Machin.
From Coq Require Import Sorting.Sorted Sorting.Permutation ZifyBool ZifyNat.
From Flocq Require Import Core.
From Verif Require Import PyBase PyBytes PyFloat Tool_Model Calib_Model Encoder_Model Encoder_Spec Props_Angle Props_Fit.
Import ListNotations.
Open Scope Z_scope.
Ltac Zify.zify_post_hook ::= Z.div_mod_to_equations.

Lemma PI_upper : (PI <= 3.1417)%R.
Proof.
  pose proof (PI_2_3_7_ineq 2) as [A B].
  unfold sum_f_R0, tg_alt, PI_2_3_7_tg, Ratan_seq in *. cbn -[INR IZR Rdiv Rmult] in B.
  unfold pow in B. cbn [INR] in B. lra.
Qed.

Lemma Ok_inj' {A} (a b : A) : Ok a = Ok b -> a = b.
Proof. now injection 1. Qed.

(** ** Steps of a counter of 16 bits *)
Lemma wrap_int16_true d x : -32768 < d < 32768 -> x mod 65536 = d mod 65536 -> wrap_int16 x = Ok d.
Proof. intros H E. destruct (C43_int16 x) as (r & -> & B & M). f_equal. lia. Qed.

Lemma total_steps_true l : forall l', Forall2 (fun t x => x mod 65536 = t mod 65536) l l' -> steps_small l ->
  total_steps l' = Ok (last l 0 - hd 0 l).
Proof.
  induction l as [|a l IH]; intros l' F S; inversion F as [|? a' ? t Ha F']; subst; clear F.
  - reflexivity.
  - destruct l as [|b l].
    + inversion F'; subst. cbn. f_equal. lia.
    + inversion F' as [|? b' ? t' Hb F'']; subst. destruct S as [S1 S2].
      change (total_steps (a' :: b' :: t')) with
        (let* d := wrap_int16 (b' - a') in let* s := total_steps (b' :: t') in Ok (d + s)).
      rewrite (wrap_int16_true (b - a)) by (try lia; rewrite Zminus_mod, Hb, Ha, <- Zminus_mod; reflexivity).
      cbn [bind]. rewrite (IH (b' :: t')) by auto. cbn [bind]. f_equal.
      change (last (a :: b :: l) 0) with (last (b :: l) 0). cbn [hd]. lia.
Qed.

(** ** Sorting *)
Definition enc_le {T} (a b : entry T) : Prop := e_encoder a <= e_encoder b.

Lemma insert_entry_perm {T} (e : entry T) l : Permutation (e :: l) (insert_entry e l).
Proof.
  induction l as [|f l IH]; cbn [insert_entry]; auto. destruct (_ <? _); auto.
  rewrite perm_swap. auto.
Qed.

Lemma insert_entry_sorted {T} (e : entry T) l : StronglySorted enc_le l -> StronglySorted enc_le (insert_entry e l).
Proof.
  induction l as [|f l IH]; intros H; cbn [insert_entry]; [repeat constructor|].
  inversion H as [|? ? S F]; subst. destruct (Z.ltb_spec (e_encoder e) (e_encoder f)).
  - constructor; auto. constructor; [unfold enc_le; lia|]. eapply Forall_impl; [|exact F].
    unfold enc_le. intros. lia.
  - constructor; auto. apply (Permutation_Forall (insert_entry_perm e l)). constructor; auto.
Qed.

Lemma sort_entries_spec {T} (l : list (entry T)) :
  Permutation l (sort_entries l) /\ StronglySorted enc_le (sort_entries l).
Proof.
  unfold sort_entries.
  assert (H : forall (l acc : list (entry T)), StronglySorted enc_le acc ->
    Permutation (acc ++ l) (fold_left (fun a e => insert_entry e a) l acc) /\
    StronglySorted enc_le (fold_left (fun a e => insert_entry e a) l acc)).
  { clear. induction l as [|e l IH]; intros acc S; cbn [fold_left].
    - rewrite app_nil_r. auto.
    - destruct (IH (insert_entry e acc)) as [A B]; [now apply insert_entry_sorted|]. split; auto.
      rewrite <- A. rewrite <- insert_entry_perm. cbn [app]. symmetry. apply Permutation_middle. }
  apply (H l []). constructor.
Qed.

(** ** Rounding *)
Lemma real_round_near x : (Rabs (x - IZR (real_round x)) <= 1 / 2)%R.
Proof.
  unfold real_round. destruct (archimed x) as [A B]. set (q := up x) in *.
  assert (E1 : IZR (q - 1) = (IZR q - 1)%R) by now rewrite minus_IZR.
  assert (E2 : IZR (q - 1 + 1) = IZR q) by (f_equal; lia).
  destruct (Rltb_spec (x - IZR (q - 1)) (1 / 2)); [apply Rabs_le; lra|].
  destruct (Rltb_spec (1 / 2) (x - IZR (q - 1))); [rewrite E2; apply Rabs_le; lra|].
  destruct (Z.even _); rewrite ?E2; apply Rabs_le; lra.
Qed.

Lemma real_round_unique x n : (Rabs (x - IZR n) < 1 / 2)%R -> real_round x = n.
Proof.
  intros H. pose proof (real_round_near x) as G.
  apply Rabs_def2 in H. apply Rabs_le_inv in G.
  assert (L : (-1 < IZR (real_round x - n) < 1)%R) by (rewrite minus_IZR; lra).
  destruct L as [L1 L2]. apply (lt_IZR (-1)) in L1. apply (lt_IZR _ 1) in L2. lia.
Qed.

Lemma real_trunc_div a b : 0 <= a -> 0 < b -> real_trunc (IZR a / IZR b) = a / b.
Proof.
  intros Ha Hb. unfold real_trunc.
  assert (B : (0 < IZR b)%R) by now apply IZR_lt.
  assert (A : (0 <= IZR a)%R) by now apply IZR_le.
  assert (Q : (0 <= IZR a / IZR b)%R) by (apply Rle_mult_inv_pos; auto).
  destruct (Rltb_spec (IZR a / IZR b) 0); [lra|].
  destruct (archimed (IZR a / IZR b)) as [U V].
  assert (M : IZR a = (IZR b * IZR (a / b) + IZR (a mod b))%R) by (rewrite <- mult_IZR, <- plus_IZR; f_equal; lia).
  assert (M1 : (0 <= IZR (a mod b))%R) by (apply IZR_le; lia).
  assert (M2 : (IZR (a mod b) < IZR b)%R) by (apply IZR_lt; lia).
  assert (E : (IZR a / IZR b = IZR (a / b) + IZR (a mod b) / IZR b)%R) by (rewrite M; field; lra).
  assert (F0 : (0 <= IZR (a mod b) / IZR b)%R) by (apply Rle_mult_inv_pos; auto).
  assert (F1 : (IZR (a mod b) / IZR b < 1)%R).
  { apply Rmult_lt_reg_r with (IZR b); auto. field_simplify; lra. }
  assert (C1 : a / b < up (IZR a / IZR b)) by (apply lt_IZR; lra).
  assert (C2 : up (IZR a / IZR b) < a / b + 2) by (apply lt_IZR; rewrite plus_IZR; lra).
  lia.
Qed.

(** ** The back part over the real numbers *)
Definition sc : R := (2 * PI / 65536)%R.
Lemma sc_pos : (0 < sc)%R.
Proof. unfold sc. pose proof PI_RGT_0. lra. Qed.
Lemma sc_turn : (sc * 65536 = 2 * PI)%R.
Proof. unfold sc. field. Qed.
Lemma phase_scale_real : phase_scale real_arith = Ok sc.
Proof. unfold phase_scale. cbn [a_div a_mul a_of_Z a_pi real_arith]. destruct (Req_EM_T 65536 0); [lra|reflexivity]. Qed.

(** The phase of a sample is that of the line n x + c, up to whole turns and eps. *)
Definition near (n : Z) (c eps : R) (e : entry R) : Prop :=
  exists Q : Z, (Q - e_phase e) mod 65536 = 0 /\
    (Rabs (IZR Q - (IZR n * IZR (e_encoder e) + c)) <= eps)%R.

Definition in_range (e : entry R) : Prop := 0 <= e_encoder e <= 65535.

Fixpoint gaps (g : Z) (l : list Z) : Prop :=
  match l with
  | a :: ((b :: _) as l') => 0 <= b - a <= g /\ gaps g l'
  | _ => True
  end.

Lemma sorted_gaps g l : StronglySorted Z.le l -> Forall (fun x => 0 <= x <= 65535) l -> covers g l -> 0 <= g <= 65535 ->
  gaps (g + 1) l /\ hd 0 l <= g /\ 65535 - g <= last l 0 /\ l <> [].
Proof.
  intros S F C G.
  assert (NE : l <> []) by (destruct (C 0) as (e & I & _); [lia..|]; intros ->; destruct I).
  assert (P1 : forall pre l', l = pre ++ l' -> gaps (g + 1) l').
  { intros pre l' E. revert pre E. induction l' as [|a [|b l'] IH]; intros pre E; cbn [gaps]; auto. split.
    2:{ apply (IH (pre ++ [a])). rewrite <- app_assoc. exact E. }
    assert (S' : StronglySorted Z.le (a :: b :: l')).
    { rewrite E in S. clear -S. induction pre as [|x pre IH]; auto. inversion S; auto. }
    assert (F' : Forall (fun x => 0 <= x <= 65535) (a :: b :: l')).
    { rewrite E in F. apply Forall_app in F. tauto. }
    assert (Sp : forall x, In x pre -> x <= a).
    { rewrite E in S. clear -S. induction pre as [|x pre IH]; intros y; [intros []|].
      inversion S as [|? ? S1 F1]; subst. intros [->|I]; [|now apply IH].
      rewrite Forall_forall in F1. apply F1. apply in_or_app. right. left. reflexivity. }
    inversion S' as [|? ? S1 F1]; subst. inversion S1 as [|? ? S2 F2]; subst.
    inversion F1; subst. inversion F' as [|? ? Ba F'1]; subst. inversion F'1 as [|? ? Bb _]; subst.
    split; [lia|]. destruct (Z.le_gt_cases (b - a) (g + 1)) as [|Gt]; auto. exfalso.
    destruct (C (a + 1)) as (e & I & Be); [lia..|]. apply in_app_or in I. destruct I as [I|[I|[I|I]]]; [| | |].
    - apply Sp in I. lia.
    - lia.
    - lia.
    - rewrite Forall_forall in F2. apply F2 in I. lia. }
  split; [now apply (P1 [])|]. split; [|split; auto].
  - destruct l as [|a l]; [congruence|]. destruct (C 0) as (e & I & Be); [lia..|].
    inversion S as [|? ? S1 F1]; subst. cbn [hd]. destruct I as [<-|I]; [lia|].
    rewrite Forall_forall in F1. apply F1 in I. lia.
  - destruct (exists_last NE) as (pre & z & ->). rewrite last_last.
    destruct (C (65535 - g)) as (e & I & Be); [lia..|]. apply in_app_or in I. destruct I as [I|[<-|[]]]; [|lia].
    assert (Sp : forall x, In x pre -> x <= z).
    { clear -S. induction pre as [|x pre IH]; intros y; [intros []|].
      inversion S as [|? ? S1 F1]; subst. intros [->|I]; [|now apply IH].
      rewrite Forall_forall in F1. apply F1. apply in_or_app. right. left. reflexivity. }
    apply Sp in I. lia.
Qed.

Definition at_turn (n : Z) (c eps : R) (e : entry R) (Q : Z) : Prop :=
  (Q - e_phase e) mod 65536 = 0 /\ (Rabs (IZR Q - (IZR n * IZR (e_encoder e) + c)) <= eps)%R.

Lemma near_list n c eps l : Forall (near n c eps) l -> exists qs, Forall2 (at_turn n c eps) l qs.
Proof.
  induction 1 as [|e l (Q & H) _ (qs & IH)]; [exists []; constructor|]. exists (Q :: qs). constructor; auto.
Qed.

(** Unwrapping the phases sorted by encoder. *)
Lemma unwrap_line n c eps g l : 1 <= n -> (IZR n * IZR (g + 1) + 2 * eps < 32768)%R ->
  gaps (g + 1) (map e_encoder l) -> Forall (near n c eps) l -> l <> [] ->
  exists (k : Z) ys, unwrap real_arith (map (fun e => sc * IZR (e_phase e))%R l) = Ok ys /\
    Forall2 (fun e y => (Rabs (y - sc * (IZR n * IZR (e_encoder e) + c + 65536 * IZR k)) <= sc * eps)%R) l ys /\
    exists Q0 e0, hd_error l = Some e0 /\ e_phase e0 = Q0 + 65536 * k /\
      (Rabs (IZR Q0 - (IZR n * IZR (e_encoder e0) + c)) <= eps)%R.
Proof.
  intros Hn Hs G F NE. destruct (near_list _ _ _ _ F) as (qs & Q). pose proof sc_pos as SP.
  destruct l as [|e0 l]; [congruence|]. inversion Q as [|? Q0 ? qs' [M0 B0] Q']; subst.
  set (k := (e_phase e0 - Q0) / 65536).
  assert (K : e_phase e0 = Q0 + 65536 * k) by (unfold k; lia).
  exists k, (map (fun q => sc * (IZR q + 65536 * IZR k))%R (Q0 :: qs')). split; [|split].
  - apply C38_recovers.
    + cbn [map hd_error]. do 2 f_equal. rewrite K, plus_IZR, mult_IZR. ring.
    + assert (SA : forall l qs, Forall2 (at_turn n c eps) l qs ->
        same_angles (map (fun e => sc * IZR (e_phase e))%R l) (map (fun q => sc * (IZR q + 65536 * IZR k))%R qs)).
      { clear. induction 1 as [|e q l qs [M _] _ IH]; [constructor|]. cbn [map]. constructor; auto.
        exists ((e_phase e - q) / 65536 - k). rewrite <- sc_turn.
        assert (E : e_phase e = q + 65536 * ((e_phase e - q) / 65536)) by lia. rewrite E at 1.
        rewrite plus_IZR, mult_IZR, minus_IZR. ring. }
      now apply SA.
    + assert (ST : forall l qs, gaps (g + 1) (map e_encoder l) -> Forall2 (at_turn n c eps) l qs ->
        steps_below PI (map (fun q => sc * (IZR q + 65536 * IZR k))%R qs)).
      { clear -Hs SP Hn. induction l as [|e [|e' l] IH]; intros qs G F.
        - inversion F; subst. exact I.
        - inversion F as [|? q ? qs0 _ F']; subst. inversion F'; subst. exact I.
        - inversion F as [|? q ? qs0 [_ B] F']; subst. inversion F' as [|? q' ? qs1 [_ B'] F'']; subst.
          destruct G as [G1 G2]. split; [|now apply (IH (q' :: qs1))].
          apply Rabs_le_inv in B, B'.
          assert (E : (IZR (e_encoder e') - IZR (e_encoder e) <= IZR (g + 1))%R) by (rewrite <- minus_IZR; apply IZR_le; lia).
          assert (E0 : (0 <= IZR (e_encoder e') - IZR (e_encoder e))%R) by (rewrite <- minus_IZR; apply IZR_le; lia).
          assert (N1 : (1 <= IZR n)%R) by now apply IZR_le.
          replace (sc * (IZR q' + 65536 * IZR k) - sc * (IZR q + 65536 * IZR k))%R with (sc * (IZR q' - IZR q))%R by ring.
          rewrite Rabs_mult, (Rabs_pos_eq sc) by lra.
          assert (Rabs (IZR q' - IZR q) < 32768)%R by (apply Rabs_def1; nra).
          replace PI with (sc * 32768)%R by (unfold sc; field). nra. }
      now apply (ST (e0 :: l)).
  - clear -Q SP. induction Q as [|e q es qs [_ B] _ IH]; [constructor|]. cbn [map]. constructor; auto.
    replace (sc * (IZR q + 65536 * IZR k) - sc * (IZR n * IZR (e_encoder e) + c + 65536 * IZR k))%R
      with (sc * (IZR q - (IZR n * IZR (e_encoder e) + c)))%R by ring.
    rewrite Rabs_mult, (Rabs_pos_eq sc) by lra. apply Rmult_le_compat_l; lra.
  - exists Q0, e0. auto.
Qed.

(** A polyline whose corners are close to a line is close to it, but for the
    level ends. *)
Lemma polyline_line a b d w lo hi x y p v : (0 <= a)%R -> (0 <= w)%R -> (0 <= d)%R ->
  Forall2 (fun x y => (Rabs (y - (a * x + b)) <= d)%R) x y ->
  (lo <= p <= hi)%R -> (forall x0, nth_error x 0 = Some x0 -> (x0 <= lo + w)%R) ->
  (forall x1, nth_error x (length x - 1) = Some x1 -> (hi - w <= x1)%R) ->
  on_polyline x y p v -> (Rabs (v - (a * p + b)) <= d + a * w)%R.
Proof.
  intros Ha Hw Hd F P L H (i & x0 & x1 & y0 & y1 & X0 & X1 & Y0 & Y1 & V).
  assert (NB : forall i x0 y0, nth_error x i = Some x0 -> nth_error y i = Some y0 -> (Rabs (y0 - (a * x0 + b)) <= d)%R).
  { clear -F. induction F as [|u v x y Huv F IH]; intros [|i] x0 y0; cbn; try discriminate; eauto; congruence. }
  pose proof (NB _ _ _ X0 Y0) as B0. pose proof (NB _ _ _ X1 Y1) as B1.
  apply Rabs_le_inv in B0, B1. apply Rabs_le.
  assert (AW : (0 <= a * w)%R) by nra.
  destruct V as [(-> & Lt & ->)|[(E & Lt & ->)|[(R & N & ->)|(E1 & E2 & ->)]]].
  - specialize (L _ X0). assert (0 <= a * (x0 - p) <= a * w)%R by (split; nra). lra.
  - replace (length x - 1)%nat with (S i) in H by lia. specialize (H _ X1).
    assert (0 <= a * (p - x1) <= a * w)%R by (split; nra). lra.
  - assert (T : (0 <= (p - x0) / (x1 - x0) <= 1)%R).
    { split; [apply Rle_mult_inv_pos; lra|]. apply Rmult_le_reg_r with (x1 - x0)%R; [lra|]. field_simplify; lra. }
    assert (E : ((p - x0) / (x1 - x0) * (x1 - x0) = p - x0)%R) by (field; lra).
    set (t := ((p - x0) / (x1 - x0))%R) in *.
    replace p with (x0 + t * (x1 - x0))%R by lra.
    replace (y0 + (y1 - y0) * t - (a * (x0 + t * (x1 - x0)) + b))%R
      with ((1 - t) * (y0 - (a * x0 + b)) + t * (y1 - (a * x1 + b)))%R by ring.
    assert ((1 - t) * - d + t * - d = - d)%R by ring. assert ((1 - t) * d + t * d = d)%R by ring. nra.
  - subst. lra.
Qed.

Lemma hd_nth {A} (l : list A) x0 d : nth_error l 0 = Some x0 -> hd d l = x0.
Proof. destruct l; cbn; congruence. Qed.
Lemma last_nth {A} (l : list A) x1 d : nth_error l (length l - 1) = Some x1 -> last l d = x1.
Proof.
  destruct l as [|a l]; [discriminate|]. assert (NE : a :: l <> []) by discriminate.
  destruct (exists_last NE) as (pre & z & ->). rewrite last_last, app_length. cbn [length].
  replace (length pre + 1 - 1)%nat with (length pre) by lia. rewrite nth_error_app2, Nat.sub_diag by lia. cbn. congruence.
Qed.

(** ** The sample points *)
Lemma nth_sorted (l : list R) : (forall i j a b, (i < j)%nat -> nth_error l i = Some a -> nth_error l j = Some b -> (a <= b)%R) ->
  StronglySorted Rle l.
Proof.
  induction l as [|x l IH]; intros H; constructor.
  - apply IH. intros i j a b L A B. apply (H (S i) (S j)); auto. lia.
  - apply Forall_forall. intros y I. apply In_nth_error in I. destruct I as (k & K). apply (H 0%nat (S k)); auto. lia.
Qed.

Lemma xpos_spec : exists xpos, linspace real_arith 0%R 65535%R 10000 = Ok xpos /\ Z.of_nat (length xpos) = 10000 /\
  StronglySorted Rle xpos /\ Forall (fun x => (0 <= x <= 65535)%R) xpos.
Proof.
  destruct (C40_linspace 0%R 65535%R 10000) as (l & E & L & N); [lia|]. exists l. split; auto. split; auto.
  assert (V : forall i a, nth_error l i = Some a -> 0 <= Z.of_nat i < 10000 /\ a = (IZR (Z.of_nat i) / 9999 * 65535)%R).
  { intros i a A. assert (I : (i < length l)%nat) by (apply nth_error_Some; congruence).
    assert (B : 0 <= Z.of_nat i < 10000) by lia. split; auto. specialize (N _ B). rewrite Nat2Z.id, A in N.
    injection N as ->. change (10000 - 1) with 9999. ring. }
  split.
  - apply nth_sorted. intros i j a b Lt A B. apply V in A, B. destruct A as [_ ->], B as [_ ->].
    assert (IZR (Z.of_nat i) <= IZR (Z.of_nat j))%R by (apply IZR_le; lia). lra.
  - apply Forall_forall. intros x I. apply In_nth_error in I. destruct I as (i & A). apply V in A. destruct A as [B ->].
    assert (0 <= IZR (Z.of_nat i))%R by (apply IZR_le; lia). assert (IZR (Z.of_nat i) <= 9999)%R by (apply IZR_le; lia). lra.
Qed.

(** ** The error curve *)
Definition close (K D : R) (l : list R) : Prop := Forall (fun x => (K - D <= x <= K + D)%R) l.

Lemma close_in K D l : close K D l -> forall x, In x l -> (K - D <= x <= K + D)%R.
Proof. intros H. now apply Forall_forall. Qed.

Lemma Forall2_length' {A B} (P : A -> B -> Prop) l l' : Forall2 P l l' -> length l = length l'.
Proof. induction 1; cbn; congruence. Qed.

Lemma interpolate_line n c eps g k (l : list (entry R)) ys xpos : 1 <= n -> 0 <= g -> (0 <= eps)%R -> (2 <= length l)%nat ->
  hd 0 (map e_encoder l) <= g -> 65535 - g <= last (map e_encoder l) 0 ->
  Forall2 (fun e y => (Rabs (y - sc * (IZR n * IZR (e_encoder e) + c + 65536 * IZR k)) <= sc * eps)%R) l ys ->
  StronglySorted Rle xpos -> Forall (fun x => (0 <= x <= 65535)%R) xpos ->
  exists vs, interpolate real_arith xpos (map (fun e => IZR (e_encoder e)) l) ys = Ok vs /\
    Forall2 (fun p v => (Rabs (v - (sc * IZR n * p + sc * (c + 65536 * IZR k))) <= sc * (eps + IZR n * IZR g))%R) xpos vs.
Proof.
  intros Hn Hg He L Hh Hl F Sx Bx. pose proof sc_pos as SP.
  assert (N1 : (1 <= IZR n)%R) by now apply IZR_le.
  assert (G0 : (0 <= IZR g)%R) by now apply IZR_le.
  assert (Ly : length (map (fun e => IZR (e_encoder e)) l) = length ys) by (rewrite map_length; eapply Forall2_length'; eauto).
  destruct (C40_interpolate xpos (map (fun e => IZR (e_encoder e)) l) ys) as (vs & E & P); auto.
  { now rewrite map_length. }
  exists vs. split; auto.
  assert (F' : Forall2 (fun x y => (Rabs (y - (sc * IZR n * x + sc * (c + 65536 * IZR k))) <= sc * eps)%R)
                       (map (fun e => IZR (e_encoder e)) l) ys).
  { clear -F. induction F as [|e y l ys H _ IH]; cbn [map]; constructor; auto.
    replace (sc * IZR n * IZR (e_encoder e) + sc * (c + 65536 * IZR k))%R
      with (sc * (IZR n * IZR (e_encoder e) + c + 65536 * IZR k))%R by ring. exact H. }
  clear E. induction P as [|p v ps vs H P IH]; [constructor|].
  inversion Bx as [|? ? Bp Bx']; subst. inversion Sx; subst. constructor; [|now apply IH].
  replace (sc * (eps + IZR n * IZR g))%R with (sc * eps + sc * IZR n * IZR g)%R by ring.
  eapply polyline_line with (lo := 0%R) (hi := 65535%R); eauto; try nra.
  - intros x0 N. rewrite nth_error_map in N. destruct l as [|e l]; [discriminate|]. cbn in N. injection N as <-.
    cbn [map hd] in Hh. apply IZR_le in Hh. lra.
  - intros x1 N. rewrite map_length in N. rewrite nth_error_map in N.
    destruct (nth_error l (length l - 1)) as [e|] eqn:En; [|discriminate]. injection N as <-.
    assert (En' : nth_error (map e_encoder l) (length (map e_encoder l) - 1) = Some (e_encoder e)).
    { rewrite map_length, nth_error_map, En. reflexivity. }
    rewrite (last_nth _ _ 0 En') in Hl. apply IZR_le in Hl. rewrite minus_IZR in Hl. lra.
Qed.

Lemma err_close n K D xpos : forall pu pd s, 
  Forall2 (fun p v => (Rabs (v - (s * IZR n * p + K)) <= D)%R) xpos pu ->
  Forall2 (fun p v => (Rabs (v - (s * IZR n * p + K)) <= D)%R) xpos pd ->
  let err := map (fun p => a_sub real_arith (fst p) (snd p))
    (combine (map (fun p => a_mul real_arith (c_lit real_ops 5 1) (a_add real_arith (fst p) (snd p))) (combine pu pd))
             (map (fun x => a_mul real_arith (a_mul real_arith s (IZR n)) x) xpos)) in
  length err = length xpos /\ close K D err.
Proof.
  induction xpos as [|p xpos IH]; intros pu pd s U V; inversion U as [|? u ? pu' Hu U']; inversion V as [|? v ? pd' Hv V']; subst.
  - split; auto. constructor.
  - destruct (IH _ _ _ U' V') as [A B]. cbn [combine map length fst snd]. split; [now rewrite <- A|].
    constructor; auto. cbn [a_sub a_mul a_add c_lit real_ops real_arith]. change (10 ^ 1) with 10.
    apply Rabs_le_inv in Hu, Hv. lra.
Qed.

Lemma mean_close K D l : l <> [] -> close K D l -> (K - D <= Rsum l / IZR (Z.of_nat (length l)) <= K + D)%R.
Proof.
  intros NE C. pose proof (Rsum_bounds _ _ l (close_in _ _ _ C)) as B.
  assert (P : (0 < IZR (Z.of_nat (length l)))%R) by (apply IZR_lt; destruct l; [congruence|cbn [length]; lia]).
  rewrite INR_IZR_INZ in B. split; apply Rmult_le_reg_r with (IZR (Z.of_nat (length l))); auto; field_simplify; lra.
Qed.

Lemma phase_error_close n c eps g k xpos (up down : list (entry R)) yu yd : 1 <= n -> 0 <= g -> (0 <= eps)%R ->
  StronglySorted Rle xpos -> Forall (fun x => (0 <= x <= 65535)%R) xpos -> Z.of_nat (length xpos) = 10000 ->
  (forall (l : list (entry R)) ys, (l, ys) = (up, yu) \/ (l, ys) = (down, yd) -> (2 <= length l)%nat /\
     hd 0 (map e_encoder l) <= g /\ 65535 - g <= last (map e_encoder l) 0 /\
     unwrap real_arith (map (fun e => sc * IZR (e_phase e))%R l) = Ok ys /\
     Forall2 (fun e y => (Rabs (y - sc * (IZR n * IZR (e_encoder e) + c + 65536 * IZR k)) <= sc * eps)%R) l ys) ->
  exists K err, phase_error real_arith real_ops xpos up down (n * 2) = Ok err /\ length err = length xpos /\
    close K (sc * (eps + IZR n * IZR g)) err /\ same_angle K (sc * c).
Proof.
  intros Hn Hg He Sx Bx Lx H.
  destruct (H up yu) as (U1 & U2 & U3 & U4 & U5); [auto|]. destruct (H down yd) as (V1 & V2 & V3 & V4 & V5); [auto|].
  destruct (interpolate_line n c eps g k up yu xpos) as (pu & EU & FU); auto.
  destruct (interpolate_line n c eps g k down yd xpos) as (pd & EV & FV); auto.
  unfold phase_error. rewrite phase_scale_real. cbn [bind a_mul a_of_Z real_arith]. rewrite U4. cbn [bind].
  rewrite V4. cbn [bind]. rewrite EU. cbn [bind]. rewrite EV. cbn [bind a_div real_arith].
  destruct (Req_EM_T 2 0) as [X|_]; [lra|]. cbn [bind].
  assert (E2 : (IZR (n * 2) / 2 = IZR n)%R) by (rewrite mult_IZR; field). rewrite E2.
  destruct (err_close n (sc * (c + 65536 * IZR k)) (sc * (eps + IZR n * IZR g)) xpos pu pd sc FU FV) as [LE CE].
  match goal with |- context [a_sum real_arith ?e] => set (err := e) in * end.
  change (length err = length xpos) in LE. change (close (sc * (c + 65536 * IZR k)) (sc * (eps + IZR n * IZR g)) err) in CE.
  assert (NE : err <> []) by (intros X; rewrite X in LE; cbn in LE; lia).
  destruct (Req_EM_T (IZR (Z.of_nat (length err))) 0) as [X|_]; [apply eq_IZR in X; lia|]. cbn [bind a_sum real_arith].
  set (m := (Rsum err / IZR (Z.of_nat (length err)))%R).
  destruct (C37_real m) as (w & -> & Bw & (j & J)). cbn [bind a_sub real_arith].
  set (K := (sc * (c + 65536 * IZR k) - (m - w))%R).
  exists K, (map (fun x => x - (m - w))%R err). split; auto. split; [now rewrite map_length|]. split.
  - unfold close in *. apply Forall_map. eapply Forall_impl; [|exact CE]. intros x Hx. unfold K. cbn beta in Hx. lra.
  - exists (k + j). unfold K. rewrite J, plus_IZR, <- sc_turn. ring.
Qed.

(** ** The table *)
Lemma offset_x_spec : length (offset_x real_arith) = 64%nat /\ StronglySorted Rle (offset_x real_arith) /\
  StronglySorted Rle (offset_x real_arith ++ [65536%R]).
Proof.
  split; [reflexivity|]. unfold offset_x. cbn [seq map app a_of_Z real_arith].
  assert (H : forall l : list Z, StronglySorted Z.le l -> StronglySorted Rle (map IZR l)).
  { induction 1 as [|a l S IH F]; cbn [map]; constructor; auto. apply Forall_map. eapply Forall_impl; [|exact F].
    intros; now apply IZR_le. }
  split.
  - apply (H (map (fun i => 1024 * Z.of_nat i) (seq 0 64))). repeat (constructor; [|cbn; repeat constructor; lia]). constructor.
  - apply (H (map (fun i => 1024 * Z.of_nat i) (seq 0 65))). repeat (constructor; [|cbn; repeat constructor; lia]). constructor.
Qed.

Lemma polyline_close K D x y ps vs : close K D y -> Forall2 (on_polyline x y) ps vs -> close K D vs.
Proof.
  intros C F. unfold close. induction F as [|p v ps vs H _ IH]; constructor; auto.
  eapply C40_in_range; eauto. apply close_in; auto.
Qed.

Lemma initial_offset_close n K D xpos err : 1 <= n <= 2500 -> Z.of_nat (length xpos) = 10000 ->
  length err = length xpos -> close K D err ->
  exists off, initial_offset real_arith real_ops xpos err (n * 2) = Ok off /\ length off = 64%nat /\ close K D off.
Proof.
  intros Hn Lx Le C. unfold initial_offset. rewrite Le, Lx. cbn [a_div a_of_Z real_arith].
  destruct (Req_EM_T (IZR (n * 2)) 0) as [X|_]; [apply eq_IZR in X; lia|]. cbn [bind c_trunc real_ops].
  rewrite real_trunc_div by lia.
  assert (Hh : 1 <= 10000 / (n * 2) / 2 <= Z.of_nat (length err) + 1).
  { rewrite Zdiv_Zdiv by lia. split; [apply Z.div_le_lower_bound; lia|]. apply Z.div_le_upper_bound; lia. }
  destruct (C44_window err (10000 / (n * 2)) Hh) as (av & E & La & _). cbn [bind]. rewrite E. cbn [bind].
  pose proof (C44_in_range err _ av (K - D) (K + D) Hh E (close_in _ _ _ C)) as Ca.
  destruct offset_x_spec as (L64 & S64 & _).
  destruct (C40_interpolate (offset_x real_arith) xpos av) as (off & -> & F); try lia; auto.
  exists off. split; auto. split; [rewrite <- (Forall2_length' _ _ _ F); exact L64|].
  eapply (polyline_close K D xpos av); eauto. apply Forall_forall. exact Ca.
Qed.

Lemma resample_close K D xpos x : length x = 64%nat -> StronglySorted Rle xpos -> close K D x ->
  exists l, resample real_arith xpos x = Ok l /\ close K D l.
Proof.
  intros L S C. unfold resample. destruct x as [|x0 x]; [discriminate|].
  change (py_index (x0 :: x) 0) with (Ok x0). cbn [bind a_of_Z real_arith].
  destruct offset_x_spec as (L64 & _ & S65).
  destruct (C40_interpolate xpos (offset_x real_arith ++ [65536%R]) ((x0 :: x) ++ [x0])) as (l & E & F); auto.
  { rewrite app_length, L64. cbn. lia. } { rewrite !app_length, L64, L. reflexivity. }
  exists l. split; [exact E|]. eapply polyline_close; [|exact F]. apply Forall_app. split; auto.
  inversion C; subst. constructor; [auto|constructor].
Qed.

Lemma max_error_real : MAX_ERROR real_ops = (8 / 10)%R.
Proof. reflexivity. Qed.
Lemma penalty_real : PENALTY_RATIO real_ops = (8 / 10)%R.
Proof. reflexivity. Qed.
Lemma step_change_real : MAX_STEP_CHANGE real_ops = (35 / 10)%R.
Proof. reflexivity. Qed.

Lemma wrap_small D x : (D <= 3)%R -> (- D <= x <= D)%R -> wrap real_arith x = Ok x.
Proof. intros H B. apply wrap_id. pose proof PI2_3_2. pose proof PI2_1. lra. Qed.

Lemma metric_samples_close K D l : (2 * D <= 64 / 100)%R ->
  Forall (fun p => (K - D <= fst p <= K + D)%R /\ (K - D <= snd p <= K + D)%R) l ->
  forall r e, exists r', metric_samples real_arith real_ops l r e = Ok (r', e) /\
    (r <= r' <= r + IZR (Z.of_nat (length l)) * (4 * D * D))%R.
Proof.
  intros HD F. induction F as [|[a b] l [A B] F IH]; intros r e.
  - exists r. split; auto. cbn. lra.
  - cbn [metric_samples fst snd] in *. cbn [a_sub real_arith].
    rewrite (wrap_small (2 * D)) by lra. cbn [bind]. rewrite max_error_real, penalty_real.
    cbn [a_abs a_mul a_lt a_add real_arith].
    assert (Ab : (Rabs (a - b) <= 2 * D)%R) by (apply Rabs_le; lra).
    pose proof (Rabs_pos (a - b)) as A0.
    destruct (Rltb_spec (8 / 10 * (8 / 10)) (Rabs (a - b))) as [X|_]; [lra|].
    destruct (Rltb_spec (8 / 10) (Rabs (a - b))) as [X|_]; [lra|].
    destruct (IH (r + Rabs (a - b) * Rabs (a - b))%R e) as (r' & -> & B').
    exists r'. split; auto. cbn [length]. rewrite Nat2Z.inj_succ, succ_IZR.
    assert (Rabs (a - b) * Rabs (a - b) <= 4 * D * D)%R by nra.
    assert (0 <= Rabs (a - b) * Rabs (a - b))%R by nra. lra.
Qed.

Lemma metric_steps_close K D x : (2 * D <= 64 / 100)%R -> close K D x -> x <> [] ->
  forall is r, Forall (fun i => (i < length x)%nat) is -> metric_steps real_arith real_ops x is r = Ok r.
Proof.
  intros HD C NE. induction is as [|i is IH]; intros r F; [reflexivity|]. inversion F as [|? ? Hi F']; subst.
  cbn [metric_steps].
  assert (Lx : 0 < Z.of_nat (length x)) by lia.
  destruct (nth_exists x (Z.to_nat ((Z.of_nat i + 1) mod Z.of_nat (length x)))) as (b & Eb).
  { pose proof (Z.mod_pos_bound (Z.of_nat i + 1) _ Lx). lia. }
  destruct (nth_exists x i Hi) as (a & Ea).
  rewrite <- (Z2Nat.id ((Z.of_nat i + 1) mod Z.of_nat (length x))) by (apply Z.mod_pos_bound; lia).
  rewrite (py_index_nat _ _ _ Eb). cbn [bind]. rewrite (py_index_nat _ _ _ Ea). cbn [bind].
  rewrite penalty_real, step_change_real. cbn [a_abs a_sub a_mul a_lt real_arith].
  apply nth_error_In in Ea, Eb. apply (close_in _ _ _ C) in Ea, Eb.
  assert (Rabs (b - a) <= 2 * D)%R by (apply Rabs_le; lra).
  destruct (Rltb_spec (8 / 10 * (35 / 10)) (Rabs (b - a))) as [X|_]; [lra|]. apply IH; auto.
Qed.

Lemma full_metric_close K D xpos err x : (2 * D <= 64 / 100)%R -> length x = 64%nat -> StronglySorted Rle xpos ->
  close K D x -> close K D err -> length err = length xpos ->
  exists m, full_metric real_arith real_ops xpos err x = Ok (m, 0) /\
    (0 <= m <= IZR (Z.of_nat (length xpos)) * (4 * D * D))%R.
Proof.
  intros HD L S C Ce Le. unfold full_metric. destruct (resample_close K D xpos x L S C) as (l & -> & Cl). cbn [bind].
  assert (F : Forall (fun p => (K - D <= fst p <= K + D)%R /\ (K - D <= snd p <= K + D)%R) (combine err l)).
  { apply Forall_forall. intros [a b] I. split; [apply in_combine_l in I; now apply (close_in _ _ _ Ce)|
      apply in_combine_r in I; now apply (close_in _ _ _ Cl)]. }
  destruct (metric_samples_close K D _ HD F (IZR 0) 0) as (m & E & B). cbn [a_of_Z real_arith]. rewrite E. cbn [bind fst snd].
  rewrite (metric_steps_close K D) ; auto.
  - cbn [bind]. exists m. split; auto. split; [lra|]. eapply Rle_trans; [apply B|]. rewrite Rplus_0_l.
    apply Rmult_le_compat_r; [nra|]. apply IZR_le. rewrite combine_length. lia.
  - destruct x; [discriminate|congruence].
  - apply Forall_forall. intros i I. apply in_seq in I. lia.
Qed.

Lemma sample_errors_close K D err l : (2 * D <= 64 / 100)%R -> close K D err -> close K D l ->
  exists es, map_res (fun p => wrap real_arith (a_sub real_arith (fst p) (snd p))) (combine err l) = Ok es /\
    existsb (fun x => a_lt real_arith (MAX_ERROR real_ops) (a_abs real_arith x)) es = false.
Proof.
  intros HD Ce Cl.
  assert (F : Forall (fun p => (K - D <= fst p <= K + D)%R /\ (K - D <= snd p <= K + D)%R) (combine err l)).
  { apply Forall_forall. intros [a b] I. split; [apply in_combine_l in I; now apply (close_in _ _ _ Ce)|
      apply in_combine_r in I; now apply (close_in _ _ _ Cl)]. }
  rewrite max_error_real. induction F as [|[a b] ps [A B] F IH]; [exists []; auto|].
  cbn [map_res fst snd] in *. destruct IH as (es & -> & E). cbn [a_sub real_arith].
  rewrite (wrap_small (2 * D)) by lra. cbn [bind]. exists ((a - b)%R :: es). split; auto. cbn [existsb]. rewrite E.
  cbn [a_lt a_abs real_arith]. assert (Rabs (a - b) <= 2 * D)%R by (apply Rabs_le; lra).
  destruct (Rltb_spec (8 / 10) (Rabs (a - b))) as [X|_]; [lra|reflexivity].
Qed.

(** ** From the corrected samples to the table *)
Lemma near_shift n c eps e ch : ch mod 65536 = 0 -> near n c eps e -> near n c eps (set_phase (e_phase e + ch) e).
Proof.
  intros M (Q & E & B). exists Q. cbn [set_phase e_phase e_encoder]. split; auto.
  replace (Q - (e_phase e + ch)) with ((Q - e_phase e) - ch) by ring. rewrite Zminus_mod, E, M. reflexivity.
Qed.

Lemma phase_change_real (u0 d0 : entry R) up down : exists ch,
  phase_change real_arith real_ops (u0 :: up) (d0 :: down) = Ok ch /\ ch mod 65536 = 0 /\
  Z.abs (e_phase d0 + ch - e_phase u0) <= 32768.
Proof.
  unfold phase_change. cbn [py_index]. change (py_index (d0 :: down) 0) with (Ok d0).
  change (py_index (u0 :: up) 0) with (Ok u0). cbn [bind].
  destruct (Z.gtb_spec (Z.abs (e_phase d0 - e_phase u0)) 32767).
  - cbn [a_div a_of_Z real_arith]. destruct (Req_EM_T 65536 0) as [X|_]; [lra|]. cbn [bind c_round real_ops].
    set (r := real_round _). exists (-65536 * r). split; auto. split; [lia|].
    pose proof (real_round_near (IZR (e_phase d0 - e_phase u0) / 65536)) as B. fold r in B.
    apply Rabs_le_inv in B.
    assert (L : (IZR (e_phase d0 - e_phase u0 - 65536 * r) <= IZR 32768)%R) by (rewrite minus_IZR, mult_IZR; lra).
    assert (U : (IZR (- 32768) <= IZR (e_phase d0 - e_phase u0 - 65536 * r))%R) by (rewrite (minus_IZR (_ - _)), mult_IZR; lra).
    apply le_IZR in L, U. lia.
  - exists 0. split; auto. split; auto. lia.
Qed.

Lemma sorted_encoders (l : list (entry R)) : StronglySorted enc_le l -> StronglySorted Z.le (map e_encoder l).
Proof. induction 1 as [|e l S IH F]; cbn [map]; constructor; auto. apply Forall_map. exact F. Qed.

Lemma covers_perm g l l' : Permutation l l' -> covers g l -> covers g l'.
Proof. intros P C x A B. destruct (C x A B) as (e & I & H). exists e. split; auto. eapply Permutation_in; eauto. Qed.

Lemma two_of g (l : list Z) : 0 <= g <= 3337 -> hd 0 l <= g -> 65535 - g <= last l 0 -> (2 <= length l)%nat.
Proof. destruct l as [|a [|b l]]; cbn [hd last length]; intros; [lia..|]. apply le_n_S, le_n_S, Nat.le_0_l. Qed.

Lemma covered n g (eps : R) : 1 <= n -> 0 <= g -> (0 <= eps)%R -> (eps + IZR n * IZR g <= 3337)%R -> 0 <= g <= 3337.
Proof.
  intros Hn Hg He H. split; auto. apply le_IZR. assert (1 <= IZR n)%R by now apply IZR_le.
  assert (0 <= IZR g)%R by now apply IZR_le. assert (0 <= (IZR n - 1) * IZR g)%R by (apply Rmult_le_pos; lra). lra.
Qed.

(** The steps up to the first table. *)
Lemma back_steps n c eps g (up down : list (entry R)) :
  1 <= n <= 2500 -> 0 <= g -> (0 <= eps)%R -> (eps + IZR n * IZR g <= 3337)%R ->
  Forall (near n c eps) up -> Forall (near n c eps) down -> Forall in_range up -> Forall in_range down ->
  covers g (map e_encoder up) -> covers g (map e_encoder down) ->
  exists ch xpos err off K, 
    phase_change real_arith real_ops (sort_entries up) (sort_entries down) = Ok ch /\
    linspace real_arith 0%R 65535%R 10000 = Ok xpos /\
    phase_error real_arith real_ops xpos (sort_entries up)
      (map (fun e => set_phase (e_phase e + ch) e) (sort_entries down)) (n * 2) = Ok err /\
    initial_offset real_arith real_ops xpos err (n * 2) = Ok off /\
    Z.of_nat (length xpos) = 10000 /\ StronglySorted Rle xpos /\
    length err = length xpos /\ length off = 64%nat /\
    close K (sc * (eps + IZR n * IZR g)) err /\ close K (sc * (eps + IZR n * IZR g)) off /\ same_angle K (sc * c).
Proof.
  intros Hn Hg He Hs Nu Nd Ru Rd Cu Cd. pose proof (covered n g eps) as G. destruct G as [_ G]; auto; try lia.
  assert (N1 : (1 <= IZR n)%R) by (apply IZR_le; lia).
  assert (N2 : (IZR n <= 2500)%R) by (apply IZR_le; lia).
  assert (G0 : (0 <= IZR g)%R) by now apply IZR_le.
  pose proof sc_pos as SP.
  set (D := (sc * (eps + IZR n * IZR g))%R) in *.
  assert (US : (IZR n * IZR (g + 1) + 2 * eps < 32768)%R) by (rewrite plus_IZR; nra).
  destruct (sort_entries_spec up) as [Pu Su]. destruct (sort_entries_spec down) as [Pd Sd].
  set (su := sort_entries up) in *. set (sd := sort_entries down) in *.
  assert (HU : forall l l' : list (entry R), StronglySorted enc_le l' -> Permutation l l' -> Forall in_range l ->
    covers g (map e_encoder l) -> gaps (g + 1) (map e_encoder l') /\ hd 0 (map e_encoder l') <= g /\
      65535 - g <= last (map e_encoder l') 0 /\ l' <> [] /\ (2 <= length l')%nat).
  { intros l l' S P F C. destruct (sorted_gaps g (map e_encoder l')) as (A1 & A2 & A3 & A4).
    - now apply sorted_encoders.
    - apply Forall_map. eapply Permutation_Forall; eauto.
    - eapply covers_perm; [apply Permutation_map; eauto|auto].
    - lia.
    - split; auto. split; auto. split; auto. split; [now intros ->|].
      rewrite <- (map_length e_encoder). now apply (two_of g). }
  destruct (HU _ _ Su Pu Ru Cu) as (Gu & Hu & Lu & NEu & Tu).
  destruct (HU _ _ Sd Pd Rd Cd) as (Gd & Hd & Ld & NEd & Td). clear HU.
  assert (Nu' : Forall (near n c eps) su) by (eapply Permutation_Forall; eauto).
  assert (Nd' : Forall (near n c eps) sd) by (eapply Permutation_Forall; eauto).
  assert (Ru' : Forall in_range su) by (eapply Permutation_Forall; eauto).
  assert (Rd' : Forall in_range sd) by (eapply Permutation_Forall; eauto).
  destruct (unwrap_line n c eps g su) as (k & yu & Eu & Fu & Qu & eu & Hu0 & Pu0 & Bu); auto; try lia.
  clearbody su sd. destruct su as [|u0 su]; [congruence|]. destruct sd as [|d0 sd]; [congruence|].
  cbn [hd_error] in Hu0. injection Hu0 as <-.
  destruct (phase_change_real u0 d0 su sd) as (ch & Ech & Mch & Ach).
  set (shift := fun e : entry R => set_phase (e_phase e + ch) e).
  assert (Es : map e_encoder (map shift (d0 :: sd)) = map e_encoder (d0 :: sd)) by (rewrite map_map; reflexivity).
  destruct (unwrap_line n c eps g (map shift (d0 :: sd))) as (k' & yd & Ed & Fd & Qd & ed & Hd0 & Pd0 & Bd); auto; try lia.
  { now rewrite Es. } { apply Forall_map. eapply Forall_impl; [|exact Nd']. intros. now apply near_shift. } { discriminate. }
  cbn [map hd_error] in Hd0. injection Hd0 as <-. cbn [shift set_phase e_phase e_encoder] in Pd0, Bd.
  assert (KK : k' = k).
  { inversion Ru' as [|? ? R1 _]; subst. inversion Rd' as [|? ? R2 _]; subst. unfold in_range in R1, R2.
    cbn [map hd] in Hu, Hd. apply Rabs_le_inv in Bu, Bd.
    assert (A1 : (0 <= IZR (e_encoder u0) <= IZR g)%R) by (split; apply IZR_le; lia).
    assert (A2 : (0 <= IZR (e_encoder d0) <= IZR g)%R) by (split; apply IZR_le; lia).
    assert (Z1 : (IZR (Qd - Qu) <= IZR 6674)%R) by (rewrite minus_IZR; nra).
    assert (Z2 : (IZR (-6674) <= IZR (Qd - Qu))%R) by (rewrite minus_IZR; nra).
    apply le_IZR in Z1, Z2. lia. }
  subst k'.
  destruct xpos_spec as (xpos & Ex & Lx & Sx & Bx).
  destruct (phase_error_close n c eps g k xpos (u0 :: su) (map shift (d0 :: sd)) yu yd) as (K & err & Ee & Le & Ce & SK); auto; try lia.
  { intros l ys [X|X]; pose proof (f_equal fst X) as X1; pose proof (f_equal snd X) as X2; cbn [fst snd] in X1, X2;
      rewrite X1, X2; [now repeat split|]. rewrite Es, map_length. now repeat split. }
  fold D in Ce.
  destruct (initial_offset_close n K D xpos err) as (off & Eo & Lo & Co); auto.
  exists ch, xpos, err, off, K. repeat split; auto.
Qed.

Lemma back_spec minimize n c eps g (f : front (T := R)) allow_optimize force_optimize :
  1 <= n <= 2500 -> 0 <= g -> (0 <= eps)%R -> (eps + IZR n * IZR g <= 3337)%R ->
  f_poles f = n * 2 ->
  Forall (near n c eps) (f_up f) -> Forall (near n c eps) (f_down f) ->
  Forall in_range (f_up f) -> Forall in_range (f_down f) ->
  covers g (map e_encoder (f_up f)) -> covers g (map e_encoder (f_down f)) ->
  exists off, length off = 64%nat /\
  (exists K, close K (sc * (eps + IZR n * IZR g)) off /\ same_angle K (sc * c)) /\
  forall up down d mre api, calibrate_front real_arith real_ops up down d mre api = Ok f ->
    (force_optimize = true -> fst (minimize off) = false ->
     calibrate real_arith real_ops minimize up down d mre api allow_optimize force_optimize = Raise AttributeError) /\
    (force_optimize = false -> (allow_optimize = true -> (eps + IZR n * IZR g <= 285)%R) ->
     exists r st, calibrate real_arith real_ops minimize up down d mre api allow_optimize force_optimize = Ok (r, st) /\
       r_invert r = f_invert f /\ r_phase_invert r = f_phase_invert f /\ r_poles r = n * 2 /\
       r_errors r = f_errors f /\ r_offset r = off).
Proof.
  intros Hn Hg He Hs Hp Nu Nd Ru Rd Cu Cd.
  assert (N0 : (0 <= IZR n * IZR g)%R) by (rewrite <- mult_IZR; apply IZR_le; nia).
  assert (SC : (sc * 3337 <= 32 / 100)%R) by (unfold sc; pose proof PI_upper; lra).
  assert (SC' : (sc * 285 <= 2733 / 100000)%R) by (unfold sc; pose proof PI_upper; lra).
  pose proof sc_pos as SP.
  destruct (back_steps n c eps g (f_up f) (f_down f)) as (ch & xpos & err & off & K & Ech & Ex & Ee & Eo & Lx & Sx & Le & Lo & Ce & Co & SK); auto.
  set (D := (sc * (eps + IZR n * IZR g))%R) in *.
  assert (D0 : (0 <= D)%R) by (unfold D; apply Rmult_le_pos; lra).
  assert (D1 : (2 * D <= 64 / 100)%R) by (unfold D; nra).
  destruct (full_metric_close K D xpos err off) as (m & Em & Bm); auto.
  exists off. split; auto. split; [exists K; auto|]. intros up down d mre api Ef.
  unfold calibrate. rewrite Ef. cbn [bind]. rewrite Ech. cbn [bind a_of_Z real_arith]. rewrite Ex. cbn [bind].
  rewrite Hp, Ee. cbn [bind]. rewrite Eo. cbn [bind]. split.
  - intros -> Fm. unfold optimize. rewrite Em. cbn [bind orb]. destruct (minimize off) as [suc x]. cbn in Fm. now rewrite Fm.
  - intros -> Ho.
    assert (D2 : allow_optimize = true -> (D <= 2733 / 100000)%R) by (intros X; specialize (Ho X); unfold D; nra).
    assert (Opt : optimize real_arith real_ops minimize allow_optimize false xpos err off = Ok off).
    { unfold optimize. rewrite Em. cbn [bind fst snd orb]. change (0 >? 0) with false. rewrite orb_false_r.
      destruct allow_optimize; [|reflexivity]. cbn [andb a_lt a_of_Z real_arith]. specialize (D2 eq_refl).
      rewrite Lx in Bm. destruct (Rltb_spec 30 m) as [X|_]; [nra|reflexivity]. }
    rewrite Opt. cbn [bind]. rewrite Em. cbn [bind].
    destruct (resample_close K D xpos off) as (l & -> & Cl); auto. cbn [bind].
    destruct (sample_errors_close K D err l) as (es & -> & X); auto. cbn [bind]. rewrite X, app_nil_r.
    eexists _, _. split; [reflexivity|]. cbn [r_invert r_phase_invert r_poles r_errors r_offset]. repeat split; auto.
Qed.
