(** C73: the clock of a controller that is kept at the time of the host, and waiting for an event. *)
From Coq Require Import ZArith List Bool Lia ZifyBool ZifyNat Reals Lra.
From Verif Require Import PyBase PyFloat Calib_Model Encoder_Model Encoder_Proofs Proc Clock_Model Clock_Spec.
Import ListNotations.
Open Scope Z_scope.

(** The difference of two counts is given exactly when the counter went on by 100 seconds at most, as
    the numbers stand. *)
Theorem C73_delta t1 t2 d : ms_delta t1 t2 = Some d <-> d = t2 - t1 /\ goes_on t1 t2.
Proof.
  unfold ms_delta, goes_on. destruct ((t2 <? 0) && (t1 >? 0)) eqn:A.
  - destruct ((t2 + 2 ^ 32 - t1 >? 100000) || (t2 <? t1)) eqn:B; split; try discriminate; lia.
  - destruct ((t2 - t1 >? 100000) || (t2 <? t1)) eqn:B; split; try discriminate; try lia.
    + intros H. injection H as <-. lia.
    + intros [-> _]. reflexivity.
Qed.
Example C73_delta_ex : ms_delta (-500) 700 = Some 1200 /\ ms_delta 0 100000 = Some 100000 /\ ms_delta 0 100001 = None /\ ms_delta 5 4 = None.
Proof. repeat split. Qed.

Lemma delta_none t1 t2 : ms_delta t1 t2 = None -> ~ goes_on t1 t2.
Proof. intros H G. assert (E : ms_delta t1 t2 = Some (t2 - t1)) by (apply C73_delta; auto). congruence. Qed.

(** So an advance of the counter is measured, unless it wraps around in it: then it is never, though
    the code has a branch for it. *)
Theorem C73_wrap c d : 0 <= d <= 100000 ->
  ms_delta (int32 c) (int32 (c + d)) =
    (if int32 c <=? int32 (c + d) then Some d else None).
Proof.
  intros D. destruct (int32 c <=? int32 (c + d)) eqn:L.
  - apply C73_delta. unfold goes_on. unfold int32 in *.
    pose proof (Z.mod_pos_bound (c + 2 ^ 31) (2 ^ 32) ltac:(lia)).
    pose proof (Z.mod_pos_bound (c + d + 2 ^ 31) (2 ^ 32) ltac:(lia)).
    pose proof (Z.div_mod (c + 2 ^ 31) (2 ^ 32) ltac:(lia)).
    pose proof (Z.div_mod (c + d + 2 ^ 31) (2 ^ 32) ltac:(lia)).
    assert ((c + d + 2 ^ 31) / 2 ^ 32 = (c + 2 ^ 31) / 2 ^ 32) by nia. lia.
  - destruct (ms_delta _ _) as [x|] eqn:E; [|reflexivity]. apply C73_delta in E. unfold goes_on in E. lia.
Qed.
Theorem C73_wrap_refuted : ~ (forall c d, 0 <= d <= 100000 -> ms_delta (int32 c) (int32 (c + d)) = Some d).
Proof. intros H. specialize (H (2 ^ 31 - 500) 1000 ltac:(lia)). vm_compute in H. discriminate. Qed.
Example C73_wrap_ex : ms_delta (int32 (2 ^ 32 - 500)) (int32 (2 ^ 32 + 500)) = Some 1000.
Proof. vm_compute. reflexivity. Qed.

Lemma last_cons' (c0 : Z) ca d : last (c0 :: ca) d = last ca c0.
Proof. revert c0 d. induction ca as [|z ca IH]; intros c0 d; [reflexivity|]. change (last (z :: ca) d = last (z :: ca) c0). now rewrite !IH. Qed.

(** ** What the clock counts *)
Section Any.
  Context {T : Type} (ar : arith T) (co : cal_ops T).

  Lemma updates_snoc mo l : forall s m,
    updates ar co mo s (l ++ [m]) =
    let '(s, es) := updates ar co mo s l in
    let '(s, e) := update_second ar co mo s m in (s, es ++ [e]).
  Proof.
    induction l as [|x l IH]; intros s m; cbn [app updates].
    - destruct (update_second ar co mo s m). reflexivity.
    - destruct (update_second ar co mo s x) as [s1 e1]. rewrite IH.
      destruct (updates ar co mo s1 l) as [s2 es]. destruct (update_second ar co mo s2 m). reflexivity.
  Qed.

  Lemma corrected mo s delta m s' e : correct ar co mo s delta m = (s', e) -> e_end e = Ok tt ->
    k_state s' = k_state s /\ k_count s' = k_count s /\ k_last s' = Some (m_now m) /\
    k_initial s' = Some (match k_initial s with Some i => i | None => m_now m end).
  Proof.
    intros H E. unfold correct in H. destruct (k_initial s) as [i|] eqn:I.
    - destruct delta as [[|p|p]|]; cycle 3; [injection H as <- <-; discriminate| |..]; cycle 2; cycle 1.
      1: injection H as <- <-; cbn; rewrite I; auto.
      all: destruct (drift ar s i (m_now m)) as [a|x]; [|injection H as <- <-; discriminate];
        destruct (new_trim ar co _ _ (m_now m) a) as [t|x]; [|injection H as <- <-; discriminate];
        destruct mo; [injection H as <- <-; cbn; auto|];
        destruct (m_accepts m); injection H as <- <-; [cbn; auto|discriminate].
    - injection H as <- <-. cbn. rewrite I. auto.
  Qed.

  Lemma counted mo l : forall cs s es,
    updates ar co mo (new_clock ar) l = (s, es) -> Forall (fun e => e_end e = Ok tt) es ->
    Forall2 (fun m c => exists trim, answers m c trim) l cs -> l <> [] ->
    counts_since l cs (k_initial s) (k_count s) /\
    exists st, k_state s = Some st /\ sa_ms st = Some (last cs 0).
  Proof.
    induction l as [|m l IH] using rev_ind; intros cs s es H E F N; [congruence|]. clear N.
    rewrite updates_snoc in H. destruct (updates ar co mo (new_clock ar) l) as [s1 es1] eqn:U.
    destruct (update_second ar co mo s1 m) as [s2 e] eqn:V. injection H as -> <-.
    apply Forall_app in E as [E1 E2]. inversion E2 as [|? ? E3 _]; subst. clear E2.
    apply Forall2_app_inv_l in F as (cs1 & cs2 & F1 & F2 & ->).
    inversion F2 as [|? c ? ? (trim & A) F3]; subst. inversion F3; subst. clear F2 F3.
    rewrite last_last. unfold update_second in V. unfold answers in A. rewrite A in V.
    destruct l as [|x l].
    - inversion F1; subst. cbn in U. injection U as <- _. cbn [k_state new_clock] in V.
      apply corrected in V as (V1 & V2 & _ & V4); auto. cbn in V1, V2, V4. split.
      + exists [], m, [], [], c, []. cbn. repeat split; auto; lia.
      + exists {| sa_ms := Some c; sa_trim := Some trim |}. rewrite V1. auto.
    - destruct (IH cs1 s1 es1 eq_refl E1 F1) as ((b & st & a & cb & c0 & ca & I1 & I2 & I3 & I4 & I5 & I6 & I7) & (q & Q1 & Q2)); [discriminate|].
      rewrite Q1 in V. cbn [value] in V. rewrite Q2 in V. cbn [bind sa_ms] in V.
      assert (L : last cs1 0 = last ca c0).
      { rewrite I2. clear. induction cb as [|y cb IHb]; [apply last_cons'|].
        rewrite <- IHb. cbn [app]. destruct (cb ++ c0 :: ca) eqn:Z; [destruct cb; discriminate|reflexivity]. }
      destruct (ms_delta (last cs1 0) c) as [d|] eqn:D.
      + apply C73_delta in D as [D1 D2]. apply corrected in V as (V1 & V2 & _ & V4); auto. cbn in V1, V2, V4.
        rewrite I4 in V4. split; [|rewrite V1; eauto].
        exists b, st, (a ++ [m]), cb, c0, (ca ++ [c]). rewrite I1, I2, <- !app_assoc. cbn [app].
        repeat split; auto.
        * rewrite V2, I5, last_last. lia.
        * rewrite L in D2. clear - I6 D2. revert c0 I6 D2. induction ca as [|y ca IH]; intros c0 I6 D2; [cbn in *; auto|].
          cbn [app steady]. destruct I6 as [I6 I7]. split; auto. apply IH; auto.
          rewrite last_cons' in D2. exact D2.
      + apply delta_none in D. apply corrected in V as (V1 & V2 & _ & V4); auto. cbn in V1, V2, V4.
        assert (Len : forall k, Forall2 (fun (m : moment T) c => exists trim, answers m c trim) k cs1 -> length k = length cs1).
        { clear. intros k. revert cs1. induction k as [|y k IH]; intros cs1 F; inversion F; subst; cbn; auto. }
        split; [|rewrite V1; eauto]. exists (x :: l), m, [], cs1, c, [].
        split; [reflexivity|]. split; [reflexivity|]. split; [auto|]. split; [auto|]. split; [cbn; lia|]. cbn. auto.
  Qed.

  (** After any calls that all ended well, all of them answered, the clock counts since one of them: it
      is the first, or one before which the counter did not go on; and since then it always did. *)
  Theorem C73_count mo l cs s es :
    updates ar co mo (new_clock ar) l = (s, es) -> Forall (fun e => e_end e = Ok tt) es ->
    Forall2 (fun m c => exists trim, answers m c trim) l cs -> l <> [] ->
    counts_since l cs (k_initial s) (k_count s).
  Proof. intros H E F N. exact (proj1 (counted _ _ _ _ _ H E F N)). Qed.

  (** One that only measures never sends a trim. *)
  Theorem C73_measure l : forall s, Forall (fun e => e_trim e = None) (snd (updates ar co true s l)).
  Proof.
    induction l as [|m l IH]; intros s; cbn [updates]; [constructor|].
    destruct (update_second ar co true s m) as [s1 e] eqn:U. specialize (IH s1). destruct (updates ar co true s1 l) as [s2 es].
    cbn [snd] in *. constructor; auto. clear IH. unfold update_second, correct in U.
    repeat (match type of U with
            | context [match ?x with _ => _ end] => destruct x
            end; try (injection U as <- <-; reflexivity)).
  Qed.
End Any.

Example C73_count_ex :
  let at_ (t : Z) (c : Z) := {| m_answer := Ok (Some {| sa_ms := Some c; sa_trim := Some 3 |}); m_now := float_of_Z t; m_accepts := Ok tt |} in
  let '(s, es) := updates (float_arith left_sum) float_ops false (new_clock (float_arith left_sum))
                    [at_ 1 5000; at_ 2 6001; at_ 3 20; at_ 4 1022; at_ 5 2024] in
  Forall (fun e => e_end e = Ok tt) es /\ k_initial s = Some (float_of_Z 3) /\ k_count s = 2004 /\
  map e_trim es = [None; Some 3; None; Some 2; Some 2].
Proof. vm_compute. repeat split; repeat constructor. Qed.

(** ** What is sent, in exact numbers *)
Open Scope R_scope.

Lemma sent_near s delta now abs t : new_trim real_arith real_ops s delta now abs = Ok t ->
  exists before st trim, k_last s = Some before /\ k_state s = Some st /\ sa_trim st = Some trim /\
    now - before <> 0 /\
    t = (trim + real_round ((1 - abs / 5 - IZR delta / 1000 / (now - before)) / (25 / 10000)))%Z.
Proof.
  intros H. unfold new_trim in H. destruct (k_last s) as [b|]; [|discriminate]. cbn [bind] in H.
  unfold TIME_CONSTANT, TRIM_STEP_SIZE in H. cbn [a_div a_of_Z a_sub a_neg a_add real_arith c_lit c_round real_ops] in H.
  destruct (Req_EM_T 1000 0) as [X|_]; [lra|]. cbn [bind] in H.
  destruct (Req_EM_T (now - b) 0) as [X|N]; [discriminate|]. cbn [bind] in H.
  destruct (Req_EM_T 5 0) as [X|_]; [lra|]. cbn [bind] in H. change (10 ^ 4)%Z with 10000%Z in H.
  destruct (Req_EM_T (25 / 10000) 0) as [X|_]; [lra|]. cbn [bind] in H.
  destruct (k_state s) as [st|]; cbn [value] in H; [|discriminate]. destruct (sa_trim st) as [trim|] eqn:St; [|discriminate].
  cbn [bind] in H. injection H as <-. exists b, st, trim. repeat split; auto.
  do 3 f_equal. lra.
Qed.

Lemma real_drift s i now : drift real_arith s i now = Ok (IZR (k_count s) / 1000 - (now - i)).
Proof. unfold drift. cbn [a_div a_of_Z a_sub real_arith]. destruct (Req_EM_T 1000 0) as [X|_]; [lra|]. reflexivity. Qed.

Lemma near_step x : Rabs (25 / 10000 * IZR (real_round (x / (25 / 10000))) - x) <= 25 / 20000.
Proof.
  pose proof (real_round_near (x / (25 / 10000))) as H. set (r := IZR (real_round _)) in *.
  replace (25 / 10000 * r - x) with (- (25 / 10000) * (x / (25 / 10000) - r)) by field.
  rewrite Rabs_mult, Rabs_Ropp, (Rabs_right (25 / 10000)) by lra. lra.
Qed.

(** Whenever a trim is sent, the counter went on since the call before, and with its steps of 0.0025
    the trim changes the rate, from what it was since the call before, to the rate at which the error
    shown would be gone in 5 seconds, as near as whole steps can. *)
Theorem C73_trim mo s m s' e sent :
  update_second real_arith real_ops mo s m = (s', e) -> e_trim e = Some sent ->
  mo = false /\
  exists initial before old c0 count trim,
    k_initial s = Some initial /\ k_last s = Some before /\
    k_state s = Some old /\ sa_ms old = Some c0 /\ answers m count trim /\
    (0 < count - c0 <= 100000)%Z /\ m_now m - before <> 0 /\
    k_error s' = IZR (k_count s + (count - c0)) / 1000 - (m_now m - initial) /\
    let rate := IZR (count - c0) / 1000 / (m_now m - before) in
    Rabs (rate + 25 / 10000 * IZR (sent - trim) - (1 - k_error s' / 5)) <= 25 / 20000.
Proof.
  intros H E. unfold update_second in H. destruct (m_answer m) as [st|x] eqn:A; [|injection H as <- <-; discriminate].
  destruct (k_state s) as [old|] eqn:O; cycle 1.
  { unfold correct in H. cbn [k_initial] in H. destruct (k_initial s); injection H as <- <-; discriminate. }
  cbn [value] in H. destruct (sa_ms old) as [c0|] eqn:C0; cbn [bind] in H; [|injection H as <- <-; discriminate].
  destruct (value sa_ms st) as [c|x] eqn:C; cbn [bind] in H; [|injection H as <- <-; discriminate].
  destruct (ms_delta c0 c) as [d|] eqn:D; cycle 1.
  { unfold correct in H. cbn [k_initial] in H. injection H as <- <-. discriminate. }
  apply C73_delta in D as [-> D]. unfold goes_on in D.
  unfold correct in H. cbn [k_initial] in H. destruct (k_initial s) as [i|] eqn:I; [|injection H as <- <-; discriminate].
  destruct (Z.eq_dec (c - c0) 0) as [Z0|Z0].
  { rewrite Z0 in H. injection H as <- <-. discriminate. }
  rewrite real_drift in H. cbn [k_count k_state k_last] in H. set (abs := _ - (m_now m - i)) in *.
  destruct (c - c0)%Z as [|p|p] eqn:P; [lia| |lia].
  destruct (new_trim real_arith real_ops _ _ (m_now m) abs) as [t|x] eqn:NT; [|injection H as <- <-; discriminate].
  apply sent_near in NT as (b & st1 & trim & N1 & N2 & N3 & N4 & N5). cbn in N1, N2.
  assert (S : mo = false /\ sent = t /\ k_error s' = abs).
  { destruct mo; [injection H as <- <-; discriminate|]. destruct (m_accepts m); injection H as <- <-; cbn in E; injection E as <-; auto. }
  destruct S as (-> & -> & Er). split; auto.
  exists i, b, old, c0, c, trim. rewrite P. repeat split; auto; try lia.
  - unfold answers. rewrite A, N2. destruct st1 as [[u|] [v|]]; cbn in N3; try discriminate.
    + injection N3 as ->. rewrite N2 in C. cbn in C. injection C as ->. reflexivity.
    + rewrite N2 in C. discriminate.
  - cbv zeta. rewrite N5, Er. set (rate := IZR (Z.pos p) / 1000 / (m_now m - b)).
    replace (trim + real_round ((1 - abs / 5 - rate) / (25 / 10000)) - trim)%Z with (real_round ((1 - abs / 5 - rate) / (25 / 10000))) by lia.
    pose proof (near_step (1 - abs / 5 - rate)) as Q. set (r := IZR (real_round _)) in *.
    replace (rate + 25 / 10000 * r - (1 - abs / 5)) with (25 / 10000 * r - (1 - abs / 5 - rate)) by ring. exact Q.
Qed.

(** After such calls, when the counter went on at the last one, the error shown is what the device
    counted more than the host, since the call the clock counts from. *)
Theorem C73_shown mo l m cs c s es :
  updates real_arith real_ops mo (new_clock real_arith) (l ++ [m]) = (s, es) -> Forall (fun e => e_end e = Ok tt) es ->
  Forall2 (fun m c => exists trim, answers m c trim) (l ++ [m]) (cs ++ [c]) -> l <> [] ->
  (0 < c - last cs 0 <= 100000)%Z ->
  exists initial, counts_since (l ++ [m]) (cs ++ [c]) (Some initial) (k_count s) /\
    k_error s = IZR (k_count s) / 1000 - (m_now m - initial).
Proof.
  intros H E F N D.
  assert (P : counts_since (l ++ [m]) (cs ++ [c]) (k_initial s) (k_count s)).
  { apply (C73_count _ _ _ _ _ _ _ H E F). destruct l; discriminate. }
  rewrite updates_snoc in H. destruct (updates real_arith real_ops mo (new_clock real_arith) l) as [s1 es1] eqn:U.
  destruct (update_second real_arith real_ops mo s1 m) as [s2 e] eqn:V. injection H as -> <-.
  apply Forall_app in E as [E1 E2]. inversion E2 as [|? ? E3 _]; subst. clear E2.
  assert (L : Forall2 (fun m c => exists trim, answers m c trim) l cs /\ exists trim, answers m c trim).
  { apply Forall2_app_inv_l in F as (u & v & F1 & F2 & X). inversion F2 as [|? y ? ? Y F3]; subst. inversion F3; subst.
    apply app_inj_tail in X as [-> ->]. auto. }
  destruct L as [F1 (trim & A)].
  destruct (counted _ _ _ _ _ _ _ U E1 F1 N) as ((b & st & a & cb & c0 & ca & _ & _ & _ & I4 & _) & (q & Q1 & Q2)).
  unfold update_second in V. unfold answers in A. rewrite A, Q1 in V. cbn [value sa_ms] in V. rewrite Q2 in V. cbn [bind] in V.
  assert (DD : ms_delta (last cs 0%Z) c = Some (c - last cs 0)%Z) by (apply C73_delta; split; [auto|unfold goes_on; lia]).
  rewrite DD in V. pose proof V as V'. apply corrected in V' as (_ & V2 & _ & V4); auto. cbn in V2, V4. rewrite I4 in V4.
  exists (m_now st). rewrite <- V4. split; [exact P|]. rewrite V2.
  unfold correct in V. cbn [k_initial] in V. rewrite I4, real_drift in V. cbn [k_count k_state k_last] in V.
  destruct (c - last cs 0)%Z as [|p|p]; [lia| |lia].
  match type of V with context [new_trim ?a ?b ?x ?d ?n ?y] => destruct (new_trim a b x d n y) end; [|injection V as <- <-; discriminate].
  destruct mo; [injection V as <- <-; reflexivity|]. destruct (m_accepts m); injection V as <- <-; reflexivity.
Qed.

(** A device that keeps the time of the host, and that always answers, is left as it is: the error
    shown is zero, and what is sent is the trim it has. *)
Theorem C73_perfect offset l s es :
  Forall (on_time offset) l -> updates real_arith real_ops false (new_clock real_arith) l = (s, es) ->
  k_error s = 0 /\
  Forall2 (fun m e => e_end e = Ok tt /\ (forall sent, e_trim e = Some sent -> exists count, answers m count sent)) l es.
Proof.
  intros F H.
  pose (inv := fun s : clock R => k_error s = 0 /\
     ((k_state s = None /\ k_initial s = None /\ k_count s = 0%Z) \/
      exists c t i la, k_state s = Some {| sa_ms := Some c; sa_trim := Some t |} /\ k_initial s = Some i /\ k_last s = Some la /\
        IZR c = 1000 * (la - offset) /\ IZR (k_count s) = 1000 * (la - i))).
  assert (G : forall l s0 s es, Forall (on_time offset) l -> inv s0 -> updates real_arith real_ops false s0 l = (s, es) ->
    inv s /\ Forall2 (fun m e => e_end e = Ok tt /\ (forall sent, e_trim e = Some sent -> exists count, answers m count sent)) l es).
  2:{ destruct (G l (new_clock real_arith) s es F) as [[G1 _] G2]; [split; auto; left; auto|auto|auto]. }
  clear l s es F H. induction l as [|m l IH]; intros s0 s es F V H; cbn [updates] in H.
  { injection H as <- <-. auto. }
  inversion F as [|? ? (c & t & A & P & Ac) F']; subst.
  destruct (update_second real_arith real_ops false s0 m) as [s1 e] eqn:U.
  destruct (updates real_arith real_ops false s1 l) as [s2 es'] eqn:W. injection H as <- <-.
  enough (B : inv s1 /\ e_end e = Ok tt /\ (forall sent, e_trim e = Some sent -> exists count, answers m count sent)).
  { destruct B as [B1 B2]. destruct (IH _ _ _ F' B1 W). auto. }
  clear IH W F F'. destruct V as [V0 V]. unfold update_second in U. unfold answers in *. rewrite A in *.
  destruct V as [(V1 & V2 & V3)|(c0 & t0 & i & la & V1 & V2 & V3 & V4 & V5)]; rewrite V1 in U.
  - unfold correct in U. cbn in U. rewrite V2 in U. injection U as <- <-. cbn. split; [|split; [auto|discriminate]].
    split; cbn; auto. right. exists c, t, (m_now m), (m_now m). rewrite V3. repeat split; auto. cbn. lra.
  - cbn [value sa_ms bind] in U. destruct (ms_delta c0 c) as [d|] eqn:D.
    + apply C73_delta in D as [-> D]. unfold correct in U. cbn [k_initial] in U. rewrite V2 in U.
      assert (Q : IZR (c - c0) = 1000 * (m_now m - la)) by (rewrite minus_IZR; lra).
      assert (K : inv (finish {| k_initial := Some i; k_state := Some {| sa_ms := Some c; sa_trim := Some t |};
                         k_count := (k_count s0 + (c - c0))%Z; k_error := 0; k_last := k_last s0 |} (m_now m))).
      { split; cbn; auto. right. exists c, t, i, (m_now m). repeat split; auto. rewrite plus_IZR. lra. }
      destruct (Z.eq_dec (c - c0) 0) as [Z0|Z0].
      { rewrite Z0 in U, K. rewrite V0 in U. injection U as <- <-. cbn. split; [exact K|]. split; [auto|discriminate]. }
      rewrite real_drift in U. cbn [k_count k_state k_last] in U.
      replace (IZR (k_count s0 + (c - c0)) / 1000 - (m_now m - i)) with 0 in U by (rewrite plus_IZR; lra).
      unfold goes_on in D. destruct (c - c0)%Z as [|p|p] eqn:PP; [lia| |lia].
      assert (NZ : m_now m - la <> 0).
      { intros X. rewrite X in Q. replace (1000 * 0) with 0 in Q by ring. apply eq_IZR in Q. lia. }
      match type of U with context [new_trim ?a ?b ?x ?d ?n ?y] => destruct (new_trim a b x d n y) as [z|x'] eqn:NT end.
      * apply sent_near in NT as (b & st & tr & N1 & N2 & N3 & N4 & N5). cbn in N1, N2. rewrite V3 in N1. injection N1 as <-.
        injection N2 as <-. cbn in N3. injection N3 as <-. rewrite (real_round_unique _ 0) in N5.
        -- rewrite Ac in U. injection U as <- <-. cbn [e_end e_trim]. split; [exact K|]. split; [auto|].
           intros sent Hs. injection Hs as <-. rewrite N5, Z.add_0_r. eauto.
        -- rewrite Q. replace ((1 - 0 / 5 - 1000 * (m_now m - la) / 1000 / (m_now m - la)) / (25 / 10000) - 0) with 0; [rewrite Rabs_R0; lra|].
           field. auto.
      * exfalso. unfold new_trim in NT. cbn [k_last k_state] in NT. rewrite V3 in NT. cbn [bind value sa_trim] in NT.
        unfold TIME_CONSTANT, TRIM_STEP_SIZE in NT. cbn [a_div a_of_Z a_sub a_neg a_add real_arith c_lit c_round real_ops] in NT.
        change (10 ^ 4)%Z with 10000%Z in NT.
        destruct (Req_EM_T 1000 0) as [X|_]; [lra|]. cbn [bind] in NT.
        destruct (Req_EM_T (m_now m - la) 0) as [X|N]; [auto|]. cbn [bind] in NT.
        destruct (Req_EM_T 5 0) as [X|_]; [lra|]. cbn [bind] in NT.
        destruct (Req_EM_T (25 / 10000) 0) as [X|_]; [lra|]. discriminate.
    + unfold correct in U. cbn in U. injection U as <- <-. cbn. split; [|split; [auto|discriminate]].
      split; cbn; auto. right. exists c, t, (m_now m), (m_now m). repeat split; auto. cbn. lra.
Qed.

Example C73_perfect_ex : Forall (on_time (-1))
  [{| m_answer := Ok (Some {| sa_ms := Some 1000%Z; sa_trim := Some 4%Z |}); m_now := 0; m_accepts := Ok tt |};
   {| m_answer := Ok (Some {| sa_ms := Some 2500%Z; sa_trim := Some 4%Z |}); m_now := 3 / 2; m_accepts := Ok tt |}].
Proof.
  repeat apply Forall_cons; [| |constructor].
  - exists 1000%Z, 4%Z. repeat split. cbn. lra.
  - exists 2500%Z, 4%Z. repeat split. cbn. lra.
Qed.

(** ** Keeping a device at the time of the host *)

(** One that obeys, called at least every 5 seconds: the error shown gets smaller by the same factor
    with each call, down to what half a step of trim and the failure to obey give in 5 seconds. *)
Theorem C73_settles eps shortest : 0 <= eps -> forall l s rate change,
  (exists initial, k_initial s = Some initial /\
     exists before, k_last s = Some before /\ k_error s = IZR (k_count s) / 1000 - (before - initial)) ->
  Rabs (rate + 25 / 10000 * IZR change - (1 - k_error s / 5)) <= 25 / 20000 ->
  obeys eps shortest s rate change l ->
  let s' := fst (updates real_arith real_ops false s l) in
  Rabs (k_error s') <= 5 * (25 / 20000 + eps) + (1 - shortest / 5) ^ length l * Rmax 0 (Rabs (k_error s) - 5 * (25 / 20000 + eps)).
Proof.
  intros Ep l. induction l as [|m l IH]; intros s rate change K B O.
  { cbn. pose proof (Rmax_r 0 (Rabs (k_error s) - 5 * (25 / 20000 + eps))). lra. }
  cbn [obeys] in O. destruct O as (old & c0 & c & trim & b & O1 & O2 & O3 & O4 & O5 & O6 & O7 & O8 & O9 & O10). cbv zeta in *.
  destruct K as (i & K1 & b' & K2 & K3). rewrite O3 in K2. injection K2 as <-.
  set (T := m_now m - b) in *. set (rate' := IZR (c - c0) / 1000 / T) in *.
  destruct (update_second real_arith real_ops false s m) as [s1 e] eqn:U.
  assert (E : exists sent, e = {| e_trim := Some sent; e_end := Ok tt |} /\ k_last s1 = Some (m_now m) /\ k_initial s1 = Some i /\
              k_count s1 = (k_count s + (c - c0))%Z).
  { pose proof U as U'. unfold update_second in U'. unfold answers in O4. rewrite O4, O1 in U'. cbn [value sa_ms] in U'. rewrite O2 in U'. cbn [bind] in U'.
    assert (D : ms_delta c0 c = Some (c - c0)%Z) by (apply C73_delta; split; [auto|unfold goes_on; lia]). rewrite D in U'.
    unfold correct in U'. cbn [k_initial] in U'. rewrite K1, real_drift in U'. cbn [k_count k_state k_last] in U'.
    destruct (c - c0)%Z as [|p|p] eqn:P; [lia| |lia].
    match type of U' with context [new_trim ?a ?b ?x ?d ?n ?y] => destruct (new_trim a b x d n y) as [z|x'] eqn:NT end.
    - rewrite O5 in U'. injection U' as <- <-. exists z. cbn. repeat split; auto.
    - exfalso. unfold new_trim in NT. cbn [k_last k_state] in NT. rewrite O3 in NT. cbn [bind value sa_trim] in NT.
      unfold TIME_CONSTANT, TRIM_STEP_SIZE in NT. cbn [a_div a_of_Z a_sub a_neg a_add real_arith c_lit c_round real_ops] in NT.
      change (10 ^ 4)%Z with 10000%Z in NT.
      destruct (Req_EM_T 1000 0) as [X|_]; [lra|]. cbn [bind] in NT.
      destruct (Req_EM_T (m_now m - b) 0) as [X|N]; [unfold T in *; lra|]. cbn [bind] in NT.
      destruct (Req_EM_T 5 0) as [X|_]; [lra|]. cbn [bind] in NT.
      destruct (Req_EM_T (25 / 10000) 0) as [X|_]; [lra|]. discriminate. }
  destruct E as (sent & -> & E1 & E2 & E3).
  destruct (C73_trim false s m s1 _ sent U eq_refl) as (_ & i' & b' & old' & c0' & c' & trim' & H1 & H2 & H3 & H4 & H5 & H6 & H7 & H8 & H9).
  rewrite K1 in H1. injection H1 as <-. rewrite O3 in H2. injection H2 as <-. rewrite O1 in H3. injection H3 as <-.
  rewrite O2 in H4. injection H4 as <-. unfold answers in O4, H5. rewrite O4 in H5. injection H5 as <- <-. cbv zeta in H9.
  fold T in H9. fold rate' in H9.
  specialize (IH s1 rate' (sent - trim)%Z). cbv zeta in IH.
  assert (G : Rabs (k_error s1) <= (1 - T / 5) * Rabs (k_error s) + T * (25 / 20000 + eps)).
  { assert (R1 : k_error s1 = k_error s + T * (rate' - 1)).
    { rewrite H8, K3, plus_IZR. unfold rate', T. field. unfold T in *. lra. }
    rewrite R1. replace (k_error s + T * (rate' - 1)) with ((1 - T / 5) * k_error s + T * (rate' - (1 - k_error s / 5))) by field.
    eapply Rle_trans; [apply Rabs_triang|]. rewrite !Rabs_mult. rewrite (Rabs_right (1 - T / 5)) by lra. rewrite (Rabs_right T) by lra.
    apply Rplus_le_compat_l. apply Rmult_le_compat_l; [lra|].
    replace (rate' - (1 - k_error s / 5)) with ((rate' - (rate + 25 / 10000 * IZR change)) + (rate + 25 / 10000 * IZR change - (1 - k_error s / 5))) by ring.
    eapply Rle_trans; [apply Rabs_triang|]. lra. }
  cbn [updates]. rewrite U. destruct (updates real_arith real_ops false s1 l) as [s2 es] eqn:W. cbn [fst] in *.
  eapply Rle_trans; [apply IH|].
  - exists i. split; auto. exists (m_now m). split; auto. now rewrite H8, E3.
  - exact H9.
  - now apply O10.
  - cbn [length pow]. apply Rplus_le_compat_l.
    assert (q : 0 <= 1 - shortest / 5) by lra.
    rewrite (Rmult_comm (1 - shortest / 5)), Rmult_assoc. apply Rmult_le_compat_l; [now apply pow_le|].
    set (B0 := 5 * (25 / 20000 + eps)) in *. set (x := Rabs (k_error s)) in *. set (y := Rabs (k_error s1)) in *.
    assert (Y : y - B0 <= (1 - T / 5) * (x - B0)) by (unfold B0 in *; lra).
    unfold Rmax. destruct (Rle_dec 0 (y - B0)) as [A1|A1], (Rle_dec 0 (x - B0)) as [A2|A2]; try nra.
Qed.

Example C73_trim_ex :
  let m := {| m_answer := Ok (Some {| sa_ms := Some 2080%Z; sa_trim := Some 7%Z |}); m_now := 2; m_accepts := Ok tt |} in
  let s := {| k_initial := Some 0; k_state := Some {| sa_ms := Some 1100%Z; sa_trim := Some 55%Z |};
              k_count := 1100; k_error := 1 / 10; k_last := Some 1 |} in
  Rabs (11 / 10 + 25 / 10000 * IZR (-48) - (1 - k_error s / 5)) <= 25 / 20000 /\
  obeys 0 1 s (11 / 10) (-48) [m] /\
  exists s', update_second real_arith real_ops false s m = (s', {| e_trim := Some 9%Z; e_end := Ok tt |}).
Proof.
  cbv zeta. cbn [k_error]. split; [|split].
  - replace (11 / 10 + 25 / 10000 * IZR (-48) - (1 - 1 / 10 / 5)) with 0 by lra. rewrite Rabs_R0. lra.
  - cbn [obeys]. eexists _, 1100%Z, 2080%Z, 7%Z, 1. cbn [k_state k_last sa_ms m_now m_accepts].
    repeat split; auto; try lia; try lra. change (2080 - 1100)%Z with 980%Z.
    match goal with |- Rabs ?x <= _ => replace x with 0 by lra end. rewrite Rabs_R0. lra.
  - unfold update_second. cbn [m_answer k_state value sa_ms bind]. change (ms_delta 1100 2080) with (Some 980%Z).
    unfold correct. cbn [k_initial k_count k_state k_last k_error m_now m_accepts]. rewrite real_drift. cbn [k_count].
    change (1100 + 980)%Z with 2080%Z. unfold new_trim. cbn [k_last k_state bind value sa_trim].
    unfold TIME_CONSTANT, TRIM_STEP_SIZE. cbn [a_div a_of_Z a_sub a_neg a_add real_arith c_lit c_round real_ops].
    change (10 ^ 4)%Z with 10000%Z.
    destruct (Req_EM_T 1000 0) as [X|_]; [lra|]. cbn [bind].
    destruct (Req_EM_T (2 - 1) 0) as [X|N]; [lra|]. cbn [bind].
    destruct (Req_EM_T 5 0) as [X|_]; [lra|]. cbn [bind].
    destruct (Req_EM_T (25 / 10000) 0) as [X|_]; [lra|]. cbn [bind].
    rewrite (real_round_unique _ 2).
    + cbn. eauto.
    + apply Rabs_def1; lra.
Qed.

(** One lost answer is enough to break this: what passed until the next one is not counted, while
    the host counts from the beginning.  Here a device that is on time is said to be two seconds late
    after one lost answer, and made faster. *)
Theorem C73_lost_refuted : ~ (forall offset l s es,
  Forall (fun m => on_time offset m \/ m_answer m = Ok None) l ->
  updates real_arith real_ops false (new_clock real_arith) l = (s, es) -> k_error s = 0).
Proof.
  intros H.
  pose (at_ := fun t : Z => {| m_answer := Ok (Some {| sa_ms := Some (1000 * t)%Z; sa_trim := Some 0%Z |}); m_now := IZR t; m_accepts := Ok tt |}).
  pose (lost := {| m_answer := Ok None; m_now := 1; m_accepts := Ok tt |} : moment R).
  specialize (H 0 [at_ 0%Z; lost; at_ 2%Z; at_ 3%Z]).
  destruct (updates real_arith real_ops false (new_clock real_arith) [at_ 0%Z; lost; at_ 2%Z; at_ 3%Z]) as [s es] eqn:U.
  specialize (H s es).
  assert (A : forall t, on_time 0 (at_ t)).
  { intros t. exists (1000 * t)%Z, 0%Z. split; [reflexivity|]. split; [|reflexivity]. change (m_now (at_ t)) with (IZR t). rewrite mult_IZR. lra. }
  assert (K : k_error s = -2).
  { clear H A. cbn [updates] in U. cbn in U.
    match type of U with context [drift ?a ?b ?c ?d] => rewrite (real_drift b c d) in U end. cbn [k_count] in U.
    match type of U with context [match ?x with Ok _ => _ | Raise _ => _ end] => destruct x end;
      injection U as <- _; cbn; lra. }
  rewrite K in H. enough (-2 = 0) by lra. apply H; [|reflexivity]. constructor; [left; apply A|]. constructor; [right; reflexivity|]. constructor; [left; apply A|]. constructor; [left; apply A|constructor].
Qed.

(** ** Waiting for an event *)
Open Scope Z_scope.
Section Wait.
  Context {T : Type} (ar : arith T) (co : cal_ops T).
  Notation wevent := (event (@wreq T) (@wrep T)).

  Let all_due limit last next (h : list wevent) : Prop :=
    forall h1 e rest, h = h1 ++ e :: rest -> due ar co limit last next h1 e.

  Lemma all_due_snoc limit last next h e :
    all_due limit last next h -> due ar co limit last next h e -> all_due limit last next (h ++ [e]).
  Proof.
    intros H D h1 x rest E. destruct rest as [|y rest].
    - apply app_inj_tail in E as [-> ->]. exact D.
    - destruct (exists_last (l := y :: rest)) as (r & z & R); [discriminate|]. rewrite R in E.
      change (h1 ++ x :: r ++ [z]) with (h1 ++ (x :: r) ++ [z]) in E. rewrite app_assoc in E.
      apply app_inj_tail in E as [E _]. exact (H _ _ _ E).
  Qed.

  Lemma due_same limit last next h r x y :
    due ar co limit last next h (existT _ r x) -> due ar co limit last next h (existT _ r y).
  Proof. exact (fun H => H). Qed.

  Lemma ask_then {A} limit last next per h r (k : wrep r -> @proc wreq wrep A) (Q : list wevent -> option (err + A) -> Prop) :
    all_due limit last next h -> due ar co limit last next h (asked r) ->
    (forall h', all_due limit last next h' -> Q h' None) ->
    (forall h' e, all_due limit last next h' /\ ends ar limit per h' (Some (inl e)) -> Q h' (Some (inl e))) ->
    (forall a, all_due limit last next (h ++ [answered r (inr a)]) -> after (h ++ [answered r (inr a)]) (k a) Q) ->
    after h (pbind (ask r) k) Q.
  Proof.
    intros A0 D Q1 Q2 H. cbn [pbind ask]. apply after_Ask.
    - now apply Q1.
    - apply Q1. now apply all_due_snoc.
    - intros [e|a]; cbn [answer pbind].
      + assert (B : all_due limit last next (h ++ [answered r (inl e)])) by (apply all_due_snoc; [exact A0|exact D]).
        apply after_throw; [now apply Q1|]. apply Q2. split; [exact B|]. left. eauto.
      + apply H. apply all_due_snoc; [exact A0|exact D].
  Qed.

  Lemma times_app h h' : @times T (h ++ h') = times h ++ times h'.
  Proof. unfold times. apply flat_map_app. Qed.
  Lemma how_often_app f h h' : @how_often T f (h ++ h') = (how_often f h + how_often f h')%nat.
  Proof. unfold how_often. now rewrite filter_app, app_length. Qed.

  Lemma waits limit per last next t o :
    traces (wait_for_event ar co (Some limit) per (last, next)) t o ->
    all_due limit last next t /\ ends ar limit per t o.
  Proof.
    intros H. refine (traces_after _ _ (fun t o => all_due limit last next t /\ ends ar limit per t o) _ _ _ H). clear t o H. unfold wait_for_event.
    apply (ask_then limit last next per _ WNow); [intros h1 e rest E; destruct h1; discriminate|left; reflexivity|intros h' H; (exact H || (split; [exact H|exact Logic.I]))|intros h' e H; exact H|].
    intros start A0. cbn [app] in *.
    set (I := fun (h : list wevent) (x : T * T) => all_due limit last next h /\
       (exists between, times h = start :: between) /\
       fst x = steps ar (TIMESTAMP_S co) (how_often sleeps h) last /\
       snd x = steps ar (CLOCK_UPDATE_S ar) (how_often clocks h) next).
    apply (after_loop _ _ _ I).
    { split; [exact A0|]. split; [exists []; reflexivity|]. split; reflexivity. }
    intros h [la ne] (I1 & (bt & I2) & I3 & I4). cbn [fst snd] in I3, I4. unfold wait_turn.
    apply (ask_then limit last next per _ WNow); [exact I1|left; reflexivity|intros h' H; (exact H || (split; [exact H|exact Logic.I]))|intros h' e H; exact H|].
    intros now A1. set (h1 := h ++ _) in *.
    assert (T1 : times h1 = start :: bt ++ [now]) by (unfold h1; rewrite times_app, I2; reflexivity).
    destruct (a_lt ar limit (a_sub ar now start)) eqn:L.
    { apply after_throw; (split; [exact A1|]); [exact Logic.I|]. right. split; [reflexivity|]. exists h, start, bt, now. auto. }
    assert (H1 : how_often sleeps h1 = how_often sleeps h /\ how_often clocks h1 = how_often clocks h).
    { unfold h1. rewrite !how_often_app. cbn. lia. }
    destruct H1 as [H1 H1'].
    apply after_bind. 
    assert (C : after h1 (if a_lt ar ne now then pbind (ask WClocks) (fun _ => Ret (a_add ar ne (CLOCK_UPDATE_S ar))) else Ret ne)
      (fun h' o => match o with
        | None => all_due limit last next h'
        | Some (inl e) => all_due limit last next h' /\ ends ar limit per h' (Some (inl e))
        | Some (inr n) => all_due limit last next h' /\ times h' = times h1 /\ how_often sleeps h' = how_often sleeps h1 /\
            n = steps ar (CLOCK_UPDATE_S ar) (how_often clocks h') next
        end)).
    { destruct (a_lt ar ne now) eqn:N.
      - apply (ask_then limit last next per _ WClocks); [exact A1|right; exists start, bt, now; split; [exact T1|]; split; [exact L|]; cbn; rewrite H1', <- I4; exact N|intros h' H; (exact H || (split; [exact H|exact Logic.I]))|intros h' e H; exact H|].
        intros a A2. apply after_ret; [exact A2|]. split; [exact A2|].
        rewrite times_app, !how_often_app. cbn. rewrite app_nil_r. split; [reflexivity|]. split; [lia|].
        rewrite H1', Nat.add_1_r. cbn. now rewrite <- I4.
      - apply after_ret; [exact A1|]. split; [exact A1|]. rewrite H1'. auto. }
    eapply after_weaken; [exact C|]. clear C. intros h2 [[e|n]|] H; [exact H| |split; [exact H|exact Logic.I]].
    destruct H as (A2 & T2 & S2 & N2). rewrite T1 in T2.
    apply (ask_then limit last next per _ (WSleep _)); [exact A2|right; exists start, bt, now; split; [exact T2|]; split; [exact L|]; cbn; rewrite S2, H1, <- I3; reflexivity|intros h' H; (exact H || (split; [exact H|exact Logic.I]))|intros h' e H; exact H|].
    intros [] A3. set (h3 := h2 ++ _) in *.
    assert (T3 : times h3 = start :: bt ++ [now]) by (unfold h3; rewrite times_app, T2; cbn; now rewrite app_nil_r).
    assert (S3 : how_often sleeps h3 = S (how_often sleeps h) /\ how_often clocks h3 = how_often clocks h2).
    { unfold h3. rewrite !how_often_app. cbn. lia. }
    destruct S3 as [S3 S3'].
    apply (ask_then limit last next per _ WQuery); [exact A3|right; exists start, bt, now; split; [exact T3|]; split; [exact L|exact Logic.I]|intros h' H; (exact H || (split; [exact H|exact Logic.I]))|intros h' e H; exact H|].
    intros [] A4. 
    apply after_bind.
    assert (C : after (h3 ++ [answered WQuery (inr tt)]) (if per then ask WCycle else Ret tt)
      (fun h' o => match o with
        | None => all_due limit last next h'
        | Some (inl e) => all_due limit last next h' /\ ends ar limit per h' (Some (inl e))
        | Some (inr _) => all_due limit last next h' /\
            h' = h3 ++ answered WQuery (inr tt) :: (if per then [answered WCycle (inr tt)] else [])
        end)).
    { assert (D : due ar co limit last next (h3 ++ [answered WQuery (inr tt)]) (asked WCycle)).
      { right. exists start, bt, now. rewrite times_app, T3. cbn. rewrite app_nil_r. auto. }
      destruct per.
      - apply after_Ask.
        + exact A4.
        + now apply all_due_snoc.
        + assert (B : forall x, all_due limit last next ((h3 ++ [answered WQuery (inr tt)]) ++ [answered WCycle x])) by (intros x; apply all_due_snoc; [exact A4|exact D]).
          intros [e|[]]; cbn [answer].
          * apply after_throw; [apply B|]. split; [apply B|]. left. eauto.
          * apply after_ret; [apply B|]. split; [apply B|]. now rewrite <- app_assoc.
      - apply after_ret; [exact A4|]. split; [exact A4|reflexivity]. }
    eapply after_weaken; [exact C|]. clear C. intros h5 [[e|[]]|] H; [exact H| |split; [exact H|exact Logic.I]].
    destruct H as [A5 E5].
    assert (T5 : times h5 = start :: bt ++ [now] /\ how_often sleeps h5 = how_often sleeps h3 /\ how_often clocks h5 = how_often clocks h3).
    { rewrite E5, times_app, !how_often_app, T3. destruct per; cbn; rewrite app_nil_r; repeat split; lia. }
    destruct T5 as (T5 & S5 & S5').
    apply (ask_then limit last next per _ WCondition); [exact A5|right; exists start, bt, now; split; [exact T5|]; split; [exact L|exact Logic.I]|intros h' H; (exact H || (split; [exact H|exact Logic.I]))|intros h' e H; exact H|].
    intros b A6. set (h6 := h5 ++ _) in *. destruct b.
    - apply after_ret; [split; [exact A6|exact Logic.I]|]. apply after_ret; (split; [exact A6|]); [exact Logic.I|].
      exists h3. unfold h6. rewrite E5, <- app_assoc. reflexivity.
    - apply after_ret; [split; [exact A6|exact Logic.I]|]. split; [exact A6|].
      split; [exists (bt ++ [now]); unfold h6; rewrite times_app, T5; cbn; now rewrite app_nil_r|].
      cbn [fst snd]. unfold h6. rewrite !how_often_app, S5, S5', S3, S3'. cbn [how_often filter sleeps clocks question answered projT1 length].
      rewrite !Nat.add_0_r. split; [cbn; now rewrite <- I3|exact N2].
  Qed.

  (** Each thing asked for while waiting is due, whatever the answers. *)
  Theorem C73_due limit per last next t o :
    traces (wait_for_event ar co (Some limit) per (last, next)) t o ->
    forall h e rest, t = h ++ e :: rest -> due ar co limit last next h e.
  Proof. intros H. exact (proj1 (waits _ _ _ _ _ _ H)). Qed.

  Theorem C73_ends limit per last next t o :
    traces (wait_for_event ar co (Some limit) per (last, next)) t o -> ends ar limit per t o.
  Proof. intros H. exact (proj2 (waits _ _ _ _ _ _ H)). Qed.

  (** Without a time limit, which is the default, nothing is ever asked for but the time. *)
  Theorem C73_no_limit per x t o :
    traces (wait_for_event ar co None per x) t o ->
    Forall (fun e => question e = WNow) t /\
    forall r, o = Some r -> (exists e, r = inl e) /\ (r = inl (Exn TypeError) \/ exists h e, t = h ++ [answered WNow (inl e)] /\ r = inl e).
  Proof.
    destruct x as [la ne]. intros H. unfold wait_for_event in H. cbn [pbind ask] in H.
    destruct H as [[-> [->| ->]]|(y & t' & -> & H)].
    - split; [constructor|discriminate].
    - split; [repeat constructor|discriminate].
    - destruct y as [e|start]; cbn [answer pbind] in H.
      + destruct H as [-> [->| ->]]; (split; [repeat constructor|]); [discriminate|].
        intros r R. injection R as <-. split; [eauto|]. right. exists [], e. auto.
      + cbn [traces] in H. unfold wait_turn in H.
        assert (G : forall (x : T * T) t o, @traces wreq wrep _ (pbind (ask WNow) (fun _ : T => Throw (Exn TypeError) : @proc wreq wrep ((T * T) + (T * T)))) t o ->
          Forall (fun e => question e = WNow) t /\
          forall r, o = Some r -> (exists e, r = inl e) /\ (r = inl (Exn TypeError) \/ exists h e, t = h ++ [answered WNow (inl e)] /\ r = inl e)).
        { clear. intros _ t o H. cbn in H. destruct H as [[-> [->| ->]]|(y & t' & -> & H)].
          - split; [constructor|discriminate].
          - split; [repeat constructor|discriminate].
          - destruct y as [e|n]; cbn in H; destruct H as [-> [->| ->]]; (split; [repeat constructor|]); try discriminate;
              intros r R; injection R as <-; (split; [eauto|]); auto. right. exists [], e. auto. }
        inversion H as [y u R|y u e R|y u y' u' o' R R'|y u b u' o' R R']; subst; apply (G (la, ne)) in R; destruct R as [R1 R2].
        * split; [constructor; auto|discriminate].
        * split; [constructor; auto|]. intros r E. injection E as <-. destruct (R2 _ eq_refl) as [_ [Q|(hh & ee & Q1 & Q2)]].
          -- injection Q as ->. split; eauto.
          -- injection Q2 as ->. split; [eauto|]. right. exists (answered WNow (inr start) :: hh), ee. rewrite Q1. auto.
        * destruct (R2 _ eq_refl) as [(e & Q) _]. discriminate.
        * destruct (R2 _ eq_refl) as [(e & Q) _]. discriminate.
  Qed.
End Wait.

(** A waiting of one second on a clock that goes on by 0.3 seconds from one look to the next: the
    condition holds after the second turn. *)
Definition wait_dev (step : float) (w : float * nat) (r : @wreq float) : (float * nat) * (err + wrep r) :=
  match r with
  | WNow => ((fadd (fst w) step, snd w), inr (fst w))
  | WCondition => ((fst w, pred (snd w)), inr (Nat.leb (snd w) 1))
  | _ => (w, inr tt)
  end.
Definition farith := float_arith left_sum.
Definition seconds (k : Z) : float := flit k 1.
Example C73_due_ex :
  exists t x w, drive 100 (wait_dev (seconds 3)) (seconds 100, 2%nat) (wait_for_event farith float_ops (Some (seconds 10)) true (seconds 100, seconds 105))
    = Some (t, inr x, w) /\ map question t =
      [WNow; WNow; WSleep (fsub (fadd (seconds 100) (flit 1 2)) (fadd (seconds 100) (seconds 3))); WQuery; WCycle; WCondition;
       WNow; WClocks; WSleep (fsub (fadd (fadd (seconds 100) (flit 1 2)) (flit 1 2)) (fadd (fadd (seconds 100) (seconds 3)) (seconds 3))); WQuery; WCycle; WCondition].
Proof. eexists _, _, _. split; vm_compute; reflexivity. Qed.
Example C73_ends_ex :
  exists t w, drive 100 (wait_dev (seconds 3)) (seconds 100, 9%nat) (wait_for_event farith float_ops (Some (seconds 10)) false (seconds 100, seconds 105))
    = Some (t, inl (Exn RuntimeError), w) /\ how_often sleeps t = 3%nat.
Proof. eexists _, _. split; vm_compute; reflexivity. Qed.

(** The clocks are meant to be updated once in a second at most.  When the program was busy for some
    seconds they are updated in one turn after the other until that is made up for, as many times
    as there were seconds. *)
Theorem C73_rate_refuted : ~ (forall limit per last next t o h1 h2 rest e1 e2 n1 n2 b1 b2,
  traces (wait_for_event farith float_ops (Some limit) per (last, next)) t o ->
  t = h1 ++ e1 :: h2 ++ e2 :: rest -> clocks e1 = true -> clocks e2 = true ->
  times h1 = b1 ++ [n1] -> times (h1 ++ e1 :: h2) = b2 ++ [n2] -> fltb n1 n2 = true).
Proof.
  intros H.
  destruct (drive 100 (wait_dev (seconds 0)) (seconds 100, 2%nat) (wait_for_event farith float_ops (Some (seconds 10)) false (seconds 0, seconds 10)))
    as [[[t o] w]|] eqn:D; [|vm_compute in D; discriminate].
  pose proof (drive_traces _ _ _ _ _ _ _ _ _ D) as R.
  specialize (H _ _ _ _ _ _ (firstn 2 t) (firstn 4 (skipn 3 t)) (skipn 8 t)
    (nth 2 t (asked WNow)) (nth 7 t (asked WNow)) (seconds 100) (seconds 100) [seconds 100] [seconds 100; seconds 100] R).
  vm_compute in D. injection D as <- _ _. vm_compute in H.
  assert (false = true) by (apply H; reflexivity). discriminate.
Qed.

Print Assumptions C73_delta.
Print Assumptions C73_wrap.
Print Assumptions C73_wrap_refuted.
Print Assumptions C73_count.
Print Assumptions C73_measure.
Print Assumptions C73_trim.
Print Assumptions C73_shown.
Print Assumptions C73_perfect.
Print Assumptions C73_settles.
Print Assumptions C73_lost_refuted.
Print Assumptions C73_due.
Print Assumptions C73_ends.
Print Assumptions C73_no_limit.
Print Assumptions C73_rate_refuted.
