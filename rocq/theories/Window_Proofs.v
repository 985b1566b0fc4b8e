(** Proofs for C67: a step of the loop as one device sees it. *)
From Coq Require Import ZArith List Bool Lia ZifyBool ZifyNat.
From Verif Require Import PyBase PyBytes Mux_Model Ctrl_Model Combiner_Proofs Props_Frame Reader_Model Tview_Model Tview_Spec Tview_Proofs Window_Model Window_Spec.
Import ListNotations.
Open Scope Z_scope.

(** ** Lists *)

Lemma change_length : forall i f l, length (change i f l) = length l.
Proof. induction i as [|i IH]; intros f [|d l]; cbn; try reflexivity. f_equal. apply IH. Qed.

Lemma change_same : forall i f l d, nth_error l i = Some d -> nth_error (change i f l) i = Some (f d).
Proof.
  induction i as [|i IH]; intros f [|x l] d H; try discriminate; cbn in *.
  - congruence.
  - apply IH. exact H.
Qed.

Lemma change_other : forall i j f l, i <> j -> nth_error (change i f l) j = nth_error l j.
Proof.
  induction i as [|i IH]; intros [|j] f [|x l] H; try reflexivity; cbn; try congruence.
  apply IH. congruence.
Qed.

Lemma change_numbers : forall i f l, (forall d, d_ct (f d) = d_ct d) ->
  map d_ct (change i f l) = map d_ct l.
Proof.
  intros i f l H. revert i. induction l as [|x l IH]; intros [|i]; cbn; try reflexivity.
  - rewrite H. reflexivity.
  - rewrite IH. reflexivity.
Qed.

Lemma find_dev_some : forall l n j, find_dev l n = Some j -> exists d, nth_error l j = Some d /\ number d = n.
Proof.
  induction l as [|x l IH]; intros n j H; [discriminate|]. cbn in H.
  destruct (number x =? n) eqn:E.
  - injection H as <-. exists x. split; [reflexivity|lia].
  - destruct (find_dev l n) as [k|] eqn:F; [|discriminate]. injection H as <-. apply IH. exact F.
Qed.

Lemma find_dev_here : forall l i d, NoDup (map (fun d => number d) l) -> nth_error l i = Some d ->
  find_dev l (number d) = Some i.
Proof.
  induction l as [|x l IH]; intros [|i] d N H; try discriminate; cbn in *.
  - injection H as ->. rewrite Z.eqb_refl. reflexivity.
  - inversion N as [|? ? N1 N2]; subst. replace (number x =? number d) with false.
    + rewrite (IH i d N2 H). reflexivity.
    + symmetry. apply Z.eqb_neq. intro E. apply N1. rewrite E. apply in_map_iff. exists d.
      split; [reflexivity|]. eapply nth_error_In. exact H.
Qed.

Lemma source_div : forall id, source_id id = (id / 256) mod 256.
Proof.
  intro id. unfold source_id. change 0xff with (Z.ones 8). rewrite Z.land_ones, Z.shiftr_div_pow2 by lia. reflexivity.
Qed.

(** ** Steps *)

(** The entry says nothing about device [i], which has the number [n]. *)
Definition foreign (i : nat) (n : Z) (e : entry) : Prop :=
  match e with
  | Wrote j _ _ | Frame j _ | Asked j _ | Skipped j | Answered j | TimedOut j | Begun j | Ran j => j <> i
  | Received id _ => sent_byb n id = false
  | Pass => True
  end.

Definition awaiting (i : nat) (p : pc) : bool := match p with Awaiting j => (j =? i)%nat | _ => false end.
(** Whether the loop has passed the turn of [i] to emit. *)
Definition past (i : nat) (p : pc) : nat := match p with AtEmit j => if (j <=? i)%nat then 0 else 1 | _ => 1 end.

Inductive view (i : nat) (d : dev) (p : pc) : dev -> pc -> list entry -> Prop :=
| v_foreign p' new : Forall (foreign i (number d)) new -> awaiting i p' = awaiting i p ->
    (p' = p \/ awaiting i p = false) -> (passes new + past i p' = past i p)%nat -> view i d p d p' new
| v_idle : p = AtEmit i -> d_wbuf d = [] -> view i d p d (AtEmit (S i)) []
| v_user data : view i d p (add_write data d) p [Wrote i User data]
| v_create : d_progress d = Created ->
    view i d p (add_write tel_stop (set_progress Sleeping (d_mach d) d)) p [Wrote i Task tel_stop]
| v_begin : d_progress d = Sleeping -> (5 <= d_polls d)%nat -> (1 <= d_emits d)%nat ->
    view i d p (set_progress Running (start_of session) d) p [Begun i]
| v_run m sends : d_progress d = Running -> m = step (d_mach d) Run -> sends = writes (new_notes (d_mach d) m) ->
    view i d p (add_write (concat sends) (set_progress Running m d)) p (Ran i :: map (Wrote i Task) sends)
| v_frame c : p = AtEmit i -> d_wbuf d <> [] ->
    make_diagnostic_write (d_ct d) (firstn MAX_SEND (d_wbuf d)) 1 = Ok c ->
    view i d p (emitted d) (AtEmit (S i)) [Frame i c]
| v_skip : p = AtPoll i -> (0 < d_skip d)%nat ->
    view i d p (set_errors (d_errors d) (d_skip d - 1) d) (AtPoll (S i)) [Skipped i]
| v_ask c : p = AtPoll i -> d_skip d = 0%nat -> make_diagnostic_read (d_ct d) 48 1 = Ok c ->
    view i d p (polled d) (Awaiting i) [Asked i c]
| v_message id data : awaiting i p = false -> (exists k, p = Awaiting k) -> sent_byb (number d) id = true ->
    view i d p (deliver data d) p [Received id data]
| v_answer id data : p = Awaiting i -> sent_byb (number d) id = true ->
    view i d p (set_errors 0 0 (deliver data d)) (AtPoll (S i)) [Received id data; Answered i]
| v_timeout : p = Awaiting i ->
    view i d p (let e := Nat.min 1000 (d_errors d + 1) in set_errors e e d) (AtPoll (S i)) [TimedOut i].

(** What stays true of all. *)
Record sane (cts : list controller) (w : win) : Prop := {
  s_cts : map d_ct (w_devs w) = cts;
  s_pc : match w_pc w with
         | AtEmit k | AtPoll k => (k <= length cts)%nat
         | Awaiting k => (k < length cts)%nat
         | Dead _ => False
         end
}.

Lemma sane_length : forall cts w, sane cts w -> length (w_devs w) = length cts.
Proof. intros cts w [<- _]. rewrite map_length. reflexivity. Qed.

Lemma write_ok : forall ct l, exists c, make_diagnostic_write ct (firstn MAX_SEND l) 1 = Ok c.
Proof.
  intros ct l. destruct (C19_diagnostic_write ct (firstn MAX_SEND l) 1) as (c & H & _).
  - rewrite firstn_length. unfold MAX_SEND. lia.
  - lia.
  - eauto.
Qed.

Lemma read_ok : forall ct, exists c, make_diagnostic_read ct 48 1 = Ok c.
Proof. intro ct. destruct (C19_diagnostic_read ct 48 1) as (c & H & _); try lia. eauto. Qed.

Lemma deliver_ct : forall data d, d_ct (deliver data d) = d_ct d.
Proof. intros data d. unfold deliver. destruct (d_progress d); reflexivity. Qed.

Lemma sane_step : forall cts w e, sane cts w -> sane cts (wstep w e).
Proof.
  intros cts w e S. pose proof (sane_length _ _ S) as L. destruct S as [C P].
  assert (B : forall i d, nth_error (w_devs w) i = Some d -> (i < length cts)%nat).
  { intros i d H. rewrite <- L. apply nth_error_Some. congruence. }
  destruct e as [i data|i| |id data|]; cbn [wstep].
  - destruct (nth_error (w_devs w) i) eqn:E; [|split; assumption].
    split; cbn; [|exact P]. rewrite change_numbers; [exact C|reflexivity].
  - unfold run_device. destruct (nth_error (w_devs w) i) as [d|] eqn:E; [|split; assumption].
    destruct (d_progress d).
    + split; cbn; [|exact P]. rewrite change_numbers; [exact C|reflexivity].
    + destruct (_ || _)%bool; [split; assumption|]. split; cbn; [|exact P]. rewrite change_numbers; [exact C|reflexivity].
    + split; cbn; [|exact P]. rewrite change_numbers; [exact C|reflexivity].
  - unfold run_transport. destruct (w_pc w) as [i|i|i|x] eqn:Q; try (split; [exact C|rewrite Q; exact P]).
    + destruct (nth_error (w_devs w) i) as [d|] eqn:E.
      * pose proof (B _ _ E). destruct (length (d_wbuf d) =? 0)%nat.
        { split; cbn; [exact C|lia]. }
        destruct (write_ok (d_ct d) (d_wbuf d)) as (c & ->). split; cbn; [|lia].
        rewrite change_numbers; [exact C|reflexivity].
      * split; cbn; [exact C|lia].
    + destruct (nth_error (w_devs w) i) as [d|] eqn:E.
      * pose proof (B _ _ E). destruct (0 <? d_skip d)%nat.
        { split; cbn; [|lia]. rewrite change_numbers; [exact C|reflexivity]. }
        destruct (read_ok (d_ct d)) as (c & ->). split; cbn; [|lia].
        rewrite change_numbers; [exact C|reflexivity].
      * split; cbn; [exact C|lia].
  - unfold receive. destruct (w_pc w) as [i|i|i|x] eqn:Q; try (split; [exact C|rewrite Q; exact P]).
    set (devs := match find_dev (w_devs w) (source_id id) with Some j => _ | None => _ end).
    assert (CD : map d_ct devs = cts).
    { subst devs. destruct (find_dev _ _); [|exact C]. rewrite change_numbers; [exact C|apply deliver_ct]. }
    destruct (nth_error devs i) as [d|]; [|split; [exact C|rewrite Q; exact P]].
    destruct (_ =? _); split; cbn; try assumption; try lia.
    rewrite change_numbers; [exact CD|reflexivity].
  - unfold time_out. destruct (w_pc w) as [i|i|i|x] eqn:Q; try (split; [exact C|rewrite Q; exact P]).
    split; cbn; [|lia]. rewrite change_numbers; [exact C|reflexivity].
Qed.

Lemma foreign_view : forall i d p new, Forall (foreign i (number d)) new -> passes new = 0%nat -> view i d p d p new.
Proof. intros i d p new F P. apply v_foreign; [exact F|reflexivity|auto|lia]. Qed.

Lemma passes_writes : forall i l, passes (map (Wrote i Task) l) = 0%nat.
Proof. intros i l. induction l as [|x l IH]; [reflexivity|exact IH]. Qed.

Lemma view_step : forall cts w e i d, sane cts w -> NoDup (map ct_id cts) -> nth_error (w_devs w) i = Some d ->
  exists d' new, nth_error (w_devs (wstep w e)) i = Some d' /\ w_log (wstep w e) = w_log w ++ new /\
    view i d (w_pc w) d' (w_pc (wstep w e)) new.
Proof.
  intros cts w e i d S N H. pose proof (sane_length _ _ S) as L. pose proof (s_cts _ _ S) as C. pose proof (s_pc _ _ S) as P.
  assert (I : (i < length cts)%nat) by (rewrite <- L; apply nth_error_Some; congruence).
  assert (same : forall w', w' = w -> exists d' new, nth_error (w_devs w') i = Some d' /\ w_log w' = w_log w ++ new /\
    view i d (w_pc w) d' (w_pc w') new).
  { intros w' ->. exists d, []. rewrite app_nil_r. split; [exact H|]. split; [reflexivity|]. apply foreign_view; [constructor|reflexivity]. }
  destruct e as [j data|j| |id data|]; cbn [wstep].
  - destruct (nth_error (w_devs w) j) as [dj|] eqn:E; [|apply same; reflexivity].
    destruct (Nat.eq_dec j i) as [->|J].
    + eexists; eexists. cbn. split; [apply change_same; exact H|]. split; [reflexivity|]. apply v_user.
    + exists d; eexists. cbn. split; [rewrite change_other by exact J; exact H|]. split; [reflexivity|].
      apply foreign_view; [repeat constructor; exact J|reflexivity].
  - unfold run_device. destruct (nth_error (w_devs w) j) as [dj|] eqn:E; [|apply same; reflexivity].
    destruct (Nat.eq_dec j i) as [->|J].
    + rewrite H in E. injection E as <-. destruct (d_progress d) eqn:Pr.
      * eexists; eexists. cbn. split; [apply change_same; exact H|]. split; [reflexivity|]. apply v_create. exact Pr.
      * destruct ((d_polls d <? 5)%nat || (d_emits d <? 1)%nat)%bool eqn:G; [apply same; reflexivity|].
        eexists; eexists. cbn [w_devs w_log w_pc]. split; [apply change_same; exact H|]. split; [reflexivity|].
        apply v_begin; [exact Pr| |]; lia.
      * eexists; eexists. cbn. split; [apply change_same; exact H|]. split; [reflexivity|].
        apply v_run; auto.
    + destruct (d_progress dj).
      * exists d; eexists. cbn. split; [rewrite change_other by exact J; exact H|]. split; [reflexivity|].
        apply foreign_view; [repeat constructor; exact J|reflexivity].
      * destruct (_ || _)%bool; [apply same; reflexivity|].
        exists d; eexists. cbn. split; [rewrite change_other by exact J; exact H|]. split; [reflexivity|].
        apply foreign_view; [repeat constructor; exact J|reflexivity].
      * exists d; eexists. cbn. split; [rewrite change_other by exact J; exact H|]. split; [reflexivity|].
        apply foreign_view; [|apply (passes_writes j)]. constructor; [exact J|].
        apply Forall_forall. intros x X. apply in_map_iff in X. destruct X as (y & <- & _). exact J.
  - unfold run_transport. destruct (w_pc w) as [j|j|j|x] eqn:Q; try exact (same w eq_refl).
    + destruct (nth_error (w_devs w) j) as [dj|] eqn:E.
      * destruct (Nat.eq_dec j i) as [->|J].
        -- rewrite H in E. injection E as <-. destruct (length (d_wbuf d) =? 0)%nat eqn:Z.
           ++ exists d, []. cbn. rewrite app_nil_r. split; [exact H|]. split; [reflexivity|].
              apply v_idle; [reflexivity|]. destruct (d_wbuf d); [reflexivity|discriminate].
           ++ destruct (write_ok (d_ct d) (d_wbuf d)) as (c & W). rewrite W. eexists; eexists. cbn.
              split; [apply change_same; exact H|]. split; [reflexivity|]. apply v_frame; [reflexivity| |exact W].
              intro X. rewrite X in Z. discriminate.
        -- assert (Pj : past i (AtEmit (Datatypes.S j)) = past i (AtEmit j)) by (unfold past; destruct (Datatypes.S j <=? i)%nat eqn:A, (j <=? i)%nat eqn:B; lia).
           destruct (length (d_wbuf dj) =? 0)%nat.
           ++ exists d, []. cbn. rewrite app_nil_r. split; [exact H|]. split; [reflexivity|].
              apply v_foreign; [constructor|reflexivity|right; reflexivity|exact Pj].
           ++ destruct (write_ok (d_ct dj) (d_wbuf dj)) as (c & ->). exists d; eexists. cbn [w_devs w_log w_pc].
              split; [rewrite change_other by exact J; exact H|]. split; [reflexivity|].
              apply v_foreign; [repeat constructor; exact J|reflexivity|right; reflexivity|exact Pj].
      * exists d, []. cbn [w_devs w_log w_pc]. rewrite app_nil_r. split; [exact H|]. split; [reflexivity|].
        apply v_foreign; [constructor|reflexivity|right; reflexivity|].
        apply nth_error_None in E. cbn. destruct (j <=? i)%nat eqn:A; lia.
    + destruct (nth_error (w_devs w) j) as [dj|] eqn:E.
      * destruct (Nat.eq_dec j i) as [->|J].
        -- rewrite H in E. injection E as <-. destruct (0 <? d_skip d)%nat eqn:Z.
           ++ eexists; eexists. cbn [w_devs w_log w_pc]. split; [apply change_same; exact H|]. split; [reflexivity|].
              apply v_skip; [reflexivity|lia].
           ++ destruct (read_ok (d_ct d)) as (c & W). rewrite W. eexists; eexists. cbn.
              split; [apply change_same; exact H|]. split; [reflexivity|]. apply v_ask; [reflexivity|lia|exact W].
        -- assert (Wj : awaiting i (Awaiting j) = false) by (cbn; lia).
           destruct (0 <? d_skip dj)%nat.
           ++ exists d; eexists. cbn [w_devs w_log w_pc]. split; [rewrite change_other by exact J; exact H|]. split; [reflexivity|].
              apply v_foreign; [repeat constructor; exact J|reflexivity|right; reflexivity|reflexivity].
           ++ destruct (read_ok (d_ct dj)) as (c & ->). exists d; eexists. cbn [w_devs w_log w_pc].
              split; [rewrite change_other by exact J; exact H|]. split; [reflexivity|].
              apply v_foreign; [repeat constructor; exact J|exact Wj|right; reflexivity|reflexivity].
      * exists d; eexists. cbn [w_devs w_log w_pc]. split; [exact H|]. split; [reflexivity|].
        apply v_foreign; [repeat constructor|reflexivity|right; reflexivity|reflexivity].
  - unfold receive. destruct (w_pc w) as [j|j|j|x] eqn:Q; try exact (same w eq_refl).
    assert (ND : NoDup (map (fun d => number d) (w_devs w))).
    { rewrite <- C in N. rewrite map_map in N. exact N. }
    assert (SB : sent_byb (number d) id = (source_id id =? number d)) by (unfold sent_byb; rewrite source_div; reflexivity).
    assert (NJ : exists dj, nth_error (w_devs w) j = Some dj).
    { destruct (nth_error (w_devs w) j) eqn:E; [eauto|]. apply nth_error_None in E. lia. }
    destruct NJ as (dj & NJ).
    set (devs := match find_dev (w_devs w) (source_id id) with Some k => _ | None => _ end).
    assert (NJ' : exists dj', nth_error devs j = Some dj' /\ number dj' = number dj /\
        (j = i -> dj' = if source_id id =? number d then deliver data d else d)).
    { subst devs. destruct (find_dev (w_devs w) (source_id id)) as [k|] eqn:F.
      - destruct (find_dev_some _ _ _ F) as (dk & K1 & K2). destruct (Nat.eq_dec k j) as [->|KJ].
        + rewrite NJ in K1. injection K1 as <-. eexists. split; [apply change_same; exact NJ|].
          split; [unfold number; rewrite deliver_ct; reflexivity|]. intros ->. rewrite H in NJ. injection NJ as <-.
          replace (source_id id =? number d) with true by lia. reflexivity.
        + exists dj. rewrite change_other by exact KJ. split; [exact NJ|]. split; [reflexivity|].
          intros ->. rewrite H in NJ. injection NJ as <-. destruct (source_id id =? number d) eqn:X; [|reflexivity].
          exfalso. apply Z.eqb_eq in X. rewrite X, (find_dev_here _ _ _ ND H) in F. congruence.
      - exists dj. split; [exact NJ|]. split; [reflexivity|]. intros ->. rewrite H in NJ. injection NJ as <-.
        destruct (source_id id =? number d) eqn:X; [|reflexivity].
        exfalso. apply Z.eqb_eq in X. rewrite X, (find_dev_here _ _ _ ND H) in F. discriminate. }
    destruct NJ' as (dj' & NJ' & NN & ND').
    assert (NI : nth_error devs i = Some (if source_id id =? number d then deliver data d else d)).
    { subst devs. destruct (source_id id =? number d) eqn:X.
      - apply Z.eqb_eq in X. rewrite X, (find_dev_here _ _ _ ND H). apply change_same. exact H.
      - destruct (find_dev (w_devs w) (source_id id)) as [k|] eqn:F; [|exact H].
        destruct (find_dev_some _ _ _ F) as (dk & K1 & K2).
        rewrite change_other; [exact H|]. intros ->. rewrite H in K1. injection K1 as <-. lia. }
    clearbody devs. rewrite NJ'. rewrite NN.
    destruct (Nat.eq_dec j i) as [->|J].
    + rewrite H in NJ. injection NJ as <-. specialize (ND' eq_refl).
      destruct (source_id id =? number d) eqn:X.
      * exists (set_errors 0 0 (deliver data d)), [Received id data; Answered i]. cbn [w_devs w_log w_pc].
        split; [apply change_same; exact NI|]. split; [rewrite <- app_assoc; reflexivity|].
        apply v_answer; [reflexivity|]. exact SB.
      * exists d, [Received id data]. cbn [w_devs w_log w_pc]. split; [exact NI|]. split; [reflexivity|].
        apply foreign_view; [|reflexivity]. repeat constructor. exact SB.
    + destruct (source_id id =? number dj) eqn:X.
      * assert (X2 : (source_id id =? number d) = false).
        { destruct (source_id id =? number d) eqn:Y; [|reflexivity]. exfalso. apply J.
          pose proof (find_dev_here _ _ _ ND H) as A. pose proof (find_dev_here _ _ _ ND NJ) as B.
          replace (number dj) with (number d) in B by lia. congruence. }
        rewrite X2 in NI, SB. exists d, [Received id data; Answered j]. cbn [w_devs w_log w_pc].
        split; [rewrite change_other by exact J; exact NI|]. split; [rewrite <- app_assoc; reflexivity|].
        apply v_foreign; [repeat constructor; [exact SB|exact J]|cbn; lia|right; cbn; lia|reflexivity].
      * destruct (source_id id =? number d) eqn:Y.
        -- exists (deliver data d), [Received id data]. cbn [w_devs w_log w_pc]. split; [exact NI|]. split; [reflexivity|].
           apply v_message; [cbn; lia|eauto|exact SB].
        -- exists d, [Received id data]. cbn [w_devs w_log w_pc]. split; [exact NI|]. split; [reflexivity|].
           apply foreign_view; [repeat constructor; exact SB|reflexivity].
  - unfold time_out. destruct (w_pc w) as [j|j|j|x] eqn:Q; try exact (same w eq_refl).
    destruct (Nat.eq_dec j i) as [->|J].
    + eexists; eexists. cbn [w_devs w_log w_pc]. split; [apply change_same; exact H|]. split; [reflexivity|].
      apply v_timeout. reflexivity.
    + exists d; eexists. cbn [w_devs w_log w_pc]. split; [rewrite change_other by exact J; exact H|]. split; [reflexivity|].
      apply v_foreign; [repeat constructor; exact J|cbn; lia|right; cbn; lia|reflexivity].
Qed.

(** ** Induction *)

Lemma wstep_sane : forall cts es w, sane cts w -> sane cts (fold_left wstep es w).
Proof. intros cts es. induction es as [|e es IH]; intros w S; [exact S|]. apply IH. apply sane_step. exact S. Qed.

Lemma opened_sane : forall cts, sane cts (opened cts).
Proof.
  intro cts. split; cbn; [|lia]. rewrite map_map. apply map_id.
Qed.

Lemma wruns_sane : forall cts es, sane cts (wruns cts es).
Proof. intros. apply wstep_sane, opened_sane. Qed.

Lemma view_ct : forall i d p d' p' new, view i d p d' p' new -> d_ct d' = d_ct d.
Proof. intros i d p d' p' new V. destruct V; try reflexivity; cbn; apply deliver_ct. Qed.

Lemma dev_induction : forall cts i ct (Q : dev -> pc -> list entry -> Prop),
  NoDup (map ct_id cts) ->
  (forall d p log d' p' new, d_ct d = ct -> Q d p log -> view i d p d' p' new -> Q d' p' (log ++ new)) ->
  forall es w d log0 log, sane cts w -> w_log w = log0 ++ log -> nth_error (w_devs w) i = Some d -> d_ct d = ct -> Q d (w_pc w) log ->
  let w' := fold_left wstep es w in
  exists d' new, nth_error (w_devs w') i = Some d' /\ d_ct d' = ct /\ w_log w' = log0 ++ log ++ new /\ Q d' (w_pc w') (log ++ new).
Proof.
  intros cts i ct Q N HQ es. induction es as [|e es IH]; intros w d log0 log S W H C Q0; cbv zeta.
  - exists d, []. cbn. rewrite app_nil_r. auto.
  - cbn [fold_left]. destruct (view_step cts w e i d S N H) as (d1 & new & H1 & L1 & V).
    rewrite W, <- app_assoc in L1.
    assert (C1 : d_ct d1 = ct) by (rewrite (view_ct _ _ _ _ _ _ V); exact C).
    destruct (IH (wstep w e) d1 log0 (log ++ new) (sane_step _ _ _ S) L1 H1 C1 (HQ _ _ _ _ _ _ C Q0 V)) as (d2 & new2 & H2 & C2 & L2 & Q2).
    exists d2, (new ++ new2). rewrite <- app_assoc in L2, Q2. auto.
Qed.

Lemma dev_start : forall cts i ct (Q : dev -> pc -> list entry -> Prop),
  NoDup (map ct_id cts) -> nth_error cts i = Some ct -> Q (fresh ct) (AtEmit 0) [] ->
  (forall d p log d' p' new, d_ct d = ct -> Q d p log -> view i d p d' p' new -> Q d' p' (log ++ new)) ->
  forall es, exists d, nth_error (w_devs (wruns cts es)) i = Some d /\ d_ct d = ct /\
    Q d (w_pc (wruns cts es)) (w_log (wruns cts es)).
Proof.
  intros cts i ct Q N H Q0 HQ es.
  destruct (dev_induction cts i ct Q N HQ es (opened cts) (fresh ct) [] [] (opened_sane _) eq_refl) as (d & new & A & B & C & D);
    try reflexivity; try assumption.
  - cbn. rewrite nth_error_map, H. reflexivity.
  - exists d. unfold wruns. rewrite C. auto.
Qed.

(** ** Reading the log *)

Lemma written_app : forall i a b, written i (a ++ b) = written i a ++ written i b.
Proof. intros. apply flat_map_app. Qed.
Lemma user_written_app : forall i a b, user_written i (a ++ b) = user_written i a ++ user_written i b.
Proof. intros. apply flat_map_app. Qed.
Lemma task_written_app : forall i a b, task_written i (a ++ b) = task_written i a ++ task_written i b.
Proof. intros. apply flat_map_app. Qed.
Lemma frames_app : forall i a b, frames i (a ++ b) = frames i a ++ frames i b.
Proof. intros. apply flat_map_app. Qed.
Lemma turns_app : forall i a b, turns_of i (a ++ b) = turns_of i a ++ turns_of i b.
Proof. intros. apply flat_map_app. Qed.
Lemma outcomes_app : forall i a b, outcomes i (a ++ b) = outcomes i a ++ outcomes i b.
Proof. intros. apply flat_map_app. Qed.
Lemma begun_app : forall i a b, begun i (a ++ b) = begun i a || begun i b.
Proof. intros. apply existsb_app. Qed.
Lemma passes_app : forall a b, passes (a ++ b) = (passes a + passes b)%nat.
Proof. intros. unfold passes. rewrite filter_app, app_length. reflexivity. Qed.
Lemma bytes_sent_app : forall i a b, bytes_sent i (a ++ b) = bytes_sent i a ++ bytes_sent i b.
Proof. intros. unfold bytes_sent. rewrite frames_app, map_app, concat_app. reflexivity. Qed.
Lemma seen_by_app : forall i n a b, seen_by i n (a ++ b) = seen_by i n a ++ seen_by i n b.
Proof.
  intros i n a b. induction a as [|e a IH]; [reflexivity|]. cbn.
  destruct e; try exact IH.
  - destruct (sent_byb n id); cbn; rewrite IH; reflexivity.
  - destruct (_ =? _)%nat; cbn; rewrite IH; reflexivity.
Qed.
Lemma history_app : forall i n a b,
  history i n (a ++ b) = if begun i a then history i n a ++ seen_by i n b else history i n b.
Proof.
  intros i n a b. induction a as [|e a IH]; [reflexivity|]. cbn.
  destruct e; try exact IH. destruct (_ =? _)%nat; [|exact IH]. apply seen_by_app.
Qed.

Lemma foreign_nil : forall i n new, Forall (foreign i n) new ->
  written i new = [] /\ user_written i new = [] /\ task_written i new = [] /\ frames i new = [] /\ turns_of i new = [] /\
  outcomes i new = [] /\ begun i new = false /\ seen_by i n new = [].
Proof.
  intros i n new F. induction F as [|e new F1 F2 (I1 & I2 & I3 & I4 & I5 & I6 & I7 & I8)]; [repeat split|].
  unfold written, user_written, task_written, frames, turns_of, outcomes, begun in *.
  cbn [flat_map existsb seen_by]. rewrite I1, I2, I3, I4, I5, I6, I7, I8.
  destruct e as [j b data|j c|j c|j|j|j|id data|j|j|]; cbn [foreign] in F1; try apply Nat.eqb_neq in F1; rewrite ?F1; try destruct b; repeat split.
Qed.

(** ** Writing *)

Definition good_frame (ct : controller) (c : Ctrl_Model.command) : Prop :=
  cmd_destination c = ct_id ct /\ cmd_reply_required c = false /\ (length (cmd_data c) <= 64)%nat /\
  (1 <= length (payload c) <= 61)%nat /\
  forall padding, spec_stream 0x40 (cmd_data c ++ padding) = Some (1, payload c).

Lemma write_payload : forall ct data c, (length data <= 61)%nat -> make_diagnostic_write ct data 1 = Ok c -> payload c = data.
Proof.
  intros ct data c L H. unfold make_diagnostic_write in H.
  replace (length data <=? 61)%nat with true in H by lia.
  change (write_int8 [] STREAM_CLIENT_DATA) with (@Ok writer [0x40]) in H. cbn [bind] in H.
  rewrite write_int8_ok in H by lia. cbn [bind] in H.
  rewrite write_int8_ok in H by lia. cbn [bind] in H.
  injection H as <-. unfold payload. cbn [cmd_data make_command].
  cbn [app]. rewrite Nat2Z.id. apply firstn_all.
Qed.

Lemma write_good : forall ct l c, l <> [] -> make_diagnostic_write ct (firstn MAX_SEND l) 1 = Ok c ->
  good_frame ct c /\ payload c = firstn MAX_SEND l.
Proof.
  intros ct l c N H.
  assert (L : (1 <= length (firstn MAX_SEND l) <= 61)%nat).
  { rewrite firstn_length. unfold MAX_SEND. destruct l; [congruence|]. cbn [length]. lia. }
  pose proof (write_payload _ _ _ (proj2 L) H) as P.
  destruct (C19_diagnostic_write ct (firstn MAX_SEND l) 1) as (c' & H' & A & B & C & D); try lia.
  rewrite H in H'. injection H' as <-. split; [|exact P].
  unfold good_frame. rewrite P. auto.
Qed.

Definition writing (ct : controller) (i : nat) (d : dev) (p : pc) (log : list entry) : Prop :=
  Forall (good_frame ct) (frames i log) /\ concat (written i log) = bytes_sent i log ++ d_wbuf d.

Lemma written_task : forall i l, written i (map (Wrote i Task) l) = l.
Proof.
  intros i l. induction l as [|x l IH]; [reflexivity|]. unfold written in *. cbn. rewrite Nat.eqb_refl. cbn. rewrite IH. reflexivity.
Qed.
Lemma task_written_task : forall i l, task_written i (map (Wrote i Task) l) = l.
Proof.
  intros i l. induction l as [|x l IH]; [reflexivity|]. unfold task_written in *. cbn. rewrite Nat.eqb_refl. cbn. rewrite IH. reflexivity.
Qed.
Lemma frames_task : forall i l, frames i (map (Wrote i Task) l) = [].
Proof. intros i l. induction l as [|x l IH]; [reflexivity|]. exact IH. Qed.

Lemma written_one : forall i b x, written i [Wrote i b x] = [x].
Proof. intros. unfold written. cbn. rewrite Nat.eqb_refl. reflexivity. Qed.
Lemma task_one : forall i x, task_written i [Wrote i Task x] = [x].
Proof. intros. unfold task_written. cbn. rewrite Nat.eqb_refl. reflexivity. Qed.
Lemma frames_one : forall i c, frames i [Frame i c] = [c].
Proof. intros. unfold frames. cbn. rewrite Nat.eqb_refl. reflexivity. Qed.
Lemma turns_ask : forall i c, turns_of i [Asked i c] = [Ask].
Proof. intros. unfold turns_of. cbn. rewrite Nat.eqb_refl. reflexivity. Qed.
Lemma turns_skip : forall i, turns_of i [Skipped i] = [Skip].
Proof. intros. unfold turns_of. cbn. rewrite Nat.eqb_refl. reflexivity. Qed.
Lemma outcome_true : forall i id x, outcomes i [Received id x; Answered i] = [true].
Proof. intros. unfold outcomes. cbn. rewrite Nat.eqb_refl. reflexivity. Qed.
Lemma outcome_false : forall i, outcomes i [TimedOut i] = [false].
Proof. intros. unfold outcomes. cbn. rewrite Nat.eqb_refl. reflexivity. Qed.
Lemma begun_one : forall i, begun i [Begun i] = true.
Proof. intros. unfold begun. cbn. rewrite Nat.eqb_refl. reflexivity. Qed.

Ltac one := rewrite ?written_one, ?task_one, ?frames_one, ?turns_ask, ?turns_skip, ?outcome_true, ?outcome_false, ?begun_one.

Lemma deliver_wbuf : forall data d, d_wbuf (deliver data d) = d_wbuf d.
Proof. intros data d. unfold deliver. destruct (d_progress d); reflexivity. Qed.

Lemma writing_step : forall ct i d p log d' p' new, d_ct d = ct -> writing ct i d p log -> view i d p d' p' new ->
  writing ct i d' p' (log ++ new).
Proof.
  intros ct i d p log d' p' new C [F W] V. unfold writing. rewrite frames_app, written_app, bytes_sent_app, concat_app.
  assert (same : forall d', frames i new = [] -> written i new = [] -> d_wbuf d' = d_wbuf d ->
    Forall (good_frame ct) (frames i log ++ frames i new) /\
    concat (written i log) ++ concat (written i new) = (bytes_sent i log ++ bytes_sent i new) ++ d_wbuf d').
  { intros d0 A B D. unfold bytes_sent at 2. rewrite A, B, D. cbn. rewrite !app_nil_r. auto. }
  destruct V; try (apply same; try reflexivity; apply deliver_wbuf).
  - apply foreign_nil in H. apply same; tauto.
  - unfold bytes_sent at 2. change (frames i [Wrote i User data]) with (@nil Ctrl_Model.command). rewrite app_nil_r. split; [exact F|].
    one. cbn [concat map app d_wbuf add_write]. rewrite !app_nil_r, W, app_assoc. reflexivity.
  - unfold bytes_sent at 2. change (frames i [Wrote i Task tel_stop]) with (@nil Ctrl_Model.command). rewrite app_nil_r. split; [exact F|].
    one. cbn [concat]. cbn [d_wbuf add_write set_progress map concat]. rewrite !app_nil_r, W, app_assoc. reflexivity.
  - change (Ran i :: ?l) with ([Ran i] ++ l). rewrite frames_app, written_app, frames_task, written_task, bytes_sent_app.
    unfold bytes_sent at 2 3. rewrite frames_task. cbn [frames written flat_map app map concat]. rewrite !app_nil_r. split; [exact F|].
    cbn [d_wbuf add_write set_progress]. rewrite W, app_assoc. reflexivity.
  - subst p. rewrite C in H1. destruct (write_good _ _ _ H0 H1) as (G & P).
    unfold bytes_sent at 2. one. split.
    + apply Forall_app. split; [exact F|]. constructor; [exact G|constructor].
    + cbn [map concat]. rewrite P, !app_nil_r, W. cbn [d_wbuf emitted]. rewrite <- app_assoc, firstn_skipn. reflexivity.
Qed.

(** ** The task *)

Lemma sent_app' : forall a b, writes (a ++ b) = writes a ++ writes b.
Proof. intros. apply flat_map_app. Qed.

Lemma new_notes_writes : forall m e, writes (m_notes (step m e)) = writes (m_notes m) ++ writes (new_notes m (step m e)).
Proof.
  intros m e. destruct (step_notes m e) as (more & H). unfold new_notes. rewrite H, sent_app'.
  rewrite skipn_app, skipn_all, Nat.sub_diag. reflexivity.
Qed.

Lemma msg_notes : forall m data, m_notes (step m (Msg data)) = m_notes m.
Proof. intros m data. cbn. destruct (process_message data); reflexivity. Qed.

Definition asks (i : nat) (log : list entry) : nat :=
  length (filter (fun t => match t with Ask => true | Skip => false end) (turns_of i log)).
Lemma asks_app : forall i a b, asks i (a ++ b) = (asks i a + asks i b)%nat.
Proof. intros. unfold asks. rewrite turns_app, filter_app, app_length. reflexivity. Qed.

Definition tasking (ct : controller) (i : nat) (d : dev) (p : pc) (log : list entry) : Prop :=
  d_polls d = asks i log /\ d_emits d = length (frames i log) /\
  match d_progress d with
  | Created => task_written i log = [] /\ begun i log = false
  | Sleeping => task_written i log = [tel_stop] /\ begun i log = false
  | Running => begun i log = true /\ d_mach d = runs session (history i (ct_id ct) log) /\
      task_written i log = tel_stop :: writes (m_notes (d_mach d)) /\
      exists before after, log = before ++ Begun i :: after /\ (5 <= asks i before)%nat /\ (1 <= length (frames i before))%nat
  end.

Lemma runs_snoc : forall t es e, runs t (es ++ [e]) = step (runs t es) e.
Proof. intros. unfold runs. rewrite fold_left_app. reflexivity. Qed.

Lemma seen_writes : forall i n j l, seen_by i n (map (Wrote j Task) l) = [].
Proof. intros i n j l. induction l as [|x l IH]; [reflexivity|exact IH]. Qed.
Lemma turns_task : forall i j l, turns_of i (map (Wrote j Task) l) = [].
Proof. intros i j l. induction l as [|x l IH]; [reflexivity|exact IH]. Qed.
Lemma begun_task : forall i j l, begun i (map (Wrote j Task) l) = false.
Proof. intros i j l. induction l as [|x l IH]; [reflexivity|exact IH]. Qed.

(** A step that concerns neither the task nor the counters. *)
Lemma tasking_same : forall ct i d p log d' p' new, tasking ct i d p log ->
  d_polls d' = (d_polls d + asks i new)%nat -> d_emits d' = (d_emits d + length (frames i new))%nat ->
  d_progress d' = d_progress d -> d_mach d' = d_mach d -> task_written i new = [] -> begun i new = false ->
  seen_by i (ct_id ct) new = [] -> tasking ct i d' p' (log ++ new).
Proof.
  intros ct i d p log d' p' new (T1 & T2 & T3) A B C D E F G. unfold tasking.
  rewrite asks_app, frames_app, app_length, A, B, C, D, task_written_app, begun_app, E, F, !app_nil_r, T1, T2.
  split; [reflexivity|]. split; [reflexivity|]. rewrite !orb_false_r.
  destruct (d_progress d); try exact T3.
  destruct T3 as (P1 & P2 & P3 & before & after & P4 & P5). rewrite history_app, P1, G, app_nil_r.
  repeat split; try assumption. exists before, (after ++ new). rewrite P4, <- app_assoc. auto.
Qed.

(** A message. *)
Lemma tasking_message : forall ct i d p log p' id data new, d_ct d = ct -> tasking ct i d p log -> sent_byb (ct_id ct) id = true ->
  new = [Received id data] \/ new = [Received id data; Answered i] ->
  tasking ct i (deliver data d) p' (log ++ new).
Proof.
  intros ct i d p log p' id data new C (T1 & T2 & T3) S N.
  assert (A : asks i new = 0%nat /\ frames i new = [] /\ task_written i new = [] /\ begun i new = false /\
    seen_by i (ct_id ct) new = [Msg data]).
  { destruct N as [-> | ->]; cbn [seen_by]; rewrite S; repeat split. }
  destruct A as (A1 & A2 & A3 & A4 & A5).
  unfold tasking. rewrite asks_app, frames_app, A1, A2, task_written_app, A3, begun_app, A4, !app_nil_r, Nat.add_0_r, orb_false_r.
  unfold deliver. destruct (d_progress d) eqn:Pr; cbn [d_polls d_emits d_progress d_mach set_progress]; rewrite ?Pr;
    (split; [exact T1|]); (split; [exact T2|]); try exact T3.
  destruct T3 as (P1 & P2 & P3 & before & after & P4 & P5). rewrite history_app, P1, A5.
  split; [reflexivity|]. split; [rewrite runs_snoc, <- P2; reflexivity|]. split; [rewrite msg_notes; exact P3|].
  exists before, (after ++ new). rewrite P4, <- app_assoc. auto.
Qed.

Lemma tasking_step : forall ct i d p log d' p' new, d_ct d = ct -> tasking ct i d p log -> view i d p d' p' new ->
  tasking ct i d' p' (log ++ new).
Proof.
  intros ct i d p log d' p' new C T V. destruct V.
  - unfold number in H. rewrite C in H. apply foreign_nil in H. destruct H as (F1 & F2 & F3 & F4 & F5 & F6 & F7 & F8).
    apply (tasking_same _ _ _ _ _ _ _ _ T); try assumption; try reflexivity.
    + unfold asks. rewrite F5. cbn. lia.
    + rewrite F4. cbn. lia.
  - apply (tasking_same _ _ _ _ _ _ _ _ T); try reflexivity; cbn; lia.
  - apply (tasking_same _ _ _ _ _ _ _ _ T); try reflexivity; cbn; lia.
  - destruct T as (T1 & T2 & T3). rewrite H in T3. destruct T3 as (P1 & P2).
    unfold tasking. rewrite asks_app, frames_app, task_written_app, begun_app, P1, P2.
    change (asks i [Wrote i Task tel_stop]) with 0%nat. change (frames i [Wrote i Task tel_stop]) with (@nil Ctrl_Model.command).
    rewrite app_nil_r, Nat.add_0_r. split; [exact T1|]. split; [exact T2|]. cbn [d_progress add_write set_progress].
    one. split; reflexivity.
  - destruct T as (T1 & T2 & T3). rewrite H in T3. destruct T3 as (P1 & P2).
    unfold tasking. rewrite asks_app, frames_app, task_written_app, begun_app, P1, P2, history_app, P2.
    change (asks i [Begun i]) with 0%nat. change (frames i [Begun i]) with (@nil Ctrl_Model.command).
    rewrite app_nil_r, Nat.add_0_r. split; [exact T1|]. split; [exact T2|]. cbn [d_progress d_mach set_progress].
    one. split; [reflexivity|]. cbn [history]. rewrite Nat.eqb_refl. split; [reflexivity|]. split; [reflexivity|].
    exists log, []. split; [reflexivity|]. split; lia.
  - destruct T as (T1 & T2 & T3). rewrite H in T3. destruct T3 as (P1 & P2 & P3 & before & after & P4 & P5).
    unfold tasking. rewrite asks_app, frames_app, task_written_app, begun_app, P1, history_app, P1.
    change (Ran i :: ?l) with ([Ran i] ++ l). rewrite asks_app, frames_app, task_written_app, seen_by_app, seen_writes, frames_task, task_written_task.
    unfold asks at 3. rewrite turns_task. change (asks i [Ran i]) with 0%nat.
    change (frames i [Ran i]) with (@nil Ctrl_Model.command). change (task_written i [Ran i]) with (@nil (list Z)).
    cbn [seen_by app]. rewrite Nat.eqb_refl, !app_nil_r. cbn [filter length]. rewrite !Nat.add_0_r.
    split; [exact T1|]. split; [exact T2|]. cbn [d_progress d_mach set_progress add_write].
    split; [reflexivity|]. split; [rewrite runs_snoc, <- P2; exact H0|]. split.
    + subst sends m. rewrite P3, new_notes_writes. reflexivity.
    + exists before. eexists. rewrite P4, <- app_assoc. split; [reflexivity|exact P5].
  - subst p. apply (tasking_same _ _ _ _ _ _ _ _ T); try reflexivity; one; cbn; lia.
  - subst p. apply (tasking_same _ _ _ _ _ _ _ _ T); try reflexivity; unfold asks; one; cbn; lia.
  - subst p. apply (tasking_same _ _ _ _ _ _ _ _ T); try reflexivity; unfold asks; one; cbn; lia.
  - unfold number in H1. rewrite C in H1. apply (tasking_message _ _ _ _ _ _ _ _ _ C T H1). auto.
  - unfold number in H0. rewrite C in H0.
    exact (tasking_message _ _ _ _ _ (AtPoll (S i)) _ data _ C T H0 (or_intror eq_refl)).
  - subst p. apply (tasking_same _ _ _ _ _ _ _ _ T); try reflexivity; unfold asks; one; cbn; lia.
Qed.

(** ** Turns *)

Fixpoint trailing (f : nat) (l : list bool) : nat :=
  match l with [] => f | true :: l => trailing 0 l | false :: l => trailing (S f) l end.

Lemma schedule_app : forall l f b, schedule f (l ++ [b]) = schedule f l ++ schedule (trailing f l) [b].
Proof.
  induction l as [|x l IH]; intros f b; [reflexivity|]. destruct x; cbn [schedule app trailing].
  - rewrite IH. reflexivity.
  - rewrite IH, app_assoc. reflexivity.
Qed.
Lemma trailing_app : forall l f b, trailing f (l ++ [b]) = if b then 0%nat else S (trailing f l).
Proof. induction l as [|x l IH]; intros f b; [destruct b; reflexivity|]. destruct x; cbn; apply IH. Qed.

Definition turning (i : nat) (d : dev) (p : pc) (log : list entry) : Prop :=
  d_errors d = Nat.min 1000 (trailing 0 (outcomes i log)) /\
  if awaiting i p
  then d_skip d = 0%nat /\ turns_of i log = schedule 0 (outcomes i log) ++ [Ask]
  else schedule 0 (outcomes i log) = turns_of i log ++ repeat Skip (d_skip d).

Lemma turning_same : forall i d p log d' p' new, turning i d p log -> d_errors d' = d_errors d -> d_skip d' = d_skip d ->
  awaiting i p' = awaiting i p -> outcomes i new = [] -> turns_of i new = [] -> turning i d' p' (log ++ new).
Proof.
  intros i d p log d' p' new T A B C D E. unfold turning. rewrite outcomes_app, turns_app, A, B, C, D, E, !app_nil_r. exact T.
Qed.

Lemma awaiting_self : forall i, awaiting i (Awaiting i) = true.
Proof. intro i. apply Nat.eqb_refl. Qed.

Lemma deliver_errors : forall data d, d_errors (deliver data d) = d_errors d /\ d_skip (deliver data d) = d_skip d.
Proof. intros data d. unfold deliver. destruct (d_progress d); auto. Qed.

Lemma outcomes_task : forall i j l, outcomes i (map (Wrote j Task) l) = [].
Proof. intros i j l. induction l as [|x l IH]; [reflexivity|exact IH]. Qed.

Lemma turning_step : forall i d p log d' p' new, turning i d p log -> view i d p d' p' new -> turning i d' p' (log ++ new).
Proof.
  intros i d p log d' p' new T V. destruct V.
  - apply foreign_nil in H. apply (turning_same _ _ _ _ _ _ _ T); try tauto; reflexivity.
  - subst p. apply (turning_same _ _ _ _ _ _ _ T); reflexivity.
  - apply (turning_same _ _ _ _ _ _ _ T); reflexivity.
  - apply (turning_same _ _ _ _ _ _ _ T); reflexivity.
  - apply (turning_same _ _ _ _ _ _ _ T); reflexivity.
  - apply (turning_same _ _ _ _ _ _ _ T); try reflexivity; [apply outcomes_task|apply turns_task].
  - subst p. apply (turning_same _ _ _ _ _ _ _ T); reflexivity.
  - subst p. destruct T as (T1 & T2). cbn [awaiting] in T2. unfold turning. rewrite outcomes_app, turns_app.
    change (outcomes i [Skipped i]) with (@nil bool). rewrite app_nil_r. split; [exact T1|]. cbn [awaiting d_skip set_errors].
    rewrite T2. one. rewrite <- app_assoc. f_equal. destruct (d_skip d) as [|n]; [lia|]. cbn. rewrite Nat.sub_0_r. reflexivity.
  - subst p. destruct T as (T1 & T2). cbn [awaiting] in T2. unfold turning. rewrite outcomes_app, turns_app.
    change (outcomes i [Asked i c]) with (@nil bool). rewrite app_nil_r. split; [exact T1|]. rewrite awaiting_self.
    cbn [d_skip polled]. rewrite T2, H0. cbn [repeat]. rewrite app_nil_r. one. auto.
  - destruct H0 as (k & H0). destruct (deliver_errors data d) as (E1 & E2).
    apply (turning_same _ _ _ _ _ _ _ T); try assumption; reflexivity.
  - subst p. destruct T as (T1 & T2). rewrite awaiting_self in T2. destruct T2 as (T2 & T3).
    unfold turning. rewrite outcomes_app, turns_app. one. change (turns_of i [Received id data; Answered i]) with (@nil turn).
    cbn [awaiting d_errors d_skip set_errors]. rewrite trailing_app, schedule_app, T3. cbn [schedule repeat]. rewrite !app_nil_r. split; reflexivity.
  - subst p. destruct T as (T1 & T2). rewrite awaiting_self in T2. destruct T2 as (T2 & T3).
    unfold turning. rewrite outcomes_app, turns_app.
    change (turns_of i [TimedOut i]) with (@nil turn).
    one.
    rewrite trailing_app, schedule_app, T3, app_nil_r, T1. cbn [awaiting d_errors d_skip set_errors schedule].
    set (t := trailing 0 (outcomes i log)). replace (Nat.min 1000 (Nat.min 1000 t + 1)) with (Nat.min 1000 (S t)) by lia.
    split; [reflexivity|]. rewrite app_nil_r, <- app_assoc. reflexivity.
Qed.
