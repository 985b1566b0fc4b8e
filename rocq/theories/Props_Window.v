(** C67: the loop of tview serves every device. *)
From Coq Require Import Ascii String ZArith List Bool Lia ZifyBool ZifyNat.
From Verif Require Import PyBase PyBytes Ctrl_Model Props_Command Props_Frame Reader_Model Tview_Model Tview_Spec Props_Tview
  Window_Model Window_Spec Window_Proofs.
Import ListNotations.
Open Scope Z_scope.

(** *** Order and life *)

Definition position (n : nat) (p : pc) : nat :=
  match p with AtPoll k => k | Awaiting k => S k | _ => 0 end.

Lemma order_app : forall a b, order (a ++ b) = order a ++ order b.
Proof. intros. apply flat_map_app. Qed.
Lemma order_task : forall i l, order (map (Wrote i Task) l) = [].
Proof. intros i l. induction l as [|x l IH]; [reflexivity|exact IH]. Qed.

Definition laps (n p k : nat) : list nat := concat (repeat (seq 0 n) p) ++ seq 0 k.

Lemma laps_next : forall n p k, laps n p (S k) = laps n p k ++ [k].
Proof. intros n p k. unfold laps. rewrite seq_S, app_assoc. reflexivity. Qed.
Lemma laps_full : forall n p, laps n (S p) 0 = laps n p n.
Proof.
  intros n p. unfold laps. replace (S p) with (p + 1)%nat by lia. rewrite repeat_app, concat_app. cbn. rewrite !app_nil_r. reflexivity.
Qed.

Definition ordered (n : nat) (w : win) : Prop := order (w_log w) = laps n (passes (w_log w)) (position n (w_pc w)).

Lemma ordered_step : forall cts w e, sane cts w -> ordered (length cts) w -> ordered (length cts) (wstep w e).
Proof.
  intros cts w e S O. pose proof (sane_length _ _ S) as L. pose proof (s_pc _ _ S) as P. unfold ordered in *.
  destruct e as [i data|i| |id data|]; cbn [wstep].
  - destruct (nth_error _ _); [|exact O]. cbn [w_log w_pc]. rewrite order_app, passes_app. cbn. rewrite app_nil_r, Nat.add_0_r. exact O.
  - unfold run_device. destruct (nth_error _ _) as [d|]; [|exact O]. destruct (d_progress d).
    + cbn [w_log w_pc]. rewrite order_app, passes_app. cbn. rewrite app_nil_r, Nat.add_0_r. exact O.
    + destruct (_ || _)%bool; [exact O|]. cbn [w_log w_pc]. rewrite order_app, passes_app. cbn. rewrite app_nil_r, Nat.add_0_r. exact O.
    + cbn [w_log w_pc]. change (Ran i :: ?l) with ([Ran i] ++ l). rewrite !order_app, !passes_app, order_task, passes_writes.
      cbn. rewrite app_nil_r, Nat.add_0_r. exact O.
  - unfold run_transport. destruct (w_pc w) as [i|i|i|x] eqn:Q; try (rewrite Q; exact O).
    + destruct (nth_error _ _) as [d|]; [|exact O]. destruct (_ =? _)%nat; [exact O|].
      destruct (write_ok (d_ct d) (d_wbuf d)) as (c & ->). cbn [w_log w_pc]. rewrite order_app, passes_app. cbn.
      rewrite app_nil_r, Nat.add_0_r. exact O.
    + destruct (nth_error (w_devs w) i) as [d|] eqn:E.
      * destruct (_ <? _)%nat.
        -- cbn [w_log w_pc position]. rewrite order_app, passes_app, O. cbn [position]. rewrite Nat.add_0_r, laps_next. reflexivity.
        -- destruct (read_ok (d_ct d)) as (c & ->). cbn [w_log w_pc position]. rewrite order_app, passes_app, O. cbn [position].
           rewrite Nat.add_0_r, laps_next. reflexivity.
      * apply nth_error_None in E. cbn [w_log w_pc position]. rewrite order_app, passes_app, O. cbn [order flat_map position].
        rewrite app_nil_r. change (passes [Pass]) with 1%nat. rewrite Nat.add_1_r, laps_full. f_equal. lia.
  - unfold receive. destruct (w_pc w) as [i|i|i|x] eqn:Q; try (rewrite Q; exact O).
    set (devs := match find_dev (w_devs w) (source_id id) with Some j => _ | None => _ end).
    destruct (nth_error devs i) as [d|]; [|rewrite Q; exact O].
    destruct (_ =? _); cbn [w_log w_pc position]; rewrite !order_app, !passes_app; cbn; rewrite !app_nil_r, !Nat.add_0_r; exact O.
  - unfold time_out. destruct (w_pc w) as [i|i|i|x] eqn:Q; try (rewrite Q; exact O).
    cbn [w_log w_pc position]. rewrite order_app, passes_app. cbn. rewrite app_nil_r, Nat.add_0_r. exact O.
Qed.

(** In every pass every device has its turn, in the order in which the devices were given. *)
Theorem C67_order : forall cts es, let log := w_log (wruns cts es) in
  exists k, (k <= length cts)%nat /\ order log = concat (repeat (seq 0 (length cts)) (passes log)) ++ seq 0 k.
Proof.
  intros cts es log.
  assert (O : forall es w, sane cts w -> ordered (length cts) w -> ordered (length cts) (fold_left wstep es w)).
  { clear. induction es as [|e es IH]; intros w S O; [exact O|]. apply IH; [apply sane_step; exact S|apply ordered_step; assumption]. }
  specialize (O es (opened cts) (opened_sane _) eq_refl). fold (wruns cts es) in O.
  exists (position (length cts) (w_pc (wruns cts es))). split; [|exact O].
  pose proof (s_pc _ _ (wruns_sane cts es)) as P. destruct (w_pc (wruns cts es)); cbn; try lia.
Qed.

(** How far the loop has come. *)
Definition rank (n : nat) (p : pc) : nat :=
  match p with AtEmit k => k | AtPoll k => n + 1 + 2 * k | Awaiting k => n + 2 + 2 * k | Dead _ => 0 end.
Definition came (n : nat) (w : win) : nat := (passes (w_log w) * (3 * n + 2) + rank n (w_pc w))%nat.

Lemma came_step : forall cts w e, sane cts w -> (came (length cts) w <= came (length cts) (wstep w e))%nat /\
  ((came (length cts) w < came (length cts) (wstep w e))%nat \/ w_pc (wstep w e) = w_pc w) /\
  (match w_pc w with AtEmit _ | AtPoll _ => e = EStep | _ => e = ETimeout end ->
   (came (length cts) w < came (length cts) (wstep w e))%nat).
Proof.
  intros cts w e S. pose proof (sane_length _ _ S) as L. pose proof (s_pc _ _ S) as P.
  assert (same : forall w', passes (w_log w') = passes (w_log w) -> w_pc w' = w_pc w ->
     match w_pc w with AtEmit _ | AtPoll _ => e <> EStep | _ => e <> ETimeout end ->
    (came (length cts) w <= came (length cts) w')%nat /\
    ((came (length cts) w < came (length cts) w')%nat \/ w_pc w' = w_pc w) /\
    (match w_pc w with AtEmit _ | AtPoll _ => e = EStep | _ => e = ETimeout end -> (came (length cts) w < came (length cts) w')%nat)).
  { intros w' A B C. unfold came. rewrite A, B. split; [lia|]. split; [auto|]. destruct (w_pc w); congruence. }
  assert (more : forall w', (came (length cts) w < came (length cts) w')%nat ->
    (came (length cts) w <= came (length cts) w')%nat /\
    ((came (length cts) w < came (length cts) w')%nat \/ w_pc w' = w_pc w) /\
    (match w_pc w with AtEmit _ | AtPoll _ => e = EStep | _ => e = ETimeout end -> (came (length cts) w < came (length cts) w')%nat)).
  { intros w' A. split; [lia|]. auto. }
  destruct e as [i data|i| |id data|]; cbn [wstep].
  - assert (D : match w_pc w with AtEmit _ | AtPoll _ => EUser i data <> EStep | _ => EUser i data <> ETimeout end)
      by (destruct (w_pc w); discriminate).
    destruct (nth_error _ _); apply same; try reflexivity; try exact D. cbn [w_log]. rewrite passes_app. cbn. lia.
  - assert (D : match w_pc w with AtEmit _ | AtPoll _ => ERun i <> EStep | _ => ERun i <> ETimeout end)
      by (destruct (w_pc w); discriminate).
    unfold run_device. destruct (nth_error _ _) as [d|]; [|apply same; try reflexivity; exact D]. destruct (d_progress d).
    + apply same; try reflexivity; try exact D. cbn [w_log]. rewrite passes_app. cbn. lia.
    + destruct (_ || _)%bool; apply same; try reflexivity; try exact D. cbn [w_log]. rewrite passes_app. cbn. lia.
    + apply same; try reflexivity; try exact D. cbn [w_log]. change (Ran i :: ?l) with ([Ran i] ++ l).
      rewrite !passes_app, passes_writes. cbn. lia.
  - unfold run_transport. destruct (w_pc w) as [i|i|i|x] eqn:Q; try (apply same; [reflexivity|exact Q|discriminate]).
    + apply more. unfold came. rewrite Q. destruct (nth_error (w_devs w) i) as [d|] eqn:E.
      * destruct (_ =? _)%nat; [cbn [w_log w_pc rank]; lia|].
        destruct (write_ok (d_ct d) (d_wbuf d)) as (c & ->). cbn [w_log w_pc rank]. rewrite passes_app. cbn [passes filter length]. lia.
      * cbn [w_log w_pc rank]. lia.
    + apply more. unfold came. rewrite Q. destruct (nth_error (w_devs w) i) as [d|] eqn:E.
      * destruct (_ <? _)%nat; [cbn [w_log w_pc rank]; rewrite passes_app; cbn [passes filter length]; lia|].
        destruct (read_ok (d_ct d)) as (c & ->). cbn [w_log w_pc rank]. rewrite passes_app. cbn [passes filter length]. lia.
      * cbn [w_log w_pc rank]. rewrite passes_app. change (passes [Pass]) with 1%nat. lia.
  - assert (D : match w_pc w with AtEmit _ | AtPoll _ => ERecv id data <> EStep | _ => ERecv id data <> ETimeout end)
      by (destruct (w_pc w); discriminate).
    unfold receive. destruct (w_pc w) as [i|i|i|x] eqn:Q; try (apply same; [reflexivity|exact Q|exact D]).
    set (devs := match find_dev (w_devs w) (source_id id) with Some j => _ | None => _ end).
    destruct (nth_error devs i) as [d|]; [|apply same; [reflexivity|exact Q|exact D]].
    destruct (_ =? _).
    + apply more. unfold came. rewrite Q. cbn [w_log w_pc rank]. rewrite !passes_app. cbn [passes filter length]. lia.
    + apply same; [|reflexivity|exact D]. cbn [w_log]. rewrite passes_app. cbn. lia.
  - unfold time_out. destruct (w_pc w) as [i|i|i|x] eqn:Q; try (apply same; [reflexivity|exact Q|discriminate]).
    + apply more. unfold came. rewrite Q. cbn [w_log w_pc rank]. rewrite passes_app. cbn [passes filter length]. lia.
    + contradiction.
Qed.

Lemma came_steps : forall cts es w, sane cts w -> (came (length cts) w <= came (length cts) (fold_left wstep es w))%nat /\
  ((came (length cts) w < came (length cts) (fold_left wstep es w))%nat \/ w_pc (fold_left wstep es w) = w_pc w).
Proof.
  intros cts es. induction es as [|e es IH]; intros w S; [auto|]. cbn [fold_left].
  destruct (came_step cts w e S) as (A & B & _). destruct (IH _ (sane_step _ _ e S)) as (C & D). split; [lia|].
  destruct B as [B|B]; [left; lia|]. destruct D as [D|D]; [left; lia|]. right. congruence.
Qed.

(** A stretch of a schedule in which the loop is run and then its timeout expires, and
    anything else happens before, between and after. *)
Definition round (es : list wevent) : Prop := exists a b c, es = a ++ [EStep] ++ b ++ [ETimeout] ++ c.

Lemma came_round : forall cts es w, sane cts w -> round es ->
  (came (length cts) w < came (length cts) (fold_left wstep es w))%nat.
Proof.
  intros cts es w S (a & b & c & ->). rewrite !fold_left_app. cbn [fold_left].
  set (w1 := fold_left wstep a w). set (w2 := wstep w1 EStep). set (w3 := fold_left wstep b w2). set (w4 := wstep w3 ETimeout).
  assert (S1 : sane cts w1) by (apply wstep_sane; exact S).
  assert (S2 : sane cts w2) by (apply sane_step; exact S1).
  assert (S3 : sane cts w3) by (apply wstep_sane; exact S2).
  assert (S4 : sane cts w4) by (apply sane_step; exact S3).
  destruct (came_steps cts a w S) as (A & _). fold w1 in A.
  destruct (came_step cts w1 EStep S1) as (B & B1 & B2). fold w2 in B, B1, B2.
  destruct (came_steps cts b w2 S2) as (C & C1). fold w3 in C, C1.
  destruct (came_step cts w3 ETimeout S3) as (D & _ & D2). fold w4 in D, D2.
  destruct (came_steps cts c w4 S4) as (E & _).
  destruct B1 as [B1|B1]; [lia|]. destruct C1 as [C1|C1]; [lia|].
  rewrite C1, B1 in D2. destruct (w_pc w1) eqn:Q.
  - specialize (B2 eq_refl). lia.
  - specialize (B2 eq_refl). lia.
  - specialize (D2 eq_refl). lia.
  - specialize (D2 eq_refl). lia.
Qed.

(** The loop never ends with an exception, whatever arrives, and it never stands still. *)
Theorem C67_alive : forall cts es,
  (forall e, w_pc (wruns cts es) <> Dead e) /\
  (forall k rounds, Forall round rounds -> (k * (3 * length cts + 2) <= length rounds)%nat ->
    (passes (w_log (wruns cts es)) + k <= passes (w_log (wruns cts (es ++ concat rounds))))%nat).
Proof.
  intros cts es. pose proof (wruns_sane cts es) as S. split.
  - intros e E. pose proof (s_pc _ _ S) as P. rewrite E in P. exact P.
  - intros k rounds F L. unfold wruns. rewrite fold_left_app. fold (wruns cts es). revert S. generalize (wruns cts es) as w.
    assert (A : forall rounds w, Forall round rounds -> sane cts w ->
      (came (length cts) w + length rounds <= came (length cts) (fold_left wstep (concat rounds) w))%nat /\
      sane cts (fold_left wstep (concat rounds) w)).
    { clear. induction rounds as [|r rs IH]; intros w F S; [cbn; split; [lia|exact S]|]. inversion F; subst.
      cbn [concat length]. rewrite fold_left_app. pose proof (came_round _ _ _ S H1).
      destruct (IH (fold_left wstep r w) H2 (wstep_sane _ _ _ S)) as (A & B). split; [lia|exact B]. }
    intros w S. destruct (A rounds w F S) as (B & C).
    assert (R : forall w, sane cts w -> (rank (length cts) (w_pc w) < 3 * length cts + 2)%nat).
    { intros w0 S0. pose proof (s_pc _ _ S0). destruct (w_pc w0); cbn; lia. }
    pose proof (R _ S). pose proof (R _ C). unfold came in B.
    set (p := passes (w_log w)) in *. set (p' := passes (w_log (fold_left wstep (concat rounds) w))) in *.
    set (c := (3 * length cts + 2)%nat) in *. nia.
Qed.

(** *** Writing *)

Section Device.
Variable cts : list controller.
Variable i : nat.
Variable ct : controller.
Hypothesis distinct : NoDup (map ct_id cts).
Hypothesis here : nth_error cts i = Some ct.

Lemma writing_holds : forall es, exists d, nth_error (w_devs (wruns cts es)) i = Some d /\ d_ct d = ct /\
  writing ct i d (w_pc (wruns cts es)) (w_log (wruns cts es)).
Proof.
  apply (dev_start cts i ct _ distinct here); [split; [constructor|reflexivity]|]. intros. eapply writing_step; eassumption.
Qed.

Lemma tasking_holds : forall es, exists d, nth_error (w_devs (wruns cts es)) i = Some d /\ d_ct d = ct /\
  tasking ct i d (w_pc (wruns cts es)) (w_log (wruns cts es)).
Proof.
  apply (dev_start cts i ct _ distinct here); [repeat split|]. intros. eapply tasking_step; eassumption.
Qed.

Lemma turning_holds : forall es, exists d, nth_error (w_devs (wruns cts es)) i = Some d /\ d_ct d = ct /\
  turning i d (w_pc (wruns cts es)) (w_log (wruns cts es)).
Proof.
  apply (dev_start cts i ct _ distinct here); [repeat split|]. intros. eapply turning_step; eassumption.
Qed.

End Device.

(** The bytes sent so far, and how many turns to send there have been. *)
Definition sending (i : nat) (ct : controller) (w0 s0 t0 : nat) (d : dev) (p : pc) (log : list entry) : Prop :=
  writing ct i d p log /\ (t0 <= passes log + past i p)%nat /\
  (w0 <= length (concat (written i log)))%nat /\
  (Nat.min w0 (s0 + 61 * (passes log + past i p - t0)) <= length (bytes_sent i log))%nat.

Lemma sending_step : forall i ct w0 s0 t0 d p log d' p' new, d_ct d = ct -> sending i ct w0 s0 t0 d p log -> view i d p d' p' new ->
  sending i ct w0 s0 t0 d' p' (log ++ new).
Proof.
  intros i ct w0 s0 t0 d p log d' p' new C (W & T & A & B) V.
  pose proof (writing_step _ _ _ _ _ _ _ _ C W V) as W'. split; [exact W'|].
  assert (same : passes new = 0%nat /\ past i p' = past i p \/ (passes new + past i p' = past i p)%nat ->
    (t0 <= passes (log ++ new) + past i p')%nat /\ (w0 <= length (concat (written i (log ++ new))))%nat /\
    (Nat.min w0 (s0 + 61 * (passes (log ++ new) + past i p' - t0)) <= length (bytes_sent i (log ++ new)))%nat).
  { intro E. rewrite passes_app, written_app, concat_app, bytes_sent_app, !app_length.
    replace (passes log + passes new + past i p')%nat with (passes log + past i p)%nat by lia.
    split; [lia|]. split; lia. }
  destruct W as (W1 & W2). apply (f_equal (@length Z)) in W2. rewrite app_length in W2.
  assert (P0 : past i (AtEmit i) = 0%nat) by (cbn; rewrite Nat.leb_refl; reflexivity).
  assert (P1 : past i (AtEmit (S i)) = 1%nat) by (cbn; destruct i; [reflexivity|]; replace (_ <=? _)%nat with false by lia; reflexivity).
  destruct V.
  - apply same. auto.
  - subst p. rewrite app_nil_r, P1. rewrite P0 in *. rewrite H0 in W2. cbn in W2. split; [lia|]. split; [exact A|]. lia.
  - apply same. auto.
  - apply same. auto.
  - apply same. auto.
  - apply same. left. split; [apply (passes_writes i)|reflexivity].
  - subst p. rewrite C in H1. destruct (write_good _ _ _ H0 H1) as (G & P).
    rewrite P1. rewrite P0 in *. rewrite passes_app, written_app, concat_app, bytes_sent_app, !app_length.
    change (passes [Frame i c]) with 0%nat. unfold bytes_sent at 2. rewrite frames_one. cbn [map concat]. rewrite app_nil_r, P, firstn_length.
    unfold MAX_SEND. lia.
  - subst p. apply same. auto.
  - subst p. apply same. auto.
  - apply same. auto.
  - subst p. apply same. auto.
  - subst p. apply same. auto.
Qed.

Lemma past_le : forall i p, (past i p <= 1)%nat.
Proof. intros i p. destruct p as [k|k|k|k]; cbn; try lia. destruct (k <=? i)%nat; lia. Qed.

(** Every frame to a device carries at most 61 bytes of what was written to it, asks for no
    reply and is addressed to it alone; together they carry what was written, in order,
    without loss, without anything twice. *)
Theorem C67_in_order : forall cts i ct es, NoDup (map ct_id cts) -> nth_error cts i = Some ct ->
  let log := w_log (wruns cts es) in
  Forall (fun c => cmd_destination c = ct_id ct /\ cmd_reply_required c = false /\ (length (cmd_data c) <= 64)%nat /\
                   (1 <= length (payload c) <= 61)%nat /\
                   forall padding, spec_stream 0x40 (cmd_data c ++ padding) = Some (1, payload c)) (frames i log) /\
  prefix (bytes_sent i log) (concat (written i log)).
Proof.
  intros cts i ct es N H log. destruct (writing_holds cts i ct N H es) as (d & _ & _ & F & W).
  split; [exact F|]. eexists. exact W.
Qed.

(** And without delay: after every pass but the first, 61 bytes more have been sent, until all
    that had been written has been sent. *)
Theorem C67_prompt : forall cts i ct es es', NoDup (map ct_id cts) -> nth_error cts i = Some ct ->
  let log := w_log (wruns cts es) in let log' := w_log (wruns cts (es ++ es')) in
  (Nat.min (length (concat (written i log))) (length (bytes_sent i log) + 61 * (passes log' - passes log - 1))
   <= length (bytes_sent i log'))%nat.
Proof.
  intros cts i ct es es' N H log log'. destruct (writing_holds cts i ct N H es) as (d & D & C & W). fold log in W.
  set (w := wruns cts es) in *.
  destruct (dev_induction cts i ct (sending i ct (length (concat (written i log))) (length (bytes_sent i log)) (passes log + past i (w_pc w)))
    N (fun d p l d' p' n => sending_step i ct _ _ _ d p l d' p' n)
    es' w d [] log (wruns_sane _ _) eq_refl D C) as (d' & new & D' & C' & L & S).
  - split; [exact W|]. split; [lia|]. split; [lia|]. rewrite Nat.sub_diag. lia.
  - assert (E : fold_left wstep es' w = wruns cts (es ++ es')) by (unfold wruns; rewrite fold_left_app; reflexivity).
    rewrite E in L, S. cbn [app] in L. fold log' in L. rewrite <- L in S. destruct S as (_ & T & _ & S).
    pose proof (past_le i (w_pc w)). pose proof (past_le i (w_pc (wruns cts (es ++ es')))). lia.
Qed.

(** What the user writes to a device, and nothing else in their name, is written to it. *)
Theorem C67_user : forall cts i es, (i < length cts)%nat -> user_written i (w_log (wruns cts es)) = user_events i es.
Proof.
  intros cts i es I.
  assert (A : forall w e, sane cts w -> user_written i (w_log (wstep w e)) = user_written i (w_log w) ++ user_events i [e]).
  { intros w e S. pose proof (sane_length _ _ S) as L. destruct e as [j data|j| |id data|]; cbn [wstep user_events flat_map]; rewrite ?app_nil_r.
    - destruct (nth_error (w_devs w) j) eqn:E.
      + cbn [w_log]. rewrite user_written_app. cbn. rewrite !app_nil_r. reflexivity.
      + apply nth_error_None in E. replace (j =? i)%nat with false by lia. rewrite app_nil_r. reflexivity.
    - assert (U : forall l, user_written i (map (Wrote j Task) l) = []) by (induction l as [|x l IH]; [reflexivity|exact IH]).
      unfold run_device. destruct (nth_error _ _) as [d|]; [|reflexivity]. destruct (d_progress d).
      + cbn [w_log]. rewrite user_written_app. apply app_nil_r.
      + destruct (_ || _)%bool; [reflexivity|]. cbn [w_log]. rewrite user_written_app. apply app_nil_r.
      + cbn [w_log]. rewrite user_written_app. change (Ran j :: ?l) with ([Ran j] ++ l). rewrite user_written_app, U. apply app_nil_r.
    - unfold run_transport. destruct (w_pc w); try reflexivity; (destruct (nth_error _ _) as [d|]; [|cbn [w_log]; rewrite ?user_written_app; try apply app_nil_r; reflexivity]).
      + destruct (_ =? _)%nat; [reflexivity|]. destruct (make_diagnostic_write _ _ _); cbn [w_log]; rewrite ?user_written_app; try apply app_nil_r; reflexivity.
      + destruct (_ <? _)%nat; [cbn [w_log]; rewrite user_written_app; apply app_nil_r|].
        destruct (make_diagnostic_read _ _ _); cbn [w_log]; rewrite ?user_written_app; try apply app_nil_r; reflexivity.
    - unfold receive. destruct (w_pc w); try reflexivity.
      set (devs := match find_dev (w_devs w) (source_id id) with Some j => _ | None => _ end).
      destruct (nth_error devs _) as [d|]; [|reflexivity]. destruct (_ =? _); cbn [w_log]; rewrite !user_written_app, ?app_nil_r;
        change (user_written i [Received id data]) with (@nil (list Z)); try (change (user_written i [Answered i0]) with (@nil (list Z))); rewrite ?app_nil_r; reflexivity.
    - unfold time_out. destruct (w_pc w); try reflexivity. cbn [w_log]. rewrite user_written_app. apply app_nil_r. }
  assert (B : forall es w, sane cts w -> user_written i (w_log (fold_left wstep es w)) = user_written i (w_log w) ++ user_events i es).
  { clear es. induction es as [|e es IH]; intros w S; [rewrite app_nil_r; reflexivity|]. cbn [fold_left].
    rewrite IH by (apply sane_step; exact S). rewrite A by exact S. rewrite <- app_assoc. f_equal.
    unfold user_events. cbn. rewrite app_nil_r. reflexivity. }
  unfold wruns. rewrite B by apply opened_sane. reflexivity.
Qed.

(** *** What each device is told and shows *)

(** tview tells a device to be silent; when a frame has been sent to it and it has been asked
    five times, its session begins, and it goes on with the messages of this device alone. *)
Theorem C67_task : forall cts i ct es, NoDup (map ct_id cts) -> nth_error cts i = Some ct ->
  let log := w_log (wruns cts es) in
  let stop := [13; 10] ++ text_line (lit "tel stop") in
  if begun i log
  then task_written i log = stop :: sent (m_notes (runs session (history i (ct_id ct) log))) /\
       (exists d, nth_error (w_devs (wruns cts es)) i = Some d /\ d_mach d = runs session (history i (ct_id ct) log)) /\
       exists before after, log = before ++ Begun i :: after /\ frames i before <> [] /\
         (5 <= count_occ turn_dec (turns_of i before) Ask)%nat
  else task_written i log = [] \/ task_written i log = [stop].
Proof.
  intros cts i ct es N H log stop. destruct (tasking_holds cts i ct N H es) as (d & D & _ & _ & _ & T). fold log in T.
  change stop with tel_stop. destruct (d_progress d).
  - destruct T as (T1 & ->). auto.
  - destruct T as (T1 & ->). auto.
  - destruct T as (-> & T2 & T3 & before & after & T4 & T5 & T6). rewrite <- T2. split; [exact T3|]. split; [eauto|].
    exists before, after. split; [exact T4|]. split; [intro X; rewrite X in T6; cbn in T6; lia|].
    replace (count_occ turn_dec (turns_of i before) Ask) with (asks i before); [exact T5|].
    unfold asks. generalize (turns_of i before) as l. induction l as [|x l IH]; [reflexivity|]. destruct x; cbn; rewrite IH; reflexivity.
Qed.

(** So each device shows its own configuration and telemetry, whatever the others send, and
    however their messages are mixed. *)
Theorem C67_shows : forall cts i ct es elements chans is s later, NoDup (map ct_id cts) -> nth_error cts i = Some ct ->
  Forall good_element elements -> Forall good_channel chans -> Forall good_item is ->
  let log := w_log (wruns cts es) in
  begun i log = true -> delivers (history i (ct_id ct) log) s -> s ++ later = transcript elements chans is ->
  exists d, nth_error (w_devs (wruns cts es)) i = Some d /\
    prefix (shown (m_notes (d_mach d))) (expected_shown elements chans is) /\
    prefix (task_written i log) (([13; 10] ++ text_line (lit "tel stop")) :: expected_sent elements chans).
Proof.
  intros cts i ct es elements chans is s later N H G1 G2 G3 log B V E.
  pose proof (C67_task cts i ct es N H) as T. cbv zeta in T. fold log in T. rewrite B in T. destruct T as (T1 & (d & D & T2) & _).
  destruct (proj1 (C66_session elements chans is G1 G2 G3) _ _ _ V E) as (P1 & more & P2).
  exists d. split; [exact D|]. rewrite T2. split; [exact P1|]. rewrite T1, P2. exists more. reflexivity.
Qed.

(** *** Who is asked *)

(** A device that answers is asked in every pass.  After the [n]th time in a row that it did not
    answer it is left out for [n] passes, 1000 at most. *)
Theorem C67_backoff : forall cts i ct es, NoDup (map ct_id cts) -> nth_error cts i = Some ct ->
  let log := w_log (wruns cts es) in
  turns_of i log = schedule 0 (outcomes i log) ++ [Ask] \/
  exists k, turns_of i log ++ repeat Skip k = schedule 0 (outcomes i log).
Proof.
  intros cts i ct es N H log. destruct (turning_holds cts i ct N H es) as (d & _ & _ & _ & T). fold log in T.
  destruct (awaiting _ _); [left; tauto|right]. exists (d_skip d). symmetry. exact T.
Qed.

Lemma schedule_answering : forall l f, Forall (fun b => b = true) l -> schedule f l = repeat Ask (length l).
Proof. induction l as [|b l IH]; intros f F; [reflexivity|]. inversion F; subst. cbn. rewrite (IH 0%nat H2). reflexivity. Qed.

(** Runs of turns without a question. *)
Fixpoint longest (run best : nat) (l : list turn) : nat :=
  match l with
  | [] => Nat.max run best
  | Skip :: l => longest (S run) best l
  | Ask :: l => longest 0 (Nat.max run best) l
  end.
Lemma longest_skips : forall n run best l, longest run best (repeat Skip n ++ l) = longest (n + run) best l.
Proof. induction n as [|n IH]; intros run best l; [reflexivity|]. cbn. rewrite IH. f_equal. lia. Qed.
Lemma longest_ge : forall l run best, (run <= longest run best l)%nat /\ (best <= longest run best l)%nat.
Proof.
  induction l as [|x l IH]; intros run best; [cbn; lia|]. destruct x; cbn.
  - destruct (IH 0%nat (Nat.max run best)). lia.
  - destruct (IH (S run) best). lia.
Qed.
Lemma longest_mono : forall l run best run' best', (run <= run')%nat -> (best <= best')%nat ->
  (longest run best l <= longest run' best' l)%nat.
Proof.
  induction l as [|x l IH]; intros run best run' best' A B; [cbn; lia|]. destruct x; cbn; apply IH; lia.
Qed.
Lemma longest_contains : forall l1 n l2 run best, (n <= longest run best (l1 ++ repeat Skip n ++ l2))%nat.
Proof.
  induction l1 as [|x l1 IH]; intros n l2 run best.
  - cbn [app]. rewrite longest_skips. pose proof (proj1 (longest_ge l2 (n + run) best)). lia.
  - destruct x; cbn; apply IH.
Qed.
Lemma longest_schedule : forall l f best run, (run <= 1000)%nat -> (best <= 1000)%nat -> (longest run best (schedule f l) <= 1000)%nat.
Proof.
  induction l as [|x l IH]; intros f best run A B; [cbn; lia|]. destruct x; cbn [schedule longest].
  - apply IH; lia.
  - rewrite longest_skips. apply IH; lia.
Qed.
Lemma longest_ask : forall l run best, longest run best (l ++ [Ask]) = longest run best l.
Proof. induction l as [|x l IH]; intros run best; [cbn; lia|]. destruct x; cbn; apply IH. Qed.

(** In short: one that answers is never left out, and none is left out more than 1000 times in a row. *)
Theorem C67_asked : forall cts i ct es, NoDup (map ct_id cts) -> nth_error cts i = Some ct ->
  let log := w_log (wruns cts es) in
  (Forall (fun b => b = true) (outcomes i log) -> ~ In Skip (turns_of i log)) /\
  (forall l1 n l2, turns_of i log = l1 ++ repeat Skip n ++ l2 -> (n <= 1000)%nat).
Proof.
  intros cts i ct es N H log. pose proof (C67_backoff cts i ct es N H) as B. cbv zeta in B. fold log in B. split.
  - intros F I. rewrite (schedule_answering _ 0 F) in B.
    assert (R : ~ In Skip (repeat Ask (length (outcomes i log)))) by (intro X; apply repeat_spec in X; discriminate).
    destruct B as [B|(k & B)].
    + rewrite B in I. apply in_app_or in I. destruct I as [I|[I|[]]]; [exact (R I)|discriminate].
    + apply R. rewrite <- B. apply in_or_app. left. exact I.
  - intros l1 n l2 E. pose proof (longest_contains l1 n l2 0 0) as C. rewrite <- E in C.
    pose proof (longest_schedule (outcomes i log) 0 0 0 ltac:(lia) ltac:(lia)) as S.
    destruct B as [B|(k & B)].
    + rewrite B, longest_ask in C. lia.
    + rewrite <- B in S.
      assert (M : forall l run best q, (longest run best l <= longest run best (l ++ repeat Skip q))%nat).
      { clear. induction l as [|x l IH]; intros run best q.
        - cbn [app longest]. pose proof (longest_skips q run best []) as X. rewrite app_nil_r in X. rewrite X. cbn. lia.
        - destruct x; cbn; apply IH. }
      pose proof (M (turns_of i log) 0%nat 0%nat k). lia.
Qed.

(** *** A case *)

Definition ex_ctl (id : Z) : controller :=
  {| ct_id := id; ct_query := ct_query ex_ct; ct_position := ct_position ex_ct; ct_vfoc := ct_vfoc ex_ct;
     ct_current := ct_current ex_ct; ct_pwm := ct_pwm ex_ct; ct_prefix := 0; ct_query_data := ct_query_data ex_ct;
     ct_query_reply_size := ct_query_reply_size ex_ct |}.
Definition ex_cts : list controller := [ex_ctl 1; ex_ctl 2].

(** A pass in which device 1 answers, device 2 does not, and a message of device 2 comes late. *)
Definition ex_pass (bytes : list Z) : list wevent :=
  [EStep; EStep; EStep; EStep; ERecv 0x300 [1; 2]; ERecv 0x100 (0x41 :: 1 :: Z.of_nat (length bytes) :: bytes);
   EStep; ETimeout; EStep].
Fixpoint ex_passes (fuel : nat) (s : list Z) : list wevent :=
  match fuel with
  | O => []
  | S fuel => ex_pass (firstn 40 s) ++ [ERun 0; ERun 0; ERun 0] ++ ex_passes fuel (skipn 40 s)
  end.
Definition ex_events : list wevent :=
  [ERun 0; ERun 1; EUser 1 (text_line (lit "d stop"))] ++ flat_map ex_pass (repeat [] 5) ++ [ERun 0] ++ ex_passes 80 ex_stream.

(** The bytes some events bring. *)
Fixpoint brings (es : list event) : option (list Z) :=
  match es with
  | [] => Some []
  | Run :: es => brings es
  | Msg (0x41 :: 1 :: n :: data) :: es =>
      if (0 <=? n) && (n <=? 61) && (n <=? Z.of_nat (length data)) then
        match brings es with Some s => Some (firstn (Z.to_nat n) data ++ s) | None => None end
      else None
  | _ => None
  end.

Lemma brings_delivers : forall es s, brings es = Some s -> delivers es s.
Proof.
  induction es as [|e es IH]; intros s H.
  - injection H as <-. constructor.
  - destruct e as [data|]; [|constructor; apply IH; exact H].
    destruct data as [|a [|b [|n data]]];
      try (cbn in H; repeat match type of H with context [match ?x with _ => _ end] => is_var x; destruct x end; discriminate).
    cbn [brings] in H.
    destruct (Z.eq_dec a 0x41) as [->|A];
      [|exfalso; revert H; clear - A; destruct a as [|p|p]; try discriminate; do 8 (destruct p as [p|p|]; try discriminate; try (exfalso; apply A; reflexivity))].
    destruct (Z.eq_dec b 1) as [->|B];
      [|exfalso; revert H; clear - B; destruct b as [|p|p]; try discriminate; destruct p as [p|p|]; try discriminate; exfalso; apply B; reflexivity].
    destruct ((0 <=? n) && (n <=? 61) && (n <=? Z.of_nat (length data))) eqn:E; [|discriminate].
    destruct (brings es) as [t|]; [|discriminate]. injection H as <-. constructor; [|apply IH; reflexivity].
    exists (skipn (Z.to_nat n) data). rewrite firstn_skipn, firstn_length. split; [|lia].
    rewrite Nat.min_l by lia. rewrite Z2Nat.id by lia. reflexivity.
Qed.

Example C67_ex_hypotheses : let log := w_log (wruns ex_cts ex_events) in
  NoDup (map ct_id ex_cts) /\ nth_error ex_cts 0 = Some (ex_ctl 1) /\ begun 0 log = true /\
  delivers (history 0 1 log) (ex_stream ++ []) /\ (ex_stream ++ []) ++ [] = transcript ex_elements ex_channels ex_items.
Proof.
  cbv zeta. split; [repeat constructor; cbn; intuition lia|]. split; [reflexivity|]. split; [vm_compute; reflexivity|].
  split; [|rewrite !app_nil_r; reflexivity]. apply brings_delivers. vm_compute. reflexivity.
Qed.

Example C67_ex : let w := wruns ex_cts ex_events in
  match w_devs w with
  | [a; b] => shown (m_notes (d_mach a)) = expected_shown ex_elements ex_channels ex_items
  | _ => False
  end /\
  bytes_sent 1 (w_log w) = [13; 10] ++ text_line (lit "tel stop") ++ text_line (lit "d stop") /\
  firstn 12 (turns_of 1 (w_log w)) = [Ask; Skip; Ask; Skip; Skip; Ask; Skip; Skip; Skip; Ask; Skip; Skip] /\
  In Skip (turns_of 1 (w_log w)) /\ passes (w_log w) = 85%nat.
Proof. vm_compute. repeat split. right; left; reflexivity. Qed.

Example C67_ex_round : round (ex_pass []).
Proof.
  exists [EStep; EStep; EStep; EStep; ERecv 0x300 [1; 2]; ERecv 0x100 [0x41; 1; 0]], [], [EStep]. reflexivity.
Qed.

Print Assumptions C67_order.
Print Assumptions C67_alive.
Print Assumptions C67_in_order.
Print Assumptions C67_prompt.
Print Assumptions C67_user.
Print Assumptions C67_task.
Print Assumptions C67_shows.
Print Assumptions C67_backoff.
Print Assumptions C67_asked.
