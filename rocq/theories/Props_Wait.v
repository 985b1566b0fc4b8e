(** C22, C23: waiting for a trajectory to complete, and the choice of the
    transport. *)
From Coq Require Import String ZArith List Bool SpecFloat Sorted Permutation Lia ZifyBool.
From Verif Require Import PyBase PyFloat Mux_Model Ctrl_Model Async Async_Proofs
  Wait_Model Ctrl_Examples.
Import ListNotations.
Open Scope Z_scope.

(** ** C22 *)

(** The results of the awaits when the cycles give [reps]: a sleep between
    two cycles. *)
Fixpoint wait_answers (reps : list wrep) : list (res wrep) :=
  match reps with
  | [] => []
  | r :: reps => Ok r :: Ok [] :: wait_answers reps
  end.

(** The reply of a cycle: the first of its results, if there is one and it
    is not None. *)
Definition first_result (r : wrep) : option dict := hd None r.

(** How many cycles brought a reply. *)
Definition replied (reps : list wrep) : nat :=
  List.length (filter (fun r => match first_result r with Some _ => true | None => false end) reps).

(** The number 0, as an int or a float. *)
Definition zero (v : pyval) : Prop := v = PInt 0 \/ exists s, v = PFloat (S754_zero s).

Lemma truthy_zero v : truthy v = false <-> zero v.
Proof.
  unfold zero. destruct v as [z|x]; cbn.
  - split; [intros; left; f_equal; lia|intros [[= ->]|(s & [=])]; reflexivity].
  - destruct x; split; try discriminate; try reflexivity;
      try (intros; right; eauto; fail); intros [[=]|(s' & [=])].
Qed.

Lemma truthy_nonzero v : truthy v = true <-> ~ zero v.
Proof.
  rewrite <- truthy_zero. destruct (truthy v); split; try discriminate; auto.
Qed.

Lemma extract_first r : extract r = first_result r.
Proof. now destruct r. Qed.

(** [complete d]: the reply reports trajectory_complete, and it is not zero. *)
Definition complete (d : dict) : Prop :=
  exists v, dict_get d R_TRAJECTORY_COMPLETE = Some v /\ ~ zero v.
Definition incomplete (d : dict) : Prop :=
  exists v, dict_get d R_TRAJECTORY_COMPLETE = Some v /\ zero v.

(** After [reps] the trajectory has not been seen to be complete: every
    reply after the first reports that it is not. *)
Definition going_on (reps : list wrep) : Prop :=
  forall before r after d,
    reps = before ++ r :: after -> first_result r = Some d ->
    (1 <= replied before)%nat -> incomplete d.

Section Wait.
Variables (ct : controller) (period : float) (qo : option query_resolution)
  (a : position_args) (query : bool) (cmd : command).

(** The query sent: the given one, or the controller's, with
    trajectory_complete as an INT8. *)
Definition wait_query (ct : controller) (qo : option query_resolution) : query_resolution :=
  set_trajectory_complete (match qo with None => ct_query ct | Some q => q end).
Hypothesis Hcmd : make_position ct a query (Some (wait_query ct qo)) = Ok cmd.

Notation wait := (set_position_wait_complete ct period qo a query).
Notation turn := (wait_turn ct period (wait_query ct qo) a query).

(** The sent commands, with a sleep after each but the last. *)
Fixpoint sent (n : nat) : list wreq :=
  match n with
  | O => []
  | S n => Cycle cmd :: Sleep period :: sent n
  end.

Lemma sent_snoc n : sent (S n) = sent n ++ [Cycle cmd; Sleep period].
Proof. induction n; cbn in *; congruence. Qed.

Lemma turn_runs c r rs o qs (k : Z + dict -> W dict) :
  (let c' := match first_result r with Some _ => Z.max (c - 1) 0 | None => c end in
   match first_result r with
   | Some d => c' = 0 -> incomplete d
   | None => True
   end) ->
  runs (k (inl (match first_result r with Some _ => Z.max (c - 1) 0 | None => c end))) tt rs o qs ->
  runs (pbind (turn c) k) tt (Ok r :: Ok [] :: rs) o (Cycle cmd :: Sleep period :: qs).
Proof.
  intros H R. unfold wait_turn, set_position, execute. rewrite Hcmd.
  cbn [lift pbind await]. apply runs_await. cbn. rewrite extract_first.
  destruct (first_result r) as [d|].
  - destruct (Z.max (c - 1) 0 =? 0) eqn:E.
    + destruct H as (v & -> & Z); [lia|]. rewrite (proj2 (truthy_zero v) Z). cbn. apply runs_await. exact R.
    + cbn. apply runs_await. exact R.
  - destruct (c =? 0); cbn; apply runs_await; exact R.
Qed.

Definition count_after (reps : list wrep) : Z := Z.max (2 - Z.of_nat (replied reps)) 0.

Lemma replied_snoc reps r : replied (reps ++ [r]) =
  (replied reps + match first_result r with Some _ => 1 | None => 0 end)%nat.
Proof.
  unfold replied. rewrite filter_app, app_length. cbn. now destruct (first_result r).
Qed.

Lemma wait_answers_snoc reps r : wait_answers (reps ++ [r]) = wait_answers reps ++ [Ok r; Ok []].
Proof. induction reps as [|x l IH]; cbn; [reflexivity|]. now rewrite IH. Qed.

Lemma going_on_snoc reps r : going_on (reps ++ [r]) <->
  going_on reps /\ (forall d, first_result r = Some d -> (1 <= replied reps)%nat -> incomplete d).
Proof.
  split.
  - intros G. split.
    + intros b x af d -> E L. apply (G b x (af ++ [r]) d); auto.
      now rewrite <- app_assoc.
    + intros d E L. apply (G reps r [] d); auto.
  - intros [G H] b x af d E Ex L.
    destruct af as [|z af] using rev_ind.
    + apply app_inj_tail in E. destruct E as [<- <-]. auto.
    + clear IHaf. rewrite app_comm_cons, app_assoc in E.
      apply app_inj_tail in E. destruct E as [-> <-]. eapply G; eauto.
Qed.

Lemma wait_prefix before : going_on before -> forall rs o qs,
  runs (Loop turn (count_after before) Ret) tt rs o qs ->
  runs wait tt (wait_answers before ++ rs) o (sent (List.length before) ++ qs).
Proof.
  induction before as [|r before IH] using rev_ind; intros G rs o qs R.
  - exact R.
  - apply going_on_snoc in G. destruct G as [G H].
    rewrite wait_answers_snoc, app_length, Nat.add_1_r, sent_snoc, <- !app_assoc.
    apply IH; auto. cbn [app]. apply runs_loop. unfold unroll. apply turn_runs.
    + cbv zeta. destruct (first_result r) as [d|]; [|exact I].
      unfold count_after. intros E. apply H; [reflexivity|lia].
    + replace (match first_result r with Some _ => _ | None => _ end)
        with (count_after (before ++ [r])); [exact R|].
      unfold count_after. rewrite replied_snoc. destruct (first_result r); lia.
Qed.

(** It returns the first reply that is at least the second one and is
    complete; it has then sent the same command once per cycle. *)
Theorem C22_returns : forall before r d rest,
  going_on before -> (1 <= replied before)%nat -> first_result r = Some d -> complete d ->
  runs wait tt (wait_answers before ++ Ok r :: rest) (Returned d tt rest)
    (sent (List.length before) ++ [Cycle cmd]).
Proof.
  intros before r d rest G L E (v & E1 & E2). apply wait_prefix; auto.
  apply runs_loop. unfold unroll, wait_turn, set_position, execute. rewrite Hcmd.
  cbn [lift pbind await]. apply runs_await. cbn. rewrite extract_first, E.
  replace (_ =? 0) with true by (unfold count_after; lia).
  rewrite E1, (proj2 (truthy_nonzero v) E2). apply runs_ret.
Qed.

(** Until then it goes on asking. *)
Theorem C22_waits : forall reps, going_on reps ->
  runs wait tt (wait_answers reps) (Waiting tt (Cycle cmd))
    (sent (List.length reps) ++ [Cycle cmd]).
Proof.
  intros reps G. rewrite <- (app_nil_r (wait_answers reps)). apply wait_prefix; auto.
  apply runs_loop. unfold unroll, wait_turn, set_position, execute. rewrite Hcmd.
  cbn [lift pbind await]. apply runs_wait.
Qed.

(** A reply that should tell but does not carry the register. *)
Theorem C22_missing_register : forall before r d rest,
  going_on before -> (1 <= replied before)%nat -> first_result r = Some d ->
  dict_get d R_TRAJECTORY_COMPLETE = None ->
  runs wait tt (wait_answers before ++ Ok r :: rest) (Raised KeyError tt rest)
    (sent (List.length before) ++ [Cycle cmd]).
Proof.
  intros before r d rest G L E E1. apply wait_prefix; auto.
  apply runs_loop. unfold unroll, wait_turn, set_position, execute. rewrite Hcmd.
  cbn [lift pbind await]. apply runs_await. cbn. rewrite extract_first, E.
  replace (_ =? 0) with true by (unfold count_after; lia).
  rewrite E1. apply runs_throw.
Qed.

Lemma wait_answers_app a0 b : wait_answers (a0 ++ b) = wait_answers a0 ++ wait_answers b.
Proof. induction a0 as [|x l IH]; cbn; [reflexivity|]. now rewrite IH. Qed.

Lemma first_stop reps : going_on reps \/
  exists before r after d, reps = before ++ r :: after /\ going_on before /\
    (1 <= replied before)%nat /\ first_result r = Some d /\
    (complete d \/ dict_get d R_TRAJECTORY_COMPLETE = None).
Proof.
  induction reps as [|r reps IH] using rev_ind.
  - left. intros b x af d E. now destruct b.
  - destruct IH as [G|(b & x & af & d & -> & G & L & E & H)].
    + destruct (first_result r) as [d|] eqn:E.
      * destruct (Nat.le_gt_cases 1 (replied reps)) as [L|L].
        { destruct (dict_get d R_TRAJECTORY_COMPLETE) as [v|] eqn:Ed.
          - destruct (truthy v) eqn:Et.
            + right. exists reps, r, [], d. repeat split; auto. left. exists v.
              split; [auto|now apply truthy_nonzero].
            + left. apply going_on_snoc. split; auto. rewrite E.
              intros d' [= <-] _. exists v. split; [auto|now apply truthy_zero].
          - right. exists reps, r, [], d. repeat split; auto. }
        { left. apply going_on_snoc. split; auto. intros; lia. }
      * left. apply going_on_snoc. split; auto. rewrite E. discriminate.
    + right. exists b, x, (af ++ [r]), d. rewrite <- app_assoc. repeat split; auto.
Qed.

(** It never returns anything else. *)
Theorem C22_returns_only : forall reps d rest qs,
  runs wait tt (wait_answers reps) (Returned d tt rest) qs ->
  exists before r after, reps = before ++ r :: after /\ going_on before /\
    (1 <= replied before)%nat /\ first_result r = Some d /\ complete d /\
    qs = sent (List.length before) ++ [Cycle cmd].
Proof.
  intros reps d rest qs R.
  destruct (first_stop reps) as [G|(b & r & af & d' & -> & G & L & E & [H|H])].
  - destruct (runs_det _ _ _ _ _ _ _ _ R (C22_waits reps G)) as [Ho _]. discriminate.
  - rewrite wait_answers_app in R. cbn in R.
    destruct (runs_det _ _ _ _ _ _ _ _ R (C22_returns b r d' _ G L E H)) as [Ho Hq].
    injection Ho as -> _. exists b, r, af. repeat split; auto.
  - rewrite wait_answers_app in R. cbn in R.
    destruct (runs_det _ _ _ _ _ _ _ _ R (C22_missing_register b r d' _ G L E H)) as [Ho _].
    discriminate.
Qed.

(** An exception of the transport reaches the caller at once. *)
Theorem C22_cycle_error : forall before e rest, going_on before ->
  runs wait tt (wait_answers before ++ Raise e :: rest) (Raised e tt rest)
    (sent (List.length before) ++ [Cycle cmd]).
Proof.
  intros before e rest G. apply wait_prefix; auto.
  apply runs_loop. unfold unroll, wait_turn, set_position, execute. rewrite Hcmd.
  cbn [lift pbind await]. apply runs_await. cbn. apply runs_throw.
Qed.
End Wait.

(** Arguments that make no command: nothing is sent. *)
Theorem C22_bad_command : forall ct period qo a query e rest,
  make_position ct a query (Some (wait_query ct qo)) = Raise e ->
  runs (set_position_wait_complete ct period qo a query) tt rest (Raised e tt rest) [].
Proof.
  intros ct period qo a query e rest H. apply runs_loop.
  unfold unroll, wait_turn, set_position, execute. fold (wait_query ct qo). rewrite H.
  cbn. apply runs_throw.
Qed.

(** The query asked for is the requested one (the controller's by default)
    with trajectory_complete added as an INT8: each register of the frame
    layout has the requested resolution, save that one. *)
Theorem C22_query : forall ct qo,
  let asked := match qo with None => ct_query ct | Some q => q end in
  let q := wait_query ct qo in
  q_trajectory_complete q = INT8 /\
  forall f, In f [q_mode; q_position; q_velocity; q_torque; q_q_current; q_d_current;
                  q_abs_position; q_power; q_motor_temperature; q_rezero_state; q_home_state;
                  q_voltage; q_temperature; q_fault; q_aux1_gpio; q_aux2_gpio] ->
    f q = f asked.
Proof.
  intros ct qo asked q. split; [reflexivity|].
  intros f H. cbn in H. repeat (destruct H as [<-|H]; [reflexivity|]). destruct H.
Qed.
Theorem C22_query_extra : forall ct qo,
  q_extra (wait_query ct qo) = q_extra (match qo with None => ct_query ct | Some q => q end).
Proof. reflexivity. Qed.

(** ** C23 *)
Section Choice.
Context {Args Tr : Type}.
Variable force_transport : Args -> option string.
Notation fac := (@factory Args Tr).

(** Which factories are considered. *)
Definition eligible (fs : list fac) (args : option Args) (f : fac) : Prop :=
  match args with
  | None => True
  | Some a =>
      match force_transport a with
      | Some name => f_name f = name
      | None => f_args_set f a = true \/ Forall (fun g => f_args_set g a = false) fs
      end
  end.

(** The factory at index [i] comes before the one at [j]: a smaller
    PRIORITY, or the same and registered earlier. *)
Definition precedes (i : nat) (f : fac) (j : nat) (g : fac) : Prop :=
  f_priority f < f_priority g \/ (f_priority f = f_priority g /\ (i < j)%nat).

Let before (x y : nat * fac) := precedes (fst x) (snd x) (fst y) (snd y).

Lemma insert_tagged l n (f : fac) : StronglySorted before l ->
  Forall (fun x => (fst x < n)%nat) l ->
  exists l', map snd l' = insert f (map snd l) /\ Permutation ((n, f) :: l) l' /\
    StronglySorted before l'.
Proof.
  induction l as [|[i g] l IH]; intros S L.
  - exists [(n, f)]. repeat split; auto. repeat constructor.
  - inversion S as [|? ? S' F]; subst. inversion L as [|? ? Li L']; subst. cbn in *.
    destruct (f_priority f <? f_priority g) eqn:E.
    + exists ((n, f) :: (i, g) :: l). repeat split; auto. constructor; auto.
      constructor; [left; cbn; lia|]. rewrite Forall_forall in *.
      intros [j h] Hj. specialize (F _ Hj). left.
      unfold before, precedes in *. cbn in *. lia.
    + destruct IH as (l' & E' & P & S2); auto.
      exists ((i, g) :: l'). repeat split.
      * cbn. now rewrite E'.
      * rewrite perm_swap. now constructor.
      * constructor; auto. rewrite Forall_forall in *. intros x Hx.
        apply (Permutation_in _ (Permutation_sym P)) in Hx. destruct Hx as [<-|Hx]; auto.
        unfold before, precedes. cbn in *. lia.
Qed.

Lemma sorted_tagged (fs : list fac) : exists l, map snd l = py_sorted fs /\
  (forall i f, In (i, f) l <-> nth_error fs i = Some f) /\ StronglySorted before l.
Proof.
  induction fs as [|f fs (l & E & I & S)] using rev_ind.
  - exists []. repeat split; auto; try constructor.
    + intros [].
    + destruct i; discriminate.
  - destruct (insert_tagged l (List.length fs) f S) as (l' & E' & P & S').
    { apply Forall_forall. intros [i g] H. apply I in H. cbn.
      apply nth_error_Some. congruence. }
    exists l'. repeat split; auto.
    + unfold py_sorted. rewrite fold_left_app. cbn. now rewrite E', E.
    + intros H. apply (Permutation_in _ (Permutation_sym P)) in H.
      destruct H as [H|H].
      * injection H as <- <-. rewrite nth_error_app2, Nat.sub_diag by lia. reflexivity.
      * apply I in H. rewrite nth_error_app1; auto. apply nth_error_Some. congruence.
    + intros H. apply (Permutation_in _ P).
      destruct (Nat.lt_trichotomy i (List.length fs)) as [L|[L|L]].
      * rewrite nth_error_app1 in H by lia. right. now apply I.
      * subst i. rewrite nth_error_app2, Nat.sub_diag in H by lia. injection H as <-. now left.
      * assert (nth_error (fs ++ [f]) i = None) as X; [|congruence].
        apply nth_error_None. rewrite app_length. cbn. lia.
Qed.

Lemma try_all_some args (l : list (nat * fac)) P t : StronglySorted before l ->
  try_all args (filter P (map snd l)) = Some t <->
  exists i f, In (i, f) l /\ P f = true /\ f_make f args = Some t /\
    forall j g, In (j, g) l -> precedes j g i f -> P g = true -> f_make g args = None.
Proof.
  induction l as [|[i f] l IH]; intros S.
  - cbn. split; [discriminate|]. intros (i & f & [] & _).
  - inversion S as [|? ? S' F]; subst. rewrite Forall_forall in F. cbn.
    assert (forall j g, In (j, g) l -> precedes i f j g) as F' by (intros j g H; apply (F _ H)).
    assert (forall j g, precedes i f j g -> ~ precedes j g i f) as As.
    { unfold precedes. lia. }
    destruct (P f && match f_make f args with Some _ => true | None => false end) eqn:E.
    + destruct (P f) eqn:Pf; [|discriminate]. cbn.
      destruct (f_make f args) as [t'|] eqn:Mf; [|discriminate]. split.
      * intros [= <-]. exists i, f. repeat split; auto.
        intros j g [H|H] Hp _; [injection H as <- <-; exfalso; unfold precedes in Hp; lia|].
        exfalso. exact (As _ _ (F' _ _ H) Hp).
      * intros (j & g & [H|H] & Pg & Mg & A).
        { injection H as <- <-. congruence. }
        { rewrite (A i f) in Mf; auto. discriminate. }
    + assert (try_all args (if P f then f :: filter P (map snd l) else filter P (map snd l)) =
              try_all args (filter P (map snd l))) as ->.
      { destruct (P f) eqn:Pf; auto. cbn. now destruct (f_make f args). }
      rewrite IH by auto. split.
      * intros (j & g & H & Pg & Mg & A). exists j, g. repeat split; auto.
        intros k h [Hk|Hk] Hp Ph; [|eauto]. injection Hk as <- <-. rewrite Ph in E.
        now destruct (f_make f args).
      * intros (j & g & [H|H] & Pg & Mg & A).
        { injection H as <- <-. rewrite Pg, Mg in E. discriminate. }
        { exists j, g. repeat split; auto. intros k h Hk. apply A. now right. }
Qed.

Definition eligibleb (fs : list fac) (args : option Args) (f : fac) : bool :=
  match args with
  | None => true
  | Some a =>
      match force_transport a with
      | Some name => String.eqb (f_name f) name
      | None => f_args_set f a || negb (existsb (fun x => f_args_set x a) fs)
      end
  end.

Lemma eligibleb_spec fs args f : eligibleb fs args f = true <-> eligible fs args f.
Proof.
  unfold eligibleb, eligible. destruct args as [a|]; [|tauto].
  destruct (force_transport a) as [n|]; [apply String.eqb_eq|].
  rewrite orb_true_iff, negb_true_iff. apply or_iff_compat_l.
  rewrite Forall_forall. split.
  - intros H g Hg. destruct (f_args_set g a) eqn:E; auto.
    rewrite <- H. symmetry. apply existsb_exists. eauto.
  - intros H. destruct (existsb _ fs) eqn:E; auto. apply existsb_exists in E.
    destruct E as (g & Hg & E). rewrite H in E; auto.
Qed.

Lemma filter_all {A} (P : A -> bool) l : (forall x, P x = true) -> filter P l = l.
Proof. intros H. induction l as [|x l IH]; cbn; auto. now rewrite H, IH. Qed.

Lemma get_singleton_eq fs args : get_singleton_transport force_transport fs None args =
  match try_all args (filter (eligibleb fs args) (py_sorted fs)) with
  | None => (Raise RuntimeError, None)
  | Some t => (Ok t, Some t)
  end.
Proof.
  unfold get_singleton_transport, eligibleb. destruct args as [a|].
  - destruct (force_transport a) as [n|]; auto.
    destruct (existsb _ fs).
    + erewrite filter_ext; [reflexivity|]. intros f. cbn. now rewrite orb_false_r.
    + rewrite filter_all; auto. intros f. cbn. now rewrite orb_true_r.
  - now rewrite filter_all.
Qed.

(** The transport returned is made by the first factory, in priority order,
    among the eligible ones that can be constructed. *)
Theorem C23_choice : forall fs args t,
  fst (get_singleton_transport force_transport fs None args) = Ok t <->
  exists i f, nth_error fs i = Some f /\ eligible fs args f /\ f_make f args = Some t /\
    forall j g, nth_error fs j = Some g -> precedes j g i f -> eligible fs args g ->
      f_make g args = None.
Proof.
  intros fs args t. rewrite get_singleton_eq.
  destruct (sorted_tagged fs) as (l & <- & I & S).
  transitivity (try_all args (filter (eligibleb fs args) (map snd l)) = Some t).
  { destruct (try_all _ _); cbn; split; congruence. }
  rewrite (try_all_some args l (eligibleb fs args) t S).
  split; intros (i & f & H1 & H2 & H3 & H4); exists i, f;
    (split; [now apply I|]); (split; [now apply eligibleb_spec|]); split; auto;
    intros j g Hj Hp He; apply (H4 j g); auto; [now apply I|now apply eligibleb_spec|
      now apply I|now apply eligibleb_spec].
Qed.

(** Otherwise the call raises: exactly when every eligible factory fails.
    Nothing is remembered then, and the call can be tried again. *)
Theorem C23_error : forall fs args,
  get_singleton_transport force_transport fs None args = (Raise RuntimeError, None) <->
  forall f, In f fs -> eligible fs args f -> f_make f args = None.
Proof.
  intros fs args. rewrite get_singleton_eq.
  destruct (sorted_tagged fs) as (l & <- & I & S).
  transitivity (try_all args (filter (eligibleb fs args) (map snd l)) = None).
  { destruct (try_all _ _); split; congruence. }
  transitivity (forall f, In f (map snd l) -> eligibleb fs args f = true -> f_make f args = None).
  - induction (map snd l) as [|f m IH]; cbn.
    + split; auto. intros _ f [].
    + destruct (eligibleb fs args f) eqn:E; cbn.
      * destruct (f_make f args) eqn:M.
        { split; [discriminate|]. intros H. rewrite (H f) in M; auto; discriminate. }
        rewrite IH. split; [intros H g [<-|Hg]; auto|auto].
      * rewrite IH. split; [intros H g [<-|Hg]; auto; congruence|auto].
  - split; intros H f Hf He; apply H; try now apply eligibleb_spec.
    + apply In_nth_error in Hf. destruct Hf as (i & Hi). apply I in Hi.
      change f with (snd (i, f)). now apply in_map.
    + apply in_map_iff in Hf. destruct Hf as ([i g] & <- & Hi). apply I in Hi.
      cbn. eapply nth_error_In; eauto.
Qed.

(** Once a transport was returned, every later call returns it, whatever the
    arguments and factories are then. *)
Theorem C23_singleton : forall (fs : list fac) args t global,
  get_singleton_transport force_transport fs None args = (Ok t, global) ->
  forall (fs' : list fac) args', get_singleton_transport force_transport fs' global args' = (Ok t, global).
Proof.
  intros fs args t global. rewrite get_singleton_eq. destruct (try_all _ _); [|discriminate].
  intros [= <- <-] fs' args'. reflexivity.
Qed.

(** The only outcomes are these two. *)
Theorem C23_total : forall (fs : list fac) args,
  (exists t, get_singleton_transport force_transport fs None args = (Ok t, Some t)) \/
  get_singleton_transport force_transport fs None args = (Raise RuntimeError, None).
Proof. intros fs args. rewrite get_singleton_eq. destruct (try_all _ _); eauto. Qed.
End Choice.

(** *** Examples *)
Section Examples.
(** Three factories; [args]: (force_transport, [the factories whose options
    are set]); the transport is named by a number. *)
Let mk name prio t : @factory (option string * list string) Z :=
  {| f_name := name; f_priority := prio;
     f_args_set := fun a => existsb (String.eqb name) (snd a);
     f_make := fun _ => t |}.
Let fs := [mk "fdcanusb" 10 None; mk "pythoncan" 11 (Some 1); mk "other" 11 (Some 2);
           mk "pi3hat" 5 None].
Let get args := get_singleton_transport fst fs None args.

Example C23_ex_default : get None = (Ok 1, Some 1).
Proof. reflexivity. Qed.
Example C23_ex_forced : get (Some (Some "other"%string, [])) = (Ok 2, Some 2).
Proof. reflexivity. Qed.
Example C23_ex_forced_fails : get (Some (Some "pi3hat"%string, [])) = (Raise RuntimeError, None).
Proof. reflexivity. Qed.
Example C23_ex_set : get (Some (None, ["fdcanusb"; "other"]%string)) = (Ok 2, Some 2).
Proof. reflexivity. Qed.
Example C23_ex_none_set : get (Some (None, [])) = (Ok 1, Some 1).
Proof. reflexivity. Qed.
End Examples.

(** C22: a first reply that claims completion is not believed, a missing
    one does not count, the third and fourth decide. *)
Definition wait_ct : controller :=
  match make_controller 3 default_query_resolution default_position_resolution
    default_vfoc_resolution default_current_resolution default_pwm_resolution 0 with
  | Ok ct => ct
  | Raise _ => dut
  end.
Definition wait_args : position_args :=
  Build_position_args (Some (flit 5 1)) None None None None None None None
    (Some (flit 2 0)) None None None.
Definition wait_cmd : command :=
  match make_position wait_ct wait_args true (Some (wait_query wait_ct None)) with
  | Ok c => c
  | Raise _ => {| cmd_destination := 0; cmd_source := 0; cmd_reply_required := false;
                 cmd_data := []; cmd_can_prefix := 0; cmd_expected_reply_size := 0;
                 cmd_raw := false; cmd_arbitration_id := 0 |}
  end.
Definition tc (v : Z) : dict := [(R_TRAJECTORY_COMPLETE, PInt v)].
Definition wait_before : list wrep := [[Some (tc 1)]; []; [Some (tc 0)]; [None]].

Example C22_ex_cmd :
  make_position wait_ct wait_args true (Some (wait_query wait_ct None)) = Ok wait_cmd.
Proof. vm_compute. reflexivity. Qed.

Example C22_ex_going_on : going_on wait_before /\ replied wait_before = 2%nat.
Proof.
  split; [|reflexivity]. intros b r af d E Ex L.
  destruct b as [|r0 b]; [cbn in L; lia|].
  destruct b as [|r1 b]; injection E; intros; subst; [discriminate|].
  destruct b as [|r2 b]; injection H; intros; subst.
  { injection Ex as <-. exists (PInt 0). split; [reflexivity|now left]. }
  destruct b as [|r3 b]; injection H0; intros; subst; [discriminate|].
  destruct b; discriminate.
Qed.

Example C22_ex_complete : complete (tc 1) /\ ~ complete (tc 0).
Proof.
  split.
  - exists (PInt 1). split; [reflexivity|]. now apply truthy_nonzero.
  - intros (v & E & T). injection E as <-. apply T. now left.
Qed.

Example C22_ex_run :
  runs (set_position_wait_complete wait_ct (flit 1 2) None wait_args true) tt
    (wait_answers wait_before ++ [Ok [Some (tc 1)]])
    (Returned (tc 1) tt []) (sent (flit 1 2) wait_cmd 4 ++ [Cycle wait_cmd]).
Proof.
  apply C22_returns.
  - exact C22_ex_cmd.
  - apply C22_ex_going_on.
  - cbn. lia.
  - reflexivity.
  - apply C22_ex_complete.
Qed.

Print Assumptions C22_returns.
Print Assumptions C22_waits.
Print Assumptions C22_missing_register.
Print Assumptions C22_returns_only.
Print Assumptions C22_bad_command.
Print Assumptions C22_cycle_error.
Print Assumptions C22_query.
Print Assumptions C22_query_extra.
Print Assumptions C23_choice.
Print Assumptions C23_error.
Print Assumptions C23_singleton.
Print Assumptions C23_total.
