(** Laws of [pbind] and [catch] up to extensional equality, and the rules
    for running composed coroutines. *)
From Coq Require Import ZArith List Bool Lia.
From Verif Require Import PyBase Async.
Import ListNotations.

Section P.
Context {St Req Rep : Type}.
Notation prog := (prog St Req Rep).
Notation shared := (shared St Req).

(** Equality up to the extension of continuations. *)
Inductive peq : forall A, prog A -> prog A -> Prop :=
| peq_ret A (a : A) : peq A (Ret a) (Ret a)
| peq_throw A e : peq A (Throw e) (Throw e)
| peq_get A k k' : (forall s, peq A (k s) (k' s)) -> peq A (Get k) (Get k')
| peq_put A s k k' : peq A k k' -> peq A (Put s k) (Put s k')
| peq_acquire A k k' :
    (forall r, peq A (k r) (k' r)) -> peq A (Acquire k) (Acquire k')
| peq_release A k k' : peq A k k' -> peq A (Release k) (Release k')
| peq_await A q k k' :
    (forall r, peq A (k r) (k' r)) -> peq A (Await q k) (Await q k')
| peq_loop A X B body body' (x : X) (k k' : B -> prog A) :
    (forall x, peq (X + B) (body x) (body' x)) ->
    (forall b, peq A (k b) (k' b)) ->
    peq A (Loop body x k) (Loop body' x k').
Arguments peq {A} p q.

Lemma peq_refl A (p : prog A) : peq p p.
Proof. induction p; constructor; auto. Qed.

Lemma peq_sym A (p q : prog A) : peq p q -> peq q p.
Proof. induction 1; constructor; auto. Qed.

Lemma pbind_peq A (p p' : prog A) : peq p p' ->
  forall B (f f' : A -> prog B), (forall a, peq (f a) (f' a)) ->
  peq (pbind p f) (pbind p' f').
Proof. induction 1; cbn; intros; try constructor; auto. Qed.

Lemma pbind_assoc A (p : prog A) : forall B C (f : A -> prog B) (g : B -> prog C) h,
  (forall a, peq (pbind (f a) g) (h a)) ->
  peq (pbind (pbind p f) g) (pbind p h).
Proof.
  induction p; intros; cbn; try constructor; auto; intros; try apply peq_refl.
Qed.

Lemma pbind_ret A (p : prog A) : peq (pbind p Ret) p.
Proof. induction p; cbn; constructor; auto; intros; apply peq_refl. Qed.

Lemma unroll_peq A X B body body' (x : X) (k k' : B -> prog A) :
  (forall x, peq (body x) (body' x)) -> (forall b, peq (k b) (k' b)) ->
  peq (unroll body x k) (unroll body' x k').
Proof.
  intros Hb Hk. apply pbind_peq; [apply Hb|].
  intros [x'|b]; [now constructor | apply Hk].
Qed.

Lemma unroll_bind A C X B body (x : X) (k : B -> prog A) (f : A -> prog C) :
  peq (pbind (unroll body x k) f) (unroll body x (fun b => pbind (k b) f)).
Proof.
  unfold unroll. apply pbind_assoc.
  intros [x'|b]; apply peq_refl.
Qed.

Lemma catch_peq A (p p' : prog A) : peq p p' -> peq (catch p) (catch p').
Proof.
  induction 1; cbn; constructor; auto.
  - intros y. apply pbind_peq; auto. intros; apply peq_refl.
  - intros [b|e]; auto. apply peq_refl.
Qed.

(** [catch] after [pbind]. *)
Definition caught {A B} (f : A -> prog B) (r : res A) : prog (res B) :=
  match r with Ok a => catch (f a) | Raise e => Ret (Raise e) end.

Lemma catch_bind A (p : prog A) : forall B (f : A -> prog B),
  peq (catch (pbind p f)) (pbind (catch p) (caught f)).
Proof.
  induction p; intros; cbn; try constructor; auto; intros; try apply peq_refl.
  destruct b as [b|e]; auto. apply peq_refl.
Qed.

(** ** Running *)
Lemma run_peq A fuel : forall (p q : prog A) s rs,
  peq p q -> run fuel p s rs = run fuel q s rs.
Proof.
  induction fuel as [|n IH]; intros p q s rs H; [reflexivity|].
  destruct H; cbn; auto.
  - destruct rs as [|r rs]; auto. rewrite (IH _ _ _ _ (H r)). reflexivity.
  - apply IH, unroll_peq; assumption.
Qed.

Lemma runs_peq A (p q : prog A) s rs o qs :
  peq p q -> runs q s rs o qs -> runs p s rs o qs.
Proof. intros E [n H]. exists n. now rewrite (run_peq A n p q). Qed.

Lemma runs_S A n (p : prog A) s rs o qs :
  run n p s rs = Some (o, qs) -> runs p s rs o qs.
Proof. now exists n. Qed.

Lemma runs_bind_run A B n : forall (p : prog A) (f : A -> prog B) s rs a s' rs' qs o qs',
  run n p s rs = Some (Returned a s' rs', qs) ->
  runs (f a) s' rs' o qs' ->
  runs (pbind p f) s rs o (qs ++ qs').
Proof.
  induction n as [|n IH]; intros p f s rs a s' rs' qs o qs' H Hf; [discriminate|].
  destruct p; cbn in H |- *.
  - injection H as <- <- <- <-. exact Hf.
  - discriminate.
  - apply runs_get. eapply IH; eauto.
  - apply runs_put. eapply IH; eauto.
  - apply runs_acquire. eapply IH; eauto.
  - apply runs_release. eapply IH; eauto.
  - destruct rs as [|x rs]; [discriminate|].
    destruct (run n (k x) s rs) as [[o1 q1]|] eqn:E; [|discriminate].
    injection H as -> <-. cbn. apply runs_await. eapply IH; eauto.
  - apply runs_loop. eapply runs_peq; [apply peq_sym, unroll_bind|].
    eapply IH; eauto.
Qed.

Lemma runs_bind A B (p : prog A) (f : A -> prog B) s rs a s' rs' qs o qs' :
  runs p s rs (Returned a s' rs') qs -> runs (f a) s' rs' o qs' ->
  runs (pbind p f) s rs o (qs ++ qs').
Proof. intros [n H]. now apply runs_bind_run with (1 := H). Qed.

(** The outcome of a prefix that does not return. *)
Definition stops {A B} (o : outcome St Req Rep A) (o' : outcome St Req Rep B) : Prop :=
  match o, o' with
  | Raised e s rs, Raised e' s' rs' => e = e' /\ s = s' /\ rs = rs'
  | Waiting s q, Waiting s' q' => s = s' /\ q = q'
  | _, _ => False
  end.

Lemma runs_bind_stop_run A B n : forall (p : prog A) (f : A -> prog B) s rs o o' qs,
  run n p s rs = Some (o, qs) -> stops o o' -> runs (pbind p f) s rs o' qs.
Proof.
  induction n as [|n IH]; intros p f s rs o o' qs H Hs; [discriminate|].
  destruct p; cbn in H |- *.
  - injection H as <- <-. destruct o'; contradiction.
  - injection H as <- <-. destruct o'; try contradiction.
    destruct Hs as (<- & <- & <-). apply runs_throw.
  - apply runs_get. eapply IH; eauto.
  - apply runs_put. eapply IH; eauto.
  - apply runs_acquire. eapply IH; eauto.
  - apply runs_release. eapply IH; eauto.
  - destruct rs as [|x rs].
    + injection H as <- <-. destruct o'; try contradiction.
      destruct Hs as (<- & <-). apply runs_wait.
    + destruct (run n (k x) s rs) as [[o1 q1]|] eqn:E; [|discriminate].
      injection H as <- <-. apply runs_await. eapply IH; eauto.
  - apply runs_loop. eapply runs_peq; [apply peq_sym, unroll_bind|].
    eapply IH; eauto.
Qed.

Lemma runs_bind_raise A B (p : prog A) (f : A -> prog B) s rs e s' rs' qs :
  runs p s rs (Raised e s' rs') qs -> runs (pbind p f) s rs (Raised e s' rs') qs.
Proof. intros [n H]. eapply runs_bind_stop_run; [exact H|cbn; auto]. Qed.

Lemma runs_bind_wait A B (p : prog A) (f : A -> prog B) s rs s' q qs :
  runs p s rs (Waiting s' q) qs -> runs (pbind p f) s rs (Waiting s' q) qs.
Proof. intros [n H]. eapply runs_bind_stop_run; [exact H|cbn; auto]. Qed.

Definition catches {A} (o : outcome St Req Rep A) : outcome St Req Rep (res A) :=
  match o with
  | Returned a s rs => Returned (Ok a) s rs
  | Raised e s rs => Returned (Raise e) s rs
  | Waiting s q => Waiting s q
  end.

Lemma runs_catch_run A n : forall (p : prog A) s rs o qs,
  run n p s rs = Some (o, qs) -> runs (catch p) s rs (catches o) qs.
Proof.
  induction n as [|n IH]; intros p s rs o qs H; [discriminate|].
  destruct p; cbn in H |- *.
  - injection H as <- <-. apply runs_ret.
  - injection H as <- <-. apply runs_ret.
  - apply runs_get; auto.
  - apply runs_put; auto.
  - apply runs_acquire; auto.
  - apply runs_release; auto.
  - destruct rs as [|x rs].
    + injection H as <- <-. apply runs_wait.
    + destruct (run n (k x) s rs) as [[o1 q1]|] eqn:E; [|discriminate].
      injection H as <- <-. apply runs_await; auto.
  - apply runs_loop. apply IH in H.
    unfold unroll in H.
    eapply runs_peq; [apply peq_sym|].
    2: { eapply runs_peq; [apply peq_sym, catch_bind|]. exact H. }
    unfold unroll. apply peq_sym, pbind_assoc.
    intros [[x'|b]|e]; cbn; apply peq_refl.
Qed.

Lemma runs_catch A (p : prog A) s rs o qs :
  runs p s rs o qs -> runs (catch p) s rs (catches o) qs.
Proof. intros [n H]. now apply runs_catch_run with (1 := H). Qed.

Lemma runs_with_lock A (p : prog A) s rs o qs :
  runs p s rs o qs -> runs (with_lock p) s rs o qs.
Proof.
  intros H. apply runs_acquire. apply runs_catch in H.
  destruct o as [a s' rs'|e s' rs'|s' q]; cbn in H.
  - rewrite <- (app_nil_r qs). eapply runs_bind; [exact H|].
    apply runs_release, runs_ret.
  - rewrite <- (app_nil_r qs). eapply runs_bind; [exact H|].
    apply runs_release, runs_throw.
  - now apply runs_bind_wait.
Qed.

(** ** The concurrent semantics *)
Lemma advance_mono A fuel : forall t (p : prog A) (w : shared) r fuel',
  advance fuel t p w = Some r -> (fuel <= fuel')%nat -> advance fuel' t p w = Some r.
Proof.
  induction fuel as [|n IH]; intros t p w r [|m] H L; try discriminate; [lia|].
  apply le_S_n in L. destruct p; cbn in *; eauto.
  destruct (sh_owner w); auto. destruct (sh_queue w); eauto.
Qed.

Lemma advance_det A n m t (p : prog A) (w : shared) r r' :
  advance n t p w = Some r -> advance m t p w = Some r' -> r = r'.
Proof.
  intros H H'.
  apply advance_mono with (fuel' := max n m) in H; [|lia].
  apply advance_mono with (fuel' := max n m) in H'; [|lia].
  congruence.
Qed.

(** An executable version of [step], to build concrete histories. *)
Definition exec_event {A} (n : nat) (p : pool St Req Rep A) (e : event St Req Rep A)
  : option (pool St Req Rep A) :=
  let ts := po_tasks p in let w := po_shared p in
  match e with
  | Spawn p =>
      match advance n (length ts) p w with
      | Some (x, w') => Some (Pool (ts ++ [x]) w')
      | None => None
      end
  | Answer t r =>
      match nth_error ts t with
      | Some (Calling q k) =>
          match advance n t (k r) w with
          | Some (x, w') => Some (Pool (set_nth ts t x) w')
          | None => None
          end
      | _ => None
      end
  | Grant =>
      match sh_owner w, sh_queue w with
      | None, t :: queue =>
          match nth_error ts t with
          | Some (LockWait k) =>
              match advance n t (k (Ok tt))
                      (Shared (sh_st w) (Some t) queue (sh_log w)) with
              | Some (x, w') => Some (Pool (set_nth ts t x) w')
              | None => None
              end
          | _ => None
          end
      | _, _ => None
      end
  | Sync f => Some (Pool ts (Shared (f (sh_st w)) (sh_owner w) (sh_queue w) (sh_log w)))
  | Cancel t =>
      match nth_error ts t with
      | Some (Calling q k) =>
          match advance n t (k (Raise CancelledError)) w with
          | Some (x, w') => Some (Pool (set_nth ts t x) w')
          | None => None
          end
      | Some (LockWait k) =>
          match advance n t (k (Raise CancelledError))
                  (Shared (sh_st w) (sh_owner w)
                     (filter (fun u => negb (Nat.eqb u t)) (sh_queue w)) (sh_log w)) with
          | Some (x, w') => Some (Pool (set_nth ts t x) w')
          | None => None
          end
      | _ => None
      end
  end.

Lemma exec_event_step A n (p q : pool St Req Rep A) e :
  exec_event n p e = Some q -> step p e q.
Proof.
  destruct p as [ts w]. destruct e; cbn; intros H.
  - destruct (advance _ _ _ _) as [[x w']|] eqn:E; [|discriminate].
    injection H as <-. econstructor; eauto.
  - destruct (nth_error ts t) as [[| |q' k]|] eqn:E1; try discriminate.
    destruct (advance _ _ _ _) as [[x w']|] eqn:E; [|discriminate].
    injection H as <-. econstructor; eauto.
  - destruct (sh_owner w) eqn:E1; [discriminate|].
    destruct (sh_queue w) as [|t queue] eqn:E2; [discriminate|].
    destruct (nth_error ts t) as [[|k|]|] eqn:E3; try discriminate.
    destruct (advance _ _ _ _) as [[x w']|] eqn:E; [|discriminate].
    injection H as <-. econstructor; eauto.
  - injection H as <-. constructor.
  - destruct (nth_error ts t) as [[|k|q' k]|] eqn:E1; try discriminate.
    + destruct (advance _ _ _ _) as [[x w']|] eqn:E; [|discriminate].
      injection H as <-. eapply step_cancel_lock; eauto.
    + destruct (advance _ _ _ _) as [[x w']|] eqn:E; [|discriminate].
      injection H as <-. eapply step_cancel_call; eauto.
Qed.

Fixpoint exec_events {A} (n : nat) (p : pool St Req Rep A) (es : list (event St Req Rep A))
  : option (pool St Req Rep A) :=
  match es with
  | [] => Some p
  | e :: es => match exec_event n p e with Some q => exec_events n q es | None => None end
  end.

Lemma steps_cons A (p q r : pool St Req Rep A) e es :
  step p e q -> steps q es r -> steps p (e :: es) r.
Proof.
  intros H S. induction S as [q|q s r es' e' S IH S'].
  - apply (steps_snoc _ _ _ [] e (steps_nil p) H).
  - apply (steps_snoc _ _ _ (e :: es') e' (IH H) S').
Qed.

Lemma exec_events_steps A n es : forall (p q : pool St Req Rep A),
  exec_events n p es = Some q -> steps p es q.
Proof.
  induction es as [|e es IH]; cbn; intros p q H.
  - injection H as <-. constructor.
  - destruct (exec_event n p e) as [p'|] eqn:E; [|discriminate].
    eapply steps_cons; [eapply exec_event_step; eauto | auto].
Qed.

End P.
Arguments peq {St Req Rep A} p q.
