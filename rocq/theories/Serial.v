(** Tasks that do all their work under one lock run one after the other:
    every concurrent history of [with_lock p] tasks, with any order of
    answers, lock grants and cancellations, is a sequence of sequential
    runs. *)
From Coq Require Import ZArith List Bool Lia.
From Verif Require Import PyBase Async Async_Proofs.
Import ListNotations.
Open Scope nat_scope.

Section S.
Context {St Req Rep : Type}.
Notation prog := (prog St Req Rep).
Notation shared := (shared St Req).

(** ** Inversion and transitivity of [peq] *)
Lemma peq_inv A (p q : prog A) : peq p q ->
  match p with
  | Ret a => q = Ret a
  | Throw e => q = Throw e
  | Get k => exists k', q = Get k' /\ forall s, peq (k s) (k' s)
  | Put s k => exists k', q = Put s k' /\ peq k k'
  | Acquire k => exists k', q = Acquire k' /\ forall r, peq (k r) (k' r)
  | Release k => exists k', q = Release k' /\ peq k k'
  | Await r k => exists k', q = Await r k' /\ forall x, peq (k x) (k' x)
  | Loop body x k => exists body' k', q = Loop body' x k' /\
      (forall y, peq (body y) (body' y)) /\ (forall b, peq (k b) (k' b))
  end.
Proof. destruct 1; eauto 8. Qed.

Lemma peq_trans A (p : prog A) : forall q r, peq p q -> peq q r -> peq p r.
Proof.
  induction p; intros q0 r0 H1 H2; apply peq_inv in H1; cbn in H1.
  - now subst.
  - now subst.
  - destruct H1 as (k' & -> & H1). apply peq_inv in H2. destruct H2 as (k2 & -> & H2).
    constructor. eauto.
  - destruct H1 as (k' & -> & H1). apply peq_inv in H2. destruct H2 as (k2 & -> & H2).
    constructor. eauto.
  - destruct H1 as (k' & -> & H1). apply peq_inv in H2. destruct H2 as (k2 & -> & H2).
    constructor. eauto.
  - destruct H1 as (k' & -> & H1). apply peq_inv in H2. destruct H2 as (k2 & -> & H2).
    constructor. eauto.
  - destruct H1 as (k' & -> & H1). apply peq_inv in H2. destruct H2 as (k2 & -> & H2).
    constructor. eauto.
  - destruct H1 as (b' & k' & -> & H1 & H1'). apply peq_inv in H2.
    destruct H2 as (b2 & k2 & -> & H2 & H2'). constructor; eauto.
Qed.

(** ** [advance] respects [peq] *)
Definition teq {A} (x y : task St Req Rep A) : Prop :=
  match x, y with
  | Done r, Done r' => r = r'
  | LockWait k, LockWait k' => forall r, peq (k r) (k' r)
  | Calling q k, Calling q' k' => q = q' /\ forall r, peq (k r) (k' r)
  | _, _ => False
  end.

Lemma advance_peq A n : forall t (p q : prog A) (w : shared), peq p q ->
  match advance n t p w, advance n t q w with
  | Some (x, w1), Some (y, w2) => w1 = w2 /\ teq x y
  | None, None => True
  | _, _ => False
  end.
Proof.
  induction n as [|n IH]; intros t p q w H; [exact I|].
  destruct H; cbn; auto; try (apply IH; auto; fail).
  - destruct (sh_owner w); [cbn; auto|]. destruct (sh_queue w); [|cbn; auto].
    apply IH. auto.
  - apply IH. now apply unroll_peq.
Qed.

(** ** Coroutines that do not touch the lock *)
Inductive lockfree : forall A, prog A -> Prop :=
| lf_ret A a : lockfree A (Ret a)
| lf_throw A e : lockfree A (Throw e)
| lf_get A k : (forall s, lockfree A (k s)) -> lockfree A (Get k)
| lf_put A s k : lockfree A k -> lockfree A (Put s k)
| lf_await A q k : (forall r, lockfree A (k r)) -> lockfree A (Await q k)
| lf_loop A X B body (x : X) (k : B -> prog A) :
    (forall y, lockfree (X + B) (body y)) -> (forall b, lockfree A (k b)) ->
    lockfree A (Loop body x k).
Arguments lockfree {A} p.

Lemma lockfree_inv A (p : prog A) : lockfree p ->
  match p with
  | Ret _ | Throw _ => True
  | Get k => forall s, lockfree (k s)
  | Put s k => lockfree k
  | Acquire k => False
  | Release k => False
  | Await q k => forall r, lockfree (k r)
  | Loop body x k => (forall y, lockfree (body y)) /\ (forall b, lockfree (k b))
  end.
Proof. destruct 1; auto. Qed.

Lemma lockfree_bind A (p : prog A) : lockfree p -> forall B (f : A -> prog B),
  (forall a, lockfree (f a)) -> lockfree (pbind p f).
Proof. induction 1; intros; cbn; try constructor; auto. Qed.

Lemma lockfree_lift A (r : res A) : lockfree (lift r).
Proof. destruct r; constructor. Qed.

Lemma lockfree_await q : lockfree (await q).
Proof. constructor. intros. apply lockfree_lift. Qed.

Lemma lockfree_unroll A X B body (x : X) (k : B -> prog A) :
  (forall y, lockfree (body y)) -> (forall b, lockfree (k b)) -> lockfree (unroll body x k).
Proof.
  intros Hb Hk. apply lockfree_bind; auto. intros [y|b]; auto. now constructor.
Qed.

(** The rest of [with_lock p] once the lock is held. *)
Definition locked {A} (p : prog A) : prog A :=
  pbind (catch p) (fun x => Release (lift x)).

Lemma locked_unroll A X B body (x : X) (k : B -> prog A) :
  peq (unroll (fun x => pbind (catch (body x)) (fun r => Ret
              match r with
              | Ok (inl x') => inl x'
              | Ok (inr b) => inr (Ok b)
              | Raise e => inr (Raise e)
              end)) x
         (fun b => pbind (match b with Ok b => catch (k b) | Raise e => Ret (Raise e) end)
                     (fun x => Release (lift x))))
    (locked (unroll body x k)).
Proof.
  unfold locked. unfold unroll at 2.
  eapply peq_trans; [|apply pbind_peq; [apply peq_sym, catch_bind|intros; apply peq_refl]].
  unfold unroll. eapply peq_trans.
  - apply pbind_assoc. intros a. apply peq_refl.
  - apply peq_sym. apply pbind_assoc. intros [[x'|b]|e]; cbn; apply peq_refl.
Qed.

(** The outcome of a finished run. *)
Definition finish {A} (r : res A) (s : St) (rest : list (res Rep)) : outcome St Req Rep A :=
  match r with Ok a => Returned a s rest | Raise e => Raised e s rest end.

Lemma advance_locked A n : forall t (p : prog A) (w : shared) x w', lockfree p ->
  advance n t (locked p) w = Some (x, w') ->
  (exists r s', x = Done r /\ w' = Shared s' None (sh_queue w) (sh_log w) /\
     runs p (sh_st w) [] (finish r s' []) []) \/
  (exists q k s' kp, x = Calling q k /\
     w' = Shared s' (sh_owner w) (sh_queue w) (sh_log w ++ [(t, q)]) /\
     (forall r, lockfree (kp r) /\ peq (k r) (locked (kp r))) /\
     runs p (sh_st w) [] (Waiting s' q) [q] /\
     forall r rs o qs, runs (kp r) s' rs o qs -> runs p (sh_st w) (r :: rs) o (q :: qs)).
Proof.
  induction n as [|n IH]; intros t p w x w' L H; [discriminate|].
  apply lockfree_inv in L. destruct p; cbn in L; try contradiction.
  - left. destruct n as [|n]; [discriminate|]. cbn in H. injection H as <- <-.
    exists (Ok a), (sh_st w). repeat split. apply runs_ret.
  - left. destruct n as [|n]; [discriminate|]. cbn in H. injection H as <- <-.
    exists (Raise e), (sh_st w). repeat split. apply runs_throw.
  - destruct (IH _ _ _ _ _ (L (sh_st w)) H) as
      [(r & s' & -> & -> & R)|(q & k' & s' & kp & -> & -> & Hk & R & R')]; [left|right].
    + exists r, s'. repeat split. now apply runs_get.
    + exists q, k', s', kp. split; [reflexivity|]. split; [reflexivity|].
      split; [exact Hk|]. split; [now apply runs_get|]. intros. apply runs_get. auto.
  - destruct (IH _ _ _ _ _ L H) as
      [(r & s' & -> & -> & R)|(q & k' & s' & kp & -> & -> & Hk & R & R')]; [left|right].
    + exists r, s'. repeat split. now apply runs_put.
    + exists q, k', s', kp. split; [reflexivity|]. split; [reflexivity|].
      split; [exact Hk|]. split; [now apply runs_put|]. intros. apply runs_put. auto.
  - right. cbn in H. injection H as <- <-.
    exists r, (fun r => locked (k r)), (sh_st w), k. repeat split; auto.
    + apply peq_refl.
    + apply runs_wait.
    + intros. now apply runs_await.
  - change (advance (S n) t (locked (Loop body x0 k)) w)
      with (advance n t (unroll (fun x => pbind (catch (body x)) (fun r => Ret
              match r with
              | Ok (inl x') => inl x'
              | Ok (inr b) => inr (Ok b)
              | Raise e => inr (Raise e)
              end)) x0
         (fun b => pbind (match b with Ok b => catch (k b) | Raise e => Ret (Raise e) end)
                     (fun x => Release (lift x)))) w) in H.
    destruct L as [Lb Lk].
    pose proof (advance_peq A n t _ _ w (locked_unroll A X B body x0 k)) as E.
    rewrite H in E.
    destruct (advance n t (locked (unroll body x0 k)) w) as [[y w2]|] eqn:H2; [|contradiction].
    destruct E as [<- E].
    destruct (IH _ _ _ _ _ (lockfree_unroll A X B body x0 k Lb Lk) H2) as
      [(r & s' & -> & -> & R)|(q & k' & s' & kp & -> & -> & Hk & R & R')]; [left|right].
    + destruct x; try contradiction. cbn in E. subst. exists r, s'. repeat split.
      now apply runs_loop.
    + destruct x; try contradiction. destruct E as [-> E].
      exists q, k0, s', kp. repeat split.
      * apply Hk.
      * eapply peq_trans; [apply E|apply Hk].
      * now apply runs_loop.
      * intros. apply runs_loop. auto.
Qed.

(** ** Histories *)
Context {A : Type}.

(** A history of tasks [with_lock p], [ps] the [p]s in the order they were
    started; [tr] lists the awaits completed so far (by which task, what was
    awaited, the result), in order.  A cancelled await completes with
    CancelledError.  [cl]: the tasks cancelled while they waited for the lock. *)
Inductive hist (s0 : St) : list (prog A) -> pool St Req Rep A ->
  list (nat * Req * res Rep) -> list nat -> Prop :=
| h_start : hist s0 [] (start s0) [] []
| h_spawn ps P tr cl p Q : hist s0 ps P tr cl -> step P (Spawn (with_lock p)) Q ->
    hist s0 (ps ++ [p]) Q tr cl
| h_answer ps P tr cl t q k r Q : hist s0 ps P tr cl ->
    nth_error (po_tasks P) t = Some (Calling q k) ->
    step P (Answer t r) Q -> hist s0 ps Q (tr ++ [(t, q, r)]) cl
| h_grant ps P tr cl Q : hist s0 ps P tr cl -> step P Grant Q -> hist s0 ps Q tr cl
| h_cancel_call ps P tr cl t q k Q : hist s0 ps P tr cl ->
    nth_error (po_tasks P) t = Some (Calling q k) ->
    step P (Cancel t) Q -> hist s0 ps Q (tr ++ [(t, q, Raise CancelledError)]) cl
| h_cancel_lock ps P tr cl t k Q : hist s0 ps P tr cl ->
    nth_error (po_tasks P) t = Some (LockWait k) ->
    step P (Cancel t) Q -> hist s0 ps Q tr (t :: cl).

(** One completed call: task, coroutine, state before, what it awaited with
    the results, its result, state after. *)
Record entry := Entry {
  e_task : nat;
  e_prog : prog A;
  e_pre : St;
  e_awaits : list (Req * res Rep);
  e_result : res A;
  e_post : St
}.

Definition tagged (t : nat) (l : list (Req * res Rep)) : list (nat * Req * res Rep) :=
  map (fun x => (t, fst x, snd x)) l.

(** The calls, one after the other, lead from [s] to [s']. *)
Fixpoint chain (s : St) (l : list entry) (s' : St) : Prop :=
  match l with
  | [] => s = s'
  | e :: l => e_pre e = s /\
      runs (e_prog e) (e_pre e) (map snd (e_awaits e)) (finish (e_result e) (e_post e) [])
        (map fst (e_awaits e)) /\
      chain (e_post e) l s'
  end.

Lemma chain_snoc l : forall s s1 e, chain s l s1 -> e_pre e = s1 ->
  runs (e_prog e) (e_pre e) (map snd (e_awaits e)) (finish (e_result e) (e_post e) [])
        (map fst (e_awaits e)) ->
  chain s (l ++ [e]) (e_post e).
Proof.
  induction l as [|x l IH]; cbn; intros s s1 e C E R.
  - subst. auto.
  - destruct C as (C1 & C2 & C3). eauto.
Qed.

(** The call that holds the lock: its awaits so far and what it awaits. *)
Record running := Running {
  r_task : nat;
  r_prog : prog A;
  r_awaits : list (Req * res Rep);
  r_waits : Req
}.

Definition trace_of (l : list entry) : list (nat * Req * res Rep) :=
  concat (map (fun e => tagged (e_task e) (e_awaits e)) l).

Definition running_trace (c : option running) : list (nat * Req * res Rep) :=
  match c with None => [] | Some c => tagged (r_task c) (r_awaits c) end.

(** What is known of a task. *)
Definition task_ok (ps : list (prog A)) (cl : list nat) (l : list entry) (c : option running)
  (t : nat) (x : task St Req Rep A) : Prop :=
  exists p, nth_error ps t = Some p /\
  match x with
  | Done r =>
      (exists e, In e l /\ e_task e = t /\ e_prog e = p /\ e_result e = r) \/
      (In t cl /\ r = Raise CancelledError)
  | LockWait k => k = fun r => match r with Ok _ => locked p | Raise e => Throw e end
  | Calling q k => exists c', c = Some c' /\ r_task c' = t /\ r_prog c' = p /\ r_waits c' = q
  end.

Record serial (s0 : St) (ps : list (prog A)) (P : pool St Req Rep A)
  (tr : list (nat * Req * res Rep)) (cl : list nat) (l : list entry) (c : option running) : Prop := {
  sr_states : exists s1, chain s0 l s1 /\
    match c with
    | None => sh_owner (po_shared P) = None /\ sh_st (po_shared P) = s1
    | Some c =>
        sh_owner (po_shared P) = Some (r_task c) /\
        runs (r_prog c) s1 (map snd (r_awaits c))
          (Waiting (sh_st (po_shared P)) (r_waits c)) (map fst (r_awaits c) ++ [r_waits c]) /\
        exists k kp, nth_error (po_tasks P) (r_task c) = Some (Calling (r_waits c) k) /\
          (forall r, lockfree (kp r) /\ peq (k r) (locked (kp r))) /\
          forall r rs o qs, runs (kp r) (sh_st (po_shared P)) rs o qs ->
            runs (r_prog c) s1 (map snd (r_awaits c) ++ r :: rs) o
              (map fst (r_awaits c) ++ r_waits c :: qs)
    end;
  sr_trace : tr = trace_of l ++ running_trace c;
  sr_tasks : forall t x, nth_error (po_tasks P) t = Some x -> task_ok ps cl l c t x;
  sr_length : length (po_tasks P) = length ps;
  sr_closed : forall e, In e l ->
    nth_error (po_tasks P) (e_task e) = Some (Done (e_result e)) /\
    nth_error ps (e_task e) = Some (e_prog e);
  sr_once : NoDup (map e_task l)
}.

Lemma nth_set_nth X (l : list X) t x y : nth_error l t = Some y ->
  forall i, nth_error (set_nth l t x) i = if Nat.eqb i t then Some x else nth_error l i.
Proof.
  intros H i. unfold set_nth.
  assert (t < length l) as L by (apply nth_error_Some; congruence).
  assert (length (firstn t l) = t) as F by (rewrite firstn_length; lia).
  destruct (Nat.eqb_spec i t) as [->|N].
  - rewrite nth_error_app2 by lia. now rewrite F, Nat.sub_diag.
  - destruct (Nat.lt_ge_cases i t).
    + rewrite nth_error_app1 by lia.
      clear - H0. revert t H0. revert l.
      induction i as [|i IH]; intros [|z l] [|t] L; try lia; auto. cbn. apply IH. lia.
    + rewrite nth_error_app2 by lia. rewrite F.
      replace (i - t) with (S (i - S t)) by lia. cbn [nth_error].
      assert (forall m (l : list X) j, nth_error (skipn m l) j = nth_error l (m + j)) as S.
      { induction m as [|m IHm]; auto. intros [|z l'] j; cbn; auto. now destruct j. }
      rewrite S. f_equal. lia.
Qed.

Lemma length_set_nth X (l : list X) t x y : nth_error l t = Some y ->
  length (set_nth l t x) = length l.
Proof.
  intros H. assert (t < length l) as L by (apply nth_error_Some; congruence).
  unfold set_nth. rewrite app_length, firstn_length. cbn [length]. rewrite skipn_length. lia.
Qed.

Lemma tagged_app t a b : tagged t (a ++ b) = tagged t a ++ tagged t b.
Proof. apply map_app. Qed.

Lemma trace_snoc l e : trace_of (l ++ [e]) = trace_of l ++ tagged (e_task e) (e_awaits e).
Proof. unfold trace_of. rewrite map_app, concat_app; cbn; rewrite app_nil_r. reflexivity. Qed.

Lemma NoDup_snoc X (l : list X) x : NoDup l -> ~ In x l -> NoDup (l ++ [x]).
Proof.
  intros N H. apply NoDup_rev in N. rewrite <- (rev_involutive (l ++ [x])), rev_app_distr.
  apply NoDup_rev. constructor; auto. now rewrite <- in_rev.
Qed.

Definition wait_lock (p : prog A) : res unit -> prog A :=
  fun r => match r with Ok _ => locked p | Raise e => Throw e end.

(** Task [t], which was not done, is done now. *)
Lemma close_ok s0 ps ts w w' tr cl l s1 t p y r a s' c :
  serial s0 ps (Pool ts w) tr cl l c ->
  (c = None \/ exists q, c = Some q /\ r_task q = t) ->
  nth_error ps t = Some p ->
  nth_error ts t = Some y -> (forall r', y <> Done r') ->
  chain s0 l s1 ->
  runs p s1 (map snd a) (finish r s' []) (map fst a) ->
  sh_owner w' = None -> sh_st w' = s' ->
  serial s0 ps (Pool (set_nth ts t (Done r)) w') (trace_of l ++ tagged t a) cl
    (l ++ [Entry t p s1 a r s']) None.
Proof.
  intros S Hc Hp Hy Hn C R O E.
  pose proof (fun x => nth_set_nth _ ts t x y Hy) as Ht.
  assert (forall e, In e l -> e_task e <> t) as F.
  { intros e He X. destruct (sr_closed _ _ _ _ _ _ _ S e He) as [X1 _]. cbn in X1.
    rewrite X, Hy in X1. injection X1 as X1. eapply Hn; eauto. }
  constructor; cbn.
  - exists s'. split; [|auto]. eapply (chain_snoc l s0 s1 (Entry t p s1 a r s')); auto.
  - rewrite app_nil_r, trace_snoc. reflexivity.
  - intros i x Hx. rewrite Ht in Hx. destruct (Nat.eqb_spec i t) as [->|N].
    + injection Hx as <-. exists p. split; auto. left.
      exists (Entry t p s1 a r s'). repeat split. apply in_or_app. right. now left.
    + destruct (sr_tasks _ _ _ _ _ _ _ S i x Hx) as (p' & Hp' & X). exists p'. split; auto.
      destruct x; auto.
      * destruct X as [(e & He & X)|X]; auto. left. exists e. split; auto.
        apply in_or_app. now left.
      * exfalso. destruct X as (c' & -> & X & _).
        destruct Hc as [Hc|(q' & Hc & Hq)]; [discriminate|]. injection Hc as ->. congruence.
  - rewrite (length_set_nth _ _ _ _ _ Hy). apply (sr_length _ _ _ _ _ _ _ S).
  - intros e He. apply in_app_or in He. destruct He as [He|[<-|[]]].
    + destruct (sr_closed _ _ _ _ _ _ _ S e He) as [X1 X2]. split; auto.
      rewrite Ht. destruct (Nat.eqb_spec (e_task e) t) as [X|X]; auto. now apply F in X.
    + cbn. rewrite Ht, Nat.eqb_refl. auto.
  - rewrite map_app. apply NoDup_snoc; [apply (sr_once _ _ _ _ _ _ _ S)|].
    intros X. apply in_map_iff in X. destruct X as (e & X1 & X2). eapply F; eauto.
Qed.

(** Task [t] awaits now. *)
Lemma open_ok s0 ps ts w w' tr cl l s1 t p y a q k kp c :
  serial s0 ps (Pool ts w) tr cl l c ->
  (c = None \/ exists q, c = Some q /\ r_task q = t) ->
  nth_error ps t = Some p ->
  nth_error ts t = Some y -> (forall r', y <> Done r') ->
  chain s0 l s1 ->
  runs p s1 (map snd a) (Waiting (sh_st w') q) (map fst a ++ [q]) ->
  (forall r, lockfree (kp r) /\ peq (k r) (locked (kp r))) ->
  (forall r rs o qs, runs (kp r) (sh_st w') rs o qs ->
     runs p s1 (map snd a ++ r :: rs) o (map fst a ++ q :: qs)) ->
  sh_owner w' = Some t ->
  serial s0 ps (Pool (set_nth ts t (Calling q k)) w') (trace_of l ++ tagged t a) cl l
    (Some (Running t p a q)).
Proof.
  intros S Hc Hp Hy Hn C R Hk Hkp O.
  pose proof (fun x => nth_set_nth _ ts t x y Hy) as Ht.
  constructor; cbn.
  - exists s1. split; [auto|]. split; [auto|]. split; [auto|].
    exists k, kp. split; auto. now rewrite Ht, Nat.eqb_refl.
  - reflexivity.
  - intros i x Hx. rewrite Ht in Hx. destruct (Nat.eqb_spec i t) as [->|N].
    + injection Hx as <-. exists p. split; auto. eexists. split; [reflexivity|]. auto.
    + destruct (sr_tasks _ _ _ _ _ _ _ S i x Hx) as (p' & Hp' & X). exists p'. split; auto.
      destruct x; auto.
      exfalso. destruct X as (c' & -> & X & _).
      destruct Hc as [Hc|(q' & Hc & Hq)]; [discriminate|]. injection Hc as ->. congruence.
  - rewrite (length_set_nth _ _ _ _ _ Hy). apply (sr_length _ _ _ _ _ _ _ S).
  - intros e He. destruct (sr_closed _ _ _ _ _ _ _ S e He) as [X1 X2]. split; auto.
    rewrite Ht. destruct (Nat.eqb_spec (e_task e) t) as [X|X]; auto. exfalso.
    cbn in X1. rewrite X, Hy in X1. injection X1 as X1. eapply Hn; eauto.
  - apply (sr_once _ _ _ _ _ _ _ S).
Qed.

Lemma nth_snoc X (l : list X) x i :
  nth_error (l ++ [x]) i = if Nat.eqb i (length l) then Some x else nth_error l i.
Proof.
  destruct (Nat.eqb_spec i (length l)) as [->|N].
  - rewrite nth_error_app2, Nat.sub_diag by lia. reflexivity.
  - destruct (Nat.lt_ge_cases i (length l)).
    + now apply nth_error_app1.
    + rewrite (proj2 (nth_error_None l i)) by lia. apply nth_error_None.
      rewrite app_length. cbn. lia.
Qed.

Lemma nth_app_some X (l l' : list X) i x : nth_error l i = Some x ->
  nth_error (l ++ l') i = Some x.
Proof. intros H. rewrite nth_error_app1; auto. apply nth_error_Some. congruence. Qed.

(** A new task that waits for the lock. *)
Lemma queue_ok s0 ps ts w w' tr cl l c p :
  serial s0 ps (Pool ts w) tr cl l c -> sh_st w' = sh_st w -> sh_owner w' = sh_owner w ->
  serial s0 (ps ++ [p]) (Pool (ts ++ [LockWait (wait_lock p)]) w') tr cl l c.
Proof.
  intros S E1 E2. pose proof (sr_length _ _ _ _ _ _ _ S) as Hl. cbn in Hl.
  constructor; cbn.
  - destruct (sr_states _ _ _ _ _ _ _ S) as (s1 & C & X). exists s1. split; auto.
    cbn in X. rewrite E1, E2.
    destruct c as [c|]; auto. destruct X as (X1 & X2 & k & kp & X3 & X4).
    split; auto. split; auto. exists k, kp. split; auto. now apply nth_app_some.
  - apply (sr_trace _ _ _ _ _ _ _ S).
  - intros t x Hx. rewrite nth_snoc in Hx. destruct (Nat.eqb_spec t (length ts)).
    + subst. injection Hx as <-. exists p. split; auto.
      rewrite nth_snoc, Hl, Nat.eqb_refl. reflexivity.
    + destruct (sr_tasks _ _ _ _ _ _ _ S t x Hx) as (p' & Hp & X).
      exists p'. split; auto. now apply nth_app_some.
  - rewrite !app_length. cbn. lia.
  - intros e He. destruct (sr_closed _ _ _ _ _ _ _ S e He) as [X1 X2]. cbn in X1.
    split; now apply nth_app_some.
  - apply (sr_once _ _ _ _ _ _ _ S).
Qed.

(** The lock is given to task [t]. *)
Lemma grant_ok s0 ps ts w tr cl l t p n x w' queue log :
  serial s0 ps (Pool ts w) tr cl l None ->
  nth_error ps t = Some p -> lockfree p ->
  nth_error ts t = Some (LockWait (wait_lock p)) ->
  advance n t (locked p) (Shared (sh_st w) (Some t) queue log) = Some (x, w') ->
  exists l' c', serial s0 ps (Pool (set_nth ts t x) w') tr cl l' c'.
Proof.
  intros S Hp L Ht Ha.
  destruct (sr_states _ _ _ _ _ _ _ S) as (s1 & C & _ & Es). cbn in Es.
  assert (tr = trace_of l ++ tagged t []) as ->.
  { rewrite (sr_trace _ _ _ _ _ _ _ S). reflexivity. }
  apply advance_locked in Ha; auto. cbn in Ha. rewrite Es in Ha.
  destruct Ha as [(r & s' & -> & -> & R)|(q & k & s' & kp & -> & -> & Hk & R & R')].
  - eexists _, None. eapply close_ok; eauto. discriminate.
  - exists l. eexists. eapply open_ok; eauto. discriminate.
Qed.

(** The await of the running task ends. *)
Lemma answer_ok s0 ps ts w tr cl l c t q k n r x w' :
  serial s0 ps (Pool ts w) tr cl l c ->
  nth_error ts t = Some (Calling q k) ->
  advance n t (k r) w = Some (x, w') ->
  exists l' c', serial s0 ps (Pool (set_nth ts t x) w') (tr ++ [(t, q, r)]) cl l' c'.
Proof.
  intros S Ht Ha.
  destruct (sr_tasks _ _ _ _ _ _ _ S t _ Ht) as (p & Hp & c' & -> & Et & Ep & Eq).
  destruct c' as [t' p' a q']. cbn in Et, Ep, Eq. subst t' p' q'.
  destruct (sr_states _ _ _ _ _ _ _ S) as (s1 & C & O & R & k' & kp & Hk' & Hk & Hkp).
  cbn in O, R, Hk', Hkp. rewrite Ht in Hk'. injection Hk' as <-.
  assert (tr ++ [(t, q, r)] = trace_of l ++ tagged t (a ++ [(q, r)])) as ->.
  { rewrite (sr_trace _ _ _ _ _ _ _ S), tagged_app, app_assoc. reflexivity. }
  destruct (Hk r) as [Lr Pr].
  pose proof (advance_peq A n t _ _ w Pr) as E. rewrite Ha in E.
  destruct (advance n t (locked (kp r)) w) as [[y w2]|] eqn:H2; [|contradiction].
  destruct E as [<- E]. apply advance_locked in H2; auto.
  destruct H2 as [(r' & s' & -> & -> & R1)|(q' & k' & s' & kp' & -> & -> & Hk1 & R1 & R')].
  - destruct x; try contradiction. cbn in E. subst.
    eexists _, None. eapply close_ok; eauto; try discriminate.
    rewrite !map_app. cbn. now apply Hkp.
  - destruct x; try contradiction. destruct E as [-> E].
    exists l. eexists. eapply open_ok with (kp := kp'); eauto; try discriminate.
    + rewrite !map_app, <- app_assoc. cbn. now apply Hkp.
    + intros r'. destruct (Hk1 r') as [X1 X2]. split; auto. eapply peq_trans; [apply E|auto].
    + intros r' rs o qs X. rewrite !map_app, <- !app_assoc. cbn. apply Hkp. now apply R'.
Qed.

(** Every history is serial. *)
Theorem serialization s0 ps P tr cl : hist s0 ps P tr cl -> Forall lockfree ps ->
  exists l c, serial s0 ps P tr cl l c.
Proof.
  induction 1 as [|ps P tr cl p Q H IH E|ps P tr cl t q k r Q H IH Ht E|ps P tr cl Q H IH E
                  |ps P tr cl t q k Q H IH Ht E|ps P tr cl t k Q H IH Ht E]; intros L.
  - exists [], None. constructor; cbn; auto; try contradiction; try constructor.
    + exists s0. auto.
    + intros [|t] x; discriminate.
  - apply Forall_app in L. destruct L as [L Lp]. inversion Lp as [|? ? Lp' _]; subst.
    destruct (IH L) as (l & c & S). clear IH.
    inversion E as [ts w p0 fuel x w' Ha| | | | |]; subst.
    pose proof (sr_length _ _ _ _ _ _ _ S) as Hl. cbn in Hl.
    destruct fuel as [|n]; [discriminate|]. cbn in Ha. fold (wait_lock p) in Ha.
    destruct (sh_owner w) eqn:Ow; [|destruct (sh_queue w) eqn:Qw].
    + injection Ha as <- <-. exists l, c. eapply queue_ok; eauto.
    + assert (c = None) as ->.
      { destruct c as [c|]; auto. destruct (sr_states _ _ _ _ _ _ _ S) as (s1 & _ & X & _).
        cbn in X. congruence. }
      apply (queue_ok _ _ _ _ w _ _ _ _ p) in S; auto.
      replace (ts ++ [x]) with (set_nth (ts ++ [LockWait (wait_lock p)]) (length ts) x).
      2: { unfold set_nth. rewrite firstn_app, firstn_all, Nat.sub_diag.
           rewrite skipn_all2 by (rewrite app_length; cbn; lia).
           cbn. now rewrite app_nil_r. }
      eapply grant_ok; eauto.
      * now rewrite nth_snoc, Hl, Nat.eqb_refl.
      * now rewrite nth_snoc, Nat.eqb_refl.
    + injection Ha as <- <-. exists l, c. eapply queue_ok; eauto.
  - destruct (IH L) as (l & c & S).
    inversion E as [|ts w t0 r0 q0 k0 fuel x w' Ht0 Ha| | | |]; subst. cbn in Ht.
    rewrite Ht in Ht0. injection Ht0 as <- <-. eapply answer_ok; eauto.
  - destruct (IH L) as (l & c & S).
    inversion E as [| |ts w t0 queue k0 fuel x w' Ow Qw Ht Ha| | |]; subst.
    assert (c = None) as ->.
    { destruct c as [c|]; auto. destruct (sr_states _ _ _ _ _ _ _ S) as (s1 & _ & X & _).
      cbn in X. congruence. }
    destruct (sr_tasks _ _ _ _ _ _ _ S t0 _ Ht) as (p & Hp & Ek). subst k0.
    eapply grant_ok; eauto. eapply Forall_forall; [exact L|]. eapply nth_error_In; eauto.
  - destruct (IH L) as (l & c & S).
    inversion E as [| | | |ts w t0 q0 k0 fuel x w' Ht0 Ha|ts w t0 k0 fuel x w' Ht0 Ha];
      subst; cbn in Ht; rewrite Ht in Ht0; [|discriminate].
    injection Ht0 as <- <-. eapply answer_ok; eauto.
  - destruct (IH L) as (l & c & S).
    inversion E as [| | | |ts w t0 q0 k0 fuel x w' Ht0 Ha|ts w t0 k0 fuel x w' Ht0 Ha];
      subst; cbn in Ht; rewrite Ht in Ht0; [discriminate|].
    injection Ht0 as <-.
    destruct (sr_tasks _ _ _ _ _ _ _ S t _ Ht) as (p & Hp & Ek). subst k.
    destruct fuel as [|n]; [discriminate|]. cbn in Ha. injection Ha as <- <-.
    exists l, c. pose proof (fun x => nth_set_nth _ ts t x _ Ht) as Hs.
    destruct S. constructor; cbn in *; auto.
    + destruct sr_states0 as (s1 & C & X). exists s1. split; auto.
      destruct c as [c|]; auto. destruct X as (X1 & X2 & k & kp & X3 & X4).
      split; auto. split; auto. exists k, kp. split; auto.
      rewrite Hs. destruct (Nat.eqb_spec (r_task c) t); auto. congruence.
    + intros i x Hx. rewrite Hs in Hx. destruct (Nat.eqb_spec i t) as [->|N].
      * injection Hx as <-. exists p. split; auto. right. cbn. auto.
      * destruct (sr_tasks0 i x Hx) as (p' & Hp' & X). exists p'. split; auto.
        destruct x; auto. destruct X as [X|[X1 X2]]; auto. right. cbn. auto.
    + now rewrite (length_set_nth _ _ _ _ _ Ht).
    + intros e He. destruct (sr_closed0 e He) as [X1 X2]. split; auto.
      rewrite Hs. destruct (Nat.eqb_spec (e_task e) t); auto. congruence.
Qed.

(** An executable version, to build concrete histories. *)
Inductive hevent := HSpawn (p : prog A) | HAnswer (t : nat) (r : res Rep) | HGrant | HCancel (t : nat).

Definition hstate : Type :=
  (list (prog A) * pool St Req Rep A * list (nat * Req * res Rep) * list nat)%type.

Definition exec_hevent (n : nat) (h : hstate) (e : hevent) : option hstate :=
  let '(ps, P, tr, cl) := h in
  match e with
  | HSpawn p =>
      match exec_event n P (Spawn (with_lock p)) with
      | Some Q => Some (ps ++ [p], Q, tr, cl)
      | None => None
      end
  | HAnswer t r =>
      match nth_error (po_tasks P) t, exec_event n P (Answer t r) with
      | Some (Calling q k), Some Q => Some (ps, Q, tr ++ [(t, q, r)], cl)
      | _, _ => None
      end
  | HGrant =>
      match exec_event n P Grant with Some Q => Some (ps, Q, tr, cl) | None => None end
  | HCancel t =>
      match nth_error (po_tasks P) t, exec_event n P (Cancel t) with
      | Some (Calling q k), Some Q => Some (ps, Q, tr ++ [(t, q, Raise CancelledError)], cl)
      | Some (LockWait k), Some Q => Some (ps, Q, tr, t :: cl)
      | _, _ => None
      end
  end.

Fixpoint exec_hist (n : nat) (h : hstate) (es : list hevent) : option hstate :=
  match es with
  | [] => Some h
  | e :: es => match exec_hevent n h e with Some h' => exec_hist n h' es | None => None end
  end.

Definition spawned (es : list hevent) : list (prog A) :=
  concat (map (fun e => match e with HSpawn p => [p] | _ => [] end) es).

Lemma exec_hist_spawned n es : forall ps P tr cl ps' P' tr' cl',
  exec_hist n (ps, P, tr, cl) es = Some (ps', P', tr', cl') -> ps' = ps ++ spawned es.
Proof.
  induction es as [|e es IH]; intros ps P tr cl ps' P' tr' cl' E.
  - injection E as <- <- <- <-. cbn. now rewrite app_nil_r.
  - cbn [exec_hist exec_hevent] in E. unfold spawned. cbn [map concat]. fold (spawned es).
    destruct e.
    + destruct (exec_event n P (Spawn (with_lock p))) as [Q|] eqn:X; [|discriminate].
      apply IH in E. now rewrite <- app_assoc in E.
    + destruct (nth_error (po_tasks P) t) as [[| |q k]|] eqn:Et; try discriminate.
      destruct (exec_event n P (Answer t r)) as [Q|] eqn:X; [|discriminate]. eauto.
    + destruct (exec_event n P Grant) as [Q|] eqn:X; [|discriminate]. eauto.
    + destruct (nth_error (po_tasks P) t) as [[|k|q k]|] eqn:Et; try discriminate;
        destruct (exec_event n P (Cancel t)) as [Q|] eqn:X; try discriminate; eauto.
Qed.

Lemma exec_hist_ok s0 n es : forall ps P tr cl ps' P' tr' cl',
  hist s0 ps P tr cl -> exec_hist n (ps, P, tr, cl) es = Some (ps', P', tr', cl') ->
  hist s0 ps' P' tr' cl'.
Proof.
  induction es as [|e es IH]; intros ps P tr cl ps' P' tr' cl' H E.
  - injection E as <- <- <- <-. exact H.
  - cbn [exec_hist exec_hevent] in E. destruct e.
    + destruct (exec_event n P (Spawn (with_lock p))) as [Q|] eqn:X; [|discriminate].
      eapply IH; [|exact E]. eapply h_spawn; eauto. eapply exec_event_step; eauto.
    + destruct (nth_error (po_tasks P) t) as [[| |q k]|] eqn:Et; try discriminate.
      destruct (exec_event n P (Answer t r)) as [Q|] eqn:X; [|discriminate].
      eapply IH; [|exact E]. eapply h_answer; eauto. eapply exec_event_step; eauto.
    + destruct (exec_event n P Grant) as [Q|] eqn:X; [|discriminate].
      eapply IH; [|exact E]. eapply h_grant; eauto. eapply exec_event_step; eauto.
    + destruct (nth_error (po_tasks P) t) as [[|k|q k]|] eqn:Et; try discriminate;
        destruct (exec_event n P (Cancel t)) as [Q|] eqn:X; try discriminate;
        (eapply IH; [|exact E]).
      * eapply h_cancel_lock; eauto. eapply exec_event_step; eauto.
      * eapply h_cancel_call; eauto. eapply exec_event_step; eauto.
Qed.
End S.
Arguments lockfree {St Req Rep A} p.
