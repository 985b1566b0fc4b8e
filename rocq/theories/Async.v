(** Coroutines.

    An [async def] is modelled by a value of [prog]: a tree of the
    effects it performs, in program order.  [St] holds the attributes the
    coroutines share, [Req] the things that can be awaited from outside
    (a transport, a serial port, a sleep) and [Rep] their results.

    Between two awaits a coroutine runs without interruption (asyncio is
    cooperative), so an await is the only place where another task can
    run.  An await can also end with an exception ([Raise e]), which is
    how failing transports and cancellation are expressed. *)
From Coq Require Import ZArith List Bool.
From Verif Require Import PyBase.
Import ListNotations.

Section Prog.
Context {St Req Rep : Type}.

Inductive prog (A : Type) : Type :=
| Ret (a : A)                                  (* return a *)
| Throw (e : exn)                              (* raise e *)
| Get (k : St -> prog A)                       (* read the attributes *)
| Put (s : St) (k : prog A)                    (* assign the attributes *)
| Acquire (k : res unit -> prog A)             (* await lock.acquire() *)
| Release (k : prog A)                         (* lock.release() *)
| Await (r : Req) (k : res Rep -> prog A)      (* await r *)
| Loop {X B : Type} (body : X -> prog (X + B)) (x : X) (k : B -> prog A).
                                               (* while True, with break *)
Arguments Ret {A} a.
Arguments Throw {A} e.
Arguments Get {A} k.
Arguments Put {A} s k.
Arguments Acquire {A} k.
Arguments Release {A} k.
Arguments Await {A} r k.
Arguments Loop {A X B} body x k.

(** Sequencing. *)
Fixpoint pbind {A B} (p : prog A) {struct p} : (A -> prog B) -> prog B :=
  match p with
  | Ret a => fun f => f a
  | Throw e => fun _ => Throw e
  | Get k => fun f => Get (fun s => pbind (k s) f)
  | Put s k => fun f => Put s (pbind k f)
  | Acquire k => fun f => Acquire (fun r => pbind (k r) f)
  | Release k => fun f => Release (pbind k f)
  | Await q k => fun f => Await q (fun r => pbind (k r) f)
  | Loop body x k => fun f => Loop body x (fun b => pbind (k b) f)
  end.

(** One turn of a loop. *)
Definition unroll {A X B} (body : X -> prog (X + B)) (x : X) (k : B -> prog A)
  : prog A :=
  pbind (body x) (fun r => match r with
                           | inl x' => Loop body x' k
                           | inr b => k b
                           end).

(** try: ... except: the outcome of [p] as a value. *)
Fixpoint catch {A} (p : prog A) : prog (res A) :=
  match p with
  | Ret a => Ret (Ok a)
  | Throw e => Ret (Raise e)
  | Get k => Get (fun s => catch (k s))
  | Put s k => Put s (catch k)
  | Acquire k => Acquire (fun r => catch (k r))
  | Release k => Release (catch k)
  | Await q k => Await q (fun r => catch (k r))
  | Loop body x k =>
      Loop (fun x => pbind (catch (body x)) (fun r => Ret
              match r with
              | Ok (inl x') => inl x'
              | Ok (inr b) => inr (Ok b)
              | Raise e => inr (Raise e)
              end)) x
           (fun r => match r with Ok b => catch (k b) | Raise e => Ret (Raise e) end)
  end.

Definition lift {A} (r : res A) : prog A :=
  match r with Ok a => Ret a | Raise e => Throw e end.

(** await r *)
Definition await (r : Req) : prog Rep := Await r (fun x => lift x).

(** async with self.lock: p *)
Definition with_lock {A} (p : prog A) : prog A :=
  Acquire (fun r =>
    match r with
    | Ok _ => pbind (catch p) (fun x => Release (lift x))
    | Raise e => Throw e
    end).

(** ** Running one coroutine alone

    The lock is then always free.  The awaited results are given by a
    list, consumed in order. *)
Inductive outcome (A : Type) :=
| Returned (a : A) (s : St) (rest : list (res Rep))
| Raised (e : exn) (s : St) (rest : list (res Rep))
| Waiting (s : St) (r : Req).   (* no further result: still awaiting [r] *)
Arguments Returned {A} a s rest.
Arguments Raised {A} e s rest.
Arguments Waiting {A} s r.

(** [None]: the fuel ran out.  The second component lists what was
    awaited. *)
Fixpoint run {A} (fuel : nat) (p : prog A) (s : St) (rs : list (res Rep))
  {struct fuel} : option (outcome A * list Req) :=
  match fuel with
  | O => None
  | S n =>
    match p with
    | Ret a => Some (Returned a s rs, [])
    | Throw e => Some (Raised e s rs, [])
    | Get k => run n (k s) s rs
    | Put s' k => run n k s' rs
    | Acquire k => run n (k (Ok tt)) s rs
    | Release k => run n k s rs
    | Await q k =>
        match rs with
        | [] => Some (Waiting s q, [q])
        | r :: rs =>
            match run n (k r) s rs with
            | Some (o, qs) => Some (o, q :: qs)
            | None => None
            end
        end
    | Loop body x k => run n (unroll body x k) s rs
    end
  end.

(** [runs p s rs o qs]: started in state [s], with [rs] the results that
    arrive, [p] comes to [o] having awaited [qs]. *)
Definition runs {A} (p : prog A) (s : St) (rs : list (res Rep)) (o : outcome A)
  (qs : list Req) : Prop :=
  exists n, run n p s rs = Some (o, qs).

(** ** Running many tasks *)
Inductive task (A : Type) :=
| Done (r : res A)
| LockWait (k : res unit -> prog A)
| Calling (q : Req) (k : res Rep -> prog A).
Arguments Done {A} r.
Arguments LockWait {A} k.
Arguments Calling {A} q k.

(** [asyncio.Lock]: the owner and the first come, first served queue of
    waiters.  A task asking for the lock queues behind waiting ones even
    if the lock has just been released (Lib/asyncio/locks.py). *)
Record shared := Shared {
  sh_st : St;
  sh_owner : option nat;
  sh_queue : list nat;
  sh_log : list (nat * Req)       (* what was awaited, in order *)
}.

(** Task [t] runs until it has to wait. *)
Fixpoint advance {A} (fuel : nat) (t : nat) (p : prog A) (w : shared)
  {struct fuel} : option (task A * shared) :=
  match fuel with
  | O => None
  | S n =>
    match p with
    | Ret a => Some (Done (Ok a), w)
    | Throw e => Some (Done (Raise e), w)
    | Get k => advance n t (k (sh_st w)) w
    | Put s k => advance n t k (Shared s (sh_owner w) (sh_queue w) (sh_log w))
    | Acquire k =>
        match sh_owner w, sh_queue w with
        | None, [] =>
            advance n t (k (Ok tt))
              (Shared (sh_st w) (Some t) [] (sh_log w))
        | _, _ =>
            Some (LockWait k,
                  Shared (sh_st w) (sh_owner w) (sh_queue w ++ [t]) (sh_log w))
        end
    | Release k =>
        advance n t k (Shared (sh_st w) None (sh_queue w) (sh_log w))
    | Await q k =>
        Some (Calling q k,
              Shared (sh_st w) (sh_owner w) (sh_queue w) (sh_log w ++ [(t, q)]))
    | Loop body x k => advance n t (unroll body x k) w
    end
  end.

Record pool (A : Type) := Pool {
  po_tasks : list (task A);
  po_shared : shared
}.
Arguments Pool {A} po_tasks po_shared.
Arguments po_tasks {A} p.
Arguments po_shared {A} p.

Definition set_nth {A} (l : list A) (i : nat) (x : A) : list A :=
  firstn i l ++ x :: skipn (S i) l.

(** What can happen next.  [Spawn]: a new task is created and runs (the
    tasks that exist at the start are those spawned first).  [Answer]: the
    thing task [t] awaits completes.  [Grant]: the first waiter gets the
    free lock.  [Sync]: synchronous code changes the attributes.
    [Cancel]: a waiting task is cancelled. *)
Inductive event (A : Type) :=
| Spawn (p : prog A)
| Answer (t : nat) (r : res Rep)
| Grant
| Sync (f : St -> St)
| Cancel (t : nat).
Arguments Spawn {A} p.
Arguments Answer {A} t r.
Arguments Grant {A}.
Arguments Sync {A} f.
Arguments Cancel {A} t.

Inductive step {A} : pool A -> event A -> pool A -> Prop :=
| step_spawn ts w p fuel x w' :
    advance fuel (length ts) p w = Some (x, w') ->
    step (Pool ts w) (Spawn p) (Pool (ts ++ [x]) w')
| step_answer ts w t r q k fuel x w' :
    nth_error ts t = Some (Calling q k) ->
    advance fuel t (k r) w = Some (x, w') ->
    step (Pool ts w) (Answer t r) (Pool (set_nth ts t x) w')
| step_grant ts w t queue k fuel x w' :
    sh_owner w = None -> sh_queue w = t :: queue ->
    nth_error ts t = Some (LockWait k) ->
    advance fuel t (k (Ok tt))
      (Shared (sh_st w) (Some t) queue (sh_log w)) = Some (x, w') ->
    step (Pool ts w) Grant (Pool (set_nth ts t x) w')
| step_sync ts w f :
    step (Pool ts w) (Sync f)
      (Pool ts (Shared (f (sh_st w)) (sh_owner w) (sh_queue w) (sh_log w)))
| step_cancel_call ts w t q k fuel x w' :
    nth_error ts t = Some (Calling q k) ->
    advance fuel t (k (Raise CancelledError)) w = Some (x, w') ->
    step (Pool ts w) (Cancel t) (Pool (set_nth ts t x) w')
| step_cancel_lock ts w t k fuel x w' :
    nth_error ts t = Some (LockWait k) ->
    advance fuel t (k (Raise CancelledError))
      (Shared (sh_st w) (sh_owner w)
         (filter (fun u => negb (Nat.eqb u t)) (sh_queue w)) (sh_log w))
      = Some (x, w') ->
    step (Pool ts w) (Cancel t) (Pool (set_nth ts t x) w').

Inductive steps {A} : pool A -> list (event A) -> pool A -> Prop :=
| steps_nil P : steps P [] P
| steps_snoc P Q R es e : steps P es Q -> step Q e R -> steps P (es ++ [e]) R.

Definition start {A} (s : St) : pool A := Pool [] (Shared s None [] []).

(** ** Reasoning about [runs] *)
Lemma run_mono A fuel : forall (p : prog A) s rs r fuel',
  run fuel p s rs = Some r -> (fuel <= fuel')%nat -> run fuel' p s rs = Some r.
Proof.
  induction fuel as [|n IH]; intros p s rs r [|m] H L; try discriminate.
  - now apply Nat.nle_succ_0 in L.
  - apply le_S_n in L. destruct p; cbn in *; eauto.
    destruct rs as [|x rs]; [exact H|].
    destruct (run n (k x) s rs) as [[o qs]|] eqn:E; [|discriminate].
    now rewrite (IH _ _ _ _ _ E L).
Qed.

Lemma runs_det A (p : prog A) s rs o o' qs qs' :
  runs p s rs o qs -> runs p s rs o' qs' -> o = o' /\ qs = qs'.
Proof.
  intros [n H] [m H'].
  apply run_mono with (fuel' := max n m) in H; [|apply Nat.le_max_l].
  apply run_mono with (fuel' := max n m) in H'; [|apply Nat.le_max_r].
  rewrite H in H'. now inversion H'.
Qed.

Lemma runs_ret A (a : A) s rs : runs (Ret a) s rs (Returned a s rs) [].
Proof. now exists 1%nat. Qed.
Lemma runs_throw A e s rs : runs (@Throw A e) s rs (Raised e s rs) [].
Proof. now exists 1%nat. Qed.
Lemma runs_get A (k : St -> prog A) s rs o qs :
  runs (k s) s rs o qs -> runs (Get k) s rs o qs.
Proof. intros [n H]. now exists (S n). Qed.
Lemma runs_put A (k : prog A) s s' rs o qs :
  runs k s' rs o qs -> runs (Put s' k) s rs o qs.
Proof. intros [n H]. now exists (S n). Qed.
Lemma runs_acquire A (k : res unit -> prog A) s rs o qs :
  runs (k (Ok tt)) s rs o qs -> runs (Acquire k) s rs o qs.
Proof. intros [n H]. now exists (S n). Qed.
Lemma runs_release A (k : prog A) s rs o qs :
  runs k s rs o qs -> runs (Release k) s rs o qs.
Proof. intros [n H]. now exists (S n). Qed.
Lemma runs_wait A q (k : res Rep -> prog A) s :
  runs (Await q k) s [] (Waiting s q) [q].
Proof. now exists 1%nat. Qed.
Lemma runs_await A q (k : res Rep -> prog A) s r rs o qs :
  runs (k r) s rs o qs -> runs (Await q k) s (r :: rs) o (q :: qs).
Proof. intros [n H]. exists (S n). cbn. now rewrite H. Qed.
Lemma runs_loop A X B body (x : X) (k : B -> prog A) s rs o qs :
  runs (unroll body x k) s rs o qs -> runs (Loop body x k) s rs o qs.
Proof. intros [n H]. now exists (S n). Qed.

End Prog.

Arguments prog : clear implicits.
Arguments outcome : clear implicits.
Arguments task : clear implicits.
Arguments event : clear implicits.
Arguments pool : clear implicits.
Arguments shared : clear implicits.
Arguments Ret {St Req Rep A} a.
Arguments Throw {St Req Rep A} e.
Arguments Get {St Req Rep A} k.
Arguments Put {St Req Rep A} s k.
Arguments Acquire {St Req Rep A} k.
Arguments Release {St Req Rep A} k.
Arguments Await {St Req Rep A} r k.
Arguments Loop {St Req Rep A X B} body x k.
Arguments Returned {St Req Rep A} a s rest.
Arguments Raised {St Req Rep A} e s rest.
Arguments Waiting {St Req Rep A} s r.
Arguments Done {St Req Rep A} r.
Arguments LockWait {St Req Rep A} k.
Arguments Calling {St Req Rep A} q k.
Arguments Pool {St Req Rep A} po_tasks po_shared.
Arguments po_tasks {St Req Rep A} p.
Arguments po_shared {St Req Rep A} p.
Arguments Spawn {St Req Rep A} p.
Arguments Answer {St Req Rep A} t r.
Arguments Grant {St Req Rep A}.
Arguments Sync {St Req Rep A} f.
Arguments Cancel {St Req Rep A} t.
Arguments start {St Req Rep A} s.

Notation "'do' x '<-' p ';' q" := (pbind p (fun x => q))
  (at level 200, x name, p at level 100, q at level 200, right associativity).
