(** C20, C21: the diagnostic Stream sends every written byte once and in
    order under every schedule, and what it reads does not depend on how
    the incoming bytes are cut into replies. *)
From Coq Require Import Ascii String ZArith List Bool Lia ZifyBool ZifyNat.
From Verif Require Import PyBase PyBytes Async Async_Proofs Stream_Model Stream_Safe.
Import ListNotations.
Open Scope Z_scope.
Ltac Zify.zify_post_hook ::= Z.div_mod_to_equations.

Section Props.
Context {T V : Type}.
Variable from_binary : list Z -> res T.
Variable read_value : T -> list Z -> res V.
Variable channel : Z.
Notation st := (@sst T).
Notation P := (prog st sreq srep).

(** ** C20: sending *)

(** A task that uses one Stream in any way: calls of its methods in any
    order, loops, exception handlers, sleeps. *)
Inductive user : forall A, P A -> Prop :=
| user_ret A (a : A) : user A (Ret a)
| user_throw A e : user A (Throw e)
| user_then A B p (f : A -> P B) :
    user A p -> (forall a, user B (f a)) -> user B (pbind p f)
| user_try A p : user A p -> user (res A) (catch p)
| user_while A X B (body : X -> P (X + B)) x (k : B -> P A) :
    (forall x, user (X + B) (body x)) -> (forall b, user A (k b)) ->
    user A (Loop body x k)
| user_sleep : user _ (await SleepReq)
| user_write d : user unit (Get (fun s => Put (stream_write d s) (Ret tt)))
| user_drain : user unit (drain channel)
| user_read size block : user _ (stream_read channel size block)
| user_flush : user _ (flush_read channel)
| user_readline : user _ (readline channel)
| user_until_OK : user _ (read_until_OK channel)
| user_command d any : user _ (command channel d any)
| user_message d : user _ (write_message channel d)
| user_blob : user _ (read_binary_blob channel)
| user_data name : user _ (read_data from_binary read_value channel name).

Lemma user_safe A (p : P A) : user A p -> forall s, safe channel s p.
Proof.
  induction 1; intros s; try (constructor; auto; fail).
  - apply safe_bind; auto.
  - apply safe_catch; auto.
  - now apply safe_await.
  - apply sf_get. eapply sf_put; [reflexivity..|]. constructor.
  - apply safe_drain.
  - apply safe_read.
  - apply safe_flush.
  - apply safe_readline.
  - apply safe_until_OK.
  - apply safe_command.
  - apply safe_write_message.
  - apply safe_blob.
  - apply safe_read_data.
Qed.

(** The histories considered: tasks start, synchronous code calls write,
    awaited calls end (normally, with an exception, or because their task
    was cancelled), waiting tasks get the lock.  What is excluded is the
    cancellation of a task while it waits for the lock. *)
Definition allowed {A} (e : event st sreq srep A) : Prop :=
  match e with
  | Spawn p => user A p
  | Sync f => exists d, f = stream_write d
  | Answer _ _ | Grant => True
  | Cancel _ => False
  end.

(** The payloads handed to Controller.send_diagnostic_write so far. *)
Definition handed {A} (q : pool st sreq srep A) : list (list Z) :=
  payloads (sh_log (po_shared q)).

Definition waits_for_lock {A} (x : task st sreq srep A) : Prop :=
  match x with LockWait _ => True | _ => False end.

(** At every moment of every history, what was handed over is a prefix of
    what was written; what is missing is with tasks waiting for the lock,
    then in the buffer.  Every payload has 1..61 bytes and goes to the
    stream's channel. *)
Theorem C20_bytes_in_order : forall A (es : list (event st sreq srep A)) q,
  steps (start stream_init) es q -> Forall allowed es ->
  (exists waiting,
     concat (handed q) ++ waiting ++ s_write (sh_st (po_shared q))
       = s_written (sh_st (po_shared q)) /\
     (Forall (fun x => ~ waits_for_lock x) (po_tasks q) -> waiting = [])) /\
  (forall t d ch, In (t, DiagWrite d ch) (sh_log (po_shared q)) ->
     (1 <= length d <= 61)%nat /\ ch = channel).
Proof.
  intros A es q S F.
  assert (F' : Forall (fine_event channel) es).
  { eapply Forall_impl; [|exact F]. intros e He.
    destruct e; cbn in *; auto. now apply user_safe. }
  destruct (inv_steps channel _ stream_init _ _ eq_refl eq_refl S F') as (H & F2 & [E1 E2] & _ & _).
  split.
  - exists (concat H). split; [exact E1|].
    intros N. inversion F2 as [Eq1|t c q' H' [x [Ex Hx]] F3 Eq1 Eq2]; subst; [reflexivity|].
    exfalso. rewrite Forall_forall in N.
    apply (N x); [eapply nth_error_In; eauto|].
    now inversion Hx.
  - intros t d ch I. rewrite Forall_forall in E2. exact (E2 _ I).
Qed.

(** Once no task waits for the lock and nothing is left in the buffer,
    exactly the written bytes were handed over, in order. *)
Corollary C20_all_sent : forall A (es : list (event st sreq srep A)) q,
  steps (start stream_init) es q -> Forall allowed es ->
  Forall (fun x => ~ waits_for_lock x) (po_tasks q) ->
  s_write (sh_st (po_shared q)) = [] ->
  concat (handed q) = s_written (sh_st (po_shared q)).
Proof.
  intros A es q S F N E.
  destruct (C20_bytes_in_order A es q S F) as [(w & E1 & E2) _].
  rewrite (E2 N), E in E1. cbn in E1. now rewrite app_nil_r in E1.
Qed.

(** A drain that runs alone sends the buffered bytes in the least number
    of payloads and leaves the buffer empty. *)
Theorem C20_drain_alone : forall n (s : st) acks rest,
  length (s_write s) = n -> length acks = ((n + 60) / 61)%nat ->
  exists cs,
    runs (drain channel) s (map Ok acks ++ rest)
      (Returned tt (set_write s []) rest)
      (map (fun c => DiagWrite c channel) cs) /\
    concat cs = s_write s /\ length cs = ((n + 60) / 61)%nat /\
    Forall (fun c => (1 <= length c <= 61)%nat) cs.
Proof.
  intros n. induction n as [n IH] using lt_wf_ind. intros s acks rest En Ea.
  assert (Lp : runs (drain channel) s (map Ok acks ++ rest)
                 (Returned tt (set_write s []) rest) [] \/ (0 < n)%nat).
  { destruct n; [left|right; lia]. destruct s as [r w rd wn]. cbn in En.
    destruct w; [|discriminate]. destruct acks; [|cbn in Ea; discriminate].
    apply runs_loop. cbn. apply runs_get. cbn. apply runs_ret. }
  destruct (Nat.eq_dec n 0) as [->|Hn].
  - destruct Lp as [Lp|Lp]; [|lia]. exists []. cbn. repeat split; auto.
    destruct (s_write s); [reflexivity|discriminate].
  - clear Lp. destruct acks as [|a acks].
    { cbn [length] in Ea. lia. }
    destruct (IH (n - 61)%nat ltac:(lia) (set_write s (skipn 61 (s_write s))) acks rest)
      as (cs & R & E1 & E2 & E3).
    { cbn [s_write set_write]. rewrite skipn_length. lia. }
    { cbn [length] in Ea. lia. }
    exists (firstn 61 (s_write s) :: cs). repeat split.
    + apply runs_loop. unfold unroll. cbn [pbind]. apply runs_get.
      replace (0 <? length (s_write s))%nat with true by lia.
      cbn [pbind]. apply runs_put. cbn. apply runs_acquire. apply runs_await.
      cbn. apply runs_release. exact R.
    + cbn [concat]. rewrite E1. apply firstn_skipn.
    + cbn [length]. rewrite E2. lia.
    + constructor; [|exact E3]. rewrite firstn_length. lia.
Qed.

(** ** C21: receiving *)

(** How a byte stream is cut: each element is the list of results of one
    diagnostic_read; a reply that does not parse has no data. *)
Definition arrived (frags : list srep) : list Z := concat (map joined frags).

(** The results of the awaits: each diagnostic_read gives the next
    fragment, and one that brought nothing is followed by a sleep. *)
Fixpoint answers (frags : list srep) : list (res srep) :=
  match frags with
  | [] => []
  | f :: frags =>
      Ok f :: match joined f with [] => [Ok []] | _ => [] end ++ answers frags
  end.

(** A reading operation as a function of the byte stream alone: its result
    and the bytes left for later; [None] when it needs more bytes. *)
Definition reading (A : Type) := list Z -> option (res A * list Z).

(** Started with [buf] buffered, for every way the rest arrives: *)
Definition reads_as {A} (p : P A) (f : reading A) : Prop :=
  forall (s : st) (frags : list srep),
  match f (s_read s ++ arrived frags) with
  | Some (r, rest) =>
      exists frags' buf qs,
        runs p s (answers frags)
          (match r with
           | Ok a => Returned a (set_read s buf) (answers frags')
           | Raise e => Raised e (set_read s buf) (answers frags')
           end) qs /\
        buf ++ arrived frags' = rest
  | None =>
      exists s' n qs, runs p s (answers frags) (Waiting s' (DiagRead n channel)) qs
  end.

(** *** The operations as functions of the stream *)

(** [n] bytes (for n = 0 see [C21_read_zero_refuted]). *)
Definition sp_read (n : nat) : reading (list Z) := fun l =>
  if (Nat.max 1 n <=? length l)%nat then Some (Ok (firstn n l), skipn n l) else None.

Definition newline (b : Z) : bool := (b =? CR) || (b =? LF).

(** The next line that is not blank, without trailing white space; [acc]
    is the part of the line already seen. *)
Fixpoint sp_line (acc l : list Z) : option (list Z * list Z) :=
  match l with
  | [] => None
  | b :: l =>
      if newline b then
        match rstrip acc with
        | [] => sp_line [] l
        | line => Some (line, l)
        end
      else sp_line (acc ++ [b]) l
  end.

Definition sp_readline : reading (list Z) := fun l =>
  match sp_line [] l with Some (x, r) => Some (Ok x, r) | None => None end.

(** The lines before one starting with OK, each ended by a newline; an
    error if a line starting with ERR comes first. *)
Fixpoint sp_until_OK (result acc l : list Z) : option (res (list Z) * list Z) :=
  match l with
  | [] => None
  | b :: l =>
      if newline b then
        match rstrip acc with
        | [] => sp_until_OK result [] l
        | line =>
            if startswith (lit "OK") line then Some (Ok result, l)
            else if startswith (lit "ERR") line then Some (Raise CommandError, l)
            else sp_until_OK (result ++ line ++ [LF]) [] l
        end
      else sp_until_OK result (acc ++ [b]) l
  end.

(** A newline, a 32 bit little endian size, and that many bytes. *)
Definition sp_blob : reading (list Z) := fun l =>
  match l with
  | b0 :: s0 :: s1 :: s2 :: s3 :: l =>
      if b0 =? LF then sp_read (Z.to_nat (s0 + 256 * (s1 + 256 * (s2 + 256 * s3)))) l
      else Some (Raise RuntimeError, l)
  | _ => None
  end.

(** *** Proofs *)
Lemma set_read_idem (s : st) a b : set_read (set_read s a) b = set_read s b.
Proof. reflexivity. Qed.
Lemma set_read_self (s : st) : set_read s (s_read s) = s.
Proof. now destruct s. Qed.

Lemma reads_bind A B (p : P A) (k : A -> P B) f g :
  reads_as p f -> (forall a, reads_as (k a) (g a)) ->
  reads_as (pbind p k)
    (fun l => match f l with
              | Some (Ok a, rest) => g a rest
              | Some (Raise e, rest) => Some (Raise e, rest)
              | None => None
              end).
Proof.
  intros Hp Hk s frags. specialize (Hp s frags).
  destruct (f _) as [[[a|e] rest]|].
  - destruct Hp as (frags' & buf & qs & R & E).
    specialize (Hk a (set_read s buf) frags'). cbn [s_read set_read] in Hk.
    rewrite E in Hk. destruct (g a rest) as [[r rest']|].
    + destruct Hk as (frags2 & buf2 & qs2 & R2 & E2).
      exists frags2, buf2, (qs ++ qs2). split; [|exact E2].
      rewrite set_read_idem in R2. eapply runs_bind; eauto.
    + destruct Hk as (s' & n & qs2 & R2). exists s', n, (qs ++ qs2).
      eapply runs_bind; eauto.
  - destruct Hp as (frags' & buf & qs & R & E).
    exists frags', buf, qs. split; [|exact E]. now apply runs_bind_raise.
  - destruct Hp as (s' & n & qs & R). exists s', n, qs. now apply runs_bind_wait.
Qed.

Lemma reads_ret A (a : A) : reads_as (Ret a) (fun l => Some (Ok a, l)).
Proof.
  intros s frags. exists frags, (s_read s), []. split; [|reflexivity].
  rewrite set_read_self. apply runs_ret.
Qed.

Lemma reads_throw A e : reads_as (@Throw _ _ _ A e) (fun l => Some (Raise e, l)).
Proof.
  intros s frags. exists frags, (s_read s), []. split; [|reflexivity].
  rewrite set_read_self. apply runs_throw.
Qed.

Lemma reads_ext A (p : P A) f g :
  (forall l, f l = g l) -> reads_as p f -> reads_as p g.
Proof. intros E H s frags. specialize (H s frags). now rewrite E in H. Qed.

(** One turn of a loop that asks for more. *)
Lemma fetch_runs A B n (k : unit + B -> P A) (s : st) f frags o qs :
  runs (k (inl tt)) (set_read s (s_read s ++ joined f)) (answers frags) o qs ->
  runs (pbind (fetch channel n) k) s (answers (f :: frags)) o
    (DiagRead 48 channel :: match joined f with [] => [SleepReq] | _ => [] end ++ qs).
Proof.
  intros R. destruct (joined f) as [|b l] eqn:E; cbn; rewrite E;
    apply runs_acquire, runs_await; cbn; apply runs_release; cbn;
    apply runs_get, runs_put; rewrite E; cbn.
  - apply runs_await. exact R.
  - exact R.
Qed.

Lemma fetch_waits A B n (k : unit + B -> P A) (s : st) :
  runs (pbind (fetch channel n) k) s [] (Waiting s (DiagRead 48 channel)) [DiagRead 48 channel].
Proof. cbn. apply runs_acquire, runs_wait. Qed.

Lemma arrived_cons f frags : arrived (f :: frags) = joined f ++ arrived frags.
Proof. reflexivity. Qed.

(** A loop that fetches until [enough], a property of the buffered bytes,
    then takes [cut]. *)
Lemma reads_until (body : unit -> P (unit + unit)) (k : unit -> P (list Z))
  (enough : list Z -> bool) (cut : list Z -> list Z * list Z) (size : st -> Z) :
  (forall A (s : st) (kk : unit + unit -> P A) rs o qs,
     enough (s_read s) = true ->
     runs (kk (inr tt)) s rs o qs -> runs (pbind (body tt) kk) s rs o qs) ->
  (forall A (s : st) (kk : unit + unit -> P A) rs o qs,
     enough (s_read s) = false ->
     runs (pbind (fetch channel (size s)) kk) s rs o qs -> runs (pbind (body tt) kk) s rs o qs) ->
  (forall s rs, enough (s_read s) = true ->
     runs (k tt) s rs (Returned (fst (cut (s_read s))) (set_read s (snd (cut (s_read s)))) rs) []) ->
  (forall a b, enough a = true -> enough (a ++ b) = true) ->
  (forall a b, enough a = true -> cut (a ++ b) = (fst (cut a), snd (cut a) ++ b)) ->
  reads_as (Loop body tt k)
    (fun l => if enough l then Some (Ok (fst (cut l)), snd (cut l)) else None).
Proof.
  intros Hstop Hmore Hk Hmono Hcut s frags. revert s.
  induction frags as [|f frags IH]; intros s.
  - unfold arrived. cbn. rewrite app_nil_r. destruct (enough (s_read s)) eqn:E.
    + exists [], (snd (cut (s_read s))), []. split; [|apply app_nil_r].
      apply runs_loop. unfold unroll. apply Hstop; auto.
    + exists s, 48. eexists. apply runs_loop. unfold unroll.
      apply Hmore; auto. apply fetch_waits.
  - destruct (enough (s_read s)) eqn:E.
    + rewrite Hmono by auto. rewrite Hcut by auto. cbn [fst snd].
      exists (f :: frags), (snd (cut (s_read s))), []. split; [|reflexivity].
      apply runs_loop. unfold unroll. apply Hstop; auto.
    + specialize (IH (set_read s (s_read s ++ joined f))). cbn [s_read set_read] in IH.
      rewrite arrived_cons, app_assoc.
      destruct (enough _).
      * destruct IH as (frags' & buf & qs & R & E2). rewrite set_read_idem in R.
        exists frags', buf. eexists. split; [|exact E2].
        apply runs_loop. unfold unroll. apply Hmore; auto. apply fetch_runs. exact R.
      * destruct IH as (s' & n & qs & R).
        exists s', n. eexists. apply runs_loop. unfold unroll. apply Hmore; auto.
        apply fetch_runs. exact R.
Qed.

Theorem C21_read : forall n, reads_as (stream_read channel n true) (sp_read n).
Proof.
  intros n. eapply reads_ext; [|unfold stream_read; eapply reads_until with
    (enough := fun l => (Nat.max 1 n <=? length l)%nat)
    (cut := fun l => (firstn n l, skipn n l))
    (size := fun s => Z.min 61 (Z.of_nat n - Z.of_nat (length (s_read s))))].
  - reflexivity.
  - intros A s kk rs o qs E R. cbn [pbind]. apply runs_get.
    replace (_ || _)%bool with false by lia. exact R.
  - intros A s kk rs o qs E R. cbn [pbind]. apply runs_get.
    replace (_ || _)%bool with true by lia. exact R.
  - intros s rs E. apply runs_get, runs_put, runs_ret.
  - intros a b E. rewrite app_length. lia.
  - intros a b E. cbn. rewrite firstn_app, skipn_app.
    replace (n - length a)%nat with 0%nat by lia. cbn. now rewrite app_nil_r.
Qed.

(** Splitting at the first end of line. *)
Lemma find_newline_none l : find_newline l = None <->
  bytes_find LF l = None /\ bytes_find CR l = None.
Proof.
  unfold find_newline. destruct (bytes_find CR l), (bytes_find LF l); intuition congruence.
Qed.

Lemma find_newline_cons b l : find_newline (b :: l) =
  if newline b then Some 0%nat else option_map S (find_newline l).
Proof.
  unfold find_newline, newline. cbn.
  destruct (b =? CR) eqn:E1, (b =? LF) eqn:E2; cbn;
    try destruct (bytes_find CR l); try destruct (bytes_find LF l); cbn; try reflexivity.
Qed.

Lemma find_newline_app a b i : find_newline a = Some i -> find_newline (a ++ b) = Some i.
Proof.
  revert i. induction a as [|x a IH]; intros i; [discriminate|].
  cbn [app]. rewrite !find_newline_cons. destruct (newline x); auto.
  destruct (find_newline a); [|discriminate]. intros E. now rewrite (IH _ eq_refl).
Qed.

Lemma find_newline_lt a i : find_newline a = Some i -> (i < length a)%nat.
Proof.
  revert i. induction a as [|x a IH]; intros i; [discriminate|].
  rewrite find_newline_cons. destruct (newline x); cbn.
  - intros [= <-]. lia.
  - destruct (find_newline a); [|discriminate]. intros [= <-].
    specialize (IH _ eq_refl). lia.
Qed.

Definition sp_raw : reading (list Z) := fun l =>
  match find_newline l with
  | Some i => Some (Ok (firstn (i + 1) l), skipn (i + 1) l)
  | None => None
  end.

Lemma reads_raw : reads_as (read_maybe_empty_line channel) sp_raw.
Proof.
  eapply reads_ext; [|unfold read_maybe_empty_line; eapply reads_until with
    (enough := fun l => match find_newline l with Some _ => true | None => false end)
    (cut := fun l => match find_newline l with
                     | Some i => (firstn (i + 1) l, skipn (i + 1) l)
                     | None => ([], []) end)
    (size := fun _ => 61)].
  - intros l. unfold sp_raw. destruct (find_newline l); reflexivity.
  - intros A s kk rs o qs E R. cbn [pbind]. apply runs_get.
    destruct (find_newline (s_read s)) eqn:En; [|discriminate].
    destruct (bytes_find LF (s_read s)) eqn:E1; [exact R|].
    destruct (bytes_find CR (s_read s)) eqn:E2; [exact R|].
    rewrite (proj2 (find_newline_none _) (conj E1 E2)) in En. discriminate.
  - intros A s kk rs o qs E R. cbn [pbind]. apply runs_get.
    destruct (find_newline (s_read s)) eqn:En; [discriminate|].
    apply find_newline_none in En. destruct En as [-> ->]. exact R.
  - intros s rs E. apply runs_get. destruct (find_newline (s_read s)); [|discriminate].
    apply runs_put, runs_ret.
  - intros a b E. destruct (find_newline a) eqn:En; [|discriminate].
    now rewrite (find_newline_app _ _ _ En).
  - intros a b E. destruct (find_newline a) eqn:En; [|discriminate].
    rewrite (find_newline_app _ _ _ En). pose proof (find_newline_lt _ _ En).
    cbn. rewrite firstn_app, skipn_app.
    replace (n + 1 - length a)%nat with 0%nat by lia. cbn. now rewrite app_nil_r.
Qed.

(** A loop every turn of which consumes something. *)
Lemma reads_loop X A (body : X -> P (X + A)) (g : X -> reading (X + A)) (F : X -> reading A) :
  (forall x, reads_as (body x) (g x)) ->
  (forall x l x' r, g x l = Some (Ok (inl x'), r) -> (length r < length l)%nat) ->
  (forall x l, F x l = match g x l with
                       | None => None
                       | Some (Raise e, r) => Some (Raise e, r)
                       | Some (Ok (inl x'), r) => F x' r
                       | Some (Ok (inr a), r) => Some (Ok a, r)
                       end) ->
  forall x, reads_as (Loop body x Ret) (F x).
Proof.
  intros Hb Hl HF x s frags.
  remember (length (s_read s ++ arrived frags)) as n eqn:En.
  revert x s frags En. induction n as [n IH] using lt_wf_ind. intros x s frags En.
  rewrite HF. pose proof (Hb x s frags) as H.
  destruct (g x (s_read s ++ arrived frags)) as [[[[x'|a]|e] rest]|] eqn:Eg.
  - destruct H as (frags' & buf & qs & R & E).
    pose proof (Hl _ _ _ _ Eg) as Lt.
    specialize (IH (length rest) ltac:(lia) x' (set_read s buf) frags').
    cbn [s_read set_read] in IH. rewrite E in IH. specialize (IH eq_refl).
    destruct (F x' rest) as [[r rest']|].
    + destruct IH as (frags2 & buf2 & qs2 & R2 & E2). rewrite set_read_idem in R2.
      exists frags2, buf2, (qs ++ qs2). split; [|exact E2].
      apply runs_loop. eapply runs_bind; [exact R|exact R2].
    + destruct IH as (s' & m & qs2 & R2). exists s', m, (qs ++ qs2).
      apply runs_loop. eapply runs_bind; [exact R|exact R2].
  - destruct H as (frags' & buf & qs & R & E).
    exists frags', buf, (qs ++ []). split; [|exact E].
    apply runs_loop. eapply runs_bind; [exact R|]. apply runs_ret.
  - destruct H as (frags' & buf & qs & R & E).
    exists frags', buf, qs. split; [|exact E].
    apply runs_loop. now apply runs_bind_raise.
  - destruct H as (s' & m & qs & R). exists s', m, qs.
    apply runs_loop. now apply runs_bind_wait.
Qed.

Lemma rstrip_newline l b : newline b = true -> rstrip (l ++ [b]) = rstrip l.
Proof.
  intros H. unfold rstrip. rewrite rev_app_distr. cbn.
  replace (is_space b) with true; [reflexivity|].
  unfold newline, CR, LF, is_space in *. lia.
Qed.

Lemma find_newline_split l i : find_newline l = Some i ->
  exists b, newline b = true /\ firstn (i + 1) l = firstn i l ++ [b].
Proof.
  revert i. induction l as [|x l IH]; intros i; [discriminate|].
  rewrite find_newline_cons. destruct (newline x) eqn:E.
  - intros [= <-]. exists x. auto.
  - destruct (find_newline l) as [j|]; [|discriminate]. intros [= <-].
    destruct (IH _ eq_refl) as (b & E1 & E2). exists b. split; auto.
    cbn. now rewrite E2.
Qed.

Lemma sp_line_raw acc l : sp_line acc l =
  match find_newline l with
  | None => None
  | Some i => match rstrip (acc ++ firstn i l) with
              | [] => sp_line [] (skipn (i + 1) l)
              | line => Some (line, skipn (i + 1) l)
              end
  end.
Proof.
  revert acc. induction l as [|b l IH]; intros acc; [reflexivity|].
  cbn [sp_line]. rewrite find_newline_cons. destruct (newline b).
  - cbn. now rewrite app_nil_r.
  - rewrite IH. destruct (find_newline l) as [i|]; [|reflexivity].
    cbn. rewrite <- app_assoc. reflexivity.
Qed.

Lemma sp_until_raw result acc l : sp_until_OK result acc l =
  match sp_line acc l with
  | None => None
  | Some (line, r) =>
      if startswith (lit "OK") line then Some (Ok result, r)
      else if startswith (lit "ERR") line then Some (Raise CommandError, r)
      else sp_until_OK (result ++ line ++ [LF]) [] r
  end.
Proof.
  revert acc. induction l as [|b l IH]; intros acc; [reflexivity|].
  cbn [sp_until_OK sp_line]. destruct (newline b); [|apply IH].
  destruct (rstrip acc) as [|x line]; [apply IH|reflexivity].
Qed.

Theorem C21_readline : reads_as (readline channel) sp_readline.
Proof.
  unfold readline.
  eapply (reads_loop unit (list Z) _
    (fun _ l => match sp_raw l with
                | Some (Ok raw, r) =>
                    Some (Ok (if (0 <? length (rstrip raw))%nat then inr (rstrip raw) else inl tt), r)
                | Some (Raise e, r) => Some (Raise e, r)
                | None => None
                end) (fun _ => sp_readline)).
  - intros x. eapply reads_ext; [|apply reads_bind; [apply reads_raw|]].
    + intros l. cbn beta. destruct (sp_raw l) as [[[raw|e] r]|]; try reflexivity.
    + intros raw. cbv zeta. destruct (0 <? length (rstrip raw))%nat eqn:E;
        (eapply reads_ext; [|apply reads_ret]); intros; cbn beta; rewrite E; reflexivity.
  - intros x l x' r. unfold sp_raw. destruct (find_newline l) as [i|] eqn:E; [|discriminate].
    intros [= _ <-]. rewrite skipn_length. apply find_newline_lt in E. lia.
  - intros x l. unfold sp_readline at 1, sp_raw. rewrite sp_line_raw. cbn [app].
    destruct (find_newline l) as [i|] eqn:E; [|reflexivity].
    destruct (find_newline_split _ _ E) as (b & E1 & E2).
    rewrite E2, rstrip_newline by exact E1.
    destruct (rstrip (firstn i l)) as [|y line]; reflexivity.
Qed.

Lemma sp_line_shorter l : forall acc line r, sp_line acc l = Some (line, r) -> (length r < length l)%nat.
Proof.
  induction l as [|b l IH]; intros acc line r; [discriminate|]. cbn.
  destruct (newline b).
  - destruct (rstrip acc).
    + intros H. apply IH in H. lia.
    + intros [= <- <-]. lia.
  - intros H. apply IH in H. lia.
Qed.

Theorem C21_read_until_OK : reads_as (read_until_OK channel) (sp_until_OK [] []).
Proof.
  unfold read_until_OK.
  eapply (reads_loop (list Z) (list Z) _
    (fun result l =>
       match sp_readline l with
       | Some (Ok line, r) =>
           if startswith (lit "OK") line then Some (Ok (inr result), r)
           else if startswith (lit "ERR") line then Some (Raise CommandError, r)
           else Some (Ok (inl (result ++ line ++ [LF])), r)
       | Some (Raise e, r) => Some (Raise e, r)
       | None => None
       end) (fun result => sp_until_OK result [])).
  - intros result. eapply reads_ext; [|apply reads_bind; [apply C21_readline|]].
    + intros l. cbn beta. destruct (sp_readline l) as [[[line|e] r]|]; try reflexivity.
    + intros line. destruct (startswith (lit "OK") line) eqn:E1;
        [|destruct (startswith (lit "ERR") line) eqn:E2];
        (eapply reads_ext; [|first [apply reads_ret | apply reads_throw]]);
        intros; cbn beta; rewrite ?E1, ?E2; reflexivity.
  - intros result l x' r. unfold sp_readline.
    destruct (sp_line [] l) as [[line r']|] eqn:E; [|discriminate].
    apply sp_line_shorter in E. destruct (startswith _ _); [discriminate|].
    destruct (startswith _ _); [discriminate|]. now intros [= _ <-].
  - intros result l. rewrite sp_until_raw. unfold sp_readline.
    destruct (sp_line [] l) as [[line r']|] eqn:E; [|reflexivity].
    destruct (startswith _ _); [reflexivity|]. destruct (startswith _ _); reflexivity.
Qed.

Theorem C21_read_binary_blob : reads_as (read_binary_blob channel) sp_blob.
Proof.
  eapply reads_ext; [|unfold read_binary_blob;
    apply (reads_bind _ _ _ _ (sp_read 5) (fun b r => match b with
      | [] => Some (Raise IndexError, r)
      | b0 :: rest =>
          if b0 =? 10 then
            if (length rest =? 4)%nat then sp_read (Z.to_nat (le_value rest)) r
            else Some (Raise StructError, r)
          else Some (Raise RuntimeError, r)
      end)); [apply C21_read|]].
  2: { intros [|b0 rest]; [apply reads_throw|].
       destruct (b0 =? 10); [|apply reads_throw].
       destruct (length rest =? 4)%nat; [apply C21_read|apply reads_throw]. }
  intros l. cbn beta. unfold sp_read at 1.
  destruct l as [|b0 [|s0 [|s1 [|s2 [|s3 l]]]]]; try reflexivity.
  cbn -[Z.mul Z.add Z.eqb]. unfold LF. destruct (b0 =? 10); [|reflexivity].
  now replace (s0 + 256 * (s1 + 256 * (s2 + 256 * (s3 + 256 * 0))))
    with (s0 + 256 * (s1 + 256 * (s2 + 256 * s3))) by lia.
Qed.

(** Any sequence of operations. *)
Inductive op := ORead (n : nat) | OReadline | OUntilOK | OBlob.

Definition do_op (o : op) : P (list Z) :=
  match o with
  | ORead n => stream_read channel n true
  | OReadline => readline channel
  | OUntilOK => read_until_OK channel
  | OBlob => read_binary_blob channel
  end.

Definition sp_op (o : op) : reading (list Z) :=
  match o with
  | ORead n => sp_read n
  | OReadline => sp_readline
  | OUntilOK => sp_until_OK [] []
  | OBlob => sp_blob
  end.

Fixpoint do_ops (os : list op) : P (list (list Z)) :=
  match os with
  | [] => Ret []
  | o :: os => do x <- do_op o; do xs <- do_ops os; Ret (x :: xs)
  end.

Fixpoint sp_ops (os : list op) : reading (list (list Z)) := fun l =>
  match os with
  | [] => Some (Ok [], l)
  | o :: os =>
      match sp_op o l with
      | Some (Ok x, r) =>
          match sp_ops os r with
          | Some (Ok xs, r') => Some (Ok (x :: xs), r')
          | other => other
          end
      | Some (Raise e, r) => Some (Raise e, r)
      | None => None
      end
  end.

Theorem C21_any_sequence : forall os, reads_as (do_ops os) (sp_ops os).
Proof.
  induction os as [|o os IH]; cbn [do_ops sp_ops]; [apply reads_ret|].
  eapply reads_ext; [|apply (reads_bind _ _ _ _ (sp_op o)
    (fun x r => match sp_ops os r with
                | Some (Ok xs, r') => Some (Ok (x :: xs), r')
                | other => other end))].
  2: { destruct o; cbn.
       - apply C21_read. - apply C21_readline. - apply C21_read_until_OK.
       - apply C21_read_binary_blob. }
  2: { intros x. eapply reads_ext; [|apply reads_bind; [apply IH|intros xs; apply reads_ret]].
       intros l. cbn beta. destruct (sp_ops os l) as [[[xs|e] r']|]; reflexivity. }
  intros l. cbn beta. destruct (sp_op o l) as [[[x|e] r]|]; try reflexivity.
Qed.

(** Two ways to cut the same bytes give the same result and leave the same
    bytes. *)
Corollary C21_fragmentation_independent : forall os (s1 s2 : st) frags1 frags2,
  s_read s1 ++ arrived frags1 = s_read s2 ++ arrived frags2 ->
  forall a s' left qs, runs (do_ops os) s1 (answers frags1) (Returned a s' left) qs ->
  exists s2' frags1' frags2' qs2,
    left = answers frags1' /\
    runs (do_ops os) s2 (answers frags2) (Returned a s2' (answers frags2')) qs2 /\
    s_read s' ++ arrived frags1' = s_read s2' ++ arrived frags2'.
Proof.
  intros os s1 s2 f1 f2 E a s' left qs R.
  pose proof (C21_any_sequence os s1 f1) as H1.
  pose proof (C21_any_sequence os s2 f2) as H2.
  rewrite <- E in H2. destruct (sp_ops os _) as [[[x|e] rest]|].
  - destruct H1 as (g1 & b1 & q1 & R1 & E1). destruct H2 as (g2 & b2 & q2 & R2 & E2).
    destruct (runs_det _ _ _ _ _ _ _ _ R R1) as [Eo _]. injection Eo as -> -> ->.
    exists (set_read s2 b2), g1, g2, q2. cbn. repeat split; auto. congruence.
  - destruct H1 as (g1 & b1 & q1 & R1 & E1).
    destruct (runs_det _ _ _ _ _ _ _ _ R R1) as [Eo _]. discriminate.
  - destruct H1 as (s'' & n & q1 & R1).
    destruct (runs_det _ _ _ _ _ _ _ _ R R1) as [Eo _]. discriminate.
Qed.

(** A non blocking read gives between 1 and [n] of the next bytes. *)
Theorem C21_nonblocking_read : forall n (s : st) frags,
  (1 <= n)%nat -> s_read s ++ arrived frags <> [] ->
  exists a buf frags' qs,
    runs (stream_read channel n false) s (answers frags)
      (Returned a (set_read s buf) (answers frags')) qs /\
    (1 <= length a <= n)%nat /\
    a ++ buf ++ arrived frags' = s_read s ++ arrived frags.
Proof.
  intros n s frags Hn. revert s. induction frags as [|f frags IH]; intros s Ne.
  - exists (firstn n (s_read s)), (skipn n (s_read s)), [], [].
    unfold arrived in *. cbn in *. rewrite app_nil_r in *. repeat split.
    + apply runs_loop. cbn. apply runs_get. destruct (s_read s) eqn:E; [congruence|].
      cbn. apply runs_get, runs_put. rewrite E. apply runs_ret.
    + rewrite firstn_length. destruct (s_read s); cbn; [congruence|lia].
    + rewrite firstn_length. lia.
    + rewrite app_nil_r. apply firstn_skipn.
  - destruct (s_read s) as [|b l] eqn:E.
    + specialize (IH (set_read s (joined f))).
      destruct IH as (a & buf & frags' & qs & R & L & E2).
      { cbn [s_read set_read]. exact Ne. }
      rewrite set_read_idem in R.
      assert (R1 : runs (stream_read channel n false) (set_read s (s_read s ++ joined f))
                (answers frags) (Returned a (set_read s buf) (answers frags')) qs)
        by (rewrite E; exact R).
      exists a, buf, frags'. eexists. repeat split; try apply L; [|exact E2].
      apply runs_loop. unfold unroll. cbn [pbind]. apply runs_get. rewrite E.
      cbn [length Nat.eqb orb]. rewrite orb_true_r. apply fetch_runs. exact R1.
    + exists (firstn n (b :: l)), (skipn n (b :: l)), (f :: frags), []. repeat split.
      * apply runs_loop. cbn. apply runs_get. rewrite E. cbn.
        apply runs_get, runs_put. rewrite E. apply runs_ret.
      * rewrite firstn_length. cbn. lia.
      * rewrite firstn_length. lia.
      * rewrite app_assoc, firstn_skipn. reflexivity.
Qed.

(** A command writes its line, then reads as described above. *)
Theorem C21_command : forall data (any : bool) (s : st) acks frags,
  s_write s = [] -> length acks = ((length data + 61) / 61)%nat ->
  exists cs,
    concat cs = data ++ [LF] /\
    match (if any then sp_readline else sp_until_OK [] []) (s_read s ++ arrived frags) with
    | Some (r, rest) =>
        exists s' frags' qs,
          runs (command channel data any) s (map Ok acks ++ answers frags)
            (match r with
             | Ok a => Returned a s' (answers frags')
             | Raise e => Raised e s' (answers frags')
             end) (map (fun c => DiagWrite c channel) cs ++ qs) /\
          s_read s' ++ arrived frags' = rest /\ s_write s' = []
    | None =>
        exists s' n qs,
          runs (command channel data any) s (map Ok acks ++ answers frags)
            (Waiting s' (DiagRead n channel)) (map (fun c => DiagWrite c channel) cs ++ qs)
    end.
Proof.
  intros data any s acks frags Ew Ea.
  destruct (C20_drain_alone (length data + 1) (stream_write (data ++ [LF]) s) acks (answers frags))
    as (cs & R & E1 & E2 & E3).
  { cbn. rewrite Ew. cbn. now rewrite app_length. }
  { rewrite Ea. f_equal. lia. }
  exists cs. split; [now rewrite E1; cbn; rewrite Ew|].
  set (s1 := set_write (stream_write (data ++ [LF]) s) []) in *.
  change (s_read s) with (s_read s1).
  assert (H : reads_as (if any then readline channel else read_until_OK channel)
                (if any then sp_readline else sp_until_OK [] [])).
  { destruct any; [apply C21_readline | apply C21_read_until_OK]. }
  specialize (H s1 frags).
  remember (if any then sp_readline else sp_until_OK [] []) as f eqn:Ef. clear Ef.
  destruct (f _) as [[r rest]|].
  - destruct H as (frags' & buf & qs & R2 & E4).
    exists (set_read s1 buf), frags', qs. split; [|split; [exact E4|reflexivity]].
    unfold command. eapply runs_bind; [|exact R2].
    apply runs_get, runs_put. exact R.
  - destruct H as (s' & n & qs & R2). exists s', n, qs.
    unfold command. eapply runs_bind; [|exact R2].
    apply runs_get, runs_put. exact R.
Qed.

(** A flush leaves the buffer empty, whatever had arrived before the time
    was up, as long as it was less than 64 KiB. *)
Lemma read_interrupted size : forall frags (s : st) rest,
  (length (s_read s ++ arrived frags) < size)%nat ->
  exists buf qs,
    runs (stream_read channel size true) s
      (answers frags ++ Raise CancelledError :: rest)
      (Raised CancelledError (set_read s buf) rest) qs.
Proof.
  induction frags as [|f frags IH]; intros s rest L.
  - unfold arrived in *. cbn in *. rewrite app_nil_r in *.
    exists (s_read s). eexists. rewrite set_read_self.
    apply runs_loop. unfold unroll. cbn [pbind]. apply runs_get.
    replace (_ || _)%bool with true by lia. cbn.
    apply runs_acquire, runs_await. cbn. apply runs_release, runs_throw.
  - rewrite arrived_cons, app_assoc in L.
    destruct (IH (set_read s (s_read s ++ joined f)) rest L) as (buf & qs & R).
    rewrite set_read_idem in R. exists buf. eexists.
    rewrite !app_length in L.
    apply runs_loop. unfold unroll. cbn [pbind]. apply runs_get.
    replace (_ || _)%bool with true by lia.
    cbn [answers app]. cbn. apply runs_acquire, runs_await. cbn. apply runs_release.
    cbn. apply runs_get, runs_put. instantiate (1 := match joined f with [] => SleepReq :: qs | _ => qs end).
    destruct (joined f) as [|b l]; cbn.
    + apply runs_await. cbn. exact R.
    + exact R.
Qed.

Theorem C21_flush_read : forall (s : st) frags rest ack,
  (length (arrived frags) < Z.to_nat 65536)%nat ->
  exists qs,
    runs (flush_read channel) s (answers frags ++ Raise CancelledError :: Ok ack :: rest)
      (Returned tt (set_read s []) rest) (qs ++ [FlushTransport]).
Proof.
  intros s frags rest ack L.
  destruct (read_interrupted (Z.to_nat 65536) frags (set_read s []) (Ok ack :: rest) L)
    as (buf & qs & R).
  exists qs. unfold flush_read. apply runs_get, runs_put.
  apply runs_catch in R. cbn [catches] in R.
  eapply runs_bind; [exact R|]. cbn. apply runs_get, runs_put. cbn.
  apply runs_await, runs_ret.
Qed.

End Props.

(** ** Examples and refutations *)
Section Examples.
Notation st := (@sst unit).
Notation ev := (event st sreq srep unit).
Let fb : list Z -> res unit := fun _ => Ok tt.
Let rv : unit -> list Z -> res unit := fun _ _ => Ok tt.
Notation ok := (allowed fb rv 1).

(** A task that reads four bytes. *)
Definition reader : prog st sreq srep unit :=
  do _ <- stream_read 1 4 true; Ret tt.

Lemma reader_user : user fb rv 1 unit reader.
Proof. apply user_then; [apply user_read|]. intros; apply user_ret. Qed.

Ltac fine_history := repeat (apply Forall_cons; [cbn; first
  [exact I | apply reader_user | apply user_drain | eexists; reflexivity
  | left; exact I | left; apply reader_user | left; apply user_drain
  | left; eexists; reflexivity | right; reflexivity]|]); apply Forall_nil.

Definition bytes100 : list Z := map Z.of_nat (seq 0 100).

(** Two drains and a reader: the reader has the lock, the first drain
    waits with 61 bytes, the second with the other 39 and 3 written later. *)
Definition ex_history : list ev :=
  [Spawn reader; Sync (stream_write bytes100); Spawn (drain 1);
   Sync (stream_write [7; 8; 9]); Spawn (drain 1);
   Answer 0 (Ok [Some [1; 2; 3; 4]]);
   Grant; Answer 1 (Ok []); Grant; Answer 2 (Ok [])].

Example C20_example : exists q,
  steps (start stream_init) ex_history q /\ Forall ok ex_history /\
  handed q = [firstn 61 bytes100; skipn 61 bytes100 ++ [7; 8; 9]] /\
  po_tasks q = [Done (Ok tt); Done (Ok tt); Done (Ok tt)].
Proof.
  eexists. split; [eapply (exec_events_steps _ 30); vm_compute; reflexivity|].
  split; [|split; vm_compute; reflexivity].
  fine_history.
Qed.

(** "When drain returns, everything written before it was called was
    handed to the controller": false, another drain may hold the bytes. *)
Theorem C20_drain_returns_early_refuted : exists es q,
  steps (start stream_init) (es ++ [Spawn (drain 1)]) q /\
  Forall ok (es ++ [Spawn (drain 1)]) /\
  last (po_tasks q) (Done (Raise RuntimeError)) = Done (Ok tt) /\
  s_written (sh_st (po_shared q)) = [42] /\ handed q = [].
Proof.
  exists [Spawn reader; Sync (stream_write [42]); Spawn (drain 1)]. eexists.
  split; [eapply (exec_events_steps _ 30); vm_compute; reflexivity|].
  split; [|repeat split; vm_compute; reflexivity].
  fine_history.
Qed.

(** Cancelling a drain that waits for the lock loses the bytes it took. *)
Theorem C20_cancelled_drain_refuted : exists (es : list ev) q,
  steps (start stream_init) es q /\
  Forall (fun e => ok e \/ e = Cancel 1) es /\
  Forall (fun x => match x with Done _ => True | _ => False end) (po_tasks q) /\
  s_write (sh_st (po_shared q)) = [] /\
  s_written (sh_st (po_shared q)) = [42] /\ handed q = [].
Proof.
  exists [Spawn reader; Sync (stream_write [42]); Spawn (drain 1); Cancel 1;
          Answer 0 (Ok [Some [1; 2; 3; 4]])]. eexists.
  split; [eapply (exec_events_steps _ 30); vm_compute; reflexivity|].
  split; [|repeat split; vm_compute; repeat constructor].
  fine_history.
Qed.

(** read(0) of nothing waits for a byte to arrive. *)
Theorem C21_read_zero_refuted :
  exists s' n qs, runs (stream_read 1 0 true) (@stream_init unit) []
                    (Waiting s' (DiagRead n 1)) qs.
Proof. eexists _, _, _. exists 20%nat. vm_compute. reflexivity. Qed.

(** The length asked for is not passed on to the device: read(1) asks for
    48 bytes. *)
Theorem C21_length_refuted :
  exists s', runs (stream_read 1 1 true) (@stream_init unit) []
               (Waiting s' (DiagRead 48 1)) [DiagRead 48 1].
Proof. eexists. exists 20%nat. vm_compute. reflexivity. Qed.

(** So an empty blob is not returned until the byte after it has come. *)
Theorem C21_empty_blob_refuted :
  exists s' n qs, runs (read_binary_blob 1) (@stream_init unit)
                    (answers [[Some [10; 0; 0; 0; 0]]]) (Waiting s' (DiagRead n 1)) qs.
Proof. eexists _, _, _. exists 40%nat. vm_compute. reflexivity. Qed.

(** The specifications on a concrete stream: an answer over several lines
    followed by a binary blob of two bytes. *)
Example C21_example :
  sp_ops [OUntilOK; OReadline; OBlob; ORead 1]
    (lit "one " ++ [13; 10] ++ lit "two" ++ [10; 10] ++ lit "OK" ++ [13; 10]
     ++ lit "emit x" ++ [13] ++ [10; 2; 0; 0; 0; 5; 6] ++ [77; 78])
  = Some (Ok [lit "one" ++ [10] ++ lit "two" ++ [10]; lit "emit x"; [5; 6]; [77]], [78]).
Proof. vm_compute. reflexivity. Qed.

(** An empty fragment, a reply without data and a cut inside a line end. *)
Example C21_example_fragments : exists s' qs,
  runs (do_ops 1 [OReadline; ORead 2]) (@stream_init unit)
    (answers [[Some (lit "ab ")]; []; [None]; [Some [13]]; [Some [10; 66]; Some [67]]])
    (Returned [lit "ab"; [10; 66]] s' []) qs /\ s_read s' = [67].
Proof. eexists _, _. split; [exists 80%nat; vm_compute; reflexivity | reflexivity]. Qed.

Example C20_drain_example : exists qs,
  runs (drain 1) (stream_write bytes100 (@stream_init unit)) [Ok []; Ok []]
    (Returned tt (set_write (stream_write bytes100 stream_init) []) []) qs /\
  qs = [DiagWrite (firstn 61 bytes100) 1; DiagWrite (skipn 61 bytes100) 1].
Proof. eexists. split; [exists 80%nat; vm_compute; reflexivity | reflexivity]. Qed.

Example C21_command_example : exists s' qs,
  runs (command 1 (lit "d stop") false) (@stream_init unit)
    ([Ok []] ++ answers [[Some (lit "OK")]; [Some [13; 10]]])
    (Returned [] s' []) qs /\ s_read s' = [10].
Proof. eexists _, _. split; [exists 80%nat; vm_compute; reflexivity | reflexivity]. Qed.

Example C21_flush_example : exists qs,
  runs (flush_read 1) (set_read (@stream_init unit) [1; 2])
    (answers [[Some [3]]; []] ++ [Raise CancelledError; Ok []])
    (Returned tt stream_init []) qs.
Proof. eexists. exists 80%nat. vm_compute. reflexivity. Qed.
End Examples.

Print Assumptions C20_bytes_in_order.
Print Assumptions C20_all_sent.
Print Assumptions C20_drain_alone.
Print Assumptions C20_drain_returns_early_refuted.
Print Assumptions C20_cancelled_drain_refuted.
Print Assumptions C21_read.
Print Assumptions C21_readline.
Print Assumptions C21_read_until_OK.
Print Assumptions C21_read_binary_blob.
Print Assumptions C21_any_sequence.
Print Assumptions C21_fragmentation_independent.
Print Assumptions C21_nonblocking_read.
Print Assumptions C21_command.
Print Assumptions C21_flush_read.
Print Assumptions C21_read_zero_refuted.
Print Assumptions C21_length_refuted.
Print Assumptions C21_empty_blob_refuted.
