(** Which coroutines keep the outgoing bytes of a [Stream] in order. *)
From Coq Require Import ZArith List Bool Lia.
From Verif Require Import PyBase PyBytes Async Async_Proofs Stream_Model.
Import ListNotations.

Section S.
Context {T : Type}.
Variable channel : Z.
Notation st := (@sst T).
Notation P := (prog st sreq srep).
Notation world := (shared st sreq).

(** [safe s p]: started when the attributes are [s], [p] only appends to
    the outgoing bytes, or takes 1..61 of them off the front, asks for the
    lock at once and, when it has it, hands them to the controller. *)
Inductive safe : forall A, st -> P A -> Prop :=
| sf_ret A s (a : A) : safe A s (Ret a)
| sf_throw A s e : safe A s (Throw e)
| sf_get A s k : safe A s (k s) -> safe A s (Get k)
| sf_put A s s' k d :
    s_write s' = s_write s ++ d -> s_written s' = s_written s ++ d ->
    safe A s' k -> safe A s (Put s' k)
| sf_take A s s' c k k2 :
    s_write s = c ++ s_write s' -> s_written s' = s_written s ->
    (1 <= length c <= 61)%nat ->
    k (Ok tt) = Await (DiagWrite c channel) k2 ->
    (forall r s, safe A s (k2 r)) -> (forall e s, safe A s (k (Raise e))) ->
    safe A s (Put s' (Acquire k))
| sf_acquire A s k : (forall r s', safe A s' (k r)) -> safe A s (Acquire k)
| sf_release A s k : safe A s k -> safe A s (Release k)
| sf_await A s q k :
    (forall c ch, q <> DiagWrite c ch) -> (forall r s', safe A s' (k r)) ->
    safe A s (Await q k)
| sf_loop A X B s body (x : X) (k : B -> P A) :
    (forall x s, safe (X + B) s (body x)) -> (forall b s, safe A s (k b)) ->
    safe A s (Loop body x k).
Arguments safe {A} s p.

Lemma safe_bind A s (p : P A) : safe s p -> forall B (f : A -> P B),
  (forall a s', safe s' (f a)) -> safe s (pbind p f).
Proof.
  induction 1; intros Bb f Hf; cbn; try (econstructor; eauto; fail); auto.
  - (* take *)
    eapply sf_take; eauto.
    + cbn. rewrite H2. reflexivity.
    + cbn. intros; eauto.
Qed.

Lemma safe_catch A s (p : P A) : safe s p -> safe s (catch p).
Proof.
  induction 1; cbn; try (econstructor; eauto; fail).
  - eapply sf_take; eauto.
    + cbn. rewrite H2. reflexivity.
    + cbn. auto.
  - apply sf_loop.
    + intros. apply safe_bind; auto. intros; constructor.
    + intros [b|e]; auto. constructor.
Qed.

Lemma safe_with_lock A s (p : P A) : (forall s, safe s p) -> safe s (with_lock p).
Proof.
  intros H. apply sf_acquire. intros [[]|e] s'; [|constructor].
  apply safe_bind; [apply safe_catch, H|].
  intros [a|e] s2; constructor; constructor.
Qed.

Lemma safe_lift A s (r : res A) : safe s (lift r).
Proof. destruct r; constructor. Qed.

Lemma safe_await s q : (forall c ch, q <> DiagWrite c ch) -> safe s (await q : P _).
Proof. intros H. constructor; auto. intros; apply safe_lift. Qed.

Lemma safe_drain s : safe s (drain channel : P _).
Proof.
  apply sf_loop; [|constructor].
  clear s. intros [] s. apply sf_get. unfold Nat.ltb.
  destruct (s_write s) as [|b l] eqn:E; [constructor|].
  cbn [length Nat.leb].
  eapply sf_take with (c := firstn 61 (b :: l)).
  - cbn [s_write set_write]. rewrite E. symmetry. apply firstn_skipn.
  - reflexivity.
  - rewrite firstn_length. cbn [length]. lia.
  - reflexivity.
  - intros [r|e] s'; cbn; repeat constructor.
  - intros e s'; cbn; constructor.
Qed.

Lemma safe_put_read A s s' (k : P A) :
  s_write s' = s_write s -> s_written s' = s_written s -> safe s' k ->
  safe s (Put s' k).
Proof.
  intros H1 H2 H3. apply sf_put with (d := []); auto; now rewrite app_nil_r.
Qed.

Lemma safe_fetch B n s : safe s (fetch channel n : P (unit + B)).
Proof.
  apply safe_bind.
  - apply safe_with_lock. intros. now apply safe_await.
  - intros a s'. apply sf_get, safe_put_read; auto.
    destruct (_ =? 0)%nat; [|constructor].
    apply safe_bind; [now apply safe_await | constructor].
Qed.

Lemma safe_read size block s : safe s (stream_read channel size block : P _).
Proof.
  apply sf_loop.
  - intros _ s'. apply sf_get. destruct (_ || _)%bool; [apply safe_fetch | constructor].
  - intros _ s'. apply sf_get, safe_put_read; auto. constructor.
Qed.

Lemma safe_line s : safe s (read_maybe_empty_line channel : P _).
Proof.
  apply sf_loop.
  - intros _ s'. apply sf_get.
    destruct (bytes_find LF (s_read s')), (bytes_find CR (s_read s')); first [apply sf_ret | apply safe_fetch].
  - intros _ s'. apply sf_get. destruct (find_newline _); [|constructor].
    apply safe_put_read; auto. constructor.
Qed.

Lemma safe_readline s : safe s (readline channel : P _).
Proof.
  apply sf_loop; [|constructor].
  intros _ s'. apply safe_bind; [apply safe_line|].
  intros a s2. cbv zeta. destruct (_ <? _)%nat; constructor.
Qed.

Lemma safe_until_OK s : safe s (read_until_OK channel : P _).
Proof.
  apply sf_loop; [|constructor].
  intros x s'. apply safe_bind; [apply safe_readline|].
  intros a s2. destruct (startswith _ a); [constructor|].
  destruct (startswith _ a); constructor.
Qed.

Lemma safe_write_message d s : safe s (write_message channel d : P _).
Proof.
  apply sf_get. eapply sf_put; [reflexivity..|]. apply safe_drain.
Qed.

Lemma safe_command d any s : safe s (command channel d any : P _).
Proof.
  apply safe_bind; [apply safe_write_message|].
  intros _ s'. destruct any; [apply safe_readline | apply safe_until_OK].
Qed.

Lemma safe_blob s : safe s (read_binary_blob channel : P _).
Proof.
  apply safe_bind; [apply safe_read|].
  intros [|b l] s'; [constructor|].
  destruct (b =? 10)%Z; [|constructor].
  destruct (length l =? 4)%nat; [|constructor].
  apply safe_read.
Qed.

Lemma safe_flush s : safe s (flush_read channel : P _).
Proof.
  apply sf_get, safe_put_read; auto.
  apply safe_bind; [apply safe_catch, safe_read|].
  intros [a|e] s'; [constructor|].
  destruct e; try constructor.
  apply safe_put_read; auto.
  apply safe_bind; [now apply safe_await|]. constructor.
Qed.

Lemma safe_read_data V (from_binary : list Z -> res T) (read_value : T -> list Z -> res V)
  name s :
  safe s (read_data from_binary read_value channel name : P _).
Proof.
  apply safe_bind.
  - apply sf_get. destruct (lookup_reader _ _); [constructor|].
    apply safe_bind; [apply safe_write_message|]. intros _ s2.
    apply safe_bind; [apply safe_readline|]. intros a s3.
    destruct (bytes_eqb _ _); [|constructor].
    apply safe_bind; [apply safe_blob|]. intros sc s4.
    apply safe_bind; [apply safe_lift|]. intros ty s5.
    apply sf_get, safe_put_read; auto.
    apply safe_bind; [apply safe_command|]. constructor.
  - intros _ s2. apply sf_get. destruct (lookup_reader _ _); [|constructor].
    apply safe_bind; [apply safe_write_message|]. intros _ s3.
    apply safe_bind; [apply safe_readline|]. intros a s4.
    destruct (bytes_eqb _ _); [|constructor].
    apply safe_bind; [apply safe_blob|]. intros. apply safe_lift.
Qed.

(** ** The invariant over schedules *)

(** The payloads handed to the controller. *)
Definition payloads (log : list (nat * sreq)) : list (list Z) :=
  flat_map (fun e => match snd e with DiagWrite d _ => [d] | _ => [] end) log.

(** [holds x c]: the waiting task [x] has [c] to send. *)
Inductive holds {A} : task st sreq srep A -> list Z -> Prop :=
| holds_chunk k c k2 :
    k (Ok tt) = Await (DiagWrite c channel) k2 ->
    (1 <= length c <= 61)%nat ->
    (forall r s, safe s (k2 r)) ->
    holds (LockWait k) c
| holds_none k :
    (forall r s, safe s (k r)) -> holds (LockWait k) [].

(** The tasks that do not wait for the lock. *)
Definition settled {A} (x : task st sreq srep A) : Prop :=
  match x with
  | Done _ => True
  | Calling _ k => forall r s, safe s (k r)
  | LockWait _ => False
  end.

(** What is handed over: 1..61 bytes, on the right channel. *)
Definition small (e : nat * sreq) : Prop :=
  match snd e with
  | DiagWrite c ch => (1 <= length c <= 61)%nat /\ ch = channel
  | _ => True
  end.

Definition flow (w : world) (H : list Z) : Prop :=
  concat (payloads (sh_log w)) ++ H ++ s_write (sh_st w) = s_written (sh_st w) /\
  Forall small (sh_log w).

Lemma payloads_app l l' : payloads (l ++ l') = payloads l ++ payloads l'.
Proof. apply flat_map_app. Qed.

(** A running task. *)
Lemma advance_safe A n : forall t (p : P A) (w : world) x w' H,
  safe (sh_st w) p -> advance n t p w = Some (x, w') ->
  flow w H -> (sh_queue w = [] -> H = []) ->
  (settled x /\ sh_queue w' = sh_queue w /\ flow w' H) \/
  (exists c, holds x c /\ sh_queue w' = sh_queue w ++ [t] /\ flow w' (H ++ c)).
Proof.
  induction n as [|n IH]; intros t p w x w' H Sf Ad Fl HQ; [discriminate|].
  remember (sh_st w) as s0 eqn:Es.
  destruct Sf; cbn [advance] in Ad; rewrite <- ?Es in Ad; unfold flow in Fl; rewrite <- Es in Fl.
  - injection Ad as <- <-. left. cbn. unfold flow. rewrite <- Es. auto.
  - injection Ad as <- <-. left. cbn. unfold flow. rewrite <- Es. auto.
  - refine (IH _ _ _ _ _ H _ Ad _ HQ); unfold flow; rewrite <- Es; assumption.
  - refine (IH _ _ _ _ _ H _ Ad _ HQ); [exact Sf|].
    destruct Fl as [F1 F2]. split; cbn; [|exact F2].
    rewrite H0, H1, !app_assoc. f_equal. rewrite <- app_assoc. exact F1.
  - (* take *)
    destruct n as [|n]; [discriminate|]. cbn [advance sh_owner sh_queue sh_log sh_st] in Ad.
    destruct Fl as [F1 F2].
    assert (Wait : forall w2, w2 = Shared s' (sh_owner w) (sh_queue w ++ [t]) (sh_log w) ->
      x = LockWait k -> w' = w2 ->
      exists c, holds x c /\ sh_queue w' = sh_queue w ++ [t] /\ flow w' (H ++ c)).
    { intros w2 -> -> ->. exists c. split; [eapply holds_chunk; eauto|].
      split; [reflexivity|]. split; cbn; [|exact F2].
      rewrite H1, <- F1, H0, <- !app_assoc. reflexivity. }
    destruct (sh_owner w) as [o|] eqn:Eo.
    + injection Ad as <- <-. right. eapply Wait; eauto.
    + destruct (sh_queue w) as [|u queue] eqn:Eq.
      * destruct n as [|n]; [discriminate|].
        rewrite H3 in Ad. cbn in Ad. injection Ad as <- <-.
        left. cbn. split; [exact H4|]. split; [reflexivity|].
        rewrite (HQ eq_refl) in *. split; cbn.
        { rewrite payloads_app. cbn. rewrite concat_app. cbn.
          rewrite app_nil_r, <- app_assoc, <- H0.
          rewrite H1, <- F1. reflexivity. }
        { apply Forall_app. split; [exact F2|].
          constructor; [split; [exact H2|reflexivity] | constructor]. }
      * injection Ad as <- <-. right. eapply Wait; eauto.
  - (* acquire *)
    assert (Wait : forall w2, w2 = Shared s (sh_owner w) (sh_queue w ++ [t]) (sh_log w) ->
      x = LockWait k -> w' = w2 ->
      exists c, holds x c /\ sh_queue w' = sh_queue w ++ [t] /\ flow w' (H ++ c)).
    { intros w2 -> -> ->. exists []. split; [apply holds_none; eauto|].
      split; [reflexivity|]. rewrite app_nil_r. unfold flow; cbn; rewrite <- ?Es; exact Fl. }
    destruct (sh_owner w) as [o|] eqn:Eo.
    + injection Ad as <- <-. right. eapply Wait; eauto.
    + destruct (sh_queue w) as [|u queue] eqn:Eq.
      * refine (IH _ _ _ _ _ H _ Ad Fl HQ). apply H0.
      * injection Ad as <- <-. right. eapply Wait; eauto.
  - refine (IH _ _ _ _ _ H _ Ad Fl HQ). exact Sf.
  - injection Ad as <- <-. left. cbn. split; [auto|]. split; [reflexivity|].
    destruct Fl as [F1 F2]. split; cbn.
    + rewrite payloads_app; cbn. destruct q; cbn; rewrite ?app_nil_r; auto. now edestruct H0.
    + apply Forall_app. split; [exact F2|]. constructor; [|constructor].
      destruct q; cbn; auto. now edestruct H0.
  - refine (IH _ _ _ _ _ H _ Ad _ HQ); unfold flow; rewrite <- Es; auto. unfold unroll. apply safe_bind; auto.
    intros [x'|b] s'; [now apply sf_loop | auto].
Qed.

Notation pl A := (pool st sreq srep A).

Lemma set_nth_same A (l : list A) i x y : nth_error l i = Some y ->
  nth_error (set_nth l i x) i = Some x.
Proof.
  intros H. unfold set_nth. assert (i < length l)%nat by (apply nth_error_Some; congruence).
  rewrite nth_error_app2; rewrite firstn_length; [|lia].
  replace (i - min i (length l))%nat with 0%nat by lia. reflexivity.
Qed.

Lemma set_nth_other A (l : list A) i j x y : nth_error l i = Some y -> i <> j ->
  nth_error (set_nth l i x) j = nth_error l j.
Proof.
  revert i j. induction l as [|z l IH]; intros [|i] [|j] H N; try discriminate; auto.
  - now destruct N.
  - cbn. apply IH; auto.
Qed.

Definition queued {A} (ts : list (task st sreq srep A)) (t : nat) (c : list Z) : Prop :=
  exists x, nth_error ts t = Some x /\ holds x c.

Definition inv {A} (p : pl A) : Prop :=
  exists H : list (list Z),
    Forall2 (queued (po_tasks p)) (sh_queue (po_shared p)) H /\
    flow (po_shared p) (concat H) /\
    NoDup (sh_queue (po_shared p)) /\
    (forall t x, nth_error (po_tasks p) t = Some x ->
       ~ In t (sh_queue (po_shared p)) -> settled x).

Lemma queued_mono A ts ts' q H : Forall2 (@queued A ts) q H ->
  (forall t, In t q -> nth_error ts' t = nth_error ts t) -> Forall2 (queued ts') q H.
Proof.
  induction 1 as [|t c q H [x [E1 E2]] F IH]; intros E; constructor.
  - exists x. split; [|exact E2]. rewrite E; [exact E1 | now left].
  - apply IH. intros; apply E; now right.
Qed.

Lemma queued_lt A ts q H t : Forall2 (@queued A ts) q H -> In t q ->
  exists k, nth_error ts t = Some (LockWait k).
Proof.
  induction 1 as [|u c q H [x [E1 E2]] F IH]; intros I; [contradiction|].
  destruct I as [->|I]; auto. inversion E2; subst; eauto.
Qed.

(** A step by task [t], outside the queue, from a safe program. *)
Lemma inv_advance A (ts ts' : list (task st sreq srep A)) w t n (p : P A) x w' H :
  Forall2 (queued ts) (sh_queue w) H -> flow w (concat H) -> NoDup (sh_queue w) ->
  (forall u y, nth_error ts u = Some y -> u <> t -> ~ In u (sh_queue w) -> settled y) ->
  ~ In t (sh_queue w) ->
  safe (sh_st w) p -> advance n t p w = Some (x, w') ->
  nth_error ts' t = Some x ->
  (forall u y, nth_error ts' u = Some y -> u <> t -> nth_error ts u = Some y) ->
  (forall u, In u (sh_queue w) -> nth_error ts' u = nth_error ts u) ->
  inv (Pool ts' w').
Proof.
  intros F Fl ND St Nt Sf Ad E1 E2 E3.
  assert (HQ : sh_queue w = [] -> concat H = []).
  { intros E. rewrite E in F. now inversion F. }
  destruct (advance_safe _ _ _ _ _ _ _ _ Sf Ad Fl HQ) as [(S1 & S2 & S3)|(c & S1 & S2 & S3)].
  - exists H. cbn. rewrite S2. repeat split; try apply S3; auto.
    + eapply queued_mono; eauto.
    + intros u y Hu Nu. destruct (Nat.eq_dec u t) as [->|N].
      * rewrite E1 in Hu. injection Hu as <-. exact S1.
      * eapply St; eauto.
  - exists (H ++ [c]). cbn. rewrite S2, concat_app. cbn. rewrite app_nil_r.
    repeat split; try apply S3.
    + apply Forall2_app; [eapply queued_mono; eauto|].
      constructor; [|constructor]. exists x. auto.
    + apply NoDup_rev in ND. rewrite <- (rev_involutive (_ ++ [t])).
      apply NoDup_rev. rewrite rev_app_distr. constructor; auto.
      now rewrite <- in_rev.
    + intros u y Hu Nu. rewrite in_app_iff in Nu. cbn in Nu.
      apply (St u y); [apply E2; auto|..]; intuition.
Qed.

Definition fine_event {A} (e : event st sreq srep A) : Prop :=
  match e with
  | Spawn p => forall s, safe s p
  | Sync f => exists d, f = stream_write d
  | Answer _ _ | Grant => True
  | Cancel _ => False
  end.

Lemma inv_step A (p q : pl A) e : inv p -> fine_event e -> step p e q -> inv q.
Proof.
  intros (H & F & Fl & ND & St) Fe S. destruct S; cbn in *.
  - (* spawn *)
    assert (Nt : ~ In (length ts) (sh_queue w)).
    { intros I. destruct (queued_lt _ _ _ _ _ F I) as [k E].
      assert (length ts < length ts)%nat by (apply nth_error_Some; congruence). lia. }
    eapply inv_advance with (t := length ts); eauto.
    + rewrite nth_error_app2, Nat.sub_diag by lia. reflexivity.
    + intros u y Hu N. rewrite nth_error_app1 in Hu; auto.
      assert (u < length (ts ++ [x]))%nat by (apply nth_error_Some; congruence).
      rewrite app_length in *. cbn in *. lia.
    + intros u I. destruct (queued_lt _ _ _ _ _ F I) as [k E].
      apply nth_error_app1. apply nth_error_Some. congruence.
  - (* answer *)
    assert (Nt : ~ In t (sh_queue w)).
    { intros I. destruct (queued_lt _ _ _ _ _ F I) as [k' E]. congruence. }
    pose proof (St _ _ H0 Nt) as Sk. cbn in Sk.
    eapply inv_advance with (ts := ts) (t := t); eauto.
    + eapply set_nth_same; eauto.
    + intros u y Hu N. erewrite set_nth_other in Hu; eauto.
    + intros u I. eapply set_nth_other; eauto. congruence.
  - (* grant *)
    rewrite H1 in *. inversion F as [|t' c q' H' [y [Ey Hy]] F' Eq1 Eq2]; subst.
    rewrite Ey in H2. injection H2 as ->.
    inversion ND as [|? ? N1 N2]; subst.
    assert (St' : forall u y, nth_error ts u = Some y -> u <> t -> ~ In u queue -> settled y).
    { intros u z Hu Nu Iu. apply (St u z); auto. cbn. intuition. }
    assert (Et : nth_error (set_nth ts t x) t = Some x) by (eapply set_nth_same; eauto).
    assert (Eu : forall u, u <> t -> nth_error (set_nth ts t x) u = nth_error ts u)
      by (intros; eapply set_nth_other; eauto).
    inversion Hy as [k0 c0 k2 E1 E2 E3|k0 E1]; subst.
    + rewrite E1 in H3. destruct fuel as [|fuel]; [discriminate|].
      cbn in H3. injection H3 as <- <-.
      destruct Fl as [F1 F2]. exists H'. unfold flow. cbn [po_tasks po_shared sh_queue sh_log sh_st].
      split; [|split; [split|split]]; auto.
      * eapply queued_mono; [exact F'|]. intros u I. apply Eu. congruence.
      * rewrite payloads_app, concat_app. cbn. rewrite app_nil_r, <- F1. cbn.
        rewrite <- !app_assoc. reflexivity.
      * apply Forall_app. split; auto. constructor; [split; auto | constructor].
      * intros u z Hu Nu. destruct (Nat.eq_dec u t) as [->|N].
        { rewrite Et in Hu. injection Hu as <-. exact E3. }
        { rewrite Eu in Hu by auto. eapply St'; eauto. }
    + refine (inv_advance _ ts _ (Shared (sh_st w) (Some t) queue (sh_log w)) t fuel _ x w' H' F' Fl N2 St' N1 _ H3 Et _ _); auto.
      * intros u z Hu Nu. now rewrite <- Eu by exact Nu.
      * intros u I. apply Eu. intros ->. exact (N1 I).
  - (* sync *)
    destruct Fe as [d ->]. exists H. cbn. repeat split; auto; apply Fl || idtac.
    destruct Fl as [F1 F2]. cbn. rewrite <- F1, <- !app_assoc. reflexivity.
  - contradiction.
  - contradiction.
Qed.

Lemma inv_steps A s (es : list (event st sreq srep A)) q :
  s_write s = [] -> s_written s = [] ->
  steps (start s) es q -> Forall fine_event es -> inv q.
Proof.
  intros E1 E2 S. remember (start s) as p. induction S as [p|p q r es e S IH S1]; subst.
  - intros _. exists []. cbn. repeat split; cbn; auto.
    + now rewrite E1, E2.
    + constructor.
    + intros [|t] x; discriminate.
  - intros F. apply Forall_app in F. destruct F as [F1 F2].
    inversion F2; subst. eapply inv_step; eauto.
Qed.

End S.
Arguments safe {T} channel {A} s p.
