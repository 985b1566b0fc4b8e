(** C61: reading telemetry: which messages are sent, and what is returned. *)
From Coq Require Import Ascii String ZArith List Bool Lia ZifyBool ZifyNat.
From Verif Require Import PyBase PyBytes Async Async_Proofs Serial Async_Inv Stream_Model Stream_Safe Props_Stream Telemetry_Spec.
Import ListNotations.
Open Scope Z_scope.
Ltac Zify.zify_post_hook ::= Z.div_mod_to_equations.

(** ** Coroutines that keep an invariant of the attributes *)
Section Keeps.
Context {St Req Rep : Type}.
Variable inv : St -> Prop.
Notation prog := (prog St Req Rep).

Inductive keeps : forall A, prog A -> Prop :=
| kp_ret A (a : A) : keeps A (Ret a)
| kp_throw A e : keeps A (Throw e)
| kp_get A k : (forall s, inv s -> keeps A (k s)) -> keeps A (Get k)
| kp_put A s k : inv s -> keeps A k -> keeps A (Put s k)
| kp_acquire A k : (forall r, keeps A (k r)) -> keeps A (Acquire k)
| kp_release A k : keeps A k -> keeps A (Release k)
| kp_await A q k : (forall r, keeps A (k r)) -> keeps A (Await q k)
| kp_loop A X B (body : X -> prog (X + B)) x (k : B -> prog A) :
    (forall x, keeps _ (body x)) -> (forall b, keeps A (k b)) -> keeps A (Loop body x k).

Lemma keeps_bind A (p : prog A) : keeps A p -> forall B (f : A -> prog B), (forall a, keeps B (f a)) -> keeps B (pbind p f).
Proof. induction 1; intros C f Hf; cbn; try (constructor; auto; fail); auto. Qed.

Lemma keeps_catch A (p : prog A) : keeps A p -> keeps _ (catch p).
Proof.
  induction 1; cbn; try (constructor; auto; fail). constructor.
  - intros y. apply keeps_bind; [auto|]. intros a. constructor.
  - intros [b|e]; [auto|constructor].
Qed.

Lemma keeps_lift A (r : res A) : keeps _ (lift r).
Proof. destruct r; constructor. Qed.

Lemma keeps_locked A (p : prog A) : keeps A p -> keeps A (with_lock p).
Proof.
  intros H. constructor. intros [u|e]; [|constructor]. apply keeps_bind; [now apply keeps_catch|].
  intros a. constructor. apply keeps_lift.
Qed.

Definition final {A} (o : outcome St Req Rep A) : St :=
  match o with Returned _ s _ => s | Raised _ s _ => s | Waiting s _ => s end.

Lemma keeps_run A n : forall (p : prog A) s rs o qs, keeps A p -> inv s -> run n p s rs = Some (o, qs) -> inv (final o).
Proof.
  induction n as [|n IH]; intros p s rs o qs K I H; [discriminate|].
  destruct K; cbn in H.
  - injection H as <- <-. exact I.
  - injection H as <- <-. exact I.
  - eauto.
  - eauto.
  - eauto.
  - eauto.
  - destruct rs as [|r rs]; [injection H as <- <-; exact I|].
    destruct (run n (k r) s rs) as [[o' q']|] eqn:E; [|discriminate]. injection H as <- <-. eauto.
  - eapply IH; [|exact I|exact H]. apply keeps_bind; [auto|]. intros [y|b]; [constructor; auto|auto].
Qed.

Lemma keeps_runs A (p : prog A) s rs o qs : keeps A p -> inv s -> runs p s rs o qs -> inv (final o).
Proof. intros K I [n H]. eapply keeps_run; eauto. Qed.
End Keeps.

(** More answers than are needed change nothing. *)
Lemma run_more {St Req Rep} A n : forall (p : prog St Req Rep A) s rs r s1 rs1 qs more,
  run n p s rs = Some (finish r s1 rs1, qs) -> run n p s (rs ++ more) = Some (finish r s1 (rs1 ++ more), qs).
Proof.
  induction n as [|n IH]; intros p s rs r s1 rs1 qs more H; [discriminate|].
  destruct p; cbn in H |- *; auto.
  - destruct r; try discriminate. injection H as <- <- <- <-. reflexivity.
  - destruct r; try discriminate. injection H as <- <- <- <-. reflexivity.
  - destruct rs as [|x rs]; [destruct r; discriminate|]. cbn.
    destruct (run n (k x) s rs) as [[o1 q1]|] eqn:E; [|discriminate]. injection H as -> <-.
    now rewrite (IH _ _ _ _ _ _ _ more E).
Qed.

Lemma runs_more {St Req Rep} A (p : prog St Req Rep A) s rs r s1 rs1 qs more :
  runs p s rs (finish r s1 rs1) qs -> runs p s (rs ++ more) (finish r s1 (rs1 ++ more)) qs.
Proof. intros [n H]. exists n. now apply run_more. Qed.

Section Telemetry.
Context {T V : Type}.
Variable from_binary : list Z -> res T.
Variable read_value : T -> list Z -> res V.
Variable channel : Z.
Notation st := (@sst T).
Notation P := (prog st sreq srep).
Notation read_data := (read_data from_binary read_value channel).

(** ** What is sent *)
Definition same (s0 s : st) : Prop := s_written s = s_written s0 /\ s_readers s = s_readers s0.

Lemma keeps_drain s0 : keeps (same s0) _ (drain channel).
Proof.
  constructor; [|intros; constructor]. intros _. constructor. intros s I. match goal with |- context [if ?c then _ else _] => destruct c end; [|constructor].
  constructor; [exact I|]. apply keeps_bind; [|intros; constructor]. apply keeps_locked. constructor. intros r. apply keeps_lift.
Qed.

Lemma keeps_fetch s0 B n : keeps (same s0) _ (@fetch T channel B n).
Proof.
  apply keeps_bind; [apply keeps_locked; constructor; intros; apply keeps_lift|]. intros rs. constructor. intros s I.
  constructor; [exact I|]. destruct (_ =? 0)%nat; [|constructor]. apply keeps_bind; [constructor; intros; apply keeps_lift|constructor].
Qed.

Lemma keeps_read s0 n b : keeps (same s0) _ (stream_read channel n b).
Proof.
  constructor.
  - intros _. constructor. intros s I. match goal with |- context [if ?c then _ else _] => destruct c end; [apply keeps_fetch|constructor].
  - intros _. constructor. intros s I. constructor; [exact I|constructor].
Qed.

Lemma keeps_readline s0 : keeps (same s0) _ (readline channel).
Proof.
  constructor; [|intros; constructor]. intros _. apply keeps_bind.
  - constructor.
    + intros _. constructor. intros s I. destruct (bytes_find LF (s_read s)), (bytes_find CR (s_read s)); first [apply kp_ret | apply keeps_fetch].
    + intros _. constructor. intros s I. destruct (find_newline (s_read s)); [constructor; [exact I|constructor]|constructor].
  - intros raw. cbv zeta. match goal with |- context [if ?c then _ else _] => destruct c end; constructor.
Qed.

Lemma keeps_until s0 : keeps (same s0) _ (read_until_OK channel).
Proof.
  constructor; [|intros; constructor]. intros r. apply keeps_bind; [apply keeps_readline|]. intros line.
  destruct (startswith (lit "OK") line); [constructor|]. destruct (startswith (lit "ERR") line); constructor.
Qed.

Lemma keeps_blob s0 : keeps (same s0) _ (read_binary_blob channel).
Proof.
  apply keeps_bind; [apply keeps_read|]. intros [|b rest]; [constructor|]. destruct (b =? 10); [|constructor].
  match goal with |- context [if ?c then _ else _] => destruct c end; [apply keeps_read|constructor].
Qed.

Lemma stops_final A B (o : outcome st sreq srep A) (o' : outcome st sreq srep B) : stops o o' -> final o' = final o /\ forall v s rs, o' <> Returned v s rs.
Proof. destruct o, o'; cbn; try contradiction; intros H; decompose [and] H; subst; split; auto; discriminate. Qed.

(** [sends p s W R ok]: however [p] ends, [W] and [R] hold of what it sent and the known schemas; [ok] if it returns. *)
Lemma message_runs data (s : st) rs o qs : runs (write_message channel data) s rs o qs ->
  s_written (final o) = s_written s ++ data ++ [LF] /\ s_readers (final o) = s_readers s.
Proof.
  intros [n H]. destruct n as [|[|n]]; try discriminate. cbn in H.
  apply (keeps_run (same (stream_write (data ++ [LF]) s))) in H; [exact H|apply keeps_drain|split; reflexivity].
Qed.

Definition known (s : st) (name : list Z) : bool :=
  match lookup_reader (s_readers s) name with Some _ => true | None => false end.

Lemma get_runs A k (s : st) rs (o : outcome st sreq srep A) qs : runs (Get k) s rs o qs -> runs (k s) s rs o qs.
Proof. intros [n H]. destruct n; [discriminate|]. now exists n. Qed.
Lemma put_runs A k (s s' : st) rs (o : outcome st sreq srep A) qs : runs (Put s' k) s rs o qs -> runs k s' rs o qs.
Proof. intros [n H]. destruct n; [discriminate|]. now exists n. Qed.
Lemma ret_runs A (a : A) (s : st) rs (o : outcome st sreq srep A) (qs : list sreq) : runs (Ret a) s rs o qs -> o = Returned a s rs.
Proof. intros [n H]. destruct n; [discriminate|]. cbn in H. now injection H as <- _. Qed.
Lemma throw_runs A e (s : st) rs (o : outcome st sreq srep A) (qs : list sreq) : runs (Throw e) s rs o qs -> o = Raised e s rs.
Proof. intros [n H]. destruct n; [discriminate|]. cbn in H. now injection H as <- _. Qed.

(** The second half of read_data. *)
Definition value_part (name : list Z) : P V :=
  Get (fun s =>
    match lookup_reader (s_readers s) name with
    | None => Throw KeyError
    | Some reader =>
        do _ <- write_message channel (lit "tel get " ++ name);
        do announce <- readline channel;
        if bytes_eqb announce (lit "emit " ++ name) then
          do data <- read_binary_blob channel;
          lift (read_value reader data)
        else Throw RuntimeError
    end).

Lemma value_runs name s rs o qs : runs (value_part name) s rs o qs -> known s name = true ->
  s_written (final o) = s_written s ++ ask_value name /\ s_readers (final o) = s_readers s.
Proof.
  intros H K. apply get_runs in H. unfold known in K. destruct (lookup_reader _ _) as [t|]; [|discriminate].
  apply runs_bind_inv in H as [(a & s1 & rs1 & q1 & q2 & M & H & _)|(o' & M & S)]; apply message_runs in M as [M1 M2].
  - cbn [final] in M1, M2. assert (X : same s1 (final o)).
    { eapply (keeps_runs (same s1)); [|split; reflexivity|exact H].
      apply keeps_bind; [apply keeps_readline|]. intros x. match goal with |- context [if ?c then _ else _] => destruct c end; [|constructor].
      apply keeps_bind; [apply keeps_blob|]. intros; apply keeps_lift. }
    destruct X as [X1 X2]. rewrite X1, X2, M1, M2. unfold ask_value. rewrite <- !app_assoc. auto.
  - apply stops_final in S as [-> _]. unfold ask_value. rewrite M1, M2, <- !app_assoc. auto.
Qed.

(** The first half, when the schema is not known. *)
Definition schema_part (name : list Z) : P unit :=
  do _ <- write_message channel (lit "tel schema " ++ name);
  do announce <- readline channel;
  if bytes_eqb announce (lit "schema " ++ name) then
    do schema <- read_binary_blob channel;
    do t <- lift (from_binary schema);
    Get (fun s => Put {| s_read := s_read s; s_write := s_write s;
                         s_readers := (name, t) :: s_readers s;
                         s_written := s_written s |}
      (do _ <- command channel (lit "tel fmt " ++ name ++ lit " 0") false;
       Ret tt))
  else Throw RuntimeError.

Lemma read_data_parts name : read_data name =
  pbind (Get (fun s => match lookup_reader (s_readers s) name with Some _ => Ret tt | None => schema_part name end))
        (fun _ => value_part name).
Proof. reflexivity. Qed.

Lemma same_runs A (p : P A) s rs o qs : (forall s0, keeps (same s0) _ p) -> runs p s rs o qs ->
  s_written (final o) = s_written s /\ s_readers (final o) = s_readers s.
Proof. intros K H. apply (keeps_runs (same s) _ _ _ _ _ _ (K s)) in H; [exact H|split; reflexivity]. Qed.

Lemma schema_runs name s rs o qs : runs (schema_part name) s rs o qs ->
  (s_written (final o) = s_written s ++ ask_schema name /\ s_readers (final o) = s_readers s /\ (forall u s' r, o <> Returned u s' r)) \/
  (s_written (final o) = s_written s ++ ask_schema name ++ ask_binary name /\ exists t, s_readers (final o) = (name, t) :: s_readers s).
Proof.
  intros H. unfold schema_part in H.
  apply runs_bind_inv in H as [(a & s1 & r1 & q1 & q2 & M & H & _)|(o' & M & S)]; apply message_runs in M as [M1 M2]; cbn [final] in *.
  2: { apply stops_final in S as [-> S]. left. rewrite M1, M2, <- !app_assoc. auto. }
  rewrite <- app_assoc in M1. change (lit "tel schema " ++ name ++ [LF]) with (ask_schema name) in M1.
  apply runs_bind_inv in H as [(x & s2 & r2 & q3 & q4 & R & H & _)|(o' & R & S)]; apply (same_runs _ _ _ _ _ _ (fun z => keeps_readline z)) in R as [R1 R2]; cbn [final] in *.
  2: { apply stops_final in S as [-> S]. left. rewrite R1, R2, M1, M2. auto. }
  destruct (bytes_eqb x _).
  2: { apply throw_runs in H. subst o. left. cbn [final]. rewrite R1, R2, M1, M2. repeat split; auto. discriminate. }
  apply runs_bind_inv in H as [(b & s3 & r3 & q5 & q6 & B & H & _)|(o' & B & S)]; apply (same_runs _ _ _ _ _ _ (fun z => keeps_blob z)) in B as [B1 B2]; cbn [final] in *.
  2: { apply stops_final in S as [-> S]. left. rewrite B1, B2, R1, R2, M1, M2. auto. }
  destruct (from_binary b) as [t|e]; cbn [lift pbind] in H.
  2: { apply throw_runs in H. subst o. left. cbn [final]. rewrite B1, B2, R1, R2, M1, M2. repeat split; auto. discriminate. }
  apply get_runs, put_runs in H. right. unfold command in H.
  assert (W : s_written (final o) = s_written s3 ++ ask_binary name /\ s_readers (final o) = (name, t) :: s_readers s3).
  { apply runs_bind_inv in H as [(y & s4 & r4 & q7 & q8 & C & H & _)|(o' & C & S)].
    - apply ret_runs in H. subst o. cbn [final].
      apply runs_bind_inv in C as [(z & s5 & r5 & q9 & qa & D & C & _)|(o' & D & S)]; apply message_runs in D as [D1 D2]; cbn [final s_written s_readers] in *.
      + apply (same_runs _ _ _ _ _ _ (fun z => keeps_until z)) in C as [C1 C2]. cbn [final] in C1, C2. rewrite C1, C2, D1, D2.
        unfold ask_binary. rewrite <- !app_assoc. auto.
      + apply stops_final in S as [_ S]. now contradiction (S y s4 r4).
    - apply stops_final in S as [-> _].
      apply runs_bind_inv in C as [(z & s5 & r5 & q9 & qa & D & C & _)|(o2 & D & S)]; apply message_runs in D as [D1 D2]; cbn [final s_written s_readers] in *.
      + apply (same_runs _ _ _ _ _ _ (fun z => keeps_until z)) in C as [C1 C2]. rewrite C1, C2, D1, D2.
        unfold ask_binary. rewrite <- !app_assoc. auto.
      + apply stops_final in S as [-> _]. rewrite D1, D2. unfold ask_binary. rewrite <- !app_assoc. auto. }
  destruct W as [W1 W2]. rewrite W1, W2, B1, B2, R1, R2, M1, M2, <- app_assoc. split; [reflexivity|]. now exists t.
Qed.

Lemma known_new (s : st) name t readers m : s_readers s = (name, t) :: readers ->
  known s m = bytes_eqb name m || match lookup_reader readers m with Some _ => true | None => false end.
Proof. intros E. unfold known. rewrite E. cbn. destruct (bytes_eqb name m); reflexivity. Qed.

Lemma bytes_eqb_eq (a b : list Z) : bytes_eqb a b = true <-> a = b.
Proof.
  revert b. induction a as [|x a IH]; intros [|y b]; cbn; split; intros H; try discriminate; auto.
  - apply andb_true_iff in H as [H1 H2]. apply Z.eqb_eq in H1. apply IH in H2. now subst.
  - injection H as -> ->. apply andb_true_iff. split; [apply Z.eqb_refl|now apply IH].
Qed.

Lemma bytes_eqb_refl l : bytes_eqb l l = true.
Proof. now apply bytes_eqb_eq. Qed.

(** One call: what it sent and which schemas are known afterwards. *)
Lemma call_runs name s rs o qs : runs (read_data name) s rs o qs ->
  exists n, s_written (final o) = s_written s ++ concat (firstn n (requests (known s name) name)) /\
    (known s name = true -> s_readers (final o) = s_readers s) /\
    (s_readers (final o) = s_readers s \/ exists t, s_readers (final o) = (name, t) :: s_readers s) /\
    forall v s' rest, o = Returned v s' rest -> n = length (requests (known s name) name) /\ known s' name = true.
Proof.
  intros H. rewrite read_data_parts in H.
  destruct (known s name) eqn:K.
  - assert (H' : runs (value_part name) s rs o qs).
    { apply runs_bind_inv in H as [(a & s1 & r1 & q1 & q2 & G & H & ->)|(o' & G & S)]; apply get_runs in G; unfold known in K;
        destruct (lookup_reader _ _); try discriminate; destruct G as [m G]; destruct m; try discriminate; cbn in G.
      - injection G as <- <- <- <-. exact H.
      - injection G as <- <-. contradiction. }
    pose proof (value_runs _ _ _ _ _ H' K) as [W R]. exists 1%nat. cbn [requests firstn concat]. rewrite app_nil_r.
    repeat split; auto. subst o. unfold known in *. cbn [final] in R. now rewrite R.
  - apply runs_bind_inv in H as [(a & s1 & r1 & q1 & q2 & G & H & ->)|(o' & G & S)]; apply get_runs in G; unfold known in K;
      destruct (lookup_reader (s_readers s) name) eqn:L; try discriminate; apply schema_runs in G.
    + destruct G as [(_ & _ & N)|(W1 & t & R1)]; [now contradiction (N a s1 r1)|]. cbn [final] in W1, R1.
      assert (K1 : known s1 name = true) by (rewrite (known_new _ _ _ _ _ R1), bytes_eqb_refl; reflexivity).
      pose proof (value_runs _ _ _ _ _ H K1) as [W R]. exists 3%nat. cbn [requests firstn concat]. rewrite W, R, W1, R1, app_nil_r, <- !app_assoc.
      repeat split; try discriminate; eauto. subst o. unfold known in *. cbn [final] in R. now rewrite R.
    + apply stops_final in S as [E N]. rewrite E. destruct G as [(W1 & R1 & _)|(W1 & t & R1)]; rewrite W1, R1.
      * exists 1%nat. cbn [requests firstn concat]. rewrite app_nil_r. repeat split; try discriminate; auto; exfalso; eapply N; eauto.
      * exists 2%nat. cbn [requests firstn concat]. rewrite app_nil_r. repeat split; try discriminate; eauto; exfalso; eapply N; eauto.
Qed.

(** However a call ends, it has sent the first few of these messages, and all of them if it returned. *)
Theorem C61_requests : forall name s rs o qs, runs (read_data name) s rs o qs ->
  exists n, s_written (final o) = s_written s ++ concat (firstn n (requests (known s name) name)) /\
    forall v s' rest, o = Returned v s' rest -> n = length (requests (known s name) name).
Proof. intros name s rs o qs H. apply call_runs in H as (n & W & _ & _ & R). exists n. split; [exact W|]. intros v s' rest E. now apply R in E. Qed.

(** One call after the other. *)
Fixpoint read_all (names : list (list Z)) : P (list V) :=
  match names with
  | [] => Ret []
  | name :: names => do v <- read_data name; do vs <- read_all names; Ret (v :: vs)
  end.

Lemma all_runs names : forall l s rs vs s' rest qs, (forall m, known s m = existsb (bytes_eqb m) l) ->
  runs (read_all names) s rs (Returned vs s' rest) qs ->
  s_written s' = s_written s ++ concat (all_requests l names).
Proof.
  induction names as [|name names IH]; intros l s rs vs s' rest qs K H.
  - apply ret_runs in H. injection H as -> -> ->. cbn. now rewrite app_nil_r.
  - cbn [read_all] in H. apply runs_bind_inv in H as [(v & s1 & r1 & q1 & q2 & G & H & _)|(o' & _ & S)]; [|now apply stops_final in S as [_ S]; contradiction (S vs s' rest)].
    apply runs_bind_inv in H as [(ws & s2 & r2 & q3 & q4 & F & H & _)|(o' & _ & S)]; [|now apply stops_final in S as [_ S]; contradiction (S vs s' rest)].
    apply ret_runs in H. injection H as -> -> ->. apply call_runs in G as (n & W & R1 & R2 & N). cbn [final] in W, R1, R2.
    destruct (N _ _ _ eq_refl) as [-> Kn]. rewrite firstn_all in W. apply (IH (name :: l)) in F.
    + rewrite F, W. cbn [all_requests]. rewrite concat_app, <- K, app_assoc. reflexivity.
    + intros m. cbn [existsb]. rewrite <- K. destruct R2 as [R2|(t & R2)].
      * unfold known in *. rewrite R2 in *. destruct (bytes_eqb m name) eqn:E; [|reflexivity]. apply bytes_eqb_eq in E. subst m. exact Kn.
      * rewrite (known_new _ _ _ _ m R2). unfold known. f_equal.
        destruct (bytes_eqb name m) eqn:A, (bytes_eqb m name) eqn:B; auto; [apply bytes_eqb_eq in A; subst; now rewrite bytes_eqb_refl in B|apply bytes_eqb_eq in B; subst; now rewrite bytes_eqb_refl in A].
Qed.

(** Calls one after the other on a new Stream, all of which return: the schema of each name is asked for
    once, before its first value. *)
Theorem C61_schema_once : forall names rs vs s' rest qs,
  runs (read_all names) stream_init rs (Returned vs s' rest) qs ->
  s_written s' = concat (all_requests [] names).
Proof. intros names rs vs s' rest qs H. apply (all_runs names []) in H; [exact H|reflexivity]. Qed.
(** ** What is returned *)

(** [frags] are just what the reading operation [f] needs, after what is buffered. *)
Definition exactly {A} (f : reading A) (buf : list Z) (frags : list srep) (r : res A) (rest : list Z) : Prop :=
  exists g l, frags = g ++ [l] /\ f (buf ++ arrived frags) = Some (r, rest) /\ f (buf ++ arrived g) = None.

Lemma answers_app a b : answers (a ++ b) = answers a ++ answers b.
Proof. induction a as [|f a IH]; [reflexivity|]. cbn. rewrite IH, <- app_assoc. reflexivity. Qed.

Lemma arrived_app a b : arrived (a ++ b) = arrived a ++ arrived b.
Proof. unfold arrived. now rewrite map_app, concat_app. Qed.

Lemma exact_reads A (p : P A) f s frags r rest more : reads_as channel p f -> exactly f (s_read s) frags r rest ->
  exists qs, runs p s (answers frags ++ more) (finish r (set_read s rest) more) qs.
Proof.
  intros H (g & l & -> & F & N). pose proof (H s (g ++ [l])) as H1. pose proof (H s g) as H2. rewrite F in H1. rewrite N in H2.
  destruct H1 as (frags' & buf & qs & R & E). destruct H2 as (s2 & n & qs2 & R2).
  assert (R' : runs p s (answers (g ++ [l])) (finish r (set_read s buf) (answers frags')) qs) by (destruct r; exact R). clear R.
  assert (J : joined l <> []).
  { intros J. rewrite arrived_app in F. unfold arrived in F at 2. cbn [map concat] in F. rewrite J, !app_nil_r in F. congruence. }
  assert (B : frags' = []).
  { destruct (runs_used _ _ _ _ _ _ _ _ R') as (used & U & _ & Ru). rewrite answers_app in U. cbn [answers] in U.
    destruct (joined l) as [|x y] eqn:Jl; [congruence|]. cbn [app] in U.
    destruct frags' as [|f' frags']; [reflexivity|]. exfalso.
    destruct (exists_last (l := answers (f' :: frags'))) as (w & z & Ew); [cbn; discriminate|].
    rewrite Ew, app_assoc in U. apply app_inj_tail in U as [U _].
    pose proof (runs_more _ _ _ _ _ _ _ _ w Ru) as R3. rewrite <- U in R3. cbn [app] in R3.
    destruct (runs_det _ _ _ _ _ _ _ _ R3 R2) as [D _]. destruct r; discriminate D. }
  subst frags'. cbn in E, R'. unfold arrived in E. cbn in E. rewrite app_nil_r in E. subst buf.
  exists qs. exact (runs_more _ _ _ _ _ _ _ _ more R').
Qed.

(** A line that is [announce], then a blob. *)
Definition sp_announced (announce : list Z) : reading (list Z) := fun l =>
  match sp_readline l with
  | Some (Ok x, r) => if bytes_eqb x announce then sp_blob r else Some (Raise RuntimeError, r)
  | Some (Raise e, r) => Some (Raise e, r)
  | None => None
  end.
Definition announced (announce : list Z) : P (list Z) :=
  do x <- readline channel; if bytes_eqb x announce then read_binary_blob channel else Throw RuntimeError.

Lemma reads_announced a : reads_as channel (announced a) (sp_announced a).
Proof.
  unfold announced, sp_announced. eapply reads_ext; [|apply reads_bind with (g := fun x => if bytes_eqb x a then sp_blob else fun l => Some (Raise RuntimeError, l)); [apply (C21_readline from_binary read_value)|]].
  - intros l. cbv beta. destruct (sp_readline l) as [[[x|e] r]|]; auto. destruct (bytes_eqb x a); reflexivity.
  - intros x. destruct (bytes_eqb x a); [apply (C21_read_binary_blob from_binary read_value)|apply reads_throw].
Qed.

Lemma announced_then A a (K : list Z -> P A) s rs o qs : runs (pbind (announced a) K) s rs o qs ->
  runs (do x <- readline channel; if bytes_eqb x a then do d <- read_binary_blob channel; K d else Throw RuntimeError) s rs o qs.
Proof.
  apply runs_peq, peq_sym. unfold announced. apply pbind_assoc. intros x. destruct (bytes_eqb x a); apply peq_refl.
Qed.

Lemma message_ok data (s : st) (acks : list srep) more : s_write s = [] -> length acks = ((length data + 61) / 61)%nat ->
  exists cs, concat cs = data ++ [LF] /\
    runs (write_message channel data) s (map Ok acks ++ more) (Returned tt (set_write (stream_write (data ++ [LF]) s) []) more)
      (map (fun c => DiagWrite c channel) cs).
Proof.
  intros Ew Ea. destruct (C20_drain_alone channel (length data + 1) (stream_write (data ++ [LF]) s) acks more) as (cs & R & E1 & _).
  { cbn. rewrite Ew. cbn. now rewrite app_length. }
  { rewrite Ea. f_equal. lia. }
  exists cs. split; [rewrite E1; cbn; now rewrite Ew|]. apply runs_get, runs_put. exact R.
Qed.

Lemma value_ok name s t data acks frags rest more : lookup_reader (s_readers s) name = Some t -> s_write s = [] ->
  length acks = ((length (ask_value name) + 60) / 61)%nat ->
  exactly (sp_announced (lit "emit " ++ name)) (s_read s) frags (Ok data) rest ->
  exists s' qs, runs (value_part name) s (map Ok acks ++ answers frags ++ more) (finish (read_value t data) s' more) qs /\
    s_read s' = rest /\ s_write s' = [] /\ s_readers s' = s_readers s /\ s_written s' = s_written s ++ ask_value name.
Proof.
  intros L W A E. unfold ask_value in *. destruct (message_ok (lit "tel get " ++ name) s acks (answers frags ++ more) W) as (cs & _ & M).
  { rewrite A. f_equal. rewrite !app_length. cbn. lia. }
  set (s1 := set_write (stream_write ((lit "tel get " ++ name) ++ [LF]) s) []) in *.
  destruct (exact_reads _ _ _ s1 frags (Ok data) rest more (reads_announced (lit "emit " ++ name)) E) as (qs & R).
  exists (set_read s1 rest). eexists. split; [|unfold s1; cbn [set_read set_write stream_write s_read s_write s_readers s_written]; rewrite <- app_assoc; auto].
  apply runs_get. rewrite L. eapply runs_bind; [exact M|]. apply announced_then. eapply runs_bind; [exact R|].
  destruct (read_value t data); [apply runs_ret|apply runs_throw].
Qed.

(** The schema is known: the value is the device's last blob, read with it, wherever the replies are cut. *)
Theorem C61_known_value : forall name s t data acks frags rest more,
  lookup_reader (s_readers s) name = Some t -> s_write s = [] ->
  length acks = ((length (ask_value name) + 60) / 61)%nat ->
  exactly (sp_announced (lit "emit " ++ name)) (s_read s) frags (Ok data) rest ->
  exists s' qs, runs (read_data name) s (map Ok acks ++ answers frags ++ more) (finish (read_value t data) s' more) qs /\
    s_read s' = rest /\ s_write s' = [] /\ s_readers s' = s_readers s /\ s_written s' = s_written s ++ ask_value name.
Proof.
  intros name s t data acks frags rest more L W A E.
  destruct (value_ok _ _ _ _ _ _ _ more L W A E) as (s' & qs & R & X). exists s', ([] ++ qs). split; [|exact X].
  rewrite read_data_parts. eapply runs_bind; [|exact R]. apply runs_get. rewrite L. apply runs_ret.
Qed.

(** The schema is not known: the device is asked for it, then for binary data, then for the value, which
    is read with the schema that was sent. *)
Theorem C61_first_value : forall name s schema t data acks1 frags1 rest1 acks2 frags2 text rest2 acks3 frags3 rest3 more,
  lookup_reader (s_readers s) name = None -> s_write s = [] ->
  length acks1 = ((length (ask_schema name) + 60) / 61)%nat ->
  exactly (sp_announced (lit "schema " ++ name)) (s_read s) frags1 (Ok schema) rest1 ->
  from_binary schema = Ok t ->
  length acks2 = ((length (ask_binary name) + 60) / 61)%nat ->
  exactly (sp_until_OK [] []) rest1 frags2 (Ok text) rest2 ->
  length acks3 = ((length (ask_value name) + 60) / 61)%nat ->
  exactly (sp_announced (lit "emit " ++ name)) rest2 frags3 (Ok data) rest3 ->
  exists s' qs,
    runs (read_data name) s
      ((map Ok acks1 ++ answers frags1) ++ (map Ok acks2 ++ answers frags2) ++ (map Ok acks3 ++ answers frags3) ++ more)
      (finish (read_value t data) s' more) qs /\
    s_read s' = rest3 /\ s_write s' = [] /\ lookup_reader (s_readers s') name = Some t /\
    s_written s' = s_written s ++ ask_schema name ++ ask_binary name ++ ask_value name.
Proof.
  intros name s schema t data acks1 frags1 rest1 acks2 frags2 text rest2 acks3 frags3 rest3 more L W A1 E1 B A2 E2 A3 E3.
  unfold ask_schema, ask_binary in *. rewrite <- !app_assoc.
  destruct (message_ok (lit "tel schema " ++ name) s acks1 (answers frags1 ++ map Ok acks2 ++ answers frags2 ++ map Ok acks3 ++ answers frags3 ++ more) W) as (c1 & _ & M1).
  { rewrite A1. f_equal. rewrite !app_length. cbn. lia. }
  set (s1 := set_write (stream_write ((lit "tel schema " ++ name) ++ [LF]) s) []) in *.
  destruct (exact_reads _ _ _ s1 frags1 _ _ (map Ok acks2 ++ answers frags2 ++ map Ok acks3 ++ answers frags3 ++ more) (reads_announced (lit "schema " ++ name)) E1) as (q1 & R1).
  set (s2 := {| s_read := rest1; s_write := []; s_readers := (name, t) :: s_readers s; s_written := s_written s1 |}).
  destruct (message_ok (lit "tel fmt " ++ name ++ lit " 0") s2 acks2 (answers frags2 ++ map Ok acks3 ++ answers frags3 ++ more) eq_refl) as (c2 & _ & M2).
  { rewrite A2. f_equal. rewrite !app_length. cbn. lia. }
  set (s3 := set_write (stream_write ((lit "tel fmt " ++ name ++ lit " 0") ++ [LF]) s2) []) in *.
  destruct (exact_reads _ _ _ s3 frags2 _ _ (map Ok acks3 ++ answers frags3 ++ more) (C21_read_until_OK from_binary read_value channel) E2) as (q2 & R2).
  set (s4 := set_read s3 rest2) in *.
  assert (L4 : lookup_reader (s_readers s4) name = Some t) by (cbn; now rewrite bytes_eqb_refl).
  destruct (value_ok name s4 t data acks3 frags3 rest3 more L4 eq_refl A3 E3) as (s' & q3 & R3 & X1 & X2 & X3 & X4).
  exists s'. eexists. split; [|rewrite X1, X2, X3, X4; unfold s4, s3, s2, s1; cbn [set_read set_write stream_write s_read s_write s_readers s_written lookup_reader]; rewrite bytes_eqb_refl; repeat split; rewrite <- !app_assoc; reflexivity].
  rewrite read_data_parts. eapply runs_bind; [|exact R3]. apply runs_get. rewrite L. unfold schema_part.
  eapply runs_bind; [exact M1|]. apply announced_then. eapply runs_bind; [exact R1|]. rewrite B. cbn [lift pbind].
  apply runs_get, runs_put. eapply runs_bind; [|apply runs_ret]. unfold command. eapply runs_bind; [exact M2|exact R2].
Qed.
End Telemetry.

(** ** Examples *)
Section Examples.
(** Schemas and values are their bytes. *)
Notation rd := (read_data (fun l => @Ok (list Z) l) (fun t l => @Ok (list Z) (t ++ l)) 1).
Notation rds := (read_all (fun l => @Ok (list Z) l) (fun t l => @Ok (list Z) (t ++ l)) 1).
Definition text_schema : list srep := [[Some (lit "schema x" ++ [13])]; []; [Some [10; 2; 0; 0; 0; 5; 6]]].
Definition text_value (v : Z) : list srep := [[Some (lit "emit x" ++ [13; 10])]; [Some [1; 0; 0; 0]; Some [v]]].
Definition text_ok : list srep := [[Some (lit "OK" ++ [13; 10])]].

(** Two values of one name: the schema is asked for once. *)
Example ex_twice : exists s' qs,
  runs (rds [lit "x"; lit "x"]) stream_init
    (([Ok []] ++ answers text_schema) ++ ([Ok []] ++ answers text_ok) ++ ([Ok []] ++ answers (text_value 7)) ++ [Ok []] ++ answers (text_value 8))
    (Returned [[5; 6; 7]; [5; 6; 8]] s' []) qs /\
  s_written s' = lit "tel schema x" ++ [10] ++ lit "tel fmt x 0" ++ [10] ++ lit "tel get x" ++ [10] ++ lit "tel get x" ++ [10].
Proof. eexists _, _. split; [exists 400%nat; vm_compute; reflexivity|vm_compute; reflexivity]. Qed.

(** These replies are just what is needed. *)
Example ex_exactly : exactly (sp_announced (lit "schema x")) [] text_schema (Ok [5; 6]) [] /\
  exactly (sp_until_OK [] []) [] text_ok (Ok []) [10] /\
  exactly (sp_announced (lit "emit x")) [10] (text_value 7) (Ok [7]) [].
Proof.
  split; [exists (firstn 2 text_schema), [Some [10; 2; 0; 0; 0; 5; 6]]|split; [exists [], [Some (lit "OK" ++ [13; 10])]|
    exists [[Some (lit "emit x" ++ [13; 10])]], [Some [1; 0; 0; 0]; Some [7]]]]; repeat split; vm_compute; reflexivity.
Qed.

(** It is not so that values are always asked for in binary: when the device refuses that, the call fails, but the
    next call does not ask again. *)
Theorem C61_binary_refuted : exists s1 s2 v q1 q2,
  runs (rd (lit "x")) stream_init (([Ok []] ++ answers text_schema) ++ [Ok []] ++ answers [[Some (lit "ERR no" ++ [10])]])
    (Raised CommandError s1 []) q1 /\
  runs (rd (lit "x")) s1 ([Ok []] ++ answers (text_value 7)) (Returned v s2 []) q2 /\
  s_written s2 = s_written s1 ++ ask_value (lit "x").
Proof.
  eexists _, _, _, _, _. split; [exists 200%nat; vm_compute; reflexivity|]. split; [exists 200%nat; vm_compute; reflexivity|vm_compute; reflexivity].
Qed.
End Examples.

Print Assumptions C61_requests.
Print Assumptions C61_schema_once.
Print Assumptions C61_known_value.
Print Assumptions C61_first_value.
Print Assumptions C61_binary_refuted.
