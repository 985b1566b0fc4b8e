(** Taking runs apart. *)
From Coq Require Import ZArith List Bool Lia.
From Verif Require Import PyBase Async Async_Proofs Serial.
Import ListNotations.
Open Scope nat_scope.

Section I.
Context {St Req Rep : Type}.
Notation prog := (prog St Req Rep).

Lemma run_bind_inv A B n : forall (p : prog A) (f : A -> prog B) s rs o qs,
  run n (pbind p f) s rs = Some (o, qs) ->
  (exists a s1 rs1 qs1 qs2, runs p s rs (Returned a s1 rs1) qs1 /\
     runs (f a) s1 rs1 o qs2 /\ qs = qs1 ++ qs2) \/
  (exists o', runs p s rs o' qs /\ stops o' o).
Proof.
  induction n as [|n IH]; intros p f s rs o qs H; [discriminate|].
  destruct p; cbn [pbind] in H.
  - left. exists a, s, rs, [], qs. split; [apply runs_ret|]. split; [|reflexivity].
    now exists (S n).
  - cbn in H. injection H as <- <-. right. eexists. split; [apply runs_throw|cbn; auto].
  - apply IH in H. destruct H as [(a & s1 & rs1 & q1 & q2 & R1 & R2 & ->)|(o' & R & S)].
    + left. exists a, s1, rs1, q1, q2. split; [now apply runs_get|auto].
    + right. exists o'. split; [now apply runs_get|auto].
  - apply IH in H. destruct H as [(a & s1 & rs1 & q1 & q2 & R1 & R2 & ->)|(o' & R & S)].
    + left. exists a, s1, rs1, q1, q2. split; [now apply runs_put|auto].
    + right. exists o'. split; [now apply runs_put|auto].
  - apply IH in H. destruct H as [(a & s1 & rs1 & q1 & q2 & R1 & R2 & ->)|(o' & R & S)].
    + left. exists a, s1, rs1, q1, q2. split; [now apply runs_acquire|auto].
    + right. exists o'. split; [now apply runs_acquire|auto].
  - apply IH in H. destruct H as [(a & s1 & rs1 & q1 & q2 & R1 & R2 & ->)|(o' & R & S)].
    + left. exists a, s1, rs1, q1, q2. split; [now apply runs_release|auto].
    + right. exists o'. split; [now apply runs_release|auto].
  - cbn in H. destruct rs as [|x rs].
    + injection H as <- <-. right. eexists. split; [apply runs_wait|cbn; auto].
    + destruct (run n (pbind (k x) f) s rs) as [[o1 q1]|] eqn:E; [|discriminate].
      injection H as <- <-. apply IH in E.
      destruct E as [(a & s1 & rs1 & q2 & q3 & R1 & R2 & ->)|(o' & R & S)].
      * left. exists a, s1, rs1, (r :: q2), q3. split; [now apply runs_await|auto].
      * right. exists o'. split; [now apply runs_await|auto].
  - cbn in H.
    rewrite <- (run_peq B n _ _ s rs (unroll_bind A B X B0 body x k f)) in H.
    apply IH in H. destruct H as [(a & s1 & rs1 & q1 & q2 & R1 & R2 & ->)|(o' & R & S)].
    + left. exists a, s1, rs1, q1, q2. split; [now apply runs_loop|auto].
    + right. exists o'. split; [now apply runs_loop|auto].
Qed.

Lemma runs_bind_inv A B (p : prog A) (f : A -> prog B) s rs o qs :
  runs (pbind p f) s rs o qs ->
  (exists a s1 rs1 qs1 qs2, runs p s rs (Returned a s1 rs1) qs1 /\
     runs (f a) s1 rs1 o qs2 /\ qs = qs1 ++ qs2) \/
  (exists o', runs p s rs o' qs /\ stops o' o).
Proof. intros [n H]. eapply run_bind_inv; eauto. Qed.

(** A run uses up a part of the answers and needs no more. *)
Lemma run_used A n : forall (p : prog A) s rs r s1 rs1 qs,
  run n p s rs = Some (finish r s1 rs1, qs) ->
  exists used, rs = used ++ rs1 /\ length used = length qs /\
    runs p s used (finish r s1 []) qs.
Proof.
  induction n as [|n IH]; intros p s rs r s1 rs1 qs H; [discriminate|].
  destruct p; cbn in H.
  - destruct r; try discriminate. injection H as <- <- <- <-. exists [].
    repeat split. apply runs_ret.
  - destruct r; try discriminate. injection H as <- <- <- <-. exists [].
    repeat split. apply runs_throw.
  - apply IH in H. destruct H as (u & E & L & R). exists u. repeat split; auto. now apply runs_get.
  - apply IH in H. destruct H as (u & E & L & R). exists u. repeat split; auto. now apply runs_put.
  - apply IH in H. destruct H as (u & E & L & R). exists u. repeat split; auto. now apply runs_acquire.
  - apply IH in H. destruct H as (u & E & L & R). exists u. repeat split; auto. now apply runs_release.
  - destruct rs as [|x rs]; [destruct r; discriminate|].
    destruct (run n (k x) s rs) as [[o1 q1]|] eqn:E; [|discriminate].
    injection H as -> <-. apply IH in E. destruct E as (u & -> & L & R).
    exists (x :: u). repeat split; cbn; auto. now apply runs_await.
  - apply IH in H. destruct H as (u & E & L & R). exists u. repeat split; auto. now apply runs_loop.
Qed.

Lemma runs_used A (p : prog A) s rs r s1 rs1 qs :
  runs p s rs (finish r s1 rs1) qs ->
  exists used, rs = used ++ rs1 /\ length used = length qs /\
    runs p s used (finish r s1 []) qs.
Proof. intros [n H]. eapply run_used; eauto. Qed.

Lemma run_wait_length A n : forall (p : prog A) s rs s1 q qs,
  run n p s rs = Some (Waiting s1 q, qs) ->
  exists qs', qs = qs' ++ [q] /\ length qs' = length rs.
Proof.
  induction n as [|n IH]; intros p s rs s1 q qs H; [discriminate|].
  destruct p; cbn in H; try discriminate; try (eapply IH; eauto; fail).
  destruct rs as [|x rs].
  - injection H as <- <- <-. exists []. auto.
  - destruct (run n (k x) s rs) as [[o1 q1]|] eqn:E; [|discriminate].
    injection H as -> <-. apply IH in E. destruct E as (q2 & -> & L).
    exists (r :: q2). cbn. auto.
Qed.

(** The requests a coroutine can make. *)
Inductive asks (P : Req -> Prop) : forall A, prog A -> Prop :=
| as_ret A a : asks P A (Ret a)
| as_throw A e : asks P A (Throw e)
| as_get A k : (forall s, asks P A (k s)) -> asks P A (Get k)
| as_put A s k : asks P A k -> asks P A (Put s k)
| as_await A q k : P q -> (forall r, asks P A (k r)) -> asks P A (Await q k)
| as_loop A X B body (x : X) (k : B -> prog A) :
    (forall y, asks P (X + B) (body y)) -> (forall b, asks P A (k b)) ->
    asks P A (Loop body x k).
Arguments asks P {A} p.

Lemma asks_inv P A (p : prog A) : asks P p ->
  match p with
  | Ret _ | Throw _ => True
  | Get k => forall s, asks P (k s)
  | Put s k => asks P k
  | Acquire k => False
  | Release k => False
  | Await q k => P q /\ forall r, asks P (k r)
  | Loop body x k => (forall y, asks P (body y)) /\ (forall b, asks P (k b))
  end.
Proof. destruct 1; auto. Qed.

Lemma asks_bind P A (p : prog A) : asks P p -> forall B (f : A -> prog B),
  (forall a, asks P (f a)) -> asks P (pbind p f).
Proof. induction 1; intros; cbn; try constructor; auto. Qed.

Lemma asks_lift P A (r : res A) : asks P (lift r).
Proof. destruct r; constructor. Qed.

Lemma asks_lockfree P A (p : prog A) : asks P p -> lockfree p.
Proof. induction 1; constructor; auto. Qed.

Lemma asks_requests P A n : forall (p : prog A) s rs o qs, asks P p ->
  run n p s rs = Some (o, qs) -> Forall P qs.
Proof.
  induction n as [|n IH]; intros p s rs o qs L H; [discriminate|].
  apply asks_inv in L. destruct p; cbn in H, L; try contradiction; eauto.
  - injection H as <- <-. constructor.
  - injection H as <- <-. constructor.
  - destruct L as [Lq L]. destruct rs as [|x rs].
    + injection H as <- <-. auto.
    + destruct (run n (k x) s rs) as [[o1 q1]|] eqn:E; [|discriminate].
      injection H as -> <-. constructor; auto. eapply IH; eauto.
  - eapply IH; [|exact H]. destruct L as [Lb Lk]. apply asks_bind; auto.
    intros [y|b]; auto. now constructor.
Qed.

(** ** Runs given by the awaits with their results *)
Definition ended {A} (p : prog A) (s : St) (aw : list (Req * res Rep)) (r : res A) (s' : St) :=
  runs p s (map snd aw) (finish r s' []) (map fst aw).
Definition waits {A} (p : prog A) (s : St) (aw : list (Req * res Rep)) (s' : St) (q : Req) :=
  runs p s (map snd aw) (Waiting s' q) (map fst aw ++ [q]).

Lemma split_awaits (aw : list (Req * res Rep)) used rest qs1 qs2 :
  map snd aw = used ++ rest -> length used = length qs1 ->
  (exists more, map fst aw ++ more = qs1 ++ qs2) ->
  exists aw1 aw2, aw = aw1 ++ aw2 /\ map snd aw1 = used /\ map fst aw1 = qs1 /\
    map snd aw2 = rest.
Proof.
  revert used qs1. induction aw as [|[q r] aw IH]; intros used qs1 E1 L [more E2].
  - destruct used; [|discriminate]. destruct qs1; [|discriminate].
    exists [], []. auto.
  - destruct used as [|u used], qs1 as [|q1 qs1]; try discriminate.
    + exists [], ((q, r) :: aw). auto.
    + cbn in *. injection E1 as <- E1. injection L as L. injection E2 as <- E2.
      destruct (IH used qs1 E1 L (ex_intro _ more E2)) as (aw1 & aw2 & -> & <- & <- & <-).
      exists ((q, r) :: aw1), aw2. auto.
Qed.

Lemma ended_bind A B (p : prog A) (f : A -> prog B) s aw r s' :
  ended (pbind p f) s aw r s' ->
  (exists a s1 aw1 aw2, aw = aw1 ++ aw2 /\ ended p s aw1 (Ok a) s1 /\ ended (f a) s1 aw2 r s') \/
  (exists e, r = Raise e /\ ended p s aw (Raise e) s').
Proof.
  intros H. apply runs_bind_inv in H.
  destruct H as [(a & s1 & rs1 & qs1 & qs2 & R1 & R2 & E)|(o' & R & S)].
  - left. destruct (runs_used A p s _ (Ok a) _ _ _ R1) as (used & Eu & L & R1').
    destruct (split_awaits aw used rs1 qs1 qs2 Eu L) as (aw1 & aw2 & -> & <- & <- & <-).
    { exists []. now rewrite app_nil_r. }
    exists a, s1, aw1, aw2. split; [reflexivity|]. split; [exact R1'|].
    rewrite map_app in E. apply app_inv_head in E. unfold ended. rewrite E. exact R2.
  - right. destruct o', r; cbn in S; try contradiction.
    destruct S as (-> & -> & ->). exists e0. auto.
Qed.

Lemma waits_bind A B (p : prog A) (f : A -> prog B) s aw s' q :
  waits (pbind p f) s aw s' q ->
  (exists a s1 aw1 aw2, aw = aw1 ++ aw2 /\ ended p s aw1 (Ok a) s1 /\ waits (f a) s1 aw2 s' q) \/
  waits p s aw s' q.
Proof.
  intros H. apply runs_bind_inv in H.
  destruct H as [(a & s1 & rs1 & qs1 & qs2 & R1 & R2 & E)|(o' & R & S)].
  - left. destruct (runs_used A p s _ (Ok a) _ _ _ R1) as (used & Eu & L & R1').
    destruct (split_awaits aw used rs1 qs1 qs2 Eu L) as (aw1 & aw2 & -> & <- & <- & <-).
    { exists [q]. exact E. }
    exists a, s1, aw1, aw2. split; [reflexivity|]. split; [exact R1'|].
    rewrite map_app, <- app_assoc in E. apply app_inv_head in E. unfold waits. rewrite E. exact R2.
  - right. destruct o'; cbn in S; try contradiction.
    destruct S as (-> & ->). exact R.
Qed.

Lemma ended_ret A (a : A) s aw r s' : ended (Ret a) s aw r s' -> aw = [] /\ r = Ok a /\ s' = s.
Proof.
  intros [[|n] H]; [discriminate|]. cbn in H. injection H as H1 H2.
  destruct r; [|discriminate]. injection H1 as -> -> H3. destruct aw; [auto|discriminate].
Qed.

Lemma ended_throw A e s aw r s' : ended (@Throw _ _ _ A e) s aw r s' ->
  aw = [] /\ r = Raise e /\ s' = s.
Proof.
  intros [[|n] H]; [discriminate|]. cbn in H. injection H as H1 H2.
  destruct r; [discriminate|]. injection H1 as -> -> H3. destruct aw; [auto|discriminate].
Qed.

Lemma ended_lift A (x : res A) s aw r s' : ended (lift x) s aw r s' -> aw = [] /\ r = x /\ s' = s.
Proof. destruct x; [apply ended_ret|apply ended_throw]. Qed.

Lemma waits_ret A (a : A) s aw s' q : ~ waits (Ret a) s aw s' q.
Proof. intros [[|n] H]; [discriminate|]. cbn in H. discriminate. Qed.

Lemma waits_throw A e s aw s' q : ~ waits (@Throw _ _ _ A e) s aw s' q.
Proof. intros [[|n] H]; [discriminate|]. cbn in H. discriminate. Qed.

Lemma waits_lift A (x : res A) s aw s' q : ~ waits (lift x) s aw s' q.
Proof. destruct x; [apply waits_ret|apply waits_throw]. Qed.

Lemma ended_await q s aw r s' : ended (await q) s aw r s' -> aw = [(q, r)] /\ s' = s.
Proof.
  intros [[|n] H]; [discriminate|]. cbn in H.
  destruct aw as [|[q1 r1] aw]; [destruct r; discriminate|]. cbn in H.
  destruct (run n (lift r1) s (map snd aw)) as [[o qs]|] eqn:E; [|discriminate].
  injection H as -> <- ->. assert (ended (lift r1) s aw r s') as X by (exists n; auto).
  apply ended_lift in X. destruct X as (-> & -> & ->). auto.
Qed.

Lemma waits_await q s aw s' q' : waits (await q) s aw s' q' -> aw = [] /\ q' = q /\ s' = s.
Proof.
  intros [[|n] H]; [discriminate|]. cbn in H.
  destruct aw as [|[q1 r1] aw]; cbn in H.
  - injection H as <- <-. auto.
  - destruct (run n (lift r1) s (map snd aw)) as [[o qs]|] eqn:E; [|discriminate].
    injection H as -> <- ->. exfalso. apply (waits_lift Rep r1 s aw s' q'). now exists n.
Qed.
End I.
Arguments asks {St Req Rep} P {A} p.
