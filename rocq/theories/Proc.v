(** Procedures that talk to a device.

    One coroutine, run alone, is a value of [proc]: a tree of what it asks from
    outside, each time with all the answers that can come.  The type of an
    answer depends on the question.  Unlike [prog] (Async.v) there is no shared
    state and no lock, and an exception keeps the text of a CommandError, on
    which moteus_tool.py decides. *)
From Coq Require Import ZArith List Bool.
From Verif Require Import PyBase.
Import ListNotations.

(** An exception: CommandError with its message, or another. *)
Inductive err := Exn (e : exn) | CmdErr (message : list Z).

Section Proc.
Context {Req : Type} {Rep : Req -> Type}.

Inductive proc (A : Type) : Type :=
| Ret (a : A)                                        (* return a *)
| Throw (e : err)                                    (* raise e *)
| Ask (r : Req) (k : err + Rep r -> proc A)          (* await r *)
| Loop {X B : Type} (body : X -> proc (X + B)) (x : X) (k : B -> proc A).
                                                     (* while True, with break *)
Arguments Ret {A} a. Arguments Throw {A} e. Arguments Ask {A} r k. Arguments Loop {A X B} body x k.

Fixpoint pbind {A B} (p : proc A) {struct p} : (A -> proc B) -> proc B :=
  match p with
  | Ret a => fun f => f a
  | Throw e => fun _ => Throw e
  | Ask q k => fun f => Ask q (fun r => pbind (k r) f)
  | Loop body x k => fun f => Loop body x (fun b => pbind (k b) f)
  end.

(** try: ... except: the outcome of [p] as a value. *)
Fixpoint catch {A} (p : proc A) : proc (err + A) :=
  match p with
  | Ret a => Ret (inr a)
  | Throw e => Ret (inl e)
  | Ask q k => Ask q (fun r => catch (k r))
  | Loop body x k =>
      Loop (fun x => pbind (catch (body x)) (fun r => Ret
              match r with
              | inr (inl x') => inl x'
              | inr (inr b) => inr (inr b)
              | inl e => inr (inl e)
              end)) x
           (fun r => match r with inr b => catch (k b) | inl e => Ret (inl e) end)
  end.

Definition answer {A} (x : err + A) : proc A :=
  match x with inr a => Ret a | inl e => Throw e end.

(** await r *)
Definition ask (r : Req) : proc (Rep r) := Ask r (fun x => answer x).

(** Code that awaits nothing. *)
Definition lift {A} (x : res A) : proc A :=
  match x with Ok a => Ret a | Raise e => Throw (Exn e) end.

(** for x in l: *)
Fixpoint each {X} (f : X -> proc unit) (l : list X) : proc unit :=
  match l with
  | [] => Ret tt
  | x :: l => pbind (f x) (fun _ => each f l)
  end.

(** try: p finally: q *)
Definition finally {A} (p : proc A) (q : proc unit) : proc A :=
  pbind (catch p) (fun x => pbind q (fun _ => answer x)).

(** ** What can be seen of a run

    The questions asked, each with the answer, if one came.  Outcome [None]:
    not finished; a run can be looked at, or break off, at any point. *)
Definition event : Type := {r : Req & option (err + Rep r)}.
Definition asked (r : Req) : event := existT _ r None.
Definition answered (r : Req) (x : err + Rep r) : event := existT _ r (Some x).
Definition question (e : event) : Req := projT1 e.

(** The turns of a loop, [R] being what can be seen of one turn and [K] of the rest. *)
Inductive turns {A X B} (R : X -> list event -> option (err + (X + B)) -> Prop)
    (K : B -> list event -> option (err + A) -> Prop) : X -> list event -> option (err + A) -> Prop :=
| turn_stop x t : R x t None -> turns R K x t None
| turn_throw x t e : R x t (Some (inl e)) -> turns R K x t (Some (inl e))
| turn_again x t x' t' o : R x t (Some (inr (inl x'))) -> turns R K x' t' o -> turns R K x (t ++ t') o
| turn_leave x t b t' o : R x t (Some (inr (inr b))) -> K b t' o -> turns R K x (t ++ t') o.

Fixpoint traces {A} (p : proc A) : list event -> option (err + A) -> Prop :=
  match p with
  | Ret a => fun t o => t = [] /\ (o = None \/ o = Some (inr a))
  | Throw e => fun t o => t = [] /\ (o = None \/ o = Some (inl e))
  | Ask r k => fun t o =>
      (o = None /\ (t = [] \/ t = [asked r])) \/
      exists x t', t = answered r x :: t' /\ traces (k x) t' o
  | Loop body x k => fun t o => turns (fun x => traces (body x)) (fun b => traces (k b)) x t o
  end.

(** ** Running with a given device, for examples *)
Fixpoint drive {A W} (fuel : nat) (dev : W -> forall r : Req, W * (err + Rep r)) (w : W) (p : proc A)
  : option (list event * (err + A) * W) :=
  match fuel with
  | O => None
  | S n =>
      match p with
      | Ret a => Some ([], inr a, w)
      | Throw e => Some ([], inl e, w)
      | Ask r k =>
          let '(w', x) := dev w r in
          match drive n dev w' (k x) with
          | Some (t, o, w'') => Some (answered r x :: t, o, w'')
          | None => None
          end
      | Loop body x k =>
          match drive n dev w (body x) with
          | Some (t, inl e, w') => Some (t, inl e, w')
          | Some (t, inr (inl x'), w') =>
              match drive n dev w' (Loop body x' k) with
              | Some (t', o, w'') => Some (t ++ t', o, w'')
              | None => None
              end
          | Some (t, inr (inr b), w') =>
              match drive n dev w' (k b) with
              | Some (t', o, w'') => Some (t ++ t', o, w'')
              | None => None
              end
          | None => None
          end
      end
  end.

(** ** Lemmas *)
Lemma drive_traces W (dev : W -> forall r : Req, W * (err + Rep r)) n : forall A w (p : proc A) t o w',
  drive n dev w p = Some (t, o, w') -> traces p t (Some o).
Proof.
  induction n as [|n IH]; intros A w p t o w' H; [discriminate|]. cbn [drive] in H. destruct p as [a|e|r k|X B body x k].
  - injection H as <- <- _. cbn. auto.
  - injection H as <- <- _. cbn. auto.
  - destruct (dev w r) as [w1 x]. destruct (drive n dev w1 (k x)) as [[[t1 o1] w2]|] eqn:E; [|discriminate].
    injection H as <- <- _. cbn. right. exists x, t1. split; eauto.
  - destruct (drive n dev w (body x)) as [[[t1 [e|[x'|b]]] w1]|] eqn:E; try discriminate.
    + injection H as <- <- _. apply turn_throw. exact (IH _ _ _ _ _ _ E).
    + destruct (drive n dev w1 (Loop body x' k)) as [[[t2 o2] w2]|] eqn:E2; [|discriminate]. injection H as <- <- _.
      eapply turn_again; [exact (IH _ _ _ _ _ _ E)|exact (IH _ _ _ _ _ _ E2)].
    + destruct (drive n dev w1 (k b)) as [[[t2 o2] w2]|] eqn:E2; [|discriminate]. injection H as <- <- _.
      eapply turn_leave; [exact (IH _ _ _ _ _ _ E)|exact (IH _ _ _ _ _ _ E2)].
Qed.

(** Nothing seen yet is always possible. *)
Lemma traces_nil A (p : proc A) : traces p [] None.
Proof.
  induction p as [A a|A e|A r k IH|A X Y body IHb x k IH]; cbn; auto. apply turn_stop. apply IHb.
Qed.

(** A finished run is also seen unfinished. *)
Lemma traces_unfinished A (p : proc A) : forall t o, traces p t o -> traces p t None.
Proof.
  induction p as [A a|A e|A r k IH|A X Y body IHb x k IH]; cbn; intros t o H.
  - tauto.
  - tauto.
  - destruct H as [[_ H]|(y & t' & -> & H)]; [auto|]. right. eauto.
  - induction H as [x t H|x t e H|x t x' t' o H _ IH'|x t b t' o H H2].
    + now apply turn_stop.
    + apply turn_stop. exact (IHb _ _ _ H).
    + eapply turn_again; eauto.
    + eapply turn_leave; eauto.
Qed.

(** The ways a sequence can be seen. *)
Definition seq_seen {A B} (P : list event -> option (err + A) -> Prop)
    (F : A -> list event -> option (err + B) -> Prop) (t : list event) (o : option (err + B)) : Prop :=
  (P t None /\ o = None) \/ (exists e, P t (Some (inl e)) /\ o = Some (inl e)) \/
  (exists a t1 t2, t = t1 ++ t2 /\ P t1 (Some (inr a)) /\ F a t2 o).

Lemma traces_bind A (p : proc A) : forall B (f : A -> proc B) t o,
  traces (pbind p f) t o -> seq_seen (traces p) (fun a => traces (f a)) t o.
Proof.
  induction p as [A a|A e|A r k IH|A X Y body IHb x k IH]; intros B f t o H; cbn [pbind] in H.
  - right. right. exists a, [], t. cbn. auto.
  - cbn in H. destruct H as [-> [->| ->]]; [left|right; left; exists e]; cbn; auto.
  - cbn in H. destruct H as [[-> H]|(y & t' & -> & H)]; [left; cbn; auto|].
    apply IH in H. destruct H as [[H ->]|[(e & H & ->)|(a & t1 & t2 & -> & H & H2)]].
    + left. split; auto. right. eauto.
    + right. left. exists e. split; auto. right. eauto.
    + right. right. exists a, (answered r y :: t1), t2. split; [reflexivity|]. split; auto. right. eauto.
  - cbn [traces] in H. induction H as [x t H|x t e H|x t x' t' o H _ IH'|x t b t' o H H2].
    + left. split; auto. now apply turn_stop.
    + right. left. exists e. split; auto. now apply turn_throw.
    + destruct IH' as [[I ->]|[(e & I & ->)|(a & t1 & t2 & -> & I & I2)]].
      * left. split; auto. eapply turn_again; eauto.
      * right. left. exists e. split; auto. eapply turn_again; eauto.
      * right. right. exists a, (t ++ t1), t2. rewrite app_assoc. split; auto. split; auto. eapply turn_again; eauto.
    + apply IH in H2. destruct H2 as [[I ->]|[(e & I & ->)|(a & t1 & t2 & -> & I & I2)]].
      * left. split; auto. eapply turn_leave; eauto.
      * right. left. exists e. split; auto. eapply turn_leave; eauto.
      * right. right. exists a, (t ++ t1), t2. rewrite app_assoc. split; auto. split; auto. eapply turn_leave; eauto.
Qed.

Lemma traces_bind_back A (p : proc A) : forall B (f : A -> proc B) t o,
  seq_seen (traces p) (fun a => traces (f a)) t o -> traces (pbind p f) t o.
Proof.
  induction p as [A a|A e|A r k IH|A X Y body IHb x k IH]; intros B f t o H; cbn [pbind].
  - destruct H as [[[-> _] ->]|[(e & [_ [H|H]] & _)|(a' & t1 & t2 & -> & [-> [H|H]] & H2)]]; try discriminate.
    + apply traces_nil.
    + injection H as ->. exact H2.
  - destruct H as [[[-> _] ->]|[(e' & [-> [H|H]] & ->)|(a' & t1 & t2 & -> & [-> [H|H]] & H2)]]; try discriminate; cbn; auto.
    injection H as ->. auto.
  - cbn. destruct H as [[[[_ H]|(y & t' & -> & H)] ->]|[(e & [[H _]|(y & t' & -> & H)] & ->)|(a & t1 & t2 & -> & [[H _]|(y & t' & -> & H)] & H2)]];
      try discriminate; auto; right; exists y.
    + exists t'. split; auto. apply IH. left. auto.
    + exists t'. split; auto. apply IH. right. left. eauto.
    + exists (t' ++ t2). split; auto. apply IH. right. right. eauto 6.
  - cbn [traces] in *. destruct H as [[H ->]|[(e & H & ->)|(a & t1 & t2 & -> & H & H2)]].
    + remember None as o eqn:Eo. induction H as [x t H|x t e H|x t x' t' o H _ IH'|x t b t' o H H2]; try discriminate.
      * now apply turn_stop.
      * eapply turn_again; eauto.
      * subst o. eapply turn_leave; eauto. apply IH. left. auto.
    + remember (Some (inl e)) as o eqn:Eo. induction H as [x t H|x t e' H|x t x' t' o H _ IH'|x t b t' o H H2]; try discriminate.
      * injection Eo as ->. now apply turn_throw.
      * eapply turn_again; eauto.
      * subst o. eapply turn_leave; eauto. apply IH. right. left. eauto.
    + remember (Some (inr a)) as o1 eqn:Eo. induction H as [x t H|x t e' H|x t x' t' o1 H _ IH'|x t b t' o1 H H3]; try discriminate.
      * rewrite <- app_assoc. eapply turn_again; eauto.
      * subst o1. rewrite <- app_assoc. eapply turn_leave; eauto. apply IH. right. right. eauto 6.
Qed.

(** try sees what the block does, and turns its outcome into a value. *)
Lemma traces_catch A (p : proc A) : forall t o, traces (catch p) t o ->
  (o = None /\ traces p t None) \/ exists o', o = Some (inr o') /\ traces p t (Some o').
Proof.
  induction p as [A a|A e|A r k IH|A X Y body IHb x k IH]; intros t o H; cbn [catch] in H.
  - cbn in *. destruct H as [-> [->| ->]]; eauto 6.
  - cbn in *. destruct H as [-> [->| ->]]; eauto 6.
  - cbn in *. destruct H as [[-> H]|(y & t' & -> & H)]; [auto|]. apply IH in H.
    destruct H as [[-> H]|(o' & -> & H)]; [left|right; exists o']; split; eauto.
  - cbn [traces] in *. induction H as [x t H|x t e H|x t x' t' o H _ IH'|x t b t' o H H2].
    + left. split; auto. apply turn_stop.
      apply traces_bind in H. destruct H as [[H _]|[(e & H & E)|(a & t1 & t2 & -> & H & H2)]]; try discriminate.
      * apply IHb in H. destruct H as [[_ H]|(o' & E & _)]; [auto|discriminate].
      * cbn in H2. destruct H2 as [-> [_|E]]; [|discriminate]. rewrite app_nil_r. apply IHb in H.
        destruct H as [[E _]|(o' & _ & H)]; [discriminate|].
        exact (traces_unfinished _ _ _ _ H).
    + exfalso. apply traces_bind in H. destruct H as [[_ H]|[(e' & H & _)|(a & t1 & t2 & -> & H & H2)]]; try discriminate.
      * apply IHb in H. destruct H as [[E _]|(o' & E & _)]; discriminate.
      * cbn in H2. destruct H2 as [_ [E|E]]; discriminate.
    + apply traces_bind in H. destruct H as [[_ H]|[(e' & _ & E)|(a & t1 & t2 & -> & H & H2)]]; try discriminate.
      cbn in H2. destruct H2 as [-> [E|E]]; [discriminate|]. injection E as E. apply IHb in H.
      destruct H as [[E' _]|(o' & E' & H)]; [discriminate|]. injection E' as <-. rewrite app_nil_r.
      destruct a as [e|[x''|b]]; try discriminate. injection E as <-.
      destruct IH' as [[-> I]|(o' & -> & I)]; [left|right; exists o']; (split; [auto|]); eapply turn_again; eauto.
    + apply traces_bind in H. destruct H as [[_ H]|[(e' & _ & E)|(a & t1 & t2 & -> & H & H3)]]; try discriminate.
      cbn in H3. destruct H3 as [-> [E|E]]; [discriminate|]. injection E as E. apply IHb in H.
      destruct H as [[E' _]|(o' & E' & H)]; [discriminate|]. injection E' as <-. rewrite app_nil_r.
      destruct a as [e|[x''|b']]; try discriminate; injection E as ->.
      * cbn in H2. destruct H2 as [-> [->| ->]]; rewrite app_nil_r.
        -- left. split; auto. apply turn_stop. exact (traces_unfinished _ _ _ _ H).
        -- right. exists (inl e). split; auto. now apply turn_throw.
      * apply IH in H2. destruct H2 as [[-> I]|(o' & -> & I)]; [left|right; exists o']; (split; [auto|]); eapply turn_leave; eauto.
Qed.

(** ** Reasoning forward

    [after h p Q]: if [h] has been seen and [p] runs, all that can be seen then is in [Q]. *)
Definition after {A} (h : list event) (p : proc A) (Q : list event -> option (err + A) -> Prop) : Prop :=
  forall t o, traces p t o -> Q (h ++ t) o.

Lemma after_ret A h (a : A) (Q : _ -> _ -> Prop) : Q h None -> Q h (Some (inr a)) -> after h (Ret a) Q.
Proof. intros H H' t o [-> [->| ->]]; now rewrite app_nil_r. Qed.

Lemma after_throw A h e (Q : list event -> option (err + A) -> Prop) :
  Q h None -> Q h (Some (inl e)) -> after h (Throw e) Q.
Proof. intros H H' t o [-> [->| ->]]; now rewrite app_nil_r. Qed.

Lemma after_Ask A h r (k : err + Rep r -> proc A) (Q : _ -> _ -> Prop) :
  Q h None -> Q (h ++ [asked r]) None -> (forall x, after (h ++ [answered r x]) (k x) Q) -> after h (Ask r k) Q.
Proof.
  intros H H1 H2 t o [[-> [->| ->]]|(x & t' & -> & T)]; [now rewrite app_nil_r|auto|].
  change (answered r x :: t') with ([answered r x] ++ t'). rewrite app_assoc. now apply H2.
Qed.

Lemma after_bind A B h (p : proc A) (f : A -> proc B) (Q : _ -> _ -> Prop) :
  after h p (fun h' o => match o with
                         | None => Q h' None
                         | Some (inl e) => Q h' (Some (inl e))
                         | Some (inr a) => after h' (f a) Q
                         end) -> after h (pbind p f) Q.
Proof.
  intros H t o T. apply traces_bind in T. destruct T as [[T ->]|[(e & T & ->)|(a & t1 & t2 & -> & T & T2)]].
  - apply (H _ _ T).
  - apply (H _ _ T).
  - rewrite app_assoc. apply (H _ _ T). exact T2.
Qed.

Lemma after_catch A h (p : proc A) (Q : _ -> _ -> Prop) :
  after h p (fun h' o => match o with None => Q h' None | Some x => Q h' (Some (inr x)) end) -> after h (catch p) Q.
Proof.
  intros H t o T. apply traces_catch in T. destruct T as [[-> T]|(o' & -> & T)]; apply (H _ _ T).
Qed.

Lemma after_weaken A h (p : proc A) (P Q : _ -> _ -> Prop) :
  after h p P -> (forall h' o, P h' o -> Q h' o) -> after h p Q.
Proof. intros H I t o T. apply I, H, T. Qed.

(** A loop keeps an invariant of what has been seen and of its variables. *)
Lemma after_loop A X B (I : list event -> X -> Prop) h body (x : X) (k : B -> proc A) (Q : _ -> _ -> Prop) :
  I h x ->
  (forall h x, I h x -> after h (body x) (fun h' o => match o with
                         | None => Q h' None
                         | Some (inl e) => Q h' (Some (inl e))
                         | Some (inr (inl x')) => I h' x'
                         | Some (inr (inr b)) => after h' (k b) Q
                         end)) -> after h (Loop body x k) Q.
Proof.
  intros H0 HB t o T. cbn [traces] in T. revert h H0.
  induction T as [x t T|x t e T|x t x' t' o T _ IH|x t b t' o T T2]; intros h H0.
  - apply (HB _ _ H0 _ _ T).
  - apply (HB _ _ H0 _ _ T).
  - rewrite app_assoc. apply IH. apply (HB _ _ H0 _ _ T).
  - rewrite app_assoc. apply (HB _ _ H0 _ _ T). exact T2.
Qed.

(** ** Runs that end well

    [clean ok p]: all that is seen of a run that returns a value is in [ok]. *)
Definition clean (ok : event -> Prop) {A} (p : proc A) : Prop :=
  forall t a, traces p t (Some (inr a)) -> Forall ok t.

Lemma traces_ret A (a : A) t o : traces (Ret a) t o -> t = [] /\ (o = None \/ o = Some (inr a)).
Proof. auto. Qed.

Lemma traces_ok_bind A B (p : proc A) (f : A -> proc B) t b :
  traces (pbind p f) t (Some (inr b)) ->
  exists a t1 t2, t = t1 ++ t2 /\ traces p t1 (Some (inr a)) /\ traces (f a) t2 (Some (inr b)).
Proof.
  intros H. apply traces_bind in H. destruct H as [[_ H]|[(e & _ & H)|H]]; try discriminate. exact H.
Qed.

Lemma traces_ok_ret A (a b : A) t : traces (Ret a) t (Some (inr b)) -> t = [] /\ a = b.
Proof. intros [-> [H|H]]; [discriminate|]. injection H as ->. auto. Qed.

Lemma traces_ok_throw A e (b : A) t : traces (Throw e) t (Some (inr b)) -> False.
Proof. intros [_ [H|H]]; discriminate. Qed.

Lemma traces_ok_ask r a t : traces (ask r) t (Some (inr a)) -> t = [answered r (inr a)].
Proof.
  intros [[H _]|(x & t' & -> & H)]; [discriminate|]. destruct x as [e|x]; cbn [answer] in H.
  - now apply traces_ok_throw in H.
  - apply traces_ok_ret in H. destruct H as [-> ->]. reflexivity.
Qed.

Lemma traces_ok_lift A (x : res A) a t : traces (lift x) t (Some (inr a)) -> t = [] /\ x = Ok a.
Proof.
  destruct x; cbn [lift]; intros H; [|now apply traces_ok_throw in H].
  apply traces_ok_ret in H. destruct H as [-> ->]. auto.
Qed.

Lemma clean_ret ok A (a : A) : clean ok (Ret a).
Proof. intros t b H. apply traces_ok_ret in H. destruct H as [-> _]. constructor. Qed.

Lemma clean_throw ok A e : clean ok (@Throw A e).
Proof. intros t b H. now apply traces_ok_throw in H. Qed.

Lemma clean_lift ok A (x : res A) : clean ok (lift x).
Proof. intros t b H. apply traces_ok_lift in H. destruct H as [-> _]. constructor. Qed.

Lemma clean_ask (ok : event -> Prop) r : (forall a, ok (answered r (inr a))) -> clean ok (ask r).
Proof. intros H t a T. apply traces_ok_ask in T. subst t. auto. Qed.

Lemma clean_bind ok A B (p : proc A) (f : A -> proc B) :
  clean ok p -> (forall a, clean ok (f a)) -> clean ok (pbind p f).
Proof.
  intros H F t b T. apply traces_ok_bind in T. destruct T as (a & t1 & t2 & -> & T1 & T2).
  apply Forall_app. split; [exact (H _ _ T1)|exact (F _ _ _ T2)].
Qed.

Lemma clean_loop ok A X B body (x : X) (k : B -> proc A) :
  (forall x, clean ok (body x)) -> (forall b, clean ok (k b)) -> clean ok (Loop body x k).
Proof.
  intros H K t a T. cbn [traces] in T. remember (Some (inr a)) as o eqn:Eo.
  induction T as [x t T|x t e T|x t x' t' o T _ IH|x t b t' o T T2]; try discriminate.
  - apply Forall_app. split; [exact (H _ _ _ T)|auto].
  - subst o. apply Forall_app. split; [exact (H _ _ _ T)|exact (K _ _ _ T2)].
Qed.

Lemma clean_each ok X (f : X -> proc unit) l : (forall x, clean ok (f x)) -> clean ok (each f l).
Proof. intros H. induction l as [|x l IH]; [apply clean_ret|]. cbn. apply clean_bind; auto. Qed.

Lemma clean_weaken (ok ok' : event -> Prop) A (p : proc A) : clean ok p -> (forall e, ok e -> ok' e) -> clean ok' p.
Proof. intros H W t a T. apply (Forall_impl _ W). exact (H _ _ T). Qed.

(** A run that ends with a value or an exception of try. *)
Lemma traces_catch_ok A (p : proc A) t x : traces (catch p) t (Some (inr x)) -> traces p t (Some x).
Proof. intros H. apply traces_catch in H. destruct H as [[H _]|(o & H & T)]; [discriminate|]. injection H as ->. exact T. Qed.

(** ** All runs

    [only ok p]: everything [p] ever asks is in [ok]. *)
Definition only (ok : Req -> Prop) {A} (p : proc A) : Prop :=
  forall t o, traces p t o -> Forall (fun e => ok (question e)) t.

Lemma only_ret ok A (a : A) : only ok (Ret a).
Proof. intros t o [-> _]. constructor. Qed.
Lemma only_throw ok A e : only ok (@Throw A e).
Proof. intros t o [-> _]. constructor. Qed.
Lemma only_lift ok A (x : res A) : only ok (lift x).
Proof. destruct x; [apply only_ret|apply only_throw]. Qed.
Lemma only_answer ok A (x : err + A) : only ok (answer x).
Proof. destruct x; [apply only_throw|apply only_ret]. Qed.
Lemma only_ask (ok : Req -> Prop) r : ok r -> only ok (ask r).
Proof.
  intros H t o [[_ [->| ->]]|(x & t' & -> & T)]; auto.
  constructor; auto. exact (only_answer ok _ x _ _ T).
Qed.
Lemma only_bind ok A B (p : proc A) (f : A -> proc B) :
  only ok p -> (forall a, only ok (f a)) -> only ok (pbind p f).
Proof.
  intros H F t o T. apply traces_bind in T. destruct T as [[T _]|[(e & T & _)|(a & t1 & t2 & -> & T1 & T2)]].
  - exact (H _ _ T).
  - exact (H _ _ T).
  - apply Forall_app. split; [exact (H _ _ T1)|exact (F _ _ _ T2)].
Qed.
Lemma only_catch ok A (p : proc A) : only ok p -> only ok (catch p).
Proof. intros H t o T. apply traces_catch in T. destruct T as [[_ T]|(o' & _ & T)]; exact (H _ _ T). Qed.
Lemma only_loop ok A X B body (x : X) (k : B -> proc A) :
  (forall x, only ok (body x)) -> (forall b, only ok (k b)) -> only ok (Loop body x k).
Proof.
  intros H K t o T. cbn [traces] in T. induction T as [x t T|x t e T|x t x' t' o T _ IH|x t b t' o T T2].
  - exact (H _ _ _ T).
  - exact (H _ _ _ T).
  - apply Forall_app. split; [exact (H _ _ _ T)|auto].
  - apply Forall_app. split; [exact (H _ _ _ T)|exact (K _ _ _ T2)].
Qed.
Lemma only_each ok X (f : X -> proc unit) l : (forall x, only ok (f x)) -> only ok (each f l).
Proof. intros H. induction l as [|x l IH]; [apply only_ret|]. cbn. apply only_bind; auto. Qed.
Lemma only_finally ok A (p : proc A) q : only ok p -> only ok q -> only ok (finally p q).
Proof.
  intros P Q. apply only_bind; [now apply only_catch|]. intros x. apply only_bind; auto. intros _. apply only_answer.
Qed.
Lemma only_weaken (ok ok' : Req -> Prop) A (p : proc A) : only ok p -> (forall r, ok r -> ok' r) -> only ok' p.
Proof. intros H W t o T. eapply Forall_impl; [|exact (H _ _ T)]. auto. Qed.

Lemma traces_after A (p : proc A) Q t o : after [] p Q -> traces p t o -> Q t o.
Proof. intros H T. apply (H _ _ T). Qed.
End Proc.
Arguments proc : clear implicits.
Arguments event : clear implicits.
Arguments Ret {Req Rep A} a.
Arguments Throw {Req Rep A} e.
Arguments Ask {Req Rep A} r k.
Arguments Loop {Req Rep A X B} body x k.

Notation "'do' x '<-' p ';' q" := (pbind p (fun x => q))
  (at level 200, x name, p at level 100, q at level 200, right associativity).
