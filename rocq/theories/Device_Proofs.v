(** Lemmas about runs of moteus_tool. *)
From Coq Require Import Ascii String ZArith List Bool Lia ZifyBool ZifyNat.
From Verif Require Import PyBase PyBytes PyFloat Config_Model Proc Device_Model Device_Spec.
Import ListNotations.
Open Scope Z_scope.

(** begins, as a computation *)
Lemma startswith_begins p text : startswith p text = true <-> begins p text.
Proof.
  revert text. induction p as [|c p IH]; intros text; cbn [startswith].
  - split; auto. intros _. now exists text.
  - destruct text as [|d text].
    + split; [discriminate|]. intros [r H]. discriminate.
    + rewrite andb_true_iff, Z.eqb_eq, IH. split.
      * intros [-> [r ->]]. now exists r.
      * intros [r H]. injection H as <- ->. split; auto. now exists r.
Qed.

Lemma begins_app p q text : begins (p ++ q) text -> begins p text.
Proof. intros [r ->]. exists (q ++ r). now rewrite app_assoc. Qed.

Lemma not_begins p text : startswith p text = false -> ~ begins p text.
Proof. intros H B. apply startswith_begins in B. congruence. Qed.

(** ** Good runs *)
Lemma clean_await (ok : ev -> Prop) r : (forall a, ok (answered r (inr a))) -> clean ok (await r).
Proof. apply (clean_ask (Rep := trep)). Qed.

Lemma catch_command_ok A (p : T A) h t a : traces (catch_command p h) t (Some (inr a)) ->
  traces p t (Some (inr a)) \/
  exists m t1 t2, t = t1 ++ t2 /\ traces p t1 (Some (inl (CmdErr m))) /\ traces (h m) t2 (Some (inr a)).
Proof.
  intros H. unfold catch_command in H. apply traces_ok_bind in H. destruct H as (x & t1 & t2 & -> & T1 & T2).
  apply traces_catch_ok in T1. destruct x as [[e|m]|b].
  - now apply traces_ok_throw in T2.
  - right. exists m, t1, t2. auto.
  - apply traces_ok_ret in T2. destruct T2 as [-> ->]. left. now rewrite app_nil_r.
Qed.

(** How a command ends. *)
Lemma traces_ask_err r t e : traces (await r) t (Some (inl e)) -> t = [answered r (inl e)].
Proof.
  intros [[H _]|(x & t' & -> & H)]; [discriminate|]. destruct x as [e'|x]; cbn [answer] in H.
  - destruct H as [-> [H|H]]; [discriminate|]. injection H as ->. reflexivity.
  - destruct H as [_ [H|H]]; discriminate.
Qed.

Lemma traces_err_bind A B (p : T A) (f : A -> T B) t e :
  traces (pbind p f) t (Some (inl e)) ->
  traces p t (Some (inl e)) \/
  exists a t1 t2, t = t1 ++ t2 /\ traces p t1 (Some (inr a)) /\ traces (f a) t2 (Some (inl e)).
Proof.
  intros H. apply traces_bind in H. destruct H as [[_ H]|[(e' & H & E)|H]]; try discriminate.
  - injection E as ->. auto.
  - auto.
Qed.

Lemma traces_err_ret A (a : A) t e : traces (Req := treq) (Rep := trep) (Ret a) t (Some (inl e)) -> False.
Proof. intros [_ [H|H]]; discriminate. Qed.

Lemma traces_err_lift A (x : res A) t e : traces (Req := treq) (Rep := trep) (lift x) t (Some (inl e)) ->
  t = [] /\ exists e', x = Raise e' /\ e = Exn e'.
Proof.
  destruct x as [a|e']; cbn [lift]; intros [-> [H|H]]; try discriminate. injection H as ->. eauto.
Qed.

(** Unfinished, or ended by an exception. *)
Lemma traces_await r t o : traces (await r) t o ->
  (o = None /\ (t = [] \/ exists x, t = [existT _ r x])) \/
  exists x, t = [answered r x] /\ o = Some x.
Proof.
  intros [[-> [->| ->]]|(x & t' & -> & H)].
  - left. auto.
  - left. split; auto. right. exists None. reflexivity.
  - destruct x as [e|a]; cbn [answer] in H; destruct H as [-> [->| ->]].
    + left. split; auto. right. exists (Some (inl e)). reflexivity.
    + right. exists (inl e). auto.
    + left. split; auto. right. exists (Some (inr a)). reflexivity.
    + right. exists (inr a). auto.
Qed.

(** ** Everything asked *)
Lemma only_await (ok : treq -> Prop) r : ok r -> only ok (await r).
Proof. apply (only_ask (Rep := trep)). Qed.
Lemma only_command (ok : treq -> Prop) text : ok (Command text false) -> only ok (command text).
Proof. apply only_await. Qed.
Lemma only_command_any (ok : treq -> Prop) text : ok (Command text true) -> only ok (command_any text).
Proof. apply only_await. Qed.
Lemma only_catch_command (ok : treq -> Prop) A (p : T A) h :
  only ok p -> (forall m, only ok (h m)) -> only ok (catch_command p h).
Proof.
  intros P H. apply only_bind; [now apply only_catch|]. intros [[e|m]|a]; auto; [apply only_throw|apply only_ret].
Qed.

(** A procedure in terms of its parts; leaves what single requests must satisfy. *)
Ltac only_step :=
  match goal with
  | |- only _ (Ret _) => apply only_ret
  | |- only _ (Throw _) => apply only_throw
  | |- only _ (lift _) => apply only_lift
  | |- only _ (pbind _ _) => apply only_bind; [|intros ?]
  | |- only _ (catch _) => apply only_catch
  | |- only _ (catch_command _ _) => apply only_catch_command; [|intros ?]
  | |- only _ (Loop _ _ _) => apply only_loop; intros ?
  | |- only _ (each _ _) => apply only_each; intros ?
  | |- only _ (finally _ _) => apply only_finally
  | |- only _ (command _) => apply only_command
  | |- only _ (command_any _) => apply only_command_any
  | |- only _ (await _) => apply only_await
  | |- only _ (let '(_, _) := ?x in _) => destruct x
  | |- only _ (match ?x with _ => _ end) => destruct x
  | |- only _ (if ?x then _ else _) => destruct x
  end.

(** ** The same for runs that end well *)
Ltac clean_step :=
  match goal with
  | |- clean _ (Ret _) => apply clean_ret
  | |- clean _ (Throw _) => apply clean_throw
  | |- clean _ (lift _) => apply clean_lift
  | |- clean _ (pbind _ _) => apply clean_bind; [|intros ?]
  | |- clean _ (Loop _ _ _) => apply clean_loop; intros ?
  | |- clean _ (each _ _) => apply clean_each; intros ?
  | |- clean _ (command _) => apply clean_await; intros ?
  | |- clean _ (command_any _) => apply clean_await; intros ?
  | |- clean _ (await _) => apply clean_await; intros ?
  | |- clean _ (let '(_, _) := ?x in _) => destruct x
  | |- clean _ (match ?x with _ => _ end) => destruct x
  | |- clean _ (if ?x then _ else _) => destruct x
  end.

(** Texts that differ early; the rest of them is not looked at. *)
Lemma bytes_eqb_same (a b : list Z) : bytes_eqb a b = true -> a = b.
Proof.
  revert b. induction a as [|x a IH]; intros [|y b]; cbn; try discriminate; auto.
  rewrite andb_true_iff, Z.eqb_eq. intros [-> H]. now rewrite (IH _ H).
Qed.
Lemma differ n (a b : list Z) : bytes_eqb (firstn n a) (firstn n b) = false -> a <> b.
Proof.
  intros H ->. assert (E : forall l, bytes_eqb l l = true) by (induction l; cbn; rewrite ?Z.eqb_refl; auto). now rewrite E in H.
Qed.

Lemma contains_spec needle text : contains needle text = true <-> exists a b, text = a ++ needle ++ b.
Proof.
  split.
  - revert needle. induction text as [|c text IH]; intros needle H; cbn [contains] in H; rewrite orb_true_iff in H.
    + destruct H as [H|H]; [|discriminate]. apply startswith_begins in H. destruct H as [r ->]. exists [], r. reflexivity.
    + destruct H as [H|H].
      * apply startswith_begins in H. destruct H as [r ->]. exists [], r. reflexivity.
      * apply IH in H. destruct H as (a & b & ->). exists (c :: a), b. reflexivity.
  - intros (a & b & ->). induction a as [|c a IH]; cbn [app].
    + destruct (needle ++ b) eqn:E; cbn [contains]; rewrite orb_true_iff; left; apply startswith_begins; exists b; auto.
    + cbn [contains]. rewrite orb_true_iff. now right.
Qed.

Lemma traces_ok_await r a t : traces (await r) t (Some (inr a)) -> t = [answered r (inr a)].
Proof. apply (traces_ok_ask (Req := treq) (Rep := trep)). Qed.
Lemma traces_ok_command text a t : traces (command text) t (Some (inr a)) -> t = [answered (Command text false) (inr a)].
Proof. apply (traces_ok_await (Command text false)). Qed.
Lemma traces_ok_command_any text a t : traces (command_any text) t (Some (inr a)) -> t = [answered (Command text true) (inr a)].
Proof. apply (traces_ok_await (Command text true)). Qed.
