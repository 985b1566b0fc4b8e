(** C72: measuring and storing the compensation of an encoder. *)
From Coq Require Import Ascii String ZArith List Bool Lia ZifyBool ZifyNat Reals Lra Floats.SpecFloat Permutation Sorted.
From Flocq Require Import Core BinarySingleNaN.
From Verif Require Import PyBase PyBytes PyFloat Float_Proofs Tool_Model Calib_Model Config_Model Config_Proofs Flash_Model
  Flash_Proofs Calfile_Model Migrate_Tables Tree_Model Proc Compensate_Model Compensate_Spec Compensate_Proofs Props_Cogging.
Import ListNotations.
Open Scope Z_scope.

Ltac step_only := first
  [ apply only_bind; [|intros]
  | apply only_ret | apply only_throw | apply only_lift
  | first [apply only_ask | refine (@only_ask kreq krep _ (KCommand _ _) _)];
      first [exact I | solve [repeat split; try discriminate; intros [? ?]; discriminate] | (split; intros [? ?]; discriminate)]
  | match goal with |- only _ (match ?x with _ => _ end) => destruct x end
  | match goal with |- only _ (if ?x then _ else _) => destruct x end ].

Lemma only_each_from ok {X} (f : Z -> X -> K unit) l : (forall i x, only ok (f i x)) -> forall i, only ok (each_from i f l).
Proof. intros H. induction l as [|x l IH]; intros i; cbn [each_from]; [apply only_ret|]. apply only_bind; auto. Qed.

Lemma length_range_nat n : length (py_range 0 n) = Z.to_nat n.
Proof. unfold py_range. rewrite map_length, seq_length. lia. Qed.

Section C.
Variable parse_float : list Z -> res float.
Variable float_str : float -> list Z.
Variable py_sum np_mean : list float -> float.
Variable sample : list (float * float) -> Z -> res (list float).

Notation main := (encoder_main parse_float float_str py_sum np_mean sample).

(** ** The limits and the motor, however the run ends *)

(** A request that neither starts the motor nor takes the limits off. *)
Definition other (r : kreq) : Prop :=
  match r with
  | KCommand text _ | KWrite text => ~ begins (lit "conf set servopos.") text /\ ~ begins (lit "d pos ") text /\ ~ begins (lit "d vdq ") text
  | KPosition _ _ => False
  | _ => True
  end.

Lemma other_get name : only other (get_double parse_float name).
Proof. unfold get_double. repeat step_only. Qed.
Lemma other_can channel : only other (can_compensate_encoder parse_float channel).
Proof. unfold can_compensate_encoder. repeat first [apply other_get|step_only]. Qed.
Lemma other_quiet : only other quiet.
Proof. unfold quiet, kcommand, kawait. repeat step_only. Qed.
Lemma other_zero a size used has : only other (zero_table a size used has).
Proof.
  unfold zero_table, kset, conf_set, table_name, scale_name, source, kcommand, kawait.
  repeat first [apply only_each_from; intros|step_only].
Qed.
Lemma other_table channel text table : forall i, only other (set_table channel i text table).
Proof.
  induction table as [|x table IH]; intros i; cbn [set_table]; unfold kset, conf_set, table_name, scale_name, source, kcommand, kawait;
    repeat first [apply IH|step_only].
Qed.
Lemma other_store a d size used has sampled : only other (store parse_float float_str a d size used has sampled).
Proof.
  unfold store, kset, conf_set, table_name, scale_name, source, kcommand, kawait. repeat first [apply other_table|step_only].
Qed.

(** What follows the measurement. *)
Definition rest (a : encoder_args) (d : items) (size : Z) (used has : bool) (points : option (list (float * float))) : K (option unit) :=
  match points with
  | None => Ret None
  | Some points =>
      do _ <- (if en_write_integrated a then kawait (KNote points) else Ret tt);
      do sampled <- lift (sample points size);
      if en_no_store a then Ret (Some tt)
      else do _ <- store parse_float float_str a d size used has sampled; Ret (Some tt)
  end.
Lemma other_rest a d size used has points : only other (rest a d size used has points).
Proof. unfold rest. repeat first [apply other_store|step_only]. Qed.

Definition off (name : string) : list Z := set_text (lit name) (lit "nan").

Lemma not_off (t : list kev) x : Forall (fun e => other (question e)) t ->
  ~ In (kanswered (KCommand (off "servopos.position_max") false) x) t.
Proof.
  intros F I. rewrite Forall_forall in F. destruct (F _ I) as [N _]. apply N. exists (lit "position_max nan"). reflexivity.
Qed.

Lemma fail_ask r e t : traces (@ask kreq krep r) t (Some (inl e)) -> t = [kanswered r (inl e)].
Proof.
  intros [[H _]|(x & t' & -> & H)]; [discriminate|]. destruct x as [e'|x]; cbn [answer] in H; destruct H as [-> [H|H]]; try discriminate.
  injection H as ->. reflexivity.
Qed.
Lemma fail_set name value e t : traces (kset name value) t (Some (inl e)) -> t = [kanswered (KCommand (set_text name value) false) (inl e)].
Proof.
  intros H. apply traces_bind in H as [[_ H]|[(x & H & E)|(x & t1 & t2 & -> & _ & H)]]; [discriminate| |].
  - injection E as <-. now apply (fail_ask (KCommand _ _)) in H.
  - destruct H as [_ [H|H]]; discriminate.
Qed.

Lemma main_shape a t o r0 : traces (main a) t (Some o) ->
  In (kanswered (KCommand (off "servopos.position_max") false) (inr r0)) t ->
  exists d size used has rlo rhi lo hi t0 r1 r2 t1,
    t = t0 ++ [kanswered (KCommand (off "servopos.position_min") false) (inr r1);
               kanswered (KCommand (off "servopos.position_max") false) (inr r2)] ++ t1 /\
    Forall (fun e => other (question e)) t0 /\
    told (lit "servopos.position_min") rlo t0 /\ parse_float rlo = Ok lo /\
    told (lit "servopos.position_max") rhi t0 /\ parse_float rhi = Ok hi /\
    traces (do points <- compensation parse_float float_str py_sum np_mean a lo hi; rest a d size used has points) t1 (Some o).
Proof.
  intros H I. unfold encoder_main in H.
  assert (X : exists u0 u1 d size used has, t = u0 ++ u1 /\ Forall (fun e => other (question e)) u0 /\
              traces (measure_and_store parse_float float_str py_sum np_mean sample a d size used has) u1 (Some o)).
  { apply traces_bind in H as [[_ H]|[(e & H & _)|(x & t1 & t2 & -> & H1 & H)]]; [discriminate|exfalso; eapply not_off; [|exact I]; eapply other_quiet, H|].
    pose proof (other_quiet _ _ H1) as F1. clear H1.
    assert (G : forall A (p : K A) (f : A -> K (option unit)) v u, only other p -> Forall (fun e => other (question e)) v ->
              In (kanswered (KCommand (off "servopos.position_max") false) (inr r0)) (v ++ u) ->
              traces (do x <- p; f x) u (Some o) ->
              exists x u1 u2, u = u1 ++ u2 /\ Forall (fun e => other (question e)) (v ++ u1) /\ traces (f x) u2 (Some o)).
    { clear - r0. intros A p f v u P V I H.
      apply traces_bind in H as [[_ H]|[(e & H & _)|(x & t1 & t2 & -> & H1 & H)]]; [discriminate| |].
      - exfalso. apply (not_off (v ++ u) (inr r0)); [|exact I]. apply Forall_app. split; [exact V|]. eapply P, H.
      - exists x, t1, t2. split; [reflexivity|]. split; [|exact H]. apply Forall_app. split; [exact V|]. eapply P, H1. }
    eapply G in H as (text & w1 & w2 & -> & F2 & H); [|step_only|exact F1|exact I]. rewrite app_assoc in *. clear F1.
    eapply G in H as (d & w3 & w4 & -> & F3 & H); [|step_only|exact F2|exact I]. rewrite app_assoc in *. clear F2.
    eapply G in H as (size & w5 & w6 & -> & F4 & H); [|step_only|exact F3|exact I]. rewrite app_assoc in *. clear F3.
    eapply G in H as (c & w7 & w8 & -> & F5 & H); [|step_only|exact F4|exact I]. rewrite app_assoc in *. clear F4.
    eapply G in H as (cm & w9 & w10 & -> & F6 & H); [|step_only|exact F5|exact I]. rewrite app_assoc in *. clear F5.
    cbv zeta in H. destruct (_ && _) in H.
    { exfalso. destruct H as [-> _]. rewrite app_nil_r in I. eapply not_off; [exact F6|exact I]. }
    eapply G in H as (u & w11 & w12 & -> & F7 & H); [|destruct (_ || _); [apply other_zero|apply only_ret]|exact F6|exact I]. rewrite app_assoc in *.
    destruct (en_zero a && _) in H.
    { exfalso. destruct H as [-> _]. rewrite app_nil_r in I. eapply not_off; [exact F7|exact I]. }
    do 6 eexists. split; [reflexivity|]. split; [exact F7|exact H]. }
  destruct X as (u0 & u1 & d & size & used & has & -> & F & H'). clear H. unfold measure_and_store in H'.
  apply traces_bind in H' as [[_ H]|[(e & H & _)|(rd & t1 & t2 & -> & H1 & H)]]; [discriminate| |].
  { exfalso. apply (not_off (u0 ++ u1) (inr r0)); [|exact I]. apply Forall_app. split; [exact F|]. eapply other_can, H. }
  apply other_can in H1. destruct rd as [rd|].
  2: { exfalso. destruct H as [-> _]. rewrite app_nil_r in I. eapply not_off; [|exact I]. apply Forall_app; auto. }
  assert (F1 : Forall (fun e => other (question e)) (u0 ++ t1)) by (apply Forall_app; auto). rewrite app_assoc in *. clear F H1.
  apply traces_bind in H as [[_ H]|[(e & H & _)|(lo & w1 & w2 & -> & H1 & H)]]; [discriminate| |].
  { exfalso. eapply not_off; [|exact I]. apply Forall_app. split; [exact F1|]. eapply other_get, H. }
  apply ok_get in H1 as (rlo & -> & Plo).
  apply traces_bind in H as [[_ H]|[(e & H & _)|(hi & w3 & w4 & -> & H1 & H)]]; [discriminate| |].
  { exfalso. apply in_app_iff in I as [I|[I|I]]; [eapply not_off; [exact F1|exact I]|discriminate|].
    eapply not_off; [|exact I]. eapply other_get, H. }
  apply ok_get in H1 as (rhi & -> & Phi).
  apply traces_bind in H as [[_ H]|[(e & H & _)|(x & w5 & w6 & -> & H1 & H)]]; [discriminate| |].
  { exfalso. apply (fail_ask (KCommand _ _)) in H. subst w4.
    apply in_app_iff in I as [I|[I|[I|[I|[]]]]]; [eapply not_off; [exact F1|exact I]|discriminate..]. }
  apply ok_command in H1. subst w5.
  apply traces_bind in H as [[_ H]|[(e & H & _)|(x' & w7 & w8 & -> & H1 & H)]]; [discriminate| |].
  { exfalso. apply (fail_ask (KCommand _ _)) in H. subst w6.
    apply in_app_iff in I as [I|[I|[I|[I|[I|[]]]]]]; [eapply not_off; [exact F1|exact I]|discriminate..]. }
  apply ok_command in H1. subst w7.
  exists d, size, used, has, rlo, rhi, lo, hi.
  exists ((u0 ++ t1) ++ [kanswered (KCommand (lit "conf get servopos.position_min") true) (inr rlo);
                         kanswered (KCommand (lit "conf get servopos.position_max") true) (inr rhi)]), x, x', w8.
  split; [rewrite <- !app_assoc; reflexivity|]. split.
  { apply Forall_app. split; [exact F1|]. repeat constructor; intros [? ?]; discriminate. }
  split; [unfold told; rewrite !in_app_iff; cbn; tauto|]. split; [exact Plo|].
  split; [unfold told; rewrite !in_app_iff; cbn; tauto|]. split; [exact Phi|]. exact H.
Qed.

(** The requests that restore. *)
Definition restores (lo hi : float) (r : kreq) : Prop :=
  r = KFlush \/ r = KStop \/ r = KCommand (set_text (lit "servopos.position_min") (float_str lo)) false \/
  r = KCommand (set_text (lit "servopos.position_max") (float_str hi)) false.

Lemma cleanup lo hi o t :
  traces (do _ <- kawait KFlush; do _ <- kawait KStop;
          do _ <- kset (lit "servopos.position_min") (float_str lo);
          kset (lit "servopos.position_max") (float_str hi)) t (Some o) ->
  (exists r e t', restores lo hi r /\ t = t' ++ [kanswered r (inl e)] /\ o = inl e) \/
  (o = inr tt /\ exists x y z, t = [kanswered KFlush (inr x); kanswered KStop (inr tt);
     kanswered (KCommand (set_text (lit "servopos.position_min") (float_str lo)) false) (inr y);
     kanswered (KCommand (set_text (lit "servopos.position_max") (float_str hi)) false) (inr z)]).
Proof.
  intros H. unfold restores.
  apply traces_bind in H as [[_ H]|[(e & H & E)|(x & w1 & w2 & -> & H1 & H)]]; [discriminate| |].
  { left. injection E as ->. apply fail_ask in H. exists KFlush, e, []. auto. }
  apply ok_await in H1. subst w1.
  apply traces_bind in H as [[_ H]|[(e & H & E)|(y & w1 & w3 & -> & H1 & H)]]; [discriminate| |].
  { left. injection E as ->. apply fail_ask in H. subst w2. exists KStop, e, [kanswered KFlush (inr x)]. auto. }
  apply ok_await in H1. subst w1.
  apply traces_bind in H as [[_ H]|[(e & H & E)|(z & w1 & w4 & -> & H1 & H)]]; [discriminate| |].
  { left. injection E as ->. apply fail_set in H. subst w3. do 2 eexists. exists [kanswered KFlush (inr x); kanswered KStop (inr y)].
    split; [right; right; left; reflexivity|]. split; reflexivity. }
  apply ok_set in H1 as (r & ->). destruct o as [e|u].
  { left. apply fail_set in H. subst w4. do 2 eexists.
    exists [kanswered KFlush (inr x); kanswered KStop (inr y); kanswered (KCommand (set_text (lit "servopos.position_min") (float_str lo)) false) (inr r)].
    split; [right; right; right; reflexivity|]. split; reflexivity. }
  right. apply ok_set in H as (r' & ->). destruct u, y. split; [reflexivity|]. do 3 eexists. reflexivity.
Qed.

Lemma stopped_before t e u : stops e -> ~ starts e -> Forall (fun e => ~ starts e) u -> stopped (t ++ e :: u).
Proof.
  intros P N F t1 e' t2 E S. apply app_eq_app in E as (m & [[-> E]|[-> E]]).
  - destruct m as [|x m]; cbn in E.
    + injection E as -> ->. tauto.
    + injection E as <- ->. apply Exists_app. right. now constructor.
  - destruct m as [|x m]; cbn in E.
    + injection E as <- <-. tauto.
    + injection E as <- ->. apply Forall_app in F as [_ F]. apply Forall_inv in F. tauto.
Qed.
Lemma other_starts t : Forall (fun e => other (question e)) t -> Forall (fun e : kev => ~ starts e) t.
Proof.
  intros F. eapply Forall_impl; [|exact F]. intros e O S. unfold other, starts in *. destruct (question e); tauto.
Qed.

(** Once the limits are off, every run that ends leaves them as they were, and the motor stopped; or it ends
    because a request that restores failed. *)
Theorem C72_limits a t o r : traces (main a) t (Some o) ->
  In (kanswered (KCommand (set_text (lit "servopos.position_max") (lit "nan")) false) (inr r)) t ->
  exists rlo rhi lo hi,
    told (lit "servopos.position_min") rlo t /\ parse_float rlo = Ok lo /\
    told (lit "servopos.position_max") rhi t /\ parse_float rhi = Ok hi /\
    ((holds (lit "servopos.position_min") (float_str lo) t /\ holds (lit "servopos.position_max") (float_str hi) t /\ stopped t) \/
     exists q e t', restores lo hi q /\ t = t' ++ [kanswered q (inl e)] /\ o = inl e).
Proof.
  intros H I. destruct (main_shape a t o r H I) as (d & size & used & has & rlo & rhi & lo & hi & t0 & r1 & r2 & t1 & -> & F & Tlo & Plo & Thi & Phi & C).
  exists rlo, rhi, lo, hi.
  split; [unfold told in *; apply in_app_iff; auto|]. split; [exact Plo|].
  split; [unfold told in *; apply in_app_iff; auto|]. split; [exact Phi|].
  apply traces_bind in C as [[_ C]|C]; [discriminate|].
  assert (X : exists u1 u2 o', t1 = u1 ++ u2 /\ traces (match en_reference a with
       | Some r => run_reference py_sum np_mean a r
       | None => run_inertial parse_float float_str py_sum a
       end) u1 (Some o') /\
     ((exists q e t', restores lo hi q /\ u2 = t' ++ [kanswered q (inl e)] /\ o = inl e) \/
      exists x y z u3, u2 = [kanswered KFlush (inr x); kanswered KStop (inr tt);
        kanswered (KCommand (set_text (lit "servopos.position_min") (float_str lo)) false) (inr y);
        kanswered (KCommand (set_text (lit "servopos.position_max") (float_str hi)) false) (inr z)] ++ u3 /\
        Forall (fun e => other (question e)) u3)).
  { assert (Y : forall oc u, traces (compensation parse_float float_str py_sum np_mean a lo hi) u (Some oc) ->
       exists u1 u2 o', u = u1 ++ u2 /\ traces (match en_reference a with
       | Some r => run_reference py_sum np_mean a r
       | None => run_inertial parse_float float_str py_sum a
       end) u1 (Some o') /\
       ((exists q e t', restores lo hi q /\ u2 = t' ++ [kanswered q (inl e)] /\ oc = inl e) \/
        exists x y z, u2 = [kanswered KFlush (inr x); kanswered KStop (inr tt);
        kanswered (KCommand (set_text (lit "servopos.position_min") (float_str lo)) false) (inr y);
        kanswered (KCommand (set_text (lit "servopos.position_max") (float_str hi)) false) (inr z)])).
    { clear. intros oc u H. unfold compensation, finally in H.
      apply traces_bind in H as [[_ H]|[(e & H & E)|(x & u1 & u2 & -> & H1 & H)]]; [discriminate| |].
      - apply traces_catch in H as [[H _]|(x & H & _)]; discriminate.
      - apply traces_catch_ok in H1. exists u1.
        apply traces_bind in H as [[_ H]|[(e & H & E)|([] & w1 & w2 & -> & H & H2)]]; [discriminate| |].
        + exists u2, x. split; [reflexivity|]. split; [exact H1|]. left. injection E as ->.
          apply cleanup in H as [(q & e' & t' & R & -> & E)|[E _]]; [|discriminate]. injection E as <-. eauto 6.
        + exists w1, x. assert (w2 = []) as ->.
          { destruct x; cbn in H2; destruct H2 as [-> _]; reflexivity. }
          rewrite app_nil_r. split; [reflexivity|]. split; [exact H1|].
          apply cleanup in H as [(q & e' & t' & R & -> & E)|[_ (x' & y & z & ->)]]; [discriminate|]. right. eauto. }
    destruct C as [(e & C & E)|(points & v1 & v2 & -> & C & R)].
    - injection E as ->. destruct (Y _ _ C) as (u1 & u2 & o' & -> & R & [Q|(x & y & z & ->)]); exists u1.
      + exists u2, o'. split; [reflexivity|]. split; [exact R|]. left. destruct Q as (q & e' & t' & Q1 & Q2 & Q3). injection Q3 as ->. exists q, e', t'. auto.
      + eexists. exists o'. split; [reflexivity|]. split; [exact R|]. right. exists x, y, z, []. split; [reflexivity|constructor].
    - destruct (Y _ _ C) as (u1 & u2 & o' & -> & R' & [(q & e & t' & _ & _ & Q)|(x & y & z & ->)]); [discriminate|]. exists u1.
      eexists. exists o'. split; [rewrite <- app_assoc; reflexivity|]. split; [exact R'|]. right. exists x, y, z, v2.
      split; [reflexivity|]. eapply other_rest, R. }
  destruct X as (u1 & u2 & o' & -> & _ & [(q & e & t' & R & -> & ->)|(x & y & z & u3 & -> & F3)]).
  { right. exists q, e. eexists. split; [exact R|]. split; [|reflexivity]. rewrite !app_assoc. reflexivity. }
  left.
  assert (HM : forall name, Forall (fun e => forall text, sent e = Some text ->
            ~ begins (set_text (lit "servopos." ++ name) []) text) u3).
  { clear - F3. intros name. eapply Forall_impl; [|exact F3]. intros e O text E [v B].
    assert (N : ~ begins (lit "conf set servopos.") text).
    { unfold sent, other in *. destruct (question e); try discriminate; injection E as <-; tauto. }
    apply N. exists ((name ++ [32]) ++ v). rewrite B. unfold set_text. rewrite <- !app_assoc. reflexivity. }
  match goal with |- holds _ _ (t0 ++ [?m; ?n] ++ u1 ++ [?f; ?s; ?b; ?c] ++ u3) /\ _ =>
    assert (EQ : t0 ++ [m; n] ++ u1 ++ [f; s; b; c] ++ u3 = (t0 ++ m :: n :: u1 ++ [f; s]) ++ b :: c :: u3) by (cbn [app]; rewrite <- ?app_assoc; cbn [app]; rewrite <- ?app_assoc; reflexivity);
    assert (EQ' : t0 ++ [m; n] ++ u1 ++ [f; s; b; c] ++ u3 = (t0 ++ m :: n :: u1 ++ [f; s; b]) ++ c :: u3) by (cbn [app]; rewrite <- ?app_assoc; cbn [app]; rewrite <- ?app_assoc; reflexivity);
    assert (ES : t0 ++ [m; n] ++ u1 ++ [f; s; b; c] ++ u3 = (t0 ++ m :: n :: u1 ++ [f]) ++ s :: b :: c :: u3) by (cbn [app]; rewrite <- ?app_assoc; cbn [app]; rewrite <- ?app_assoc; reflexivity)
  end.
  split; [|split].
  - rewrite EQ. do 3 eexists. split; [reflexivity|]. split; [do 2 eexists; reflexivity|].
    constructor; [intros text E [v B]; cbn [sent question kanswered] in E; injection E as <-; discriminate|]. apply (HM (lit "position_min")).
  - rewrite EQ'. do 3 eexists. split; [reflexivity|]. split; [do 2 eexists; reflexivity|]. apply (HM (lit "position_max")).
  - rewrite ES. apply stopped_before; [right; reflexivity|intros []|].
    constructor; [intros [[v S]|[v S]]; discriminate|]. constructor; [intros [[v S]|[v S]]; discriminate|]. now apply other_starts.
Qed.

(** ** Without storing *)
Lemma keeps_can channel : only keeps (can_compensate_encoder parse_float channel).
Proof. unfold can_compensate_encoder. repeat first [apply (keeps_get parse_float)|step_only]. Qed.
Lemma keeps_reference a r : only keeps (run_reference py_sum np_mean a r).
Proof.
  unfold run_reference. repeat first [apply only_loop; intros|step_only]. unfold reference_step. repeat step_only.
Qed.
Lemma keeps_inertial a : only keeps (run_inertial parse_float float_str py_sum a).
Proof.
  unfold run_inertial, capture_histogram, kcommand, kawait. repeat first [apply (keeps_capture parse_float float_str)|step_only].
Qed.
Lemma keeps_compensation a lo hi : only keeps (compensation parse_float float_str py_sum np_mean a lo hi).
Proof.
  unfold compensation. apply only_finally.
  - destruct (en_reference a); [apply keeps_reference|apply keeps_inertial].
  - unfold kset, conf_set, kcommand, kawait. repeat step_only.
Qed.

Lemma analyze_reference a r t x : en_analyze a = true -> traces (run_reference py_sum np_mean a r) t (Some (inr x)) -> x = None.
Proof.
  intros A H. unfold run_reference in H.
  repeat (apply traces_ok_bind in H as (? & ? & ? & -> & _ & H)). rewrite A in H. now apply traces_ok_ret in H as [_ <-].
Qed.
Lemma analyze_inertial a t x : en_analyze a = true -> traces (run_inertial parse_float float_str py_sum a) t (Some (inr x)) -> x = None.
Proof.
  intros A H. unfold run_inertial in H. do 4 (apply traces_ok_bind in H as (? & ? & ? & -> & _ & H)).
  destruct (negb _).
  - destruct (_ =? 36); [now apply traces_ok_ret in H as [_ <-]|now apply traces_ok_throw in H].
  - repeat (apply traces_ok_bind in H as (? & ? & ? & -> & _ & H)). rewrite A in H. now apply traces_ok_ret in H as [_ <-].
Qed.
Lemma ok_compensation a lo hi x t : traces (compensation parse_float float_str py_sum np_mean a lo hi) t (Some (inr x)) ->
  exists t1 y z w, t = t1 ++ [kanswered KFlush (inr y); kanswered KStop (inr tt);
     kanswered (KCommand (set_text (lit "servopos.position_min") (float_str lo)) false) (inr z);
     kanswered (KCommand (set_text (lit "servopos.position_max") (float_str hi)) false) (inr w)] /\
   traces (match en_reference a with
       | Some r => run_reference py_sum np_mean a r
       | None => run_inertial parse_float float_str py_sum a
       end) t1 (Some (inr x)).
Proof.
  intros H. unfold compensation, finally in H. apply traces_ok_bind in H as (o & t1 & t2 & -> & H1 & H).
  apply traces_catch_ok in H1. apply traces_ok_bind in H as (u & t3 & t4 & -> & H2 & H).
  destruct o as [e|x']; cbn in H; [destruct H as [_ [H|H]]; discriminate|]. destruct H as [-> [H|H]]; [discriminate|]. injection H as <-.
  apply cleanup in H2 as [(q & e & t' & _ & _ & E)|[_ (y & z & w & ->)]]; [discriminate|].
  exists t1, y, z, w. split; [now rewrite app_nil_r|exact H1].
Qed.

Lemma keeps_texts t : Forall (fun e => keeps (question e)) t ->
  Forall (fun text => text <> lit "conf write" /\ ~ sets (lit "motor") text) (texts t).
Proof.
  intros H. induction H as [|e t K _ IH]; [constructor|]. rewrite texts_cons. apply Forall_app. split; [|exact IH].
  destruct e as [r x]; destruct r; cbn [sent question]; repeat constructor; apply K.
Qed.

(** With --analyze, or with --no-store and no reference encoder, no run, however it ends, writes the
    configuration or sets a parameter of the motor or its encoders. *)
Theorem C72_unchanged a t o : en_zero a = false -> (en_analyze a = true \/ en_no_store a = true /\ en_reference a = None) ->
  traces (main a) t o ->
  Forall (fun text => text <> lit "conf write" /\ ~ sets (lit "motor") text) (texts t).
Proof.
  intros Z C H. apply keeps_texts. revert t o H. change (only keeps (main a)). unfold encoder_main. rewrite Z.
  assert (M : forall d size used has, only keeps (measure_and_store parse_float float_str py_sum np_mean sample a d size used has)).
  { intros d size used has. unfold measure_and_store. apply only_bind; [apply keeps_can|]. intros [[]|]; [|apply only_ret].
    apply only_bind; [apply (keeps_get parse_float)|]. intros lo. apply only_bind; [apply (keeps_get parse_float)|]. intros hi.
    apply only_bind; [repeat step_only|]. intros _. apply only_bind; [repeat step_only|]. intros _.
    intros t o H. apply traces_bind in H as [[H _]|[(e & H & _)|(points & t1 & t2 & -> & H1 & H)]]; [eapply keeps_compensation, H..|].
    apply Forall_app. split; [eapply keeps_compensation, H1|]. destruct C as [A|[N R]].
    - apply ok_compensation in H1 as (u & y & z & w & _ & H1).
      assert (points = None) as -> by (destruct (en_reference a); [now apply analyze_reference in H1|now apply analyze_inertial in H1]).
      destruct H as [-> _]. constructor.
    - rewrite N in H. revert H. match goal with |- traces ?p t2 o -> _ => assert (O : only keeps p) by (repeat step_only) end. apply O. }
  unfold quiet, kcommand, kawait. clear Z.
  destruct C as [A|[N R]]; [rewrite A|rewrite R]; cbn [negb]; rewrite ?andb_false_r; cbn [orb andb]; repeat first [apply M|step_only].
Qed.

(** ** The configuration as it was *)
Lemma split1_spec line k v : split1 32 line = Some (k, v) <-> line = k ++ 32 :: v /\ ~ In 32 k.
Proof.
  revert k. induction line as [|c line IH]; intros k; cbn [split1].
  - split; [discriminate|]. intros [H _]. destruct k; discriminate.
  - destruct (c =? 32) eqn:E.
    + apply Z.eqb_eq in E. subst c. split.
      * intros H. injection H as <- <-. auto.
      * intros [H N]. destruct k as [|c k]; cbn in H; [now injection H as ->|]. injection H as <- _. elim N. now left.
    + split.
      * destruct (split1 32 line) as [[k' v']|] eqn:S; [|discriminate]. cbn. intros H. injection H as <- ->.
        destruct (proj1 (IH k') eq_refl) as [-> N]. split; [reflexivity|]. intros [J|J]; [lia|auto].
      * intros [H N]. destruct k as [|c' k]; cbn in H; [injection H as -> _; discriminate|]. injection H as <- H.
        assert (S : split1 32 line = Some (k, v)) by (apply IH; split; [exact H|intros J; apply N; now right]). now rewrite S.
Qed.

Lemma strip_word w : bytes_strip (109 :: w) <> [].
Proof.
  unfold bytes_strip. cbn [drop_space]. change (is_space 109) with false. cbv iota. unfold rstrip.
  intros H. apply (f_equal (@rev Z)) in H. rewrite rev_involutive in H. cbn [rev] in H.
  assert (G : forall l, drop_space (l ++ [109]) <> []).
  { induction l as [|c l IH]; cbn [app drop_space]; [discriminate|]. destruct (is_space c); [exact IH|discriminate]. }
  now apply (G (rev w)).
Qed.

Lemma begins_split k line : ~ In 32 k -> begins (k ++ [32]) line <-> exists v, split1 32 line = Some (k, v).
Proof.
  intros N. split.
  - intros [v ->]. exists v. apply split1_spec. rewrite <- app_assoc. auto.
  - intros [v H]. apply split1_spec in H as [-> _]. exists v. rewrite <- app_assoc. reflexivity.
Qed.

Lemma parse_listed k lines : ~ In 32 (109 :: k) -> forall d0 d, parse_config lines d0 = Ok d ->
  match dget (109 :: k) d with
  | Some v => (exists before after, lines = before ++ ((109 :: k) ++ 32 :: v) :: after /\
                 Forall (fun line => ~ begins ((109 :: k) ++ [32]) line) after) \/
              (dget (109 :: k) d0 = Some v /\ Forall (fun line => ~ begins ((109 :: k) ++ [32]) line) lines)
  | None => dget (109 :: k) d0 = None /\ Forall (fun line => ~ begins ((109 :: k) ++ [32]) line) lines
  end.
Proof.
  intros N. induction lines as [|line lines IH]; intros d0 d H; cbn [parse_config] in H.
  - injection H as ->. destruct (dget _ d); auto.
  - destruct (length (bytes_strip line) =? 0)%nat eqn:E.
    + specialize (IH _ _ H). assert (B : ~ begins ((109 :: k) ++ [32]) line).
      { intros [v ->]. apply Nat.eqb_eq, length_zero_iff_nil in E. cbn [app] in E. now apply strip_word in E. }
      destruct (dget _ d) as [v|]; [destruct IH as [(b & a & -> & F)|[G F]]|destruct IH as [G F]]; auto.
      left. exists (line :: b), a. auto.
    + destruct (split1 32 line) as [[k' v']|] eqn:S; [|discriminate]. specialize (IH _ _ H).
      rewrite dget_dset in IH.
      destruct (bytes_eqb (109 :: k) k') eqn:Q.
      * apply bytes_eqb_eq in Q. subst k'. apply split1_spec in S as [-> _].
        destruct (dget _ d) as [v|]; [|destruct IH; discriminate]. left.
        destruct IH as [(b & a & -> & F)|[G F]].
        -- eexists (_ :: b), a. split; [reflexivity|exact F].
        -- injection G as ->. exists [], lines. auto.
      * assert (B : ~ begins ((109 :: k) ++ [32]) line).
        { intros J. apply (begins_split _ _ N) in J as [v J]. rewrite S in J. injection J as -> _.
          rewrite (proj2 (bytes_eqb_eq _ _) eq_refl) in Q. discriminate. }
        destruct (dget _ d) as [v|]; [destruct IH as [(b & a & -> & F)|[G F]]|destruct IH as [G F]]; auto.
        left. exists (line :: b), a. auto.
Qed.

Lemma config_listed reply d k v : ~ In 32 (109 :: k) -> parse_config (split_on 10 reply) [] = Ok d ->
  dget (109 :: k) d = Some v -> listed reply (109 :: k) v.
Proof.
  intros N P G. pose proof (parse_listed k _ N _ _ P) as H. rewrite G in H. destruct H as [(b & a & E & F)|[H _]]; [|discriminate].
  exists b, a. auto.
Qed.
Lemma config_unlisted reply d k : ~ In 32 (109 :: k) -> parse_config (split_on 10 reply) [] = Ok d ->
  dget (109 :: k) d = None -> ~ exists v, listed reply (109 :: k) v.
Proof.
  intros N P G (v & b & a & E & _). pose proof (parse_listed k _ N _ _ P) as H. rewrite G in H. destruct H as [_ F].
  rewrite E in F. apply Forall_app in F as [_ F]. apply Forall_inv in F. apply F. exists v. rewrite <- app_assoc. reflexivity.
Qed.

(** ** What is sent *)
Definition mute (r : kreq) : Prop := match r with KCommand _ _ | KWrite _ => False | _ => True end.
Lemma mute_texts A (p : K A) t o : only mute p -> traces p t o -> texts t = [].
Proof.
  intros P H. apply P in H. induction H as [|e t M _ IH]; [reflexivity|]. rewrite texts_cons, IH.
  destruct e as [r x]; destruct r; cbn in *; tauto || reflexivity.
Qed.
Lemma table_name_eq c i : table_name c i = table_entry c ++ int_str i.
Proof. unfold table_name, table_entry, source. rewrite <- !app_assoc. reflexivity. Qed.
Lemma scale_name_eq c : scale_name c = table_scale c.
Proof. reflexivity. Qed.

Lemma ok_each {X} (c : list Z) name (l : list X) : forall i t u,
  traces (each_from i (fun i _ => kset (name ++ int_str i) c) l) t (Some (inr u)) ->
  texts t = numbered name i (repeat c (length l)).
Proof.
  induction l as [|x l IH]; intros i t u H; cbn [each_from] in H.
  - apply traces_ok_ret in H as [-> _]. reflexivity.
  - okb H w t1 H1. apply ok_set in H1 as (r & ->). apply IH in H. cbn [app]. rewrite texts_cons, H. reflexivity.
Qed.

Lemma ok_zero a size used has u t : traces (zero_table a size used has) t (Some (inr u)) ->
  texts t = writing_texts (en_channel a) (repeat (lit "0") (Z.to_nat size)) (if has then Some (lit "0") else None) used.
Proof.
  unfold zero_table. intros H. okb H u1 t1 H1.
  assert (T1 : texts t1 = numbered (table_entry (en_channel a)) 0 (repeat (lit "0") (Z.to_nat size))).
  { rewrite <- (length_range_nat size). apply (ok_each (lit "0")) with (u := u1). revert H1.
    assert (E : forall l i, each_from i (fun i (_ : Z) => kset (table_name (en_channel a) i) (lit "0")) l =
                            each_from i (fun i (_ : Z) => kset (table_entry (en_channel a) ++ int_str i) (lit "0")) l).
    { induction l as [|y l IH]; intros i; cbn [each_from]; [reflexivity|]. now rewrite table_name_eq, IH. }
    rewrite E. auto. }
  okb H u2 t2 H2. okb H u3 t3 H3. okc H t4. apply traces_ok_ret in H as [-> _].
  assert (T2 : texts t2 = match (if has then Some (lit "0") else None) with Some x => [set_text (table_scale (en_channel a)) x] | None => [] end).
  { destruct has; [apply ok_set in H2 as (r & ->); reflexivity|now apply traces_ok_ret in H2 as [-> _]]. }
  assert (T3 : texts t3 = if used then [set_text (lit "motor.poles") (lit "0")] else []).
  { destruct used; [okc H3 t5; apply traces_ok_ret in H3 as [-> _]; reflexivity|now apply traces_ok_ret in H3 as [-> _]]. }
  rewrite !texts_app, T1, T2, T3. reflexivity.
Qed.

Lemma ok_table channel text table : forall i u t, traces (set_table channel i text table) t (Some (inr u)) ->
  exists vs, map_res text table = Ok vs /\ texts t = numbered (table_entry channel) i vs.
Proof.
  induction table as [|x table IH]; intros i u t H; cbn [set_table] in H.
  - apply traces_ok_ret in H as [-> _]. exists []. split; reflexivity.
  - okl H Ex. okb H w t1 H1. apply ok_set in H1 as (r & ->). apply IH in H as (vs & M & T).
    exists (v :: vs). cbn [map_res]. rewrite Ex, M. split; [reflexivity|]. cbn [app]. rewrite texts_cons, T, table_name_eq. reflexivity.
Qed.

(** ** Measuring with a reference *)
Lemma readings_app t u : readings (t ++ u) = readings t ++ readings u.
Proof. apply flat_map_app. Qed.
Lemma clocks_app t u : clocks (t ++ u) = clocks t ++ clocks u.
Proof. apply flat_map_app. Qed.

Lemma insert_permutation p l : Permutation (p :: l) (insert_pair p l).
Proof.
  induction l as [|q l IH]; cbn [insert_pair]; [reflexivity|]. destruct (pair_ltb p q); [reflexivity|].
  rewrite perm_swap. now constructor.
Qed.
Lemma sort_permutation l : Permutation l (sort_pairs l).
Proof.
  unfold sort_pairs. assert (G : forall l acc, Permutation (l ++ acc) (fold_left (fun acc p => insert_pair p acc) l acc)).
  { induction l0 as [|p l0 IH]; intros acc; cbn [fold_left app]; [reflexivity|]. rewrite <- IH. rewrite <- insert_permutation. apply Permutation_middle. }
  rewrite <- G, app_nil_r. reflexivity.
Qed.
Lemma feqb_correct x y : number x -> number y -> feqb x y = Req_bool (F2 x) (F2 y).
Proof.
  intros [Hx Fx] [Hy Fy]. unfold feqb. rewrite <- (B2SF_b64 x Hx) at 1. rewrite <- (B2SF_b64 y Hy) at 1.
  change (Beqb (b64 x Hx) (b64 y Hy) = Req_bool (F2 x) (F2 y)).
  rewrite Beqb_correct by (rewrite fin_b64; assumption). rewrite !B2R_b64. reflexivity.
Qed.
Definition below (p q : float * float) : Prop := (F2 (fst p) <= F2 (fst q))%R.
Lemma pair_cases p q : number (fst p) -> number (fst q) -> (pair_ltb p q = true /\ below p q) \/ (pair_ltb p q = false /\ below q p).
Proof.
  intros P Q. unfold pair_ltb, below. destruct (lt_cases (fst p) (fst q) P Q) as [[-> L]|[-> L]]; cbn [orb]; [left; split; [reflexivity|lra]|].
  destruct (lt_cases (fst q) (fst p) Q P) as [[_ L']|[_ L']]; [|destruct (feqb (fst p) (fst q) && fltb (snd p) (snd q)); [left|right]; auto].
  assert (E : feqb (fst p) (fst q) = false); [|rewrite E; right; auto].
  rewrite feqb_correct by auto. apply Req_bool_false. lra.
Qed.
Lemma insert_sorted p l : number (fst p) -> Forall (fun q => number (fst q)) l -> Sorted below l -> Sorted below (insert_pair p l).
Proof.
  intros P. induction l as [|q l IH]; intros F S; cbn [insert_pair]; [repeat constructor|].
  inversion F as [|? ? Q Fl]; subst. inversion S as [|? ? Sl Hd]; subst.
  destruct (pair_cases p q P Q) as [[-> L]|[-> L]]; [constructor; [exact S|now constructor]|].
  constructor; [now apply IH|]. destruct l as [|r l]; cbn [insert_pair]; [now constructor|].
  destruct (pair_ltb p r); [now constructor|]. inversion Hd; now constructor.
Qed.
Lemma sort_sorted l : Forall (fun p => number (fst p)) l -> Sorted below (sort_pairs l).
Proof.
  unfold sort_pairs. assert (G : forall l acc, Forall (fun p => number (fst p)) l -> Forall (fun p => number (fst p)) acc -> Sorted below acc ->
    Sorted below (fold_left (fun acc p => insert_pair p acc) l acc)).
  { induction l0 as [|p l0 IH]; intros acc F A S; cbn [fold_left]; [exact S|]. inversion F as [|? ? P Fl]; subst. apply IH; [exact Fl| |now apply insert_sorted].
    apply Forall_forall. intros q I. assert (I' : In q (p :: acc)) by (eapply Permutation_in; [symmetry; apply insert_permutation|exact I]).
    destruct I' as [<-|I']; [exact P|]. rewrite Forall_forall in A. auto. }
  intros F. apply G; [exact F|constructor|constructor].
Qed.

Lemma reference_loop a r start total x t results :
  traces (Loop (reference_step a r start total) x Ret) t (Some (inr results)) ->
  exists visits last last_time,
    readings t = map (fun v => Some (fst v)) visits ++ [last] /\
    clocks t = map snd visits ++ [last_time] /\
    fgtb (fsub last_time start) total = true /\
    Forall (fun v => fgtb (fsub (snd v) start) total = false /\ rd_mode (fst v) <> 11 /\ rd_fault (fst v) = 0) visits /\
    results = rev (map (fun v => Some (fst v)) (filter (fun v => fgtb (fsub (snd v) start) (en_initial_time a)) visits)) ++ snd x.
Proof.
  cbn [traces]. remember (Some (inr results)) as o eqn:Eo. induction 1 as [x t H|x t e H|x t x' t' o H _ IH|x t b t' o H K]; try discriminate.
  - destruct (IH Eo) as (visits & last & last_time & R & C & T & F & E). clear IH. destruct x as [lp rs]. unfold reference_step in H.
    okc H t1. okc H t2. rename a0 into this. rename a1 into now. cbv zeta in H.
    destruct (fgtb (fsub now start) total) eqn:G; [apply traces_ok_ret in H as [_ H]; discriminate|].
    okl H Er. destruct this as [rd|]; [|discriminate]. injection Er as <-.
    destruct ((rd_mode rd =? 11) || negb (rd_fault rd =? 0)) eqn:MF; [now apply traces_ok_throw in H|]. apply orb_false_elim in MF as [M1 M2].
    okc H t4. match type of H with traces _ ?l _ => rename l into rest0 end.
    assert (X : exists lp', x' = (lp', if fgtb (fsub now start) (en_initial_time a) then Some rd :: rs else rs) /\ rest0 = []).
    { destruct (fgtb (fsub now lp) (flit 1 1)).
      - okl H Ep. apply traces_ok_ret in H as [-> H]. injection H as <-. eauto.
      - apply traces_ok_ret in H as [-> H]. injection H as <-. eauto. }
    destruct X as (lp' & -> & ->).
    exists ((rd, now) :: visits), last, last_time. rewrite readings_app, clocks_app, R, C. split; [reflexivity|]. split; [reflexivity|]. split; [exact T|].
    split; [constructor; [cbn [fst snd]; split; [exact G|]; lia|exact F]|]. rewrite E. cbn [filter fst snd]. destruct (fgtb (fsub now start) (en_initial_time a)).
    + cbn [map rev fst]. rewrite <- app_assoc. reflexivity.
    + reflexivity.
  - subst o. apply traces_ok_ret in K as [-> ->]. destruct x as [lp rs]. unfold reference_step in H.
    okc H t1. okc H t2. rename a0 into this. rename a1 into now. cbv zeta in H.
    destruct (fgtb (fsub now start) total) eqn:G.
    + apply traces_ok_ret in H as [-> H]. injection H as <-. exists [], this, now. repeat split; auto.
    + okl H Er. destruct ((rd_mode v =? 11) || negb (rd_fault v =? 0)); [now apply traces_ok_throw in H|]. okc H t4.
      destruct (fgtb (fsub now lp) (flit 1 1)); [okl H Ep|]; apply traces_ok_ret in H as [_ H]; discriminate.
Qed.

Lemma get_reads rd number x : get_encoder (Some rd) number = Ok (Some x) -> reads rd number x.
Proof.
  unfold get_encoder, reads. destruct number as [|[p|[p|p|]|]|p]; try discriminate; intros [= <-]; auto.
Qed.
Lemma both_read a r rds pairs : both_encoders a r (map Some rds) = Ok pairs ->
  Forall2 (fun rd p => reads rd r (fst p) /\ reads rd (en_channel a) (snd p)) rds pairs.
Proof.
  unfold both_encoders. revert pairs. induction rds as [|rd rds IH]; intros pairs; cbn [map map_res].
  - cbn [bind combine map_res]. intros [= <-]. constructor.
  - destruct (get_encoder (Some rd) r) as [x|] eqn:Ex; [|discriminate]. cbn [bind].
    destruct (map_res (fun x0 => get_encoder x0 r) (map Some rds)) as [xs|]; [|discriminate]. cbn [bind].
    destruct (get_encoder (Some rd) (en_channel a)) as [y|] eqn:Ey; [|discriminate]. cbn [bind].
    destruct (map_res (fun x0 => get_encoder x0 (en_channel a)) (map Some rds)) as [ys|]; [|discriminate]. cbn [bind combine map_res] in *.
    destruct x as [x|]; [|discriminate]. cbn [fst snd number_of bind]. destruct y as [y|]; [|discriminate]. cbn [number_of bind].
    match goal with |- context[map_res ?g (combine xs ys)] => destruct (map_res g (combine xs ys)) as [ps|] eqn:Ep end; [|discriminate]. cbn [bind].
    intros H. apply Ok_inj in H. subst pairs. constructor; [split; now apply get_reads|]. now apply IH.
Qed.
Lemma ok_reference a r t points : traces (run_reference py_sum np_mean a r) t (Some (inr (Some points))) ->
  reference_points py_sum np_mean (en_channel a) r (en_revolutions a) (en_velocity a) (en_initial_time a) t points.
Proof.
  intros H. unfold run_reference in H. okc H t1. rename a0 into start. okl H Eq0. rename v into q. cbv zeta in H. okb H results t2 HL. okc H t3.
  apply reference_loop in HL as (visits & last & last_time & R & C & T & F & E). rewrite app_nil_r in E.
  okl H Epairs. rename v into pairs. okl H Eerr. rename v into errors. okl H Emax.
  destruct (en_analyze a); apply traces_ok_ret in H as [-> H]; [discriminate|]. injection H as <-.
  subst results. rewrite rev_involutive in Epairs.
  exists start, q, visits, last, last_time, pairs, errors. split; [exact Eq0|].
  repeat first [rewrite readings_app|rewrite clocks_app]. rewrite R, C. split; [cbn; now rewrite app_nil_r|]. split; [cbn; now rewrite app_nil_r|].
  split; [exact T|]. split; [exact F|]. split.
  { rewrite <- (map_map fst Some) in Epairs. apply both_read in Epairs.
    revert Epairs. generalize (filter (fun v => fgtb (fsub (snd v) start) (en_initial_time a)) visits). clear. intros l. revert pairs.
    induction l as [|v l IH]; intros pairs H; cbn [map] in H; inversion H; subst; constructor; auto. }
  split; [exact Eerr|]. split; [apply sort_permutation|]. intros N. apply (sort_sorted errors). exact N.
Qed.

Lemma ok_measure a points t :
  traces (match en_reference a with
       | Some r => run_reference py_sum np_mean a r
       | None => run_inertial parse_float float_str py_sum a
       end) t (Some (inr (Some points))) ->
  en_analyze a = false /\
  texts t = measuring_texts float_str (en_channel a) (en_reference a) (if absolute a then lit "o" else lit "c") (en_voltage a) (en_split_count a) /\
  (en_reference a = None -> exists rows m u, map_res (hist_rows parse_float) (histograms t) = Ok rows /\
     placed (float_arith py_sum) 0 (Z.of_nat (length (concat rows))) (concat rows) = Ok m /\
     unbiased (float_arith py_sum) m = Ok u /\ integrated (float_arith py_sum) fmod1 u = Ok points) /\
  (forall r, en_reference a = Some r ->
     reference_points py_sum np_mean (en_channel a) r (en_revolutions a) (en_velocity a) (en_initial_time a) t points) /\
  (en_reference a = None -> exists fault, In (kanswered KStats (inr (8, fault))) t).
Proof.
  destruct (en_reference a) as [r|] eqn:R; intros H.
  - split; [|split; [|split; [discriminate|split; [intros r' [= <-]; now apply ok_reference|discriminate]]]].
    + destruct (en_analyze a) eqn:A; [|reflexivity]. now apply analyze_reference in H.
    + eapply mute_texts; [|exact H]. unfold run_reference. repeat first [apply only_loop; intros|step_only]. unfold reference_step. repeat step_only.
  - assert (A : en_analyze a = false) by (destruct (en_analyze a) eqn:A; [|reflexivity]; now apply analyze_inertial in H).
    unfold run_inertial in H. okc H t1. okc H t2. okc H t3. okc H t4.
    match type of H with traces (if negb (fst ?x =? 8) then _ else _) _ _ => rename x into stats; destruct (Z.eqb_spec (fst stats) 8) as [M8|_] end; cbn [negb] in H.
    2:{ destruct (_ =? 36); [now apply traces_ok_ret in H as [_ H]|now apply traces_ok_throw in H]. }
    okb H values t5 H1. apply capture_texts in H1 as (T & _ & rows & M & ->). okc H t6. okl H Em. okl H Eu. okb H w t7 H1.
    rewrite A in H. okl H Ei. apply traces_ok_ret in H as [-> H]. injection H as <-.
    assert (T7 : texts t7 = [] /\ histograms t7 = []).
    { destruct (en_write_unbiased a); [apply ok_await in H1|apply traces_ok_ret in H1 as [H1 _]]; subst t7; split; reflexivity. }
    split; [exact A|]. split.
    + cbn [app]. repeat first [rewrite texts_cons|rewrite texts_app]. rewrite T, (proj1 T7). unfold measuring_texts, hist_options. rewrite A.
      rewrite app_nil_r. destruct (absolute a); reflexivity.
    + split; [|split; [discriminate|intros _; exists (snd stats); rewrite <- M8; destruct stats; cbn; tauto]]. intros _. exists rows, v, v0. split; [|auto].
      rewrite <- M. f_equal. cbn [app]. repeat first [rewrite histograms_cons|rewrite histograms_app]. rewrite (proj2 T7).
      cbn [app]. rewrite ?app_nil_r. reflexivity.
Qed.

(** ** The table *)
Lemma no_blank z : ~ In 32 (int_str z).
Proof.
  unfold int_str. destruct (z <? 0) eqn:E.
  - intros [H|H]; [discriminate|]. apply nat_digits_in in H; lia.
  - intros H. apply nat_digits_in in H; lia.
Qed.
Lemma entry_name c i : exists k, table_entry c ++ int_str i = 109 :: k /\ ~ In 32 (109 :: k).
Proof.
  eexists. split; [reflexivity|]. change (~ In 32 ((lit "motor_position.sources." ++ int_str c ++ lit ".compensation_table.") ++ int_str i)).
  rewrite !in_app_iff. pose proof (no_blank c). pose proof (no_blank i). vm_compute (lit _). cbn [In].
  intuition discriminate.
Qed.
Lemma scale_name_k c : exists k, table_scale c = 109 :: k /\ ~ In 32 (109 :: k).
Proof.
  eexists. split; [reflexivity|]. change (~ In 32 (lit "motor_position.sources." ++ int_str c ++ lit ".compensation_scale")).
  rewrite !in_app_iff. pose proof (no_blank c). vm_compute (lit _). cbn [In]. intuition discriminate.
Qed.

Lemma item_listed reply d name v : (exists k, name = 109 :: k /\ ~ In 32 (109 :: k)) ->
  parse_config (split_on 10 reply) [] = Ok d -> Config_Model.item name d = Ok v -> listed reply name v.
Proof.
  intros (k & -> & N) P I. unfold Config_Model.item in I. destruct (dget _ d) eqn:G; [|discriminate]. injection I as ->.
  now apply (config_listed reply d k v).
Qed.

(** The table so far. *)
Definition old_entries (reply : list Z) (channel size : Z) (has : bool) (olds : list float) : Prop :=
  exists step,
    (if has then exists text s, listed reply (table_scale channel) text /\ parse_float text = Ok s /\ step = fdiv s (float_of_Z 127)
     else step = float_of_Z 1) /\
    Z.of_nat (length olds) = size /\
    forall i, 0 <= i < size -> exists text x, listed reply (table_entry channel ++ int_str i) text /\ parse_float text = Ok x /\
      nth_error olds (Z.to_nat i) = Some (fmul x step).

Lemma old_spec reply d channel size has olds : parse_config (split_on 10 reply) [] = Ok d -> 0 <= size ->
  old_table parse_float d channel size has = Ok olds -> old_entries reply channel size has olds.
Proof.
  intros P S H. unfold old_table in H.
  destruct (if has then _ else _) as [step|] eqn:Es; [|discriminate]. cbn [bind] in H.
  exists step. apply map_res_spec in H as [L H]. rewrite length_range_nat in L. split; [|split].
  - destruct has; [|apply Ok_inj in Es; congruence]. destruct (Config_Model.item _ d) as [t|] eqn:I; [|discriminate]. cbn [bind] in Es.
    destruct (parse_float t) as [x|] eqn:Px; [|discriminate]. cbn [bind] in Es. apply float_div_ok in Es.
    exists t, x. split; [|auto]. eapply item_listed; [apply scale_name_k|exact P|exact I].
  - lia.
  - intros i Hi. destruct (H (Z.to_nat i) i) as (y & N & E).
    { rewrite nth_range by lia. f_equal. lia. }
    clear H. cbv beta in E. destruct (Config_Model.item (table_name channel i) d) as [t|] eqn:I; [|discriminate]. cbn [bind] in E.
    destruct (parse_float t) as [x|] eqn:Px; [|discriminate]. cbn [bind] in E. injection E as <-.
    exists t, x. split; [|auto]. rewrite table_name_eq in I. eapply item_listed; [apply entry_name|exact P|exact I].
Qed.

Lemma new_spec a : forall sampled olds news, new_table a sampled olds = Ok news -> length sampled = length olds ->
  length news = length olds /\
  forall i o x n, nth_error olds i = Some o -> nth_error sampled i = Some x -> nth_error news i = Some n ->
    corrected (absolute a) (en_factor a) o x n.
Proof.
  induction sampled as [|x sampled IH]; intros [|o olds] news H L; cbn [new_table] in H; try discriminate.
  - injection H as <-. split; [reflexivity|]. intros [|i]; discriminate.
  - destruct (new_table a sampled olds) as [r|] eqn:E; [|discriminate]. cbn [bind] in H. injection H as <-.
    destruct (IH olds r E) as [L' F]; [cbn in L; lia|]. split; [cbn; lia|].
    intros [|i] o' x' n'; cbn [nth_error]; [|apply F]. intros [= ->] [= ->] [= <-]. reflexivity.
Qed.

(** Numbers, the greatest neither tiny nor huge. *)
Definition fit (l : list float) : Prop :=
  usable l /\ forall x, In x l -> (Rabs (F2 x) <= bpow radix2 1000)%R.

Lemma quantised news : fit news -> exists M ds, fmax (map SFabs news) = Ok M /\
  map_res (fun x => let* n := quantise M x in Ok (int_str n)) news = Ok (map int_str ds) /\
  in_steps (F2 M / 127) news ds /\ greatest news (F2 M) /\
  forall i x d, nth_error news i = Some x -> nth_error ds i = Some d -> Rabs (F2 x) = F2 M -> 126 <= Z.abs d.
Proof.
  intros [[N (x0 & I0 & B0)] U]. destruct (one_sided news N) as (M & E & [Om Fm] & (xm & Im & Am) & G); [intros ->; inversion I0|].
  exists M.
  assert (B : (bpow radix2 (-1000) <= F2 M <= bpow radix2 1000)%R).
  { split; [specialize (G x0 I0); lra|]. rewrite <- Am. now apply U. }
  destruct (map_res_all (quantise M)
              (fun x d => (-127 <= d <= 127 /\ (Rabs (IZR d * (F2 M / 127) - F2 x) <= F2 M / 127 * (1 + bpow radix2 (-45)))%R) /\
                          (Rabs (F2 x) = F2 M -> 126 <= Z.abs d)) news) as (ds & Ed & F).
  { intros x I. rewrite Forall_forall in N. destruct (N x I) as [Ox Fx].
    destruct (product_quotient M x Om Fm B Ox Fx (G x I)) as (d & D1 & D2 & D3 & D4). exists d.
    split; [exact D1|]. split; [|exact D4]. split; [lia|exact D3]. }
  exists ds. split; [exact E|]. split; [|split; [|split]].
  - clear - Ed. revert ds Ed. induction news as [|x l IH]; intros ds H; cbn [map_res] in *; [now injection H as <-|].
    destruct (quantise M x) as [n|]; [|discriminate]. cbn [bind] in *. destruct (map_res (quantise M) l) as [r|]; [|discriminate].
    cbn [bind] in H. injection H as <-. rewrite (IH r eq_refl). reflexivity.
  - unfold in_steps. clear - F. induction F as [|x d l ds [H _] _ IH]; constructor; auto.
  - split; [exists xm; auto|exact G].
  - clear - F. induction F as [|x d l ds [_ H] _ IH]; intros [|i] x' d'; cbn [nth_error]; try discriminate; [|apply IH].
    intros [= <-] [= <-]. exact H.
Qed.

(** What is stored of the new entries. *)
Definition stored (has : bool) (news : list float) (values : list (list Z)) (scale : option (list Z)) : Prop :=
  if has then
    exists M ds, scale = Some (float_str M) /\ values = map int_str ds /\ length ds = length news /\
      (fit news -> in_steps (F2 M / 127) news ds /\ greatest news (F2 M) /\
         forall i x d, nth_error news i = Some x -> nth_error ds i = Some d -> Rabs (F2 x) = F2 M -> 126 <= Z.abs d)
  else scale = None /\ values = map float_str news.

Lemma ok_store_table reply a d size used has sampled u t : parse_config (split_on 10 reply) [] = Ok d -> 0 <= size ->
  Z.of_nat (length sampled) = size ->
  traces (store parse_float float_str a d size used has sampled) t (Some (inr u)) ->
  exists olds news values scale, old_entries reply (en_channel a) size has olds /\ length news = length olds /\
    (forall i o x n, nth_error olds i = Some o -> nth_error sampled i = Some x -> nth_error news i = Some n ->
       corrected (absolute a) (en_factor a) o x n) /\
    stored has news values scale /\ texts t = writing_texts (en_channel a) values scale used.
Proof.
  intros P S L H. unfold store in H. okl H Eo. okl H En. okb H w t1 H1. okb H w' t2 H2. okc H t3. apply traces_ok_ret in H as [-> _].
  pose proof (old_spec reply _ _ _ _ _ P S Eo) as O. assert (Lo : Z.of_nat (length v) = size) by (destruct O as (? & _ & ? & _); auto).
  destruct (new_spec a _ _ _ En) as [Ln F]; [lia|].
  assert (T2 : texts t2 = if used then [set_text (lit "motor.poles") (lit "0")] else []).
  { destruct used; [okc H2 t5; apply traces_ok_ret in H2 as [-> _]; reflexivity|now apply traces_ok_ret in H2 as [-> _]]. }
  exists v, v0. destruct has.
  - okl H1 Em. okb H1 w2 t4 H3. apply ok_table in H3 as (vs & Ev & T4). apply ok_set in H1 as (r & ->).
    assert (X : exists ds, vs = map int_str ds /\ map_res (quantise v1) v0 = Ok ds).
    { clear - Ev. revert vs Ev. induction v0 as [|x l IH]; intros vs H; cbn [map_res] in *; [injection H as <-; now exists []|].
      destruct (quantise v1 x) as [n|]; [|discriminate]. cbn [bind] in *.
      destruct (map_res (fun x => let* n := quantise v1 x in Ok (int_str n)) l) as [r|]; [|discriminate]. cbn [bind] in H. injection H as <-.
      destruct (IH r eq_refl) as (ds & -> & ->). exists (n :: ds). auto. }
    destruct X as (ds & -> & Q). exists (map int_str ds), (Some (float_str v1)).
    split; [exact O|]. split; [exact Ln|]. split; [exact F|]. split.
    + exists v1, ds. split; [reflexivity|]. split; [reflexivity|]. split; [apply map_res_spec in Q as [Q _]; exact Q|].
      intros U. destruct (quantised v0 U) as (M & ds' & E1 & E2 & R). rewrite Em in E1. injection E1 as <-.
      rewrite Ev in E2. injection E2 as E2. assert (ds = ds') as ->; [|exact R].
      clear - E2. revert ds' E2. induction ds as [|x ds IH]; intros [|y ds'] E; cbn in E; try discriminate; [reflexivity|].
      injection E as E E'. apply int_str_inj in E. subst. f_equal. auto.
    + rewrite !texts_app, T4, T2. unfold writing_texts. change (texts []) with (@nil (list Z)). cbn [app]. rewrite <- app_assoc. reflexivity.
  - apply ok_table in H1 as (vs & Ev & T1). exists vs, None. split; [exact O|]. split; [exact Ln|]. split; [exact F|]. split.
    + split; [reflexivity|]. clear - Ev. revert vs Ev. induction v0 as [|x l IH]; intros vs H; cbn [map_res bind] in *; [now injection H as <-|].
      destruct (map_res _ l) as [r|]; [|discriminate]. cbn [bind] in H. injection H as <-. cbn. f_equal. now apply IH.
    + rewrite !texts_app, T1, T2. reflexivity.
Qed.

(** ** Whole runs *)
Definition introduction : list (list Z) := [lit "tel stop"; lit "d stop"; lit "conf enumerate motor_position"].

Lemma ok_begin a x t : traces (main a) t (Some (inr x)) ->
  exists reply d size cs commutation has t0 t1 t2, t = t0 ++ t1 ++ t2 /\ texts t0 = introduction /\ histograms t0 = [] /\ histograms t1 = [] /\
    In (kanswered (KCommand (lit "conf enumerate motor_position") false) (inr reply)) t0 /\
    parse_config (split_on 10 reply) [] = Ok d /\ 0 < size /\
    listed reply (lit "motor_position.commutation_source") cs /\ int10 cs = Ok commutation /\
    (has = true <-> exists v, listed reply (table_scale 0) v) /\
    let used := commutation =? en_channel a in
    let zeros := writing_texts (en_channel a) (repeat (lit "0") (Z.to_nat size)) (if has then Some (lit "0") else None) used in
    match en_reference a with
    | Some _ =>
        if used then t1 = [] /\ t2 = [] /\ x = Some tt
        else texts t1 = (if en_zero a || negb (en_analyze a) then zeros else []) /\
             traces (measure_and_store parse_float float_str py_sum np_mean sample a d size used has) t2 (Some (inr x))
    | None =>
        if en_zero a then texts t1 = zeros /\ t2 = [] /\ x = Some tt
        else t1 = [] /\ traces (measure_and_store parse_float float_str py_sum np_mean sample a d size used has) t2 (Some (inr x))
    end.
Proof.
  intros H. unfold encoder_main in H. okb H u t1 H1. apply ok_quiet in H1 as (q1 & q2 & ->).
  okc H t2. okl H Ed. okl H Es. okl H Ec. okl H Ei. cbv zeta in H.
  match type of H with traces _ ?l _ => rename l into tl end.
  exists a0, v, v0, v1, v2, (dmem (lit "motor_position.sources.0.compensation_scale") v).
  exists [kanswered (KWrite (lit "tel stop")) (inr tt); kanswered KFlush (inr q1); kanswered (KCommand (lit "d stop") false) (inr q2);
          kanswered (KCommand (lit "conf enumerate motor_position") false) (inr a0)].
  assert (P0 : 0 < v0).
  { clear - Es. unfold find_compensation_size in Es. destruct (_ =? 0) eqn:E in Es; [discriminate|]. destruct (_ =? _) in Es; [|discriminate].
    apply Ok_inj in Es. lia. }
  assert (L : listed a0 (lit "motor_position.commutation_source") v1).
  { eapply item_listed; [|exact Ed|exact Ec]. eexists. split; [reflexivity|]. vm_compute. intuition discriminate. }
  assert (HS : dmem (lit "motor_position.sources.0.compensation_scale") v = true <-> exists w, listed a0 (table_scale 0) w).
  { assert (N : exists k, table_scale 0 = 109 :: k /\ ~ In 32 (109 :: k)) by apply scale_name_k. destruct N as (k & N & B).
    change (lit "motor_position.sources.0.compensation_scale") with (table_scale 0). rewrite N. unfold dmem.
    destruct (dget (109 :: k) v) as [w|] eqn:G.
    - split; [|reflexivity]. intros _. exists w. now apply (config_listed a0 v k w).
    - split; [discriminate|]. intros X. elim (config_unlisted a0 v k B Ed G X). }
  assert (HT : forall w size used has u t, traces (zero_table w size used has) t (Some (inr u)) -> histograms t = []).
  { clear. intros w size used has u t H.
    assert (O : only (fun r => match r with KCommand text _ => bytes_eqb text (lit "d hend") = false | _ => True end) (zero_table w size used has)).
    { unfold zero_table, kset, conf_set, table_name, scale_name, source, kcommand, kawait.
      repeat first [apply only_each_from; intros|apply only_bind; [|intros]|apply only_ret|refine (@only_ask kreq krep _ (KCommand _ _) _); reflexivity
                   |match goal with |- only _ (if ?b then _ else _) => destruct b end]. }
    apply O in H. clear - H. induction H as [|e t N _ IH]; [reflexivity|]. destruct e as [r [[e|x]|]]; destruct r; cbn in *; auto.
    rewrite N. auto. }
  destruct (en_reference a) as [r|] eqn:R; cbn [andb negb] in H.
  - destruct (v2 =? en_channel a) eqn:U; cbn [andb] in H.
    + apply traces_ok_ret in H as [-> <-]. exists [], []. repeat (split; [solve [reflexivity|cbn; auto|assumption]|]). auto.
    + okb H w t3 H1. rewrite andb_false_r in H. match type of H with traces _ ?l _ => rename l into t4 end. exists t3, t4.
      assert (X : texts t3 = (if en_zero a || negb (en_analyze a)
           then writing_texts (en_channel a) (repeat (lit "0") (Z.to_nat v0)) (if dmem (lit "motor_position.sources.0.compensation_scale") v then Some (lit "0") else None) false else []) /\ histograms t3 = []).
      { destruct (_ || _); [split; [now apply ok_zero in H1|now apply HT in H1]|apply traces_ok_ret in H1 as [-> _]; auto]. }
      split; [reflexivity|]. split; [reflexivity|]. split; [reflexivity|]. split; [apply X|]. split; [cbn; auto|]. split; [exact Ed|].
      split; [exact P0|]. split; [exact L|]. split; [exact Ei|]. split; [exact HS|]. cbv zeta. split; [apply X|exact H].
  - rewrite andb_false_r in H. cbn [orb] in H. okb H w t3 H1. rewrite orb_false_r in H1. rewrite andb_true_r in H.
    match type of H with traces _ ?l _ => rename l into t4 end. exists t3, t4.
    assert (X : histograms t3 = [] /\ if en_zero a then texts t3 = writing_texts (en_channel a) (repeat (lit "0") (Z.to_nat v0)) (if dmem (lit "motor_position.sources.0.compensation_scale") v then Some (lit "0") else None) (v2 =? en_channel a) else t3 = []).
    { destruct (en_zero a); [split; [now apply HT in H1|now apply ok_zero in H1]|apply traces_ok_ret in H1 as [-> _]; auto]. }
    split; [reflexivity|]. split; [reflexivity|]. split; [reflexivity|]. split; [apply X|]. split; [cbn; auto|]. split; [exact Ed|].
    split; [exact P0|]. split; [exact L|]. split; [exact Ei|]. split; [exact HS|]. cbv zeta. destruct X as [_ X].
    destruct (en_zero a); [apply traces_ok_ret in H as [-> <-]|]; auto.
Qed.

(** With --zero and no reference: the table and the scale are set to zero, and nothing else. *)
Theorem C72_zero a t x : en_zero a = true -> en_reference a = None -> traces (main a) t (Some (inr x)) ->
  exists reply size cs commutation scale,
    In (kanswered (KCommand (lit "conf enumerate motor_position") false) (inr reply)) t /\ 0 < size /\
    listed reply (lit "motor_position.commutation_source") cs /\ int10 cs = Ok commutation /\
    (scale = None /\ (~ exists v, listed reply (table_scale 0) v) \/ scale = Some (lit "0") /\ exists v, listed reply (table_scale 0) v) /\
    texts t = introduction ++ writing_texts (en_channel a) (repeat (lit "0") (Z.to_nat size)) scale (commutation =? en_channel a).
Proof.
  intros Z R H. apply ok_begin in H as (reply & d & size & cs & cm & has & t0 & t1 & t2 & -> & T0 & _ & _ & I & _ & S & L & Ei & HS & M).
  cbv zeta in M. rewrite R, Z in M. destruct M as (T1 & -> & _).
  exists reply, size, cs, cm, (if has then Some (lit "0") else None). split; [apply in_app_iff; auto|]. split; [exact S|]. split; [exact L|].
  split; [exact Ei|]. split; [|rewrite !texts_app, T0, T1, app_nil_r; reflexivity].
  destruct has; [right; split; [reflexivity|now apply HS]|left; split; [reflexivity|]]. intros X. apply HS in X. discriminate.
Qed.

(** Otherwise: all that a run which ends well has sent.  [sample] gives as many values as asked for. *)
Theorem C72_sent a t : (forall l n r, sample l n = Ok r -> Z.of_nat (length r) = n) ->
  en_zero a = false \/ en_reference a <> None -> traces (main a) t (Some (inr (Some tt))) ->
  exists reply size cs commutation has,
    In (kanswered (KCommand (lit "conf enumerate motor_position") false) (inr reply)) t /\ 0 < size /\
    listed reply (lit "motor_position.commutation_source") cs /\ int10 cs = Ok commutation /\
    (has = true <-> exists v, listed reply (table_scale 0) v) /\
    let used := commutation =? en_channel a in
    (used = true /\ en_reference a <> None /\ texts t = introduction \/
     exists rlo rhi lo hi points sampled tail,
       told (lit "servopos.position_min") rlo t /\ parse_float rlo = Ok lo /\
       told (lit "servopos.position_max") rhi t /\ parse_float rhi = Ok hi /\
       (en_reference a = None -> forall ys, Forall2 (histogram parse_float) (histograms t) ys ->
          exists m u, placed (float_arith py_sum) 0 (Z.of_nat (length (concat ys))) (concat ys) = Ok m /\
            unbiased (float_arith py_sum) m = Ok u /\ integrated (float_arith py_sum) fmod1 u = Ok points) /\
       (forall r, en_reference a = Some r -> exists before during after, t = before ++ during ++ after /\
          reference_points py_sum np_mean (en_channel a) r (en_revolutions a) (en_velocity a) (en_initial_time a) during points) /\
       (en_reference a = None -> exists fault, In (kanswered KStats (inr (8, fault))) t) /\
       sample points size = Ok sampled /\
       texts t = introduction ++
         match en_reference a with
         | Some _ => writing_texts (en_channel a) (repeat (lit "0") (Z.to_nat size)) (if has then Some (lit "0") else None) used
         | None => []
         end ++
         [lit "conf get motor_position.sources." ++ int_str (en_channel a) ++ lit ".type";
          lit "conf get servopos.position_min"; lit "conf get servopos.position_max";
          set_text (lit "servopos.position_min") (lit "nan"); set_text (lit "servopos.position_max") (lit "nan")] ++
         measuring_texts float_str (en_channel a) (en_reference a) (if anew (en_absolute a) (en_reference a) then lit "o" else lit "c") (en_voltage a) (en_split_count a) ++
         [set_text (lit "servopos.position_min") (float_str lo); set_text (lit "servopos.position_max") (float_str hi)] ++ tail /\
       if en_no_store a then tail = []
       else exists olds news values scale, old_entries reply (en_channel a) size has olds /\ length news = length olds /\
          (forall i o x n, nth_error olds i = Some o -> nth_error sampled i = Some x -> nth_error news i = Some n ->
             corrected (anew (en_absolute a) (en_reference a)) (en_factor a) o x n) /\
          stored has news values scale /\ tail = writing_texts (en_channel a) values scale used).
Proof.
  assert (AB : anew (en_absolute a) (en_reference a) = absolute a).
  { unfold anew, absolute. destruct (en_reference a); [now rewrite orb_true_r|now rewrite orb_false_r]. }
  rewrite AB. clear AB.
  intros SM ZR H. apply ok_begin in H as (reply & d & size & cs & cm & has & t0 & t1 & t2 & -> & T0 & H0 & H1 & I & P & S & L & Ei & HS & M).
  exists reply, size, cs, cm, has. split; [apply in_app_iff; auto|]. split; [exact S|]. split; [exact L|]. split; [exact Ei|]. split; [exact HS|].
  cbv zeta in *.
  assert (X : (cm =? en_channel a) = true /\ en_reference a <> None /\ t1 = [] /\ t2 = [] \/
     (texts t1 = match en_reference a with
         | Some _ => if en_zero a || negb (en_analyze a) then writing_texts (en_channel a) (repeat (lit "0") (Z.to_nat size)) (if has then Some (lit "0") else None) (cm =? en_channel a) else []
         | None => []
         end) /\
     traces (measure_and_store parse_float float_str py_sum np_mean sample a d size (cm =? en_channel a) has) t2 (Some (inr (Some tt)))).
  { destruct (en_reference a) as [r|].
    - destruct (cm =? en_channel a); [left|right; exact M]. destruct M as (-> & -> & _). split; [reflexivity|]. split; [discriminate|auto].
    - destruct (en_zero a); [destruct ZR as [ZR|ZR]; [discriminate|congruence]|]. right. destruct M as [-> M]. auto. }
  clear M. destruct X as [(U & R & -> & ->)|[T1 M]].
  { left. split; [exact U|]. split; [exact R|]. rewrite !texts_app, T0. reflexivity. }
  right. unfold measure_and_store in M. okb M rd u1 Hc. destruct rd as [[]|]; [|apply traces_ok_ret in M as [_ M]; discriminate].
  apply ok_can in Hc as (ss & rt & ->). okb M lo u2 Hl. apply ok_get in Hl as (rlo & -> & Plo).
  okb M hi u3 Hh. apply ok_get in Hh as (rhi & -> & Phi). okc M u4. okc M u5.
  okb M points u6 Hp. destruct points as [points|]; [|apply traces_ok_ret in M as [_ M]; discriminate].
  apply ok_compensation in Hp as (u7 & y & z & w & -> & Hm). apply ok_measure in Hm as (A & Tm & Pm & Pr & Ps).
  okb M n u8 Hn. assert (N8 : texts u8 = [] /\ histograms u8 = []).
  { destruct (en_write_integrated a); [apply ok_await in Hn|apply traces_ok_ret in Hn as [Hn _]]; subst u8; split; reflexivity. }
  okl M Esm. match type of M with traces _ ?l _ => rename l into u9 end.
  assert (G : histograms u9 = [] /\ if en_no_store a then texts u9 = [] else
     exists olds news values scale, old_entries reply (en_channel a) size has olds /\ length news = length olds /\
          (forall i o x n, nth_error olds i = Some o -> nth_error v i = Some x -> nth_error news i = Some n ->
             corrected (absolute a) (en_factor a) o x n) /\
          stored has news values scale /\ texts u9 = writing_texts (en_channel a) values scale (cm =? en_channel a)).
  { destruct (en_no_store a); [apply traces_ok_ret in M as [-> _]; auto|]. okb M k v9 Hs. apply traces_ok_ret in M as [-> _]. rewrite app_nil_r.
    split; [|eapply ok_store_table; [exact P|lia|now apply SM in Esm|exact Hs]].
    assert (O : only (fun r => match r with KCommand text _ => bytes_eqb text (lit "d hend") = false | _ => True end)
                     (store parse_float float_str a d size (cm =? en_channel a) has v)).
    { assert (OT : forall text table i, only (fun r => match r with KCommand text _ => bytes_eqb text (lit "d hend") = false | _ => True end)
                (set_table (en_channel a) i text table)).
      { clear. induction table as [|x table IH]; intros i; cbn [set_table]; [apply only_ret|].
        unfold kset, conf_set, table_name, source, kcommand, kawait.
        repeat first [apply IH|apply only_lift|apply only_bind; [|intros]|apply only_ret|refine (@only_ask kreq krep _ (KCommand _ _) _); reflexivity]. }
      unfold store, kset, conf_set, scale_name, source, kcommand, kawait.
      repeat first [apply OT|apply only_lift|apply only_bind; [|intros]|apply only_ret|refine (@only_ask kreq krep _ (KCommand _ _) _); reflexivity
                   |match goal with |- only _ (if ?b then _ else _) => destruct b end]. }
    apply O in Hs. clear - Hs. induction Hs as [|e t N _ IH]; [reflexivity|]. destruct e as [r [[e|x]|]]; destruct r; cbn in *; auto.
    rewrite N. auto. }
  destruct G as [G1 G2]. exists rlo, rhi, lo, hi, points, v, (texts u9).
  split; [unfold told; rewrite !in_app_iff; cbn; tauto|]. split; [exact Plo|].
  split; [unfold told; rewrite !in_app_iff; cbn; tauto|]. split; [exact Phi|]. split.
  { intros R ys F. destruct (Pm R) as (rows & m & u & E1 & E2 & E3 & E4).
    assert (HH : histograms (t0 ++ t1 ++ [kanswered KSources (inr ss); kanswered (KCommand (lit "conf get " ++ source (en_channel a) (lit "type")) true) (inr rt)] ++
        [kanswered (KCommand (lit "conf get " ++ lit "servopos.position_min") true) (inr rlo)] ++
        [kanswered (KCommand (lit "conf get " ++ lit "servopos.position_max") true) (inr rhi)] ++
        [kanswered (KCommand (lit "conf set servopos.position_min nan") false) (inr a0)] ++
        [kanswered (KCommand (lit "conf set servopos.position_max nan") false) (inr a1)] ++
        (u7 ++ [kanswered KFlush (inr y); kanswered KStop (inr tt);
           kanswered (KCommand (set_text (lit "servopos.position_min") (float_str lo)) false) (inr z);
           kanswered (KCommand (set_text (lit "servopos.position_max") (float_str hi)) false) (inr w)]) ++ u8 ++ u9) = histograms u7).
    { rewrite !histograms_app, H0, H1, (proj2 N8), G1.
      repeat match goal with |- context [histograms (?e :: ?l)] => change (histograms (e :: l)) with (@nil (list Z)) end.
      cbn [app]. rewrite !app_nil_r. reflexivity. }
    cbn [app] in F, HH. rewrite HH in F. exists m, u.
    assert (rows = ys) as <-.
    { clear - F E1 float_str py_sum. revert rows E1. induction F as [|x y h ys Hx _ IH]; intros r M; cbn in M; [now injection M as <-|].
      rewrite (C71_rows parse_float float_str py_sum _ _ Hx) in M. cbn in M. destruct (map_res _ h) eqn:E; [|discriminate]. cbn in M. injection M as <-. f_equal. now apply IH. }
    auto. }
  split.
  { intros r R.
    exists (t0 ++ t1 ++ [kanswered KSources (inr ss); kanswered (KCommand (lit "conf get " ++ source (en_channel a) (lit "type")) true) (inr rt);
        kanswered (KCommand (lit "conf get " ++ lit "servopos.position_min") true) (inr rlo);
        kanswered (KCommand (lit "conf get " ++ lit "servopos.position_max") true) (inr rhi);
        kanswered (KCommand (lit "conf set servopos.position_min nan") false) (inr a0);
        kanswered (KCommand (lit "conf set servopos.position_max nan") false) (inr a1)]), u7.
    eexists. split; [|exact (Pr r R)]. rewrite <- !app_assoc. do 2 f_equal. cbn [app]. do 6 f_equal. }
  split; [intros R; destruct (Ps R) as [fault If]; exists fault; rewrite !in_app_iff; cbn [In]; rewrite ?in_app_iff; tauto|].
  split; [exact Esm|]. split.
  - rewrite !texts_app, T0, T1, Tm, (proj1 N8). rewrite A, orb_true_r. unfold introduction.
    destruct (en_reference a); cbn [app]; rewrite <- ?app_assoc; reflexivity.
  - destruct (en_no_store a); exact G2.
Qed.

(** ** What is never compensated *)
Ltac quiet_only := first
  [ apply only_bind; [|intros]
  | apply only_ret | apply only_throw | apply only_lift
  | match goal with |- only ?ok (ask ?r) => refine (@only_ask kreq krep ok r _) end; cbv beta; discriminate
  | match goal with |- only _ (match ?x with _ => _ end) => destruct x end
  | match goal with |- only _ (if ?x then _ else _) => destruct x end ].
Lemma past {A B} (q : kreq) (p : K A) (f : A -> K B) t o e : only (fun r => r <> q) p -> traces (pbind p f) t o -> In e t -> question e = q ->
  exists x t1 t2, t = t1 ++ t2 /\ traces p t1 (Some (inr x)) /\ traces (f x) t2 o /\ In e t2.
Proof.
  intros O H I Q.
  assert (X : forall u o', traces p u o' -> In e u -> False).
  { intros u o' Hu Iu. apply O in Hu. rewrite Forall_forall in Hu. exact (Hu e Iu Q). }
  apply traces_bind in H as [[H _]|[(e' & H & _)|(x & t1 & t2 & -> & H1 & H)]]; [destruct (X _ _ H I)..|].
  exists x, t1, t2. repeat split; auto. apply in_app_iff in I as [I|I]; [destruct (X _ _ H1 I)|exact I].
Qed.

(** The encoder is measured (the first limit is taken off) only when the device said that it is active, and that its type is not 4,
    which stands for hall sensors. *)
Definition compensable (channel : Z) (t : list kev) : Prop :=
  exists sources type x, In (kanswered KSources (inr sources)) t /\ py_index sources channel = Ok (true, true) /\
    told (lit "motor_position.sources." ++ int_str channel ++ lit ".type") type t /\ parse_float type = Ok x /\ feqb x (float_of_Z 4) = false.

Lemma ready_told channel t : traces (can_compensate_encoder parse_float channel) t (Some (inr (Some tt))) -> compensable channel t.
Proof.
  intros H. unfold can_compensate_encoder in H. okc H t1. rename a into ss. okl H Es. destruct v as [x y]. cbn [fst snd] in H.
  destruct x; [|now apply traces_ok_ret in H as [_ H]]. destruct y; [|now apply traces_ok_ret in H as [_ H]]. cbn [andb negb] in H.
  okb H type t2 Hg. apply ok_get in Hg as (rt & -> & Pt). destruct (feqb type (float_of_Z 4)) eqn:F; apply traces_ok_ret in H as [-> H]; [discriminate|].
  exists ss, rt, type. unfold told, source. cbn. tauto.
Qed.
Lemma compensable_app channel t u v : compensable channel u -> compensable channel (t ++ u ++ v).
Proof. intros (s & y & x & I & P & T & F). exists s, y, x. unfold told in *. rewrite !in_app_iff. tauto. Qed.

Theorem C72_ready a t o e : traces (main a) t o -> In e t -> question e = KCommand (set_text (lit "servopos.position_min") (lit "nan")) false ->
  compensable (en_channel a) t.
Proof.
  intros H I Q. unfold encoder_main, quiet, kcommand, kawait in H.
  eapply past in H as (? & t1 & t2 & -> & _ & H & I2); [| |exact I|exact Q]; [clear I|solve [repeat quiet_only]].
  do 5 (eapply past in H as (? & ? & ? & -> & _ & H & I); [| |exact I2|exact Q]; [clear I2; rename I into I2|solve [repeat quiet_only]]). cbv zeta in H.
  match type of H with traces (if ?b then _ else _) _ _ => destruct b end.
  { destruct H as [-> _]. destruct I2. }
  eapply past in H as (? & ? & ? & -> & _ & H & I); [| |exact I2|exact Q]; [clear I2; rename I into I2|].
  2:{ match goal with |- only _ (if ?b then _ else _) => destruct b end; [|apply only_ret]. unfold zero_table.
      apply only_bind; [apply only_each_from; intros; unfold kset, conf_set, table_name, source, kcommand, kawait; repeat quiet_only|]. intros _.
      unfold kset, conf_set, scale_name, source, kcommand, kawait. repeat quiet_only. }
  match type of H with traces (if ?b then _ else _) _ _ => destruct b end.
  { destruct H as [-> _]. destruct I2. }
  unfold measure_and_store in H.
  eapply past in H as ([[]|] & u & v & -> & Hr & H & I); [| | |exact I2|exact Q]; [| |unfold can_compensate_encoder, get_double, source, kcommand, kawait; repeat quiet_only].
  2:{ destruct H as [-> _]. destruct I. }
  apply ready_told in Hr. rewrite !app_assoc, <- (app_assoc _ u v). 
  now apply compensable_app.
Qed.

(** The same for the cogging torque, of the encoder that commutates the motor. *)
Theorem C71_ready a t o e : traces (cogging_main parse_float float_str py_sum a) t o -> In e t ->
  question e = KCommand (set_text (lit "servopos.position_min") (lit "nan")) false ->
  exists reply x channel, told (lit "motor_position.commutation_source") reply t /\ parse_float reply = Ok x /\ py_int x = Ok channel /\ compensable channel t.
Proof.
  intros H I2 Q. unfold cogging_main, quiet, kcommand, kawait in H.
  do 3 (eapply past in H as (? & ? & ? & -> & _ & H & I); [| |exact I2|exact Q]; [clear I2; rename I into I2|solve [unfold get_double, kawait; repeat quiet_only]]).
  eapply past in H as (xc & u & ? & -> & Hg & H & I); [| |exact I2|exact Q]; [clear I2; rename I into I2|solve [unfold get_double, kawait; repeat quiet_only]].
  apply ok_get in Hg as (reply & -> & Pr).
  eapply past in H as (channel & u & ? & -> & Hc & H & I); [| |exact I2|exact Q]; [clear I2; rename I into I2|solve [repeat quiet_only]].
  apply traces_ok_lift in Hc as [-> Pc].
  eapply past in H as ([[]|] & v & w & -> & Hr & H & I); [| | |exact I2|exact Q]; [| |unfold can_compensate_encoder, get_double, source, kcommand, kawait; repeat quiet_only].
  2:{ destruct H as [-> _]. destruct I. }
  apply ready_told in Hr. exists reply, xc, channel. split; [unfold told; rewrite !in_app_iff; cbn; tauto|]. split; [exact Pr|]. split; [exact Pc|].
  rewrite !app_assoc, <- (app_assoc _ v w). now apply compensable_app.
Qed.
End C.

(** ** Examples

    A device with two encoders, of which the first commutates the motor, and tables of two entries.  What it
    is asked is counted, and the count is its time. *)
Definition toy_conf (scale : bool) : list Z :=
  lit "motor_position.commutation_source 0" ++ [10] ++
  flat_map (fun c => lit "motor_position.sources." ++ int_str c ++ lit ".compensation_table.0 64" ++ [10] ++
                     lit "motor_position.sources." ++ int_str c ++ lit ".compensation_table.1 -127" ++ [10] ++
                     (if scale then lit "motor_position.sources." ++ int_str c ++ lit ".compensation_scale 1" ++ [10] else [])) [0; 1].
Definition toy_encoder (scale : bool) (hist refuse : list Z) (flush : Z) (w : Z) (r : kreq) : Z * (err + krep r) :=
  (w + 1, match r return err + krep r with
      | KCommand text _ =>
          if bytes_eqb text refuse then inl (Exn RuntimeError)
          else if bytes_eqb text (lit "d hend") then inr hist
          else if bytes_eqb text (lit "conf enumerate motor_position") then inr (toy_conf scale)
          else if bytes_eqb text (lit "conf get servopos.position_min") then inr (lit "-2")
          else if startswith (lit "conf get") text then inr (lit "1")
          else inr (lit "OK")
      | KSources => inr [(true, true); (true, true)]
      | KStats => inr (8, 0)
      | KPosition _ _ => inr (Some {| rd_encoder0 := flit 1 2; rd_encoder1 := flit 1 4; rd_encoder2 := fnan; rd_mode := 10; rd_fault := 0 |})
      | KNow => inr (float_of_Z w)
      | KFlush => if flush <? w then inl (Exn TimeoutError) else inr tt
      | KWrite _ | KStop | KSleep _ | KSave _ _ | KNote _ => inr tt
      end).
(** The height of the first point, everywhere. *)
Definition toy_sample (l : list (float * float)) (n : Z) : res (list float) :=
  match l with
  | [] => Raise ValueError
  | p :: _ => if n <? 0 then Raise ValueError else Ok (map (fun _ => snd p) (py_range 0 n))
  end.
Lemma toy_sample_length l n r : toy_sample l n = Ok r -> Z.of_nat (length r) = n.
Proof.
  unfold toy_sample. destruct l as [|p l]; [discriminate|]. destruct (Z.ltb_spec n 0); [discriminate|]. intros [= <-].
  rewrite map_length, length_range_nat. lia.
Qed.
Definition toy_mean (l : list float) : float := match l with x :: _ => x | [] => fnan end.
Notation toy_main := (encoder_main toy_parse toy_str toy_sum toy_mean toy_sample).
Definition toy_enc (zero : bool) (channel : Z) (reference : option Z) (analyze no_store : bool) : encoder_args :=
  {| en_zero := zero; en_channel := channel; en_reference := reference; en_revolutions := float_of_Z 6; en_velocity := float_of_Z 1;
     en_initial_time := float_of_Z 2; en_period := flit 1 100; en_kp_scale := float_of_Z 1; en_voltage := float_of_Z 2; en_split_count := 1;
     en_analyze := analyze; en_no_store := no_store; en_factor := float_of_Z 1; en_absolute := false;
     en_write_unbiased := false; en_write_integrated := false |}.
Definition toy_hist : list Z := lit "0 1" ++ [10] ++ lit "1 5" ++ [10] ++ lit "2 3" ++ [10].
Definition same_texts (a b : list (list Z)) : bool := Nat.eqb (length a) (length b) && forallb (fun p => bytes_eqb (fst p) (snd p)) (combine a b).
Lemma same_texts_eq a b : same_texts a b = true -> a = b.
Proof.
  unfold same_texts. intros H. apply andb_prop in H as [L F]. apply Nat.eqb_eq in L. revert b L F.
  induction a as [|x a IH]; intros [|y b] L F; try discriminate; [reflexivity|]. cbn in F. apply andb_prop in F as [E F].
  apply bytes_eqb_eq in E. cbn in E. subst. f_equal. apply IH; [now injection L|exact F].
Qed.

(** A whole run by inertia, which stores a new table with its scale. *)
Example ex_encoder : exists t, traces (toy_main (toy_enc false 0 None false false)) t (Some (inr (Some tt))) /\
  length (texts t) = 19%nat /\ nth 18 (texts t) [] = lit "conf write".
Proof.
  destruct (toy_run 200 (toy_encoder true toy_hist [] 1000) 0 (toy_main (toy_enc false 0 None false false))
     (fun t o => match o with inr (Some _) => (length (texts t) =? 19)%nat && bytes_eqb (nth 18 (texts t) []) (lit "conf write") | _ => false end)) as (t & o & T & C).
  { vm_compute. reflexivity. }
  exists t. destruct o as [|[[]|]]; try discriminate. apply andb_prop in C as [C1 C2]. split; [exact T|]. split; [now apply Nat.eqb_eq|now apply bytes_eqb_eq].
Qed.
(** --zero *)
Example ex_zero : exists t, traces (toy_main (toy_enc true 0 None false false)) t (Some (inr (Some tt))) /\
  texts t = introduction ++ writing_texts 0 [lit "0"; lit "0"] (Some (lit "0")) true.
Proof.
  destruct (toy_run 200 (toy_encoder true toy_hist [] 1000) 0 (toy_main (toy_enc true 0 None false false))
     (fun t o => match o with inr (Some _) => same_texts (texts t) (introduction ++ writing_texts 0 [lit "0"; lit "0"] (Some (lit "0")) true) | _ => false end)) as (t & o & T & C).
  { vm_compute. reflexivity. }
  exists t. destruct o as [|[[]|]]; try discriminate. split; [exact T|]. now apply same_texts_eq.
Qed.
(** --analyze *)
Example ex_analyze : exists t, traces (toy_main (toy_enc false 0 None true false)) t (Some (inr None)) /\ length (texts t) = 14%nat.
Proof.
  destruct (toy_run 200 (toy_encoder true toy_hist [] 1000) 0 (toy_main (toy_enc false 0 None true false))
     (fun t o => match o with inr None => (length (texts t) =? 14)%nat | _ => false end)) as (t & o & T & C).
  { vm_compute. reflexivity. }
  exists t. destruct o as [|[[]|]]; try discriminate. split; [exact T|]. now apply Nat.eqb_eq.
Qed.
(** With a reference, and tables without a scale. *)
Example ex_reference : exists t, traces (toy_main (toy_enc false 1 (Some 0) false false)) t (Some (inr (Some tt))) /\
  (3 <= length (readings t))%nat /\ nth 15 (texts t) [] = lit "conf write".
Proof.
  destruct (toy_run 400 (toy_encoder false toy_hist [] 1000) 0 (toy_main (toy_enc false 1 (Some 0) false false))
     (fun t o => match o with inr (Some _) => (3 <=? length (readings t))%nat && bytes_eqb (nth 15 (texts t) []) (lit "conf write") | _ => false end)) as (t & o & T & C).
  { vm_compute. reflexivity. }
  exists t. destruct o as [|[[]|]]; try discriminate. apply andb_prop in C as [C1 C2]. split; [exact T|]. split; [now apply Nat.leb_le|now apply bytes_eqb_eq].
Qed.
Example ex_fit : fit (map float_of_Z [-3; 0; 2]).
Proof.
  split; [exact ex_usable|]. intros x I. apply in_map_iff in I as (z & <- & I). rewrite (proj2 (float_of_Z_correct z ltac:(cbn in I; lia))).
  apply Rle_trans with 8%R; [apply Rabs_le; cbn in I; repeat (destruct I as [<-|I]; [lra|]); contradiction|].
  change 8%R with (bpow radix2 3). apply bpow_le. lia.
Qed.

(** ** What a user might expect, and does not get *)

(** With a reference, --no-store does not keep the device as it is: the table is zeroed and written first. *)
Theorem C72_no_store_refuted : ~ forall parse_float float_str py_sum np_mean sample a t o,
  en_zero a = false -> en_no_store a = true ->
  traces (encoder_main parse_float float_str py_sum np_mean sample a) t o -> ~ In (lit "conf write") (texts t).
Proof.
  intros H. destruct (toy_run 400 (toy_encoder true toy_hist [] 1000) 0 (toy_main (toy_enc false 1 (Some 0) false true))
     (fun t o => match o with inr (Some _) => existsb (bytes_eqb (lit "conf write")) (texts t) | _ => false end)) as (t & o & T & C).
  { vm_compute. reflexivity. }
  assert (C1 : existsb (bytes_eqb (lit "conf write")) (texts t) = true) by (destruct o as [|[]]; try discriminate; exact C).
  apply existsb_exists in C1 as (x & I & E).
  apply bytes_eqb_eq in E. subst x. exact (H _ _ _ _ _ (toy_enc false 1 (Some 0) false true) _ _ eq_refl eq_refl T I).
Qed.

(** An encoder that needs no compensation cannot be stored where tables have a scale: the new entries are all
    zero, and the program divides by the greatest. *)
Theorem C72_perfect_refuted : ~ forall parse_float float_str py_sum np_mean sample a t o,
  (forall l n r, sample l n = Ok r -> Z.of_nat (length r) = n) ->
  traces (encoder_main parse_float float_str py_sum np_mean sample a) t (Some o) ->
  Forall (fun e => exists r, e = kanswered (question e) (inr r)) t -> exists x, o = inr x.
Proof.
  intros H. destruct (drive 200 (toy_encoder true (lit "0 4" ++ [10] ++ lit "1 4" ++ [10]) [] 1000) 0
      (toy_main {| en_zero := false; en_channel := 0; en_reference := None; en_revolutions := float_of_Z 6; en_velocity := float_of_Z 1;
     en_initial_time := float_of_Z 2; en_period := flit 1 100; en_kp_scale := float_of_Z 1; en_voltage := float_of_Z 2; en_split_count := 1;
     en_analyze := false; en_no_store := false; en_factor := float_of_Z 1; en_absolute := true;
     en_write_unbiased := false; en_write_integrated := false |})) as [[[t o] u]|] eqn:E; [|vm_compute in E; discriminate].
  pose proof (drive_traces _ _ _ _ _ _ _ _ _ E) as T. vm_compute in E. injection E as <- <- <-.
  destruct (H _ _ _ _ _ _ _ _ toy_sample_length T) as [x X]; [|discriminate]. clear.
  repeat constructor; eexists; reflexivity.
Qed.

(** When the device refuses the second limit, the first stays off. *)
Theorem C72_second_refuted : ~ forall parse_float float_str py_sum np_mean sample a t o,
  traces (encoder_main parse_float float_str py_sum np_mean sample a) t (Some o) ->
  ~ holds (lit "servopos.position_min") (lit "nan") t.
Proof.
  intros H. destruct (drive 200 (toy_encoder true toy_hist (lit "conf set servopos.position_max nan") 1000) 0 (toy_main (toy_enc false 0 None false false)))
    as [[[t o] u]|] eqn:E; [|vm_compute in E; discriminate].
  pose proof (drive_traces _ _ _ _ _ _ _ _ _ E) as T. vm_compute in E. injection E as <- <- <-.
  apply (H _ _ _ _ _ _ _ _ T). clear.
  match goal with |- holds _ _ ?l => exists (firstn 8 l), (nth 8 l (existT _ KFlush None)), (skipn 9 l) end.
  split; [reflexivity|]. split; [do 2 eexists; reflexivity|].
  repeat constructor; intros text E [v B]; vm_compute in E; try discriminate; injection E as <-; discriminate.
Qed.

(** When reading fails while it measures, and again while it waits for silence, the motor is left turning. *)
Theorem C72_flush_refuted : ~ forall parse_float float_str py_sum np_mean sample a t o,
  traces (encoder_main parse_float float_str py_sum np_mean sample a) t (Some o) -> stopped t.
Proof.
  intros H. destruct (drive 200 (toy_encoder true toy_hist (lit "d hend") 5) 0 (toy_main (toy_enc false 0 None false false)))
    as [[[t o] u]|] eqn:E; [|vm_compute in E; discriminate].
  pose proof (drive_traces _ _ _ _ _ _ _ _ _ E) as T. vm_compute in E. injection E as <- <- <-.
  specialize (H _ _ _ _ _ _ _ _ T). clear T.
  match type of H with stopped ?l => specialize (H (firstn 11 l) (nth 11 l (existT _ KFlush None)) (skipn 12 l) eq_refl) end.
  match type of H with ?P -> ?Q => assert (X : Q) by (apply H; right; eexists; reflexivity) end. clear H. vm_compute in X.
  repeat (apply Exists_cons in X as [[(any & r & X)|X]|X]; [discriminate|discriminate|]). now apply Exists_nil in X.
Qed.

Print Assumptions C72_limits.
Print Assumptions C72_unchanged.
Print Assumptions C72_zero.
Print Assumptions C72_sent.
Print Assumptions C72_ready.
Print Assumptions C71_ready.
Print Assumptions C72_no_store_refuted.
Print Assumptions C72_perfect_refuted.
Print Assumptions C72_second_refuted.
Print Assumptions C72_flush_refuted.
