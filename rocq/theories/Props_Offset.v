(** C59: setting the position of the output (--set-offset, --zero-offset). *)
From Coq Require Import Ascii String ZArith List Bool Lia Floats.SpecFloat.
From Verif Require Import PyBase PyBytes PyFloat Tool_Model Config_Model Proc Device_Model Device_Spec Device_Proofs Offset_Spec.
Import ListNotations.
Open Scope Z_scope.

Section P.
Variable float_str : float -> list Z.
Notation do_set_offset := (do_set_offset float_str).
Ltac ob H x t1 t2 H1 := apply traces_ok_bind in H; destruct H as (x & t1 & t2 & -> & H1 & H).

Definition fallback (value : float) : T (list Z) :=
  if negb (feqb value (float_of_Z 0)) then Throw (Exn RuntimeError)
  else
    do servo_stats <- read_servo_stats;
    do position_raw <- lift (match ss_position_raw servo_stats with
                             | Some p => Ok p
                             | None => Raise AttributeError
                             end);
    command (lit "conf set motor.position_offset " ++ int_str (- position_raw)).
Definition place (value : float) : T (list Z) :=
  catch_command (command (lit "d cfg-set-output " ++ float_str value)) (fun _ => fallback value).

Lemma place_ok value t r : traces (place value) t (Some (inr r)) -> placed float_str value t.
Proof.
  intros H. unfold place, catch_command in H. ob H x t1 t2 H1. apply traces_catch_ok in H1.
  apply (traces_await (Command _ false)) in H1 as [[H1 _]|(y & -> & E)]; [discriminate|]. injection E as ->.
  destruct y as [[|m]|r'].
  - now apply traces_ok_throw in H.
  - unfold fallback in H. destruct (feqb value _) eqn:F; cbn [negb] in H; [|now apply traces_ok_throw in H].
    unfold read_servo_stats in H. ob H s t3 t4 H3. ob H3 s' t5 t6 H5. apply (traces_ok_await ReadServoStats) in H5. subst t5.
    destruct (ss_mode s' =? 1) eqn:M; [now apply traces_ok_throw in H3|]. apply traces_ok_ret in H3 as [-> ->].
    ob H p t7 t8 H7. apply traces_ok_lift in H7 as [-> H7]. destruct (ss_position_raw s) as [raw|] eqn:R; [|discriminate]. injection H7 as ->.
    apply traces_ok_command in H. subst t8. apply (placed_old float_str value m s p r F); [|exact R]. intros E. apply Z.eqb_eq in E. congruence.
  - apply traces_ok_ret in H as [-> _]. constructor.
Qed.

Lemma bind_step A B (p : T A) (f : A -> T B) t1 a t2 o : traces p t1 (Some (inr a)) -> traces (f a) t2 o -> traces (pbind p f) (t1 ++ t2) o.
Proof. intros P F. apply traces_bind_back. right. right. exists a, t1, t2. auto. Qed.
Lemma await_step r x : traces (await r) [answered r (inr x)] (Some (inr x)).
Proof. cbn. right. exists (inr x), []. cbn. auto. Qed.

(** The action succeeds exactly in these runs. *)
Theorem C59_set_offset value t : traces (do_set_offset value) t (Some (inr tt)) <-> set_and_stored float_str value t.
Proof.
  change (do_set_offset value) with (do _ <- place value; do _ <- command (lit "conf write"); do _ <- command (lit "d rezero " ++ float_str value); Ret tt).
  split.
  - intros H. ob H x t1 t2 H1. apply place_ok in H1. ob H y t3 t4 H3. apply traces_ok_command in H3. subst t3.
    ob H z t5 t6 H5. apply traces_ok_command in H5. subst t5. apply traces_ok_ret in H as [-> _]. exists t1, y, z. auto.
  - intros (t1 & r2 & r3 & P & ->).
    assert (exists r, traces (place value) t1 (Some (inr r))) as (r & H).
    { destruct P as [r|m s raw r F M R]; exists r; unfold place, catch_command.
      - apply (bind_step _ _ _ _ [_] (inr r) []); [|cbn; auto]. cbn. right. exists (inr r), []. cbn. auto.
      - apply (bind_step _ _ _ _ [_] (inl (CmdErr m)) [_; _]); [cbn; right; exists (inl (CmdErr m)), []; cbn; auto|].
        unfold fallback. rewrite F. cbn [negb]. apply (bind_step _ _ _ _ [_] s [_]).
        + unfold read_servo_stats. apply (bind_step _ _ _ _ [_] s []); [apply (await_step ReadServoStats)|].
          destruct (ss_mode s =? 1) eqn:E; [apply Z.eqb_eq in E; congruence|]. cbn; auto.
        + rewrite R. apply (bind_step _ _ _ _ [] raw [_]); [cbn; auto|]. apply (await_step (Command _ false)). }
    apply (bind_step _ _ _ _ _ _ _ _ H). apply (bind_step _ _ _ _ [_] r2 [_]); [apply (await_step (Command _ false))|].
    apply (bind_step _ _ _ _ [_] r3 []); [apply (await_step (Command _ false))|]. cbn; auto.
Qed.

(** However a run ends, nothing is stored before the position was taken, and nothing but this one thing is sent before. *)
Theorem C59_stored_when_placed value t o t1 e t2 : traces (do_set_offset value) t o -> t = t1 ++ e :: t2 -> stores e -> placed float_str value t1.
Proof.
  change (do_set_offset value) with (do _ <- place value; do _ <- command (lit "conf write"); do _ <- command (lit "d rezero " ++ float_str value); Ret tt).
  intros T E S.
  pose (calm r := match r with Command text _ | CommandWithin text | WriteMessage text => text <> lit "conf write" | _ => True end).
  assert (W : only calm (place value)).
  { unfold place, fallback, read_servo_stats. repeat (only_step; try exact I); cbn [calm]; intros Q; discriminate Q. }
  assert (No : forall (u : list ev) x, Forall (fun e => calm (question e)) u -> In x u -> stores x -> False).
  { intros u x F I. rewrite Forall_forall in F. apply F in I. destruct x as [r y]. unfold stores, sends, sent. cbn [question projT1] in *.
    destruct r; cbn [calm] in I; try discriminate; intros [= Q]; exact (I Q). }
  apply traces_bind in T as [[T _]|[(x & T & _)|(r & u1 & u2 & -> & T & T2)]].
  1,2: exfalso; apply (No t e (W _ _ T)); [rewrite E; apply in_or_app; right; now left|exact S].
  assert (P := place_ok _ _ _ T). enough (t1 = u1) as -> by exact P.
  assert (L : forall u, traces (do _ <- command (lit "d rezero " ++ float_str value); Ret tt) u None -> Forall (fun e => ~ stores e) u).
  { intros u U. assert (Z : only calm (do _ <- command (lit "d rezero " ++ float_str value); Ret tt)).
    { repeat (only_step; try exact I); cbn [calm]; intros Q; discriminate Q. }
    apply Forall_forall. intros x Ix Sx. exact (No u x (Z _ _ U) Ix Sx). }
  assert (K : exists y u3, u2 = [] \/ u2 = (existT _ (Command (lit "conf write") false) y : ev) :: u3 /\ Forall (fun e => ~ stores e) u3).
  { apply traces_bind in T2 as [[T2 _]|[(x & T2 & _)|(r2 & u3 & u4 & -> & T2 & T3)]].
    - apply (traces_await (Command (lit "conf write") false)) in T2 as [[_ [->|(y & ->)]]|(y & -> & _)].
      + exists None, []. now left.
      + exists y, []. right. auto.
      + exists (Some y), []. right. auto.
    - apply (traces_await (Command (lit "conf write") false)) in T2 as [[T2 _]|(y & -> & _)]; [discriminate|]. exists (Some y), []. right. auto.
    - apply traces_ok_command in T2. subst u3. exists (Some (inr r2)), u4. right. split; [reflexivity|].
      apply L. exact (traces_unfinished _ _ _ _ T3). }
  destruct K as (y & u3 & K).
  assert (A : forall x, In x u1 -> ~ stores x) by (intros x Ix Sx; exact (No u1 x (W _ _ T) Ix Sx)).
  clear - E S K A. revert t1 E. induction u1 as [|x u1 IH]; intros t1 E; cbn [app] in E.
  - destruct K as [->|[-> K]]; [now destruct t1|]. destruct t1 as [|z t1]; [reflexivity|]. injection E as _ ->.
    apply Forall_app in K as [_ K]. inversion K; contradiction.
  - destruct t1 as [|z t1]; injection E as <- E.
    + exfalso. apply (A x); [now left|exact S].
    + f_equal. apply IH; [|exact E]. intros w Iw. apply A. now right.
Qed.

(** Old firmware and a position other than zero: the action fails, and nothing more is sent. *)
Theorem C59_old_firmware value t o message t2 : feqb value (float_of_Z 0) = false -> traces (do_set_offset value) t (Some o) ->
  t = answered (Command (new_text float_str value) false) (inl (CmdErr message)) :: t2 -> t2 = [] /\ o = inl (Exn RuntimeError).
Proof.
  intros F T E. change (do_set_offset value) with (do _ <- place value; do _ <- command (lit "conf write"); do _ <- command (lit "d rezero " ++ float_str value); Ret tt) in T.
  assert (P : forall u x, traces (place value) u (Some x) ->
            (exists y, u = [answered (Command (new_text float_str value) false) y] /\
              match y with inl (CmdErr _) => x = inl (Exn RuntimeError) | inl z => x = inl z | inr r => x = inr r end)).
  { intros u x H. unfold place, catch_command in H.
    apply traces_bind in H as [[_ H]|[(z & H & Z)|(z & u1 & u2 & -> & H & H2)]]; [discriminate| |].
    - apply traces_catch in H as [[H _]|(? & H & _)]; discriminate.
    - apply traces_catch_ok in H. apply (traces_await (Command _ false)) in H as [[H _]|(y & -> & H)]; [discriminate|]. injection H as ->.
      exists y. destruct y as [[z|m]|r]; unfold fallback in H2; rewrite ?F in H2; destruct H2 as [-> [H2|H2]]; try discriminate; injection H2 as ->; auto. }
  apply traces_bind in T as [[_ T]|[(x & T & Z)|(r & u1 & u2 & -> & T & T2)]]; [discriminate| |].
  - apply P in T as (y & -> & Y). injection Z as ->. pose proof (f_equal (@tl ev) E) as E2. cbn in E2. subst t2. split; [reflexivity|].
    pose proof (f_equal (fun l : list ev => match l with existT _ (Command _ _) (Some (inl (CmdErr _))) :: _ => true | _ => false end) E) as B. cbn in B.
    destruct y as [[z|m]|r]; try discriminate B. now injection Y as ->.
  - exfalso. apply P in T as (y & -> & Y). 
    pose proof (f_equal (fun l : list ev => match l with existT _ (Command _ _) (Some (inl (CmdErr _))) :: _ => true | _ => false end) E) as B. cbn in B.
    destruct y as [[z|m]|z]; discriminate.
Qed.
End P.

(** Old firmware at the raw position 1234. *)
Definition ex_show (x : float) : list Z := lit "0.0".
Example ex_old : exists t, traces (do_set_offset ex_show (float_of_Z 0)) t (Some (inr tt)) /\
  texts t = [lit "d cfg-set-output 0.0"; lit "conf set motor.position_offset -1234"; lit "conf write"; lit "d rezero 0.0"].
Proof.
  pose (s := {| ss_mode := 0; ss_bus_V := float_of_Z 12; ss_d_A := float_of_Z 0; ss_q_A := float_of_Z 0; ss_velocity := float_of_Z 0;
                ss_velocity_filt := None; ss_ind := None; ss_position_raw := Some 1234 |}).
  eexists. split.
  - apply C59_set_offset. eexists _, [], []. split; [apply (placed_old ex_show _ (lit "ERR unknown command") s 1234 []); [reflexivity|discriminate|reflexivity]|reflexivity].
  - vm_compute. reflexivity.
Qed.
Example ex_refused : exists t, traces (do_set_offset ex_show (float_of_Z 1)) t (Some (inl (Exn RuntimeError))) /\
  t = [answered (Command (new_text ex_show (float_of_Z 1)) false) (inl (CmdErr (lit "ERR unknown command")))] /\ feqb (float_of_Z 1) (float_of_Z 0) = false.
Proof.
  eexists. split; [|split; [reflexivity|vm_compute; reflexivity]]. cbn [traces]. right. exists (inl (CmdErr (lit "ERR unknown command"))), [].
  split; [reflexivity|]. cbn. auto.
Qed.

Print Assumptions C59_set_offset.
Print Assumptions C59_stored_when_placed.
Print Assumptions C59_old_firmware.
