(** C54: which devices moteus_tool talks to, and in which order. *)
From Coq Require Import Ascii String ZArith List Bool Lia ZifyBool ZifyNat Sorting.Sorted.
From Verif Require Import PyBase PyBytes PyFloat Tool_Model Calib_Model Config_Model Encoder_Model
  Calfile_Model Proc Device_Model Calproc_Model Runner_Model Device_Spec Device_Proofs Calproc_Spec Calproc_Proofs
  Calproc_Clean Calproc_Examples Calproc_Bench Runner_Spec Props_Calproc.
From Verif Require Props_Tool.
Import ListNotations.
Open Scope Z_scope.

(** ** Requests to one device *)
Definition wired (p i : Z) (e : ev) : revent :=
  match e with existT _ r x => existT (fun r => option (err + rrep r)) (At p i r) x end.

Lemma traces_at p i A (q : T A) : forall t o, traces (at_device p i q) t o ->
  exists t', t = map (wired p i) t' /\ traces q t' o.
Proof.
  induction q as [A a|A e|A r k IH|A X Y body IHb x k IH]; intros t o H; cbn [at_device] in H.
  - destruct H as [-> H]. exists []. cbn. auto.
  - destruct H as [-> H]. exists []. cbn. auto.
  - destruct H as [[-> [->| ->]]|(y & t' & -> & H)].
    + exists []. cbn. auto.
    + exists [asked r]. cbn. auto.
    + apply IH in H. destruct H as (t2 & -> & H). exists (answered r y :: t2). split; [reflexivity|]. right. eauto.
  - cbn [traces] in *. induction H as [x t H|x t e H|x t x' t' o H _ IH'|x t b t' o H H2].
    + apply IHb in H. destruct H as (t' & -> & H). exists t'. split; auto. now apply turn_stop.
    + apply IHb in H. destruct H as (t' & -> & H). exists t'. split; auto. now apply turn_throw.
    + apply IHb in H. destruct H as (t1 & -> & H). destruct IH' as (t2 & -> & I). exists (t1 ++ t2). rewrite map_app.
      split; auto. eapply turn_again; eauto.
    + apply IHb in H. destruct H as (t1 & -> & H). apply IH in H2. destruct H2 as (t2 & -> & I). exists (t1 ++ t2). rewrite map_app.
      split; auto. eapply turn_leave; eauto.
Qed.

Lemma traces_at_back p i A (q : T A) : forall t o, traces q t o -> traces (at_device p i q) (map (wired p i) t) o.
Proof.
  induction q as [A a|A e|A r k IH|A X Y body IHb x k IH]; intros t o H; cbn [at_device].
  - destruct H as [-> H]. cbn. auto.
  - destruct H as [-> H]. cbn. auto.
  - destruct H as [[-> [->| ->]]|(y & t' & -> & H)]; [left; auto|left; cbn; auto|].
    right. exists y, (map (wired p i) t'). split; [reflexivity|]. auto.
  - cbn [traces] in *. induction H as [x t H|x t e H|x t x' t' o H _ IH'|x t b t' o H H2].
    + apply turn_stop. auto.
    + apply turn_throw. auto.
    + rewrite map_app. eapply turn_again; eauto.
    + rewrite map_app. eapply turn_leave; eauto.
Qed.

Lemma heard_app p i t u : heard p i (t ++ u) = heard p i t ++ heard p i u.
Proof. apply flat_map_app. Qed.
Lemma heard_wired p i t : heard p i (map (wired p i) t) = t.
Proof.
  induction t as [|[r x] t IH]; [reflexivity|]. cbn [map heard flat_map]. unfold heard in IH. rewrite IH. cbn. rewrite !Z.eqb_refl. reflexivity.
Qed.
Lemma heard_other p i j t : j <> i -> heard p i (map (wired p j) t) = [].
Proof.
  intros N. induction t as [|[r x] t IH]; [reflexivity|]. cbn [map heard flat_map]. unfold heard in IH. rewrite IH. cbn.
  replace (j =? i) with false by lia. rewrite andb_false_r. reflexivity.
Qed.
Lemma heard_none p i l t : ~ In i l -> Forall (fun e => exists id, In id l /\ goes_to p id e) t -> heard p i t = [].
Proof.
  intros N F. induction F as [|[r x] t (id & I & q & E) F IH]; [reflexivity|]. cbn [heard flat_map]. unfold heard in IH. rewrite IH.
  cbn in E. subst r. cbn. destruct (id =? i) eqn:K; [|rewrite andb_false_r; reflexivity]. exfalso. apply N. replace i with id by lia. exact I.
Qed.
Lemma wired_to p i t : Forall (goes_to p i) (map (wired p i) t).
Proof. apply Forall_forall. intros e I. apply in_map_iff in I. destruct I as ([r x] & <- & _). exists r. reflexivity. Qed.
Lemma goes_to_same p i j e : goes_to p i e -> goes_to p j e -> i = j.
Proof. intros (r & E) (q & F). rewrite E in F. now injection F. Qed.

Section P.
Variable parse_float : list Z -> res float.
Variable float_str : float -> list Z.
Variable fixed3 : float -> list Z.
Variable hypot : float -> float -> float.
Variable py_sum : list float -> float.
Variable minimize : list float -> bool * list float.
Notation run_action := (run_action parse_float float_str fixed3 hypot py_sum minimize).
Notation run_targets := (run_targets parse_float float_str fixed3 hypot py_sum minimize).
Notation start := (start parse_float float_str fixed3 hypot py_sum minimize).

(** What is done with the device [i] of the devices [l]: the action, for the first with the options
    as given, for the others as a calibration leaves them. *)
Definition runs (g : run_args) (l : list Z) (i : Z) : list ev -> option (err + unit) -> Prop :=
  traces (run_action (if i =? hd i l then g else args_after g)).

Lemma args_twice g : args_after (args_after g) = args_after g.
Proof.
  unfold args_after. destruct (g_calibrate g) eqn:C; [|rewrite ?C; reflexivity]. cbn. rewrite ?C. idtac.
  destruct (calibration_parameters (g_cal g)) as [a|e] eqn:E; [|rewrite E; reflexivity].
  unfold calibration_parameters in *. destruct (g_cal g) as [? ? ? ? ? ev es kv pw sp vo kvo ? ? ? ? ? ? ? ? ? ?]. cbn in E |- *.
  destruct pw, ev; cbn in E; try discriminate; destruct sp; cbn in E; try discriminate; destruct vo; cbn in E; try discriminate;
    destruct kvo, kv; cbn in E; try discriminate; injection E as <-; reflexivity.
Qed.

Lemma prefix_after g : g_can_prefix (args_after g) = g_can_prefix g.
Proof. unfold args_after. destruct (g_calibrate g); reflexivity. Qed.

Lemma one_same (run run' : Z -> list ev -> option (err + unit) -> Prop) l p t o : (forall i t o, In i l -> run i t o -> run' i t o) ->
  one_by_one run l p t o -> one_by_one run' l p t o.
Proof.
  intros E (A & B & C). split; [exact A|]. split; [exact B|].
  destruct C as [[Eo C]|(N & i & I & C & D)]; [left|right]; split; auto.
  exists i. split; [exact I|]. split; [auto|]. intros j J. destruct (D j J). auto.
Qed.

Section Cons.
Variable run : Z -> list ev -> option (err + unit) -> Prop.
Variables (i : Z) (l : list Z) (p : Z).
Hypothesis LT : forall j, In j l -> i < j.

Lemma one_here t' o : run i t' o -> o <> Some (inr tt) -> one_by_one run (i :: l) p (map (wired p i) t') o.
Proof.
  intros T NE. split; [|split].
  - eapply Forall_impl; [|apply wired_to]. intros e E. exists i. split; [now left|exact E].
  - intros t1 e1 t2 e2 t3 a b E G1 G2. pose proof (wired_to p i t') as W. rewrite E in W. apply Forall_app in W. destruct W as [_ W].
    inversion W as [|? ? W1 W2]; subst. apply Forall_app in W2. destruct W2 as [_ W2]. inversion W2 as [|? ? W3 _]; subst.
    rewrite (goes_to_same _ _ _ _ G1 W1), (goes_to_same _ _ _ _ G2 W3). lia.
  - right. split; [exact NE|]. exists i. split; [now left|]. split; [rewrite heard_wired; auto|]. intros j [->|J].
    + split; intros; lia.
    + pose proof (LT j J). split; [intros; lia|]. intros _. apply heard_other. lia.
Qed.

Lemma one_next t' t2 o : run i t' (Some (inr tt)) -> one_by_one run l p t2 o ->
  one_by_one run (i :: l) p (map (wired p i) t' ++ t2) o.
Proof.
  intros H1 (K1 & K2 & K3).
  assert (N : ~ In i l) by (intros I; pose proof (LT i I); lia).
  assert (HO : forall j, In j l -> heard p j (map (wired p i) t' ++ t2) = heard p j t2).
  { intros j J. rewrite heard_app, heard_other; [reflexivity|]. intros ->. auto. }
  assert (HI : heard p i (map (wired p i) t' ++ t2) = t').
  { rewrite heard_app, heard_wired, (heard_none p i l t2 N K1). apply app_nil_r. }
  split; [|split].
  + apply Forall_app. split.
    * eapply Forall_impl; [|apply wired_to]. intros e E. exists i. split; [now left|exact E].
    * eapply Forall_impl; [|exact K1]. intros e (j & J & E). exists j. split; [now right|exact E].
  + intros u1 e1 u2 e2 u3 a b E G1 G2.
    assert (W1 : forall e, In e (map (wired p i) t') -> goes_to p i e) by (apply Forall_forall, wired_to).
    assert (W2 : forall e c, In e t2 -> goes_to p c e -> i < c).
    { intros e c I Ge. rewrite Forall_forall in K1. destruct (K1 e I) as (j & J & Gj). rewrite (goes_to_same _ _ _ _ Ge Gj). auto. }
    assert (SP : forall (x y : list revent) c e d, x ++ y = c ++ e :: d -> (exists v, x = c ++ e :: v) \/ exists v, c = x ++ v /\ y = v ++ e :: d).
    { clear. intros x. induction x as [|z x IH]; intros y c e d E; [right; exists c; auto|].
      destruct c as [|w c]; cbn in E; injection E as -> E; [left; exists x; reflexivity|].
      destruct (IH _ _ _ _ E) as [(v & ->)|(v & -> & ->)]; [left; exists v; reflexivity|right; exists v; split; reflexivity]. }
    destruct (SP _ _ _ _ _ E) as [(v & Ev)|(v & -> & Ev)].
    * assert (a = i). { apply (goes_to_same p _ _ e1); [exact G1|]. apply W1. rewrite Ev. apply in_or_app. right. now left. } subst a.
      assert (I : In e2 (map (wired p i) t' ++ t2)) by (rewrite E; apply in_or_app; right; right; apply in_or_app; right; now left).
      apply in_app_iff in I. destruct I as [I|I].
      -- rewrite (goes_to_same p b i e2 G2 (W1 _ I)). lia.
      -- pose proof (W2 _ _ I G2). lia.
    * exact (K2 _ _ _ _ _ _ _ Ev G1 G2).
  + destruct K3 as [[Eo K3]|(NE & j & J & K3 & K4)].
    * left. split; [exact Eo|]. intros j [<-|J]; [rewrite HI; exact H1|rewrite HO by exact J; auto].
    * right. split; [exact NE|]. exists j. split; [now right|]. split; [rewrite HO by exact J; exact K3|].
      intros m [<-|M].
      -- pose proof (LT j J). split; [intros _; rewrite HI; exact H1|intros; lia].
      -- rewrite HO by exact M. auto.
Qed.
End Cons.

Lemma served_later g l p : args_after g = g -> g_can_prefix g = p -> StronglySorted Z.lt l -> forall t o, traces (run_targets g l) t o ->
  one_by_one (fun _ => traces (run_action g)) l p t o.
Proof.
  intros A P S. induction S as [|i l S IH F]; intros t o H; cbn [Runner_Model.run_targets] in H.
  { destruct H as [-> H]. split; [constructor|]. split; [intros t1 e1 t2 e2 t3 ? ? E; destruct t1; discriminate|].
    left. split; [exact H|]. intros i []. }
  rewrite Forall_forall in F. rewrite P, A in H.
  apply traces_bind in H. destruct H as [[H ->]|[(e & H & ->)|(u & t1 & t2 & -> & H1 & H2)]].
  - apply traces_at in H. destruct H as (t' & -> & H). apply one_here; [exact F|exact H|discriminate].
  - apply traces_at in H. destruct H as (t' & -> & H). apply one_here; [exact F|exact H|discriminate].
  - apply traces_at in H1. destruct H1 as (t' & -> & H1). destruct u. apply one_next; [exact F|exact H1|]. apply IH, H2.
Qed.

Lemma served g l : StronglySorted Z.lt l -> forall t o, traces (run_targets g l) t o ->
  one_by_one (runs g l) l (g_can_prefix g) t o.
Proof.
  intros S t o H. destruct S as [|i l S F]; cbn [Runner_Model.run_targets] in H.
  { destruct H as [-> H]. split; [constructor|]. split; [intros t1 e1 t2 e2 t3 ? ? E; destruct t1; discriminate|].
    left. split; [exact H|]. intros i []. }
  rewrite Forall_forall in F.
  assert (R : forall t o, traces (run_action g) t o -> runs g (i :: l) i t o) by (intros; unfold runs; cbn; rewrite Z.eqb_refl; assumption).
  apply traces_bind in H. destruct H as [[H ->]|[(e & H & ->)|(u & t1 & t2 & -> & H1 & H2)]].
  - apply traces_at in H. destruct H as (t' & -> & H). apply one_here; [exact F|auto|discriminate].
  - apply traces_at in H. destruct H as (t' & -> & H). apply one_here; [exact F|auto|discriminate].
  - apply traces_at in H1. destruct H1 as (t' & -> & H1). destruct u. apply one_next; [exact F|auto|].
    eapply one_same; [|apply served_later; [apply args_twice|apply prefix_after|exact S|exact H2]].
    intros j u o' J K. pose proof (F j J). unfold runs. cbn. replace (j =? i) with false by lia. exact K.
Qed.

(** ** Devices that are named *)

(** The devices named with -t, and no others, are served, one at a time, in ascending order, behind
    the prefix given; the first failure ends it. *)
Theorem C54_named_devices g l t o : expand_targets (g_target g) = Ok l -> l <> [] -> traces (start g) t o ->
  (forall i, In i l <-> Props_Tool.named (g_target g) i) /\ one_by_one (runs g l) l (g_can_prefix g) t o.
Proof.
  intros E N H. destruct (Props_Tool.C33_targets _ _ E) as [S C]. split; [exact C|].
  unfold start in H. rewrite E in H. destruct l as [|i l]; [congruence|]. cbn [lift pbind find_targets] in H.
  apply served; assumption.
Qed.

(** A list of devices that cannot be read: nothing is asked of anything. *)
Theorem C54_bad_names g e t o : expand_targets (g_target g) = Raise e -> traces (start g) t o ->
  t = [] /\ (o = None \/ o = Some (inl (Exn ValueError))).
Proof.
  intros E H. rewrite (Props_Tool.C33_error _ _ E) in E. unfold start in H. rewrite E in H. exact H.
Qed.

(** ** Devices that are found *)
Definition reply_of (e : revent) : option (Z * bool) :=
  match e with
  | existT _ r x =>
      match r return option (err + rrep r) -> option (Z * bool) with
      | Query _ i => fun x => match x with Some (inr b) => Some (i, b) | _ => None end
      | At _ _ _ => fun _ => None
      end x
  end.

Lemma discovered ids : forall t o, traces (discover ids) t o ->
  (exists n, map question t = map (Query 0) (firstn n ids)) /\
  (forall l, o = Some (inr l) -> map question t = map (Query 0) ids /\
     (forall i, In i l -> In i ids /\ present i t) /\ (forall i, In i ids -> present i t -> In i l) /\
     (StronglySorted Z.lt ids -> StronglySorted Z.lt l)).
Proof.
  induction ids as [|i ids IH]; intros t o H; cbn [discover] in H.
  { destruct H as [-> H]. split; [exists 0%nat; reflexivity|]. intros l ->. destruct H as [H|H]; [discriminate|]. injection H as ->.
    split; [reflexivity|]. split; [intros i []|]. split; [intros i []|]. intros _. constructor. }
  apply traces_bind in H.
  assert (Q : forall t o, traces (catch (@ask rreq rrep (Query 0 i))) t o -> exists n, map question t = map (Query 0) (firstn n (i :: ids))).
  { clear. intros t o H. cbn in H. destruct H as [[_ [->| ->]]|([e|x] & t' & -> & H)].
    - exists 0%nat. reflexivity.
    - exists 1%nat. reflexivity.
    - cbn in H. destruct H as [-> _]. exists 1%nat. reflexivity.
    - cbn in H. destruct H as [-> _]. exists 1%nat. reflexivity. }
  destruct H as [[H ->]|[(e & H & ->)|(x & t1 & t2 & -> & H1 & H2)]].
  { apply Q in H. split; [exact H|]. discriminate. }
  { apply Q in H. split; [exact H|]. discriminate. }
  clear Q. assert (E : t1 = [@Proc.answered rreq rrep (Query 0 i) x]).
  { apply traces_catch_ok in H1. destruct H1 as [[E _]|(y & t' & -> & H1)]; [discriminate|].
    destruct y; cbn in H1; destruct H1 as [-> [H1|H1]]; try discriminate; injection H1 as ->; reflexivity. }
  subst t1. clear H1. cbn [app].
  assert (GO : forall found, (found = [i] /\ x = inr true) \/ (found = [] /\ x <> inr true) ->
     traces (do l <- discover ids; Ret (found ++ l)) t2 o ->
     (exists n, map question (@Proc.answered rreq rrep (Query 0 i) x :: t2) = map (Query 0) (firstn n (i :: ids))) /\
     (forall l, o = Some (inr l) -> map question (@Proc.answered rreq rrep (Query 0 i) x :: t2) = map (Query 0) (i :: ids) /\
     (forall j, In j l -> In j (i :: ids) /\ present j (@Proc.answered rreq rrep (Query 0 i) x :: t2)) /\
     (forall j, In j (i :: ids) -> present j (@Proc.answered rreq rrep (Query 0 i) x :: t2) -> In j l) /\
     (StronglySorted Z.lt (i :: ids) -> StronglySorted Z.lt l))).
  { intros found FO H. apply traces_bind in H. destruct H as [[H ->]|[(e & H & ->)|(l & u1 & u2 & -> & H1 & H)]].
    - destruct (IH _ _ H) as [(n & E) _]. split; [exists (S n); cbn; now rewrite E|]. discriminate.
    - destruct (IH _ _ H) as [(n & E) _]. split; [exists (S n); cbn; now rewrite E|]. discriminate.
    - destruct H as [-> H]. rewrite app_nil_r. destruct (IH _ _ H1) as [(n & E) K]. split; [exists (S n); cbn; now rewrite E|].
      intros l' ->. destruct H as [H|H]; [discriminate|]. injection H as ->. destruct (K l eq_refl) as (K1 & K2 & K3 & K4).
      split; [cbn; now rewrite K1|]. split; [|split].
      + intros j J. apply in_app_iff in J. destruct J as [J|J].
        * destruct FO as [[-> ->]|[-> _]]; [|destruct J]. destruct J as [<-|[]]. split; [now left|]. now left.
        * destruct (K2 j J). split; [now right|]. now right.
      + intros j J P. apply in_or_app. destruct P as [P|P].
        * left. apply (f_equal reply_of) in P. cbn in P. destruct x as [e|b]; [discriminate|].
          injection P as -> ->. destruct FO as [[-> _]|[_ N]]; [now left|destruct (N eq_refl)].
        * right. apply K3; [|exact P]. unfold present in P.
          assert (J' : In (Query 0 j) (map question u1)) by (apply in_map_iff; eexists; split; [|exact P]; reflexivity).
          rewrite K1 in J'. apply in_map_iff in J'. destruct J' as (j' & E' & J'). injection E' as ->. exact J'.
      + intros S. inversion S as [|? ? S1 S2]; subst. destruct FO as [[-> _]|[-> _]]; [|auto]. cbn. constructor; [auto|].
        apply Forall_forall. intros j J. rewrite Forall_forall in S2. apply S2, K2, J. }
  destruct x as [e|[|]]; cbn [pbind] in H2.
  - destruct e as [[]|m]; try (destruct H2 as [-> H2]; split; [exists 1%nat; reflexivity|]; intros l ->; destruct H2; discriminate).
    apply (GO []); [right; split; [reflexivity|discriminate]|exact H2].
  - apply (GO [i]); [left; auto|exact H2].
  - apply (GO []); [right; split; [reflexivity|discriminate]|exact H2].
Qed.

Lemma range_sorted n : forall a, StronglySorted Z.lt (map (fun i => a + Z.of_nat i) (seq 0 n)).
Proof.
  assert (G : forall m a, StronglySorted Z.lt (map (fun i => a + Z.of_nat i) (seq m n))); [|auto].
  induction n as [|n IH]; intros m a; cbn [seq map]; constructor; [apply IH|].
  apply Forall_forall. intros x I. apply in_map_iff in I. destruct I as (k & <- & I). apply in_seq in I. lia.
Qed.

(** Without -t, the ids from 1 to 126 are queried in order; once all have been, those that answered
    are served as if they had been named. *)
Theorem C54_found_devices g t o : expand_targets (g_target g) = Ok [] -> traces (start g) t o ->
  exists q r, t = q ++ r /\ (exists n, map question q = map (Query 0) (firstn n (py_range 1 127))) /\
    ((r = [] /\ o <> Some (inr tt)) \/
     (map question q = map (Query 0) (py_range 1 127) /\
      exists l, StronglySorted Z.lt l /\ (forall i, In i l <-> 1 <= i <= 126 /\ present i q) /\
        one_by_one (runs g l) l (g_can_prefix g) r o)).
Proof.
  intros E H. unfold start in H. rewrite E in H. cbn [lift pbind find_targets] in H.
  apply traces_bind in H. destruct H as [[H ->]|[(e & H & ->)|(l & q & r & -> & H1 & H2)]].
  - apply discovered in H. destruct H as [H _]. exists t, []. rewrite app_nil_r. split; [reflexivity|]. split; [exact H|].
    left. split; [reflexivity|discriminate].
  - apply discovered in H. destruct H as [H _]. exists t, []. rewrite app_nil_r. split; [reflexivity|]. split; [exact H|].
    left. split; [reflexivity|discriminate].
  - apply discovered in H1. destruct H1 as [H1 K]. exists q, r. split; [reflexivity|]. split; [exact H1|]. right.
    destruct (K l eq_refl) as (K1 & K2 & K3 & K4). split; [exact K1|]. exists l.
    assert (S : StronglySorted Z.lt l) by (apply K4; apply range_sorted).
    split; [exact S|]. split; [|apply served; assumption]. intros i. split.
    + intros I. destruct (K2 i I) as [I' P]. apply Props_Tool.in_range in I'. split; [lia|exact P].
    + intros [I P]. apply K3; [|exact P]. apply Props_Tool.in_range. lia.
Qed.

(** ** What is sent to all devices together *)
Lemma only_at ok p i A (q : T A) : only ok q -> only (fun r => exists q, r = At p i q /\ ok q) (at_device p i q).
Proof.
  intros O t o H. apply traces_at in H. destruct H as (t' & -> & H). apply O in H. apply Forall_map.
  eapply Forall_impl; [|exact H]. intros [r x] K. exists r. auto.
Qed.

Lemma only_discover ids : only (fun r => exists i, r = Query 0 i) (discover ids).
Proof.
  intros t o H. apply discovered in H. destruct H as [(n & E) _]. apply Forall_map with (P := fun r => exists i, r = Query 0 i).
  rewrite E. apply Forall_map. apply Forall_forall. eauto.
Qed.

Lemma only_start (ok : treq -> Prop) g : (forall g', g' = g \/ g' = args_after g -> only ok (run_action g')) ->
  only (fun r => (exists i, r = Query 0 i) \/ exists i q, r = At (g_can_prefix g) i q /\ ok q) (start g).
Proof.
  intros O. unfold start. apply only_bind; [apply only_lift|]. intros l. apply only_bind.
  { destruct l; [|apply only_ret]. cbn [find_targets]. eapply only_weaken; [apply only_discover|]. auto. }
  intros l'. assert (G : forall l g', g' = g \/ g' = args_after g ->
    only (fun r => (exists i, r = Query 0 i) \/ exists i q, r = At (g_can_prefix g) i q /\ ok q) (run_targets g' l)); [|apply G; auto].
  clear l l'. induction l as [|i l IH]; intros g' E; cbn [Runner_Model.run_targets]; [apply only_ret|]. apply only_bind.
  - eapply only_weaken; [apply only_at, O, E|]. intros r (q & -> & K). right. exists i, q. split; [|exact K].
    f_equal. destruct E; subst g'; [reflexivity|apply prefix_after].
  - intros _. apply IH. right. destruct E; subst g'; [reflexivity|apply args_twice].
Qed.

(** --stop sends "d stop", and nothing else, ... *)
Theorem C54_stop_sends_only_stop g t o : g_console g = false -> g_stop g = true -> g_tel_stop g = false ->
  traces (start g) t o ->
  Forall (fun e => (exists i, question e = Query 0 i) \/
                   exists i, question e = At (g_can_prefix g) i (Command (lit "d stop") false)) t.
Proof.
  intros C S N H. apply (only_start (fun r => r = Command (lit "d stop") false)) in H.
  - eapply Forall_impl; [|exact H]. intros e [K|(i & q & K & ->)]; eauto.
  - intros g' E. assert (F : g_console g' = false /\ g_stop g' = true /\ g_tel_stop g' = false).
    { destruct E; subst g'; [auto|]. unfold args_after. destruct (g_calibrate g); auto. }
    destruct F as (F1 & F2 & F3). unfold Runner_Model.run_action, default_tel_stop, action, drop. rewrite F1, F2, F3.
    destruct (g_no_tel_stop g'); destruct (match g_flash g' with Some _ => g_bootloader_active g' | None => false end);
      repeat only_step; reflexivity.
Qed.

(** ... and if it ends well, each device named has accepted it. *)
Theorem C54_stop_stops_each g l t : g_console g = false -> g_stop g = true -> g_tel_stop g = false ->
  expand_targets (g_target g) = Ok l -> l <> [] -> traces (start g) t (Some (inr tt)) ->
  forall i, Props_Tool.named (g_target g) i ->
    exists reply, heard (g_can_prefix g) i t = [answered (Command (lit "d stop") false) (inr reply)].
Proof.
  intros C S N E L H i I. destruct (C54_named_devices _ _ _ _ E L H) as (K & _ & _ & [[_ R]|[R _]]); [|congruence].
  apply K in I. specialize (R i I). unfold runs in R.
  assert (F : forall g', g' = (if i =? hd i l then g else args_after g) -> g_console g' = false /\ g_stop g' = true /\ g_tel_stop g' = false).
  { intros g' ->. destruct (i =? hd i l); [auto|]. unfold args_after. destruct (g_calibrate g); auto. }
  destruct (F _ eq_refl) as (F1 & F2 & F3). clear F. set (g' := if i =? hd i l then g else args_after g) in *. clearbody g'.
  unfold Runner_Model.run_action, default_tel_stop, action, drop in R. rewrite F1, F2, F3 in R.
  assert (B : (if g_no_tel_stop g' then false else if match g_flash g' with Some _ => g_bootloader_active g' | None => false end then false else false) = false)
    by (destruct (g_no_tel_stop g'), (match g_flash g' with Some _ => g_bootloader_active g' | None => false end); reflexivity).
  rewrite B in R. cbn [pbind] in R. apply traces_ok_bind in R. destruct R as (x & t1 & t2 & E' & R1 & R2).
  apply traces_ok_command in R1. subst t1. apply traces_ok_ret in R2. destruct R2 as [-> _]. exists x. rewrite E', app_nil_r. reflexivity.
Qed.

(** --info and --dump-config look, and change nothing. *)
Theorem C54_looking_changes_nothing g t o : g_console g = false -> g_stop g = false ->
  (g_info g = true \/ g_dump_config g = true) -> traces (start g) t o ->
  Forall (fun e => forall i q, question e = At (g_can_prefix g) i q -> forall x,
            sent (asked q) = Some x -> In x (map lit ["tel stop"; "conf enumerate"; "conf enumerate uuid"]%string)) t.
Proof.
  intros C S L H.
  apply (only_start (fun q => forall x, sent (asked q) = Some x ->
           In x (map lit ["tel stop"; "conf enumerate"; "conf enumerate uuid"]%string))) in H.
  - eapply Forall_impl; [|exact H]. intros e [(i & K)|(i & q & K & W)] j q' E; rewrite E in K; [discriminate|].
    injection K as -> ->. exact W.
  - intros g' E. assert (F : g_console g' = false /\ g_stop g' = false /\ (g_info g' = true \/ g_dump_config g' = true)).
    { destruct E; subst g'; [auto|]. unfold args_after. destruct (g_calibrate g); auto. }
    destruct F as (F1 & F2 & F3). unfold Runner_Model.run_action, action, drop. rewrite F1, F2.
    apply only_bind.
    + repeat only_step; cbn; intros x X; try discriminate; injection X as <-; tauto.
    + intros _. destruct (g_dump_config g').
      * repeat only_step; cbn; intros x X; injection X as <-; tauto.
      * destruct F3 as [->|F3]; [|discriminate]. unfold get_device_info, read_uuid.
        repeat only_step; cbn; intros x X; try discriminate; injection X as <-; tauto.
Qed.

(** ** What goes wrong *)

(** --set-offset 0 is no action: nothing is sent but "tel stop". *)
Theorem C54_set_offset_zero_refuted g v t o : g_set_offset g = Some v -> given (g_set_offset g) = None ->
  g_console g = false -> g_stop g = false -> g_dump_config g = false -> g_info g = false -> g_zero_offset g = false ->
  g_restore_config g = None -> g_write_config g = None -> g_flash g = None -> g_calibrate g = false -> g_restore_cal g = None ->
  traces (run_action g) t o ->
  o <> Some (inr tt) /\ Forall (fun e => forall x, sent e = Some x -> x = lit "tel stop") t.
Proof.
  intros _ G F1 F2 F3 F4 F5 F6 F7 F8 F9 F10 H. unfold Runner_Model.run_action, action in H. rewrite G, F1, F2, F3, F4, F5, F6, F7, F8, F9, F10 in H.
  split.
  - intros ->. apply traces_ok_bind in H. destruct H as (x & t1 & t2 & _ & _ & H). now apply traces_ok_throw in H.
  - match type of H with traces ?p _ _ => assert (W : only (fun q => forall x, sent (asked q) = Some x -> x = lit "tel stop") p) end.
    { repeat only_step; cbn; intros x X; try discriminate; now injection X as <-. }
    apply W in H. exact H.
Qed.

(** The action is --calibrate. *)
Definition calibrates (g : run_args) : Prop :=
  g_console g = false /\ g_stop g = false /\ g_dump_config g = false /\ g_info g = false /\ g_zero_offset g = false /\
  given (g_set_offset g) = None /\ g_restore_config g = None /\ g_write_config g = None /\ g_flash g = None /\ g_calibrate g = true.

Lemma bad_options a e : calibration_parameters a = Raise e -> forall t o,
  traces (do_calibrate parse_float float_str fixed3 hypot py_sum minimize a) t o ->
  (forall r, o <> Some (inr r)) /\ Forall (fun e => within p_get (question e)) t.
Proof.
  intros P t o H.
  assert (D : doomed (prepare a)).
  { intros u [[fw c] a'] U. apply prepare_args in U. rewrite P in U. destruct U; discriminate. }
  unfold do_calibrate in H. split.
  - intros r ->. revert H. apply doomed_bind. exact D.
  - apply traces_bind in H. pose proof (w_prepare [] a) as W. rewrite app_nil_r in W.
    destruct H as [[H _]|[(e' & H & _)|(x & t1 & t2 & _ & H & _)]].
    + exact (W _ _ H).
    + exact (W _ _ H).
    + destruct (D _ _ H).
Qed.

Lemma calibrating g : calibrates g -> exists b : bool, run_action g =
  (do _ <- (if b then do _ <- await (WriteMessage (lit "tel stop")); await FlushRead else Ret tt);
   drop (do_calibrate parse_float float_str fixed3 hypot py_sum minimize (g_cal g))).
Proof.
  intros (F1 & F2 & F3 & F4 & F5 & G & F6 & F7 & F8 & F9). unfold Runner_Model.run_action, action.
  rewrite F1, F2, F3, F4, F5, G, F6, F7, F8, F9. eexists. reflexivity.
Qed.

Lemma calibrates_after g : calibrates g -> calibrates (args_after g).
Proof. intros C. pose proof C as (_ & _ & _ & _ & _ & _ & _ & _ & _ & F9). unfold args_after. rewrite F9.
  unfold calibrates in *. cbn. tauto. Qed.

Lemma kv_twice g : calibrates g -> a_kv_voltage (g_cal g) <> None -> exists e, calibration_parameters (g_cal (args_after g)) = Raise e.
Proof.
  intros (_ & _ & _ & _ & _ & _ & _ & _ & _ & F9) KV. unfold args_after. rewrite F9. cbn [g_cal]. clear F9.
  destruct (calibration_parameters (g_cal g)) as [a|e] eqn:P; [|rewrite P; eauto].
  unfold calibration_parameters in *. destruct (g_cal g) as [? ? ? ? ? lv ? lkv pw sp vo kvo ? ? ? ? ? ? ? ? ? ?].
  cbn in KV, P. destruct kvo as [k|]; [|congruence].
  destruct pw, lv; cbn in P; try discriminate; destruct sp; cbn in P; try discriminate; destruct vo; cbn in P; try discriminate;
    destruct lkv; cbn in P; try discriminate; injection P as <-; cbn; eauto.
Qed.

Lemma kv_later g : calibrates g -> a_kv_voltage (g_cal g) <> None -> forall u o, traces (run_action (args_after g)) u o ->
  o <> Some (inr tt) /\ Forall (fun e => forall x, sent e = Some x -> x = lit "tel stop" \/ reading x) u.
Proof.
  intros C KV u o H. destruct (kv_twice g C KV) as (e & P). destruct (calibrating _ (calibrates_after g C)) as (b & E). rewrite E in H.
  pose proof (bad_options _ _ P) as B. unfold drop in H.
  assert (W : only (fun r => forall x, sent (asked r) = Some x -> x = lit "tel stop" \/ reading x)
     (if b then do _ <- await (WriteMessage (lit "tel stop")); await FlushRead else Ret tt)).
  { repeat only_step; cbn; intros x X; try discriminate; injection X as <-; auto. }
  assert (W2 : only (fun r => forall x, sent (asked r) = Some x -> x = lit "tel stop" \/ reading x)
     (do_calibrate parse_float float_str fixed3 hypot py_sum minimize (g_cal (args_after g)))).
  { intros t o' T. destruct (B _ _ T) as [_ K]. eapply Forall_impl; [|exact K]. intros [r y] L x X. clear - L X. cbn in L, X. right.
    assert (M : starts p_get x = true) by (destruct r; cbn in X; try discriminate; injection X as <-; exact L).
    unfold starts, p_get in M. cbn [existsb] in M. apply orb_true_iff in M. destruct M as [M|M]; [left; now apply startswith_begins|].
    apply orb_true_iff in M. destruct M as [M|M]; [right; now apply startswith_begins|discriminate]. }
  split.
  - intros ->. apply traces_ok_bind in H. destruct H as (x1 & t1 & t2 & -> & _ & H).
    apply traces_ok_bind in H. destruct H as (x2 & t3 & t4 & -> & H & _). destruct (B _ _ H) as [N _]. now apply (N x2).
  - match type of H with traces ?p _ _ => assert (W3 : only (fun r => forall x, sent (asked r) = Some x -> x = lit "tel stop" \/ reading x) p) end.
    { apply only_bind; [exact W|]. intros _. apply only_bind; [exact W2|]. intros. apply only_ret. }
    exact (W3 _ _ H).
Qed.

(** --cal-kv-voltage with several devices: after the first, none is calibrated. *)
Theorem C54_kv_voltage_refuted g l t o : calibrates g -> a_kv_voltage (g_cal g) <> None ->
  expand_targets (g_target g) = Ok l -> traces (start g) t o ->
  forall i j, Props_Tool.named (g_target g) i -> Props_Tool.named (g_target g) j -> i < j ->
    o <> Some (inr tt) /\
    Forall (fun e => forall x, sent e = Some x -> x = lit "tel stop" \/ reading x) (heard (g_can_prefix g) j t).
Proof.
  intros C KV E H i j I J L. destruct (Props_Tool.C33_targets _ _ E) as [S K0]. apply K0 in I, J.
  assert (N : l <> []) by (intros ->; destruct I).
  destruct (C54_named_devices _ _ _ _ E N H) as (_ & _ & _ & O).
  assert (ND : (j =? hd j l) = false).
  { destruct l as [|h l]; [congruence|]. cbn. inversion S as [|? ? _ F]; subst. rewrite Forall_forall in F.
    destruct I as [->|I]; [lia|]. destruct J as [->|J]; [pose proof (F i I); lia|]. pose proof (F j J). lia. }
  pose proof (kv_later g C KV) as R.
  assert (RJ : forall u o, runs g l j u o -> o <> Some (inr tt) /\
     Forall (fun e => forall x, sent e = Some x -> x = lit "tel stop" \/ reading x) u).
  { unfold runs. rewrite ND. exact R. }
  destruct O as [[_ O]|(NE & m & M & O & Q)].
  - exfalso. destruct (RJ _ _ (O j J)) as [X _]. congruence.
  - split; [exact NE|]. destruct (Z.lt_trichotomy j m) as [X|[->|X]].
    + destruct (Q j J) as [Q1 _]. exact (proj2 (RJ _ _ (Q1 X))).
    + exact (proj2 (RJ _ _ O)).
    + destruct (Q j J) as [_ Q1]. rewrite (Q1 X). constructor.
Qed.
End P.

(** ** Examples *)
Definition some_args (targets : list (list Z)) (prefix : Z) (stop info : bool) (cal : option cal_args) (offset : option float) : run_args :=
  {| g_target := targets; g_can_prefix := prefix; g_tel_stop := false; g_no_tel_stop := false; g_stop := stop; g_info := info;
     g_console := false; g_dump_config := false; g_restore_config := None; g_write_config := None; g_flash := None;
     g_no_restore_config := false; g_bootloader_active := false; g_calibrate := match cal with Some _ => true | None => false end;
     g_restore_cal := None; g_zero_offset := false; g_set_offset := offset;
     g_cal := match cal with Some a => a | None => bench_args false end |}.

(** Devices 3 and 9 are on the bus; [deaf] does not answer requests. *)
Definition some_devices (deaf : Z) (w : toy) (r : rreq) : toy * (err + rrep r) :=
  match r return toy * (err + rrep r) with
  | Query _ i => (w, if (i =? 3) || (i =? 9) then inr true else if i =? 4 then inr false else inl (Exn TimeoutError))
  | At _ i q => if i =? deaf then (w, inl (Exn TimeoutError)) else toy_device [] w q
  end.
Definition some_start (g : run_args) : RP unit := start toy_parse toy_str milli fadd left_sum (fun l => (false, l)) g.
Definition some_run (deaf : Z) (g : run_args) :=
  drive (Z.to_nat 20000) (some_devices deaf) {| pwms := 0; polls := 0; clock := 0 |} (some_start g).

Lemma some_traces deaf g (ok : list revent -> err + unit -> bool) :
  match some_run deaf g with Some (t, o, _) => ok t o | None => false end = true ->
  exists t o, traces (some_start g) t (Some o) /\ ok t o = true.
Proof.
  unfold some_run. destruct (drive _ _ _ _) as [[[t o] w]|] eqn:E; [|discriminate]. intros H. exists t, o. split; [|exact H].
  exact (drive_traces _ _ _ _ _ _ _ _ _ E).
Qed.

(** What was sent, with the device. *)
Definition sent_to (t : list revent) : list (Z * Z * list Z) :=
  flat_map (fun e => match question e with
                     | At p i q => match sent (asked q) with Some x => [(p, i, x)] | None => [] end
                     | _ => []
                     end) t.

Definition text_eqb (a b : Z * Z * list Z) : bool :=
  let '(p, i, x) := a in let '(q, j, y) := b in (p =? q) && (i =? j) && bytes_eqb x y.
Fixpoint all_eqb {A} (eqb : A -> A -> bool) (a b : list A) : bool :=
  match a, b with
  | [], [] => true
  | x :: a, y :: b => eqb x y && all_eqb eqb a b
  | _, _ => false
  end.
Definition well (o : err + unit) : bool := match o with inr _ => true | inl _ => false end.

(** Two devices are named: both are stopped; a third that is deaf is the last that hears something. *)
Example ex_stop : exists t, traces (some_start (some_args [lit "9,3"] 0 true false None None)) t (Some (inr tt)) /\
  all_eqb text_eqb (sent_to t) [(0, 3, lit "d stop"); (0, 9, lit "d stop")] = true.
Proof.
  destruct (some_traces 0 (some_args [lit "9,3"] 0 true false None None)
    (fun t o => well o && all_eqb text_eqb (sent_to t) [(0, 3, lit "d stop"); (0, 9, lit "d stop")])) as (t & o & H & E).
  - vm_compute. reflexivity.
  - apply andb_true_iff in E. destruct E as [E1 E2]. destruct o as [e|[]]; [discriminate|]. exists t. auto.
Qed.
Example ex_stop_deaf : exists t e, traces (some_start (some_args [lit "9,3"; lit "5-7"] 0 true false None None)) t (Some (inl e)) /\
  all_eqb text_eqb (sent_to t) [(0, 3, lit "d stop"); (0, 5, lit "d stop"); (0, 6, lit "d stop")] = true.
Proof.
  destruct (some_traces 6 (some_args [lit "9,3"; lit "5-7"] 0 true false None None)
    (fun t o => negb (well o) && all_eqb text_eqb (sent_to t) [(0, 3, lit "d stop"); (0, 5, lit "d stop"); (0, 6, lit "d stop")])) as (t & o & H & E).
  - vm_compute. reflexivity.
  - apply andb_true_iff in E. destruct E as [E1 E2]. destruct o as [e|[]]; [|discriminate]. exists t, e. auto.
Qed.

(** None is named: the two on the bus are asked for their information. *)
Example ex_info : exists t, traces (some_start (some_args [] 0 false true None None)) t (Some (inr tt)) /\
  all_eqb text_eqb (sent_to t)
    [(0, 3, lit "tel stop"); (0, 3, lit "conf enumerate uuid"); (0, 9, lit "tel stop"); (0, 9, lit "conf enumerate uuid")] = true /\
  (length (filter (fun e => match question e with Query _ _ => true | At _ _ _ => false end) t) =? 126)%nat = true.
Proof.
  destruct (some_traces 0 (some_args [] 0 false true None None)
    (fun t o => well o && (all_eqb text_eqb (sent_to t)
    [(0, 3, lit "tel stop"); (0, 3, lit "conf enumerate uuid"); (0, 9, lit "tel stop"); (0, 9, lit "conf enumerate uuid")] &&
    (length (filter (fun e => match question e with Query _ _ => true | At _ _ _ => false end) t) =? 126)%nat))) as (t & o & H & E).
  - vm_compute. reflexivity.
  - apply andb_true_iff in E. destruct E as [E1 E2]. apply andb_true_iff in E2. destruct o as [e|[]]; [discriminate|]. exists t. auto.
Qed.

Example ex_bad_names : expand_targets [lit "1-2-3"] = Raise ValueError.
Proof. vm_compute. reflexivity. Qed.

Example ex_offset_zero : g_set_offset (some_args [lit "3"] 0 false false None (Some (float_of_Z 0))) = Some (float_of_Z 0) /\
  given (g_set_offset (some_args [lit "3"] 0 false false None (Some (float_of_Z 0)))) = None.
Proof. split; reflexivity. Qed.

(** --cal-kv-voltage for two devices. *)
Definition kv_args (l : list (list Z)) : run_args :=
  some_args l 0 false false
    (Some {| a_invert := false; a_hall := true; a_bw_hz := float_of_Z 200; a_encoder_bw_hz := None; a_no_update := false;
     a_ll_encoder_voltage := None; a_ll_encoder_speed := float_of_Z 1; a_ll_kv_voltage := None; a_power := None;
     a_speed := None; a_voltage := None; a_kv_voltage := Some (float_of_Z 2); a_motor_power := flit 75 1;
     a_motor_speed := float_of_Z 6; a_motor_poles := Some 4; a_force_kv := None;
     a_force_optimize := false; a_disable_optimize := true; a_max_remainder := flit 1 1;
     a_max_kv_power_factor := flit 125 2; a_write_raw := false; a_force_current_mode := false |}) None.
Example ex_kv : calibrates (kv_args [lit "3,9"]) /\ a_kv_voltage (g_cal (kv_args [lit "3,9"])) <> None /\
  Props_Tool.named (g_target (kv_args [lit "3,9"])) 3 /\ Props_Tool.named (g_target (kv_args [lit "3,9"])) 9.
Proof.
  split; [vm_compute; intuition|]. split; [discriminate|].
  destruct (Props_Tool.C33_targets [lit "3,9"] [3; 9]) as [_ H]; [vm_compute; reflexivity|]. split; apply H; cbn; auto.
Qed.

(** Without -t, a device behind another prefix than 0 is talked to although none was looked for
    there. *)
Theorem C54_discovery_prefix_refuted :
  ~ (forall g t o e i q, traces (some_start g) t o -> In e t -> question e = At (g_can_prefix g) i q ->
       expand_targets (g_target g) = Ok [] -> exists e', In e' t /\ question e' = Query (g_can_prefix g) i).
Proof.
  intros F. destruct (some_traces 0 (some_args [] 5 true false None None)
    (fun t o => existsb (fun e => match question e with At p i _ => (p =? 5) && (i =? 3) | _ => false end) t)) as (t & o & H & E).
  { vm_compute. reflexivity. }
  apply existsb_exists in E. destruct E as (e & I & E).
  assert (Q : exists q, question e = At 5 3 q).
  { destruct (question e) as [|p i q]; [discriminate|]. exists q. f_equal; lia. }
  destruct Q as (q & Q). destruct (F _ _ _ _ 3 q H I Q eq_refl) as (e' & I' & Q').
  assert (O : forall g t o, traces (some_start g) t o -> (forall A (p : T A), only (fun _ : treq => True) p) ->
     Forall (fun e => (exists i, question e = Query 0 i) \/ exists i q, question e = At (g_can_prefix g) i q /\ True) t).
  { clear. intros g t o H K. unfold some_start in H. eapply only_start; [|exact H]. intros g' _. apply K. }
  apply O in H.
  - rewrite Forall_forall in H. specialize (H e' I'). rewrite Q' in H. destruct H as [(j & J)|(j & r & J & _)]; discriminate.
  - intros A p t' o' _. apply Forall_forall. auto.
Qed.

Print Assumptions C54_named_devices.
Print Assumptions C54_bad_names.
Print Assumptions C54_found_devices.
Print Assumptions C54_stop_sends_only_stop.
Print Assumptions C54_stop_stops_each.
Print Assumptions C54_looking_changes_nothing.
Print Assumptions C54_set_offset_zero_refuted.
Print Assumptions C54_kv_voltage_refuted.
Print Assumptions C54_discovery_prefix_refuted.
