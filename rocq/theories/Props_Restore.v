(** C49: restoring a configuration. *)
From Coq Require Import Ascii String ZArith List Bool Lia ZifyBool ZifyNat.
From Verif Require Import PyBase PyBytes PyFloat Fdcanusb_Model Tool_Model Calib_Model Config_Model
  Config_Spec Encoder_Model Calfile_Model Flash_Model Proc Device_Model Device_Spec Device_Proofs.
Import ListNotations.
Open Scope Z_scope.

(** ** Stripping *)
Section Strip.
Variable space : Z -> bool.
Fixpoint drop (l : list Z) : list Z := match l with c :: l' => if space c then drop l' else l | [] => [] end.

Lemma drop_spec l : exists w, l = w ++ drop l /\ blank space w /\ forall c r, drop l = c :: r -> space c = false.
Proof.
  induction l as [|c l (w & E & B & N)]; [exists []; repeat split; [constructor|discriminate]|].
  cbn [drop]. destruct (space c) eqn:S.
  - exists (c :: w). cbn. rewrite <- E. repeat split; auto. now constructor.
  - exists []. repeat split; [constructor|]. intros c' r' H. now injection H as <- _.
Qed.

Lemma trimmed_drop l : trimmed space l (rev (drop (rev l))).
Proof.
  destruct (drop_spec (rev l)) as (w & E & B & N). exists (rev w). split; [|split].
  - rewrite <- rev_app_distr, <- E. now rewrite rev_involutive.
  - unfold blank in *. rewrite Forall_forall in *. intros c H. apply B. now apply in_rev.
  - intros l' c H. assert (H' : drop (rev l) = c :: rev l').
    { rewrite <- (rev_involutive (drop (rev l))), H, rev_app_distr. reflexivity. }
    exact (N _ _ H').
Qed.

Lemma drop_blank w l : blank space w -> (forall c r, l = c :: r -> space c = false) -> drop (w ++ l) = l.
Proof.
  intros B N. induction B as [|c w H _ IH]; cbn [app drop].
  - destruct l as [|c l]; [reflexivity|]. cbn [drop]. now rewrite (N c l eq_refl).
  - now rewrite H.
Qed.

Lemma trimmed_unique l t : trimmed space l t -> t = rev (drop (rev l)).
Proof.
  intros (w & -> & B & N). rewrite rev_app_distr, drop_blank.
  - now rewrite rev_involutive.
  - unfold blank in *. rewrite Forall_forall in *. intros c H. apply B. now apply in_rev.
  - intros c r H. apply (N (rev r) c). rewrite <- (rev_involutive t), H. reflexivity.
Qed.
End Strip.

Lemma trimmed_rstrip l t : trimmed is_space l t <-> t = rstrip l.
Proof.
  assert (E : forall l, drop is_space l = drop_space l).
  { induction l0 as [|c l0 IH]; [reflexivity|]. cbn. now rewrite IH. }
  unfold rstrip. rewrite <- E. split; [apply trimmed_unique|]. intros ->. apply trimmed_drop.
Qed.
Lemma trimmed_str_rstrip l t : trimmed str_space l t <-> t = str_rstrip l.
Proof.
  assert (E : forall l, drop str_space l = str_drop l).
  { induction l0 as [|c l0 IH]; [reflexivity|]. cbn. now rewrite IH. }
  unfold str_rstrip. rewrite <- E. split; [apply trimmed_unique|]. intros ->. apply trimmed_drop.
Qed.

Lemma before_uncomment l t : before_comment l t <-> t = uncomment l.
Proof.
  revert t. induction l as [|c l IH]; intros t; cbn [uncomment].
  - split; [intros (_ & [<-|(r & H)]); auto; destruct t; discriminate|]. intros ->. split; [now intros []|auto].
  - destruct (Z.eqb_spec c 35) as [->|N].
    + split.
      * intros (H & [<-|(r & E)]); [exfalso; apply H; now left|]. destruct t as [|c t]; [reflexivity|].
        injection E as <- _. exfalso. apply H. now left.
      * intros ->. split; [now intros []|]. right. eexists. reflexivity.
    + split.
      * intros (H & H2). destruct t as [|c' t]; [destruct H2 as [H2|(r & H2)]; [discriminate|]; injection H2 as ->; contradiction|].
        assert (c = c') as <- by (destruct H2 as [H2|(r & H2)]; injection H2; auto). f_equal. apply IH. split.
        -- intros I. apply H. now right.
        -- destruct H2 as [H2|(r & H2)]; injection H2 as ->; eauto.
      * intros ->. destruct (proj2 (IH (uncomment l)) eq_refl) as (H & H2). split.
        -- intros [->|I]; auto.
        -- destruct H2 as [H2|(r & H2)]; [left; now rewrite <- H2|right; exists r; cbn; now rewrite <- H2].
Qed.

Definition nonempty (l : list Z) : bool := negb (length l =? 0)%nat.

Lemma contents_filter reads f : (forall l t, reads l t <-> t = f l) ->
  forall ls ts, contents reads ls ts <-> ts = filter nonempty (map f ls).
Proof.
  intros R ls. induction ls as [|l ls IH]; intros ts; cbn [map filter].
  - split; [inversion 1; auto|intros ->; constructor].
  - split.
    + inversion 1 as [|? ? ? H1 H2|? ? t ts' H1 N H2]; subst.
      * apply R in H1. rewrite <- H1. cbn. now apply IH.
      * apply R in H1. subst t. apply IH in H2. subst ts'. destruct (f l) eqn:E; [contradiction|]. reflexivity.
    + intros ->. destruct (f l) as [|c r] eqn:E; cbn.
      * apply contents_skip; [now apply R|now apply IH].
      * apply contents_line; [now apply R|discriminate|now apply IH].
Qed.

(** ** Trying one command *)
Definition attempt (text line : list Z) : T (list (list Z)) :=
  catch_command (do _ <- command text; Ret []) (fun _ => Ret [line]).

Lemma attempt_traces text line t o : traces (attempt text line) t o ->
  (o = None /\ (t = [] \/ exists x, t = [existT _ (Command text false) x])) \/
  (exists r, t = [answered (Command text false) (inr r)] /\ o = Some (inr [])) \/
  (exists m, t = [answered (Command text false) (inl (CmdErr m))] /\ o = Some (inr [line])) \/
  (exists e, t = [answered (Command text false) (inl (Exn e))] /\ o = Some (inl (Exn e))).
Proof.
  unfold attempt, catch_command, command, await, ask. cbn [pbind catch answer traces].
  intros [[-> [->| ->]]|(x & t' & -> & H)].
  - left. auto.
  - left. split; auto. right. exists None. reflexivity.
  - destruct x as [[e|m]|r]; cbn in H; destruct H as [-> [->| ->]].
    + left. split; auto. right. exists (Some (inl (Exn e))). reflexivity.
    + right. right. right. exists e. auto.
    + left. split; auto. right. exists (Some (inl (CmdErr m))). reflexivity.
    + right. right. left. exists m. auto.
    + left. split; auto. right. exists (Some (inr r)). reflexivity.
    + right. left. exists r. auto.
Qed.

Lemma attempt_accepted text line r : traces (attempt text line) [answered (Command text false) (inr r)] (Some (inr [])).
Proof. right. exists (inr r), []. cbn. auto. Qed.
Lemma attempt_refused text line m : traces (attempt text line) [answered (Command text false) (inl (CmdErr m))] (Some (inr [line])).
Proof. right. exists (inl (CmdErr m)), []. cbn. auto. Qed.

Lemma texts_app t u : texts (t ++ u) = texts t ++ texts u.
Proof. apply flat_map_app. Qed.

Definition prefix {A} (l m : list A) : Prop := exists r, m = l ++ r.
Lemma prefix_nil A (l : list A) : prefix [] l.
Proof. exists l. reflexivity. Qed.
Lemma prefix_cons A (x : A) l m : prefix l m -> prefix (x :: l) (x :: m).
Proof. intros [r ->]. exists r. reflexivity. Qed.
Lemma prefix_app A (k l m : list A) : prefix l m -> prefix (k ++ l) (k ++ m).
Proof. intros [r ->]. exists r. now rewrite app_assoc. Qed.
Lemma prefix_trans A (k l m : list A) : prefix k l -> prefix l m -> prefix k m.
Proof. intros [r ->] [s ->]. exists (r ++ s). now rewrite app_assoc. Qed.
Lemma prefix_l A (l m : list A) : prefix l (l ++ m).
Proof. exists m. reflexivity. Qed.

Lemma tried_texts cs t bad : tried cs t bad -> texts t = cs.
Proof. induction 1 as [|c cs r t bad H IH|c cs m t bad H IH]; [reflexivity| |];
  (change (c :: texts t = c :: cs); now rewrite IH). Qed.

(** ** write_lines *)
Lemma write_lines_traces ls : forall t o, traces (write_lines ls) t o ->
  prefix (texts t) (filter nonempty (map rstrip ls)) /\
  forall bad, o = Some (inr bad) -> tried (filter nonempty (map rstrip ls)) t bad.
Proof.
  induction ls as [|l ls IH]; intros t o H; cbn [write_lines map filter] in *.
  - destruct H as [-> H]. split; [apply prefix_nil|]. intros bad ->. destruct H as [H|H]; [discriminate|].
    injection H as ->. constructor.
  - destruct (rstrip l) as [|c r] eqn:E; cbn [List.length Nat.eqb] in H; [exact (IH _ _ H)|].
    cbn [nonempty List.length Nat.eqb negb]. set (x := c :: r) in *. clearbody x. clear E.
    change (traces (do bad <- attempt x x; do errors <- write_lines ls; Ret (bad ++ errors)) t o) in H.
    apply traces_bind in H. destruct H as [[H ->]|[(e & H & ->)|(b & t1 & t2 & -> & H1 & H2)]].
    + split; [|discriminate]. apply attempt_traces in H.
      destruct H as [[_ [->|(y & ->)]]|[(? & _ & H)|[(? & _ & H)|(? & _ & H)]]]; try discriminate; cbn.
      * apply prefix_nil.
      * apply prefix_cons, prefix_nil.
    + split; [|discriminate]. apply attempt_traces in H.
      destruct H as [[H _]|[(? & _ & H)|[(? & _ & H)|(e' & -> & H)]]]; try discriminate. cbn. apply prefix_cons, prefix_nil.
    + assert (T1 : texts t1 = [x] /\ (forall bad cs u, tried cs u bad -> tried (x :: cs) (t1 ++ u) (b ++ bad))).
      { apply attempt_traces in H1. destruct H1 as [[H _]|[(y & -> & H)|[(y & -> & H)|(? & _ & H)]]]; try discriminate;
          injection H as ->; (split; [reflexivity|]); intros; now constructor. }
      destruct T1 as [T1 T1']. rewrite texts_app, T1.
      apply traces_bind in H2. destruct H2 as [[H ->]|[(e & H & ->)|(b' & t3 & t4 & -> & H2 & H3)]].
      * destruct (IH _ _ H) as [P _]. split; [|discriminate]. now apply prefix_cons.
      * destruct (IH _ _ H) as [P _]. split; [|discriminate]. now apply prefix_cons.
      * destruct (IH _ _ H2) as [P Q]. destruct H3 as [-> H3]. rewrite app_nil_r. split; [now apply prefix_cons|].
        intros bad ->. destruct H3 as [H3|H3]; [discriminate|]. injection H3 as ->. apply T1'. now apply Q.
Qed.

Lemma write_lines_back ls : forall t bad, tried (filter nonempty (map rstrip ls)) t bad ->
  traces (write_lines ls) t (Some (inr bad)).
Proof.
  induction ls as [|l ls IH]; intros t bad H; cbn [write_lines map filter] in *.
  - inversion H; subst. cbn. auto.
  - destruct (rstrip l) as [|c r] eqn:E; cbn [List.length Nat.eqb] in *; [exact (IH _ _ H)|].
    cbn [nonempty List.length Nat.eqb negb] in H. set (x := c :: r) in *. clearbody x. clear E.
    change (traces (do bad <- attempt x x; do errors <- write_lines ls; Ret (bad ++ errors)) t (Some (inr bad))).
    apply traces_bind_back. right. right.
    inversion H as [|? ? rep t' ? H'|? ? m t' bad' H']; subst.
    + exists [], [answered (Command x false) (inr rep)], t'. split; [reflexivity|]. split; [apply attempt_accepted|].
      apply traces_bind_back. right. right. exists bad, t', []. rewrite app_nil_r. split; [reflexivity|]. split; [now apply IH|]. cbn. auto.
    + exists [x], [answered (Command x false) (inl (CmdErr m))], t'. split; [reflexivity|]. split; [apply attempt_refused|].
      apply traces_bind_back. right. right. exists bad', t', []. rewrite app_nil_r. split; [reflexivity|]. split; [now apply IH|]. cbn. auto.
Qed.

(** ** restore_config *)

(** The lines that are built are read back as they are. *)
Lemma read_lines_line l rest : ~ In 10 l -> read_lines (l ++ [10] ++ rest) = (l ++ [10]) :: read_lines rest.
Proof.
  induction l as [|c l IH]; intros N; [reflexivity|]. cbn [app read_lines].
  destruct (Z.eqb_spec c 10) as [->|_]; [exfalso; apply N; now left|].
  change (read_lines (l ++ 10 :: rest)) with (read_lines (l ++ [10] ++ rest)). rewrite IH; [reflexivity|].
  intros I. apply N. now right.
Qed.
Lemma read_lines_concat ls : Forall (fun l => ~ In 10 l) ls ->
  read_lines (List.concat (map (fun l => l ++ [10]) ls)) = map (fun l => l ++ [10]) ls.
Proof.
  induction 1 as [|l ls N _ IH]; [reflexivity|]. cbn [map List.concat]. rewrite <- app_assoc, read_lines_line by auto. now rewrite IH.
Qed.
Lemma split_on_no sep l : Forall (fun x => ~ In sep x) (split_on sep l).
Proof.
  induction l as [|c l IH]; cbn [split_on]; [repeat constructor; intros []|].
  destruct (Z.eqb_spec c sep) as [->|N]; [constructor; auto|].
  destruct (split_on sep l) as [|w ws]; inversion IH; subst; constructor; auto; intros [E|I]; congruence || auto.
Qed.

Lemma rstrip_newline l : rstrip (l ++ [10]) = rstrip l.
Proof. unfold rstrip. now rewrite rev_app_distr. Qed.

Lemma drop_space_space l : drop_space l = [] <-> blank is_space l.
Proof.
  induction l as [|c l IH]; cbn; [split; [constructor|auto]|]. destruct (is_space c) eqn:E.
  - rewrite IH. split; [now constructor|]. now inversion 1.
  - split; [discriminate|]. inversion 1. congruence.
Qed.
Lemma blank_rev w : blank is_space (rev w) <-> blank is_space w.
Proof.
  unfold blank. rewrite !Forall_forall. split; intros H c I; apply H; [apply -> in_rev|apply <- in_rev]; auto.
Qed.
Lemma rstrip_blank l : rstrip l = [] <-> blank is_space l.
Proof.
  unfold rstrip. rewrite <- (blank_rev l), <- drop_space_space. split; [|intros ->; reflexivity].
  intros H. rewrite <- (rev_involutive (drop_space _)), H. reflexivity.
Qed.
Lemma strip_blank l : bytes_strip l = [] <-> blank is_space l.
Proof.
  unfold bytes_strip. rewrite rstrip_blank. split.
  - intros H. destruct (drop_spec is_space l) as (w & E & B & N).
    assert (D : forall l, drop is_space l = drop_space l) by (induction l0 as [|c l0 IH]; cbn; [|rewrite IH]; auto).
    rewrite D in E. rewrite E. unfold blank. apply Forall_app. auto.
  - intros H. apply drop_space_space in H. rewrite H. constructor.
Qed.

Definition settings (config : list Z) : list (list Z) :=
  map (fun l => rstrip (lit "conf set " ++ l)) (filter (fun l => nonempty (rstrip l)) (split_on 10 config)).

Lemma nonempty_set l : nonempty (rstrip (lit "conf set " ++ l)) = true.
Proof.
  unfold nonempty. destruct (rstrip (lit "conf set " ++ l)) eqn:R; [|reflexivity].
  apply rstrip_blank in R. inversion R; subst. discriminate.
Qed.

Lemma built_lines config :
  filter nonempty (map rstrip (read_lines (List.concat
    (flat_map (fun line => if (length (bytes_strip line) =? 0)%nat then [] else [lit "conf set " ++ line ++ [10]])
       (split_on 10 config))))) = settings config.
Proof.
  unfold settings. pose proof (split_on_no 10 config) as N. revert N. generalize (split_on 10 config) as ls. intros ls N.
  assert (E : flat_map (fun line => if (length (bytes_strip line) =? 0)%nat then [] else [lit "conf set " ++ line ++ [10]]) ls =
              map (fun l => l ++ [10]) (map (fun l => lit "conf set " ++ l) (filter (fun l => nonempty (rstrip l)) ls))).
  { clear N. induction ls as [|l ls IH]; [reflexivity|]. cbn [flat_map filter].
    assert (D : (length (bytes_strip l) =? 0)%nat = negb (nonempty (rstrip l))).
    { unfold nonempty. rewrite negb_involutive. apply eq_iff_eq_true. rewrite !Nat.eqb_eq, !length_zero_iff_nil, strip_blank, rstrip_blank. tauto. }
    rewrite D. destruct (nonempty (rstrip l)); cbn [negb map app]; rewrite <- ?app_assoc, IH; [|reflexivity]. reflexivity. }
  rewrite E, read_lines_concat.
  - rewrite !map_map. assert (K : forall l, nonempty (rstrip ((lit "conf set " ++ l) ++ [10])) = true).
    { intros l. rewrite rstrip_newline. apply nonempty_set. }
    clear E. induction (filter _ ls) as [|l ls' IH]; [reflexivity|]. cbn [map filter]. rewrite K, IH. now rewrite rstrip_newline.
  - rewrite Forall_forall in *. intros x I. apply in_map_iff in I. destruct I as (l & <- & I). apply filter_In in I.
    rewrite in_app_iff. intros [J|J]; [|now apply (N l)]. cbn in J. repeat (destruct J as [J|J]; [discriminate|]). destruct J.
Qed.

(** What stands on a line of the configuration, as the command that sets it. *)
Definition sets_line (l text : list Z) : Prop :=
  (blank is_space l /\ text = []) \/ (~ blank is_space l /\ trimmed is_space (lit "conf set " ++ l) text).

Lemma settings_contents config ls cs : text_lines config ls -> (contents sets_line ls cs <-> cs = settings config).
Proof.
  intros H. assert (E : split_on 10 config = ls).
  { clear cs. induction H as [l H|l text ls H _ IH].
    - induction l as [|c l IH]; [reflexivity|]. cbn. destruct (Z.eqb_spec c 10) as [->|_]; [exfalso; apply H; now left|].
      rewrite IH; [reflexivity|]. intros I. apply H. now right.
    - induction l as [|c l IHl]; [cbn; now rewrite IH|]. cbn. destruct (Z.eqb_spec c 10) as [->|_]; [exfalso; apply H; now left|].
      cbn in IHl. rewrite IHl; [reflexivity|]. intros I. apply H. now right. }
  unfold settings. rewrite E. clear E H config.
  rewrite (contents_filter sets_line (fun l => if nonempty (rstrip l) then rstrip (lit "conf set " ++ l) else [])).
  - assert (F : filter nonempty (map (fun l => if nonempty (rstrip l) then rstrip (lit "conf set " ++ l) else []) ls) =
               map (fun l => rstrip (lit "conf set " ++ l)) (filter (fun l => nonempty (rstrip l)) ls)).
    { induction ls as [|l ls IH]; [reflexivity|]. cbn [map filter]. destruct (nonempty (rstrip l)) eqn:E; [|exact IH].
      cbn [map filter]. rewrite nonempty_set, IH. reflexivity. }
    now rewrite F.
  - intros l t. unfold sets_line. rewrite trimmed_rstrip, <- rstrip_blank. unfold nonempty.
    destruct (rstrip l) eqn:E; cbn; intuition (try discriminate; try congruence).
Qed.

Definition done_well : list Z -> unit -> list ev := fun r u =>
  [answered (Command (lit "conf write") false) (inr r); answered (WriteMessage (lit "d reset")) (inr u)].

Theorem C49_restore_config_exact config ls t bad : text_lines config ls ->
  (traces (restore_config config) t (Some (inr bad)) <->
   exists commands t1 r u, contents sets_line ls commands /\ tried commands t1 bad /\ t = t1 ++ done_well r u).
Proof.
  intros L. unfold restore_config, write_config_stream. split.
  - intros H. apply traces_ok_bind in H. destruct H as (b & t1 & t2 & -> & H1 & H).
    apply traces_ok_bind in H. destruct H as (r & t3 & t4 & -> & H2 & H). apply traces_ok_command in H2. subst t3.
    apply traces_ok_bind in H. destruct H as (u & t3 & t5 & -> & H3 & H). apply (traces_ok_await (WriteMessage _)) in H3. subst t3.
    apply traces_ok_ret in H. destruct H as [-> ->].
    apply write_lines_traces in H1. destruct H1 as [_ H1]. specialize (H1 _ eq_refl). rewrite built_lines in H1.
    exists (settings config), t1, r, u. split; [exact (proj2 (settings_contents _ _ _ L) eq_refl)|]. split; auto.
  - intros (cs & t1 & r & u & C & H & ->). apply (proj1 (settings_contents _ _ _ L)) in C. subst cs.
    apply traces_bind_back. right. right. exists bad, t1, (done_well r u). split; [reflexivity|]. split.
    + apply write_lines_back. now rewrite built_lines.
    + right. exists (inr r), [answered (WriteMessage (lit "d reset")) (inr u)]. split; [reflexivity|].
      right. exists (inr u), []. cbn. auto.
Qed.

(** Whatever happens, and wherever the run breaks off. *)
Theorem C49_restore_config_order config ls commands t o : text_lines config ls -> contents sets_line ls commands ->
  traces (restore_config config) t o ->
  prefix (texts t) (commands ++ [lit "conf write"; lit "d reset"]).
Proof.
  intros L C H. apply (proj1 (settings_contents _ _ _ L)) in C. subst commands. unfold restore_config, write_config_stream in H.
  apply traces_bind in H. destruct H as [[H ->]|[(e & H & ->)|(b & t1 & t2 & -> & H1 & H)]].
  1, 2: apply write_lines_traces in H; destruct H as [H _]; rewrite built_lines in H;
    eapply prefix_trans; [exact H|apply prefix_l].
  apply write_lines_traces in H1. destruct H1 as [_ H1]. specialize (H1 _ eq_refl). rewrite built_lines in H1.
  apply tried_texts in H1. rewrite texts_app, H1. apply prefix_app.
  destruct H as [[_ [->| ->]]|(x & t' & -> & H)]; [apply prefix_nil|apply prefix_cons, prefix_nil|].
  apply (prefix_cons _ (lit "conf write") (texts t')). destruct x as [e|r]; [destruct H as [-> _]; apply prefix_nil|].
  destruct H as [[_ [->| ->]]|(x & t'' & -> & H)]; [apply prefix_nil|apply prefix_cons, prefix_nil|].
  apply (prefix_cons _ (lit "d reset") (texts t'')). destruct x as [e|u]; destruct H as [-> _]; apply prefix_nil.
Qed.

Lemma settings_not_stored config (t : list ev) : prefix (texts t) (settings config) -> Forall (fun e => ~ stores e) t.
Proof.
  intros (r & U). rewrite Forall_forall. intros e I S. apply in_split in I. destruct I as (u1 & u2 & ->).
  rewrite texts_app in U. cbn [texts flat_map] in U. unfold stores, sends in S. rewrite S in U.
  assert (I : In (lit "conf write") (settings config)).
  { rewrite U. apply in_or_app. left. apply in_or_app. right. now left. }
  unfold settings in I. apply in_map_iff in I. destruct I as (y & E & _).
  assert (K : trimmed is_space (lit "conf set " ++ y) (lit "conf write")) by now apply trimmed_rstrip.
  destruct K as (w & K & _). cbn in K. discriminate.
Qed.

(** Splitting at an event one part does not have. *)
Lemma split_store (t u t1 t2 : list ev) e : Forall (fun e => ~ stores e) t -> stores e -> t ++ u = t1 ++ e :: t2 ->
  exists u1, t1 = t ++ u1 /\ u = u1 ++ e :: t2.
Proof.
  revert t1. induction t as [|x t IH]; intros t1 N S E; [exists t1; auto|].
  inversion N as [|? ? Nx N']; subst. destruct t1 as [|y t1]; cbn in E; injection E as -> E.
  - contradiction.
  - destruct (IH _ N' S E) as (u1 & -> & ->). exists u1. auto.
Qed.

(** Nothing is stored before every line has been tried. *)
Theorem C49_stored_after_all config ls commands t1 e t2 o : text_lines config ls -> contents sets_line ls commands ->
  traces (restore_config config) (t1 ++ e :: t2) o -> stores e ->
  (exists bad, tried commands t1 bad) /\ prefix (texts t2) [lit "d reset"].
Proof.
  intros L C H S. apply (proj1 (settings_contents _ _ _ L)) in C. subst commands. unfold restore_config, write_config_stream in H.
  apply traces_bind in H. destruct H as [[H _]|[(x & H & _)|(b & ta & tb & E & H1 & H)]].
  1, 2: apply write_lines_traces in H; destruct H as [H _]; rewrite built_lines in H; apply settings_not_stored in H;
    apply Forall_app in H; destruct H as [_ H]; inversion H; contradiction.
  apply write_lines_traces in H1. rewrite built_lines in H1. destruct H1 as [P H1]. specialize (H1 _ eq_refl).
  symmetry in E. apply split_store in E; auto; [|exact (settings_not_stored _ _ P)]. destruct E as (u1 & -> & ->).
  destruct H as [[_ [E|E]]|(x & t' & E & H)]; [destruct u1; discriminate| |].
  - destruct u1 as [|? [|]]; try discriminate. injection E as -> ->. rewrite app_nil_r. split; [eauto|apply prefix_nil].
  - assert (K : prefix (texts t') [lit "d reset"]).
    { destruct x as [x|x]; [destruct H as [-> _]; apply prefix_nil|].
      destruct H as [[_ [->| ->]]|(y & t'' & -> & H)]; [apply prefix_nil|apply prefix_cons, prefix_nil|].
      destruct y as [y|y]; destruct H as [-> _]; apply prefix_cons, prefix_nil. }
    destruct u1 as [|y u1]; injection E as -> E.
    + subst t'. rewrite app_nil_r. eauto.
    + exfalso. subst t'. rewrite texts_app in K. cbn [texts flat_map] in K. unfold stores, sends in S. rewrite S in K.
      destruct K as (k & K). destruct (texts u1) as [|z zs]; [discriminate|]. injection K as _ K. destruct zs; discriminate.
Qed.

(** ** do_restore_config *)
Definition reads_line (l text : list Z) : Prop :=
  exists u, before_comment l u /\ trimmed str_space u text.

Lemma reads_eq l t : reads_line l t <-> t = str_rstrip (uncomment l).
Proof.
  unfold reads_line. split.
  - intros (u & H & K). apply before_uncomment in H. subst u. now apply trimmed_str_rstrip.
  - intros ->. exists (uncomment l). split; [now apply before_uncomment|now apply trimmed_str_rstrip].
Qed.

Definition latin1 (text : list Z) : Prop := Forall (fun c => 0 <= c < 256) text.
Lemma latin1_b text : forallb byte_okb text = true <-> latin1 text.
Proof.
  unfold latin1. rewrite forallb_forall, Forall_forall. unfold byte_okb. split; intros H c I; apply H in I; lia.
Qed.

Notation set_line := (app (lit "conf set ")).
Definition config_lines (ls : list (list Z)) : list (list Z) :=
  filter nonempty (map (fun l => str_rstrip (uncomment l)) ls).

Lemma restore_lines_traces ls : forall t o, traces (restore_lines ls) t o ->
  prefix (texts t) (map set_line (config_lines ls)) /\
  forall bad, o = Some (inr bad) -> Forall latin1 (config_lines ls) /\
    tried (map set_line (config_lines ls)) t (map set_line bad).
Proof.
  unfold config_lines.
  induction ls as [|l ls IH]; intros t o H; cbn [restore_lines map filter] in *.
  - destruct H as [-> H]. split; [apply prefix_nil|]. intros bad ->. destruct H as [H|H]; [discriminate|].
    injection H as ->. split; constructor.
  - destruct (str_rstrip (uncomment l)) as [|c r] eqn:E; cbn [List.length Nat.eqb] in H; [exact (IH _ _ H)|].
    cbn [nonempty List.length Nat.eqb negb map]. set (x := c :: r) in *. clearbody x. clear E.
    destruct (forallb byte_okb x) eqn:B; [|destruct H as [-> H]; split; [apply prefix_nil|];
      intros bad ->; destruct H as [H|H]; discriminate].
    apply latin1_b in B.
    change (traces (do bad <- attempt (lit "conf set " ++ x) x; do errors <- restore_lines ls; Ret (bad ++ errors)) t o) in H.
    apply traces_bind in H. destruct H as [[H ->]|[(e & H & ->)|(b & t1 & t2 & -> & H1 & H2)]].
    + split; [|discriminate]. apply attempt_traces in H.
      destruct H as [[_ [->|(y & ->)]]|[(? & _ & H)|[(? & _ & H)|(? & _ & H)]]]; try discriminate; cbn [texts flat_map sent question projT1 app].
      * apply prefix_nil.
      * apply prefix_cons, prefix_nil.
    + split; [|discriminate]. apply attempt_traces in H.
      destruct H as [[H _]|[(? & _ & H)|[(? & _ & H)|(e' & -> & H)]]]; try discriminate. apply prefix_cons, prefix_nil.
    + assert (T1 : texts t1 = [lit "conf set " ++ x] /\ (forall bad cs u, tried cs u (map set_line bad) ->
          tried ((lit "conf set " ++ x) :: cs) (t1 ++ u) (map set_line (b ++ bad)))).
      { apply attempt_traces in H1. destruct H1 as [[H _]|[(y & -> & H)|[(y & -> & H)|(? & _ & H)]]]; try discriminate;
          injection H as ->; (split; [reflexivity|]); intros; now constructor. }
      destruct T1 as [T1 T1']. rewrite texts_app, T1.
      apply traces_bind in H2. destruct H2 as [[H ->]|[(e & H & ->)|(b' & t3 & t4 & -> & H2 & H3)]].
      * destruct (IH _ _ H) as [P _]. split; [|discriminate]. now apply prefix_cons.
      * destruct (IH _ _ H) as [P _]. split; [|discriminate]. now apply prefix_cons.
      * destruct (IH _ _ H2) as [P Q]. destruct H3 as [-> H3]. rewrite app_nil_r. split; [now apply prefix_cons|].
        intros bad ->. destruct H3 as [H3|H3]; [discriminate|]. injection H3 as ->. destruct (Q _ eq_refl) as [Q1 Q2].
        split; [constructor; auto|]. now apply T1'.
Qed.

Lemma set_line_inj a b : set_line a = set_line b -> a = b.
Proof. apply app_inv_head. Qed.

Lemma restore_lines_back ls : forall t bad, Forall latin1 (config_lines ls) ->
  tried (map set_line (config_lines ls)) t (map set_line bad) -> traces (restore_lines ls) t (Some (inr bad)).
Proof.
  unfold config_lines.
  induction ls as [|l ls IH]; intros t bad L H; cbn [restore_lines map filter] in *.
  - inversion H as [A B C| |]; subst. destruct bad; [|discriminate]. cbn. auto.
  - destruct (str_rstrip (uncomment l)) as [|c r] eqn:E; cbn [List.length Nat.eqb] in *; [exact (IH _ _ L H)|].
    cbn [nonempty List.length Nat.eqb negb map] in H, L. set (x := c :: r) in *. clearbody x. clear E.
    inversion L as [|? ? B L']; subst. apply latin1_b in B. rewrite B.
    change (traces (do bad <- attempt (lit "conf set " ++ x) x; do errors <- restore_lines ls; Ret (bad ++ errors)) t (Some (inr bad))).
    apply traces_bind_back. right. right.
    inversion H as [|? ? rep t' ? H'|? ? m t' bad' H' E1 E2 E3]; subst.
    + exists [], [answered (Command (lit "conf set " ++ x) false) (inr rep)], t'. split; [reflexivity|]. split; [apply attempt_accepted|].
      apply traces_bind_back. right. right. exists bad, t', []. rewrite app_nil_r. split; [reflexivity|]. split; [now apply IH|]. cbn. auto.
    + destruct bad as [|y bad]; [discriminate|]. cbn [map] in E3. injection E3 as E3 E4.
      assert (x = y) as <- by (now rewrite E3). subst bad'.
      exists [x], [answered (Command (lit "conf set " ++ x) false) (inl (CmdErr m))], t'. split; [reflexivity|]. split; [apply attempt_refused|].
      apply traces_bind_back. right. right. exists bad, t', []. rewrite app_nil_r. split; [reflexivity|]. split; [now apply IH|]. cbn. auto.
Qed.

Theorem C49_restore_file_exact lines t bad :
  traces (do_restore_config lines) t (Some (inr bad)) <->
  exists settings t1 r, contents reads_line lines settings /\ Forall latin1 settings /\
    tried (map (fun s => lit "conf set " ++ s) settings) t1 (map (fun s => lit "conf set " ++ s) bad) /\
    t = t1 ++ [answered (Command (lit "conf write") false) (inr r)].
Proof.
  unfold do_restore_config. split.
  - intros H. apply traces_ok_bind in H. destruct H as (b & t1 & t2 & -> & H1 & H).
    apply traces_ok_bind in H. destruct H as (r & t3 & t4 & -> & H2 & H). apply traces_ok_command in H2. subst t3.
    apply traces_ok_ret in H. destruct H as [-> ->].
    apply restore_lines_traces in H1. destruct H1 as [_ H1]. destruct (H1 _ eq_refl) as [H2 H3].
    exists (config_lines lines), t1, r. split; [|auto]. now apply (contents_filter _ _ reads_eq).
  - intros (cs & t1 & r & C & L & H & ->). apply (contents_filter _ _ reads_eq) in C. subst cs.
    apply traces_bind_back. right. right. exists bad, t1, [answered (Command (lit "conf write") false) (inr r)]. split; [reflexivity|]. split.
    + now apply restore_lines_back.
    + right. exists (inr r), []. cbn. auto.
Qed.

Theorem C49_restore_file_order lines settings t o : contents reads_line lines settings ->
  traces (do_restore_config lines) t o ->
  prefix (texts t) (map (fun s => lit "conf set " ++ s) settings ++ [lit "conf write"]).
Proof.
  intros C H. apply (contents_filter _ _ reads_eq) in C. subst settings. unfold do_restore_config in H.
  apply traces_bind in H. destruct H as [[H ->]|[(e & H & ->)|(b & t1 & t2 & -> & H1 & H)]].
  1, 2: apply restore_lines_traces in H; destruct H as [H _]; eapply prefix_trans; [exact H|apply prefix_l].
  apply restore_lines_traces in H1. destruct H1 as [_ H1]. destruct (H1 _ eq_refl) as [_ H2]. 
  apply tried_texts in H2. rewrite texts_app, H2. apply prefix_app.
  destruct H as [[_ [->| ->]]|(x & t' & -> & H)]; [apply prefix_nil|apply prefix_cons, prefix_nil|].
  apply (prefix_cons _ (lit "conf write") (texts t')). destruct x as [e|r]; destruct H as [-> _]; apply prefix_nil.
Qed.

(** A character the device cannot be sent: nothing is stored, though the lines before it are set. *)
Theorem C49_restore_file_latin1 lines settings t o : contents reads_line lines settings -> ~ Forall latin1 settings ->
  traces (do_restore_config lines) t o -> Forall (fun e => ~ stores e) t.
Proof.
  intros C N H. apply (contents_filter _ _ reads_eq) in C. subst settings. unfold do_restore_config in H.
  assert (K : forall u o', traces (restore_lines lines) u o' -> Forall (fun e => ~ stores e) u).
  { intros u o' U. apply restore_lines_traces in U. destruct U as [(r & U) _].
    rewrite Forall_forall. intros e I S. apply in_split in I. destruct I as (u1 & u2 & ->).
    rewrite texts_app in U. cbn [texts flat_map] in U. unfold stores, sends in S. rewrite S in U.
    assert (I : In (lit "conf write") (map set_line (config_lines lines))).
    { rewrite U. apply in_or_app. left. apply in_or_app. right. now left. }
    apply in_map_iff in I. destruct I as (y & E & _). revert E. apply (differ 6). reflexivity. }
  apply traces_bind in H. destruct H as [[H _]|[(e & H & _)|(b & t1 & t2 & -> & H1 & H)]]; eauto.
  apply restore_lines_traces in H1. destruct H1 as [_ H1]. destruct (H1 _ eq_refl) as [H2 _]. contradiction.
Qed.

(** The lines of a file written with --write-config are the commands themselves. *)
Theorem C49_write_config_exact config t bad :
  traces (write_config_stream config) t (Some (inr bad)) <->
  exists commands, contents (trimmed is_space) (read_lines config) commands /\ tried commands t bad.
Proof.
  unfold write_config_stream. split.
  - intros H. apply write_lines_traces in H. destruct H as [_ H]. eexists. split; [|exact (H _ eq_refl)].
    now apply (contents_filter _ _ trimmed_rstrip).
  - intros (cs & C & H). apply (contents_filter _ _ trimmed_rstrip) in C. subst cs. now apply write_lines_back.
Qed.

(** ** Examples *)
Definition ex_config : list Z := lit "motor.poles 14" ++ [10; 32; 10] ++ lit "servo.x 2 " ++ [10].
Definition ex_run (poles_refused : bool) : list ev :=
  [answered (Command (lit "conf set motor.poles 14") false) (if poles_refused then inl (CmdErr (lit "ERR")) else inr (lit "OK"));
   answered (Command (lit "conf set servo.x 2") false) (inr (lit "OK"))] ++ done_well (lit "OK") tt.

Example ex_lines : text_lines ex_config [lit "motor.poles 14"; [32]; lit "servo.x 2 "; []].
Proof.
  assert (N : forall l, forallb (fun c => negb (c =? 10)) l = true -> ~ In 10 l).
  { intros l H I. rewrite forallb_forall in H. apply H in I. discriminate. }
  apply (tl_more (lit "motor.poles 14") ([32; 10] ++ lit "servo.x 2 " ++ [10])); [apply N; reflexivity|].
  apply (tl_more [32] (lit "servo.x 2 " ++ [10])); [apply N; reflexivity|].
  apply (tl_more (lit "servo.x 2 ") []); [apply N; reflexivity|]. constructor. intros [].
Qed.
Example ex_commands : contents sets_line [lit "motor.poles 14"; [32]; lit "servo.x 2 "; []]
  [lit "conf set motor.poles 14"; lit "conf set servo.x 2"].
Proof. apply (proj2 (settings_contents _ _ _ ex_lines)). reflexivity. Qed.

Example ex_restored : traces (restore_config ex_config) (ex_run false) (Some (inr [])).
Proof.
  apply (C49_restore_config_exact _ _ _ _ ex_lines).
  do 4 eexists. split; [exact ex_commands|]. split; [|reflexivity]. repeat constructor.
Qed.
Example ex_one_refused : traces (restore_config ex_config) (ex_run true) (Some (inr [lit "conf set motor.poles 14"])).
Proof.
  apply (C49_restore_config_exact _ _ _ _ ex_lines).
  do 4 eexists. split; [exact ex_commands|]. split; [|reflexivity]. repeat constructor.
Qed.

Definition ex_file : list (list Z) := [lit "# all" ++ [10]; lit "motor.poles 14 # two" ++ [10]; [10]; lit "servo.x 2" ++ [10]].
Example ex_file_reads : contents reads_line ex_file [lit "motor.poles 14"; lit "servo.x 2"].
Proof. apply (contents_filter _ _ reads_eq). reflexivity. Qed.
Example ex_file_restored : traces (do_restore_config ex_file)
  [answered (Command (lit "conf set motor.poles 14") false) (inr []); answered (Command (lit "conf set servo.x 2") false) (inl (CmdErr []));
   answered (Command (lit "conf write") false) (inr [])] (Some (inr [lit "servo.x 2"])).
Proof.
  apply C49_restore_file_exact. exists [lit "motor.poles 14"; lit "servo.x 2"],
    [answered (Command (lit "conf set motor.poles 14") false) (inr []); answered (Command (lit "conf set servo.x 2") false) (inl (CmdErr []))], [].
  split; [exact ex_file_reads|]. split; [repeat constructor; lia|]. split; [|reflexivity]. repeat constructor.
Qed.
(** A file with a snowman. *)
Example ex_file_latin1 : contents reads_line [lit "servo.x 2"; lit "servo.y " ++ [9731]] [lit "servo.x 2"; lit "servo.y " ++ [9731]] /\
  ~ Forall latin1 [lit "servo.x 2"; lit "servo.y " ++ [9731]].
Proof.
  split; [apply (contents_filter _ _ reads_eq); reflexivity|]. intros H. apply latin1_b in H || idtac.
  inversion H as [|? ? _ H']; subst. inversion H' as [|? ? H2 _]; subst. apply latin1_b in H2. discriminate.
Qed.
Example ex_written : traces (write_config_stream (lit "d stop " ++ [10])) [answered (Command (lit "d stop") false) (inr [])] (Some (inr [])).
Proof.
  apply C49_write_config_exact. exists [lit "d stop"]. split; [|repeat constructor].
  apply (contents_filter _ _ trimmed_rstrip). reflexivity.
Qed.

Print Assumptions C49_restore_config_exact.
Print Assumptions C49_restore_config_order.
Print Assumptions C49_stored_after_all.
Print Assumptions C49_restore_file_exact.
Print Assumptions C49_restore_file_order.
Print Assumptions C49_restore_file_latin1.
Print Assumptions C49_write_config_exact.
