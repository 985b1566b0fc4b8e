(** C35, C36: migration of the configuration between firmware versions. *)
From Coq Require Import Ascii String ZArith List Bool Lia ZifyBool ZifyNat Floats.SpecFloat.
From Verif Require Import PyBase PyBytes PyFloat Tool_Model Props_Tool Calib_Model Config_Model Config_Spec Config_Proofs.
Import ListNotations.
Open Scope Z_scope.
Ltac Zify.zify_post_hook ::= Z.div_mod_to_equations.

(** ** Texts *)
Lemma text_lines_split text ls : text_lines text ls -> split_on 10 text = ls.
Proof.
  induction 1 as [l H|l text ls H _ IH]; [now apply split_one|].
  change ([10] ++ text) with (10 :: text). rewrite split_word by exact H. now f_equal.
Qed.

Lemma split_text_lines text : text_lines text (split_on 10 text).
Proof.
  remember (List.length text) as n eqn:Hn. revert text Hn.
  induction n as [n IH] using lt_wf_ind. intros text Hn.
  destruct (in_dec Z.eq_dec 10 text) as [Hin|Hout].
  - assert (exists l r, text = l ++ [10] ++ r /\ ~ In 10 l) as (l & r & -> & Hl).
    { clear -Hin. induction text as [|c text IH]; [destruct Hin|].
      destruct (Z.eq_dec c 10) as [->|Hc]; [exists [], text; auto|].
      destruct Hin as [->|Hin]; [congruence|]. destruct (IH Hin) as (l & r & -> & Hl).
      exists (c :: l), r. split; [reflexivity|]. intros [E|E]; auto. }
    change ([10] ++ r) with (10 :: r). rewrite split_word by exact Hl.
    change (10 :: r) with ([10] ++ r). constructor; auto.
    eapply IH; [|reflexivity]. subst n. rewrite !app_length. cbn. lia.
  - rewrite split_one by exact Hout. now constructor.
Qed.

Lemma text_lines_no_lf text ls l : text_lines text ls -> In l ls -> ~ In 10 l.
Proof. induction 1; intros [<-|H']; auto. Qed.

Lemma setting_line_inj k v k' v' : ~ In 32 k -> ~ In 32 k' ->
  setting_line k v = setting_line k' v' -> k = k' /\ v = v'.
Proof.
  unfold setting_line. change (lit " ") with [32]. revert k'.
  induction k as [|c k IH]; intros [|c' k'] H H' E; cbn in *.
  - injection E as ->. auto.
  - injection E as <- E. tauto.
  - injection E as -> E. tauto.
  - injection E as <- E. destruct (IH k') as [-> ->]; auto.
Qed.

(** Reading a line. *)
Lemma split_line k v : ~ In 32 k -> ~ In 32 v -> split_on 32 (setting_line k v) = [k; v].
Proof.
  intros Hk Hv. unfold setting_line. change (lit " " ++ v) with (32 :: v).
  rewrite split_word by exact Hk. now rewrite split_one.
Qed.

Lemma line_split l k v : split_on 32 l = [k; v] -> l = setting_line k v /\ ~ In 32 k /\ ~ In 32 v.
Proof.
  intros H. apply split_two in H as (-> & H1 & H2). auto.
Qed.

Definition last_line (ls : list (list Z)) (k v : list Z) : Prop :=
  exists before after, ls = before ++ [setting_line k v] ++ after /\
    forall w, ~ In (setting_line k w) after.

Definition no_line (ls : list (list Z)) (k : list Z) : Prop := forall w, ~ In (setting_line k w) ls.

Lemma last_line_cons l ls k v :
  last_line (l :: ls) k v <-> last_line ls k v \/ no_line ls k /\ l = setting_line k v.
Proof.
  split.
  - intros ([|b before] & after & E & H); cbn in E; injection E as -> ->.
    + right. auto.
    + left. exists before, after. auto.
  - intros [(before & after & -> & H)|[H ->]].
    + exists (l :: before), after. auto.
    + exists [], ls. auto.
Qed.

Lemma parse_lines_get ls : forall d d', parse_lines ls d = Ok d' -> forall k v, ~ In 32 k ->
  dget k d' = Some v <-> last_line ls k v \/ no_line ls k /\ dget k d = Some v.
Proof.
  induction ls as [|l ls IH]; intros d d' H k v Hk; cbn [parse_lines] in H.
  - injection H as <-. split.
    + intros E. right. split; auto. intros w [].
    + intros [(before & after & E & _)|[_ E]]; auto. now destruct before.
  - rewrite last_line_cons. destruct (existsb (Z.eqb 32) l) eqn:E.
    + destruct (split_on 32 l) as [|k0 [|v0 [|? ?]]] eqn:El; try discriminate.
      apply line_split in El as (-> & Hk0 & Hv0).
      rewrite (IH _ _ H k v Hk), dget_dset. destruct (beq_spec k k0) as [->|Hne].
      * split.
        -- intros [L|[L [= ->]]]; [tauto|]. left; right; auto.
        -- intros [[L|[L F]]|[L _]]; [tauto| |].
           ++ right. split; auto. apply setting_line_inj in F as [_ ->]; auto.
           ++ exfalso. apply (L v0). now left.
      * split.
        -- intros [L|[L F]]; [tauto|]. right. split; auto. intros w [C|C]; [|now apply (L w)].
           apply setting_line_inj in C as [? _]; auto; congruence.
        -- intros [[L|[L F]]|[L F]]; [tauto| |].
           ++ apply setting_line_inj in F as [? _]; auto; congruence.
           ++ right. split; auto. intros w C. apply (L w). now right.
    + rewrite (IH _ _ H k v Hk).
      assert (Hl : forall w, l <> setting_line k w).
      { intros w ->. rewrite <- not_true_iff_false in E. apply E. apply existsb_in.
        unfold setting_line. change (lit " ") with [32]. rewrite !in_app_iff. cbn. auto. }
      split.
      * intros [L|[L F]]; [tauto|]. right. split; auto. intros w [C|C]; [now apply (Hl w)|now apply (L w)].
      * intros [[L|[L F]]|[L F]]; [tauto|destruct (Hl _ F)|].
        right. split; auto. intros w C. apply (L w). now right.
Qed.

(** The dicts of the model: keys differ; no spaces or line feeds. *)
Definition dict_ok (d : items) : Prop :=
  NoDup (map fst d) /\ forall k v, In (k, v) d -> clean k /\ clean v.

Lemma dict_ok_set d k v : clean k -> clean v -> dict_ok d -> dict_ok (dset k v d).
Proof.
  intros Hk Hv [H1 H2]. split; [now apply nodup_dset|].
  intros k' v' H. apply in_dset in H as [H|H]; [injection H as -> ->|]; auto.
Qed.

Lemma dict_ok_filter d f : dict_ok d -> dict_ok (filter f d).
Proof.
  intros [H1 H2]. split; [now apply nodup_filter|]. intros k v H. apply filter_In in H as [H _]. auto.
Qed.

Lemma parse_lines_ok ls : (forall l, In l ls -> ~ In 10 l) ->
  forall d d', parse_lines ls d = Ok d' -> dict_ok d -> dict_ok d'.
Proof.
  induction ls as [|l ls IH]; intros Hls d d' H Hd; cbn [parse_lines] in H; [now injection H as <-|].
  assert (Hls' : forall l, In l ls -> ~ In 10 l) by (intros; apply Hls; now right).
  destruct (existsb (Z.eqb 32) l) eqn:E; [|eauto].
  destruct (split_on 32 l) as [|k0 [|v0 [|? ?]]] eqn:El; try discriminate.
  apply line_split in El as (-> & Hk0 & Hv0). eapply IH; eauto.
  assert (Hlf : ~ In 10 (setting_line k0 v0)) by (apply Hls; now left).
  unfold setting_line in Hlf. rewrite !in_app_iff in Hlf.
  apply dict_ok_set; auto; split; tauto.
Qed.

Lemma parse_config_ok text d : parse_config text = Ok d -> dict_ok d.
Proof.
  intros H. eapply parse_lines_ok; [|exact H|].
  - intros l. apply text_lines_no_lf with (text := text). apply split_text_lines.
  - split; [constructor|intros k v []].
Qed.

Lemma parse_config_get text d k v : parse_config text = Ok d ->
  (dget k d = Some v <-> setting text k v).
Proof.
  intros H. pose proof (parse_config_ok _ _ H) as [_ Hc]. split.
  - intros E. assert (Hk : ~ In 32 k) by (apply dget_in in E; apply Hc in E as [[? _] _]; auto).
    split; auto. apply (parse_lines_get _ _ _ H k v Hk) in E as [(b & a & E & L)|[_ E]]; [|discriminate].
    exists (split_on 10 text), b, a. split; [apply split_text_lines|auto].
  - intros [Hk (ls & b & a & Ht & E & L)]. apply text_lines_split in Ht.
    apply (parse_lines_get _ _ _ H k v Hk). left. exists b, a. unfold last_line. now rewrite Ht.
Qed.

Lemma parse_lines_readable ls : forall d,
  (exists d', parse_lines ls d = Ok d') <->
  forall l, In l ls -> In 32 l -> exists k v, l = setting_line k v /\ ~ In 32 k /\ ~ In 32 v.
Proof.
  induction ls as [|l ls IH]; intros d; cbn [parse_lines].
  - split; [intros _ l []|eauto].
  - destruct (existsb (Z.eqb 32) l) eqn:E.
    + apply existsb_in in E. split.
      * intros (d' & H) l' [<-|Hin] H'.
        -- destruct (split_on 32 l) as [|k0 [|v0 [|? ?]]] eqn:El; try discriminate.
           apply line_split in El. eauto.
        -- destruct (split_on 32 l) as [|k0 [|v0 [|? ?]]] eqn:El; try discriminate.
           apply (proj1 (IH (dset k0 v0 d)) (ex_intro _ d' H) l' Hin H').
      * intros H. destruct (H l (or_introl eq_refl) E) as (k & v & -> & Hk & Hv).
        rewrite split_line by assumption. apply IH. intros l' Hin. apply H. now right.
    + split.
      * intros Hex l' [<-|Hin] H'.
        -- apply existsb_in in H'. congruence.
        -- apply (proj1 (IH d) Hex l' Hin H').
      * intros H. apply IH. intros l' Hin. apply H. now right.
Qed.

Lemma parse_config_readable text : (exists d, parse_config text = Ok d) <-> readable text.
Proof.
  unfold parse_config. rewrite parse_lines_readable. split.
  - intros H. exists (split_on 10 text). split; [apply split_text_lines|exact H].
  - intros (ls & Ht & H). apply text_lines_split in Ht. rewrite Ht. exact H.
Qed.

Lemma parse_lines_error ls : forall d e, parse_lines ls d = Raise e -> e = ValueError.
Proof.
  induction ls as [|l ls IH]; intros d e H; cbn [parse_lines] in H; [discriminate|].
  destruct (existsb _ _); [|eauto].
  destruct (split_on 32 l) as [|k0 [|v0 [|? ?]]]; try congruence. eauto.
Qed.

(** Printing and reading back. *)
Lemma dset_absent k v d : dget k d = None -> dset k v d = d ++ [(k, v)].
Proof.
  induction d as [|[a b] d IH]; cbn; auto. destruct (bytes_eqb k a); [discriminate|].
  intros H. now rewrite IH.
Qed.

Lemma parse_printed d : forall acc, dict_ok (acc ++ d) ->
  parse_lines (map (fun p => setting_line (fst p) (snd p)) d) acc = Ok (acc ++ d).
Proof.
  induction d as [|[k v] d IH]; intros acc H; cbn [map parse_lines fst snd]; [now rewrite app_nil_r|].
  assert (Hkv : clean k /\ clean v) by (apply (proj2 H); rewrite in_app_iff; cbn; auto).
  destruct Hkv as [[Hk _] [Hv _]].
  assert (E : existsb (Z.eqb 32) (setting_line k v) = true).
  { apply existsb_in. unfold setting_line. change (lit " ") with [32]. rewrite !in_app_iff. cbn. auto. }
  rewrite E, split_line by assumption. rewrite dset_absent.
  - rewrite IH; rewrite <- app_assoc; auto.
  - apply dget_none. destruct H as [H _]. rewrite map_app in H. cbn in H.
    apply NoDup_remove_2 in H. rewrite in_app_iff in H. tauto.
Qed.

Lemma split_join ls : ls <> [] -> (forall l, In l ls -> ~ In 10 l) -> split_on 10 (join_lines ls) = ls.
Proof.
  induction ls as [|l ls IH]; intros Hne H; [congruence|].
  destruct ls as [|l' ls]; [apply split_one, H; now left|].
  change (join_lines (l :: l' :: ls)) with (l ++ 10 :: join_lines (l' :: ls)).
  rewrite split_word by (apply H; now left). f_equal. apply IH; [congruence|].
  intros x Hx. apply H. now right.
Qed.

Lemma parse_print d : dict_ok d -> parse_config (print_config d) = Ok d.
Proof.
  intros H. unfold parse_config, print_config. destruct d as [|p d]; [reflexivity|].
  rewrite split_join.
  - apply (parse_printed (p :: d) []). exact H.
  - discriminate.
  - intros l Hl. apply in_map_iff in Hl as ((k & v) & <- & Hin). apply (proj2 H) in Hin as [[_ Hk] [_ Hv]].
    cbn [fst snd]. rewrite in_app_iff. cbn. intros [C|[C|C]]; auto; discriminate.
Qed.

Section Props.
  Variable parse_float : list Z -> res float.
  Variable float_str : float -> list Z.
  Variable py_sum : list float -> float.
  Hypothesis float_str_clean : forall x, clean (float_str x).

  Lemma migrate_ok a b family d d' :
    migrate parse_float float_str py_sum a b family d = Ok d' -> dict_ok d -> dict_ok d'.
  Proof.
    apply migrate_P with (N := fun _ => True); auto.
    - intros. now apply dict_ok_set.
    - intros e f _. apply dict_ok_filter.
    - intros e k v [_ H] E. apply dget_in in E. now apply H in E.
  Qed.

  Lemma migrate_frame a b family d d' :
    migrate parse_float float_str py_sum a b family d = Ok d' -> dict_ok d ->
    forall k, ~ named a b k -> dget k d' = dget k d.
  Proof.
    intros H Hd k Hk.
    enough (dict_ok d' /\ dget k d' = dget k d) by tauto.
    apply migrate_P with (N := named a b) (P := fun e => dict_ok e /\ dget k e = dget k d) in H; auto.
    - intros e k' v HN Ck Cv [He E]. split; [now apply dict_ok_set|]. rewrite dget_dset.
      destruct (beq_spec k k') as [->|]; [contradiction|exact E].
    - intros e f Hf [He E]. split; [now apply dict_ok_filter|]. rewrite dget_filter, Hf; auto.
    - intros e k' v [[_ He] _] E. apply dget_in in E. now apply He in E.
  Qed.

  Notation up a b family text := (upgrade parse_float float_str py_sum a b family text).

  Lemma upgrade_inv a b family text text' : up a b family text = Ok text' ->
    a <= 0x010a /\ b <= 0x010a /\ exists d d', parse_config text = Ok d /\
      migrate parse_float float_str py_sum a b family d = Ok d' /\ text' = print_config d'.
  Proof.
    unfold upgrade, fix_config. destruct (b >? 0x010a) eqn:E1; [discriminate|].
    destruct (a >? 0x010a) eqn:E2; [discriminate|].
    destruct (parse_config text) as [d|] eqn:E3; [|discriminate]. cbn [bind].
    destruct (migrate _ _ _ _ _ _ d) as [d'|] eqn:E4; [|discriminate]. cbn [bind].
    intros H. apply Ok_inj in H. subst text'. repeat split; [lia|lia|]. eauto.
  Qed.

  Lemma frame a b family text text' : up a b family text = Ok text' ->
    forall k, ~ named a b k -> forall v, setting text' k v <-> setting text k v.
  Proof.
    intros H k Hk v. apply upgrade_inv in H as (_ & _ & d & d' & H1 & H2 & ->).
    pose proof (parse_config_ok _ _ H1) as Hd.
    pose proof (migrate_ok _ _ _ _ _ H2 Hd) as Hd'.
    rewrite <- (parse_config_get _ _ k v H1), <- (parse_config_get _ _ k v (parse_print _ Hd')).
    now rewrite (migrate_frame _ _ _ _ _ H2 Hd k Hk).
  Qed.

  Lemma migrate_same a family d : migrate parse_float float_str py_sum a a family d = Ok d.
  Proof.
    assert (Hr : forall (b : bool) f e, b = false -> rule b f e = Ok e) by (now intros b f e ->).
    unfold migrate. repeat (rewrite Hr by lia; cbn [bind]). reflexivity.
  Qed.

  Lemma same a family text : a <= 0x010a -> readable text -> exists text',
    up a a family text = Ok text' /\ (forall k v, setting text' k v <-> setting text k v) /\
    up a a family text' = Ok text'.
  Proof.
    intros Ha Hr. apply parse_config_readable in Hr as (d & Hd).
    assert (forall text d, parse_config text = Ok d -> up a a family text = Ok (print_config d)) as Hup.
    { intros t e He. unfold upgrade, fix_config. replace (a >? 0x010a) with false by lia.
      rewrite He. cbn [bind]. now rewrite migrate_same. }
    pose proof (parse_print _ (parse_config_ok _ _ Hd)) as Hp.
    exists (print_config d). split; [auto|]. split; [|auto].
    intros k v. rewrite <- (parse_config_get _ _ k v Hd), <- (parse_config_get _ _ k v Hp). reflexivity.
  Qed.

  (** *** Composition *)
  Lemma bind_assoc {A B C} (x : res A) (f : A -> res B) (g : B -> res C) :
    bind (bind x f) g = bind x (fun a => bind (f a) g).
  Proof. now destruct x. Qed.

  Lemma bind_ext {A B} (x : res A) (f g : A -> res B) : (forall a, f a = g a) -> bind x f = bind x g.
  Proof. intros H. destruct x; cbn; auto. Qed.

  (** A list of rules, each with whether it fires. *)
  Fixpoint run (rs : list (bool * (items -> res items))) (d : items) : res items :=
    match rs with
    | [] => Ok d
    | (b, f) :: rs => let* d := rule b f d in run rs d
    end.

  Definition rules (old new : Z) (family : option Z) : list (bool * (items -> res items)) :=
    [((new <=? 0x0109) && (old >=? 0x010a), down_010a parse_float float_str family);
     ((new <=? 0x0108) && (old >=? 0x0109), down_0109 parse_float float_str);
     ((new <=? 0x0107) && (old >=? 0x0108), down_0108 parse_float);
     ((new <=? 0x0106) && (old >=? 0x0107), down_0107);
     ((new <=? 0x0105) && (old >=? 0x0106), down_0106);
     ((new <=? 0x0104) && (old >=? 0x0105), down_0105 parse_float);
     ((new <=? 0x0103) && (old >=? 0x0104), down_0104 parse_float);
     ((new <=? 0x0102) && (old >=? 0x0103), down_0103 parse_float);
     ((new <=? 0x0100) && (old =? 0x0101), down_0101 parse_float);
     ((new =? 0x0101) && (old <=? 0x0100), up_0101 parse_float);
     ((new >=? 0x0103) && (old <=? 0x0102), up_0103 parse_float);
     ((new >=? 0x0104) && (old <=? 0x0103), up_0104 parse_float);
     ((new >=? 0x0105) && (old <=? 0x0104), up_0105 parse_float float_str);
     ((new >=? 0x0106) && (old <=? 0x0105), up_0106);
     ((new >=? 0x0107) && (old <=? 0x0106), up_0107);
     ((new >=? 0x0108) && (old <=? 0x0107), up_0108 parse_float);
     ((new >=? 0x0109) && (old <=? 0x0108), up_0109 parse_float float_str py_sum);
     ((new >=? 0x010a) && (old <=? 0x0109), up_010a parse_float float_str family)].

  Lemma migrate_run a b family d :
    migrate parse_float float_str py_sum a b family d = run (rules a b family) d.
  Proof.
    unfold migrate, rules. cbn [run]. repeat (apply bind_ext; intros ?). unfold rule.
    match goal with |- ?x = _ => now destruct x end.
  Qed.

  (** The rules fired in the first of two steps come before those fired in the second. *)
  Inductive splits : list (bool * (items -> res items)) -> list (bool * (items -> res items)) ->
                     list (bool * (items -> res items)) -> Prop :=
  | sp_early x1 x2 x3 f r1 r2 r3 : x2 = false -> x3 = x1 -> splits r1 r2 r3 ->
      splits ((x1, f) :: r1) ((x2, f) :: r2) ((x3, f) :: r3)
  | sp_late r1 r2 r3 : lates r1 r2 r3 -> splits r1 r2 r3
  with lates : list (bool * (items -> res items)) -> list (bool * (items -> res items)) ->
               list (bool * (items -> res items)) -> Prop :=
  | lt_nil : lates [] [] []
  | lt_cons x1 x2 x3 f r1 r2 r3 : x1 = false -> x3 = x2 -> lates r1 r2 r3 ->
      lates ((x1, f) :: r1) ((x2, f) :: r2) ((x3, f) :: r3).

  Lemma lates_run r1 r2 r3 : lates r1 r2 r3 -> forall d, run r1 d = Ok d /\ run r2 d = run r3 d.
  Proof.
    induction 1 as [|x1 x2 x3 f r1 r2 r3 -> -> H IH]; intros d; [auto|]. cbn. split.
    - apply IH.
    - apply bind_ext. intros e. apply IH.
  Qed.

  Lemma splits_run r1 r2 r3 : splits r1 r2 r3 -> forall d, bind (run r1 d) (run r2) = run r3 d.
  Proof.
    induction 1 as [x1 x2 x3 f r1 r2 r3 -> -> H IH|r1 r2 r3 H]; intros d.
    - cbn [run]. rewrite bind_assoc. apply bind_ext. intros e. rewrite <- IH.
      apply bind_ext. intros e'. reflexivity.
    - destruct (lates_run _ _ _ H d) as [-> E]. exact E.
  Qed.

  Ltac split_rules :=
    unfold rules; repeat (apply sp_early; [lia|lia|]); apply sp_late;
    repeat (apply lt_cons; [lia|lia|]); apply lt_nil.

  Lemma migrate_up a b c family d : a <= b <= c -> ~ (a <= 0x0100 /\ b = 0x0101 /\ 0x0101 < c) ->
    bind (migrate parse_float float_str py_sum a b family d)
         (migrate parse_float float_str py_sum b c family) =
    migrate parse_float float_str py_sum a c family d.
  Proof.
    intros H Hx. rewrite !migrate_run.
    rewrite (bind_ext _ _ (run (rules b c family))) by (intros; apply migrate_run).
    apply splits_run.
    assert (Hb : b < 0x101 \/ b = 0x101 \/ b = 0x102 \/ b = 0x103 \/ b = 0x104 \/ b = 0x105 \/ b = 0x106 \/
                 b = 0x107 \/ b = 0x108 \/ b = 0x109 \/ 0x10a <= b) by lia.
    repeat (destruct Hb as [Hb|Hb]; [split_rules|]). split_rules.
  Qed.

  Lemma migrate_down a b c family d : c <= b <= a -> ~ (c <= 0x0100 /\ b = 0x0101 /\ 0x0101 < a) ->
    bind (migrate parse_float float_str py_sum a b family d)
         (migrate parse_float float_str py_sum b c family) =
    migrate parse_float float_str py_sum a c family d.
  Proof.
    intros H Hx. rewrite !migrate_run.
    rewrite (bind_ext _ _ (run (rules b c family))) by (intros; apply migrate_run).
    apply splits_run.
    assert (Hb : b < 0x101 \/ b = 0x101 \/ b = 0x102 \/ b = 0x103 \/ b = 0x104 \/ b = 0x105 \/ b = 0x106 \/
                 b = 0x107 \/ b = 0x108 \/ b = 0x109 \/ 0x10a <= b) by lia.
    repeat (destruct Hb as [Hb|Hb]; [split_rules|]). split_rules.
  Qed.

  Lemma upgrade_migrate a b family text : a <= 0x010a -> b <= 0x010a ->
    up a b family text = let* d := parse_config text in
                         let* d := migrate parse_float float_str py_sum a b family d in
                         Ok (print_config d).
  Proof.
    intros Ha Hb. unfold upgrade. replace (b >? 0x010a) with false by lia.
    replace (a >? 0x010a) with false by lia. reflexivity.
  Qed.

  Lemma compose a b c family text : a <= 0x010a -> b <= 0x010a -> c <= 0x010a ->
    (forall d, bind (migrate parse_float float_str py_sum a b family d)
         (migrate parse_float float_str py_sum b c family) =
       migrate parse_float float_str py_sum a c family d) ->
    (let* mid := up a b family text in up b c family mid) = up a c family text.
  Proof.
    intros Ha Hb Hc Hm. rewrite !upgrade_migrate by assumption.
    destruct (parse_config text) as [d|e] eqn:E; [|reflexivity]. cbn [bind].
    rewrite <- Hm. destruct (migrate _ _ _ a b family d) as [d'|e] eqn:E'; [|reflexivity]. cbn [bind].
    rewrite upgrade_migrate by assumption.
    rewrite parse_print by (eapply migrate_ok; [exact E'|eapply parse_config_ok; exact E]).
    reflexivity.
  Qed.

  (** *** The polling period *)
  Lemma rule_false (b : bool) f d : b = false -> rule b f d = Ok d.
  Proof. now intros ->. Qed.

  Lemma migrate_poll_up family d : migrate parse_float float_str py_sum 0x105 0x106 family d = up_0106 d.
  Proof.
    unfold migrate. repeat (rewrite rule_false by reflexivity; cbn [bind]).
    change (rule ((0x106 >=? 0x106) && (0x105 <=? 0x105)) up_0106 d) with (up_0106 d).
    destruct (up_0106 d) as [e|e]; cbn [bind]; [|reflexivity].
    repeat (rewrite rule_false by reflexivity; cbn [bind]). reflexivity.
  Qed.

  Lemma migrate_poll_down family d : migrate parse_float float_str py_sum 0x106 0x105 family d = down_0106 d.
  Proof.
    unfold migrate. repeat (rewrite rule_false by reflexivity; cbn [bind]).
    change (rule ((0x105 <=? 0x105) && (0x106 >=? 0x106)) down_0106 d) with (down_0106 d).
    destruct (down_0106 d) as [e|e]; cbn [bind]; [|reflexivity].
    repeat (rewrite rule_false by reflexivity; cbn [bind]). reflexivity.
  Qed.

  Lemma poll_keys p us ms : In p i2c_devices -> In (us, ms) i2c_pairs ->
    (poll_rate_us_key (fst p) (snd p) = lit us /\ poll_ms_key (fst p) (snd p) = lit ms) \/
    (lit us <> poll_rate_us_key (fst p) (snd p) /\ lit us <> poll_ms_key (fst p) (snd p) /\
     lit ms <> poll_rate_us_key (fst p) (snd p) /\ lit ms <> poll_ms_key (fst p) (snd p)).
  Proof.
    intros Hp Hi.
    assert (T : forallb (fun p => forallb (fun i =>
      (bytes_eqb (poll_rate_us_key (fst p) (snd p)) (lit (fst i)) &&
       bytes_eqb (poll_ms_key (fst p) (snd p)) (lit (snd i))) ||
      (negb (bytes_eqb (lit (fst i)) (poll_rate_us_key (fst p) (snd p))) &&
       negb (bytes_eqb (lit (fst i)) (poll_ms_key (fst p) (snd p))) &&
       negb (bytes_eqb (lit (snd i)) (poll_rate_us_key (fst p) (snd p))) &&
       negb (bytes_eqb (lit (snd i)) (poll_ms_key (fst p) (snd p))))) i2c_pairs) i2c_devices = true)
      by (vm_compute; reflexivity).
    rewrite forallb_forall in T. specialize (T p Hp). rewrite forallb_forall in T.
    specialize (T (us, ms) Hi). cbn [fst snd] in T. destruct p as [aux dev]. cbn [fst snd] in *.
    apply orb_prop in T as [T|T].
    - left. apply andb_prop in T as [T1 T2].
      destruct (beq_spec (poll_rate_us_key aux dev) (lit us)); [|discriminate].
      destruct (beq_spec (poll_ms_key aux dev) (lit ms)); [auto|discriminate].
    - right. apply andb_prop in T as [T T4]. apply andb_prop in T as [T T3].
      apply andb_prop in T as [T1 T2].
      destruct (beq_spec (lit us) (poll_rate_us_key aux dev)); [discriminate|].
      destruct (beq_spec (lit us) (poll_ms_key aux dev)); [discriminate|].
      destruct (beq_spec (lit ms) (poll_rate_us_key aux dev)); [discriminate|].
      destruct (beq_spec (lit ms) (poll_ms_key aux dev)); [discriminate|]. auto.
  Qed.

  Lemma up_0106_keeps us ms d d' : In (us, ms) i2c_pairs -> up_0106 d = Ok d' ->
    dget (lit us) d = None -> dget (lit us) d' = None /\ dget (lit ms) d' = dget (lit ms) d.
  Proof.
    intros Hi H Hd.
    apply (for_each_P (fun e => dget (lit us) e = None /\ dget (lit ms) e = dget (lit ms) d)
             i2c_devices _) with (2 := H); [|auto].
    clear H. intros p e e' Hp H [He1 He2]. cbv zeta in H.
    destruct (poll_keys p us ms Hp Hi) as [[E1 E2]|(N1 & N2 & N3 & N4)].
    - rewrite E1 in H. unfold dmem in H. rewrite He1 in H. cbn [negb] in H.
      apply Ok_inj in H. subst e'. auto.
    - destruct (dmem _ _); cbn [negb] in H; [|apply Ok_inj in H; subst e'; auto].
      destruct (item _ _) as [w|]; cbn [bind] in H; [|discriminate].
      destruct (int10 w) as [n|]; cbn [bind] in H; [|discriminate].
      apply Ok_inj in H. subst e'. rewrite !dget_dset, !dget_ddel.
      repeat match goal with |- context [bytes_eqb ?a ?b] => destruct (beq_spec a b); [contradiction|] end.
      auto.
  Qed.

  (** One device after the other: a device further on does not touch the keys. *)
  Lemma poll_down_keeps us ms l d d' : In (us, ms) i2c_pairs ->
    (forall p, In p l -> In p i2c_devices /\ poll_rate_us_key (fst p) (snd p) <> lit us) ->
    for_each l (fun p d =>
      let us_key := poll_rate_us_key (fst p) (snd p) in
      let* us := item us_key d in
      let d := ddel us_key d in
      let* n := int10 us in
      Ok (dset (poll_ms_key (fst p) (snd p)) (int_str (Z.max 1 (n / 1000))) d)) d = Ok d' ->
    dget (lit us) d' = dget (lit us) d /\ dget (lit ms) d' = dget (lit ms) d.
  Proof.
    intros Hi Hl H.
    apply (for_each_P (fun e => dget (lit us) e = dget (lit us) d /\ dget (lit ms) e = dget (lit ms) d)
             l _) with (2 := H); [|auto].
    clear H. intros p e e' Hp H [He1 He2]. cbv zeta in H. destruct (Hl p Hp) as [Hp' Hne].
    destruct (poll_keys p us ms Hp' Hi) as [[E1 E2]|(N1 & N2 & N3 & N4)]; [contradiction|].
    destruct (item _ _) as [w|]; cbn [bind] in H; [|discriminate].
    destruct (int10 w) as [n|]; cbn [bind] in H; [|discriminate].
    apply Ok_inj in H. subst e'. rewrite !dget_dset, !dget_ddel.
    repeat match goal with |- context [bytes_eqb ?a ?b] => destruct (beq_spec a b); [contradiction|] end.
    auto.
  Qed.

  Lemma for_each_app {A} (l1 l2 : list A) f : forall d,
    for_each (l1 ++ l2) f d = bind (for_each l1 f d) (for_each l2 f).
  Proof.
    induction l1 as [|i l1 IH]; intros d; cbn [app for_each bind]; [reflexivity|].
    rewrite bind_assoc. apply bind_ext. intros e. apply IH.
  Qed.

  Lemma i2c_split us ms : In (us, ms) i2c_pairs -> exists l1 p l2, i2c_devices = l1 ++ p :: l2 /\
    poll_rate_us_key (fst p) (snd p) = lit us /\ poll_ms_key (fst p) (snd p) = lit ms /\
    (forall q, In q (l1 ++ l2) -> poll_rate_us_key (fst q) (snd q) <> lit us).
  Proof.
    intros H.
    assert (T : forall n, (n < 6)%nat ->
      let p := nth n i2c_devices (0, 0) in let i := nth n i2c_pairs (EmptyString, EmptyString) in
      let l1 := firstn n i2c_devices in let l2 := skipn (S n) i2c_devices in
      i2c_devices = l1 ++ p :: l2 /\
      poll_rate_us_key (fst p) (snd p) = lit (fst i) /\ poll_ms_key (fst p) (snd p) = lit (snd i) /\
      forallb (fun q => negb (bytes_eqb (poll_rate_us_key (fst q) (snd q)) (lit (fst i)))) (l1 ++ l2) = true).
    { intros n Hn. do 6 (destruct n as [|n]; [vm_compute; auto|]). lia. }
    apply In_nth with (d := (EmptyString, EmptyString)) in H as (n & Hn & E).
    destruct (T n Hn) as (T1 & T2 & T3 & T4). rewrite E in T2, T3, T4.
    exists (firstn n i2c_devices), (nth n i2c_devices (0, 0)), (skipn (S n) i2c_devices).
    repeat split; auto. intros q Hq. rewrite forallb_forall in T4. apply T4 in Hq.
    cbn [fst] in Hq. destruct (beq_spec (poll_rate_us_key (fst q) (snd q)) (lit us)); [discriminate|auto].
  Qed.

  Lemma down_0106_value us ms d d' w n : In (us, ms) i2c_pairs -> down_0106 d = Ok d' ->
    dget (lit us) d = Some w -> int10 w = Ok n ->
    dget (lit us) d' = None /\ dget (lit ms) d' = Some (int_str (Z.max 1 (n / 1000))).
  Proof.
    intros Hi H Hd Hn. destruct (i2c_split us ms Hi) as (l1 & p & l2 & E & E1 & E2 & Hne).
    assert (Hin : forall q, In q i2c_devices <-> In q l1 \/ q = p \/ In q l2).
    { intros q. rewrite E, in_app_iff. cbn. intuition. }
    unfold down_0106 in H. rewrite E, for_each_app in H.
    destruct (for_each l1 _ d) as [d1|] eqn:H1; [|discriminate]. cbn [bind for_each] in H. cbv zeta in H.
    apply (poll_down_keeps us ms) in H1; [|exact Hi|].
    2:{ intros q Hq. split; [apply Hin; auto|apply Hne; rewrite in_app_iff; auto]. }
    destruct H1 as [H1a H1b]. rewrite Hd in H1a. rewrite E1, E2 in H. unfold item in H at 1. rewrite H1a in H.
    cbn [bind] in H. rewrite Hn in H. cbn [bind] in H.
    apply (poll_down_keeps us ms) in H; [|exact Hi|].
    2:{ intros q Hq. split; [apply Hin; auto|apply Hne; rewrite in_app_iff; auto]. }
    destruct H as [-> ->]. rewrite !dget_dset, !dget_ddel, !beq_refl. split; auto.
    destruct (beq_spec (lit us) (lit ms)) as [C|]; auto.
    exfalso. clear -C Hi. repeat (destruct Hi as [Hi|Hi]; [injection Hi as <- <-; vm_compute in C; discriminate|]).
    destruct Hi.
  Qed.
End Props.

Lemma about_aboutb gs k : about gs k -> existsb (in_groupb k) gs = true.
Proof.
  intros H. apply Exists_exists in H as (g & Hin & H). apply existsb_exists. exists g. split; auto.
  destruct g as [s|s]; cbn in *; [subst; apply beq_refl|]. now apply startswith_spec.
Qed.

Lemma poll_not_named b us ms : b <= 0x010a -> In (us, ms) i2c_pairs ->
  0x0106 <= b -> ~ named 0x0106 b (lit us) /\ ~ named 0x0106 b (lit ms).
Proof.
  intros Hb Hi Hb'.
  assert (T : forallb (fun i => forallb (fun t =>
     negb (existsb (in_groupb (lit (fst i))) (up_about t)) &&
     negb (existsb (in_groupb (lit (snd i))) (up_about t))) [0x107; 0x108; 0x109; 0x10a]) i2c_pairs = true)
    by (vm_compute; reflexivity).
  rewrite forallb_forall in T. specialize (T _ Hi). rewrite forallb_forall in T. cbn [fst snd] in T.
  split; intros (t & [[Ht H]|[Ht _]]); try lia; apply about_aboutb in H;
    (assert (Hin : In t [0x107; 0x108; 0x109; 0x10a]) by (cbn; lia));
    apply T in Hin; apply andb_prop in Hin as [T1 T2]; rewrite H in *; discriminate.
Qed.

(** ** C35 *)

(** Every setting no rule between the versions is about keeps its value,
    and none appears. *)
Theorem C35_frame : forall parse_float float_str py_sum, (forall x, clean (float_str x)) ->
  forall a b family text text', upgrade parse_float float_str py_sum a b family text = Ok text' ->
  forall k, ~ named a b k -> forall v, setting text' k v <-> setting text k v.
Proof. intros ? ? ? H a b family text text'. now apply frame. Qed.

(** With the same version before and after nothing changes; a second pass
    leaves the text as it is. *)
Theorem C35_same_version : forall parse_float float_str py_sum a family text,
  a <= 0x010a -> readable text -> exists text',
  upgrade parse_float float_str py_sum a a family text = Ok text' /\
  (forall k v, setting text' k v <-> setting text k v) /\
  upgrade parse_float float_str py_sum a a family text' = Ok text'.
Proof. intros. now apply same. Qed.

(** Versions this tool does not know are refused, whatever the text. *)
Theorem C35_refused : forall parse_float float_str py_sum a b family text,
  0x010a < a \/ 0x010a < b ->
  upgrade parse_float float_str py_sum a b family text = Raise RuntimeError.
Proof.
  intros * H. unfold upgrade. destruct (b >? 0x010a) eqn:E; [reflexivity|].
  replace (a >? 0x010a) with true by lia. reflexivity.
Qed.

(** What is returned can be read; a text that cannot be read is refused. *)
Theorem C35_readable : forall parse_float float_str py_sum, (forall x, clean (float_str x)) ->
  forall a b family text,
  (forall text', upgrade parse_float float_str py_sum a b family text = Ok text' -> readable text') /\
  (a <= 0x010a -> b <= 0x010a -> ~ readable text ->
   upgrade parse_float float_str py_sum a b family text = Raise ValueError).
Proof.
  intros * Hc *. split.
  - intros text' H. apply upgrade_inv in H as (_ & _ & d & d' & H1 & H2 & ->).
    apply parse_config_readable. exists d'. apply parse_print. eapply migrate_ok; eauto.
    eapply parse_config_ok; eauto.
  - intros Ha Hb Hr. rewrite upgrade_migrate by assumption.
    destruct (parse_config text) as [d|e] eqn:E.
    + destruct Hr. apply parse_config_readable. eauto.
    + unfold parse_config in E. apply parse_lines_error in E. now subst e.
Qed.

(** ** C36 *)

(** An upgrade in two steps is the upgrade in one step, errors included,
    unless it is interrupted at 0x0101. *)
Theorem C36_compose_up : forall parse_float float_str py_sum, (forall x, clean (float_str x)) ->
  forall a b c family text, a <= b <= c -> c <= 0x010a -> ~ (a <= 0x0100 /\ b = 0x0101 /\ 0x0101 < c) ->
  (let* mid := upgrade parse_float float_str py_sum a b family text in
   upgrade parse_float float_str py_sum b c family mid) =
  upgrade parse_float float_str py_sum a c family text.
Proof. intros * Hc * H Hb Hx. apply compose; try assumption; try lia. intros d. now apply migrate_up. Qed.

(** The same for downgrades. *)
Theorem C36_compose_down : forall parse_float float_str py_sum, (forall x, clean (float_str x)) ->
  forall a b c family text, c <= b <= a -> a <= 0x010a -> ~ (c <= 0x0100 /\ b = 0x0101 /\ 0x0101 < a) ->
  (let* mid := upgrade parse_float float_str py_sum a b family text in
   upgrade parse_float float_str py_sum b c family mid) =
  upgrade parse_float float_str py_sum a c family text.
Proof. intros * Hc * H Hb Hx. apply compose; try assumption; try lia. intros d. now apply migrate_down. Qed.

(** From 0x0100 to 0x0102 the way through 0x0101 changes the feedforward
    scale and the direct way does not. *)
Theorem C36_compose_refuted : forall parse_float float_str py_sum, (forall x, clean (float_str x)) ->
  forall family, exists text,
  parse_float (lit "1.0") = Ok (float_of_Z 1) ->
  exists stepwise direct,
  (let* mid := upgrade parse_float float_str py_sum 0x0100 0x0101 family text in
   upgrade parse_float float_str py_sum 0x0101 0x0102 family mid) = Ok stepwise /\
  upgrade parse_float float_str py_sum 0x0100 0x0102 family text = Ok direct /\
  setting stepwise (lit "servo.feedforward_scale") (lit "0.5") /\
  setting direct (lit "servo.feedforward_scale") (lit "1.0").
Proof.
  intros * Hc family. exists (lit "servo.feedforward_scale 1.0"). intros Hp.
  exists (lit "servo.feedforward_scale 0.5"), (lit "servo.feedforward_scale 1.0").
  assert (S1 : forall v, ~ In 10 v ->
     setting (lit "servo.feedforward_scale " ++ v) (lit "servo.feedforward_scale") v).
  { intros v Hv. split; [vm_compute; intuition discriminate|].
    exists [lit "servo.feedforward_scale " ++ v], [], []. repeat split; auto.
    constructor. rewrite in_app_iff. intros [H|H]; auto. vm_compute in H. intuition discriminate. }
  split; [|split; [|split]].
  - rewrite upgrade_migrate by lia.
    change (parse_config (lit "servo.feedforward_scale 1.0"))
      with (Ok [(lit "servo.feedforward_scale", lit "1.0")]). cbn [bind].
    unfold migrate. repeat (rewrite rule_false by reflexivity; cbn [bind]).
    change (rule ((0x101 =? 0x101) && (0x100 <=? 0x100)) ?f ?d) with (f d).
    unfold up_0101 at 1, itemf, item. cbn [dget]. rewrite beq_refl. cbn [bind]. rewrite Hp. cbn [bind].
    change (feqb (float_of_Z 1) fone) with true. cbn [dset]. rewrite beq_refl. cbn [bind].
    repeat (rewrite rule_false by reflexivity; cbn [bind]).
    rewrite upgrade_migrate by lia. reflexivity.
  - reflexivity.
  - apply (S1 (lit "0.5")). vm_compute. intuition discriminate.
  - apply (S1 (lit "1.0")). vm_compute. intuition discriminate.
Qed.

(** Upgrading from 0x0105 to 0x0106 or later: a device without the new
    setting, that is any device of an old configuration, does not get it,
    and keeps the old one, which the new firmware does not know. *)
Theorem C36_poll_lost : forall parse_float float_str py_sum, (forall x, clean (float_str x)) ->
  forall b family text text' us ms, 0x0106 <= b -> In (us, ms) i2c_pairs ->
  upgrade parse_float float_str py_sum 0x0105 b family text = Ok text' ->
  ~ has_setting text (lit us) ->
  ~ has_setting text' (lit us) /\ forall v, setting text' (lit ms) v <-> setting text (lit ms) v.
Proof.
  intros * Hc * Hb Hi H Hu. pose proof (upgrade_inv _ _ _ _ _ _ _ _ H) as (_ & Hb' & _).
  rewrite <- (C36_compose_up _ _ _ Hc 0x0105 0x0106 b) in H by lia.
  destruct (upgrade _ _ _ 0x0105 0x0106 family text) as [mid|] eqn:E; [|discriminate]. cbn [bind] in H.
  destruct (poll_not_named b us ms Hb' Hi Hb) as [N1 N2].
  pose proof (frame _ _ _ Hc _ _ _ _ _ H _ N1) as F1.
  pose proof (frame _ _ _ Hc _ _ _ _ _ H _ N2) as F2.
  pose proof (upgrade_inv _ _ _ _ _ _ _ _ E) as (_ & _ & d & d' & P1 & P2 & ->).
  pose proof (migrate_ok _ _ _ Hc _ _ _ _ _ P2 (parse_config_ok _ _ P1)) as Hd'.
  rewrite migrate_poll_up in P2. apply (up_0106_keeps us ms) in P2; auto.
  - destruct P2 as [G1 G2]. split.
    + intros (v & Hv). apply F1 in Hv. apply (parse_config_get _ _ _ _ (parse_print _ Hd')) in Hv. congruence.
    + intros v. rewrite F2, <- (parse_config_get _ _ _ _ (parse_print _ Hd')),
        <- (parse_config_get _ _ _ _ P1), G2. reflexivity.
  - destruct (dget (lit us) d) as [v|] eqn:G; auto. destruct Hu. exists v.
    now apply (parse_config_get _ _ _ _ P1).
Qed.

(** The claim that the period is carried over is therefore false. *)
Theorem C36_poll_refuted : forall parse_float float_str py_sum, (forall x, clean (float_str x)) ->
  ~ (forall family text text' us ms v, In (us, ms) i2c_pairs ->
     upgrade parse_float float_str py_sum 0x0105 0x0106 family text = Ok text' ->
     setting text (lit ms) v -> has_setting text' (lit us)).
Proof.
  intros * Hc H.
  set (text := lit "aux2.i2c.devices.0.poll_ms 10").
  assert (E : upgrade parse_float float_str py_sum 0x0105 0x0106 None text = Ok text) by reflexivity.
  assert (S : forall k v, setting text k v -> k = lit "aux2.i2c.devices.0.poll_ms").
  { intros k v Hs. apply (parse_config_get text [(lit "aux2.i2c.devices.0.poll_ms", lit "10")]) in Hs;
      [|reflexivity]. cbn [dget] in Hs. destruct (beq_spec k (lit "aux2.i2c.devices.0.poll_ms")); auto. discriminate. }
  destruct (H None text text "aux2.i2c.devices.0.poll_rate_us"%string
              "aux2.i2c.devices.0.poll_ms"%string (lit "10")) as (v & Hv); auto.
  - cbn. tauto.
  - apply (parse_config_get text [(lit "aux2.i2c.devices.0.poll_ms", lit "10")]); reflexivity.
  - apply S in Hv. discriminate.
Qed.

(** The way down is right: whole milliseconds, at least one. *)
Theorem C36_poll_down : forall parse_float float_str py_sum, (forall x, clean (float_str x)) ->
  forall family text text' us ms w n, In (us, ms) i2c_pairs ->
  upgrade parse_float float_str py_sum 0x0106 0x0105 family text = Ok text' ->
  setting text (lit us) w -> int_text w n ->
  ~ has_setting text' (lit us) /\
  exists w', setting text' (lit ms) w' /\ int_text w' (Z.max 1 (n / 1000)).
Proof.
  intros * Hc * Hi H Hs Hw. pose proof (upgrade_inv _ _ _ _ _ _ _ _ H) as (_ & _ & d & d' & P1 & P2 & ->).
  pose proof (migrate_ok _ _ _ Hc _ _ _ _ _ P2 (parse_config_ok _ _ P1)) as Hd'.
  rewrite migrate_poll_down in P2. apply (parse_config_get _ _ _ _ P1) in Hs. apply C33_int in Hw.
  assert (G : dget (lit us) d' = None /\ dget (lit ms) d' = Some (int_str (Z.max 1 (n / 1000)))) by (eapply down_0106_value; eassumption). destruct G as [G1 G2]. split.
  - intros (v & Hv). apply (parse_config_get _ _ _ _ (parse_print _ Hd')) in Hv. congruence.
  - eexists. split; [apply (parse_config_get _ _ _ _ (parse_print _ Hd')); exact G2|]. apply int_str_text.
Qed.

(** A downgrade from 0x010a is refused when motor.Kv is missing, and one
    from 0x0106 to 0x0105 when the period of an I2C device is. *)
Theorem C36_requires : forall parse_float float_str py_sum family text, readable text ->
  (~ has_setting text (lit "motor.Kv") ->
   forall b, b <= 0x0109 -> upgrade parse_float float_str py_sum 0x010a b family text = Raise KeyError) /\
  (forall us ms, In (us, ms) i2c_pairs -> ~ has_setting text (lit us) ->
   exists e, upgrade parse_float float_str py_sum 0x0106 0x0105 family text = Raise e).
Proof.
  intros * Hr. apply parse_config_readable in Hr as (d & Hd).
  assert (Hg : forall k, ~ has_setting text k -> dget k d = None).
  { intros k Hk. destruct (dget k d) as [v|] eqn:E; auto. destruct Hk. exists v.
    now apply (parse_config_get _ _ _ _ Hd). }
  split.
  - intros Hk b Hb. apply Hg in Hk. rewrite upgrade_migrate by lia. rewrite Hd. cbn [bind]. unfold migrate.
    assert (Hf : (b <=? 0x0109) && (0x010a >=? 0x010a) = true) by lia. rewrite Hf.
    unfold rule at 1, down_010a at 1, itemf, item. rewrite Hk. reflexivity.
  - intros us ms Hi Hk. apply Hg in Hk. rewrite upgrade_migrate by lia. rewrite Hd. cbn [bind].
    rewrite migrate_poll_down. destruct (down_0106 d) as [d'|e] eqn:E; [|eexists; reflexivity].
    exfalso. destruct (i2c_split us ms Hi) as (l1 & p & l2 & E0 & E1 & E2 & Hne).
    assert (Hin : forall q, In q i2c_devices <-> In q l1 \/ q = p \/ In q l2).
    { intros q. rewrite E0, in_app_iff. cbn. intuition. }
    unfold down_0106 in E. rewrite E0, for_each_app in E.
    destruct (for_each l1 _ d) as [d1|] eqn:H1; [|discriminate]. cbn [bind for_each] in E. cbv zeta in E.
    apply (poll_down_keeps us ms) in H1; [|exact Hi|].
    2:{ intros q Hq. split; [apply Hin; auto|apply Hne; rewrite in_app_iff; auto]. }
    destruct H1 as [H1a _]. rewrite Hk in H1a. rewrite E1 in E. unfold item in E at 1. rewrite H1a in E.
    discriminate.
Qed.

(** ** Examples *)

(** Readers and printers for the examples: digits with a point, and
    thousandths. *)
Definition ex_parse (w : list Z) : res float :=
  match split_on 46 w with
  | [a] => let* n := int10 a in Ok (float_of_Z n)
  | [a; b] => let* n := int10 (a ++ b) in Ok (flit n (Z.of_nat (List.length b)))
  | _ => Raise ValueError
  end.
Definition ex_str (x : float) : list Z := int_str (ftrunc (fmul x (float_of_Z 1000))) ++ lit "e-3".

Lemma ex_str_clean x : clean (ex_str x).
Proof. apply clean_app; [apply int_str_clean|apply cleanb_clean; reflexivity]. Qed.

Definition ex_lines (l : list string) : list Z := join_lines (map lit l).

Example ex_up_010a :
  upgrade ex_parse ex_str left_sum 0x0109 0x010a (Some 2)
    (ex_lines ["id.id 1"; "motor.v_per_hz 0.327"; "servo.max_power_W 100.0"]%string) =
  Ok (ex_lines ["id.id 1"; "servo.max_power_W nan"; "motor.Kv 100000e-3"]%string).
Proof. vm_compute. reflexivity. Qed.

Example ex_named : ~ named 0x0109 0x010a (lit "id.id").
Proof.
  intros (t & [[Ht H]|[Ht _]]); [|lia]. assert (t = 0x10a) as -> by lia.
  apply about_aboutb in H. vm_compute in H. discriminate.
Qed.

Example ex_up_0109 :
  upgrade ex_parse ex_str left_sum 0x0107 0x0109 None
    (ex_lines ["motor.offset.0 3.0"; "servo.bemf_feedforward 1.0"; "motor.offset.1 -3.0"]%string) =
  Ok (ex_lines ["motor.offset.0 3000e-3"; "servo.bemf_feedforward 0.0"; "motor.offset.1 3283e-3"]%string).
Proof. vm_compute. reflexivity. Qed.

(** The hypotheses of C36_poll_down are met. *)
Example ex_poll_down :
  upgrade ex_parse ex_str left_sum 0x0106 0x0105 None
    (ex_lines ["aux1.i2c.devices.0.poll_rate_us 500"; "aux1.i2c.devices.1.poll_rate_us 1000";
               "aux1.i2c.devices.2.poll_rate_us 2999"; "aux2.i2c.devices.0.poll_rate_us 1000";
               "aux2.i2c.devices.1.poll_rate_us 1000"; "aux2.i2c.devices.2.poll_rate_us 1000"]%string) =
  Ok (ex_lines ["aux1.i2c.devices.0.poll_ms 1"; "aux1.i2c.devices.1.poll_ms 1";
                "aux1.i2c.devices.2.poll_ms 2"; "aux2.i2c.devices.0.poll_ms 1";
                "aux2.i2c.devices.1.poll_ms 1"; "aux2.i2c.devices.2.poll_ms 1"]%string).
Proof. vm_compute. reflexivity. Qed.

(** A duplicate setting, a line without a value and an empty line are
    dropped; a line with two spaces is refused. *)
Example ex_same : upgrade ex_parse ex_str left_sum 0x0105 0x0105 None
    (ex_lines ["a 1"; "b"; ""; "c 2"; "a 3"]%string) = Ok (ex_lines ["a 3"; "c 2"]%string).
Proof. vm_compute. reflexivity. Qed.
Example ex_unreadable : upgrade ex_parse ex_str left_sum 0x0105 0x0105 None
    (ex_lines ["a 1"; "b  2"]%string) = Raise ValueError.
Proof. vm_compute. reflexivity. Qed.

Print Assumptions C35_frame.
Print Assumptions C35_same_version.
Print Assumptions C35_refused.
Print Assumptions C35_readable.
Print Assumptions C36_compose_up.
Print Assumptions C36_compose_down.
Print Assumptions C36_compose_refuted.
Print Assumptions C36_poll_lost.
Print Assumptions C36_poll_refuted.
Print Assumptions C36_poll_down.
Print Assumptions C36_requires.
