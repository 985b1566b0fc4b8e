(** C48: the recording of a calibration, from the device to the samples. *)
From Coq Require Import Ascii String ZArith List Bool Lia ZifyBool ZifyNat.
From Verif Require Import PyBase PyBytes PyFloat Tool_Model Calib_Model Flash_Model Encoder_Model Calfile_Model Config_Model.
From Verif Require Import Props_Tool Flash_Proofs Config_Proofs Props_Flash.
Import ListNotations.
Open Scope Z_scope.

(** ** Specification *)

(** The lines of a file, each with its line feed; the last may have none. *)
Inductive lines : list Z -> list (list Z) -> Prop :=
| no_line : lines [] []
| last_line w : w <> [] -> ~ In 10 w -> lines w [w]
| a_line w data ls : ~ In 10 w -> lines data ls -> lines (w ++ 10 :: data) ((w ++ [10]) :: ls).

(** White space in latin1 text. *)
Definition white (l : list Z) : Prop := Forall (fun c => str_space c = true) l.

(** A line with these two words: white space around it does not matter, and
    more may follow after a space. *)
Definition magic (words line : list Z) : Prop :=
  exists a r, line = a ++ words ++ r /\ white a /\ (white r \/ exists r', r = 32 :: r').
Definition starts (line : list Z) : Prop := magic (lit "CAL start") line \/ magic (lit "CALI start") line.
Definition ends (line : list Z) : Prop := magic (lit "CAL done") line \/ magic (lit "CALI done") line.

(** A number in latin1 text, where 0x85 and 0xa0 are blanks. *)
Definition number (t : list Z) (n : Z) : Prop :=
  int_text (map (fun c => if (c =? 0x85) || (c =? 0xa0) then 32 else c) t) n.

(** The value of a current, in amperes: the last one given under the name, in
    milliamperes; 0 where there is none. *)
Definition reading (float_of_text : list Z -> res float) (cs : list (list Z * list Z)) (name : list Z) (v : float) : Prop :=
  ~ In name (map fst cs) /\ v = float_of_Z 0 \/
  exists a t b f, cs = a ++ (name, t) :: b /\ ~ In name (map fst b) /\ float_of_text t = Ok f /\ v = fmul f (flit 1 3).

(** A sample: direction, phase, encoder, and any number of name=value. *)
Definition sample_line (float_of_text : list Z -> res float) (line : list Z) (e : entry float) : Prop :=
  exists t0 t1 t2 cs,
    line = t0 ++ 32 :: t1 ++ 32 :: t2 ++ concat (map (fun c => 32 :: fst c ++ 61 :: snd c) cs) /\
    ~ In 32 t0 /\ ~ In 32 t1 /\ ~ In 32 t2 /\
    Forall (fun c => ~ In 32 (fst c) /\ ~ In 61 (fst c) /\ ~ In 32 (snd c) /\ ~ In 61 (snd c) /\
                     (In (fst c) [lit "i1"; lit "i2"; lit "i3"] -> exists f, float_of_text (snd c) = Ok f)) cs /\
    number t0 (e_direction e) /\ number t1 (e_phase e) /\ number t2 (e_encoder e) /\
    reading float_of_text cs (lit "i1") (e_i1 e) /\ reading float_of_text cs (lit "i2") (e_i2 e) /\
    reading float_of_text cs (lit "i3") (e_i3 e).

(** The samples with one of two directions, in order. *)
Inductive picked (d1 d2 : Z) : list (entry float) -> list (entry float) -> Prop :=
| picked_nil : picked d1 d2 [] []
| picked_in e es l : e_direction e = d1 \/ e_direction e = d2 -> picked d1 d2 es l -> picked d1 d2 (e :: es) (e :: l)
| picked_out e es l : e_direction e <> d1 -> e_direction e <> d2 -> picked d1 d2 es l -> picked d1 d2 (e :: es) l.

(** The file is a whole recording of these samples. *)
Definition recording (float_of_text : list Z -> res float) (data : list Z) (es : list (entry float)) : Prop :=
  exists first rows last, lines data (first :: rows ++ [last]) /\ starts first /\ ends last /\
    Forall2 (sample_line float_of_text) rows es.

Lemma ok_inj {A} (a b : A) : Ok a = Ok b -> a = b.
Proof. congruence. Qed.

(** ** Lines *)
Lemma read_lines_some b l : exists w ws, read_lines (b :: l) = w :: ws.
Proof. cbn [read_lines]. destruct (b =? 10); [eauto|]. destruct (read_lines l); eauto. Qed.

Lemma read_lines_word w data : ~ In 10 w -> read_lines (w ++ 10 :: data) = (w ++ [10]) :: read_lines data.
Proof.
  induction w as [|c w IH]; intros H; cbn [app read_lines]; [reflexivity|].
  cbn in H. replace (c =? 10) with false by lia. rewrite IH by tauto. reflexivity.
Qed.

Lemma read_lines_last w : ~ In 10 w -> w <> [] -> read_lines w = [w].
Proof.
  induction w as [|c w IH]; intros H N; [congruence|]. cbn in H. cbn [read_lines]. replace (c =? 10) with false by lia.
  destruct w as [|c' w]; [reflexivity|]. rewrite IH by (tauto || discriminate). reflexivity.
Qed.

Lemma lines_read data ls : lines data ls -> read_lines data = ls.
Proof.
  induction 1; [reflexivity|now apply read_lines_last|]. rewrite read_lines_word by auto. now f_equal.
Qed.

Lemma find_lf (l : list Z) : ~ In 10 l \/ exists w r, l = w ++ 10 :: r /\ ~ In 10 w.
Proof.
  induction l as [|c l IH]; [now left|]. destruct (Z.eq_dec c 10) as [->|N]; [right; now exists [], l|].
  destruct IH as [IH|(w & r & -> & IH)]; [left; cbn; tauto|]. right. exists (c :: w), r. split; auto. cbn. tauto.
Qed.

Lemma read_lines_lines : forall data, lines data (read_lines data).
Proof.
  intros data. remember (length data) as n eqn:En. revert data En. induction n as [n IH] using (well_founded_induction Wf_nat.lt_wf).
  intros data ->. destruct (find_lf data) as [N|(w & r & -> & N)].
  - destruct data as [|c data]; [constructor|]. rewrite read_lines_last by (auto || discriminate). now constructor.
  - rewrite read_lines_word by auto. constructor; auto. apply (IH (length r)); auto. rewrite app_length. cbn. lia.
Qed.

(** ** Magic lines *)
Lemma str_drop_white a l : white a -> str_drop (a ++ l) = str_drop l.
Proof. induction 1 as [|c a H _ IH]; cbn; auto. now rewrite H. Qed.

Lemma str_drop_idem l : str_drop (str_drop l) = str_drop l.
Proof. induction l as [|c l IH]; cbn; auto. destruct (str_space c) eqn:E; auto. cbn. now rewrite E. Qed.

Lemma white_rev a : white a -> white (rev a).
Proof. intros H. unfold white. apply Forall_rev. exact H. Qed.

Lemma white_app a b : white a -> white b -> white (a ++ b).
Proof. intros H G. apply Forall_app. now split. Qed.

(** The first two fields. *)
Lemma split_fields w1 w2 l : ~ In 32 w1 -> ~ In 32 w2 ->
  (join_spaces (firstn 2 (split_on 32 l)) = w1 ++ 32 :: w2 <-> l = w1 ++ 32 :: w2 \/ exists r, l = w1 ++ 32 :: w2 ++ 32 :: r).
Proof.
  intros N1 N2. split.
  - assert (C : forall l : list Z, ~ In 32 l \/ exists w r, l = w ++ 32 :: r /\ ~ In 32 w).
    { clear. induction l as [|c l IH]; [now left|]. destruct (Z.eq_dec c 32) as [->|N]; [right; now exists [], l|].
      destruct IH as [IH|(w & r & -> & IH)]; [left; cbn; tauto|]. right. exists (c :: w), r. split; auto. cbn. tauto. }
    assert (U : forall a b c d : list Z, ~ In 32 a -> ~ In 32 c -> a ++ 32 :: b = c ++ 32 :: d -> a = c /\ b = d).
    { clear. induction a as [|x a IH]; intros b [|y c] d Na Nc H; cbn in *.
      - injection H as <-. auto.
      - injection H as <- _. tauto.
      - injection H as -> _. tauto.
      - injection H as <- H. apply IH in H as (-> & ->); tauto. }
    destruct (C l) as [N|(a & r & -> & Na)].
    + rewrite split_one by auto. cbn. intros ->. exfalso. apply N. apply in_or_app. right. now left.
    + rewrite split_word by auto. destruct (C r) as [N|(b & r' & -> & Nb)].
      * rewrite split_one by auto. cbn. intros H. now left.
      * rewrite split_word by auto. cbn. intros H. apply U in H as (-> & ->); auto. right. now exists r'.
  - intros [->|[r ->]].
    + rewrite split_word, split_one by auto. reflexivity.
    + rewrite split_word by auto. rewrite split_word by auto. reflexivity.
Qed.

Lemma strip_form l : exists a b, l = a ++ str_strip l ++ b /\ white a /\ white b.
Proof. destruct (str_strip_spec l) as (a & b & E & A). apply Forall_app in A as [A B]. eauto. Qed.

Lemma str_drop_app x y : str_drop (x ++ y) = match str_drop x with [] => str_drop y | _ => str_drop x ++ y end.
Proof.
  induction x as [|c x IH]; cbn; [reflexivity|]. destruct (str_space c); auto.
Qed.

Lemma check_magic w1 w2 line : ~ In 32 w1 -> ~ In 32 w2 -> str_drop (w1 ++ 32 :: w2) = w1 ++ 32 :: w2 ->
  str_drop (rev (w1 ++ 32 :: w2)) = rev (w1 ++ 32 :: w2) -> w1 <> [] ->
  (check_line line = w1 ++ 32 :: w2 <-> magic (w1 ++ 32 :: w2) line).
Proof.
  intros N1 N2 D1 D2 Ne. unfold check_line. rewrite split_fields by auto. split.
  - destruct (strip_form line) as (a & b & E & A & B). intros [H|[r H]]; rewrite H in E.
    + exists a, b. auto.
    + exists a, (32 :: r ++ b). split; [rewrite E; repeat (rewrite <- app_assoc; cbn [app]); reflexivity|]. split; auto.
      right. eauto.
  - intros (a & r & -> & A & R). set (W := w1 ++ 32 :: w2) in *. assert (NW : W <> []) by (subst W; now destruct w1).
    unfold str_strip. rewrite str_drop_white by auto. rewrite str_drop_app, D1. destruct W as [|c W'] eqn:EW; [congruence|]. rewrite <- EW in *.
    clear c W' EW. rewrite rev_app_distr, str_drop_app. destruct R as [R|[r' ->]].
    + rewrite <- (app_nil_r (rev r)), (str_drop_white _ [] (white_rev _ R)). cbn [str_drop]. rewrite D2, rev_involutive. left. reflexivity.
    + cbn [rev]. rewrite str_drop_app. destruct (str_drop (rev r')) as [|x s] eqn:Es.
      * cbn [str_drop]. change (str_space 32) with true. cbv iota. rewrite D2, rev_involutive. now left.
      * cbn [app]. right. exists (rev (x :: s)). change (x :: (s ++ [32]) ++ rev W) with (((x :: s) ++ [32]) ++ rev W).
        rewrite !rev_app_distr, rev_involutive. subst W. repeat (rewrite <- app_assoc; cbn [app]). reflexivity.
Qed.

Lemma among_starts line : among (check_line line) [lit "CAL start"; lit "CALI start"] = true <-> starts line.
Proof.
  unfold among. cbn [existsb]. rewrite orb_false_r, orb_true_iff, !bytes_eqb_eq.
  change (lit "CAL start") with (lit "CAL" ++ 32 :: lit "start"). change (lit "CALI start") with (lit "CALI" ++ 32 :: lit "start").
  rewrite !check_magic; try reflexivity; try (cbn; lia); discriminate.
Qed.

Lemma among_ends line : among (check_line line) [lit "CAL done"; lit "CALI done"] = true <-> ends line.
Proof.
  unfold among. cbn [existsb]. rewrite orb_false_r, orb_true_iff, !bytes_eqb_eq.
  change (lit "CAL done") with (lit "CAL" ++ 32 :: lit "done"). change (lit "CALI done") with (lit "CALI" ++ 32 :: lit "done").
  rewrite !check_magic; try reflexivity; try (cbn; lia); discriminate.
Qed.

(** ** Rows *)
Lemma splitting sep l : exists f fs, split_on sep l = f :: fs.
Proof. induction l as [|c l (f & fs & IH)]; cbn; [eauto|]. rewrite IH. destruct (c =? sep); eauto. Qed.

Lemma split_inv sep : forall l f g fs, split_on sep l = f :: g :: fs -> exists r, l = f ++ sep :: r /\ ~ In sep f /\ split_on sep r = g :: fs.
Proof.
  induction l as [|c l IH]; intros f g fs H; cbn in H; [discriminate|]. destruct (Z.eqb_spec c sep) as [->|N].
  - injection H as <- H. exists l. cbn. auto.
  - destruct (splitting sep l) as (f' & fs' & E). rewrite E in H. injection H as <- ->.
    apply IH in E as (r & -> & Nf & E). exists r. repeat split; auto. cbn. intros [?|?]; auto.
Qed.

Lemma split_single sep : forall l f, split_on sep l = [f] -> l = f /\ ~ In sep f.
Proof.
  induction l as [|c l IH]; intros f H; cbn in H; [injection H as <-; auto|]. destruct (Z.eqb_spec c sep) as [->|N].
  - destruct (splitting sep l) as (f' & fs' & E). rewrite E in H. discriminate.
  - destruct (splitting sep l) as (f' & fs' & E). rewrite E in H. injection H as <- ->.
    apply IH in E as (-> & Nf). split; auto. cbn. intros [?|?]; auto.
Qed.

(** The fields of a line, and the line from its fields. *)
Lemma split_all sep : forall fs l, fs <> [] ->
  (split_on sep l = fs <-> Forall (fun f => ~ In sep f) fs /\ l = hd [] fs ++ concat (map (cons sep) (tl fs))).
Proof.
  induction fs as [|f fs IH]; intros l N; [congruence|]. cbn [hd tl]. destruct fs as [|g fs].
  - cbn. rewrite app_nil_r. split.
    + intros H. apply split_single in H as (-> & H). auto.
    + intros (H & ->). inversion H; subst. now apply split_one.
  - split.
    + intros H. apply split_inv in H as (r & -> & Nf & H). apply IH in H as (F & ->); [|discriminate]. split; [now constructor|]. reflexivity.
    + intros (F & ->). inversion F; subst. cbn [map concat app]. rewrite split_word by auto. f_equal. apply IH; [discriminate|]. auto.
Qed.

Section Rows.
  Variable pf : list Z -> res float.

  Definition pair_ok (c : list Z * list Z) : Prop :=
    ~ In 32 (fst c) /\ ~ In 61 (fst c) /\ ~ In 32 (snd c) /\ ~ In 61 (snd c) /\
    (In (fst c) [lit "i1"; lit "i2"; lit "i3"] -> exists f, pf (snd c) = Ok f).

  (** What the loop makes of an entry. *)
  Definition update (v0 : float) (cs : list (list Z * list Z)) (name : list Z) (v : float) : Prop :=
    ~ In name (map fst cs) /\ v = v0 \/
    exists a t b f, cs = a ++ (name, t) :: b /\ ~ In name (map fst b) /\ pf t = Ok f /\ v = fmul f (flit 1 3).

  Lemma update_cons v0 k t cs name v : (name = k -> exists f, pf t = Ok f) ->
    (update v0 ((k, t) :: cs) name v <->
     update (if list_eq_dec Z.eq_dec name k then match pf t with Ok f => fmul f (flit 1 3) | _ => v0 end else v0) cs name v).
  Proof.
    intros O. unfold update. cbn [map fst In]. destruct (list_eq_dec Z.eq_dec name k) as [->|N].
    - destruct (O eq_refl) as (f & Ef). rewrite Ef. split.
      + intros [[H _]|(a & t' & b & f' & E & Nb & Ef' & ->)]; [tauto|]. destruct a as [|x a].
        * injection E as <- ->. left. split; auto. congruence.
        * injection E as _ ->. right. exists a, t', b, f'. auto.
      + intros [[H ->]|(a & t' & b & f' & -> & Nb & Ef' & ->)]; right.
        * exists [], t, cs, f. auto.
        * exists ((k, t) :: a), t', b, f'. auto.
    - split.
      + intros [[H ->]|(a & t' & b & f' & E & Nb & Ef' & ->)]; [left; tauto|]. destruct a as [|x a].
        * injection E as -> _ _. congruence.
        * injection E as _ ->. right. exists a, t', b, f'. auto.
      + intros [[H ->]|(a & t' & b & f' & -> & Nb & Ef' & ->)]; [left; split; auto; intros [?|?]; auto|].
        right. exists ((k, t) :: a), t', b, f'. auto.
  Qed.

  Lemma currents_spec fields : Forall (fun f => ~ In 32 f) fields -> forall e e',
    parse_currents pf fields e = Ok e' <->
    exists cs, fields = map (fun c => fst c ++ 61 :: snd c) cs /\ Forall pair_ok cs /\
      e_direction e' = e_direction e /\ e_phase e' = e_phase e /\ e_encoder e' = e_encoder e /\
      update (e_i1 e) cs (lit "i1") (e_i1 e') /\ update (e_i2 e) cs (lit "i2") (e_i2 e') /\ update (e_i3 e) cs (lit "i3") (e_i3 e').
  Proof.
    induction 1 as [|f fields N32 _ IH]; intros e e'.
    - cbn. split.
      + intros H. apply ok_inj in H. subst. exists []. repeat split; auto; left; auto.
      + intros (cs & E & _ & D & P & N & A & B & C). destruct cs; [|discriminate]. f_equal. destruct e, e'. cbn in *.
        destruct A as [[_ A]|([|] & ? & ? & ? & A & _)], B as [[_ B]|([|] & ? & ? & ? & B & _)], C as [[_ C]|([|] & ? & ? & ? & C & _)]; try discriminate.
        congruence.
    - cbn [parse_currents]. split.
      + intros H. destruct (split_on 61 f) as [|k [|t [|]]] eqn:E; try discriminate.
        apply Props_Tool.split_two in E as (-> & Nk & Nt). cbn [app] in *. rewrite in_app_iff in N32. cbn in N32.
        assert (Nk2 : ~ In 32 k) by tauto. assert (Nt2 : ~ In 32 t) by tauto.
        destruct e as [d p n i1 i2 i3].
        assert (G : forall e2, parse_currents pf fields e2 = Ok e' -> e_direction e2 = d -> e_phase e2 = p -> e_encoder e2 = n ->
          (In k [lit "i1"; lit "i2"; lit "i3"] -> exists f, pf t = Ok f) ->
          (forall name v, In (name, v) [(lit "i1", (i1, e_i1 e2)); (lit "i2", (i2, e_i2 e2)); (lit "i3", (i3, e_i3 e2))] ->
             snd v = (if list_eq_dec Z.eq_dec name k then match pf t with Ok f => fmul f (flit 1 3) | _ => fst v end else fst v)) ->
          exists cs, (k ++ 61 :: t) :: fields = map (fun c => fst c ++ 61 :: snd c) cs /\ Forall pair_ok cs /\
            e_direction e' = d /\ e_phase e' = p /\ e_encoder e' = n /\
            update i1 cs (lit "i1") (e_i1 e') /\ update i2 cs (lit "i2") (e_i2 e') /\ update i3 cs (lit "i3") (e_i3 e')).
        { intros e2 H2 <- <- <- O V. apply IH in H2 as (cs & -> & F & D & P & N & A & B & C). exists ((k, t) :: cs).
          split; [reflexivity|]. split; [constructor; auto; repeat split; auto|]. repeat split; auto.
          - rewrite update_cons by (intros <-; apply O; now left).
            specialize (V (lit "i1") (i1, e_i1 e2)). cbn [fst snd] in V. rewrite <- V by (now left). exact A.
          - rewrite update_cons by (intros <-; apply O; right; now left).
            specialize (V (lit "i2") (i2, e_i2 e2)). cbn [fst snd] in V. rewrite <- V by (right; now left). exact B.
          - rewrite update_cons by (intros <-; apply O; right; right; now left).
            specialize (V (lit "i3") (i3, e_i3 e2)). cbn [fst snd] in V. rewrite <- V by (right; right; now left). exact C. }
        destruct (bytes_eqb k (lit "i1")) eqn:E1; [|destruct (bytes_eqb k (lit "i2")) eqn:E2; [|destruct (bytes_eqb k (lit "i3")) eqn:E3]].
        * apply bytes_eqb_eq in E1. subst k. destruct (pf t) as [v|] eqn:Ev; [|discriminate]. cbn [bind] in H.
          apply (G _ H); auto; [eauto|]. intros name w [W|[W|[W|[]]]]; injection W as <- <-; reflexivity.
        * apply bytes_eqb_eq in E2. subst k. destruct (pf t) as [v|] eqn:Ev; [|discriminate]. cbn [bind] in H.
          apply (G _ H); auto; [eauto|]. intros name w [W|[W|[W|[]]]]; injection W as <- <-; reflexivity.
        * apply bytes_eqb_eq in E3. subst k. destruct (pf t) as [v|] eqn:Ev; [|discriminate]. cbn [bind] in H.
          apply (G _ H); auto; [eauto|]. intros name w [W|[W|[W|[]]]]; injection W as <- <-; reflexivity.
        * assert (M : ~ In k [lit "i1"; lit "i2"; lit "i3"]).
          { intros [<-|[<-|[<-|[]]]]; discriminate. }
          apply (G _ H); auto; [tauto|]. intros name w W. destruct (list_eq_dec Z.eq_dec name k) as [->|].
          -- exfalso. apply M. destruct W as [W|[W|[W|[]]]]; injection W as <- <-; cbn; auto.
          -- destruct W as [W|[W|[W|[]]]]; injection W as <- <-; reflexivity.
      + intros (cs & E & F & D & P & N & A & B & C). destruct cs as [|[k t] cs]; [discriminate|]. cbn [map fst snd] in E.
        injection E as -> E. inversion F as [|x l (K1 & K2 & K3 & K4 & K5) F']; subst. cbn [fst snd] in *.
        rewrite split_word, split_one by auto. destruct e as [d p n i1 i2 i3]. cbn [e_direction e_phase e_encoder e_i1 e_i2 e_i3] in *.
        assert (O : In k [lit "i1"; lit "i2"; lit "i3"] -> exists f, pf t = Ok f) by exact K5.
        rewrite update_cons in A by (intros <-; apply O; now left).
        rewrite update_cons in B by (intros <-; apply O; right; now left).
        rewrite update_cons in C by (intros <-; apply O; right; right; now left).
        destruct (bytes_eqb k (lit "i1")) eqn:E1; [|destruct (bytes_eqb k (lit "i2")) eqn:E2; [|destruct (bytes_eqb k (lit "i3")) eqn:E3]].
        * apply bytes_eqb_eq in E1. subst k. destruct O as (v & Ev); [now left|]. rewrite Ev in *. cbn [bind].
          apply IH. exists cs. cbn [e_direction e_phase e_encoder e_i1 e_i2 e_i3]. repeat split; auto.
        * apply bytes_eqb_eq in E2. subst k. destruct O as (v & Ev); [right; now left|]. rewrite Ev in *. cbn [bind].
          apply IH. exists cs. cbn [e_direction e_phase e_encoder e_i1 e_i2 e_i3]. repeat split; auto.
        * apply bytes_eqb_eq in E3. subst k. destruct O as (v & Ev); [right; right; now left|]. rewrite Ev in *. cbn [bind].
          apply IH. exists cs. cbn [e_direction e_phase e_encoder e_i1 e_i2 e_i3]. repeat split; auto.
        * assert (M : forall name, In name [lit "i1"; lit "i2"; lit "i3"] -> name <> k).
          { intros name I <-. destruct I as [<-|[<-|[<-|[]]]]; discriminate. }
          apply IH. exists cs. cbn [e_direction e_phase e_encoder e_i1 e_i2 e_i3].
          destruct (list_eq_dec Z.eq_dec (lit "i1") k) as [X|_]; [destruct (M (lit "i1")); cbn; auto|].
          destruct (list_eq_dec Z.eq_dec (lit "i2") k) as [X|_]; [destruct (M (lit "i2")); cbn; auto|].
          destruct (list_eq_dec Z.eq_dec (lit "i3") k) as [X|_]; [destruct (M (lit "i3")); cbn; auto|].
          repeat split; auto.
  Qed.

  Lemma entry_spec line e : parse_entry pf line = Ok e <-> sample_line pf line e.
  Proof.
    unfold parse_entry, sample_line, number. split.
    - intros H. destruct (split_on 32 line) as [|t0 [|t1 [|t2 fields]]] eqn:E; try discriminate.
      apply split_all in E as (F & ->); [|discriminate]. inversion F as [|? ? N0 F1]; subst. inversion F1 as [|? ? N1 F2]; subst.
      inversion F2 as [|? ? N2 F3]; subst. unfold str_int10 in H.
      destruct (int10 (map _ t0)) as [d|] eqn:E0; [|discriminate]. cbn [bind] in H.
      destruct (int10 (map _ t1)) as [p|] eqn:E1; [|discriminate]. cbn [bind] in H.
      destruct (int10 (map _ t2)) as [n|] eqn:E2; [|discriminate]. cbn [bind] in H.
      apply C33_int in E0, E1, E2. apply currents_spec in H as (cs & -> & P & D & Ph & En & A & B & C); auto.
      cbn [e_direction e_phase e_encoder e_i1 e_i2 e_i3] in *. subst.
      exists t0, t1, t2, cs. cbn [hd tl map concat app]. split; [|repeat split; auto].
      rewrite map_map. repeat (rewrite <- app_assoc; cbn [app]). reflexivity.
    - intros (t0 & t1 & t2 & cs & -> & N0 & N1 & N2 & P & D & Ph & En & A & B & C).
      assert (F : Forall (fun f => ~ In 32 f) (map (fun c : list Z * list Z => fst c ++ 61 :: snd c) cs)).
      { apply Forall_map. eapply Forall_impl; [|exact P]. cbn beta. intros c (K1 & K2 & K3 & K4 & _) I. apply in_app_iff in I.
        cbn in I. destruct I as [I|[I|I]]; [tauto|discriminate|tauto]. }
      replace (split_on 32 _) with (t0 :: t1 :: t2 :: map (fun c : list Z * list Z => fst c ++ 61 :: snd c) cs).
      2: { symmetry. apply split_all; [discriminate|]. split; [repeat constructor; auto|]. cbn [hd tl map concat app].
           rewrite map_map. repeat (rewrite <- app_assoc; cbn [app]). reflexivity. }
      unfold str_int10. apply C33_int in D, Ph, En. rewrite D, Ph, En. cbn [bind]. apply currents_spec; auto.
      exists cs. cbn [e_direction e_phase e_encoder e_i1 e_i2 e_i3]. repeat split; auto.
  Qed.

  Lemma entries_spec rows : forall es, map_res (parse_entry pf) rows = Ok es <-> Forall2 (sample_line pf) rows es.
  Proof.
    induction rows as [|r rows IH]; intros es; cbn [map_res].
    - split; [intros H; apply ok_inj in H; subst; constructor|]. intros H. inversion H. reflexivity.
    - split.
      + destruct (parse_entry pf r) as [e|] eqn:E; [|discriminate]. cbn [bind]. destruct (map_res _ rows) as [es'|] eqn:E'; [|discriminate].
        cbn [bind]. intros H. apply ok_inj in H. subst. constructor; [now apply entry_spec|now apply IH].
      + intros H. inversion H as [|? e ? es' H1 H2]; subst. apply entry_spec in H1. apply IH in H2. rewrite H1, H2. reflexivity.
  Qed.
End Rows.

Lemma picked_filter d1 d2 es l : picked d1 d2 es l <-> l = filter (fun x => (e_direction x =? d1) || (e_direction x =? d2)) es.
Proof.
  split.
  - induction 1 as [|e es l H _ IH|e es l H1 H2 _ IH]; cbn; auto.
    + replace (_ || _) with true by lia. now f_equal.
    + replace (_ || _) with false by lia. auto.
  - intros ->. induction es as [|e es IH]; cbn; [constructor|]. destruct (_ || _) eqn:E; constructor; auto; lia.
Qed.

Lemma magic_not_both a : starts a -> ends a -> False.
Proof.
  intros H G. apply among_starts in H. apply among_ends in G. unfold among in *. cbn [existsb] in *.
  rewrite orb_false_r, orb_true_iff, !bytes_eqb_eq in *. destruct H as [H|H]; rewrite H in G; destruct G; discriminate.
Qed.

(** ** The theorems *)

(** What is accepted, and what it is read as. *)
Theorem C48_parse : forall float_of_text data up down,
  parse_file float_of_text data = Ok (up, down) <->
  exists es, recording float_of_text data es /\ picked 1 3 es up /\ picked 2 4 es down.
Proof.
  intros pf data up down. unfold parse_file. split.
  - intros H. pose proof (read_lines_lines data) as L. destruct (read_lines data) as [|first ls] eqn:E; [discriminate|].
    destruct (among (check_line first) _) eqn:Ef; [|discriminate]. apply among_starts in Ef. cbn [negb] in H.
    destruct (among (check_line (last _ _)) _) eqn:El; [|discriminate]. apply among_ends in El. cbn [negb] in H.
    destruct ls as [|r rows] using rev_ind; [exfalso; cbn in El; eapply magic_not_both; eauto|]. clear IHrows.
    change (first :: rows ++ [r]) with ((first :: rows) ++ [r]) in El. rewrite last_last in El.
    unfold inner in H. cbn [tl] in H. rewrite removelast_last in H.
    destruct (map_res (parse_entry pf) rows) as [es|] eqn:Ee; [|discriminate]. cbn [bind] in H. apply ok_inj in H. injection H as <- <-.
    apply entries_spec in Ee. exists es. split; [exists first, rows, r; auto|]. split; now apply picked_filter.
  - intros (es & (first & rows & r & L & Hs & He & F) & U & D). apply lines_read in L. rewrite L.
    apply among_starts in Hs. rewrite Hs. cbn [negb]. change (first :: rows ++ [r]) with ((first :: rows) ++ [r]). rewrite last_last.
    apply among_ends in He. rewrite He. cbn [negb]. unfold inner. cbn [tl app]. rewrite removelast_last.
    apply entries_spec in F. rewrite F. cbn [bind]. apply picked_filter in U, D. now subst.
Qed.

Lemma not_white_head a x l b y m : white a -> white b -> str_space x = false -> str_space y = false ->
  a ++ x :: l = b ++ y :: m -> x = y.
Proof.
  intros A. revert b. induction A as [|c a Hc A IH]; intros b B X Y E.
  - destruct B as [|d b Hd B]; cbn in E; injection E as -> _; [reflexivity|congruence].
  - destruct B as [|d b Hd B]; cbn in E.
    + injection E as -> _. congruence.
    + injection E as _ E. eauto.
Qed.

(** A number begins, after white space, with a digit or a sign. *)
Lemma number_head t n : number t n -> exists l c r, t = l ++ c :: r /\ white l /\ str_space c = false /\ c <> 67 /\ c <> 69.
Proof.
  intros (l & s & d & r & m & E & Bl & _ & D & Hs).
  assert (G : exists c w, s ++ d ++ r = c :: w /\ (c = 43 \/ c = 45 \/ 48 <= c <= 57)).
  { assert (Dh : exists c w, d = c :: w /\ 48 <= c <= 57).
    { clear - D. induction D as [c v H|w n c v _ (x & y & -> & I) H|w n c v _ (x & y & -> & I) H]; cbn; [destruct H as (? & ?); exists c, []; split; auto; lia|eauto|eauto]. }
    destruct Dh as (c & w & -> & I). destruct Hs as [[[->| ->] _]|[-> _]]; cbn; eauto 6. }
  destruct G as (c & w & G & I). rewrite G in E. clear - E Bl I. revert t E. induction Bl as [|b l Hb Bl IH]; intros t E.
  - destruct t as [|x t]; [discriminate|]. cbn in E. injection E as E _. exists [], x, t.
    assert (Hx : x = c) by (destruct (_ || _); lia). subst x. repeat split; auto; [constructor| |lia|lia].
    unfold str_space, is_space. lia.
  - destruct t as [|x t]; [discriminate|]. cbn in E. injection E as E E'. destruct (IH t E') as (l' & c' & r' & -> & W & Rest).
    exists (x :: l'), c', r'. split; [reflexivity|]. split; [|exact Rest]. constructor; auto.
    unfold str_space, is_space in *. destruct (_ || _) eqn:Ex in E; [|subst b; rewrite Hb; reflexivity]. lia.
Qed.

Lemma sample_head pf line e : sample_line pf line e -> exists l c r, line = l ++ c :: r /\ white l /\ str_space c = false /\ c <> 67 /\ c <> 69.
Proof.
  intros (t0 & t1 & t2 & cs & -> & _ & _ & _ & _ & D & _). apply number_head in D as (l & c & r & -> & R).
  rewrite <- app_assoc. cbn [app]. eauto.
Qed.

Lemma ends_head w : ends w -> exists a r, w = a ++ 67 :: r /\ white a.
Proof. intros [(a & r & -> & A & _)|(a & r & -> & A & _)]; eexists; eexists; (split; [|exact A]); reflexivity. Qed.

Lemma sample_not_end pf w r e : sample_line pf (w ++ r) e -> ends w -> False.
Proof.
  intros H G. apply sample_head in H as (l & c & r' & E & W & S & N & _). apply ends_head in G as (a & q & -> & A).
  rewrite <- app_assoc in E. cbn [app] in E. apply not_white_head in E; auto.
Qed.

Lemma start_not_end w r : starts (w ++ r) -> ends w -> False.
Proof.
  assert (U : forall a b W V x y, white a -> white b -> a ++ 67 :: W ++ x = b ++ 67 :: V ++ y -> W ++ x = V ++ y).
  { intros a b W V x y A. revert b. induction A as [|c a Hc A IH]; intros b B E.
    - destruct B as [|d b Hd B]; cbn in E; [now injection E|injection E as <- _; discriminate].
    - destruct B as [|d b Hd B]; cbn in E; [injection E as -> _; discriminate|injection E as _ E; eauto]. }
  intros [(a & x & E & A & _)|(a & x & E & A & _)] [(b & y & -> & B & _)|(b & y & -> & B & _)];
    rewrite <- !app_assoc in E; [apply (U b a (lit "AL done") (lit "AL start")) in E|apply (U b a (lit "ALI done") (lit "AL start")) in E|
    apply (U b a (lit "AL done") (lit "ALI start")) in E|apply (U b a (lit "ALI done") (lit "ALI start")) in E]; auto; discriminate.
Qed.

Lemma lines_prefix p q ls : lines (p ++ q) ls -> p <> [] ->
  exists a w r b, ls = a ++ (w ++ r) :: b /\ lines p (a ++ [w]).
Proof.
  intros H. remember (p ++ q) as data eqn:E. revert p E. induction H as [|w N NI|w data ls NI H IH]; intros p E Np.
  - destruct p; [congruence|discriminate].
  - subst w. exists [], p, q, []. split; [reflexivity|]. constructor; auto. intros I. apply NI. apply in_or_app. now left.
  - assert (C : (exists r, w = p ++ r) \/ (exists p', p = w ++ 10 :: p' /\ data = p' ++ q)).
    { clear - E. revert p E. induction w as [|c w IHw]; intros p E.
      - destruct p as [|x p]; [left; now exists []|]. cbn in E. injection E as <- E. right. exists p. auto.
      - destruct p as [|x p]; [left; now exists (c :: w)|]. cbn in E. injection E as <- E. apply IHw in E as [(r & ->)|(p' & -> & ->)].
        + left. now exists r.
        + right. now exists p'. }
    destruct C as [(r & ->)|(p' & -> & Ed)].
    + exists [], p, (r ++ [10]), ls. cbn. rewrite <- app_assoc. split; [reflexivity|]. constructor; auto. intros I. apply NI. apply in_or_app. now left.
    + destruct p' as [|x p'].
      * exists [], (w ++ [10]), [], ls. rewrite app_nil_r. split; [reflexivity|]. apply (a_line w [] []); [auto|constructor].
      * destruct (IH (x :: p') Ed) as (a & v & r & b & -> & L); [discriminate|]. exists ((w ++ [10]) :: a), v, r, b. split; [reflexivity|].
        cbn [app]. now constructor.
Qed.

(** A recording of which the end is missing is refused, or read the same. *)
Theorem C48_truncated : forall float_of_text data es p q,
  recording float_of_text data es -> data = p ++ q ->
  (exists e, parse_file float_of_text p = Raise e) \/ parse_file float_of_text p = parse_file float_of_text data.
Proof.
  intros pf data es p q R ->. destruct (parse_file pf p) as [[up down]|e] eqn:E; [right|eauto].
  apply C48_parse in E as (es' & (first' & rows' & last' & L' & Hs' & He' & F') & U & D).
  assert (Np : p <> []). { intros ->. apply lines_read in L'. discriminate. }
  destruct R as (first & rows & last & L & Hs & He & F).
  destruct (lines_prefix _ _ _ L Np) as (a & w & r & b & Els & Lp).
  apply lines_read in L'. apply lines_read in Lp. rewrite Lp in L'. change (first' :: rows' ++ [last']) with ((first' :: rows') ++ [last']) in L'.
  apply app_inj_tail in L' as (-> & ->). cbn [app] in Els. injection Els as <- Els.
  destruct b as [|x b] using rev_ind.
  - apply app_inj_tail in Els as (<- & ->). symmetry. apply C48_parse. exists es'. split; [|auto].
    exists first, rows, (last' ++ r). auto.
  - clear IHb. exfalso. rewrite app_comm_cons, app_assoc in Els. apply app_inj_tail in Els as (-> & _).
    apply Forall2_app_inv_l in F as (e1 & e2 & _ & F2 & _). inversion F2; subst. eapply sample_not_end; eauto.
Qed.

(** Refusals: nothing, no magic line at either end, a line that is no sample. *)
Theorem C48_refused : forall float_of_text data,
  ~ (exists es, recording float_of_text data es) -> exists e, parse_file float_of_text data = Raise e.
Proof.
  intros pf data H. destruct (parse_file pf data) as [[up down]|e] eqn:E; [|eauto]. apply C48_parse in E as (es & R & _). destruct H. eauto.
Qed.

(** *** Reading it from the device *)

(** What is left of a line without the white space around it. *)
Definition sent (raw text : list Z) : Prop :=
  exists a b, raw = a ++ text ++ b /\ blank a /\ blank b /\
    (text = [] \/ (exists c r, text = c :: r /\ is_space c = false) /\ (exists r c, text = r ++ [c] /\ is_space c = false)).

Definition begins (p text : list Z) : Prop := exists r, text = p ++ r.
Definition is_done (text : list Z) : Prop := begins (lit "CAL done") text \/ begins (lit "CALI done") text.
Definition is_start (text : list Z) : Prop := begins (lit "CAL start") text \/ begins (lit "CALI start") text.
Definition is_error (text : list Z) : Prop :=
  begins (lit "ERR") text \/ begins (lit "CAL") text /\ ~ is_done text /\ ~ is_start text.

Lemma drop_blank a l : blank a -> drop_space (a ++ l) = drop_space l.
Proof. induction 1 as [|c a H _ IH]; cbn; auto. now rewrite H. Qed.

Lemma sent_strip raw text : sent raw text -> bytes_strip raw = text.
Proof.
  intros (a & b & -> & A & B & T). unfold bytes_strip. rewrite drop_blank by auto.
  destruct T as [->|((c & r & E & Hc) & (r' & c' & E' & Hc'))].
  - cbn. rewrite <- (app_nil_r b), drop_blank by auto. reflexivity.
  - replace (drop_space (text ++ b)) with (text ++ b) by (rewrite E; cbn; now rewrite Hc).
    unfold rstrip. rewrite rev_app_distr, drop_blank by (now apply Forall_rev). rewrite E', rev_app_distr. cbn. rewrite Hc'. cbn.
    now rewrite rev_involutive.
Qed.

Lemma done_b text : startswith (lit "CAL done") text || startswith (lit "CALI done") text = true <-> is_done text.
Proof. rewrite orb_true_iff, !startswith_spec. reflexivity. Qed.
Lemma start_b text : startswith (lit "CAL start") text || startswith (lit "CALI start") text = true <-> is_start text.
Proof. rewrite orb_true_iff, !startswith_spec. reflexivity. Qed.

Lemma begins_cal text : is_done text \/ is_start text -> begins (lit "CAL") text.
Proof. intros [[[r ->]|[r ->]]|[[r ->]|[r ->]]]; eexists; reflexivity. Qed.

Lemma done_not_start text : is_done text -> is_start text -> False.
Proof.
  intros [D|D] [S|S]; destruct D as [r ->]; destruct S as [s E]; discriminate.
Qed.

(** One line of the loop. *)
Lemma collect_line raw text lines acc : sent raw text ->
  (is_done text -> collect (raw :: lines) acc = Some (Ok (acc ++ text ++ [10]), lines)) /\
  (is_error text -> collect (raw :: lines) acc = Some (Raise RuntimeError, lines)) /\
  (~ is_done text -> ~ is_error text -> collect (raw :: lines) acc = collect lines (acc ++ text ++ [10])).
Proof.
  intros H. cbn [collect]. rewrite (sent_strip _ _ H). split; [|split].
  - intros D. apply done_b in D. now rewrite D.
  - intros D. assert (N : ~ is_done text /\ ~ is_start text).
    { destruct D as [[r ->]|(_ & N & M)]; auto. split; intros [[s E]|[s E]]; discriminate. }
    destruct N as [N M]. rewrite <- done_b, not_true_iff_false in N. rewrite <- start_b, not_true_iff_false in M. rewrite N, M.
    destruct (startswith (lit "ERR") text) eqn:Ee; [reflexivity|]. destruct D as [D|[D _]].
    + apply startswith_spec in D. congruence.
    + apply startswith_spec in D. now rewrite D.
  - intros N M. pose proof N as N'. rewrite <- done_b, not_true_iff_false in N. rewrite N.
    destruct (startswith (lit "CAL start") text || startswith (lit "CALI start") text) eqn:Es; [reflexivity|].
    destruct (startswith (lit "ERR") text) eqn:Ee; [destruct M; left; now apply startswith_spec|].
    destruct (startswith (lit "CAL") text) eqn:Ec; [|reflexivity]. destruct M. right. split; [now apply startswith_spec|].
    split; auto. rewrite <- start_b. congruence.
Qed.

Lemma collect_through raws texts : Forall2 sent raws texts -> Forall (fun t => ~ is_done t /\ ~ is_error t) texts ->
  forall lines acc, collect (raws ++ lines) acc = collect lines (acc ++ concat (map (fun t => t ++ [10]) texts)).
Proof.
  induction 1 as [|raw text raws texts H _ IH]; intros F lines acc; cbn [app map concat].
  - now rewrite app_nil_r.
  - inversion F as [|? ? [N M] F']; subst. destruct (collect_line raw text (raws ++ lines) acc H) as (_ & _ & C). rewrite C, IH by auto.
    f_equal. now rewrite <- !app_assoc.
Qed.

(** The loop ends with the first line that says done or tells of an error,
    leaves what follows unread, and until then waits; what it returned is the
    lines without the white space around them. *)
Theorem C48_collect : forall raws texts last text later,
  Forall2 sent raws texts -> Forall (fun t => ~ is_done t /\ ~ is_error t) texts -> sent last text ->
  collect raws [] = None /\
  (is_done text -> collect (raws ++ last :: later) [] = Some (Ok (concat (map (fun t => t ++ [10]) (texts ++ [text]))), later)) /\
  (is_error text -> collect (raws ++ last :: later) [] = Some (Raise RuntimeError, later)).
Proof.
  intros raws texts last text later H F S. split; [|split].
  - rewrite <- (app_nil_r raws), (collect_through _ _ H F). reflexivity.
  - intros D. rewrite (collect_through _ _ H F). destruct (collect_line last text later (concat (map (fun t => t ++ [10]) texts)) S) as (C & _).
    cbn [app]. rewrite C by auto. rewrite map_app, concat_app. cbn. now rewrite app_nil_r.
  - intros D. rewrite (collect_through _ _ H F). destruct (collect_line last text later ([] ++ concat (map (fun t => t ++ [10]) texts)) S) as (_ & C & _).
    now apply C.
Qed.

(** A whole session: what the device reports is what the file holds. *)
Definition heading (words text : list Z) : Prop := exists r, text = words ++ r /\ (r = [] \/ exists r', r = 32 :: r').

Lemma heading_magic words text : heading words text -> magic words (text ++ [10]).
Proof.
  intros (r & -> & R). exists [], (r ++ [10]). cbn [app]. split; [now rewrite <- app_assoc|]. split; [constructor|].
  destruct R as [->|[r' ->]]; [left; repeat constructor|]. right. cbn. eauto.
Qed.

Theorem C48_session : forall float_of_text first rows last later tf ts tl es,
  sent first tf -> (heading (lit "CAL start") tf \/ heading (lit "CALI start") tf) ->
  sent last tl -> (heading (lit "CAL done") tl \/ heading (lit "CALI done") tl) ->
  Forall2 sent rows ts -> Forall2 (fun t e => sample_line float_of_text (t ++ [10]) e) ts es ->
  Forall (fun t => ~ In 10 t) (tf :: ts ++ [tl]) ->
  exists data, collect (first :: rows ++ last :: later) [] = Some (Ok data, later) /\ recording float_of_text data es.
Proof.
  intros pf first rows last later tf ts tl es Sf Hf Sl Hl Sr Hr N.
  assert (Q : Forall (fun t => ~ is_done t /\ ~ is_error t) (tf :: ts)).
  { constructor.
    - assert (T : is_start tf) by (destruct Hf as [(r & -> & _)|(r & -> & _)]; [left|right]; eexists; reflexivity).
      split; [intros D; eapply done_not_start; eauto|]. intros [[r E]|(_ & _ & M)]; [|auto].
      destruct T as [[s E']|[s E']]; rewrite E in E'; discriminate.
    - clear - Hr. induction Hr as [|t e ts es H _ IH]; constructor; auto. apply sample_head in H as (l & c & r & E & W & Sc & N1 & N2).
      assert (G : forall x r', t = x :: r' -> str_space x = false -> x <> 67 /\ x <> 69).
      { intros x r' -> Sx. cbn [app] in E. apply (not_white_head [] x _ l c r) in E; auto; [subst; auto|constructor]. }
      assert (Gc : ~ begins (lit "CAL") t). { intros [q E']. destruct (G 67 (lit "AL" ++ q) E' eq_refl). lia. }
      split; [intros D; apply Gc, begins_cal; auto|]. intros [[q E']|[D _]]; [|auto]. destruct (G 69 (lit "RR" ++ q) E' eq_refl). lia. }
  assert (Dl : is_done tl) by (destruct Hl as [(r & -> & _)|(r & -> & _)]; [left|right]; eexists; reflexivity).
  destruct (C48_collect (first :: rows) (tf :: ts) last tl later) as (_ & C & _); [now constructor|auto|auto|].
  eexists. split; [exact (C Dl)|]. exists (tf ++ [10]), (map (fun t => t ++ [10]) ts), (tl ++ [10]). split; [|split; [|split]].
  - cbn [app map concat]. rewrite map_app. cbn [map].
    assert (L : forall us, Forall (fun t => ~ In 10 t) us -> lines (concat (map (fun t => t ++ [10]) us)) (map (fun t => t ++ [10]) us)).
    { clear. induction 1 as [|u us H _ IH]; cbn [map concat]; [constructor|]. rewrite <- app_assoc. cbn [app]. now constructor. }
    apply L in N. cbn [map concat] in N. rewrite map_app in N. exact N.
  - destruct Hf; [left|right]; now apply heading_magic.
  - destruct Hl; [left|right]; now apply heading_magic.
  - clear - Hr. induction Hr; cbn [map]; constructor; auto.
Qed.

(** *** A case *)
Definition ex_float (t : list Z) : res float := let* n := str_int10 t in Ok (float_of_Z n).
Definition ex_lf : list Z := [10].
Definition ex_row1 : list Z := lit "1 120 65530 i1=1000 i2=-500 i3=0".
Definition ex_row2 : list Z := lit "2 65000 3".
Definition ex_data : list Z :=
  lit "CAL start 1" ++ ex_lf ++ ex_row1 ++ ex_lf ++ ex_row2 ++ ex_lf ++ lit "CAL done" ++ ex_lf.

Example ex_parse : exists up down, parse_file ex_float ex_data = Ok (up, down) /\
  map e_phase up = [120] /\ map e_encoder up = [65530] /\ map e_phase down = [65000] /\ map e_encoder down = [3] /\
  map e_i1 up = [fmul (float_of_Z 1000) (flit 1 3)].
Proof. eexists. eexists. split; [vm_compute; reflexivity|]. vm_compute. auto 6. Qed.

Example ex_recording : exists es, recording ex_float ex_data es /\ length es = 2%nat.
Proof.
  destruct (parse_file ex_float ex_data) as [[up down]|] eqn:E; [|vm_compute in E; discriminate].
  pose proof E as E'. apply C48_parse in E' as (es & R & U & D). exists es. split; auto.
  destruct ex_parse as (up' & down' & E2 & A & _ & B & _). rewrite E in E2. apply ok_inj in E2. injection E2 as -> ->.
  apply picked_filter in U, D. destruct R as (first & rows & last & L & _ & _ & F). assert (Len : length es = length rows) by (clear - F; induction F; cbn; auto). rewrite Len.
  apply lines_read in L. vm_compute in L. destruct rows as [|r1 [|r2 [|r3 rows]]]; try reflexivity; cbn [app] in L.
  - discriminate.
  - discriminate.
  - injection L. intros L' _ _ _. destruct rows; discriminate.
Qed.

(** Without its last line, or in the middle of one, it is refused. *)
Example ex_truncated : forallb (fun k => match parse_file ex_float (firstn k ex_data) with Raise _ => true | Ok _ => false end)
  (seq 0 (length ex_data - 1)) = true.
Proof. vm_compute. reflexivity. Qed.

Example ex_session :
  collect [lit "CAL start 1" ++ [13]; ex_row1 ++ [13]; ex_row2; lit "CAL done" ++ [13]; lit "OK"] [] = Some (Ok ex_data, [lit "OK"]).
Proof. vm_compute. reflexivity. Qed.
Example ex_session_hypotheses : sent (ex_row1 ++ [13]) ex_row1 /\ heading (lit "CAL start") (lit "CAL start 1") /\
  exists e, sample_line ex_float (ex_row1 ++ [10]) e.
Proof.
  split; [|split].
  - exists [], [13]. split; [reflexivity|]. split; [constructor|]. split; [repeat constructor|]. right. split.
    + eexists. eexists. split; reflexivity.
    + exists (removelast ex_row1). eexists. split; reflexivity.
  - exists (lit " 1"). split; [reflexivity|]. right. eexists. reflexivity.
  - destruct (parse_entry ex_float (ex_row1 ++ [10])) as [e|] eqn:E; [|vm_compute in E; discriminate]. exists e. now apply entry_spec.
Qed.
Example ex_error : collect [lit "CAL start 1"; ex_row1; lit "ERR overheat"; lit "x"] [] = Some (Raise RuntimeError, [lit "x"]).
Proof. vm_compute. reflexivity. Qed.

Print Assumptions C48_parse.
Print Assumptions C48_truncated.
Print Assumptions C48_refused.
Print Assumptions C48_collect.
Print Assumptions C48_session.
