(** Lemmas on the configuration model: dicts, texts, and what each rule
    leaves alone. *)
From Coq Require Import Ascii String ZArith List Bool Lia ZifyBool ZifyNat FinFun Floats.SpecFloat.
From Verif Require Import PyBase PyBytes PyFloat Tool_Model Props_Tool Calib_Model Config_Model Config_Spec.
Import ListNotations.
Open Scope Z_scope.
Ltac Zify.zify_post_hook ::= Z.div_mod_to_equations.

Lemma Ok_inj {A} (a b : A) : Ok a = Ok b -> a = b.
Proof. congruence. Qed.

(** ** Dicts *)
Lemma beq_spec a b : reflect (a = b) (bytes_eqb a b).
Proof.
  apply iff_reflect. revert b. induction a as [|x a IH]; destruct b as [|y b]; cbn; try (split; congruence).
  specialize (IH b). split.
  - intros [= -> ->]. rewrite Z.eqb_refl. cbn. now apply IH.
  - intros H. apply andb_prop in H as [H1 H2]. apply Z.eqb_eq in H1. apply IH in H2. congruence.
Qed.

Lemma beq_refl a : bytes_eqb a a = true.
Proof. now destruct (beq_spec a a). Qed.

Lemma dget_dset k v d k' : dget k' (dset k v d) = if bytes_eqb k' k then Some v else dget k' d.
Proof.
  induction d as [|[a b] d IH]; cbn.
  - destruct (beq_spec k' k); auto.
  - destruct (beq_spec k a) as [->|Hn]; cbn.
    + destruct (beq_spec k' a); auto.
    + rewrite IH. destruct (beq_spec k' a) as [->|]; auto. destruct (beq_spec a k); congruence.
Qed.

Lemma dget_ddel k d k' : dget k' (ddel k d) = if bytes_eqb k' k then None else dget k' d.
Proof.
  unfold ddel. induction d as [|[a b] d IH]; cbn; [now destruct (bytes_eqb k' k)|].
  destruct (beq_spec k a) as [->|Hn]; cbn; rewrite IH.
  - destruct (beq_spec k' a); auto.
  - destruct (beq_spec k' a) as [->|]; auto. destruct (beq_spec a k); congruence.
Qed.

Lemma dget_filter f d k : dget k (filter (fun p => f (fst p)) d) = if f k then dget k d else None.
Proof.
  induction d as [|[a b] d IH]; cbn; [now destruct (f k)|].
  destruct (f a) eqn:E; cbn; rewrite IH; destruct (beq_spec k a) as [->|Hn]; auto; rewrite E; auto.
Qed.

Lemma dget_in k v d : dget k d = Some v -> In (k, v) d.
Proof.
  induction d as [|[a b] d IH]; cbn; [discriminate|].
  destruct (beq_spec k a) as [->|]; intros H; [injection H as ->; auto|auto].
Qed.

Lemma in_dset p k v d : In p (dset k v d) -> p = (k, v) \/ In p d.
Proof.
  induction d as [|[a b] d IH]; cbn.
  - intros [<-|[]]. auto.
  - destruct (beq_spec k a) as [->|]; cbn; intros [<-|H]; auto. destruct (IH H); auto.
Qed.

Lemma keys_dset k v d : map fst (dset k v d) = if dmem k d then map fst d else map fst d ++ [k].
Proof.
  unfold dmem. induction d as [|[a b] d IH]; cbn; [reflexivity|].
  destruct (beq_spec k a) as [->|]; cbn; [reflexivity|]. rewrite IH. now destruct (dget k d).
Qed.

Lemma dget_none k d : dget k d = None <-> ~ In k (map fst d).
Proof.
  induction d as [|[a b] d IH]; cbn; [tauto|].
  destruct (beq_spec k a) as [->|]; [split; [discriminate|tauto]|]. rewrite IH. intuition.
Qed.

Lemma nodup_dset k v d : NoDup (map fst d) -> NoDup (map fst (dset k v d)).
Proof.
  intros H. rewrite keys_dset. unfold dmem. destruct (dget k d) eqn:E; auto.
  apply dget_none in E. apply NoDup_rev in H. rewrite <- (rev_involutive (map fst d)).
  change [k] with (rev [k]). rewrite <- rev_app_distr. apply NoDup_rev. cbn. constructor; auto.
  now rewrite <- in_rev.
Qed.

Lemma nodup_filter f (d : items) : NoDup (map fst d) -> NoDup (map fst (filter f d)).
Proof.
  induction d as [|p d IH]; cbn; auto. intros H. apply NoDup_cons_iff in H as [H1 H2].
  destruct (f p); cbn; auto. constructor; auto. intros C. apply H1.
  apply in_map_iff in C as (q & <- & C). apply filter_In in C as [C _]. now apply in_map.
Qed.

(** ** Texts without spaces and line feeds *)
Definition clean (l : list Z) : Prop := ~ In 32 l /\ ~ In 10 l.

Definition cleanb (l : list Z) : bool := forallb (fun c => negb (c =? 32) && negb (c =? 10)) l.

Lemma cleanb_clean l : cleanb l = true -> clean l.
Proof.
  unfold cleanb. intros H. rewrite forallb_forall in H.
  split; intros C; apply H in C; discriminate.
Qed.

Lemma clean_app a b : clean a -> clean b -> clean (a ++ b).
Proof. unfold clean. rewrite !in_app_iff. tauto. Qed.

Lemma nat_digits_in n : forall z c, 0 <= z -> In c (nat_digits n z) -> 48 <= c <= 57.
Proof.
  induction n as [|n IH]; intros z c Hz; cbn [nat_digits In]; [tauto|].
  destruct (z <? 10) eqn:E.
  - intros [<-|[]]. lia.
  - rewrite in_app_iff. intros [H|[<-|[]]]; [apply (IH (z / 10)); [lia|exact H]|lia].
Qed.

Lemma int_str_clean z : clean (int_str z).
Proof.
  unfold int_str. destruct (z <? 0) eqn:E; split; intros H.
  - destruct H as [H|H]; [discriminate|]. apply nat_digits_in in H; lia.
  - destruct H as [H|H]; [discriminate|]. apply nat_digits_in in H; lia.
  - apply nat_digits_in in H; lia.
  - apply nat_digits_in in H; lia.
Qed.

Lemma nat_digits_decimal n : forall z, 0 <= z < Z.of_nat n -> decimal (nat_digits n z) z.
Proof.
  induction n as [|n IH]; intros z Hz; [lia|]. cbn [nat_digits]. destruct (z <? 10) eqn:E.
  - constructor. unfold digit_text. lia.
  - replace z with (10 * (z / 10) + z mod 10) at 3 by lia. constructor; [apply IH; lia|].
    unfold digit_text. lia.
Qed.

(** str(n) is read back as n by int(). *)
Lemma int_str_text z : int_text (int_str z) z.
Proof.
  unfold int_str. destruct (z <? 0) eqn:E.
  - exists [], (lit "-"), (nat_digits (S (Z.to_nat (- z))) (- z)), [], (- z).
    rewrite app_nil_r. split; [reflexivity|]. split; [constructor|]. split; [constructor|].
    split; [apply nat_digits_decimal; lia|]. right. split; auto. lia.
  - exists [], [], (nat_digits (S (Z.to_nat z)) z), [], z.
    rewrite app_nil_r. split; [reflexivity|]. split; [constructor|]. split; [constructor|].
    split; [apply nat_digits_decimal; lia|]. left. auto.
Qed.

Lemma int_str_inj a b : int_str a = int_str b -> a = b.
Proof.
  intros E. pose proof (int_str_text a) as Ha. pose proof (int_str_text b) as Hb.
  rewrite E in Ha. apply C33_int in Ha, Hb. congruence.
Qed.

(** ** Groups of settings *)
Lemma startswith_spec p l : startswith p l = true <-> exists r, l = p ++ r.
Proof.
  revert l. induction p as [|a p IH]; intros l; cbn.
  - split; eauto.
  - destruct l as [|b l]; [split; [discriminate|intros (r & [=])]|]. split.
    + intros H. apply andb_prop in H as [H1 H2]. apply Z.eqb_eq in H1. apply IH in H2 as (r & ->).
      exists r. now subst.
    + intros (r & [= -> ->]). rewrite Z.eqb_refl. apply IH. eauto.
Qed.

Definition about (gs : list group) (k : list Z) : Prop := Exists (in_group k) gs.

Definition in_groupb (k : list Z) (g : group) : bool :=
  match g with Name s => bytes_eqb k (lit s) | Prefix s => startswith (lit s) k end.

Lemma aboutb_about gs k : existsb (in_groupb k) gs = true -> about gs k.
Proof.
  intros H. apply existsb_exists in H as (g & Hin & H). apply Exists_exists. exists g. split; auto.
  destruct g as [s|s]; cbn in *; [destruct (beq_spec k (lit s)); [auto|discriminate]|].
  now apply startswith_spec.
Qed.

(** ** What the rules leave alone *)
Section Pres.
  Variable parse_float : list Z -> res float.
  Variable float_str : float -> list Z.
  Variable py_sum : list float -> float.
  Hypothesis float_str_clean : forall x, clean (float_str x).

  (** Whatever holds of dicts and survives changes of the settings [N]. *)
  Variable N : list Z -> Prop.
  Variable P : items -> Prop.
  Hypothesis Pset : forall d k v, N k -> clean k -> clean v -> P d -> P (dset k v d).
  Hypothesis Pfilter : forall d (f : list Z -> bool), (forall k, ~ N k -> f k = true) ->
    P d -> P (filter (fun p => f (fst p)) d).
  Hypothesis Pclean : forall d k v, P d -> dget k d = Some v -> clean v.

  Lemma Pdel d k : N k -> P d -> P (ddel k d).
  Proof.
    intros HN H. unfold ddel. apply (Pfilter d (fun k' => negb (bytes_eqb k k'))); auto.
    intros k' Hk. destruct (beq_spec k k') as [->|]; auto.
  Qed.

  Lemma item_clean k d v : item k d = Ok v -> P d -> clean v.
  Proof.
    unfold item. destruct (dget k d) eqn:E; intros H; [|discriminate]. injection H as ->.
    intros HP. eapply Pclean; eauto.
  Qed.

  Lemma for_each_P {A} (l : list A) f : (forall i d d', In i l -> f i d = Ok d' -> P d -> P d') ->
    forall d d', for_each l f d = Ok d' -> P d -> P d'.
  Proof.
    induction l as [|i l IH]; intros Hf d d' H HP; cbn in H; [injection H as <-; auto|].
    destruct (f i d) as [d1|] eqn:E; [|discriminate]. cbn in H.
    apply (IH (fun j d d' Hj => Hf j d d' (or_intror Hj)) d1 d' H). eapply Hf; eauto. now left.
  Qed.

  Lemma pop_P k d d' : N k -> pop k d = Ok d' -> P d -> P d'.
  Proof.
    unfold pop. intros HN. destruct (item k d); cbn; [|discriminate].
    intros [= <-]. now apply Pdel.
  Qed.

  Lemma copy_P k k' d d' : N k -> clean k -> copy k k' d = Ok d' -> P d -> P d'.
  Proof.
    unfold copy. intros HN Hk. destruct (item k' d) eqn:E; cbn; [|discriminate].
    intros [= <-] HP. apply Pset; auto. eapply item_clean; eauto.
  Qed.

  Lemma drop_prefixes_P ps d : (forall k pre, In pre ps -> startswith pre k = true -> N k) ->
    P d -> P (drop_prefixes ps d).
  Proof.
    intros H. unfold drop_prefixes.
    apply (Pfilter d (fun k => negb (existsb (fun pre => startswith pre k) ps))).
    intros k Hk. apply negb_true_iff. apply not_true_is_false. intros E.
    apply existsb_exists in E as (pre & Hin & E). eauto.
  Qed.

  Ltac literal := apply cleanb_clean; vm_compute; reflexivity.

  (** Membership of a name in a group, by computation. *)
  Ltac name_in HN := apply HN; apply aboutb_about; vm_compute; reflexivity.

  Ltac unbind H :=
    repeat match type of H with
    | Raise _ = Ok _ => discriminate H
    | Ok ?a = Ok ?b => apply Ok_inj in H; first [subst b | subst a]
    | bind ?e _ = Ok _ =>
        let E := fresh "E" in destruct e eqn:E; cbn [bind fst snd] in H; [|discriminate H]
    | (if ?b then _ else _) = Ok _ => let E := fresh "E" in destruct b eqn:E
    end.

  Ltac preserve HN :=
    repeat
        match goal with
        | H : P ?d |- P ?d => exact H
        | H : clean ?v |- clean ?v => exact H
        | |- P (dset _ _ _) => apply Pset
        | |- P (ddel _ _) => apply Pdel
        | |- P (if ?b then _ else _) => destruct b
        | |- clean (float_str _) => apply float_str_clean
        | |- clean (int_str _) => apply int_str_clean
        | |- clean (lit _) => literal
        | |- clean (if ?b then _ else _) => destruct b
        | H : item _ ?d = Ok ?v |- clean ?v => apply (item_clean _ _ _ H)
        | |- N _ => name_in HN
        end.

  Lemma down_010a_P family d d' : (forall k, about power k -> N k) ->
    down_010a parse_float float_str family d = Ok d' -> P d -> P d'.
  Proof.
    intros HN H HP. unfold down_010a in H. cbv zeta in H. unbind H; preserve HN.
    unfold family_text in E3. destruct (family_of family =? 2); destruct ((family_of family =? 0) || (family_of family =? 1)); try discriminate E3;
      injection E3 as <-; literal.
  Qed.

  Lemma down_0108_P d d' : (forall k, about (down_about 0x0108) k -> N k) ->
    down_0108 parse_float d = Ok d' -> P d -> P d'.
  Proof. intros HN H HP. unfold down_0108 in H. unbind H; preserve HN. Qed.

  Lemma down_0107_P d d' : (forall k, about (down_about 0x0107) k -> N k) ->
    down_0107 d = Ok d' -> P d -> P d'.
  Proof. intros HN H HP. unfold down_0107 in H. unbind H; preserve HN. Qed.

  Lemma poll_key_about p : In p i2c_devices ->
    about i2c_poll (poll_rate_us_key (fst p) (snd p)) /\ about i2c_poll (poll_ms_key (fst p) (snd p)).
  Proof.
    intros H. unfold about.
    repeat (destruct H as [<-|H]; [split; apply aboutb_about; vm_compute; reflexivity|]).
    destruct H.
  Qed.

  Lemma poll_key_clean a b : clean (poll_rate_us_key a b) /\ clean (poll_ms_key a b).
  Proof.
    split; repeat (apply clean_app); try apply int_str_clean; literal.
  Qed.

  Lemma down_0106_P d d' : (forall k, about i2c_poll k -> N k) ->
    down_0106 d = Ok d' -> P d -> P d'.
  Proof.
    intros HN. unfold down_0106. apply for_each_P. intros p e e' Hp H HP.
    destruct (poll_key_about p Hp) as [H1 H2]. destruct (poll_key_clean (fst p) (snd p)) as [C1 C2].
    cbv zeta in H. unbind H. apply Pset; auto using int_str_clean. apply Pdel; auto.
  Qed.

  Lemma up_0106_P d d' : (forall k, about i2c_poll k -> N k) ->
    up_0106 d = Ok d' -> P d -> P d'.
  Proof.
    intros HN. unfold up_0106. apply for_each_P. intros p e e' Hp H HP.
    destruct (poll_key_about p Hp) as [H1 H2]. destruct (poll_key_clean (fst p) (snd p)) as [C1 C2].
    cbv zeta in H. unbind H; auto. apply Pset; auto using int_str_clean. apply Pdel; auto.
  Qed.

  Lemma down_0105_P d d' : (forall k, about (down_about 0x0105) k -> N k) ->
    down_0105 parse_float d = Ok d' -> P d -> P d'.
  Proof.
    intros HN H HP. unfold down_0105 in H. cbv zeta in H.
    destruct (or_res _ _) as [u|] eqn:E; [|discriminate]. cbn [bind] in H.
    match type of H with bind ?e _ = _ => destruct e as [d1|] eqn:E1; [|discriminate] end.
    cbn [bind] in H. apply Ok_inj in H. subst d'. apply drop_prefixes_P.
    - intros k pre Hin Hs. apply HN. apply startswith_spec in Hs as (r & ->). unfold about.
      cbn [encoder_prefixes In] in Hin.
      repeat (destruct Hin as [<-|Hin];
        [repeat first [apply Exists_cons_hd; eexists; reflexivity | apply Exists_cons_tl]|]).
      destruct Hin.
    - clear E. unbind E1; preserve HN.
  Qed.

  Lemma down_0104_P d d' : (forall k, about pwm_compensation k -> N k) ->
    down_0104 parse_float d = Ok d' -> P d -> P d'.
  Proof. intros HN H HP. unfold down_0104 in H. unbind H; preserve HN. Qed.

  Lemma down_0103_P d d' : (forall k, about (down_about 0x0103) k -> N k) ->
    down_0103 parse_float d = Ok d' -> P d -> P d'.
  Proof. intros HN H HP. unfold down_0103 in H. cbv zeta in H. unbind H; preserve HN. Qed.

  Lemma down_0101_P d d' : (forall k, about (down_about 0x0101) k -> N k) ->
    down_0101 parse_float d = Ok d' -> P d -> P d'.
  Proof. intros HN H HP. unfold down_0101 in H. unbind H; preserve HN. Qed.

  Lemma up_0101_P d d' : (forall k, about (up_about 0x0101) k -> N k) ->
    up_0101 parse_float d = Ok d' -> P d -> P d'.
  Proof. intros HN H HP. unfold up_0101 in H. unbind H; preserve HN. Qed.

  Lemma up_0103_P d d' : (forall k, about pwm_compensation k -> N k) ->
    up_0103 parse_float d = Ok d' -> P d -> P d'.
  Proof. intros HN H HP. unfold up_0103 in H. unbind H; preserve HN. Qed.

  Lemma up_0104_P d d' : (forall k, about pwm_compensation k -> N k) ->
    up_0104 parse_float d = Ok d' -> P d -> P d'.
  Proof. intros HN H HP. unfold up_0104 in H. unbind H; preserve HN. Qed.

  Lemma up_0107_P d d' : up_0107 d = Ok d' -> P d -> P d'.
  Proof. intros H HP. unfold up_0107 in H. unbind H. exact HP. Qed.

  Lemma up_0108_P d d' : (forall k, about (up_about 0x0108) k -> N k) ->
    up_0108 parse_float d = Ok d' -> P d -> P d'.
  Proof. intros HN H HP. unfold up_0108 in H. unbind H; preserve HN. Qed.

  Lemma up_010a_P family d d' : (forall k, about power k -> N k) ->
    up_010a parse_float float_str family d = Ok d' -> P d -> P d'.
  Proof. intros HN H HP. unfold up_010a in H. cbv zeta in H. unbind H; preserve HN. Qed.

  Lemma table_key_about m i : 0 <= m < 3 -> about compensation (table_key m i).
  Proof.
    intros H. apply Exists_exists. unfold table_key, compensation.
    assert (m = 0 \/ m = 1 \/ m = 2) as [->|[->| ->]] by lia.
    - exists (Prefix "motor_position.sources.0.compensation_table."). split; [now left|].
      exists (int_str i). reflexivity.
    - exists (Prefix "motor_position.sources.1.compensation_table."). split; [right; now left|].
      exists (int_str i). reflexivity.
    - exists (Prefix "motor_position.sources.2.compensation_table."). split; [right; right; now left|].
      exists (int_str i). reflexivity.
  Qed.

  Lemma scale_key_about m : 0 <= m < 3 -> about compensation (scale_key m).
  Proof.
    intros H. assert (m = 0 \/ m = 1 \/ m = 2) as [->|[->| ->]] by lia;
      apply aboutb_about; vm_compute; reflexivity.
  Qed.

  Lemma table_key_clean m i : clean (table_key m i).
  Proof. repeat apply clean_app; try apply int_str_clean; literal. Qed.
  Lemma scale_key_clean m : clean (scale_key m).
  Proof. repeat apply clean_app; try apply int_str_clean; literal. Qed.

  Lemma take_bins_P m scale l : (forall i, N (table_key m i)) ->
    forall d r, take_bins parse_float m scale l d = Ok r -> P d -> P (snd r).
  Proof.
    intros HN. induction l as [|i l IH]; intros d r H HP; cbn [take_bins] in H.
    - apply Ok_inj in H. now subst r.
    - cbv zeta in H. unbind H. cbn [snd]. eapply IH; [eassumption|]. now apply Pdel.
  Qed.

  Lemma downsample_P m d d' : (forall k, about compensation k -> N k) -> 0 <= m < 3 ->
    downsample parse_float float_str m d = Ok d' -> P d -> P d'.
  Proof.
    intros HN Hm H HP. unfold downsample in H. cbv zeta in H.
    destruct (getf _ _ _ _) as [s|] eqn:E; [|discriminate]. cbn [bind] in H.
    destruct (float_div _ _) as [sc|] eqn:E1; [|discriminate]. cbn [bind] in H.
    destruct (take_bins _ _ _ _ _) as [r|] eqn:E2; [|discriminate]. cbn [bind] in H.
    revert H. assert (HP' : P (snd r)).
    { eapply take_bins_P; [|exact E2|]; [intros i; apply HN, table_key_about; exact Hm|].
      apply Pdel; [apply HN, scale_key_about; exact Hm|exact HP]. }
    intros H. revert HP'. revert H. apply for_each_P. intros i e e' Hi H HP'. unbind H.
    apply Pset; auto using table_key_clean. apply HN, table_key_about; exact Hm.
  Qed.

  Lemma down_0109_P d d' : (forall k, about (down_about 0x0109) k -> N k) ->
    down_0109 parse_float float_str d = Ok d' -> P d -> P d'.
  Proof.
    intros HN H HP. unfold down_0109 in H. cbv zeta in H.
    destruct (geti _ _ _) as [en|] eqn:E; [|discriminate]. cbn [bind] in H.
    match type of H with bind ?e _ = _ => destruct e as [odd|] eqn:E1; [|discriminate] end.
    cbn [bind] in H.
    assert (HP1 : P (if odd then dset (lit "servo.enable_motor_temperature") (lit "0") d else d))
      by (preserve HN).
    set (d1 := if odd then _ else _) in *. clearbody d1. clear E1 HP.
    destruct (pop (lit "servo.motor_thermistor_ohm") d1) as [d2|] eqn:E2; [|discriminate].
    cbn [bind] in H. apply pop_P in E2; [|name_in HN|exact HP1].
    destruct (pop (lit "aux1.pwm_period_us") d2) as [d3|] eqn:E3; [|discriminate].
    cbn [bind] in H. apply pop_P in E3; [|name_in HN|exact E2].
    destruct (pop (lit "aux2.pwm_period_us") d3) as [d4|] eqn:E4; [|discriminate].
    cbn [bind] in H. apply pop_P in E4; [|name_in HN|exact E3].
    destruct (dmem _ _).
    - revert H E4. apply for_each_P. intros m e e' Hm. apply downsample_P.
      + intros k Hk. apply HN. unfold about in *. change (down_about 0x0109) with
          (map Name ["servo.enable_motor_temperature"; "servo.motor_thermistor_ohm";
              "aux1.pwm_period_us"; "aux2.pwm_period_us"]%string ++ compensation).
        apply Exists_app. now right.
      + apply in_range in Hm. exact Hm.
    - unbind H. exact E4.
  Qed.

  Ltac next H d1 E :=
    match type of H with bind ?e _ = _ => destruct e as [d1|] eqn:E; [|discriminate H] end;
    cbn [bind] in H.

  Lemma up_abs_port_P d d' : (forall k, about (up_about 0x0105) k -> N k) ->
    up_abs_port parse_float d = Ok d' -> P d -> P d'.
  Proof.
    intros HN H HP. unfold up_abs_port in H. cbv zeta in H.
    destruct (dmem _ _); [|unbind H; exact HP].
    next H d1 E1. apply copy_P in E1; [|name_in HN|literal|exact HP].
    next H d2 E2. apply copy_P in E2; [|name_in HN|literal|exact E1].
    next H mode E. next H d3 E3. clear E.
    assert (H3 : P d3).
    { destruct (negb _); [|unbind E3; exact E2].
      next E3 e1 F1. apply copy_P in F1; [|name_in HN|literal|exact E2].
      next E3 e2 F2. apply copy_P in F2; [|name_in HN|literal|exact F1].
      next E3 e3 F3. apply copy_P in F3; [|name_in HN|literal|exact F2].
      unbind E3. preserve HN. }
    clear E3 E1 E2. next H rz E. next H d4 E4. clear E.
    assert (H4 : P d4).
    { destruct (negb _); [|unbind E4; exact H3].
      next E4 e1 F1. apply copy_P in F1; [|name_in HN|literal|preserve HN].
      next E4 am F2. next E4 sc F3. unbind E4. preserve HN. }
    apply pop_P in H; [exact H|name_in HN|]. apply drop_prefixes_P; [|exact H4].
    intros k pre [<-|[]] Hs. apply HN, aboutb_about, existsb_exists.
    exists (Prefix "abs_port."). split; [now left|exact Hs].
  Qed.

  Lemma up_encoder_mode_P d d' : (forall k, about (up_about 0x0105) k -> N k) ->
    up_encoder_mode d = Ok d' -> P d -> P d'.
  Proof.
    intros HN H HP. unfold up_encoder_mode in H. cbv zeta in H.
    destruct (dmem _ _); [|unbind H; exact HP]. next H m E.
    apply pop_P in H; [exact H|name_in HN|]. preserve HN.
  Qed.

  Lemma up_offset_P d d' : (forall k, about (up_about 0x0105) k -> N k) ->
    up_offset parse_float float_str d = Ok d' -> P d -> P d'.
  Proof. intros HN H HP. unfold up_offset in H. cbv zeta in H. unbind H. preserve HN. Qed.

  Lemma up_filters_P d d' : (forall k, about (up_about 0x0105) k -> N k) ->
    up_filters parse_float float_str d = Ok d' -> P d -> P d'.
  Proof.
    intros HN H HP. unfold up_filters in H. cbv zeta in H.
    assert (HP1 : P (if dmem (lit "servo.velocity_filter_length") d
                     then ddel (lit "servo.velocity_filter_length") d else d)) by (preserve HN).
    set (d1 := if dmem (lit "servo.velocity_filter_length") d then _ else _) in *. clearbody d1. clear HP.
    destruct (dmem _ d1); [|unbind H; exact HP1].
    next H kp E. next H ki E1. next H en E2. next H pll E3.
    assert (clean pll) by (destruct (en =? 0); unbind E3; preserve HN).
    unbind H; preserve HN.
  Qed.

  Lemma up_pwm_rate_P d d' : (forall k, about (up_about 0x0105) k -> N k) ->
    up_pwm_rate d = Ok d' -> P d -> P d'.
  Proof. intros HN H HP. unfold up_pwm_rate in H. unbind H; preserve HN. Qed.

  Lemma up_0105_P d d' : (forall k, about (up_about 0x0105) k -> N k) ->
    up_0105 parse_float float_str d = Ok d' -> P d -> P d'.
  Proof.
    intros HN H HP. unfold up_0105 in H.
    next H d1 E1. apply up_abs_port_P in E1; auto.
    next H d2 E2. apply up_encoder_mode_P in E2; auto.
    next H d3 E3. apply up_offset_P in E3; auto.
    next H d4 E4. apply up_filters_P in E4; auto.
    apply up_pwm_rate_P in H; auto.
  Qed.

  Lemma up_offsets_P d d' : (forall i, N (offset_key i)) ->
    up_offsets parse_float float_str py_sum d = Ok d' -> P d -> P d'.
  Proof.
    intros HN H HP. unfold up_offsets in H. cbv zeta in H.
    next H old E1. next H offs E2. next H mean E3. next H w E4.
    destruct (existsb _ _); [|unbind H; exact HP].
    revert H HP. apply for_each_P. intros p e e' Hp H HP. unbind H. apply Pset; auto.
    apply clean_app; [literal|apply int_str_clean].
  Qed.

  Lemma upsample_P m d d' : (forall k, about compensation k -> N k) -> 0 <= m < 3 ->
    upsample parse_float float_str py_sum m d = Ok d' -> P d -> P d'.
  Proof.
    intros HN Hm H HP. unfold upsample in H.
    next H bins E1. next H scale E2. next H d1 E3. unbind H.
    apply Pset; auto using scale_key_clean; [apply HN, scale_key_about; exact Hm|].
    revert E3 HP. apply for_each_P. intros i e e' Hi H HP. next H n E. unbind H.
    apply Pset; auto using table_key_clean, int_str_clean. apply HN, table_key_about; exact Hm.
  Qed.

  Lemma up_tables_P d d' : (forall k, about (up_about 0x0109) k -> N k) ->
    up_tables parse_float float_str py_sum d = Ok d' -> P d -> P d'.
  Proof.
    intros HN H HP. unfold up_tables in H. cbv zeta in H. next H en E.
    assert (HP1 : P (if negb (en =? 0) then dset (lit "servo.motor_thermistor_ohm") (lit "47000") d else d))
      by (preserve HN).
    set (d1 := if negb (en =? 0) then _ else _) in *. clearbody d1.
    destruct (dmem _ _).
    - revert H HP1. apply for_each_P. intros m e e' Hm. apply upsample_P.
      + intros k Hk. apply HN. unfold about in *. change (up_about 0x0109) with
          ([Prefix "motor.offset."; Name "servo.motor_thermistor_ohm"] ++ compensation).
        apply Exists_app. now right.
      + apply in_range in Hm. exact Hm.
    - unbind H. exact HP1.
  Qed.

  Lemma up_0109_P d d' : (forall k, about (up_about 0x0109) k -> N k) ->
    up_0109 parse_float float_str py_sum d = Ok d' -> P d -> P d'.
  Proof.
    intros HN H HP. unfold up_0109 in H. next H d1 E1. apply up_offsets_P in E1; auto.
    - apply up_tables_P in H; auto.
    - intros i. apply HN. apply Exists_exists. exists (Prefix "motor.offset."). split; [now left|].
      exists (int_str i). reflexivity.
  Qed.

  Lemma rule_P (b : bool) f d d' : (b = true -> forall d d', f d = Ok d' -> P d -> P d') ->
    rule b f d = Ok d' -> P d -> P d'.
  Proof. unfold rule. destruct b; intros Hf H HP; [eapply Hf; eauto|unbind H; auto]. Qed.

  Lemma migrate_P old new family d d' : (forall k, named old new k -> N k) ->
    migrate parse_float float_str py_sum old new family d = Ok d' -> P d -> P d'.
  Proof.
    intros HN H HP. unfold migrate in H.
    assert (Hup : forall t, old < t <= new -> forall k, about (up_about t) k -> N k).
    { intros t Ht k Hk. apply HN. exists t. auto. }
    assert (Hdn : forall t, new < t <= old -> forall k, about (down_about t) k -> N k).
    { intros t Ht k Hk. apply HN. exists t. auto. }
    Ltac next_rule H HP d1 lem hyp :=
      match type of H with bind ?e _ = _ => destruct e as [d1|] eqn:HP; [|discriminate H] end;
      cbn [bind] in H; apply rule_P in HP;
      [|intros F ? ? ?; eapply lem; [apply hyp; lia|eassumption]|assumption].
    next_rule H H1 d1 down_010a_P (Hdn 0x010a).
    next_rule H H2 d2 down_0109_P (Hdn 0x0109).
    next_rule H H3 d3 down_0108_P (Hdn 0x0108).
    next_rule H H4 d4 down_0107_P (Hdn 0x0107).
    next_rule H H5 d5 down_0106_P (Hdn 0x0106).
    next_rule H H6 d6 down_0105_P (Hdn 0x0105).
    next_rule H H7 d7 down_0104_P (Hdn 0x0104).
    next_rule H H8 d8 down_0103_P (Hdn 0x0103).
    next_rule H H9 d9 down_0101_P (Hdn 0x0101).
    next_rule H G1 e1 up_0101_P (Hup 0x0101).
    next_rule H G2 e2 up_0103_P (Hup 0x0103).
    next_rule H G3 e3 up_0104_P (Hup 0x0104).
    next_rule H G4 e4 up_0105_P (Hup 0x0105).
    next_rule H G5 e5 up_0106_P (Hup 0x0106).
    next H e6 G6. apply rule_P in G6; [|intros F ? ? ?; eapply up_0107_P; eassumption|assumption].
    next_rule H G7 e7 up_0108_P (Hup 0x0108).
    next_rule H G8 e8 up_0109_P (Hup 0x0109).
    apply rule_P in H; [exact H| |assumption].
    intros F ? ? ?. eapply up_010a_P; [apply (Hup 0x010a); lia|eassumption].
  Qed.
End Pres.

(** The bound on the search for motor.offset.i is never met: more turns change nothing. *)
Lemma old_offsets_stop parse_float (d : items) j : dget (offset_key j) d = None ->
  forall n m i, i <= j < i + Z.of_nat n -> (n <= m)%nat ->
  old_offsets parse_float m i d = old_offsets parse_float n i d.
Proof.
  intros Hj. induction n as [|n IH]; intros m i Hi Hm; [lia|].
  destruct m as [|m]; [lia|]. cbn [old_offsets]. destruct (dget (offset_key i) d) as [v|] eqn:E; auto.
  destruct (Z.eq_dec i j) as [->|]; [congruence|].
  destruct (parse_float v); cbn [bind]; auto. rewrite (IH m); auto; lia.
Qed.

Lemma offset_missing (d : items) : exists j, 0 <= j < Z.of_nat (S (List.length d)) /\ dget (offset_key j) d = None.
Proof.
  set (keys := map offset_key (py_range 0 (Z.of_nat (S (List.length d))))).
  assert (ND : NoDup keys).
  { apply Injective_map_NoDup.
    - intros a b E. apply app_inv_head in E. now apply int_str_inj.
    - unfold py_range. apply Injective_map_NoDup; [intros a b E; lia|apply seq_NoDup]. }
  destruct (Forall_Exists_dec (fun k => dget k d <> None)
              (fun k => match dget k d as o return {o <> None} + {~ o <> None} with
                        | Some v => left (fun e => eq_ind (Some v) (fun o => match o with Some _ => True | None => False end) I None e)
                        | None => right (fun h => h eq_refl) end) keys) as [F|F].
  - exfalso. assert (I : incl keys (map fst d)).
    { intros k Hk. rewrite Forall_forall in F. apply F in Hk.
      destruct (in_dec (list_eq_dec Z.eq_dec) k (map fst d)) as [|C]; auto.
      apply dget_none in C. contradiction. }
    apply NoDup_incl_length in I; auto. unfold keys, py_range in I.
    rewrite !map_length, seq_length in I. lia.
  - apply Exists_exists in F as (k & Hk & F). unfold keys in Hk. apply in_map_iff in Hk as (j & <- & Hj).
    apply in_range in Hj. exists j. split; [lia|]. destruct (dget (offset_key j) d); auto.
    destruct F. discriminate.
Qed.

Lemma old_offsets_turns parse_float d m : (S (List.length d) <= m)%nat ->
  old_offsets parse_float m 0 d = old_offsets parse_float (S (List.length d)) 0 d.
Proof.
  intros Hm. destruct (offset_missing d) as (j & Hj & E).
  apply (old_offsets_stop parse_float d j E); [lia|exact Hm].
Qed.
