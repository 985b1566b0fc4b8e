(** Proofs for C57: one lemma per rule of the migration. *)
From Coq Require Import Ascii String ZArith List Bool Lia Floats.SpecFloat.
From Coq Require Import ZifyBool ZifyNat.
From Verif Require Import PyBase PyBytes PyFloat Calib_Model Tool_Model Config_Model Config_Spec Config_Proofs
  Props_Tool Props_Config Migrate_Spec.
Import ListNotations.
Open Scope Z_scope.

(** Dict [d] holds the settings of text [t]. *)
Definition sees (t : list Z) (d : items) : Prop := forall k v, setting t k v <-> dget k d = Some v.

Lemma sees_missing t d k : sees t d -> dget k d = None -> missing t k.
Proof. intros H E (v & Hv). apply H in Hv. congruence. Qed.

Lemma sees_has t d k v : sees t d -> dget k d = Some v -> has_setting t k.
Proof. intros H E. exists v. now apply H. Qed.

Lemma sees_same o n d d' ks : sees o d -> sees n d' ->
  (forall k, In k ks -> dget (lit k) d' = dget (lit k) d) -> same o n ks.
Proof. intros Ho Hn H k Hk v. rewrite (Hn _ v), (Ho _ v), (H k Hk). reflexivity. Qed.

Lemma sees_gone n d' ks : sees n d' -> (forall k, In k ks -> dget (lit k) d' = None) -> gone n ks.
Proof. intros Hn H k Hk. eapply sees_missing; eauto. Qed.

Lemma sees_are n d' l : sees n d' -> (forall k v, In (k, v) l -> dget (lit k) d' = Some (lit v)) -> are n l.
Proof. intros Hn H k v Hk. apply Hn. auto. Qed.

Section Read.
  Variable pf : list Z -> res float.
  Notation num := (num pf).
    Variables (o : list Z) (d e : items) (k : list Z).
    Hypothesis Ho : sees o d.
    Hypothesis Hk : dget k e = dget k d.

    Lemma item_set v : item k e = Ok v -> setting o k v.
    Proof. unfold item. rewrite Hk. intros H. apply Ho. destruct (dget k d); [congruence|discriminate]. Qed.

    Lemma itemf_num x : itemf pf k e = Ok x -> num o k x.
    Proof.
      unfold itemf. destruct (item k e) as [v|] eqn:E; cbn [bind]; [|discriminate]. intros H.
      exists v. split; auto. now apply item_set.
    Qed.

    Lemma itemi_whole z : itemi k e = Ok z -> whole o k z.
    Proof.
      unfold itemi. destruct (item k e) as [v|] eqn:E; cbn [bind]; [|discriminate]. intros H.
      exists v. split; [now apply item_set|]. now apply C33_int.
    Qed.

    Lemma getf_num def x : getf pf k def e = Ok x -> num_or pf o k def x.
    Proof.
      unfold getf. rewrite Hk. destruct (dget k d) as [v|] eqn:E; intros H.
      - left. exists v. split; auto. now apply Ho.
      - right. split; [eapply sees_missing; eauto|congruence].
    Qed.

    Lemma geti_whole def z : geti k def e = Ok z -> whole_or o k def z.
    Proof.
      unfold geti. rewrite Hk. destruct (dget k d) as [v|] eqn:E; intros H.
      - left. exists v. split; [now apply Ho|]. now apply C33_int.
      - right. split; [eapply sees_missing; eauto|congruence].
    Qed.

    Lemma getf_none_num x : getf_none pf k e = Ok x -> num o k x.
    Proof.
      unfold getf_none. rewrite Hk. destruct (dget k d) as [v|] eqn:E; intros H; [|discriminate].
      exists v. split; auto. now apply Ho.
    Qed.

    Lemma dmem_has : dmem k e = true -> has_setting o k.
    Proof. unfold dmem. rewrite Hk. destruct (dget k d) as [v|] eqn:E; [|discriminate]. intros _. exists v. now apply Ho. Qed.

    Lemma dmem_missing : dmem k e = false -> missing o k.
    Proof. unfold dmem. rewrite Hk. destruct (dget k d) as [v|] eqn:E; [discriminate|]. intros _. eapply sees_missing; eauto. Qed.
End Read.


  Ltac unbind H :=
    repeat match type of H with
    | Raise _ = Ok _ => discriminate H
    | Ok ?a = Ok ?b => apply Ok_inj in H; first [subst b | subst a]
    | bind ?e _ = Ok _ =>
        let E := fresh "E" in destruct e eqn:E; cbn [bind fst snd] in H; [|discriminate H]
    | (if ?b then _ else _) = Ok _ => let E := fresh "E" in destruct b eqn:E
    end.

  Lemma dget_drop ps k d : dget k (drop_prefixes ps d) =
    if existsb (fun pre => startswith pre k) ps then None else dget k d.
  Proof.
    unfold drop_prefixes. rewrite (dget_filter (fun x => negb (existsb (fun pre => startswith pre x) ps))).
    now destruct (existsb _ ps).
  Qed.

  (** Look-ups in changed dicts, by computation on the names. *)
  Ltac get1 :=
    match goal with
    | |- context [dget ?k (dset ?k' ?v ?d)] =>
        rewrite (dget_dset k' v d k);
        let r := eval vm_compute in (bytes_eqb k k') in
        replace (bytes_eqb k k') with r by (vm_compute; reflexivity); cbv iota
    | |- context [dget ?k (ddel ?k' ?d)] =>
        rewrite (dget_ddel k' d k);
        let r := eval vm_compute in (bytes_eqb k k') in
        replace (bytes_eqb k k') with r by (vm_compute; reflexivity); cbv iota
    end.
  Ltac get := repeat first [get1 |
    match goal with |- context [dget ?k (drop_prefixes ?ps ?d)] =>
      rewrite (dget_drop ps k d);
      let r := eval vm_compute in (existsb (fun pre => startswith pre k) ps) in
      replace (existsb (fun pre => startswith pre k) ps) with r by (vm_compute; reflexivity); cbv iota
    end]; try reflexivity.
  Ltac each_ tac := let k := fresh "k" in let Hk := fresh "Hk" in intros k Hk;
    repeat (destruct Hk as [<-|Hk]; [tac tt|]); try now destruct Hk.
  Ltac each_pair_ tac := let k := fresh "k" in let v := fresh "v" in let Hk := fresh "Hk" in intros k v Hk;
    repeat (destruct Hk as [Hk|Hk]; [injection Hk as <- <-; tac tt|]); try now destruct Hk.

  Ltac finish_ Ho Hn tac :=
    match goal with
    | |- same _ _ _ => apply (sees_same _ _ _ _ _ Ho Hn); each_ tac
    | |- gone _ _ => apply (sees_gone _ _ _ Hn); each_ tac
    | |- are _ _ => apply (sees_are _ _ _ Hn); each_pair_ tac
    | |- setting _ _ _ => apply Hn; tac tt
    | E : itemf _ ?k _ = Ok _ |- Migrate_Spec.num _ _ ?k _ => eapply itemf_num; [exact Ho| |exact E]; tac tt
    | E : getf_none _ ?k _ = Ok _ |- Migrate_Spec.num _ _ ?k _ => eapply getf_none_num; [exact Ho| |exact E]; tac tt
    | E : itemi ?k _ = Ok _ |- whole _ ?k _ => eapply itemi_whole; [exact Ho| |exact E]; tac tt
    | E : getf _ ?k _ _ = Ok _ |- num_or _ _ ?k _ _ => eapply getf_num; [exact Ho| |exact E]; tac tt
    | E : geti ?k _ _ = Ok _ |- whole_or _ ?k _ _ => eapply geti_whole; [exact Ho| |exact E]; tac tt
    end.
  Ltac get_ u := get.
  Ltac each := each_ get_.
  Ltac finish Ho Hn := finish_ Ho Hn get_.


  Ltac inout Hin Hout :=
    try (rewrite Hout by (vm_compute; reflexivity)); get;
    try first [assumption | rewrite Hin by (vm_compute; reflexivity); first [reflexivity | assumption]].

  Ltac fin Ho Hn Hin Hout := let t u := inout Hin Hout in finish_ Ho Hn t.
  Ltac fin2 Hf Ho Hn Hin Hout :=
    let t u := (try (rewrite Hout by (vm_compute; reflexivity)); get; rewrite Hf by (vm_compute; reflexivity); inout Hin Hout) in finish_ Ho Hn t.


  Definition among (l : list string) (k : list Z) : bool := existsb (fun s => bytes_eqb k (lit s)) l.

  Lemma among_all l (P : list Z -> bool) : forallb (fun s => P (lit s)) l = true ->
    forall k, among l k = true -> P k = true.
  Proof.
    intros H k Hk. rewrite forallb_forall in H. unfold among in Hk. apply existsb_exists in Hk as (s & Hs & E).
    destruct (beq_spec k (lit s)) as [->|]; [auto|discriminate].
  Qed.

  Lemma item_kept k d v : item k d = Ok v -> dget k d = Some v.
  Proof. unfold item. destruct (dget k d); [congruence|discriminate]. Qed.

  Lemma pop_inv k d d' : pop k d = Ok d' -> dmem k d = true /\ d' = ddel k d.
  Proof. unfold pop, item, dmem. destruct (dget k d); cbn [bind]; [|discriminate]. intros [= <-]. auto. Qed.

  Lemma copy_inv k k' d d' : copy k k' d = Ok d' -> exists v, dget k' d = Some v /\ d' = dset k v d.
  Proof.
    unfold copy. destruct (item k' d) as [v|] eqn:E; cbn [bind]; [|discriminate]. intros [= <-].
    exists v. split; auto. now apply item_kept.
  Qed.

  Lemma fd_zero x y z : float_div x y = Ok z -> z = fdiv x y /\ feqb y fzero = false.
  Proof. unfold float_div, fzero. destruct (feqb y (float_of_Z 0)); [discriminate|]. intros [= <-]. auto. Qed.


Section Steps.
  Variable pf : list Z -> res float.
  Variable fs : float -> list Z.
  Variable py_sum : list float -> float.
  Hypothesis fs_clean : forall x, clean (fs x).
  Let wr := wrap (float_arith py_sum).

  Notation num := (num pf).

  Lemma step_to_0101 o n d d' : sees o d -> sees n d' -> up_0101 pf d = Ok d' -> to_0101 pf o n.
  Proof.
    intros Ho Hn H. unfold up_0101 in H. unbind H; eexists; (split; [finish Ho Hn|]);
      change (float_of_Z 1) with fone; rewrite E0; finish Ho Hn.
  Qed.

  Lemma step_from_0101 o n d d' : sees o d -> sees n d' -> down_0101 pf d = Ok d' -> from_0101 pf o n.
  Proof.
    intros Ho Hn H. unfold down_0101 in H. unbind H; eexists; (split; [finish Ho Hn|]);
      rewrite E0; cbn [when map fst]; finish Ho Hn.
  Qed.

  Lemma step_to_0108 o n d d' : sees o d -> sees n d' -> up_0108 pf d = Ok d' -> to_0108 pf o n.
  Proof.
    intros Ho Hn H. unfold up_0108 in H. unbind H; eexists; (split; [finish Ho Hn|]);
      change (float_of_Z 1) with fone; rewrite E0; cbn [when map fst]; finish Ho Hn.
  Qed.
  Lemma step_from_0108 o n d d' : sees o d -> sees n d' -> down_0108 pf d = Ok d' -> from_0108 pf o n.
  Proof.
    intros Ho Hn H. unfold down_0108 in H. unbind H; eexists; (split; [finish Ho Hn|]);
      change (float_of_Z 0) with fzero; rewrite E0; cbn [when map fst]; finish Ho Hn.
  Qed.
  Lemma step_from_0107 o n d d' : sees o d -> sees n d' -> down_0107 d = Ok d' -> from_0107 o n.
  Proof.
    intros Ho Hn H. unfold down_0107 in H. unbind H; eexists; (split; [finish Ho Hn|]);
      rewrite E0; cbn [when map fst]; finish Ho Hn.
  Qed.

  Lemma getf_is_inv k x d b : getf_is pf k x d = Ok b -> exists v, getf pf k fzero d = Ok v /\ b = feqb v x.
  Proof. unfold getf_is. destruct (getf pf k fzero d) as [v|]; cbn [bind]; [|discriminate]. intros [= <-]. eauto. Qed.

  Lemma and_res_inv a b r : and_res a b = Ok r -> a = Ok false /\ r = false \/ a = Ok true /\ b = Ok r.
  Proof. unfold and_res. destruct a as [[|]|]; cbn [bind]; intros H; [auto|left; split; congruence|discriminate]. Qed.

  Lemma step_to_0103 o n d d' : sees o d -> sees n d' -> up_0103 pf d = Ok d' -> to_0103 pf o n.
  Proof.
    intros Ho Hn H. unfold up_0103 in H.
    destruct (getf_is _ _ _ _) as [c|] eqn:E; [|discriminate]. cbn [bind] in H.
    apply getf_is_inv in E as (x & E & ->). exists x. split; [finish Ho Hn|].
    unfold when. destruct (feqb x (flit 3 3)); unbind H; cbn [map fst]; finish Ho Hn.
  Qed.

  Ltac two E x y E0 E1 :=
    apply and_res_inv in E as [[E ->]|[E E1]]; apply getf_is_inv in E as (x & E & E0);
    [|apply getf_is_inv in E1 as (y & E1 & ->)].

  Lemma step_to_0104 o n d d' : sees o d -> sees n d' -> up_0104 pf d = Ok d' -> to_0104 pf o n.
  Proof.
    intros Ho Hn H. unfold up_0104 in H.
    destruct (and_res _ _) as [c|] eqn:E; [|discriminate]. cbn [bind] in H.
    two E x y E0 E1.
    - exists x. split; [finish Ho Hn|]. rewrite <- E0. unbind H. finish Ho Hn.
    - exists x. split; [finish Ho Hn|]. rewrite <- E0. exists y. split; [finish Ho Hn|].
      unfold when. destruct (feqb y (flit 48 3)); unbind H; cbn [map fst]; finish Ho Hn.
  Qed.

  Lemma step_from_0104 o n d d' : sees o d -> sees n d' -> down_0104 pf d = Ok d' -> from_0104 pf o n.
  Proof.
    intros Ho Hn H. unfold down_0104 in H.
    destruct (and_res _ _) as [c|] eqn:E; [|discriminate]. cbn [bind] in H.
    two E x y E0 E1.
    - exists x. split; [finish Ho Hn|]. rewrite <- E0. unbind H. finish Ho Hn.
    - exists x. split; [finish Ho Hn|]. rewrite <- E0. exists y. split; [finish Ho Hn|].
      unfold when. destruct (feqb y (flit 55 3)); unbind H; cbn [map fst]; finish Ho Hn.
  Qed.

  Lemma step_from_0103 o n d d' : sees o d -> sees n d' -> down_0103 pf d = Ok d' -> from_0103 pf o n.
  Proof.
    intros Ho Hn H. unfold down_0103 in H.
    destruct (and_res _ _) as [c|] eqn:E; [|discriminate]. cbn [bind] in H. cbv zeta in H.
    destruct (itemi _ _) as [p|] eqn:Ep; [|discriminate]. cbn [bind] in H.
    split.
    - two E x y E0 E1.
      + exists x. split; [finish Ho Hn|]. rewrite <- E0. unbind H; finish Ho Hn.
      + exists x. split; [finish Ho Hn|]. rewrite <- E0. exists y. split; [finish Ho Hn|].
        unfold when. destruct (feqb y (flit 48 3)); unbind H; cbn [map fst]; finish Ho Hn.
    - exists p. destruct c; (split; [finish Ho Hn|]); unfold when; destruct (negb (p =? 0)); unbind H; cbn [map fst]; finish Ho Hn.
  Qed.

  Lemma family_text_default f t : family_text f = Ok t ->
    t = lit "450.0" /\ family_default f 450 \/ t = lit "100.0" /\ family_default f 100.
  Proof.
    unfold family_text, family_default, family_of. destruct f as [f|].
    - destruct ((f =? 0) || (f =? 1)) eqn:E; [|destruct (f =? 2) eqn:E2; [|discriminate]]; intros [= <-].
      + left. split; [reflexivity|]. left. split; [reflexivity|].
        apply orb_prop in E as [E|E]; apply Z.eqb_eq in E as ->; auto.
      + right. split; [reflexivity|]. right. apply Z.eqb_eq in E2 as ->. auto.
    - intros [= <-]. left. auto.
  Qed.

  Lemma family_power_default f x : family_power f = Ok x -> exists p, x = float_of_Z p /\ family_default f p.
  Proof.
    unfold family_power, family_default, family_of. destruct f as [f|].
    - destruct ((f =? 0) || (f =? 1)) eqn:E; [|destruct (f =? 2) eqn:E2; [|discriminate]]; intros [= <-].
      + exists 450. split; [reflexivity|]. left. split; [reflexivity|].
        apply orb_prop in E as [E|E]; apply Z.eqb_eq in E as ->; auto.
      + exists 100. split; [reflexivity|]. right. apply Z.eqb_eq in E2 as ->. auto.
    - intros [= <-]. exists 450. auto.
  Qed.

  Lemma step_to_010a family o n d d' : sees o d -> sees n d' -> up_010a pf fs family d = Ok d' ->
    to_010a pf fs family o n.
  Proof.
    intros Ho Hn H. unfold up_010a in H. cbv zeta in H.
    destruct (itemf pf (lit "motor.v_per_hz") d) as [x|] eqn:E; [|discriminate]. cbn [bind] in H.
    assert (R : forall d', sees n d' -> dget (lit "motor.Kv") d' =
        Some (if feqb x fzero then int_str 0 else fs (fdiv v_per_hz_factor x)) ->
        reciprocal pf fs o "motor.v_per_hz" n "motor.Kv").
    { intros e He Hg. exists x. split; [finish Ho Hn|]. apply He, Hg. }
    unbind H.
    - split; [finish Ho Hn|]. split; [apply (R _ Hn); get|]. right.
      apply family_power_default in E1 as (p & -> & F). exists a0, p.
      split; [finish Ho Hn|]. split; [exact F|]. rewrite E3. finish Ho Hn.
    - split; [finish Ho Hn|]. split; [apply (R _ Hn); get|]. right.
      apply family_power_default in E1 as (p & -> & F). exists a0, p.
      split; [finish Ho Hn|]. split; [exact F|]. rewrite E3. apply fd_zero in E5 as [-> _].
      eexists. split; [finish Ho Hn|]. finish Ho Hn.
    - split; [finish Ho Hn|]. split; [apply (R _ Hn); get|]. left. unfold dmem in E0. revert E0. get.
      destruct (dget (lit "servo.max_power_W") d) eqn:G; [discriminate|]. intros _.
      split; [apply (sees_gone _ _ _ Ho)|apply (sees_gone _ _ _ Hn)]; each; exact G.
  Qed.

  Lemma step_from_010a family o n d d' : sees o d -> sees n d' -> down_010a pf fs family d = Ok d' ->
    from_010a pf fs family o n.
  Proof.
    intros Ho Hn H. unfold down_010a in H. cbv zeta in H.
    destruct (itemf pf (lit "motor.Kv") d) as [x|] eqn:E; [|discriminate]. cbn [bind] in H.
    assert (R : forall d', sees n d' -> dget (lit "motor.v_per_hz") d' =
        Some (if feqb x fzero then int_str 0 else fs (fdiv v_per_hz_factor x)) ->
        reciprocal pf fs o "motor.Kv" n "motor.v_per_hz").
    { intros e He Hg. exists x. split; [finish Ho Hn|]. apply He, Hg. }
    unbind H.
    - split; [finish Ho Hn|]. split; [apply (R _ Hn); get|]. right. exists a.
      split; [finish Ho Hn|]. apply negb_true_iff in E2. rewrite E2.
      apply family_text_default in E3 as [[-> F]|[-> F]]; [left|right]; (split; [exact F|]); finish Ho Hn.
    - split; [finish Ho Hn|]. split; [apply (R _ Hn); get|]. right. exists a.
      split; [finish Ho Hn|]. apply negb_false_iff in E2. rewrite E2. apply fd_zero in E4 as [-> Z0].
      eexists. split; [finish Ho Hn|]. split; [exact Z0|]. finish Ho Hn.
    - split; [finish Ho Hn|]. split; [apply (R _ Hn); get|]. left. unfold dmem in E0. revert E0. get.
      destruct (dget (lit "servo.max_power_W") d) eqn:G; [discriminate|]. intros _.
      split; [apply (sees_gone _ _ _ Ho)|apply (sees_gone _ _ _ Hn)]; each; exact G.
  Qed.

  (** *** 0x0105: five stages, each with the settings it is about *)
  Definition port_keys : list string :=
    ["aux2.i2c.i2c_hz"; "aux2.i2c.i2c_mode"; "servo.rezero_from_abs"]%string ++ abs_device ++ abs_source.
  Definition encoder_keys : list string :=
    ["encoder.mode"; "aux1.spi.mode"; "aux1.pins.0.mode"; "aux1.pins.1.mode"; "aux1.pins.2.mode";
     "aux1.pins.3.mode"]%string.
  Definition offset_keys : list string :=
    ["motor.position_offset"; "motor.unwrapped_position_scale"; "motor.invert"; "motor_position.output.offset";
     "motor_position.sources.0.sign"; "motor_position.rotor_to_output_ratio"]%string.
  Definition filter_keys : list string :=
    ["servo.velocity_filter_length"; "servo.encoder_filter.kp"; "servo.encoder_filter.ki";
     "servo.encoder_filter.enabled"; "servo.encoder_filter.debug_override";
     "motor_position.sources.0.pll_filter_hz"; "motor_position.sources.0.debug_override"]%string.
  Definition rate_keys : list string := ["servo.pwm_rate_hz"]%string.
  Definition of_port (k : list Z) : bool := startswith (lit "abs_port.") k || among port_keys k.

  Ltac split_among Hk :=
    unfold among in Hk; cbn [existsb app port_keys abs_device abs_source encoder_keys offset_keys filter_keys rate_keys] in Hk;
    repeat (let H := fresh "K" in apply orb_false_elim in Hk as [H Hk]).
  Ltac miss :=
    repeat first [rewrite dget_dset | rewrite dget_ddel];
    repeat match goal with H : bytes_eqb ?k ?x = false |- context [bytes_eqb ?k ?x] => rewrite H end;
    try reflexivity.

  Lemma encoder_frame d d' k : up_encoder_mode d = Ok d' -> among encoder_keys k = false -> dget k d' = dget k d.
  Proof.
    intros H Hk. split_among Hk. unfold up_encoder_mode in H. cbv zeta in H. unbind H; try reflexivity.
    apply pop_inv in H as [_ ->]. destruct (negb _); miss.
  Qed.
  Lemma offset_frame d d' k : up_offset pf fs d = Ok d' -> among offset_keys k = false -> dget k d' = dget k d.
  Proof. intros H Hk. split_among Hk. unfold up_offset in H. cbv zeta in H. unbind H; miss. Qed.
  Lemma filter_frame d d' k : up_filters pf fs d = Ok d' -> among filter_keys k = false -> dget k d' = dget k d.
  Proof.
    intros H Hk. split_among Hk. unfold up_filters in H. cbv zeta in H.
    set (e := if dmem (lit "servo.velocity_filter_length") d then _ else d) in H.
    assert (He : dget k e = dget k d) by (subst e; destruct (dmem _ d); miss).
    clearbody e. rewrite <- He. unbind H; miss.
  Qed.
  Lemma rate_frame d d' k : up_pwm_rate d = Ok d' -> among rate_keys k = false -> dget k d' = dget k d.
  Proof. intros H Hk. split_among Hk. unfold up_pwm_rate in H. unbind H; miss. Qed.

  Ltac copies H := repeat match goal with
    | E : copy _ _ _ = Ok _ |- _ => let v := fresh "v" in let G := fresh "G" in apply copy_inv in E as (v & G & ->)
    | E : Ok _ = Ok _ |- _ => apply Ok_inj in E; subst
    end.

  Lemma port_frame d d' k : up_abs_port pf d = Ok d' -> of_port k = false -> dget k d' = dget k d.
  Proof.
    intros H Hk. unfold of_port in Hk. apply orb_false_elim in Hk as [Hp Hk]. split_among Hk.
    unfold up_abs_port in H. cbv zeta in H.
    destruct (dmem _ d); [|unbind H; reflexivity].
    destruct (copy (lit "aux2.i2c.i2c_hz") _ _) as [d1|] eqn:E1; cbn [bind] in H; [|discriminate].
    destruct (copy (lit "aux2.i2c.i2c_mode") _ _) as [d2|] eqn:E2; cbn [bind] in H; [|discriminate].
    destruct (itemi _ d2) as [mode|] eqn:E3; cbn [bind] in H; [|discriminate].
    match type of H with bind ?x _ = _ => destruct x as [d3|] eqn:E4; cbn [bind] in H; [|discriminate] end.
    destruct (geti _ _ d3) as [rezero|] eqn:E5; cbn [bind] in H; [|discriminate].
    match type of H with bind ?x _ = _ => destruct x as [d4|] eqn:E6; cbn [bind] in H; [|discriminate] end.
    apply pop_inv in H as [_ ->]. rewrite dget_ddel, dget_drop. cbn [existsb]. rewrite Hp. cbn [orb].
    replace (bytes_eqb k (lit "servo.rezero_from_abs")) with false by auto.
    apply copy_inv in E1 as (v1 & _ & ->). apply copy_inv in E2 as (v2 & _ & ->).
    transitivity (dget k d3).
    - unbind E6; copies tt; repeat match goal with |- context [if ?b then dset _ _ _ else _] => destruct b end; miss.
    - unbind E4; copies tt; miss.
  Qed.

  Lemma stage_encoder o n d e e' d' : sees o d -> sees n d' ->
    (forall k, among encoder_keys k = true -> dget k e = dget k d) ->
    (forall k, among encoder_keys k = true -> dget k d' = dget k e') ->
    up_encoder_mode e = Ok e' -> encoder_moves o n.
  Proof.
    intros Ho Hn Hin Hout H. unfold up_encoder_mode in H. cbv zeta in H.
    unbind H.
    - apply pop_inv in H as [_ ->].
      split; [destruct (negb (a =? 0)); fin Ho Hn Hin Hout|].
      exists a. split; [fin Ho Hn Hin Hout|]. unfold when.
      destruct (negb (a =? 0)); cbn [map fst]; fin Ho Hn Hin Hout.
    - unfold dmem in E. destruct (dget (lit "encoder.mode") e) eqn:G; [discriminate|].
      split; [fin Ho Hn Hin Hout|]. exists 0.
      rewrite Hin in G by (vm_compute; reflexivity). apply sees_missing with (1 := Ho) in G.
      split; [right; auto|].
      cbn [when negb Z.eqb map fst]. fin Ho Hn Hin Hout.
  Qed.

  Lemma stage_offset o n d e e' d' : sees o d -> sees n d' ->
    (forall k, among offset_keys k = true -> dget k e = dget k d) ->
    (forall k, among offset_keys k = true -> dget k d' = dget k e') ->
    up_offset pf fs e = Ok e' -> offset_moves pf fs o n.
  Proof.
    intros Ho Hn Hin Hout H. unfold up_offset in H. cbv zeta in H. unbind H.
    split; [fin Ho Hn Hin Hout|].
    apply fd_zero in E1 as [-> _]. apply item_kept in E3. revert E3. get. intros E3.
    split; [|split].
    - exists a3. split; [apply Ho; rewrite <- Hin by (vm_compute; reflexivity); exact E3|].
      fin Ho Hn Hin Hout.
    - exists a, a0. split; [fin Ho Hn Hin Hout|].
      split; [fin Ho Hn Hin Hout|]. fin Ho Hn Hin Hout.
    - exists a2. split; [fin Ho Hn Hin Hout|].
      destruct (a2 =? 0); fin Ho Hn Hin Hout.
  Qed.

  Lemma stage_rate o n d e e' d' : sees o d -> sees n d' ->
    (forall k, among rate_keys k = true -> dget k e = dget k d) ->
    (forall k, among rate_keys k = true -> dget k d' = dget k e') ->
    up_pwm_rate e = Ok e' -> pwm_rate_drops o n.
  Proof.
    intros Ho Hn Hin Hout H. unfold up_pwm_rate in H.
    destruct (dmem _ e) eqn:Ed.
    - destruct (itemi _ e) as [r|] eqn:E; [|discriminate]. cbn [bind] in H. exists r.
      split; [left; fin Ho Hn Hin Hout|].
      unfold when. destruct (r =? 40000); unbind H; cbn [map fst]; fin Ho Hn Hin Hout.
    - exists 0. unbind H. split; [right; split; [|reflexivity]; eapply dmem_missing; [exact Ho|apply Hin; reflexivity|exact Ed]|].
      cbn [when map fst Z.eqb]. fin Ho Hn Hin Hout.
  Qed.

  Lemma stage_filter o n d e e' d' : sees o d -> sees n d' ->
    (forall k, among filter_keys k = true -> dget k e = dget k d) ->
    (forall k, among filter_keys k = true -> dget k d' = dget k e') ->
    up_filters pf fs e = Ok e' -> filters_move pf fs fpi o n.
  Proof.
    intros Ho Hn Hin Hout H. unfold up_filters in H. cbv zeta in H.
    set (f := if dmem (lit "servo.velocity_filter_length") e then _ else e) in H.
    assert (Hf : forall k, bytes_eqb k (lit "servo.velocity_filter_length") = false -> dget k f = dget k e).
    { intros k Hk. subst f. destruct (dmem _ e); [|reflexivity]. now rewrite dget_ddel, Hk. }
    assert (Hf' : dget (lit "servo.velocity_filter_length") f = None).
    { subst f. destruct (dmem _ e) eqn:E; [now rewrite dget_ddel, beq_refl|].
      unfold dmem in E. destruct (dget _ e); [discriminate|reflexivity]. }
    clearbody f.
    destruct (dmem (lit "servo.encoder_filter.kp") f) eqn:Ed.
    - unbind H; (split; [fin Ho Hn Hin Hout|]; right; exists a, a1;
        match goal with E : itemi (lit "servo.encoder_filter.debug_override") _ = Ok ?x |- _ => exists x end;
        split; [fin2 Hf Ho Hn Hin Hout|];
        split; [fin2 Hf Ho Hn Hin Hout|];
        split; [fin2 Hf Ho Hn Hin Hout|];
        split; [fin Ho Hn Hin Hout|]).
      all: match goal with |- setting _ _ ?v /\ _ => assert (Hp : a2 = v) end;
        [destruct (a1 =? 0); [now apply Ok_inj in E2|];
         destruct (float_div a _) as [w|] eqn:W; cbn [bind] in E2; [|discriminate];
         destruct (float_div w _) as [w'|] eqn:W'; cbn [bind] in E2; [|discriminate];
         apply fd_zero in W as [-> _]; apply fd_zero in W' as [-> _]; now apply Ok_inj in E2|].
      all: rewrite <- Hp; split; [fin Ho Hn Hin Hout|].
      + replace (a3 <? 0) with false by lia. exists (int_str a3). split; [fin Ho Hn Hin Hout|apply int_str_text].
      + replace (a3 <? 0) with true by lia. fin2 Hf Ho Hn Hin Hout.
    - unbind H. assert (Hkp : dget (lit "servo.encoder_filter.kp") f = None).
      { unfold dmem in Ed. now destruct (dget _ f). }
      split; [fin Ho Hn Hin Hout|]. left. rewrite Hf in Hkp by (vm_compute; reflexivity).
      rewrite Hin in Hkp by (vm_compute; reflexivity).
      split; [exact (sees_missing _ _ _ Ho Hkp)|]. fin2 Hf Ho Hn Hin Hout.
  Qed.

  Lemma port_prefix rest : of_port (lit "abs_port." ++ rest) = true.
  Proof. reflexivity. Qed.

  Lemma stage_port o n d e' d' : sees o d -> sees n d' ->
    (forall k, of_port k = true -> dget k d' = dget k e') ->
    up_abs_port pf d = Ok e' -> port_moves pf o n.
  Proof.
    intros Ho Hn Hout H.
    assert (Hin : forall k, of_port k = true -> dget k d = dget k d) by reflexivity.
    unfold up_abs_port in H. cbv zeta in H.
    destruct (dmem _ d) eqn:Ed.
    2:{ unbind H. right. split; [eapply dmem_missing; [exact Ho|reflexivity|exact Ed]|].
        split; [unfold abs_device, abs_source; cbn [app]; fin Ho Hn Hin Hout|].
        intros rest v. rewrite (Hn _ v), (Ho _ v), Hout by apply port_prefix. reflexivity. }
    left. split; [eapply dmem_has; [exact Ho|reflexivity|exact Ed]|].
    destruct (copy (lit "aux2.i2c.i2c_hz") _ _) as [d1|] eqn:E1; cbn [bind] in H; [|discriminate].
    destruct (copy (lit "aux2.i2c.i2c_mode") _ _) as [d2|] eqn:E2; cbn [bind] in H; [|discriminate].
    destruct (itemi _ d2) as [mode|] eqn:E3; cbn [bind] in H; [|discriminate].
    match type of H with bind ?x _ = _ => destruct x as [d3|] eqn:E4; cbn [bind] in H; [|discriminate] end.
    destruct (geti _ _ d3) as [rezero|] eqn:E5; cbn [bind] in H; [|discriminate].
    match type of H with bind ?x _ = _ => destruct x as [d4|] eqn:E6; cbn [bind] in H; [|discriminate] end.
    apply pop_inv in H as [Hr ->].
    apply copy_inv in E1 as (v1 & G1 & ->). apply copy_inv in E2 as (v2 & G2 & ->). revert G2. get. intros G2.
    set (hz := ["aux2.i2c.i2c_hz"; "aux2.i2c.i2c_mode"]%string).
    assert (D3 : forall k, among abs_device k = false -> among hz k = false -> dget k d3 = dget k d).
    { intros k Hk Hk'. unfold among in Hk, Hk'. cbn [existsb abs_device hz] in Hk, Hk'.
      repeat (let K := fresh "K" in apply orb_false_elim in Hk as [K Hk]).
      repeat (let K := fresh "K" in apply orb_false_elim in Hk' as [K Hk']).
      unbind E4; copies tt; miss. }
    assert (D4 : forall k, among abs_source k = false -> dget k d4 = dget k d3).
    { intros k Hk. unfold among in Hk. cbn [existsb abs_source] in Hk.
      repeat (let K := fresh "K" in apply orb_false_elim in Hk as [K Hk]).
      unbind E6; copies tt; repeat match goal with |- context [if ?b then dset _ _ _ else _] => destruct b end; miss. }
    assert (D' : forall k, of_port k && negb (startswith (lit "abs_port.") k) &&
      negb (bytes_eqb k (lit "servo.rezero_from_abs")) = true -> dget k d' = dget k d4).
    { intros k Hk. apply andb_prop in Hk as [Hk K2]. apply andb_prop in Hk as [K0 K1].
      apply negb_true_iff in K1, K2. rewrite Hout by exact K0. rewrite dget_ddel, K2, dget_drop. cbn [existsb].
      now rewrite K1. }
    assert (OutD : forall k, among (hz ++ abs_device) k = true -> dget k d' = dget k d3).
    { intros k Hk.
      assert (A : of_port k && negb (startswith (lit "abs_port.") k) &&
        negb (bytes_eqb k (lit "servo.rezero_from_abs")) && negb (among abs_source k) = true)
        by (revert k Hk; apply among_all; vm_compute; reflexivity).
      apply andb_prop in A as [A B]. rewrite D' by exact A. apply D4. now apply negb_true_iff. }
    assert (OutS : forall k, among abs_source k = true -> dget k d' = dget k d4).
    { intros k Hk. apply D'. revert k Hk. apply among_all. vm_compute. reflexivity. }
    assert (InS : forall k, negb (among abs_device k) && negb (among hz k) = true -> dget k d3 = dget k d).
    { intros k Hk. apply andb_prop in Hk as [K0 K1]. apply negb_true_iff in K0, K1. now apply D3. }
    clear D3 D4 D'.
    assert (W : forall v1 k, among hz k = true -> dget k d3 = Some v1 -> setting n k v1).
    { intros v k Hk Hv. apply Hn. rewrite OutD; [exact Hv|]. unfold among in *. rewrite existsb_app, Hk. reflexivity. }
    split; [exists v1; split; [apply Ho; exact G1|apply W; [reflexivity|]; unbind E4; copies tt; get]|].
    split; [exists v2; split; [apply Ho; exact G2|apply W; [reflexivity|]; unbind E4; copies tt; get]|].
    split; [apply (sees_gone _ _ _ Hn); intros k [<-|[]]; rewrite Hout by (vm_compute; reflexivity); now rewrite dget_ddel, beq_refl|].
    split.
    { intros rest. refine (sees_missing _ _ _ Hn _). rewrite Hout by apply port_prefix.
      rewrite dget_ddel, dget_drop. destruct (bytes_eqb _ _); [reflexivity|].
      replace (existsb _ _) with true; [reflexivity|]. cbn [existsb]. symmetry. apply orb_true_intro. left.
      apply startswith_spec. eauto. }
    exists mode, rezero. split; [fin Ho Hn Hin Hout|]. split.
    { unfold geti in E5. rewrite InS in E5 by (vm_compute; reflexivity).
      destruct (dget (lit "servo.rezero_from_abs") d) as [v|] eqn:Ev.
      - exists v. split; [now apply Ho|now apply C33_int].
      - exfalso. assert (M : missing o (lit "servo.rezero_from_abs")) by exact (sees_missing _ _ _ Ho Ev).
        unfold dmem in Hr. rewrite dget_drop in Hr. change (existsb _ _) with false in Hr. cbv iota in Hr.
        apply Ok_inj in E5. subst rezero. cbn [Z.eqb negb] in E6. apply Ok_inj in E6. subst d4.
        rewrite InS in Hr by (vm_compute; reflexivity). rewrite Ev in Hr. discriminate. }
    split.
    - destruct (mode =? 0) eqn:Em; cbn [negb] in E4; unbind E4; copies tt.
      + fin Ho Hn Hin OutD.
      + revert G G0 G3. get. intros G G0 G3.
        split; [eexists; split; [apply Ho; first [exact G|exact G0|exact G3]|fin Ho Hn Hin OutD]|].
        split; [eexists; split; [apply Ho; first [exact G|exact G0|exact G3]|fin Ho Hn Hin OutD]|].
        split; [eexists; split; [apply Ho; first [exact G|exact G0|exact G3]|fin Ho Hn Hin OutD]|].
        fin Ho Hn Hin OutD.
    - destruct (rezero =? 0) eqn:Er; cbn [negb] in E6; unbind E6; copies tt.
      + fin Ho Hn InS OutS.
      + revert G. get. rewrite InS by (vm_compute; reflexivity). intros G.
        assert (a0 = mode) as ->.
        { match goal with E : itemi (lit "abs_port.mode") _ = Ok a0 |- _ => rename E into Ea end.
          unfold itemi, item in E3, Ea. revert E3 Ea. get. rewrite InS by (vm_compute; reflexivity).
          destruct (dget (lit "abs_port.mode") d); cbn [bind]; congruence. }
        clear E4 E5 Hr.
        destruct (feqb a1 (fneg fone)) eqn:Es; destruct (mode =? 1);
          (split; [eexists; split; [apply Ho; exact G|fin Ho Hn InS OutS]|];
           split; [fin Ho Hn InS OutS|];
           exists a1; split; [fin Ho Hn InS OutS|];
           change (float_of_Z (-1)) with (fneg fone); rewrite Es; cbn [when map fst]; fin Ho Hn InS OutS).
  Qed.

  Lemma of_port_others k : among (encoder_keys ++ offset_keys ++ filter_keys ++ rate_keys) k = true -> of_port k = false.
  Proof.
    intros Hk. apply negb_true_iff. revert k Hk. apply (among_all _ (fun k => negb (of_port k))). vm_compute. reflexivity.
  Qed.

  Lemma others_of_port k : of_port k = true ->
    among (encoder_keys ++ offset_keys ++ filter_keys ++ rate_keys) k = false.
  Proof. intros H. destruct (among _ k) eqn:E; [|reflexivity]. apply of_port_others in E. congruence. Qed.

  Lemma among_app l l' k : among (l ++ l') k = among l k || among l' k.
  Proof. apply existsb_app. Qed.

  Lemma step_to_0105 o n d d' : sees o d -> sees n d' -> Config_Model.up_0105 pf fs d = Ok d' -> to_0105 pf fs fpi o n.
  Proof.
    intros Ho Hn H. unfold Config_Model.up_0105 in H.
    destruct (up_abs_port pf d) as [d1|] eqn:E1; cbn [bind] in H; [|discriminate].
    destruct (up_encoder_mode d1) as [d2|] eqn:E2; cbn [bind] in H; [|discriminate].
    destruct (up_offset pf fs d2) as [d3|] eqn:E3; cbn [bind] in H; [|discriminate].
    destruct (up_filters pf fs d3) as [d4|] eqn:E4; cbn [bind] in H; [|discriminate].
    pose proof (fun k => port_frame _ _ k E1) as F1. pose proof (fun k => encoder_frame _ _ k E2) as F2.
    pose proof (fun k => offset_frame _ _ k E3) as F3. pose proof (fun k => filter_frame _ _ k E4) as F4.
    pose proof (fun k => rate_frame _ _ k H) as F5.
    split; [|split; [|split; [|split]]].
    - apply (stage_port o n d d1 d' Ho Hn); [|exact E1]. intros k Hk. apply others_of_port in Hk.
      rewrite !among_app in Hk.
      apply orb_false_elim in Hk as [A1 Hk]. apply orb_false_elim in Hk as [A2 Hk]. apply orb_false_elim in Hk as [A3 A4].
      rewrite F5, F4, F3, F2 by assumption. reflexivity.
    - apply (stage_encoder o n d d1 d2 d' Ho Hn); [| |exact E2].
      + intros k Hk. apply F1. apply of_port_others. now rewrite !among_app, Hk.
      + intros k Hk. rewrite F5, F4, F3; [reflexivity|..];
          apply negb_true_iff; revert k Hk;
          match goal with |- forall k, _ -> negb (among ?l k) = true => apply (among_all _ (fun k => negb (among l k))) end;
          vm_compute; reflexivity.
    - apply (stage_offset o n d d2 d3 d' Ho Hn); [| |exact E3].
      + intros k Hk. rewrite F2; [apply F1; apply of_port_others; now rewrite !among_app, Hk, orb_true_r|].
        apply negb_true_iff; revert k Hk. apply (among_all _ (fun k => negb (among encoder_keys k))). vm_compute; reflexivity.
      + intros k Hk. rewrite F5, F4; [reflexivity|..];
          apply negb_true_iff; revert k Hk;
          match goal with |- forall k, _ -> negb (among ?l k) = true => apply (among_all _ (fun k => negb (among l k))) end;
          vm_compute; reflexivity.
    - apply (stage_filter o n d d3 d4 d' Ho Hn); [| |exact E4].
      + intros k Hk. rewrite F3, F2; [apply F1; apply of_port_others; now rewrite !among_app, Hk, !orb_true_r|..];
          apply negb_true_iff; revert k Hk;
          match goal with |- forall k, _ -> negb (among ?l k) = true => apply (among_all _ (fun k => negb (among l k))) end;
          vm_compute; reflexivity.
      + intros k Hk. rewrite F5; [reflexivity|..];
          apply negb_true_iff; revert k Hk;
          match goal with |- forall k, _ -> negb (among ?l k) = true => apply (among_all _ (fun k => negb (among l k))) end;
          vm_compute; reflexivity.
    - apply (stage_rate o n d d4 d' d' Ho Hn); [| |exact H].
      + intros k Hk. rewrite F4, F3, F2; [apply F1; apply of_port_others; now rewrite !among_app, Hk, !orb_true_r|..];
          apply negb_true_iff; revert k Hk;
          match goal with |- forall k, _ -> negb (among ?l k) = true => apply (among_all _ (fun k => negb (among l k))) end;
          vm_compute; reflexivity.
      + reflexivity.
  Qed.
End Steps.
