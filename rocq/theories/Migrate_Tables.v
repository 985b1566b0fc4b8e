(** Proofs for C57, continued: the polling periods, the encoder settings
    of a downgrade, and the tables of 0x0109. *)
From Coq Require Import Ascii String ZArith List Bool Lia Floats.SpecFloat.
From Coq Require Import ZifyBool ZifyNat.
From Verif Require Import PyBase PyBytes PyFloat Calib_Model Tool_Model Config_Model Config_Spec Config_Proofs
  Props_Tool Props_Config Migrate_Spec Migrate_Proofs.
Import ListNotations.
Open Scope Z_scope.

(** *** The polling periods *)

Lemma up_keeps us ms l d d' : In (us, ms) i2c_pairs ->
  (forall p, In p l -> In p i2c_devices /\ poll_rate_us_key (fst p) (snd p) <> lit us) ->
  for_each l (fun p d =>
    let us_key := poll_rate_us_key (fst p) (snd p) in
    let ms_key := poll_ms_key (fst p) (snd p) in
    if negb (dmem us_key d) then Ok d
    else
      let* ms := item ms_key d in
      let d := ddel ms_key d in
      let* n := int10 ms in
      Ok (dset us_key (int_str (n * 1000)) d)) d = Ok d' ->
  dget (lit us) d' = dget (lit us) d /\ dget (lit ms) d' = dget (lit ms) d.
Proof.
  intros Hi Hl H.
  apply (for_each_P (fun e => dget (lit us) e = dget (lit us) d /\ dget (lit ms) e = dget (lit ms) d)
           l _) with (2 := H); [|auto].
  intros p e e' Hp He [A B]. destruct (Hl p Hp) as [Hp1 Hp2]. cbv zeta in He.
  destruct (negb _); [apply Ok_inj in He; subst; auto|].
  unbind He. destruct (poll_keys p us ms Hp1 Hi) as [[C _]|(C1 & C2 & C3 & C4)]; [contradiction|].
  rewrite !dget_dset, !dget_ddel.
  destruct (beq_spec (lit us) (poll_rate_us_key (fst p) (snd p))) as [|_]; [contradiction|].
  destruct (beq_spec (lit us) (poll_ms_key (fst p) (snd p))) as [|_]; [contradiction|].
  destruct (beq_spec (lit ms) (poll_rate_us_key (fst p) (snd p))) as [|_]; [contradiction|].
  destruct (beq_spec (lit ms) (poll_ms_key (fst p) (snd p))) as [|_]; [contradiction|]. auto.
Qed.

Lemma pair_differ us ms : In (us, ms) i2c_pairs -> lit us <> lit ms.
Proof.
  intros Hi C. repeat (destruct Hi as [Hi|Hi]; [injection Hi as <- <-; vm_compute in C; discriminate|]). destruct Hi.
Qed.

Lemma step_to_0106 o n d d' : sees o d -> sees n d' -> up_0106 d = Ok d' -> to_0106 o n.
Proof.
  intros Ho Hn H us ms Hi. destruct (i2c_split us ms Hi) as (l1 & p & l2 & E & E1 & E2 & Hne).
  assert (Hin : forall q, In q i2c_devices <-> In q l1 \/ q = p \/ In q l2).
  { intros q. rewrite E, in_app_iff. cbn. intuition. }
  pose proof (pair_differ us ms Hi) as Hd.
  unfold up_0106 in H. rewrite E, for_each_app in H.
  destruct (for_each l1 _ d) as [d1|] eqn:H1; [|discriminate]. cbn [bind for_each] in H. cbv zeta in H.
  apply (up_keeps us ms) in H1; [|exact Hi|].
  2:{ intros q Hq. split; [apply Hin; auto|apply Hne; rewrite in_app_iff; auto]. }
  destruct H1 as [H1a H1b]. rewrite E1, E2 in H.
  destruct (dmem (lit us) d1) eqn:Em; cbn [negb bind] in H; unfold dmem in Em; rewrite H1a in Em.
  - destruct (dget (lit us) d) as [w|] eqn:Ew; [|discriminate]. right.
    destruct (item (lit ms) d1) as [v|] eqn:Ev; cbn [bind] in H; [|discriminate].
    destruct (int10 v) as [z|] eqn:Ez; cbn [bind] in H; [|discriminate].
    apply item_kept in Ev. rewrite H1b in Ev.
    apply (up_keeps us ms) in H; [|exact Hi|].
    2:{ intros q Hq. split; [apply Hin; auto|apply Hne; rewrite in_app_iff; auto]. }
    destruct H as [A B]. rewrite dget_dset, ?dget_ddel in A, B. rewrite beq_refl in A, B.
    destruct (beq_spec (lit ms) (lit us)) as [C|_]; [congruence|].
    split; [exists w; now apply Ho|]. split.
    + intros k [<-|[]]. exact (sees_missing _ _ _ Hn B).
    + exists z. split; [exists v; split; [now apply Ho|now apply C33_int]|].
      exists (int_str (z * 1000)). split; [now apply Hn|apply int_str_text].
  - destruct (dget (lit us) d) as [w|] eqn:Ew; [discriminate|]. left.
    apply (up_keeps us ms) in H; [|exact Hi|].
    2:{ intros q Hq. split; [apply Hin; auto|apply Hne; rewrite in_app_iff; auto]. }
    destruct H as [A B]. split; [exact (sees_missing _ _ _ Ho Ew)|].
    apply (sees_same _ _ _ _ _ Ho Hn). intros k [<-|[<-|[]]]; congruence.
Qed.

Lemma step_from_0106 o n d d' : sees o d -> sees n d' -> down_0106 d = Ok d' -> from_0106 o n.
Proof.
  intros Ho Hn H us ms Hi. destruct (i2c_split us ms Hi) as (l1 & p & l2 & E & E1 & E2 & Hne).
  assert (Hin : forall q, In q i2c_devices <-> In q l1 \/ q = p \/ In q l2).
  { intros q. rewrite E, in_app_iff. cbn. intuition. }
  pose proof (pair_differ us ms Hi) as Hd.
  unfold down_0106 in H. rewrite E, for_each_app in H.
  destruct (for_each l1 _ d) as [d1|] eqn:H1; [|discriminate]. cbn [bind for_each] in H. cbv zeta in H.
  apply (poll_down_keeps us ms) in H1; [|exact Hi|].
  2:{ intros q Hq. split; [apply Hin; auto|apply Hne; rewrite in_app_iff; auto]. }
  destruct H1 as [H1a H1b]. rewrite E1, E2 in H.
  destruct (item (lit us) d1) as [v|] eqn:Ev; cbn [bind] in H; [|discriminate].
  destruct (int10 v) as [z|] eqn:Ez; cbn [bind] in H; [|discriminate].
  apply item_kept in Ev. rewrite H1a in Ev.
  apply (poll_down_keeps us ms) in H; [|exact Hi|].
  2:{ intros q Hq. split; [apply Hin; auto|apply Hne; rewrite in_app_iff; auto]. }
  destruct H as [A B]. rewrite dget_dset, ?dget_ddel in A, B. rewrite beq_refl in A, B.
  destruct (beq_spec (lit us) (lit ms)) as [C|_]; [congruence|].
  split.
  - intros k [<-|[]]. exact (sees_missing _ _ _ Hn A).
  - exists z. split; [exists v; split; [now apply Ho|now apply C33_int]|].
    eexists. split; [apply Hn; exact B|apply int_str_text].
Qed.

(** *** The encoder settings of a downgrade *)

Lemma or_res_true a b : or_res a b = Ok true -> a = Ok true \/ a = Ok false /\ b = Ok true.
Proof. unfold or_res. destruct a as [[|]|]; cbn [bind]; auto; discriminate. Qed.
Lemma or_res_false a b : or_res a b = Ok false -> a = Ok false /\ b = Ok false.
Proof. unfold or_res. destruct a as [[|]|]; cbn [bind]; auto; discriminate. Qed.

Section From5.
  Variable pf : list Z -> res float.
  Variables (o : list Z) (d : items).
  Hypothesis Ho : sees o d.

  Lemma neqi_true k z : (let* v := itemi (lit k) d in Ok (negb (v =? z))) = Ok true -> ~ whole o (lit k) z.
  Proof.
    destruct (itemi (lit k) d) as [v|] eqn:E; cbn [bind]; [|discriminate]. intros H (w & Hw & Hz).
    apply Ho in Hw. unfold itemi, item in E. rewrite Hw in E. cbn [bind] in E. apply C33_int in Hz.
    rewrite Hz in E. apply Ok_inj in E. subst v. apply Ok_inj in H. rewrite Z.eqb_refl in H. discriminate.
  Qed.
  Lemma neqi_false k z : (let* v := itemi (lit k) d in Ok (negb (v =? z))) = Ok false -> whole o (lit k) z.
  Proof.
    destruct (itemi (lit k) d) as [v|] eqn:E; cbn [bind]; [|discriminate]. intros H.
    apply Ok_inj in H. apply negb_false_iff, Z.eqb_eq in H as ->. eapply itemi_whole; [exact Ho|reflexivity|exact E].
  Qed.

  Lemma step_from_0105 n d' : sees n d' -> down_0105 pf d = Ok d' -> from_0105 pf o n.
  Proof.
    intros Hn H. unfold down_0105 in H. cbv zeta in H.
    destruct (or_res _ _) as [u|] eqn:Eu; cbn [bind] in H; [|discriminate].
    match type of H with bind ?x _ = _ => destruct x as [e|] eqn:Ee; cbn [bind] in H; [|discriminate] end.
    apply Ok_inj in H. subst d'.
    split.
    { intros k Hk. refine (sees_missing _ _ _ Hn _). rewrite dget_drop.
      replace (existsb _ _) with true; [reflexivity|]. symmetry. apply existsb_exists.
      apply Exists_exists in Hk as (g & Hg & Hk). apply in_map_iff in Hg as (s & <- & Hs).
      exists (lit s). split; [|apply startswith_spec; exact Hk]. unfold encoder_prefixes.
      change [lit "motor_position."; lit "aux1."; lit "aux2."; lit "icpz1."; lit "icpz2.";
        lit "motor.cogging_dq"; lit "servo.current_feedforward"] with
        (map lit ["motor_position."; "aux1."; "aux2."; "icpz1."; "icpz2."; "motor.cogging_dq";
           "servo.current_feedforward"]%string). now apply in_map. }
    destruct u.
    - left. apply Ok_inj in Ee. subst e. split; [|finish Ho Hn].
      intros (W1 & W2 & W3 & W4 & W5 & (x & Wx & Wx0) & W7).
      do 5 (apply or_res_true in Eu as [Eu|[_ Eu]]; [now apply neqi_true in Eu|]).
      apply or_res_true in Eu as [Eu|[_ Eu]]; [|now apply neqi_true in Eu].
      destruct (itemf _ _ _) as [y|] eqn:E; cbn [bind] in Eu; [|discriminate].
      apply (itemf_num _ _ _ _ _ Ho eq_refl) in E. destruct E as (v & Hv & Ey), Wx as (v' & Hv' & Ex).
      apply Ho in Hv. apply Ho in Hv'. apply Ok_inj in Eu. unfold fzero in Eu.
      replace y with x in Eu by congruence. rewrite Wx0 in Eu. discriminate.
    - right. apply or_res_false in Eu as [W1 Eu]. apply or_res_false in Eu as [W2 Eu].
      apply or_res_false in Eu as [W3 Eu]. apply or_res_false in Eu as [W4 Eu].
      apply or_res_false in Eu as [W5 Eu]. apply or_res_false in Eu as [W6 W7].
      apply neqi_false in W1, W2, W3, W4, W5, W7.
      destruct (itemf pf (lit "motor_position.sources.0.offset") d) as [y|] eqn:E; cbn [bind] in W6; [|discriminate].
      apply Ok_inj, negb_false_iff in W6.
      split.
      { repeat (split; [assumption|]). split; [|assumption]. exists y. split; [finish Ho Hn|exact W6]. }
      clear W1 W2 W3 W4 W5 W6 W7 E.
      destruct (itemi _ d) as [s|] eqn:Es; cbn [bind] in Ee; [|discriminate].
      destruct (itemf pf (lit "motor_position.output.offset") _) as [a|] eqn:Ea; cbn [bind] in Ee; [|discriminate].
      destruct (itemf pf (lit "motor_position.rotor_to_output_ratio") _) as [r|] eqn:Er; cbn [bind] in Ee; [|discriminate].
      destruct (float_div a r) as [q|] eqn:Eq; cbn [bind] in Ee; [|discriminate].
      destruct (py_int _) as [z|] eqn:Ez; cbn [bind] in Ee; [|discriminate].
      destruct (item _ _) as [v|] eqn:Ev; cbn [bind] in Ee; [|discriminate]. apply Ok_inj in Ee. subst e.
      apply item_kept in Ev. revert Ev. get. intros Ev. apply fd_zero in Eq as [-> Z0].
      split; [exists v; split; [apply Ho; exact Ev|finish Ho Hn]|].
      split; [exists s; split; [finish Ho Hn|destruct (s =? -1); finish Ho Hn]|].
      exists a, r, z. split; [finish Ho Hn|]. split; [finish Ho Hn|]. split; [exact Z0|]. split; [exact Ez|].
      exists (int_str z). split; [finish Ho Hn|apply int_str_text].
  Qed.
End From5.

(** *** Lists and keys *)

Lemma nth_range a b j : (j < Z.to_nat (b - a))%nat -> nth_error (py_range a b) j = Some (a + Z.of_nat j).
Proof.
  intros H. unfold py_range. rewrite nth_error_map.
  replace (nth_error (seq 0 (Z.to_nat (b - a))) j) with (Some j); [reflexivity|].
  symmetry. rewrite (nth_error_nth' _ 0%nat) by (now rewrite seq_length). now rewrite seq_nth.
Qed.

Lemma nodup_range a b : NoDup (py_range a b).
Proof.
  unfold py_range. apply FinFun.Injective_map_NoDup; [|apply seq_NoDup]. intros x y. lia.
Qed.

Lemma digit s : 0 <= s < 3 -> int_str s = [48 + s].
Proof. intros H. assert (s = 0 \/ s = 1 \/ s = 2) as [->|[->| ->]] by lia; reflexivity. Qed.

Lemma digit_head c c' (l l' : list Z) : [48 + c] ++ l = [48 + c'] ++ l' -> c = c' /\ l = l'.
Proof.
  intros H. split; [|exact (f_equal (@tl Z) H)].
  pose proof (f_equal (hd 0) H) as E. cbn [app hd] in E. lia.
Qed.

Lemma table_inj s s' i j : 0 <= s < 3 -> 0 <= s' < 3 -> table_key s i = table_key s' j -> s = s' /\ i = j.
Proof.
  intros Hs Hs' H. unfold table_key in H. rewrite (digit s), (digit s') in H by assumption.
  apply app_inv_head in H. apply digit_head in H as [H1 H2].
  split; [exact H1|]. apply int_str_inj. now apply app_inv_head in H2.
Qed.

Lemma table_not_scale s s' i : 0 <= s < 3 -> 0 <= s' < 3 -> table_key s i <> scale_key s'.
Proof.
  intros Hs Hs' H. unfold table_key, scale_key in H. rewrite (digit s), (digit s') in H by assumption.
  apply app_inv_head in H. apply digit_head in H as [_ H2]. discriminate.
Qed.

Lemma scale_inj s s' : 0 <= s < 3 -> 0 <= s' < 3 -> scale_key s = scale_key s' -> s = s'.
Proof.
  intros Hs Hs' H. unfold scale_key in H. rewrite (digit s), (digit s') in H by assumption.
  apply app_inv_head in H. now apply digit_head in H as [H1 _].
Qed.

Lemma offset_inj i j : offset_key i = offset_key j -> i = j.
Proof. unfold offset_key. intros H. apply app_inv_head in H. now apply int_str_inj. Qed.

(** A loop that sets one key per turn, with values that do not depend on
    the dict. *)
Lemma sets_spec {X} (K : Z -> list Z) (g : Z -> res X) (sh : X -> list Z) : (forall i j, K i = K j -> i = j) ->
  forall l d d', for_each l (fun i d => let* x := g i in Ok (dset (K i) (sh x) d)) d = Ok d' ->
  (forall i, In i l -> exists x, g i = Ok x /\ dget (K i) d' = Some (sh x)) /\
  (forall k, (forall i, In i l -> k <> K i) -> dget k d' = dget k d).
Proof.
  intros HK. induction l as [|i l IH]; intros d d' H; cbn [for_each] in H.
  - apply Ok_inj in H. subst. split; [intros i []|auto].
  - destruct (g i) as [x|] eqn:E; cbn [bind] in H; [|discriminate]. apply IH in H as [H1 H2]. split.
    + intros j Hj. destruct (in_dec Z.eq_dec j l) as [I|I]; [auto|].
      destruct Hj as [->|Hj]; [|contradiction]. exists x. split; auto.
      rewrite H2; [now rewrite dget_dset, beq_refl|]. intros m Hm C. apply HK in C. now subst.
    + intros k Hk. rewrite H2 by (intros m Hm; apply Hk; now right). rewrite dget_dset.
      destruct (beq_spec k (K i)) as [C|]; [|reflexivity]. exfalso. apply (Hk i); [now left|exact C].
Qed.

(** *** The three sources *)

Definition own (s : Z) (k : list Z) : Prop := k = scale_key s \/ exists i, k = table_key s i.

Lemma own_apart s s' k : 0 <= s < 3 -> 0 <= s' < 3 -> s <> s' -> own s k -> ~ own s' k.
Proof.
  intros Hs Hs' Hne [->|(i & ->)] [E|(j & E)].
  - apply scale_inj in E; auto.
  - symmetry in E. now apply table_not_scale in E.
  - now apply table_not_scale in E.
  - apply table_inj in E as [E _]; auto.
Qed.

Lemma own_motor s k : 0 <= s < 3 -> own s k -> exists r, k = lit "motor_position." ++ r.
Proof. intros Hs [->|(i & ->)]; eexists; reflexivity. Qed.

Section Chain.
  Variable f : Z -> items -> res items.
  Hypothesis frame : forall s d d' k, 0 <= s < 3 -> f s d = Ok d' -> ~ own s k -> dget k d' = dget k d.

  Lemma chain d d' : for_each (py_range 0 3) f d = Ok d' ->
    (forall s, 0 <= s < 3 -> exists e e', f s e = Ok e' /\ (forall k, own s k -> dget k e = dget k d) /\
       (forall k, own s k -> dget k d' = dget k e')) /\
    (forall k, (forall s, 0 <= s < 3 -> ~ own s k) -> dget k d' = dget k d).
  Proof.
    change (py_range 0 3) with [0; 1; 2]. cbn [for_each]. intros H.
    destruct (f 0 d) as [d1|] eqn:E0; cbn [bind] in H; [|discriminate].
    destruct (f 1 d1) as [d2|] eqn:E1; cbn [bind] in H; [|discriminate].
    destruct (f 2 d2) as [d3|] eqn:E2; cbn [bind] in H; [|discriminate]. apply Ok_inj in H. subst d3.
    pose proof (fun k => frame 0 _ _ k ltac:(lia) E0) as F0.
    pose proof (fun k => frame 1 _ _ k ltac:(lia) E1) as F1.
    pose proof (fun k => frame 2 _ _ k ltac:(lia) E2) as F2.
    split.
    - intros s Hs. assert (s = 0 \/ s = 1 \/ s = 2) as [->|[->| ->]] by lia.
      + exists d, d1. split; [exact E0|]. split; [reflexivity|]. intros k Hk.
        rewrite F2, F1; [reflexivity|..]; eapply own_apart with (4 := Hk); lia.
      + exists d1, d2. split; [exact E1|]. split; intros k Hk; [apply F0|apply F2]; eapply own_apart with (4 := Hk); lia.
      + exists d2, d'. split; [exact E2|]. split; [|reflexivity]. intros k Hk.
        rewrite F1, F0; [reflexivity|..]; eapply own_apart with (4 := Hk); lia.
    - intros k Hk. rewrite F2, F1, F0; [reflexivity|..]; apply Hk; lia.
  Qed.
End Chain.

Section Tables.
  Variable pf : list Z -> res float.
  Variable fs : float -> list Z.
  Variable py_sum : list float -> float.
  Let ar := float_arith py_sum.

  Lemma take_bins_spec s scale : 0 <= s < 3 -> forall l d r, NoDup l -> take_bins pf s scale l d = Ok r ->
    List.length (fst r) = List.length l /\
    (forall j i, nth_error l j = Some i -> exists v, getf_none pf (table_key s i) d = Ok v /\
       nth_error (fst r) j = Some (fmul v scale)) /\
    (forall i, In i l -> dget (table_key s i) (snd r) = None) /\
    (forall k, (forall i, In i l -> k <> table_key s i) -> dget k (snd r) = dget k d).
  Proof.
    intros Hs. induction l as [|i l IH]; intros d r Hl H; cbn [take_bins] in H.
    - apply Ok_inj in H. subst r. cbn [fst snd]. split; [reflexivity|]. split; [intros [|j] ? [=]|].
      split; [intros i []|auto].
    - destruct (getf_none pf (table_key s i) d) as [v|] eqn:Ev; cbn [bind] in H; [|discriminate].
      destruct (take_bins pf s scale l _) as [q|] eqn:Eq; cbn [bind] in H; [|discriminate].
      apply Ok_inj in H. subst r. cbn [fst snd]. inversion Hl as [|? ? Hi Hl']. subst.
      apply IH in Eq as (L & A & B & C); [|exact Hl']. split; [cbn; congruence|]. split; [|split].
      + intros [|j] k Hk; cbn in Hk.
        * injection Hk as <-. exists v. auto.
        * destruct (A j k Hk) as (w & Hw & Hn). exists w. split; [|exact Hn].
          unfold getf_none in Hw |- *. rewrite dget_ddel in Hw.
          destruct (beq_spec (table_key s k) (table_key s i)) as [C'|]; [|exact Hw].
          apply table_inj in C' as [_ ->]; try assumption. apply nth_error_In in Hk. contradiction.
      + intros k [<-|Hk]; [|now apply B]. rewrite C; [now rewrite dget_ddel, beq_refl|].
        intros m Hm C'. apply table_inj in C' as [_ ->]; auto.
      + intros k Hk. rewrite C by (intros m Hm; apply Hk; now right). rewrite dget_ddel.
        destruct (beq_spec k (table_key s i)) as [C'|]; [|reflexivity]. exfalso. apply (Hk i); [now left|exact C'].
  Qed.

  Lemma downsample_spec s d d' : 0 <= s < 3 -> downsample pf fs s d = Ok d' ->
    (exists l scale, List.length l = 256%nat /\ getf pf (scale_key s) fzero d = Ok scale /\
      (forall i, 0 <= i < 256 -> exists x, nth_error l (Z.to_nat i) = Some x /\ getf_none pf (table_key s i) d = Ok x) /\
      (forall i, 0 <= i < 32 -> exists x, nth_error l (Z.to_nat (8 * i)) = Some x /\
         dget (table_key s i) d' = Some (fs (fmul x (fdiv scale (float_of_Z 127)))))) /\
    dget (scale_key s) d' = None /\
    (forall i, 32 <= i < 256 -> dget (table_key s i) d' = None) /\
    (forall k, k <> scale_key s -> (forall i, 0 <= i < 256 -> k <> table_key s i) -> dget k d' = dget k d).
  Proof.
    intros Hs H. unfold downsample in H. cbv zeta in H.
    destruct (getf pf (scale_key s) fzero d) as [scale|] eqn:Es; cbn [bind] in H; [|discriminate].
    destruct (float_div scale _) as [q|] eqn:Eq; cbn [bind] in H; [|discriminate]. apply fd_zero in Eq as [-> _].
    destruct (take_bins pf s _ _ _) as [r|] eqn:Er; cbn [bind] in H; [|discriminate].
    apply (take_bins_spec s _ Hs _ _ _ (nodup_range 0 256)) in Er as (L & A & B & C).
    apply (sets_spec (table_key s) (fun i => py_index (fst r) (i * 8)) fs) in H as [S1 S2].
    2:{ intros i j E. now apply table_inj in E. }
    assert (N : forall i, 0 <= i < 256 -> nth_error (py_range 0 256) (Z.to_nat i) = Some i).
    { intros i Hi. rewrite nth_range by lia. f_equal. lia. }
    assert (V : forall i, 0 <= i < 256 -> exists v, getf_none pf (table_key s i) d = Ok v /\
        nth_error (fst r) (Z.to_nat i) = Some (fmul v (fdiv scale (float_of_Z 127)))).
    { intros i Hi. destruct (A _ _ (N i Hi)) as (v & Hv & Hn). exists v. split; [|exact Hn].
      unfold getf_none in Hv |- *. rewrite dget_ddel in Hv.
      destruct (beq_spec (table_key s i) (scale_key s)) as [E|]; [now apply table_not_scale in E|exact Hv]. }
    split; [|split; [|split]].
    - assert (M : exists l, map_res (fun i => getf_none pf (table_key s i) d) (py_range 0 256) = Ok l).
      { clear -V. assert (G : forall l, (forall i, In i l -> 0 <= i < 256) ->
          exists m, map_res (fun i => getf_none pf (table_key s i) d) l = Ok m).
        { induction l as [|i l IH]; intros Hl; [now exists []|]. cbn [map_res].
          destruct (V i) as (v & -> & _); [apply Hl; now left|]. cbn [bind].
          destruct IH as (m & ->); [intros j Hj; apply Hl; now right|]. cbn [bind]. eauto. }
        apply G. intros i. now rewrite in_range. }
      destruct M as (l & M).
      assert (G : forall l m, map_res (fun i => getf_none pf (table_key s i) d) l = Ok m ->
        List.length m = List.length l /\
        forall j i, nth_error l j = Some i -> exists x, nth_error m j = Some x /\ getf_none pf (table_key s i) d = Ok x).
      { clear. induction l as [|i l IH]; intros m H; cbn [map_res] in H.
        - apply Ok_inj in H. subst. split; [reflexivity|]. intros [|j] ? [=].
        - destruct (getf_none pf (table_key s i) d) as [x|] eqn:E; cbn [bind] in H; [|discriminate].
          destruct (map_res _ l) as [ys|] eqn:Ey; cbn [bind] in H; [|discriminate]. apply Ok_inj in H. subst m.
          destruct (IH _ eq_refl) as [L H]. split; [cbn; congruence|].
          intros [|j] k Hk; cbn in Hk; [injection Hk as <-; cbn; eauto|]. cbn [nth_error]. auto. }
      apply G in M as [Lm Hm]. exists l, scale. split; [rewrite Lm; reflexivity|]. split; [reflexivity|]. split.
      + intros i Hi. exact (Hm _ _ (N i Hi)).
      + intros i Hi. destruct (S1 i) as (x & Hx & Hg); [now apply in_range|].
        destruct (V (8 * i)) as (v & Hv & Hn); [lia|]. destruct (Hm _ _ (N (8 * i) ltac:(lia))) as (y & Hy & Hy').
        exists y. split; [exact Hy|]. rewrite Hg. f_equal. f_equal. rewrite Hv in Hy'. apply Ok_inj in Hy'. subst y.
        unfold py_index in Hx. replace (i * 8 <? 0) with false in Hx by lia.
        replace (Z.to_nat (i * 8)) with (Z.to_nat (8 * i)) in Hx by (f_equal; lia). rewrite Hn in Hx.
        cbv zeta in Hx. replace (i * 8 <? 0) with false in Hx by lia. now apply Ok_inj in Hx.
    - rewrite S2, C; [now rewrite dget_ddel, beq_refl|..]; intros i Hi E; symmetry in E; now apply table_not_scale in E.
    - intros i Hi. rewrite S2; [apply B; apply in_range; lia|].
      intros j Hj E. apply in_range in Hj. apply table_inj in E as [_ ->]; try assumption. lia.
    - intros k Hk Hk'. rewrite S2 by (intros i Hi; apply in_range in Hi; apply Hk'; lia).
      rewrite C by (intros i Hi; apply in_range in Hi; apply Hk'; lia). rewrite dget_ddel.
      destruct (beq_spec k (scale_key s)); [contradiction|reflexivity].
  Qed.

  Lemma downsample_frame s d d' k : 0 <= s < 3 -> downsample pf fs s d = Ok d' -> ~ own s k -> dget k d' = dget k d.
  Proof.
    intros Hs H Hk. apply downsample_spec in H as (_ & _ & _ & H); [|exact Hs]. apply H.
    - intros ->. apply Hk. now left.
    - intros i _ ->. apply Hk. right. eauto.
  Qed.

  Lemma apart_motor k s : 0 <= s < 3 -> startswith (lit "motor_position.") k = false -> ~ own s k.
  Proof.
    intros Hs H Ho. apply own_motor in Ho as (r & ->); [|exact Hs].
    assert (C : startswith (lit "motor_position.") (lit "motor_position." ++ r) = true) by (apply startswith_spec; eauto).
    congruence.
  Qed.

  Lemma getf_eq k def d e : dget k e = dget k d -> getf pf k def e = getf pf k def d.
  Proof. unfold getf. now intros ->. Qed.
  Lemma getf_none_eq k d e : dget k e = dget k d -> getf_none pf k e = getf_none pf k d.
  Proof. unfold getf_none. now intros ->. Qed.

  Lemma step_from_0109 o n d d' : sees o d -> sees n d' -> down_0109 pf fs d = Ok d' -> from_0109 pf fs int_str o n.
  Proof.
    intros Ho Hn H. unfold down_0109 in H. cbv zeta in H.
    destruct (geti _ 0 d) as [en|] eqn:Een; cbn [bind] in H; [|discriminate].
    match type of H with bind ?x _ = _ => destruct x as [odd|] eqn:Eodd; cbn [bind] in H; [|discriminate] end.
    set (d1 := if odd then dset _ _ d else d) in H.
    destruct (pop (lit "servo.motor_thermistor_ohm") d1) as [d2|] eqn:E2; cbn [bind] in H; [|discriminate].
    destruct (pop (lit "aux1.pwm_period_us") d2) as [d3|] eqn:E3; cbn [bind] in H; [|discriminate].
    destruct (pop (lit "aux2.pwm_period_us") d3) as [d4|] eqn:E4; cbn [bind] in H; [|discriminate].
    apply pop_inv in E2 as [_ ->]. apply pop_inv in E3 as [_ ->]. apply pop_inv in E4 as [_ E4].
    assert (F : forall k, startswith (lit "motor_position.") k = false -> dget k d' = dget k d4).
    { intros k Hk. destruct (dmem (table_key 0 0) d4); [|apply Ok_inj in H; now subst].
      apply (chain _ (fun s d d' k => downsample_frame s d d' k)) in H as [_ H]. apply H. intros s Hs.
      now apply apart_motor. }
    assert (G : forall s k, 0 <= s < 3 -> own s k -> dget k d4 = dget k d).
    { intros s k Hs Hk. apply own_motor in Hk as (r & ->); [|exact Hs]. subst d4 d1. rewrite !dget_ddel.
      destruct odd; rewrite ?dget_dset; reflexivity. }
    split.
    - split.
      + apply (sees_gone _ _ _ Hn). intros k [<-|[<-|[<-|[]]]]; rewrite F by (vm_compute; reflexivity); subst d4; get.
      + exists en. split; [finish Ho Hn|]. destruct (en =? 0) eqn:Ee; cbn [negb] in Eodd.
        * apply Ok_inj in Eodd. subst odd d1 d4. apply (sees_same _ _ _ _ _ Ho Hn).
          intros k [<-|[]]. rewrite F by (vm_compute; reflexivity). get.
        * destruct (getf _ _ _ _) as [x|] eqn:Ex; cbn [bind] in Eodd; [|discriminate].
          destruct (py_int x) as [z|] eqn:Ez; cbn [bind] in Eodd; [|discriminate]. apply Ok_inj in Eodd.
          exists x, z. split; [finish Ho Hn|]. split; [exact Ez|]. unfold when. rewrite Eodd.
          subst d4 d1. destruct odd.
          -- apply (sees_are _ _ _ Hn). intros k v [[= <- <-]|[]]. rewrite F by (vm_compute; reflexivity). get.
          -- cbn [map fst]. apply (sees_same _ _ _ _ _ Ho Hn).
             intros k [<-|[]]. rewrite F by (vm_compute; reflexivity). get.
    - assert (O0 : own 0 (table_key 0 0)) by (right; eauto).
      destruct (dmem (table_key 0 0) d4) eqn:Em; unfold dmem in Em; rewrite (G 0) in Em by (lia || exact O0).
      + left. destruct (dget (table_key 0 0) d) as [v|] eqn:Ev; [|discriminate].
        split; [exists v; now apply Ho|]. intros s Hs.
        apply (chain _ (fun s d d' k => downsample_frame s d d' k)) in H as [H _].
        destruct (H s Hs) as (e & e' & He & A & B). clear H.
        apply downsample_spec in He as ((l & scale & L & Sc & V & W) & N1 & N2 & _); [|exact Hs].
        assert (Os : own s (scale_key s)) by now left.
        assert (Ot : forall i, own s (table_key s i)) by (intros i; right; eauto).
        split; [exact (sees_missing _ _ _ Hn (eq_trans (B _ Os) N1))|].
        exists l, scale. split; [exact L|]. split; [|split; [|split]].
        * intros i Hi. rewrite L in Hi. destruct (V i) as (x & Hx & Hg); [lia|]. exists x. split; [exact Hx|].
          exact (getf_none_num pf _ _ _ _ Ho (eq_trans (A _ (Ot i)) (G s _ Hs (Ot i))) _ Hg).
        * exact (getf_num pf _ _ _ _ Ho (eq_trans (A _ Os) (G s _ Hs Os)) _ _ Sc).
        * intros i Hi. exact (sees_missing _ _ _ Hn (eq_trans (B _ (Ot i)) (N2 i Hi))).
        * intros i Hi. destruct (W i Hi) as (x & Hx & Hg). exists x. split; [exact Hx|].
          apply Hn. exact (eq_trans (B _ (Ot i)) Hg).
      + right. destruct (dget (table_key 0 0) d) as [v|] eqn:Ev; [discriminate|]. apply Ok_inj in H. subst d'.
        split; [exact (sees_missing _ _ _ Ho Ev)|]. intros s Hs. split.
        * intros v. rewrite (Hn _ v), (Ho _ v). change (scale_name int_str s) with (scale_key s). rewrite (G s); [reflexivity|exact Hs|now left].
        * intros i v. rewrite (Hn _ v), (Ho _ v). change (table_name int_str s i) with (table_key s i). rewrite (G s); [reflexivity|exact Hs|right; eauto].
  Qed.

  (** *** Upsampling *)

  Lemma lerp_at i : 0 <= i < 256 ->
    float_floor (fmul (fdiv (float_of_Z i) (float_of_Z 256)) (float_of_Z 32)) = Ok (i / 8) /\
    fmul (fsub (fdiv (float_of_Z i) (float_of_Z 256)) (fdiv (float_of_Z (i / 8)) (float_of_Z 32))) (float_of_Z 32) =
      fdiv (float_of_Z (i mod 8)) (float_of_Z 8).
  Proof.
    intros Hi. apply in_range in Hi.
    assert (A : map (fun i => float_floor (fmul (fdiv (float_of_Z i) (float_of_Z 256)) (float_of_Z 32))) (py_range 0 256) =
      map (fun i => Ok (i / 8)) (py_range 0 256)) by (vm_compute; reflexivity).
    assert (B : map (fun i => fmul (fsub (fdiv (float_of_Z i) (float_of_Z 256)) (fdiv (float_of_Z (i / 8)) (float_of_Z 32))) (float_of_Z 32)) (py_range 0 256) =
      map (fun i => fdiv (float_of_Z (i mod 8)) (float_of_Z 8)) (py_range 0 256)) by (vm_compute; reflexivity).
    split; [exact (ext_in_map A i Hi)|exact (ext_in_map B i Hi)].
  Qed.

  Lemma lerp_between l i x r : List.length l = 32%nat -> 0 <= i < 256 ->
    float_div (float_of_Z i) (float_of_Z 256) = Ok r -> lerp ar l r = Ok x -> between l i x.
  Proof.
    intros L Hi Hr H. apply fd_zero in Hr as [-> _]. destruct (lerp_at i Hi) as [A B].
    unfold lerp in H. rewrite L in H. cbv zeta in H. change (Z.of_nat 32) with 32 in H.
    cbn [a_floor a_mul a_of_Z a_div a_sub a_add ar float_arith] in H. rewrite A in H. cbn [bind] in H.
    change (32 =? 0) with false in H. cbv iota in H. cbn [bind] in H.
    destruct (float_div (float_of_Z (i / 8)) (float_of_Z 32)) as [q|] eqn:Eq; cbn [bind] in H; [|discriminate].
    apply fd_zero in Eq as [-> _]. rewrite B in H. unfold py_index in H. cbv zeta in H.
    assert (0 <= i / 8 < 32) by lia. assert (0 <= (i / 8 + 1) mod 32 < 32) by (apply Z.mod_pos_bound; lia).
    replace (i / 8 <? 0) with false in H by lia. replace (i / 8 <? 0) with false in H by lia.
    destruct (nth_error l (Z.to_nat (i / 8))) as [a|] eqn:Ea; cbn [bind] in H; [|discriminate].
    replace ((i / 8 + 1) mod 32 <? 0) with false in H by lia.
    replace ((i / 8 + 1) mod 32 <? 0) with false in H by lia.
    destruct (nth_error l (Z.to_nat ((i / 8 + 1) mod 32))) as [b|] eqn:Eb; cbn [bind] in H; [|discriminate].
    apply Ok_inj in H. exists a, b. split; [exact Ea|]. split; [exact Eb|]. symmetry. exact H.
  Qed.

  Lemma ltb_trans a b c : SFltb a b = true -> SFltb b c = true -> SFltb a c = true.
  Proof.
    unfold SFltb, SFcompare. destruct a as [[|]|[|]| |[|] ma ea], b as [[|]|[|]| |[|] mb eb], c as [[|]|[|]| |[|] mc ec];
      try discriminate; try reflexivity.
    - destruct (Z.compare_spec ea eb), (Z.compare_spec eb ec), (Z.compare_spec ea ec); try discriminate; try lia; try reflexivity.
      change (Pos.compare_cont Eq ma mb) with (Pos.compare ma mb). change (Pos.compare_cont Eq mb mc) with (Pos.compare mb mc).
      change (Pos.compare_cont Eq ma mc) with (Pos.compare ma mc).
      destruct (Pos.compare_spec ma mb), (Pos.compare_spec mb mc), (Pos.compare_spec ma mc); cbn [CompOpp]; try discriminate; try reflexivity; lia.
    - destruct (Z.compare_spec ea eb), (Z.compare_spec eb ec), (Z.compare_spec ea ec); try discriminate; try lia; try reflexivity.
      change (Pos.compare_cont Eq ma mb) with (Pos.compare ma mb). change (Pos.compare_cont Eq mb mc) with (Pos.compare mb mc).
      change (Pos.compare_cont Eq ma mc) with (Pos.compare ma mc).
      destruct (Pos.compare_spec ma mb), (Pos.compare_spec mb mc), (Pos.compare_spec ma mc); try discriminate; try reflexivity; lia.
  Qed.

  Lemma ltb_irrefl a : SFltb a a = false.
  Proof.
    unfold SFltb, SFcompare. destruct a as [[|]|[|]| |[|] m e]; try reflexivity; rewrite Z.compare_refl;
      change (Pos.compare_cont Eq m m) with (Pos.compare m m); now rewrite Pos.compare_refl.
  Qed.

  Lemma fmax_spec l m : fmax l = Ok m -> In m l /\ forall x, In x l -> SFltb m x = false.
  Proof.
    unfold fmax. destruct l as [|a l]; [discriminate|]. intros H. apply Ok_inj in H.
    enough (G : forall seen a, In a seen -> (forall x, In x seen -> SFltb a x = false) ->
      let m := fold_left (fun m x => if fgtb x m then x else m) l a in
      In m (seen ++ l) /\ forall x, In x (seen ++ l) -> SFltb m x = false).
    { specialize (G [a] a (or_introl eq_refl)). cbv zeta in G. rewrite H in G. apply G.
      intros x [<-|[]]. apply ltb_irrefl. }
    clear. induction l as [|b l IH]; intros seen a Ha Hs; cbn [fold_left]; cbv zeta.
    - rewrite app_nil_r. auto.
    - replace (seen ++ b :: l) with ((seen ++ [b]) ++ l) by (now rewrite <- app_assoc).
      destruct (fgtb b a) eqn:E; unfold fgtb in E; apply IH.
      + apply in_app_iff. right. now left.
      + intros x Hx. apply in_app_iff in Hx as [Hx|[<-|[]]]; [|apply ltb_irrefl].
        destruct (SFltb b x) eqn:E'; [|reflexivity]. rewrite <- (Hs x Hx). symmetry. eapply ltb_trans; eauto.
      + apply in_app_iff. now left.
      + intros x Hx. apply in_app_iff in Hx as [Hx|[<-|[]]]; auto.
  Qed.

  Lemma map_res_spec {A B} (f : A -> res B) l m : map_res f l = Ok m -> List.length m = List.length l /\
    forall j i, nth_error l j = Some i -> exists x, nth_error m j = Some x /\ f i = Ok x.
  Proof.
    revert m. induction l as [|i l IH]; intros m H; cbn [map_res] in H.
    - apply Ok_inj in H. subst. split; [reflexivity|]. intros [|j] ? [=].
    - destruct (f i) as [x|] eqn:E; cbn [bind] in H; [|discriminate].
      destruct (map_res f l) as [ys|] eqn:Ey; cbn [bind] in H; [|discriminate]. apply Ok_inj in H. subst m.
      destruct (IH _ eq_refl) as [L H]. split; [cbn; congruence|].
      intros [|j] k Hk; cbn in Hk; [injection Hk as <-; cbn; eauto|]. cbn [nth_error]. auto.
  Qed.

  Lemma getf_decode_none k d x : getf_decode pf k d = Ok x -> getf_none pf k d = Ok x.
  Proof. unfold getf_decode, getf_none. now destruct (dget k d). Qed.

  Lemma upsample_spec s d d' : 0 <= s < 3 -> upsample pf fs py_sum s d = Ok d' ->
    (exists l scale, List.length l = 32%nat /\
      (forall i, 0 <= i < 32 -> exists x, nth_error l (Z.to_nat i) = Some x /\ getf_none pf (table_key s i) d = Ok x) /\
      In scale (map SFabs l) /\ (forall x, In x l -> fltb scale (SFabs x) = false) /\
      dget (scale_key s) d' = Some (fs scale) /\
      (forall i, 0 <= i < 256 -> exists z, dget (table_key s i) d' = Some (int_str z) /\
         if feqb scale (float_of_Z 0) then z = 0
         else exists x, between l i x /\ py_int (fdiv (fmul (float_of_Z 127) x) scale) = Ok z)) /\
    (forall k, ~ own s k -> dget k d' = dget k d).
  Proof.
    intros Hs H. unfold upsample in H.
    destruct (map_res _ _) as [l|] eqn:El; cbn [bind] in H; [|discriminate].
    apply map_res_spec in El as [L V].
    destruct (fmax _) as [scale|] eqn:Em; cbn [bind] in H; [|discriminate]. apply fmax_spec in Em as [M1 M2].
    match type of H with bind ?x _ = _ => destruct x as [e|] eqn:Ee; cbn [bind] in H; [|discriminate] end.
    apply Ok_inj in H. subst d'.
    pose (g := fun i : Z => if negb (feqb scale fzero) then
        let* r := float_div (float_of_Z i) (float_of_Z 256) in
        let* value := lerp ar l r in
        let* q := float_div (fmul (float_of_Z 127) value) scale in py_int q
      else Ok 0).
    pose proof (sets_spec (table_key s) g int_str (fun i j E => proj2 (table_inj _ _ _ _ Hs Hs E)) (py_range 0 256) d e) as S.
    destruct (S Ee) as [S1 S2]. clear S.
    split.
    - exists l, scale. split; [rewrite L; reflexivity|]. split; [|split; [|split; [|split]]].
      + intros i Hi. destruct (V (Z.to_nat i) i) as (x & Hx & Hg).
        { rewrite nth_range by lia. f_equal. lia. }
        exists x. split; [exact Hx|]. now apply getf_decode_none.
      + exact M1.
      + intros x Hx. apply M2. now apply in_map.
      + now rewrite dget_dset, beq_refl.
      + intros i Hi. destruct (S1 i) as (z & Hz & Hg); [now apply in_range|]. exists z. unfold g in Hz.
        rewrite dget_dset. destruct (beq_spec (table_key s i) (scale_key s)) as [E|_]; [now apply table_not_scale in E|].
        split; [exact Hg|]. change (float_of_Z 0) with fzero. destruct (feqb scale fzero) eqn:Es; cbn [negb] in Hz.
        * now apply Ok_inj in Hz.
        * destruct (float_div (float_of_Z i) _) as [r|] eqn:Er; cbn [bind] in Hz; [|discriminate].
          destruct (lerp _ l r) as [x|] eqn:Ex; cbn [bind] in Hz; [|discriminate].
          destruct (float_div _ scale) as [q|] eqn:Eq; cbn [bind] in Hz; [|discriminate].
          apply fd_zero in Eq as [-> _]. exists x. split; [|exact Hz].
          eapply lerp_between; [rewrite L; reflexivity|exact Hi|exact Er|exact Ex].
    - intros k Hk. rewrite dget_dset. destruct (beq_spec k (scale_key s)) as [E|_]; [destruct Hk; now left|].
      apply S2. intros i _ ->. apply Hk. right. eauto.
  Qed.

  (** *** The commutation offsets *)

  Lemma old_offsets_spec n : forall i d l, old_offsets pf n i d = Ok l ->
    (forall j, (j < List.length l)%nat -> exists x, nth_error l j = Some x /\
       getf_none pf (offset_key (i + Z.of_nat j)) d = Ok x) /\
    dget (offset_key (i + Z.of_nat (List.length l))) d = None.
  Proof.
    induction n as [|n IH]; intros i d l H; cbn [old_offsets] in H; [discriminate|].
    destruct (dget (offset_key i) d) as [v|] eqn:Ev.
    - destruct (pf v) as [x|] eqn:Ex; cbn [bind] in H; [|discriminate].
      destruct (old_offsets pf n (i + 1) d) as [m|] eqn:Em; cbn [bind] in H; [|discriminate].
      apply Ok_inj in H. subst l. apply IH in Em as [A B]. split.
      + intros [|j] Hj.
        * exists x. split; [reflexivity|]. rewrite Z.add_0_r. unfold getf_none. now rewrite Ev.
        * destruct (A j) as (y & Hy & Hg); [cbn in Hj; lia|]. exists y. split; [exact Hy|].
          replace (i + Z.of_nat (S j)) with (i + 1 + Z.of_nat j) by lia. exact Hg.
      + cbn [List.length]. replace (i + Z.of_nat (S (List.length m))) with (i + 1 + Z.of_nat (List.length m)) by lia. exact B.
    - apply Ok_inj in H. subst l. split; [intros j Hj; cbn in Hj; lia|]. now rewrite Z.add_0_r.
  Qed.

  Lemma unwrap_spec l u : unwrap ar l = Ok u -> unwrapped (wrap ar) l u.
  Proof.
    unfold unwrap. destruct l as [|a l].
    - intros H. apply Ok_inj in H. subst. split; [reflexivity|]. split; [reflexivity|]. intros [|i] x y [=].
    - destruct (unwrap_loop ar a l) as [r|] eqn:Er; cbn [bind]; [|discriminate]. intros H. apply Ok_inj in H. subst u.
      assert (G : forall l a r, unwrap_loop ar a l = Ok r -> List.length r = List.length l /\
        forall i x y, nth_error (a :: r) i = Some x -> nth_error l i = Some y ->
          exists w, wrap ar (fsub y x) = Ok w /\ nth_error r i = Some (fadd x w)).
      { clear. induction l as [|b l IH]; intros a r H; cbn [unwrap_loop] in H.
        - apply Ok_inj in H. subst. split; [reflexivity|]. intros [|i] x y _ [=].
        - destruct (wrap ar _) as [w|] eqn:Ew; cbn [bind] in H; [|discriminate].
          cbn [a_sub a_add ar float_arith] in H, Ew.
          destruct (unwrap_loop ar _ l) as [q|] eqn:Eq; cbn [bind] in H; [|discriminate]. apply Ok_inj in H. subst r.
          apply IH in Eq as [L A]. split; [cbn; congruence|].
          intros [|i] x y Hx Hy; cbn in Hx, Hy.
          + injection Hx as ->. injection Hy as ->. exists w. split; [exact Ew|reflexivity].
          + exact (A i x y Hx Hy). }
      apply G in Er as [L A]. split; [cbn; congruence|]. split; [reflexivity|].
      intros i x y Hx Hy. cbn [nth_error] in Hy |- *. exact (A i x y Hx Hy).
  Qed.

  Lemma numbered_spec {A} (f : A -> list Z) l : forall i d d',
    for_each (numbered i l) (fun p d => Ok (dset (offset_key (fst p)) (f (snd p)) d)) d = Ok d' ->
    (forall j x, nth_error l j = Some x -> dget (offset_key (i + Z.of_nat j)) d' = Some (f x)) /\
    (forall k, (forall j, i <= j -> k <> offset_key j) -> dget k d' = dget k d).
  Proof.
    induction l as [|a l IH]; intros i d d' H; cbn [numbered for_each bind fst snd] in H.
    - apply Ok_inj in H. subst. split; [intros [|j] x [=]|auto].
    - apply IH in H as [A1 A2]. split.
      + intros [|j] x Hx; cbn in Hx.
        * injection Hx as ->. rewrite Z.add_0_r, A2; [now rewrite dget_dset, beq_refl|].
          intros j Hj E. apply offset_inj in E. lia.
        * replace (i + Z.of_nat (S j)) with (i + 1 + Z.of_nat j) by lia. now apply A1.
      + intros k Hk. rewrite A2 by (intros j Hj; apply Hk; lia). rewrite dget_dset.
        destruct (beq_spec k (offset_key i)) as [E|]; [|reflexivity]. exfalso. apply (Hk i); [lia|exact E].
  Qed.

  Lemma nth_combine {A B} (a : list A) (b : list B) i : nth_error (combine a b) i =
    match nth_error a i, nth_error b i with Some x, Some y => Some (x, y) | _, _ => None end.
  Proof.
    revert b i. induction a as [|x a IH]; intros [|y b] [|i]; cbn; try reflexivity.
    - now destruct (nth_error a i).
    - apply IH.
  Qed.

  Lemma offsets_frame d d' k : up_offsets pf fs py_sum d = Ok d' -> (forall j, k <> offset_key j) -> dget k d' = dget k d.
  Proof.
    intros H Hk. unfold up_offsets in H. cbv zeta in H.
    destruct (old_offsets _ _ _ _) as [l|]; cbn [bind] in H; [|discriminate].
    destruct (unwrap _ l) as [u|]; cbn [bind] in H; [|discriminate].
    destruct (float_div _ _) as [mean|]; cbn [bind] in H; [|discriminate].
    destruct (wrap _ mean) as [w|]; cbn [bind] in H; [|discriminate].
    destruct (existsb _ _); [|apply Ok_inj in H; now subst].
    apply numbered_spec in H as [_ H]. apply H. auto.
  Qed.

  Lemma stage_offsets o n d e d' : sees o d -> sees n d' ->
    (forall i, dget (offset_key i) d' = dget (offset_key i) e) ->
    up_offsets pf fs py_sum d = Ok e -> offsets_centred pf fs int_str py_sum (wrap ar) o n.
  Proof.
    intros Ho Hn Hout H. unfold up_offsets in H. cbv zeta in H.
    destruct (old_offsets _ _ _ _) as [l|] eqn:El; cbn [bind] in H; [|discriminate].
    destruct (unwrap _ l) as [u|] eqn:Eu; cbn [bind] in H; [|discriminate].
    destruct (float_div _ _) as [mean|] eqn:Emn; cbn [bind] in H; [|discriminate].
    destruct (wrap _ mean) as [w|] eqn:Ew; cbn [bind] in H; [|discriminate].
    apply old_offsets_spec in El as [A B]. apply unwrap_spec in Eu as U. pose proof U as (Lu & _).
    apply fd_zero in Emn as [-> Z0].
    exists l, u, w. split; [|split; [|split; [|split; [exact U|split; [exact Ew|]]]]].
    - intros i Hi. destruct (A (Z.to_nat i)) as (x & Hx & Hg); [lia|]. exists x. split; [exact Hx|].
      replace (0 + Z.of_nat (Z.to_nat i)) with i in Hg by lia.
      exact (getf_none_num pf _ _ _ _ Ho eq_refl _ Hg).
    - exact (sees_missing _ _ _ Ho B).
    - intros ->. destruct u; [|discriminate]. vm_compute in Z0. discriminate.
    - set (new := map (fun x => fsub x (fsub (fdiv (py_sum u) (float_of_Z (Z.of_nat (List.length u)))) w)) u) in H |- *.
      cbv zeta. fold new. destruct (existsb _ _) eqn:Ex.
      + left. split.
        * apply existsb_exists in Ex as ((x & y) & Hin & Hxy). apply In_nth_error in Hin as (i & Hi).
          rewrite nth_combine in Hi. exists i.
          destruct (@nth_error spec_float new i) as [x'|] eqn:X1; [|discriminate].
          destruct (@nth_error spec_float l i) as [y'|] eqn:X2; [|discriminate].
          injection Hi as -> ->. exists x, y. auto.
        * intros i x Hx. apply numbered_spec in H as [H _]. apply H in Hx. apply Hn. exact (eq_trans (Hout _) Hx).
      + right. apply Ok_inj in H. subst e. split.
        * intros i x y Hx Hy. destruct (fltb _ _) eqn:E; [|reflexivity].
          assert (C : existsb (fun p => fgtb (SFabs (fsub (fst p) (snd p))) (flit 1 2)) (combine new l) = true); [|congruence].
          apply existsb_exists. exists (x, y). split; [|exact E]. apply nth_error_In with i.
          rewrite nth_combine, Hx. change (@nth_error spec_float l i) with (@nth_error float l i). rewrite Hy. reflexivity.
        * intros i v. rewrite (Hn _ v), (Ho _ v). change (offset_name int_str i) with (offset_key i). now rewrite Hout.
  Qed.

  Lemma offset_apart j s : 0 <= s < 3 -> ~ own s (offset_key j).
  Proof. intros Hs. apply apart_motor; [exact Hs|]. reflexivity. Qed.

  Lemma step_to_0109 o n d d' : sees o d -> sees n d' -> up_0109 pf fs py_sum d = Ok d' ->
    to_0109 pf fs int_str py_sum (wrap ar) o n.
  Proof.
    intros Ho Hn H. unfold up_0109 in H.
    destruct (up_offsets _ _ _ d) as [d1|] eqn:E1; cbn [bind] in H; [|discriminate].
    pose proof (fun k => offsets_frame _ _ k E1) as F1.
    unfold up_tables in H.
    destruct (geti _ 0 d1) as [en|] eqn:Een; cbn [bind] in H; [|discriminate]. cbv zeta in H.
    set (d2 := if negb (en =? 0) then _ else d1) in H.
    assert (F2 : forall k, bytes_eqb k (lit "servo.motor_thermistor_ohm") = false -> dget k d2 = dget k d1).
    { intros k Hk. subst d2. destruct (negb _); [|reflexivity]. now rewrite dget_dset, Hk. }
    assert (F3 : forall k, (forall s, 0 <= s < 3 -> ~ own s k) -> dget k d' = dget k d2).
    { intros k Hk. destruct (dmem (table_key 0 0) d2); [|apply Ok_inj in H; now subst].
      apply (chain (upsample pf fs py_sum)) in H as [_ H]; [now apply H|].
      intros s a b q Hs Hu Hq. apply upsample_spec in Hu as [_ Hu]; [|exact Hs]. now apply Hu. }
    assert (G : forall s k, 0 <= s < 3 -> own s k -> dget k d2 = dget k d).
    { intros s k Hs Hk. apply own_motor in Hk as (r & ->); [|exact Hs]. rewrite F2 by reflexivity.
      apply F1. intros j. discriminate. }
    split; [|split].
    - apply (stage_offsets o n d d1 d' Ho Hn); [|exact E1]. intros i. rewrite F3 by (intros; now apply offset_apart).
      apply F2. reflexivity.
    - exists en. split.
      + eapply geti_whole; [exact Ho| |exact Een]. apply F1. intros j. discriminate.
      + assert (F4 : dget (lit "servo.motor_thermistor_ohm") d' = dget (lit "servo.motor_thermistor_ohm") d2).
        { apply F3. intros s Hs. apply apart_motor; [exact Hs|reflexivity]. }
        unfold when. subst d2. destruct (negb (en =? 0)).
        * apply (sees_are _ _ _ Hn). intros k v [[= <- <-]|[]]. rewrite F4. get.
        * apply (sees_same _ _ _ _ _ Ho Hn). intros k [<-|[]]. cbn [fst]. rewrite F4. apply F1. intros j. discriminate.
    - assert (O0 : own 0 (table_key 0 0)) by (right; eauto).
      destruct (dmem (table_key 0 0) d2) eqn:Em; unfold dmem in Em; rewrite (G 0) in Em by (lia || exact O0).
      + left. destruct (dget (table_key 0 0) d) as [v|] eqn:Ev; [|discriminate].
        split; [exists v; now apply Ho|]. intros s Hs.
        apply (chain (upsample pf fs py_sum)) in H as [H _].
        2:{ intros q a b k Hq Hu Hk. apply upsample_spec in Hu as [_ Hu]; [|exact Hq]. now apply Hu. }
        destruct (H s Hs) as (e & e' & He & A & B). clear H.
        apply upsample_spec in He as ((l & scale & L & V & M1 & M2 & N1 & N2) & _); [|exact Hs].
        assert (Os : own s (scale_key s)) by now left.
        assert (Ot : forall i, own s (table_key s i)) by (intros i; right; eauto).
        exists l, scale. split; [exact L|]. split; [|split; [exact M1|split; [exact M2|split]]].
        * intros i Hi. rewrite L in Hi. destruct (V i) as (x & Hx & Hg); [lia|]. exists x. split; [exact Hx|].
          exact (getf_none_num pf _ _ _ _ Ho (eq_trans (A _ (Ot i)) (G s _ Hs (Ot i))) _ Hg).
        * apply Hn. exact (eq_trans (B _ Os) N1).
        * intros i Hi. destruct (N2 i Hi) as (z & Hz & Hx). exists z. split; [|exact Hx].
          apply Hn. exact (eq_trans (B _ (Ot i)) Hz).
      + right. destruct (dget (table_key 0 0) d) as [v|] eqn:Ev; [discriminate|]. apply Ok_inj in H. subst d'.
        split; [exact (sees_missing _ _ _ Ho Ev)|]. intros s Hs. split.
        * intros v. rewrite (Hn _ v), (Ho _ v). change (scale_name int_str s) with (scale_key s).
          rewrite (G s); [reflexivity|exact Hs|now left].
        * intros i v. rewrite (Hn _ v), (Ho _ v). change (table_name int_str s i) with (table_key s i).
          rewrite (G s); [reflexivity|exact Hs|right; eauto].
  Qed.
End Tables.
