(** C50: a calibration is stored only when everything worked.
    C51: what calibration can change. *)
From Coq Require Import Ascii String ZArith List Bool Lia ZifyBool ZifyNat.
From Verif Require Import PyBase PyBytes PyFloat Tool_Model Calib_Model Config_Model Config_Spec Encoder_Model
  Calfile_Model Proc Device_Model Calproc_Model Device_Spec Device_Proofs Props_Restore Calproc_Spec
  Calproc_Proofs Calproc_Clean Calproc_Examples.
Import ListNotations.
Open Scope Z_scope.
From Verif Require Props_Config.

(** ** Texts *)
Definition meet (p q : list Z) : bool := startswith p q || startswith q p.

Lemma startswith_meet p q text : startswith p text = true -> startswith q text = true -> meet p q = true.
Proof.
  revert q text. induction p as [|a p IH]; intros [|b q] text P Q; [reflexivity..|].
  destruct text as [|c text]; [discriminate|]. cbn in P, Q. apply andb_true_iff in P, Q. destruct P as [P1 P2], Q as [Q1 Q2].
  apply Z.eqb_eq in P1, Q1. subst. specialize (IH q text P2 Q2). unfold meet in *. cbn. rewrite !Z.eqb_refl. exact IH.
Qed.

Lemma within_no ps text q : starts ps text = true -> forallb (fun p => negb (meet p q)) ps = true -> ~ begins q text.
Proof.
  intros S N B. apply startswith_begins in B. apply existsb_exists in S. destruct S as (p & I & S).
  rewrite forallb_forall in N. apply N in I. rewrite (startswith_meet p q text S B) in I. discriminate.
Qed.

Lemma within_not_stores ps t : forallb (fun p => negb (meet p (lit "conf write"))) ps = true ->
  Forall (fun e : ev => within ps (question e)) t -> Forall (fun e => ~ stores e) t.
Proof.
  intros N. apply Forall_impl. intros [r x] W S. unfold stores, sends, sent in S. cbn [question projT1] in *.
  destruct r; try discriminate; injection S as ->; cbn [within] in W; revert W; apply not_true_iff_false;
    apply not_true_iff_false; intros W; refine (within_no _ _ _ W N _); exists []; now rewrite app_nil_r.
Qed.

Lemma p_all_spec text : starts p_all text = true -> reading text \/ moving text \/ setting text.
Proof.
  intros H. apply existsb_exists in H. destruct H as (p & I & H). apply startswith_begins in H.
  assert (K : forall p0, In p0 calibrated_parameters -> lit "conf set " ++ p0 = p -> setting text)
    by (intros p0 I0 E; exists p0; split; [exact I0|]; now rewrite E).
  assert (B : forall s, s = p -> begins s text) by (now intros ? ->).
  unfold p_all, p_get, p_move, p_encoder, p_loop, p_filter, p_limits, p_kv, p_mode in I. rewrite !in_app_iff in I. cbn [map In] in I.
  unfold reading, moving, energises.
  repeat match type of I with _ \/ _ => destruct I as [I|I] end; try contradiction;
    first [ right; right; refine (K (skipn 9 p) _ _); subst p; [cbn; tauto|reflexivity]
          | apply B in I; tauto ].
Qed.

Section P.
Variable parse_float : list Z -> res float.
Variable float_str : float -> list Z.
Variable fixed3 : float -> list Z.
Variable hypot : float -> float -> float.
Variable py_sum : list float -> float.
Variable minimize : list float -> bool * list float.
Notation do_calibrate := (do_calibrate parse_float float_str fixed3 hypot py_sum minimize).
Notation calibrate_motor := (calibrate_motor parse_float float_str fixed3 hypot py_sum minimize).

Lemma quiet_prepare a t o : traces (prepare a) t o -> Forall (fun e => ~ stores e) t.
Proof. intros H. apply (w_prepare []) in H. eapply within_not_stores; [|exact H]. reflexivity. Qed.
Lemma quiet_motor a fw t o : traces (calibrate_motor a fw) t o -> Forall (fun e => ~ stores e) t.
Proof. intros H. apply w_motor in H. eapply within_not_stores; [|exact H]. reflexivity. Qed.

Lemma prepare_args a t fw c a' : traces (prepare a) t (Some (inr (fw, c, a'))) -> 
  calibration_parameters a = Ok a' /\ a_no_update a' = a_no_update a /\
  (exists t', t = answered ReadFirmware (inr fw) ::
     (if a_no_update a then [answered (Command (lit "conf enumerate") false) (inr c)] else []) ++ t').
Proof.
  intros H. unfold prepare in H.
  apply traces_ok_bind in H. destruct H as (fw' & t1 & t2 & -> & H1 & H). apply (traces_ok_await ReadFirmware) in H1. subst t1.
  apply traces_ok_bind in H. destruct H as (c' & t3 & t4 & -> & H3 & H).
  apply traces_ok_bind in H. destruct H as (? & t5 & t6 & -> & H5 & H).
  apply traces_ok_bind in H. destruct H as (? & t7 & t8 & -> & H7 & H).
  apply traces_ok_bind in H. destruct H as (? & t9 & t10 & -> & H9 & H).
  apply traces_ok_bind in H. destruct H as (a'' & t11 & t12 & -> & H11 & H). apply traces_ok_lift in H11. destruct H11 as [-> H11].
  apply traces_ok_bind in H. destruct H as (? & t13 & t14 & -> & H13 & H).
  apply traces_ok_ret in H. destruct H as [-> H]. injection H as -> -> ->. split; auto. split.
  - unfold calibration_parameters in H11. repeat match type of H11 with bind ?x _ = _ => destruct x; cbn [bind] in H11; [|discriminate] end.
    injection H11 as <-. reflexivity.
  - destruct (a_no_update a).
    + apply traces_ok_command in H3. subst t3. eexists. reflexivity.
    + apply traces_ok_ret in H3. destruct H3 as [-> _]. eexists. reflexivity.
Qed.

(** A run that stores something has gone through both parts. *)
Lemma stored_parts a t1 e t2 o : traces (do_calibrate a) (t1 ++ e :: t2) o -> stores e ->
  exists tp fw c a' tm r u1 o', traces (prepare a) tp (Some (inr (fw, c, a'))) /\
    traces (calibrate_motor a' fw) tm (Some (inr r)) /\
    t1 = (tp ++ tm) ++ u1 /\
    traces (do _ <- (if negb (a_no_update a') then command (lit "conf write") else do _ <- restore_config c; Ret []);
            do _ <- await SaveReport; Ret r) (u1 ++ e :: t2) o'.
Proof.
  intros H S. unfold do_calibrate in H. apply traces_bind in H.
  destruct H as [[H _]|[(x & H & _)|([[fw c] a'] & tp & t' & E & HP & H)]].
  1, 2: apply quiet_prepare in H; apply Forall_app in H; destruct H as [_ H]; inversion H; contradiction.
  apply traces_bind in H. destruct H as [[H _]|[(x & H & _)|(r & tm & t3 & -> & HM & H)]].
  1, 2: apply quiet_motor in H; pose proof (quiet_prepare _ _ _ HP) as HP'; assert (K : Forall (fun e => ~ stores e) (t1 ++ e :: t2))
      by (rewrite E; apply Forall_app; auto); apply Forall_app in K; destruct K as [_ K]; inversion K; contradiction.
  rewrite app_assoc in E. symmetry in E. apply split_store in E; auto.
  - destruct E as (u1 & -> & ->). exists tp, fw, c, a', tm, r, u1, o. auto.
  - apply Forall_app. split; [exact (quiet_prepare _ _ _ HP)|exact (quiet_motor _ _ _ _ HM)].
Qed.

(** ** C50 *)
Theorem C50_stored_only_when_complete a t1 e t2 o : a_no_update a = false ->
  traces (do_calibrate a) (t1 ++ e :: t2) o -> stores e ->
  Forall went_well t1 /\ Forall (fun e => question e = SaveReport) t2.
Proof.
  intros N H S. destruct (stored_parts _ _ _ _ _ H S) as (tp & fw & c & a' & tm & r & u1 & o' & HP & HM & -> & HU).
  destruct (prepare_args _ _ _ _ _ HP) as (_ & N' & _). rewrite N', N in HU. cbn [negb] in HU.
  destruct HU as [[_ [E|E]]|(x & t' & E & HU)].
  - destruct u1; discriminate.
  - destruct u1 as [|? [|]]; try discriminate. injection E as -> ->. rewrite app_nil_r. split; [|constructor].
    apply Forall_app. split; [exact (well_prepare _ _ _ HP)|exact (well_motor _ _ _ _ _ _ _ _ _ _ HM)].
  - destruct u1 as [|y u1]; injection E as -> E.
    + subst t'. rewrite app_nil_r. split.
      * apply Forall_app. split; [exact (well_prepare _ _ _ HP)|exact (well_motor _ _ _ _ _ _ _ _ _ _ HM)].
      * destruct x as [x|x]; [destruct HU as [-> _]; constructor|].
        assert (O : only (fun q => q = SaveReport) (do _ <- await SaveReport; Ret r)) by (repeat only_step; reflexivity).
        exact (O _ _ HU).
    + exfalso. subst t'. destruct x as [x|x]; [destruct HU as [HU _]; now destruct u1|].
      assert (O : only (fun q => q = SaveReport) (do _ <- await SaveReport; Ret r)) by (repeat only_step; reflexivity).
      apply O in HU. apply Forall_app in HU. destruct HU as [_ HU]. inversion HU as [|? ? Q _]; subst.
      unfold stores, sends, sent in S. rewrite Q in S. discriminate.
Qed.

(** A calibration that returns a report has been stored, as the last thing done to the device. *)
Theorem C50_success_is_stored a t r : a_no_update a = false -> traces (do_calibrate a) t (Some (inr r)) ->
  exists t1 reply, t = t1 ++ [answered (Command (lit "conf write") false) (inr reply); answered SaveReport (inr tt)] /\
    Forall went_well t1.
Proof.
  intros N H. unfold do_calibrate in H.
  apply traces_ok_bind in H. destruct H as ([[fw c] a'] & tp & t1 & -> & HP & H).
  apply traces_ok_bind in H. destruct H as (r' & tm & t2 & -> & HM & H).
  apply traces_ok_bind in H. destruct H as (x & t3 & t4 & -> & H3 & H).
  destruct (prepare_args _ _ _ _ _ HP) as (_ & N' & _). rewrite N', N in H3. cbn [negb] in H3.
  apply traces_ok_command in H3. subst t3.
  apply traces_ok_bind in H. destruct H as (y & t5 & t6 & -> & H5 & H). apply (traces_ok_await SaveReport) in H5. subst t5.
  apply traces_ok_ret in H. destruct H as [-> ->]. destruct y. exists (tp ++ tm), x. split.
  - rewrite <- app_assoc. reflexivity.
  - apply Forall_app. split; [exact (well_prepare _ _ _ HP)|exact (well_motor _ _ _ _ _ _ _ _ _ _ HM)].
Qed.

(** --cal-no-update: what is stored is the configuration the device reported at the start. *)
Theorem C50_no_update_restores a t1 e t2 o : a_no_update a = true ->
  traces (do_calibrate a) (t1 ++ e :: t2) o -> stores e ->
  exists fw config ls commands tm tr bad,
    t1 = [answered ReadFirmware (inr fw); answered (Command (lit "conf enumerate") false) (inr config)] ++ tm ++ tr /\
    Forall went_well tm /\ text_lines config ls /\ contents sets_line ls commands /\ tried commands tr bad /\
    prefix (texts t2) [lit "d reset"].
Proof.
  intros N H S. destruct (stored_parts _ _ _ _ _ H S) as (tp & fw & c & a' & tm & r & u1 & o' & HP & HM & -> & HU).
  destruct (prepare_args _ _ _ _ _ HP) as (_ & N' & (t' & ->)). rewrite N in N'. rewrite N' in HU. rewrite N in *.
  cbn [negb] in HU. pose proof (well_prepare _ _ _ HP) as WP. pose proof (well_motor _ _ _ _ _ _ _ _ _ _ HM) as WM.
  pose proof (Props_Config.split_text_lines c) as L. set (ls := split_on 10 c) in *.
  pose proof (proj2 (settings_contents _ _ (settings c) L) eq_refl) as C.
  assert (O : only (fun q => q = SaveReport) (do _ <- await SaveReport; Ret r)) by (repeat only_step; reflexivity).
  assert (R : exists v o'', traces (restore_config c) (u1 ++ e :: v) o'' /\ texts t2 = texts v).
  { apply traces_bind in HU. destruct HU as [[HU _]|[(x & HU & _)|(x & ta & tb & E & HU & HB)]].
    - apply traces_bind in HU. destruct HU as [[HU _]|[(y & HU & _)|(y & ta & tb & E & HU & HB)]]; eauto.
      destruct HB as [-> _]. rewrite app_nil_r in E. rewrite <- E in HU. eauto.
    - apply traces_bind in HU. destruct HU as [[HU _]|[(y & HU & _)|(y & ta & tb & E & HU & HB)]]; eauto.
      destruct HB as [-> _]. rewrite app_nil_r in E. rewrite <- E in HU. eauto.
    - apply traces_ok_bind in HU. destruct HU as (y & tc & td & -> & HU & HD). destruct HD as [-> _]. rewrite app_nil_r in E.
      apply O in HB. assert (K : exists v, tc = u1 ++ e :: v /\ t2 = v ++ tb).
      { clear -E HB S. revert tc E. induction u1 as [|z u1 IH]; intros tc E.
        - destruct tc as [|z tc]; cbn in E.
          + subst tb. inversion HB as [|? ? Q _]; subst. unfold stores, sends, sent in S. rewrite Q in S. discriminate.
          + injection E as -> ->. exists tc. auto.
        - destruct tc as [|y tc]; cbn in E.
          + subst tb. inversion HB as [|? ? _ Q]; subst. apply Forall_app in Q. destruct Q as [_ Q]. inversion Q as [|? ? Q' _]; subst.
            unfold stores, sends, sent in S. rewrite Q' in S. discriminate.
          + injection E as -> E. destruct (IH _ E) as (v & -> & ->). exists v. auto. }
      destruct K as (v & -> & ->). exists v. eexists. split; [exact HU|]. rewrite texts_app.
      assert (Z : texts tb = []).
      { clear -HB. induction HB as [|e tb Q _ IH]; [reflexivity|]. cbn [texts flat_map]. unfold sent. now rewrite Q. }
      rewrite Z. apply app_nil_r. }
  destruct R as (v & o'' & R & ->). destruct (C49_stored_after_all _ _ _ _ _ _ _ L C R S) as [(bad & T) P].
  exists fw, c, ls, (settings c), (t' ++ tm), u1, bad. split; [|repeat split; auto].
  - cbn [app]. now rewrite <- !app_assoc.
  - inversion WP as [|? ? _ WP']; subst. inversion WP' as [|? ? _ WP'']; subst. apply Forall_app. auto.
Qed.

(** ** C51 *)
(** Calibration sends nothing but these, whatever the device answers. *)
Theorem C51_only_these a t o text : a_no_update a = false -> traces (do_calibrate a) t o -> In text (texts t) ->
  reading text \/ moving text \/ setting text \/ text = lit "conf write".
Proof.
  intros N H I.
  assert (K : forall ps t, incl ps p_all -> Forall (fun e : ev => within ps (question e)) t -> In text (texts t) ->
    reading text \/ moving text \/ setting text).
  { clear. intros ps t J H I. unfold texts in I. apply in_flat_map in I. destruct I as (e & I & I').
    rewrite Forall_forall in H. apply H in I. destruct e as [r x]. cbn [question projT1] in I. unfold sent in I'. cbn [question projT1] in I'.
    apply p_all_spec. destruct r; cbn in I'; try contradiction; destruct I' as [->|[]]; cbn [within] in I; exact (starts_incl _ _ _ J I). }
  assert (JP : incl (p_get ++ []) p_all) by (apply incl_b; reflexivity).
  unfold do_calibrate in H. apply traces_bind in H.
  destruct H as [[H _]|[(x & H & _)|([[fw c] a'] & tp & t' & -> & HP & H)]].
  1, 2: apply (w_prepare []) in H; destruct (K _ _ JP H I) as [?|[?|?]]; auto.
  destruct (prepare_args _ _ _ _ _ HP) as (_ & N' & _). rewrite N in N'. apply (w_prepare []) in HP.
  rewrite texts_app, in_app_iff in I. destruct I as [I|I]; [destruct (K _ _ JP HP I) as [?|[?|?]]; auto|].
  apply traces_bind in H. destruct H as [[H _]|[(x & H & _)|(r & tm & t3 & -> & HM & H)]].
  1, 2: apply w_motor in H; destruct (K _ _ (incl_refl _) H I) as [?|[?|?]]; auto.
  apply w_motor in HM. rewrite texts_app, in_app_iff in I. destruct I as [I|I]; [destruct (K _ _ (incl_refl _) HM I) as [?|[?|?]]; auto|].
  right. right. right. rewrite N' in H. cbn [negb] in H.
  assert (O : only (fun q => match q with Command x _ => x = lit "conf write" | CommandWithin _ | WriteMessage _ => False | _ => True end)
    (do _ <- command (lit "conf write"); do _ <- await SaveReport; Ret r)) by (repeat only_step; exact I || reflexivity).
  apply O in H. rewrite Forall_forall in H. unfold texts in I. apply in_flat_map in I. destruct I as (e & I & I'). apply H in I.
  unfold sent in I'. destruct (question e); cbn in I'; try contradiction. destruct I' as [->|[]]. exact I.
Qed.
End P.

(** ** Examples: runs with the device of Calproc_Examples.v *)
Notation toy_calibrate := (do_calibrate toy_parse toy_str toy_str fadd left_sum (fun l => (false, l))).

Lemma toy_traces refuse no_update ok : (match toy_run refuse no_update with Some (t, o, _) => ok t o | None => false end) = true ->
  exists t o, traces (toy_calibrate (toy_args no_update)) t (Some o) /\ ok t o = true.
Proof.
  unfold toy_run. destruct (drive _ _ _ _) as [[[t o] w]|] eqn:E; [|discriminate]. intros H. exists t, o. split; auto.
  exact (drive_traces _ _ _ _ _ _ _ _ _ E).
Qed.

(** Everything works: 1023 requests, and a report. *)
Example ex_calibrated : exists t r, traces (toy_calibrate (toy_args false)) t (Some (inr r)) /\
  length t = 1023%nat /\ rp_calibration r = HallJson 0 1 0 0 /\ Exists stores t.
Proof.
  destruct (toy_traces [] false (fun t o => match o with
    | inr r => (length t =? 1023)%nat && match rp_calibration r with HallJson 0 1 0 0 => true | _ => false end &&
               existsb (fun e => match sent e with Some x => bytes_eqb x (lit "conf write") | None => false end) t
    | inl _ => false end)) as (t & o & T & K); [vm_compute; reflexivity|].
  destruct o as [e|r]; [discriminate|]. apply andb_true_iff in K. destruct K as [K K3]. apply andb_true_iff in K. destruct K as [K1 K2].
  exists t, r. split; [exact T|]. split; [now apply Nat.eqb_eq|]. split.
  - destruct (rp_calibration r) as [| o s p i]; [discriminate|]. destruct o; try discriminate. destruct s as [|[]|]; try discriminate.
    destruct p; try discriminate. destruct i; try discriminate. reflexivity.
  - apply Exists_exists. apply existsb_exists in K3. destruct K3 as (e & I & K3). exists e. split; auto.
    unfold stores, sends. destruct (sent e); [|discriminate]. apply bytes_eqb_same in K3. now subst.
Qed.

(** One setting is refused near the end: nothing is stored. *)
Example ex_refused : exists t e, traces (toy_calibrate (toy_args false)) t (Some (inl e)) /\
  (900 < length t)%nat /\ Forall (fun e => ~ stores e) t.
Proof.
  destruct (toy_traces (lit "conf set motor.Kv 100") false (fun t o => match o with
    | inl _ => (900 <? length t)%nat &&
               forallb (fun e => match sent e with Some x => negb (bytes_eqb x (lit "conf write")) | None => true end) t
    | inr _ => false end)) as (t & o & T & K); [vm_compute; reflexivity|].
  destruct o as [e|r]; [|discriminate]. apply andb_true_iff in K. destruct K as [K1 K2].
  exists t, e. split; [exact T|]. split; [now apply Nat.ltb_lt|].
  rewrite Forall_forall. rewrite forallb_forall in K2. intros x I S. apply K2 in I. unfold stores, sends in S. rewrite S in I. discriminate.
Qed.

(** --cal-no-update: the two settings are sent again before the store. *)
Example ex_no_update : exists t r, traces (toy_calibrate (toy_args true)) t (Some (inr r)) /\
  last_n 4 (texts t) = [lit "conf set motor.poles 14"; lit "conf set servo.x 2"; lit "conf write"; lit "d reset"].
Proof.
  destruct (toy_traces [] true (fun t o => match o with
    | inr r => if list_eq_dec (list_eq_dec Z.eq_dec) (last_n 4 (texts t))
                    [lit "conf set motor.poles 14"; lit "conf set servo.x 2"; lit "conf write"; lit "d reset"]
               then true else false
    | inl _ => false end)) as (t & o & T & K); [vm_compute; reflexivity|].
  destruct o as [e|r]; [discriminate|]. exists t, r. split; [exact T|]. destruct (list_eq_dec _ _ _) as [E|]; [exact E|discriminate].
Qed.

Print Assumptions C50_stored_only_when_complete.
Print Assumptions C50_success_is_stored.
Print Assumptions C50_no_update_restores.
Print Assumptions C51_only_these.
