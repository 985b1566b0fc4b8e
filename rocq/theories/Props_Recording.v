(** C52: where the encoder part of the report of a calibration comes from. *)
From Coq Require Import Ascii String ZArith List Bool Lia ZifyBool ZifyNat.
From Verif Require Import PyBase PyBytes PyFloat Tool_Model Calib_Model Config_Model Config_Spec Encoder_Model
  Calfile_Model Proc Device_Model Calproc_Model Device_Spec Device_Proofs Props_Restore Calproc_Spec
  Calproc_Proofs Calproc_Clean Calproc_Examples Props_Calproc Props_Report.
From Verif Require Flash_Model Props_Calfile.
Import ListNotations.
Open Scope Z_scope.

Notation stripped := Props_Calfile.sent.

Lemma drop_space_spec l : exists a, l = a ++ drop_space l /\ Forall (fun c => is_space c = true) a /\
  (drop_space l = [] \/ exists c r, drop_space l = c :: r /\ is_space c = false).
Proof.
  induction l as [|c l (a & E & A & D)]; [exists []; cbn; auto|]. cbn [drop_space]. destruct (is_space c) eqn:S.
  - exists (c :: a). split; [cbn; congruence|]. split; [constructor; auto|exact D].
  - exists []. split; [reflexivity|]. split; [constructor|]. right. eauto.
Qed.

Lemma stripped_strip raw : stripped raw (bytes_strip raw).
Proof.
  unfold bytes_strip, rstrip. destruct (drop_space_spec raw) as (a & E & A & D). set (m := drop_space raw) in *. clearbody m.
  destruct (drop_space_spec (rev m)) as (b & Eb & B & Db). set (n := drop_space (rev m)) in *. clearbody n.
  assert (M : m = rev n ++ rev b) by (rewrite <- rev_app_distr, <- Eb, rev_involutive; reflexivity).
  exists a, (rev b). split; [rewrite <- M; exact E|]. split; [exact A|]. split; [now apply Forall_rev|].
  destruct n as [|c n]; [now left|right]. destruct Db as [Db|(c' & r' & Ec & Hc)]; [discriminate|]. injection Ec as <- <-. split.
  - destruct D as [->|(x & y & -> & X)]; [symmetry in M; apply app_eq_nil in M; destruct M as [M _]; cbn in M; now apply app_eq_nil in M|].
    destruct (rev (c :: n)) as [|z zs] eqn:R; [cbn in R; now apply app_eq_nil in R|]. injection M as -> _. eauto.
  - exists (rev n), c. split; [reflexivity|exact Hc].
Qed.

Section P.
Variable parse_float : list Z -> res float.
Variable float_str : float -> list Z.
Variable fixed3 : float -> list Z.
Variable hypot : float -> float -> float.
Variable py_sum : list float -> float.
Variable minimize : list float -> bool * list float.
Notation do_calibrate := (do_calibrate parse_float float_str fixed3 hypot py_sum minimize).

Ltac ob H x t1 t2 H1 := apply traces_ok_bind in H; destruct H as (x & t1 & t2 & -> & H1 & H).

Definition read_all (lines : list (list Z)) : list ev := map (fun l => answered Readline (inr l)) lines.
Definition text_of (texts : list (list Z)) : list Z := concat (map (fun t => t ++ [10]) texts).

Lemma collect_event t data : traces collect_data t (Some (inr data)) ->
  exists lines texts, t = read_all lines /\ Forall2 stripped lines texts /\ data = text_of texts.
Proof.
  unfold collect_data. intros H.
  assert (K : forall acc o, turns (fun x => traces ((fun cal_data : list Z =>
      do raw <- await Readline;
      let line := bytes_strip raw in
      let cal_data := cal_data ++ line ++ [10] in
      if startswith (lit "CAL done") line || startswith (lit "CALI done") line then Ret (inr cal_data)
      else if startswith (lit "CAL start") line || startswith (lit "CALI start") line then Ret (inl cal_data)
      else if startswith (lit "ERR") line then Throw (Exn RuntimeError)
      else if startswith (lit "CAL") line then Throw (Exn RuntimeError)
      else Ret (inl cal_data)) x)) (fun b => traces (Ret b)) acc t o -> o = Some (inr data) ->
    exists lines texts, t = read_all lines /\ Forall2 stripped lines texts /\ data = acc ++ text_of texts).
  { clear H. intros acc o H. induction H as [x t H|x t e H|x t x' t' o H _ IH|x t b t' o H H']; intros E; try discriminate.
    - ob H raw t1 t2 H1. apply (traces_ok_await Readline) in H1. subst t1. set (line := bytes_strip raw) in *. cbv zeta in H.
      assert (L : t2 = [] /\ x' = x ++ line ++ [10]).
      { destruct (_ || _); [apply traces_ok_ret in H; destruct H; discriminate|].
        destruct (_ || _); [apply traces_ok_ret in H; destruct H as [-> H]; injection H as <-; auto|].
        destruct (startswith _ _); [now apply traces_ok_throw in H|]. destruct (startswith _ _); [now apply traces_ok_throw in H|].
        apply traces_ok_ret in H; destruct H as [-> H]; injection H as <-; auto. }
      destruct L as [-> ->]. destruct (IH E) as (ls & ts & -> & F & ->). exists (raw :: ls), (line :: ts). split; [reflexivity|].
      split; [constructor; auto; apply stripped_strip|]. unfold text_of. cbn [map concat]. now rewrite <- !app_assoc.
    - ob H raw t1 t2 H1. apply (traces_ok_await Readline) in H1. subst t1. set (line := bytes_strip raw) in *. cbv zeta in H.
      assert (L : t2 = [] /\ b = x ++ line ++ [10]).
      { destruct (_ || _); [apply traces_ok_ret in H; destruct H as [-> H]; injection H as <-; auto|].
        destruct (_ || _); [apply traces_ok_ret in H; destruct H; discriminate|].
        destruct (startswith _ _); [now apply traces_ok_throw in H|]. destruct (startswith _ _); [now apply traces_ok_throw in H|].
        apply traces_ok_ret in H; destruct H; discriminate. }
      destruct L as [-> ->]. subst o. apply traces_ok_ret in H'. destruct H' as [-> <-]. exists [raw], [line]. split; [reflexivity|].
      split; [constructor; [apply stripped_strip|constructor]|]. unfold text_of. cbn [map concat]. now rewrite app_nil_r. }
  destruct (K [] _ H eq_refl) as (ls & ts & A & B & C). exists ls, ts. auto.
Qed.

(** What the encoder part says, and the recording it was computed from. *)
Definition from_recording (a : cal_args) (c : cal_result float) (t : list ev) : Prop :=
  exists ta text lines texts tb es up down st allow,
    t = ta ++ answered (WriteMessage text) (inr tt) :: read_all lines ++ tb /\
    (begins (lit "d cal ") text \/ begins (lit "d cali ") text) /\
    Forall2 stripped lines texts /\
    Props_Calfile.recording parse_float (text_of texts) es /\ Props_Calfile.picked 1 3 es up /\ Props_Calfile.picked 2 4 es down /\
    (allow = true \/ (allow = false /\ lacks (lit "motor.phase_invert") tb)) /\
    calibrate (float_arith py_sum) float_ops minimize up down (if a_invert a then -1 else 1) (a_max_remainder a) allow
      (negb (a_disable_optimize a)) (a_force_optimize a) = Ok (c, st) /\
    r_errors c = [].

Lemma from_after a c t1 t t2 : from_recording a c t -> from_recording a c (t1 ++ t ++ t2).
Proof.
  intros (ta & text & lines & texts & tb & es & up & down & st & allow & -> & B & S & R & U & D & A & C & E).
  exists (t1 ++ ta), text, lines, texts, (tb ++ t2), es, up, down, st, allow.
  split; [rewrite <- !app_assoc; cbn [app]; rewrite <- !app_assoc; reflexivity|]. repeat split; auto.
  destruct A as [A|[A L]]; [now left|right]. split; [exact A|now apply lacks_l].
Qed.

Lemma absolute_from a ver v cur n t c :
  traces (calibrate_encoder_mapping_absolute parse_float float_str py_sum minimize a ver v cur n) t (Some (inr c)) -> from_recording a c t.
Proof.
  intros H. unfold calibrate_encoder_mapping_absolute in H.
  ob H u1 t1 s1 H1. ob H q t2 s2 H2. ob H u3 t3 s3 H3. ob H data t4 s4 H4. ob H u5 t5 s5 H5. ob H file t6 s6 H6. ob H allow t7 s7 H7.
  ob H x t8 s8 H8. ob H u9 t9 s9 H9. ob H u10 t10 s10 H10. ob H r11 t11 s11 H11. ob H sup t12 s12 H12. ob H r13 t13 s13 H13.
  ob H r14 t14 s14 H14. ob H u15 t15 s15 H15. apply traces_ok_ret in H. destruct H as [-> <-].
  assert (W : exists t3' text, t3 = t3' ++ [answered (WriteMessage text) (inr tt)] /\ (begins (lit "d cal ") text \/ begins (lit "d cali ") text)).
  { destruct (_ && _).
    - ob H3 j1 k1 l1 K1. ob H3 j2 k2 l2 K2. ob H3 j3 k3 l3 K3. ob H3 j4 k4 l4 K4. destruct u3. apply (traces_ok_await (WriteMessage _) tt) in H3. subst.
      exists (k1 ++ k2 ++ k3 ++ k4). eexists. split; [rewrite <- !app_assoc; reflexivity|]. right. eexists. reflexivity.
    - ob H3 j1 k1 l1 K1. ob H3 j2 k2 l2 K2. destruct u3. apply (traces_ok_await (WriteMessage (lit "d cal " ++ float_str v ++ lit " s" ++ float_str (a_ll_encoder_speed a))) tt) in H3. subst.
      exists (k1 ++ k2). eexists. split; [rewrite <- !app_assoc; reflexivity|]. left. eexists. reflexivity. }
  destruct W as (t3' & text & -> & W). apply collect_event in H4. destruct H4 as (lines & texts & -> & S & ->).
  apply traces_ok_lift in H6. destruct H6 as [-> H6]. destruct file as [up down]. cbn [fst snd] in *.
  apply traces_ok_lift in H8. destruct H8 as [-> H8]. destruct x as [c st]. cbn [fst] in *.
  apply Props_Calfile.C48_parse in H6. destruct H6 as (es & R & U & D).
  exists (t1 ++ t2 ++ t3'), text, lines, texts. eexists. exists es, up, down, st, allow.
  split; [rewrite <- !app_assoc; cbn [app]; reflexivity|]. repeat split; auto.
  - apply supported_event in H7. destruct H7 as [H7|[-> H7]]; [now left|right]. split; [reflexivity|].
    apply lacks_r. cbn [app]. now apply lacks_l.
  - destruct (a_invert a); exact H8.
  - destruct (r_errors c); [reflexivity|]. now apply traces_ok_throw in H9.
Qed.

Lemma mapping_from a ver iv r n t c v :
  traces (calibrate_encoder_mapping parse_float float_str py_sum minimize a ver iv r n) t (Some (inr (inl c, v))) -> from_recording a c t.
Proof.
  intros H. unfold calibrate_encoder_mapping in H. ob H w t1 s1 H1. ob H ecv t2 s2 H2. ob H cur t3 s3 H3. ob H sup t4 s4 H4. ob H hc t5 s5 H5.
  destruct (a_hall a || hc).
  - destruct (negb hc); [now apply traces_ok_throw in H|]. ob H h t6 s6 H6. apply traces_ok_ret in H. destruct H; discriminate.
  - ob H x t6 s6 H6. ob H y t7 s7 H7. ob H z t8 s8 H8. apply traces_ok_ret in H. destruct H as [-> H]. injection H as <- <-.
    unfold finally in H8. ob H8 z' t9 s9 H9. ob H8 u t10 s10 H10. destruct z' as [e|z']; [now apply traces_ok_throw in H8|].
    apply traces_ok_ret in H8. destruct H8 as [-> ->]. apply traces_catch_ok in H9. destruct y as [e|y]; [now apply traces_ok_throw in H9|].
    apply absolute_from in H9.
    replace (t1 ++ t2 ++ t3 ++ t4 ++ t5 ++ t6 ++ t7 ++ (t9 ++ t10 ++ []) ++ []) with
      ((t1 ++ t2 ++ t3 ++ t4 ++ t5 ++ t6 ++ t7) ++ t9 ++ t10) by (rewrite <- !app_assoc, !app_nil_r; reflexivity).
    now apply from_after.
Qed.

Theorem C52_from_recording a t r invert phase_invert poles offset : traces (do_calibrate a) t (Some (inr r)) ->
  rp_calibration r = CalJson invert phase_invert poles offset ->
  exists c, from_recording a c t /\
    invert = r_invert c /\ phase_invert = r_phase_invert c /\ poles = r_poles c /\ offset = map NFloat (r_offset c) /\
    forall p, a_motor_poles a = Some p -> p = poles.
Proof.
  intros H R. unfold Calproc_Model.do_calibrate in H. ob H x tp s1 HP. destruct x as [[fw c0] a']. ob H r' tm s2 H'. ob H u t3 s3 H3.
  ob H y t5 s5 H5. apply traces_ok_ret in H. destruct H as [-> ->].
  destruct (prepare_args _ _ _ _ _ HP) as (E & _ & t' & _).
  assert (A : forall c t, from_recording a' c t -> from_recording a c t).
  { unfold calibration_parameters in E. repeat match type of E with bind ?x _ = _ => destruct x; cbn [bind] in E; [|discriminate] end.
    injection E as <-. intros c t F. exact F. }
  assert (EP : a_motor_poles a' = a_motor_poles a).
  { unfold calibration_parameters in E. repeat match type of E with bind ?x _ = _ => destruct x; cbn [bind] in E; [|discriminate] end.
    injection E as <-. reflexivity. }
  unfold calibrate_motor in H'.
  ob H' u1 t1 k1 H1. ob H' u2 t2 k2 H2. ob H' sc t3' k3 K3. ob H' cr t4 k4 H4. ob H' u5 t5' k5 K5. ob H' u6 t6 k6 H6. ob H' st t7 k7 H7.
  ob H' iv t8 k8 H8. ob H' u9 t9 k9 H9. ob H' rvn t10 k10 H10. destruct rvn as [[wr hv] noise]. ob H' u11 t11 k11 H11.
  ob H' ind t12 k12 H12. ob H' u13 t13 k13 H13. ob H' loop t14 k14 H14. ob H' enc t15 k15 H15. ob H' u16 t16 k16 H16.
  ob H' cv t17 k17 H17. destruct cv as [cal ecv]. ob H' u18 t18 k18 H18. ob H' scale t19 k19 H19. ob H' kv t20 k20 H20. ob H' u21 t21 k21 H21.
  ob H' r22 t22 k22 H22. ob H' b23 t23 k23 H23. ob H' di t24 k24 H24. apply traces_ok_ret in H'. destruct H' as [-> <-].
  cbn [rp_calibration] in R. destruct cal as [c|h]; [|discriminate]. cbn [json_of] in R. injection R as <- <- <- <-. exists c. split.
  - apply mapping_from in H17.
    repeat match goal with |- from_recording _ _ (?x ++ ?y) => rewrite app_assoc end.
    assert (G : forall t1 t2, from_recording a c t1 -> from_recording a c (t1 ++ t2)) by (intros; apply (from_after a c []); auto).
    assert (F : forall t1 t2, from_recording a c t2 -> from_recording a c (t1 ++ t2)).
    { intros ta tb F. rewrite <- (app_nil_r (ta ++ tb)), <- app_assoc. now apply from_after. }
    rewrite <- !app_assoc. do 17 apply F. apply G, A. exact H17.
  - repeat split; auto. intros p Ep. apply mapping_event in H17. destruct H17 as (_ & p' & _ & Q & ->). apply Q. congruence.
    Unshelve. all: assumption.
Qed.
End P.

Print Assumptions C52_from_recording.
