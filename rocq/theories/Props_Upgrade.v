(** C55: flashing keeps the configuration, and in which order it goes. *)
From Coq Require Import Ascii String ZArith List Bool Lia ZifyBool ZifyNat.
From Verif Require Import PyBase PyBytes PyFloat Fdcanusb_Model Tool_Model Calib_Model Config_Model Flash_Model
  Proc Device_Model Device_Spec Device_Proofs.
From Verif Require Async Async_Proofs Config_Spec Flash_Proofs Props_Flash Props_Restore Props_Config Config_Spec.
Import ListNotations.
Open Scope Z_scope.

(** ** What a verified flash looks like *)

(** The block was written, and the device said yes. *)
Definition wrote (e : ev) (b : block) : Prop :=
  exists text reply, e = answered (Command text false) (inr reply) /\ Props_Flash.writes (text, false) b.
(** The block was read, and the device said what is in it. *)
Definition read_back (e : ev) (b : block) : Prop :=
  exists text reply, e = answered (Command text true) (inr reply) /\ Props_Flash.reads (text, true) b /\
    Props_Flash.says reply b.
(** All bytes of the sections are written and then read back as they should be. *)
Definition flashed (sections : list block) (t : list ev) : Prop :=
  exists bs tw tp tr, t = tw ++ tp :: tr /\ Flash_Proofs.image_bytes bs = Flash_Proofs.image_bytes sections /\
    Forall2 wrote tw bs /\ (exists pad, wrote tp pad) /\ Forall2 read_back tr bs.

(** ** Programs as procedures *)
Definition as_event (q : creq * (err + list Z)) : ev := answered (Command (fst (fst q)) (snd (fst q))) (snd q).
Definition as_reply (x : err + list Z) : res (list Z) :=
  match x with inr v => Ok v | inl (Exn e) => Raise e | inl (CmdErr _) => Raise CommandError end.

Lemma of_prog_runs A (p : Async.prog unit creq (list Z) A) : forall t a, traces (of_prog p) t (Some (inr a)) ->
  exists l, t = map as_event l /\
    forall rest, Async.runs (St := unit) p tt (map (fun q => as_reply (snd q)) l ++ rest) (Async.Returned a tt rest) (map fst l).
Proof.
  induction p as [A a|A e|A k IH|A s p IH|A k IH|A p IH|A r k IH|A X B body IHb x k IH]; intros t b H; cbn [of_prog] in H.
  - apply traces_ok_ret in H. destruct H as [-> ->]. exists []. split; [reflexivity|]. intros rest. apply Async.runs_ret.
  - now apply traces_ok_throw in H.
  - apply IH in H. destruct H as (l & -> & H). exists l. split; [reflexivity|]. intros rest. apply Async.runs_get. apply H.
  - apply IH in H. destruct H as (l & -> & H). exists l. split; [reflexivity|]. intros rest. apply Async.runs_put. destruct s. apply H.
  - apply IH in H. destruct H as (l & -> & H). exists l. split; [reflexivity|]. intros rest. apply Async.runs_acquire. apply H.
  - apply IH in H. destruct H as (l & -> & H). exists l. split; [reflexivity|]. intros rest. apply Async.runs_release. apply H.
  - destruct H as [[H _]|(y & t' & -> & H)]; [discriminate|]. apply IH in H. destruct H as (l & -> & H).
    exists ((r, y) :: l). split; [reflexivity|]. intros rest. cbn [map fst snd app]. apply Async.runs_await. apply H.
  - cbn [traces] in H. remember (Some (inr b)) as o eqn:Eo.
    induction H as [x t H|x t e H|x t x' t' o H _ IH'|x t c t' o H H2]; try discriminate.
    + apply IHb in H. destruct H as (l1 & -> & H). destruct (IH' Eo) as (l2 & -> & H2). exists (l1 ++ l2).
      rewrite map_app. split; [reflexivity|]. intros rest. rewrite !map_app, <- app_assoc. apply Async.runs_loop.
      unfold Async.unroll. eapply Async_Proofs.runs_bind; [apply H|]. cbn. apply H2.
    + apply IHb in H. destruct H as (l1 & -> & H). subst o. apply IH in H2. destruct H2 as (l2 & -> & H2). exists (l1 ++ l2).
      rewrite map_app. split; [reflexivity|]. intros rest. rewrite !map_app, <- app_assoc. apply Async.runs_loop.
      unfold Async.unroll. eapply Async_Proofs.runs_bind; [apply H|]. cbn. apply H2.
Qed.

Lemma same_length A B (R : A -> B -> Prop) l m : Forall2 R l m -> length l = length m.
Proof. induction 1; cbn; congruence. Qed.

Lemma write_flash_flashed sections t : Flash_Proofs.image_ok 0 sections -> sections <> [] ->
  traces (of_prog (write_flash sections)) t (Some (inr tt)) -> flashed sections t.
Proof.
  intros O N H. apply of_prog_runs in H. destruct H as (l & -> & R). specialize (R []).
  destruct (Props_Flash.C32_sound _ _ _ _ O N R) as (bs & wq & pq & rq & ws & p & replies & E & Eq & F1 & F2 & P & Er & S & _).
  rewrite !app_nil_r in Er. clear R O N.
  assert (Lw : length ws = length wq).
  { assert (K : length (map fst l) = length (map (fun q : creq * (err + list Z) => as_reply (snd q)) l)) by now rewrite !map_length.
    rewrite Eq, Er in K. rewrite !app_length in K. cbn [length] in K. rewrite !map_length in K.
    apply same_length in F2, S. lia. }
  exists bs.
  assert (A : forall b q x reply, Props_Flash.writes q b -> as_reply x = Ok reply -> wrote (as_event (q, x)) b).
  { intros b [text any] x reply W X. destruct x as [[e|m]|v]; try discriminate. pose proof W as (h & d & K & _). injection K as -> ->.
    exists (lit "w " ++ h ++ lit " " ++ d), v. split; [reflexivity|exact W]. }
  assert (B : forall b q x reply, Props_Flash.reads q b -> as_reply x = Ok reply -> Props_Flash.says reply b -> read_back (as_event (q, x)) b).
  { intros b [text any] x reply W X Y. destruct x as [[e|m]|v]; try discriminate. injection X as ->. pose proof W as (h & d & K & _). injection K as -> ->.
    exists (lit "r " ++ h ++ lit " " ++ d), reply. split; [reflexivity|]. split; [exact W|exact Y]. }
  assert (X : exists l1 l2 l3, l = l1 ++ l2 :: l3 /\ map fst l1 = wq /\ fst l2 = pq /\ map fst l3 = rq /\
     map (fun q => as_reply (snd q)) l1 = map Ok ws /\ as_reply (snd l2) = Ok p /\ map (fun q => as_reply (snd q)) l3 = map Ok replies).
  { clear - Eq Er Lw. revert l ws Eq Er Lw. induction wq as [|w wq IH]; intros l ws Eq Er Lw; destruct ws as [|v ws]; try discriminate.
    - destruct l as [|q l]; [discriminate|]. cbn in Eq, Er. injection Eq as Eq1 Eq2. injection Er as Er1 Er2. exists [], q, l. auto 8.
    - destruct l as [|q l]; [discriminate|]. cbn in Eq, Er. injection Eq as Eq1 Eq2. injection Er as Er1 Er2. cbn in Lw.
      destruct (IH l ws Eq2 Er2 ltac:(lia)) as (l1 & l2 & l3 & -> & H1 & H2 & H3 & H4 & H5 & H6).
      exists (q :: l1), l2, l3. cbn. rewrite Eq1, Er1, H1, H4. auto 8. }
  destruct X as (l1 & [q2 x2] & l3 & -> & H1 & H2 & H3 & H4 & H5 & H6). cbn in H2, H5. subst.
  exists (map as_event l1), (as_event (pq, x2)), (map as_event l3). split; [now rewrite map_app|]. split; [exact E|]. split; [|split].
  - clear - F1 H4 A. revert bs ws F1 H4. induction l1 as [|[q x] l1 IH]; intros bs ws F1 H4; inversion F1; subst; [constructor|].
    destruct ws as [|v ws]; [discriminate|]. cbn in H4. injection H4 as H4 H5. constructor; [eapply A; eauto|eauto].
  - eexists. eapply A; eauto.
  - clear - F2 H6 S B. revert bs replies F2 S H6. induction l3 as [|[q x] l3 IH]; intros bs replies F2 S H6; inversion F2; subst; [constructor|].
    destruct replies as [|v replies]; [discriminate|]. cbn in H6. injection H6 as H6 H7. inversion S; subst. constructor; [eapply B; eauto|eauto].
Qed.

Lemma only_Ask (ok : treq -> Prop) A r (k : err + trep r -> T A) : ok r -> (forall x, only ok (k x)) -> only ok (Ask r k).
Proof.
  intros H K t o [[_ [->| ->]]|(x & t' & -> & T)]; auto. constructor; [exact H|]. exact (K _ _ _ T).
Qed.

(** What is sent while flashing. *)
Definition flash_request (r : treq) : Prop :=
  exists text any, r = Command text any /\ (begins (lit "w ") text \/ begins (lit "r ") text).

Lemma only_write_flash sections : only flash_request (of_prog (write_flash sections)).
Proof.
  assert (W : forall x any, flash_request (Command (lit "w " ++ x) any)).
  { intros. eexists _, _. split; [reflexivity|]. left. eexists. reflexivity. }
  assert (R : forall x any, flash_request (Command (lit "r " ++ x) any)).
  { intros. eexists _, _. split; [reflexivity|]. right. eexists. reflexivity. }
  assert (L2 : only flash_request (of_prog (Async.Loop (fun cur : Z =>
    let expected_block := get_next_block sections cur in
    Async.pbind (Async.await (St := unit) (r_cmd expected_block, true)) (fun result =>
    Async.pbind (Async.lift (verify_blocks expected_block result)) (fun _ =>
    let '(cur, done) := advance_block sections cur in
    if done then Async.Ret (inr tt) else Async.Ret (inl cur)))) (-1) Async.Ret))).
  { cbn [of_prog]. apply only_loop.
    - intros cur. cbv zeta. cbn [of_prog Async.pbind Async.await fst snd]. apply only_Ask; [apply R|]. intros x.
      destruct x as [[e|m]|v]; cbn [Async.lift Async.pbind of_prog]; try apply only_throw.
      destruct (verify_blocks _ v); cbn [Async.lift Async.pbind]; [|(cbn [of_prog]; apply only_throw)]. destruct (advance_block sections cur) as [c d]. destruct d; (cbn [of_prog]; apply only_ret).
    - intros b. (cbn [of_prog]; apply only_ret). }
  unfold write_flash. cbn [of_prog Async.pbind]. apply only_loop.
  - intros cur. cbv zeta. cbn [of_prog Async.pbind Async.await fst snd]. apply only_Ask; [apply W|]. intros x.
    destruct x as [[e|m]|v]; cbn [Async.lift Async.pbind of_prog]; try apply only_throw.
    destruct (advance_block sections cur) as [c d]. destruct d; (cbn [of_prog]; apply only_ret).
  - intros b. destruct (negb _).
    + cbn [of_prog Async.pbind Async.await fst snd]. apply only_Ask; [apply W|]. intros x.
      destruct x as [[e|m]|v]; cbn [Async.lift Async.pbind]; [cbn [of_prog]; apply only_throw|cbn [of_prog]; apply only_throw|exact L2].
    + cbn [Async.pbind]. exact L2.
Qed.

(** ** do_flash *)
Section P.
Variable parse_float : list Z -> res float.
Variable float_str : float -> list Z.
Variable py_sum : list float -> float.
Notation do_flash := (do_flash parse_float float_str py_sum).
Notation fix_config := (fix_config parse_float float_str py_sum).

(** What is done before flashing: the firmware is read and the configuration is saved. *)
Definition prelude (bootloader_active no_restore_config : bool) (f : firmware) (c : list Z) : list ev :=
  (if bootloader_active then [] else [answered ReadFirmware (inr f)]) ++
  (if bootloader_active || no_restore_config then []
   else [answered (Command (lit "conf enumerate") false) (inr c); answered (SaveFile c) (inr tt)]).
(** Entering the bootloader. *)
Definition enters (line unlocked : list Z) : list ev :=
  [answered (WriteMessage (lit "d flash")) (inr tt); answered Readline (inr line);
   answered (Command (lit "unlock") false) (inr unlocked)].
(** Leaving it. *)
Definition leaves (locked : list Z) : list ev :=
  [answered (Command (lit "lock") false) (inr locked); answered (WriteMessage (lit "reset")) (inr tt);
   answered (Sleep (float_of_Z 1)) (inr tt)].

Definition family_of (f : firmware) : Z := match fw_family f with Some x => x | None => 0 end.

(** Nothing that sets or stores a parameter. *)
Definition no_conf (r : treq) : Prop :=
  forall x, sent (asked r) = Some x -> x <> lit "conf write" /\ ~ begins (lit "conf set ") x /\ x <> lit "d reset".
Definition quiet (t : list ev) : Prop := Forall (fun e => no_conf (question e)) t.

Lemma quiet_app t u : quiet t -> quiet u -> quiet (t ++ u).
Proof. intros. apply Forall_app. auto. Qed.

Lemma no_conf_text x r : sent (asked r) = Some x -> startswith (lit "conf set ") x = false ->
  x <> lit "conf write" -> x <> lit "d reset" -> no_conf r.
Proof. intros E S N M y H. rewrite E in H. injection H as <-. split; [exact N|]. split; [|exact M]. now apply not_begins. Qed.
Lemma no_conf_none r : sent (asked r) = None -> no_conf r.
Proof. intros E y H. congruence. Qed.
Ltac nc := first [apply no_conf_none; reflexivity | eapply no_conf_text; [reflexivity|reflexivity|discriminate|discriminate]].

Lemma flash_request_quiet r : flash_request r -> no_conf r.
Proof.
  intros (text & any & -> & H) x E. cbn in E. injection E as <-. destruct H as [(rest & ->)|(rest & ->)];
    (split; [discriminate|]; split; [|discriminate]; intros (y & Y); discriminate).
Qed.
Lemma write_quiet sections t o : traces (of_prog (write_flash sections)) t o -> quiet t.
Proof. intros H. apply only_write_flash in H. eapply Forall_impl; [|exact H]. intros e. apply flash_request_quiet. Qed.

(** One step; the ways to end in it change nothing. *)
Ltac stop H x ta tb H1 := apply traces_bind in H;
  let e := fresh "e" in
  destruct H as [[H ->]|[(e & H & ->)|(x & ta & tb & -> & H1 & H)]];
  [left; split; [|discriminate]; repeat (apply quiet_app; [assumption|]); match goal with Q : forall A p, _ |- _ => eapply Q; [|exact H]; repeat only_step; nc end
  |left; split; [|discriminate]; repeat (apply quiet_app; [assumption|]); match goal with Q : forall A p, _ |- _ => eapply Q; [|exact H]; repeat only_step; nc end
  |].
Ltac keep ta H1 Qn := assert (Qn : quiet ta) by (match goal with Q : forall A p, _ |- _ => eapply Q; [|exact H1]; repeat only_step; nc end).

(** The way through do_flash. *)
Lemma stages ver sections ba nr t o : traces (do_flash ver sections ba nr) t o ->
  (quiet t /\ (o = Some (inr tt) -> ba || nr = true)) \/
  (ba = false /\ nr = false /\ ver <= 0x010a /\ exists f c line u tf l tr new o',
     t = prelude ba nr f c ++ enters line u ++ tf ++ leaves l ++ tr /\ fw_version f <= 0x010a /\
     traces (of_prog (write_flash sections)) tf (Some (inr tt)) /\
     fix_config (fw_version f) ver (Some (family_of f)) c = Ok new /\ traces (restore_config new) tr o' /\
     (o = Some (inr tt) -> exists bad, o' = Some (inr bad))).
Proof.
  intros H. unfold Device_Model.do_flash in H.
  assert (Q : forall A (p : T A) t o, only no_conf p -> traces p t o -> quiet t) by (intros A p u o' O K; exact (O _ _ K)).
  stop H x1 a1 b1 H1. keep a1 H1 Q1.
  stop H x2 a2 b2 H2. keep a2 H2 Q2.
  stop H x3 a3 b3 H3. keep a3 H3 Q3.
  stop H x4 a4 b4 H4. keep a4 H4 Q4.
  stop H x5 a5 b5 H5. keep a5 H5 Q5.
  stop H x6 a6 b6 H6. keep a6 H6 Q6.
  apply traces_bind in H. destruct H as [[H ->]|[(e & H & ->)|(x7 & a7 & b7 & -> & H7 & H)]].
  1, 2: left; split; [|discriminate]; repeat (apply quiet_app; [assumption|]); exact (write_quiet _ _ _ H).
  pose proof (write_quiet _ _ _ H7) as Q7.
  stop H x8 a8 b8 H8. keep a8 H8 Q8.
  stop H x9 a9 b9 H9. keep a9 H9 Q9.
  stop H x10 a10 b10 H10. keep a10 H10 Q10.
  assert (QA : forall b, quiet b -> quiet (a1 ++ a2 ++ a3 ++ a4 ++ a5 ++ a6 ++ a7 ++ a8 ++ a9 ++ a10 ++ b)).
  { intros b B. repeat (apply quiet_app; [assumption|]). exact B. }
  destruct ba, nr; cbn [negb andb orb] in H |- *.
  1, 2, 3: left; destruct H as [-> _]; split; [apply QA; constructor|reflexivity].
  apply traces_bind in H. destruct H as [[H ->]|[(e & H & ->)|(new & a11 & b11 & -> & H11 & H)]].
  1, 2: left; split; [apply QA; eapply Q; [|exact H]; apply only_lift|discriminate].
  right. split; [reflexivity|]. split; [reflexivity|].
  apply traces_ok_lift in H11. destruct H11 as [-> E].
  cbn [negb andb orb] in H1, H3.
  apply traces_ok_bind in H1. destruct H1 as (f & c1 & d1 & -> & H1 & K). apply (traces_ok_await ReadFirmware) in H1. subst c1.
  apply traces_ok_ret in K. destruct K as [-> <-].
  destruct (ver >? 0x010a) eqn:V; [now apply traces_ok_throw in H2|].
  destruct (fw_version f >? 0x010a) eqn:V2; [now apply traces_ok_throw in H2|]. apply traces_ok_ret in H2. destruct H2 as [-> _].
  apply traces_ok_bind in H3. destruct H3 as (c & c1 & d1 & -> & H3 & K). apply traces_ok_command in H3. subst c1.
  apply traces_ok_bind in K. destruct K as ([] & c1 & d2 & -> & H3 & K). apply (traces_ok_await (SaveFile c)) in H3. subst c1.
  apply traces_ok_ret in K. destruct K as [-> <-].
  destruct x4, x7, x9, x10.
  apply (traces_ok_await (WriteMessage _)) in H4. apply (traces_ok_await Readline) in H5. apply traces_ok_command in H6.
  apply traces_ok_command in H8. apply (traces_ok_await (WriteMessage _)) in H9. apply (traces_ok_await (Sleep _)) in H10. subst.
  split; [lia|].
  assert (R : exists o', traces (restore_config new) b11 o' /\ (o = Some (inr tt) -> exists bad, o' = Some (inr bad))).
  { apply traces_bind in H. destruct H as [[H ->]|[(e & H & ->)|(bad & r1 & r2 & -> & H & K)]].
    - exists None. split; [exact H|discriminate].
    - exists (Some (inl e)). split; [exact H|discriminate].
    - destruct K as [-> _]. exists (Some (inr bad)). rewrite app_nil_r. split; [exact H|]. eauto. }
  destruct R as (o' & R1 & R2).
  exists f, c, x5, x6, a7, x8, b11, new, o'. split; [reflexivity|]. split; [lia|]. auto.
Qed.

(** A run that ends well: the configuration was saved before, all bytes of the image were read back,
    and then exactly the configuration, as migrated, was set and stored. *)
Theorem C55_success ver sections t : Flash_Proofs.image_ok 0 sections -> sections <> [] ->
  traces (do_flash ver sections false false) t (Some (inr tt)) ->
  exists f c line u tf l tr new bad,
    t = prelude false false f c ++ enters line u ++ tf ++ leaves l ++ tr /\
    ver <= 0x010a /\ fw_version f <= 0x010a /\ flashed sections tf /\
    fix_config (fw_version f) ver (Some (family_of f)) c = Ok new /\
    forall ls, Config_Spec.text_lines new ls -> exists commands t1 r v,
      contents Props_Restore.sets_line ls commands /\ tried commands t1 bad /\ tr = t1 ++ Props_Restore.done_well r v.
Proof.
  intros O N H. destruct (stages _ _ _ _ _ _ H) as [[_ E]|(_ & _ & V & f & c & line & u & tf & l & tr & new & o' & E & F & W & M & R & B)].
  { specialize (E eq_refl). discriminate. }
  destruct (B eq_refl) as (bad & ->). exists f, c, line, u, tf, l, tr, new, bad.
  split; [exact E|]. split; [exact V|]. split; [exact F|]. split; [now apply write_flash_flashed|]. split; [exact M|].
  intros ls L. apply (proj1 (Props_Restore.C49_restore_config_exact _ _ _ _ L)) in R. exact R.
Qed.

(** Wherever a run breaks off or fails: parameters are set or stored only once the configuration has
    been saved and all bytes of the image were read back; never when it is not to be restored. *)
Theorem C55_conf_only_after_flash ver sections ba nr t1 e t2 o x : Flash_Proofs.image_ok 0 sections -> sections <> [] ->
  traces (do_flash ver sections ba nr) (t1 ++ e :: t2) o -> sent e = Some x ->
  (begins (lit "conf set ") x \/ x = lit "conf write" \/ x = lit "d reset") ->
  ba = false /\ nr = false /\ exists f c line u tf l t', t1 = prelude ba nr f c ++ enters line u ++ tf ++ leaves l ++ t' /\
    flashed sections tf.
Proof.
  intros O N H S X. destruct (stages _ _ _ _ _ _ H) as [[Q _]|(-> & -> & V & f & c & line & u & tf & l & tr & new & o' & E & F & W & M & R & B)].
  - exfalso. unfold quiet in Q. rewrite Forall_forall in Q. destruct (Q e ltac:(apply in_or_app; right; now left) x) as (A1 & A2 & A3).
    + unfold sent in *. exact S.
    + tauto.
  - split; [reflexivity|]. split; [reflexivity|].
    assert (QH : quiet (prelude false false f c ++ enters line u ++ tf ++ leaves l)).
    { apply quiet_app; [repeat (apply Forall_cons; [nc|]); apply Forall_nil|]. apply quiet_app; [repeat (apply Forall_cons; [nc|]); apply Forall_nil|].
      apply quiet_app; [exact (write_quiet _ _ _ W)|]. repeat (apply Forall_cons; [nc|]); apply Forall_nil. }
    assert (SP : forall (a b c : list ev) d e, quiet a -> a ++ b = c ++ e :: d -> ~ no_conf (question e) -> exists v, c = a ++ v).
    { clear. intros a. induction a as [|z a IH]; intros b c d e Q E N; [exists c; auto|]. inversion Q as [|? ? Q1 Q2]; subst.
      destruct c as [|w c]; cbn in E; injection E as -> E; [contradiction|]. destruct (IH _ _ _ _ Q2 E N) as (v & ->). exists v. reflexivity. }
    replace (prelude false false f c ++ enters line u ++ tf ++ leaves l ++ tr) with
      ((prelude false false f c ++ enters line u ++ tf ++ leaves l) ++ tr) in E by (rewrite <- !app_assoc; reflexivity).
    symmetry in E. destruct (SP _ _ _ _ _ QH E) as (v & ->).
    + intros K. destruct (K x) as (A1 & A2 & A3); [exact S|tauto].
    + exists f, c, line, u, tf, l, v. split; [rewrite <- !app_assoc; reflexivity|]. now apply write_flash_flashed.
Qed.

(** The order of what comes first, whatever happens: either nothing has been sent but "conf enumerate", or
    "d flash" comes right after the prelude, and the versions are known ones. *)
Theorem C55_before_flash ver sections ba nr t o : traces (do_flash ver sections ba nr) t o ->
  Forall (fun e => forall x, sent e = Some x -> ba = false /\ nr = false /\ x = lit "conf enumerate") t \/
  (ver <= 0x010a /\ exists f c e t', t = prelude ba nr f c ++ e :: t' /\ sends (lit "d flash") e /\
     (ba = false -> fw_version f <= 0x010a)).
Proof.
  intros H. unfold Device_Model.do_flash in H.
  set (ok := fun r => forall x, sent (asked r) = Some x -> ba = false /\ nr = false /\ x = lit "conf enumerate").
  assert (OK : forall t, Forall (fun e => ok (question e)) t -> Forall (fun e => forall x, sent e = Some x -> ba = false /\ nr = false /\ x = lit "conf enumerate") t) by (intros u U; exact U).
  assert (N : forall r, sent (asked r) = None -> ok r) by (intros r E x X; congruence).
  apply traces_bind in H. destruct H as [[H ->]|[(e & H & ->)|(x1 & a1 & b1 & -> & H1 & H)]].
  1, 2: left; apply OK; match type of H with traces ?p _ _ => assert (W : only ok p) by (repeat only_step; now apply N) end; exact (W _ _ H).
  apply traces_bind in H. destruct H as [[H ->]|[(e & H & ->)|(x2 & a2 & b2 & -> & H2 & H)]].
  1, 2: left; apply OK; apply Forall_app; split;
    [match type of H1 with traces ?p _ _ => assert (W : only ok p) by (repeat only_step; now apply N) end; exact (W _ _ H1)
    |match type of H with traces ?p _ _ => assert (W : only ok p) by (repeat only_step; now apply N) end; exact (W _ _ H)].
  assert (F1 : Forall (fun e => ok (question e)) a1)
    by (match type of H1 with traces ?p _ _ => assert (W : only ok p) by (repeat only_step; now apply N) end; exact (W _ _ H1)).
  destruct (ver >? 0x010a) eqn:V; [now apply traces_ok_throw in H2|].
  destruct (match x1 with Some f => fw_version f | None => ver end >? 0x010a) eqn:V2; [now apply traces_ok_throw in H2|].
  apply traces_ok_ret in H2. destruct H2 as [-> _]. cbn [app].
  assert (W3 : only ok (if negb ba && negb nr then do c <- command (lit "conf enumerate"); do _ <- await (SaveFile c); Ret c else Ret [])).
  { destruct ba, nr; cbn [negb andb]; repeat only_step; try (now apply N). intros x X. injection X as <-. auto. }
  apply traces_bind in H. destruct H as [[H ->]|[(e & H & ->)|(x3 & a3 & b3 & -> & H3 & H)]].
  1, 2: left; apply OK; apply Forall_app; split; [exact F1|exact (W3 _ _ H)].
  pose proof (W3 _ _ H3) as F3.
  assert (D : b3 = [] \/ exists e b, b3 = e :: b /\ sends (lit "d flash") e).
  { cbn [pbind await ask] in H. destruct H as [[_ [->| ->]]|(x & t' & -> & _)]; [auto|right|right]; eexists _, _; split; reflexivity. }
  destruct D as [->|(e & b & -> & S)].
  - left. apply OK. rewrite app_nil_r. apply Forall_app. auto.
  - right. split; [lia|].
    assert (P : exists f c, a1 ++ a3 = prelude ba nr f c /\ (ba = false -> fw_version f <= 0x010a)).
    { destruct ba; cbn [negb andb] in H1, H3.
      - apply traces_ok_ret in H1. destruct H1 as [-> _]. apply traces_ok_ret in H3. destruct H3 as [-> _].
        exists {| fw_serial := []; fw_model := 0; fw_version := 0; fw_family := None |}, []. split; [reflexivity|discriminate].
      - apply traces_ok_bind in H1. destruct H1 as (f & c1 & d1 & -> & H1 & K). apply (traces_ok_await ReadFirmware) in H1. subst c1.
        apply traces_ok_ret in K. destruct K as [-> <-].
        destruct nr; cbn [negb] in H3.
        + apply traces_ok_ret in H3. destruct H3 as [-> _]. exists f, []. split; [reflexivity|]. intros _. lia.
        + apply traces_ok_bind in H3. destruct H3 as (c & c1 & d1 & -> & H3 & K). apply traces_ok_command in H3. subst c1.
          apply traces_ok_bind in K. destruct K as ([] & c1 & d2 & -> & H3 & K). apply (traces_ok_await (SaveFile c)) in H3. subst c1.
          apply traces_ok_ret in K. destruct K as [-> _]. exists f, c. split; [reflexivity|]. intros _. lia. }
    destruct P as (f & c & E & L). exists f, c, e, b. rewrite app_assoc, E. auto.
Qed.
End P.

(** ** Examples *)
Definition ex_data : list Z := map Z.of_nat (seq 0 40).
Definition ex_sections : list block := [(0x8000000, ex_data)].

(** A device with this configuration whose memory reads as [ex_data]. *)
Definition ex_device (config : list Z) (w : unit) (r : treq) : unit * (err + trep r) :=
  (tt, match r return err + trep r with
       | Command text any =>
           inr (if bytes_eqb text (lit "conf enumerate") then config
                else if bytes_eqb text (lit "r 8000000 20") then lit "8000000 " ++ bytes_hex (firstn 32 ex_data)
                else if bytes_eqb text (lit "r 8000020 8") then lit "8000020 " ++ bytes_hex (skipn 32 ex_data)
                else [])
       | CommandWithin _ | Readline => inr []
       | ReadFirmware => inr {| fw_version := 0x010a; fw_family := Some 0; fw_serial := [1; 2; 3]; fw_model := 0 |}
       | WriteMessage _ | SaveFile _ | Sleep _ | SaveReport | Console | FlushRead => inr tt
       | ReadGit | ReadServoStats | ReadMotorPosition | Now => inl (Exn TimeoutError)
       end).
Definition ex_flash (version : Z) : T unit :=
  do_flash Props_Config.ex_parse Props_Config.ex_str left_sum version ex_sections false false.

Lemma ex_traces config version (ok : list ev -> err + unit -> bool) :
  match drive 1000 (ex_device config) tt (ex_flash version) with Some (t, o, _) => ok t o | None => false end = true ->
  exists t o, traces (ex_flash version) t (Some o) /\ ok t o = true.
Proof.
  destruct (drive _ _ _ _) as [[[t o] w]|] eqn:E; [|discriminate]. intros H. exists t, o. split; [|exact H].
  exact (drive_traces _ _ _ _ _ _ _ _ _ E).
Qed.

Fixpoint texts_eqb (a b : list (list Z)) : bool :=
  match a, b with
  | [], [] => true
  | x :: a, y :: b => bytes_eqb x y && texts_eqb a b
  | _, _ => false
  end.
Definition ended_well (o : err + unit) : bool := match o with inr _ => true | inl _ => false end.

Definition ex_flash_texts : list (list Z) :=
  [lit "conf enumerate"; lit "d flash"; lit "unlock"; lit "w 8000000 " ++ bytes_hex (firstn 32 ex_data);
   lit "w 8000020 " ++ bytes_hex (skipn 32 ex_data); lit "w 8000028 ffffffffffffffff"; lit "r 8000000 20"; lit "r 8000020 8";
   lit "lock"; lit "reset"].

Example ex_sections_ok : Flash_Proofs.image_ok 0 ex_sections /\ ex_sections <> [].
Proof.
  split; [|discriminate]. cbn [Flash_Proofs.image_ok ex_sections].
  repeat split; try lia; try discriminate. apply Forall_forall. intros x I. apply in_map_iff in I. destruct I as (n & <- & I). apply in_seq in I. unfold byte_ok. lia.
Qed.

Example ex_flash_ok : exists t, traces (ex_flash 0x010a) t (Some (inr tt)) /\
  texts_eqb (texts t) (ex_flash_texts ++ [lit "conf set id.id 7"; lit "conf set motor.Kv 100"; lit "conf write"; lit "d reset"]) = true.
Proof.
  destruct (ex_traces (lit "id.id 7" ++ [10] ++ lit "motor.Kv 100" ++ [10]) 0x010a (fun t o => ended_well o &&
    texts_eqb (texts t) (ex_flash_texts ++ [lit "conf set id.id 7"; lit "conf set motor.Kv 100"; lit "conf write"; lit "d reset"]))) as (t & o & H & E).
  - vm_compute. reflexivity.
  - apply andb_true_iff in E. destruct E as [E1 E2]. destruct o as [e|[]]; [discriminate|]. exists t. auto.
Qed.

(** Whether the configuration can be migrated turns out only after flashing: then the new firmware runs and
    nothing of the configuration is restored. *)
Theorem C55_config_lost_refuted : exists t e, traces (ex_flash 0x0109) t (Some (inl e)) /\
  texts_eqb (texts t) ex_flash_texts = true /\ Exists (sends (lit "reset")) t /\
  Forall (fun e => forall x, sent e = Some x -> ~ begins (lit "conf set ") x) t.
Proof.
  destruct (ex_traces (lit "id.id 7" ++ [10]) 0x0109 (fun t o => negb (ended_well o) && (texts_eqb (texts t) ex_flash_texts &&
     (existsb (fun e => match sent e with Some x => bytes_eqb x (lit "reset") | None => false end) t &&
      forallb (fun e => match sent e with Some x => negb (startswith (lit "conf set ") x) | None => true end) t)))) as (t & o & H & E).
  - vm_compute. reflexivity.
  - apply andb_true_iff in E. destruct E as [E1 E]. apply andb_true_iff in E. destruct E as [E2 E]. apply andb_true_iff in E. destruct E as [E3 E4].
    destruct o as [e|[]]; [|discriminate]. exists t, e. split; [exact H|]. split; [exact E2|]. split.
    + apply existsb_exists in E3. destruct E3 as (v & I & V). apply Exists_exists. exists v. split; [exact I|]. unfold sends.
      destruct (sent v); [|discriminate]. apply bytes_eqb_same in V. now subst.
    + apply Forall_forall. intros v I x X. rewrite forallb_forall in E4. specialize (E4 v I). rewrite X in E4. apply not_begins.
      now apply negb_true_iff.
Qed.

Print Assumptions C55_success.
Print Assumptions C55_conf_only_after_flash.
Print Assumptions C55_before_flash.
Print Assumptions C55_config_lost_refuted.
