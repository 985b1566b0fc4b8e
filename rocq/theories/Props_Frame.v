(** C14 (addresses), C17, C18, C19: size of command frames, the query they carry, and the
    diagnostic stream frames. *)
From Coq Require Import ZArith List Bool Lia.
From Coq Require Import Floats.SpecFloat.
From Coq Require Import ZifyBool ZifyNat.
From Verif Require Import PyBase PyFloat Mux_Model Protocol_Spec Fw_Spec Zbits Mux_Proofs
  Float_Proofs Quant_Proofs Props_Quant Props_Varuint
  Parser_Proofs Ctrl_Model Combiner_Proofs Query_Proofs Props_Query Command_Spec Command_Proofs
  Props_Command.
Ltac Zify.zify_post_hook ::= Z.div_mod_to_equations.
Import ListNotations.
Open Scope Z_scope.

(** The methods of Controller that build a command and may append a query. *)
Inductive method :=
| MPosition (a : position_args) | MWithin (a : within_args)
| MVfoc (theta voltage theta_rate : option float)
| MCurrent (d_A q_A : option float) | MPwm (a : list (option float))
| MGpio (aux1 aux2 : option Z) | MStop | MBrake
| MNearest (x : float) | MExact (x : float) | MRezero (x : float)
| MReindex | MRecapture.

Definition call (ct : controller) (m : method) (query : bool) (qo : option query_resolution)
  : res command :=
  match m with
  | MPosition a => make_position ct a query qo
  | MWithin a => make_stay_within ct a query qo
  | MVfoc t v r => make_vfoc ct t v r query qo
  | MCurrent d q => make_current ct d q query qo
  | MPwm a => make_aux_pwm ct a query qo
  | MGpio a b => make_write_gpio ct a b query qo
  | MStop => make_stop ct query qo
  | MBrake => make_brake ct query qo
  | MNearest x => make_set_output_nearest ct x query qo
  | MExact x => make_set_output_exact ct x query qo
  | MRezero x => make_rezero ct x query qo
  | MReindex => make_require_reindex ct query qo
  | MRecapture => make_recapture_position_velocity ct query qo
  end.

(** ** C18 *)

(** A command with the query of another one appended. *)
Definition with_query (c q : command) : command :=
  {| cmd_destination := cmd_destination c; cmd_source := cmd_source c;
     cmd_reply_required := true;
     cmd_data := cmd_data c ++ cmd_data q; cmd_can_prefix := cmd_can_prefix c;
     cmd_expected_reply_size := cmd_expected_reply_size q;
     cmd_raw := cmd_raw c; cmd_arbitration_id := cmd_arbitration_id c |}.

(** Everything but the two exceptions ends in [finish]. *)
Definition finishes (ct : controller) (e : bool -> option query_resolution -> res command) : Prop :=
  exists body, forall query qo, e query qo = bind body (finish ct query qo).

Lemma finishes_now : forall ct w, finishes ct (fun query qo => finish ct query qo w).
Proof. intros ct w. exists (Ok w). reflexivity. Qed.

Lemma finishes_bind : forall (A : Type) ct (e : res A) f,
  (forall a, finishes ct (fun query qo => f query qo a)) ->
  finishes ct (fun query qo => bind e (f query qo)).
Proof.
  intros A ct [a|x] f H; cbn [bind].
  - destruct (H a) as [body E]. exists body. exact E.
  - exists (Raise x). reflexivity.
Qed.

Lemma call_finish : forall ct m, m <> MReindex -> m <> MRecapture -> finishes ct (call ct m).
Proof.
  intros ct m N1 N2. destruct m; try congruence; cbn [call];
    unfold make_position, make_stay_within, make_vfoc, make_current, make_aux_pwm, make_write_gpio,
      make_stop, make_brake, make_set_output_nearest, make_set_output_exact, make_rezero,
      make_set_output; cbv zeta;
    repeat (apply finishes_bind; intro); apply finishes_now.
Qed.

(** Asking for a reply appends exactly what make_query sends, announces the
    size of its reply, and sets reply_required. *)
Theorem C18_query_appended : forall ct m query qo, m <> MReindex -> m <> MRecapture ->
  query = true \/ qo <> None ->
  call ct m query qo =
    (let* c := call ct m false None in
     let* q := make_query ct qo in
     Ok (with_query c q)).
Proof.
  intros ct m query qo N1 N2 Q. destruct (call_finish ct m N1 N2) as [body E].
  rewrite !E. destruct body as [w|e]; cbn [bind]; [|reflexivity].
  unfold finish, format_query, make_query. destruct qo as [q|].
  - destruct (make_query_data q) as [d|e]; cbn [bind fst snd]; [|reflexivity].
    unfold make_command. rewrite orb_true_r. reflexivity.
  - destruct Q as [->|Q]; [|congruence]. cbn [bind fst snd]. reflexivity.
Qed.

(** Without one there is no query, no reply and no reply size. *)
Theorem C18_no_query : forall ct m c, call ct m false None = Ok c ->
  cmd_reply_required c = false /\ cmd_expected_reply_size c = 0.
Proof.
  intros ct m c E.
  assert (D : m = MReindex \/ m = MRecapture \/ (m <> MReindex /\ m <> MRecapture))
    by (destruct m; auto; right; right; split; discriminate).
  destruct D as [->|[->|[N1 N2]]].
  - vm_compute in E. injection E as <-. auto.
  - vm_compute in E. injection E as <-. auto.
  - destruct (call_finish ct m N1 N2) as [body B]. rewrite B in E.
    destruct body as [w|e]; [|discriminate]. cbn in E. injection E as <-. auto.
Qed.

(** ** C14: where commands go *)

(** All the methods that build a command. *)
Definition builds (ct : controller) (cmd : command) : Prop :=
  (exists m query qo, call ct m query qo = Ok cmd) \/
  (exists qo, make_query ct qo = Ok cmd) \/
  (exists d, make_custom_query ct d = Ok cmd) \/
  make_read_gpio ct = Ok cmd \/
  (exists data channel, make_diagnostic_write ct data channel = Ok cmd) \/
  (exists n channel, make_diagnostic_read ct n channel = Ok cmd) \/
  (exists trim, make_set_trim ct trim = Ok cmd).

(** Every command goes from 0 to the id that the controller was made with, under
    its CAN prefix, as a frame of the register protocol. *)
Theorem C14_addressed : forall id q p v cu pw prefix ct cmd,
  make_controller id q p v cu pw prefix = Ok ct -> builds ct cmd ->
  cmd_destination cmd = id /\ cmd_source cmd = 0 /\ cmd_can_prefix cmd = prefix /\ cmd_raw cmd = false.
Proof.
  intros id q p v cu pw prefix ct cmd E B.
  assert (I : ct_id ct = id /\ ct_prefix ct = prefix).
  { unfold make_controller in E. destruct (make_query_data q); [| discriminate]. cbn [bind] in E.
    injection E as <-. auto. }
  destruct I as (I & P).
  assert (M : forall query qo data n, cmd = make_command ct query qo data n ->
    cmd_destination cmd = id /\ cmd_source cmd = 0 /\ cmd_can_prefix cmd = prefix /\ cmd_raw cmd = false).
  { intros query qo data n ->. auto. }
  clear E I P. unfold builds in B. destruct B as [(x & x0 & x1 & H) | [(x & H) | [(x & H) | [H | [(x & x0 & H) | [(x & x0 & H) | (x & H)]]]]]].
  - assert (D : x = MReindex \/ x = MRecapture \/ (x <> MReindex /\ x <> MRecapture))
      by (destruct x; auto; right; right; split; discriminate).
    destruct D as [->|[->|[N1 N2]]].
    + cbn [call] in H. unfold make_require_reindex, make_write1 in H.
      repeat match type of H with bind ?e _ = _ => destruct e; cbn [bind] in H; [| discriminate] end.
      injection H as H. eapply M. symmetry. exact H.
    + cbn [call] in H. unfold make_recapture_position_velocity, make_write1 in H.
      repeat match type of H with bind ?e _ = _ => destruct e; cbn [bind] in H; [| discriminate] end.
      injection H as H. eapply M. symmetry. exact H.
    + destruct (call_finish ct x N1 N2) as [body F]. rewrite F in H.
      destruct body as [w|e]; [| discriminate]. cbn [bind] in H. unfold finish in H.
      destruct (format_query ct x0 x1 w); cbn [bind] in H; [| discriminate].
      injection H as H. eapply M. symmetry. exact H.
  - unfold make_query in H. destruct x as [r |].
    + destruct (make_query_data r); cbn [bind] in H; [| discriminate]. injection H as H. eapply M. symmetry. exact H.
    + injection H as H. eapply M. symmetry. exact H.
  - unfold make_custom_query in H. destruct (keys x); [discriminate |]. cbv zeta in H.
    repeat match type of H with bind ?e _ = _ => destruct e; cbn [bind] in H; [| discriminate] end.
    injection H as H. eapply M. symmetry. exact H.
  - unfold make_read_gpio in H. destruct (run_query [] R_AUX1_GPIO_STATUS [INT8; INT8]); cbn [bind] in H; [| discriminate].
    injection H as H. eapply M. symmetry. exact H.
  - unfold make_diagnostic_write in H. destruct (length x <=? 61)%nat; [| discriminate].
    repeat match type of H with bind ?e _ = _ => destruct e; cbn [bind] in H; [| discriminate] end.
    injection H as H. eapply M. symmetry. exact H.
  - unfold make_diagnostic_read in H.
    repeat match type of H with bind ?e _ = _ => destruct e; cbn [bind] in H; [| discriminate] end.
    injection H as H. eapply M. symmetry. exact H.
  - unfold make_set_trim in H.
    repeat match type of H with bind ?e _ = _ => destruct e; cbn [bind] in H; [| discriminate] end.
    injection H as H. eapply M. symmetry. exact H.
Qed.

(** The resolutions that the other theorems of C14 and C15 speak of are the ones
    the controller was made with. *)
Theorem C14_settings : forall id q p v cu pw prefix ct,
  make_controller id q p v cu pw prefix = Ok ct ->
  ct_query ct = q /\ ct_position ct = p /\ ct_vfoc ct = v /\ ct_current ct = cu /\ ct_pwm ct = pw.
Proof.
  intros id q p v cu pw prefix ct E. unfold make_controller in E.
  destruct (make_query_data q); [| discriminate]. cbn [bind] in E. injection E as <-. auto.
Qed.

(** A controller with an id, a prefix and a pwm resolution of its own. *)
Example C14_addressed_example :
  exists ct cmd,
    make_controller 7 default_query_resolution default_position_resolution default_vfoc_resolution
      default_current_resolution (repeat F32 10) 0x155 = Ok ct /\
    builds ct cmd /\ cmd_destination cmd = 7 /\ cmd_can_prefix cmd = 0x155 /\ ct_pwm ct = repeat F32 10.
Proof.
  eexists. eexists. split; [vm_compute; reflexivity |]. split; [| split; [| split]].
  - left. exists MStop, true, None. vm_compute. reflexivity.
  - reflexivity.
  - reflexivity.
  - reflexivity.
Qed.

(** The two exceptions ask for a reply, and announce one, but send no query. *)
Theorem C18_dropped_query_refuted : forall ct qo, exists c1 c2,
  call ct MReindex true qo = Ok c1 /\ call ct MRecapture true qo = Ok c2 /\
  cmd_reply_required c1 = true /\ cmd_reply_required c2 = true /\
  cmd_expected_reply_size c1 = ct_query_reply_size ct /\
  cmd_expected_reply_size c2 = ct_query_reply_size ct /\
  spec_decode (cmd_data c1) = Some [AWrite 0x132 INT8 (PInt 1)] /\
  spec_decode (cmd_data c2) = Some [AWrite 0x133 INT8 (PInt 1)].
Proof.
  intros ct qo. eexists _, _. split; [reflexivity|]. split; [reflexivity|].
  repeat split; vm_compute; reflexivity.
Qed.

Example C18_example : exists c q,
  call ex_ct (MPosition ex_position) false None = Ok c /\ make_query ex_ct None = Ok q /\
  call ex_ct (MPosition ex_position) true None = Ok (with_query c q) /\ cmd_data q <> [].
Proof.
  eexists _, _. split; [vm_compute; reflexivity|]. split; [vm_compute; reflexivity|].
  split; [vm_compute; reflexivity|]. discriminate.
Qed.

(** ** C17 *)

Fixpoint elen (cur : option resolution) (start : Z) (rs : list resolution) : nat :=
  match rs with
  | [] => 0
  | r :: rs =>
      (if res_eqb r IGNORE then 0
       else if same_as cur r then spec_width r
       else length (hdr KWrite r (1 + leading r rs)) + length (vub start) + spec_width r)
      + elen (Some r) (start + 1) rs
  end%nat.

Lemma enc_length : forall rs bs cur start, length bs = length rs ->
  (forall i r b, nth_error rs i = Some r -> nth_error bs i = Some b -> r <> IGNORE ->
     length b = spec_width r) ->
  length (enc KWrite cur start rs bs) = elen cur start rs.
Proof.
  induction rs as [|r rs IH]; intros [|b bs] cur start L H; try discriminate; [reflexivity|].
  cbn [enc elen]. rewrite app_length, IH.
  - f_equal. destruct (res_eqb r IGNORE) eqn:E; [reflexivity|].
    assert (N : r <> IGNORE) by (intro X; rewrite X in E; discriminate).
    specialize (H 0%nat r b eq_refl eq_refl N).
    destruct (same_as cur r); [exact H|]. rewrite !app_length, H. lia.
  - cbn in L. lia.
  - intros i r' b' E1 E2. apply (H (S i)); auto.
Qed.

Lemma run_fields_len : forall rs acts w start c, length acts = length rs ->
  (forall i r act, nth_error rs i = Some r -> nth_error acts i = Some act -> r <> IGNORE ->
     does act (act []) /\ forall b, act [] = Ok b -> length b = spec_width r) ->
  (length rs <= 127)%nat -> 0 <= start ->
  run_fields (combiner_init w 0 start rs) acts = Ok c ->
  length (c_writer c) = (length w + elen None start rs)%nat.
Proof.
  intros rs acts w start c L H LR Hs E.
  pose proof (run_fields_spec rs acts (map (fun act => act []) acts) KWrite
                (combiner_init w 0 start rs) []) as R.
  cbn [c_writer c_base c_start c_resolutions c_reply_size c_offset c_current combiner_init length app] in R.
  rewrite map_length, Z.add_0_r in R.
  specialize (R ltac:(discriminate) eq_refl eq_refl eq_refl Hs L L).
  assert (DO : forall i r act o, nth_error rs i = Some r -> nth_error acts i = Some act ->
     nth_error (map (fun act => act []) acts) i = Some o -> r <> IGNORE -> does act o).
  { intros i r act o E1 E2 E3 N. 
    pose proof (map_nth_error (fun act : writer -> res writer => act []) i acts E2) as E4.
    assert (X : Some o = Some (act [])) by (etransitivity; [symmetry; exact E3|exact E4]).
    injection X as ->. eapply H; eauto. }
  specialize (R DO (runs_ok_short rs None LR)).
  destruct (collect rs (map (fun act => act []) acts)) as [bs|e] eqn:C.
  2:{ rewrite R in E. discriminate. }
  destruct R as (LB & c' & E' & W & _). rewrite E' in E. injection E as <-.
  rewrite W, app_length, enc_length; auto.
  clear - C H. revert acts bs C H.
  induction rs as [|r rs IH]; intros [|act acts] bs C H i r0 b0 E1 E2 N;
    try (destruct i; discriminate); cbn [map collect] in C.
  { injection C as <-. destruct i; discriminate. }
  destruct (if res_eqb r IGNORE then Ok [] else act []) as [b|] eqn:A; [|discriminate].
  destruct (collect rs _) as [bs'|] eqn:C'; [|discriminate]. injection C as <-.
  destruct i as [|i]; cbn in E1, E2.
  - injection E1 as <-. injection E2 as <-.
    destruct (H 0%nat r act eq_refl eq_refl N) as [_ H2]. apply H2.
    destruct (res_eqb r IGNORE) eqn:X; [apply res_eqb_eq in X; contradiction|exact A].
  - eapply (IH acts bs' C'); eauto. intros j r1 a1 J1 J2. apply (H (S j)); auto.
Qed.

Lemma write_opt_does : forall v sc r, r <> IGNORE ->
  does (write_opt v sc r) (write_opt v sc r []) /\
  forall b, write_opt v sc r [] = Ok b -> length b = spec_width r.
Proof.
  intros [x|] sc r N; unfold write_opt.
  - split.
    + intro w. apply write_mapped_app. exact N.
    + intros b E. unfold write_mapped in E. destruct r; try congruence;
        (destruct (saturate _ _ _) in E; cbn [bind] in E; [|discriminate]);
        unfold w_write in E; unfold pack, pack_int, pack_f32 in E;
        repeat match type of E with context [match ?x with _ => _ end] => destruct x end;
        try discriminate; injection E as <-; reflexivity.
  - destruct r; try congruence; (split; [intro w; reflexivity|discriminate]).
Qed.

(** Which of the arguments are given. *)
Fixpoint masks (n : nat) : list (list bool) :=
  match n with
  | O => [[]]
  | S n => map (cons true) (masks n) ++ map (cons false) (masks n)
  end.
Lemma masks_all : forall l, In l (masks (length l)).
Proof.
  induction l as [|b l IH]; [left; reflexivity|]. cbn. apply in_app_iff.
  destruct b; [left|right]; apply in_map; exact IH.
Qed.
Definition masked (m : list bool) (rs : list resolution) : list resolution :=
  map (fun p : bool * resolution => if fst p then snd p else IGNORE) (combine m rs).
Definition given {A} (v : option A) : bool := match v with Some _ => true | None => false end.
Lemma res_if_given : forall (A : Type) (v : option A) r, res_if v r = if given v then r else IGNORE.
Proof. intros A [a|] r; reflexivity. Qed.

Lemma masked_bound : forall m rs start n, length m = length rs ->
  forallb (fun m => (elen None start (masked m rs) <=? n)%nat) (masks (length rs)) = true ->
  (elen None start (masked m rs) <= n)%nat.
Proof.
  intros m rs start n L F. rewrite forallb_forall in F.
  apply Nat.leb_le. apply F. rewrite <- L. apply masks_all.
Qed.

(** The controller a caller gets with no settings. *)
Definition default_controller (id prefix : Z) (ct : controller) : Prop :=
  make_controller id default_query_resolution default_position_resolution default_vfoc_resolution
    default_current_resolution default_pwm_resolution prefix = Ok ct.

Lemma finish_len : forall ct query w cmd, finish ct query None w = Ok cmd ->
  length (cmd_data cmd) = (length w + if query then length (ct_query_data ct) else 0)%nat.
Proof.
  intros ct query w cmd E. unfold finish, format_query in E.
  destruct query; cbn [bind fst snd] in E; injection E as <-; cbn [cmd_data make_command].
  - apply app_length.
  - lia.
Qed.

Ltac each_write :=
  let i := fresh "i" in let r := fresh "r" in let act := fresh "act" in
  intros i r act E1 E2 N;
  repeat (destruct i as [|i];
    [cbn in E1, E2; injection E1 as <-; injection E2 as <-;
     cbn in N; try (exfalso; apply N; reflexivity);
     match type of N with (if ?b then _ else _) <> _ =>
       destruct b; [apply write_opt_does; discriminate|exfalso; apply N; reflexivity] end|]);
  cbn in E1; destruct i; discriminate E1.

Ltac split_bind E :=
  match type of E with bind ?e _ = Ok _ =>
    let X := fresh "X" in destruct e eqn:X; cbn [bind] in E; [|discriminate E] end.

Theorem C17_default_commands_fit : forall id prefix ct m query cmd,
  default_controller id prefix ct ->
  match m with MPwm a => length a = 10%nat | _ => True end ->
  call ct m query None = Ok cmd -> (length (cmd_data cmd) <= 64)%nat.
Proof.
  intros id prefix ct m query cmd D PW E. unfold default_controller in D.
  vm_compute in D. injection D as D.
  assert (Q : ct_query_data ct = [17; 0; 31; 1; 19; 13]) by (rewrite <- D; reflexivity).
  assert (P : ct_position ct = default_position_resolution) by (rewrite <- D; reflexivity).
  assert (V : ct_vfoc ct = default_vfoc_resolution) by (rewrite <- D; reflexivity).
  assert (CU : ct_current ct = default_current_resolution) by (rewrite <- D; reflexivity).
  assert (W : ct_pwm ct = default_pwm_resolution) by (rewrite <- D; reflexivity).
  clear D.
  assert (FL : forall w, (length w <= 58)%nat -> finish ct query None w = Ok cmd ->
                (length (cmd_data cmd) <= 64)%nat).
  { intros w L F. apply finish_len in F. rewrite F, Q. destruct query; cbn [length]; lia. }
  assert (OUT : forall x reg, reg = 0x130 \/ reg = 0x131 ->
    make_set_output ct x query None reg = Ok cmd -> (length (cmd_data cmd) <= 64)%nat).
  { intros x reg R F. unfold make_set_output in F.
    change (write_int8 [] (Z.lor WRITE_F32 1)) with (@Ok writer [0x0d]) in F. cbn [bind] in F.
    rewrite write_vub in F by (destruct R; subst; lia). cbn [bind] in F. rewrite write_f32_app in F.
    destruct (too_large x); cbn [bind] in F; [discriminate|].
    eapply FL; [|exact F]. rewrite !app_length, le_bytes_length.
    destruct R as [-> | ->]; vm_compute; lia. }
  destruct m; cbn [call] in E.
  - unfold make_position in E. rewrite P in E.
    rewrite write_mode_ok in E by (unfold M_POSITION; lia). cbn [bind] in E. split_bind E.
    eapply FL; [|exact E]. clear E.
    rewrite !res_if_given in X.
    match type of X with run_fields (combiner_init ?w _ ?st ?rs) ?acts = _ =>
      pose proof (run_fields_len rs acts w st _ eq_refl ltac:(each_write) ltac:(cbn; lia)
        ltac:(unfold R_COMMAND_POSITION; lia) X) as L;
      change rs with (masked [given (a_position a); given (a_velocity a); given (a_feedforward_torque a);
        given (a_kp_scale a); given (a_kd_scale a); given (a_maximum_torque a);
        given (a_stop_position a); given (a_watchdog_timeout a); given (a_velocity_limit a);
        given (a_accel_limit a); given (a_fixed_voltage_override a); given (a_ilimit_scale a)]
        (repeat F32 12)) in L
    end.
    rewrite L. clear X L. change 58%nat with (3 + 55)%nat. apply Nat.add_le_mono; [cbn; lia|].
    apply masked_bound; [reflexivity|]. vm_compute. reflexivity.
  - unfold make_stay_within in E. rewrite P in E.
    rewrite write_mode_ok in E by (unfold M_STAY_WITHIN; lia). cbn [bind] in E. split_bind E.
    eapply FL; [|exact E]. clear E.
    rewrite !res_if_given in X.
    match type of X with run_fields (combiner_init ?w _ ?st ?rs) ?acts = _ =>
      pose proof (run_fields_len rs acts w st _ eq_refl ltac:(each_write) ltac:(cbn; lia)
        ltac:(unfold R_WITHIN_LOWER; lia) X) as L;
      change rs with (masked [given (wa_lower_bound a); given (wa_upper_bound a);
        given (wa_feedforward_torque a); given (wa_kp_scale a); given (wa_kd_scale a);
        given (wa_maximum_torque a); given (wa_watchdog_timeout a); given (wa_ilimit_scale a)]
        (repeat F32 8)) in L
    end.
    rewrite L. clear X L. change 58%nat with (3 + 55)%nat. apply Nat.add_le_mono; [cbn; lia|].
    apply masked_bound; [reflexivity|]. vm_compute. reflexivity.
  - unfold make_vfoc in E. rewrite V in E.
    rewrite write_mode_ok in E by (unfold M_VOLTAGE_FOC; lia). cbn [bind] in E. split_bind E.
    eapply FL; [|exact E]. clear E.
    rewrite !res_if_given in X.
    set (rate := match theta_rate with
                 | Some x => negb (feqb x (S754_zero false)) | None => false end).
    match type of X with run_fields (combiner_init ?w _ ?st ?rs) _ = _ =>
      assert (RS : rs = masked [given theta; given voltage; false; false; false; false; rate]
                (repeat F32 7))
    end.
    { unfold rate. destruct theta_rate as [x|]; [destruct (feqb x _)|]; reflexivity. }
    rewrite RS in X.
    match type of X with run_fields (combiner_init ?w _ ?st ?rs) ?acts = _ =>
      pose proof (run_fields_len rs acts w st _ eq_refl ltac:(each_write) ltac:(cbn; lia)
        ltac:(unfold R_VFOC_THETA; lia) X) as L end.
    rewrite L. clear X L. change 58%nat with (3 + 55)%nat. apply Nat.add_le_mono; [cbn; lia|].
    apply masked_bound; [reflexivity|]. vm_compute. reflexivity.
  - unfold make_current in E. rewrite CU in E.
    rewrite write_mode_ok in E by (unfold M_CURRENT; lia). cbn [bind] in E. split_bind E.
    eapply FL; [|exact E]. clear E.
    rewrite !res_if_given in X.
    match type of X with run_fields (combiner_init ?w _ ?st ?rs) ?acts = _ =>
      pose proof (run_fields_len rs acts w st _ eq_refl ltac:(each_write) ltac:(cbn; lia)
        ltac:(unfold R_COMMAND_Q_CURRENT; lia) X) as L;
      change rs with (masked [given d_A; given q_A] (repeat F32 2)) in L
    end.
    rewrite L. clear X L. change 58%nat with (3 + 55)%nat. apply Nat.add_le_mono; [cbn; lia|].
    apply masked_bound; [reflexivity|]. vm_compute. reflexivity.
  - unfold make_aux_pwm in E. cbv zeta in E. rewrite W in E. split_bind E.
    eapply FL; [|exact E]. clear E.
    do 10 (destruct a as [|? a]; [discriminate|]). destruct a; [|discriminate].
    cbn [combine default_pwm_resolution repeat map fst snd] in X. rewrite !res_if_given in X.
    match type of X with run_fields (combiner_init ?w _ ?st [?a1; ?a2; ?a3; ?a4; ?a5; ?a6; ?a7; ?a8; ?a9; ?a10]) ?acts = _ =>
      pose proof (run_fields_len [a1; a2; a3; a4; a5; a6; a7; a8; a9; a10] acts w st _ eq_refl ltac:(each_write) ltac:(cbn; lia)
        ltac:(unfold R_AUX1_PWM1; lia) X) as L end.
    match type of L with context [elen _ _ ?rs] =>
      change rs with (masked [given o; given o0; given o1; given o2; given o3; given o4; given o5;
        given o6; given o7; given o8] (repeat INT16 10)) in L end.
    rewrite L. clear X L. cbn [length Nat.add].
    apply masked_bound; [reflexivity|]. vm_compute. reflexivity.
  - unfold make_write_gpio in E. cbv zeta in E. split_bind E.
    eapply FL; [|exact E]. clear E. rewrite !res_if_given in X.
    assert (DW : forall z, does (fun w => write_int8 w z) (write_int8 [] z) /\
                  forall b, write_int8 [] z = Ok b -> length b = 1%nat).
    { intro z. unfold write_int8, w_write, pack, pack_int. split.
      - intro w. destruct (_ && _); reflexivity.
      - intros b H. destruct (_ && _); [|discriminate]. injection H as <-. reflexivity. }
    match type of X with run_fields (combiner_init ?w _ ?st ?rs) ?acts = Ok ?c =>
      pose proof (run_fields_len rs acts w st c eq_refl) as L;
      change rs with (masked [given aux1; given aux2] (repeat INT8 2)) in L
    end.
    rewrite L; auto.
    + cbn [length Nat.add]. apply masked_bound; [reflexivity|]. vm_compute. reflexivity.
    + intros [|[|i]] r act E1 E2 N; [| |destruct i; discriminate]; cbn in E1, E2;
        injection E1 as <-; injection E2 as <-.
      * destruct aux1; [apply DW|cbn in N; congruence].
      * destruct aux2; [apply DW|cbn in N; congruence].
    + cbn. lia.
    + unfold R_AUX1_GPIO_COMMAND. lia.
  - unfold make_stop in E. rewrite write_mode_ok in E by (unfold M_STOPPED; lia).
    eapply FL; [|exact E]. cbn. lia.
  - unfold make_brake in E. rewrite write_mode_ok in E by (unfold M_BRAKE; lia).
    eapply FL; [|exact E]. cbn. lia.
  - eapply OUT; [|exact E]. auto.
  - eapply OUT; [|exact E]. auto.
  - eapply OUT; [|exact E]. auto.
  - assert (L : length (cmd_data cmd) = 4%nat) by (destruct query; injection E as <-; reflexivity). lia.
  - assert (L : length (cmd_data cmd) = 4%nat) by (destruct query; injection E as <-; reflexivity). lia.
Qed.

(** Settings of the caller's choice need not fit, and nothing checks. *)
Definition ex_long_query : query_resolution :=
  {| q_mode := INT8; q_position := F32; q_velocity := F32; q_torque := F32;
     q_q_current := IGNORE; q_d_current := IGNORE; q_abs_position := IGNORE; q_power := IGNORE;
     q_motor_temperature := IGNORE; q_trajectory_complete := IGNORE; q_rezero_state := IGNORE;
     q_home_state := IGNORE; q_voltage := INT8; q_temperature := INT8; q_fault := INT8;
     q_aux1_gpio := IGNORE; q_aux2_gpio := IGNORE;
     q_extra := [(0x20, F32); (0x22, F32); (0x24, F32)] |}.

Definition ex_full_position : position_args :=
  let v := Some (flit 1 0) in {|
  a_position := v; a_velocity := v; a_feedforward_torque := v; a_kp_scale := v; a_kd_scale := v;
  a_maximum_torque := v; a_stop_position := v; a_watchdog_timeout := v; a_velocity_limit := v;
  a_accel_limit := v; a_fixed_voltage_override := v; a_ilimit_scale := v |}.

Theorem C17_any_query_fits_refuted : exists cmd, query_ok ex_long_query /\
  call ex_ct (MPosition ex_full_position) true (Some ex_long_query) = Ok cmd /\
  (length (cmd_data cmd) > 64)%nat.
Proof.
  eexists. split; [|split; [vm_compute; reflexivity|vm_compute; lia]].
  split.
  - split.
    + repeat constructor; cbn; intuition lia.
    + repeat constructor; cbn; lia.
  - intros (k & r & _ & H).
    assert (X : forall i, 0 <= i <= 1 -> In (k + i, r) (q_extra ex_long_query)) by (intros i Hi; apply H; lia).
    pose proof (X 0 ltac:(lia)) as X0. pose proof (X 1 ltac:(lia)) as X1. cbn in X0, X1.
    rewrite Z.add_0_r in X0.
    destruct X0 as [A|[A|[A|[]]]], X1 as [B|[B|[B|[]]]]; injection A; injection B; intros; lia.
Qed.

(** The largest command: all twelve arguments and the default query. *)
Example C17_example : exists cmd, default_controller 3 0 ex_ct /\
  call ex_ct (MPosition ex_full_position) true None = Ok cmd /\ length (cmd_data cmd) = 60%nat.
Proof.
  eexists. split; [vm_compute; reflexivity|]. split; [vm_compute; reflexivity|]. vm_compute. reflexivity.
Qed.

(** ** C19: diagnostic stream frames

    A stream frame: the code, the channel, the number of bytes, the bytes.
    What follows is padding. *)
Definition spec_stream (code : Z) (l : list Z) : option (Z * list Z) :=
  match l with
  | [] => None
  | c :: l =>
      if c =? code then
        match spec_varuint l with
        | None => None
        | Some (channel, l) =>
            match spec_varuint l with
            | None => None
            | Some (n, l) =>
                if n <=? Z.of_nat (length l) then Some (channel, firstn (Z.to_nat n) l) else None
            end
        end
      else None
  end.

Theorem C19_diagnostic_write : forall ct data channel, (length data <= 61)%nat ->
  0 <= channel <= 127 ->
  exists cmd, make_diagnostic_write ct data channel = Ok cmd /\
    cmd_reply_required cmd = false /\ cmd_destination cmd = ct_id ct /\
    (length (cmd_data cmd) <= 64)%nat /\
    forall padding, spec_stream 0x40 (cmd_data cmd ++ padding) = Some (channel, data).
Proof.
  intros ct data channel L C. unfold make_diagnostic_write.
  replace (length data <=? 61)%nat with true by lia.
  change (write_int8 [] STREAM_CLIENT_DATA) with (@Ok writer [0x40]). cbn [bind].
  rewrite write_int8_ok by lia. cbn [bind].
  rewrite write_int8_ok by lia. cbn [bind].
  eexists. split; [reflexivity|]. split; [reflexivity|]. split; [reflexivity|].
  cbn [cmd_data make_command]. split.
  - rewrite !app_length. cbn [length]. lia.
  - intro padding. rewrite <- !app_assoc. cbn [app spec_stream].
    change (64 =? 64) with true. cbv iota.
    rewrite (proj2 (is_varuint_byte channel ltac:(lia)) (Z.of_nat (length data) :: data ++ padding) : spec_varuint (channel :: _) = _).
    rewrite (proj2 (is_varuint_byte (Z.of_nat (length data)) ltac:(lia)) (data ++ padding) : spec_varuint (Z.of_nat (length data) :: _) = _).
    rewrite app_length. replace (_ <=? _) with true by lia.
    rewrite Nat2Z.id, firstn_app, Nat.sub_diag, firstn_all. cbn. rewrite app_nil_r. reflexivity.
Qed.

Theorem C19_diagnostic_write_refuses : forall ct data channel,
  ((length data > 61)%nat -> make_diagnostic_write ct data channel = Raise AssertionError) /\
  ((length data <= 61)%nat -> ~ (-128 <= channel <= 127) ->
   make_diagnostic_write ct data channel = Raise StructError).
Proof.
  intros ct data channel. unfold make_diagnostic_write. split.
  - intro L. replace (length data <=? 61)%nat with false by lia. reflexivity.
  - intros L C. replace (length data <=? 61)%nat with true by lia.
    change (write_int8 [] STREAM_CLIENT_DATA) with (@Ok writer [0x40]). cbn [bind].
    unfold write_int8, w_write, pack, pack_int. cbn [int_width].
    change (2 ^ (8 * Z.of_nat 1 - 1)) with 128.
    replace ((-(128) <=? channel) && (channel <? 128)) with false by lia. reflexivity.
Qed.

(** make_diagnostic_read polls for up to max_length bytes. *)
Theorem C19_diagnostic_read : forall ct max_length channel, 0 <= channel <= 127 ->
  0 <= max_length <= 127 ->
  exists cmd, make_diagnostic_read ct max_length channel = Ok cmd /\
    cmd_data cmd = [0x42; channel; max_length] /\ cmd_reply_required cmd = true /\
    cmd_expected_reply_size cmd = 3 + max_length.
Proof.
  intros ct n channel C N. unfold make_diagnostic_read.
  change (write_int8 [] STREAM_CLIENT_POLL) with (@Ok writer [0x42]). cbn [bind].
  rewrite write_int8_ok by lia. cbn [bind]. rewrite write_int8_ok by lia. cbn [bind].
  eexists. split; [reflexivity|]. auto.
Qed.

Lemma read2 : forall c ch l, bytes_ok (c :: ch :: l) ->
  match read_varuint 2 (c :: ch :: l) with
  | (Some v, off) => spec_varuint l = Some (v, skipn off (c :: ch :: l)) /\
                     (off <= length (c :: ch :: l))%nat /\ 0 <= v
  | (None, _) => spec_varuint l = None
  end.
Proof.
  intros c ch l B. pose proof (C02_read_varuint_documented 2 _ B) as D.
  pose proof (read_varuint_offset 2 _ B) as O.
  pose proof (C02_read_varuint_bounds 2 _ B) as BD.
  destruct (read_varuint 2 (c :: ch :: l)) as [[v|] off]; [|exact D].
  cbn [skipn] in D. split; [exact D|]. split.
  - specialize (O ltac:(cbn; lia)). cbn [snd] in O. lia.
  - cbn in BD. lia.
Qed.

(** What is returned is what the frame carries ... *)
Theorem C19_parse_exact : forall data channel payload, bytes_ok data -> channel < 128 ->
  parse_diagnostic_data data channel = Some payload ->
  spec_stream 0x41 data = Some (channel, payload).
Proof.
  intros data channel payload B C E. unfold parse_diagnostic_data in E.
  destruct data as [|c [|ch [|b l]]]; try discriminate.
  cbn [length] in E. replace (_ <? 3)%nat with false in E by lia.
  change (nth 0 (c :: ch :: b :: l) 0) with c in E.
  change (nth 1 (c :: ch :: b :: l) 0) with ch in E. unfold STREAM_SERVER_DATA in E.
  destruct (c =? 65) eqn:E1; [|discriminate]. destruct (ch =? channel) eqn:E2; [|discriminate].
  cbn [negb] in E. assert (ch = channel) by lia. subst ch.
  pose proof (read2 c channel (b :: l) B) as R. unfold spec_stream. rewrite E1.
  assert (CB : 0 <= channel < 256) by (inversion B as [|? ? _ B']; inversion B'; assumption).
  rewrite (proj2 (is_varuint_byte channel ltac:(lia)) (b :: l) : spec_varuint (channel :: _) = _).
  destruct (read_varuint 2 (c :: channel :: b :: l)) as [[v|] off]; [|discriminate].
  destruct R as (R & O & V). rewrite R.
  match type of E with (if ?x then _ else _) = _ => destruct x eqn:G; [discriminate|] end.
  injection E as <-. rewrite skipn_length. cbn [length] in *.
  replace (v <=? _) with true by lia.
  unfold slice. replace (off + Z.to_nat v - off)%nat with (Z.to_nat v) by lia. reflexivity.
Qed.

(** ... and every frame for the channel is accepted.  (The channel number
    must be in one byte, which is how the controller sends it.) *)
Theorem C19_parse_complete : forall data channel payload, bytes_ok data -> nth 1 data 0 < 128 ->
  spec_stream 0x41 data = Some (channel, payload) ->
  parse_diagnostic_data data channel = Some payload.
Proof.
  intros data channel payload B C E. unfold spec_stream in E.
  destruct data as [|c l0]; [discriminate|].
  destruct (c =? 65) eqn:E1; [|discriminate].
  destruct l0 as [|ch l]; [discriminate|]. cbn [nth] in C.
  assert (CB : 0 <= ch < 256) by (inversion B as [|? ? _ B']; inversion B'; assumption).
  rewrite (proj2 (is_varuint_byte ch ltac:(lia)) l : spec_varuint (ch :: _) = _) in E.
  destruct l as [|b l]; [discriminate|].
  unfold parse_diagnostic_data. cbn [length]. replace (_ <? 3)%nat with false by lia.
  change (nth 0 (c :: ch :: b :: l) 0) with c.
  change (nth 1 (c :: ch :: b :: l) 0) with ch. unfold STREAM_SERVER_DATA. rewrite E1. cbn [negb].
  pose proof (read2 c ch (b :: l) B) as R.
  destruct (read_varuint 2 (c :: ch :: b :: l)) as [[v|] off].
  - destruct R as (R & O & V). rewrite R in E.
    match type of E with (if ?x then _ else _) = _ => destruct x eqn:G; [|discriminate] end.
    injection E as <- <-. rewrite Z.eqb_refl. cbn [negb]. rewrite skipn_length in G. cbn [length] in *.
    replace (v >? _) with false by lia.
    unfold slice. replace (off + Z.to_nat v - off)%nat with (Z.to_nat v) by lia. reflexivity.
  - rewrite R in E. discriminate.
Qed.

Example C19_example :
  parse_diagnostic_data [0x41; 1; 3; 79; 75; 10; 0x50; 0x50] 1 = Some [79; 75; 10] /\
  parse_diagnostic_data [0x41; 1; 3; 79; 75] 1 = None /\
  parse_diagnostic_data [0x41; 2; 1; 79] 1 = None /\
  bytes_ok [0x41; 1; 3; 79; 75; 10; 0x50; 0x50] /\
  exists cmd, make_diagnostic_write ex_ct [79; 75; 10] 1 = Ok cmd /\ cmd_data cmd = [0x40; 1; 3; 79; 75; 10].
Proof.
  split; [reflexivity|]. split; [reflexivity|]. split; [reflexivity|].
  split; [repeat constructor; lia|]. eexists. split; [vm_compute; reflexivity|]. reflexivity.
Qed.

Print Assumptions C17_default_commands_fit.
Print Assumptions C17_any_query_fits_refuted.
Print Assumptions C14_addressed.
Print Assumptions C14_settings.
Print Assumptions C18_query_appended.
Print Assumptions C18_no_query.
Print Assumptions C18_dropped_query_refuted.
Print Assumptions C19_diagnostic_write.
Print Assumptions C19_diagnostic_write_refuses.
Print Assumptions C19_diagnostic_read.
Print Assumptions C19_parse_exact.
Print Assumptions C19_parse_complete.
