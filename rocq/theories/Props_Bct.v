(** C74: the search for the bias current trim of an off axis encoder. *)
From Coq Require Import ZArith List Bool Lia ZifyBool ZifyNat Floats.SpecFloat.
From Verif Require Import PyBase PyFloat Proc Bct_Model Bct_Spec.
Import ListNotations.
Open Scope Z_scope.

(** ** The search *)
Section Search.
  Context {M : Type} (meq mlt : M -> M -> bool) (O : ordered meq mlt).

  Lemma best_least p l : exists b, best_of meq mlt (p :: l) = Ok b /\ least mlt (p :: l) b.
  Proof.
    destruct O as (O1 & O2 & O3 & O4).
    cbn [best_of]. eexists. split; [reflexivity|].
    assert (G : forall l b, let r := fold_left (fun b p => if pair_lt meq mlt p b then p else b) l b in
      (r = b \/ In r l) /\ forall q, q = b \/ In q l -> mlt (snd q) (snd r) = false /\ (snd q = snd r -> fst r <= fst q)).
    { clear p l. induction l as [|x l IH]; intros b; cbn [fold_left].
      - split; [auto|]. intros q [->|[]]. split; [auto|lia].
      - destruct (IH (if pair_lt meq mlt x b then x else b)) as [I1 I2]. cbv zeta in *.
        set (r := fold_left _ l _) in *. split.
        + destruct I1 as [->|I1]; [destruct (pair_lt meq mlt x b)|]; cbn; auto.
        + intros q Q. assert (D : forall y, (mlt (snd (if pair_lt meq mlt x b then x else b)) (snd r) = false /\
              (snd (if pair_lt meq mlt x b then x else b) = snd r -> fst r <= fst (if pair_lt meq mlt x b then x else b))) ->
              (y = x \/ y = b) -> mlt (snd y) (snd r) = false /\ (snd y = snd r -> fst r <= fst y)).
          { intros y [E1 E2] Y. unfold pair_lt in *. destruct (meq (snd x) (snd b)) eqn:Eq.
            - apply O1 in Eq. destruct (fst x <? fst b) eqn:L; destruct Y as [->| ->]; try (split; [congruence|intros; try lia; specialize (E2 ltac:(congruence)); lia]).
            - assert (N : snd x <> snd b) by (intros Z; apply O1 in Z; congruence).
              assert (W : forall u w, mlt (snd u) (snd w) = true -> mlt (snd u) (snd r) = false -> (snd u = snd r -> fst r <= fst u) ->
                mlt (snd w) (snd r) = false /\ (snd w = snd r -> fst r <= fst w)).
              { intros u w U1 U2 _. split.
                - destruct (mlt (snd w) (snd r)) eqn:Z; [|reflexivity]. rewrite (O3 _ _ _ U1 Z) in U2. discriminate.
                - intros Z. rewrite Z in U1. congruence. }
              destruct (mlt (snd x) (snd b)) eqn:L; destruct Y as [->| ->]; auto.
              + eapply W; eauto.
              + destruct (O4 (snd x) (snd b)) as [Z|[Z|Z]]; [congruence|congruence|]. eapply W; eauto. }
          specialize (I2 (if pair_lt meq mlt x b then x else b) (or_introl eq_refl)) as I3.
          destruct Q as [->|[<-|Q]]; [apply D; auto|apply D; auto|apply I2; auto]. }
    destruct (G l p) as [G1 G2]. split; [destruct G1 as [->|G1]; cbn; auto|].
    intros q [<-|Q]; apply G2; auto.
  Qed.

  (** What follows when nothing is left to try *)
  Definition close (results : list (Z * M)) : res (@searcher M * (option Z * option (Z * M))) :=
    search meq mlt {| s_low := 0; s_high := 0; s_todo := []; s_results := results |} None.

  Definition go (ms : list M) (r : @searcher M * (option Z * option (Z * M))) : res (option ((Z * M) * list M)) :=
    match r with
    | (s, (Some v, _)) => feed meq mlt s v ms
    | (_, (None, Some best)) => Ok (Some (best, ms))
    | (_, (None, None)) => Raise TypeError
    end.

  Lemma feed_round rest : forall todo s v ms, s_todo s = todo -> length ms = S (length todo) ->
    feed meq mlt s v (ms ++ rest) = (let* r := close (s_results s ++ combine (v :: todo) ms) in go rest r).
  Proof.
    induction todo as [|w todo IH]; intros s v ms T L; (destruct ms as [|m ms]; [discriminate|]); cbn [app feed combine].
    - destruct ms; [|discriminate]. cbn [app]. unfold search at 1. rewrite T. reflexivity.
    - unfold search at 1. rewrite T. cbn [bind].
      rewrite IH; [|reflexivity|cbn in L; lia]. cbn [s_results]. now rewrite <- app_assoc.
  Qed.

  Fixpoint key_index (v : Z) (keys : list Z) (i : nat) : option nat :=
    match keys with
    | [] => None
    | k :: keys => if k =? v then Some i else key_index v keys (S i)
    end.
  Definition bounds (keys : list Z) (v : Z) : option (Z * Z) :=
    match key_index v keys 0 with
    | None => None
    | Some i =>
        match nth_error keys (Nat.pred i), nth_error keys (Nat.min (length keys - 1) (S i)) with
        | Some l, Some h => Some (l, h)
        | _, _ => None
        end
    end.

  Lemma close_keys keys ms b l h : length ms = length keys -> best_of meq mlt (combine keys ms) = Ok b ->
    bounds keys (fst b) = Some (l, h) ->
    close (combine keys ms) =
      if h - l <? 8 then Ok ({| s_low := l; s_high := h; s_todo := []; s_results := combine keys ms |}, (None, Some b))
      else match s_todo (@start_range M l h) with
           | v :: todo => Ok ({| s_low := l; s_high := h; s_todo := todo; s_results := [] |}, (Some v, None))
           | [] => Raise Unmodelled
           end.
  Proof.
    intros L B D. unfold close, search. cbn [s_todo s_results]. rewrite B. cbn [bind].
    assert (K : forall ks (ms : list M) i, length ms = length ks -> index_of (fst b) (combine ks ms) i =
      match key_index (fst b) ks i with Some j => Ok j | None => Raise IndexError end).
    { clear. induction ks as [|k ks IH]; intros ms i L; destruct ms; try discriminate; [reflexivity|].
      cbn [combine index_of key_index fst]. destruct (k =? fst b); [reflexivity|]. apply IH. cbn in L. lia. }
    assert (N : forall ks (ms : list M) j, length ms = length ks -> @at_index M (combine ks ms) j =
      match nth_error ks j with Some k => Ok k | None => Raise IndexError end).
    { clear. induction ks as [|k ks IH]; intros ms j L; destruct ms; try discriminate; [destruct j; reflexivity|].
      destruct j; [reflexivity|]. cbn in L. apply IH. lia. }
    unfold bounds in D. rewrite (K keys ms) by auto. destruct (key_index (fst b) keys 0) as [i|]; [|discriminate]. cbn [bind].
    rewrite (N keys ms) by auto. destruct (nth_error keys (Nat.pred i)) as [l'|]; [|discriminate]. cbn [bind].
    rewrite (N keys ms) by auto. rewrite combine_length, L, Nat.min_id.
    destruct (nth_error keys (Nat.min (length keys - 1) (S i))) as [h'|]; [|discriminate]. cbn [bind].
    injection D as -> ->. reflexivity.
  Qed.

  Lemma best_in keys ms p l : combine keys ms = p :: l ->
    exists b, best_of meq mlt (combine keys ms) = Ok b /\ least mlt (combine keys ms) b /\ In (fst b) keys.
  Proof.
    intros E. rewrite E. destruct (best_least p l) as (b & B1 & B2). exists b. split; [exact B1|]. split; [exact B2|].
    destruct B2 as [B2 _]. rewrite <- E in B2. destruct b as [v m]. exact (in_combine_l _ _ _ _ B2).
  Qed.

  Lemma all_coarse : Forall (fun v => exists l h, bounds coarse v = Some (l, h) /\ (h - l <? 8) = false /\
    s_todo (@start_range M l h) = fine v /\ exists w ws, fine v = w :: ws) coarse.
  Proof.
    apply Forall_forall. intros v V.
    assert (A : forallb (fun v => match bounds coarse v with
      | Some (l, h) => negb (h - l <? 8) && (if list_eq_dec Z.eq_dec (s_todo (@start_range M l h)) (fine v) then true else false) &&
          match fine v with [] => false | _ => true end
      | None => false end) coarse = true) by (vm_compute; reflexivity).
    rewrite forallb_forall in A. specialize (A v V). destruct (bounds coarse v) as [[l h]|]; [|discriminate].
    apply andb_prop in A. destruct A as [A A3]. apply andb_prop in A. destruct A as [A1 A2]. apply negb_true_iff in A1.
    destruct (list_eq_dec _ _ _) as [E|]; [|discriminate]. exists l, h. repeat (split; [auto|]).
    destruct (fine v) as [|w ws]; [discriminate|]. exists w, ws. reflexivity.
  Qed.
  Lemma all_fine : forallb (fun v => forallb (fun w => match bounds (fine v) w with Some (l, h) => h - l <? 8 | None => false end) (fine v)) coarse = true.
  Proof. vm_compute. reflexivity. Qed.

  (** When each value tried is measured, 17 values are tried from -248 to 248, then up to 21 around the
      best of them, and the best of these is the result. *)
  Theorem C74_search ms1 : length ms1 = 17%nat ->
    exists b1, least mlt (combine coarse ms1) b1 /\
    forall ms2, length ms2 = length (fine (fst b1)) ->
    exists b2, least mlt (combine (fine (fst b1)) ms2) b2 /\
    forall rest, searched meq mlt (ms1 ++ ms2 ++ rest) = Ok (Some (b2, rest)).
  Proof.
    intros L1.
    assert (C1 : exists p l, combine coarse ms1 = p :: l) by (destruct ms1; [discriminate|]; do 2 eexists; reflexivity).
    destruct C1 as (p & l & C1). destruct (best_in _ _ _ _ C1) as (b1 & B1 & B2 & B3). exists b1. split; [exact B2|].
    intros ms2 L2. pose proof (proj1 (Forall_forall _ _) all_coarse _ B3) as (lo & hi & D & W & F & (w & ws & Fw)).
    assert (C2 : exists p l, combine (fine (fst b1)) ms2 = p :: l).
    { rewrite Fw in L2. rewrite Fw. destruct ms2; [discriminate|]; do 2 eexists; reflexivity. }
    destruct C2 as (p2 & l2 & C2). destruct (best_in _ _ _ _ C2) as (b2 & E1 & E2 & E3). exists b2. split; [exact E2|].
    intros rest. unfold searched.
    assert (N : search meq mlt new_searcher None = Ok ({| s_low := -248; s_high := 248; s_todo := tl coarse; s_results := [] |}, (Some (-248), None))) by reflexivity.
    rewrite N. cbn [bind]. rewrite (feed_round _ (tl coarse)) by (auto; rewrite L1; reflexivity). cbn [s_results app].
    change (-248 :: tl coarse) with coarse. rewrite (close_keys coarse ms1 b1 lo hi); auto. rewrite W, F, Fw. cbn [bind go].
    rewrite (feed_round _ ws) by (auto; rewrite L2, Fw; reflexivity). cbn [s_results app]. rewrite <- Fw.
    pose proof all_fine as A. rewrite forallb_forall in A. specialize (A _ B3). rewrite forallb_forall in A. specialize (A _ E3).
    destruct (bounds (fine (fst b1)) (fst b2)) as [[l' h']|] eqn:D2; [|discriminate].
    rewrite (close_keys _ ms2 b2 l' h'); auto. rewrite A. reflexivity.
  Qed.
End Search.

Lemma Z_ordered : ordered Z.eqb Z.ltb.
Proof. repeat split; intros; lia. Qed.
Definition parabola (v : Z) : Z := (v - 100) * (v - 100).
Example C74_search_ex :
  searched Z.eqb Z.ltb (map parabola coarse ++ map parabola (fine 93) ++ [7]) = Ok (Some ((101, 1), [7])) /\ In 93 coarse.
Proof. split; vm_compute; tauto. Qed.

(** It need not be the best of all that were measured: the best of the first values is not tried
    again, and forgotten. *)
Theorem C74_best_refuted : ~ (forall ms used rest best,
  searched Z.eqb Z.ltb ms = Ok (Some (best, rest)) -> ms = used ++ rest -> forall m, In m used -> (m <? snd best) = false).
Proof.
  intros H. pose (f := fun v => if v =? -217 then 0 else 1).
  specialize (H (map f coarse ++ map f (fine (-217))) (map f coarse ++ map f (fine (-217))) [] (-248, 1)).
  specialize (H ltac:(vm_compute; reflexivity) ltac:(now rewrite app_nil_r) 0 ltac:(vm_compute; tauto)). discriminate.
Qed.

(** ** A run *)
Ltac asked_ok H :=
  match type of H with
  | traces _ ?t (Some (inr ?a)) =>
      match type of H with
      | traces (ask ?r) _ _ => apply (@traces_ok_ask breq brep r a t) in H
      | traces (bask ?r) _ _ => apply (@traces_ok_ask breq brep r a t) in H
      | traces (bcommand ?m) _ _ => apply (@traces_ok_ask breq brep (BCommand m) a t) in H
      end; subst t
  end.
Section Run.
  Variables (py_sum np_std : list float -> float) (power : float) (force_voltage : option float).
  Let run' := run py_sum np_std power force_voltage.
  Let opening' := opening py_sum power force_voltage.

  Lemma cleanup poles lo hi t o : traces (restoring poles lo hi) t (Some o) ->
    (exists t1 m e, In m [StopMsg; PolesMsg poles; MinMsg lo; MaxMsg hi] /\ t = t1 ++ [failed m e] /\ o = inl e) \/
    (o = inr tt /\ t = [done StopMsg; done (PolesMsg poles); done (MinMsg lo); done (MaxMsg hi)]).
  Proof.
    unfold restoring, bcommand, bask. intros H.
    apply traces_bind in H as [[_ H]|[(e & H & E)|([] & u1 & u2 & -> & H1 & H)]]; [discriminate| |].
    { injection E as ->. left. exists [], StopMsg, e. cbn in H. destruct H as [[H _]|(x & t' & -> & H)]; [discriminate|].
      destruct x as [x|[]]; destruct H as [-> [H|H]]; try discriminate. injection H as <-. cbn. auto. }
    asked_ok H1.
    apply traces_bind in H as [[_ H]|[(e & H & E)|([] & u3 & u4 & -> & H1 & H)]]; [discriminate| |].
    { injection E as ->. left. exists [done StopMsg], (PolesMsg poles), e. cbn in H. destruct H as [[H _]|(x & t' & -> & H)]; [discriminate|].
      destruct x as [x|[]]; destruct H as [-> [H|H]]; try discriminate. injection H as <-. cbn. auto. }
    asked_ok H1.
    apply traces_bind in H as [[_ H]|[(e & H & E)|([] & u5 & u6 & -> & H1 & H)]]; [discriminate| |].
    { injection E as ->. left. exists [done StopMsg; done (PolesMsg poles)], (MinMsg lo), e. cbn in H. destruct H as [[H _]|(x & t' & -> & H)]; [discriminate|].
      destruct x as [x|[]]; destruct H as [-> [H|H]]; try discriminate. injection H as <-. cbn. auto. }
    asked_ok H1.
    destruct o as [e|[]].
    - left. exists [done StopMsg; done (PolesMsg poles); done (MinMsg lo)], (MaxMsg hi), e. cbn in H. destruct H as [[H _]|(x & t' & -> & H)]; [discriminate|].
      destruct x as [x|[]]; destruct H as [-> [H|H]]; try discriminate. injection H as <-. cbn. auto 6.
    - right. asked_ok H. auto.
  Qed.

  Lemma opening_only : only (fun r => r <> BCommand (MaxMsg fnan)) opening'.
  Proof.
    unfold opening', opening, find_open_loop_voltage, bcommand, bask.
    assert (A : forall r, r <> BCommand (MaxMsg fnan) -> only (fun r => r <> BCommand (MaxMsg fnan)) (@ask breq brep r)) by (intros r R; exact (only_ask (fun r => r <> BCommand (MaxMsg fnan)) r R)).
    repeat (apply only_bind; [first [match goal with |- only _ (ask ?r) => exact (A r ltac:(discriminate)) end|idtac]|intros ?]); [|apply only_ret].
    destruct force_voltage; [apply only_ret|]. apply only_loop; [|intros; apply only_ret].
    intros v. unfold voltage_turn, find_current, bcommand, bask.
    assert (Cn : forall n, only (fun r => r <> BCommand (MaxMsg fnan)) (currents n)).
    { intros n. induction n as [|n IH]; cbn [currents]; [apply only_ret|]. unfold bask.
      apply only_bind; [exact (A BCurrent ltac:(discriminate))|]. intros x. apply only_bind; [exact IH|]. intros; apply only_ret. }
    apply only_bind.
    - repeat (apply only_bind; [first [match goal with |- only _ (ask ?r) => exact (A r ltac:(discriminate)) end|apply Cn]|intros ?]). apply only_ret.
    - intros c. destruct (fltb power _); apply only_ret.
  Qed.

  Lemma opening_read poles lo hi voltage source t : traces opening' t (Some (inr (poles, lo, hi, voltage, source))) ->
    was NPoles poles t /\ was NMin lo t /\ was NMax hi t.
  Proof.
    unfold opening', opening, bcommand, bask. intros H.
    do 5 (apply traces_ok_bind in H as (? & ? & ? & -> & _ & H)).
    apply traces_ok_bind in H as (p & ? & ? & -> & P & H). asked_ok P.
    apply traces_ok_bind in H as (l & ? & ? & -> & P & H). asked_ok P.
    apply traces_ok_bind in H as (h & ? & ? & -> & P & H). asked_ok P.
    do 6 (apply traces_ok_bind in H as (? & ? & ? & -> & _ & H)).
    apply traces_ok_ret in H as [_ H]. injection H as -> -> -> -> ->. unfold was.
    repeat split; rewrite !in_app_iff; cbn; tauto.
  Qed.

  Lemma finally_ends voltage source poles lo hi t o :
    traces (finally (measuring np_std voltage source) (restoring poles lo hi)) t (Some o) ->
    exists u1 u2 o', t = u1 ++ u2 /\ traces (measuring np_std voltage source) u1 (Some o') /\
    ((exists t1 m e, In m [StopMsg; PolesMsg poles; MinMsg lo; MaxMsg hi] /\ u2 = t1 ++ [failed m e] /\ o = inl e) \/
     (o = o' /\ u2 = [done StopMsg; done (PolesMsg poles); done (MinMsg lo); done (MaxMsg hi)])).
  Proof.
    unfold finally. intros H.
    apply traces_bind in H as [[_ H]|[(e & H & E)|(x & u1 & u2 & -> & H1 & H)]]; [discriminate| |].
    - apply traces_catch in H as [[H _]|(x & H & _)]; discriminate.
    - apply traces_catch_ok in H1. exists u1.
      apply traces_bind in H as [[_ H]|[(e & H & E)|([] & w1 & w2 & -> & H & H2)]]; [discriminate| |].
      + exists u2, x. split; [reflexivity|]. split; [exact H1|]. injection E as ->.
        apply cleanup in H as [H|[H _]]; [left; exact H|discriminate].
      + apply cleanup in H as [(? & ? & ? & _ & _ & H)|[_ ->]]; [discriminate|].
        assert (W : w2 = [] /\ o = x).
        { destruct x; cbn in H2; destruct H2 as [-> [H2|H2]]; try discriminate; injection H2 as <-; auto. }
        destruct W as [-> ->]. rewrite app_nil_r. eexists _, x. split; [reflexivity|]. auto.
  Qed.

  (** Once the last limit is off, every run that ends has stopped the motor and put back the poles and
      limits it was told, and then sent nothing but the order to write the configuration; or it ended because
      one of these four messages failed. *)
  Theorem C74_restores t o : traces run' t (Some o) -> In (done (MaxMsg fnan)) t ->
    exists poles lo hi, was NPoles poles t /\ was NMin lo t /\ was NMax hi t /\
    ((exists t1 t2, t = t1 ++ [done StopMsg; done (PolesMsg poles); done (MinMsg lo); done (MaxMsg hi)] ++ t2 /\
        Forall (fun e => question e = BCommand WriteMsg) t2) \/
     exists t1 m e, In m [StopMsg; PolesMsg poles; MinMsg lo; MaxMsg hi] /\ t = t1 ++ [failed m e] /\ o = inl e).
  Proof.
    unfold run', run. intros H I.
    assert (N : forall u o, traces opening' u o -> ~ In (done (MaxMsg fnan)) u).
    { intros u o' T X. apply opening_only in T. rewrite Forall_forall in T. exact (T _ X eq_refl). }
    apply traces_bind in H as [[_ H]|[(e & H & E)|([[[[poles lo] hi] v] s] & u1 & u2 & -> & H1 & H)]]; [discriminate| |].
    { exfalso. exact (N _ _ H I). }
    apply in_app_iff in I as [I|I]; [exfalso; exact (N _ _ H1 I)|].
    destruct (opening_read _ _ _ _ _ _ H1) as (W1 & W2 & W3). exists poles, lo, hi.
    split; [apply in_app_iff; auto|]. split; [apply in_app_iff; auto|]. split; [apply in_app_iff; auto|].
    apply traces_bind in H as [[_ H]|[(e & H & E)|([] & u3 & u4 & -> & H2 & H)]]; [discriminate| |].
    { exfalso. cbn in H. destruct H as [[H _]|(x & t' & -> & H)]; [discriminate|].
      destruct x as [x|[]]; destruct H as [-> [H|H]]; try discriminate. destruct I as [I|[]].
      unfold done in I. apply (f_equal (fun z : bevent => match z with existT _ (BCommand _) (Some (inl _)) => true | _ => false end)) in I. discriminate. }
    asked_ok H2. clear I.
    apply traces_bind in H as [[_ H]|[(e & H & E)|([] & u5 & u6 & -> & H2 & H)]]; [discriminate| |].
    - injection E as ->. apply finally_ends in H as (w1 & w2 & o' & -> & _ & [(t1 & m & e' & M & -> & E)|[-> ->]]).
      + right. injection E as ->. exists (u1 ++ [done (MaxMsg fnan)] ++ w1 ++ t1), m, e'. split; [exact M|]. split; [|reflexivity].
        now rewrite <- !app_assoc.
      + left. exists (u1 ++ [done (MaxMsg fnan)] ++ w1), []. split; [|constructor]. rewrite <- !app_assoc. reflexivity.
    - apply finally_ends in H2 as (w1 & w2 & o' & -> & _ & [(t1 & m & e' & M & -> & E)|[_ ->]]); [discriminate|].
      left. exists (u1 ++ [done (MaxMsg fnan)] ++ w1), u6. split; [rewrite <- !app_assoc; reflexivity|].
      cbn in H. destruct H as [[_ [->| ->]]|(x & t' & -> & H)]; [constructor|repeat constructor|].
      destruct x as [x|[]]; destruct H as [-> _]; repeat constructor.
  Qed.

  Lemma axis_eq v : (if v >? 0 then 1 else 2) = axis v.
  Proof. unfold axis. destruct (v >? 0) eqn:A, (0 <? v) eqn:B; lia. Qed.

  Lemma search_results (s : @searcher float) x s' v b : search feqb fltb s x = Ok (s', (v, b)) ->
    let all := match x with Some p => s_results s ++ [p] | None => s_results s end in
    (forall p, In p (s_results s') -> In p all) /\ (forall p, b = Some p -> In p all).
  Proof.
    unfold search. intros H. cbv zeta. set (all := match x with Some p => _ | None => _ end) in *.
    destruct (s_todo s) as [|w todo]; [|injection H as <- <- <-; split; [auto|discriminate]].
    destruct (best_of feqb fltb all) as [best|] eqn:B; [|discriminate]. cbn [bind] in H.
    destruct (index_of (fst best) all 0) as [i|]; [|discriminate]. cbn [bind] in H.
    destruct (at_index all (Nat.pred i)) as [l|]; [|discriminate]. cbn [bind] in H.
    destruct (at_index all (Nat.min (length all - 1) (S i))) as [h|]; [|discriminate]. cbn [bind] in H.
    assert (Bi : In best all).
    { clear - B. destruct all as [|p l]; [discriminate|]. cbn in B. apply (f_equal (fun r => match r with Ok x => x | Raise _ => p end)) in B. subst best.
      assert (G : forall l p, let r := fold_left (fun b p => if pair_lt feqb fltb p b then p else b) l p in In r (p :: l)).
      { clear. induction l as [|x l IH]; intros p; cbn [fold_left]; [cbn; auto|]. cbv zeta in *.
        specialize (IH (if pair_lt feqb fltb x p then x else p)). destruct (pair_lt feqb fltb x p); cbn in *; tauto. }
      apply G. }
    destruct (h - l <? 8).
    - injection H as <- <- <-. split; [auto|]. intros p E. injection E as <-. exact Bi.
    - destruct (s_todo (start_range l h)) as [|w todo]; [discriminate|]. injection H as <- <- <-. cbn. split; [tauto|discriminate].
  Qed.

  Lemma tried_more voltage source v m h h' : tried np_std voltage source v m h -> tried np_std voltage source v m (h ++ h').
  Proof.
    intros (h1 & values & h2 & -> & E). exists h1, values, (h2 ++ h'). split; [|exact E]. now rewrite <- !app_assoc.
  Qed.

  Lemma best_tried voltage source t b : traces (find_best_bct np_std voltage source) t (Some (inr b)) ->
    tried np_std voltage source (fst b) (snd b) t.
  Proof.
    intros H. unfold find_best_bct in H. apply traces_ok_bind in H as ([s0 [tt0 b0]] & t1 & t2 & -> & H1 & H).
    apply traces_ok_lift in H1 as [-> S0]. cbn [app].
    assert (A : after [] (Loop (bct_turn np_std voltage source) (s0, tt0) (fun b => Ret b))
      (fun h o => match o with Some (inr b) => tried np_std voltage source (fst b) (snd b) h | _ => True end)).
    { apply (after_loop _ _ _ (fun h x => forall p, In p (s_results (fst x)) -> tried np_std voltage source (fst p) (snd p) h)).
      - cbn [fst]. intros p P. apply search_results in S0. destruct S0 as [S0 _]. destruct (S0 _ P).
      - clear. intros h [s tr] I. cbn [fst] in I. unfold bct_turn. destruct tr as [v|]; [|now apply after_throw].
        rewrite axis_eq.
        assert (ST : forall (P : list bevent -> option (err + ((@searcher float * option Z) + (Z * float))) -> Prop) h r (k : brep r -> bproc _),
          (forall h, P h None) -> (forall h e, P h (Some (inl e))) ->
          (forall a, after (h ++ [@answered breq brep r (inr a)]) (k a) P) -> after h (pbind (ask r) k) P).
        { clear. intros P h r k P1 P2 K. cbn [pbind ask]. apply after_Ask; auto. intros [e|a]; cbn [answer pbind]; [|apply K].
          apply after_throw; auto. }
        unfold bcommand, bask.
        apply ST; [auto|auto|]. intros [].
        apply ST; [auto|auto|]. intros [].
        apply ST; [auto|auto|]. intros [].
        apply ST; [auto|auto|]. intros [].
        apply (ST _ _ (BCapture source)); [auto|auto|]. intros values.
        apply ST; [auto|auto|]. intros [].
        apply ST; [auto|auto|]. intros [].
        set (h7 := _ ++ [_]).
        assert (X : tried np_std voltage source v (np_std (filter isfinite values)) h7).
        { exists h, values, [done StopMsg; @answered breq brep (BSleep (flit 5 1)) (inr tt)]. split; [|reflexivity].
          unfold h7. rewrite <- !app_assoc. reflexivity. }
        assert (I' : forall p, In p (s_results s) -> tried np_std voltage source (fst p) (snd p) h7).
        { intros p P. unfold h7. repeat apply tried_more. auto. }
        clearbody h7. clear I h.
        destruct (fltb _ _).
        + destruct (search feqb fltb s None) as [[s' [tr' b']]|] eqn:E; cbn [lift pbind]; [|now apply after_throw].
          apply after_ret; [auto|]. apply search_results in E as [E _]. cbn [fst]. auto.
        + destruct (search feqb fltb s (Some (v, np_std (filter isfinite values)))) as [[s' [tr' b']]|] eqn:E; cbn [lift pbind]; [|now apply after_throw].
          apply search_results in E as [E1 E2].
          assert (Y : forall p, In p (s_results s ++ [(v, np_std (filter isfinite values))]) -> tried np_std voltage source (fst p) (snd p) h7).
          { intros p P. apply in_app_iff in P as [P|[<-|[]]]; auto. }
          destruct b' as [b'|].
          * apply after_ret; [auto|]. apply after_ret; [auto|]. auto.
          * apply after_ret; [auto|]. cbn [fst]. auto. }
    exact (A _ _ H).
  Qed.

  (** A run that ends well ends with these messages, where the value stored was tried before and measured
      with the metric on which it was chosen. *)
  Theorem C74_stored t : traces run' t (Some (inr tt)) ->
    exists t0 voltage source v m poles lo hi,
      tried np_std voltage source v m t0 /\
      t = t0 ++ [done StopMsg; done (TrimMsg (axis v)); done (BctMsg v);
                 done StopMsg; done (PolesMsg poles); done (MinMsg lo); done (MaxMsg hi); done WriteMsg].
  Proof.
    unfold run', run. intros H.
    apply traces_ok_bind in H as ([[[[poles lo] hi] vo] so] & u1 & u2 & -> & H1 & H).
    apply traces_ok_bind in H as ([] & u3 & u4 & -> & H2 & H). asked_ok H2.
    apply traces_ok_bind in H as ([] & u5 & u6 & -> & H2 & H). asked_ok H.
    apply finally_ends in H2 as (w1 & w2 & o' & -> & M & [(t1 & m & e' & _ & -> & E)|[<- ->]]); [discriminate|].
    unfold measuring in M. apply traces_ok_bind in M as ([v m] & x1 & x2 & -> & B & M). apply best_tried in B.
    apply traces_ok_bind in M as ([] & x3 & x4 & -> & M1 & M). asked_ok M1.
    apply traces_ok_bind in M as ([] & x5 & x6 & -> & M1 & M). asked_ok M1.
    asked_ok M. cbn [fst snd] in *. rewrite axis_eq.
    exists (u1 ++ [done (MaxMsg fnan)] ++ x1), vo, so, v, m, poles, lo, hi. split.
    - destruct B as (h1 & values & h2 & -> & E). exists (u1 ++ [done (MaxMsg fnan)] ++ h1), values, h2. split; [|exact E].
      now rewrite <- !app_assoc.
    - rewrite <- !app_assoc. reflexivity.
  Qed.

  (** ** The voltage *)
  Lemma currents_data n : forall t data, traces (currents n) t (Some (inr data)) ->
    length data = n /\ t = map (fun x => @answered breq brep BCurrent (inr x)) data.
  Proof.
    induction n as [|n IH]; intros t data H; cbn [currents] in H.
    - apply traces_ok_ret in H as [-> <-]. auto.
    - apply traces_ok_bind in H as (x & u1 & u2 & -> & H1 & H). asked_ok H1.
      apply traces_ok_bind in H as (xs & u3 & u4 & -> & H1 & H). apply IH in H1 as [L ->].
      apply traces_ok_ret in H as [-> <-]. cbn. rewrite app_nil_r, L. auto.
  Qed.

  Lemma turn_tested v t r : traces (voltage_turn py_sum power v) t (Some (inr r)) ->
    exists data, length data = 10%nat /\ t = tested v data /\
      r = if fltb power (fmul (fdiv (py_sum data) (float_of_Z 10)) v) then inr v else inl (fmul v (flit 11 1)).
  Proof.
    unfold voltage_turn, find_current, bcommand, bask. intros H.
    apply traces_ok_bind in H as (c & u1 & u2 & -> & H1 & H).
    apply traces_ok_bind in H1 as ([] & w1 & w2 & -> & P & H1). asked_ok P.
    apply traces_ok_bind in H1 as ([] & w3 & w4 & -> & P & H1). asked_ok P.
    apply traces_ok_bind in H1 as (data & w5 & w6 & -> & P & H1). apply currents_data in P as [L ->].
    apply traces_ok_bind in H1 as ([] & w7 & w8 & -> & P & H1). asked_ok P.
    apply traces_ok_bind in H1 as ([] & w9 & w10 & -> & P & H1). asked_ok P.
    apply traces_ok_ret in H1 as [-> <-]. exists data. split; [exact L|].
    destruct (fltb power _); apply traces_ok_ret in H as [-> <-]; (split; [|reflexivity]); unfold tested; rewrite !app_nil_r; rewrite <- ?app_assoc; reflexivity.
  Qed.

  (** The voltage used is forced, or the first of the growing voltages at which the power measured is
      more than the power asked for. *)
  Theorem C74_voltage t v : traces (find_open_loop_voltage py_sum power force_voltage) t (Some (inr v)) ->
    match force_voltage with
    | Some f => v = f /\ t = []
    | None => climbs py_sum power (flit 1 2) t v
    end.
  Proof.
    unfold find_open_loop_voltage. destruct force_voltage as [f|]; intros H.
    - apply traces_ok_ret in H as [-> <-]. auto.
    - cbn [traces] in H. remember (Some (inr v)) as o eqn:E. revert E.
      induction H as [x t H|x t e H|x t x' t' o H H2 IH|x t b t' o H H2]; intros E; try discriminate.
      + apply turn_tested in H as (data & L & -> & R). destruct (fltb power _) eqn:F; [discriminate|]. injection R as ->.
        apply climbs_on; auto.
      + subst o. cbn in H2. destruct H2 as [-> [H2|H2]]; [discriminate|]. injection H2 as <-.
        apply turn_tested in H as (data & L & -> & R). destruct (fltb power _) eqn:F; [|discriminate]. injection R as ->.
        rewrite app_nil_r. now apply climbs_here.
  Qed.
End Run.

(** A small device: [cap] gives the values of the capture of this number, [fails] says which requests
    fail. *)
Definition bdev (cap : nat -> list float) (fails : breq -> bool) (w : nat) (r : breq) : nat * (err + brep r) :=
  if fails r then (w, inl (Exn RuntimeError))
  else match r with
       | BCapture _ => (S w, inr (cap w))
       | BRead NPoles => (w, inr (float_of_Z 14))
       | BRead NBct => (w, inr (float_of_Z 100))
       | BRead _ => (w, inr (float_of_Z 1))
       | BCurrent => (w, inr (float_of_Z 1))
       | BSource => (w, inr 0)
       | _ => (w, inr tt)
       end.
Definition first_of (l : list float) : float := hd (float_of_Z 0) l.
Definition toy_run := run first_of first_of (float_of_Z 3) (Some (float_of_Z 1)).
Definition all_same (_ : nat) : list float := [float_of_Z 1].
Definition none_fails (_ : breq) : bool := false.
Definition toy_bct (cap : nat -> list float) (fails : breq -> bool) := drive 1000 (bdev cap fails) O toy_run.
Definition last_nan (w : nat) : list float := if Nat.eqb w 32 then [S754_nan] else all_same w.
Definition min_fails (r : breq) : bool := match r with BCommand (MinMsg _) => true | _ => false end.
Definition capture_fails (r : breq) : bool := match r with BCapture _ => true | _ => false end.
Definition succeeded (e : bevent) : bool := match projT2 e with Some (inr _) => true | _ => false end.
Definition is_done (v : Z) (e : bevent) : bool := succeeded e && match question e with BCommand (BctMsg x) => x =? v | _ => false end.
Lemma existsb_done v t : existsb (is_done v) t = true -> In (done (BctMsg v)) t.
Proof.
  intros H. apply existsb_exists in H as (e & E & B). apply andb_prop in B as [B1 B2]. destruct e as [r [[x|x]|]]; try discriminate.
  destruct r as [| |[| | | |y| | | |]| | | | |]; cbn in B2; try discriminate. apply Z.eqb_eq in B2 as ->. destruct x. exact E.
Qed.

Definition toy_trace cap fails : list bevent := match toy_bct cap fails with Some (t, _, _) => t | None => [] end.
Ltac found n := match n with O => fail | S ?m => first [apply (nth_error_In _ m); vm_compute; reflexivity | found m] end.
Lemma toy_traces cap fails o w : toy_bct cap fails = Some (toy_trace cap fails, o, w) ->
  traces toy_run (toy_trace cap fails) (Some o).
Proof. exact (drive_traces _ _ _ _ _ _ _ _ _). Qed.

(** A run of all the requests, in which one value tried measures better than the others. *)
Definition toy_cap (w : nat) : list float := [float_of_Z (if Nat.eqb w 15 then 0 else 100 - Z.of_nat w)].
Example C74_stored_ex :
  traces toy_run (toy_trace toy_cap none_fails) (Some (inr tt)) /\
  In (done (BctMsg 217)) (toy_trace toy_cap none_fails) /\ In (done (MaxMsg fnan)) (toy_trace toy_cap none_fails) /\
  was NPoles (float_of_Z 14) (toy_trace toy_cap none_fails).
Proof.
  split; [eapply toy_traces; vm_compute; reflexivity|].
  split; [|split].
  - apply (existsb_done 217). vm_compute. reflexivity.
  - found 15%nat.
  - unfold was. found 15%nat.
Qed.

(** What is stored need not be what was tried: of a negative value the amount was tried, but the value
    with its sign is stored. *)
Theorem C74_sign_refuted : ~ (forall py_sum np_std power force t v,
  traces (run py_sum np_std power force) t (Some (inr tt)) -> In (done (BctMsg v)) t -> 0 <= v).
Proof.
  intros H.
  assert (X : 0 <= -248); [|lia].
  apply (H first_of first_of (float_of_Z 3) (Some (float_of_Z 1)) (toy_trace all_same none_fails)).
  - eapply toy_traces. vm_compute. reflexivity.
  - apply (existsb_done (-248)). vm_compute. reflexivity.
Qed.

(** A measurement without enough finite values is passed over, but not when it is the last: then the best
    value is found and thrown away, and the program fails although all its requests were answered. *)
Theorem C74_last_refuted : ~ (forall py_sum np_std power force t o,
  traces (run py_sum np_std power force) t (Some o) -> forallb succeeded t = true -> o = inr tt).
Proof.
  intros H.
  assert (X : inl (Exn TypeError) = inr tt :> err + unit); [|discriminate].
  apply (H first_of first_of (float_of_Z 3) (Some (float_of_Z 1)) (toy_trace last_nan none_fails)).
  - eapply toy_traces. vm_compute. reflexivity.
  - vm_compute. reflexivity.
Qed.

(** The poles are not put back when switching off a limit fails. *)
Theorem C74_poles_refuted : ~ (forall py_sum np_std power force t o p,
  traces (run py_sum np_std power force) t (Some o) -> was NPoles p t -> In (done (PolesMsg (float_of_Z 2))) t ->
  In (done (PolesMsg p)) t).
Proof.
  intros H.
  pose proof (H first_of first_of (float_of_Z 3) (Some (float_of_Z 1)) (toy_trace all_same min_fails) (inl (Exn RuntimeError)) (float_of_Z 14)) as G.
  assert (X : In (done (PolesMsg (float_of_Z 14))) (toy_trace all_same min_fails)).
  { apply G; [eapply toy_traces; vm_compute; reflexivity|unfold was; found 15%nat|found 15%nat]. }
  assert (Y : existsb (fun e => match question e with BCommand (PolesMsg p) => feqb p (float_of_Z 14) | _ => false end) (toy_trace all_same min_fails) = false)
    by (vm_compute; reflexivity).
  rewrite (proj2 (existsb_exists _ _)) in Y; [discriminate|]. eexists. split; [exact X|]. vm_compute. reflexivity.
Qed.

(** The bias current trim is not put back when the search fails. *)
Theorem C74_bct_refuted : ~ (forall py_sum np_std power force t e z,
  traces (run py_sum np_std power force) t (Some (inl e)) -> was NBct (float_of_Z z) t -> In (done (MaxMsg fnan)) t ->
  In (done (BctMsg z)) t).
Proof.
  intros H.
  pose proof (H first_of first_of (float_of_Z 3) (Some (float_of_Z 1)) (toy_trace all_same capture_fails) (Exn RuntimeError) 100) as G.
  assert (X : In (done (BctMsg 100)) (toy_trace all_same capture_fails)).
  { apply G; [eapply toy_traces; vm_compute; reflexivity|unfold was; found 15%nat|found 15%nat]. }
  assert (Y : existsb (fun e => match question e with BCommand (BctMsg z) => z =? 100 | _ => false end) (toy_trace all_same capture_fails) = false)
    by (vm_compute; reflexivity).
  rewrite (proj2 (existsb_exists _ _)) in Y; [discriminate|]. eexists. split; [exact X|]. reflexivity.
Qed.

(** The voltage grows for as long as the power is not reached, which may be for ever: no number of tests
    is the last. *)
Lemma ok_ask A (r : breq) a (f : brep r -> bproc A) t o : traces (f a) t o ->
  traces (pbind (bask r) f) (@answered breq brep r (inr a) :: t) o.
Proof. intros H. cbn. right. exists (inr a), t. split; [reflexivity|exact H]. Qed.
Lemma ok_then A B (p : bproc A) a (f : A -> bproc B) t1 t2 o :
  traces p t1 (Some (inr a)) -> traces (f a) t2 o -> traces (pbind p f) (t1 ++ t2) o.
Proof. intros H1 H2. apply traces_bind_back. right. right. exists a, t1, t2. auto. Qed.
Lemma currents_on n : traces (currents n) (map (fun x => @answered breq brep BCurrent (inr x)) (repeat (float_of_Z 0) n))
  (Some (inr (repeat (float_of_Z 0) n))).
Proof.
  induction n as [|n IH]; [cbn; auto|]. cbn [currents repeat map]. apply ok_ask.
  rewrite <- (app_nil_r (map _ _)). eapply ok_then; [exact IH|]. cbn [traces]. auto.
Qed.
Lemma turn_on py_sum v : traces (voltage_turn py_sum (S754_infinity false) v) (tested v (repeat (float_of_Z 0) 10))
  (Some (inr (inl (fmul v (flit 11 1))))).
Proof.
  unfold voltage_turn. rewrite <- (app_nil_r (tested _ _)).
  apply ok_then with (a := fdiv (py_sum (repeat (float_of_Z 0) 10)) (float_of_Z 10)).
  - unfold find_current, tested, bcommand, done. cbn [app].
    apply (ok_ask _ (BCommand (PwmMsg v)) tt). apply (ok_ask _ (BSleep (flit 15 2)) tt).
    eapply ok_then; [apply currents_on|].
    apply (ok_ask _ (BCommand StopMsg) tt). apply (ok_ask _ (BSleep (flit 5 2)) tt). cbn [traces]. auto.
  - assert (Q : forall x, fltb (S754_infinity false) x = false) by (intros [[] | [] | | []]; reflexivity).
    rewrite Q. cbn [traces]. auto.
Qed.
Theorem C74_voltage_refuted : ~ (exists n, forall py_sum power t o,
  traces (find_open_loop_voltage py_sum power None) t o -> (length (filter is_pwm t) <= n)%nat).
Proof.
  intros (n & H).
  assert (G : forall k v, exists t, traces (Loop (voltage_turn first_of (S754_infinity false)) v (fun v => Ret v)) t None /\ length (filter is_pwm t) = k).
  { induction k as [|k IH]; intros v.
    - exists []. split; [apply traces_nil|reflexivity].
    - destruct (IH (fmul v (flit 11 1))) as (t & R & L). exists (tested v (repeat (float_of_Z 0) 10) ++ t). split.
      + exact (turn_again _ _ _ _ _ _ _ (turn_on first_of v) R).
      + rewrite filter_app, app_length, L. unfold tested. rewrite !filter_app. reflexivity. }
  destruct (G (S n) (flit 1 2)) as (t & R & L). specialize (H first_of (S754_infinity false) t None R). lia.
Qed.
Example C74_voltage_ex : match drive 1000 (bdev all_same none_fails) O (find_open_loop_voltage first_of (flit 15 3) None) with
  Some (t, inr v, _) => Nat.ltb 1 (length (filter is_pwm t)) | _ => false end = true.
Proof. vm_compute. reflexivity. Qed.

Print Assumptions C74_search.
Print Assumptions C74_best_refuted.
Print Assumptions C74_restores.
Print Assumptions C74_stored.
Print Assumptions C74_voltage.
Print Assumptions C74_sign_refuted.
Print Assumptions C74_last_refuted.
Print Assumptions C74_poles_refuted.
Print Assumptions C74_bct_refuted.
Print Assumptions C74_voltage_refuted.
