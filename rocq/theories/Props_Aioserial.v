(** C29: the serial port object used on posix systems. *)
From Coq Require Import ZArith List Bool Lia.
From Verif Require Import PyBase Async Async_Proofs Serial Aioserial_Model.
Import ListNotations.
Open Scope Z_scope.

Notation AP := (prog aio areq unit).
Notation apool := (pool aio areq unit (list Z)).
Notation atask := (task aio areq unit (list Z)).

(** ** Specification *)

(** What happens to the object, in order: a read is started, the future a read
    waits for is resolved and the read goes on, a read is cancelled, bytes
    arrive, something is written. *)
Inductive act :=
| Read (size : Z) (block : bool)
| Wake (t : nat)
| Cancelled (t : nat)
| Arrive (d : list Z)
| Write (d : list Z)
| Drain (err : option (nat * exn)).

Inductive history : list act -> apool -> Prop :=
| h_start : history [] (start aio0)
| h_read acts P size block P' : history acts P -> step P (Spawn (aio_read size block)) P' ->
    history (acts ++ [Read size block]) P'
| h_wake acts P t i k P' : history acts P -> nth_error (po_tasks P) t = Some (Calling (Future i) k) ->
    nth_error (as_futures (sh_st (po_shared P))) i = Some true ->
    step P (Answer t (Ok tt)) P' -> history (acts ++ [Wake t]) P'
| h_cancel acts P t P' : history acts P -> step P (Cancel t) P' -> history (acts ++ [Cancelled t]) P'
| h_arrive acts P d P' : history acts P -> step P (Sync (handle_read d)) P' ->
    history (acts ++ [Arrive d]) P'
| h_write acts P d P' : history acts P -> step P (Sync (aio_write d)) P' ->
    history (acts ++ [Write d]) P'
| h_drain acts P err P' : history acts P -> step P (Sync (fun s => snd (aio_drain err s))) P' ->
    history (acts ++ [Drain err]) P'.

Definition arrived (acts : list act) : list Z :=
  flat_map (fun a => match a with Arrive d => d | _ => [] end) acts.
Definition reads (acts : list act) : list (Z * bool) :=
  flat_map (fun a => match a with Read size block => [(size, block)] | _ => [] end) acts.
Definition buffered (P : apool) : list Z := as_read (sh_st (po_shared P)).

(** Bytes taken out of the buffer, in order, with the read that took them. *)
Definition pieces := list (nat * list Z).
Definition got (t : nat) (ps : pieces) : list Z :=
  flat_map (fun p => if Nat.eqb (fst p) t then snd p else []) ps.

(** What can have become of read(size, block) that took [g]. *)
Definition fate (size : Z) (block : bool) (g : list Z) (x : atask) : Prop :=
  match x with
  | Done (Ok r) => r = g /\ 1 <= Z.of_nat (List.length g) <= size /\
                   (block = true -> Z.of_nat (List.length g) = size)
  | Done (Raise e) => (block = false -> g = []) /\
      (e = CancelledError /\ (g = [] \/ Z.of_nat (List.length g) < size) \/
       e = AssertionError /\ size <= 0 /\ g = [])
  | Calling _ _ => (block = false -> g = []) /\ (g = [] \/ Z.of_nat (List.length g) < size)
  | LockWait _ => False
  end.

(** ** One turn of a read *)
Definition turn (size : Z) (block : bool) (r : list Z + list Z) : AP (list Z) :=
  match r with inl result => Loop (read_body size block) result Ret | inr b => Ret b end.
Definition inner (size : Z) (block : bool) (result : list Z) (u : unit) : AP (list Z) :=
  Loop wait_body u (fun _ => pbind (take size block result) (turn size block)).
Definition again (size : Z) (block : bool) (result : list Z) (r : unit + unit) : AP (list Z) :=
  match r with
  | inl u => inner size block result u
  | inr _ => pbind (take size block result) (turn size block)
  end.
Definition after (size : Z) (block : bool) (result : list Z) (r : res unit) : AP (list Z) :=
  pbind (pbind (lift r) (fun _ => pbind event_clear (fun _ => Ret (inl tt))))
        (again size block result).

Definition park (s : aio) : aio := set_flag false (as_futures s ++ [false]) s.
Definition serve (size : Z) (block : bool) (result : list Z) (s : aio) : atask * aio :=
  match as_read s with
  | [] => (Calling (Future (List.length (as_futures s))) (after size block result), park s)
  | _ :: _ =>
      let n := Z.min (size - Z.of_nat (List.length result)) (Z.of_nat (List.length (as_read s))) in
      if n >? 0 then
        let g := result ++ firstn (Z.to_nat n) (as_read s) in
        let s' := set_read (skipn (Z.to_nat n) (as_read s)) s in
        if negb block || (Z.of_nat (List.length g) =? size) then (Done (Ok g), s')
        else (Calling (Future (List.length (as_futures s))) (after size block g), park s')
      else (Done (Raise AssertionError), s)
  end.

Definition sh_with (w : shared aio areq) (s : aio) : shared aio areq :=
  Shared s (sh_owner w) (sh_queue w) (sh_log w).

Lemma advance_inner_empty size block result t w : as_read (sh_st w) = [] ->
  exists n w', advance n t (inner size block result tt) w =
    Some (Calling (Future (List.length (as_futures (sh_st w)))) (after size block result), w') /\
    sh_st w' = park (sh_st w).
Proof.
  intros E. destruct w as [s o q lg]. destruct s as [rd wr fl fs snt]. cbn in E. subst rd.
  destruct fl.
  - exists 12%nat. eexists. split; [reflexivity|reflexivity].
  - exists 12%nat. eexists. split; [reflexivity|reflexivity].
Qed.

Lemma advance_inner size block result t w :
  exists n w', advance n t (inner size block result tt) w =
    Some (fst (serve size block result (sh_st w)), w') /\
    sh_st w' = snd (serve size block result (sh_st w)).
Proof.
  unfold serve. destruct (as_read (sh_st w)) as [|b rd] eqn:E.
  { now apply advance_inner_empty. }
  rewrite <- E.
  assert (forall n, advance (S (S (S n))) t (inner size block result tt) w =
    let r := Z.min (size - Z.of_nat (List.length result)) (Z.of_nat (List.length (as_read (sh_st w)))) in
    advance n t (pbind (if r >? 0 then
       let g := result ++ firstn (Z.to_nat r) (as_read (sh_st w)) in
       Put (set_read (skipn (Z.to_nat r) (as_read (sh_st w))) (sh_st w))
         (if negb block || (Z.of_nat (List.length g) =? size) then Ret (inr g) else Ret (inl g))
       else Throw AssertionError) (turn size block)) w) as Step.
  { intros n. cbn [advance inner unroll wait_body pbind]. rewrite E. cbn [pbind again advance take].
    rewrite E. reflexivity. }
  cbv zeta in Step |- *.
  set (r := Z.min _ _) in *. destruct (r >? 0) eqn:G.
  2:{ exists 4%nat. eexists. rewrite Step. cbn. split; reflexivity. }
  set (g := result ++ _) in *.
  destruct (negb block || (Z.of_nat (List.length g) =? size)) eqn:D.
  { exists 5%nat. eexists. rewrite Step. split; reflexivity. }
  apply orb_false_iff in D as [Db Dl]. apply Z.eqb_neq in Dl.
  set (s' := set_read _ _).
  assert (as_read s' = []) as E'.
  { cbn. apply skipn_all2. subst g. rewrite app_length, firstn_length in Dl. lia. }
  destruct (advance_inner_empty size block g t (sh_with w s')) as (n & w' & A & B); [exact E'|].
  exists (S (S (S (S (S n))))), w'. rewrite Step. split; [|exact B]. exact A.
Qed.

Lemma advance_serve size block result t w n x w' :
  advance n t (inner size block result tt) w = Some (x, w') ->
  (x, sh_st w') = serve size block result (sh_st w).
Proof.
  intros H. destruct (advance_inner size block result t w) as (m & w2 & A & B).
  pose proof (advance_det _ _ _ _ _ _ _ _ H A) as D.
  destruct (serve size block result (sh_st w)). cbn in *. congruence.
Qed.

Lemma advance_read size block t w n x w' :
  advance n t (aio_read size block) w = Some (x, w') ->
  (x, sh_st w') = serve size block [] (sh_st w).
Proof.
  intros H. destruct n as [|n]; [discriminate|]. change (advance n t (inner size block [] tt) w = Some (x, w')) in H.
  now apply advance_serve in H.
Qed.

Lemma advance_after size block result t w n x w' :
  advance n t (after size block result (Ok tt)) w = Some (x, w') ->
  (x, sh_st w') = serve size block result (set_flag false (as_futures (sh_st w)) (sh_st w)).
Proof.
  intros H. destruct n as [|[|n]]; try discriminate.
  change (advance n t (inner size block result tt)
    (sh_with w (set_flag false (as_futures (sh_st w)) (sh_st w))) = Some (x, w')) in H.
  now apply advance_serve in H.
Qed.
Lemma advance_after_raise size block result e t w n x w' :
  advance n t (after size block result (Raise e)) w = Some (x, w') ->
  x = Done (Raise e) /\ sh_st w' = sh_st w.
Proof.
  intros H. destruct n as [|n]; [discriminate|]. cbn in H. injection H as <- <-. auto.
Qed.

(** ** The invariant *)
Definition awake (s : aio) : Prop :=
  (as_flag s = true -> ~ In false (as_futures s)) /\ (In false (as_futures s) -> as_read s = []).

Definition may_wait (size : Z) (block : bool) (g : list Z) : Prop :=
  (block = false -> g = []) /\ (g = [] \/ Z.of_nat (List.length g) < size).

Definition waits_well (s : aio) (size : Z) (block : bool) (g : list Z) (x : atask) : Prop :=
  match x with
  | Calling (Future i) k => k = after size block g /\ (i < List.length (as_futures s))%nat
  | _ => True
  end.

Lemma serve_ok size block result s x s' : may_wait size block result -> awake s ->
  (x, s') = serve size block result s ->
  exists new, as_read s = new ++ as_read s' /\ fate size block (result ++ new) x /\
    waits_well s' size block (result ++ new) x /\ awake s' /\
    (List.length (as_futures s) <= List.length (as_futures s'))%nat /\
    ((exists r, x = Done r) \/ as_read s' = []).
Proof.
  intros [M1 M2] [A1 A2] H. unfold serve in H.
  destruct (as_read s) as [|b rd] eqn:E.
  { injection H as -> ->. exists []. rewrite app_nil_r. cbn. rewrite E. repeat split; auto.
    - rewrite app_length. cbn. lia.
    - discriminate.
    - rewrite app_length. cbn. lia. }
  rewrite <- E in *. assert (as_read s <> []) as NE by now rewrite E.
  assert (1 <= Z.of_nat (List.length (as_read s))) as L1 by (rewrite E; cbn; lia).
  clear E b rd. cbv zeta in H. set (n := Z.min _ _) in H.
  destruct (n >? 0) eqn:G.
  2:{ injection H as -> ->. exists []. rewrite app_nil_r. cbn. repeat split; auto; try lia.
      - right. assert (size - Z.of_nat (List.length result) <= 0) by lia.
        destruct M2 as [->|M2]; [|lia]. cbn in *. repeat split; lia.
      - left. eauto. }
  set (new := firstn (Z.to_nat n) (as_read s)) in *.
  assert (as_read s = new ++ skipn (Z.to_nat n) (as_read s)) as Sp by (symmetry; apply firstn_skipn).
  assert (Z.of_nat (List.length (result ++ new)) = Z.of_nat (List.length result) + n) as Ln.
  { unfold new. rewrite app_length, firstn_length. lia. }
  destruct (negb block || _) eqn:D; injection H as -> ->; exists new; (split; [exact Sp|]).
  - cbn. unfold awake. cbn. assert (In false (as_futures s) -> False) as NF by (intros F; auto).
    repeat split; auto; try lia; try tauto; [|left; eauto].
    intros ->. cbn in D. lia.
  - apply orb_false_iff in D as [Db Dl]. apply negb_false_iff in Db. subst block.
    assert (skipn (Z.to_nat n) (as_read s) = []) as E' by (apply skipn_all2; lia).
    cbn. rewrite E'. repeat split; auto; try discriminate; try (rewrite app_length; cbn; lia).
    right. lia.
Qed.

Record inv (acts : list act) (P : apool) (ps : pieces) : Prop := {
  inv_arrived : arrived acts = concat (map snd ps) ++ buffered P;
  inv_length : List.length (po_tasks P) = List.length (reads acts);
  inv_tasks : forall t size block x, nth_error (reads acts) t = Some (size, block) ->
    nth_error (po_tasks P) t = Some x -> fate size block (got t ps) x /\
      waits_well (sh_st (po_shared P)) size block (got t ps) x;
  inv_awake : awake (sh_st (po_shared P));
  inv_known : forall p, In p ps -> (fst p < List.length (po_tasks P))%nat
}.

Lemma got_app t a b : got t (a ++ b) = got t a ++ got t b.
Proof. apply flat_map_app. Qed.
Lemma got_other t ps : (forall p, In p ps -> (fst p < t)%nat) -> got t ps = [].
Proof.
  induction ps as [|[u d] ps IH]; intros H; [reflexivity|]. cbn.
  rewrite (proj2 (Nat.eqb_neq u t)). { apply IH. intros p I. apply H. now right. }
  specialize (H (u, d) (or_introl eq_refl)). cbn in H. lia.
Qed.
Lemma arrived_app a b : arrived (a ++ b) = arrived a ++ arrived b.
Proof. apply flat_map_app. Qed.
Lemma reads_app a b : reads (a ++ b) = reads a ++ reads b.
Proof. apply flat_map_app. Qed.

Lemma waits_well_mono s s' size block g x :
  (List.length (as_futures s) <= List.length (as_futures s'))%nat ->
  waits_well s size block g x -> waits_well s' size block g x.
Proof. destruct x as [|k|[i] k]; cbn; intuition lia. Qed.

(** A read goes on: task [t] becomes [x]. *)
Lemma inv_turn acts P ps a size block x t ts w w' :
  inv acts P ps -> P = Pool ts w -> reads [a] = [] -> arrived [a] = [] ->
  nth_error (reads acts) t = Some (size, block) -> (t < List.length ts)%nat ->
  may_wait size block (got t ps) ->
  (exists s, awake s /\ as_read s = as_read (sh_st w) /\ as_futures s = as_futures (sh_st w) /\
     (x, sh_st w') = serve size block (got t ps) s) ->
  exists ps', inv (acts ++ [a]) (Pool (set_nth ts t x) w') ps' /\
    ((exists r, x = Done r) \/ as_read (sh_st w') = []).
Proof.
  intros [I1 I2 I3 I4 I5] -> Ra Aa Et Lt M (s & As & Es & Ef & S).
  cbn [po_tasks po_shared] in *.
  destruct (serve_ok _ _ _ _ _ _ M As S) as (new & N1 & N2 & N3 & N4 & N5 & N6).
  destruct (nth_error ts t) as [y|] eqn:Ey; [|apply nth_error_None in Ey; lia].
  exists (ps ++ [(t, new)]). split; [|exact N6]. split; cbn.
  - rewrite arrived_app, Aa, app_nil_r, I1, map_app, concat_app. cbn. rewrite app_nil_r, <- app_assoc.
    unfold buffered. cbn. now rewrite <- Es, N1.
  - rewrite reads_app, Ra, app_nil_r. rewrite <- I2. eapply length_set_nth; eauto.
  - intros u size' block' z. rewrite reads_app, Ra, app_nil_r. intros Eu Ez.
    rewrite got_app. cbn. rewrite app_nil_r.
    destruct (Nat.eqb_spec t u) as [->|Ne].
    + assert ((size', block') = (size, block)) as Eq by congruence. injection Eq as -> ->.
      rewrite (nth_set_nth _ _ _ _ _ Ey), Nat.eqb_refl in Ez. injection Ez as <-. auto.
    + rewrite app_nil_r. rewrite (nth_set_nth _ _ _ _ _ Ey) in Ez.
      rewrite (proj2 (Nat.eqb_neq u t)) in Ez by congruence.
      destruct (I3 _ _ _ _ Eu Ez) as [F W]. split; [exact F|].
      eapply waits_well_mono; [|exact W]. rewrite <- Ef. exact N5.
  - exact N4.
  - intros p Hp. rewrite (length_set_nth _ _ _ _ _ Ey). apply in_app_or in Hp as [Hp|[<-|[]]]; auto.
Qed.

Lemma fate_calling size block g q k : fate size block g (Calling q k) -> may_wait size block g.
Proof. intros [A B]. split; auto. Qed.

Lemma awake_clear s : awake s -> awake (set_flag false (as_futures s) s).
Proof. intros [A B]. split; cbn; [discriminate|exact B]. Qed.

Lemma may_wait_nil size block : may_wait size block [].
Proof. split; auto. Qed.

(** A change that no read sees. *)
Lemma inv_same acts P ps a s' ts w : inv acts P ps -> P = Pool ts w -> reads [a] = [] ->
  arrived [a] = [] -> as_read s' = as_read (sh_st w) -> as_flag s' = as_flag (sh_st w) ->
  as_futures s' = as_futures (sh_st w) -> inv (acts ++ [a]) (Pool ts (sh_with w s')) ps.
Proof.
  intros [I1 I2 I3 I4 I5] -> Ra Aa E1 E2 E3. unfold buffered in *.
  cbn [po_tasks po_shared] in *. split; cbn [po_tasks po_shared sh_with sh_st].
  - rewrite arrived_app, Aa, app_nil_r, I1. unfold buffered. cbn. now rewrite E1.
  - now rewrite reads_app, Ra, app_nil_r.
  - intros t size block x. rewrite reads_app, Ra, app_nil_r. intros Et Ex.
    destruct (I3 _ _ _ _ Et Ex) as [F W]. split; [exact F|].
    eapply waits_well_mono; [|exact W]. now rewrite E3.
  - destruct I4. split; rewrite ?E1, ?E2, ?E3; auto.
  - exact I5.
Qed.

Lemma event_set_read s : as_read (event_set s) = as_read s.
Proof. unfold event_set. now destruct (as_flag s). Qed.

Lemma awake_arrive d s : awake s -> awake (handle_read d s) /\
  List.length (as_futures (handle_read d s)) = List.length (as_futures s).
Proof.
  intros [A B]. unfold handle_read, event_set, set_read, set_flag. cbn.
  destruct (as_flag s) eqn:E; cbn; unfold awake; cbn.
  - repeat split; auto. intros F. now apply A in F.
  - assert (In false (map (fun _ : bool => true) (as_futures s)) -> False) as N.
    { intros F. apply in_map_iff in F as (z & Hz & _). discriminate. }
    repeat split; auto; [tauto|]. now rewrite map_length.
Qed.

Lemma history_inv acts P : history acts P -> exists ps, inv acts P ps.
Proof.
  induction 1 as [|acts P size block P' H IH S|acts P t i k P' H IH Et Ei S|acts P t P' H IH S
    |acts P d P' H IH S|acts P d P' H IH S|acts P err P' H IH S].
  - exists []. split; cbn; auto; try tauto.
    + intros [|t] size block x E; discriminate.
    + split; cbn; [discriminate|tauto].
  - destruct IH as [ps I]. inversion S as [ts w p fuel x w' Ad| | | | |]; subst.
    apply advance_read in Ad. destruct I as [I1 I2 I3 I4 I5]. cbn in *.
    destruct (serve_ok _ _ _ _ _ _ (may_wait_nil size block) I4 Ad) as (new & N1 & N2 & N3 & N4 & N5 & _).
    cbn [app] in *.
    assert (got (List.length ts) ps = []) as G0 by now apply got_other.
    exists (ps ++ [(List.length ts, new)]). split; cbn.
    + rewrite arrived_app. cbn. rewrite app_nil_r, I1, map_app, concat_app. cbn.
      rewrite app_nil_r, <- app_assoc. unfold buffered. cbn. now rewrite N1.
    + rewrite reads_app, !app_length. cbn. lia.
    + intros t size' block' z. rewrite reads_app. cbn. intros Eu Ez. rewrite got_app. cbn.
      rewrite app_nil_r. destruct (Nat.eqb_spec (List.length ts) t) as [<-|Ne].
      * rewrite nth_error_app2 in Eu, Ez by lia. rewrite I2, Nat.sub_diag in Eu.
        rewrite Nat.sub_diag in Ez. cbn in Eu, Ez. injection Eu as <- <-. injection Ez as <-.
        rewrite G0. auto.
      * rewrite app_nil_r. assert (t < List.length ts)%nat as Lt.
        { assert (t < List.length (ts ++ [x]))%nat by (apply nth_error_Some; congruence).
          rewrite app_length in *. cbn in *. lia. }
        rewrite nth_error_app1 in Eu, Ez by lia.
        destruct (I3 _ _ _ _ Eu Ez) as [F W]. split; [exact F|].
        eapply waits_well_mono; eauto.
    + exact N4.
    + intros p Hp. rewrite app_length. cbn. apply in_app_or in Hp as [Hp|[<-|[]]].
      * specialize (I5 _ Hp). lia.
      * cbn. lia.
  - destruct IH as [ps I]. inversion S as [|ts w t' r q k' fuel x w' Ek Ad| | | |]; subst. cbn in *.
    rewrite Et in Ek. injection Ek as <- <-.
    assert (t < List.length ts)%nat as Lt by (apply nth_error_Some; congruence).
    destruct (nth_error (reads acts) t) as [[size block]|] eqn:Er.
    2:{ apply nth_error_None in Er. pose proof (inv_length _ _ _ I). cbn in *. lia. }
    destruct (inv_tasks _ _ _ I _ _ _ _ Er Et) as [F [-> Lf]].
    apply advance_after in Ad.
    destruct (inv_turn acts _ ps (Wake t) size block x t ts w w' I eq_refl eq_refl eq_refl Er Lt
      (fate_calling _ _ _ _ _ F)) as (ps' & I' & _); [|eauto].
    eexists. split; [|split; [|split; [|exact Ad]]]; [apply awake_clear, (inv_awake _ _ _ I)| |]; reflexivity.
  - destruct IH as [ps I]. inversion S as [| | | |ts w t' q k' fuel x w' Ek Ad|ts w t' k fuel x w' Ek Ad]; subst.
    2:{ cbn in *. assert (t < List.length ts)%nat as Lt by (apply nth_error_Some; congruence).
        destruct (nth_error (reads acts) t) as [[size block]|] eqn:Er.
        2:{ apply nth_error_None in Er. pose proof (inv_length _ _ _ I). cbn in *. lia. }
        now destruct (inv_tasks _ _ _ I _ _ _ _ Er Ek) as [[] _]. }
    assert (t < List.length ts)%nat as Lt by (apply nth_error_Some; congruence).
    destruct (nth_error (reads acts) t) as [[size block]|] eqn:Er.
    2:{ apply nth_error_None in Er. pose proof (inv_length _ _ _ I). cbn in *. lia. }
    destruct (inv_tasks _ _ _ I _ _ _ _ Er Ek) as [F W]. destruct q as [i]. destruct W as [-> Lf].
    apply advance_after_raise in Ad as [-> Es].
    exists ps. destruct I as [I1 I2 I3 I4 I5]. cbn in *. split; cbn.
    + rewrite arrived_app. cbn. rewrite app_nil_r. unfold buffered in *. cbn in *. now rewrite Es.
    + rewrite reads_app. cbn. rewrite app_nil_r, <- I2. eapply length_set_nth; eauto.
    + intros u size' block' z. rewrite reads_app. cbn. rewrite app_nil_r. intros Eu Ez.
      rewrite (nth_set_nth _ _ _ _ _ Ek) in Ez. destruct (Nat.eqb_spec u t) as [->|Ne].
      * assert ((size', block') = (size, block)) as Eq by congruence. injection Eq as -> ->.
        injection Ez as <-. destruct F as [F1 F2]. split; [|exact Logic.I]. cbn. auto.
      * destruct (I3 _ _ _ _ Eu Ez) as [F' W]. split; [exact F'|]. rewrite Es. exact W.
    + now rewrite Es.
    + intros p Hp. rewrite (length_set_nth _ _ _ _ _ Ek). auto.
  - destruct IH as [ps I]. inversion S as [| | |ts w f| |]; subst.
    exists ps. destruct I as [I1 I2 I3 I4 I5]. cbn in *.
    destruct (awake_arrive d _ I4) as [A L]. split; cbn.
    + rewrite arrived_app, I1. cbn. rewrite app_nil_r. unfold buffered. cbn.
      unfold handle_read. rewrite event_set_read. cbn. now rewrite app_assoc.
    + rewrite reads_app. cbn. now rewrite app_nil_r.
    + intros t size block x. rewrite reads_app. cbn. rewrite app_nil_r. intros Et Ex.
      destruct (I3 _ _ _ _ Et Ex) as [F W]. split; [exact F|].
      eapply waits_well_mono; [|exact W]. now rewrite L.
    + exact A.
    + exact I5.
  - destruct IH as [ps I]. inversion S as [| | |ts w f| |]; subst. exists ps.
    exact (inv_same acts _ ps (Write d) (aio_write d (sh_st w)) ts w I eq_refl eq_refl eq_refl
      eq_refl eq_refl eq_refl).
  - destruct IH as [ps I]. inversion S as [| | |ts w f| |]; subst. exists ps.
    exact (inv_same acts _ ps (Drain err) (snd (aio_drain err (sh_st w))) ts w I eq_refl eq_refl eq_refl
      eq_refl eq_refl eq_refl).
Qed.

(** ** The theorems *)

(** Every byte that arrived is either in the buffer or was taken by one read,
    in the order of arrival; every read that ended returned exactly what it
    took, with the promised size. *)
Theorem C29_conserved : forall acts P, history acts P -> exists ps : pieces,
  arrived acts = concat (map snd ps) ++ buffered P /\
  List.length (po_tasks P) = List.length (reads acts) /\
  forall t size block x, nth_error (reads acts) t = Some (size, block) ->
    nth_error (po_tasks P) t = Some x -> fate size block (got t ps) x.
Proof.
  intros acts P H. apply history_inv in H as [ps I]. exists ps.
  split; [apply I|]. split; [apply I|]. intros t size block x A B. now apply (inv_tasks _ _ _ I).
Qed.

(** While bytes are buffered, every waiting read has been woken. *)
Theorem C29_no_lost_wakeup : forall acts P t i k, history acts P ->
  nth_error (po_tasks P) t = Some (Calling (Future i) k) -> buffered P <> [] ->
  nth_error (as_futures (sh_st (po_shared P))) i = Some true.
Proof.
  intros acts P t i k H Et B. apply history_inv in H as [ps I].
  assert (t < List.length (po_tasks P))%nat as Lt by (apply nth_error_Some; congruence).
  destruct (nth_error (reads acts) t) as [[size block]|] eqn:Er.
  2:{ apply nth_error_None in Er. pose proof (inv_length _ _ _ I). lia. }
  destruct (inv_tasks _ _ _ I _ _ _ _ Er Et) as [F [_ L]].
  destruct (nth_error _ i) as [[|]|] eqn:E; [reflexivity| |apply nth_error_None in E; lia].
  apply nth_error_In in E. now apply (inv_awake _ _ _ I) in E.
Qed.

(** ... and when it goes on it ends or has emptied the buffer. *)
Theorem C29_progress : forall acts P t q k, history acts P ->
  nth_error (po_tasks P) t = Some (Calling q k) -> buffered P <> [] ->
  exists P', history (acts ++ [Wake t]) P' /\
    ((exists r, nth_error (po_tasks P') t = Some (Done r)) \/ buffered P' = []).
Proof.
  intros acts P t [i] k H Et B. pose proof (C29_no_lost_wakeup _ _ _ _ _ H Et B) as Ei.
  pose proof (history_inv _ _ H) as [ps I]. destruct P as [ts w]. cbn in *.
  assert (t < List.length ts)%nat as Lt by (apply nth_error_Some; congruence).
  destruct (nth_error (reads acts) t) as [[size block]|] eqn:Er.
  2:{ apply nth_error_None in Er. pose proof (inv_length _ _ _ I). cbn in *. lia. }
  destruct (inv_tasks _ _ _ I _ _ _ _ Er Et) as [F [Ek L]].
  set (s := set_flag false (as_futures (sh_st w)) (sh_st w)).
  destruct (advance_inner size block (got t ps) t (sh_with w s)) as (n & w' & A & A').
  exists (Pool (set_nth ts t (fst (serve size block (got t ps) s))) w').
  assert (step (Pool ts w) (Answer t (Ok tt))
    (Pool (set_nth ts t (fst (serve size block (got t ps) s))) w')) as S.
  { eapply (step_answer ts w t (Ok tt) _ k (S (S n))); [exact Et|]. rewrite Ek. exact A. }
  split; [now apply (h_wake acts (Pool ts w) t i k)|]. cbn.
  rewrite (nth_set_nth _ _ _ _ _ Et), Nat.eqb_refl.
  destruct (inv_turn acts _ ps (Wake t) size block (fst (serve size block (got t ps) s)) t ts w w' I
    eq_refl eq_refl eq_refl Er Lt (fate_calling _ _ _ _ _ F)) as (ps' & I' & [[r ->]|E]); eauto.
  exists s. split; [apply awake_clear, (inv_awake _ _ _ I)|]. split; [reflexivity|].
  split; [reflexivity|]. cbn [sh_with sh_st] in A'. rewrite A'. now destruct (serve _ _ _ _).
Qed.

(** A read that finds enough bytes ends at once, whatever else is going on. *)
Theorem C29_ready : forall acts P size block, history acts P -> 0 < size ->
  buffered P <> [] -> (block = false \/ size <= Z.of_nat (List.length (buffered P))) ->
  let n := Z.to_nat (Z.min size (Z.of_nat (List.length (buffered P)))) in
  exists P', history (acts ++ [Read size block]) P' /\
    nth_error (po_tasks P') (List.length (po_tasks P)) = Some (Done (Ok (firstn n (buffered P)))) /\
    buffered P' = skipn n (buffered P).
Proof.
  intros acts P size block H Ps B En n. destruct P as [ts w]. unfold buffered in *.
  cbn [po_shared po_tasks] in *.
  destruct (advance_inner size block [] (List.length ts) w) as (m & w' & A & A').
  assert (serve size block [] (sh_st w) = (Done (Ok (firstn n (as_read (sh_st w)))),
    set_read (skipn n (as_read (sh_st w))) (sh_st w))) as S.
  { unfold serve. destruct (as_read (sh_st w)) as [|b rd] eqn:E; [congruence|].
    assert (1 <= Z.of_nat (List.length (b :: rd))) by (cbn; lia).
    cbv zeta. change (Z.of_nat (List.length (@nil Z))) with 0. rewrite Z.sub_0_r.
    fold n. rewrite (proj2 (Z.gtb_lt _ 0)) by lia.
    cbn [app]. destruct (negb block || _) eqn:D; [reflexivity|].
    apply orb_false_iff in D as [D1 D2]. apply negb_false_iff in D1. subst block.
    exfalso. destruct En as [En|En]; [discriminate|]. apply Z.eqb_neq in D2. apply D2.
    rewrite firstn_length. unfold n. lia. }
  rewrite S in A, A'. cbn [fst snd] in A, A'.
  exists (Pool (ts ++ [Done (Ok (firstn n (as_read (sh_st w))))]) w'). split; [|split].
  - apply (h_read acts (Pool ts w)); [exact H|]. now apply (step_spawn ts w _ (Datatypes.S m)).
  - cbn. rewrite nth_error_app2 by lia. now rewrite Nat.sub_diag.
  - cbn. now rewrite A'.
Qed.

(** read(0) raises if anything is buffered. *)
Theorem C29_zero_refuted : forall acts P size block P', history acts P -> size <= 0 ->
  buffered P <> [] -> step P (Spawn (aio_read size block)) P' ->
  nth_error (po_tasks P') (List.length (po_tasks P)) = Some (Done (Raise AssertionError)).
Proof.
  intros acts P size block P' H Sz B S. inversion S as [ts w p fuel x w' Ad| | | | |]; subst.
  apply advance_read in Ad. cbn. rewrite nth_error_app2, Nat.sub_diag by lia. cbn.
  unfold buffered in B. cbn in B. unfold serve in Ad.
  destruct (as_read (sh_st w)) as [|b rd] eqn:E; [congruence|].
  cbv zeta in Ad. destruct (_ >? 0) eqn:G; [|congruence].
  exfalso. change (Z.of_nat (List.length (@nil Z))) with 0 in G. lia.
Qed.

(** ** Writing *)
Definition written (acts : list act) : list Z :=
  flat_map (fun a => match a with Write d => d | _ => [] end) acts.
(** What was written before the last drain. *)
Definition drained (acts : list act) : list Z :=
  fst (fold_left (fun x a => match a with
    | Write d => (fst x, snd x ++ d)
    | Drain _ => (snd x, snd x)
    | _ => x end) acts ([], [])).
Definition no_error (a : act) : Prop := match a with Drain (Some _) => False | _ => True end.

Lemma as_out_serve size block g s x s' : (x, s') = serve size block g s ->
  as_write s' = as_write s /\ as_sent s' = as_sent s.
Proof.
  unfold serve. destruct (as_read s).
  - intros H. injection H as _ ->. auto.
  - cbv zeta. destruct (_ >? 0).
    + destruct (negb block || _); intros H; injection H as _ ->; auto.
    + intros H. injection H as _ ->. auto.
Qed.

Theorem C29_written : forall acts P, history acts P -> Forall no_error acts ->
  as_sent (sh_st (po_shared P)) = drained acts /\
  as_sent (sh_st (po_shared P)) ++ as_write (sh_st (po_shared P)) = written acts.
Proof.
  intros acts P H N.
  assert (forall acts, snd (fold_left (fun x a => match a with
    | Write d => (fst x, snd x ++ d) | Drain _ => (snd x, snd x) | _ => x end) acts ([], [])) =
    written acts) as W.
  { induction acts0 as [|a l IH] using rev_ind; [reflexivity|].
    rewrite fold_left_app. unfold written in *. rewrite flat_map_app, <- IH.
    destruct a; cbn; now rewrite ?app_nil_r. }
  unfold drained.
  induction H as [|acts P size block P' H IH S|acts P t i k P' H IH Et Ei S|acts P t P' H IH S
    |acts P d P' H IH S|acts P d P' H IH S|acts P err P' H IH S].
  - split; reflexivity.
  - apply Forall_app in N as [N _]. specialize (IH N). rewrite fold_left_app.
    unfold written. rewrite flat_map_app. cbn. rewrite app_nil_r.
    inversion S as [ts w p fuel x w' Ad| | | | |]; subst.
    apply advance_read in Ad. apply as_out_serve in Ad as [E1 E2]. cbn. now rewrite E1, E2.
  - apply Forall_app in N as [N _]. specialize (IH N). rewrite fold_left_app.
    unfold written. rewrite flat_map_app. cbn. rewrite app_nil_r.
    inversion S as [|ts w t' r q k' fuel x w' Ek Ad| | | |]; subst. cbn in *.
    apply history_inv in H as [ps J].
    destruct (nth_error (reads acts) t) as [[size block]|] eqn:Er.
    2:{ apply nth_error_None in Er. pose proof (inv_length _ _ _ J).
        assert (t < List.length ts)%nat by (apply nth_error_Some; congruence). cbn in *. lia. }
    destruct q as [j]. destruct (inv_tasks _ _ _ J _ _ _ _ Er Ek) as [F [-> _]].
    apply advance_after, as_out_serve in Ad as [E1 E2]. now rewrite E1, E2.
  - apply Forall_app in N as [N _]. specialize (IH N). rewrite fold_left_app.
    unfold written. rewrite flat_map_app. cbn. rewrite app_nil_r.
    apply history_inv in H as [ps J].
    inversion S as [| | | |ts w t' q k' fuel x w' Ek Ad|ts w t' k fuel x w' Ek Ad]; subst; cbn in *.
    + destruct (nth_error (reads acts) t) as [[size block]|] eqn:Er.
      2:{ apply nth_error_None in Er. pose proof (inv_length _ _ _ J).
          assert (t < List.length ts)%nat by (apply nth_error_Some; congruence). cbn in *. lia. }
      destruct q as [j]. destruct (inv_tasks _ _ _ J _ _ _ _ Er Ek) as [F [-> _]].
      apply advance_after_raise in Ad as [-> E]. now rewrite E.
    + destruct (nth_error (reads acts) t) as [[size block]|] eqn:Er.
      2:{ apply nth_error_None in Er. pose proof (inv_length _ _ _ J).
          assert (t < List.length ts)%nat by (apply nth_error_Some; congruence). cbn in *. lia. }
      now destruct (inv_tasks _ _ _ J _ _ _ _ Er Ek) as [[] _].
  - apply Forall_app in N as [N _]. specialize (IH N). rewrite fold_left_app.
    unfold written. rewrite flat_map_app. cbn. rewrite app_nil_r.
    inversion S as [| | |ts w f| |]; subst. cbn in *. unfold handle_read, event_set. now destruct (as_flag _).
  - apply Forall_app in N as [N _]. specialize (IH N). rewrite fold_left_app.
    unfold written. rewrite flat_map_app. cbn. rewrite app_nil_r.
    inversion S as [| | |ts w f| |]; subst. cbn in *. destruct IH as [IH1 IH2]. split; [exact IH1|].
    rewrite app_assoc, IH2. reflexivity.
  - apply Forall_app in N as [N Ne]. specialize (IH N). rewrite fold_left_app.
    unfold written. rewrite flat_map_app. cbn. rewrite app_nil_r.
    inversion S as [| | |ts w f| |]; subst. cbn in *. destruct IH as [IH1 IH2].
    inversion Ne as [|? ? Ne1 _]; subst. destruct err; [contradiction|].
    rewrite app_nil_r. rewrite W, IH2. auto.
Qed.

(** ** Concrete histories *)
Definition act_event (a : act) : event aio areq unit (list Z) :=
  match a with
  | Read size block => Spawn (aio_read size block)
  | Wake t => Answer t (Ok tt)
  | Cancelled t => Cancel t
  | Arrive d => Sync (handle_read d)
  | Write d => Sync (aio_write d)
  | Drain err => Sync (fun s => snd (aio_drain err s))
  end.
Definition allowed (P : apool) (a : act) : bool :=
  match a with
  | Wake t => match nth_error (po_tasks P) t with
              | Some (Calling (Future i) _) =>
                  match nth_error (as_futures (sh_st (po_shared P))) i with Some b => b | None => false end
              | _ => false end
  | _ => true
  end.
Fixpoint play (n : nat) (P : apool) (acts : list act) : option apool :=
  match acts with
  | [] => Some P
  | a :: acts => if allowed P a then
      match exec_event n P (act_event a) with Some Q => play n Q acts | None => None end
    else None
  end.
Lemma play_history n acts : forall before P Q, history before P -> play n P acts = Some Q ->
  history (before ++ acts) Q.
Proof.
  induction acts as [|a acts IH]; intros before P Q H E.
  - injection E as <-. now rewrite app_nil_r.
  - cbn in E. destruct (allowed P a) eqn:Al; [|discriminate].
    destruct (exec_event n P (act_event a)) as [R|] eqn:Ee; [|discriminate].
    apply exec_event_step in Ee.
    replace (before ++ a :: acts) with ((before ++ [a]) ++ acts) by now rewrite <- app_assoc.
    apply (IH _ R); [|exact E]. destruct a; cbn in Ee; try (econstructor; eassumption).
    cbn in Al. destruct (nth_error (po_tasks P) t) as [[|k|[i] k]|] eqn:Et; try discriminate.
    destruct (nth_error (as_futures _) i) as [[|]|] eqn:Ei; try discriminate.
    econstructor; eassumption.
Qed.

Definition summary (P : apool) : list (option (res (list Z))) * list Z * list Z * list Z :=
  (map (fun x => match x with Done r => Some r | _ => None end) (po_tasks P),
   buffered P, as_sent (sh_st (po_shared P)), as_write (sh_st (po_shared P))).
Lemma played acts x : option_map summary (play 40 (start aio0) acts) = Some x ->
  exists P, history acts P /\ summary P = x.
Proof.
  intros H. destruct (play 40 (start aio0) acts) as [P|] eqn:E; [|discriminate].
  exists P. split; [|now injection H]. apply (play_history 40 acts [] _ P h_start E).
Qed.

(** Two reads wait at the same time; the bytes come in pieces. *)
Example C29_ex : exists P, history [Read 3 true; Read 2 false; Arrive [1; 2]; Wake 0; Wake 1;
    Arrive [3; 4; 5]; Wake 0; Wake 1; Write [7]; Write [8]; Drain None; Write [9]] P /\
  summary P = ([Some (Ok [1; 2; 3]); Some (Ok [4; 5])], [], [7; 8], [9]).
Proof. apply played. vm_compute. reflexivity. Qed.

(** Both readers wait, [buffered] is not empty: the hypotheses of
    C29_no_lost_wakeup and C29_progress. *)
Example C29_ex_waiting : exists P, history [Read 3 true; Read 2 false; Arrive [1; 2]] P /\
  summary P = ([None; None], [1; 2], [], []).
Proof. apply played. vm_compute. reflexivity. Qed.

(** A cancelled blocking read takes with it the bytes it had: they arrived, no
    read returned them and they are not buffered. *)
Theorem C29_cancel_refuted : exists acts P, history acts P /\ arrived acts = [1; 2] /\
  buffered P = [] /\ forall x, In x (po_tasks P) -> x = Done (Raise CancelledError).
Proof.
  assert (exists P, history [Read 3 true; Arrive [1; 2]; Wake 0; Cancelled 0] P /\
    summary P = ([Some (Raise CancelledError)], [], [], [])) as (P & H & S).
  { apply played. vm_compute. reflexivity. }
  exists [Read 3 true; Arrive [1; 2]; Wake 0; Cancelled 0], P.
  split; [exact H|]. split; [reflexivity|]. unfold summary in S.
  destruct P as [ts w]. cbn in S |- *. injection S as E1 E2 _ _.
  split; [exact E2|]. destruct ts as [|[r| |] [|]]; try discriminate.
  injection E1 as ->. intros x [<-|[]]. reflexivity.
Qed.

(** Bytes that serial.write did not take when it raised are lost. *)
Theorem C29_write_error_refuted : exists P, history [Write [1; 2; 3]; Drain (Some (1%nat, RuntimeError))] P /\
  as_sent (sh_st (po_shared P)) = [1] /\ as_write (sh_st (po_shared P)) = [].
Proof.
  assert (exists P, history [Write [1; 2; 3]; Drain (Some (1%nat, RuntimeError))] P /\
    summary P = ([], [], [1], [])) as (P & H & S).
  { apply played. vm_compute. reflexivity. }
  exists P. split; [exact H|]. unfold summary in S. injection S as _ _ E1 E2. auto.
Qed.

Print Assumptions C29_conserved.
Print Assumptions C29_no_lost_wakeup.
Print Assumptions C29_progress.
Print Assumptions C29_ready.
Print Assumptions C29_zero_refuted.
Print Assumptions C29_written.
Print Assumptions C29_cancel_refuted.
Print Assumptions C29_write_error_refuted.
