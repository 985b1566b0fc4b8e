(** C63: what AioStream writes and reads, under every schedule of the event
    loop and its two threads. *)
From Coq Require Import ZArith List Bool Lia ZifyBool ZifyNat.
From Verif Require Import PyBase Aiostream_Model Aiostream_Spec.
Import ListNotations.

(** ** Lists *)

Lemma subseq_app : forall {A} (a b c d : list A), subseq a b -> subseq c d -> subseq (a ++ c) (b ++ d).
Proof.
  induction 1; intros S; cbn; auto; constructor; auto.
Qed.

Lemma subseq_refl : forall {A} (a : list A), subseq a a.
Proof. induction a; constructor; auto. Qed.

Lemma subseq_none : forall {A} (a : list A), subseq [] a.
Proof. induction a; constructor; auto. Qed.

Lemma in_nat_spec : forall n l, in_nat n l = true <-> In n l.
Proof.
  intros. unfold in_nat. rewrite existsb_exists. split.
  - intros (x & I & E). apply PeanoNat.Nat.eqb_eq in E. now subst.
  - intros I. exists n. split; [assumption | apply PeanoNat.Nat.eqb_refl].
Qed.

Lemma upd_same : forall {A} (f : nat -> option A) n x, upd f n x n = x.
Proof. intros. unfold upd. now rewrite PeanoNat.Nat.eqb_refl. Qed.

Lemma upd_other : forall {A} (f : nat -> option A) n m x, m <> n -> upd f n x m = f m.
Proof. intros. unfold upd. rewrite (proj2 (PeanoNat.Nat.eqb_neq m n)); auto. Qed.

Lemma nodup_r : forall {A} (a b : list A), NoDup (a ++ b) -> NoDup b.
Proof. induction a; intros b N; cbn in *; [exact N |]. inversion N. auto. Qed.

Lemma nodup_l : forall {A} (a b : list A), NoDup (a ++ b) -> NoDup a.
Proof.
  induction a as [| x a IH]; intros b N; cbn in *; [constructor |]. inversion N as [| ? ? X Y]; subst.
  constructor; eauto. intros I. apply X. apply in_or_app. auto.
Qed.

(** ** Histories *)

Fixpoint open_from (b : list Z) (h : list wevent) : list Z :=
  match h with
  | [] => b
  | Wrote data :: h => open_from (b ++ data) h
  | Drain _ :: h => open_from [] h
  | Drained _ :: h | DrainCancelled _ :: h => open_from b h
  end.

Lemma parcels_from_app : forall h b k,
  parcels_from b (h ++ k) = parcels_from b h ++ parcels_from (open_from b h) k.
Proof.
  induction h as [| e h IH]; intros; cbn; [reflexivity |].
  destruct e; cbn; rewrite ?IH; reflexivity.
Qed.

Lemma open_from_app : forall h b k, open_from b (h ++ k) = open_from (open_from b h) k.
Proof.
  induction h as [| e h IH]; intros; cbn; [reflexivity |].
  destruct e; cbn; apply IH.
Qed.

Lemma written_parcels : forall h b,
  b ++ written h = concat (map snd (parcels_from b h)) ++ open_from b h.
Proof.
  induction h as [| e h IH]; intros; cbn; [now rewrite app_nil_r |].
  destruct e; cbn.
  - rewrite app_assoc. apply IH.
  - rewrite <- app_assoc, <- (IH []). reflexivity.
  - apply IH.
  - apply IH.
Qed.

Lemma written_app : forall h k, written (h ++ k) = written h ++ written k.
Proof.
  induction h as [| e h IH]; intros; cbn; [reflexivity |].
  destruct e; cbn; rewrite ?IH, ?app_assoc; reflexivity.
Qed.

Lemma wrun_app : forall l k s r,
  wrun s (l ++ k) = Some r ->
  exists s1 h1 s2 h2, wrun s l = Some (s1, h1) /\ wrun s1 k = Some (s2, h2) /\ r = (s2, h1 ++ h2).
Proof.
  induction l as [| a l IH]; intros k s r R; cbn in *.
  - destruct r as [s2 h2]. exists s, [], s2, h2. auto.
  - destruct (wstep s a) as [[s' e] |]; [| discriminate].
    destruct (wrun s' (l ++ k)) as [[t g] |] eqn:E; [| discriminate].
    destruct (IH _ _ _ E) as (s1 & h1 & s2 & h2 & A & B & C). injection C as -> ->.
    injection R as <-. exists s1, (e ++ h1), s2, h2. rewrite A. rewrite app_assoc. auto.
Qed.

(** ** Writing *)

Definition opt {A} (o : option A) : list A := match o with Some x => [x] | None => [] end.

Record winv (s : wstate) (h : list wevent) (m : list (nat * list Z * bool)) : Prop := {
  wi_parcels : parcels h = map fst m ++ opt (w_cur s) ++ w_queue s;
  wi_open : open_from [] h = w_buf s;
  wi_seq : map fst (parcels h) = seq 0 (w_next s);
  wi_fd : w_fd s = concat (map (fun x => snd (fst x)) (filter snd m));
  wi_skip : forall n, In n (w_skip s) <-> In (DrainCancelled n) h;
  wi_false : forall p, In (p, false) m ->
             In (fst p) (w_skip s) \/ (w_alive s = false /\ exists m', m = m' ++ [(p, false)]);
  wi_dead : w_alive s = false -> w_cur s = None;
  wi_ran : forall n, In n (w_posts s) \/ w_fut s n = Some (Got tt) \/ In (Drained n) h ->
           exists d, In (n, d, true) m;
}.

Ltac inv_auto :=
  repeat match goal with
  | H : _ \/ _ |- _ => destruct H
  | H : In _ (_ ++ _) |- _ => apply in_app_or in H
  | H : In _ [_] |- _ => destruct H as [H | []]
  | H : In _ [] |- _ => destruct H
  end.

Lemma winv_step : forall s h m a s' e,
  winv s h m -> (forall k, a <> WRun (Some k)) -> wstep s a = Some (s', e) ->
  exists m', winv s' (h ++ e) m'.
Proof.
  intros s h m a s' e V W S.
  destruct V as [Vp Vo Vs Vf Vk Vn Vd Vr].
  assert (N : forall ev, ~ In (Drain ev) [] ) by (cbn; tauto).
  destruct a as [data | | | short | | | n | n | n]; cbn [wstep] in S.
  - (* write *)
    injection S as <- <-. exists m. split; cbn; auto.
    + unfold parcels. rewrite parcels_from_app. cbn. rewrite app_nil_r. exact Vp.
    + rewrite open_from_app, Vo. reflexivity.
    + unfold parcels. rewrite parcels_from_app. cbn. rewrite app_nil_r. exact Vs.
    + intros n. rewrite in_app_iff, Vk. cbn. intuition discriminate.
    + intros n H. apply Vr. rewrite in_app_iff in H. cbn in H. intuition discriminate.
  - (* drain *)
    injection S as <- <-. exists m. split; cbn; auto.
    + unfold parcels. rewrite parcels_from_app. cbn. rewrite Vo.
      change (parcels_from [] h) with (parcels h). rewrite Vp. rewrite <- !app_assoc. reflexivity.
    + rewrite open_from_app. reflexivity.
    + unfold parcels. rewrite parcels_from_app, map_app. change (parcels_from [] h) with (parcels h).
      rewrite Vs. cbn [parcels_from map fst w_next]. symmetry. apply seq_S.
    + intros n. rewrite in_app_iff, Vk. cbn. intuition discriminate.
    + intros n H. apply Vr. rewrite in_app_iff in H. cbn in H. destruct H as [H | [H | H]]; auto.
      * right. left. unfold upd in H. destruct (Nat.eqb n (w_next s)); [discriminate | exact H].
      * destruct H as [H | [H | []]]; [auto | discriminate].
  - (* take *)
    destruct (w_queue s) as [| j q] eqn:Q; [discriminate |].
    destruct (w_cur s) eqn:C; [discriminate |].
    destruct (w_alive s) eqn:A; [| discriminate].
    injection S as <- <-. rewrite app_nil_r. exists m. split; cbn; auto; try discriminate.
  - (* run *)
    destruct (w_cur s) as [[n data] |] eqn:C; [| discriminate].
    destruct short as [k |]; [exfalso; exact (W k eq_refl) |].
    assert (L : w_alive s = true) by (destruct (w_alive s); [reflexivity | now specialize (Vd eq_refl)]).
    destruct (in_nat n (w_skip s)) eqn:K; injection S as <- <-; rewrite app_nil_r.
    + apply in_nat_spec in K. exists (m ++ [(n, data, false)]). split; cbn; auto.
      * rewrite Vp, map_app. cbn. rewrite <- app_assoc. reflexivity.
      * rewrite filter_app. cbn. rewrite app_nil_r. exact Vf.
      * intros p I. apply in_app_or in I. destruct I as [I | [I | []]].
        -- destruct (Vn p I) as [? | (B & _)]; [auto | congruence].
        -- injection I as <-. auto.
      * intros m0 H. destruct (Vr m0 H) as (d & I). exists d. apply in_or_app. auto.
    + exists (m ++ [(n, data, true)]). split; cbn; auto.
      * rewrite Vp, map_app. cbn. rewrite <- app_assoc. reflexivity.
      * rewrite filter_app, map_app, concat_app. cbn. rewrite app_nil_r, Vf. reflexivity.
      * intros p I. apply in_app_or in I. destruct I as [I | [I | []]]; [| discriminate].
        destruct (Vn p I) as [? | (B & _)]; [auto | congruence].
      * intros m0 H. rewrite in_app_iff in H. destruct H as [[H | [H | []]] | H].
        -- destruct (Vr m0 (or_introl H)) as (d & I). exists d. apply in_or_app. auto.
        -- subst m0. exists data. apply in_or_app. cbn. auto.
        -- destruct (Vr m0 (or_intror H)) as (d & I). exists d. apply in_or_app. auto.
  - (* fail *)
    destruct (w_cur s) as [[n data] |] eqn:C; [| discriminate].
    assert (L : w_alive s = true) by (destruct (w_alive s); [reflexivity | now specialize (Vd eq_refl)]).
    destruct (in_nat n (w_skip s)) eqn:K; [discriminate |].
    injection S as <- <-; rewrite app_nil_r. exists (m ++ [(n, data, false)]). split; cbn; auto.
    + rewrite Vp, map_app. cbn. rewrite <- app_assoc. reflexivity.
    + rewrite filter_app. cbn. rewrite app_nil_r. exact Vf.
    + intros p I. apply in_app_or in I. destruct I as [I | [I | []]].
      * destruct (Vn p I) as [? | (B & _)]; [auto | congruence].
      * injection I as <-. eauto.
    + intros m0 H. destruct (Vr m0 H) as (d & I). exists d. apply in_or_app. auto.
  - (* deliver *)
    destruct (w_posts s) as [| n q] eqn:Q; [discriminate |].
    injection S as <- <-; rewrite app_nil_r. exists m. split; cbn; auto.
    intros m0 H. apply Vr. destruct H as [H | [H | H]]; auto.
    + left. right. exact H.
    + destruct (w_fut s n) as [[| |] |] eqn:F; auto.
      unfold upd in H. destruct (Nat.eqb m0 n) eqn:E; auto.
      apply PeanoNat.Nat.eqb_eq in E. subst. left. now left.
  - (* resume *)
    destruct (w_fut s n) as [[| [] |] |] eqn:F; try discriminate.
    injection S as <- <-. exists m. split; cbn; auto.
    + unfold parcels. rewrite parcels_from_app. cbn. rewrite app_nil_r. exact Vp.
    + rewrite open_from_app. exact Vo.
    + unfold parcels. rewrite parcels_from_app. cbn. rewrite app_nil_r. exact Vs.
    + intros k. rewrite in_app_iff, Vk. cbn. intuition discriminate.
    + intros m0 H. apply Vr. rewrite in_app_iff in H. destruct H as [H | [H | [H | [H | []]]]]; auto.
      * unfold upd in H. destruct (Nat.eqb m0 n); [discriminate | auto].
      * injection H as <-. auto.
  - (* cancel *)
    destruct (w_fut s n) as [f |] eqn:F; try discriminate.
    injection S as <- <-; rewrite app_nil_r. exists m. split; cbn; auto.
    intros m0 H. apply Vr. destruct H as [H | [H | H]]; auto.
    unfold upd in H. destruct (Nat.eqb m0 n); [discriminate | auto].
  - (* unwind *)
    destruct (w_fut s n) as [[| [] |] |] eqn:F; try discriminate.
    injection S as <- <-. exists m. split; cbn; auto.
    + unfold parcels. rewrite parcels_from_app. cbn. rewrite app_nil_r. exact Vp.
    + rewrite open_from_app. exact Vo.
    + unfold parcels. rewrite parcels_from_app. cbn. rewrite app_nil_r. exact Vs.
    + intros k. rewrite in_app_iff, Vk. cbn. intuition congruence.
    + intros p I. destruct (Vn p I); auto.
    + intros m0 H. apply Vr. rewrite in_app_iff in H. destruct H as [H | [H | [H | [H | []]]]]; auto.
      * unfold upd in H. destruct (Nat.eqb m0 n); [discriminate | auto].
      * discriminate.
Qed.

Lemma winv_run : forall l s h,
  takes_all l -> wrun winit l = Some (s, h) -> exists m, winv s h m.
Proof.
  induction l as [| a l IH] using rev_ind; intros s h T R.
  - injection R as <- <-. exists []. split; cbn; auto; try tauto; try discriminate.
    intros n [[] | [H | []]]. discriminate.
  - destruct (wrun_app _ _ _ _ R) as (s1 & h1 & s2 & h2 & A & B & C). injection C as -> ->.
    destruct (IH s1 h1) as (m & V); auto.
    { intros k I. apply (T k). apply in_or_app. auto. }
    cbn in B. destruct (wstep s1 a) as [[s3 e] |] eqn:S; [| discriminate].
    injection B as <- <-. rewrite app_nil_r.
    eapply winv_step; eauto.
    intros k ->. apply (T k). apply in_or_app. cbn. auto.
Qed.

(** What a call of drain is to hand over is the bytes given to write since the
    one before.  fd is given the bytes of some of these calls, whole and in the
    order of the calls; a call that returned and every call before it that was not
    cancelled are among them. *)
Theorem C63_written : forall l s h,
  takes_all l -> wrun winit l = Some (s, h) ->
  exists done,
    subseq done (parcels h) /\ w_fd s = concat (map snd done) /\
    forall n before data after,
      In (Drained n) h -> parcels h = before ++ (n, data) :: after ->
      In (n, data) done /\
      forall p, In p before -> In p done \/ In (DrainCancelled (fst p)) h.
Proof.
  intros l s h T R. destruct (winv_run l s h T R) as (m & V).
  destruct V as [Vp Vo Vs Vf Vk Vn Vd Vr].
  exists (map fst (filter snd m)).
  assert (ND : NoDup (map fst (parcels h))) by (rewrite Vs; apply seq_NoDup).
  split; [| split].
  - rewrite Vp. clear. rewrite <- (app_nil_r (map fst (filter snd m))). apply subseq_app; [| apply subseq_none].
    induction m as [| [p b] m IH]; cbn; [constructor |]. destruct b; cbn; constructor; auto.
  - rewrite Vf, map_map. reflexivity.
  - intros n before data after D P. destruct (Vr n) as (d & I); [auto |].
    apply in_split in I. destruct I as (m1 & m2 & M).
    assert (P' : parcels h = map fst m1 ++ (n, d) :: (map fst m2 ++ opt (w_cur s) ++ w_queue s)).
    { rewrite Vp, M, map_app. cbn. rewrite <- app_assoc. reflexivity. }
    assert (Q : before = map fst m1 /\ data = d).
    { rewrite P' in P. rewrite P' in ND. revert P ND.
      generalize (map fst m1) (map fst m2 ++ opt (w_cur s) ++ w_queue s). clear.
      intros x y. revert before.
      induction x as [| p x IH]; intros before E N; destruct before as [| q before]; cbn in *.
      - injection E as -> _. auto.
      - injection E as <- E. exfalso. inversion N; subst. apply H1. rewrite map_app. apply in_or_app. cbn. auto.
      - injection E as -> _. exfalso. inversion N; subst. apply H1. rewrite map_app. apply in_or_app. cbn. auto.
      - injection E as <- E. inversion N; subst. destruct (IH before E); auto. subst. auto. }
    destruct Q as (-> & ->). split.
    + apply in_map_iff. exists (n, d, true). split; auto. apply filter_In. split; auto.
      rewrite M. apply in_or_app. cbn. auto.
    + intros p I. apply in_map_iff in I. destruct I as ([p' b] & E & I). cbn in E. subst p'.
      destruct b.
      * left. apply in_map_iff. exists (p, true). split; auto. apply filter_In. split; auto.
        rewrite M. apply in_or_app. auto.
      * right. apply Vk. destruct (Vn p) as [K | (_ & m' & K)]; auto.
        { rewrite M. apply in_or_app. auto. }
        exfalso. rewrite M in K. clear - K ND Vp M I.
        assert (G : m1 ++ [(n, d, true)] ++ m2 = m' ++ [(p, false)]) by exact K.
        destruct (exists_last (l := (n, d, true) :: m2)) as (z & w & Z); [discriminate |].
        assert (w = (p, false)).
        { cbn in G. rewrite Z in G. rewrite app_assoc in G. apply app_inj_tail in G. tauto. }
        subst w. rewrite Vp, M in ND.
        apply in_split in I. destruct I as (a & b & ->).
        assert (In (p, false) ((n, d, true) :: m2)) as I2 by (rewrite Z; apply in_or_app; cbn; auto).
        rewrite !map_app, <- !app_assoc in ND. cbn in ND.
        apply nodup_r in ND.
        inversion ND as [| ? ? X Y]; subst. apply X.
        apply in_or_app. right.
        destruct I2 as [I2 | I2]; [discriminate |]. right. apply in_or_app. left.
        rewrite map_map. apply in_map_iff. exists (p, false). auto.
Qed.

(** Where no drain was cancelled fd has been given the bytes given to write, in
    order and each once, up to some point; *)
Theorem C63_in_order : forall l s h,
  takes_all l -> wrun winit l = Some (s, h) -> (forall n, ~ In (DrainCancelled n) h) ->
  exists rest, written h = w_fd s ++ rest.
Proof.
  intros l s h T R NC. destruct (winv_run l s h T R) as (m & V).
  destruct V as [Vp Vo Vs Vf Vk Vn Vd Vr].
  assert (ND : NoDup (map fst (parcels h))) by (rewrite Vs; apply seq_NoDup).
  assert (G : exists m', map fst m = map fst (filter snd m) ++ m').
  { assert (F : forall p, In (p, false) m -> exists m', m = m' ++ [(p, false)]).
    { intros p I. destruct (Vn p I) as [K | (_ & K)]; [| assumption]. apply Vk in K. exfalso. exact (NC _ K). }
    rewrite Vp, map_app in ND. apply nodup_l in ND. clear - F ND.
    induction m as [| [p b] m IH]; [exists []; reflexivity |].
    cbn in ND. inversion ND as [| ? ? X Y]; subst. destruct b.
    - destruct IH as (m' & E); auto.
      + intros q I. destruct (F q (or_intror I)) as (m' & E).
        destruct m' as [| x m']; [discriminate |]. injection E as _ E. eauto.
      + exists m'. cbn. now rewrite <- E.
    - destruct (F p (or_introl eq_refl)) as (m' & E).
      destruct m' as [| x m']; [injection E as E1; subst; exists [p]; reflexivity | injection E as E1 E2].
      exfalso. apply X. rewrite E2. rewrite !map_app. apply in_or_app. cbn. auto. }
  destruct G as (m' & G).
  pose proof (written_parcels h []) as WP. cbn [app] in WP. rewrite WP.
  change (parcels_from [] h) with (parcels h). rewrite Vp, G, Vf.
  rewrite !map_app, !concat_app, map_map, <- !app_assoc. eexists. reflexivity.
Qed.

(** and once a drain has returned, it has been given all that was given to write
    before that drain was called. *)
Theorem C63_drained : forall l s h1 h2 n,
  takes_all l -> wrun winit l = Some (s, h1 ++ Drain n :: h2) -> In (Drained n) (h1 ++ Drain n :: h2) ->
  (forall k, ~ In (DrainCancelled k) (h1 ++ Drain n :: h2)) ->
  exists rest, w_fd s = written h1 ++ rest.
Proof.
  intros l s h1 h2 n T R D NC.
  destruct (C63_written _ _ _ T R) as (done & S & F & P).
  destruct (winv_run _ _ _ T R) as (m & V).
  assert (ND : NoDup (map fst (parcels (h1 ++ Drain n :: h2)))) by (rewrite (wi_seq _ _ _ V); apply seq_NoDup).
  assert (E : parcels (h1 ++ Drain n :: h2) =
              parcels h1 ++ (n, open_from [] h1) :: parcels_from [] h2).
  { unfold parcels. rewrite parcels_from_app. reflexivity. }
  destruct (P _ _ _ _ D E) as (I & B).
  assert (W : written h1 = concat (map snd (parcels h1 ++ [(n, open_from [] h1)]))).
  { pose proof (written_parcels h1 []) as WP. cbn [app] in WP. rewrite WP.
    rewrite map_app, concat_app. cbn. now rewrite app_nil_r. }
  assert (A : forall p, In p (parcels h1 ++ [(n, open_from [] h1)]) -> In p done).
  { intros p J. apply in_app_or in J. destruct J as [J | [<- | []]]; [| exact I].
    destruct (B p J) as [? | C]; [assumption |]. exfalso. exact (NC _ C). }
  assert (Q : exists r, done = (parcels h1 ++ [(n, open_from [] h1)]) ++ r).
  { rewrite E in S, ND.
    replace (parcels h1 ++ (n, open_from [] h1) :: parcels_from [] h2)
      with ((parcels h1 ++ [(n, open_from [] h1)]) ++ parcels_from [] h2) in S, ND
      by (rewrite <- app_assoc; reflexivity).
    revert S ND A. generalize (parcels h1 ++ [(n, open_from [] h1)]) (parcels_from [] h2). clear.
    intros a b. revert done. induction a as [| x a IH]; intros done S ND A; [exists done; reflexivity |].
    cbn in S, ND. inversion ND as [| ? ? X Y]; subst.
    inversion S as [| ? done' ? S' | ? ? ? S']; subst.
    - destruct (IH done' S' Y) as (r & ->); [| exists r; reflexivity].
      intros p J. destruct (A p (or_intror J)) as [<- | K]; [| exact K].
      exfalso. apply X. rewrite map_app. apply in_or_app. left. apply in_map. exact J.
    - exfalso. apply X. apply in_map. specialize (A x (or_introl eq_refl)).
      clear - S' A. induction S' as [| y c d S IH | y c d S IH]; cbn in *; [contradiction | | auto].
      destruct A; auto. }
  destruct Q as (r & ->). rewrite F, W, map_app, concat_app. eexists. reflexivity.
Qed.

(** After fd.write has raised an exception, no later call of drain ever
    returns: it is left waiting. *)
Theorem C63_failure_hangs : forall l1 l2 s1 h1 s h n,
  wrun winit (l1 ++ [WFail]) = Some (s1, h1) -> wrun s1 l2 = Some (s, h) ->
  In (Drain n) h -> ~ In (Drained n) h.
Proof.
  intros l1 l2 s1 h1 s h n R1.
  assert (I1 : w_alive s1 = false /\ w_cur s1 = None /\ (forall k, In k (w_posts s1) -> (k < w_next s1)%nat) /\
               (forall k f, w_fut s1 k = Some f -> (k < w_next s1)%nat)).
  { destruct (wrun_app _ _ _ _ R1) as (s0 & h0 & s2 & h2 & A & B & C). injection C as -> ->.
    assert (G : (forall k, In k (w_posts s0) -> (k < w_next s0)%nat) /\
                (forall k f, w_fut s0 k = Some f -> (k < w_next s0)%nat) /\
                (forall j, In j (opt (w_cur s0) ++ w_queue s0) -> (fst j < w_next s0)%nat)).
    { clear R1 B. revert s0 h0 A. induction l1 as [| a l IH] using rev_ind; intros s0 h0 A.
      - injection A as <- <-. cbn. repeat split; try tauto; discriminate.
      - destruct (wrun_app _ _ _ _ A) as (s3 & h3 & s4 & h4 & A1 & B & C). injection C as -> ->.
        destruct (IH _ _ A1) as (P & F & J). clear IH A A1. cbn in B.
        destruct (wstep s3 a) as [[s5 e] |] eqn:S; [| discriminate]. injection B as <- <-.
        destruct a as [data | | | short | | | q | q | q]; cbn [wstep] in S.
        + injection S as <- <-. auto.
        + injection S as <- <-. cbn. repeat split.
          * intros k I. specialize (P k I). lia.
          * intros k f E. unfold upd in E. destruct (Nat.eqb k (w_next s3)) eqn:N; [apply PeanoNat.Nat.eqb_eq in N; lia |].
            specialize (F k f E). lia.
          * intros j I. rewrite app_assoc in I. apply in_app_or in I. destruct I as [I | [<- | []]]; [| cbn; lia].
            specialize (J j I). lia.
        + destruct (w_queue s3) as [| j w]; [discriminate |]. destruct (w_cur s3); [discriminate |].
          destruct (w_alive s3); [| discriminate]. injection S as <- <-. auto.
        + destruct (w_cur s3) as [[k data] |]; [| discriminate].
          destruct (in_nat k (w_skip s3)); injection S as <- <-; cbn; repeat split; auto.
          * intros j I. apply J. cbn. auto.
          * intros j I. apply in_app_or in I. destruct I as [I | [<- | []]]; auto.
            apply (J (k, data)). cbn. auto.
          * intros j I. apply J. cbn. auto.
        + destruct (w_cur s3) as [[k data] |]; [| discriminate].
          destruct (in_nat k (w_skip s3)); [discriminate |]. injection S as <- <-; cbn; repeat split; auto.
          intros j I. apply J. cbn. auto.
        + destruct (w_posts s3) as [| k w] eqn:Q; [discriminate |]. injection S as <- <-. cbn. repeat split; auto.
          * intros j I. apply P. cbn. auto.
          * intros j f E. destruct (w_fut s3 k) as [[| |] |] eqn:Fk; eauto.
            unfold upd in E. destruct (Nat.eqb j k) eqn:N; eauto.
            apply PeanoNat.Nat.eqb_eq in N. subst. apply P. cbn. auto.
        + destruct (w_fut s3 q) as [[| |] |] eqn:Fk; try discriminate. injection S as <- <-. cbn. repeat split; auto.
          intros j f E. unfold upd in E. destruct (Nat.eqb j q); [discriminate | eauto].
        + destruct (w_fut s3 q) as [g |] eqn:Fk; try discriminate. injection S as <- <-. cbn. repeat split; auto.
          intros j f E. unfold upd in E. destruct (Nat.eqb j q) eqn:N; [| eauto].
          apply PeanoNat.Nat.eqb_eq in N. subst. eauto.
        + destruct (w_fut s3 q) as [[| |] |] eqn:Fk; try discriminate. injection S as <- <-. cbn. repeat split; auto.
          intros j f E. unfold upd in E. destruct (Nat.eqb j q); [discriminate | eauto]. }
    destruct G as (P & F & _). cbn in B.
    destruct (w_cur s0) as [[k data] |]; [| discriminate].
    destruct (in_nat k (w_skip s0)); [discriminate |]. injection B as <- <-. auto. }
  clear R1. destruct I1 as (D & C & P & F).
  set (b := w_next s1) in *.
  assert (G : forall l s h, wrun s1 l = Some (s, h) ->
              w_alive s = false /\ w_cur s = None /\ (b <= w_next s)%nat /\
              (forall k, In k (w_posts s) -> (k < b)%nat) /\
              (forall k, w_fut s k = Some (Got tt) -> (k < b)%nat) /\
              (forall k, In (Drain k) h -> (b <= k)%nat) /\
              (forall k, In (Drained k) h -> (k < b)%nat)).
  { clear l2 s h. intros l. induction l as [| a l IH] using rev_ind; intros s h A.
    - injection A as <- <-. cbn. repeat split; auto; try tauto. intros k E. eauto.
    - destruct (wrun_app _ _ _ _ A) as (s3 & h3 & s4 & h4 & A1 & B & E). injection E as -> ->.
      destruct (IH _ _ A1) as (D1 & C1 & L & P1 & F1 & Dr & Dd). clear IH A A1. cbn in B.
      destruct (wstep s3 a) as [[s5 e] |] eqn:S; [| discriminate]. injection B as <- <-. rewrite app_nil_r.
      assert (U : forall (p : nat -> Prop) (g : nat -> wevent) ev,
                  (forall k, In (g k) h3 -> p k) -> (forall k, In (g k) ev -> p k) -> forall k, In (g k) (h3 ++ ev) -> p k).
      { intros p g ev X Y k I. apply in_app_or in I. destruct I; auto. }
      destruct a as [data | | | short | | | q | q | q]; cbn [wstep] in S.
      + injection S as <- <-. cbn. repeat split; auto; apply U; auto; cbn; intros k [? | []]; discriminate.
      + injection S as <- <-. cbn. repeat split; auto.
        * intros k E. unfold upd in E. destruct (Nat.eqb k (w_next s3)); [discriminate | auto].
        * apply U; auto. cbn. intros k [E | []]. injection E as <-. exact L.
        * apply U; auto. cbn. intros k [E | []]. discriminate.
      + rewrite D1 in S. destruct (w_queue s3); [discriminate |]. destruct (w_cur s3); discriminate.
      + rewrite C1 in S. discriminate.
      + rewrite C1 in S. discriminate.
      + destruct (w_posts s3) as [| k w] eqn:Q; [discriminate |]. injection S as <- <-. rewrite app_nil_r. cbn.
        repeat split; auto.
        * intros j I. apply P1. cbn. auto.
        * intros j E. destruct (w_fut s3 k) as [[| |] |] eqn:Fk; auto.
          unfold upd in E. destruct (Nat.eqb j k) eqn:N; auto.
          apply PeanoNat.Nat.eqb_eq in N. subst. apply P1. cbn. auto.
      + destruct (w_fut s3 q) as [[| [] |] |] eqn:Fk; try discriminate. injection S as <- <-. cbn. repeat split; auto.
        * intros j E. unfold upd in E. destruct (Nat.eqb j q); [discriminate | auto].
        * apply U; auto. cbn. intros k [E | []]. discriminate.
        * apply U; auto. cbn. intros k [E | []]. injection E as <-. auto.
      + destruct (w_fut s3 q) as [g |] eqn:Fk; try discriminate. injection S as <- <-. rewrite app_nil_r. cbn.
        repeat split; auto.
        intros j E. unfold upd in E. destruct (Nat.eqb j q); [discriminate | auto].
      + destruct (w_fut s3 q) as [[| |] |] eqn:Fk; try discriminate. injection S as <- <-. cbn. repeat split; auto.
        * intros j E. unfold upd in E. destruct (Nat.eqb j q); [discriminate | auto].
        * apply U; auto. cbn. intros k [E | []]. discriminate.
        * apply U; auto. cbn. intros k [E | []]. discriminate. }
  intros R I J. destruct (G _ _ _ R) as (_ & _ & _ & _ & _ & X & Y).
  specialize (X n I). specialize (Y n J). lia.
Qed.

(** ** Reading *)

Local Open Scope nat_scope.

Lemma rrun_app : forall l k s r,
  rrun s (l ++ k) = Some r ->
  exists s1 h1 s2 h2, rrun s l = Some (s1, h1) /\ rrun s1 k = Some (s2, h2) /\ r = (s2, h1 ++ h2).
Proof.
  induction l as [| a l IH]; intros k s r R; cbn in *.
  - destruct r as [s2 h2]. exists s, [], s2, h2. auto.
  - destruct (rstep s a) as [[s' e] |]; [| discriminate].
    destruct (rrun s' (l ++ k)) as [[t g] |] eqn:E; [| discriminate].
    destruct (IH _ _ _ E) as (s1 & h1 & s2 & h2 & A & B & C). injection C as -> ->.
    injection R as <-. exists s1, (e ++ h1), s2, h2. rewrite A. rewrite app_assoc. auto.
Qed.

Lemma of_call_app : forall id a b, of_call id (a ++ b) = of_call id a ++ of_call id b.
Proof. intros. unfold of_call. now rewrite filter_app, map_app, concat_app. Qed.

Lemma of_call_one : forall id k v, of_call id [(k, v)] = if Nat.eqb k id then v else [].
Proof. intros. unfold of_call. cbn. destruct (Nat.eqb k id); cbn; [apply app_nil_r | reflexivity]. Qed.

Definition jobs (s : rstate) : list rjob := opt (r_cur s) ++ r_queue s.

Definition wait_ok (s : rstate) (c : list (nat * list Z)) (n : nat) (o : rop) (f : fut (list Z)) : Prop :=
  match f with
  | Pending =>
      (forall v, In (n, v) (r_posts s) -> of_call (o_id o) c = o_acc o ++ v /\ length v <= o_left o) /\
      ((forall v, ~ In (n, v) (r_posts s)) -> of_call (o_id o) c = o_acc o)
  | Got v =>
      of_call (o_id o) c = o_acc o ++ v /\ length v <= o_left o /\ ~ In n (map j_no (jobs s)) /\
      ~ In n (map fst (r_posts s))
  | Gone => True
  end.

Record rinv (s : rstate) (h : list revent) (c : list (nat * list Z)) : Prop := {
  ri_fd : r_fd s = concat (map snd c);
  ri_nodup : NoDup (map j_no (jobs s) ++ map fst (r_posts s));
  ri_below : forall n, In n (map j_no (jobs s) ++ map fst (r_posts s)) -> n < r_jobs s;
  ri_wait : forall n o f, r_wait s n = Some (o, f) ->
            n < r_jobs s /\ o_id o < r_ops s /\ o_left o + length (o_acc o) = o_size o /\
            (forall size block, In (Read (o_id o) size block) h -> size = o_size o /\ block = o_block o) /\
            wait_ok s c n o f;
  ri_job : forall j, In j (jobs s) ->
           In (j_no j) (r_skip s) \/
           exists o f, r_wait s (j_no j) = Some (o, f) /\ j_op j = o_id o /\ j_left j = o_left o;
  ri_uniq : forall n o f n' o' f', r_wait s n = Some (o, f) -> r_wait s n' = Some (o', f') ->
            o_id o = o_id o' -> n = n';
  ri_read : forall id size block, In (Read id size block) h -> id < r_ops s;
  ri_new : forall id, r_ops s <= id -> of_call id c = [];
  ri_gave : forall id d, In (ReadGives id d) h ->
            of_call id c = d /\ id < r_ops s /\
            (forall n o f, r_wait s n = Some (o, f) -> o_id o <> id) /\
            forall size block, In (Read id size block) h -> length d <= size /\ (block = true -> length d = size);
}.

Lemma in_snoc_inv : forall {A} (x y : A) l, In x (l ++ [y]) -> In x l \/ x = y.
Proof. intros A x y l I. apply in_app_or in I. destruct I as [I | [I | []]]; auto. Qed.

Lemma rinv_start : forall s h c o,
  rinv s h c ->
  o_id o < r_ops s -> o_left o + length (o_acc o) = o_size o ->
  (forall size block, In (Read (o_id o) size block) h -> size = o_size o /\ block = o_block o) ->
  (forall n o' f, r_wait s n = Some (o', f) -> o_id o' <> o_id o) ->
  (forall d, ~ In (ReadGives (o_id o) d) h) ->
  of_call (o_id o) c = o_acc o ->
  rinv (start_round s o) h c.
Proof.
  intros s h c o [Vf Vn Vb Vw Vj Vu Vr Ve Vg] L Z Y X G F.
  assert (J : jobs (start_round s o) = jobs s ++ [{| j_no := r_jobs s; j_op := o_id o; j_left := o_left o |}]).
  { unfold jobs, start_round. cbn. now rewrite app_assoc. }
  assert (Fresh : ~ In (r_jobs s) (map j_no (jobs s) ++ map fst (r_posts s))).
  { intros I. specialize (Vb _ I). lia. }
  assert (FW : r_wait s (r_jobs s) = None).
  { destruct (r_wait s (r_jobs s)) as [[o' f] |] eqn:E; [| reflexivity]. destruct (Vw _ _ _ E) as (B & _). lia. }
  split.
  - exact Vf.
  - rewrite J, map_app, <- app_assoc. cbn [map app j_no].
    apply NoDup_Add with (a := r_jobs s) (l := map j_no (jobs s) ++ map fst (r_posts s)).
    + apply Add_app.
    + split; assumption.
  - intros n I. rewrite J, map_app in I. cbn [r_jobs start_round].
    apply in_app_or in I. destruct I as [I | I].
    + apply in_snoc_inv in I. destruct I as [I | ->]; [| cbn; lia].
      specialize (Vb n). rewrite in_app_iff in Vb. specialize (Vb (or_introl I)). lia.
    + specialize (Vb n). rewrite in_app_iff in Vb. specialize (Vb (or_intror I)). lia.
  - intros n o' f E. cbn [start_round r_wait r_jobs r_ops] in *. unfold upd in E.
    destruct (Nat.eqb n (r_jobs s)) eqn:N.
    + apply PeanoNat.Nat.eqb_eq in N. subst n. injection E as <- <-.
      split; [lia |]. split; [exact L |]. split; [exact Z |]. split; [exact Y |].
      cbn. split; [| auto]. intros v I. exfalso. apply Fresh. apply in_or_app. right.
      apply in_map_iff. exists (r_jobs s, v). auto.
    + apply PeanoNat.Nat.eqb_neq in N. destruct (Vw _ _ _ E) as (B & B1 & B2 & B3 & B4).
      repeat split; auto; try lia; try (eapply B3; eauto).
      destruct f; cbn in *; auto. destruct B4 as (D1 & D2 & D3 & D4). repeat split; auto.
      rewrite J, map_app. intros I. apply in_snoc_inv in I. cbn in I. destruct I; auto.
  - intros j I. rewrite J in I. cbn [start_round r_skip r_wait]. apply in_snoc_inv in I. destruct I as [I | ->].
    + destruct (Vj j I) as [? | (o' & f & E & ?)]; auto. right. exists o', f. split; auto.
      rewrite upd_other; auto. intros K. rewrite K in E. congruence.
    + right. exists o, Pending. cbn. rewrite upd_same. auto.
  - intros n o1 f1 n' o2 f2 E1 E2 E. cbn [start_round r_wait] in *. unfold upd in E1, E2.
    destruct (Nat.eqb n (r_jobs s)) eqn:N1; destruct (Nat.eqb n' (r_jobs s)) eqn:N2.
    + apply PeanoNat.Nat.eqb_eq in N1, N2. congruence.
    + injection E1 as <- <-. exfalso. eapply X; eauto.
    + injection E2 as <- <-. exfalso. eapply X; eauto.
    + eauto.
  - exact Vr.
  - exact Ve.
  - intros id d I. destruct (Vg id d I) as (A1 & A2 & A3 & A4). repeat split; auto; try (eapply A4; eauto).
    intros n o' f E. cbn [start_round r_wait] in E. unfold upd in E. destruct (Nat.eqb n (r_jobs s)); [| eauto].
    injection E as <- <-. intros H. subst id. exact (G d I).
Qed.

Lemma nodup_snoc : forall {A} (x : A) l, NoDup (x :: l) -> NoDup (l ++ [x]).
Proof.
  intros A x l N. inversion N; subst. apply (NoDup_Add (a := x) (l := l)); [| split; assumption].
  rewrite <- (app_nil_r l) at 1. apply Add_app.
Qed.

Lemma rinv_skip_job : forall s h c j q,
  jobs s = j :: q -> rinv s h c -> forall s',
  jobs s' = q -> r_skip s' = r_skip s -> r_posts s' = r_posts s -> r_wait s' = r_wait s ->
  r_jobs s' = r_jobs s -> r_ops s' = r_ops s -> r_fd s' = r_fd s ->
  rinv s' h c.
Proof.
  intros s h c j q J [Vf Vn Vb Vw Vj Vu Vr Ve Vg] s' E1 E2 E3 E4 E5 E6 E7.
  rewrite J in *. cbn in Vn. inversion Vn; subst.
  split; rewrite ?E2, ?E3, ?E4, ?E5, ?E6, ?E7; auto.
  - intros n I. apply Vb. cbn. auto.
  - intros n o f W. destruct (Vw n o f W) as (B & B1 & B2 & B3 & B4). repeat split; auto; try (eapply B3; eauto).
    unfold wait_ok in *. rewrite E3. destruct f; auto. rewrite J in B4. cbn in B4.
    destruct B4 as (D1 & D2 & D3 & D4). repeat split; auto.
  - intros k I. apply Vj. cbn. auto.
Qed.

Lemma rinv_step : forall s h c a s' e,
  rinv s h c -> rstep s a = Some (s', e) ->
  exists d, rinv s' (h ++ e) (c ++ d) /\ forall x, In x d -> a = RRun (snd x).
Proof.
  intros s h c a s' e V S.
  pose proof V as [Vf Vn Vb Vw Vj Vu Vr Ve Vg].
  destruct a as [size block | | chunk | | | n | n | n]; cbn [rstep] in S.
  - (* read *)
    injection S as <- <-. exists []. rewrite app_nil_r. split; [| intros x []].
    set (o := {| o_id := r_ops s; o_size := size; o_block := block; o_left := size; o_acc := [] |}).
    apply rinv_start; cbn; try lia.
    + split; cbn; auto.
      * intros n o' f E. destruct (Vw n o' f E) as (B & B1 & B2 & B3 & B4).
        split; [exact B |]. split; [lia |]. split; [exact B2 |]. split; [| exact B4].
        intros sz bl I. apply in_snoc_inv in I. destruct I as [I | I]; [eauto |].
        injection I as I1 I2 I3. lia.
      * intros id sz bl I. apply in_snoc_inv in I. destruct I as [I | I]; [specialize (Vr _ _ _ I); lia |].
        injection I as -> -> ->. lia.
      * intros id L. apply Ve. lia.
      * intros id d I. apply in_snoc_inv in I. destruct I as [I | I]; [| discriminate].
        destruct (Vg id d I) as (A1 & A2 & A3 & A4). split; [exact A1 |]. split; [lia |]. split; [exact A3 |].
        intros sz bl J. apply in_snoc_inv in J. destruct J as [J | J]; [eauto |].
        injection J as -> -> ->. lia.
    + intros sz bl I. apply in_snoc_inv in I. destruct I as [I | I]; [specialize (Vr _ _ _ I); lia |].
      injection I as -> ->. auto.
    + intros n o' f E. destruct (Vw n o' f E) as (B & B1 & _). lia.
    + intros d I. apply in_snoc_inv in I. destruct I as [I | I]; [| discriminate].
      destruct (Vg _ d I) as (_ & B & _). lia.
    + apply Ve. lia.
  - (* take *)
    destruct (r_queue s) as [| j q] eqn:Q; [discriminate |].
    destruct (r_cur s) eqn:C; [discriminate |].
    destruct (r_alive s) eqn:A; [| discriminate].
    injection S as <- <-. exists []. rewrite !app_nil_r. split; [| intros x []].
    assert (J : jobs s = j :: q) by (unfold jobs; rewrite C, Q; reflexivity).
    rewrite J in *.
    split; unfold jobs; cbn; auto.
    intros n o f E. destruct (Vw n o f E) as (B & B1 & B2 & B3 & B4). repeat split; auto; try (eapply B3; eauto).
    unfold wait_ok in *. rewrite J in B4. exact B4.
  - (* run *)
    destruct (r_cur s) as [j |] eqn:C; [| discriminate].
    assert (J : jobs s = j :: r_queue s) by (unfold jobs; rewrite C; reflexivity).
    destruct (in_nat (j_no j) (r_skip s)) eqn:K.
    { injection S as <- <-. exists []. rewrite !app_nil_r. split; [| intros x []].
      eapply rinv_skip_job; eauto. }
    destruct (length chunk <=? j_left j) eqn:L; [| discriminate].
    apply PeanoNat.Nat.leb_le in L.
    injection S as <- <-. rewrite app_nil_r. exists [(j_op j, chunk)]. split; [| intros x [<- | []]; reflexivity].
    assert (K' : ~ In (j_no j) (r_skip s)) by (rewrite <- in_nat_spec; congruence).
    destruct (Vj j) as [? | (o & f & W & Eo & El)]; [rewrite J; cbn; auto | contradiction |].
    destruct (Vw _ _ _ W) as (B & B1 & B2 & B3 & B4).
    rewrite J in Vn, Vb. cbn [map app] in Vn, Vb.
    assert (NP : forall v, ~ In (j_no j, v) (r_posts s)).
    { intros v I. inversion Vn as [| ? ? X Y]; subst. apply X. apply in_or_app. right.
      apply in_map_iff. exists (j_no j, v). auto. }
    split; cbn.
    + rewrite map_app, concat_app, <- Vf. cbn. now rewrite app_nil_r.
    + unfold jobs. cbn. rewrite map_app, app_assoc. cbn. apply nodup_snoc. exact Vn.
    + intros n I. unfold jobs in I. cbn in I. rewrite map_app, app_assoc in I. apply in_snoc_inv in I. cbn in I.
      apply Vb. cbn. destruct I as [I | I]; auto.
    + intros n o' f' E. destruct (Vw _ _ _ E) as (P & P1 & P2 & P3 & P4).
      split; [exact P |]. split; [exact P1 |]. split; [exact P2 |]. split; [exact P3 |].
      destruct (PeanoNat.Nat.eq_dec n (j_no j)) as [-> | N].
      * rewrite W in E. injection E as <- <-.
        destruct f as [| v |]; cbn; auto.
        -- cbn in B4. destruct B4 as (_ & B4). specialize (B4 NP). split.
           ++ intros v I. apply in_snoc_inv in I. destruct I as [I | I]; [exfalso; eapply NP; eauto |].
              injection I as ->. rewrite of_call_app, of_call_one, Eo, PeanoNat.Nat.eqb_refl, B4. split; [reflexivity | lia].
           ++ intros H. exfalso. apply (H chunk). apply in_or_app. cbn. auto.
        -- cbn in B4. destruct B4 as (_ & _ & B4 & _). exfalso. apply B4. rewrite J. cbn. auto.
      * assert (O : of_call (o_id o') (c ++ [(j_op j, chunk)]) = of_call (o_id o') c).
        { rewrite of_call_app, of_call_one. destruct (Nat.eqb (j_op j) (o_id o')) eqn:X; [| apply app_nil_r].
          apply PeanoNat.Nat.eqb_eq in X. exfalso. apply N. eapply Vu; eauto. congruence. }
        destruct f' as [| v |]; cbn in *; auto; rewrite O.
        -- destruct P4 as (X & Y). split.
           ++ intros v I. apply in_snoc_inv in I. destruct I as [I | I]; [auto | congruence].
           ++ intros H. apply Y. intros v I. apply (H v). apply in_or_app. auto.
        -- destruct P4 as (X & X1 & X2 & X3). repeat split; auto.
           ++ intros I. apply X2. rewrite J. unfold jobs in I. cbn in *. auto.
           ++ rewrite map_app. intros I. apply in_snoc_inv in I. cbn in I. destruct I; auto.
    + intros k I. apply Vj. rewrite J. unfold jobs in I. cbn in *. auto.
    + exact Vu.
    + exact Vr.
    + intros id L'. rewrite of_call_app, of_call_one, (Ve id L').
      destruct (Nat.eqb (j_op j) id) eqn:X; [apply PeanoNat.Nat.eqb_eq in X; lia | reflexivity].
    + intros id d I. destruct (Vg id d I) as (A1 & A2 & A3 & A4). repeat split; auto; try (eapply A4; eauto).
      rewrite of_call_app, of_call_one. destruct (Nat.eqb (j_op j) id) eqn:X; [| rewrite app_nil_r; exact A1].
      apply PeanoNat.Nat.eqb_eq in X. exfalso. eapply A3; eauto. congruence.
  - (* fail *)
    destruct (r_cur s) as [j |] eqn:C; [| discriminate].
    destruct (in_nat (j_no j) (r_skip s)) eqn:K; [discriminate |].
    assert (J : jobs s = j :: r_queue s) by (unfold jobs; rewrite C; reflexivity).
    injection S as <- <-. exists []. rewrite !app_nil_r. split; [| intros x []].
    eapply rinv_skip_job; eauto.
  - (* deliver *)
    destruct (r_posts s) as [| [n v] q] eqn:P; [discriminate |].
    injection S as <- <-. exists []. rewrite !app_nil_r. split; [| intros x []].
    cbn [map fst] in Vn, Vb.
    assert (ND : ~ In n (map j_no (jobs s)) /\ ~ In n (map fst q) /\ NoDup (map j_no (jobs s) ++ map fst q)).
    { pose proof (NoDup_remove_2 _ _ _ Vn) as X. rewrite in_app_iff in X. apply NoDup_remove_1 in Vn. tauto. }
    destruct ND as (ND1 & ND2 & ND3).
    assert (WW : forall m o f, match r_wait s n with
                               | Some (o, Pending) => upd (r_wait s) n (Some (o, Got v))
                               | _ => r_wait s
                               end m = Some (o, f) ->
                 (m = n /\ f = Got v /\ r_wait s n = Some (o, Pending)) \/
                 (r_wait s m = Some (o, f) /\ (m = n -> f <> Pending))).
    { intros m o f E. destruct (r_wait s n) as [[o0 [| v0 |]] |] eqn:F; try (right; split; [exact E |]; intros ->; congruence).
      unfold upd in E. destruct (Nat.eqb m n) eqn:N.
      - apply PeanoNat.Nat.eqb_eq in N. injection E as <- <-. auto.
      - right. split; [exact E |]. intros ->. now rewrite PeanoNat.Nat.eqb_refl in N. }
    split; cbn; auto.
    + intros m I. apply Vb. apply in_app_or in I. apply in_or_app. cbn. tauto.
    + intros m o f E. destruct (WW _ _ _ E) as [(-> & -> & F) | (F & G)].
      * destruct (Vw _ _ _ F) as (B & B1 & B2 & B3 & B4). repeat split; auto; try (eapply B3; eauto); cbn in B4;
          rewrite P in B4; destruct B4 as (B4 & _); apply (B4 v); cbn; auto.
      * destruct (Vw _ _ _ F) as (B & B1 & B2 & B3 & B4).
        split; [exact B |]. split; [exact B1 |]. split; [exact B2 |]. split; [exact B3 |].
        destruct f as [| w |]; cbn in *; auto; rewrite P in B4.
        -- assert (m <> n) by (intros ->; now apply G). destruct B4 as (X & Y). split.
           ++ intros w I. apply X. cbn. auto.
           ++ intros H0. apply Y. intros w [I | I]; [congruence | exact (H0 w I)].
        -- destruct B4 as (X & X1 & X2 & X3). repeat split; auto. cbn in X3. tauto.
    + intros j I. destruct (Vj j I) as [? | (o & f & W & Eo)]; [auto |]. right. exists o, f. split; [| exact Eo].
      assert (j_no j <> n) by (intros H; apply ND1; rewrite <- H; now apply in_map).
      destruct (r_wait s n) as [[o0 [| v0 |]] |]; try exact W. now rewrite upd_other.
    + intros a o1 f1 b o2 f2 E1 E2 E.
      assert (A : exists g, r_wait s a = Some (o1, g)) by (destruct (WW _ _ _ E1) as [(-> & _ & F) | (F & _)]; eauto).
      assert (B : exists g, r_wait s b = Some (o2, g)) by (destruct (WW _ _ _ E2) as [(-> & _ & F) | (F & _)]; eauto).
      destruct A as (? & A). destruct B as (? & B). eauto.
    + intros id d I. destruct (Vg id d I) as (A1 & A2 & A3 & A4). repeat split; auto; try (eapply A4; eauto).
      intros m o f E. destruct (WW _ _ _ E) as [(-> & _ & F) | (F & _)]; eauto.
  - (* resume *)
    destruct (r_wait s n) as [[o [| v |]] |] eqn:F; try discriminate.
    exists []. rewrite app_nil_r. split; [| destruct (negb (o_block o) || (o_left o - length v =? 0)); intros x []].
    destruct (Vw _ _ _ F) as (B & B1 & B2 & B3 & B4). cbn in B4. destruct B4 as (D1 & D2 & D3 & D4).
    assert (NG : forall d, ~ In (ReadGives (o_id o) d) h).
    { intros d I. destruct (Vg _ _ I) as (_ & _ & X & _). exact (X _ _ _ F eq_refl). }
    assert (WN : forall m o' f, upd (r_wait s) n None m = Some (o', f) -> r_wait s m = Some (o', f) /\ m <> n).
    { intros m o' f E. unfold upd in E. destruct (Nat.eqb m n) eqn:N; [discriminate |].
      apply PeanoNat.Nat.eqb_neq in N. auto. }
    assert (V' : rinv (set_wait s n None) h c).
    { split; cbn; auto.
      - intros m o' f E. destruct (WN _ _ _ E). apply Vw. assumption.
      - intros j I. destruct (Vj j I) as [? | (o' & f & W & Eo)]; [auto |]. right. exists o', f. split; [| exact Eo].
        rewrite upd_other; auto. intros H. apply D3. rewrite <- H. now apply in_map.
      - intros a o1 f1 b o2 f2 E1 E2. destruct (WN _ _ _ E1), (WN _ _ _ E2). eauto.
      - intros id d I. destruct (Vg id d I) as (A1 & A2 & A3 & A4). repeat split; auto; try (eapply A4; eauto).
        intros m o' f E. destruct (WN _ _ _ E). eauto. }
    assert (X : forall m o' f, upd (r_wait s) n None m = Some (o', f) -> o_id o' <> o_id o).
    { intros m o' f E Q. destruct (WN _ _ _ E) as (W & N). apply N. eauto. }
    destruct (negb (o_block o) || (o_left o - length v =? 0)) eqn:Z; injection S as <- <-.
    + destruct V' as [Uf Un Ub Uw Uj Uu Ur Ue Ug]. split; auto.
      * intros m o' f E. destruct (Uw m o' f E) as (P & P1 & P2 & P3 & P4).
        split; [exact P |]. split; [exact P1 |]. split; [exact P2 |]. split; [| exact P4].
        intros sz bl I. apply in_snoc_inv in I. destruct I as [I | I]; [eauto | discriminate].
      * intros id sz bl I. apply in_snoc_inv in I. destruct I as [I | I]; [eauto | discriminate].
      * intros id d I. apply in_snoc_inv in I. destruct I as [I | I].
        -- destruct (Ug id d I) as (A1 & A2 & A3 & A4). split; [exact A1 |]. split; [exact A2 |]. split; [exact A3 |].
           intros sz bl J. apply in_snoc_inv in J. destruct J as [J | J]; [eauto | discriminate].
        -- injection I as -> ->. split; [exact D1 |]. split; [exact B1 |]. split; [exact X |].
           intros sz bl J. apply in_snoc_inv in J. destruct J as [J | J]; [| discriminate].
           destruct (B3 _ _ J) as (-> & ->). rewrite app_length. split; [lia |].
           intros Eb. rewrite Eb in Z. cbn in Z. apply PeanoNat.Nat.eqb_eq in Z. lia.
    + rewrite app_nil_r. apply orb_false_iff in Z. destruct Z as (Z1 & Z2).
      apply rinv_start; cbn; auto.
      rewrite app_length. lia.
  - (* cancel *)
    destruct (r_wait s n) as [[o f] |] eqn:F; [| discriminate].
    injection S as <- <-. exists []. rewrite !app_nil_r. split; [| intros x []].
    assert (WN : forall m o' g, upd (r_wait s) n (Some (o, Gone)) m = Some (o', g) ->
                 (m = n /\ o' = o /\ g = Gone) \/ r_wait s m = Some (o', g)).
    { intros m o' g E. unfold upd in E. destruct (Nat.eqb m n) eqn:N; [| auto].
      apply PeanoNat.Nat.eqb_eq in N. injection E as <- <-. auto. }
    split; cbn; auto.
    + intros m o' g E. destruct (WN _ _ _ E) as [(-> & -> & ->) | W]; [| exact (Vw _ _ _ W)].
      destruct (Vw _ _ _ F) as (B & B1 & B2 & B3 & B4). cbn. tauto.
    + intros j I. destruct (Vj j I) as [? | (o' & g & W & Eo)]; [auto |]. right.
      destruct (PeanoNat.Nat.eq_dec (j_no j) n) as [E | N].
      * rewrite E, upd_same. rewrite E in W. rewrite F in W. injection W as <- <-. exists o, Gone. auto.
      * rewrite upd_other; eauto.
    + intros a o1 f1 b o2 f2 E1 E2 E.
      assert (A : exists g, r_wait s a = Some (o1, g)) by (destruct (WN _ _ _ E1) as [(-> & -> & _) | W]; eauto).
      assert (B : exists g, r_wait s b = Some (o2, g)) by (destruct (WN _ _ _ E2) as [(-> & -> & _) | W]; eauto).
      destruct A as (? & A). destruct B as (? & B). eauto.
    + intros id d I. destruct (Vg id d I) as (A1 & A2 & A3 & A4). repeat split; auto; try (eapply A4; eauto).
      intros m o' g E. destruct (WN _ _ _ E) as [(-> & -> & _) | W]; eauto.
  - (* unwind *)
    destruct (r_wait s n) as [[o [| v |]] |] eqn:F; try discriminate.
    injection S as <- <-. exists []. rewrite app_nil_r. split; [| intros x []].
    assert (WN : forall m o' f, upd (r_wait s) n None m = Some (o', f) -> r_wait s m = Some (o', f) /\ m <> n).
    { intros m o' f E. unfold upd in E. destruct (Nat.eqb m n) eqn:N; [discriminate |].
      apply PeanoNat.Nat.eqb_neq in N. auto. }
    split; cbn; auto.
    + intros m o' f E. destruct (WN _ _ _ E) as (W & _). destruct (Vw _ _ _ W) as (P & P1 & P2 & P3 & P4).
      split; [exact P |]. split; [exact P1 |]. split; [exact P2 |]. split; [| exact P4].
      intros sz bl I. apply in_snoc_inv in I. destruct I as [I | I]; [eauto | discriminate].
    + intros j I. destruct (Vj j I) as [? | (o' & f & W & Eo)]; [auto |].
      destruct (PeanoNat.Nat.eq_dec (j_no j) n) as [E | N]; [auto |].
      right. rewrite upd_other; eauto.
    + intros a o1 f1 b o2 f2 E1 E2. destruct (WN _ _ _ E1), (WN _ _ _ E2). eauto.
    + intros id sz bl I. apply in_snoc_inv in I. destruct I as [I | I]; [eauto | discriminate].
    + intros id d I. apply in_snoc_inv in I. destruct I as [I | I]; [| discriminate].
      destruct (Vg id d I) as (A1 & A2 & A3 & A4). split; [exact A1 |]. split; [exact A2 |]. split.
      * intros m o' f E. destruct (WN _ _ _ E). eauto.
      * intros sz bl J. apply in_snoc_inv in J. destruct J as [J | J]; [eauto | discriminate].
Qed.

Lemma rinv_init : rinv rinit [] [].
Proof.
  split; cbn; try tauto; try discriminate; constructor.
Qed.

Lemma rinv_run : forall l s0 h0 c0 s h,
  rinv s0 h0 c0 -> rrun s0 l = Some (s, h) ->
  exists d, rinv s (h0 ++ h) (c0 ++ d) /\ forall x, In x d -> In (RRun (snd x)) l.
Proof.
  induction l as [| a l IH]; intros s0 h0 c0 s h V R; cbn in R.
  - injection R as <- <-. exists []. rewrite !app_nil_r. split; [exact V | intros x []].
  - destruct (rstep s0 a) as [[s1 e] |] eqn:S; [| discriminate].
    destruct (rrun s1 l) as [[t g] |] eqn:E; [| discriminate]. injection R as <- <-.
    destruct (rinv_step _ _ _ _ _ _ V S) as (d & V1 & D1).
    destruct (IH _ _ _ _ _ V1 E) as (d' & V2 & D2).
    exists (d ++ d'). rewrite !app_assoc. split; [exact V2 |].
    intros x I. apply in_app_or in I. destruct I as [I | I]; [left; exact (D1 x I) | right; exact (D2 x I)].
Qed.

(** The bytes that fd gave went chunk by chunk to the calls of read.  What a call
    returns is all the chunks that went to it, in their order: exactly the bytes
    it asked for, or with block=False at most as many. *)
Theorem C63_reads : forall l s h,
  rrun rinit l = Some (s, h) ->
  exists chunks,
    r_fd s = concat (map snd chunks) /\
    forall id data, In (ReadGives id data) h ->
      data = of_call id chunks /\
      forall size block, In (Read id size block) h ->
        length data <= size /\ (block = true -> length data = size).
Proof.
  intros l s h R. destruct (rinv_run _ _ _ _ _ _ rinv_init R) as (c & V & _). cbn in V.
  exists c. split; [apply (ri_fd _ _ _ V) |]. intros id data I.
  destruct (ri_gave _ _ _ V _ _ I) as (A & _ & _ & B). auto.
Qed.

(** Once fd gives no more, as at the end of a file, a read with block=True never
    returns. *)
Theorem C63_end_of_file : forall l1 l2 s1 h1 s h id size data,
  rrun rinit l1 = Some (s1, h1) -> rrun s1 l2 = Some (s, h) ->
  (forall chunk, In (RRun chunk) l2 -> chunk = []) ->
  In (Read id size true) h -> 0 < size -> ~ In (ReadGives id data) h.
Proof.
  intros l1 l2 s1 h1 s h id size data R1 R2 E I L G.
  destruct (rinv_run _ _ _ _ _ _ rinv_init R1) as (c & V1 & _). cbn in V1.
  destruct (rinv_run _ _ _ _ _ _ V1 R2) as (d & V2 & D).
  assert (B : r_ops s1 <= id).
  { clear - R2 I. revert s1 s h R2 I. induction l2 as [| a l IH]; intros s1 s h R I; cbn in R.
    - injection R as <- <-. destruct I.
    - destruct (rstep s1 a) as [[s2 e] |] eqn:S; [| discriminate].
      destruct (rrun s2 l) as [[t g] |] eqn:E; [| discriminate]. injection R as <- <-.
      assert (M : r_ops s1 <= r_ops s2 /\ forall id size block, In (Read id size block) e -> r_ops s1 <= id).
      { clear - S. destruct a as [sz bl | | chunk | | | n | n | n]; cbn [rstep] in S.
        - injection S as <- <-. cbn. split; [lia |]. intros ? ? ? [X | []]. injection X as -> -> ->. lia.
        - destruct (r_queue s1); [discriminate |]. destruct (r_cur s1); [discriminate |].
          destruct (r_alive s1); [| discriminate]. injection S as <- <-. cbn. split; [lia | tauto].
        - destruct (r_cur s1) as [j |]; [| discriminate]. destruct (in_nat (j_no j) (r_skip s1)).
          + injection S as <- <-. cbn. split; [lia | tauto].
          + destruct (length chunk <=? j_left j); [| discriminate]. injection S as <- <-. cbn. split; [lia | tauto].
        - destruct (r_cur s1) as [j |]; [| discriminate]. destruct (in_nat (j_no j) (r_skip s1)); [discriminate |].
          injection S as <- <-. cbn. split; [lia | tauto].
        - destruct (r_posts s1) as [| [n v] q]; [discriminate |]. injection S as <- <-. cbn. split; [lia | tauto].
        - destruct (r_wait s1 n) as [[o [| v |]] |]; try discriminate.
          destruct (negb (o_block o) || (o_left o - length v =? 0)); injection S as <- <-; cbn; (split; [lia |]).
          + intros ? ? ? [X | []]. discriminate.
          + tauto.
        - destruct (r_wait s1 n) as [[o f] |]; [| discriminate]. injection S as <- <-. cbn. split; [lia | tauto].
        - destruct (r_wait s1 n) as [[o [| v |]] |]; try discriminate. injection S as <- <-. cbn. split; [lia |].
          intros ? ? ? [X | []]. discriminate. }
      destruct M as (M1 & M2). apply in_app_or in I. destruct I as [I | I]; [eauto |].
      specialize (IH _ _ _ E I). lia. }
  destruct (ri_gave _ _ _ V2 id data) as (A & _ & _ & C); [apply in_or_app; auto |].
  destruct (C size true) as (_ & C'); [apply in_or_app; auto |]. specialize (C' eq_refl).
  rewrite of_call_app, (ri_new _ _ _ V1 id B) in A. cbn in A.
  assert (Z : of_call id d = []).
  { clear - D E. induction d as [| x d IH]; [reflexivity |].
    assert (X : snd x = []) by (apply E; apply (D x); cbn; auto).
    unfold of_call in *. cbn. destruct (Nat.eqb (fst x) id); cbn; rewrite ?X; cbn; apply IH; intros; apply D; cbn; auto. }
  rewrite Z in A. subst data. cbn in C'. lia.
Qed.

Fixpoint busy_from (b : bool) (h : list revent) : bool :=
  match h with
  | [] => b
  | Read _ _ _ :: h => busy_from true h
  | ReadGives _ _ :: h | ReadCancelled _ :: h => busy_from false h
  end.

Lemma in_turn_app : forall h b k, in_turn_from b (h ++ k) = in_turn_from b h && in_turn_from (busy_from b h) k.
Proof.
  induction h as [| e h IH]; intros b k; cbn; [reflexivity |].
  destruct e; cbn; rewrite ?IH, ?andb_assoc; reflexivity.
Qed.

Lemma busy_app : forall h b k, busy_from b (h ++ k) = busy_from (busy_from b h) k.
Proof. induction h as [| e h IH]; intros b k; cbn; [reflexivity |]. destruct e; apply IH. Qed.

Lemma settled_busy : forall h b, settled_from b h = negb (busy_from b h).
Proof. induction h as [| e h IH]; intros b; cbn; [reflexivity |]. destruct e; apply IH. Qed.

Lemma given_app : forall h k, given (h ++ k) = given h ++ given k.
Proof.
  induction h as [| e h IH]; intros k; cbn; [reflexivity |]. destruct e; cbn; rewrite IH, ?app_assoc; reflexivity.
Qed.

Definition tinv (s : rstate) (h : list revent) : Prop :=
  r_skip s = [] /\
  if busy_from false h then
    exists n o f,
      (forall m, r_wait s m = if Nat.eqb m n then Some (o, f) else None) /\
      match f with
      | Pending =>
          (exists j, jobs s = [j] /\ j_no j = n /\ r_posts s = [] /\ r_fd s = given h ++ o_acc o) \/
          (exists v, jobs s = [] /\ r_posts s = [(n, v)] /\ r_fd s = given h ++ o_acc o ++ v) \/
          (jobs s = [] /\ r_posts s = [] /\ r_fd s = given h ++ o_acc o)
      | Got v => jobs s = [] /\ r_posts s = [] /\ r_fd s = given h ++ o_acc o ++ v
      | Gone => exists rest, r_fd s = given h ++ rest
      end
  else
    (forall m, r_wait s m = None) /\ jobs s = [] /\ r_posts s = [] /\ r_fd s = given h.

Lemma jobs_nil : forall s, jobs s = [] -> r_cur s = None /\ r_queue s = [].
Proof. intros s. unfold jobs. destruct (r_cur s); cbn; [discriminate | auto]. Qed.

Lemma tinv_start : forall s h o,
  r_skip s = [] -> (forall m, r_wait s m = None) -> jobs s = [] -> r_posts s = [] ->
  r_fd s = given h ++ o_acc o -> busy_from false h = true ->
  tinv (start_round s o) h.
Proof.
  intros s h o K W J P F B. destruct (jobs_nil _ J) as (C & Q).
  split; [exact K |]. rewrite B. exists (r_jobs s), o, Pending. split.
  - intros m. cbn. unfold upd. destruct (Nat.eqb m (r_jobs s)); auto.
  - left. eexists. unfold jobs. cbn. rewrite C, Q, P. cbn. repeat split. exact F.
Qed.

Lemma tinv_step : forall s h a s' e,
  tinv s h -> in_turn (h ++ e) = true -> rstep s a = Some (s', e) -> tinv s' (h ++ e).
Proof.
  intros s h a s' e (K & V) T S. unfold in_turn in T. rewrite in_turn_app in T. apply andb_true_iff in T. destruct T as (_ & T).
  destruct a as [size block | | chunk | | | n | n | n]; cbn [rstep] in S.
  - injection S as <- <-. destruct (busy_from false h) eqn:B; [discriminate |].
    destruct V as (W & J & P & F).
    apply tinv_start; cbn; auto.
    + rewrite given_app. cbn. now rewrite !app_nil_r.
    + rewrite busy_app. reflexivity.
  - destruct (r_queue s) as [| j q] eqn:Q; [discriminate |].
    destruct (r_cur s) eqn:C; [discriminate |].
    destruct (r_alive s) eqn:A; [| discriminate].
    injection S as <- <-. rewrite app_nil_r.
    assert (J : jobs s = j :: q) by (unfold jobs; rewrite C, Q; reflexivity).
    split; [exact K |]. destruct (busy_from false h); rewrite J in V; exact V.
  - destruct (r_cur s) as [j |] eqn:C; [| discriminate].
    assert (J : jobs s = j :: r_queue s) by (unfold jobs; rewrite C; reflexivity).
    rewrite K in S. cbn in S. destruct (length chunk <=? j_left j); [| discriminate].
    injection S as <- <-. rewrite app_nil_r. split; [reflexivity |]. rewrite J in V.
    destruct (busy_from false h); [| destruct V as (_ & V & _); discriminate].
    destruct V as (n & o & f & W & V). exists n, o, f. split; [exact W |]. cbn.
    destruct f as [| v |].
    + destruct V as [(j' & E & <- & P & F) | [(v & E & _) | (E & _)]]; try discriminate.
      injection E as <- Q. right. left. exists chunk. unfold jobs. cbn. rewrite Q, P, F. rewrite <- app_assoc. auto.
    + destruct V as (E & _). discriminate.
    + destruct V as (rest & F). exists (rest ++ chunk). now rewrite F, app_assoc.
  - destruct (r_cur s) as [j |] eqn:C; [| discriminate].
    assert (J : jobs s = j :: r_queue s) by (unfold jobs; rewrite C; reflexivity).
    rewrite K in S. cbn in S.
    injection S as <- <-. rewrite app_nil_r. split; [reflexivity |]. rewrite J in V.
    destruct (busy_from false h); [| destruct V as (_ & V & _); discriminate].
    destruct V as (n & o & f & W & V). exists n, o, f. split; [exact W |]. cbn.
    destruct f as [| v |].
    + destruct V as [(j' & E & <- & P & F) | [(v & E & _) | (E & _)]]; try discriminate.
      injection E as <- Q. right. right. unfold jobs. cbn. rewrite Q. auto.
    + destruct V as (E & _). discriminate.
    + exact V.
  - destruct (r_posts s) as [| [n v] q] eqn:P; [discriminate |].
    injection S as <- <-. rewrite app_nil_r. split; [exact K |].
    destruct (busy_from false h); [| destruct V as (_ & _ & V & _); discriminate].
    destruct V as (n' & o & f & W & V). destruct f as [| w |].
    + destruct V as [(j' & _ & _ & E & _) | [(w & J & E & F) | (_ & E & _)]]; try discriminate.
      injection E as -> -> ->. exists n', o, (Got w). cbn. split; [| auto].
      intros m. rewrite (W n'), PeanoNat.Nat.eqb_refl. unfold upd. destruct (Nat.eqb m n') eqn:N; [reflexivity |].
      rewrite W, N. reflexivity.
    + destruct V as (_ & E & _). discriminate.
    + exists n', o, Gone. cbn. split; [| exact V].
      intros m. rewrite (W n). destruct (Nat.eqb n n'); apply W.
  - destruct (busy_from false h) eqn:B; [| destruct V as (W & _); rewrite W in S; discriminate].
    destruct V as (n' & o & f & W & V). rewrite W in S. destruct (Nat.eqb n n') eqn:N; [| discriminate].
    apply PeanoNat.Nat.eqb_eq in N. subst n'.
    destruct f as [| v |]; try discriminate. destruct V as (J & P & F).
    assert (WN : forall m, upd (r_wait s) n None m = None).
    { intros m. unfold upd. destruct (Nat.eqb m n) eqn:N; [reflexivity |]. rewrite W, N. reflexivity. }
    destruct (negb (o_block o) || (o_left o - length v =? 0)); injection S as <- <-.
    + split; [exact K |]. rewrite busy_app. cbn. repeat split; auto.
      rewrite given_app. cbn. rewrite F, app_nil_r. reflexivity.
    + rewrite app_nil_r. apply tinv_start; cbn; auto.
  - destruct (busy_from false h) eqn:B; [| destruct V as (W & _); rewrite W in S; discriminate].
    destruct V as (n' & o & f & W & V). rewrite W in S. destruct (Nat.eqb n n') eqn:N; [| discriminate].
    apply PeanoNat.Nat.eqb_eq in N. subst n'. injection S as <- <-. rewrite app_nil_r.
    split; [exact K |]. rewrite B. exists n, o, Gone. cbn. split.
    + intros m. unfold upd. destruct (Nat.eqb m n) eqn:N; [reflexivity |]. rewrite W, N. reflexivity.
    + destruct f as [| v |]; [| | exact V].
      * destruct V as [(? & _ & _ & _ & F) | [(? & _ & _ & F) | (_ & _ & F)]]; rewrite F; eauto.
      * destruct V as (_ & _ & F). rewrite F. eauto.
  - destruct (r_wait s n) as [[o [| v |]] |]; try discriminate. injection S as <- <-. discriminate.
Qed.

(** Where the reads follow one another, what they return is, one after the other,
    what fd gave, and none of it is missing. *)
Theorem C63_reads_in_turn : forall l s h,
  rrun rinit l = Some (s, h) -> in_turn h = true ->
  exists rest, r_fd s = given h ++ rest /\ (settled h = true -> rest = []).
Proof.
  intros l s h R T.
  assert (V : tinv s h).
  { revert s h R T. induction l as [| a l IH] using rev_ind; intros s h R T.
    - injection R as <- <-. split; cbn; auto.
    - destruct (rrun_app _ _ _ _ R) as (s1 & h1 & s2 & h2 & A & B & C). injection C as -> ->.
      cbn in B. destruct (rstep s1 a) as [[s3 e] |] eqn:S; [| discriminate].
      injection B as <- <-. rewrite app_nil_r in T. rewrite app_nil_r.
      eapply tinv_step; eauto. apply (IH s1 h1 A).
      unfold in_turn in *. rewrite in_turn_app in T. apply andb_true_iff in T. tauto. }
  destruct V as (_ & V). unfold settled. rewrite settled_busy.
  destruct (busy_from false h).
  - destruct V as (n & o & f & _ & V). cbn.
    assert (E : exists rest, r_fd s = given h ++ rest).
    { destruct f as [| v |]; [| | exact V].
      - destruct V as [(? & _ & _ & _ & F) | [(? & _ & _ & F) | (_ & _ & F)]]; rewrite F; eauto.
      - destruct V as (_ & _ & F). rewrite F. eauto. }
    destruct E as (rest & E). exists rest. split; [exact E | discriminate].
  - destruct V as (_ & _ & _ & F). exists []. rewrite app_nil_r. auto.
Qed.

(** After fd.read has raised an exception, no later call of read ever returns. *)
Theorem C63_read_failure_hangs : forall l1 l2 s1 h1 s h id size block data,
  rrun rinit (l1 ++ [RFail]) = Some (s1, h1) -> rrun s1 l2 = Some (s, h) ->
  In (Read id size block) h -> ~ In (ReadGives id data) h.
Proof.
  intros l1 l2 s1 h1 s h id size block data R1.
  destruct (rinv_run _ _ _ _ _ _ rinv_init R1) as (c & V & _). cbn in V.
  assert (D : r_alive s1 = false /\ r_cur s1 = None).
  { destruct (rrun_app _ _ _ _ R1) as (s0 & h0 & s2 & h2 & A & B & C). injection C as -> ->. cbn in B.
    destruct (r_cur s0) as [j |]; [| discriminate]. destruct (in_nat (j_no j) (r_skip s0)); [discriminate |].
    injection B as <- <-. auto. }
  destruct D as (D & C).
  set (b := r_jobs s1). set (p := r_ops s1).
  assert (G : forall l s h, rrun s1 l = Some (s, h) ->
              r_alive s = false /\ r_cur s = None /\ b <= r_jobs s /\ p <= r_ops s /\
              (forall n v, In (n, v) (r_posts s) -> n < b) /\
              (forall n o f, r_wait s n = Some (o, f) -> (n < b -> o_id o < p) /\ (b <= n -> forall v, f <> Got v)) /\
              (forall k sz bl, In (Read k sz bl) h -> p <= k) /\
              (forall k v, In (ReadGives k v) h -> k < p)).
  { clear l2 s h. intros l. induction l as [| a l IH] using rev_ind; intros s h R.
    - injection R as <- <-. cbn. repeat split; auto; try tauto.
      + intros n v I. apply (ri_below _ _ _ V). apply in_or_app. right. apply in_map_iff. exists (n, v). auto.
      + intros _. apply (ri_wait _ _ _ V _ _ _ H).
      + intros L v ->. pose proof (ri_wait _ _ _ V _ _ _ H) as (X & _). unfold b in L. lia.
    - destruct (rrun_app _ _ _ _ R) as (s3 & h3 & s4 & h4 & A & B & E). injection E as -> ->.
      destruct (IH _ _ A) as (D1 & C1 & Lb & Lp & P1 & W1 & Rd & Gv). clear IH A R. cbn in B.
      destruct (rstep s3 a) as [[s5 e] |] eqn:S; [| discriminate]. injection B as <- <-. rewrite app_nil_r.
      assert (SR : forall s o, (forall n o' f, r_wait s n = Some (o', f) -> (n < b -> o_id o' < p) /\ (b <= n -> forall v, f <> Got v)) ->
                   b <= r_jobs s ->
                   forall n o' f, r_wait (start_round s o) n = Some (o', f) -> (n < b -> o_id o' < p) /\ (b <= n -> forall v, f <> Got v)).
      { intros t o X L n o' f E. cbn in E. unfold upd in E. destruct (Nat.eqb n (r_jobs t)) eqn:N; [| eauto].
        apply PeanoNat.Nat.eqb_eq in N. injection E as <- <-. split; [lia | discriminate]. }
      assert (SW : forall n x, (forall o f, x = Some (o, f) -> (n < b -> o_id o < p) /\ (b <= n -> forall v, f <> Got v)) ->
                   forall m o f, upd (r_wait s3) n x m = Some (o, f) -> (m < b -> o_id o < p) /\ (b <= m -> forall v, f <> Got v)).
      { intros n x X m o f E. unfold upd in E. destruct (Nat.eqb m n) eqn:N; [| eauto].
        apply PeanoNat.Nat.eqb_eq in N. subst. auto. }
      destruct a as [sz bl | | chunk | | | n | n | n]; cbn [rstep] in S.
      + injection S as <- <-. cbn [r_alive r_cur r_jobs r_ops r_posts start_round].
        split; [exact D1 |]. split; [exact C1 |]. split; [lia |]. split; [lia |]. split; [exact P1 |].
        split; [apply SR; cbn; auto |]. split.
        * intros k z y I. apply in_snoc_inv in I. destruct I as [I | I]; [eauto |]. injection I as -> _ _. exact Lp.
        * intros k v I. apply in_snoc_inv in I. destruct I as [I | I]; [eauto | discriminate].
      + rewrite D1 in S. destruct (r_queue s3); [discriminate |]. destruct (r_cur s3); discriminate.
      + rewrite C1 in S. discriminate.
      + rewrite C1 in S. discriminate.
      + destruct (r_posts s3) as [| [n v] q] eqn:Q; [discriminate |].
        injection S as <- <-. rewrite app_nil_r. cbn.
        split; [exact D1 |]. split; [exact C1 |]. split; [lia |]. split; [lia |].
        split; [intros m w I; apply (P1 m w); cbn; auto |].
        split; [| split; assumption].
        destruct (r_wait s3 n) as [[o [| w |]] |] eqn:F; auto.
        apply SW. intros o' f E. injection E as <- <-. split; [apply (W1 _ _ _ F) |].
        specialize (P1 n v (or_introl eq_refl)). lia.
      + destruct (r_wait s3 n) as [[o [| v |]] |] eqn:F; try discriminate.
        assert (Ln : n < b).
        { destruct (Compare_dec.le_lt_dec b n) as [L | L]; [| exact L].
          exfalso. apply (proj2 (W1 _ _ _ F) L v). reflexivity. }
        assert (WN : forall m o' f, upd (r_wait s3) n None m = Some (o', f) -> (m < b -> o_id o' < p) /\ (b <= m -> forall v, f <> Got v)).
        { apply SW. discriminate. }
        destruct (negb (o_block o) || (o_left o - length v =? 0)); injection S as <- <-.
        * cbn. split; [exact D1 |]. split; [exact C1 |]. split; [lia |]. split; [lia |]. split; [exact P1 |].
          split; [exact WN |]. split.
          -- intros k z y I. apply in_snoc_inv in I. destruct I as [I | I]; [eauto | discriminate].
          -- intros k w I. apply in_snoc_inv in I. destruct I as [I | I]; [eauto |]. injection I as -> ->.
             apply (proj1 (W1 _ _ _ F) Ln).
        * rewrite app_nil_r. cbn [r_alive r_cur r_jobs r_ops r_posts start_round set_wait].
          split; [exact D1 |]. split; [exact C1 |]. split; [lia |]. split; [lia |]. split; [exact P1 |].
          split; [apply SR; cbn; auto |]. split; assumption.
      + destruct (r_wait s3 n) as [[o f] |] eqn:F; [| discriminate]. injection S as <- <-. rewrite app_nil_r. cbn.
        split; [exact D1 |]. split; [exact C1 |]. split; [lia |]. split; [lia |]. split; [exact P1 |].
        split; [| split; assumption]. apply SW. intros o' g E. injection E as <- <-. split; [apply (W1 _ _ _ F) | discriminate].
      + destruct (r_wait s3 n) as [[o [| v |]] |] eqn:F; try discriminate. injection S as <- <-. cbn.
        split; [exact D1 |]. split; [exact C1 |]. split; [lia |]. split; [lia |]. split; [exact P1 |].
        split; [apply SW; discriminate |]. split.
        * intros k z y I. apply in_snoc_inv in I. destruct I as [I | I]; [eauto | discriminate].
        * intros k v I. apply in_snoc_inv in I. destruct I as [I | I]; [eauto | discriminate]. }
  intros R I J. destruct (G _ _ _ R) as (_ & _ & _ & _ & _ & _ & X & Y).
  specialize (X _ _ _ I). specialize (Y _ _ J). lia.
Qed.

(** ** What does not hold *)

(** Bytes given to write are not all written in the end: those of a drain that
    was cancelled can be left out, and a later drain does not make up for it. *)
Theorem C63_cancelled_drain_refuted :
  ~ (forall l s h1 h2 n, takes_all l -> wrun winit l = Some (s, h1 ++ Drain n :: h2) ->
       In (Drained n) h2 -> exists rest, w_fd s = written h1 ++ rest).
Proof.
  intros F.
  set (l := [WWrite [1%Z]; WDrain; WCancel 0; WUnwind 0; WWrite [2%Z]; WDrain;
             WTake; WRun None; WTake; WRun None; WDeliver; WResume 1]).
  assert (R : exists s, wrun winit l = Some (s, [Wrote [1%Z]; Drain 0; DrainCancelled 0; Wrote [2%Z]] ++
                                                Drain 1 :: [Drained 1]) /\ w_fd s = [2%Z]).
  { eexists. split; vm_compute; reflexivity. }
  destruct R as (s & R & E).
  destruct (F l s [Wrote [1%Z]; Drain 0; DrainCancelled 0; Wrote [2%Z]] [Drained 1] 1) as (rest & G); [| exact R | |].
  - intros k I. cbn in I. repeat (destruct I as [I | I]; [discriminate |]). exact I.
  - cbn. auto.
  - rewrite E in G. discriminate G.
Qed.

(** Nor can the caller tell: the bytes of a cancelled drain may as well have been
    written, and given to write again they are written twice. *)
Theorem C63_cancelled_drain_written :
  exists l s h, takes_all l /\ wrun winit l = Some (s, h) /\ In (DrainCancelled 0) h /\
    parcels h = [(0, [1%Z]); (1, [1%Z])] /\ w_fd s = [1%Z; 1%Z].
Proof.
  exists [WWrite [1%Z]; WDrain; WTake; WRun None; WCancel 0; WUnwind 0; WWrite [1%Z]; WDrain;
          WTake; WRun None; WDeliver; WDeliver; WResume 1].
  eexists. eexists. split; [| split; [vm_compute; reflexivity |]].
  - intros k I. cbn in I. repeat (destruct I as [I | I]; [discriminate |]). exact I.
  - split; [cbn; tauto |]. split; vm_compute; reflexivity.
Qed.

(** Where fd.write takes only a part, as a raw stream may, drain returns all the
    same and the rest is never written. *)
Theorem C63_short_write_refuted :
  ~ (forall l s h1 h2 n, wrun winit l = Some (s, h1 ++ Drain n :: h2) ->
       In (Drained n) h2 -> (forall k, ~ In (DrainCancelled k) (h1 ++ Drain n :: h2)) ->
       exists rest, w_fd s = written h1 ++ rest).
Proof.
  intros F.
  set (l := [WWrite [1%Z; 2%Z]; WDrain; WTake; WRun (Some 1); WDeliver; WResume 0]).
  assert (R : exists s, wrun winit l = Some (s, [Wrote [1%Z; 2%Z]] ++ Drain 0 :: [Drained 0]) /\ w_fd s = [1%Z]).
  { eexists. split; vm_compute; reflexivity. }
  destruct R as (s & R & E).
  destruct (F l s [Wrote [1%Z; 2%Z]] [Drained 0] 0 R) as (rest & G).
  - cbn. auto.
  - intros k I. cbn in I. repeat (destruct I as [I | I]; [discriminate |]). exact I.
  - rewrite E in G. discriminate G.
Qed.

(** A read that is cancelled after fd gave it bytes takes them along: the next
    read returns what follows. *)
Theorem C63_cancelled_read_refuted :
  ~ (forall l s h, rrun rinit l = Some (s, h) -> settled h = true -> given h = r_fd s).
Proof.
  intros F.
  set (l := [RRead 1 true; RTake; RRun [7%Z]; RCancel 0; RUnwind 0; RDeliver;
             RRead 1 true; RTake; RRun [8%Z]; RDeliver; RResume 1]).
  assert (R : exists s h, rrun rinit l = Some (s, h) /\ settled h = true /\ given h = [8%Z] /\ r_fd s = [7%Z; 8%Z]).
  { eexists. eexists. split; [vm_compute; reflexivity |]. split; [| split]; vm_compute; reflexivity. }
  destruct R as (s & h & R & S & G & E). specialize (F l s h R S). rewrite G, E in F. discriminate F.
Qed.

(** ** Cases that meet the hypotheses *)

(** Two drains, the first under way when the second is called. *)
Example C63_written_example :
  exists s h,
    takes_all [WWrite [1%Z]; WWrite [2%Z]; WDrain; WTake; WWrite [3%Z]; WDrain; WRun None; WTake; WRun None;
               WDeliver; WDeliver; WResume 1; WResume 0] /\
    wrun winit [WWrite [1%Z]; WWrite [2%Z]; WDrain; WTake; WWrite [3%Z]; WDrain; WRun None; WTake; WRun None;
                WDeliver; WDeliver; WResume 1; WResume 0] = Some (s, h) /\
    h = [Wrote [1%Z]; Wrote [2%Z]; Drain 0; Wrote [3%Z]; Drain 1; Drained 1; Drained 0] /\
    parcels h = [(0, [1%Z; 2%Z]); (1, [3%Z])] /\ w_fd s = [1%Z; 2%Z; 3%Z].
Proof.
  eexists. eexists. split; [| split; [vm_compute; reflexivity |]].
  - intros k I. cbn in I. repeat (destruct I as [I | I]; [discriminate |]). exact I.
  - split; [| split]; vm_compute; reflexivity.
Qed.

(** fd.write raises, and another drain is called. *)
Example C63_failure_example :
  exists s1 h1 s h,
    wrun winit ([WWrite [1%Z]; WDrain; WTake] ++ [WFail]) = Some (s1, h1) /\
    wrun s1 [WDrain] = Some (s, h) /\ In (Drain 1) h.
Proof. eexists. eexists. eexists. eexists. split; [vm_compute; reflexivity |]. split; [vm_compute; reflexivity |]. cbn; tauto. Qed.

(** A read in two rounds, and one with block=False. *)
Example C63_reads_example :
  exists s h,
    rrun rinit [RRead 3 true; RTake; RRun [1%Z; 2%Z]; RDeliver; RResume 0; RTake; RRun [3%Z]; RDeliver; RResume 1;
                RRead 9 false; RTake; RRun [4%Z; 5%Z]; RDeliver; RResume 2] = Some (s, h) /\
    h = [Read 0 3 true; ReadGives 0 [1%Z; 2%Z; 3%Z]; Read 1 9 false; ReadGives 1 [4%Z; 5%Z]] /\
    in_turn h = true /\ settled h = true /\ r_fd s = [1%Z; 2%Z; 3%Z; 4%Z; 5%Z].
Proof. eexists. eexists. split; [vm_compute; reflexivity |]. split; [| split; [| split]]; vm_compute; reflexivity. Qed.

(** The end of the file in the middle of a read. *)
Example C63_end_of_file_example :
  exists s1 h1 s h,
    rrun rinit [RRead 1 false; RTake; RRun [1%Z]; RDeliver; RResume 0] = Some (s1, h1) /\
    rrun s1 [RRead 2 true; RTake; RRun []; RDeliver; RResume 1; RTake; RRun []; RDeliver; RResume 2] = Some (s, h) /\
    In (Read 1 2 true) h.
Proof. eexists. eexists. eexists. eexists. split; [vm_compute; reflexivity |]. split; [vm_compute; reflexivity |]. cbn; tauto. Qed.

(** fd.read raises, and another read is called. *)
Example C63_read_failure_example :
  exists s1 h1 s h,
    rrun rinit ([RRead 1 true; RTake] ++ [RFail]) = Some (s1, h1) /\
    rrun s1 [RRead 1 true] = Some (s, h) /\ In (Read 1 1 true) h.
Proof. eexists. eexists. eexists. eexists. split; [vm_compute; reflexivity |]. split; [vm_compute; reflexivity |]. cbn; tauto. Qed.

Print Assumptions C63_written.
Print Assumptions C63_in_order.
Print Assumptions C63_drained.
Print Assumptions C63_failure_hangs.
Print Assumptions C63_reads.
Print Assumptions C63_reads_in_turn.
Print Assumptions C63_end_of_file.
Print Assumptions C63_read_failure_hangs.
Print Assumptions C63_cancelled_drain_refuted.
Print Assumptions C63_cancelled_drain_written.
Print Assumptions C63_short_write_refuted.
Print Assumptions C63_cancelled_read_refuted.
