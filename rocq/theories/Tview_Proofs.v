(** Proofs for C66: a task under any schedule does what it would do if all bytes were there. *)
From Coq Require Import Ascii String ZArith List Bool Lia ZifyBool ZifyNat.
From Verif Require Import PyBase PyBytes Flash_Model Reader_Model Tview_Model Tview_Spec.
Import ListNotations.
Open Scope Z_scope.

(** ** Messages *)

Lemma process_carries : forall data bytes, carries data bytes -> process_message data = Some bytes.
Proof.
  intros data bytes (padding & -> & L). unfold process_message. cbn [app].
  change (negb (65 =? 0x41)) with false. change (negb (1 =? 1)) with false. cbv iota.
  unfold MAX_SEND.
  replace (Z.of_nat (length bytes) >? Z.of_nat 61) with false by lia.
  rewrite app_length.
  replace (Z.of_nat (length bytes) >? Z.of_nat (length bytes + length padding)) with false by lia.
  f_equal. rewrite Nat2Z.id, firstn_app, Nat.sub_diag, firstn_all. apply app_nil_r.
Qed.

Lemma process_other : forall data, Forall (fun b => 0 <= b <= 255) data ->
  ~ (exists bytes, carries data bytes) -> process_message data = None.
Proof.
  intros data B N. unfold process_message.
  destruct data as [|d0 [|d1 [|d2 rest]]]; try reflexivity.
  destruct (negb (d0 =? 0x41)) eqn:E0; [reflexivity|].
  destruct (negb (d1 =? 1)) eqn:E1; [reflexivity|].
  destruct (d2 >? Z.of_nat MAX_SEND) eqn:E2; [reflexivity|].
  destruct (d2 >? Z.of_nat (length rest)) eqn:E3; [reflexivity|].
  exfalso. apply N. unfold MAX_SEND in E2.
  assert (0 <= d2) by (inversion B as [|x l _ B1]; subst; inversion B1 as [|x l _ B2]; subst;
    inversion B2; subst; lia).
  exists (firstn (Z.to_nat d2) rest), (skipn (Z.to_nat d2) rest).
  rewrite firstn_skipn, firstn_length. split; [|lia].
  replace d0 with 0x41 by lia. replace d1 with 1 by lia.
  replace (Z.of_nat (Nat.min (Z.to_nat d2) (length rest))) with d2 by lia. reflexivity.
Qed.

(** ** Lines and blocks *)

Lemma drop_space_app : forall a b, drop_space (a ++ b) =
  match drop_space a with [] => drop_space b | l => l ++ b end.
Proof.
  induction a as [|x a IH]; intro b; cbn [app drop_space]; [reflexivity|].
  destruct (is_space x); [apply IH|reflexivity].
Qed.

Lemma rstrip_newline : forall acc b, is_newline b = true -> rstrip (acc ++ [b]) = rstrip acc.
Proof.
  intros acc b H. unfold rstrip. rewrite rev_app_distr. cbn [rev app drop_space].
  replace (is_space b) with true; [reflexivity|].
  symmetry. unfold is_newline in H. unfold is_space. lia.
Qed.

Lemma find_newline_cons : forall b l, find_newline (b :: l) =
  if is_newline b then Some 0%nat else option_map S (find_newline l).
Proof.
  intros b l. unfold find_newline, is_newline. cbn [bytes_find]. unfold CR, LF.
  destruct (b =? 13) eqn:E1; destruct (b =? 10) eqn:E2; cbn [orb].
  - lia.
  - destruct (bytes_find 10 l); reflexivity.
  - destruct (bytes_find 13 l); reflexivity.
  - destruct (bytes_find 13 l), (bytes_find 10 l); reflexivity.
Qed.

(** What [next_line] finds, by the first newline. *)
Lemma next_line_find : forall s acc, next_line acc s =
  match find_newline s with
  | None => None
  | Some i =>
      match rstrip (acc ++ firstn i s) with
      | [] => next_line [] (skipn (S i) s)
      | line => Some (line, skipn (S i) s)
      end
  end.
Proof.
  induction s as [|b s IH]; intro acc; [reflexivity|].
  rewrite find_newline_cons. cbn [next_line].
  destruct (is_newline b) eqn:E.
  - cbn [firstn skipn]. rewrite app_nil_r. reflexivity.
  - rewrite IH. destruct (find_newline s) as [i|]; [|reflexivity].
    cbn [option_map firstn skipn]. rewrite <- app_assoc. reflexivity.
Qed.

Lemma find_newline_split : forall s i, find_newline s = Some i ->
  exists b, is_newline b = true /\ s = firstn i s ++ b :: skipn (S i) s.
Proof.
  induction s as [|b s IH]; intros i H; [discriminate|].
  rewrite find_newline_cons in H. destruct (is_newline b) eqn:E.
  - injection H as <-. exists b. split; [exact E|reflexivity].
  - destruct (find_newline s) as [j|] eqn:F; [|discriminate]. injection H as <-.
    destruct (IH j eq_refl) as (c & C & D). exists c. split; [exact C|].
    cbn [firstn skipn app]. f_equal. exact D.
Qed.

Lemma firstn_S_split : forall (s : list Z) i b, s = firstn i s ++ b :: skipn (S i) s ->
  firstn (i + 1) s = firstn i s ++ [b].
Proof.
  induction s as [|x s IH]; intros [|i] b H; cbn [firstn skipn app Nat.add] in *; try discriminate.
  - injection H as ->. reflexivity.
  - injection H as H. f_equal. apply IH. exact H.
Qed.

(** One turn of readline: a line is the next line; a blank line taken makes no difference. *)
Lemma try_line_cases : forall buf,
  (exists line rest, try_line buf = (Some line, rest) /\ next_line [] buf = Some (line, rest)) \/
  (exists rest, try_line buf = (None, rest) /\ next_line [] buf = next_line [] rest /\
     (find_newline buf = None /\ rest = buf \/ (length rest < length buf)%nat) /\
     forall q, next_line [] (buf ++ q) = next_line [] (rest ++ q)).
Proof.
  intro buf. unfold try_line. pose proof (next_line_find buf []) as N.
  destruct (find_newline buf) as [i|] eqn:F.
  - destruct (find_newline_split _ _ F) as (b & B & S).
    rewrite (firstn_S_split _ _ _ S), rstrip_newline by exact B.
    replace (i + 1)%nat with (Datatypes.S i) by lia.
    cbn [app] in N.
    destruct (rstrip (firstn i buf)) as [|c line] eqn:R.
    + right. exists (skipn (Datatypes.S i) buf). cbn [length Nat.ltb Nat.leb].
      split; [reflexivity|]. split; [exact N|]. split.
      * right. rewrite S at 2. rewrite app_length. cbn [length]. lia.
      * intro q. rewrite S at 1. rewrite <- app_assoc. cbn [app].
        remember (firstn i buf) as a. remember (skipn (Datatypes.S i) buf) as z. 
        clear - R B F S Heqa.
        assert (G : forall a acc, find_newline a = None -> rstrip (acc ++ a) = [] ->
          next_line acc (a ++ b :: z ++ q) = next_line [] (z ++ q)).
        { clear - B. induction a as [|x a IH]; intros acc Hn Hr.
          - cbn [app next_line]. rewrite B. rewrite app_nil_r in Hr. rewrite Hr. reflexivity.
          - rewrite find_newline_cons in Hn. cbn [app next_line].
            destruct (is_newline x); [discriminate|]. apply IH.
            + destruct (find_newline a); [discriminate|reflexivity].
            + rewrite <- app_assoc. exact Hr. }
        apply G; [|exact R].
        clear - F S Heqa. subst a. clear S. revert i F.
        induction buf as [|x l IH]; intros i F; [discriminate|].
        rewrite find_newline_cons in F. destruct (is_newline x) eqn:X.
        -- injection F as <-. reflexivity.
        -- destruct (find_newline l) as [j|] eqn:L; [|discriminate]. injection F as <-.
           cbn [firstn]. rewrite find_newline_cons, X, (IH j eq_refl). reflexivity.
    + left. exists (c :: line), (skipn (Datatypes.S i) buf). split; [reflexivity|exact N].
  - right. exists buf. split; [reflexivity|]. split; [reflexivity|]. split; [left; auto|]. reflexivity.
Qed.

Lemma next_line_app : forall s acc line r q, next_line acc s = Some (line, r) ->
  next_line acc (s ++ q) = Some (line, r ++ q).
Proof.
  induction s as [|b s IH]; intros acc line r q H; [discriminate|].
  cbn [next_line app] in *. destruct (is_newline b).
  - destruct (rstrip acc); [apply IH; exact H|]. injection H as <- <-. reflexivity.
  - apply IH. exact H.
Qed.

Lemma try_block_next : forall buf, try_block buf =
  match next_block buf with Some (x, r) => (Some x, r) | None => (None, buf) end.
Proof.
  intro buf. unfold try_block, next_block, slice.
  destruct buf as [|b [|s0 [|s1 [|s2 [|s3 body]]]]]; try reflexivity.
  cbn [length Nat.leb]. change (5 - 1)%nat with 4%nat. cbn [skipn firstn le_value].
  rewrite Z.mul_0_r, Z.add_0_r.
  set (size := s0 + 256 * (s1 + 256 * (s2 + 256 * s3))).
  change (2 ^ 24) with 16777216. destruct (size >? 16777216); [reflexivity|].
  change (5 + Z.to_nat size <=? S (S (S (S (S (length body))))))%nat with (Z.to_nat size <=? length body)%nat.
  destruct (Z.to_nat size <=? length body)%nat; [|reflexivity].
  replace (5 + Z.to_nat size - 5)%nat with (Z.to_nat size) by lia. reflexivity.
Qed.

Lemma next_block_app : forall s x r q, next_block s = Some (x, r) -> next_block (s ++ q) = Some (x, r ++ q).
Proof.
  intros s x r q H. unfold next_block in *.
  destruct s as [|b [|s0 [|s1 [|s2 [|s3 body]]]]]; try discriminate. cbn [app].
  set (size := s0 + 256 * (s1 + 256 * (s2 + 256 * s3))) in *.
  destruct (size >? 16777216); [injection H as <- <-; reflexivity|].
  destruct (Z.to_nat size <=? length body)%nat eqn:L; [|discriminate]. injection H as <- <-.
  rewrite app_length. replace (Z.to_nat size <=? length body + length q)%nat with true by lia.
  rewrite firstn_app, skipn_app. replace (Z.to_nat size - length body)%nat with 0%nat by lia.
  cbn [firstn skipn]. rewrite app_nil_r. reflexivity.
Qed.

(** ** Reading with everything there *)

Lemma reads_app : forall t s ns t' r q, reads t s ns t' r -> reads t (s ++ q) ns t' (r ++ q).
Proof.
  intros t s ns t' r q H. induction H.
  - constructor.
  - constructor. assumption.
  - econstructor; [apply next_line_app; eassumption|assumption].
  - econstructor; [apply next_block_app; eassumption|assumption].
Qed.

Lemma reads_trans : forall t s ns t' r, reads t s ns t' r ->
  forall ns' t'' r', reads t' r ns' t'' r' -> reads t s (ns ++ ns') t'' r'.
Proof.
  intros t s ns t' r H. induction H; intros ns' t'' r' H'.
  - exact H'.
  - cbn [app]. constructor. auto.
  - econstructor; [eassumption|auto].
  - econstructor; [eassumption|auto].
Qed.

(** Of two ways to read the same bytes one is the beginning of the other. *)
Lemma reads_det : forall t s ns1 t1 r1, reads t s ns1 t1 r1 -> forall ns2 t2 r2, reads t s ns2 t2 r2 ->
  (exists more, reads t1 r1 more t2 r2 /\ ns2 = ns1 ++ more) \/
  (exists more, reads t2 r2 more t1 r1 /\ ns1 = ns2 ++ more).
Proof.
  intros t s ns1 t1 r1 H. induction H; intros ns2 t2 r2 H2.
  - left. exists ns2. auto.
  - inversion H2 as [|n' k' s' ns' t0 r0 H3| |]; subst.
    + right. exists (n :: ns). split; [constructor; assumption|reflexivity].
    + destruct (IHreads _ _ _ H3) as [(more & A & ->)|(more & A & ->)]; [left|right]; exists more; auto.
  - inversion H2 as [| |k' s'' line' s3 ns' t0 r0 E H3|]; subst.
    + right. exists ns. split; [econstructor; eassumption|reflexivity].
    + rewrite H in E. injection E as <- <-. destruct (IHreads _ _ _ H3) as [(more & A & ->)|(more & A & ->)]; [left|right]; exists more; auto.
  - inversion H2 as [| | |k' s'' x' s3 ns' t0 r0 E H3]; subst.
    + right. exists ns. split; [econstructor; eassumption|reflexivity].
    + rewrite H in E. injection E as <- <-. destruct (IHreads _ _ _ H3) as [(more & A & ->)|(more & A & ->)]; [left|right]; exists more; auto.
Qed.

(** ** The machine *)

(** What is left of the stream and the buffer: the same but for blank lines taken by a
    readline under way. *)
Definition ahead (t : task) (r buf : list Z) : Prop :=
  r = buf \/ (exists k, t = Line k) /\ forall q, next_line [] (r ++ q) = next_line [] (buf ++ q).

Definition tracks (t : task) (s : list Z) (m : mach) : Prop :=
  exists r, reads t s (m_notes m) (m_task m) r /\ ahead (m_task m) r (m_buf m).
Definition gone (t : task) (s : list Z) (m : mach) : Prop :=
  exists ns k r more, reads t s ns (Resync k) r /\ m_notes m = ns ++ more.

Lemma ahead_app : forall t r buf q, ahead t r buf -> ahead t (r ++ q) (buf ++ q).
Proof.
  intros t r buf q [->|(K & H)]; [left; reflexivity|right]. split; [exact K|].
  intro q'. rewrite <- !app_assoc. apply H.
Qed.

Lemma run_once_notes : forall m, exists more, m_notes (run_once m) = m_notes m ++ more.
Proof.
  intro m. unfold run_once. destruct (m_task m).
  - destruct (try_line (m_buf m)) as [[line|] b]; exists []; rewrite app_nil_r; reflexivity.
  - destruct (try_block (m_buf m)) as [[x|] b]; exists []; rewrite app_nil_r; reflexivity.
  - exists []. rewrite app_nil_r. destruct (m_phase m); try reflexivity.
    destruct (_ =? _)%nat; reflexivity.
  - eexists. reflexivity.
  - exists []. rewrite app_nil_r. reflexivity.
Qed.

Lemma step_notes : forall m e, exists more, m_notes (step m e) = m_notes m ++ more.
Proof.
  intros m [data|]; cbn [step].
  - destruct (process_message data); exists []; rewrite app_nil_r; reflexivity.
  - destruct (m_phase m); try apply run_once_notes. exists []. rewrite app_nil_r. reflexivity.
Qed.

Lemma steps_notes : forall es m, exists more, m_notes (fold_left step es m) = m_notes m ++ more.
Proof.
  induction es as [|e es IH]; intro m; cbn [fold_left].
  - exists []. rewrite app_nil_r. reflexivity.
  - destruct (IH (step m e)) as (a & A), (step_notes m e) as (b & B).
    exists (b ++ a). rewrite A, B, app_assoc. reflexivity.
Qed.

Lemma run_once_ok : forall t s m, tracks t s m \/ gone t s m ->
  tracks t s (run_once m) \/ gone t s (run_once m).
Proof.
  intros t s m [(r & R & A)|G].
  2:{ right. destruct G as (ns & k & r & more & R & N).
      destruct (run_once_notes m) as (m2 & M). exists ns, k, r, (more ++ m2).
      rewrite M, N, app_assoc. auto. }
  unfold run_once. destruct (m_task m) as [k|k|k|n k|e] eqn:T.
  - left. destruct (try_line_cases (m_buf m)) as [(line & rest & E & N)|(rest & E & N & _ & Q)]; rewrite E.
    + exists rest. cbn. split; [|left; reflexivity].
      rewrite <- (app_nil_r (m_notes m)). eapply reads_trans; [exact R|].
      econstructor; [|constructor].
      destruct A as [->|(_ & A)]; [exact N|].
      specialize (A []). rewrite !app_nil_r in A. rewrite A. exact N.
    + exists r. cbn. split; [exact R|]. right. split; [eauto|].
      intro q. rewrite <- Q. destruct A as [->|(_ & A)]; [reflexivity|apply A].
  - left. destruct A as [->|((k' & K) & _)]; [|discriminate].
    rewrite try_block_next. destruct (next_block (m_buf m)) as [[x rest]|] eqn:E.
    + exists rest. cbn. split; [|left; reflexivity].
      rewrite <- (app_nil_r (m_notes m)). eapply reads_trans; [exact R|].
      econstructor; [exact E|constructor].
    + exists (m_buf m). cbn. split; [exact R|left; reflexivity].
  - destruct A as [->|((k' & K) & _)]; [|discriminate].
    assert (W : tracks t s {| m_task := Resync k; m_buf := m_buf m; m_phase := Waiting;
       m_old := length (m_buf m); m_notes := m_notes m |}).
    { exists (m_buf m). split; [exact R|left; reflexivity]. }
    destruct (m_phase m); try (left; exact W).
    destruct (_ =? _)%nat; [|left; exact W].
    right. exists (m_notes m), k, (m_buf m), []. cbn. rewrite app_nil_r. auto.
  - left. destruct A as [->|((k' & K) & _)]; [|discriminate].
    exists (m_buf m). cbn. split; [|left; reflexivity].
    eapply reads_trans; [exact R|]. constructor. constructor.
  - left. exists r. rewrite T. auto.
Qed.

Lemma step_msg_ok : forall t s m data bytes, process_message data = Some bytes ->
  tracks t s m \/ gone t s m -> tracks t (s ++ bytes) (step m (Msg data)) \/ gone t (s ++ bytes) (step m (Msg data)).
Proof.
  intros t s m data bytes P [(r & R & A)|(ns & k & r & more & R & N)]; cbn [step]; rewrite P.
  - left. exists (r ++ bytes). cbn. split; [apply reads_app; exact R|apply ahead_app; exact A].
  - right. exists ns, k, (r ++ bytes), more. cbn. split; [apply reads_app; exact R|exact N].
Qed.

Lemma steps_ok : forall es rest, delivers es rest -> forall t s m, tracks t s m \/ gone t s m ->
  tracks t (s ++ rest) (fold_left step es m) \/ gone t (s ++ rest) (fold_left step es m).
Proof.
  intros es rest D. induction D as [|es s' D IH|data bytes es s' C D IH|data es s' B N D IH]; intros t s m H.
  - rewrite app_nil_r. exact H.
  - cbn [fold_left]. apply IH. cbn [step]. destruct (m_phase m); [|exact H|]; apply run_once_ok; exact H.
  - cbn [fold_left]. rewrite app_assoc. apply IH. apply step_msg_ok; [apply process_carries; exact C|exact H].
  - cbn [fold_left]. apply IH. cbn [step]. rewrite process_other by assumption. exact H.
Qed.

Lemma start_tracks : forall t, tracks t [] (start_of t).
Proof. intro t. exists []. split; [constructor|left; reflexivity]. Qed.

Lemma runs_ok : forall es s, delivers es s -> forall t, tracks t s (runs t es) \/ gone t s (runs t es).
Proof.
  intros es s D t. apply (steps_ok es s D t [] (start_of t)). left. apply start_tracks.
Qed.

(** ** Going on *)

Lemma quiet_app : forall a b, quiet (a + b) = quiet a ++ quiet b.
Proof. induction a as [|a IH]; intro b; cbn [quiet Nat.add app]; [reflexivity|]. rewrite IH. reflexivity. Qed.

Lemma round_step : forall m, fold_left step (quiet 1) m =
  run_once {| m_task := m_task m; m_buf := m_buf m; m_phase := match m_phase m with Waiting => Woken | p => p end;
              m_old := m_old m; m_notes := m_notes m |}.
Proof.
  intro m. cbn [quiet fold_left]. unfold step.
  change (process_message [65; 1; 0]) with (Some (@nil Z)). cbv iota. rewrite app_nil_r. cbn [m_phase].
  destruct (m_phase m); reflexivity.
Qed.

Lemma go_line : forall n m k line rest, (length (m_buf m) < n)%nat -> m_task m = Line k ->
  next_line [] (m_buf m) = Some (line, rest) ->
  exists j, let m' := fold_left step (quiet j) m in
    m_task m' = k line /\ m_buf m' = rest /\ m_notes m' = m_notes m.
Proof.
  induction n as [|n IH]; intros m k line rest L T N; [lia|].
  pose proof (round_step m) as R.
  destruct (try_line_cases (m_buf m)) as [(line' & rest' & E & N')|(rest' & E & N' & D & _)].
  - exists 1%nat. cbv zeta. rewrite R. unfold run_once. cbn [m_task m_buf]. rewrite T, E. cbn.
    rewrite N in N'. injection N' as <- <-. auto.
  - destruct D as [(F & ->)|D].
    { rewrite next_line_find, F in N. discriminate. }
    destruct (IH (fold_left step (quiet 1) m) k line rest) as (j & J).
    + rewrite R. unfold run_once. cbn [m_task m_buf]. rewrite T, E. cbn. lia.
    + rewrite R. unfold run_once. cbn [m_task m_buf]. rewrite T, E. reflexivity.
    + rewrite R. unfold run_once. cbn [m_task m_buf]. rewrite T, E. cbn. rewrite <- N'. exact N.
    + exists (1 + j)%nat. rewrite quiet_app, fold_left_app. cbv zeta in J |- *.
      destruct J as (J1 & J2 & J3). split; [exact J1|]. split; [exact J2|]. rewrite J3.
      rewrite R. unfold run_once. cbn [m_task m_buf]. rewrite T, E. reflexivity.
Qed.

Lemma go_on : forall t r more t' r', reads t r more t' r' -> forall m, m_task m = t -> ahead t r (m_buf m) ->
  exists j, let m' := fold_left step (quiet j) m in
    m_task m' = t' /\ m_notes m' = m_notes m ++ more /\ ahead t' r' (m_buf m').
Proof.
  intros t r more t' r' H. induction H; intros m T A.
  - exists 0%nat. cbn. rewrite app_nil_r. auto.
  - destruct A as [->|((k' & K) & _)]; [|discriminate].
    pose proof (round_step m) as R.
    destruct (IHreads (fold_left step (quiet 1) m)) as (j & J1 & J2 & J3).
    + rewrite R. unfold run_once. cbn [m_task]. rewrite T. reflexivity.
    + rewrite R. unfold run_once. cbn [m_task]. rewrite T. left. reflexivity.
    + exists (1 + j)%nat. rewrite quiet_app, fold_left_app. cbv zeta. rewrite J1, J2. split; [reflexivity|].
      split; [|exact J3].
      rewrite R. unfold run_once. cbn [m_task]. rewrite T. cbn. rewrite <- app_assoc. reflexivity.
  - assert (N : next_line [] (m_buf m) = Some (line, s')).
    { destruct A as [->|(_ & A)]; [assumption|]. specialize (A []). rewrite !app_nil_r in A. congruence. }
    destruct (go_line (S (length (m_buf m))) m k line s' (Nat.lt_succ_diag_r _) T N) as (j1 & J1 & J2 & J3).
    destruct (IHreads (fold_left step (quiet j1) m)) as (j & K1 & K2 & K3).
    + exact J1.
    + left. symmetry. exact J2.
    + exists (j1 + j)%nat. rewrite quiet_app, fold_left_app. cbv zeta. rewrite K1, K2, J3. auto.
  - destruct A as [->|((k' & K) & _)]; [|discriminate].
    pose proof (round_step m) as R.
    destruct (IHreads (fold_left step (quiet 1) m)) as (j & J1 & J2 & J3).
    + rewrite R. unfold run_once. cbn [m_task m_buf]. rewrite T, try_block_next, H. reflexivity.
    + rewrite R. unfold run_once. cbn [m_task m_buf]. rewrite T, try_block_next, H. left. reflexivity.
    + exists (1 + j)%nat. rewrite quiet_app, fold_left_app. cbv zeta. rewrite J1, J2. split; [reflexivity|].
      split; [|exact J3].
      rewrite R. unfold run_once. cbn [m_task m_buf]. rewrite T, try_block_next, H. reflexivity.
Qed.
