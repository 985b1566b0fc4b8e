(** C66: tview shows what the controller sends, however its messages are cut and scheduled. *)
From Coq Require Import Ascii String ZArith List Bool Lia ZifyBool ZifyNat.
From Verif Require Import PyBase PyBytes Flash_Model Reader_Model Tview_Model Tview_Spec Tview_Proofs.
Import ListNotations.
Open Scope Z_scope.

(** Whatever the task of a device is, under every schedule it has done what it does with the
    bytes arrived so far, in this order; only after giving up on a stream that is out of
    step may it do anything else. *)
Theorem C66_schedule : forall t es s, delivers es s ->
  exists ns t' rest more, reads t s ns t' rest /\ m_notes (runs t es) = ns ++ more /\
    (more <> [] -> exists k, t' = Resync k).
Proof.
  intros t es s D. destruct (runs_ok es s D t) as [(r & R & _)|(ns & k & r & more & R & N)].
  - exists (m_notes (runs t es)), (m_task (runs t es)), r, []. rewrite app_nil_r. split; [exact R|].
    split; [reflexivity|]. congruence.
  - exists ns, (Resync k), r, more. eauto.
Qed.

(** And it does all of it once the controller is asked often enough. *)
Theorem C66_progress : forall t es s ns t' rest, delivers es s -> reads t s ns t' rest ->
  exists n, forall m, (n <= m)%nat -> prefix ns (m_notes (runs t (es ++ quiet m))).
Proof.
  intros t es s ns t' rest D R.
  assert (M : forall n, prefix ns (m_notes (runs t (es ++ quiet n))) ->
    forall m, (n <= m)%nat -> prefix ns (m_notes (runs t (es ++ quiet m)))).
  { intros n (more & N) m L. replace m with (n + (m - n))%nat by lia.
    rewrite quiet_app, app_assoc. unfold runs in *. rewrite fold_left_app.
    destruct (steps_notes (quiet (m - n)) (fold_left step (es ++ quiet n) (start_of t))) as (a & ->).
    rewrite N. exists (more ++ a). rewrite app_assoc. reflexivity. }
  assert (Z : prefix ns (m_notes (runs t es)) -> exists n, forall m, (n <= m)%nat -> prefix ns (m_notes (runs t (es ++ quiet m)))).
  { intro P. exists 0%nat. apply M. cbn [quiet]. rewrite app_nil_r. exact P. }
  destruct (runs_ok es s D t) as [(r & R1 & A)|(ns1 & k & r & more1 & R1 & N)].
  - destruct (reads_det _ _ _ _ _ R1 _ _ _ R) as [(more & B & ->)|(more & B & E)].
    + destruct (go_on _ _ _ _ _ B (runs t es) eq_refl A) as (j & _ & J & _).
      exists j. apply M. exists []. rewrite app_nil_r. unfold runs in *. rewrite fold_left_app. exact J.
    + apply Z. exists more. exact E.
  - destruct (reads_det _ _ _ _ _ R1 _ _ _ R) as [(more & B & ->)|(more & B & E)].
    + inversion B; subst. apply Z. exists more1. rewrite app_nil_r. exact N.
    + apply Z. exists (more ++ more1). rewrite N, E, app_assoc. reflexivity.
Qed.

(** ** Giving up *)

Lemma old_length : forall t es, let m := runs t es in
  m_phase m = Waiting -> (exists k, m_task m = Resync k) -> m_old m = length (m_buf m).
Proof.
  intros t es. unfold runs. rewrite <- (rev_involutive es). generalize (rev es). clear es.
  induction l as [|e es IH]; cbn [rev]; cbv zeta.
  - cbn. discriminate.
  - rewrite fold_left_app. cbn [fold_left]. cbv zeta in IH.
    set (m := fold_left step (rev es) (start_of t)) in *. clearbody m.
    destruct e as [data|]; cbn [step].
    + destruct (process_message data) as [bytes|]; [|exact IH].
      cbn. destruct (m_phase m); discriminate.
    + assert (H : m_phase (run_once m) = Waiting -> (exists k, m_task (run_once m) = Resync k) ->
        m_old (run_once m) = length (m_buf (run_once m)) \/ m_phase m = Waiting).
      { unfold run_once. destruct (m_task m) eqn:T.
        - destruct (try_line (m_buf m)) as [[x|] b]; cbn; [discriminate|]. intros _ (k' & K). congruence.
        - destruct (try_block (m_buf m)) as [[x|] b]; cbn; [discriminate|]. intros _ (k' & K). congruence.
        - destruct (m_phase m); cbn; auto. destruct (_ =? _)%nat; cbn; [discriminate|auto].
        - cbn. discriminate.
        - rewrite T. intros _ (k' & K). discriminate. }
      destruct (m_phase m) eqn:P; [|rewrite P; exact IH|]; intros A B; destruct (H A B) as [C|C]; try exact C; congruence.
Qed.

(** From a stream that is out of step it recovers as soon as the controller has nothing to
    say twice: it then goes on as if it had just been started on an empty stream. *)
Theorem C66_resync : forall t es k, m_task (runs t es) = Resync k ->
  exists n, (n <= 2)%nat /\ forall later,
    m_notes (runs t (es ++ quiet n ++ later)) = m_notes (runs t es) ++ m_notes (runs k later).
Proof.
  intros t es k T. pose proof (old_length t es) as O. cbv zeta in O.
  assert (A : forall later ns, m_notes (fold_left step later
      {| m_task := k; m_buf := []; m_phase := Ready; m_old := 0; m_notes := ns |}) = ns ++ m_notes (runs k later)).
  { intros later ns. unfold runs, start_of.
    assert (G : forall es m ns, fold_left step es {| m_task := m_task m; m_buf := m_buf m; m_phase := m_phase m;
        m_old := m_old m; m_notes := ns ++ m_notes m |} =
      let m' := fold_left step es m in {| m_task := m_task m'; m_buf := m_buf m'; m_phase := m_phase m';
        m_old := m_old m'; m_notes := ns ++ m_notes m' |}).
    { clear. induction es as [|e es IH]; intros m ns; [reflexivity|]. cbn [fold_left].
      rewrite <- IH. f_equal. destruct e as [data|]; cbn [step].
      - destruct (process_message data); reflexivity.
      - destruct m as [tm bm pm om nm]. cbn [m_task m_buf m_phase m_old m_notes].
        assert (X : run_once {| m_task := tm; m_buf := bm; m_phase := pm; m_old := om; m_notes := ns ++ nm |} =
          let m' := run_once {| m_task := tm; m_buf := bm; m_phase := pm; m_old := om; m_notes := nm |} in
          {| m_task := m_task m'; m_buf := m_buf m'; m_phase := m_phase m'; m_old := m_old m'; m_notes := ns ++ m_notes m' |}).
        { unfold run_once. cbn [m_task m_buf m_phase m_old m_notes]. destruct tm.
          - destruct (try_line bm) as [[?|] ?]; reflexivity.
          - destruct (try_block bm) as [[?|] ?]; reflexivity.
          - destruct pm; try reflexivity. destruct (_ =? _)%nat; reflexivity.
          - cbn. rewrite app_assoc. reflexivity.
          - reflexivity. }
        destruct pm; [exact X|reflexivity|exact X]. }
    pose proof (G later {| m_task := k; m_buf := []; m_phase := Ready; m_old := 0; m_notes := [] |} ns) as H.
    cbn [m_task m_buf m_phase m_old m_notes] in H. rewrite app_nil_r in H. rewrite H. reflexivity. }
  assert (W : forall m, m_task m = Resync k -> m_phase m = Waiting -> m_old m = length (m_buf m) ->
    fold_left step (quiet 1) m = {| m_task := k; m_buf := []; m_phase := Ready; m_old := 0; m_notes := m_notes m |}).
  { intros m Tm P Om. rewrite round_step. unfold run_once. cbn [m_task m_buf m_phase m_old m_notes].
    rewrite Tm, P, Om, Nat.eqb_refl. reflexivity. }
  assert (R : forall m, m_task m = Resync k -> m_phase m <> Waiting ->
    (exists m', fold_left step (quiet 1) m = m' /\ m_task m' = Resync k /\ m_phase m' = Waiting /\
       m_old m' = length (m_buf m') /\ m_notes m' = m_notes m) \/
    fold_left step (quiet 1) m = {| m_task := k; m_buf := []; m_phase := Ready; m_old := 0; m_notes := m_notes m |}).
  { intros m Tm P. rewrite round_step. unfold run_once. cbn [m_task m_buf m_phase m_old m_notes]. rewrite Tm.
    destruct (m_phase m); [|congruence|].
    - left. eexists. split; [reflexivity|]. auto.
    - destruct (_ =? _)%nat; [right; reflexivity|]. left. eexists. split; [reflexivity|]. auto. }
  assert (F : exists n, (n <= 2)%nat /\ fold_left step (quiet n) (runs t es) =
    {| m_task := k; m_buf := []; m_phase := Ready; m_old := 0; m_notes := m_notes (runs t es) |}).
  { destruct (m_phase (runs t es)) eqn:P.
    - destruct (R (runs t es) T) as [(m' & E & T' & P' & O' & N')|E]; [congruence| |].
      + exists 2%nat. split; [lia|]. change 2%nat with (1 + 1)%nat. rewrite quiet_app, fold_left_app, E.
        rewrite <- N'. apply W; assumption.
      + exists 1%nat. split; [lia|exact E].
    - exists 1%nat. split; [lia|]. apply W; auto. apply O; eauto.
    - destruct (R (runs t es) T) as [(m' & E & T' & P' & O' & N')|E]; [congruence| |].
      + exists 2%nat. split; [lia|]. change 2%nat with (1 + 1)%nat. rewrite quiet_app, fold_left_app, E.
        rewrite <- N'. apply W; assumption.
      + exists 1%nat. split; [lia|exact E]. }
  destruct F as (n & L & F). exists n. split; [exact L|]. intro later.
  unfold runs in *. rewrite !fold_left_app, F. apply A.
Qed.

(** ** The tasks of a device *)

Definition frob (t : task) : task :=
  match t with
  | Line k => Line k | Block k => Block k | Resync k => Resync k | Note n k => Note n k | Stop e => Stop e
  end.
Lemma frob_eq : forall t, t = frob t.
Proof. intros []; reflexivity. Qed.

Lemma run_eq : forall rs, run rs = readline (fun line =>
    let rest :=
      if startswith (lit "emit ") line then do_data rs (nth 1 (split_on 32 line) []) (run rs)
      else run rs in
    if has_nonascii line then Resync rest else rest).
Proof. intro rs. rewrite (frob_eq (run rs)) at 1. reflexivity. Qed.

Lemma read_schema_eq : forall name k ke, read_schema name k ke = readline (fun line =>
    if startswith (lit "ERR") line then ke CommandError
    else if bytes_eqb line (lit "schema " ++ name) || bytes_eqb line (lit "cschema " ++ name) then Block k
    else read_schema name k ke).
Proof. intros. rewrite (frob_eq (read_schema _ _ _)) at 1. reflexivity. Qed.

Lemma read_data_eq : forall name k ke, read_data name k ke = readline (fun line =>
    if negb (bytes_eqb line (lit "cdata " ++ name)) then read_data name k ke
    else if startswith (lit "ERR") line then ke CommandError
    else Block k).
Proof. intros. rewrite (frob_eq (read_data _ _ _)) at 1. reflexivity. Qed.

Lemma command_first_eq : forall k, command_first k = readline (fun line =>
    if startswith (lit "emit ") line || startswith (lit "schema ") line then command_first k
    else k line).
Proof. intros. rewrite (frob_eq (command_first _)) at 1. reflexivity. Qed.

Lemma command_lines_eq : forall k ke result line, command_lines k ke result line =
  if startswith (lit "ERR") line then ke CommandError
  else if startswith (lit "OK") line then k result
  else readline (fun line' => command_lines k ke (result ++ line ++ [LF]) line').
Proof.
  intros. rewrite (frob_eq (command_lines _ _ _ _)) at 1.
  transitivity (frob (if startswith (lit "ERR") line then ke CommandError
    else if startswith (lit "OK") line then k result
    else readline (fun line' => command_lines k ke (result ++ line ++ [LF]) line'))); [reflexivity|].
  symmetry. apply frob_eq.
Qed.

(** A line as it is read. *)
Definition plain (l : list Z) : Prop :=
  l <> [] /\ Forall (fun c => c <> 13 /\ c <> 10) l /\ is_space (last l 0) = false.
Definition blank (p : list Z) : Prop := p = [] \/ p = [10].

Lemma rstrip_plain : forall l, l <> [] -> is_space (last l 0) = false -> rstrip l = l.
Proof.
  intros l N S. destruct (exists_last N) as (l' & x & ->). rewrite last_last in S.
  unfold rstrip. rewrite rev_app_distr. cbn [rev app drop_space]. rewrite S.
  cbn [rev]. rewrite rev_involutive. reflexivity.
Qed.

Lemma next_line_plain : forall p l r, blank p -> plain l ->
  next_line [] (p ++ l ++ 13 :: r) = Some (l, r).
Proof.
  intros p l r B (N & F & S).
  assert (H : next_line [] (l ++ 13 :: r) = Some (l, r)).
  { assert (G : forall l acc, Forall (fun c => c <> 13 /\ c <> 10) l -> acc ++ l <> [] ->
      is_space (last (acc ++ l) 0) = false -> next_line acc (l ++ 13 :: r) = Some (acc ++ l, r)).
    { clear. induction l as [|c l IH]; intros acc F N S; cbn [app next_line].
      - change (is_newline 13) with true. cbv iota. rewrite app_nil_r in *. rewrite rstrip_plain by assumption.
        destruct acc; [congruence|reflexivity].
      - inversion F as [|x y C F']; subst. replace (is_newline c) with false by (unfold is_newline; lia).
        replace (acc ++ c :: l) with ((acc ++ [c]) ++ l) in * by (rewrite <- app_assoc; reflexivity).
        apply IH; assumption. }
    apply (G l []); assumption. }
  destruct B as [->| ->]; exact H.
Qed.

Lemma next_block_announced : forall data r, Z.of_nat (length data) <= 2 ^ 24 ->
  next_block (10 :: le_bytes 4 (Z.of_nat (length data)) ++ data ++ r) = Some (Some data, r).
Proof.
  intros data r L. cbn [le_bytes app next_block].
  set (n := Z.of_nat (length data)) in *. assert (0 <= n) by lia.
  replace (n mod 256 + 256 * ((n / 256) mod 256 + 256 * ((n / 256 / 256) mod 256 + 256 * ((n / 256 / 256 / 256) mod 256)))) with n
    by (assert (n / 256 / 256 / 256 < 256) by (rewrite !Z.div_div by lia; apply Z.div_lt_upper_bound; lia);
        Z.div_mod_to_equations; lia).
  replace (n >? 16777216) with false by lia. subst n. rewrite Nat2Z.id, app_length.
  replace (length data <=? length data + length r)%nat with true by lia.
  rewrite firstn_app, skipn_app, Nat.sub_diag, firstn_all, skipn_all. cbn. rewrite app_nil_r. reflexivity.
Qed.

(** [does t s ns t']: with the bytes [s] the task does [ns] and becomes [t'], up to a
    newline that ends the last line. *)
Definition does (t : task) (s : list Z) (ns : list note) (t' : task) : Prop :=
  forall p r, blank p -> exists p', blank p' /\ reads t (p ++ s ++ r) ns t' (p' ++ r).

Lemma does_nil : forall t, does t [] [] t.
Proof. intros t p r B. exists p. split; [exact B|constructor]. Qed.

Lemma does_app : forall t s1 n1 t1 s2 n2 t2, does t s1 n1 t1 -> does t1 s2 n2 t2 ->
  does t (s1 ++ s2) (n1 ++ n2) t2.
Proof.
  intros t s1 n1 t1 s2 n2 t2 A B p r P. rewrite <- app_assoc.
  destruct (A p (s2 ++ r) P) as (p1 & P1 & R1). destruct (B p1 r P1) as (p2 & P2 & R2).
  exists p2. split; [exact P2|]. eapply reads_trans; eassumption.
Qed.

Lemma does_note : forall n k s ns t', does k s ns t' -> does (Note n k) s (n :: ns) t'.
Proof.
  intros n k s ns t' H p r P. destruct (H p r P) as (p' & P' & R). exists p'. split; [exact P'|].
  constructor. exact R.
Qed.

Lemma does_line : forall k l, plain l -> does (Line k) (text_line l) [] (k l).
Proof.
  intros k l H p r P. exists [10]. split; [right; reflexivity|].
  econstructor; [|constructor]. unfold text_line. rewrite <- app_assoc. cbn [app].
  apply (next_line_plain p l (10 :: r) P H).
Qed.

Definition echo (l : list Z) : list note := if startswith (lit "emit ") l then [] else [Prints (l ++ [LF])].

Lemma does_readline : forall k l, plain l -> does (readline k) (text_line l) (echo l) (k l).
Proof.
  intros k l H. unfold readline, echo.
  pose proof (does_line (fun result => if startswith (lit "emit ") result then k result
     else Note (Prints (result ++ [LF])) (k result)) l H) as D. cbv beta in D.
  destruct (startswith (lit "emit ") l); [exact D|].
  pose proof (does_app _ _ _ _ _ _ _ D (does_note _ _ _ _ _ (does_nil _))) as E.
  rewrite app_nil_r in E. exact E.
Qed.

Lemma does_announced : forall k head data k2, plain head -> Z.of_nat (length data) <= 2 ^ 24 ->
  k head = Block k2 -> does (readline k) (announced head data) (echo head) (k2 (Some data)).
Proof.
  intros k head data k2 H L K p r P. exists []. split; [left; reflexivity|].
  unfold readline, announced, text_line. rewrite <- !app_assoc. cbn [app].
  econstructor.
  - apply (next_line_plain p head (10 :: le_bytes 4 (Z.of_nat (length data)) ++ data ++ r) P H).
  - cbv beta. unfold echo. rewrite K. destruct (startswith (lit "emit ") head).
    + econstructor; [apply next_block_announced; exact L|constructor].
    + constructor. econstructor; [apply next_block_announced; exact L|constructor].
Qed.

(** *** Names *)

Lemma name_plain : forall head n, Forall (fun c => c <> 13 /\ c <> 10) head -> good_name n -> plain (head ++ n).
Proof.
  intros head n F (N & C & _). destruct (exists_last N) as (n' & x & ->).
  repeat split.
  - destruct head; [|discriminate]. destruct n'; discriminate.
  - apply Forall_app. split; [exact F|]. revert C. apply Forall_impl. lia.
  - rewrite app_assoc, last_last. apply Forall_app in C. destruct C as (_ & C). inversion C; subst.
    unfold is_space. lia.
Qed.

Lemma good_plain : forall n, good_name n -> plain n.
Proof. intros n H. apply (name_plain [] n); [constructor|exact H]. Qed.

Lemma name_no_blank : forall w n r, good_name n -> In 32 w -> startswith w (n ++ r) = true -> (length n < length w)%nat.
Proof.
  intros w n r (_ & C & _). revert n C. induction w as [|x w IH]; intros n C I S; [destruct I|].
  destruct n as [|c n]; cbn [length]; [lia|]. cbn [app startswith] in S.
  apply andb_prop in S. destruct S as (E & S). inversion C as [|? ? C1 C2]; subst.
  destruct I as [I|I]; [lia|]. specialize (IH n C2 I S). lia.
Qed.

Lemma name_not_head : forall w n, good_name n -> In 32 w -> startswith w n = false.
Proof.
  intros w n (_ & C & _). revert n C. induction w as [|x w IH]; intros n C I; [destruct I|].
  destruct n as [|c n]; [reflexivity|]. cbn [startswith]. inversion C as [|? ? C1 C2]; subst.
  destruct I as [I|I]; [replace (x =? c) with false by lia; reflexivity|].
  rewrite (IH n C2 I). apply andb_false_r.
Qed.

Lemma bytes_eqb_refl : forall l, bytes_eqb l l = true.
Proof. induction l as [|x l IH]; cbn [bytes_eqb]; [reflexivity|]. rewrite Z.eqb_refl, IH. reflexivity. Qed.

Lemma split_lines : forall names, Forall good_name names ->
  split_on LF (concat (map (fun n => n ++ [LF]) names)) = names ++ [[]].
Proof.
  induction names as [|n names IH]; intro G; [reflexivity|].
  inversion G as [|? ? (_ & C & _) G']; subst. cbn [map concat app]. rewrite <- app_assoc. cbn [app].
  rewrite <- (IH G'). generalize (concat (map (fun n => n ++ [LF]) names)). clear IH G. intro r.
  induction n as [|c n IHn]; [reflexivity|].
  inversion C as [|? ? C1 C2]; subst. cbn [app split_on]. replace (c =? LF) with false by (unfold LF; lia).
  rewrite (IHn C2). reflexivity.
Qed.

Lemma str_strip_name : forall n, good_name n -> str_strip n = n.
Proof.
  intros n (N & C & _). unfold str_strip.
  assert (D : forall l, Forall (fun c => 33 <= c <= 126) l -> str_drop l = l).
  { intros [|c l] H; [reflexivity|]. inversion H; subst. cbn [str_drop].
    replace (str_space c) with false; [reflexivity|]. symmetry. unfold str_space, is_space. lia. }
  rewrite (D n C), (D (rev n)); [apply rev_involutive|]. apply Forall_rev. exact C.
Qed.

Lemma stripped_names : forall names, Forall good_name names ->
  stripped_lines (concat (map (fun n => n ++ [LF]) names)) = names.
Proof.
  intros names G. unfold stripped_lines. rewrite split_lines by exact G. rewrite map_app, filter_app.
  cbn [map filter length Nat.eqb negb app str_strip str_drop rev]. rewrite app_nil_r.
  induction G as [|n names H G IH]; [reflexivity|]. cbn [map filter]. rewrite str_strip_name by exact H.
  destruct n; [destruct H; congruence|]. cbn [length Nat.eqb negb]. rewrite IH. reflexivity.
Qed.

Lemma kept_names : forall names, Forall good_name names ->
  kept_lines (concat (map (fun n => n ++ [LF]) names)) = names.
Proof.
  intros names G. unfold kept_lines. rewrite split_lines by exact G. rewrite filter_app.
  cbn [map filter length Nat.eqb negb app str_strip str_drop rev]. rewrite app_nil_r.
  induction G as [|n names H G IH]; [reflexivity|]. cbn [map filter]. rewrite str_strip_name by exact H.
  destruct n; [destruct H; congruence|]. cbn [length Nat.eqb negb]. rewrite IH. reflexivity.
Qed.

(** *** The commands *)

Definition hidden (ns : list note) : Prop := shown ns = [] /\ sent ns = [].

Lemma hidden_echo : forall l, hidden (echo l).
Proof. intro l. unfold echo. destruct (startswith _ _); split; reflexivity. Qed.
Lemma hidden_app : forall a b, hidden a -> hidden b -> hidden (a ++ b).
Proof.
  intros a b (A1 & A2) (B1 & B2). unfold hidden, shown, sent in *. rewrite filter_app, flat_map_app, A1, A2, B1, B2.
  split; reflexivity.
Qed.

Lemma OK_plain : plain (lit "OK").
Proof. split; [discriminate|]. split; [repeat constructor; discriminate|reflexivity]. Qed.

Lemma does_command_lines : forall k ke names result line, good_name line -> Forall good_name names ->
  exists ns, hidden ns /\ does (command_lines k ke result line) (listing names) ns
    (k (result ++ concat (map (fun n => n ++ [LF]) (line :: names)))).
Proof.
  intros k ke names. induction names as [|n names IH]; intros result line (N & C & O & E) G.
  - exists (echo (lit "OK")). split; [apply hidden_echo|].
    rewrite command_lines_eq, E, O. cbn [map concat app]. rewrite app_nil_r. unfold listing. cbn [map concat app].
    pose proof (does_readline (fun line' => command_lines k ke (result ++ line ++ [LF]) line') (lit "OK") OK_plain) as D.
    cbv beta in D. rewrite command_lines_eq in D. exact D.
  - inversion G as [|? ? H G']; subst.
    destruct (IH (result ++ line ++ [LF]) n H G') as (ns & Hn & D).
    exists (echo n ++ ns). split; [apply hidden_app; [apply hidden_echo|exact Hn]|].
    rewrite command_lines_eq, E, O.
    replace (listing (n :: names)) with (text_line n ++ listing names)
      by (unfold listing; cbn [map concat]; rewrite <- app_assoc; reflexivity).
    eapply does_app.
    + apply (does_readline (fun line' => command_lines k ke (result ++ line ++ [LF]) line')). apply good_plain. exact H.
    + replace (result ++ concat (map (fun n => n ++ [LF]) (line :: n :: names))) with
        ((result ++ line ++ [LF]) ++ concat (map (fun n => n ++ [LF]) (n :: names)))
        by (cbn [map concat]; rewrite <- !app_assoc; reflexivity).
      exact D.
Qed.

Lemma does_command : forall message k ke names, Forall good_name names ->
  exists ns, shown ns = [] /\ sent ns = [text_line message] /\
    does (command message k ke) (listing names) ns (k (concat (map (fun n => n ++ [LF]) names))).
Proof.
  intros message k ke names G. unfold command, write_line.
  assert (H : exists ns, hidden ns /\ does (command_first (fun line => command_lines k ke [] line)) (listing names) ns
    (k (concat (map (fun n => n ++ [LF]) names)))).
  { rewrite command_first_eq. destruct names as [|n names].
    - exists (echo (lit "OK")). split; [apply hidden_echo|].
      match goal with |- does (readline ?f) _ _ _ => pose proof (does_readline f (lit "OK") OK_plain) as D end.
      cbv beta in D. change (startswith (lit "emit ") (lit "OK")) with false in D.
      change (startswith (lit "schema ") (lit "OK")) with false in D. cbn [orb] in D.
      rewrite command_lines_eq in D. exact D.
    - inversion G as [|? ? H G']; subst. pose proof H as (N & C & O & E).
      destruct (does_command_lines k ke names [] n H G') as (ns & Hn & D).
      exists (echo n ++ ns). split; [apply hidden_app; [apply hidden_echo|exact Hn]|].
      replace (listing (n :: names)) with (text_line n ++ listing names)
        by (unfold listing; cbn [map concat]; rewrite <- app_assoc; reflexivity).
      eapply does_app; [|exact D].
      match goal with |- does (readline ?f) _ _ _ => pose proof (does_readline f n (good_plain n H)) as D' end.
      cbv beta in D'. rewrite !name_not_head in D' by (try exact H; cbn; tauto). exact D'. }
  destruct H as (ns & (H1 & H2) & D).
  exists (Prints (message ++ CRLF) :: Sends (message ++ CRLF) :: ns).
  split; [exact H1|]. split; [cbn; f_equal; exact H2|].
  apply does_note, does_note. exact D.
Qed.

Lemma head_plain : forall s n, forallb (fun c => negb (c =? 13) && negb (c =? 10)) (lit s) = true ->
  good_name n -> plain (lit s ++ n).
Proof.
  intros s n H G. apply name_plain; [|exact G]. apply Forall_forall. intros c I.
  rewrite forallb_forall in H. specialize (H c I). lia.
Qed.

Lemma does_schema : forall name data k ke (c : bool), good_name name -> Z.of_nat (length data) <= 2 ^ 24 ->
  exists ns, hidden ns /\ does (read_schema name k ke)
    (announced (lit (if c then "cschema " else "schema ") ++ name) data) ns (k (Some data)).
Proof.
  intros name data k ke c G L. rewrite read_schema_eq.
  eexists. split; [apply hidden_echo|]. apply does_announced; [|exact L|].
  - destruct c; apply head_plain; try exact G; reflexivity.
  - destruct c; cbv beta iota.
    + change (startswith (lit "ERR") (lit "cschema " ++ name)) with false. cbv iota.
      rewrite bytes_eqb_refl, orb_true_r. reflexivity.
    + change (startswith (lit "ERR") (lit "schema " ++ name)) with false. cbv iota.
      rewrite bytes_eqb_refl. reflexivity.
Qed.

Lemma does_data : forall name data k ke, good_name name -> Z.of_nat (length data) <= 2 ^ 24 ->
  exists ns, hidden ns /\ does (read_data name k ke) (announced (lit "cdata " ++ name) data) ns (k (Some data)).
Proof.
  intros name data k ke G L. rewrite read_data_eq.
  eexists. split; [apply hidden_echo|]. apply does_announced; [|exact L|].
  - apply head_plain; [reflexivity|exact G].
  - cbv beta. rewrite bytes_eqb_refl. reflexivity.
Qed.

Lemma shown_app : forall a b, shown (a ++ b) = shown a ++ shown b.
Proof. intros. apply filter_app. Qed.
Lemma sent_app : forall a b, sent (a ++ b) = sent a ++ sent b.
Proof. intros. apply flat_map_app. Qed.

Lemma does_elements : forall es k ke, Forall good_element es -> exists ns,
  shown ns = map (fun e => ShowsConfig (e_name e) (e_value e)) es /\
  sent ns = flat_map (fun e => [text_line (lit "conf schema " ++ e_name e); text_line (lit "conf data " ++ e_name e)]) es /\
  does (schema_elements (map e_name es) k ke)
    (concat (map (fun e => announced (lit "cschema " ++ e_name e) (e_schema e)
                           ++ announced (lit "cdata " ++ e_name e) (e_data e)) es)) ns k.
Proof.
  induction es as [|e es IH]; intros k ke G.
  - exists []. split; [reflexivity|]. split; [reflexivity|]. apply does_nil.
  - inversion G as [|? ? (Gn & L1 & L2 & (l1 & T) & (l2 & V)) G']; subst.
    destruct (IH k ke G') as (ns & S1 & S2 & D).
    cbn [map concat schema_elements]. unfold write_line.
    match goal with |- context [read_schema (e_name e) ?f ke] =>
      destruct (does_schema (e_name e) (e_schema e) f ke true Gn L1) as (n1 & (H1 & H1') & D1) end.
    cbv beta in D1.
    assert (T' : archive (e_name e) (Some (e_schema e)) = Ok (e_type e))
      by (unfold archive, bytes_io; cbn [bind]; rewrite T; reflexivity).
    assert (V' : archive_read (e_type e) (Some (e_data e)) = Ok (e_value e))
      by (unfold archive_read, bytes_io; cbn [bind]; rewrite V; reflexivity).
    rewrite T' in D1.
    match type of D1 with does _ _ _ (Note _ (Note _ (read_data (e_name e) ?f ke))) =>
      destruct (does_data (e_name e) (e_data e) f ke Gn L2) as (n2 & (H2 & H2') & D2) end.
    cbv beta in D2. rewrite V' in D2.
    pose proof (does_app _ _ _ _ _ _ _ D2 (does_note _ _ _ _ _ D)) as D3.
    pose proof (does_app _ _ _ _ _ _ _ D1 (does_note _ _ _ _ _ (does_note _ _ _ _ _ D3))) as D4.
    eexists. split; [|split]; [| |rewrite <- app_assoc; apply does_note, does_note; exact D4].
    + match goal with |- shown (?a :: ?b :: ?l) = _ => change (shown l = ShowsConfig (e_name e) (e_value e) :: map (fun e => ShowsConfig (e_name e) (e_value e)) es) end.
      rewrite shown_app, H1. cbn [app].
      match goal with |- shown (?a :: ?b :: ?l) = _ => change (shown (a :: b :: l)) with (shown l) end.
      rewrite shown_app, H2, <- S1. reflexivity.
    + cbn [flat_map]. rewrite <- S2.
      match goal with |- sent (?a :: Sends ?b :: ?l) = _ => change (sent (a :: Sends b :: l)) with (b :: sent l) end.
      rewrite sent_app, H1'. cbn [app].
      match goal with |- _ :: sent (?a :: Sends ?b :: ?l) = _ => change (sent (a :: Sends b :: l)) with (b :: sent l) end.
      rewrite sent_app, H2'. unfold text_line, CRLF, CR, LF. rewrite <- !app_assoc. reflexivity.
Qed.

Definition entry (c : channel) : list Z * ty := (c_name c, c_type c).

Lemma does_channels : forall cs rs k ke, Forall good_channel cs -> exists ns,
  shown ns = map (fun c => AddsChannel (c_name c) (c_type c)) cs /\
  sent ns = map (fun c => text_line (lit "tel schema " ++ c_name c)) cs /\
  does (channels (map c_name cs) rs k ke)
    (concat (map (fun c => announced (lit "schema " ++ c_name c) (c_schema c)) cs)) ns
    (k (rev (map entry cs) ++ rs)).
Proof.
  induction cs as [|c cs IH]; intros rs k ke G.
  - exists []. split; [reflexivity|]. split; [reflexivity|]. apply does_nil.
  - inversion G as [|? ? (Gn & L & l & T) G']; subst.
    destruct (IH (entry c :: rs) k ke G') as (ns & S1 & S2 & D).
    cbn [map concat channels]. unfold write_line.
    match goal with |- context [read_schema (c_name c) ?f ke] =>
      destruct (does_schema (c_name c) (c_schema c) f ke false Gn L) as (n1 & (H1 & H1') & D1) end.
    cbv beta in D1.
    assert (T' : archive (c_name c) (Some (c_schema c)) = Ok (c_type c))
      by (unfold archive, bytes_io; cbn [bind]; rewrite T; reflexivity).
    rewrite T' in D1.
    pose proof (does_app _ _ _ _ _ _ _ D1 (does_note _ _ _ _ _ (does_note _ _ _ _ _ D))) as D4.
    cbn [rev]. rewrite <- app_assoc. cbn [app].
    eexists. split; [|split]; [| |apply does_note, does_note; exact D4].
    + match goal with |- shown (?a :: ?b :: ?l) = _ => change (shown (a :: b :: l)) with (shown l) end.
      rewrite shown_app, H1, <- S1. reflexivity.
    + rewrite <- S2.
      match goal with |- sent (?a :: Sends ?b :: ?l) = _ => change (sent (a :: Sends b :: l)) with (b :: sent l) end.
      rewrite sent_app, H1'. unfold text_line, CRLF, CR, LF. rewrite <- !app_assoc. reflexivity.
Qed.

(** *** Telemetry *)


Lemma ascii_name : forall n, good_name n -> has_nonascii (lit "emit " ++ n) = false.
Proof.
  intros n (_ & C & _). unfold has_nonascii. rewrite existsb_app. change (existsb (fun c => c >? 127) (lit "emit ")) with false.
  cbn [orb]. induction C as [|c l H C IH]; [reflexivity|]. cbn [existsb]. rewrite IH. lia.
Qed.

Lemma split_emit : forall n, good_name n -> nth 1 (split_on 32 (lit "emit " ++ n)) [] = n.
Proof.
  intros n (_ & C & _). cbn [lit app]. cbn.
  assert (H : split_on 32 n = [n]).
  { induction C as [|c l H C IH]; [reflexivity|]. cbn [split_on]. replace (c =? 32) with false by lia. rewrite IH. reflexivity. }
  rewrite H. reflexivity.
Qed.

Lemma lookup_find : forall rs name, lookup rs name = option_map snd (find (fun c => bytes_eqb (fst c) name) rs).
Proof.
  induction rs as [|[n t] rs IH]; intro name; [reflexivity|]. cbn [lookup find fst].
  destruct (bytes_eqb n name); [reflexivity|apply IH].
Qed.

Lemma does_item : forall rs i, good_item i -> does (run rs) (item_bytes i) (item_notes rs i) (run rs).
Proof.
  intros rs [l|name data]; cbn [good_item item_bytes item_notes].
  - intros (N & F & S & E). rewrite run_eq at 1.
    match goal with |- does (readline ?f) _ _ _ => pose proof (does_readline f l) as D end.
    cbv beta zeta in D. unfold echo in D. rewrite E in D.
    assert (A : has_nonascii l = false).
    { clear - F. induction F as [|c l H F IH]; [reflexivity|]. cbn. unfold has_nonascii in IH. rewrite IH. lia. }
    rewrite A in D. apply D. split; [exact N|]. split; [|exact S]. revert F. apply Forall_impl. tauto.
  - intros (G & L). rewrite run_eq at 1.
    match goal with |- does (readline ?f) _ _ _ => set (f0 := f) end.
    pose proof (fun k2 => does_announced f0 (lit "emit " ++ name) data k2) as D. unfold f0 in D. cbv beta zeta in D.
    rewrite ascii_name, split_emit in D by exact G.
    change (startswith (lit "emit ") (lit "emit " ++ name)) with true in D. cbv iota in D.
    specialize (D _ (head_plain "emit " name eq_refl G) L eq_refl). cbv beta in D.
    change (echo (lit "emit " ++ name)) with (@nil note) in D. cbn [item_shown].
    destruct data as [|b data]; [exact D|]. rewrite lookup_find in D.
    destruct (find (fun c => bytes_eqb (fst c) name) rs) as [[n t]|]; cbn [option_map snd] in D; [|exact D].
    unfold archive_read, bytes_io in D. cbn [bind] in D.
    destruct (read t (b :: data)) as [[v r]|e]; cbn [bind fst] in D.
    + pose proof (does_app _ _ _ _ _ _ _ D (does_note _ _ _ _ _ (does_nil _))) as D'. rewrite app_nil_r in D'. exact D'.
    + pose proof (does_app _ _ _ _ _ _ _ D (does_note _ _ _ _ _ (does_nil _))) as D'. rewrite app_nil_r in D'. exact D'.
Qed.

Lemma does_items : forall rs is, Forall good_item is ->
  does (run rs) (concat (map item_bytes is)) (flat_map (item_notes rs) is) (run rs).
Proof.
  intros rs is G. induction G as [|i is H G IH]; [apply does_nil|]. cbn [map concat flat_map].
  eapply does_app; [apply does_item; exact H|exact IH].
Qed.

(** *** All of it *)

Lemma does_session : forall es cs is, Forall good_element es -> Forall good_channel cs -> Forall good_item is ->
  exists ns, shown ns = expected_shown es cs is /\ sent ns = expected_sent es cs /\
    does session (transcript es cs is) ns (run (rev (map entry cs))).
Proof.
  intros es cs is G1 G2 G3. unfold session, update_config, schema_update_config, update_telemetry.
  assert (N1 : Forall good_name (map e_name es)).
  { clear - G1. induction G1 as [|e es (H & _) G IH]; constructor; assumption. }
  assert (N2 : Forall good_name (map c_name cs)).
  { clear - G2. induction G2 as [|e es (H & _) G IH]; constructor; assumption. }
  match goal with |- context [Note (Updating true) (command _ ?f ?g)] =>
    destruct (does_command (lit "conf list") f g _ N1) as (n1 & S1 & S1' & D1) end.
  cbv beta in D1. rewrite stripped_names in D1 by exact N1.
  match type of D1 with context [schema_elements (map e_name es) ?f ?g] =>
    destruct (does_elements es f g G1) as (n2 & S2 & S2' & D2) end.
  match type of D2 with context [Note (Updating false) (command _ ?f ?g)] =>
    destruct (does_command (lit "tel list") f g _ N2) as (n3 & S3 & S3' & D3) end.
  cbv beta in D3. rewrite kept_names in D3 by exact N2.
  match type of D3 with context [channels (map c_name cs) [] ?f ?g] =>
    destruct (does_channels cs [] f g G2) as (n4 & S4 & S4' & D4) end.
  rewrite app_nil_r in D4.
  pose proof (does_items (rev (map entry cs)) is G3) as D5.
  pose proof (does_app _ _ _ _ _ _ _ D3 (does_app _ _ _ _ _ _ _ D4 D5)) as D6.
  pose proof (does_app _ _ _ _ _ _ _ D1 (does_app _ _ _ _ _ _ _ D2 (does_note _ _ _ _ _ D6))) as D7.
  exists (Updating true :: n1 ++ n2 ++ Updating false :: n3 ++ n4 ++ flat_map (item_notes (rev (map entry cs))) is).
  split; [|split].
  - change (shown (n1 ++ n2 ++ Updating false :: n3 ++ n4 ++ flat_map (item_notes (rev (map entry cs))) is) = expected_shown es cs is).
    rewrite shown_app, S1, shown_app, S2. cbn [app]. unfold expected_shown. f_equal.
    change (shown (n3 ++ n4 ++ flat_map (item_notes (rev (map entry cs))) is) =
      map (fun c => AddsChannel (c_name c) (c_type c)) cs ++ flat_map (item_shown (rev (map entry cs))) is).
    rewrite shown_app, S3, shown_app, S4. cbn [app]. f_equal.
    clear. induction is as [|i is IH]; [reflexivity|]. cbn [flat_map]. rewrite shown_app, IH. f_equal.
    destruct i as [l|name data]; [reflexivity|]. cbn [item_notes item_shown]. destruct data; [reflexivity|].
    destruct (find _ _) as [[? t]|]; [|reflexivity]. destruct (read t _) as [[? ?]|]; reflexivity.
  - change (sent (n1 ++ n2 ++ Updating false :: n3 ++ n4 ++ flat_map (item_notes (rev (map entry cs))) is) = expected_sent es cs).
    rewrite sent_app, S1', sent_app, S2'. unfold expected_sent. do 2 f_equal.
    change (sent (n3 ++ n4 ++ flat_map (item_notes (rev (map entry cs))) is) =
      [text_line (lit "tel list")] ++ map (fun c => text_line (lit "tel schema " ++ c_name c)) cs).
    rewrite sent_app, S3', sent_app, S4'.
    replace (sent (flat_map (item_notes (rev (map entry cs))) is)) with (@nil (list Z)); [rewrite app_nil_r; reflexivity|].
    clear. induction is as [|i is IH]; [reflexivity|]. cbn [flat_map]. rewrite sent_app, <- IH.
    destruct i as [l|name data]; [reflexivity|]. cbn [item_notes item_shown]. destruct data; [reflexivity|].
    destruct (find _ _) as [[? t]|]; [|reflexivity]. destruct (read t _) as [[? ?]|]; reflexivity.
  - apply does_note. unfold transcript. exact D7.
Qed.

(** A task that does nothing with the end of a line. *)
Definition stuck (t : task) : Prop :=
  (forall k, t <> Resync k) /\ forall p more t' r, blank p -> reads t p more t' r -> more = [] /\ t' = t.

Lemma stuck_line : forall k, stuck (Line k).
Proof.
  intro k. split; [discriminate|]. intros p more t' r B H. inversion H; subst.
  - auto.
  - exfalso. destruct B as [->| ->]; discriminate.
Qed.
Lemma stuck_run : forall rs, stuck (run rs).
Proof. intro rs. rewrite run_eq. apply stuck_line. Qed.

(** The notes of a schedule are a beginning of those of the whole stream. *)
Lemma notes_prefix : forall t stream ns t0 es s later, does t stream ns t0 -> stuck t0 -> delivers es s ->
  s ++ later = stream -> prefix (m_notes (runs t es)) ns.
Proof.
  intros t stream ns t0 es s later D (NR & ST) V E.
  destruct (D [] [] (or_introl eq_refl)) as (p' & B & R). cbn [app] in R. rewrite !app_nil_r in R. rewrite <- E in R.
  destruct (C66_schedule t es s V) as (ns1 & t1 & r1 & more & R1 & N & Z).
  pose proof (reads_app _ _ _ _ _ later R1) as R2.
  destruct (reads_det _ _ _ _ _ R2 _ _ _ R) as [(a & A & ->)|(a & A & X)].
  - destruct more as [|x more]; [rewrite app_nil_r in N; rewrite N; exists a; reflexivity|].
    destruct Z as (k & ->); [discriminate|]. inversion A as [? ? E1 E2 E3 E4| | |]; subst.
    exfalso. apply (NR k). reflexivity.
  - destruct (ST _ _ _ _ B A) as (-> & ->). rewrite app_nil_r in X. subst ns1.
    destruct more as [|x more]; [rewrite app_nil_r in N; rewrite N; exists []; rewrite app_nil_r; reflexivity|].
    destruct Z as (k & K); [discriminate|]. exfalso. apply (NR k). exact K.
Qed.

Lemma delivers_quiet : forall es s n, delivers es s -> delivers (es ++ quiet n) s.
Proof.
  intros es s n D. assert (Q : delivers (quiet n) []).
  { induction n as [|n IH]; cbn [quiet]; [constructor|]. apply (d_msg _ [] _ []); [|constructor; exact IH].
    exists []. split; [reflexivity|cbn; lia]. }
  induction D; cbn [app].
  - exact Q.
  - constructor. exact IHD.
  - constructor; assumption.
  - apply d_other; assumption.
Qed.

Lemma notes_all : forall t stream ns t0 es, does t stream ns t0 -> stuck t0 -> delivers es stream ->
  exists n, forall m, (n <= m)%nat -> m_notes (runs t (es ++ quiet m)) = ns.
Proof.
  intros t stream ns t0 es D ST V.
  destruct (D [] [] (or_introl eq_refl)) as (p' & B & R). cbn [app] in R. rewrite !app_nil_r in R.
  destruct (C66_progress _ _ _ _ _ _ V R) as (n & H). exists n. intros m L.
  destruct (H m L) as (a & A).
  destruct (notes_prefix t stream ns t0 (es ++ quiet m) stream [] D ST (delivers_quiet _ _ _ V) (app_nil_r _)) as (b & Bq).
  rewrite Bq in A. rewrite <- app_assoc in A. rewrite <- (app_nil_r (m_notes (runs t (es ++ quiet m)))) in A at 1.
  apply app_inv_head in A. destruct b; [|discriminate]. rewrite app_nil_r in Bq. symmetry. exact Bq.
Qed.

(** Once it is running, tview shows the lines and values of the controller, each once, in
    order and with its value, however the stream is cut into messages and whenever the task
    gets to run; nothing else happens, and nothing is missing once the controller has been
    asked often enough. *)
Theorem C66_telemetry : forall rs is, Forall good_item is ->
  (forall es s later, delivers es s -> s ++ later = concat (map item_bytes is) ->
     prefix (m_notes (runs (run rs) es)) (flat_map (item_notes rs) is)) /\
  (forall es, delivers es (concat (map item_bytes is)) ->
     exists n, forall m, (n <= m)%nat -> m_notes (runs (run rs) (es ++ quiet m)) = flat_map (item_notes rs) is).
Proof.
  intros rs is G. pose proof (does_items rs is G) as D. split.
  - intros es s later V E. eapply notes_prefix; try eassumption. apply stuck_run.
  - intros es V. eapply notes_all; try eassumption. apply stuck_run.
Qed.

Lemma prefix_shown : forall a b, prefix a b -> prefix (shown a) (shown b).
Proof. intros a b (m & ->). exists (shown m). apply shown_app. Qed.
Lemma prefix_sent : forall a b, prefix a b -> prefix (sent a) (sent b).
Proof. intros a b (m & ->). exists (sent m). apply sent_app. Qed.

(** From the start: tview asks for every element of the configuration and every channel of
    telemetry, shows each with the value the controller holds, and then every value emitted. *)
Theorem C66_session : forall elements chans is,
  Forall good_element elements -> Forall good_channel chans -> Forall good_item is ->
  (forall es s later, delivers es s -> s ++ later = transcript elements chans is ->
     prefix (shown (m_notes (runs session es))) (expected_shown elements chans is) /\
     prefix (sent (m_notes (runs session es))) (expected_sent elements chans)) /\
  (forall es, delivers es (transcript elements chans is) ->
     exists n, forall m, (n <= m)%nat -> let ns := m_notes (runs session (es ++ quiet m)) in
       shown ns = expected_shown elements chans is /\ sent ns = expected_sent elements chans).
Proof.
  intros elements chans is G1 G2 G3. destruct (does_session _ _ _ G1 G2 G3) as (ns & S1 & S2 & D).
  rewrite <- S1, <- S2. split.
  - intros es s later V E. pose proof (notes_prefix _ _ _ _ _ _ _ D (stuck_run _) V E) as P.
    split; [apply prefix_shown|apply prefix_sent]; exact P.
  - intros es V. destruct (notes_all _ _ _ _ _ D (stuck_run _) V) as (n & H). exists n. intros m L. cbv zeta. rewrite (H m L). auto.
Qed.

(** *** A case *)

Definition ex_elements : list element :=
  [{| e_name := lit "id"; e_schema := [4; 1]; e_data := [5]; e_type := TUInt 1; e_value := VInt 5 |};
   {| e_name := lit "motor"; e_schema := [18; 4; 2]; e_data := [2; 1; 0; 1; 2]; e_type := TArray (TUInt 2);
      e_value := VList [VInt 1; VInt 513] |}].
Definition ex_channels : list channel :=
  [{| c_name := lit "servo"; c_schema := [4; 2]; c_type := TUInt 2 |};
   {| c_name := lit "git"; c_schema := [2]; c_type := TBool |}].
Definition ex_items : list item :=
  [Emits (lit "servo") [13; 10]; Says (lit "OK"); Emits (lit "other") [1]; Emits (lit "git") [1];
   Emits (lit "git") []; Emits (lit "servo") [7]].

Lemma name_check : forall n, (negb (length n =? 0)%nat && forallb (fun c => (33 <=? c) && (c <=? 126)) n &&
  negb (startswith (lit "OK") n) && negb (startswith (lit "ERR") n))%bool = true -> good_name n.
Proof.
  intros n H. apply andb_prop in H. destruct H as (H & H4). apply andb_prop in H. destruct H as (H & H3).
  apply andb_prop in H. destruct H as (H1 & H2).
  split; [intros ->; discriminate|]. split.
  - apply Forall_forall. intros c I. rewrite forallb_forall in H2. specialize (H2 c I). lia.
  - split; [destruct (startswith (lit "OK") n)|destruct (startswith (lit "ERR") n)]; try discriminate; reflexivity.
Qed.

Example C66_ex_hypotheses : Forall good_element ex_elements /\ Forall good_channel ex_channels /\ Forall good_item ex_items.
Proof.
  split; [|split].
  - repeat constructor; try (apply name_check; reflexivity); try (cbn; lia); try (eexists; reflexivity); discriminate.
  - repeat constructor; try (apply name_check; reflexivity); try (cbn; lia); try (eexists; reflexivity); discriminate.
  - repeat constructor; try (apply name_check; reflexivity); try (cbn; lia); try discriminate; try reflexivity.
Qed.

(** The stream in messages of [n] bytes, the task running after each. *)
Fixpoint cut (fuel n : nat) (s : list Z) : list event :=
  match fuel, s with
  | S fuel, _ :: _ =>
      let piece := firstn n s in
      Msg (0x41 :: 1 :: Z.of_nat (length piece) :: piece ++ [0x50]) :: Run :: Run :: cut fuel n (skipn n s)
  | _, _ => []
  end.

Lemma cut_delivers : forall n, (1 <= n <= 61)%nat -> forall fuel s, (length s <= fuel)%nat -> delivers (cut fuel n s) s.
Proof.
  intros n N. induction fuel as [|fuel IH]; intros s L.
  - destruct s; [constructor|cbn in L; lia].
  - destruct s as [|b s]; [constructor|]. set (w := b :: s) in *.
    assert (E : cut (S fuel) n w = Msg (0x41 :: 1 :: Z.of_nat (length (firstn n w)) :: firstn n w ++ [0x50])
      :: Run :: Run :: cut fuel n (skipn n w)) by reflexivity.
    rewrite E. rewrite <- (firstn_skipn n w) at 4. constructor.
    + exists [0x50]. split; [reflexivity|]. rewrite firstn_length. lia.
    + constructor. constructor. apply IH. rewrite skipn_length. subst w. cbn [length] in *. lia.
Qed.

Definition ex_stream : list Z := transcript ex_elements ex_channels ex_items.
Example C66_ex : let ns := m_notes (runs session (cut (length ex_stream) 7 ex_stream ++ quiet 60)) in
  shown ns = [ShowsConfig (lit "id") (VInt 5); ShowsConfig (lit "motor") (VList [VInt 1; VInt 513]);
              AddsChannel (lit "servo") (TUInt 2); AddsChannel (lit "git") TBool;
              ShowsData (lit "servo") (VInt 2573); ShowsData (lit "git") (VBool true); Complains] /\
  shown ns = expected_shown ex_elements ex_channels ex_items /\ sent ns = expected_sent ex_elements ex_channels.
Proof. vm_compute. split; [reflexivity|]. split; reflexivity. Qed.

(** A line that is not text makes it drop what has arrived; it goes on after two empty answers. *)
Example C66_ex_resync :
  let t := run [(lit "git", TBool)] in
  let es := cut 60 5 (text_line [0xe9] ++ item_bytes (Emits (lit "git") [1])) in
  match m_task (runs t es) with Resync _ => True | _ => False end /\
  shown (m_notes (runs t (es ++ quiet 3 ++ cut 60 5 (item_bytes (Emits (lit "git") [0])) ++ quiet 9))) =
    [ShowsData (lit "git") (VBool false)].
Proof. cbv zeta. split; [vm_compute; exact I|vm_compute; reflexivity]. Qed.

(** ** What fails *)

(** A value emitted while a command is being answered is taken for a part of the answer, its
    bytes included: the name asked for next is not one the controller gave. *)
Theorem C66_emission_in_answer_refuted : exists es s,
  s = item_bytes (Emits (lit "git") [1]) ++ listing [lit "id"] /\ delivers es s /\
  sent (m_notes (runs session es)) = [text_line (lit "conf list");
                                      text_line (lit "conf schema " ++ [1; 0; 0; 0; 1] ++ lit "id")].
Proof.
  exists (cut 60 7 (item_bytes (Emits (lit "git") [1]) ++ listing [lit "id"]) ++ quiet 20).
  eexists. split; [reflexivity|]. split.
  - apply delivers_quiet. apply cut_delivers; [lia|vm_compute; lia].
  - vm_compute. reflexivity.
Qed.

(** [reads] by computation. *)
Fixpoint follow (n : nat) (t : task) (s : list Z) : list note * task * list Z :=
  match n with
  | O => ([], t, s)
  | S n =>
      match t with
      | Note m k => let '(a, b, c) := follow n k s in (m :: a, b, c)
      | Line k => match next_line [] s with Some (l, s') => follow n (k l) s' | None => ([], t, s) end
      | Block k => match next_block s with Some (x, s') => follow n (k x) s' | None => ([], t, s) end
      | _ => ([], t, s)
      end
  end.

Lemma follow_reads : forall n t s, let '(a, b, c) := follow n t s in reads t s a b c.
Proof.
  induction n as [|n IH]; intros t s; cbn [follow]; [constructor|].
  destruct t as [k|k|k|m k|e]; try constructor.
  - destruct (next_line [] s) as [[l s']|] eqn:E; [|constructor].
    specialize (IH (k l) s'). destruct (follow n (k l) s') as [[a b] c]. econstructor; eassumption.
  - destruct (next_block s) as [[x s']|] eqn:E; [|constructor].
    specialize (IH (k x) s'). destruct (follow n (k x) s') as [[a b] c]. econstructor; eassumption.
  - specialize (IH k s). destruct (follow n k s) as [[a b] c]. constructor. exact IH.
Qed.

Lemma waits_forever : forall t s ns k r, reads t s ns (Line k) r -> next_line [] r = None ->
  forall es, delivers es s -> prefix (m_notes (runs t es)) ns.
Proof.
  intros t s ns k r R X es V. destruct (C66_schedule t es s V) as (ns1 & t1 & r1 & more & R1 & N & Z).
  destruct (reads_det _ _ _ _ _ R1 _ _ _ R) as [(a & A & ->)|(a & A & E)].
  - destruct more as [|x more]; [rewrite app_nil_r in N; rewrite N; exists a; reflexivity|].
    destruct Z as (k' & ->); [discriminate|]. inversion A.
  - inversion A; subst; [|congruence].
    destruct more as [|x more]; [rewrite !app_nil_r in N; rewrite N; exists []; rewrite app_nil_r; reflexivity|].
    destruct Z as (k' & K); [discriminate|]. discriminate.
Qed.

(** An error in answer to "conf data" is not noticed: under no schedule does the update of
    the configuration end, and until it does, what the user does to the configuration is ignored. *)
Theorem C66_error_refuted : exists s,
  s = listing [lit "id"] ++ announced (lit "cschema id") [4; 1] ++ text_line (lit "ERR unknown group") /\
  (forall es, delivers es s -> ~ In (Updating false) (m_notes (runs session es))) /\
  exists es, delivers es s /\ In (Updating true) (m_notes (runs session es)).
Proof.
  eexists. split; [reflexivity|].
  set (s := listing [lit "id"] ++ announced (lit "cschema id") [4; 1] ++ text_line (lit "ERR unknown group")).
  split.
  - intros es V I. pose proof (follow_reads 60 session s) as R.
    destruct (follow 60 session s) as [[ns t'] r] eqn:F.
    assert (A : existsb (fun n => match n with Updating false => true | _ => false end) (fst (fst (follow 60 session s))) = false)
      by (vm_compute; reflexivity).
    assert (B : match snd (fst (follow 60 session s)) with Line _ => true | _ => false end = true)
      by (vm_compute; reflexivity).
    assert (C : next_line [] (snd (follow 60 session s)) = None) by (vm_compute; reflexivity).
    rewrite F in A, B, C. cbn [fst snd] in A, B, C. destruct t'; try discriminate.
    destruct (waits_forever _ _ _ _ _ R C es V) as (more & M).
    assert (H : existsb (fun n => match n with Updating false => true | _ => false end) ns = true).
    { apply existsb_exists. exists (Updating false). split; [|reflexivity]. rewrite M. apply in_or_app. auto. }
    congruence.
  - exists (cut 200 7 s). split; [apply cut_delivers; [lia|vm_compute; lia]|]. vm_compute. auto.
Qed.

Print Assumptions C66_schedule.
Print Assumptions C66_progress.
Print Assumptions C66_resync.
Print Assumptions C66_telemetry.
Print Assumptions C66_session.
Print Assumptions C66_emission_in_answer_refuted.
Print Assumptions C66_error_refuted.
