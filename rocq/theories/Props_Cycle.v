(** C27: Fdcanusb.cycle pairs each command with its own reply, for every set of
    concurrent calls and every schedule.  C41: Fdcanusb.read beside another
    reader. *)
From Coq Require Import Ascii String ZArith List Bool Lia ZifyBool ZifyNat.
From Verif Require Import PyBase PyBytes Zbits Mux_Model Protocol_Spec Ctrl_Model Async Async_Proofs
  Serial Async_Inv Fdcanusb_Model Props_Fdcanusb.
Import ListNotations.
Open Scope Z_scope.

Notation F := (prog (list Z) freq (list Z)).

(** ** Specification of the device

    One exchange: the line written to the device, the text it answers and the
    message in that text. *)
Record exchange := Exchange {
  x_line : list Z;
  x_out : list Z;
  x_reply : option message
}.

(** The line "rcv <id> <data> <flags>" that carries [m]. *)
Definition rcv_text (line : list Z) (m : message) : Prop :=
  exists id w rest, line = lit "rcv " ++ id ++ [32] ++ w ++ [32] ++ rest /\
    hex_number id (m_arbitration_id m) /\ hex_bytes w (m_data m).

(** The device answers in order: a complete line beginning with "OK", then, if
    the frame asks for a reply, a complete line with that reply.  Empty lines
    can come anywhere.  [wants]: which lines ask for a reply. *)
Definition answers_in_order (wants : list Z -> bool) (x : exchange) : Prop :=
  unfinished [] (x_out x) = [] /\
  exists ok, startswith (lit "OK") ok = true /\
  match x_reply x with
  | None => wants (x_line x) = false /\ lines [] (x_out x) = [ok]
  | Some m => wants (x_line x) = true /\
      exists line, lines [] (x_out x) = [ok; line] /\ rcv_text line m
  end.

(** [talk u xs aw u']: starting with [u] sent by the device and not read yet,
    the awaits [aw] were completed: each write is the next exchange of [xs],
    and adds its text to what can be read; each read takes some part (maybe
    nothing) of what can be read.  A cancelled read takes nothing.  [u'] is
    then still unread. *)
Inductive talk : list Z -> list exchange -> list (freq * res (list Z)) -> list Z -> Prop :=
| tk_nil u : talk u [] [] u
| tk_write x u xs aw d u' : talk (u ++ x_out x) xs aw u' ->
    talk u (x :: xs) ((SerialWrite (x_line x), Ok d) :: aw) u'
| tk_read d u xs aw u' : talk u xs aw u' ->
    talk (d ++ u) xs ((SerialRead, Ok d) :: aw) u'
| tk_cancelled u xs aw u' : talk u xs aw u' ->
    talk u xs ((SerialRead, Raise CancelledError) :: aw) u'.

(** No await was cancelled. *)
Definition undisturbed {T} (tr : list (T * res (list Z))) : Prop :=
  Forall (fun x => exists d, snd x = Ok d) tr.

Section Cycle.
Context {V : Type}.
Variable disable_brs : bool.
Notation call := (list (@can_command V)).

(** The result of a cycle call with commands [cs] when [xs] are the exchanges
    made for it: exchange i is for command i, result i is the parse of its
    reply, None where there is none.  A parse that raises ends the call. *)
Inductive answered : call -> list exchange -> res (list (option V)) -> Prop :=
| an_nil : answered [] [] (Ok [])
| an_none c cs x xs r : x_line x = send_line disable_brs (cc c) -> x_reply x = None ->
    answered cs xs r ->
    answered (c :: cs) (x :: xs) (bind r (fun l => Ok (None :: l)))
| an_some c cs x xs r m v : x_line x = send_line disable_brs (cc c) -> x_reply x = Some m ->
    cc_parse c m = Ok v -> answered cs xs r ->
    answered (c :: cs) (x :: xs) (bind r (fun l => Ok (Some v :: l)))
| an_error c cs x m e : x_line x = send_line disable_brs (cc c) -> x_reply x = Some m ->
    cc_parse c m = Raise e -> answered (c :: cs) [x] (Raise e).

(** ** Lines *)
Lemma lines_app a : forall acc b,
  lines acc (a ++ b) = lines acc a ++ lines (unfinished acc a) b.
Proof.
  induction a as [|x a IH]; intros acc b; [reflexivity|]. cbn.
  destruct (newline x); [|apply IH]. destruct acc; [apply IH|]. cbn. now rewrite IH.
Qed.

Lemma unfinished_app a : forall acc b,
  unfinished acc (a ++ b) = unfinished (unfinished acc a) b.
Proof.
  induction a as [|x a IH]; intros acc b; [reflexivity|]. cbn.
  destruct (newline x); apply IH.
Qed.

Lemma next_line_unfinished l : forall acc x r, next_line acc l = Some (x, r) ->
  unfinished acc l = unfinished [] r.
Proof.
  induction l as [|b l IH]; intros acc x r H; [discriminate|]. cbn in *.
  destruct (newline b); [|eauto]. destruct acc; [eauto|]. now injection H as _ <-.
Qed.

Definition quiet (l : list Z) : Prop := lines [] l = [] /\ unfinished [] l = [].

Lemma next_of_lines l x ls : lines [] l = x :: ls ->
  exists r, next_line [] l = Some (x, r) /\ lines [] r = ls /\ unfinished [] r = unfinished [] l.
Proof.
  rewrite lines_next. destruct (next_line [] l) as [[y r]|] eqn:E; [|discriminate].
  intros [= <- <-]. exists r. repeat split. symmetry. eapply next_line_unfinished; eauto.
Qed.

(** ** Readers against the device *)
Lemma talk_app u xs a1 a2 u' : talk u xs (a1 ++ a2) u' ->
  exists xs1 xs2 u1, xs = xs1 ++ xs2 /\ talk u xs1 a1 u1 /\ talk u1 xs2 a2 u'.
Proof.
  revert u xs. induction a1 as [|a a1 IH]; cbn; intros u xs H.
  - exists [], xs, u. repeat split; auto. constructor.
  - inversion H; subst; match goal with T : talk _ _ (a1 ++ a2) _ |- _ => apply IH in T;
      destruct T as (xs1 & xs2 & u1 & -> & T1 & T2) end.
    + exists (x :: xs1), xs2, u1. repeat split; auto. now constructor.
    + exists xs1, xs2, u1. repeat split; auto. now constructor.
    + exists xs1, xs2, u1. repeat split; auto. now constructor.
Qed.

Lemma talk_reads u xs aw u' : talk u xs aw u' -> undisturbed aw ->
  Forall (fun q => q = SerialRead) (map fst aw) ->
  exists ds, xs = [] /\ map snd aw = map Ok ds /\ u = concat ds ++ u' /\
    map fst aw = repeat SerialRead (List.length ds).
Proof.
  induction 1 as [u|x u xs aw d u' T IH|d u xs aw u' T IH|u xs aw u' T IH]; cbn; intros U Hq.
  - exists []. auto.
  - inversion Hq. discriminate.
  - inversion Hq; subst. inversion U; subst. destruct IH as (ds & -> & E & -> & E2); auto.
    exists (d :: ds). cbn. rewrite E, E2, app_assoc. auto.
  - inversion U as [|? ? [d X]]. discriminate.
Qed.

Definition monotone {A} (f : reading A) : Prop := forall l a r m,
  f l = Some (a, r) -> f (l ++ m) = Some (a, r ++ m).

Lemma finish_inj A (r r' : res A) (s s' : list Z) (l l' : list (res (list Z))) :
  @finish (list Z) freq (list Z) A r s l = finish r' s' l' -> r = r' /\ s = s' /\ l = l'.
Proof. destruct r, r'; cbn; try discriminate; intros [= -> -> ->]; auto. Qed.

Lemma reader_ended A (p : F A) f buf u xs aw u' r s' :
  asks (fun q => q = SerialRead) p -> reads_as p f -> monotone f ->
  ended p buf aw r s' -> talk u xs aw u' -> undisturbed aw ->
  xs = [] /\ f (buf ++ u) = Some (r, s' ++ u').
Proof.
  intros Ha Hp Hf R T U. assert (Forall (fun q => q = SerialRead) (map fst aw)) as Hq.
  { destruct R as [n R]. eapply asks_requests; eauto. }
  destruct (talk_reads _ _ _ _ T U Hq) as (ds & -> & E & -> & E2). split; [reflexivity|].
  unfold ended in R. rewrite E in R. specialize (Hp buf ds).
  destruct (f (buf ++ concat ds)) as [[r' rest]|] eqn:Ef.
  - destruct Hp as (c' & b' & n & R' & Er).
    destruct (runs_det _ _ _ _ _ _ _ _ R R') as [Eo _].
    apply finish_inj in Eo. destruct Eo as (-> & -> & Ec).
    destruct c'; [|discriminate]. cbn in Er. rewrite app_nil_r in Er. subst rest.
    rewrite app_assoc. now apply Hf.
  - exfalso. destruct Hp as (b' & R'). destruct (runs_det _ _ _ _ _ _ _ _ R R') as [Eo _].
    destruct r; discriminate.
Qed.

Lemma reader_waits A (p : F A) f buf u xs aw u' s' q :
  asks (fun q => q = SerialRead) p -> reads_as p f -> monotone f ->
  waits p buf aw s' q -> talk u xs aw u' -> undisturbed aw ->
  xs = [] /\ q = SerialRead /\ (u' = [] -> f (buf ++ u) = None).
Proof.
  intros Ha Hp Hf R T U. assert (Forall (fun q => q = SerialRead) (map fst aw ++ [q])) as Hq.
  { destruct R as [n R]. eapply asks_requests; eauto. }
  apply Forall_app in Hq. destruct Hq as [Hq Hq2]. inversion Hq2; subst.
  destruct (talk_reads _ _ _ _ T U Hq) as (ds & -> & E & -> & E2).
  split; [reflexivity|]. split; [reflexivity|]. intros ->. rewrite app_nil_r.
  unfold waits in R. rewrite E in R. specialize (Hp buf ds).
  destruct (f (buf ++ concat ds)) as [[r' rest]|] eqn:Ef; [|reflexivity].
  destruct Hp as (c' & b' & n & R' & Er).
  destruct (runs_det _ _ _ _ _ _ _ _ R R') as [Eo _]. destruct r'; discriminate.
Qed.

Lemma readline_asks : asks (fun q => q = SerialRead) can_readline.
Proof.
  unfold can_readline. constructor; [|intros; constructor]. intros _. constructor. intros s.
  destruct (find_newline s) as [i|].
  - constructor. destruct (0 <? i)%nat; constructor.
  - cbn. constructor; [reflexivity|]. intros [d|e]; cbn; [constructor|]; constructor.
Qed.

Definition f_line : reading (list Z) :=
  fun l => match next_line [] l with Some (x, r) => Some (Ok x, r) | None => None end.

Lemma f_line_mono : monotone f_line.
Proof.
  intros l a r m. unfold f_line. destruct (next_line [] l) as [[x r']|] eqn:E; [|discriminate].
  intros [= <- <-]. now rewrite (next_line_app _ _ _ _ _ E).
Qed.

Lemma line_ended buf u xs aw u' r s' x ls : lines [] (buf ++ u) = x :: ls ->
  ended can_readline buf aw r s' -> talk u xs aw u' -> undisturbed aw ->
  xs = [] /\ r = Ok x /\ lines [] (s' ++ u') = ls /\
  unfinished [] (s' ++ u') = unfinished [] (buf ++ u).
Proof.
  intros El R T U.
  destruct (reader_ended _ _ _ _ _ _ _ _ _ _ readline_asks C26_readline f_line_mono R T U) as [-> H].
  split; [reflexivity|]. destruct (next_of_lines _ _ _ El) as (r' & En & E1 & E2).
  rewrite En in H. injection H as <- <-. auto.
Qed.

Lemma line_waits buf u xs aw u' s' q x ls : lines [] (buf ++ u) = x :: ls ->
  waits can_readline buf aw s' q -> talk u xs aw u' -> undisturbed aw ->
  xs = [] /\ q = SerialRead /\ u' <> [].
Proof.
  intros El R T U.
  destruct (reader_waits _ _ _ _ _ _ _ _ _ _ readline_asks C26_readline f_line_mono R T U)
    as (-> & -> & H).
  repeat split. intros ->. specialize (H eq_refl).
  destruct (next_of_lines _ _ _ El) as (r' & En & _). rewrite En in H. discriminate.
Qed.

(** ** One command *)
Variable wants : list Z -> bool.

Lemma undisturbed_app T (a b : list (T * res (list Z))) :
  undisturbed (a ++ b) -> undisturbed a /\ undisturbed b.
Proof. apply Forall_app. Qed.

Lemma parse_rcv_text line m : rcv_text line m ->
  startswith (lit "rcv") line = true /\ parse_rcv line = Ok m.
Proof.
  intros (id & w & rest & -> & Hi & Hw). split; [reflexivity|].
  rewrite (C24_receive _ _ _ _ _ Hi Hw). now destruct m.
Qed.

(** What a command gives when its exchange is [x]. *)
Definition reply_of (c : @can_command V) (x : exchange) : res (option V) :=
  match x_reply x with
  | None => Ok None
  | Some m => bind (cc_parse c m) (fun v => Ok (Some v))
  end.

Lemma command_ended (c : @can_command V) buf u xs aw u' r s' :
  wants (send_line disable_brs (cc c)) = cmd_reply_required (cc c) ->
  quiet (buf ++ u) -> Forall (answers_in_order wants) xs ->
  ended (do_command disable_brs c) buf aw r s' -> talk u xs aw u' -> undisturbed aw ->
  exists x, xs = [x] /\ x_line x = send_line disable_brs (cc c) /\ r = reply_of c x /\
    quiet (s' ++ u').
Proof.
  intros W Q G R T U. unfold do_command in R.
  apply ended_bind in R. destruct R as [(w & s1 & aw1 & aw2 & -> & R1 & R)|(e & -> & R)].
  2: { unfold can_write in R. apply ended_bind in R.
       destruct R as [(d & s1 & aw1 & aw2 & -> & R1 & R)|(e' & _ & R)].
       - apply ended_ret in R. destruct R as (_ & R & _). discriminate.
       - apply ended_await in R. destruct R as (-> & ->). inversion U as [|? ? [d X]]. discriminate. }
  unfold can_write in R1. apply ended_bind in R1.
  destruct R1 as [(d & s2 & a1 & a2 & -> & R1 & R2)|(e' & X & _)]; [|discriminate].
  apply ended_await in R1. destruct R1 as (-> & ->).
  apply ended_ret in R2. destruct R2 as (-> & _ & ->). cbn [app] in T.
  inversion T as [|x u0 xs0 aw0 d0 u0' T2| |]; subst. clear T.
  match goal with E : _ = send_line _ _ |- _ => rename E into Hx end.
  cbn in U. inversion U as [|? ? _ U2]; subst. clear U.
  inversion G as [|? ? Gx G2]; subst. destruct Gx as (Gu & ok & Gok & Gx).
  destruct Q as [Q1 Q2].
  assert (lines [] (buf ++ u ++ x_out x) = lines [] (x_out x)) as El.
  { rewrite app_assoc, lines_app, Q1, Q2. reflexivity. }
  assert (unfinished [] (buf ++ u ++ x_out x) = []) as Eu.
  { rewrite app_assoc, unfinished_app, Q2. exact Gu. }
  assert (exists ls, lines [] (x_out x) = ok :: ls) as (ls & Els).
  { destruct (x_reply x); [destruct Gx as (_ & line & -> & _)|destruct Gx as (_ & ->)]; eauto. }
  rewrite Els in El.
  apply ended_bind in R. destruct R as [(l1 & s1 & a1 & a2 & -> & R1 & R)|(e & -> & R)].
  2: { destruct (line_ended _ _ _ _ _ _ _ _ _ El R T2 U2) as (_ & X & _). discriminate. }
  apply talk_app in T2. destruct T2 as (xs1 & xs2 & u1 & -> & T1 & T2).
  apply undisturbed_app in U2. destruct U2 as [U1 U2].
  destruct (line_ended _ _ _ _ _ _ _ _ _ El R1 T1 U1) as (-> & [= ->] & E1 & E2).
  rewrite Gok in R. cbn [negb] in R. cbn [app] in *. rewrite Eu in E2.
  unfold reply_of. rewrite <- W, <- Hx in R.
  destruct (x_reply x) as [m|] eqn:Em.
  - destruct Gx as (Gw & line & Gl & Gm). rewrite Gw in R. rewrite Gl in Els.
    injection Els as <-.
    apply ended_bind in R. destruct R as [(l2 & s2 & a3 & a4 & -> & R2 & R)|(e & -> & R)].
    2: { destruct (line_ended _ _ _ _ _ _ _ _ _ E1 R T2 U2) as (_ & X & _). discriminate. }
    apply talk_app in T2. destruct T2 as (xs3 & xs4 & u2 & -> & T2 & T3).
    apply undisturbed_app in U2. destruct U2 as [U2 U3].
    destruct (line_ended _ _ _ _ _ _ _ _ _ E1 R2 T2 U2) as (-> & [= ->] & E3 & E4).
    destruct (parse_rcv_text _ _ Gm) as [P1 P2]. rewrite P1, P2 in R. cbn [negb lift pbind] in R.
    rewrite E2 in E4.
    assert (a4 = [] /\ r = bind (cc_parse c m) (fun v => Ok (Some v)) /\ s' = s2) as (-> & -> & ->).
    { destruct (cc_parse c m); cbn in R; [apply ended_ret in R|apply ended_throw in R]; exact R. }
    inversion T3; subst.
    exists x. split; [reflexivity|]. split; [congruence|].
    split; [now rewrite Em|]. split; assumption.
  - destruct Gx as (Gw & Gl). rewrite Gw in R. rewrite Gl in Els. injection Els as <-.
    apply ended_ret in R. destruct R as (-> & -> & ->). inversion T2; subst.
    exists x. split; [reflexivity|]. split; [congruence|].
    split; [now rewrite Em|]. split; assumption.
Qed.

Lemma command_waits (c : @can_command V) buf u xs aw u' s' q :
  wants (send_line disable_brs (cc c)) = cmd_reply_required (cc c) ->
  quiet (buf ++ u) -> Forall (answers_in_order wants) xs ->
  waits (do_command disable_brs c) buf aw s' q -> talk u xs aw u' -> undisturbed aw ->
  (q = SerialWrite (send_line disable_brs (cc c)) /\ xs = []) \/
  (q = SerialRead /\ u' <> [] /\ exists x, xs = [x] /\ x_line x = send_line disable_brs (cc c)).
Proof.
  intros W Q G R T U. unfold do_command in R.
  apply waits_bind in R. destruct R as [(w & s1 & aw1 & aw2 & -> & R1 & R)|R].
  2: { unfold can_write in R. apply waits_bind in R.
       destruct R as [(d & s1 & aw1 & aw2 & -> & R1 & R)|R].
       - now apply waits_ret in R.
       - apply waits_await in R. destruct R as (-> & -> & ->). inversion T; subst. auto. }
  right. unfold can_write in R1. apply ended_bind in R1.
  destruct R1 as [(d & s2 & a1 & a2 & -> & R1 & R2)|(e' & X & _)]; [|discriminate].
  apply ended_await in R1. destruct R1 as (-> & ->).
  apply ended_ret in R2. destruct R2 as (-> & _ & ->). cbn [app] in T.
  inversion T as [|x u0 xs0 aw0 d0 u0' T2| |]; subst. clear T.
  match goal with E : _ = send_line _ _ |- _ => rename E into Hx end.
  cbn in U. inversion U as [|? ? _ U2]; subst. clear U.
  inversion G as [|? ? Gx G2]; subst. destruct Gx as (Gu & ok & Gok & Gx).
  destruct Q as [Q1 Q2].
  assert (lines [] (buf ++ u ++ x_out x) = lines [] (x_out x)) as El.
  { rewrite app_assoc, lines_app, Q1, Q2. reflexivity. }
  assert (exists ls, lines [] (x_out x) = ok :: ls) as (ls & Els).
  { destruct (x_reply x); [destruct Gx as (_ & line & -> & _)|destruct Gx as (_ & ->)]; eauto. }
  rewrite Els in El.
  apply waits_bind in R. destruct R as [(l1 & s1 & a1 & a2 & -> & R1 & R)|R].
  2: { destruct (line_waits _ _ _ _ _ _ _ _ _ El R T2 U2) as (-> & -> & X). eauto. }
  apply talk_app in T2. destruct T2 as (xs1 & xs2 & u1 & -> & T1 & T2).
  apply undisturbed_app in U2. destruct U2 as [U1 U2].
  destruct (line_ended _ _ _ _ _ _ _ _ _ El R1 T1 U1) as (-> & [= ->] & E1 & E2).
  rewrite Gok in R. cbn [negb] in R. cbn [app] in *. rewrite <- W, <- Hx in R.
  destruct (x_reply x) as [m|].
  - destruct Gx as (Gw & line & Gl & Gm). rewrite Gw in R. rewrite Gl in Els.
    injection Els as <-.
    apply waits_bind in R. destruct R as [(l2 & s2 & a3 & a4 & -> & R2 & R)|R].
    2: { destruct (line_waits _ _ _ _ _ _ _ _ _ E1 R T2 U2) as (-> & -> & X). eauto. }
    apply talk_app in T2. destruct T2 as (xs3 & xs4 & u2 & -> & T2 & T3).
    apply undisturbed_app in U2. destruct U2 as [U2 U3].
    destruct (line_ended _ _ _ _ _ _ _ _ _ E1 R2 T2 U2) as (-> & [= ->] & _).
    destruct (parse_rcv_text _ _ Gm) as [P1 P2]. rewrite P1, P2 in R. cbn [negb lift pbind] in R.
    exfalso. destruct (cc_parse c m); cbn in R; [apply waits_ret in R|apply waits_throw in R]; auto.
  - destruct Gx as (Gw & Gl). rewrite Gw in R. now apply waits_ret in R.
Qed.

Definition agrees (cs : call) : Prop :=
  Forall (fun c => wants (send_line disable_brs (cc c)) = cmd_reply_required (cc c)) cs.

Lemma commands_ended cs : forall buf u xs aw u' r s', agrees cs ->
  quiet (buf ++ u) -> Forall (answers_in_order wants) xs ->
  ended (do_commands disable_brs cs) buf aw r s' -> talk u xs aw u' -> undisturbed aw ->
  answered cs xs r /\ quiet (s' ++ u').
Proof.
  induction cs as [|c cs IH]; intros buf u xs aw u' r s' A Q G R T U; cbn [do_commands] in R.
  - apply ended_ret in R. destruct R as (-> & -> & ->). inversion T; subst.
    split; [constructor|auto].
  - inversion A as [|? ? Ac As]; subst.
    apply ended_bind in R. destruct R as [(v & s1 & a1 & a2 & -> & R1 & R)|(e & -> & R)].
    + apply talk_app in T. destruct T as (xs1 & xs2 & u1 & -> & T1 & T2).
      apply undisturbed_app in U. destruct U as [U1 U2].
      apply Forall_app in G. destruct G as [G1 G2].
      destruct (command_ended _ _ _ _ _ _ _ _ Ac Q G1 R1 T1 U1) as (x & -> & Ex & Er & Q1).
      apply ended_bind in R. destruct R as [(vs & s2 & a3 & a4 & -> & R2 & R)|(e & -> & R)].
      * apply ended_ret in R. destruct R as (-> & -> & ->). rewrite app_nil_r in *.
        destruct (IH _ _ _ _ _ _ _ As Q1 G2 R2 T2 U2) as [H1 H2].
        split; [|exact H2].
        unfold reply_of in Er. destruct (x_reply x) as [m|] eqn:Em.
        -- destruct (cc_parse c m) as [w|e] eqn:Ep; [|discriminate]. injection Er as ->.
           apply (an_some c cs x xs2 (Ok vs) m w); auto.
        -- injection Er as ->. apply (an_none c cs x xs2 (Ok vs)); auto.
      * destruct (IH _ _ _ _ _ _ _ As Q1 G2 R T2 U2) as [H1 H2].
        split; [|exact H2].
        unfold reply_of in Er. destruct (x_reply x) as [m|] eqn:Em.
        -- destruct (cc_parse c m) as [w|e'] eqn:Ep; [|discriminate].
           apply (an_some c cs x xs2 (Raise e) m w); auto.
        -- apply (an_none c cs x xs2 (Raise e)); auto.
    + destruct (command_ended _ _ _ _ _ _ _ _ Ac Q G R T U) as (x & -> & Ex & Er & Q1).
      split; [|exact Q1]. unfold reply_of in Er.
      destruct (x_reply x) as [m|] eqn:Em; [|discriminate].
      destruct (cc_parse c m) as [w|e'] eqn:Ep; [discriminate|]. injection Er as ->.
      now apply (an_error c cs x m e').
Qed.

Lemma commands_waits cs : forall buf u xs aw u' s' q, agrees cs ->
  quiet (buf ++ u) -> Forall (answers_in_order wants) xs ->
  waits (do_commands disable_brs cs) buf aw s' q -> talk u xs aw u' -> undisturbed aw ->
  q = SerialRead -> u' <> [].
Proof.
  induction cs as [|c cs IH]; intros buf u xs aw u' s' q A Q G R T U Eq; cbn [do_commands] in R.
  - now apply waits_ret in R.
  - inversion A as [|? ? Ac As]; subst.
    apply waits_bind in R. destruct R as [(v & s1 & a1 & a2 & -> & R1 & R)|R].
    + apply talk_app in T. destruct T as (xs1 & xs2 & u1 & -> & T1 & T2).
      apply undisturbed_app in U. destruct U as [U1 U2].
      apply Forall_app in G. destruct G as [G1 G2].
      destruct (command_ended _ _ _ _ _ _ _ _ Ac Q G1 R1 T1 U1) as (x & -> & Ex & Er & Q1).
      apply waits_bind in R. destruct R as [(vs & s2 & a3 & a4 & -> & R2 & R)|R].
      * now apply waits_ret in R.
      * eapply IH; eauto.
    + destruct (command_waits _ _ _ _ _ _ _ _ Ac Q G R T U) as [[X _]|(_ & X & _)];
        [discriminate|exact X].
Qed.

(** ** All the calls *)
Lemma commands_lockfree (cs : call) : lockfree (do_commands disable_brs cs).
Proof.
  assert (lockfree can_readline) as Hr by (eapply asks_lockfree, readline_asks).
  induction cs as [|c cs IH]; cbn [do_commands]; [constructor|].
  apply lockfree_bind.
  - unfold do_command. apply lockfree_bind.
    { unfold can_write. apply lockfree_bind; [apply lockfree_await|intros; constructor]. }
    intros _. apply lockfree_bind; [exact Hr|]. intros l1.
    destruct (negb (startswith (lit "OK") l1)); [constructor|].
    destruct (cmd_reply_required (cc c)); [|constructor].
    apply lockfree_bind; [exact Hr|]. intros l2.
    destruct (negb (startswith (lit "rcv") l2)); [constructor|].
    apply lockfree_bind; [apply lockfree_lift|]. intros m.
    apply lockfree_bind; [apply lockfree_lift|]. constructor.
  - intros v. apply lockfree_bind; [exact IH|]. constructor.
Qed.

(** The awaits of a history, without the task that made them. *)
Definition on_the_port (tr : list (nat * freq * res (list Z))) : list (freq * res (list Z)) :=
  map (fun x => (snd (fst x), snd x)) tr.

Lemma port_tagged t aw : on_the_port (tagged t aw) = aw.
Proof.
  unfold on_the_port, tagged. rewrite map_map. induction aw as [|[q r] aw IH]; [reflexivity|].
  cbn. f_equal. exact IH.
Qed.

Lemma port_app a b : on_the_port (a ++ b) = on_the_port a ++ on_the_port b.
Proof. apply map_app. Qed.

Lemma port_trace l : on_the_port (@trace_of (list Z) freq (list Z) (list (option V)) l)
  = concat (map e_awaits l).
Proof.
  unfold trace_of. induction l as [|e l IH]; [reflexivity|]. cbn [map concat].
  rewrite port_app, port_tagged, IH. reflexivity.
Qed.

Lemma undisturbed_port tr : undisturbed tr -> undisturbed (on_the_port tr).
Proof.
  unfold undisturbed, on_the_port. intros H. apply Forall_map. eapply Forall_impl; [|exact H].
  intros [[t q] r] X. exact X.
Qed.

Lemma chain_answered l : forall s s1 u xs u',
  (forall e, In e l -> exists cs, e_prog e = do_commands disable_brs cs /\ agrees cs) ->
  quiet (s ++ u) -> Forall (answers_in_order wants) xs ->
  chain s l s1 -> talk u xs (concat (map e_awaits l)) u' ->
  undisturbed (concat (map e_awaits l)) ->
  quiet (s1 ++ u') /\
  exists segs, map fst segs = map e_task l /\ concat (map snd segs) = xs /\
    forall e, In e l -> exists seg, In (e_task e, seg) segs /\
      forall cs, e_prog e = do_commands disable_brs cs -> agrees cs ->
      answered cs seg (e_result e).
Proof.
  induction l as [|e l IH]; intros s s1 u xs u' Hp Q G C T U; cbn in C, T, U.
  - inversion T; subst. split; [exact Q|]. exists []. cbn. repeat split. contradiction.
  - destruct C as (C1 & C2 & C3).
    apply talk_app in T. destruct T as (xs1 & xs2 & u1 & -> & T1 & T2).
    apply undisturbed_app in U. destruct U as [U1 U2].
    apply Forall_app in G. destruct G as [G1 G2].
    assert (forall cs, e_prog e = do_commands disable_brs cs -> agrees cs ->
      answered cs xs1 (e_result e) /\ quiet (e_post e ++ u1)) as H.
    { intros cs Ee Ae. subst s.
      assert (ended (do_commands disable_brs cs) (e_pre e) (e_awaits e) (e_result e) (e_post e)) as R.
      { unfold ended. rewrite <- Ee. exact C2. }
      exact (commands_ended cs _ _ _ _ _ _ _ Ae Q G1 R T1 U1). }
    destruct (Hp e (or_introl eq_refl)) as (cs & Ee & Ae).
    destruct (H cs Ee Ae) as [_ Q1].
    destruct (IH _ _ _ _ _ (fun e' He => Hp e' (or_intror He)) Q1 G2 C3 T2 U2)
      as (Q2 & segs & S1 & S2 & S3).
    split; [exact Q2|]. exists ((e_task e, xs1) :: segs). cbn. rewrite S1, S2.
    repeat split. intros e' [<-|He].
    + exists xs1. split; [now left|]. intros cs' E1 E2. now apply H.
    + destruct (S3 e' He) as (seg & X1 & X2). exists seg. auto.
Qed.

(** A history of calls of cycle: [calls] in the order they were started, each a
    task of its own; the rest as in Serial.hist. *)
Inductive cycle_history : list call -> pool (list Z) freq (list Z) (list (option V)) ->
  list (nat * freq * res (list Z)) -> list nat -> Prop :=
| ch_start : cycle_history [] (start []) [] []
| ch_call calls P tr cl cs Q : cycle_history calls P tr cl ->
    step P (Spawn (can_cycle disable_brs cs)) Q -> cycle_history (calls ++ [cs]) Q tr cl
| ch_answer calls P tr cl t q k r Q : cycle_history calls P tr cl ->
    nth_error (po_tasks P) t = Some (Calling q k) ->
    step P (Answer t r) Q -> cycle_history calls Q (tr ++ [(t, q, r)]) cl
| ch_grant calls P tr cl Q : cycle_history calls P tr cl -> step P Grant Q -> cycle_history calls Q tr cl
| ch_cancel_call calls P tr cl t q k Q : cycle_history calls P tr cl ->
    nth_error (po_tasks P) t = Some (Calling q k) ->
    step P (Cancel t) Q -> cycle_history calls Q (tr ++ [(t, q, Raise CancelledError)]) cl
| ch_cancel_lock calls P tr cl t k Q : cycle_history calls P tr cl ->
    nth_error (po_tasks P) t = Some (LockWait k) ->
    step P (Cancel t) Q -> cycle_history calls Q tr (t :: cl).

Lemma cycle_hist calls P tr cl : cycle_history calls P tr cl ->
  hist [] (map (do_commands disable_brs) calls) P tr cl.
Proof.
  induction 1; [constructor| | | | |].
  - rewrite map_app. eapply h_spawn; eauto.
  - eapply h_answer; eauto.
  - eapply h_grant; eauto.
  - eapply h_cancel_call; eauto.
  - eapply h_cancel_lock; eauto.
Qed.

Lemma hist_cycle ps P tr cl : hist [] ps P tr cl ->
  forall calls, ps = map (do_commands disable_brs) calls -> cycle_history calls P tr cl.
Proof.
  induction 1; intros calls E.
  - destruct calls; [constructor|discriminate].
  - symmetry in E. apply map_eq_app in E. destruct E as (a & b & -> & Ea & Eb).
    destruct b as [|c [|]]; try discriminate. injection Eb as Eb. eapply ch_call; [now apply IHhist|].
    unfold can_cycle. now rewrite Eb.
  - eapply ch_answer; eauto.
  - eapply ch_grant; eauto.
  - eapply ch_cancel_call; eauto.
  - eapply ch_cancel_lock; eauto.
Qed.

Section Calls.
Variables (calls : list call) (P : pool (list Z) freq (list Z) (list (option V)))
  (tr : list (nat * freq * res (list Z))) (cl : list nat) (log : list exchange) (unread : list Z).
(** [calls] were made, in any order and at any time; [tr] is what then happened
    on the port, [P] what the calls came to, [cl] are the calls cancelled before
    they began.  The port spoke with the device, which answers in order, replies
    where a reply is required, and whose exchanges were [log]. *)
Hypothesis Hhist : cycle_history calls P tr cl.
Hypothesis Htalk : talk [] log (on_the_port tr) unread.
Hypothesis Hdevice : Forall (answers_in_order wants) log.
Hypothesis Hagrees : Forall agrees calls.
Hypothesis Hok : undisturbed tr.

Lemma cycle_serial : exists l c, serial [] (map (do_commands disable_brs) calls) P tr cl l c /\
  exists xs1 xs2 u1, log = xs1 ++ xs2 /\ talk [] xs1 (concat (map e_awaits l)) u1 /\
    talk u1 xs2 (match c with None => [] | Some c => r_awaits c end) unread /\
    undisturbed (concat (map e_awaits l)) /\
    undisturbed (match c with None => [] | Some c => r_awaits c end) /\
    forall e, In e l -> exists cs, e_prog e = do_commands disable_brs cs /\ agrees cs.
Proof.
  destruct (serialization _ _ _ _ _ (cycle_hist _ _ _ _ Hhist)) as (l & c & S).
  { apply Forall_map, Forall_forall. intros. apply commands_lockfree. }
  exists l, c. split; [exact S|].
  pose proof (undisturbed_port _ Hok) as U. pose proof Htalk as T.
  rewrite (sr_trace _ _ _ _ _ _ _ S), port_app, port_trace in T, U.
  assert (on_the_port (running_trace c) = match c with None => [] | Some c => r_awaits c end) as Ec.
  { destruct c; [apply port_tagged|reflexivity]. }
  rewrite Ec in T, U. apply talk_app in T. destruct T as (xs1 & xs2 & u1 & -> & T1 & T2).
  apply undisturbed_app in U. destruct U as [U1 U2].
  exists xs1, xs2, u1. repeat split; auto.
  intros e He. destruct (sr_closed _ _ _ _ _ _ _ S e He) as [_ X].
  rewrite nth_error_map in X. destruct (nth_error calls (e_task e)) as [cs|] eqn:E; [|discriminate].
  injection X as X. exists cs. split; [now symmetry|].
  apply (proj1 (Forall_forall _ _) Hagrees). eapply nth_error_In; eauto.
Qed.

(** The exchanges on the port are those of the finished calls, whole, one call
    after the other, then those of the call in progress; and every finished
    call has the results of its own exchanges. *)
Theorem C27_cycle : exists (segs : list (nat * list exchange)) current,
  log = concat (map snd segs) ++ current /\ NoDup (map fst segs) /\
  forall t r, nth_error (po_tasks P) t = Some (Done r) ->
    (exists cs seg, nth_error calls t = Some cs /\ In (t, seg) segs /\ answered cs seg r) \/
    (In t cl /\ r = Raise CancelledError).
Proof.
  destruct cycle_serial as (l & c & S & xs1 & xs2 & u1 & El & T1 & T2 & U1 & U2 & Hp).
  pose proof Hdevice as G. rewrite El in G. apply Forall_app in G. destruct G as [G1 G2].
  destruct (sr_states _ _ _ _ _ _ _ S) as (s1 & C & _).
  assert (quiet ([] ++ [])) as Q by (split; reflexivity).
  destruct (chain_answered l [] s1 [] xs1 u1 Hp Q G1 C T1 U1) as (_ & segs & S1 & S2 & S3).
  exists segs, xs2. split; [now rewrite S2|]. split.
  { rewrite S1. apply (sr_once _ _ _ _ _ _ _ S). }
  intros t r Ht. destruct (sr_tasks _ _ _ _ _ _ _ S t _ Ht) as (p & Hpt & [X|X]); [left|auto].
  destruct X as (e & He & <- & <- & <-). rewrite nth_error_map in Hpt.
  destruct (nth_error calls (e_task e)) as [cs|] eqn:E; [|discriminate]. injection Hpt as Hpt.
  destruct (S3 e He) as (seg & X1 & X2). exists cs, seg. repeat split; auto.
  apply X2; [now symmetry|]. apply (proj1 (Forall_forall _ _) Hagrees).
  eapply nth_error_In; eauto.
Qed.

(** No call waits for the device when the device has nothing more to say: the
    bytes it needs are there. *)
Theorem C27_progress : forall t k,
  nth_error (po_tasks P) t = Some (Calling SerialRead k) -> unread <> [].
Proof.
  intros t k Ht.
  destruct cycle_serial as (l & c & S & xs1 & xs2 & u1 & El & T1 & T2 & U1 & U2 & Hp).
  pose proof Hdevice as G. rewrite El in G. apply Forall_app in G. destruct G as [G1 G2].
  destruct (sr_states _ _ _ _ _ _ _ S) as (s1 & C & X).
  assert (quiet ([] ++ [])) as Q by (split; reflexivity).
  destruct (chain_answered l [] s1 [] xs1 u1 Hp Q G1 C T1 U1) as (Q1 & _).
  destruct (sr_tasks _ _ _ _ _ _ _ S t _ Ht) as (p & Hpt & c' & -> & Et & Ep & Eq).
  rewrite nth_error_map in Hpt. destruct (nth_error calls t) as [cs|] eqn:E; [|discriminate].
  injection Hpt as Hpt. destruct X as (_ & R & _). rewrite Ep, <- Hpt in R.
  eapply commands_waits; eauto.
  apply (proj1 (Forall_forall _ _) Hagrees). eapply nth_error_In; eauto.
Qed.
End Calls.
End Cycle.

(** For the frames of moteus commands the device knows from the id whether a
    reply is required: bit 15 (docs/reference.md, "CAN Format"). *)
Definition reply_flag (line : list Z) : bool :=
  match nth_error (split_on 32 line) 2 with
  | Some w => match int16 w with Ok id => (id / 0x8000) mod 2 =? 1 | Raise _ => false end
  | None => false
  end.

Theorem C27_reply_flag : forall V brs (c : @can_command V), bytes_ok (cmd_data (cc c)) ->
  cmd_raw (cc c) = false -> 0 <= cmd_destination (cc c) < 256 -> 0 <= cmd_can_prefix (cc c) ->
  reply_flag (send_line brs (cc c)) = cmd_reply_required (cc c).
Proof.
  intros V brs c D R I P. destruct (C24_bus_id (cc c) R I P) as (N & _ & _ & E & _).
  destruct (C24_line brs (cc c) D N) as (id & data & -> & Hi & _).
  unfold reply_flag. change (lit "can send ") with (lit "can" ++ 32 :: lit "send" ++ [32]).
  rewrite <- !app_assoc. cbn [app]. rewrite <- !app_assoc.
  rewrite split_on_word by (cbn; lia). change ([32] ++ ?x) with (32 :: x).
  rewrite split_on_word by (cbn; lia). change (lit " " ++ ?x) with (32 :: x).
  rewrite split_on_word by (eapply hex_number_no_space; eauto).
  cbn [nth_error]. rewrite (int16_number _ _ Hi). change 0x8000 with 32768. rewrite E.
  destruct (cmd_reply_required (cc c)); reflexivity.
Qed.

(** ** Examples *)
Definition demo_command (id : Z) (reply : bool) : @can_command (list Z) :=
  {| cc := {| cmd_destination := id; cmd_source := 0; cmd_reply_required := reply;
              cmd_data := [0x14; 4; 0]; cmd_can_prefix := 0; cmd_expected_reply_size := 0;
              cmd_raw := false; cmd_arbitration_id := 0 |};
     cc_parse := fun m => Ok (m_data m) |}.

Definition demo_exchange (c : @can_command (list Z)) (word : string) (data : Z) : exchange :=
  {| x_line := send_line false (cc c);
     x_out := if cmd_reply_required (cc c)
              then lit "OK" ++ [CR; LF] ++ lit "rcv 100 " ++ lit word ++ lit " E" ++ [LF]
              else lit "OK" ++ [LF];
     x_reply := if cmd_reply_required (cc c)
                then Some {| m_arbitration_id := 256; m_data := [data] |} else None |}.

Definition demo_results (h : option (@hstate (list Z) freq (list Z) (list (option (list Z)))))
  : option (list (option (res (list (option (list Z))))) * list (nat * freq * res (list Z)) * list nat) :=
  match h with
  | Some (_, P, tr, cl) =>
      Some (map (fun x => match x with Done r => Some r | _ => None end) (po_tasks P), tr, cl)
  | None => None
  end.

(** Two calls at the same time; the second has to wait.  The reply texts arrive
    in pieces. *)
Definition demo_calls := [[demo_command 1 true; demo_command 2 false]; [demo_command 3 true]].
Definition demo_log := [demo_exchange (demo_command 1 true) "0A" 10;
  demo_exchange (demo_command 2 false) "" 0; demo_exchange (demo_command 3 true) "0b" 11].
Notation run_events es := (exec_hist 100 ([], start [], [], []) es).
Definition demo_events :=
  [HSpawn (do_commands false [demo_command 1 true; demo_command 2 false]);
   HSpawn (do_commands false [demo_command 3 true]);
   HAnswer 0 (Ok []); HAnswer 0 (Ok (lit "O")); HAnswer 0 (Ok (lit "K" ++ [CR; LF] ++ lit "rcv 10"));
   HAnswer 0 (Ok (lit "0 0A E" ++ [LF])); HAnswer 0 (Ok []); HAnswer 0 (Ok (lit "OK" ++ [LF]));
   HGrant; HAnswer 1 (Ok []); HAnswer 1 (Ok (lit "OK" ++ [CR; LF] ++ lit "rcv 100 0b E" ++ [LF]))].

Lemma hex_100 : hex_number (lit "100") 256.
Proof.
  apply (hn_more (lit "10") 16 48 0); [|left; lia].
  apply (hn_more (lit "1") 1 48 0); [|left; lia]. apply (hn_one 49 1). left. lia.
Qed.

Lemma demo_answers c w d l : cmd_reply_required (cc c) = true ->
  reply_flag (send_line false (cc c)) = true ->
  lines [] (x_out (demo_exchange c w d)) = [lit "OK" ++ [CR]; l] ->
  unfinished [] (x_out (demo_exchange c w d)) = [] ->
  l = lit "rcv 100 " ++ lit w ++ lit " E" ++ [LF] -> hex_bytes (lit w) [d] ->
  answers_in_order reply_flag (demo_exchange c w d).
Proof.
  intros R F L U El Hw. split; [exact U|]. exists (lit "OK" ++ [CR]). split; [reflexivity|].
  cbn [x_reply x_line demo_exchange]. rewrite R. split; [exact F|].
  exists l. split; [exact L|]. exists (lit "100"), (lit w), (lit "E" ++ [LF]). subst l.
  split; [reflexivity|]. split; [apply hex_100|exact Hw].
Qed.

(** An executable version of [talk]. *)
Fixpoint strip (d u : list Z) : option (list Z) :=
  match d, u with
  | [], _ => Some u
  | a :: d, b :: u => if a =? b then strip d u else None
  | _ :: _, [] => None
  end.

Lemma strip_app d : forall u r, strip d u = Some r -> u = d ++ r.
Proof.
  induction d as [|a d IH]; cbn; intros u r H.
  - now injection H as ->.
  - destruct u as [|b u]; [discriminate|]. destruct (a =? b) eqn:E; [|discriminate].
    apply Z.eqb_eq in E. subst. f_equal. auto.
Qed.

Fixpoint talk_run (u : list Z) (xs : list exchange) (aw : list (freq * res (list Z)))
  : option (list Z) :=
  match aw with
  | [] => match xs with [] => Some u | _ => None end
  | (SerialWrite l, Ok _) :: aw =>
      match xs with
      | x :: xs => if list_eq_dec Z.eq_dec l (x_line x) then talk_run (u ++ x_out x) xs aw else None
      | [] => None
      end
  | (SerialRead, Ok d) :: aw =>
      match strip d u with Some u => talk_run u xs aw | None => None end
  | (SerialRead, Raise CancelledError) :: aw => talk_run u xs aw
  | _ => None
  end.

Lemma talk_run_ok aw : forall u xs u', talk_run u xs aw = Some u' -> talk u xs aw u'.
Proof.
  induction aw as [|[q r] aw IH]; cbn; intros u xs u' H.
  - destruct xs; [|discriminate]. injection H as ->. constructor.
  - destruct q as [l|], r as [d|e]; try discriminate.
    + destruct xs as [|x xs]; [discriminate|].
      destruct (list_eq_dec Z.eq_dec l (x_line x)) as [->|]; [|discriminate].
      constructor. auto.
    + destruct (strip d u) as [u1|] eqn:E; [|discriminate]. apply strip_app in E. subst u.
      constructor. auto.
    + destruct e; try discriminate. constructor. auto.
Qed.

Definition demo_out := Eval vm_compute in demo_results (run_events demo_events).
Lemma demo_results_ok : demo_results (run_events demo_events) = demo_out.
Proof. vm_compute. reflexivity. Qed.

Example C27_ex : exists P tr cl, cycle_history false demo_calls P tr cl /\
  talk [] demo_log (on_the_port tr) [] /\
  Forall (answers_in_order reply_flag) demo_log /\
  Forall (agrees false reply_flag) demo_calls /\ undisturbed tr /\ cl = [] /\
  map (fun x => match x with Done r => Some r | _ => None end) (po_tasks P) =
    [Some (Ok [Some [10]; None]); Some (Ok [Some [11]])].
Proof.
  assert (exists P tr cl, run_events demo_events = Some (map (do_commands false) demo_calls, P, tr, cl))
    as (P & tr & cl & E).
  { pose proof demo_results_ok as N.
    destruct (run_events demo_events) as [[[[ps P] tr] cl]|] eqn:E; [|discriminate].
    exists P, tr, cl. assert (ps = map (do_commands false) demo_calls) as -> by
      now apply exec_hist_spawned in E. reflexivity. }
  exists P, tr, cl.
  assert (demo_results (run_events demo_events) = demo_results (Some (map (do_commands false) demo_calls, P, tr, cl)))
    as X by now rewrite E.
  rewrite demo_results_ok in X. injection X as X1 X2 X3.
  split. { eapply hist_cycle; [|reflexivity]. eapply exec_hist_ok; [apply h_start|]. exact E. }
  subst tr. split. { apply talk_run_ok. vm_compute. reflexivity. }
  split; [|split; [|split; [|split]]].
  - constructor; [|constructor; [|constructor; [|constructor]]].
    + eapply demo_answers; try (vm_compute; reflexivity).
      apply (hb_cons 48 65 0 10 [] []); [left; lia|right; left; lia|constructor].
    + split; [reflexivity|]. exists (lit "OK" ++ [LF]). repeat split.
    + eapply demo_answers; try (vm_compute; reflexivity).
      apply (hb_cons 48 98 0 11 [] []); [left; lia|right; right; lia|constructor].
  - repeat constructor.
  - repeat (constructor; [eexists; reflexivity|]). constructor.
  - now symmetry.
  - now rewrite X1.
Qed.

(** With a cancelled call the claim fails: task 0 is cancelled after its
    command was written; the device then answers both commands in order, and
    task 1 returns the reply to the command of task 0. *)
Definition cancel_calls := [[demo_command 1 true]; [demo_command 3 true]].
Definition cancel_log := [demo_exchange (demo_command 1 true) "0A" 10;
  demo_exchange (demo_command 3 true) "0b" 11].
Definition cancel_events :=
  [HSpawn (do_commands false [demo_command 1 true]);
   HAnswer 0 (Ok []); HCancel 0;
   HSpawn (do_commands false [demo_command 3 true]); HAnswer 1 (Ok []);
   HAnswer 1 (Ok (lit "OK" ++ [CR; LF] ++ lit "rcv 100 0A E" ++ [LF]))].

Definition cancel_out := Eval vm_compute in demo_results (run_events cancel_events).
Lemma cancel_demo_results : demo_results (run_events cancel_events) = cancel_out.
Proof. vm_compute. reflexivity. Qed.

Theorem C27_cancelled_refuted : exists P tr cl unread,
  cycle_history false cancel_calls P tr cl /\
  talk [] cancel_log (on_the_port tr) unread /\
  Forall (answers_in_order reply_flag) cancel_log /\
  Forall (agrees false reply_flag) cancel_calls /\
  map (fun x => match x with Done r => Some r | _ => None end) (po_tasks P) =
    [Some (Raise CancelledError); Some (Ok [Some [10]])] /\
  map x_reply cancel_log = [Some {| m_arbitration_id := 256; m_data := [10] |};
                            Some {| m_arbitration_id := 256; m_data := [11] |}].
Proof.
  assert (exists P tr cl, run_events cancel_events = Some (map (do_commands false) cancel_calls, P, tr, cl))
    as (P & tr & cl & E).
  { pose proof cancel_demo_results as N.
    destruct (run_events cancel_events) as [[[[ps P] tr] cl]|] eqn:E; [|discriminate].
    exists P, tr, cl. assert (ps = map (do_commands false) cancel_calls) as -> by
      now apply exec_hist_spawned in E. reflexivity. }
  assert (demo_results (run_events cancel_events) =
    demo_results (Some (map (do_commands false) cancel_calls, P, tr, cl))) as X by now rewrite E.
  rewrite cancel_demo_results in X. injection X as X1 X2 X3.
  exists P, tr, cl. eexists.
  split. { eapply hist_cycle; [|reflexivity]. eapply exec_hist_ok; [apply h_start|]. exact E. }
  subst tr. split. { apply talk_run_ok. vm_compute. reflexivity. }
  split; [|split; [|split]].
  - constructor; [|constructor; [|constructor]].
    + eapply demo_answers; try (vm_compute; reflexivity).
      apply (hb_cons 48 65 0 10 [] []); [left; lia|right; left; lia|constructor].
    + eapply demo_answers; try (vm_compute; reflexivity).
      apply (hb_cons 48 98 0 11 [] []); [left; lia|right; right; lia|constructor].
  - repeat constructor.
  - now rewrite X1.
  - reflexivity.
Qed.

(** C41: two reads at the same time lose bytes.  The device sends two whole
    messages; the reads take them from the port in order; the first read returns
    the first message, and nothing is left of the second one: what was buffered
    of it is overwritten. *)
Definition both_reads : list (event (list Z) freq (list Z) message) :=
  [Spawn can_read; Spawn can_read; Answer 0 (Ok (lit "rcv 1 0a E" ++ [LF] ++ lit "rcv 2"));
   Answer 1 (Ok (lit " 0b E" ++ [LF]))].

Theorem C41_concurrent_reads_refuted : exists (P : pool (list Z) freq (list Z) message) d1 d2,
  d1 ++ d2 = lit "rcv 1 0a E" ++ [LF] ++ lit "rcv 2 0b E" ++ [LF] /\
  steps (start []) [Spawn can_read; Spawn can_read; Answer 0 (Ok d1); Answer 1 (Ok d2)] P /\
  nth_error (po_tasks P) 0 = Some (Done (Ok {| m_arbitration_id := 1; m_data := [10] |})) /\
  (exists k, nth_error (po_tasks P) 1 = Some (Calling SerialRead k)) /\
  sh_st (po_shared P) = [].
Proof.
  assert (match exec_events 60 (start []) both_reads with
          | Some P => Some (map (fun x => match x with
                                          | Done r => inl r | Calling q _ => inr (Some q)
                                          | LockWait _ => inr None end) (po_tasks P),
                            sh_st (po_shared P))
          | None => None
          end = Some ([inl (Ok {| m_arbitration_id := 1; m_data := [10] |}); inr (Some SerialRead)], []))
    as X by (vm_compute; reflexivity).
  destruct (exec_events 60 (start []) both_reads) as [P|] eqn:E; [|discriminate].
  exists P, (lit "rcv 1 0a E" ++ [LF] ++ lit "rcv 2"), (lit " 0b E" ++ [LF]).
  split; [reflexivity|]. split; [exact (exec_events_steps _ 60 _ _ _ E)|].
  clear E. injection X as X1 X2. destruct (po_tasks P) as [|a [|b [|]]]; try discriminate.
  cbn in X1. injection X1 as Xa Xb.
  destruct a; try discriminate. destruct b; try discriminate. injection Xa as ->.
  injection Xb as ->. repeat split; auto. now exists k.
Qed.

Print Assumptions C27_cycle.
Print Assumptions C27_progress.
Print Assumptions C27_reply_flag.
Print Assumptions C27_cancelled_refuted.
Print Assumptions C41_concurrent_reads_refuted.
