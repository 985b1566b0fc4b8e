(** C33, C34: target lists and serial numbers. *)
From Coq Require Import Ascii String ZArith List Bool Lia ZifyBool ZifyNat Sorted.
From Verif Require Import PyBase PyBytes Zbits Tool_Model.
Import ListNotations.
Open Scope Z_scope.
Ltac Zify.zify_post_hook ::= Z.div_mod_to_equations.

(** ** Specification: the text of an integer *)

Definition digit_text (c v : Z) : Prop := 48 <= c <= 57 /\ v = c - 48.

(** Decimal digits; an underscore can stand between two digits. *)
Inductive decimal : list Z -> Z -> Prop :=
| dec_one c v : digit_text c v -> decimal [c] v
| dec_more w n c v : decimal w n -> digit_text c v -> decimal (w ++ [c]) (10 * n + v)
| dec_under w n c v : decimal w n -> digit_text c v -> decimal (w ++ [95; c]) (10 * n + v).

Definition blank (l : list Z) : Prop := Forall (fun c => is_space c = true) l.

(** White space, a sign or none, digits, white space. *)
Definition int_text (w : list Z) (n : Z) : Prop :=
  exists l s d r m, w = l ++ s ++ d ++ r /\ blank l /\ blank r /\ decimal d m /\
    ((s = [] \/ s = lit "+") /\ n = m \/ s = lit "-" /\ n = - m).

(** A field: a number without a minus sign, or two of them around one. *)
Definition field_text (f : list Z) (lo hi : Z) : Prop :=
  ~ In 45 f /\ int_text f lo /\ hi = lo \/
  exists a b, f = a ++ lit "-" ++ b /\ ~ In 45 a /\ ~ In 45 b /\ int_text a lo /\ int_text b hi.

(** ** int *)
Lemma digit10_text c v : digit10 c = Some v <-> digit_text c v.
Proof.
  unfold digit10, digit_text. destruct (_ && _) eqn:E; split; intros H.
  - injection H as <-. lia.
  - f_equal. lia.
  - discriminate.
  - lia.
Qed.

(** What the digits of a number can be followed by. *)
Definition stops_digits (r : list Z) : Prop :=
  match r with [] => True | c :: _ => digit10 c = None /\ c <> 95 end.

Lemma digits10_decimal d n : decimal d n -> forall acc r,
  digits10 false acc (d ++ r) = digits10 false (acc * 10 ^ (Z.of_nat (List.length (filter (fun c => negb (c =? 95)) d))) + n) r.
Proof.
  induction 1 as [c v H|w n c v H IH Hd|w n c v H IH Hd]; intros acc r.
  - pose proof H as H'. apply digit10_text in H. cbn [app digits10]. rewrite H.
    unfold digit_text in H'. cbn [filter]. replace (c =? 95) with false by lia.
    cbn [negb List.length]. reflexivity.
  - rewrite <- app_assoc, IH. pose proof Hd as H'. apply digit10_text in Hd. cbn [app digits10].
    rewrite Hd. unfold digit_text in H'. rewrite filter_app, app_length. cbn [filter].
    replace (c =? 95) with false by lia. cbn [negb List.length].
    f_equal. rewrite Nat2Z.inj_add, Z.pow_add_r by lia. change (10 ^ Z.of_nat 1) with 10. lia.
  - rewrite <- app_assoc, IH. pose proof Hd as H'. apply digit10_text in Hd. cbn [app digits10].
    change (digit10 95) with (@None Z). cbn [Z.eqb Pos.eqb]. cbn [digits10].
    rewrite Hd. unfold digit_text in H'. rewrite filter_app, app_length. cbn [filter].
    change (95 =? 95) with true. replace (c =? 95) with false by lia. cbn [negb List.length].
    f_equal. rewrite Nat2Z.inj_add, Z.pow_add_r by lia. change (10 ^ Z.of_nat 1) with 10. lia.
Qed.

Lemma digits10_stop r acc : stops_digits r -> digits10 false acc r = Some (acc, r).
Proof.
  destruct r as [|c r]; [reflexivity|]. cbn. intros [-> H]. now replace (c =? 95) with false by lia.
Qed.

Lemma digits10_value d n r : decimal d n -> stops_digits r -> digits10 false 0 (d ++ r) = Some (n, r).
Proof. intros H S. rewrite (digits10_decimal d n H), digits10_stop by exact S. reflexivity. Qed.

(** Reading on after the digits [d] of [acc]. *)
Lemma digits10_inv l : forall prev acc v r d,
  decimal d acc -> digits10 prev acc l = Some (v, r) ->
  exists e, l = e ++ r /\ decimal (d ++ (if prev then [95] else []) ++ e) v /\ stops_digits r.
Proof.
  induction l as [|c l IH]; intros prev acc v r d D H; cbn in H.
  - destruct prev; [discriminate|]. injection H as <- <-. exists []. cbn.
    rewrite app_nil_r. auto.
  - destruct (digit10 c) as [x|] eqn:E.
    + apply digit10_text in E.
      assert (D' : decimal (d ++ (if prev then [95] else []) ++ [c]) (acc * 10 + x)).
      { rewrite Z.mul_comm. destruct prev; cbn [app]; now constructor. }
      destruct (IH false _ v r _ D' H) as (e & -> & De & S). exists (c :: e). split; auto.
      split; auto. cbn [app] in De. rewrite <- !app_assoc in De. exact De.
    + destruct (c =? 95) eqn:U.
      * destruct prev; [discriminate|].
        destruct (IH true _ v r d D H) as (e & -> & De & S).
        apply Z.eqb_eq in U. subst c. exists (95 :: e). split; auto.
      * destruct prev; [discriminate|]. injection H as <- <-. exists []. cbn.
        rewrite app_nil_r. split; auto. split; auto. split; auto. lia.
Qed.

Lemma decimal_hd d n : decimal d n -> exists c v d', d = c :: d' /\ digit_text c v.
Proof.
  induction 1 as [c v H|w n c v H (c' & v' & d' & -> & H') Hd|w n c v H (c' & v' & d' & -> & H') Hd].
  - exists c, v, []. auto.
  - exists c', v', (d' ++ [c]). auto.
  - exists c', v', (d' ++ [95; c]). auto.
Qed.

Lemma drop_blank l r : blank l -> drop_space (l ++ r) = drop_space r.
Proof. induction 1 as [|c l H F IH]; [reflexivity|]. cbn. now rewrite H. Qed.

Lemma drop_space_spec l : exists s, l = s ++ drop_space l /\ blank s.
Proof.
  induction l as [|c l (s & E & F)]; [exists []; split; [auto|constructor]|]. cbn.
  destruct (is_space c) eqn:C.
  - exists (c :: s). split; [cbn; now f_equal|now constructor].
  - exists []. split; [auto|constructor].
Qed.

Lemma blank_stops r : blank r -> stops_digits r.
Proof.
  destruct 1 as [|c r H F]; cbn; auto. unfold is_space, digit10 in *.
  destruct ((48 <=? c) && (c <=? 57)) eqn:E; [|split; auto]; lia.
Qed.

Lemma drop_blank_nil r : blank r -> drop_space r = [].
Proof. intros H. rewrite <- (app_nil_r r), drop_blank by exact H. reflexivity. Qed.

(** int accepts exactly the texts of integers. *)
Theorem C33_int : forall w n, int10 w = Ok n <-> int_text w n.
Proof.
  intros w n. split.
  - intros H. unfold int10 in H. destruct (drop_space_spec w) as (l & Ew & Bl).
    set (t := drop_space w) in *. clearbody t.
    set (p := match t with
              | [] => (false, t)
              | c :: s' => if c =? 43 then (false, s') else if c =? 45 then (true, s') else (false, t)
              end) in H.
    assert (exists s u (neg : bool), t = s ++ u /\ p = (neg, u) /\
      (if neg then s = lit "-" else s = [] \/ s = lit "+")) as (s & u & neg & Et & Ep & Hs).
    { subst p. destruct t as [|c t']; [exists [], [], false; auto|].
      destruct (c =? 43) eqn:C1; [|destruct (c =? 45) eqn:C2].
      - apply Z.eqb_eq in C1. subst c. exists [43], t', false. auto.
      - apply Z.eqb_eq in C2. subst c. exists [45], t', true. auto.
      - exists [], (c :: t'), false. auto. }
    rewrite Ep in H. destruct u as [|c u]; [discriminate|].
    destruct (digit10 c) as [x|] eqn:E; [|discriminate].
    destruct (digits10 false 0 (c :: u)) as [[v r]|] eqn:D; [|discriminate].
    destruct (drop_space r) eqn:Dr; [|discriminate].
    cbn in D. rewrite E in D. rewrite Z.add_0_l in D || idtac. cbn in D.
    apply digit10_text in E.
    destruct (digits10_inv u false x v r [c] (dec_one _ _ E) D) as (e & Eu & De & S).
    destruct (drop_space_spec r) as (r' & Er & Br). rewrite Dr, app_nil_r in Er. subst r'.
    exists l, s, (c :: e), r, v. split; [|split; [|split; [|split]]]; auto.
    + rewrite Ew, Et, Eu. reflexivity.
    + injection H as <-. destruct neg; [right|left]; auto.
  - intros (l & s & d & r & m & -> & Bl & Br & D & Hs). unfold int10.
    rewrite drop_blank by exact Bl. destruct (decimal_hd d m D) as (c & v & d' & Ed & Hc).
    assert (R : match d ++ r with [] => Raise ValueError | c :: _ =>
      match digit10 c with None => Raise ValueError | Some _ =>
        match digits10 false 0 (d ++ r) with
        | Some (v, rest) => match drop_space rest with [] => Ok v | _ => Raise ValueError end
        | None => Raise ValueError end end end = Ok m).
    { rewrite (digits10_value d m r D (blank_stops r Br)), drop_blank_nil by exact Br.
      rewrite Ed. cbn [app]. now rewrite (proj2 (digit10_text c v) Hc). }
    assert (Sp : is_space c = false) by (unfold is_space, digit_text in *; lia).
    assert ((c =? 43) = false /\ (c =? 45) = false) as [C1 C2] by (unfold digit_text in *; lia).
    destruct Hs as [[[-> | ->] ->]|[-> ->]].
    + cbn [app]. rewrite Ed in R |- *. cbn [app drop_space] in R |- *. rewrite Sp, C1, C2. exact R.
    + change (lit "+" ++ d ++ r) with (43 :: d ++ r). cbn [drop_space].
      change (is_space 43) with false. cbv iota. change (43 =? 43) with true. cbv iota. exact R.
    + change (lit "-" ++ d ++ r) with (45 :: d ++ r). cbn [drop_space].
      change (is_space 45) with false. cbv iota. change (45 =? 43) with false.
      change (45 =? 45) with true. cbv iota.
      destruct (d ++ r) as [|c1 t]; [discriminate|]. destruct (digit10 c1); [|discriminate].
      destruct (digits10 false 0 (c1 :: t)) as [[v1 r1]|]; [|discriminate].
      destruct (drop_space r1); [|discriminate]. injection R as ->. reflexivity.
Qed.

(** ** C33 *)
Lemma split_two sep w : forall f0 f1, split_on sep w = [f0; f1] ->
  w = f0 ++ [sep] ++ f1 /\ ~ In sep f0 /\ ~ In sep f1.
Proof.
  assert (Ne : forall w, split_on sep w <> []).
  { induction w0 as [|c w0 IH]; cbn; [discriminate|]. destruct (c =? sep); [discriminate|].
    destruct (split_on sep w0); discriminate. }
  assert (One : forall w f, split_on sep w = [f] -> w = f /\ ~ In sep f).
  { induction w0 as [|c w0 IH]; intros f H; cbn in H.
    - injection H as <-. auto.
    - destruct (c =? sep) eqn:C.
      + injection H as <- H. now apply Ne in H.
      + destruct (split_on sep w0) as [|f' fs] eqn:E; [now apply Ne in E|].
        injection H as <- ->. destruct (IH f' eq_refl) as [-> N]. split; auto.
        intros [H|H]; [lia|auto]. }
  induction w as [|c w IH]; intros f0 f1 H; cbn in H; [discriminate|].
  destruct (c =? sep) eqn:C.
  - injection H as <- H. apply One in H as [-> N]. apply Z.eqb_eq in C. subst. auto.
  - destruct (split_on sep w) as [|f' fs] eqn:E; [discriminate|]. injection H as <- ->.
    destruct (IH f' f1 eq_refl) as (-> & N & N'). split; auto. split; auto.
    intros [H|H]; [lia|auto].
Qed.

Lemma split_one sep w : ~ In sep w -> split_on sep w = [w].
Proof.
  induction w as [|c w IH]; intros H; [reflexivity|]. cbn in *.
  replace (c =? sep) with false by lia. now rewrite IH by tauto.
Qed.

Lemma split_word sep w l : ~ In sep w -> split_on sep (w ++ sep :: l) = w :: split_on sep l.
Proof.
  intros H. induction w as [|c w IH]; cbn.
  - now rewrite Z.eqb_refl.
  - cbn in H. replace (c =? sep) with false by lia. rewrite IH by tauto. reflexivity.
Qed.

Lemma existsb_in c l : existsb (Z.eqb c) l = true <-> In c l.
Proof.
  rewrite existsb_exists. split.
  - intros (x & H & E). apply Z.eqb_eq in E. now subst.
  - intros H. exists c. split; auto. apply Z.eqb_refl.
Qed.

Lemma in_range a b x : In x (py_range a b) <-> a <= x < b.
Proof.
  unfold py_range. rewrite in_map_iff. split.
  - intros (i & <- & H). apply in_seq in H. lia.
  - intros H. exists (Z.to_nat (x - a)). split; [lia|]. apply in_seq. lia.
Qed.

Lemma field_spec f l : field_ids f = Ok l ->
  exists lo hi, field_text f lo hi /\ forall x, In x l <-> lo <= x <= hi.
Proof.
  unfold field_ids. destruct (existsb (Z.eqb 45) f) eqn:E; intros H.
  - destruct (split_on 45 f) as [|a [|b [|]]] eqn:S; try discriminate.
    destruct (int10 a) as [lo|] eqn:Ea; [|discriminate].
    destruct (int10 b) as [hi|] eqn:Eb; [|discriminate]. injection H as <-.
    apply C33_int in Ea, Eb. apply split_two in S as (-> & Na & Nb).
    exists lo, hi. split; [right; exists a, b; auto|]. intros x. rewrite in_range. lia.
  - destruct (int10 f) as [n|] eqn:En; [|discriminate]. injection H as <-. apply C33_int in En.
    exists n, n. split.
    + left. split; [|auto]. intros Hi. apply existsb_in in Hi. congruence.
    + intros x. cbn. lia.
Qed.

Lemma field_accepts f lo hi : field_text f lo hi -> exists l, field_ids f = Ok l.
Proof.
  unfold field_ids. intros [(N & H & ->)|(a & b & -> & Na & Nb & Ha & Hb)].
  - destruct (existsb (Z.eqb 45) f) eqn:E; [apply existsb_in in E; tauto|].
    apply C33_int in H. rewrite H. cbn. eauto.
  - assert (E : existsb (Z.eqb 45) (a ++ lit "-" ++ b) = true).
    { apply existsb_in. apply in_or_app. right. now left. }
    rewrite E. change (lit "-" ++ b) with (45 :: b). rewrite split_word by exact Na.
    rewrite split_one by exact Nb. apply C33_int in Ha, Hb. rewrite Ha, Hb. cbn. eauto.
Qed.

Lemma field_unique f lo hi lo' hi' : field_text f lo hi -> field_text f lo' hi' -> lo = lo' /\ hi = hi'.
Proof.
  intros [(N & H & ->)|(a & b & E & Na & Nb & Ha & Hb)]
         [(N' & H' & ->)|(a' & b' & E' & Na' & Nb' & Ha' & Hb')].
  - apply C33_int in H, H'. rewrite H in H'. injection H' as <-. auto.
  - exfalso. apply N. rewrite E'. apply in_or_app. right. now left.
  - exfalso. apply N'. rewrite E. apply in_or_app. right. now left.
  - assert (S : split_on 45 f = [a; b]).
    { rewrite E. change (lit "-" ++ b) with (45 :: b). rewrite split_word, split_one; auto. }
    assert (S' : split_on 45 f = [a'; b']).
    { rewrite E'. change (lit "-" ++ b') with (45 :: b'). rewrite split_word, split_one; auto. }
    rewrite S in S'. injection S' as <- <-. apply C33_int in Ha, Ha', Hb, Hb'.
    rewrite Ha in Ha'. rewrite Hb in Hb'. injection Ha' as <-. injection Hb' as <-. auto.
Qed.

Lemma fields_spec fs : forall l, fields_ids fs = Ok l ->
  (forall f, In f fs -> exists lo hi, field_text f lo hi) /\
  forall x, In x l <-> exists f lo hi, In f fs /\ field_text f lo hi /\ lo <= x <= hi.
Proof.
  induction fs as [|f fs IH]; intros l H; cbn in H.
  - injection H as <-. split; [intros f []|]. intros x. split; [intros []|].
    intros (f & lo & hi & [] & _).
  - destruct (field_ids f) as [a|] eqn:Ea; [|discriminate]. cbn in H.
    destruct (fields_ids fs) as [b|] eqn:Eb; [|discriminate]. injection H as <-.
    destruct (IH b eq_refl) as [W M]. destruct (field_spec f a Ea) as (lo & hi & T & Ma).
    split.
    + intros g [<-|Hg]; eauto.
    + intros x. rewrite in_app_iff, M, Ma. split.
      * intros [H|(g & lo' & hi' & Hg & H)].
        -- exists f, lo, hi. split; [now left|auto].
        -- exists g, lo', hi'. split; [now right|auto].
      * intros (g & lo' & hi' & [<-|Hg] & T' & H).
        -- left. destruct (field_unique f lo hi lo' hi' T T') as [-> ->]. exact H.
        -- right. eauto 6.
Qed.

Lemma fields_accepts fs : (forall f, In f fs -> exists lo hi, field_text f lo hi) ->
  exists l, fields_ids fs = Ok l.
Proof.
  induction fs as [|f fs IH]; intros H; [cbn; eauto|]. cbn.
  destruct (H f (or_introl eq_refl)) as (lo & hi & T). destruct (field_accepts f lo hi T) as (a & ->).
  destruct IH as (b & ->); [intros; apply H; now right|]. cbn. eauto.
Qed.

Lemma insert_in x l y : In y (insert x l) <-> y = x \/ In y l.
Proof.
  induction l as [|z l IH]; cbn; [intuition|].
  destruct (x <? z) eqn:E1; [cbn; intuition|].
  destruct (x =? z) eqn:E2; [apply Z.eqb_eq in E2; cbn; intuition lia|].
  cbn. rewrite IH. intuition.
Qed.

Lemma insert_sorted x l : StronglySorted Z.lt l -> StronglySorted Z.lt (insert x l).
Proof.
  induction 1 as [|z l H IH F]; cbn; [repeat constructor|].
  destruct (x <? z) eqn:E1.
  - constructor; [constructor; auto|]. constructor; [lia|]. eapply Forall_impl; [|exact F].
    cbn. intros; lia.
  - destruct (x =? z) eqn:E2; [constructor; auto|]. constructor; auto.
    apply Forall_forall. intros y Hy. apply insert_in in Hy as [->|Hy]; [lia|].
    rewrite Forall_forall in F. auto.
Qed.

Lemma sorted_set_spec l : StronglySorted Z.lt (sorted_set l) /\ forall x, In x (sorted_set l) <-> In x l.
Proof.
  induction l as [|y l [H M]]; cbn; [split; [constructor|tauto]|].
  split; [now apply insert_sorted|]. intros x. rewrite insert_in, M. intuition.
Qed.

(** [comma_fields item fs]: the item is the fields [fs] with commas between them. *)
Inductive comma_fields : list Z -> list (list Z) -> Prop :=
| cf_one f : ~ In 44 f -> comma_fields f [f]
| cf_more f item fs : ~ In 44 f -> comma_fields item fs ->
    comma_fields (f ++ lit "," ++ item) (f :: fs).

Lemma comma_split item fs : comma_fields item fs -> split_on 44 item = fs.
Proof.
  induction 1 as [f H|f item fs H C IH]; [now apply split_one|].
  change (lit "," ++ item) with (44 :: item). rewrite split_word by exact H. now rewrite IH.
Qed.

Lemma comma_exists item : comma_fields item (split_on 44 item).
Proof.
  induction item as [|c item IH]; [constructor; intros []|]. cbn [split_on].
  destruct (c =? 44) eqn:C.
  - apply Z.eqb_eq in C. subst c. change (44 :: item) with ([] ++ lit "," ++ item).
    constructor; [intros []|exact IH].
  - remember (split_on 44 item) as ws eqn:E. destruct IH as [f H|f rest fs H Hr].
    + constructor. intros [Hc|Hc]; [lia|auto].
    + change (c :: f ++ lit "," ++ rest) with ((c :: f) ++ lit "," ++ rest). constructor; auto.
      intros [Hc|Hc]; [lia|auto].
Qed.

(** The ids named by a list of targets. *)
Definition named (targets : list (list Z)) (x : Z) : Prop :=
  exists item fs f lo hi, In item targets /\ comma_fields item fs /\ In f fs /\
    field_text f lo hi /\ lo <= x <= hi.

(** The result is strictly increasing, so sorted and without repetition, and has
    exactly the ids named. *)
Theorem C33_targets : forall targets l, expand_targets targets = Ok l ->
  StronglySorted Z.lt l /\ forall x, In x l <-> named targets x.
Proof.
  intros targets l H. unfold expand_targets in H.
  destruct (fields_ids _) as [r|] eqn:E; [|discriminate]. injection H as <-.
  destruct (sorted_set_spec r) as [S M]. destruct (fields_spec _ _ E) as [_ M'].
  split; auto. intros x. rewrite M, M'. split.
  - intros (f & lo & hi & Hf & T & Hx). apply in_concat in Hf as (fs & Hfs & Hf).
    apply in_map_iff in Hfs as (item & <- & Hi).
    exists item, (split_on 44 item), f, lo, hi. split; auto. split; [apply comma_exists|auto].
  - intros (item & fs & f & lo & hi & Hi & C & Hf & T & Hx). exists f, lo, hi. split; auto.
    apply in_concat. exists fs. split; auto. apply in_map_iff. exists item.
    split; auto. now apply comma_split.
Qed.

(** It is given for well formed lists, and for no others. *)
Theorem C33_accepts : forall targets,
  (exists l, expand_targets targets = Ok l) <->
  (forall item fs f, In item targets -> comma_fields item fs -> In f fs ->
     exists lo hi, field_text f lo hi).
Proof.
  intros targets. unfold expand_targets. split.
  - intros (l & H) item fs f Hi C Hf. destruct (fields_ids _) as [r|] eqn:E; [|discriminate].
    destruct (fields_spec _ _ E) as [W _]. apply W. apply in_concat. exists fs. split; auto.
    apply in_map_iff. exists item. split; auto. now apply comma_split.
  - intros W. destruct (fields_accepts (List.concat (map (split_on 44) targets))) as (r & ->).
    + intros f Hf. apply in_concat in Hf as (fs & Hfs & Hf).
      apply in_map_iff in Hfs as (item & <- & Hi). eapply W; eauto. apply comma_exists.
    + cbn. eauto.
Qed.

Lemma int10_error w e : int10 w = Raise e -> e = ValueError.
Proof.
  unfold int10. destruct (match drop_space w with [] => _ | _ => _ end) as [neg s].
  destruct s as [|c s]; [congruence|]. destruct (digit10 c); [|congruence].
  destruct (digits10 _ _ _) as [[v r]|]; [|congruence]. destruct (drop_space r); congruence.
Qed.

(** The only exception is ValueError. *)
Theorem C33_error : forall targets e, expand_targets targets = Raise e -> e = ValueError.
Proof.
  intros targets e. unfold expand_targets. generalize (List.concat (map (split_on 44) targets)) as fs.
  intros fs H. destruct (fields_ids fs) as [l|e'] eqn:E; [discriminate|]. injection H as <-.
  revert e' E. induction fs as [|f fs IH]; intros e' E; cbn in E; [discriminate|].
  destruct (field_ids f) as [a|e1] eqn:Ef; cbn in E.
  - destruct (fields_ids fs) as [b|e2]; cbn in E; [discriminate|]. injection E as <-. now apply IH.
  - injection E as <-. unfold field_ids in Ef. destruct (existsb _ _).
    + destruct (split_on 45 f) as [|a [|b [|]]]; try congruence.
      destruct (int10 a) eqn:Ea; cbn in Ef; [|injection Ef as <-; now apply int10_error in Ea].
      destruct (int10 b) eqn:Eb; cbn in Ef; [discriminate|]. injection Ef as <-.
      now apply int10_error in Eb.
    + destruct (int10 f) eqn:Ea; cbn in Ef; [discriminate|]. injection Ef as <-.
      now apply int10_error in Ea.
Qed.

Example C33_example : expand_targets [lit "5,1-3"; lit " 2,9"] = Ok [1; 2; 3; 5; 9].
Proof. reflexivity. Qed.
Example C33_example_empty : expand_targets [lit "7-5"] = Ok [].
Proof. reflexivity. Qed.
Example C33_example_bad : expand_targets [lit "1-2-3"] = Raise ValueError /\
  expand_targets [lit "1,"] = Raise ValueError /\ expand_targets [lit "-3"] = Raise ValueError.
Proof. repeat split. Qed.

(** ** C34 *)

(** The number a base64 text denotes. *)
Definition char64 (c : Z) : Z :=
  if (65 <=? c) && (c <=? 90) then c - 65
  else if (97 <=? c) && (c <=? 122) then c - 97 + 26
  else if (48 <=? c) && (c <=? 57) then c - 48 + 52
  else if c =? 43 then 62 else 63.
Definition value64 (w : list Z) : Z := fold_left (fun n c => 64 * n + char64 c) w 0.

Lemma char64_digit d : 0 <= d < 64 -> char64 (nth (Z.to_nat d) base64_digits 0) = d.
Proof.
  intros H.
  assert (A : forallb (fun i => char64 (nth i base64_digits 0) =? Z.of_nat i) (seq 0 64) = true)
    by (vm_compute; reflexivity).
  rewrite forallb_forall in A. specialize (A (Z.to_nat d)).
  rewrite Z.eqb_eq in A. rewrite A by (apply in_seq; lia). lia.
Qed.

Lemma base64_value n : forall s acc, 0 <= s < 64 ^ Z.of_nat n ->
  fold_left (fun n c => 64 * n + char64 c) (base64_loop n s acc) 0 =
  fold_left (fun n c => 64 * n + char64 c) acc s.
Proof.
  induction n as [|n IH]; intros s acc H.
  - cbn in *. now replace s with 0 by lia.
  - rewrite Nat2Z.inj_succ, Z.pow_succ_r in H by lia. cbn [base64_loop].
    set (q := 64 ^ Z.of_nat n) in *. clearbody q.
    rewrite IH by lia. cbn [fold_left]. rewrite char64_digit by lia. f_equal. lia.
Qed.

Lemma serial_number s1 s2 s3 : 0 <= s1 -> 0 <= s2 < 2 ^ 32 -> 0 <= s3 < 2 ^ 32 ->
  Z.lor (Z.lor (Z.shiftl s1 64) (Z.shiftl s2 32)) s3 = s1 * 2 ^ 64 + s2 * 2 ^ 32 + s3.
Proof.
  intros H1 H2 H3. replace (Z.shiftl s1 64) with (Z.shiftl (Z.shiftl s1 32) 32)
    by (rewrite Z.shiftl_shiftl by lia; reflexivity).
  rewrite <- Z.shiftl_lor. rewrite Z.lor_comm, lor_shiftl_add by lia.
  rewrite (Z.lor_comm (Z.shiftl s1 32)), lor_shiftl_add by lia. lia.
Qed.

(** The string has 16 characters and, read as a number in base 64, is the serial
    number. *)
Theorem C34_value : forall s1 s2 s3, 0 <= s1 < 2 ^ 32 -> 0 <= s2 < 2 ^ 32 -> 0 <= s3 < 2 ^ 32 ->
  List.length (base64_serial_number s1 s2 s3) = 16%nat /\
  value64 (base64_serial_number s1 s2 s3) = s1 * 2 ^ 64 + s2 * 2 ^ 32 + s3.
Proof.
  intros s1 s2 s3 H1 H2 H3. split; [reflexivity|]. unfold value64, base64_serial_number.
  rewrite base64_value.
  - cbn [fold_left]. apply serial_number; lia.
  - rewrite serial_number by lia. change (64 ^ Z.of_nat 16) with (2 ^ 96). lia.
Qed.

(** Different serial numbers get different strings. *)
Theorem C34_injective : forall s1 s2 s3 t1 t2 t3,
  0 <= s1 < 2 ^ 32 -> 0 <= s2 < 2 ^ 32 -> 0 <= s3 < 2 ^ 32 ->
  0 <= t1 < 2 ^ 32 -> 0 <= t2 < 2 ^ 32 -> 0 <= t3 < 2 ^ 32 ->
  base64_serial_number s1 s2 s3 = base64_serial_number t1 t2 t3 ->
  s1 = t1 /\ s2 = t2 /\ s3 = t3.
Proof.
  intros s1 s2 s3 t1 t2 t3 H1 H2 H3 H4 H5 H6 E.
  destruct (C34_value s1 s2 s3 H1 H2 H3) as [_ V]. destruct (C34_value t1 t2 t3 H4 H5 H6) as [_ V'].
  rewrite E, V' in V. lia.
Qed.

Lemma loop_chars n : forall s acc, Forall (fun c => In c base64_digits) acc ->
  Forall (fun c => In c base64_digits) (base64_loop n s acc).
Proof.
  induction n as [|n IH]; intros s acc H; auto. cbn [base64_loop]. apply IH. constructor; auto.
  apply nth_In. change (List.length base64_digits) with 64%nat. lia.
Qed.

(** Only the 64 characters of the alphabet occur. *)
Theorem C34_alphabet : forall s1 s2 s3,
  Forall (fun c => In c base64_digits) (base64_serial_number s1 s2 s3).
Proof. intros. apply loop_chars. constructor. Qed.

Example C34_example : base64_serial_number 0x12345678 0x9abcdef0 0x0fedcba9 =
  lit "EjRWeJq83vAP7cup".
Proof. vm_compute. reflexivity. Qed.

Print Assumptions C33_int.
Print Assumptions C33_targets.
Print Assumptions C33_accepts.
Print Assumptions C33_error.
Print Assumptions C34_value.
Print Assumptions C34_injective.
