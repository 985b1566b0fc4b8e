(** C70: a plot of tview shows the values it was asked for. *)
From Coq Require Import Ascii String ZArith List Bool Lia ZifyBool ZifyNat.
From Verif Require Import PyBase PyBytes PyFloat Reader_Model Reader_Spec Props_Reader Config_Proofs Tree_Model Tree_Spec Props_Tree Plot_Model Plot_Spec.
Import ListNotations.
Open Scope Z_scope.

(** *** Reading a value by its name *)

Lemma digits_to_fold s : forall n, Forall (fun c => 48 <= c <= 57) s -> digits_to n s = Some (fold_left (fun n c => 10 * n + digit_value c) s n).
Proof.
  induction s as [|c s IH]; intros n F; [reflexivity|]. inversion F; subst. cbn [digits_to fold_left].
  replace ((48 <=? c) && (c <=? 57)) with true by lia. rewrite IH by assumption. unfold digit_value. replace (c <? 97) with true by lia. reflexivity.
Qed.

Lemma int_of_str n : 0 <= n -> int_of (str_of_Z n) = Some n.
Proof.
  intro N. destruct (C69_numerals n) as (W & _). unfold written in W. replace (n <? 0) with false in W by lia. destruct W as (NE & F & _ & P).
  assert (F' : Forall (fun c => 48 <= c <= 57) (str_of_Z n)).
  { eapply Forall_impl; [|exact F]. intros c (C & D). unfold digit_value in D. destruct (c <? 97) eqn:E; lia. }
  unfold int_of. destruct (str_of_Z n) eqn:E; [congruence|]. rewrite digits_to_fold by exact F'. f_equal. exact P.
Qed.

Definition reads (t : ty) : Prop := no_keyword t -> distinct_names t -> forall label v b q t' x, enc t v b ->
  In (label :: q, t', Some x) (leaves label t v) -> get_data q v = Ok x.

Lemma in_below label (l : list (list str * ty * option value)) p t' x : In (p, t', x) (below label l) -> exists q, p = label :: q /\ In (q, t', x) l.
Proof. intro I. apply in_map_iff in I as ([[q t] y] & E & I). injection E as <- <- <-. exists q. split; [reflexivity|exact I]. Qed.

Lemma heads t label v b : distinct_names t -> ~ In 46 label -> enc t v b -> forall p t' x, In (p, t', x) (leaves label t v) ->
  exists q, p = label :: q /\ Forall (fun l => ~ In 46 l) q.
Proof.
  intros D N E p t' x I. destruct (named_all t label v b D E N) as (_ & F). rewrite Forall_forall in F.
  destruct (F p) as (l & q & -> & <- & Q); [apply in_map_iff; exists (p, t', x); split; [reflexivity|exact I]|]. eauto.
Qed.

Lemma reads_fields fs : Forall (fun f => reads (snd f)) fs -> keyword_free fs -> distinct_fields fs -> NoDup (map (fun f => fi_name (fst f)) fs) ->
  forall attrs pre vs b q t' x, attrs = pre ++ vs -> (forall f, In f fs -> ~ In (fi_name (fst f)) (map fst pre)) ->
  enc_fields fs vs b -> In (q, t', Some x) (leaves_fields fs vs) -> get_data q (VTuple attrs) = Ok x.
Proof.
  induction 1 as [|[i t] fs G F IH]; intros K D ND attrs pre vs b q t' x -> NP E J.
  - apply enc_fields_nil in E. subst. contradiction.
  - cbn [snd] in G. apply enc_fields_cons in E as (v & vs1 & b1 & b2 & -> & Ev & Evs).
    destruct K as (K1 & K2 & K3). destruct D as (D1 & D2 & D3). inversion ND as [|? ? N1 N2]; subst.
    rewrite attribute_plain in * by exact K1. cbn [leaves_fields] in J. apply in_app_or in J as [J|J].
    + destruct (heads t (fi_name i) v b1 D2 D1 Ev _ _ _ J) as (q' & -> & _). cbn [get_data].
      rewrite (assoc_at (fun _ => [])) by exact (NP (i, t) (or_introl eq_refl)). eapply G; eassumption.
    + eapply (IH K3 D3 N2 _ (pre ++ [(fi_name i, v)]) vs1 b2); [rewrite <- app_assoc; reflexivity| |exact Evs|exact J].
      intros f I. rewrite map_app. cbn [map fst]. intro L. apply in_app_or in L. destruct L as [L|[L|[]]].
      * apply (NP f (or_intror I) L).
      * apply N1. apply in_map_iff. exists f. split; [symmetry; exact L|exact I].
Qed.

Lemma reads_list t : reads t -> no_keyword t -> distinct_names t -> forall vs pre b q t' x,
  enc_list t vs b -> In (q, t', Some x) (leaves_list t (length pre) vs) -> get_data q (VList (pre ++ vs)) = Ok x.
Proof.
  intros G K D. induction vs as [|v vs IH]; intros pre b q t' x E J; [contradiction|].
  apply enc_list_cons in E as (b1 & b2 & E1 & E2). cbn [leaves_list] in J. apply in_app_or in J as [J|J].
  - destruct (heads t _ v b1 D (number_no_dot _) E1 _ _ _ J) as (q' & -> & _). cbn [get_data]. rewrite int_of_str by lia.
    rewrite Nat2Z.id, nth_error_app2, Nat.sub_diag by lia. cbn [nth_error]. eapply G; eassumption.
  - replace (pre ++ v :: vs) with ((pre ++ [v]) ++ vs) by (rewrite <- app_assoc; reflexivity). eapply IH; [exact E2|].
    rewrite app_length. cbn [length]. replace (length pre + 1)%nat with (S (length pre)) by lia. exact J.
Qed.

Lemma reads_all t : reads t.
Proof.
  induction t as [t L|f fs IH|nm t items IH|t IH|n t IH|t IH|ts IH] using ty_induction; intros K D label v b q t' x E J.
  - destruct t; try contradiction; destruct J as [J|[]]; injection J as <- _ <-; reflexivity.
  - apply enc_object in E as (vs & -> & E). destruct fs as [|f0 fs]; [destruct J as [J|[]]; discriminate|].
    change (leaves label (TObject f (f0 :: fs)) (VTuple vs)) with (below label (leaves_fields (f0 :: fs) vs)) in J.
    apply in_below in J as (q' & X & J). injection X as <-. destruct D as (D1 & D2).
    eapply (reads_fields (f0 :: fs) IH K D2 D1 vs []); [reflexivity|intros ? _ []|exact E|exact J].
  - destruct J as [J|[]]; injection J as <- _ <-; reflexivity.
  - apply enc_array in E as (vs & b' & -> & E). destruct vs as [|v0 vs]; [destruct J as [J|[]]; discriminate|].
    change (leaves label (TArray t) (VList (v0 :: vs))) with (below label (leaves_list t 0 (v0 :: vs))) in J.
    apply in_below in J as (q' & X & J). injection X as <-. exact (reads_list t IH K D (v0 :: vs) [] b' q _ x E J).
  - apply enc_fixed in E as (vs & -> & _ & E). destruct vs as [|v0 vs]; [destruct J as [J|[]]; discriminate|].
    change (leaves label (TFixedArray n t) (VList (v0 :: vs))) with (below label (leaves_list t 0 (v0 :: vs))) in J.
    apply in_below in J as (q' & X & J). injection X as <-. exact (reads_list t IH K D (v0 :: vs) [] b q _ x E J).
  - destruct J as [J|[]]; injection J as <- _ <-; reflexivity.
  - destruct J as [J|[]]; injection J as <- _ <-; reflexivity.
Qed.

(** *** Keys of signals *)

Lemma not_contained_upto sep s : ~ contains sep s -> upto sep s = s.
Proof.
  induction s as [|c s IH]; intro N; cbn [upto].
  - destruct (startswith sep []); reflexivity.
  - destruct (startswith sep (c :: s)) eqn:E.
    + apply startswith_spec in E as (r & E). destruct N. exists [], r. exact E.
    + f_equal. apply IH. intros (a & b & ->). apply N. exists (c :: a), b. reflexivity.
Qed.
Lemma not_contained_starts sep s : ~ contains sep s -> startswith sep s = false.
Proof.
  intro N. destruct (startswith sep s) eqn:E; [|reflexivity]. apply startswith_spec in E as (r & ->). destruct N. exists [], r. reflexivity.
Qed.
Lemma not_contained_tail sep a s : ~ contains sep (a ++ s) -> ~ contains sep s.
Proof. intros N (x & y & ->). apply N. exists (a ++ x), y. rewrite <- app_assoc. reflexivity. Qed.

Section Plots.
Variable T : Type.
Variable leb : T -> T -> bool.
Variable minus : T -> T -> T.
Variables std mean : list value -> res value.
Hypothesis std_ok : forall l, l <> [] -> Forall number l -> exists x, std l = Ok x.
Hypothesis mean_ok : forall l, l <> [] -> Forall number l -> exists x, mean l = Ok x.
Variable name : str.
Variable t : ty.
Hypothesis no_dot : ~ In 46 name.
Hypothesis described : exists bs, schema name t bs.
Hypothesis plain : no_keyword t.
Variable w0 : T.

Notation step := (plot_step T leb minus std mean).
Notation runs := (plot_runs T leb minus std mean w0).
Notation event := (event T).
Implicit Types es : list event.
Notation fits := (fits T name t).
Notation running := (running T std mean name t).
Notation got := (got T std mean name t).
Notation packets := (packets T).
Notation plots := (plots T).
Notation sample := (sample std mean name t).
Notation trimmed := (trimmed T leb minus).
Notation shown := (shown T).

Lemma t_distinct : distinct_names t.
Proof. destruct described as (bs & S). exact (proj1 schema_distinct _ _ _ S). Qed.

Lemma leaf_read p v b x : enc t v b -> leaf_value name t p v = Some x ->
  exists q, p = name :: q /\ Forall (fun l => ~ In 46 l) q /\ get_data q v = Ok x.
Proof.
  intros E L. unfold leaf_value in L. destruct (find _ _) as [[[p' t'] y]|] eqn:F; [|discriminate]. subst y.
  apply find_some in F as (I & X). cbn [fst] in X. destruct (list_eq_dec (list_eq_dec Z.eq_dec) p' p) as [->|]; [|discriminate].
  destruct (heads t name v b t_distinct no_dot E _ _ _ I) as (q & -> & Q). exists q. split; [reflexivity|]. split; [exact Q|].
  eapply reads_all; [exact plain|exact t_distinct|exact E|exact I].
Qed.

(** A plot is good for the values. *)
Definition good_plot (vs : list value) (pk : list str * kind) : Prop :=
  let '(p, k) := pk in
  (2 <= length p)%nat /\ ~ contains STDDEV (item_name p) /\ ~ contains MEAN (item_name p) /\
  Forall (fun v => exists x, leaf_value name t p v = Some x /\ (k <> Plain -> number x)) vs.

Lemma key_exists vs p k : good_plot vs (p, k) -> exists key, signal_key k p = Ok key.
Proof.
  intros (L & _). destruct p as [|l [|m p]]; [cbn in L; lia|cbn in L; lia|]. unfold signal_key. rewrite item_name_cons.
  assert (X : exists y, split1 46 (l ++ 46 :: item_name (m :: p)) = Some y).
  { induction l as [|c l IH]; [eexists; reflexivity|]. cbn [app split1]. destruct (c =? 46); [eexists; reflexivity|]. destruct IH as (y & ->); [cbn in *; lia|]. eexists. reflexivity. }
  destruct X as ([a b] & ->). eexists. reflexivity.
Qed.

Lemma bind_list_somes q p : forall vs, Forall (fun v => exists x, leaf_value name t p v = Some x /\ get_data q v = Ok x) vs ->
  bind_list (get_data q) vs = Ok (somes (map (leaf_value name t p) vs)).
Proof.
  induction 1 as [|v vs (x & L & G) F IH]; [reflexivity|]. cbn [bind_list map somes]. rewrite G, L. cbn [bind]. rewrite IH. reflexivity.
Qed.

Lemma somes_numbers p vs : Forall (fun v => exists x, leaf_value name t p v = Some x /\ number x) vs ->
  Forall number (somes (map (leaf_value name t p) vs)) /\ (vs <> [] -> somes (map (leaf_value name t p) vs) <> []).
Proof.
  induction 1 as [|v vs (x & L & G) F (IH & _)]; [split; [constructor|congruence]|]. cbn [map somes]. rewrite L. split; [constructor; assumption|discriminate].
Qed.

Lemma last_n_in A n (l : list A) x : In x (last_n n l) -> In x l.
Proof. unfold last_n. intro I. rewrite <- (firstn_skipn (length l - n) l). apply in_or_app. right. exact I. Qed.

Lemma value_sample vs v p k key : Forall (fun v => exists b, enc t v b) (vs ++ [v]) -> good_plot (vs ++ [v]) (p, k) -> signal_key k p = Ok key ->
  exists x, sample p k (vs ++ [v]) = Ok x /\ signal_value std mean (last_n 100 (vs ++ [v])) v key = Ok x.
Proof.
  intros E (L & C1 & C2 & G) K. rewrite Forall_forall in E, G.
  assert (IV : In v (vs ++ [v])) by (apply in_or_app; right; left; reflexivity).
  destruct (E v IV) as (b & Ev). destruct (G v IV) as (x & Lv & Nx). destruct (leaf_read p v b x Ev Lv) as (q & -> & Q & R).
  destruct q as [|m q]; [cbn in L; lia|].
  unfold signal_key in K. rewrite item_name_cons in *. rewrite split1_word in K by exact no_dot.
  set (leaf := item_name (m :: q)) in *.
  assert (C1' : ~ contains STDDEV leaf) by (apply (not_contained_tail _ (name ++ [46])); rewrite <- app_assoc; exact C1).
  assert (C2' : ~ contains MEAN leaf) by (apply (not_contained_tail _ (name ++ [46])); rewrite <- app_assoc; exact C2).
  assert (SP : split_on 46 leaf = m :: q) by (apply split_name; split; [discriminate|exact Q]).
  assert (ALL : Forall (fun v => exists x, leaf_value name t (name :: m :: q) v = Some x /\ get_data (m :: q) v = Ok x) (last_n 100 (vs ++ [v]))).
  { apply Forall_forall. intros u U. apply last_n_in in U. destruct (E u U) as (bu & Eu). destruct (G u U) as (y & Lu & _).
    destruct (leaf_read _ u bu y Eu Lu) as (q' & X & _ & R'). injection X as <-. eauto. }
  assert (NE : last_n 100 (vs ++ [v]) <> []).
  { unfold last_n. intro X. apply (f_equal (@length _)) in X. rewrite skipn_length, app_length in X. cbn [length] in X. lia. }
  unfold signal_value. injection K as <-. destruct k; unfold Plot_Spec.sample.
  - rewrite last_last, Lv. exists x. split; [reflexivity|]. rewrite not_contained_starts, not_contained_starts by assumption. rewrite SP. exact R.
  - assert (NUM : Forall (fun v => exists x, leaf_value name t (name :: m :: q) v = Some x /\ number x) (last_n 100 (vs ++ [v]))).
    { apply Forall_forall. intros u U. apply last_n_in in U. destruct (G u U) as (y & Lu & Ny). exists y. split; [exact Lu|]. apply Ny. discriminate. }
    destruct (somes_numbers _ _ NUM) as (N1 & N2). destruct (std_ok _ (N2 NE) N1) as (y & Y). exists y. split; [exact Y|].
    change (bind (bind_list (get_data (split_on 46 (upto STDDEV leaf))) (last_n 100 (vs ++ [v]))) std = Ok y). rewrite not_contained_upto, SP by assumption.
    rewrite (bind_list_somes _ _ _ ALL). exact Y.
  - assert (NUM : Forall (fun v => exists x, leaf_value name t (name :: m :: q) v = Some x /\ number x) (last_n 100 (vs ++ [v]))).
    { apply Forall_forall. intros u U. apply last_n_in in U. destruct (G u U) as (y & Lu & Ny). exists y. split; [exact Lu|]. apply Ny. discriminate. }
    destruct (somes_numbers _ _ NUM) as (N1 & N2). destruct (mean_ok _ (N2 NE) N1) as (y & Y). exists y. split; [exact Y|].
    change (bind (bind_list (get_data (split_on 46 (upto MEAN leaf))) (last_n 100 (vs ++ [v]))) mean = Ok y). rewrite not_contained_upto, SP by assumption.
    rewrite (bind_list_somes _ _ _ ALL). exact Y.
Qed.

(** *** One sample *)

Notation in_window := (in_window T leb minus).

Lemma combine_app A B (a : list A) (b : list B) a' b' : length a = length b -> combine (a ++ a') (b ++ b') = combine a b ++ combine a' b'.
Proof. revert b. induction a as [|x a IH]; intros [|y b] L; try discriminate; [reflexivity|]. cbn. f_equal. apply IH. cbn in L. lia. Qed.
Lemma combine_skipn A B n : forall (a : list A) (b : list B), combine (skipn n a) (skipn n b) = skipn n (combine a b).
Proof.
  induction n as [|n IH]; intros [|x a] [|y b]; try reflexivity; cbn [skipn combine]; [destruct (skipn n a); reflexivity|apply IH].
Qed.

Lemma oldest_spec o : forall (l : list (T * value)) k,
  match oldest_index T leb o k (map fst l) with
  | None => Forall (fun s => leb o (fst s) = false) l
  | Some i => exists a s b, l = a ++ s :: b /\ i = k + Z.of_nat (length a) - 1 /\ Forall (fun s => leb o (fst s) = false) a /\ leb o (fst s) = true
  end.
Proof.
  induction l as [|x l IH]; intro k; cbn [map oldest_index]; [constructor|]. destruct (leb o (fst x)) eqn:E.
  - exists [], x, l. repeat split; [cbn; lia|constructor|exact E].
  - specialize (IH (k + 1)). destruct (oldest_index _ _ _ _ _).
    + destruct IH as (a & s & b & -> & -> & F & S). exists (x :: a), s, b. repeat split; [cbn [length]; lia|constructor; assumption|exact S].
    + constructor; assumption.
Qed.

Lemma map_fst_combine A B (a : list A) : forall b : list B, length a = length b -> map fst (combine a b) = a.
Proof. induction a as [|x a IH]; intros [|y b] L; try discriminate; [reflexivity|]. cbn. f_equal. apply IH. cbn in L. lia. Qed.

Lemma update_trimmed w now v p : length (p_x T p) = length (p_y T p) ->
  let p' := handle_update T leb minus false w now v p in
  length (p_x T p') = length (p_y T p') /\ p_line T p' = true /\
  trimmed now w (combine (p_x T p) (p_y T p) ++ [(now, v)]) (combine (p_x T p') (p_y T p')).
Proof.
  intros L p'. subst p'. unfold handle_update.
  assert (A : combine (p_x T p ++ [now]) (p_y T p ++ [v]) = combine (p_x T p) (p_y T p) ++ [(now, v)]) by (rewrite combine_app by exact L; reflexivity).
  assert (L2 : length (p_x T p ++ [now]) = length (p_y T p ++ [v])) by (rewrite !app_length; cbn; lia).
  pose proof (oldest_spec (minus now w) (combine (p_x T p ++ [now]) (p_y T p ++ [v])) 0) as O. rewrite map_fst_combine in O by exact L2.
  rewrite <- A. set (x := p_x T p ++ [now]) in *. set (y := p_y T p ++ [v]) in *.
  destruct (oldest_index T leb (minus now w) 0 x) as [i|].
  - destruct O as (a & s & b & E & -> & F & S). destruct (negb _ && _) eqn:C; cbn [p_x p_y p_line].
    + split; [rewrite !skipn_length; lia|]. split; [reflexivity|]. rewrite combine_skipn, E.
      set (n := Z.to_nat (0 + Z.of_nat (length a) - 1)). assert (N : (n + 1 = length a)%nat) by lia.
      exists (firstn n a), (skipn n a), (s :: b). rewrite skipn_app. replace (n - length a)%nat with O by lia. cbn [skipn].
      split; [rewrite app_assoc, firstn_skipn; reflexivity|]. split; [reflexivity|]. split; [rewrite firstn_skipn; exact F|]. split; [discriminate|].
      split; [exact S|]. rewrite skipn_length. lia.
    + split; [exact L2|]. split; [reflexivity|]. rewrite E. exists [], a, (s :: b). repeat split; [exact F|discriminate|exact S|lia].
  - cbn [p_x p_y p_line]. split; [exact L2|]. split; [reflexivity|]. exists [], (combine x y), []. rewrite !app_nil_r. repeat split; [exact O|congruence].
Qed.

Lemma update_paused w now v p : handle_update T leb minus true w now v p = p.
Proof. reflexivity. Qed.

(** *** Signals *)

Lemma nodup_l A (a b : list A) : NoDup (a ++ b) -> NoDup a.
Proof. induction a as [|x a IH]; intro D; [constructor|]. inversion D; subst. constructor; [|apply IH; assumption]. intro I. apply H1. apply in_or_app. left. exact I. Qed.
Lemma nodup_r A (a b : list A) : NoDup (a ++ b) -> NoDup b.
Proof. induction a as [|x a IH]; intro D; [exact D|]. inversion D; subst. apply IH. assumption. Qed.

Definition owner (i : nat) : list (str * list nat) -> option str :=
  fix go l := match l with [] => None | (k, ids) :: l => if existsb (Nat.eqb i) ids then Some k else go l end.
Definition all_ids (l : list (str * list nat)) : list nat := flat_map snd l.

Lemma existsb_in i ids : existsb (Nat.eqb i) ids = true <-> In i ids.
Proof. rewrite existsb_exists. split; [intros (x & I & E); apply Nat.eqb_eq in E; subst; exact I|intro I; exists i; split; [exact I|apply Nat.eqb_refl]]. Qed.

Lemma owner_none i l : owner i l = None <-> ~ In i (all_ids l).
Proof.
  induction l as [|[k ids] l IH]; cbn [owner all_ids flat_map snd]; [split; [intros _ []|reflexivity]|]. fold (all_ids l).
  destruct (existsb (Nat.eqb i) ids) eqn:E.
  - apply existsb_in in E. split; [discriminate|]. intro N. destruct N. apply in_or_app. left. exact E.
  - rewrite IH. rewrite in_app_iff. split; [|tauto]. intros N [I|I]; [|contradiction]. apply existsb_in in I. congruence.
Qed.

Lemma owner_connect key i : forall l, ~ In i (all_ids l) -> forall j, owner j (connect key i l) = if (j =? i)%nat then Some key else owner j l.
Proof.
  induction l as [|[k ids] l IH]; intros N j; cbn [connect].
  - cbn. destruct (j =? i)%nat; reflexivity.
  - cbn [all_ids flat_map snd] in N. fold (all_ids l) in N. rewrite in_app_iff in N. destruct (str_eqb k key) eqn:E.
    + apply str_eqb_eq in E. subst k. cbn [owner]. rewrite existsb_app. cbn [existsb]. rewrite orb_false_r.
      destruct (Nat.eqb_spec j i) as [->|NE]; [rewrite orb_true_r; reflexivity|]. rewrite orb_false_r. reflexivity.
    + cbn [owner]. destruct (existsb (Nat.eqb j) ids) eqn:X.
      * destruct (Nat.eqb_spec j i) as [->|NE]; [|reflexivity]. apply existsb_in in X. tauto.
      * apply IH. tauto.
Qed.

Lemma nodup_connect key i : forall l, ~ In i (all_ids l) -> NoDup (all_ids l) -> NoDup (all_ids (connect key i l)) /\
  (forall j, In j (all_ids (connect key i l)) <-> j = i \/ In j (all_ids l)).
Proof.
  induction l as [|[k ids] l IH]; intros N D; cbn [connect].
  - cbn. split; [repeat constructor; intros []|]. intro j. split; [intros [->|[]]; left; reflexivity|intros [->|[]]; left; reflexivity].
  - cbn [all_ids flat_map snd] in N, D. fold (all_ids l) in N, D. rewrite in_app_iff in N. destruct (str_eqb k key).
    + cbn [all_ids flat_map snd]. fold (all_ids l). split.
      * rewrite <- app_assoc. apply NoDup_Add with (a := i) (l := ids ++ all_ids l); [apply Add_app|]. split; [exact D|]. rewrite in_app_iff. exact N.
      * intro j. rewrite !in_app_iff. cbn. assert (i = j <-> j = i) by (split; congruence). tauto.
    + cbn [all_ids flat_map snd]. fold (all_ids l). fold (all_ids (connect key i l)).
      destruct (IH ltac:(tauto) (nodup_r _ _ _ D)) as (D' & I'). split.
      * apply nodup_app; [exact (nodup_l _ _ _ D)|exact D'|]. intros x X Y. apply I' in Y as [->|Y]; [tauto|].
        clear -D X Y. induction ids as [|a ids IHi]; [contradiction|]. inversion D; subst. destruct X as [->|X]; [apply H1; apply in_or_app; right; exact Y|exact (IHi H2 X)].
      * intro j. rewrite !in_app_iff, I'. tauto.
Qed.

Lemma owner_disconnect i : forall l j, owner j (disconnect i l) = if (j =? i)%nat then None else owner j l.
Proof.
  induction l as [|[k ids] l IH]; intro j; cbn [disconnect map owner]; [destruct (j =? i)%nat; reflexivity|]. fold (disconnect i l). fold owner.
  assert (X : existsb (Nat.eqb j) (filter (fun j => negb (j =? i)%nat) ids) = negb (j =? i)%nat && existsb (Nat.eqb j) ids).
  { clear. induction ids as [|a ids IH]; [rewrite andb_false_r; reflexivity|]. cbn [filter existsb].
    destruct (Nat.eqb_spec j a) as [->|NE].
    - destruct (a =? i)%nat; cbn [negb existsb]; [exact IH|]. rewrite Nat.eqb_refl. reflexivity.
    - destruct (a =? i)%nat; cbn [negb existsb]; [exact IH|]. rewrite IH. destruct (Nat.eqb_spec j a); [congruence|]. reflexivity. }
  rewrite X, IH. destruct (j =? i)%nat; reflexivity.
Qed.

Lemma nodup_disconnect i l : NoDup (all_ids l) -> NoDup (all_ids (disconnect i l)).
Proof.
  assert (X : all_ids (disconnect i l) = filter (fun j => negb (j =? i)%nat) (all_ids l)).
  { induction l as [|[k ids] l IH]; [reflexivity|]. cbn [disconnect map all_ids flat_map snd]. fold (disconnect i l). fold (all_ids (disconnect i l)). fold (all_ids l).
    rewrite IH, filter_app. reflexivity. }
  rewrite X. apply NoDup_filter.
Qed.

Lemma change_nth i f : forall (ps : list (plot T)) j, nth_error (change_plot T i f ps) j = if (j =? i)%nat then option_map f (nth_error ps j) else nth_error ps j.
Proof.
  unfold change_plot. induction i as [|i IH]; intros [|p ps] [|j]; try reflexivity.
  - destruct (S j =? S i)%nat; reflexivity.
  - cbn [nth_error]. rewrite IH. reflexivity.
Qed.

Lemma signal_nth pa w now v : forall ids (ps : list (plot T)), NoDup ids -> forall j,
  nth_error (signal_update T leb minus pa w now v ids ps) j =
  if existsb (Nat.eqb j) ids then option_map (handle_update T leb minus pa w (now j) v) (nth_error ps j) else nth_error ps j.
Proof.
  induction ids as [|i ids IH]; intros ps D j; [reflexivity|]. inversion D; subst. cbn [signal_update existsb]. rewrite IH by assumption. rewrite change_nth.
  destruct (Nat.eqb_spec j i) as [->|NE]; [|reflexivity]. cbn [orb]. destruct (existsb (Nat.eqb i) ids) eqn:X; [apply existsb_in in X; contradiction|reflexivity].
Qed.

Lemma signals_nth pa w now h struct : forall l (ps : list (plot T)), NoDup (all_ids l) ->
  Forall (fun kv => exists v, signal_value std mean h struct (fst kv) = Ok v) l ->
  exists ps', signals_update T leb minus std mean pa w now h struct l ps = (ps', None) /\
    forall j, nth_error ps' j = match owner j l with
                                | Some key => match signal_value std mean h struct key with
                                              | Ok v => option_map (handle_update T leb minus pa w (now j) v) (nth_error ps j)
                                              | Raise _ => None
                                              end
                                | None => nth_error ps j
                                end.
Proof.
  induction l as [|[k ids] l IH]; intros ps D F; [exists ps; split; [reflexivity|intro; reflexivity]|].
  cbn [all_ids flat_map snd] in D. fold (all_ids l) in D. pose proof (Forall_inv F) as (v & V). cbn [fst] in V. cbn [signals_update]. rewrite V.
  destruct (IH (signal_update T leb minus pa w now v ids ps) (nodup_r _ _ _ D) (Forall_inv_tail F)) as (ps' & S & N).
  exists ps'. split; [exact S|]. intro j. rewrite N, (signal_nth pa w now v ids ps (nodup_l _ _ _ D)). cbn [owner]. fold owner.
  destruct (existsb (Nat.eqb j) ids) eqn:X; [|reflexivity]. apply existsb_in in X.
  assert (O : owner j l = None).
  { apply owner_none. intro Y. clear -D X Y. induction ids as [|a ids IHi]; [contradiction|]. inversion D; subst.
    destruct X as [->|X]; [apply H1; apply in_or_app; right; exact Y|exact (IHi H2 X)]. }
  rewrite O, V. reflexivity.
Qed.

(** *** Histories *)

Lemma fits_tail e es : fits (e :: es) -> fits es.
Proof.
  intros (A & B). destruct e; try (split; assumption).
  - cbn [Plot_Spec.packets Plot_Spec.plots] in *. apply Forall_app in A as (A & _). split; [exact A|]. eapply Forall_impl; [|exact B].
    intros [p k] (L & C1 & C2 & F). apply Forall_app in F as (F & _). auto.
  - cbn [Plot_Spec.packets Plot_Spec.plots] in *. apply Forall_app in B as (B & _). split; assumption.
Qed.

Lemma got_packet i v now es : got i (EPacket T v now :: es) =
  if running i es && negb (paused T es) then
    match nth_error (plots es) i with
    | Some (p, k) => match sample p k (packets es ++ [v]) with Ok x => got i es ++ [(now i, x)] | Raise _ => got i es end
    | None => got i es
    end
  else got i es.
Proof. reflexivity. Qed.
Lemma running_plot i p k es : running i (EPlot T p k :: es) = (i =? length (plots es))%nat || running i es.
Proof. reflexivity. Qed.
Lemma running_remove i j es : running i (ERemove T j :: es) = running i es && negb ((i =? j)%nat && negb (length (got i es) =? 0)%nat).
Proof. reflexivity. Qed.

Lemma running_bound i es : running i es = true -> (i < length (plots es))%nat.
Proof.
  induction es as [|[v now|p k|j|b|h] es IH]; intro R; try discriminate; try (apply IH; exact R).
  - rewrite running_plot in R. cbn [Plot_Spec.plots]. rewrite app_length. cbn [length]. apply orb_prop in R as [R|R]; [lia|]. specialize (IH R). lia.
  - rewrite running_remove in R. apply andb_prop in R as (R & _). exact (IH R).
Qed.
Lemma got_bound i es : (length (plots es) <= i)%nat -> got i es = [].
Proof.
  induction es as [|[v now|p k|j|b|h] es IH]; intro R; try reflexivity; try (apply IH; exact R).
  - rewrite got_packet. cbn [Plot_Spec.plots] in R. destruct (running i es) eqn:E; [apply running_bound in E; lia|]. apply IH. exact R.
  - apply IH. cbn [Plot_Spec.plots] in R. rewrite app_length in R. lia.
Qed.

Definition key_at i es : option str :=
  match nth_error (plots es) i with
  | Some (p, k) => match signal_key k p with Ok key => Some key | Raise _ => None end
  | None => None
  end.

Record inv es (s : state T) : Prop := {
  inv_history : s_history T s = last_n 100 (packets es);
  inv_plots : length (s_plots T s) = length (plots es);
  inv_paused : s_paused T s = paused T es;
  inv_window : s_window T s = window T w0 es;
  inv_ids : NoDup (all_ids (s_signals T s));
  inv_owner : forall i, owner i (s_signals T s) = if running i es then key_at i es else None;
  inv_keys : Forall (fun kv => exists p k, In (p, k) (plots es) /\ signal_key k p = Ok (fst kv)) (s_signals T s);
  inv_plot : forall i p, nth_error (s_plots T s) i = Some p ->
    length (p_x T p) = length (p_y T p) /\ p_line T p = negb (length (got i es) =? 0)%nat;
}.

Lemma last_n_step A (l : list A) v : last_n 100 (l ++ [v]) =
  let h := last_n 100 l ++ [v] in if (100 <? length h)%nat then tl h else h.
Proof.
  cbv zeta. unfold last_n. rewrite !app_length, skipn_length. cbn [length]. destruct (Nat.ltb_spec 100 (length l - (length l - 100) + 1)).
  - replace (length l + 1 - 100)%nat with (S (length l - 100)) by lia. set (n := (length l - 100)%nat). assert (N : (n < length l)%nat) by lia. clearbody n.
    clear -N. revert l N. induction n as [|n IH]; intros [|x l] N; cbn in N; try lia; [reflexivity|].
    cbn [app skipn]. rewrite <- (IH l) by lia. reflexivity.
  - replace (length l + 1 - 100)%nat with O by lia. replace (length l - 100)%nat with O by lia. reflexivity.
Qed.

Lemma connect_keys key i l kv : In kv (connect key i l) -> fst kv = key \/ exists ids, In (fst kv, ids) l.
Proof.
  induction l as [|[k ids] l IH]; cbn [connect].
  - intros [<-|[]]. left. reflexivity.
  - destruct (str_eqb k key).
    + intros [<-|I]; right; [exists ids; left; reflexivity|exists (snd kv); right; destruct kv; exact I].
    + intros [<-|I]; [right; exists ids; left; reflexivity|]. destruct (IH I) as [->|(ids' & J)]; [left; reflexivity|right; exists ids'; right; exact J].
Qed.

Lemma packet_step es s v now : inv es s -> fits (EPacket T v now :: es) ->
  exists ps, step s (EPacket T v now) =
    ({| s_history := last_n 100 (packets es ++ [v]); s_signals := s_signals T s; s_plots := ps; s_paused := s_paused T s; s_window := s_window T s |}, None) /\
    (forall i, if running i es
               then exists p k x pl, nth_error (plots es) i = Some (p, k) /\ sample p k (packets es ++ [v]) = Ok x /\ nth_error (s_plots T s) i = Some pl /\
                      nth_error ps i = Some (handle_update T leb minus (paused T es) (window T w0 es) (now i) x pl)
               else nth_error ps i = nth_error (s_plots T s) i).
Proof.
  intros I (F1 & F2). cbn [Plot_Spec.packets Plot_Spec.plots] in F1, F2.
  assert (VAL : forall p k key, In (p, k) (plots es) -> signal_key k p = Ok key ->
     exists x, sample p k (packets es ++ [v]) = Ok x /\ signal_value std mean (last_n 100 (packets es ++ [v])) v key = Ok x).
  { intros p k key J K. rewrite Forall_forall in F2. eapply value_sample; [exact F1|exact (F2 _ J)|exact K]. }
  destruct (signals_nth (s_paused T s) (s_window T s) now (last_n 100 (packets es ++ [v])) v (s_signals T s) (s_plots T s) (inv_ids _ _ I)) as (ps & U & N).
  { eapply Forall_impl; [|exact (inv_keys _ _ I)]. intros kv (p & k & J & K). destruct (VAL p k _ J K) as (x & _ & X). eauto. }
  exists ps. split.
  - cbn [plot_step]. rewrite (inv_history _ _ I). unfold MAX_HISTORY_SIZE. pose proof (last_n_step _ (packets es) v) as H. cbv zeta in H. rewrite <- H, U. reflexivity.
  - intro i. rewrite N, (inv_owner _ _ I). destruct (running i es) eqn:R; [|reflexivity].
    pose proof (running_bound _ _ R) as B. unfold key_at. destruct (nth_error (plots es) i) as [[p k]|] eqn:P; [|apply nth_error_None in P; lia].
    pose proof (nth_error_In _ _ P) as J. assert (G := F2). rewrite Forall_forall in G. destruct (key_exists _ p k (G _ J)) as (key & K).
    destruct (VAL p k key J K) as (x & X1 & X2). rewrite K, X2. rewrite <- (inv_plots _ _ I) in B.
    destruct (nth_error (s_plots T s) i) as [pl|] eqn:PL; [|apply nth_error_None in PL; lia].
    exists p, k, x, pl. rewrite (inv_paused _ _ I), (inv_window _ _ I). auto.
Qed.

Lemma runs_inv es : fits es -> inv es (runs es).
Proof.
  induction es as [|e es IH]; intro F.
  - split; try reflexivity; [constructor|constructor|]. intros [|i] p P; discriminate.
  - specialize (IH (fits_tail _ _ F)). cbn [plot_runs]. destruct e as [v now|p k|j|b|h].
    + destruct (packet_step es (runs es) v now IH F) as (ps & -> & N). cbn [fst].
      assert (RUN : forall i, running i (EPacket T v now :: es) = running i es) by reflexivity.
      assert (PL : forall i, nth_error (s_plots T (runs es)) i = None <-> nth_error ps i = None).
      { intro i. specialize (N i). destruct (running i es); [|rewrite N; tauto]. destruct N as (? & ? & ? & ? & _ & _ & -> & ->). split; discriminate. }
      split; try (apply IH); try reflexivity.
      * change (plots (EPacket T v now :: es)) with (plots es). rewrite <- (inv_plots _ _ IH). cbn [s_plots]. apply Nat.le_antisymm.
        -- apply nth_error_None. apply PL. apply nth_error_None. lia.
        -- apply nth_error_None. apply PL. apply nth_error_None. lia.
      * intros i p P. cbn [s_plots] in P. specialize (N i). rewrite got_packet. destruct (running i es) eqn:R.
        -- destruct N as (q & k & x & pl & P1 & X & P2 & P3). rewrite P3 in P. injection P as <-. rewrite P1, X. cbn [andb].
           destruct (inv_plot _ _ IH i pl P2) as (L & LN). destruct (paused T es); cbn [negb].
           ++ split; assumption.
           ++ destruct (update_trimmed (window T w0 es) (now i) x pl L) as (L' & LN' & _). split; [exact L'|]. rewrite LN', app_length. cbn [length].
              destruct (length (got i es) + 1 =? 0)%nat eqn:Q; [lia|reflexivity].
        -- rewrite N in P. exact (inv_plot _ _ IH i p P).
    + assert (G : good_plot (packets es) (p, k)).
      { destruct F as (_ & F). cbn [Plot_Spec.plots Plot_Spec.packets] in F. apply Forall_app in F as (_ & F). exact (Forall_inv F). }
      destruct (key_exists _ p k G) as (key & K). cbn [plot_step]. rewrite K. cbn [fst].
      assert (NR : forall i, (length (plots es) <= i)%nat -> running i es = false).
      { intros i L. destruct (running i es) eqn:R; [apply running_bound in R; lia|reflexivity]. }
      assert (FR : ~ In (length (s_plots T (runs es))) (all_ids (s_signals T (runs es)))).
      { apply owner_none. rewrite (inv_owner _ _ IH), (inv_plots _ _ IH), NR by lia. reflexivity. }
      destruct (nodup_connect key _ _ FR (inv_ids _ _ IH)) as (D & _).
      split; cbn [s_history s_signals s_plots s_paused s_window]; try (apply IH); try assumption.
      * cbn [Plot_Spec.plots]. rewrite !app_length, (inv_plots _ _ IH). reflexivity.
      * intro i. rewrite (owner_connect key _ _ FR), (inv_owner _ _ IH), running_plot. unfold key_at. cbn [Plot_Spec.plots]. rewrite (inv_plots _ _ IH).
        destruct (Nat.eqb_spec i (length (plots es))) as [->|NE].
        -- cbn [orb]. rewrite nth_error_app2, Nat.sub_diag by lia. cbn [nth_error]. rewrite K. reflexivity.
        -- cbn [orb]. destruct (running i es) eqn:R; [|reflexivity]. rewrite nth_error_app1 by exact (running_bound _ _ R). reflexivity.
      * apply Forall_forall. intros kv J. cbn [Plot_Spec.plots]. destruct (connect_keys _ _ _ _ J) as [E|(ids & J')].
        -- exists p, k. split; [apply in_or_app; right; left; reflexivity|]. rewrite E. exact K.
        -- pose proof (inv_keys _ _ IH) as Q. rewrite Forall_forall in Q. destruct (Q _ J') as (p' & k' & J2 & K2). exists p', k'.
           split; [apply in_or_app; left; exact J2|exact K2].
      * intros i q Q. change (got i (EPlot T p k :: es)) with (got i es). destruct (Nat.lt_ge_cases i (length (s_plots T (runs es)))) as [L|L].
        -- rewrite nth_error_app1 in Q by exact L. exact (inv_plot _ _ IH i q Q).
        -- rewrite nth_error_app2 in Q by exact L. destruct (i - length (s_plots T (runs es)))%nat as [|m]; [|destruct m; discriminate]. injection Q as <-.
           rewrite got_bound by (rewrite <- (inv_plots _ _ IH); exact L). split; reflexivity.
    + cbn [plot_step]. destruct (nth_error (s_plots T (runs es)) j) as [p|] eqn:P.
      * destruct (inv_plot _ _ IH j p P) as (_ & LN). rewrite LN.
        destruct (length (got j es) =? 0)%nat eqn:Z; cbn [negb fst].
        -- split; try (apply IH); intro i; rewrite running_remove, (inv_owner _ _ IH); change (key_at i (ERemove T j :: es)) with (key_at i es).
           destruct (Nat.eqb_spec i j) as [->|NE]; [rewrite Z|]; cbn [andb negb]; rewrite andb_true_r; reflexivity.
        -- split; cbn [s_history s_signals s_plots s_paused s_window]; try (apply IH).
           ++ apply nodup_disconnect. apply IH.
           ++ intro i. rewrite owner_disconnect, (inv_owner _ _ IH), running_remove. change (key_at i (ERemove T j :: es)) with (key_at i es).
              destruct (Nat.eqb_spec i j) as [->|NE]; [rewrite Z|]; cbn [andb negb]; [rewrite andb_false_r|rewrite andb_true_r]; reflexivity.
           ++ unfold disconnect. rewrite Forall_map. eapply Forall_impl; [|exact (inv_keys _ _ IH)]. intros [key ids]. exact (fun x => x).
      * cbn [fst]. split; try (apply IH); intro i; rewrite running_remove, (inv_owner _ _ IH); change (key_at i (ERemove T j :: es)) with (key_at i es).
        destruct (Nat.eqb_spec i j) as [->|NE]; [|cbn [andb negb]; rewrite andb_true_r; reflexivity].
        apply nth_error_None in P. rewrite (inv_plots _ _ IH) in P. destruct (running j es) eqn:R; [apply running_bound in R; lia|reflexivity].
    + cbn [plot_step fst]. split; cbn [s_history s_signals s_plots s_paused s_window]; try (apply IH). reflexivity.
    + cbn [plot_step fst]. split; cbn [s_history s_signals s_plots s_paused s_window]; try (apply IH). reflexivity.
Qed.

(** No packet leads to an exception. *)
Theorem C70_no_error : forall es v now, fits (EPacket T v now :: es) -> snd (step (runs es) (EPacket T v now)) = None.
Proof. intros es v now F. destruct (packet_step es (runs es) v now (runs_inv es (fits_tail _ _ F)) F) as (ps & -> & _). reflexivity. Qed.

(** A packet adds the value it should to each plot that is there, unless paused, and only samples
    before the window are taken away.  Nothing else changes what a plot shows. *)
Theorem C70_step : forall es e i, fits (e :: es) ->
  match e with
  | EPacket _ v now =>
      if running i es && negb (paused T es) then
        exists p k x, nth_error (plots es) i = Some (p, k) /\ sample p k (packets es ++ [v]) = Ok x /\
          trimmed (now i) (window T w0 es) (shown i (runs es) ++ [(now i, x)]) (shown i (runs (e :: es)))
      else shown i (runs (e :: es)) = shown i (runs es)
  | _ => shown i (runs (e :: es)) = shown i (runs es)
  end.
Proof.
  intros es e i F. pose proof (runs_inv es (fits_tail _ _ F)) as I. destruct e as [v now|p k|j|b|h]; try reflexivity.
  - cbn [plot_runs]. destruct (packet_step es (runs es) v now I F) as (ps & -> & N). specialize (N i). unfold Plot_Spec.shown. cbn [fst s_plots].
    destruct (running i es).
    + destruct N as (p & k & x & pl & P & X & P1 & P2). rewrite P1, P2. destruct (paused T es); cbn [andb negb]; [reflexivity|].
      exists p, k, x. split; [exact P|]. split; [exact X|]. apply update_trimmed. exact (proj1 (inv_plot _ _ I i pl P1)).
    + cbn [andb]. rewrite N. reflexivity.
  - cbn [plot_runs plot_step]. destruct (signal_key k p); [|reflexivity]. unfold Plot_Spec.shown. cbn [fst s_plots].
    destruct (Nat.lt_ge_cases i (length (s_plots T (runs es)))) as [L|L].
    + rewrite nth_error_app1 by exact L. reflexivity.
    + rewrite nth_error_app2 by exact L. rewrite (proj2 (nth_error_None (s_plots T (runs es)) i)) by exact L.
      destruct (i - length (s_plots T (runs es)))%nat as [|m]; [reflexivity|destruct m; reflexivity].
  - cbn [plot_runs plot_step]. destruct (nth_error (s_plots T (runs es)) j) as [p|]; [|reflexivity]. destruct (p_line T p); reflexivity.
Qed.

(** What a plot shows is the end of what it should have got. *)
Theorem C70_samples : forall es i, fits es -> exists dropped, got i es = dropped ++ shown i (runs es).
Proof.
  induction es as [|e es IH]; intros i F.
  - exists []. destruct i; reflexivity.
  - destruct (IH i (fits_tail _ _ F)) as (d & D). pose proof (C70_step es e i F) as S. destruct e as [v now|p k|j|b|h]; try (rewrite S; exists d; exact D).
    rewrite got_packet. destruct (running i es && negb (paused T es)) eqn:R; [|rewrite S; exists d; exact D].
    destruct S as (p & k & x & P & X & (dr & old & rest & E & _)). rewrite P, X, D. exists (d ++ dr). rewrite <- !app_assoc, E. reflexivity.
Qed.

(** With a clock that does not go back and a window that stays as it is: a plot shows all of its
    samples in the window, and at most two before it. *)
Theorem C70_window : 
  (forall a b c, leb a b = true -> leb b c = true -> leb a c = true) ->
  (forall a b, leb a b = true -> leb (minus a w0) (minus b w0) = true) ->
  (forall a, leb (minus a w0) a = true) ->
  forall es i, fits es -> (forall h, ~ In (EWindow T h) es) ->
  (forall a x y b, got i es = a ++ x :: y :: b -> leb (fst x) (fst y) = true) ->
  forall l now x, got i es = l ++ [(now, x)] -> trimmed now w0 (got i es) (shown i (runs es)).
Proof.
  intros TR MO PO es i F W C.
  assert (H : got i es = [] \/ exists l now x, got i es = l ++ [(now, x)] /\ trimmed now w0 (got i es) (shown i (runs es))).
  { induction es as [|e es IH]; [left; reflexivity|].
    assert (W' : forall h, ~ In (EWindow T h) es) by (intros h J; apply (W h); right; exact J).
    assert (WW : window T w0 es = w0).
    { clear -W'. induction es as [|e es IH]; [reflexivity|]. destruct e; cbn [window]; try (apply IH; intros h J; apply (W' h); right; exact J). destruct (W' history_s); left; reflexivity. }
    pose proof (C70_step es e i F) as S.
    destruct e as [v now|p k|j|b|h]; try (rewrite S; apply (IH (fits_tail _ _ F) W' C)).
    rewrite got_packet in *. destruct (running i es && negb (paused T es)) eqn:R; [|rewrite S; apply (IH (fits_tail _ _ F) W' C)].
    destruct S as (p & k & x & P & X & S). rewrite P, X in *. rewrite WW in S. right. exists (got i es), (now i), x. split; [reflexivity|].
    assert (C' : forall a x y b, got i es = a ++ x :: y :: b -> leb (fst x) (fst y) = true).
    { intros a y z b E. apply (C a y z (b ++ [(now i, x)])). rewrite E, <- app_assoc. reflexivity. }
    assert (LAST : forall old rest all sh, all = old ++ rest -> Forall (fun s => in_window (now i) w0 s = false) old -> all = sh ++ [(now i, x)] -> rest <> []).
    { intros old rest all sh E O A N. subst rest. rewrite app_nil_r in E. subst old. rewrite A in O. apply Forall_app in O as (_ & O). apply Forall_inv in O.
      unfold Plot_Spec.in_window in O. cbn [fst] in O. rewrite PO in O. discriminate. }
    destruct S as (dr & old & rest & E & SH & O & _ & Q).
    destruct (IH (fits_tail _ _ F) W' C') as [N|(l & now1 & x1 & G & (dr1 & old1 & rest1 & E1 & SH1 & O1 & _ & Q1))].
    - destruct (C70_samples es i (fits_tail _ _ F)) as (d & D). rewrite N in D. symmetry in D. apply app_eq_nil in D as (_ & D). rewrite N. rewrite D in E.
      exists dr, old, rest. split; [exact E|]. split; [exact SH|]. split; [exact O|]. split; [intros _|exact Q].
      apply (LAST (dr ++ old) rest (dr ++ old ++ rest) []); [apply app_assoc|exact O|rewrite <- SH, <- E; reflexivity].
    - exists (dr1 ++ dr), old, rest. split; [rewrite E1, <- !app_assoc, E; reflexivity|]. split; [exact SH|].
      assert (LE : leb now1 (now i) = true).
      { apply (C l (now1, x1) (now i, x) []). rewrite G, <- app_assoc. reflexivity. }
      split; [|split; [intros _|exact Q]].
      + rewrite <- app_assoc. apply Forall_app. split; [|exact O]. apply Forall_app in O1 as (O1 & _). eapply Forall_impl; [|exact O1].
        intros a A. unfold Plot_Spec.in_window in *. destruct (leb (minus (now i) w0) (fst a)) eqn:B; [|reflexivity].
        rewrite (TR _ _ _ (MO _ _ LE) B) in A. discriminate.
      + apply (LAST (dr ++ old) rest (dr ++ old ++ rest) (shown i (runs es))); [apply app_assoc|exact O|rewrite <- SH; symmetry; exact E]. }
  intros l now x G. destruct H as [H|(l' & now' & x' & G' & H)]; [rewrite H in G; destruct l; discriminate|].
  rewrite G' in G. apply app_inj_tail in G as (_ & G). injection G as <- <-. exact H.
Qed.

End Plots.

(** ** The theorems apply *)

Definition ex_mean (l : list value) : res value := Ok (VInt (Z.of_nat (length l))).
Definition ex_packet (now a : Z) : event Z := EPacket Z (ex_value 1 (Some (lit "kFault")) true a 7) (fun _ => now).
Definition ex_path : list str := [lit "motor"; lit "gain"; lit "0"].
Definition ex_runs := plot_runs Z Z.leb Z.sub ex_mean ex_mean.
(** The latest event first *)
Definition ex_events : list (event Z) :=
  [ex_packet 9 60; ERemove Z 1; ex_packet 8 50; EPause Z false; ex_packet 7 40; EPause Z true; ex_packet 3 30; ex_packet 2 20;
   EPlot Z ex_path Mean; ex_packet 1 10; EPlot Z ex_path Plain].

Example C70_ex_hypotheses :
  (forall l, l <> [] -> Forall number l -> exists x, ex_mean l = Ok x) /\ ~ In 46 (lit "motor") /\
  (exists bs, schema (lit "motor") ex_ty bs) /\ no_keyword ex_ty /\ fits Z (lit "motor") ex_ty ex_events.
Proof.
  split; [intros; eexists; reflexivity|]. split; [cbn; intros J; repeat (destruct J as [J|J]; [discriminate|]); exact J|].
  split; [apply C69_ex_schema|]. split; [apply C69_ex_schema|]. split.
  - cbn [ex_events packets ex_packet app].
    assert (V : forall a, 0 <= a < 256 -> exists b, enc ex_ty (ex_value 1 (Some (lit "kFault")) true a 7) b).
    { intros a A. apply C69_ex_value; try lia. exists [(lit "kStopped", 0)], [(lit "kOff", 0)]. split; [reflexivity|]. cbn. intros [|[]]. discriminate. }
    repeat constructor; apply V; lia.
  - assert (NC : forall sep, sep = STDDEV \/ sep = MEAN -> ~ contains sep (item_name ex_path)).
    { intros sep S (a & b & E). assert (I : In 95 (item_name ex_path)) by (rewrite E; apply in_or_app; right; destruct S as [-> | ->]; left; reflexivity).
      vm_compute in I. repeat (destruct I as [I|I]; [discriminate|]). exact I. }
    cbn [ex_events plots ex_packet app]. repeat constructor; try (apply NC; auto); cbn [packets ex_packet app];
      repeat constructor; (eexists; split; [vm_compute; reflexivity|intros _; exact I]).
Qed.

(** Plot 0 has the values that came while tview was not paused, within 5 and the one before; plot 1,
    of means, was removed. *)
Example C70_ex :
  shown Z 0 (ex_runs 5 ex_events) = [(3, VInt 30); (8, VInt 50); (9, VInt 60)] /\
  got Z ex_mean ex_mean (lit "motor") ex_ty 0 ex_events = [(1, VInt 10); (2, VInt 20); (3, VInt 30); (8, VInt 50); (9, VInt 60)] /\
  shown Z 1 (ex_runs 5 ex_events) = [(2, VInt 2); (3, VInt 3); (8, VInt 5)].
Proof. vm_compute. repeat split. Qed.

(** ** What does not hold *)

(** "until there is at most one before the window" *)
Theorem C70_one_refuted : exists es now x l s1 s2,
  fits Z (lit "motor") ex_ty es /\
  got Z ex_mean ex_mean (lit "motor") ex_ty 0 es = l ++ [(now, x)] /\
  shown Z 0 (ex_runs 5 es) = [s1; s2; (now, x)] /\ in_window Z Z.leb Z.sub now 5 s1 = false /\ in_window Z Z.leb Z.sub now 5 s2 = false.
Proof.
  exists [ex_packet 9 60; ex_packet 2 20; ex_packet 1 10; EPlot Z ex_path Plain], 9, (VInt 60), [(1, VInt 10); (2, VInt 20)], (1, VInt 10), (2, VInt 20).
  split; [|vm_compute; repeat split].
  destruct C70_ex_hypotheses as (_ & _ & _ & _ & F1 & F2). split.
  - cbn [ex_events packets ex_packet app] in *. rewrite Forall_forall in F1. apply Forall_forall. intros v V. apply F1. cbn in V |- *. tauto.
  - cbn [ex_events plots ex_packet app packets] in *. constructor; [|constructor]. apply Forall_inv in F2. destruct F2 as (A & B & C & D). repeat split; try assumption.
    rewrite Forall_forall in D. apply Forall_forall. intros v V. destruct (D v) as (y & Y & _); [cbn in V |- *; tauto|]. exists y. split; [exact Y|congruence].
Qed.

(** A plot removed before anything arrived stays, and goes on. *)
Theorem C70_remove_refuted :
  snd (plot_step Z Z.leb Z.sub ex_mean ex_mean (ex_runs 5 [EPlot Z ex_path Plain]) (ERemove Z 0)) = Some AttributeError /\
  shown Z 0 (ex_runs 5 [ex_packet 1 10; ERemove Z 0; EPlot Z ex_path Plain]) = [(1, VInt 10)].
Proof. vm_compute. split; reflexivity. Qed.

(** An array that becomes shorter than a plot needs: other plots do not get the value. *)
Theorem C70_shorter_refuted :
  let t := TObject 0 [plain_field (lit "n") (TUInt 1); plain_field (lit "a") (TArray (TUInt 1))] in
  let v n a := VTuple [(lit "n", VInt n); (lit "a", VList a)] in
  let es := [EPlot Z [lit "r"; lit "n"] Plain; EPlot Z [lit "r"; lit "a"; lit "1"] Plain; EPacket Z (v 1 [VInt 5; VInt 6]) (fun _ => 1)] in
  (exists bs, schema (lit "r") t bs) /\ (exists b, enc t (v 2 [VInt 7]) b) /\
  leaf_value (lit "r") t [lit "r"; lit "n"] (v 2 [VInt 7]) = Some (VInt 2) /\
  plot_step Z Z.leb Z.sub ex_mean ex_mean (ex_runs 5 es) (EPacket Z (v 2 [VInt 7]) (fun _ => 2)) =
    (ex_runs 5 (EPacket Z (v 2 [VInt 7]) (fun _ => 2) :: es), Some IndexError) /\
  shown Z 1 (ex_runs 5 (EPacket Z (v 2 [VInt 7]) (fun _ => 2) :: es)) = [].
Proof.
  cbv zeta. split; [|split; [|vm_compute; repeat split]].
  - eexists. apply s_object; [apply small_uint; lia|apply small_uint; lia| |].
    + apply small_field; try discriminate; [repeat split|repeat constructor; discriminate|cbn; lia|apply s_uint; [apply small_uint; lia|left; reflexivity]|].
      apply small_field; try discriminate; [repeat split|repeat constructor; discriminate|cbn; lia| |apply sf_nil].
      apply s_array; [apply small_uint; lia|apply s_uint; [apply small_uint; lia|left; reflexivity]].
    + cbn. repeat constructor; cbn; intros J; repeat (destruct J as [J|J]; [discriminate|]); exact J.
  - eexists. apply e_object. change (lit "n") with (attribute (lit "n")) at 2. change (lit "a") with (attribute (lit "a")) at 2.
    apply (ef_cons (fst (plain_field (lit "n") (TUInt 1)))); [discriminate|discriminate|apply small_enc; lia|].
    apply (ef_cons (fst (plain_field (lit "a") (TArray (TUInt 1))))); [discriminate|discriminate| |apply ef_nil].
    apply e_array; [apply small_uint; cbn; lia|]. apply el_cons; [apply small_enc; lia|apply el_nil].
Qed.

(** A name that contains the mark of deviations cannot be plotted as one. *)
Theorem C70_mark_refuted :
  let t := TObject 0 [plain_field (lit "a__STDDEV_b") (TUInt 1)] in
  let v n := VTuple [(lit "a__STDDEV_b", VInt n)] in
  (exists bs, schema (lit "r") t bs) /\ (exists b, enc t (v 2) b) /\
  snd (plot_step Z Z.leb Z.sub ex_mean ex_mean (ex_runs 5 [EPlot Z [lit "r"; lit "a__STDDEV_b"] StdDev]) (EPacket Z (v 2) (fun _ => 2))) = Some AttributeError.
Proof.
  cbv zeta. split; [|split; [|vm_compute; reflexivity]].
  - eexists. apply s_object; [apply small_uint; lia|apply small_uint; lia| |].
    + apply small_field; try discriminate; [repeat split|repeat constructor; discriminate|cbn; lia|apply s_uint; [apply small_uint; lia|left; reflexivity]|apply sf_nil].
    + cbn. repeat constructor. intros [].
  - eexists. apply e_object. change (lit "a__STDDEV_b") with (attribute (lit "a__STDDEV_b")) at 2.
    apply (ef_cons (fst (plain_field (lit "a__STDDEV_b") (TUInt 1)))); [discriminate|discriminate|apply small_enc; lia|apply ef_nil].
Qed.

Print Assumptions C70_no_error.
Print Assumptions C70_step.
Print Assumptions C70_samples.
Print Assumptions C70_window.
Print Assumptions C70_one_refuted.
Print Assumptions C70_remove_refuted.
Print Assumptions C70_shorter_refuted.
Print Assumptions C70_mark_refuted.
