(** C68: what tview does with a line the user enters. *)
From Coq Require Import Ascii String ZArith List Bool Lia ZifyBool ZifyNat.
From Verif Require Import PyBase PyBytes Userline_Model Userline_Spec.
Import ListNotations.
Open Scope Z_scope.

(** *** Splitting *)

Lemma split_amp_head : forall p acc r, amp_free p = true -> split_amp acc (p ++ 38 :: 38 :: r) = (acc ++ p) :: split_amp [] r.
Proof.
  intro p. induction p as [|c p IH]; intros acc r A.
  - cbn. rewrite app_nil_r. reflexivity.
  - destruct (Z.eq_dec c 38) as [->|C].
    + destruct p as [|c2 p]; [discriminate|]. destruct (Z.eq_dec c2 38) as [->|C2]; [discriminate|].
      assert (A2 : amp_free (c2 :: p) = true).
      { revert A. clear - C2. cbn. destruct c2 as [|q|q]; auto. do 6 (destruct q as [q|q|]; auto); try (exfalso; apply C2; reflexivity). }
      specialize (IH (acc ++ [38]) r A2). rewrite <- app_assoc in IH; cbn [app] in IH; rewrite <- IH. clear - C2.
      cbn. destruct c2 as [|q|q]; auto. do 6 (destruct q as [q|q|]; auto); try (exfalso; apply C2; reflexivity).
    + assert (A2 : amp_free p = true).
      { revert A. clear - C. cbn. destruct c as [|q|q]; auto. do 6 (destruct q as [q|q|]; auto); try (exfalso; apply C; reflexivity). }
      specialize (IH (acc ++ [c]) r A2). rewrite <- app_assoc in IH; cbn [app] in IH; rewrite <- IH. clear - C.
      cbn. destruct c as [|q|q]; auto. do 6 (destruct q as [q|q|]; auto); try (exfalso; apply C; reflexivity).
Qed.

Lemma split_amp_last : forall p acc, amp_free p = true -> split_amp acc p = [acc ++ p].
Proof.
  intro p. induction p as [|c p IH]; intros acc A.
  - cbn. rewrite app_nil_r. reflexivity.
  - destruct (Z.eq_dec c 38) as [->|C].
    + destruct p as [|c2 p]; [discriminate|]. destruct (Z.eq_dec c2 38) as [->|C2]; [discriminate|].
      assert (A2 : amp_free (c2 :: p) = true).
      { revert A. clear - C2. cbn. destruct c2 as [|q|q]; auto. do 6 (destruct q as [q|q|]; auto); try (exfalso; apply C2; reflexivity). }
      specialize (IH (acc ++ [38]) A2). rewrite <- app_assoc in IH; cbn [app] in IH; rewrite <- IH. clear - C2.
      cbn. destruct c2 as [|q|q]; auto. do 6 (destruct q as [q|q|]; auto); try (exfalso; apply C2; reflexivity).
    + assert (A2 : amp_free p = true).
      { revert A. clear - C. cbn. destruct c as [|q|q]; auto. do 6 (destruct q as [q|q|]; auto); try (exfalso; apply C; reflexivity). }
      specialize (IH (acc ++ [c]) A2). rewrite <- app_assoc in IH; cbn [app] in IH; rewrite <- IH. clear - C.
      cbn. destruct c as [|q|q]; auto. do 6 (destruct q as [q|q|]; auto); try (exfalso; apply C; reflexivity).
Qed.

Lemma amp_cons : forall c l, c <> 38 -> amp_free (c :: l) = amp_free l.
Proof.
  intros c l C. cbn. destruct c as [|q|q]; auto. do 6 (destruct q as [q|q|]; auto); try (exfalso; apply C; reflexivity).
Qed.
Lemma amp_app_l : forall a b, Forall (fun c => c <> 38) a -> amp_free (a ++ b) = amp_free b.
Proof. intros a b F. induction F as [|c a C F IH]; [reflexivity|]. cbn [app]. rewrite amp_cons by exact C. exact IH. Qed.
Lemma amp_app_r : forall a b, amp_free a = true -> Forall (fun c => c <> 38) b -> amp_free (a ++ b) = true.
Proof.
  intros a b A F. induction a as [|c a IH].
  - cbn [app]. rewrite <- (app_nil_r b). rewrite amp_app_l by exact F. reflexivity.
  - destruct (Z.eq_dec c 38) as [->|C].
    + destruct a as [|c2 a]; [discriminate|]. destruct (Z.eq_dec c2 38) as [->|C2]; [discriminate|].
      assert (E : forall t, amp_free (38 :: c2 :: t) = amp_free (c2 :: t)).
      { intro t. cbn. destruct c2 as [|q|q]; auto. do 6 (destruct q as [q|q|]; auto); try (exfalso; apply C2; reflexivity). }
      cbn [app]. rewrite E. apply IH. rewrite <- E. exact A.
    + cbn [app]. rewrite amp_cons in * by exact C. apply IH. exact A.
Qed.

(** *** Commands *)

Section Commands.
Variable u : unicode.
Hypothesis sane : sensible u.

Lemma printable_space : forall c, 33 <= c <= 126 -> u_space u c = false.
Proof. exact (proj2 sane). Qed.
Lemma digit_value : forall c, 48 <= c <= 57 -> u_digit u c = Some (c - 48).
Proof. intros c C. rewrite (proj1 sane) by lia. replace (_ && _) with true by lia. reflexivity. Qed.
Lemma not_digit : forall c, 0 <= c <= 255 -> ~ 48 <= c <= 57 -> is_digit u c = false.
Proof. intros c C D. unfold is_digit. rewrite (proj1 sane) by lia. replace (_ && _) with false by lia. reflexivity. Qed.

Lemma blanks_no_amp : forall l, blanks u l -> Forall (fun c => c <> 38) l.
Proof.
  intros l B. eapply Forall_impl; [|exact B]. intros c C ->. rewrite printable_space in C by lia. discriminate.
Qed.

Lemma drop_blanks : forall a l, blanks u a -> drop u (a ++ l) = drop u l.
Proof. intros a l B. induction B as [|c a C B IH]; [reflexivity|]. cbn. rewrite C. exact IH. Qed.

Lemma drop_core : forall l, (l = [] \/ u_space u (hd 0 l) = false) -> drop u l = l.
Proof. intros [|c l] [H|H]; try reflexivity; try discriminate. cbn in *. rewrite H. reflexivity. Qed.

Lemma strip_core : forall a l b, blanks u a -> blanks u b ->
  (l = [] \/ (u_space u (hd 0 l) = false /\ u_space u (last l 0) = false)) -> strip u (a ++ l ++ b) = l.
Proof.
  intros a l b A B C. unfold strip. rewrite drop_blanks by exact A.
  assert (RB : blanks u (rev b)) by (apply Forall_rev; exact B).
  destruct l as [|c l].
  - cbn [app]. rewrite <- (app_nil_r b), drop_blanks by exact B. reflexivity.
  - destruct C as [C|(C1 & C2)]; [discriminate|]. rewrite (drop_core ((c :: l) ++ b)) by (right; exact C1).
    rewrite rev_app_distr, drop_blanks by exact RB. rewrite drop_core; [apply rev_involutive|]. right. clear C1.
    destruct (exists_last (l := c :: l)) as (l' & x & E); [discriminate|]. rewrite E in *. rewrite rev_app_distr. cbn.
    rewrite last_last in C2. exact C2.
Qed.

Lemma span_all : forall ds r, Forall (fun c => 48 <= c <= 57) ds ->
  (r = [] \/ is_digit u (hd 0 r) = false) -> span_digits u (ds ++ r) = (ds, r).
Proof.
  intros ds r F H. induction F as [|c ds C F IH].
  - destruct r as [|c r]; [reflexivity|]. destruct H as [H|H]; [discriminate|]. cbn in *. rewrite H. reflexivity.
  - cbn. unfold is_digit at 1. rewrite digit_value by exact C. rewrite IH. reflexivity.
Qed.

Lemma span_spec : forall l a b, span_digits u l = (a, b) ->
  l = a ++ b /\ Forall (fun c => u_digit u c <> None) a /\ (b = [] \/ is_digit u (hd 0 b) = false).
Proof.
  induction l as [|c l IH]; intros a b H.
  - injection H as <- <-. auto.
  - cbn in H. destruct (is_digit u c) eqn:D.
    + destruct (span_digits u l) as (x & y) eqn:S. injection H as <- <-. destruct (IH _ _ eq_refl) as (E & F & G).
      split; [cbn; congruence|]. split; [|exact G]. constructor; [|exact F]. unfold is_digit in D. destruct (u_digit u c); congruence.
    + injection H as <- <-. auto.
Qed.

Lemma number_decimal : forall ds, Forall (fun c => 48 <= c <= 57) ds -> number_of u ds = decimal ds.
Proof.
  intros ds F. unfold number_of, decimal.
  assert (A : forall n, fold_left (fun n c => 10 * n + match u_digit u c with Some d => d | None => 0 end) ds n =
    fold_left (fun n c => 10 * n + (c - 48)) ds n).
  { induction F as [|c ds C F IH]; intro n; [reflexivity|]. cbn [fold_left]. rewrite digit_value by exact C. apply IH. }
  apply A.
Qed.

Lemma dot_star_plain : forall t, ~ In 10 t -> dot_star t = Some t.
Proof.
  induction t as [|c t IH]; intro N; [reflexivity|].
  assert (C : c <> 10) by (intros ->; apply N; left; reflexivity).
  assert (E : dot_star (c :: t) = option_map (cons c) (dot_star t)).
  { cbn. destruct c as [|q|q]; auto. do 4 (destruct q as [q|q|]; auto); try (exfalso; apply C; reflexivity). }
  rewrite E, IH; [reflexivity|]. intro I. apply N. right. exact I.
Qed.

Lemma digits_head : forall ds, digits ds -> exists c r, ds = c :: r /\ 48 <= c <= 57.
Proof. intros ds (N & F). destruct F as [|c r C F]; [congruence|]. eauto. Qed.

Lemma delay_ok : forall ds, digits ds -> traj_re u (58 :: ds) = None /\ delay_re u (58 :: ds) = Some ds.
Proof.
  intros ds (N & F). split; [reflexivity|]. cbn. rewrite <- (app_nil_r ds) at 1. rewrite span_all by auto.
  destruct ds; [congruence|]. reflexivity.
Qed.

Lemma until_ok : forall ds, digits ds -> traj_re u (63 :: ds) = Some (Some ds).
Proof.
  intros ds (N & F). cbn. rewrite <- (app_nil_r ds) at 1. rewrite span_all by auto.
  destruct ds; [congruence|]. reflexivity.
Qed.

Lemma all_ok : forall pad t, blanks u pad -> tidy u t -> let c := [65; 62] ++ pad ++ t in
  traj_re u c = None /\ delay_re u c = None /\ device_re u c = Some (None, t).
Proof.
  intros pad t B (_ & N & T) c. subst c. split; [reflexivity|]. split; [reflexivity|]. cbn. rewrite drop_blanks by exact B.
  rewrite drop_core by tauto. rewrite dot_star_plain by exact N. reflexivity.
Qed.

Lemma one_ok : forall ds pad t, digits ds -> blanks u pad -> tidy u t -> let c := ds ++ [62] ++ pad ++ t in
  traj_re u c = None /\ delay_re u c = None /\ device_re u c = Some (Some ds, t).
Proof.
  intros ds pad t D B (_ & N & T) c. subst c.
  assert (S : span_digits u (ds ++ [62] ++ pad ++ t) = (ds, 62 :: pad ++ t)).
  { apply span_all; [exact (proj2 D)|]. right. apply not_digit; cbn; lia. }
  destruct (digits_head ds D) as (d & r & -> & C).
  assert (X : device_re u ((d :: r) ++ [62] ++ pad ++ t) = match span_digits u ((d :: r) ++ [62] ++ pad ++ t) with
         | ([], _) => None
         | (ds, 62 :: rest) => option_map (fun t => (Some ds, t)) (dot_star (drop u rest))
         | _ => None end).
  { cbn. destruct d as [|q|q]; auto. do 7 (destruct q as [q|q|]; auto; try lia). }
  rewrite X, S. rewrite drop_blanks by exact B. rewrite drop_core by tauto. rewrite dot_star_plain by exact N.
  split; [|split; [|reflexivity]].
  - cbn. destruct d as [|q|q]; auto. do 6 (destruct q as [q|q|]; auto; try lia).
  - cbn. destruct d as [|q|q]; auto. do 6 (destruct q as [q|q|]; auto; try lia).
Qed.

Lemma at_end_plain : forall l, ~ In 10 l -> at_end l = true -> l = [].
Proof.
  intros [|c l] N A; [reflexivity|]. exfalso. cbn in A.
  destruct c as [|q|q]; try discriminate. do 4 (destruct q as [q|q|]; try discriminate). apply N. left. reflexivity.
Qed.

Lemma plain_ok : forall t, tidy u t -> ordinary u t ->
  traj_re u t = None /\ delay_re u t = None /\ device_re u t = None.
Proof.
  intros t (_ & N & _) (O1 & O2 & O3). split; [|split].
  - destruct t as [|c t]; [reflexivity|]. destruct (Z.eq_dec c 63) as [->|C].
    + destruct (O2 t eq_refl) as (O4 & O5). cbn. destruct (span_digits u t) as (a & b) eqn:S.
      destruct (span_spec _ _ _ S) as (E & F & G).
      assert (NB : ~ In 10 b) by (intro I; apply N; right; rewrite E; apply in_or_app; right; exact I).
      destruct a as [|x a]; destruct (at_end b) eqn:A; try reflexivity; apply at_end_plain in A; try exact NB; subst b.
      * cbn in E. congruence.
      * rewrite app_nil_r in E. subst t. exfalso. apply O5. split; [discriminate|exact F].
    + cbn. destruct c as [|q|q]; auto. do 6 (destruct q as [q|q|]; auto); try (exfalso; apply C; reflexivity).
  - destruct t as [|c t]; [reflexivity|]. destruct (Z.eq_dec c 58) as [->|C].
    + cbn. destruct (span_digits u t) as (a & b) eqn:S. destruct (span_spec _ _ _ S) as (E & F & G).
      assert (NB : ~ In 10 b) by (intro I; apply N; right; rewrite E; apply in_or_app; right; exact I).
      destruct a as [|x a]; [reflexivity|]. destruct (at_end b) eqn:A; [|reflexivity]. apply at_end_plain in A; [|exact NB]. subst b.
      rewrite app_nil_r in E. subst t. exfalso. apply (O1 _ eq_refl). split; [discriminate|exact F].
    + cbn. destruct c as [|q|q]; auto. do 6 (destruct q as [q|q|]; auto); try (exfalso; apply C; reflexivity).
  - assert (X : match span_digits u t with
         | ([], _) => None
         | (ds, 62 :: rest) => option_map (fun t => (Some ds, t)) (dot_star (drop u rest))
         | _ => None end = @None (option (list Z) * list Z)).
    { destruct (span_digits u t) as (a & b) eqn:S. destruct (span_spec _ _ _ S) as (E & F & G).
      destruct a as [|x a]; [reflexivity|]. destruct b as [|y b]; [reflexivity|].
      destruct (Z.eq_dec y 62) as [->|Y].
      - exfalso. destruct (O3 _ _ E) as (_ & O4). apply O4. split; [discriminate|exact F].
      - destruct y as [|q|q]; auto. do 6 (destruct q as [q|q|]; auto); try (exfalso; apply Y; reflexivity). }
    unfold device_re. rewrite X. destruct t as [|c t]; [reflexivity|].
    destruct c as [|q|q]; auto. do 7 (destruct q as [q|q|]; auto).
    destruct t as [|c t]; [reflexivity|]. destruct c as [|q|q]; auto. do 6 (destruct q as [q|q|]; auto).
    exfalso. destruct (O3 [65] t eq_refl) as (O4 & _). apply O4. reflexivity.
Qed.

(** *** Devices *)

Lemma selected_one : forall devices n k, NoDup devices ->
  selected k devices [n] = match place_of n devices with Some j => [(k + j)%nat] | None => [] end.
Proof.
  induction devices as [|m ds IH]; intros n k N; [reflexivity|]. inversion N as [|? ? N1 N2]; subst. cbn. rewrite orb_false_r.
  destruct (Z.eqb_spec m n) as [->|M].
  - rewrite Z.eqb_refl, (IH n (S k) N2).
    assert (P : place_of n ds = None).
    { clear - N1. induction ds as [|x ds IH]; [reflexivity|]. cbn. destruct (Z.eqb_spec n x) as [->|X].
      - exfalso. apply N1. left. reflexivity.
      - rewrite IH; [reflexivity|]. intro I. apply N1. right. exact I. }
    rewrite P. rewrite Nat.add_0_r. reflexivity.
  - replace (n =? m) with false by lia. rewrite (IH n (S k) N2). destruct (place_of n ds); cbn; [|reflexivity]. f_equal. lia.
Qed.

Lemma selected_all : forall ds all k, (forall n, In n ds -> In n all) -> selected k ds all = seq k (length ds).
Proof.
  induction ds as [|n ds IH]; intros all k H; [reflexivity|]. cbn.
  replace (existsb (Z.eqb n) all) with true.
  - f_equal. apply IH. intros m I. apply H. right. exact I.
  - symmetry. apply existsb_exists. exists n. split; [apply H; left; reflexivity|apply Z.eqb_refl].
Qed.

Lemma run_one : forall devices c, NoDup devices -> devices <> [] -> good_command u c ->
  forall rest, run_commands u devices (render c :: rest) =
  match c with
  | Delay ds => Sleep (decimal ds) :: run_commands u devices rest
  | Until who => map Query (match who with None => [O] | Some ds => one_of (decimal ds) devices end) ++ run_commands u devices rest
  | Send to _ text =>
      match targets devices to with
      | [] => run_commands u devices rest
      | ks => if forallb (fun c => c <=? 255) text
              then map (fun k => Write k (text ++ [10])) ks ++ run_commands u devices rest
              else []
      end
  end.
Proof.
  intros devices c N NE G rest. destruct devices as [|first ds] eqn:ED; [congruence|]. rewrite <- ED in *.
  assert (S1 : selected 0 devices [first] = [O]).
  { rewrite selected_one by exact N. rewrite ED. cbn. rewrite Z.eqb_refl. reflexivity. }
  assert (SO : forall d, digits d -> selected 0 devices [number_of u d] = one_of (decimal d) devices).
  { intros d D. rewrite selected_one by exact N. rewrite number_decimal by exact (proj2 D). unfold one_of. destruct (place_of _ _); reflexivity. }
  assert (SA : selected 0 devices devices = seq 0 (length devices)) by (apply selected_all; auto).
  cbn [run_commands]. unfold run_user_command. rewrite ED at 1. cbn [hd]. destruct c as [d|[d|]|[| |d] pad text]; cbn [good_command render] in *.
  - destruct (delay_ok d G) as (-> & ->). rewrite number_decimal by exact (proj2 G). reflexivity.
  - rewrite (until_ok d G). rewrite SO by exact G. reflexivity.
  - change (traj_re u [63]) with (@Some (option (list Z)) None). cbv iota. rewrite S1. reflexivity.
  - destruct G as (G1 & G2). destruct (plain_ok text G1 G2) as (-> & -> & ->). rewrite S1. unfold encode_line. cbn [targets].
    destruct (forallb _ text); reflexivity.
  - destruct G as (G1 & G2 & _). destruct (all_ok pad text G1 G2) as (-> & -> & ->). rewrite SA. unfold encode_line. cbn [targets].
    destruct (seq 0 (length devices)) eqn:ES; [reflexivity|]. destruct (forallb _ text); reflexivity.
  - destruct G as (G0 & G1 & G2 & _). destruct (one_ok d pad text G0 G1 G2) as (-> & -> & ->). rewrite SO by exact G0. unfold encode_line. cbn [targets].
    destruct (one_of (decimal d) devices) eqn:ES; [reflexivity|]. destruct (forallb _ text); reflexivity.
Qed.

Lemma run_all : forall devices cs, NoDup devices -> devices <> [] -> Forall (good_command u) cs ->
  run_commands u devices (map render cs) = meaning devices cs.
Proof.
  intros devices cs N NE F. induction F as [|c cs G F IH]; [reflexivity|].
  cbn [map]. rewrite (run_one devices c N NE G). destruct c as [d|who|to pad text]; cbn [meaning]; rewrite IH; reflexivity.
Qed.

(** *** Lines *)

Lemma digits_no_amp : forall ds, digits ds -> Forall (fun c => c <> 38) ds.
Proof. intros ds (_ & F). eapply Forall_impl; [|exact F]. cbn. lia. Qed.

Lemma render_amp : forall c, good_command u c -> amp_free (render c) = true.
Proof.
  intros c G. destruct c as [d|[d|]|[| |d] pad text]; cbn [good_command render] in *.
  - rewrite amp_cons by lia. rewrite <- (app_nil_r d), amp_app_l by (apply digits_no_amp; exact G). reflexivity.
  - rewrite amp_cons by lia. rewrite <- (app_nil_r d), amp_app_l by (apply digits_no_amp; exact G). reflexivity.
  - reflexivity.
  - apply G.
  - destruct G as (G1 & G2 & _). cbn [app]. rewrite !amp_cons by lia. rewrite amp_app_l by (apply blanks_no_amp; exact G1). apply G2.
  - destruct G as (G0 & G1 & G2 & _). rewrite amp_app_l by (apply digits_no_amp; exact G0). cbn [app]. rewrite amp_cons by lia.
    rewrite amp_app_l by (apply blanks_no_amp; exact G1). apply G2.
Qed.

Lemma last_app' : forall (a b : list Z) d, b <> [] -> last (a ++ b) d = last b d.
Proof.
  intros a b d N. destruct (exists_last N) as (b' & x & ->). rewrite app_assoc, !last_last. reflexivity.
Qed.

Lemma digits_last : forall ds, digits ds -> 48 <= last ds 0 <= 57.
Proof.
  intros ds (N & F). destruct (exists_last N) as (l & x & ->). rewrite last_last. apply Forall_app in F. destruct F as (_ & F).
  inversion F; subst. assumption.
Qed.

Lemma render_ends : forall c, good_command u c ->
  render c = [] \/ (u_space u (hd 0 (render c)) = false /\ u_space u (last (render c) 0) = false).
Proof.
  intros c G. destruct c as [d|[d|]|[| |d] pad text]; cbn [good_command render] in *.
  - right. split; [apply printable_space; cbn; lia|]. change (58 :: d) with ([58] ++ d). rewrite last_app' by exact (proj1 G).
    apply printable_space. pose proof (digits_last d G). lia.
  - right. split; [apply printable_space; cbn; lia|]. change (63 :: d) with ([63] ++ d). rewrite last_app' by exact (proj1 G).
    apply printable_space. pose proof (digits_last d G). lia.
  - right. split; apply printable_space; cbn; lia.
  - apply G.
  - destruct G as (G1 & (_ & _ & T) & P). right. split; [apply printable_space; cbn; lia|]. destruct text as [|x text].
    + rewrite (P eq_refl). apply printable_space. cbn. lia.
    + destruct T as [T|(_ & T)]; [discriminate|]. rewrite app_assoc, last_app' by discriminate. exact T.
  - destruct G as (G0 & G1 & (_ & _ & T) & P). right. split.
    + destruct (digits_head d G0) as (c & r & -> & C). apply printable_space. cbn. lia.
    + destruct text as [|x text].
      * rewrite (P eq_refl). cbn [app]. rewrite last_last. apply printable_space. lia.
      * destruct T as [T|(_ & T)]; [discriminate|]. rewrite !app_assoc, last_app' by discriminate. exact T.
Qed.

Lemma split_line : forall l, l <> [] ->
  Forall (fun '(a, c, b) => blanks u a /\ good_command u c /\ blanks u b) l ->
  map (strip u) (split_amp [] (render_line l)) = map (fun '(_, c, _) => render c) l.
Proof.
  intros l N F. induction F as [|[[a c] b] l (A & C & B) F IH]; [congruence|].
  assert (AF : amp_free (a ++ render c ++ b) = true).
  { rewrite amp_app_l by (apply blanks_no_amp; exact A). apply amp_app_r; [apply render_amp; exact C|apply blanks_no_amp; exact B]. }
  assert (ST : strip u (a ++ render c ++ b) = render c) by (apply strip_core; [exact A|exact B|apply render_ends; exact C]).
  destruct l as [|x l].
  - cbn [render_line map]. rewrite split_amp_last by exact AF. cbn [map app]. rewrite ST. reflexivity.
  - replace (render_line ((a, c, b) :: x :: l)) with ((a ++ render c ++ b) ++ 38 :: 38 :: render_line (x :: l))
      by (cbn [render_line]; rewrite <- !app_assoc; reflexivity).
    rewrite split_amp_head by exact AF. cbn [map app]. rewrite ST. cbn [map] in IH. rewrite IH by discriminate. reflexivity.
Qed.

End Commands.

(** A line means what the documentation says: its commands are done in order; each text goes to
    the chosen devices and to no other, unchanged, with a newline. *)
Theorem C68_line : forall u devices l, sensible u -> NoDup devices -> devices <> [] -> l <> [] ->
  Forall (fun '(a, c, b) => blanks u a /\ good_command u c /\ blanks u b) l ->
  run_user_command_line u devices (render_line l) = meaning devices (map (fun '(_, c, _) => c) l).
Proof.
  intros u devices l S N NE NL F. unfold run_user_command_line. rewrite (split_line u S l NL F).
  replace (map (fun '(_, c, _) => render c) l) with (map render (map (fun '(_, c, _) => c) l)).
  - apply run_all; try assumption. apply Forall_forall. intros c I. apply in_map_iff in I. destruct I as ([[a c'] b] & <- & I).
    rewrite Forall_forall in F. apply (F _ I).
  - rewrite map_map. apply map_ext. intros [[a c] b]. reflexivity.
Qed.

(** *** The task *)

Definition did (l : list uentry) : list action :=
  flat_map (fun e => match e with Did a => [a] | _ => [] end) l.
Definition no_line (l : list uentry) : Prop := Forall (fun e => match e with Entered _ => False | _ => True end) l.

Definition record (l : list (list Z * list action)) (e : uentry) : list (list Z * list action) :=
  match e with Entered line => (line, []) :: l | Did a => add_action a l | _ => l end.

Lemma record_steps : forall new line acts l, no_line new ->
  fold_left record new ((line, acts) :: l) = (line, acts ++ did new) :: l.
Proof.
  induction new as [|e new IH]; intros line acts l N; [cbn; rewrite app_nil_r; reflexivity|]. inversion N; subst. cbn [fold_left].
  destruct e as [x|a|i|i d|i|]; try contradiction; cbn [record add_action]; rewrite IH by assumption; try reflexivity.
  cbn. rewrite <- app_assoc. reflexivity.
Qed.

Lemma done_for_app : forall log new line acts l, done_for log = (line, acts) :: l -> no_line new ->
  done_for (log ++ new) = (line, acts ++ did new) :: l.
Proof.
  intros log new line acts l E N. unfold done_for in *. rewrite fold_left_app. fold record in *. rewrite E. apply record_steps. exact N.
Qed.

Lemma done_for_quiet : forall log new, no_line new -> did new = [] -> done_for (log ++ new) = done_for log.
Proof.
  intros log new N D. unfold done_for. rewrite fold_left_app. fold record. generalize (fold_left record log []) as l.
  induction new as [|e new IH]; intro l; [reflexivity|]. inversion N; subst. destruct e; try contradiction; try discriminate; cbn; apply IH; assumption.
Qed.

Definition rest_of (p : place) : list action :=
  match p with ToStart r | Asleep r | Waits _ _ r => r | NoTask => [] end.

Lemma perform_spec : forall acts ss p ss' l, perform acts ss = (p, ss', l) ->
  no_line l /\ acts = did l ++ rest_of p /\
  match p with
  | ToStart _ => False
  | NoTask => True
  | Asleep _ => exists b ms, did l = b ++ [Sleep ms]
  | Waits i _ _ => exists b, did l = b ++ [Query i]
  end.
Proof.
  induction acts as [|a acts IH]; intros ss p ss' l H.
  - injection H as <- <- <-. split; [constructor|]. split; reflexivity.
  - destruct a as [i data|ms|i]; cbn [perform] in H.
    + destruct (perform acts ss) as [[p1 ss1] l1] eqn:E. injection H as <- <- <-. destruct (IH _ _ _ _ E) as (A & B & C).
      split; [constructor; [exact I|exact A]|]. split; [cbn; rewrite B at 1; reflexivity|]. destruct p1; try exact C.
      * destruct C as (b & ms & C). exists (Write i data :: b), ms. cbn. rewrite <- C. reflexivity.
      * destruct C as (b & C). exists (Write i data :: b). cbn. rewrite <- C. reflexivity.
    + injection H as <- <- <-. split; [repeat constructor|]. split; [reflexivity|]. exists [], ms. reflexivity.
    + assert (D : no_line (Did (Query i) :: (if s_recent (stat i ss) then [] else [Asked_rate i])) /\
                  did (Did (Query i) :: (if s_recent (stat i ss) then [] else [Asked_rate i])) = [Query i]).
      { destruct (s_recent (stat i ss)); split; repeat constructor. }
      destruct D as (D1 & D2). destruct (s_set (stat i ss)); injection H as <- <- <-; (split; [exact D1|]); rewrite D2; (split; [reflexivity|]);
        exists []; reflexivity.
Qed.

Section Task.
Variable devices : list Z.
Variable u : unicode.
Notation plan := (run_user_command_line u devices).

Definition cut_ok (s : ustate) : Prop :=
  Forall (fun '(line, acts) => cut_at_wait acts (plan line)) (done_for (us_log s)) /\
  match us_place s with
  | ToStart rest => exists line l, done_for (us_log s) = (line, []) :: l /\ plan line = rest
  | Asleep rest | Waits _ _ rest => exists line acts w l, done_for (us_log s) = (line, acts ++ [w]) :: l /\ is_wait w /\ plan line = (acts ++ [w]) ++ rest
  | NoTask => done_for (us_log s) = [] \/ exists line l, done_for (us_log s) = (line, plan line) :: l
  end.

Lemma cut_perform : forall log line acts l rest ss p ss' more pre,
  done_for log = (line, acts) :: l -> plan line = acts ++ rest -> perform rest ss = (p, ss', more) ->
  Forall (fun '(line, acts) => cut_at_wait acts (plan line)) (done_for log) -> no_line pre -> did pre = [] ->
  cut_ok {| us_place := p; us_stats := ss'; us_log := log ++ pre ++ more |}.
Proof.
  intros log line acts l rest ss p ss' more pre E P H F N D. destruct (perform_spec _ _ _ _ _ H) as (A & B & C).
  assert (E2 : done_for (log ++ pre ++ more) = (line, acts ++ did more) :: l).
  { rewrite (done_for_app _ (pre ++ more) _ _ _ E).
    - unfold did. rewrite flat_map_app. fold (did pre). rewrite D. reflexivity.
    - apply Forall_app. split; assumption. }
  rewrite E in F. apply Forall_inv_tail in F. rewrite B in P. rewrite app_assoc in P. clear H B rest.
  unfold cut_ok. cbn [us_log us_place]. rewrite E2. split.
  - constructor; [|assumption]. rewrite P. destruct p; cbn [rest_of] in *; try contradiction.
    + destruct C as (b & ms & C). right. right. exists (acts ++ b), (Sleep ms), rest. rewrite C, <- !app_assoc. cbn [app]. repeat split.
    + destruct C as (b & C). right. right. exists (acts ++ b), (Query i), rest. rewrite C, <- !app_assoc. cbn [app]. repeat split.
    + right. left. rewrite app_nil_r. reflexivity.
  - destruct p; cbn [rest_of] in *; try contradiction.
    + destruct C as (b & ms & C). exists line, (acts ++ b), (Sleep ms), l. rewrite P, C, !app_assoc. repeat split.
    + destruct C as (b & C). exists line, (acts ++ b), (Query i), l. rewrite P, C, !app_assoc. repeat split.
    + right. exists line, l. rewrite P, app_nil_r. reflexivity.
Qed.

Lemma cut_step : forall s e, cut_ok s -> cut_ok (ustep devices u s e).
Proof.
  intros s e (F & P). destruct e as [line| |i d|i]; cbn [ustep].
  - unfold cut_ok. cbn [us_log us_place]. unfold done_for. rewrite fold_left_app. cbn [fold_left]. fold (done_for (us_log s)). split.
    + constructor; [left; reflexivity|exact F].
    + exists line, (done_for (us_log s)). split; reflexivity.
  - destruct (us_place s) as [rest|rest|i k rest|] eqn:Q.
    + destruct P as (line & l & E & P). destruct (perform rest (us_stats s)) as [[p ss] more] eqn:H.
      exact (cut_perform _ _ _ _ _ _ _ _ _ [] E P H F (Forall_nil _) eq_refl).
    + destruct P as (line & acts & w & l & E & W & P). destruct (perform rest (us_stats s)) as [[p ss] more] eqn:H.
      refine (cut_perform _ _ _ _ _ _ _ _ _ [Waited] E P H F _ eq_refl). repeat constructor.
    + destruct (s_set (stat i (us_stats s))); [|split; [exact F|rewrite Q; exact P]].
      destruct k as [|k]; [|split; [exact F|exact P]].
      destruct (s_done (stat i (us_stats s))); [|split; [exact F|exact P]].
      destruct P as (line & acts & w & l & E & W & P).
      destruct (perform rest (put i (cleared (stat i (us_stats s))) (us_stats s))) as [[p ss] more] eqn:H.
      refine (cut_perform _ _ _ _ _ _ _ _ _ [Satisfied i] E P H F _ eq_refl). repeat constructor.
    + split; [exact F|rewrite Q; exact P].
  - unfold cut_ok. cbn [us_log us_place]. rewrite done_for_quiet by (try reflexivity; repeat constructor). split; assumption.
  - unfold cut_ok. cbn [us_log us_place]. split; assumption.
Qed.

Lemma cut_runs : forall es s, cut_ok s -> cut_ok (fold_left (ustep devices u) es s).
Proof. induction es as [|e es IH]; intros s C; [exact C|]. apply IH. apply cut_step. exact C. Qed.

Lemma cut_start : cut_ok ustart.
Proof. split; [constructor|left; reflexivity]. Qed.

End Task.

Lemma record_lines : forall new l, map fst (fold_left record new l) =
  rev (flat_map (fun e => match e with Entered line => [line] | _ => [] end) new) ++ map fst l.
Proof.
  induction new as [|e new IH]; intro l; [reflexivity|]. cbn [fold_left flat_map]. rewrite IH.
  destruct e; cbn [record flat_map app]; try reflexivity.
  - cbn. rewrite <- app_assoc. reflexivity.
  - destruct l as [|[x y] l]; reflexivity.
Qed.

Definition entered (log : list uentry) : list (list Z) := flat_map (fun e => match e with Entered line => [line] | _ => [] end) log.

Lemma no_line_entered : forall l, no_line l -> entered l = [].
Proof. intros l N. induction N as [|e l E N IH]; [reflexivity|]. destruct e; try contradiction; exact IH. Qed.

Lemma entered_step : forall devices u s e, entered (us_log (ustep devices u s e)) = entered (us_log s) ++ inputs [e].
Proof.
  intros devices u s e. assert (A : forall a b, entered (a ++ b) = entered a ++ entered b) by (intros; apply flat_map_app).
  destruct e as [line| |i d|i]; cbn [ustep].
  - cbn [us_log]. rewrite A. reflexivity.
  - change (inputs [UResume]) with (@nil (list Z)). rewrite app_nil_r. destruct (us_place s) as [rest|rest|i k rest|]; try reflexivity.
    + destruct (perform rest (us_stats s)) as [[p ss] l] eqn:H. cbn [us_log]. destruct (perform_spec _ _ _ _ _ H) as (N & _).
      rewrite A, (no_line_entered _ N), app_nil_r. reflexivity.
    + destruct (perform rest (us_stats s)) as [[p ss] l] eqn:H. cbn [us_log]. destruct (perform_spec _ _ _ _ _ H) as (N & _).
      rewrite A. match goal with |- context [entered (?e :: l)] => change (entered (e :: l)) with (entered l) end. rewrite (no_line_entered _ N), app_nil_r. reflexivity.
    + destruct (s_set _); [|reflexivity]. destruct k; [|reflexivity]. destruct (s_done _); [|reflexivity].
      destruct (perform rest _) as [[p ss] l] eqn:H. cbn [us_log]. destruct (perform_spec _ _ _ _ _ H) as (N & _).
      rewrite A. match goal with |- context [entered (?e :: l)] => change (entered (e :: l)) with (entered l) end. rewrite (no_line_entered _ N), app_nil_r. reflexivity.
  - cbn [us_log]. rewrite A. reflexivity.
  - cbn. rewrite app_nil_r. reflexivity.
Qed.

(** What is done for each line entered, in the order in which they were entered: all of it, or
    all up to a wait in which the next line was entered, or nothing.  When the task has ended,
    all of the last one. *)
Theorem C68_lines : forall devices u es, let s := uruns devices u es in
  map fst (rev (done_for (us_log s))) = inputs es /\
  Forall (fun '(line, acts) => cut_at_wait acts (run_user_command_line u devices line)) (done_for (us_log s)) /\
  (us_place s = NoTask -> forall line acts l, done_for (us_log s) = (line, acts) :: l ->
     acts = run_user_command_line u devices line).
Proof.
  intros devices u es s. destruct (cut_runs devices u es ustart (cut_start devices u)) as (F & P). fold s in F, P.
  fold (uruns devices u es) in F, P. fold s in F, P. split; [|split; [exact F|]].
  - rewrite map_rev. unfold done_for. fold record. rewrite record_lines, app_nil_r, rev_involutive. fold (entered (us_log s)).
    assert (A : forall es s, entered (us_log (fold_left (ustep devices u) es s)) = entered (us_log s) ++ inputs es).
    { clear. induction es as [|e es IH]; intro s; [rewrite app_nil_r; reflexivity|]. cbn [fold_left]. rewrite IH, entered_step, <- app_assoc.
      f_equal. unfold inputs. cbn. rewrite app_nil_r. reflexivity. }
    apply (A es ustart).
  - intros Q line acts l E. rewrite Q in P. destruct P as [P|(line' & l' & P)]; rewrite P in E; [discriminate|congruence].
Qed.

(** *** Waiting for a trajectory *)

Lemma stat_put_same : forall i x l, stat i (put i x l) = x.
Proof. unfold stat. induction i as [|i IH]; intros x [|y l]; cbn; try reflexivity; apply IH. Qed.
Lemma stat_put_other : forall i j x l, i <> j -> stat j (put i x l) = stat j l.
Proof.
  unfold stat. induction i as [|i IH]; intros [|j] x [|y l] N; cbn; try congruence.
  - destruct j; reflexivity.
  - rewrite IH by congruence. destruct j; reflexivity.
  - apply IH. congruence.
Qed.

Lemma arrivals_app : forall i a b, arrivals i (a ++ b) = arrivals i a ++ arrivals i b.
Proof. intros. apply flat_map_app. Qed.

(** The end of the log since a query began. *)
Definition querying (i : nat) (log b : list uentry) : Prop :=
  (exists a, log = a ++ Did (Query i) :: b) /\ no_line b /\ did b = [].

Definition wait_ok (s : ustate) : Prop :=
  (forall a i c, us_log s = a ++ Satisfied i :: c ->
     exists b, querying i a b /\ (2 <= length (arrivals i b))%nat /\ last (arrivals i b) false = true) /\
  match us_place s with
  | Waits i togo rest =>
      let st := stat i (us_stats s) in
      (togo <= 2)%nat /\
      exists b, querying i (us_log s) b /\
        (s_set st = true -> (if togo then 2 else 1) <= length (arrivals i b))%nat /\
        (togo = 0 -> 1 <= length (arrivals i b))%nat /\
        (arrivals i b <> [] -> s_done st = last (arrivals i b) false)
  | _ => True
  end.

Lemma perform_wait : forall acts ss p ss' l, perform acts ss = (p, ss', l) ->
  Forall (fun e => match e with Did _ | Asked_rate _ => True | _ => False end) l /\
  match p with
  | Waits i togo rest => (1 <= togo <= 2)%nat /\ s_set (stat i ss') = false /\
      exists a b, l = a ++ Did (Query i) :: b /\ did b = [] /\ no_line b /\ arrivals i b = []
  | _ => True
  end.
Proof.
  induction acts as [|a acts IH]; intros ss p ss' l H.
  - injection H as <- <- <-. split; [constructor|exact I].
  - destruct a as [i data|ms|i]; cbn [perform] in H.
    + destruct (perform acts ss) as [[p1 ss1] l1] eqn:E. injection H as <- <- <-. destruct (IH _ _ _ _ E) as (A & B).
      split; [constructor; [exact I|exact A]|]. destruct p1; try exact I. destruct B as (B1 & B2 & a & b & -> & B3).
      split; [exact B1|]. split; [exact B2|]. exists (Did (Write i data) :: a), b. split; [reflexivity|exact B3].
    + injection H as <- <- <-. split; [repeat constructor|exact I].
    + assert (D : exists b, (if s_recent (stat i ss) then [] else [Asked_rate i]) = b /\
        Forall (fun e => match e with Did _ | Asked_rate _ => True | _ => False end) b /\ did b = [] /\ no_line b /\ arrivals i b = []).
      { eexists. split; [reflexivity|]. destruct (s_recent (stat i ss)); repeat constructor. }
      destruct D as (b & D0 & D1 & D2 & D3 & D4). rewrite D0 in H.
      destruct (s_set (stat i ss)) eqn:T; injection H as <- <- <-; (split; [constructor; [exact I|exact D1]|]).
      * split; [lia|]. split; [rewrite stat_put_same; reflexivity|]. exists [], b. auto.
      * split; [lia|]. split; [exact T|]. exists [], b. auto.
Qed.

Lemma satisfied_app : forall log new (P : list uentry -> nat -> Prop),
  (forall a i c, log = a ++ Satisfied i :: c -> P a i) ->
  (forall a i c, new = a ++ Satisfied i :: c -> P (log ++ a) i) ->
  forall a i c, log ++ new = a ++ Satisfied i :: c -> P a i.
Proof.
  induction log as [|e log IH]; intros new P A B a i c E.
  - exact (B a i c E).
  - destruct a as [|e' a].
    + cbn in E. injection E as -> E. exact (A [] i log eq_refl).
    + cbn in E. injection E as <- E. apply (IH new (fun a i => P (e :: a) i)) with (c := c); [| |exact E].
      * intros a' i' c' ->. exact (A (e :: a') i' c' eq_refl).
      * intros a' i' c' ->. exact (B a' i' c' eq_refl).
Qed.

Lemma no_satisfied : forall l a i c, Forall (fun e => match e with Did _ | Asked_rate _ => True | _ => False end) l ->
  l = a ++ Satisfied i :: c -> False.
Proof.
  intros l a i c F ->. apply Forall_app in F. destruct F as (_ & F). inversion F; subst. contradiction.
Qed.

Lemma querying_more : forall i log b new, querying i log b -> no_line new -> did new = [] -> querying i (log ++ new) (b ++ new).
Proof.
  intros i log b new ((a & ->) & N & D) N2 D2. split; [exists a; rewrite <- app_assoc; reflexivity|]. split; [apply Forall_app; split; assumption|].
  unfold did in *. rewrite flat_map_app, D, D2. reflexivity.
Qed.

Lemma wait_perform : forall log acts ss p ss' l pre,
  (forall a i c, log ++ pre = a ++ Satisfied i :: c ->
     exists b, querying i a b /\ (2 <= length (arrivals i b))%nat /\ last (arrivals i b) false = true) ->
  perform acts ss = (p, ss', l) -> wait_ok {| us_place := p; us_stats := ss'; us_log := log ++ pre ++ l |}.
Proof.
  intros log acts ss p ss' l pre S H. destruct (perform_wait _ _ _ _ _ H) as (F & W). rewrite app_assoc. split; cbn [us_log us_place us_stats].
  - apply satisfied_app; [exact S|]. intros a i c E. exfalso. exact (no_satisfied _ _ _ _ F E).
  - destruct p as [| |i togo rest|]; try exact I. destruct W as (T & U & a & b & -> & D & N & A). split; [lia|].
    exists b. split; [|rewrite U, A].
    + split; [exists ((log ++ pre) ++ a); rewrite <- !app_assoc; reflexivity|]. split; assumption.
    + split; [discriminate|]. split; [lia|]. congruence.
Qed.

Lemma wait_step : forall devices u s e, wait_ok s -> wait_ok (ustep devices u s e).
Proof.
  intros devices u s e (S & P). destruct e as [line| |j d|j]; cbn [ustep].
  - split; cbn [us_log us_place]; [|exact I]. apply satisfied_app; [exact S|]. intros a i c E.
    destruct a as [|x [|y a]]; discriminate.
  - destruct (us_place s) as [rest|rest|i k rest|] eqn:Q.
    + destruct (perform rest (us_stats s)) as [[p ss] l] eqn:H. apply (wait_perform _ _ _ _ _ _ [] ltac:(rewrite app_nil_r; exact S) H).
    + destruct (perform rest (us_stats s)) as [[p ss] l] eqn:H. refine (wait_perform _ _ _ _ _ _ [Waited] _ H).
      apply satisfied_app; [exact S|]. intros a i c E. destruct a as [|x [|y a]]; discriminate.
    + destruct P as (K & b & B & B1 & B2 & B3). destruct (s_set (stat i (us_stats s))) eqn:T.
      * specialize (B1 eq_refl). assert (NE : arrivals i b <> []) by (intro X; rewrite X in B1; destruct k; cbn in B1; lia).
        specialize (B3 NE). destruct k as [|k].
        -- destruct (s_done (stat i (us_stats s))) eqn:D.
           ++ destruct (perform rest (put i (cleared (stat i (us_stats s))) (us_stats s))) as [[p ss] l] eqn:H.
              refine (wait_perform _ _ _ _ _ _ [Satisfied i] _ H). apply satisfied_app; [exact S|]. intros a j c E.
              destruct a as [|x [|y a]]; try discriminate. injection E as <- <-. rewrite app_nil_r. exists b. auto.
           ++ split; [exact S|]. cbn [us_place us_stats us_log]. split; [lia|]. exists b. rewrite stat_put_same. cbn [cleared s_set s_done].
              split; [exact B|]. split; [discriminate|]. split; [exact B2|]. intro. rewrite D. exact B3.
        -- split; [exact S|]. cbn [us_place us_stats us_log]. split; [lia|]. exists b. rewrite stat_put_same. cbn [cleared s_set s_done].
           split; [exact B|]. split; [discriminate|]. split; [intros; cbn in B1; lia|]. auto.
      * split; [exact S|]. rewrite Q. split; [exact K|]. exists b. rewrite T. auto.
    + split; [exact S|]. rewrite Q. exact I.
  - split; cbn [us_log us_place us_stats].
    + apply satisfied_app; [exact S|]. intros a i c E. destruct a as [|x [|y a]]; discriminate.
    + destruct (us_place s) as [rest|rest|i k rest|]; try exact I. destruct P as (K & b & B & B1 & B2 & B3). split; [exact K|].
      exists (b ++ [Arrived j d]). split; [apply querying_more; [exact B|repeat constructor|reflexivity]|].
      rewrite arrivals_app. unfold arrivals at 2 4 6 8. cbn [flat_map]. rewrite app_nil_r.
      destruct (Nat.eqb_spec j i) as [->|J].
      * rewrite stat_put_same, app_length, last_last. cbn [s_set s_done length]. split; [|split; [lia|reflexivity]].
        intros _. destruct k; [specialize (B2 eq_refl); lia|lia].
      * rewrite stat_put_other by exact J. rewrite app_nil_r. auto.
  - split; cbn [us_log us_place us_stats]; [exact S|]. destruct (us_place s) as [rest|rest|i k rest|]; try exact I.
    destruct P as (K & b & B & B1 & B2 & B3). split; [exact K|]. exists b. split; [exact B|].
    destruct (Nat.eq_dec j i) as [->|J].
    + rewrite stat_put_same. cbn [s_set s_done]. auto.
    + rewrite stat_put_other by exact J. auto.
Qed.

(** A query ends only with a value that arrived after it began, and not the first such, that
    says the trajectory is done. *)
Theorem C68_until : forall devices u es a i c, us_log (uruns devices u es) = a ++ Satisfied i :: c ->
  exists before since, a = before ++ Did (Query i) :: since /\ did since = [] /\
    (2 <= length (arrivals i since))%nat /\ last (arrivals i since) false = true.
Proof.
  intros devices u es a i c E.
  assert (W : forall es s, wait_ok s -> wait_ok (fold_left (ustep devices u) es s)).
  { clear. induction es as [|e es IH]; intros s W; [exact W|]. apply IH. apply wait_step. exact W. }
  specialize (W es ustart). destruct W as (W & _).
  - split; [|exact I]. intros a' i' c' X. destruct a'; discriminate.
  - destruct (W a i c E) as (b & ((before & ->) & _ & D) & L & T). exists before, b. auto.
Qed.

(** *** It ends *)

Definition weigh (a : action) : nat := match a with Write _ _ => 0 | Sleep _ => 1 | Query _ => 3 end.
Fixpoint weight (acts : list action) : nat := match acts with [] => 0 | a :: l => weigh a + weight l end.
Definition togo_of (p : place) : nat :=
  match p with
  | ToStart r | Asleep r => S (weight r)
  | Waits _ k r => S (k + weight r)
  | NoTask => 0
  end.
(** From each device a value arrives that says the trajectory is done, and the task runs. *)
Definition all_done (n : nat) : list uevent := map (fun i => UData i true) (seq 0 n) ++ [UResume].

Definition in_range (n : nat) (acts : list action) : Prop := Forall (fun a => match a with Query i => (i < n)%nat | _ => True end) acts.
Definition place_in (n : nat) (p : place) : Prop :=
  match p with
  | ToStart r | Asleep r => in_range n r
  | Waits i _ r => (i < n)%nat /\ in_range n r
  | NoTask => True
  end.

Lemma perform_range : forall n acts ss p ss' l, in_range n acts -> perform acts ss = (p, ss', l) ->
  place_in n p /\ (togo_of p <= weight acts)%nat.
Proof.
  intros n acts. induction acts as [|a acts IH]; intros ss p ss' l R H.
  - injection H as <- <- <-. split; [exact I|cbn; lia].
  - inversion R; subst. destruct a as [i data|ms|i]; cbn [perform] in H.
    + destruct (perform acts ss) as [[p1 ss1] l1] eqn:E. injection H as <- <- <-. apply (IH _ _ _ _ H3 E).
    + injection H as <- <- <-. cbn. split; [exact H3|lia].
    + destruct (s_set (stat i ss)); injection H as <- <- <-; cbn; (split; [split; [exact H2|exact H3]|lia]).
Qed.

Lemma data_steps : forall devices u l s, let s' := fold_left (ustep devices u) (map (fun i => UData i true) l) s in
  us_place s' = us_place s /\
  (forall i, In i l -> s_set (stat i (us_stats s')) = true /\ s_done (stat i (us_stats s')) = true) /\
  (forall i, s_set (stat i (us_stats s)) = true -> s_done (stat i (us_stats s)) = true ->
             s_set (stat i (us_stats s')) = true /\ s_done (stat i (us_stats s')) = true).
Proof.
  intros devices u l. induction l as [|j l IH]; intro s; cbv zeta.
  - split; [reflexivity|]. split; [intros i []|auto].
  - cbn [map fold_left]. destruct (IH (ustep devices u s (UData j true))) as (A & B & C). cbv zeta in *. split; [rewrite A; reflexivity|].
    assert (J : forall i, i = j -> s_set (stat i (us_stats (ustep devices u s (UData j true)))) = true /\
                      s_done (stat i (us_stats (ustep devices u s (UData j true)))) = true).
    { intros i ->. cbn [ustep us_stats]. rewrite stat_put_same. auto. }
    split.
    + intros i [->|I]; [apply C; apply J; reflexivity|apply B; exact I].
    + intros i T D. apply C; destruct (Nat.eq_dec i j) as [->|N]; try (apply J; reflexivity); cbn [ustep us_stats]; rewrite stat_put_other by congruence; assumption.
Qed.

Lemma round_less : forall devices u n s, place_in n (us_place s) ->
  let s' := fold_left (ustep devices u) (all_done n) s in place_in n (us_place s') /\ (togo_of (us_place s') <= togo_of (us_place s) - 1)%nat.
Proof.
  intros devices u n s R s'. subst s'. unfold all_done. rewrite fold_left_app.
  destruct (data_steps devices u (seq 0 n) s) as (A & B & _). cbv zeta in A, B.
  set (s1 := fold_left (ustep devices u) (map (fun i => UData i true) (seq 0 n)) s) in *. cbn [fold_left ustep].
  rewrite <- A in R |- *. destruct (us_place s1) as [rest|rest|i k rest|] eqn:Q; cbn [place_in togo_of] in *.
  - destruct (perform rest (us_stats s1)) as [[p ss] l] eqn:H. cbn [us_place]. destruct (perform_range _ _ _ _ _ _ R H). split; [assumption|lia].
  - destruct (perform rest (us_stats s1)) as [[p ss] l] eqn:H. cbn [us_place]. destruct (perform_range _ _ _ _ _ _ R H). split; [assumption|lia].
  - destruct R as (R1 & R2). destruct (B i) as (B1 & B2); [apply in_seq; lia|]. rewrite B1, B2. destruct k as [|k].
    + destruct (perform rest _) as [[p ss] l] eqn:H. cbn [us_place]. destruct (perform_range _ _ _ _ _ _ R2 H). split; [assumption|lia].
    + cbn. split; [auto|lia].
  - rewrite Q. cbn. split; [exact I|lia].
Qed.

Lemma selected_range : forall devices nums k i, In i (selected k devices nums) -> (k <= i < k + length devices)%nat.
Proof.
  induction devices as [|n ds IH]; intros nums k i I; [contradiction|]. cbn [selected length] in *. destruct (existsb _ _).
  - destruct I as [<-|I]; [lia|]. apply IH in I. lia.
  - apply IH in I. lia.
Qed.

Lemma plan_range : forall u devices cs, in_range (length devices) (run_commands u devices cs).
Proof.
  intros u devices cs. assert (W : forall l data, in_range (length devices) (map (fun i => Write i data) l)).
  { intros l data. induction l; constructor; auto. }
  assert (Q : forall nums, in_range (length devices) (map Query (selected 0 devices nums))).
  { intro nums. apply Forall_forall. intros a I. apply in_map_iff in I. destruct I as (i & <- & I). apply selected_range in I. lia. }
  induction cs as [|c cs IH]; [constructor|]. cbn [run_commands].
  destruct (run_user_command u devices c) as [acts [e|]] eqn:E.
  - assert (X : acts = []); [|subst; constructor]. unfold run_user_command in E. destruct devices as [|f ds]; [injection E as <- _; reflexivity|].
    destruct (traj_re u c); [discriminate|]. destruct (delay_re u c); [discriminate|].
    destruct (device_re u c) as [[[d|] t]|]; (destruct (selected _ _ _); [discriminate|]); (destruct (encode_line _); [discriminate|]); injection E as <- _; reflexivity.
  - apply Forall_app. split; [|exact IH]. unfold run_user_command in E. destruct devices as [|f ds]; [discriminate|].
    destruct (traj_re u c); [injection E as <-; apply Q|]. destruct (delay_re u c); [injection E as <-; repeat constructor|].
    destruct (device_re u c) as [[[d|] t]|];
      (match type of E with context [selected ?a ?b ?x] => destruct (selected a b x) as [|k ks] end; [injection E as <-; exact (Forall_nil _)|]);
      (destruct (encode_line _) as [data|]; [|discriminate]); injection E as <-; exact (W (k :: ks) data).
Qed.

(** If the trajectories end, and nothing else is entered, a line is done to its end. *)
Theorem C68_done : forall devices u es line, exists k, forall m, (k <= m)%nat ->
  let s := uruns devices u (es ++ [UInput line] ++ concat (repeat (all_done (length devices)) m)) in
  exists l, done_for (us_log s) = (line, run_user_command_line u devices line) :: l.
Proof.
  intros devices u es line. set (s0 := ustep devices u (uruns devices u es) (UInput line)). exists (togo_of (us_place s0)). intros m M s.
  assert (E : s = fold_left (ustep devices u) (concat (repeat (all_done (length devices)) m)) s0).
  { unfold s, uruns. rewrite !fold_left_app. reflexivity. }
  assert (R : forall m s, place_in (length devices) (us_place s) ->
     (togo_of (us_place (fold_left (ustep devices u) (concat (repeat (all_done (length devices)) m)) s)) <= togo_of (us_place s) - m)%nat).
  { clear. induction m as [|m IH]; intros s P; [cbn; lia|]. cbn [repeat concat]. rewrite fold_left_app.
    destruct (round_less devices u _ s P) as (A & B). specialize (IH _ A). lia. }
  specialize (R m s0). rewrite <- E in R.
  assert (P : place_in (length devices) (us_place s0)) by (cbn; apply plan_range).
  specialize (R P). assert (NT : us_place s = NoTask).
  { assert (Z0 : togo_of (us_place s) = 0%nat) by lia. clear - Z0. destruct (us_place s); cbn in Z0; try discriminate. reflexivity. }
  destruct (C68_lines devices u (es ++ [UInput line] ++ concat (repeat (all_done (length devices)) m))) as (A & _ & C). fold s in A, C.
  assert (I : inputs (es ++ [UInput line] ++ concat (repeat (all_done (length devices)) m)) = inputs es ++ [line]).
  { unfold inputs. rewrite !flat_map_app. f_equal. cbn [flat_map app]. f_equal. clear. induction m as [|m IH]; [reflexivity|].
    cbn [repeat concat]. rewrite flat_map_app, IH, app_nil_r. unfold all_done. rewrite flat_map_app. cbn. rewrite app_nil_r.
    clear IH. generalize 0%nat as k. induction (length devices) as [|n IH2]; intro k; [reflexivity|]. cbn. apply IH2. }
  rewrite I, map_rev in A. apply (f_equal (@rev (list Z))) in A. rewrite rev_involutive, rev_app_distr in A. cbn in A.
  destruct (done_for (us_log s)) as [|[x y] l] eqn:D; [discriminate|]. cbn in A. injection A as -> _. exists l.
  rewrite (C NT _ _ _ eq_refl). reflexivity.
Qed.

(** *** A case *)

Definition ascii_only : unicode :=
  {| u_digit := fun c => if (48 <=? c) && (c <=? 57) then Some (c - 48) else None;
     u_space := fun c => (c =? 32) || ((9 <=? c) && (c <=? 13)) || ((28 <=? c) && (c <=? 31)) || (c =? 0x85) || (c =? 0xa0) |}.

Example C68_ex_sensible : sensible ascii_only.
Proof. split; intros c C; cbn; [reflexivity|lia]. Qed.

(** "d pos 0 0 nan a2 && ? && 2> d stop && :1000&&A>d stop", with devices 1 and 2 *)
Definition ex_line : list (list Z * command * list Z) :=
  [([], Send First [] (lit "d pos 0 0 nan a2"), [32]); ([32], Until None, [32]);
   ([32], Send (One [50]) [32] (lit "d stop"), [32]); ([32], Delay [49; 48; 48; 48], []); ([], Send All [] (lit "d stop"), [])].

Example C68_ex_hypotheses :
  Forall (fun '(a, c, b) => blanks ascii_only a /\ good_command ascii_only c /\ blanks ascii_only b) ex_line.
Proof.
  assert (O : forall s, forallb (fun c => negb (c =? 58) && negb (c =? 62) && negb (c =? 63)) (lit s) = true -> ordinary ascii_only (lit s)).
  { intros s H. rewrite forallb_forall in H. split; [|split].
    - intros ds E. specialize (H 58). rewrite E in H. specialize (H (or_introl eq_refl)). discriminate.
    - intros ds E. specialize (H 63). rewrite E in H. specialize (H (or_introl eq_refl)). discriminate.
    - intros p r E. specialize (H 62). rewrite E in H. assert (I : In 62 (p ++ 62 :: r)) by (apply in_or_app; right; left; reflexivity).
      specialize (H I). discriminate. }
  assert (T : forall s, amp_free (lit s) = true -> forallb (fun c => negb (c =? 10)) (lit s) = true ->
     u_space ascii_only (hd 0 (lit s)) = false -> u_space ascii_only (last (lit s) 0) = false -> tidy ascii_only (lit s)).
  { intros s A B C D. split; [exact A|]. split; [|right; split; assumption]. intro I. rewrite forallb_forall in B. specialize (B _ I). discriminate. }
  unfold ex_line.
  assert (BL : blanks ascii_only [32]) by (constructor; [reflexivity|constructor]).
  assert (BN : blanks ascii_only []) by constructor.
  assert (D : forall ds, ds <> [] -> forallb (fun c => (48 <=? c) && (c <=? 57)) ds = true -> digits ds).
  { intros ds N H. split; [exact N|]. apply Forall_forall. intros c I. rewrite forallb_forall in H. specialize (H c I). lia. }
  apply Forall_cons; [|apply Forall_cons; [|apply Forall_cons; [|apply Forall_cons; [|apply Forall_cons; [|constructor]]]]];
    (split; [assumption|split; [|assumption]]); cbn [good_command].
  - split; [apply T|apply O]; reflexivity.
  - exact I.
  - split; [apply D; [discriminate|reflexivity]|]. split; [exact BL|]. split; [apply T; reflexivity|discriminate].
  - apply D; [discriminate|reflexivity].
  - split; [exact BN|]. split; [apply T; reflexivity|discriminate].
Qed.

Example C68_ex : run_user_command_line ascii_only [1; 2] (render_line ex_line) =
  [Write 0 (lit "d pos 0 0 nan a2" ++ [10]); Query 0; Write 1 (lit "d stop" ++ [10]); Sleep 1000;
   Write 0 (lit "d stop" ++ [10]); Write 1 (lit "d stop" ++ [10])].
Proof. vm_compute. reflexivity. Qed.

(** The second line interrupts the first while it waits for the trajectory. *)
Example C68_ex_interrupted :
  let s := uruns [1; 2] ascii_only [UInput (render_line ex_line); UResume; UData 0 true; UResume; UData 0 true; UResume;
                                    UInput (lit "d stop"); UResume] in
  done_for (us_log s) = [(lit "d stop", [Write 0 (lit "d stop" ++ [10])]);
                         (render_line ex_line, [Write 0 (lit "d pos 0 0 nan a2" ++ [10]); Query 0])].
Proof. vm_compute. reflexivity. Qed.

Example C68_ex_until :
  us_log (uruns [1; 2] ascii_only [UData 0 true; UInput (lit "?"); UResume; UData 0 true; UResume; UData 0 false; UResume;
                                   UData 0 true; UResume]) =
  [Arrived 0 true; Entered (lit "?"); Did (Query 0); Arrived 0 true; Arrived 0 false; Arrived 0 true; Satisfied 0].
Proof. vm_compute. reflexivity. Qed.

Print Assumptions C68_line.
Print Assumptions C68_lines.
Print Assumptions C68_until.
Print Assumptions C68_done.
