(** QueryParser (multiplex.py:241-306) on read frames, and the list of
    registers a query asks for. *)
From Coq Require Import ZArith List Bool Lia Sorted.
From Coq Require Import ZifyBool ZifyNat.
From Verif Require Import PyBase PyFloat Mux_Model Protocol_Spec Zbits Mux_Proofs Parser_Proofs
  Ctrl_Model Combiner_Proofs Props_Varuint.
Ltac Zify.zify_post_hook ::= Z.div_mod_to_equations.
Import ListNotations.
Open Scope Z_scope.

(** ** The registers of a list of resolutions *)

Fixpoint index (start : Z) (rs : list resolution) : list (Z * resolution) :=
  match rs with
  | [] => []
  | r :: rs => (start, r) :: index (start + 1) rs
  end.

Definition used (l : list (Z * resolution)) : list (Z * resolution) :=
  filter (fun p => negb (res_eqb (snd p) IGNORE)) l.

Definition reads (l : list (Z * resolution)) : list access :=
  map (fun p => ARead (fst p) (snd p)) l.

Lemma wanted_reads : forall rs start,
  wanted KRead start rs (blanks rs) = reads (used (index start rs)).
Proof.
  induction rs as [|r rs IH]; intro start; [reflexivity|].
  cbn [blanks map wanted index used filter snd]. fold (blanks rs). rewrite IH.
  destruct (res_eqb r IGNORE); reflexivity.
Qed.

Lemma used_app : forall a b, used (a ++ b) = used a ++ used b.
Proof. intros. apply filter_app. Qed.
Lemma reads_app : forall a b, reads (a ++ b) = reads a ++ reads b.
Proof. intros. apply map_app. Qed.

Lemma run_query_reads : forall w start rs, 0 <= start -> start + Z.of_nat (length rs) <= 2 ^ 35 ->
  runs_ok None rs ->
  exists c (q : list Z), run_query w start rs = Ok c /\ c_writer c = w ++ q /\
    kframe KRead q (reads (used (index start rs))) (c_reply_size c).
Proof.
  intros w start rs H0 H1 H2. rewrite <- wanted_reads. apply run_query_ok; auto.
Qed.

(** ** The extra registers *)

Lemma Zrange_cons : forall a b, a < b -> Zrange a b = a :: Zrange (a + 1) b.
Proof.
  intros a b H. unfold Zrange. replace (Z.to_nat (b - a)) with (S (Z.to_nat (b - (a + 1)))) by lia.
  cbn [seq map]. f_equal; [lia|]. rewrite <- seq_shift, map_map. apply map_ext. intro. lia.
Qed.

Lemma Zrange_nil : forall a b, b <= a -> Zrange a b = [].
Proof. intros a b H. unfold Zrange. replace (Z.to_nat (b - a)) with 0%nat by lia. reflexivity. Qed.

Lemma Zrange_length : forall a b, length (Zrange a b) = Z.to_nat (b - a).
Proof. intros. unfold Zrange. rewrite map_length, seq_length. reflexivity. Qed.

Lemma Zrange_in : forall a b k, In k (Zrange a b) <-> a <= k < b.
Proof.
  intros. unfold Zrange. rewrite in_map_iff. split.
  - intros (i & E & I). apply in_seq in I. lia.
  - intro H. exists (Z.to_nat (k - a)). split; [lia|]. apply in_seq. lia.
Qed.

Lemma Zrange_nth : forall a b i, (i < Z.to_nat (b - a))%nat ->
  nth_error (Zrange a b) i = Some (a + Z.of_nat i).
Proof.
  intros a b i H. unfold Zrange. rewrite nth_error_map.
  rewrite (nth_error_nth' (seq 0 (Z.to_nat (b - a))) 0%nat) by (rewrite seq_length; auto).
  cbn. rewrite seq_nth by auto. reflexivity.
Qed.

Lemma index_map : forall n (f : Z -> resolution) a,
  index a (map f (map (fun i => a + Z.of_nat i) (seq 0 n)))
  = map (fun k => (k, f k)) (map (fun i => a + Z.of_nat i) (seq 0 n)).
Proof.
  induction n as [|n IH]; intros f a; [reflexivity|].
  cbn [seq map index]. f_equal; [repeat f_equal; lia|].
  rewrite <- seq_shift, !map_map. specialize (IH f (a + 1)). rewrite !map_map in IH.
  etransitivity; [|etransitivity; [exact IH|]].
  - f_equal. apply map_ext. intro. f_equal. lia.
  - apply map_ext. intro. f_equal; [|f_equal]; lia.
Qed.

Lemma index_extra : forall d mn mx,
  index mn (extra_resolutions d mn mx) = map (fun k => (k, extra_get d k)) (Zrange mn (mx + 1)).
Proof. intros. apply index_map. Qed.

Lemma extra_get_in : forall d k r, NoDup (keys d) -> r <> IGNORE ->
  (extra_get d k = r <-> In (k, r) d).
Proof.
  induction d as [|[k' r'] d IH]; intros k r ND Hr; cbn [extra_get In].
  - split; [intro; congruence|tauto].
  - inversion ND as [|? ? N1 N2]; subst. destruct (Z.eqb_spec k' k) as [->|NE].
    + split; [intros ->; auto|]. intros [E|I]; [congruence|].
      exfalso. apply N1. apply (in_map fst) in I. exact I.
    + rewrite IH by auto. split; [auto|]. intros [E|I]; [congruence|auto].
Qed.

Lemma list_min_le : forall l x, list_min x l <= x /\ Forall (fun y => list_min x l <= y) l.
Proof.
  induction l as [|y l IH]; intro x; cbn [list_min fold_left]; [split; [lia|constructor]|].
  destruct (IH (Z.min x y)) as [A B]. fold (list_min (Z.min x y) l). split; [lia|].
  constructor; [lia|exact B].
Qed.
Lemma list_max_ge : forall l x, x <= list_max x l /\ Forall (fun y => y <= list_max x l) l.
Proof.
  induction l as [|y l IH]; intro x; cbn [list_max fold_left]; [split; [lia|constructor]|].
  destruct (IH (Z.max x y)) as [A B]. fold (list_max (Z.max x y) l). split; [lia|].
  constructor; [lia|exact B].
Qed.
Lemma list_min_in : forall l x, In (list_min x l) (x :: l).
Proof.
  induction l as [|y l IH]; intro x; cbn [list_min fold_left]; [left; auto|].
  fold (list_min (Z.min x y) l). specialize (IH (Z.min x y)).
  destruct IH as [E|I]; [|right; right; exact I].
  rewrite <- E. destruct (Z.min_spec x y) as [[_ ->]|[_ ->]]; cbn; auto.
Qed.
Lemma list_max_in : forall l x, In (list_max x l) (x :: l).
Proof.
  induction l as [|y l IH]; intro x; cbn [list_max fold_left]; [left; auto|].
  fold (list_max (Z.max x y) l). specialize (IH (Z.max x y)).
  destruct IH as [E|I]; [|right; right; exact I].
  rewrite <- E. destruct (Z.max_spec x y) as [[_ ->]|[_ ->]]; cbn; auto.
Qed.

(** L lists exactly the registers of d that are not ignored, once each, in
    increasing order. *)
Definition listing (d L : list (Z * resolution)) : Prop :=
  StronglySorted (fun a b => fst a < fst b) L /\
  forall k r, In (k, r) L <-> In (k, r) d /\ r <> IGNORE.

Lemma sorted_filter : forall {A} (R : A -> A -> Prop) f l,
  StronglySorted R l -> StronglySorted R (filter f l).
Proof.
  induction l as [|x l IH]; intro H; cbn; [constructor|]. inversion H; subst.
  destruct (f x); auto. constructor; auto.
  apply Forall_forall. intros y I. apply filter_In in I. eapply Forall_forall in H3; [exact H3|tauto].
Qed.

Lemma sorted_Zrange : forall n a (f : Z -> resolution),
  StronglySorted (fun a b => fst a < fst b)
    (map (fun k => (k, f k)) (map (fun i => a + Z.of_nat i) (seq 0 n))).
Proof.
  induction n as [|n IH]; intros a f; cbn [seq map]; [constructor|].
  rewrite <- seq_shift, (map_map S).
  assert (E : map (fun x : nat => a + Z.of_nat (S x)) (seq 0 n) = map (fun i => (a + 1) + Z.of_nat i) (seq 0 n))
    by (apply map_ext; intro; lia).
  rewrite E. constructor; [apply IH|].
  apply Forall_forall. intros x I. apply in_map_iff in I. destruct I as (k & <- & I).
  apply in_map_iff in I. destruct I as (i & <- & _). cbn. lia.
Qed.

Lemma used_listing : forall d k ks, keys d = k :: ks -> NoDup (keys d) ->
  listing d (used (index (list_min k ks)
                         (extra_resolutions d (list_min k ks) (list_max k ks)))).
Proof.
  intros d k ks EK ND. rewrite index_extra. split.
  - apply sorted_filter. apply sorted_Zrange.
  - intros x r. unfold used. rewrite filter_In. cbn [snd]. split.
    + intros [I N]. assert (r <> IGNORE) by (intro; subst; discriminate).
      split; auto. apply in_map_iff in I. destruct I as (y & E & _). injection E as -> E.
      apply extra_get_in; auto.
    + intros [I N]. split; [|rewrite res_eqb_neq; auto].
      apply in_map_iff. exists x. split.
      * f_equal. apply extra_get_in; auto.
      * apply Zrange_in. assert (IK : In x (k :: ks)) by (rewrite <- EK; apply (in_map fst) in I; exact I).
        pose proof (list_min_le ks k) as [A1 A2]. pose proof (list_max_ge ks k) as [B1 B2].
        destruct IK as [<-|IK]; [lia|]. rewrite Forall_forall in A2, B2.
        specialize (A2 x IK). specialize (B2 x IK). cbv beta in *. lia.
Qed.

(** Two listings are equal *)
Lemma listing_unique : forall d L1 L2, listing d L1 -> listing d L2 -> L1 = L2.
Proof.
  intros d L1 L2 [S1 I1] [S2 I2].
  assert (I : forall p, In p L1 <-> In p L2) by (intros [k r]; rewrite I1, I2; tauto).
  clear I1 I2. revert L2 S2 I. induction S1 as [|x L1 S1 IH F1]; intros L2 S2 I.
  - destruct L2 as [|y L2]; auto. exfalso. apply (proj2 (I y)). left; auto.
  - destruct L2 as [|y L2]; [exfalso; apply (proj1 (I x)); left; auto|].
    inversion S2 as [|? ? S2' F2]; subst. rewrite Forall_forall in F1, F2.
    assert (x = y).
    { destruct (proj1 (I x) (or_introl eq_refl)) as [|J1]; [auto|].
      destruct (proj2 (I y) (or_introl eq_refl)) as [|J2]; [auto|].
      specialize (F1 _ J2). specialize (F2 _ J1). lia. }
    subst y. f_equal. apply IH; auto. intro p. split; intro J.
    + destruct (proj1 (I p) (or_intror J)) as [<-|]; auto. specialize (F1 _ J). lia.
    + destruct (proj2 (I p) (or_intror J)) as [<-|]; auto. specialize (F2 _ J). lia.
Qed.

(** More than 127 consecutive registers of one resolution. *)
Definition long_run (d : list (Z * resolution)) : Prop :=
  exists k r, r <> IGNORE /\ forall i, 0 <= i < 128 -> In (k + i, r) d.

Lemma seq_add : forall v u w, map (fun i => u + i)%nat (seq w v) = seq (u + w) v.
Proof.
  induction v as [|v IH]; intros u w; [reflexivity|]. cbn [seq map]. f_equal.
  rewrite IH. f_equal. lia.
Qed.

Lemma long_run_runs : forall d k ks, keys d = k :: ks -> NoDup (keys d) ->
  (long_run d <-> ~ runs_ok None (extra_resolutions d (list_min k ks) (list_max k ks))).
Proof.
  intros d k ks EK ND.
  set (mn := list_min k ks). set (mx := list_max k ks).
  pose proof (list_min_le ks k) as [A1 A2]. pose proof (list_max_ge ks k) as [B1 B2].
  fold mn in A1, A2. fold mx in B1, B2. rewrite Forall_forall in A2, B2.
  assert (RNG : forall x r, In (x, r) d -> mn <= x <= mx).
  { intros x r I. assert (IK : In x (k :: ks)) by (rewrite <- EK; apply (in_map fst) in I; exact I).
    destruct IK as [<-|IK]; [lia|]. split; [apply (A2 x)|apply (B2 x)]; auto. }
  split.
  - intros (x & r & Hr & H) RO.
    pose proof (RNG _ _ (H 0 ltac:(lia))). pose proof (RNG _ _ (H 127 ltac:(lia))).
    assert (E : extra_resolutions d mn mx
      = map (extra_get d) (Zrange mn x) ++ repeat r 128 ++ map (extra_get d) (Zrange (x + 128) (mx + 1))).
    { unfold extra_resolutions.
      assert (SPL : forall m a b, a <= m <= b -> Zrange a b = Zrange a m ++ Zrange m b).
      { intros m a b Hm. unfold Zrange. replace (Z.to_nat (b - a)) with (Z.to_nat (m - a) + Z.to_nat (b - m))%nat by lia.
        rewrite seq_app, map_app. f_equal. cbn [Nat.add].
        replace (seq (Z.to_nat (m - a)) (Z.to_nat (b - m)))
          with (map (fun i => Z.to_nat (m - a) + i)%nat (seq 0 (Z.to_nat (b - m)))).
        2:{ rewrite seq_add, Nat.add_0_r. reflexivity. }
        rewrite map_map. apply map_ext. intro. lia. }
      rewrite (SPL x) by lia. rewrite (SPL (x + 128) x) by lia. rewrite !map_app. f_equal. f_equal.
      clear - H Hr ND.
      assert (G : forall n a, (forall i, 0 <= i < Z.of_nat n -> In (a + i, r) d) ->
                 map (extra_get d) (Zrange a (a + Z.of_nat n)) = repeat r n).
      { induction n as [|n IH]; intros a G.
        - rewrite Zrange_nil by lia. reflexivity.
        - rewrite Zrange_cons by lia. cbn [map repeat]. f_equal.
          + apply extra_get_in; auto. specialize (G 0). rewrite Z.add_0_r in G. apply G. lia.
          + replace (a + Z.of_nat (S n)) with (a + 1 + Z.of_nat n) by lia. apply IH.
            intros i Hi. replace (a + 1 + i) with (a + (i + 1)) by lia. apply G. lia. }
      apply (G 128%nat). exact H. }
    rewrite E in RO. destruct (runs_ok_long _ _ _ _ Hr RO). discriminate.
  - intro NR. destruct (runs_ok_dec (extra_resolutions d mn mx) None) as [RO|(a & r & c & Hr & E)];
      [contradiction|].
    exists (mn + Z.of_nat (length a)), r. split; auto. intros i Hi.
    assert (N : nth_error (extra_resolutions d mn mx) (length a + Z.to_nat i) = Some r).
    { rewrite E. rewrite nth_error_app2 by lia.
      replace (length a + Z.to_nat i - length a)%nat with (Z.to_nat i) by lia.
      rewrite nth_error_app1 by (rewrite repeat_length; lia).
      apply nth_error_repeat. lia. }
    assert (LT : (length a + Z.to_nat i < Z.to_nat (mx + 1 - mn))%nat).
    { rewrite <- Zrange_length. rewrite <- (map_length (extra_get d)).
      apply nth_error_Some. unfold extra_resolutions in N. rewrite N. discriminate. }
    unfold extra_resolutions in N. rewrite nth_error_map, Zrange_nth in N by auto.
    cbn in N. injection N as N. apply extra_get_in in N; auto.
    replace (mn + Z.of_nat (length a) + i) with (mn + Z.of_nat (length a + Z.to_nat i)) by lia.
    exact N.
Qed.

(** ** QueryParser *)

Lemma read_code_spec : forall r, r <> IGNORE -> forall n, 0 <= n < 4 ->
  res_of_code (Z.land (Z.shiftr (0x10 + 4 * spec_code r + n) 2) 3) = r /\
  Z.land (0x10 + 4 * spec_code r + n) 3 = n.
Proof.
  intros r Hr n Hn.
  assert (n = 0 \/ n = 1 \/ n = 2 \/ n = 3) as [->|[->|[->| ->]]] by lia;
    destruct r; try congruence; vm_compute; auto.
Qed.

Lemma qnext_sub : forall p pre r n start vu rest, bytes_ok (p_data p) ->
  r <> IGNORE -> 1 <= n <= 127 -> is_varuint vu start ->
  at_ pre (hdr KRead r n ++ vu ++ rest) p -> p_remaining p = 0 ->
  qnext_step p = ({| p_data := p_data p;
               p_offset := (p_offset p + length (hdr KRead r n) + length vu)%nat;
               p_remaining := n - 1; p_register := start + 1; p_resolution := r |},
            QItem start r).
Proof.
  intros p pre r n start vu rest G Hr Hn Hv Hat Hrem.
  pose proof (varuint_nonempty _ _ Hv) as Hvu.
  assert (LV : (1 <= length vu)%nat) by (destruct vu; [congruence|cbn; lia]).
  destruct Hat as [D O].
  assert (SZ : p_size p = (length pre + length (hdr KRead r n)
                           + (length vu + length rest))%nat)
    by (unfold p_size; rewrite D, !app_length; lia).
  assert (HH : (1 <= length (hdr KRead r n))%nat) by (unfold hdr; destruct (n <=? 3); cbn; lia).
  unfold qnext_step. rewrite Hrem. cbn [Z.eqb negb].
  replace (_ <=? _)%nat with false by lia.
  destruct (p_size p - p_offset p)%nat as [|f] eqn:EF; [lia|].
  cbn [qscan].
  assert (RV : read_varuint (p_offset p + length (hdr KRead r n)) (p_data p)
               = (Some start, (p_offset p + length (hdr KRead r n) + length vu)%nat)).
  { rewrite read_varuint_rv by apply G.
    rewrite D, O, app_assoc.
    replace (length pre + length (hdr KRead r n))%nat
      with (length (pre ++ hdr KRead r n)) by (rewrite app_length; lia).
    rewrite skipn_app, skipn_all, Nat.sub_diag. cbn [skipn app].
    rewrite rv_is_varuint with (v := start) by auto. reflexivity. }
  assert (S0 : 0 <= 4 * spec_code r <= 12) by (destruct r; cbn; try congruence; lia).
  unfold hdr in *. cbn [base_of] in *. destruct (Z.leb_spec n 3).
  - rewrite (at_nth pre (0x10 + 4 * spec_code r + n) (vu ++ rest) p (conj D O)).
    replace (_ =? NOP) with false by (unfold NOP; lia).
    unfold p_size in *.
    cbn [set_offset p_data p_offset p_remaining p_register p_resolution length] in *.
    rewrite (proj2 (Z.leb_le _ _)), (proj2 (Z.ltb_lt _ _)) by lia. cbn [andb].
    destruct (read_code_spec r Hr n ltac:(lia)) as [C1 C2].
    rewrite C1, C2. replace (n =? 0) with false by lia.
    replace (S (p_offset p)) with (p_offset p + 1)%nat by lia. rewrite RV. reflexivity.
  - rewrite (at_nth pre (0x10 + 4 * spec_code r) (n :: vu ++ rest) p (conj D O)).
    replace (_ =? NOP) with false by (unfold NOP; lia).
    unfold p_size in *.
    cbn [set_offset p_data p_offset p_remaining p_register p_resolution length] in *.
    rewrite (proj2 (Z.leb_le _ _)), (proj2 (Z.ltb_lt _ _)) by lia. cbn [andb].
    destruct (read_code_spec r Hr 0 ltac:(lia)) as [C1 C2]. rewrite Z.add_0_r in C1, C2.
    rewrite C1, C2. cbn [Z.eqb].
    assert (N2 : nth_error (p_data p) (S (p_offset p)) = Some n).
    { rewrite D, O. rewrite nth_error_app2 by lia.
      replace (S (length pre) - length pre)%nat with 1%nat by lia. reflexivity. }
    rewrite N2. cbn [p_offset p_data]. replace (n =? 0) with false by lia.
    replace (S (S (p_offset p))) with (p_offset p + 2)%nat by lia. rewrite RV. reflexivity.
Qed.

(** The remaining registers of a subframe. *)
Lemma qparse_values : forall n f p, p_remaining p = Z.of_nat n ->
  qparse_loop (n + f) p =
  bind (qparse_loop f {| p_data := p_data p; p_offset := p_offset p; p_remaining := 0;
                         p_register := p_register p + Z.of_nat n; p_resolution := p_resolution p |})
       (fun t => Ok (map Some (index (p_register p) (repeat (p_resolution p) n)) ++ t)).
Proof.
  induction n as [|n IH]; intros f p H.
  - cbn [Nat.add repeat index map app].
    replace {| p_data := _; p_offset := _; p_remaining := _; p_register := _; p_resolution := _ |} with p.
    2:{ destruct p as [a b c d e]. cbn [p_remaining p_data p_offset p_register p_resolution] in *. subst. f_equal. lia. }
    destruct (qparse_loop f p); reflexivity.
  - cbn [Nat.add qparse_loop]. unfold qnext_step. replace (p_remaining p =? 0) with false by lia.
    cbn [negb]. rewrite IH by (cbn; lia).
    cbn [p_data p_offset p_register p_resolution].
    replace (p_register p + 1 + Z.of_nat n) with (p_register p + Z.of_nat (S n)) by lia.
    destruct (qparse_loop f _); cbn [bind]; [|reflexivity].
    cbn [repeat index map app]. reflexivity.
Qed.

Definition read_pairs (a : list access) : list (option (Z * resolution)) :=
  map (fun x => match x with ARead k r => Some (k, r) | _ => None end) a.

Lemma read_pairs_accesses : forall bs start r,
  read_pairs (accesses KRead start r bs) = map Some (index start (repeat r (length bs))).
Proof.
  induction bs as [|b bs IH]; intros; [reflexivity|].
  cbn [accesses read_pairs map mk_access length repeat index]. f_equal. apply IH.
Qed.

Lemma read_pairs_reads : forall l, read_pairs (reads l) = map Some l.
Proof. intros. unfold read_pairs, reads. rewrite map_map. apply map_ext. intros []. reflexivity. Qed.

Lemma concat_empty : forall (bs : list (list Z)), Forall (fun b => length b = kwidth KRead F32) bs ->
  concat bs = [].
Proof.
  induction 1 as [|b bs H _ IH]; [reflexivity|]. destruct b; [exact IH|discriminate].
Qed.

Lemma qparse_kframe : forall l a s, kframe KRead l a s -> forall pre tail f p,
  bytes_ok (p_data p) -> at_ pre (l ++ tail) p -> p_remaining p = 0 ->
  exists p', p_data p' = p_data p /\ at_ (pre ++ l) tail p' /\ p_remaining p' = 0 /\
    qparse_loop (length a + f) p
    = bind (qparse_loop f p') (fun t => Ok (read_pairs a ++ t)).
Proof.
  induction 1 as [|r n start vu bs l a s Hr Hn Hv HL HB H IH]; intros pre tail f p G Hat Hrem.
  - exists p. split; [reflexivity|]. rewrite app_nil_r. split; [exact Hat|]. split; [exact Hrem|].
    cbn. destruct (qparse_loop f p); reflexivity.
  - assert (CE : concat bs = []) by (apply concat_empty; exact HB).
    rewrite CE in *. cbn [app] in *.
    assert (Hat' : at_ pre (hdr KRead r n ++ vu ++ (l ++ tail)) p) by (rewrite <- !app_assoc in Hat; exact Hat).
    pose proof (qnext_sub p pre r n start vu (l ++ tail) G Hr Hn Hv Hat' Hrem) as Q.
    set (q := {| p_data := p_data p; p_offset := (p_offset p + length (hdr KRead r n) + length vu)%nat;
                 p_remaining := n - 1; p_register := start + 1; p_resolution := r |}) in *.
    set (q0 := {| p_data := p_data p; p_offset := p_offset q; p_remaining := 0;
                  p_register := p_register q + Z.of_nat (Z.to_nat (n - 1)); p_resolution := r |}).
    destruct (IH (pre ++ hdr KRead r n ++ vu) tail f q0) as (p' & D' & A' & R' & E').
    + exact G.
    + destruct Hat' as [D O]. split; [cbn; rewrite D, <- !app_assoc; reflexivity|].
      cbn. rewrite O, !app_length. lia.
    + reflexivity.
    + exists p'. split; [exact D'|]. split; [rewrite <- !app_assoc in *; exact A'|]. split; [exact R'|].
      assert (LA : forall (bs : list (list Z)) st, length (accesses KRead st r bs) = length bs)
        by (clear; induction bs; intros; cbn [accesses length]; auto).
      rewrite app_length, LA, HL.
      replace (Z.to_nat n + length a + f)%nat with (S (Z.to_nat (n - 1) + (length a + f))) by lia.
      cbn [qparse_loop]. rewrite Q.
      rewrite (qparse_values (Z.to_nat (n - 1)) (length a + f) q) by (cbn; lia).
      match goal with |- context [qparse_loop (length a + f) ?x] => change x with q0 end.
      rewrite E'. destruct (qparse_loop f p') as [t|e]; cbn [bind]; [|reflexivity].
      unfold read_pairs at 2. rewrite map_app. fold (read_pairs a). fold (read_pairs (accesses KRead start r bs)).
      rewrite read_pairs_accesses, HL.
      replace (Z.to_nat n) with (S (Z.to_nat (n - 1))) by lia.
      cbn [repeat index map app]. unfold q. cbn [p_register p_resolution].
      rewrite <- !app_assoc. reflexivity.
Qed.

Lemma hdr_length : forall k r n, (1 <= length (hdr k r n))%nat.
Proof. intros. unfold hdr. destruct (n <=? 3); cbn; lia. Qed.

Lemma kframe_small : forall l a s, kframe KRead l a s -> (length a <= 64 * length l)%nat /\ bytes_ok l.
Proof.
  induction 1 as [|r n start vu bs l a s Hr Hn Hv HL HB H [IH1 IH2]]; [split; [cbn; lia|constructor]|].
  assert (LA : forall (bs : list (list Z)) st, length (accesses KRead st r bs) = length bs)
        by (clear; induction bs; intros; cbn [accesses length]; auto).
  pose proof (varuint_nonempty _ _ Hv) as Hvu.
  assert (LV : (1 <= length vu)%nat) by (destruct vu; [congruence|cbn; lia]).
  pose proof (hdr_length KRead r n). split.
  - rewrite !app_length, LA. lia.
  - rewrite (concat_empty bs HB). cbn [app].
    assert (S0 : 0 <= 4 * spec_code r <= 12) by (destruct r; cbn; try congruence; lia).
    apply Forall_app. split.
    + unfold hdr. cbn [base_of]. destruct (Z.leb_spec n 3); repeat (apply Forall_cons; [unfold byte_ok; lia|]); apply Forall_nil.
    + apply Forall_app. split; [apply Hv|exact IH2].
Qed.

Lemma query_parse_kframe : forall l a s, kframe KRead l a s ->
  query_parse l = Ok (read_pairs a).
Proof.
  intros l a s H. destruct (kframe_small _ _ _ H) as [SM B]. unfold query_parse.
  replace (256 * (length l + 1))%nat
    with (length a + S (256 * (length l + 1) - length a - 1))%nat by lia.
  destruct (qparse_kframe l a s H [] [] (S (256 * (length l + 1) - length a - 1)) (parser_init l))
    as (p' & D & A & R & E); auto.
  - split; [cbn; rewrite app_nil_r; reflexivity|reflexivity].
  - rewrite E. cbn [qparse_loop]. unfold qnext_step. rewrite R. cbn [Z.eqb negb].
    replace (_ <=? _)%nat with true; [cbn; rewrite app_nil_r; reflexivity|].
    destruct A as [A1 A2]. unfold p_size. rewrite A1, A2, !app_length. cbn. lia.
Qed.

Lemma qscan_nops : forall n f p pre, at_ pre (repeat NOP n) p -> (n <= f)%nat ->
  qscan f p = (set_offset p (length pre + n), QNone).
Proof.
  induction n as [|n IH]; intros f p pre [D O] Hf.
  - assert (E : nth_error (p_data p) (p_offset p) = None).
    { apply nth_error_None. rewrite D, O, app_length. cbn. lia. }
    replace (set_offset p (length pre + 0)) with p.
    2:{ destruct p; cbn in *. unfold set_offset. cbn. f_equal. lia. }
    destruct f; cbn [qscan]; [reflexivity|]. rewrite E. reflexivity.
  - destruct f as [|f]; [lia|]. cbn [qscan repeat] in *.
    rewrite (at_nth pre NOP (repeat NOP n) p (conj D O)). cbn [NOP Z.eqb Pos.eqb].
    rewrite (IH f _ (pre ++ [NOP])); [| |lia].
    + unfold set_offset. cbn. f_equal. f_equal. rewrite app_length. cbn. lia.
    + split; cbn [set_offset p_data p_offset].
      * rewrite D, <- app_assoc. reflexivity.
      * rewrite O, app_length. cbn. lia.
Qed.

Lemma query_parse_padded : forall l a s n, kframe KRead l a s -> (1 <= n)%nat ->
  query_parse (l ++ repeat NOP n) = Ok (read_pairs a ++ [None]).
Proof.
  intros l a s n H Hn. destruct (kframe_small _ _ _ H) as [SM B]. unfold query_parse.
  rewrite app_length, repeat_length.
  replace (256 * (length l + n + 1))%nat
    with (length a + S (S (256 * (length l + n + 1) - length a - 2)))%nat by lia.
  destruct (qparse_kframe l a s H [] (repeat NOP n)
              (S (S (256 * (length l + n + 1) - length a - 2))) (parser_init (l ++ repeat NOP n)))
    as (p' & D & A & R & E).
  - cbn. apply Forall_app. split; auto. apply Forall_forall. intros x I.
    apply repeat_spec in I. subst. unfold byte_ok, NOP. lia.
  - split; reflexivity.
  - reflexivity.
  - rewrite E. cbn [app] in A. remember (256 * (length l + n + 1) - length a - 2)%nat as g.
    cbn [qparse_loop]. unfold qnext_step at 1. rewrite R. cbn [Z.eqb negb].
    destruct A as [A1 A2].
    assert (SZ : p_size p' = (length l + n)%nat)
      by (unfold p_size; rewrite A1, !app_length, repeat_length; reflexivity).
    rewrite SZ, A2. replace (_ <=? _)%nat with false by lia.
    rewrite (qscan_nops n _ p' l (conj A1 A2)) by lia.
    unfold qnext_step. cbn [set_offset p_remaining p_offset]. rewrite R. cbn [Z.eqb negb].
    replace (_ <=? _)%nat with true; [reflexivity|].
    unfold p_size in *. cbn [set_offset p_data]. rewrite SZ. symmetry. apply Nat.leb_le. lia.
Qed.

(** Termination on arbitrary bytes. *)
Lemma qscan_post : forall f p, bytes_ok (p_data p) -> (p_offset p <= p_size p)%nat ->
  p_remaining p = 0 ->
  (p_size p - p_offset p <= f)%nat ->
  match qscan f p with
  | (q, QNone) => p_data q = p_data p /\ p_remaining q = 0 /\ p_offset q = p_size p
  | (q, QItem _ _) => p_data q = p_data p /\ 0 <= p_remaining q <= 254 /\
      (S (p_offset p) < p_offset q <= p_size p)%nat
  | (_, QStop) => False
  | (_, QRaise e) => e = RuntimeError
  end.
Proof.
  induction f as [|f IH]; intros p G Hle Hr Hf.
  - cbn. repeat split; auto; lia.
  - cbn [qscan]. destruct (nth_error (p_data p) (p_offset p)) as [cmd|] eqn:E.
    2:{ apply nth_error_None in E. repeat split; auto. unfold p_size in *. lia. }
    assert (LT : (p_offset p < p_size p)%nat) by (apply nth_error_Some; congruence).
    assert (NEXT : forall r o, (p_offset p < o <= p_size p)%nat ->
      match qscan f {| p_data := p_data p; p_offset := o; p_remaining := p_remaining p;
                       p_register := p_register p; p_resolution := r |} with
      | (q, QNone) => p_data q = p_data p /\ p_remaining q = 0 /\ p_offset q = p_size p
      | (q, QItem _ _) => p_data q = p_data p /\ 0 <= p_remaining q <= 254 /\
          (S (p_offset p) < p_offset q <= p_size p)%nat
      | (_, QStop) => False
      | (_, QRaise e) => e = RuntimeError
      end).
    { intros r o Ho.
      specialize (IH {| p_data := p_data p; p_offset := o; p_remaining := p_remaining p;
                       p_register := p_register p; p_resolution := r |}).
      unfold p_size in *. cbn [p_data p_offset p_remaining] in IH.
      specialize (IH G ltac:(lia) Hr ltac:(lia)).
      destruct (qscan _ _) as [q []]; auto. destruct IH as (A & B & C). repeat split; auto; lia. }
    unfold set_offset. cbn [p_data p_offset p_remaining p_register p_resolution].
    destruct (cmd =? NOP); [apply NEXT; lia|].
    destruct (_ && _); [|apply NEXT; lia].
    assert (AFTER : forall r o count, 0 <= count <= 255 -> (p_offset p < o <= p_size p)%nat ->
      match (if count =? 0 then qscan f {| p_data := p_data p; p_offset := o; p_remaining := p_remaining p;
                       p_register := p_register p; p_resolution := r |}
             else match read_varuint o (p_data p) with
                | (None, off) => ({| p_data := p_data p; p_offset := off; p_remaining := p_remaining p;
                       p_register := p_register p; p_resolution := r |}, QRaise RuntimeError)
                | (Some reg, off) =>
                    ({| p_data := p_data p; p_offset := off;
                        p_remaining := count - 1; p_register := reg + 1;
                        p_resolution := r |}, QItem reg r) end) with
      | (q, QNone) => p_data q = p_data p /\ p_remaining q = 0 /\ p_offset q = p_size p
      | (q, QItem _ _) => p_data q = p_data p /\ 0 <= p_remaining q <= 254 /\
          (S (p_offset p) < p_offset q <= p_size p)%nat
      | (_, QStop) => False
      | (_, QRaise e) => e = RuntimeError
      end).
    { intros r o count Hc Ho. destruct (Z.eqb_spec count 0); [apply NEXT; lia|].
      pose proof (C02_read_varuint_bounds o (p_data p) G) as C.
      destruct (read_varuint o (p_data p)) as [[v|] k]; [|reflexivity].
      cbn [p_data p_remaining p_offset]. unfold p_size in *.
      repeat split; auto; lia. }
    destruct (_ =? 0) eqn:C0.
    + destruct (nth_error (p_data p) (S (p_offset p))) as [count|] eqn:E2; [|reflexivity].
      assert (0 <= count <= 255).
      { pose proof (Forall_forall byte_ok (p_data p)) as [FF _]. specialize (FF G count (nth_error_In _ _ E2)). unfold byte_ok in FF. lia. }
      apply AFTER; auto.
      assert (S (p_offset p) < p_size p)%nat by (apply nth_error_Some; congruence). lia.
    + pose proof (AFTER (res_of_code (Z.land (Z.shiftr cmd 2) 3)) (S (p_offset p)) (Z.land cmd 3)) as X.
      rewrite C0 in X. apply X; [|lia].
      pose proof (Z.land_nonneg cmd 3). pose proof (Z.land_ones cmd 2).
      change (Z.ones 2) with 3 in *. rewrite H0 by lia. change (2^2) with 4. lia.
Qed.

Lemma qparse_terminates : forall f p, bytes_ok (p_data p) -> (p_offset p <= p_size p)%nat ->
  0 <= p_remaining p -> p_remaining p + 256 * Z.of_nat (p_size p - p_offset p) < Z.of_nat f ->
  qparse_loop f p <> Raise Diverges.
Proof.
  induction f as [|f IH]; intros p G Hle Hr Hf; [lia|].
  cbn [qparse_loop]. unfold qnext_step.
  destruct (Z.eqb_spec (p_remaining p) 0) as [E|N]; cbn [negb].
  - destruct (Nat.leb_spec (p_size p) (p_offset p)); [discriminate|].
    pose proof (qscan_post (p_size p - p_offset p) p G Hle E ltac:(lia)) as P.
    destruct (qscan _ p) as [q []].
    + destruct P as (D & R & O).
      assert (SZ : p_size q = p_size p) by (unfold p_size; rewrite D; reflexivity).
      specialize (IH q). rewrite D, SZ in IH. specialize (IH G ltac:(lia) ltac:(lia) ltac:(lia)).
      destruct (qparse_loop f q); cbn; congruence.
    + destruct P as (D & R & O).
      assert (SZ : p_size q = p_size p) by (unfold p_size; rewrite D; reflexivity).
      specialize (IH q). rewrite D, SZ in IH. specialize (IH G ltac:(lia) ltac:(lia) ltac:(lia)).
      destruct (qparse_loop f q); cbn; congruence.
    + contradiction.
    + subst. discriminate.
  - match goal with |- context [qparse_loop f ?q] => pose proof (IH q) as I; destruct (qparse_loop f q) end;
      cbn; try congruence.
    unfold p_size in *. cbn [p_data p_offset p_remaining] in I. intro X.
    apply I; auto; lia.
Qed.
