(** RegisterParser (multiplex.py:105-238): termination, bounds, and the
    result on well formed replies. *)
From Coq Require Import ZArith List Bool Lia.
From Coq Require Import ZifyBool ZifyNat.
From Verif Require Import PyBase PyFloat Mux_Model Protocol_Spec Zbits Mux_Proofs.
Ltac Zify.zify_post_hook ::= Z.div_mod_to_equations.
Import ListNotations.
Open Scope Z_scope.

(** The client loop: call next; when it reports a register, read it. *)
Fixpoint drive (fuel : nat) (p : parser) : res (list (Z * resolution * pyval)) :=
  match fuel with
  | O => Raise Diverges
  | S fuel =>
      match next p with
      | (_, None) => Ok []
      | (p, Some (reg, r)) =>
          match read p r with
          | Raise e => Raise e
          | Ok (p, v) =>
              match drive fuel p with
              | Ok l => Ok ((reg, r, v) :: l)
              | Raise e => Raise e
              end
          end
      end
  end.

Definition unread (p : parser) : nat := (p_size p - p_offset p)%nat.

Definition good (p : parser) : Prop :=
  bytes_ok (p_data p) /\ (p_offset p <= p_size p)%nat /\ p_resolution p <> IGNORE.

Lemma init_good : forall d, bytes_ok d -> good (parser_init d).
Proof. intros d H. repeat split; cbn; auto; try lia; discriminate. Qed.

Lemma res_of_code_ok : forall c, res_of_code c <> IGNORE.
Proof.
  intro c. unfold res_of_code. destruct (c =? 0), (c =? 1), (c =? 2); discriminate.
Qed.

Lemma resolution_size_pos : forall r, r <> IGNORE -> (1 <= resolution_size r <= 4)%nat.
Proof. intros [] H; cbn; try lia. congruence. Qed.

(** next_scan does not depend on the fuel once it covers the unread bytes. *)
Lemma next_scan_fuel : forall f1 f2 p, (unread p <= f1)%nat -> (unread p <= f2)%nat ->
  next_scan f1 p = next_scan f2 p.
Proof.
  unfold unread, p_size.
  assert (Z0 : forall f p, (length (p_data p) - p_offset p <= 0)%nat -> next_scan f p = (p, None)).
  { intros [|f] p H; cbn; auto.
    destruct (nth_error (p_data p) (p_offset p)) eqn:E; auto.
    assert (p_offset p < length (p_data p))%nat by (apply nth_error_Some; congruence). lia. }
  induction f1 as [|f1 IH]; intros f2 p H1 H2.
  - rewrite !Z0 by lia. reflexivity.
  - destruct f2 as [|f2]; [rewrite !Z0 by lia; reflexivity|].
    cbn [next_scan].
    destruct (nth_error (p_data p) (p_offset p)) as [cmd|]; auto.
    destruct (cmd =? NOP).
    { apply IH; cbn [set_offset p_data p_offset]; lia. }
    destruct (_ <=? _)%nat; auto.
    destruct (_ && _); auto.
    cbn [set_offset p_data p_offset p_remaining p_register p_resolution].
    destruct (Z.land cmd 3 =? 0).
    + destruct (nth_error (p_data p) (S (p_offset p))) as [count|]; auto.
      destruct (_ <=? _)%nat; auto.
      destruct (count =? 0); auto. apply IH; cbn [set_offset p_data p_offset]; lia.
    + reflexivity.
Qed.

Lemma read_varuint_offset : forall off buf, bytes_ok buf -> (off <= length buf)%nat ->
  (off <= snd (read_varuint off buf) <= length buf)%nat.
Proof.
  intros off buf Hb Ho. rewrite read_varuint_rv by exact Hb. cbn [snd].
  pose proof (rv_consumed 5 (skipn off buf)) as [_ H]. rewrite skipn_length in H. lia.
Qed.

(** What next leaves behind. *)
Definition next_post (p : parser) (o : parser * option (Z * resolution)) : Prop :=
  let (p', r) := o in
  good p' /\ p_data p' = p_data p /\ (p_offset p <= p_offset p')%nat /\
  match r with
  | Some (reg, r) => r <> IGNORE /\ (p_offset p' + resolution_size r <= p_size p')%nat
  | None => True
  end.

Lemma next_scan_post : forall f p, good p -> next_post p (next_scan f p).
Proof.
  induction f as [|f IH]; intros p G; [cbn; auto|].
  destruct G as (Hb & Ho & Hr). cbn [next_scan].
  destruct (nth_error (p_data p) (p_offset p)) as [cmd|] eqn:E; [|repeat split; auto].
  assert (L : (p_offset p < length (p_data p))%nat) by (apply nth_error_Some; congruence).
  assert (STEP : forall p', p_data p' = p_data p -> (p_offset p <= p_offset p' <= p_size p)%nat ->
            p_resolution p' <> IGNORE -> next_post p (next_scan f p')).
  { intros p' D O R. unfold p_size in *.
    assert (G' : good p') by (repeat split; unfold p_size; rewrite ?D; auto; lia).
    specialize (IH p' G'). unfold next_post in *. destruct (next_scan f p') as [q o].
    rewrite D in IH. intuition lia. }
  assert (DONE : forall p', p_data p' = p_data p -> (p_offset p <= p_offset p' <= p_size p)%nat ->
            p_resolution p' <> IGNORE -> next_post p (p', None)).
  { intros p' D O R. unfold p_size in *. repeat split; unfold p_size; rewrite ?D; auto; lia. }
  unfold p_size in *.
  cbn [set_offset p_data p_offset p_remaining p_register p_resolution].
  destruct (cmd =? NOP); [apply STEP; cbn; auto; lia|].
  destruct (_ <=? _)%nat; [apply DONE; cbn; auto; lia|].
  destruct (_ && _); [|apply DONE; cbn; auto; lia].
  set (r := res_of_code _). assert (Rr : r <> IGNORE) by apply res_of_code_ok.
  assert (AFTER : forall off count, (p_offset p <= off <= length (p_data p))%nat ->
    next_post p
      (if count =? 0 then next_scan f {| p_data := p_data p; p_offset := off;
            p_remaining := p_remaining p; p_register := p_register p; p_resolution := r |}
       else match read_varuint off (p_data p) with
            | (Some reg, off0) =>
                if (length (p_data p) <? off0 + resolution_size r)%nat
                then ({| p_data := p_data p; p_offset := off0; p_remaining := count - 1;
                         p_register := reg; p_resolution := r |}, None)
                else ({| p_data := p_data p; p_offset := off0; p_remaining := count - 1;
                         p_register := reg + 1; p_resolution := r |}, Some (reg, r))
            | (None, off0) => ({| p_data := p_data p; p_offset := off0;
                p_remaining := p_remaining p; p_register := p_register p;
                p_resolution := r |}, None)
            end)).
  { intros off count Hoff. destruct (count =? 0); [apply STEP; cbn; auto|].
    pose proof (read_varuint_offset off (p_data p) Hb ltac:(lia)) as RV.
    destruct (read_varuint off (p_data p)) as [[reg|] off0]; cbn [snd] in RV.
    - destruct (Nat.ltb_spec (length (p_data p)) (off0 + resolution_size r)).
      + apply DONE; cbn; auto; lia.
      + repeat split; cbn; auto; unfold p_size; cbn; try lia.
    - apply DONE; cbn; auto; lia. }
  destruct (Z.land cmd 3 =? 0) eqn:E0.
  - destruct (nth_error (p_data p) (S (p_offset p))) as [count|] eqn:E2;
      [|apply DONE; cbn; auto; lia].
    assert (S (p_offset p) < length (p_data p))%nat by (apply nth_error_Some; congruence).
    destruct (_ <=? _)%nat; [apply DONE; cbn; auto; lia|].
    apply AFTER. lia.
  - pose proof (AFTER (S (p_offset p)) (Z.land cmd 3) ltac:(lia)) as A.
    rewrite E0 in A. exact A.
Qed.

Lemma next_post_ok : forall p, good p -> next_post p (next p).
Proof.
  intros p G. pose proof G as (Hb & Ho & Hr). unfold next.
  destruct (Nat.leb_spec (p_size p) (p_offset p)); [repeat split; auto|].
  destruct (negb _).
  - destruct (Nat.ltb_spec (p_size p) (p_offset p + resolution_size (p_resolution p)));
      repeat split; auto; unfold p_size in *; cbn; lia.
  - apply next_scan_post. exact G.
Qed.

Lemma read_ok : forall p r, good p -> (p_offset p + resolution_size r <= p_size p)%nat ->
  exists v, read p r = Ok (set_offset p (p_offset p + resolution_size r), v) /\
            good (set_offset p (p_offset p + resolution_size r)).
Proof.
  intros p r (Hb & Ho & Hr) L. unfold read. replace (_ <? _)%nat with false by lia.
  eexists. split; [reflexivity|]. repeat split; cbn; auto.
Qed.

Lemma drive_total : forall f p, good p -> (unread p < f)%nat -> exists l, drive f p = Ok l.
Proof.
  induction f as [|f IH]; intros p G H; [lia|]. cbn [drive].
  pose proof (next_post_ok p G) as P. destruct (next p) as [p' [[reg r]|]]; [|eauto].
  destruct P as (G' & D & O & R & L).
  destruct (read_ok p' r G' L) as (v & E & G''). rewrite E.
  pose proof (resolution_size_pos r R).
  destruct (IH _ G'') as [l ->]; eauto.
  unfold unread, p_size in *. cbn [set_offset p_data p_offset]. rewrite D in *. lia.
Qed.

Lemma drive_fuel : forall f1 f2 p l, drive f1 p = Ok l -> (f1 <= f2)%nat -> drive f2 p = Ok l.
Proof.
  induction f1 as [|f1 IH]; intros f2 p l H L; [discriminate|].
  destruct f2 as [|f2]; [lia|]. cbn [drive] in *.
  destruct (next p) as [p' [[reg r]|]]; auto.
  destruct (read p' r) as [[p'' v]|]; auto.
  destruct (drive f1 p'') as [l'|] eqn:E; [|discriminate].
  rewrite (IH f2 p'' l' E) by lia. exact H.
Qed.

(** ** Well formed replies *)

Lemma res_code_spec : forall r, r <> IGNORE -> forall n, 0 <= n < 4 ->
  res_of_code (Z.land (Z.shiftr (0x20 + 4 * spec_code r + n) 2) 3) = r /\
  Z.land (0x20 + 4 * spec_code r + n) 3 = n.
Proof.
  intros r Hr n Hn.
  assert (n = 0 \/ n = 1 \/ n = 2 \/ n = 3) as [->|[->|[->| ->]]] by lia;
    destruct r; try congruence; vm_compute; auto.
Qed.

Definition at_ (pre rest : list Z) (p : parser) : Prop :=
  p_data p = pre ++ rest /\ p_offset p = length pre.

Lemma at_nth : forall pre b rest p, at_ pre (b :: rest) p ->
  nth_error (p_data p) (p_offset p) = Some b.
Proof.
  intros pre b rest p [D O]. rewrite D, O. rewrite nth_error_app2 by lia.
  now rewrite Nat.sub_diag.
Qed.

Lemma rv_is_varuint : forall vu v rest, is_varuint vu v ->
  rv 5 (vu ++ rest) = (Some v, length vu).
Proof.
  intros vu v rest [_ H]. specialize (H rest). unfold spec_varuint in H.
  pose proof (rv_spec 5 (vu ++ rest)) as R.
  pose proof (rv_consumed 5 (vu ++ rest)) as [_ C].
  destruct (rv 5 (vu ++ rest)) as [[w|] k]; cbn [fst snd] in *; [|congruence].
  rewrite R in H. injection H as -> H. f_equal.
  assert (length (skipn k (vu ++ rest)) = length rest) by (rewrite H; reflexivity).
  rewrite skipn_length, app_length in *. lia.
Qed.

Lemma varuint_nonempty : forall vu v, is_varuint vu v -> vu <> [].
Proof.
  intros vu v [_ H] ->. specialize (H []). cbn in H. discriminate.
Qed.

(** next at a subframe *)
Lemma next_sub : forall p pre (long : bool) r start vu rest n, good p ->
  r <> IGNORE -> 1 <= n <= (if long then 127 else 3) -> is_varuint vu start ->
  (resolution_size r <= length rest)%nat ->
  at_ pre (reply_header long r n ++ vu ++ rest) p -> p_remaining p = 0 ->
  next p = ({| p_data := p_data p;
               p_offset := (p_offset p + length (reply_header long r n) + length vu)%nat;
               p_remaining := n - 1; p_register := start + 1; p_resolution := r |},
            Some (start, r)).
Proof.
  intros p pre long r start vu rest n G Hr Hn Hv HL Hat Hrem.
  pose proof (varuint_nonempty _ _ Hv) as Hvu.
  assert (LV : (1 <= length vu)%nat) by (destruct vu; [congruence|cbn; lia]).
  destruct Hat as [D O].
  assert (SZ : p_size p = (length pre + length (reply_header long r n)
                           + (length vu + length rest))%nat)
    by (unfold p_size; rewrite D, !app_length; lia).
  assert (HH : (1 <= length (reply_header long r n))%nat) by (destruct long; cbn; lia).
  unfold next. replace (_ <=? _)%nat with false by lia.
  rewrite Hrem. cbn [Z.eqb negb].
  destruct (p_size p - p_offset p)%nat as [|f] eqn:EF; [lia|].
  cbn [next_scan].
  assert (RV : read_varuint (p_offset p + length (reply_header long r n)) (p_data p)
               = (Some start, (p_offset p + length (reply_header long r n) + length vu)%nat)).
  { rewrite read_varuint_rv by apply G.
    rewrite D, O, app_assoc.
    replace (length pre + length (reply_header long r n))%nat
      with (length (pre ++ reply_header long r n)) by (rewrite app_length; lia).
    rewrite skipn_app, skipn_all, Nat.sub_diag. cbn [skipn app].
    rewrite rv_is_varuint with (v := start) by auto. reflexivity. }
  assert (S0 : 0 <= 4 * spec_code r <= 12) by (destruct r; cbn; try congruence; lia).
  destruct long; cbn [reply_header] in *.
  - rewrite (at_nth pre (0x20 + 4 * spec_code r) (n :: vu ++ rest) p (conj D O)).
    replace (_ =? NOP) with false by (unfold NOP; lia).
    unfold p_size in *.
    cbn [set_offset p_data p_offset p_remaining p_register p_resolution length] in *.
    replace (_ <=? _)%nat with false by lia.
    rewrite (proj2 (Z.leb_le _ _)), (proj2 (Z.ltb_lt _ _)) by lia. cbn [andb].
    destruct (res_code_spec r Hr 0 ltac:(lia)) as [C1 C2]. rewrite Z.add_0_r in C1, C2.
    rewrite C1, C2. cbn [Z.eqb].
    assert (N2 : nth_error (p_data p) (S (p_offset p)) = Some n).
    { rewrite D, O. rewrite nth_error_app2 by lia.
      replace (S (length pre) - length pre)%nat with 1%nat by lia. reflexivity. }
    rewrite N2. replace (_ <=? _)%nat with false by lia.
    replace (n =? 0) with false by lia.
    replace (S (S (p_offset p))) with (p_offset p + 2)%nat by lia. rewrite RV.
    replace (_ <? _)%nat with false by lia. reflexivity.
  - rewrite (at_nth pre (0x20 + 4 * spec_code r + n) (vu ++ rest) p (conj D O)).
    replace (_ =? NOP) with false by (unfold NOP; lia).
    unfold p_size in *.
    cbn [set_offset p_data p_offset p_remaining p_register p_resolution length] in *.
    replace (_ <=? _)%nat with false by lia.
    rewrite (proj2 (Z.leb_le _ _)), (proj2 (Z.ltb_lt _ _)) by lia. cbn [andb].
    destruct (res_code_spec r Hr n ltac:(lia)) as [C1 C2].
    rewrite C1, C2. replace (n =? 0) with false by lia.
    replace (S (p_offset p)) with (p_offset p + 1)%nat by lia. rewrite RV.
    replace (_ <? _)%nat with false by lia. reflexivity.
Qed.

Lemma unpack_python : forall r raw, r <> IGNORE -> unpack r raw = spec_python r raw.
Proof. intros [] raw H; try reflexivity. congruence. Qed.

Lemma read_raw : forall p pre raw rest r, at_ pre (raw ++ rest) p ->
  r <> IGNORE -> length raw = spec_width r ->
  read p r = Ok (set_offset p (p_offset p + spec_width r), spec_python r raw).
Proof.
  intros p pre raw rest r [D O] Hr HL. unfold read, p_size.
  assert (RS : resolution_size r = spec_width r) by (destruct r; reflexivity).
  rewrite D, RS, O, !app_length. replace (_ <? _)%nat with false by lia.
  do 2 f_equal. unfold slice. rewrite skipn_app, skipn_all, Nat.sub_diag. cbn [skipn app].
  replace (length pre + spec_width r - length pre)%nat with (length raw) by lia.
  rewrite firstn_app, firstn_all, Nat.sub_diag. cbn [firstn]. rewrite app_nil_r.
  apply unpack_python. exact Hr.
Qed.

(** Once the values of a subframe are being delivered. *)
Lemma drive_values : forall vals f pre rest p l k, good p ->
  at_ pre (concat vals ++ rest) p -> p_resolution p <> IGNORE ->
  p_remaining p = Z.of_nat (length vals) ->
  Forall (fun v => bytes_ok v /\ length v = spec_width (p_resolution p)) vals ->
  (forall p', good p' -> at_ (pre ++ concat vals) rest p' -> p_remaining p' = 0 ->
     drive f p' = Ok l) ->
  k = (length vals + f)%nat ->
  drive k p = Ok (map (fun x => (fst x, spec_python (snd (fst x)) (snd x)))
                   (numbered (p_register p) (p_resolution p) vals) ++ l).
Proof.
  induction vals as [|v vals IH]; intros f pre rest p l k G Hat Hr Hrem HF K ->.
  - cbn in *. apply K; auto. now rewrite app_nil_r.
  - cbn [length Nat.add drive numbered map concat app fst snd].
    inversion HF as [|? ? [Bv Lv] HF']; subst.
    destruct Hat as [D O]. cbn [concat] in D. rewrite <- app_assoc in D.
    assert (RS : resolution_size (p_resolution p) = spec_width (p_resolution p))
      by (destruct (p_resolution p); reflexivity).
    pose proof (resolution_size_pos _ Hr) as RP.
    assert (SZ : p_size p = (length pre + (length v + length (concat vals ++ rest)))%nat)
      by (unfold p_size; rewrite D, !app_length; lia).
    unfold next. replace (_ <=? _)%nat with false by lia.
    rewrite Hrem. cbn [length]. replace (Z.of_nat (S (length vals)) =? 0) with false by lia.
    cbn [negb]. replace (_ <? _)%nat with false by lia.
    set (p1 := Build_parser _ _ _ _ _).
    rewrite (read_raw p1 pre v (concat vals ++ rest) (p_resolution p)); auto.
    2:{ split; cbn; auto. }
    set (p2 := set_offset p1 _).
    assert (G2 : good p2).
    { destruct G as (Gb & _ & _). unfold p2, p1, good, p_size in *.
      cbn [set_offset p_data p_offset p_resolution p_remaining]. repeat split; auto. lia. }
    rewrite (IH f (pre ++ v) rest p2 l (length vals + f)%nat); auto.
    + unfold p2, p1. split; cbn [set_offset p_data p_offset].
      * now rewrite D, app_assoc.
      * rewrite app_length. lia.
    + unfold p2, p1. cbn [set_offset p_remaining]. lia.
    + intros p' Gp' A R. apply K; auto. cbn [concat]. rewrite app_assoc. exact A.
Qed.

Lemma values_length : forall r vals,
  Forall (fun v => bytes_ok v /\ length v = spec_width r) vals ->
  length (concat vals) = (spec_width r * length vals)%nat.
Proof.
  intros r vals H. induction H as [|v vals [_ Hv] _ IH]; cbn; [lia|].
  rewrite app_length, IH, Hv. lia.
Qed.

(** The parser finds nothing in [tail]. *)
Definition stops (tail : list Z) : Prop :=
  forall pre p, good p -> at_ pre tail p -> p_remaining p = 0 ->
    snd (next p) = None.

Lemma stops_nil : stops [].
Proof.
  intros pre p G [D O] R. unfold next. rewrite app_nil_r in D.
  replace (_ <=? _)%nat with true by (unfold p_size; rewrite D, O; lia). reflexivity.
Qed.

(** A byte that is neither NOP nor a reply ends the parse. *)
Lemma stops_other : forall c tail, c <> 0x50 -> ~ (0x20 <= c < 0x30) -> stops (c :: tail).
Proof.
  intros c tail H1 H2 pre p G A R. pose proof A as [D O]. unfold next.
  destruct (Nat.leb_spec (p_size p) (p_offset p)); [reflexivity|].
  rewrite R. cbn [Z.eqb negb].
  destruct (p_size p - p_offset p)%nat as [|k] eqn:EK; [reflexivity|].
  cbn [next_scan]. rewrite (at_nth _ _ _ _ A).
  replace (c =? NOP) with false by (unfold NOP; lia).
  destruct (_ <=? _)%nat; [reflexivity|].
  replace (_ && _) with false by lia. reflexivity.
Qed.

Lemma drive_reply_tail : forall tail, stops tail -> forall l a, encodes_reply l a ->
  forall pre p, good p -> at_ pre (l ++ tail) p -> p_remaining p = 0 ->
  exists f, drive f p = Ok (map (fun x => (fst x, spec_python (snd (fst x)) (snd x))) a).
Proof.
  intros tail STOP.
  induction 1 as [|l a H IH|long r start vu vals l a Hr Hn Hv HF H IH];
    intros pre p G Hat Hrem.
  - exists 1%nat. cbn [drive]. pose proof (STOP pre p G Hat Hrem) as S0.
    destruct (next p) as [q o]. cbn in S0. subst o. reflexivity.
  - destruct Hat as [D O]. cbn [app] in D.
    assert (At' : at_ (pre ++ [0x50]) (l ++ tail) (set_offset p (S (p_offset p)))).
    { split; cbn; [now rewrite D, <- app_assoc|]. rewrite app_length. cbn. lia. }
    assert (L : (p_offset p < p_size p)%nat)
      by (unfold p_size; rewrite D, O, app_length; cbn; lia).
    assert (G' : good (set_offset p (S (p_offset p)))).
    { destruct G as (Gb & Go & Gr). repeat split; cbn; auto. }
    destruct (IH _ _ G' At' Hrem) as [f E]. exists f. rewrite <- E.
    assert (N : next p = next (set_offset p (S (p_offset p)))).
    { unfold next. replace (_ <=? _)%nat with false by lia.
      rewrite Hrem. cbn [set_offset p_data p_offset p_remaining p_register p_resolution].
      rewrite Hrem. cbn [Z.eqb negb].
      destruct (p_size p - p_offset p)%nat as [|k] eqn:EK; [lia|].
      cbn [next_scan]. rewrite (at_nth pre 0x50 (l ++ tail) p (conj D O)).
      change (0x50 =? NOP) with true. cbn [andb].
      unfold p_size in *. cbn [set_offset p_data p_offset].
      replace k with (length (p_data p) - S (p_offset p))%nat by lia.
      destruct (Nat.leb_spec (length (p_data p)) (S (p_offset p))); auto.
      replace (_ - _)%nat with 0%nat by lia. reflexivity. }
    destruct f as [|f]; [reflexivity|]. cbn [drive]. rewrite N. reflexivity.
  - destruct vals as [|v0 vals]; [cbn in Hn; destruct long; lia|].
    inversion HF as [|? ? [Bv Lv] HF']; subst.
    assert (RS : resolution_size r = spec_width r) by (destruct r; reflexivity).
    rewrite <- !app_assoc in Hat. pose proof Hat as [D O].
    pose proof (next_sub p pre long r start vu (concat (v0 :: vals) ++ l ++ tail) _ G Hr Hn Hv) as N.
    specialize (N ltac:(cbn; rewrite !app_length; lia) Hat Hrem).
    set (n := Z.of_nat (length (v0 :: vals))) in *.
    set (hd := reply_header long r n) in *.
    set (pre1 := pre ++ hd ++ vu).
    match type of N with _ = (?q, _) => set (p1 := q) in * end.
    pose proof (next_post_ok p G) as NP. rewrite N in NP. destruct NP as (G1 & _ & _ & _ & L1).
    assert (At1 : at_ pre1 (v0 ++ concat vals ++ l ++ tail) p1).
    { split; cbn [p1 p_data p_offset].
      - rewrite D. unfold pre1. cbn [concat]. rewrite <- !app_assoc. reflexivity.
      - unfold pre1. rewrite !app_length. lia. }
    set (p2 := set_offset p1 (p_offset p1 + spec_width r)).
    assert (G2 : good p2).
    { destruct (read_ok p1 r G1 L1) as (_ & _ & Gx). rewrite RS in Gx. exact Gx. }
    assert (At2 : at_ (pre1 ++ v0) (concat vals ++ l ++ tail) p2).
    { destruct At1 as [D1 O1]. split; cbn [p2 set_offset p_data p_offset].
      - rewrite D1, <- app_assoc. reflexivity.
      - rewrite app_length. lia. }
    assert (K : exists f, forall p', good p' -> at_ ((pre1 ++ v0) ++ concat vals) (l ++ tail) p' ->
              p_remaining p' = 0 -> drive f p' = Ok (map (fun x => (fst x, spec_python (snd (fst x)) (snd x))) a)).
    { exists (S (length (p_data p))). intros p' Gp' Ap' Rp'.
      destruct (IH _ _ Gp' Ap' Rp') as [f E].
      assert (T : exists l', drive (S (length (p_data p))) p' = Ok l').
      { apply drive_total; auto. unfold unread, p_size.
        assert (length (p_data p') = length (p_data p)).
        { destruct Ap' as [-> _]. rewrite D. unfold pre1. cbn [concat].
          rewrite <- !app_assoc. reflexivity. }
        lia. }
      destruct T as [l' T]. rewrite T. f_equal.
      pose proof (drive_fuel _ (Nat.max f (S (length (p_data p)))) _ _ E ltac:(lia)) as X1.
      pose proof (drive_fuel _ (Nat.max f (S (length (p_data p)))) _ _ T ltac:(lia)) as X2.
      congruence. }
    destruct K as [f K].
    exists (S (length vals + f)). cbn [drive]. rewrite N.
    rewrite (read_raw p1 pre1 v0 (concat vals ++ l ++ tail) r At1 Hr Lv). fold p2.
    assert (R2 : p_remaining p2 = Z.of_nat (length vals)).
    { unfold p2, p1, n. cbn [set_offset p_remaining length]. lia. }
    pose proof (drive_values vals f (pre1 ++ v0) (l ++ tail) p2 _ _ G2 At2 Hr R2 HF' K eq_refl) as DV.
    rewrite DV. rewrite map_app. reflexivity.
Qed.

Lemma drive_reply_len : forall l a tail, stops tail -> encodes_reply l a ->
  bytes_ok (l ++ tail) ->
  drive (S (length (l ++ tail))) (parser_init (l ++ tail))
  = Ok (map (fun x => (fst x, spec_python (snd (fst x)) (snd x))) a).
Proof.
  intros l a tail ST H B.
  destruct (drive_reply_tail tail ST l a H [] (parser_init (l ++ tail)) (init_good _ B)
              (conj eq_refl eq_refl) eq_refl) as [f E].
  destruct (drive_total (S (length (l ++ tail))) (parser_init (l ++ tail)) (init_good _ B)) as [l' T].
  { unfold unread, p_size. cbn. lia. }
  rewrite T. f_equal.
  pose proof (drive_fuel _ (Nat.max f (S (length (l ++ tail)))) _ _ E ltac:(lia)) as X1.
  pose proof (drive_fuel _ (Nat.max f (S (length (l ++ tail)))) _ _ T ltac:(lia)) as X2.
  congruence.
Qed.

Lemma encodes_bytes_ok : forall l a, encodes_reply l a -> bytes_ok l.
Proof.
  induction 1 as [|l a H IH|long r start vu vals l a Hr Hn Hv HF H IH].
  - constructor.
  - constructor; auto. unfold byte_ok. lia.
  - apply Forall_app. split.
    + assert (0 <= 4 * spec_code r <= 12) by (destruct r; cbn; try congruence; lia).
      destruct long; unfold reply_header;
        repeat (apply Forall_cons; [unfold byte_ok; lia|]); apply Forall_nil.
    + apply Forall_app. split; [apply Hv|]. apply Forall_app. split; auto.
      clear - HF. induction HF as [|v vals [Hv _] _ IH]; cbn; [constructor|].
      apply Forall_app. auto.
Qed.
