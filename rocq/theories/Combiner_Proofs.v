(** WriteCombiner (multiplex.py:356-419) and the methods built on it: what
    the bytes they produce decode to. *)
From Coq Require Import ZArith List Bool Lia.
From Coq Require Import ZifyBool ZifyNat.
From Verif Require Import PyBase PyFloat Mux_Model Protocol_Spec Zbits Mux_Proofs Parser_Proofs
  Ctrl_Model.
Ltac Zify.zify_post_hook ::= Z.div_mod_to_equations.
Import ListNotations.
Open Scope Z_scope.

(** ** Frames as a sequence of subframes *)

Definition base_of (k : akind) : Z :=
  match k with KWrite => 0 | KRead => 0x10 | KReply => 0x20 end.
Definition kwidth (k : akind) (r : resolution) : nat :=
  match k with KRead => 0%nat | _ => spec_width r end.
Definition mk_access (k : akind) (reg : Z) (r : resolution) (b : list Z) : access :=
  match k with
  | KWrite => AWrite reg r (spec_value r b)
  | KRead => ARead reg r
  | KReply => AReply reg r (spec_value r b)
  end.
Fixpoint accesses (k : akind) (reg : Z) (r : resolution) (bs : list (list Z)) : list access :=
  match bs with
  | [] => []
  | b :: bs => mk_access k reg r b :: accesses k (reg + 1) r bs
  end.

Definition hdr (k : akind) (r : resolution) (n : Z) : list Z :=
  if n <=? 3 then [base_of k + 4 * spec_code r + n] else [base_of k + 4 * spec_code r; n].

(** [frame l a s]: l is a sequence of subframes asking for the accesses a,
    to be answered by s bytes. *)
Inductive frame : list Z -> list access -> Z -> Prop :=
| fr_nil : frame [] [] 0
| fr_nop l a s : frame l a s -> frame (0x50 :: l) a s
| fr_sub k r n start vu bs l a s :
    r <> IGNORE -> 1 <= n <= 127 -> is_varuint vu start ->
    length bs = Z.to_nat n -> Forall (fun b => length b = kwidth k r) bs ->
    frame l a s ->
    frame (hdr k r n ++ vu ++ concat bs ++ l) (accesses k start r bs ++ a)
      (s + match k with
           | KRead => Z.of_nat (length (hdr k r n)) + Z.of_nat (length vu)
                      + n * Z.of_nat (spec_width r)
           | _ => 0
           end).

(** Subframes of one kind only, no NOP. *)
Inductive kframe (k : akind) : list Z -> list access -> Z -> Prop :=
| kf_nil : kframe k [] [] 0
| kf_sub r n start vu bs l a s :
    r <> IGNORE -> 1 <= n <= 127 -> is_varuint vu start ->
    length bs = Z.to_nat n -> Forall (fun b => length b = kwidth k r) bs ->
    kframe k l a s ->
    kframe k (hdr k r n ++ vu ++ concat bs ++ l) (accesses k start r bs ++ a)
      (s + match k with
           | KRead => Z.of_nat (length (hdr k r n)) + Z.of_nat (length vu)
                      + n * Z.of_nat (spec_width r)
           | _ => 0
           end).

Lemma kframe_frame : forall k l a s, kframe k l a s -> frame l a s.
Proof. induction 1; [apply fr_nil|]. apply fr_sub; auto. Qed.

Lemma kframe_app : forall k l1 a1 s1 l2 a2 s2, kframe k l1 a1 s1 -> kframe k l2 a2 s2 ->
  kframe k (l1 ++ l2) (a1 ++ a2) (s1 + s2).
Proof.
  intros k l1 a1 s1 l2 a2 s2 H. revert l2 a2 s2.
  induction H as [|r n start vu bs l a s Hr Hn Hv HL HB H IH]; intros l2 a2 s2 H2.
  - exact H2.
  - rewrite <- !app_assoc.
    match goal with |- kframe _ _ _ (s + ?d + s2) => replace (s + d + s2) with ((s + s2) + d) by lia end.
    apply kf_sub; auto.
Qed.

Lemma spec_values_concat : forall k r bs start l,
  Forall (fun b => length b = kwidth k r) bs ->
  spec_values k r (length bs) start (concat bs ++ l) = Some (accesses k start r bs, l).
Proof.
  induction bs as [|b bs IH]; intros start l H; [reflexivity|].
  inversion H as [|? ? Hb Hbs]; subst.
  cbn [length spec_values concat accesses]. rewrite <- app_assoc.
  fold (kwidth k r). rewrite app_length.
  replace (_ <? _)%nat with false by lia.
  rewrite <- Hb. rewrite skipn_app, skipn_all, Nat.sub_diag. cbn [skipn app].
  rewrite firstn_app, firstn_all, Nat.sub_diag. cbn [firstn]. rewrite app_nil_r.
  rewrite IH by auto. destruct k; reflexivity.
Qed.

Lemma cmd_facts : forall k r n, r <> IGNORE -> 0 <= n <= 3 ->
  let c := base_of k + 4 * spec_code r + n in
  c =? 0x50 = false /\ (0 <=? c) && (c <? 0x30) = true /\
  (if c <? 0x10 then KWrite else if c <? 0x20 then KRead else KReply) = k /\
  spec_resolution ((c / 4) mod 4) = r /\ c mod 4 = n.
Proof.
  intros k r n Hr Hn.
  assert (n = 0 \/ n = 1 \/ n = 2 \/ n = 3) as [->|[->|[->| ->]]] by lia;
    destruct k; destruct r; try congruence; vm_compute; auto.
Qed.

Lemma is_varuint_byte : forall n, 0 <= n < 128 -> is_varuint [n] n.
Proof.
  intros n Hn. split.
  - repeat constructor; lia.
  - intro rest. unfold spec_varuint. cbn. replace (n <? 128) with true by lia. reflexivity.
Qed.

Lemma frame_decode : forall l a s, frame l a s -> forall f, (length l <= f)%nat ->
  spec_decode_n f l = Some a /\ spec_reply_size_n f l = Some s.
Proof.
  induction 1 as [|l a s H IH|k r n start vu bs l a s Hr Hn Hv HL HB H IH]; intros f Hf.
  - destruct f; auto.
  - cbn [length] in Hf. destruct f as [|f]; [lia|]. cbn [spec_decode_n spec_reply_size_n].
    change (80 =? 80) with true. cbn [andb]. apply IH. lia.
  - assert (SV : forall l', spec_values k r (Z.to_nat n) start (concat bs ++ l') = Some (accesses k start r bs, l')).
    { intro l'. rewrite <- HL. apply spec_values_concat. exact HB. }
    pose proof (proj2 Hv) as VU.
    unfold hdr in *. destruct (Z.leb_spec n 3) as [L3|L3].
    + cbn [app length] in *. rewrite !app_length in Hf.
      destruct f as [|f]; [lia|]. cbn [spec_decode_n spec_reply_size_n].
      destruct (cmd_facts k r n Hr ltac:(lia)) as (C1 & C2 & C3 & C4 & C5).
      rewrite C1, C2, C3, C4, C5. replace (n =? 0) with false by lia.
      rewrite VU, SV. destruct (IH f) as [-> ->]; [lia|]. split; [reflexivity|].
      f_equal. f_equal. destruct k; auto. cbn [length]. rewrite !app_length. lia.
    + cbn [app length] in *. rewrite !app_length in Hf.
      destruct f as [|f]; [lia|]. cbn [spec_decode_n spec_reply_size_n].
      destruct (cmd_facts k r 0 Hr ltac:(lia)) as (C1 & C2 & C3 & C4 & C5).
      rewrite Z.add_0_r in C1, C2, C3, C4, C5.
      rewrite C1, C2, C3, C4, C5. change (0 =? 0) with true. cbn [andb].
      change (n :: vu ++ concat bs ++ l) with ([n] ++ vu ++ concat bs ++ l).
      rewrite (proj2 (is_varuint_byte n ltac:(lia))).
      rewrite VU, SV. destruct (IH f) as [-> ->]; [lia|]. split; [reflexivity|].
      f_equal. f_equal. destruct k; auto. cbn [length app]. rewrite !app_length. lia.
Qed.

Lemma frame_app : forall l1 a1 s1 l2 a2 s2, frame l1 a1 s1 -> frame l2 a2 s2 ->
  frame (l1 ++ l2) (a1 ++ a2) (s1 + s2).
Proof.
  intros l1 a1 s1 l2 a2 s2 H. revert l2 a2 s2.
  induction H as [|l a s H IH|k r n start vu bs l a s Hr Hn Hv HL HB H IH]; intros l2 a2 s2 H2.
  - exact H2.
  - cbn. apply fr_nop. apply IH. exact H2.
  - rewrite <- !app_assoc.
    match goal with |- frame _ _ (s + ?d + s2) => replace (s + d + s2) with ((s + s2) + d) by lia end.
    apply fr_sub; auto.
Qed.

(** ** Varuints *)
Definition vub (v : Z) : list Z :=
  match varuint_loop (varuint_fuel v) v with Some l => l | None => [] end.

Lemma write_vub : forall w v, 0 <= v -> write_varuint w v = Ok (w ++ vub v).
Proof.
  intros w v Hv. unfold write_varuint, vub. destruct (varuint_total v Hv) as [l ->]. reflexivity.
Qed.

Lemma vub_varuint : forall v, 0 <= v < 2 ^ 35 -> is_varuint (vub v) v.
Proof.
  intros v Hv. unfold vub. destruct (varuint_total v ltac:(lia)) as [l E]. rewrite E. split.
  - eapply varuint_bytes_ok; eauto.
  - intro rest. eapply spec_varuint_inv; eauto. lia.
Qed.

Lemma write_int8_ok : forall w z, 0 <= z <= 127 -> write_int8 w z = Ok (w ++ [z]).
Proof.
  intros w z H. unfold write_int8, w_write, pack. cbn [int_width].
  rewrite pack_int_ok by (unfold in_range; cbn; lia). cbn [bind le_bytes].
  rewrite Z.mod_small by lia. reflexivity.
Qed.

(** ** The output of the combiner *)

Lemma res_eqb_eq : forall a b, res_eqb a b = true <-> a = b.
Proof. intros [] []; cbn; split; intro H; try discriminate; auto. Qed.
Lemma res_eqb_refl : forall a, res_eqb a a = true.
Proof. intros []; reflexivity. Qed.
Lemma res_eqb_neq : forall a b, a <> b -> res_eqb a b = false.
Proof. intros a b H. destruct (res_eqb a b) eqn:E; auto. apply res_eqb_eq in E. congruence. Qed.

Definition same_as (cur : option resolution) (r : resolution) : bool :=
  match cur with Some x => res_eqb x r | None => false end.

Fixpoint enc (k : akind) (cur : option resolution) (start : Z) (rs : list resolution)
  (bs : list (list Z)) : list Z :=
  match rs, bs with
  | r :: rs, b :: bs =>
      (if res_eqb r IGNORE then []
       else if same_as cur r then b
       else hdr k r (1 + leading r rs) ++ vub start ++ b)
      ++ enc k (Some r) (start + 1) rs bs
  | _, _ => []
  end.

(** The size the combiner announces. *)
Fixpoint esize (k : akind) (cur : option resolution) (start : Z) (rs : list resolution) : Z :=
  match rs with
  | r :: rs =>
      (if same_as cur r || res_eqb r IGNORE then 0
       else Z.of_nat (length (hdr k r (1 + leading r rs))) + Z.of_nat (length (vub start))
            + (1 + leading r rs) * Z.of_nat (resolution_size r))
      + esize k (Some r) (start + 1) rs
  | [] => 0
  end.

(** Every run of equal resolutions fits in a count byte. *)
Fixpoint runs_ok (cur : option resolution) (rs : list resolution) : Prop :=
  match rs with
  | r :: rs =>
      (same_as cur r = true \/ r = IGNORE \/ leading r rs <= 126) /\ runs_ok (Some r) rs
  | [] => True
  end.

Lemma leading_nonneg : forall r l, 0 <= leading r l.
Proof. induction l as [|x l IH]; cbn [leading]; [lia|]. destruct (res_eqb x r); lia. Qed.

(** First failure of the writes that are made. *)
Fixpoint collect (rs : list resolution) (outs : list (res (list Z))) : res (list (list Z)) :=
  match rs, outs with
  | r :: rs, o :: outs =>
      match (if res_eqb r IGNORE then Ok [] else o) with
      | Raise e => Raise e
      | Ok b => match collect rs outs with Ok bs => Ok (b :: bs) | Raise e => Raise e end
      end
  | _, _ => Ok []
  end.

Definition does (act : writer -> res writer) (o : res (list Z)) : Prop :=
  forall w, act w = match o with Ok b => Ok (w ++ b) | Raise e => Raise e end.

Lemma lor_cmd : forall k r, r <> IGNORE -> k <> KReply ->
  Z.lor (4 * res_code r) (base_of k) = base_of k + 4 * spec_code r.
Proof. intros [] [] H1 H2; try congruence; reflexivity. Qed.

Lemma write_header : forall k r count w start, r <> IGNORE -> k <> KReply ->
  1 <= count <= 127 -> 0 <= start ->
  bind (if count <=? 3 then write_int8 w (Z.lor (4 * res_code r) (base_of k) + count)
        else bind (write_int8 w (Z.lor (4 * res_code r) (base_of k)))
                  (fun w => write_int8 w count))
       (fun w => write_varuint w start)
  = Ok (w ++ hdr k r count ++ vub start).
Proof.
  intros k r count w start Hr Hk Hc Hs. rewrite lor_cmd by auto.
  assert (0 <= base_of k <= 16) by (destruct k; cbn; try lia; congruence).
  assert (0 <= 4 * spec_code r <= 12) by (destruct r; cbn; try lia; congruence).
  unfold hdr. destruct (Z.leb_spec count 3).
  - rewrite write_int8_ok by lia. cbn [bind]. rewrite write_vub by auto.
    rewrite <- app_assoc. reflexivity.
  - rewrite write_int8_ok by lia. cbn [bind]. rewrite write_int8_ok by lia. cbn [bind].
    rewrite write_vub by auto. rewrite <- !app_assoc. reflexivity.
Qed.

Lemma run_fields_spec : forall rs acts outs k c pre,
  k <> KReply -> c_base c = base_of k ->
  c_resolutions c = pre ++ rs -> c_offset c = length pre ->
  0 <= c_start c + Z.of_nat (length pre) ->
  length acts = length rs -> length outs = length rs ->
  (forall i r act o, nth_error rs i = Some r -> nth_error acts i = Some act ->
     nth_error outs i = Some o -> r <> IGNORE -> does act o) ->
  runs_ok (c_current c) rs ->
  match collect rs outs with
  | Raise e => run_fields c acts = Raise e
  | Ok bs => length bs = length rs /\ exists c', run_fields c acts = Ok c' /\
      c_writer c' = c_writer c ++ enc k (c_current c) (c_start c + Z.of_nat (length pre)) rs bs /\
      c_reply_size c' = c_reply_size c
                        + esize k (c_current c) (c_start c + Z.of_nat (length pre)) rs
  end.
Proof.
  induction rs as [|r rs IH]; intros acts outs k c pre Hk Hb HR HO HS LA LO HA RO.
  - destruct acts; [|discriminate]. cbn. split; [reflexivity|]. exists c. rewrite app_nil_r. repeat split; auto; lia.
  - destruct acts as [|act acts]; [discriminate|]. destruct outs as [|o outs]; [discriminate|].
    cbn [length] in LA, LO.
    assert (NTH : nth_error (c_resolutions c) (c_offset c) = Some r).
    { rewrite HR, HO, nth_error_app2, Nat.sub_diag by lia. reflexivity. }
    assert (SK : skipn (S (c_offset c)) (c_resolutions c) = rs).
    { rewrite HR, HO. replace (S (length pre)) with (length (pre ++ [r])) by (rewrite app_length; cbn; lia).
      change (pre ++ r :: rs) with (pre ++ [r] ++ rs). rewrite app_assoc.
      rewrite skipn_app, skipn_all, Nat.sub_diag. reflexivity. }
    cbn [run_fields]. unfold maybe_write. rewrite NTH.
    change (match c_current c with Some x => res_eqb x r | None => false end)
      with (same_as (c_current c) r).
    cbn [runs_ok] in RO. destruct RO as [RO1 RO2].
    assert (HA' : forall i r act o, nth_error rs i = Some r -> nth_error acts i = Some act ->
       nth_error outs i = Some o -> r <> IGNORE -> does act o)
      by (intros i ? ? ? E1 E2 E3; apply (HA (S i)); auto).
    assert (DO : r <> IGNORE -> does act o) by (intro; apply (HA 0%nat r); auto).
    assert (HRp : c_resolutions c = (pre ++ [r]) ++ rs) by (rewrite <- app_assoc; exact HR).
    assert (HOp : S (c_offset c) = length (pre ++ [r])) by (rewrite app_length; cbn; lia).
    assert (STp : c_start c + Z.of_nat (length (pre ++ [r])) = c_start c + Z.of_nat (length pre) + 1)
      by (rewrite app_length; cbn; lia).
    (* the rest, from any writer and size *)
    assert (REST : forall w sz,
      match collect rs outs with
      | Raise e => run_fields {| c_writer := w; c_base := c_base c; c_start := c_start c;
          c_resolutions := c_resolutions c; c_reply_size := sz; c_offset := S (c_offset c);
          c_current := Some r |} acts = Raise e
      | Ok bs => length bs = length rs /\ exists c', run_fields {| c_writer := w; c_base := c_base c; c_start := c_start c;
          c_resolutions := c_resolutions c; c_reply_size := sz; c_offset := S (c_offset c);
          c_current := Some r |} acts = Ok c' /\
          c_writer c' = w ++ enc k (Some r) (c_start c + Z.of_nat (length pre) + 1) rs bs /\
          c_reply_size c' = sz + esize k (Some r) (c_start c + Z.of_nat (length pre) + 1) rs
      end).
    { intros w sz. rewrite <- STp.
      apply (IH acts outs k
        {| c_writer := w; c_base := c_base c; c_start := c_start c;
          c_resolutions := c_resolutions c; c_reply_size := sz; c_offset := S (c_offset c);
          c_current := Some r |} (pre ++ [r])); auto; try lia.
      cbn [c_start]. rewrite app_length. cbn. lia. }
    cbn [collect enc esize].
    destruct (same_as (c_current c) r) eqn:SM.
    + assert (CUR : c_current c = Some r).
      { unfold same_as in SM. destruct (c_current c) as [x|]; [|discriminate].
        apply res_eqb_eq in SM. congruence. }
      cbn [bind]. cbv zeta beta iota. cbn [c_writer c_base c_start c_resolutions c_reply_size c_offset c_current orb].
      rewrite CUR.
      destruct (res_eqb r IGNORE) eqn:RI; cbn [negb].
      * cbn [bind]. specialize (REST (c_writer c) (c_reply_size c)).
        destruct (collect rs outs) as [bs|e]; [|exact REST].
        destruct REST as (LB & c' & E & W & SZ). split; [cbn; lia|]. exists c'. split; [exact E|].
        split; [rewrite W; reflexivity|rewrite SZ; lia].
      * assert (r <> IGNORE) by (intro; subst; discriminate).
        rewrite (DO H). destruct o as [b|e]; [|reflexivity]. cbn [bind].
        specialize (REST (c_writer c ++ b) (c_reply_size c)).
        destruct (collect rs outs) as [bs|e]; [|exact REST].
        destruct REST as (LB & c' & E & W & SZ). split; [cbn; lia|]. exists c'. split; [exact E|].
        split; [rewrite W; rewrite <- app_assoc; reflexivity|rewrite SZ; lia].
    + destruct (res_eqb r IGNORE) eqn:RI.
      * apply res_eqb_eq in RI. subst r. cbn [bind]. cbv zeta beta iota.
        cbn [c_writer c_base c_start c_resolutions c_reply_size c_offset c_current orb bind].
        specialize (REST (c_writer c) (c_reply_size c)).
        destruct (collect rs outs) as [bs|e]; [|exact REST].
        destruct REST as (LB & c' & E & W & SZ). split; [cbn; lia|]. exists c'. split; [exact E|].
        split; [rewrite W; reflexivity|rewrite SZ; lia].
      * assert (NI : r <> IGNORE) by (intro; subst; discriminate).
        rewrite SK. pose proof (leading_nonneg r rs) as LN.
        assert (CNT : 1 <= 1 + leading r rs <= 127) by (destruct RO1 as [?|[?|?]]; try congruence; lia).
        set (count := 1 + leading r rs) in *.
        pose proof (write_header k r count (c_writer c) (c_start c + Z.of_nat (c_offset c)) NI Hk CNT
                      ltac:(lia)) as WH.
        rewrite Hb. cbv zeta.
        destruct (if count <=? 3 then _ else _) as [w1|e1] eqn:EW; cbn [bind] in WH |- *; [|discriminate].
        rewrite WH. cbn [bind]. cbv beta iota.
        cbn [c_writer c_base c_start c_resolutions c_reply_size c_offset c_current orb bind].
        rewrite (DO NI). destruct o as [b|e]; [|reflexivity]. cbn [bind].
        rewrite <- HO in *.
        match goal with |- context [Build_combiner _ _ _ _ ?z _ _] => specialize (REST ((c_writer c ++ hdr k r count ++ vub (c_start c + Z.of_nat (c_offset c))) ++ b) z) end.
        rewrite Hb in REST.
        destruct (collect rs outs) as [bs|e]; [|exact REST].
        destruct REST as (LB & c' & E & W & SZ). split; [cbn; lia|]. exists c'. split; [exact E|].
        split; [rewrite W; rewrite <- !app_assoc; reflexivity|].
        rewrite SZ. rewrite !app_length. lia.
Qed.

(** ** Decoding that output *)

Fixpoint wanted (k : akind) (start : Z) (rs : list resolution) (bs : list (list Z)) : list access :=
  match rs, bs with
  | r :: rs, b :: bs =>
      (if res_eqb r IGNORE then [] else [mk_access k start r b]) ++ wanted k (start + 1) rs bs
  | _, _ => []
  end.

Definition head_differs (cur : option resolution) (rs : list resolution) : Prop :=
  match rs with [] => True | r :: _ => same_as cur r = false \/ r = IGNORE end.

(** The rest of a run. *)
Lemma enc_run : forall n k r start rest bs1 bs2, r <> IGNORE -> length bs1 = n ->
  enc k (Some r) start (repeat r n ++ rest) (bs1 ++ bs2)
  = concat bs1 ++ enc k (Some r) (start + Z.of_nat n) rest bs2.
Proof.
  induction n as [|n IH]; intros k r start rest bs1 bs2 Hr HL.
  - destruct bs1; [|discriminate]. cbn. rewrite Z.add_0_r. reflexivity.
  - destruct bs1 as [|b bs1]; [discriminate|]. cbn [repeat app enc concat same_as].
    rewrite (res_eqb_neq r IGNORE) by auto. rewrite res_eqb_refl.
    rewrite IH by (auto; cbn in HL; lia).
    replace (start + 1 + Z.of_nat n) with (start + Z.of_nat (S n)) by lia.
    rewrite app_assoc. reflexivity.
Qed.

Lemma wanted_run : forall n k r start rest bs1 bs2, r <> IGNORE -> length bs1 = n ->
  wanted k start (repeat r n ++ rest) (bs1 ++ bs2)
  = accesses k start r bs1 ++ wanted k (start + Z.of_nat n) rest bs2.
Proof.
  induction n as [|n IH]; intros k r start rest bs1 bs2 Hr HL.
  - destruct bs1; [|discriminate]. cbn. rewrite Z.add_0_r. reflexivity.
  - destruct bs1 as [|b bs1]; [discriminate|]. cbn [repeat app wanted accesses].
    rewrite (res_eqb_neq r IGNORE) by auto. cbn [app].
    rewrite IH by (auto; cbn in HL; lia).
    replace (start + 1 + Z.of_nat n) with (start + Z.of_nat (S n)) by lia. reflexivity.
Qed.

Lemma esize_run : forall n k r start rest,
  esize k (Some r) start (repeat r n ++ rest) = esize k (Some r) (start + Z.of_nat n) rest.
Proof.
  induction n as [|n IH]; intros k r start rest.
  - cbn. rewrite Z.add_0_r. reflexivity.
  - cbn [repeat app esize same_as]. rewrite res_eqb_refl. cbn [orb]. rewrite IH.
    replace (start + 1 + Z.of_nat n) with (start + Z.of_nat (S n)) by lia. lia.
Qed.

Lemma leading_split : forall r rs, exists rest,
  rs = repeat r (Z.to_nat (leading r rs)) ++ rest /\ head_differs (Some r) rest.
Proof.
  induction rs as [|x rs (rest & E & D)]; [exists []; cbn; auto|].
  cbn [leading]. destruct (res_eqb x r) eqn:RX.
  - apply res_eqb_eq in RX. subst x. exists rest. split; [|exact D].
    pose proof (leading_nonneg r rs).
    replace (Z.to_nat (1 + leading r rs)) with (S (Z.to_nat (leading r rs))) by lia.
    cbn [repeat app]. f_equal. exact E.
  - exists (x :: rs). split; [reflexivity|]. cbn. left.
    destruct (res_eqb r x) eqn:X; auto. apply res_eqb_eq in X. subst. rewrite res_eqb_refl in RX. discriminate.
Qed.

Lemma runs_ok_run : forall n r rest, runs_ok (Some r) (repeat r n ++ rest) -> runs_ok (Some r) rest.
Proof. induction n as [|n IH]; intros r rest H; [exact H|]. apply IH. apply H. Qed.

Lemma enc_frame : forall N rs bs k cur start, (length rs <= N)%nat -> length bs = length rs ->
  head_differs cur rs -> runs_ok cur rs -> 0 <= start ->
  start + Z.of_nat (length rs) <= 2 ^ 35 ->
  (forall i r b, nth_error rs i = Some r -> nth_error bs i = Some b -> r <> IGNORE ->
     length b = kwidth k r) ->
  kframe k (enc k cur start rs bs) (wanted k start rs bs)
        (match k with KRead => esize k cur start rs | _ => 0 end).
Proof.
  induction N as [|N IH]; intros rs bs k cur start HN HL HD RO H0 H35 HW.
  - destruct rs; [|cbn in HN; lia]. destruct bs; [|discriminate]. cbn. destruct k; constructor.
  - destruct rs as [|r rs]; [destruct bs; [|discriminate]; cbn; destruct k; constructor|].
    destruct bs as [|b bs]; [discriminate|]. cbn [length] in *.
    destruct (res_eqb r IGNORE) eqn:RI.
    + apply res_eqb_eq in RI. subst r. cbn [enc wanted esize res_eqb app].
      rewrite orb_true_r, Z.add_0_l.
      apply IH; try lia.
      * destruct rs as [|x rs]; cbn; auto. destruct (res_eqb x IGNORE) eqn:E.
        { apply res_eqb_eq in E. auto. }
        left. destruct x; try reflexivity. discriminate.
      * apply RO.
      * intros i ? ? E1 E2. apply (HW (S i)); auto.
    + assert (NI : r <> IGNORE) by (intro; subst; discriminate).
      cbn [head_differs] in HD. destruct HD as [HD|HD]; [|congruence].
      cbn [enc wanted esize]. rewrite RI, HD. cbn [orb].
      destruct (leading_split r rs) as (rest & E & D).
      pose proof (leading_nonneg r rs) as LN.
      set (n := Z.to_nat (leading r rs)) in *.
      assert (LR : length rs = (n + length rest)%nat) by (rewrite E, app_length, repeat_length; reflexivity).
      set (bs1 := firstn n bs). set (bs2 := skipn n bs).
      assert (EB : bs = bs1 ++ bs2) by (symmetry; apply firstn_skipn).
      assert (L1 : length bs1 = n) by (apply firstn_length_le; lia).
      assert (L2 : length bs2 = length rest) by (unfold bs2; rewrite skipn_length; lia).
      destruct RO as [RO1 RO2].
      assert (CNT : leading r rs <= 126) by (destruct RO1 as [?|[?|?]]; try congruence; lia).
      assert (W1 : Forall (fun b => length b = kwidth k r) (b :: bs1)).
      { constructor; [apply (HW 0%nat r b); auto|].
        apply Forall_forall. intros x I. apply In_nth_error in I. destruct I as [i I].
        assert (i < n)%nat by (rewrite <- L1; apply nth_error_Some; congruence).
        apply (HW (S i) r x); auto.
        - cbn. rewrite E. rewrite nth_error_app1 by (rewrite repeat_length; lia).
          rewrite nth_error_repeat by lia. reflexivity.
        - cbn. rewrite EB. rewrite nth_error_app1 by lia. exact I. }
      assert (FR : kframe k (enc k (Some r) (start + 1 + Z.of_nat n) rest bs2)
                         (wanted k (start + 1 + Z.of_nat n) rest bs2)
                         (match k with KRead => esize k (Some r) (start + 1 + Z.of_nat n) rest | _ => 0 end)).
      { apply IH; try lia; auto.
        - rewrite E in RO2. apply runs_ok_run in RO2. exact RO2.
        - intros i r' b' I1 I2. apply (HW (S (n + i))%nat r' b').
          + cbn. rewrite E. rewrite nth_error_app2 by (rewrite repeat_length; lia).
            rewrite repeat_length. replace (n + i - n)%nat with i by lia. exact I1.
          + cbn. rewrite EB. rewrite nth_error_app2 by lia.
            replace (n + i - length bs1)%nat with i by lia. exact I2. }
      pose proof (kf_sub k r (1 + leading r rs) start (vub start) (b :: bs1) _ _ _ NI ltac:(lia)
                    (vub_varuint start ltac:(lia)) ltac:(cbn [length]; lia) W1 FR) as F.
      assert (X1 : enc k (Some r) (start + 1) rs bs
                   = concat bs1 ++ enc k (Some r) (start + 1 + Z.of_nat n) rest bs2).
      { rewrite E at 1. rewrite EB. rewrite enc_run by auto. reflexivity. }
      assert (X2 : wanted k (start + 1) rs bs
                   = accesses k (start + 1) r bs1 ++ wanted k (start + 1 + Z.of_nat n) rest bs2).
      { rewrite E at 1. rewrite EB. rewrite wanted_run by auto. reflexivity. }
      assert (X3 : esize k (Some r) (start + 1) rs = esize k (Some r) (start + 1 + Z.of_nat n) rest).
      { rewrite E at 1. apply esize_run. }
      rewrite X1, X2, X3. cbn [concat accesses] in F. rewrite <- !app_assoc in *. cbn [app] in *.
      assert (RS : resolution_size r = spec_width r) by (destruct r; reflexivity).
      rewrite RS.
      match goal with F : kframe _ ?l1 ?a1 ?s1 |- kframe _ ?l2 ?a2 ?s2 =>
        replace s2 with s1 by (destruct k; lia); exact F end.
Qed.

(** ** Runs *)

Lemma leading_repeat : forall n r c, Z.of_nat n <= leading r (repeat r n ++ c).
Proof.
  induction n as [|n IH]; intros r c; [apply leading_nonneg|].
  cbn [repeat app leading]. rewrite res_eqb_refl. specialize (IH r c). lia.
Qed.

Lemma runs_ok_long : forall a r c cur, r <> IGNORE ->
  runs_ok cur (a ++ repeat r 128 ++ c) -> cur = Some r /\ a = repeat r (length a).
Proof.
  induction a as [|x a IH]; intros r c cur Hr H.
  - change (repeat r 128) with (r :: repeat r 127) in H. cbn [app runs_ok] in H.
    destruct H as [[H|[H|H]] _]; [|congruence|].
    + unfold same_as in H. destruct cur as [y|]; [|discriminate]. apply res_eqb_eq in H. subst. auto.
    + pose proof (leading_repeat 127 r c). lia.
  - cbn [app runs_ok] in H. destruct H as [H1 H2].
    destruct (IH r c (Some x) Hr H2) as [E1 E2]. injection E1 as ->.
    split; [|cbn; congruence].
    destruct H1 as [H1|[H1|H1]]; [|congruence|].
    + unfold same_as in H1. destruct cur as [y|]; [|discriminate]. apply res_eqb_eq in H1. congruence.
    + rewrite E2 in H1. rewrite app_assoc, <- repeat_app in H1.
      pose proof (leading_repeat (length a + 128) r c). lia.
Qed.

Lemma runs_ok_dec : forall rs cur, runs_ok cur rs \/
  exists a r c, r <> IGNORE /\ rs = a ++ repeat r 128 ++ c.
Proof.
  induction rs as [|r rs IH]; intro cur; [left; exact I|].
  destruct (IH (Some r)) as [H|(a & x & c & Hx & E)].
  - cbn [runs_ok]. destruct (same_as cur r) eqn:S1; [left; auto|].
    destruct (res_eqb r IGNORE) eqn:RI; [left; apply res_eqb_eq in RI; auto|].
    destruct (Z_le_gt_dec (leading r rs) 126) as [L|L]; [left; auto|].
    right. destruct (leading_split r rs) as (rest & E & _).
    exists [], r, (repeat r (Z.to_nat (leading r rs) - 127) ++ rest).
    split; [intro; subst; discriminate|]. cbn [app].
    change (repeat r 128) with (r :: repeat r 127). cbn [app]. f_equal.
    rewrite E at 1. rewrite app_assoc, <- repeat_app. do 2 f_equal. lia.
  - right. exists (r :: a), x, c. split; auto. rewrite E. reflexivity.
Qed.

Lemma runs_ok_short : forall rs cur, (length rs <= 127)%nat -> runs_ok cur rs.
Proof.
  intros rs cur H. destruct (runs_ok_dec rs cur) as [|(a & r & c & _ & E)]; auto. exfalso.
  subst. rewrite !app_length, repeat_length in H. lia.
Qed.

(** ** Queries *)

Definition blanks (rs : list resolution) : list (list Z) := map (fun _ => []) rs.

Lemma collect_blanks : forall rs, collect rs (map (fun _ => Ok []) rs) = Ok (blanks rs).
Proof.
  induction rs as [|r rs IH]; [reflexivity|]. cbn [map collect blanks].
  rewrite IH. destruct (res_eqb r IGNORE); reflexivity.
Qed.

Lemma run_query_ok : forall w start rs, 0 <= start -> start + Z.of_nat (length rs) <= 2 ^ 35 ->
  runs_ok None rs ->
  exists c (q : list Z), run_query w start rs = Ok c /\ c_writer c = w ++ q /\
    kframe KRead q (wanted KRead start rs (blanks rs)) (c_reply_size c).
Proof.
  intros w start rs H0 H35 RO. unfold run_query.
  pose proof (run_fields_spec rs (map (fun _ w => Ok w) rs) (map (fun _ => Ok []) rs) KRead
                (combiner_init w 0x10 start rs) []) as R.
  cbn [c_writer c_base c_start c_resolutions c_reply_size c_offset c_current combiner_init length] in R.
  rewrite collect_blanks in R.
  destruct R as (LB & c & E & W & SZ); auto; try discriminate; try (rewrite map_length; reflexivity); try lia.
  - intros i r act o E1 E2 E3 _ w'.
    rewrite nth_error_map in E2, E3. rewrite E1 in E2, E3. cbn in E2, E3.
    injection E2 as <-. injection E3 as <-. rewrite app_nil_r. reflexivity.
  - rewrite Z.add_0_r in W, SZ. rewrite Z.add_0_l in SZ.
    exists c, (enc KRead None start rs (blanks rs)). split; [exact E|]. split; [exact W|].
    rewrite SZ. apply (enc_frame (length rs)); auto.
    + destruct rs; cbn; auto.
    + intros i r b E1 E2 _. unfold blanks in E2. rewrite nth_error_map, E1 in E2.
      injection E2 as <-. reflexivity.
Qed.

Lemma write_int8_big : forall w z, 128 <= z -> write_int8 w z = Raise StructError.
Proof.
  intros w z H. unfold write_int8, w_write, pack. cbn [int_width].
  rewrite pack_int_raise by (unfold in_range; cbn; lia). reflexivity.
Qed.

Lemma run_query_long : forall rs c pre, c_base c = base_of KRead ->
  c_resolutions c = pre ++ rs -> c_offset c = length pre ->
  0 <= c_start c + Z.of_nat (length pre) -> ~ runs_ok (c_current c) rs ->
  run_fields c (map (fun _ w => Ok w) rs) = Raise StructError.
Proof.
  induction rs as [|r rs IH]; intros c pre Hb HR HO HS NR; [exfalso; apply NR; exact I|].
  assert (NTH : nth_error (c_resolutions c) (c_offset c) = Some r).
  { rewrite HR, HO, nth_error_app2, Nat.sub_diag by lia. reflexivity. }
  assert (SK : skipn (S (c_offset c)) (c_resolutions c) = rs).
  { rewrite HR, HO. replace (S (length pre)) with (length (pre ++ [r])) by (rewrite app_length; cbn; lia).
    change (pre ++ r :: rs) with (pre ++ [r] ++ rs). rewrite app_assoc.
    rewrite skipn_app, skipn_all, Nat.sub_diag. reflexivity. }
  assert (HRp : c_resolutions c = (pre ++ [r]) ++ rs) by (rewrite <- app_assoc; exact HR).
  assert (REST : forall w sz, ~ runs_ok (Some r) rs ->
    run_fields {| c_writer := w; c_base := c_base c; c_start := c_start c;
          c_resolutions := c_resolutions c; c_reply_size := sz; c_offset := S (c_offset c);
          c_current := Some r |} (map (fun _ w => Ok w) rs) = Raise StructError).
  { intros w sz N.
    apply (IH {| c_writer := w; c_base := c_base c; c_start := c_start c;
          c_resolutions := c_resolutions c; c_reply_size := sz; c_offset := S (c_offset c);
          c_current := Some r |} (pre ++ [r])); auto;
      cbn [c_start c_offset]; rewrite app_length; cbn [length]; lia. }
  cbn [map run_fields]. unfold maybe_write. rewrite NTH.
  change (match c_current c with Some x => res_eqb x r | None => false end)
      with (same_as (c_current c) r).
  cbn [runs_ok] in NR.
  destruct (same_as (c_current c) r) eqn:SM.
  - assert (CUR : c_current c = Some r).
    { unfold same_as in SM. destruct (c_current c) as [x|]; [|discriminate].
      apply res_eqb_eq in SM. congruence. }
    cbn [bind]. cbv zeta beta iota.
    cbn [c_writer c_base c_start c_resolutions c_reply_size c_offset c_current].
    rewrite CUR. destruct (negb _); cbn [bind]; apply REST; tauto.
  - destruct (res_eqb r IGNORE) eqn:RI.
    + apply res_eqb_eq in RI. subst r. cbn [bind]. cbv zeta beta iota.
      cbn [c_writer c_base c_start c_resolutions c_reply_size c_offset c_current bind].
      apply REST. tauto.
    + rewrite SK, Hb. cbv zeta.
      assert (NI : r <> IGNORE) by (intro; subst; discriminate).
      destruct (Z_le_gt_dec (leading r rs) 126) as [L|L].
      * pose proof (leading_nonneg r rs).
        pose proof (write_header KRead r (1 + leading r rs) (c_writer c)
                     (c_start c + Z.of_nat (c_offset c)) NI ltac:(discriminate) ltac:(lia) ltac:(lia)) as WH.
        destruct (if 1 + leading r rs <=? 3 then _ else _) as [w1|e1] eqn:EW;
          cbn [bind] in WH |- *; [|discriminate].
        rewrite WH. cbn [bind]. cbv beta iota.
        cbn [c_writer c_base c_start c_resolutions c_reply_size c_offset c_current orb bind].
        rewrite Hb in REST. apply REST. tauto.
      * replace (_ <=? 3) with false by lia. rewrite lor_cmd by (auto; discriminate).
        assert (0 <= 4 * spec_code r <= 12) by (destruct r; cbn; try lia; congruence).
        rewrite write_int8_ok by (cbn [base_of]; lia). cbn [bind].
        rewrite write_int8_big by lia. reflexivity.
Qed.

Lemma run_query_raise : forall w start rs, 0 <= start -> ~ runs_ok None rs ->
  run_query w start rs = Raise StructError.
Proof.
  intros w start rs H0 N. unfold run_query.
  apply (run_query_long rs (combiner_init w 0x10 start rs) []); auto. cbn. lia.
Qed.
