(** C64: what a query returns is what the controller holds. *)
From Coq Require Import ZArith List Bool Lia Sorted Reals Lra.
From Coq Require Import Floats.SpecFloat.
From Coq Require Import ZifyBool ZifyNat.
From Flocq Require Import Core BinarySingleNaN.
From Verif Require Import PyBase PyFloat Mux_Model Protocol_Spec Fw_Spec Zbits Mux_Proofs
  Float_Proofs Quant_Proofs Props_Quant Parser_Proofs Props_Parser Ctrl_Model Combiner_Proofs
  Query_Proofs Props_Query Command_Spec Command_Proofs Props_Command Answer_Spec Answer_Proofs.
Import ListNotations.
Open Scope Z_scope.

Lemma f32_of_Z_small : forall z, Z.abs z <= 2 ^ 24 ->
  float32_ok (f32_of_Z z) /\ isfinite (f32_of_Z z) = true /\ F2 (f32_of_Z z) = IZR z.
Proof.
  intros z Hz. unfold f32_of_Z. pose proof (normalize32 z 0 false) as [OK C].
  split; [exact OK|].
  replace (F2R (Float radix2 z 0)) with (IZR z) in C by (unfold F2R; cbn; ring).
  assert (G : generic_format radix2 fexp32 (IZR z)).
  { replace (IZR z) with (F2R (Float radix2 z 0)) by (unfold F2R; cbn; ring).
    destruct (Z.eq_dec (Z.abs z) (2 ^ 24)) as [E|E].
    - replace (F2R (Float radix2 z 0)) with (F2R (Float radix2 (Z.sgn z) 24)).
      + apply generic_format_F2R. intro NZ. unfold cexp. rewrite mag_F2R_Zdigits by exact NZ.
        assert (z = 2 ^ 24 \/ z = - 2 ^ 24) as [-> | ->] by lia; vm_compute; discriminate.
      + assert (z = 2 ^ 24 \/ z = - 2 ^ 24) as [-> | ->] by lia; vm_compute; lra.
    - apply generic_format_F2R. intro NZ. unfold cexp. rewrite mag_F2R_Zdigits by exact NZ.
      assert (Digits.Zdigits radix2 z <= 24).
      { apply Digits.Zdigits_le_Zpower. change (Zpower radix2 24) with (2 ^ 24). lia. }
      unfold SpecFloat.fexp, emin, prec32, emax32. lia. }
  rewrite (round_generic radix2 fexp32 ZnearestE _ G) in C.
  rewrite Rlt_bool_true in C.
  - destruct C as (C1 & C2 & _). auto.
  - rewrite <- abs_IZR. apply Rle_lt_trans with (IZR (2 ^ 24)); [apply IZR_le; lia|].
    change (IZR (2 ^ 24)) with (bpow radix2 24). apply bpow_lt. reflexivity.
Qed.

(** One register. *)
Lemma register_told : forall D k r, r <> IGNORE -> device_ok D ->
  (lookup fw_reply_table k = Some MInt ->
   match r with
   | F32 => Z.abs (d_integer D k) <= 2 ^ 24
   | _ => - 2 ^ (8 * Z.of_nat (spec_width r) - 1) <= d_integer D k
          < 2 ^ (8 * Z.of_nat (spec_width r) - 1)
   end) ->
  exists v, spec_reading k r (spec_python r (fw_raw D k r)) = Ok v /\ tells D k r v.
Proof.
  intros D k r Hr OK FIT. unfold fw_raw, spec_reading, tells.
  assert (VI : forall z, int_res r -> in_range (int_width r) z ->
    spec_python r (le_bytes (spec_width r) z) = PInt z).
  { intros z Hi Hz. unfold spec_python.
    replace (spec_width r) with (int_width r) by (destruct Hi as [->|[->| ->]]; reflexivity).
    rewrite (spec_value_int r z Hi Hz). reflexivity. }
  assert (VF : forall y, float32_ok y ->
    spec_python F32 (le_bytes 4 (bits_of_f32 y)) = PFloat (of_f32 y)).
  { intros y Hy. unfold spec_python, spec_value. rewrite le_value_bytes.
    rewrite Z.mod_small by (change (8 * Z.of_nat 4) with 32; apply bits_range; exact Hy).
    rewrite f32_bits by exact Hy. reflexivity. }
  assert (UNIT : forall u, exists v,
    match spec_python r
      match r with
      | F32 => le_bytes 4 (bits_of_f32 (d_quantity D k))
      | _ => le_bytes (spec_width r) (fw_counts u r (d_quantity D k))
      end with
    | PInt z => if z =? most_negative r then Ok (PFloat fnan)
                else Ok (PFloat (fmul (float_of_Z z) (unit_float u r)))
    | PFloat x => Ok (PFloat x)
    end = Ok v /\
    let x := d_quantity D k in
    let X := SF2R radix2 x in
    let top := (IZR (spec_max r) * unit_real u r)%R in
    exists d, v = PFloat d /\
    match r with
    | F32 => d = of_f32 x
    | _ =>
        (isfinite x = false -> d = fnan) /\
        (isfinite x = true -> (Rabs X <= top * (1 - bpow radix2 (-22)))%R ->
           isfinite d = true /\
           (Rabs (SF2R radix2 d - X)
            <= unit_real u r * (1 + bpow radix2 (-40)) + Rabs X * bpow radix2 (-22))%R) /\
        (isfinite x = true -> (top * (1 + bpow radix2 (-22)) <= X)%R ->
           isfinite d = true /\ (Rabs (SF2R radix2 d - top) <= top * bpow radix2 (-51))%R) /\
        (isfinite x = true -> (X <= - (top * (1 + bpow radix2 (-22))))%R ->
           match r with
           | INT32 => d = fnan
           | _ => isfinite d = true /\
                  (Rabs (SF2R radix2 d + top) <= top * bpow radix2 (-51))%R
           end)
    end).
  { intro u. specialize (OK k).
    assert (H : int_res r \/ r = F32) by (unfold int_res; destruct r; auto; congruence).
    destruct H as [Hi| ->].
    2:{ rewrite (VF _ OK). eexists. split; [reflexivity|]. eexists. split; reflexivity. }
    set (x := d_quantity D k) in *. set (n := fw_counts u r x).
    destruct (int_max_spec r Hi) as [_ BM].
    assert (NB : - spec_max r - 1 <= n <= spec_max r).
    { unfold n, fw_counts. destruct (isfinite x) eqn:Fx; cbn [negb]; [|lia].
      destruct (Rle_or_lt (Rabs (rnd32 (F2 x / F2 (unit_f32 u r)))) (IZR (spec_max r))) as [L|L].
      - pose proof (counts_in u r x Hi OK Fx L) as E. unfold fw_counts in E. rewrite Fx in E.
        cbn [negb] in E. rewrite E.
        pose proof (Ztrunc_bounds _ (spec_max r) ltac:(lia) (Rabs_le_inv _ _ L)). lia.
      - split; [|lia].
        pose proof (counts_low u r x Hi OK Fx) as E. unfold fw_counts in E. rewrite Fx in E.
        cbn [negb] in E. exact E. }
    assert (IR : in_range (int_width r) n).
    { unfold in_range. destruct Hi as [->|[->| ->]]; cbn in *; lia. }
    assert (EV : spec_python r (match r with
      | F32 => le_bytes 4 (bits_of_f32 x) | _ => le_bytes (spec_width r) n end) = PInt n).
    { rewrite <- (VI n Hi IR). destruct Hi as [->|[->| ->]]; reflexivity. }
    rewrite EV. clear EV.
    assert (MIN : most_negative r = - spec_max r - 1)
      by (destruct Hi as [->|[->| ->]]; reflexivity).
    rewrite MIN.
    exists (PFloat (if n =? - spec_max r - 1 then fnan else fmul (float_of_Z n) (unit_float u r))).
    split; [destruct (n =? _); reflexivity|]. cbv zeta. eexists. split; [reflexivity|].
    assert (FIN : isfinite x = false -> n = - spec_max r - 1).
    { intro F. unfold n, fw_counts. rewrite F. reflexivity. }
    pose proof (unit_facts u r Hi) as (_ & _ & _ & _ & _ & S4).
    pose proof (bpow_gt_0 radix2 (-31)) as P31.
    assert (P1 : (isfinite x = false -> (if n =? - spec_max r - 1 then fnan
                    else fmul (float_of_Z n) (unit_float u r)) = fnan)).
    { intro F. rewrite (FIN F), Z.eqb_refl. reflexivity. }
    assert (P2 : isfinite x = true ->
      (Rabs (F2 x) <= IZR (spec_max r) * unit_real u r * (1 - bpow radix2 (-22)))%R ->
      isfinite (if n =? - spec_max r - 1 then fnan else fmul (float_of_Z n) (unit_float u r)) = true /\
      (Rabs (F2 (if n =? - spec_max r - 1 then fnan else fmul (float_of_Z n) (unit_float u r)) - F2 x)
       <= unit_real u r * (1 + bpow radix2 (-40)) + Rabs (F2 x) * bpow radix2 (-22))%R).
    { intros Fx B. destruct (reported_value u r x Hi OK Fx B) as (A1 & A2 & A3). fold n in A1, A2, A3.
      rewrite (proj2 (Z.eqb_neq n _)) by lia. auto. }

    assert (P3 : isfinite x = true ->
      (IZR (spec_max r) * unit_real u r * (1 + bpow radix2 (-22)) <= F2 x)%R ->
      isfinite (if n =? - spec_max r - 1 then fnan else fmul (float_of_Z n) (unit_float u r)) = true /\
      (Rabs (F2 (if n =? - spec_max r - 1 then fnan else fmul (float_of_Z n) (unit_float u r))
             - IZR (spec_max r) * unit_real u r)
       <= IZR (spec_max r) * unit_real u r * bpow radix2 (-51))%R).
    { intros Fx B. pose proof (proj1 (reported_over u r x Hi OK Fx) B) as E. fold n in E.
      rewrite E. rewrite (proj2 (Z.eqb_neq (spec_max r) _)) by lia.
      destruct (counts_value u r (spec_max r) Hi ltac:(lia)) as [A1 A2]. split; [exact A1|].
      rewrite (Rabs_pos_eq (IZR (spec_max r))) in A2 by (apply IZR_le; lia). exact A2. }
    assert (P4 : isfinite x = true ->
      (F2 x <= - (IZR (spec_max r) * unit_real u r * (1 + bpow radix2 (-22))))%R ->
      match r with
      | INT32 => (if n =? - spec_max r - 1 then fnan else fmul (float_of_Z n) (unit_float u r)) = fnan
      | _ => isfinite (if n =? - spec_max r - 1 then fnan else fmul (float_of_Z n) (unit_float u r)) = true /\
      (Rabs (F2 (if n =? - spec_max r - 1 then fnan else fmul (float_of_Z n) (unit_float u r))
             + IZR (spec_max r) * unit_real u r)
       <= IZR (spec_max r) * unit_real u r * bpow radix2 (-51))%R
      end).
    { intros Fx B. pose proof (proj2 (reported_over u r x Hi OK Fx) B) as E. fold n in E.
      assert (Q : n = - spec_max r ->
        isfinite (if n =? - spec_max r - 1 then fnan else fmul (float_of_Z n) (unit_float u r)) = true /\
        (Rabs (F2 (if n =? - spec_max r - 1 then fnan else fmul (float_of_Z n) (unit_float u r))
               + IZR (spec_max r) * unit_real u r)
         <= IZR (spec_max r) * unit_real u r * bpow radix2 (-51))%R).
      { intro EN. rewrite EN. rewrite (proj2 (Z.eqb_neq (- spec_max r) _)) by lia.
        destruct (counts_value u r (- spec_max r) Hi ltac:(lia)) as [A1 A2]. split; [exact A1|].
        rewrite opp_IZR, Rabs_Ropp, (Rabs_pos_eq (IZR (spec_max r))) in A2 by (apply IZR_le; lia).
        match type of A2 with (Rabs ?a <= _)%R => match goal with |- (Rabs ?b <= _)%R =>
          replace b with a by ring end end. exact A2. }
      destruct Hi as [->|[->| ->]]; [apply Q; exact E|apply Q; exact E|].
      rewrite E. reflexivity. }
    destruct Hi as [->|[->| ->]]; auto. }
  destruct (lookup fw_reply_table k) as [[|u|u]|]; [|apply UNIT|apply UNIT|eexists; split; reflexivity].
  specialize (FIT eq_refl).
  assert (H : int_res r \/ r = F32) by (unfold int_res; destruct r; auto; congruence).
  destruct H as [Hi| ->].
  - assert (EV : spec_python r (match r with
      | F32 => le_bytes 4 (bits_of_f32 (f32_of_Z (d_integer D k)))
      | _ => le_bytes (spec_width r) (d_integer D k) end) = PInt (d_integer D k)).
    { transitivity (spec_python r (le_bytes (spec_width r) (d_integer D k))).
      - destruct Hi as [->|[->| ->]]; reflexivity.
      - apply VI; [exact Hi|]. unfold in_range. destruct Hi as [->|[->| ->]]; cbn in *; lia. }
    rewrite EV. eexists. split; reflexivity.
  - destruct (f32_of_Z_small _ FIT) as (A1 & A2 & A3). rewrite (VF _ A1).
    destruct (of_f32_correct _ A1 A2) as (B1 & B2 & B3 & _).
    assert (isnan (of_f32 (f32_of_Z (d_integer D k))) = false /\
            isinf (of_f32 (f32_of_Z (d_integer D k))) = false) as [-> ->]
      by (destruct (of_f32 (f32_of_Z (d_integer D k))); try discriminate; auto).
    eexists. split; [reflexivity|]. f_equal. rewrite ftrunc_correct, B2, A3 by exact B3.
    apply Ztrunc_IZR.
Qed.

(** ** The reply as a whole *)

(** The registers a frame reads. *)
Definition reads_reg (asked : list access) (k : Z) : Prop := exists r, In (ARead k r) asked.

Lemma encodes_used : forall l a, encodes_reply l a -> forall k r b, In (k, r, b) a -> r <> IGNORE.
Proof.
  induction 1 as [|l a H IH|long r start vu vals l a Hr Hc Hv Hf H IH]; intros k r' b I.
  - destruct I.
  - eapply IH; eauto.
  - apply in_app_or in I. destruct I as [I|I]; [|eapply IH; eauto].
    assert (G : forall vs s, In (k, r', b) (numbered s r vs) -> r' = r).
    { induction vs as [|v vs IV]; intros s J; [destruct J|].
      cbn [numbered] in J. destruct J as [J|J]; [congruence|]. eapply IV; eauto. }
    rewrite (G _ _ I). exact Hr.
Qed.

Lemma readings_all : forall l,
  (forall k r v, In (k, r, v) l -> exists w, spec_reading k r v = Ok w) ->
  exists vals, readings l = Ok vals /\
    (forall k w, In (k, w) vals -> exists r v, In (k, r, v) l /\ spec_reading k r v = Ok w) /\
    (forall k, In k (map fst vals) <-> exists r v, In (k, r, v) l).
Proof.
  induction l as [|[[k r] v] l IH]; intro H.
  - exists []. split; [reflexivity|]. split; [intros ? ? []|]. intro k. split; [intros []|].
    intros (? & ? & []).
  - destruct (H k r v (or_introl eq_refl)) as [w E].
    destruct IH as (vals & E1 & A & B); [intros; apply H; right; assumption|].
    exists ((k, w) :: vals). cbn [readings]. rewrite E, E1. split; [reflexivity|]. split.
    + intros k' w' [I|I].
      * injection I as <- <-. exists r, v. split; [left; reflexivity|exact E].
      * destruct (A _ _ I) as (r' & v' & I' & E'). exists r', v'. split; [right|]; assumption.
    + intro k'. cbn [map fst]. split.
      * intros [<-|I]; [exists r, v; left; reflexivity|].
        apply B in I. destruct I as (r' & v' & I). exists r', v'. right. exact I.
      * intros (r' & v' & [I|I]); [left; congruence|right; apply B; eauto].
Qed.

Lemma last_of_in : forall k l v, last_of k l = Some v -> In (k, v) l.
Proof.
  induction l as [|[k' w] l IH]; intros v H; [discriminate|]. cbn [last_of] in H.
  destruct (last_of k l) as [x|]; [right; apply IH; exact H|].
  destruct (Z.eqb_spec k' k) as [->|]; [left; congruence|discriminate].
Qed.

Lemma last_of_none : forall k l, last_of k l = None <-> ~ In k (map fst l).
Proof.
  induction l as [|[k' w] l IH]; [cbn; tauto|]. cbn [last_of map fst In].
  destruct (last_of k l) as [x|].
  - split; [discriminate|]. intro N. exfalso. apply N. right.
    destruct (in_dec Z.eq_dec k (map fst l)) as [I|I]; [exact I|].
    apply IH in I. discriminate.
  - destruct (Z.eqb_spec k' k) as [E|E].
    + split; [discriminate|]. intro N. exfalso. apply N. left. exact E.
    + split; [|reflexivity]. intros _ [I|I]; [congruence|]. apply (proj1 IH eq_refl I).
Qed.

(** [learns D asked r]: r is a dictionary with exactly the registers asked
    for, each telling what the device holds. *)
Definition learns (D : device) (asked : list access) (r : res dict) : Prop :=
  exists d, r = Ok d /\ NoDup (map fst d) /\
    (forall k, (exists v, dict_get d k = Some v) <-> reads_reg asked k) /\
    (forall k v, dict_get d k = Some v -> exists r, In (ARead k r) asked /\ tells D k r v).

(** Any controller, any frame of reads, any way of laying out the reply:
    parse_reply returns what the controller holds. *)
Theorem C64_reply : forall D asked reply,
  device_ok D -> fits D asked -> answers (fw_raw D) asked reply ->
  learns D asked (parse_reply reply).
Proof.
  intros D asked reply OK FIT (a & E & A).
  assert (R : forall k r v, In (k, r, v) (values_of a) ->
    In (ARead k r) asked /\ exists w, spec_reading k r v = Ok w /\ tells D k r w).
  { intros k r v I. unfold values_of in I. apply in_map_iff in I.
    destruct I as ([[k' r'] b] & EQ & I). cbn in EQ. injection EQ as -> -> <-.
    pose proof (encodes_used _ _ E _ _ _ I) as NI. apply A in I. destruct I as [I ->].
    split; [exact I|]. apply register_told; auto. intro LK. apply (FIT _ _ I LK). }
  destruct (readings_all (values_of a)) as (vals & E1 & B1 & B2).
  { intros k r v I. destruct (R _ _ _ I) as (_ & w & E1 & _). eauto. }
  destruct (C10_encoded_reply reply a vals E E1) as (d & E2 & ND & G).
  exists d. split; [exact E2|]. split; [exact ND|]. split.
  - intro k. rewrite G. split.
    + intros [v L]. apply last_of_in, B1 in L. destruct L as (r & v' & I & _).
      exists r. apply (R _ _ _ I).
    + intros [r I]. destruct (last_of k vals) as [v|] eqn:L; [eauto|]. exfalso.
      apply last_of_none in L. apply L, B2. exists r, (spec_python r (fw_raw D k r)).
      unfold values_of. apply in_map_iff. exists (k, r, fw_raw D k r). split; [reflexivity|].
      apply A. auto.
  - intros k v H. rewrite G in H. apply last_of_in, B1 in H. destruct H as (r & v' & I & E3).
    destruct (R _ _ _ I) as (I' & w & E4 & T). exists r. split; [exact I'|]. congruence.
Qed.

(** ** The methods of Controller *)

Lemma asks_reads : forall q a, asks q a -> forall k r,
  In (ARead k r) a <-> (In (k, r) (requested q) \/ In (k, r) (q_extra q)) /\ r <> IGNORE.
Proof.
  intros q a (L & _ & HL & ->) k r. rewrite in_map_iff. split.
  - intros ([k' r'] & EQ & I). cbn in EQ. injection EQ as -> ->. apply in_app_or in I.
    destruct I as [I|I].
    + apply filter_In in I. destruct I as [I N]. split; [auto|]. intros ->. discriminate.
    + apply HL in I. tauto.
  - intros [[I|I] N]; exists (k, r); (split; [reflexivity|]); apply in_or_app.
    + left. apply filter_In. split; [exact I|]. destruct r; auto; congruence.
    + right. apply HL. auto.
Qed.

(** What the fields of a query ask for, IGNORE aside. *)
Definition asked_by (q : query_resolution) (k : Z) (r : resolution) : Prop :=
  (In (k, r) (requested q) \/ In (k, r) (q_extra q)) /\ r <> IGNORE.

Theorem C64_query : forall ct q D, query_ok q -> device_ok D ->
  exists cmd asked, make_query ct (Some q) = Ok cmd /\
    spec_decode (cmd_data cmd) = Some asked /\
    (forall k r, In (ARead k r) asked <-> asked_by q k r) /\
    forall reply, fits D asked -> answers (fw_raw D) asked reply ->
      learns D asked (parse_reply reply).
Proof.
  intros ct q D [RK NL] OK. destruct (C11_make_query ct q RK NL) as (cmd & L & E & _ & _ & S & I & DEC).
  eexists cmd, _. split; [exact E|]. split; [exact DEC|]. split.
  - apply (asks_reads q). exists L. auto.
  - intros reply F A. apply C64_reply; auto.
Qed.

(** The query a Controller was constructed with. *)
Theorem C64_default_query : forall id q p v cu pw prefix D, query_ok q -> device_ok D ->
  exists ct cmd asked, make_controller id q p v cu pw prefix = Ok ct /\
    make_query ct None = Ok cmd /\
    spec_decode (cmd_data cmd) = Some asked /\
    (forall k r, In (ARead k r) asked <-> asked_by q k r) /\
    forall reply, fits D asked -> answers (fw_raw D) asked reply ->
      learns D asked (parse_reply reply).
Proof.
  intros id q p v cu pw prefix D [RK NL] OK.
  destruct (C11_default_query id q p v cu pw prefix RK NL)
    as (ct & cmd & L & E1 & E2 & _ & _ & S & I & DEC).
  eexists ct, cmd, _. split; [exact E1|]. split; [exact E2|]. split; [exact DEC|]. split.
  - apply (asks_reads q). exists L. auto.
  - intros reply F A. apply C64_reply; auto.
Qed.

Theorem C64_custom_query : forall ct regs D, registers_ok regs -> ~ long_run regs -> regs <> [] ->
  device_ok D ->
  exists cmd asked, make_custom_query ct regs = Ok cmd /\
    spec_decode (cmd_data cmd) = Some asked /\
    (forall k r, In (ARead k r) asked <-> In (k, r) regs /\ r <> IGNORE) /\
    forall reply, fits D asked -> answers (fw_raw D) asked reply ->
      learns D asked (parse_reply reply).
Proof.
  intros ct regs D RK NL NE OK.
  destruct (C11_make_custom_query ct regs RK NL NE) as (cmd & L & E & _ & _ & S & I & DEC & _).
  eexists cmd, _. split; [exact E|]. split; [exact DEC|]. split.
  - intros k r. rewrite in_map_iff. rewrite <- I. split.
    + intros ([k' r'] & EQ & J). cbn in EQ. congruence.
    + intro J. exists (k, r). auto.
  - intros reply F A. apply C64_reply; auto.
Qed.

(** A command that carries a query, which is read the same way: the
    commands of C14, for which [performs] is proved there. *)
Theorem C64_command : forall result m fs ct q D,
  performs result m fs ct true (Some q) -> (forall k r, ~ In (ARead k r) m) ->
  ~ overflows fs -> device_ok D ->
  exists cmd asked, result = Ok cmd /\
    spec_decode (cmd_data cmd) = Some asked /\
    (forall k r, In (ARead k r) asked <-> asked_by q k r) /\
    forall reply, fits D asked -> answers (fw_raw D) asked reply ->
      learns D asked (parse_reply reply).
Proof.
  intros result m fs ct q D P M NO OD. destruct P as [[V _]|(_ & cmd & a & E & T & DEC & _)]; [tauto|].
  eexists cmd, _. split; [exact E|]. split; [exact DEC|]. split.
  - intros k r. unfold asked_by. rewrite <- (asks_reads q a T). rewrite !in_app_iff. split; [|tauto].
    intros [I|[I|I]]; [apply M in I; destruct I| |exact I]. exfalso.
    unfold writes in I. apply in_flat_map in I. destruct I as (f & _ & I).
    destruct (f_val f); [|destruct I]. destruct (f_res f); cbn in I; intuition discriminate.
  - intros reply F A. apply C64_reply; auto.
Qed.

Theorem C64_position_query : forall ct a q D, constructed ct -> query_ok q ->
  fields_ok (position_fields a (ct_position ct)) -> ~ overflows (position_fields a (ct_position ct)) ->
  device_ok D ->
  exists cmd asked, make_position ct a true (Some q) = Ok cmd /\
    spec_decode (cmd_data cmd) = Some asked /\
    (forall k r, In (ARead k r) asked <-> asked_by q k r) /\
    forall reply, fits D asked -> answers (fw_raw D) asked reply ->
      learns D asked (parse_reply reply).
Proof.
  intros ct a q D C Q OK NO OD.
  apply (C64_command _ _ _ ct q D (C14_make_position ct a true (Some q) C Q OK)); auto.
  intros k r [I|[]]. discriminate.
Qed.

(** At INT32 a large negative quantity does not saturate: it is reported,
    and so read, as NaN, since the lower limit is the count reserved for
    it.  Here the position -30000 (the end of the range is -21474.8). *)
Theorem C64_int32_saturation_refuted : exists D d reply asked,
  device_ok D /\ isfinite (d_quantity D 1) = true /\ asked = [ARead 1 INT32] /\
  answers (fw_raw D) asked reply /\ parse_reply reply = Ok d /\
  dict_get d 1 = Some (PFloat fnan).
Proof.
  exists {| d_quantity := fun _ => f32_of_Z (-30000); d_integer := fun _ => 0;
            d_other := fun _ _ => [] |}.
  exists [(1, PFloat fnan)], [0x29; 1; 0; 0; 0; 128], [ARead 1 INT32].
  split; [intro k; vm_compute; reflexivity|]. split; [vm_compute; reflexivity|].
  split; [reflexivity|]. split; [|split; vm_compute; reflexivity].
  exists [(1, INT32, [0; 0; 0; 128])]. split.
  - apply (er_sub false INT32 1 [1] [[0; 0; 0; 128]] [] []); try discriminate; cbn; try lia.
    + split; [repeat constructor; unfold byte_ok; lia|]. intro rest. reflexivity.
    + repeat constructor; unfold byte_ok; lia.
    + constructor.
  - intros k r b. split.
    + intros [I|[]]. injection I as <- <- <-. split; [left; reflexivity|]. vm_compute. reflexivity.
    + intros [[I|[]] ->]. injection I as <- <-. left. vm_compute. reflexivity.
Qed.

(** A default query answered: mode 10, position 0.05 at INT16, voltage 24.5
    at INT8, the rest at rest. *)
Definition example_device : device :=
  {| d_quantity := fun k => if k =? 1 then to_f32 (flit 5 2)
                            else if k =? 13 then to_f32 (flit 245 1) else f32_of_Z 0;
     d_integer := fun k => if k =? 0 then 10 else 0;
     d_other := fun _ r => repeat 0 (spec_width r) |}.

Definition example_regs : list (Z * resolution) := [(0, INT8); (1, INT16); (13, INT8)].

Example C64_example :
  device_ok example_device /\ registers_ok example_regs /\ ~ long_run example_regs /\
  fits example_device (map (fun p => ARead (fst p) (snd p)) example_regs) /\
  answers (fw_raw example_device) (map (fun p => ARead (fst p) (snd p)) example_regs)
    [0x21; 13; 49; 0x50; 0x21; 0; 10; 0x25; 1; 244; 1] /\
  parse_reply [0x21; 13; 49; 0x50; 0x21; 0; 10; 0x25; 1; 244; 1]
  = Ok [(13, PFloat (flit 245 1)); (0, PInt 10); (1, PFloat (flit 5 2))].
Proof.
  split.
  { intro k. cbn [d_quantity example_device]. destruct (k =? 1); [apply to_f32_ok|].
    destruct (k =? 13); [apply to_f32_ok|]. vm_compute. reflexivity. }
  split.
  { split; [|repeat constructor; cbn; lia].
    repeat constructor; cbn; intuition discriminate. }
  split.
  { intros (x & r & _ & H). pose proof (H 0 ltac:(lia)) as H0. pose proof (H 5 ltac:(lia)) as H5.
    pose proof (H 20 ltac:(lia)) as H20. cbn in H0, H5, H20.
    repeat match goal with H : _ \/ _ |- _ => destruct H as [H|H] end;
      try contradiction; repeat match goal with H : (_, _) = (_, _) |- _ => injection H as ? ? end; lia. }
  split.
  { intros k r I LK. cbn in I.
    destruct I as [I|[I|[I|[]]]]; injection I as <- <-; cbn; try lia; discriminate. }
  split; [|vm_compute; reflexivity].
  exists [(13, INT8, [49]); (0, INT8, [10]); (1, INT16, [244; 1])]. split.
  - apply (er_sub false INT8 13 [13] [[49]] [0x50; 0x21; 0; 10; 0x25; 1; 244; 1]
             [(0, INT8, [10]); (1, INT16, [244; 1])]); try discriminate; cbn; try lia.
    + split; [repeat constructor; unfold byte_ok; lia|]. intro rest. reflexivity.
    + repeat constructor; unfold byte_ok; lia.
    + apply er_nop. apply (er_sub false INT8 0 [0] [[10]] [0x25; 1; 244; 1] [(1, INT16, [244; 1])]);
        try discriminate; cbn; try lia.
      * split; [repeat constructor; unfold byte_ok; lia|]. intro rest. reflexivity.
      * repeat constructor; unfold byte_ok; lia.
      * apply (er_sub false INT16 1 [1] [[244; 1]] [] []); try discriminate; cbn; try lia.
        -- split; [repeat constructor; unfold byte_ok; lia|]. intro rest. reflexivity.
        -- repeat constructor; unfold byte_ok; lia.
        -- constructor.
  - intros k r b. split.
    + intros [I|[I|[I|[]]]]; injection I as <- <- <-;
        (split; [cbn; tauto|vm_compute; reflexivity]).
    + intros [I ->]. destruct I as [I|[I|[I|[]]]]; cbn in I; injection I as <- <-.
      * right. left. vm_compute. reflexivity.
      * right. right. left. vm_compute. reflexivity.
      * left. vm_compute. reflexivity.
Qed.

Print Assumptions C64_reply.
Print Assumptions C64_query.
Print Assumptions C64_default_query.
Print Assumptions C64_custom_query.
Print Assumptions C64_command.
Print Assumptions C64_position_query.
Print Assumptions C64_int32_saturation_refuted.
