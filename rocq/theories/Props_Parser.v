(** C08-C10: parsing replies. *)
From Coq Require Import ZArith List Bool Lia.
From Coq Require Import Floats.SpecFloat.
From Coq Require Import ZifyBool ZifyNat.
From Verif Require Import PyBase PyFloat Mux_Model Protocol_Spec Fw_Spec Zbits Mux_Proofs
  Parser_Proofs Float_Proofs Quant_Proofs Ctrl_Model Regmap_Proofs.
Ltac Zify.zify_post_hook ::= Z.div_mod_to_equations.
Import ListNotations.
Open Scope Z_scope.

(** ** C08 *)

(** The states of a parser over [data], whatever the client does with it:
    it may call next, and read a value of any resolution. *)
Inductive reachable (data : list Z) : parser -> Prop :=
| rc_init : reachable data (parser_init data)
| rc_next p : reachable data p -> reachable data (fst (next p))
| rc_read p r p' v : reachable data p -> read p r = Ok (p', v) -> reachable data p'.

Lemma reachable_good : forall data p, bytes_ok data -> reachable data p ->
  good p /\ p_data p = data.
Proof.
  intros data p B H. induction H as [|p H [G D]|p r p' v H [G D] E].
  - split; [apply init_good; auto|reflexivity].
  - pose proof (next_post_ok p G) as P. destruct (next p) as [q o]. cbn.
    destruct P as (G' & D' & _). split; [auto|congruence].
  - unfold read in E. destruct (Nat.ltb_spec (p_size p) (p_offset p + resolution_size r)); [discriminate|].
    assert (p' = set_offset p (p_offset p + resolution_size r)) as -> by congruence.
    split; [|exact D]. destruct G as (G1 & G2 & G3). repeat split; auto.
Qed.

(** Whenever next reports a register, reading it succeeds and consumes
    exactly its width, inside the buffer. *)
Theorem C08_reported_register_can_be_read : forall data p p' reg r,
  bytes_ok data -> reachable data p -> next p = (p', Some (reg, r)) ->
  r <> IGNORE /\ (p_offset p' + spec_width r <= length data)%nat /\
  exists v, read p' r = Ok (set_offset p' (p_offset p' + spec_width r), v).
Proof.
  intros data p p' reg r B H E. destruct (reachable_good data p B H) as [G D].
  pose proof (next_post_ok p G) as P. rewrite E in P. destruct P as (G' & D' & _ & R & L).
  assert (RS : resolution_size r = spec_width r) by (destruct r; reflexivity).
  split; [exact R|]. unfold p_size in L. rewrite D', D, RS in L. split; [exact L|].
  destruct (read_ok p' r G') as (v & Ev & _).
  { unfold p_size. rewrite D', D, RS. exact L. }
  rewrite RS in Ev. eauto.
Qed.

(** No call of next ever moves back or past the end. *)
Theorem C08_next_stays_in_buffer : forall data p, bytes_ok data -> reachable data p ->
  (p_offset p <= p_offset (fst (next p)) <= length data)%nat.
Proof.
  intros data p B H. destruct (reachable_good data p B H) as [G D].
  pose proof (next_post_ok p G) as P. destruct (next p) as [q o]. cbn.
  destruct P as (G' & D' & O & _). destruct G' as (_ & G' & _). unfold p_size in G'.
  rewrite D', D in G'. lia.
Qed.

(** The whole loop, next then read until next says no, terminates without
    an exception: at most one round per byte, plus one. *)
Theorem C08_iteration_terminates : forall data, bytes_ok data ->
  exists l, drive (S (length data)) (parser_init data) = Ok l.
Proof.
  intros data B. apply drive_total; [apply init_good; auto|]. unfold unread, p_size. cbn. lia.
Qed.

(** The bound used to define next's scan is never what ends it. *)
Theorem C08_scan_needs_no_bound : forall data p f, bytes_ok data -> reachable data p ->
  (length data - p_offset p <= f)%nat ->
  next_scan f p = next_scan (p_size p - p_offset p) p.
Proof.
  intros data p f B H L. destruct (reachable_good data p B H) as [G D].
  apply next_scan_fuel; unfold unread, p_size; rewrite D; lia.
Qed.

Example C08_example :
  bytes_ok [0x50; 0x2f; 0x81; 0x01; 1; 2; 3] /\
  drive 8 (parser_init [0x50; 0x2f; 0x81; 0x01; 1; 2; 3]) = Ok [] /\
  drive 8 (parser_init [0x50; 0x29; 0x81; 0x01; 1; 2; 3; 4])
  = Ok [(129, INT32, PInt 67305985)].
Proof. split; [repeat constructor; lia|]. vm_compute. auto. Qed.

(** ** C09 *)

Definition values_of (a : list (Z * resolution * list Z)) : list (Z * resolution * pyval) :=
  map (fun x => (fst x, spec_python (snd (fst x)) (snd x))) a.

Theorem C09_parser_inverts_encoding : forall l a, encodes_reply l a ->
  drive (S (length l)) (parser_init l) = Ok (values_of a).
Proof.
  intros l a H. pose proof (drive_reply_len l a [] stops_nil H) as D.
  rewrite app_nil_r in D. apply D. eapply encodes_bytes_ok; eauto.
Qed.

(** The encoding is not ambiguous: the bytes determine what was encoded. *)
Lemma le_bytes_value : forall l, bytes_ok l -> le_bytes (length l) (le_value l) = l.
Proof.
  induction 1 as [|b l B _ IH]; [reflexivity|]. cbn [length le_bytes le_value].
  unfold byte_ok in B. f_equal; [lia|].
  replace ((b + 256 * le_value l) / 256) with (le_value l) by lia. exact IH.
Qed.

Corollary C09_registers_unambiguous : forall l a a',
  encodes_reply l a -> encodes_reply l a' -> map fst a = map fst a'.
Proof.
  intros l a a' H H'. pose proof (C09_parser_inverts_encoding l a H) as E.
  rewrite (C09_parser_inverts_encoding l a' H') in E. injection E as E.
  assert (X : forall a, map fst (values_of a) = map fst a).
  { intro x. unfold values_of. rewrite map_map. reflexivity. }
  rewrite <- (X a), <- (X a'), E. reflexivity.
Qed.

(** What follows a byte that is neither NOP nor a reply, such as an error
    subframe 0x30/0x31 (docs/reference.md:496-501), is not looked at: the
    registers before it are reported and those after it are lost. *)
Theorem C09_error_subframe_ends_reply : forall l a c tail,
  encodes_reply l a -> c <> 0x50 -> ~ (0x20 <= c < 0x30) -> bytes_ok (c :: tail) ->
  drive (S (length (l ++ c :: tail))) (parser_init (l ++ c :: tail)) = Ok (values_of a).
Proof.
  intros l a c tail H H1 H2 B. apply drive_reply_len; auto.
  - apply stops_other; auto.
  - apply Forall_app. split; auto. eapply encodes_bytes_ok; eauto.
Qed.

(** An error for register 5 followed by a reply for register 6 is a frame
    the protocol allows, and register 6 is not reported. *)
Theorem C09_error_then_reply_refuted : exists rest a,
  encodes_reply rest a /\ a <> [] /\
  drive (S (length ([0x30; 0x05; 0x01] ++ rest))) (parser_init ([0x30; 0x05; 0x01] ++ rest)) = Ok [].
Proof.
  exists [0x21; 0x06; 0x07], [(6, INT8, [7])]. split; [|split; [discriminate|reflexivity]].
  apply (er_sub false INT8 6 [6] [[7]] [] []); try discriminate; cbn; try lia.
  - split; [repeat constructor; unfold byte_ok; lia|]. intro rest. reflexivity.
  - repeat constructor; unfold byte_ok; lia.
  - constructor.
Qed.

Example C09_example :
  encodes_reply ([0x50] ++ [0x24; 4] ++ [0x00] ++ [10; 0; 16; 2; 0; 254; 32; 0]
                 ++ [0x23] ++ [0x0d] ++ [32; 48; 64] ++ [0x50; 0x50])
    [(0, INT16, [10; 0]); (1, INT16, [16; 2]); (2, INT16, [0; 254]); (3, INT16, [32; 0]);
     (13, INT8, [32]); (14, INT8, [48]); (15, INT8, [64])].
Proof.
  apply er_nop.
  apply (er_sub true INT16 0 [0] [[10; 0]; [16; 2]; [0; 254]; [32; 0]]
           ([0x23] ++ [0x0d] ++ [32; 48; 64] ++ [0x50; 0x50])
           [(13, INT8, [32]); (14, INT8, [48]); (15, INT8, [64])]);
    try discriminate; cbn; try lia.
  - split; [repeat constructor; unfold byte_ok; lia|]. intro rest. reflexivity.
  - repeat constructor; unfold byte_ok; lia.
  - apply (er_sub false INT8 13 [13] [[32]; [48]; [64]] [0x50; 0x50] []);
      try discriminate; cbn; try lia.
    + split; [repeat constructor; unfold byte_ok; lia|]. intro rest. reflexivity.
    + repeat constructor; unfold byte_ok; lia.
    + apply er_nop, er_nop, er_nil.
Qed.

(** ** C10 *)

(** All the readings of a reply, in order; the first that cannot be
    represented raises. *)
Fixpoint readings (l : list (Z * resolution * pyval)) : res (list (Z * pyval)) :=
  match l with
  | [] => Ok []
  | (reg, r, v) :: l =>
      match spec_reading reg r v with
      | Raise e => Raise e
      | Ok x => match readings l with Raise e => Raise e | Ok xs => Ok ((reg, x) :: xs) end
      end
  end.

(** The last value reported for a register. *)
Fixpoint last_of (k : Z) (l : list (Z * pyval)) : option pyval :=
  match l with
  | [] => None
  | (k', v) :: l =>
      match last_of k l with
      | Some w => Some w
      | None => if k' =? k then Some v else None
      end
  end.

Lemma dict_get_set : forall d k v k',
  dict_get (dict_set d k v) k' = if k =? k' then Some v else dict_get d k'.
Proof.
  induction d as [|[k0 v0] d IH]; intros k v k'; cbn [dict_set dict_get]; [reflexivity|].
  destruct (Z.eqb_spec k0 k) as [->|N]; cbn [dict_get].
  - destruct (k =? k'); reflexivity.
  - rewrite IH. destruct (Z.eqb_spec k0 k'), (Z.eqb_spec k k'); auto. congruence.
Qed.

Lemma dict_set_in : forall d k v x, In x (map fst (dict_set d k v)) -> x = k \/ In x (map fst d).
Proof.
  induction d as [|[k0 v0] d IH]; intros k v x; cbn.
  - intuition.
  - destruct (Z.eqb_spec k0 k); cbn; [intuition|].
    intros [H|H]; [auto|]. destruct (IH _ _ _ H); auto.
Qed.

Lemma dict_set_nodup : forall d k v, NoDup (map fst d) -> NoDup (map fst (dict_set d k v)).
Proof.
  induction d as [|[k0 v0] d IH]; intros k v H; cbn.
  - constructor; [intros []|constructor].
  - destruct (Z.eqb_spec k0 k); cbn; [exact H|]. inversion H; subst. constructor; auto.
    intro I. destruct (dict_set_in _ _ _ _ I); auto.
Qed.

Lemma read_value_shape : forall p r p' v, read p r = Ok (p', v) -> r <> IGNORE ->
  match r with F32 => exists x, v = PFloat x /\ float_ok x | _ => exists z, v = PInt z end.
Proof.
  intros p r p' v E Hr. unfold read in E. destruct (_ <? _)%nat; [discriminate|].
  set (b := slice _ _ _) in E.
  assert (v = unpack r b) as -> by congruence.
  destruct r; try congruence; try (eexists; reflexivity).
  eexists. split; [reflexivity|]. unfold unpack_f32. apply of_f32_ok, f32_of_bits_ok.
Qed.

Lemma parse_register_spec : forall p reg r p' v, r <> IGNORE -> read p r = Ok (p', v) ->
  parse_register p reg r
  = match spec_reading reg r v with Ok x => Ok (p', x) | Raise e => Raise e end.
Proof.
  intros p reg r p' v Hr E. pose proof (read_value_shape _ _ _ _ E Hr) as SH.
  unfold parse_register, spec_reading. pose proof (reg_kind_cases reg) as K.
  destruct (lookup fw_reply_table reg) as [[|u|u]|]; [| |contradiction|].
  - rewrite K. unfold read_int. rewrite E. cbn [bind fst snd].
    destruct v as [z|x]; [reflexivity|]. unfold py_int. destruct x; reflexivity.
  - destruct K as (s & -> & E8 & E16 & E32). unfold read_mapped. rewrite E. cbn [bind fst snd].
    destruct r; try congruence; destruct SH as [z SH].
    + subst v. cbn [nanify int_width scale_at]. rewrite E8. unfold most_negative.
      destruct (z =? -128); [|reflexivity]. unfold pymul. do 3 f_equal.
    + subst v. cbn [nanify int_width scale_at]. rewrite E16. unfold most_negative.
      destruct (z =? -32768); reflexivity.
    + subst v. cbn [nanify int_width scale_at]. rewrite E32. unfold most_negative.
      destruct (z =? -2147483648); reflexivity.
    + destruct SH as [-> OK]. cbn [nanify scale_at pymul]. rewrite fmul_1 by auto. reflexivity.
  - rewrite K. rewrite E. reflexivity.
Qed.

Definition agrees (d : dict) (vals : list (Z * pyval)) (d' : dict) : Prop :=
  forall k, dict_get d' k = match last_of k vals with Some v => Some v | None => dict_get d k end.

Lemma parse_reply_loop_spec : forall f p d l, good p -> drive f p = Ok l ->
  match readings l with
  | Raise e => parse_reply_loop f p d = Raise e
  | Ok vals => exists d', parse_reply_loop f p d = Ok d' /\ agrees d vals d' /\
      (NoDup (map fst d) -> NoDup (map fst d'))
  end.
Proof.
  induction f as [|f IH]; intros p d l G E; [discriminate|].
  cbn [drive parse_reply_loop] in *.
  pose proof (next_post_ok p G) as P.
  destruct (next p) as [p' [[reg r]|]] eqn:EN.
  2:{ assert (l = []) as -> by congruence. cbn [readings]. exists d. repeat split; auto. }
  destruct P as (G' & D & O & R & L).
  destruct (read_ok p' r G' L) as (v & E1 & G2). rewrite E1 in E.
  destruct (drive f _) as [l'|] eqn:E2; [|discriminate].
  assert (l = (reg, r, v) :: l') as -> by congruence.
  rewrite (parse_register_spec p' reg r _ _ R E1). cbn [readings].
  destruct (spec_reading reg r v) as [x|e]; [|reflexivity]. cbn [bind fst snd].
  specialize (IH _ (dict_set d reg x) l' G2 E2).
  destruct (readings l') as [vals|e]; [|exact IH].
  destruct IH as (d' & E3 & A & ND). exists d'. split; [exact E3|]. split.
  - intro k. rewrite (A k). cbn [last_of]. destruct (last_of k vals); [reflexivity|].
    rewrite dict_get_set. destruct (reg =? k); reflexivity.
  - intro H. apply ND. apply dict_set_nodup. exact H.
Qed.

(** For every byte string: with [l] what iterating next/read gives (C08,
    C09), parse_reply raises what the first unrepresentable reading
    raises, or returns a dictionary with exactly the reported registers,
    each with its last reading. *)
Theorem C10_parse_reply : forall data, bytes_ok data ->
  exists l, drive (S (length data)) (parser_init data) = Ok l /\
  match readings l with
  | Raise e => parse_reply data = Raise e
  | Ok vals => exists d, parse_reply data = Ok d /\ NoDup (map fst d) /\
      forall k, dict_get d k = last_of k vals
  end.
Proof.
  intros data B. destruct (C08_iteration_terminates data B) as [l E]. exists l. split; auto.
  pose proof (parse_reply_loop_spec _ _ [] _ (init_good _ B) E) as P.
  unfold parse_reply. destruct (readings l) as [vals|e]; auto.
  destruct P as (d & E1 & A & ND). exists d. split; auto. split; [apply ND; constructor|].
  intro k. rewrite (A k). cbn [dict_get]. destruct (last_of k vals); reflexivity.
Qed.

(** When it raises: exactly when an integer valued register is reported as
    a float that is NaN or infinite. *)
Theorem C10_raises_iff : forall data l, bytes_ok data ->
  drive (S (length data)) (parser_init data) = Ok l ->
  (exists e, parse_reply data = Raise e) <->
  (exists reg x, In (reg, F32, PFloat x) l /\ lookup fw_reply_table reg = Some MInt /\
                 isfinite x = false).
Proof.
  intros data l B E.
  assert (SH : forall reg r x, In (reg, r, PFloat x) l -> r = F32).
  { pose proof (init_good _ B) as G. clear B. revert E G. generalize (parser_init data).
    generalize (S (length data)) as f. intro f. revert l.
    induction f as [|f IH]; intros l p E G reg r x I; [discriminate|]. cbn [drive] in E.
    pose proof (next_post_ok p G) as P.
    destruct (next p) as [p' [[reg' r']|]].
    2:{ assert (l = []) as -> by congruence. destruct I. }
    destruct P as (G' & D & O & R & L).
    destruct (read_ok p' r' G' L) as (v & E1 & G2). rewrite E1 in E.
    destruct (drive f _) as [l'|] eqn:E2; [|discriminate].
    assert (l = (reg', r', v) :: l') as -> by congruence.
    destruct I as [I|I]; [|eapply IH; eauto].
    injection I as -> -> ->. pose proof (read_value_shape _ _ _ _ E1 R) as S1.
    destruct r; auto; destruct S1; discriminate. }
  destruct (C10_parse_reply data B) as (l0 & E0 & P).
  assert (l0 = l) by congruence. subst l0. clear E0 E.
  assert (X : (exists e, readings l = Raise e) <->
    (exists reg x, In (reg, F32, PFloat x) l /\ lookup fw_reply_table reg = Some MInt /\
                 isfinite x = false)).
  { clear P. induction l as [|[[reg r] v] l IH].
    - split; [intros [e H]; discriminate|intros (? & ? & [] & _)].
    - assert (SH' : forall reg r x, In (reg, r, PFloat x) l -> r = F32)
        by (intros; eapply SH; right; eauto).
      specialize (IH SH'). cbn [readings]. destruct (spec_reading reg r v) as [y|e] eqn:SR.
      + assert (EQ : (exists e, match readings l with Raise e => Raise e | Ok xs => Ok ((reg, y) :: xs) end
                         = Raise e) <-> exists e, readings l = Raise e).
        { destruct (readings l); split; intros [e0 H]; try discriminate; eauto. }
        rewrite EQ, IH. split.
        * intros (reg' & x & I & Q). exists reg', x. split; [right|]; auto.
        * intros (reg' & x & [I|I] & Q & N); [|eauto]. exfalso.
          injection I as -> -> ->. unfold spec_reading in SR. rewrite Q in SR.
          destruct x; try discriminate.
      + split; [intros _|eauto]. unfold spec_reading in SR.
        destruct (lookup fw_reply_table reg) as [[|u|u]|] eqn:LK;
          destruct v as [z|x]; try discriminate;
          try (destruct (_ =? _) in SR; discriminate).
        assert (r = F32) by (eapply SH; left; reflexivity). subst r.
        exists reg, x. split; [left; reflexivity|]. split; auto.
        destruct x; try discriminate; reflexivity. }
  rewrite <- X. destruct (readings l) as [vals|e].
  - destruct P as (d & -> & _). split; intros [e H]; discriminate.
  - rewrite P. split; eauto.
Qed.

(** On a reply encoded by the device: last documented reading of each
    register. *)
Corollary C10_encoded_reply : forall l a vals, encodes_reply l a ->
  readings (values_of a) = Ok vals ->
  exists d, parse_reply l = Ok d /\ NoDup (map fst d) /\
    forall k, dict_get d k = last_of k vals.
Proof.
  intros l a vals H R. destruct (C10_parse_reply l (encodes_bytes_ok _ _ H)) as (l0 & E & P).
  rewrite (C09_parser_inverts_encoding l a H) in E. injection E as <-. rewrite R in P. exact P.
Qed.

(** The telemetry a real board sends (moteus_test.py:91-113). *)
Example C10_example :
  readings (values_of
    [(0, INT16, [10; 0]); (1, INT16, [16; 2]); (2, INT16, [0; 128]); (13, INT8, [32])])
  = Ok [(0, PInt 10); (1, PFloat (flit 528 4)); (2, PFloat fnan); (13, PFloat (flit 16 0))]
  /\ parse_reply [0x2d; 0; 0; 0; 0xc0; 0x7f] = Raise ValueError.
Proof. vm_compute. auto. Qed.

Print Assumptions C08_reported_register_can_be_read.
Print Assumptions C08_next_stays_in_buffer.
Print Assumptions C08_iteration_terminates.
Print Assumptions C08_scan_needs_no_bound.
Print Assumptions C09_parser_inverts_encoding.
Print Assumptions C09_registers_unambiguous.
Print Assumptions C09_error_subframe_ends_reply.
Print Assumptions C09_error_then_reply_refuted.
Print Assumptions C10_parse_reply.
Print Assumptions C10_raises_iff.
Print Assumptions C10_encoded_reply.
