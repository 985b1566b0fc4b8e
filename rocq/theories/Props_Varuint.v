(** C01-C04: variable length and fixed width integers. *)
From Coq Require Import ZArith List Bool Lia.
From Coq Require Import ZifyBool ZifyNat.
From Verif Require Import PyBase PyFloat Mux_Model Protocol_Spec Zbits Mux_Proofs.
Ltac Zify.zify_post_hook ::= Z.div_mod_to_equations.
Import ListNotations.
Open Scope Z_scope.

Lemma write_varuint_ok : forall w v, 0 <= v ->
  exists l, write_varuint w v = Ok (w ++ l) /\ varuint_loop (varuint_fuel v) v = Some l.
Proof.
  intros w v Hv. destruct (varuint_total v Hv) as [l E].
  exists l. unfold write_varuint. rewrite E. auto.
Qed.

(** C01.  [pre] are the bytes already in the writer, [post] whatever is
    appended later. *)
Theorem C01_varuint_round_trip : forall pre v,
  0 <= v < 2 ^ 35 -> bytes_ok pre ->
  exists l, write_varuint pre v = Ok (pre ++ l) /\
    forall post, bytes_ok post ->
      read_varuint (length pre) (pre ++ l ++ post)
      = (Some v, (length pre + length l)%nat).
Proof.
  intros pre v Hv Hpre. destruct (write_varuint_ok pre v ltac:(lia)) as (l & E & EL).
  exists l. split; [exact E|]. intros post Hpost.
  rewrite read_varuint_rv.
  - rewrite skipn_app, skipn_all, Nat.sub_diag. cbn [skipn app].
    rewrite (rv_varuint _ 5 _ _ post EL).
    + reflexivity.
    + apply (varuint_length 5 _ _ _ EL); lia.
  - apply Forall_app. split; auto. apply Forall_app. split; auto.
    exact (varuint_bytes_ok _ _ _ EL).
Qed.

Theorem C01_varuint_too_big : forall pre v,
  2 ^ 35 <= v -> bytes_ok pre ->
  exists l, write_varuint pre v = Ok (pre ++ l) /\
    forall post, bytes_ok post ->
      fst (read_varuint (length pre) (pre ++ l ++ post)) = None.
Proof.
  intros pre v Hv Hpre. destruct (write_varuint_ok pre v ltac:(lia)) as (l & E & EL).
  exists l. split; [exact E|]. intros post Hpost.
  pose proof (varuint_bytes_ok _ _ _ EL) as BL.
  rewrite read_varuint_rv.
  - rewrite skipn_app, skipn_all, Nat.sub_diag. cbn [skipn app fst].
    apply rv_none; [apply Forall_app; auto|].
    intros i Hi.
    assert (HL : ~ (length l <= 5)%nat).
    { intro H. apply (varuint_length 5 _ _ _ EL) in H; lia. }
    destruct (varuint_shape _ _ _ EL) as (ini & z & -> & Hini & _).
    rewrite app_length in HL. cbn in HL.
    rewrite <- app_assoc. rewrite nth_error_app1 by lia.
    destruct (nth_error ini i) as [b|] eqn:Eb; auto.
    apply nth_error_In in Eb. rewrite Forall_forall in Hini. apply Hini in Eb. lia.
  - apply Forall_app. split; auto. apply Forall_app. auto.
Qed.

(** A negative argument: the `while True` loop of write_varuint has not
    ended after any number of iterations. *)
Theorem C01_varuint_negative_diverges : forall fuel v, v < 0 ->
  varuint_loop fuel v = None.
Proof. exact varuint_negative. Qed.

Example C01_example :
  write_varuint [7] 300 = Ok [7; 172; 2]
  /\ read_varuint 1 [7; 172; 2; 9; 9] = (Some 300, 3%nat)
  /\ fst (read_varuint 0 [128; 128; 128; 128; 128; 1]) = None.
Proof. vm_compute. auto. Qed.

(** C02. *)
Theorem C02_read_varuint_bounds : forall off buf, bytes_ok buf ->
  match read_varuint off buf with
  | (Some v, off') =>
      0 <= v < 2 ^ 35 /\ (off < off' <= off + 5)%nat /\ (off' <= length buf)%nat
  | (None, off') => (off <= off' <= off + 5)%nat /\ (off' <= Nat.max off (length buf))%nat
  end.
Proof.
  intros off buf Hb. rewrite read_varuint_rv by exact Hb.
  pose proof (rv_consumed 5 (skipn off buf)) as [H1 H2].
  rewrite skipn_length in H2.
  destruct (rv 5 (skipn off buf)) as [[v|] k] eqn:E; cbn [fst snd] in *.
  - assert (1 <= k)%nat.
    { pose proof (rv_some_pos 5 (skipn off buf) v) as P. rewrite E in P. apply P; auto. }
    split; [|lia].
    assert (G : forall n l v k, bytes_ok l -> rv n l = (Some v, k) ->
              0 <= v < 2 ^ (7 * Z.of_nat n)).
    { clear. induction n as [|n IH]; intros l v k Hl H; [discriminate|].
      destruct l as [|b l]; [discriminate|]. cbn [rv] in H.
      inversion Hl as [|? ? Bb Bl]; subst. unfold byte_ok in Bb.
      replace (7 * Z.of_nat (S n)) with (7 + 7 * Z.of_nat n) by lia.
      rewrite Z.pow_add_r by lia. change (2 ^ 7) with 128.
      assert (1 <= 2 ^ (7 * Z.of_nat n)).
      { assert (0 < 2 ^ (7 * Z.of_nat n)) by (apply Z.pow_pos_nonneg; lia). lia. }
      destruct (Z.ltb_spec b 128).
      - injection H as <- <-. nia.
      - destruct (rv n l) as [[v'|] k'] eqn:E; [|discriminate].
        assert (v = b - 128 + 128 * v') as -> by congruence.
        specialize (IH _ _ _ Bl E). lia. }
    exact (G _ _ _ _ (bytes_ok_skipn off _ Hb) E).
  - lia.
Qed.

(** When the result is None: there is no byte below 128 among the (at
    most five) bytes from the offset on. *)
Theorem C02_read_varuint_none_iff : forall off buf, bytes_ok buf ->
  fst (read_varuint off buf) = None <->
  (forall i b, (i < 5)%nat -> nth_error buf (off + i) = Some b -> 128 <= b).
Proof.
  intros off buf Hb. rewrite read_varuint_rv by exact Hb. cbn [fst].
  rewrite rv_none by (apply bytes_ok_skipn; auto).
  assert (N : forall i, nth_error (skipn off buf) i = nth_error buf (off + i)).
  { clear. induction off as [|n IH] in buf |- *; intro i; [reflexivity|].
    destruct buf as [|b buf]; cbn; [destruct i; auto|]. apply IH. }
  split; intros H i.
  - intros b Hi E. specialize (H i Hi). rewrite N, E in H. exact H.
  - intro Hi. rewrite N. destruct (nth_error buf (off + i)) eqn:E; auto.
    exact (H i z Hi E).
Qed.

(** and the value is the one of the documented format *)
Theorem C02_read_varuint_documented : forall off buf, bytes_ok buf ->
  match read_varuint off buf with
  | (Some v, off') => spec_varuint (skipn off buf) = Some (v, skipn off' buf)
  | (None, _) => spec_varuint (skipn off buf) = None
  end.
Proof.
  intros off buf Hb. rewrite read_varuint_rv by exact Hb.
  pose proof (rv_spec 5 (skipn off buf)) as R. unfold spec_varuint.
  destruct (rv 5 (skipn off buf)) as [[v|] k]; cbn [fst snd] in *; auto.
  rewrite R. do 2 f_equal. clear.
  induction off as [|n IH] in buf |- *; [reflexivity|].
  destruct buf; cbn; [apply skipn_nil|]. apply IH.
Qed.

Example C02_example :
  read_varuint 2 [1; 2; 255] = (None, 3%nat) /\ read_varuint 9 [1] = (None, 9%nat).
Proof. vm_compute. auto. Qed.

(** C03. *)
Theorem C03_varuint_length : forall w v, 0 <= v ->
  exists l, write_varuint w v = Ok (w ++ l) /\
    Z.of_nat (length l) = 1 + Z.log2 v / 7.
Proof.
  intros w v Hv. destruct (write_varuint_ok w v Hv) as (l & E & EL).
  exists l. split; [exact E|].
  assert (HL : (1 <= length l)%nat).
  { destruct (varuint_shape _ _ _ EL) as (i & z & -> & _). rewrite app_length. cbn. lia. }
  destruct (Z.eq_dec v 0) as [->|].
  { cbn in EL. injection EL as <-. reflexivity. }
  pose proof (proj1 (varuint_length (length l) _ _ _ EL ltac:(lia)) ltac:(lia)) as U.
  apply Z.log2_lt_pow2 in U; [|lia].
  destruct (Nat.eq_dec (length l) 1) as [E1|].
  - rewrite E1 in *. pose proof (Z.log2_nonneg v). lia.
  - assert (D : ~ v < 2 ^ (7 * Z.of_nat (length l - 1))).
    { intro D. apply (varuint_length _ _ _ _ EL) in D; lia. }
    assert (7 * Z.of_nat (length l - 1) <= Z.log2 v).
    { apply Z.log2_le_pow2; lia. }
    lia.
Qed.

(** Every other encoding of the same value that read_varuint accepts is at
    least as long. *)
Theorem C03_varuint_shortest : forall w v buf off, 0 <= v -> bytes_ok buf ->
  fst (read_varuint off buf) = Some v ->
  exists l, write_varuint w v = Ok (w ++ l) /\
    (length l <= snd (read_varuint off buf) - off)%nat.
Proof.
  intros w v buf off Hv Hb H. destruct (write_varuint_ok w v Hv) as (l & E & EL).
  exists l. split; [exact E|]. rewrite read_varuint_rv in * by exact Hb.
  cbn [fst snd] in *.
  replace (_ + _ - off)%nat with (snd (rv 5 (skipn off buf))) by lia.
  set (b := skipn off buf) in *. assert (Bb : bytes_ok b) by (apply bytes_ok_skipn; auto).
  clearbody b. clear Hb buf off.
  destruct (rv 5 b) as [o k] eqn:R; cbn [fst snd] in *. subst o.
  assert (1 <= k)%nat.
  { pose proof (rv_some_pos 5 b v) as P. rewrite R in P. apply P; auto. }
  apply (varuint_length k _ _ _ EL); [lia|].
  assert (G : forall n l v k, bytes_ok l -> rv n l = (Some v, k) -> v < 2 ^ (7 * Z.of_nat k)).
  { clear. induction n as [|n IH]; intros l v k Hl H; [discriminate|].
    destruct l as [|b l]; [discriminate|]. cbn [rv] in H.
    inversion Hl as [|? ? Bb Bl]; subst. unfold byte_ok in Bb.
    destruct (Z.ltb_spec b 128).
    - injection H as <- <-. cbn. lia.
    - destruct (rv n l) as [[v'|] k'] eqn:E; [|discriminate].
      assert (v = b - 128 + 128 * v') as -> by congruence.
      assert (k = S k') as -> by congruence. specialize (IH _ _ _ Bl E).
      replace (7 * Z.of_nat (S k')) with (7 + 7 * Z.of_nat k') by lia.
      rewrite Z.pow_add_r by lia. change (2 ^ 7) with 128. lia. }
  exact (G _ _ _ _ Bb R).
Qed.

(** No encoding is a prefix of another (so distinct values have distinct
    encodings, taking t = []). *)
Theorem C03_varuint_prefix_free : forall v1 v2 l1 l2 t,
  write_varuint [] v1 = Ok l1 -> write_varuint [] v2 = Ok l2 ->
  l2 = l1 ++ t -> v1 = v2 /\ t = [].
Proof.
  unfold write_varuint. intros v1 v2 l1 l2 t H1 H2 ->.
  destruct (varuint_loop _ v1) as [a|] eqn:E1; [|discriminate].
  destruct (varuint_loop _ v2) as [b|] eqn:E2; [|discriminate].
  cbn in H1, H2. injection H1 as ->. injection H2 as ->.
  pose proof (rv_varuint _ (length (l1 ++ t)) _ _ t E1) as R1.
  pose proof (rv_varuint _ (length (l1 ++ t)) _ _ [] E2) as R2.
  rewrite app_nil_r in R2. rewrite app_length in R1, R2.
  rewrite R1 in R2 by lia. specialize (R2 ltac:(lia)).
  injection R2 as -> HL. split; auto. destruct t; auto. cbn in HL. lia.
Qed.

Example C03_example : write_varuint [] 127 = Ok [127] /\ write_varuint [] 128 = Ok [128; 1].
Proof. vm_compute. auto. Qed.

(** C04.  [post] is whatever is in the buffer after the value. *)
Theorem C04_int_round_trip : forall r w z post,
  r = INT8 \/ r = INT16 \/ r = INT32 ->
  - 2 ^ (8 * Z.of_nat (spec_width r) - 1) <= z < 2 ^ (8 * Z.of_nat (spec_width r) - 1) ->
  exists b, w_write w (PInt z) r = Ok (w ++ b) /\ length b = spec_width r /\
    forall p, p_data p = w ++ b ++ post -> p_offset p = length w ->
      read p r = Ok (set_offset p (length w + length b), PInt z).
Proof.
  intros r w z post Hr Hz.
  assert (W : int_width r = spec_width r) by (destruct Hr as [->|[->| ->]]; reflexivity).
  assert (RS : resolution_size r = spec_width r) by (destruct Hr as [->|[->| ->]]; reflexivity).
  assert (W0 : (0 < spec_width r)%nat) by (destruct Hr as [->|[->| ->]]; cbn; lia).
  exists (le_bytes (spec_width r) z). rewrite le_bytes_length.
  assert (P : pack r (PInt z) = pack_int (int_width r) z)
    by (destruct Hr as [->|[->| ->]]; reflexivity).
  repeat split.
  - unfold w_write. rewrite P, W, pack_int_ok by exact Hz. reflexivity.
  - intros p Hd Ho. unfold read, p_size. rewrite Hd, Ho, RS.
    rewrite !app_length, le_bytes_length.
    replace (_ <? _)%nat with false by lia.
    f_equal. f_equal. unfold slice.
    rewrite skipn_app, skipn_all, Nat.sub_diag. cbn [skipn app].
    replace (length w + spec_width r - length w)%nat with (length (le_bytes (spec_width r) z))
      by (rewrite le_bytes_length; lia).
    rewrite firstn_app, firstn_all, Nat.sub_diag. cbn [firstn]. rewrite app_nil_r.
    assert (U : unpack r (le_bytes (spec_width r) z)
                = PInt (unpack_int (int_width r) (le_bytes (spec_width r) z)))
      by (destruct Hr as [->|[->| ->]]; reflexivity).
    rewrite U, W, signed_bytes; auto.
Qed.

Theorem C04_int_out_of_range : forall r w z,
  r = INT8 \/ r = INT16 \/ r = INT32 ->
  ~ (- 2 ^ (8 * Z.of_nat (spec_width r) - 1) <= z < 2 ^ (8 * Z.of_nat (spec_width r) - 1)) ->
  w_write w (PInt z) r = Raise StructError.
Proof.
  intros r w z Hr Hz. unfold w_write.
  destruct Hr as [->|[->| ->]]; cbn [pack int_width]; rewrite pack_int_raise; auto.
Qed.

Example C04_example :
  w_write [1] (PInt (-32768)) INT16 = Ok [1; 0; 128]
  /\ w_write [1] (PInt (-32769)) INT16 = Raise StructError.
Proof. vm_compute. auto. Qed.

Print Assumptions C01_varuint_round_trip.
Print Assumptions C01_varuint_too_big.
Print Assumptions C01_varuint_negative_diverges.
Print Assumptions C02_read_varuint_bounds.
Print Assumptions C02_read_varuint_none_iff.
Print Assumptions C02_read_varuint_documented.
Print Assumptions C03_varuint_length.
Print Assumptions C03_varuint_shortest.
Print Assumptions C03_varuint_prefix_free.
Print Assumptions C04_int_round_trip.
Print Assumptions C04_int_out_of_range.
