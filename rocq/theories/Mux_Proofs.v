(** Varuint and fixed width integer lemmas (multiplex.py). *)
From Coq Require Import ZArith List Bool Lia.
From Coq Require Import ZifyBool ZifyNat.
From Verif Require Import PyBase PyFloat Mux_Model Protocol_Spec Zbits.
Ltac Zify.zify_post_hook ::= Z.div_mod_to_equations.
Import ListNotations.
Open Scope Z_scope.

(** ** The reader agrees with the documented format *)

Lemma nth_error_skipn_cons {A} : forall n (l : list A) x t,
  skipn n l = x :: t -> nth_error l n = Some x /\ skipn (S n) l = t.
Proof.
  induction n as [|n IH]; intros [|y l] x t H; cbn in *; try discriminate.
  - inversion H; subst; auto.
  - apply IH in H. auto.
Qed.

Lemma skipn_nil_nth {A} : forall n (l : list A), skipn n l = [] -> nth_error l n = None.
Proof.
  induction n as [|n IH]; intros [|y l] H; cbn in *; try discriminate; auto.
Qed.

Lemma bytes_ok_skipn : forall n l, bytes_ok l -> bytes_ok (skipn n l).
Proof.
  unfold bytes_ok. induction n; intros [|b l] H; cbn; auto. inversion H; auto.
Qed.

Lemma bytes_ok_firstn : forall n l, bytes_ok l -> bytes_ok (firstn n l).
Proof.
  unfold bytes_ok. induction n; intros [|b l] H; cbn; auto. inversion H; auto.
Qed.

(** What read_varuint does, in terms of the bytes from the offset on. *)
Fixpoint rv (n : nat) (l : list Z) : option Z * nat :=
  match n, l with
  | O, _ => (None, 0%nat)
  | S n, [] => (None, 0%nat)
  | S n, b :: l =>
      if b <? 128 then (Some b, 1%nat)
      else let '(v, k) := rv n l in
           (match v with Some v => Some (b - 128 + 128 * v) | None => None end, S k)
  end.

Lemma read_loop_rv : forall n i res shift off buf,
  0 <= shift -> 0 <= res < 2 ^ shift -> (n + i = 5)%nat ->
  bytes_ok buf ->
  read_varuint_loop n i res shift off buf =
  (match fst (rv n (skipn (off + i) buf)) with
   | Some v => Some (res + v * 2 ^ shift) | None => None end,
   (off + i + snd (rv n (skipn (off + i) buf)))%nat).
Proof.
  induction n as [|n IH]; intros i res shift off buf Hs Hr Hn Hb.
  - cbn. f_equal. lia.
  - cbn [read_varuint_loop rv].
    destruct (skipn (off + i) buf) as [|b l] eqn:E.
    + rewrite (skipn_nil_nth _ _ E). cbn. f_equal. lia.
    + destruct (nth_error_skipn_cons _ _ _ _ E) as [E1 E2]. rewrite E1.
      assert (Bb : 0 <= b < 256).
      { pose proof (bytes_ok_skipn (off + i) buf Hb) as H. rewrite E in H.
        inversion H; subst. assumption. }
      rewrite land_128 by exact Bb. rewrite land_127.
      rewrite lor_shiftl_add by lia.
      destruct (Z.ltb_spec b 128).
      * cbn. rewrite (Z.mod_small b) by lia. f_equal.
      * assert (B2 : b mod 128 = b - 128) by lia. rewrite B2.
        rewrite IH; auto; try lia.
        -- replace (off + S i)%nat with (S (off + i)) by lia. rewrite E2.
           destruct (rv n l) as [[v|] k]; cbn [fst snd].
           ++ f_equal; [|lia]. f_equal.
              replace (shift + 7) with (7 + shift) by lia.
              rewrite Z.pow_add_r by lia. ring.
           ++ f_equal. lia.
        -- replace (shift + 7) with (7 + shift) by lia.
           rewrite Z.pow_add_r by lia. nia.
Qed.

Lemma read_varuint_rv : forall off buf, bytes_ok buf ->
  read_varuint off buf =
  (fst (rv 5 (skipn off buf)), (off + snd (rv 5 (skipn off buf)))%nat).
Proof.
  intros off buf Hb. unfold read_varuint.
  rewrite (read_loop_rv 5 0 0 0 off buf); try (cbn; lia); auto.
  rewrite Nat.add_0_r. destruct (rv 5 (skipn off buf)) as [[v|] k]; cbn [fst snd]; auto.
  f_equal. f_equal. rewrite Z.mul_1_r. reflexivity.
Qed.

Lemma rv_spec : forall n l,
  match fst (rv n l) with
  | Some v => spec_varuint_n n l = Some (v, skipn (snd (rv n l)) l)
  | None => spec_varuint_n n l = None
  end.
Proof.
  induction n as [|n IH]; intros l; cbn; auto.
  destruct l as [|b l]; cbn; auto.
  destruct (Z.ltb_spec b 128); cbn; auto.
  specialize (IH l). destruct (rv n l) as [[v|] k]; cbn [fst snd] in *; rewrite IH; auto.
Qed.

Lemma rv_consumed : forall n l,
  (snd (rv n l) <= n)%nat /\ (snd (rv n l) <= length l)%nat.
Proof.
  induction n as [|n IH]; intros l; cbn; try lia.
  destruct l as [|b l]; cbn; try lia.
  destruct (Z.ltb_spec b 128); cbn; try lia.
  specialize (IH l). destruct (rv n l) as [v k]; cbn [fst snd] in *. lia.
Qed.

Lemma rv_some_pos : forall n l v, fst (rv n l) = Some v -> (1 <= snd (rv n l))%nat.
Proof.
  destruct n as [|n]; intros l v H; cbn in *; try discriminate.
  destruct l as [|b l]; cbn in *; try discriminate.
  destruct (Z.ltb_spec b 128); cbn in *; try lia.
  destruct (rv n l); cbn; lia.
Qed.

(** None exactly when five continuation bytes follow or the buffer ends
    inside the number. *)
Lemma rv_none : forall n l, bytes_ok l ->
  fst (rv n l) = None <->
  (forall i, (i < n)%nat -> match nth_error l i with
                            | Some b => 128 <= b | None => True end).
Proof.
  induction n as [|n IH]; intros l Hl.
  - cbn. split; auto. intros _ i Hi. lia.
  - destruct l as [|b l]; cbn [rv].
    + split; auto. intros _ [|i] _; cbn; auto.
    + inversion Hl as [|? ? Hb Hl']; subst. specialize (IH l Hl').
      destruct (Z.ltb_spec b 128); cbn [fst].
      * split; [discriminate|]. intro HH. specialize (HH 0%nat ltac:(lia)). cbn in HH. lia.
      * destruct (rv n l) as [[v|] k]; cbn [fst snd] in *.
        -- split; [discriminate|]. intro HH. exfalso.
           assert (Some v = None); [|discriminate]. apply IH. intros i Hi.
           exact (HH (S i) ltac:(lia)).
        -- split; auto. intros _ [|i] Hi; cbn; [lia|]. apply IH; [auto|lia].
Qed.

(** ** The writer *)

Lemma varuint_loop_step : forall fuel v,
  varuint_loop (S fuel) v =
  if v / 128 =? 0 then Some [v mod 128]
  else match varuint_loop fuel (v / 128) with
       | Some l => Some ((v mod 128 + 128) :: l) | None => None end.
Proof.
  intros. cbn [varuint_loop]. rewrite land_127, shiftr_7.
  destruct (Z.eqb_spec (v / 128) 0) as [E|E].
  - rewrite Z.lor_0_r. reflexivity.
  - rewrite lor_128 by lia. reflexivity.
Qed.

Lemma varuint_loop_total : forall fuel v, 0 <= v < 2 ^ Z.of_nat (S fuel) ->
  exists l, varuint_loop (S fuel) v = Some l.
Proof.
  induction fuel as [|fuel IH]; intros v Hv;
    rewrite varuint_loop_step; destruct (Z.eqb_spec (v / 128) 0); eauto.
  - change (2 ^ Z.of_nat 1) with 2 in Hv. lia.
  - destruct (IH (v / 128)) as [l ->]; eauto.
    rewrite Nat2Z.inj_succ, Z.pow_succ_r in Hv by lia. lia.
Qed.

Lemma varuint_total : forall v, 0 <= v ->
  exists l, varuint_loop (varuint_fuel v) v = Some l.
Proof.
  intros v Hv. unfold varuint_fuel. apply varuint_loop_total. split; [exact Hv|].
  rewrite Nat2Z.inj_succ.
  rewrite Z2Nat.id by (apply Z.log2_nonneg).
  destruct (Z.eq_dec v 0) as [->|]; [cbn; lia|].
  apply Z.log2_spec. lia.
Qed.

Lemma varuint_negative : forall fuel v, v < 0 -> varuint_loop fuel v = None.
Proof.
  induction fuel as [|fuel IH]; intros v Hv; [reflexivity|].
  rewrite varuint_loop_step. destruct (Z.eqb_spec (v / 128) 0); [lia|].
  rewrite IH by lia. reflexivity.
Qed.

Lemma varuint_nonneg : forall fuel v l, varuint_loop fuel v = Some l -> 0 <= v.
Proof.
  intros fuel v l H. destruct (Z.lt_ge_cases v 0); [|lia].
  rewrite varuint_negative in H by lia. discriminate.
Qed.

(** Independent of the fuel. *)
Lemma varuint_loop_mono : forall f1 f2 v l, varuint_loop f1 v = Some l ->
  (f1 <= f2)%nat -> varuint_loop f2 v = Some l.
Proof.
  induction f1 as [|f1 IH]; intros f2 v l H Hf; [discriminate|].
  destruct f2 as [|f2]; [lia|]. rewrite varuint_loop_step in *.
  destruct (Z.eqb_spec (v / 128) 0); auto.
  destruct (varuint_loop f1 (v / 128)) eqn:E; [|discriminate].
  rewrite (IH f2 _ _ E) by lia. exact H.
Qed.

(** Shape of the bytes: all but the last have the top bit, the last one
    does not, and the last is not 0 unless the value is 0. *)
Lemma varuint_shape : forall fuel v l, varuint_loop fuel v = Some l ->
  exists init z, l = init ++ [z] /\ Forall (fun b => 128 <= b < 256) init /\
    0 <= z < 128 /\ (z = 0 -> init = []).
Proof.
  induction fuel as [|fuel IH]; intros v l H; [discriminate|].
  pose proof (varuint_nonneg _ _ _ H) as Hv.
  rewrite varuint_loop_step in H.
  destruct (Z.eqb_spec (v / 128) 0).
  - injection H as <-. exists [], (v mod 128). repeat split; auto; lia.
  - destruct (varuint_loop fuel (v / 128)) as [l'|] eqn:E; [|discriminate].
    injection H as <-. destruct (IH _ _ E) as (i & z & -> & Hi & Hz & Hc).
    exists (v mod 128 + 128 :: i), z. repeat split; auto; try lia.
    + constructor; [lia|auto].
    + intro. subst z. exfalso.
      specialize (Hc eq_refl). subst i. destruct fuel as [|fuel]; [discriminate|].
      rewrite varuint_loop_step in E.
      destruct (Z.eqb_spec (v / 128 / 128) 0); [injection E; lia|].
      destruct (varuint_loop fuel (v / 128 / 128)); [|discriminate].
      injection E. lia.
Qed.

Lemma varuint_bytes_ok : forall fuel v l, varuint_loop fuel v = Some l -> bytes_ok l.
Proof.
  intros fuel v l H. destruct (varuint_shape _ _ _ H) as (i & z & -> & Hi & Hz & _).
  apply Forall_app. split.
  - eapply Forall_impl; [|exact Hi]. unfold byte_ok. intros; lia.
  - constructor; [unfold byte_ok; lia|auto].
Qed.

Lemma varuint_length : forall k fuel v l, varuint_loop fuel v = Some l -> (0 < k)%nat ->
  (length l <= k)%nat <-> v < 2 ^ (7 * Z.of_nat k).
Proof.
  induction k as [|k IH]; intros fuel v l H Hk; [lia|].
  destruct fuel as [|fuel]; [discriminate|].
  pose proof (varuint_nonneg _ _ _ H) as Hv.
  rewrite varuint_loop_step in H.
  replace (7 * Z.of_nat (S k)) with (7 + 7 * Z.of_nat k) by lia.
  rewrite Z.pow_add_r by lia. change (2 ^ 7) with 128.
  destruct (Z.eqb_spec (v / 128) 0).
  - injection H as <-. cbn [length]. split; [|lia]. intros _.
    assert (1 <= 2 ^ (7 * Z.of_nat k)) by (apply Z.pow_le_mono_r with (b := 0); lia || (change 1 with (2^0); apply Z.pow_le_mono_r; lia)).
    lia.
  - destruct (varuint_loop fuel (v / 128)) as [l'|] eqn:E; [|discriminate].
    injection H as <-. cbn [length].
    destruct k as [|k].
    + cbn. destruct l' as [|]; cbn; split; try lia.
      destruct (varuint_shape _ _ _ E) as (i & z & Hx & _). destruct i; discriminate.
    + specialize (IH _ _ _ E ltac:(lia)). nia.
Qed.

(** ** Writing then reading *)

Lemma rv_varuint : forall fuel n v l rest, varuint_loop fuel v = Some l ->
  (length l <= n)%nat -> rv n (l ++ rest) = (Some v, length l).
Proof.
  induction fuel as [|fuel IH]; intros n v l rest H Hn; [discriminate|].
  pose proof (varuint_nonneg _ _ _ H) as Hv.
  rewrite varuint_loop_step in H.
  destruct (Z.eqb_spec (v / 128) 0).
  - injection H as <-. destruct n as [|n]; [cbn in Hn; lia|]. cbn [app rv length].
    replace (v mod 128 <? 128) with true by lia. f_equal. f_equal. lia.
  - destruct (varuint_loop fuel (v / 128)) as [l'|] eqn:E; [|discriminate].
    injection H as <-. destruct n as [|n]; [cbn in Hn; lia|]. cbn [app rv length].
    replace (v mod 128 + 128 <? 128) with false by lia.
    rewrite (IH n _ _ rest E) by (cbn in Hn; lia). f_equal. f_equal. lia.
Qed.

Lemma spec_varuint_inv : forall fuel v l rest, varuint_loop fuel v = Some l ->
  v < 2 ^ 35 -> spec_varuint (l ++ rest) = Some (v, rest).
Proof.
  intros fuel v l rest H Hv. unfold spec_varuint.
  assert (HL : (length l <= 5)%nat) by (apply (varuint_length 5 _ _ _ H); [lia|exact Hv]).
  pose proof (rv_spec 5 (l ++ rest)) as R.
  rewrite (rv_varuint _ 5 _ _ rest H HL) in R. cbn [fst snd] in R. rewrite R.
  f_equal. f_equal. rewrite skipn_app, skipn_all. rewrite Nat.sub_diag. reflexivity.
Qed.

(** ** Fixed width *)

Lemma le_bytes_length : forall n v, length (le_bytes n v) = n.
Proof. induction n; intros; cbn; auto. Qed.

Lemma le_bytes_ok : forall n v, bytes_ok (le_bytes n v).
Proof.
  unfold bytes_ok. induction n; intros; cbn; constructor; auto.
  unfold byte_ok. lia.
Qed.

Lemma le_value_bytes : forall n v, le_value (le_bytes n v) = v mod 2 ^ (8 * Z.of_nat n).
Proof.
  induction n as [|n IH]; intros v.
  - cbn. rewrite Z.mod_1_r. reflexivity.
  - cbn [le_bytes le_value]. rewrite IH.
    replace (8 * Z.of_nat (S n)) with (8 + 8 * Z.of_nat n) by lia.
    rewrite Z.pow_add_r by lia. change (2 ^ 8) with 256.
    rewrite Z.rem_mul_r by (try (apply Z.pow_nonzero; lia); lia). lia.
Qed.

Lemma le_value_range : forall l, bytes_ok l -> 0 <= le_value l < 2 ^ (8 * Z.of_nat (length l)).
Proof.
  unfold bytes_ok. induction l as [|b l IH]; intro H; cbn [le_value length].
  - cbn. lia.
  - inversion H as [|? ? Hb Hl]; subst. specialize (IH Hl).
    replace (8 * Z.of_nat (S (length l))) with (8 + 8 * Z.of_nat (length l)) by lia.
    rewrite Z.pow_add_r by lia. change (2 ^ 8) with 256. unfold byte_ok in Hb. nia.
Qed.

Lemma le_bytes_value : forall l, bytes_ok l -> le_bytes (length l) (le_value l) = l.
Proof.
  unfold bytes_ok. induction l as [|b l IH]; intro H; cbn [le_value length le_bytes]; auto.
  inversion H as [|? ? Hb Hl]; subst. unfold byte_ok in Hb.
  f_equal; [lia|]. replace ((b + 256 * le_value l) / 256) with (le_value l) by lia. auto.
Qed.

Definition in_range (w : nat) (z : Z) : Prop :=
  - 2 ^ (8 * Z.of_nat w - 1) <= z < 2 ^ (8 * Z.of_nat w - 1).

Lemma pack_int_ok : forall w z, in_range w z -> pack_int w z = Ok (le_bytes w z).
Proof.
  intros w z [H1 H2]. unfold pack_int.
  replace (_ && _) with true; auto. symmetry. apply andb_true_iff. split; lia.
Qed.

Lemma pack_int_raise : forall w z, ~ in_range w z -> pack_int w z = Raise StructError.
Proof.
  intros w z H. unfold pack_int. unfold in_range in H.
  destruct (_ && _) eqn:E; auto. exfalso. apply H.
  apply andb_true_iff in E. lia.
Qed.

Lemma signed_bytes : forall w z, (0 < w)%nat -> in_range w z ->
  unpack_int w (le_bytes w z) = z.
Proof.
  intros w z Hw [H1 H2]. unfold unpack_int. rewrite le_value_bytes.
  assert (E : 2 ^ (8 * Z.of_nat w) = 2 * 2 ^ (8 * Z.of_nat w - 1)).
  { rewrite <- Z.pow_succ_r by lia. f_equal. lia. }
  rewrite E. set (h := 2 ^ (8 * Z.of_nat w - 1)) in *.
  assert (0 < h) by (apply Z.pow_pos_nonneg; lia).
  destruct (Z.lt_ge_cases z 0).
  - assert (M : z mod (2 * h) = z + 2 * h).
    { symmetry. apply Z.mod_unique with (q := -1); lia. }
    rewrite M. destruct (Z.ltb_spec (z + 2 * h) h); lia.
  - rewrite Z.mod_small by lia. destruct (Z.ltb_spec z h); lia.
Qed.

Lemma unpack_range : forall w b, (0 < w)%nat -> bytes_ok b -> length b = w ->
  in_range w (unpack_int w b).
Proof.
  intros w b Hw Hb HL. pose proof (le_value_range b Hb) as R. rewrite HL in R.
  unfold unpack_int, in_range.
  assert (E : 2 ^ (8 * Z.of_nat w) = 2 * 2 ^ (8 * Z.of_nat w - 1)).
  { rewrite <- Z.pow_succ_r by lia. f_equal. lia. }
  rewrite E in *. destruct (Z.ltb_spec (le_value b) (2 ^ (8 * Z.of_nat w - 1))); lia.
Qed.

Lemma pack_unpack_int : forall w b, (0 < w)%nat -> bytes_ok b -> length b = w ->
  pack_int w (unpack_int w b) = Ok b.
Proof.
  intros w b Hw Hb HL. rewrite pack_int_ok by (apply unpack_range; auto). f_equal.
  pose proof (le_value_range b Hb) as R. rewrite HL in R.
  assert (L : forall n v k, le_bytes n (v - k * 2 ^ (8 * Z.of_nat n)) = le_bytes n v).
  { clear. induction n as [|n IH]; intros; cbn [le_bytes]; auto.
    replace (8 * Z.of_nat (S n)) with (8 + 8 * Z.of_nat n) by lia.
    rewrite Z.pow_add_r by lia. change (2 ^ 8) with 256.
    set (X := 2 ^ (8 * Z.of_nat n)) in *.
    replace (v - k * (256 * X)) with (v + (- k * X) * 256) by ring.
    rewrite Z.mod_add by lia. f_equal. rewrite Z.div_add by lia.
    replace (v / 256 + - k * X) with (v / 256 - k * X) by ring. apply IH. }
  unfold unpack_int. destruct (_ <? _).
  - rewrite <- HL. apply le_bytes_value; auto.
  - rewrite <- (Z.mul_1_l (2 ^ _)). rewrite L. rewrite <- HL. apply le_bytes_value; auto.
Qed.
