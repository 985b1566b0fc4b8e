(** Lemmas about the telemetry reader. *)
From Coq Require Import Ascii String ZArith List Bool Lia.
From Coq Require Import ZifyBool ZifyNat.
From Coq Require Import Floats.SpecFloat.
From Verif Require Import PyBase PyBytes PyFloat Zbits Mux_Proofs Float_Proofs Quant_Proofs
  Reader_Model Reader_Spec.
Ltac Zify.zify_post_hook ::= Z.div_mod_to_equations.
Import ListNotations.
Open Scope Z_scope.

(** ** varuint *)
Lemma varuint_nonneg v b : varuint v b -> 0 <= v.
Proof. induction 1; lia. Qed.

Lemma varuint_length v b : varuint v b -> (1 <= List.length b)%nat.
Proof. destruct 1; cbn; lia. Qed.

Lemma uint_small v b : varuint v b -> v < 2 ^ 64 -> uint v b.
Proof.
  intros V L. split; [exact V|]. pose proof (varuint_nonneg _ _ V). pose proof (varuint_length _ _ V).
  assert (0 < 128 ^ (Z.of_nat (List.length b) - 1)) by (apply Z.pow_pos_nonneg; lia).
  apply Z.le_lt_trans with v; [|exact L]. apply Z.mod_le; lia.
Qed.

(** All groups but the last. *)
Lemma groups_more lo hi b : 0 <= lo < 128 -> varuint hi b ->
  (lo + 128 * hi) mod 128 ^ (Z.of_nat (List.length ((128 + lo) :: b)) - 1) =
  lo + 128 * (hi mod 128 ^ (Z.of_nat (List.length b) - 1)).
Proof.
  intros R V. pose proof (varuint_length _ _ V) as L. cbn [List.length].
  replace (Z.of_nat (S (List.length b)) - 1) with (Z.succ (Z.of_nat (List.length b) - 1)) by lia.
  rewrite Z.pow_succ_r by lia. set (m := 128 ^ (Z.of_nat (List.length b) - 1)).
  assert (0 < m) by (apply Z.pow_pos_nonneg; lia).
  rewrite Z.rem_mul_r by lia. f_equal; [lia|]. f_equal. f_equal. lia.
Qed.

Lemma varuint_loop_ok v b : varuint v b -> forall result fk rest,
  0 <= result -> 0 < fk -> result + fk * (v mod 128 ^ (Z.of_nat (List.length b) - 1)) < 2 ^ 64 ->
  varuint_loop result fk (b ++ rest) = Ok (result + fk * v, rest).
Proof.
  induction 1 as [v H|lo hi b H V IH]; intros result fk rest R F L.
  - cbn [app varuint_loop]. rewrite land_127, Z.mod_small by lia.
    destruct (v <? 128) eqn:E; [reflexivity|lia].
  - rewrite groups_more in L by assumption. cbn [app varuint_loop].
    pose proof (varuint_length _ _ V).
    assert (0 <= hi mod 128 ^ (Z.of_nat (List.length b) - 1)) as P.
    { apply Z.mod_pos_bound. apply Z.pow_pos_nonneg; lia. }
    rewrite land_127. replace ((128 + lo) mod 128) with lo by lia.
    destruct (128 + lo <? 128) eqn:E; [lia|]. clear E.
    set (hm := hi mod _) in *.
    assert (0 <= fk * hm) by (clearbody hm; nia). assert (0 <= fk * lo) by nia.
    destruct (result + fk * lo >=? 2 ^ 64) eqn:E; [clearbody hm; lia|].
    rewrite IH; [f_equal; f_equal; lia|lia|lia|fold hm; clearbody hm; lia].
Qed.

Lemma read_varuint_ok v b rest : uint v b -> read_varuint (b ++ rest) = Ok (v, rest).
Proof.
  intros [H L]. unfold read_varuint. rewrite (varuint_loop_ok v b H) by lia. f_equal. f_equal. lia.
Qed.

Lemma varuint_loop_inv l : forall result fk v rest, bytes_ok l -> 0 < fk -> result < 2 ^ 64 ->
  varuint_loop result fk l = Ok (v, rest) ->
  exists b w, l = b ++ rest /\ varuint w b /\ v = result + fk * w /\
    result + fk * (w mod 128 ^ (Z.of_nat (List.length b) - 1)) < 2 ^ 64.
Proof.
  induction l as [|x l IH]; intros result fk v rest B F L H; [discriminate|].
  cbn [varuint_loop] in H. apply Forall_cons_iff in B as [Bx B]. red in Bx. rewrite land_127 in H.
  destruct (x <? 128) eqn:E.
  - injection H as <- <-. exists [x], x. split; [reflexivity|]. split; [constructor; lia|].
    split; [rewrite Z.mod_small; lia|]. cbn. rewrite Z.mod_1_r. lia.
  - destruct (result + fk * (x mod 128) >=? 2 ^ 64) eqn:G; [discriminate|].
    apply IH in H as (b & w & -> & V & -> & Lm); [|exact B|lia|lia].
    exists (x :: b), (x mod 128 + 128 * w). split; [reflexivity|].
    remember (x mod 128) as lo eqn:El. assert (x = 128 + lo) as -> by lia.
    split; [constructor; [lia|exact V]|]. split; [lia|].
    rewrite groups_more; [|lia|exact V]. clear - Lm. lia.
Qed.

Lemma read_varuint_inv l v rest : bytes_ok l -> read_varuint l = Ok (v, rest) ->
  exists b, l = b ++ rest /\ uint v b.
Proof.
  intros B H. apply varuint_loop_inv in H as (b & w & -> & V & -> & L); [|exact B|lia|lia].
  exists b. split; [reflexivity|]. replace (0 + 1 * w) with w by lia. split; [exact V|lia].
Qed.

(** ** UTF-8 *)
Ltac zb := repeat match goal with
  | |- context [if ?c then _ else _] => destruct c eqn:?; try lia
  end.

Lemma utf8_decode_char c l : scalar c ->
  utf8_decode (utf8_char c ++ l) = bind (utf8_decode l) (fun s => Ok (c :: s)).
Proof.
  intros S. unfold scalar in S. unfold utf8_char.
  destruct (c <? 0x80) eqn:E1.
  { cbn [app utf8_decode]. now rewrite E1. }
  destruct (c <? 0x800) eqn:E2.
  { cbn [app utf8_decode]. destruct (0xc0 + c / 64 <? 0x80) eqn:A; [lia|].
    destruct ((0xc2 <=? 0xc0 + c / 64) && (0xc0 + c / 64 <=? 0xdf)) eqn:A2; [|lia].
    unfold continuation. destruct ((0x80 <=? 0x80 + c mod 64) && (0x80 + c mod 64 <=? 0xbf)) eqn:A3; [|lia].
    destruct (utf8_decode l); cbn [bind]; [|reflexivity]. f_equal. f_equal. lia. }
  destruct (c <? 0x10000) eqn:E3.
  { cbn [app utf8_decode]. set (b0 := 0xe0 + c / 4096). set (b1 := 0x80 + (c / 64) mod 64).
    set (b2 := 0x80 + c mod 64).
    assert ((b0 - 224) * 4096 + (b1 - 128) * 64 + (b2 - 128) = c) as EQ.
    { subst b0 b1 b2. lia. }
    assert (0xe0 <= b0 <= 0xef) by (subst b0; lia).
    assert (0x80 <= b1 <= 0xbf) by (subst b1; lia).
    assert (0x80 <= b2 <= 0xbf) by (subst b2; lia). clearbody b0 b1 b2.
    destruct (b0 <? 0x80) eqn:A1; [lia|].
    destruct ((0xc2 <=? b0) && (b0 <=? 0xdf)) eqn:A2; [lia|].
    destruct ((0xe0 <=? b0) && (b0 <=? 0xef)) eqn:A3; [|lia].
    rewrite EQ. unfold continuation.
    match goal with |- (if ?x then _ else _) = _ => destruct x eqn:A4 end; [reflexivity|lia]. }
  cbn [app utf8_decode]. set (b0 := 0xf0 + c / 262144). set (b1 := 0x80 + (c / 4096) mod 64).
  set (b2 := 0x80 + (c / 64) mod 64). set (b3 := 0x80 + c mod 64).
  assert ((b0 - 240) * 262144 + (b1 - 128) * 4096 + (b2 - 128) * 64 + (b3 - 128) = c) as EQ.
  { subst b0 b1 b2 b3. lia. }
  assert (0xf0 <= b0 <= 0xf4) by (subst b0; lia).
  assert (0x80 <= b1 <= 0xbf) by (subst b1; lia).
  assert (0x80 <= b2 <= 0xbf) by (subst b2; lia).
  assert (0x80 <= b3 <= 0xbf) by (subst b3; lia). clearbody b0 b1 b2 b3.
  destruct (b0 <? 0x80) eqn:A1; [lia|].
  destruct ((0xc2 <=? b0) && (b0 <=? 0xdf)) eqn:A2; [lia|].
  destruct ((0xe0 <=? b0) && (b0 <=? 0xef)) eqn:A3; [lia|].
  destruct ((0xf0 <=? b0) && (b0 <=? 0xf4)) eqn:A4; [|lia].
  rewrite EQ. unfold continuation.
  match goal with |- (if ?x then _ else _) = _ => destruct x eqn:A5 end; [reflexivity|lia].
Qed.

Lemma utf8_decode_ok s : Forall scalar s -> utf8_decode (utf8 s) = Ok s.
Proof.
  induction 1 as [|c s H S IH]; [reflexivity|]. unfold utf8 in *. cbn [flat_map].
  rewrite utf8_decode_char by exact H. now rewrite IH.
Qed.

(** What decodes is the encoding of the result. *)
Lemma utf8_decode_inv n : forall d s, (List.length d <= n)%nat -> bytes_ok d ->
  utf8_decode d = Ok s -> Forall scalar s /\ d = utf8 s.
Proof.
  induction n as [|n IH]; intros d s L B H.
  { destruct d; [|cbn in L; lia]. injection H as <-. split; [constructor|reflexivity]. }
  destruct d as [|b0 d]; [injection H as <-; split; [constructor|reflexivity]|].
  assert (forall d' c, utf8_decode d' = Ok (tl s) -> (List.length d' <= n)%nat -> bytes_ok d' ->
    s = c :: tl s -> scalar c -> b0 :: d = utf8_char c ++ d' -> Forall scalar s /\ b0 :: d = utf8 s) as K.
  { intros d' c H' L' B' Es Sc Ed. destruct (IH _ _ L' B' H') as [F E]. rewrite Es, Ed, E.
    split; [now constructor|]. reflexivity. }
  cbn [utf8_decode] in H. apply Forall_cons_iff in B as [B0 B]. red in B0. cbn [List.length] in L.
  destruct (b0 <? 0x80) eqn:A1.
  { destruct (utf8_decode d) as [s'|] eqn:E; [|discriminate]. injection H as <-.
    apply (K d b0); auto; [lia|unfold scalar; lia|]. unfold utf8_char. now rewrite A1. }
  destruct ((0xc2 <=? b0) && (b0 <=? 0xdf)) eqn:A2.
  { destruct d as [|b1 d]; [discriminate|]. destruct (continuation b1) eqn:C1; [|discriminate].
    unfold continuation in C1. apply Forall_cons_iff in B as [B1 B]. cbn [List.length] in L.
    destruct (utf8_decode d) as [s'|] eqn:E; [|discriminate]. injection H as <-.
    eapply (K d); [exact E|lia|exact B|reflexivity|unfold scalar; lia|].
    unfold utf8_char. set (c := (b0 - 192) * 64 + (b1 - 128)).
    destruct (c <? 128) eqn:X1; [subst c; lia|]. destruct (c <? 2048) eqn:X2; [|subst c; lia].
    cbn [app]. f_equal; [|f_equal]; subst c; lia. }
  destruct ((0xe0 <=? b0) && (b0 <=? 0xef)) eqn:A3.
  { destruct d as [|b1 [|b2 d]]; try discriminate. set (c := (b0 - 224) * 4096 + (b1 - 128) * 64 + (b2 - 128)) in H.
    unfold continuation in H.
    match type of H with (if ?x then _ else _) = _ => destruct x eqn:C1 end; [|discriminate].
    apply Forall_cons_iff in B as [B1 B]. apply Forall_cons_iff in B as [B2 B]. cbn [List.length] in L.
    destruct (utf8_decode d) as [s'|] eqn:E; [|discriminate]. injection H as <-.
    eapply (K d); [exact E|lia|exact B|reflexivity|unfold scalar; lia|].
    unfold utf8_char.
    destruct (c <? 128) eqn:X1; [lia|]. destruct (c <? 2048) eqn:X2; [lia|].
    destruct (c <? 65536) eqn:X3; [|lia].
    assert (c / 4096 = b0 - 224) by (subst c; lia).
    assert (c / 64 = (b0 - 224) * 64 + (b1 - 128)) by (subst c; lia).
    assert (c mod 64 = b2 - 128) by (subst c; lia).
    cbn [app]. f_equal; [|f_equal; [|f_equal]]; lia. }
  destruct ((0xf0 <=? b0) && (b0 <=? 0xf4)) eqn:A4; [|discriminate].
  destruct d as [|b1 [|b2 [|b3 d]]]; try discriminate.
  set (c := (b0 - 240) * 262144 + (b1 - 128) * 4096 + (b2 - 128) * 64 + (b3 - 128)) in H.
  unfold continuation in H.
  match type of H with (if ?x then _ else _) = _ => destruct x eqn:C1 end; [|discriminate].
  apply Forall_cons_iff in B as [B1 B]. apply Forall_cons_iff in B as [B2 B].
  apply Forall_cons_iff in B as [B3 B]. cbn [List.length] in L.
  destruct (utf8_decode d) as [s'|] eqn:E; [|discriminate]. injection H as <-.
  eapply (K d); [exact E|lia|exact B|reflexivity|unfold scalar; lia|].
  unfold utf8_char.
  destruct (c <? 128) eqn:X1; [lia|]. destruct (c <? 2048) eqn:X2; [lia|].
  destruct (c <? 65536) eqn:X3; [lia|].
  assert (c / 262144 = b0 - 240) by (subst c; lia).
  assert (c / 4096 = (b0 - 240) * 64 + (b1 - 128)) by (subst c; lia).
  assert (c / 64 = (b0 - 240) * 4096 + (b1 - 128) * 64 + (b2 - 128)) by (subst c; lia).
  assert (c mod 64 = b3 - 128) by (subst c; lia).
  cbn [app]. f_equal; [|f_equal; [|f_equal; [|f_equal]]]; lia.
Qed.

(** ** Bytes and numbers *)
Lemma pseq_ok A B (p : parser A) (f : A -> parser B) l a l' : p l = Ok (a, l') ->
  pseq p f l = f a l'.
Proof. intros H. unfold pseq. now rewrite H. Qed.
Lemma pseq_inv A B (p : parser A) (f : A -> parser B) l b rest : pseq p f l = Ok (b, rest) ->
  exists a l', p l = Ok (a, l') /\ f a l' = Ok (b, rest).
Proof. unfold pseq. destruct (p l) as [[a l']|e]; [eauto|discriminate]. Qed.
Lemma pret_inv A (a b : A) l rest : pret a l = Ok (b, rest) -> b = a /\ rest = l.
Proof. unfold pret. intros H. injection H as <- <-. auto. Qed.

Lemma base_read_ok d rest : Z.of_nat (List.length d) < 2 ^ 63 ->
  base_read (Z.of_nat (List.length d)) (d ++ rest) = Ok (d, rest).
Proof.
  intros L. unfold base_read. destruct (_ >=? _) eqn:E; [lia|]. rewrite Nat2Z.id.
  rewrite firstn_app, skipn_app, Nat.sub_diag, firstn_all, skipn_all. cbn. now rewrite app_nil_r.
Qed.

(** Either as many bytes as asked for, or all there are. *)
Lemma base_read_inv size l d rest : 0 <= size -> base_read size l = Ok (d, rest) ->
  l = d ++ rest /\ size < 2 ^ 63 /\ (Z.of_nat (List.length d) = size \/ rest = []).
Proof.
  intros P. unfold base_read. destruct (_ >=? _) eqn:E; [discriminate|]. intros H. injection H as <- <-.
  split; [symmetry; apply firstn_skipn|]. split; [lia|].
  destruct (Z_lt_le_dec (Z.of_nat (List.length l)) size).
  - right. apply skipn_all2. lia.
  - left. rewrite firstn_length. lia.
Qed.

Lemma read_bytes_ok d b rest : blob d b -> read_bytes (b ++ rest) = Ok (d, rest).
Proof.
  intros (L & n & U & ->). unfold read_bytes. rewrite <- app_assoc.
  rewrite (pseq_ok _ _ _ _ _ _ _ (read_varuint_ok _ _ _ U)). now apply base_read_ok.
Qed.

Lemma read_string_ok s b rest : text s b -> read_string (b ++ rest) = Ok (s, rest).
Proof.
  intros [S B]. unfold read_string. rewrite (pseq_ok _ _ _ _ _ _ _ (read_bytes_ok _ _ _ B)).
  now rewrite utf8_decode_ok.
Qed.

Lemma bytes_ok_app a b : bytes_ok (a ++ b) <-> bytes_ok a /\ bytes_ok b.
Proof. apply Forall_app. Qed.

Lemma read_bytes_inv l d rest : bytes_ok l -> read_bytes l = Ok (d, rest) -> rest <> [] ->
  exists b, l = b ++ rest /\ blob d b.
Proof.
  intros B H R. apply pseq_inv in H as (n & l' & H1 & H2).
  apply read_varuint_inv in H1 as (b & -> & V); [|exact B].
  pose proof (varuint_nonneg _ _ (proj1 V)).
  apply base_read_inv in H2 as (-> & L & [E|E]); [|contradiction|lia].
  exists (b ++ d). split; [now rewrite app_assoc|]. split; [lia|].
  exists b. split; [now rewrite E|reflexivity].
Qed.

Lemma read_string_inv l s rest : bytes_ok l -> read_string l = Ok (s, rest) -> rest <> [] ->
  exists b, l = b ++ rest /\ text s b.
Proof.
  intros B H R. apply pseq_inv in H as (d & l' & H1 & H2).
  destruct (utf8_decode d) as [s'|] eqn:E; [|discriminate].
  apply pret_inv in H2 as [-> ->].
  apply read_bytes_inv in H1 as (b & -> & Bl); auto. exists b. split; [reflexivity|].
  destruct (utf8_decode_inv (List.length d) d s') as [F ->]; auto.
  - destruct Bl as (_ & n & _ & ->). apply bytes_ok_app in B as [B _]. now apply bytes_ok_app in B.
  - now split.
Qed.

Lemma read_format_ok A n (u : list Z -> A) d rest : List.length d = n -> Z.of_nat n < 2 ^ 63 ->
  read_format n u (d ++ rest) = Ok (u d, rest).
Proof.
  intros <- L. unfold read_format. rewrite (pseq_ok _ _ _ _ _ _ _ (base_read_ok d rest L)).
  now rewrite Nat.eqb_refl.
Qed.

Lemma read_format_inv A n (u : list Z -> A) l a rest : read_format n u l = Ok (a, rest) ->
  exists d, l = d ++ rest /\ List.length d = n /\ a = u d.
Proof.
  intros H. apply pseq_inv in H as (d & l' & H1 & H2).
  apply base_read_inv in H1 as (-> & _ & _); [|lia].
  destruct (Nat.eqb_spec (List.length d) n) as [E|E]; [|discriminate].
  apply pret_inv in H2 as [-> ->]. eauto.
Qed.

Lemma le_value_range l : bytes_ok l -> 0 <= le_value l < 2 ^ (8 * Z.of_nat (List.length l)).
Proof.
  induction 1 as [|b l B F IH]; cbn [le_value List.length]; [lia|]. red in B.
  replace (8 * Z.of_nat (S (List.length l))) with (8 * Z.of_nat (List.length l) + 8) by lia.
  rewrite Z.pow_add_r by lia. change (2 ^ 8) with 256. lia.
Qed.

Lemma le_bytes_length n : forall v, List.length (le_bytes n v) = n.
Proof. induction n as [|n IH]; intros v; cbn; [reflexivity|now rewrite IH]. Qed.

Lemma signed_mod n v : (0 < n)%nat ->
  - 2 ^ (8 * Z.of_nat n - 1) <= v < 2 ^ (8 * Z.of_nat n - 1) ->
  signed n (v mod 2 ^ (8 * Z.of_nat n)) = v.
Proof.
  intros N H. unfold signed.
  replace (2 ^ (8 * Z.of_nat n)) with (2 * 2 ^ (8 * Z.of_nat n - 1)) in *
    by (rewrite <- Z.pow_succ_r by lia; f_equal; lia).
  set (m := 2 ^ (8 * Z.of_nat n - 1)) in *. assert (0 < m) by (apply Z.pow_pos_nonneg; lia).
  destruct (Z_lt_le_dec v 0).
  - replace (v mod (2 * m)) with (v + 2 * m) by (rewrite <- (Z.mod_small (v + 2 * m) (2 * m)) by lia;
      rewrite <- (Z.mod_add v 1 (2 * m)) by lia; f_equal; lia).
    destruct (_ <? _) eqn:E; lia.
  - rewrite Z.mod_small by lia. destruct (_ <? _) eqn:E; lia.
Qed.

Lemma read_signed_ok n v rest : (0 < n < 9)%nat ->
  - 2 ^ (8 * Z.of_nat n - 1) <= v < 2 ^ (8 * Z.of_nat n - 1) ->
  read_signed n (le_bytes n v ++ rest) = Ok (v, rest).
Proof.
  intros N H. unfold read_signed. rewrite read_format_ok; [|apply le_bytes_length|lia].
  rewrite le_value_bytes. now rewrite signed_mod by (try lia; exact H).
Qed.

Lemma read_unsigned_ok n v rest : (0 < n < 9)%nat -> 0 <= v < 2 ^ (8 * Z.of_nat n) ->
  read_unsigned n (le_bytes n v ++ rest) = Ok (v, rest).
Proof.
  intros N H. unfold read_unsigned. rewrite read_format_ok; [|apply le_bytes_length|lia].
  rewrite le_value_bytes. now rewrite Z.mod_small.
Qed.

Lemma read_unsigned_inv n l v rest : bytes_ok l -> read_unsigned n l = Ok (v, rest) ->
  l = le_bytes n v ++ rest /\ 0 <= v < 2 ^ (8 * Z.of_nat n).
Proof.
  intros B H. apply read_format_inv in H as (d & -> & <- & ->). apply bytes_ok_app in B as [B _].
  split; [now rewrite le_bytes_value|now apply le_value_range].
Qed.

Lemma le_bytes_mod n v : le_bytes n (v mod 2 ^ (8 * Z.of_nat n)) = le_bytes n v.
Proof.
  revert v. induction n as [|n IH]; intros v; [reflexivity|]. cbn [le_bytes].
  replace (8 * Z.of_nat (S n)) with (8 + 8 * Z.of_nat n) by lia. rewrite Z.pow_add_r by lia.
  change (2 ^ 8) with 256. set (m := 2 ^ (8 * Z.of_nat n)).
  assert (0 < m) by (apply Z.pow_pos_nonneg; lia).
  rewrite Z.rem_mul_r by lia. f_equal.
  - rewrite Z.mul_comm, Z.mod_add by lia. apply Z.mod_mod. lia.
  - rewrite Z.mul_comm, Z.div_add by lia. rewrite (Z.div_small (v mod 256)) by (apply Z.mod_pos_bound; lia).
    cbn [Z.add]. apply IH.
Qed.

Lemma read_signed_inv n l v rest : bytes_ok l -> (0 < n)%nat -> read_signed n l = Ok (v, rest) ->
  l = le_bytes n v ++ rest /\ - 2 ^ (8 * Z.of_nat n - 1) <= v < 2 ^ (8 * Z.of_nat n - 1).
Proof.
  intros B N H. apply read_format_inv in H as (d & -> & L & ->). apply bytes_ok_app in B as [B _].
  pose proof (le_value_range d B) as R. rewrite L in R.
  assert (le_bytes n (le_value d) = d) as E by (rewrite <- L; now apply le_bytes_value).
  unfold signed. set (w := le_value d) in *. clearbody w.
  replace (2 ^ (8 * Z.of_nat n)) with (2 * 2 ^ (8 * Z.of_nat n - 1)) in *
    by (rewrite <- Z.pow_succ_r by lia; f_equal; lia).
  destruct (w <? 2 ^ (8 * Z.of_nat n - 1)) eqn:G.
  - split; [now rewrite E|lia].
  - split; [|lia]. rewrite <- E at 1. f_equal. rewrite <- (le_bytes_mod n (w - _)), <- (le_bytes_mod n w).
    f_equal. replace (2 ^ (8 * Z.of_nat n)) with (2 * 2 ^ (8 * Z.of_nat n - 1))
      by (rewrite <- Z.pow_succ_r by lia; f_equal; lia).
    set (m := 2 ^ (8 * Z.of_nat n - 1)) in *.
    replace (w - 2 * m) with (w + (-1) * (2 * m)) by lia. rewrite Z.mod_add by lia. reflexivity.
Qed.

(** ** Floats: binary64, as Quant_Proofs does for binary32 *)
Lemma bounded64 : forall m e, bounded prec64 emax64 m e = true ->
  -1074 <= e <= 971 /\ Zpos m < 2 ^ 53 /\ (e = -1074 \/ 2 ^ 52 <= Zpos m).
Proof.
  intros m e H. unfold bounded in H. apply andb_true_iff in H. destruct H as [H1 H2].
  unfold canonical_mantissa in H1. apply Zeq_bool_eq in H1.
  unfold SpecFloat.fexp, emin, prec64, emax64 in *.
  pose proof (digits_bounds m) as D.
  assert (D1 : Zpos (digits2_pos m) <= 53) by lia.
  assert (Zpos m < 2 ^ 53).
  { apply Z.lt_le_trans with (2 ^ Zpos (digits2_pos m)); [lia|]. apply Z.pow_le_mono_r; lia. }
  repeat split; try lia.
  destruct (Z.eq_dec e (-1074)); [auto|right].
  assert (Zpos (digits2_pos m) = 53) as E by lia. rewrite E in D. exact (proj1 D).
Qed.

Lemma bounded64_conv : forall m e, -1074 <= e <= 971 -> Zpos m < 2 ^ 53 ->
  (e = -1074 \/ 2 ^ 52 <= Zpos m) -> bounded prec64 emax64 m e = true.
Proof.
  intros m e He Hm Hc. unfold bounded. apply andb_true_iff. split.
  - unfold canonical_mantissa. apply Zeq_is_eq_bool.
    unfold SpecFloat.fexp, emin, prec64, emax64.
    pose proof (digits_bounds m) as D.
    assert (Zpos (digits2_pos m) <= 53).
    { destruct (Z.le_gt_cases (Zpos (digits2_pos m)) 53) as [|G]; auto. exfalso.
      assert (2 ^ 53 <= 2 ^ (Zpos (digits2_pos m) - 1)) by (apply Z.pow_le_mono_r; lia). lia. }
    destruct Hc as [->|Hc]; [lia|].
    assert (53 <= Zpos (digits2_pos m)).
    { destruct (Z.le_gt_cases 53 (Zpos (digits2_pos m))) as [|G]; auto. exfalso.
      assert (2 ^ Zpos (digits2_pos m) <= 2 ^ 52) by (apply Z.pow_le_mono_r; lia). lia. }
    lia.
  - unfold emax64, prec64. lia.
Qed.

Lemma bits_split64 : forall (s : bool) ex m, 0 <= ex < 2048 -> 0 <= m < 2 ^ 52 ->
  let b := (if s then 2 ^ 63 else 0) + (ex * 2 ^ 52 + m) in
  (2 ^ 63 <=? b mod 2 ^ 64) = s /\ (b / 2 ^ 52) mod 2048 = ex /\ b mod 2 ^ 52 = m.
Proof.
  intros s ex m He Hm b. subst b.
  assert (M : forall k, 0 <= k -> ((k * 2048 + ex) * 2 ^ 52 + m) / 2 ^ 52 = k * 2048 + ex
             /\ ((k * 2048 + ex) * 2 ^ 52 + m) mod 2 ^ 52 = m).
  { intros k Hk. split.
    - rewrite Z.add_comm, Z.div_add by lia. rewrite Z.div_small by lia. lia.
    - rewrite Z.add_comm, Z.mod_add by lia. apply Z.mod_small. lia. }
  destruct s.
  - destruct (M 1 ltac:(lia)) as [M1 M2].
    replace (2 ^ 63 + (ex * 2 ^ 52 + m)) with ((1 * 2048 + ex) * 2 ^ 52 + m) by lia.
    rewrite M1, M2. rewrite (Z.mod_small _ (2 ^ 64)) by lia.
    repeat split; [apply Z.leb_le; lia|].
    replace (1 * 2048 + ex) with (ex + 1 * 2048) by lia. rewrite Z.mod_add by lia.
    apply Z.mod_small. lia.
  - destruct (M 0 ltac:(lia)) as [M1 M2].
    replace (0 + (ex * 2 ^ 52 + m)) with ((0 * 2048 + ex) * 2 ^ 52 + m) by lia.
    rewrite M1, M2. rewrite (Z.mod_small _ (2 ^ 64)) by lia.
    repeat split; [apply Z.leb_gt; lia|].
    replace (0 * 2048 + ex) with ex by lia. apply Z.mod_small. lia.
Qed.

Lemma f64_bits : forall y, float_ok y -> f64_of_bits (bits_of_f64 y) = y.
Proof.
  intros [s|s| |s m e] H; cbn [bits_of_f64].
  - destruct s; vm_compute; reflexivity.
  - destruct s; vm_compute; reflexivity.
  - vm_compute; reflexivity.
  - destruct (bounded64 m e H) as (He & Hm & Hc). unfold f64_of_bits.
    destruct (Z.ltb_spec (Zpos m) (2 ^ 52)).
    + destruct (bits_split64 s 0 (Zpos m)) as (B1 & B2 & B3); try lia.
      replace ((if s then 2 ^ 63 else 0) + (0 * 2 ^ 52 + Zpos m))
        with ((if s then 2 ^ 63 else 0) + Zpos m) in * by lia.
      rewrite B1, B2, B3. cbn [Z.eqb]. f_equal. lia.
    + destruct (bits_split64 s (e + 1075) (Zpos m - 2 ^ 52)) as (B1 & B2 & B3); try lia.
      rewrite B1, B2, B3.
      replace (e + 1075 =? 2047) with false by (symmetry; apply Z.eqb_neq; lia).
      replace (e + 1075 =? 0) with false by (symmetry; apply Z.eqb_neq; lia).
      replace (Zpos m - 2 ^ 52 + 2 ^ 52) with (Zpos m) by lia.
      f_equal. lia.
Qed.

Lemma f64_of_bits_ok : forall b, float_ok (f64_of_bits b).
Proof.
  intro b. unfold f64_of_bits.
  set (s := _ <=? _). set (ex := (b / 2 ^ 52) mod 2048). set (m := b mod 2 ^ 52).
  assert (0 <= ex < 2048) by (apply Z.mod_pos_bound; lia).
  assert (0 <= m < 2 ^ 52) by (apply Z.mod_pos_bound; lia).
  destruct (Z.eqb_spec ex 2047).
  - destruct (m =? 0); reflexivity.
  - destruct (Z.eqb_spec ex 0).
    + destruct m as [|p|p] eqn:E; try reflexivity. apply bounded64_conv; lia.
    + destruct (m + 2 ^ 52) as [|p|p] eqn:E; try reflexivity. apply bounded64_conv; lia.
Qed.


Lemma f32_pattern_ok y w : f32_pattern y w -> f32_of_bits w = y.
Proof.
  intros [O H]. destruct y as [s|s| |s m e].
  - subst w. now apply f32_bits.
  - subst w. now apply f32_bits.
  - destruct H as [H1 H2]. unfold f32_of_bits. rewrite H1. cbn [Z.eqb].
    rewrite (proj2 (Z.eqb_neq _ _) H2). reflexivity.
  - subst w. now apply f32_bits.
Qed.
Lemma f64_pattern_ok y w : f64_pattern y w -> f64_of_bits w = y.
Proof.
  intros [O H]. destruct y as [s|s| |s m e].
  - subst w. now apply f64_bits.
  - subst w. now apply f64_bits.
  - destruct H as [H1 H2]. unfold f64_of_bits. rewrite H1. cbn [Z.eqb].
    rewrite (proj2 (Z.eqb_neq _ _) H2). reflexivity.
  - subst w. now apply f64_bits.
Qed.

Lemma f32_pattern_of w : 0 <= w < 2 ^ 32 -> f32_pattern (f32_of_bits w) w.
Proof.
  intros R. split; [apply f32_of_bits_ok|]. unfold f32_of_bits.
  rewrite (Z.mod_small w (2 ^ 32)) by exact R.
  assert (w = (if 2 ^ 31 <=? w then 2 ^ 31 else 0) + ((w / 2 ^ 23) mod 256 * 2 ^ 23 + w mod 2 ^ 23)) as S.
  { destruct (2 ^ 31 <=? w) eqn:E; lia. }
  assert (0 <= (w / 2 ^ 23) mod 256 < 256) as Re by (apply Z.mod_pos_bound; lia).
  assert (0 <= w mod 2 ^ 23 < 2 ^ 23) as Rm by (apply Z.mod_pos_bound; lia).
  set (ex := (w / 2 ^ 23) mod 256) in *. set (m := w mod 2 ^ 23) in *.
  set (s := 2 ^ 31 <=? w) in *. clearbody s ex m.
  destruct (Z.eqb_spec ex 255) as [->|N1].
  { destruct (Z.eqb_spec m 0) as [->|N2]; cbn [bits_of_f32]; [destruct s; lia|auto]. }
  destruct (Z.eqb_spec ex 0) as [->|N2].
  { destruct m as [|p|p]; [cbn [bits_of_f32]; destruct s; lia| |lia].
    cbn [bits_of_f32]. destruct (Z.ltb_spec (Zpos p) (2 ^ 23)); [|lia]. lia. }
  destruct (m + 2 ^ 23) as [|p|p] eqn:E; try lia. cbn [bits_of_f32].
  destruct (Z.ltb_spec (Zpos p) (2 ^ 23)); lia.
Qed.
Lemma f64_pattern_of w : 0 <= w < 2 ^ 64 -> f64_pattern (f64_of_bits w) w.
Proof.
  intros R. split; [apply f64_of_bits_ok|]. unfold f64_of_bits.
  rewrite (Z.mod_small w (2 ^ 64)) by exact R.
  assert (w = (if 2 ^ 63 <=? w then 2 ^ 63 else 0) + ((w / 2 ^ 52) mod 2048 * 2 ^ 52 + w mod 2 ^ 52)) as S.
  { destruct (2 ^ 63 <=? w) eqn:E; lia. }
  assert (0 <= (w / 2 ^ 52) mod 2048 < 2048) as Re by (apply Z.mod_pos_bound; lia).
  assert (0 <= w mod 2 ^ 52 < 2 ^ 52) as Rm by (apply Z.mod_pos_bound; lia).
  set (ex := (w / 2 ^ 52) mod 2048) in *. set (m := w mod 2 ^ 52) in *.
  set (s := 2 ^ 63 <=? w) in *. clearbody s ex m.
  destruct (Z.eqb_spec ex 2047) as [->|N1].
  { destruct (Z.eqb_spec m 0) as [->|N2]; cbn [bits_of_f64]; [destruct s; lia|auto]. }
  destruct (Z.eqb_spec ex 0) as [->|N2].
  { destruct m as [|p|p]; [cbn [bits_of_f64]; destruct s; lia| |lia].
    cbn [bits_of_f64]. destruct (Z.ltb_spec (Zpos p) (2 ^ 52)); [|lia]. lia. }
  destruct (m + 2 ^ 52) as [|p|p] eqn:E; try lia. cbn [bits_of_f64].
  destruct (Z.ltb_spec (Zpos p) (2 ^ 52)); lia.
Qed.

(** ** Dicts *)
Lemma str_eqb_spec a b : Bool.reflect (a = b) (str_eqb a b).
Proof. unfold str_eqb. destruct (list_eq_dec Z.eq_dec a b); now constructor. Qed.

Lemma dict_put_new A (k : str) (v : A) d : ~ In k (map fst d) -> dict_put k v d = d ++ [(k, v)].
Proof.
  induction d as [|[k' v'] d IH]; intros N; [reflexivity|]. cbn in *.
  destruct (str_eqb_spec k k'); [subst; tauto|]. rewrite IH; tauto.
Qed.
Lemma dict_put_old A (k : str) (v v' : A) d1 d2 : ~ In k (map fst d1) ->
  dict_put k v' (d1 ++ (k, v) :: d2) = d1 ++ (k, v') :: d2.
Proof.
  induction d1 as [|[k1 v1] d1 IH]; intros N; cbn in *.
  - destruct (str_eqb_spec k k); [reflexivity|congruence].
  - destruct (str_eqb_spec k k1); [subst; tauto|]. rewrite IH; tauto.
Qed.
Lemma dict_of_snoc A l (k : str) (v : A) : dict_of (l ++ [(k, v)]) = dict_put k v (dict_of l).
Proof. unfold dict_of. now rewrite fold_left_app. Qed.

Lemma dict_with_ok A (l d : list (str * A)) : dict_with l d -> d = dict_of l /\ NoDup (map fst d).
Proof.
  induction 1 as [|l d k v H [IH N] I|l d1 k v d2 v' H [IH N]].
  - split; [reflexivity|constructor].
  - rewrite dict_of_snoc, <- IH, dict_put_new by exact I. split; [reflexivity|].
    rewrite map_app. cbn. apply NoDup_Add with (a := k) (l := map fst d); [|now split].
    rewrite <- (app_nil_r (map fst d)) at 1. apply Add_app.
  - rewrite dict_of_snoc, <- IH. rewrite map_app in N |- *. cbn in N |- *.
    rewrite dict_put_old; [now split|]. apply NoDup_remove_2 in N. intros I. apply N, in_or_app. auto.
Qed.

Lemma dict_of_with A (l : list (str * A)) : dict_with l (dict_of l).
Proof.
  induction l as [|[k v] l IH] using rev_ind; [constructor|]. rewrite dict_of_snoc.
  destruct (in_dec (list_eq_dec Z.eq_dec) k (map fst (dict_of l))) as [I|I].
  - apply in_map_iff in I as ([k' v'] & E & I). cbn in E. subst k'.
    apply in_split in I as (d1 & d2 & E). rewrite E in *. rewrite dict_put_old.
    + now apply (dw_old l d1 k v').
    + apply dict_with_ok in IH as [_ N]. rewrite map_app in N. cbn in N.
      apply NoDup_remove_2 in N. intros J. apply N, in_or_app. auto.
  - rewrite dict_put_new by exact I. now constructor.
Qed.

Lemma dict_of_nodup A (l : list (str * A)) : NoDup (map fst l) -> dict_of l = l.
Proof.
  induction l as [|[k v] l IH] using rev_ind; intros N; [reflexivity|].
  rewrite dict_of_snoc. rewrite map_app in N. cbn in N.
  apply NoDup_remove in N. rewrite app_nil_r in N. destruct N as [N I].
  rewrite (IH N). now apply dict_put_new.
Qed.

Lemma first_name_ok items z o : first_name items z o -> enum_member items z = o.
Proof.
  unfold enum_member. destruct o as [k|]; cbn [first_name].
  - intros (l & r & -> & N). induction l as [|[k' z'] l IH]; cbn in *.
    + now rewrite Z.eqb_refl.
    + destruct (Z.eqb_spec z' z); [tauto|]. apply IH. tauto.
  - intros N. induction items as [|[k' z'] l IH]; cbn in *; [reflexivity|].
    destruct (Z.eqb_spec z' z); [tauto|]. apply IH. tauto.
Qed.
Lemma enum_member_first items z : first_name items z (enum_member items z).
Proof.
  unfold enum_member. induction items as [|[k' z'] l IH]; [cbn; tauto|]. cbn [find snd].
  destruct (Z.eqb_spec z' z) as [->|N].
  - cbn. exists [], l. auto.
  - destruct (find _ l) as [[k z2]|]; cbn in *.
    + destruct IH as (a & b & -> & I). exists ((k', z') :: a), b. split; [reflexivity|]. cbn. tauto.
    + tauto.
Qed.

Lemma attribute_ok n : n <> lit "async" -> n <> lit "await" ->
  escape_python3_identifier n = attribute n.
Proof.
  intros A B. unfold escape_python3_identifier, attribute.
  assert (str_in n keyword_list = str_in n reserved_keywords) as ->; [|reflexivity].
  unfold keyword_list, reserved_keywords. cbn [map]. unfold str_in. cbn [existsb].
  destruct (str_eqb_spec n (lit "async")); [contradiction|].
  destruct (str_eqb_spec n (lit "await")); [contradiction|]. reflexivity.
Qed.
