(** Small arithmetic lemmas: bit operations as division and modulo. *)
From Coq Require Import ZArith List Bool Lia.
From Coq Require Import ZifyBool ZifyNat.
Ltac Zify.zify_post_hook ::= Z.div_mod_to_equations.
Import ListNotations.
Open Scope Z_scope.

Lemma land_127 : forall v, Z.land v 0x7f = v mod 128.
Proof. intro v. change 0x7f with (Z.ones 7). rewrite Z.land_ones by lia. reflexivity. Qed.

Lemma land_3 : forall v, Z.land v 0x03 = v mod 4.
Proof. intro v. change 0x03 with (Z.ones 2). rewrite Z.land_ones by lia. reflexivity. Qed.

Lemma shiftr_7 : forall v, Z.shiftr v 7 = v / 128.
Proof. intro v. rewrite Z.shiftr_div_pow2 by lia. reflexivity. Qed.

Lemma shiftr_2 : forall v, Z.shiftr v 2 = v / 4.
Proof. intro v. rewrite Z.shiftr_div_pow2 by lia. reflexivity. Qed.

Lemma lor_shiftl_add : forall a b n, 0 <= n -> 0 <= a < 2 ^ n ->
  Z.lor a (Z.shiftl b n) = a + b * 2 ^ n.
Proof.
  intros a b n Hn Ha.
  assert (L : Z.land a (Z.shiftl b n) = 0).
  { apply Z.bits_inj'. intros i Hi. rewrite Z.land_spec, Z.bits_0.
    destruct (Z.lt_ge_cases i n).
    - rewrite Z.shiftl_spec_low by lia. apply andb_false_r.
    - assert (Z.testbit a i = false) as ->; [|reflexivity].
      destruct (Z.eq_dec a 0) as [->|Ha0]; [apply Z.bits_0|].
      apply Z.bits_above_log2; [lia|].
      assert (Z.log2 a < n) by (apply Z.log2_lt_pow2; lia). lia. }
  rewrite <- Z.lxor_lor by exact L. rewrite <- Z.add_nocarry_lxor by exact L.
  rewrite Z.shiftl_mul_pow2 by lia. reflexivity.
Qed.

Lemma lor_128 : forall a, 0 <= a < 128 -> Z.lor a 0x80 = a + 128.
Proof.
  intros a Ha. pose proof (lor_shiftl_add a 1 7) as H.
  change (Z.shiftl 1 7) with 128 in H. change (2 ^ 7) with 128 in H. rewrite H; lia.
Qed.

Lemma land_128 : forall b, 0 <= b < 256 -> (Z.land b 0x80 =? 0) = (b <? 128).
Proof.
  intros b Hb.
  assert (E : Z.land b 0x80 = (b / 128) * 128).
  { replace (Z.land b 0x80) with (Z.land b (Z.shiftl 1 7)) by reflexivity.
    apply Z.bits_inj'. intros i Hi. rewrite Z.land_spec.
    replace ((b / 128) * 128) with (Z.shiftl (b / 128) 7)
      by (rewrite Z.shiftl_mul_pow2; lia).
    destruct (Z.lt_ge_cases i 7).
    - rewrite !Z.shiftl_spec_low by lia. apply andb_false_r.
    - rewrite !Z.shiftl_spec by lia.
      change 128 with (2 ^ 7). rewrite Z.div_pow2_bits by lia.
      replace (i - 7 + 7) with i by lia.
      destruct (Z.eq_dec i 7) as [->|].
      + replace (7 - 7) with 0 by lia. rewrite Z.bit0_odd. apply andb_true_r.
      + replace (Z.testbit 1 (i - 7)) with false.
        * rewrite andb_false_r. symmetry.
          destruct (Z.eq_dec b 0) as [->|]; [apply Z.bits_0|].
          apply Z.bits_above_log2; [lia|].
          assert (Z.log2 b < 8) by (apply Z.log2_lt_pow2; lia). lia.
        * symmetry. apply Z.bits_above_log2; simpl; lia. }
  rewrite E. lia.
Qed.
