(** The register tables of moteus.py against those of the firmware. *)
From Coq Require Import ZArith List Bool Lia.
From Coq Require Import Floats.SpecFloat.
From Coq Require Import ZifyBool ZifyNat.
From Verif Require Import PyBase PyFloat Mux_Model Fw_Spec Ctrl_Model.
Import ListNotations.
Open Scope Z_scope.

(** Equality of floats as data. *)
Definition sf_eqb (x y : float) : bool :=
  match x, y with
  | S754_zero a, S754_zero b | S754_infinity a, S754_infinity b => Bool.eqb a b
  | S754_nan, S754_nan => true
  | S754_finite a m e, S754_finite b n f => Bool.eqb a b && Pos.eqb m n && (e =? f)
  | _, _ => false
  end.

Lemma sf_eqb_eq : forall x y, sf_eqb x y = true -> x = y.
Proof.
  intros [a|a| |a m e] [b|b| |b n f] H; try discriminate; cbn in H; auto.
  - apply Bool.eqb_prop in H. congruence.
  - apply Bool.eqb_prop in H. congruence.
  - apply andb_true_iff in H. destruct H as [H H3]. apply andb_true_iff in H. destruct H as [H1 H2].
    apply Bool.eqb_prop in H1. apply Pos.eqb_eq in H2. apply Z.eqb_eq in H3. congruence.
Qed.

Definition kind_check (reg : Z) : bool :=
  match lookup fw_reply_table reg, reg_kind reg with
  | None, KRaw | Some MInt, KInt => true
  | Some (MUnit u), KMapped s =>
      sf_eqb (s8 s) (unit_float u INT8) && sf_eqb (s16 s) (unit_float u INT16)
      && sf_eqb (s32 s) (unit_float u INT32)
  | _, _ => false
  end.

Lemma all_regs_check : forall n, (n < 128)%nat -> kind_check (Z.of_nat n) = true.
Proof.
  assert (A : forallb (fun n => kind_check (Z.of_nat n)) (seq 0 128) = true)
    by (vm_compute; reflexivity).
  intros n H. rewrite forallb_forall in A. apply A. apply in_seq. lia.
Qed.

(** The register table of parse_register against the documented one. *)
Lemma reg_kind_cases : forall reg,
  match lookup fw_reply_table reg with
  | None => reg_kind reg = KRaw
  | Some MInt => reg_kind reg = KInt
  | Some (MUnit u) => exists s, reg_kind reg = KMapped s /\
      s8 s = unit_float u INT8 /\ s16 s = unit_float u INT16 /\ s32 s = unit_float u INT32
  | Some (MUnitPi u) => False
  end.
Proof.
  intro reg. destruct (Z_lt_le_dec reg 0) as [L|L].
  - assert (lookup fw_reply_table reg = None) as ->.
    { unfold fw_reply_table. cbn -[Z.eqb].
      repeat (rewrite (proj2 (Z.eqb_neq _ reg)) by lia). reflexivity. }
    unfold reg_kind, R_MODE, R_POSITION, R_VELOCITY, R_TORQUE, R_Q_CURRENT, R_D_CURRENT,
      R_ABS_POSITION, R_POWER, R_TRAJECTORY_COMPLETE, R_HOME_STATE, R_VOLTAGE,
      R_MOTOR_TEMPERATURE, R_TEMPERATURE, R_FAULT, R_AUX1_PWM1, R_AUX2_PWM5.
    repeat (rewrite (proj2 (Z.eqb_neq reg _)) by lia). cbn [orb].
    rewrite (proj2 (Z.leb_gt _ reg)) by lia. reflexivity.
  - destruct (Z_lt_le_dec reg 128) as [U|U].
    + pose proof (all_regs_check (Z.to_nat reg) ltac:(lia)) as A.
      rewrite Z2Nat.id in A by lia. unfold kind_check in A.
      destruct (lookup fw_reply_table reg) as [[|u|u]|]; destruct (reg_kind reg) as [|s|];
        try discriminate; auto.
      exists s. split; [reflexivity|].
      apply andb_true_iff in A. destruct A as [A A3]. apply andb_true_iff in A. destruct A as [A1 A2].
      repeat split; apply sf_eqb_eq; assumption.
    + assert (lookup fw_reply_table reg = None) as ->.
      { unfold fw_reply_table. cbn -[Z.eqb].
        repeat (rewrite (proj2 (Z.eqb_neq _ reg)) by lia). reflexivity. }
      unfold reg_kind, R_MODE, R_POSITION, R_VELOCITY, R_TORQUE, R_Q_CURRENT, R_D_CURRENT,
        R_ABS_POSITION, R_POWER, R_TRAJECTORY_COMPLETE, R_HOME_STATE, R_VOLTAGE,
        R_MOTOR_TEMPERATURE, R_TEMPERATURE, R_FAULT, R_AUX1_PWM1, R_AUX2_PWM5.
      repeat (rewrite (proj2 (Z.eqb_neq reg _)) by lia). cbn [orb].
      rewrite (proj2 (Z.leb_gt reg _)) by lia. rewrite andb_false_r. reflexivity.
Qed.
