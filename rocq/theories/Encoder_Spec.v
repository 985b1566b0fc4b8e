(** What is assumed of a spin of the motor during encoder calibration, and what
    a good calibration is.  Independent of the model, but for the record of a
    sample. *)
From Coq Require Import ZArith List Reals.
From Verif Require Import Encoder_Model.
Import ListNotations.
Open Scope Z_scope.

(** The true motion: the encoder angle and the phase commanded, both in
    1/65536 turn and not wrapped. *)
Definition motion := list (Z * Z).

(** The samples are 16 bit counters. *)
Definition recorded {T} (m : motion) (l : list (entry T)) : Prop :=
  Forall2 (fun t e => e_encoder e = fst t mod 65536 /\ e_phase e = snd t mod 65536) m l.

(** The motor follows the phase: n turns of phase for each turn of the encoder
    in the direction s, with an error of at most eps. *)
Definition follows (s n : Z) (c eps : R) (m : motion) : Prop :=
  Forall (fun t => (Rabs (IZR (snd t) - (IZR (s * n) * IZR (fst t) + c)) <= eps)%R) m.

(** From one sample to the next there is less than half a turn. *)
Fixpoint steps_small (l : list Z) : Prop :=
  match l with
  | a :: ((b :: _) as l') => -32768 < b - a < 32768 /\ steps_small l'
  | _ => True
  end.

(** In every stretch of length g of one turn there is a sample. *)
Definition covers (g : Z) (l : list Z) : Prop :=
  forall x, 0 <= x -> x + g <= 65535 -> exists e, In e l /\ x <= e <= x + g.

(** With the signs and the table of the result, the phase a controller computes
    from the encoder is the recorded one, within d (radians) and up to whole
    turns.  [o] is any value between two of the table, as interpolation gives. *)
Definition commutates (n : Z) (d : R) (r : cal_result R) (e : entry R) : Prop :=
  let ph := if r_phase_invert r then - e_phase e else e_phase e in
  let en := if r_invert r then 65535 - e_encoder e else e_encoder e in
  exists k : Z, forall o1 o o2, In o1 (r_offset r) -> In o2 (r_offset r) -> (o1 <= o <= o2)%R ->
    (Rabs (2 * PI / 65536 * IZR ph - (2 * PI / 65536 * (IZR n * IZR en) + o) - 2 * PI * IZR k) <= d)%R.

(** A good spin: [bogus] are the first four samples, which are dropped; [up] and
    [down] record the motions [mup] and [mdown]; the encoder goes around once
    while the phase goes up; eps and g are small against a turn of the phase. *)
Definition good_spin (s n : Z) (c eps : R) (g d : Z) (max_remainder : R)
  (bogus up down : list (entry R)) (mup mdown : motion) : Prop :=
  (s = 1 \/ s = -1) /\ 1 <= n <= 2500 /\ d <> 0 /\
  length bogus = 4%nat /\ recorded mup up /\ recorded mdown down /\
  follows s n c eps mup /\ follows s n c eps mdown /\
  steps_small (map fst mup) /\ steps_small (map snd mup) /\
  60536 <= s * (fst (last mup (0, 0)) - fst (hd (0, 0) mup)) <= 70536 /\
  covers g (map e_encoder up) /\ covers g (map e_encoder down) /\
  0 <= g /\ (0 <= eps)%R /\ (eps + IZR n * IZR g <= 3337)%R /\ (2 * eps / 60536 <= max_remainder)%R.
