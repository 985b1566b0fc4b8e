(** What a controller reports for its registers: the firmware's side of a
    query (fw/moteus_controller.cc), written from the C++ source and used
    only to state C64.  Binary32 arithmetic throughout. *)
From Coq Require Import ZArith List Bool Reals.
From Coq Require Import Floats.SpecFloat.
From Flocq Require Import Core BinarySingleNaN.
From Verif Require Import PyBase PyFloat Mux_Model Protocol_Spec Fw_Spec.
Import ListNotations.
Open Scope Z_scope.

(** static_cast<float>(z) *)
Definition f32_of_Z (z : Z) : float := SpecFloat.binary_normalize prec32 emax32 z 0 false.

(** The float literals of fw/moteus_controller.cc:86-128, such as 0.0001f
    and 1.0f / 127.0f: the binary32 quotient. *)
Definition unit_f32 (u : unit_) (r : resolution) : float :=
  SFdiv prec32 emax32 (f32_of_Z (fst (unit_ratio u r))) (f32_of_Z (snd (unit_ratio u r))).

(** ScaleSaturate, fw/moteus_controller.cc:58-71.  [spec_max] is
    numeric_limits<T>::max().  The conversion of 2^31,
    the binary32 value of INT32_MAX, to int32_t is not defined by C++; it
    is taken to saturate, as the conversion instruction of the target
    does. *)
Definition fw_counts (u : unit_) (r : resolution) (x : float) : Z :=
  if negb (isfinite x) then - spec_max r - 1
  else
    let scaled := SFdiv prec32 emax32 x (unit_f32 u r) in
    let top := f32_of_Z (spec_max r) in
    let limited :=
      if SFltb scaled (SFopp top) then SFopp top
      else if SFltb top scaled then top else scaled in
    Z.min (spec_max r) (ftrunc limited).

(** The state of a controller: the binary32 quantities, the integers, and
    the bytes of the registers that are neither. *)
Record device := {
  d_quantity : Z -> float;
  d_integer : Z -> Z;
  d_other : Z -> resolution -> list Z
}.

(** The bytes of a register at a resolution: ScaleMapping 73-84, IntMapping
    45-56 and Read 853-1125. *)
Definition fw_raw (D : device) (reg : Z) (r : resolution) : list Z :=
  match lookup fw_reply_table reg with
  | Some (MUnit u) | Some (MUnitPi u) =>
      match r with
      | F32 => le_bytes 4 (bits_of_f32 (d_quantity D reg))
      | _ => le_bytes (spec_width r) (fw_counts u r (d_quantity D reg))
      end
  | Some MInt =>
      match r with
      | F32 => le_bytes 4 (bits_of_f32 (f32_of_Z (d_integer D reg)))
      | _ => le_bytes (spec_width r) (d_integer D reg)
      end
  | None => d_other D reg r
  end.

(** [answers D asked reply]: the reply holds one value for each register
    asked for, and no other.  The order, the grouping into subframes and
    the padding are the device's choice. *)
Definition answers (raw : Z -> resolution -> list Z) (asked : list access) (reply : list Z) : Prop :=
  exists a, encodes_reply reply a /\
    forall k r b, In (k, r, b) a <-> In (ARead k r) asked /\ b = raw k r.

(** ** What the client should learn *)

(** The worth of one count, exactly. *)
Definition unit_real (u : unit_) (r : resolution) : R :=
  (IZR (fst (unit_ratio u r)) / IZR (snd (unit_ratio u r)))%R.

(** [tells D k r v]: v is what register k of the device holds, as precisely
    as resolution r allows. *)
Definition tells (D : device) (k : Z) (r : resolution) (v : pyval) : Prop :=
  match lookup fw_reply_table k with
  | None => v = spec_python r (d_other D k r)
  | Some MInt => v = PInt (d_integer D k)
  | Some (MUnit u) | Some (MUnitPi u) =>
      let x := d_quantity D k in
      let X := SF2R radix2 x in
      let top := (IZR (spec_max r) * unit_real u r)%R in
      exists d, v = PFloat d /\
      match r with
      | F32 => d = of_f32 x
      | _ =>
          (* NaN and the infinities *)
          (isfinite x = false -> d = fnan) /\
          (* in range: within a count, up to binary32 rounding *)
          (isfinite x = true -> (Rabs X <= top * (1 - bpow radix2 (-22)))%R ->
             isfinite d = true /\
             (Rabs (SF2R radix2 d - X)
              <= unit_real u r * (1 + bpow radix2 (-40)) + Rabs X * bpow radix2 (-22))%R) /\
          (* above: the end of the range *)
          (isfinite x = true -> (top * (1 + bpow radix2 (-22)) <= X)%R ->
             isfinite d = true /\ (Rabs (SF2R radix2 d - top) <= top * bpow radix2 (-51))%R) /\
          (* below: the other end, but NaN at INT32 *)
          (isfinite x = true -> (X <= - (top * (1 + bpow radix2 (-22))))%R ->
             match r with
             | INT32 => d = fnan
             | _ => isfinite d = true /\
                    (Rabs (SF2R radix2 d + top) <= top * bpow radix2 (-51))%R
             end)
      end
  end.

(** The integers asked for can be represented at the resolution asked for. *)
Definition fits (D : device) (asked : list access) : Prop :=
  forall k r, In (ARead k r) asked -> lookup fw_reply_table k = Some MInt ->
    match r with
    | F32 => Z.abs (d_integer D k) <= 2 ^ 24
    | _ => - 2 ^ (8 * Z.of_nat (spec_width r) - 1) <= d_integer D k
           < 2 ^ (8 * Z.of_nat (spec_width r) - 1)
    end.

(** The quantities are binary32 numbers. *)
Definition device_ok (D : device) : Prop := forall k, float32_ok (d_quantity D k).
