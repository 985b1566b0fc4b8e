(** Python's [float] (IEEE binary64, round to nearest even) as the
    standard library's [spec_float], with one NaN.  Everything here
    computes; no axiom is involved. *)
From Coq Require Import ZArith List Bool.
From Coq Require Import Floats.SpecFloat.
From Verif Require Import PyBase.
Import ListNotations.
Open Scope Z_scope.

Definition float := spec_float.

Definition prec64 := 53.
Definition emax64 := 1024.
Definition prec32 := 24.
Definition emax32 := 128.

(** The well formed binary64 / binary32 numbers. *)
Definition float_ok (x : float) : Prop := valid_binary prec64 emax64 x = true.
Definition float32_ok (x : float) : Prop := valid_binary prec32 emax32 x = true.

Definition fdiv := SFdiv prec64 emax64.
Definition fmul := SFmul prec64 emax64.
Definition fadd := SFadd prec64 emax64.
Definition fsub := SFsub prec64 emax64.
Definition fneg : float -> float := SFopp.
Definition fltb : float -> float -> bool := SFltb.
Definition fleb : float -> float -> bool := SFleb.
Definition feqb : float -> float -> bool := SFeqb.
Definition fgtb (x y : float) : bool := SFltb y x.

(** float(z) for an integer z. (OverflowError for |z| >= 2^1024 is not
    modelled: the result is then an infinity.) *)
Definition float_of_Z (z : Z) : float := binary_normalize prec64 emax64 z 0 false.

(** math.isfinite / math.isnan *)
Definition isfinite (x : float) : bool :=
  match x with S754_zero _ | S754_finite _ _ _ => true | _ => false end.
Definition isnan (x : float) : bool :=
  match x with S754_nan => true | _ => false end.
Definition isinf (x : float) : bool :=
  match x with S754_infinity _ => true | _ => false end.

Definition fnan : float := S754_nan.
Definition finf : float := S754_infinity false.

(** A decimal literal m / 10^k of the source, for m < 2^53 and k <= 22:
    both operands are then exact, so the quotient is the correctly
    rounded literal, as Python's parser yields. *)
Definition flit (m : Z) (k : Z) : float := fdiv (float_of_Z m) (float_of_Z (10 ^ k)).

(** Truncation toward zero of a finite float: int(x) on a finite x. *)
Definition ftrunc (x : float) : Z :=
  match x with
  | S754_finite s m e =>
      let a := if e <? 0 then Zpos m / 2 ^ (- e) else Zpos m * 2 ^ e in
      if s then - a else a
  | _ => 0
  end.

(** int(x): ValueError on NaN, OverflowError on an infinity. *)
Definition py_int (x : float) : res Z :=
  match x with
  | S754_nan => Raise ValueError
  | S754_infinity _ => Raise OverflowError
  | _ => Ok (ftrunc x)
  end.

(** The C conversion (float)x used by struct's 'f' format. *)
Definition to_f32 (x : float) : float :=
  match x with
  | S754_finite s m e => binary_normalize prec32 emax32 (cond_Zopp s (Zpos m)) e s
  | _ => x
  end.

(** The C conversion (double)y of a binary32 number. *)
Definition of_f32 (y : float) : float :=
  match y with
  | S754_finite s m e => binary_normalize prec64 emax64 (cond_Zopp s (Zpos m)) e s
  | _ => y
  end.

(** Bit patterns of binary32.  The one NaN is written 0x7fc00000. *)
Definition bits_of_f32 (y : float) : Z :=
  match y with
  | S754_zero s => if s then 2 ^ 31 else 0
  | S754_infinity s => (if s then 2 ^ 31 else 0) + 255 * 2 ^ 23
  | S754_nan => 255 * 2 ^ 23 + 2 ^ 22
  | S754_finite s m e =>
      (if s then 2 ^ 31 else 0) +
      (if Zpos m <? 2 ^ 23 then Zpos m
       else (e + 150) * 2 ^ 23 + (Zpos m - 2 ^ 23))
  end.

Definition f32_of_bits (b : Z) : float :=
  let s := (2 ^ 31 <=? b mod 2 ^ 32) in
  let ex := (b / 2 ^ 23) mod 256 in
  let m := b mod 2 ^ 23 in
  if ex =? 255 then (if m =? 0 then S754_infinity s else S754_nan)
  else if ex =? 0 then
    match m with Zpos p => S754_finite s p (-149) | _ => S754_zero s end
  else
    match m + 2 ^ 23 with Zpos p => S754_finite s p (ex - 150) | _ => S754_nan end.

(** struct.pack('<f', x): CPython raises OverflowError when the conversion
    of a finite x overflows. *)
Definition pack_f32 (x : float) : res (list Z) :=
  let y := to_f32 x in
  if isinf y && negb (isinf x) then Raise OverflowError
  else Ok (le_bytes 4 (bits_of_f32 y)).

(** struct.unpack('<f', b)[0] on exactly four bytes. *)
Definition unpack_f32 (b : list Z) : float := of_f32 (f32_of_bits (le_value b)).
