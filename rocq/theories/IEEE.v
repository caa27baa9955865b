(** * IEEE: IEEE 754 double precision as an instance of [Arith]

    Python floats and C doubles are binary64 numbers, rounded to nearest even; an IF
    BTree stores binary32 numbers.  The formats and operations are those of the Flocq
    library.  The logarithm is a parameter: libm's is not specified by IEEE 754.
    Simplification: an integer beyond the largest binary64 number, for which Python
    raises OverflowError, is converted to the largest one. *)
From Coq Require Import Reals.
From Flocq Require Import Core.Core IEEE754.BinarySingleNaN.
From Verif Require Import Arith.

#[global] Instance prec64 : Prec_gt_0 53 := eq_refl.
#[global] Instance emax64 : Prec_lt_emax 53 1024 := eq_refl.
#[global] Instance prec32 : Prec_gt_0 24 := eq_refl.
#[global] Instance emax32 : Prec_lt_emax 24 128 := eq_refl.
Definition b64 : Type := binary_float 53 1024.
Definition b32 : Type := binary_float 24 128.

(** The number m * 2^e, rounded. *)
Definition b64_of (m e : Z) : b64 := binary_normalize 53 1024 prec64 emax64 mode_NE m e false.
Definition b32_of (m e : Z) : b32 := binary_normalize 24 128 prec32 emax32 mode_NE m e false.
(** The largest binary64 number *)
Definition b64_max : b64 := b64_of (2 ^ 53 - 1) 971.

Definition b64_opp (x : b64) : b64 := Bopp x.
Definition b64_ofZ (z : Z) : b64 :=
  match b64_of z 0 with
  | B754_infinity true => b64_opp b64_max
  | B754_infinity false => b64_max
  | x => x
  end.
(** Storing a double in a float variable and reading it back *)
Definition to_b32 (x : b64) : b32 :=
  match x with
  | B754_zero s => B754_zero s
  | B754_infinity s => B754_infinity s
  | B754_nan => B754_nan
  | B754_finite s m e _ => b32_of (cond_Zopp s (Zpos m)) e
  end.
Definition of_b32 (x : b32) : b64 :=
  match x with
  | B754_zero s => B754_zero s
  | B754_infinity s => B754_infinity s
  | B754_nan => B754_nan
  | B754_finite s m e _ => b64_of (cond_Zopp s (Zpos m)) e
  end.

(** [ln] is the logarithm function of the platform. *)
Definition Arith_b64 (ln : b64 -> b64) : Arith b64 := {|
  f0 := B754_zero false;
  f1 := b64_of 1 0;
  fadd := @Bplus 53 1024 prec64 emax64 mode_NE;
  fsub := @Bminus 53 1024 prec64 emax64 mode_NE;
  fmul := @Bmult 53 1024 prec64 emax64 mode_NE;
  fdiv := @Bdiv 53 1024 prec64 emax64 mode_NE;
  fsqrt := @Bsqrt 53 1024 prec64 emax64 mode_NE;
  fln := ln;
  fofZ := b64_ofZ;
  feqb := @Beqb 53 1024;
  fleb := @Bleb 53 1024;
  f32 := fun x => of_b32 (to_b32 x) |}.

(** What is assumed of the logarithm: not negative (and not NaN) for arguments from 1 on. *)
Definition sane_ln (ln : b64 -> b64) : Prop :=
  forall x, Bleb (b64_of 1 0) x = true -> Bleb (B754_zero false) (ln x) = true.

(** A correctly rounded logarithm, from 1 on. *)
Definition rounded_ln (ln : b64 -> b64) : Prop :=
  forall x, is_finite x = true -> (1 <= B2R x)%R ->
    is_finite (ln x) = true /\ B2R (ln x) = round radix2 (SpecFloat.fexp 53 1024) ZnearestE (Rpower.ln (B2R x)).

(** A logarithm that is right within a factor of two, from 1 on: much less than any
    library promises. *)
Definition rough_ln (ln : b64 -> b64) : Prop :=
  forall x, is_finite x = true -> (1 <= B2R x)%R ->
    is_finite (ln x) = true /\ (Rpower.ln (B2R x) / 2 <= B2R (ln x) <= 2 * Rpower.ln (B2R x))%R.

(** okapiindex.py:218-219: the doubles nearest to 1.2 and 0.75 *)
Definition K1_b64 : b64 := b64_of 5404319552844595 (-52).
Definition B_b64 : b64 := b64_of 3 (-2).
