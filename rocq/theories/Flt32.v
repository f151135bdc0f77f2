(** * IEEE-754 single precision, as used for the fitness history
    (optimizer.h:101-102: [circular_deque< float >], [linear_function< float >]). *)
From Coq Require Import ZArith Bool.
From Flocq Require Import Core BinarySingleNaN.
From Verif Require Import Prelude Flt.
#[local] Open Scope Z_scope.

Definition prec32 : Z := 24.
Definition emax32 : Z := 128.
#[global] Instance prec32_gt_0 : Prec_gt_0 prec32 := eq_refl.
#[global] Instance prec32_lt_emax : Prec_lt_emax prec32 emax32 := eq_refl.
Definition f32 : Type := binary_float prec32 emax32.

Definition f32add (a b : f32) : f32 := Bplus mode_NE a b.
Definition f32sub (a b : f32) : f32 := Bminus mode_NE a b.
Definition f32mul (a b : f32) : f32 := Bmult mode_NE a b.
Definition f32div (a b : f32) : f32 := Bdiv mode_NE a b.
Definition f32opp (a : f32) : f32 := Bopp a.
Definition f32abs (a : f32) : f32 := Babs a.
Definition f32zero : f32 := B754_zero false.
(** conversion of an integer to float *)
Definition f32ofZ (z : Z) : f32 := binary_normalize prec32 emax32 _ _ mode_NE z 0 false.
Definition f32half : f32 := binary_normalize prec32 emax32 _ _ mode_NE 1 (-1) false.

(** static_cast< float >( double ): round to nearest even *)
Definition f32_of_f64 (v : f64) : f32 :=
  match v with
  | B754_zero s => B754_zero s
  | B754_infinity s => B754_infinity s
  | B754_nan => B754_nan
  | B754_finite s m e _ => binary_normalize prec32 emax32 _ _ mode_NE (if s then Z.neg m else Z.pos m) e s
  end.
(** implicit conversion float -> double (exact) *)
Definition f64_of_f32 (v : f32) : f64 :=
  match v with
  | B754_zero s => B754_zero s
  | B754_infinity s => B754_infinity s
  | B754_nan => B754_nan
  | B754_finite s m e _ => binary_normalize prec64 emax64 _ _ mode_NE (if s then Z.neg m else Z.pos m) e s
  end.

(** xo::linear_function< float >: intercept and slope; [f( x ) = intercept + slope * x]
    (assumed form of xo's operator()); the default constructed one is zero. *)
Record linfun := { lf_intercept : f32; lf_slope : f32 }.
Definition lin_zero : linfun := {| lf_intercept := f32zero; lf_slope := f32zero |}.
Definition lin_eval (f : linfun) (x : f32) : f32 := f32add (lf_intercept f) (f32mul (lf_slope f) x).
