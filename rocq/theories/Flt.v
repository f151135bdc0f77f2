(** * IEEE-754 doubles, as used for [par_t] and [fitness_t].

    spot_config.h:8 fixes [SPOT_DEFAULT_PRECISION_TYPE] to [double]; spot_types.h:35-41
    makes [fitness_t], [par_t] and [priority_t] aliases of it.  We use Flocq's
    binary64 with a single NaN (payloads are never inspected by the code) and
    round-to-nearest-even, the default C++ rounding mode. *)
From Coq Require Import ZArith Bool.
From Coq.Floats Require Import SpecFloat.
From Flocq Require Import Core BinarySingleNaN.
From Verif Require Import Prelude.
#[local] Open Scope Z_scope.

Definition prec64 : Z := 53.
Definition emax64 : Z := 1024.
#[global] Instance prec64_gt_0 : Prec_gt_0 prec64 := eq_refl.
#[global] Instance prec64_lt_emax : Prec_lt_emax prec64 emax64 := eq_refl.

Definition f64 : Type := binary_float prec64 emax64.

(** Arithmetic operators of [double]. *)
Definition fadd (a b : f64) : f64 := Bplus mode_NE a b.
Definition fsub (a b : f64) : f64 := Bminus mode_NE a b.
Definition fmul (a b : f64) : f64 := Bmult mode_NE a b.
Definition fdiv (a b : f64) : f64 := Bdiv mode_NE a b.
Definition fsqrt (a : f64) : f64 := Bsqrt mode_NE a.
Definition fopp (a : f64) : f64 := Bopp a.
Definition fabs (a : f64) : f64 := Babs a.

(** Comparison operators [<], [<=], [==], [>], [>=], [!=] of [double]:
    false (true for [!=]) when an operand is NaN. *)
Definition flt (a b : f64) : bool := Bltb a b.
Definition fle (a b : f64) : bool := Bleb a b.
Definition feq (a b : f64) : bool := Beqb a b.
Definition fgt (a b : f64) : bool := flt b a.
Definition fge (a b : f64) : bool := fle b a.
Definition fne (a b : f64) : bool := negb (feq a b).

Definition fnan : f64 := B754_nan.
Definition finf (s : bool) : f64 := B754_infinity s.
Definition fzero : f64 := B754_zero false.
Definition fisnan (a : f64) : bool := is_nan a.

(** [std::numeric_limits<double>::max()] and [lowest()] (xo::constants<T>::max/lowest). *)
Definition fmaxval : f64 := Bmax_float.
Definition flowest : f64 := Bopp Bmax_float.

(** A double from an integer (used for literals and [size_t]/[int] conversions). *)
Definition fofZ (z : Z) : f64 := binary_normalize prec64 emax64 _ _ mode_NE z 0 false.

(** A double from the raw result of a correctly rounded operation. *)
Definition f_of_SF (z : spec_float) : f64 :=
  match z with
  | S754_zero s => B754_zero s
  | S754_infinity s => B754_infinity s
  | S754_nan => B754_nan
  | S754_finite s m e =>
    match Bool.bool_dec (bounded prec64 emax64 m e) true with
    | left H => B754_finite s m e H
    | right _ => B754_nan
    end
  end.

(** Order key: an integer-valued image of the non-NaN doubles
    (the value scaled by 2^1074; infinities beyond everything). *)
Definition fkey (x : f64) : Z :=
  match x with
  | B754_zero _ => 0
  | B754_infinity s => if s then - 2 ^ 2200 else 2 ^ 2200
  | B754_nan => 0
  | B754_finite s m e _ => (if s then Z.neg m else Z.pos m) * 2 ^ (e + 1074)
  end.

(** [xo::max( a, b )] — assumed [ a < b ? b : a ] like [std::max]. *)
Definition fmax2 (a b : f64) : f64 := if flt a b then b else a.
(** [xo::clamped( v, lo, hi )] — assumed: [v > hi ? hi : ( v < lo ? lo : v )]. *)
Definition fclamped (v lo hi : f64) : f64 := if fgt v hi then hi else if flt v lo then lo else v.
(** [xo::is_between( v, lo, hi )] — assumed: [v >= lo && v <= hi]. *)
Definition fis_between (v lo hi : f64) : bool := fge v lo && fle v hi.
