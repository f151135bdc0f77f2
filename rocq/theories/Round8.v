(** * [search_point::rounded]: the value after printing with 8 significant digits.

    search_point.cpp:102-108:
<<
    std::stringstream str;
    str << std::setprecision( 8 ) << v;
    str >> v;
    return v;
>>
    Default float formatting with precision 8 is printf's [%.8g]: the decimal with
    8 significant digits nearest to the exact binary value, ties to even.
    Extraction converts the decimal to the nearest double.  "inf" and "nan" are
    not accepted by [std::num_get]; a failed extraction stores 0 (C++11,
    [facet.num.get.virtuals]).

    Here the number is computed with exact integer arithmetic; [ShowNum.v]
    models the printed characters and proves that reading them gives this. *)
From Coq Require Import ZArith Bool.
From Coq.Floats Require Import SpecFloat.
From Flocq Require Import Core BinarySingleNaN.
From Flocq Require Import Calc.Bracket Calc.Div Calc.Round.
From Verif Require Import Prelude Flt.
#[local] Open Scope Z_scope.

Definition radix10 : radix := Build_radix 10 eq_refl.

(** m * b^e as a fraction of integers. *)
Definition scale_frac (b m e : Z) : Z * Z :=
  if 0 <=? e then (m * b ^ e, 1) else (m, b ^ (- e)).

(** The 8-significant-digit decimal [n * 10^k] nearest to [m * 2^e > 0], ties to even. *)
Definition dec8_pos (m : positive) (e : Z) : Z * Z :=
  let '(num, den) := scale_frac 2 (Z.pos m) e in
  let '(m1, e1, l1) :=
    truncate radix10 (FLX_exp 8)
      (Fdiv (FLX_exp 8) (Float radix10 num 0) (Float radix10 den 0)) in
  (cond_incr (round_N (negb (Z.even m1)) l1) m1, e1).

(** The double nearest to [(-1)^s * n * 10^k], as [strtod] / [operator>>] compute it. *)
Definition dec_to_f64 (s : bool) (n k : Z) : f64 :=
  if n <=? 0 then B754_zero s
  else
    let '(num, den) := scale_frac 10 n k in
    let '(mx, ex, lx) :=
      Fdiv (SpecFloat.fexp prec64 emax64) (Float radix2 num 0) (Float radix2 den 0) in
    f_of_SF (binary_round_aux prec64 emax64 mode_NE s mx ex lx).

(** search_point.cpp:102-108 *)
Definition rounded (v : f64) : f64 :=
  match v with
  | B754_zero s => B754_zero s
  | B754_infinity _ | B754_nan => fzero
  | B754_finite s m e _ => let '(n, k) := dec8_pos m e in dec_to_f64 s n k
  end.

(** A decimal literal [n * 10^k] of the source text. *)
Definition flit (n k : Z) : f64 :=
  if n <? 0 then dec_to_f64 true (- n) k else dec_to_f64 false n k.
