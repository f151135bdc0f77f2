(** * Numbers: one text for formulas over doubles and over the reals.

    A formula of the C++ code is written once over an abstract number type.  The
    instance [numF] gives the floating-point program (IEEE double operators, and the
    C library's log/exp/sin/cos as parameters, because they are not specified to the
    last bit); the instance [numR] gives the mathematical formula it approximates. *)
From Coq Require Import ZArith Reals Bool.
From Flocq Require Import Core BinarySingleNaN.
From Verif Require Import Prelude Flt Round8.

Record Num : Type := {
  nT :> Type;
  nadd : nT -> nT -> nT; nsub : nT -> nT -> nT; nmul : nT -> nT -> nT; ndiv : nT -> nT -> nT;
  nopp : nT -> nT; nabs : nT -> nT; nsqrt : nT -> nT;
  nlt : nT -> nT -> bool; nle : nT -> nT -> bool; neq : nT -> nT -> bool;
  nofZ : Z -> nT;            (* integer conversions and literals *)
  ndec : Z -> Z -> nT;       (* decimal literal n * 10^k *)
  nlog : nT -> nT; nexp : nT -> nT; nsin : nT -> nT; ncos : nT -> nT }.
Arguments nadd {_}. Arguments nsub {_}. Arguments nmul {_}. Arguments ndiv {_}.
Arguments nopp {_}. Arguments nabs {_}. Arguments nsqrt {_}.
Arguments nlt {_}. Arguments nle {_}. Arguments neq {_}.
Arguments nofZ {_}. Arguments ndec {_}. Arguments nlog {_}. Arguments nexp {_}. Arguments nsin {_}. Arguments ncos {_}.

(** The C math library. *)
Record libm := { lm_log : f64 -> f64; lm_exp : f64 -> f64; lm_sin : f64 -> f64; lm_cos : f64 -> f64 }.
Definition numF (L : libm) : Num := {|
  nT := f64; nadd := fadd; nsub := fsub; nmul := fmul; ndiv := fdiv; nopp := fopp; nabs := fabs; nsqrt := fsqrt;
  nlt := flt; nle := fle; neq := feq; nofZ := fofZ; ndec := flit;
  nlog := lm_log L; nexp := lm_exp L; nsin := lm_sin L; ncos := lm_cos L |}.
Definition numR : Num := {|
  nT := R; nadd := Rplus; nsub := Rminus; nmul := Rmult; ndiv := Rdiv; nopp := Ropp; nabs := Rabs; nsqrt := R_sqrt.sqrt;
  nlt := Rlt_bool; nle := Rle_bool; neq := Req_bool; nofZ := IZR; ndec := fun n k => (IZR n * bpow radix10 k)%R;
  nlog := ln; nexp := exp; nsin := sin; ncos := cos |}.

Declare Scope num_scope.
Delimit Scope num_scope with num.
Infix "+" := nadd : num_scope.
Infix "-" := nsub : num_scope.
Infix "*" := nmul : num_scope.
Infix "/" := ndiv : num_scope.
Notation "- x" := (nopp x) : num_scope.
Infix "<?" := nlt : num_scope.
Infix "<=?" := nle : num_scope.
Infix "=?" := neq : num_scope.
