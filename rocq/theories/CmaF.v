(** * cma_optimizer on doubles, as a sampler for Driver.v. *)
From Coq Require Import ZArith Bool.
From Verif Require Import Prelude Flt Round8 FlatMap ParInfo ObjInfo Num MathTools Boundary MesF Cma CmaRandom Optimizer Driver.

(** cma_optimizer.h:10-15 (the member weights is ignored by the code) *)
Record cma_options := { co_lambda : Z; co_seed : Z; co_modulo : f64 }.
Definition default_cma_options : cma_options := {| co_lambda := 0; co_seed := 123; co_modulo := fopp (fofZ 1) |}.
(** The C math library, the eigendecomposition and a bound on the rounds of the
    rejection loop in cmaes_random_Gauss. *)
Record cma_lib := {
  cl_libm : libm; cl_pow : f64 -> f64 -> f64; cl_ceil : f64 -> f64;
  cl_eigen : list (list f64) -> outcome (list f64 * list (list f64)); cl_tries : nat }.

Section CmaF.
Variable L : cma_lib.
Variable info : obj_info.
Variable transformer : option (list f64 -> outcome (list f64)). (* set_boundary_transformer *)
Notation K := (numF (cl_libm L)).
Definition cma_f64 : Type := cma_state K (rnd K).

(** cma_optimizer.cpp:1158-1195 for n > 0; [device] is a number of std::random_device,
    [clock] see CmaRandom.v, [label] is xo::to_str *)
Definition cma_create (label : nat -> string) (opt : cma_options) (device clock : Z) : outcome (cma_par K * cma_f64) :=
  let g := random_init clock (seed_of (co_seed opt) device) in
  let* P := @supplement_defaults K (cl_ceil L) to_int_F (oi_dim info) (co_lambda opt) (co_modulo opt) in
  let st := @cma_init K _ rounded P (pars_of info) g in
  let* _ := @cma_bounds_init K label (map pi_min (oi_free info)) (map pi_max (oi_free info)) in
  Ok (P, st).

(** cma_optimizer.cpp:1202-1251: results are negated when maximizing.  When a call
    throws half-way the state is taken to be unchanged (random numbers and rows
    may in fact have been replaced). *)
Definition cma_sampler (P : cma_par K) : sampler cma_f64 := {|
  s_sample := fun st =>
    match @cma_sample K _ (gauss (cl_tries L)) (cl_eigen L) rounded (bounds_of info) (try_apply_transform (K := K) transformer) P st with
    | Ok st' => (st', Ok (s_bounded st'))
    | Throw w => (st, Throw w)
    | Undef => (st, Undef)
    end;
  s_update := fun st fits =>
    match @cma_update K _ (cl_pow L) P st (if oi_minimize info then fits else map fopp fits) with
    | Ok st' => (st', Ok tt)
    | Throw w => (st, Throw w)
    | Undef => (st, Undef)
    end |}.
(** cma_optimizer.cpp:1279-1284 *)
Definition cma_updated_info (P : cma_par K) (st : cma_f64) : outcome obj_info :=
  let* mean := @current_mean K _ (try_apply_transform (K := K) transformer) st in
  set_mean_std info mean (@current_std K _ P st).
End CmaF.
