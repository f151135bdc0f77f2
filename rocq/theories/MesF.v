(** * mes_optimizer and eva_optimizer on doubles, as samplers for Driver.v. *)
From Coq Require Import ZArith Bool.
From Verif Require Import Prelude Flt Round8 FlatMap ParInfo ObjInfo Num MathTools Boundary Mes Optimizer Driver.

(** mes_optimizer.h:10-19 (without the seed, which fixes the engine's first state) *)
Record mes_options := {
  mo_lambda : Z; mo_mu : Z; mo_mean_sigma : f64; mo_var_sigma : f64; mo_mom_sigma : f64; mo_mom_offset : f64; mo_mom_offset_stdev : f64 }.
Definition default_mes_options : mes_options :=
  {| mo_lambda := 0; mo_mu := 0; mo_mean_sigma := flit 2 (-1); mo_var_sigma := flit 2 (-1); mo_mom_sigma := flit 2 (-1);
     mo_mom_offset := fofZ 1; mo_mom_offset_stdev := fofZ 1 |}.
(** eva_optimizer.h:10-19 *)
Record eva_options := {
  eo_lambda : Z; eo_mu : Z; eo_step_size : f64; eo_var_update : f64; eo_ev_update : f64; eo_ev_offset : f64; eo_ev_stdev : f64 }.
Definition default_eva_options : eva_options :=
  {| eo_lambda := 0; eo_mu := 0; eo_step_size := flit 2 (-1); eo_var_update := flit 2 (-1); eo_ev_update := flit 2 (-1);
     eo_ev_offset := fofZ 1; eo_ev_stdev := fofZ 1 |}.

(** The standard library: distribution, engine, sort, math functions; and xo's epsilon. *)
Record stdlib := {
  sl_rng : Type; sl_dist : Type; sl_new : sl_dist;
  sl_draw : f64 -> f64 -> sl_dist -> sl_rng -> f64 * sl_dist * sl_rng;
  sl_sort : sorter; sl_libm : libm; sl_eps : f64 }.

Section MesF.
Variable L : stdlib.
Variable info : obj_info.
Notation K := (numF (sl_libm L)).
Definition es_f64 : Type := es_state K (sl_rng L).
Definition bounds_of : list (f64 * f64) := map (fun p => (pi_min p, pi_max p)) (oi_free info).
Definition pars_of : list (f64 * f64) := map (fun p => (pi_mean p, pi_std p)) (oi_free info).

(** internal_step's two halves, with a given rule for one component *)
Definition es_sampler (lambda mu : Z) (offset offset_stdev : f64) (component : comp K -> f64 -> f64 -> comp K) : sampler es_f64 := {|
  s_sample := fun st =>
    match @es_sample K _ _ (sl_new L) (sl_draw L) rounded bounds_of (Z.to_nat lambda) offset offset_stdev st with
    | Ok st' => (st', Ok (es_pop st'))
    | Throw w => (st, Throw w)
    | Undef => (st, Undef)
    end;
  s_update := fun st fits =>
    match @es_update K _ (sl_eps L) bounds_of mu component st (sorted_indices (sl_sort L) (is_better info) fits) with
    | Ok st' => (st', Ok tt)
    | Throw w => (st, Throw w)
    | Undef => (st, Undef)
    end |}.
Definition es_start (lambda : Z) (g : sl_rng L) : es_f64 := @es_init K _ rounded (Z.to_nat lambda) pars_of g.

(** mes_optimizer.cpp:8-28; the constructor has no defined result for lambda when dim = 0 *)
Definition mes_sampler (lambda : Z) (opt : mes_options) : sampler es_f64 :=
  es_sampler lambda (es_mu (mo_mu opt) lambda) (mo_mom_offset opt) (mo_mom_offset_stdev opt)
    (@mes_component K (mo_mean_sigma opt) (mo_var_sigma opt) (mo_mom_sigma opt)).
Definition mes_lambda (opt : mes_options) : outcome Z := @es_lambda K to_int_F (mo_lambda opt) (oi_dim info).
(** eva_optimizer.cpp:8-28 *)
Definition eva_sampler (lambda : Z) (opt : eva_options) : sampler es_f64 :=
  es_sampler lambda (es_mu (eo_mu opt) lambda) (eo_ev_offset opt) (eo_ev_stdev opt)
    (@eva_component K (eo_step_size opt) (eo_var_update opt) (eo_ev_update opt)).
Definition eva_lambda (opt : eva_options) : outcome Z := @es_lambda K to_int_F (eo_lambda opt) (oi_dim info).

(** mes_optimizer.cpp:39-44, eva_optimizer.cpp:39-44 *)
Definition es_updated_info (st : es_f64) : outcome obj_info := set_mean_std info (es_mean st) (es_std st).
End MesF.
(** Both constructors end with add_stop_condition( flat_fitness_condition( 1e-9 ) ). *)
Definition flat_default : stop_cond := ScFlat (flit 1 (-9)).
