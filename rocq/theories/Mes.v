(** * mes_optimizer and eva_optimizer (mes_optimizer.h/.cpp, eva_optimizer.h/.cpp).

    The two classes have the same state and the same sampling code; they differ in the
    last lines of update_distribution.  Both are written once over an abstract number
    type.  Not modelled: log messages, the profiler. *)
From Coq Require Import ZArith Bool.
From Verif Require Import Prelude Num MathTools.
#[local] Open Scope num_scope.

(** v[ i ] *)
Definition get {A} (l : list A) (i : nat) : outcome A := match nth_error l i with Some x => Ok x | None => Undef end.
Fixpoint for_each {A B} (f : A -> outcome B) (l : list A) : outcome (list B) :=
  match l with [] => Ok [] | a :: t => let* b := f a in let* r := for_each f t in Ok (b :: r) end.

(** xo::sorted_indices( v, pred ): std::sort applied to the indices 0..n-1 with the
    predicate on the indexed values.  [sort] is that sort, as a function of the
    comparison of indices and their number (std::sort is deterministic and sees the
    values only through the comparison). *)
Definition sorter : Type := (nat -> nat -> bool) -> nat -> list nat.
Definition sorted_indices {A} (sort : sorter) (better : A -> A -> bool) (v : list A) : list nat :=
  sort (fun a b => match nth_error v a, nth_error v b with Some x, Some y => better x y | _, _ => false end) (length v).

Section ES.
Context {K : Num} {rng dist : Type}.
(** std::normal_distribution: a new object, and one draw (value, new distribution
    state, new engine state).  std::minstd_rand and the distribution are the standard
    library's: any functions. *)
Variable nd_new : dist.
Variable nd_draw : K -> K -> dist -> rng -> K * dist * rng.
(** rounding of search_point::set_values (search_point.cpp:89-94) *)
Variable round : K -> K.
Variable eps : K.      (* xo::num< par_t >::ample_epsilon *)
Variable bounds : list (K * K).  (* min and max of every parameter *)
Variable lambda : nat. (* lambda_ *)
Variable mu : Z.       (* mu_, an int *)

(** mes_optimizer.h:44-50 *)
Record es_state := { es_mean : list K; es_var : list K; es_mom : list K; es_rng : rng; es_pop : list (list K) }.

(** xo::clamped *)
Definition clamped (v lo hi : K) : K := if hi <? v then hi else if v <? lo then lo else v.
(** mes_optimizer.cpp:66-76: max_resample_count = 100 tries, then a clamped one;
    is_within_range is par_info.h:16 *)
Fixpoint try_sample (n : nat) (mean stdev lo hi : K) (d : dist) (g : rng) : K * rng :=
  match n with
  | O => let '(v, _, g') := nd_draw mean stdev d g in (clamped v lo hi, g')
  | S k => let '(v, d', g') := nd_draw mean stdev d g in
           if (lo <=? v) && (v <=? hi) then (v, g') else try_sample k mean stdev lo hi d' g'
  end.
Definition sample_parameter (mean stdev : K) (b : K * K) (g : rng) : K * rng :=
  try_sample 100 mean stdev (fst b) (snd b) nd_new g.

(** mes_optimizer.cpp:88-92: components i, i+1, ... *)
Fixpoint sample_components (st : es_state) (ofs : K) (i : nat) (bs : list (K * K)) (g : rng) : outcome (list K * rng) :=
  match bs with
  | [] => Ok ([], g)
  | b :: t =>
    let* m := get (es_mean st) i in
    let* v := get (es_var st) i in
    let* mo := get (es_mom st) i in
    let '(x, g1) := sample_parameter (m + ofs * mo) (nsqrt (v + sq mo)) b g in
    let* r := sample_components st ofs (S i) t g1 in
    let '(xs, g2) := r in Ok (x :: xs, g2)
  end.
(** mes_optimizer.cpp:85-94 *)
Fixpoint sample_individuals (st : es_state) (offset offset_stdev : K) (n : nat) (d : dist) (g : rng) : outcome (list (list K) * rng) :=
  match n with
  | O => Ok ([], g)
  | S k =>
    let '(ofs, d', g1) := nd_draw offset offset_stdev d g in
    let* r := sample_components st ofs 0 bounds g1 in
    let '(x, g2) := r in
    let* r' := sample_individuals st offset offset_stdev k d' g2 in
    let '(xs, g3) := r' in Ok (map round x :: xs, g3)
  end.
(** mes_optimizer.cpp:78-95, eva_optimizer.cpp:78-97 *)
Definition es_sample (offset offset_stdev : K) (st : es_state) : outcome es_state :=
  let* r := sample_individuals st offset offset_stdev lambda nd_new (es_rng st) in
  let '(pop, g) := r in
  Ok {| es_mean := es_mean st; es_var := es_var st; es_mom := es_mom st; es_rng := g; es_pop := pop |}.

(** mes_optimizer.cpp:112-120: average of component [i] of the mu best, and average
    squared distance to their projections; [for ( index_t ui = 0; ui < mu_; ++ui )]
    with a negative mu_ runs past the end of [order] *)
Definition selected (order : list nat) (pop proj : list (list K)) (i : nat) : outcome (list (K * K)) :=
  if (mu <? 0)%Z then Undef else
  for_each (fun ui => let* k := get order ui in
                      let* ind := get pop k in let* pr := get proj k in
                      let* x := get ind i in let* y := get pr i in Ok (x, y)) (seq 0 (Z.to_nat mu)).
Definition mean_of (l : list (K * K)) : K := fold_left (fun s xy => s + fst xy) l (nofZ 0) / nofZ mu.
Definition var_of (l : list (K * K)) : K := fold_left (fun s xy => s + sq (fst xy - snd xy)) l (nofZ 0) / nofZ mu.

(** What happens to mean, var and momentum of one parameter, given the new mean and variance. *)
Record comp := { k_mean : K; k_var : K; k_mom : K }.
(** math_tools.h:13-15: [update] is [upd].
    mes_optimizer.cpp:122-135 *)
Definition mes_component (mean_sigma var_sigma mom_sigma : K) (c : comp) (mean var : K) : comp :=
  if nofZ 0 <? mom_sigma then
    let mom := upd (k_mom c) (mean - k_mean c) mom_sigma in
    {| k_mom := mom; k_mean := k_mean c + mean_sigma * mom; k_var := upd (k_var c) var var_sigma |}
  else
    {| k_mom := k_mom c; k_mean := upd (k_mean c) mean mean_sigma; k_var := upd (k_var c) var var_sigma |}.
(** eva_optimizer.cpp:126-129; [es_mom] is ev_ *)
Definition eva_component (step_size var_update ev_update : K) (c : comp) (mean var : K) : comp :=
  let delta_mean := mean - k_mean c in
  {| k_mom := upd (k_mom c) delta_mean ev_update; k_mean := k_mean c + step_size * delta_mean; k_var := upd (k_var c) var var_update |}.

(** mes_optimizer.cpp:97-137, eva_optimizer.cpp:99-131, with [order] the sorted indices.
    Component [pi] of mean_, var_ and mom_ is only read and written in iteration [pi]
    (the projections are computed before), so the loop is written as one pass. *)
Definition es_update (component : comp -> K -> K -> comp) (st : es_state) (order : list nat) : outcome es_state :=
  let* proj := for_each (fun p => projected eps (es_mean st) (es_mom st) p) (es_pop st) in
  let* cs := for_each (fun i =>
      let* sel := selected order (es_pop st) proj i in
      let* m := get (es_mean st) i in
      let* v := get (es_var st) i in
      let* mo := get (es_mom st) i in
      Ok (component {| k_mean := m; k_var := v; k_mom := mo |} (mean_of sel) (var_of sel))) (seq 0 (length bounds)) in
  Ok {| es_mean := map k_mean cs; es_var := map k_var cs; es_mom := map k_mom cs; es_rng := es_rng st; es_pop := es_pop st |}.

(** mes_optimizer.cpp:8-28: initial state; [pars] are mean and std of every parameter,
    [start] the initial population (the means, search_point.cpp:16-23) *)
Definition es_init (pars : list (K * K)) (g : rng) : es_state :=
  {| es_mean := map fst pars; es_var := map (fun p => sq (snd p)) pars; es_mom := map (fun _ => nofZ 0) pars;
     es_rng := g; es_pop := repeat (map (fun p => round (fst p)) pars) lambda |}.
(** mes_optimizer.cpp:30-37 *)
Definition es_std (st : es_state) : list K := map (fun v => nsqrt v) (es_var st).
(** mes_optimizer.cpp:57-64 *)
Definition es_state_values (st : es_state) : outcome (list K) :=
  let* l := for_each (fun i => let* m := get (es_mean st) i in let* v := get (es_var st) i in let* mo := get (es_mom st) i in
                               Ok [m; nsqrt v; mo]) (seq 0 (length bounds)) in
  Ok (concat l).
End ES.
Arguments es_state : clear implicits.
Arguments comp : clear implicits.

(** mes_optimizer.cpp:10, eva_optimizer.cpp:10: [to_int] is the conversion to int *)
Definition es_lambda {K : Num} (to_int : K -> outcome Z) (option_lambda : Z) (dim : nat) : outcome Z :=
  if (1 <? option_lambda)%Z then Ok option_lambda
  else let* k := to_int (nofZ 3 * nlog (nofZ (Z.of_nat dim))) in Ok (4 + k)%Z.
(** mes_optimizer.cpp:11; int division *)
Definition es_mu (option_mu lambda : Z) : Z := if (option_mu =? 0)%Z then Z.quot lambda 2 else option_mu.
(** mes_optimizer.cpp:46-55, eva_optimizer.cpp:46-55; [suffix] is .mom or .ev *)
Definition es_state_labels (suffix : string) (names : list string) : list string :=
  concat (map (fun n => [n ++ ".mean"; n ++ ".std"; n ++ suffix]%string) names).
