(** * The optimizer base class (optimizer.h, optimizer.cpp) and its stop conditions
    (stop_condition.h, stop_condition.cpp).

    A concrete optimizer's internal_step (cma_optimizer.cpp:1311-1323,
    mes_optimizer.cpp:139-151, eva_optimizer.cpp:133-145) samples a population, calls
    evaluate_step and, when that returns true, updates its own distribution.  The base
    class is modelled as a machine driven by arbitrary populations and arbitrary
    evaluation results, so it covers every such subclass and every evaluator. *)
From Coq Require Import ZArith Bool.
From Verif Require Import Prelude Flt Flt32 Round8 FlatMap ParInfo ObjInfo Num MathTools.

(** A search_point of the optimizer's own objective_info is its value vector. *)
Definition point : Type := list f64.

(** xo::result< fitness_t > *)
Inductive result : Type := ROk (f : f64) | RErr (message : string).
Definition is_err (r : result) : bool := match r with ROk _ => false | RErr _ => true end.

(** The data members of optimizer.h:91-103, 110 (without conditions and reporters). *)
Record core := {
  c_steps : nat;                  (* step_count_ *)
  c_best_fit : f64; c_best_pt : point;
  c_cur_fit : f64; c_cur_fits : list f64; c_cur_pt : point;
  c_samples : nat;                (* fitness_history_samples_ *)
  c_hist : list f32; c_cap : nat; (* fitness_history_: contents, capacity *)
  c_trend : linfun; c_trend_step : option nat; (* cache; None is no_index *)
  c_interrupted : bool }.         (* stop_source_ *)

Definition with_trend (c : core) t : core :=
  {| c_steps := c_steps c; c_best_fit := c_best_fit c; c_best_pt := c_best_pt c; c_cur_fit := c_cur_fit c;
     c_cur_fits := c_cur_fits c; c_cur_pt := c_cur_pt c; c_samples := c_samples c; c_hist := c_hist c; c_cap := c_cap c;
     c_trend := t; c_trend_step := Some (c_samples c); c_interrupted := c_interrupted c |}.
Definition with_cap (c : core) n : core :=
  {| c_steps := c_steps c; c_best_fit := c_best_fit c; c_best_pt := c_best_pt c; c_cur_fit := c_cur_fit c;
     c_cur_fits := c_cur_fits c; c_cur_pt := c_cur_pt c; c_samples := c_samples c; c_hist := c_hist c; c_cap := n;
     c_trend := c_trend c; c_trend_step := c_trend_step c; c_interrupted := c_interrupted c |}.
Definition with_hist (c : core) h : core :=
  {| c_steps := c_steps c; c_best_fit := c_best_fit c; c_best_pt := c_best_pt c; c_cur_fit := c_cur_fit c;
     c_cur_fits := c_cur_fits c; c_cur_pt := c_cur_pt c; c_samples := S (c_samples c); c_hist := h; c_cap := c_cap c;
     c_trend := c_trend c; c_trend_step := c_trend_step c; c_interrupted := c_interrupted c |}.
Definition with_current (c : core) fits f p : core :=
  {| c_steps := c_steps c; c_best_fit := c_best_fit c; c_best_pt := c_best_pt c; c_cur_fit := f;
     c_cur_fits := fits; c_cur_pt := p; c_samples := c_samples c; c_hist := c_hist c; c_cap := c_cap c;
     c_trend := c_trend c; c_trend_step := c_trend_step c; c_interrupted := c_interrupted c |}.
Definition with_best (c : core) f p : core :=
  {| c_steps := c_steps c; c_best_fit := f; c_best_pt := p; c_cur_fit := c_cur_fit c;
     c_cur_fits := c_cur_fits c; c_cur_pt := c_cur_pt c; c_samples := c_samples c; c_hist := c_hist c; c_cap := c_cap c;
     c_trend := c_trend c; c_trend_step := c_trend_step c; c_interrupted := c_interrupted c |}.
Definition with_steps (c : core) n : core :=
  {| c_steps := n; c_best_fit := c_best_fit c; c_best_pt := c_best_pt c; c_cur_fit := c_cur_fit c;
     c_cur_fits := c_cur_fits c; c_cur_pt := c_cur_pt c; c_samples := c_samples c; c_hist := c_hist c; c_cap := c_cap c;
     c_trend := c_trend c; c_trend_step := c_trend_step c; c_interrupted := c_interrupted c |}.
Definition with_interrupt (c : core) b : core :=
  {| c_steps := c_steps c; c_best_fit := c_best_fit c; c_best_pt := c_best_pt c; c_cur_fit := c_cur_fit c;
     c_cur_fits := c_cur_fits c; c_cur_pt := c_cur_pt c; c_samples := c_samples c; c_hist := c_hist c; c_cap := c_cap c;
     c_trend := c_trend c; c_trend_step := c_trend_step c; c_interrupted := b |}.

(** Everything but the regression cache (which the public interface does not expose). *)
Definition strip (c : core) : core :=
  {| c_steps := c_steps c; c_best_fit := c_best_fit c; c_best_pt := c_best_pt c; c_cur_fit := c_cur_fit c;
     c_cur_fits := c_cur_fits c; c_cur_pt := c_cur_pt c; c_samples := c_samples c; c_hist := c_hist c; c_cap := c_cap c;
     c_trend := lin_zero; c_trend_step := None; c_interrupted := c_interrupted c |}.

(** The message set by verify_results (optimizer.cpp:217-218): number of errors, of
    evaluations, of allowed errors, and the distinct messages in flat_set order. *)
Record err_info := { ei_errors : nat; ei_total : nat; ei_allowed : Z; ei_messages : list string }.

(** stop_condition.h:19-93; [ScCustom] is any other (user-defined, possibly stateful)
    condition: its answer may depend on all optimizer states it has been tested on. *)
Inductive stop_cond : Type :=
| ScAbort
| ScError (e : option err_info)                 (* error_; None: good() *)
| ScFlat (epsilon : f64)
| ScTarget (target : f64)
| ScMaxSteps (n : nat)
| ScMinProgress (p : f64) (min_samples : nat)
| ScPredicted (prediction fitness : f64) (look_ahead min_samples : nat)
| ScSimilarity (points : list point) (similarities : list f64) (similar_idx : option nat) (min_steps : Z) (min_distance : f64)
| ScCustom (seen : list core) (f : list core -> core -> bool).

(** stop_condition.h:16,63,74 *)
Definition min_window (sc : stop_cond) : nat :=
  match sc with ScMinProgress _ n => n | ScPredicted _ _ _ n => n | _ => 0 end.

(** reporter.h:12-19 *)
Inductive event : Type :=
| EStart | EPreStep
| EPreEval (pop : list point)
| ENewBest (p : point) (f : f64)
| EPostEval (pop : list point) (fits : list f64) (new_best : bool)
| EPostStep
| EStop (condition : nat).
(** One reporter call: which reporter, which event, and the state the reporter can see. *)
Record delivery := { d_rep : nat; d_event : event; d_view : core }.
(** A reporter: does it throw a std::exception on its call (given everything delivered
    before, to anyone, and the event)?  Anything thrown that is not a std::exception is not modelled. *)
Definition reporter : Type := list delivery -> event -> bool.

(** What does not change during the life of an optimizer. *)
Record env := {
  e_info : obj_info;
  e_cma : bool;                    (* dynamic type is cma_optimizer *)
  e_regression : list Z -> list f32 -> linfun;   (* xo::repeated_median_regression *)
  e_unsigned_errors : bool;        (* xo::count_if returns an unsigned type *)
  e_max_errors : Z;                (* max_errors_; 0 unless a subclass changes it *)
  e_reporters : list reporter;
  e_libm : libm }.

(** ** Reporters *)
(** optimizer.h:123-133: the loop is inside the try block, so the first exception ends it *)
Fixpoint deliver (i : nat) (rs : list reporter) (ev : event) (c : core) (tr : list delivery) : list delivery :=
  match rs with
  | [] => tr
  | r :: t => let tr' := tr ++ [{| d_rep := i; d_event := ev; d_view := c |}] in
              if r tr ev then tr' else deliver (S i) t ev c tr'
  end.
Definition signal (E : env) (ev : event) (c : core) (tr : list delivery) : list delivery := deliver 0 (e_reporters E) ev c tr.

(** ** Fitness tracking *)
(** optimizer.cpp:111-127.  The x values are the sample numbers (an int in C++). *)
Definition compute_trend (E : env) (c : core) : linfun :=
  let size := length (c_hist c) in
  if Nat.leb 2 size then e_regression E (map Z.of_nat (seq (c_samples c - size) size)) (c_hist c) else lin_zero.
Definition fitness_trend (E : env) (c : core) : core * linfun :=
  if match c_trend_step c with Some s => Nat.eqb s (c_samples c) | None => false end then (c, c_trend c)
  else let t := compute_trend E c in (with_trend c t, t).
(** optimizer.cpp:129-139 *)
Definition progress (E : env) (c : core) : core * outcome f32 :=
  if Nat.eqb (c_cap c) 0 then (c, Throw "fitness tracking must be enabled for this method")
  else if Nat.leb 2 (length (c_hist c)) then
    let '(c', reg) := fitness_trend E c in
    let x := f32sub (f32ofZ (Z.of_nat (c_samples c))) (f32mul f32half (f32ofZ (Z.of_nat (length (c_hist c))))) in
    let imp := f32div (lf_slope reg) (f32abs (lin_eval reg x)) in
    (c', Ok (if oi_minimize (e_info E) then f32opp imp else imp))
  else (c, Ok f32zero).
(** optimizer.cpp:141-148 *)
Definition predicted_fitness (E : env) (c : core) (steps_ahead : nat) : core * outcome f32 :=
  if Nat.eqb (c_cap c) 0 then (c, Throw "fitness tracking must be enabled for this method")
  else if Nat.leb 2 (length (c_hist c)) then
    let '(c', reg) := fitness_trend E c in
    (c', Ok (lin_eval reg (f32ofZ (Z.of_nat (c_steps c + steps_ahead)))))
  else (c, Ok f32zero).
(** optimizer.cpp:224-233; circular_deque: pop_front drops the oldest *)
Definition update_fitness_tracking (c : core) : core :=
  if Nat.ltb 0 (c_cap c) then
    let h := if Nat.leb (c_cap c) (length (c_hist c)) then tl (c_hist c) else c_hist c in
    with_hist c (h ++ [f32_of_f64 (c_cur_fit c)])
  else c.

(** ** Stop conditions *)
(** stop_condition.cpp:61-76: the loop over the similarity points *)
Fixpoint similarity_loop (E : env) (c : core) (i : nat) (pts : list point) (sims : list f64) (min_distance : f64)
  : list f64 * outcome (option nat) :=
  match pts with
  | [] => (sims, Ok None)
  | p :: t =>
    match normalized_distance (K := numF (e_libm E)) (c_cur_pt c) p (map pi_std (oi_free (e_info E))) with
    | Ok d => let sims' := list_set sims i d in
              if flt d min_distance then (sims', Ok (Some i)) else similarity_loop E c (S i) t sims' min_distance
    | Throw w => (sims, Throw w)
    | Undef => (sims, Undef)
    end
  end.
(** vector::resize *)
Definition resize {A} (x : A) (n : nat) (l : list A) : list A := firstn n l ++ repeat x (n - length l).

(** the virtual test() of each condition (stop_condition.cpp:9-79): new optimizer
    state (cache), new condition state, answer *)
Definition sc_test (E : env) (c : core) (sc : stop_cond) : core * stop_cond * outcome bool :=
  match sc with
  | ScAbort => (c, sc, Ok (c_interrupted c))
  | ScError e => (c, sc, Ok (match e with Some _ => true | None => false end))
  | ScFlat eps =>
    (c, sc,
     if Nat.ltb 0 (c_steps c) then
       match nth_error (c_cur_fits c) (min_element (fun x b => flt b x) (c_cur_fits c)),
             nth_error (c_cur_fits c) (min_element flt (c_cur_fits c)) with
       | Some highest, Some lowest => Ok (flt (fsub highest lowest) eps)
       | _, _ => Undef
       end
     else Ok false)
  | ScTarget t => (c, sc, Ok (is_better (e_info E) (c_best_fit c) t))
  | ScMaxSteps n => (c, sc, Ok (Nat.leb n (c_steps c)))
  | ScMinProgress p n =>
    if Nat.leb n (c_steps c) then
      let '(c', r) := progress E c in
      (c', sc, let* x := r in Ok (flt (f64_of_f32 x) p))
    else (c, sc, Ok false)
  | ScPredicted pred fit look n =>
    if Nat.leb n (c_steps c) then
      let '(c', r) := predicted_fitness E c look in
      match r with
      | Ok x => let y := f64_of_f32 x in (c', ScPredicted y fit look n, Ok (negb (is_better (e_info E) y fit)))
      | Throw w => (c', sc, Throw w)
      | Undef => (c', sc, Undef)
      end
    else (c, sc, Ok false)
  | ScSimilarity pts sims idx min_steps min_distance =>
    (* size_t >= int: a negative min_steps becomes a huge unsigned number *)
    if (0 <=? min_steps)%Z && (min_steps <=? Z.of_nat (c_steps c))%Z then
      let sims0 := resize fzero (length pts) sims in
      if negb (e_cma E) then (c, ScSimilarity pts sims0 idx min_steps min_distance, Throw "std::bad_cast")
      else
        match similarity_loop E c 0 pts sims0 min_distance with
        | (sims', Ok (Some i)) => (c, ScSimilarity pts sims' (Some i) min_steps min_distance, Ok true)
        | (sims', Ok None) => (c, ScSimilarity pts sims' idx min_steps min_distance, Ok false)
        | (sims', Throw w) => (c, ScSimilarity pts sims' idx min_steps min_distance, Throw w)
        | (sims', Undef) => (c, ScSimilarity pts sims' idx min_steps min_distance, Undef)
        end
    else (c, sc, Ok false)
  | ScCustom seen f => (c, ScCustom (seen ++ [strip c]) f, Ok (f seen (strip c)))
  end.

(** ** The optimizer *)
Record opt := {
  o_core : core;
  o_scs : list stop_cond;          (* stop_conditions_ *)
  o_stopped : option nat;          (* stop_condition_, as an index into stop_conditions_ *)
  o_trace : list delivery }.       (* every reporter call made so far *)

Fixpoint test_list (E : env) (c : core) (i : nat) (l : list stop_cond) : core * list stop_cond * outcome (option nat) :=
  match l with
  | [] => (c, [], Ok None)
  | sc :: t =>
    match sc_test E c sc with
    | (c', sc', Ok true) => (c', sc' :: t, Ok (Some i))
    | (c', sc', Ok false) => let '(c'', t', r) := test_list E c' (S i) t in (c'', sc' :: t', r)
    | (c', sc', Throw w) => (c', sc' :: t, Throw w)
    | (c', sc', Undef) => (c', sc' :: t, Undef)
    end
  end.
(** optimizer.cpp:82-97 *)
Definition test_stop (E : env) (o : opt) : opt * outcome (option nat) :=
  match o_stopped o with
  | Some i => (o, Ok (Some i))
  | None =>
    let '(c, scs, r) := test_list E (o_core o) 0 (o_scs o) in
    match r with
    | Ok (Some i) => ({| o_core := c; o_scs := scs; o_stopped := Some i; o_trace := signal E (EStop i) c (o_trace o) |}, Ok (Some i))
    | _ => ({| o_core := c; o_scs := scs; o_stopped := None; o_trace := o_trace o |}, r)
    end
  end.

(** optimizer.cpp:99-104; reserve is assumed to set the capacity and keep the contents *)
Definition add_stop_condition (o : opt) (sc : stop_cond) : opt :=
  {| o_core := if Nat.ltb (c_cap (o_core o)) (min_window sc) then with_cap (o_core o) (min_window sc) else o_core o;
     o_scs := o_scs o ++ [sc]; o_stopped := o_stopped o; o_trace := o_trace o |}.

(** optimizer.cpp:20-39 *)
Definition init_core (E : env) : core :=
  {| c_steps := 0; c_best_fit := worst_fitness (e_info E); c_best_pt := map rounded (map pi_mean (oi_free (e_info E)));
     c_cur_fit := worst_fitness (e_info E); c_cur_fits := []; c_cur_pt := map rounded (map pi_mean (oi_free (e_info E)));
     c_samples := 0; c_hist := []; c_cap := 0; c_trend := lin_zero; c_trend_step := None; c_interrupted := false |}.
Definition init (E : env) : opt :=
  add_stop_condition (add_stop_condition {| o_core := init_core E; o_scs := []; o_stopped := None; o_trace := [] |} ScAbort) (ScError None).

(** optimizer.cpp:206-208 *)
Definition count_errors (rs : list result) : nat := length (filter is_err rs).
Definition allowed_errors (E : env) (rs : list result) : Z :=
  if (0 <=? e_max_errors E)%Z then e_max_errors E else (Z.of_nat (length rs) + e_max_errors E)%Z.
(** [errors > max_errors]: if [errors] is unsigned, a negative right side becomes huge *)
Definition too_many_errors (E : env) (rs : list result) : bool :=
  if e_unsigned_errors E && (allowed_errors E rs <? 0)%Z then false
  else (allowed_errors E rs <? Z.of_nat (count_errors rs))%Z.
(** optimizer.cpp:211-215: flat_set insertion of the messages *)
Definition messages_of (rs : list result) : list string :=
  match keys (fold_left (fun m r => match r with RErr s => fm_set s tt m | ROk _ => m end) rs []) with
  | [] => ["Unknown error"%string]
  | l => l
  end.
Fixpoint set_error (l : list stop_cond) (e : err_info) : option (list stop_cond) :=
  match l with
  | [] => None
  | ScError _ :: t => Some (ScError (Some e) :: t)
  | sc :: t => option_map (cons sc) (set_error t e)
  end.

(** optimizer.cpp:163-222 *)
Definition evaluate_step (E : env) (o : opt) (pop : list point) (results : list result) : opt * outcome bool :=
  let tr1 := signal E (EPreEval pop) (o_core o) (o_trace o) in
  if too_many_errors E results then
    match set_error (o_scs o) {| ei_errors := count_errors results; ei_total := length results;
                                 ei_allowed := allowed_errors E results; ei_messages := messages_of results |} with
    | Some scs => ({| o_core := o_core o; o_scs := scs; o_stopped := o_stopped o; o_trace := tr1 |}, Ok false)
    | None => ({| o_core := o_core o; o_scs := o_scs o; o_stopped := o_stopped o; o_trace := tr1 |}, Throw "Could not find stop condition")
    end
  else
    let fits := map (fun r => match r with ROk f => f | RErr _ => worst_fitness (e_info E) end) results in
    let bi := find_best_fitness (e_info E) fits in
    let o1 := {| o_core := o_core o; o_scs := o_scs o; o_stopped := o_stopped o; o_trace := tr1 |} in
    match nth_error fits bi, nth_error pop bi with
    | Some f, Some p =>
      (* search_point.h:21 / search_point.cpp:91 assert equal dimensions *)
      if negb (Nat.eqb (length p) (oi_dim (e_info E))) then (o1, Undef)
      else
        let c1 := with_current (o_core o) fits f p in
        let new_best := is_better (e_info E) f (c_best_fit c1) in
        let c2 := if new_best then with_best c1 f (map rounded p) else c1 in
        let tr2 := if new_best then signal E (ENewBest (c_best_pt c2) (c_best_fit c2)) c2 tr1 else tr1 in
        let c3 := update_fitness_tracking c2 in
        let tr3 := signal E (EPostEval pop fits new_best) c3 tr2 in
        ({| o_core := c3; o_scs := o_scs o; o_stopped := o_stopped o; o_trace := tr3 |}, Ok true)
    | _, _ => (o1, Undef)
    end.

(** What a step receives from the subclass, the evaluator and other threads:
    the population, the results, and whether interrupt() is called before the stop
    conditions are tested. *)
Record step_input := { si_pop : list point; si_results : list result; si_interrupt : bool }.

(** optimizer.cpp:44-65 *)
Definition step (E : env) (o : opt) (inp : step_input) : opt * outcome (option nat) :=
  if Nat.eqb (oi_dim (e_info E)) 0 then (o, Throw "Objective has no free parameters")
  else
    let tr1 := if Nat.eqb (c_steps (o_core o)) 0 then signal E EStart (o_core o) (o_trace o) else o_trace o in
    let tr2 := signal E EPreStep (o_core o) tr1 in
    let o2 := {| o_core := o_core o; o_scs := o_scs o; o_stopped := o_stopped o; o_trace := tr2 |} in
    match evaluate_step E o2 (si_pop inp) (si_results inp) with
    | (o3, Ok ok) =>
      let c3 := o_core o3 in
      let tr4 := if ok then signal E EPostStep c3 (o_trace o3) else o_trace o3 in
      let c4 := if ok then with_steps c3 (S (c_steps c3)) else c3 in
      let c5 := if si_interrupt inp then with_interrupt c4 true else c4 in
      test_stop E {| o_core := c5; o_scs := o_scs o3; o_stopped := o_stopped o3; o_trace := tr4 |}
    | (o3, Throw w) => (o3, Throw w)
    | (o3, Undef) => (o3, Undef)
    end.

(** optimizer.cpp:67-80: the loop, given the inputs of its steps; also the number of calls of step() *)
Fixpoint run_loop (E : env) (fuel : nat) (o : opt) (inputs : nat -> step_input) (k : nat) : opt * outcome (option nat) * nat :=
  match fuel with
  | O => (o, Ok None, k)
  | S n =>
    match step E o (inputs k) with
    | (o', Ok None) => run_loop E n o' inputs (S k)
    | (o', r) => (o', r, S k)
    end
  end.
(** size_t: number_of_steps 0 means the largest size_t *)
Definition run (E : env) (o : opt) (number_of_steps : N) (inputs : nat -> step_input) : opt * outcome (option nat) * nat :=
  if Nat.eqb (oi_dim (e_info E)) 0 then (o, Throw "Objective has no free parameters", 0)
  else run_loop E (N.to_nat (if N.eqb number_of_steps 0 then 18446744073709551615 else number_of_steps)) o inputs 0.

(** ** Calls a client can make *)
Inductive op : Type :=
| OpStep (i : step_input)
| OpInterrupt
| OpTest
| OpTrend
| OpProgress
| OpPredict (steps_ahead : nat)
| OpAdd (sc : stop_cond).   (* add_stop_condition, at any time *)
Definition with_core (o : opt) (c : core) : opt := {| o_core := c; o_scs := o_scs o; o_stopped := o_stopped o; o_trace := o_trace o |}.
Definition exec (E : env) (o : opt) (a : op) : opt :=
  match a with
  | OpStep i => fst (step E o i)
  | OpInterrupt => with_core o (with_interrupt (o_core o) true)
  | OpTest => fst (test_stop E o)
  | OpTrend => with_core o (fst (fitness_trend E (o_core o)))
  | OpProgress => with_core o (fst (progress E (o_core o)))
  | OpPredict n => with_core o (fst (predicted_fitness E (o_core o) n))
  | OpAdd sc => add_stop_condition o sc
  end.
(** An optimizer constructed with these extra conditions (in this order), after these calls. *)
Definition created (E : env) (extra : list stop_cond) : opt := fold_left add_stop_condition extra (init E).
Definition after (E : env) (extra : list stop_cond) (h : list op) : opt := fold_left (exec E) h (created E extra).
