(** * Specification for C38: maximising f and minimising -f.  What it means for two
    optimizer states, stop conditions, reporters and runs to be mirror images. *)
From Coq Require Import ZArith Bool.
From Verif Require Import Prelude Flt Flt32 FltOpp ParInfo ObjInfo Num Optimizer Driver.

(** The mirrored problem: same parameters, other direction. *)
Definition opp_info (o : obj_info) : obj_info :=
  {| oi_free := oi_free o; oi_locked := oi_locked o; oi_minimize := negb (oi_minimize o); oi_target := fopp (oi_target o); oi_name := oi_name o |}.
(** The evaluator of -f answers with negated values and the same errors. *)
Definition opp_result (r : result) : result := match r with ROk f => ROk (fopp f) | RErr m => RErr m end.
Definition opp_evals (evals : list ((list point -> list result) * bool)) : list ((list point -> list result) * bool) :=
  map (fun e => (fun pop => map opp_result (fst e pop), snd e)) evals.
(** Mirrored optimizer data: all fitness values are negated, everything else is equal
    (the internal regression cache is not looked at). *)
Definition opp_core (c : core) : core :=
  {| c_steps := c_steps c; c_best_fit := fopp (c_best_fit c); c_best_pt := c_best_pt c; c_cur_fit := fopp (c_cur_fit c);
     c_cur_fits := map fopp (c_cur_fits c); c_cur_pt := c_cur_pt c; c_samples := c_samples c; c_hist := map f32opp (c_hist c); c_cap := c_cap c;
     c_trend := c_trend c; c_trend_step := c_trend_step c; c_interrupted := c_interrupted c |}.
Definition core_opp (c c' : core) : Prop := strip c' = opp_core (strip c).
Definition opp_event (ev : event) : event :=
  match ev with ENewBest p f => ENewBest p (fopp f) | EPostEval pop fits b => EPostEval pop (map fopp fits) b | ev => ev end.
Definition delivery_opp (d d' : delivery) : Prop := d_rep d' = d_rep d /\ d_event d' = opp_event (d_event d) /\ core_opp (d_view d) (d_view d').
(** Reporters that throw in mirrored situations. *)
Definition reporter_opp (r r' : reporter) : Prop :=
  forall tr tr' ev, Forall2 delivery_opp tr tr' -> r' tr' (opp_event ev) = r tr ev.
(** The regression of negated values is the negated regression. *)
Definition regression_odd (reg reg' : list Z -> list f32 -> linfun) : Prop :=
  forall xs ys, reg' xs (map f32opp ys) = lin_opp (reg xs ys).
(** Mirrored stop conditions: same kind; target and reference fitness are negated.  The
    two conditions that use the regression need it to be odd. *)
Inductive cond_opp (reg reg' : list Z -> list f32 -> linfun) : stop_cond -> stop_cond -> Prop :=
| co_abort : cond_opp reg reg' ScAbort ScAbort
| co_error e : cond_opp reg reg' (ScError e) (ScError e)
| co_flat eps : cond_opp reg reg' (ScFlat eps) (ScFlat eps)
| co_target t : cond_opp reg reg' (ScTarget t) (ScTarget (fopp t))
| co_max n : cond_opp reg reg' (ScMaxSteps n) (ScMaxSteps n)
| co_progress p n : regression_odd reg reg' -> cond_opp reg reg' (ScMinProgress p n) (ScMinProgress p n)
| co_predicted p p' f look n : regression_odd reg reg' -> cond_opp reg reg' (ScPredicted p f look n) (ScPredicted p' (fopp f) look n)
| co_similarity pts sims idx ms md : cond_opp reg reg' (ScSimilarity pts sims idx ms md) (ScSimilarity pts sims idx ms md)
| co_custom seen seen' f f' : Forall2 core_opp seen seen' ->
    (forall s s' c c', Forall2 core_opp s s' -> core_opp c c' -> f' s' c' = f s c) -> cond_opp reg reg' (ScCustom seen f) (ScCustom seen' f').
(** The environment of the mirrored optimizer. *)
Definition opp_env (E : env) (reg' : list Z -> list f32 -> linfun) (reps' : list reporter) : env :=
  {| e_info := opp_info (e_info E); e_cma := e_cma E; e_regression := reg'; e_unsigned_errors := e_unsigned_errors E; e_max_errors := e_max_errors E;
     e_reporters := reps'; e_libm := e_libm E |}.
(** Mirrored optimizers. *)
Definition opt_opp (reg reg' : list Z -> list f32 -> linfun) (o o' : opt) : Prop :=
  core_opp (o_core o) (o_core o') /\ Forall2 (cond_opp reg reg') (o_scs o) (o_scs o') /\ o_stopped o' = o_stopped o /\ Forall2 delivery_opp (o_trace o) (o_trace o').
(** Subclasses that sample equally and update equally from negated values. *)
Definition sampler_opp {S} (smp smp' : sampler S) : Prop :=
  (forall s, s_sample smp' s = s_sample smp s) /\ (forall s fits, s_update smp' s (map fopp fits) = s_update smp s fits).

(** The populations evaluated by a sequence of steps. *)
Fixpoint asked {S} (smp : sampler S) (E : env) (o : opt) (s : S) (evals : list ((list point -> list result) * bool)) : list (outcome (list point)) :=
  match evals with
  | [] => []
  | (eval, i) :: t =>
    snd (s_sample smp s) ::
    match full_step smp E o s eval i with
    | (o', s', Ok _) => asked smp E o' s' t
    | _ => []
    end
  end.
