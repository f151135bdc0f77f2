(** * C38: maximising f and minimising -f are the same run with negated fitness values. *)
From Coq Require Import ZArith Bool FunctionalExtensionality.
From Verif Require Import Prelude Flt FltFacts Flt32 FltOpp Round8 FlatMap ParInfo ObjInfo Num MathTools Boundary Mes MesF Cma CmaRandom CmaF Optimizer OptimizerFacts Driver DriverFacts Duality DualityFacts
  Properties_Optimizer4 Properties_ES4 Properties_Cma3.
#[local] Open Scope nat_scope.

(** What the user sees of the two runs after the same number of steps. *)
Definition mirrored {S} (E : env) (reg' : list Z -> list f32 -> linfun) (reps' : list reporter) (smp smp' : sampler S) (extra extra' : list stop_cond) (s : S) : Prop :=
  forall evals,
  let r := full_steps smp E (created E extra) s evals in
  let r' := full_steps smp' (opp_env E reg' reps') (created (opp_env E reg' reps') extra') s (opp_evals evals) in
  (* the same populations are evaluated, in the same order *)
  asked smp' (opp_env E reg' reps') (created (opp_env E reg' reps') extra') s (opp_evals evals) = asked smp E (created E extra) s evals /\
  (* the subclass is in the same state, and the last step ended the same way *)
  snd (fst r') = snd (fst r) /\ snd r' = snd r /\
  (* same best points, negated fitness values, same step count, same stop condition *)
  c_best_pt (o_core (fst (fst r'))) = c_best_pt (o_core (fst (fst r))) /\ c_best_fit (o_core (fst (fst r'))) = fopp (c_best_fit (o_core (fst (fst r)))) /\
  c_cur_pt (o_core (fst (fst r'))) = c_cur_pt (o_core (fst (fst r))) /\ c_cur_fits (o_core (fst (fst r'))) = map fopp (c_cur_fits (o_core (fst (fst r)))) /\
  c_steps (o_core (fst (fst r'))) = c_steps (o_core (fst (fst r))) /\ o_stopped (fst (fst r')) = o_stopped (fst (fst r)) /\
  (* reporters are called with mirrored events *)
  Forall2 delivery_opp (o_trace (fst (fst r))) (o_trace (fst (fst r'))).

Theorem C38_any_optimizer : forall S (smp smp' : sampler S) E reg' reps' extra extra' s, sampler_opp smp smp' ->
  Forall2 reporter_opp (e_reporters E) reps' -> Forall2 (cond_opp (e_regression E) reg') extra extra' -> mirrored E reg' reps' smp smp' extra extra' s.
Proof.
  intros S smp smp' E reg' reps' extra extra' s HS HR HX evals. cbv zeta.
  destruct (full_steps_opp E reg' reps' HR smp smp' HS evals (created E extra) (created (opp_env E reg' reps') extra') s (created_opp E reg' reps' extra extra' HX)) as (((A & _ & B & C) & _) & D & F & G).
  apply core_opp_fields in A as (A1 & A2 & A3 & A4 & A5 & A6 & _). auto 12.
Qed.
Lemma es_sampler_opp L info lambda mu off dev comp : sampler_opp (es_sampler L info lambda mu off dev comp) (es_sampler L (opp_info info) lambda mu off dev comp).
Proof.
  split; [reflexivity|]. intros s fits. unfold es_sampler. cbn [s_update]. change (bounds_of (opp_info info)) with (bounds_of info).
  replace (sorted_indices (sl_sort L) (is_better (opp_info info)) (map fopp fits)) with (sorted_indices (sl_sort L) (is_better info) fits); [reflexivity|].
  unfold sorted_indices. rewrite map_length. f_equal. apply functional_extensionality. intros a. apply functional_extensionality. intros b. rewrite !nth_error_map.
  destruct (nth_error fits a) as [x|]; cbn [option_map]; [|reflexivity]. destruct (nth_error fits b) as [y|]; cbn [option_map]; [|reflexivity]. symmetry. apply is_better_opp.
Qed.
Lemma cma_sampler_opp L info tr P : sampler_opp (cma_sampler L info tr P) (cma_sampler L (opp_info info) tr P).
Proof.
  split; [reflexivity|]. intros s fits. unfold cma_sampler. cbn [s_update opp_info oi_minimize].
  assert (HI : map fopp (map fopp fits) = fits) by (rewrite map_map; rewrite <- (map_id fits) at 2; apply map_ext; intros a; apply fopp_involutive).
  destruct (oi_minimize info); cbn [negb]; [rewrite HI|]; reflexivity.
Qed.
(** MES, EVA and CMA, from construction on: equal options and random numbers.  The two
    evolution strategies also have their default condition. *)
Theorem C38_mes : forall L E reg' reps' extra extra' lambda opt g, Forall2 reporter_opp (e_reporters E) reps' -> Forall2 (cond_opp (e_regression E) reg') extra extra' ->
  mes_lambda L (opp_info (e_info E)) opt = mes_lambda L (e_info E) opt /\ es_start L (opp_info (e_info E)) lambda g = es_start L (e_info E) lambda g /\
  mirrored E reg' reps' (mes_sampler L (e_info E) lambda opt) (mes_sampler L (opp_info (e_info E)) lambda opt) (flat_default :: extra) (flat_default :: extra') (es_start L (e_info E) lambda g).
Proof.
  intros L E reg' reps' extra extra' lambda opt g HR HX. split; [reflexivity|]. split; [reflexivity|]. apply C38_any_optimizer; [apply es_sampler_opp|exact HR|]. constructor; [constructor|exact HX].
Qed.
Theorem C38_eva : forall L E reg' reps' extra extra' lambda opt g, Forall2 reporter_opp (e_reporters E) reps' -> Forall2 (cond_opp (e_regression E) reg') extra extra' ->
  eva_lambda L (opp_info (e_info E)) opt = eva_lambda L (e_info E) opt /\ es_start L (opp_info (e_info E)) lambda g = es_start L (e_info E) lambda g /\
  mirrored E reg' reps' (eva_sampler L (e_info E) lambda opt) (eva_sampler L (opp_info (e_info E)) lambda opt) (flat_default :: extra) (flat_default :: extra') (es_start L (e_info E) lambda g).
Proof.
  intros L E reg' reps' extra extra' lambda opt g HR HX. split; [reflexivity|]. split; [reflexivity|]. apply C38_any_optimizer; [apply es_sampler_opp|exact HR|]. constructor; [constructor|exact HX].
Qed.
Theorem C38_cma : forall L E reg' reps' extra extra' transformer label opt device clock, Forall2 reporter_opp (e_reporters E) reps' -> Forall2 (cond_opp (e_regression E) reg') extra extra' ->
  cma_create L (opp_info (e_info E)) label opt device clock = cma_create L (e_info E) label opt device clock /\
  forall P st, cma_create L (e_info E) label opt device clock = Ok (P, st) ->
  mirrored E reg' reps' (cma_sampler L (e_info E) transformer P) (cma_sampler L (opp_info (e_info E)) transformer P) (flat_default :: extra) (flat_default :: extra') st.
Proof.
  intros L E reg' reps' extra extra' transformer label opt device clock HR HX. split; [reflexivity|]. intros P st _. apply C38_any_optimizer; [apply cma_sampler_opp|exact HR|]. constructor; [constructor|exact HX].
Qed.

(** Concrete: minimising x^2 (as in C37_es_nonvacuous) and maximising -x^2, with a target, a
    step limit, a progress condition with an odd regression, and a user-defined condition. *)
Definition odd_reg (xs : list Z) (ys : list f32) : linfun := match ys with [] => {| lf_intercept := f32_of_f64 fnan; lf_slope := f32_of_f64 fnan |} | y :: _ => {| lf_intercept := y; lf_slope := y |} end.
Definition odd_env : env := {| e_info := ex_info; e_cma := false; e_regression := odd_reg; e_unsigned_errors := true; e_max_errors := 0; e_reporters := [fun tr ev => Nat.eqb (length tr) 2]; e_libm := e_libm (ex_env []) |}.
Definition ex_conds (t : f64) : list stop_cond := [ScTarget t; ScMaxSteps 9; ScMinProgress (flit (-5) 0) 2; ScCustom [] (fun seen c => Nat.eqb (length seen) 20)].
Lemma odd_reg_odd : regression_odd odd_reg odd_reg.
Proof. intros xs [|y ys]; reflexivity. Qed.
Example C38_nonvacuous : Forall2 reporter_opp (e_reporters odd_env) (e_reporters odd_env) /\
  Forall2 (cond_opp odd_reg odd_reg) (ex_conds (flit 1 (-3))) (ex_conds (fopp (flit 1 (-3)))) /\
  mirrored odd_env odd_reg (e_reporters odd_env) (mes_sampler ex_lib ex_info 4 ex_mes) (mes_sampler ex_lib (opp_info ex_info) 4 ex_mes) (flat_default :: ex_conds (flit 1 (-3))) (flat_default :: ex_conds (fopp (flit 1 (-3)))) (es_start ex_lib ex_info 4 1) /\
  (let r := full_steps (mes_sampler ex_lib ex_info 4 ex_mes) odd_env (created odd_env (flat_default :: ex_conds (flit 1 (-3)))) (es_start ex_lib ex_info 4 1) (repeat (ex_square, false) 3) in
   (Nat.eqb (c_steps (o_core (fst (fst r)))) 3 && Nat.ltb 10 (length (o_trace (fst (fst r)))) && feq (c_best_fit (o_core (fst (fst r)))) fzero) = true).
Proof.
  assert (H1 : Forall2 reporter_opp (e_reporters odd_env) (e_reporters odd_env)).
  { constructor; [|constructor]. intros tr tr' ev H. f_equal. clear - H. induction H as [|? ? ? ? ? ? IH]; [reflexivity|exact (f_equal S IH)]. }
  assert (H2 : Forall2 (cond_opp odd_reg odd_reg) (ex_conds (flit 1 (-3))) (ex_conds (fopp (flit 1 (-3))))).
  { constructor; [constructor|]. constructor; [constructor|]. constructor; [constructor; exact odd_reg_odd|]. constructor; [|constructor]. constructor; [constructor|].
    intros s s' c c' H _. f_equal. clear - H. induction H as [|? ? ? ? ? ? IH]; [reflexivity|exact (f_equal S IH)]. }
  split; [exact H1|]. split; [exact H2|]. split; [exact (proj2 (proj2 (C38_mes ex_lib odd_env odd_reg (e_reporters odd_env) _ _ 4%Z ex_mes 1 H1 H2)))|]. vm_compute. reflexivity.
Qed.
