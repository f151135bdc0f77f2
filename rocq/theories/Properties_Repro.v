(** * C39: a run is a function of objective, options and seed, whatever evaluator and
    thread schedule produced the results. *)
From Coq Require Import ZArith Bool.
From Verif Require Import Prelude Flt ParInfo ObjInfo Optimizer Driver Evaluator EvaluatorFacts Properties_Evaluator Properties_Evaluator2 Duality MesF Properties_Optimizer4 Properties_ES4.
#[local] Open Scope nat_scope.

(** A deterministic objective: what evaluate does (return, fail or throw) depends on the point only. *)
Definition value (obj : point -> behaviour) (p : point) : result := evaluate_noexcept (obj p).
(** Every recorded evaluation of point number i is one of the objective. *)
Definition faithful (obj : point -> behaviour) (pop : list point) (log : list (nat * result)) : Prop :=
  forall i r, In (i, r) log -> option_map (value obj) (nth_error pop i) = Some r.
(** [rs] is a possible answer of some evaluator for [pop], under some schedule. *)
Inductive possible_answer (obj : point -> behaviour) (pop : list point) : list result -> Prop :=
| pa_sequential : possible_answer obj pop (sequential_evaluate obj pop)
| pa_batch s : b_reach (length pop) s -> b_returned s = true -> faithful obj pop (b_log s) -> possible_answer obj pop (b_results s)
| pa_async limit s rs : a_reach (length pop) limit s -> a_phase s = AReturned -> a_results s = map Some rs -> faithful obj pop (a_log s) -> possible_answer obj pop rs
| pa_pooled workers calls todo s j rs : p_reach workers calls todo s -> nth_error calls j = Some (length pop) -> nth_error (p_calls s) j = Some (CDone rs) ->
    faithful obj pop (log_of j (p_log s)) -> possible_answer obj pop rs.
Lemma answered_value obj pop log rs : answered (length pop) log rs -> faithful obj pop log -> rs = map (value obj) pop.
Proof.
  intros (H1 & H2 & _) HF. apply nth_error_ext'; [rewrite map_length; exact H1|]. intros i Hi. destruct (nth_error rs i) as [r|] eqn:Er; [|apply nth_error_None in Er; lia].
  rewrite nth_error_map. symmetry. apply HF, H2, Er.
Qed.
Theorem C39_answers : forall obj pop rs, possible_answer obj pop rs -> rs = map (value obj) pop.
Proof.
  intros obj pop rs [|s HR HT HF|limit s r HR HP HE HF|w calls todo s j r HR HN HC HF].
  - exact (sequential_loop_spec obj pop []).
  - eapply answered_value; [apply C29_batch; eassumption|exact HF].
  - destruct (C29_async _ _ _ HR HP) as (rs' & H1 & H2). rewrite HE in H1. assert (r = rs'). { clear - H1. revert rs' H1. induction r as [|x r IH]; intros [|y rs] H; try discriminate H; [reflexivity|]. injection H as -> H. f_equal. auto. }
    subst r. eapply answered_value; eassumption.
  - eapply answered_value; [eapply C29_pooled; eassumption|exact HF].
Qed.
(** In this run every population was answered by some evaluator, under some schedule
    (possibly another one in each step). *)
Fixpoint evaluated {S} (obj : point -> behaviour) (smp : sampler S) (E : env) (o : opt) (s : S) (evals : list ((list point -> list result) * bool)) : Prop :=
  match evals with
  | [] => True
  | (eval, i) :: t =>
    (forall s1 pop, s_sample smp s = (s1, Ok pop) -> possible_answer obj pop (eval pop)) /\
    forall o' s' r, full_step smp E o s eval i = (o', s', Ok r) -> evaluated obj smp E o' s' t
  end.
Theorem C39_run_is_a_function : forall S (smp : sampler S) E obj o s evals, evaluated obj smp E o s evals ->
  let pure := map (fun e : (list point -> list result) * bool => (map (value obj), snd e)) evals in
  full_steps smp E o s evals = full_steps smp E o s pure /\ asked smp E o s evals = asked smp E o s pure.
Proof.
  intros S smp E obj o s evals. revert o s. induction evals as [|[eval i] t IH]; intros o s; cbn [evaluated map full_steps asked snd]; [auto|]. intros [HA HT].
  assert (HS : full_step smp E o s eval i = full_step smp E o s (map (value obj)) i).
  { unfold full_step, internal_step. destruct (Nat.eqb _ 0); [reflexivity|]. destruct (s_sample smp s) as [s1 [pop|w|]] eqn:ES; try reflexivity. rewrite (C39_answers obj pop (eval pop) (HA s1 pop eq_refl)). reflexivity. }
  rewrite <- HS. destruct (full_step smp E o s eval i) as [[o' s'] [r|w|]]; [|auto|auto]. specialize (IH o' s' (HT o' s' r eq_refl)). cbv zeta in IH. destruct IH as [-> ->]. auto.
Qed.
(** Two runs of the same optimizer on the same deterministic objective, with interrupts at
    the same steps, agree in everything, whatever evaluators and schedules they used. *)
Theorem C39_reproducible : forall S (smp : sampler S) E obj o s evals evals', evaluated obj smp E o s evals -> evaluated obj smp E o s evals' -> map snd evals = map snd evals' ->
  full_steps smp E o s evals = full_steps smp E o s evals' /\ asked smp E o s evals = asked smp E o s evals'.
Proof.
  intros S smp E obj o s evals evals' H H' HI. apply C39_run_is_a_function in H as [-> ->]. apply C39_run_is_a_function in H' as [-> ->].
  assert (HE : map (fun e : (list point -> list result) * bool => (map (value obj), snd e)) evals = map (fun e : (list point -> list result) * bool => (map (value obj), snd e)) evals').
  { revert evals' HI. induction evals as [|e t IH]; intros [|e' t'] HI; try discriminate HI; [reflexivity|]. injection HI as H1 H2. cbn [map]. rewrite H1, (IH t' H2). reflexivity. }
  rewrite HE. auto.
Qed.

(** Concrete: two points, one of them an error; the batch evaluator finishing the second
    point first, and the sequential one. *)
Definition two_points : list point := [[fzero]; [fofZ 1]].
Definition two_obj (p : point) : behaviour := match p with x :: _ => if feq x fzero then Returns (ROk fzero) else ThrowsStd "bad" | [] => ThrowsOther end.
Definition two_sampler : sampler nat := {| s_sample := fun n => (n, Ok two_points); s_update := fun n _ => (S n, Ok tt) |}.
Definition two_env : env := {| e_info := ex_info; e_cma := false; e_regression := e_regression (ex_env []); e_unsigned_errors := true; e_max_errors := 1; e_reporters := []; e_libm := e_libm (ex_env []) |}.
Example C39_nonvacuous : exists batch, possible_answer two_obj two_points batch /\
  (forall o n, evaluated two_obj two_sampler two_env o n [(fun _ => batch, false); (sequential_evaluate two_obj, false)]) /\
  snd (fst (full_steps two_sampler two_env (created two_env []) 0 [(fun _ => batch, false); (sequential_evaluate two_obj, false)])) = 2.
Proof.
  destruct C29_batch_nonvacuous as (s & H1 & H2 & H3 & H4). exists (b_results s). assert (HP : possible_answer two_obj two_points (b_results s)).
  { apply pa_batch; [exact H1|exact H2|]. rewrite H4. intros i r [[= <- <-]|[[= <- <-]|[]]]; [vm_compute; reflexivity|]. cbn [nth_error two_points option_map value two_obj evaluate_noexcept]. reflexivity. }
  split; [exact HP|]. split.
  - intros o n. split; [intros s1 pop [= <- <-]; exact HP|]. intros o' s' r _. split; [|intros; exact I]. intros s1 pop [= <- <-]. apply pa_sequential.
  - rewrite H3. vm_compute. reflexivity.
Qed.
