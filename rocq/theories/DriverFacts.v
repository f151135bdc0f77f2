(** * Facts about complete steps (Driver.v). *)
From Coq Require Import ZArith Bool Lia.
From Verif Require Import Prelude Flt Round8 FlatMap ParInfo ObjInfo Optimizer OptimizerFacts Driver.

Section Facts.
Context {S : Type} (smp : sampler S) (E : env).

(** When the sampler neither throws nor misbehaves, a full step is the base-class step
    with the sampled population and the evaluator's answer. *)
Lemma full_step_is_step o s eval i s1 pop : s_sample smp s = (s1, Ok pop) ->
  (forall fits, exists s2, s_update smp s1 fits = (s2, Ok tt)) ->
  let '(o', s', r) := full_step smp E o s eval i in
  step E o {| si_pop := pop; si_results := eval pop; si_interrupt := i |} = (o', r).
Proof.
  intros Hs Hu. unfold full_step, step. cbn [si_pop si_results si_interrupt]. destruct (Nat.eqb (oi_dim (e_info E)) 0); [reflexivity|].
  unfold internal_step. rewrite Hs. destruct (evaluate_step E _ pop (eval pop)) as [o3 [[|]|w|]]; cbn [fst snd].
  - destruct (Hu (c_cur_fits (o_core o3))) as (s2 & ->). destruct (test_stop E _) as [o' r]. reflexivity.
  - destruct (test_stop E _) as [o' r]. reflexivity.
  - reflexivity.
  - reflexivity.
Qed.

(** An invariant of the sampler's state. *)
Variable P : S -> Prop.
Hypothesis P_sample : forall s, P s -> P (fst (s_sample smp s)).
Hypothesis P_update : forall s fits, P s -> P (fst (s_update smp s fits)).
Lemma full_step_inv o s eval i : P s -> P (snd (fst (full_step smp E o s eval i))).
Proof using P_sample P_update.
  intros H. unfold full_step. destruct (Nat.eqb (oi_dim (e_info E)) 0); [exact H|]. unfold internal_step. pose proof (P_sample s H) as H1.
  destruct (s_sample smp s) as [s1 [pop|w|]]; cbn [fst snd] in *; try exact H1. destruct (evaluate_step E _ pop (eval pop)) as [o3 [[|]|w|]]; cbn [fst snd] in *; try exact H1.
  - pose proof (P_update s1 (c_cur_fits (o_core o3)) H1) as H2. destruct (s_update smp s1 _) as [s2 [u|w|]]; cbn [fst snd] in *; try exact H2. destruct (test_stop E _) as [o' r]. exact H2.
  - destruct (test_stop E _) as [o' r]. exact H1.
Qed.
Lemma full_steps_inv evals : forall o s, P s -> P (snd (fst (full_steps smp E o s evals))).
Proof using P_sample P_update.
  induction evals as [|[eval i] t IH]; intros o s H; cbn [full_steps]; [exact H|]. pose proof (full_step_inv o s eval i H) as H1.
  destruct (full_step smp E o s eval i) as [[o' s'] [r|w|]]; cbn [fst snd] in *; auto.
Qed.

(** Only populations that the sampler can produce are ever passed to the evaluator:
    the outcome does not depend on what it would answer for others. *)
Variable Q : list point -> Prop.
Hypothesis Q_sample : forall s s1 pop, P s -> s_sample smp s = (s1, Ok pop) -> Q pop.
Lemma full_step_only o s eval eval' i : P s -> (forall pop, Q pop -> eval pop = eval' pop) -> full_step smp E o s eval i = full_step smp E o s eval' i.
Proof using Q_sample.
  intros HP HE. unfold full_step. destruct (Nat.eqb (oi_dim (e_info E)) 0); [reflexivity|]. unfold internal_step.
  destruct (s_sample smp s) as [s1 [pop|w|]] eqn:Es; try reflexivity. rewrite (HE pop); [reflexivity|]. eapply Q_sample; eauto.
Qed.
Lemma full_steps_only evals : forall evals' o s, P s ->
  Forall2 (fun e e' => snd e = snd e' /\ forall pop, Q pop -> fst e pop = fst e' pop) evals evals' ->
  full_steps smp E o s evals = full_steps smp E o s evals'.
Proof using P_sample P_update Q_sample.
  induction evals as [|[e i] t IH]; intros evals' o s HP HF; inversion HF as [|? [e' i'] ? t' [Hi He] Ht]; subst; [reflexivity|]. cbn [fst snd] in *. subst i'. cbn [full_steps].
  rewrite (full_step_only o s e e' i HP He). pose proof (full_step_inv o s e' i HP) as H1. destruct (full_step smp E o s e' i) as [[o' s'] [r|w|]]; cbn [fst snd] in *; auto.
Qed.
End Facts.
