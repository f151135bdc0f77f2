(** * C20: a failed step leaves the search distribution of the optimizer unchanged. *)
From Coq Require Import ZArith Bool Lia.
From Verif Require Import Prelude Flt Round8 FlatMap ParInfo ObjInfo Num MathTools Boundary Mes MesF Cma CmaRandom CmaF Optimizer OptimizerFacts Driver DriverFacts
  Properties_Optimizer Properties_Optimizer4 Properties_ES4 Properties_Cma3.

(** Too many of the evaluations of the population that is sampled next fail. *)
Definition fails {S} (smp : sampler S) (E : env) (s : S) (eval : list point -> list result) : Prop :=
  forall s1 pop, s_sample smp s = (s1, Ok pop) -> too_many_errors E (eval pop) = true.
Lemma failed_full_step S (smp : sampler S) E o s eval i : oi_dim (e_info E) <> 0 -> fails smp E s eval ->
  snd (fst (full_step smp E o s eval i)) = fst (s_sample smp s) /\
  forall s1 pop, s_sample smp s = (s1, Ok pop) -> (fst (fst (full_step smp E o s eval i)), snd (full_step smp E o s eval i)) = step E o {| si_pop := pop; si_results := eval pop; si_interrupt := i |}.
Proof.
  intros Hd HF. unfold full_step, step. destruct (Nat.eqb_spec (oi_dim (e_info E)) 0); [contradiction|]. unfold internal_step. cbn [si_pop si_results si_interrupt].
  destruct (s_sample smp s) as [s1 [pop|w|]] eqn:ES; [|split; [reflexivity|discriminate]..]. specialize (HF s1 pop ES). unfold evaluate_step. rewrite HF.
  destruct (set_error _ _) as [scs|] eqn:EE; (split; [|intros s1' pop' [= <- <-]; unfold evaluate_step; rewrite HF, EE]).
  - destruct (test_stop E _). reflexivity.
  - destruct (test_stop E _). reflexivity.
  - reflexivity.
  - reflexivity.
Qed.

(** MES and EVA: a step whose evaluation fails is the base class step described by
    C20_failed_step_has_no_effect; it keeps mean, variance and momentum, so that
    make_updated_objective_info() gives the same as before.  Only random numbers and
    the last population differ. *)
Theorem C20_failed_step_es : forall L E lambda mu offset offset_stdev component o s eval i,
  let smp := es_sampler L (e_info E) lambda mu offset offset_stdev component in
  oi_dim (e_info E) <> 0 -> fails smp E s eval ->
  let r := full_step smp E o s eval i in let s' := snd (fst r) in
  es_mean s' = es_mean s /\ es_var s' = es_var s /\ es_mom s' = es_mom s /\
  es_updated_info L (e_info E) s' = es_updated_info L (e_info E) s /\
  (forall s1 pop, s_sample smp s = (s1, Ok pop) -> (fst (fst r), snd r) = step E o {| si_pop := pop; si_results := eval pop; si_interrupt := i |}).
Proof.
  intros L E lambda mu offset offset_stdev component o s eval i smp Hd HF r s'. destruct (failed_full_step _ smp E o s eval i Hd HF) as [A B]. fold r in A, B. fold s' in A.
  assert (M : es_mean s' = es_mean s /\ es_var s' = es_var s /\ es_mom s' = es_mom s).
  { rewrite A. unfold smp, es_sampler. cbn [s_sample]. unfold es_sample. destruct (sample_individuals _ _ _ _ _ _ _ _ _ _) as [[pop g]|w|]; cbn [obind]; auto. }
  destruct M as (M1 & M2 & M3). split; [exact M1|]. split; [exact M2|]. split; [exact M3|]. split; [|exact B]. unfold es_updated_info, es_std. now rewrite M1, M2.
Qed.
(** CMA: the mean, the step size, the covariance matrix and both evolution paths stay the same. *)
Theorem C20_failed_step_cma : forall L E transformer P o s eval i,
  let smp := cma_sampler L (e_info E) transformer P in
  oi_dim (e_info E) <> 0 -> fails smp E s eval ->
  let r := full_step smp E o s eval i in let s' := snd (fst r) in
  s_mean s' = s_mean s /\ s_sigma s' = s_sigma s /\ s_C s' = s_C s /\ s_pc s' = s_pc s /\ s_ps s' = s_ps s /\
  cma_updated_info L (e_info E) transformer P s' = cma_updated_info L (e_info E) transformer P s /\
  (forall s1 pop, s_sample smp s = (s1, Ok pop) -> (fst (fst r), snd r) = step E o {| si_pop := pop; si_results := eval pop; si_interrupt := i |}).
Proof.
  intros L E transformer P o s eval i smp Hd HF r s'. destruct (failed_full_step _ smp E o s eval i Hd HF) as [A B]. fold r in A, B. fold s' in A.
  assert (M : s_mean s' = s_mean s /\ s_sigma s' = s_sigma s /\ s_C s' = s_C s /\ s_pc s' = s_pc s /\ s_ps s' = s_ps s).
  { rewrite A. clear. unfold smp, cma_sampler. cbn [s_sample]. unfold cma_sample. destruct (assert_ _); cbn [obind]; auto.
    destruct (update_eigensystem _ _ _) as [st1|w|] eqn:EU; cbn [obind fst]; auto.
    assert (U : s_mean st1 = s_mean s /\ s_sigma st1 = s_sigma s /\ s_C st1 = s_C s /\ s_pc st1 = s_pc s /\ s_ps st1 = s_ps s).
    { revert EU. unfold update_eigensystem. destruct (s_uptodate s); [intros [= <-]; auto|]. destruct (flgdiag s); [intros [= <-]; auto 6|]. destruct (_ <? _)%num; [intros [= <-]; auto|]. destruct (cl_eigen L _) as [[d Q]|w|]; cbn [obind]; try discriminate. intros [= <-]. auto 6. }
    destruct (mutants _ _ _ _ _ _) as [[rows g1]|w|]; cbn [obind fst]; auto. destruct (individuals _ _ _ _ _ _ _ _) as [[[rows' inds] g2]|w|]; cbn [obind fst]; auto. }
  destruct M as (M1 & M2 & M3 & M4 & M5). split; [exact M1|]. split; [exact M2|]. split; [exact M3|]. split; [exact M4|]. split; [exact M5|]. split; [|exact B].
  unfold cma_updated_info, current_mean, current_std. now rewrite M1, M2, M3.
Qed.
Definition ex_failing : list point -> list result := map (fun _ => RErr "no"%string).
Example C20_failed_step_nonvacuous :
  fails (mes_sampler ex_lib ex_info 4 ex_mes) (ex_env []) (es_start ex_lib ex_info 4 1) ex_failing /\
  (exists P st, ex_created = Ok (P, st) /\ fails (cma_sampler ex_cl ex_info None P) (ex_env []) st ex_failing) /\
  match full_step (mes_sampler ex_lib ex_info 4 ex_mes) (ex_env []) (created (ex_env []) [flat_default]) (es_start ex_lib ex_info 4 1) ex_failing false with (_, s, Ok (Some 1)) => Nat.eqb (length (es_pop s)) 4 | _ => false end = true.
Proof.
  split; [|split].
  - intros s1 pop H. assert (HL : match snd (s_sample (mes_sampler ex_lib ex_info 4 ex_mes) (es_start ex_lib ex_info 4 1)) with Ok (_ :: _) => true | _ => false end = true) by (vm_compute; reflexivity).
    rewrite H in HL. cbn [snd] in HL. destruct pop as [|p pop]; [discriminate HL|]. apply (proj1 (C20_error_threshold (ex_env []) _) eq_refl). exists "no"%string. now left.
  - assert (HE : match ex_created with Ok (P, st) => match snd (s_sample (cma_sampler ex_cl ex_info None P) st) with Ok (_ :: _) => true | _ => false end | _ => false end = true) by (vm_compute; reflexivity).
    destruct ex_created as [[P st]| |]; try discriminate HE. exists P, st. split; [reflexivity|]. intros s1 pop H. rewrite H in HE. cbn [snd] in HE. destruct pop as [|p pop]; [discriminate HE|].
    apply (proj1 (C20_error_threshold (ex_env []) _) eq_refl). exists "no"%string. now left.
  - vm_compute. reflexivity.
Qed.
