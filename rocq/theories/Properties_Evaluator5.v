(** * C30: the queue of a pooled evaluator is only touched under its mutex. *)
From Coq Require Import ZArith Bool.
From Verif Require Import Prelude Flt Optimizer Evaluator EvaluatorFacts Properties_Evaluator Properties_Evaluator2 Properties_Evaluator3.

(** A thread is between locking the mutex and releasing it (pooled_evaluator.cpp: workers lines
    93-102 except while in wait(), calls lines 38-41, destructor lines 17-20). *)
Inductive critical (s : pstate) : tid -> Prop :=
| cr_worker i w : nth_error (p_workers s) i = Some w -> (w = WTest \/ w = WGoWait \/ w = WAwake \/ exists t, w = WGot t) -> critical s (TW i)
| cr_call j n : nth_error (p_calls s) j = Some (CPush n) \/ nth_error (p_calls s) j = Some (CUnlock n) -> critical s (TC j)
| cr_destructor : (p_control s = DStop Destroy \/ p_control s = DNotify Destroy \/ p_control s = DJoin Destroy) -> critical s TD.
Lemma critical_holds s x : critical s x <-> holds s x.
Proof.
  split.
  - intros [i w H HW|j n H|H]; cbn [holds].
    + exists w. split; [exact H|]. destruct HW as [->|[->|[->|(t & ->)]]]; reflexivity.
    + destruct H as [H|H]; eexists; (split; [exact H|reflexivity]).
    + destruct H as [H|[H|H]]; rewrite H; reflexivity.
  - destruct x as [i|j|]; cbn [holds].
    + intros (w & H & HW). econstructor; [exact H|]. destruct w; try discriminate HW; eauto.
    + intros (c & H & HC). destruct c as [n|n|n|n|n|n rs|rs]; try discriminate HC; econstructor; [left|right]; exact H.
    + intros H. constructor. destruct (p_control s) as [| |[n|]|[n|]|[n|]|n|]; try discriminate H; auto.
Qed.
(** Whatever the schedule: at most one thread is in its critical section; it is the one that has the
    mutex, and the mutex is free when there is none. *)
Theorem C30_mutual_exclusion : forall workers calls todo s, p_reach workers calls todo s ->
  (forall x y, critical s x -> critical s y -> x = y) /\
  (forall x, p_mutex s = Some x <-> critical s x) /\
  (p_mutex s = None <-> forall x, ~ critical s x).
Proof.
  intros w calls todo s H. pose proof (p_reach_mutex _ _ _ _ H) as M.
  assert (M' : forall x, p_mutex s = Some x <-> critical s x) by (intros x; rewrite critical_holds; apply M).
  split; [|split; [exact M'|]].
  - intros x y Hx Hy. apply M' in Hx. apply M' in Hy. congruence.
  - split.
    + intros HN x Hx. apply M' in Hx. congruence.
    + intros HN. destruct (p_mutex s) as [x|] eqn:E; [|reflexivity]. destruct (HN x). now apply M'.
Qed.
(** A step that changes the queue is one of a thread that has the mutex before and after it; so no
    two threads ever touch the queue at the same time. *)
Theorem C30_queue_guarded : forall workers calls todo s l s', p_reach workers calls todo s -> pstep s l s' -> p_queue s' <> p_queue s ->
  exists x, p_mutex s = Some x /\ p_mutex s' = Some x /\ critical s x /\ critical s' x /\
    ((exists i t, x = TW i /\ p_queue s = t :: p_queue s') \/ (exists j n, x = TC j /\ l = PCall j /\ p_queue s' = p_queue s ++ map (fun i => (j, i)) (seq 0 n))).
Proof.
  intros w calls todo s l s' H HS HQ.
  pose proof (p_reach_mutex _ _ _ _ H) as M.
  assert (M2 : mutex_ok s') by (apply (p_reach_mutex w calls todo); econstructor; eassumption).
  assert (K : exists x, holds s x /\ holds s' x /\ ((exists i t, x = TW i /\ p_queue s = t :: p_queue s') \/ (exists j n, x = TC j /\ l = PCall j /\ p_queue s' = p_queue s ++ map (fun i => (j, i)) (seq 0 n)))).
  { destruct HS; try (exfalso; apply HQ; reflexivity).
    - exists (TW i). split; [exists WTest; split; [assumption|reflexivity]|]. split.
      + exists (WGot t). split; [|reflexivity]. cbn [set_pop set_w p_workers]. apply nth_error_list_set_eq. apply nth_error_Some. congruence.
      + left. exists i, t. split; [reflexivity|]. cbn [set_pop set_w p_queue]. assumption.
    - exists (TC j). split; [exists (CPush n); split; [assumption|reflexivity]|]. split.
      + exists (CUnlock n). split; [|reflexivity]. cbn [set_push set_c p_calls]. apply nth_error_list_set_eq. apply nth_error_Some. congruence.
      + right. exists j, n. split; [reflexivity|]. split; [reflexivity|]. reflexivity. }
  destruct K as (x & K1 & K2 & K3). exists x. split; [now apply M|]. split; [now apply M2|]. split; [now apply critical_holds|]. split; [now apply critical_holds|exact K3].
Qed.
(** The case is met: two workers and two calls; one call is filling the queue, the others wait. *)
Example C30_mutual_exclusion_nonvacuous : exists s s', p_reach 2 [1; 1] [Destroy] s /\ pstep s (PCall 0) s' /\ p_queue s' <> p_queue s /\
  nth_error (p_calls s) 1 = Some (CLock 1) /\ nth_error (p_workers s) 0 = Some WLock /\ p_control s = DWant.
Proof.
  set (s0 := p_init 2 [1; 1] [Destroy]).
  assert (R0 : p_reach 2 [1; 1] [Destroy] s0) by constructor.
  assert (S1 : pstep s0 (PStart 0) (set_c s0 0 (CLock 1))) by (constructor; reflexivity). pose proof (reach_step _ _ _ _ _ R0 S1) as R1. set (s1 := set_c s0 0 (CLock 1)) in *.
  assert (S2 : pstep s1 (PStart 1) (set_c s1 1 (CLock 1))) by (constructor; reflexivity). pose proof (reach_step _ _ _ _ _ R1 S2) as R2. set (s2 := set_c s1 1 (CLock 1)) in *.
  assert (S3 : pstep s2 PWork (set_w s2 0 WLock)) by (constructor; reflexivity). pose proof (reach_step _ _ _ _ _ R2 S3) as R3. set (s3 := set_w s2 0 WLock) in *.
  assert (S4 : pstep s3 PControl (set_d s3 DWant [])) by (apply DS_destroy; reflexivity). pose proof (reach_step _ _ _ _ _ R3 S4) as R4. set (s4 := set_d s3 DWant []) in *.
  assert (S5 : pstep s4 (PCall 0) (set_m (set_c s4 0 (CPush 1)) (Some (TC 0)))) by (apply CS_lock; reflexivity). pose proof (reach_step _ _ _ _ _ R4 S5) as R5.
  eexists; eexists. split; [exact R5|]. split; [apply CS_push; reflexivity|]. split; [discriminate|]. split; [reflexivity|]. split; reflexivity.
Qed.
