(** * Concrete runs of file_reporter, and what does not hold for a pool. *)
From Coq Require Import ZArith Bool Lia Sorted Permutation.
From Flocq Require Import Core BinarySingleNaN.
From Verif Require Import Prelude Flt FltFacts Flt32 Round8 Round8Facts ShowNum ShowNumFacts ParInfo ObjInfo SearchPoint Properties_SearchPoint Num MathTools Optimizer OptimizerFacts
  Properties_Optimizer Properties_Optimizer2 Properties_Optimizer4 Properties_ES3 Pool PoolFacts Properties_Pool Properties_Pool4
  FileReporter FileReporterFacts Properties_FileReporter Properties_FileReporter2 Properties_FileReporter3 Properties_FileReporter4.

Definition ex_config (threshold : f64) (max_steps : Z) : fr_config :=
  {| fc_root := chars "out"; fc_min_improvement := threshold; fc_max_steps := max_steps; fc_history := true; fc_par_history := true; fc_individuals := true;
     fc_median := fun l => hd fnan l; fc_abs := fabs; fc_show := show_num; fc_show32 := fun x => show_num (f64_of_f32 x); fc_state := fun _ => [] |}.
Definition ex_infos : nat -> outcome obj_info := fun _ => Ok ex_info.
Definition empty_disk : files := fun _ => None.
Definition ex_steps : list op := [OpStep (good_step 4 3); OpStep (good_step 5 2); OpStep (good_step 2 1); OpStep (good_step 9 8); OpStep (good_step 9 8)].
Lemma ex_reporting : reporting (ex_env [quiet]) [] ex_steps 0 ex_infos.
Proof.
  split; [discriminate|]. split; [repeat (constructor; [apply ex_wf|]); constructor|]. split; [split; [cbn; lia|]; intros j f Hj; lia|].
  split; [intros k; exists ex_info; split; reflexivity|]. vm_compute. reflexivity.
Qed.
Definition text_is (a : option text) (s : string) : bool := match a with Some t => path_eqb t (chars s) | None => false end.
Definition on_disk (st : outcome fr) (chk : files -> bool) : bool := match st with Ok s => chk (fr_files s) | _ => false end.
(** with a threshold of 0.5: the improvements 3 -> 2 (33 %) and 2 -> 1 (50 %): all are kept; with 0.6 the second is removed;
    the fifth step is the second without a file, so one is written (max_steps is 2). *)
Example C52_nonvacuous :
  on_disk (reported (ex_config (flit 5 (-1)) 2) (ex_env [quiet]) empty_disk ex_infos (calls_of (ex_env [quiet]) [] ex_steps 0))
    (fun fs => text_is (fs (chars "out/0002_2.000_1.000.par")) ("x" ++ string_of_list_ascii [tab] ++ "1" ++ string_of_list_ascii [tab] ++ "1" ++ string_of_list_ascii [tab] ++ "1" ++ string_of_list_ascii [tab; newline])%string &&
       match fs (chars "out/0000_4.000_3.000.par"), fs (chars "out/0001_5.000_2.000.par"), fs (chars "out/0004_9.000_8.000.par"), fs (chars "out/0003_9.000_8.000.par") with Some _, Some _, Some _, None => true | _, _, _, _ => false end) = true /\
  on_disk (reported (ex_config (flit 6 (-1)) 2) (ex_env [quiet]) empty_disk ex_infos (calls_of (ex_env [quiet]) [] ex_steps 0))
    (fun fs => match fs (chars "out/0000_4.000_3.000.par"), fs (chars "out/0001_5.000_2.000.par"), fs (chars "out/0002_2.000_1.000.par") with Some _, None, Some _ => true | _, _, _ => false end) = true.
Proof. split; vm_compute; reflexivity. Qed.
Example C53_nonvacuous : exists pre pop fits nb v post, calls_of (ex_env [quiet]) [] ex_steps 0 = pre ++ (EPostEval pop fits nb, v) :: post /\ c_steps v = 4 /\ reporting (ex_env [quiet]) [] ex_steps 0 ex_infos.
Proof.
  set (L := calls_of (ex_env [quiet]) [] ex_steps 0).
  assert (H : match nth_error L 22 with Some (EPostEval _ _ _, v) => Nat.eqb (c_steps v) 4 | _ => false end = true) by (vm_compute; reflexivity).
  destruct (nth_error L 22) as [[[] v]|] eqn:EN; try discriminate H. apply nth_error_split in EN as (pre & post & -> & _). exists pre, pop, fits, new_best, v, post. split; [reflexivity|]. split; [now apply Nat.eqb_eq|apply ex_reporting].
Qed.
Example C58_nonvacuous : exists w, In (EStart, w) (calls_of (ex_env [quiet]) [] ex_steps 0) /\ length (post_steps (calls_of (ex_env [quiet]) [] ex_steps 0)) = 5 /\
  on_disk (reported (ex_config (flit 5 (-1)) 2) (ex_env [quiet]) empty_disk ex_infos (calls_of (ex_env [quiet]) [ScMaxSteps 2] ex_steps 0))
    (fun fs => match fs (chars "out/history.txt") with Some t => Nat.eqb (length t) 57 | None => false end) = true.
Proof.
  set (L := calls_of (ex_env [quiet]) [] ex_steps 0). 
  assert (H : match L with (EStart, _) :: _ => true | _ => false end = true) by (vm_compute; reflexivity).
  assert (H2 : length (post_steps L) = 5) by (vm_compute; reflexivity).
  destruct L as [|[[] v] L']; try discriminate H. exists v. split; [now left|]. split; [exact H2|]. vm_compute. reflexivity.
Qed.

(** A file_reporter of a pool: two members can find a new best in the same step.  If the medians and fitnesses
    agree in three decimals, both files have the same name, and cleaning up removes the newest one. *)
Definition one_value (x : f64) : step_input := {| si_pop := [[x]]; si_results := [ROk x]; si_interrupt := false |}.
Definition pool_inputs (a b : f64) : pool_op := PoStep {| pi_inputs := fun i => one_value (if Nat.eqb i 0 then a else b); pi_sched := fun _ => [1]; pi_interrupt := false |}.
Theorem C52_pool_newest_best_is_on_disk_refuted : exists PE ms ops P L F infos pre p f v mid st, sorts (pe_sort PE) /\ Forall (joinable PE) ms /\
  history PE (pool_of PE ms []) ops L P /\ received 0 (po_trace P) = pre ++ (ENewBest p f, v) :: mid /\ (forall y, In y mid -> is_new_best y = false) /\ good_infos (pe_env PE) infos /\
  reported F (pe_env PE) empty_disk infos (received 0 (po_trace P)) = Ok st /\ fr_files st (par_path F v) = None.
Proof.
  set (PE := ex_pool_env 6 2 100 false). set (ms := [new_member (ex_env []) []; new_member (ex_env []) []]). set (ops := [pool_inputs (fofZ 10) (fofZ 11); pool_inputs (flit 99001 (-4)) (flit 99 (-1))]).
  set (F := ex_config (flit 5 (-2)) 1000).
  destruct (run_ops_check PE (pool_of PE ms []) ops (fun P L => match reported F (pe_env PE) empty_disk ex_infos (received 0 (po_trace P)), rev (new_best_views (received 0 (po_trace P))) with
     | Ok st, v :: _ => match fr_files st (par_path F v) with None => true | Some _ => false end | _, _ => false end)) as (P & L & H & C); [vm_compute; reflexivity|].
  destruct (reported F (pe_env PE) empty_disk ex_infos (received 0 (po_trace P))) as [st| |] eqn:ER; try discriminate C. pose proof (new_best_last (received 0 (po_trace P))) as HN. destruct (rev (new_best_views (received 0 (po_trace P)))) as [|v t]; [discriminate C|].
  destruct HN as (pre & p & f & mid & H1 & H2). exists PE, ms, ops, P, L, F, ex_infos, pre, p, f, v, mid, st.
  split; [exact isort_sorts|]. split; [constructor; [|constructor; [|constructor]]; apply new_joinable; first [discriminate|reflexivity]|]. split; [exact H|]. split; [exact H1|]. split; [exact H2|]. split; [intros k; exists ex_info; split; reflexivity|]. split; [exact ER|].
  destruct (fr_files st (par_path F v)); [discriminate C|reflexivity].
Qed.
