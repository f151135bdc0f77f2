(** * C51: when the pool stops; examples for C49-C51 *)
From Coq Require Import ZArith Bool Lia Permutation.
From Verif Require Import Prelude Flt FltFacts Flt32 Round8 FlatMap ParInfo ObjInfo Num MathTools Mes Optimizer OptimizerFacts Properties_Optimizer Properties_Optimizer4 Properties_ES3 Pool PoolFacts Properties_Pool Properties_Pool2 Properties_Pool3.
#[local] Open Scope nat_scope.

(** ** The conditions of a pool *)
Definition standard (P : pool) : Prop := exists t, po_conds P = PcBase ScAbort :: PcBase (ScError None) :: PcAll :: t.
Lemma absorb_conds PE P i : po_conds (fst (absorb_member PE P i)) = po_conds P /\ po_stopped (fst (absorb_member PE P i)) = po_stopped P.
Proof.
  unfold absorb_member. destruct (nth_error (po_members P) i) as [m|]; [|auto]. destruct (match po_best P with None => true | Some _ => _ end); [|cbn; auto]. destruct (pe_use_predicted PE); [|cbn; auto]. destruct (set_targets _ _) as [ms [|]]; cbn; auto.
Qed.
Lemma collect_conds PE launched inp sched todo : forall k P done, po_conds (fst (collect PE launched inp sched k P done todo)) = po_conds P /\ po_stopped (fst (collect PE launched inp sched k P done todo)) = po_stopped P.
Proof.
  induction todo as [|i t IH]; intros k P done; cbn [collect]; [auto|]. destruct (fold_left (complete inp) _ (po_members P, done)) as [ms done']. destruct (result_of i done') as [[x|w|]|]; try (cbn; auto).
  pose proof (absorb_conds PE (with_members P ms) i) as [A B]. destruct (absorb_member PE (with_members P ms) i) as [P2 [u|w|]]; cbn [fst] in *; [|cbn; auto|cbn; auto]. destruct (IH (S k) P2 done') as [C D]. rewrite C, D. auto.
Qed.
Lemma refill_stopped PE P : po_stopped (fst (refill PE P)) = po_stopped P.
Proof. unfold refill. destruct (po_queue P); [|auto]. destruct (predictions PE 0 (po_members P)) as [ms [preds|w|]]; auto. destruct (existsb fisnan preds); [auto|]. destruct (fill _ _ _ _ _) as [[ms' q] r]. auto. Qed.
Lemma internal_conds PE P inp sched : po_conds (fst (pool_internal_step PE P inp sched)) = po_conds P /\ po_stopped (fst (pool_internal_step PE P inp sched)) = po_stopped P.
Proof.
  unfold pool_internal_step. destruct (po_members P); [auto|]. pose proof (refill_frame PE P) as (_ & _ & _ & A). pose proof (refill_stopped PE P) as B. destruct (refill PE P) as [P1 [u|w|]]; cbn [fst] in *; [|auto|auto].
  pose proof (collect_conds PE (firstn (pe_concurrent PE) (po_queue P1)) inp sched (firstn (pe_concurrent PE) (po_queue P1)) 0 (with_queue P1 (skipn (pe_concurrent PE) (po_queue P1))) []) as [C D]. destruct (collect _ _ _ _ _ _ _ _) as [P2 r]. cbn [fst] in *. rewrite C, D. auto.
Qed.
(** What pool_test does with the standard conditions in front *)
Lemma pool_test_standard PE P t : po_conds P = PcBase ScAbort :: PcBase (ScError None) :: PcAll :: t -> po_stopped P = None ->
  let '(P', r) := pool_test PE P in
  standard P' /\
  if c_interrupted (po_base P) then r = Ok (Some 0) else
  match all_stopped (po_members P) with
  | (ms, Ok true) => po_members P' = ms /\ r = Ok (Some 2)
  | (ms, Ok false) => looked ms (po_members P') /\ r <> Ok (Some 2) /\ (forall i, r = Ok (Some i) -> 3 <= i)
  | (ms, Throw w) => po_members P' = ms /\ r = Throw w
  | (ms, Undef) => po_members P' = ms /\ r = Undef
  end.
Proof.
  intros EC ES. unfold pool_test. rewrite ES, EC. cbn [pc_list pc_test needs_best andb sc_test]. assert (HV : c_interrupted (view P) = c_interrupted (po_base P)) by (unfold view; destruct (best_member P); reflexivity). rewrite HV.
  destruct (c_interrupted (po_base P)); [cbn; split; [eexists; reflexivity|reflexivity]|]. cbn [pc_list]. destruct (all_stopped (po_members P)) as [ms [[|]|w|]]; cbn; try (split; [eexists; reflexivity|]; auto).
  assert (GE : forall l i Q k, snd (pc_list PE Q i l) = Ok (Some k) -> i <= k).
  { induction l as [|pc l IH]; intros i Q k; cbn [pc_list]; [discriminate|]. destruct (pc_test PE Q pc) as [[Q' pc'] [[|]|w|]]; try discriminate; [intros [= ->]; lia|]. specialize (IH (S i) Q' k). destruct (pc_list PE Q' (S i) l) as [[Q'' t'] r]. cbn [snd] in *. intros X. specialize (IH X). lia. }
  specialize (GE t 3 (with_members P ms)). pose proof (pc_list_looked PE t (with_members P ms) 3) as HL. destruct (pc_list PE (with_members P ms) 3 t) as [[Q l] [[k|]|w|]]; cbn [fst snd] in *; cbn; (split; [eexists; reflexivity|]); (split; [exact HL|]); (split; [|intros i X; try discriminate X; injection X as <-; apply (GE k eq_refl)]); try discriminate.
  intros [= X]. specialize (GE k eq_refl). lia.
Qed.
Lemma pool_test_keeps PE P : standard P -> standard (fst (pool_test PE P)) /\ (forall i, po_stopped P = Some i -> po_stopped (fst (pool_test PE P)) = Some i).
Proof.
  intros (t & EC). destruct (po_stopped P) as [i|] eqn:ES; [unfold pool_test; rewrite ES; split; [exists t; exact EC|intros j; cbn [fst]; congruence]|]. pose proof (pool_test_standard PE P t EC ES) as H. destruct (pool_test PE P) as [P' r]. split; [apply H|discriminate].
Qed.
Lemma pool_step_keeps PE P inp : standard P -> standard (fst (pool_step PE P inp)) /\ (forall i, po_stopped P = Some i -> po_stopped (fst (pool_step PE P inp)) = Some i).
Proof.
  intros HSt. unfold pool_step. destruct (Nat.eqb (oi_dim (e_info (pe_env PE))) 0); [auto|].
  set (P2 := psignal PE EPreStep _). assert (E2 : po_conds P2 = po_conds P /\ po_stopped P2 = po_stopped P) by (unfold P2; destruct (Nat.eqb _ 0); auto). clearbody P2. destruct E2 as [E2 E3].
  pose proof (internal_conds PE P2 (pi_inputs inp) (pi_sched inp)) as [A B]. destruct (pool_internal_step PE P2 (pi_inputs inp) (pi_sched inp)) as [P3 r3]. cbn [fst] in A, B. rewrite E2 in A. rewrite E3 in B. unfold standard in *. destruct r3 as [ok|w|]; cbn [fst]; [|rewrite A, B; auto|rewrite A, B; auto].
  match goal with |- context [pool_test PE ?Q] => pose proof (pool_test_keeps PE Q) as H; assert (EQ : po_conds Q = po_conds P /\ po_stopped Q = po_stopped P) by (destruct ok, (pi_interrupt inp); cbn; auto) end.
  destruct EQ as [EQ1 EQ2]. unfold standard in H. rewrite EQ1, EQ2 in H. apply H, HSt.
Qed.
Lemma history_keeps PE P ops L P' : history PE P ops L P' -> standard P -> standard P' /\ (forall i, po_stopped P = Some i -> po_stopped P' = Some i).
Proof.
  intros H. induction H as [P|P a P1 ops L P2 E H IH]; intros HSt; [auto|].
  assert (K : standard P1 /\ (forall i, po_stopped P = Some i -> po_stopped P1 = Some i)).
  { destruct a as [i| |]; cbn [pool_exec] in E.
    - pose proof (pool_step_keeps PE P i HSt) as X. destruct (pool_step PE P i) as [Q [x|w|]]; try discriminate E. injection E as <-. exact X.
    - injection E as <-. auto.
    - pose proof (pool_test_keeps PE P HSt) as X. destruct (pool_test PE P) as [Q [x|w|]]; try discriminate E. injection E as <-. exact X. }
  destruct K as [K1 K2]. destruct (IH K1) as [K3 K4]. split; [exact K3|auto].
Qed.
Lemma pool_of_standard PE ms conds : Forall (joinable PE) ms -> standard (pool_of PE ms conds) /\ po_stopped (pool_of PE ms conds) = None.
Proof.
  intros HJ. unfold pool_of. destruct (conds_frame conds (fold_left (push_back PE) ms (new_pool PE))) as (_ & _ & _ & _ & _ & F & G). destruct (push_all PE ms (new_pool PE) (Forall_nil _) HJ) as (_ & _ & _ & _ & A & _ & _ & B). cbn zeta in *. rewrite F, B. split; [|reflexivity]. unfold standard. rewrite G, A. eexists. reflexivity.
Qed.

(** ** C51 *)
(** Testing the pool's own condition tests every member; it answers true if and only if
    afterwards every member is stopped. *)
Theorem C51_condition : forall ms ms' b, all_stopped ms = (ms', Ok b) ->
  Forall2 (fun m m' => exists r, m_test m = (m', Ok r)) ms ms' /\ (b = true <-> Forall (fun m => m_stopped m = true) ms').
Proof.
  induction ms as [|m t IH]; intros ms' b E; cbn [all_stopped] in E; [injection E as <- <-; split; [constructor|split; [constructor|reflexivity]]|].
  pose proof (m_test_latch m) as HL. destruct (m_test m) as [m' [r|w|]] eqn:ET; try discriminate E. destruct (all_stopped t) as [t' [b'|w|]]; try discriminate E. cbn [obind] in E. injection E as <- <-. destruct (IH t' b' eq_refl) as [A B]. split; [constructor; [eauto|exact A]|].
  specialize (HL m' r eq_refl). rewrite andb_true_iff. split.
  - intros [X Y]. constructor; [|now apply B]. destruct r; [|discriminate X]. destruct (m_stopped m'); [reflexivity|]. assert (Some n = None) by (apply HL; reflexivity). discriminate.
  - intros X. inversion X as [|? ? X1 X2]; subst. split; [|now apply B]. destruct r; [reflexivity|]. rewrite (proj1 HL eq_refl) in X1. discriminate X1.
Qed.
Lemma stopped_all ms : Forall (fun m => m_stopped m = true) ms -> all_stopped ms = (ms, Ok true).
Proof.
  induction 1 as [|m t H _ IH]; [reflexivity|]. cbn [all_stopped]. unfold m_test, test_stop. unfold m_stopped in H. destruct (o_stopped (m_opt m)) eqn:ES; [|discriminate H]. rewrite IH. cbn [obind andb]. destruct m; reflexivity.
Qed.
(** In any state a pool can get into, when it is tested (which every step ends with): if it
    has not been interrupted it stops because of its own condition exactly if every member has
    stopped, and otherwise tells so immediately. *)
Theorem C51_stops_iff_all_stopped : forall PE ms conds ops L P P' r, Forall (joinable PE) ms -> history PE (pool_of PE ms conds) ops L P ->
  po_stopped P = None -> c_interrupted (po_base P) = false -> pool_test PE P = (P', Ok r) ->
  (r = Some 2 <-> Forall (fun m => m_stopped m = true) (fst (all_stopped (po_members P)))) /\
  (Forall (fun m => m_stopped m = true) (po_members P) -> r = Some 2 /\ po_members P' = po_members P).
Proof.
  intros PE ms conds ops L P P' r HJ H ES EI E. destruct (pool_of_standard PE ms conds HJ) as [HSt _]. destruct (history_keeps PE _ _ _ _ H HSt) as [(t & EC) _].
  pose proof (pool_test_standard PE P t EC ES) as HT. rewrite E, EI in HT. destruct HT as [_ HT]. pose proof (C51_condition (po_members P)) as HC. split.
  - destruct (all_stopped (po_members P)) as [ms' [b|w|]]; [destruct (HC ms' b eq_refl) as [_ B]|destruct HT; discriminate|destruct HT; discriminate]. cbn [fst]. rewrite <- B. destruct b.
    + destruct HT as [_ HT]. injection HT as ->. tauto.
    + destruct HT as (_ & HT & _). split; [intros ->; congruence|discriminate].
  - intros HF. rewrite (stopped_all _ HF) in HT. destruct HT as [A B]. injection B as ->. auto.
Qed.
(** Once it has stopped for that reason, the pool and all its members stay stopped. *)
Theorem C51_latched : forall PE ms conds ops L P P' ops2 L2 P2, sorts (pe_sort PE) -> Forall (joinable PE) ms -> history PE (pool_of PE ms conds) ops L P ->
  pool_test PE P = (P', Ok (Some 2)) -> po_stopped P = None -> history PE P' ops2 L2 P2 ->
  Forall (fun m => m_stopped m = true) (po_members P2) /\ po_stopped P2 = Some 2 /\
  (forall P3 r, pool_test PE P2 = (P3, r) -> P3 = P2 /\ r = Ok (Some 2)).   (* every later test gives that condition again *)
Proof.
  intros PE ms conds ops L P P' ops2 L2 P2 HS HJ H E ES H2. destruct (pool_of_standard PE ms conds HJ) as [HSt _]. destruct (history_keeps PE _ _ _ _ H HSt) as [(t & EC) _].
  pose proof (pool_test_standard PE P t EC ES) as HT. rewrite E in HT. destruct HT as [HSt' HT].
  assert (SP : po_stopped P' = Some 2) by (revert E; unfold pool_test; rewrite ES; destruct (pc_list PE P 0 (po_conds P)) as [[P1 l] [[i|]|w|]]; try discriminate; intros [= <- ->]; reflexivity).
  pose proof (proj2 (history_keeps PE _ _ _ _ H2 HSt') 2 SP) as SP2.
  split; [|split; [exact SP2|intros P3 r E3; unfold pool_test in E3; rewrite SP2 in E3; injection E3 as <- <-; auto]]. clear SP2.
  assert (HF : Forall (fun m => m_stopped m = true) (po_members P')).
  { destruct (c_interrupted (po_base P)); [discriminate HT|]. pose proof (C51_condition (po_members P)) as HC. destruct (all_stopped (po_members P)) as [ms' [[|]|w|]]; [|destruct HT as (_ & HT & _); congruence|destruct HT; discriminate|destruct HT; discriminate]. destruct HT as [-> _]. now apply (HC ms' true eq_refl). }
  destruct (pool_of_inv PE ms conds HJ) as [HI _]. destruct (history_inv _ _ _ _ _ HS H [] HI) as [I1 _]. cbn [app] in I1.
  assert (I2 : pool_inv PE L P'). { pose proof (pool_test_looked PE P) as X. pose proof (pool_test_frame PE P) as (T1 & T2 & T3 & T4). rewrite E in *. apply (inv_looked PE L P); assumption. }
  clear - HS I2 HF H2. revert L I2. induction H2 as [P|P a P1 ops LM P2 E H IH]; intros L I2; [exact HF|]. destruct (exec_inv PE L P a P1 HS I2 E) as [I3 _]. apply (IH) with (L := L ++ match a with PoStep _ => launches PE P | _ => [] end); [|exact I3].
  destruct I2 as [HQ HB]. pose proof HB as (HG & _).
  assert (LK : forall Q, looked (po_members P) Q -> Forall (fun m => m_stopped m = true) Q).
  { intros Q HL. apply Forall_forall. intros m' Hm. apply In_nth_error in Hm as (i & Ei). destruct (looked_nth_back _ _ _ _ HL Ei) as (m & Em & T). destruct (T (proj1 (Forall_nth _ _ _ _ HG Em))) as (_ & _ & _ & T4). apply T4. exact (Forall_nth _ _ _ _ HF Em). }
  destruct a as [i| |]; cbn [pool_exec] in E.
  - destruct (pool_step PE P i) as [Q r] eqn:EP. destruct r as [x|w|]; try discriminate E. injection E as <-. destruct (Nat.eq_dec (oi_dim (e_info (pe_env PE))) 0) as [D|D]; [unfold pool_step in EP; rewrite D in EP; discriminate EP|].
    destruct (pool_step_inv PE L P i Q (Ok x) HS (conj HQ HB) D EP ltac:(discriminate)) as (_ & _ & _ & [SL SM] & _). apply Forall_forall. intros m' Hm. apply In_nth_error in Hm as (j & Ej). assert (LJ : j < length (po_members Q)) by (apply nth_error_Some; congruence). rewrite SL in LJ. destruct (nth_error (po_members P) j) as [m|] eqn:Em; [|apply nth_error_None in Em; lia].
    destruct (SM j m Em) as (m2 & E2 & M). rewrite Ej in E2. injection E2 as <-. pose proof (Forall_nth _ _ _ _ HG Em) as [K _]. pose proof (Forall_nth _ _ _ _ HF Em) as HSm. cbn beta in HSm. destruct (existsb (Nat.eqb j) (launches PE P)); cbn [moved] in M.
    + destruct M as (m1 & T1 & T2). destruct (T1 K) as (_ & _ & K1 & S1). pose proof (m_step_facts m1 (pi_inputs i j) K1) as (_ & K2 & _ & S2). destruct (T2 K2) as (_ & _ & _ & S3). auto.
    + destruct (M K) as (_ & _ & _ & S1). auto.
  - injection E as <-. apply LK, looked_interrupt.
  - pose proof (pool_test_looked PE P) as HL. destruct (pool_test PE P) as [Q r]. destruct r as [x|w|]; try discriminate E. injection E as <-. apply LK, HL.
Qed.
(** Interrupting the pool interrupts every member: each of them is stopped as soon as it is
    tested, and so is the pool (because of the abort, whatever else). *)
Theorem C51_interrupt : forall PE ms conds ops L P P', sorts (pe_sort PE) -> Forall (joinable PE) ms -> history PE (pool_of PE ms conds) ops L P ->
  P' = pool_interrupt P ->
  length (po_members P') = length (po_members P) /\
  (forall m, In m (po_members P') -> c_interrupted (o_core (m_opt m)) = true /\ exists m' k, m_test m = (m', Ok (Some k)) /\ m_stopped m' = true /\ (m_stopped m = false -> k = 0)) /\
  (po_stopped P = None -> snd (pool_test PE P') = Ok (Some 0)).
Proof.
  intros PE ms conds ops L P P' HS HJ H ->. split; [apply map_length|]. destruct (pool_of_inv PE ms conds HJ) as [HI _]. destruct (history_inv _ _ _ _ _ HS H [] HI) as [[_ (HG & _)] _]. split.
  - intros m Hm. cbn [pool_interrupt with_base with_members po_members] in Hm. apply in_map_iff in Hm as (m0 & <- & Hm). split; [reflexivity|]. rewrite Forall_forall in HG. destruct (HG m0 Hm) as [[K (t & Ht)] _]. unfold m_test, test_stop, m_stopped. cbn [m_interrupt m_with m_opt m_env with_core o_stopped o_core o_scs]. rewrite Ht.
    destruct (o_stopped (m_opt m0)) as [k|] eqn:ES; [eexists _, k; split; [reflexivity|]; split; [cbn; now rewrite ES|discriminate]|]. cbn. eexists _, 0. split; [reflexivity|]. split; reflexivity.
  - intros ES. destruct (pool_of_standard PE ms conds HJ) as [HSt _]. destruct (history_keeps PE _ _ _ _ H HSt) as [(t & EC) _]. pose proof (pool_test_standard PE (pool_interrupt P) t EC ES) as HT. cbn [pool_interrupt with_base po_base c_interrupted with_interrupt] in HT. destruct (pool_test PE (pool_interrupt P)) as [Q r]. destruct HT as [_ HT]. exact HT.
Qed.

(** ** Concrete pools *)
Fixpoint run_ops (PE : pool_env) (P : pool) (ops : list pool_op) : option (pool * list nat) :=
  match ops with
  | [] => Some (P, [])
  | a :: t => match pool_exec PE P a with
    | (P1, Ok _) => match run_ops PE P1 t with Some (P2, L) => Some (P2, L ++ match a with PoStep _ => launches PE P | _ => [] end) | None => None end
    | _ => None end
  end.
Lemma run_ops_history PE ops : forall P P' L, run_ops PE P ops = Some (P', L) -> history PE P ops L P'.
Proof.
  induction ops as [|a t IH]; intros P P' L; cbn [run_ops]; [intros [= <- <-]; constructor|]. destruct (pool_exec PE P a) as [P1 [[]|w|]] eqn:E; try discriminate. destruct (run_ops PE P1 t) as [[P2 L2]|] eqn:E2; [|discriminate]. intros [= <- <-]. econstructor; [exact E|apply IH, E2].
Qed.
(** A fact that holds of the state after the calls [ops] *)
Lemma run_ops_check PE P ops (chk : pool -> list nat -> bool) : match run_ops PE P ops with Some (P', L) => chk P' L | None => false end = true ->
  exists P' L, history PE P ops L P' /\ chk P' L = true.
Proof. destruct (run_ops PE P ops) as [[P' L]|] eqn:E; [|discriminate]. intros H. exists P', L. split; [now apply run_ops_history|exact H]. Qed.
Definition ex_pool_env (active concurrent start : nat) (predicted : bool) : pool_env :=
  {| pe_env := ex_env [quiet]; pe_window := 100; pe_start := start; pe_look := 100; pe_use_predicted := predicted; pe_active := active; pe_concurrent := concurrent; pe_sort := isort |}.
Definition new_member (E : env) (extra : list stop_cond) : member := {| m_env := E; m_opt := created E extra |}.
Lemma new_joinable active concurrent start predicted E extra : oi_dim (e_info E) <> 0 -> oi_minimize (e_info E) = true -> joinable (ex_pool_env active concurrent start predicted) (new_member E extra).
Proof. intros D M. split; [exact D|]. split; [exact M|]. exists extra, []. split; [constructor|reflexivity]. Qed.
(** every member gets the same two values *)
Definition same_inputs (a b : Z) : pool_op := PoStep {| pi_inputs := fun _ => good_step a b; pi_sched := fun _ => []; pi_interrupt := false |}.
(** member i gets the values of the i-th pair *)
Definition inputs_of (l : list (Z * Z)) : pool_op :=
  PoStep {| pi_inputs := fun i => let '(a, b) := nth i l (0, 0)%Z in good_step a b; pi_sched := fun _ => [1]; pi_interrupt := false |}.
Definition f64_ok_same (x : outcome f64) (y : f64) : bool := match x with Ok f => f64_same f y | _ => false end.
Definition best_of (P : pool) (i : nat) (y : f64) : bool := match nth_error (po_members P) i with Some m => f64_same (m_best m) y | None => false end.
Definition nat_list_eqb (a b : list nat) : bool := if list_eq_dec Nat.eq_dec a b then true else false.

Example C49_nonvacuous : let PE := ex_pool_env 6 2 100 true in let ms := [new_member (ex_env []) [ScMaxSteps 2]; new_member (ex_env []) []] in
  sorts (pe_sort PE) /\ Forall (joinable PE) ms /\ Forall (fun m => c_best_fit (o_core (m_opt m)) = worst_fitness (e_info (pe_env PE))) ms /\
  exists P L, history PE (pool_of PE ms []) [inputs_of [(4, 3); (6, 5)]; inputs_of [(9, 8); (7, 2)]]%Z L P /\
    (nat_list_eqb L [0; 1; 0; 1] && f64_ok_same (pool_best_fitness P) (fofZ 2) && best_of P 0 (fofZ 3) && best_of P 1 (fofZ 2)) = true.
Proof.
  cbv zeta. split; [exact isort_sorts|]. split; [constructor; [|constructor; [|constructor]]; apply new_joinable; [discriminate|reflexivity|discriminate|reflexivity]|]. split; [repeat constructor|].
  apply (run_ops_check _ _ _ (fun P L => nat_list_eqb L [0; 1; 0; 1] && f64_ok_same (pool_best_fitness P) (fofZ 2) && best_of P 0 (fofZ 3) && best_of P 1 (fofZ 2))). vm_compute. reflexivity.
Qed.
(** When the step of a member throws (here: a similarity condition in a member that is not a
    cma_optimizer), the results of the members after it are overlooked: the pool step throws
    as well, and the pool has no best although a member was stepped and has one. *)
Theorem C49_after_exception_refuted : exists PE ms inp P' w, sorts (pe_sort PE) /\ Forall (joinable PE) ms /\ Forall (fun m => c_best_fit (o_core (m_opt m)) = worst_fitness (e_info (pe_env PE))) ms /\
  pool_step PE (pool_of PE ms []) inp = (P', Throw w) /\
  pool_best_fitness P' = Undef /\ exists m, In m (po_members P') /\ c_steps (o_core (m_opt m)) = 1 /\ is_better (e_info (pe_env PE)) (m_best m) (worst_fitness (e_info (pe_env PE))) = true.
Proof.
  set (PE := ex_pool_env 6 2 100 false). set (ms := [new_member (ex_env []) [ScSimilarity [] [] None 1 fzero]; new_member (ex_env []) []]).
  set (inp := {| pi_inputs := fun _ => good_step 4 3; pi_sched := fun _ => []; pi_interrupt := false |}).
  destruct (pool_step PE (pool_of PE ms []) inp) as [P' r] eqn:E.
  assert (CHK : match pool_step PE (pool_of PE ms []) inp with (P', Throw _) => match pool_best_fitness P', nth_error (po_members P') 1 with Undef, Some m => Nat.eqb (c_steps (o_core (m_opt m))) 1 && is_better (e_info (pe_env PE)) (m_best m) (worst_fitness (e_info (pe_env PE))) | _, _ => false end | _ => false end = true) by (vm_compute; reflexivity).
  rewrite E in CHK. destruct r as [x|w|]; try discriminate CHK. destruct (pool_best_fitness P') eqn:EB; try discriminate CHK. destruct (nth_error (po_members P') 1) as [m|] eqn:Em; [|discriminate CHK]. apply andb_true_iff in CHK as [C1 C2].
  exists PE, ms, inp, P', w. split; [exact isort_sorts|]. split; [constructor; [|constructor; [|constructor]]; apply new_joinable; [discriminate|reflexivity|discriminate|reflexivity]|]. split; [repeat constructor|]. split; [exact E|]. split; [exact EB|]. exists m. split; [eapply nth_error_In, Em|]. split; [now apply Nat.eqb_eq|exact C2].
Qed.
(** active_optimizations is not a maximum: here it is 1, and two members are stepped. *)
Theorem C50_active_limit_refuted : exists PE ms, sorts (pe_sort PE) /\ Forall (joinable PE) ms /\ pe_active PE = 1 /\ launches PE (pool_of PE ms []) = [0; 1] /\
  exists P L, history PE (pool_of PE ms []) [same_inputs 4 3] L P /\ forallb (fun m => Nat.eqb (c_steps (o_core (m_opt m))) 1) (po_members P) = true.
Proof.
  exists (ex_pool_env 1 2 100 false), [new_member (ex_env []) []; new_member (ex_env []) []]. split; [exact isort_sorts|]. split; [constructor; [|constructor; [|constructor]]; apply new_joinable; [discriminate|reflexivity|discriminate|reflexivity]|]. split; [reflexivity|]. split; [vm_compute; reflexivity|].
  apply (run_ops_check _ _ _ (fun P L => forallb (fun m => Nat.eqb (c_steps (o_core (m_opt m))) 1) (po_members P))). vm_compute. reflexivity.
Qed.
(** A queued member that stops before its turn comes is stepped all the same: the pool's own
    test at the end of a step can stop members that are still in the queue. *)
Definition falling : env := {| e_info := ex_info; e_cma := false; e_regression := fun _ ys => {| lf_intercept := f32sub (last ys f32zero) (f32ofZ 1); lf_slope := f32zero |};
  e_unsigned_errors := true; e_max_errors := 0; e_reporters := []; e_libm := e_libm (ex_env []) |}.
Theorem C50_stopped_member_stepped_refuted : exists PE ms ops, sorts (pe_sort PE) /\ Forall (joinable PE) ms /\
  exists P L, history PE (pool_of PE ms []) ops L P /\ po_stopped P = None /\ launches PE P = [1] /\ exists m, nth_error (po_members P) 1 = Some m /\ m_stopped m = true.
Proof.
  exists (ex_pool_env 6 1 0 true), [new_member falling []; new_member falling []], ([same_inputs 10 10; same_inputs 10 10; same_inputs 10 10; same_inputs 10 10; same_inputs 5 5])%Z.
  split; [exact isort_sorts|]. split; [constructor; [|constructor; [|constructor]]; apply new_joinable; [discriminate|reflexivity|discriminate|reflexivity]|].
  destruct (run_ops_check (ex_pool_env 6 1 0 true) (pool_of (ex_pool_env 6 1 0 true) [new_member falling []; new_member falling []] []) ([same_inputs 10 10; same_inputs 10 10; same_inputs 10 10; same_inputs 10 10; same_inputs 5 5])%Z
    (fun P L => match po_stopped P, nth_error (po_members P) 1 with None, Some m => nat_list_eqb (launches (ex_pool_env 6 1 0 true) P) [1] && m_stopped m | _, _ => false end)) as (P & L & H & C); [vm_compute; reflexivity|].
  exists P, L. split; [exact H|]. destruct (po_stopped P); [discriminate C|]. destruct (nth_error (po_members P) 1) as [m|]; [|discriminate C]. apply andb_true_iff in C as [C1 C2]. split; [reflexivity|]. split; [unfold nat_list_eqb in C1; destruct (list_eq_dec _ _ _); [assumption|discriminate C1]|]. exists m. auto.
Qed.
(** Without the condition on predictions in C50_progress: a pool that is not stopped, has a
    member that is not stopped, and steps nobody, again and again. *)
Definition hopeless : env := {| e_info := ex_info; e_cma := false; e_regression := fun _ ys => {| lf_intercept := f32_of_f64 (finf false); lf_slope := f32zero |};
  e_unsigned_errors := true; e_max_errors := 0; e_reporters := []; e_libm := e_libm (ex_env []) |}.
Theorem C50_progress_refuted : exists PE ms ops, sorts (pe_sort PE) /\ Forall (joinable PE) ms /\
  exists P L, history PE (pool_of PE ms []) (ops ++ repeat (same_inputs 3 3) 5) L P /\ L = [1; 1] /\ po_stopped P = None /\ launches PE P = [] /\ exists m, nth_error (po_members P) 1 = Some m /\ m_stopped m = false.
Proof.
  set (PE := ex_pool_env 6 1 1 false). set (ms := [new_member (ex_env []) [ScMaxSteps 0]; new_member hopeless []]). exists PE, ms, ([same_inputs 3 3; same_inputs 3 3])%Z.
  split; [exact isort_sorts|]. split; [constructor; [|constructor; [|constructor]]; apply new_joinable; [discriminate|reflexivity|discriminate|reflexivity]|].
  destruct (run_ops_check PE (pool_of PE ms []) ([same_inputs 3 3; same_inputs 3 3] ++ repeat (same_inputs 3 3) 5)%Z
    (fun P L => match po_stopped P, nth_error (po_members P) 1 with None, Some m => nat_list_eqb L [1; 1] && nat_list_eqb (launches PE P) [] && negb (m_stopped m) | _, _ => false end)) as (P & L & H & C); [vm_compute; reflexivity|].
  exists P, L. split; [exact H|]. destruct (po_stopped P); [discriminate C|]. destruct (nth_error (po_members P) 1) as [m|]; [|discriminate C]. apply andb_true_iff in C as [C1 C3]. apply andb_true_iff in C1 as [C1 C2]. unfold nat_list_eqb in C1, C2. do 2 destruct (list_eq_dec _ _ _); try discriminate. split; [assumption|]. split; [reflexivity|]. split; [assumption|]. exists m. split; [reflexivity|]. now apply negb_true_iff.
Qed.
Example C50_nonvacuous : let PE := ex_pool_env 6 1 100 false in let ms := [new_member (ex_env []) []; new_member (ex_env []) []; new_member (ex_env []) [ScMaxSteps 0]] in
  sorts (pe_sort PE) /\ Forall (joinable PE) ms /\ exists P L, history PE (pool_of PE ms []) [same_inputs 4 3; same_inputs 5 4; same_inputs 2 1]%Z L P /\
  (nat_list_eqb L [0; 1; 0] && nat_list_eqb (po_queue P) [1] && nat_list_eqb (map (fun m => c_steps (o_core (m_opt m))) (po_members P)) [2; 1; 0]) = true.
Proof.
  cbv zeta. split; [exact isort_sorts|]. split; [constructor; [|constructor; [|constructor; [|constructor]]]; apply new_joinable; first [discriminate|reflexivity]|].
  apply (run_ops_check _ _ _ (fun P L => nat_list_eqb L [0; 1; 0] && nat_list_eqb (po_queue P) [1] && nat_list_eqb (map (fun m => c_steps (o_core (m_opt m))) (po_members P)) [2; 1; 0])). vm_compute. reflexivity.
Qed.
Example C51_nonvacuous : let PE := ex_pool_env 6 2 100 false in let ms := [new_member (ex_env []) [ScMaxSteps 1]; new_member (ex_env []) [ScMaxSteps 2]] in
  Forall (joinable PE) ms /\ exists P L, history PE (pool_of PE ms []) [same_inputs 4 3; same_inputs 5 4]%Z L P /\ (forallb m_stopped (po_members P) && match po_stopped P with Some 2 => true | _ => false end) = true.
Proof.
  cbv zeta. split; [constructor; [|constructor; [|constructor]]; apply new_joinable; first [discriminate|reflexivity]|].
  apply (run_ops_check _ _ _ (fun P L => forallb m_stopped (po_members P) && match po_stopped P with Some 2 => true | _ => false end)). vm_compute. reflexivity.
Qed.
(** Joining a pool replaces the size of a member's fitness history by prediction_window,
    even if a stop condition of the member needs a larger one. *)
Theorem C25_pool_shrinks_window_refuted : exists PE m, joinable PE m /\ c_cap (o_core (m_opt m)) = 200 /\ In (ScMinProgress fzero 200) (o_scs (m_opt m)) /\
  exists m', po_members (push_back PE (new_pool PE) m) = [m'] /\ o_scs (m_opt m') = o_scs (m_opt m) /\ c_cap (o_core (m_opt m')) = 100.
Proof.
  exists (ex_pool_env 6 2 100 false), (new_member (ex_env []) [ScMinProgress fzero 200]). split; [apply new_joinable; [discriminate|reflexivity]|]. split; [vm_compute; reflexivity|]. split; [cbn; auto|]. eexists. split; [reflexivity|]. split; reflexivity.
Qed.
