(** * C49, C50, C51: the optimizer pool (theorems) *)
From Coq Require Import ZArith Bool Lia Permutation.
From Verif Require Import Prelude Flt FltFacts Flt32 Round8 FlatMap ParInfo ObjInfo Num MathTools Mes Optimizer OptimizerFacts Properties_Optimizer Properties_ES3 Pool PoolFacts Properties_Pool.
#[local] Open Scope nat_scope.

(** ** C49 *)
Lemma history_members PE P ops L P' : sorts (pe_sort PE) -> history PE P ops L P' -> forall ever, pool_inv PE ever P ->
  length (po_members P') = length (po_members P) /\
  forall j m, nth_error (po_members P) j = Some m -> exists m', nth_error (po_members P') j = Some m' /\
    at_least (e_info (pe_env PE)) (m_best m) (m_best m') /\ (~ In j L -> m_best m' = m_best m /\ c_steps (o_core (m_opt m')) = c_steps (o_core (m_opt m))).
Proof.
  intros HS H. induction H as [P|P a P1 ops L P2 E H IH]; intros ever HI; [split; [reflexivity|]; intros j m Ej; exists m; split; [exact Ej|split; [now left|auto]]|].
  pose proof (exec_inv PE ever P a P1 HS HI E) as [I1 _]. destruct (IH _ I1) as [L2 M2].
  assert (TS : forall m m', good (e_info (pe_env PE)) m -> touched m m' -> m_best m' = m_best m /\ c_steps (o_core (m_opt m')) = c_steps (o_core (m_opt m))).
  { intros m m' [K _] T. split; [now apply touched_best|]. destruct (T K) as (_ & X & _). apply (f_equal c_steps) in X. exact X. }
  assert (HG : Forall (good (e_info (pe_env PE))) (po_members P)) by (destruct HI as [_ (X & _)]; exact X).
  assert (ST : length (po_members P1) = length (po_members P) /\ forall j m, nth_error (po_members P) j = Some m -> exists m', nth_error (po_members P1) j = Some m' /\
    at_least (e_info (pe_env PE)) (m_best m) (m_best m') /\ (~ In j (match a with PoStep _ => launches PE P | _ => [] end) -> m_best m' = m_best m /\ c_steps (o_core (m_opt m')) = c_steps (o_core (m_opt m)))).
  { assert (LK : looked (po_members P) (po_members P1) -> length (po_members P1) = length (po_members P) /\ forall j m, nth_error (po_members P) j = Some m -> exists m', nth_error (po_members P1) j = Some m' /\ at_least (e_info (pe_env PE)) (m_best m) (m_best m') /\ (True -> m_best m' = m_best m /\ c_steps (o_core (m_opt m')) = c_steps (o_core (m_opt m)))).
    { intros HL. split; [now apply looked_length|]. intros j m Ej. destruct (looked_nth _ _ _ _ HL Ej) as (m' & E' & T). exists m'. split; [exact E'|]. destruct (TS m m' (Forall_nth _ _ _ _ HG Ej) T) as [X Y]. split; [left; exact X|auto]. }
    destruct a as [i| |]; cbn [pool_exec] in E.
    - destruct (pool_step PE P i) as [P1' r] eqn:ES. destruct r as [x|w|]; cbn in E; try discriminate E. injection E as ->. destruct (Nat.eq_dec (oi_dim (e_info (pe_env PE))) 0) as [D|D]; [unfold pool_step in ES; rewrite D in ES; discriminate ES|].
      pose proof (pool_step_inv PE ever P i P1 (Ok x) HS HI D ES ltac:(discriminate)) as (_ & _ & _ & [A B] & _). split; [exact A|]. intros j m Ej. destruct (B j m Ej) as (m' & E' & M). exists m'. split; [exact E'|]. pose proof (Forall_nth _ _ _ _ HG Ej) as HGm. destruct (existsb (Nat.eqb j) (launches PE P)) eqn:EX; cbn [moved] in M.
      + destruct M as (m1 & T1 & T2). split; [|intros X; apply existsb_eqb in EX; contradiction]. pose proof (TS _ _ HGm T1) as [B1 _]. destruct (T1 (proj1 HGm)) as (X1 & _ & K1 & _). pose proof (m_step_facts m1 (pi_inputs i j) K1) as (F1 & F2 & F3 & _). rewrite (touched_best _ _ F2 T2). rewrite <- B1.
        eapply at_least_dir; [|exact F3]. rewrite X1. exact (proj2 HGm).
      + destruct (TS _ _ HGm M) as [X Y]. split; [left; exact X|auto].
    - injection E as <-. destruct (LK (looked_interrupt _)) as [A B]. split; [exact A|]. intros j m Ej. destruct (B j m Ej) as (m' & C & D & F). exists m'. auto.
    - pose proof (pool_test_looked PE P) as HL. destruct (pool_test PE P) as [P1' r]. destruct r as [x|w|]; cbn in E; try discriminate E. injection E as ->. destruct (LK HL) as [A B]. split; [exact A|]. intros j m Ej. destruct (B j m Ej) as (m' & C & D & F). exists m'. auto. }
  destruct ST as [L1 M1]. split; [congruence|]. intros j m Ej. destruct (M1 j m Ej) as (m1 & E1 & A1 & N1). destruct (M2 j m1 E1) as (m2 & E2 & A2 & N2). exists m2. split; [exact E2|]. split; [eapply at_least_trans; eassumption|].
  intros NI. destruct N1 as [X1 Y1]; [intros X; apply NI, in_app_iff; now right|]. destruct N2 as [X2 Y2]; [intros X; apply NI, in_app_iff; now left|]. split; congruence.
Qed.
(** The pool's best fitness and best point are those of one of the members that were
    stepped, and no member that was stepped has a better one. *)
Theorem C49_pool_best_is_best_of_stepped : forall PE ms conds ops L P, sorts (pe_sort PE) -> Forall (joinable PE) ms ->
  history PE (pool_of PE ms conds) ops L P -> L <> [] ->
  exists b mb, In b L /\ nth_error (po_members P) b = Some mb /\
    pool_best_fitness P = Ok (c_best_fit (o_core (m_opt mb))) /\ pool_best_point P = Ok (c_best_pt (o_core (m_opt mb))) /\
    forall j m, In j L -> nth_error (po_members P) j = Some m -> is_better (e_info (pe_env PE)) (c_best_fit (o_core (m_opt m))) (c_best_fit (o_core (m_opt mb))) = false.
Proof.
  intros PE ms conds ops L P HS HJ H HL. destruct (pool_of_inv PE ms conds HJ) as [HI _]. destruct (history_inv _ _ _ _ _ HS H [] HI) as [[_ (_ & H2 & H3 & H4)] _]. cbn [app] in *.
  destruct (po_best P) as [b|] eqn:EB.
  - destruct (H3 b eq_refl) as (A & mb & B & _ & D). specialize (D (fun x => x)). exists b, mb. split; [exact A|]. split; [exact B|]. unfold pool_best_fitness, pool_best_point, best_member. rewrite EB, B. split; [reflexivity|]. split; [reflexivity|].
    intros j m Hj Ej. specialize (H4 j m Hj (fun x => x) Ej). rewrite <- D in H4. exact H4.
  - destruct L as [|j L]; [congruence|]. destruct (H2 eq_refl j (or_introl eq_refl)).
Qed.
(** With members that were new when they joined, no member at all has a better one. *)
Theorem C49_pool_best_is_best_of_all : forall PE ms conds ops L P, sorts (pe_sort PE) -> Forall (joinable PE) ms ->
  Forall (fun m => c_best_fit (o_core (m_opt m)) = worst_fitness (e_info (pe_env PE))) ms ->
  history PE (pool_of PE ms conds) ops L P -> L <> [] ->
  exists f, pool_best_fitness P = Ok f /\
  forall m, In m (po_members P) -> is_better (e_info (pe_env PE)) (c_best_fit (o_core (m_opt m))) f = false.
Proof.
  intros PE ms conds ops L P HS HJ HW H HL. destruct (C49_pool_best_is_best_of_stepped PE ms conds ops L P HS HJ H HL) as (b & mb & Hb & Eb & EF & _ & HA). exists (m_best mb). split; [exact EF|]. intros m Hm. apply In_nth_error in Hm as (j & Ej).
  destruct (in_dec Nat.eq_dec j L) as [Hj|Hj]; [exact (HA j m Hj Ej)|]. destruct (pool_of_inv PE ms conds HJ) as [HI _]. destruct (history_members _ _ _ _ _ HS H [] HI) as [HN HM].
  assert (W0 : forall i m0, nth_error (po_members (pool_of PE ms conds)) i = Some m0 -> m_best m0 = worst_fitness (e_info (pe_env PE))).
  { intros i m0 E0. unfold pool_of in E0. rewrite (proj1 (conds_frame conds _)) in E0. destruct (push_all PE ms (new_pool PE) (Forall_nil _) HJ) as (_ & _ & _ & _ & _ & X & _). cbn zeta in X. apply (map_nth_error m_best) in E0. rewrite X in E0. cbn [new_pool po_members map app] in E0. apply nth_error_In in E0. apply in_map_iff in E0 as (m1 & <- & I1). rewrite Forall_forall in HW. exact (HW m1 I1). }
  assert (LT : forall i mi, nth_error (po_members P) i = Some mi -> exists m0, nth_error (po_members (pool_of PE ms conds)) i = Some m0).
  { intros i mi Ei. destruct (nth_error (po_members (pool_of PE ms conds)) i) eqn:E0; [eauto|]. apply nth_error_None in E0. assert (i < length (po_members P)) by (apply nth_error_Some; congruence). lia. }
  destruct (LT j m Ej) as (m0 & E0). destruct (HM j m0 E0) as (m' & E' & _ & N). rewrite Ej in E'. injection E' as <-. destruct (N Hj) as [X _]. change (is_better (e_info (pe_env PE)) (m_best m) (m_best mb) = false). rewrite X, (W0 _ _ E0).
  destruct (LT b mb Eb) as (mb0 & Eb0). destruct (HM b mb0 Eb0) as (mb' & Eb' & A & _). rewrite Eb in Eb'. injection Eb' as <-. rewrite (W0 _ _ Eb0) in A. now apply at_least_not_better.
Qed.
(** Over any further calls the pool's best never gets worse. *)
Theorem C49_never_worse : forall PE ms conds ops1 L1 P1 ops2 L2 P2 f, sorts (pe_sort PE) -> Forall (joinable PE) ms ->
  history PE (pool_of PE ms conds) ops1 L1 P1 -> history PE P1 ops2 L2 P2 -> pool_best_fitness P1 = Ok f ->
  exists f', pool_best_fitness P2 = Ok f' /\ (f' = f \/ is_better (e_info (pe_env PE)) f' f = true).
Proof.
  intros PE ms conds ops1 L1 P1 ops2 L2 P2 f HS HJ H1 H2 Hf. destruct (pool_of_inv PE ms conds HJ) as [HI _]. destruct (history_inv _ _ _ _ _ HS H1 [] HI) as [I1 _]. destruct (history_inv _ _ _ _ _ HS H2 _ I1) as [I2 M2].
  assert (V : forall ever P b, pool_inv PE ever P -> po_best P = Some b -> pool_best_fitness P = Ok (po_best_fit P)).
  { intros ever P b [_ (_ & _ & H3 & _)] Eb. destruct (H3 b Eb) as (_ & mb & B & _ & D). unfold pool_best_fitness, best_member. rewrite Eb, B. now rewrite (D (fun x => x)). }
  assert (exists b, po_best P1 = Some b) as (b & Eb) by (unfold pool_best_fitness, best_member in Hf; destruct (po_best P1); [eauto|discriminate]). rewrite (V _ _ _ I1 Eb) in Hf. injection Hf as <-. destruct (M2 b Eb) as ((b' & Eb') & A). exists (po_best_fit P2). split; [exact (V _ _ _ I2 Eb')|exact A].
Qed.

(** ** C50 *)
(** A pool step, whether or not it throws: it steps at most concurrent_optimizations
    members, each once, and only looks at the others; the queue stays free of duplicates. *)
Theorem C50_step_shape : forall PE ms conds ops L0 P inp P' r, sorts (pe_sort PE) -> Forall (joinable PE) ms -> oi_dim (e_info (pe_env PE)) <> 0 ->
  history PE (pool_of PE ms conds) ops L0 P -> pool_step PE P inp = (P', r) -> r <> Undef ->
  let L := launches PE P in
  NoDup L /\ length L <= pe_concurrent PE /\ (forall i, In i L -> i < length (po_members P)) /\
  length (po_members P') = length (po_members P) /\
  (forall i m, nth_error (po_members P) i = Some m -> exists m', nth_error (po_members P') i = Some m' /\
     moved (existsb (Nat.eqb i) L) (pi_inputs inp i) m m') /\
  NoDup (po_queue P').
Proof.
  intros PE ms conds ops L0 P inp P' r HS HJ HD H E HU. destruct (pool_of_inv PE ms conds HJ) as [HI _]. destruct (history_inv _ _ _ _ _ HS H [] HI) as [I1 _].
  destruct (pool_step_inv PE _ P inp P' r HS I1 HD E HU) as (A & B & C & [D F] & [G _] & _). cbn zeta. auto 8.
Qed.
(** In numbers: the step counts. *)
Lemma m_step_count m i : member_ok m -> let n := c_steps (o_core (m_opt m)) in let n' := c_steps (o_core (m_opt (fst (m_step m i)))) in n' = n \/ n' = S n.
Proof.
  intros [K _]. unfold m_step, step. destruct (Nat.eqb _ 0); [cbn; auto|].
  set (o2 := {| o_core := o_core (m_opt m); o_scs := _; o_stopped := _; o_trace := _ |}). pose proof (evaluate_step_facts (m_env m) o2 (si_pop i) (si_results i) K) as (H1 & _).
  assert (HS : c_steps (o_core (fst (evaluate_step (m_env m) o2 (si_pop i) (si_results i)))) = c_steps (o_core (m_opt m))).
  { unfold evaluate_step. destruct (too_many_errors _ _); [destruct (set_error _ _); reflexivity|]. cbv zeta. destruct (nth_error _ (find_best_fitness _ _)); [|reflexivity]. destruct (nth_error (si_pop i) _); [|reflexivity]. destruct (negb _); [reflexivity|]. cbn [fst o_core]. unfold update_fitness_tracking.
    destruct (Nat.ltb 0 _); destruct (is_better _ _ _); reflexivity. }
  destruct (evaluate_step (m_env m) o2 (si_pop i) (si_results i)) as [o3 [ok|w|]]; cbn [fst] in *; [|left; exact HS|left; exact HS].
  set (o5 := {| o_core := (if si_interrupt i then _ else _); o_scs := _; o_stopped := _; o_trace := _ |}). assert (K5 : cache_ok (m_env m) (o_core o5)) by (unfold o5; cbn [o_core]; destruct ok, (si_interrupt i); exact H1).
  pose proof (test_stop_core (m_env m) o5 K5) as [T _]. destruct (test_stop (m_env m) o5) as [o r]. cbn [fst m_with m_opt] in *. apply (f_equal c_steps) in T. change (c_steps (o_core o) = c_steps (o_core o5)) in T. rewrite T, <- HS. unfold o5. cbn [o_core]. destruct ok, (si_interrupt i); cbn; auto.
Qed.
Theorem C50_step_counts : forall PE ms conds ops L0 P inp P' r i m, sorts (pe_sort PE) -> Forall (joinable PE) ms -> oi_dim (e_info (pe_env PE)) <> 0 ->
  history PE (pool_of PE ms conds) ops L0 P -> pool_step PE P inp = (P', r) -> r <> Undef -> nth_error (po_members P) i = Some m ->
  exists m', nth_error (po_members P') i = Some m' /\
    (c_steps (o_core (m_opt m')) = c_steps (o_core (m_opt m)) \/ (In i (launches PE P) /\ c_steps (o_core (m_opt m')) = S (c_steps (o_core (m_opt m))))).
Proof.
  intros PE ms conds ops L0 P inp P' r i m HS HJ HD H E HU Ei. destruct (C50_step_shape PE ms conds ops L0 P inp P' r HS HJ HD H E HU) as (_ & _ & _ & _ & B & _). destruct (B i m Ei) as (m' & E' & M). exists m'. split; [exact E'|].
  destruct (pool_of_inv PE ms conds HJ) as [HI _]. destruct (history_inv _ _ _ _ _ HS H [] HI) as [[_ (HG & _)] _]. pose proof (Forall_nth _ _ _ _ HG Ei) as [K _].
  assert (TS : forall a b, member_ok a -> touched a b -> c_steps (o_core (m_opt b)) = c_steps (o_core (m_opt a)) /\ member_ok b) by (intros a b Ka T; destruct (T Ka) as (_ & X & Y & _); apply (f_equal c_steps) in X; auto).
  destruct (existsb (Nat.eqb i) (launches PE P)) eqn:EX; cbn [moved] in M; [|left; apply (TS m m' K M)]. destruct M as (m1 & T1 & T2). destruct (TS _ _ K T1) as [X1 K1]. pose proof (m_step_facts m1 (pi_inputs inp i) K1) as (_ & K2 & _). destruct (TS _ _ K2 T2) as [X2 _]. rewrite X2, <- X1. destruct (m_step_count m1 (pi_inputs inp i) K1) as [X|X]; rewrite X; [now left|right]. split; [now apply existsb_eqb|reflexivity].
Qed.
