(** * C51: the stop conditions a user adds to a pool *)
From Coq Require Import ZArith Bool Lia.
From Verif Require Import Prelude Flt FltFacts Flt32 Round8 FlatMap ParInfo ObjInfo Num MathTools Mes Optimizer OptimizerFacts Properties_Optimizer Properties_Optimizer4 Properties_ES3 Pool PoolFacts Properties_Pool Properties_Pool2 Properties_Pool3 Properties_Pool4.
#[local] Open Scope nat_scope.

(** ** Specification *)
(** the two conditions that only look at the pool's step count and best fitness *)
Definition simple (sc : stop_cond) : Prop := match sc with ScMaxSteps _ | ScTarget _ => True | _ => False end.
(** a limit on the steps is reached when the pool (not a member) has made that many; a target
    when the best fitness of the pool is better than it *)
Definition fires (PE : pool_env) (P : pool) (sc : stop_cond) : Prop :=
  match sc with
  | ScMaxSteps n => n <= c_steps (po_base P)
  | ScTarget t => exists b, pool_best_fitness P = Ok b /\ is_better (e_info (pe_env PE)) b t = true
  | _ => False
  end.

(** ** The conditions stay as they were added *)
Definition constant_pc (pc : pcond) : Prop := match pc with PcAll => True | PcBase ScAbort => True | PcBase (ScError None) => True | PcBase sc => simple sc end.
Lemma pc_test_constant PE P pc : constant_pc pc -> snd (fst (pc_test PE P pc)) = pc.
Proof.
  destruct pc as [|sc]; cbn [pc_test]; [destruct (all_stopped (po_members P)); reflexivity|]. intros H. destruct (_ && _); [reflexivity|]. destruct sc; cbn in H |- *; try contradiction; reflexivity.
Qed.
Lemma pc_list_constant PE l : Forall constant_pc l -> forall P i, snd (fst (pc_list PE P i l)) = l.
Proof.
  induction 1 as [|pc t H _ IH]; intros P i; cbn [pc_list]; [reflexivity|]. pose proof (pc_test_constant PE P pc H) as X. destruct (pc_test PE P pc) as [[P' pc'] [[|]|w|]]; cbn [fst snd] in *; subst pc'; try reflexivity.
  specialize (IH P' (S i)). destruct (pc_list PE P' (S i) t) as [[P'' t'] r]. cbn [fst snd] in *. now subst.
Qed.
Lemma pool_test_constant PE P : Forall constant_pc (po_conds P) -> po_conds (fst (pool_test PE P)) = po_conds P.
Proof.
  intros H. unfold pool_test. destruct (po_stopped P); [reflexivity|]. pose proof (pc_list_constant PE _ H P 0) as X. destruct (pc_list PE P 0 (po_conds P)) as [[P1 l] [[i|]|w|]]; cbn [fst snd] in *; exact X.
Qed.
Lemma pool_step_constant PE P inp : Forall constant_pc (po_conds P) -> po_conds (fst (pool_step PE P inp)) = po_conds P.
Proof.
  intros H. unfold pool_step. destruct (Nat.eqb (oi_dim (e_info (pe_env PE))) 0); [reflexivity|].
  set (P2 := psignal PE EPreStep _). assert (E2 : po_conds P2 = po_conds P) by (unfold P2; destruct (Nat.eqb _ 0); reflexivity). clearbody P2.
  pose proof (internal_conds PE P2 (pi_inputs inp) (pi_sched inp)) as [A _]. destruct (pool_internal_step PE P2 (pi_inputs inp) (pi_sched inp)) as [P3 r3]. cbn [fst] in A. rewrite E2 in A. destruct r3 as [ok|w|]; cbn [fst]; [|exact A|exact A].
  match goal with |- context [pool_test PE ?Q] => pose proof (pool_test_constant PE Q) as X; assert (EQ : po_conds Q = po_conds P) by (destruct ok, (pi_interrupt inp); exact A) end. rewrite EQ in X. exact (X H).
Qed.
Lemma history_constant PE P ops L P' : history PE P ops L P' -> Forall constant_pc (po_conds P) -> po_conds P' = po_conds P.
Proof.
  intros H. induction H as [P|P a P1 ops L P2 E H IH]; intros HC; [reflexivity|].
  assert (K : po_conds P1 = po_conds P).
  { destruct a as [i| |]; cbn [pool_exec] in E.
    - pose proof (pool_step_constant PE P i HC) as X. destruct (pool_step PE P i) as [Q [x|w|]]; try discriminate E. injection E as <-. exact X.
    - injection E as <-. reflexivity.
    - pose proof (pool_test_constant PE P HC) as X. destruct (pool_test PE P) as [Q [x|w|]]; try discriminate E. injection E as <-. exact X. }
  rewrite IH; [exact K|rewrite K; exact HC].
Qed.
Lemma pool_of_conds PE ms conds : Forall (joinable PE) ms -> po_conds (pool_of PE ms conds) = [PcBase ScAbort; PcBase (ScError None); PcAll] ++ map PcBase conds.
Proof.
  intros HJ. unfold pool_of. destruct (conds_frame conds (fold_left (push_back PE) ms (new_pool PE))) as (_ & _ & _ & _ & _ & _ & G). destruct (push_all PE ms (new_pool PE) (Forall_nil _) HJ) as (_ & _ & _ & _ & A & _). cbn zeta in *. rewrite G, A. reflexivity.
Qed.
Lemma simple_constant conds : Forall simple conds -> Forall constant_pc ([PcBase ScAbort; PcBase (ScError None); PcAll] ++ map PcBase conds).
Proof.
  intros H. do 3 (constructor; [exact I|]). induction H as [|sc l H _ IH]; [constructor|]. cbn [map]. constructor; [|exact IH]. destruct sc; try contradiction H; exact I.
Qed.

(** ** Testing them *)
Lemma view_steps P : c_steps (view P) = c_steps (po_base P).
Proof. unfold view. destruct (best_member P); reflexivity. Qed.
Lemma view_best P b : pool_best_fitness P = Ok b -> c_best_fit (view P) = b.
Proof. unfold pool_best_fitness, view. destruct (best_member P) as [m|]; [intros [= <-]; reflexivity|discriminate]. Qed.
Lemma pc_test_simple PE P sc P' pc' b : simple sc -> (forall i, po_best P = Some i -> nth_error (po_members P) i <> None) -> pc_test PE P (PcBase sc) = (P', pc', Ok b) -> P' = P /\ (b = true <-> fires PE P sc).
Proof.
  intros HS HB. destruct sc as [| | |t|n| | | |]; try contradiction HS; cbn [pc_test needs_best].
  - destruct (po_best P) as [i|] eqn:EB; cbn [andb]; [|discriminate]. cbn [sc_test]. intros X. assert (X1 : P = P') by congruence. assert (X2 : is_better (e_info (pe_env PE)) (c_best_fit (view P)) t = b) by congruence. split; [now symmetry|]. cbn [fires]. specialize (HB i eq_refl). destruct (nth_error (po_members P) i) as [m|] eqn:EM; [|contradiction].
    assert (EF : pool_best_fitness P = Ok (m_best m)) by (unfold pool_best_fitness, best_member; rewrite EB, EM; reflexivity). rewrite (view_best P _ EF) in X2. split; [intros ->; exists (m_best m); split; [exact EF|exact X2]|]. intros (x & Ex & Hx). rewrite EF in Ex. injection Ex as <-. rewrite <- X2. exact Hx.
  - cbn [andb sc_test]. rewrite view_steps. intros X. assert (X1 : P = P') by congruence. assert (X2 : Nat.leb n (c_steps (po_base P)) = b) by congruence. split; [now symmetry|]. cbn [fires]. rewrite <- X2. apply Nat.leb_le.
Qed.
Definition outcome_of (PE : pool_env) (P : pool) (conds : list stop_cond) (base : nat) (r : option nat) : Prop :=
  match r with
  | None => Forall (fun sc => ~ fires PE P sc) conds
  | Some k => exists before sc after, conds = before ++ sc :: after /\ k = base + length before /\ Forall (fun sc => ~ fires PE P sc) before /\ fires PE P sc
  end.
Lemma pc_list_simple PE conds : Forall simple conds -> forall P i P' l' r, (forall i, po_best P = Some i -> nth_error (po_members P) i <> None) -> pc_list PE P i (map PcBase conds) = (P', l', Ok r) ->
  outcome_of PE P conds i r.
Proof.
  induction 1 as [|sc l HS _ IH]; intros P i P' l' r HB; cbn [map pc_list]; [intros X; assert (E : r = None) by congruence; rewrite E; constructor|].
  destruct (pc_test PE P (PcBase sc)) as [[P1 pc1] [b|w|]] eqn:ET; try discriminate. destruct (pc_test_simple PE P sc P1 pc1 b HS HB ET) as [-> HF]. destruct b.
  - intros X. assert (E : r = Some i) by congruence. rewrite E. exists [], sc, l. split; [reflexivity|]. split; [cbn; lia|]. split; [constructor|apply HF; reflexivity].
  - destruct (pc_list PE P (S i) (map PcBase l)) as [[P2 t2] r2] eqn:EL. intros X. assert (E : r2 = Ok r) by congruence. rewrite E in EL. pose proof (IH P (S i) P2 t2 r HB EL) as O. assert (NF : ~ fires PE P sc) by (intros Y; apply HF in Y; discriminate Y).
    destruct r as [k|]; [|constructor; [exact NF|exact O]]. destruct O as (before & sc' & after & E1 & E2 & E3 & E4). exists (sc :: before), sc', after. split; [rewrite E1; reflexivity|]. split; [cbn [length]; lia|]. split; [constructor; assumption|exact E4].
Qed.
Lemma fires_with_members PE ever P ms : pool_inv PE ever P -> looked (po_members P) ms -> forall sc, fires PE (with_members P ms) sc <-> fires PE P sc.
Proof.
  intros [_ (HG & _ & HB & _)] HL sc. destruct sc as [| | |t|n| | | |]; cbn [fires with_members po_base]; try tauto.
  assert (EB : pool_best_fitness (with_members P ms) = pool_best_fitness P).
  { unfold pool_best_fitness, best_member. cbn [with_members po_best po_members]. destruct (po_best P) as [i|] eqn:Ei; [|reflexivity]. destruct (HB i eq_refl) as (_ & m & Em & _). destruct (looked_nth _ _ _ _ HL Em) as (m' & Em' & T). rewrite Em, Em'. rewrite (touched_best m m' (proj1 (Forall_nth _ _ _ _ HG Em)) T). reflexivity. }
  rewrite EB. tauto.
Qed.
(** In any state a pool can get into, when it is tested, was not interrupted and its members
    have not all stopped: it goes on if none of the added conditions is reached, and otherwise
    stops at the first (in the order in which they were added) that is.  (The conditions of
    the pool are numbered: 0 abort, 1 error, 2 all members, then the added ones.) *)
Theorem C51_user_conditions : forall PE ms conds ops L P P' r, sorts (pe_sort PE) -> Forall (joinable PE) ms -> Forall simple conds -> history PE (pool_of PE ms conds) ops L P ->
  po_stopped P = None -> c_interrupted (po_base P) = false -> ~ Forall (fun m => m_stopped m = true) (fst (all_stopped (po_members P))) ->
  pool_test PE P = (P', Ok r) ->
  match r with
  | None => Forall (fun sc => ~ fires PE P sc) conds
  | Some k => exists before sc after, conds = before ++ sc :: after /\ k = 3 + length before /\ Forall (fun sc => ~ fires PE P sc) before /\ fires PE P sc
  end.
Proof.
  intros PE ms conds ops L P P' r HS HJ HC H ES EI NA E. pose proof (history_constant PE _ _ _ _ H) as EC. rewrite (pool_of_conds PE ms conds HJ) in EC. specialize (EC (simple_constant conds HC)).
  destruct (pool_of_inv PE ms conds HJ) as [HI _]. destruct (history_inv _ _ _ _ _ HS H [] HI) as [I1 _]. cbn [app] in I1.
  pose proof (C51_condition (po_members P)) as HA. pose proof (all_stopped_looked (po_members P)) as HL.
  unfold pool_test in E. rewrite ES, EC in E. cbn [app pc_list pc_test needs_best andb sc_test] in E. assert (HV : c_interrupted (view P) = c_interrupted (po_base P)) by (unfold view; destruct (best_member P); reflexivity). rewrite HV, EI in E. cbn iota in E.
  destruct (all_stopped (po_members P)) as [ms' [[|]|w|]]; cbn [fst] in *; try discriminate E; [destruct (HA ms' true eq_refl) as [_ B]; destruct (NA (proj1 B eq_refl))|].
  destruct (pc_list PE (with_members P ms') 3 (map PcBase conds)) as [[P1 l1] r1] eqn:EL. cbn beta iota zeta in E.
  assert (E1 : r1 = Ok r) by (destruct r1 as [[k|]|w|]; congruence). rewrite E1 in EL. clear E.
  assert (BX : forall i, po_best (with_members P ms') = Some i -> nth_error (po_members (with_members P ms')) i <> None).
  { cbn [with_members po_best po_members]. intros i Ei. destruct I1 as [_ (_ & _ & HB & _)]. destruct (HB i Ei) as (_ & m & Em & _). destruct (looked_nth _ _ _ _ HL Em) as (m' & Em' & _). congruence. }
  pose proof (pc_list_simple PE conds HC _ _ _ _ _ BX EL) as O. pose proof (fires_with_members PE L P ms' I1 HL) as FW. destruct r as [k|]; cbn [outcome_of] in O.
  - destruct O as (before & sc & after & X1 & X2 & X3 & X4). exists before, sc, after. split; [exact X1|]. split; [exact X2|]. split; [|apply FW; exact X4]. eapply Forall_impl; [|exact X3]. intros a Ha Hf. apply Ha, FW, Hf.
  - eapply Forall_impl; [|exact O]. intros a Ha Hf. apply Ha, FW, Hf.
Qed.
(** Before a pool has a best member (before its first step returned), a target cannot be
    tested: the pool cannot be told to go on, and if nothing else stops it, the program is in
    error (a failed assertion). *)
Theorem C51_target_needs_best : forall PE ms conds ops L P P' r t, sorts (pe_sort PE) -> Forall (joinable PE) ms -> Forall simple conds -> In (ScTarget t) conds -> history PE (pool_of PE ms conds) ops L P ->
  po_stopped P = None -> po_best P = None -> pool_test PE P = (P', r) -> r <> Ok None.
Proof.
  intros PE ms conds ops L P P' r t HS HJ HC HT H ES EB E ->. pose proof (history_constant PE _ _ _ _ H) as EC. rewrite (pool_of_conds PE ms conds HJ) in EC. specialize (EC (simple_constant conds HC)).
  unfold pool_test in E. rewrite ES, EC in E. cbn [app pc_list pc_test needs_best andb sc_test] in E. destruct (c_interrupted (view P)); [discriminate E|]. destruct (all_stopped (po_members P)) as [ms' [[|]|w|]]; try discriminate E.
  assert (X : forall l, In (ScTarget t) l -> forall Q i Q' l', po_best Q = None -> Forall simple l -> pc_list PE Q i (map PcBase l) <> (Q', l', Ok None)).
  { clear. induction l as [|sc l IH]; intros HI Q i Q' l' EB HC; [destruct HI|]. inversion HC as [|? ? H1 H2]; subst. cbn [map pc_list]. destruct HI as [->|HI].
    - cbn [pc_test needs_best andb]. rewrite EB. discriminate.
    - destruct (pc_test PE Q (PcBase sc)) as [[Q1 pc1] [b|w|]] eqn:ET; try discriminate. destruct (pc_test_simple PE Q sc Q1 pc1 b H1 ltac:(intros j Ej; congruence) ET) as [-> _]. destruct b; [discriminate|]. specialize (IH HI Q (S i)). destruct (pc_list PE Q (S i) (map PcBase l)) as [[Q2 t2] r2]. intros Y. apply (IH Q2 t2 EB H2). congruence. }
  specialize (X conds HT (with_members P ms') 3). destruct (pc_list PE (with_members P ms') 3 (map PcBase conds)) as [[P1 l1] r1]. apply (X P1 l1 EB HC). destruct r1 as [[k|]|w|]; congruence.
Qed.
Theorem C51_target_before_best_refuted : exists PE ms t, sorts (pe_sort PE) /\ Forall (joinable PE) ms /\ snd (pool_test PE (pool_of PE ms [ScTarget t])) = Undef.
Proof.
  exists (ex_pool_env 6 2 100 false), [new_member (ex_env []) []], (fofZ 3). split; [exact isort_sorts|]. split; [constructor; [|constructor]; apply new_joinable; [discriminate|reflexivity]|].
  assert (X : match snd (pool_test (ex_pool_env 6 2 100 false) (pool_of (ex_pool_env 6 2 100 false) [new_member (ex_env []) []] [ScTarget (fofZ 3)])) with Undef => true | _ => false end = true) by (vm_compute; reflexivity).
  destruct (snd (pool_test _ _)); try discriminate X. reflexivity.
Qed.
(** A pool of two with a limit of 5 steps and the target 3: after a step with the best 4 it
    goes on; after a second step with the best 2 it has stopped at the target. *)
Example C51_user_nonvacuous : let PE := ex_pool_env 6 2 100 false in let ms := [new_member (ex_env []) []; new_member (ex_env []) []] in let conds := [ScMaxSteps 5; ScTarget (fofZ 3)] in
  sorts (pe_sort PE) /\ Forall (joinable PE) ms /\ Forall simple conds /\
  (exists P L, history PE (pool_of PE ms conds) [inputs_of [(4, 9); (6, 5)]]%Z L P /\ match po_stopped P, snd (pool_test PE P) with None, Ok None => true | _, _ => false end = true) /\
  (exists P L, history PE (pool_of PE ms conds) [inputs_of [(4, 9); (6, 5)]; inputs_of [(7, 8); (2, 9)]]%Z L P /\ match po_stopped P with Some k => Nat.eqb k 4 | _ => false end = true).
Proof.
  cbv zeta. split; [exact isort_sorts|]. split; [constructor; [|constructor; [|constructor]]; apply new_joinable; [discriminate|reflexivity|discriminate|reflexivity]|]. split; [constructor; [exact I|constructor; [exact I|constructor]]|]. split.
  - apply (run_ops_check _ _ _ (fun P L => match po_stopped P, snd (pool_test (ex_pool_env 6 2 100 false) P) with None, Ok None => true | _, _ => false end)). vm_compute. reflexivity.
  - apply (run_ops_check _ _ _ (fun P L => match po_stopped P with Some k => Nat.eqb k 4 | _ => false end)). vm_compute. reflexivity.
Qed.
