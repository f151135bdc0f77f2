(** * C64: the pool warms its members up evenly and serves its queue in order.

    Members that have not completed prediction_start steps are "warming up".  Specification:
    [times i L] is how often a step of member [i] was started. *)
From Coq Require Import ZArith Bool Lia Permutation.
From Verif Require Import Prelude Flt FltFacts Flt32 Round8 FlatMap ParInfo ObjInfo Num MathTools Mes Optimizer OptimizerFacts Properties_Optimizer Properties_ES3 Pool PoolFacts Properties_Pool Properties_Pool2 Properties_Pool3 Properties_Pool4 Properties_Optimizer4 Properties_Evaluator.
#[local] Open Scope nat_scope.

Definition times (i : nat) (L : list nat) : nat := count_occ Nat.eq_dec L i.
Definition warming_up (PE : pool_env) (m : member) : Prop :=
  m_stopped m = false /\ c_steps (o_core (m_opt m)) < pe_start PE.
Fixpoint steps_in (ops : list pool_op) : nat :=
  match ops with [] => 0 | PoStep _ :: t => S (steps_in t) | _ :: t => steps_in t end.

(** ** What time does to a member *)
Definition later (m m' : member) : Prop :=
  (m_stopped m = true -> m_stopped m' = true) /\ c_steps (o_core (m_opt m)) <= c_steps (o_core (m_opt m')).
Lemma later_warm PE m m' : later m m' -> warming_up PE m' -> warming_up PE m.
Proof. intros [H1 H2] [W1 W2]. split; [destruct (m_stopped m); [rewrite H1 in W1; congruence|reflexivity]|lia]. Qed.
Lemma touched_later m m' : member_ok m -> touched m m' -> later m m'.
Proof. intros K T. destruct (T K) as (_ & X & _ & S). split; [exact S|]. apply (f_equal c_steps) in X. change (c_steps (o_core (m_opt m')) = c_steps (o_core (m_opt m))) in X. lia. Qed.
Lemma moved_later b i m m' : member_ok m -> moved b i m m' -> later m m'.
Proof.
  intros K. destruct b; cbn [moved]; [|now apply touched_later]. intros (m1 & T1 & T2). destruct (T1 K) as (_ & _ & K1 & _).
  pose proof (m_step_facts m1 i K1) as (_ & K2 & _ & S2). pose proof (m_step_count m1 i K1) as C. cbv zeta in C.
  destruct (touched_later _ _ K T1) as [A1 A2], (touched_later _ _ K2 T2) as [B1 B2]. split; [auto|]. lia.
Qed.
Lemma moved_warm PE inp L ms ms' : Forall member_ok ms -> stepped_once inp L ms ms' -> Forall (warming_up PE) ms' -> Forall (warming_up PE) ms.
Proof.
  intros HK [_ H] W. apply Forall_forall. intros m Hm. apply In_nth_error in Hm as (i & Ei). destruct (H i m Ei) as (m' & E' & M).
  eapply later_warm; [eapply moved_later; [exact (Forall_nth _ _ _ _ HK Ei)|exact M]|exact (Forall_nth _ _ _ _ W E')].
Qed.
Lemma looked_warm PE ms ms' : Forall member_ok ms -> looked ms ms' -> Forall (warming_up PE) ms' -> Forall (warming_up PE) ms.
Proof. intros HK H. apply (moved_warm PE (fun _ => {| si_pop := []; si_results := []; si_interrupt := false |}) [] ms ms' HK). now apply looked_stepped. Qed.

(** ** A pool step, seen from the members after refilling *)
Lemma pool_step_from_refill PE ever P inp P' x : sorts (pe_sort PE) -> pool_inv PE ever P -> pool_step PE P inp = (P', Ok x) ->
  snd (refill PE P) = Ok tt /\ stepped_once (pi_inputs inp) (launches PE P) (po_members (fst (refill PE P))) (po_members P').
Proof.
  intros HS HI E. unfold pool_step in E. destruct (Nat.eqb _ 0); [discriminate E|].
  set (P2 := psignal PE EPreStep (if Nat.eqb (c_steps (po_base P)) 0 then psignal PE EStart P else P)) in *.
  assert (EL : launches PE P2 = launches PE P) by (unfold P2; destruct (Nat.eqb _ 0); now rewrite ?launches_signal).
  assert (ER : po_members (fst (refill PE P2)) = po_members (fst (refill PE P)) /\ snd (refill PE P2) = snd (refill PE P)).
  { unfold P2, psignal. destruct (Nat.eqb _ 0); rewrite !refill_trace; split; reflexivity. }
  assert (HI2 : pool_inv PE ever P2). { apply (inv_looked PE ever P); [exact HI|..]; unfold P2; destruct (Nat.eqb _ 0); try reflexivity; apply looked_refl. }
  destruct ER as [ER1 ER2]. rewrite <- EL, <- ER1, <- ER2. clear EL ER1 ER2 HI. clearbody P2.
  destruct (pool_internal_step PE P2 (pi_inputs inp) (pi_sched inp)) as [P3 [ok|w|]] eqn:EI; try discriminate E.
  assert (ST : snd (refill PE P2) = Ok tt /\ stepped_once (pi_inputs inp) (launches PE P2) (po_members (fst (refill PE P2))) (po_members P3)).
  { destruct HI2 as [HQ HB]. unfold pool_internal_step in EI. destruct (po_members P2) as [|m0 mt] eqn:EM; [discriminate EI|]. clear EM m0 mt.
    unfold launches. pose proof (refill_looked PE P2) as HL. pose proof (refill_frame PE P2) as (F1 & F2 & F3 & F4). pose proof (refill_queue PE P2 HS HQ) as [Q1 Q2].
    destruct (refill PE P2) as [P1 [[]|w|]]; cbn [fst snd] in *; try discriminate EI. split; [reflexivity|].
    set (L := firstn (pe_concurrent PE) (po_queue P1)) in *. set (PQ := with_queue P1 (skipn (pe_concurrent PE) (po_queue P1))) in *.
    destruct (collect PE L (pi_inputs inp) (pi_sched inp) 0 PQ [] L) as [P2' r2] eqn:EC. destruct r2 as [u|w|]; cbn [obind] in EI; try discriminate EI. injection EI as <- _.
    assert (HNL : NoDup L). { apply (NoDup_prefix _ (skipn (pe_concurrent PE) (po_queue P1))). unfold L. now rewrite firstn_skipn. }
    assert (HRL : forall i, In i L -> i < length (po_members PQ)) by (intros i Hi; apply Q2; eapply firstn_incl, Hi).
    assert (HF : flight_ok (pi_inputs inp) (po_members PQ) (po_members PQ, [])) by (split; [reflexivity|]; intros i m Em; exists m; split; [exact Em|apply touched_refl]).
    assert (HB1 : best_inv (e_info (pe_env PE)) (ever ++ L) L PQ). { apply best_inv_start. apply (best_inv_looked _ _ _ P2); [exact HB|exact HL|exact F1|exact F2]. }
    pose proof (collect_spec PE L (pi_inputs inp) (pi_sched inp) (ever ++ L) (po_members PQ) L 0 PQ [] P2' (Ok u) EC ltac:(discriminate) HNL (incl_refl L) (incl_appr ever (incl_refl L)) HRL (fun i Hi => or_introl Hi) (incl_nil_l L) HF HB1) as (C1 & _).
    exact C1. }
  destruct ST as [ST0 ST]. split; [exact ST0|].
  set (P6 := if pi_interrupt inp then _ else _) in E.
  assert (HL6 : looked (po_members P3) (po_members P6)) by (unfold P6; destruct ok, (pi_interrupt inp); try apply looked_interrupt; apply looked_refl).
  pose proof (pool_test_looked PE P6) as HL7. rewrite E in HL7. cbn [fst] in HL7.
  eapply stepped_looked; [apply looked_refl|exact ST|exact (looked_trans _ _ _ HL6 HL7)].
Qed.

Lemma count_true_firstn act i : count_true (firstn i act) <= i.
Proof. unfold count_true. etransitivity; [apply filter_length_le|]. rewrite firstn_length. lia. Qed.

Lemma best_not_worst o : is_better o (best_fitness_value o) (worst_fitness o) = true.
Proof. unfold is_better, best_fitness_value, worst_fitness. destruct (oi_minimize o); vm_compute; reflexivity. Qed.

(** If everybody is warming up, a new queue holds everybody. *)
Lemma warm_queue PE P P1 : sorts (pe_sort PE) -> Forall member_ok (po_members P) -> po_queue P = [] -> refill PE P = (P1, Ok tt) ->
  Forall (warming_up PE) (po_members P1) -> length (po_members P) <= pe_active PE -> 0 < pe_concurrent PE ->
  forall i, i < length (po_members P) -> In i (po_queue P1).
Proof.
  intros HS HK EQ E W HA HC. destruct (C50_new_queue PE P P1 HS HK EQ E) as (preds & EP & HLen & _ & _ & _ & _ & HX).
  destruct (predictions PE 0 (po_members P)) as [ms r] eqn:EPR. cbn [snd] in EP. subst r.
  destruct (C50_predictions PE _ _ _ HK EPR) as (act & A1 & A2 & A3).
  assert (HL : looked ms (po_members P1)).
  { unfold refill in E. rewrite EQ, EPR in E. destruct (existsb fisnan preds); [discriminate E|].
    pose proof (fill_looked PE preds (sorted_indices (pe_sort PE) (is_better (e_info (pe_env PE))) preds) ms []) as HF.
    destruct (fill PE preds ms _ []) as [[ms' q] r]. destruct r as [u|w|]; try discriminate E. cbn [obind] in E. destruct (_ && _); [discriminate E|]. injection E as <-. exact HF. }
  assert (HKm : Forall member_ok ms).
  { apply Forall_forall. intros m' Hm'. apply In_nth_error in Hm' as (i & Ei). pose proof (predictions_looked PE (po_members P) 0) as HL0. rewrite EPR in HL0. cbn [fst] in HL0.
    destruct (looked_nth_back _ _ _ _ HL0 Ei) as (m & Em & T). destruct (T (Forall_nth _ _ _ _ HK Em)) as (_ & _ & X & _). exact X. }
  assert (Wm := looked_warm PE _ _ HKm HL W).
  assert (ALL : forall i x, nth_error preds i = Some x -> x = best_fitness_value (e_info (pe_env PE))).
  { intros i x Ex. assert (LI : i < length (po_members P)) by (rewrite <- HLen; apply nth_error_Some; congruence).
    destruct (nth_error (po_members P) i) as [m|] eqn:Em; [|apply nth_error_None in Em; lia].
    destruct (A3 i m Em) as (m' & y & b & B1 & B2 & B3 & B4). rewrite Ex in B2. injection B2 as <-.
    destruct (Forall_nth _ _ _ _ Wm B1) as [W1 W2]. destruct b.
    - destruct B4 as [_ B4]. pose proof (predictions_looked PE (po_members P) 0) as HL0. rewrite EPR in HL0. cbn [fst] in HL0.
      destruct (looked_nth _ _ _ _ HL0 Em) as (m2 & E2 & T). rewrite B1 in E2. injection E2 as <-.
      destruct (touched_later _ _ (Forall_nth _ _ _ _ HK Em) T) as [_ X]. destruct (Nat.leb_spec (pe_start PE) (c_steps (o_core (m_opt m)))); [lia|exact B4].
    - destruct B4 as [_ [B4|B4]]; [congruence|]. pose proof (count_true_firstn act i). lia. }
  destruct HX as [HX|(j & x & Ej & Nj & Hbest & [(m & Em & Sm)|(Hlen & Hq)])]; [exact HX| |].
  - destruct (Forall_nth _ _ _ _ W Em) as [W1 _]. congruence.
  - exfalso. destruct (po_queue P1) as [|i q] eqn:EQ1; [cbn in Hlen; lia|].
    assert (LI : i < length preds).
    { rewrite HLen. rewrite <- (looked_length _ _ (refill_looked PE P)), E. cbn [fst].
      pose proof (refill_queue PE P HS) as RQ. rewrite E in RQ. cbn [fst] in RQ. destruct RQ as [_ RQ]; [split; rewrite EQ; [constructor|intros k []]|].
      apply RQ. rewrite EQ1. now left. }
    destruct (nth_error preds i) as [y|] eqn:Ey; [|apply nth_error_None in Ey; lia].
    specialize (Hq i y (or_introl eq_refl) Ey). rewrite (ALL i y Ey), (ALL j x Ej), is_better_irrefl in Hq. discriminate Hq.
Qed.

Lemma times_app i a b : times i (a ++ b) = times i a + times i b.
Proof. apply count_occ_app. Qed.
Lemma times_one i l : NoDup l -> In i l -> times i l = 1.
Proof. intros HN HI. apply NoDup_count_occ'; assumption. Qed.
Lemma times_le i l : NoDup l -> times i l <= 1.
Proof. intros HN. now apply (NoDup_count_occ Nat.eq_dec). Qed.

Lemma inv_ok PE ever P : pool_inv PE ever P -> Forall member_ok (po_members P).
Proof. intros [_ (H & _)]. eapply Forall_impl; [|exact H]. now intros m [K _]. Qed.

Lemma exec_queue PE ever P a P1 : sorts (pe_sort PE) -> pool_inv PE ever P -> pool_exec PE P a = (P1, Ok tt) ->
  match a with
  | PoStep _ => launches PE P ++ po_queue P1 = po_queue (fst (refill PE P))
  | _ => po_queue P1 = po_queue P
  end /\ length (po_members P1) = length (po_members P).
Proof.
  intros HS HI E. destruct a as [inp| |]; cbn [pool_exec] in E.
  - destruct (pool_step PE P inp) as [P' r] eqn:ES. destruct r as [x|w|]; cbn [obind] in E; try discriminate E. injection E as ->.
    destruct (Nat.eq_dec (oi_dim (e_info (pe_env PE))) 0) as [D|D]; [unfold pool_step in ES; rewrite D in ES; discriminate ES|].
    pose proof (pool_step_inv PE ever P inp P1 (Ok x) HS HI D ES ltac:(discriminate)) as (_ & _ & _ & [SL _] & _ & _ & SQ). destruct (SQ x eq_refl) as (_ & Q & _).
    split; [|exact SL]. destruct (pool_step_from_refill PE ever P inp P1 x HS HI ES) as [R _]. rewrite Q. unfold launches.
    destruct (refill PE P) as [PR r]. cbn [fst snd] in *. subst r. apply firstn_skipn.
  - injection E as <-. split; [reflexivity|]. cbn. apply map_length.
  - pose proof (pool_test_frame PE P) as (_ & _ & _ & T4). pose proof (pool_test_looked PE P) as HL. destruct (pool_test PE P) as [P' r]. destruct r as [x|w|]; cbn [obind] in E; try discriminate E. injection E as ->.
    cbn [fst] in *. split; [exact T4|now apply looked_length].
Qed.
Lemma exec_warm PE ever P a P1 : sorts (pe_sort PE) -> pool_inv PE ever P -> pool_exec PE P a = (P1, Ok tt) -> Forall (warming_up PE) (po_members P1) ->
  Forall (warming_up PE) (po_members P) /\ match a with PoStep _ => Forall (warming_up PE) (po_members (fst (refill PE P))) | _ => True end.
Proof.
  intros HS HI E W. assert (HK := inv_ok _ _ _ HI). destruct a as [inp| |]; cbn [pool_exec] in E.
  - destruct (pool_step PE P inp) as [P' r] eqn:ES. destruct r as [x|w|]; cbn [obind] in E; try discriminate E. injection E as ->.
    destruct (pool_step_from_refill PE ever P inp P1 x HS HI ES) as [_ R].
    assert (HL := refill_looked PE P).
    assert (HKr : Forall member_ok (po_members (fst (refill PE P)))).
    { apply Forall_forall. intros m' Hm'. apply In_nth_error in Hm' as (i & Ei). destruct (looked_nth_back _ _ _ _ HL Ei) as (m & Em & T). destruct (T (Forall_nth _ _ _ _ HK Em)) as (_ & _ & X & _). exact X. }
    assert (Wr := moved_warm PE _ _ _ _ HKr R W). split; [eapply looked_warm; eassumption|exact Wr].
  - injection E as <-. split; [|exact I]. apply (looked_warm PE _ _ HK (looked_interrupt _) W).
  - pose proof (pool_test_looked PE P) as HL. destruct (pool_test PE P) as [P' r]. destruct r as [x|w|]; cbn [obind] in E; try discriminate E. injection E as ->.
    split; [|exact I]. apply (looked_warm PE _ _ HK HL W).
Qed.
Lemma history_warm PE P ops L P' : sorts (pe_sort PE) -> history PE P ops L P' -> forall ever, pool_inv PE ever P -> Forall (warming_up PE) (po_members P') -> Forall (warming_up PE) (po_members P).
Proof.
  intros HS H. induction H as [P|P a P1 ops L P2 E H IH]; intros ever HI W; [exact W|].
  pose proof (exec_inv PE ever P a P1 HS HI E) as [I1 _]. exact (proj1 (exec_warm PE ever P a P1 HS HI E (IH _ I1 W))).
Qed.
(** the number of steps it takes to start [n] member steps, [c] at a time *)
Definition rounds (c n : nat) : nat := (n + c - 1) / c.
Lemma rounds_step c n : 0 < c -> 0 < n -> S (rounds c (n - c)) = rounds c n.
Proof.
  intros Hc Hn. unfold rounds. destruct (Nat.le_gt_cases n c) as [H|H].
  - replace (n - c) with 0 by lia. rewrite Nat.add_0_l, (Nat.div_small (c - 1)) by lia. symmetry. replace (n + c - 1) with ((n - 1) + 1 * c) by lia. rewrite Nat.div_add by lia. now rewrite Nat.div_small by lia.
  - replace (n + c - 1) with ((n - c + c - 1) + 1 * c) by lia. rewrite Nat.div_add by lia. lia.
Qed.
Lemma rounds_none c : 0 < c -> rounds c 0 = 0.
Proof. intros Hc. unfold rounds. cbn [Nat.add]. apply Nat.div_small. lia. Qed.
Lemma rounds_zero c n : 0 < c -> rounds c n = 0 -> n = 0.
Proof. intros Hc H. destruct n; [reflexivity|]. rewrite <- rounds_step in H by lia. discriminate H. Qed.
Lemma history_balance PE P ops L P' : sorts (pe_sort PE) -> 0 < pe_concurrent PE -> history PE P ops L P' -> forall ever, pool_inv PE ever P ->
  length (po_members P) <= pe_active PE -> Forall (warming_up PE) (po_members P') ->
  exists k, (forall i, i < length (po_members P) -> times i L + times i (po_queue P') = times i (po_queue P) + k) /\
    steps_in ops + rounds (pe_concurrent PE) (length (po_queue P')) = rounds (pe_concurrent PE) (length (po_queue P)) + k * rounds (pe_concurrent PE) (length (po_members P)).
Proof.
  intros HS HC H. induction H as [P|P a P1 ops L P2 E H IH]; intros ever HI HA W.
  - exists 0. split; [intros i _; cbn; lia|cbn [steps_in]; lia].
  - pose proof (exec_inv PE ever P a P1 HS HI E) as [I1 _]. pose proof (history_warm PE _ _ _ _ HS H _ I1 W) as W1.
    pose proof (exec_queue PE ever P a P1 HS HI E) as [HQ HLn]. pose proof (exec_warm PE ever P a P1 HS HI E W1) as [_ Wr].
    destruct (IH _ I1) as (k & Hk & Hr); [lia|exact W|]. rewrite HLn in Hk, Hr.
    destruct a as [inp| |]; [|exists k; split; [intros i Hi; rewrite app_nil_r, <- HQ; apply Hk, Hi|cbn [steps_in]; rewrite <- HQ; exact Hr]
      |exists k; split; [intros i Hi; rewrite app_nil_r, <- HQ; apply Hk, Hi|cbn [steps_in]; rewrite <- HQ; exact Hr]].
    assert (HR : snd (refill PE P) = Ok tt).
    { cbn [pool_exec] in E. destruct (pool_step PE P inp) as [P' r] eqn:ES. destruct r as [x|w|]; cbn [obind] in E; try discriminate E. injection E as ->.
      apply (pool_step_from_refill PE ever P inp P1 x HS HI ES). }
    assert (HLq : launches PE P = firstn (pe_concurrent PE) (po_queue (fst (refill PE P)))) by (unfold launches; destruct (refill PE P) as [PR r]; cbn [fst snd] in *; subst r; reflexivity).
    assert (HLl : length (launches PE P) = Nat.min (pe_concurrent PE) (length (po_queue (fst (refill PE P))))) by (rewrite HLq; apply firstn_length).
    assert (HLs : length (launches PE P) + length (po_queue P1) = length (po_queue (fst (refill PE P)))) by (rewrite <- HQ, app_length; reflexivity).
    cbn [steps_in].
    destruct (po_queue P) as [|q0 qs] eqn:EQ.
    + assert (ALL : NoDup (po_queue (fst (refill PE P))) /\ (forall i, In i (po_queue (fst (refill PE P))) -> i < length (po_members P)) /\ forall i, i < length (po_members P) -> In i (po_queue (fst (refill PE P)))).
      { pose proof (looked_length _ _ (refill_looked PE P)) as LR. destruct (refill PE P) as [PR r] eqn:ER. cbn [fst snd] in *. subst r.
        pose proof (refill_queue PE P HS) as RQ. rewrite ER in RQ. cbn [fst] in RQ. destruct RQ as [RQ1 RQ2]; [split; rewrite EQ; [constructor|intros j []]|].
        split; [exact RQ1|]. split; [intros i Hi; rewrite <- LR; apply RQ2, Hi|]. eapply warm_queue; eauto. eapply inv_ok; eauto. }
      destruct ALL as (ALL1 & ALL2 & ALL3).
      assert (HN : length (po_queue (fst (refill PE P))) = length (po_members P)).
      { apply Nat.le_antisymm.
        - rewrite <- (seq_length (length (po_members P)) 0). apply NoDup_incl_length; [exact ALL1|]. intros i Hi. apply in_seq. specialize (ALL2 i Hi). lia.
        - rewrite <- (seq_length (length (po_members P)) 0). apply NoDup_incl_length; [apply seq_NoDup|]. intros i Hi. apply in_seq in Hi. apply ALL3. lia. }
      exists (S k). split.
      * intros i Hi. rewrite times_app. specialize (Hk i Hi). cbn [times count_occ].
        assert (times i (launches PE P) + times i (po_queue P1) = 1); [|lia].
        rewrite <- times_app, HQ. apply times_one; auto.
      * assert (0 < length (po_members P)).
        { cbn [pool_exec] in E. destruct (po_members P) eqn:EM; [|cbn; lia]. exfalso. revert E. unfold pool_step. destruct (Nat.eqb _ 0); [discriminate|]. unfold pool_internal_step.
          replace (po_members (psignal PE EPreStep (if Nat.eqb (c_steps (po_base P)) 0 then psignal PE EStart P else P))) with (@nil member) by (destruct (Nat.eqb _ 0); cbn; auto). discriminate. }
        pose proof (rounds_step (pe_concurrent PE) (length (po_members P)) HC ltac:(lia)). rewrite HN in HLs, HLl.
        replace (length (po_queue P1)) with (length (po_members P) - pe_concurrent PE) in Hr by lia. cbn [length] in *. rewrite (rounds_none _ HC). lia.
    + exists k. split.
      * intros i Hi. rewrite times_app. specialize (Hk i Hi).
        assert (HRQ : fst (refill PE P) = P) by (unfold refill; now rewrite EQ). rewrite HRQ, EQ in HQ. rewrite <- HQ, times_app. lia.
      * assert (HRQ : fst (refill PE P) = P) by (unfold refill; now rewrite EQ). rewrite HRQ, EQ in HLs, HLl.
        pose proof (rounds_step (pe_concurrent PE) (length (q0 :: qs)) HC ltac:(cbn [length]; lia)).
        replace (length (po_queue P1)) with (length (q0 :: qs) - pe_concurrent PE) in Hr by lia. lia.
Qed.

Lemma new_queue PE ms conds : po_queue (pool_of PE ms conds) = [].
Proof.
  unfold pool_of. destruct (conds_frame conds (fold_left (push_back PE) ms (new_pool PE))) as (_ & _ & X & _). cbv zeta in X. rewrite X.
  assert (G : forall ms P, po_queue P = [] -> po_queue (fold_left (push_back PE) ms P) = []) by (clear; induction ms as [|m t IH]; intros P HP; cbn [fold_left]; [exact HP|apply IH; exact HP]). now apply G.
Qed.

(** ** The theorems *)

(** As long as the pool has at most active_optimizations members and all of them are warming
    up (have not stopped and have completed fewer than prediction_start steps), whatever the
    calls, schedules and results were: the numbers of steps started for any two members differ
    by at most one. *)
Theorem C64_even_warm_up : forall PE ms conds ops L P i j, sorts (pe_sort PE) -> Forall (joinable PE) ms ->
  history PE (pool_of PE ms conds) ops L P ->
  length (po_members P) <= pe_active PE ->
  (forall m, In m (po_members P) -> m_stopped m = false /\ c_steps (o_core (m_opt m)) < pe_start PE) ->
  i < length (po_members P) -> j < length (po_members P) ->
  times i L <= S (times j L).
Proof.
  intros PE ms conds ops L P i j HS HJ H HA HW Hi Hj. destruct (pool_of_inv PE ms conds HJ) as [HI _].
  assert (EQ0 : po_queue (pool_of PE ms conds) = []) by apply new_queue.
  destruct (history_members _ _ _ _ _ HS H [] HI) as [HL _].
  destruct (Nat.eq_dec (pe_concurrent PE) 0) as [HC|HC].
  - assert (HL0 : forall P Q, history PE P ops L Q -> L = []).
    { clear - HC. intros P Q H. induction H as [|P a P1 ops L P2 E H IH]; [reflexivity|]. rewrite IH. cbn [app]. destruct a; auto. unfold launches. rewrite HC. destruct (refill PE P) as [? [?|?|]]; reflexivity. }
    rewrite (HL0 _ _ H). cbn. lia.
  - destruct (history_balance PE _ _ _ _ HS ltac:(lia) H [] HI) as (k & Hk & _); [lia|apply Forall_forall; exact HW|].
    destruct (history_inv _ _ _ _ _ HS H [] HI) as [[[HN _] _] _].
    pose proof (Hk i ltac:(lia)) as Ki. pose proof (Hk j ltac:(lia)) as Kj. rewrite EQ0 in Ki, Kj. cbn [times count_occ] in Ki, Kj.
    pose proof (times_le i _ HN). pose proof (times_le j _ HN). lia.
Qed.

(** Nor does it stall: in that situation every member is stepped at least once in every
    ceil(members / concurrent_optimizations) pool steps.  So after r times as many pool steps
    every member has been stepped at least r times. *)
Theorem C64_no_stall_in_warm_up : forall PE ms conds ops L P r i, sorts (pe_sort PE) -> Forall (joinable PE) ms -> 0 < pe_concurrent PE ->
  history PE (pool_of PE ms conds) ops L P ->
  length (po_members P) <= pe_active PE ->
  (forall m, In m (po_members P) -> m_stopped m = false /\ c_steps (o_core (m_opt m)) < pe_start PE) ->
  i < length (po_members P) ->
  r * ((length (po_members P) + pe_concurrent PE - 1) / pe_concurrent PE) <= steps_in ops ->
  r <= times i L.
Proof.
  intros PE ms conds ops L P r i HS HJ HC H HA HW Hi Hr. destruct (pool_of_inv PE ms conds HJ) as [HI _].
  assert (EQ0 : po_queue (pool_of PE ms conds) = []) by apply new_queue.
  destruct (history_members _ _ _ _ _ HS H [] HI) as [HL _].
  destruct (history_balance PE _ _ _ _ HS HC H [] HI) as (k & Hk & Hs); [lia|apply Forall_forall; exact HW|].
  destruct (history_inv _ _ _ _ _ HS H [] HI) as [[[HN _] _] _].
  specialize (Hk i ltac:(lia)). rewrite EQ0 in Hk, Hs. cbn [times count_occ length] in Hk, Hs.
  change ((length (po_members P) + pe_concurrent PE - 1) / pe_concurrent PE) with (rounds (pe_concurrent PE) (length (po_members P))) in Hr.
  replace (length (po_members (pool_of PE ms conds))) with (length (po_members P)) in Hs by lia.
  assert (HD : 0 < rounds (pe_concurrent PE) (length (po_members P))) by (rewrite <- rounds_step by lia; lia).
  assert (H0 : rounds (pe_concurrent PE) 0 = 0) by (unfold rounds; cbn [Nat.add]; apply Nat.div_small; lia). rewrite H0 in Hs.
  pose proof (times_le i _ HN). pose proof (rounds_zero (pe_concurrent PE) (length (po_queue P)) HC) as HZ.
  destruct (Nat.lt_ge_cases r k) as [Hlt|Hge]; [lia|].
  assert (k = r). { apply Nat.le_antisymm; [exact Hge|]. apply (Nat.mul_le_mono_pos_r _ _ _ HD). lia. } subst k.
  assert (length (po_queue P) = 0) as Hq by (apply HZ; lia). destruct (po_queue P); [cbn in Hk; lia|discriminate Hq].
Qed.

(** The queue is served in order: a member at position [p] of the queue (from 0) is stepped
    within the next p / concurrent_optimizations + 1 pool steps that return normally. *)
Theorem C64_queue_is_served_in_order : forall PE ms conds ops0 L0 P ops L P' p i, sorts (pe_sort PE) -> Forall (joinable PE) ms ->
  history PE (pool_of PE ms conds) ops0 L0 P -> history PE P ops L P' ->
  nth_error (po_queue P) p = Some i -> p < steps_in ops * pe_concurrent PE ->
  In i L.
Proof.
  intros PE ms conds ops0 L0 P ops L P' p i HS HJ H0 H. destruct (pool_of_inv PE ms conds HJ) as [HI _].
  destruct (history_inv _ _ _ _ _ HS H0 [] HI) as [I1 _]. clear H0 HI HJ. revert p. generalize dependent ([] ++ L0). clear L0. intros ever I1. revert ever I1.
  induction H as [P|P a P1 ops L P2 E H IH]; intros ever HI p Ep Hp; [cbn in Hp; lia|].
  pose proof (exec_inv PE ever P a P1 HS HI E) as [I1 _]. pose proof (exec_queue PE ever P a P1 HS HI E) as [HQ _].
  apply in_app_iff. destruct a as [inp| |]; cbn [steps_in] in Hp.
  - assert (HRQ : fst (refill PE P) = P) by (unfold refill; destruct (po_queue P); [destruct p; discriminate Ep|reflexivity]).
    assert (NE : po_queue P <> []) by (intros X; rewrite X in Ep; destruct p; discriminate Ep).
    rewrite HRQ in HQ. rewrite <- HQ in Ep.
    destruct (Nat.lt_ge_cases p (length (launches PE P))) as [Hlt|Hge].
    + right. rewrite nth_error_app1 in Ep by exact Hlt. eapply nth_error_In, Ep.
    + left. rewrite nth_error_app2 in Ep by exact Hge. apply (IH _ I1 _ Ep).
      assert (HLen : length (launches PE P) = Nat.min (pe_concurrent PE) (length (po_queue P))).
      { unfold launches. assert (snd (refill PE P) = Ok tt) as R by (unfold refill; destruct (po_queue P); [congruence|reflexivity]).
        destruct (refill PE P) as [PR r]. cbn [fst snd] in *. subst r PR. apply firstn_length. }
      assert (p - length (launches PE P) < length (po_queue P1)) by (apply nth_error_Some; congruence).
      assert (HLQ : length (po_queue P) = length (launches PE P) + length (po_queue P1)) by (rewrite <- HQ; apply app_length).
      lia.
  - left. rewrite <- HQ in Ep. exact (IH _ I1 _ Ep Hp).
  - left. rewrite <- HQ in Ep. exact (IH _ I1 _ Ep Hp).
Qed.

(** ** Examples *)
Definition warm_b (PE : pool_env) (m : member) : bool := negb (m_stopped m) && Nat.ltb (c_steps (o_core (m_opt m))) (pe_start PE).
Lemma warm_b_all PE ms : forallb (warm_b PE) ms = true -> forall m, In m ms -> m_stopped m = false /\ c_steps (o_core (m_opt m)) < pe_start PE.
Proof.
  intros H m Hm. rewrite forallb_forall in H. specialize (H m Hm). unfold warm_b in H. apply andb_true_iff in H as [A B].
  split; [now apply negb_true_iff|now apply Nat.ltb_lt].
Qed.
Lemma nat_list_eqb_eq a b : nat_list_eqb a b = true -> a = b.
Proof. unfold nat_list_eqb. destruct (list_eq_dec _ _ _); [auto|discriminate]. Qed.

(** Three members, two of them stepped at a time, member 1 with much better results than the
    others: the third step starts only one member, and everybody gets the same number. *)
Example C64_nonvacuous : let PE := ex_pool_env 6 2 100 true in
  let ms := [new_member (ex_env []) []; new_member (ex_env []) []; new_member (ex_env []) [ScMaxSteps 50]] in
  let ops := [inputs_of [(4, 3); (1, 1); (6, 5)]; inputs_of [(4, 3); (1, 1); (6, 5)]; inputs_of [(4, 3); (1, 1); (6, 5)]]%Z in
  sorts (pe_sort PE) /\ Forall (joinable PE) ms /\
  exists P L, history PE (pool_of PE ms []) ops L P /\ L = [0; 1; 2; 0; 1] /\ po_queue P = [2] /\ length (po_members P) = 3 /\
    (forall m, In m (po_members P) -> m_stopped m = false /\ c_steps (o_core (m_opt m)) < pe_start PE).
Proof.
  cbv zeta. split; [exact isort_sorts|]. split; [constructor; [|constructor; [|constructor; [|constructor]]]; apply new_joinable; first [discriminate|reflexivity]|].
  destruct (run_ops_check (ex_pool_env 6 2 100 true) (pool_of (ex_pool_env 6 2 100 true) [new_member (ex_env []) []; new_member (ex_env []) []; new_member (ex_env []) [ScMaxSteps 50]] [])
    [inputs_of [(4, 3); (1, 1); (6, 5)]; inputs_of [(4, 3); (1, 1); (6, 5)]; inputs_of [(4, 3); (1, 1); (6, 5)]]%Z
    (fun P L => nat_list_eqb L [0; 1; 2; 0; 1] && nat_list_eqb (po_queue P) [2] && Nat.eqb (length (po_members P)) 3 && forallb (warm_b (ex_pool_env 6 2 100 true)) (po_members P))) as (P & L & H & C); [vm_compute; reflexivity|].
  apply andb_true_iff in C as [C C4]. apply andb_true_iff in C as [C C3]. apply andb_true_iff in C as [C1 C2].
  exists P, L. split; [exact H|]. split; [now apply nat_list_eqb_eq|]. split; [now apply nat_list_eqb_eq|]. split; [now apply Nat.eqb_eq|]. exact (warm_b_all _ _ C4).
Qed.

(** With more members than active_optimizations the warm-up is not even: one of them waits. *)
Theorem C64_more_than_active_refuted : exists PE ms ops, sorts (pe_sort PE) /\ Forall (joinable PE) ms /\ length ms = S (pe_active PE) /\ 0 < pe_concurrent PE /\
  exists P L, history PE (pool_of PE ms []) ops L P /\ L = [0; 0; 0; 0] /\
    (forall m, In m (po_members P) -> m_stopped m = false /\ c_steps (o_core (m_opt m)) < pe_start PE).
Proof.
  set (PE := ex_pool_env 1 1 100 false). set (ms := [new_member (ex_env []) []; new_member (ex_env []) []]). exists PE, ms, (repeat (same_inputs 4 3) 4)%Z.
  split; [exact isort_sorts|]. split; [constructor; [|constructor; [|constructor]]; apply new_joinable; [discriminate|reflexivity|discriminate|reflexivity]|].
  split; [reflexivity|]. split; [cbn; lia|].
  destruct (run_ops_check PE (pool_of PE ms []) (repeat (same_inputs 4 3) 4)%Z (fun P L => nat_list_eqb L [0; 0; 0; 0] && forallb (warm_b PE) (po_members P))) as (P & L & H & C); [vm_compute; reflexivity|].
  apply andb_true_iff in C as [C1 C2]. exists P, L. split; [exact H|]. split; [now apply nat_list_eqb_eq|]. exact (warm_b_all _ _ C2).
Qed.

(** Once the members have completed prediction_start steps, a member whose prediction is worse
    is not stepped any more, however long the pool runs (here: eight steps), although it is
    not stopped. *)
Definition steady : env := {| e_info := ex_info; e_cma := false; e_regression := fun _ ys => {| lf_intercept := last ys f32zero; lf_slope := f32zero |};
  e_unsigned_errors := true; e_max_errors := 0; e_reporters := []; e_libm := e_libm (ex_env []) |}.
Theorem C64_after_warm_up_refuted : exists PE ms ops, sorts (pe_sort PE) /\ Forall (joinable PE) ms /\ length ms <= pe_active PE /\ 0 < pe_concurrent PE /\
  exists P L, history PE (pool_of PE ms []) ops L P /\ times 0 L = 6 /\ times 1 L = 2 /\ (forall m, In m (po_members P) -> m_stopped m = false).
Proof.
  set (PE := ex_pool_env 6 1 1 false). set (ms := [new_member steady []; new_member steady []]). exists PE, ms, (repeat (inputs_of [(5, 4); (9, 8)]) 8)%Z.
  split; [exact isort_sorts|]. split; [constructor; [|constructor; [|constructor]]; apply new_joinable; [discriminate|reflexivity|discriminate|reflexivity]|].
  split; [cbn; lia|]. split; [cbn; lia|].
  destruct (run_ops_check PE (pool_of PE ms []) (repeat (inputs_of [(5, 4); (9, 8)]) 8)%Z (fun P L => Nat.eqb (times 0 L) 6 && Nat.eqb (times 1 L) 2 && forallb (fun m => negb (m_stopped m)) (po_members P))) as (P & L & H & C); [vm_compute; reflexivity|].
  apply andb_true_iff in C as [C C3]. apply andb_true_iff in C as [C1 C2]. exists P, L. split; [exact H|]. split; [now apply Nat.eqb_eq|]. split; [now apply Nat.eqb_eq|].
  intros m Hm. rewrite forallb_forall in C3. now apply negb_true_iff, C3.
Qed.
