(** * C66: what the reporters of an optimizer pool see *)
From Coq Require Import ZArith Bool Lia Permutation Sorted.
From Verif Require Import Prelude Flt FltFacts Flt32 Round8 FlatMap ParInfo ObjInfo Num MathTools Mes Optimizer OptimizerFacts Properties_Optimizer Properties_Optimizer2 Properties_Optimizer4 Properties_ES3 Pool PoolFacts Properties_Pool Properties_Pool2 Properties_Pool3 Properties_Pool4 Properties_Pool5 Properties_Pool6.
#[local] Open Scope nat_scope.

(** ** Specification *)
(** The fitnesses announced by on_new_best, in order, and the last of them. *)
Definition new_bests (l : list (event * core)) : list f64 := flat_map (fun e => match fst e with ENewBest _ f => [f] | _ => [] end) l.
Definition last_announced (l : list (event * core)) : option f64 :=
  fold_left (fun a e => match fst e with ENewBest _ f => Some f | _ => a end) l None.
(** What is seen of the members [L] of a step, in the order in which they were started.
    [final]: the members after the step; [n]: the number of steps completed before it;
    [last]: the fitness announced last.  For each member on_new_best if it is the first one
    or its best fitness beats the one announced last; it is called with that member's best
    point and fitness, and they are what the pool shows at that time.  Then, in any case,
    on_post_evaluate_population without points, and with the current fitnesses of the best
    member. *)
Fixpoint reported (o : obj_info) (n : nat) (final : list member) (last : option f64) (L : list nat) (seen : list (event * core)) : Prop :=
  match L with
  | [] => seen = []
  | i :: t => exists m v rest, nth_error final i = Some m /\ c_steps v = n /\
      let c := o_core (m_opt m) in
      let better := match last with None => true | Some f => is_better o (c_best_fit c) f end in
      seen = (if better then [(ENewBest (c_best_pt c) (c_best_fit c), v)] else []) ++ [(EPostEval [] (c_cur_fits v) better, v)] ++ rest /\
      (if better then c_best_fit v = c_best_fit c /\ c_best_pt v = c_best_pt c /\ c_cur_fits v = c_cur_fits c
       else exists f, last = Some f /\ (c_best_fit v = f \/ is_better o (c_best_fit v) f = true)) /\
      reported o n final (if better then Some (c_best_fit c) else last) t rest
  end.

(** ** One member *)
Definition recorded (P : pool) : option f64 := match po_best P with Some _ => Some (po_best_fit P) | None => None end.
Definition update_best (a : option f64) (l : list (event * core)) : option f64 := fold_left (fun a e => match fst e with ENewBest _ f => Some f | _ => a end) l a.
Definition same_data (m m' : member) : Prop := let c := o_core (m_opt m) in let c' := o_core (m_opt m') in
  c_best_fit c' = c_best_fit c /\ c_best_pt c' = c_best_pt c /\ c_cur_fits c' = c_cur_fits c.
Lemma touched_same m m' : member_ok m -> touched m m' -> same_data m m'.
Proof.
  intros K T. destruct (T K) as (_ & Q & _). split; [exact (f_equal c_best_fit Q)|]. split; [exact (f_equal c_best_pt Q)|exact (f_equal c_cur_fits Q)].
Qed.
Lemma view_steps P : c_steps (view P) = c_steps (po_base P).
Proof. unfold view. destruct (best_member P); reflexivity. Qed.
Lemma view_best P b m : po_best P = Some b -> nth_error (po_members P) b = Some m ->
  c_best_fit (view P) = c_best_fit (o_core (m_opt m)) /\ c_best_pt (view P) = c_best_pt (o_core (m_opt m)) /\ c_cur_fits (view P) = c_cur_fits (o_core (m_opt m)).
Proof. intros EB EM. unfold view, best_member. rewrite EB, EM. auto. Qed.
Lemma absorb_heard PE P i P2 u r m : heard (pe_env PE) r -> absorb_member PE P i = (P2, Ok u) -> nth_error (po_members P) i = Some m ->
  let better := match recorded P with None => true | Some f => is_better (e_info (pe_env PE)) (m_best m) f end in
  received r (po_trace P2) = received r (po_trace P) ++ (if better then [(ENewBest (c_best_pt (o_core (m_opt m))) (m_best m), view P2)] else []) ++ [(EPostEval [] (c_cur_fits (view P2)) better, view P2)] /\
  recorded P2 = (if better then Some (m_best m) else recorded P).
Proof.
  intros Hh E Em better. unfold absorb_member in E. rewrite Em in E.
  assert (EB : match po_best P with None => true | Some _ => is_better (e_info (pe_env PE)) (m_best m) (po_best_fit P) end = better) by (unfold better, recorded; destruct (po_best P); reflexivity).
  rewrite EB in E. clear EB. destruct better.
  - assert (Q : exists Q, po_trace Q = po_trace P /\ po_best Q = Some i /\ po_best_fit Q = m_best m /\
        P2 = psignal PE (EPostEval [] (c_cur_fits (view (psignal PE (ENewBest (c_best_pt (o_core (m_opt m))) (m_best m)) Q))) true) (psignal PE (ENewBest (c_best_pt (o_core (m_opt m))) (m_best m)) Q)).
    { destruct (pe_use_predicted PE); [destruct (set_targets _ _) as [ms [|]]|]; try discriminate E; injection E as <- _; eexists; (split; [|split; [|split; [|reflexivity]]]); reflexivity. }
    clear E. destruct Q as (Q & Q1 & Q2 & Q3 & ->).
    set (ev := ENewBest (c_best_pt (o_core (m_opt m))) (m_best m)). set (Qn := psignal PE ev Q).
    split.
    + change (received r (signal (pe_env PE) (EPostEval [] (c_cur_fits (view Qn)) true) (view Qn) (signal (pe_env PE) ev (view Q) (po_trace Q))) = received r (po_trace P) ++ [(ev, view Qn)] ++ [(EPostEval [] (c_cur_fits (view Qn)) true, view Qn)]).
      rewrite !signal_heard by exact Hh. rewrite Q1, <- app_assoc. reflexivity.
    + unfold recorded. change (match po_best Q with Some _ => Some (po_best_fit Q) | None => None end = Some (m_best m)). rewrite Q2, Q3. reflexivity.
  - injection E as <- _. split; [|reflexivity].
    change (received r (signal (pe_env PE) (EPostEval [] (c_cur_fits (view P)) false) (view P) (po_trace P)) = received r (po_trace P) ++ [] ++ [(EPostEval [] (c_cur_fits (view P)) false, view P)]).
    rewrite signal_heard by exact Hh. reflexivity.
Qed.

(** ** The members of a step *)
Lemma collect_frozen PE launched inp sched todo : forall k P done P' u j m, collect PE launched inp sched k P done todo = (P', Ok u) ->
  nth_error (po_members P) j = Some m -> is_done j done = true -> exists m', nth_error (po_members P') j = Some m' /\ touched m m'.
Proof.
  induction todo as [|i t IH]; intros k P done P' u j m E Em Hd; cbn [collect] in E; [injection E as <- _; exists m; split; [exact Em|apply touched_refl]|].
  set (l := filter (fun j => existsb (Nat.eqb j) launched) (sched k) ++ [i]) in *.
  destruct (completes_nth inp l (po_members P) done j m Em) as (C1 & _ & C3).
  destruct (fold_left (complete inp) l (po_members P, done)) as [ms done']. cbn [fst snd] in *. rewrite Hd in C1, C3. cbn [negb andb orb] in C1, C3.
  destruct (result_of i done') as [[x|w|]|]; try discriminate E.
  pose proof (absorb_looked PE (with_members P ms) i) as HL. destruct (absorb_member PE (with_members P ms) i) as [P2 [v|w|]]; try discriminate E. cbn [fst with_members po_members] in HL.
  destruct (looked_nth _ _ _ _ HL C1) as (m2 & E2 & T2). destruct (IH _ _ _ _ _ j m2 E E2 C3) as (m3 & E3 & T3). exists m3. split; [exact E3|]. eapply touched_trans; eassumption.
Qed.
Lemma update_app a l l' : update_best a (l ++ l') = update_best (update_best a l) l'.
Proof. apply fold_left_app. Qed.
Lemma reports_same o n final final' : (forall i m, nth_error final i = Some m -> exists m', nth_error final' i = Some m' /\ same_data m m') ->
  forall L last seen, reported o n final last L seen -> reported o n final' last L seen.
Proof.
  intros HS. induction L as [|i t IH]; intros last seen H; [exact H|]. cbn [reported] in *. destruct H as (m & v & rest & Em & Hv & H1 & H2 & H3). destruct (HS i m Em) as (m' & Em' & S1 & S2 & S3).
  exists m', v, rest. split; [exact Em'|]. split; [exact Hv|]. cbv zeta. rewrite S1, S2, S3. split; [exact H1|]. split; [exact H2|]. apply IH, H3.
Qed.
Lemma collect_reports PE launched inp sched ever ms0 r todo : heard (pe_env PE) r -> forall k P done P' u,
  collect PE launched inp sched k P done todo = (P', Ok u) ->
  NoDup todo -> incl todo launched -> incl launched ever -> (forall i, In i launched -> i < length ms0) ->
  (forall i, In i launched -> In i todo \/ In i (map fst done)) -> incl (map fst done) launched ->
  flight_ok inp ms0 (po_members P, done) -> best_inv (e_info (pe_env PE)) ever todo P ->
  exists seen, received r (po_trace P') = received r (po_trace P) ++ seen /\
    reported (e_info (pe_env PE)) (c_steps (po_base P)) (po_members P') (recorded P) todo seen /\
    recorded P' = update_best (recorded P) seen.
Proof.
  set (o := e_info (pe_env PE)). intros Hh. induction todo as [|i t IH]; intros k P done P' u E HN HT HE HR HD HS HF HB; cbn [collect] in E.
  - injection E as <- _. exists []. split; [now rewrite app_nil_r|]. split; reflexivity.
  - set (early := filter (fun j => existsb (Nat.eqb j) launched) (sched k) ++ [i]) in *.
    assert (HX : forall j, In j early -> In j launched). { intros j Hj. apply in_app_iff in Hj as [Hj|[<-|[]]]; [|apply HT; now left]. apply filter_In in Hj as [_ Hj]. now apply existsb_eqb in Hj. }
    pose proof (completes_ok inp ms0 early _ HF) as HF1. pose proof (best_inv_completes o ever (i :: t) inp early P done HB (fun j Hj => HD j (HX j Hj))) as HB1.
    assert (HD1 : forall j, In j (map fst (snd (fold_left (complete inp) early (po_members P, done)))) -> In j launched). { intros j Hj. apply completes_done in Hj as [Hj|Hj]; [apply HX, Hj|apply HS, Hj]. }
    assert (HK1 : forall j, In j (map fst done) \/ j = i -> In j (map fst (snd (fold_left (complete inp) early (po_members P, done))))).
    { intros j [Hj| ->]; [apply completes_keep; exact Hj|]. apply completes_does; [apply in_app_iff; right; now left|]. rewrite (proj1 HF). apply HR, HT. now left. }
    destruct (fold_left (complete inp) early (po_members P, done)) as [ms done'] eqn:EF. cbn [fst snd] in *.
    destruct (result_of i done') as [[x|w|]|]; try discriminate E.
    destruct (absorb_member PE (with_members P ms) i) as [P2 r2] eqn:EA. inversion HN as [|? ? HN1 HN2]; subst. destruct r2 as [u2|w|]; try discriminate E.
    pose proof (absorb_inv PE ever i t _ P2 (Ok u2) HB1 HN (HE i (HT i (or_introl eq_refl))) EA ltac:(discriminate)) as HB2. pose proof (absorb_looked PE (with_members P ms) i) as HL2. rewrite EA in HL2. cbn [fst with_members po_members] in HL2.
    pose proof (flight_looked inp ms0 ms (po_members P2) done' HF1 HL2) as HF2.
    destruct (absorb_best PE _ i P2 (Ok u2) EA ltac:(discriminate)) as (m & Em & _ & Q3 & HBB). cbn [with_members po_members po_best po_best_fit po_base] in Em, Q3, HBB.
    destruct (absorb_heard PE (with_members P ms) i P2 u2 r m Hh EA Em) as [A1 A2]. cbn zeta in A1, A2. change (recorded (with_members P ms)) with (recorded P) in A1, A2. cbn [with_members po_trace] in A1. fold o in A1, A2, HBB.
    destruct (IH (S k) P2 done' P' u E HN2 (fun j Hj => HT j (or_intror Hj)) HE HR) as (seen & S1 & S2 & S3).
    { intros j Hj. destruct (HD j Hj) as [[->|X]|X]; [right; apply HK1; now right|now left|right; apply HK1; now left]. }
    { exact HD1. } { exact HF2. } { exact HB2. }
    (* what member i looks like afterwards *)
    assert (G : Forall (good o) ms) by (destruct HB1 as (X & _); exact X).
    destruct (looked_nth _ _ _ _ HL2 Em) as (m2 & Em2 & T2).
    assert (K2 : member_ok m2). { destruct HB2 as (X & _). exact (proj1 (Forall_nth _ _ _ _ X Em2)). }
    destruct (collect_frozen PE launched inp sched t (S k) P2 done' P' u i m2 E Em2) as (m3 & Em3 & T3). { apply existsb_eqb. apply HK1. now right. }
    pose proof (touched_same m m2 (proj1 (Forall_nth _ _ _ _ G Em)) T2) as (F1 & F2 & F3). pose proof (touched_same m2 m3 K2 T3) as (F4 & F5 & F6).
    set (better := match recorded P with None => true | Some f => is_better o (m_best m) f end) in *.
    exists ((if better then [(ENewBest (c_best_pt (o_core (m_opt m))) (m_best m), view P2)] else []) ++ [(EPostEval [] (c_cur_fits (view P2)) better, view P2)] ++ seen).
    split; [|split].
    + rewrite S1, A1, <- !app_assoc. reflexivity.
    + cbn [reported]. exists m3, (view P2), seen. split; [exact Em3|]. split; [rewrite view_steps, Q3; reflexivity|]. cbv zeta. rewrite F4, F5, F6, F1, F2, F3. change (c_best_fit (o_core (m_opt m))) with (m_best m). fold better.
      split; [reflexivity|]. rewrite A2, Q3 in S2. split; [|destruct better; exact S2].
      assert (EB : match po_best P with None => true | Some _ => is_better o (m_best m) (po_best_fit P) end = better) by (unfold better, recorded; destruct (po_best P); reflexivity).
      rewrite EB in HBB. destruct better.
      * destruct HBB as [B1 _]. destruct (view_best P2 i m2 B1 Em2) as (V1 & V2 & V3). rewrite V1, V2, V3. split; [exact F1|]. split; [exact F2|exact F3].
      * destruct HBB as [B1 B2]. unfold recorded. destruct (po_best P) as [b|] eqn:EP; [|discriminate EB]. exists (po_best_fit P). split; [reflexivity|].
        destruct HB2 as (_ & _ & H3 & _). destruct (H3 b B1) as (_ & mb & Eb & AL & _). destruct (view_best P2 b mb B1 Eb) as (V1 & _). rewrite V1. rewrite B2 in AL. exact AL.
    + rewrite S3, A2. rewrite update_app. cbn [app update_best fold_left]. unfold update_best. destruct better; reflexivity.
Qed.

(** ** A step *)
Lemma refill_keeps_trace PE P : po_trace (fst (refill PE P)) = po_trace P.
Proof. unfold refill. destruct (po_queue P); [|auto]. destruct (predictions PE 0 (po_members P)) as [ms [preds|w|]]; auto. destruct (existsb fisnan preds); [auto|]. destruct (fill _ _ _ _ _) as [[ms' q] r]. auto. Qed.
Lemma pc_list_trace PE l : forall P i, po_trace (fst (fst (pc_list PE P i l))) = po_trace P.
Proof.
  induction l as [|pc t IH]; intros P i; cbn [pc_list]; [reflexivity|].
  assert (H : po_trace (fst (fst (pc_test PE P pc))) = po_trace P).
  { destruct pc as [|sc]; cbn [pc_test]; [destruct (all_stopped _); reflexivity|]. destruct (_ && _); [reflexivity|]. destruct (sc_test _ _ _) as [[c s] r]. reflexivity. }
  destruct (pc_test PE P pc) as [[P' pc'] [[|]|w|]]; cbn [fst] in *; try exact H. specialize (IH P' (S i)). destruct (pc_list PE P' (S i) t) as [[P'' t'] r]. cbn [fst] in *. congruence.
Qed.
(** Testing shows on_stop when a condition latches, nothing otherwise. *)
Lemma pool_test_heard PE P r : heard (pe_env PE) r -> let P' := fst (pool_test PE P) in
  match po_stopped P, po_stopped P' with
  | None, Some k => exists v, c_steps v = c_steps (po_base P) /\ received r (po_trace P') = received r (po_trace P) ++ [(EStop k, v)]
  | _, _ => received r (po_trace P') = received r (po_trace P)
  end /\ (forall k, po_stopped P = Some k -> po_stopped P' = Some k).
Proof.
  intros Hh P'. unfold P', pool_test. destruct (po_stopped P) as [k|] eqn:ES; [cbn [fst]; rewrite ES; auto|].
  pose proof (pc_list_trace PE (po_conds P) P 0) as T. pose proof (pc_list_frame PE (po_conds P) P 0) as (_ & _ & B & _). destruct (pc_list PE P 0 (po_conds P)) as [[P1 l] [[i|]|w|]]; cbn [fst] in *; (split; [|discriminate]); cbn [psignal with_conds with_trace po_stopped po_trace]; try (now rewrite T).
  exists (view (with_conds P1 l (Some i))). split; [rewrite view_steps; cbn [with_conds po_base]; now rewrite B|]. rewrite signal_heard by exact Hh. now rewrite T.
Qed.
Lemma recorded_pool PE ever P : pool_inv PE ever P -> forall f, recorded P = Some f -> pool_best_fitness P = Ok f /\ c_best_fit (view P) = f.
Proof.
  intros [_ (_ & _ & H3 & _)] f. unfold recorded. destruct (po_best P) as [b|] eqn:EB; [|discriminate]. intros [= <-]. destruct (H3 b eq_refl) as (_ & mb & B & _ & D). specialize (D (fun x => x)).
  destruct (view_best P b mb EB B) as (V & _). rewrite V. unfold pool_best_fitness, best_member. rewrite EB, B. split; [f_equal; exact D|exact D].
Qed.
Lemma step_heard PE ever P inp P' x r : sorts (pe_sort PE) -> pool_inv PE ever P -> heard (pe_env PE) r -> pool_step PE P inp = (P', Ok x) ->
  let before := received r (po_trace P) in let n := c_steps (po_base P) in
  exists seen v stop,
    received r (po_trace P') = before ++ ((if Nat.eqb n 0 then [(EStart, view P)] else []) ++ [(EPreStep, view P)] ++ seen ++ [(EPostStep, v)]) ++ stop /\
    reported (e_info (pe_env PE)) n (po_members P') (recorded P) (launches PE P) seen /\
    recorded P' = update_best (recorded P) seen /\
    (forall f, recorded P' = Some f -> c_best_fit v = f) /\ c_steps v = n /\
    match po_stopped P, po_stopped P' with
    | None, Some k => exists w, stop = [(EStop k, w)] /\ c_steps w = S n
    | _, _ => stop = []
    end /\ (forall k, po_stopped P = Some k -> po_stopped P' = Some k).
Proof.
  intros HS HI Hh E before n. unfold pool_step in E. destruct (Nat.eqb (oi_dim (e_info (pe_env PE))) 0); [discriminate E|].
  set (P2 := psignal PE EPreStep (if Nat.eqb (c_steps (po_base P)) 0 then psignal PE EStart P else P)) in *.
  assert (EL : launches PE P2 = launches PE P) by (unfold P2; destruct (Nat.eqb _ 0); now rewrite ?launches_signal).
  assert (HI2 : pool_inv PE ever P2). { apply (inv_looked PE ever P); [exact HI|..]; unfold P2; destruct (Nat.eqb _ 0); try reflexivity; apply looked_refl. }
  assert (ET : received r (po_trace P2) = before ++ (if Nat.eqb n 0 then [(EStart, view P)] else []) ++ [(EPreStep, view P)]).
  { unfold P2, before, n. destruct (Nat.eqb (c_steps (po_base P)) 0).
    - change (received r (signal (pe_env PE) EPreStep (view P) (signal (pe_env PE) EStart (view P) (po_trace P))) = received r (po_trace P) ++ [(EStart, view P)] ++ [(EPreStep, view P)]). rewrite !signal_heard by exact Hh. now rewrite <- app_assoc.
    - change (received r (signal (pe_env PE) EPreStep (view P) (po_trace P)) = received r (po_trace P) ++ [] ++ [(EPreStep, view P)]). now rewrite signal_heard by exact Hh. }
  assert (EB : recorded P2 = recorded P /\ po_base P2 = po_base P /\ po_stopped P2 = po_stopped P) by (unfold P2; destruct (Nat.eqb _ 0); split; [reflexivity|split; reflexivity|reflexivity|split; reflexivity]). clearbody P2.
  destruct EB as (B1 & B2 & B3).
  destruct (pool_internal_step PE P2 (pi_inputs inp) (pi_sched inp)) as [P3 [ok|w|]] eqn:EI; try discriminate E.
  pose proof (internal_step_inv PE ever P2 _ _ P3 (Ok ok) HS HI2 EI ltac:(discriminate)) as (_ & _ & _ & _ & _ & A6 & _ & A8 & A9). pose proof (A9 ok eq_refl) as ->. destruct (A8 eq_refl) as [I3 _].
  pose proof (proj2 (internal_conds PE P2 (pi_inputs inp) (pi_sched inp))) as C3. rewrite EI in C3. cbn [fst] in C3.
  assert (IS : exists seen, received r (po_trace P3) = received r (po_trace P2) ++ seen /\ reported (e_info (pe_env PE)) n (po_members P3) (recorded P) (launches PE P) seen /\ recorded P3 = update_best (recorded P) seen).
  { unfold pool_internal_step in EI. destruct (po_members P2) as [|m0 mt]; [discriminate EI|]. clear m0 mt. rewrite <- EL. unfold launches. destruct HI2 as [HQ HB].
    pose proof (refill_looked PE P2) as HL. pose proof (refill_frame PE P2) as (F1 & F2 & F3 & _). pose proof (refill_queue PE P2 HS HQ) as [Q1 Q2]. pose proof (refill_keeps_trace PE P2) as FT.
    destruct (refill PE P2) as [Pr [u|w|]]; try discriminate EI. cbn [fst] in *.
    set (L := firstn (pe_concurrent PE) (po_queue Pr)) in *. set (PQ := with_queue Pr (skipn (pe_concurrent PE) (po_queue Pr))) in *.
    destruct (collect PE L (pi_inputs inp) (pi_sched inp) 0 PQ [] L) as [Pc [u2|w|]] eqn:EC; try discriminate EI. injection EI as ->.
    assert (HNL : NoDup L). { apply (NoDup_prefix _ (skipn (pe_concurrent PE) (po_queue Pr))). unfold L. now rewrite firstn_skipn. }
    assert (HRL : forall i, In i L -> i < length (po_members PQ)) by (intros i Hi; apply Q2; eapply firstn_incl, Hi).
    assert (HF : flight_ok (pi_inputs inp) (po_members PQ) (po_members PQ, [])) by (split; [reflexivity|]; intros i m Em; exists m; split; [exact Em|apply touched_refl]).
    assert (HB1 : best_inv (e_info (pe_env PE)) (ever ++ L) L PQ). { apply best_inv_start. apply (best_inv_looked _ _ _ P2); [exact HB|exact HL|exact F1|exact F2]. }
    destruct (collect_reports PE L (pi_inputs inp) (pi_sched inp) (ever ++ L) (po_members PQ) r L Hh 0 PQ [] P3 u2 EC HNL (incl_refl L) (incl_appr ever (incl_refl L)) HRL (fun i Hi => or_introl Hi) (incl_nil_l L) HF HB1) as (seen & S1 & S2 & S3).
    assert (ER : recorded PQ = recorded P) by (rewrite <- B1; unfold recorded; change (po_best PQ) with (po_best Pr); change (po_best_fit PQ) with (po_best_fit Pr); now rewrite F1, F2).
    exists seen. change (po_trace PQ) with (po_trace Pr) in S1. change (po_base PQ) with (po_base Pr) in S2. rewrite FT in S1. rewrite ER in S2, S3. rewrite F3, B2 in S2. split; [exact S1|]. split; [exact S2|exact S3]. }
  destruct IS as (seen & S1 & S2 & S3).
  set (P4 := psignal PE EPostStep P3) in E. set (P5 := with_base P4 _) in E. set (P6 := if pi_interrupt inp then pool_interrupt P5 else P5) in E.
  assert (HL6 : looked (po_members P3) (po_members P6)) by (unfold P6; destruct (pi_interrupt inp); [apply looked_interrupt|apply looked_refl]).
  assert (F6 : recorded P6 = recorded P3 /\ c_steps (po_base P6) = S (c_steps (po_base P3)) /\ po_stopped P6 = po_stopped P3 /\ po_trace P6 = po_trace P4) by (unfold P6; destruct (pi_interrupt inp); split; [reflexivity|split; [reflexivity|split; reflexivity]|reflexivity|split; [reflexivity|split; reflexivity]]). clearbody P6. clear P5.
  destruct F6 as (F61 & F62 & F63 & F64).
  pose proof (pool_test_looked PE P6) as HL7. pose proof (pool_test_frame PE P6) as (T1 & T2 & _). destruct (pool_test_heard PE P6 r Hh) as [TH TS]. rewrite E in *. cbn [fst] in *.
  assert (ER' : recorded P' = recorded P3) by (rewrite <- F61; unfold recorded; now rewrite T1, T2).
  exists seen, (view P3). pose proof (looked_trans _ _ _ HL6 HL7) as HL.
  assert (E4 : received r (po_trace P6) = before ++ (if Nat.eqb n 0 then [(EStart, view P)] else []) ++ [(EPreStep, view P)] ++ seen ++ [(EPostStep, view P3)]).
  { rewrite F64. unfold P4, psignal. cbn [with_trace po_trace]. rewrite signal_heard by exact Hh. rewrite S1, ET, <- !app_assoc. reflexivity. }
  assert (REST : reported (e_info (pe_env PE)) n (po_members P') (recorded P) (launches PE P) seen /\ recorded P' = update_best (recorded P) seen /\ (forall f, recorded P' = Some f -> c_best_fit (view P3) = f) /\ c_steps (view P3) = n).
  { split; [|split; [|split]].
    - eapply reports_same; [|exact S2]. intros i m Em. destruct (looked_nth _ _ _ _ HL Em) as (m' & Em' & T). exists m'. split; [exact Em'|]. apply touched_same; [|exact T]. destruct I3 as [_ (G & _)]. exact (proj1 (Forall_nth _ _ _ _ G Em)).
    - congruence.
    - intros f Hf. rewrite ER' in Hf. apply (recorded_pool PE _ P3 I3 f Hf).
    - rewrite view_steps, A6, B2. reflexivity. }
  destruct REST as (R1 & R2 & R3 & R4). rewrite F63, C3, B3 in TH, TS. rewrite F62, A6, B2 in TH. fold n in TH.
  destruct (po_stopped P) as [k0|] eqn:ES; [|destruct (po_stopped P') as [k|] eqn:ES'].
  - exists []. rewrite app_nil_r. split; [rewrite TH; exact E4|]. auto 8.
  - destruct TH as (v & V1 & V2). exists [(EStop k, v)]. split; [rewrite V2, E4, <- !app_assoc; reflexivity|]. split; [exact R1|]. split; [exact R2|]. split; [exact R3|]. split; [exact R4|]. split; [eauto|discriminate].
  - exists []. rewrite app_nil_r. split; [rewrite TH; exact E4|]. split; [exact R1|]. split; [exact R2|]. split; [exact R3|]. split; [exact R4|]. split; [reflexivity|discriminate].
Qed.

(** ** Histories *)
Definition better_than (o : obj_info) (a b : f64) : Prop := is_better o b a = true.
Definition last_of (l : list f64) : option f64 := match rev l with [] => None | x :: _ => Some x end.
Lemma last_of_snoc l x : last_of (l ++ [x]) = Some x.
Proof. unfold last_of. now rewrite rev_app_distr. Qed.
Lemma sorted_snoc (R : f64 -> f64 -> Prop) l b : Sorted R l -> (forall a, last_of l = Some a -> R a b) -> Sorted R (l ++ [b]).
Proof.
  induction l as [|a l IH]; intros H HR; cbn [app]; [repeat constructor|]. inversion H as [|? ? H1 H2]; subst. destruct l as [|c l].
  - cbn [app]. constructor; [repeat constructor|]. constructor. apply HR. reflexivity.
  - constructor; [|cbn [app]; constructor; inversion H2; assumption]. apply IH; [exact H1|]. intros x Hx. apply HR. rewrite <- Hx. unfold last_of. cbn [rev]. destruct (rev l ++ [c]) as [|y t] eqn:ER; [destruct (rev l); discriminate ER|reflexivity].
Qed.
Lemma new_bests_app a b : new_bests (a ++ b) = new_bests a ++ new_bests b.
Proof. apply flat_map_app. Qed.
Lemma last_announced_last l : last_announced l = last_of (new_bests l).
Proof.
  induction l as [|[ev c] l IH] using rev_ind; [reflexivity|]. rewrite new_bests_app. unfold last_announced in *. rewrite fold_left_app. cbn [fold_left fst new_bests flat_map]. destruct ev; cbn [app]; rewrite ?app_nil_r; try exact IH. now rewrite last_of_snoc.
Qed.
Lemma reports_sorted o n final : forall L last seen l, reported o n final last L seen -> last = last_of l -> Sorted (better_than o) l -> Sorted (better_than o) (l ++ new_bests seen).
Proof.
  induction L as [|i t IH]; intros last seen l H HL HS; cbn [reported] in H; [subst seen; cbn; now rewrite app_nil_r|].
  destruct H as (m & v & rest & _ & _ & H1 & _ & H3). cbv zeta in *. subst seen. set (c := o_core (m_opt m)) in *.
  destruct (match last with None => true | Some f => is_better o (c_best_fit c) f end) eqn:EB.
  - rewrite !new_bests_app. change (Sorted (better_than o) (l ++ [c_best_fit c] ++ new_bests rest)). rewrite app_assoc. eapply IH; [exact H3|now rewrite last_of_snoc|]. apply sorted_snoc; [exact HS|]. intros a Ha. rewrite <- HL in Ha. rewrite Ha in EB. exact EB.
  - rewrite !new_bests_app. change (Sorted (better_than o) (l ++ new_bests rest)). eapply IH; eassumption.
Qed.
Lemma reports_no_stop o n final : forall L last seen, reported o n final last L seen -> stops seen = [].
Proof.
  induction L as [|i t IH]; intros last seen H; cbn [reported] in H; [now subst seen|]. destruct H as (m & v & rest & _ & _ & H1 & _ & H3). cbv zeta in *. subst seen. rewrite !stops_app, (IH _ _ H3). destruct (match last with None => true | Some _ => _ end); reflexivity.
Qed.
Lemma reports_no_member : forall o n final last L seen, reported o n final last L seen -> L = [] -> seen = [].
Proof. intros o n final last L seen H ->. exact H. Qed.
(** What a reporter has heard of a pool *)
Record heard_inv (PE : pool_env) (r : nat) (P : pool) : Prop := {
  hi_last : recorded P = last_announced (received r (po_trace P));
  hi_sorted : Sorted (better_than (e_info (pe_env PE))) (new_bests (received r (po_trace P)));
  hi_stops : stops (received r (po_trace P)) = match po_stopped P with Some k => [k] | None => [] end }.
Lemma update_silent a l : new_bests l = [] -> update_best a l = a.
Proof. induction l as [|[ev c] l IH]; intros H; [reflexivity|]. cbn [new_bests flat_map fst] in H. apply app_eq_nil in H as [H1 H2]. cbn [update_best fold_left fst]. destruct ev; try discriminate H1; apply IH, H2. Qed.
Lemma heard_exec PE ever P a P' r : sorts (pe_sort PE) -> pool_inv PE ever P -> heard (pe_env PE) r -> heard_inv PE r P -> pool_exec PE P a = (P', Ok tt) -> heard_inv PE r P'.
Proof.
  intros HS HI Hh [I1 I2 I3] E. destruct a as [i| |]; cbn [pool_exec] in E.
  - destruct (pool_step PE P i) as [P1 [x|w|]] eqn:ES; try discriminate E. injection E as ->.
    destruct (step_heard PE ever P i P' x r HS HI Hh ES) as (seen & v & stop & T1 & T2 & T3 & _ & _ & T6 & T7). cbv zeta in *.
    set (pre := (if Nat.eqb (c_steps (po_base P)) 0 then [(EStart, view P)] else []) ++ [(EPreStep, view P)]).
    assert (NP : new_bests pre = [] /\ stops pre = []) by (unfold pre; destruct (Nat.eqb _ 0); split; reflexivity). destruct NP as [NP SP].
    assert (NS : new_bests stop = []) by (destruct (po_stopped P), (po_stopped P'); try (subst stop; reflexivity); destruct T6 as (w & -> & _); reflexivity).
    assert (ET : received r (po_trace P') = ((received r (po_trace P) ++ pre) ++ seen) ++ [(EPostStep, v)] ++ stop) by (rewrite T1; unfold pre; rewrite <- !app_assoc; reflexivity). clear T1.
    assert (NN : new_bests ([(EPostStep, v)] ++ stop) = []) by (rewrite new_bests_app, NS; reflexivity).
    constructor; rewrite ET.
    + unfold last_announced. fold (update_best None (((received r (po_trace P) ++ pre) ++ seen) ++ [(EPostStep, v)] ++ stop)). rewrite update_app, (update_silent _ _ NN), update_app, update_app, (update_silent _ _ NP). rewrite T3, I1. reflexivity.
    + rewrite new_bests_app, NN, app_nil_r, new_bests_app, new_bests_app, NP, app_nil_r. eapply reports_sorted; [exact T2| |exact I2]. rewrite I1. apply last_announced_last.
    + rewrite !stops_app, (reports_no_stop _ _ _ _ _ _ T2), SP, I3. cbn [stops flat_map fst app]. rewrite !app_nil_r.
      destruct (po_stopped P) as [k|] eqn:ES0.
      * rewrite (T7 k eq_refl). subst stop. reflexivity.
      * destruct (po_stopped P') as [k|]; [destruct T6 as (w & -> & _)|subst stop]; reflexivity.
  - injection E as <-. constructor; [exact I1|exact I2|exact I3].
  - destruct (pool_test_heard PE P r Hh) as [TH TS]. pose proof (pool_test_frame PE P) as (T1 & T2 & _). destruct (pool_test PE P) as [P1 [x|w|]]; try discriminate E. cbn [fst] in *. injection E as ->.
    assert (ER : recorded P' = recorded P) by (unfold recorded; now rewrite T1, T2).
    destruct (po_stopped P) as [k|] eqn:ES0; [|destruct (po_stopped P') as [k|] eqn:ES1].
    + constructor; rewrite TH; [rewrite ER; exact I1|exact I2|]. rewrite (TS k eq_refl). exact I3.
    + destruct TH as (v & _ & V). constructor; rewrite V.
      * rewrite ER, I1. unfold last_announced. now rewrite fold_left_app.
      * rewrite new_bests_app. cbn [new_bests flat_map fst app]. rewrite app_nil_r. exact I2.
      * rewrite stops_app, I3, ES1. reflexivity.
    + constructor; rewrite TH; [rewrite ER; exact I1|exact I2|]. rewrite ES1. exact I3.
Qed.
Lemma heard_history PE P ops L P' r : sorts (pe_sort PE) -> heard (pe_env PE) r -> history PE P ops L P' -> forall ever, pool_inv PE ever P -> heard_inv PE r P -> heard_inv PE r P'.
Proof.
  intros HS Hh H. induction H as [P|P a P1 ops L P2 E H IH]; intros ever HI HH; [exact HH|]. destruct (exec_inv PE ever P a P1 HS HI E) as [I1 _]. eapply IH; [exact I1|]. exact (heard_exec PE ever P a P1 r HS HI Hh HH E).
Qed.
Lemma pool_of_trace PE ms conds : po_trace (pool_of PE ms conds) = [].
Proof.
  unfold pool_of. assert (A : forall l P, po_trace (fold_left add_pool_condition l P) = po_trace P) by (induction l as [|sc l IH]; intros P; [reflexivity|]; cbn [fold_left]; rewrite IH; reflexivity).
  assert (B : forall l P, po_trace (fold_left (push_back PE) l P) = po_trace P) by (induction l as [|sc l IH]; intros P; [reflexivity|]; cbn [fold_left]; rewrite IH; reflexivity).
  rewrite A, B. reflexivity.
Qed.
Lemma new_heard PE ms conds r : Forall (joinable PE) ms -> heard_inv PE r (pool_of PE ms conds).
Proof.
  intros HJ. destruct (pool_of_inv PE ms conds HJ) as [_ EB]. destruct (pool_of_standard PE ms conds HJ) as [_ ES].
  constructor; rewrite (pool_of_trace PE ms conds); [unfold recorded; rewrite EB; reflexivity|constructor|rewrite ES; reflexivity].
Qed.

(** ** C66 *)
(** What a step of the pool shows to a reporter that is not behind a throwing one, in order:
    on_start (while no step has been completed), on_pre_step, what [reported] says about the members
    that were started, on_post_step when the best fitness shown is the one announced
    last, and on_stop if the step latched a stop condition. *)
Theorem C66_step_events : forall PE ms conds ops L0 P inp P' x r, sorts (pe_sort PE) -> Forall (joinable PE) ms ->
  history PE (pool_of PE ms conds) ops L0 P -> heard (pe_env PE) r -> pool_step PE P inp = (P', Ok x) ->
  let before := received r (po_trace P) in let n := c_steps (po_base P) in
  exists seen v stop,
    received r (po_trace P') = before ++ ((if Nat.eqb n 0 then [(EStart, view P)] else []) ++ [(EPreStep, view P)] ++ seen ++ [(EPostStep, v)]) ++ stop /\
    reported (e_info (pe_env PE)) n (po_members P') (last_announced before) (launches PE P) seen /\
    (forall f, last_announced (before ++ seen) = Some f -> c_best_fit v = f) /\ c_steps v = n /\
    match po_stopped P, po_stopped P' with
    | None, Some k => exists w, stop = [(EStop k, w)] /\ c_steps w = S n
    | _, _ => stop = []
    end.
Proof.
  intros PE ms conds ops L0 P inp P' x r HS HJ H Hh E before n. destruct (pool_of_inv PE ms conds HJ) as [HI _]. destruct (history_inv _ _ _ _ _ HS H [] HI) as [I1 _]. destruct (heard_history PE _ _ _ _ r HS Hh H [] HI (new_heard PE ms conds r HJ)) as [J1 _ _].
  destruct (step_heard PE _ P inp P' x r HS I1 Hh E) as (seen & v & stop & T1 & T2 & T3 & T4 & T5 & T6 & _). exists seen, v, stop. split; [exact T1|]. split; [unfold before; rewrite <- J1; exact T2|]. split; [|split; [exact T5|exact T6]].
  intros f Hf. apply T4. rewrite T3, J1. unfold last_announced in Hf. rewrite fold_left_app in Hf. exact Hf.
Qed.
(** The calls of interrupt() show nothing, those of test_stop_conditions() at most on_stop. *)
Theorem C66_other_calls : forall PE P a P' r, heard (pe_env PE) r -> (forall i, a <> PoStep i) -> pool_exec PE P a = (P', Ok tt) ->
  match po_stopped P, po_stopped P' with
  | None, Some k => a = PoTest /\ exists v, c_steps v = c_steps (po_base P) /\ received r (po_trace P') = received r (po_trace P) ++ [(EStop k, v)]
  | _, _ => received r (po_trace P') = received r (po_trace P)
  end.
Proof.
  intros PE P a P' r Hh Ha E. destruct a as [i| |]; cbn [pool_exec] in E; [now elim (Ha i)| |].
  - injection E as <-. cbn [pool_interrupt with_base with_members po_stopped po_trace]. destruct (po_stopped P); reflexivity.
  - destruct (pool_test_heard PE P r Hh) as [TH _]. destruct (pool_test PE P) as [P1 [y|w|]]; try discriminate E. injection E as ->. cbn [fst] in TH. destruct (po_stopped P), (po_stopped P'); auto.
Qed.
(** Over the whole life of a pool: every announced best is strictly better than the one
    announced before it, and the last one is what the pool's best_fitness() gives; nothing is
    announced before a member was stepped; on_stop is shown exactly once if a stop condition
    has latched, and never otherwise. *)
Theorem C66_announcements : forall PE ms conds ops L P r, sorts (pe_sort PE) -> Forall (joinable PE) ms ->
  history PE (pool_of PE ms conds) ops L P -> heard (pe_env PE) r ->
  let l := new_bests (received r (po_trace P)) in
  Sorted (fun a b => is_better (e_info (pe_env PE)) b a = true) l /\
  (L = [] -> l = []) /\ (L <> [] -> exists l' f, l = l' ++ [f] /\ pool_best_fitness P = Ok f) /\
  stops (received r (po_trace P)) = match po_stopped P with Some k => [k] | None => [] end.
Proof.
  intros PE ms conds ops L P r HS HJ H Hh l. destruct (pool_of_inv PE ms conds HJ) as [HI _]. destruct (history_inv _ _ _ _ _ HS H [] HI) as [I1 _]. cbn [app] in I1. destruct (heard_history PE _ _ _ _ r HS Hh H [] HI (new_heard PE ms conds r HJ)) as [J1 J2 J3]. fold l in J2. rewrite last_announced_last in J1. fold l in J1.
  split; [exact J2|]. split; [|split; [|exact J3]].
  - intros ->. assert (po_best P = None). { destruct (po_best P) as [b|] eqn:EB; [|reflexivity]. destruct I1 as [_ (_ & _ & H3 & _)]. destruct (H3 b EB) as [[] _]. }
    unfold recorded in J1. rewrite H0 in J1. clear - J1. unfold last_of in J1. destruct (rev l) eqn:ER; [|discriminate J1]. rewrite <- (rev_involutive l), ER. reflexivity.
  - intros HL. assert (exists b, po_best P = Some b) as (b & EB). { destruct (po_best P) as [b|] eqn:EB; [eauto|]. destruct I1 as [_ (_ & H2 & _)]. destruct L as [|j L]; [congruence|]. destruct (H2 EB j (or_introl eq_refl)). }
    unfold recorded in J1. rewrite EB in J1. unfold last_of in J1. destruct (rev l) as [|f t] eqn:ER; [discriminate J1|]. injection J1 as J1. exists (rev t), f. split; [rewrite <- (rev_involutive l), ER; reflexivity|]. rewrite <- J1. apply (recorded_pool PE _ P I1). unfold recorded. now rewrite EB.
Qed.

(** Two members, two at a time, and three reporters, the second of which throws whenever it is
    called: the first two hear everything, the third nothing.  Two steps: the first member
    reaches 7, the second 3, then the first 1 while the second does not improve; then the pool
    is interrupted and tested. *)
Definition kind (ev : event) : nat := match ev with EStart => 0 | EPreStep => 1 | EPreEval _ => 2 | ENewBest _ _ => 3 | EPostEval _ _ false => 4 | EPostEval _ _ true => 5 | EPostStep => 6 | EStop _ => 7 end.
Definition ex_reporters (PE : pool_env) : pool_env :=
  {| pe_env := ex_env [quiet; noisy; quiet]; pe_window := pe_window PE; pe_start := pe_start PE; pe_look := pe_look PE; pe_use_predicted := pe_use_predicted PE; pe_active := pe_active PE; pe_concurrent := pe_concurrent PE; pe_sort := pe_sort PE |}.
Example C66_nonvacuous : let PE := ex_reporters (ex_pool_env 6 2 100 true) in
  sorts (pe_sort PE) /\ Forall (joinable PE) ex_two /\ heard (pe_env PE) 0 /\ heard (pe_env PE) 1 /\
  exists P L, history PE (pool_of PE ex_two []) [inputs_of [(8, 7); (4, 3)]; inputs_of [(2, 1); (9, 8)]; PoInterrupt; PoTest]%Z L P /\
    new_bests (received 1 (po_trace P)) = map fofZ [7; 3; 1]%Z /\ stops (received 1 (po_trace P)) = [0] /\
    map (fun e => kind (fst e)) (received 1 (po_trace P)) = [0; 1; 3; 5; 3; 5; 6; 1; 3; 5; 4; 6; 7] /\ received 2 (po_trace P) = [].
Proof.
  cbv zeta. set (PE := ex_reporters (ex_pool_env 6 2 100 true)).
  split; [exact isort_sorts|]. split; [constructor; [|constructor; [|constructor]]; (split; [discriminate|split; [reflexivity|]]); exists [], []; (split; [constructor|reflexivity])|].
  split; [split; [cbn; lia|intros j f Hj; lia]|]. split; [split; [cbn; lia|]; intros [|j] f Hj; [intros [= <-]; reflexivity|lia]|].
  destruct (run_ops_check PE (pool_of PE ex_two []) [inputs_of [(8, 7); (4, 3)]; inputs_of [(2, 1); (9, 8)]; PoInterrupt; PoTest]%Z
    (fun P L => f64s_same (new_bests (received 1 (po_trace P))) (map fofZ [7; 3; 1]%Z) && nat_list_eqb (stops (received 1 (po_trace P))) [0] &&
       nat_list_eqb (map (fun e => kind (fst e)) (received 1 (po_trace P))) [0; 1; 3; 5; 3; 5; 6; 1; 3; 5; 4; 6; 7] && Nat.eqb (length (received 2 (po_trace P))) 0)) as (P & L & H & C); [vm_compute; reflexivity|].
  clearbody PE. apply andb_true_iff in C as [C C4]. apply andb_true_iff in C as [C C3]. apply andb_true_iff in C as [C1 C2]. exists P, L. split; [exact H|]. split; [apply f64s_same_eq, C1|]. split; [apply nat_list_eqb_eq, C2|]. split; [apply nat_list_eqb_eq, C3|]. apply Nat.eqb_eq in C4. now apply length_zero_iff_nil.
Qed.
