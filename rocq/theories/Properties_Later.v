(** * C76: asking an optimizer, and adding reporters and stop conditions to it, while it runs. *)
From Coq Require Import ZArith Bool Lia.
From Flocq Require Import BinarySingleNaN.
From Verif Require Import Prelude Flt FltFacts Flt32 Round8 Round8Facts FlatMap ParInfo ObjInfo ObjInfoFacts Num MathTools Optimizer OptimizerFacts
  Properties_Optimizer Properties_Optimizer2 Properties_Optimizer3 Properties_Optimizer4.

(** ** Specification *)
(** The state a client can see: everything but the cached trend, which is never stale (C26). *)
Definition visible (c : core) : core := strip c.
(** What reporter [r] has been told, and the state it could see at those times. *)
Definition seen (r : nat) (tr : list delivery) : list (event * core) := map (fun x => (fst x, visible (snd x))) (received r tr).
(** fitness_trend(), progress() and predicted_fitness() *)
Definition is_query (a : op) : bool := match a with OpTrend | OpProgress | OpPredict _ => true | _ => false end.
Definition is_add (a : op) : bool := match a with OpAdd _ => true | _ => false end.
(** Conditions without state of their own: the library's, except error_condition, predicted_fitness_condition and similarity_condition. *)
Definition stateless (sc : stop_cond) : Prop :=
  match sc with ScAbort | ScFlat _ | ScTarget _ | ScMaxSteps _ | ScMinProgress _ _ => True | _ => False end.

(** ** Simulation *)
Definition idle (E : env) (c : core) (sc : stop_cond) : Prop := answer E c sc = Ok false /\ sc_after E c sc = sc.
Lemma test_list_idle E tail : forall c i, cache_ok E c -> Forall (idle E c) tail ->
  exists c', test_list E c i tail = (c', tail, Ok None) /\ strip c' = strip c /\ cache_ok E c'.
Proof.
  induction tail as [|sc t IH]; intros c i Hc HF; cbn [test_list]; [eauto|]. inversion_clear HF as [|? ? [H1 H2] H3].
  pose proof (sc_test_core E c sc Hc) as [S1 S2]. unfold answer in H1. unfold sc_after in H2. destruct (sc_test E c sc) as [[c1 sc1] r1]. cbn [fst snd] in *. subst r1 sc1.
  destruct (IH c1 (S i) S2) as (c2 & -> & C1 & C2).
  - eapply Forall_impl; [|exact H3]. intros y [A1 A2]. destruct (sc_test_strip E c1 c y S2 Hc S1) as [B1 B2]. split; congruence.
  - exists c2. split; [reflexivity|]. split; [congruence|exact C2].
Qed.
Lemma test_list_sim E tail l : forall c c' i, cache_ok E c -> cache_ok E c' -> strip c = strip c' -> Forall (idle E c) tail ->
  exists c1 c1' l1 r, test_list E c i (l ++ tail) = (c1, l1 ++ tail, r) /\ test_list E c' i l = (c1', l1, r) /\ strip c1 = strip c1' /\ cache_ok E c1 /\ cache_ok E c1'.
Proof.
  induction l as [|sc t IH]; intros c c' i Hc Hc' Hs HF; cbn [app test_list].
  - destruct (test_list_idle E tail c i Hc HF) as (c1 & -> & C1 & C2). exists c1, c', [], (Ok None). split; [reflexivity|]. split; [reflexivity|]. split; [congruence|auto].
  - destruct (sc_test_strip E c c' sc Hc Hc' Hs) as [A1 A2]. pose proof (sc_test_core E c sc Hc) as [S1 S2]. pose proof (sc_test_core E c' sc Hc') as [S1' S2'].
    unfold answer in A1. unfold sc_after in A2. destruct (sc_test E c sc) as [[c1 sc1] r1], (sc_test E c' sc) as [[c2 sc2] r2]. cbn [fst snd] in *. subst r2 sc2.
    assert (Hs1 : strip c1 = strip c2) by congruence.
    destruct r1 as [[|]|w|].
    + exists c1, c2, (sc1 :: t), (Ok (Some i)). auto.
    + destruct (IH c1 c2 (S i) S2 S2' Hs1) as (d1 & d2 & l1 & r & -> & -> & D1 & D2 & D3).
      * eapply Forall_impl; [|exact HF]. intros x [B1 B2]. destruct (sc_test_strip E c1 c x S2 Hc S1) as [B3 B4]. split; congruence.
      * exists d1, d2, (sc1 :: l1), r. auto.
    + exists c1, c2, (sc1 :: t), (Throw w). auto.
    + exists c1, c2, (sc1 :: t), Undef. auto.
Qed.
(** [o] is like [o'], with the conditions [tail] in addition, and its reporter [r] has seen [pre] before. *)
Record sim (E : env) (r : nat) (pre : list (event * core)) (tail : list stop_cond) (o o' : opt) : Prop := {
  sim_core : visible (o_core o) = visible (o_core o');
  sim_scs : o_scs o = o_scs o' ++ tail;
  sim_stopped : o_stopped o = o_stopped o';
  sim_seen : heard E r -> seen r (o_trace o) = pre ++ seen r (o_trace o') }.
Lemma seen_signal E r ev c tr : heard E r -> seen r (signal E ev c tr) = seen r tr ++ [(ev, visible c)].
Proof. intros H. unfold seen. rewrite signal_heard by exact H. now rewrite map_app. Qed.
Lemma test_stop_sim E r pre tail o o' : cache_ok E (o_core o) -> cache_ok E (o_core o') -> sim E r pre tail o o' -> Forall (idle E (o_core o)) tail ->
  sim E r pre tail (fst (test_stop E o)) (fst (test_stop E o')) /\ snd (test_stop E o) = snd (test_stop E o').
Proof.
  intros Hc Hc' [H1 H2 H3 H4] HF. unfold test_stop. rewrite <- H3. destruct (o_stopped o) as [k|] eqn:Eo; [split; [constructor; auto; cbn; congruence|reflexivity]|].
  rewrite H2. destruct (test_list_sim E tail (o_scs o') (o_core o) (o_core o') 0 Hc Hc' H1 HF) as (c1 & c1' & l1 & x & -> & -> & D1 & D2 & D3).
  destruct x as [[k|]|w|]; cbn [fst snd]; (split; [constructor; cbn [o_core o_scs o_stopped o_trace]; auto|reflexivity]).
  intros Hh. rewrite !seen_signal by exact Hh. unfold visible; rewrite (H4 Hh), D1, app_assoc. reflexivity.
Qed.
Lemma absorb_strip E c pop rs : strip (absorb E c pop rs) = strip (absorb E (strip c) pop rs).
Proof.
  unfold absorb, update_fitness_tracking. cbn [strip c_best_fit]. destruct (is_better _ _ _); cbn [with_best with_current c_cap strip c_hist c_cur_fit];
      destruct (Nat.ltb 0 (c_cap c)); cbn [c_hist with_best with_current strip]; reflexivity.
Qed.
Lemma first_error pre e post pre' e' post' : pre ++ ScError e :: post = pre' ++ ScError e' :: post' ->
  (forall x, ~ In (ScError x) pre) -> (forall x, ~ In (ScError x) pre') -> pre = pre' /\ post = post'.
Proof.
  revert pre'. induction pre as [|a pre IH]; intros [|b pre'] H Hp Hp'; cbn [app] in H.
  - injection H as _ ->. auto.
  - injection H as <- _. destruct (Hp' e). now left.
  - injection H as -> _. destruct (Hp e'). now left.
  - injection H as -> H. destruct (IH pre' H) as [-> ->]; [intros x Hx; apply (Hp x); now right|intros x Hx; apply (Hp' x); now right|]. auto.
Qed.
Lemma tr_start_seen E r o o' pre : heard E r -> visible (o_core o) = visible (o_core o') -> seen r (o_trace o) = pre ++ seen r (o_trace o') ->
  seen r (tr_start E o) = pre ++ seen r (tr_start E o').
Proof.
  intros Hh Hs Ht. unfold tr_start. rewrite !seen_signal by exact Hh.
  assert (Hst : c_steps (o_core o) = c_steps (o_core o')) by (apply (f_equal c_steps) in Hs; exact Hs). rewrite <- Hst, Hs.
  destruct (Nat.eqb _ _); rewrite ?seen_signal by exact Hh; rewrite Ht, ?Hs, !app_assoc; reflexivity.
Qed.
Lemma step_sim E r pre tail o o' i : oi_dim (e_info E) <> 0 -> wf_input E i -> opt_inv E o -> opt_inv E o' -> sim E r pre tail o o' ->
  (forall e, ~ In (ScError e) tail) -> Forall (idle E (step_core E (o_core o) i)) tail ->
  sim E r pre tail (fst (step E o i)) (fst (step E o' i)) /\ snd (step E o i) = snd (step E o' i).
Proof.
  intros Hd Hw [I1 I2 _] [I1' I2' _] [H1 H2 H3 H4] Hte HF.
  destruct (step_shape E o i Hd Hw I2) as (scs & tr & -> & S1 & S2). destruct (step_shape E o' i Hd Hw I2') as (scs' & tr' & -> & S1' & S2').
  apply test_stop_sim; cbn [o_core o_scs o_stopped o_trace]; auto; try (now apply step_core_cache).
  assert (Hpre : heard E r -> forall ev c c', visible c = visible c' -> forall t t', seen r t = pre ++ seen r t' -> seen r (signal E ev c t) = pre ++ seen r (signal E ev c' t')).
  { intros Hh ev c c' Hcc t t' Ht. rewrite !seen_signal by exact Hh. now rewrite Ht, Hcc, app_assoc. }
  assert (Hab : visible (absorb E (o_core o) (si_pop i) (si_results i)) = visible (absorb E (o_core o') (si_pop i) (si_results i))).
  { unfold visible in *. rewrite absorb_strip, H1, <- absorb_strip. reflexivity. }
  constructor; cbn [o_core o_scs o_stopped o_trace].
  - unfold visible in *. rewrite step_core_strip, H1, <- step_core_strip. reflexivity.
  - destruct (too_many_errors E (si_results i)).
    + destruct (S1 eq_refl) as ((p & e & q & E1 & E2 & ->) & _). destruct (S1' eq_refl) as ((p' & e' & q' & E1' & E2' & ->) & _).
      rewrite E1' in H2. rewrite E1 in H2. rewrite <- app_assoc in H2. cbn [app] in H2. destruct (first_error _ _ _ _ _ _ H2 E2 E2') as [-> ->]. now rewrite <- app_assoc.
    + destruct (S2 eq_refl) as (-> & _). destruct (S2' eq_refl) as (-> & _). exact H2.
  - exact H3.
  - intros Hh. pose proof (tr_start_seen E r o o' pre Hh H1 (H4 Hh)) as Hts. destruct (too_many_errors E (si_results i)).
    + destruct (S1 eq_refl) as (_ & ->). destruct (S1' eq_refl) as (_ & ->). now apply Hpre.
    + destruct (S2 eq_refl) as (_ & ->). destruct (S2' eq_refl) as (_ & ->). cbv zeta.
      assert (Hb : c_best_fit (o_core o) = c_best_fit (o_core o')) by (apply (f_equal c_best_fit) in H1; exact H1). rewrite <- Hb.
      apply Hpre; [exact Hh|exact Hab|]. apply Hpre; [exact Hh|exact Hab|]. destruct (is_better _ _ _); [|now apply Hpre].
      apply Hpre; [exact Hh| |now apply Hpre]. clear - H1. unfold visible in *.
      set (fits := fits_of E (si_results i)). set (bi := find_best_fitness (e_info E) fits).
      transitivity (strip (with_best (with_current (strip (o_core o)) fits (nth bi fits fnan) (nth bi (si_pop i) [])) (nth bi fits fnan) (map rounded (nth bi (si_pop i) [])))); [reflexivity|]. rewrite H1. reflexivity.
Qed.
Lemma stateless_after E c sc : stateless sc -> sc_after E c sc = sc.
Proof.
  unfold sc_after. destruct sc; intros H; try destruct H; try reflexivity. cbn [sc_test]. destruct (Nat.leb _ _); [|reflexivity]. now destruct (progress E c).
Qed.
Lemma exec_sim E r pre tail o o' a : oi_dim (e_info E) <> 0 -> wf_op E a -> opt_inv E o -> opt_inv E o' -> sim E r pre tail o o' ->
  Forall stateless tail -> (tail = [] \/ is_add a = false) -> (forall sc, In sc tail -> answer E (o_core (exec E o' a)) sc = Ok false) ->
  sim E r pre tail (exec E o a) (exec E o' a).
Proof.
  intros Hd Hw HI HI' HS Htl Hadd Hans.
  pose proof (exec_inv E o' a HI' Hd Hw) as [J1' _ _]. pose proof (exec_core E o' a HI' Hd Hw) as Hcore.
  assert (Hidle : forall c, cache_ok E c -> strip c = strip (op_core E (o_core o') a) -> Forall (idle E c) tail).
  { intros c Hc Hs. apply Forall_forall. intros sc Hsc. rewrite Forall_forall in Htl. split; [|now apply stateless_after, Htl].
    rewrite <- (Hans sc Hsc). apply sc_test_strip; [exact Hc|exact J1'|]. now rewrite Hs, Hcore. }
  assert (Hte : forall e, ~ In (ScError e) tail) by (intros e He; rewrite Forall_forall in Htl; now specialize (Htl _ He)).
  destruct HI as [I1 I2 I3]. destruct HI' as [I1' I2' I3']. destruct a as [i| | | | |n|sc]; cbn [exec is_add] in *.
  - apply step_sim; auto; [constructor; auto|constructor; auto|]. apply Hidle; [now apply step_core_cache|]. cbn [op_core]. destruct HS as [H1 _ _ _]. unfold visible in H1. now rewrite step_core_strip, H1, <- step_core_strip.
  - destruct HS as [H1 H2 H3 H4]. constructor; cbn [with_core o_core o_scs o_stopped o_trace]; auto. unfold visible in *.
    transitivity (strip (with_interrupt (strip (o_core o)) true)); [reflexivity|]. rewrite H1. reflexivity.
  - apply test_stop_sim; auto. apply Hidle; [exact I1|]. cbn [op_core]. apply HS.
  - destruct HS as [H1 H2 H3 H4]. constructor; cbn [with_core o_core o_scs o_stopped o_trace]; auto. unfold visible in *.
    pose proof (fitness_trend_spec E (o_core o) I1) as (_ & -> & _). pose proof (fitness_trend_spec E (o_core o') I1') as (_ & -> & _). exact H1.
  - destruct HS as [H1 H2 H3 H4]. constructor; cbn [with_core o_core o_scs o_stopped o_trace]; auto. unfold visible in *.
    pose proof (progress_spec E (o_core o) I1) as (-> & _). pose proof (progress_spec E (o_core o') I1') as (-> & _). exact H1.
  - destruct HS as [H1 H2 H3 H4]. constructor; cbn [with_core o_core o_scs o_stopped o_trace]; auto. unfold visible in *.
    pose proof (predicted_spec E (o_core o) n I1) as (-> & _). pose proof (predicted_spec E (o_core o') n I1') as (-> & _). exact H1.
  - destruct Hadd as [->|Hadd]; [|discriminate Hadd]. destruct HS as [H1 H2 H3 H4]. rewrite app_nil_r in H2. constructor; cbn [add_stop_condition o_core o_scs o_stopped o_trace]; auto.
    + assert (Hcap : c_cap (o_core o) = c_cap (o_core o')) by (apply (f_equal c_cap) in H1; exact H1). rewrite Hcap. unfold visible in *.
      destruct (Nat.ltb _ _); [|exact H1]. transitivity (strip (with_cap (strip (o_core o)) (min_window sc))); [reflexivity|]. rewrite H1. reflexivity.
    + now rewrite H2, app_nil_r.
Qed.
Lemma sim_results E r pre o o' : oi_dim (e_info E) <> 0 -> opt_inv E o -> opt_inv E o' -> sim E r pre [] o o' ->
  (forall i, wf_input E i -> snd (step E o i) = snd (step E o' i)) /\ snd (test_stop E o) = snd (test_stop E o') /\
  snd (fitness_trend E (o_core o)) = snd (fitness_trend E (o_core o')) /\ snd (progress E (o_core o)) = snd (progress E (o_core o')) /\
  forall n, snd (predicted_fitness E (o_core o) n) = snd (predicted_fitness E (o_core o') n).
Proof.
  intros Hd HI HI' HS. split; [|split].
  - intros i Hi. apply (step_sim E r pre []); auto.
  - destruct HI, HI'. apply (test_stop_sim E r pre []); auto.
  - destruct HI as [I1 _ _], HI' as [I1' _ _]. pose proof (sim_core _ _ _ _ _ _ HS) as H1. unfold visible in H1.
    pose proof (compute_trend_strip E _ _ H1) as HT. apply strip_fields in H1.
    assert (H2 : c_steps (o_core o) = c_steps (o_core o') /\ c_cap (o_core o) = c_cap (o_core o') /\ c_hist (o_core o) = c_hist (o_core o') /\ c_samples (o_core o) = c_samples (o_core o')) by tauto.
    destruct H2 as (F1 & F2 & F3 & F4).
    pose proof (fitness_trend_spec E _ I1) as (-> & _). pose proof (fitness_trend_spec E _ I1') as (-> & _). split; [exact HT|].
    pose proof (progress_spec E _ I1) as (_ & _ & ->). pose proof (progress_spec E _ I1') as (_ & _ & ->). rewrite F2, F3, F4, HT. split; [reflexivity|].
    intros n. pose proof (predicted_spec E _ n I1) as (_ & _ & ->). pose proof (predicted_spec E _ n I1') as (_ & _ & ->). now rewrite F1, F2, F3, HT.
Qed.

(** ** Asking *)
(** Leaving out all calls of fitness_trend(), progress() and predicted_fitness() changes nothing anybody can see:
    neither the state, nor the stop conditions, nor what reporters are told, nor any result. *)
Theorem C76_asking_changes_nothing : forall E extra h r, oi_dim (e_info E) <> 0 -> Forall (wf_op E) h ->
  let o := after E extra h in let o' := after E extra (filter (fun a => negb (is_query a)) h) in
  visible (o_core o) = visible (o_core o') /\ o_scs o = o_scs o' /\ o_stopped o = o_stopped o' /\ (heard E r -> seen r (o_trace o) = seen r (o_trace o')) /\
  (forall i, wf_input E i -> snd (step E o i) = snd (step E o' i)) /\ snd (test_stop E o) = snd (test_stop E o') /\
  snd (fitness_trend E (o_core o)) = snd (fitness_trend E (o_core o')) /\ snd (progress E (o_core o)) = snd (progress E (o_core o')) /\
  forall n, snd (predicted_fitness E (o_core o) n) = snd (predicted_fitness E (o_core o') n).
Proof.
  intros E extra h r Hd Hw. cbv zeta. set (nq := fun a => negb (is_query a)).
  assert (Hwf : forall h, Forall (wf_op E) h -> Forall (wf_op E) (filter nq h)).
  { intros l Hl. rewrite Forall_forall in *. intros a Ha. apply filter_In in Ha as [Ha _]. now apply Hl. }
  assert (HS : sim E r [] [] (after E extra h) (after E extra (filter nq h))).
  { induction h as [|a h IH] using rev_ind; [constructor; auto; now rewrite app_nil_r|]. apply Forall_app in Hw as [Hw Ha]. inversion_clear Ha as [|? ? Hwa _]. specialize (IH Hw).
    pose proof (after_inv E extra h Hd Hw) as HI. pose proof (after_inv E extra (filter nq h) Hd (Hwf h Hw)) as HI'.
    rewrite after_snoc, filter_app. cbn [filter]. destruct (nq a) eqn:Ea.
    - rewrite after_snoc. apply exec_sim; auto. intros sc [].
    - rewrite app_nil_r. destruct HI as [I1 _ _]. destruct IH as [H1 H2 H3 H4]. unfold nq in Ea. destruct a; try discriminate Ea; constructor; cbn [exec with_core o_core o_scs o_stopped o_trace]; auto; unfold visible in *; rewrite <- H1.
      + now apply fitness_trend_spec.
      + now apply progress_spec.
      + now apply predicted_spec. }
  pose proof (after_inv E extra h Hd Hw) as HI. pose proof (after_inv E extra (filter nq h) Hd (Hwf h Hw)) as HI'.
  destruct (sim_results E r [] _ _ Hd HI HI' HS) as (R1 & R2 & R3 & R4 & R5). destruct HS as [H1 H2 H3 H4]. rewrite app_nil_r in H2. cbn [app] in H4. split; [exact H1|]. split; [exact H2|]. split; [exact H3|]. split; [exact H4|]. split; [exact R1|]. auto.
Qed.

(** ** Reporters that come later *)
Lemma signal_new E r ev c tr : length (e_reporters E) <= r -> received r (signal E ev c tr) = received r tr.
Proof.
  intros H. unfold signal. destruct (deliver_spec (e_reporters E) ev c 0 tr) as (k & K1 & _ & K3 & _). rewrite K3, received_app, received_seq.
  destruct (Nat.ltb_spec r (0 + k)); [lia|]. rewrite andb_false_r. apply app_nil_r.
Qed.
(** What the traces of two optimizers have in common, if a single call keeps it. *)
Lemma exec_traces (P : list delivery -> list delivery -> Prop) E rs a b x :
  (forall ev c t u, P t u -> P (signal (with_reporters E rs) ev c t) (signal E ev c u)) ->
  same_but_trace a b -> P (o_trace a) (o_trace b) -> P (o_trace (exec (with_reporters E rs) a x)) (o_trace (exec E b x)).
Proof.
  intros HP HS H0.
  assert (HT : forall a b, same_but_trace a b -> P (o_trace a) (o_trace b) -> P (o_trace (fst (test_stop (with_reporters E rs) a))) (o_trace (fst (test_stop E b)))).
  { clear a b HS H0. intros a b (H1 & H2 & H3) H0. unfold test_stop. rewrite H1, H2, H3, test_list_reporters. destruct (o_stopped b) as [k|]; [exact H0|].
    destruct (test_list E (o_core b) 0 (o_scs b)) as [[c scs] [[k|]|w|]]; cbn [fst o_trace]; auto. }
  destruct x as [i| | | | |n|sc]; cbn [exec with_core o_trace add_stop_condition]; auto.
  pose proof HS as (H1 & H2 & H3). unfold step. change (e_info (with_reporters E rs)) with (e_info E).
  destruct (Nat.eqb (oi_dim (e_info E)) 0); [exact H0|].
  unfold evaluate_step. cbn [o_core o_scs o_stopped o_trace]. change (e_info (with_reporters E rs)) with (e_info E).
  change (too_many_errors (with_reporters E rs)) with (too_many_errors E). change (allowed_errors (with_reporters E rs)) with (allowed_errors E).
  rewrite H1, H2, H3.
  assert (Hts : P (signal (with_reporters E rs) (EPreEval (si_pop i)) (o_core b) (signal (with_reporters E rs) EPreStep (o_core b) (if Nat.eqb (c_steps (o_core b)) 0 then signal (with_reporters E rs) EStart (o_core b) (o_trace a) else o_trace a)))
                  (signal E (EPreEval (si_pop i)) (o_core b) (signal E EPreStep (o_core b) (if Nat.eqb (c_steps (o_core b)) 0 then signal E EStart (o_core b) (o_trace b) else o_trace b)))).
  { apply HP, HP. destruct (Nat.eqb _ _); [now apply HP|exact H0]. }
  destruct (too_many_errors E (si_results i)).
  - destruct (set_error (o_scs b) _) as [l|].
    + apply HT; [unfold same_but_trace; cbn; auto|]. cbn [o_trace]. exact Hts.
    + cbn [fst o_trace]. exact Hts.
  - destruct (nth_error (map _ (si_results i)) _) as [f|]; [|cbn [fst o_trace]; exact Hts].
    destruct (nth_error (si_pop i) _) as [p|]; [|cbn [fst o_trace]; exact Hts].
    destruct (negb _); [cbn [fst o_trace]; exact Hts|].
    apply HT; [unfold same_but_trace; cbn [o_core o_scs o_stopped]; auto|]. cbn [o_trace]. apply HP, HP. destruct (is_better _ _ _); [now apply HP|exact Hts].
Qed.
Lemma with_own_reporters E : with_reporters E (e_reporters E) = E.
Proof. now destruct E. Qed.
Lemma heard_more E f j : heard E j -> heard (with_reporters E (e_reporters E ++ [f])) j.
Proof.
  intros [H1 H2]. split; [cbn [with_reporters e_reporters]; rewrite app_length; lia|]. cbn [with_reporters e_reporters]. intros k g Hk Hg. rewrite nth_error_app1 in Hg by lia. exact (H2 k g Hk Hg).
Qed.
(** A reporter [f] added with add_reporter() after the calls [h1]: the optimizer goes on as it would without it; every reporter in
    front that hears everything is told the same; and the new one is told what it would have been told from then on
    if it had been there from the beginning (so if a step has completed before, it is not told about the start). *)
Theorem C76_late_reporter : forall E f extra h1 h2, oi_dim (e_info E) <> 0 -> Forall (wf_op E) (h1 ++ h2) ->
  let E' := with_reporters E (e_reporters E ++ [f]) in let n := length (e_reporters E) in
  let o := fold_left (exec E') h2 (after E extra h1) in
  same_but_trace o (after E extra (h1 ++ h2)) /\
  (forall j, heard E j -> received j (o_trace o) = received j (o_trace (after E extra (h1 ++ h2)))) /\
  (heard E' n -> seen n (o_trace (after E' extra (h1 ++ h2))) = seen n (o_trace (after E' extra h1)) ++ seen n (o_trace o)).
Proof.
  intros E f extra h1 h2 Hd Hw E' n o.
  assert (Hsame : forall h a b, same_but_trace a b -> same_but_trace (fold_left (exec E') h a) (fold_left (exec E) h b)).
  { induction h as [|x h IH]; intros a b HS; [exact HS|]. cbn [fold_left]. apply IH. now apply exec_reporters. }
  assert (HS : same_but_trace o (after E extra (h1 ++ h2))) by (unfold o; rewrite after_app; apply Hsame; unfold same_but_trace; auto).
  split; [exact HS|]. split.
  - intros j Hj. unfold o. rewrite after_app.
    assert (G : forall h a b, same_but_trace a b -> received j (o_trace a) = received j (o_trace b) -> received j (o_trace (fold_left (exec E') h a)) = received j (o_trace (fold_left (exec E) h b))).
    { induction h as [|x h IH]; intros a b HSab Hr; [exact Hr|]. cbn [fold_left]. apply IH; [now apply exec_reporters|].
      apply (exec_traces (fun t u => received j t = received j u)); auto. intros ev c t u Htu. rewrite !signal_heard; [now rewrite Htu|exact Hj|now apply heard_more]. }
    apply G; [unfold same_but_trace; auto|reflexivity].
  - intros Hn. apply Forall_app in Hw as [Hw1 Hw2].
    assert (Hnone : forall h, seen n (o_trace (after E extra h)) = []).
    { intros h. unfold seen. replace (received n (o_trace (after E extra h))) with (@nil (event * core)); [reflexivity|]. symmetry.
      induction h as [|x h IH] using rev_ind.
      - unfold after, created. cbn [fold_left]. assert (HH : forall l o, o_trace (fold_left add_stop_condition l o) = o_trace o) by (induction l as [|sc l IHl]; intros p; cbn [fold_left]; [reflexivity|now rewrite IHl]). rewrite HH. reflexivity.
      - rewrite after_snoc. rewrite <- (with_own_reporters E) at 1. apply (exec_traces (fun t _ => received n t = []) E (e_reporters E) _ (after E extra h) x); [|unfold same_but_trace; auto|exact IH].
        intros ev c t u Ht. rewrite with_own_reporters, signal_new by (unfold n; lia). exact Ht. }
    assert (G : forall h, Forall (wf_op E) h -> sim E' n (seen n (o_trace (after E' extra h1))) [] (fold_left (exec E') h (after E' extra h1)) (fold_left (exec E') h (after E extra h1)) /\
              opt_inv E' (fold_left (exec E') h (after E' extra h1)) /\ opt_inv E' (fold_left (exec E') h (after E extra h1))).
    { assert (HS1 : same_but_trace (after E' extra h1) (after E extra h1)) by apply (C24_reporters_have_no_influence E (e_reporters E ++ [f]) extra h1 {| si_pop := []; si_results := []; si_interrupt := false |}).
      assert (Hd' : oi_dim (e_info E') <> 0) by exact Hd.
      induction h as [|x h IH] using rev_ind; intros Hh.
      - cbn [fold_left]. destruct HS1 as (S1 & S2 & S3). split; [|split].
        + constructor; [now rewrite S1|now rewrite app_nil_r|exact S3|]. intros _. rewrite Hnone. now rewrite app_nil_r.
        + apply after_inv; [exact Hd'|exact Hw1].
        + pose proof (after_inv E extra h1 Hd Hw1) as [J1 J2 J3]. constructor; [exact J1|exact J2|exact J3].
      - apply Forall_app in Hh as [Hh Hx]. inversion_clear Hx as [|? ? Hwx _]. destruct (IH Hh) as (G1 & G2 & G3). rewrite !fold_left_app. cbn [fold_left]. split; [|split].
        + apply exec_sim; auto. intros sc [].
        + now apply exec_inv.
        + now apply exec_inv. }
    destruct (G h2 Hw2) as (G1 & _). rewrite after_app. exact (sim_seen _ _ _ _ _ _ G1 Hn).
Qed.

(** ** Stop conditions that come later *)
Lemma other_cap E o a : opt_inv E o -> oi_dim (e_info E) <> 0 -> wf_op E a -> is_add a = false -> c_cap (o_core (exec E o a)) = c_cap (o_core o).
Proof.
  intros HI Hd Hw Ha. pose proof (exec_core E o a HI Hd Hw) as H. apply (f_equal c_cap) in H. change (c_cap (o_core (exec E o a)) = c_cap (op_core E (o_core o) a)) in H. rewrite H.
  destruct a as [i| | | | |n|sc]; cbn [op_core]; try reflexivity; [|discriminate Ha].
  unfold step_core. assert (X : forall rs pop, c_cap (absorb E (o_core o) pop rs) = c_cap (o_core o)) by (intros; unfold absorb, update_fitness_tracking; destruct (is_better _ _ _); cbn [with_best with_current c_cap]; destruct (Nat.ltb 0 _); reflexivity).
  destruct (too_many_errors E (si_results i)), (si_interrupt i); cbn [with_interrupt with_steps c_cap]; auto.
Qed.
(** A condition without state added with add_stop_condition() after the calls [h1] (which add none): if it has not held at any time
    before, the optimizer is - then and after any further calls - as if it had been added at the beginning.
    (The tracking window must be large enough already.) *)
Theorem C76_late_condition : forall E extra h1 h2 sc r, oi_dim (e_info E) <> 0 -> Forall (wf_op E) (h1 ++ h2) -> stateless sc ->
  min_window sc <= c_cap (o_core (created E extra)) -> forallb (fun a => negb (is_add a)) h1 = true ->
  (forall p q, h1 = p ++ q -> answer E (o_core (after E extra p)) sc = Ok false) ->
  let early := after E extra (OpAdd sc :: h1 ++ h2) in let late := after E extra (h1 ++ OpAdd sc :: h2) in
  visible (o_core early) = visible (o_core late) /\ o_scs early = o_scs late /\ o_stopped early = o_stopped late /\
  (heard E r -> seen r (o_trace early) = seen r (o_trace late)) /\
  (forall i, wf_input E i -> snd (step E early i) = snd (step E late i)) /\ snd (test_stop E early) = snd (test_stop E late).
Proof.
  intros E extra h1 h2 sc r Hd Hw Hsc Hcap Hna Hnever. cbv zeta. apply Forall_app in Hw as [Hw1 Hw2].
  assert (G1 : sim E r [] [sc] (after E extra (OpAdd sc :: h1)) (after E extra h1) /\ c_cap (o_core (after E extra h1)) = c_cap (o_core (created E extra))).
  { revert Hna Hnever Hw1. induction h1 as [|a h IH] using rev_ind; intros Hna Hnever Hw1.
    - split; [|reflexivity]. unfold after. cbn [fold_left exec]. constructor; cbn [add_stop_condition o_core o_scs o_stopped o_trace]; auto.
      destruct (Nat.ltb_spec (c_cap (o_core (created E extra))) (min_window sc)); [lia|reflexivity].
    - rewrite forallb_app in Hna. apply andb_prop in Hna as [Hna Ha]. cbn [forallb] in Ha. rewrite andb_true_r in Ha. apply negb_true_iff in Ha.
      apply Forall_app in Hw1 as [Hw1 Hwa]. inversion_clear Hwa as [|? ? Hwa' _].
      destruct IH as [IH1 IH2]; [exact Hna|intros p q Hpq; apply (Hnever p (q ++ [a])); now rewrite Hpq, <- app_assoc|exact Hw1|].
      pose proof (after_inv E extra h Hd Hw1) as HI'. assert (HI : opt_inv E (after E extra (OpAdd sc :: h))) by (apply after_inv; [exact Hd|constructor; [exact I|exact Hw1]]).
      change (OpAdd sc :: h ++ [a]) with ((OpAdd sc :: h) ++ [a]). rewrite !after_snoc. split; [|rewrite other_cap; auto].
      apply exec_sim; auto. intros s [<-|[]]. rewrite <- after_snoc. apply (Hnever (h ++ [a]) []). now rewrite app_nil_r. }
  destruct G1 as [G1 Gcap].
  assert (HI1 : opt_inv E (after E extra (OpAdd sc :: h1))) by (apply after_inv; [exact Hd|constructor; [exact I|exact Hw1]]).
  assert (HI1' : opt_inv E (after E extra (h1 ++ [OpAdd sc]))) by (apply after_inv; [exact Hd|apply Forall_app; split; [exact Hw1|constructor; [exact I|constructor]]]).
  assert (G2 : sim E r [] [] (after E extra (OpAdd sc :: h1)) (after E extra (h1 ++ [OpAdd sc]))).
  { rewrite after_snoc. destruct G1 as [H1 H2 H3 H4]. constructor; cbn [exec add_stop_condition o_core o_scs o_stopped o_trace]; auto; [|now rewrite app_nil_r].
    destruct (Nat.ltb_spec (c_cap (o_core (after E extra h1))) (min_window sc)); [lia|exact H1]. }
  assert (G : sim E r [] [] (fold_left (exec E) h2 (after E extra (OpAdd sc :: h1))) (fold_left (exec E) h2 (after E extra (h1 ++ [OpAdd sc]))) /\
    opt_inv E (fold_left (exec E) h2 (after E extra (OpAdd sc :: h1))) /\ opt_inv E (fold_left (exec E) h2 (after E extra (h1 ++ [OpAdd sc])))).
  { revert Hw2. induction h2 as [|x h IH] using rev_ind; intros Hh; [auto|]. apply Forall_app in Hh as [Hh Hx]. inversion_clear Hx as [|? ? Hwx _].
    destruct (IH Hh) as (A1 & A2 & A3). rewrite !fold_left_app. cbn [fold_left]. split; [|split; now apply exec_inv]. apply exec_sim; auto. intros s []. }
  replace (after E extra (OpAdd sc :: h1 ++ h2)) with (fold_left (exec E) h2 (after E extra (OpAdd sc :: h1))) by (rewrite <- after_app; reflexivity).
  replace (after E extra (h1 ++ OpAdd sc :: h2)) with (fold_left (exec E) h2 (after E extra (h1 ++ [OpAdd sc]))) by (rewrite <- after_app, <- app_assoc; reflexivity).
  destruct G as (G & J1 & J2). destruct (sim_results E r [] _ _ Hd J1 J2 G) as (R1 & R2 & _). destruct G as [H1 H2 H3 H4]. rewrite app_nil_r in H2. cbn [app] in H4. split; [exact H1|]. split; [exact H2|]. auto.
Qed.

(** With a condition that needs a larger tracking window this fails for predicted_fitness(): tracking starts late, the line is fitted to the
    numbers 0, 1, ... of the samples and evaluated at the number of the step. Here the fitness falls from 9 by one in every step;
    after five steps both optimizers track the samples 6 and 5 and predict the fitness of the next step: 4 - 1 if the condition was there from
    the beginning, and 4 - 1 - 3 if it was added after three steps. *)
Definition through_ends (xs : list Z) (ys : list f32) : linfun :=
  let x0 := f32ofZ (hd 0%Z xs) in let x1 := f32ofZ (last xs 0%Z) in let y0 := hd f32zero ys in let y1 := last ys f32zero in
  let s := f32div (f32sub y1 y0) (f32sub x1 x0) in {| lf_intercept := f32sub y0 (f32mul s x0); lf_slope := s |}.
Definition line_env : env := {| e_info := ex_info; e_cma := false; e_regression := through_ends; e_unsigned_errors := true; e_max_errors := 0; e_reporters := [];
  e_libm := e_libm (ex_env []) |}.
Definition falling : list op := map (fun k => OpStep (good_step k k)) [9; 8; 7; 6; 5]%Z.
Definition foretold (c : core) (x : Z) : bool := match snd (predicted_fitness line_env c 1) with Ok y => f64_same (f64_of_f32 y) (fofZ x) | _ => false end.
Theorem C76_late_prediction_refuted : exists E h1 h2 sc, oi_dim (e_info E) <> 0 /\ Forall (wf_op E) (h1 ++ h2) /\
  (forall p q, h1 = p ++ q -> answer E (o_core (after E [] (OpAdd sc :: p))) sc = Ok false) /\
  let early := o_core (after E [] (OpAdd sc :: h1 ++ h2)) in let late := o_core (after E [] (h1 ++ OpAdd sc :: h2)) in
  map f64_of_f32 (c_hist early) = map f64_of_f32 (c_hist late) /\ c_steps early = c_steps late /\ c_best_fit early = c_best_fit late /\
  exists x y, snd (predicted_fitness E early 1) = Ok x /\ snd (predicted_fitness E late 1) = Ok y /\ f64_of_f32 x = fofZ 3 /\ f64_of_f32 y = fofZ 0.
Proof.
  exists line_env, (firstn 3 falling), (skipn 3 falling), (ScMinProgress fzero 2). split; [discriminate|].
  split; [rewrite firstn_skipn; apply Forall_forall; intros a Ha; apply in_map_iff in Ha as (k & <- & _); apply (ex_wf [])|]. split.
  - intros p q Hpq. assert (Hp : p = firstn (length p) (firstn 3 falling)) by (rewrite Hpq, firstn_app, Nat.sub_diag, firstn_O, app_nil_r, firstn_all; reflexivity).
    assert (Hl : length p <= 3) by (apply (f_equal (@length op)) in Hpq; rewrite app_length in Hpq; change (length (firstn 3 falling)) with 3 in Hpq; lia).
    rewrite Hp. destruct (length p) as [|[|[|[|k]]]]; [vm_compute; reflexivity..|lia].
  - cbv zeta. set (early := o_core (after line_env [] (OpAdd (ScMinProgress fzero 2) :: firstn 3 falling ++ skipn 3 falling))).
    set (late := o_core (after line_env [] (firstn 3 falling ++ OpAdd (ScMinProgress fzero 2) :: skipn 3 falling))).
    assert (B : (f64s_same (map f64_of_f32 (c_hist early)) (map f64_of_f32 (c_hist late)) && Nat.eqb (c_steps early) (c_steps late) && f64_same (c_best_fit early) (c_best_fit late) && foretold early 3 && foretold late 0) = true) by (vm_compute; reflexivity).
    clearbody early late. apply andb_prop in B as [B B5]. apply andb_prop in B as [B B4]. apply andb_prop in B as [B B3]. apply andb_prop in B as [B1 B2].
    split; [now apply f64s_same_eq|]. split; [now apply Nat.eqb_eq|]. split; [now apply f64_same_eq|].
    unfold foretold in B4, B5. destruct (snd (predicted_fitness line_env early 1)) as [x|w|]; [|discriminate B4|discriminate B4]. destruct (snd (predicted_fitness line_env late 1)) as [y|w|]; [|discriminate B5|discriminate B5].
    exists x, y. split; [reflexivity|]. split; [reflexivity|]. split; now apply f64_same_eq.
Qed.

(** ** Concrete runs *)
(** start, pre_step, pre_evaluate, new_best, post_evaluate, post_step, stop *)
Definition kind (e : event) : nat := match e with EStart => 0 | EPreStep => 1 | EPreEval _ => 2 | ENewBest _ _ => 3 | EPostEval _ _ _ => 4 | EPostStep => 5 | EStop _ => 6 end.
Example C76_nonvacuous :
  let h1 := [OpStep (good_step 4 3); OpProgress; OpStep (good_step 5 2); OpTrend] in let h2 := [OpPredict 3; OpStep (good_step 9 8); OpTest] in
  Forall (wf_op (ex_env [quiet])) (h1 ++ h2) /\ length (filter (fun a => negb (is_query a)) (h1 ++ h2)) = 4 /\ heard (with_reporters (ex_env [quiet]) [quiet; quiet]) 1 /\
  map (fun x => kind (fst x)) (seen 1 (o_trace (fold_left (exec (with_reporters (ex_env [quiet]) [quiet; quiet])) h2 (after (ex_env [quiet]) [ScMaxSteps 3] h1)))) =
    [1; 2; 4; 5; 6] /\
  stateless (ScMaxSteps 3) /\ min_window (ScMaxSteps 3) <= c_cap (o_core (created (ex_env [quiet]) [])) /\ forallb (fun a => negb (is_add a)) h1 = true /\
  (forall p q, h1 = p ++ q -> answer (ex_env [quiet]) (o_core (after (ex_env [quiet]) [] p)) (ScMaxSteps 3) = Ok false) /\
  o_stopped (after (ex_env [quiet]) [] (h1 ++ OpAdd (ScMaxSteps 3) :: h2)) = Some 2.
Proof.
  cbv zeta. split; [repeat (constructor; [first [apply ex_wf|exact I]|]); constructor|]. split; [reflexivity|].
  split; [split; [cbn; lia|]; intros [|[|j]] f Hj Hf; [injection Hf as <-; reflexivity|lia|lia]|]. split; [vm_compute; reflexivity|]. split; [exact I|]. split; [cbn; lia|]. split; [reflexivity|]. split; [|vm_compute; reflexivity].
  intros p q Hpq. set (h1 := [OpStep (good_step 4 3); OpProgress; OpStep (good_step 5 2); OpTrend]) in *.
  assert (Hp : p = firstn (length p) h1) by (rewrite Hpq, firstn_app, Nat.sub_diag, firstn_O, app_nil_r, firstn_all; reflexivity).
  assert (Hl : length p <= 4) by (apply (f_equal (@length op)) in Hpq; rewrite app_length in Hpq; change (length h1) with 4 in Hpq; lia).
  rewrite Hp. unfold h1. destruct (length p) as [|[|[|[|[|k]]]]]; [vm_compute; reflexivity..|lia].
Qed.
