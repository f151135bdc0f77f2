(** * Mirrored optimizers stay mirrored. *)
From Coq Require Import ZArith Bool Lia FunctionalExtensionality.
From Verif Require Import Prelude Flt FltFacts Flt32 FltOpp FlatMap Round8 ParInfo ObjInfo Num MathTools Optimizer OptimizerFacts Driver DriverFacts Duality.
#[local] Open Scope nat_scope.

Lemma is_better_opp o a b : is_better (opp_info o) (fopp a) (fopp b) = is_better o a b.
Proof. unfold is_better, opp_info, fgt. cbn [oi_minimize]. destruct (oi_minimize o); cbn [negb]; apply flt_fopp. Qed.
Lemma worst_opp o : worst_fitness (opp_info o) = fopp (worst_fitness o).
Proof. unfold worst_fitness, opp_info, flowest. cbn [oi_minimize]. destruct (oi_minimize o); cbn [negb]; [reflexivity|]. symmetry. apply fopp_involutive. Qed.
Lemma min_element_from_opp lt lt' l : (forall a b, lt' (fopp a) (fopp b) = lt a b) -> forall b bi i,
  min_element_from lt' (fopp b) bi i (map fopp l) = min_element_from lt b bi i l.
Proof. intros H. induction l as [|x t IH]; intros b bi i; cbn [map min_element_from]; [reflexivity|]. rewrite H. destruct (lt x b); apply IH. Qed.
Lemma min_element_opp lt lt' l : (forall a b, lt' (fopp a) (fopp b) = lt a b) -> min_element lt' (map fopp l) = min_element lt l.
Proof. intros H. destruct l; cbn [map min_element]; [reflexivity|]. now apply min_element_from_opp. Qed.
Lemma find_best_opp o l : find_best_fitness (opp_info o) (map fopp l) = find_best_fitness o l.
Proof. unfold find_best_fitness, opp_info. cbn [oi_minimize]. destruct (oi_minimize o); cbn [negb]; apply min_element_opp; intros a b; apply flt_fopp. Qed.
Lemma count_errors_opp rs : count_errors (map opp_result rs) = count_errors rs.
Proof. unfold count_errors. induction rs as [|[f|m] t IH]; cbn [map filter opp_result is_err]; [reflexivity|exact IH|exact (f_equal S IH)]. Qed.
Lemma messages_opp rs : messages_of (map opp_result rs) = messages_of rs.
Proof.
  unfold messages_of. assert (G : forall m, fold_left (fun m r => match r with RErr s => fm_set s tt m | ROk _ => m end) (map opp_result rs) m = fold_left (fun m r => match r with RErr s => fm_set s tt m | ROk _ => m end) rs m).
  { induction rs as [|[f|s] t IH]; intros m; cbn [map fold_left opp_result]; auto. }
  rewrite G. reflexivity.
Qed.
Lemma core_opp_fields c c' : core_opp c c' <-> c_steps c' = c_steps c /\ c_best_fit c' = fopp (c_best_fit c) /\ c_best_pt c' = c_best_pt c /\ c_cur_fit c' = fopp (c_cur_fit c) /\
  c_cur_fits c' = map fopp (c_cur_fits c) /\ c_cur_pt c' = c_cur_pt c /\ c_samples c' = c_samples c /\ c_hist c' = map f32opp (c_hist c) /\ c_cap c' = c_cap c /\ c_interrupted c' = c_interrupted c.
Proof.
  unfold core_opp, strip, opp_core. destruct c, c'. cbn. split.
  - intros [= -> -> -> -> -> -> -> -> -> ->]. auto 12.
  - intros (-> & -> & -> & -> & -> & -> & -> & -> & -> & ->). reflexivity.
Qed.
Ltac fields H := apply core_opp_fields in H; destruct H as (Hst & Hbf & Hbp & Hcf & Hcfs & Hcp & Hsa & Hhi & Hca & Hin).

Section Dual.
Variables (E : env) (reg' : list Z -> list f32 -> linfun) (reps' : list reporter).
Notation E' := (opp_env E reg' reps').
Notation reg := (e_regression E).
Hypothesis reporters_opp : Forall2 reporter_opp (e_reporters E) reps'.

Lemma deliver_opp rs rs' : Forall2 reporter_opp rs rs' -> forall i ev c c' tr tr', core_opp c c' -> Forall2 delivery_opp tr tr' ->
  Forall2 delivery_opp (deliver i rs ev c tr) (deliver i rs' (opp_event ev) c' tr').
Proof.
  intros HR. induction HR as [|r r' rs rs' Hr HR IH]; intros i ev c c' tr tr' Hc Ht; cbn [deliver]; [exact Ht|]. rewrite (Hr tr tr' ev Ht).
  assert (HN : Forall2 delivery_opp (tr ++ [{| d_rep := i; d_event := ev; d_view := c |}]) (tr' ++ [{| d_rep := i; d_event := opp_event ev; d_view := c' |}])).
  { apply Forall2_app; [exact Ht|]. constructor; [|constructor]. split; [reflexivity|]. split; [reflexivity|exact Hc]. }
  destruct (r tr ev); [exact HN|]. apply IH; assumption.
Qed.
Lemma signal_opp ev c c' tr tr' : core_opp c c' -> Forall2 delivery_opp tr tr' -> Forall2 delivery_opp (signal E ev c tr) (signal E' (opp_event ev) c' tr').
Proof using reporters_opp. intros. unfold signal. cbn [e_reporters opp_env]. apply deliver_opp; assumption. Qed.

Lemma compute_trend_opp c c' : regression_odd reg reg' -> core_opp c c' -> 2 <= length (c_hist c) -> compute_trend E' c' = lin_opp (compute_trend E c).
Proof.
  intros HO H HL. fields H. unfold compute_trend. rewrite Hhi, map_length, Hsa. apply Nat.leb_le in HL. rewrite HL. cbn [e_regression opp_env]. apply HO.
Qed.
Lemma core_opp_strip c c' d d' : core_opp c c' -> strip d = strip c -> strip d' = strip c' -> core_opp d d'.
Proof. unfold core_opp. intros H -> ->. exact H. Qed.
Lemma progress_opp c c' : regression_odd reg reg' -> cache_ok E c -> cache_ok E' c' -> core_opp c c' -> snd (progress E' c') = snd (progress E c).
Proof.
  intros HO K K' H. pose proof (progress_spec E c K) as (_ & _ & ->). pose proof (progress_spec E' c' K') as (_ & _ & ->).
  pose proof (compute_trend_opp c c' HO H) as HT. fields H. rewrite Hca, Hhi, map_length, Hsa. destruct (Nat.eqb (c_cap c) 0); [reflexivity|]. destruct (Nat.leb_spec 2 (length (c_hist c))) as [HL|]; [|reflexivity].
  rewrite (HT HL). cbv zeta. f_equal. set (x := f32sub _ _). rewrite (zsame_abs _ _ (lin_eval_opp (compute_trend E c) x)). cbn [lf_slope lin_opp e_info opp_env opp_info oi_minimize].
  unfold f32abs, f32opp, f32div. rewrite BinarySingleNaN.Babs_Bopp, div_opp. destruct (oi_minimize (e_info E)); cbn [negb]; [reflexivity|]. apply BinarySingleNaN.Bopp_involutive.
Qed.
Lemma predicted_opp c c' n : regression_odd reg reg' -> cache_ok E c -> cache_ok E' c' -> core_opp c c' ->
  match snd (predicted_fitness E c n), snd (predicted_fitness E' c' n) with
  | Ok x, Ok x' => forall fit, is_better (e_info E') (f64_of_f32 x') (fopp fit) = is_better (e_info E) (f64_of_f32 x) fit
  | Throw w, Throw w' => w = w'
  | Undef, Undef => True
  | _, _ => False
  end.
Proof.
  intros HO K K' H. pose proof (predicted_spec E c n K) as (_ & _ & ->). pose proof (predicted_spec E' c' n K') as (_ & _ & ->).
  pose proof (compute_trend_opp c c' HO H) as HT. fields H. rewrite Hca, Hhi, map_length, Hst. destruct (Nat.eqb (c_cap c) 0); [reflexivity|].
  assert (G : forall x x', zsame prec32 emax32 x' (f32opp x) -> forall fit, is_better (e_info E') (f64_of_f32 x') (fopp fit) = is_better (e_info E) (f64_of_f32 x) fit).
  { intros x x' Z fit. rewrite <- (is_better_opp (e_info E) (f64_of_f32 x) fit), <- f64_of_f32_opp. apply zsame_f64 in Z as [Z1 Z2]. cbn [e_info opp_env]. unfold is_better, fgt. rewrite !flt_key, Z1, Z2. reflexivity. }
  destruct (Nat.leb_spec 2 (length (c_hist c))) as [HL|].
  - apply G. rewrite (HT HL). apply lin_eval_opp.
  - apply G. right. eexists _, _. split; reflexivity.
Qed.
Lemma similarity_opp c c' pts : core_opp c c' -> forall i sims d, similarity_loop E' c' i pts sims d = similarity_loop E c i pts sims d.
Proof.
  intros H. fields H. induction pts as [|p t IH]; intros i sims d; cbn [similarity_loop]; [reflexivity|]. rewrite Hcp. cbn [e_libm opp_env e_info opp_info oi_free].
  destruct (normalized_distance _ _ _); try reflexivity. destruct (flt _ d); [reflexivity|]. apply IH.
Qed.

Lemma sc_test_opp c c' sc sc' : cache_ok E c -> cache_ok E' c' -> core_opp c c' -> cond_opp reg reg' sc sc' ->
  core_opp (fst (fst (sc_test E c sc))) (fst (fst (sc_test E' c' sc'))) /\ cond_opp reg reg' (snd (fst (sc_test E c sc))) (snd (fst (sc_test E' c' sc'))) /\ snd (sc_test E' c' sc') = snd (sc_test E c sc).
Proof.
  intros K K' H HS. split; [|].
  { apply (core_opp_strip c c'); [exact H| |]; apply sc_test_core; assumption. }
  pose proof H as HF. fields HF. destruct HS as [|e|eps|t|n|p n HO|p p' f look n HO|pts sims idx ms md|seen seen' f f' HL HC]; cbn [sc_test fst snd].
  - split; [constructor|]. now rewrite Hin.
  - split; [constructor|reflexivity].
  - split; [constructor|]. rewrite Hst. destruct (Nat.ltb 0 (c_steps c)); [|reflexivity]. rewrite Hcfs.
    rewrite (min_element_opp flt (fun x b => flt b x)) by (intros; apply flt_fopp). rewrite (min_element_opp (fun x b => flt b x) flt) by (intros; apply flt_fopp). rewrite !nth_error_map.
    destruct (nth_error (c_cur_fits c) (min_element flt (c_cur_fits c))); cbn [option_map]; [|destruct (nth_error _ _); reflexivity].
    destruct (nth_error (c_cur_fits c) (min_element (fun x b => flt b x) (c_cur_fits c))); cbn [option_map]; [|reflexivity]. now rewrite fsub_opp.
  - split; [constructor|]. rewrite Hbf. cbn [e_info opp_env]. now rewrite is_better_opp.
  - split; [constructor|]. now rewrite Hst.
  - rewrite Hst. destruct (Nat.leb n (c_steps c)); [|split; [constructor; exact HO|reflexivity]]. pose proof (progress_opp c c' HO K K' H) as HP. destruct (progress E c) as [d r], (progress E' c') as [d' r']. cbn [fst snd] in *. subst r'.
    split; [constructor; exact HO|reflexivity].
  - rewrite Hst. destruct (Nat.leb n (c_steps c)); [|split; [constructor; exact HO|reflexivity]]. pose proof (predicted_opp c c' look HO K K' H) as HP. destruct (predicted_fitness E c look) as [d r], (predicted_fitness E' c' look) as [d' r']. cbn [fst snd] in *.
    destruct r as [x|w|], r' as [x'|w'|]; try contradiction HP; cbn [fst snd]; (split; [constructor; exact HO|]); [now rewrite HP|now subst w'|reflexivity].
  - rewrite Hst. destruct ((0 <=? ms)%Z && (ms <=? Z.of_nat (c_steps c))%Z); [|split; [constructor|reflexivity]]. cbn [e_cma opp_env]. destruct (negb (e_cma E)); [split; [constructor|reflexivity]|].
    rewrite (similarity_opp c c' pts H). destruct (similarity_loop E c 0 pts _ md) as [s [[i|]|w|]]; (split; [constructor|reflexivity]).
  - split; [|f_equal; apply HC; [exact HL|]].
    + constructor; [|exact HC]. apply Forall2_app; [exact HL|]. constructor; [|constructor]. apply (core_opp_strip c c'); [exact H| |]; reflexivity.
    + apply (core_opp_strip c c'); [exact H| |]; reflexivity.
Qed.
Lemma test_list_opp l l' : Forall2 (cond_opp reg reg') l l' -> forall c c' i, cache_ok E c -> cache_ok E' c' -> core_opp c c' ->
  let '(d, m, r) := test_list E c i l in let '(d', m', r') := test_list E' c' i l' in
  core_opp d d' /\ Forall2 (cond_opp reg reg') m m' /\ r' = r /\ cache_ok E d /\ cache_ok E' d'.
Proof.
  intros HL. induction HL as [|sc sc' l l' HS HL IH]; intros c c' i K K' H; cbn [test_list]; [auto|].
  pose proof (sc_test_opp c c' sc sc' K K' H HS) as (H1 & H2 & H3). pose proof (sc_test_core E c sc K) as [_ K1]. pose proof (sc_test_core E' c' sc' K') as [_ K1'].
  destruct (sc_test E c sc) as [[d s] r], (sc_test E' c' sc') as [[d' s'] r']. cbn [fst snd] in *. subst r'. destruct r as [[|]|w|]; auto 6.
  specialize (IH d d' (S i) K1 K1' H1). destruct (test_list E d (S i) l) as [[e m] q], (test_list E' d' (S i) l') as [[e' m'] q']. destruct IH as (A & B & C & D & F). auto 6.
Qed.
Definition both_ok (o o' : opt) : Prop := opt_opp reg reg' o o' /\ cache_ok E (o_core o) /\ cache_ok E' (o_core o').
Lemma test_stop_opp o o' : both_ok o o' -> both_ok (fst (test_stop E o)) (fst (test_stop E' o')) /\ snd (test_stop E' o') = snd (test_stop E o).
Proof using reporters_opp.
  intros ((H1 & H2 & H3 & H4) & K & K'). unfold test_stop. rewrite H3. destruct (o_stopped o) as [k|] eqn:ES.
  { cbn [fst snd]. split; [|reflexivity]. split; [|auto]. split; [exact H1|]. split; [exact H2|]. split; [now rewrite ES|exact H4]. }
  pose proof (test_list_opp _ _ H2 (o_core o) (o_core o') 0 K K' H1) as HT. destruct (test_list E (o_core o) 0 (o_scs o)) as [[d m] r], (test_list E' (o_core o') 0 (o_scs o')) as [[d' m'] r']. destruct HT as (A & B & -> & C & D).
  destruct r as [[i|]|w|]; cbn [fst snd]; (split; [|reflexivity]); (split; [|split; [exact C|exact D]]); (split; [exact A|]); (split; [exact B|]); (split; [reflexivity|]); try exact H4.
  apply (signal_opp (EStop i)); [exact A|exact H4].
Qed.
Lemma set_error_opp l l' e : Forall2 (cond_opp reg reg') l l' ->
  match set_error l e, set_error l' e with Some m, Some m' => Forall2 (cond_opp reg reg') m m' | None, None => True | _, _ => False end.
Proof.
  intros HL. induction HL as [|sc sc' l l' HS HL IH]; cbn [set_error]; [exact I|].
  destruct (set_error l e) as [m|], (set_error l' e) as [m'|]; try contradiction IH; destruct HS; cbn [option_map]; repeat constructor; assumption.
Qed.
Lemma allowed_opp rs : allowed_errors E' (map opp_result rs) = allowed_errors E rs.
Proof. unfold allowed_errors. cbn [e_max_errors opp_env]. now rewrite map_length. Qed.
Lemma too_many_opp rs : too_many_errors E' (map opp_result rs) = too_many_errors E rs.
Proof. unfold too_many_errors. cbn [e_unsigned_errors opp_env]. now rewrite allowed_opp, count_errors_opp. Qed.
Lemma tracking_opp c c' : core_opp c c' -> core_opp (update_fitness_tracking c) (update_fitness_tracking c').
Proof.
  intros H. pose proof H as HF. fields HF. unfold update_fitness_tracking. rewrite Hca, Hhi, map_length, Hcf, f32_of_f64_opp. destruct (Nat.ltb 0 (c_cap c)); [|exact H].
  apply core_opp_fields. cbn. rewrite Hst, Hbf, Hbp, Hcf, Hcfs, Hcp, Hsa, Hca, Hin.
  assert (HH : (if Nat.leb (c_cap c) (length (c_hist c)) then tl (map f32opp (c_hist c)) else map f32opp (c_hist c)) ++ [f32opp (f32_of_f64 (c_cur_fit c))] =
    map f32opp ((if Nat.leb (c_cap c) (length (c_hist c)) then tl (c_hist c) else c_hist c) ++ [f32_of_f64 (c_cur_fit c)])).
  { rewrite map_app. f_equal. destruct (Nat.leb _ _); [|reflexivity]. destruct (c_hist c); reflexivity. }
  rewrite HH. auto 12.
Qed.
Lemma cache_ok_tracking F c : cache_ok F c -> cache_ok F (update_fitness_tracking c).
Proof. intros H. unfold update_fitness_tracking. destruct (Nat.ltb 0 (c_cap c)); [|exact H]. now apply cache_ok_hist. Qed.
Lemma evaluate_step_opp o o' pop rs : both_ok o o' ->
  both_ok (fst (evaluate_step E o pop rs)) (fst (evaluate_step E' o' pop (map opp_result rs))) /\ snd (evaluate_step E' o' pop (map opp_result rs)) = snd (evaluate_step E o pop rs).
Proof using reporters_opp.
  intros ((H1 & H2 & H3 & H4) & K & K'). unfold evaluate_step. rewrite too_many_opp, count_errors_opp, map_length, allowed_opp, messages_opp.
  assert (T1 : Forall2 delivery_opp (signal E (EPreEval pop) (o_core o) (o_trace o)) (signal E' (EPreEval pop) (o_core o') (o_trace o'))) by (apply (signal_opp (EPreEval pop)); assumption).
  destruct (too_many_errors E rs).
  - pose proof (set_error_opp _ _ {| ei_errors := count_errors rs; ei_total := length rs; ei_allowed := allowed_errors E rs; ei_messages := messages_of rs |} H2) as HE.
    destruct (set_error (o_scs o) _) as [m|], (set_error (o_scs o') _) as [m'|]; try contradiction HE; cbn [fst snd]; (split; [|reflexivity]); (split; [|auto]); (split; [exact H1|]); (split; [assumption|]); (split; [exact H3|exact T1]).
  - cbn [e_info opp_env]. assert (HF : map (fun r => match r with ROk f => f | RErr _ => worst_fitness (opp_info (e_info E)) end) (map opp_result rs) = map fopp (map (fun r => match r with ROk f => f | RErr _ => worst_fitness (e_info E) end) rs)).
    { rewrite !map_map. apply map_ext. intros [f|m]; cbn [opp_result]; [reflexivity|apply worst_opp]. }
    rewrite HF, find_best_opp. set (fits := map (fun r => match r with ROk f => f | RErr _ => worst_fitness (e_info E) end) rs). rewrite nth_error_map. destruct (nth_error fits (find_best_fitness (e_info E) fits)) as [f|]; cbn [option_map].
    2:{ cbn [fst snd]. split; [|reflexivity]. split; [|auto]. split; [exact H1|]. split; [exact H2|]. split; [exact H3|exact T1]. }
    destruct (nth_error pop _) as [p|].
    2:{ cbn [fst snd]. split; [|reflexivity]. split; [|auto]. split; [exact H1|]. split; [exact H2|]. split; [exact H3|exact T1]. }
    change (oi_dim (opp_info (e_info E))) with (oi_dim (e_info E)). destruct (negb (Nat.eqb (length p) (oi_dim (e_info E)))).
    { cbn [fst snd]. split; [|reflexivity]. split; [|auto]. split; [exact H1|]. split; [exact H2|]. split; [exact H3|exact T1]. }
    cbv zeta. pose proof H1 as HC. fields HC. cbn [with_current c_best_fit]. rewrite Hbf, is_better_opp.
    assert (C1 : core_opp (with_current (o_core o) fits f p) (with_current (o_core o') (map fopp fits) (fopp f) p)) by (apply core_opp_fields; cbn; auto 12).
    assert (C2 : core_opp (if is_better (e_info E) f (c_best_fit (o_core o)) then with_best (with_current (o_core o) fits f p) f (map rounded p) else with_current (o_core o) fits f p)
                          (if is_better (e_info E) f (c_best_fit (o_core o)) then with_best (with_current (o_core o') (map fopp fits) (fopp f) p) (fopp f) (map rounded p) else with_current (o_core o') (map fopp fits) (fopp f) p)).
    { destruct (is_better _ _ _); [|exact C1]. apply core_opp_fields. cbn. auto 12. }
    assert (Q : forall F c b, cache_ok F c -> cache_ok F (if b : bool then with_best (with_current c fits f p) f (map rounded p) else with_current c fits f p)) by (intros F c [|] HH; exact HH).
    assert (Q' : forall F c b, cache_ok F c -> cache_ok F (if b : bool then with_best (with_current c (map fopp fits) (fopp f) p) (fopp f) (map rounded p) else with_current c (map fopp fits) (fopp f) p)) by (intros F c [|] HH; exact HH).
    cbn [fst snd]. split; [|reflexivity]. split; [|split; apply cache_ok_tracking; auto]. split; [apply tracking_opp, C2|]. split; [exact H2|]. split; [exact H3|].
    apply (signal_opp (EPostEval pop fits _)); [apply tracking_opp, C2|]. destruct (is_better (e_info E) f (c_best_fit (o_core o))); [|exact T1].
    exact (signal_opp (ENewBest (map rounded p) f) _ _ _ _ C2 T1).
Qed.

Context {S : Type} (smp smp' : sampler S).
Hypothesis smp_opp : sampler_opp smp smp'.
Lemma full_step_opp o o' s eval i : both_ok o o' ->
  let r := full_step smp E o s eval i in let r' := full_step smp' E' o' s (fun pop => map opp_result (eval pop)) i in
  both_ok (fst (fst r)) (fst (fst r')) /\ snd (fst r') = snd (fst r) /\ snd r' = snd r.
Proof using reporters_opp smp_opp.
  intros HB. pose proof HB as ((H1 & H2 & H3 & H4) & K & K'). cbv zeta. unfold full_step. change (oi_dim (e_info E')) with (oi_dim (e_info E)). destruct (Nat.eqb (oi_dim (e_info E)) 0); [cbn; auto|].
  unfold internal_step. destruct smp_opp as [SS SU]. rewrite (SS s).
  assert (T2 : Forall2 delivery_opp (signal E EPreStep (o_core o) (if Nat.eqb (c_steps (o_core o)) 0 then signal E EStart (o_core o) (o_trace o) else o_trace o))
    (signal E' EPreStep (o_core o') (if Nat.eqb (c_steps (o_core o')) 0 then signal E' EStart (o_core o') (o_trace o') else o_trace o'))).
  { pose proof H1 as HC. fields HC. rewrite Hst. apply (signal_opp EPreStep); [exact H1|]. destruct (Nat.eqb _ 0); [|exact H4]. apply (signal_opp EStart); assumption. }
  revert T2. generalize (signal E EPreStep (o_core o) (if Nat.eqb (c_steps (o_core o)) 0 then signal E EStart (o_core o) (o_trace o) else o_trace o)).
  generalize (signal E' EPreStep (o_core o') (if Nat.eqb (c_steps (o_core o')) 0 then signal E' EStart (o_core o') (o_trace o') else o_trace o')). intros t' t T2.
  set (q := {| o_core := o_core o; o_scs := o_scs o; o_stopped := o_stopped o; o_trace := t |}). set (q' := {| o_core := o_core o'; o_scs := o_scs o'; o_stopped := o_stopped o'; o_trace := t' |}).
  assert (HQ : both_ok q q'). { split; [|exact (conj K K')]. split; [exact H1|]. split; [exact H2|]. split; [exact H3|exact T2]. }
  destruct (s_sample smp s) as [s1 [pop|w|]]; cbn [fst snd]; [|auto|auto].
  pose proof (evaluate_step_opp q q' pop (eval pop) HQ) as (HE & HR). destruct (evaluate_step E q pop (eval pop)) as [o3 r3], (evaluate_step E' q' pop (map opp_result (eval pop))) as [o3' r3']. cbn [fst snd] in *. subst r3'.
  assert (FIN : forall ok, let f := fun (F : env) (o3 : opt) => {| o_core := (if i then with_interrupt (if ok : bool then with_steps (o_core o3) (Datatypes.S (c_steps (o_core o3))) else o_core o3) true else (if ok then with_steps (o_core o3) (Datatypes.S (c_steps (o_core o3))) else o_core o3));
      o_scs := o_scs o3; o_stopped := o_stopped o3; o_trace := if ok then signal F EPostStep (o_core o3) (o_trace o3) else o_trace o3 |} in both_ok (f E o3) (f E' o3')).
  { intros ok. destruct HE as ((A & B & C & D) & L & L'). cbv zeta. split; [|split; destruct ok, i; assumption]. split; [|split; [exact B|split; [exact C|]]]; cbn [o_core o_trace].
    - fields A. destruct ok, i; apply core_opp_fields; cbn; rewrite ?Hst; auto 12.
    - destruct ok; [|exact D]. apply (signal_opp EPostStep); assumption. }
  destruct r3 as [[|]|w|]; cbn [fst snd]; [| |auto|auto].
  - destruct HE as ((A & HE2) & HE3). fields A. rewrite Hcfs, SU. destruct (s_update smp s1 (c_cur_fits (o_core o3))) as [s2 [u|w|]]; cbn [fst snd].
    + pose proof (test_stop_opp _ _ (FIN true)) as (X & Y). cbv zeta in X, Y. cbn beta in X, Y. destruct (test_stop E _) as [a b], (test_stop E' _) as [a' b']. cbn [fst snd] in *. auto.
    + split; [|auto]. split; [|exact HE3]. split; [|exact HE2]. apply core_opp_fields. auto 12.
    + split; [|auto]. split; [|exact HE3]. split; [|exact HE2]. apply core_opp_fields. auto 12.
  - pose proof (test_stop_opp _ _ (FIN false)) as (X & Y). cbv zeta in X, Y. cbn beta in X, Y. destruct (test_stop E _) as [a b], (test_stop E' _) as [a' b']. cbn [fst snd] in *. auto.
Qed.
Lemma full_steps_opp evals : forall o o' s, both_ok o o' ->
  let r := full_steps smp E o s evals in let r' := full_steps smp' E' o' s (opp_evals evals) in
  both_ok (fst (fst r)) (fst (fst r')) /\ snd (fst r') = snd (fst r) /\ snd r' = snd r /\ asked smp' E' o' s (opp_evals evals) = asked smp E o s evals.
Proof using reporters_opp smp_opp.
  induction evals as [|[eval i] t IH]; intros o o' s HB; cbn [full_steps opp_evals map asked fst snd]; [auto|].
  pose proof (full_step_opp o o' s eval i HB) as H. cbv zeta in H. destruct (full_step smp E o s eval i) as [[a b] r], (full_step smp' E' o' s (fun pop => map opp_result (eval pop)) i) as [[a' b'] r']. cbn [fst snd] in *. destruct H as (X & -> & ->).
  rewrite (proj1 smp_opp s). destruct r as [u|w|]; cbn [fst snd]; auto. specialize (IH a a' b X). cbv zeta in IH. destruct IH as (P1 & P2 & P3 & P4). unfold opp_evals in P4 at 1. rewrite P4. auto.
Qed.
Lemma created_opp extra extra' : Forall2 (cond_opp reg reg') extra extra' -> both_ok (created E extra) (created E' extra').
Proof.
  intros HX. unfold created. assert (HI : both_ok (init E) (init E')).
  { split; [|split; exact I]. split; [|split; [repeat constructor|split; [reflexivity|constructor]]]. apply core_opp_fields. unfold init, add_stop_condition. cbn. rewrite worst_opp. auto 12. }
  revert HI. generalize (init E) (init E'). induction HX as [|sc sc' x x' HS HX IH]; intros o o' HB; cbn [fold_left]; [exact HB|]. apply IH. clear IH.
  destruct HB as ((H1 & H2 & H3 & H4) & K & K'). unfold add_stop_condition. assert (HW : min_window sc' = min_window sc) by (destruct HS; reflexivity). rewrite HW. pose proof H1 as HC. fields HC. rewrite Hca.
  split; [|destruct (Nat.ltb _ _); auto]. split; [|split; [apply Forall2_app; [exact H2|constructor; [exact HS|constructor]]|split; [exact H3|exact H4]]]. cbn [o_core].
  destruct (Nat.ltb _ _); [|exact H1]. apply core_opp_fields. cbn. auto 12.
Qed.
End Dual.
