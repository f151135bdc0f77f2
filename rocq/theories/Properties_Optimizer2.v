(** * C22, C24-C27: latching, reporters, fitness history, interrupts. *)
From Coq Require Import ZArith Bool.
From Flocq Require Import BinarySingleNaN.
From Verif Require Import Prelude Flt FltFacts Flt32 Round8 Round8Facts FlatMap ParInfo ObjInfo ObjInfoFacts Num MathTools Optimizer OptimizerFacts Properties_Optimizer.

(** ** C22 *)
Theorem C22_first_true : forall E extra h, oi_dim (e_info E) <> 0 -> Forall (wf_op E) h ->
  let o := after E extra h in let o' := fst (test_stop E o) in
  match o_stopped o with
  | Some k => test_stop E o = (o, Ok (Some k))
  | None =>
    match snd (test_stop E o) with
    | Ok (Some k) =>  (* the first condition that tests true, in insertion order, all tested on the same state *)
      o_stopped o' = Some k /\ (exists sc, nth_error (o_scs o) k = Some sc /\ answer E (o_core o) sc = Ok true) /\
      (forall j sc, j < k -> nth_error (o_scs o) j = Some sc -> answer E (o_core o) sc = Ok false)
    | Ok None => o_stopped o' = None /\ forall sc, In sc (o_scs o) -> answer E (o_core o) sc = Ok false
    | _ => o_stopped o' = None
    end
  end.
Proof.
  intros E extra h Hd Hw o o'. pose proof (after_inv E extra h Hd Hw) as [I1 _ _]. fold o in I1.
  unfold o', test_stop. destruct (o_stopped o) as [k|] eqn:Eo; [reflexivity|].
  pose proof (test_list_spec E (o_scs o) (o_core o) 0 I1) as HT. destruct (test_list E (o_core o) 0 (o_scs o)) as [[c scs] r].
  destruct HT as (_ & _ & _ & H4). destruct r as [[k|]|w|]; cbn [fst snd o_stopped]; auto.
  - destruct H4 as (_ & _ & H5 & (sc & H6 & H7) & _). rewrite Nat.sub_0_r in *. split; [reflexivity|]. split; [eauto|].
    intros j sc' Hj Hn. rewrite Forall_forall in H5. apply H5. apply nth_error_In with j. rewrite <- (firstn_skipn k (o_scs o)) in Hn.
    rewrite nth_error_app1 in Hn; [exact Hn|]. rewrite firstn_length. assert (k < length (o_scs o)) by (apply nth_error_Some; congruence). lia.
  - destruct H4 as [H4 _]. split; [reflexivity|]. now rewrite <- Forall_forall.
Qed.
Lemma exec_stopped E o a k : opt_inv E o -> oi_dim (e_info E) <> 0 -> wf_op E a -> o_stopped o = Some k -> o_stopped (exec E o a) = Some k.
Proof.
  intros [_ I2 _] Hd Hw Hk. destruct a as [i| | | | |n|sc]; cbn [exec with_core o_stopped]; auto.
  - destruct (step_shape E o i Hd Hw I2) as (scs & tr & -> & _). unfold test_stop. cbn [o_stopped]. rewrite Hk. cbn. auto.
  - unfold test_stop. rewrite Hk. exact Hk.
Qed.
Theorem C22_latched_for_ever : forall E extra h h' k, oi_dim (e_info E) <> 0 -> Forall (wf_op E) (h ++ h') ->
  o_stopped (after E extra h) = Some k ->
  o_stopped (after E extra (h ++ h')) = Some k /\
  snd (test_stop E (after E extra (h ++ h'))) = Ok (Some k) /\
  (forall i, wf_input E i -> snd (step E (after E extra (h ++ h')) i) = Ok (Some k)).
Proof.
  intros E extra h h' k Hd Hw Hk.
  assert (H : o_stopped (after E extra (h ++ h')) = Some k).
  { induction h' as [|a h' IH] using rev_ind; [now rewrite app_nil_r|]. rewrite app_assoc in *. rewrite after_snoc. apply Forall_app in Hw as [Hw Ha]. inversion_clear Ha.
    apply exec_stopped; auto. now apply after_inv. }
  split; [exact H|]. split; [unfold test_stop; rewrite H; reflexivity|].
  intros i Hi. pose proof (after_inv E extra (h ++ h') Hd Hw) as [_ I2 _]. destruct (step_shape E _ i Hd Hi I2) as (scs & tr & -> & _).
  unfold test_stop. cbn [o_stopped]. rewrite H. reflexivity.
Qed.

(** Which conditions a reporter was told about by on_stop. *)
Definition stops (l : list (event * core)) : list nat :=
  flat_map (fun e => match fst e with EStop k => [k] | _ => [] end) l.
Lemma stops_app a b : stops (a ++ b) = stops a ++ stops b.
Proof. apply flat_map_app. Qed.
Definition told (o : opt) : list nat := match o_stopped o with Some k => [k] | None => [] end.
Lemma signal_stops_other E r ev c tr : (forall k, ev <> EStop k) -> stops (received r (signal E ev c tr)) = stops (received r tr).
Proof.
  intros H. destruct (signal_any E r ev c tr) as [->| ->]; [reflexivity|]. rewrite stops_app. destruct ev; cbn; rewrite ?app_nil_r; auto. now destruct (H condition).
Qed.
Lemma test_stop_told E o r : 
  (stops (received r (o_trace o)) = [] \/ stops (received r (o_trace o)) = told o) ->
  let o' := fst (test_stop E o) in
  (stops (received r (o_trace o')) = [] \/ stops (received r (o_trace o')) = told o') /\
  (heard E r -> stops (received r (o_trace o)) = told o -> stops (received r (o_trace o')) = told o').
Proof.
  intros H o'. unfold o', test_stop, told. destruct (o_stopped o) as [k|] eqn:Eo; [cbn [fst]; rewrite Eo; unfold told in H; rewrite Eo in H; auto|].
  destruct (test_list E (o_core o) 0 (o_scs o)) as [[c scs] x]. unfold told in H. rewrite Eo in H.
  assert (H0 : stops (received r (o_trace o)) = []) by (destruct H; auto).
  destruct x as [[k|]|w|]; cbn [fst o_stopped o_trace]; auto.
  split.
  - destruct (signal_any E r (EStop k) c (o_trace o)) as [->| ->]; [auto|right]. rewrite stops_app, H0. reflexivity.
  - intros Hh _. rewrite signal_heard by exact Hh. rewrite stops_app, H0. reflexivity.
Qed.
Lemma after_told E extra h r : oi_dim (e_info E) <> 0 -> Forall (wf_op E) h ->
  let o := after E extra h in
  (stops (received r (o_trace o)) = [] \/ stops (received r (o_trace o)) = told o) /\ (heard E r -> stops (received r (o_trace o)) = told o).
Proof.
  intros Hd. induction h as [|a h IH] using rev_ind; intros Hw; cbv zeta.
  - assert (H : o_trace (created E extra) = [] /\ o_stopped (created E extra) = None).
    { unfold created. assert (H : forall o, o_trace o = [] /\ o_stopped o = None -> o_trace (fold_left add_stop_condition extra o) = [] /\ o_stopped (fold_left add_stop_condition extra o) = None).
      { clear. induction extra as [|sc t IH]; intros o Ho; cbn [fold_left]; [exact Ho|]. apply IH. exact Ho. } apply H. cbn. auto. }
    unfold after, told. cbn [fold_left]. destruct H as [-> ->]. cbn. auto.
  - apply Forall_app in Hw as [Hw Ha]. inversion_clear Ha as [|? ? Hwa _]. rewrite after_snoc. destruct (IH Hw) as [J1 J2].
    pose proof (after_inv E extra h Hd Hw) as [I1 I2 _]. set (o := after E extra h) in *.
    destruct a as [i| | | | |n|sc]; cbn [exec]; auto.
    + destruct (step_shape E o i Hd Hwa I2) as (scs & tr & -> & S1 & S2).
      set (o1 := {| o_core := step_core E (o_core o) i; o_scs := scs; o_stopped := o_stopped o; o_trace := tr |}).
      assert (Htr : stops (received r tr) = stops (received r (o_trace o))).
      { assert (H0 : stops (received r (signal E (EPreEval (si_pop i)) (o_core o) (tr_start E o))) = stops (received r (o_trace o))).
        { unfold tr_start. rewrite !signal_stops_other by discriminate. destruct (Nat.eqb _ _); [|reflexivity]. now apply signal_stops_other. }
        destruct (too_many_errors E (si_results i)); [destruct (S1 eq_refl) as [_ ->]; exact H0|].
        destruct (S2 eq_refl) as [_ ->]. rewrite !signal_stops_other by discriminate. destruct (is_better _ _ _); [|exact H0]. rewrite signal_stops_other by discriminate. exact H0. }
      assert (Ht1 : told o1 = told o) by reflexivity.
      destruct (test_stop_told E o1 r) as [T1 T2]; [cbn [o1 o_trace]; rewrite Htr, Ht1; exact J1|].
      split; [exact T1|]. intros Hh. apply T2; [exact Hh|]. cbn [o1 o_trace]. rewrite Htr. now apply J2.
    + destruct (test_stop_told E o r J1) as [T1 T2]. split; [exact T1|]. auto.
Qed.
Theorem C22_on_stop_exactly_once : forall E extra h r, oi_dim (e_info E) <> 0 -> Forall (wf_op E) h ->
  let o := after E extra h in
  (* every reporter that is not behind a throwing one was told once, about the condition that latched; never, if none did *)
  (heard E r -> stops (received r (o_trace o)) = match o_stopped o with Some k => [k] | None => [] end) /\
  (* no reporter was ever told twice, or about another condition *)
  (stops (received r (o_trace o)) = [] \/ exists k, o_stopped o = Some k /\ stops (received r (o_trace o)) = [k]).
Proof.
  intros E extra h r Hd Hw o. destruct (after_told E extra h r Hd Hw) as [H1 H2]. fold o in H1, H2. unfold told in *.
  split; [exact H2|]. destruct H1 as [H1|H1]; [now left|]. destruct (o_stopped o) as [k|]; [right; eauto|now left].
Qed.

(** ** C24 *)

(** What one step() shows to a reporter, in order. *)
Definition step_events (E : env) (c : core) (i : step_input) : list event :=
  let fits := fits_of E (si_results i) in
  let improved := is_better (e_info E) (step_best E (si_results i)) (c_best_fit c) in
  (if Nat.eqb (c_steps c) 0 then [EStart] else []) ++ [EPreStep; EPreEval (si_pop i)] ++
  if too_many_errors E (si_results i) then []
  else (if improved then [ENewBest (map rounded (step_best_point E i)) (step_best E (si_results i))] else []) ++
       [EPostEval (si_pop i) fits improved; EPostStep].
(** The state it can see at each of them: until the evaluation the state before the step, then the updated one. *)
Definition sees (E : env) (c : core) (i : step_input) (ev : event) (v : core) : Prop :=
  match ev with
  | EStart | EPreStep | EPreEval _ => v = c
  | ENewBest p f => c_best_fit v = f /\ c_best_pt v = p /\ c_cur_fits v = fits_of E (si_results i) /\ c_cur_fit v = f /\ c_cur_pt v = step_best_point E i /\ c_steps v = c_steps c
  | _ => v = absorb E c (si_pop i) (si_results i)
  end.
Theorem C24_step_events : forall E extra h i r, oi_dim (e_info E) <> 0 -> Forall (wf_op E) h -> wf_input E i -> heard E r ->
  let o := after E extra h in let o' := fst (step E o i) in
  exists seen,
    map fst seen = step_events E (o_core o) i /\ (forall ev v, In (ev, v) seen -> sees E (o_core o) i ev v) /\
    (* then on_stop, exactly if this step latched a condition *)
    match o_stopped o, o_stopped o' with
    | None, Some k => exists v, strip v = strip (o_core o') /\ received r (o_trace o') = received r (o_trace o) ++ seen ++ [(EStop k, v)]
    | _, _ => received r (o_trace o') = received r (o_trace o) ++ seen
    end.
Proof.
  intros E extra h i r Hd Hw Hi Hh o o'. pose proof (after_inv E extra h Hd Hw) as [I1 I2 _]. fold o in I1, I2.
  unfold o'. destruct (step_shape E o i Hd Hi I2) as (scs & tr & -> & S1 & S2).
  set (o1 := {| o_core := step_core E (o_core o) i; o_scs := scs; o_stopped := o_stopped o; o_trace := tr |}).
  assert (H0 : received r (signal E (EPreEval (si_pop i)) (o_core o) (tr_start E o)) =
     received r (o_trace o) ++ (if Nat.eqb (c_steps (o_core o)) 0 then [(EStart, o_core o)] else []) ++ [(EPreStep, o_core o); (EPreEval (si_pop i), o_core o)]).
  { unfold tr_start. rewrite !signal_heard by exact Hh. destruct (Nat.eqb _ _); rewrite ?signal_heard by exact Hh; rewrite <- !app_assoc; reflexivity. }
  assert (HX : exists seen, map fst seen = step_events E (o_core o) i /\ (forall ev v, In (ev, v) seen -> sees E (o_core o) i ev v) /\
     received r tr = received r (o_trace o) ++ seen).
  { unfold step_events. fold (step_best E (si_results i)) in S2. fold (step_best_point E i) in S2.
    destruct (too_many_errors E (si_results i)).
    - destruct (S1 eq_refl) as [_ ->]. rewrite H0. eexists. split; [|split; [|reflexivity]].
      + destruct (Nat.eqb _ _); reflexivity.
      + intros ev v Hin. destruct (Nat.eqb _ _); cbn in Hin; decompose [or] Hin; try contradiction; match goal with K : (_, _) = (_, _) |- _ => injection K as <- <- end; reflexivity.
    - destruct (S2 eq_refl) as [_ ->]. cbv zeta. rewrite !signal_heard by exact Hh.
      destruct (is_better _ _ _) eqn:Eb.
      + rewrite signal_heard by exact Hh. rewrite H0. rewrite <- !app_assoc. eexists. split; [|split; [|reflexivity]].
        * rewrite map_app. f_equal. destruct (Nat.eqb _ _); reflexivity.
        * intros ev v Hin. destruct (Nat.eqb _ _); cbn in Hin; decompose [or] Hin; try contradiction; match goal with K : (_, _) = (_, _) |- _ => injection K as <- <- end; cbn; auto 10.
      + rewrite H0. rewrite <- !app_assoc. eexists. split; [|split; [|reflexivity]].
        * rewrite map_app. f_equal. destruct (Nat.eqb _ _); reflexivity.
        * intros ev v Hin. destruct (Nat.eqb _ _); cbn in Hin; decompose [or] Hin; try contradiction; match goal with K : (_, _) = (_, _) |- _ => injection K as <- <- end; cbn; auto. }
  destruct HX as (seen & X1 & X2 & X3). exists seen. split; [exact X1|]. split; [exact X2|].
  unfold test_stop. cbn [o1 o_stopped]. destruct (o_stopped o) as [k|] eqn:Eo; [exact X3|]. cbn [o1 o_core o_scs o_trace].
  pose proof (test_list_spec E scs (step_core E (o_core o) i) 0 (step_core_cache E _ i I1)) as HT.
  destruct (test_list E (step_core E (o_core o) i) 0 scs) as [[c2 scs2] x]. destruct HT as (T1 & _).
  destruct x as [[k|]|w|]; cbn [fst o_stopped o_core o_trace]; auto.
  exists c2. split; [reflexivity|]. rewrite signal_heard by exact Hh. rewrite X3. now rewrite <- app_assoc.
Qed.
(** on_post_evaluate_population and on_post_step see the updated best. *)
Theorem C24_updated_best_is_visible : forall E c i, wf_input E i -> too_many_errors E (si_results i) = false ->
  let v := absorb E c (si_pop i) (si_results i) in
  c_cur_fits v = fits_of E (si_results i) /\ c_cur_fit v = step_best E (si_results i) /\ c_steps v = c_steps c /\
  c_best_fit v = (if is_better (e_info E) (step_best E (si_results i)) (c_best_fit c) then step_best E (si_results i) else c_best_fit c).
Proof.
  intros E c i _ _ v. unfold v, absorb, update_fitness_tracking. fold (step_best E (si_results i)) (step_best_point E i).
  destruct (is_better _ _ _); cbn [with_best with_current c_cap]; destruct (Nat.ltb 0 (c_cap c)); cbn; auto.
Qed.
(** Other calls show nothing but at most one on_stop. *)
Theorem C24_other_calls : forall E extra h a r, oi_dim (e_info E) <> 0 -> Forall (wf_op E) h -> heard E r -> (forall i, a <> OpStep i) ->
  let o := after E extra h in let o' := exec E o a in
  match o_stopped o, o_stopped o' with
  | None, Some k => a = OpTest /\ exists v, strip v = strip (o_core o') /\ received r (o_trace o') = received r (o_trace o) ++ [(EStop k, v)]
  | _, _ => received r (o_trace o') = received r (o_trace o)
  end.
Proof.
  intros E extra h a r Hd Hw Hh Ha o o'. unfold o'. destruct a as [i| | | | |n|sc]; cbn [exec with_core o_stopped o_trace]; try (destruct (o_stopped o); reflexivity).
  - now destruct (Ha i).
  - unfold test_stop. destruct (o_stopped o) as [k|] eqn:Eo; [reflexivity|].
    destruct (test_list E (o_core o) 0 (o_scs o)) as [[c2 scs2] x]. destruct x as [[k|]|w|]; cbn [fst o_stopped o_trace]; auto.
    split; [reflexivity|]. exists c2. split; [reflexivity|]. now rewrite signal_heard.
  - cbn [add_stop_condition o_stopped o_trace]. destruct (o_stopped o); reflexivity.
Qed.

(** Reporters have no influence: with any other reporters every call returns the same and
    leaves the same state; in particular their exceptions never leave step(). *)
Definition with_reporters (E : env) (rs : list reporter) : env :=
  {| e_info := e_info E; e_cma := e_cma E; e_regression := e_regression E; e_unsigned_errors := e_unsigned_errors E;
     e_max_errors := e_max_errors E; e_reporters := rs; e_libm := e_libm E |}.
Definition same_but_trace (a b : opt) : Prop := o_core a = o_core b /\ o_scs a = o_scs b /\ o_stopped a = o_stopped b.
Lemma sc_test_reporters E rs c sc : sc_test (with_reporters E rs) c sc = sc_test E c sc.
Proof.
  destruct sc; try reflexivity. cbn [sc_test]. destruct (_ && _); [|reflexivity]. cbn [with_reporters e_cma].
  destruct (negb (e_cma E)); [reflexivity|].
  assert (H : forall i sims, similarity_loop (with_reporters E rs) c i points sims min_distance = similarity_loop E c i points sims min_distance).
  { induction points as [|p t IH]; intros i s; cbn [similarity_loop with_reporters e_info e_libm]; [reflexivity|].
    destruct (normalized_distance _ _ _); try reflexivity. destruct (flt _ _); [reflexivity|]. apply IH. }
  rewrite H. reflexivity.
Qed.
Lemma test_list_reporters E rs l : forall c i, test_list (with_reporters E rs) c i l = test_list E c i l.
Proof.
  induction l as [|sc t IH]; intros c i; cbn [test_list]; [reflexivity|]. rewrite sc_test_reporters. destruct (sc_test E c sc) as [[c' sc'] [[|]|w|]]; try reflexivity.
  now rewrite IH.
Qed.
Lemma test_stop_reporters E rs a b : same_but_trace a b ->
  same_but_trace (fst (test_stop (with_reporters E rs) a)) (fst (test_stop E b)) /\ snd (test_stop (with_reporters E rs) a) = snd (test_stop E b).
Proof.
  intros (H1 & H2 & H3). unfold test_stop. rewrite H1, H2, H3, test_list_reporters. destruct (o_stopped b) as [k|] eqn:Eb.
  - cbn. split; [|reflexivity]. split; [exact H1|]. split; [exact H2|]. cbn. congruence.
  - destruct (test_list E (o_core b) 0 (o_scs b)) as [[c scs] [[k|]|w|]]; cbn; unfold same_but_trace; cbn; auto.
Qed.
Lemma step_reporters E rs a b i : same_but_trace a b ->
  same_but_trace (fst (step (with_reporters E rs) a i)) (fst (step E b i)) /\ snd (step (with_reporters E rs) a i) = snd (step E b i).
Proof.
  intros (H1 & H2 & H3). unfold step. change (e_info (with_reporters E rs)) with (e_info E).
  destruct (Nat.eqb (oi_dim (e_info E)) 0); [cbn; unfold same_but_trace; auto|].
  unfold evaluate_step. cbn [o_core o_scs o_stopped o_trace]. change (e_info (with_reporters E rs)) with (e_info E).
  change (too_many_errors (with_reporters E rs)) with (too_many_errors E). change (allowed_errors (with_reporters E rs)) with (allowed_errors E).
  rewrite H1, H2, H3.
  destruct (too_many_errors E (si_results i)).
  - destruct (set_error (o_scs b) _) as [l|].
    + apply test_stop_reporters. unfold same_but_trace. cbn. auto.
    + cbn. unfold same_but_trace. cbn. auto.
  - destruct (nth_error (map _ (si_results i)) _) as [f|]; [|cbn; unfold same_but_trace; cbn; auto].
    destruct (nth_error (si_pop i) _) as [p|]; [|cbn; unfold same_but_trace; cbn; auto].
    destruct (negb _); [cbn; unfold same_but_trace; cbn; auto|].
    apply test_stop_reporters. unfold same_but_trace. cbn [o_core o_scs o_stopped]. auto.
Qed.
Lemma exec_reporters E rs a b x : same_but_trace a b -> same_but_trace (exec (with_reporters E rs) a x) (exec E b x).
Proof.
  intros H. destruct x as [i| | | | |n|sc]; cbn [exec].
  - now apply step_reporters.
  - destruct H as (H1 & H2 & H3). unfold same_but_trace. cbn. rewrite H1. auto.
  - now apply test_stop_reporters.
  - destruct H as (H1 & H2 & H3). unfold same_but_trace. cbn. rewrite H1. auto.
  - destruct H as (H1 & H2 & H3). unfold same_but_trace. cbn. rewrite H1. auto.
  - destruct H as (H1 & H2 & H3). unfold same_but_trace. cbn. rewrite H1. auto.
  - destruct H as (H1 & H2 & H3). unfold same_but_trace. cbn [add_stop_condition o_core o_scs o_stopped]. rewrite H1, H2, H3. auto.
Qed.
Theorem C24_reporters_have_no_influence : forall E rs extra h i,
  let o := after E extra h in let o' := after (with_reporters E rs) extra h in
  same_but_trace o' o /\ snd (step (with_reporters E rs) o' i) = snd (step E o i) /\ snd (test_stop (with_reporters E rs) o') = snd (test_stop E o).
Proof.
  intros E rs extra h i. cbv zeta. set (o := after E extra h). set (o' := after (with_reporters E rs) extra h).
  assert (H : same_but_trace o' o).
  { unfold o, o', after. change (created (with_reporters E rs) extra) with (created E extra).
    assert (H : forall l a b, same_but_trace a b -> same_but_trace (fold_left (exec (with_reporters E rs)) l a) (fold_left (exec E) l b)).
    { induction l as [|x l IH]; intros a b Hab; cbn [fold_left]; [exact Hab|]. apply IH. now apply exec_reporters. }
    apply H. unfold same_but_trace. auto. }
  split; [exact H|]. split; [now apply step_reporters|now apply test_stop_reporters].
Qed.
