(** * MES and EVA on doubles: C37 (evaluated points respect the bounds), C47 (rest), C48. *)
From Coq Require Import ZArith Bool Lia Permutation.
From Verif Require Import Prelude Flt FltFacts Round8 Round8Facts FlatMap ParInfo ParInfoFacts ObjInfo Num MathTools Boundary Mes MesFacts MesF Optimizer OptimizerFacts Driver DriverFacts
  Properties_SearchPoint Properties_Optimizer.

(** ** C37 *)
(** Every component lies within [min,max] of its parameter. *)
Definition in_bounds (info : obj_info) (x : point) : Prop :=
  Forall2 (fun p v => fle (pi_min p) v = true /\ fle v (pi_max p) = true) (oi_free info) x.
(** Valid parameters whose bounds have at most 8 significant digits (are not changed by rounding). *)
Definition eight_digit_bounds (info : obj_info) : Prop :=
  Forall (fun p => is_valid p = true /\ rounded (pi_min p) = pi_min p /\ rounded (pi_max p) = pi_max p) (oi_free info).
(** The random numbers are never NaN. *)
Definition draws_numbers (L : stdlib) : Prop := forall m s d g, fisnan (fst (fst (sl_draw L m s d g))) = false.

Lemma fclamped_in_range v lo hi : fisnan v = false -> fle lo hi = true -> fle lo (fclamped v lo hi) = true /\ fle (fclamped v lo hi) hi = true.
Proof.
  intros Hv Hb. unfold fclamped, fgt. rewrite fle_key in Hb. apply andb_true_iff in Hb as [Hn Hb]. apply andb_true_iff in Hn as [Hlo Hhi]. apply Z.leb_le in Hb.
  assert (Hnv : negb (fisnan v) = true) by now rewrite Hv.
  rewrite !flt_key, Hlo, Hhi, Hnv. cbn [andb]. destruct (Z.ltb_spec (fkey hi) (fkey v)); [|destruct (Z.ltb_spec (fkey v) (fkey lo))];
    rewrite !fle_key, ?Hlo, ?Hhi, ?Hnv; cbn [andb]; split; apply Z.leb_le; lia.
Qed.

Lemma fclamped_nan v lo hi : fisnan v = true -> fclamped v lo hi = v.
Proof. intros En. unfold fclamped, fgt. rewrite !flt_key, En, !andb_false_r. reflexivity. Qed.

Section ES.
Variables (L : stdlib) (info : obj_info) (lambda mu : Z) (offset offset_stdev : f64).
Notation K := (numF (sl_libm L)).
Variable component : comp K -> f64 -> f64 -> comp K.
Notation smp := (es_sampler L info lambda mu offset offset_stdev component).

(** Before rounding, for all valid bounds: each sampled component is within its range,
    unless a random number was NaN. *)
Theorem C37_es_sampled_before_rounding : forall st st1 pop, Forall (fun p => is_valid p = true) (oi_free info) ->
  s_sample smp st = (st1, Ok pop) ->
  length pop = Z.to_nat lambda /\
  Forall (fun x => exists y, x = map rounded y /\
    Forall2 (fun p v => (fle (pi_min p) v = true /\ fle v (pi_max p) = true) \/ (fisnan v = true /\ exists m s d g, fst (fst (sl_draw L m s d g)) = v)) (oi_free info) y) pop.
Proof.
  intros st st1 pop HV H. unfold es_sampler in H. cbn [s_sample] in H. match type of H with context [match ?m with Ok _ => _ | _ => _ end] => destruct m as [st'|w|] eqn:E end; try discriminate. injection H as <- <-.
  apply es_sample_spec in E as (_ & _ & _ & HL & F). split; [exact HL|]. eapply Forall_impl; [|exact F]. intros x (y & -> & Hy). exists y. split; [reflexivity|].
  clear - Hy HV. unfold bounds_of in Hy. revert y Hy. induction HV as [|p ps Hp _ IH]; intros y Hy; cbn [map] in Hy; inversion Hy as [|? v ? y' Hv Hy']; subst; constructor; auto.
  destruct Hv as (m & s & d & g & Hv). cbv zeta in Hv. cbn [fst snd] in Hv. destruct Hv as [(-> & H1 & H2)|Hv]; [left; auto|].
  destruct (fisnan (fst (fst (sl_draw L m s d g)))) eqn:En.
  - right. assert (v = fst (fst (sl_draw L m s d g))) as -> by exact (eq_trans Hv (fclamped_nan _ _ _ En)). split; [exact En|]. exists m, s, d, g. reflexivity.
  - left. rewrite Hv. apply fclamped_in_range; [exact En|]. apply is_valid_iff in Hp as (_ & H1 & H2). eapply fle_trans; eauto.
Qed.
(** With 8-digit bounds: every point handed to the evaluator is within the bounds. *)
Theorem C37_es_population_within_bounds : forall st st1 pop, eight_digit_bounds info -> draws_numbers L ->
  s_sample smp st = (st1, Ok pop) -> Forall (in_bounds info) pop.
Proof.
  intros st st1 pop HB HD H. apply C37_es_sampled_before_rounding in H as [_ F].
  - eapply Forall_impl; [|exact F]. intros x (y & -> & Hy). unfold in_bounds. clear - Hy HB HD. revert y Hy. induction HB as [|p ps (Hp & Hlo & Hhi) _ IH]; intros y Hy; inversion Hy as [|? v ? y' Hv Hy']; subst; cbn [map]; constructor; auto.
    destruct Hv as [[H1 H2]|(Hn & m & s & d & g & Hv)]; [|rewrite <- Hv, HD in Hn; discriminate].
    pose proof (C14_rounded_stays_within_8_digit_range p v Hlo Hhi) as HR. unfold is_within_range, fge in HR. rewrite H1, H2 in HR. specialize (HR eq_refl). apply andb_true_iff in HR. tauto.
  - eapply Forall_impl; [|exact HB]. intros p (Hp & _). exact Hp.
Qed.
(** In a whole run, from any state of the optimizer: the objective is only ever asked
    about points within the bounds -- answering differently elsewhere changes nothing. *)
Theorem C37_es_run_asks_within_bounds : forall E o st evals evals', eight_digit_bounds info -> draws_numbers L ->
  Forall2 (fun e e' => snd e = snd e' /\ forall pop, Forall (in_bounds info) pop -> fst e pop = fst e' pop) evals evals' ->
  full_steps smp E o st evals = full_steps smp E o st evals'.
Proof.
  intros E o st evals evals' HB HD HF. apply (full_steps_only smp E (fun _ => True)) with (Q := Forall (in_bounds info)); auto.
  intros s s1 pop _ H. eapply C37_es_population_within_bounds; eauto.
Qed.
End ES.

(** best_point() is always within the bounds. *)
Lemma sc_test_best E c sc : c_best_pt (fst (fst (sc_test E c sc))) = c_best_pt c.
Proof.
  assert (HT : c_best_pt (fst (fitness_trend E c)) = c_best_pt c) by (unfold fitness_trend; destruct (match c_trend_step c with Some s => Nat.eqb s (c_samples c) | None => false end); reflexivity).
  destruct sc; cbn [sc_test fst]; try reflexivity.
  - destruct (Nat.leb _ _); [|reflexivity]. unfold progress. destruct (Nat.eqb _ _); [reflexivity|]. destruct (Nat.leb _ _); [|reflexivity]. destruct (fitness_trend E c); exact HT.
  - destruct (Nat.leb _ _); [|reflexivity]. unfold predicted_fitness. destruct (Nat.eqb _ _); [reflexivity|]. destruct (Nat.leb _ _); [|reflexivity]. destruct (fitness_trend E c); exact HT.
  - destruct (_ && _); [|reflexivity]. destruct (negb (e_cma E)); [reflexivity|]. destruct (similarity_loop _ _ _ _ _ _) as [sims' [[i|]|w|]]; reflexivity.
Qed.
Lemma test_list_best E l : forall c i, c_best_pt (fst (fst (test_list E c i l))) = c_best_pt c.
Proof.
  induction l as [|sc t IH]; intros c i; cbn [test_list]; [reflexivity|]. pose proof (sc_test_best E c sc) as H. destruct (sc_test E c sc) as [[c' sc'] [[|]|w|]]; cbn [fst] in *; try exact H.
  specialize (IH c' (S i)). destruct (test_list E c' (S i) t) as [[c'' t'] r]. cbn [fst] in *. congruence.
Qed.
Lemma test_stop_best E o : c_best_pt (o_core (fst (test_stop E o))) = c_best_pt (o_core o).
Proof.
  unfold test_stop. destruct (o_stopped o); [reflexivity|]. pose proof (test_list_best E (o_scs o) (o_core o) 0) as H. destruct (test_list E (o_core o) 0 (o_scs o)) as [[c scs] [[i|]|w|]]; exact H.
Qed.
Lemma evaluate_step_best E o pop rs : let c' := o_core (fst (evaluate_step E o pop rs)) in
  c_best_pt c' = c_best_pt (o_core o) \/ exists p, In p pop /\ c_best_pt c' = map rounded p.
Proof.
  cbv zeta. unfold evaluate_step. destruct (too_many_errors E rs).
  - destruct (set_error _ _); left; reflexivity.
  - destruct (nth_error (map _ rs) _); [|left; reflexivity]. destruct (nth_error pop _) as [p|] eqn:Ep; [|left; reflexivity]. destruct (negb _); [left; reflexivity|].
    destruct (is_better _ _ _); cbn [fst o_core]; destruct (tracking_best (with_best (with_current (o_core o) (map (fun r => match r with ROk f => f | RErr _ => worst_fitness (e_info E) end) rs) f p) f (map rounded p))) as (_ & H1 & _);
    destruct (tracking_best (with_current (o_core o) (map (fun r => match r with ROk f => f | RErr _ => worst_fitness (e_info E) end) rs) f p)) as (_ & H2 & _).
    + right. exists p. split; [eapply nth_error_In; eauto|exact H1].
    + left. exact H2.
Qed.
Lemma full_step_best {S} (smp : sampler S) E (P : point -> Prop) o s eval i :
  (forall p, P p -> P (map rounded p)) -> (forall s s1 pop, s_sample smp s = (s1, Ok pop) -> Forall P pop) ->
  P (c_best_pt (o_core o)) -> P (c_best_pt (o_core (fst (fst (full_step smp E o s eval i))))).
Proof.
  intros HR HS HP. unfold full_step. destruct (Nat.eqb (oi_dim (e_info E)) 0); [exact HP|]. unfold internal_step. destruct (s_sample smp s) as [s1 [pop|w|]] eqn:Es; try exact HP.
  apply HS in Es. set (o2 := {| o_core := o_core o; o_scs := _; o_stopped := _; o_trace := _ |}).
  assert (HE : P (c_best_pt (o_core (fst (evaluate_step E o2 pop (eval pop)))))).
  { destruct (evaluate_step_best E o2 pop (eval pop)) as [H|(p & Hp & H)]; rewrite H; [exact HP|]. apply HR. rewrite Forall_forall in Es. auto. }
  destruct (evaluate_step E o2 pop (eval pop)) as [o3 [[|]|w|]]; cbn [fst] in *; try exact HE.
  - destruct (s_update smp s1 _) as [s2 [u|w|]]; cbn [fst snd] in *; try exact HE.
    match goal with |- context [test_stop E ?oo] => pose proof (test_stop_best E oo) as HB; destruct (test_stop E oo) as [o' r] end. cbn [fst] in *. rewrite HB. destruct i; exact HE.
  - match goal with |- context [test_stop E ?oo] => pose proof (test_stop_best E oo) as HB; destruct (test_stop E oo) as [o' r] end. cbn [fst] in *. rewrite HB. destruct i; exact HE.
Qed.
Lemma full_steps_best {S} (smp : sampler S) E (P : point -> Prop) evals :
  (forall p, P p -> P (map rounded p)) -> (forall s s1 pop, s_sample smp s = (s1, Ok pop) -> Forall P pop) ->
  forall o s, P (c_best_pt (o_core o)) -> P (c_best_pt (o_core (fst (fst (full_steps smp E o s evals))))).
Proof.
  intros HR HS. induction evals as [|[eval i] t IH]; intros o s HP; cbn [full_steps]; [exact HP|].
  pose proof (full_step_best smp E P o s eval i HR HS HP) as H. destruct (full_step smp E o s eval i) as [[o' s'] [r|w|]]; cbn [fst] in *; auto.
Qed.
Lemma round_in_bounds info p : eight_digit_bounds info -> in_bounds info p -> in_bounds info (map rounded p).
Proof.
  unfold in_bounds. intros HB H. revert HB. unfold eight_digit_bounds. induction H as [|q v ps vs [H1 H2] _ IH]; intros HB; cbn [map]; constructor; inversion HB as [|? ? (_ & Hlo & Hhi) HB']; subst; auto.
  pose proof (C14_rounded_stays_within_8_digit_range q v Hlo Hhi) as HR. unfold is_within_range, fge in HR. rewrite H1, H2 in HR. specialize (HR eq_refl). apply andb_true_iff in HR. tauto.
Qed.
Lemma initial_best_in_bounds E extra : eight_digit_bounds (e_info E) -> in_bounds (e_info E) (c_best_pt (o_core (created E extra))).
Proof.
  intros HB. assert (c_best_pt (o_core (created E extra)) = map rounded (map pi_mean (oi_free (e_info E)))) as ->.
  { unfold created. assert (HI : c_best_pt (o_core (init E)) = map rounded (map pi_mean (oi_free (e_info E)))) by reflexivity. revert HI. generalize (init E).
    induction extra as [|sc t IH]; intros o H; cbn [fold_left]; [exact H|]. apply IH. unfold add_stop_condition. cbn [o_core]. destruct (Nat.ltb _ _); exact H. }
  apply round_in_bounds; [exact HB|]. unfold in_bounds, eight_digit_bounds in *. induction HB as [|p ps (Hp & _) _ IH]; cbn [map]; constructor; auto. apply is_valid_iff in Hp. tauto.
Qed.
Theorem C37_es_best_point_within_bounds : forall L E lambda mu offset offset_stdev component extra st evals,
  eight_digit_bounds (e_info E) -> draws_numbers L ->
  in_bounds (e_info E) (c_best_pt (o_core (fst (fst (full_steps (es_sampler L (e_info E) lambda mu offset offset_stdev component) E (created E extra) st evals))))).
Proof.
  intros * HB HD. apply full_steps_best.
  - intros p. now apply round_in_bounds.
  - intros s s1 pop H. eapply C37_es_population_within_bounds; eauto.
  - now apply initial_best_in_bounds.
Qed.
