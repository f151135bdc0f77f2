(** * C68: only the ranking of the fitness values matters; stop conditions and reporters do not. *)
From Coq Require Import ZArith Bool FunctionalExtensionality.
From Verif Require Import Prelude Flt FltFacts Flt32 FltOpp Round8 FlatMap ParInfo ObjInfo Num MathTools Boundary Mes MesF Cma CmaRandom CmaF Optimizer OptimizerFacts Driver DriverFacts Duality
  Properties_Optimizer Properties_Optimizer4 Properties_ES4 Properties_Cma Properties_Cma3.
#[local] Open Scope nat_scope.

(** ** Specification *)
(** On the values [V] the function [g] is strictly increasing: it keeps < and ==. *)
Definition increasing_on (V : f64 -> Prop) (g : f64 -> f64) : Prop :=
  forall a b, V a -> V b -> flt (g a) (g b) = flt a b /\ feq (g a) (g b) = feq a b.
(** The evaluator of g o f: the same errors; [V] contains what f returns. *)
Definition rescaled (g : f64 -> f64) (r : result) : result := match r with ROk f => ROk (g f) | RErr m => RErr m end.
Definition rescaling (V : f64 -> Prop) (g : f64 -> f64) (eval eval' : list point -> list result) : Prop :=
  forall pop, (forall f, In (ROk f) (eval pop) -> V f) /\ eval' pop = map (rescaled g) (eval pop).
(** Two environments of the same optimization problem; reporters and library may differ. *)
Definition same_problem (E E' : env) : Prop :=
  e_info E' = e_info E /\ e_unsigned_errors E' = e_unsigned_errors E /\ e_max_errors E' = e_max_errors E.
(** What the user sees of the two searches after the same number of steps, as long as no call of step() throws. *)
Definition same_search {S} (g : f64 -> f64) (smp : sampler S) (E E' : env) (extra extra' : list stop_cond) (s : S)
    (evals evals' : list ((list point -> list result) * bool)) : Prop :=
  let r := full_steps smp E (created E extra) s evals in
  let r' := full_steps smp E' (created E' extra') s evals' in
  snd r = Ok tt -> snd r' = Ok tt ->
  let c := o_core (fst (fst r)) in let c' := o_core (fst (fst r')) in
  asked smp E' (created E' extra') s evals' = asked smp E (created E extra) s evals /\
  snd (fst r') = snd (fst r) /\
  c_best_pt c' = c_best_pt c /\ c_best_fit c' = g (c_best_fit c) /\
  c_cur_pt c' = c_cur_pt c /\ c_cur_fit c' = g (c_cur_fit c) /\ c_cur_fits c' = map g (c_cur_fits c) /\ c_steps c' = c_steps c.

(** ** Proof *)
Definition rank_core (V : f64 -> Prop) (g : f64 -> f64) (c c' : core) : Prop :=
  c_steps c' = c_steps c /\ V (c_best_fit c) /\ c_best_fit c' = g (c_best_fit c) /\ c_best_pt c' = c_best_pt c /\
  c_cur_pt c' = c_cur_pt c /\ c_cur_fit c' = g (c_cur_fit c) /\ c_cur_fits c' = map g (c_cur_fits c).
Definition rank_fields (c : core) := (c_steps c, c_best_fit c, c_best_pt c, c_cur_pt c, c_cur_fit c, c_cur_fits c).
Lemma rank_core_ext V g c c' d d' : rank_core V g c c' -> rank_fields d = rank_fields c -> rank_fields d' = rank_fields c' -> rank_core V g d d'.
Proof. unfold rank_core, rank_fields. intros H [= -> -> -> -> -> ->] [= -> -> -> -> -> ->]. exact H. Qed.
Lemma trend_fields E c : rank_fields (fst (fitness_trend E c)) = rank_fields c.
Proof. unfold fitness_trend. destruct (match c_trend_step c with Some s => Nat.eqb s (c_samples c) | None => false end); reflexivity. Qed.
Lemma progress_fields E c : rank_fields (fst (progress E c)) = rank_fields c.
Proof.
  unfold progress. destruct (Nat.eqb (c_cap c) 0); [reflexivity|]. destruct (Nat.leb 2 (length (c_hist c))); [|reflexivity].
  pose proof (trend_fields E c) as H. destruct (fitness_trend E c) as [c' reg]. exact H.
Qed.
Lemma predicted_fields E c n : rank_fields (fst (predicted_fitness E c n)) = rank_fields c.
Proof.
  unfold predicted_fitness. destruct (Nat.eqb (c_cap c) 0); [reflexivity|]. destruct (Nat.leb 2 (length (c_hist c))); [|reflexivity].
  pose proof (trend_fields E c) as H. destruct (fitness_trend E c) as [c' reg]. exact H.
Qed.
Lemma sc_test_fields E c sc : rank_fields (fst (fst (sc_test E c sc))) = rank_fields c.
Proof.
  destruct sc as [|e|eps|t|n|p n|p f k n|pts sims idx ms md|seen f]; cbn [sc_test]; try reflexivity.
  - destruct (Nat.leb n (c_steps c)); [|reflexivity]. pose proof (progress_fields E c) as H. destruct (progress E c) as [c' r]. exact H.
  - destruct (Nat.leb n (c_steps c)); [|reflexivity]. pose proof (predicted_fields E c k) as H. destruct (predicted_fitness E c k) as [c' [x|w|]]; exact H.
  - destruct ((0 <=? ms)%Z && (ms <=? Z.of_nat (c_steps c))%Z); [|reflexivity]. destruct (negb (e_cma E)); [reflexivity|].
    destruct (similarity_loop E c 0 pts (resize fzero (length pts) sims) md) as [s [[i|]|w|]]; reflexivity.
Qed.
Lemma test_list_fields E l : forall c i, rank_fields (fst (fst (test_list E c i l))) = rank_fields c.
Proof.
  induction l as [|sc t IH]; intros c i; cbn [test_list]; [reflexivity|]. pose proof (sc_test_fields E c sc) as H. destruct (sc_test E c sc) as [[c1 s1] [[|]|w|]]; cbn [fst] in *; try exact H.
  specialize (IH c1 (S i)). destruct (test_list E c1 (S i) t) as [[c2 t2] r2]. cbn [fst] in *. congruence.
Qed.
Lemma test_stop_fields E o : rank_fields (o_core (fst (test_stop E o))) = rank_fields (o_core o).
Proof.
  unfold test_stop. destruct (o_stopped o); [reflexivity|]. pose proof (test_list_fields E (o_scs o) (o_core o) 0) as H.
  destruct (test_list E (o_core o) 0 (o_scs o)) as [[c scs] [[k|]|w|]]; exact H.
Qed.

Section Rank.
Context (V : f64 -> Prop) (g : f64 -> f64) (HG : increasing_on V g).
Lemma is_better_rank info a b : V a -> V b -> is_better info (g a) (g b) = is_better info a b.
Proof using HG. intros Ha Hb. unfold is_better, fgt. destruct (oi_minimize info); apply HG; assumption. Qed.
Lemma min_element_from_rank lt l : Forall V l -> (forall a b, V a -> V b -> lt (g a) (g b) = lt a b) -> forall b bi i, V b ->
  min_element_from lt (g b) bi i (map g l) = min_element_from lt b bi i l.
Proof.
  intros HV H. induction HV as [|x t Hx HV IH]; intros b bi i Hb; cbn [map min_element_from]; [reflexivity|]. rewrite H by assumption. destruct (lt x b); apply IH; assumption.
Qed.
Lemma find_best_rank info l : Forall V l -> find_best_fitness info (map g l) = find_best_fitness info l.
Proof using HG.
  intros HV. assert (H : forall a b, V a -> V b -> flt (g a) (g b) = flt a b) by (intros; now apply HG). unfold find_best_fitness, min_element. destruct HV as [|x t Hx HV]; [reflexivity|]. cbn [map].
  destruct (oi_minimize info); apply min_element_from_rank; auto.
Qed.
Lemma fits_rank info rs : V (worst_fitness info) -> g (worst_fitness info) = worst_fitness info -> (forall f, In (ROk f) rs -> V f) ->
  let fits := fun rs => map (fun r => match r with ROk f => f | RErr _ => worst_fitness info end) rs in
  fits (map (rescaled g) rs) = map g (fits rs) /\ Forall V (fits rs).
Proof.
  intros HW HF HR. cbv zeta. split.
  - rewrite !map_map. apply map_ext. intros [f|m]; cbn [rescaled]; [reflexivity|]. symmetry. exact HF.
  - apply Forall_forall. intros x Hx. apply in_map_iff in Hx as (r & <- & Hr). destruct r as [f|m]; [apply HR; exact Hr|exact HW].
Qed.
Lemma count_errors_rank rs : count_errors (map (rescaled g) rs) = count_errors rs.
Proof. unfold count_errors. induction rs as [|[f|m] t IH]; cbn [map rescaled filter is_err length]; auto. Qed.

Context (E E' : env) (HE : same_problem E E') (HW : V (worst_fitness (e_info E))) (HF : g (worst_fitness (e_info E)) = worst_fitness (e_info E)).
Lemma too_many_rank rs : too_many_errors E' (map (rescaled g) rs) = too_many_errors E rs.
Proof using HE.
  destruct HE as (_ & H2 & H3). unfold too_many_errors, allowed_errors. rewrite H2, H3, map_length, count_errors_rank. reflexivity.
Qed.
Lemma tracking_fields c : rank_fields (update_fitness_tracking c) = rank_fields c.
Proof. unfold update_fitness_tracking. destruct (Nat.ltb 0 (c_cap c)); reflexivity. Qed.
(** evaluate_step of both, if neither throws *)
Lemma evaluate_step_rank o o' pop rs b b' : rank_core V g (o_core o) (o_core o') -> (forall f, In (ROk f) rs -> V f) ->
  snd (evaluate_step E o pop rs) = Ok b -> snd (evaluate_step E' o' pop (map (rescaled g) rs)) = Ok b' ->
  b' = b /\ rank_core V g (o_core (fst (evaluate_step E o pop rs))) (o_core (fst (evaluate_step E' o' pop (map (rescaled g) rs)))) /\
  (b = true -> Forall V (c_cur_fits (o_core (fst (evaluate_step E o pop rs))))).
Proof using HG HE HW HF.
  intros HC HR. pose proof HE as (HI & _). unfold evaluate_step. rewrite too_many_rank. destruct (too_many_errors E rs) eqn:ET.
  - destruct (set_error (o_scs o) _) as [l|]; destruct (set_error (o_scs o') _) as [l'|]; cbn [fst snd o_core]; intros [= <-] [= <-]. split; [reflexivity|]. split; [exact HC|discriminate].
  - cbv zeta. rewrite HI. destruct (fits_rank (e_info E) rs HW HF HR) as [-> HV].
    set (fits := map (fun r => match r with ROk f => f | RErr _ => worst_fitness (e_info E) end) rs) in *.
    rewrite (find_best_rank _ _ HV). set (bi := find_best_fitness (e_info E) fits) in *. rewrite nth_error_map.
    destruct (nth_error fits bi) as [f|] eqn:Ef; cbn [option_map]; [|discriminate]. destruct (nth_error pop bi) as [p|]; [|discriminate].
    destruct (negb (Nat.eqb (length p) (oi_dim (e_info E)))); [discriminate|]. cbn [fst snd]. intros [= <-] [= <-]. split; [reflexivity|].
    assert (Vf : V f) by (rewrite Forall_forall in HV; exact (HV f (nth_error_In _ _ Ef))).
    destruct HC as (C1 & C2 & C3 & C4 & C5 & C6 & C7).
    assert (EB : is_better (e_info E) (g f) (c_best_fit (with_current (o_core o') (map g fits) (g f) p)) = is_better (e_info E) f (c_best_fit (with_current (o_core o) fits f p))).
    { cbn [with_current c_best_fit]. rewrite C3. apply is_better_rank; assumption. }
    rewrite EB. cbn [o_core]. split.
    + eapply rank_core_ext; [|apply tracking_fields|apply tracking_fields].
      destruct (is_better (e_info E) f _); unfold rank_core; cbn [with_best with_current c_steps c_best_fit c_best_pt c_cur_pt c_cur_fit c_cur_fits]; auto 10.
    + intros _. destruct (tracking_best (if is_better (e_info E) f (c_best_fit (with_current (o_core o) fits f p)) then with_best (with_current (o_core o) fits f p) f (map rounded p) else with_current (o_core o) fits f p)) as (_ & _ & _ & HT & _).
      cbn [o_core] in *. rewrite HT. clear EB HT. destruct (is_better (e_info E) f _); exact HV.
Qed.
Context {S : Type} (smp : sampler S) (HS : forall s fits, Forall V fits -> s_update smp s (map g fits) = s_update smp s fits).
Lemma full_step_rank o o' s eval eval' i i' q q' : rank_core V g (o_core o) (o_core o') -> rescaling V g eval eval' ->
  snd (full_step smp E o s eval i) = Ok q -> snd (full_step smp E' o' s eval' i') = Ok q' ->
  rank_core V g (o_core (fst (fst (full_step smp E o s eval i)))) (o_core (fst (fst (full_step smp E' o' s eval' i')))) /\
  snd (fst (full_step smp E' o' s eval' i')) = snd (fst (full_step smp E o s eval i)).
Proof using HG HE HW HF HS.
  intros HC HR. pose proof HE as (HI & _). unfold full_step. rewrite HI. destruct (Nat.eqb (oi_dim (e_info E)) 0); [discriminate|]. unfold internal_step.
  destruct (s_sample smp s) as [s1 [pop|w|]]; cbn [fst snd]; try discriminate. destruct (HR pop) as [HR1 ->].
  set (oa := {| o_core := o_core o; o_scs := o_scs o; o_stopped := o_stopped o; o_trace := _ |}). set (ob := {| o_core := o_core o'; o_scs := o_scs o'; o_stopped := o_stopped o'; o_trace := _ |}).
  pose proof (fun b b' => evaluate_step_rank oa ob pop (eval pop) b b' HC HR1) as HX. clearbody oa ob.
  destruct (evaluate_step E oa pop (eval pop)) as [o1 [b|w|]]; destruct (evaluate_step E' ob pop (map (rescaled g) (eval pop))) as [o1' [b'|w'|]]; cbn [fst snd] in *; try (intros; discriminate);
    try (destruct b; cbn [fst snd]; [destruct (s_update smp s1 (c_cur_fits (o_core o1))) as [s2 [u|w2|]]|]; cbn [fst snd]; try destruct (test_stop _ _); cbn [fst snd]; intros; discriminate).
  - destruct (HX b b' eq_refl eq_refl) as (-> & HC1 & HV). clear HX. destruct b.
    + assert (EU : s_update smp s1 (c_cur_fits (o_core o1')) = s_update smp s1 (c_cur_fits (o_core o1))).
      { destruct HC1 as (_ & _ & _ & _ & _ & _ & ->). apply HS. apply HV. reflexivity. }
      rewrite EU. destruct (s_update smp s1 (c_cur_fits (o_core o1))) as [s2 [u|w2|]]; cbn [fst snd]; try discriminate.
      set (oc := {| o_core := if i then _ else _; o_scs := _; o_stopped := _; o_trace := _ |}). set (od := {| o_core := if i' then _ else _; o_scs := _; o_stopped := _; o_trace := _ |}).
      assert (HC2 : rank_core V g (o_core oc) (o_core od)).
      { unfold oc, od. cbn [o_core]. destruct HC1 as (C1 & C2 & C3 & C4 & C5 & C6 & C7). destruct i, i'; unfold rank_core; cbn [with_interrupt with_steps c_steps c_best_fit c_best_pt c_cur_pt c_cur_fit c_cur_fits]; auto 10. }
      pose proof (test_stop_fields E oc) as T1. pose proof (test_stop_fields E' od) as T2. clearbody oc od.
      destruct (test_stop E oc) as [oe re], (test_stop E' od) as [of rf]. cbn [fst snd] in *. intros _ _. split; [|reflexivity]. eapply rank_core_ext; eassumption.
    + cbn [fst snd]. set (oc := {| o_core := if i then _ else _; o_scs := _; o_stopped := _; o_trace := _ |}). set (od := {| o_core := if i' then _ else _; o_scs := _; o_stopped := _; o_trace := _ |}).
      assert (HC2 : rank_core V g (o_core oc) (o_core od)).
      { unfold oc, od. cbn [o_core]. destruct HC1 as (C1 & C2 & C3 & C4 & C5 & C6 & C7). destruct i, i'; unfold rank_core; cbn [with_interrupt with_steps c_steps c_best_fit c_best_pt c_cur_pt c_cur_fit c_cur_fits]; auto 10. }
      pose proof (test_stop_fields E oc) as T1. pose proof (test_stop_fields E' od) as T2. clearbody oc od.
      destruct (test_stop E oc) as [oe re], (test_stop E' od) as [of rf]. cbn [fst snd] in *. intros _ _. split; [|reflexivity]. eapply rank_core_ext; eassumption.
Qed.
Lemma full_steps_rank evals : forall evals' o o' s, Forall2 (fun e e' => rescaling V g (fst e) (fst e')) evals evals' -> rank_core V g (o_core o) (o_core o') ->
  snd (full_steps smp E o s evals) = Ok tt -> snd (full_steps smp E' o' s evals') = Ok tt ->
  rank_core V g (o_core (fst (fst (full_steps smp E o s evals)))) (o_core (fst (fst (full_steps smp E' o' s evals')))) /\
  snd (fst (full_steps smp E' o' s evals')) = snd (fst (full_steps smp E o s evals)) /\
  asked smp E' o' s evals' = asked smp E o s evals.
Proof using HG HE HW HF HS.
  induction evals as [|[eval i] t IH]; intros evals' o o' s HL HC; inversion HL as [|? [eval' i'] ? t' HR HL']; subst; cbn [full_steps asked]; [auto|].
  cbn [fst] in HR. pose proof (fun q q' => full_step_rank o o' s eval eval' i i' q q' HC HR) as HX.
  destruct (full_step smp E o s eval i) as [[o1 s1] [q|w|]]; destruct (full_step smp E' o' s eval' i') as [[o1' s1'] [q'|w'|]]; cbn [fst snd] in *; intros H1 H2; try discriminate.
  destruct (HX q q' eq_refl eq_refl) as [HC1 ->]. destruct (IH t' o1 o1' s1 HL' HC1 H1 H2) as (A & B & C). rewrite C. auto.
Qed.
Lemma created_rank extra extra' : rank_core V g (o_core (created E extra)) (o_core (created E' extra')).
Proof using HE HW HF.
  assert (A : forall l o, rank_fields (o_core (fold_left add_stop_condition l o)) = rank_fields (o_core o)).
  { intros l. induction l as [|sc l IH]; intros o; cbn [fold_left]; [reflexivity|]. rewrite IH. unfold add_stop_condition. cbn [o_core]. destruct (Nat.ltb _ _); reflexivity. }
  apply (rank_core_ext V g (init_core E) (init_core E')).
  - destruct HE as (HI & _). unfold rank_core, init_core. rewrite HI. cbn. auto 10.
  - unfold created. rewrite A. reflexivity.
  - unfold created. rewrite A. reflexivity.
Qed.
End Rank.

(** Any optimizer whose update sees the fitness values only through their order. *)
Theorem C68_any_optimizer : forall S (smp : sampler S) V g E E' extra extra' s evals evals',
  (forall s fits, Forall V fits -> s_update smp s (map g fits) = s_update smp s fits) ->
  increasing_on V g -> V (worst_fitness (e_info E)) -> g (worst_fitness (e_info E)) = worst_fitness (e_info E) -> same_problem E E' ->
  Forall2 (fun e e' => rescaling V g (fst e) (fst e')) evals evals' ->
  same_search g smp E E' extra extra' s evals evals'.
Proof.
  intros S smp V g E E' extra extra' s evals evals' HS HG HW HF HE HL. unfold same_search. cbv zeta. intros H1 H2.
  destruct (full_steps_rank V g HG E E' HE HW HF smp HS evals evals' (created E extra) (created E' extra') s HL (created_rank V g E E' HE HW HF extra extra') H1 H2) as ((C1 & _ & C3 & C4 & C5 & C6 & C7) & B & C).
  auto 10.
Qed.
Lemma es_update_rank V g L info lambda mu off dev comp : increasing_on V g -> forall s fits, Forall V fits ->
  s_update (es_sampler L info lambda mu off dev comp) s (map g fits) = s_update (es_sampler L info lambda mu off dev comp) s fits.
Proof.
  intros HG s fits HV. unfold es_sampler. cbn [s_update].
  replace (sorted_indices (sl_sort L) (is_better info) (map g fits)) with (sorted_indices (sl_sort L) (is_better info) fits); [reflexivity|].
  unfold sorted_indices. rewrite map_length. f_equal. apply functional_extensionality. intros a. apply functional_extensionality. intros b. rewrite !nth_error_map. rewrite Forall_forall in HV.
  destruct (nth_error fits a) as [x|] eqn:Ea; cbn [option_map]; [|reflexivity]. destruct (nth_error fits b) as [y|] eqn:Eb; cbn [option_map]; [|reflexivity].
  symmetry. apply (is_better_rank V g HG); apply HV; eapply nth_error_In; eassumption.
Qed.
Lemma cma_update_rank V g L info tr P : increasing_on V g -> 0 < p_lambda P -> forall s fits, Forall V fits ->
  s_update (cma_sampler L info tr P) s (map g fits) = s_update (cma_sampler L info tr P) s fits.
Proof.
  intros HG HP s fits HV. unfold cma_sampler. cbn [s_update]. rewrite Forall_forall in HV.
  assert (EU : @cma_update (numF (cl_libm L)) _ (cl_pow L) P s (if oi_minimize info then map g fits else map fopp (map g fits)) =
               @cma_update (numF (cl_libm L)) _ (cl_pow L) P s (if oi_minimize info then fits else map fopp fits)); [|now rewrite EU].
  assert (T : forall v w : list f64, length v = length w ->
    (forall i j a b c d, nth_error v i = Some a -> nth_error v j = Some b -> nth_error w i = Some c -> nth_error w j = Some d -> flt a b = flt c d /\ feq a b = feq c d) ->
    @cma_update (numF (cl_libm L)) _ (cl_pow L) P s v = @cma_update (numF (cl_libm L)) _ (cl_pow L) P s w).
  { intros v w HL H. destruct (Nat.eqb (length w) (p_lambda P)) eqn:EL; [|unfold cma_update; change (@length (nT (numF (cl_libm L)))) with (@length f64); rewrite HL, EL; destruct (s_phase s); reflexivity].
    apply Nat.eqb_eq in EL. apply update_ext; [exact HL|exact HP|]. intros a b Ha Hb.
    assert (N : forall u : list f64, length u = p_lambda P -> forall k, k < p_lambda P -> exists x, nth_error u k = Some x /\ @at_ (numF (cl_libm L)) u k = x).
    { intros u Hu k Hk. destruct (nth_error u k) as [x|] eqn:E; [|apply nth_error_None in E; lia]. exists x. split; [reflexivity|]. exact (nth_error_nth _ _ _ E). }
    destruct (N v (eq_trans HL EL) a Ha) as (va & Ea & ->), (N v (eq_trans HL EL) b Hb) as (vb & Eb & ->), (N w EL a Ha) as (wa & Fa & ->), (N w EL b Hb) as (wb & Fb & ->).
    cbn [nlt neq numF]. exact (H a b va vb wa wb Ea Eb Fa Fb). }
  destruct (oi_minimize info); apply T.
  - apply map_length.
  - intros i j a b c d Ha Hb Hc Hd. rewrite nth_error_map, Hc in Ha. rewrite nth_error_map, Hd in Hb. cbn [option_map] in Ha, Hb. injection Ha as <-. injection Hb as <-.
    apply HG; apply HV; eapply nth_error_In; eassumption.
  - now rewrite !map_length.
  - intros i j a b c d Ha Hb Hc Hd. rewrite !nth_error_map in *. destruct (nth_error fits i) as [x|] eqn:Ex; [|discriminate]. destruct (nth_error fits j) as [y|] eqn:Ey; [|discriminate]. cbn [option_map] in *.
    injection Ha as <-. injection Hb as <-. injection Hc as <-. injection Hd as <-. rewrite !flt_fopp, !feq_fopp. pose proof (HV x (nth_error_In _ _ Ex)) as Vx. pose proof (HV y (nth_error_In _ _ Ey)) as Vy.
    split; [exact (proj1 (HG y x Vy Vx))|exact (proj2 (HG x y Vx Vy))].
Qed.

(** MES, EVA and CMA, from construction on, with the same options and random numbers; failed evaluations count as
    the worst fitness, which [g] must keep. *)
Theorem C68_mes : forall L V g E E' extra extra' lambda opt start evals evals',
  increasing_on V g -> V (worst_fitness (e_info E)) -> g (worst_fitness (e_info E)) = worst_fitness (e_info E) -> same_problem E E' ->
  Forall2 (fun e e' => rescaling V g (fst e) (fst e')) evals evals' ->
  same_search g (mes_sampler L (e_info E) lambda opt) E E' (flat_default :: extra) (flat_default :: extra') (es_start L (e_info E) lambda start) evals evals'.
Proof.
  intros L V g E E' extra extra' lambda opt start evals evals' HG HW HF HE HL. apply (C68_any_optimizer _ _ V); try assumption. apply es_update_rank, HG.
Qed.
Theorem C68_eva : forall L V g E E' extra extra' lambda opt start evals evals',
  increasing_on V g -> V (worst_fitness (e_info E)) -> g (worst_fitness (e_info E)) = worst_fitness (e_info E) -> same_problem E E' ->
  Forall2 (fun e e' => rescaling V g (fst e) (fst e')) evals evals' ->
  same_search g (eva_sampler L (e_info E) lambda opt) E E' (flat_default :: extra) (flat_default :: extra') (es_start L (e_info E) lambda start) evals evals'.
Proof.
  intros L V g E E' extra extra' lambda opt start evals evals' HG HW HF HE HL. apply (C68_any_optimizer _ _ V); try assumption. apply es_update_rank, HG.
Qed.
Lemma supplement_lambda (K : Num) cceil to_int N ol om (P : cma_par K) : supplement_defaults cceil to_int N ol om = Ok P -> 0 < p_lambda P.
Proof.
  unfold supplement_defaults. intros H.
  destruct (if (ol <? 2)%Z then _ else _) as [lambda|w|]; cbn [obind] in H; try discriminate.
  destruct (Z.quot lambda 2 <? 0)%Z; [discriminate|]. destruct (set_weights (Z.to_nat (Z.quot lambda 2))) as [w mueff].
  destruct (Nat.ltb_spec (Z.to_nat (Z.quot lambda 2)) 1) as [|Hm]; cbn [orb] in H; [discriminate|]. destruct ((lambda <? Z.of_nat (Z.to_nat (Z.quot lambda 2)))%Z || _); [discriminate|].
  injection H as <-. cbn [p_lambda].
  assert (0 < lambda)%Z; [|lia]. destruct (Z.lt_ge_cases 0 lambda) as [|G]; [assumption|]. pose proof (Z.quot_opp_l lambda 2 ltac:(lia)). pose proof (Z.quot_pos (- lambda) 2 ltac:(lia) ltac:(lia)). lia.
Qed.
Lemma created_lambda L info label opt device clock P st : cma_create L info label opt device clock = Ok (P, st) -> 0 < p_lambda P.
Proof.
  unfold cma_create. intros H. pose proof (supplement_lambda (numF (cl_libm L)) (cl_ceil L) to_int_F (oi_dim info) (co_lambda opt) (co_modulo opt)) as HS.
  destruct (@supplement_defaults (numF (cl_libm L)) (cl_ceil L) to_int_F (oi_dim info) (co_lambda opt) (co_modulo opt)) as [Q|w|]; cbn [obind] in H; try discriminate.
  specialize (HS Q eq_refl). set (st0 := cma_init _ _ _ _) in H. clearbody st0. destruct (cma_bounds_init label _ _); cbn [obind] in H; try discriminate. injection H as <- _. exact HS.
Qed.
Theorem C68_cma : forall L V g E E' extra extra' transformer label opt device clock P st evals evals',
  cma_create L (e_info E) label opt device clock = Ok (P, st) ->
  increasing_on V g -> V (worst_fitness (e_info E)) -> g (worst_fitness (e_info E)) = worst_fitness (e_info E) -> same_problem E E' ->
  Forall2 (fun e e' => rescaling V g (fst e) (fst e')) evals evals' ->
  same_search g (cma_sampler L (e_info E) transformer P) E E' (flat_default :: extra) (flat_default :: extra') st evals evals'.
Proof.
  intros L V g E E' extra extra' transformer label opt device clock P st evals evals' HC HG HW HF HE HL. apply (C68_any_optimizer _ _ V); try assumption.
  apply cma_update_rank; [exact HG|]. eapply created_lambda, HC.
Qed.
(** Neither reporters nor stop conditions, nor when interrupt() is called, influence the search of any optimizer. *)
Theorem C68_observers_do_not_interfere : forall S (smp : sampler S) E E' extra extra' s evals evals',
  same_problem E E' -> map fst evals' = map fst evals ->
  same_search (fun x => x) smp E E' extra extra' s evals evals'.
Proof.
  intros S smp E E' extra extra' s evals evals' HE HL. apply (C68_any_optimizer _ smp (fun _ => True)); auto.
  - intros s1 fits _. now rewrite map_id.
  - intros a b _ _. auto.
  - revert evals' HL. induction evals as [|e t IH]; intros [|e' t'] HL; try discriminate; [constructor|]. constructor; [|apply IH; cbn [map] in HL; congruence].
    cbn [map] in HL. injection HL as HL _. rewrite HL. intros pop. split; [auto|]. rewrite <- (map_id (fst e pop)) at 1. apply map_ext. intros [f|m]; reflexivity.
Qed.

(** Concrete: an objective with the values 1, 2 and 3 (and an error), minimized by MES; rescaled to -1000, 0 and 5; with
    different stop conditions and reporters.  Three steps; the searches are the same and do something. *)
Definition stairs (f1 f2 f3 : f64) : list point -> list result :=
  map (fun p => match p with x :: _ => if flt x fzero then ROk f3 else if flt x (fofZ 1) then ROk f1 else ROk f2 | [] => RErr "empty" end).
Definition ex_steep (x : f64) : f64 := if feq x (fofZ 1) then fofZ (-1000) else if feq x (fofZ 2) then fofZ 0 else if feq x (fofZ 3) then fofZ 5 else x.
Definition ex_values (x : f64) : Prop := In x [fofZ 1; fofZ 2; fofZ 3; worst_fitness ex_info].
Lemma ex_steep_increasing : increasing_on ex_values ex_steep.
Proof.
  assert (H : forallb (fun a => forallb (fun b => Bool.eqb (flt (ex_steep a) (ex_steep b)) (flt a b) && Bool.eqb (feq (ex_steep a) (ex_steep b)) (feq a b))
    [fofZ 1; fofZ 2; fofZ 3; worst_fitness ex_info]) [fofZ 1; fofZ 2; fofZ 3; worst_fitness ex_info] = true) by (vm_compute; reflexivity).
  rewrite forallb_forall in H. intros a b Ha Hb. specialize (H a Ha). rewrite forallb_forall in H. specialize (H b Hb). apply andb_true_iff in H as [H1 H2].
  apply Bool.eqb_prop in H1. apply Bool.eqb_prop in H2. auto.
Qed.
Example C68_nonvacuous :
  let evals := repeat (stairs (fofZ 1) (fofZ 2) (fofZ 3), false) 3 in
  let evals' := [(stairs (fofZ (-1000)) (fofZ 0) (fofZ 5), false); (stairs (fofZ (-1000)) (fofZ 0) (fofZ 5), true); (stairs (fofZ (-1000)) (fofZ 0) (fofZ 5), false)] in
  let run E extra evals := full_steps (mes_sampler ex_lib ex_info 4 ex_mes) E (created E (flat_default :: extra)) (es_start ex_lib ex_info 4 1) evals in
  let r := run (ex_env []) [ScMaxSteps 2] evals in let r' := run (ex_env [quiet]) [ScTarget fzero] evals' in
  increasing_on ex_values ex_steep /\ ex_values (worst_fitness ex_info) /\ f64_same (ex_steep (worst_fitness ex_info)) (worst_fitness ex_info) = true /\ same_problem (ex_env []) (ex_env [quiet]) /\
  Forall2 (fun e e' => rescaling ex_values ex_steep (fst e) (fst e')) evals evals' /\
  snd r = Ok tt /\ snd r' = Ok tt /\
  same_search ex_steep (mes_sampler ex_lib ex_info 4 ex_mes) (ex_env []) (ex_env [quiet]) [flat_default; ScMaxSteps 2] [flat_default; ScTarget fzero] (es_start ex_lib ex_info 4 1) evals evals' /\
  (Nat.eqb (c_steps (o_core (fst (fst r')))) 3 && feq (c_best_fit (o_core (fst (fst r')))) (fofZ (-1000)) && feq (c_best_fit (o_core (fst (fst r)))) (fofZ 1)) = true.
Proof.
  cbv zeta. assert (HG := ex_steep_increasing). assert (HV : ex_values (worst_fitness ex_info)) by (unfold ex_values; cbn [In]; auto).
  assert (HF : f64_same (ex_steep (worst_fitness ex_info)) (worst_fitness ex_info) = true) by (vm_compute; reflexivity).
  assert (HE : same_problem (ex_env []) (ex_env [quiet])) by (split; [reflexivity|split; reflexivity]).
  assert (HR : rescaling ex_values ex_steep (stairs (fofZ 1) (fofZ 2) (fofZ 3)) (stairs (fofZ (-1000)) (fofZ 0) (fofZ 5))).
  { intros pop. split.
    - intros f Hf. unfold stairs in Hf. apply in_map_iff in Hf as (p & Hp & _). unfold ex_values. cbn [In]. destruct p as [|x t]; [discriminate Hp|].
      destruct (flt x fzero); [injection Hp as <-; auto|]. destruct (flt x (fofZ 1)); injection Hp as <-; auto.
    - assert (E1 : ex_steep (fofZ 1) = fofZ (-1000)) by (apply f64_same_eq; vm_compute; reflexivity). assert (E2 : ex_steep (fofZ 2) = fofZ 0) by (apply f64_same_eq; vm_compute; reflexivity).
      assert (E3 : ex_steep (fofZ 3) = fofZ 5) by (apply f64_same_eq; vm_compute; reflexivity).
      unfold stairs. rewrite map_map. apply map_ext. intros [|x t]; [reflexivity|]. destruct (flt x fzero); [cbn [rescaled]; now rewrite E3|]. destruct (flt x (fofZ 1)); cbn [rescaled]; [now rewrite E1|now rewrite E2]. }
  assert (HL : Forall2 (fun e e' => rescaling ex_values ex_steep (fst e) (fst e')) (repeat (stairs (fofZ 1) (fofZ 2) (fofZ 3), false) 3)
    [(stairs (fofZ (-1000)) (fofZ 0) (fofZ 5), false); (stairs (fofZ (-1000)) (fofZ 0) (fofZ 5), true); (stairs (fofZ (-1000)) (fofZ 0) (fofZ 5), false)]).
  { constructor; [exact HR|]. constructor; [exact HR|]. constructor; [exact HR|]. constructor. }
  split; [exact HG|]. split; [exact HV|]. split; [exact HF|]. split; [exact HE|]. split; [exact HL|]. split; [vm_compute; reflexivity|]. split; [vm_compute; reflexivity|].
  split; [|vm_compute; reflexivity]. apply f64_same_eq in HF.
  exact (C68_mes ex_lib ex_values ex_steep (ex_env []) (ex_env [quiet]) [ScMaxSteps 2] [ScTarget fzero] 4%Z ex_mes 1 _ _ HG HV HF HE HL).
Qed.
