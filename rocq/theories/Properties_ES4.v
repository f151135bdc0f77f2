(** * MES and EVA: the sampling distribution (C47), NaN draws (C37), concrete runs. *)
From Coq Require Import ZArith Bool Lia Reals Lra Permutation.
From Flocq Require Import Core.
From Verif Require Import Prelude Flt FltFacts Round8 Round8Facts FlatMap ParInfo ParInfoFacts ObjInfo Num MathTools Boundary Mes MesFacts MesF Optimizer OptimizerFacts Driver DriverFacts
  Properties_SearchPoint Properties_Optimizer Properties_Optimizer4 Properties_ES Properties_ES2 Properties_ES3.
#[local] Open Scope nat_scope.

(** ** The distribution that individuals are drawn from *)
Section Distribution.
Context {K : Num} {rng dist : Type} (nd_new : dist) (nd_draw : K -> K -> dist -> rng -> K * dist * rng) (round : K -> K) (bounds : list (K * K)) (lambda : nat).
(** [v] was drawn from the normal distribution of that mean and standard deviation,
    either within [lo,hi], or clamped to it. *)
Definition drawn_within (mean stdev lo hi v : K) : Prop :=
  exists d g, let r := fst (fst (nd_draw mean stdev d g)) in (v = r /\ nle lo r = true /\ nle r hi = true) \/ v = clamped r lo hi.
(** Individual [y] of an optimizer with that mean, variance and momentum: the offset
    along the momentum is drawn once per individual. *)
Definition drawn_individual (offset offset_stdev : K) (mean var mom : list K) (y : list K) : Prop :=
  exists ofs, (exists d g, ofs = fst (fst (nd_draw offset offset_stdev d g))) /\ length y = length bounds /\
  forall i b v, nth_error bounds i = Some b -> nth_error y i = Some v ->
    exists m va mo, nth_error mean i = Some m /\ nth_error var i = Some va /\ nth_error mom i = Some mo /\
      drawn_within (nadd m (nmul ofs mo)) (nsqrt (nadd va (nmul mo mo))) (fst b) (snd b) v.

Lemma try_sample_drawn k mean stdev lo hi d g : drawn_within mean stdev lo hi (fst (try_sample nd_draw k mean stdev lo hi d g)).
Proof.
  revert d g. induction k as [|k IH]; intros d g; cbn [try_sample].
  - destruct (nd_draw mean stdev d g) as [[v d'] g'] eqn:E. cbn [fst]. exists d, g. cbv zeta. rewrite E. cbn. now right.
  - destruct (nd_draw mean stdev d g) as [[v d'] g'] eqn:E. destruct (nle lo v && nle v hi) eqn:R; [|apply IH].
    cbn [fst]. apply andb_true_iff in R as [R1 R2]. exists d, g. cbv zeta. rewrite E. cbn. left. auto.
Qed.
Lemma sample_components_drawn (st : es_state K rng) ofs bs : forall i g x g',
  sample_components nd_new nd_draw st ofs i bs g = Ok (x, g') -> length x = length bs /\
  forall j b v, nth_error bs j = Some b -> nth_error x j = Some v ->
    exists m va mo, nth_error (es_mean st) (i + j) = Some m /\ nth_error (es_var st) (i + j) = Some va /\ nth_error (es_mom st) (i + j) = Some mo /\
      drawn_within (nadd m (nmul ofs mo)) (nsqrt (nadd va (nmul mo mo))) (fst b) (snd b) v.
Proof.
  induction bs as [|b bs IH]; intros i g x g'; cbn [sample_components]; [intros [= <- <-]; split; [reflexivity|intros [|j]; discriminate]|].
  destruct (get (es_mean st) i) as [m| |] eqn:Em; cbn [obind]; try discriminate. destruct (get (es_var st) i) as [va| |] eqn:Ev; cbn [obind]; try discriminate. destruct (get (es_mom st) i) as [mo| |] eqn:Eo; cbn [obind]; try discriminate.
  unfold sample_parameter. match goal with |- context [try_sample ?a ?b ?c ?d ?e ?f ?h ?i] => pose proof (try_sample_drawn b c d e f h i) as V; destruct (try_sample a b c d e f h i) as [v g1] end. cbn [fst] in V.
  destruct (sample_components nd_new nd_draw st ofs (S i) bs g1) as [[xs g2]| |] eqn:E; cbn [obind]; try discriminate.
  intros [= <- <-]. apply IH in E as [HL E]. split; [cbn; now f_equal|]. intros [|j] b' v' Hb Hv; cbn [nth_error] in *.
  - injection Hb as <-. injection Hv as <-. rewrite Nat.add_0_r. apply get_Ok in Em, Ev, Eo. exists m, va, mo. auto.
  - rewrite <- Nat.add_succ_comm. now apply E.
Qed.
Lemma es_sample_drawn o os (st st' : es_state K rng) : es_sample nd_new nd_draw round bounds lambda o os st = Ok st' ->
  length (es_pop st') = lambda /\ Forall (fun p => exists y, p = map round y /\ drawn_individual o os (es_mean st) (es_var st) (es_mom st) y) (es_pop st').
Proof.
  unfold es_sample. destruct (sample_individuals _ _ _ _ _ _ _ _ _ _) as [[pop g]| |] eqn:E; cbn [obind]; try discriminate.
  intros [= <-]. cbn [es_pop]. revert E. generalize (es_rng st), nd_new at 2. revert pop g. generalize lambda.
  induction lambda0 as [|k IH]; intros pop g g0 d; cbn [sample_individuals]; [intros [= <- <-]; auto|].
  destruct (nd_draw o os d g0) as [[ofs d'] g1] eqn:Ed. destruct (sample_components nd_new nd_draw st ofs 0 bounds g1) as [[x g2]| |] eqn:E; cbn [obind]; try discriminate.
  destruct (sample_individuals _ _ _ _ _ _ _ k d' g2) as [[xs g3]| |] eqn:E2; cbn [obind]; try discriminate.
  intros [= <- <-]. apply IH in E2 as [L F]. split; [cbn; congruence|]. constructor; [|exact F]. exists x. split; [reflexivity|].
  apply sample_components_drawn in E as [HL E]. exists ofs. split; [exists d, g0; rewrite Ed; reflexivity|]. split; [exact HL|]. exact E.
Qed.
End Distribution.

Section F64.
Variables (L : stdlib) (info : obj_info) (lambda mu : Z) (offset offset_stdev : f64).
Notation K := (numF (sl_libm L)).
Variable component : comp K -> f64 -> f64 -> comp K.
Notation smp := (es_sampler L info lambda mu offset offset_stdev component).
(** Every individual of the population is drawn anew, lambda of them, each from the
    current mean, variance and momentum. *)
Theorem C47_sampling_distribution : forall st st1 pop, s_sample smp st = (st1, Ok pop) ->
  length pop = Z.to_nat lambda /\
  Forall (fun x => exists y, x = map rounded y /\ @drawn_individual K _ _ (sl_draw L) (bounds_of info) offset offset_stdev (es_mean st) (es_var st) (es_mom st) y) pop /\
  es_mean st1 = es_mean st /\ es_var st1 = es_var st /\ es_mom st1 = es_mom st /\ es_pop st1 = pop.
Proof.
  intros st st1 pop H. unfold es_sampler in H. cbn [s_sample] in H. match type of H with context [match ?m with Ok _ => _ | _ => _ end] => destruct m as [st'|w|] eqn:E end; try discriminate. injection H as <- <-.
  pose proof E as E'. apply es_sample_drawn in E as [HL F]. apply es_sample_spec in E' as (E1 & E2 & E3 & _). split; [exact HL|]. split; [exact F|]. auto.
Qed.
(** If the state's own distributions yield no NaN, the population is within the bounds. *)
Definition distribution_ok (st : es_f64 L) : Prop := forall i m va mo d g d' g', nth_error (es_mean st) i = Some m -> nth_error (es_var st) i = Some va -> nth_error (es_mom st) i = Some mo ->
  let ofs := fst (fst (sl_draw L offset offset_stdev d g)) in fisnan (fst (fst (sl_draw L (fadd m (fmul ofs mo)) (fsqrt (fadd va (fmul mo mo))) d' g'))) = false.
Theorem C37_es_population_within_bounds_here : forall st st1 pop, eight_digit_bounds info -> distribution_ok st ->
  s_sample smp st = (st1, Ok pop) -> Forall (in_bounds info) pop.
Proof.
  intros st st1 pop HB HD H. apply C47_sampling_distribution in H as (_ & F & _). eapply Forall_impl; [|exact F]. intros x (y & -> & ofs & (d & g & ->) & HL & HY). apply round_in_bounds; [exact HB|].
  unfold in_bounds. unfold bounds_of in HL. rewrite map_length in HL. assert (HX : forall i p v, nth_error (oi_free info) i = Some p -> nth_error y i = Some v -> fle (pi_min p) v = true /\ fle v (pi_max p) = true).
  { intros i p v Hp Hv. destruct (HY i (pi_min p, pi_max p) v) as (m & va & mo & H1 & H2 & H3 & d' & g' & H4); [unfold bounds_of; rewrite nth_error_map, Hp; reflexivity|exact Hv|].
    pose proof (HD i m va mo d g d' g' H1 H2 H3) as HN. cbv zeta in H4, HN. cbn [fst snd] in H4. destruct H4 as [(-> & A & B)|H4]; [auto|].
    assert (E : v = fclamped (fst (fst (sl_draw L (fadd m (fmul (fst (fst (sl_draw L offset offset_stdev d g))) mo)) (fsqrt (fadd va (fmul mo mo))) d' g'))) (pi_min p) (pi_max p)) by exact H4. rewrite E.
    apply fclamped_in_range; [exact HN|]. unfold eight_digit_bounds in HB. rewrite Forall_forall in HB. destruct (HB p) as (Hp1 & _); [eapply nth_error_In; eauto|]. apply is_valid_iff in Hp1 as (_ & A & B). eapply fle_trans; eauto. }
  clear - HX HL. revert y HL HX. induction (oi_free info) as [|p ps IH]; intros [|v y] HL HX; try discriminate HL; constructor.
  - apply (HX 0 p v); reflexivity.
  - apply IH; [exact (eq_add_S _ _ HL)|]. intros i q w Hq Hw. apply (HX (S i) q w); assumption.
Qed.
(** Without any assumption on the random numbers: a component outside the bounds is a
    NaN that was rounded to 0. *)
Definition in_bounds_or_zero (x : point) : Prop :=
  Forall2 (fun p v => (fle (pi_min p) v = true /\ fle v (pi_max p) = true) \/ v = fzero) (oi_free info) x.
Theorem C37_es_run_asks_within_bounds_or_zero : forall E o st evals evals', eight_digit_bounds info ->
  Forall2 (fun e e' => snd e = snd e' /\ forall pop, Forall in_bounds_or_zero pop -> fst e pop = fst e' pop) evals evals' ->
  full_steps smp E o st evals = full_steps smp E o st evals'.
Proof.
  intros E o st evals evals' HB HF. apply (full_steps_only smp E (fun _ => True)) with (Q := Forall in_bounds_or_zero); auto.
  intros s s1 pop _ H. apply C37_es_sampled_before_rounding in H as [_ F].
  - eapply Forall_impl; [|exact F]. intros x (y & -> & Hy). unfold in_bounds_or_zero. clear - Hy HB. revert y Hy. induction HB as [|p ps (Hp & Hlo & Hhi) _ IH]; intros y Hy; inversion Hy as [|? v ? y' Hv Hy']; subst; cbn [map]; constructor; auto.
    destruct Hv as [[H1 H2]|(Hn & _)].
    + left. pose proof (C14_rounded_stays_within_8_digit_range p v Hlo Hhi) as HR. unfold is_within_range, fge in HR. rewrite H1, H2 in HR. specialize (HR eq_refl). apply andb_true_iff in HR. tauto.
    + right. destruct v; try discriminate. reflexivity.
  - eapply Forall_impl; [|exact HB]. intros p (Hp & _). exact Hp.
Qed.
End F64.

(** ** Sizes *)
(** With the default options: lambda = 4 + int( 3 log dim ), mu = lambda / 2. *)
Theorem C47_default_sizes : forall option_lambda dim, (option_lambda <= 1)%Z -> 1 <= dim ->
  exists lambda, @es_lambda numR (fun x : R => Ok (Ztrunc x)) option_lambda dim = Ok lambda /\ (4 <= lambda)%Z /\ (2 <= es_mu 0 lambda <= lambda)%Z /\
  (IZR (lambda - 4) <= 3 * ln (INR dim) < IZR (lambda - 3))%R.
Proof.
  intros ol dim Hl Hd. unfold es_lambda. destruct (Z.ltb_spec 1 ol); [lia|]. cbn [obind]. eexists. split; [reflexivity|].
  change (@nmul numR (nofZ 3) (nlog (nofZ (Z.of_nat dim)))) with (3 * ln (IZR (Z.of_nat dim)))%R.
  assert (H0 : (0 <= ln (IZR (Z.of_nat dim)))%R). { rewrite <- ln_1. destruct (Nat.eq_dec dim 1) as [->|Hd1]; [cbn; lra|]. left. apply ln_increasing; [lra|]. apply IZR_lt. lia. }
  rewrite Ztrunc_floor by lra. assert (HF : (0 <= Zfloor (3 * ln (IZR (Z.of_nat dim))))%Z) by (apply Zfloor_lub; cbn; lra).
  split; [lia|]. split.
  - unfold es_mu. cbn [Z.eqb]. rewrite Z.quot_div_nonneg by lia. split; [apply Z.div_le_lower_bound; lia|]. apply Z.div_le_upper_bound; lia.
  - rewrite INR_IZR_INZ. replace (4 + Zfloor (3 * ln (IZR (Z.of_nat dim))) - 4)%Z with (Zfloor (3 * ln (IZR (Z.of_nat dim))))%Z by lia.
    replace (4 + Zfloor (3 * ln (IZR (Z.of_nat dim))) - 3)%Z with (Zfloor (3 * ln (IZR (Z.of_nat dim))) + 1)%Z by lia. split; [apply Zfloor_lb|]. rewrite plus_IZR. apply Zfloor_ub.
Qed.
(** Without parameters the constructor converts minus infinity to an int. *)
Theorem C47_no_parameters_refuted : forall L info opt, oi_free info = [] -> lm_log (sl_libm L) fzero = finf true -> (mo_lambda opt <= 1)%Z -> mes_lambda L info opt = Undef.
Proof.
  intros L info opt Hi Hl Ho. unfold mes_lambda, es_lambda, oi_dim. rewrite Hi. destruct (Z.ltb_spec 1 (mo_lambda opt)); [lia|]. cbn [length Z.of_nat].
  change (@nlog (numF (sl_libm L)) (nofZ 0)) with (lm_log (sl_libm L) fzero). rewrite Hl. reflexivity.
Qed.

(** ** Concrete runs *)
(** A source of numbers: mean - stdev, mean, mean + stdev, in turn. *)
Definition ex_draw (m s : f64) (d : unit) (g : nat) : f64 * unit * nat := (fadd m (fmul s (fofZ (Z.of_nat (Nat.modulo g 3) - 1))), d, S g).
Definition ex_lib : stdlib := {| sl_rng := nat; sl_dist := unit; sl_new := tt; sl_draw := ex_draw; sl_sort := isort; sl_libm := e_libm (ex_env []); sl_eps := flit 1 (-9) |}.
Definition ex_mes : mes_options := {| mo_lambda := 4; mo_mu := 2; mo_mean_sigma := flit 5 (-1); mo_var_sigma := flit 5 (-1); mo_mom_sigma := fzero; mo_mom_offset := fzero; mo_mom_offset_stdev := fzero |}.
Definition ex_square : list point -> list result := map (fun p => ROk (match p with x :: _ => fmul x x | [] => fnan end)).
Notation ex_run n := (full_steps (mes_sampler ex_lib ex_info 4 ex_mes) (ex_env []) (created (ex_env []) [flat_default]) (es_start ex_lib ex_info 4 1) (repeat (ex_square, false) n)).
Example C37_es_nonvacuous : eight_digit_bounds ex_info /\ distribution_ok ex_lib fzero fzero (es_start ex_lib ex_info 4 1) /\
  length (es_pop (snd (fst (ex_run 2)))) = 4 /\ c_steps (o_core (fst (fst (ex_run 2)))) = 2.
Proof.
  split; [|split; [|split; vm_compute; reflexivity]].
  - unfold eight_digit_bounds. constructor; [|constructor]. split; [vm_compute; reflexivity|]. split; f64_compute.
  - intros i m va mo d g d' g' H1 H2 H3. destruct i as [|i]; [|destruct i; discriminate H1]. injection H1 as <-. injection H2 as <-. injection H3 as <-. cbv zeta.
    unfold ex_lib. cbn [sl_draw ex_draw fst]. pose proof (Nat.mod_upper_bound g 3 ltac:(lia)) as A. pose proof (Nat.mod_upper_bound g' 3 ltac:(lia)) as B.
    destruct (Nat.modulo g 3) as [|[|[|k]]]; [| | |lia]; destruct (Nat.modulo g' 3) as [|[|[|k']]]; try lia; vm_compute; reflexivity.
Qed.
(** After one step of this run: mean, variance and best point. *)
Example C47_nonvacuous : f64s_same (es_mean (snd (fst (ex_run 1)))) [flit 75 (-2)] = true /\ f64s_same (es_var (snd (fst (ex_run 1)))) [flit 75 (-2)] = true /\
  f64s_same (c_best_pt (o_core (fst (fst (ex_run 1))))) [fzero] = true /\ sorts isort.
Proof. split; [vm_compute; reflexivity|]. split; [vm_compute; reflexivity|]. split; [vm_compute; reflexivity|]. exact isort_sorts. Qed.
(** With momentum the mean of MES can leave the bounds: [0,1], every draw gives 1. *)
Definition one_par : par_info := {| pi_name := "x"; pi_mean := fzero; pi_std := fofZ 1; pi_min := fzero; pi_max := fofZ 1 |}.
Definition one_info : obj_info := {| oi_free := [one_par]; oi_locked := []; oi_minimize := true; oi_target := fzero; oi_name := "" |}.
Definition one_env : env := {| e_info := one_info; e_cma := false; e_regression := e_regression (ex_env []); e_unsigned_errors := true; e_max_errors := 0; e_reporters := []; e_libm := e_libm (ex_env []) |}.
Definition one_lib : stdlib := {| sl_rng := unit; sl_dist := unit; sl_new := tt; sl_draw := fun _ _ d g => (fofZ 1, d, g); sl_sort := isort; sl_libm := e_libm (ex_env []); sl_eps := flit 1 (-9) |}.
Definition mom_options : mes_options := {| mo_lambda := 2; mo_mu := 1; mo_mean_sigma := fofZ 1; mo_var_sigma := flit 5 (-1); mo_mom_sigma := flit 5 (-1); mo_mom_offset := fzero; mo_mom_offset_stdev := fzero |}.
Theorem C47_mes_mean_within_bounds_with_momentum_refuted : exists L E opt evals g, eight_digit_bounds (e_info E) /\
  let s := snd (fst (full_steps (mes_sampler L (e_info E) 2 opt) E (created E [flat_default]) (es_start L (e_info E) 2 g) evals)) in
  draws_numbers L /\ ~ in_bounds (e_info E) (es_mean s).
Proof.
  exists one_lib, one_env, mom_options, (repeat (ex_square, false) 3), tt.
  split; [constructor; [|constructor]; split; [vm_compute; reflexivity|]; split; f64_compute|]. cbv zeta. split; [intros m s d g; vm_compute; reflexivity|].
  assert (E : es_mean (snd (fst (full_steps (mes_sampler one_lib (e_info one_env) 2 mom_options) one_env (created one_env [flat_default]) (es_start one_lib (e_info one_env) 2 tt) (repeat (ex_square, false) 3)))) = [flit 125 (-2)]) by (apply f64s_same_eq; vm_compute; reflexivity).
  rewrite E. unfold in_bounds. intros H. inversion H as [|? ? ? ? [_ H1] _]. vm_compute in H1. discriminate.
Qed.
(** A NaN draw becomes 0, which need not be within the bounds. *)
Definition nan_lib : stdlib := {| sl_rng := unit; sl_dist := unit; sl_new := tt; sl_draw := fun _ _ d g => (fnan, d, g); sl_sort := isort; sl_libm := e_libm (ex_env []); sl_eps := flit 1 (-9) |}.
Definition far_info : obj_info := {| oi_free := [{| pi_name := "x"; pi_mean := fofZ 3; pi_std := fofZ 1; pi_min := fofZ 2; pi_max := fofZ 4 |}]; oi_locked := []; oi_minimize := true; oi_target := fzero; oi_name := "" |}.
Theorem C37_es_nan_draw_refuted : exists L info st pop, eight_digit_bounds info /\
  snd (s_sample (mes_sampler L info 4 ex_mes) st) = Ok pop /\ ~ Forall (in_bounds info) pop /\ Forall (in_bounds_or_zero info) pop.
Proof.
  exists nan_lib, far_info, (es_start nan_lib far_info 4 tt), (repeat [fzero] 4). split; [constructor; [|constructor]; split; [vm_compute; reflexivity|]; split; f64_compute|].
  split; [vm_compute; reflexivity|]. split.
  - intros H. apply Forall_inv in H. unfold in_bounds in H. inversion H as [|? ? ? ? [HA _] _]. vm_compute in HA. discriminate.
  - repeat constructor; right; reflexivity.
Qed.
(** mu larger than lambda reads past the end of the sorted population. *)
Theorem C47_mu_above_lambda_refuted : exists L info opt g st pop fits, s_sample (mes_sampler L info 4 opt) (es_start L info 4 g) = (st, Ok pop) /\ length fits = length pop /\
  snd (s_update (mes_sampler L info 4 opt) st fits) = Undef.
Proof.
  exists one_lib, one_info, {| mo_lambda := 4; mo_mu := 5; mo_mean_sigma := fofZ 1; mo_var_sigma := flit 5 (-1); mo_mom_sigma := flit 5 (-1); mo_mom_offset := fzero; mo_mom_offset_stdev := fzero |}, tt.
  eexists _, _, (repeat fzero 4). split; [unfold mes_sampler, es_sampler; cbn [s_sample]; reflexivity|]. split; vm_compute; reflexivity.
Qed.
Example C48_nonvacuous : exists info', es_updated_info ex_lib ex_info (snd (fst (ex_run 1))) = Ok info' /\ map pi_name (oi_free info') = ["x"%string] /\ f64s_same (map pi_mean (oi_free info')) [flit 75 (-2)] = true.
Proof.
  destruct (C48_es ex_lib (ex_env []) 4 (es_mu (mo_mu ex_mes) 4) (mo_mom_offset ex_mes) (mo_mom_offset_stdev ex_mes) (@mes_component (numF (sl_libm ex_lib)) (mo_mean_sigma ex_mes) (mo_var_sigma ex_mes) (mo_mom_sigma ex_mes))
    (created (ex_env []) [flat_default]) 1 (repeat (ex_square, false) 1)) as (info' & H & O). exists info'. split; [exact H|]. destruct O as (N & _ & _ & _ & _ & _ & _ & M & _).
  rewrite N, M. split; vm_compute; reflexivity.
Qed.
