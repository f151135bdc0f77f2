(** * C47 in double precision, and with the default options *)
From Coq Require Import ZArith Bool Reals Lra Lia.
From Flocq Require Import Core BinarySingleNaN.
From Verif Require Import Prelude Flt FltFacts FltNonneg Round8 FlatMap ParInfo ObjInfo Num MathTools Boundary Mes MesFacts MesF Optimizer Driver DriverFacts Properties_ES3 Properties_ES4 Properties_CmaRandom Properties_Optimizer4.
#[local] Open Scope nat_scope.

(** ** Doubles that are not negative *)
Lemma fle0_pos (x : f64) : fle fzero x = true -> (exists s, x = B754_zero s) \/ x = finf false \/ (is_finite x = true /\ (0 < B2R x)%R).
Proof.
  intros H. destruct (fle0_cases x H) as [E|[F P]]; [auto|]. destruct x as [s|s| |s m e B]; try discriminate F; [eauto|]. right. right. split; [reflexivity|]. destruct P as [P|P]; [exact P|]. exfalso. symmetry in P. cbn in P. apply eq_0_F2R in P. cbn in P. destruct s; discriminate P.
Qed.
Lemma nn_mul (a b : f64) : never_negative a -> never_negative b -> never_negative (fmul a b).
Proof.
  intros [Ha|Ha] Hb; [left; destruct a; try discriminate Ha; destruct b; reflexivity|]. destruct (fle0_pos a Ha) as [(s & ->)|[->|[F P]]].
  - destruct Hb as [Hb|Hb]; [left; destruct b; try discriminate Hb; reflexivity|]. destruct b as [s'|s'| |s' m e B]; [right; reflexivity|left; reflexivity|left; reflexivity|right; reflexivity].
  - destruct Hb as [Hb|Hb]; [left; destruct b; try discriminate Hb; reflexivity|]. destruct b as [s'|[|]| |[|] m e B]; try discriminate Hb; [left; reflexivity|right; reflexivity|right; reflexivity].
  - exact (nn_scale a b F P Hb).
Qed.
Lemma nn_div (a : f64) (z : Z) : never_negative a -> (1 <= z <= 2 ^ 53)%Z -> never_negative (fdiv a (fofZ z)).
Proof.
  intros Ha Hz. destruct (fofZ_exact z ltac:(lia)) as [Rz Fz]. assert (Pz : (0 < B2R (fofZ z))%R) by (rewrite Rz; apply IZR_lt; lia). destruct Ha as [Ha|Ha]; [left; destruct a; try discriminate Ha; destruct (fofZ z); reflexivity|].
  destruct (fle0_cases a Ha) as [->|[F P]].
  - destruct (fofZ z) as [s|s| |s m e B]; try discriminate Fz; [cbn in Pz; lra|]. destruct s; [|right; reflexivity]. exfalso. revert Pz. unfold B2R, F2R. cbn. pose proof (bpow_gt_0 radix2 e). assert (0 < IZR (Zpos m))%R by (apply IZR_lt; reflexivity). assert (IZR (Zneg m) = - IZR (Zpos m))%R by (rewrite <- opp_IZR; reflexivity). nra.
  - pose proof (Bdiv_correct prec64 emax64 _ _ mode_NE a (fofZ z) ltac:(lra)) as H. fold (fdiv a (fofZ z)) in H.
    assert (Q : (0 <= B2R a / B2R (fofZ z))%R) by (apply Rmult_le_pos; [exact P|left; now apply Rinv_0_lt_compat]).
    destruct (Rlt_bool_spec (Rabs (round radix2 (SpecFloat.fexp prec64 emax64) (round_mode mode_NE) (B2R a / B2R (fofZ z)))) (bpow radix2 emax64)) as [Hlt|Hge].
    + destruct H as (E & F3 & _). right. apply fle0_finite; [rewrite F3; exact F|]. rewrite E. apply round_nonneg. exact Q.
    + destruct (Bsign a) eqn:Sa.
      * exfalso. rewrite (fsign_nonneg a F P Sa) in Hge. unfold Rdiv in Hge. rewrite Rmult_0_l, round_0, Rabs_R0 in Hge by typeclasses eauto. pose proof (bpow_gt_0 radix2 emax64). lra.
      * destruct (Bsign (fofZ z)) eqn:Sz; [rewrite (fsign_nonneg _ Fz ltac:(lra) Sz) in Pz; lra|]. right. assert (fdiv a (fofZ z) = finf false) as -> by (apply B2SF_inj; exact H). reflexivity.
Qed.
Lemma nn_complement (r : f64) : fle fzero r = true -> fle r (fofZ 1) = true -> never_negative (fsub (fofZ 1) r).
Proof.
  intros H0 H1. destruct (fofZ_exact 1 ltac:(lia)) as [R1 F1]. destruct (fle0_cases r H0) as [->|[F P]]; [vm_compute in H1; discriminate H1|].
  apply fle_B2R in H1; [|exact F|exact F1]. rewrite R1 in H1. pose proof (Bminus_correct prec64 emax64 _ _ mode_NE (fofZ 1) r F1 F) as H. fold (fsub (fofZ 1) r) in H. rewrite R1 in H.
  assert (RB : (0 <= round radix2 (SpecFloat.fexp prec64 emax64) (round_mode mode_NE) (1 - B2R r) <= 1)%R).
  { split; [apply round_nonneg; lra|]. rewrite <- (round_generic radix2 (SpecFloat.fexp prec64 emax64) (round_mode mode_NE) 1) at 2; [apply round_le; [typeclasses eauto|typeclasses eauto|lra]|]. replace 1%R with (B2R (fofZ 1)) by exact R1. apply generic_format_B2R. }
  rewrite Rlt_bool_true in H; [|rewrite Rabs_pos_eq by lra; apply Rle_lt_trans with 1%R; [lra|]; apply (bpow_lt radix2 0 1024); reflexivity].
  destruct H as (E & F3 & _). right. apply fle0_finite; [exact F3|]. rewrite E. exact (proj1 RB).
Qed.
(** a rate between 0 and 1 *)
Definition rate (r : f64) : Prop := fle fzero r = true /\ fle r (fofZ 1) = true.
Lemma nn_upd M (v x r : f64) : rate r -> never_negative v -> never_negative x -> never_negative (@upd (numF M) v x r).
Proof.
  intros [R0 R1] Hv Hx. change (@upd (numF M) v x r) with (fadd (fmul (fsub (fofZ 1) r) v) (fmul r x)). apply nn_add; apply nn_mul; auto; [now apply nn_complement|now right].
Qed.
Lemma nn_var_of M mu (l : list (f64 * f64)) : (1 <= mu <= 2 ^ 53)%Z -> never_negative (@var_of (numF M) mu l).
Proof.
  intros Hm. change (@var_of (numF M) mu l) with (fdiv (fold_left (fun s xy => fadd s (fmul (fsub (fst xy) (snd xy)) (fsub (fst xy) (snd xy)))) l (fofZ 0)) (fofZ mu)). apply nn_div; [|exact Hm].
  assert (H : forall s, never_negative s -> never_negative (fold_left (fun s xy => fadd s (fmul (fsub (fst xy) (snd xy)) (fsub (fst xy) (snd xy)))) l s)).
  { induction l as [|xy l IH]; intros s Hs; [exact Hs|]. cbn [fold_left]. apply IH, nn_add; [exact Hs|apply nn_square]. }
  apply H. right. reflexivity.
Qed.

(** ** C47: variances in double precision *)
Section Doubles.
Variables (L : stdlib) (E : env) (lambda mu : Z) (offset offset_stdev : f64) (component : comp (numF (sl_libm L)) -> f64 -> f64 -> comp (numF (sl_libm L))).
Notation smp := (es_sampler L (e_info E) lambda mu offset offset_stdev component).
Lemma variances_never_negative : (1 <= mu <= 2 ^ 53)%Z ->
  (forall (c : comp (numF (sl_libm L))) (mean var : f64), never_negative (k_var c) -> never_negative var -> never_negative (k_var (component c mean var))) ->
  forall o g evals, Forall never_negative (es_var (snd (fst (full_steps smp E o (es_start L (e_info E) lambda g) evals)))).
Proof.
  intros Hm HC o g evals. apply (full_steps_inv smp E (fun s => Forall never_negative (es_var s : list f64))).
  - intros s H. unfold es_sampler. cbn [s_sample]. match goal with |- context [match ?m with Ok _ => _ | _ => _ end] => destruct m as [s'|w|] eqn:Es end; cbn [fst]; try exact H. apply es_sample_spec in Es as (_ & E2 & _). replace (es_var s' : list f64) with (es_var s : list f64) by (symmetry; exact E2). exact H.
  - intros s fits H. unfold es_sampler. cbn [s_update]. match goal with |- context [match ?m with Ok _ => _ | _ => _ end] => destruct m as [s'|w|] eqn:Es end; cbn [fst]; try exact H.
    pose proof (es_update_dims _ _ _ _ _ _ _ Es) as (_ & D2 & _). apply es_update_components in Es as (pj & _ & _ & _ & EC). apply Forall_forall. intros v Hv. apply In_nth_error in Hv as (i & Ei).
    assert (Li : i < length (bounds_of (e_info E))). { assert (X : i < length (es_var s' : list f64)) by (apply nth_error_Some; rewrite Ei; discriminate). exact (eq_ind _ (fun n => i < n) X _ D2). }
    destruct (EC i Li) as (sel & m & v0 & mo & _ & _ & Ev & _ & _ & Ev' & _). assert (EQ : Some v = Some (k_var (component {| k_mean := m; k_var := v0; k_mom := mo |} (mean_of mu sel) (var_of mu sel)))) by (rewrite <- Ei; exact Ev'). injection EQ as ->. apply HC.
    + cbn [k_var]. rewrite Forall_forall in H. apply H. exact (nth_error_In _ _ Ev).
    + exact (nn_var_of (sl_libm L) mu sel Hm).
  - unfold es_start, es_init, pars_of. cbn [es_var]. rewrite map_map. apply Forall_forall. intros v Hv. apply in_map_iff in Hv as (p & <- & _). apply nn_square.
Qed.
End Doubles.
(** In double precision as well: in any run, whatever is sampled and evaluated, no variance is negative (it may be NaN
    after an overflow), so no standard deviation is the root of a negative number. *)
Theorem C47_mes_variance_doubles : forall L E lambda opt o g evals, (1 <= es_mu (mo_mu opt) lambda <= 2147483647)%Z -> fle fzero (mo_var_sigma opt) = true -> fle (mo_var_sigma opt) (fofZ 1) = true ->
  Forall (fun v => flt v fzero = false) (es_var (snd (fst (full_steps (mes_sampler L (e_info E) lambda opt) E o (es_start L (e_info E) lambda g) evals)))).
Proof.
  intros L E lambda opt o g evals Hm H0 H1. eapply Forall_impl; [intros v; apply never_negative_spec|]. apply variances_never_negative; [lia|].
  intros c mean var Hv Hx. assert (X : never_negative (@upd (numF (sl_libm L)) (k_var c) var (mo_var_sigma opt))) by (apply nn_upd; [split; assumption|exact Hv|exact Hx]). unfold mes_component. match goal with |- context [if ?b then _ else _] => destruct b end; exact X.
Qed.
Theorem C47_eva_variance_doubles : forall L E lambda opt o g evals, (1 <= es_mu (eo_mu opt) lambda <= 2147483647)%Z -> fle fzero (eo_var_update opt) = true -> fle (eo_var_update opt) (fofZ 1) = true ->
  Forall (fun v => flt v fzero = false) (es_var (snd (fst (full_steps (eva_sampler L (e_info E) lambda opt) E o (es_start L (e_info E) lambda g) evals)))).
Proof.
  intros L E lambda opt o g evals Hm H0 H1. eapply Forall_impl; [intros v; apply never_negative_spec|]. apply variances_never_negative; [lia|].
  intros c mean var Hv Hx. assert (X : never_negative (@upd (numF (sl_libm L)) (k_var c) var (eo_var_update opt))) by (apply nn_upd; [split; assumption|exact Hv|exact Hx]). exact X.
Qed.

(** ** C47: the default options *)
Lemma trunc_nonneg (x : f64) z : fle fzero x = true -> f_trunc x = Some z -> (0 <= z)%Z.
Proof.
  intros H. unfold f_trunc. destruct x as [s|s| |s m e B]; try discriminate; [intros [= <-]; lia|]. destruct s; [discriminate H|]. cbv zeta. intros X. apply (f_equal (fun o => match o with Some v => v | None => z end)) in X. cbv beta iota in X. rewrite <- X. clear X. destruct (0 <=? e)%Z; [apply Z.mul_nonneg_nonneg; [lia|apply Z.pow_nonneg; lia]|]. apply Z_div_nonneg_nonneg; [lia|apply Z.pow_nonneg; lia].
Qed.
Lemma default_lambda M dim lambda : fle fzero (lm_log M (fofZ (Z.of_nat dim))) = true -> @es_lambda (numF M) to_int_F 0 dim = Ok lambda -> (4 <= lambda)%Z /\ (2 <= es_mu 0 lambda <= lambda)%Z.
Proof.
  intros H. unfold es_lambda. cbn [Z.ltb Z.compare].
  change (@nmul (numF M) (nofZ 3) (nlog (nofZ (Z.of_nat dim)))) with (fmul (fofZ 3) (lm_log M (fofZ (Z.of_nat dim)))). set (y := fmul (fofZ 3) (lm_log M (fofZ (Z.of_nat dim)))).
  assert (N : never_negative y) by (unfold y; apply nn_mul; right; [vm_compute; reflexivity|exact H]). unfold to_int_F. destruct (f_trunc y) as [z|] eqn:ET; [|discriminate]. destruct (fits_int z); [|discriminate]. cbn [obind]. intros X. assert (EL : lambda = (4 + z)%Z) by congruence. clear X. subst lambda.
  assert (Z0 : (0 <= z)%Z). { destruct N as [N|N]; [destruct y; try discriminate N; discriminate ET|]. exact (trunc_nonneg y z N ET). }
  split; [lia|]. unfold es_mu. cbn [Z.eqb]. rewrite Z.quot_div_nonneg by lia. split; [apply Z.div_le_lower_bound; lia|apply Z.div_le_upper_bound; lia].
Qed.
(** With the default options all update rates lie between 0 and 1, the momentum is used, and - if the logarithm of a
    number of parameters is not negative - at least 4 points are sampled and at least 2 of them are used. *)
Theorem C47_default_options :
  Forall (fun r => fle fzero r = true /\ fle r (fofZ 1) = true)
    [mo_mean_sigma default_mes_options; mo_var_sigma default_mes_options; mo_mom_sigma default_mes_options;
     eo_step_size default_eva_options; eo_var_update default_eva_options; eo_ev_update default_eva_options] /\
  flt fzero (mo_mom_sigma default_mes_options) = true /\
  forall L info lambda, fle fzero (lm_log (sl_libm L) (fofZ (Z.of_nat (oi_dim info)))) = true ->
    (mes_lambda L info default_mes_options = Ok lambda -> (4 <= lambda)%Z /\ (2 <= es_mu (mo_mu default_mes_options) lambda <= lambda)%Z) /\
    (eva_lambda L info default_eva_options = Ok lambda -> (4 <= lambda)%Z /\ (2 <= es_mu (eo_mu default_eva_options) lambda <= lambda)%Z).
Proof.
  split; [repeat (constructor; [split; vm_compute; reflexivity|]); constructor|]. split; [vm_compute; reflexivity|]. intros L info lambda H. split; intros X; exact (default_lambda (sl_libm L) (oi_dim info) lambda H X).
Qed.
(** [C47_mes_variance_doubles] applies to a run with the default options in which the distribution is updated. *)
Example C47_doubles_nonvacuous : (1 <= es_mu (mo_mu default_mes_options) 4 <= 2147483647)%Z /\ fle fzero (mo_var_sigma default_mes_options) = true /\ fle (mo_var_sigma default_mes_options) (fofZ 1) = true /\
  let s := snd (fst (full_steps (mes_sampler ex_lib ex_info 4 default_mes_options) (ex_env []) (created (ex_env []) [flat_default]) (es_start ex_lib ex_info 4 1) (repeat (ex_square, false) 2))) in
  match es_var s, es_var (es_start ex_lib ex_info 4 1) with [a], [b] => fne a b && flt fzero (a : f64) | _, _ => false end = true.
Proof. split; [vm_compute; split; congruence|]. split; [vm_compute; reflexivity|]. split; [vm_compute; reflexivity|]. vm_compute. reflexivity. Qed.

(** ** C47: what the options do, in the arithmetic of the program *)
(** [rate] of the new value, the rest of the old one; the average of parameter [i] over the first [mu] of the order. *)
Definition blended (rate old new : f64) : f64 := fadd (fmul (fsub (fofZ 1) rate) old) (fmul rate new).
Definition average_of_best (mu : Z) (order : list nat) (pop : list (list f64)) (i : nat) : f64 :=
  fdiv (fold_left fadd (map (fun k => nth i (nth k pop []) fzero) (firstn (Z.to_nat mu) order)) fzero) (fofZ mu).
Lemma get_some {A} (l : list A) i a : get l i = Ok a -> nth_error l i = Some a.
Proof. unfold get. destruct (nth_error l i); congruence. Qed.
Lemma selected_firsts M mu order (pop proj : list (list f64)) i sel : @selected (numF M) mu order pop proj i = Ok sel ->
  map fst (sel : list (f64 * f64)) = map (fun k => nth i (nth k pop []) fzero) (firstn (Z.to_nat mu) order).
Proof.
  unfold selected. destruct (mu <? 0)%Z; [discriminate|]. generalize (Z.to_nat mu). intros n H. apply for_each_Forall2 in H.
  assert (X : forall n a (r : list (f64 * f64)), Forall2 (fun ui b => (let* k := get order ui in let* ind := get pop k in let* pr := get proj k in let* x := get ind i in let* y := get pr i in Ok (x, y)) = Ok b) (seq a n) r ->
     map fst r = map (fun k => nth i (nth k pop []) fzero) (firstn n (skipn a order))).
  { clear. induction n as [|n IH]; intros a r H; cbn [seq] in H; inversion H as [|? b ? r' Hb Hr E1 E2]; subst; [reflexivity|].
    apply obind_Ok in Hb as (k & Hk & Hb). apply obind_Ok in Hb as (ind & Hi & Hb). apply obind_Ok in Hb as (pr & Hp & Hb). apply obind_Ok in Hb as (x & Hx & Hb). apply obind_Ok in Hb as (y & Hy & Hb).
    apply get_some in Hk, Hi, Hx. assert (b = (x, y)) by congruence. subst b. apply IH in Hr. assert (ES : skipn a order = k :: skipn (S a) order).
    { clear - Hk. revert a Hk. induction order as [|o order IH]; intros [|a] Hk; try discriminate Hk; cbn in Hk; [injection Hk as ->; reflexivity|]. exact (IH a Hk). }
    rewrite ES. cbn [firstn map fst]. rewrite Hr. rewrite (nth_error_nth _ _ _ Hi), (nth_error_nth _ _ _ Hx). reflexivity. }
  specialize (X n 0 sel H). exact X.
Qed.
Lemma mean_of_average M mu order (pop proj : list (list f64)) i sel : @selected (numF M) mu order pop proj i = Ok sel -> @mean_of (numF M) mu sel = average_of_best mu order pop i.
Proof.
  intros H. apply selected_firsts in H. unfold average_of_best. rewrite <- H. unfold mean_of. change (@ndiv (numF M)) with fdiv. apply (f_equal2 fdiv); [|reflexivity]. change (@nofZ (numF M) 0) with fzero. generalize fzero. clear H.
  induction (sel : list (f64 * f64)) as [|xy l IH]; intros z; [reflexivity|]. cbn [fold_left map]. apply IH.
Qed.
(** MES: the average of the mu best moves the mean (through the momentum, if there is any), at the three rates of the options;
    the spread only affects the variance. *)
Theorem C47_mes_options_used : forall L info lambda opt st fits st', s_update (mes_sampler L info lambda opt) st fits = (st', Ok tt) ->
  let mu := if (mo_mu opt =? 0)%Z then Z.quot lambda 2 else mo_mu opt in
  let order := sorted_indices (sl_sort L) (is_better info) fits in
  forall i, i < length (oi_free info) -> exists m v mo spread : f64, let a := average_of_best mu order (es_pop st) i in
    nth_error (es_mean st : list f64) i = Some m /\ nth_error (es_var st : list f64) i = Some v /\ nth_error (es_mom st : list f64) i = Some mo /\
    nth_error (es_var st' : list f64) i = Some (blended (mo_var_sigma opt) v spread) /\
    if flt fzero (mo_mom_sigma opt)
    then let mo' := blended (mo_mom_sigma opt) mo (fsub a m) in
         nth_error (es_mom st' : list f64) i = Some mo' /\ nth_error (es_mean st' : list f64) i = Some (fadd m (fmul (mo_mean_sigma opt) mo'))
    else nth_error (es_mom st' : list f64) i = Some mo /\ nth_error (es_mean st' : list f64) i = Some (blended (mo_mean_sigma opt) m a).
Proof.
  intros L info lambda opt st fits st' H mu order i Hi. unfold mes_sampler, es_sampler in H. cbn [s_update] in H. fold mu in H. change (es_mu (mo_mu opt) lambda) with mu in H. fold order in H.
  match type of H with (match ?m with Ok _ => _ | _ => _ end) = _ => destruct m as [s'|w|] eqn:Es end; [|discriminate H|discriminate H]. assert (s' = st') by congruence. subst s'. clear H.
  apply es_update_components in Es as (proj & _ & _ & _ & EC). assert (Hi' : i < length (bounds_of info)) by (unfold bounds_of; rewrite map_length; exact Hi). destruct (EC i Hi') as (sel & m & v & mo & Hs & Em & Ev & Eo & HC). clear EC. cbv zeta in HC. destruct HC as (H1 & H2 & H3).
  assert (EA := mean_of_average _ _ _ _ _ _ _ Hs). exists m, v, mo, (@var_of (numF (sl_libm L)) mu sel). cbv zeta. split; [exact Em|]. split; [exact Ev|]. split; [exact Eo|]. clear Em Ev Eo Hs.
  revert H1 H2 H3. rewrite EA. unfold mes_component. change (@nlt (numF (sl_libm L)) (nofZ 0) (mo_mom_sigma opt)) with (flt fzero (mo_mom_sigma opt)). destruct (flt fzero (mo_mom_sigma opt)); cbn [k_mean k_var k_mom]; intros H1 H2 H3.
  - split; [exact H2|]. split; [exact H3|exact H1].
  - split; [exact H2|]. split; [exact H3|exact H1].
Qed.
Theorem C47_eva_options_used : forall L info lambda opt st fits st', s_update (eva_sampler L info lambda opt) st fits = (st', Ok tt) ->
  let mu := if (eo_mu opt =? 0)%Z then Z.quot lambda 2 else eo_mu opt in
  let order := sorted_indices (sl_sort L) (is_better info) fits in
  forall i, i < length (oi_free info) -> exists m v ev spread : f64, let a := average_of_best mu order (es_pop st) i in
    nth_error (es_mean st : list f64) i = Some m /\ nth_error (es_var st : list f64) i = Some v /\ nth_error (es_mom st : list f64) i = Some ev /\
    nth_error (es_mean st' : list f64) i = Some (fadd m (fmul (eo_step_size opt) (fsub a m))) /\
    nth_error (es_var st' : list f64) i = Some (blended (eo_var_update opt) v spread) /\
    nth_error (es_mom st' : list f64) i = Some (blended (eo_ev_update opt) ev (fsub a m)).
Proof.
  intros L info lambda opt st fits st' H mu order i Hi. unfold eva_sampler, es_sampler in H. cbn [s_update] in H. change (es_mu (eo_mu opt) lambda) with mu in H. fold order in H.
  match type of H with (match ?m with Ok _ => _ | _ => _ end) = _ => destruct m as [s'|w|] eqn:Es end; [|discriminate H|discriminate H]. assert (s' = st') by congruence. subst s'. clear H.
  apply es_update_components in Es as (proj & _ & _ & _ & EC). assert (Hi' : i < length (bounds_of info)) by (unfold bounds_of; rewrite map_length; exact Hi). destruct (EC i Hi') as (sel & m & v & mo & Hs & Em & Ev & Eo & HC). clear EC. cbv zeta in HC. destruct HC as (H1 & H2 & H3).
  assert (EA := mean_of_average _ _ _ _ _ _ _ Hs). exists m, v, mo, (@var_of (numF (sl_libm L)) mu sel). cbv zeta. split; [exact Em|]. split; [exact Ev|]. split; [exact Eo|]. clear Em Ev Eo Hs.
  revert H1 H2 H3. rewrite EA. unfold eva_component. cbn [k_mean k_var k_mom]. intros H1 H2 H3. split; [exact H1|]. split; [exact H2|exact H3].
Qed.
(** A new optimizer: the given means, squared standard deviations, no momentum; until the first step the population is
    lambda times the rounded means. Both optimizers stop on their own at a flat fitness of 1e-9. *)
Theorem C47_start_doubles : forall L info lambda g, let st := es_start L info lambda g in
  (es_mean st : list f64) = map pi_mean (oi_free info) /\ (es_var st : list f64) = map (fun p => fmul (pi_std p) (pi_std p)) (oi_free info) /\
  (es_mom st : list f64) = map (fun _ => fzero) (oi_free info) /\ es_rng st = g /\
  (es_pop st : list (list f64)) = repeat (map (fun p => rounded (pi_mean p)) (oi_free info)) (Z.to_nat lambda).
Proof.
  intros L info lambda g st. unfold st, es_start, es_init, pars_of. cbn [es_mean es_var es_mom es_rng es_pop]. rewrite !map_map. split; [reflexivity|]. split; [reflexivity|]. split; [reflexivity|]. split; reflexivity.
Qed.
Example C47_options_nonvacuous : exists st' st2 : es_f64 ex_lib, s_update (eva_sampler ex_lib ex_info 4 default_eva_options) (es_start ex_lib ex_info 4 1) [fzero; fofZ 1; fofZ 2; fofZ 3] = (st', Ok tt) /\
  s_update (mes_sampler ex_lib ex_info 4 default_mes_options) (es_start ex_lib ex_info 4 1) [fzero; fofZ 1; fofZ 2; fofZ 3] = (st2, Ok tt).
Proof.
  assert (X : forall smp : sampler (es_f64 ex_lib), (match snd (s_update smp (es_start ex_lib ex_info 4 1) [fzero; fofZ 1; fofZ 2; fofZ 3]) with Ok _ => true | _ => false end) = true -> exists st', s_update smp (es_start ex_lib ex_info 4 1) [fzero; fofZ 1; fofZ 2; fofZ 3] = (st', Ok tt)).
  { intros smp. destruct (s_update smp _ _) as [st' [[]|w|]]; cbn [snd]; [eauto|discriminate|discriminate]. }
  destruct (X (eva_sampler ex_lib ex_info 4 default_eva_options)) as (st' & H1); [vm_compute; reflexivity|]. destruct (X (mes_sampler ex_lib ex_info 4 default_mes_options)) as (st2 & H2); [vm_compute; reflexivity|]. exists st', st2. split; [exact H1|exact H2].
Qed.
(** The threshold both constructors use: the double nearest to 1e-9. *)
Theorem C47_flat_default : exists e, flat_default = ScFlat e /\ is_finite e = true /\ (Rabs (B2R e - / 1000000000) <= / 1000000000000000000000000)%R.
Proof.
  exists (flit 1 (-9)). split; [reflexivity|]. set (c := flit 1 (-9)). assert (HF : is_finite c = true) by (vm_compute; reflexivity). split; [exact HF|].
  assert (H1 : (999999999999999 * 2 ^ 1074 <= fkey c * 1000000000000000000000000)%Z) by (vm_compute; discriminate). assert (H2 : (fkey c * 1000000000000000000000000 <= 1000000000000001 * 2 ^ 1074)%Z) by (vm_compute; discriminate).
  pose proof (fkey_real c HF) as HK. clearbody c. apply IZR_le in H1. apply IZR_le in H2. rewrite !mult_IZR, HK in H1, H2.
  change (2 ^ 1074)%Z with (Zpower radix2 1074) in H1, H2. rewrite IZR_Zpower in H1, H2 by lia. clear HK. pose proof (bpow_gt_0 radix2 1074) as HP. generalize dependent (bpow radix2 1074). intros b H1 H2 HP. clear - H1 H2 HP.
  apply Rabs_le. split; apply (Rmult_le_reg_r b); lra.
Qed.
