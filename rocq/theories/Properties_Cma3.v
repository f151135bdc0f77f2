(** * CMA on doubles: evaluated points (C37), snapshots (C48), construction. *)
From Coq Require Import ZArith Bool Lia Permutation.
From Verif Require Import Prelude Flt FltFacts Round8 Round8Facts FlatMap ParInfo ParInfoFacts ObjInfo Num MathTools Boundary MesF Cma CmaFacts CmaRandom CmaF Optimizer OptimizerFacts Driver DriverFacts
  Properties_SearchPoint Properties_Optimizer Properties_Optimizer4 Properties_ES2 Properties_ES3 Properties_ES4 Properties_Cma.
#[local] Open Scope nat_scope.

Section C37.
Variables (L : cma_lib) (info : obj_info) (transformer : option (list f64 -> outcome (list f64))) (P : cma_par (numF (cl_libm L))).
Notation K := (numF (cl_libm L)).
Notation smp := (cma_sampler L info transformer P).
(** Transformers keep the number of components. *)
Definition keeps_length : Prop := forall f v w, transformer = Some f -> f v = Ok w -> length w = length v.
Hypothesis HN : p_N P = oi_dim info.
Hypothesis HT : keeps_length.

Lemma in_range_or_nan p v : is_valid p = true -> negb (flt (pi_max p) v || flt v (pi_min p)) = true -> (fle (pi_min p) v = true /\ fle v (pi_max p) = true) \/ fisnan v = true.
Proof.
  intros Hp H. destruct (fisnan v) eqn:En; [now right|left]. apply is_valid_iff in Hp as (_ & H1 & H2). apply fle_not_nan in H1 as [A1 _]. apply fle_not_nan in H2 as [_ A2].
  rewrite !flt_key, En, A1, A2 in H. cbn [negb andb] in H. apply negb_true_iff, orb_false_iff in H as [B1 B2]. apply Z.ltb_ge in B1, B2. rewrite !fle_key, En, A1, A2. cbn [negb andb]. split; apply Z.leb_le; assumption.
Qed.
Lemma feasible_in_range v : Forall (fun p => is_valid p = true) (oi_free info) -> length v = oi_dim info -> @feasible K (bounds_of info) v = true ->
  Forall2 (fun p v => (fle (pi_min p) v = true /\ fle v (pi_max p) = true) \/ fisnan v = true) (oi_free info) v.
Proof.
  unfold bounds_of, oi_dim. intros HV. revert v. induction HV as [|p ps Hp _ IH]; intros [|x v] HL H; try discriminate HL; constructor; cbn [map feasible fst snd] in H.
  - apply in_range_or_nan; [exact Hp|]. change (@nlt K) with flt in H. destruct (flt (pi_max p) x || flt x (pi_min p)); [discriminate H|reflexivity].
  - apply IH; [exact (eq_add_S _ _ HL)|]. change (@nlt K) with flt in H. destruct (flt (pi_max p) x || flt x (pi_min p)); [discriminate H|exact H].
Qed.
Lemma clamp_in_range v : Forall (fun p => is_valid p = true) (oi_free info) -> length v = oi_dim info ->
  Forall2 (fun p v => (fle (pi_min p) v = true /\ fle v (pi_max p) = true) \/ fisnan v = true) (oi_free info) (@clamp_all K (bounds_of info) v).
Proof.
  unfold bounds_of, oi_dim. intros HV. revert v. induction HV as [|p ps Hp _ IH]; intros [|x v] HL; try discriminate HL; constructor; [|exact (IH v (eq_add_S _ _ HL))].
  cbn [fst snd]. change (@nlt K) with flt. change (@nle K) with fle. destruct (fle (pi_min p) x && fle x (pi_max p)) eqn:ER; cbn [negb].
  - left. apply andb_true_iff in ER. exact ER.
  - destruct (fisnan x) eqn:En; [right; exact (eq_trans (f_equal fisnan (fclamped_nan x (pi_min p) (pi_max p) En)) En)|].
    left. apply (fclamped_in_range x (pi_min p) (pi_max p) En). apply is_valid_iff in Hp as (_ & H1 & H2). exact (fle_trans _ _ _ H1 H2).
Qed.
(** Before rounding, for all valid bounds, every evaluated component is within its
    range or NaN; it is NaN only if the row it was computed from gives NaN. *)
Theorem C37_cma_sampled_before_rounding : forall st st1 pop, Forall (fun p => is_valid p = true) (oi_free info) ->
  s_sample smp st = (st1, Ok pop) ->
  length pop = p_lambda P /\ s_bounded st1 = pop /\
  Forall2 (fun row x => exists y, x = map rounded y /\ (y = row \/ try_apply_transform (K := K) transformer row = Ok y) /\
    Forall2 (fun p v => (fle (pi_min p) v = true /\ fle v (pi_max p) = true) \/ fisnan v = true) (oi_free info) y) (s_rows st1) pop.
Proof using HN HT.
  intros st st1 pop HV H. unfold cma_sampler in H. cbn [s_sample] in H. match type of H with context [match ?m with Ok _ => _ | _ => _ end] => destruct m as [st'|w|] eqn:E end; try discriminate. injection H as <- <-.
  pose proof E as E'. apply (@sample_rows K) in E' as (_ & _ & _ & _ & HL & FR). apply (@sample_spec K) in E as (_ & _ & _ & _ & _ & _ & _ & _ & _ & _ & _ & _ & _ & _ & _ & _ & _ & F2 & _).
  assert (HLB : length (s_bounded st') = p_lambda P). { rewrite <- HL. clear - F2. symmetry. induction F2 as [|? ? ? ? ? ? IH]; [reflexivity|exact (f_equal S IH)]. }
  split; [exact HLB|]. split; [reflexivity|]. clear HL HLB. revert F2 FR. generalize (s_bounded st') at 1 3. intros pop F2 FR. assert (FL : Forall (fun r => length r = p_N P) (s_rows st')) by (eapply Forall_impl; [|exact FR]; cbv beta; tauto). clear FR.
  induction F2 as [|row ind rows inds (v & -> & Hv) F2 IH]; constructor; [|apply IH; now apply Forall_inv_tail in FL]. apply Forall_inv in FL. clear IH F2.
  exists v. split; [reflexivity|]. destruct Hv as [[Hf Ht]|(r & -> & -> & Hr)].
  - split; [right; exact Ht|]. apply feasible_in_range; [exact HV| |exact Hf]. rewrite <- HN. unfold try_apply_transform in Ht. destruct transformer as [f|] eqn:EF; [exact (eq_trans (HT f _ _ EF Ht) FL)|]. injection Ht as <-. exact FL.
  - split; [left; reflexivity|]. apply clamp_in_range; [exact HV|]. rewrite <- HN. exact Hr.
Qed.
(** If the rows contain no NaN and the transformer makes none, every evaluated point is
    within the bounds. *)
Theorem C37_cma_population_within_bounds : forall st st1 pop, eight_digit_bounds info ->
  (forall v w, not_nan v -> try_apply_transform (K := K) transformer v = Ok w -> not_nan w) ->
  s_sample smp st = (st1, Ok pop) -> Forall not_nan (s_rows st1) -> Forall (in_bounds info) pop.
Proof using HN HT.
  intros st st1 pop HB HTN H HR. apply C37_cma_sampled_before_rounding in H as (_ & _ & F); [|eapply Forall_impl; [|exact HB]; cbv beta; tauto].
  induction F as [|row x rows xs (y & -> & Hy & Hin) F IH]; constructor; [|apply IH; now apply Forall_inv_tail in HR]. apply Forall_inv in HR. apply round_in_bounds; [exact HB|].
  assert (NY : not_nan y) by (destruct Hy as [->|Hy]; [exact HR|exact (HTN _ _ HR Hy)]). clear - Hin NY. unfold in_bounds. induction Hin as [|p v ps vs Hv Hin IH]; constructor; inversion NY; subst; [|auto]. destruct Hv as [Hv|Hv]; [exact Hv|congruence].
Qed.
(** Whatever the numbers: a component outside the bounds is a NaN that was rounded to 0. *)
Theorem C37_cma_population_within_bounds_or_zero : forall st st1 pop, eight_digit_bounds info ->
  s_sample smp st = (st1, Ok pop) -> Forall (in_bounds_or_zero info) pop.
Proof using HN HT.
  intros st st1 pop HB H. apply C37_cma_sampled_before_rounding in H as (_ & _ & F); [|eapply Forall_impl; [|exact HB]; cbv beta; tauto].
  induction F as [|row x rows xs (y & -> & _ & Hin) F IH]; constructor; [|exact IH]. clear - HB Hin. unfold in_bounds_or_zero. revert HB. unfold eight_digit_bounds. induction Hin as [|p v ps vs Hv Hin IH]; intros HB; cbn [map]; constructor; inversion HB as [|? ? (_ & Hlo & Hhi) HB']; subst; [|auto].
  destruct Hv as [[H1 H2]|Hv].
  - left. pose proof (C14_rounded_stays_within_8_digit_range p v Hlo Hhi) as HR. unfold is_within_range, fge in HR. rewrite H1, H2 in HR. specialize (HR eq_refl). apply andb_true_iff in HR. tauto.
  - right. destruct v; try discriminate. reflexivity.
Qed.
(** In a whole run the objective is only ever asked about such points, and best_point() is one. *)
Theorem C37_cma_run_asks_within_bounds_or_zero : forall E o st evals evals', eight_digit_bounds info ->
  Forall2 (fun e e' => snd e = snd e' /\ forall pop, Forall (in_bounds_or_zero info) pop -> fst e pop = fst e' pop) evals evals' ->
  full_steps smp E o st evals = full_steps smp E o st evals'.
Proof using HN HT.
  intros E o st evals evals' HB HF. apply (full_steps_only smp E (fun _ => True)) with (Q := Forall (in_bounds_or_zero info)); auto.
  intros s s1 pop _ H. eapply C37_cma_population_within_bounds_or_zero; eauto.
Qed.
(** When every range contains 0 nothing can leave the bounds. *)
Lemma in_bounds_with_zero x : Forall (fun p => fle (pi_min p) fzero = true /\ fle fzero (pi_max p) = true) (oi_free info) -> in_bounds_or_zero info x -> in_bounds info x.
Proof. unfold in_bounds, in_bounds_or_zero. intros HZ H. induction H as [|p v ps vs Hv H IH]; constructor; inversion HZ; subst; [|auto]. destruct Hv as [Hv| ->]; assumption. Qed.
End C37.
Theorem C37_cma_best_point : forall L E transformer P extra st evals, p_N P = oi_dim (e_info E) -> keeps_length transformer -> eight_digit_bounds (e_info E) ->
  let x := c_best_pt (o_core (fst (fst (full_steps (cma_sampler L (e_info E) transformer P) E (created E extra) st evals)))) in
  in_bounds_or_zero (e_info E) x /\
  (Forall (fun p => fle (pi_min p) fzero = true /\ fle fzero (pi_max p) = true) (oi_free (e_info E)) -> in_bounds (e_info E) x).
Proof.
  intros L E transformer P extra st evals HN HT HB x. assert (H : in_bounds_or_zero (e_info E) x); [|split; [exact H|intros HZ; now apply in_bounds_with_zero]]. apply full_steps_best.
  - intros p Hp. unfold in_bounds_or_zero in *. revert HB. unfold eight_digit_bounds. induction Hp as [|q v ps vs Hv Hp IH]; intros HB; cbn [map]; constructor; inversion HB as [|? ? (_ & Hlo & Hhi) HB']; subst; [|auto].
    destruct Hv as [[H1 H2]| ->]; [left|right; reflexivity]. pose proof (C14_rounded_stays_within_8_digit_range q v Hlo Hhi) as HR. unfold is_within_range, fge in HR. rewrite H1, H2 in HR. specialize (HR eq_refl). apply andb_true_iff in HR. tauto.
  - intros s s1 pop H. eapply C37_cma_population_within_bounds_or_zero; eauto.
  - pose proof (initial_best_in_bounds E extra HB) as HI. unfold in_bounds, in_bounds_or_zero in *. induction HI; constructor; auto.
Qed.

(** ** Sizes and C48 *)
Section Sizes.
Variables (L : cma_lib) (E : env) (transformer : option (list f64 -> outcome (list f64))) (P : cma_par (numF (cl_libm L))).
Notation K := (numF (cl_libm L)).
Notation smp := (cma_sampler L (e_info E) transformer P).
Hypothesis HT : keeps_length transformer.
Hypothesis HE : @eigen_sized K (cl_eigen L) P.
Lemma cma_transform_sized : @transform_sized K (try_apply_transform (K := K) transformer) P.
Proof using HT. intros v w Hv Hw. unfold try_apply_transform in Hw. destruct transformer as [f|] eqn:EF; [exact (eq_trans (HT f _ _ eq_refl Hw) Hv)|]. injection Hw as <-. exact Hv. Qed.
Lemma cma_run_sized evals : forall o st, @cma_sized K _ P st -> @cma_sized K _ P (snd (fst (full_steps smp E o st evals))).
Proof using HT HE.
  intros o st. apply full_steps_inv.
  - intros s HS. unfold cma_sampler. cbn [s_sample]. match goal with |- context [match ?m with Ok _ => _ | _ => _ end] => destruct m as [s'|w|] eqn:Es end; cbn [fst]; try exact HS. exact (@sample_sized K _ _ _ _ _ _ _ _ _ HE cma_transform_sized HS Es).
  - intros s fits HS. unfold cma_sampler. cbn [s_update]. match goal with |- context [match ?m with Ok _ => _ | _ => _ end] => destruct m as [s'|w|] eqn:Es end; cbn [fst]; try exact HS. exact (@update_sized K _ _ _ _ _ _ HS Es).
Qed.
End Sizes.
Lemma cma_create_par L info label opt device clock P st : cma_create L info label opt device clock = Ok (P, st) ->
  p_N P = oi_dim info /\ @cma_sized (numF (cl_libm L)) _ P st /\ @supplement_defaults (numF (cl_libm L)) (cl_ceil L) to_int_F (oi_dim info) (co_lambda opt) (co_modulo opt) = Ok P /\
  st = @cma_init (numF (cl_libm L)) _ rounded P (pars_of info) (random_init clock (seed_of (co_seed opt) device)).
Proof.
  unfold cma_create. destruct (supplement_defaults _ _ _ _ _) as [P'| |] eqn:EP; cbn [obind]; try discriminate. destruct (cma_bounds_init _ _ _); cbn [obind]; try discriminate. intros [= <- <-].
  assert (HN : p_N P' = oi_dim info).
  { unfold supplement_defaults in EP. destruct (if (co_lambda opt <? 2)%Z then _ else _) as [la| |]; cbn [obind] in EP; try discriminate. destruct (Z.quot la 2 <? 0)%Z; [discriminate|]. destruct (set_weights _) as [w m]. destruct (_ || _); [discriminate|]. injection EP as <-. reflexivity. }
  split; [exact HN|]. split; [|auto]. apply init_sized. rewrite HN. unfold pars_of. apply map_length.
Qed.
(** At any time of any run of CMA: the snapshot exists exactly when the boundary
    transformer accepts the mean, and differs from the original in mean and std only. *)
Theorem C48_cma : forall L E transformer label opt device clock P st0 o evals, keeps_length transformer -> @eigen_sized (numF (cl_libm L)) (cl_eigen L) P ->
  cma_create L (e_info E) label opt device clock = Ok (P, st0) ->
  let s := snd (fst (full_steps (cma_sampler L (e_info E) transformer P) E o st0 evals)) in
  match try_apply_transform (K := numF (cl_libm L)) transformer (s_mean s) with
  | Ok mean => exists info', cma_updated_info L (e_info E) transformer P s = Ok info' /\ only_mean_std_changed (e_info E) info' mean (@current_std (numF (cl_libm L)) _ P s)
  | Throw w => cma_updated_info L (e_info E) transformer P s = Throw w
  | Undef => cma_updated_info L (e_info E) transformer P s = Undef
  end.
Proof.
  intros L E transformer label opt device clock P st0 o evals HT HE HC s. apply cma_create_par in HC as (HN & HS & _). apply (cma_run_sized L E transformer P HT HE evals o) in HS. fold s in HS.
  unfold cma_updated_info, current_mean. destruct (try_apply_transform (K := numF (cl_libm L)) transformer (s_mean s)) as [mean|w|] eqn:EM; cbn [obind]; try reflexivity.
  assert (HM : length mean = oi_dim (e_info E)) by (rewrite <- HN; exact (cma_transform_sized L transformer P HT _ _ (proj1 HS) EM)).
  apply set_mean_std_changes; [exact HM|]. rewrite <- HN. unfold current_std. apply build_length.
Qed.
(** Without a transformer it always exists, with the distribution's mean. *)
Theorem C48_cma_without_transformer : forall L E label opt device clock P st0 o evals, @eigen_sized (numF (cl_libm L)) (cl_eigen L) P ->
  cma_create L (e_info E) label opt device clock = Ok (P, st0) ->
  let s := snd (fst (full_steps (cma_sampler L (e_info E) None P) E o st0 evals)) in
  exists info', cma_updated_info L (e_info E) None P s = Ok info' /\ only_mean_std_changed (e_info E) info' (s_mean s) (@current_std (numF (cl_libm L)) _ P s).
Proof. intros L E label opt device clock P st0 o evals HE HC s. exact (C48_cma L E None label opt device clock P st0 o evals ltac:(intros f v w H; discriminate H) HE HC). Qed.

(** ** Concrete cases *)
(** A math library for examples: log x = x - 1, exp x = 1 + x. *)
Definition ex_cl : cma_lib := {|
  cl_libm := {| lm_log := fun x => fsub x (fofZ 1); lm_exp := fun x => fadd (fofZ 1) x; lm_sin := fun x => x; lm_cos := fun x => x |};
  cl_pow := fun _ _ => fzero; cl_ceil := fun x => x; cl_eigen := fun C => Ok (match C with [c] :: _ => [c] | _ => [fnan] end, [[fofZ 1]]); cl_tries := 3 |}.
Definition ex_cma : cma_options := {| co_lambda := 4; co_seed := 123; co_modulo := fzero |}.
Definition ex_created := cma_create ex_cl ex_info (fun _ => ""%string) ex_cma 7 7.
Definition ex_cma_run (n : nat) : option (nat * nat * list (list f64)) :=
  match ex_created with
  | Ok (P, st) => let r := full_steps (cma_sampler ex_cl ex_info None P) (ex_env []) (created (ex_env []) []) st (repeat (ex_square, false) n) in
                  Some (c_steps (o_core (fst (fst r))), s_gen (snd (fst r)), s_bounded (snd (fst r)))
  | _ => None
  end.
Example C37_C48_cma_nonvacuous : eight_digit_bounds ex_info /\ keeps_length None /\
  (exists P st, ex_created = Ok (P, st) /\ p_N P = oi_dim ex_info /\ @eigen_sized (numF (cl_libm ex_cl)) (cl_eigen ex_cl) P) /\
  match ex_cma_run 3 with
  | Some (3, 3, pop) => Nat.eqb (length pop) 4 && forallb (fun x => match x with [v] => fle (flit (-5) 0) v && fle v (flit 5 0) && negb (feq v fzero) | _ => false end) pop
  | _ => false
  end = true.
Proof.
  split; [constructor; [|constructor]; split; [vm_compute; reflexivity|]; split; f64_compute|]. split; [intros f v w H; discriminate H|]. split.
  - assert (HE : match ex_created with Ok _ => true | _ => false end = true) by (vm_compute; reflexivity). destruct ex_created as [[P st]| |] eqn:E; [clear HE|discriminate HE|discriminate HE]. exists P, st. split; [reflexivity|]. apply cma_create_par in E as (HN & _). split; [exact HN|].
    intros C d Q [HC _] H. unfold square. rewrite HN in *. change (oi_dim ex_info) with 1 in *. injection H as <- <-. destruct C as [|c [|]]; try discriminate HC. split; [destruct c as [|? [|]]; reflexivity|]. split; [reflexivity|repeat constructor].
  - vm_compute. reflexivity.
Qed.
(** Without the zero alternative the claim fails: with std = 0 the axis lengths are
    NaN (0 * sqrt( 1 / 0 )), NaN rows pass the feasibility test, and the evaluated
    point is 0, although the parameter's range is [2,4]. *)
Definition still_info : obj_info := {| oi_free := [{| pi_name := "x"; pi_mean := fofZ 3; pi_std := fzero; pi_min := fofZ 2; pi_max := fofZ 4 |}]; oi_locked := []; oi_minimize := true; oi_target := fzero; oi_name := "" |}.
Theorem C37_cma_nan_refuted : exists L info P st st1 pop, eight_digit_bounds info /\ cma_create L info (fun _ => ""%string) ex_cma 7 7 = Ok (P, st) /\
  s_sample (cma_sampler L info None P) st = (st1, Ok pop) /\ pop <> [] /\ ~ Exists (in_bounds info) pop.
Proof.
  assert (HC : match cma_create ex_cl still_info (fun _ => ""%string) ex_cma 7 7 with
    | Ok (P, st) => match s_sample (cma_sampler ex_cl still_info None P) st with
                    | (_, Ok pop) => Nat.eqb (length pop) 4 && forallb (fun x => match x with [v] => flt v (fofZ 2) | _ => false end) pop
                    | _ => false end
    | _ => false end = true) by (vm_compute; reflexivity).
  destruct (cma_create ex_cl still_info (fun _ => ""%string) ex_cma 7 7) as [[P st]| |] eqn:E; try discriminate HC.
  destruct (s_sample (cma_sampler ex_cl still_info None P) st) as [st1 [pop| |]] eqn:ES; try discriminate HC.
  apply andb_true_iff in HC as [HL HP]. exists ex_cl, still_info, P, st, st1, pop.
  split; [constructor; [|constructor]; split; [vm_compute; reflexivity|]; split; f64_compute|]. split; [exact E|]. split; [exact ES|].
  split; [intros ->; discriminate HL|]. intros H. apply Exists_exists in H as (x & Hx & Hb). rewrite forallb_forall in HP. specialize (HP x Hx). destruct x as [|v [|]]; try discriminate HP.
  inversion Hb as [|? ? ? ? [HA _] _]; subst. cbn [pi_min] in HA. rewrite fle_key in HA. rewrite flt_key in HP. apply andb_true_iff in HA as [_ HA]. apply andb_true_iff in HP as [_ HP]. apply Z.leb_le in HA. apply Z.ltb_lt in HP. exact (Z.lt_irrefl _ (Z.lt_le_trans _ _ _ HP HA)).
Qed.
(** Construction fails if and only if some parameter has equal bounds (given the
    strategy parameters exist): such parameters are valid for every other optimizer. *)
Theorem C42_equal_bounds_rejected : forall L info label opt device clock P,
  @supplement_defaults (numF (cl_libm L)) (cl_ceil L) to_int_F (oi_dim info) (co_lambda opt) (co_modulo opt) = Ok P ->
  ((exists st, cma_create L info label opt device clock = Ok (P, st)) <-> Forall (fun p => feq (pi_min p) (pi_max p) = false) (oi_free info)).
Proof.
  intros L info label opt device clock P HP. unfold cma_create. rewrite HP. cbn [obind]. unfold cma_bounds_init. rewrite !map_length, Nat.eqb_refl. cbn [assert_ obind].
  assert (G : forall k, (exists bs, map_out (fun p : nat * (nT (numF (cl_libm L)) * nT (numF (cl_libm L))) => let '(i, (l, u)) := p in if @neq (numF (cl_libm L)) l u then Throw ("Invalid upper and lower bounds for parameter " ++ label i)%string else Ok (@make_bnd (numF (cl_libm L)) l u)) (combine (seq k (length (oi_free info))) (combine (map pi_min (oi_free info)) (map pi_max (oi_free info)))) = Ok bs)
    <-> Forall (fun p => feq (pi_min p) (pi_max p) = false) (oi_free info)).
  { induction (oi_free info) as [|p ps IH]; intros k; cbn [length seq map combine map_out]; [split; [constructor|intros _; eexists; reflexivity]|].
    change (@neq (numF (cl_libm L)) (pi_min p) (pi_max p)) with (feq (pi_min p) (pi_max p)). destruct (feq (pi_min p) (pi_max p)) eqn:EQ; cbn [obind].
    - split; [intros (bs & H); discriminate H|]. intros H. apply Forall_inv in H. congruence.
    - specialize (IH (S k)). destruct (map_out _ _) as [bs| |]; cbn [obind]; (split; [intros (b & H)|intros H]).
      + constructor; [exact EQ|]. apply IH. eexists; reflexivity.
      + eexists; reflexivity.
      + discriminate H.
      + apply Forall_inv_tail in H. apply IH in H as (b & H). discriminate H.
      + discriminate H.
      + apply Forall_inv_tail in H. apply IH in H as (b & H). discriminate H. }
  specialize (G 0). match goal with |- context [obind ?m _] => destruct m as [bs| |] eqn:EM end; cbn [obind].
  - split; [intros _; apply G; exists bs; exact EM|]. intros _. eexists; reflexivity.
  - split; [intros (st & H); discriminate H|]. intros H. apply G in H as (b & H). pose proof (eq_trans (eq_sym H) EM) as X. discriminate X.
  - split; [intros (st & H); discriminate H|]. intros H. apply G in H as (b & H). pose proof (eq_trans (eq_sym H) EM) as X. discriminate X.
Qed.
