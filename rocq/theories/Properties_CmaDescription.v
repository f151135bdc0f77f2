(** * C46: what make_updated_objective_info() of a cma_optimizer describes. *)
From Coq Require Import ZArith Bool Lia Reals Lra.
From Flocq Require Import Core.
From Verif Require Import Prelude Flt FltFacts Round8 FlatMap ParInfo ObjInfo Num MathTools Boundary Properties_Boundary MesF Cma CmaFacts CmaRandom CmaF Optimizer Driver Properties_Cma Properties_Cma2 Properties_Optimizer4 Properties_ES2 Properties_ES4 Properties_Cma3.
#[local] Open Scope R_scope.

(** A par_info with these members is valid, and not constant. *)
Definition describes (bounds : list (R * R)) (mean std : list R) : Prop :=
  length mean = length bounds /\ length std = length bounds /\
  forall i lb ub m s, nth_error bounds i = Some (lb, ub) -> nth_error mean i = Some m -> nth_error std i = Some s -> lb <= m <= ub /\ 0 < s.
Lemma F2_length {A B} (Q : A -> B -> Prop) l r : Forall2 Q l r -> length l = length r.
Proof. induction 1; cbn; congruence. Qed.
(** The mean always has a number for every parameter. *)
Lemma eigensystem_mean (G : Type) eigen (P : cma_par numR) (st st1 : cma_state numR G) : update_eigensystem eigen P st = Ok st1 -> s_mean st1 = s_mean st.
Proof.
  unfold update_eigensystem. destruct (s_uptodate st); [intros [= <-]; reflexivity|]. destruct (flgdiag st); [intros [= <-]; reflexivity|].
  destruct (nlt _ _); [intros [= <-]; reflexivity|]. destruct (eigen (s_C st)) as [[d Q]| |]; cbn [obind]; try discriminate. intros [= <-]. reflexivity.
Qed.
Lemma calls_mean_length (G : Type) gauss eigen cpow round bounds transform (P : cma_par numR) ops : forall (st st' : cma_state numR G) oks,
  length (s_mean st) = p_N P -> @calls numR G gauss eigen cpow round bounds transform P st ops = Ok (oks, st') -> length (s_mean st') = p_N P.
Proof.
  induction ops as [|op t IH]; intros st st' oks HL H; cbn [calls] in H; [injection H as _ <-; exact HL|].
  destruct (match op with Op_sample => _ | Op_update fits => _ end) as [st1|w|] eqn:E; [| |discriminate H].
  - apply obind_Ok in H as ([oks1 st2] & H1 & H2). apply (IH st1 st2 oks1) in H1; [injection H2 as _ <-; exact H1|]. destruct op as [|fits].
    + apply sample_spec in E as (st0 & rows & E0 & _ & Em & _). rewrite Em. apply eigensystem_mean in E0. rewrite E0. exact HL.
    + unfold cma_update in E. destruct (s_phase st); try discriminate; destruct (negb _); try discriminate. injection E as E. rewrite <- E. cbn [s_mean]. apply build_length.
  - apply obind_Ok in H as ([oks1 st2] & H1 & H2). apply (IH st st2 oks1 HL) in H1. injection H2 as _ <-. exact H1.
Qed.
Lemma within_describes (bounds : list (R * R)) (mean std : list R) : within bounds mean -> length std = length bounds -> Forall (fun x => 0 < x) std -> describes bounds mean std.
Proof.
  intros H HL HS. pose proof (F2_length _ _ _ H) as HM. split; [symmetry; exact HM|]. split; [exact HL|]. intros i lb ub m s Hb Hm Hs. split.
  - clear Hs. revert i Hb Hm. clear - H. induction H as [|b v bs vs Hbv _ IH]; intros [|i] Hb Hm; try discriminate; cbn in *.
    + injection Hb as ->. injection Hm as ->. exact Hbv.
    + eapply IH; eassumption.
  - rewrite Forall_forall in HS. apply HS, nth_error_In with i. exact Hs.
Qed.

(** Without a boundary transformer: a valid description, at any time, if the initial means are
    within the bounds (and anyway after the first update, C46_mean_within_bounds). *)
Theorem C46_updated_description_valid : forall (G : Type) gauss eigen cpow round (bounds : list (R * R)) cceil option_lambda option_modulo (P : cma_par numR) (pars : list (R * R)) (g : G) ops oks st,
  default_par cceil option_lambda option_modulo P -> length pars = p_N P -> length bounds = p_N P -> within bounds (map fst pars) -> Forall (fun p => 0 < snd p) pars ->
  @calls numR G gauss eigen cpow round bounds (fun v => Ok v) P (@cma_init numR G round P pars g) ops = Ok (oks, st) ->
  exists mean, @current_mean numR G (fun v => Ok v) st = Ok mean /\ describes bounds mean (current_std P st).
Proof.
  intros G gauss eigen cpow round bounds cceil ol om P pars g ops oks st HP HL HB HW HS H.
  assert (HV : Forall (fun b => fst b <= snd b) bounds).
  { clear - HW. revert HW. generalize (map fst pars). induction bounds as [|b bs IH]; intros v HW; constructor; inversion HW; subst; [lra|eauto]. }
  destruct (C46_mean_within_bounds G gauss eigen cpow round bounds cceil ol om P pars g ops oks st HP HB HV H) as (_ & HM & HC).
  destruct (C44_covariance_positive G gauss eigen cpow round bounds (fun v => Ok v) cceil ol om P pars g ops oks st HP HL HS H) as (_ & _ & _ & SL & SP).
  exists (s_mean st). split; [exact HC|]. apply within_describes; [exact (HM HW)| |exact SP]. exact (eq_trans SL (eq_sym HB)).
Qed.
(** With the boundary transformer of the CMA library: a valid description whenever
    current_mean() is defined, wherever the distribution is. *)
Theorem C46_transformed_description_valid : forall (G : Type) gauss eigen cpow round bug (bounds : list (R * R)) cceil option_lambda option_modulo (P : cma_par numR) (pars : list (R * R)) (g : G) ops oks st mean,
  let transform := @cma_trans numR to_int_R bug (map (fun p => @make_bnd numR (fst p) (snd p)) bounds) in
  default_par cceil option_lambda option_modulo P -> length pars = p_N P -> length bounds = p_N P -> Forall (fun b => fst b < snd b) bounds -> Forall (fun p => 0 < snd p) pars ->
  @calls numR G gauss eigen cpow round bounds transform P (@cma_init numR G round P pars g) ops = Ok (oks, st) ->
  @current_mean numR G transform st = Ok mean -> describes bounds mean (current_std P st).
Proof.
  intros G gauss eigen cpow round bug bounds cceil ol om P pars g ops oks st mean transform HP HL HB HV HS H HC.
  destruct (C44_covariance_positive G gauss eigen cpow round bounds transform cceil ol om P pars g ops oks st HP HL HS H) as (_ & _ & _ & SL & SP).
  assert (HM : length (s_mean st) = p_N P).
  { apply (calls_mean_length G gauss eigen cpow round bounds transform P ops (@cma_init numR G round P pars g) st oks); [|exact H]. unfold cma_init. cbn [s_mean]. rewrite map_length. exact HL. }
  unfold current_mean, transform in HC. assert (HLb : length (s_mean st) = length bounds) by (transitivity (p_N P); [exact HM|symmetry; exact HB]).
  apply (proj1 (C34_vector_componentwise bug bounds (s_mean st) mean HLb)) in HC as (HC1 & HC2).
  split; [transitivity (length (s_mean st)); assumption|]. split; [exact (eq_trans SL (eq_sym HB))|]. intros i lb ub m s Hb Hm Hs.
  split; [|rewrite Forall_forall in SP; apply SP, nth_error_In with i; exact Hs].
  assert (Hlt : lb < ub) by (rewrite Forall_forall in HV; exact (HV (lb, ub) (nth_error_In _ _ Hb))).
  destruct (nth_error (s_mean st) i) as [x|] eqn:Ex.
  - destruct (C34_component_in_bounds bug lb ub x Hlt) as (_ & _ & Hy & _). apply Hy. exact (HC2 i lb ub x m Hb Ex Hm).
  - apply nth_error_None in Ex. assert (i < length bounds)%nat by (apply nth_error_Some; congruence). lia.
Qed.

(** The first theorem applies to runs of any length; the second also where the distribution is far
    outside the bounds. *)
Example C46_description_nonvacuous : forall n, exists P, default_par (fun x => x) 4 0 P /\ p_N P = 1%nat /\
  (exists st mean, @calls numR R (fun g => Ok (g, g + 1)) eigen1 (fun _ _ => 0) (fun x => x) [(-5, 5)] (fun v => Ok v) P (@cma_init numR R (fun x => x) P [(0, 2)] 1)
     (@alternate numR (repeat [4; 3; 2; 1] n)) = Ok (repeat true (2 * n), st) /\ @current_mean numR R (fun v => Ok v) st = Ok mean /\ describes [(-5, 5)] mean (current_std P st)) /\
  (let transform := @cma_trans numR to_int_R "bug" [@make_bnd numR (-5) 5] in
   exists st mean, @calls numR R (fun g => Ok (g, g + 1)) eigen1 (fun _ _ => 0) (fun x => x) [(-5, 5)] transform P (@cma_init numR R (fun x => x) P [(100, 2)] 1) [Op_update []] = Ok ([false], st) /\
     s_mean st = [100] /\ @current_mean numR R transform st = Ok mean /\ describes [(-5, 5)] mean (current_std P st)).
Proof.
  intros n. destruct (C44_C46_nonvacuous n) as (P & st & HP & HN & _ & H). exists P. split; [exact HP|]. split; [exact HN|]. split.
  - destruct (C46_updated_description_valid R (fun g => Ok (g, g + 1)) eigen1 (fun _ _ => 0) (fun x => x) [(-5, 5)] (fun x => x) 4 0 P [(0, 2)] 1 (@alternate numR (repeat [4; 3; 2; 1] n)) (repeat true (2 * n)) st HP) as (mean & M1 & M2).
    + rewrite HN. reflexivity.
    + rewrite HN. reflexivity.
    + repeat constructor; cbn [fst snd]; lra.
    + repeat constructor; cbn [fst snd]; lra.
    + exact H.
    + exists st, mean. auto.
  - intros transform. set (st0 := @cma_init numR R (fun x => x) P [(100, 2)] 1).
    assert (HC : @calls numR R (fun g => Ok (g, g + 1)) eigen1 (fun _ _ => 0) (fun x => x) [(-5, 5)] transform P st0 [Op_update []] = Ok ([false], st0)).
    { cbn [calls]. unfold cma_update. change (s_phase st0) with (@s_phase numR R st0). cbn [length]. destruct (@s_phase numR R st0) eqn:EP; [|discriminate EP|]; destruct (Nat.eqb 0 (p_lambda P)); reflexivity. }
    assert (E : exists y, trans_R "bug" (-5) 5 100 = Ok y) by (apply C34_component_in_bounds; [lra|unfold count_fits; lra]). destruct E as (y & E).
    assert (EM : @current_mean numR R transform st0 = Ok [y]).
    { unfold current_mean, transform. apply (proj2 (C34_vector_componentwise "bug" [(-5, 5)] [100] [y] eq_refl)). split; [reflexivity|].
      intros [|[|i]] lb ub xi yi Hb Hx Hy; try discriminate. cbn in Hb, Hx, Hy. injection Hb as <- <-. injection Hx as <-. injection Hy as <-. exact E. }
    exists st0, [y]. split; [exact HC|]. split; [reflexivity|]. split; [exact EM|].
    apply (C46_transformed_description_valid R (fun g => Ok (g, g + 1)) eigen1 (fun _ _ => 0) (fun x => x) "bug" [(-5, 5)] (fun x => x) 4 0 P [(100, 2)] 1 [Op_update []] [false] st0 [y] HP).
    + rewrite HN. reflexivity.
    + rewrite HN. reflexivity.
    + repeat constructor; cbn [fst snd]; lra.
    + repeat constructor; cbn [fst snd]; lra.
    + exact HC.
    + exact EM.
Qed.

(** ** In double precision *)
(** The mean can leave the bounds by a rounding error: with the range [-0.1,0], four samples and the
    true logarithms of 1, 2 and 3, the description is invalid after one step in which the two best
    points were at the lower bound. *)
Definition r_log (x : f64) : f64 :=
  if feq x (fofZ 1) then fzero else if feq x (fofZ 2) then flit 6931471805599453 (-16) else if feq x (fofZ 3) then flit 10986122886681098 (-16) else fsub x (fofZ 1).
Definition r_cl : cma_lib := {|
  cl_libm := {| lm_log := r_log; lm_exp := fun x => fadd (fofZ 1) x; lm_sin := fun x => x; lm_cos := fun x => x |};
  cl_pow := fun _ _ => fzero; cl_ceil := fun x => x; cl_eigen := fun C => Ok (match C with [c] :: _ => [c] | _ => [fnan] end, [[fofZ 1]]); cl_tries := 40 |}.
Definition r_info : obj_info := {| oi_free := [{| pi_name := "x"; pi_mean := flit (-5) (-2); pi_std := flit 1 6; pi_min := flit (-1) (-1); pi_max := fzero |}];
  oi_locked := []; oi_minimize := true; oi_target := fzero; oi_name := "" |}.
Definition r_env : env := {| e_info := r_info; e_cma := true; e_regression := fun _ _ => Flt32.lin_zero; e_unsigned_errors := true; e_max_errors := 0; e_reporters := []; e_libm := cl_libm r_cl |}.
(** the objective is f( x ) = x *)
Definition r_eval (pop : list point) : list result := map (fun x : point => match x with v :: _ => ROk v | [] => RErr "" end) pop.
Definition r_good (P : cma_par (numF (cl_libm r_cl))) (r : opt * cma_f64 r_cl * outcome unit) : bool :=
  Nat.eqb (c_steps (o_core (fst (fst r)))) 1 && forallb (fun x => match x with [v] => fle (flit (-1) (-1)) v && fle v fzero | _ => false end) (s_bounded (snd (fst r))) &&
  match cma_updated_info r_cl r_info None P (snd (fst r)) with Ok i => match oi_free i with [p] => flt (pi_mean p) (flit (-1) (-1)) && negb (is_valid p) | _ => false end | _ => false end.
Definition r_bad_description (info : obj_info) (L : cma_lib) (P : cma_par (numF (cl_libm L))) (r : opt * cma_f64 L * outcome unit) : Prop :=
  (* the step was made, and all its points were within the bounds *)
  c_steps (o_core (fst (fst r))) = 1%nat /\ Forall (in_bounds info) (s_bounded (snd (fst r))) /\
  exists info', cma_updated_info L info None P (snd (fst r)) = Ok info' /\ Exists (fun p => flt (pi_mean p) (pi_min p) = true /\ is_valid p = false) (oi_free info').
Lemma updated_min L info tr P st i : cma_updated_info L info tr P st = Ok i -> map pi_min (oi_free i) = map pi_min (oi_free info).
Proof.
  intros EI. unfold cma_updated_info in EI. apply obind_Ok in EI as (mean & _ & EI). unfold set_mean_std in EI. destruct (_ && _); cbn [assert_ obind] in EI; [|discriminate EI].
  apply (f_equal (fun o => match o with Ok s => map pi_min (oi_free s) | _ => [] end)) in EI. cbn [with_free oi_free] in EI. rewrite <- EI. clear.
  generalize (oi_free info) mean (@current_std (numF (cl_libm L)) (rnd (numF (cl_libm L))) P st). intros l. induction l as [|p ps IH]; intros [|m ms] [|s ss]; cbn; try reflexivity. f_equal. apply IH.
Qed.
Lemma r_good_bad P r : r_good P r = true -> r_bad_description r_info r_cl P r.
Proof.
  unfold r_good. intros H. apply andb_true_iff in H as [H H3]. apply andb_true_iff in H as [H1 H2]. split; [apply Nat.eqb_eq; exact H1|]. split.
  - rewrite forallb_forall in H2. apply Forall_forall. intros x Hx. specialize (H2 x Hx). destruct x as [|v [|]]; try discriminate H2. apply andb_true_iff in H2 as [A B].
    constructor; [|constructor]. split; assumption.
  - destruct (cma_updated_info r_cl r_info None P (snd (fst r))) as [i|w|] eqn:EI; try discriminate H3. exists i. split; [reflexivity|]. apply updated_min in EI.
    destruct (oi_free i) as [|p [|]]; try discriminate H3. apply andb_true_iff in H3 as [A B]. apply negb_true_iff in B. constructor. split; [|exact B].
    apply (f_equal (hd fnan)) in EI. change (pi_min p = flit (-1) (-1)) in EI. rewrite EI. exact A.
Qed.
Lemma r_checked : match cma_create r_cl r_info (fun _ => ""%string) ex_cma 7 7 with
  | Ok (P, st) => r_good P (full_steps (cma_sampler r_cl r_info None P) r_env (created r_env []) st [(r_eval, false)])
  | _ => false end = true.
Proof. vm_compute. reflexivity. Qed.
Theorem C46_doubles_refuted : exists L info E P st, eight_digit_bounds info /\ cma_create L info (fun _ => ""%string) ex_cma 7 7 = Ok (P, st) /\
  r_bad_description info L P (full_steps (cma_sampler L info None P) E (created E []) st [(r_eval, false)]).
Proof.
  pose proof r_checked as H. exists r_cl, r_info, r_env.
  destruct (cma_create r_cl r_info (fun _ => ""%string) ex_cma 7 7) as [[P st]|w|] eqn:E; [|discriminate H|discriminate H]. exists P, st.
  split; [constructor; [|constructor]; split; [vm_compute; reflexivity|]; split; f64_compute|]. split; [reflexivity|]. exact (r_good_bad _ _ H).
Qed.
