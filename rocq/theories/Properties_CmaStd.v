(** * C44 in double precision: variances and standard deviations are never negative. *)
From Coq Require Import ZArith Bool String Lia Reals Lra Psatz.
From Flocq Require Import Core BinarySingleNaN.
From Verif Require Import Prelude Flt FltFacts FltNonneg ParInfo ObjInfo Num Round8 MathTools Boundary CmaRandom MesF Cma CmaFacts CmaF Optimizer Driver DriverFacts Properties_ES6 Properties_Cma3 Properties_Boundary2 Properties_CmaWeights2 Properties_CmaPars2.
#[local] Open Scope R_scope.

(** ** Signs *)
Lemma sign_mul (a b : f64) : fisnan (fmul a b) = true \/ Bsign (fmul a b) = xorb (Bsign a) (Bsign b).
Proof.
  destruct (fisnan (fmul a b)) eqn:N; [auto|]. right.
  destruct a as [s|s| |s m e B], b as [s'|s'| |s' m' e' B']; try discriminate N; try reflexivity.
  pose proof (Bmult_correct prec64 emax64 _ _ mode_NE (B754_finite s m e B) (B754_finite s' m' e' B')) as H. fold (fmul (B754_finite s m e B) (B754_finite s' m' e' B')) in H.
  destruct (Rlt_bool _ _); [destruct H as (_ & _ & H); apply H; exact N|]. destruct (fmul _ _); try discriminate H; try discriminate N; cbn in H; injection H as ->; reflexivity.
Qed.
Lemma sign_div (a b : f64) : fisnan (fdiv a b) = true \/ Bsign (fdiv a b) = xorb (Bsign a) (Bsign b).
Proof.
  destruct (fisnan (fdiv a b)) eqn:N; [auto|]. right.
  destruct a as [s|s| |s m e B], b as [s'|s'| |s' m' e' B']; try discriminate N; try reflexivity.
  assert (NZ : B2R (B754_finite s' m' e' B') <> 0). { cbn [B2R]. intros Z. apply eq_0_F2R in Z. destruct s'; discriminate Z. }
  pose proof (Bdiv_correct prec64 emax64 _ _ mode_NE (B754_finite s m e B) (B754_finite s' m' e' B') NZ) as H. fold (fdiv (B754_finite s m e B) (B754_finite s' m' e' B')) in H.
  destruct (Rlt_bool _ _); [destruct H as (_ & _ & H); apply H; exact N|]. destruct (fdiv _ _); try discriminate H; try discriminate N; cbn in H; injection H as ->; reflexivity.
Qed.
Lemma plus_nn (x : f64) : fisnan x = true \/ Bsign x = false -> never_negative x.
Proof.
  intros [H|H]; [left; exact H|]. destruct x as [s|s| |s m e B]; [right; reflexivity| |left; reflexivity|]; cbn in H; subst s; right; [reflexivity|].
  apply fle0_finite; [reflexivity|]. cbn [B2R]. apply F2R_ge_0. cbn. lia.
Qed.
Lemma nan_mul (a b : f64) : fisnan a = true -> fmul a b = a. Proof. destruct a; try discriminate. destruct b; reflexivity. Qed.
Lemma nan_div (a b : f64) : fisnan a = true -> fdiv a b = a. Proof. destruct a; try discriminate. destruct b; reflexivity. Qed.
Lemma nan_div_r (a b : f64) : fisnan b = true -> fisnan (fdiv a b) = true. Proof. destruct b; try discriminate. destruct a; reflexivity. Qed.
(** a d d / s s *)
Lemma nn_sandwich (a d s : f64) : never_negative a -> never_negative (fdiv (fmul (fmul a d) d) (fmul s s)).
Proof.
  intros [Ha|Ha]; [left; rewrite (nan_mul a d Ha), (nan_mul a d Ha), (nan_div a _ Ha); exact Ha|].
  assert (ZC : (exists z, a = B754_zero z) \/ Bsign a = false).
  { destruct (fle0_pos a Ha) as [Z|[->|[F P]]]; [left; exact Z|right; reflexivity|right]. destruct (Bsign a) eqn:S; [|reflexivity]. pose proof (fsign_nonneg a F (Rlt_le _ _ P) S). lra. }
  destruct ZC as [[z ->]|S].
  - assert (Z1 : fisnan (fmul (B754_zero z) d) = true \/ exists z', fmul (B754_zero z) d = B754_zero z') by (destruct d; [right; eexists; reflexivity|left; reflexivity|left; reflexivity|right; eexists; reflexivity]).
    destruct Z1 as [N|[z' ->]]; [left; rewrite (nan_mul _ d N), (nan_div _ _ N); exact N|].
    assert (Z2 : fisnan (fmul (B754_zero z') d) = true \/ exists z2, fmul (B754_zero z') d = B754_zero z2) by (destruct d; [right; eexists; reflexivity|left; reflexivity|left; reflexivity|right; eexists; reflexivity]).
    destruct Z2 as [N|[z2 ->]]; [left; rewrite (nan_div _ _ N); exact N|]. destruct (fmul s s); [left; reflexivity|right; reflexivity|left; reflexivity|right; reflexivity].
  - apply plus_nn. destruct (sign_mul s s) as [N|Q]; [left; apply nan_div_r; exact N|]. rewrite xorb_nilpotent in Q.
    destruct (sign_mul a d) as [N1|S1]; [left; rewrite (nan_mul _ d N1), (nan_div _ _ N1); exact N1|]. destruct (sign_mul (fmul a d) d) as [N2|S2]; [left; rewrite (nan_div _ _ N2); exact N2|].
    rewrite S1, S in S2. destruct (sign_div (fmul (fmul a d) d) (fmul s s)) as [N3|S3]; [left; exact N3|right]. rewrite S3, S2, Q. destruct (Bsign d); reflexivity.
Qed.
Lemma nn_sqrt (a : f64) : never_negative a -> never_negative (fsqrt a).
Proof.
  intros [Ha|Ha]; [left; destruct a; try discriminate Ha; reflexivity|]. destruct (fle0_pos a Ha) as [(s & ->)|[->|[F P]]]; [right; reflexivity|right; reflexivity|].
  destruct (Properties_Boundary3.is_sqrt a (B2R a) (is_self a F) (Rlt_le _ _ P)) as [F' E]. right. apply fle0_finite; [exact F'|]. rewrite E. apply rnd_nn, sqrt_pos.
Qed.
Lemma nn_is (a : f64) v : is a v -> 0 <= v -> never_negative a.
Proof. intros [F E] H. right. apply fle0_finite; [exact F|]. rewrite E. exact H. Qed.

(** ** One entry of the diagonal *)
(** The parameters that are needed. *)
Definition sound (L : libm) (P : cma_par (numF L)) : Prop :=
  never_negative (@ccov1 (numF L) P false) /\ never_negative (@ccovmu (numF L) P false) /\ never_negative (fsub (fsub (fofZ 1) (@ccov1 (numF L) P false)) (@ccovmu (numF L) P false)) /\
  never_negative (p_ccumcov P) /\ never_negative (fsub (fofZ 2) (p_ccumcov P)) /\ (forall k, never_negative (at_ (p_weights P) k)).
Lemma adapt_entry_nn L (P : cma_par (numF L)) hsig (sigma : f64) (xold pc : list f64) (best : list (list f64)) i (c : f64) : sound L P -> never_negative c ->
  never_negative (@adapt_entry (numF L) P false hsig sigma xold pc best i i c).
Proof.
  intros (S1 & S2 & S3 & S4 & S5 & S6) Hc. unfold adapt_entry. set (c1 := @ccov1 (numF L) P false) in *. set (cmu := @ccovmu (numF L) P false) in *. clearbody c1 cmu.
  change (@nadd (numF L)) with fadd. change (@nsub (numF L)) with fsub. change (@nmul (numF L)) with fmul. change (@ndiv (numF L)) with fdiv. change (@nofZ (numF L)) with fofZ.
  assert (F : forall (l : list (nat * list f64)) (x : f64), never_negative x -> never_negative (fold_left (fun (c : f64) kx => fadd c (fdiv (fmul (fmul (fmul cmu (@at_ (numF L) (p_weights P) (fst kx))) (fsub (@at_ (numF L) (snd kx) i) (@at_ (numF L) xold i))) (fsub (@at_ (numF L) (snd kx) i) (@at_ (numF L) xold i))) (fmul sigma sigma))) l x)).
  { induction l as [|kx l IH]; intros x Hx; [exact Hx|]. cbn [fold_left]. apply IH. apply nn_add; [exact Hx|]. apply nn_sandwich. apply nn_mul; [exact S2|apply S6]. }
  apply F. apply nn_add; [apply nn_mul; assumption|]. apply nn_mul; [exact S1|]. apply nn_add; [apply nn_square|]. apply nn_mul; [|exact Hc]. apply nn_mul; [|exact S5]. apply nn_mul; [|exact S4]. destruct hsig; right; reflexivity.
Qed.

(** ** Histories *)
Section History.
Context (L : cma_lib) (info : obj_info) (transformer : option (list f64 -> outcome (list f64))) (P : cma_par (numF (cl_libm L))).
Notation K := (numF (cl_libm L)).
Hypothesis HS : sound (cl_libm L) P.
Hypothesis HX : forall x, flt (lm_exp (cl_libm L) x) fzero = false.
Definition tame (st : cma_f64 L) : Prop :=
  never_negative (s_sigma st) /\ (forall i, (i < p_N P)%nat -> never_negative (@at_ K (row_ (s_C st) i) i)) /\ (s_phase st = Sampled -> s_gen st <> O).
Lemma tame_sample st : tame st -> tame (fst (s_sample (cma_sampler L info transformer P) st)).
Proof.
  intros H. cbn [cma_sampler s_sample]. destruct (cma_sample _ _ _ _ _ _ _) as [st'|w|] eqn:E; cbn [fst]; try exact H. destruct H as (H1 & H2 & H3). unfold cma_sample in E.
  destruct (assert_ _) as [u| |]; cbn [obind] in E; try discriminate E. destruct (update_eigensystem _ _ _) as [st1| |] eqn:E1; cbn [obind] in E; try discriminate E.
  assert (SC : s_sigma st1 = s_sigma st /\ s_C st1 = s_C st).
  { unfold update_eigensystem in E1. destruct (s_uptodate st); [injection E1 as <-; auto|]. destruct (flgdiag st); [injection E1 as <-; auto|]. destruct (nlt _ _); [injection E1 as <-; auto|]. destruct (cl_eigen L _) as [[d Q]| |]; cbn [obind] in E1; try discriminate E1. injection E1 as <-. auto. }
  destruct (mutants _ _ _ _ _ _) as [[rows g1]| |]; cbn [obind] in E; try discriminate E. destruct (individuals _ _ _ _ _ _ _ _) as [[[rows' inds] g2]| |]; cbn [obind] in E; try discriminate E.
  injection E as <-. unfold tame. cbn [s_sigma s_C s_phase s_gen]. destruct SC as [-> ->]. split; [exact H1|]. split; [exact H2|]. intros _. destruct (s_phase st1); try discriminate; destruct (Nat.eqb_spec (s_gen st1) 0); try discriminate; assumption.
Qed.
Lemma tame_update st fits : tame st -> tame (fst (s_update (cma_sampler L info transformer P) st fits)).
Proof.
  intros H. cbn [cma_sampler s_update]. set (fs := if oi_minimize info then fits else map fopp fits). clearbody fs. destruct (cma_update _ _ _ _) as [st'|w|] eqn:E; cbn [fst]; try exact H. destruct H as (H1 & H2 & H3). unfold cma_update in E.
  destruct (s_phase st) eqn:EP; try discriminate E.
  - destruct (negb _); discriminate E.
  - destruct (negb _); [discriminate E|]. assert (D : flgdiag st = false). { unfold flgdiag. apply Nat.eqb_neq. exact (H3 eq_refl). }
    rewrite D in E. cbv zeta in E. pose proof (f_equal (fun o => match o with Ok y => y | _ => st' end) E) as EQ. clear E. cbv beta iota in EQ. rewrite <- EQ. clear EQ st'. unfold tame. cbn [s_sigma s_C s_phase s_gen].
    assert (XN : forall x, never_negative (lm_exp (cl_libm L) x)) by (intros x; apply never_negative_spec, HX). split; [|split; [|discriminate]].
    + change (@nmul K) with fmul. change (@nexp K) with (lm_exp (cl_libm L)). apply nn_mul; [|apply XN]. match goal with |- context [if ?b then _ else _] => destruct b end; [|exact H1]. apply nn_mul; [exact H1|apply XN].
    + intros i Hi. match goal with |- context [if ?b then _ else _] => destruct b end; [|exact (H2 i Hi)]. rewrite (@adapt_C_at K) by lia. apply adapt_entry_nn; [exact HS|exact (H2 i Hi)].
Qed.
End History.
(** ** The parameters of the constructor *)
Lemma created_sound L info label opt device clock P st0 : accurate_log (cl_libm L) -> exact_ceil (cl_ceil L) ->
  (1 <= oi_dim info)%nat -> (Z.of_nat (oi_dim info) <= 1048576)%Z -> (co_lambda opt <= 2097152)%Z ->
  cma_create L info label opt device clock = Ok (P, st0) -> sound (cl_libm L) P /\ st0 = @cma_init (numF (cl_libm L)) _ rounded P (pars_of info) (random_init clock (seed_of (co_seed opt) device)) /\ p_N P = oi_dim info.
Proof.
  intros HA HC H1 H2 H3 H. destruct (C42_parameters_doubles _ _ _ _ (co_modulo opt) HA HC H1 H2 H3) as (P' & HP & A1 & A2 & A3 & A4 & A5 & A6 & A7 & _ & _ & (F1 & B1) & _ & _ & A8 & _).
  unfold cma_create in H. rewrite HP in H. cbn [obind] in H. destruct (cma_bounds_init _ _ _); cbn [obind] in H; try discriminate H. pose proof (f_equal (fun o => match o with Ok (x, _) => x | _ => P end) H) as EP. pose proof (f_equal (fun o => match o with Ok (_, x) => x | _ => st0 end) H) as ES. clear H. cbv beta iota in EP, ES. rewrite <- ES, <- EP. clear EP ES P st0.
  split; [|split; [reflexivity|exact A1]]. cbv zeta in A8. destruct A8 as (G1 & G2 & G3 & G4 & G5 & _).
  assert (LM : (Z.of_nat (p_mu P') <= 1048576)%Z).
  { rewrite A4. destruct (Z.ltb_spec (co_lambda opt) 2) as [Ho|Ho].
    - destruct (A6 Ho) as [_ [B _]]. pose proof (ln_up (INR (oi_dim info))) as LU. assert (RN : 1 <= INR (oi_dim info) <= 2097152). { split; [apply (le_INR 1); exact H1|]. rewrite INR_IZR_INZ. apply IZR_le. lia. } specialize (LU RN).
      assert (LL : (Z.of_nat (p_lambda P') <= 100)%Z) by (apply le_IZR; rewrite <- INR_IZR_INZ; lra). rewrite Nat2Z.inj_div. apply Z.div_le_upper_bound; lia.
    - specialize (A5 Ho). rewrite Nat2Z.inj_div. apply Z.div_le_upper_bound; lia. }
  pose proof (C41_weights_doubles (cl_libm L) (p_mu P') HA (proj1 A3) LM) as W. cbv zeta in W. rewrite <- A7 in W. cbn [fst snd] in W. destruct W as (_ & W & _).
  assert (HC1 : is (@ccov1 (numF (cl_libm L)) P' false) (B2R (@ccov1 (numF (cl_libm L)) P' false : f64))) by (apply is_self; exact G1). assert (HC2 : is (@ccovmu (numF (cl_libm L)) P' false) (B2R (@ccovmu (numF (cl_libm L)) P' false : f64))) by (apply is_self; exact G2).
  set (v := B2R (@ccov1 (numF (cl_libm L)) P' false : f64)) in *. set (w := B2R (@ccovmu (numF (cl_libm L)) P' false : f64)) in *. assert (HU : is (p_ccumcov P') (B2R (p_ccumcov P' : f64))) by (apply is_self; exact F1). set (u := B2R (p_ccumcov P' : f64)) in *.
  assert (RV : 0 < v) by exact G3. assert (RW : 0 <= w) by exact G4. assert (RVW : v + w < 1) by exact G5. assert (RU : 0 < u < 1) by exact B1. clearbody v w u.
  split; [apply (nn_is _ v HC1); lra|]. split; [apply (nn_is _ w HC2); lra|]. split; [|split; [apply (nn_is _ u HU); lra|split]].
  - pose proof (is_sub _ _ _ _ is_one HC1 ltac:(apply in_top; lra)) as K1. assert (WV : w <= rnd (1 - v)) by (rewrite <- (rnd_id w (is_fmt _ _ HC2)); apply rnd_mono; lra). pose proof (rnd_le_one (1 - v) ltac:(lra)).
    pose proof (is_sub _ _ _ _ K1 HC2 ltac:(apply in_top; lra)) as K2. apply (nn_is _ _ K2). apply rnd_nn. lra.
  - pose proof (is_sub _ _ _ _ is_two HU ltac:(apply in_top; lra)) as K1. apply (nn_is _ _ K1). apply rnd_nn. lra.
  - intros k. unfold at_. destruct (nth_error (p_weights P') k) as [x|] eqn:Ex.
    + rewrite (nth_error_nth _ _ _ Ex). destruct (W k x Ex) as (FX & PX & _). right. apply fle0_finite; [exact FX|]. apply Rlt_le. exact PX.
    + rewrite nth_overflow by (apply nth_error_None; exact Ex). right. reflexivity.
Qed.
Lemma nn_sum (l : list nat) (f : nat -> f64) : (forall i, never_negative (f i)) -> never_negative (fold_left (fun s j => fadd s (f j)) l (fofZ 0)).
Proof.
  intros H. assert (G : forall s, never_negative s -> never_negative (fold_left (fun s j => fadd s (f j)) l s)); [|apply G; right; reflexivity]. induction l as [|j l IH]; intros s Hs; [exact Hs|]. cbn [fold_left]. apply IH, nn_add; [exact Hs|apply H].
Qed.
(** In double precision as well: whatever is sampled and evaluated, in any run, the step size and the standard deviations are
    never negative, and neither are the variances of which the roots are taken (they may be NaN after an overflow). *)
Theorem C44_std_doubles : forall L info transformer label opt device clock P st0, accurate_log (cl_libm L) -> exact_ceil (cl_ceil L) -> (forall x, flt (lm_exp (cl_libm L) x) fzero = false) ->
  (1 <= oi_dim info)%nat -> (Z.of_nat (oi_dim info) <= 1048576)%Z -> (co_lambda opt <= 2097152)%Z ->
  cma_create L info label opt device clock = Ok (P, st0) ->
  forall E o evals, let st := snd (fst (full_steps (cma_sampler L info transformer P) E o st0 evals)) in
  flt (s_sigma st) fzero = false /\ (forall i, (i < oi_dim info)%nat -> flt (nth i (nth i (s_C st) []) fzero : f64) fzero = false) /\
  Forall (fun v => flt v fzero = false) (@current_std (numF (cl_libm L)) _ P st).
Proof.
  intros L info transformer label opt device clock P st0 HA HC HX H1 H2 H3 H E o evals st. destruct (created_sound _ _ _ _ _ _ _ _ HA HC H1 H2 H3 H) as (HS & ES & EN).
  assert (T : tame L P st).
  { unfold st. apply (full_steps_inv (cma_sampler L info transformer P) E (tame L P)).
    - intros s Hs. apply tame_sample. exact Hs.
    - intros s fits Hs. apply tame_update; assumption.
    - rewrite ES. unfold cma_init, tame. cbv zeta. cbn [s_sigma s_C s_phase s_gen]. split; [|split; [|discriminate]].
      + change (@nsqrt (numF (cl_libm L))) with fsqrt. change (@ndiv (numF (cl_libm L))) with fdiv. apply nn_sqrt. unfold of_nat. change (@nofZ (numF (cl_libm L))) with fofZ. apply nn_div; [|lia].
        unfold sum_. change (@nadd (numF (cl_libm L))) with fadd. change (@nmul (numF (cl_libm L))) with fmul. apply nn_sum. intros i. apply nn_square.
      + intros i Hi. rewrite row_build by exact Hi. rewrite at_build by lia. rewrite Nat.eqb_refl. apply nn_square. }
  clearbody st. destruct T as (T1 & T2 & _). split; [apply never_negative_spec; exact T1|]. split.
  - intros i Hi. apply never_negative_spec. rewrite <- EN in Hi. exact (T2 i Hi).
  - unfold current_std, build. apply Forall_map. apply Forall_forall. intros i Hi. apply in_seq in Hi. apply never_negative_spec. change (@nmul (numF (cl_libm L))) with fmul. change (@nsqrt (numF (cl_libm L))) with fsqrt. apply nn_mul; [exact T1|]. apply nn_sqrt. apply T2. lia.
Qed.
(** There are such libraries, and then a CMA optimizer for every objective in range. *)
Definition ideal_lib : cma_lib := {| cl_libm := {| lm_log := lm_log rounded_log; lm_exp := fun x => to_double (exp (Rmin (B2R x) 600)); lm_sin := fun x => x; lm_cos := fun x => x |}; cl_pow := fun x _ => x; cl_ceil := fun x => fofZ (Zceil (B2R x)); cl_eigen := fun C => Ok (map (fun _ => fofZ 1) C, C); cl_tries := 100 |}.
Lemma C44_doubles_nonvacuous : accurate_log (cl_libm ideal_lib) /\ exact_ceil (cl_ceil ideal_lib) /\ (forall x, flt (lm_exp (cl_libm ideal_lib) x) fzero = false) /\
  exists P st, cma_create ideal_lib still_info (fun _ => "x"%string) default_cma_options 0 0 = Ok (P, st).
Proof.
  split; [exact C41_doubles_nonvacuous|]. split; [exact (proj2 C42_doubles_nonvacuous)|]. split.
  - intros x. apply never_negative_spec. cbn [lm_exp cl_libm ideal_lib]. set (r := Rmin (B2R x) 600). assert (Hr : r <= 600) by apply Rmin_r. clearbody r. pose proof (exp_pos r) as P.
    assert (B : exp r <= bpow radix2 1000).
    { apply Rle_trans with (exp 600). { destruct Hr as [Hr| ->]; [left; apply exp_increasing; exact Hr|lra]. } replace 600 with (INR 600 * 1) by (rewrite INR_IZR_INZ; cbn; lra).
      assert (EP : forall n, exp (INR n * 1) = exp 1 ^ n). { induction n as [|n IH]; [cbn; rewrite Rmult_0_l; apply exp_0|]. rewrite S_INR. replace ((INR n + 1) * 1) with (INR n * 1 + 1) by ring. rewrite exp_plus, IH. cbn [pow]. ring. }
      rewrite EP. apply Rle_trans with (3 ^ 600); [apply pow_incr; split; [left; apply exp_pos|exact exp_le_3]|]. change (bpow radix2 1000) with (IZR (2 ^ 1000)). rewrite (pow_IZR 3 600). apply IZR_le. vm_compute. discriminate. }
    destruct (to_double_is (exp r)) as [F E]; [rewrite Rabs_pos_eq by lra; exact B|]. right. apply fle0_finite; [exact F|]. rewrite E. apply rnd_nn. lra.
  - apply (C42_creation_doubles ideal_lib still_info (fun _ => "x"%string) default_cma_options 0 0).
    + exact C41_doubles_nonvacuous.
    + exact (proj2 C42_doubles_nonvacuous).
    + cbn. lia.
    + cbn. lia.
    + cbn. lia.
    + constructor; [vm_compute; reflexivity|constructor].
Qed.
