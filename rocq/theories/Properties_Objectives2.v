(** * C59: the benchmark objectives as the program computes them, over doubles *)
From Coq Require Import ZArith Bool Reals Lra.
From Flocq Require Import Core BinarySingleNaN.
From Verif Require Import Prelude Flt FltFacts FltNonneg Round8 ParInfo ParInfoFacts ObjInfo Num MathTools Objectives Properties_ParInfo Properties_Params3 Properties_CmaRandom.
#[local] Open Scope nat_scope.

(** Any C math library. *)
Section Libm.
Variable L : libm.
Let KF := numF L.

(** ** Never negative *)
Lemma nn_fold {A} (g : A -> f64) l : (forall a, In a l -> never_negative (g a)) -> forall s, never_negative s ->
  never_negative (fold_left (fun s a => fadd s (g a)) l s).
Proof.
  induction l as [|a t IH]; intros H s Hs; cbn [fold_left]; [exact Hs|]. apply IH; [intros; apply H; now right|].
  apply nn_add; [exact Hs|]. apply H. now left.
Qed.
Lemma pos_fold {A} (g : A -> f64) l : (forall a, In a l -> fle fzero (g a) = true) -> forall s, fle fzero s = true ->
  fle fzero (fold_left (fun s a => fadd s (g a)) l s) = true.
Proof.
  induction l as [|a t IH]; intros H s Hs; cbn [fold_left]; [exact Hs|]. apply IH; [intros; apply H; now right|].
  apply fadd_nonneg; [exact Hs|]. apply H. now left.
Qed.
Lemma nn_zero : never_negative fzero. Proof. now right. Qed.
Lemma size_pos n : n <> 0 -> (Z.of_nat n <= 2 ^ 53)%Z -> is_finite (fofZ (Z.of_nat n)) = true /\ (0 < B2R (fofZ (Z.of_nat n)))%R.
Proof.
  intros Hn Hb. destruct (fofZ_exact (Z.of_nat n)) as [E F]; [lia|]. split; [exact F|]. rewrite E. apply IZR_lt. lia.
Qed.
Lemma ellipsoid_from_pos (P : f64 -> Prop) (Padd : forall a b, P a -> P b -> P (fadd a b)) v :
  (forall n x, In x v -> n <> 0 -> (Z.of_nat n <= 2 ^ 53)%Z -> P (fmul (fofZ (Z.of_nat n)) (fmul x x))) ->
  forall i s, (Z.of_nat (i + length v) <= 2 ^ 53)%Z -> P s -> P (@ellipsoid_from KF i s v).
Proof.
  induction v as [|x t IH]; intros Px i s Hi Hs; cbn [ellipsoid_from]; [exact Hs|].
  apply IH; [intros; apply Px; auto; now right|cbn [length] in Hi; now rewrite Nat.add_succ_r in Hi|].
  apply Padd; [exact Hs|]. apply Px; [now left|lia|cbn [length] in Hi; lia].
Qed.
Lemma rosenbrock_from_nn t : forall x s, never_negative s -> never_negative (@rosenbrock_from KF s x t).
Proof.
  induction t as [|y t IH]; intros x s Hs; cbn [rosenbrock_from]; [exact Hs|]. apply IH. apply nn_add; [exact Hs|].
  apply nn_add; [|apply nn_square]. apply nn_scale; [reflexivity| |apply nn_square].
  destruct (fofZ_exact 100 ltac:(lia)) as [E _]. change (B2R (@nofZ KF 100)) with (B2R (fofZ 100)). rewrite E. apply IZR_lt. lia.
Qed.
Theorem C59_never_negative : forall v : list f64,
  flt (@sphere KF v) fzero = false /\
  ((Z.of_nat (length v) <= 2 ^ 53)%Z -> flt (@ellipsoid KF v) fzero = false) /\
  (forall f, @rosenbrock KF v = Ok f -> flt f fzero = false) /\
  (forall f, @himmelblau KF v = Ok f -> flt f fzero = false).
Proof.
  intros v. split; [|split; [|split]].
  - apply never_negative_spec. apply (nn_fold (fun x => fmul x x)); [intros; apply nn_square|apply nn_zero].
  - intros Hv. apply never_negative_spec. apply (ellipsoid_from_pos never_negative nn_add); [|exact Hv|apply nn_zero].
    intros n x _ Hn Hb. destruct (size_pos n Hn Hb). apply nn_scale; auto. apply nn_square.
  - intros f H. apply never_negative_spec. destruct v as [|x t]; [discriminate|].
    injection H as <-. apply rosenbrock_from_nn, nn_zero.
  - intros f H. apply never_negative_spec. destruct v as [|x [|y t]]; try discriminate.
    injection H as <-. apply nn_add; apply nn_square.
Qed.
(** Sphere and ellipsoid of numbers are numbers (possibly infinite). *)
Theorem C59_no_nan : forall v : list f64, Forall (fun x => fisnan x = false) v ->
  fisnan (@sphere KF v) = false /\ ((Z.of_nat (length v) <= 2 ^ 53)%Z -> fisnan (@ellipsoid KF v) = false).
Proof.
  intros v Hv. rewrite Forall_forall in Hv. split.
  - apply (fle_not_nan fzero). apply (pos_fold (fun x => fmul x x)); [intros; apply fsquare_nonneg; auto|reflexivity].
  - intros Hl. apply (fle_not_nan fzero). apply (ellipsoid_from_pos (fun x => fle fzero x = true) fadd_nonneg); [|exact Hl|reflexivity].
    intros n x Hx Hn Hb. destruct (size_pos n Hn Hb). apply fmul_nonneg; auto. apply fsquare_nonneg; auto.
Qed.

(** ** Exactly zero at the documented optimum, without rounding error *)
Lemma fmul_zero (a : f64) : is_finite a = true -> (0 < B2R a)%R -> fmul a fzero = fzero.
Proof.
  intros F P. destruct a as [s|s| |s m e B]; try discriminate; [cbn in P; lra|]. destruct s; [|reflexivity].
  exfalso. pose proof (fsign_nonneg (B754_finite true m e B) eq_refl (Rlt_le _ _ P) eq_refl) as Z. rewrite Z in P. lra.
Qed.
Lemma zero_squared : fmul fzero fzero = fzero. Proof. reflexivity. Qed.
Lemma zero_plus_zero : fadd fzero fzero = fzero. Proof. reflexivity. Qed.
Lemma ellipsoid_from_zero d : forall i, (Z.of_nat (i + d) <= 2 ^ 53)%Z -> @ellipsoid_from KF i fzero (repeat fzero d) = fzero.
Proof.
  induction d as [|d IH]; intros i Hi; cbn [repeat ellipsoid_from]; [reflexivity|].
  destruct (size_pos (i + 1)) as [F P]; [lia|lia|].
  assert (E : @nadd KF fzero (@nmul KF (@nsize KF (i + 1)) (@sq KF fzero)) = fzero).
  { unfold sq, nsize. cbn [nadd nmul nofZ KF numF]. rewrite zero_squared, (fmul_zero _ F P). apply zero_plus_zero. }
  refine (eq_trans (f_equal (fun s => @ellipsoid_from KF (S i) s (repeat fzero d)) E) _). apply IH. lia.
Qed.
Lemma rosenbrock_from_one d : @rosenbrock_from KF fzero (fofZ 1) (repeat (fofZ 1) d) = fzero.
Proof.
  induction d as [|d IH]; cbn [repeat rosenbrock_from]; [reflexivity|].
  assert (E : fadd fzero (fadd (fmul (fofZ 100) (let z := fsub (fofZ 1) (fmul (fofZ 1) (fofZ 1)) in fmul z z)) (let z := fsub (fofZ 1) (fofZ 1) in fmul z z)) = fzero) by f64_compute.
  refine (eq_trans (f_equal (fun s => @rosenbrock_from KF s (fofZ 1) (repeat (fofZ 1) d)) E) IH).
Qed.
Theorem C59_optimum_exact : forall d,
  @sphere KF (repeat fzero d) = fzero /\
  ((Z.of_nat d <= 2 ^ 53)%Z -> @ellipsoid KF (repeat fzero d) = fzero) /\
  (d <> 0 -> @rosenbrock KF (repeat (fofZ 1) d) = Ok fzero) /\
  @himmelblau KF [fofZ 3; fofZ 2] = Ok fzero.
Proof.
  intros d. split; [|split; [|split]].
  - unfold sphere. induction d as [|d IH]; [reflexivity|]. exact IH.
  - intros H. apply ellipsoid_from_zero. exact H.
  - intros H. destruct d as [|d]; [congruence|]. cbn [repeat rosenbrock]. apply f_equal. apply rosenbrock_from_one.
  - cbn [himmelblau]. apply f_equal. f64_compute.
Qed.

(** ** The constructed objectives *)
(** [fo] minimizes [f] over [d] parameters named 0 .. d-1 with these start values and bounds. *)
Definition benchmark (fo : function_objective) (name : string) (f : list f64 -> outcome f64) (d : nat) (mean stdev lower upper : f64) : Prop :=
  generated (fo_info fo) d (fun _ => (mean, stdev, lower, upper)) /\ oi_name (fo_info fo) = name /\ fo_func fo = f.
Lemma make_function_objective_spec f d m s lo hi name : fle fzero s = true -> fle lo m = true -> fle m hi = true ->
  exists fo, make_function_objective f d m s lo hi name = Ok fo /\ benchmark fo name f d m s lo hi.
Proof.
  intros H1 H2 H3. destruct (C57_make_objective_info d m s lo hi) as (G & (_ & Hex) & _).
  destruct Hex as (o & Ho); [right; auto|]. unfold make_function_objective. rewrite Ho. cbn [obind]. eexists. split; [reflexivity|].
  specialize (G o Ho). split; [exact G|]. split; reflexivity.
Qed.
Lemma benchmark_feasible fo name f d m s lo hi x : benchmark fo name f d m s lo hi ->
  fle lo x = true -> fle x hi = true -> is_feasible (fo_info fo) (repeat x d) = Ok true.
Proof.
  intros ((Hd & _ & _ & _ & _ & G) & _) Hlo Hhi. unfold is_feasible, oi_dim in *. 
  assert (B : forall p, In p (oi_free (fo_info fo)) -> pi_min p = lo /\ pi_max p = hi).
  { intros p Hp. apply In_nth_error in Hp as (i & Hi). assert (Hl : i < d) by (rewrite <- Hd; apply nth_error_Some; congruence).
    destruct (G i Hl) as (E & _). rewrite E in Hi. injection Hi as <-. auto. }
  clear G. revert d Hd. induction (oi_free (fo_info fo)) as [|p t IH]; intros d Hd; cbn [feasible_list]; [reflexivity|].
  cbn [length] in Hd. subst d. cbn [repeat]. destruct (B p (or_introl eq_refl)) as [-> ->].
  assert (fgt x hi = false) as ->.
  { unfold fgt. rewrite flt_key. rewrite fle_key in Hhi. apply andb_prop in Hhi as [A Hk]. apply andb_prop in A as [-> ->]. cbn. apply Z.ltb_ge. now apply Z.leb_le. }
  assert (flt x lo = false) as ->.
  { rewrite flt_key. rewrite fle_key in Hlo. apply andb_prop in Hlo as [A Hk]. apply andb_prop in A as [-> ->]. cbn. apply Z.ltb_ge. now apply Z.leb_le. }
  cbn [orb]. apply IH; [|reflexivity]. intros q Hq. apply B. now right.
Qed.
Definition tenths (n : Z) : f64 := flit n (-1).
(** The benchmark objectives: name, dimension, start values and range as documented
    (test_objectives.h), for every dimension; the documented optimum is in range and,
    where it is exact, evaluates to exactly zero. *)
Theorem C59_objectives : forall (pi : f64) d,
  (forall mean stdev, fle fzero stdev = true -> fle (flit (-1) 9) mean = true -> fle mean (flit 1 9) = true ->
     (exists fo, make_sphere_objective L d mean stdev = Ok fo /\
        benchmark fo ("sphere-" ++ show_nat d)%string (fun v => Ok (@sphere KF v)) d mean stdev (flit (-1) 9) (flit 1 9) /\
        is_feasible (fo_info fo) (repeat fzero d) = Ok true /\ fo_func fo (repeat fzero d) = Ok fzero) /\
     (exists fo, make_ellipsoid_objective L d mean stdev = Ok fo /\
        benchmark fo ("ellipsoid-" ++ show_nat d)%string (fun v => Ok (@ellipsoid KF v)) d mean stdev (flit (-1) 9) (flit 1 9) /\
        is_feasible (fo_info fo) (repeat fzero d) = Ok true /\
        ((Z.of_nat d <= 2 ^ 53)%Z -> fo_func fo (repeat fzero d) = Ok fzero))) /\
  (exists fo, make_himmelblau_objective L = Ok fo /\
     benchmark fo "himmelblau" (@himmelblau KF) 2 (fofZ 0) (tenths 25) (fofZ (-5)) (fofZ 5) /\
     is_feasible (fo_info fo) [fofZ 3; fofZ 2] = Ok true /\ fo_func fo [fofZ 3; fofZ 2] = Ok fzero) /\
  (exists fo, make_rosenbrock_objective L d = Ok fo /\
     benchmark fo ("rosenbrock-" ++ show_nat d)%string (@rosenbrock KF) d (tenths 25) (fofZ 1) (fofZ (-5)) (fofZ 10) /\
     is_feasible (fo_info fo) (repeat (fofZ 1) d) = Ok true /\ (d <> 0 -> fo_func fo (repeat (fofZ 1) d) = Ok fzero)) /\
  (exists fo, make_schwefel_objective L d = Ok fo /\
     benchmark fo ("schwefel-" ++ show_nat d)%string (fun v => Ok (@schwefel KF v)) d (fofZ 0) (fofZ 100) (fofZ (-500)) (fofZ 500) /\
     is_feasible (fo_info fo) (repeat (flit 4209678 (-4)) d) = Ok true) /\
  (exists fo, make_rastrigin_objective L pi d = Ok fo /\
     benchmark fo ("rastrigin-" ++ show_nat d)%string (fun v => Ok (@rastrigin KF pi v)) d (fofZ 0) (fofZ 1) (flit (-512) (-2)) (flit 512 (-2)) /\
     is_feasible (fo_info fo) (repeat fzero d) = Ok true).
Proof.
  intros pi d. split; [|split; [|split; [|split]]].
  - intros m s Hs Hl Hh. split.
    + destruct (make_function_objective_spec (fun v => Ok (@sphere KF v)) d m s (flit (-1) 9) (flit 1 9) ("sphere-" ++ show_nat d)%string Hs Hl Hh) as (fo & E & B).
      exists fo. split; [exact E|]. split; [exact B|]. split; [apply (benchmark_feasible _ _ _ _ _ _ _ _ fzero B); vm_compute; reflexivity|].
      destruct B as (_ & _ & ->). apply f_equal. apply C59_optimum_exact.
    + destruct (make_function_objective_spec (fun v => Ok (@ellipsoid KF v)) d m s (flit (-1) 9) (flit 1 9) ("ellipsoid-" ++ show_nat d)%string Hs Hl Hh) as (fo & E & B).
      exists fo. split; [exact E|]. split; [exact B|]. split; [apply (benchmark_feasible _ _ _ _ _ _ _ _ fzero B); vm_compute; reflexivity|].
      intros Hd. destruct B as (_ & _ & ->). apply f_equal. now apply C59_optimum_exact.
  - destruct (make_function_objective_spec (@himmelblau KF) 2 (fofZ 0) (tenths 25) (fofZ (-5)) (fofZ 5) "himmelblau" ltac:(vm_compute; reflexivity) ltac:(vm_compute; reflexivity) ltac:(vm_compute; reflexivity)) as (fo & E & B).
    exists fo. split; [exact E|]. split; [exact B|]. split.
    + destruct B as ((Hd & _ & _ & _ & _ & G) & _). destruct (G 0 ltac:(lia)) as (E0 & _). destruct (G 1 ltac:(lia)) as (E1 & _).
      unfold oi_dim in Hd. unfold is_feasible. destruct (oi_free (fo_info fo)) as [|p [|q [|]]]; try discriminate Hd.
      cbn [nth_error] in E0, E1. injection E0 as ->. injection E1 as ->. vm_compute. reflexivity.
    + destruct B as (_ & _ & ->). exact (proj2 (proj2 (proj2 (C59_optimum_exact d)))).
  - destruct (make_function_objective_spec (@rosenbrock KF) d (tenths 25) (fofZ 1) (fofZ (-5)) (fofZ 10) ("rosenbrock-" ++ show_nat d)%string ltac:(vm_compute; reflexivity) ltac:(vm_compute; reflexivity) ltac:(vm_compute; reflexivity)) as (fo & E & B).
    exists fo. split; [exact E|]. split; [exact B|]. split; [apply (benchmark_feasible _ _ _ _ _ _ _ _ (fofZ 1) B); vm_compute; reflexivity|].
    intros Hd. destruct B as (_ & _ & ->). now apply C59_optimum_exact.
  - destruct (make_function_objective_spec (fun v => Ok (@schwefel KF v)) d (fofZ 0) (fofZ 100) (fofZ (-500)) (fofZ 500) ("schwefel-" ++ show_nat d)%string ltac:(vm_compute; reflexivity) ltac:(vm_compute; reflexivity) ltac:(vm_compute; reflexivity)) as (fo & E & B).
    exists fo. split; [exact E|]. split; [exact B|]. apply (benchmark_feasible _ _ _ _ _ _ _ _ (flit 4209678 (-4)) B); vm_compute; reflexivity.
  - destruct (make_function_objective_spec (fun v => Ok (@rastrigin KF pi v)) d (fofZ 0) (fofZ 1) (flit (-512) (-2)) (flit 512 (-2)) ("rastrigin-" ++ show_nat d)%string ltac:(vm_compute; reflexivity) ltac:(vm_compute; reflexivity) ltac:(vm_compute; reflexivity)) as (fo & E & B).
    exists fo. split; [exact E|]. split; [exact B|]. apply (benchmark_feasible _ _ _ _ _ _ _ _ fzero B); vm_compute; reflexivity.
Qed.
(** make_objectives: four objectives per dimension, in this order. *)
Theorem C59_make_objectives : forall (pi : f64) dims, exists objs, make_objectives L pi dims = Ok objs /\
  map (fun fo => oi_name (fo_info fo)) objs =
    flat_map (fun d => ["sphere-" ++ show_nat d; "rosenbrock-" ++ show_nat d; "rastrigin-" ++ show_nat d; "schwefel-" ++ show_nat d]%string) dims /\
  map (fun fo => oi_dim (fo_info fo)) objs = flat_map (fun d => [d; d; d; d]) dims.
Proof.
  intros pi dims. unfold make_objectives.
  induction dims as [|d t (objs & E & N & D)]; [exists []; repeat split; reflexivity|].
  destruct (C59_objectives pi d) as (HS & _ & HR & HW & HA).
  destruct (HS (fofZ 0) (fofZ 1) ltac:(vm_compute; reflexivity) ltac:(vm_compute; reflexivity) ltac:(vm_compute; reflexivity)) as ((fs & Es & ((Ds & _) & Ns & _) & _) & _).
  destruct HR as (fr & Er & ((Dr & _) & Nr & _) & _). destruct HW as (fw & Ew & ((Dw & _) & Nw & _) & _). destruct HA as (fa & Ea & ((Da & _) & Na & _) & _).
  cbn [omap]. rewrite Es, Er, Ew, Ea. cbn [obind].
  apply obind_Ok in E as (ll & E1 & E2). rewrite E1. cbn [obind]. injection E2 as E2.
  exists ([fs; fr; fa; fw] ++ concat ll). split; [reflexivity|]. rewrite E2. cbn [app map flat_map]. rewrite N, D, Ns, Nr, Nw, Na, Ds, Dr, Dw, Da. auto.
Qed.
End Libm.

(** Without data the mean squared error is 0/0. *)
Theorem C55_data_objective_without_data_refuted : forall L (input : Type) model,
  @data_evaluate (numF L) input 0 model [] [] = Ok fnan.
Proof. intros. unfold data_evaluate. cbn [length Nat.eqb negb error_if obind fold_left]. apply f_equal. f64_compute. Qed.
