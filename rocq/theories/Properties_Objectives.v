(** * C55: optima of the benchmark functions and of data objectives, in exact arithmetic *)
From Coq Require Import ZArith Bool Reals Lra Psatz.
From Flocq Require Import Core.
From Verif Require Import Prelude Flt ObjInfo Num MathTools Objectives Properties_Stats.
#[local] Open Scope R_scope.

Lemma Rsum_map_nonneg {A} (f : A -> R) l : (forall x, In x l -> 0 <= f x) -> 0 <= Rsum (map f l).
Proof. intros H. apply Rsum_nonneg, Forall_map, Forall_forall. exact H. Qed.
Lemma Rsum_map_zero {A} (f : A -> R) l : (forall x, In x l -> 0 <= f x) -> (Rsum (map f l) = 0 <-> forall x, In x l -> f x = 0).
Proof.
  intros H. split.
  - intros E. apply Rsum_zero in E; [|now apply Forall_map, Forall_forall]. apply Forall_map in E. now apply Forall_forall.
  - intros E. apply Rsum_all_zero. apply Forall_map, Forall_forall. exact E.
Qed.

(** ** Sphere *)
Lemma sphere_R (v : list R) : @sphere numR v = Rsum (map (fun x => x ^ 2) v).
Proof.
  unfold sphere. refine (eq_trans (fold_plus_R (fun x => @sq numR x) v _) _). cbn [nofZ numR].
  rewrite Rplus_0_l. apply f_equal, map_ext. intros x. unfold sq. cbn [nmul numR]. ring.
Qed.
Theorem C55_sphere : forall v : list R,
  @sphere numR v = Rsum (map (fun x => x ^ 2) v) /\
  0 <= @sphere numR v /\ (@sphere numR v = 0 <-> v = repeat 0 (length v)).
Proof.
  intros v. rewrite sphere_R. split; [reflexivity|]. split; [apply Rsum_map_nonneg; intros; apply pow2_ge_0|].
  rewrite (Rsum_map_zero (fun x => x ^ 2)) by (intros; apply pow2_ge_0). split.
  - intros H. apply Forall_eq_repeat. apply Forall_forall. intros x Hx. specialize (H x Hx). symmetry. apply Rsqr_0_uniq. unfold Rsqr. cbn in H. lra.
  - intros H x Hx. rewrite H in Hx. apply repeat_spec in Hx. subst x. cbn. lra.
Qed.

(** ** Ellipsoid *)
Definition weighted (v : list R) : list R := map (fun i => INR (i + 1) * nth i v 0 ^ 2) (seq 0 (length v)).
Lemma ellipsoid_from_R v : forall i s, @ellipsoid_from numR i s v = s + Rsum (map (fun k => INR (i + k + 1) * nth k v 0 ^ 2) (seq 0 (length v))).
Proof.
  induction v as [|x t IH]; intros i s; cbn [ellipsoid_from length seq map Rsum fold_right].
  - symmetry. apply Rplus_0_r.
  - refine (eq_trans (IH (S i) _) _). cbn [nth nadd nmul numR]. rewrite <- (seq_shift (length t) 0), map_map.
    change (fold_right Rplus 0) with Rsum.
    assert (E : @nsize numR (i + 1) = INR (i + 0 + 1)) by (unfold nsize; cbn [nofZ numR]; now rewrite <- INR_IZR_INZ, Nat.add_0_r).
    rewrite E. unfold sq. cbn [nmul numR].
    change (nT numR) with R in *.
    assert (Q : map (fun x0 => INR (i + S x0 + 1) * nth x0 t 0 ^ 2) (seq 0 (length t)) = map (fun k => INR (S i + k + 1) * nth k t 0 ^ 2) (seq 0 (length t)))
      by (apply map_ext; intros k; cbv beta; replace (i + S k + 1)%nat with (S i + k + 1)%nat by lia; reflexivity).
    rewrite Q. ring.
Qed.
Theorem C55_ellipsoid : forall v : list R,
  @ellipsoid numR v = Rsum (weighted v) /\
  0 <= @ellipsoid numR v /\ (@ellipsoid numR v = 0 <-> v = repeat 0 (length v)).
Proof.
  intros v. assert (E : @ellipsoid numR v = Rsum (weighted v)).
  { unfold ellipsoid. refine (eq_trans (ellipsoid_from_R v 0 _) _). apply Rplus_0_l. }
  rewrite E. split; [reflexivity|].
  assert (P : forall i, In i (seq 0 (length v)) -> 0 <= INR (i + 1) * nth i v 0 ^ 2) by (intros i _; apply Rmult_le_pos; [apply pos_INR|apply pow2_ge_0]).
  split; [now apply Rsum_map_nonneg|].
  unfold weighted. rewrite Rsum_map_zero by exact P. split.
  - intros H. apply nth_ext with 0 0; [now rewrite repeat_length|]. intros k Hk. rewrite nth_repeat'.
    specialize (H k (proj2 (in_seq _ _ _) (conj (Nat.le_0_l _) Hk))). apply Rmult_integral in H as [H|H].
    + exfalso. assert (0 < INR (k + 1)) by (apply lt_0_INR; lia). lra.
    + apply Rsqr_0_uniq. unfold Rsqr. cbn in H. lra.
  - intros H k _. rewrite H. rewrite nth_repeat'. cbn. lra.
Qed.

(** ** Rosenbrock *)
Lemma rosenbrock_from_R t : forall x s, @rosenbrock_from numR s x t =
  s + Rsum (map (fun ab => 100 * (snd ab - fst ab ^ 2) ^ 2 + (1 - fst ab) ^ 2) (combine (x :: t) t)).
Proof.
  induction t as [|y t IH]; intros x s; cbn [rosenbrock_from].
  - symmetry. apply Rplus_0_r.
  - refine (eq_trans (IH y _) _). set (f := fun ab : R * R => 100 * (snd ab - fst ab ^ 2) ^ 2 + (1 - fst ab) ^ 2).
    change (combine (x :: y :: t) (y :: t)) with ((x, y) :: combine (y :: t) t). cbn [map Rsum fold_right]. change (fold_right Rplus 0) with Rsum.
    unfold sq. cbn [nadd nmul nsub nofZ numR]. unfold f at 2. cbn [fst snd]. change (nT numR) with R in *. ring.
Qed.
(** The sum over neighbouring coordinates. *)
Definition neighbours (v : list R) : list (R * R) := combine v (tl v).
Theorem C55_rosenbrock : forall v : list R, v <> [] ->
  exists f, @rosenbrock numR v = Ok f /\
    f = Rsum (map (fun ab => 100 * (snd ab - fst ab ^ 2) ^ 2 + (1 - fst ab) ^ 2) (neighbours v)) /\
    0 <= f /\
    (v = repeat 1 (length v) -> f = 0) /\
    ((2 <= length v)%nat -> f = 0 -> v = repeat 1 (length v)).
Proof.
  intros [|x t] Hne; [congruence|]. cbn [rosenbrock]. eexists. split; [reflexivity|].
  assert (E : @rosenbrock_from numR 0 x t = Rsum (map (fun ab => 100 * (snd ab - fst ab ^ 2) ^ 2 + (1 - fst ab) ^ 2) (neighbours (x :: t))))
    by (refine (eq_trans (rosenbrock_from_R t x 0) _); apply Rplus_0_l).
  cbn [nofZ numR]. rewrite E. split; [reflexivity|].
  assert (P : forall ab, In ab (neighbours (x :: t)) -> 0 <= 100 * (snd ab - fst ab ^ 2) ^ 2 + (1 - fst ab) ^ 2)
    by (intros ab _; pose proof (pow2_ge_0 (snd ab - fst ab ^ 2)); pose proof (pow2_ge_0 (1 - fst ab)); lra).
  split; [now apply Rsum_map_nonneg|]. rewrite (Rsum_map_zero (fun ab => 100 * (snd ab - fst ab ^ 2) ^ 2 + (1 - fst ab) ^ 2)) by exact P. split.
  - intros Hv ab Hin.
    assert (Ha : fst ab = 1) by (destruct ab as [a b]; apply in_combine_l in Hin; rewrite Hv in Hin; now apply repeat_spec in Hin).
    assert (Hb : snd ab = 1).
    { destruct ab as [a b]. apply in_combine_r in Hin. cbn [tl] in Hin. cbn [length repeat] in Hv. injection Hv as _ Hv. rewrite Hv in Hin. now apply repeat_spec in Hin. }
    rewrite Ha, Hb. ring.
  - intros Hl H.
    assert (Z : forall a b, In (a, b) (neighbours (x :: t)) -> a = 1 /\ b = 1).
    { intros a b Hin. specialize (H _ Hin). cbn [fst snd] in H. pose proof (pow2_ge_0 (b - a ^ 2)) as H1. pose proof (pow2_ge_0 (1 - a)) as H2.
      assert (A : (1 - a) ^ 2 = 0) by lra. assert (B : (b - a ^ 2) ^ 2 = 0) by lra.
      assert (1 - a = 0) by (apply Rsqr_0_uniq; unfold Rsqr; cbn in A; lra). assert (a = 1) by lra. subst a.
      assert (b - 1 ^ 2 = 0) by (apply Rsqr_0_uniq; unfold Rsqr; cbn in B |- *; lra). split; lra. }
    clear - Z Hl. revert x Z Hl. induction t as [|y t IH]; intros x Z Hl; cbn [length] in *; [lia|].
    destruct (Z x y (or_introl eq_refl)) as [Hx Hy]. cbn [repeat]. f_equal; [exact Hx|].
    destruct t as [|z t]; [cbn; now rewrite Hy|]. apply (IH y); [|cbn [length]; lia].
    intros a b Hin. apply Z. right. exact Hin.
Qed.
(** In one dimension it is constantly zero: the documented optimum is not the only one. *)
Theorem C55_rosenbrock_1d_unique_refuted : forall x : R, @rosenbrock numR [x] = Ok 0.
Proof. reflexivity. Qed.
(** For no parameters the loop bound wraps around. *)
Theorem C55_rosenbrock_0d_refuted : @rosenbrock numR [] = Undef.
Proof. reflexivity. Qed.

(** ** Rastrigin *)
Theorem C55_rastrigin : forall v : list R,
  @rastrigin numR PI v = Rsum (map (fun x => 10 + x ^ 2 - 10 * cos (2 * PI * x)) v) /\
  0 <= @rastrigin numR PI v /\ (@rastrigin numR PI v = 0 <-> v = repeat 0 (length v)).
Proof.
  intros v.
  assert (E : @rastrigin numR PI v = Rsum (map (fun x => 10 + x ^ 2 - 10 * cos (2 * PI * x)) v)).
  { unfold rastrigin. refine (eq_trans (fold_plus_R (fun x => @sq numR x - 10 * cos (2 * PI * x)) v _) _).
    cbn [nofZ nmul numR]. assert (En : @nsize numR (@length (nT numR) v) = INR (@length R v)) by (unfold nsize; cbn [nofZ numR]; now rewrite <- INR_IZR_INZ).
    rewrite En. clear En. induction v as [|x t IH]; [cbn; ring|]. cbn [map Rsum fold_right length]. change (fold_right Rplus 0) with Rsum. rewrite S_INR, <- IH.
    unfold sq. cbn [nmul numR]. change (nT numR) with R in *. ring. }
  assert (P : forall x, In x v -> 0 <= 10 + x ^ 2 - 10 * cos (2 * PI * x)).
  { intros x _. pose proof (pow2_ge_0 x). pose proof (proj2 (COS_bound (2 * PI * x))). lra. }
  rewrite E. split; [reflexivity|]. split; [now apply Rsum_map_nonneg|].
  rewrite (Rsum_map_zero (fun x => 10 + x ^ 2 - 10 * cos (2 * PI * x))) by exact P. split.
  - intros H. apply Forall_eq_repeat, Forall_forall. intros x Hx. specialize (H x Hx). cbv beta in H.
    pose proof (pow2_ge_0 x). pose proof (proj2 (COS_bound (2 * PI * x))). assert (A : x ^ 2 = 0) by lra.
    symmetry. apply Rsqr_0_uniq. unfold Rsqr. cbn in A. lra.
  - intros H x Hx. rewrite H in Hx. apply repeat_spec in Hx. subst x. rewrite Rmult_0_r, cos_0. ring.
Qed.

(** ** Himmelblau *)
Definition cubic (x : R) : R := x ^ 3 + 3 * x ^ 2 - 13 * x - 38.
Lemma cubic_root lo hi : lo <= hi -> cubic lo * cubic hi <= 0 -> exists x, lo <= x <= hi /\ cubic x = 0.
Proof.
  intros H1 H2. destruct (IVT_cor cubic lo hi) as (z & Hz & E); [unfold cubic; reg|exact H1|exact H2|]. eauto.
Qed.
Lemma cubic_roots x1 x2 x3 : x1 <> x2 -> x1 <> x3 -> x2 <> x3 -> cubic x1 = 0 -> cubic x2 = 0 -> cubic x3 = 0 ->
  forall x, cubic x = 0 -> x = x1 \/ x = x2 \/ x = x3.
Proof.
  unfold cubic. intros D12 D13 D23 E1 E2 E3 x E.
  assert (Q : forall y, y <> x1 -> y ^ 3 + 3 * y ^ 2 - 13 * y - 38 = 0 -> y ^ 2 + y * x1 + x1 ^ 2 + 3 * (y + x1) - 13 = 0).
  { intros y Hy Ey. assert (Z : (y - x1) * (y ^ 2 + y * x1 + x1 ^ 2 + 3 * (y + x1) - 13) = 0) by (ring_simplify; lra).
    apply Rmult_integral in Z as [Z|Z]; [exfalso; apply Hy; lra|exact Z]. }
  assert (Q2 := Q x2 (not_eq_sym D12) E2). assert (Q3 := Q x3 (not_eq_sym D13) E3).
  assert (S : x3 = -3 - x1 - x2).
  { assert (Z : (x3 - x2) * (x3 + x2 + x1 + 3) = 0) by (ring_simplify; lra). apply Rmult_integral in Z as [Z|Z]; [exfalso; apply D23; lra|lra]. }
  destruct (Req_dec x x1) as [|N]; [now left|]. right. assert (Qx := Q x N E).
  assert (Z : (x - x2) * (x + x2 + x1 + 3) = 0) by (ring_simplify; lra). apply Rmult_integral in Z as [Z|Z]; [left|right]; lra.
Qed.
(** Two numbers agree to the six documented decimals (test_objectives.h:17). *)
Definition documented (x d : R) : Prop := Rabs (x - d) <= 1 / 10 ^ 6.
Theorem C55_himmelblau : 
  (forall x y rest, exists f : R, @himmelblau numR (x :: y :: rest) = Ok f /\ f = (x ^ 2 + y - 11) ^ 2 + (x + y ^ 2 - 7) ^ 2 /\ 0 <= f) /\
  (exists x2 y2 x3 y3 x4 y4,
     documented x2 (-2805118 / 10 ^ 6) /\ documented y2 (3131312 / 10 ^ 6) /\
     documented x3 (-3779310 / 10 ^ 6) /\ documented y3 (-3283186 / 10 ^ 6) /\
     documented x4 (3584428 / 10 ^ 6) /\ documented y4 (-1848126 / 10 ^ 6) /\
     forall x y, @himmelblau numR [x; y] = Ok 0 <->
       (x, y) = (3, 2) \/ (x, y) = (x2, y2) \/ (x, y) = (x3, y3) \/ (x, y) = (x4, y4)).
Proof.
  assert (F : forall x y (rest : list R), @himmelblau numR (x :: y :: rest) = Ok ((x ^ 2 + y - 11) ^ 2 + (x + y ^ 2 - 7) ^ 2)).
  { intros x y rest. cbn [himmelblau]. f_equal. unfold sq. cbn [nadd nmul nsub nofZ numR]. change (nT numR) with R in *. ring. }
  split.
  - intros x y rest. eexists. split; [apply F|]. split; [reflexivity|]. pose proof (pow2_ge_0 (x ^ 2 + y - 11)). pose proof (pow2_ge_0 (x + y ^ 2 - 7)). lra.
  - destruct (cubic_root (-280511809 / 10 ^ 8) (-280511808 / 10 ^ 8)) as (x2 & B2 & E2); [lra|unfold cubic; lra|].
    destruct (cubic_root (-377931026 / 10 ^ 8) (-377931025 / 10 ^ 8)) as (x3 & B3 & E3); [lra|unfold cubic; lra|].
    destruct (cubic_root (358442834 / 10 ^ 8) (358442835 / 10 ^ 8)) as (x4 & B4 & E4); [lra|unfold cubic; lra|].
    exists x2, (11 - x2 ^ 2), x3, (11 - x3 ^ 2), x4, (11 - x4 ^ 2). unfold documented.
    split; [apply Rabs_le; lra|]. split; [apply Rabs_le; split; nra|].
    split; [apply Rabs_le; lra|]. split; [apply Rabs_le; split; nra|].
    split; [apply Rabs_le; lra|]. split; [apply Rabs_le; split; nra|].
    assert (Z : forall x y, @himmelblau numR [x; y] = Ok 0 <-> y = 11 - x ^ 2 /\ (x - 3) * cubic x = 0).
    { intros x y. rewrite F. split.
      - intros H. assert (H' : (x ^ 2 + y - 11) ^ 2 + (x + y ^ 2 - 7) ^ 2 = 0) by exact (f_equal (fun o => match o with Ok a => a | _ => 0 end) H).
        pose proof (pow2_ge_0 (x ^ 2 + y - 11)). pose proof (pow2_ge_0 (x + y ^ 2 - 7)).
        assert (A : x ^ 2 + y - 11 = 0) by (apply Rsqr_0_uniq; unfold Rsqr; lra).
        assert (B : x + y ^ 2 - 7 = 0) by (apply Rsqr_0_uniq; unfold Rsqr; lra).
        assert (y = 11 - x ^ 2) by lra. subst y. split; [reflexivity|]. unfold cubic. ring_simplify. ring_simplify in B. lra.
      - intros [-> H]. unfold cubic in H. assert (B : x + (11 - x ^ 2) ^ 2 - 7 = 0) by (ring_simplify in H; ring_simplify; lra).
        rewrite B. apply (f_equal (@Ok R)). ring. }
    intros x y. rewrite Z. split.
    + intros [-> H]. apply Rmult_integral in H as [H|H].
      * left. assert (x = 3) by lra. subst x. f_equal. ring.
      * right. destruct (cubic_roots x2 x3 x4) with (x := x) as [->|[->| ->]]; try assumption; try (apply Rgt_not_eq; lra); try (apply Rlt_not_eq; lra); tauto.
    + intros [H|[H|[H|H]]]; injection H as -> ->; (split; [try reflexivity; change (nT numR) with R in *; ring|]); rewrite ?E2, ?E3, ?E4; ring.
Qed.
(** It reads two parameters. *)
Theorem C55_himmelblau_needs_two_refuted : forall x : R, @himmelblau numR [x] = Undef.
Proof. reflexivity. Qed.

(** ** Data objectives *)
Theorem C55_data_objective : forall (input : Type) dim (model : list R -> input -> R) (data : list (input * R)) (p : list R),
  data <> [] ->
  (length p <> dim -> exists w, @data_evaluate numR input dim model data p = Throw w) /\
  (length p = dim -> exists f, @data_evaluate numR input dim model data p = Ok f /\
     f = pop_mean (map (fun xy => (model p (fst xy) - snd xy) ^ 2) data) /\ 0 <= f /\
     (f = 0 <-> forall x y, In (x, y) data -> model p x = y)).
Proof.
  intros input dim model data p Hne. unfold data_evaluate. split.
  - intros H. apply not_eq_sym, Nat.eqb_neq in H. eexists. exact (f_equal (fun b => obind (error_if (negb b) _) _) H).
  - intros H. pose proof (proj2 (Nat.eqb_eq _ _) (eq_sym H)) as Hb.
    refine (ex_intro _ _ (conj (f_equal (fun b => obind (error_if (negb b) _) _) Hb) _)). cbn [nofZ ndiv numR].
    assert (E : fold_left (fun result xy => @nadd numR result (@sq numR (@nsub numR (model p (fst xy)) (snd xy)))) data 0 = Rsum (map (fun xy => (model p (fst xy) - snd xy) ^ 2) data)).
    { refine (eq_trans (fold_plus_R (fun xy => @sq numR (model p (fst xy) - snd xy)) data _) _). rewrite Rplus_0_l.
      apply f_equal, map_ext. intros xy. unfold sq. cbn [nmul numR]. ring. }
    rewrite E. assert (En : @nsize numR (@length (input * nT numR) data) = INR (length data)) by (unfold nsize; cbn [nofZ numR]; now rewrite <- INR_IZR_INZ).
    rewrite En. unfold pop_mean. rewrite map_length. split; [reflexivity|].
    assert (Hn : 0 < INR (length data)) by (apply lt_0_INR; destruct data; [congruence|cbn; lia]).
    assert (P : forall xy, In xy data -> 0 <= (model p (fst xy) - snd xy) ^ 2) by (intros; apply pow2_ge_0).
    split; [apply Rmult_le_pos; [now apply Rsum_map_nonneg|left; now apply Rinv_0_lt_compat]|].
    split.
    + intros Z x y Hin. apply Rmult_integral in Z as [Z|Z]; [|exfalso; apply Rinv_0_lt_compat in Hn; lra].
      rewrite (Rsum_map_zero (fun xy => (model p (fst xy) - snd xy) ^ 2)) in Z by exact P. specialize (Z _ Hin). cbn [fst snd] in Z.
      assert (model p x - y = 0) by (apply Rsqr_0_uniq; unfold Rsqr; lra). lra.
    + intros Hfit. replace (Rsum _) with 0; [change (nT numR) with R in *; unfold Rdiv; ring|]. symmetry.
      apply (Rsum_map_zero (fun xy => (model p (fst xy) - snd xy) ^ 2)); [exact P|]. intros [x y] Hin. cbn [fst snd]. rewrite (Hfit x y Hin). ring.
Qed.
Example C55_data_example : @data_evaluate numR R 2 (fun p x => nth 0 p 0 + nth 1 p 0 * x) [(0, 1); (1, 3)] [1; 2] = Ok 0.
Proof.
  destruct (C55_data_objective R 2 (fun p x => nth 0 p 0 + nth 1 p 0 * x) [(0, 1); (1, 3)] [1; 2]) as [_ H]; [discriminate|].
  destruct (H eq_refl) as (f & E & _ & _ & Z). refine (eq_trans E (f_equal (@Ok R) _)). apply Z. intros x y [Q|[Q|[]]]; injection Q as <- <-; cbn; ring.
Qed.
