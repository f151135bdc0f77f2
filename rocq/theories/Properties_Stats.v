(** * C54: population statistics and vector geometry, in exact arithmetic *)
From Coq Require Import ZArith Bool Reals Lra Psatz.
From Flocq Require Import Core.
From Verif Require Import Prelude Flt Num MathTools Objectives.
#[local] Open Scope R_scope.

(** ** The specification *)
Definition Rsum (l : list R) : R := fold_right Rplus 0 l.
(** The values of coordinate [i] in a population. *)
Definition column (pop : list (list R)) (i : nat) : list R := map (fun p => nth i p 0) pop.
Definition pop_mean (l : list R) : R := Rsum l / INR (length l).
Definition pop_variance (l : list R) : R := Rsum (map (fun x => (x - pop_mean l) ^ 2) l) / INR (length l).
(** The point [a + t * ab] of a line. *)
Definition on_line (a ab : list R) (t : R) : list R := map (fun xy => fst xy + t * snd xy) (combine a ab).
(** Squared Euclidean distance and inner product. *)
Definition dist2 (p q : list R) : R := Rsum (map (fun xy => (fst xy - snd xy) ^ 2) (combine p q)).
Definition inner (p q : list R) : R := Rsum (map (fun xy => fst xy * snd xy) (combine p q)).

(** ** Facts *)
Lemma fold_plus_R {A} (f : A -> R) l s : fold_left (fun s x => s + f x) l s = s + Rsum (map f l).
Proof.
  revert s. induction l as [|x t IH]; intros s; cbn [fold_left map Rsum fold_right]; [lra|].
  rewrite IH. unfold Rsum. lra.
Qed.
Lemma nsum_R (l : list R) : @nsum numR l = Rsum l.
Proof.
  unfold nsum. cbn [nadd nofZ numR nT]. rewrite (fold_plus_R (fun x => x)). rewrite map_id. lra.
Qed.
Lemma Rsum_nonneg l : Forall (fun x => 0 <= x) l -> 0 <= Rsum l.
Proof. induction 1; cbn; [lra|]. fold (Rsum l). lra. Qed.
Lemma Rsum_zero l : Forall (fun x => 0 <= x) l -> Rsum l = 0 -> Forall (fun x => x = 0) l.
Proof.
  induction 1 as [|x t Hx Ht IH]; intros H; constructor; cbn in H; fold (Rsum t) in H; pose proof (Rsum_nonneg t Ht); [lra|apply IH; lra].
Qed.
Lemma Rsum_all_zero l : Forall (fun x => x = 0) l -> Rsum l = 0.
Proof. induction 1; cbn; [lra|]. fold (Rsum l). lra. Qed.
Lemma Rsum_div l n : Rsum (map (fun x => x / n) l) = Rsum l / n.
Proof. induction l as [|x t IH]; cbn; [unfold Rdiv; lra|]. fold (Rsum t). fold (Rsum (map (fun x => x / n) t)). rewrite IH. unfold Rdiv. lra. Qed.
Lemma dist2_nonneg p q : 0 <= dist2 p q.
Proof. apply Rsum_nonneg. apply Forall_map. apply Forall_forall. intros x _. apply pow2_ge_0. Qed.
Lemma inner_self_nonneg p : 0 <= inner p p.
Proof.
  unfold inner. apply Rsum_nonneg, Forall_map. induction p; cbn; constructor; auto. cbn. nra.
Qed.

(** ** compute_mean_std *)
Definition same_dim (pop : list (list R)) (d : nat) : Prop := Forall (fun p => length p = d) pop.

Lemma accumulate_R (g : nat -> R -> R) ind : forall acc i, length ind = length acc ->
  @accumulate numR g i acc ind = Ok (map (fun k => nth k acc 0 + g (i + k)%nat (nth k ind 0)) (seq 0 (length acc))).
Proof.
  induction ind as [|x t IH]; intros [|a acc] i; cbn [length accumulate]; try discriminate; [reflexivity|].
  intros [= H]. pose proof (IH acc (S i) H) as E.
  refine (eq_trans (f_equal (fun o => obind o _) E) _). cbn [obind seq map nth]. rewrite Nat.add_0_r. f_equal. cbn [nadd numR].
  apply (f_equal2 (@cons R)); [reflexivity|]. rewrite <- (seq_shift (length acc) 0), map_map. apply map_ext. intros k.
  cbn [nth]. rewrite Nat.add_succ_r. reflexivity.
Qed.
Lemma nth_map_seq (f : nat -> R) d k : (k < d)%nat -> nth k (map f (seq 0 d)) 0 = f k.
Proof.
  intros H. rewrite (nth_indep _ 0 (f 0%nat)) by (rewrite map_length, seq_length; lia). now rewrite map_nth, seq_nth.
Qed.
Lemma eq_map_seq (acc : list R) d f : length acc = d -> (forall k, (k < d)%nat -> nth k acc 0 = f k) -> acc = map f (seq 0 d).
Proof.
  intros H Hk. apply nth_ext with 0 0; [now rewrite map_length, seq_length|]. intros k Hl. rewrite nth_map_seq by lia. apply Hk. lia.
Qed.
Lemma accumulate_all_R (g : nat -> R -> R) pop d : same_dim pop d -> forall acc, length acc = d ->
  @accumulate_all numR g acc pop = Ok (map (fun k => nth k acc 0 + Rsum (map (g k) (column pop k))) (seq 0 d)).
Proof.
  induction 1 as [|p t Hp Ht IH]; intros acc Ha; cbn [accumulate_all].
  - apply f_equal. apply eq_map_seq; [exact Ha|]. intros k Hk. cbn. now rewrite Rplus_0_r.
  - refine (eq_trans (f_equal (fun o => obind o _) (accumulate_R g p acc 0 (eq_trans Hp (eq_sym Ha)))) _). cbn [obind].
    refine (eq_trans (IH _ _) _); [now rewrite map_length, seq_length|]. apply f_equal. apply map_ext_in. intros k Hk. apply in_seq in Hk.
    rewrite (nth_map_seq (fun k => nth k acc 0 + g (0 + k)%nat (nth k p 0))) by (refine (eq_ind_r (fun z => (k < z)%nat) _ Ha); lia). cbn. fold (Rsum (map (g k) (column t k))). rewrite Rplus_assoc. reflexivity.
Qed.
Lemma nth_repeat' (d k : nat) : nth k (repeat 0 d) 0 = 0.
Proof. revert k; induction d; intros [|k]; cbn; auto. Qed.

(** For every non-empty population of points of one dimension, of any size and
    dimension: entry [i] of the results is the population mean, resp. the population
    standard deviation, of coordinate [i]. *)
Theorem C54_compute_mean_std : forall (pop : list (list R)) d, pop <> [] -> same_dim pop d ->
  exists mean std, @compute_mean_std numR pop = Ok (mean, std) /\ length mean = d /\ length std = d /\
    forall i, (i < d)%nat ->
      nth i mean 0 = pop_mean (column pop i) /\
      nth i std 0 = R_sqrt.sqrt (pop_variance (column pop i)).
Proof.
  intros pop d Hne Hd.
  assert (Hcol : forall i, length (column pop i) = length pop) by (intros; apply map_length).
  assert (E1 : forall n : R, @accumulate_all numR (fun _ x => x / n) (repeat 0 d) pop = Ok (map (fun k => Rsum (column pop k) / n) (seq 0 d))).
  { intros n. refine (eq_trans (accumulate_all_R _ pop d Hd _ (repeat_length _ _)) _). apply f_equal, map_ext. intros k.
    rewrite nth_repeat', Rsum_div. lra. }
  pose (n := INR (length pop)).
  pose (mean := map (fun k => Rsum (column pop k) / n) (seq 0 d)).
  assert (Hm : forall i, (i < d)%nat -> nth i mean 0 = pop_mean (column pop i)).
  { intros i Hi. unfold mean. rewrite nth_map_seq by exact Hi. unfold pop_mean. now rewrite Hcol. }
  assert (E2 : @accumulate_all numR (fun i x => @sq numR (x - nth i mean 0) / n) (repeat 0 d) pop = Ok (map (fun k => pop_variance (column pop k)) (seq 0 d))).
  { refine (eq_trans (accumulate_all_R _ pop d Hd _ (repeat_length _ _)) _). apply f_equal, map_ext_in. intros k Hk. apply in_seq in Hk.
    rewrite nth_repeat', Hm by lia. unfold pop_variance. rewrite Hcol. fold n. rewrite <- Rsum_div, map_map.
    rewrite Rplus_0_l. apply f_equal, map_ext. intros x. unfold sq. cbn [nmul numR]. unfold Rdiv. ring. }
  exists mean, (map R_sqrt.sqrt (map (fun k => pop_variance (column pop k)) (seq 0 d))). split; [|split; [|split]].
  - destruct pop as [|p0 t]; [congruence|]. unfold compute_mean_std.
    assert (Hp0 : @length (nT numR) p0 = d) by (inversion Hd; assumption). rewrite Hp0.
    assert (En : @nsize numR (@length (list (nT numR)) (p0 :: t)) = n) by (unfold nsize, n; cbn [nofZ numR]; now rewrite <- INR_IZR_INZ).
    rewrite En. cbn [nofZ numR]. refine (eq_trans (f_equal (fun o => obind o _) (E1 n)) _). cbn [obind].
    refine (eq_trans (f_equal (fun o => obind o _) E2) _). reflexivity.
  - unfold mean. now rewrite map_length, seq_length.
  - now rewrite !map_length, seq_length.
  - intros i Hi. split; [now apply Hm|]. rewrite map_map. now rewrite (nth_map_seq (fun k => R_sqrt.sqrt (pop_variance (column pop k)))).
Qed.
(** The call needs a first point. *)
Theorem C54_mean_std_of_nothing_refuted : @compute_mean_std numR [] = Undef.
Proof. reflexivity. Qed.
Example C54_mean_std_example : exists mean std, @compute_mean_std numR [[1; 10]; [3; 10]] = Ok (mean, std) /\ mean = [2; 10] /\ std = [1; 0].
Proof.
  destruct (C54_compute_mean_std [[1; 10]; [3; 10]] 2) as (m & s & E & Lm & Ls & H); [discriminate|repeat constructor|].
  exists m, s. split; [exact E|]. destruct (H 0%nat ltac:(lia)) as (A0 & B0), (H 1%nat ltac:(lia)) as (A1 & B1).
  destruct m as [|m0 [|m1 [|]]]; try discriminate Lm. destruct s as [|s0 [|s1 [|]]]; try discriminate Ls.
  unfold pop_variance in *. cbn [nth column map] in A0, A1, B0, B1.
  assert (M0 : pop_mean [1; 3] = 2) by (unfold pop_mean; cbn; lra).
  assert (M1 : pop_mean [10; 10] = 10) by (unfold pop_mean; cbn; lra).
  rewrite M0 in *. rewrite M1 in *. cbn in B0, B1.
  split; [now rewrite A0, A1|]. rewrite B0, B1.
  replace ((_ + _) / _) with 1 by lra. replace ((_ + _) / _) with 0 by lra.
  now rewrite sqrt_1, sqrt_0.
Qed.

(** ** Lengths and distances *)
Theorem C54_length : forall v : list R, @vlength numR v = R_sqrt.sqrt (dist2 v (repeat 0 (length v))).
Proof.
  intros v. unfold vlength, dist2. rewrite nsum_R. cbn [nsqrt nmul numR]. do 2 f_equal.
  induction v as [|x t IH]; cbn [map length repeat combine]; [reflexivity|]. apply (f_equal2 (@cons R)); [cbn; ring|exact IH].
Qed.
Lemma map2_R (f : R -> R -> R) (a b : list R) : @map2 R R R f a b = map (fun xy => f (fst xy) (snd xy)) (combine a b).
Proof. reflexivity. Qed.
(** Distance with coordinate [i] measured in units of [sqrt var_i]. *)
Theorem C54_normalized_distance : forall a b var : list R, length a = length b -> length b = length var ->
  Forall (fun w => 0 < w) var ->
  exists d, @normalized_distance numR a b var = Ok d /\ 0 <= d /\
    d ^ 2 = Rsum (map (fun i => ((nth i a 0 - nth i b 0) / R_sqrt.sqrt (nth i var 0)) ^ 2) (seq 0 (length a))).
Proof.
  intros a b var H1 H2 Hpos. unfold normalized_distance.
  assert (Nat.eqb (length a) (length b) && Nat.eqb (length b) (length var) = true)%bool as E by (apply andb_true_iff; split; now apply Nat.eqb_eq).
  refine (ex_intro _ _ (conj (f_equal (fun o => obind o _) (f_equal assert_ E)) _)). cbn [nsqrt numR]. split; [apply sqrt_pos|].
  rewrite nsum_R.
  assert (Q : @map2 R R R (fun d w => sq (K := numR) d / w) (map2 (fun x y => x - y) a b) var
              = map (fun i => ((nth i a 0 - nth i b 0) / R_sqrt.sqrt (nth i var 0)) ^ 2) (seq 0 (length a))).
  { clear E. revert b var H1 H2 Hpos. induction a as [|x a IH]; intros [|y b] [|w var]; cbn [length]; try discriminate; [reflexivity|].
    intros [= H1] [= H2] Hp. inversion Hp as [|? ? Hw Hv]; subst. unfold map2 in *. cbn [combine map fst snd seq nth].
    apply (f_equal2 (@cons R)).
    - unfold sq; cbn [nmul numR]. assert (R_sqrt.sqrt w <> 0) by (apply Rgt_not_eq, sqrt_lt_R0; exact Hw).
      transitivity ((x - y) ^ 2 / (R_sqrt.sqrt w * R_sqrt.sqrt w)).
      + rewrite sqrt_sqrt by lra. unfold Rdiv. ring.
      + field. assumption.
    - rewrite (IH b var H1 H2 Hv). now rewrite <- seq_shift, map_map. }
  pose proof (f_equal Rsum Q) as Q'. cbn [ndiv nsub numR]. 
  change (R_sqrt.sqrt (Rsum (@map2 R R R (fun d w => sq (K := numR) d / w) (map2 (fun x y => x - y) a b) var)) ^ 2 = Rsum (map (fun i => ((nth i a 0 - nth i b 0) / R_sqrt.sqrt (nth i var 0)) ^ 2) (seq 0 (length a)))).
  rewrite Q'. cbn [pow]. rewrite Rmult_1_r. apply sqrt_sqrt. apply Rsum_nonneg, Forall_map, Forall_forall. intros i _. apply pow2_ge_0.
Qed.
(** mahalanobis_distance only looks at the variances on the diagonal of the covariance. *)
Lemma diagonal_R (m : list (list R)) : forall i, Forall (fun row => (i + length m <= length row)%nat) m ->
  @diagonal numR i m = Ok (map (fun k => nth (i + k) (nth k m []) 0) (seq 0 (length m))).
Proof.
  induction m as [|row t IH]; intros i H; cbn [diagonal length seq map]; [reflexivity|].
  inversion H as [|? ? Hr Ht]; subst. cbn [length] in *.
  destruct (nth_error row i) as [x|] eqn:E; [|apply nth_error_None in E; lia].
  assert (Ht' : Forall (fun row => (S i + length t <= length row)%nat) t) by (eapply Forall_impl; [|exact Ht]; cbn; intros; lia).
  assert (E' : @nth_error (nT numR) row i = Some x) by exact E. rewrite E'.
  refine (eq_trans (f_equal (fun o => obind o _) (IH (S i) Ht')) _). cbn [obind]. apply f_equal. cbn [nth].
  apply (f_equal2 (@cons R)); [rewrite Nat.add_0_r; symmetry; exact (nth_error_nth _ _ _ E)|]. rewrite <- seq_shift, map_map. apply map_ext. intros k. cbn [nth]. f_equal. lia.
Qed.
Theorem C54_mahalanobis_is_diagonal : forall (a b : list R) (cov : list (list R)), length a = length b -> length b = length cov ->
  Forall (fun row => length row = length cov) cov ->
  @mahalanobis_distance numR a b cov = @normalized_distance numR a b (map (fun k => nth k (nth k cov []) 0) (seq 0 (length cov))).
Proof.
  intros a b cov H1 H2 H. unfold mahalanobis_distance.
  assert (Nat.eqb (length a) (length b) && Nat.eqb (length b) (length cov) = true)%bool as E by (apply andb_true_iff; split; now apply Nat.eqb_eq).
  refine (eq_trans (f_equal (fun o => obind o _) (f_equal assert_ E)) _). cbn [obind assert_].
  refine (eq_trans (f_equal (fun o => obind o _) (diagonal_R cov 0 _)) _); [|reflexivity].
  eapply Forall_impl; [|exact H]. cbn. intros r Hr. rewrite Hr. lia.
Qed.
(** The full quadratic form (with correlations) is not what it computes. *)
Theorem C54_mahalanobis_ignores_correlations_refuted :
  @mahalanobis_distance numR [1; 1] [0; 0] [[2; 1]; [1; 2]] = @mahalanobis_distance numR [1; 1] [0; 0] [[2; 0]; [0; 2]].
Proof. reflexivity. Qed.

(** ** Interpolation *)
Theorem C54_update : forall v nv rate : R,
  @upd numR v nv rate = v + rate * (nv - v) /\ @upd numR v nv 0 = v /\ @upd numR v nv 1 = nv /\
  (0 <= rate <= 1 -> Rmin v nv <= @upd numR v nv rate <= Rmax v nv).
Proof.
  intros v nv r. unfold upd. cbn [nadd nmul nsub nofZ numR]. change (nT numR) with R in *. split; [ring|]. split; [ring|]. split; [ring|].
  intros Hr. unfold Rmin, Rmax. destruct (Rle_dec v nv); nra.
Qed.

(** ** Projection on a line *)
Lemma dot_product_R (a b : list R) : length a = length b -> @dot_product numR a b = Ok (inner a b).
Proof.
  intros H. unfold dot_product. refine (eq_trans (f_equal (fun o => obind o _) (f_equal assert_ _)) _); [apply Nat.eqb_eq; exact H|].
  cbn [obind assert_]. now rewrite nsum_R.
Qed.
Lemma vec_sub_R (a b : list R) : length a = length b -> @vec_sub numR a b = Ok (map (fun xy => fst xy - snd xy) (combine a b)).
Proof.
  intros H. unfold vec_sub. refine (eq_trans (f_equal (fun o => obind o _) (f_equal assert_ _)) _); [apply Nat.eqb_eq; exact H|]. reflexivity.
Qed.
Lemma vec_add_R (a b : list R) : length a = length b -> @vec_add numR a b = Ok (map (fun xy => fst xy + snd xy) (combine a b)).
Proof.
  intros H. unfold vec_add. refine (eq_trans (f_equal (fun o => obind o _) (f_equal assert_ _)) _); [apply Nat.eqb_eq; exact H|]. reflexivity.
Qed.
Lemma on_line_shift (a ab : list R) t : map (fun xy => fst xy + snd xy) (combine a (@vec_mul numR t ab)) = on_line a ab t.
Proof.
  unfold on_line, vec_mul. revert ab. induction a as [|x a IH]; intros [|y ab]; cbn [map combine]; try reflexivity.
  cbn [nmul numR fst snd]. rewrite IH. f_equal. ring.
Qed.
(** |p - (a + t ab)|^2 as a quadratic function of t *)
Lemma dist2_line a : forall ab p t, length ab = length a -> length p = length a ->
  dist2 p (on_line a ab t) = dist2 p a - 2 * t * inner (map (fun xy => fst xy - snd xy) (combine p a)) ab + t ^ 2 * inner ab ab.
Proof.
  unfold dist2, inner, on_line.
  induction a as [|x a IH]; intros [|d ab] [|q p] t; cbn [length]; try discriminate; intros H1 H2.
  - cbn. ring.
  - injection H1 as H1. injection H2 as H2. specialize (IH ab p t H1 H2). cbn [combine map Rsum fold_right fst snd] in *. unfold Rsum in IH. rewrite IH. ring.
Qed.
Theorem C54_projected_is_nearest : forall (eps : R) (a ab p : list R), 0 <= eps -> length ab = length a -> length p = length a ->
  eps < inner ab ab ->
  exists t, @projected numR eps a ab p = Ok (on_line a ab t) /\
    (forall s, dist2 p (on_line a ab t) <= dist2 p (on_line a ab s)) /\
    (forall s, dist2 p (on_line a ab s) = dist2 p (on_line a ab t) -> s = t).
Proof.
  intros eps a ab p He Ha Hp Hn.
  set (ap := map (fun xy => fst xy - snd xy) (combine p a)).
  assert (Hap : length ap = length ab) by (unfold ap; rewrite map_length, combine_length; lia).
  exists (inner ap ab / inner ab ab). split; [|].
  - unfold projected. refine (eq_trans (f_equal (fun o => obind o _) (vec_sub_R p a Hp)) _). cbn [obind].
    refine (eq_trans (f_equal (fun o => obind o _) (dot_product_R ab ab eq_refl)) _). cbn [obind nlt numR].
    rewrite Rlt_bool_true by exact Hn.
    refine (eq_trans (f_equal (fun o => obind o _) (dot_product_R ap ab Hap)) _). cbn [obind ndiv numR].
    refine (eq_trans (vec_add_R a _ _) _); [unfold vec_mul; rewrite map_length; symmetry; exact Ha|].
    now rewrite on_line_shift.
  - assert (Q : forall s, dist2 p (on_line a ab s) - dist2 p (on_line a ab (inner ap ab / inner ab ab)) = inner ab ab * (s - inner ap ab / inner ab ab) ^ 2).
    { intros s. rewrite !dist2_line by assumption. fold ap. field. lra. }
    split.
    + intros s. specialize (Q s). assert (0 <= inner ab ab * (s - inner ap ab / inner ab ab) ^ 2) by (apply Rmult_le_pos; [lra|apply pow2_ge_0]). lra.
    + intros s Hs. specialize (Q s). assert (inner ab ab * (s - inner ap ab / inner ab ab) ^ 2 = 0) as Z by lra.
      apply Rmult_integral in Z as [Z|Z]; [lra|]. assert (s - inner ap ab / inner ab ab = 0) by (apply Rsqr_0_uniq; unfold Rsqr; cbn in Z; lra). lra.
Qed.
Theorem C54_projected_degenerate : forall (eps : R) (a ab p : list R), length p = length a -> inner ab ab <= eps ->
  @projected numR eps a ab p = Ok a.
Proof.
  intros eps a ab p Hp Hn. unfold projected. refine (eq_trans (f_equal (fun o => obind o _) (vec_sub_R p a Hp)) _). cbn [obind].
  refine (eq_trans (f_equal (fun o => obind o _) (dot_product_R ab ab eq_refl)) _). cbn [obind nlt numR].
  now rewrite Rlt_bool_false by exact Hn.
Qed.
(** A direction shorter than the threshold still spans a line, whose nearest point is
    then not what is returned: the error is at most the distance to [a]. *)
Theorem C54_projected_short_direction_refuted : forall eps, 0 < eps ->
  exists a ab p t, 0 < inner ab ab /\ @projected numR eps a ab p = Ok a /\ dist2 p (on_line a ab t) < dist2 p a.
Proof.
  intros eps He. exists [0], [R_sqrt.sqrt eps], [1], (1 / R_sqrt.sqrt eps).
  assert (Hs : R_sqrt.sqrt eps * R_sqrt.sqrt eps = eps) by (apply sqrt_sqrt; lra).
  assert (Hp : 0 < R_sqrt.sqrt eps) by (now apply sqrt_lt_R0).
  assert (E : inner [R_sqrt.sqrt eps] [R_sqrt.sqrt eps] = eps) by (unfold inner; cbn; lra).
  split; [lra|]. split; [apply C54_projected_degenerate; [reflexivity|lra]|].
  unfold dist2, on_line. cbn. replace (0 + 1 / R_sqrt.sqrt eps * R_sqrt.sqrt eps) with 1 by (field; lra). lra.
Qed.
(** Vectors of different dimensions violate the assertions. *)
Theorem C54_projected_needs_one_dimension : forall (eps : R) (a ab p : list R),
  (length p <> length a -> @projected numR eps a ab p = Undef) /\
  (length p = length a -> length ab <> length a -> eps < inner ab ab -> @projected numR eps a ab p = Undef).
Proof.
  intros eps a ab p. split.
  - intros H. unfold projected, vec_sub. apply Nat.eqb_neq in H.
    exact (f_equal (fun o => obind (obind (assert_ o) _) _) H).
  - intros Hp Hab Hn. unfold projected. refine (eq_trans (f_equal (fun o => obind o _) (vec_sub_R p a Hp)) _). cbn [obind].
    refine (eq_trans (f_equal (fun o => obind o _) (dot_product_R ab ab eq_refl)) _). cbn [obind nlt numR].
    rewrite Rlt_bool_true by exact Hn. unfold dot_product.
    assert (length (map (fun xy : R * R => fst xy - snd xy) (combine p a)) <> length ab) as N by (rewrite map_length, combine_length; lia).
    apply Nat.eqb_neq in N. exact (f_equal (fun o => obind (obind (assert_ o) _) _) N).
Qed.
Example C54_projected_example : @projected numR (1 / 100) [1; 0] [0; 2] [3; 5] = Ok [1; 5].
Proof.
  destruct (C54_projected_is_nearest (1 / 100) [1; 0] [0; 2] [3; 5]) as (t & E & _ & U); try reflexivity; try lra.
  - unfold inner. cbn. lra.
  - rewrite E. destruct (C54_projected_is_nearest (1 / 100) [1; 0] [0; 2] [3; 5]) as (t' & E' & M & U'); try reflexivity; try lra; [unfold inner; cbn; lra|].
    assert (Et : on_line [1; 0] [0; 2] t = on_line [1; 0] [0; 2] t') by congruence.
    unfold on_line in Et. cbn in Et. injection Et as _ Et. assert (t = t') by lra. subst t'.
    pose proof (M (5 / 2)) as M1. unfold dist2, on_line in M1. cbn in M1.
    assert (0 + t * 2 = 5) by nra. unfold on_line. cbn. f_equal. f_equal; [lra|]. now f_equal.
Qed.
