(** * Finite sums and matrices of reals (support for the proofs about CmaEigen.v) *)
From Coq Require Import Reals Lra Lia Arith Setoid Morphisms.
#[local] Open Scope R_scope.

(** ** Finite sums *)
Fixpoint sum (n : nat) (f : nat -> R) : R := match n with O => 0 | S k => sum k f + f k end.

Lemma sum_ext : forall n f g, (forall k, (k < n)%nat -> f k = g k) -> sum n f = sum n g.
Proof. induction n; cbn; intros f g H; [reflexivity|]. rewrite (IHn f g), (H n); auto. Qed.
Lemma sum_0 : forall n f, (forall k, (k < n)%nat -> f k = 0) -> sum n f = 0.
Proof. induction n; cbn; intros f H; [reflexivity|]. rewrite IHn, (H n); auto; lra. Qed.
Lemma sum_plus : forall n f g, sum n (fun k => f k + g k) = sum n f + sum n g.
Proof. induction n; cbn; intros f g; [lra|]. rewrite IHn; lra. Qed.
Lemma sum_opp : forall n f, sum n (fun k => - f k) = - sum n f.
Proof. induction n; cbn; intros f; [lra|]. rewrite IHn; lra. Qed.
Lemma sum_minus : forall n f g, sum n (fun k => f k - g k) = sum n f - sum n g.
Proof. induction n; cbn; intros f g; [lra|]. rewrite IHn; lra. Qed.
Lemma sum_scal : forall n c f, sum n (fun k => c * f k) = c * sum n f.
Proof. induction n; cbn; intros c f; [lra|]. rewrite IHn; lra. Qed.
Lemma sum_scal_r : forall n c f, sum n (fun k => f k * c) = sum n f * c.
Proof. induction n; cbn; intros c f; [lra|]. rewrite IHn; lra. Qed.
Lemma sum_nonneg : forall n f, (forall k, (k < n)%nat -> 0 <= f k) -> 0 <= sum n f.
Proof. induction n; cbn; intros f H; [lra|]. pose proof (IHn f (fun k Hk => H k (Nat.lt_lt_succ_r _ _ Hk))). pose proof (H n (Nat.lt_succ_diag_r n)). lra. Qed.
Lemma sum_le : forall n f g, (forall k, (k < n)%nat -> f k <= g k) -> sum n f <= sum n g.
Proof.
  intros n f g H. pose proof (sum_nonneg n (fun k => g k - f k)) as P.
  rewrite sum_minus in P. assert (0 <= sum n g - sum n f) by (apply P; intros k Hk; specialize (H k Hk); lra). lra.
Qed.
Lemma sum_zero_inv : forall n f, (forall k, (k < n)%nat -> 0 <= f k) -> sum n f = 0 -> forall k, (k < n)%nat -> f k = 0.
Proof.
  induction n; cbn; intros f H E k Hk; [lia|].
  pose proof (sum_nonneg n f (fun k Hk => H k (Nat.lt_lt_succ_r _ _ Hk))). pose proof (H n (Nat.lt_succ_diag_r n)).
  destruct (Nat.eq_dec k n) as [->|Hn]; [lra|]. apply (IHn f); [auto|lra|lia].
Qed.
Lemma sum_exchange : forall n m f, sum n (fun a => sum m (fun b => f a b)) = sum m (fun b => sum n (fun a => f a b)).
Proof.
  induction n; cbn; intros m f; [symmetry; now apply sum_0|].
  rewrite IHn, <- sum_plus. reflexivity.
Qed.
(** sums with at most one, or two, terms that matter *)
Lemma sum_single : forall n i f, (i < n)%nat -> (forall k, (k < n)%nat -> k <> i -> f k = 0) -> sum n f = f i.
Proof.
  induction n; intros i f Hi H; [lia|]. cbn. destruct (Nat.eq_dec i n) as [->|Hn].
  - rewrite sum_0; [lra|]. intros k Hk. apply H; lia.
  - rewrite (IHn i), (H n); [lra|lia|lia|lia|]. intros k Hk. apply H; lia.
Qed.
Lemma sum_cut : forall n m f, (m <= n)%nat -> (forall k, (m <= k < n)%nat -> f k = 0) -> sum n f = sum m f.
Proof.
  induction n; intros m f Hm H; [replace m with O by lia; reflexivity|].
  destruct (Nat.eq_dec m (S n)) as [->|Hn]; [reflexivity|]. cbn. rewrite (IHn m f), (H n); [lra|lia|lia|]. intros k Hk. apply H; lia.
Qed.
Lemma sum_change1 : forall n i f g, (i < n)%nat -> (forall k, (k < n)%nat -> k <> i -> f k = g k) -> sum n f = sum n g - g i + f i.
Proof.
  intros n i f g Hi H. assert (E : sum n (fun k => f k - g k) = f i - g i).
  { apply (sum_single n i (fun k => f k - g k) Hi). intros k Hk Hn. rewrite (H k Hk Hn). lra. }
  rewrite sum_minus in E. lra.
Qed.
Lemma sum_change2 : forall n i j f g, (i < n)%nat -> (j < n)%nat -> i <> j ->
  (forall k, (k < n)%nat -> k <> i -> k <> j -> f k = g k) -> f i + f j = g i + g j -> sum n f = sum n g.
Proof.
  intros n i j f g Hi Hj Hij H E.
  set (f1 := fun k => if Nat.eqb k i then g i else f k).
  rewrite (sum_change1 n i f f1 Hi), (sum_change1 n j f1 g Hj).
  - unfold f1. rewrite Nat.eqb_refl. replace (Nat.eqb j i) with false by (symmetry; apply Nat.eqb_neq; lia). lra.
  - intros k Hk Hn. unfold f1. destruct (Nat.eqb_spec k i) as [->|]; [reflexivity|]. apply H; auto.
  - intros k Hk Hn. unfold f1. destruct (Nat.eqb_spec k i); [contradiction|reflexivity].
Qed.
Lemma sum_head : forall n f, sum (S n) f = f O + sum n (fun k => f (S k)).
Proof. induction n; intros f; [cbn; lra|]. cbn [sum] in *. rewrite IHn. lra. Qed.

(** ** Matrices of size n *)
Definition matrix := nat -> nat -> R.
Definition meq (n : nat) (A B : matrix) : Prop := forall i j, (i < n)%nat -> (j < n)%nat -> A i j = B i j.
Definition mmul (n : nat) (A B : matrix) : matrix := fun i j => sum n (fun k => A i k * B k j).
Definition mtr (A : matrix) : matrix := fun i j => A j i.
Definition mid : matrix := fun i j => if Nat.eqb i j then 1 else 0.
Definition madd (A B : matrix) : matrix := fun i j => A i j + B i j.
Definition msub (A B : matrix) : matrix := fun i j => A i j - B i j.
Definition mdiag (d : nat -> R) : matrix := fun i j => if Nat.eqb i j then d i else 0.

#[global] Instance meq_equiv n : Equivalence (meq n).
Proof.
  split.
  - intros A i j _ _. reflexivity.
  - intros A B H i j Hi Hj. symmetry. now apply H.
  - intros A B D H1 H2 i j Hi Hj. rewrite (H1 i j Hi Hj). now apply H2.
Qed.
#[global] Instance mmul_proper n : Proper (meq n ==> meq n ==> meq n) (mmul n).
Proof.
  intros A A' HA B B' HB i j Hi Hj. apply sum_ext. intros k Hk. now rewrite (HA i k Hi Hk), (HB k j Hk Hj).
Qed.
#[global] Instance mtr_proper n : Proper (meq n ==> meq n) mtr.
Proof. intros A A' HA i j Hi Hj. now apply HA. Qed.
#[global] Instance madd_proper n : Proper (meq n ==> meq n ==> meq n) madd.
Proof. intros A A' HA B B' HB i j Hi Hj. unfold madd. now rewrite (HA i j Hi Hj), (HB i j Hi Hj). Qed.
#[global] Instance msub_proper n : Proper (meq n ==> meq n ==> meq n) msub.
Proof. intros A A' HA B B' HB i j Hi Hj. unfold msub. now rewrite (HA i j Hi Hj), (HB i j Hi Hj). Qed.

Lemma mmul_assoc : forall n A B D, meq n (mmul n A (mmul n B D)) (mmul n (mmul n A B) D).
Proof.
  intros n A B D i j Hi Hj. unfold mmul.
  rewrite (sum_ext n _ (fun k => sum n (fun l => A i k * (B k l * D l j)))) by (intros k Hk; now rewrite sum_scal).
  rewrite sum_exchange. apply sum_ext. intros l Hl. rewrite <- sum_scal_r. apply sum_ext. intros k Hk. lra.
Qed.
Lemma mmul_id_l : forall n A, meq n (mmul n mid A) A.
Proof.
  intros n A i j Hi Hj. unfold mmul, mid. rewrite (sum_single n i); [rewrite Nat.eqb_refl; lra|exact Hi|].
  intros k Hk Hn. replace (Nat.eqb i k) with false by (symmetry; apply Nat.eqb_neq; lia). lra.
Qed.
Lemma mmul_id_r : forall n A, meq n (mmul n A mid) A.
Proof.
  intros n A i j Hi Hj. unfold mmul, mid. rewrite (sum_single n j); [rewrite Nat.eqb_refl; lra|exact Hj|].
  intros k Hk Hn. replace (Nat.eqb k j) with false by (symmetry; apply Nat.eqb_neq; lia). lra.
Qed.
Lemma mtr_mmul : forall n A B, meq n (mtr (mmul n A B)) (mmul n (mtr B) (mtr A)).
Proof. intros n A B i j Hi Hj. unfold mtr, mmul. apply sum_ext. intros k Hk. lra. Qed.
Lemma mtr_mtr : forall n A, meq n (mtr (mtr A)) A.
Proof. intros n A i j _ _. reflexivity. Qed.
Lemma mtr_mid : forall n, meq n (mtr mid) mid.
Proof. intros n i j _ _. unfold mtr, mid. now rewrite Nat.eqb_sym. Qed.

(** V T V^T *)
Definition sandwich (n : nat) (V T : matrix) : matrix := mmul n V (mmul n T (mtr V)).
#[global] Instance sandwich_proper n : Proper (meq n ==> meq n ==> meq n) (sandwich n).
Proof. intros A A' HA B B' HB. unfold sandwich. now rewrite HA, HB. Qed.
Definition orthogonal (n : nat) (V : matrix) : Prop := meq n (mmul n (mtr V) V) mid /\ meq n (mmul n V (mtr V)) mid.

Lemma sandwich_mmul : forall n P V T, meq n (sandwich n (mmul n P V) T) (sandwich n P (sandwich n V T)).
Proof. intros n P V T. unfold sandwich. rewrite mtr_mmul. now rewrite !mmul_assoc. Qed.
Lemma sandwich_id : forall n T, meq n (sandwich n mid T) T.
Proof. intros n T. unfold sandwich. now rewrite mmul_id_l, mtr_mid, mmul_id_r. Qed.
Lemma orthogonal_mid : forall n, orthogonal n mid.
Proof. intros n. split; rewrite mtr_mid; apply mmul_id_l. Qed.
Lemma orthogonal_mmul : forall n A B, orthogonal n A -> orthogonal n B -> orthogonal n (mmul n A B).
Proof.
  intros n A B [A1 A2] [B1 B2]. split.
  - rewrite mtr_mmul, mmul_assoc, <- (mmul_assoc n (mtr B) (mtr A) A), A1, mmul_id_r. exact B1.
  - rewrite mtr_mmul, mmul_assoc, <- (mmul_assoc n A B (mtr B)), B2, mmul_id_r. exact A2.
Qed.

(** ** Frobenius norm *)
Definition dot (n : nat) (A B : matrix) : R := sum n (fun i => sum n (fun j => A i j * B i j)).
Definition frob (n : nat) (A : matrix) : R := sqrt (dot n A A).

#[global] Instance dot_proper n : Proper (meq n ==> meq n ==> eq) (dot n).
Proof. intros A A' HA B B' HB. unfold dot. apply sum_ext. intros i Hi. apply sum_ext. intros j Hj. now rewrite (HA i j Hi Hj), (HB i j Hi Hj). Qed.
#[global] Instance frob_proper n : Proper (meq n ==> eq) (frob n).
Proof. intros A A' HA. unfold frob. now rewrite HA. Qed.
Lemma dot_nonneg : forall n A, 0 <= dot n A A.
Proof. intros n A. apply sum_nonneg. intros i Hi. apply sum_nonneg. intros j Hj. apply Rle_0_sqr. Qed.
Lemma frob_nonneg : forall n A, 0 <= frob n A.
Proof. intros. apply sqrt_pos. Qed.
Lemma frob_sqr : forall n A, frob n A * frob n A = dot n A A.
Proof. intros n A. apply sqrt_sqrt, dot_nonneg. Qed.
Lemma dot_comb : forall n A B x y, dot n (fun i j => x * A i j + y * B i j) (fun i j => x * A i j + y * B i j)
  = x * x * dot n A A + 2 * x * y * dot n A B + y * y * dot n B B.
Proof.
  intros n A B x y. unfold dot. rewrite <- !sum_scal, <- !sum_plus. apply sum_ext. intros i Hi.
  rewrite <- !sum_scal, <- !sum_plus. apply sum_ext. intros j Hj. ring.
Qed.
Lemma dot_cauchy : forall n A B, dot n A B <= frob n A * frob n B.
Proof.
  intros n A B. pose proof (frob_nonneg n A) as PA. pose proof (frob_nonneg n B) as PB.
  pose proof (frob_sqr n A) as SA. pose proof (frob_sqr n B) as SB.
  destruct (Req_dec (frob n A) 0) as [ZA|NA].
  { (* A = 0 *)
    assert (HA : forall i, (i < n)%nat -> forall j, (j < n)%nat -> A i j * A i j = 0).
    { intros i Hi. apply sum_zero_inv; [intros; apply Rle_0_sqr|]. revert i Hi. apply sum_zero_inv.
      - intros i Hi. apply sum_nonneg. intros; apply Rle_0_sqr.
      - change (dot n A A = 0). rewrite <- SA, ZA. ring. }
    assert (Z : dot n A B = 0).
    { apply sum_0. intros i Hi. apply sum_0. intros j Hj. specialize (HA i Hi j Hj). apply Rmult_integral in HA. destruct HA as [-> | ->]; ring. }
    rewrite Z, ZA. lra. }
  destruct (Req_dec (frob n B) 0) as [ZB|NB].
  { assert (HB : forall i, (i < n)%nat -> forall j, (j < n)%nat -> B i j * B i j = 0).
    { intros i Hi. apply sum_zero_inv; [intros; apply Rle_0_sqr|]. revert i Hi. apply sum_zero_inv.
      - intros i Hi. apply sum_nonneg. intros; apply Rle_0_sqr.
      - change (dot n B B = 0). rewrite <- SB, ZB. ring. }
    assert (Z : dot n A B = 0).
    { apply sum_0. intros i Hi. apply sum_0. intros j Hj. specialize (HB i Hi j Hj). apply Rmult_integral in HB. destruct HB as [-> | ->]; ring. }
    rewrite Z, ZB. lra. }
  pose proof (dot_comb n A B (frob n B) (- frob n A)) as D.
  pose proof (dot_nonneg n (fun i j => frob n B * A i j + - frob n A * B i j)) as P. rewrite D in P.
  rewrite <- SA, <- SB in P. set (a := frob n A) in *. set (b := frob n B) in *. set (t := dot n A B) in *.
  assert (Q : 0 <= 2 * (a * b) * (a * b - t)) by nra.
  assert (0 < a * b) by (apply Rmult_lt_0_compat; lra).
  assert (0 <= a * b - t); [|lra]. apply (Rmult_le_reg_l (2 * (a * b))); lra.
Qed.
Lemma frob_triangle : forall n A B, frob n (madd A B) <= frob n A + frob n B.
Proof.
  intros n A B. pose proof (frob_nonneg n A) as PA. pose proof (frob_nonneg n B) as PB.
  apply Rsqr_incr_0_var; [|lra]. unfold Rsqr. rewrite frob_sqr.
  assert (E : dot n (madd A B) (madd A B) = 1 * 1 * dot n A A + 2 * 1 * 1 * dot n A B + 1 * 1 * dot n B B).
  { rewrite <- dot_comb. apply dot_proper; intros i j _ _; unfold madd; ring. }
  rewrite E, <- !frob_sqr. pose proof (dot_cauchy n A B). nra.
Qed.
Lemma frob_sub_triangle : forall n A B D, frob n (msub A D) <= frob n (msub A B) + frob n (msub B D).
Proof.
  intros n A B D. refine (Rle_trans _ _ _ _ (frob_triangle _ _ _)). apply Req_le. apply frob_proper. intros i j _ _. unfold msub, madd. ring.
Qed.
Lemma entry_le_frob : forall n A i j, (i < n)%nat -> (j < n)%nat -> Rabs (A i j) <= frob n A.
Proof.
  intros n A i j Hi Hj. apply Rsqr_incr_0_var; [|apply frob_nonneg]. rewrite <- Rsqr_abs. unfold Rsqr. rewrite frob_sqr.
  assert (L : forall m f k, (k < m)%nat -> (forall q, (q < m)%nat -> 0 <= f q) -> f k <= sum m f).
  { induction m; intros f k Hk H; [lia|]. cbn. destruct (Nat.eq_dec k m) as [->|Hn].
    - pose proof (sum_nonneg m f (fun k Hk => H k (Nat.lt_lt_succ_r _ _ Hk))). lra.
    - pose proof (IHm f k ltac:(lia) (fun k Hk => H k (Nat.lt_lt_succ_r _ _ Hk))). pose proof (H m (Nat.lt_succ_diag_r m)). lra. }
  unfold dot. refine (Rle_trans _ _ _ _ (L n (fun i => sum n (fun j => A i j * A i j)) i Hi _)).
  - apply (L n (fun j => A i j * A i j) j Hj). intros; apply Rle_0_sqr.
  - intros q Hq. apply sum_nonneg. intros; apply Rle_0_sqr.
Qed.
(** the Frobenius norm is the trace of A^T A, so orthogonal matrices preserve it *)
Lemma dot_trace : forall n A, dot n A A = sum n (fun j => mmul n (mtr A) A j j).
Proof. intros n A. unfold dot, mmul, mtr. apply sum_exchange. Qed.
Lemma dot_mtr : forall n A, dot n (mtr A) (mtr A) = dot n A A.
Proof. intros n A. unfold dot, mtr. apply sum_exchange. Qed.
Lemma frob_mul_l : forall n V A, orthogonal n V -> frob n (mmul n V A) = frob n A.
Proof.
  intros n V A [V1 V2]. unfold frob. f_equal. rewrite !dot_trace. apply sum_ext. intros j Hj.
  assert (E : meq n (mmul n (mtr (mmul n V A)) (mmul n V A)) (mmul n (mtr A) A)); [|apply E; auto].
  rewrite mtr_mmul, mmul_assoc, <- (mmul_assoc n (mtr A) (mtr V) V), V1, mmul_id_r. reflexivity.
Qed.
Lemma frob_mtr : forall n A, frob n (mtr A) = frob n A.
Proof. intros. unfold frob. now rewrite dot_mtr. Qed.
Lemma frob_sandwich : forall n V A, orthogonal n V -> frob n (sandwich n V A) = frob n A.
Proof.
  intros n V A O. unfold sandwich. rewrite (frob_mul_l n V _ O), <- frob_mtr, mtr_mmul, mtr_mtr, (frob_mul_l n V _ O). apply frob_mtr.
Qed.
Lemma mmul_msub_r : forall n V A B, meq n (mmul n V (msub A B)) (msub (mmul n V A) (mmul n V B)).
Proof. intros n V A B i j Hi Hj. unfold mmul, msub. rewrite <- sum_minus. apply sum_ext. intros; ring. Qed.
Lemma mmul_msub_l : forall n V A B, meq n (mmul n (msub A B) V) (msub (mmul n A V) (mmul n B V)).
Proof. intros n V A B i j Hi Hj. unfold mmul, msub. rewrite <- sum_minus. apply sum_ext. intros; ring. Qed.
Lemma sandwich_msub : forall n V A B, meq n (sandwich n V (msub A B)) (msub (sandwich n V A) (sandwich n V B)).
Proof. intros n V A B. unfold sandwich. now rewrite mmul_msub_l, mmul_msub_r. Qed.
