(** * C61: the eigendecomposition of the covariance matrix in cma_optimizer *)
From Coq Require Import Reals Lra Lia Arith Bool Setoid List ZArith ConstructiveEpsilon.
From Flocq Require Import Core.
From Verif Require Import Prelude Flt FltFacts Round8 Num Cma CmaFacts Properties_Cma CmaEigen MatR EigenQL EigenSort EigenTri EigenTri2 EigenEnd.
Import ListNotations.
#[local] Open Scope R_scope.

(** ** Specification.
    A covariance matrix is kept as its lower triangle: row i has the entries (i, 0) .. (i, i). *)
Definition entry (M : list (list R)) (i j : nat) : R := nth j (nth i M []) 0.
Definition covariance (C : list (list R)) (i j : nat) : R := entry C (Nat.max i j) (Nat.min i j).
Definition value (d : list R) (k : nat) : R := nth k d 0.
Definition total (n : nat) (f : nat -> R) : R := fold_right Rplus 0 (map f (seq 0 n)).
(** Frobenius norm of an n by n matrix *)
Definition norm (n : nat) (M : nat -> nat -> R) : R := sqrt (total n (fun i => total n (fun j => M i j * M i j))).
(** sum over k of d(k) * b(k) b(k)^T, where b(k) is the k-th column of B *)
Definition recomposed (n : nat) (d : list R) (B : list (list R)) (i j : nat) : R :=
  total n (fun k => value d k * entry B i k * entry B j k).
Definition square (n : nat) (B : list (list R)) : Prop := length B = n /\ Forall (fun r => length r = n) B.
Definition orthonormal_columns (n : nat) (B : list (list R)) : Prop :=
  forall k l, (k < n)%nat -> (l < n)%nat -> total n (fun i => entry B i k * entry B i l) = if Nat.eqb k l then 1 else 0.
Definition orthonormal_rows (n : nat) (B : list (list R)) : Prop :=
  forall k l, (k < n)%nat -> (l < n)%nat -> total n (fun i => entry B k i * entry B l i) = if Nat.eqb k l then 1 else 0.
Definition ascending (n : nat) (d : list R) : Prop := forall k l, (k <= l < n)%nat -> value d k <= value d l.
(** 12 n 2.22e-16 |C| *)
Definition tolerance (C : list (list R)) : R := 12 * INR (length C) * (222 / 1000000000000000000) * norm (length C) (covariance C).

(** ** Proofs *)
Lemma total_snoc : forall n f, total (S n) f = total n f + f n.
Proof.
  intros n f. unfold total. rewrite seq_S, map_app. cbn [map plus]. generalize (map f (seq 0 n)).
  induction l as [|x l IH]; cbn; [lra|]. rewrite IH. lra.
Qed.
Lemma total_sum : forall n f, total n f = sum n f.
Proof. induction n as [|n IH]; intros f; [reflexivity|]. rewrite total_snoc, IH. reflexivity. Qed.
Lemma total_ext : forall n f g, (forall k, (k < n)%nat -> f k = g k) -> total n f = total n g.
Proof. intros n f g H. rewrite !total_sum. now apply sum_ext. Qed.
Lemma norm_frob : forall n M, norm n M = frob n M.
Proof.
  intros n M. unfold norm, frob, dot. f_equal. rewrite total_sum. apply sum_ext. intros k _. apply total_sum.
Qed.
Lemma nth_build : forall A n (f : nat -> A) k z, (k < n)%nat -> nth k (build n f) z = f k.
Proof.
  intros A n f k z Hk. unfold build. rewrite (nth_indep _ z (f O)) by (rewrite map_length, seq_length; exact Hk).
  rewrite map_nth, seq_nth by exact Hk. reflexivity.
Qed.
Lemma build_length' : forall A n (f : nat -> A), length (build n f) = n.
Proof. intros. unfold build. now rewrite map_length, seq_length. Qed.
Lemma entry_build : forall n V i j, (i < n)%nat -> (j < n)%nat -> entry (build n (fun i => build n (V i))) i j = V i j.
Proof. intros n V i j Hi Hj. unfold entry. rewrite nth_build by exact Hi. now rewrite nth_build. Qed.
Lemma sandwich_total : forall n (V : matrix) d i j, (i < n)%nat -> (j < n)%nat ->
  sandwich n V (mdiag d) i j = total n (fun k => d k * V i k * V j k).
Proof.
  intros n V d i j Hi Hj. rewrite total_sum. unfold sandwich, mmul. apply sum_ext. intros k Hk.
  rewrite (sum_single n k); [|exact Hk|].
  - unfold mdiag, mtr. rewrite Nat.eqb_refl. ring.
  - intros l Hl Hn. unfold mdiag. destruct (Nat.eqb_spec k l); [congruence|ring].
Qed.
Lemma symmetric_of_sym : forall C a b, symmetric_of (K := numR) C a b = symmetric_of (K := numR) C b a.
Proof. intros. unfold symmetric_of. now rewrite Nat.max_comm, Nat.min_comm. Qed.

Lemma eigen_shape : forall fuel (C : list (list R)), C <> [] ->
  let n := length C in
  match eigen (K := numR) fuel C with
  | Ok (d, B) => exists V e, d = build n e /\ B = build n (fun i => build n (V i)) /\ spectral n (covariance C) V e
  | Throw _ => True | Undef => False end.
Proof.
  intros fuel C HC n. assert (Hn : (0 < n)%nat) by (destruct C; [congruence|cbn; lia]).
  unfold eigen. match goal with |- context [Nat.eqb ?x 0] => change x with n end. replace (Nat.eqb n 0) with false by (symmetry; apply Nat.eqb_neq; lia). cbn zeta.
  destruct (householder_spec n (symmetric_of (K := numR) C) (fun _ => 0) (fun _ => 0) Hn (symmetric_of_sym C)) as (O & E).
  set (h := householder (K := numR) n (mkA (symmetric_of (K := numR) C) (fun _ => 0) (fun _ => 0))) in *.
  assert (Eh : h = mkA (aV h) (ad h) (ae h)) by (destruct h; reflexivity).
  pose proof (ql_algorithm_spec fuel n (symmetric_of (K := numR) C) (aV h) (ad h) (ae h) Hn O E) as P. rewrite <- Eh in P.
  match goal with |- context [obind ?x _] => change x with (ql_algorithm (K := numR) fuel n h) end.
  destruct (ql_algorithm (K := numR) fuel n h) as [[V' d']| |]; cbn [obind]; [|exact I|exact P].
  exists V', d'. split; [reflexivity|]. split; [reflexivity|exact P].
Qed.

(** ** Theorems *)
(** The eigenvalues ascend, the eigenvectors are an orthonormal basis, and the sum of
    d(k) b(k) b(k)^T is the given matrix up to 12 n 2.22e-16 of its size. *)
Theorem C61_eigendecomposition : forall fuel (C : list (list R)) d B,
  C <> [] -> eigen (K := numR) fuel C = Ok (d, B) ->
  let n := length C in
  length d = n /\ square n B /\ orthonormal_columns n B /\ orthonormal_rows n B /\ ascending n d
  /\ norm n (fun i j => covariance C i j - recomposed n d B i j) <= tolerance C.
Proof.
  intros fuel C d B HC E n. pose proof (eigen_shape fuel C HC) as P. rewrite E in P. fold n in P.
  destruct P as (V & e & -> & -> & (O1 & O2) & Asc & F).
  split; [apply build_length'|]. split.
  { split; [apply build_length'|]. unfold build at 1. apply Forall_map, Forall_forall. intros. apply build_length'. }
  split.
  { intros k l Hk Hl. refine (eq_trans _ (O1 k l Hk Hl)). rewrite total_sum. unfold mmul, mtr. apply sum_ext. intros i Hi. now rewrite !entry_build. }
  split.
  { intros k l Hk Hl. refine (eq_trans _ (O2 k l Hk Hl)). rewrite total_sum. unfold mmul, mtr. apply sum_ext. intros i Hi. now rewrite !entry_build. }
  split.
  { intros k l H. unfold value. rewrite !nth_build by lia. now apply Asc. }
  assert (X : meq n (fun i j => covariance C i j - recomposed n (build n e) (build n (fun i => build n (V i))) i j) (msub (covariance C) (sandwich n V (mdiag e)))).
  { intros i j Hi Hj. unfold msub. f_equal. rewrite sandwich_total by assumption. unfold recomposed. apply total_ext. intros k Hk. unfold value. now rewrite !entry_build, nth_build. }
  rewrite norm_frob, X. refine (Rle_trans _ _ _ F _). unfold tolerance. rewrite norm_frob. fold n. rewrite epsR_value. right. ring.
Qed.

(** No access out of bounds: in line 510 the index m is below n (the code's comment asks for a check). *)
Theorem C61_never_undefined : forall fuel (C : list (list R)), C <> [] -> eigen (K := numR) fuel C <> Undef.
Proof. intros fuel C HC E. pose proof (eigen_shape fuel C HC) as P. now rewrite E in P. Qed.

(** The iteration, which has no limit in the code, ends for every matrix. *)
Theorem C61_terminates : forall C : list (list R), C <> [] ->
  exists N d B, forall fuel, (N <= fuel)%nat -> eigen (K := numR) fuel C = Ok (d, B).
Proof.
  intros C HC. set (n := length C). assert (Hn : (0 < n)%nat) by (destruct C; [congruence|cbn; lia]).
  destruct (householder_spec n (symmetric_of (K := numR) C) (fun _ => 0) (fun _ => 0) Hn (symmetric_of_sym C)) as (O & E).
  set (h := householder (K := numR) n (mkA (symmetric_of (K := numR) C) (fun _ => 0) (fun _ => 0))) in *.
  assert (Eh : h = mkA (aV h) (ad h) (ae h)) by (destruct h; reflexivity).
  destruct (ql_algorithm_ends n _ (aV h) (ad h) (ae h) Hn O E) as (N & [V d] & HN).
  exists N, (build n d), (build n (fun i => build n (V i))). intros fuel Hf.
  unfold eigen. match goal with |- context [Nat.eqb ?x 0] => change x with n end. replace (Nat.eqb n 0) with false by (symmetry; apply Nat.eqb_neq; lia). cbn zeta.
  specialize (HN fuel Hf). rewrite <- Eh in HN.
  refine (eq_trans (f_equal (fun o => obind o _) HN) _). reflexivity.
Qed.

(** ** Eigenvectors and eigenvalues one by one *)
Definition as_matrix (B : list (list R)) : matrix := fun i j => entry B i j.
Lemma orthogonal_of : forall n B, orthonormal_columns n B -> orthonormal_rows n B -> orthogonal n (as_matrix B).
Proof.
  intros n B H1 H2. split; intros k l Hk Hl; unfold mmul, mtr, as_matrix, mid; rewrite <- total_sum; [exact (H1 k l Hk Hl)|exact (H2 k l Hk Hl)].
Qed.
Lemma orthogonal_mtr : forall n V, orthogonal n V -> orthogonal n (mtr V).
Proof. intros n V [H1 H2]. split; rewrite mtr_mtr; assumption. Qed.
Lemma recomposed_sandwich : forall n d B, meq n (recomposed n d B) (sandwich n (as_matrix B) (mdiag (value d))).
Proof. intros n d B i j Hi Hj. now rewrite sandwich_total. Qed.
Lemma mmul_mdiag : forall n V d, meq n (mmul n V (mdiag d)) (fun i j => V i j * d j).
Proof.
  intros n V d i j Hi Hj. unfold mmul. rewrite (sum_single n j); [|exact Hj|].
  - unfold mdiag. now rewrite Nat.eqb_refl.
  - intros k _ Hn. unfold mdiag. destruct (Nat.eqb_spec k j); [contradiction|ring].
Qed.
Lemma column_le_frob : forall n A k, (k < n)%nat -> sqrt (sum n (fun i => A i k * A i k)) <= frob n A.
Proof.
  intros n A k Hk. unfold frob. apply sqrt_le_1_alt. unfold dot. apply sum_le. intros i Hi.
  refine (Rle_trans _ (sum n (fun j => if Nat.eqb j k then A i k * A i k else 0)) _ _ _).
  - rewrite (sum_single n k); [rewrite Nat.eqb_refl; lra|exact Hk|]. intros j _ Hn. destruct (Nat.eqb_spec j k); [contradiction|reflexivity].
  - apply sum_le. intros j _. destruct (Nat.eqb_spec j k) as [->|]; [lra|apply Rle_0_sqr].
Qed.
Lemma residual_matrix : forall n (C : matrix) d B, orthogonal n (as_matrix B) ->
  frob n (fun i k => total n (fun j => C i j * entry B j k) - value d k * entry B i k)
  = frob n (fun i j => C i j - recomposed n d B i j).
Proof.
  intros n C d B O. set (V := as_matrix B) in *.
  assert (X : meq n (fun i k => total n (fun j => C i j * entry B j k) - value d k * entry B i k) (mmul n (msub C (sandwich n V (mdiag (value d)))) V)).
  { rewrite mmul_msub_l. intros i k Hi Hk. unfold msub at 1. f_equal; [apply total_sum|].
    assert (Y : meq n (mmul n (sandwich n V (mdiag (value d))) V) (mmul n V (mdiag (value d)))).
    { unfold sandwich. rewrite <- !mmul_assoc. destruct O as [O1 _]. now rewrite O1, mmul_id_r. }
    rewrite (Y i k Hi Hk), (mmul_mdiag n V (value d) i k Hi Hk). unfold V, as_matrix. ring. }
  assert (Z : meq n (fun i j => C i j - recomposed n d B i j) (msub C (sandwich n V (mdiag (value d))))).
  { intros i j Hi Hj. unfold msub. f_equal. now apply recomposed_sandwich. }
  rewrite X, Z, <- frob_mtr, mtr_mmul. rewrite (frob_mul_l n (mtr V) _ (orthogonal_mtr n V O)). apply frob_mtr.
Qed.
Lemma quadratic_bound : forall n (C : matrix) d B k, orthogonal n (as_matrix B) -> (k < n)%nat ->
  Rabs (total n (fun i => total n (fun j => entry B i k * C i j * entry B j k)) - value d k) <= frob n (fun i j => C i j - recomposed n d B i j).
Proof.
  intros n C d B k O Hk. set (V := as_matrix B) in *.
  assert (Z : meq n (fun i j => C i j - recomposed n d B i j) (msub C (sandwich n V (mdiag (value d))))).
  { intros i j Hi Hj. unfold msub. f_equal. now apply recomposed_sandwich. }
  rewrite Z, <- (frob_sandwich n (mtr V) _ (orthogonal_mtr n V O)).
  refine (Rle_trans _ _ _ (Req_le _ _ _) (entry_le_frob n _ k k Hk Hk)). f_equal.
  rewrite (sandwich_msub n (mtr V) C (sandwich n V (mdiag (value d))) k k Hk Hk). unfold msub. f_equal.
  - unfold sandwich, mmul, mtr. rewrite total_sum. apply sum_ext. intros i Hi. rewrite total_sum, <- sum_scal. apply sum_ext. intros j Hj. unfold V, as_matrix. ring.
  - assert (Y : meq n (sandwich n (mtr V) (sandwich n V (mdiag (value d)))) (mdiag (value d))).
    { rewrite <- sandwich_mmul. destruct O as [O1 _]. rewrite O1. apply sandwich_id. }
    rewrite (Y k k Hk Hk). unfold mdiag. now rewrite Nat.eqb_refl.
Qed.
(** C b(k) is d(k) b(k) up to the tolerance, and d(k) is the variance of C in the direction b(k) up to the tolerance. *)
Theorem C61_eigenpairs : forall fuel (C : list (list R)) d B k,
  C <> [] -> eigen (K := numR) fuel C = Ok (d, B) -> let n := length C in (k < n)%nat ->
  sqrt (total n (fun i => (total n (fun j => covariance C i j * entry B j k) - value d k * entry B i k)
                        * (total n (fun j => covariance C i j * entry B j k) - value d k * entry B i k))) <= tolerance C
  /\ Rabs (total n (fun i => total n (fun j => entry B i k * covariance C i j * entry B j k)) - value d k) <= tolerance C.
Proof.
  intros fuel C d B k HC E n Hk. destruct (C61_eigendecomposition fuel C d B HC E) as (_ & _ & O1 & O2 & _ & F). fold n in O1, O2, F.
  pose proof (orthogonal_of n B O1 O2) as O. rewrite norm_frob in F. split.
  - rewrite total_sum. refine (Rle_trans _ _ _ (column_le_frob n (fun i k => total n (fun j => covariance C i j * entry B j k) - value d k * entry B i k) k Hk) _).
    now rewrite residual_matrix.
  - exact (Rle_trans _ _ _ (quadratic_bound n (covariance C) d B k O Hk) F).
Qed.
(** When the variance of C in every direction is above the tolerance, all eigenvalues are positive. *)
Theorem C61_eigenvalues_positive : forall fuel (C : list (list R)) d B c,
  C <> [] -> eigen (K := numR) fuel C = Ok (d, B) -> let n := length C in
  (forall x, total n (fun i => x i * x i) = 1 -> c <= total n (fun i => total n (fun j => x i * covariance C i j * x j))) ->
  tolerance C < c ->
  forall k, (k < n)%nat -> c - tolerance C <= value d k.
Proof.
  intros fuel C d B c HC E n HPD Hc k Hk. destruct (C61_eigenpairs fuel C d B k HC E Hk) as (_ & Q). fold n in Q.
  destruct (C61_eigendecomposition fuel C d B HC E) as (_ & _ & O1 & _). fold n in O1.
  specialize (HPD (fun i => entry B i k)). cbn beta in HPD. specialize (O1 k k Hk Hk). rewrite Nat.eqb_refl in O1. specialize (HPD O1).
  apply Rabs_le_inv in Q. lra.
Qed.

(** ** Sampling *)
Lemma sum__total : forall n (f : nat -> R), sum_ (K := numR) n f = total n f.
Proof.
  intros n f. assert (X : forall l a, fold_left (fun s j => s + f j) l a = a + fold_right Rplus 0 (map f l)).
  { induction l as [|x l IH]; intros a; cbn; [lra|]. rewrite IH. lra. }
  refine (eq_trans (X (seq 0 n) 0) _). unfold total. lra.
Qed.
Lemma due_update : forall (G : Type) fuel (P : cma_par numR) (st st' : cma_state numR G) c,
  s_gen st <> O -> s_uptodate st = false -> length (s_C st) = p_N P -> (0 < p_N P)%nat ->
  INR (s_gen_eigen st) + p_modulo P <= INR (s_gen st) ->
  (forall x, total (p_N P) (fun i => x i * x i) = 1 ->
     c <= total (p_N P) (fun i => total (p_N P) (fun j => x i * covariance (s_C st) i j * x j))) ->
  tolerance (s_C st) < c ->
  @update_eigensystem numR G (eigen (K := numR) fuel) P st = Ok st' ->
  let n := p_N P in
  exists M : nat -> nat -> R,
    norm n (fun i j => covariance (s_C st) i j - total n (fun k => M i k * M j k)) <= tolerance (s_C st)
    /\ s_mean st' = s_mean st /\ s_sigma st' = s_sigma st /\ flgdiag st = false
    /\ (forall z i, (i < n)%nat -> value (@mutant numR G P st' false z) i = value (s_mean st) i + s_sigma st * total n (fun k => M i k * value z k)).
Proof.
  intros G fuel P st st' c Hg Hu HN Hn Hm HPD Hc H n. fold n in HPD, HN, Hn.
  assert (HC : s_C st <> []) by (intros E; rewrite E in HN; cbn in HN; lia).
  assert (Hd : flgdiag st = false) by (now apply Nat.eqb_neq).
  unfold update_eigensystem in H. rewrite Hu in H. unfold flgdiag in H. replace (Nat.eqb (s_gen st) 0) with false in H by (symmetry; now apply Nat.eqb_neq).
  replace (nlt (of_nat (K := numR) (s_gen st)) (nadd (of_nat (K := numR) (s_gen_eigen st)) (p_modulo P))) with false in H.
  2:{ symmetry. apply Rlt_bool_false. unfold of_nat. cbn [numR nofZ nadd]. rewrite <- !INR_IZR_INZ. exact Hm. }
  change (obind (eigen (K := numR) fuel (s_C st)) (fun r => let '(d, Q) := r in Ok (with_eigen st (map (fun x : R => sqrt x) d) Q (s_gen st))) = Ok st') in H.
  destruct (eigen (K := numR) fuel (s_C st)) as [[d B]| |] eqn:EE; cbn [obind] in H; try discriminate. injection H as <-.
  destruct (C61_eigendecomposition fuel (s_C st) d B HC EE) as (L & (LB & FB) & O1 & O2 & _ & F).
  pose proof (C61_eigenvalues_positive fuel (s_C st) d B c HC EE) as POS. cbn zeta in POS, L, LB, FB, O1, O2, F.
  assert (HN' : @length (list R) (s_C st) = n) by exact HN. rewrite HN' in POS, L, LB, FB, O1, O2, F.
  specialize (POS HPD Hc).
  assert (SQ : forall k, (k < n)%nat -> value (map (fun x => sqrt x) d) k = sqrt (value d k)).
  { intros k Hk. unfold value. rewrite (nth_indep _ 0 (sqrt 0)) by (rewrite map_length; rewrite <- L in Hk; exact Hk). exact (map_nth (fun x => sqrt x) d 0 k). }
  exists (fun i k => entry B i k * sqrt (value d k)). split.
  - refine (Rle_trans _ _ _ (Req_le _ _ _) F). rewrite !norm_frob. apply frob_proper. intros i j Hi Hj. f_equal. unfold recomposed. apply total_ext. intros k Hk.
    specialize (POS k Hk). assert (S : sqrt (value d k) * sqrt (value d k) = value d k) by (apply sqrt_sqrt; lra). rewrite <- S at 3. ring.
  - split; [reflexivity|]. split; [reflexivity|]. split; [exact Hd|].
    intros z i Hi. unfold mutant. unfold value at 1. rewrite (nth_build R n) by exact Hi. cbn [with_eigen s_mean s_sigma s_B s_D].
    change (value (s_mean st) i + s_sigma st * sum_ (K := numR) n (fun j => entry B i j * at_ (K := numR) (build n (fun i0 => at_ (K := numR) (map (fun x => sqrt x) d) i0 * at_ (K := numR) z i0)) j)
      = value (s_mean st) i + s_sigma st * total n (fun k => entry B i k * sqrt (value d k) * value z k)).
    rewrite sum__total. do 2 f_equal. apply total_ext. intros k Hk. rewrite Rmult_assoc. f_equal. unfold at_ at 1. rewrite (nth_build R n) by exact Hk.
    rewrite <- SQ by exact Hk. reflexivity.
Qed.

Section Rows.
Context {K : Num} {G : Type}.
Variables (gauss : G -> outcome (K * G)) (round : K -> K) (bounds : list (K * K)) (transform : list K -> outcome (list K)) (P : cma_par K) (st : cma_state K G).
Definition drawn_row (r : list K) : Prop := exists z g g', draws gauss (p_N P) g = Ok (z, g') /\ r = mutant P st false z.
Lemma mutants_rows : forall n g rows g', mutants gauss P st false n g = Ok (rows, g') -> Forall drawn_row rows.
Proof.
  induction n as [|n IH]; intros g rows g'; cbn [mutants]; [intros [= <- <-]; constructor|].
  destruct (draws gauss (p_N P) g) as [[z g1]| |] eqn:Ez; cbn [obind]; try discriminate.
  destruct (mutants gauss P st false n g1) as [[rows' g2]| |] eqn:E; cbn [obind]; try discriminate. intros [= <- <-]. constructor; [exists z, g, g1; auto|]. eapply IH; eauto.
Qed.
Lemma attempts_rows : forall n row individual g row' ind' found g', attempts gauss bounds transform P st n row individual g = Ok (row', ind', found, g') ->
  individual = row -> drawn_row row -> drawn_row row' /\ (found = false -> ind' = row').
Proof.
  induction n as [|n IH]; intros row individual g row' ind' found g'; cbn [attempts]; [intros [= <- <- <- <-]; auto|].
  destruct (transform individual) as [ind| |]; cbn [obind]; try discriminate. destruct (feasible bounds ind); [intros [= <- <- <- <-]; split; [auto|discriminate]|].
  destruct (draws gauss (p_N P) g) as [[z g1]| |] eqn:Ez; cbn [obind]; try discriminate. intros H _ _. apply IH in H; [exact H|reflexivity|]. exists z, g, g1. auto.
Qed.
Lemma individuals_rows : forall rows g rows' inds g', individuals gauss round bounds transform P st rows g = Ok (rows', inds, g') -> Forall drawn_row rows ->
  Forall (fun r => drawn_row r \/ exists v, drawn_row v /\ r = clamp_all bounds v) rows'.
Proof.
  induction rows as [|row t IH]; intros g rows' inds g'; cbn [individuals]; [intros [= <- <- <-] _; constructor|].
  destruct (attempts _ _ _ _ _ _ _ _ _) as [[[[row1 ind] found] g1]| |] eqn:E; cbn [obind]; try discriminate.
  destruct (if found then (row1, ind) else (clamp_all bounds ind, clamp_all bounds ind)) as [row2 ind2] eqn:E3.
  destruct (individuals _ _ _ _ _ _ t g1) as [[[rows'' inds''] g2]| |] eqn:E4; cbn [obind]; try discriminate. intros [= <- <- <-] F. inversion F as [|? ? F1 F2]; subst.
  apply attempts_rows in E as [D1 D2]; [|reflexivity|exact F1]. constructor; [|eapply IH; eauto].
  destruct found; injection E3 as <- <-; [now left|]. right. exists row1. split; [exact D1|]. f_equal. auto.
Qed.
End Rows.
(** When the eigensystem is brought up to date (generation above 0), each sampled point is,
    before it is moved into the bounds, mean + sigma M z, where z are N numbers of the generator, and the
    matrix M is the same for all points and M M^T is the covariance matrix up to the tolerance. *)
Theorem C61_sampling : forall (G : Type) fuel gauss round bounds transform (P : cma_par numR) (st st' : cma_state numR G) c,
  s_gen st <> O -> s_uptodate st = false -> length (s_C st) = p_N P ->
  INR (s_gen_eigen st) + p_modulo P <= INR (s_gen st) ->
  (forall x, total (p_N P) (fun i => x i * x i) = 1 ->
     c <= total (p_N P) (fun i => total (p_N P) (fun j => x i * covariance (s_C st) i j * x j))) ->
  tolerance (s_C st) < c ->
  @cma_sample numR G gauss (eigen (K := numR) fuel) round bounds transform P st = Ok st' ->
  let n := p_N P in
  exists M : nat -> nat -> R,
    norm n (fun i j => covariance (s_C st) i j - total n (fun k => M i k * M j k)) <= tolerance (s_C st)
    /\ length (s_rows st') = p_lambda P
    /\ Forall (fun r => exists z g g' v, draws gauss n g = Ok (z, g')
         /\ length v = n /\ (forall i, (i < n)%nat -> value v i = value (s_mean st) i + s_sigma st * total n (fun k => M i k * value z k))
         /\ (r = v \/ r = @clamp_all numR bounds v)) (s_rows st').
Proof.
  intros G fuel gauss round bounds transform P st st' c Hg Hu HN Hm HPD Hc H n.
  pose proof (sample_rows gauss (eigen (K := numR) fuel) round bounds transform P st st' H) as (_ & _ & _ & _ & HL & _).
  unfold cma_sample, assert_ in H. destruct (Nat.ltb 0 (p_N P)) eqn:E0; cbn [obind] in H; [|discriminate]. apply Nat.ltb_lt in E0.
  destruct (update_eigensystem (eigen (K := numR) fuel) P st) as [st1| |] eqn:E1; cbn [obind] in H; try discriminate.
  destruct (due_update G fuel P st st1 c Hg Hu HN E0 Hm HPD Hc E1) as (M & M1 & M2 & M3 & M4 & M5). rewrite M4 in H.
  destruct (mutants gauss P st1 false (p_lambda P) (s_rng st1)) as [[rows g1]| |] eqn:E2; cbn [obind] in H; try discriminate.
  destruct (individuals gauss round bounds transform P st1 rows g1) as [[[rows' inds] g2]| |] eqn:E3; cbn [obind] in H; try discriminate. injection H as <-. cbn [s_rows] in *.
  exists M. split; [exact M1|]. split; [exact HL|].
  apply mutants_rows in E2. apply individuals_rows in E3; [|exact E2]. eapply Forall_impl; [|exact E3]. cbn beta. clear - M5.
  intros r [(z & g & g' & Hd & ->)|(v & (z & g & g' & Hd & ->) & ->)]; exists z, g, g', (mutant P st1 false z); (split; [exact Hd|]); (split; [exact (mutant_length (K := numR) P st1 false z)|]); (split; [intros i Hi; exact (M5 z i Hi)|]); auto.
Qed.

(** ** Any number type: the result has the sizes that the other theorems about cma_optimizer ask of it *)
Theorem C61_sizes : forall (K : Num) fuel (P : cma_par K), eigen_sized (eigen (K := K) fuel) P.
Proof.
  intros K fuel P C d Q (HL & _) H. unfold eigen in H. destruct (Nat.eqb (length C) 0); [discriminate|].
  destruct (ql_algorithm _ _ _) as [[V e]| |]; cbn [obind] in H; try discriminate. injection H as <- <-. rewrite HL.
  split; [apply build_length'|]. split; [apply build_length'|]. unfold build at 1. apply Forall_map, Forall_forall. intros. apply build_length'.
Qed.

(** ** Without a limit on the iterations.
    [runs_to E]: E is the eigendecomposition of the code, whatever number of iterations it takes. *)
Definition runs_to (E : list (list R) -> outcome (list R * list (list R))) : Prop :=
  forall C, C <> [] -> exists N, forall fuel, (N <= fuel)%nat -> eigen (K := numR) fuel C = E C.
Definition is_ok {A} (o : outcome A) : bool := match o with Ok _ => true | _ => false end.
Definition ends (C : list (list R)) (fuel : nat) : Prop := C <> [] -> is_ok (eigen (K := numR) fuel C) = true.
Lemma ends_dec : forall C fuel, {ends C fuel} + {~ ends C fuel}.
Proof.
  intros C fuel. unfold ends. destruct C as [|r C]; [left; congruence|]. destruct (is_ok (eigen (K := numR) fuel (r :: C))); [left; auto|right].
  intros H. specialize (H ltac:(discriminate)). discriminate.
Qed.
Lemma ends_ex : forall C, exists fuel, ends C fuel.
Proof.
  intros C. destruct C as [|r C]; [exists O; intros H; congruence|].
  destruct (C61_terminates (r :: C) ltac:(discriminate)) as (N & d & B & HN). exists N. intros _. rewrite (HN N (Nat.le_refl N)). reflexivity.
Qed.
Definition unlimited (C : list (list R)) : outcome (list R * list (list R)) :=
  eigen (K := numR) (proj1_sig (constructive_indefinite_ground_description_nat (ends C) (ends_dec C) (ends_ex C))) C.
Lemma ql_rows_mono : forall n f1 f2, (f1 <= f2)%nat -> forall cnt l (q q' : qlR), ql_rows f1 n l cnt q = Ok q' -> ql_rows f2 n l cnt q = Ok q'.
Proof.
  intros n f1 f2 Hf. induction cnt as [|cnt IH]; intros l q q' H; cbn [ql_rows] in *; [exact H|].
  destruct (ql_row f1 n l q) as [q1| |] eqn:E; cbn [obind] in H; try discriminate. rewrite (ql_row_mono _ _ _ _ _ _ Hf E). cbn [obind]. now apply IH.
Qed.
Lemma eigen_mono : forall f1 f2 (C : list (list R)) r, (f1 <= f2)%nat -> eigen (K := numR) f1 C = Ok r -> eigen (K := numR) f2 C = Ok r.
Proof.
  intros f1 f2 C r Hf. unfold eigen. destruct (Nat.eqb _ 0); [trivial|]. unfold ql_algorithm. cbn zeta.
  match goal with |- context [ql_rows f1 ?n ?l ?c ?q] => destruct (ql_rows f1 n l c q) as [q1| |] eqn:E end; cbn [obind]; try discriminate.
  rewrite (ql_rows_mono _ _ _ Hf _ _ _ _ E). trivial.
Qed.
Theorem C61_unlimited : runs_to unlimited /\ forall C, C <> [] -> exists d B, unlimited C = Ok (d, B).
Proof.
  assert (X : forall C, C <> [] -> exists d B, unlimited C = Ok (d, B)).
  { intros C HC. unfold unlimited. destruct (constructive_indefinite_ground_description_nat (ends C) (ends_dec C) (ends_ex C)) as [N HN]. cbn [proj1_sig].
    specialize (HN HC). destruct (eigen (K := numR) N C) as [[d B]| |]; try discriminate. eauto. }
  split; [|exact X]. intros C HC. destruct (X C HC) as (d & B & E). rewrite E. unfold unlimited in E.
  destruct (constructive_indefinite_ground_description_nat (ends C) (ends_dec C) (ends_ex C)) as [N HN]. cbn [proj1_sig] in E.
  exists N. intros fuel Hf. now apply (eigen_mono N).
Qed.
(** So the sampling and updating protocol of C45 holds, over the reals, with the code's own eigendecomposition. *)
Theorem C61_protocol : forall (G : Type) gauss cpow round bounds transform (P : cma_par numR) (pars : list (R * R)) (g : G) (ops : list (cma_op numR)) E, runs_to E ->
  (0 < p_N P)%nat -> length pars = p_N P ->
  (forall g, exists z g', gauss g = Ok (z, g')) ->
  (forall v, length v = p_N P -> exists w, transform v = Ok w) -> transform_sized transform P ->
  let '(oks, (updates, pending)) := protocol (p_lambda P) (0%nat, false) ops in
  exists st, @calls numR G gauss E cpow round bounds transform P (@cma_init numR G round P pars g) ops = Ok (oks, st) /\
    s_gen st = (updates + (if pending then 1 else 0))%nat.
Proof.
  intros G gauss cpow round bounds transform P pars g ops E HE HN HP HG HT HTS.
  apply C45_protocol; auto.
  - intros C (HC & _). assert (HC' : C <> []) by (intros ->; cbn in HC; lia). destruct (HE C HC') as (N1 & H1). destruct (C61_terminates C HC') as (N2 & d & B & H2).
    exists d, B. rewrite <- (H1 (Nat.max N1 N2)) by lia. apply H2. lia.
  - intros C d Q HC H. assert (HC' : C <> []) by (intros ->; destruct HC as [HC _]; cbn in HC; lia). destruct (HE C HC') as (N1 & H1).
    apply (C61_sizes numR N1 P C d Q HC). rewrite H1 by lia. exact H.
Qed.
(** ** A concrete case: the covariance (2 1; 1 2), of eigenvalues 1 and 3 *)
Definition ex_C : list (list R) := [[2]; [1; 2]].
Definition ex_par : cma_par numR :=
  {| p_N := 2; p_lambda := 4; p_mu := 2; p_weights := [1; 0] : list numR; p_mueff := 1 : numR; p_mucov := 1 : numR; p_cs := 1 : numR; p_ccumcov := 1 : numR; p_ccov := 0 : numR; p_damps := 1 : numR; p_modulo := 1 : numR |}.
Definition ex_st : cma_state numR unit :=
  {| s_sigma := 1 : numR; s_mean := [5; 6] : list numR; s_C := ex_C; s_B := [[1; 0]; [0; 1]] : list (list numR); s_D := [1; 1] : list numR; s_pc := [0; 0] : list numR; s_ps := [0; 0] : list numR;
     s_gen := 3; s_phase := Updated; s_uptodate := false; s_gen_eigen := 0; s_rows := repeat [0; 0] 4; s_bounded := repeat [0; 0] 4; s_rng := tt |}.
Lemma ex_tolerance : tolerance ex_C < 1.
Proof.
  unfold tolerance, norm, covariance, entry, total, ex_C. cbn [length seq map fold_right nth Nat.max Nat.min INR].
  match goal with |- context [sqrt ?x] => replace x with 10 by ring end.
  assert (sqrt 10 < 4) by (apply Rsqr_incrst_0; [|apply sqrt_pos|lra]; rewrite Rsqr_sqrt by lra; unfold Rsqr; lra). lra.
Qed.
Example C61_nonvacuous : exists fuel st' c,
  s_gen ex_st <> O /\ s_uptodate ex_st = false /\ length (s_C ex_st) = p_N ex_par /\ INR (s_gen_eigen ex_st) + p_modulo ex_par <= INR (s_gen ex_st)
  /\ (forall x, total (p_N ex_par) (fun i => x i * x i) = 1 ->
       c <= total (p_N ex_par) (fun i => total (p_N ex_par) (fun j => x i * covariance (s_C ex_st) i j * x j)))
  /\ tolerance (s_C ex_st) < c
  /\ @cma_sample numR unit (fun g => Ok (1, g)) (eigen (K := numR) fuel) (fun x => x) [(-100, 100); (-100, 100)] (fun v => Ok v) ex_par ex_st = Ok st'.
Proof.
  destruct (C61_terminates ex_C ltac:(discriminate)) as (N & d & B & HN). specialize (HN N (Nat.le_refl N)).
  assert (EU : @update_eigensystem numR unit (eigen (K := numR) N) ex_par ex_st = @update_eigensystem numR unit (fun _ => Ok (d, B)) ex_par ex_st).
  { unfold update_eigensystem. destruct (s_uptodate ex_st); [reflexivity|]. destruct (flgdiag ex_st); [reflexivity|]. destruct (nlt _ _); [reflexivity|].
    change (s_C ex_st) with ex_C. exact (f_equal (fun o => obind o _) HN). }
  assert (S : exists st', @cma_sample numR unit (fun g => Ok (1, g)) (eigen (K := numR) N) (fun x => x) [(-100, 100); (-100, 100)] (fun v => Ok v) ex_par ex_st = Ok st').
  { unfold cma_sample. rewrite EU. apply (@sample_defined numR unit (fun g => Ok (1, g)) (fun _ => Ok (d, B)) (fun x => x) [(-100, 100); (-100, 100)] (fun v => Ok v) ex_par ex_st).
    - cbn; lia.
    - eauto.
    - eauto.
    - eauto.
    - unfold cma_sized. cbn [ex_st ex_par p_N p_lambda s_mean s_C s_B s_D s_pc s_ps s_rows s_bounded].
      split; [reflexivity|]. split; [split; [reflexivity|intros i Hi; cbn in Hi; destruct i as [|[|i]]; [reflexivity|reflexivity|lia]]|].
      split; [split; [reflexivity|repeat constructor]|]. split; [reflexivity|]. split; [reflexivity|]. split; [reflexivity|].
      split; [reflexivity|]. split; [repeat constructor|]. split; [reflexivity|repeat constructor]. }
  destruct S as (st' & S). exists N, st', 1.
  split; [discriminate|]. split; [reflexivity|]. split; [reflexivity|]. split; [cbn; lra|]. split; [|split; [exact ex_tolerance|exact S]].
  intros x. unfold total, covariance, entry. cbn [ex_par ex_st p_N s_C ex_C length seq map fold_right nth Nat.max Nat.min]. intros Hx.
  pose proof (Rle_0_sqr (x 0%nat + x 1%nat)) as HS. unfold Rsqr in HS. nra.
Qed.

(** ** Doubles: a matrix with an entry that is not a number makes the code read outside the arrays
    (m becomes n in lines 481-485). *)
Theorem C61_nan_refuted : forall L : libm, ~ (forall fuel (C : list (list f64)), C <> [] -> eigen (K := numF L) fuel C <> Undef).
Proof.
  intros L H. apply (H 5%nat [[fofZ 1]; [fnan; fofZ 1]]); [discriminate|]. vm_compute. reflexivity.
Qed.
