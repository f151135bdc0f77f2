(** * Termination of the QL iteration, and Eigen as a whole, over the reals *)
From Coq Require Import Reals Lra Lia Arith Bool Setoid List.
From Flocq Require Import Core.
From Verif Require Import Prelude Num Cma CmaEigen MatR EigenQL EigenSort EigenTri EigenTri2.
#[local] Open Scope R_scope.

(** ** The do loop ends *)
Definition not_throw {A} (o : outcome A) : Prop := match o with Throw _ => False | _ => True end.

Lemma ql_loop_end : forall n l m N fuel (q : qlR),
  (l < m < n)%nat -> (forall a, (l <= a < m)%nat -> qe q a <> 0) -> (forall k, S k = l -> qe q k = 0) -> orthogonal n (qV q) ->
  let t := epsR * qtst q in
  0 < t -> t < Rabs (qe q l) -> (9 / 10) ^ N * ((qe q l : R) * qe q l * Rabs (qe q (S l))) <= t * t * t ->
  (N < fuel)%nat -> not_throw (ql_loop fuel n l m q).
Proof.
  intros n l m N. induction N as [|N IH]; intros fuel q Hm He H0 HO t Ht Hl HN Hf.
  all: destruct fuel as [|fu]; [lia|]; cbn [ql_loop]; replace (Nat.leb n m) with false by (symmetry; apply Nat.leb_gt; lia);
    destruct (ql_iteration_spec n l m q Hm He H0 HO) as (I1 & I2 & I3 & I4 & I5 & I6 & _ & I8 & I9);
    set (q1 := ql_iteration n l m q) in *; clearbody q1; cbn [numR nlt nmul nabs]; change (@eps numR) with epsR; change (nT numR) with R in *;
    rewrite I6; fold t; destruct (Rlt_bool_spec t (Rabs (qe q1 l))) as [Hlt|Hle]; [|exact I].
  - exfalso. cbn [pow] in HN. rewrite Rmult_1_l in HN.
    assert (A : Rabs (qe q l) * Rabs (qe q l) = qe q l * qe q l) by (unfold Rabs; destruct (Rcase_abs (qe q l)); ring).
    rewrite <- A in HN. assert (B : t < Rabs (qe q (S l))) by lra.
    assert (t * t < Rabs (qe q l) * Rabs (qe q l)) by (apply Rmult_le_0_lt_compat; lra).
    assert (t * t * t < Rabs (qe q l) * Rabs (qe q l) * Rabs (qe q (S l))) by (apply Rmult_le_0_lt_compat; nra). lra.
  - apply IH; try assumption; try lia.
    + intros a Ha. destruct (Nat.eq_dec a l) as [->|]; [|apply I4; lia]. intros Z. change (nT numR) with R in *. rewrite Z, Rabs_R0 in Hlt. lra.
    + intros k Hk. rewrite I3 by lia. now apply H0.
    + rewrite I6. exact Ht.
    + rewrite I6. exact Hlt.
    + rewrite I6. fold t. cbn [pow] in HN.
      assert (P : 0 <= (9 / 10) ^ N) by (apply pow_le; lra).
      eapply Rle_trans; [apply (Rmult_le_compat_l _ _ _ P I9)|]. eapply Rle_trans; [|exact HN]. right. ring.
Qed.
Lemma pow_small : forall x y : R, 0 <= x -> 0 < y -> exists N, (9 / 10) ^ N * x <= y.
Proof.
  intros x y Hx Hy. destruct (pow_lt_1_zero (9 / 10) ltac:(rewrite Rabs_pos_eq; lra) (y / (x + 1)) ltac:(apply Rdiv_lt_0_compat; lra)) as [N HN].
  exists N. specialize (HN N (le_n N)). rewrite Rabs_pos_eq in HN by (apply pow_le; lra).
  apply (Rmult_lt_compat_r (x + 1)) in HN; [|lra]. unfold Rdiv in HN at 2. rewrite Rmult_assoc, Rinv_l, Rmult_1_r in HN by lra.
  assert (0 <= (9 / 10) ^ N) by (apply pow_le; lra). lra.
Qed.
Lemma ql_loop_mono : forall n l m f1 f2 (q q' : qlR), (f1 <= f2)%nat -> ql_loop f1 n l m q = Ok q' -> ql_loop f2 n l m q = Ok q'.
Proof.
  intros n l m f1. induction f1 as [|f1 IH]; intros f2 q q' Hf H; [discriminate|]. destruct f2 as [|f2]; [lia|].
  cbn [ql_loop] in *. destruct (Nat.leb n m); [discriminate|].
  destruct (nlt _ _); [|exact H]. apply (IH f2); [lia|exact H].
Qed.
Lemma ql_row_mono : forall n l f1 f2 (q q' : qlR), (f1 <= f2)%nat -> ql_row f1 n l q = Ok q' -> ql_row f2 n l q = Ok q'.
Proof.
  intros n l f1 f2 q q' Hf. unfold ql_row. cbn zeta. destruct (Nat.ltb _ _); [|trivial].
  match goal with |- obind ?x _ = _ -> _ => destruct x as [q2| |] eqn:E end; cbn [obind]; try discriminate.
  rewrite (ql_loop_mono _ _ _ _ _ _ _ Hf E). trivial.
Qed.
Lemma ql_row_ends : forall n A F l (q : qlR), (l < n)%nat -> row_inv n A F l q ->
  exists N q', forall fuel, (N <= fuel)%nat -> ql_row fuel n l q = Ok q'.
Proof.
  intros n A F l q Hl RI.
  assert (E : exists N, not_throw (ql_row N n l q)).
  { destruct RI as [R1 R2 R3 R4 R5 R6 R7]. unfold ql_row. cbn zeta. cbn [numR nlt nadd nmul nabs]. change (@eps numR) with epsR. change (nT numR) with R in *.
    set (tst := if Rlt_bool (qtst q) (Rabs (qd q l) + Rabs (qe q l)) then Rabs (qd q l) + Rabs (qe q l) else qtst q).
    assert (Ht : Rabs (qe q l) <= tst /\ 0 <= tst).
    { pose proof (Rabs_pos (qd q l)). pose proof (Rabs_pos (qe q l)). unfold tst. destruct (Rlt_bool_spec (qtst q) (Rabs (qd q l) + Rabs (qe q l))); lra. }
    clearbody tst. destruct Ht as [Ht1 Ht2].
    assert (E0 : 0 < epsR) by (rewrite epsR_value; lra).
    destruct (find_small_spec (qe q) (epsR * tst) (n - l) l) as (M1 & M2 & M3). cbn zeta in M1, M2, M3.
    set (m := find_small (K := numR) (qe q) (epsR * tst) l (n - l)) in *.
    change (find_small (qe q) (epsR * tst) l (n - l)) with m. clearbody m.
    assert (Tol : 0 <= epsR * tst) by (apply Rmult_le_pos; lra).
    assert (Mn : (m < n)%nat).
    { destruct (Nat.lt_ge_cases m n) as [|G]; [assumption|]. exfalso. specialize (M2 (n - 1)%nat ltac:(lia)). change (nT numR) with R in *. rewrite R5, Rabs_R0 in M2. lra. }
    destruct (Nat.ltb_spec l m) as [Hlm|Hlm]; [|exists O; exact I].
    set (q1 := {| qV := qV q; qd := qd q; qe := qe q; qf := qf q; qtst := tst |}).
    pose proof (M2 l ltac:(lia)) as Hel.
    assert (Tp : 0 < epsR * tst). { assert (0 < tst); [|now apply Rmult_lt_0_compat]. destruct (Req_dec tst 0) as [Z|]; [|lra]. rewrite Z in *. pose proof (Rabs_pos (qe q l)). lra. }
    destruct (pow_small ((qe q l : R) * qe q l * Rabs (qe q (S l))) (epsR * tst * (epsR * tst) * (epsR * tst))) as [N HN].
    { apply Rmult_le_pos; [apply Rle_0_sqr|apply Rabs_pos]. } { apply Rmult_lt_0_compat; [apply Rmult_lt_0_compat|]; exact Tp. }
    exists (S N).
    pose proof (ql_loop_end n l m N (S N) q1 (conj Hlm Mn)) as L. cbn [q1 qV qd qe qf qtst] in L. cbn zeta in L.
    assert (L' : not_throw (ql_loop (S N) n l m q1)).
    { apply L; try assumption; try lia.
      - intros a Ha Z. specialize (M2 a Ha). change (nT numR) with R in *. rewrite Z, Rabs_R0 in M2. lra.
      - intros k Hk. apply R4. lia. }
    destruct (ql_loop (S N) n l m q1); [exact I|contradiction|exact I]. }
  destruct E as [N HN]. pose proof (ql_row_spec n A F l N q Hl RI) as P.
  destruct (ql_row N n l q) as [q'| |] eqn:Eq; [|contradiction|contradiction].
  exists N, q'. intros fuel Hf. now apply (ql_row_mono n l N).
Qed.
Lemma ql_rows_end : forall n A F cnt l (q : qlR), (l + cnt = n)%nat -> row_inv n A F l q ->
  exists N q', forall fuel, (N <= fuel)%nat -> ql_rows fuel n l cnt q = Ok q'.
Proof.
  intros n A F cnt. induction cnt as [|c IH]; intros l q E H.
  - exists O, q. intros; reflexivity.
  - destruct (ql_row_ends n A F l q ltac:(lia) H) as (N & q1 & HN).
    pose proof (ql_row_spec n A F l N q ltac:(lia) H) as P. rewrite (HN N (le_n N)) in P.
    destruct (IH (S l) q1 ltac:(lia) P) as (N2 & q2 & HN2).
    exists (Nat.max N N2), q2. intros fuel Hf. cbn [ql_rows]. rewrite (HN fuel) by lia. cbn [obind]. apply HN2. lia.
Qed.

(** ** QLalgo2 *)
Definition spectral (n : nat) (A V : matrix) (d : nat -> R) : Prop :=
  orthogonal n V /\ (forall a b, (a <= b < n)%nat -> d a <= d b)
  /\ frob n (msub A (sandwich n V (mdiag d))) <= INR n * (12 * epsR * frob n A).
Lemma shift_e_spec : forall n (e : nat -> R), (0 < n)%nat -> forall a,
  vset (K := numR) (@for_up (nat -> R) 1 (n - 1) (fun i e => vset (K := numR) e (i - 1)%nat (e i)) e) (n - 1) (nofZ 0) a
  = if Nat.eqb a (n - 1) then 0 else if Nat.ltb a (n - 1) then e (S a) else e a.
Proof.
  intros n e Hn a.
  assert (X : forall a, @for_up (nat -> R) 1 (n - 1) (fun i e => vset (K := numR) e (i - 1)%nat (e i)) e a = if Nat.ltb a (n - 1) then e (S a) else e a).
  { pose (P := fun k (v : nat -> R) => forall a, v a = if Nat.ltb a (k - 1) then e (S a) else e a).
    enough (HP : P n (@for_up (nat -> R) 1 (n - 1) (fun i e => vset (K := numR) e (i - 1)%nat (e i)) e)) by exact HP.
    apply for_up_ind'; [lia| |].
    - intros b. natcase; reflexivity.
    - intros k v Hk H b. change (upd v (k - 1) (v k) b = if Nat.ltb b (S k - 1) then e (S b) else e b). unfold upd. rewrite !H. natcase; subst; try reflexivity.
      f_equal. lia. }
  unfold vset at 1. destruct (Nat.eqb a (n - 1)); [reflexivity|apply X].
Qed.
Lemma ql_start : forall n (A V : matrix) (d e : nat -> R), (0 < n)%nat -> orthogonal n V ->
  meq n (sandwich n V (tri d (fun a => e (S a)))) A ->
  row_inv n A (frob n A) 0 (@Build_ql numR V d (vset (K := numR) (@for_up (nat -> R) 1 (n - 1) (fun i e => vset (K := numR) e (i - 1)%nat (e i)) e) (n - 1) (nofZ 0)) 0 0).
Proof.
  intros n A V d e Hn O HA. pose proof (frob_nonneg n A) as F0.
  assert (Eact : meq n (actual 0 (@Build_ql numR V d (vset (K := numR) (@for_up (nat -> R) 1 (n - 1) (fun i e => vset (K := numR) e (i - 1)%nat (e i)) e) (n - 1) (nofZ 0)) 0 0))
                       (tri d (fun a => e (S a)))).
  { unfold actual. cbn [qd qe qf]. apply tri_meq.
    - intros a Ha. unfold shifted. natcase. apply Rplus_0_r.
    - intros a Ha. rewrite shift_e_spec by exact Hn. natcase. reflexivity. }
  constructor; cbn [qV qd qe qf qtst].
  - exact O.
  - rewrite Eact. rewrite <- (frob_sandwich n V _ O), HA. apply Rle_refl.
  - rewrite Eact, HA. cbn [INR]. rewrite Rmult_0_l. right. rewrite <- sqrt_0. unfold frob. f_equal. unfold dot. apply sum_0. intros i _. apply sum_0. intros j _. unfold msub. ring.
  - intros; lia.
  - rewrite shift_e_spec by exact Hn. now rewrite Nat.eqb_refl.
  - rewrite Rabs_R0. lra.
  - lra.
Qed.
Lemma ql_algorithm_spec : forall fuel n (A V : matrix) (d e : nat -> R), (0 < n)%nat -> orthogonal n V ->
  meq n (sandwich n V (tri d (fun a => e (S a)))) A ->
  match ql_algorithm (K := numR) fuel n (mkA V d e) with Ok (V', d') => spectral n A V' d' | Throw _ => True | Undef => False end.
Proof.
  intros fuel n A V d e Hn O HA. unfold ql_algorithm. cbn zeta. cbn [aV ad ae].
  pose proof (ql_rows_spec n A (frob n A) fuel n 0 _ (eq_refl n) (ql_start n A V d e Hn O HA)) as P.
  match type of P with match ?x with _ => _ end => change (match (let* q := x in Ok (sort_eigen (K := numR) n (qV q, qd q))) with Ok (V', d') => spectral n A V' d' | Throw _ => True | Undef => False end); destruct x as [q| |] end; cbn [obind]; [|exact I|exact P].
  destruct P as [R1 R2 R3 R4 R5 R6 R7].
  assert (ED : meq n (actual n q) (mdiag (qd q))).
  { intros a b Ha Hb. unfold actual, tri, shifted, mdiag. natcase; try reflexivity; rewrite R4 by lia; reflexivity. }
  destruct (sort_eigen_spec n (qV q) (qd q) Hn R1) as (S1 & S2 & S3). cbn zeta in S1, S2, S3.
  enough (G : spectral n A (fst (sort_eigen (K := numR) n (qV q, qd q))) (snd (sort_eigen (K := numR) n (qV q, qd q)))).
  { revert G. generalize (sort_eigen (K := numR) n (qV q, qd q)). intros [V' d'] G. exact G. }
  split; [exact S1|split; [exact S3|]]. rewrite S2, <- ED. exact R3.
Qed.
Lemma ql_algorithm_ends : forall n (A V : matrix) (d e : nat -> R), (0 < n)%nat -> orthogonal n V ->
  meq n (sandwich n V (tri d (fun a => e (S a)))) A ->
  exists N r, forall fuel, (N <= fuel)%nat -> ql_algorithm (K := numR) fuel n (mkA V d e) = Ok r.
Proof.
  intros n A V d e Hn O HA.
  destruct (ql_rows_end n A (frob n A) n 0 _ (eq_refl n) (ql_start n A V d e Hn O HA)) as (N & q & HN).
  exists N, (sort_eigen (K := numR) n (qV q, qd q)). intros fuel Hf. unfold ql_algorithm. cbn zeta. cbn [aV ad ae].
  refine (eq_trans (f_equal (fun o => obind o _) (HN fuel Hf)) _). reflexivity.
Qed.
