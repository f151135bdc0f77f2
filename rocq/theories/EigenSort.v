(** * The selection sort at the end of QLalgo2 (cma_optimizer.cpp:550-578), over the reals *)
From Coq Require Import Reals Lra Lia Arith Bool Setoid.
From Flocq Require Import Core.
From Verif Require Import Prelude Num Cma CmaEigen MatR EigenQL.
#[local] Open Scope R_scope.

Definition swap (i k b : nat) : nat := if Nat.eqb b i then k else if Nat.eqb b k then i else b.
Lemma swap_i i k : swap i k i = k.
Proof. unfold swap. now rewrite Nat.eqb_refl. Qed.
Lemma swap_k i k : swap i k k = i.
Proof. unfold swap. destruct (Nat.eqb_spec k i); [assumption|]. now rewrite Nat.eqb_refl. Qed.
Lemma swap_other i k b : b <> i -> b <> k -> swap i k b = b.
Proof. intros H1 H2. unfold swap. apply Nat.eqb_neq in H1, H2. now rewrite H1, H2. Qed.
Lemma swap_swap i k b : swap i k (swap i k b) = b.
Proof.
  destruct (Nat.eq_dec b i) as [->|H1]; [rewrite swap_i; apply swap_k|].
  destruct (Nat.eq_dec b k) as [->|H2]; [rewrite swap_k; apply swap_i|]. rewrite (swap_other i k b) by assumption. now apply swap_other.
Qed.
Lemma sum_swap : forall n i k f, (i < n)%nat -> (k < n)%nat -> sum n (fun b => f (swap i k b)) = sum n f.
Proof.
  intros n i k f Hi Hk. destruct (Nat.eq_dec i k) as [->|Hn].
  - apply sum_ext. intros b _. f_equal. unfold swap. destruct (Nat.eqb_spec b k); congruence.
  - apply (sum_change2 n i k); [assumption|assumption|assumption| |].
    + intros b _ H1 H2. now rewrite swap_other.
    + rewrite swap_i, swap_k. ring.
Qed.

Definition colswap (i k : nat) (V : matrix) : matrix := fun a b => V a (swap i k b).
Lemma swap_columns_spec : forall n i k (V : matrix), i <> k -> meq n (swap_columns (K := numR) n i k V) (colswap i k V).
Proof.
  intros n i k V Hik a b Ha _. unfold swap_columns.
  pose (P := fun j (W : matrix) => forall a b, W a b = if Nat.ltb a j then colswap i k V a b else V a b).
  enough (HP : P (0 + n)%nat (@for_up (@mat numR) 0 n (fun j V => let p := V j i in mset (K := numR) (mset (K := numR) V j i (V j k)) j k p) V)).
  { rewrite HP. now replace (Nat.ltb a (0 + n)) with true by (symmetry; apply Nat.ltb_lt; lia). }
  clear a b Ha. apply for_up_ind.
  - intros a b. reflexivity.
  - intros j W Hj HW a b. cbn zeta. unfold mset. rewrite !HW. replace (Nat.ltb j j) with false by (symmetry; apply Nat.ltb_ge; lia).
    destruct (Nat.ltb_spec a j) as [H1|H1].
    + replace (Nat.ltb a (S j)) with true by (symmetry; apply Nat.ltb_lt; lia).
      now replace (Nat.eqb a j) with false by (symmetry; apply Nat.eqb_neq; lia).
    + destruct (Nat.eqb_spec a j) as [->|Hne]; cbn [andb].
      * replace (Nat.ltb j (S j)) with true by (symmetry; apply Nat.ltb_lt; lia). unfold colswap, swap.
        destruct (Nat.eqb_spec b k) as [->|Hb]; [now replace (Nat.eqb k i) with false by (symmetry; apply Nat.eqb_neq; lia)|].
        destruct (Nat.eqb b i); reflexivity.
      * now replace (Nat.ltb a (S j)) with false by (symmetry; apply Nat.ltb_ge; lia).
Qed.
Lemma sandwich_diag : forall n V d a b, (b < n)%nat -> sandwich n V (mdiag d) a b = sum n (fun k => V a k * d k * V b k).
Proof.
  intros n V d a b Hb. unfold sandwich, mmul, mtr, mdiag. apply sum_ext. intros k Hk.
  rewrite (sum_single n k); [rewrite Nat.eqb_refl; ring|exact Hk|]. intros j _ Hj. apply not_eq_sym, Nat.eqb_neq in Hj. rewrite Hj. ring.
Qed.
Lemma colswap_meq : forall n i k V d, (i < n)%nat -> (k < n)%nat ->
  meq n (sandwich n (colswap i k V) (mdiag (fun a => d (swap i k a)))) (sandwich n V (mdiag d)).
Proof.
  intros n i k V d Hi Hk a b Ha Hb. rewrite !sandwich_diag by assumption. unfold colswap.
  apply (sum_swap n i k (fun j => V a j * d j * V b j) Hi Hk).
Qed.
Lemma colswap_orth : forall n i k V, (i < n)%nat -> (k < n)%nat -> orthogonal n V -> orthogonal n (colswap i k V).
Proof.
  intros n i k V Hi Hk [O1 O2].
  assert (SB : forall b, (b < n)%nat -> (swap i k b < n)%nat) by (intros b Hb; unfold swap; destruct (Nat.eqb b i); [assumption|]; destruct (Nat.eqb b k); assumption).
  split; intros a b Ha Hb.
  - change (mmul n (mtr V) V (swap i k a) (swap i k b) = mid a b). rewrite (O1 _ _ (SB a Ha) (SB b Hb)). unfold mid.
    destruct (Nat.eqb_spec a b) as [->|Hab]; [now rewrite Nat.eqb_refl|].
    destruct (Nat.eqb_spec (swap i k a) (swap i k b)) as [E|]; [|reflexivity]. exfalso. apply Hab.
    rewrite <- (swap_swap i k a), <- (swap_swap i k b), E. reflexivity.
  - rewrite <- (O2 a b Ha Hb). apply (sum_swap n i k (fun j => V a j * V b j) Hi Hk).
Qed.

Lemma smallest_spec : forall n i (d : nat -> R), (i < n)%nat ->
  let r := smallest (K := numR) n i d in
  snd r = d (fst r) /\ (i <= fst r < n)%nat /\ (forall b, (i <= b < n)%nat -> d (fst r) <= d b).
Proof.
  intros n i d Hi. cbn zeta. unfold smallest.
  pose (P := fun j (s : nat * R) => snd s = d (fst s) /\ (i <= fst s < n)%nat /\ (forall b, (i <= b < j)%nat -> d (fst s) <= d b)).
  enough (HP : P (S i + (n - S i))%nat (@for_up (nat * R) (S i) (n - S i) (fun j s => if @nlt numR (d j) (snd s) then (j, d j) else s) (i, d i))).
  { replace (S i + (n - S i))%nat with n in HP by lia. exact HP. }
  apply for_up_ind.
  - split; [reflexivity|]. cbn [fst]. split; [lia|]. intros b Hb. replace b with i by lia. lra.
  - intros j [k p] Hj (H1 & H2 & H3). cbn [fst snd numR nlt] in *. subst p.
    destruct (Rlt_bool_spec (d j) (d k)) as [H|H]; (split; [reflexivity|]); cbn [fst]; (split; [lia|]); intros b Hb.
    + destruct (Nat.eq_dec b j) as [->|]; [lra|]. specialize (H3 b ltac:(lia)). lra.
    + destruct (Nat.eq_dec b j) as [->|]; [exact H|]. apply H3. lia.
Qed.

Lemma sort_eigen_spec : forall n (V : matrix) (d : nat -> R), (0 < n)%nat -> orthogonal n V ->
  let r := sort_eigen (K := numR) n (V, d) in
  orthogonal n (fst r) /\ meq n (sandwich n (fst r) (mdiag (snd r))) (sandwich n V (mdiag d))
  /\ (forall a b, (a <= b < n)%nat -> snd r a <= snd r b).
Proof.
  intros n V d Hn O. cbn zeta. unfold sort_eigen.
  pose (P := fun i (s : matrix * (nat -> R)) => orthogonal n (fst s) /\ meq n (sandwich n (fst s) (mdiag (snd s))) (sandwich n V (mdiag d))
    /\ (forall a b, (a < i)%nat -> (a <= b < n)%nat -> snd s a <= snd s b)).
  enough (HP : P (0 + (n - 1))%nat (@for_up (matrix * (nat -> R)) 0 (n - 1) (sort_step (K := numR) n) (V, d))).
  { destruct HP as (P1 & P2 & P3). split; [exact P1|split; [exact P2|]]. intros a b Hab.
    destruct (Nat.eq_dec a (n - 1)) as [->|]; [replace b with (n - 1)%nat by lia; apply Rle_refl|]. apply P3; lia. }
  apply for_up_ind.
  - split; [exact O|split; [reflexivity|]]. intros; lia.
  - intros i [W c] Hi (P1 & P2 & P3). cbn [fst snd] in *. unfold sort_step.
    destruct (smallest_spec n i c ltac:(lia)) as (S1 & S2 & S3). cbn zeta in *.
    destruct (smallest (K := numR) n i c) as [k p]. cbn [fst snd] in *. change (nT numR) with R in *. subst p.
    destruct (Nat.eqb_spec k i) as [->|Hki].
    + split; [exact P1|split; [exact P2|]]. cbn [snd]. intros a b Ha Hab. destruct (Nat.eq_dec a i) as [->|]; [apply S3; lia|]. apply P3; lia.
    + assert (Ec : forall a, vset (K := numR) (vset (K := numR) c k (c i)) i (c k) a = c (swap i k a)).
      { intros a. unfold vset, swap. destruct (Nat.eqb_spec a i); [reflexivity|]. destruct (Nat.eqb a k); reflexivity. }
      assert (Em : meq n (mdiag (vset (K := numR) (vset (K := numR) c k (c i)) i (c k))) (mdiag (fun a => c (swap i k a)))).
      { intros a b _ _. unfold mdiag. destruct (Nat.eqb a b); [apply Ec|reflexivity]. }
      split; [|split].
      * cbn [fst]. destruct (colswap_orth n i k W ltac:(lia) ltac:(lia) P1) as [Q1 Q2]. split; rewrite swap_columns_spec by lia; assumption.
      * cbn [fst snd]. rewrite swap_columns_spec by lia. rewrite Em, colswap_meq by lia. exact P2.
      * cbn [snd]. intros a b Ha Hab. rewrite !Ec. destruct (Nat.eq_dec a i) as [->|].
        -- rewrite swap_i. apply S3. unfold swap. destruct (Nat.eqb b i); [lia|]. destruct (Nat.eqb b k); lia.
        -- rewrite (swap_other i k a) by lia. apply P3; [lia|]. unfold swap. destruct (Nat.eqb b i); [lia|]. destruct (Nat.eqb_spec b k); lia.
Qed.
