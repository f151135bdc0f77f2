(** * C69: the update of the search distribution is that of CMA-ES *)
From Coq Require Import Reals Lra Lia Arith Bool List ZArith Permutation.
From Flocq Require Import Core.
From Verif Require Import Prelude Round8 Num Cma CmaFacts Properties_Cma CmaEigen MatR Properties_Eigen Properties_Cma4.
From Verif Require Properties_Cma2.
Import ListNotations.
#[local] Open Scope R_scope.

(** ** Specification: CMA-ES as published (Hansen, The CMA Evolution Strategy: a tutorial) *)
(** The points ordered by fitness, best first; of two equally good points the one sampled later comes first. *)
Definition ranking (fits : list R) (order : list nat) : Prop :=
  Permutation order (seq 0 (length fits)) /\
  forall p q i j, (p < q)%nat -> nth_error order p = Some i -> nth_error order q = Some j -> value fits i <= value fits j /\ (value fits i = value fits j -> (j < i)%nat).
(** The length of a vector, and the approximation of the expected length of a standard normal vector. *)
Definition vector_length (n : nat) (v : nat -> R) : R := sqrt (total n (fun i => v i * v i)).
Definition expected_length (n : nat) : R := sqrt (INR n) * (1 - 1 / (4 * INR n) + 1 / (21 * (INR n * INR n))).
(** [A] is the inverse square root of the positive definite matrix [S]. *)
Definition inverse_root (n : nat) (S A : nat -> nat -> R) : Prop :=
  (forall i j, (i < n)%nat -> (j < n)%nat -> A i j = A j i) /\
  (forall x, (exists i, (i < n)%nat /\ x i <> 0) -> 0 < total n (fun i => total n (fun j => x i * A i j * x j))) /\
  (forall i j, (i < n)%nat -> (j < n)%nat -> total n (fun k => total n (fun l => A i k * S k l * A l j)) = if Nat.eqb i j then 1 else 0).
(** One update: [x k] is the k-th best point of the generation, [A] the inverse square root of the covariance
    matrix the generation was drawn with, [flat] whether the best and the middle fitness are equal. *)
Definition cma_es_update {G : Type} (P : cma_par numR) (gen : nat) (A x : nat -> nat -> R) (flat : Prop) (st st' : cma_state numR G) : Prop :=
  let n := p_N P in let mu := p_mu P in let w := value (p_weights P) in let mueff : R := p_mueff P in
  let cs : R := p_cs P in let cc : R := p_ccumcov P in let damps : R := p_damps P in
  let c1 := p_ccov P / mueff in let cmu := p_ccov P * (1 - 1 / mueff) in
  let m := value (s_mean st) in let m' := value (s_mean st') in
  let ps' := value (s_ps st') in let pc' := value (s_pc st') in
  exists sigma hsig : R,
    (flat -> sigma = s_sigma st * exp (2 / 10 + cs / damps)) /\ (~ flat -> sigma = s_sigma st) /\
    (let small := vector_length n ps' / sqrt (1 - (1 - cs) ^ (2 * gen)) / expected_length n < 14 / 10 + 2 / (INR n + 1) in
     (small -> hsig = 1) /\ (~ small -> hsig = 0)) /\
    let y k i := (x k i - m i) / sigma in let yw i := (m' i - m i) / sigma in
    (forall i, (i < n)%nat -> m' i = total mu (fun k => w k * x k i)) /\
    (forall i, (i < n)%nat -> ps' i = (1 - cs) * value (s_ps st) i + sqrt (cs * (2 - cs) * mueff) * total n (fun j => A i j * yw j)) /\
    (forall i, (i < n)%nat -> pc' i = (1 - cc) * value (s_pc st) i + hsig * sqrt (cc * (2 - cc) * mueff) * yw i) /\
    (forall i j, (i < n)%nat -> (j < n)%nat ->
       covariance (s_C st') i j = (1 - c1 - cmu) * covariance (s_C st) i j
         + c1 * (pc' i * pc' j + (1 - hsig) * cc * (2 - cc) * covariance (s_C st) i j)
         + cmu * total mu (fun k => w k * (y k i * y k j))) /\
    s_sigma st' = sigma * exp (cs / damps * (vector_length n ps' / expected_length n - 1)).

(** ** Proofs *)
Lemma total_scal n c f : total n (fun k => c * f k) = c * total n f.
Proof. induction n as [|n IH]; [unfold total; cbn; ring|]. rewrite !total_snoc, IH. ring. Qed.
Lemma lsum_firstn (rows : list (list R)) (order : list nat) (g : nat -> list R -> R) : forall mu, (mu <= length order)%nat ->
  Properties_Cma2.lsum (combine (seq 0 mu) (map (fun k => nth k rows []) (firstn mu order))) (fun kx => g (fst kx) (snd kx)) = total mu (fun k => g k (nth (nth k order 0%nat) rows [])).
Proof.
  intros mu Hmu. unfold total. assert (X : forall l s mu, (mu <= length l)%nat -> (forall k, nth k l 0%nat = nth (s + k) order 0%nat) ->
    Properties_Cma2.lsum (combine (seq s mu) (map (fun k => nth k rows []) (firstn mu l))) (fun kx => g (fst kx) (snd kx)) = fold_right Rplus 0 (map (fun k => g k (nth (nth k order 0%nat) rows [])) (seq s mu))).
  { clear. induction l as [|a l IH]; intros s [|mu] Hmu Hk; cbn [length] in Hmu; try lia; [reflexivity..|].
    cbn [seq firstn map combine Properties_Cma2.lsum fold_right fst snd]. f_equal.
    - specialize (Hk 0%nat). cbn [nth] in Hk. rewrite Hk, Nat.add_0_r. reflexivity.
    - apply IH; [lia|]. intros k. specialize (Hk (S k)). cbn [nth] in Hk. rewrite Hk. f_equal. lia. }
  apply X; [exact Hmu|reflexivity].
Qed.
Lemma default_rates cceil ol om P : Properties_Cma2.default_par cceil ol om P ->
  @ccov1 numR P false = p_ccov P / p_mueff P :> R /\ @ccovmu numR P false = p_ccov P * (1 - 1 / p_mueff P) :> R /\ 1 <= p_mueff P.
Proof.
  intros H. pose proof (Properties_Cma2.default_par_facts _ _ _ _ H) as (Hm & Hw & _ & Ho & H1 & H2 & H3 & _). destruct H as [HN HD].
  destruct (C42_parameters cceil (p_N P) ol om HN) as (P' & E' & A). assert (P' = P) as -> by (injection (eq_trans (eq_sym E') HD); auto). decompose [and] A. clear A E'.
  assert (Hc : p_mucov P = p_mueff P) by assumption.
  pose proof (C41_weights (p_mu P) ltac:(lia)) as HM4. rewrite <- Hw in HM4. destruct HM4 as (_ & _ & _ & _ & _ & M & _).
  unfold ccov1, ccovmu, std_min in *. rewrite Hc in *. cbn [numR nT nmul ndiv nsub nofZ nlt] in *.
  change (nT numR) with R in *. set (me := p_mueff P : R) in *. set (co := p_ccov P : R) in *.
  assert (I : 0 < / me <= 1) by (split; [apply Rinv_0_lt_compat; lra|rewrite <- Rinv_1; apply Rinv_le_contravar; lra]).
  assert (A1 : co * (1 / me) * 1 < 1) by (unfold Rdiv; nra).
  split; [|split; [|apply M]].
  - destruct (Rlt_bool_spec 1 (co * (1 / me) * 1)); [exfalso; lra|unfold Rdiv; ring].
  - destruct (Rlt_bool_spec 1 (co * (1 / me) * 1)) as [Y|Y]; [exfalso; lra|].
    match goal with |- context [Rlt_bool ?a ?b] => destruct (Rlt_bool_spec a b) as [Z|Z] end; [|ring].
    exfalso. unfold Rdiv in *. nra.
Qed.
Lemma chiN_expected n : (0 < n)%nat -> @chiN numR n = expected_length n.
Proof.
  intros Hn. unfold chiN, expected_length, of_nat. cbn [numR nofZ nmul nadd nsub ndiv nsqrt]. rewrite <- !INR_IZR_INZ. rewrite Rmult_assoc. reflexivity.
Qed.
Lemma ndec_R n k : @ndec numR n k = IZR n * bpow radix10 k. Proof. reflexivity. Qed.
Lemma value_build n (f : nat -> R) i : (i < n)%nat -> value (build n f) i = f i.
Proof. intros H. unfold value. apply nth_build. exact H. Qed.
Section Update.
Context {G : Type}.
Variables (cpow : R -> R -> R) (cceil : R -> R) (ol : Z) (om : R) (P : cma_par numR) (st st' : cma_state numR G) (fits : list R).
Notation n := (p_N P).
Hypothesis HD : Properties_Cma2.default_par cceil ol om P.
Hypothesis HC : forall x k, cpow x (INR k) = x ^ k.
Hypothesis Hg : s_gen st <> 0%nat.
Hypothesis HU : @cma_update numR G cpow P st fits = Ok st'.
Definition whitening (B : list (list R)) (D : list R) (i j : nat) : R := total n (fun k => entry B i k / value D k * entry B j k).
Lemma update_equations : let order := @sorted_index numR fits (p_lambda P) in
  length fits = p_lambda P /\
  cma_es_update P (s_gen st) (whitening (s_B st) (s_D st)) (fun k i => entry (s_rows st) (nth k order 0%nat) i)
    (value fits (nth 0 order 0%nat) = value fits (nth (Nat.div (p_lambda P) 2) order 0%nat)) st st'.
Proof using HD HC Hg HU.
  intros order. pose proof HU as H. unfold cma_update in H. destruct (s_phase st); try discriminate; [destruct (negb _); discriminate|].
  destruct (Nat.eqb (length (A := nT numR) fits) (p_lambda P)) eqn:HL; cbn [negb] in H; [|discriminate]. split; [apply Nat.eqb_eq; exact HL|].
  pose proof (default_rates _ _ _ _ HD) as (R1 & R2 & R3). pose proof (Properties_Cma2.default_par_facts _ _ _ _ HD) as (Hmu & _ & Hcc & Hco & _ & _ & _ & Hcs & Hda).
  destruct HD as [HN _]. unfold flgdiag in H. replace (Nat.eqb (s_gen st) 0) with false in H by (symmetry; apply Nat.eqb_neq; exact Hg).
  fold order in H.
  pose (sigma := if Req_bool (value fits (nth 0 order 0%nat)) (value fits (nth (Nat.div (p_lambda P) 2) order 0%nat)) then s_sigma st * exp (2 * bpow radix10 (-1) + p_cs P / p_damps P) else s_sigma st).
  pose (best := map (fun k => nth k (s_rows st) []) (firstn (p_mu P) order)).
  pose (mean := build n (fun i => fold_left (fun s (kx : nat * list R) => s + value (p_weights P) (fst kx) * value (snd kx) i) (combine (seq 0 (p_mu P)) best) 0)).
  pose (BDz := build n (fun i => sqrt (p_mueff P) * (value mean i - value (s_mean st) i) / sigma)).
  pose (tmp := build n (fun i => rsum n (fun j => entry (s_B st) j i * value BDz j) / value (s_D st) i)).
  pose (vps := build n (fun i => (1 - p_cs P) * value (s_ps st) i + sqrt (p_cs P * (2 - p_cs P)) * rsum n (fun j => entry (s_B st) i j * value tmp j))).
  pose (psxps := rsum n (fun i => value vps i * value vps i)).
  pose (hs := Rlt_bool (sqrt psxps / sqrt (1 - cpow (1 - p_cs P) (2 * IZR (Z.of_nat (s_gen st)))) / @chiN numR n) (14 * bpow radix10 (-1) + 2 / IZR (Z.of_nat n + 1))).
  pose (vpc := build n (fun i => (1 - p_ccumcov P) * value (s_pc st) i + IZR (if hs then 1 else 0) * sqrt (p_ccumcov P * (2 - p_ccumcov P)) * value BDz i)).
  pose (adapt := negb (Req_bool (p_ccov P) 0)).
  change (Ok (Build_cma_state numR G (sigma * exp ((sqrt psxps / @chiN numR n - 1) * p_cs P / p_damps P)) mean
    (if adapt then @adapt_C numR P false hs sigma (s_mean st) vpc best (s_C st) else s_C st) (s_B st) (s_D st) vpc vps (s_gen st) Updated (if adapt then false else s_uptodate st) (s_gen_eigen st)
    (s_rows st) (s_bounded st) (s_rng st)) = Ok st') in H.
  apply (f_equal (fun o => match o with Ok s => s | _ => st end)) in H. cbv beta iota in H.
  assert (HA : adapt = true). { unfold adapt. change (nT numR) with R in *. destruct (Req_bool_spec (p_ccov P) 0) as [Z|Z]; [exfalso; change (0 < p_ccov P < 1) in Hco; lra|reflexivity]. }
  rewrite HA in H. clear HA adapt. unfold cma_es_update. rewrite <- H. cbn [s_sigma s_mean s_C s_ps s_pc]. clear H HU. change (nT numR) with R in *.
  set (me := p_mueff P : R) in *. set (cs := p_cs P : R) in *. set (cc := p_ccumcov P : R) in *. set (da := p_damps P : R) in *.
  assert (Hpx : psxps = total n (fun i => value vps i * value vps i)) by apply sum__total.
  assert (Hm : forall i, (i < n)%nat -> value mean i = total (p_mu P) (fun k => value (p_weights P) k * entry (s_rows st) (nth k order 0%nat) i)).
  { intros i Hi. unfold mean. rewrite value_build by exact Hi. rewrite Properties_Cma2.fold_left_lsum, Rplus_0_l. unfold best.
    rewrite (lsum_firstn (s_rows st) order (fun k x => value (p_weights P) k * value x i)); [reflexivity|]. unfold order. rewrite sorted_index_length. lia. }
  assert (Hz : forall i, (i < n)%nat -> value BDz i = sqrt me * ((value mean i - value (s_mean st) i) / sigma)).
  { intros i Hi. unfold BDz. rewrite value_build by exact Hi. unfold Rdiv. ring. }
  assert (HNr : 0 < INR n) by (apply lt_0_INR; lia).
  assert (Hsm : (if hs then 1 else 0)%Z = 1%Z <-> vector_length n (value vps) / sqrt (1 - (1 - cs) ^ (2 * s_gen st)) / expected_length n < 14 / 10 + 2 / (INR n + 1)).
  { unfold hs. unfold vector_length. rewrite <- Hpx. rewrite <- HC. rewrite mult_INR. rewrite chiN_expected by lia. rewrite plus_IZR, <- !INR_IZR_INZ. change (INR 2) with 2. fold cs.
    change (bpow radix10 (-1)) with (/ 10). change (14 * / 10) with (14 / 10).
    match goal with |- context [Rlt_bool ?a ?b] => destruct (Rlt_bool_spec a b) as [Z|Z] end; (split; intros Y; [|]); [exact Z|reflexivity|discriminate|exfalso; lra]. }
  assert (Hps : forall i, (i < n)%nat -> value vps i = (1 - cs) * value (s_ps st) i + sqrt (cs * (2 - cs) * me) * total n (fun j => whitening (s_B st) (s_D st) i j * ((value mean j - value (s_mean st) j) / sigma))).
  { intros i Hi. unfold vps. rewrite value_build by exact Hi. fold cs. f_equal. rewrite (sqrt_mult (cs * (2 - cs)) me) by (try apply Rmult_le_pos; lra). rewrite Rmult_assoc. f_equal.
    unfold rsum. rewrite sum__total. rewrite <- total_scal. unfold whitening.
    rewrite (total_ext n _ (fun j => total n (fun k => entry (s_B st) i j / value (s_D st) j * entry (s_B st) k j * (sqrt me * ((value mean k - value (s_mean st) k) / sigma))))).
    2:{ intros j Hj. unfold tmp. rewrite value_build by exact Hj. unfold rsum. rewrite sum__total. unfold Rdiv at 1. rewrite <- Rmult_assoc, (Rmult_comm _ (/ _)), <- Rmult_assoc, (Rmult_comm (/ _)).
        rewrite <- total_scal. apply total_ext. intros k Hk. rewrite Hz by exact Hk. unfold Rdiv. ring. }
    rewrite (total_ext n (fun k => sqrt me * _) (fun k => total n (fun j => entry (s_B st) i j / value (s_D st) j * entry (s_B st) k j * (sqrt me * ((value mean k - value (s_mean st) k) / sigma))))).
    2:{ intros k Hk. rewrite <- Rmult_assoc, (Rmult_comm (sqrt me)), Rmult_assoc, Rmult_comm. rewrite <- total_scal. apply total_ext. intros j Hj. ring. }
    rewrite !total_sum. rewrite (sum_ext n _ (fun j => sum n (fun k => entry (s_B st) i j / value (s_D st) j * entry (s_B st) k j * (sqrt me * ((value mean k - value (s_mean st) k) / sigma))))) by (intros; apply total_sum).
    rewrite sum_exchange. apply sum_ext. intros k Hk. symmetry. apply total_sum. }
  exists sigma, (IZR (if hs then 1 else 0)). split; [|split; [|split; [|split; [|split; [|split; [|split]]]]]].
  - intros F. unfold sigma. destruct (Req_bool_spec (value fits (nth 0 order 0%nat)) (value fits (nth (Nat.div (p_lambda P) 2) order 0%nat))); [|contradiction]. change (bpow radix10 (-1)) with (/ 10). reflexivity.
  - intros F. unfold sigma. destruct (Req_bool_spec (value fits (nth 0 order 0%nat)) (value fits (nth (Nat.div (p_lambda P) 2) order 0%nat))); [contradiction|reflexivity].
  - split; intros F; [apply Hsm in F; rewrite F; reflexivity|]. destruct hs; [|reflexivity]. exfalso. apply F, Hsm. reflexivity.
  - exact Hm.
  - exact Hps.
  - intros i Hi. unfold vpc. rewrite value_build by exact Hi. fold cc. f_equal. rewrite Hz by exact Hi. rewrite (sqrt_mult (cc * (2 - cc)) me) by (try apply Rmult_le_pos; lra). ring.
  - intros i j Hi Hj. change (covariance (@adapt_C numR P false hs sigma (s_mean st) vpc best (s_C st)) i j) with (Properties_Cma2.entry (@adapt_C numR P false hs sigma (s_mean st) vpc best (s_C st)) i j).
    rewrite Properties_Cma2.entry_adapt by assumption. unfold Properties_Cma2.shrink. rewrite R1, R2. fold me cc.
    unfold best. rewrite (lsum_firstn (s_rows st) order (fun k x => p_ccov P * (1 - 1 / me) * rat (p_weights P) k / (sigma * sigma) * ((rat x i - rat (s_mean st) i) * (rat x j - rat (s_mean st) j)))) by (unfold order; rewrite sorted_index_length; lia).
    change (Properties_Cma2.entry (s_C st) i j) with (covariance (s_C st) i j).
    rewrite <- total_scal. f_equal.
    + change (rat vpc i) with (value vpc i). change (rat vpc j) with (value vpc j). replace (IZR (if hs then 0 else 1)) with (1 - IZR (if hs then 1 else 0)) by (destruct hs; lra). ring.
    + apply total_ext. intros k Hk. change (rat (p_weights P) k) with (value (p_weights P) k). unfold entry, rat, value. unfold Rdiv. rewrite Rinv_mult. ring.
  - unfold vector_length. rewrite <- Hpx, <- chiN_expected by lia. f_equal. f_equal. unfold Rdiv. ring.
Qed.
End Update.
Lemma std_max_R (a b : R) : @std_max numR a b = Rmax a b.
Proof. unfold std_max, Rmax. cbn [numR nlt]. destruct (Rlt_bool_spec a b); destruct (Rle_dec a b); try lra; reflexivity. Qed.
Lemma std_min_R (a b : R) : @std_min numR a b = Rmin a b.
Proof. unfold std_min, Rmin. cbn [numR nlt]. destruct (Rlt_bool_spec b a); destruct (Rle_dec a b); try lra; reflexivity. Qed.
(** ** The whitening matrix *)
Lemma sandwich_product n V X Y : meq n (mmul n (mtr V) V) mid -> meq n (mmul n (sandwich n V X) (sandwich n V Y)) (sandwich n V (mmul n X Y)).
Proof. intros O. unfold sandwich. rewrite !mmul_assoc. rewrite <- (mmul_assoc n (mmul n V X) (mtr V) V), O, mmul_id_r. reflexivity. Qed.
Lemma mdiag_product n d e : meq n (mmul n (mdiag d) (mdiag e)) (mdiag (fun k => d k * e k)).
Proof. rewrite mmul_mdiag. intros i j Hi Hj. unfold mdiag. destruct (Nat.eqb_spec i j) as [->|]; ring. Qed.
Lemma whitening_root n (B : list (list R)) (D : list R) : orthogonal n (as_matrix B) -> (forall k, (k < n)%nat -> 0 < value D k) ->
  inverse_root n (fun i j => total n (fun k => (entry B i k * value D k) * (entry B j k * value D k))) (fun i j => total n (fun k => entry B i k / value D k * entry B j k)).
Proof.
  intros O HD. set (V := as_matrix B) in *. pose (A := sandwich n V (mdiag (fun k => / value D k))).
  assert (EA : meq n (fun i j => total n (fun k => entry B i k / value D k * entry B j k)) A).
  { intros i j Hi Hj. unfold A. rewrite total_sum. unfold sandwich, mmul at 1. apply sum_ext. intros k Hk. unfold mmul. rewrite (sum_single n k); [|exact Hk|].
    - unfold mdiag, mtr, V, as_matrix. rewrite Nat.eqb_refl. unfold Rdiv. ring.
    - intros l _ Hl. unfold mdiag. destruct (Nat.eqb_spec k l); [congruence|ring]. }
  assert (ES : meq n (fun i j => total n (fun k => (entry B i k * value D k) * (entry B j k * value D k))) (sandwich n V (mdiag (fun k => value D k * value D k)))).
  { intros i j Hi Hj. rewrite total_sum. unfold sandwich, mmul at 1. apply sum_ext. intros k Hk. unfold mmul. rewrite (sum_single n k); [|exact Hk|].
    - unfold mdiag, mtr, V, as_matrix. rewrite Nat.eqb_refl. ring.
    - intros l _ Hl. unfold mdiag. destruct (Nat.eqb_spec k l); [congruence|ring]. }
  split; [|split].
  - intros i j Hi Hj. apply total_ext. intros k Hk. unfold Rdiv. ring.
  - intros x (i0 & Hi0 & Hx).
    assert (Q : total n (fun i => total n (fun j => x i * total n (fun k => entry B i k / value D k * entry B j k) * x j)) = sum n (fun k => / value D k * (sum n (fun i => entry B i k * x i) * sum n (fun i => entry B i k * x i)))).
    { rewrite total_sum. rewrite (sum_ext n _ (fun i => sum n (fun k => x i * (entry B i k * (/ value D k * sum n (fun j => entry B j k * x j)))))).
      - rewrite sum_exchange. apply sum_ext. intros k Hk. rewrite (sum_ext n _ (fun i => entry B i k * x i * (/ value D k * sum n (fun j => entry B j k * x j)))) by (intros; ring). rewrite sum_scal_r. ring.
      - intros i Hi. rewrite total_sum. rewrite (sum_ext n _ (fun j => sum n (fun k => x i * (entry B i k * (/ value D k * (entry B j k * x j)))))).
        + rewrite sum_exchange. apply sum_ext. intros k Hk. rewrite <- !sum_scal. reflexivity.
        + intros j Hj. rewrite total_sum, <- sum_scal, <- sum_scal_r. apply sum_ext. intros k Hk. unfold Rdiv. ring. }
    rewrite Q. set (u := fun k => sum n (fun i => entry B i k * x i)) in *.
    assert (NN : forall k, (k < n)%nat -> 0 <= / value D k * (u k * u k)) by (intros k Hk; apply Rmult_le_pos; [left; apply Rinv_0_lt_compat; auto|apply Rle_0_sqr]).
    destruct (Rle_lt_or_eq_dec _ _ (sum_nonneg n _ NN)) as [P|P]; [exact P|]. exfalso. symmetry in P. pose proof (sum_zero_inv n _ NN P) as Z. apply Hx.
    assert (U : forall k, (k < n)%nat -> u k = 0).
    { intros k Hk. specialize (Z k Hk). apply Rmult_integral in Z as [Z|Z]; [pose proof (Rinv_0_lt_compat _ (HD k Hk)); lra|]. apply Rmult_integral in Z as [Z|Z]; exact Z. }
    destruct O as [_ O2].
    assert (X : sum n (fun k => V i0 k * u k) = x i0).
    { unfold u. rewrite (sum_ext n _ (fun k => sum n (fun i => V i0 k * mtr V k i * x i))) by (intros k Hk; rewrite <- sum_scal; apply sum_ext; intros i Hi; unfold mtr, V, as_matrix; ring).
      rewrite sum_exchange. rewrite (sum_ext n _ (fun i => mid i0 i * x i)).
      - rewrite (sum_single n i0); [unfold mid; rewrite Nat.eqb_refl; ring|exact Hi0|]. intros k _ Hk. unfold mid. destruct (Nat.eqb_spec i0 k); [congruence|ring].
      - intros i Hi. rewrite sum_scal_r. f_equal. exact (O2 i0 i Hi0 Hi). }
    rewrite <- X. apply sum_0. intros k Hk. rewrite (U k Hk). ring.
  - intros i j Hi Hj. change (if Nat.eqb i j then 1 else 0) with (mid i j).
    set (A0 := fun i j => total n (fun k => entry B i k / value D k * entry B j k)) in *. set (S0 := fun i j => total n (fun k => (entry B i k * value D k) * (entry B j k * value D k))) in *.
    assert (X : meq n (mmul n A0 (mmul n S0 A0)) mid).
    { rewrite EA, ES. unfold A. destruct O as [O1 O2]. rewrite !(sandwich_product n V) by exact O1.
      rewrite (mdiag_product n), (mdiag_product n).
      assert (Y : meq n (mdiag (fun k => / value D k * (value D k * value D k * / value D k))) mid).
      { intros a b Ha Hb. unfold mdiag, mid. destruct (Nat.eqb a b); [|reflexivity]. specialize (HD a Ha). field. lra. }
      rewrite Y. unfold sandwich. rewrite mmul_id_l. exact O2. }
    change (total n (fun k => total n (fun l => A0 i k * S0 k l * A0 l j)) = mid i j). rewrite <- (X i j Hi Hj). clearbody A0 S0. unfold mmul. rewrite total_sum. apply sum_ext. intros k Hk. rewrite total_sum, <- sum_scal. apply sum_ext. intros l Hl. ring.
Qed.
Section History.
Context {G : Type}.
Variables (gauss : G -> outcome (R * G)) (E : list (list R) -> outcome (list R * list (list R))) (cpow : R -> R -> R) (round : R -> R) (bounds : list (R * R)) (transform : list R -> outcome (list R)) (P : cma_par numR) (pars : list (R * R)) (g0 : G).
Notation n := (p_N P).
Notation init := (@cma_init numR G round P pars g0).
Notation after := (leads_to gauss E cpow round bounds transform P pars g0).
Variables (cceil : R -> R) (ol : Z) (om : R).
Hypothesis HD : Properties_Cma2.default_par cceil ol om P.
Hypothesis HN : (0 < n)%nat.
Hypothesis HP : length pars = n.
Hypothesis HS : Forall (fun p => 0 < snd p) pars.
Hypothesis HG : forall g, exists z g', gauss g = Ok (z, g').
Hypothesis HE : runs_to E.
Hypothesis HTr : forall v, length v = n -> exists w, transform v = Ok w.
Hypothesis HTS : @transform_sized numR transform P.
Lemma init_D k : (k < n)%nat -> 0 < value (s_D init) k.
Proof using HN HP HS HD.
  intros Hk. cbn [cma_init s_D]. unfold value. rewrite (nth_build R n) by exact Hk.
  assert (HT : 0 < Properties_Cma2.init_trace P pars) by (apply (Properties_Cma2.init_trace_pos cceil ol om P HD); assumption).
  change (0 < value (map snd pars) k * sqrt (IZR (Z.of_nat n) / Properties_Cma2.init_trace P pars)). rewrite <- INR_IZR_INZ. apply Rmult_lt_0_compat.
  - unfold value. destruct (nth_error pars k) as [[a b]|] eqn:EK; [|apply nth_error_None in EK; lia].
    rewrite (nth_error_nth (map snd pars) k 0 (x := b)) by (rewrite nth_error_map, EK; reflexivity). rewrite Forall_forall in HS. exact (HS _ (nth_error_In _ _ EK)).
  - apply sqrt_lt_R0. apply Rdiv_lt_0_compat; [apply lt_0_INR; exact HN|exact HT].
Qed.
Lemma made_good pre st0 B D : @cma_sized numR G P st0 -> well_conditioned n (s_C st0) -> made E round P pars g0 pre st0 B D ->
  orthogonal n (as_matrix B) /\ forall k, (k < n)%nat -> 0 < value D k.
Proof using HN HP HS HE HD.
  intros HZ (c & Hc & HPD) [(-> & -> & -> & ->)|(d & EE & ->)].
  - split; [|intros k Hk; apply init_D; exact Hk].
    assert (X : meq n (as_matrix (s_B init)) mid) by (intros i j Hi Hj; unfold as_matrix, mid; apply init_B; assumption).
    split; rewrite X, mtr_mid; apply mmul_id_l.
  - destruct HZ as (_ & (HC & _) & _).
    assert (HC' : s_C st0 <> []) by (intros X; rewrite X in HC; cbn in HC; lia). destruct (HE (s_C st0) HC') as (N1 & H1). rewrite <- (H1 N1 (Nat.le_refl N1)) in EE.
    destruct (C61_eigendecomposition N1 (s_C st0) d B HC' EE) as (L & _ & O1 & O2 & _ & F).
    pose proof (C61_eigenvalues_positive N1 (s_C st0) d B c HC' EE) as POS. cbn zeta in POS, L, O1, O2, F.
    assert (HN' : @length (list R) (s_C st0) = n) by exact HC. rewrite HN' in POS, L, O1, O2, F. specialize (POS HPD Hc).
    split; [apply orthogonal_of; assumption|]. intros k Hk.
    replace (value (map (fun x => sqrt x) d) k) with (sqrt (value d k)); [apply sqrt_lt_R0; specialize (POS k Hk); lra|].
    unfold value. rewrite (nth_indep (map _ d) 0 (sqrt 0)) by (rewrite map_length; rewrite <- L in Hk; exact Hk). symmetry. exact (map_nth (fun x => sqrt x) d 0 k).
Qed.
Definition drawn_now (ops : list (cma_op numR)) (st : cma_state numR G) : Prop := s_phase st = Sampled ->
  (length (s_rows st) = p_lambda P /\
   Forall (drawn_with gauss bounds n (s_mean st) (s_sigma st) (fun i k => entry (s_B st) i k * value (s_D st) k)) (s_rows st)) /\
  exists pre rest st0, ops = pre ++ rest /\ after pre st0 /\ made E round P pars g0 pre st0 (s_B st) (s_D st) /\
    (s_C st0 = s_C st \/ INR (s_gen st) < INR (s_gen st0) + p_modulo P + 1).
Lemma history_drawn ops : forall st, after ops st -> drawn_now ops st.
Proof using HN HP HG HE HTr HTS.
  induction ops as [|op ops IH] using rev_ind; intros st (oks & H).
  - cbn [calls] in H. injection H as _ <-. intros X. discriminate.
  - apply calls_snoc in H as (oks1 & st1 & E1 & H). assert (HL1 : after ops st1) by (exists oks1; exact E1). specialize (IH st1 HL1).
    assert (IH' : drawn_now (ops ++ [op]) st1).
    { intros X. destruct (IH X) as (I1 & pre & rest & st0 & I2 & I3). split; [exact I1|]. exists pre, (rest ++ [op]), st0. split; [rewrite I2, app_assoc; reflexivity|exact I3]. }
    destruct (history_aged gauss E cpow round bounds transform P pars g0 HN HP HG HE HTr HTS ops st1 HL1) as (HB & HA). destruct op as [|fits].
    + destruct (@cma_sample numR G gauss E round bounds transform P st1) as [st2|m|] eqn:E2; [|subst st; exact IH'|contradiction]. subst st2. intros _.
      pose proof (sample_rows_drawn gauss E round bounds transform P pars g0 st1 st HB E2) as (L & F).
      destruct (sampled_aged gauss E cpow round bounds transform P pars g0 ops st1 st HL1 HB HA E2) as (pre & rest & st0 & (A1 & A2 & A4 & _) & _ & A5 & _ & A6).
      pose proof (@sample_spec numR G gauss E round bounds transform P st1 st E2) as (st3 & _ & S1 & S2 & S3 & _ & _ & _ & _ & _ & S4 & _).
      assert (X : s_mean st3 = s_mean st1 /\ s_sigma st3 = s_sigma st1).
      { clear - S1. unfold update_eigensystem in S1. destruct (s_uptodate st1); [injection S1 as <-; auto|]. destruct (flgdiag st1); [injection S1 as <-; auto|]. destruct (nlt _ _); [injection S1 as <-; auto|].
        destruct (E (s_C st1)) as [[d Q]| |]; cbn [obind] in S1; try discriminate. injection S1 as <-. auto. }
      destruct X as [X1 X2]. split; [split; [exact L|]; rewrite S2, S3, X1, X2; exact F|].
      exists pre, (rest ++ [Op_sample]), st0. split; [rewrite A1, app_assoc; reflexivity|]. split; [exact A2|]. split; [exact A4|]. destruct A6 as [A6|A6]; [left; congruence|right].
      assert (Y : (s_gen st <= s_gen st1 + 1)%nat) by (rewrite S4; destruct (s_phase st1); [| |lia]; destruct (Nat.eqb (s_gen st1) 0); lia). apply le_INR in Y. rewrite plus_INR in Y. change (INR 1) with 1 in Y. change (nT numR) with R in *. lra.
    + destruct (@cma_update numR G cpow P st1 fits) as [st2|m|] eqn:E2; [|subst st; exact IH'|contradiction]. subst st2. apply update_spec_phase in E2 as (_ & _ & Ep & _). intros X. congruence.
Qed.
End History.

(** ** C69 *)
(** Whatever calls were made on a new optimizer, an update that succeeds is the update of CMA-ES: the points are ranked by
    fitness; the mean, both evolution paths, the covariance matrix and the step size change as published, where the step of the
    mean is whitened with the inverse square root of the matrix M M^T that the generation was drawn with; and that matrix is, up to
    the tolerance of the eigendecomposition, the covariance matrix of the current or a recent generation. *)
Theorem C69_update_equations : forall (G : Type) gauss E cpow round bounds transform cceil option_lambda option_modulo (P : cma_par numR) (pars : list (R * R)) (g : G) ops st fits st',
  Properties_Cma2.default_par cceil option_lambda option_modulo P -> length pars = p_N P -> Forall (fun p => 0 < snd p) pars -> runs_to E ->
  (forall g, exists z g', gauss g = Ok (z, g')) ->
  (forall v, length v = p_N P -> exists w, transform v = Ok w) -> @transform_sized numR transform P ->
  (forall x k, cpow x (INR k) = x ^ k) ->
  let after := leads_to gauss E cpow round bounds transform P pars g in
  (forall pre rest s, ops = pre ++ rest -> after pre s -> well_conditioned (p_N P) (s_C s)) ->
  after ops st -> @cma_update numR G cpow P st fits = Ok st' ->
  exists order M A pre rest st0,
    length fits = p_lambda P /\ ranking fits order /\
    ops = pre ++ rest /\ after pre st0 /\
    norm (p_N P) (fun i j => covariance (s_C st0) i j - total (p_N P) (fun k => M i k * M j k)) <= tolerance (s_C st0) /\
    (s_C st0 = s_C st \/ INR (generation (p_lambda P) ops) < INR (generation (p_lambda P) pre) + p_modulo P + 1) /\
    length (s_rows st) = p_lambda P /\ Forall (drawn_with gauss bounds (p_N P) (s_mean st) (s_sigma st) M) (s_rows st) /\
    inverse_root (p_N P) (fun i j => total (p_N P) (fun k => M i k * M j k)) A /\
    cma_es_update P (generation (p_lambda P) ops) A (fun k i => entry (s_rows st) (nth k order 0%nat) i)
      (value fits (nth 0 order 0%nat) = value fits (nth (Nat.div (p_lambda P) 2) order 0%nat)) st st'.
Proof.
  intros G gauss E cpow round bounds transform cceil ol om P pars g ops st fits st' HD HP HS HE HG HTr HTS HC after HW HL HU.
  assert (HN : (0 < p_N P)%nat) by (destruct HD; lia).
  pose proof HU as HU1. apply update_fields in HU1 as (Ph & _).
  destruct (history_drawn gauss E cpow round bounds transform P pars g HN HP HG HE HTr HTS ops st HL Ph) as ((R1 & R2) & pre & rest & st0 & A1 & A2 & A3 & A4).
  pose proof (leads gauss E cpow round bounds transform P pars g HN HP HG HE HTr HTS ops st HL) as ((Ag & Ap) & Z).
  assert (Hg : s_gen st <> 0%nat) by (rewrite Ph in Ap; rewrite Ap in Ag; lia).
  pose proof (leads gauss E cpow round bounds transform P pars g HN HP HG HE HTr HTS pre st0 A2) as (_ & Z0).
  pose proof (HW pre rest st0 A1 A2) as W0.
  destruct (made_good E round P pars g cceil ol om HD HN HP HS HE pre st0 (s_B st) (s_D st) Z0 W0 A3) as (O & DP).
  destruct (update_equations cpow cceil ol om P st st' fits HD HC Hg HU) as (LF & EQ).
  exists (@sorted_index numR fits (p_lambda P)), (fun i k => entry (s_B st) i k * value (s_D st) k), (whitening P (s_B st) (s_D st)), pre, rest, st0.
  split; [exact LF|]. split.
  { rewrite <- LF. pose proof (C43_ranking_sorts_reals fits) as (RP & RS). split; [exact RP|]. intros p q i j Hpq Hi Hj.
    assert (B : forall p i, nth_error (@sorted_index numR fits (length fits)) p = Some i -> exists x, nth_error fits i = Some x /\ value fits i = x).
    { intros p0 i0 H0. apply nth_error_In in H0. apply (Permutation_in _ RP) in H0. apply in_seq in H0. destruct (nth_error fits i0) as [x|] eqn:EX; [|apply nth_error_None in EX; destruct H0 as [_ H0]; exact (False_ind _ (Nat.lt_irrefl _ (Nat.lt_le_trans _ _ _ H0 EX)))]. exists x. split; [reflexivity|]. exact (nth_error_nth _ _ _ EX). }
    destruct (B p i Hi) as (x & Hx & Vx). destruct (B q j Hj) as (y & Hy & Vy). rewrite Vx, Vy. exact (RS p q i j x y Hpq Hi Hj Hx Hy). }
  split; [exact A1|]. split; [exact A2|]. split; [exact (made_recomposes E round P pars g HN HP HE pre st0 (s_B st) (s_D st) Z0 W0 A3)|]. split.
  { rewrite <- (leads_gen gauss E cpow round bounds transform P pars g HN HP HG HE HTr HTS ops st HL), <- (leads_gen gauss E cpow round bounds transform P pars g HN HP HG HE HTr HTS pre st0 A2). exact A4. }
  split; [exact R1|]. split; [exact R2|]. split; [exact (whitening_root (p_N P) (s_B st) (s_D st) O DP)|].
  rewrite <- (leads_gen gauss E cpow round bounds transform P pars g HN HP HG HE HTr HTS ops st HL). exact EQ.
Qed.
(** The strategy parameters are the published defaults of the c-cmaes library: of the population size [lambda] the better half is used. *)
Theorem C69_strategy_parameters : forall cceil option_lambda option_modulo (P : cma_par numR),
  Properties_Cma2.default_par cceil option_lambda option_modulo P -> (forall x, x <= cceil x) ->
  let n := INR (p_N P) in let lambda := INR (p_lambda P) in let mueff : R := p_mueff P in
  p_mu P = Nat.div (p_lambda P) 2 /\
  p_cs P = (mueff + 2) / (n + mueff + 3) /\
  p_ccumcov P = 4 / (n + 4) /\
  p_ccov P = 1 / mueff * (2 / ((n + 1.4142) * (n + 1.4142))) + (1 - 1 / mueff) * Rmin 1 ((2 * mueff - 1) / ((n + 2) * (n + 2) + mueff)) /\
  p_damps P = (1 + 2 * Rmax 0 (sqrt ((mueff - 1) / (n + 1)) - 1)) * Rmax 0.3 (1 - n / (0.000001 + 900 * ((n + 3) * (n + 3)) / lambda)) + p_cs P.
Proof.
  intros cceil ol om P HD HCe n lambda mueff. destruct HD as [HN HD].
  destruct (C42_parameters cceil (p_N P) ol om HN) as (P' & E' & A). assert (P' = P) as -> by (injection (eq_trans (eq_sym E') HD); auto).
  destruct A as (_ & HL & _ & Hmu & _ & _ & Hw & _). split; [exact Hmu|]. clear E'.
  assert (HM : 1 <= mueff). { pose proof (C41_weights (p_mu P)) as X. rewrite <- Hw in X. destruct X as (_ & _ & _ & _ & _ & M & _); [|exact (proj1 M)]. rewrite Hmu. apply (Nat.div_le_lower_bound _ 2 1); lia. }
  clear Hmu Hw.
  unfold supplement_defaults in HD. destruct (if (ol <? 2)%Z then _ else _) as [l| |]; cbn [obind] in HD; try discriminate.
  destruct (Z.quot l 2 <? 0)%Z; [discriminate|]. destruct (@set_weights numR (Z.to_nat (Z.quot l 2))) as [w me].
  match type of HD with (if ?b then _ else _) = _ => destruct b; [discriminate|] end.
  apply (f_equal (fun o => match o with Ok s => s | _ => P end)) in HD. cbv beta iota zeta in HD.
  assert (EM : p_mueff P = me) by (rewrite <- HD; reflexivity). assert (EL : p_lambda P = Z.to_nat l) by (rewrite <- HD; reflexivity).
  assert (Hl : IZR l = lambda). { unfold lambda. rewrite EL, INR_IZR_INZ, Z2Nat.id; [reflexivity|]. lia. }
  assert (EN : IZR (Z.of_nat (p_N P)) = n) by (unfold n; rewrite INR_IZR_INZ; reflexivity).
  assert (D2 : n + 1.4142 = n + 14142 * bpow radix10 (-4)) by (f_equal; cbn; lra).
  unfold mueff in *. rewrite EM in *. clear mueff.
  split; [|split; [|split]].
  - rewrite <- EN. rewrite <- HD at 1. reflexivity.
  - rewrite <- EN. rewrite <- (plus_IZR _ 4). rewrite <- HD at 1. reflexivity.
  - rewrite D2. rewrite <- HD at 1. cbn [p_ccov]. unfold of_nat. cbn [numR nT nadd nmul ndiv nsub nofZ nlt ndec]. change (nT numR) with R in *. rewrite EN. f_equal. f_equal.
    unfold Rmin. match goal with |- (if Rlt_bool ?a ?b then _ else _) = _ => destruct (Rlt_bool_spec a b); destruct (Rle_dec a b) end; try lra.
  - assert (ECs : p_cs P = (me + 2) / (n + me + 3)) by (rewrite <- EN; rewrite <- HD at 1; reflexivity). rewrite ECs.
    rewrite <- HD at 1. cbn [p_damps]. rewrite !std_max_R, std_min_R. unfold of_nat. cbn [numR nT nadd nmul ndiv nsub nofZ nlt ndec nsqrt]. change (nT numR) with R in *. rewrite EN, Hl, plus_IZR, EN.
    rewrite Rmin_right by apply HCe. rewrite Rmult_assoc. replace (3 * bpow radix10 (-1)) with 0.3 by (cbn; lra). replace (1 * bpow radix10 (-6)) with 0.000001 by (cbn; lra). reflexivity.
Qed.

(** ** The hypotheses are met: one parameter, any history of complete generations, and the next update. *)
Definition powR (x y : R) : R := x ^ Z.to_nat (Zfloor y).
Lemma powR_spec x k : powR x (INR k) = x ^ k.
Proof. unfold powR. rewrite INR_IZR_INZ, Zfloor_IZR, Nat2Z.id. reflexivity. Qed.
Example C69_nonvacuous : exists P : cma_par numR, Properties_Cma2.default_par (fun x => x) 4 (-1) P /\ p_N P = 1%nat /\ p_lambda P = 4%nat /\
  forall results : list (list R), Forall (fun r => length r = p_lambda P) results ->
  let after := leads_to (fun g : unit => Ok (1, g)) unlimited powR (fun x => x) [(-100, 100)] (fun v => Ok v) P [(5, 1)] tt in
  let ops := alternate (K := numR) results ++ [Op_sample] in
  runs_to unlimited /\ (forall x k, powR x (INR k) = x ^ k) /\
  (forall pre rest s, ops = pre ++ rest -> after pre s -> well_conditioned (p_N P) (s_C s)) /\
  exists st st', after ops st /\ @cma_update numR unit powR P st [1; 3; 2; 1] = Ok st'.
Proof.
  destruct (C42_parameters (fun x => x) 1 4 (-1) (Nat.le_refl _)) as (P & E & HN & _ & _ & _ & HL & _).
  assert (HD : Properties_Cma2.default_par (fun x => x) 4 (-1) P) by (split; [lia|rewrite HN; exact E]).
  exists P. split; [exact HD|]. split; [exact HN|]. specialize (HL ltac:(lia)). split; [lia|]. intros results F after ops. split; [exact (proj1 C61_unlimited)|]. split; [exact powR_spec|].
  assert (H0 : (0 < p_N P)%nat) by lia. assert (HP : length [(5, 1)] = p_N P) by (rewrite HN; reflexivity).
  assert (HG : forall g : unit, exists z g', (fun g : unit => @Ok (R * unit) (1, g)) g = Ok (z, g')) by (intros g; eauto).
  assert (HTr : forall v : list R, length v = p_N P -> exists w, (fun v : list R => Ok v) v = Ok w) by (intros v _; eauto).
  assert (HTS : @transform_sized numR (fun v => Ok v) P) by (intros v w Hv [= <-]; exact Hv).
  split.
  - intros pre rest s _ Hs. pose proof Hs as (oks & Hc).
    pose proof (proj2 (leads (fun g : unit => Ok (1, g)) unlimited powR (fun x => x) [(-100, 100)] (fun v => Ok v) P [(5, 1)] tt H0 HP HG (proj1 C61_unlimited) HTr HTS pre s Hs)) as (_ & (HC & _) & _).
    apply (Properties_Cma2.C44_covariance_positive unit _ _ _ _ _ _ _ _ _ P [(5, 1)] tt pre oks s HD HP) in Hc as (_ & Hc & _); [|constructor; [cbn; lra|constructor]].
    rewrite HN in *. apply well_conditioned_one; assumption.
  - destruct (@calls_protocol numR unit (fun g => Ok (1, g)) unlimited powR (fun x => x) [(-100, 100)] (fun v => Ok v) P H0 HG (E_ok unlimited P [(5, 1)] H0 HP (proj1 C61_unlimited)) (E_sized unlimited P [(5, 1)] H0 HP (proj1 C61_unlimited)) HTr HTS ops (@cma_init numR unit (fun x => x) P [(5, 1)] tt) (0%nat, false)) as (st & E1 & (_ & HA) & _).
    + apply init_sized. exact HP.
    + unfold agrees, cma_init. cbn [s_gen s_phase fst snd]. auto.
    + assert (X : snd (protocol (p_lambda P) (0%nat, false) ops) = (length results, true)).
      { unfold ops. rewrite protocol_snoc. rewrite (@C45_alternating_never_throws numR results (p_lambda P) F 0%nat false). cbn [snd]. destruct results; reflexivity. }
      rewrite X in HA. cbn [fst snd] in HA. exists st. unfold cma_update. destruct (s_phase st); [discriminate| |destruct HA; discriminate].
      replace (p_lambda P) with 4%nat by lia. cbn [length Nat.eqb negb]. eexists. split; [eexists; exact E1|reflexivity].
Qed.
