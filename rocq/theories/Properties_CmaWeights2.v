(** * C41 in double precision: the weights and mueff that are computed. *)
From Coq Require Import ZArith Bool Lia Reals Lra Psatz.
From Flocq Require Import Core BinarySingleNaN.
From Verif Require Import Prelude Flt FltFacts Num MathTools Boundary Properties_Boundary MesF Cma CmaFacts CmaF Properties_Cma Properties_Boundary2 Properties_CmaDescription2.
#[local] Open Scope R_scope.

(** The logarithm is accurate to 2^-40 for the integers up to 2^21. *)
Definition accurate_log (L : libm) : Prop := forall (x : f64) (i : Z), (1 <= i <= 2097152)%Z -> is_finite x = true -> B2R x = IZR i ->
  is_finite (lm_log L x) = true /\ Rabs (B2R (lm_log L x) - ln (IZR i)) <= / 1099511627776.

Lemma ln_le_minus x : 0 < x -> ln x <= x - 1.
Proof. intros H. pose proof (exp_ineq1_le (ln x)) as E. rewrite exp_ln in E by exact H. lra. Qed.
Lemma ln_gap i j : 1 <= i -> i + 1 <= j -> / j <= ln j - ln i.
Proof.
  intros Hi Hj. pose proof (ln_le_minus (i / j) ltac:(apply Rdiv_lt_0_compat; lra)) as H. unfold Rdiv in H. rewrite ln_mult, ln_Rinv in H by (try apply Rinv_0_lt_compat; lra).
  assert (E : i * / j <= (j - 1) * / j) by (apply Rmult_le_compat_r; [apply Rlt_le, Rinv_0_lt_compat|]; lra). replace ((j - 1) * / j) with (1 - / j) in E by (field; lra). lra.
Qed.
Lemma ln_up x : 1 <= x <= 2097152 -> 0 <= ln x <= 21.
Proof.
  intros H. split.
  - rewrite <- ln_1. destruct (Req_dec x 1) as [->|N]; [lra|]. apply Rlt_le, ln_increasing; lra.
  - apply Rle_trans with (ln (2 ^ 21)).
    + assert (E : 2 ^ 21 = 2097152) by (cbn; lra). rewrite E. destruct (Req_dec x 2097152) as [->|N]; [lra|]. apply Rlt_le, ln_increasing; lra.
    + rewrite ln_pow by lra. pose proof (ln_le_minus 2 ltac:(lra)). replace (INR 21) with 21 by (cbn; lra). lra.
Qed.
Lemma accurate_increases L : accurate_log L -> log_increases L.
Proof.
  intros HA x y i j Hij Hj Hx Hy. destruct (HA x i ltac:(lia) (proj1 Hx) (proj2 Hx)) as [F1 E1]. destruct (HA y j ltac:(lia) (proj1 Hy) (proj2 Hy)) as [F2 E2].
  exists (B2R (lm_log L x)), (B2R (lm_log L y)). split; [apply is_self; exact F1|]. split; [apply is_self; exact F2|].
  assert (I1 : 1 <= IZR i) by (apply IZR_le; lia). assert (J1 : IZR j <= 2097152) by (apply IZR_le; lia). assert (IJ : IZR i + 1 <= IZR j) by (rewrite <- plus_IZR; apply IZR_le; lia).
  pose proof (ln_gap _ _ I1 IJ) as G. pose proof (ln_up (IZR i) ltac:(lra)). pose proof (ln_up (IZR j) ltac:(lra)). assert (GJ : / 2097152 <= / IZR j) by (apply Rinv_le_contravar; lra).
  apply Rabs_le_inv in E1. apply Rabs_le_inv in E2. split; [lra|]. split; apply Rabs_le; lra.
Qed.
(** ** The unnormalized weights *)
Definition ideal (mu i : nat) : R := ln (INR mu + 1) - ln (INR i + 1).
Lemma INR_plus_one n : INR n + 1 = IZR (Z.of_nat n + 1).
Proof. rewrite plus_IZR, <- INR_IZR_INZ. reflexivity. Qed.
Lemma ideal_range mu i : (i < mu)%nat -> (Z.of_nat mu <= 1048576)%Z -> / 1048577 <= ideal mu i <= 21.
Proof.
  intros Hi Hm. unfold ideal. assert (I1 : 0 <= INR i) by apply pos_INR. assert (IM : INR i + 1 <= INR mu) by (rewrite <- S_INR; apply le_INR; lia). assert (M : INR mu <= 1048576) by (rewrite INR_IZR_INZ; apply IZR_le; exact Hm).
  pose proof (ln_gap (INR i + 1) (INR mu + 1) ltac:(lra) ltac:(lra)) as G. pose proof (ln_up (INR mu + 1) ltac:(lra)). pose proof (ln_up (INR i + 1) ltac:(lra)).
  assert (GJ : / 1048577 <= / (INR mu + 1)) by (apply Rinv_le_contravar; lra). lra.
Qed.
Lemma ideal_gap mu i j : (i < j < mu)%nat -> (Z.of_nat mu <= 1048576)%Z -> / 1048576 <= ideal mu i - ideal mu j.
Proof.
  intros Hij Hm. unfold ideal. assert (I1 : 0 <= INR i) by apply pos_INR. assert (IJ : INR i + 1 <= INR j) by (rewrite <- S_INR; apply le_INR; lia). assert (JM : INR j + 1 <= INR mu) by (rewrite <- S_INR; apply le_INR; lia). assert (M : INR mu <= 1048576) by (rewrite INR_IZR_INZ; apply IZR_le; exact Hm).
  pose proof (ln_gap (INR i + 1) (INR j + 1) ltac:(lra) ltac:(lra)) as G. assert (GJ : / 1048576 <= / (INR j + 1)) by (apply Rinv_le_contravar; lra). lra.
Qed.
Lemma raw_near L mu i : accurate_log L -> (i < mu)%nat -> (Z.of_nat mu <= 1048576)%Z ->
  exists r : f64, nth_error (@raw_weights (numF L) mu) i = Some r /\ is_finite r = true /\ Rabs (B2R r - ideal mu i) <= / 274877906944.
Proof.
  intros HA Hi Hm. unfold raw_weights. eexists. split; [apply nth_error_build; exact Hi|].
  change (@nsub (numF L)) with fsub. change (@nlog (numF L)) with (lm_log L). unfold of_nat. change (@nadd (numF L)) with fadd. change (@nofZ (numF L)) with fofZ.
  pose proof (int_plus_one mu Hm) as [FM EM]. pose proof (int_plus_one i ltac:(lia)) as [FI EI].
  destruct (HA _ (Z.of_nat mu + 1)%Z ltac:(lia) FM EM) as [F1 E1]. destruct (HA _ (Z.of_nat i + 1)%Z ltac:(lia) FI EI) as [F2 E2].
  rewrite <- INR_plus_one in E1, E2. apply is_self in F1 as H1. apply is_self in F2 as H2. set (w := B2R (lm_log L (fadd (fofZ (Z.of_nat mu)) (fofZ 1)))) in *. set (v := B2R (lm_log L (fadd (fofZ (Z.of_nat i)) (fofZ 1)))) in *.
  pose proof (ideal_range mu i Hi Hm) as IR. apply Rabs_le_inv in E1. apply Rabs_le_inv in E2. unfold ideal in *. assert (B : Rabs (w - v) <= 22) by (apply Rabs_le; lra).
  destruct (is_sub _ _ _ _ H1 H2) as [F E]; [eapply Rle_trans; [exact B|]; apply Rle_trans with (bpow radix2 5); [cbn; lra|apply bpow_le; lia]|].
  split; [exact F|]. rewrite E. pose proof (rnd_err (w - v)) as RE. pose proof eta_small. assert (u53 * Rabs (w - v) <= u53 * 22) by (apply Rmult_le_compat_l; [unfold u53; lra|exact B]).
  assert (RE2 : Rabs (rnd (w - v) - (w - v)) <= / 1099511627776) by (unfold u53 in *; lra). apply Rabs_le_inv in RE2. apply Rabs_le. lra.
Qed.
(** ** Sums *)
Lemma Rsum_near (a : R) (xs ls : list R) : Forall2 (fun x l => Rabs (x - l) <= a * l) xs ls -> Rabs (Rsum xs - Rsum ls) <= a * Rsum ls.
Proof.
  induction 1 as [|x l xs ls H _ IH]; cbn [Rsum fold_right]; [rewrite Rminus_0_r, Rabs_R0; lra|]. fold (Rsum xs) (Rsum ls). apply Rabs_le_inv in H. apply Rabs_le_inv in IH. apply Rabs_le. lra.
Qed.
Lemma Rsum_squares (xs : list R) : Forall (fun x => 0 <= x) xs ->
  0 <= Rsum xs /\ 0 <= Rsum (map (fun x => x * x) xs) <= Rsum xs * Rsum xs /\ Rsum xs * Rsum xs <= INR (length xs) * Rsum (map (fun x => x * x) xs).
Proof.
  induction 1 as [|x xs Hx _ (I0 & [I1 I2] & I3)]; [cbn; lra|]. change (length (x :: xs)) with (S (length xs)). rewrite S_INR. cbn [map Rsum fold_right]. fold (Rsum xs) (Rsum (map (fun x => x * x) xs)).
  set (T := Rsum xs) in *. set (S := Rsum (map (fun x => x * x) xs)) in *. clearbody T S. pose proof (pos_INR (length xs)) as N. set (n := INR (length xs)) in *. 
  assert (XT : 0 <= x * T) by (apply Rmult_le_pos; lra). pose proof (Rle_0_sqr x) as XX. unfold Rsqr in XX. split; [lra|]. split; [split; lra|].
  assert (G : 2 * (x * T) <= n * (x * x) + S).
  { destruct (Req_dec n 0) as [E|E].
    - rewrite E in *. assert (T2 : T * T <= 0) by lra. assert (T = 0). { destruct (Req_dec T 0); [assumption|]. assert (0 < T * T) by (apply Rmult_lt_0_compat; lra). lra. } subst T. lra.
    - apply (Rmult_le_reg_l n); [lra|]. pose proof (Rle_0_sqr (n * x - T)) as Q. unfold Rsqr in Q. clearbody n. nra. }
  clearbody n. lra.
Qed.
Lemma Rsum_pos (xs : list R) : Forall (fun x => 0 < x) xs -> xs <> [] -> 0 < Rsum xs.
Proof.
  intros H N. destruct H as [|x xs Hx H]; [congruence|]. cbn [Rsum fold_right]. fold (Rsum xs). assert (0 <= Rsum xs); [|lra]. clear - H. induction H as [|y l Hy _ IH]; cbn; [lra|]. unfold Rsum in IH. lra.
Qed.
(** With a second value that is not too small, the first and largest one does not make up everything. *)
Lemma Rsum_mass x0 x1 xs : 0 < x0 <= 4 * x1 -> Forall (fun x => 0 <= x <= x0) (x1 :: xs) ->
  let l := x0 :: x1 :: xs in 5 / 4 * Rsum (map (fun x => x * x) l) <= Rsum l * Rsum l.
Proof.
  intros H0 HF l. unfold l. change (Rsum (x0 :: x1 :: xs)) with (x0 + Rsum (x1 :: xs)). change (Rsum (map (fun x => x * x) (x0 :: x1 :: xs))) with (x0 * x0 + Rsum (map (fun x => x * x) (x1 :: xs))).
  assert (HP : Forall (fun x => 0 <= x) (x1 :: xs)) by (eapply Forall_impl; [|exact HF]; cbv beta; tauto). destruct (Rsum_squares _ HP) as (T0 & [_ S1] & _).
  assert (S2 : Rsum (map (fun x => x * x) (x1 :: xs)) <= x0 * Rsum (x1 :: xs)).
  { clear - HF. induction HF as [|y t [Y0 Y1] _ IH]; cbn [map Rsum fold_right]; [lra|]. fold (Rsum t) (Rsum (map (fun x => x * x) t)). assert (y * y <= x0 * y) by (apply Rmult_le_compat_r; lra). lra. }
  assert (T1 : x1 <= Rsum (x1 :: xs)). { apply Forall_cons_iff in HP as [_ HP]. destruct (Rsum_squares _ HP) as (T1 & _). cbn [Rsum fold_right]. fold (Rsum xs). lra. }
  set (T' := Rsum (x1 :: xs)) in *. set (S' := Rsum (map (fun x => x * x) (x1 :: xs))) in *. clearbody T' S'. assert (x0 * x0 <= 4 * (x0 * T')). { replace (4 * (x0 * T')) with (x0 * (4 * T')) by ring. apply Rmult_le_compat_l; lra. }
  assert (0 <= x0 * T') by (apply Rmult_le_pos; lra). replace ((x0 + T') * (x0 + T')) with (x0 * x0 + 2 * (x0 * T') + T' * T') by ring. lra.
Qed.
(** Sum of the squares, as the code adds it up. *)
Lemma square_fold (L : libm) (w : list f64) : @sum_ (numF L) (length w) (fun i => @nmul (numF L) (@at_ (numF L) w i) (@at_ (numF L) w i)) = fold_left fadd (map (fun r => fmul r r) w) (fofZ 0).
Proof.
  unfold sum_. change (@nofZ (numF L) 0) with (fofZ 0). change (@nadd (numF L)) with fadd. change (@nmul (numF L)) with fmul.
  assert (G : forall (w pre : list f64) s, fold_left (fun s j => fadd s (fmul (@at_ (numF L) (pre ++ w) j) (@at_ (numF L) (pre ++ w) j))) (seq (length pre) (length w)) s = fold_left fadd (map (fun r => fmul r r) w) s).
  { clear. induction w as [|x t IH]; intros pre s; [reflexivity|]. cbn [length seq fold_left map].
    assert (E : @at_ (numF L) (pre ++ x :: t) (length pre) = x) by (unfold at_; rewrite app_nth2 by lia; rewrite Nat.sub_diag; reflexivity). rewrite E.
    specialize (IH (pre ++ [x]) (fadd s (fmul x x))). rewrite <- app_assoc in IH. cbn [app] in IH. rewrite app_length in IH. cbn [length] in IH. replace (length pre + 1)%nat with (S (length pre)) in IH by lia. exact IH. }
  exact (G w [] (fofZ 0)).
Qed.
(** The whole quotient. *)
Lemma mass_near (k T S v1 p v2 q m n : R) : 1 <= k <= 2 -> 0 < T -> 0 < S -> 0 <= m <= / 1000000 -> k * S <= T * T -> T * T <= n * S ->
  Rabs (v1 - T) <= 2 * m * T -> Rabs (p - v1 * v1) <= 2 * m * (v1 * v1) -> Rabs (v2 - S) <= 5 * m * S -> Rabs (q - p / v2) <= 2 * m * (p / v2) ->
  k * (1 - 17 * m) <= q <= n * (1 + 17 * m).
Proof.
  intros Hk HT HS Hm S1 S2 E1 E2 E3 E4. apply Rabs_le_inv in E1, E2, E3, E4.
  assert (MT : 0 <= m * T) by (apply Rmult_le_pos; lra). assert (MT2 : m * T <= / 1000000 * T) by (apply Rmult_le_compat_r; lra).
  assert (MS : 0 <= m * S) by (apply Rmult_le_pos; lra). assert (MS2 : m * S <= / 1000000 * S) by (apply Rmult_le_compat_r; lra).
  assert (V2 : 0 < v2) by lra. assert (TT : 0 < T * T) by (apply Rmult_lt_0_compat; assumption). assert (MTT : 0 <= m * (T * T)) by (apply Rmult_le_pos; lra).
  assert (MTT2 : m * (T * T) <= / 1000000 * (T * T)) by (apply Rmult_le_compat_r; lra).
  assert (VV : (1 - 4 * m) * (T * T) <= v1 * v1 <= (1 + 5 * m) * (T * T)).
  { assert (A : (1 - 2 * m) * T * ((1 - 2 * m) * T) <= v1 * v1) by (apply Rmult_le_compat; nra). assert (B : v1 * v1 <= (1 + 2 * m) * T * ((1 + 2 * m) * T)) by (apply Rmult_le_compat; nra).
    assert (MM : m * m * (T * T) <= / 1000000 * (m * (T * T))) by (rewrite Rmult_assoc; apply Rmult_le_compat_r; lra). assert (MM0 : 0 <= m * m * (T * T)) by (rewrite Rmult_assoc; apply Rmult_le_pos; lra).
    split; lra. }
  assert (P : (1 - 7 * m) * (T * T) <= p <= (1 + 8 * m) * (T * T)).
  { assert (MM : m * (v1 * v1) <= m * ((1 + 5 * m) * (T * T))) by (apply Rmult_le_compat_l; lra). assert (m * ((1 + 5 * m) * (T * T)) <= 11 / 10 * (m * (T * T))) by nra. lra. }
  assert (PS : (1 - 13 * m) * k <= p / v2 <= (1 + 14 * m) * n).
  { split; apply (Rmult_le_reg_r v2); try exact V2; unfold Rdiv; rewrite (Rmult_assoc p), Rinv_l, Rmult_1_r by lra.
    - apply Rle_trans with ((1 - 7 * m) * (T * T)); [|lra]. apply Rle_trans with ((1 - 7 * m) * (k * S)); [|apply Rmult_le_compat_l; lra]. apply Rle_trans with ((1 - 13 * m) * k * (S + 5 * m * S)).
      + apply Rmult_le_compat_l; [apply Rmult_le_pos; lra|lra].
      + assert (0 <= k * (m * m * S)) by (apply Rmult_le_pos; [lra|rewrite Rmult_assoc; apply Rmult_le_pos; lra]). assert (0 <= k * (m * S)) by (apply Rmult_le_pos; lra). lra.
    - apply Rle_trans with ((1 + 8 * m) * (n * S)); [apply Rle_trans with ((1 + 8 * m) * (T * T)); [lra|apply Rmult_le_compat_l; lra]|].
      assert (N0 : 0 <= n). { destruct (Rle_lt_dec 0 n); [assumption|]. assert (n * S < 0) by nra. lra. }
      apply Rle_trans with ((1 + 14 * m) * n * (S - 5 * m * S)); [|apply Rmult_le_compat_l; [apply Rmult_le_pos; lra|lra]].
      assert (NS : 0 <= n * S) by (apply Rmult_le_pos; lra). assert (0 <= m * (n * S)) by (apply Rmult_le_pos; lra). assert (m * m * (n * S) <= / 1000000 * (m * (n * S))) by (rewrite Rmult_assoc; apply Rmult_le_compat_r; lra).
      replace ((1 + 14 * m) * n * (S - 5 * m * S)) with (n * S + 9 * (m * (n * S)) - 70 * (m * m * (n * S))) by ring. replace ((1 + 8 * m) * (n * S)) with (n * S + 8 * (m * (n * S))) by ring. lra. }
  assert (N1 : 0 <= n). { destruct (Rle_lt_dec 0 n); [assumption|]. assert (n * S < 0) by nra. assert (0 < k * S) by (apply Rmult_lt_0_compat; lra). lra. } assert (MN : 0 <= m * n) by (apply Rmult_le_pos; lra). assert (MN2 : m * m * n <= / 1000000 * (m * n)) by (rewrite Rmult_assoc; apply Rmult_le_compat_r; lra).
  assert (PV : 0 <= p / v2) by (eapply Rle_trans; [|exact (proj1 PS)]; apply Rmult_le_pos; lra). assert (A1 : m * (p / v2) <= m * ((1 + 14 * m) * n)) by (apply Rmult_le_compat_l; lra).
  split.
  - assert (B1 : (1 - 2 * m) * ((1 - 13 * m) * k) <= (1 - 2 * m) * (p / v2)) by (apply Rmult_le_compat_l; lra). assert (0 <= m * m * k) by (apply Rmult_le_pos; [apply Rmult_le_pos|]; lra). assert (0 <= m * k) by (apply Rmult_le_pos; lra). lra.
  - replace (m * ((1 + 14 * m) * n)) with (m * n + 14 * (m * m * n)) in A1 by ring. lra.
Qed.
Lemma nth_error_ext {A} (l m : list A) : (forall i, nth_error l i = nth_error m i) -> l = m.
Proof.
  revert m. induction l as [|x l IH]; intros [|y m] H; [reflexivity|discriminate (H O)|discriminate (H O)|]. pose proof (H O) as H0. injection H0 as ->. f_equal. apply IH. intros i. exact (H (S i)).
Qed.
(** The logarithms of the exact weights. *)
Lemma exact_weight_is mu i q : (1 <= mu)%nat -> nth_error (fst (@set_weights numR mu)) i = Some q -> q = ideal mu i / Rsum (map (ideal mu) (seq 0 mu)).
Proof.
  intros Hm Hq. pose proof (C41_weights mu Hm) as C. destruct (@set_weights numR mu) as [w me]. cbn [fst] in Hq. change (nT numR) with R in *. destruct C as (LW & _ & _ & S1 & (c & Hc & HC) & _).
  assert (IL : forall i, ln ((INR mu + 1) / (INR i + 1)) = ideal mu i).
  { intros k. unfold ideal. pose proof (pos_INR mu). pose proof (pos_INR k). unfold Rdiv. rewrite ln_mult, ln_Rinv by (try apply Rinv_0_lt_compat; lra). lra. }
  assert (EW : w = map (fun k => c * ideal mu k) (seq 0 mu)).
  { apply nth_error_ext. intros k. destruct (nth_error w k) as [x|] eqn:Ek.
    - assert (Hk : (k < mu)%nat) by (rewrite <- LW; apply nth_error_Some; congruence). rewrite (map_nth_error (fun k => c * ideal mu k) k (seq 0 mu) (d := k)).
      + f_equal. rewrite <- IL. exact (HC k x Ek).
      + rewrite nth_error_nth' with (d := O) by (rewrite seq_length; exact Hk). f_equal. rewrite seq_nth by exact Hk. reflexivity.
    - apply nth_error_None in Ek. symmetry. apply nth_error_None. rewrite map_length, seq_length. lia. }
  assert (SC : forall l, fold_right Rplus 0 (map (fun k => c * ideal mu k) l) = c * Rsum (map (ideal mu) l)).
  { induction l as [|k l IH]; cbn; [ring|]. rewrite IH. unfold Rsum. ring. }
  rewrite EW, SC in S1. rewrite (HC i q Hq), IL. assert (N : Rsum (map (ideal mu) (seq 0 mu)) <> 0) by (intros E; rewrite E in S1; lra).
  apply (Rmult_eq_reg_r (Rsum (map (ideal mu) (seq 0 mu)))); [|exact N]. unfold Rdiv. rewrite (Rmult_assoc (ideal mu i)), Rinv_l by exact N. replace (c * ideal mu i * Rsum (map (ideal mu) (seq 0 mu))) with (ideal mu i * (c * Rsum (map (ideal mu) (seq 0 mu)))) by ring. rewrite S1. ring.
Qed.
(** One weight: the quotient of the doubles [r] and [v], against that of the exact ones. *)
Lemma weight_near (x v l TL : R) : / 1048577 <= l <= 21 -> Rabs (x - l) <= / 274877906944 -> l <= TL <= 22020096 -> Rabs (v - TL) <= / 65536 * TL ->
  Rabs (x / v) <= 2 * (l / TL) /\ Rabs (rnd (x / v) - l / TL) <= l / TL / 32768.
Proof.
  intros Hl Hx HT Hv. apply Rabs_le_inv in Hv. assert (V : 0 < v) by lra. assert (Eq : l / TL * TL = l) by (field; lra). assert (Q0 : 0 < l / TL) by (apply Rdiv_lt_0_compat; lra).
  assert (Q1 : / 100000000000000 <= l / TL). { apply (Rmult_le_reg_r TL); [lra|]. rewrite Eq. lra. }
  assert (D : Rabs (x / v - l / TL) <= 6 / 262144 * (l / TL)).
  { assert (E : x / v - l / TL = ((x - l) - l / TL * (v - TL)) / v) by (field; lra). rewrite E. unfold Rdiv at 1. rewrite Rabs_mult, (Rabs_pos_eq (/ v)) by (apply Rlt_le, Rinv_0_lt_compat; lra).
    set (q := l / TL) in *. clearbody q. clear E. apply (Rmult_le_reg_r v); [lra|]. rewrite Rmult_assoc, Rinv_l, Rmult_1_r by lra.
    assert (QV : - (/ 65536 * l) <= q * (v - TL) <= / 65536 * l). { rewrite <- Eq. split; [apply Rle_trans with (q * - (/ 65536 * TL)); [lra|apply Rmult_le_compat_l; lra]|apply Rle_trans with (q * (/ 65536 * TL)); [apply Rmult_le_compat_l; lra|lra]]. }
    assert (QV2 : q * (65535 / 65536 * TL) <= q * v) by (apply Rmult_le_compat_l; lra). apply Rabs_le_inv in Hx. apply Rabs_le. lra. }
  set (q := l / TL) in *. clearbody q.
  pose proof (rnd_err (x / v)) as RE. apply Rabs_le_inv in D. assert (AB : Rabs (x / v) <= 2 * q) by (apply Rabs_le; lra). split; [exact AB|].
  assert (UR : u53 * Rabs (x / v) <= u53 * (2 * q)) by (apply Rmult_le_compat_l; [unfold u53; lra|exact AB]). pose proof eta_small as ES. unfold u53 in *.
  assert (RE2 : Rabs (rnd (x / v) - x / v) <= / 1000000000000 * q) by lra. apply Rabs_le_inv in RE2. apply Rabs_le. lra.
Qed.
Lemma ln_three_halves y : 3 <= y -> ln y <= 3 * (ln y - ln 2).
Proof.
  intros Hy. assert (H2 : 0 < y / 2) by lra.
  assert (E : ln y - ln 2 = ln (y / 2)). { unfold Rdiv. rewrite ln_mult by (try apply Rinv_0_lt_compat; lra). rewrite ln_Rinv by lra. lra. }
  rewrite E. assert (E3 : 3 * ln (y / 2) = ln ((y / 2) ^ 3)). { rewrite ln_pow by exact H2. replace (INR 3) with 3 by (cbn; lra). reflexivity. }
  rewrite E3. assert (Y2 : 8 <= y * y) by (apply Rle_trans with (3 * 3); [lra|apply Rmult_le_compat; lra]). assert (Y3 : 8 * y <= y * y * y) by (apply Rmult_le_compat_r; lra).
  assert (G : y <= (y / 2) ^ 3) by (replace ((y / 2) ^ 3) with (y * y * y / 8) by field; lra).
  destruct G as [G|G]; [left; apply ln_increasing; lra|right; rewrite <- G; reflexivity].
Qed.
Lemma ideal_second mu : (2 <= mu)%nat -> ideal mu 0 <= 3 * ideal mu 1.
Proof.
  intros H. unfold ideal. apply le_INR in H. replace (INR 2) with 2 in H by (cbn; lra). replace (INR 1 + 1) with 2 by (cbn; lra). replace (INR 0 + 1) with 1 by (cbn; lra). rewrite ln_1, Rminus_0_r. apply ln_three_halves. lra.
Qed.
(** All of it, for any list of doubles near the exact logarithms. *)
Lemma weights_core (raw : list f64) mu : (1 <= mu)%nat -> (Z.of_nat mu <= 1048576)%Z -> length raw = mu ->
  (forall i, (i < mu)%nat -> exists r, nth_error raw i = Some r /\ is_finite r = true /\ Rabs (B2R r - ideal mu i) <= / 274877906944) ->
  let s1 := fold_left fadd raw (fofZ 0) in let s2 := fold_left fadd (map (fun r => fmul r r) raw) (fofZ 0) in let TL := Rsum (map (ideal mu) (seq 0 mu)) in
  (forall i r, nth_error raw i = Some r -> is_finite (fdiv r s1) = true /\ 0 < B2R (fdiv r s1) /\ Rabs (B2R (fdiv r s1) - ideal mu i / TL) <= ideal mu i / TL / 32768) /\
  (forall i j r t, (i < j)%nat -> nth_error raw i = Some r -> nth_error raw j = Some t -> B2R (fdiv t s1) < B2R (fdiv r s1)) /\
  is_finite (fdiv (fmul s1 s1) s2) = true /\ 1 - INR mu * bpow radix2 (-48) <= B2R (fdiv (fmul s1 s1) s2) <= INR mu * (1 + INR mu * bpow radix2 (-48)) /\
  ((2 <= mu)%nat -> 6 / 5 <= B2R (fdiv (fmul s1 s1) s2)).
Proof.
  intros Hm0 Hm HN RN s1 s2 TL. assert (MU : 1 <= INR mu <= 1048576). { split; [change 1 with (INR 1); apply le_INR; lia|]. rewrite INR_IZR_INZ. apply IZR_le. exact Hm. }
  assert (U := u53_pos). assert (EU := eta_u53). pose proof (fun i Hi => ideal_range mu i Hi Hm) as IR.
  assert (F2 : Forall2 (fun (r : f64) l => is_finite r = true /\ / 1048577 <= l <= 21 /\ Rabs (B2R r - l) <= / 274877906944) raw (map (ideal mu) (seq 0 mu))).
  { assert (G : forall (l : list f64) k, (forall i, (i < length l)%nat -> exists r : f64, nth_error l i = Some r /\ is_finite r = true /\ / 1048577 <= ideal mu (k + i) <= 21 /\ Rabs (B2R r - ideal mu (k + i)) <= / 274877906944) ->
      Forall2 (fun (r : f64) l => is_finite r = true /\ / 1048577 <= l <= 21 /\ Rabs (B2R r - l) <= / 274877906944) l (map (ideal mu) (seq k (length l)))).
    { clear. induction l as [|r l IH]; intros k H; cbn [length seq map]; constructor.
      - destruct (H O ltac:(cbn; lia)) as (r' & E & H1 & H2 & H3). injection E as <-. rewrite Nat.add_0_r in *. auto.
      - apply IH. intros i Hi. destruct (H (S i) ltac:(cbn; lia)) as (r' & E & H1 & H2 & H3). rewrite Nat.add_succ_r in *. exists r'. auto. }
    pose proof (G raw O) as G0. rewrite HN in G0. apply G0. intros i Hi. destruct (RN i Hi) as (r & E1 & E2 & E3). exists r. cbn [Nat.add]. pose proof (IR i Hi). auto. }
  assert (FP : Forall (fun r : f64 => is_finite r = true /\ 0 < B2R r) raw). { clear - F2. induction F2 as [|r l rs ls (H1 & H2 & H3) _ IH]; constructor; [|exact IH]. apply Rabs_le_inv in H3. split; [exact H1|lra]. }
  assert (FB : Forall (fun r : f64 => / 2097152 <= B2R r <= 22) raw). { clear - F2. induction F2 as [|r l rs ls (H1 & H2 & H3) _ IH]; constructor; [|exact IH]. apply Rabs_le_inv in H3. lra. }
  set (xs := map (fun r : f64 => B2R r) raw). assert (LX : length xs = mu) by (unfold xs; rewrite map_length; exact HN).
  assert (PX : Forall (fun x => 0 < x) xs). { unfold xs. apply Forall_map. eapply Forall_impl; [|exact FP]. cbv beta. tauto. }
  assert (NX : xs <> []) by (intros E; rewrite E in LX; cbn in LX; lia). set (T := Rsum xs). assert (T0 : 0 < T) by (apply Rsum_pos; assumption).
  assert (TB : T <= 23068672). { apply Rle_trans with (22 * INR (length raw)); [|rewrite HN; lra]. unfold T, xs. clear - FB. induction FB as [|r l H _ IH]; [cbn; lra|]. change (length (r :: l)) with (S (length l)). rewrite S_INR. cbn [map Rsum fold_right]. unfold Rsum in IH. lra. }
  (* TL, T, s1 *)
  assert (TN : Rabs (T - TL) <= / 131072 * TL).
  { apply Rsum_near. unfold xs. clear - F2. induction F2 as [|r l rs ls (H1 & H2 & H3) _ IH]; cbn [map]; constructor; [|exact IH]. lra. }
  assert (TLB : 0 < TL <= 22020096).
  { unfold TL. assert (G : forall n k, (k + n <= mu)%nat -> INR n * / 1048577 <= Rsum (map (ideal mu) (seq k n)) <= 21 * INR n).
    { clear - IR. induction n as [|n IH]; intros k H; [cbn; lra|]. rewrite S_INR. cbn [seq map Rsum fold_right]. fold (Rsum (map (ideal mu) (seq (S k) n))). specialize (IH (S k) ltac:(lia)). pose proof (IR k ltac:(lia)). lra. }
    specialize (G mu O ltac:(lia)). lra. }
  destruct (sum_near raw (fofZ 0) 0 0 0) as (v & Hv & Ev); [apply is_ofZ; cbn; lia|lra|lra|rewrite Rminus_0_r, Rabs_R0; lra|exact FP|rewrite HN; lra|change (map B2R raw) with xs; fold T; rewrite bp60; lra|].
  fold s1 in Hv. change (map B2R raw) with xs in Ev. fold T in Ev. rewrite !Rplus_0_l, HN in Ev.
  set (m := INR mu * u53) in *. assert (Hm1 : u53 <= m <= / 4294967296) by (unfold m, u53; lra). replace (2 * INR mu * u53 * T) with (2 * m * T) in Ev by (unfold m; ring).
  assert (VN : Rabs (v - TL) <= / 65536 * TL). { assert (2 * m * T <= / 1000000000 * T) by (apply Rmult_le_compat_r; lra). apply Rabs_le_inv in TN. apply Rabs_le_inv in Ev. apply Rabs_le. lra. }
  assert (V0 : 0 < v <= 30000000). { apply Rabs_le_inv in VN. lra. }
  assert (LE : forall i, (i < mu)%nat -> ideal mu i <= TL).
  { intros i Hi. unfold TL. assert (G : forall n k, (k + n <= mu)%nat -> (k <= i < k + n)%nat -> 0 <= Rsum (map (ideal mu) (seq k n)) /\ ideal mu i <= Rsum (map (ideal mu) (seq k n))).
    { clear - IR. assert (G0 : forall n k, (k + n <= mu)%nat -> 0 <= Rsum (map (ideal mu) (seq k n))).
      { induction n as [|n IH]; intros k H; [cbn; lra|]. cbn [seq map Rsum fold_right]. fold (Rsum (map (ideal mu) (seq (S k) n))). specialize (IH (S k) ltac:(lia)). pose proof (IR k ltac:(lia)). lra. }
      intros n k H Hk. split; [apply G0; exact H|]. revert k H Hk. induction n as [|n IH]; intros k H Hk; [lia|]. cbn [seq map Rsum fold_right]. fold (Rsum (map (ideal mu) (seq (S k) n))). pose proof (G0 n (S k) ltac:(lia)).
      destruct (Nat.eq_dec i k) as [->|N]; [lra|]. specialize (IH (S k) ltac:(lia) ltac:(lia)). pose proof (IR k ltac:(lia)). lra. }
    apply (G mu O); lia. }
  assert (ONE : forall i r, nth_error raw i = Some r -> (i < mu)%nat /\ is_finite r = true /\ Rabs (B2R r - ideal mu i) <= / 274877906944 /\ is (fdiv r s1) (rnd (B2R r / v)) /\ Rabs (rnd (B2R r / v) - ideal mu i / TL) <= ideal mu i / TL / 32768).
  { intros i r Er. assert (Hi : (i < mu)%nat) by (rewrite <- HN; apply nth_error_Some; congruence). destruct (RN i Hi) as (r' & E1 & E2 & E3). rewrite Er in E1. injection E1 as <-. split; [exact Hi|]. split; [exact E2|]. split; [exact E3|].
    destruct (weight_near (B2R r) v (ideal mu i) TL (IR i Hi) E3 (conj (LE i Hi) (proj2 TLB)) VN) as [W1 W2]. split; [|exact W2]. apply is_div; [apply is_self; exact E2|exact Hv|lra|]. eapply Rle_trans; [exact W1|].
    assert (ideal mu i / TL <= 1). { apply (Rmult_le_reg_r TL); [lra|]. unfold Rdiv. rewrite Rmult_assoc, Rinv_l by lra. pose proof (LE i Hi). lra. } apply Rle_trans with (bpow radix2 1); [cbn; lra|apply bpow_le; lia]. }
  split; [|split].
  - intros i r Er. destruct (ONE i r Er) as (Hi & _ & _ & [F E] & W). rewrite E. split; [exact F|]. split; [|exact W]. apply Rabs_le_inv in W. pose proof (IR i Hi). assert (0 < ideal mu i / TL) by (apply Rdiv_lt_0_compat; lra). lra.
  - intros i j r t Hij Er Et. destruct (ONE i r Er) as (Hi & Fr & Dr & [_ E] & _). destruct (ONE j t Et) as (Hj & Ft & Dt & [_ E'] & _). rewrite E, E'.
    pose proof (ideal_gap mu i j ltac:(lia) Hm) as G. pose proof (IR i Hi) as I1. pose proof (IR j Hj) as I2. apply Rabs_le_inv in Dr. apply Rabs_le_inv in Dt. set (x := B2R r) in *. set (y := B2R t) in *. clearbody x y.
    pose proof (rnd_err (x / v)) as R1. pose proof (rnd_err (y / v)) as R2. assert (VI : / 30000000 <= / v) by (apply Rinv_le_contravar; lra). unfold Rdiv in *. set (iv := / v) in *. clearbody iv.
    assert (X1 : Rabs (x * iv) <= 22 * iv). { rewrite Rabs_pos_eq by (apply Rmult_le_pos; lra). apply Rmult_le_compat_r; lra. } assert (Y1 : Rabs (y * iv) <= 22 * iv). { rewrite Rabs_pos_eq by (apply Rmult_le_pos; lra). apply Rmult_le_compat_r; lra. }
    assert (XY : / 2097152 * iv <= x * iv - y * iv). { replace (x * iv - y * iv) with ((x - y) * iv) by ring. apply Rmult_le_compat_r; lra. }
    assert (UX : u53 * Rabs (x * iv) <= u53 * (22 * iv)) by (apply Rmult_le_compat_l; lra). assert (UY : u53 * Rabs (y * iv) <= u53 * (22 * iv)) by (apply Rmult_le_compat_l; lra). apply Rabs_le_inv in R1. apply Rabs_le_inv in R2. unfold u53 in *. lra.
  - (* the squares *)
    set (sq := map (fun r : f64 => fmul r r) raw) in *. set (ys := map (fun x => x * x) xs). set (SS := Rsum ys).
    assert (SQ : Forall2 (fun (b : f64) y => is_finite b = true /\ 0 < B2R b /\ / 4398046511104 <= y <= 484 /\ Rabs (B2R b - y) <= 2 * u53 * y) sq ys).
    { unfold sq, ys, xs. rewrite map_map. clear - FP FB EU. induction FP as [|r l [F P] _ IH]; cbn [map]; constructor; [|apply IH; now apply Forall_inv_tail in FB]. apply Forall_inv in FB. clear IH. set (x := B2R r) in *.
      assert (XX : / 4398046511104 <= x * x <= 484). { split; [apply Rle_trans with (/ 2097152 * / 2097152); [lra|]|apply Rle_trans with (22 * 22); [|lra]]; apply Rmult_le_compat; lra. }
      destruct (is_mul r r x x (is_self r F) (is_self r F)) as [F' E']. { rewrite Rabs_pos_eq by lra. apply Rle_trans with (bpow radix2 9); [cbn; lra|apply bpow_le; lia]. }
      pose proof (rnd_err (x * x)) as R. rewrite (Rabs_pos_eq (x * x)) in R by lra. rewrite E'. set (y := x * x) in *. clearbody y. pose proof eta_small as ES. assert (R2 : Rabs (rnd y - y) <= 2 * u53 * y) by (unfold u53 in *; lra).
      split; [exact F'|]. split; [|split; [exact XX|exact R2]]. apply Rabs_le_inv in R2. unfold u53 in *. lra. }
    assert (LS : length sq = mu) by (unfold sq; rewrite map_length; exact HN).
    assert (NS : Rabs (Rsum (map (fun b : f64 => B2R b) sq) - SS) <= 2 * u53 * SS). { apply Rsum_near. clear - SQ. induction SQ as [|b y bs ys (_ & _ & _ & H) _ IH]; cbn [map]; constructor; [exact H|exact IH]. }
    destruct (Rsum_squares xs (Forall_impl _ (fun x H => Rlt_le _ _ H) PX)) as (_ & [_ Q1] & Q2). fold T in Q1, Q2. change (Rsum (map (fun x => x * x) xs)) with SS in Q1, Q2. rewrite LX in Q2.
    assert (S0 : 0 < SS). { apply Rsum_pos; [|unfold ys; destruct xs; [congruence|discriminate]]. clear - SQ. induction SQ as [|b y bs ys (_ & _ & H & _) _ IH]; constructor; [lra|exact IH]. }
    assert (TT : T * T <= 23068672 * 23068672) by (apply Rmult_le_compat; lra).
    assert (SB : 2 * u53 * SS <= / 1000000 * SS) by (apply Rmult_le_compat_r; unfold u53; lra).
    destruct (sum_near sq (fofZ 0) 0 0 0) as (v2 & Hv2 & Ev2); [apply is_ofZ; cbn; lia|lra|lra|rewrite Rminus_0_r, Rabs_R0; lra| |rewrite LS; lra|rewrite bp60; change (map B2R sq) with (map (fun b : f64 => B2R b) sq); apply Rabs_le_inv in NS; lra|].
    { clear - SQ. induction SQ as [|b y bs ys (H1 & H2 & _) _ IH]; constructor; [split; assumption|exact IH]. }
    fold s2 in Hv2. change (map B2R sq) with (map (fun b : f64 => B2R b) sq) in Ev2. rewrite !Rplus_0_l, LS in Ev2. set (S' := Rsum (map (fun b : f64 => B2R b) sq)) in *. clearbody S'. replace (2 * INR mu * u53 * S') with (2 * (m * S')) in Ev2 by (unfold m; ring).
    assert (V2 : Rabs (v2 - SS) <= 5 * m * SS).
    { apply Rabs_le_inv in NS. apply Rabs_le_inv in Ev2. assert (US : u53 * SS <= m * SS) by (apply Rmult_le_compat_r; lra). assert (MS' : m * S' <= m * (11 / 10 * SS)) by (apply Rmult_le_compat_l; lra). apply Rabs_le. lra. }
    assert (V2P : SS / 2 <= v2 <= 2 * SS). { apply Rabs_le_inv in V2. assert (5 * m * SS <= / 10 * SS) by (apply Rmult_le_compat_r; lra). lra. }
    assert (VV : 0 < v * v <= 900000000000000). { split; [apply Rmult_lt_0_compat; lra|]. apply Rle_trans with (30000000 * 30000000); [apply Rmult_le_compat; lra|lra]. }
    destruct (is_mul s1 s1 v v Hv Hv) as [FM EM]. { rewrite Rabs_pos_eq by lra. apply Rle_trans with (bpow radix2 60); [rewrite bp60; lra|apply bpow_le; lia]. }
    pose proof (rnd_err (v * v)) as RP. rewrite (Rabs_pos_eq (v * v)) in RP by lra.
    assert (TS : / 2000000 <= T). { apply Rle_trans with (Rsum (map (fun _ : f64 => / 2000000) raw)).
      - clear - HN Hm0. destruct raw as [|r l]; [cbn in HN; lia|]. cbn [map Rsum fold_right]. assert (0 <= fold_right Rplus 0 (map (fun _ : f64 => / 2000000) l)); [|lra]. clear. induction l as [|r l IH]; cbn; lra.
      - unfold T, xs. clear - F2. induction F2 as [|r l rs ls (H1 & H2 & H3) _ IH]; [cbn; lra|]. cbn [map Rsum fold_right]. apply Rabs_le_inv in H3. unfold Rsum in IH. lra. }
    assert (VT : T / 2 <= v). { apply Rabs_le_inv in Ev. assert (2 * m * T <= / 10 * T) by (apply Rmult_le_compat_r; lra). lra. }
    assert (VV2 : / 16000000000000 <= v * v). { apply Rle_trans with (/ 4000000 * / 4000000); [lra|apply Rmult_le_compat; lra]. }
    pose proof eta_small as ES. assert (RP2 : Rabs (rnd (v * v) - v * v) <= 2 * u53 * (v * v)) by (unfold u53 in *; lra). set (p := rnd (v * v)) in *. clearbody p.
    assert (RP3 : Rabs (p - v * v) <= 2 * m * (v * v)). { eapply Rle_trans; [exact RP2|]. apply Rmult_le_compat_r; lra. }
    assert (PB : 0 < p <= 1000000000000000). { apply Rabs_le_inv in RP2. unfold u53 in *. lra. }
    assert (PV : / 1000 <= p / v2).
    { apply (Rmult_le_reg_r v2); [lra|]. unfold Rdiv. rewrite Rmult_assoc, Rinv_l, Rmult_1_r by lra. apply Rabs_le_inv in RP2. assert (T * T / 4 <= v * v). { replace (T * T / 4) with (T / 2 * (T / 2)) by field. apply Rmult_le_compat; lra. } unfold u53 in *. lra. }
    assert (PU : p / v2 <= bpow radix2 120).
    { assert (S1 : T * T <= 1048576 * SS). { eapply Rle_trans; [exact Q2|]. apply Rmult_le_compat_r; lra. }
      assert (V3 : v <= 2 * T). { apply Rabs_le_inv in Ev. assert (2 * m * T <= / 10 * T) by (apply Rmult_le_compat_r; lra). lra. } assert (v * v <= 4 * (T * T)). { replace (4 * (T * T)) with (2 * T * (2 * T)) by ring. apply Rmult_le_compat; lra. }
      apply Rle_trans with (bpow radix2 60); [|apply bpow_le; lia]. rewrite bp60. apply (Rmult_le_reg_r v2); [lra|]. unfold Rdiv. rewrite Rmult_assoc, Rinv_l, Rmult_1_r by lra. apply Rabs_le_inv in RP2. unfold u53 in *. lra. }
    destruct (is_div (fmul s1 s1) s2 p v2 (conj FM EM) Hv2 ltac:(lra)) as [FD ED]. { rewrite Rabs_pos_eq by lra. eapply Rle_trans; [exact PU|apply bpow_le; lia]. }
    split; [exact FD|]. rewrite ED. pose proof (rnd_err (p / v2)) as RQ. rewrite (Rabs_pos_eq (p / v2)) in RQ by lra.
    assert (RQ2 : Rabs (rnd (p / v2) - p / v2) <= 2 * m * (p / v2)). { eapply Rle_trans; [|apply (Rmult_le_compat_r (p / v2) (2 * u53)); lra]. unfold u53 in *. lra. }
    assert (KQ : exists k, 1 <= k <= 2 /\ k * SS <= T * T /\ ((2 <= mu)%nat -> k = 5 / 4)).
    { destruct (le_lt_dec 2 mu) as [H2|H2]; [|exists 1; split; [lra|]; split; [lra|intros; lia]]. exists (5 / 4). split; [lra|]. split; [|auto].
      assert (X : forall i r, nth_error raw i = Some r -> Rabs (B2R r - ideal mu i) <= / 274877906944 /\ (i < mu)%nat) by (intros i r Er; destruct (ONE i r Er) as (Hi & _ & D & _); auto).
      clear - X H2 HN FP Hm IR. unfold SS, ys, T, xs. destruct raw as [|r0 [|r1 rs]]; [cbn in HN; lia|cbn in HN; lia|]. destruct (X O r0 eq_refl) as [X0 _]. destruct (X 1%nat r1 eq_refl) as [X1 _].
      pose proof (ideal_second mu H2) as I2. pose proof (IR 1%nat ltac:(lia)) as I1. apply Rabs_le_inv in X0. apply Rabs_le_inv in X1. cbn [map]. apply (Rsum_mass (B2R r0) (B2R r1) (map (fun r : f64 => B2R r) rs)).
      - apply Forall_inv in FP. lra.
      - change (Forall (fun x => 0 <= x <= B2R r0) (map (fun r : f64 => B2R r) (r1 :: rs))). apply Forall_map. apply Forall_forall. intros r Hr. apply Forall_inv_tail in FP. pose proof (proj1 (Forall_forall _ _) FP r Hr) as [_ P]. apply In_nth_error in Hr as (i & Er). destruct (X (S i) r Er) as [Xi Hi]. apply Rabs_le_inv in Xi. pose proof (ideal_gap mu O (S i) ltac:(lia) Hm). lra. }
    destruct KQ as (k & Hk & K1 & K2).
    destruct (mass_near k T SS v p v2 (rnd (p / v2)) m (INR mu) Hk T0 S0 ltac:(lra) K1 Q2 Ev RP3 V2 RQ2) as [A B].
    assert (E48 : bpow radix2 (-48) = 32 * u53) by (unfold u53; cbn; lra). rewrite E48. replace (INR mu * (32 * u53)) with (32 * m) by (unfold m; ring).
    assert (A2 : 1 - 17 * m <= k * (1 - 17 * m)). { rewrite <- (Rmult_1_l (1 - 17 * m)) at 1. apply Rmult_le_compat_r; lra. }
    split; [split; [lra|]; eapply Rle_trans; [exact B|]; apply Rmult_le_compat_l; lra|]. intros H2. specialize (K2 H2). subst k. lra.
Qed.
(** A single weight. *)
Lemma mueff_one (r : f64) : is_finite r = true -> / 2097152 <= B2R r <= 22 ->
  B2R (fdiv (fmul (fold_left fadd [r] (fofZ 0)) (fold_left fadd [r] (fofZ 0))) (fold_left fadd (map (fun r => fmul r r) [r]) (fofZ 0))) = 1.
Proof.
  intros F H. cbn [map fold_left]. pose proof (is_self r F) as Hr. set (x := B2R r) in *. assert (H0 : is (fofZ 0) 0) by (apply is_ofZ; cbn; lia).
  assert (TOP : forall y, Rabs y <= 1000 -> Rabs y <= bpow radix2 1000) by (intros y Hy; eapply Rle_trans; [exact Hy|]; apply Rle_trans with (bpow radix2 10); [cbn; lra|apply bpow_le; lia]).
  assert (H1 : is (fadd (fofZ 0) r) x). { pose proof (is_add _ _ _ _ H0 Hr) as A. rewrite Rplus_0_l in A. rewrite (rnd_id x (is_fmt _ _ Hr)) in A. apply A. apply TOP, Rabs_le. lra. }
  assert (XX : / 4398046511104 <= x * x <= 484). { split; [apply Rle_trans with (/ 2097152 * / 2097152); [lra|]|apply Rle_trans with (22 * 22); [|lra]]; apply Rmult_le_compat; lra. }
  pose proof (is_mul _ _ _ _ Hr Hr ltac:(apply TOP, Rabs_le; lra)) as H2. pose proof (is_mul _ _ _ _ H1 H1 ltac:(apply TOP, Rabs_le; lra)) as H3.
  pose proof (rnd_err (x * x)) as R. rewrite (Rabs_pos_eq (x * x)) in R by lra. pose proof eta_small as ES. pose proof (rnd_fmt (x * x)) as FX. set (y := rnd (x * x)) in *.
  assert (Y : 0 < y <= 1000) by (apply Rabs_le_inv in R; unfold u53 in *; lra).
  assert (H4 : is (fadd (fofZ 0) (fmul r r)) y). { pose proof (is_add _ _ _ _ H0 H2) as A. rewrite Rplus_0_l in A. rewrite (rnd_id y FX) in A. apply A. apply TOP, Rabs_le. lra. }
  assert (YY : y / y = 1) by (field; lra). destruct (is_div _ _ _ _ H3 H4 ltac:(lra)) as [_ E]; [rewrite YY; apply TOP, Rabs_le; lra|]. rewrite E, YY. apply rnd_id. apply (is_fmt (fofZ 1)). apply is_ofZ. cbn. lia.
Qed.
(** ** Theorem *)
Theorem C41_weights_doubles : forall L mu, accurate_log L -> (1 <= mu)%nat -> (Z.of_nat mu <= 1048576)%Z ->
  let w : list f64 := fst (@set_weights (numF L) mu) in let mueff : f64 := snd (@set_weights (numF L) mu) in
  length w = mu /\
  (* positive, and within a factor 1 + 2^-15 of the exact weights *)
  (forall i x, nth_error w i = Some x -> is_finite x = true /\ 0 < B2R x /\
     forall q, nth_error (fst (@set_weights numR mu)) i = Some q -> Rabs (B2R x - q) <= q / 32768) /\
  (forall i j x y, (i < j)%nat -> nth_error w i = Some x -> nth_error w j = Some y -> B2R y < B2R x) /\
  Rabs (fold_right Rplus 0 (map (fun x : f64 => B2R x) w) - 1) <= INR mu * bpow radix2 (-50) /\
  is_finite mueff = true /\ 1 <= B2R mueff <= INR mu * (1 + INR mu * bpow radix2 (-48)) /\ ((2 <= mu)%nat -> 6 / 5 <= B2R mueff).
Proof.
  intros L mu HA Hm0 Hm. pose proof (accurate_increases L HA) as HL. pose proof (weights_near L mu HL Hm0 Hm) as [WN W1]. pose proof (raw_weights_ok L mu HL Hm) as HR. pose proof (raw_length L mu) as HN.
  pose proof (fun i Hi => raw_near L mu i HA Hi Hm) as RN. cbv zeta.
  assert (MU : 1 <= INR mu <= 1048576). { split; [change 1 with (INR 1); apply le_INR; lia|]. rewrite INR_IZR_INZ. apply IZR_le. exact Hm. }
  assert (U := u53_pos).
  (* the sum of the weights *)
  assert (SUM : Rabs (fold_right Rplus 0 (map (fun x : f64 => B2R x) (fst (@set_weights (numF L) mu))) - 1) <= INR mu * bpow radix2 (-50)).
  { rewrite <- W1. assert (LQ : length (exact_weights L mu) = mu) by (unfold exact_weights; rewrite !map_length; exact HN).
    assert (G : forall ws qs, Forall2 (fun (w : f64) q => is_finite w = true /\ 0 <= q /\ Rabs (B2R w - q) <= 6 * INR mu * u53 * q + eta) ws qs ->
      Rabs (fold_right Rplus 0 (map (fun x : f64 => B2R x) ws) - Rsum qs) <= 6 * INR mu * u53 * Rsum qs + INR (length qs) * eta).
    { clear. induction 1 as [|w q ws qs (_ & _ & H) _ IH]; [cbn; rewrite Rminus_0_r, Rabs_R0; lra|]. change (length (q :: qs)) with (S (length qs)). rewrite S_INR. cbn [map Rsum fold_right]. fold (Rsum qs). apply Rabs_le_inv in H. apply Rabs_le_inv in IH. apply Rabs_le. lra. }
    specialize (G _ _ WN). rewrite LQ, W1 in G. rewrite W1. eapply Rle_trans; [exact G|]. assert (E50 : bpow radix2 (-50) = 8 * u53) by (unfold u53; cbn; lra). rewrite E50. pose proof eta_u53. assert (INR mu * eta <= INR mu * (u53 / 1000000000)) by (apply Rmult_le_compat_l; lra). assert (0 <= INR mu * u53) by (apply Rmult_le_pos; lra). lra. }
  clear WN W1.
  pose proof (sum_fold L (@raw_weights (numF L) mu)) as ES. pose proof (square_fold L (@raw_weights (numF L) mu)) as EQ.
  change (@sum_ (numF L) (length (@raw_weights (numF L) mu)) (fun i => @at_ (numF L) (@raw_weights (numF L) mu) i) = fold_left fadd (@raw_weights (numF L) mu : list f64) (fofZ 0)) in ES.
  change (@sum_ (numF L) (length (@raw_weights (numF L) mu)) (fun i => @nmul (numF L) (@at_ (numF L) (@raw_weights (numF L) mu) i) (@at_ (numF L) (@raw_weights (numF L) mu) i)) = fold_left fadd (map (fun r => fmul r r) (@raw_weights (numF L) mu : list f64)) (fofZ 0)) in EQ.
  rewrite (raw_length L mu) in ES, EQ.
  assert (EW : (fst (@set_weights (numF L) mu) : list f64) = map (fun r : f64 => fdiv r (fold_left fadd (@raw_weights (numF L) mu : list f64) (fofZ 0))) (@raw_weights (numF L) mu)).
  { unfold set_weights. cbn [fst]. rewrite <- ES. reflexivity. }
  assert (EM : (snd (@set_weights (numF L) mu) : f64) = fdiv (fmul (fold_left fadd (@raw_weights (numF L) mu : list f64) (fofZ 0)) (fold_left fadd (@raw_weights (numF L) mu : list f64) (fofZ 0))) (fold_left fadd (map (fun r => fmul r r) (@raw_weights (numF L) mu : list f64)) (fofZ 0))).
  { unfold set_weights. cbn [snd]. rewrite <- ES, <- EQ. reflexivity. }
  clear ES EQ HR. revert RN HN EW EM SUM. generalize (@set_weights (numF L) mu) as sw. generalize (@raw_weights (numF L) mu) as raw. change (nT (numF L)) with f64. intros raw [w me] RN HN. cbn [fst snd]. intros EW EM SUM.
  pose proof (weights_core raw mu Hm0 Hm HN RN) as C. cbv zeta in C. destruct C as (C1 & C2 & C3). rewrite <- EM in C3.
  assert (ME1 : mu = 1%nat -> B2R me = 1).
  { intros Hmu1. rewrite EM. clear - RN HN Hmu1. rewrite Hmu1 in RN, HN. destruct raw as [|r [|? ?]]; [discriminate HN| |discriminate HN]. destruct (RN O ltac:(lia)) as (r' & Er & Fr & Dr). injection Er as <-.
    pose proof (ideal_range 1 O ltac:(lia) ltac:(lia)) as I0. apply Rabs_le_inv in Dr. apply mueff_one; [exact Fr|lra]. }
  clear EM. set (s1 := fold_left fadd raw (fofZ 0)) in *. clearbody s1.
  split; [rewrite EW, map_length; exact HN|]. split; [|split; [|split; [exact SUM|]]].
  3:{ destruct C3 as (D1 & [D2 D3] & D4). split; [exact D1|]. split; [|exact D4]. split; [|exact D3]. destruct (le_lt_dec 2 mu) as [H2|H2]; [specialize (D4 H2); lra|].
      rewrite ME1 by lia. lra. }
  - rewrite EW. intros i x Hx. rewrite nth_error_map in Hx. destruct (nth_error raw i) as [r|] eqn:Er; [|discriminate Hx]. cbn [option_map] in Hx. assert (Ex : fdiv r s1 = x) by congruence.
    rewrite <- Ex. destruct (C1 i r Er) as (A1 & A2 & A3). split; [exact A1|]. split; [exact A2|]. intros q Hq. rewrite (exact_weight_is mu i q Hm0 Hq). exact A3.
  - rewrite EW. intros i j x y Hij Hx Hy. rewrite nth_error_map in Hx, Hy. destruct (nth_error raw i) as [r|] eqn:Er; [|discriminate Hx]. destruct (nth_error raw j) as [t|] eqn:Et; [|discriminate Hy]. cbn [option_map] in Hx, Hy.
    assert (Ex : fdiv r s1 = x) by congruence. assert (Ey : fdiv t s1 = y) by congruence. rewrite <- Ex, <- Ey. exact (C2 i j r t Hij Er Et).
Qed.
(** There is such a logarithm: the true one, rounded. *)
Definition to_double (v : R) : f64 := binary_normalize prec64 emax64 _ _ mode_NE (Ztrunc (scaled_mantissa radix2 (SpecFloat.fexp prec64 emax64) (rnd v))) (cexp radix2 (SpecFloat.fexp prec64 emax64) (rnd v)) false.
Lemma to_double_is v : Rabs v <= bpow radix2 1000 -> is (to_double v) (rnd v).
Proof.
  intros H. unfold to_double. pose proof (binary_normalize_correct prec64 emax64 _ _ mode_NE (Ztrunc (scaled_mantissa radix2 (SpecFloat.fexp prec64 emax64) (rnd v))) (cexp radix2 (SpecFloat.fexp prec64 emax64) (rnd v)) false) as N. cbv zeta in N.
  pose proof (rnd_fmt v) as F. unfold generic_format in F. rewrite <- F in N. 
  change (round radix2 (SpecFloat.fexp prec64 emax64) (round_mode mode_NE) (rnd v)) with (rnd (rnd v)) in N. rewrite (rnd_id (rnd v) (rnd_fmt v)) in N.
  rewrite small_enough in N by exact H. destruct N as (N1 & N2 & _). split; assumption.
Qed.
Definition rounded_log : libm := {| lm_log := fun x => to_double (ln (B2R x)); lm_exp := fun x => x; lm_sin := fun x => x; lm_cos := fun x => x |}.
Lemma C41_doubles_nonvacuous : accurate_log rounded_log.
Proof.
  intros x i Hi Fx Ex. cbn [lm_log rounded_log]. rewrite Ex. pose proof (ln_up (IZR i) ltac:(split; apply IZR_le; lia)) as LB. assert (B : Rabs (ln (IZR i)) <= 21) by (apply Rabs_le; lra).
  destruct (to_double_is (ln (IZR i))) as [F E]; [eapply Rle_trans; [exact B|]; apply Rle_trans with (bpow radix2 5); [cbn; lra|apply bpow_le; lia]|]. split; [exact F|]. rewrite E.
  eapply Rle_trans; [apply rnd_err|]. pose proof eta_small. assert (u53 * Rabs (ln (IZR i)) <= u53 * 21) by (apply Rmult_le_compat_l; [unfold u53; lra|exact B]). unfold u53 in *. lra.
Qed.
