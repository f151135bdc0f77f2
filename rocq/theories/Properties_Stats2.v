(** * C54 in double precision: the mean and standard deviation of a population. *)
From Coq Require Import ZArith Bool Lia Reals Lra Psatz.
From Flocq Require Import Core BinarySingleNaN.
From Verif Require Import Prelude Flt FltFacts FltNonneg Num Round8 MathTools Objectives Properties_ES6 Properties_Boundary2 Properties_Boundary3 Properties_CmaPars2 Properties_CmaStd Properties_Stats.
#[local] Open Scope R_scope.

(** ** Sums *)
Lemma u53_nn : 0 <= u53. Proof. unfold u53. lra. Qed.
(** Terms of either sign. *)
Lemma signed_sum (M e C : R) : 0 <= e -> 0 <= C -> C <= bpow radix2 900 -> forall (ts : list f64) (qs : list R), Forall2 (fun t q => is_finite t = true /\ Rabs (B2R t - q) <= e /\ Rabs q <= M) ts qs ->
  forall (s : f64) v A k, is s v -> 0 <= k -> Rabs (v - A) <= k * (e + 2 * u53 * C) -> Rabs A <= k * M -> (k + INR (length ts)) * M <= C -> (k + INR (length ts)) * (e + 2 * u53 * C) <= C -> 0 <= M ->
  exists v', is (fold_left fadd ts s) v' /\ Rabs (v' - (A + Rsum qs)) <= (k + INR (length ts)) * (e + 2 * u53 * C).
Proof.
  intros He HC HT. pose proof u53_nn as U. assert (UC : 0 <= u53 * C) by (apply Rmult_le_pos; assumption).
  induction 1 as [|t q ts qs (F & E & Q) HF IH]; intros s v A k Hs Hk EV EA H1 H2 HM; cbn [fold_left Rsum fold_right length].
  - exists v. split; [exact Hs|]. cbn [INR]. rewrite !Rplus_0_r. exact EV.
  - fold (Rsum qs). change (length (t :: ts)) with (S (length ts)) in *. rewrite S_INR in *. pose proof (pos_INR (length ts)) as L0. set (n := INR (length ts)) in *.
    assert (Z : 0 <= e + 2 * u53 * C) by lra. assert (NM : 0 <= n * M) by (apply Rmult_le_pos; assumption). assert (NZ : 0 <= n * (e + 2 * u53 * C)) by (apply Rmult_le_pos; assumption).
    assert (EXP : (k + (n + 1)) * (e + 2 * u53 * C) = k * (e + 2 * u53 * C) + n * (e + 2 * u53 * C) + (e + 2 * u53 * C)) by ring. assert (EXM : (k + (n + 1)) * M = k * M + n * M + M) by ring.
    assert (VB : Rabs (v + B2R t) <= 2 * C). { apply Rabs_le_inv in EV. apply Rabs_le_inv in EA. apply Rabs_le_inv in E. apply Rabs_le_inv in Q. apply Rabs_le. lra. }
    assert (TP : Rabs (v + B2R t) <= top). { eapply Rle_trans; [exact VB|]. apply Rle_trans with (2 * bpow radix2 900); [lra|]. change 2 with (bpow radix2 1). rewrite <- bpow_plus. apply bpow_le. lia. }
    pose proof (is_add s t v (B2R t) Hs (is_self t F) TP) as IA. pose proof (rnd_plus_rel v (B2R t) (is_fmt _ _ Hs) (is_fmt _ _ (is_self t F))) as RE.
    assert (RE2 : Rabs (rnd (v + B2R t) - (v + B2R t)) <= u53 * (2 * C)) by (eapply Rle_trans; [exact RE|]; apply Rmult_le_compat_l; assumption).
    assert (KK : k + (n + 1) = k + 1 + n) by ring.
    destruct (IH (fadd s t) (rnd (v + B2R t)) (A + q) (k + 1) IA ltac:(lra)) as (v' & H3 & H4).
    + clear IH. apply Rabs_le_inv in EV. apply Rabs_le_inv in E. apply Rabs_le_inv in RE2. replace ((k + 1) * (e + 2 * u53 * C)) with (k * (e + 2 * u53 * C) + e + u53 * (2 * C)) by ring. apply Rabs_le. lra.
    + apply Rabs_le_inv in EA. apply Rabs_le_inv in Q. replace ((k + 1) * M) with (k * M + M) by ring. apply Rabs_le. lra.
    + rewrite KK in H1. exact H1.
    + rewrite KK in H2. exact H2.
    + exact HM.
    + exists v'. split; [exact H3|]. replace (A + (q + Rsum qs)) with (A + q + Rsum qs) by ring. eapply Rle_trans; [exact H4|]. apply Req_le, (f_equal (fun z => z * (e + 2 * u53 * C))). symmetry. exact KK.
Qed.
(** Terms that are not negative: the error is relative. *)
Lemma square_sum (e0 : R) : 0 <= e0 <= 1 -> forall (ts : list f64) (qs : list R), Forall2 (fun t q => is_finite t = true /\ 0 <= q /\ Rabs (B2R t - q) <= 3 * u53 * q + e0) ts qs ->
  forall (s : f64) v A k, is s v -> 0 <= k -> 0 <= A -> Rabs (v - A) <= (3 + 2 * k) * u53 * A + 2 * k * e0 -> k + INR (length ts) <= 1048576 -> A + Rsum qs <= bpow radix2 900 ->
  exists v', is (fold_left fadd ts s) v' /\ Rabs (v' - (A + Rsum qs)) <= (3 + 2 * (k + INR (length ts))) * u53 * (A + Rsum qs) + 2 * (k + INR (length ts)) * e0.
Proof.
  intros He. pose proof u53_nn as U.
  induction 1 as [|t q ts qs (F & Q & E) HF IH]; intros s v A k Hs Hk HA EV HK HT; cbn [fold_left Rsum fold_right length].
  - exists v. split; [exact Hs|]. cbn [INR]. rewrite !Rplus_0_r. exact EV.
  - fold (Rsum qs). cbn [Rsum fold_right] in HT. fold (Rsum qs) in HT. change (length (t :: ts)) with (S (length ts)) in *. rewrite S_INR in *. pose proof (pos_INR (length ts)) as L0. set (n := INR (length ts)) in *.
    assert (S0 : 0 <= Rsum qs). { clear - HF. induction HF as [|x y l m (_ & Hy & _) _ I]; cbn; [lra|]. fold (Rsum m). lra. }
    assert (K0 : 0 <= k <= 1048576) by lra.
    assert (a0 : 0 <= (3 + 2 * k) * u53 <= / 1000) by (unfold u53; lra). assert (E1 : (3 + 2 * k) * u53 * A <= / 1000 * A) by (apply Rmult_le_compat_r; lra). assert (E2 : 3 * u53 * q <= / 1000 * q) by (apply Rmult_le_compat_r; [lra|unfold u53; lra]).
    assert (E3 : k * e0 <= 1048576 * e0) by (apply Rmult_le_compat_r; lra).
    assert (E3b : 0 <= k * e0) by (apply Rmult_le_pos; lra).
    assert (VB : Rabs (v + B2R t) <= 2 * (A + q) + 2097154 * e0). { apply Rabs_le_inv in EV. apply Rabs_le_inv in E. apply Rabs_le. lra. }
    assert (TP : Rabs (v + B2R t) <= top). { eapply Rle_trans; [exact VB|]. apply Rle_trans with (4 * bpow radix2 900).
      - assert (2097154 <= bpow radix2 900). { apply Rle_trans with (bpow radix2 30); [cbn; lra|apply bpow_le; lia]. } lra.
      - change 4 with (bpow radix2 2). rewrite <- bpow_plus. apply bpow_le. lia. }
    pose proof (is_add s t v (B2R t) Hs (is_self t F) TP) as IA. pose proof (rnd_plus_rel v (B2R t) (is_fmt _ _ Hs) (is_fmt _ _ (is_self t F))) as RE.
    assert (RE2 : Rabs (rnd (v + B2R t) - (v + B2R t)) <= 2 * u53 * (A + q) + e0). { eapply Rle_trans; [exact RE|]. apply Rle_trans with (u53 * (2 * (A + q) + 2097154 * e0)); [apply Rmult_le_compat_l; assumption|]. assert (u53 * 2097154 * e0 <= 1 * e0) by (apply Rmult_le_compat_r; [lra|unfold u53; lra]). lra. }
    assert (KK : k + (n + 1) = k + 1 + n) by ring.
    destruct (IH (fadd s t) (rnd (v + B2R t)) (A + q) (k + 1) IA ltac:(lra) ltac:(lra)) as (v' & H3 & H4).
    + assert (X1 : (3 + 2 * k) * u53 * A <= (3 + 2 * k) * u53 * A + 2 * k * u53 * q). { assert (0 <= k * u53 * q) by (apply Rmult_le_pos; [apply Rmult_le_pos; lra|lra]). lra. }
      apply Rabs_le_inv in EV. apply Rabs_le_inv in E. apply Rabs_le_inv in RE2. replace ((3 + 2 * (k + 1)) * u53 * (A + q) + 2 * (k + 1) * e0) with (((3 + 2 * k) * u53 * A + 2 * k * u53 * q) + 2 * k * e0 + (3 * u53 * q + e0) + (2 * u53 * (A + q) + e0)) by ring. apply Rabs_le. lra.
    + rewrite KK in HK. exact HK.
    + lra.
    + exists v'. split; [exact H3|]. replace (A + (q + Rsum qs)) with (A + q + Rsum qs) by ring. eapply Rle_trans; [exact H4|]. apply Req_le, (f_equal (fun z => (3 + 2 * z) * u53 * (A + q + Rsum qs) + 2 * z * e0)). symmetry. exact KK.
Qed.
(** The root mean square of a perturbed list. *)
Lemma rms_up (e : R) : 0 <= e -> forall a b : list R, Forall2 (fun x y => Rabs (x - y) <= e) a b -> a <> [] ->
  sqrt (Rsum (map (fun x => x ^ 2) a) / INR (length a)) <= sqrt (Rsum (map (fun x => x ^ 2) b) / INR (length b)) + e.
Proof.
  intros He a b H Ha. assert (Len : length a = length b) by (clear - H; induction H; cbn; congruence). rewrite Len.
  assert (N : 1 <= INR (length b)). { rewrite <- Len. destruct a as [|x l]; [congruence|]. cbn [length]. rewrite S_INR. pose proof (pos_INR (length l)). lra. } set (n := INR (length b)) in *.
  set (T := Rsum (map Rabs b)). set (S := Rsum (map (fun x => x ^ 2) b)).
  assert (H1 : Rsum (map (fun x => x ^ 2) a) <= S + 2 * e * T + n * (e * e)).
  { unfold S, T, n. clear - H He. induction H as [|x y l m E _ IH]; cbn [map Rsum fold_right length]; [cbn; lra|]. fold (Rsum (map (fun x => x ^ 2) l)) (Rsum (map (fun x => x ^ 2) m)) (Rsum (map Rabs m)). change (INR (length (y :: m))) with (INR (Datatypes.S (length m))). rewrite S_INR.
    assert (X : x ^ 2 <= y ^ 2 + 2 * e * Rabs y + e * e). { assert (Rabs x <= Rabs y + e). { replace x with (y + (x - y)) by ring. eapply Rle_trans; [apply Rabs_triang|]. lra. } rewrite <- (pow2_abs x), <- (pow2_abs y). pose proof (Rabs_pos x). pose proof (Rabs_pos y). set (p := Rabs x) in *. set (q := Rabs y) in *. clearbody p q. nra. }
    lra. }
  destruct (Properties_CmaWeights2.Rsum_squares (map Rabs b)) as (T0 & [S0 _] & TS). { apply Forall_map, Forall_forall. intros; apply Rabs_pos. }
  change Properties_CmaDescription2.Rsum with Rsum in *. rewrite map_length in TS. fold n T in TS, T0.
  assert (ES : Rsum (map (fun x => x * x) (map Rabs b)) = S). { unfold S. rewrite map_map. f_equal. apply map_ext. intros x. rewrite <- pow2_abs. ring. } rewrite ES in *. clearbody T S. clearbody n.
  set (r := sqrt (S / n)). assert (SN : 0 <= S / n) by (apply Rmult_le_pos; [lra|apply Rlt_le, Rinv_0_lt_compat; lra]). pose proof (sqrt_pos (S / n)) as R0. pose proof (sqrt_sqrt (S / n) SN) as RR. fold r in R0, RR. clearbody r.
  assert (RS : n * (r * r) = S) by (rewrite RR; field; lra).
  assert (TR : T <= n * r). { apply Rsqr_incr_0; [|exact T0|apply Rmult_le_pos; lra]. unfold Rsqr. replace (n * r * (n * r)) with (n * (n * (r * r))) by ring. rewrite RS. exact TS. }
  rewrite <- (sqrt_square (r + e)) by lra. apply sqrt_le_1_alt. apply (Rmult_le_reg_r n); [lra|]. unfold Rdiv. rewrite Rmult_assoc, Rinv_l, Rmult_1_r by lra. assert (e * T <= e * (n * r)) by (apply Rmult_le_compat_l; assumption).
  replace ((r + e) * (r + e) * n) with (n * (r * r) + 2 * (e * (n * r)) + n * (e * e)) by ring. lra.
Qed.
(** ** The two loops *)
Lemma accumulate_each {K : Num} (z : K) (g : nat -> K -> K) ind : forall acc i, length ind = length acc ->
  accumulate g i acc ind = Ok (map (fun k => nadd (nth k acc z) (g (i + k)%nat (nth k ind z))) (seq 0 (length acc))).
Proof.
  induction ind as [|x t IH]; intros [|a acc] i; cbn [length accumulate]; try discriminate; [reflexivity|].
  intros [= H]. rewrite (IH acc (S i) H). cbn [obind seq map nth]. rewrite Nat.add_0_r. f_equal. f_equal. rewrite <- seq_shift, map_map. apply map_ext. intros k. cbn [nth]. rewrite Nat.add_succ_r. reflexivity.
Qed.
Lemma nth_map_any {A} (z : A) (f : nat -> A) d k : (k < d)%nat -> nth k (map f (seq 0 d)) z = f k.
Proof. intros H. rewrite (nth_indep _ z (f 0%nat)) by (rewrite map_length, seq_length; lia). now rewrite map_nth, seq_nth. Qed.
Lemma accumulate_all_each {K : Num} (z : K) (g : nat -> K -> K) pop d : Forall (fun p => length p = d) pop -> forall acc, length acc = d ->
  accumulate_all g acc pop = Ok (map (fun k => fold_left (fun (a : K) p => nadd a (g k (nth k p z))) pop (nth k acc z)) (seq 0 d)).
Proof.
  induction 1 as [|p t Hp Ht IH]; intros acc Ha; cbn [accumulate_all fold_left].
  - f_equal. apply nth_ext with z z; [now rewrite map_length, seq_length|]. intros k Hk. rewrite nth_map_any by lia. reflexivity.
  - rewrite (accumulate_each z g p acc 0) by congruence. cbn [obind]. rewrite IH by (now rewrite map_length, seq_length). f_equal. apply map_ext_in. intros k Hk. apply in_seq in Hk. rewrite nth_map_any by lia. cbn. reflexivity.
Qed.
Lemma fold_fadd {A} (h : A -> f64) l : forall s, fold_left (fun a p => fadd a (h p)) l s = fold_left fadd (map h l) s.
Proof. induction l as [|x l IH]; intros s; [reflexivity|]. cbn [fold_left map]. apply IH. Qed.
(** The values of coordinate [i] of a population of doubles, and what is computed from them. *)
Definition col (pop : list (list f64)) (i : nat) : list f64 := map (fun p => nth i p fzero) pop.
Definition mean_F (xs : list f64) : f64 := fold_left fadd (map (fun x => fdiv x (fofZ (Z.of_nat (length xs)))) xs) (fofZ 0).
Definition var_F (xs : list f64) : f64 := fold_left fadd (map (fun x => fdiv (fmul (fsub x (mean_F xs)) (fsub x (mean_F xs))) (fofZ (Z.of_nat (length xs)))) xs) (fofZ 0).
Lemma mean_std_F (L : libm) (pop : list (list f64)) d : pop <> [] -> Forall (fun p => length p = d) pop ->
  @compute_mean_std (numF L) pop = Ok (map (fun i => mean_F (col pop i)) (seq 0 d), map fsqrt (map (fun i => var_F (col pop i)) (seq 0 d))).
Proof.
  intros HN HD. destruct pop as [|p0 t]; [congruence|]. set (pop := p0 :: t) in *. assert (D0 : length p0 = d) by (inversion HD; assumption). unfold compute_mean_std. unfold pop at 1. cbv zeta.
  unfold nsize. change (@ndiv (numF L)) with fdiv. change (@nofZ (numF L)) with fofZ. change (@nsub (numF L)) with fsub. change (@nsqrt (numF L)) with fsqrt. unfold sq. change (@nmul (numF L)) with fmul.
  assert (R0 : forall z : f64, length (repeat z d) = d) by (intros z; apply repeat_length). 
  assert (E1 : @accumulate_all (numF L) (fun _ x => fdiv x (fofZ (Z.of_nat (length pop)))) (repeat (fofZ 0) d) pop = Ok (map (fun i => mean_F (col pop i)) (seq 0 d))).
  { rewrite (@accumulate_all_each (numF L) fzero _ pop d HD _ (R0 _)). f_equal. apply map_ext_in. intros i Hi. apply in_seq in Hi. change (@nadd (numF L)) with fadd. unfold mean_F, col. rewrite map_length, map_map.
    rewrite fold_fadd. f_equal. apply nth_error_nth. rewrite nth_error_repeat by lia. reflexivity. }
  assert (E2 : forall mean : list f64, (forall i, (i < d)%nat -> nth i mean (fofZ 0) = mean_F (col pop i)) -> @accumulate_all (numF L) (fun i x => fdiv (fmul (fsub x (nth i mean (fofZ 0))) (fsub x (nth i mean (fofZ 0)))) (fofZ (Z.of_nat (length pop)))) (repeat (fofZ 0) d) pop = Ok (map (fun i => var_F (col pop i)) (seq 0 d))).
  { intros mean HM. rewrite (@accumulate_all_each (numF L) fzero _ pop d HD _ (R0 _)). f_equal. apply map_ext_in. intros i Hi. apply in_seq in Hi. change (@nadd (numF L)) with fadd. unfold var_F. rewrite (HM i) by lia. set (m := mean_F (col pop i)). clearbody m. unfold col. rewrite map_length, map_map.
    rewrite fold_fadd. f_equal. apply nth_error_nth. rewrite nth_error_repeat by lia. reflexivity. }
  refine (eq_trans (f_equal (fun o => obind o _) (eq_trans _ E1)) _); [rewrite <- D0; reflexivity|]. cbn [obind].
  refine (eq_trans (f_equal (fun o => obind o _) (eq_trans _ (E2 (map (fun i => mean_F (col pop i)) (seq 0 d)) _))) _); [rewrite <- D0; reflexivity| |reflexivity].
  intros i Hi. apply (nth_map_any (fofZ 0) (fun i => mean_F (col pop i))). exact Hi.
Qed.
(** ** One coordinate *)
Lemma Rsum_le (c : R) l : Forall (fun x => x <= c) l -> Rsum l <= INR (length l) * c.
Proof. induction 1 as [|x l H _ IH]; [cbn; lra|]. change (length (x :: l)) with (S (length l)). rewrite S_INR. cbn [Rsum fold_right]. fold (Rsum l). lra. Qed.
Lemma eta_bounds : 0 < eta <= / 1000000000000000000000000000000000000000000000000000. Proof. exact eta_small. Qed.
Lemma Forall2_map_both {A B C} (R : B -> C -> Prop) (f : A -> B) (g : A -> C) l : Forall (fun x => R (f x) (g x)) l -> Forall2 R (map f l) (map g l).
Proof. induction 1; cbn; constructor; assumption. Qed.
Section Column.
Variables (xs : list f64) (B : R).
Hypothesis HN : xs <> [].
Hypothesis HL : (Z.of_nat (length xs) <= 1048576)%Z.
Hypothesis HB : Forall (fun x : f64 => is_finite x = true /\ Rabs (B2R x) <= B) xs.
Hypothesis BT : B <= bpow radix2 400.
Let N := INR (length xs).
Let X := map (fun x : f64 => B2R x) xs.
Lemma N_range : 1 <= N <= 1048576.
Proof.
  unfold N. split; [|rewrite INR_IZR_INZ; apply IZR_le; exact HL]. destruct xs as [|x l]; [congruence|]. cbn [length]. rewrite S_INR. pose proof (pos_INR (length l)). lra.
Qed.
Lemma B_nn : 0 <= B.
Proof. destruct xs as [|x l]; [congruence|]. inversion HB as [|? ? [_ H] _]. pose proof (Rabs_pos (B2R x)). lra. Qed.
Lemma n_is : is (fofZ (Z.of_nat (length xs))) N.
Proof. unfold N. rewrite INR_IZR_INZ. apply is_ofZ. rewrite Z.abs_eq by lia. change (2 ^ 53)%Z with 9007199254740992%Z. lia. Qed.
Lemma top4 v w : 0 <= v <= 1000 * (B + 1) -> Rabs w <= v -> Rabs w <= top.
Proof.
  intros Hv Hw. apply under_top. pose proof Q_big. eapply Rle_trans; [exact Hw|]. apply Rle_trans with (1000 * (B + 1)); [lra|]. lra.
Qed.
Lemma part_le v c : Rabs v <= c -> Rabs (v / N) <= c / N.
Proof.
  pose proof N_range. intros Hv. unfold Rdiv. rewrite Rabs_mult, (Rabs_pos_eq (/ N)) by (apply Rlt_le, Rinv_0_lt_compat; lra). apply Rmult_le_compat_r; [apply Rlt_le, Rinv_0_lt_compat; lra|exact Hv].
Qed.
Lemma part_small c : 0 <= c -> 0 <= c / N <= c.
Proof.
  pose proof N_range. intros Hc. assert (0 < / N <= 1). { split; [apply Rinv_0_lt_compat; lra|]. rewrite <- Rinv_1. apply Rinv_le; lra. } unfold Rdiv. split; [apply Rmult_le_pos; lra|]. rewrite <- (Rmult_1_r c) at 2. apply Rmult_le_compat_l; lra.
Qed.
Lemma pop_mean_bound : Rabs (pop_mean X) <= B.
Proof.
  unfold pop_mean, X. rewrite map_length. fold N. pose proof N_range as NR. assert (A1 : Rsum (map (fun x : f64 => B2R x) xs) <= N * B). { eapply Rle_trans; [apply (Rsum_le B)|rewrite map_length; apply Req_le; reflexivity]. apply Forall_map. eapply Forall_impl; [|exact HB]. intros a [_ H]. cbv beta. apply Rabs_le_inv in H. lra. }
  assert (A2 : - (N * B) <= Rsum (map (fun x : f64 => B2R x) xs)). { assert (E : Rsum (map Ropp (map (fun x : f64 => B2R x) xs)) <= N * B). { eapply Rle_trans; [apply (Rsum_le B)|rewrite !map_length; apply Req_le; reflexivity]. rewrite map_map. apply Forall_map. eapply Forall_impl; [|exact HB]. intros a [_ H]. cbv beta. apply Rabs_le_inv in H. lra. }
    assert (O : forall l, Rsum (map Ropp l) = - Rsum l). { clear. induction l as [|x l IH]; cbn; [lra|]. fold (Rsum (map Ropp l)) (Rsum l). lra. } rewrite O in E. lra. }
  set (s := Rsum (map (fun x : f64 => B2R x) xs)) in *. clearbody s. assert (H : Rabs s <= N * B) by (apply Rabs_le; lra). apply part_le in H. replace (N * B / N) with B in H by (field; lra). exact H.
Qed.
Lemma mean_close : exists v, is (mean_F xs) v /\ Rabs (v - pop_mean X) <= 3 * (u53 * (N * B)) + / 1000000000000000000000000000000.
Proof.
  pose proof N_range as NR. pose proof B_nn as B0. pose proof u53_nn as U. pose proof eta_bounds as EB. pose proof (part_small B B0) as PB.
  set (C := B + / 100000000000000000000000000000000000). assert (NU : N * u53 <= / 1000000000) by (unfold u53; lra). assert (NE : N * eta <= 1048576 * eta) by (apply Rmult_le_compat_r; lra). assert (NC : N * u53 * C <= / 1000000000 * C) by (apply Rmult_le_compat_r; unfold C; lra).
  assert (UB : 0 <= u53 * B) by (apply Rmult_le_pos; assumption). assert (UBN : u53 * B <= N * (u53 * B)). { rewrite <- (Rmult_1_l (u53 * B)) at 1. apply Rmult_le_compat_r; lra. }
  assert (EE : N * (u53 * (B / N) + eta + 2 * u53 * C) = u53 * B + N * eta + 2 * (N * u53 * C)) by (field; lra).
  assert (UB2 : u53 * B <= / 1000000000 * B) by (apply Rmult_le_compat_r; [exact B0|unfold u53; lra]).
  assert (NN : forall v, 0 <= v -> 0 <= u53 * v) by (intros; apply Rmult_le_pos; assumption).
  destruct (signed_sum (B / N) (u53 * (B / N) + eta) C) with (ts := map (fun x => fdiv x (fofZ (Z.of_nat (length xs)))) xs) (qs := map (fun x : f64 => B2R x / N) xs) (s := fofZ 0) (v := 0) (A := 0) (k := 0) as (v & H1 & H2).
  - pose proof (NN (B / N)). lra.
  - unfold C; lra.
  - unfold C. pose proof Q_big. apply Rle_trans with (2 * bpow radix2 400); [lra|]. change 2 with (bpow radix2 1). rewrite <- bpow_plus. apply bpow_le. lia.
  - apply Forall2_map_both. eapply Forall_impl; [|exact HB]. intros x [F H]. cbv beta. pose proof (part_le _ _ H) as P.
    pose proof (is_div x _ _ N (is_self x F) n_is ltac:(lra) ltac:(apply (top4 B); [lra|]; eapply Rle_trans; [exact P|]; lra)) as [FD ED]. split; [exact FD|]. rewrite ED. split; [|exact P].
    eapply Rle_trans; [apply rnd_err|]. apply Rplus_le_compat_r, Rmult_le_compat_l; assumption.
  - exact is_zero.
  - lra.
  - rewrite Rminus_0_r, Rabs_R0. lra.
  - rewrite Rabs_R0. lra.
  - rewrite map_length. fold N. replace ((0 + N) * (B / N)) with B by (field; lra). unfold C. lra.
  - rewrite map_length. fold N. rewrite Rplus_0_l, EE. unfold C in *. lra.
  - lra.
  - exists v. split; [exact H1|]. rewrite map_length in H2. fold N in H2. rewrite !Rplus_0_l, EE in H2. replace (pop_mean X) with (Rsum (map (fun x : f64 => B2R x / N) xs)).
    + eapply Rle_trans; [exact H2|]. unfold C in *. unfold u53 in *. lra.
    + unfold pop_mean, X. rewrite map_length. fold N. rewrite <- Rsum_div, map_map. reflexivity.
Qed.
Lemma std_close : exists v, is (fsqrt (var_F xs)) v /\ Rabs (v - sqrt (pop_variance X)) <= 30 * (u53 * (N * B)) + / 2000000000000000000000.
Proof.
  pose proof N_range as NR. pose proof B_nn as B0. pose proof u53_nn as U. pose proof eta_bounds as EB. destruct mean_close as (m & Hm & Em). pose proof pop_mean_bound as PM. set (mu := pop_mean X) in *.
  assert (NB : 0 <= N * B) by (apply Rmult_le_pos; lra). assert (UNB : 0 <= u53 * (N * B) <= / 1000000 * B). { split; [apply Rmult_le_pos; assumption|]. rewrite <- Rmult_assoc. apply Rmult_le_compat_r; [exact B0|]. unfold u53. lra. }
  assert (UB : 0 <= u53 * B <= u53 * (N * B)). { split; [apply Rmult_le_pos; assumption|]. apply Rmult_le_compat_l; [exact U|]. rewrite <- (Rmult_1_l B) at 1. apply Rmult_le_compat_r; lra. }
  set (D := fun x : f64 => rnd (B2R x - m)). set (e1 := 6 * (u53 * (N * B)) + / 100000000000000000000000000000).
  assert (HD : Forall (fun x : f64 => is (fsub x (mean_F xs)) (D x) /\ Rabs (D x) <= 3 * (B + 1) /\ Rabs (D x - (B2R x - mu)) <= e1) xs).
  { eapply Forall_impl; [|exact HB]. intros x [F H]. apply Rabs_le_inv in H. apply Rabs_le_inv in Em. apply Rabs_le_inv in PM. assert (S : Rabs (B2R x - m) <= 21 / 10 * B + / 100000000000000000000000000000) by (apply Rabs_le; lra).
    assert (TP : Rabs (B2R x - m) <= top) by (apply (top4 (3 * (B + 1))); [lra|]; eapply Rle_trans; [exact S|]; lra).
    split; [exact (is_sub _ _ _ _ (is_self x F) Hm TP)|]. pose proof (rnd_pm _ _ S) as P. fold (D x) in P. apply Rabs_le_inv in S.
    assert (US : u53 * (21 / 10 * B + / 100000000000000000000000000000) <= 21 / 10 * (u53 * B) + / 100000000000000000000000000000 * / 1000) by (unfold u53; lra).
    split; apply Rabs_le; [|unfold e1]; lra. }
  pose (qs := map (fun x : f64 => D x * D x / N) xs).
  destruct (square_sum (3 * eta) ltac:(lra) (map (fun x => fdiv (fmul (fsub x (mean_F xs)) (fsub x (mean_F xs))) (fofZ (Z.of_nat (length xs)))) xs) qs) with (s := fofZ 0) (v := 0) (A := 0) (k := 0) as (v & H1 & H2).
  - apply Forall2_map_both. eapply Forall_impl; [|exact HD]. intros x (I1 & I2 & _). cbv beta. set (d := D x) in *. clearbody d. pose proof (Rle_0_sqr d) as DD. unfold Rsqr in DD. pose proof Q_big as QB.
    assert (D9 : d * d <= 9 * ((B + 1) * (B + 1))). { rewrite <- (Rabs_pos_eq (d * d)) by exact DD. rewrite Rabs_mult. replace (9 * ((B + 1) * (B + 1))) with ((3 * (B + 1)) * (3 * (B + 1))) by ring. pose proof (Rabs_pos d). apply Rmult_le_compat; assumption. }
    assert (QQ : (B + 1) * (B + 1) <= (2 * bpow radix2 400) * (2 * bpow radix2 400)) by (apply Rmult_le_compat; lra). assert (Q1 : 1 <= bpow radix2 400 * bpow radix2 400) by (replace 1 with (1 * 1) by ring; apply Rmult_le_compat; lra).
    pose proof (is_mul _ _ _ _ I1 I1 ltac:(apply under_top2; rewrite Rabs_pos_eq by exact DD; lra)) as IM. pose proof (rnd_err (d * d)) as RM. rewrite (Rabs_pos_eq _ DD) in RM. set (w := rnd (d * d)) in *.
    assert (W0 : 0 <= w) by (apply rnd_nn; exact DD). assert (UD : 0 <= u53 * (d * d) <= / 1000 * (d * d)) by (split; [apply Rmult_le_pos; assumption|apply Rmult_le_compat_r; [exact DD|unfold u53; lra]]).
    apply Rabs_le_inv in RM. assert (W1 : w <= 37 * (bpow radix2 400 * bpow radix2 400)) by lra. pose proof (part_small w W0) as PW.
    pose proof (is_div _ _ _ _ IM n_is ltac:(lra) ltac:(apply under_top2; rewrite Rabs_pos_eq by lra; lra)) as [FD ED]. split; [exact FD|]. split; [apply part_small; exact DD|]. rewrite ED.
    pose proof (rnd_err (w / N)) as RW. rewrite (Rabs_pos_eq (w / N)) in RW by lra. pose proof (part_le (w - d * d) (u53 * (d * d) + eta) ltac:(apply Rabs_le; lra)) as PD.
    assert (X1 : (w - d * d) / N = w / N - d * d / N) by (field; lra). assert (X2 : (u53 * (d * d) + eta) / N = u53 * (d * d / N) + eta / N) by (field; lra). rewrite X1, X2 in PD. pose proof (part_small eta ltac:(lra)) as PE. pose proof (part_small (d * d) DD) as PQ.
    set (q := d * d / N) in *. set (y := w / N) in *. clearbody q y. apply Rabs_le_inv in PD. apply Rabs_le_inv in RW. assert (UQ : 0 <= u53 * q <= / 1000 * q) by (split; [apply Rmult_le_pos; lra|apply Rmult_le_compat_r; [lra|unfold u53; lra]]).
    assert (UY : u53 * y <= 2 * (u53 * q) + eta). { apply Rle_trans with (u53 * (2 * q + 2 * eta)); [apply Rmult_le_compat_l; lra|]. assert (u53 * eta <= / 1000 * eta) by (apply Rmult_le_compat_r; [lra|unfold u53; lra]). lra. }
    apply Rabs_le. lra.
  - exact is_zero.
  - lra.
  - lra.
  - rewrite Rminus_0_r, Rabs_R0. lra.
  - rewrite map_length. fold N. lra.
  - rewrite Rplus_0_l. unfold qs. pose proof Q_big as QB. eapply Rle_trans; [apply (Rsum_le (100 * (bpow radix2 400 * bpow radix2 400) / N))|].
    + apply Forall_map. eapply Forall_impl; [|exact HD]. intros x (_ & I2 & _). cbv beta. set (d := D x) in *. clearbody d. unfold Rdiv. apply Rmult_le_compat_r; [apply Rlt_le, Rinv_0_lt_compat; lra|].
      assert (D9 : d * d <= (6 * bpow radix2 400) * (6 * bpow radix2 400)). { pose proof (Rle_0_sqr d) as DD. unfold Rsqr in DD. rewrite <- (Rabs_pos_eq (d * d)) by exact DD. rewrite Rabs_mult. pose proof (Rabs_pos d). apply Rmult_le_compat; lra. }
      assert (Q1 : 1 <= bpow radix2 400 * bpow radix2 400) by (replace 1 with (1 * 1) by ring; apply Rmult_le_compat; lra). lra.
    + rewrite map_length. fold N. replace (N * (100 * (bpow radix2 400 * bpow radix2 400) / N)) with (100 * (bpow radix2 400 * bpow radix2 400)) by (field; lra). apply Rle_trans with (bpow radix2 7 * (bpow radix2 400 * bpow radix2 400)); [apply Rmult_le_compat_r; [|cbn; lra]|rewrite <- !bpow_plus; apply bpow_le; lia].
      rewrite <- bpow_plus. apply bpow_ge_0.
  - rewrite map_length in H2. fold N in H2. rewrite !Rplus_0_l in H2. set (q := Rsum qs) in *.
    assert (Q0 : 0 <= q). { unfold q, qs. apply Rsum_nonneg, Forall_map, Forall_forall. intros x _. apply part_small. pose proof (Rle_0_sqr (D x)) as DD. exact DD. }
    assert (V0 : 0 <= v). { destruct H1 as [FV <-]. assert (NNV : never_negative (var_F xs)). { unfold var_F. assert (G : forall l s, never_negative s -> Forall never_negative l -> never_negative (fold_left fadd l s)). { induction l as [|t l IH]; intros s Hs Hl; [exact Hs|]. cbn [fold_left]. apply Forall_cons_iff in Hl as [H3 H4]. apply IH; [apply nn_add; assumption|exact H4]. }
        apply G; [right; reflexivity|]. apply Forall_map, Forall_forall. intros x _. apply nn_div; [apply nn_square|]. destruct xs; [congruence|]. cbn [length] in *. change (2 ^ 53)%Z with 9007199254740992%Z. lia. }
      fold (var_F xs) in *. destruct NNV as [NV|NV]; [destruct (var_F xs); discriminate|]. destruct (fle0_cases _ NV) as [E|[_ P]]; [rewrite E in FV; discriminate|exact P]. }
    pose proof (is_sqrt _ _ H1 V0) as IS. exists (rnd (sqrt v)). split; [exact IS|]. clear IS H1.
    assert (e0 : 0 <= (3 + 2 * N) * u53 <= / 1000000000) by (unfold u53; split; lra). assert (NE : N * eta <= 1048576 * eta) by (apply Rmult_le_compat_r; lra). apply Rabs_le_inv in H2.
    destruct (sqrt_close v q ((3 + 2 * N) * u53) (/ 10000000000000000000000) ltac:(lra) ltac:(lra) V0 Q0 ltac:(lra)) as [S1 S2].
    set (a := map D xs). set (b := map (fun x : f64 => B2R x - mu) xs).
    assert (EQ : q = Rsum (map (fun x => x ^ 2) a) / INR (length a)). { unfold a, q, qs. rewrite map_length. fold N. rewrite <- Rsum_div, !map_map. f_equal. apply map_ext. intros x. f_equal. ring. }
    assert (EV : pop_variance X = Rsum (map (fun x => x ^ 2) b) / INR (length b)). { unfold b, pop_variance. fold mu. unfold X. rewrite !map_length, !map_map. reflexivity. }
    assert (E10 : 0 <= e1) by (unfold e1; lra).
    assert (AB : Forall2 (fun x y => Rabs (x - y) <= e1) a b) by (apply Forall2_map_both; eapply Forall_impl; [|exact HD]; intros x (_ & _ & H); exact H).
    assert (BA : Forall2 (fun x y => Rabs (x - y) <= e1) b a) by (apply Forall2_map_both; eapply Forall_impl; [|exact HD]; intros x (_ & _ & H); cbv beta; rewrite Rabs_minus_sym; exact H).
    assert (AN : a <> []) by (unfold a; destruct xs; [congruence|discriminate]). assert (BN : b <> []) by (unfold b; destruct xs; [congruence|discriminate]).
    pose proof (rms_up e1 E10 a b AB AN) as U1. pose proof (rms_up e1 E10 b a BA BN) as U2. rewrite <- EQ, <- EV in U1, U2.
    assert (SQ : sqrt q <= 21 / 10 * B + 2 * e1 + / 100000000000000000000000000000).
    { eapply Rle_trans; [exact U1|]. assert (Y : sqrt (pop_variance X) <= 2 * B); [|lra]. rewrite <- (sqrt_square (2 * B)) by lra. apply sqrt_le_1_alt. rewrite EV. unfold b at 2. rewrite map_length. fold N.
      assert (Z : Rsum (map (fun x => x ^ 2) b) <= N * (2 * B * (2 * B))). { eapply Rle_trans; [apply (Rsum_le (2 * B * (2 * B)))|unfold b; rewrite !map_length; apply Req_le; reflexivity]. unfold b. rewrite map_map. apply Forall_map. eapply Forall_impl; [|exact HB]. intros x [_ H]. cbv beta.
        rewrite <- pow2_abs. replace (Rabs (B2R x - mu) ^ 2) with (Rabs (B2R x - mu) * Rabs (B2R x - mu)) by ring. assert (Rabs (B2R x - mu) <= 2 * B) by (apply Rabs_le_inv in H; apply Rabs_le_inv in PM; apply Rabs_le; lra). pose proof (Rabs_pos (B2R x - mu)). apply Rmult_le_compat; assumption. }
      apply (Rmult_le_reg_r N); [lra|]. unfold Rdiv. rewrite Rmult_assoc, Rinv_l, Rmult_1_r by lra. lra. }
    pose proof (sqrt_pos q) as R0. set (r := sqrt q) in *. set (s := sqrt v) in *. set (g := sqrt (pop_variance X)) in *. assert (R1 : Rabs s <= 2 * (21 / 10 * B + 2 * e1 + / 100000000000000000000000000000) + / 10000000000000000000000). { rewrite Rabs_pos_eq by apply sqrt_pos. assert ((3 + 2 * N) * u53 * r <= / 1000000000 * r) by (apply Rmult_le_compat_r; lra). lra. }
    pose proof (rnd_pm _ _ R1) as P. clearbody r s g. clear H2 V0 Q0 EQ EV U BA AB HD.
    assert (K1 : (3 + 2 * N) * u53 * r <= (3 + 2 * N) * u53 * (21 / 10 * B + 2 * e1 + / 100000000000000000000000000000)) by (apply Rmult_le_compat_l; lra).
    assert (K2 : (3 + 2 * N) * u53 * (21 / 10 * B) <= 21 / 2 * (u53 * (N * B))). { replace ((3 + 2 * N) * u53 * (21 / 10 * B)) with (63 / 10 * (u53 * B) + 42 / 10 * (u53 * (N * B))) by field. lra. }
    assert (K3 : (3 + 2 * N) * u53 * (2 * e1 + / 100000000000000000000000000000) <= / 1000000000 * (2 * e1 + / 100000000000000000000000000000)) by (apply Rmult_le_compat_r; lra).
    assert (K4 : u53 * (2 * (21 / 10 * B + 2 * e1 + / 100000000000000000000000000000) + / 10000000000000000000000) <= 42 / 10 * (u53 * B) + / 1000000 * e1 + / 100000000000000000000000000). { assert (u53 * e1 <= / 10000000 * e1) by (apply Rmult_le_compat_r; [exact E10|unfold u53; lra]). unfold u53 in *. lra. }
    unfold e1 in *. apply Rabs_le. lra.
Qed.
End Column.
Lemma col_column (pop : list (list f64)) d i : Forall (fun p => length p = d) pop -> (i < d)%nat -> map (fun x : f64 => B2R x) (col pop i) = column (map (map (fun x : f64 => B2R x)) pop) i.
Proof.
  intros HD Hi. unfold col, column. rewrite !map_map. apply map_ext_in. intros p Hp. rewrite Forall_forall in HD. specialize (HD p Hp). rewrite (nth_indep (map (fun x : f64 => B2R x) p) 0 (B2R fzero)) by (rewrite map_length; lia). rewrite (map_nth (fun x : f64 => B2R x)). reflexivity.
Qed.
(** In double precision as well: for up to 2^20 points of one dimension with coordinates of size at most [B] (at most 2^400),
    the computed means and standard deviations are numbers, no standard deviation is negative, and they differ from the
    population mean and standard deviation by at most n 2^-50 B, resp. n 2^-48 B (plus 2^-70). *)
Theorem C54_mean_std_doubles : forall L (pop : list (list f64)) d B, pop <> [] -> Forall (fun p => length p = d) pop -> (Z.of_nat (length pop) <= 1048576)%Z ->
  Forall (Forall (fun x : f64 => is_finite x = true /\ Rabs (B2R x) <= B)) pop -> B <= bpow radix2 400 ->
  exists mean std : list f64, @compute_mean_std (numF L) pop = Ok (mean, std) /\ length mean = d /\ length std = d /\
  forall i, (i < d)%nat -> let exact := column (map (map (fun x : f64 => B2R x)) pop) i in let m := nth i mean fzero in let s := nth i std fzero in
    is_finite m = true /\ is_finite s = true /\ 0 <= B2R s /\
    Rabs (B2R m - pop_mean exact) <= INR (length pop) * bpow radix2 (-50) * B + bpow radix2 (-70) /\
    Rabs (B2R s - sqrt (pop_variance exact)) <= INR (length pop) * bpow radix2 (-48) * B + bpow radix2 (-70).
Proof.
  intros L pop d B HN HD HL HB BT. exists (map (fun i => mean_F (col pop i)) (seq 0 d)), (map fsqrt (map (fun i => var_F (col pop i)) (seq 0 d))).
  split; [exact (mean_std_F L pop d HN HD)|]. split; [rewrite map_length; apply seq_length|]. split; [rewrite !map_length; apply seq_length|].
  intros i Hi exact m s. assert (Em : m = mean_F (col pop i)) by (unfold m; apply (nth_map_any fzero (fun i => mean_F (col pop i))); exact Hi).
  assert (Es : s = fsqrt (var_F (col pop i))) by (unfold s; rewrite map_map; apply (nth_map_any fzero (fun i => fsqrt (var_F (col pop i)))); exact Hi). clearbody m s. subst m s.
  assert (LC : length (col pop i) = length pop) by apply map_length. assert (NC : col pop i <> []) by (unfold col; destruct pop; [congruence|discriminate]).
  assert (BC : Forall (fun x : f64 => is_finite x = true /\ Rabs (B2R x) <= B) (col pop i)).
  { apply Forall_map. rewrite Forall_forall in HB, HD |- *. intros p Hp. specialize (HB p Hp). specialize (HD p Hp). rewrite Forall_forall in HB. apply HB, nth_In. rewrite HD. exact Hi. }
  destruct (mean_close (col pop i) B NC ltac:(rewrite LC; exact HL) BC BT) as (v & [FV EV] & Dv). destruct (std_close (col pop i) B NC ltac:(rewrite LC; exact HL) BC BT) as (w & [FW EW] & Dw).
  rewrite (col_column pop d i HD Hi) in Dv, Dw. fold exact in Dv, Dw. rewrite LC in Dv, Dw. rewrite EV, EW. split; [exact FV|]. split; [exact FW|].
  assert (B0 : 0 <= B) by first [exact (B_nn _ _ NC BC)|exact (B_nn (col pop i) B NC ltac:(rewrite LC; exact HL) BC)]. assert (NB : 0 <= INR (length pop) * B) by (apply Rmult_le_pos; [apply pos_INR|exact B0]).
  split; [|split].
  - rewrite <- EW. destruct (fle0_cases (fsqrt (var_F (col pop i)))) as [E|[_ P]]; [|rewrite E in FW; discriminate|exact P].
    assert (NNV : never_negative (fsqrt (var_F (col pop i)))). { apply Properties_CmaStd.nn_sqrt. unfold var_F. assert (G : forall l s, never_negative s -> Forall never_negative l -> never_negative (fold_left fadd l s)). { induction l as [|t l IH]; intros s Hs Hl; [exact Hs|]. cbn [fold_left]. apply Forall_cons_iff in Hl as [H3 H4]. apply IH; [apply nn_add; assumption|exact H4]. }
      apply G; [right; reflexivity|]. apply Forall_map, Forall_forall. intros x _. apply nn_div; [apply nn_square|]. rewrite LC. change (2 ^ 53)%Z with 9007199254740992%Z. destruct pop; [congruence|]. cbn [length] in *. lia. }
    destruct NNV as [NV|NV]; [destruct (fsqrt (var_F (col pop i))); discriminate|exact NV].
  - eapply Rle_trans; [exact Dv|]. apply Rplus_le_compat.
    + replace (INR (length pop) * bpow radix2 (-50) * B) with (bpow radix2 (-50) * (INR (length pop) * B)) by ring. rewrite <- Rmult_assoc. apply Rmult_le_compat_r; [exact NB|]. change (bpow radix2 (-50)) with (/ 1125899906842624). unfold u53. lra.
    + change (bpow radix2 (-70)) with (/ 1180591620717411303424). lra.
  - eapply Rle_trans; [exact Dw|]. apply Rplus_le_compat.
    + replace (INR (length pop) * bpow radix2 (-48) * B) with (bpow radix2 (-48) * (INR (length pop) * B)) by ring. rewrite <- Rmult_assoc. apply Rmult_le_compat_r; [exact NB|]. change (bpow radix2 (-48)) with (/ 281474976710656). unfold u53. lra.
    + change (bpow radix2 (-70)) with (/ 1180591620717411303424). lra.
Qed.
Lemma C54_doubles_nonvacuous : exists (pop : list (list f64)), length pop = 3%nat /\ Forall (fun p => length p = 2%nat) pop /\ Forall (Forall (fun x : f64 => is_finite x = true /\ Rabs (B2R x) <= 5)) pop.
Proof.
  assert (K : forall z : Z, (-5 <= z <= 5)%Z -> is_finite (fofZ z) = true /\ Rabs (B2R (fofZ z)) <= 5).
  { intros z Hz. destruct (is_ofZ z) as [F E]; [change (2 ^ 53)%Z with 9007199254740992%Z; lia|]. split; [exact F|]. rewrite E. assert (G : IZR (-5) <= IZR z <= IZR 5) by (split; apply IZR_le; lia). apply Rabs_le. lra. }
  exists [[fofZ 1; fofZ 5]; [fofZ (-2); fofZ 3]; [fofZ 4; fofZ 4]]. split; [reflexivity|]. split; [constructor; [reflexivity|constructor; [reflexivity|constructor; [reflexivity|constructor]]]|].
  constructor; [|constructor; [|constructor; [|constructor]]]; (constructor; [|constructor; [|constructor]]); apply K; lia.
Qed.
