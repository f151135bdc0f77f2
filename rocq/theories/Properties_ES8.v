(** * C47 in double precision: how far the mean of MES (without momentum) and EVA can leave the bounds. *)
From Coq Require Import ZArith Bool Lia Reals Lra.
From Flocq Require Import Core BinarySingleNaN.
From Verif Require Import Prelude Flt FltFacts FltNonneg Round8 FlatMap ParInfo ParInfoFacts ObjInfo Num MathTools Boundary Mes MesFacts MesF Optimizer OptimizerFacts Driver DriverFacts
  Properties_SearchPoint Properties_Optimizer Properties_Optimizer4 Properties_ES2 Properties_ES3 Properties_ES4 Properties_ES6 Properties_CmaDescription2 Properties_Boundary2 Properties_CmaPars2 Properties_Stats2.
#[local] Open Scope R_scope.

(** ** One parameter *)
(** How far: mu 2^-49 of the magnitude of the bounds plus 1, divided by the rate. *)
Definition drift (mu : Z) (rate lb ub : R) : R := IZR mu * bpow radix2 (-49) * (1 + Rmax (Rabs lb) (Rabs ub)) / rate.
Section OneParameter.
Variables (mu : Z) (lb ub : R).
Hypothesis Hmu : (1 <= mu <= 1048576)%Z.
Let M := Rmax (Rabs lb) (Rabs ub).
Hypothesis HT : M <= bpow radix2 400.
Hypothesis HB : lb <= ub.
Lemma M_bounds : 0 <= M /\ - M <= lb /\ lb <= M /\ - M <= ub /\ ub <= M.
Proof.
  pose proof (Rmax_l (Rabs lb) (Rabs ub)) as A. pose proof (Rmax_r (Rabs lb) (Rabs ub)) as B. fold M in A, B. pose proof (Rabs_pos lb). pose proof (Rabs_le_inv _ _ A). pose proof (Rabs_le_inv _ _ B). lra.
Qed.
Lemma mu_range : 1 <= IZR mu <= 1048576. Proof. split; apply IZR_le; lia. Qed.
Lemma top_M v w : 0 <= v <= 1000 * (1 + M) -> Rabs w <= v -> Rabs w <= bpow radix2 1000.
Proof. intros Hv Hw. apply under_top. pose proof Q_big. pose proof M_bounds. eapply Rle_trans; [exact Hw|]. apply Rle_trans with (1000 * (1 + M)); [lra|]. lra. Qed.
Lemma sum_between (xs : list f64) : Forall (fun x => is_finite x = true /\ lb <= B2R x <= ub) xs -> INR (length xs) * lb <= Rsum (map (fun x : f64 => B2R x) xs) <= INR (length xs) * ub.
Proof.
  induction 1 as [|x l [_ H] _ IH]; [cbn; lra|]. change (length (x :: l)) with (S (length l)). rewrite S_INR, !Rmult_plus_distr_r, !Rmult_1_l. cbn [map Rsum fold_right]. rewrite (Rplus_comm (B2R x)). split; apply Rplus_le_compat; first [apply IH|apply H].
Qed.
Lemma average_near (xs : list f64) : length xs = Z.to_nat mu -> Forall (fun x => is_finite x = true /\ lb <= B2R x <= ub) xs ->
  exists a, is (fdiv (fold_left fadd xs (fofZ 0)) (fofZ mu)) a /\ lb - (4 * (u53 * (IZR mu * M)) + 4 * eta) <= a <= ub + (4 * (u53 * (IZR mu * M)) + 4 * eta).
Proof.
  intros HL HX. pose proof M_bounds as MB. pose proof mu_range as MR. pose proof u53_nn as U. pose proof eta_small as EB. assert (N : INR (length xs) = IZR mu) by (rewrite HL, INR_IZR_INZ, Z2Nat.id by lia; reflexivity).
  set (n := IZR mu) in *. assert (NM : M <= n * M). { rewrite <- (Rmult_1_l M) at 1. apply Rmult_le_compat_r; lra. }
  assert (UM : 0 <= u53 * M) by (apply Rmult_le_pos; lra). assert (UNM : u53 * M <= u53 * (n * M)) by (apply Rmult_le_compat_l; lra).
  assert (UN : 0 <= n * u53 <= / 1000000000) by (split; [apply Rmult_le_pos; lra|unfold u53; lra]).
  assert (SM : u53 * (n * M) <= / 1000000000 * M) by (replace (u53 * (n * M)) with (n * u53 * M) by ring; apply Rmult_le_compat_r; lra).
  destruct (signed_sum M 0 (n * M)) with (ts := xs) (qs := map (fun x : f64 => B2R x) xs) (s := fofZ 0) (v := 0) (A := 0) (k := 0) as (v & H1 & H2).
  - lra.
  - lra.
  - apply Rle_trans with (bpow radix2 20 * bpow radix2 400); [apply Rmult_le_compat; try lra; cbn; lra|]. rewrite <- bpow_plus. apply bpow_le. lia.
  - rewrite <- (map_id xs) at 1. apply Forall2_map_both. eapply Forall_impl; [|exact HX]. intros x [F H]. cbv beta. split; [exact F|]. rewrite Rminus_diag_eq, Rabs_R0 by reflexivity. split; [lra|apply Rabs_le; lra].
  - exact is_zero.
  - lra.
  - rewrite Rminus_0_r, Rabs_R0. lra.
  - rewrite Rabs_R0. lra.
  - rewrite N. lra.
  - rewrite N. replace ((0 + n) * (0 + 2 * u53 * (n * M))) with (2 * (n * u53) * (n * M)) by ring. rewrite <- (Rmult_1_l (n * M)) at 2. apply Rmult_le_compat_r; lra.
  - lra.
  - rewrite !Rplus_0_l, N in H2. change Properties_Stats.Rsum with Rsum in H2. pose proof (sum_between xs HX) as SB. rewrite N in SB. set (T := Rsum (map (fun x : f64 => B2R x) xs)) in *. clearbody T.
    replace (n * (2 * u53 * (n * M))) with (n * (2 * (u53 * (n * M)))) in H2 by ring. set (w := u53 * (n * M)) in *. apply Rabs_le_inv in H2.
    assert (VQ : lb - 2 * w <= v / n <= ub + 2 * w) by (apply quotient; [lra|split; lra]).
    assert (VB : Rabs (v / n) <= 11 / 10 * M) by (apply Rabs_le; lra).
    assert (IM : is (fofZ mu) n) by (apply is_ofZ; change (2 ^ 53)%Z with 9007199254740992%Z; lia).
    pose proof (is_div _ _ _ _ H1 IM ltac:(lra) ltac:(apply (top_M (11 / 10 * M)); [lra|exact VB])) as ID. exists (rnd (v / n)). split; [exact ID|]. pose proof (rnd_pm _ _ VB) as P. replace (u53 * (11 / 10 * M)) with (11 / 10 * (u53 * M)) in P by ring. lra.
Qed.
Section Rate.
Variables (r : R).
Hypothesis Hr : IZR mu * bpow radix2 (-49) <= r <= 1.
Let s := drift mu r lb ub.
Lemma drift_facts : 0 < r /\ 0 <= s <= 1 + M /\ r * s = 16 * (u53 * (IZR mu * (1 + M))).
Proof.
  pose proof M_bounds as MB. pose proof mu_range as MR. pose proof (bpow_gt_0 radix2 (-49)) as P. assert (R0 : 0 < r). { apply Rlt_le_trans with (IZR mu * bpow radix2 (-49)); [apply Rmult_lt_0_compat; lra|lra]. }
  assert (E : r * s = IZR mu * bpow radix2 (-49) * (1 + M)) by (unfold s, drift; fold M; field; lra). split; [exact R0|]. split; [split|].
  - unfold s, drift. fold M. apply Rmult_le_pos; [apply Rmult_le_pos; [apply Rmult_le_pos; lra|lra]|apply Rlt_le, Rinv_0_lt_compat; lra].
  - apply (Rmult_le_reg_l r); [exact R0|]. rewrite E. apply Rmult_le_compat_r; lra.
  - rewrite E. change (bpow radix2 (-49)) with (/ 562949953421312). unfold u53. lra.
Qed.
(** m + r ( a - m ) *)
Lemma step_near (rate m a : f64) mv av : is rate r -> is m mv -> lb - s <= mv <= ub + s -> is a av -> lb - (4 * (u53 * (IZR mu * M)) + 4 * eta) <= av <= ub + (4 * (u53 * (IZR mu * M)) + 4 * eta) ->
  exists v, is (fadd m (fmul rate (fsub a m))) v /\ lb - s <= v <= ub + s.
Proof.
  intros Ir Im Hm Ia Ha. pose proof M_bounds as MB. pose proof mu_range as MR. pose proof u53_nn as U. pose proof eta_small as EB. destruct drift_facts as (R0 & S0 & ES).
  assert (UE : eta <= u53 / 1000000000) by exact eta_u53. set (n := IZR mu) in *. set (w := u53 * (n * M)) in *.
  assert (W1 : u53 * (n * (1 + M)) = w + n * u53) by (unfold w; ring). assert (UN : u53 <= n * u53 <= / 1000000000) by (split; [rewrite <- (Rmult_1_l u53) at 1; apply Rmult_le_compat_r; lra|unfold u53; lra]).
  assert (UM : 0 <= u53 * M <= w). { split; [apply Rmult_le_pos; lra|]. unfold w. apply Rmult_le_compat_l; [exact U|]. rewrite <- (Rmult_1_l M) at 1. apply Rmult_le_compat_r; lra. }
  assert (WM : w <= / 1000000000 * M) by (unfold w; replace (u53 * (n * M)) with (n * u53 * M) by ring; apply Rmult_le_compat_r; lra).
  assert (B1 : Rabs (av - mv) <= 31 / 10 * (1 + M)) by (apply Rabs_le; lra).
  pose proof (is_sub _ _ _ _ Ia Im ltac:(apply (top_M (31 / 10 * (1 + M))); [lra|exact B1])) as I1. pose proof (rnd_pm _ _ B1) as P1. set (d := rnd (av - mv)) in *.
  assert (D1 : Rabs d <= 32 / 10 * (1 + M)). { apply Rabs_le_inv in B1. apply Rabs_le. replace (u53 * (31 / 10 * (1 + M))) with (31 / 10 * (u53 + u53 * M)) in P1 by ring. unfold u53 in *. lra. }
  assert (B2 : Rabs (r * d) <= 32 / 10 * (1 + M)). { rewrite Rabs_mult, (Rabs_pos_eq r) by lra. rewrite <- (Rmult_1_l (32 / 10 * (1 + M))). pose proof (Rabs_pos d). apply Rmult_le_compat; lra. }
  pose proof (is_mul _ _ _ _ Ir I1 ltac:(apply (top_M (32 / 10 * (1 + M))); [lra|exact B2])) as I2. pose proof (rnd_pm _ _ B2) as P2. set (p := rnd (r * d)) in *.
  set (e := 31 / 10 * (u53 + u53 * M) + eta). assert (E1 : - e <= d - (av - mv) <= e) by (unfold e; replace (u53 * (31 / 10 * (1 + M))) with (31 / 10 * (u53 + u53 * M)) in P1 by ring; lra).
  assert (E0 : 0 <= e) by (unfold e; lra). assert (E2 : r * (av - mv) - e <= r * d <= r * (av - mv) + e).
  { assert (r * (d - (av - mv)) <= r * e) by (apply Rmult_le_compat_l; lra). assert (r * - e <= r * (d - (av - mv))) by (apply Rmult_le_compat_l; lra). assert (r * e <= 1 * e) by (apply Rmult_le_compat_r; lra). lra. }
  assert (C1 : mv + r * (av - mv) <= ub + s - r * s + r * (4 * w + 4 * eta)). { assert (r * av <= r * (ub + (4 * w + 4 * eta))) by (apply Rmult_le_compat_l; lra). assert ((1 - r) * mv <= (1 - r) * (ub + s)) by (apply Rmult_le_compat_l; lra). lra. }
  assert (C2 : lb - s + r * s - r * (4 * w + 4 * eta) <= mv + r * (av - mv)). { assert (r * (lb - (4 * w + 4 * eta)) <= r * av) by (apply Rmult_le_compat_l; lra). assert ((1 - r) * (lb - s) <= (1 - r) * mv) by (apply Rmult_le_compat_l; lra). lra. }
  assert (C3 : r * (4 * w + 4 * eta) <= 1 * (4 * w + 4 * eta)) by (apply Rmult_le_compat_r; lra). rewrite ES, W1 in C1, C2.
  replace (u53 * (32 / 10 * (1 + M))) with (32 / 10 * (u53 + u53 * M)) in P2 by ring.
  assert (B3 : Rabs (mv + p) <= 22 / 10 * (1 + M)) by (apply Rabs_le; unfold e in *; unfold u53 in *; lra).
  pose proof (is_add _ _ _ _ Im I2 ltac:(apply (top_M (22 / 10 * (1 + M))); [lra|exact B3])) as I3. pose proof (rnd_pm _ _ B3) as P3. replace (u53 * (22 / 10 * (1 + M))) with (22 / 10 * (u53 + u53 * M)) in P3 by ring.
  exists (rnd (mv + p)). split; [exact I3|]. unfold e in *. lra.
Qed.
(** ( 1 - r ) m + r a *)
Lemma blend_near (rate m a : f64) mv av : is rate r -> is m mv -> lb - s <= mv <= ub + s -> is a av -> lb - (4 * (u53 * (IZR mu * M)) + 4 * eta) <= av <= ub + (4 * (u53 * (IZR mu * M)) + 4 * eta) ->
  exists v, is (blended rate m a) v /\ lb - s <= v <= ub + s.
Proof.
  intros Ir Im Hm Ia Ha. pose proof M_bounds as MB. pose proof mu_range as MR. pose proof u53_nn as U. pose proof eta_small as EB. destruct drift_facts as (R0 & S0 & ES).
  assert (UE : eta <= u53 / 1000000000) by exact eta_u53. set (n := IZR mu) in *. set (w := u53 * (n * M)) in *.
  assert (W1 : u53 * (n * (1 + M)) = w + n * u53) by (unfold w; ring). assert (UN : u53 <= n * u53 <= / 1000000000) by (split; [rewrite <- (Rmult_1_l u53) at 1; apply Rmult_le_compat_r; lra|unfold u53; lra]).
  assert (UM : 0 <= u53 * M <= w). { split; [apply Rmult_le_pos; lra|]. unfold w. apply Rmult_le_compat_l; [exact U|]. rewrite <- (Rmult_1_l M) at 1. apply Rmult_le_compat_r; lra. }
  assert (WM : w <= / 1000000000 * M) by (unfold w; replace (u53 * (n * M)) with (n * u53 * M) by ring; apply Rmult_le_compat_r; lra).
  assert (B0 : Rabs (1 - r) <= 1) by (apply Rabs_le; lra). pose proof (is_sub _ _ _ _ is_one Ir ltac:(apply in_top; apply Rabs_le_inv in B0; lra)) as I0. pose proof (rnd_plus_rel 1 (- r) (is_fmt _ _ is_one) (fmt_opp _ (is_fmt _ _ Ir))) as P0. change (1 + - r) with (1 - r) in P0. rewrite (Rabs_pos_eq (1 - r)) in P0 by lra. set (c := rnd (1 - r)) in *.
  assert (C01 : 0 <= c <= 1) by (split; [apply rnd_nn; lra|apply rnd_le_one; lra]). assert (K0 : Rabs (c - (1 - r)) <= u53) by (eapply Rle_trans; [exact P0|]; rewrite <- (Rmult_1_r u53) at 2; apply Rmult_le_compat_l; lra).
  assert (Bm : Rabs mv <= 21 / 10 * (1 + M)) by (apply Rabs_le; lra). assert (Ba : Rabs av <= 11 / 10 * (1 + M)) by (apply Rabs_le; lra).
  assert (K1 : Rabs ((c - (1 - r)) * mv) <= u53 * (21 / 10 * (1 + M))) by (rewrite Rabs_mult; apply Rmult_le_compat; try apply Rabs_pos; assumption).
  assert (B1 : Rabs (c * mv) <= 21 / 10 * (1 + M)) by (rewrite Rabs_mult, (Rabs_pos_eq c) by lra; rewrite <- (Rmult_1_l (21 / 10 * (1 + M))); apply Rmult_le_compat; try apply Rabs_pos; lra).
  assert (B2 : Rabs (r * av) <= 11 / 10 * (1 + M)) by (rewrite Rabs_mult, (Rabs_pos_eq r) by lra; rewrite <- (Rmult_1_l (11 / 10 * (1 + M))); apply Rmult_le_compat; try apply Rabs_pos; lra).
  pose proof (is_mul _ _ _ _ I0 Im ltac:(apply (top_M (21 / 10 * (1 + M))); [lra|exact B1])) as I1. pose proof (is_mul _ _ _ _ Ir Ia ltac:(apply (top_M (11 / 10 * (1 + M))); [lra|exact B2])) as I2.
  pose proof (rnd_pm _ _ B1) as P1. pose proof (rnd_pm _ _ B2) as P2. set (p := rnd (c * mv)) in *. set (q := rnd (r * av)) in *.
  replace (u53 * (21 / 10 * (1 + M))) with (21 / 10 * (u53 + u53 * M)) in P1, K1 by ring. replace (u53 * (11 / 10 * (1 + M))) with (11 / 10 * (u53 + u53 * M)) in P2 by ring. apply Rabs_le_inv in K1. replace ((c - (1 - r)) * mv) with (c * mv - (1 - r) * mv) in K1 by ring.
  assert (C1 : (1 - r) * mv + r * av <= ub + s - r * s + r * (4 * w + 4 * eta)). { assert (r * av <= r * (ub + (4 * w + 4 * eta))) by (apply Rmult_le_compat_l; lra). assert ((1 - r) * mv <= (1 - r) * (ub + s)) by (apply Rmult_le_compat_l; lra). lra. }
  assert (C2 : lb - s + r * s - r * (4 * w + 4 * eta) <= (1 - r) * mv + r * av). { assert (r * (lb - (4 * w + 4 * eta)) <= r * av) by (apply Rmult_le_compat_l; lra). assert ((1 - r) * (lb - s) <= (1 - r) * mv) by (apply Rmult_le_compat_l; lra). lra. }
  assert (C3 : r * (4 * w + 4 * eta) <= 1 * (4 * w + 4 * eta)) by (apply Rmult_le_compat_r; lra). rewrite ES, W1 in C1, C2.
  set (x := (1 - r) * mv) in *. set (y := r * av) in *. set (z := c * mv) in *.
  assert (B3 : Rabs (p + q) <= 22 / 10 * (1 + M)) by (apply Rabs_le; unfold u53 in *; lra).
  pose proof (is_add _ _ _ _ I1 I2 ltac:(apply (top_M (22 / 10 * (1 + M))); [lra|exact B3])) as I3. pose proof (rnd_pm _ _ B3) as P3. replace (u53 * (22 / 10 * (1 + M))) with (22 / 10 * (u53 + u53 * M)) in P3 by ring.
  exists (rnd (p + q)). split; [exact I3|]. lra.
Qed.
End Rate.
End OneParameter.
(** ** Runs *)
Lemma selected_found M mu order (pop proj : list (list f64)) i sel : @selected (numF M) mu order pop proj i = Ok sel ->
  length sel = Z.to_nat mu /\ Forall (fun xy : f64 * f64 => exists ind, In ind pop /\ nth_error ind i = Some (fst xy)) sel.
Proof.
  unfold selected. destruct (mu <? 0)%Z; [discriminate|]. intros H. apply for_each_Forall2 in H. split; [rewrite <- (Forall2_len _ _ _ H), seq_length; reflexivity|].
  revert H. generalize (seq 0 (Z.to_nat mu)). intros l H. induction H as [|ui b l r Hb _ IH]; constructor; [|exact IH].
  apply obind_Ok in Hb as (k & Hk & Hb). apply obind_Ok in Hb as (ind & Hi & Hb). apply obind_Ok in Hb as (pr & Hp & Hb). apply obind_Ok in Hb as (x & Hx & Hb). apply obind_Ok in Hb as (y & Hy & Hb).
  apply get_some in Hi, Hx. exists ind. split; [exact (nth_error_In _ _ Hi)|]. pose proof (f_equal (fun o => match o with Ok (a, _) => Some a | _ => None end) Hb) as Eb. cbv beta iota in Eb. refine (eq_trans Hx _). destruct b as [b1 b2]. exact Eb.
Qed.
(** The bounds of every parameter are numbers, of size at most 2^400. *)
Definition bounded_ranges (info : obj_info) : Prop := Forall (fun p => is_finite (pi_min p) = true /\ is_finite (pi_max p) = true /\ Rabs (B2R (pi_min p)) <= bpow radix2 400 /\ Rabs (B2R (pi_max p)) <= bpow radix2 400) (oi_free info).
Definition near_bounds (mu : Z) (rate : R) (info : obj_info) (mean : list f64) : Prop := length mean = oi_dim info /\
  forall i p (m : f64), nth_error (oi_free info) i = Some p -> nth_error mean i = Some m ->
    let lb := B2R (pi_min p) in let ub := B2R (pi_max p) in is_finite m = true /\ lb - drift mu rate lb ub <= B2R m <= ub + drift mu rate lb ub.
Section Run.
Variables (L : stdlib) (E : env) (lambda mu : Z) (offset offset_stdev : f64) (rate : R).
Notation K := (numF (sl_libm L)).
Notation info := (e_info E).
Variable component : comp K -> f64 -> f64 -> comp K.
Hypothesis Hmu : (1 <= mu <= 1048576)%Z.
Hypothesis Hr : IZR mu * bpow radix2 (-49) <= rate <= 1.
Hypothesis HB : eight_digit_bounds info.
Hypothesis HF : bounded_ranges info.
Hypothesis HD : draws_numbers L.
Hypothesis HC : forall lb ub (c : comp K) (a v : f64) mv av, Rmax (Rabs lb) (Rabs ub) <= bpow radix2 400 -> lb <= ub -> is (k_mean c) mv -> lb - drift mu rate lb ub <= mv <= ub + drift mu rate lb ub ->
  is a av -> lb - (4 * (u53 * (IZR mu * Rmax (Rabs lb) (Rabs ub))) + 4 * eta) <= av <= ub + (4 * (u53 * (IZR mu * Rmax (Rabs lb) (Rabs ub))) + 4 * eta) ->
  exists w, is (k_mean (component c a v)) w /\ lb - drift mu rate lb ub <= w <= ub + drift mu rate lb ub.
Definition kept (st : es_f64 L) : Prop := near_bounds mu rate info (es_mean st) /\ Forall (in_bounds info) (es_pop st).
Lemma kept_sample st : kept st -> kept (fst (s_sample (es_sampler L info lambda mu offset offset_stdev component) st)).
Proof.
  intros [H1 H2]. destruct (s_sample _ st) as [st1 [pop|w|]] eqn:E1; cbn [fst].
  - pose proof (C37_es_population_within_bounds L info lambda mu offset offset_stdev component st st1 pop HB HD E1) as P. apply C47_sampling_distribution in E1 as (_ & _ & M1 & _ & _ & P1). unfold kept. rewrite M1, P1. split; [exact H1|exact P].
  - unfold es_sampler in E1. cbn [s_sample] in E1. destruct (@es_sample _ _ _ _ _ _ _ _ _ _ _) as [s'|w'|]; try discriminate E1; pose proof (f_equal fst E1) as EQ; cbn [fst] in EQ; rewrite <- EQ; split; assumption.
  - unfold es_sampler in E1. cbn [s_sample] in E1. destruct (@es_sample _ _ _ _ _ _ _ _ _ _ _) as [s'|w'|]; try discriminate E1; pose proof (f_equal fst E1) as EQ; cbn [fst] in EQ; rewrite <- EQ; split; assumption.
Qed.
Lemma component_between st i p ind (x : f64) : Forall (in_bounds info) (es_pop (st : es_f64 L)) -> nth_error (oi_free info) i = Some p -> In ind (es_pop st) -> nth_error ind i = Some x ->
  is_finite x = true /\ B2R (pi_min p) <= B2R x <= B2R (pi_max p).
Proof.
  intros HP Hp Hin Hx. rewrite Forall_forall in HP. specialize (HP ind Hin). unfold in_bounds in HP. assert (G : fle (pi_min p) x = true /\ fle x (pi_max p) = true).
  { clear - HP Hp Hx. revert i Hp Hx. induction HP as [|q v ps vs Hv _ IH]; intros [|i] Hp Hx; try discriminate Hp; [injection Hp as <-; cbn in Hx; assert (v = x) by congruence; subst v; exact Hv|exact (IH i Hp Hx)]. }
  destruct G as [G1 G2]. pose proof (proj1 (Forall_forall _ _) HF p (nth_error_In _ _ Hp)) as (F1 & F2 & _). pose proof (between_finite _ _ _ F1 F2 G1 G2) as FX. split; [exact FX|]. split; apply fle_B2R; assumption.
Qed.
Lemma kept_update st fits : kept st -> kept (fst (s_update (es_sampler L info lambda mu offset offset_stdev component) st fits)).
Proof.
  intros [[H0 H1] H2]. unfold es_sampler. cbn [s_update]. set (order := sorted_indices _ _ _). clearbody order. destruct (es_update _ _ _ _ _ _) as [st'|w|] eqn:Es; cbn [fst]; try (split; [split; assumption|exact H2]).
  pose proof (es_update_dims _ _ _ _ _ _ _ Es) as (D1 & _). assert (DL : length (bounds_of info) = oi_dim info) by (unfold bounds_of, oi_dim; apply map_length).
  apply es_update_components in Es as (proj & _ & _ & EP & EC). unfold kept. rewrite EP. split; [|exact H2]. split; [exact (eq_trans D1 DL)|].
  intros i p m' Hp Hm' lb ub. assert (Hi : (i < length (bounds_of info))%nat) by (rewrite DL; apply nth_error_Some; congruence).
  destruct (EC i Hi) as (sel & m & v & mo & Hs & Em & _ & _ & HK). cbv zeta in HK. destruct HK as (HK & _). pose proof (H1 i p m Hp Em) as HM. cbv zeta in HM. fold lb ub in HM. destruct HM as [Fm Bm].
  destruct (selected_found _ _ _ _ _ _ _ Hs) as [LS FS].
  pose proof (proj1 (Forall_forall _ _) HF p (nth_error_In _ _ Hp)) as (F1 & F2 & F3 & F4). fold lb in F3. fold ub in F4. pose proof (proj1 (Forall_forall _ _) HB p (nth_error_In _ _ Hp)) as (V & _).
  assert (LU : lb <= ub). { apply is_valid_iff in V as (_ & V1 & V2). unfold lb, ub. apply fle_B2R; [exact F1|exact F2|]. eapply fle_trans; eassumption. }
  assert (XS : Forall (fun x : f64 => is_finite x = true /\ lb <= B2R x <= ub) (map fst (sel : list (f64 * f64)))).
  { apply Forall_map. eapply Forall_impl; [|exact FS]. intros xy (ind & Hin & Hx). exact (component_between st i p ind (fst xy) H2 Hp Hin Hx). }
  destruct (average_near mu lb ub Hmu (Rmax_lub _ _ _ F3 F4) (map fst (sel : list (f64 * f64))) ltac:(rewrite map_length; exact LS) XS) as (av & Ia & Ba).
  assert (EM : @mean_of (numF (sl_libm L)) mu sel = fdiv (fold_left fadd (map fst (sel : list (f64 * f64))) (fofZ 0)) (fofZ mu)).
  { unfold mean_of. change (@ndiv (numF (sl_libm L))) with fdiv. apply (f_equal2 fdiv); [|reflexivity]. change (@nofZ (numF (sl_libm L)) 0) with (fofZ 0). generalize (fofZ 0). clear. induction (sel : list (f64 * f64)) as [|xy l IH]; intros z; [reflexivity|]. cbn [fold_left map]. apply IH. }
  rewrite EM in HK. destruct (HC lb ub {| k_mean := m; k_var := v; k_mom := mo |} _ (@var_of (numF (sl_libm L)) mu sel) (B2R m) av (Rmax_lub _ _ _ F3 F4) LU (is_self m Fm) Bm Ia Ba) as (w & IW & BW).
  pose proof (f_equal (fun o => match o with Some y => y | None => m' end) (eq_trans (eq_sym Hm') HK)) as E2. cbv beta iota in E2.
  assert (IM : is m' w) by exact (eq_ind_r (fun y => is y w) IW E2). destruct IM as [FW EW]. rewrite EW. split; [exact FW|exact BW].
Qed.
Lemma kept_start g : kept (es_start L info lambda g).
Proof.
  assert (MV : forall i p m, nth_error (oi_free info) i = Some p -> nth_error (map fst (pars_of info)) i = Some m -> m = pi_mean p).
  { intros i p m Hp Hm. unfold pars_of in Hm. rewrite map_map in Hm. cbn [fst] in Hm. pose proof (eq_trans (eq_sym (map_nth_error pi_mean i _ Hp)) Hm) as E2. congruence. }
  split.
  - split; [unfold es_start, es_init, pars_of, oi_dim; cbn [es_mean]; rewrite !map_length; reflexivity|]. intros i p m Hp Hm lb ub. assert (Em : m = pi_mean p) by exact (MV i p m Hp Hm). subst m.
    pose proof (proj1 (Forall_forall _ _) HF p (nth_error_In _ _ Hp)) as (F1 & F2 & F3 & F4). pose proof (proj1 (Forall_forall _ _) HB p (nth_error_In _ _ Hp)) as (V & _). apply is_valid_iff in V as (_ & V1 & V2).
    pose proof (between_finite _ _ _ F1 F2 V1 V2) as FM. split; [exact FM|]. apply fle_B2R in V1; [|assumption|assumption]. apply fle_B2R in V2; [|assumption|assumption]. fold lb in V1, F3. fold ub in V2, F4.
    destruct (drift_facts mu lb ub Hmu rate Hr) as (_ & [D0 _] & _). lra.
  - unfold es_start, es_init. cbn [es_pop]. apply Forall_forall. intros x Hx. apply repeat_spec in Hx. assert (Ex : x = map rounded (map pi_mean (oi_free info))) by (rewrite Hx; unfold pars_of; rewrite !map_map; reflexivity). rewrite Ex. clear Hx Ex x.
    apply round_in_bounds; [exact HB|]. unfold in_bounds. clear - HB. unfold eight_digit_bounds in HB. induction HB as [|p ps (Hp & _) _ IH]; cbn [map]; [constructor|]. constructor; [|exact (IH (Forall_inv_tail HB))]. apply is_valid_iff in Hp. tauto.
Qed.
Lemma kept_run o g evals : near_bounds mu rate info (es_mean (snd (fst (full_steps (es_sampler L info lambda mu offset offset_stdev component) E o (es_start L info lambda g) evals)))).
Proof.
  assert (H : kept (snd (fst (full_steps (es_sampler L info lambda mu offset offset_stdev component) E o (es_start L info lambda g) evals)))); [|exact (proj1 H)].
  apply full_steps_inv; [exact kept_sample|intros; now apply kept_update|apply kept_start].
Qed.
End Run.

(** In double precision as well, in any run of any number of generations: without momentum the mean of MES, and the mean of EVA,
    is a number for every parameter and stays within mu 2^-49 of the magnitude of the bounds plus 1, divided by the rate, of its range. *)
Theorem C47_mes_mean_near_bounds_doubles : forall L E lambda opt o g evals, let mu := es_mu (mo_mu opt) lambda in let rate := B2R (mo_mean_sigma opt) in
  (1 <= mu <= 1048576)%Z -> is_finite (mo_mean_sigma opt) = true -> IZR mu * bpow radix2 (-49) <= rate <= 1 -> flt fzero (mo_mom_sigma opt) = false ->
  eight_digit_bounds (e_info E) -> bounded_ranges (e_info E) -> draws_numbers L ->
  near_bounds mu rate (e_info E) (es_mean (snd (fst (full_steps (mes_sampler L (e_info E) lambda opt) E o (es_start L (e_info E) lambda g) evals)))).
Proof.
  intros L E lambda opt o g evals mu rate Hmu Fr Hr Hmom HB HF HD. unfold mes_sampler. fold mu. apply kept_run; try assumption.
  intros lb ub c a v mv av HM HL Ic Bc Ia Ba. unfold mes_component. change (@nlt (numF (sl_libm L)) (nofZ 0) (mo_mom_sigma opt)) with (flt fzero (mo_mom_sigma opt)). rewrite Hmom. cbn [k_mean].
  exact (blend_near mu lb ub Hmu HM rate Hr (mo_mean_sigma opt) _ _ mv av (is_self _ Fr) Ic Bc Ia Ba).
Qed.
Theorem C47_eva_mean_near_bounds_doubles : forall L E lambda opt o g evals, let mu := es_mu (eo_mu opt) lambda in let rate := B2R (eo_step_size opt) in
  (1 <= mu <= 1048576)%Z -> is_finite (eo_step_size opt) = true -> IZR mu * bpow radix2 (-49) <= rate <= 1 ->
  eight_digit_bounds (e_info E) -> bounded_ranges (e_info E) -> draws_numbers L ->
  near_bounds mu rate (e_info E) (es_mean (snd (fst (full_steps (eva_sampler L (e_info E) lambda opt) E o (es_start L (e_info E) lambda g) evals)))).
Proof.
  intros L E lambda opt o g evals mu rate Hmu Fr Hr HB HF HD. unfold eva_sampler. fold mu. apply kept_run; try assumption.
  intros lb ub c a v mv av HM HL Ic Bc Ia Ba. unfold eva_component. cbn [k_mean].
  exact (step_near mu lb ub Hmu HM rate Hr (eo_step_size opt) _ _ mv av (is_self _ Fr) Ic Bc Ia Ba).
Qed.
(** These hold of a run with the numbers of [ex_draw] (0 instead of NaN), in which the mean moves. *)
Definition number_lib : stdlib := {| sl_rng := nat; sl_dist := unit; sl_new := tt; sl_draw := fun m s d g => let '(v, d', g') := ex_draw m s d g in (if fisnan v then fzero else v, d', g'); sl_sort := isort; sl_libm := sl_libm ex_lib; sl_eps := sl_eps ex_lib |}.
Lemma C47_near_bounds_nonvacuous : (1 <= es_mu (mo_mu ex_mes) 4 <= 1048576)%Z /\ is_finite (mo_mean_sigma ex_mes) = true /\ IZR (es_mu (mo_mu ex_mes) 4) * bpow radix2 (-49) <= B2R (mo_mean_sigma ex_mes) <= 1 /\ flt fzero (mo_mom_sigma ex_mes) = false /\
  eight_digit_bounds ex_info /\ bounded_ranges ex_info /\ draws_numbers number_lib /\
  match es_mean (snd (fst (full_steps (mes_sampler number_lib ex_info 4 ex_mes) (ex_env []) (created (ex_env []) [flat_default]) (es_start number_lib ex_info 4 1%nat) (repeat (ex_square, false) 2)))), es_mean (es_start number_lib ex_info 4 1%nat) with
  | [a], [b] => fne a b | _, _ => false end = true.
Proof.
  split; [vm_compute; split; congruence|]. split; [vm_compute; reflexivity|]. split; [|split; [vm_compute; reflexivity|split; [exact (proj1 C37_es_nonvacuous)|split; [|split]]]].
  - destruct (is_literal (mo_mean_sigma ex_mes) 1 1 2) as (v & [_ EV] & Hv); [vm_compute; reflexivity|lia|vm_compute; reflexivity|vm_compute; reflexivity|]. rewrite EV. change (es_mu (mo_mu ex_mes) 4) with 2%Z. change (bpow radix2 (-49)) with (/ 562949953421312). lra.
  - assert (A : forall x : f64, is_finite x = true -> fle (fofZ (-100)) x = true -> fle x (fofZ 100) = true -> Rabs (B2R x) <= bpow radix2 400).
    { intros x F H1 H2. apply fle_B2R in H1; [|reflexivity|exact F]. apply fle_B2R in H2; [|exact F|reflexivity].
      destruct (is_ofZ (-100)) as [_ E1]; [cbn; lia|]. destruct (is_ofZ 100) as [_ E2]; [cbn; lia|]. rewrite E1 in H1. rewrite E2 in H2. apply Rle_trans with (bpow radix2 10); [change (bpow radix2 10) with 1024; apply Rabs_le; lra|apply bpow_le; lia]. }
    constructor; [|constructor]. split; [vm_compute; reflexivity|]. split; [vm_compute; reflexivity|]. split; apply A; vm_compute; reflexivity.
  - intros m s d g. unfold number_lib, ex_draw. cbn [sl_draw]. generalize (fadd m (fmul s (fofZ (Z.of_nat (Nat.modulo g 3) - 1)))). intros v. destruct (fisnan v) eqn:N; cbn [fst]; [reflexivity|exact N].
  - vm_compute. reflexivity.
Qed.
