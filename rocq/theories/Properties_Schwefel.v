(** * C60: the Schwefel benchmark on its documented range, in exact arithmetic *)
From Coq Require Import ZArith Bool Reals Lra Psatz Machin Ratan.
From Flocq Require Import Core.
From Verif Require Import Prelude Flt Round8 ObjInfo Num MathTools Objectives Properties_Stats Properties_Objectives.
#[local] Open Scope R_scope.

Lemma PI_bounds : 31415926534 / 10 ^ 10 < PI < 31415926537 / 10 ^ 10.
Proof.
  pose proof (PI_2_3_7_ineq 5) as [A B].
  cbn [sum_f_R0 Nat.mul Nat.add] in A, B. unfold tg_alt, PI_2_3_7_tg, Ratan_seq in A, B. rewrite !INR_IZR_INZ in A, B.
  cbn [Nat.mul Nat.add Z.of_nat Pos.of_succ_nat Pos.succ] in A, B. simpl pow in A, B.
  replace (INR 23) with 23 in A by (rewrite INR_IZR_INZ; reflexivity). field_simplify in A. field_simplify in B. lra.
Qed.
Lemma sin_shifted u : sin (u + 13 * PI / 2) = cos u.
Proof. replace (u + 13 * PI / 2) with ((PI / 2 + u) + 2 * INR 3 * PI) by (cbn [INR]; lra). rewrite sin_period. symmetry. apply cos_sin. Qed.
Lemma cos_upper u : -2 <= u <= 2 -> cos u <= 1 - u ^ 2 / 2 + u ^ 4 / 24.
Proof.
  intros [H1 H2]. destruct (pre_cos_bound u 0 H1 H2) as [_ H]. unfold cos_approx, cos_term in H. cbn [sum_f_R0 Nat.mul Nat.add] in H.
  cbn [fact Nat.mul Nat.add INR] in H. simpl pow in H |- *. lra.
Qed.
Lemma cos_lower u : -2 <= u <= 2 -> 1 - u ^ 2 / 2 + u ^ 4 / 24 - u ^ 6 / 720 <= cos u.
Proof.
  intros [H1 H2]. destruct (pre_cos_bound u 1 H1 H2) as [H _]. unfold cos_approx, cos_term in H. cbn [sum_f_R0 Nat.mul Nat.add] in H.
  rewrite !INR_IZR_INZ in H. cbn [fact Nat.mul Nat.add Z.of_nat Pos.of_succ_nat Pos.succ] in H. simpl pow in H |- *. lra.
Qed.

Definition P0 : R := 2042035225 / 10 ^ 8.
Definition u0 : R := 97171 / 10 ^ 6.
Definition quartic (u : R) : R := (81016189664589993660407264789 / 384000000000000000000000000) + (1093923162490515354123 / 64000000000000000000) * u ^ 1 + (-6607298829083873 / 384000000000000) * u ^ 2 + (-82070093 / 48000000) * u ^ 3 + (-1 / 24) * u ^ 4.
Lemma expand u : 4189829 / 10 ^ 4 - (P0 + u) ^ 2 * (1 - u ^ 2 / 2 + u ^ 4 / 24) =
  (u - u0) ^ 2 * quartic u + (2176740705553285005296687399 / 19200000000000000000000000000000) * (u - u0) + (4672290215645288678064717583983431 / 384000000000000000000000000000000000000).
Proof. unfold P0, u0, quartic. field. Qed.
Lemma quartic_lower u : 0 <= u <= 2 -> 100 <= quartic u.
Proof.
  intros H. unfold quartic. assert (u ^ 2 <= 4) by nra. assert (u ^ 3 <= 8) by nra. assert (u ^ 4 <= 16) by nra. lra.
Qed.
Lemma sq_le4 z : -2 <= z <= 2 -> z ^ 2 <= 4.
Proof. intros; nra. Qed.
(** Far enough on the right the documented maximum 418.9829 is approached only near [u0]. *)
Lemma peak t : 20468 / 1000 <= t <= 22361 / 1000 ->
  100 * (t - 13 * PI / 2 - u0) ^ 2 + 1 / 10 ^ 6 <= 4189829 / 10 ^ 4 - t ^ 2 * sin t.
Proof.
  intros H. pose proof PI_bounds as HP. set (u := t - 13 * PI / 2). assert (Ht : t = u + 13 * PI / 2) by (unfold u; lra).
  assert (Hu : 4 / 100 <= u <= 195 / 100) by (unfold u; lra).
  rewrite Ht at 2. rewrite sin_shifted. pose proof (cos_upper u ltac:(lra)) as HC.
  set (B := 1 - u ^ 2 / 2 + u ^ 4 / 24) in *.
  assert (T0 : 0 <= t <= P0 + u) by (unfold P0; lra).
  assert (HQ := quartic_lower u ltac:(lra)). pose proof (expand u) as HE. fold B in HE.
  assert (M : t ^ 2 * cos u <= Rmax 0 ((P0 + u) ^ 2 * B)).
  { assert (S1 : t ^ 2 <= (P0 + u) ^ 2) by nra. assert (S0 : 0 <= t ^ 2) by nra.
    destruct (Rle_dec 0 B) as [HB|HB].
    - eapply Rle_trans; [|apply Rmax_r]. assert (t ^ 2 * cos u <= t ^ 2 * B) by (apply Rmult_le_compat_l; assumption).
      assert (t ^ 2 * B <= (P0 + u) ^ 2 * B) by (apply Rmult_le_compat_r; assumption). lra.
    - eapply Rle_trans; [|apply Rmax_l]. assert (cos u <= 0) by lra. nra. }
  assert (S : 0 <= (u - u0) ^ 2) by apply pow2_ge_0. assert (S4 : (u - u0) ^ 2 <= 4) by (apply sq_le4; unfold u0; lra).
  assert (G : 100 * (u - u0) ^ 2 + 1 / 10 ^ 6 <= 4189829 / 10 ^ 4 - (P0 + u) ^ 2 * B).
  { rewrite HE. assert (100 * (u - u0) ^ 2 <= (u - u0) ^ 2 * quartic u) by (rewrite Rmult_comm; apply Rmult_le_compat_l; assumption). assert (- (6 / 100) <= u - u0) by (unfold u0; lra). lra. }
  unfold Rmax in M. destruct (Rle_dec 0 ((P0 + u) ^ 2 * B)); lra.
Qed.
Lemma valley t : 20468 / 1000 <= t <= 22361 / 1000 -> - (t ^ 2 * sin t) <= 300.
Proof.
  intros H. pose proof PI_bounds as HP. set (u := t - 13 * PI / 2). assert (Ht : t = u + 13 * PI / 2) by (unfold u; lra).
  assert (Hu : 0 <= u <= 195 / 100) by (unfold u; lra).
  rewrite Ht at 2. rewrite sin_shifted. pose proof (cos_lower u ltac:(lra)) as HC.
  assert (A : u ^ 2 <= 38025 / 10000) by nra. assert (A0 : 0 <= u ^ 2) by nra.
  assert (- (1 / 2) <= 1 - u ^ 2 / 2 + u ^ 4 / 24 - u ^ 6 / 720).
  { set (w := u ^ 2) in *. replace (u ^ 4) with (w ^ 2) by (unfold w; ring). replace (u ^ 6) with (w ^ 3) by (unfold w; ring). nra. }
  assert (t ^ 2 <= 501) by nra. assert (0 <= t ^ 2) by nra. nra.
Qed.

(** The contribution of one coordinate. *)
Definition term (x : R) : R := 4189829 / 10 ^ 4 - x * sin (R_sqrt.sqrt (Rabs x)).
Lemma schwefel_R (v : list R) : @schwefel numR v = Rsum (map term v).
Proof.
  unfold schwefel.
  assert (E : fold_left (fun sum x => @nadd numR sum (@nmul numR x (@nsin numR (@nsqrt numR (@nabs numR x))))) v (@nofZ numR 0) = Rsum (map (fun x => x * sin (R_sqrt.sqrt (Rabs x))) v))
    by (refine (eq_trans (fold_plus_R (fun x => x * sin (R_sqrt.sqrt (Rabs x))) v _) _); apply Rplus_0_l).
  rewrite E. assert (En : @nsize numR (@length (nT numR) v) = INR (@length R v)) by (unfold nsize; cbn [nofZ numR]; now rewrite <- INR_IZR_INZ).
  rewrite En. clear E En. cbn [nsub nmul ndec numR]. replace (4189829 * bpow radix10 (-4)) with (4189829 / 10 ^ 4) by (cbn; lra).
  induction v as [|x t IH]; [cbn; lra|]. cbn [map Rsum fold_right length]. change (fold_right Rplus 0) with Rsum. rewrite S_INR, <- IH.
  unfold term. change (nT numR) with R in *. ring.
Qed.
Lemma sqrt_between x lo hi : 0 <= lo -> 0 <= hi -> lo ^ 2 <= x <= hi ^ 2 -> lo <= R_sqrt.sqrt x <= hi.
Proof.
  intros Hlo Hhi [H1 H2]. rewrite <- (sqrt_pow2 lo Hlo), <- (sqrt_pow2 hi Hhi). split; apply sqrt_le_1_alt; assumption.
Qed.
Lemma term_spec x : -500 <= x <= 500 -> 1 / 10 ^ 6 <= term x /\ (term x <= 1 / 100 -> Rabs (x - 4209678 / 10 ^ 4) <= 1 / 2).
Proof.
  intros H. unfold term. set (a := Rabs x). assert (Ha : 0 <= a <= 500) by (unfold a; split; [apply Rabs_pos|apply Rabs_le; lra]).
  assert (Hs : -1 <= sin (R_sqrt.sqrt a) <= 1) by apply SIN_bound.
  destruct (Rlt_dec a (41895 / 100)) as [Hsmall|Hbig].
  - assert (x * sin (R_sqrt.sqrt a) <= a).
    { assert (Rabs (x * sin (R_sqrt.sqrt a)) <= a). { rewrite Rabs_mult. fold a. assert (Rabs (sin (R_sqrt.sqrt a)) <= 1) by (apply Rabs_le; lra). nra. }
      pose proof (Rle_abs (x * sin (R_sqrt.sqrt a))). lra. }
    split; lra.
  - set (t := R_sqrt.sqrt a) in *. assert (Ht2 : t ^ 2 = a) by (unfold t; apply pow2_sqrt; lra).
    assert (Ht : 20468 / 1000 <= t <= 22361 / 1000) by (apply sqrt_between; lra).
    destruct (Rle_dec 0 x) as [Hx|Hx].
    + assert (Ex : x = t ^ 2) by (rewrite Ht2; unfold a; now rewrite Rabs_pos_eq).
      pose proof (peak t Ht) as HP. rewrite <- Ex in HP. set (w := t - 13 * PI / 2 - u0) in *.
      assert (0 <= w ^ 2) by nra. split; [lra|]. intros HT.
      assert (Hw : w ^ 2 <= 1 / 10 ^ 4) by lra. assert (Hw1 : - (1 / 100) <= w <= 1 / 100) by nra.
      assert (Ht' : 205074 / 10 ^ 4 <= t <= 205276 / 10 ^ 4) by (pose proof PI_bounds; unfold w, u0 in Hw1; lra).
      rewrite Ex. apply Rabs_le. nra.
    + assert (Ex : x = - t ^ 2) by (rewrite Ht2; unfold a; rewrite Rabs_left; lra).
      pose proof (valley t Ht) as HV. rewrite Ex. split; lra.
Qed.
Lemma term_documented : term (4209678 / 10 ^ 4) <= 2 / 10 ^ 5.
Proof.
  unfold term. rewrite Rabs_pos_eq by lra. set (t := R_sqrt.sqrt (4209678 / 10 ^ 4)).
  assert (Ht : 205174998476 / 10 ^ 10 <= t <= 205174998477 / 10 ^ 10) by (apply sqrt_between; lra).
  pose proof PI_bounds as HP. set (u := t - 13 * PI / 2). assert (Et : t = u + 13 * PI / 2) by (unfold u; lra).
  assert (Hu : 97147596 / 10 ^ 9 <= u <= 97147602 / 10 ^ 9) by (unfold u; lra).
  rewrite Et, sin_shifted. pose proof (cos_lower u ltac:(lra)) as HC.
  assert (A : u ^ 2 <= 9437658 / 10 ^ 9) by nra. assert (A' : 9437655 / 10 ^ 9 <= u ^ 2) by nra.
  assert (B : 890693 / 10 ^ 10 <= u ^ 4) by (replace (u ^ 4) with (u ^ 2 * u ^ 2) by ring; nra).
  assert (B2 : u ^ 4 <= 890694 / 10 ^ 10) by (replace (u ^ 4) with (u ^ 2 * u ^ 2) by ring; nra).
  assert (C : u ^ 6 <= 1 / 10 ^ 6) by (replace (u ^ 6) with (u ^ 4 * u ^ 2) by ring; nra).
  lra.
Qed.

(** On the documented range [-500, 500], in every dimension: positive; at the
    documented optimum (420.9678, ..., 420.9678) zero up to 2e-5 per coordinate; and
    below 0.01 only within 0.5 of it in every coordinate. *)
Theorem C60_schwefel : 
  (forall v : list R, @schwefel numR v = Rsum (map (fun x => 4189829 / 10 ^ 4 - x * sin (R_sqrt.sqrt (Rabs x))) v)) /\
  (forall v : list R, v <> [] -> Forall (fun x => -500 <= x <= 500) v -> 0 < @schwefel numR v) /\
  (forall n, @schwefel numR (repeat (4209678 / 10 ^ 4) n) <= INR n * (2 / 10 ^ 5)) /\
  (forall v : list R, Forall (fun x => -500 <= x <= 500) v -> @schwefel numR v <= 1 / 100 ->
     Forall (fun x => Rabs (x - 4209678 / 10 ^ 4) <= 1 / 2) v).
Proof.
  split; [exact schwefel_R|]. split; [|split].
  - intros [|x t] Hne H; [congruence|]. rewrite schwefel_R. cbn [map Rsum fold_right]. change (fold_right Rplus 0) with Rsum.
    inversion H as [|? ? Hx Ht]; subst. pose proof (proj1 (term_spec x Hx)).
    assert (0 <= Rsum (map term t)) by (apply Rsum_map_nonneg; intros y Hy; rewrite Forall_forall in Ht; pose proof (proj1 (term_spec y (Ht y Hy))); lra).
    change (nT numR) with R in *. lra.
  - intros n. rewrite schwefel_R. induction n as [|n IH]; [cbn; lra|]. cbn [repeat map Rsum fold_right]. change (fold_right Rplus 0) with Rsum.
    rewrite S_INR. pose proof term_documented. change (nT numR) with R in *. lra.
  - intros v H. rewrite schwefel_R. induction H as [|x t Hx Ht IH]; intros HS; constructor; cbn [map Rsum fold_right] in HS; change (fold_right Rplus 0) with Rsum in HS;
      pose proof (proj1 (term_spec x Hx));
      assert (0 <= Rsum (map term t)) by (apply Rsum_map_nonneg; intros y Hy; rewrite Forall_forall in Ht; pose proof (proj1 (term_spec y (Ht y Hy))); lra);
      change (nT numR) with R in *.
    + apply term_spec; [exact Hx|lra].
    + apply IH. lra.
Qed.
(** Outside the range it is unbounded below (so the bounds of make_schwefel_objective
    matter): it is negative somewhere. *)
Theorem C60_range_matters_refuted : exists x : R, @schwefel numR [x] < 0.
Proof.
  pose proof PI_bounds as HP. exists ((25 * PI / 2) ^ 2). rewrite schwefel_R. cbn [map Rsum fold_right]. unfold term.
  rewrite Rabs_pos_eq by nra. rewrite sqrt_pow2 by lra.
  replace (25 * PI / 2) with (6 * PI + 13 * PI / 2) at 2 by lra. rewrite sin_shifted.
  replace (6 * PI) with (0 + 2 * INR 3 * PI) by (cbn; lra). rewrite cos_period, cos_0. change (nT numR) with R in *. nra.
Qed.
