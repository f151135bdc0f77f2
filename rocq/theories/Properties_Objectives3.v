(** * C55 in double precision: the mean squared error of a data objective. *)
From Coq Require Import ZArith Bool Lia Reals Lra List.
From Flocq Require Import Core BinarySingleNaN.
From Verif Require Import Prelude Flt FltFacts FltNonneg Num Round8 MathTools Objectives Properties_ES6 Properties_Boundary2 Properties_Boundary3 Properties_CmaPars2 Properties_CmaStd Properties_Objectives2 Properties_Stats Properties_Stats2.
#[local] Open Scope R_scope.

(** The sum of the squared errors, relative to the exact one. *)
Lemma error_terms (l : list (f64 * f64)) : Forall (fun c => is_finite (fst c) = true /\ is_finite (snd c) = true /\ Rabs (B2R (fst c)) <= bpow radix2 300 /\ Rabs (B2R (snd c)) <= bpow radix2 300) l ->
  exists qs, Forall2 (fun t q => is_finite t = true /\ 0 <= q /\ Rabs (B2R t - q) <= 3 * u53 * q + eta) (map (fun c => fmul (fsub (fst c) (snd c)) (fsub (fst c) (snd c))) l) qs /\
    length qs = length l /\
    Forall2 (fun q e => Rabs (q - e) <= 21 / 10 * u53 * e /\ 0 <= e) qs (map (fun c => (B2R (fst c) - B2R (snd c)) ^ 2) l) /\
    Forall (fun q => q <= bpow radix2 610) qs.
Proof.
  pose proof u53_nn as U. pose proof eta_small as EB. induction 1 as [|[a b] l (Fa & Fb & Ba & Bb) _ (qs & H1 & H2 & H3 & H4)]; [exists []; split; [constructor|split; [reflexivity|split; constructor]]|].
  cbn [fst snd] in *. set (x := B2R a) in *. set (y := B2R b) in *. set (d := rnd (x - y)).
  assert (P3 : 1 <= bpow radix2 300) by (change 1 with (bpow radix2 0); apply bpow_le; lia).
  assert (XY : Rabs (x - y) <= 2 * bpow radix2 300). { apply Rabs_le_inv in Ba. apply Rabs_le_inv in Bb. apply Rabs_le. lra. }
  assert (T1 : Rabs (x - y) <= top). { eapply Rle_trans; [exact XY|]. change 2 with (bpow radix2 1). rewrite <- bpow_plus. apply bpow_le. lia. }
  pose proof (is_sub a b x y (is_self a Fa) (is_self b Fb) T1) as ID. fold d in ID.
  assert (RD : Rabs (d - (x - y)) <= u53 * Rabs (x - y)). { unfold d. replace (x - y) with (x + - y) by ring. apply rnd_plus_rel; [exact (is_fmt _ _ (is_self a Fa))|]. apply generic_format_opp. exact (is_fmt _ _ (is_self b Fb)). }
  assert (DB : Rabs d <= 3 * bpow radix2 300). { assert (u53 * Rabs (x - y) <= / 10 * Rabs (x - y)) by (apply Rmult_le_compat_r; [apply Rabs_pos|unfold u53; lra]). replace d with ((d - (x - y)) + (x - y)) by ring. eapply Rle_trans; [apply Rabs_triang|]. lra. }
  pose proof (Rle_0_sqr d) as DD. unfold Rsqr in DD.
  assert (D9 : d * d <= 9 * bpow radix2 600). { rewrite <- (Rabs_pos_eq (d * d)) by exact DD. rewrite Rabs_mult. replace (9 * bpow radix2 600) with ((3 * bpow radix2 300) * (3 * bpow radix2 300)). - pose proof (Rabs_pos d). apply Rmult_le_compat; assumption. - change 600%Z with (300 + 300)%Z. rewrite bpow_plus. ring. }
  assert (D10 : d * d <= bpow radix2 610). { eapply Rle_trans; [exact D9|]. apply Rle_trans with (bpow radix2 10 * bpow radix2 600); [apply Rmult_le_compat_r; [apply bpow_ge_0|cbn; lra]|rewrite <- bpow_plus; apply bpow_le; lia]. }
  pose proof (is_mul _ _ _ _ ID ID ltac:(rewrite Rabs_pos_eq by exact DD; eapply Rle_trans; [exact D10|]; apply bpow_le; lia)) as [FM EM].
  exists (d * d :: qs). split; [|split; [cbn; congruence|split]].
  - cbn [map fst snd]. constructor; [|exact H1]. split; [exact FM|]. split; [exact DD|]. rewrite EM. pose proof (rnd_err (d * d)) as R. rewrite (Rabs_pos_eq _ DD) in R. assert (0 <= u53 * (d * d)) by (apply Rmult_le_pos; assumption). lra.
  - cbn [map fst snd]. constructor; [|exact H3]. fold x y. pose proof (Rle_0_sqr (x - y)) as E0. unfold Rsqr in E0. replace ((x - y) ^ 2) with ((x - y) * (x - y)) by ring. split; [|exact E0].
    set (e := x - y) in *. replace (d * d - e * e) with ((d - e) * ((d - e) + 2 * e)) by ring. rewrite Rabs_mult.
    assert (S : Rabs (d - e + 2 * e) <= 21 / 10 * Rabs e). { eapply Rle_trans; [apply Rabs_triang|]. rewrite Rabs_mult, (Rabs_pos_eq 2) by lra. assert (u53 * Rabs e <= / 10 * Rabs e) by (apply Rmult_le_compat_r; [apply Rabs_pos|unfold u53; lra]). lra. }
    eapply Rle_trans; [apply Rmult_le_compat; [apply Rabs_pos|apply Rabs_pos|exact RD|exact S]|]. rewrite <- (Rabs_pos_eq (e * e)) by exact E0. rewrite Rabs_mult. apply Req_le. ring.
  - constructor; assumption.
Qed.
Lemma Rsum_rel (c : R) qs es : Forall2 (fun q e => Rabs (q - e) <= c * e /\ 0 <= e) qs es -> Rabs (Rsum qs - Rsum es) <= c * Rsum es /\ 0 <= Rsum es.
Proof.
  induction 1 as [|q e qs es [H E] _ [IH I0]]; cbn [Rsum fold_right]; [rewrite Rminus_0_r, Rabs_R0; lra|]. fold (Rsum qs) (Rsum es). split; [|lra].
  apply Rabs_le_inv in H. apply Rabs_le_inv in IH. apply Rabs_le. lra.
Qed.
Lemma fold_squares {A} (g h : A -> f64) l : forall s, fold_left (fun r c => fadd r (fmul (fsub (g c) (h c)) (fsub (g c) (h c)))) l s = fold_left fadd (map (fun c => fmul (fsub (fst c) (snd c)) (fsub (fst c) (snd c))) (map (fun c => (g c, h c)) l)) s.
Proof. induction l as [|x l IH]; intros s; [reflexivity|]. cbn [fold_left map fst snd]. apply IH. Qed.
(** In double precision: for up to 2^20 data points whose values and model values have size at most 2^300, the data
    objective is a number, not negative, and differs from the exact mean squared error of the (double) model values by a relative n 2^-49 (plus
    2^-190) at most. *)
Theorem C55_data_objective_doubles : forall L (input : Type) dim (model : list f64 -> input -> f64) (data : list (input * f64)) (p : list f64),
  data <> [] -> (Z.of_nat (length data) <= 1048576)%Z -> length p = dim ->
  Forall (fun xy => is_finite (model p (fst xy)) = true /\ is_finite (snd xy) = true /\ Rabs (B2R (model p (fst xy))) <= bpow radix2 300 /\ Rabs (B2R (snd xy)) <= bpow radix2 300) data ->
  exists f : f64, @data_evaluate (numF L) input dim model data p = Ok f /\ is_finite f = true /\ 0 <= B2R f /\
    let exact := pop_mean (map (fun xy => (B2R (model p (fst xy)) - B2R (snd xy)) ^ 2) data) in
    Rabs (B2R f - exact) <= INR (length data) * bpow radix2 (-49) * exact + bpow radix2 (-190).
Proof.
  intros L input dim model data p HN HL HP HB. set (cs := map (fun xy => (model p (fst xy), snd xy)) data).
  destruct (error_terms cs) as (qs & Q1 & Q2 & Q3 & Q4). { apply Forall_map. exact HB. }
  set (ts := map (fun c => fmul (fsub (fst c) (snd c)) (fsub (fst c) (snd c))) cs) in *. assert (LC : length cs = length data) by apply map_length. assert (LT : length ts = length data) by (unfold ts; rewrite map_length; exact LC).
  set (n := INR (length data)).
  assert (NR : 1 <= n <= 1048576). { unfold n. split; [|rewrite INR_IZR_INZ; apply IZR_le; exact HL]. destruct data as [|x l]; [congruence|]. cbn [length]. rewrite S_INR. pose proof (pos_INR (length l)). lra. }
  pose proof u53_nn as U. pose proof eta_small as EB.
  exists (fdiv (fold_left fadd ts (fofZ 0)) (fofZ (Z.of_nat (length data)))). split.
  { unfold data_evaluate. subst dim. rewrite Nat.eqb_refl. cbn [negb error_if obind]. unfold nsize, sq. change (@nadd (numF L)) with fadd. change (@nsub (numF L)) with fsub. change (@nmul (numF L)) with fmul. change (@ndiv (numF L)) with fdiv. change (@nofZ (numF L)) with fofZ. cbv beta.
    apply (f_equal (fun s => Ok (fdiv s (fofZ (Z.of_nat (length data)))))). exact (fold_squares (fun xy => model p (fst xy)) (fun xy => snd xy) data (fofZ 0)). }
  destruct (Rsum_rel _ _ _ Q3) as [R1 R2]. set (es := map (fun c => (B2R (fst c) - B2R (snd c)) ^ 2) cs) in *.
  assert (EX : pop_mean (map (fun xy => (B2R (model p (fst xy)) - B2R (snd xy)) ^ 2) data) = Rsum es / n). { unfold pop_mean, es, cs. rewrite !map_map, map_length. reflexivity. }
  cbv zeta. rewrite EX. clear EX.
  assert (QT : Rsum qs <= bpow radix2 640). { eapply Rle_trans; [exact (Rsum_le _ _ Q4)|]. rewrite Q2, LC. fold n. apply Rle_trans with (bpow radix2 20 * bpow radix2 610); [apply Rmult_le_compat_r; [apply bpow_ge_0|cbn; lra]|rewrite <- bpow_plus; apply bpow_le; lia]. }
  destruct (square_sum eta ltac:(lra) ts qs Q1 (fofZ 0) 0 0 0 is_zero ltac:(lra) ltac:(lra)) as (v & V1 & V2).
  - rewrite Rminus_0_r, Rabs_R0. lra.
  - rewrite LT. fold n. lra.
  - rewrite Rplus_0_l. eapply Rle_trans; [exact QT|]. apply bpow_le. lia.
  - rewrite LT in V2. fold n in V2. rewrite !Rplus_0_l in V2. set (q := Rsum qs) in *. set (E := Rsum es) in *.
    assert (V0 : 0 <= v). { destruct V1 as [FV <-]. assert (NNV : never_negative (fold_left fadd ts (fofZ 0))). {
        assert (G : forall l s, never_negative s -> Forall never_negative l -> never_negative (fold_left fadd l s)). { induction l as [|t l IH]; intros s Hs Hl; [exact Hs|]. cbn [fold_left]. apply Forall_cons_iff in Hl as [H3 H4]. apply IH; [apply nn_add; assumption|exact H4]. }
        apply G; [right; reflexivity|]. unfold ts. apply Forall_map, Forall_forall. intros x _. apply nn_square. }
      set (s := fold_left fadd ts (fofZ 0)) in *. clearbody s. destruct NNV as [NV|NV]; [destruct s; discriminate|]. destruct (fle0_cases _ NV) as [Z|[_ P]]; [rewrite Z in FV; discriminate|exact P]. }
    assert (NI : is (fofZ (Z.of_nat (length data))) n). { unfold n. rewrite INR_IZR_INZ. apply is_ofZ. rewrite Z.abs_eq by lia. change (2 ^ 53)%Z with 9007199254740992%Z. lia. }
    assert (c0 : 0 <= (3 + 2 * n) * u53 <= / 1000000000) by (unfold u53; split; lra). assert (NE : n * eta <= 1048576 * eta) by (apply Rmult_le_compat_r; lra).
    assert (UE : 0 <= u53 * E) by (apply Rmult_le_pos; assumption). assert (UE1 : u53 * E <= / 1000000000 * E) by (apply Rmult_le_compat_r; [exact R2|unfold u53; lra]).
    apply Rabs_le_inv in R1. apply Rabs_le_inv in V2. replace (21 / 10 * u53 * E) with (21 / 10 * (u53 * E)) in R1 by ring.
    assert (Kq : (3 + 2 * n) * u53 * q <= (3 + 2 * n) * u53 * E + 3 * / 1000000000 * (u53 * E)). { apply Rle_trans with ((3 + 2 * n) * u53 * (E + 3 * (u53 * E))); [apply Rmult_le_compat_l; lra|]. assert ((3 + 2 * n) * u53 * (u53 * E) <= / 1000000000 * (u53 * E)) by (apply Rmult_le_compat_r; lra). lra. }
    assert (DV : Rabs (v - E) <= (6 + 2 * n) * (u53 * E) + 2 * n * eta). { replace ((6 + 2 * n) * (u53 * E)) with ((3 + 2 * n) * u53 * E + 3 * (u53 * E)) by ring. apply Rabs_le. lra. }
    assert (IN : 0 < / n <= 1). { split; [apply Rinv_0_lt_compat; lra|]. rewrite <- Rinv_1. apply Rinv_le; lra. }
    assert (M0 : 0 <= E / n) by (unfold Rdiv; apply Rmult_le_pos; lra). assert (W0 : 0 <= v / n) by (unfold Rdiv; apply Rmult_le_pos; lra).
    assert (DM : Rabs (v / n - E / n) <= (6 + 2 * n) * (u53 * (E / n)) + 2 * eta). { replace (v / n - E / n) with ((v - E) * / n) by (unfold Rdiv; ring). rewrite Rabs_mult, (Rabs_pos_eq (/ n)) by lra. eapply Rle_trans; [apply Rmult_le_compat_r; [lra|exact DV]|]. apply Req_le. field. lra. }
    assert (VT : v <= bpow radix2 650). { assert (2 * n * eta <= 1) by lra. assert (1 <= bpow radix2 640) by (change 1 with (bpow radix2 0); apply bpow_le; lia). assert ((3 + 2 * n) * u53 * q <= 1 * q). { apply Rmult_le_compat_r; [lra|lra]. } apply Rle_trans with (bpow radix2 2 * bpow radix2 640); [replace (bpow radix2 2) with 4 by reflexivity; lra|rewrite <- bpow_plus; apply bpow_le; lia]. }
    pose proof (is_div _ _ _ _ V1 NI ltac:(lra) ltac:(rewrite Rabs_pos_eq by exact W0; apply Rle_trans with (v * 1); [unfold Rdiv; apply Rmult_le_compat_l; lra|rewrite Rmult_1_r; eapply Rle_trans; [exact VT|]; apply bpow_le; lia])) as [FF EF].
    split; [exact FF|]. rewrite EF. split; [apply rnd_nn; exact W0|]. pose proof (rnd_err (v / n)) as RW. rewrite (Rabs_pos_eq _ W0) in RW.
    clear V2 Kq DV VT R1 V0 FF EF V1 NI. set (m := E / n) in *. set (w := v / n) in *. set (r := rnd w) in *. clearbody m w r. apply Rabs_le_inv in DM. apply Rabs_le_inv in RW.
    assert (UM : 0 <= u53 * m) by (apply Rmult_le_pos; assumption). assert (NM : u53 * m <= n * (u53 * m)). { rewrite <- (Rmult_1_l (u53 * m)) at 1. apply Rmult_le_compat_r; lra. }
    assert (NMs : n * (u53 * m) <= / 1000 * m). { rewrite <- Rmult_assoc. apply Rmult_le_compat_r; [exact M0|unfold u53; lra]. }
    assert (UW : u53 * w <= 2 * (u53 * m) + eta). { apply Rle_trans with (u53 * (2 * m + 2 * eta)); [apply Rmult_le_compat_l; lra|]. assert (u53 * eta <= / 1000 * eta) by (apply Rmult_le_compat_r; [lra|unfold u53; lra]). lra. }
    replace (n * bpow radix2 (-49) * m) with (16 * (n * (u53 * m))) by (change (bpow radix2 (-49)) with (/ 562949953421312); unfold u53; field).
    assert (ET : 4 * eta <= bpow radix2 (-190)). { unfold eta. change 4 with (bpow radix2 2). rewrite <- bpow_plus. apply bpow_le. lia. }
    apply Rabs_le. lra.
Qed.
Lemma C55_data_doubles_nonvacuous : exists (data : list (nat * f64)) (model : list f64 -> nat -> f64) (p : list f64), length data = 3%nat /\ length p = 1%nat /\
  Forall (fun xy => is_finite (model p (fst xy)) = true /\ is_finite (snd xy) = true /\ Rabs (B2R (model p (fst xy))) <= bpow radix2 300 /\ Rabs (B2R (snd xy)) <= bpow radix2 300) data.
Proof.
  assert (K : forall z : Z, (-5 <= z <= 5)%Z -> is_finite (fofZ z) = true /\ Rabs (B2R (fofZ z)) <= bpow radix2 300).
  { intros z Hz. destruct (is_ofZ z) as [F E]; [change (2 ^ 53)%Z with 9007199254740992%Z; lia|]. split; [exact F|]. rewrite E. assert (G : IZR (-5) <= IZR z <= IZR 5) by (split; apply IZR_le; lia). apply Rle_trans with (bpow radix2 3); [cbn; apply Rabs_le; lra|apply bpow_le; lia]. }
  exists [(1%nat, fofZ 5); (2%nat, fofZ (-2)); (3%nat, fofZ 4)], (fun _ _ => fofZ 1), [fofZ 1]. split; [reflexivity|]. split; [reflexivity|].
  destruct (K 1%Z ltac:(lia)). destruct (K 5%Z ltac:(lia)). destruct (K (-2)%Z ltac:(lia)). destruct (K 4%Z ltac:(lia)). constructor; [auto|constructor; [auto|constructor; [auto|constructor]]].
Qed.

(** ** Sphere and ellipsoid *)
(** A term [w x^2] computed as [w * (x * x)], for an exact weight between 1 and 2^21. *)
Lemma weighted_term (w x : f64) W : is w W -> 1 <= W <= 2097152 -> is_finite x = true -> Rabs (B2R x) <= bpow radix2 300 ->
  is_finite (fmul w (fmul x x)) = true /\ 0 <= W * B2R x ^ 2 /\ Rabs (B2R (fmul w (fmul x x)) - W * B2R x ^ 2) <= 3 * u53 * (W * B2R x ^ 2) + 4194304 * eta /\ W * B2R x ^ 2 <= bpow radix2 630.
Proof.
  intros Hw HW F H. pose proof u53_nn as U. pose proof eta_small as EB. set (d := B2R x) in *. replace (d ^ 2) with (d * d) by ring. pose proof (Rle_0_sqr d) as DD. unfold Rsqr in DD.
  assert (D9 : d * d <= bpow radix2 600). { rewrite <- (Rabs_pos_eq (d * d)) by exact DD. rewrite Rabs_mult. change 600%Z with (300 + 300)%Z. rewrite bpow_plus. pose proof (Rabs_pos d). apply Rmult_le_compat; assumption. }
  pose proof (is_mul _ _ _ _ (is_self x F) (is_self x F) ltac:(fold d; rewrite Rabs_pos_eq by exact DD; eapply Rle_trans; [exact D9|]; apply bpow_le; lia)) as IM. fold d in IM.
  pose proof (rnd_err (d * d)) as RM. rewrite (Rabs_pos_eq _ DD) in RM. pose proof (rnd_nn _ DD) as W0. set (q := d * d) in *. set (y := rnd q) in *.
  assert (UQ : 0 <= u53 * q <= / 1000 * q) by (split; [apply Rmult_le_pos; assumption|apply Rmult_le_compat_r; [exact DD|unfold u53; lra]]). apply Rabs_le_inv in RM.
  assert (P6 : 1 <= bpow radix2 600) by (change 1 with (bpow radix2 0); apply bpow_le; lia).
  assert (WQ : 0 <= W * q <= 2097152 * bpow radix2 600) by (split; [apply Rmult_le_pos; lra|apply Rmult_le_compat; lra]).
  assert (B22 : 4194304 * bpow radix2 600 <= bpow radix2 630). { apply Rle_trans with (bpow radix2 22 * bpow radix2 600); [apply Rmult_le_compat_r; [lra|cbn; lra]|rewrite <- bpow_plus; apply bpow_le; lia]. }
  assert (WY0 : 0 <= W * y) by (apply Rmult_le_pos; lra). assert (WY : W * y <= 2097152 * (2 * bpow radix2 600)) by (apply Rmult_le_compat; lra).
  pose proof (is_mul _ _ _ _ Hw IM ltac:(rewrite Rabs_pos_eq by exact WY0; eapply Rle_trans; [exact WY|]; apply Rle_trans with (bpow radix2 630); [lra|apply bpow_le; lia])) as [FT ET].
  split; [exact FT|]. split; [lra|]. split; [|lra]. rewrite ET. pose proof (rnd_err (W * y)) as RT. rewrite (Rabs_pos_eq _ WY0) in RT. set (t := rnd (W * y)) in *.
  assert (X1 : W * (y - q) <= W * (u53 * q + eta)) by (apply Rmult_le_compat_l; lra). assert (X2 : W * - (u53 * q + eta) <= W * (y - q)) by (apply Rmult_le_compat_l; lra).
  assert (WE : 0 <= W * eta <= 2097152 * eta) by (split; [apply Rmult_le_pos; lra|apply Rmult_le_compat_r; lra]). replace (W * (u53 * q + eta)) with (u53 * (W * q) + W * eta) in X1 by ring. replace (W * - (u53 * q + eta)) with (- (u53 * (W * q) + W * eta)) in X2 by ring. rewrite Rmult_minus_distr_l in X1, X2.
  set (a := W * q) in *. set (b := W * y) in *. clearbody a b t. assert (UA : 0 <= u53 * a <= / 1000 * a) by (split; [apply Rmult_le_pos; lra|apply Rmult_le_compat_r; [lra|unfold u53; lra]]).
  assert (UB : u53 * b <= 3 / 2 * (u53 * a) + / 1000 * (2097152 * eta)). { apply Rle_trans with (u53 * (3 / 2 * a + 2097152 * eta)); [apply Rmult_le_compat_l; lra|]. assert (u53 * (2097152 * eta) <= / 1000 * (2097152 * eta)) by (apply Rmult_le_compat_r; [lra|unfold u53; lra]). lra. }
  apply Rabs_le_inv in RT. apply Rabs_le. lra.
Qed.
Lemma weighted_total (ts : list f64) qs : Forall2 (fun t q => is_finite t = true /\ 0 <= q /\ Rabs (B2R t - q) <= 3 * u53 * q + 4194304 * eta) ts qs -> Forall (fun q => q <= bpow radix2 630) qs -> (Z.of_nat (length qs) <= 1048576)%Z ->
  is_finite (fold_left fadd ts (fofZ 0)) = true /\ Rabs (B2R (fold_left fadd ts (fofZ 0)) - Rsum qs) <= (3 + 2 * INR (length qs)) * u53 * Rsum qs + bpow radix2 (-150).
Proof.
  intros H HB HL. assert (LE : length ts = length qs) by (clear - H; induction H; cbn; congruence). pose proof eta_small as EB. pose proof (pos_INR (length qs)) as N0. assert (N1 : INR (length qs) <= 1048576) by (rewrite INR_IZR_INZ; apply IZR_le; exact HL).
  destruct (square_sum (4194304 * eta) ltac:(lra) ts qs H (fofZ 0) 0 0 0 is_zero ltac:(lra) ltac:(lra)) as (v & [V1 E1] & V2).
  - rewrite Rminus_0_r, Rabs_R0. lra.
  - rewrite LE. lra.
  - rewrite Rplus_0_l. eapply Rle_trans; [exact (Rsum_le _ _ HB)|]. apply Rle_trans with (bpow radix2 20 * bpow radix2 630); [apply Rmult_le_compat_r; [apply bpow_ge_0|cbn; lra]|rewrite <- bpow_plus; apply bpow_le; lia].
  - split; [exact V1|]. rewrite E1. rewrite LE, !Rplus_0_l in V2. eapply Rle_trans; [exact V2|]. apply Rplus_le_compat_l. apply Rle_trans with (bpow radix2 43 * eta).
    + replace (2 * INR (length qs) * (4194304 * eta)) with ((8388608 * INR (length qs)) * eta) by ring. apply Rmult_le_compat_r; [lra|]. change (bpow radix2 43) with 8796093022208. lra.
    + unfold eta. rewrite <- bpow_plus. apply bpow_le. lia.
Qed.
Lemma total_bound n s : (n = 0 -> s = 0) -> (n = 0 \/ 1 <= n) -> 0 <= s -> (3 + 2 * n) * u53 * s <= n * bpow radix2 (-50) * s.
Proof.
  intros H0 [->|H] Hs; [rewrite (H0 eq_refl); lra|]. apply Rmult_le_compat_r; [exact Hs|]. change (bpow radix2 (-50)) with (/ 1125899906842624). unfold u53. lra.
Qed.
Lemma INR_zero_or n : INR n = 0 \/ 1 <= INR n.
Proof. destruct n as [|n]; [left; reflexivity|right]. rewrite S_INR. pose proof (pos_INR n). lra. Qed.
(** In double precision: for up to 2^20 coordinates of size at most 2^300 the sphere is a number within a relative n 2^-50
    (plus 2^-150) of the exact sum of squares. *)
Theorem C55_sphere_doubles : forall L (v : list f64), (Z.of_nat (length v) <= 1048576)%Z -> Forall (fun x : f64 => is_finite x = true /\ Rabs (B2R x) <= bpow radix2 300) v ->
  let exact := Rsum (map (fun x : f64 => B2R x ^ 2) v) in
  is_finite (@sphere (numF L) v) = true /\ Rabs (B2R (@sphere (numF L) v) - exact) <= INR (length v) * bpow radix2 (-50) * exact + bpow radix2 (-150).
Proof.
  intros L v HL HB exact. assert (E : @sphere (numF L) v = fold_left fadd (map (fun x => fmul x x) v) (fofZ 0)) by (exact (fold_fadd (fun x => fmul x x) v (fofZ 0))). rewrite E. clear E.
  assert (H2 : Forall2 (fun t q => is_finite t = true /\ 0 <= q /\ Rabs (B2R t - q) <= 3 * u53 * q + 4194304 * eta) (map (fun x => fmul x x) v) (map (fun x : f64 => B2R x ^ 2) v) /\ Forall (fun q => q <= bpow radix2 630) (map (fun x : f64 => B2R x ^ 2) v)).
  { split; [apply Forall2_map_both|apply Forall_map]; (eapply Forall_impl; [|exact HB]); intros x [F H]; cbv beta.
    - pose proof u53_nn as U. pose proof eta_small as EB. set (d := B2R x) in *. replace (d ^ 2) with (d * d) by ring. pose proof (Rle_0_sqr d) as DD. unfold Rsqr in DD.
      assert (D9 : d * d <= bpow radix2 600). { rewrite <- (Rabs_pos_eq (d * d)) by exact DD. rewrite Rabs_mult. change 600%Z with (300 + 300)%Z. rewrite bpow_plus. pose proof (Rabs_pos d). apply Rmult_le_compat; assumption. }
      pose proof (is_mul _ _ _ _ (is_self x F) (is_self x F) ltac:(fold d; rewrite Rabs_pos_eq by exact DD; eapply Rle_trans; [exact D9|]; apply bpow_le; lia)) as [FM EM]. fold d in EM. split; [exact FM|]. split; [exact DD|]. rewrite EM. pose proof (rnd_err (d * d)) as R. rewrite (Rabs_pos_eq _ DD) in R. assert (0 <= u53 * (d * d)) by (apply Rmult_le_pos; assumption). lra.
    - destruct (weighted_term (fofZ 1) x 1 (is_ofZ 1 ltac:(cbn; lia)) ltac:(lra) F H) as (_ & _ & _ & T). lra. }
  destruct H2 as [H2 H3]. destruct (weighted_total _ _ H2 H3 ltac:(rewrite map_length; exact HL)) as [F D]. split; [exact F|]. eapply Rle_trans; [exact D|]. rewrite map_length. apply Rplus_le_compat_r. apply total_bound.
  - intros Z. destruct v as [|x l]; [reflexivity|]. change (length (x :: l)) with (S (length l)) in Z. rewrite S_INR in Z. pose proof (pos_INR (length l)). lra.
  - apply INR_zero_or.
  - apply Rsum_nonneg, Forall_map, Forall_forall. intros x _. apply pow2_ge_0.
Qed.
Lemma ellipsoid_terms L (v : list f64) : forall i s, @ellipsoid_from (numF L) i s v = fold_left fadd (map (fun jx => fmul (fofZ (Z.of_nat (fst jx + 1))) (fmul (snd jx) (snd jx))) (combine (seq i (length v)) v)) s.
Proof. induction v as [|x v IH]; intros i s; [reflexivity|]. cbn [ellipsoid_from length seq combine map fold_left fst snd]. rewrite IH. reflexivity. Qed.
(** The same for the ellipsoid, whose exact value is the sum of [(i + 1) x_i^2]. *)
Theorem C55_ellipsoid_doubles : forall L (v : list f64), (Z.of_nat (length v) <= 1048576)%Z -> Forall (fun x : f64 => is_finite x = true /\ Rabs (B2R x) <= bpow radix2 300) v ->
  let exact := Rsum (map (fun ix => INR (fst ix + 1) * B2R (snd ix) ^ 2) (combine (seq 0 (length v)) v)) in
  is_finite (@ellipsoid (numF L) v) = true /\ Rabs (B2R (@ellipsoid (numF L) v) - exact) <= INR (length v) * bpow radix2 (-50) * exact + bpow radix2 (-150).
Proof.
  intros L v HL HB exact. unfold ellipsoid. rewrite (ellipsoid_terms L v 0). change (@nofZ (numF L)) with fofZ.
  set (cs := combine (seq 0 (length v)) v) in *. assert (LC : length cs = length v) by (unfold cs; rewrite combine_length, seq_length; lia).
  assert (HC : Forall (fun jx => is_finite (fmul (fofZ (Z.of_nat (fst jx + 1))) (fmul (snd jx) (snd jx))) = true /\ 0 <= INR (fst jx + 1) * B2R (snd jx) ^ 2 /\
     Rabs (B2R (fmul (fofZ (Z.of_nat (fst jx + 1))) (fmul (snd jx) (snd jx))) - INR (fst jx + 1) * B2R (snd jx) ^ 2) <= 3 * u53 * (INR (fst jx + 1) * B2R (snd jx) ^ 2) + 4194304 * eta /\ INR (fst jx + 1) * B2R (snd jx) ^ 2 <= bpow radix2 630) cs).
  { apply Forall_forall. intros [j x] Hin. cbn [fst snd]. pose proof (in_combine_l _ _ _ _ Hin) as Hj. pose proof (in_combine_r _ _ _ _ Hin) as Hx. apply in_seq in Hj. rewrite Forall_forall in HB. destruct (HB x Hx) as [F H].
    apply weighted_term; [|split|exact F|exact H].
    - rewrite INR_IZR_INZ. apply is_ofZ. rewrite Z.abs_eq by lia. change (2 ^ 53)%Z with 9007199254740992%Z. lia.
    - rewrite plus_INR. pose proof (pos_INR j). change (INR 1) with 1. lra.
    - rewrite INR_IZR_INZ. apply IZR_le. lia. }
  destruct (weighted_total (map (fun jx => fmul (fofZ (Z.of_nat (fst jx + 1))) (fmul (snd jx) (snd jx))) cs) (map (fun ix => INR (fst ix + 1) * B2R (snd ix) ^ 2) cs)) as [F D].
  - apply Forall2_map_both. eapply Forall_impl; [|exact HC]. intros c (A & B & C & _). auto.
  - apply Forall_map. eapply Forall_impl; [|exact HC]. intros c (_ & _ & _ & C). exact C.
  - rewrite map_length. exact (eq_ind_r (fun k => (Z.of_nat k <= 1048576)%Z) HL LC).
  - split; [exact F|]. eapply Rle_trans; [exact D|]. apply Rplus_le_compat_r. assert (LM : length (map (fun ix => INR (fst ix + 1) * B2R (snd ix) ^ 2) cs) = length v) by (rewrite map_length; exact LC). refine (eq_ind_r (fun k => (3 + 2 * INR k) * u53 * _ <= _) _ LM). apply total_bound.
    + intros Z. destruct v as [|x l]; [reflexivity|]. change (length (x :: l)) with (S (length l)) in Z. rewrite S_INR in Z. pose proof (pos_INR (length l)). lra.
    + apply INR_zero_or.
    + apply Rsum_nonneg, Forall_map. eapply Forall_impl; [|exact HC]. intros c (_ & A & _). exact A.
Qed.
Lemma C55_sphere_doubles_nonvacuous : exists v : list f64, length v = 3%nat /\ Forall (fun x : f64 => is_finite x = true /\ Rabs (B2R x) <= bpow radix2 300) v.
Proof.
  destruct C55_data_doubles_nonvacuous as ([|a [|b [|c [|? ?]]]] & model & p & HL & _ & H); try discriminate HL. exists [snd a; snd b; snd c]. split; [reflexivity|].
  apply Forall_cons_iff in H as [(_ & A1 & _ & A2) H]. apply Forall_cons_iff in H as [(_ & B1 & _ & B2) H]. apply Forall_cons_iff in H as [(_ & D1 & _ & D2) _]. constructor; [auto|constructor; [auto|constructor; [auto|constructor]]].
Qed.
(** In double precision the optimum is not the only zero: squares underflow. *)
Lemma sphere_one L (x : f64) : @sphere (numF L) [x] = fadd (fofZ 0) (fmul x x).
Proof. reflexivity. Qed.
Lemma tiny_square : (is_finite (flit 1 (-200)) && feq (fadd (fofZ 0) (fmul (flit 1 (-200)) (flit 1 (-200)))) (fofZ 0) && negb (feq (flit 1 (-200)) (fofZ 0)))%bool = true.
Proof. vm_compute. reflexivity. Qed.
Theorem C55_sphere_unique_doubles_refuted : forall L, exists x : f64, is_finite x = true /\ feq (@sphere (numF L) [x]) (fofZ 0) = true /\ feq x (fofZ 0) = false.
Proof.
  intros L. pose proof tiny_square as H. exists (flit 1 (-200)). revert H. generalize (flit 1 (-200)). intros x H. rewrite sphere_one. apply andb_prop in H as [H H2]. apply andb_prop in H as [H H1]. split; [exact H|]. split; [exact H1|]. apply negb_true_iff. exact H2.
Qed.

(** ** C54: the length of a vector in double precision *)
(** For up to 2^20 coordinates of size at most 2^300 the length is a number, not negative, and within a relative n 2^-49
    (plus 2^-70) of the exact one. *)
Theorem C54_length_doubles : forall L (v : list f64), (Z.of_nat (length v) <= 1048576)%Z -> Forall (fun x : f64 => is_finite x = true /\ Rabs (B2R x) <= bpow radix2 300) v ->
  let exact := sqrt (Rsum (map (fun x : f64 => B2R x ^ 2) v)) in
  is_finite (@vlength (numF L) v) = true /\ 0 <= B2R (@vlength (numF L) v) /\ Rabs (B2R (@vlength (numF L) v) - exact) <= INR (length v) * bpow radix2 (-49) * exact + bpow radix2 (-70).
Proof.
  intros L v HL HB exact. destruct (C55_sphere_doubles L v HL HB) as [F D]. cbv zeta in D. pose proof (C59_never_negative L) as NN.
  assert (E : @vlength (numF L) v = fsqrt (@sphere (numF L) v)).
  { assert (E0 : @vlength (numF L) v = fsqrt (fold_left fadd (map (fun x => fmul x x) v) (fofZ 0))) by reflexivity. rewrite E0. apply f_equal. symmetry. exact (fold_fadd (fun x => fmul x x) v (fofZ 0)). }
  rewrite E. clear E. set (q := Rsum (map (fun x : f64 => B2R x ^ 2) v)) in *.
  assert (Q0 : 0 <= q). { apply Rsum_nonneg, Forall_map, Forall_forall. intros x _. apply pow2_ge_0. }
  assert (NN0 : never_negative (@sphere (numF L) v)) by (apply never_negative_spec; exact (proj1 (NN v))).
  set (s := @sphere (numF L) v) in *. change (nT (numF L)) with f64 in *. clearbody s. clear NN.
  assert (P0 : 0 <= B2R s). { destruct NN0 as [NV|NV]; [destruct s; discriminate|]. destruct (fle0_cases _ NV) as [Z|[_ P]]; [rewrite Z in F; discriminate|exact P]. }
  pose proof (is_sqrt _ _ (is_self s F) P0) as [FR ER]. split; [exact FR|]. rewrite ER. split; [apply rnd_nn, sqrt_pos|].
  pose proof (pos_INR (length v)) as N0. assert (N1 : INR (length v) <= 1048576) by (rewrite INR_IZR_INZ; apply IZR_le; exact HL). set (n := INR (length v)) in *.
  assert (NQ : n = 0 -> q = 0). { intros Z. unfold q. destruct v as [|x l]; [reflexivity|]. unfold n in Z. change (length (x :: l)) with (S (length l)) in Z. rewrite S_INR in Z. pose proof (pos_INR (length l)). lra. }
  assert (NZ : n = 0 \/ 1 <= n) by (apply INR_zero_or).
  change (bpow radix2 (-50)) with (/ 1125899906842624) in D. apply Rabs_le_inv in D.
  assert (M : bpow radix2 (-75) * bpow radix2 (-75) = bpow radix2 (-150)) by (rewrite <- bpow_plus; reflexivity).
  destruct (sqrt_close (B2R s) q (n * / 1125899906842624) (bpow radix2 (-75)) ltac:(lra) (bpow_ge_0 _ _) P0 Q0 ltac:(rewrite M; lra)) as [S1 S2]. fold exact in S1, S2. pose proof (sqrt_pos q) as E0. fold exact in E0.
  set (w := sqrt (B2R s)) in *. pose proof (rnd_err w) as RW. rewrite (Rabs_pos_eq w) in RW by apply sqrt_pos. apply Rabs_le_inv in RW. pose proof eta_small as EB. pose proof u53_nn as U.
  assert (W0 : 0 <= w) by apply sqrt_pos. set (r := rnd w) in *. clearbody w r. clear D M HB ER FR.
  assert (EZ : n = 0 -> exact = 0). { intros Z. unfold exact. rewrite (NQ Z). apply sqrt_0. } clearbody exact. 
  assert (B75 : bpow radix2 (-75) = / 37778931862957161709568) by reflexivity. rewrite B75 in *. change (bpow radix2 (-70)) with (/ 1180591620717411303424). change (bpow radix2 (-49)) with (/ 562949953421312).
  assert (NE : n * exact <= 1048576 * exact) by (apply Rmult_le_compat_r; assumption). replace (n * / 1125899906842624 * exact) with (/ 1125899906842624 * (n * exact)) in S1, S2 by ring. replace (n * / 562949953421312 * exact) with (/ 562949953421312 * (n * exact)) by ring.
  assert (EN : exact <= n * exact). { destruct NZ as [Z|Z]; [rewrite (EZ Z); lra|]. rewrite <- (Rmult_1_l exact) at 1. apply Rmult_le_compat_r; assumption. } assert (UW : u53 * w <= u53 * (2 * exact + / 37778931862957161709568)) by (apply Rmult_le_compat_l; lra).
  unfold u53 in UW, RW. apply Rabs_le. lra.
Qed.

(** ** C54: interpolation in double precision *)
(** For a rate between 0 and 1 and values of size at most [B] (at most 2^400), [update] returns a number within 2^-50 (B + 1) of
    the exact interpolation; it can leave the interval of the two values only by that much. *)
Theorem C54_update_doubles : forall L (v nv rate : f64) B, is_finite v = true -> is_finite nv = true -> is_finite rate = true ->
  0 <= B2R rate <= 1 -> Rabs (B2R v) <= B -> Rabs (B2R nv) <= B -> B <= bpow radix2 400 ->
  is_finite (@upd (numF L) v nv rate) = true /\ Rabs (B2R (@upd (numF L) v nv rate) - (B2R v + B2R rate * (B2R nv - B2R v))) <= bpow radix2 (-50) * (B + 1).
Proof.
  intros L v nv rate B Fv Fn Fr HR HV HN HB. assert (E : @upd (numF L) v nv rate = fadd (fmul (fsub (fofZ 1) rate) v) (fmul rate nv)) by reflexivity. rewrite E. clear E.
  pose proof (is_self v Fv) as Iv. pose proof (is_self nv Fn) as In. pose proof (is_self rate Fr) as Ir. set (a := B2R v) in *. set (b := B2R nv) in *. set (r := B2R rate) in *. clearbody a b r.
  pose proof u53_nn as U. pose proof eta_small as EB. assert (B0 : 0 <= B) by (pose proof (Rabs_pos a); lra).
  assert (I1 : is (fofZ 1) 1) by (apply is_ofZ; cbn; lia).
  assert (P4 : 1 <= bpow radix2 400) by (change 1 with (bpow radix2 0); apply bpow_le; lia).
  assert (TOP : forall x, Rabs x <= 4 * (B + 1) -> Rabs x <= top). { intros x Hx. eapply Rle_trans; [exact Hx|]. apply Rle_trans with (bpow radix2 3 * bpow radix2 400); [change (bpow radix2 3) with 8; lra|rewrite <- bpow_plus; apply bpow_le; lia]. }
  assert (UB : 0 <= u53 * B <= / 1000 * B) by (split; [apply Rmult_le_pos; assumption|apply Rmult_le_compat_r; [exact B0|unfold u53; lra]]).
  assert (H1 : Rabs (1 - r) <= 1) by (apply Rabs_le; lra). pose proof (is_sub _ _ _ _ I1 Ir (TOP (1 - r) ltac:(lra))) as I2. pose proof (rnd_pm _ _ H1) as R1. set (s := rnd (1 - r)) in *. clearbody s.
  apply Rabs_le_inv in HV. apply Rabs_le_inv in HN.
  assert (DS : Rabs (s - (1 - r)) <= u53 + eta) by (apply Rabs_le; lra). assert (X1 : Rabs ((s - (1 - r)) * a) <= (u53 + eta) * B). { rewrite Rabs_mult. apply Rmult_le_compat; [apply Rabs_pos|apply Rabs_pos|exact DS|apply Rabs_le; lra]. }
  assert (X2 : Rabs ((1 - r) * a) <= 1 * B). { rewrite Rabs_mult. apply Rmult_le_compat; [apply Rabs_pos|apply Rabs_pos|exact H1|apply Rabs_le; lra]. }
  assert (X3 : Rabs (r * b) <= 1 * B). { rewrite Rabs_mult. apply Rmult_le_compat; [apply Rabs_pos|apply Rabs_pos|apply Rabs_le; lra|apply Rabs_le; lra]. }
  assert (EBB : eta * B <= / 1000000000000000000000000000000 * B) by (apply Rmult_le_compat_r; lra). replace ((u53 + eta) * B) with (u53 * B + eta * B) in X1 by ring. rewrite Rmult_1_l in X2, X3.
  assert (SA : s * a = (s - (1 - r)) * a + (1 - r) * a) by ring. apply Rabs_le_inv in X1. apply Rabs_le_inv in X2. set (d := (s - (1 - r)) * a) in *. set (e := (1 - r) * a) in *.
  assert (H3 : Rabs (s * a) <= 11 / 10 * B) by (rewrite SA; apply Rabs_le; lra). pose proof (is_mul _ _ _ _ I2 Iv (TOP (s * a) ltac:(lra))) as I3. pose proof (rnd_pm _ _ H3) as R3. pose proof (is_mul _ _ _ _ Ir In (TOP (r * b) ltac:(lra))) as I4. pose proof (rnd_pm _ _ X3) as R4. rewrite SA in R3.
  set (f := rnd (d + e)) in *. rewrite SA in I3. fold f in I3. apply Rabs_le_inv in X3. set (g := r * b) in *. set (h := rnd g) in *.
  assert (EV : a + r * (b - a) = e + g) by (unfold e, g; ring). rewrite EV. clearbody d e f g h.
  replace (u53 * (11 / 10 * B)) with (11 / 10 * (u53 * B)) in R3 by ring.
  assert (H5 : Rabs (f + h) <= 3 * B + / 1000) by (apply Rabs_le; lra). pose proof (is_add _ _ _ _ I3 I4 (TOP (f + h) ltac:(lra))) as [F5 E5]. pose proof (rnd_pm _ _ H5) as R5. split; [exact F5|]. rewrite E5. set (y := rnd (f + h)) in *. clearbody y.
  replace (u53 * (3 * B + / 1000)) with (3 * (u53 * B) + / 1000 * u53) in R5 by ring.
  replace (bpow radix2 (-50) * (B + 1)) with (8 * (u53 * B) + 8 * u53) by (change (bpow radix2 (-50)) with (/ 1125899906842624); unfold u53; field).
  assert (E8 : eta <= / 1000 * u53) by (unfold u53; lra). assert (EB8 : eta * B <= / 1000 * (u53 * B)) by (rewrite <- Rmult_assoc; apply Rmult_le_compat_r; lra).
  apply Rabs_le. lra.
Qed.
Lemma C54_update_doubles_nonvacuous : exists v nv rate : f64, is_finite v = true /\ is_finite nv = true /\ is_finite rate = true /\ 0 <= B2R rate <= 1 /\ 0 < B2R rate /\ Rabs (B2R v) <= 5 /\ Rabs (B2R nv) <= 5 /\ B2R v <> B2R nv.
Proof.
  assert (K : forall z : Z, (-5 <= z <= 5)%Z -> is (fofZ z) (IZR z)) by (intros z Hz; apply is_ofZ; change (2 ^ 53)%Z with 9007199254740992%Z; lia).
  destruct (K 3%Z ltac:(lia)) as [F3 E3]. destruct (K (-4)%Z ltac:(lia)) as [F4 E4]. destruct (K 1%Z ltac:(lia)) as [F1 E1]. exists (fofZ 3), (fofZ (-4)), (fofZ 1). rewrite E3, E4, E1.
  repeat (split; [first [assumption|lra|apply Rabs_le; lra]|]). lra.
Qed.
