(** * C60 in double precision: Schwefel stays positive on its range. *)
From Coq Require Import ZArith Bool Lia Reals Lra List.
From Flocq Require Import Core BinarySingleNaN.
From Verif Require Import Prelude Flt FltFacts Num Round8 MathTools Objectives Properties_Stats Properties_Schwefel Properties_Boundary2 Properties_Boundary3 Properties_CmaPars2 Properties_CmaWeights2 Properties_Stats2.
#[local] Open Scope R_scope.

(** The sine of the C library, where Schwefel uses it, is accurate to 2^-40. *)
Definition accurate_sine (L : libm) : Prop := forall a : f64, is_finite a = true -> 0 <= B2R a <= 32 -> is_finite (lm_sin L a) = true /\ Rabs (B2R (lm_sin L a) - sin (B2R a)) <= bpow radix2 (-40).

Lemma sin_below t : Rabs (sin t) <= Rabs t.
Proof.
  assert (P : forall y, 0 <= y -> Rabs (sin y) <= y).
  { intros y [H|<-]; [|rewrite sin_0, Rabs_R0; lra]. destruct (Rle_or_lt 1 y) as [G|G]; [apply Rle_trans with 1; [apply Rabs_le, SIN_bound|exact G]|].
    pose proof (sin_lt_x y H). pose proof PI_bounds as HP. assert (0 <= sin y) by (apply sin_ge_0; [lra|]; assert (1 <= PI) by (cbn in HP; lra); lra). rewrite Rabs_pos_eq; lra. }
  destruct (Rle_or_lt 0 t) as [H|H]; [rewrite (Rabs_pos_eq t) by exact H; apply P, H|]. rewrite (Rabs_left1 t) by lra. rewrite <- Rabs_Ropp, <- sin_neg. apply P. lra.
Qed.
Lemma sin_lipschitz a b : Rabs (sin a - sin b) <= Rabs (a - b).
Proof.
  rewrite form4, !Rabs_mult, (Rabs_pos_eq 2) by lra. pose proof (sin_below ((a - b) / 2)) as H. assert (C : Rabs (cos ((a - b) / 2)) <= 1) by (apply Rabs_le, COS_bound). assert (C2 : Rabs (cos ((a + b) / 2)) <= 1) by (apply Rabs_le, COS_bound).
  replace (Rabs (a - b)) with (2 * 1 * Rabs ((a - b) / 2)). - apply Rmult_le_compat; [apply Rmult_le_pos; [lra|apply Rabs_pos]|apply Rabs_pos|lra|exact H]. - unfold Rdiv. rewrite Rabs_mult, (Rabs_pos_eq (/ 2)) by lra. field.
Qed.
Lemma part_close L (x : f64) : accurate_sine L -> is_finite x = true -> Rabs (B2R x) <= 500 ->
  let q := B2R x * sin (sqrt (Rabs (B2R x))) in
  is_finite (fmul x (lm_sin L (fsqrt (fabs x)))) = true /\ Rabs (B2R (fmul x (lm_sin L (fsqrt (fabs x)))) - q) <= 6 / 10 ^ 10 /\ Rabs q <= 500.
Proof.
  intros HS F H q. pose proof u53_nn as U. pose proof eta_small as EB. set (v := B2R x) in *. set (a := Rabs v) in *. pose proof (Rabs_pos v) as A0. fold a in A0.
  assert (IA : is (fabs x) a). { split; [unfold fabs; rewrite is_finite_Babs; exact F|unfold fabs; apply B2R_Babs]. }
  pose proof (is_sqrt _ _ IA A0) as IS. set (t := sqrt a) in *. assert (T : 0 <= t <= 23) by (apply sqrt_between; lra).
  pose proof (rnd_pm t 23 ltac:(rewrite Rabs_pos_eq; lra)) as RT. pose proof (rnd_nn t ltac:(lra)) as RT0. set (s := rnd t) in *. assert (US : u53 * 23 <= 3 / 10 ^ 15) by (unfold u53; lra).
  destruct IS as [FS ES]. destruct (HS (fsqrt (fabs x)) FS ltac:(rewrite ES; lra)) as [FW EW]. rewrite ES in EW. set (w := B2R (lm_sin L (fsqrt (fabs x)))) in *.
  pose proof (sin_lipschitz s t) as LP. assert (DS : Rabs (s - t) <= 4 / 10 ^ 15) by (apply Rabs_le; lra). assert (E40 : bpow radix2 (-40) <= 91 / 10 ^ 14) by (change (bpow radix2 (-40)) with (/ 1099511627776); lra).
  assert (DW : Rabs (w - sin t) <= 95 / 10 ^ 14). { replace (w - sin t) with ((w - sin s) + (sin s - sin t)) by ring. eapply Rle_trans; [apply Rabs_triang|]. lra. }
  assert (SB : Rabs (sin t) <= 1) by (apply Rabs_le, SIN_bound). 
  assert (QB : Rabs q <= 500). { unfold q. rewrite Rabs_mult. fold t a. replace 500 with (500 * 1) by ring. apply Rmult_le_compat; [exact A0|apply Rabs_pos|exact H|exact SB]. }
  assert (XD : Rabs (v * w - q) <= 500 * (95 / 10 ^ 14)). { unfold q. fold a t. replace (v * w - v * sin t) with (v * (w - sin t)) by ring. rewrite Rabs_mult. apply Rmult_le_compat; [apply Rabs_pos|apply Rabs_pos|exact H|exact DW]. }
  assert (XB : Rabs (v * w) <= 501). { replace (v * w) with ((v * w - q) + q) by ring. eapply Rle_trans; [apply Rabs_triang|]. lra. }
  assert (TP : Rabs (v * w) <= top). { eapply Rle_trans; [exact XB|]. apply Rle_trans with (bpow radix2 10); [change (bpow radix2 10) with 1024; lra|apply bpow_le; lia]. }
  pose proof (is_mul _ _ _ _ (is_self x F) (is_self _ FW) TP) as [FM EM]. split; [exact FM|]. split; [|exact QB]. fold v w in EM. rewrite EM. pose proof (rnd_pm _ _ XB) as R. assert (UX : u53 * 501 <= 1 / 10 ^ 13) by (unfold u53; lra).
  apply Rabs_le_inv in XD. apply Rabs_le. lra.
Qed.
Lemma lit_offset : exists l, is (flit 4189829 (-4)) l /\ 418982899999999 / 1000000000000 <= l <= 418982900000001 / 1000000000000.
Proof. apply (is_literal _ 418982899999999 418982900000001 1000000000000); [vm_compute; reflexivity|lia|vm_compute; reflexivity|vm_compute; reflexivity]. Qed.
Lemma schwefel_loop L (v : list f64) : @schwefel (numF L) v = fsub (fmul (flit 4189829 (-4)) (fofZ (Z.of_nat (length v)))) (fold_left fadd (map (fun x => fmul x (lm_sin L (fsqrt (fabs x)))) v) (fofZ 0)).
Proof. exact (f_equal (fsub (fmul (flit 4189829 (-4)) (fofZ (Z.of_nat (length v))))) (fold_fadd (fun x => fmul x (lm_sin L (fsqrt (fabs x)))) v (fofZ 0))). Qed.
Lemma lower_sum n l : Forall (fun x => n <= x) l -> INR (length l) * n <= Rsum l.
Proof. induction 1 as [|x l H _ IH]; [cbn; lra|]. change (length (x :: l)) with (S (length l)). rewrite S_INR. cbn [Rsum fold_right]. fold (Rsum l). lra. Qed.
(** In double precision, with a sine accurate to 2^-40: for every point of 1 to 2^20 coordinates in the documented range the
    computed value is a number, positive, and within 2e-7 per coordinate of the exact one. *)
Theorem C60_schwefel_doubles : forall L (v : list f64), accurate_sine L -> v <> [] -> (Z.of_nat (length v) <= 1048576)%Z ->
  Forall (fun x : f64 => is_finite x = true /\ -500 <= B2R x <= 500) v ->
  is_finite (@schwefel (numF L) v) = true /\ 0 < B2R (@schwefel (numF L) v) /\
  Rabs (B2R (@schwefel (numF L) v) - @schwefel numR (map (fun x : f64 => B2R x) v)) <= INR (length v) * (2 / 10 ^ 7).
Proof.
  intros L v HS HN HL HB. pose proof (schwefel_loop L v) as E. set (r := @schwefel (numF L) v) in *. change (nT (numF L)) with f64 in *. clearbody r. subst r.
  rewrite (schwefel_R (map (fun x : f64 => B2R x) v)). rewrite map_map.
  pose proof u53_nn as U. pose proof eta_small as EB. set (n := INR (length v)).
  assert (NR : 1 <= n <= 1048576). { unfold n. split; [|rewrite INR_IZR_INZ; apply IZR_le; exact HL]. destruct v as [|x l]; [congruence|]. cbn [length]. rewrite S_INR. pose proof (pos_INR (length l)). lra. }
  set (qs := map (fun x : f64 => B2R x * sin (sqrt (Rabs (B2R x)))) v).
  set (C := 501 * n). assert (UC : 2 * u53 * C <= 117 / 10 ^ 9) by (unfold C, u53; lra).
  destruct (signed_sum 500 (6 / 10 ^ 10) C) with (ts := map (fun x => fmul x (lm_sin L (fsqrt (fabs x)))) v) (qs := qs) (s := fofZ 0) (v := 0) (A := 0) (k := 0) as (S & [FS ES] & DS).
  - lra.
  - unfold C. lra.
  - unfold C. apply Rle_trans with (bpow radix2 30); [change (bpow radix2 30) with 1073741824; lra|apply bpow_le; lia].
  - apply Forall2_map_both. eapply Forall_impl; [|exact HB]. intros x [F H]. apply part_close; [exact HS|exact F|apply Rabs_le; lra].
  - exact is_zero.
  - lra.
  - rewrite Rminus_0_r, Rabs_R0. lra.
  - rewrite Rabs_R0. lra.
  - rewrite map_length. fold n. unfold C. lra.
  - rewrite map_length. fold n. rewrite Rplus_0_l. unfold C at 2. rewrite (Rmult_comm 501). apply Rmult_le_compat_l; lra.
  - lra.
  - rewrite map_length in DS. fold n in DS. rewrite !Rplus_0_l in DS. set (q := Rsum qs) in *.
    assert (DS2 : Rabs (S - q) <= n * (1176 / 10 ^ 10)) by (eapply Rle_trans; [exact DS|]; apply Rmult_le_compat_l; lra). clear DS.
    assert (TT : Rsum (map (fun x : f64 => term (B2R x)) v) = 4189829 / 10 ^ 4 * n - q). { unfold q, qs, n. clear. induction v as [|x l IH]; [cbn; lra|]. change (length (x :: l)) with (Datatypes.S (length l)). rewrite S_INR. cbn [map Rsum fold_right]. fold (Rsum (map (fun x : f64 => term (B2R x)) l)) (Rsum (map (fun x : f64 => B2R x * sin (sqrt (Rabs (B2R x)))) l)). rewrite IH. unfold term. ring. }
    assert (LB : n * (1 / 10 ^ 6) <= Rsum (map (fun x : f64 => term (B2R x)) v)). { unfold n. rewrite <- (map_length (fun x : f64 => term (B2R x)) v). apply lower_sum. apply Forall_map. eapply Forall_impl; [|exact HB]. intros x [_ H]. apply term_spec. exact H. }
    rewrite TT in *. clear TT. assert (QB : Rabs q <= n * 500). { unfold q, n. rewrite <- (map_length (fun x : f64 => B2R x * sin (sqrt (Rabs (B2R x)))) v). fold qs. assert (HQ : Forall (fun y => Rabs y <= 500) qs). { unfold qs. apply Forall_map. eapply Forall_impl; [|exact HB]. intros x [F H]. apply (part_close L x HS F). apply Rabs_le; lra. }
      clear - HQ. induction HQ as [|y l H _ IH]; [cbn; rewrite Rabs_R0; lra|]. change (length (y :: l)) with (Datatypes.S (length l)). rewrite S_INR. cbn [Rsum fold_right]. fold (Rsum l). eapply Rle_trans; [apply Rabs_triang|]. lra. }
    destruct lit_offset as (l & Hl & Rl). generalize dependent (flit 4189829 (-4)). intros lit Hl.
    assert (NI : is (fofZ (Z.of_nat (length v))) n). { unfold n. rewrite INR_IZR_INZ. apply is_ofZ. rewrite Z.abs_eq by lia. change (2 ^ 53)%Z with 9007199254740992%Z. lia. }
    assert (L1 : l * n <= 418982900000001 / 1000000000000 * n) by (apply Rmult_le_compat_r; lra). assert (L2 : 418982899999999 / 1000000000000 * n <= l * n) by (apply Rmult_le_compat_r; lra).
    assert (TOP : forall y, Rabs y <= 1000 * n -> Rabs y <= top). { intros y Hy. eapply Rle_trans; [exact Hy|]. apply Rle_trans with (bpow radix2 30); [change (bpow radix2 30) with 1073741824; lra|apply bpow_le; lia]. }
    assert (PB : Rabs (l * n) <= 420 * n) by (rewrite Rabs_pos_eq; lra). pose proof (is_mul _ _ _ _ Hl NI (TOP (l * n) ltac:(lra))) as IP. pose proof (rnd_pm _ _ PB) as RP. set (P := rnd (l * n)) in *.
    assert (UN : u53 * n <= 12 / 10 ^ 17 * n) by (apply Rmult_le_compat_r; [lra|unfold u53; lra]). replace (u53 * (420 * n)) with (420 * (u53 * n)) in RP by ring.
    apply Rabs_le_inv in DS2. apply Rabs_le_inv in QB. assert (DB : Rabs (P - S) <= 1000 * n) by (apply Rabs_le; lra).
    pose proof (is_sub _ _ _ _ IP (conj FS ES) (TOP (P - S) DB)) as [FD ED]. pose proof (rnd_pm _ _ DB) as RD. replace (u53 * (1000 * n)) with (1000 * (u53 * n)) in RD by ring. split; [exact FD|]. rewrite ED. set (y := rnd (P - S)) in *. clearbody y P.
    split; [|apply Rabs_le]; lra.
Qed.
Definition rounded_sine : libm := {| lm_log := fun x => x; lm_exp := fun x => x; lm_sin := fun x => to_double (sin (B2R x)); lm_cos := fun x => x |}.
Lemma C60_doubles_nonvacuous : accurate_sine rounded_sine /\ exists v : list f64, length v = 2%nat /\ Forall (fun x : f64 => is_finite x = true /\ -500 <= B2R x <= 500) v.
Proof.
  split.
  - intros a F H. cbn [rounded_sine lm_sin]. assert (B : Rabs (sin (B2R a)) <= 1) by (apply Rabs_le, SIN_bound). destruct (to_double_is (sin (B2R a))) as [FF E]; [eapply Rle_trans; [exact B|]; change 1 with (bpow radix2 0); apply bpow_le; lia|]. split; [exact FF|]. rewrite E. pose proof (rnd_pm _ _ B) as R. pose proof eta_small as EB.
    change (bpow radix2 (-40)) with (/ 1099511627776). unfold u53 in R. apply Rabs_le. lra.
  - assert (K : forall z : Z, (-500 <= z <= 500)%Z -> is_finite (fofZ z) = true /\ -500 <= B2R (fofZ z) <= 500).
    { intros z Hz. destruct (is_ofZ z) as [F E]; [change (2 ^ 53)%Z with 9007199254740992%Z; lia|]. split; [exact F|]. rewrite E. split; apply IZR_le; lia. }
    exists [fofZ 421; fofZ (-300)]. split; [reflexivity|]. constructor; [apply K; lia|constructor; [apply K; lia|constructor]].
Qed.
(** So, up to 5000 coordinates, a computed value of at most 0.009 is only found near the documented optimum. *)
Theorem C60_near_zero_doubles : forall L (v : list f64), accurate_sine L -> v <> [] -> (Z.of_nat (length v) <= 5000)%Z ->
  Forall (fun x : f64 => is_finite x = true /\ -500 <= B2R x <= 500) v -> B2R (@schwefel (numF L) v) <= 9 / 1000 ->
  Forall (fun x : f64 => Rabs (B2R x - 4209678 / 10 ^ 4) <= 1 / 2) v.
Proof.
  intros L v HS HN HL HB HV. destruct (C60_schwefel_doubles L v HS HN ltac:(lia) HB) as (_ & _ & D).
  assert (N : INR (length v) <= 5000) by (rewrite INR_IZR_INZ; apply IZR_le; exact HL). set (n := INR (length v)) in *. set (r := B2R (@schwefel (numF L) v)) in *.
  destruct C60_schwefel as (_ & _ & _ & G). specialize (G (map (fun x : f64 => B2R x) v)). set (q := @schwefel numR (map (fun x : f64 => B2R x) v)) in *. change (nT numR) with R in *. clearbody n r q. apply Rabs_le_inv in D.
  assert (H1 : Forall (fun x => -500 <= x <= 500) (map (fun x : f64 => B2R x) v)). { apply Forall_map. eapply Forall_impl; [|exact HB]. intros x [_ H]. exact H. }
  specialize (G H1 ltac:(lra)). apply Forall_map in G. exact G.
Qed.
