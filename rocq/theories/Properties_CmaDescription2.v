(** * C46 in double precision: how far the mean can leave the bounds. *)
From Coq Require Import ZArith Bool Lia Reals Lra Permutation.
From Flocq Require Import Core BinarySingleNaN.
From Verif Require Import Prelude Flt FltFacts Round8 FlatMap ParInfo ObjInfo Num MathTools Boundary Properties_Boundary MesF Cma CmaFacts CmaRandom CmaF Optimizer Driver Properties_Cma Properties_Cma2 Properties_Optimizer4 Properties_ES2 Properties_ES4 Properties_Cma3 Properties_CmaDescription Properties_Boundary2.
#[local] Open Scope R_scope.

Lemma u53_pos : 0 < u53. Proof. unfold u53. lra. Qed.
Lemma eta_u53 : eta <= u53 / 1000000000.
Proof. pose proof eta_small. unfold u53. lra. Qed.
(** ** Adding up positive doubles *)
Definition Rsum (l : list R) : R := fold_right Rplus 0 l.
Lemma bp60 : bpow radix2 60 = 1152921504606846976.
Proof. reflexivity. Qed.
Lemma small_top v : Rabs v <= bpow radix2 900 -> Rabs v <= bpow radix2 1000.
Proof. intros H. eapply Rle_trans; [exact H|]. apply bpow_le. lia. Qed.
Lemma sum_near (raw : list f64) : forall (s : f64) v A (k : R),
  is s v -> 0 <= A -> 0 <= k -> Rabs (v - A) <= 2 * k * u53 * A -> Forall (fun r => is_finite r = true /\ 0 < B2R r) raw ->
  k + INR (length raw) <= 1048576 -> A + Rsum (map B2R raw) <= bpow radix2 60 ->
  exists v', is (fold_left fadd raw s) v' /\ Rabs (v' - (A + Rsum (map B2R raw))) <= 2 * (k + INR (length raw)) * u53 * (A + Rsum (map B2R raw)).
Proof.
  induction raw as [|r t IH]; intros s v A k Hs HA Hk HE HP HK HT; cbn [fold_left map Rsum fold_right].
  - exists v. split; [exact Hs|]. cbn [length INR]. rewrite !Rplus_0_r. exact HE.
  - apply Forall_cons_iff in HP as [[Fr Pr] HP]. fold (Rsum (map B2R t)). cbn [map Rsum fold_right] in HT. fold (Rsum (map B2R t)) in HT.
    assert (T0 : 0 <= Rsum (map B2R t)). { clear - HP. induction HP as [|x l [_ Hx] _ IH]; cbn; [lra|]. unfold Rsum in IH. lra. }
    change (length (r :: t)) with (S (length t)) in *. rewrite S_INR in *. pose proof (pos_INR (length t)) as L0.
    set (x := B2R r) in *. set (St := Rsum (map B2R t)) in *. clearbody St.
    assert (U := u53_pos). assert (KU : 2 * k * u53 <= 1 / 1000). { unfold u53. lra. }
    assert (KU0 : 0 <= 2 * k * u53) by (apply Rmult_le_pos; lra).
    assert (E1 : Rabs (v - A) <= 1 / 1000 * A) by (eapply Rle_trans; [exact HE|]; apply Rmult_le_compat_r; assumption).
    apply Rabs_le_inv in E1. rewrite bp60 in *.
    assert (HV : Rabs (v + x) <= 2 * (A + x)) by (apply Rabs_le; lra).
    destruct (IH (fadd s r) (rnd (v + x)) (A + x) (k + 1)) as (v' & H1 & H2).
    + apply is_add; [exact Hs|apply is_self; exact Fr|]. apply small_top. eapply Rle_trans; [exact HV|]. apply Rle_trans with (bpow radix2 62); [change (bpow radix2 62) with (4611686018427387904); lra|apply bpow_le; lia].
    + lra.
    + lra.
    + pose proof (rnd_plus_rel v x (is_fmt _ _ Hs) (is_fmt _ _ (is_self r Fr))) as R1.
      replace (rnd (v + x) - (A + x)) with ((rnd (v + x) - (v + x)) + (v - A)) by ring. eapply Rle_trans; [apply Rabs_triang|].
      assert (R2 : u53 * Rabs (v + x) <= u53 * (2 * (A + x))) by (apply Rmult_le_compat_l; lra).
      assert (R3 : 2 * k * u53 * A <= 2 * k * u53 * (A + x)) by (apply Rmult_le_compat_l; lra).
      replace (2 * (k + 1) * u53 * (A + x)) with (u53 * (2 * (A + x)) + 2 * k * u53 * (A + x)) by ring. lra.
    + exact HP.
    + lra.
    + lra.
    + exists v'. split; [exact H1|]. replace (A + (x + St)) with (A + x + St) by ring. replace (k + (INR (length t) + 1)) with (k + 1 + INR (length t)) by ring. exact H2.
Qed.
(** ** Weighted sums of doubles *)
(** [q] are the exact weights, [w] the computed ones. *)
Lemma dot_near (M d : R) : 0 <= M <= bpow radix2 400 -> 0 <= d <= 1 / 1000 -> forall (l : list (f64 * f64)) (qs : list R) (s : f64) v C Q E,
  is s v -> Rabs (v - C) <= E -> Rabs C <= Q * M -> 0 <= Q -> Forall2 (fun p q => is_finite (fst p) = true /\ is_finite (snd p) = true /\ 0 <= q /\ Rabs (B2R (fst p) - q) <= d * q + eta /\ Rabs (B2R (snd p)) <= M) l qs ->
  Q + Rsum qs <= 1 + 1 / 1000 -> 0 <= E -> E + (d + 2 * u53) * (1 + M) * Rsum qs + 4 * u53 * (1 + M) * INR (length l) <= 1 + M ->
  exists v', is (fold_left (fun s p => fadd s (fmul (fst p) (snd p))) l s) v' /\
    Rabs (v' - (C + Rsum (map (fun pq => snd pq * B2R (snd (fst pq))) (combine l qs)))) <= E + (d + 2 * u53) * (1 + M) * Rsum qs + 4 * u53 * (1 + M) * INR (length l).
Proof.
  intros HM Hd. induction l as [|[w x] t IH]; intros qs s v C Q E Hs HE HC HQ0 HF HQ HE0 HT; inversion HF as [|p q l' qs' (F1 & F2 & Q0 & W & X) HF']; subst; cbn [fst snd] in *.
  - cbn. exists v. split; [exact Hs|]. rewrite !Rmult_0_r, !Rplus_0_r. exact HE.
  - cbn [fold_left combine map Rsum fold_right fst snd] in *. fold (Rsum qs'). fold (Rsum qs') in HQ, HT. fold (Rsum (map (fun pq : f64 * f64 * R => snd pq * B2R (snd (fst pq))) (combine t qs'))).
    change (length ((w, x) :: t)) with (S (length t)) in *. rewrite S_INR in *. pose proof (pos_INR (length t)) as L0.
    assert (U := u53_pos). pose proof eta_small as ET. pose proof eta_u53 as EU. assert (UV : u53 <= / 1000000000000000) by (unfold u53; lra).
    assert (S0 : 0 <= Rsum qs'). { clear - HF'. induction HF' as [|p q l qs (_ & _ & H & _) _ IH]; cbn; [lra|]. unfold Rsum in IH. lra. }
    set (wv := B2R w) in *. set (xv := B2R x) in *. 
    assert (DQ : 0 <= d * q) by (apply Rmult_le_pos; lra). assert (DQ1 : d * q <= q / 1000) by (pose proof (Rmult_le_compat_r q d (1/1000) Q0 (proj2 Hd)); lra).
    assert (HW : Rabs wv <= 2 * q + eta). { apply Rabs_le_inv in W. apply Rabs_le. lra. }
    assert (P1 : Rabs (wv * xv) <= (2 * q + eta) * M) by (rewrite Rabs_mult; apply Rmult_le_compat; try apply Rabs_pos; assumption).
    assert (QM : 0 <= q * M) by (apply Rmult_le_pos; lra). assert (EM : 0 <= eta * M) by (apply Rmult_le_pos; lra).
    assert (EM1 : eta * M <= u53 / 1000000000 * M) by (apply Rmult_le_compat_r; lra).
    assert (q1 : q <= 2) by lra. assert (QM2 : q * M <= 2 * M) by (apply Rmult_le_compat_r; lra).
    assert (UM : 0 <= u53 * M) by (apply Rmult_le_pos; lra).
    assert (UM1 : u53 * M <= M / 1000000000000000) by (pose proof (Rmult_le_compat_r M u53 _ (proj1 HM) UV); lra).
    assert (B400 : M + 1 <= bpow radix2 401). { change 401%Z with (400 + 1)%Z. rewrite bpow_plus. change (bpow radix2 1) with 2. assert (1 <= bpow radix2 400) by (change 1 with (bpow radix2 0); apply bpow_le; lia). lra. }
    assert (BB : 8 * bpow radix2 401 <= bpow radix2 900). { change 8 with (bpow radix2 3). rewrite <- bpow_plus. apply bpow_le. lia. }
    assert (IsP : is (fmul w x) (rnd (wv * xv))) by (apply is_mul; [apply is_self; exact F1|apply is_self; exact F2|]; apply small_top; lra).
    assert (PE : Rabs (rnd (wv * xv) - q * xv) <= d * q * M + 2 * u53 * (q * M) + 2 * eta * (1 + M)).
    { replace (rnd (wv * xv) - q * xv) with ((rnd (wv * xv) - wv * xv) + (wv - q) * xv) by ring. eapply Rle_trans; [apply Rabs_triang|].
      assert (A1 : Rabs ((wv - q) * xv) <= (d * q + eta) * M) by (rewrite Rabs_mult; apply Rmult_le_compat; try apply Rabs_pos; assumption).
      pose proof (rnd_err (wv * xv)) as A2. assert (A3 : u53 * Rabs (wv * xv) <= u53 * ((2 * q + eta) * M)) by (apply Rmult_le_compat_l; lra).
      assert (A4 : u53 * (eta * M) <= eta * M) by (rewrite <- (Rmult_1_l (eta * M)) at 2; apply Rmult_le_compat_r; lra).
      replace (u53 * ((2 * q + eta) * M)) with (2 * u53 * (q * M) + u53 * (eta * M)) in A3 by ring. replace ((d * q + eta) * M) with (d * q * M + eta * M) in A1 by ring. lra. }
    assert (DM : 0 <= d * q * M) by (apply Rmult_le_pos; lra). assert (DM1 : d * q * M <= q / 1000 * M) by (apply Rmult_le_compat_r; lra).
    assert (UQ : 0 <= u53 * (q * M)) by (apply Rmult_le_pos; lra). assert (UQ1 : u53 * (q * M) <= 2 * (u53 * M)) by (pose proof (Rmult_le_compat_l u53 _ _ (Rlt_le _ _ U) QM2); lra).
    assert (CE : Rabs (C + q * xv) <= (Q + q) * M).
    { eapply Rle_trans; [apply Rabs_triang|]. rewrite Rabs_mult, (Rabs_pos_eq q Q0). pose proof (Rmult_le_compat_l q _ _ Q0 X). lra. }
    assert (QQ : (Q + q) * M <= (1 + 1 / 1000) * M) by (apply Rmult_le_compat_r; lra).
    assert (E1 : E <= 1 + M).
    { assert (0 <= (d + 2 * u53) * (1 + M) * (q + Rsum qs')) by (apply Rmult_le_pos; [apply Rmult_le_pos; lra|lra]). assert (0 <= 4 * u53 * (1 + M) * (INR (length t) + 1)) by (apply Rmult_le_pos; [apply Rmult_le_pos; lra|lra]). lra. }
    set (p := rnd (wv * xv)) in *.
    assert (VP : Rabs (v + p - (C + q * xv)) <= E + (d * q * M + 2 * u53 * (q * M) + 2 * eta * (1 + M))).
    { replace (v + p - (C + q * xv)) with ((v - C) + (p - q * xv)) by ring. eapply Rle_trans; [apply Rabs_triang|]. lra. }
    assert (EE : 2 * eta * (1 + M) <= u53 * (1 + M)) by (apply Rmult_le_compat_r; lra).
    assert (UM2 : u53 * (1 + M) = u53 + u53 * M) by ring.
    assert (VB : Rabs (v + p) <= 3 * (1 + M)).
    { pose proof (Rabs_le_inv _ _ VP) as V1. pose proof (Rabs_le_inv _ _ CE) as V2. apply Rabs_le. lra. }
    pose proof (rnd_plus_rel v p (is_fmt _ _ Hs) (is_fmt _ _ IsP)) as RP.
    assert (RP1 : u53 * Rabs (v + p) <= u53 * (3 * (1 + M))) by (apply Rmult_le_compat_l; lra).
    set (E' := E + (d + 2 * u53) * (1 + M) * q + 4 * u53 * (1 + M)).
    assert (EQ : (d + 2 * u53) * (1 + M) * q = d * q + d * q * M + 2 * u53 * q + 2 * u53 * (q * M)) by ring.
    assert (UQ0 : 0 <= u53 * q) by (apply Rmult_le_pos; lra).
    destruct (IH qs' (fadd s (fmul w x)) (rnd (v + p)) (C + q * xv) (Q + q) E') as (v' & V1 & V2).
    + apply is_add; [exact Hs|exact IsP|]. apply small_top. lra.
    + replace (rnd (v + p) - (C + q * xv)) with ((rnd (v + p) - (v + p)) + (v + p - (C + q * xv))) by ring. eapply Rle_trans; [apply Rabs_triang|]. unfold E'. rewrite EQ. lra.
    + exact CE.
    + lra.
    + exact HF'.
    + lra.
    + unfold E'. rewrite EQ. lra.
    + eapply Rle_trans; [|exact HT]. unfold E'. right. ring.
    + exists v'. split; [exact V1|].
      change (Rabs (v' - (C + (q * xv + Rsum (map (fun pq : f64 * f64 * R => snd pq * B2R (snd (fst pq))) (combine t qs'))))) <= E + (d + 2 * u53) * (1 + M) * (q + Rsum qs') + 4 * u53 * (1 + M) * (INR (length t) + 1)).
      rewrite <- Rplus_assoc. eapply Rle_trans; [exact V2|]. unfold E'. right. ring.
Qed.
(** ** The weights *)
(** A logarithm that increases from integer to integer, as far as mu can be. *)
Definition log_increases (L : libm) : Prop := forall (x y : f64) (i j : Z), (1 <= i < j)%Z -> (j <= 2097152)%Z -> is x (IZR i) -> is y (IZR j) ->
  exists v w, is (lm_log L x) v /\ is (lm_log L y) w /\ v < w /\ Rabs v <= 4194304 /\ Rabs w <= 4194304.
Lemma int_plus_one n : (Z.of_nat n <= 1048576)%Z -> is (fadd (fofZ (Z.of_nat n)) (fofZ 1)) (IZR (Z.of_nat n + 1)).
Proof.
  intros H. assert (E : rnd (IZR (Z.of_nat n) + IZR 1) = IZR (Z.of_nat n + 1)).
  { rewrite <- plus_IZR. apply rnd_id. apply (is_fmt (fofZ (Z.of_nat n + 1))). apply is_ofZ. lia. }
  rewrite <- E. apply is_add; [apply is_ofZ; lia|apply is_ofZ; lia|]. rewrite <- plus_IZR, <- abs_IZR. apply Rle_trans with (IZR 2097152); [apply IZR_le; lia|]. change 2097152%Z with (2 ^ 21)%Z. change (IZR (2 ^ 21)) with (bpow radix2 21). apply bpow_le. lia.
Qed.
Lemma raw_weights_ok (L : libm) mu : log_increases L -> (Z.of_nat mu <= 1048576)%Z ->
  Forall (fun r : f64 => is_finite r = true /\ 0 < B2R r /\ B2R r <= 16777216) (@raw_weights (numF L) mu).
Proof.
  intros HL Hm. unfold raw_weights, build. apply Forall_forall. intros r Hr. apply in_map_iff in Hr as (i & <- & Hi). apply in_seq in Hi.
  change (@nsub (numF L)) with fsub. change (@nlog (numF L)) with (lm_log L). unfold of_nat. change (@nadd (numF L)) with fadd. change (@nofZ (numF L)) with fofZ.
  destruct (HL (fadd (fofZ (Z.of_nat i)) (fofZ 1)) (fadd (fofZ (Z.of_nat mu)) (fofZ 1)) (Z.of_nat i + 1)%Z (Z.of_nat mu + 1)%Z) as (v & w & Hv & Hw & Hlt & Bv & Bw); [lia|lia|apply int_plus_one; lia|apply int_plus_one; lia|].
  assert (B : Rabs (w - v) <= 8388608) by (apply Rabs_le_inv in Bv; apply Rabs_le_inv in Bw; apply Rabs_le; lra).
  destruct (is_sub _ _ _ _ Hw Hv) as [F E]; [eapply Rle_trans; [exact B|]; change 8388608 with (bpow radix2 23); apply bpow_le; lia|].
  pose proof (rnd_plus_rel w (- v) (is_fmt _ _ Hw) (fmt_opp _ (is_fmt _ _ Hv))) as R. change (w + - v) with (w - v) in R. rewrite (Rabs_pos_eq (w - v)) in R by lra. rewrite Rabs_pos_eq in B by lra.
  assert (U : u53 * (w - v) <= / 2 * (w - v)) by (apply Rmult_le_compat_r; [lra|unfold u53; lra]). apply Rabs_le_inv in R.
  split; [exact F|]. rewrite E. lra.
Qed.
Lemma sum_fold (L : libm) (w : list f64) : @sum_ (numF L) (length w) (fun i => @at_ (numF L) w i) = fold_left fadd w (fofZ 0).
Proof.
  unfold sum_. change (@nofZ (numF L) 0) with (fofZ 0). change (@nadd (numF L)) with fadd.
  assert (G : forall (w pre : list f64) s, fold_left (fun s j => fadd s (@at_ (numF L) (pre ++ w) j)) (seq (length pre) (length w)) s = fold_left fadd w s).
  { clear. induction w as [|x t IH]; intros pre s; [reflexivity|]. cbn [length seq fold_left].
    assert (E : @at_ (numF L) (pre ++ x :: t) (length pre) = x) by (unfold at_; rewrite app_nth2 by lia; rewrite Nat.sub_diag; reflexivity). rewrite E.
    specialize (IH (pre ++ [x]) (fadd s x)). rewrite <- app_assoc in IH. cbn [app] in IH. rewrite app_length in IH. cbn [length] in IH. replace (length pre + 1)%nat with (S (length pre)) in IH by lia. exact IH. }
  exact (G w [] (fofZ 0)).
Qed.
(** The exact weights. *)
Definition exact_weights (L : libm) (mu : nat) : list R := let raw := map (fun r : f64 => B2R r) (@raw_weights (numF L) mu) in map (fun r => r / Rsum raw) raw.
Lemma Rsum_scale l c : Rsum (map (fun r => r / c) l) = Rsum l / c.
Proof. induction l as [|x t IH]; cbn; [unfold Rdiv; ring|]. unfold Rsum in IH. rewrite IH. unfold Rdiv. ring. Qed.
Lemma raw_length (L : libm) mu : length (@raw_weights (numF L) mu) = mu.
Proof. apply build_length. Qed.
Lemma Rsum_bounds (l : list f64) c : Forall (fun r : f64 => is_finite r = true /\ 0 < B2R r /\ B2R r <= c) l -> 0 <= Rsum (map (fun r : f64 => B2R r) l) <= c * INR (length l) /\ (l <> [] -> 0 < Rsum (map (fun r : f64 => B2R r) l)).
Proof.
  induction 1 as [|r t (_ & H1 & H2) _ [IH _]]; [cbn; split; [lra|congruence]|]. change (length (r :: t)) with (S (length t)). rewrite S_INR. cbn [map Rsum fold_right]. fold (Rsum (map (fun r : f64 => B2R r) t)). split; [|intros _]; lra.
Qed.
Lemma weights_near (L : libm) mu : log_increases L -> (1 <= mu)%nat -> (Z.of_nat mu <= 1048576)%Z ->
  Forall2 (fun (w : f64) q => is_finite w = true /\ 0 <= q /\ Rabs (B2R w - q) <= 6 * INR mu * u53 * q + eta) (fst (@set_weights (numF L) mu)) (exact_weights L mu) /\ Rsum (exact_weights L mu) = 1.
Proof.
  intros HL Hm0 Hm. pose proof (raw_weights_ok L mu HL Hm) as HR. pose proof (raw_length L mu) as HN. unfold set_weights. cbn [fst]. unfold exact_weights.
  pose proof (sum_fold L (@raw_weights (numF L) mu)) as ES. change (@sum_ (numF L) (length (@raw_weights (numF L) mu)) (fun i => @at_ (numF L) (@raw_weights (numF L) mu) i) = fold_left fadd (@raw_weights (numF L) mu) (fofZ 0)) in ES. rewrite (raw_length L mu) in ES. rewrite ES. clear ES. change (nT (numF L)) with f64 in *. set (raw := @raw_weights (numF L) mu : list f64) in *. clearbody raw.
  destruct (Rsum_bounds raw 16777216 HR) as ([S0 S1] & S2). specialize (S2 ltac:(intros ->; cbn in HN; lia)). set (T := Rsum (map (fun r : f64 => B2R r) raw)) in *.
  assert (MU : 1 <= INR mu <= 1048576). { split; [change 1 with (INR 1); apply le_INR; lia|]. rewrite INR_IZR_INZ. apply IZR_le. exact Hm. }
  destruct (sum_near raw (fofZ 0) 0 0 0) as (v & Hv & Ev).
  - apply is_ofZ. cbn. lia.
  - lra.
  - lra.
  - rewrite Rminus_0_r, Rabs_R0. lra.
  - eapply Forall_impl; [|exact HR]. cbv beta. tauto.
  - rewrite HN. lra.
  - rewrite bp60. rewrite Rplus_0_l. unfold T in S1. rewrite HN in S1. eapply Rle_trans; [exact S1|]. lra.
  - rewrite !Rplus_0_l in Ev. rewrite HN in Ev. change (Rsum (map B2R raw)) with T in Ev. split.
    2:{ rewrite Rsum_scale. fold T. field. lra. }
    assert (U := u53_pos). assert (MU0 : 0 <= 2 * INR mu * u53) by (apply Rmult_le_pos; lra). assert (MUB : 2 * INR mu * u53 <= / 1000) by (unfold u53; lra).
    assert (VT : 2 * INR mu * u53 * T <= / 1000 * T) by (apply Rmult_le_compat_r; lra). pose proof (Rabs_le_inv _ _ Ev) as EV. assert (V0 : T / 2 <= v) by lra.
    assert (HG : forall l, Forall (fun r : f64 => is_finite r = true /\ 0 < B2R r /\ B2R r <= 16777216) l -> Forall (fun r : f64 => B2R r <= T) l ->
      Forall2 (fun (w : f64) q => is_finite w = true /\ 0 <= q /\ Rabs (B2R w - q) <= 6 * INR mu * u53 * q + eta) (map (fun x : f64 => fdiv x (fold_left fadd raw (fofZ 0))) l) (map (fun r => r / T) (map (fun r : f64 => B2R r) l))).
    { induction 1 as [|r l (F & P1 & P2) _ IH]; intros HT; cbn [map]; constructor; [|apply IH; now apply Forall_inv_tail in HT]. apply Forall_inv in HT. clear IH. set (x := B2R r) in *.
      assert (Q0 : 0 <= x / T) by (apply Rlt_le, Rdiv_lt_0_compat; lra). assert (Q1 : x / T <= 1) by (apply (Rmult_le_reg_r T); [lra|]; unfold Rdiv; rewrite Rmult_assoc, Rinv_l by lra; lra).
      assert (D : Rabs (x / v - x / T) <= 4 * INR mu * u53 * (x / T)).
      { replace (x / v - x / T) with ((x / T) * ((T - v) / v)) by (field; lra). rewrite Rabs_mult, (Rabs_pos_eq _ Q0). rewrite (Rmult_comm (4 * INR mu * u53)). apply Rmult_le_compat_l; [exact Q0|].
        unfold Rdiv. rewrite Rabs_mult, Rabs_minus_sym. rewrite (Rabs_pos_eq (/ v)) by (apply Rlt_le, Rinv_0_lt_compat; lra). apply (Rmult_le_reg_r v); [lra|]. rewrite Rmult_assoc, Rinv_l by lra. rewrite Rmult_1_r.
        eapply Rle_trans; [exact Ev|]. replace (2 * INR mu * u53 * T) with (4 * INR mu * u53 * (T / 2)) by field. apply Rmult_le_compat_l; lra. }
      assert (D1 : 4 * INR mu * u53 * (x / T) <= 1 / 500 * (x / T)) by (apply Rmult_le_compat_r; lra). pose proof (Rabs_le_inv _ _ D) as D2.
      assert (XV : Rabs (x / v) <= 2 * (x / T)) by (apply Rabs_le; lra).
      destruct (is_div r (fold_left fadd raw (fofZ 0)) x v (is_self r F) Hv ltac:(lra)) as [FD ED].
      { eapply Rle_trans; [exact XV|]. apply Rle_trans with 2; [lra|]. change 2 with (bpow radix2 1). apply bpow_le. lia. }
      split; [exact FD|]. split; [exact Q0|]. rewrite ED. replace (rnd (x / v) - x / T) with ((rnd (x / v) - x / v) + (x / v - x / T)) by ring. eapply Rle_trans; [apply Rabs_triang|].
      pose proof (rnd_err (x / v)) as RE. assert (RE1 : u53 * Rabs (x / v) <= u53 * (2 * (x / T))) by (apply Rmult_le_compat_l; lra).
      assert (XU : 0 <= u53 * (x / T)) by (apply Rmult_le_pos; lra).
      assert (M1 : 2 * u53 * (x / T) <= 2 * INR mu * u53 * (x / T)). { replace (2 * u53 * (x / T)) with (1 * (2 * (u53 * (x / T)))) by ring. replace (2 * INR mu * u53 * (x / T)) with (INR mu * (2 * (u53 * (x / T)))) by ring. apply Rmult_le_compat_r; lra. }
      replace (6 * INR mu * u53 * (x / T)) with (2 * INR mu * u53 * (x / T) + 4 * INR mu * u53 * (x / T)) by ring. lra. }
    apply HG; [exact HR|]. apply Forall_forall. intros r Hr. unfold T. clear - HR Hr. induction HR as [|y l (_ & Py & _) HR IH]; [destruct Hr|]. cbn [map Rsum fold_right]. fold (Rsum (map (fun r : f64 => B2R r) l)).
    assert (0 <= Rsum (map (fun r : f64 => B2R r) l)) by (apply (Rsum_bounds l 16777216 HR)). destruct Hr as [->|Hr]; [lra|]. specialize (IH Hr). lra.
Qed.
(** ** The mean *)
Definition slack (mu : nat) (lb ub : R) : R := INR mu * bpow radix2 (-49) * (1 + Rmax (Rabs lb) (Rabs ub)).
Lemma convex_within lb ub : forall (l : list (f64 * f64)) qs, Forall (fun p : f64 * f64 => lb <= B2R (snd p) <= ub) l -> Forall (fun q => 0 <= q) qs -> length l = length qs ->
  lb * Rsum qs <= Rsum (map (fun pq : f64 * f64 * R => snd pq * B2R (snd (fst pq))) (combine l qs)) <= ub * Rsum qs.
Proof.
  induction l as [|p t IH]; intros [|q qs] HX HQ HL; try discriminate HL; cbn [combine map Rsum fold_right]; [cbn; lra|].
  apply Forall_cons_iff in HX as [X HX]. apply Forall_cons_iff in HQ as [Q0 HQ]. specialize (IH qs HX HQ ltac:(cbn in HL; lia)). fold (Rsum qs). fold (Rsum (map (fun pq : f64 * f64 * R => snd pq * B2R (snd (fst pq))) (combine t qs))). cbn [fst snd].
  pose proof (Rmult_le_compat_l q _ _ Q0 (proj1 X)). pose proof (Rmult_le_compat_l q _ _ Q0 (proj2 X)). lra.
Qed.
Lemma mean_near (L : libm) mu (xs : list f64) lb ub : log_increases L -> (1 <= mu)%nat -> (Z.of_nat mu <= 1048576)%Z -> length xs = mu ->
  Rabs lb <= bpow radix2 400 -> Rabs ub <= bpow radix2 400 -> Forall (fun x => is_finite x = true /\ lb <= B2R x <= ub) xs ->
  let m := fold_left (fun s p => fadd s (fmul (fst p) (snd p))) (combine (fst (@set_weights (numF L) mu)) xs) (fofZ 0) in
  is_finite m = true /\ lb - slack mu lb ub <= B2R m <= ub + slack mu lb ub.
Proof.
  intros HL Hm0 Hm HX Blb Bub HF m. destruct (weights_near L mu HL Hm0 Hm) as (HW & HS). set (ws := fst (@set_weights (numF L) mu) : list f64) in *. set (qs := exact_weights L mu) in *.
  assert (LW : length ws = mu) by (unfold ws, set_weights; cbn [fst]; rewrite map_length; apply raw_length). assert (LQ : length qs = mu) by (unfold qs, exact_weights; rewrite !map_length; apply raw_length).
  clearbody ws qs. set (M := Rmax (Rabs lb) (Rabs ub)) in *. assert (M0 : 0 <= M <= bpow radix2 400) by (unfold M; split; [eapply Rle_trans; [apply Rabs_pos|apply Rmax_l]|apply Rmax_lub; assumption]).
  assert (MU : 1 <= INR mu <= 1048576) by (split; [change 1 with (INR 1); apply le_INR; lia|rewrite INR_IZR_INZ; apply IZR_le; exact Hm]).
  assert (U := u53_pos). assert (D : 0 <= 6 * INR mu * u53 <= 1 / 1000) by (split; [apply Rmult_le_pos; lra|unfold u53; lra]).
  assert (HP : Forall2 (fun p q => is_finite (fst p) = true /\ is_finite (snd p) = true /\ 0 <= q /\ Rabs (B2R (fst p) - q) <= 6 * INR mu * u53 * q + eta /\ Rabs (B2R (snd p)) <= M) (combine ws xs) qs).
  { assert (LE : length xs = length ws) by lia. clear LW LQ HS HX m. revert xs HF LE. induction HW as [|w q ws qs (W1 & W2 & W3) _ IH]; intros [|x xs] HF LE; try discriminate LE; cbn [combine]; constructor.
    - cbn [fst snd]. apply Forall_inv in HF as [F1 F2]. split; [exact W1|]. split; [exact F1|]. split; [exact W2|]. split; [exact W3|]. unfold M. apply Rabs_le. pose proof (Rmax_l (Rabs lb) (Rabs ub)). pose proof (Rmax_r (Rabs lb) (Rabs ub)).
      pose proof (Rle_abs ub). pose proof (Rle_abs (- lb)). rewrite Rabs_Ropp in *. lra.
    - apply IH; [now apply Forall_inv_tail in HF|cbn in LE; lia]. }
  assert (LC : length (combine ws xs) = mu) by (rewrite combine_length; lia).
  destruct (dot_near M (6 * INR mu * u53) M0 D (combine ws xs) qs (fofZ 0) 0 0 0 0) as (v & Hv & Ev).
  - apply is_ofZ. cbn. lia.
  - rewrite Rminus_0_r, Rabs_R0. lra.
  - rewrite Rabs_R0. lra.
  - lra.
  - exact HP.
  - rewrite HS. lra.
  - lra.
  - rewrite HS, LC. replace (0 + (6 * INR mu * u53 + 2 * u53) * (1 + M) * 1 + 4 * u53 * (1 + M) * INR mu) with ((10 * INR mu * u53 + 2 * u53) * (1 + M)) by ring. rewrite <- (Rmult_1_l (1 + M)) at 2. apply Rmult_le_compat_r; [lra|]. unfold u53. lra.
  - rewrite HS, LC, !Rplus_0_l in Ev. destruct Hv as [FV EV]. split; [exact FV|]. assert (Em : B2R m = v) by exact EV. rewrite Em. apply Rabs_le_inv in Ev.
    match type of Ev with _ <= v - ?z <= _ => assert (CW : lb * Rsum qs <= z <= ub * Rsum qs) end.
    { apply (convex_within lb ub (combine ws xs) qs); [| |lia].
      - clear - HF LW HX. assert (LE : length ws = length xs) by lia. clear LW HX. revert ws LE. induction HF as [|x xs [_ H] _ IH]; intros [|w ws] LE; try discriminate LE; constructor; [exact H|]. apply IH. cbn in LE. lia.
      - clear - HW. induction HW as [|w q ws qs (_ & H & _) _ IH]; constructor; assumption. }
    rewrite HS, !Rmult_1_r in CW. assert (SL : (6 * INR mu * u53 + 2 * u53) * (1 + M) * 1 + 4 * u53 * (1 + M) * INR mu <= slack mu lb ub).
    { unfold slack. fold M. replace ((6 * INR mu * u53 + 2 * u53) * (1 + M) * 1 + 4 * u53 * (1 + M) * INR mu) with ((10 * INR mu * u53 + 2 * u53) * (1 + M)) by ring. apply Rmult_le_compat_r; [lra|].
      assert (E49 : bpow radix2 (-49) = 16 * u53) by (unfold u53; cbn; lra). rewrite E49. assert (u53 <= INR mu * u53) by (rewrite <- (Rmult_1_l u53) at 1; apply Rmult_le_compat_r; lra). lra. }
    lra.
Qed.
(** The loop of the code adds up the same. *)
Lemma mean_loop (L : libm) (ws : list f64) (best : list (list f64)) i : length best = length ws ->
  fold_left (fun s kx => @nadd (numF L) s (@nmul (numF L) (@at_ (numF L) ws (fst kx)) (@at_ (numF L) (snd kx) i))) (combine (seq 0 (length ws)) best) (@nofZ (numF L) 0)
  = fold_left (fun s p => fadd s (fmul (fst p) (snd p))) (combine ws (map (fun r => @at_ (numF L) r i) best)) (fofZ 0).
Proof.
  change (@nofZ (numF L) 0) with (fofZ 0). change (@nadd (numF L)) with fadd. change (@nmul (numF L)) with fmul.
  assert (G : forall (ws pre : list f64) (best : list (list f64)) s, length best = length ws ->
    fold_left (fun s kx => fadd s (fmul (@at_ (numF L) (pre ++ ws) (fst kx)) (@at_ (numF L) (snd kx) i))) (combine (seq (length pre) (length ws)) best) s
    = fold_left (fun s p => fadd s (fmul (fst p) (snd p))) (combine ws (map (fun r => @at_ (numF L) r i) best)) s).
  { clear. induction ws as [|x t IH]; intros pre [|b best] s HL; try discriminate HL; [reflexivity|]. cbn [length seq combine map fold_left fst snd].
    assert (E : @at_ (numF L) (pre ++ x :: t) (length pre) = x) by (unfold at_; rewrite app_nth2 by lia; rewrite Nat.sub_diag; reflexivity). rewrite E.
    specialize (IH (pre ++ [x]) best (fadd s (fmul x (@at_ (numF L) b i))) ltac:(cbn in HL; lia)). rewrite <- app_assoc in IH. cbn [app] in IH. rewrite app_length in IH. cbn [length] in IH. replace (length pre + 1)%nat with (S (length pre)) in IH by lia. exact IH. }
  intros HL. exact (G ws [] best (fofZ 0) HL).
Qed.
(** The weights and counts in force are those of the defaults. *)
Lemma default_weights_of (K : Num) cc ti N la mo P : @supplement_defaults K cc ti N la mo = Ok P ->
  p_weights P = fst (@set_weights K (p_mu P)) /\ (1 <= p_mu P <= p_lambda P)%nat.
Proof.
  unfold supplement_defaults. destruct (if (la <? 2)%Z then _ else _) as [lam| |]; cbn [obind]; try discriminate. destruct (Z.quot lam 2 <? 0)%Z; [discriminate|].
  destruct (set_weights _) as [w m] eqn:EW. destruct (_ || _) eqn:EB; [discriminate|]. apply orb_false_iff in EB as (EB & _). apply orb_false_iff in EB as (B1 & B2). apply Nat.ltb_ge in B1. apply Z.ltb_ge in B2.
  intros H. apply (f_equal (fun o => match o with Ok p => (p_mu p, p_lambda p, p_weights p) | _ => (O, O, []) end)) in H. cbn [p_mu p_lambda p_weights] in H.
  assert (E1 : p_mu P = Z.to_nat (Z.quot lam 2)) by congruence. assert (E2 : p_lambda P = Z.to_nat lam) by congruence. assert (E3 : p_weights P = w) by congruence.
  rewrite E1, E2, E3, EW. split; [reflexivity|]. lia.
Qed.
Lemma between_finite (lo hi v : f64) : is_finite lo = true -> is_finite hi = true -> fle lo v = true -> fle v hi = true -> is_finite v = true.
Proof.
  intros F1 F2 H1 H2. destruct v as [s|[|]| |s m e Hb]; try reflexivity.
  - destruct lo as [?|?| |? ? ? ?]; try discriminate F1; discriminate H1.
  - destruct hi as [?|?| |? ? ? ?]; try discriminate F2; discriminate H2.
  - destruct lo as [?|?| |? ? ? ?]; try discriminate F1; discriminate H1.
Qed.
Lemma Forall2_len {A B} (R : A -> B -> Prop) l m : Forall2 R l m -> length l = length m.
Proof. induction 1; cbn [length]; congruence. Qed.
(** ** Theorem *)
(** In double precision, after every update of every run (whatever state it starts from): if none
    of the sampled rows had a NaN, the mean is a finite number for every parameter, and leaves its
    range by at most mu 2^-49 of the magnitude of the bounds plus 1. *)
Theorem C46_doubles_mean_near_bounds : forall L info label opt device clock P st0 st st1 pop fits st2,
  cma_create L info label opt device clock = Ok (P, st0) -> log_increases (cl_libm L) -> (Z.of_nat (p_mu P) <= 1048576)%Z ->
  Forall (fun p => is_valid p = true /\ is_finite (pi_min p) = true /\ is_finite (pi_max p) = true /\ Rabs (B2R (pi_min p)) <= bpow radix2 400 /\ Rabs (B2R (pi_max p)) <= bpow radix2 400) (oi_free info) ->
  s_sample (cma_sampler L info None P) st = (st1, Ok pop) -> Forall not_nan (s_rows st1) ->
  s_update (cma_sampler L info None P) st1 fits = (st2, Ok tt) ->
  @current_mean (numF (cl_libm L)) _ (try_apply_transform (K := numF (cl_libm L)) None) st2 = Ok (s_mean st2) /\ length (s_mean st2) = oi_dim info /\
  forall i p (m : f64), nth_error (oi_free info) i = Some p -> nth_error (s_mean st2) i = Some m ->
    is_finite m = true /\ B2R (pi_min p) - slack (p_mu P) (B2R (pi_min p)) (B2R (pi_max p)) <= B2R m <= B2R (pi_max p) + slack (p_mu P) (B2R (pi_min p)) (B2R (pi_max p)).
Proof.
  intros L info label opt device clock P st0 st st1 pop fits st2 HC HL Hm HV HS HN HU. split; [reflexivity|].
  pose proof (cma_create_par _ _ _ _ _ _ _ _ HC) as (HPN & _ & HPD & _).
  destruct (default_weights_of _ _ _ _ _ _ _ HPD) as (HW & Hm0 & HLM).
  pose proof (C37_cma_sampled_before_rounding L info None P HPN ltac:(intros f v w H; discriminate H) st st1 pop (Forall_impl _ (fun p H => proj1 H) HV) HS) as (LP & _ & FR).
  assert (LR : length (s_rows st1) = p_lambda P) by (exact (eq_trans (Forall2_len _ _ _ FR) LP)).
  (* all rows lie in the bounds *)
  assert (RB : Forall (fun row : list f64 => Forall2 (fun p v => fle (pi_min p) v = true /\ fle v (pi_max p) = true) (oi_free info) row) (s_rows st1)).
  { clear - FR HN. induction FR as [|row x rows xs (y & _ & Hy & HF) _ IH]; constructor; [|apply IH; now apply Forall_inv_tail in HN]. apply Forall_inv in HN.
    assert (E : y = row) by (destruct Hy as [E|E]; [exact E|injection E as E; symmetry; exact E]). subst y. clear - HF HN. induction HF as [|p v ps vs Hv _ IH]; constructor; inversion HN; subst; [|auto]. destruct Hv as [Hv|Hv]; [exact Hv|congruence]. }
  unfold cma_sampler in HU. cbn [s_update] in HU. set (fits' := if oi_minimize info then fits else map fopp fits) in HU.
  match type of HU with context [match ?c with Ok _ => _ | _ => _ end] => destruct c as [st'|w|] eqn:EU end; try discriminate HU. assert (E2 : st' = st2) by congruence. subst st'. clear HU.
  unfold cma_update in EU. destruct (s_phase st1); try discriminate EU; destruct (negb _); try discriminate EU. apply (f_equal (fun o => match o with Ok s => s_mean s | _ => [] end)) in EU. cbn [s_mean] in EU.
  set (order := @sorted_index (numF (cl_libm L)) fits' (p_lambda P)) in *. set (best := map (fun k => @row_ (numF (cl_libm L)) (s_rows st1) k) (firstn (p_mu P) order)) in *.
  assert (LO : length order = p_lambda P) by (transitivity (length (seq 0 (p_lambda P))); [apply Permutation_length, C43_ranking_is_permutation|apply seq_length]).
  assert (LB : length best = p_mu P) by (unfold best; rewrite map_length, firstn_length, LO; lia).
  assert (BB : Forall (fun row => In row (s_rows st1)) best).
  { apply Forall_forall. intros row Hr. unfold best in Hr. apply in_map_iff in Hr as (k & <- & Hk). assert (Hk' : In k order) by (rewrite <- (firstn_skipn (p_mu P) order); apply in_or_app; left; exact Hk).
    apply (Permutation_in _ (C43_ranking_is_permutation (numF (cl_libm L)) fits' (p_lambda P))) in Hk'. apply in_seq in Hk'. unfold row_. apply nth_In. rewrite LR. lia. }
  assert (LM : length (s_mean st2) = p_N P) by (rewrite <- EU; apply build_length). split; [exact (eq_trans LM HPN)|].
  intros i p m Hp Hm2. assert (Hi : (i < p_N P)%nat) by (rewrite <- LM; apply nth_error_Some; congruence).
  rewrite <- EU in Hm2. rewrite nth_error_build in Hm2 by exact Hi. injection Hm2 as Hm2.
  assert (LW : length (p_weights P) = p_mu P) by (rewrite HW; unfold set_weights; cbn [fst]; rewrite map_length; apply raw_length).
  pose proof (mean_loop (cl_libm L) (p_weights P) best i (eq_trans LB (eq_sym LW))) as ML. change (nT (numF (cl_libm L))) with f64 in *. rewrite LW in ML. assert (EM := eq_trans (eq_sym Hm2) ML). rewrite HW in EM.
  pose proof (proj1 (Forall_forall _ _) HV p (nth_error_In _ _ Hp)) as (V1 & V2 & V3 & V4 & V5).
  rewrite EM. apply (mean_near (cl_libm L) (p_mu P) (map (fun r => @at_ (numF (cl_libm L)) r i) best) (B2R (pi_min p)) (B2R (pi_max p)) HL Hm0 Hm); [rewrite map_length; exact LB|exact V4|exact V5|].
  apply Forall_forall. intros x Hx. apply in_map_iff in Hx as (row & <- & Hr). pose proof (proj1 (Forall_forall _ _) BB row Hr) as Hr2. pose proof (proj1 (Forall_forall _ _) RB row Hr2) as F2.
  assert (G : exists v, nth_error row i = Some v /\ fle (pi_min p) v = true /\ fle v (pi_max p) = true).
  { clear - F2 Hp. revert i Hp. induction F2 as [|p' v' ps vs Hv _ IH]; intros [|i] Hp; try discriminate Hp; [injection Hp as <-; exists v'; split; [reflexivity|exact Hv]|exact (IH i Hp)]. }
  destruct G as (v & Gv & G1 & G2). assert (EV : @at_ (numF (cl_libm L)) row i = v) by (unfold at_; apply nth_error_nth; exact Gv). rewrite EV.
  assert (FV : is_finite v = true) by (exact (between_finite _ _ _ V2 V3 G1 G2)). split; [exact FV|]. split; apply fle_B2R; assumption.
Qed.
(** The hypotheses are met: the run of [r_info], with a logarithm that increases. *)
Definition i_cl : cma_lib := {|
  cl_libm := {| lm_log := fun x => fsub x (fofZ 1); lm_exp := fun x => fadd (fofZ 1) x; lm_sin := fun x => x; lm_cos := fun x => x |};
  cl_pow := cl_pow r_cl; cl_ceil := cl_ceil r_cl; cl_eigen := cl_eigen r_cl; cl_tries := cl_tries r_cl |}.
Lemma i_log : log_increases (cl_libm i_cl).
Proof.
  assert (A : forall (x : f64) i, (1 <= i <= 2097152)%Z -> is x (IZR i) -> is (fsub x (fofZ 1)) (IZR (i - 1))).
  { intros x i Hi Hx. assert (E : rnd (IZR i - IZR 1) = IZR (i - 1)). { rewrite <- minus_IZR. apply rnd_id. apply (is_fmt (fofZ (i - 1))). apply is_ofZ. lia. }
    rewrite <- E. apply is_sub; [exact Hx|apply is_ofZ; lia|]. rewrite <- minus_IZR, <- abs_IZR. apply Rle_trans with (IZR 2097152); [apply IZR_le; lia|]. change 2097152%Z with (2 ^ 21)%Z. change (IZR (2 ^ 21)) with (bpow radix2 21). apply bpow_le. lia. }
  intros x y i j Hij Hj Hx Hy. exists (IZR (i - 1)), (IZR (j - 1)). split; [apply A; [lia|exact Hx]|]. split; [apply A; [lia|exact Hy]|]. split; [apply IZR_lt; lia|]. rewrite <- !abs_IZR. split; apply IZR_le; lia.
Qed.
Lemma i_checked : match cma_create i_cl r_info (fun _ => ""%string) ex_cma 7 7 with
  | Ok (P, st) => let r := s_sample (cma_sampler i_cl r_info None P) st in
      match snd r with Ok pop => forallb (forallb (fun x => negb (fisnan x))) (s_rows (fst r)) && Nat.eqb (p_mu P) 2 &&
        match snd (s_update (cma_sampler i_cl r_info None P) (fst r) (map (fun x => hd fnan x) pop)) with Ok _ => true | _ => false end | _ => false end
  | _ => false end = true.
Proof. vm_compute. reflexivity. Qed.
Lemma r_info_bounds : Forall (fun p => is_valid p = true /\ is_finite (pi_min p) = true /\ is_finite (pi_max p) = true /\ Rabs (B2R (pi_min p)) <= bpow radix2 400 /\ Rabs (B2R (pi_max p)) <= bpow radix2 400) (oi_free r_info).
Proof.
  constructor; [|constructor]. split; [vm_compute; reflexivity|]. split; [vm_compute; reflexivity|]. split; [vm_compute; reflexivity|].
  assert (B : 1 <= bpow radix2 400) by (change 1 with (bpow radix2 0); apply bpow_le; lia).
  assert (A : forall x : f64, is_finite x = true -> fle (fofZ (-1)) x = true -> fle x (fofZ 1) = true -> Rabs (B2R x) <= bpow radix2 400).
  { intros x F H1 H2. apply fle_B2R in H1; [|reflexivity|exact F]. apply fle_B2R in H2; [|exact F|reflexivity].
    destruct (is_ofZ (-1)) as [_ E1]; [cbn; lia|]. destruct (is_ofZ 1) as [_ E2]; [cbn; lia|]. rewrite E1 in H1. rewrite E2 in H2. eapply Rle_trans; [apply Rabs_le; split; eassumption|exact B]. }
  split; apply A; vm_compute; reflexivity.
Qed.
Lemma C46_doubles_near_nonvacuous : exists L P st0 st1 pop fits st2,
  cma_create L r_info (fun _ => ""%string) ex_cma 7 7 = Ok (P, st0) /\ log_increases (cl_libm L) /\ p_mu P = 2%nat /\
  s_sample (cma_sampler L r_info None P) st0 = (st1, Ok pop) /\ Forall not_nan (s_rows st1) /\ s_update (cma_sampler L r_info None P) st1 fits = (st2, Ok tt).
Proof.
  pose proof i_checked as H. exists i_cl. destruct (cma_create i_cl r_info (fun _ => ""%string) ex_cma 7 7) as [[P st]|w|] eqn:E; [|discriminate H|discriminate H]. cbv zeta in H.
  exists P, st. destruct (s_sample (cma_sampler i_cl r_info None P) st) as [st1 o] eqn:ES. cbn [fst snd] in H. destruct o as [pop|w|]; [|discriminate H|discriminate H]. apply andb_true_iff in H as [H H3]. apply andb_true_iff in H as [H1 H2].
  exists st1, pop, (map (fun x => hd fnan x) pop). destruct (s_update _ st1 _) as [st2 u] eqn:EU. cbn [snd] in H3. exists st2. split; [reflexivity|]. split; [exact i_log|]. split; [apply Nat.eqb_eq; exact H2|].
  split; [reflexivity|]. split.
  - rewrite forallb_forall in H1. apply Forall_forall. intros row Hr. specialize (H1 row Hr). rewrite forallb_forall in H1. apply Forall_forall. intros x Hx. apply negb_true_iff. exact (H1 x Hx).
  - destruct u as [[]|w|]; [reflexivity|discriminate H3|discriminate H3].
Qed.
