From Coq Require Import ZArith Bool Reals Lra Lia.
From Coq.Floats Require Import SpecFloat.
From Flocq Require Import Core BinarySingleNaN Relative.
From Flocq Require Import Calc.Bracket Calc.Div Calc.Round.
From Verif Require Import Prelude Flt FltFacts Round8.
#[local] Open Scope Z_scope.

Definition rnd10 (x : R) : R := round radix10 (FLX_exp 8) ZnearestE x.
Definition rnd2 (x : R) : R := round radix2 (SpecFloat.fexp prec64 emax64) ZnearestE x.
#[global] Instance prec8_gt_0 : Prec_gt_0 8 := eq_refl.

Lemma fexp64_FLT : forall z, SpecFloat.fexp prec64 emax64 z = FLT_exp (-1074) 53 z.
Proof. reflexivity. Qed.
#[global] Instance valid_fexp64 : Valid_exp (SpecFloat.fexp prec64 emax64) :=
  FLT_exp_valid (-1074) 53.
#[global] Instance mono_fexp64 : Monotone_exp (SpecFloat.fexp prec64 emax64) :=
  FLT_exp_monotone (-1074) 53.

Lemma scale_frac_correct (b : radix) m e : 0 < m ->
  let '(num, den) := scale_frac b m e in
  0 < num /\ 0 < den /\ (IZR num / IZR den = IZR m * bpow b e)%R.
Proof.
  intros Hm. unfold scale_frac.
  pose proof (radix_gt_0 b) as Hb.
  destruct (Z.leb_spec 0 e) as [He|He].
  - assert (0 < b ^ e) by (apply Z.pow_pos_nonneg; lia).
    repeat split; try nia.
    change (b ^ e) with (Zpower b e). rewrite mult_IZR, IZR_Zpower by lia. field.
  - assert (0 < b ^ (- e)) by (apply Z.pow_pos_nonneg; lia).
    repeat split; try lia.
    change (b ^ (- e)) with (Zpower b (- e)). rewrite IZR_Zpower by lia.
    rewrite bpow_opp. unfold Rdiv. rewrite Rinv_inv. reflexivity.
Qed.

Lemma F2R_0e (b : radix) n : F2R (Float b n 0) = IZR n.
Proof. unfold F2R; cbn. ring. Qed.

Lemma dec8_pos_correct m e :
  let '(n, k) := dec8_pos m e in
  F2R (Float radix10 n k) = rnd10 (IZR (Z.pos m) * bpow radix2 e) /\ 0 <= n.
Proof.
  unfold dec8_pos.
  pose proof (scale_frac_correct radix2 (Z.pos m) e eq_refl) as Hs.
  change (radix_val radix2) with 2 in Hs.
  destruct (scale_frac 2 (Z.pos m) e) as [num den]. destruct Hs as (Hn & Hd & Hq).
  assert (Hnr : (0 < F2R (Float radix10 num 0))%R) by (rewrite F2R_0e; now apply IZR_lt).
  assert (Hdr : (0 < F2R (Float radix10 den 0))%R) by (rewrite F2R_0e; now apply IZR_lt).
  pose proof (Fdiv_correct (FLX_exp 8) _ _ Hnr Hdr) as HF.
  destruct (Fdiv (FLX_exp 8) (Float radix10 num 0) (Float radix10 den 0)) as [[m1 e1] l1].
  destruct HF as [He HI]. rewrite !F2R_0e, Hq in HI, He.
  set (x := (IZR (Z.pos m) * bpow radix2 e)%R) in *.
  assert (Hx : (0 < x)%R).
  { apply Rmult_lt_0_compat; [now apply IZR_lt|apply bpow_gt_0]. }
  pose proof (round_trunc_NE_correct' radix10 (FLX_exp 8) x m1 e1 l1 (Rlt_le _ _ Hx) HI (or_introl He)) as HR.
  destruct (truncate radix10 (FLX_exp 8) (m1, e1, l1)) as [[m2 e2] l2].
  split; [symmetry; exact HR|].
  apply (ge_0_F2R radix10 _ e2).
  change (0 <= F2R (Float radix10 (cond_incr (round_N (negb (Z.even m2)) l2) m2) e2))%R.
  rewrite <- HR. rewrite <- (round_0 radix10 (FLX_exp 8) ZnearestE).
  apply round_le; auto with typeclass_instances. now apply Rlt_le.
Qed.

Lemma f_of_SF_correct z : valid_binary prec64 emax64 z = true -> B2SF (f_of_SF z) = z.
Proof.
  destruct z as [s|s| |s m e]; cbn; intros H; auto.
  destruct (Bool.bool_dec (bounded prec64 emax64 m e) true) as [H'|H']; [reflexivity|congruence].
Qed.

Lemma dec_to_f64_correct s n k : 0 < n ->
  let x := F2R (Float radix10 n k) in
  (Rabs (rnd2 x) < bpow radix2 1024)%R ->
  is_finite (dec_to_f64 s n k) = true /\
  B2R (dec_to_f64 s n k) = (if s then - rnd2 x else rnd2 x)%R /\
  Bsign (dec_to_f64 s n k) = s.
Proof.
  intros Hn x Hov.
  unfold dec_to_f64. destruct (Z.leb_spec n 0) as [H0|_]; [lia|].
  pose proof (scale_frac_correct radix10 n k Hn) as Hs.
  change (radix_val radix10) with 10 in Hs.
  destruct (scale_frac 10 n k) as [num den]. destruct Hs as (Hnn & Hd & Hq).
  assert (Hx : (IZR n * bpow radix10 k)%R = x) by reflexivity.
  rewrite Hx in Hq.
  assert (Hnr : (0 < F2R (Float radix2 num 0))%R) by (rewrite F2R_0e; now apply IZR_lt).
  assert (Hdr : (0 < F2R (Float radix2 den 0))%R) by (rewrite F2R_0e; now apply IZR_lt).
  pose proof (Fdiv_correct (SpecFloat.fexp prec64 emax64) _ _ Hnr Hdr) as HF.
  destruct (Fdiv (SpecFloat.fexp prec64 emax64) (Float radix2 num 0) (Float radix2 den 0)) as [[mx ex] lx].
  destruct HF as [He HI]. rewrite !F2R_0e, Hq in HI, He.
  assert (Hxp : (0 < x)%R).
  { rewrite <- Hx. apply Rmult_lt_0_compat; [now apply IZR_lt|apply bpow_gt_0]. }
  set (y := (if s then - x else x)%R).
  assert (Hy : y <> 0%R) by (unfold y; destruct s; lra).
  assert (Hya : Rabs y = x).
  { unfold y; destruct s; rewrite ?Rabs_Ropp; apply Rabs_pos_eq; lra. }
  assert (Hyl : Rlt_bool y 0 = s).
  { unfold y; destruct s; [apply Rlt_bool_true|apply Rlt_bool_false]; lra. }
  assert (Hry : rnd2 y = (if s then - rnd2 x else rnd2 x)%R).
  { unfold y, rnd2. destruct s; [|reflexivity]. apply round_NE_opp. }
  assert (He' : ex <= cexp radix2 (SpecFloat.fexp prec64 emax64) y).
  { unfold y. destruct s; rewrite ?cexp_opp; exact He. }
  rewrite <- Hya in HI.
  pose proof (binary_round_aux_correct' prec64 emax64 _ _ mode_NE y mx ex lx Hy HI He') as HB.
  cbn zeta in HB. rewrite Hyl in HB. destruct HB as [Hv HB].
  change (round radix2 (SpecFloat.fexp prec64 emax64) (round_mode mode_NE) y) with (rnd2 y) in HB.
  rewrite Rlt_bool_true in HB.
  2:{ rewrite Hry. destruct s; rewrite ?Rabs_Ropp; exact Hov. }
  destruct HB as (HB1 & HB2 & HB3).
  pose proof (f_of_SF_correct _ Hv) as Hc.
  set (z := binary_round_aux prec64 emax64 mode_NE s mx ex lx) in *.
  repeat split.
  - rewrite <- is_finite_SF_B2SF, Hc. exact HB2.
  - rewrite <- SF2R_B2SF, Hc, HB1. exact Hry.
  - rewrite <- HB3. rewrite <- Hc at 2. destruct (f_of_SF z); reflexivity.
Qed.

Lemma rnd10_0 : rnd10 0 = 0%R.
Proof. apply round_0; auto with typeclass_instances. Qed.
Lemma rnd2_0 : rnd2 0 = 0%R.
Proof. apply round_0; auto with typeclass_instances. Qed.
Lemma rnd10_opp x : rnd10 (- x) = (- rnd10 x)%R.
Proof. apply round_NE_opp. Qed.
Lemma rnd2_opp x : rnd2 (- x) = (- rnd2 x)%R.
Proof. apply round_NE_opp. Qed.
Lemma rnd10_le x y : (x <= y)%R -> (rnd10 x <= rnd10 y)%R.
Proof. apply round_le; auto with typeclass_instances. Qed.
Lemma rnd2_le x y : (x <= y)%R -> (rnd2 x <= rnd2 y)%R.
Proof. apply round_le; auto with typeclass_instances. Qed.
Lemma rnd10_abs x : Rabs (rnd10 x) = rnd10 (Rabs x).
Proof.
  unfold Rabs. destruct (Rcase_abs x) as [H|H].
  - assert (rnd10 x <= 0)%R by (rewrite <- rnd10_0; apply rnd10_le; lra).
    rewrite rnd10_opp. destruct (Rcase_abs (rnd10 x)); lra.
  - assert (0 <= rnd10 x)%R by (rewrite <- rnd10_0; apply rnd10_le; lra).
    destruct (Rcase_abs (rnd10 x)); lra.
Qed.
Lemma rnd2_abs x : Rabs (rnd2 x) = rnd2 (Rabs x).
Proof.
  unfold Rabs. destruct (Rcase_abs x) as [H|H].
  - assert (rnd2 x <= 0)%R by (rewrite <- rnd2_0; apply rnd2_le; lra).
    rewrite rnd2_opp. destruct (Rcase_abs (rnd2 x)); lra.
  - assert (0 <= rnd2 x)%R by (rewrite <- rnd2_0; apply rnd2_le; lra).
    destruct (Rcase_abs (rnd2 x)); lra.
Qed.

Definition dmaxR : R := IZR ((2 ^ 53 - 1) * 2 ^ 971).
Lemma rnd10_max : rnd10 dmaxR = IZR (17976931 * 10 ^ 301).
Proof.
  pose proof (dec8_pos_correct 9007199254740991 971) as H.
  assert (Hc : dec8_pos 9007199254740991 971 = (17976931, 301)) by (vm_compute; reflexivity).
  rewrite Hc in H. destruct H as [H _].
  replace dmaxR with (IZR 9007199254740991 * bpow radix2 971)%R.
  - rewrite <- H. unfold F2R; cbn [Fnum Fexp]. rewrite mult_IZR.
    change (10 ^ 301) with (Zpower radix10 301). rewrite IZR_Zpower by lia. reflexivity.
  - unfold dmaxR. change (2 ^ 53 - 1) with 9007199254740991. rewrite mult_IZR.
    change (2 ^ 971) with (Zpower radix2 971). rewrite IZR_Zpower by lia. reflexivity.
Qed.

Lemma generic_dmax : generic_format radix2 (SpecFloat.fexp prec64 emax64) dmaxR.
Proof.
  assert (dmaxR = B2R fmaxval) as ->.
  { unfold dmaxR. rewrite mult_IZR. change (2 ^ 971) with (Zpower radix2 971). rewrite IZR_Zpower by lia. reflexivity. }
  apply generic_format_B2R.
Qed.

Lemma dmaxR_lt : (dmaxR < bpow radix2 1024)%R.
Proof.
  unfold dmaxR. rewrite <- IZR_Zpower by lia. apply IZR_lt. vm_compute. reflexivity.
Qed.

Lemma B2R_le_dmax (v : f64) : (Rabs (B2R v) <= dmaxR)%R.
Proof.
  destruct (is_finite v) eqn:Hf.
  - assert (Hk : - fkey fmaxval <= fkey v <= fkey fmaxval).
    { split; [|now apply fkey_le_max]. pose proof (fkey_ge_lowest v Hf) as H.
      unfold flowest in H. change (Bopp Bmax_float) with (fopp fmaxval) in H. rewrite fkey_fopp in H. lia. }
    assert (Hm : dmaxR = B2R fmaxval).
    { unfold dmaxR. rewrite mult_IZR. change (2 ^ 971) with (Zpower radix2 971). rewrite IZR_Zpower by lia. reflexivity. }
    rewrite Hm.
    assert (H1 : (IZR (- fkey fmaxval) <= IZR (fkey v) <= IZR (fkey fmaxval))%R) by (split; apply IZR_le; lia).
    rewrite opp_IZR, !fkey_real in H1 by (assumption || reflexivity).
    pose proof (bpow_gt_0 radix2 1074).
    apply Rabs_le. split; nra.
  - destruct v; try discriminate; cbn [B2R]; rewrite Rabs_R0; apply IZR_le; lia.
Qed.

Lemma rnd2_rnd10_bound x : (Rabs x <= dmaxR)%R -> (Rabs (rnd2 (rnd10 x)) < bpow radix2 1024)%R.
Proof.
  intros H. rewrite rnd2_abs, rnd10_abs.
  apply Rle_lt_trans with dmaxR; [|apply dmaxR_lt].
  assert (Hd : rnd2 dmaxR = dmaxR) by (apply round_generic; [auto with typeclass_instances|apply generic_dmax]).
  rewrite <- Hd. apply rnd2_le.
  apply Rle_trans with (rnd10 dmaxR); [now apply rnd10_le|].
  rewrite rnd10_max. apply IZR_le. vm_compute. discriminate.
Qed.

Lemma rounded_correct (v : f64) : is_finite v = true ->
  is_finite (rounded v) = true /\ B2R (rounded v) = rnd2 (rnd10 (B2R v)) /\ Bsign (rounded v) = Bsign v.
Proof.
  destruct v as [s|s| |s m e Hb]; intros Hf; try discriminate.
  - cbn. rewrite rnd10_0, rnd2_0. auto.
  - pose proof (B2R_le_dmax (B754_finite s m e Hb)) as Hmax.
    cbn [rounded]. pose proof (dec8_pos_correct m e) as Hd.
    destruct (dec8_pos m e) as [n k]. destruct Hd as [Hd Hn].
    cbn [B2R Bsign] in *.
    set (x := (IZR (Z.pos m) * bpow radix2 e)%R) in *.
    assert (Hxv : F2R (Float radix2 (cond_Zopp s (Z.pos m)) e) = (if s then - x else x)%R).
    { unfold F2R, x; cbn [Fnum Fexp]. destruct s; cbn [cond_Zopp]; rewrite ?opp_IZR; ring. }
    rewrite Hxv in *.
    assert (Hx0 : (0 < x)%R) by (apply Rmult_lt_0_compat; [now apply IZR_lt|apply bpow_gt_0]).
    assert (Hmx : (Rabs x <= dmaxR)%R) by (destruct s; rewrite ?Rabs_Ropp in Hmax; exact Hmax).
    assert (Hn0 : 0 < n).
    { destruct (Z.eq_dec n 0) as [->|]; [|lia].
      exfalso. rewrite F2R_0 in Hd.
      assert (x <> 0)%R by lra.
      assert (rnd10 x <> 0)%R; [|congruence].
      apply round_neq_0_negligible_exp; auto with typeclass_instances.
      apply negligible_exp_FLX. reflexivity. }
    assert (Hov := rnd2_rnd10_bound x Hmx). rewrite <- Hd in Hov.
    destruct (dec_to_f64_correct s n k Hn0 Hov) as (H1 & H2 & H3).
    repeat split; auto. rewrite H2, Hd.
    destruct s; [|reflexivity]. rewrite rnd10_opp, rnd2_opp. reflexivity.
Qed.

(** ** Idempotence *)
#[local] Open Scope R_scope.

Lemma rnd10_near d w : generic_format radix10 (FLX_exp 8) d -> 0 < d ->
  Rabs (w - d) <= bpow radix2 (-53) * d -> rnd10 w = d.
Proof.
  intros Fd Hd Hw.
  assert (Hu : bpow radix2 (-53) = / 9007199254740992) by (cbn; reflexivity).
  rewrite Hu in Hw. apply Rabs_le_inv in Hw.
  apply Rle_antisym.
  - apply round_N_le_midp; auto with typeclass_instances.
    rewrite succ_eq_pos by lra.
    pose proof (ulp_FLX_ge radix10 8 d) as Hg.
    rewrite Rabs_pos_eq in Hg by lra.
    assert (Hb : bpow radix10 (- (8)) = / 100000000) by (cbn; reflexivity).
    rewrite Hb in Hg. lra.
  - apply round_N_ge_midp; auto with typeclass_instances.
    assert (Hp : 0 <= pred radix10 (FLX_exp 8) d) by (apply pred_ge_0; auto with typeclass_instances).
    assert (Fp : generic_format radix10 (FLX_exp 8) (pred radix10 (FLX_exp 8) d))
      by (apply generic_format_pred; auto with typeclass_instances).
    pose proof (succ_pred radix10 (FLX_exp 8) d Fd) as Hs.
    rewrite succ_eq_pos in Hs by exact Hp.
    set (p := pred radix10 (FLX_exp 8) d) in *.
    pose proof (ulp_FLX_ge radix10 8 p) as Hg.
    rewrite Rabs_pos_eq in Hg by lra.
    assert (Hb : bpow radix10 (- (8)) = / 100000000) by (cbn; reflexivity).
    rewrite Hb in Hg. lra.
Qed.

Lemma rnd2_small x : Rabs x < bpow radix2 (-1021) ->
  rnd2 x = IZR (ZnearestE (x * bpow radix2 1074)) * bpow radix2 (-1074).
Proof.
  intros Hx. destruct (Req_dec x 0) as [->|Hn].
  - rewrite rnd2_0, Rmult_0_l. rewrite Zrnd_IZR by auto with typeclass_instances. lra.
  - assert (He : cexp radix2 (SpecFloat.fexp prec64 emax64) x = (-1074)%Z).
    { unfold cexp. pose proof (mag_le_bpow radix2 x (-1021) Hn Hx) as Hm.
      unfold SpecFloat.fexp, SpecFloat.emin, prec64, emax64. lia. }
    unfold rnd2, round, scaled_mantissa. rewrite He. reflexivity.
Qed.

Lemma ZnearestE_half k : ZnearestE (IZR k + /2) = if Z.even k then k else (k + 1)%Z.
Proof.
  assert (Hf : Zfloor (IZR k + /2) = k) by (apply Zfloor_imp; rewrite plus_IZR; lra).
  assert (Hc : Zceil (IZR k + /2) = (k + 1)%Z) by (apply Zceil_imp; rewrite plus_IZR, minus_IZR, plus_IZR; lra).
  unfold Znearest. rewrite Hf, Hc, Rcompare_Eq by lra. now destruct (Z.even k).
Qed.

Lemma ZnearestE_closer a b :
  Rabs (b - IZR (ZnearestE a)) <= Rabs (a - IZR (ZnearestE a)) -> ZnearestE b = ZnearestE a.
Proof.
  intros H. pose proof (Znearest_half (fun x => negb (Z.even x)) a) as Ha.
  remember (ZnearestE a) as n eqn:En.
  destruct (Rlt_or_le (Rabs (b - IZR n)) (/2)) as [Hl|Hl]; [now apply Znearest_imp|].
  assert (Hae : Rabs (a - IZR n) = /2) by lra.
  assert (Hbe : Rabs (b - IZR n) = /2) by lra.
  assert (Hev : Z.even n = true).
  { unfold Rabs in Hae. destruct (Rcase_abs (a - IZR n)).
    - assert (Ea : a = IZR (n - 1) + /2) by (rewrite minus_IZR; lra).
      rewrite Ea, ZnearestE_half in En. destruct (Z.even (n - 1)) eqn:E; [lia|].
      rewrite Z.even_sub in E. cbn in E. now destruct (Z.even n).
    - assert (Ea : a = IZR n + /2) by lra.
      rewrite Ea, ZnearestE_half in En. destruct (Z.even n) eqn:E; [reflexivity|lia]. }
  unfold Rabs in Hbe. destruct (Rcase_abs (b - IZR n)).
  - assert (Eb : b = IZR (n - 1) + /2) by (rewrite minus_IZR; lra).
    rewrite Eb, ZnearestE_half, Z.even_sub, Hev. cbn. lia.
  - assert (Eb : b = IZR n + /2) by lra. rewrite Eb, ZnearestE_half, Hev. reflexivity.
Qed.

Lemma rnd10_generic d : generic_format radix10 (FLX_exp 8) d -> rnd10 d = d.
Proof. intros H. apply round_generic; auto with typeclass_instances. Qed.

Lemma rnd10_format x : generic_format radix10 (FLX_exp 8) (rnd10 x).
Proof. apply generic_format_round; auto with typeclass_instances. Qed.
Lemma rnd2_format x : generic_format radix2 (SpecFloat.fexp prec64 emax64) (rnd2 x).
Proof. apply generic_format_round; auto with typeclass_instances. Qed.

Lemma rnd2_rnd10_idem_pos d : 0 < d -> generic_format radix10 (FLX_exp 8) d ->
  rnd2 (rnd10 (rnd2 d)) = rnd2 d.
Proof.
  intros Hd Fd.
  destruct (Rle_or_lt (bpow radix2 (-1022)) d) as [Hbig|Hsm].
  - rewrite (rnd10_near d (rnd2 d) Fd Hd); [reflexivity|].
    pose proof (relative_error_N_FLT radix2 (-1074) 53 eq_refl (fun z => negb (Z.even z)) d) as Hr.
    rewrite Rabs_pos_eq in Hr by lra.
    replace (bpow radix2 (-53)) with (/2 * bpow radix2 (-53 + 1)) by (cbn; lra).
    apply Hr. exact Hbig.
  - set (w := rnd2 d) in *.
    assert (Hmono : 0 <= w <= bpow radix2 (-1022)).
    { split; [unfold w; rewrite <- rnd2_0; apply rnd2_le; lra|].
      replace (bpow radix2 (-1022)) with (rnd2 (bpow radix2 (-1022))); [apply rnd2_le; lra|].
      apply round_generic; auto with typeclass_instances. apply generic_format_bpow.
      vm_compute. discriminate. }
    assert (Hnear : Rabs (rnd10 w - w) <= Rabs (d - w)).
    { destruct (round_N_pt radix10 (FLX_exp 8) (fun z => negb (Z.even z)) w) as [_ H]. now apply H. }
    assert (Hsmd : Rabs d < bpow radix2 (-1021)).
    { rewrite Rabs_pos_eq by lra. apply Rlt_trans with (1 := Hsm). apply bpow_lt; lia. }
    assert (Hw := rnd2_small d Hsmd). fold w in Hw.
    assert (Herr : Rabs (d - w) <= /2 * bpow radix2 (-1074)).
    { rewrite Hw.
      replace (d - IZR (ZnearestE (d * bpow radix2 1074)) * bpow radix2 (-1074))
        with ((d * bpow radix2 1074 - IZR (ZnearestE (d * bpow radix2 1074))) * bpow radix2 (-1074)).
      2:{ rewrite Rmult_minus_distr_r, Rmult_assoc, <- bpow_plus. change (1074 + -1074)%Z with 0%Z. cbn [bpow]. ring. }
      rewrite Rabs_mult, (Rabs_pos_eq (bpow radix2 (-1074))) by apply bpow_ge_0.
      apply Rmult_le_compat_r; [apply bpow_ge_0|]. apply Znearest_half. }
    assert (Hsmall' : Rabs (rnd10 w) < bpow radix2 (-1021)).
    { assert (0 <= rnd10 w) by (rewrite <- rnd10_0; apply rnd10_le; lra).
      rewrite Rabs_pos_eq by lra.
      assert (bpow radix2 (-1021) = 2 * bpow radix2 (-1022)) as ->.
      { replace (-1021)%Z with (1 + -1022)%Z by lia. rewrite bpow_plus. reflexivity. }
      assert (bpow radix2 (-1074) < bpow radix2 (-1022)) by (apply bpow_lt; lia).
      apply Rabs_le_inv in Hnear. pose proof (bpow_gt_0 radix2 (-1074)). lra. }
    rewrite (rnd2_small _ Hsmall'). etransitivity; [|symmetry; exact Hw]. f_equal. f_equal.
    apply ZnearestE_closer.
    assert (Hn : IZR (ZnearestE (d * bpow radix2 1074)) = w * bpow radix2 1074).
    { rewrite Hw, Rmult_assoc, <- bpow_plus. change (-1074 + 1074)%Z with 0%Z. cbn [bpow]. ring. }
    rewrite Hn, <- !Rmult_minus_distr_r, !Rabs_mult.
    apply Rmult_le_compat_r; [apply Rabs_pos|]. exact Hnear.
Qed.

Lemma rnd2_rnd10_idem d : generic_format radix10 (FLX_exp 8) d ->
  rnd2 (rnd10 (rnd2 d)) = rnd2 d.
Proof.
  intros Fd. destruct (Rtotal_order d 0) as [H|[->|H]].
  - assert (Fo : generic_format radix10 (FLX_exp 8) (- d)) by now apply generic_format_opp.
    pose proof (rnd2_rnd10_idem_pos (- d) ltac:(lra) Fo) as Hi.
    rewrite !rnd2_opp, rnd10_opp, rnd2_opp in Hi. lra.
  - rewrite rnd2_0, rnd10_0. apply rnd2_0.
  - now apply rnd2_rnd10_idem_pos.
Qed.

Lemma f64_ext (a b : f64) : is_finite a = true -> is_finite b = true ->
  B2R a = B2R b -> Bsign a = Bsign b -> a = b.
Proof. apply B2R_Bsign_inj. Qed.

Lemma rounded_not_finite v : is_finite v = false -> rounded v = fzero.
Proof. destruct v; cbn; intros; congruence. Qed.

Lemma rounded_finite v : is_finite (rounded v) = true.
Proof.
  destruct (is_finite v) eqn:E; [now apply rounded_correct|]. now rewrite rounded_not_finite.
Qed.

Theorem rounded_idem v : rounded (rounded v) = rounded v.
Proof.
  destruct (is_finite v) eqn:E.
  - destruct (rounded_correct v E) as (H1 & H2 & H3).
    destruct (rounded_correct (rounded v) H1) as (G1 & G2 & G3).
    apply f64_ext; auto. rewrite G2, H2. apply rnd2_rnd10_idem, rnd10_format.
  - rewrite (rounded_not_finite v E). reflexivity.
Qed.

Theorem rounded_mono a b : is_finite a = true -> is_finite b = true ->
  fle a b = true -> fle (rounded a) (rounded b) = true.
Proof.
  intros Ha Hb H.
  destruct (rounded_correct a Ha) as (A1 & A2 & _).
  destruct (rounded_correct b Hb) as (B1 & B2 & _).
  apply fle_B2R; auto. apply fle_B2R in H; auto.
  rewrite A2, B2. now apply rnd2_le, rnd10_le.
Qed.

(** The decimal denoted by an 8-digit literal is in the radix-10 format. *)
Lemma generic_dec8 n k : (Z.abs n < 10 ^ 8)%Z -> generic_format radix10 (FLX_exp 8) (F2R (Float radix10 n k)).
Proof.
  intros H. apply generic_format_FLX. exists (Float radix10 n k); [reflexivity|exact H].
Qed.

Theorem rounded_flit n k : (Z.abs n < 10 ^ 8)%Z ->
  Rabs (rnd2 (F2R (Float radix10 n k))) < bpow radix2 1024 ->
  rounded (flit n k) = flit n k.
Proof.
  intros Hn Hov. unfold flit.
  assert (Hgen : forall s p, (0 <= p < 10 ^ 8)%Z ->
     Rabs (rnd2 (F2R (Float radix10 p k))) < bpow radix2 1024 -> rounded (dec_to_f64 s p k) = dec_to_f64 s p k).
  { intros s p Hp Hpo. destruct (Z.eq_dec p 0) as [->|Hp0]; [reflexivity|].
    destruct (dec_to_f64_correct s p k ltac:(lia) Hpo) as (D1 & D2 & D3).
    destruct (rounded_correct _ D1) as (R1 & R2 & R3).
    apply f64_ext; auto. rewrite R2, D2.
    assert (Hi : rnd2 (rnd10 (rnd2 (F2R (Float radix10 p k)))) = rnd2 (F2R (Float radix10 p k))).
    { apply rnd2_rnd10_idem. apply generic_dec8. lia. }
    destruct s; [|exact Hi]. rewrite rnd10_opp, rnd2_opp, Hi. reflexivity. }
  destruct (Z.ltb_spec n 0) as [H|H].
  - apply Hgen; [lia|]. rewrite F2R_Zopp, rnd2_opp, Rabs_Ropp. exact Hov.
  - apply Hgen; [lia|exact Hov].
Qed.

(** ** Error bound and sign *)
Lemma rnd10_error x : Rabs (rnd10 x - x) <= 5 / 100000000 * Rabs x.
Proof.
  pose proof (relative_error_N_FLX radix10 8 eq_refl (fun z => negb (Z.even z)) x) as H.
  eapply Rle_trans; [exact H|].
  apply Rmult_le_compat_r; [apply Rabs_pos|]. cbn. lra.
Qed.

Theorem rounded_rel_error v : is_finite v = true -> bpow radix2 (-1022) <= Rabs (B2R v) ->
  Rabs (B2R (rounded v) - B2R v) <= / 10000000 * Rabs (B2R v).
Proof.
  intros Hf Hb. destruct (rounded_correct v Hf) as (_ & H2 & _).
  rewrite H2. set (x := B2R v) in *.
  pose proof (rnd10_error x) as H10.
  destruct (error_N_FLT radix2 (-1074) 53 eq_refl (fun z => negb (Z.even z)) (rnd10 x))
    as (eps & eta & He & Ht & _ & Hr).
  change (round radix2 (FLT_exp (-1074) 53) ZnearestE (rnd10 x)) with (rnd2 (rnd10 x)) in Hr.
  rewrite Hr.
  assert (He' : Rabs eps <= / 9007199254740992) by (eapply Rle_trans; [exact He|]; cbn; lra).
  assert (Ht' : Rabs eta <= / 9007199254740992 * Rabs x).
  { eapply Rle_trans; [exact Ht|].
    apply Rle_trans with (/ 9007199254740992 * bpow radix2 (-1022)).
    - replace (-1074)%Z with (-52 + -1022)%Z by lia. rewrite bpow_plus.
      rewrite <- Rmult_assoc. apply Rmult_le_compat_r; [apply bpow_ge_0|]. cbn. lra.
    - apply Rmult_le_compat_l; [lra|exact Hb]. }
  replace (rnd10 x * (1 + eps) + eta - x) with ((rnd10 x - x) + (rnd10 x - x) * eps + x * eps + eta) by ring.
  eapply Rle_trans; [apply Rabs_triang|].
  eapply Rle_trans; [apply Rplus_le_compat_r, Rabs_triang|].
  eapply Rle_trans; [apply Rplus_le_compat_r, Rplus_le_compat_r, Rabs_triang|].
  rewrite !Rabs_mult.
  pose proof (Rabs_pos (rnd10 x - x)). pose proof (Rabs_pos eps). pose proof (Rabs_pos x).
  assert (Rabs (rnd10 x - x) * Rabs eps <= 5 / 100000000 * Rabs x * / 9007199254740992)
    by (apply Rmult_le_compat; assumption).
  assert (Rabs x * Rabs eps <= Rabs x * / 9007199254740992) by (apply Rmult_le_compat_l; assumption).
  lra.
Qed.

Lemma rounded_sign v : is_finite v = true -> Bsign (rounded v) = Bsign v.
Proof. intros H. now apply rounded_correct. Qed.

Lemma rnd2_rnd10_tiny : bpow radix2 (-1074) <= rnd2 (rnd10 (bpow radix2 (-1074))).
Proof.
  set (t := bpow radix2 (-1074)).
  assert (Ht : 0 < t) by apply bpow_gt_0.
  pose proof (rnd10_error t) as H. rewrite (Rabs_pos_eq t) in H by lra.
  apply Rabs_le_inv in H.
  assert (Hs : Rabs (rnd10 t) < bpow radix2 (-1021)).
  { rewrite Rabs_pos_eq by lra.
    apply Rle_lt_trans with (2 * t); [lra|].
    unfold t. change 2 with (bpow radix2 1). rewrite <- bpow_plus. apply bpow_lt. lia. }
  rewrite rnd2_small by exact Hs. fold t.
  rewrite <- (Rmult_1_l t) at 1. apply Rmult_le_compat_r; [lra|].
  apply IZR_le. assert (Hn : (ZnearestE (rnd10 t * bpow radix2 1074) = 1)%Z); [|rewrite Hn; lia].
  apply Znearest_imp.
  assert (Hone : t * bpow radix2 1074 = 1).
  { unfold t. rewrite <- bpow_plus. reflexivity. }
  apply Rabs_lt. set (u := bpow radix2 1074) in *.
  assert (Hu : 0 < u) by apply bpow_gt_0.
  assert ((rnd10 t - t) * u <= 5 / 100000000 * t * u) by (apply Rmult_le_compat_r; lra).
  assert ((- (5 / 100000000 * t)) * u <= (rnd10 t - t) * u) by (apply Rmult_le_compat_r; lra).
  split; nra.
Qed.

Theorem rounded_nonzero v : is_finite v = true -> B2R v <> 0 -> B2R (rounded v) <> 0.
Proof.
  intros Hf Hn. destruct (rounded_correct v Hf) as (_ & H2 & _). rewrite H2.
  assert (Hm : bpow radix2 (-1074) <= Rabs (B2R v)).
  { destruct v as [s|s| |s m e Hb]; try (cbn in Hn; lra); try discriminate.
    apply Rle_trans with (bpow radix2 e).
    - apply bpow_le. destruct (andb_prop _ _ Hb) as [Hb1 _].
      apply Zeq_bool_eq in Hb1. unfold SpecFloat.fexp, SpecFloat.emin, prec64, emax64 in Hb1. lia.
    - apply abs_B2R_ge_emin_aux || (cbn [B2R]; rewrite <- F2R_Zabs; rewrite abs_cond_Zopp; cbn [Z.abs];
        apply bpow_le_F2R; reflexivity). }
  intros H0.
  assert (Ha : Rabs (rnd2 (rnd10 (B2R v))) = 0) by (rewrite H0; apply Rabs_R0).
  rewrite rnd2_abs, rnd10_abs in Ha.
  assert (bpow radix2 (-1074) <= 0).
  { rewrite <- Ha. eapply Rle_trans; [apply rnd2_rnd10_tiny|]. now apply rnd2_le, rnd10_le. }
  pose proof (bpow_gt_0 radix2 (-1074)). lra.
Qed.

(** ** The elementary reading of "nearest" *)
Lemma rnd10_nearest x n k : (Z.abs n < 10 ^ 8)%Z ->
  Rabs (rnd10 x - x) <= Rabs (IZR n * bpow radix10 k - x).
Proof.
  intros Hn. destruct (round_N_pt radix10 (FLX_exp 8) (fun z => negb (Z.even z)) x) as [_ H].
  apply H. exact (generic_dec8 n k Hn).
Qed.
Lemma rnd10_is_dec8 x : exists n k, (Z.abs n < 10 ^ 8)%Z /\ rnd10 x = IZR n * bpow radix10 k.
Proof.
  pose proof (rnd10_format x) as H. apply FLX_format_generic in H; [|reflexivity].
  destruct H as [[n k] H1 H2]. exists n, k. split; [exact H2|exact H1].
Qed.
Lemma rnd2_nearest x (w : f64) : Rabs (rnd2 x - x) <= Rabs (B2R w - x).
Proof.
  destruct (round_N_pt radix2 (SpecFloat.fexp prec64 emax64) (fun z => negb (Z.even z)) x) as [_ H].
  apply H. apply generic_format_B2R.
Qed.

Lemma dec_to_f64_not_nan s n k : fisnan (dec_to_f64 s n k) = false.
Proof.
  unfold dec_to_f64. destruct (Z.leb_spec n 0) as [H0|Hn]; [reflexivity|].
  pose proof (scale_frac_correct radix10 n k Hn) as Hs.
  change (radix_val radix10) with 10%Z in Hs.
  destruct (scale_frac 10 n k) as [num den]. destruct Hs as (Hnn & Hd & Hq).
  set (x := IZR n * bpow radix10 k) in *.
  assert (Hnr : (0 < F2R (Float radix2 num 0))%R) by (rewrite F2R_0e; now apply IZR_lt).
  assert (Hdr : (0 < F2R (Float radix2 den 0))%R) by (rewrite F2R_0e; now apply IZR_lt).
  pose proof (Fdiv_correct (SpecFloat.fexp prec64 emax64) _ _ Hnr Hdr) as HF.
  destruct (Fdiv (SpecFloat.fexp prec64 emax64) (Float radix2 num 0) (Float radix2 den 0)) as [[mx ex] lx].
  destruct HF as [He HI]. rewrite !F2R_0e, Hq in HI, He.
  assert (Hxp : 0 < x).
  { unfold x. apply Rmult_lt_0_compat; [now apply IZR_lt|apply bpow_gt_0]. }
  set (y := (if s then - x else x)).
  assert (Hy : y <> 0) by (unfold y; destruct s; lra).
  assert (Hya : Rabs y = x).
  { unfold y; destruct s; rewrite ?Rabs_Ropp; apply Rabs_pos_eq; lra. }
  assert (Hyl : Rlt_bool y 0 = s).
  { unfold y; destruct s; [apply Rlt_bool_true|apply Rlt_bool_false]; lra. }
  assert (He' : (ex <= cexp radix2 (SpecFloat.fexp prec64 emax64) y)%Z).
  { unfold y. destruct s; rewrite ?cexp_opp; exact He. }
  rewrite <- Hya in HI.
  pose proof (binary_round_aux_correct' prec64 emax64 _ _ mode_NE y mx ex lx Hy HI He') as HB.
  cbn zeta in HB. rewrite Hyl in HB. destruct HB as [Hv HB].
  pose proof (f_of_SF_correct _ Hv) as Hc.
  set (z := binary_round_aux prec64 emax64 mode_NE s mx ex lx) in *.
  assert (Hz : z <> S754_nan).
  { destruct (Rlt_bool _ _) in HB.
    - destruct HB as (_ & HB & _). intros Hz. rewrite Hz in HB. discriminate.
    - rewrite HB. destruct s; discriminate. }
  destruct (f_of_SF z) eqn:Ef; try reflexivity. cbn [B2SF] in Hc. congruence.
Qed.
