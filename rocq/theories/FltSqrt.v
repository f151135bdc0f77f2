(** The square root of a rounded square is exact. *)
From Coq Require Import ZArith Bool Lia Reals Lra Psatz.
From Flocq Require Import Core BinarySingleNaN.
From Verif Require Import Prelude Flt FltFacts Round8Facts.
Open Scope R_scope.

Notation fexp := (SpecFloat.fexp prec64 emax64).
Notation fmt := (generic_format radix2 fexp).
Notation rnd := (round radix2 fexp (round_mode mode_NE)).
Notation bp := (bpow radix2).
#[local] Instance vexp : Valid_exp fexp := BinarySingleNaN.fexp_correct prec64 emax64 prec64_gt_0.

Lemma fexp_mag e : (-1021 <= e)%Z -> fexp e = (e - 53)%Z.
Proof. intros H. rewrite fexp64_FLT. unfold FLT_exp. lia. Qed.

Lemma half_ulp_sq x e : bp (e - 1) <= x < bp e -> (-500 <= e <= 500)%Z -> Rabs (rnd (x * x) - x * x) <= bp (2 * e - 54).
Proof.
  intros [H1 H2] He. assert (P : 0 < x) by (pose proof (bpow_gt_0 radix2 (e - 1)); lra).
  eapply Rle_trans; [exact (error_le_half_ulp radix2 fexp (fun z => negb (Z.even z)) (x * x))|].
  assert (M : (mag radix2 (x * x) <= 2 * e)%Z).
  { apply mag_le_bpow; [nra|]. replace (2 * e)%Z with (e + e)%Z by lia. rewrite bpow_plus. rewrite Rabs_pos_eq by nra. nra. }
  assert (M' : (2 * e - 1 <= mag radix2 (x * x))%Z).
  { apply mag_ge_bpow. replace (2 * e - 1 - 1)%Z with ((e - 1) + (e - 1))%Z by lia. rewrite bpow_plus. rewrite Rabs_pos_eq by nra. pose proof (bpow_gt_0 radix2 (e - 1)). nra. }
  rewrite ulp_neq_0 by nra. unfold cexp. rewrite fexp_mag by lia.
  replace (2 * e - 54)%Z with (-1 + (2 * e - 53))%Z by lia. rewrite bpow_plus. change (bp (-1)) with (/ 2). apply Rmult_le_compat_l; [lra|]. apply bpow_le. lia.
Qed.

Lemma sqrt_sq_R x e : fmt x -> bp (e - 1) <= x < bp e -> (-500 <= e <= 500)%Z -> rnd (sqrt (rnd (x * x))) = x.
Proof.
  intros F H He. pose proof (half_ulp_sq x e H He) as HU. destruct H as [H1 H2]. pose proof (bpow_gt_0 radix2 (e - 1)) as B1.
  assert (P : 0 < x) by lra. set (y := rnd (x * x)) in *.
  assert (MX : mag radix2 x = e :> Z) by (apply mag_unique; rewrite Rabs_pos_eq by lra; lra).
  assert (UX : ulp radix2 fexp x = bp (e - 53)) by (rewrite ulp_neq_0 by lra; unfold cexp; rewrite MX, fexp_mag by lia; reflexivity).
  set (w := bp (e - 53)) in *. assert (W0 : 0 < w) by apply bpow_gt_0.
  (* bp (2 e - 54) = bp (e - 1) * w *)
  assert (EW : bp (2 * e - 54) = bp (e - 1) * w) by (unfold w; rewrite <- bpow_plus; f_equal; lia).
  rewrite EW in HU. apply Rabs_le_inv in HU.
  assert (SU : succ radix2 fexp x = x + w) by (rewrite succ_eq_pos by lra; now rewrite UX).
  assert (WX : w <= x / 4). { assert (w <= bp (e - 1 - 2)) by (apply bpow_le; lia). assert (bp (e - 1 - 2) = bp (e - 1) * / 4) by (unfold Zminus at 1; rewrite bpow_plus; reflexivity). lra. }
  apply Rle_antisym.
  - apply round_N_le_midp; [apply vexp|exact F|]. rewrite SU. replace ((x + (x + w)) / 2) with (x + w / 2) by field.
    rewrite <- (sqrt_square (x + w / 2)) by lra. apply sqrt_lt_1_alt. split; [nra|]. nra.
  - apply round_N_ge_midp; [apply vexp|exact F|].
    assert (PR : (x = bp (e - 1) /\ y = x * x /\ pred radix2 fexp x < x) \/ (pred radix2 fexp x = x - w /\ bp (e - 1) + w <= x)).
    { destruct (Req_dec x (bp (e - 1))) as [E|E].
      - left. split; [exact E|]. split.
        + unfold y. apply round_generic; [apply valid_rnd_round_mode|]. rewrite E, <- bpow_plus. apply generic_format_bpow. rewrite fexp_mag by lia. lia.
        + apply pred_lt_id. lra.
      - right. assert (EP : pred radix2 fexp x = x - w).
        { rewrite pred_eq_pos by lra. unfold pred_pos. rewrite MX. rewrite Req_bool_false by exact E. now rewrite UX. }
        split; [exact EP|]. assert (FB : fmt (bp (e - 1))) by (apply generic_format_bpow; rewrite fexp_mag by lia; lia).
        assert (LT : bp (e - 1) < x) by lra. pose proof (succ_le_lt radix2 fexp (bp (e - 1)) x FB F LT) as S. rewrite succ_eq_pos in S by lra.
        assert (UB : ulp radix2 fexp (bp (e - 1)) = w). { rewrite ulp_bpow, fexp_mag by lia. unfold w. f_equal. lia. }
        rewrite UB in S. exact S. }
    destruct PR as [(E & Ey & L)|(EP & G)].
    + rewrite Ey, sqrt_square by lra. lra.
    + rewrite EP. replace ((x + (x - w)) / 2) with (x - w / 2) by field. rewrite <- (sqrt_square (x - w / 2)) by lra.
      apply sqrt_lt_1_alt. split; [nra|]. nra.
Qed.

Lemma fsqrt_square (t : f64) : is_finite t = true -> bp (-500) <= B2R t -> B2R t < bp 500 -> fsqrt (fmul t t) = t.
Proof.
  intros F H1 H2. pose proof (bpow_gt_0 radix2 (-500)) as B. assert (P : 0 < B2R t) by lra.
  set (e := mag radix2 (B2R t) : Z). 
  assert (HE : bp (e - 1) <= B2R t < bp e). { pose proof (bpow_mag_le radix2 (B2R t) ltac:(lra)). pose proof (bpow_mag_gt radix2 (B2R t)). rewrite Rabs_pos_eq in * by lra. unfold e. lra. }
  assert (E1 : (-500 < e)%Z) by (apply (lt_bpow radix2); lra).
  assert (E2 : (e - 1 < 500)%Z) by (apply (lt_bpow radix2); lra).
  assert (EE : (-500 <= e <= 500)%Z) by lia.
  pose proof (sqrt_sq_R (B2R t) e (generic_format_B2R _ _ t) HE EE) as SQ.
  assert (RS : 0 <= rnd (B2R t * B2R t)) by (apply round_ge_generic; [apply vexp|apply valid_rnd_round_mode|apply generic_format_0|nra]).
  pose proof (Bmult_correct prec64 emax64 _ _ mode_NE t t) as M.
  assert (BL : Rlt_bool (Rabs (rnd (B2R t * B2R t))) (bp emax64) = true).
  { apply Rlt_bool_true. apply Rle_lt_trans with (bp 1000); [|apply bpow_lt; reflexivity].
    apply abs_round_le_generic; [apply vexp|apply valid_rnd_round_mode|apply generic_format_bpow; vm_compute; congruence|].
    rewrite Rabs_pos_eq by nra. change 1000%Z with (500 + 500)%Z. rewrite bpow_plus. nra. }
  rewrite BL in M. destruct M as (M1 & M2 & M3). rewrite F in M2. cbn [andb] in M2.
  pose proof (Bsqrt_correct prec64 emax64 _ _ mode_NE (fmul t t)) as S.
  change (Bmult mode_NE t t) with (fmul t t) in *. destruct S as (S1 & S2 & S3). rewrite M1, SQ in S1.
  assert (SG : Bsign t = false).
  { destruct t as [s|s| |s m ex Hb]; try discriminate; [cbn in P; lra|]. destruct s; [|reflexivity]. cbn in P. exfalso. 
    assert (F2R (Float radix2 (Z.neg m) ex) < 0) by (apply F2R_lt_0; reflexivity). lra. }
  assert (SM : Bsign (fmul t t) = false). { rewrite M3; [now rewrite SG|]. destruct (fmul t t); try reflexivity; discriminate. }
  assert (FS : is_finite (fsqrt (fmul t t)) = true).
  { unfold fsqrt. rewrite S2. destruct (fmul t t) as [s|s| |s m ex Hb]; try discriminate; [reflexivity|]. cbn in SM. now rewrite SM. }
  apply f64_ext; [exact FS|exact F|exact S1|]. unfold fsqrt in *. rewrite S3; [congruence|]. destruct (Bsqrt mode_NE (fmul t t)); try reflexivity; discriminate.
Qed.
