(** * Order facts about doubles, reduced to integers through [fkey]. *)
From Coq Require Import ZArith Bool Reals Lra Lia.
From Coq.Floats Require Import SpecFloat.
From Flocq Require Import Core BinarySingleNaN.
From Verif Require Import Prelude Flt.
#[local] Open Scope Z_scope.

Lemma bounded_emin m e : bounded prec64 emax64 m e = true -> -1074 <= e /\ e <= 971 /\ Z.pos m < 2 ^ 53.
Proof.
  intros H. unfold bounded in H. apply andb_true_iff in H as [H1 H2].
  apply Z.leb_le in H2. unfold canonical_mantissa in H1. apply Zeq_bool_eq in H1.
  unfold fexp, emin, prec64, emax64 in *.
  split; [lia|split; [lia|]].
  assert (Hd : Z.pos (digits2_pos m) <= 53) by lia.
  rewrite Digits.Zpos_digits2_pos in Hd.
  pose proof (Digits.Zdigits_correct Zaux.radix2 (Z.pos m)) as [_ Hlt].
  rewrite Z.abs_eq in Hlt by lia.
  eapply Z.lt_le_trans; [exact Hlt|].
  change (Zpower Zaux.radix2 (Digits.Zdigits Zaux.radix2 (Z.pos m))) with (2 ^ (Digits.Zdigits Zaux.radix2 (Z.pos m))).
  apply Z.pow_le_mono_r; lia.
Qed.

Lemma fkey_real (x : f64) : is_finite x = true ->
  IZR (fkey x) = (B2R x * bpow radix2 1074)%R.
Proof.
  destruct x as [s|s| |s m e Hb]; cbn [is_finite fkey B2R]; intros Hf; try discriminate.
  - rewrite Rmult_0_l. reflexivity.
  - destruct (bounded_emin _ _ Hb) as (He & _ & _).
    unfold F2R; cbn [Fnum Fexp]. rewrite mult_IZR.
    assert (IZR (2 ^ (e + 1074)) = bpow radix2 (e + 1074)) as ->.
    { change (2 ^ (e + 1074)) with (Zpower radix2 (e + 1074)). apply IZR_Zpower. lia. }
    rewrite bpow_plus. destruct s; cbn [cond_Zopp]; [change (Z.neg m) with (- Z.pos m)|]; ring.
Qed.

Lemma fkey_finite_bound (x : f64) : is_finite x = true -> - 2 ^ 2200 < fkey x < 2 ^ 2200.
Proof.
  destruct x as [s|s| |s m e Hb]; cbn [is_finite fkey]; intros Hf; try discriminate.
  - split; [apply Z.opp_neg_pos|]; apply Z.pow_pos_nonneg; lia.
  - destruct (bounded_emin _ _ Hb) as (He & He' & Hm).
    assert (Hp : 2 ^ (e + 1074) <= 2 ^ 2100) by (apply Z.pow_le_mono_r; lia).
    assert (Hq : 0 < 2 ^ (e + 1074)) by (apply Z.pow_pos_nonneg; lia).
    assert (Hpr : Z.pos m * 2 ^ (e + 1074) < 2 ^ 53 * 2 ^ 2100) by nia.
    rewrite <- Z.pow_add_r in Hpr by lia.
    assert (2 ^ (53 + 2100) <= 2 ^ 2200) by (apply Z.pow_le_mono_r; lia).
    change (Z.neg m) with (- Z.pos m).
    destruct s; nia.
Qed.

Lemma fkey_compare (x y : f64) : fisnan x = false -> fisnan y = false ->
  Bcompare x y = Some (Z.compare (fkey x) (fkey y)).
Proof.
  intros Hx Hy.
  destruct (is_finite x) eqn:Fx, (is_finite y) eqn:Fy.
  - rewrite Bcompare_correct by assumption. f_equal.
    destruct (Rcompare_spec (B2R x) (B2R y)) as [H|H|H];
      symmetry; [apply Z.compare_lt_iff|apply Z.compare_eq_iff|apply Z.compare_gt_iff].
    + apply lt_IZR. rewrite !fkey_real by assumption.
      apply Rmult_lt_compat_r; [apply bpow_gt_0|assumption].
    + apply eq_IZR. rewrite !fkey_real by assumption. congruence.
    + apply lt_IZR. rewrite !fkey_real by assumption.
      apply Rmult_lt_compat_r; [apply bpow_gt_0|assumption].
  - destruct y as [|sy| |]; try discriminate.
    pose proof (fkey_finite_bound x Fx) as Hb. cbn [fkey].
    destruct x as [|s| |s m e Hbx]; try discriminate; destruct sy; cbn [Bcompare B2SF SFcompare];
      f_equal; symmetry; (apply Z.compare_lt_iff || apply Z.compare_gt_iff); lia.
  - destruct x as [|sx| |]; try discriminate.
    pose proof (fkey_finite_bound y Fy) as Hb. cbn [fkey].
    destruct y as [|s| |s m e Hbx]; try discriminate; destruct sx; cbn [Bcompare B2SF SFcompare];
      f_equal; symmetry; (apply Z.compare_lt_iff || apply Z.compare_gt_iff); lia.
  - destruct x as [|sx| |]; try discriminate; destruct y as [|sy| |]; try discriminate.
    assert (0 < 2 ^ 2200) by (apply Z.pow_pos_nonneg; lia).
    destruct sx, sy; unfold Bcompare; cbn [B2SF SFcompare fkey]; f_equal; symmetry;
      (apply Z.compare_eq_iff || apply Z.compare_lt_iff || apply Z.compare_gt_iff); lia.
Qed.

Lemma flt_compare x y : flt x y = match Bcompare x y with Some Lt => true | _ => false end.
Proof. reflexivity. Qed.
Lemma fle_compare x y : fle x y = match Bcompare x y with Some Lt | Some Eq => true | _ => false end.
Proof. unfold fle, Bleb, Bcompare, SFleb. destruct SFcompare as [[]|]; reflexivity. Qed.
Lemma feq_compare x y : feq x y = match Bcompare x y with Some Eq => true | _ => false end.
Proof. reflexivity. Qed.

Lemma Bcompare_nan_l (y : f64) : Bcompare (B754_nan : f64) y = None.
Proof. destruct y; reflexivity. Qed.
Lemma Bcompare_nan_r (x : f64) : Bcompare x (B754_nan : f64) = None.
Proof. destruct x as [|[]| |[]]; reflexivity. Qed.

Lemma flt_key x y : flt x y = negb (fisnan x) && negb (fisnan y) && (fkey x <? fkey y).
Proof.
  rewrite flt_compare.
  destruct (fisnan x) eqn:Hx.
  { destruct x; try discriminate. rewrite Bcompare_nan_l. reflexivity. }
  destruct (fisnan y) eqn:Hy.
  { destruct y; try discriminate. rewrite Bcompare_nan_r. reflexivity. }
  rewrite fkey_compare by assumption. cbn [negb andb].
  unfold Z.ltb. destruct (fkey x ?= fkey y); reflexivity.
Qed.
Lemma fle_key x y : fle x y = negb (fisnan x) && negb (fisnan y) && (fkey x <=? fkey y).
Proof.
  rewrite fle_compare.
  destruct (fisnan x) eqn:Hx.
  { destruct x; try discriminate. rewrite Bcompare_nan_l. reflexivity. }
  destruct (fisnan y) eqn:Hy.
  { destruct y; try discriminate. rewrite Bcompare_nan_r. reflexivity. }
  rewrite fkey_compare by assumption. cbn [negb andb].
  unfold Z.leb. destruct (fkey x ?= fkey y); reflexivity.
Qed.
Lemma feq_key x y : feq x y = negb (fisnan x) && negb (fisnan y) && (fkey x =? fkey y).
Proof.
  rewrite feq_compare.
  destruct (fisnan x) eqn:Hx.
  { destruct x; try discriminate. rewrite Bcompare_nan_l. reflexivity. }
  destruct (fisnan y) eqn:Hy.
  { destruct y; try discriminate. rewrite Bcompare_nan_r. reflexivity. }
  rewrite fkey_compare by assumption. cbn [negb andb].
  destruct (Z.eqb_spec (fkey x) (fkey y)) as [->|H].
  - rewrite Z.compare_refl. reflexivity.
  - destruct (Z.compare_spec (fkey x) (fkey y)); congruence.
Qed.
Lemma fgt_key x y : fgt x y = negb (fisnan x) && negb (fisnan y) && (fkey y <? fkey x).
Proof. unfold fgt. rewrite flt_key. rewrite (andb_comm (negb (fisnan y))). reflexivity. Qed.
Lemma fge_key x y : fge x y = negb (fisnan x) && negb (fisnan y) && (fkey y <=? fkey x).
Proof. unfold fge. rewrite fle_key. rewrite (andb_comm (negb (fisnan y))). reflexivity. Qed.

Lemma fisnan_spec (x : f64) : fisnan x = true <-> x = fnan.
Proof. destruct x; cbn; split; intros; try discriminate; auto. Qed.

Lemma fkey_fopp x : fkey (fopp x) = - fkey x.
Proof.
  destruct x as [s|s| |s m e Hb]; unfold fopp; cbn [Bopp fkey]; try lia.
  - destruct s; cbn [negb]; lia.
  - destruct s; cbn [negb]; lia.
Qed.
Lemma fisnan_fopp x : fisnan (fopp x) = fisnan x.
Proof. destruct x; reflexivity. Qed.

Lemma flt_fopp x y : flt (fopp x) (fopp y) = flt y x.
Proof.
  rewrite !flt_key, !fisnan_fopp, !fkey_fopp, (andb_comm (negb (fisnan x))). f_equal.
  destruct (Z.ltb_spec (- fkey x) (- fkey y)), (Z.ltb_spec (fkey y) (fkey x)); lia || reflexivity.
Qed.
Lemma fle_fopp x y : fle (fopp x) (fopp y) = fle y x.
Proof.
  rewrite !fle_key, !fisnan_fopp, !fkey_fopp, (andb_comm (negb (fisnan x))). f_equal.
  destruct (Z.leb_spec (- fkey x) (- fkey y)), (Z.leb_spec (fkey y) (fkey x)); lia || reflexivity.
Qed.
Lemma feq_fopp x y : feq (fopp x) (fopp y) = feq x y.
Proof.
  rewrite !feq_key, !fisnan_fopp, !fkey_fopp. f_equal.
  destruct (Z.eqb_spec (- fkey x) (- fkey y)), (Z.eqb_spec (fkey x) (fkey y)); lia || reflexivity.
Qed.
Lemma fopp_involutive x : fopp (fopp x) = x.
Proof. destruct x; unfold fopp; cbn; rewrite ?negb_involutive; reflexivity. Qed.

Lemma is_finite_not_nan (x : f64) : is_finite x = true -> fisnan x = false.
Proof. destruct x; auto; discriminate. Qed.

(** Turn every comparison of doubles into statements about [fisnan] and [fkey]. *)
Ltac fkeys :=
  unfold fne in *;
  repeat (rewrite ?flt_key, ?fle_key, ?feq_key, ?fgt_key, ?fge_key, ?fisnan_fopp, ?fkey_fopp in *).
(** Decide a goal about comparisons of doubles. *)
Ltac fdestr :=
  repeat match goal with
  | |- context [fisnan ?x] => lazymatch x with context[if _ then _ else _] => fail | _ => destruct (fisnan x) eqn:? end
  | H : context [fisnan ?x] |- _ => lazymatch type of H with fisnan _ = _ => fail | _ => destruct (fisnan x) eqn:? end
  end.
Ltac fsolve := fkeys; fdestr; cbn [negb andb orb] in *; try discriminate; try congruence; try lia.

Lemma flt_irrefl x : flt x x = false.
Proof. fkeys. rewrite Z.ltb_irrefl. now rewrite andb_false_r. Qed.
Lemma flt_trans x y z : flt x y = true -> flt y z = true -> flt x z = true.
Proof. fsolve. Qed.
Lemma flt_asym x y : flt x y = true -> flt y x = false.
Proof. fsolve. Qed.
Lemma flt_total x y : fisnan x = false -> fisnan y = false -> feq x y = false -> flt x y = true \/ flt y x = true.
Proof. fsolve. Qed.
Lemma fle_refl x : fle x x = negb (fisnan x).
Proof. fsolve. Qed.
Lemma fle_trans x y z : fle x y = true -> fle y z = true -> fle x z = true.
Proof. fsolve. Qed.
Lemma fle_not_nan x y : fle x y = true -> fisnan x = false /\ fisnan y = false.
Proof. fsolve. Qed.
Lemma flt_not_nan x y : flt x y = true -> fisnan x = false /\ fisnan y = false.
Proof. fsolve. Qed.

Lemma fle_B2R x y : is_finite x = true -> is_finite y = true -> (fle x y = true <-> (B2R x <= B2R y)%R).
Proof.
  intros Hx Hy. unfold fle. rewrite Bleb_correct by assumption.
  destruct (Rle_bool_spec (B2R x) (B2R y)); split; intros; auto; try discriminate; lra.
Qed.
Lemma flt_B2R x y : is_finite x = true -> is_finite y = true -> (flt x y = true <-> (B2R x < B2R y)%R).
Proof.
  intros Hx Hy. unfold flt. rewrite Bltb_correct by assumption.
  destruct (Rlt_bool_spec (B2R x) (B2R y)); split; intros; auto; try discriminate; lra.
Qed.
Lemma feq_B2R x y : is_finite x = true -> is_finite y = true -> (feq x y = true <-> (B2R x = B2R y)%R).
Proof.
  intros Hx Hy. unfold feq. rewrite Beqb_correct by assumption.
  destruct (Req_bool_spec (B2R x) (B2R y)); split; intros; auto; try discriminate; lra.
Qed.

Lemma is_nan_binary_normalize_64 m e b : is_nan (binary_normalize prec64 emax64 _ _ mode_NE m e b) = false.
Proof. apply is_nan_binary_normalize. Qed.

Lemma fkey_fmaxval : fkey fmaxval = (2 ^ 53 - 1) * 2 ^ 2045.
Proof. vm_compute. reflexivity. Qed.

Lemma fkey_le_max x : is_finite x = true -> fkey x <= fkey fmaxval.
Proof.
  intros Hf. destruct x as [s|s| |s m e Hb]; try (cbn in Hf; discriminate Hf).
  - cbn [fkey]. rewrite fkey_fmaxval. apply Z.mul_nonneg_nonneg; [lia|apply Z.pow_nonneg; lia].
  - destruct (bounded_emin _ _ Hb) as (He & He' & Hm). cbn [fkey]. rewrite fkey_fmaxval.
    assert (Hp : 2 ^ (e + 1074) <= 2 ^ 2045) by (apply Z.pow_le_mono_r; lia).
    assert (Hq : 0 < 2 ^ (e + 1074)) by (apply Z.pow_pos_nonneg; lia).
    assert (Hc : 0 < 2 ^ 2045) by lia.
    destruct s; [change (Z.neg m) with (- Z.pos m)|]; nia.
Qed.
Lemma fkey_ge_lowest x : is_finite x = true -> fkey flowest <= fkey x.
Proof.
  intros Hf. assert (H : fkey (fopp x) <= fkey fmaxval).
  { apply fkey_le_max. destruct x; auto. }
  rewrite fkey_fopp in H. unfold flowest.
  change (Bopp Bmax_float) with (fopp fmaxval). rewrite fkey_fopp. lia.
Qed.

(** Structural equality, decidable by computation (used for concrete examples). *)
Definition f64_same (a b : f64) : bool :=
  match a, b with
  | B754_zero s, B754_zero s' => Bool.eqb s s'
  | B754_infinity s, B754_infinity s' => Bool.eqb s s'
  | B754_nan, B754_nan => true
  | B754_finite s m e _, B754_finite s' m' e' _ => Bool.eqb s s' && (m =? m')%positive && (e =? e')%Z
  | _, _ => false
  end.
Lemma f64_same_eq a b : f64_same a b = true -> a = b.
Proof.
  intros H. apply B2SF_inj.
  destruct a as [s|s| |s m e Hb], b as [s'|s'| |s' m' e' Hb']; cbn in *; try discriminate; auto.
  - apply Bool.eqb_prop in H. congruence.
  - apply Bool.eqb_prop in H. congruence.
  - apply andb_prop in H as [H H3]. apply andb_prop in H as [H1 H2].
    apply Bool.eqb_prop in H1. apply Pos.eqb_eq in H2. apply Z.eqb_eq in H3. congruence.
Qed.
Fixpoint f64s_same (a b : list f64) : bool :=
  match a, b with
  | [], [] => true
  | x :: a', y :: b' => f64_same x y && f64s_same a' b'
  | _, _ => false
  end.
Lemma f64s_same_eq a b : f64s_same a b = true -> a = b.
Proof.
  revert b. induction a as [|x a IH]; intros [|y b]; cbn; try discriminate; auto.
  intros H. apply andb_prop in H as [H1 H2]. apply f64_same_eq in H1. apply IH in H2. congruence.
Qed.
Ltac f64_compute := apply f64_same_eq; vm_compute; reflexivity.
