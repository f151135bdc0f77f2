(** * Sums and products of non-negative doubles *)
From Coq Require Import ZArith Bool Reals Lra Psatz.
From Flocq Require Import Core BinarySingleNaN.
From Verif Require Import Prelude Flt FltFacts.
#[local] Open Scope R_scope.

Lemma fle0_cases (x : f64) : fle fzero x = true -> x = finf false \/ (is_finite x = true /\ 0 <= B2R x).
Proof.
  intros H. destruct x as [s|[|]| |s m e B].
  - right. split; [reflexivity|cbn; lra].
  - discriminate H.
  - now left.
  - discriminate H.
  - right. split; [reflexivity|]. now apply (fle_B2R fzero (B754_finite s m e B)) in H.
Qed.
Lemma fle0_finite (x : f64) : is_finite x = true -> 0 <= B2R x -> fle fzero x = true.
Proof. intros F H. apply fle_B2R; [reflexivity|exact F|exact H]. Qed.
Lemma fsign_nonneg (x : f64) : is_finite x = true -> 0 <= B2R x -> Bsign x = true -> B2R x = 0.
Proof.
  destruct x as [s|s| |s m e B]; cbn; intros F H S; try discriminate; try reflexivity.
  subst s. unfold F2R in *. cbn in *. pose proof (bpow_gt_0 radix2 e). assert (0 < IZR (Zpos m)) by (apply IZR_lt; reflexivity).
  assert (IZR (Zneg m) = - IZR (Zpos m)) by (rewrite <- opp_IZR; reflexivity). nra.
Qed.
Lemma round_nonneg x : 0 <= x -> 0 <= round radix2 (SpecFloat.fexp prec64 emax64) (round_mode mode_NE) x.
Proof.
  intros H. rewrite <- (round_0 radix2 (SpecFloat.fexp prec64 emax64) (round_mode mode_NE)). apply round_le; [typeclasses eauto|typeclasses eauto|exact H].
Qed.
Lemma fadd_nonneg (a b : f64) : fle fzero a = true -> fle fzero b = true -> fle fzero (fadd a b) = true.
Proof.
  intros Ha Hb. destruct (fle0_cases a Ha) as [->|[Fa Pa]], (fle0_cases b Hb) as [->|[Fb Pb]].
  - reflexivity.
  - destruct b; try discriminate; reflexivity.
  - destruct a; try discriminate; reflexivity.
  - pose proof (Bplus_correct prec64 emax64 _ _ mode_NE a b Fa Fb) as H. fold (fadd a b) in H.
    destruct (Rlt_bool_spec (Rabs (round radix2 (SpecFloat.fexp prec64 emax64) (round_mode mode_NE) (B2R a + B2R b))) (bpow radix2 emax64)) as [Hlt|Hge].
    + destruct H as (E & F & _). apply fle0_finite; [exact F|]. rewrite E. apply round_nonneg. lra.
    + destruct H as (E & S). destruct (Bsign a) eqn:Sa.
      * exfalso. symmetry in S. rewrite (fsign_nonneg a Fa Pa Sa), (fsign_nonneg b Fb Pb S), Rplus_0_r, round_0, Rabs_R0 in Hge by typeclasses eauto.
        pose proof (bpow_gt_0 radix2 emax64). lra.
      * assert (fadd a b = finf false) as -> by (apply B2SF_inj; exact E). reflexivity.
Qed.
Lemma fmul_nonneg (a b : f64) : is_finite a = true -> 0 < B2R a -> fle fzero b = true -> fle fzero (fmul a b) = true.
Proof.
  intros Fa Pa Hb. destruct (fle0_cases b Hb) as [->|[Fb Pb]].
  - destruct a as [s|s| |s m e B]; try discriminate; cbn in Pa; [lra|]. destruct s; [|reflexivity].
    exfalso. unfold F2R in Pa. cbn in Pa. pose proof (bpow_gt_0 radix2 e). assert (0 < IZR (Zpos m)) by (apply IZR_lt; reflexivity).
    assert (IZR (Zneg m) = - IZR (Zpos m)) by (rewrite <- opp_IZR; reflexivity). nra.
  - pose proof (Bmult_correct prec64 emax64 _ _ mode_NE a b) as H. fold (fmul a b) in H.
    destruct (Rlt_bool_spec (Rabs (round radix2 (SpecFloat.fexp prec64 emax64) (round_mode mode_NE) (B2R a * B2R b))) (bpow radix2 emax64)) as [Hlt|Hge].
    + destruct H as (E & F & _). rewrite Fa, Fb in F. apply fle0_finite; [exact F|]. rewrite E. apply round_nonneg. nra.
    + destruct (Bsign b) eqn:Sb.
      * exfalso. rewrite (fsign_nonneg b Fb Pb Sb), Rmult_0_r, round_0, Rabs_R0 in Hge by typeclasses eauto. pose proof (bpow_gt_0 radix2 emax64). lra.
      * destruct (Bsign a) eqn:Sa; [rewrite (fsign_nonneg a Fa ltac:(lra) Sa) in Pa; lra|].
        assert (fmul a b = finf false) as -> by (apply B2SF_inj; exact H). reflexivity.
Qed.
Lemma fsquare_nonneg (a : f64) : fisnan a = false -> fle fzero (fmul a a) = true.
Proof.
  intros N. pose proof (Bmult_correct prec64 emax64 _ _ mode_NE a a) as H. fold (fmul a a) in H.
  destruct (is_finite a) eqn:Fa.
  - destruct (Rlt_bool_spec (Rabs (round radix2 (SpecFloat.fexp prec64 emax64) (round_mode mode_NE) (B2R a * B2R a))) (bpow radix2 emax64)) as [Hlt|Hge].
    + destruct H as (E & F & _). apply fle0_finite; [exact F|]. rewrite E. apply round_nonneg. nra.
    + rewrite xorb_nilpotent in H. assert (fmul a a = finf false) as -> by (apply B2SF_inj; exact H). reflexivity.
  - destruct a as [s|[|]| |s m e B]; try discriminate; reflexivity.
Qed.

(** Never negative: NaN or at least zero. *)
Definition never_negative (x : f64) : Prop := fisnan x = true \/ fle fzero x = true.
Lemma nn_add (a b : f64) : never_negative a -> never_negative b -> never_negative (fadd a b).
Proof.
  intros [Ha|Ha] [Hb|Hb].
  - left. destruct a; try discriminate. reflexivity.
  - left. destruct a; try discriminate. reflexivity.
  - left. destruct b; try discriminate. destruct a; reflexivity.
  - right. now apply fadd_nonneg.
Qed.
Lemma nn_square (a : f64) : never_negative (fmul a a).
Proof. destruct (fisnan a) eqn:N; [left|right; now apply fsquare_nonneg]. destruct a; try discriminate. reflexivity. Qed.
Lemma nn_scale (a b : f64) : is_finite a = true -> 0 < B2R a -> never_negative b -> never_negative (fmul a b).
Proof.
  intros F P [Hb|Hb]; [left|right; now apply fmul_nonneg]. destruct b; try discriminate. destruct a; reflexivity.
Qed.
Lemma never_negative_spec x : never_negative x <-> flt x fzero = false.
Proof.
  unfold never_negative. rewrite fle_key, flt_key. cbn [fisnan is_nan fzero fkey negb andb]. rewrite andb_true_r.
  destruct (fisnan x); cbn [negb andb]; [tauto|]. rewrite Z.leb_le, Z.ltb_ge. split; [intros [|]; [discriminate|assumption]|auto].
Qed.
