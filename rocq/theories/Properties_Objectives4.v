(** * C59: the Rastrigin function in double precision. *)
From Coq Require Import ZArith Bool Lia Reals Lra List.
From Flocq Require Import Core BinarySingleNaN.
From Verif Require Import Prelude Flt FltFacts FltNonneg Num Round8 MathTools Objectives Properties_Boundary2.
#[local] Open Scope R_scope.

(** NaN or at least (at most) an integer. *)
Definition at_least (z : Z) (x : f64) : Prop := fisnan x = true \/ x = finf false \/ (is_finite x = true /\ IZR z <= B2R x).
Definition at_most (z : Z) (x : f64) : Prop := fisnan x = true \/ x = finf true \/ (is_finite x = true /\ B2R x <= IZR z).
Lemma rnd_ge_Z z v : (Z.abs z <= 2 ^ 53)%Z -> IZR z <= v -> IZR z <= rnd v.
Proof. intros Hz H. apply round_ge_generic; [typeclasses eauto|apply valid_rnd_round_mode|exact (is_fmt _ _ (is_ofZ z Hz))|exact H]. Qed.
Lemma rnd_le_Z z v : (Z.abs z <= 2 ^ 53)%Z -> v <= IZR z -> rnd v <= IZR z.
Proof. intros Hz H. apply round_le_generic; [typeclasses eauto|apply valid_rnd_round_mode|exact (is_fmt _ _ (is_ofZ z Hz))|exact H]. Qed.
Lemma np_mul a b : a <= 0 -> 0 <= b -> a * b <= 0.
Proof. intros Ha Hb. pose proof (Rmult_le_pos (- a) b ltac:(lra) Hb). lra. Qed.
Lemma sign_neg (x : f64) : is_finite x = true -> Bsign x = true -> B2R x <= 0.
Proof.
  destruct x as [s|s| |s m e B]; cbn; intros F S; try discriminate; [lra|]. subst s. unfold F2R. cbn. pose proof (bpow_gt_0 radix2 e). assert (IZR (Zneg m) <= 0) by (apply IZR_le; lia). apply np_mul; lra.
Qed.
Lemma sign_pos (x : f64) : is_finite x = true -> Bsign x = false -> 0 <= B2R x.
Proof.
  destruct x as [s|s| |s m e B]; cbn; intros F S; try discriminate; [lra|]. subst s. unfold F2R. cbn. pose proof (bpow_gt_0 radix2 e). assert (0 <= IZR (Zpos m)) by (apply IZR_le; lia). apply Rmult_le_pos; lra.
Qed.
Lemma Z_below z : (Z.abs z <= 2 ^ 53)%Z -> Rabs (IZR z) < bpow radix2 emax64.
Proof. intros H. rewrite <- abs_IZR. apply Rle_lt_trans with (IZR (2 ^ 53)); [apply IZR_le; exact H|]. change (IZR (2 ^ 53)) with (bpow radix2 53). apply bpow_lt. reflexivity. Qed.
Lemma al_add p q a b : (Z.abs (p + q) <= 2 ^ 53)%Z -> at_least p a -> at_least q b -> at_least (p + q) (fadd a b).
Proof.
  intros Hz [Ha|[->|[Fa Pa]]] [Hb|[->|[Fb Pb]]].
  1-3: left; destruct a; try discriminate; reflexivity.
  - left. destruct b; try discriminate. reflexivity.
  - right. left. reflexivity.
  - right. left. destruct b; try discriminate; reflexivity.
  - left. destruct b; try discriminate. destruct a; reflexivity.
  - right. left. destruct a; try discriminate; reflexivity.
  - right. pose proof (Bplus_correct prec64 emax64 _ _ mode_NE a b Fa Fb) as H. fold (fadd a b) in H.
    assert (G : IZR (p + q) <= B2R a + B2R b) by (rewrite plus_IZR; lra). pose proof (rnd_ge_Z _ _ Hz G) as G2.
    destruct (Rlt_bool_spec (Rabs (rnd (B2R a + B2R b))) (bpow radix2 emax64)) as [Hlt|Hge].
    + destruct H as (E & F & _). right. split; [exact F|]. rewrite E. exact G2.
    + destruct H as (E & S). left. destruct (Bsign a) eqn:Sa; [exfalso|apply B2SF_inj; exact E].
      pose proof (sign_neg a Fa Sa) as Na. pose proof (sign_neg b Fb (eq_sym S)) as Nb. assert (N : rnd (B2R a + B2R b) <= IZR 0) by (apply rnd_le_Z; [cbn; lia|lra]). pose proof (Z_below _ Hz) as ZB. rewrite Rabs_left1 in Hge by exact N. apply Rabs_def2 in ZB. lra.
Qed.
Lemma am_opp q b : at_most q b -> at_least (- q) (fopp b).
Proof.
  intros [Hb|[->|[Fb Pb]]]; [left; destruct b; try discriminate; reflexivity|right; left; reflexivity|right; right]. unfold fopp. rewrite is_finite_Bopp, B2R_Bopp, opp_IZR. split; [exact Fb|lra].
Qed.
Lemma fsub_opp (a b : f64) : fsub a b = fadd a (fopp b).
Proof. unfold fsub, fadd, fopp. destruct a as [sa|sa| |sa ma ea Ba], b as [sb|sb| |sb mb eb Bb]; try reflexivity; destruct sa, sb; reflexivity. Qed.
Lemma al_sub p q a b : (Z.abs (p - q) <= 2 ^ 53)%Z -> at_least p a -> at_most q b -> at_least (p - q) (fsub a b).
Proof. intros Hz Ha Hb. rewrite fsub_opp. exact (al_add p (- q) a (fopp b) Hz Ha (am_opp q b Hb)). Qed.
Lemma am_scale (w c : f64) W z : is w (IZR W) -> (0 < W)%Z -> (Z.abs (W * z) <= 2 ^ 53)%Z -> (0 <= z)%Z -> at_most z c -> at_most (W * z) (fmul w c).
Proof.
  intros [Fw Ew] HW Hz Z0 [Hc|[->|[Fc Pc]]].
  - left. destruct c; try discriminate. destruct w; reflexivity.
  - right. left. assert (P : 0 < B2R w) by (rewrite Ew; apply IZR_lt; exact HW). destruct w as [s|s| |s m e B]; try discriminate; cbn in P; [lra|]. destruct s; [|reflexivity]. exfalso. unfold F2R in P. cbn in P. pose proof (bpow_gt_0 radix2 e) as B0. assert (N : IZR (Zneg m) <= 0) by (apply IZR_le; lia). assert (IZR (Zneg m) * bpow radix2 e <= 0) by (apply np_mul; lra). lra.
  - right. pose proof (Bmult_correct prec64 emax64 _ _ mode_NE w c) as H. fold (fmul w c) in H.
    assert (W0 : 0 < IZR W) by (apply IZR_lt; exact HW). assert (G : B2R w * B2R c <= IZR (W * z)) by (rewrite Ew, mult_IZR; apply Rmult_le_compat_l; lra). pose proof (rnd_le_Z _ _ Hz G) as G2.
    destruct (Rlt_bool_spec (Rabs (rnd (B2R w * B2R c))) (bpow radix2 emax64)) as [Hlt|Hge].
    + destruct H as (E & F & _). rewrite Fw, Fc in F. right. split; [exact F|]. rewrite E. exact G2.
    + left. assert (Sw : Bsign w = false). { destruct (Bsign w) eqn:S; [|reflexivity]. exfalso. pose proof (sign_neg w Fw S) as X. rewrite Ew in X. lra. }
      rewrite Sw in H. destruct (Bsign c) eqn:Sc; [apply B2SF_inj; exact H|exfalso]. pose proof (sign_pos c Fc Sc) as Pc0.
      assert (N : IZR 0 <= rnd (B2R w * B2R c)) by (apply rnd_ge_Z; [cbn; lia|rewrite Ew; apply Rmult_le_pos; lra]). rewrite Rabs_pos_eq in Hge by exact N. pose proof (Z_below _ Hz) as ZB. apply Rabs_def2 in ZB. lra.
Qed.
Lemma al_nn x : never_negative x -> at_least 0 x.
Proof. intros [H|H]; [left; exact H|right]. destruct (fle0_cases x H) as [E|[F P]]; [left; exact E|right; split; assumption]. Qed.
Lemma nn_al x : at_least 0 x -> never_negative x.
Proof. intros [H|[->|[F P]]]; [left; exact H|right; reflexivity|right; apply fle0_finite; assumption]. Qed.

Section Rastrigin.
Variable L : libm.
Variable pi : f64.
Notation term x := (fsub (fmul x x) (fmul (fofZ 10) (lm_cos L (fmul (fmul (fofZ 2) pi) x)))).
Lemma rastrigin_loop (v : list f64) : (Z.of_nat (length v) <= 2 ^ 49)%Z ->
  @rastrigin (numF L) pi v = fold_left (fun s (x : f64) => fadd s (term x)) v (fmul (fofZ 10) (fofZ (Z.of_nat (length v)))).
Proof. reflexivity. Qed.
(** With a cosine that is never above 1, Rastrigin is never negative, whatever is rounded: each partial sum is at least ten times
    the number of coordinates that are left. *)
Lemma rastrigin_from (v : list f64) : (forall x, at_most 1 (lm_cos L x)) -> (Z.of_nat (length v) <= 2 ^ 49)%Z -> forall s, at_least (10 * Z.of_nat (length v)) s ->
  at_least 0 (fold_left (fun s (x : f64) => fadd s (term x)) v s).
Proof.
  intros HC. change (2 ^ 49)%Z with 562949953421312%Z. induction v as [|x v IH]; intros HL s Hs; [exact Hs|]. cbn [fold_left]. change (length (x :: v)) with (S (length v)) in *. apply IH; [lia|].
  replace (10 * Z.of_nat (length v))%Z with (10 * Z.of_nat (S (length v)) + (0 - 10 * 1))%Z by lia. change (2 ^ 53)%Z with 9007199254740992%Z in *.
  apply al_add; [change (2 ^ 53)%Z with 9007199254740992%Z; lia|exact Hs|]. apply al_sub; [change (2 ^ 53)%Z with 9007199254740992%Z; lia|apply al_nn, nn_square|].
  apply am_scale; [apply is_ofZ; cbn; lia|lia|change (2 ^ 53)%Z with 9007199254740992%Z; lia|lia|apply HC].
Qed.
End Rastrigin.
Lemma ten_times n : (Z.of_nat n <= 2 ^ 49)%Z -> is (fmul (fofZ 10) (fofZ (Z.of_nat n))) (IZR (10 * Z.of_nat n)).
Proof.
  change (2 ^ 49)%Z with 562949953421312%Z. intros H. assert (H53 : (Z.abs (10 * Z.of_nat n) <= 2 ^ 53)%Z) by (change (2 ^ 53)%Z with 9007199254740992%Z; lia).
  assert (I1 : is (fofZ 10) (IZR 10)) by (apply is_ofZ; cbn; lia). assert (I2 : is (fofZ (Z.of_nat n)) (IZR (Z.of_nat n))) by (apply is_ofZ; change (2 ^ 53)%Z with 9007199254740992%Z; lia).
  assert (E : IZR 10 * IZR (Z.of_nat n) = IZR (10 * Z.of_nat n)) by (rewrite mult_IZR; reflexivity).
  pose proof (is_mul _ _ _ _ I1 I2) as M. rewrite E in M. assert (R : rnd (IZR (10 * Z.of_nat n)) = IZR (10 * Z.of_nat n)) by (apply round_generic; [apply valid_rnd_round_mode|exact (is_fmt _ _ (is_ofZ _ H53))]). rewrite R in M. apply M.
  rewrite <- abs_IZR. apply Rle_trans with (bpow radix2 53); [change (bpow radix2 53) with (IZR (2 ^ 53)); apply IZR_le; exact H53|apply bpow_le; lia].
Qed.
(** In double precision, with a cosine that never returns a value above 1 (NaN is allowed), Rastrigin of any point of up to 2^49
    coordinates is never negative (NaN and infinity are possible). *)
Theorem C59_rastrigin_never_negative : forall L (pi : f64) (v : list f64), (forall x, flt (fofZ 1) (lm_cos L x) = false) -> (Z.of_nat (length v) <= 2 ^ 49)%Z ->
  flt (@rastrigin (numF L) pi v) fzero = false.
Proof.
  intros L pi v HC HL. apply never_negative_spec, nn_al. pose proof (rastrigin_loop L pi v HL) as E. set (r := @rastrigin (numF L) pi v) in *. change (nT (numF L)) with f64 in *. rewrite E. apply rastrigin_from; [|exact HL|].
  - intros x. specialize (HC x). set (c := lm_cos L x) in *. clearbody c. destruct (fisnan c) eqn:N; [left; exact N|right].
    destruct (is_ofZ 1 ltac:(cbn; lia)) as [F1 E1]. destruct (is_finite c) eqn:F.
    + right. split; [reflexivity|]. destruct (Rle_or_lt (B2R c) 1) as [H|H]; [exact H|exfalso]. assert (X : flt (fofZ 1) c = true) by (apply flt_B2R; [exact F1|exact F|rewrite E1; exact H]). congruence.
    + left. clear E1. revert HC F1. generalize (fofZ 1). intros o HC F1. destruct c as [s|[|]| |s m e B]; try discriminate F; try discriminate N; [reflexivity|]. exfalso. destruct o; try discriminate F1; discriminate HC.
  - right. right. destruct (ten_times _ HL) as [F V]. split; [exact F|]. rewrite V. apply Rle_refl.
Qed.
(** At the documented optimum it is exactly zero in every dimension, if the cosine of zero is 1. *)
Theorem C59_rastrigin_optimum_exact : forall L (pi : f64) d, lm_cos L (fmul (fmul (fofZ 2) pi) fzero) = fofZ 1 -> (Z.of_nat d <= 2 ^ 49)%Z ->
  feq (@rastrigin (numF L) pi (repeat fzero d)) fzero = true.
Proof.
  intros L pi d HC HL.
  assert (G : forall k (s : f64), (Z.of_nat k <= 562949953421312)%Z -> is s (IZR (10 * Z.of_nat k)) -> is (fold_left (fun s (x : f64) => fadd s (fsub (fmul x x) (fmul (fofZ 10) (lm_cos L (fmul (fmul (fofZ 2) pi) x))))) (repeat fzero k) s) 0).
  { induction k as [|k IH]; intros s Hk Hs; [exact Hs|]. cbn [repeat fold_left]. apply IH; [lia|]. rewrite HC.
    assert (E10 : is (fmul (fofZ 10) (fofZ 1)) (IZR 10)) by (apply (ten_times 1); cbn; lia).
    assert (E0 : is (fmul fzero fzero) 0) by (split; reflexivity).
    assert (RZ : forall z, (Z.abs z <= 9007199254740992)%Z -> rnd (IZR z) = IZR z /\ Rabs (IZR z) <= top). { intros z Hz. split; [apply round_generic; [apply valid_rnd_round_mode|exact (is_fmt _ _ (is_ofZ z Hz))]|]. rewrite <- abs_IZR. apply Rle_trans with (bpow radix2 53); [change (bpow radix2 53) with (IZR 9007199254740992); apply IZR_le; exact Hz|apply bpow_le; lia]. }
    destruct (RZ (-10)%Z ltac:(lia)) as [R1 T1]. destruct (RZ (10 * Z.of_nat k)%Z ltac:(lia)) as [R2 T2].
    assert (A1 : 0 - IZR 10 = IZR (-10)) by (rewrite <- minus_IZR; reflexivity). pose proof (is_sub _ _ _ _ E0 E10) as I1. rewrite A1, R1 in I1. specialize (I1 T1).
    assert (A2 : IZR (10 * Z.of_nat (S k)) + IZR (-10) = IZR (10 * Z.of_nat k)) by (rewrite <- plus_IZR; f_equal; lia). pose proof (is_add _ _ _ _ Hs I1) as I2. rewrite A2, R2 in I2. exact (I2 T2). }
  pose proof (rastrigin_loop L pi (repeat fzero d)) as E. rewrite repeat_length in E. specialize (E HL). set (r := @rastrigin (numF L) pi (repeat fzero d)) in *. change (nT (numF L)) with f64 in *.
  destruct (G d (fmul (fofZ 10) (fofZ (Z.of_nat d))) HL (ten_times d HL)) as [F V]. rewrite <- E in F, V. clearbody r. apply feq_B2R; [exact F|reflexivity|]. rewrite V. reflexivity.
Qed.
Lemma C59_rastrigin_nonvacuous : exists L : libm, (forall x, flt (fofZ 1) (lm_cos L x) = false) /\ forall pi, lm_cos L (fmul (fmul (fofZ 2) pi) fzero) = fofZ 1.
Proof.
  exists {| lm_log := fun x => x; lm_exp := fun x => x; lm_sin := fun x => x; lm_cos := fun _ => fofZ 1 |}. split; [intros x; cbn [lm_cos]; vm_compute; reflexivity|reflexivity].
Qed.
