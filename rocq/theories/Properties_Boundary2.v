(** * C34 for the doubles the code computes with. *)
From Coq Require Import ZArith Bool Reals Lra Psatz Lia.
From Flocq Require Import Core BinarySingleNaN Plus_error Relative Sterbenz.
From Verif Require Import Prelude Flt FltFacts Num Round8 Boundary Properties_Boundary.
#[local] Open Scope R_scope.

(** ** Rounding *)
Notation fmt := (generic_format radix2 (SpecFloat.fexp prec64 emax64)).
Notation rnd := (round radix2 (SpecFloat.fexp prec64 emax64) (round_mode mode_NE)).
Definition u53 : R := / 9007199254740992.
Definition eta : R := bpow radix2 (-200).
Lemma eta_small : 0 < eta <= / 1000000000000000000000000000000000000000000000000000.
Proof. unfold eta. split; [apply bpow_gt_0|]. cbn. lra. Qed.
Lemma rnd_err v : Rabs (rnd v - v) <= u53 * Rabs v + eta.
Proof.
  destruct (error_N_FLT radix2 (-1074) 53 eq_refl (fun z => negb (Z.even z)) v) as (eps & et & He & Ht & _ & Hr).
  change (rnd v) with (round radix2 (FLT_exp (-1074) 53) ZnearestE v). rewrite Hr. replace (v * (1 + eps) + et - v) with (v * eps + et) by ring.
  eapply Rle_trans; [apply Rabs_triang|]. apply Rplus_le_compat.
  - rewrite Rabs_mult, Rmult_comm. apply Rmult_le_compat_r; [apply Rabs_pos|]. eapply Rle_trans; [exact He|]. unfold u53. cbn. lra.
  - eapply Rle_trans; [exact Ht|]. unfold eta. apply Rle_trans with (1 * bpow radix2 (-1074)); [apply Rmult_le_compat_r; [apply bpow_ge_0|lra]|]. rewrite Rmult_1_l. apply bpow_le. lia.
Qed.
Lemma rnd_pm v b : Rabs v <= b -> v - u53 * b - eta <= rnd v <= v + u53 * b + eta.
Proof. intros H. pose proof (rnd_err v) as E. apply Rabs_le_inv in E. assert (0 < u53) by (unfold u53; lra). pose proof (Rmult_le_compat_l u53 _ _ (Rlt_le _ _ H0) H). lra. Qed.
Lemma rnd_mono v w : v <= w -> rnd v <= rnd w.
Proof. intros H. apply round_le; [typeclasses eauto|apply valid_rnd_round_mode|exact H]. Qed.
Lemma rnd_id v : fmt v -> rnd v = v.
Proof. intros H. apply round_generic; [apply valid_rnd_round_mode|exact H]. Qed.
Lemma rnd_fmt v : fmt (rnd v).
Proof. apply generic_format_round; [typeclasses eauto|apply valid_rnd_round_mode]. Qed.
Lemma rnd_opp v : rnd (- v) = - rnd v.
Proof. apply round_NE_opp. Qed.
Lemma fmt_opp v : fmt v -> fmt (- v).
Proof. apply generic_format_opp. Qed.
Lemma fmt_double v : fmt v -> fmt (2 * v).
Proof.
  intros H. change (generic_format radix2 (FLT_exp (-1074) 53) v) in H. change (generic_format radix2 (FLT_exp (-1074) 53) (2 * v)).
  apply FLT_format_generic in H; [|reflexivity]. destruct H as [[m e] H1 H2 H3]. cbn [Fnum Fexp] in *. apply generic_format_FLT. apply (FLT_spec _ _ _ _ (Float radix2 m (e + 1))); cbn [Fnum Fexp]; [|exact H2|lia].
  rewrite H1. unfold F2R. cbn [Fnum Fexp]. rewrite bpow_plus. change (bpow radix2 1) with 2. ring.
Qed.
(** sums of doubles are rounded with a relative error only *)
Lemma rnd_plus_rel v w : fmt v -> fmt w -> Rabs (rnd (v + w) - (v + w)) <= u53 * Rabs (v + w).
Proof.
  intros Fv Fw. destruct (FLT_plus_error_N_ex radix2 (-1074) 53 (fun z => negb (Z.even z)) v w Fv Fw) as (eps & He & Hr).
  change (rnd (v + w)) with (round radix2 (FLT_exp (-1074) 53) ZnearestE (v + w)). rewrite Hr. replace ((v + w) * (1 + eps) - (v + w)) with ((v + w) * eps) by ring.
  rewrite Rabs_mult, Rmult_comm. apply Rmult_le_compat_r; [apply Rabs_pos|]. eapply Rle_trans; [exact He|].
  pose proof (u_ro_pos radix2 53). eapply Rle_trans; [apply u_rod1pu_ro_le_u_ro|]. unfold u_ro, u53. cbn. lra.
Qed.
Lemma rnd_nearest v w : fmt w -> Rabs (rnd v - v) <= Rabs (w - v).
Proof. intros Fw. destruct (round_N_pt radix2 (SpecFloat.fexp prec64 emax64) (fun z => negb (Z.even z)) v) as [_ H]. apply (H w Fw). Qed.

(** ** Doubles and their values *)
Definition is (a : f64) (v : R) : Prop := is_finite a = true /\ B2R a = v.
Lemma is_self a : is_finite a = true -> is a (B2R a).
Proof. split; auto. Qed.
Lemma is_fmt a v : is a v -> fmt v.
Proof. intros [_ <-]. apply generic_format_B2R. Qed.
Notation top := (bpow radix2 1000).
Lemma small_enough v : Rabs v <= top -> Rlt_bool (Rabs (rnd v)) (bpow radix2 emax64) = true.
Proof.
  intros H. apply Rlt_bool_true. apply Rle_lt_trans with top; [|apply bpow_lt; reflexivity].
  apply abs_round_le_generic; [typeclasses eauto|apply valid_rnd_round_mode|apply generic_format_bpow; vm_compute; congruence|exact H].
Qed.
Lemma is_add a b v w : is a v -> is b w -> Rabs (v + w) <= top -> is (fadd a b) (rnd (v + w)).
Proof.
  intros [Fa <-] [Fb <-] H. pose proof (Bplus_correct prec64 emax64 _ _ mode_NE a b Fa Fb) as E. rewrite small_enough in E by exact H. destruct E as (E1 & E2 & _). split; [exact E2|exact E1].
Qed.
Lemma is_sub a b v w : is a v -> is b w -> Rabs (v - w) <= top -> is (fsub a b) (rnd (v - w)).
Proof.
  intros [Fa <-] [Fb <-] H. pose proof (Bminus_correct prec64 emax64 _ _ mode_NE a b Fa Fb) as E. rewrite small_enough in E by exact H. destruct E as (E1 & E2 & _). split; [exact E2|exact E1].
Qed.
Lemma is_mul a b v w : is a v -> is b w -> Rabs (v * w) <= top -> is (fmul a b) (rnd (v * w)).
Proof.
  intros [Fa <-] [Fb <-] H. pose proof (Bmult_correct prec64 emax64 _ _ mode_NE a b) as E. rewrite small_enough in E by exact H. destruct E as (E1 & E2 & _). rewrite Fa, Fb in E2. split; [exact E2|exact E1].
Qed.
Lemma is_div a b v w : is a v -> is b w -> w <> 0 -> Rabs (v / w) <= top -> is (fdiv a b) (rnd (v / w)).
Proof.
  intros [Fa <-] [Fb <-] N H. pose proof (Bdiv_correct prec64 emax64 _ _ mode_NE a b N) as E. rewrite small_enough in E by exact H. destruct E as (E1 & E2 & _). rewrite Fa in E2. split; [exact E2|exact E1].
Qed.
Lemma is_abs a v : is a v -> is (fabs a) (Rabs v).
Proof. intros [Fa <-]. split; [unfold fabs; rewrite is_finite_Babs; exact Fa|apply B2R_Babs]. Qed.
Lemma is_lt a b v w : is a v -> is b w -> flt a b = true <-> v < w.
Proof. intros [Fa <-] [Fb <-]. now apply flt_B2R. Qed.
Lemma is_lt_false a b v w : is a v -> is b w -> flt a b = false <-> w <= v.
Proof.
  intros Ha Hb. pose proof (is_lt a b v w Ha Hb) as [H1 H2]. destruct (flt a b); [split; [discriminate|]|split; [|reflexivity]]; intros H.
  - specialize (H1 eq_refl). lra.
  - destruct (Rle_or_lt w v) as [|HL]; [assumption|]. discriminate (H2 HL).
Qed.
Lemma is_ofZ z : (Z.abs z <= 2 ^ 53)%Z -> is (fofZ z) (IZR z).
Proof.
  intros Hz. unfold fofZ. pose proof (binary_normalize_correct prec64 emax64 _ _ mode_NE z 0 false) as H. cbv zeta in H.
  assert (E : rnd (F2R (Float radix2 z 0)) = IZR z).
  { replace (F2R (Float radix2 z 0)) with (IZR z) by (unfold F2R; cbn; ring). apply rnd_id.
    apply (generic_format_FLT radix2 (-1074) 53). apply FLT_format_generic; [reflexivity|].
    destruct (Z.eq_dec (Z.abs z) (2 ^ 53)) as [E|N].
    - assert (z = 2 ^ 53 \/ z = - 2 ^ 53)%Z as [->| ->] by lia; [|change (IZR (- 2 ^ 53)) with (- IZR (2 ^ 53))%R; apply generic_format_opp]; change (IZR (2 ^ 53)) with (bpow radix2 53); apply generic_format_bpow; vm_compute; congruence.
    - apply generic_format_FLT. apply (FLT_spec _ _ _ _ (Float radix2 z 0)); [unfold F2R; cbn; ring|cbn [Fnum]; change (2 ^ 53)%Z with (radix2 ^ 53)%Z in *; lia|cbn; lia]. }
  rewrite E in H. rewrite Rlt_bool_true in H; [destruct H as (A & B & _); split; auto|].
  rewrite <- abs_IZR. apply Rle_lt_trans with (IZR (2 ^ 53)); [now apply IZR_le|]. change (IZR (2 ^ 53)) with (bpow radix2 53). apply bpow_lt. reflexivity.
Qed.
Lemma is_tolerance : exists T, is (flit 1 (-15)) T /\ 99 / 100000000000000000 <= T <= 101 / 100000000000000000.
Proof.
  exists (B2R (flit 1 (-15))). set (c := flit 1 (-15)).
  assert (HF : is_finite c = true) by (vm_compute; reflexivity).
  assert (H1 : (99 * 2 ^ 1074 <= fkey c * 100000000000000000)%Z) by (vm_compute; discriminate). assert (H2 : (fkey c * 100000000000000000 <= 101 * 2 ^ 1074)%Z) by (vm_compute; discriminate).
  split; [split; [exact HF|reflexivity]|]. pose proof (fkey_real c HF) as HK. clearbody c. apply IZR_le in H1. apply IZR_le in H2. rewrite !mult_IZR, HK in H1, H2.
  change (2 ^ 1074)%Z with (Zpower radix2 1074) in H1, H2. rewrite IZR_Zpower in H1, H2 by lia. clear HK. pose proof (bpow_gt_0 radix2 1074) as HP. generalize dependent (bpow radix2 1074). intros b H1 H2 HP. clear - H1 H2 HP.
  split; apply (Rmult_le_reg_r b); lra.
Qed.
Lemma f_trunc_value a v : is a v -> f_trunc a = Some (Ztrunc v).
Proof.
  intros [Fa <-]. destruct a as [s|s| |s m e B]; try discriminate Fa; cbn [f_trunc B2R]; [f_equal; symmetry; exact (Ztrunc_IZR 0)|]. f_equal.
  assert (HP : Ztrunc (F2R (Float radix2 (Z.pos m) e)) = if (0 <=? e)%Z then (Z.pos m * 2 ^ e)%Z else (Z.pos m / 2 ^ (- e))%Z).
  { destruct (0 <=? e)%Z eqn:E; [apply Z.leb_le in E|apply Z.leb_gt in E].
    - replace (F2R (Float radix2 (Z.pos m) e)) with (IZR (Z.pos m * 2 ^ e)); [apply Ztrunc_IZR|]. unfold F2R. cbn [Fnum Fexp]. rewrite mult_IZR. f_equal. change (2 ^ e)%Z with (Zpower radix2 e). now apply IZR_Zpower.
    - rewrite Ztrunc_floor by (apply F2R_ge_0; cbn; lia). replace (F2R (Float radix2 (Z.pos m) e)) with (IZR (Z.pos m) / IZR (2 ^ (- e))); [apply Zfloor_div; apply Z.pow_nonzero; lia|].
      unfold F2R. cbn [Fnum Fexp]. change (2 ^ (- e))%Z with (Zpower radix2 (- e)). rewrite IZR_Zpower by lia. unfold Rdiv. rewrite <- bpow_opp, Z.opp_involutive. reflexivity. }
  destruct s; cbn [cond_Zopp].
  - change (Z.neg m) with (- Z.pos m)%Z. rewrite F2R_Zopp, Ztrunc_opp, HP. reflexivity.
  - exact HP || (symmetry; exact HP).
Qed.

(** ** One edge *)
(** [a] is the width of the smoothed edge at [l], and is not too small beside [l]. *)
Definition edge (l a : R) : Prop := Rabs l <= 8796093022208 * a /\ / 8796093022208 <= a.
Lemma edge_opp l a : edge l a -> edge (- l) a.
Proof. unfold edge. rewrite Rabs_Ropp. auto. Qed.
Lemma edge_minus l a : edge l a -> l - a - a / 256 <= rnd (l - a) <= l - a + a / 256.
Proof.
  intros [H1 H2]. pose proof eta_small as E. apply Rabs_le_inv in H1. assert (B : Rabs (l - a) <= 8796093022209 * a) by (apply Rabs_le; lra).
  pose proof (rnd_pm _ _ B) as R. unfold u53 in R. lra.
Qed.
Lemma edge_plus l a : edge l a -> l + a - a / 256 <= rnd (l + a) <= l + a + a / 256.
Proof.
  intros H. pose proof (edge_minus (- l) a (edge_opp l a H)) as E. replace (- l - a) with (- (l + a)) in E by ring. rewrite rnd_opp in E. lra.
Qed.
Definition smooth (l a y : R) : R := let d := rnd (y - rnd (l - a)) in rnd (l + rnd (rnd (rnd (d * d) / 4) / a)).
Lemma rnd_nn v : 0 <= v -> 0 <= rnd v.
Proof. intros H. rewrite <- (rnd_id 0) by apply generic_format_0. now apply rnd_mono. Qed.
Lemma smooth_facts l a y : edge l a -> l - a - a / 8 <= y <= l + a + a / 8 ->
  let d := rnd (y - rnd (l - a)) in
  Rabs (y - rnd (l - a)) <= 3 * a /\ Rabs d <= 3 * a /\ 0 <= rnd (d * d) <= 5 * (a * a) /\ 0 <= rnd (rnd (d * d) / 4) <= 3 / 2 * (a * a) /\ 0 <= rnd (d * d) / 4 <= 3 / 2 * (a * a) /\
  0 <= rnd (rnd (d * d) / 4) / a <= 3 / 2 * a /\ 0 <= rnd (rnd (rnd (d * d) / 4) / a) <= 13 / 10 * a.
Proof.
  intros HE Hy d. pose proof (edge_minus l a HE) as HA. destruct HE as [_ Ha]. pose proof eta_small as E.
  assert (B : Rabs (y - rnd (l - a)) <= 22 / 10 * a) by (apply Rabs_le; lra). pose proof (rnd_pm _ _ B) as Hd. fold d in Hd. apply Rabs_le_inv in B as B'. unfold u53 in Hd.
  assert (D : - (221 / 100 * a) <= d <= 221 / 100 * a) by lra. assert (DD : 0 <= d * d <= 4885 / 1000 * (a * a)) by (split; [nra|]; clear - D Ha; nra).
  assert (AA : / 8796093022208 * / 8796093022208 <= a * a) by (apply Rmult_le_compat; lra).
  assert (P : 0 <= rnd (d * d) <= 489 / 100 * (a * a)). { split; [apply rnd_nn; lra|]. assert (Q : Rabs (d * d) <= 5 * (a * a)) by (rewrite Rabs_pos_eq; lra). pose proof (rnd_pm _ _ Q) as R. unfold u53 in R. lra. }
  assert (P4 : 0 <= rnd (rnd (d * d) / 4) <= 123 / 100 * (a * a)). { split; [apply rnd_nn; lra|]. assert (Q : Rabs (rnd (d * d) / 4) <= 5 * (a * a)) by (rewrite Rabs_pos_eq; lra). pose proof (rnd_pm _ _ Q) as R. unfold u53 in R. lra. }
  assert (PA : 0 <= rnd (rnd (d * d) / 4) / a <= 123 / 100 * a).
  { split; [apply Rmult_le_pos; [lra|]; apply Rlt_le, Rinv_0_lt_compat; lra|]. apply (Rmult_le_reg_r a); [lra|]. unfold Rdiv at 1. rewrite Rmult_assoc, Rinv_l by lra. lra. }
  assert (PQ : 0 <= rnd (rnd (rnd (d * d) / 4) / a) <= 13 / 10 * a). { split; [apply rnd_nn; lra|]. assert (Q : Rabs (rnd (rnd (d * d) / 4) / a) <= 2 * a) by (rewrite Rabs_pos_eq; lra). pose proof (rnd_pm _ _ Q) as R. unfold u53 in R. lra. }
  assert (Rabs d <= 3 * a) by (apply Rabs_le; lra). repeat match goal with |- _ /\ _ => split end; lra.
Qed.
Lemma smooth_range l u a y : edge l a -> fmt l -> fmt u -> a <= 51 / 100 * (u - l) -> l - a - a / 8 <= y <= l + a + a / 8 -> l <= smooth l a y <= u.
Proof.
  intros HE Fl Fu Hau Hy. destruct (smooth_facts l a y HE Hy) as (_ & _ & _ & _ & _ & _ & HQ). destruct HE as [_ Ha]. unfold smooth. cbv zeta. set (q := rnd (rnd _ / a)) in *. clearbody q.
  split; [rewrite <- (rnd_id l Fl) at 1|rewrite <- (rnd_id u Fu) at 1]; apply rnd_mono; lra.
Qed.
Lemma smooth_opp l a y : - smooth (- l) a (- y) = rnd (l - rnd (rnd (rnd (rnd (y - rnd (l + a)) * rnd (y - rnd (l + a))) / 4) / a)).
Proof.
  unfold smooth. cbv zeta. replace (- l - a) with (- (l + a)) by ring. rewrite (rnd_opp (l + a)). replace (- y - - rnd (l + a)) with (- (y - rnd (l + a))) by ring. rewrite (rnd_opp (y - rnd (l + a))).
  replace (- rnd (y - rnd (l + a)) * - rnd (y - rnd (l + a))) with (rnd (y - rnd (l + a)) * rnd (y - rnd (l + a))) by ring. rewrite <- rnd_opp. set (q := rnd (rnd _ / a)). clearbody q. replace (- (- l + q)) with (l - q) by ring. reflexivity.
Qed.

(** ** The bounds *)
(** Finite, not astronomically large, and not within rounding of each other. *)
Definition ordinary (lb ub : f64) : Prop :=
  is_finite lb = true /\ is_finite ub = true /\ Rabs (B2R lb) <= bpow radix2 400 /\ Rabs (B2R ub) <= bpow radix2 400 /\
  bpow radix2 (-40) * (1 + Rabs (B2R lb) + Rabs (B2R ub)) <= B2R ub - B2R lb.
Notation Q := (bpow radix2 400).
Lemma Q_big : 1 <= Q.
Proof. change 1 with (bpow radix2 0). apply bpow_le. lia. Qed.
Lemma under_top v : Rabs v <= 1073741824 * 1073741824 * 1073741824 * Q -> Rabs v <= top.
Proof.
  intros H. eapply Rle_trans; [exact H|]. change (1073741824 * 1073741824 * 1073741824)%R with (bpow radix2 30 * bpow radix2 30 * bpow radix2 30). rewrite <- !bpow_plus. apply bpow_le. lia.
Qed.
Lemma under_top2 v : Rabs v <= 1000 * (Q * Q) -> Rabs v <= top.
Proof.
  intros H. eapply Rle_trans; [exact H|]. apply Rle_trans with (bpow radix2 30 * (Q * Q)); [apply Rmult_le_compat_r; [apply Rmult_le_pos; apply bpow_ge_0|cbn; lra]|]. rewrite <- !bpow_plus. apply bpow_le. lia.
Qed.
(** the edge widths in exact arithmetic, up to rounding *)
Record bounds_are {L} (b : bnd (numF L)) (l u a c : R) : Prop := {
  ba_l : is (b_lb b) l; ba_u : is (b_ub b) u; ba_a : is (b_al b) a; ba_c : is (b_au b) c;
  ba_Q : Rabs l <= Q /\ Rabs u <= Q;
  ba_gap : / 1099511627776 * (1 + Rabs l + Rabs u) <= u - l;
  ba_edges : edge l a /\ edge u c;
  ba_half : a <= 51 / 100 * (u - l) /\ c <= 51 / 100 * (u - l);
  ba_twentieth : a <= 51 / 1000 * (1 + Rabs l) /\ c <= 51 / 1000 * (1 + Rabs u) }.
Lemma c_fmin_is L (p q : numF L) v w : is p v -> is q w -> is (@c_fmin (numF L) p q) (Rmin v w).
Proof.
  intros Hp Hq. unfold c_fmin. cbn [neq nlt numF]. assert (E : feq p p = true) by (destruct Hp as [Fp _]; now apply feq_B2R). rewrite E. cbn [negb].
  destruct (flt q p) eqn:El; [apply (is_lt q p w v Hq Hp) in El; rewrite Rmin_right by lra; exact Hq|apply (is_lt_false q p w v Hq Hp) in El; rewrite Rmin_left by lra; exact Hp].
Qed.
Lemma make_bnd_is L lb ub : ordinary lb ub -> exists a c, bounds_are (@make_bnd (numF L) lb ub) (B2R lb) (B2R ub) a c.
Proof.
  intros (Fl & Fu & Ql & Qu & G). pose proof (is_self lb Fl) as Il. pose proof (is_self ub Fu) as Iu. set (l := B2R lb) in *. set (u := B2R ub) in *. clearbody l u.
  change (bpow radix2 (-40)) with (/ 1099511627776) in G. pose proof Q_big as HQ. pose proof (Rabs_pos l) as Pl. pose proof (Rabs_pos u) as Pu. pose proof eta_small as E. pose proof (Rle_abs u) as Au. pose proof (Rle_abs (- l)) as Al. rewrite Rabs_Ropp in Al.
  pose proof (is_sub ub lb u l Iu Il) as Iw. assert (Bw : Rabs (u - l) <= u - l) by (rewrite Rabs_pos_eq; lra). specialize (Iw ltac:(apply under_top; lra)). pose proof (rnd_pm _ _ Bw) as Rw. set (w := rnd (u - l)) in *. unfold u53 in *.
  pose proof (is_ofZ 2 ltac:(lia)) as I2. pose proof (is_ofZ 1 ltac:(lia)) as I1. pose proof (is_ofZ 20 ltac:(lia)) as I20.
  assert (Bh : Rabs (w / 2) <= u - l) by (rewrite Rabs_pos_eq; lra).
  pose proof (is_div _ _ w 2 Iw I2 ltac:(lra) ltac:(apply under_top; lra)) as Ih. pose proof (rnd_pm _ _ Bh) as Rh. set (h := rnd (w / 2)) in *. unfold u53 in *.
  assert (G20 : forall x v, is x v -> Rabs v <= Q -> exists g, is (fdiv (fadd (fofZ 1) (fabs x)) (fofZ 20)) g /\ 49 / 1000 * (1 + Rabs v) <= g <= 51 / 1000 * (1 + Rabs v)).
  { intros x v Ix Bx. pose proof (Rabs_pos v) as Pv. pose proof (is_abs x v Ix) as Ia. assert (Bs : Rabs (1 + Rabs v) <= 1 + Rabs v) by (rewrite Rabs_pos_eq; lra).
    pose proof (is_add _ _ 1 (Rabs v) I1 Ia ltac:(apply under_top; lra)) as Is. pose proof (rnd_pm _ _ Bs) as Rs. set (s := rnd (1 + Rabs v)) in *. unfold u53 in *.
    assert (Bg : Rabs (s / 20) <= 1 + Rabs v) by (rewrite Rabs_pos_eq; lra). pose proof (is_div _ _ s 20 Is I20 ltac:(lra) ltac:(apply under_top; lra)) as Ig. pose proof (rnd_pm _ _ Bg) as Rg. unfold u53 in *. exists (rnd (s / 20)). split; [exact Ig|lra]. }
  destruct (G20 lb l Il Ql) as (g & Ig & Hg). destruct (G20 ub u Iu Qu) as (g' & Ig' & Hg'). exists (Rmin h g), (Rmin h g').
  constructor; cbn [make_bnd b_lb b_ub b_al b_au]; try assumption.
  - apply c_fmin_is; assumption.
  - apply c_fmin_is; assumption.
  - split; assumption.
  - unfold edge. split; (split; [|]); (apply Rmin_case; [lra|lra]).
  - split; [pose proof (Rmin_l h g)|pose proof (Rmin_l h g')]; lra.
  - split; [pose proof (Rmin_r h g)|pose proof (Rmin_r h g')]; lra.
Qed.
Lemma abs_le_trans v b c : Rabs v <= b -> b <= c -> Rabs v <= c.
Proof. lra. Qed.
Lemma squash_in L (b : bnd (numF L)) l u a c y v : bounds_are b l u a c -> is y v -> l - a - a / 8 <= v <= u + c + c / 8 ->
  exists z, is (@squash (numF L) b y) z /\ l <= z <= u.
Proof.
  intros B Iy Hv. destruct B as [Il Iu Ia Ic [Ql Qu] G [Ea Ec] [Ha Hc] _]. pose proof (is_fmt _ _ Il) as Fl. pose proof (is_fmt _ _ Iu) as Fu. pose proof Q_big as HQ. pose proof (Rabs_pos l) as Pl. pose proof (Rabs_pos u) as Pu.
  pose proof (proj2 Ea) as Pa. pose proof (proj2 Ec) as Pc. apply Rabs_le_inv in Ql as Ql'. apply Rabs_le_inv in Qu as Qu'.
  assert (Qa : 0 < a <= 2 * Q) by lra. assert (Qc : 0 < c <= 2 * Q) by lra. assert (QQa : 0 < a * a <= 4 * (Q * Q)) by (clear - Qa HQ; nra). assert (QQc : 0 < c * c <= 4 * (Q * Q)) by (clear - Qc HQ; nra).
  pose proof (is_ofZ 4 ltac:(lia)) as I4.
  unfold squash. cbv zeta. cbn [nlt nadd nsub nmul ndiv nofZ numF].
  set (lb := b_lb b : f64) in *. set (ub := b_ub b : f64) in *. set (al := b_al b : f64) in *. set (au := b_au b : f64) in *. change (nT (numF L)) with f64 in *.
  pose proof (is_add lb al l a Il Ia ltac:(apply under_top, Rabs_le; lra)) as Ip. pose proof (is_sub ub au u c Iu Ic ltac:(apply under_top, Rabs_le; lra)) as Im.
  pose proof (edge_plus l a Ea) as Ep. pose proof (edge_minus u c Ec) as Em.
  destruct (flt y (fadd lb al)) eqn:E1; [|destruct (flt (fsub ub au) y) eqn:E2].
  - apply (is_lt _ _ _ _ Iy Ip) in E1. exists (smooth l a v). split; [|apply smooth_range; try assumption; lra].
    destruct (smooth_facts l a v Ea ltac:(lra)) as (S1 & S2 & S3 & S4 & S4' & S5 & S6). pose proof (edge_minus l a Ea) as Em'.
    pose proof (is_sub lb al l a Il Ia ltac:(apply under_top, Rabs_le; lra)) as IA. pose proof (is_sub _ _ _ _ Iy IA ltac:(apply under_top; lra)) as Id. unfold smooth. cbv zeta.
    set (d := rnd (v - rnd (l - a))) in *. set (fd := fsub y (fsub lb al)) in *.
    assert (B2 : 0 <= d * d <= 9 * (a * a)) by (apply Rabs_le_inv in S2; split; [|clear - S2 Pa]; nra).
    pose proof (is_mul _ _ _ _ Id Id ltac:(apply under_top2; rewrite Rabs_pos_eq; lra)) as Ipp. pose proof (is_div _ _ _ _ Ipp I4 ltac:(lra) ltac:(apply under_top2; rewrite Rabs_pos_eq; lra)) as Iq.
    pose proof (is_div _ _ _ _ Iq Ia ltac:(lra) ltac:(apply under_top; rewrite Rabs_pos_eq; lra)) as Ir. apply (is_add _ _ _ _ Il Ir). apply under_top, Rabs_le. lra.
  - apply (is_lt _ _ _ _ Im Iy) in E2. exists (- smooth (- u) c (- v)). pose proof (edge_opp u c Ec) as Eo. split; [|pose proof (smooth_range (- u) (- l) c (- v) Eo (fmt_opp _ Fu) (fmt_opp _ Fl) ltac:(lra) ltac:(lra)); lra].
    destruct (smooth_facts (- u) c (- v) Eo ltac:(lra)) as (S1 & S2 & S3 & S4 & S4' & S5 & S6). rewrite smooth_opp. revert S1 S2 S3 S4 S4' S5 S6. replace (- u - c) with (- (u + c)) by ring. rewrite (rnd_opp (u + c)).
    replace (- v - - rnd (u + c)) with (- (v - rnd (u + c))) by ring. rewrite (rnd_opp (v - rnd (u + c))), !Rabs_Ropp. set (d := rnd (v - rnd (u + c))) in *. replace (- d * - d) with (d * d) by ring. intros S1 S2 S3 S4 S4' S5 S6.
    pose proof (is_add ub au u c Iu Ic ltac:(apply under_top, Rabs_le; lra)) as IA. pose proof (is_sub _ _ _ _ Iy IA ltac:(apply under_top; lra)) as Id. fold d in Id.
    set (fd := fsub y (fadd ub au)) in *.
    assert (B2 : 0 <= d * d <= 9 * (c * c)) by (apply Rabs_le_inv in S2; split; [|clear - S2 Pc]; nra).
    pose proof (is_mul _ _ _ _ Id Id ltac:(apply under_top2; rewrite Rabs_pos_eq; lra)) as Ipp. pose proof (is_div _ _ _ _ Ipp I4 ltac:(lra) ltac:(apply under_top2; rewrite Rabs_pos_eq; lra)) as Iq.
    pose proof (is_div _ _ _ _ Iq Ic ltac:(lra) ltac:(apply under_top; rewrite Rabs_pos_eq; lra)) as Ir. apply (is_sub _ _ _ _ Iu Ir). apply under_top, Rabs_le. lra.
  - apply (is_lt_false _ _ _ _ Iy Ip) in E1. apply (is_lt_false _ _ _ _ Im Iy) in E2. exists v. split; [exact Iy|lra].
Qed.

(** ** Shifting by whole periods *)
Lemma fin_sub a b v w : is a v -> is b w -> is_finite (fsub a b) = true -> is (fsub a b) (rnd (v - w)).
Proof.
  intros [Fa <-] [Fb <-] H. pose proof (Bminus_correct prec64 emax64 _ _ mode_NE a b Fa Fb) as E. fold (fsub a b) in E. destruct (Rlt_bool _ _) in E.
  - split; [exact H|exact (proj1 E)].
  - destruct E as [E _]. destruct (fsub a b); try discriminate H; discriminate E.
Qed.
Lemma fin_div a b w : is b w -> w <> 0 -> is_finite (fdiv a b) = true -> is_finite a = true /\ forall v, is a v -> is (fdiv a b) (rnd (v / w)).
Proof.
  intros [Fb <-] N H. pose proof (Bdiv_correct prec64 emax64 _ _ mode_NE a b N) as E. fold (fdiv a b) in E. destruct (Rlt_bool _ _) in E.
  - destruct E as (E1 & E2 & _). split; [congruence|]. intros v [_ <-]. split; [exact H|exact E1].
  - destruct (fdiv a b); try discriminate H; discriminate E.
Qed.
Lemma period_count D P k q : 0 <= D -> / 2199023255552 <= P -> q = rnd (rnd D / P) -> IZR k - 1 <= q < IZR k -> IZR k <= 2147483648 -> 
  (IZR k - 1) * P - P / 100000 <= D <= IZR k * P + P / 100000.
Proof.
  intros HD HP Hq Hk HK. pose proof eta_small as E. assert (P1 : Rabs D <= D) by (rewrite Rabs_pos_eq; lra). pose proof (rnd_pm _ _ P1) as R1. pose proof (rnd_nn D HD) as N1. set (d := rnd D) in *.
  assert (N2 : 0 <= d / P) by (apply Rmult_le_pos; [lra|]; apply Rlt_le, Rinv_0_lt_compat; lra). assert (P2 : Rabs (d / P) <= d / P) by (rewrite Rabs_pos_eq; lra). pose proof (rnd_pm _ _ P2) as R2. rewrite <- Hq in R2. set (e := d / P) in *.
  assert (Hd : d = e * P) by (unfold e; field; lra). clearbody d e. subst d. clear Hq.
  assert (A1 : e * P - u53 * (e * P) - eta * P <= q * P <= e * P + u53 * (e * P) + eta * P) by (destruct R2; split; [apply Rle_trans with ((e - u53 * e - eta) * P); [lra|]|apply Rle_trans with ((e + u53 * e + eta) * P); [|lra]]; apply Rmult_le_compat_r; lra).
  assert (A2 : (IZR k - 1) * P <= q * P <= IZR k * P) by (split; apply Rmult_le_compat_r; lra). assert (A3 : IZR k * P <= 2147483648 * P) by (apply Rmult_le_compat_r; lra).
  assert (A4 : 0 <= eta * P <= / 1000000000000000000000000000000000000000000000000000 * P) by (split; [apply Rmult_le_pos; lra|apply Rmult_le_compat_r; lra]).
  set (x := e * P) in *. set (y := q * P) in *. set (z := eta * P) in *. replace ((IZR k - 1) * P) with (IZR k * P - P) in * by ring. set (t := IZR k * P) in *. clearbody x y z t. clear P1 P2 R2. unfold u53 in *. lra.
Qed.
Lemma one_plus_int_is L (c : f64) k : @one_plus_int (numF L) to_int_F c = Ok k -> is_finite c = true /\ k = (1 + Ztrunc (B2R c))%Z /\ (k <= 2147483647)%Z.
Proof.
  unfold one_plus_int, to_int_F. intros H. apply obind_Ok in H as (z & Hz & H). destruct (is_finite c) eqn:F; [|destruct c; try discriminate F; discriminate Hz].
  rewrite (f_trunc_value c _ (is_self c F)) in Hz. destruct (fits_int (Ztrunc (B2R c))) eqn:E1; [|discriminate]. assert (z = Ztrunc (B2R c)) by congruence. subst z.
  destruct (fits_int (1 + Ztrunc (B2R c))) eqn:E2; [|discriminate]. split; [reflexivity|]. split; [congruence|]. assert (k = 1 + Ztrunc (B2R c))%Z by congruence. subst k. unfold fits_int in E2. lia.
Qed.
Lemma one_plus_int_fits L (c : f64) v : is c v -> 0 <= v -> v < 2147483646 -> @one_plus_int (numF L) to_int_F c = Ok (1 + Ztrunc v)%Z.
Proof.
  intros I H0 H1. unfold one_plus_int, to_int_F. rewrite (f_trunc_value c v I). rewrite Ztrunc_floor by exact H0.
  assert (0 <= Zfloor v)%Z by (apply Zfloor_lub; exact H0). assert (Zfloor v < 2147483646)%Z by (apply lt_IZR; eapply Rle_lt_trans; [apply Zfloor_lb|exact H1]).
  assert (E1 : fits_int (Zfloor v) = true) by (unfold fits_int; lia). assert (E2 : fits_int (1 + Zfloor v) = true) by (unfold fits_int; lia). rewrite E1. cbn [obind]. rewrite E2. reflexivity.
Qed.
(** [e] is the end passed, [D] the distance beyond it, [P] the period *)
Lemma count_of L fn fP n P k : is_finite fn = true -> (forall v, is fn v -> v = rnd n) -> 0 <= n -> is fP P -> / 2199023255552 <= P -> @one_plus_int (numF L) to_int_F (fdiv fn fP) = Ok k ->
  (1 <= k <= 2147483647)%Z /\ (IZR k - 1) * P - P / 100000 <= n <= IZR k * P + P / 100000.
Proof.
  intros Fn Hn N0 IP HP H. destruct (one_plus_int_is L _ _ H) as (F & -> & HK). destruct (fin_div fn fP P IP ltac:(lra) F) as [_ G]. specialize (G _ (is_self fn Fn)). rewrite (Hn _ (is_self fn Fn)) in G. destruct G as [_ G].
  assert (N : 0 <= rnd (rnd n / P)) by (apply rnd_nn, Rmult_le_pos; [now apply rnd_nn|]; apply Rlt_le, Rinv_0_lt_compat; lra).
  assert (Z0 : (0 <= Ztrunc (B2R (fdiv fn fP)))%Z) by (rewrite G, Ztrunc_floor by exact N; apply Zfloor_lub; exact N). split; [lia|].
  apply (period_count n P _ (B2R (fdiv fn fP))); [exact N0|exact HP|exact G| |]; [rewrite plus_IZR, Ztrunc_floor by (rewrite G; exact N); pose proof (Zfloor_lb (B2R (fdiv fn fP))); pose proof (Zfloor_ub (B2R (fdiv fn fP))); lra|].
  apply IZR_le in HK. lra.
Qed.
(** the constants of the fold, up to rounding *)
Definition about (W v w : R) : Prop := w - W / 512 <= v <= w + W / 512.
Lemma gap_facts L (b : bnd (numF L)) l u a c : bounds_are b l u a c -> 0 < / 1099511627776 <= u - l /\ Rabs l <= 1099511627776 * (u - l) /\ Rabs u <= 1099511627776 * (u - l) /\ 0 < a /\ 0 < c /\ u - l <= 2 * Q.
Proof. intros B. destruct B as [_ _ _ _ [Ql Qu] G [[_ Ha] [_ Hc]] _ _]. pose proof (Rabs_pos l). pose proof (Rabs_pos u). pose proof (Rle_abs u). pose proof (Rle_abs (- l)) as HL. rewrite Rabs_Ropp in HL. lra. Qed.
Lemma near_rnd W v : / 1099511627776 <= W -> Rabs v <= 1099511627781 * W -> v - W / 4096 <= rnd v <= v + W / 4096.
Proof. intros HW H. pose proof (rnd_pm _ _ H) as R. pose proof eta_small. unfold u53 in R. lra. Qed.
Lemma fold_constants L (b : bnd (numF L)) l u a c : bounds_are b l u a c ->
  let W := u - l in let lb := b_lb b : f64 in let ub := b_ub b : f64 in let al := b_al b : f64 in let au := b_au b : f64 in
  (exists xl, is (fsub (fsub lb (fmul (fofZ 2) al)) (fdiv (fsub ub lb) (fofZ 2))) xl /\ about W xl (l - 2 * a - W / 2)) /\
  (exists xu, is (fadd (fadd ub (fmul (fofZ 2) au)) (fdiv (fsub ub lb) (fofZ 2))) xu /\ about W xu (u + 2 * c + W / 2)) /\
  (exists P, is (fmul (fofZ 2) (fadd (fadd (fsub ub lb) al) au)) P /\ about W P (2 * (W + a + c))).
Proof.
  intros B W lb ub al au. destruct (gap_facts L b l u a c B) as (HW & BL & BU & Pa & Pc & HQ2). fold W in HW, BL, BU, HQ2. destruct B as [Il Iu Ia Ic _ _ _ [Ha Hc] _]. fold lb in Il. fold ub in Iu. fold al in Ia. fold au in Ic. fold W in Ha, Hc. clearbody lb ub al au. pose proof Q_big as HQ.
  apply Rabs_le_inv in BL. apply Rabs_le_inv in BU. assert (T : forall v, Rabs v <= 1099511627781 * W -> Rabs v <= top) by (intros v Hv; apply under_top; lra). pose proof (is_ofZ 2 ltac:(lia)) as I2. clear HQ HQ2.
  assert (B1 : Rabs (u - l) <= 1099511627781 * W) by (fold W; apply Rabs_le; lra). pose proof (is_sub _ _ _ _ Iu Il (T _ B1)) as Iw. pose proof (near_rnd W _ ltac:(lra) B1) as Rw. set (w := rnd (u - l)) in *. fold W in Rw.
  assert (B2 : Rabs (w / 2) <= 1099511627781 * W) by (apply Rabs_le; lra). pose proof (is_div _ _ _ _ Iw I2 ltac:(lra) (T _ B2)) as Ih. pose proof (near_rnd W _ ltac:(lra) B2) as Rh. set (h := rnd (w / 2)) in *.
  assert (B3 : Rabs (2 * a) <= 1099511627781 * W) by (apply Rabs_le; lra). pose proof (is_mul _ _ _ _ I2 Ia (T _ B3)) as Ia2. pose proof (near_rnd W _ ltac:(lra) B3) as Ra2. set (a2 := rnd (2 * a)) in *.
  assert (B4 : Rabs (2 * c) <= 1099511627781 * W) by (apply Rabs_le; lra). pose proof (is_mul _ _ _ _ I2 Ic (T _ B4)) as Ic2. pose proof (near_rnd W _ ltac:(lra) B4) as Rc2. set (c2 := rnd (2 * c)) in *.
  assert (B5 : Rabs (l - a2) <= 1099511627781 * W) by (apply Rabs_le; lra). pose proof (is_sub _ _ _ _ Il Ia2 (T _ B5)) as Il2. pose proof (near_rnd W _ ltac:(lra) B5) as Rl2. set (l2 := rnd (l - a2)) in *.
  assert (B6 : Rabs (u + c2) <= 1099511627781 * W) by (apply Rabs_le; lra). pose proof (is_add _ _ _ _ Iu Ic2 (T _ B6)) as Iu2. pose proof (near_rnd W _ ltac:(lra) B6) as Ru2. set (u2 := rnd (u + c2)) in *.
  assert (B7 : Rabs (l2 - h) <= 1099511627781 * W) by (apply Rabs_le; lra). pose proof (is_sub _ _ _ _ Il2 Ih (T _ B7)) as Ixl. pose proof (near_rnd W _ ltac:(lra) B7) as Rxl. set (xl := rnd (l2 - h)) in *.
  assert (B8 : Rabs (u2 + h) <= 1099511627781 * W) by (apply Rabs_le; lra). pose proof (is_add _ _ _ _ Iu2 Ih (T _ B8)) as Ixu. pose proof (near_rnd W _ ltac:(lra) B8) as Rxu. set (xu := rnd (u2 + h)) in *.
  assert (B9 : Rabs (w + a) <= 1099511627781 * W) by (apply Rabs_le; lra). pose proof (is_add _ _ _ _ Iw Ia (T _ B9)) as Iwa. pose proof (near_rnd W _ ltac:(lra) B9) as Rwa. set (wa := rnd (w + a)) in *.
  assert (B10 : Rabs (wa + c) <= 1099511627781 * W) by (apply Rabs_le; lra). pose proof (is_add _ _ _ _ Iwa Ic (T _ B10)) as Iwc. pose proof (near_rnd W _ ltac:(lra) B10) as Rwc. set (wc := rnd (wa + c)) in *.
  assert (B11 : Rabs (2 * wc) <= 1099511627781 * W) by (apply Rabs_le; lra). pose proof (is_mul _ _ _ _ I2 Iwc (T _ B11)) as IP. pose proof (near_rnd W _ ltac:(lra) B11) as RP. set (P := rnd (2 * wc)) in *.
  clearbody w h a2 c2 l2 u2 xl xu wa wc P. unfold about. split; [|split]; [exists xl|exists xu|exists P]; (split; [assumption|lra]).
Qed.
Lemma shift_facts L W e P n k fn fP : / 1099511627776 <= W -> W <= 2 * Q -> Rabs e <= 1099511627779 * W -> 199 / 100 * W <= P <= 41 / 10 * W ->
  is_finite fn = true -> (forall v, is fn v -> v = rnd n) -> 0 <= n -> is fP P -> @one_plus_int (numF L) to_int_F (fdiv fn fP) = Ok k ->
  exists s, is (fmul fP (fofZ k)) s /\ - (W / 100) <= s - n <= P + W / 100 /\ 0 <= s <= 8900000000 * W.
Proof.
  intros HW HQ He HP Fn Hn N0 IP Hk. pose proof eta_small as E. destruct (count_of L fn fP n P k Fn Hn N0 IP ltac:(lra) Hk) as [K N]. pose proof (is_ofZ k ltac:(lia)) as Ik.
  assert (K1 : 1 <= IZR k <= 2147483647) by (split; apply IZR_le; lia). assert (K2 : 0 <= IZR k * P <= 2147483647 * P) by (split; [apply Rmult_le_pos; lra|apply Rmult_le_compat_r; lra]).
  assert (BK : Rabs (P * IZR k) <= 8804682960 * W) by (rewrite Rmult_comm, Rabs_pos_eq; lra).
  pose proof (is_mul _ _ _ _ IP Ik ltac:(apply under_top; lra)) as Is. pose proof (rnd_pm _ _ BK) as Rs. unfold u53 in Rs. exists (rnd (P * IZR k)). split; [exact Is|].
  replace ((IZR k - 1) * P) with (IZR k * P - P) in N by ring. rewrite (Rmult_comm P) in *. set (t := IZR k * P) in *. clearbody t.
  assert (0 <= rnd t) by (apply rnd_nn; lra). lra.
Qed.
Lemma stage_up L W xl P fx v fxl fP k : / 1099511627776 <= W -> W <= 2 * Q -> Rabs xl <= 1099511627779 * W -> 199 / 100 * W <= P <= 41 / 10 * W ->
  is fx v -> is fxl xl -> is fP P -> v < xl -> @one_plus_int (numF L) to_int_F (fdiv (fsub fxl fx) fP) = Ok k ->
  exists y, is (fadd fx (fmul fP (fofZ k))) y /\ xl - W / 64 <= y <= xl + P + W / 64.
Proof.
  intros HW HQ Hl HP Ix Il IP Hv Hk. pose proof eta_small as E. destruct (one_plus_int_is L _ _ Hk) as (F & _ & _). destruct (fin_div _ _ P IP ltac:(lra) F) as [Fn _].
  destruct (shift_facts L W xl P (xl - v) k _ fP HW HQ Hl HP Fn) as (s & Is & S1 & S2); [|lra|exact IP|exact Hk|].
  - intros z Hz. destruct (fin_sub _ _ _ _ Il Ix Fn) as [_ <-]. symmetry. apply Hz.
  - apply Rabs_le_inv in Hl. assert (BY : Rabs (v + s) <= 1099511627800 * W) by (apply Rabs_le; lra).
    pose proof (is_add _ _ _ _ Ix Is ltac:(apply under_top; lra)) as Iy. pose proof (rnd_pm _ _ BY) as Ry. unfold u53 in Ry. exists (rnd (v + s)). split; [exact Iy|lra].
Qed.
Lemma stage_down L W xu P fx v fxu fP k : / 1099511627776 <= W -> W <= 2 * Q -> Rabs xu <= 1099511627779 * W -> 199 / 100 * W <= P <= 41 / 10 * W ->
  is fx v -> is fxu xu -> is fP P -> xu < v -> @one_plus_int (numF L) to_int_F (fdiv (fsub fx fxu) fP) = Ok k ->
  exists y, is (fsub fx (fmul fP (fofZ k))) y /\ xu - P - W / 64 <= y <= xu + W / 64.
Proof.
  intros HW HQ Hl HP Ix Il IP Hv Hk. pose proof eta_small as E. destruct (one_plus_int_is L _ _ Hk) as (F & _ & _). destruct (fin_div _ _ P IP ltac:(lra) F) as [Fn _].
  destruct (shift_facts L W xu P (v - xu) k _ fP HW HQ Hl HP Fn) as (s & Is & S1 & S2); [|lra|exact IP|exact Hk|].
  - intros z Hz. destruct (fin_sub _ _ _ _ Ix Il Fn) as [_ <-]. symmetry. apply Hz.
  - apply Rabs_le_inv in Hl. assert (BY : Rabs (v - s) <= 1099511627800 * W) by (apply Rabs_le; lra).
    pose proof (is_sub _ _ _ _ Ix Is ltac:(apply under_top; lra)) as Iy. pose proof (rnd_pm _ _ BY) as Ry. unfold u53 in Ry. exists (rnd (v - s)). split; [exact Iy|lra].
Qed.
(** the count fits an int when the point is not too many widths away *)
Lemma stage_count L W P fa va fb vb fP : / 1099511627776 <= W -> W <= 2 * Q -> 199 / 100 * W <= P <= 41 / 10 * W -> is fa va -> is fb vb -> is fP P -> 0 <= va - vb <= 2147483648 * W ->
  exists k, @one_plus_int (numF L) to_int_F (fdiv (fsub fa fb) fP) = Ok k.
Proof.
  intros HW HQ HP Ia Ib IP Hn. pose proof eta_small as E. assert (B1 : Rabs (va - vb) <= 2147483648 * W) by (rewrite Rabs_pos_eq; lra). pose proof (is_sub _ _ _ _ Ia Ib ltac:(apply under_top; lra)) as In. pose proof (rnd_pm _ _ B1) as Rn. unfold u53 in Rn.
  assert (N0 : 0 <= rnd (va - vb)) by (apply rnd_nn; lra). set (n := rnd (va - vb)) in *. assert (HD : 0 <= n / P <= 1100000000).
  { split; [apply Rmult_le_pos; [lra|]; apply Rlt_le, Rinv_0_lt_compat; lra|]. apply (Rmult_le_reg_r P); [lra|]. unfold Rdiv. rewrite Rmult_assoc, Rinv_l by lra. lra. }
  assert (B2 : Rabs (n / P) <= 1100000000) by (rewrite Rabs_pos_eq; lra). pose proof Q_big. pose proof (is_div _ _ _ _ In IP ltac:(lra) ltac:(apply under_top; lra)) as Iq. pose proof (rnd_pm _ _ B2) as Rq. unfold u53 in Rq.
  eexists. apply (one_plus_int_fits L _ _ Iq); [apply rnd_nn; lra|lra].
Qed.

(** ** Mirroring at the ends *)
Lemma fmt_minus v w : fmt v -> fmt w -> w / 2 <= v <= 2 * w -> fmt (v - w).
Proof. intros Fv Fw H. apply sterbenz; try assumption; typeclasses eauto. Qed.
Lemma rnd_minus_rel v w : fmt v -> fmt w -> w <= v -> v - w - u53 * (v - w) <= rnd (v - w) <= v - w + u53 * (v - w).
Proof.
  intros Fv Fw H. pose proof (rnd_plus_rel v (- w) Fv (fmt_opp w Fw)) as E. replace (v + - w) with (v - w) in E by ring. rewrite (Rabs_pos_eq (v - w)) in E by lra. apply Rabs_le_inv in E. lra.
Qed.
Lemma mirror_high_below u c v T : edge u c -> fmt u -> fmt c -> fmt v -> c <= 51 / 1000 * (1 + Rabs u) -> rnd (u + c) < v -> 99 / 100000000000000000 <= T ->
  rnd (v - 2 * rnd (rnd (v - u) - c)) <= rnd (rnd (u + c) + T).
Proof.
  intros HE Fu Fc Fv H20 Hv HT. pose proof (edge_plus u c HE) as EU. destruct HE as [_ Pc].
  assert (HV : u + c < v). { destruct (Rle_or_lt v (u + c)) as [H|H]; [|exact H]. apply rnd_mono in H. rewrite (rnd_id v Fv) in H. lra. }
  pose proof (rnd_nearest (u + c) v Fv) as HN. rewrite (Rabs_pos_eq (v - (u + c))) in HN by lra. apply Rabs_le_inv in HN. pose proof (rnd_err (u + c)) as HR. pose proof eta_small as E.
  apply rnd_mono. pose proof (rnd_minus_rel v u Fv Fu ltac:(lra)) as Ht. set (t := rnd (v - u)) in *. assert (Ft : fmt t) by apply rnd_fmt. set (U := rnd (u + c)) in *.
  destruct (Rlt_or_le (c / 2) (v - (u + c))) as [Far|Near].
  - unfold u53 in *. pose proof (rnd_minus_rel t c Ft Fc ltac:(lra)) as Hs. unfold u53 in *. lra.
  - destruct (Rle_or_lt (3 * c) (Rabs u)) as [Big|Small].
    + assert (Et : t = v - u).
      { apply rnd_id. unfold Rabs in Big. destruct (Rcase_abs u) as [Hu|Hu].
        - replace (v - u) with (- u - - v) by ring. apply fmt_minus; [now apply fmt_opp|now apply fmt_opp|lra].
        - apply fmt_minus; [assumption..|lra]. }
      rewrite Et in *. assert (Es : rnd (v - u - c) = v - u - c) by (apply rnd_id, fmt_minus; [assumption..|lra]). rewrite Es. lra.
    + apply Rabs_le_inv in HR. assert (H : Rabs (u + c) <= 25 / 100) by (eapply Rle_trans; [apply Rabs_triang|]; rewrite (Rabs_pos_eq c) by lra; lra). assert (HR' : - (u53 * (25 / 100) + eta) <= U - (u + c)) by (unfold u53 in *; lra). clear HR.
      assert (HS : t - c - u53 - eta <= rnd (t - c)) by (assert (B : Rabs (t - c) <= 1) by (apply Rabs_le; unfold u53 in *; lra); pose proof (rnd_pm _ _ B); lra). unfold u53 in *.
      assert (C : c <= 7 / 100) by lra. lra.
Qed.
Lemma mirror_low_above A v : fmt A -> fmt v -> v < A -> A <= rnd (v + 2 * rnd (A - v)).
Proof.
  intros FA Fv H. rewrite <- (rnd_id A FA) at 1. apply rnd_mono. pose proof (rnd_minus_rel A v FA Fv ltac:(lra)) as R. unfold u53 in R. lra.
Qed.
Lemma mirror_in L (b : bnd (numF L)) l u a c fy v T : bounds_are b l u a c -> is fy v -> 99 / 100000000000000000 <= T ->
  let W := u - l in let lb := b_lb b : f64 in let ub := b_ub b : f64 in let al := b_al b : f64 in let au := b_au b : f64 in
  l - 2 * a - W / 2 - W / 16 <= v <= u + 2 * c + W / 2 + W / 16 ->
  let y1 := if flt fy (fsub lb al) then fadd fy (fmul (fofZ 2) (fsub (fsub lb al) fy)) else fy in
  let y2 := if flt (fadd ub au) y1 then fsub y1 (fmul (fofZ 2) (fsub (fsub y1 ub) au)) else y1 in
  exists z, is y2 z /\ rnd (l - a) <= z <= rnd (rnd (u + c) + T).
Proof.
  intros B Iy HT W lb ub al au Hv. destruct (gap_facts L b l u a c B) as (HW & BL & BU & Pa & Pc & HQ2). fold W in HW, BL, BU, HQ2. pose proof B as B'. destruct B' as [Il Iu Ia Ic _ _ [Ea Ec] [Ha Hc] [_ H20]]. fold lb in Il. fold ub in Iu. fold al in Ia. fold au in Ic. fold W in Ha, Hc. clearbody lb ub al au. pose proof Q_big as HQ.
  apply Rabs_le_inv in BL. apply Rabs_le_inv in BU. assert (Tp : forall x, Rabs x <= 1099511627781 * W -> Rabs x <= top) by (intros x Hx; apply under_top; lra). pose proof (is_ofZ 2 ltac:(lia)) as I2. clear HQ HQ2. assert (WE : W = u - l) by reflexivity.
  pose proof (is_sub _ _ _ _ Il Ia ltac:(apply Tp, Rabs_le; lra)) as IA. pose proof (is_add _ _ _ _ Iu Ic ltac:(apply Tp, Rabs_le; lra)) as IU. pose proof (edge_minus l a Ea) as RA. pose proof (edge_plus u c Ec) as RU.
  pose proof (is_fmt _ _ IA) as FA. pose proof (is_fmt _ _ Iu) as Fu. pose proof (is_fmt _ _ Ic) as Fc. pose proof (is_fmt _ _ IU) as FU. pose proof (is_fmt _ _ Iy) as Fy.
  assert (UT : rnd (u + c) <= rnd (rnd (u + c) + T)) by (rewrite <- (rnd_id _ FU) at 1; apply rnd_mono; lra). intros y1.
  assert (H1 : exists v1, is y1 v1 /\ rnd (l - a) <= v1 <= u + 2 * c + W / 2 + W / 16).
  { unfold y1. destruct (flt fy (fsub lb al)) eqn:E1.
    - apply (is_lt _ _ _ _ Iy IA) in E1. set (A := rnd (l - a)) in *. assert (B1 : Rabs (A - v) <= 1099511627781 * W) by (apply Rabs_le; lra). pose proof (is_sub _ _ _ _ IA Iy (Tp _ B1)) as Is. pose proof (near_rnd W _ ltac:(lra) B1) as Rs. pose proof (mirror_low_above A v FA Fy E1) as ML. set (s := rnd (A - v)) in *.
      assert (Fs : fmt s) by apply rnd_fmt. assert (B2 : Rabs (2 * s) <= 1099511627781 * W) by (apply Rabs_le; lra). pose proof (is_mul _ _ _ _ I2 Is (Tp _ B2)) as I2s. rewrite (rnd_id _ (fmt_double s Fs)) in I2s.
      assert (B3 : Rabs (v + 2 * s) <= 1099511627781 * W) by (apply Rabs_le; lra). pose proof (is_add _ _ _ _ Iy I2s (Tp _ B3)) as Iz. pose proof (near_rnd W _ ltac:(lra) B3) as Rz.
      exists (rnd (v + 2 * s)). split; [exact Iz|]. split; [exact ML|]. lra.
    - apply (is_lt_false _ _ _ _ Iy IA) in E1. exists v. split; [exact Iy|lra]. }
  destruct H1 as (v1 & I1 & H1). clearbody y1. clear v Iy Fy Hv fy. intros y2. unfold y2. destruct (flt (fadd ub au) y1) eqn:E2.
  - apply (is_lt _ _ _ _ IU I1) in E2. pose proof (is_fmt _ _ I1) as F1. pose proof (mirror_high_below u c v1 T Ec Fu Fc F1 H20 E2 HT) as MH.
    assert (B1 : Rabs (v1 - u) <= 1099511627781 * W) by (apply Rabs_le; lra). pose proof (is_sub _ _ _ _ I1 Iu (Tp _ B1)) as It. pose proof (near_rnd W _ ltac:(lra) B1) as Rt. set (t := rnd (v1 - u)) in *.
    assert (B2 : Rabs (t - c) <= 1099511627781 * W) by (apply Rabs_le; lra). pose proof (is_sub _ _ _ _ It Ic (Tp _ B2)) as Is. pose proof (near_rnd W _ ltac:(lra) B2) as Rs. set (s := rnd (t - c)) in *. assert (Fs : fmt s) by apply rnd_fmt.
    assert (B3 : Rabs (2 * s) <= 1099511627781 * W) by (apply Rabs_le; lra). pose proof (is_mul _ _ _ _ I2 Is (Tp _ B3)) as I2s. rewrite (rnd_id _ (fmt_double s Fs)) in I2s.
    assert (B4 : Rabs (v1 - 2 * s) <= 1099511627781 * W) by (apply Rabs_le; lra). pose proof (is_sub _ _ _ _ I1 I2s (Tp _ B4)) as Iz. pose proof (near_rnd W _ ltac:(lra) B4) as Rz.
    exists (rnd (v1 - 2 * s)). split; [exact Iz|]. split; [|exact MH]. lra.
  - apply (is_lt_false _ _ _ _ IU I1) in E2. exists v1. split; [exact I1|]. lra.
Qed.

(** ** The whole transformation *)
Lemma fold_unfold L (b : bnd (numF L)) (x : f64) :
  let lb := b_lb b : f64 in let ub := b_ub b : f64 in let al := b_al b : f64 in let au := b_au b : f64 in
  @fold_into (numF L) to_int_F b x =
  let xl := fsub (fsub lb (fmul (fofZ 2) al)) (fdiv (fsub ub lb) (fofZ 2)) in
  let xu := fadd (fadd ub (fmul (fofZ 2) au)) (fdiv (fsub ub lb) (fofZ 2)) in
  let P := fmul (fofZ 2) (fadd (fadd (fsub ub lb) al) au) in
  obind (if flt x xl then let* k := @one_plus_int (numF L) to_int_F (fdiv (fsub xl x) P) in Ok (fadd x (fmul P (fofZ k))) else Ok x) (fun y : f64 =>
  obind (if flt xu y then let* k := @one_plus_int (numF L) to_int_F (fdiv (fsub y xu) P) in Ok (fsub y (fmul P (fofZ k))) else Ok y) (fun y : f64 =>
  let y1 := if flt y (fsub lb al) then fadd y (fmul (fofZ 2) (fsub (fsub lb al) y)) else y in
  let y2 := if flt (fadd ub au) y1 then fsub y1 (fmul (fofZ 2) (fsub (fsub y1 ub) au)) else y1 in Ok y2)).
Proof. reflexivity. Qed.
Lemma fold_in L (b : bnd (numF L)) l u a c x v T : bounds_are b l u a c -> is x v -> 99 / 100000000000000000 <= T ->
  (forall y, @fold_into (numF L) to_int_F b x = Ok y -> exists z, is y z /\ rnd (l - a) <= z <= rnd (rnd (u + c) + T)) /\
  (Rabs (v - l) <= 1073741824 * (u - l) -> exists y, @fold_into (numF L) to_int_F b x = Ok y).
Proof.
  intros B Ix HT. rewrite fold_unfold. destruct (fold_constants L b l u a c B) as ((xl & Il & Al) & (xu & Iu & Au) & (P & IP & AP)). destruct (gap_facts L b l u a c B) as (HW & BL & BU & Pa & Pc & HQ2). destruct (ba_half _ _ _ _ _ B) as [Ha Hc].
  pose proof (mirror_in L b l u a c) as M. cbv zeta in M |- *. set (W := u - l) in *. assert (WE : W = u - l) by reflexivity. clearbody W. unfold about in *.
  set (fxl := fsub (fsub (b_lb b : f64) _) _) in *. set (fxu := fadd (fadd (b_ub b : f64) _) _) in *. set (fP := fmul (fofZ 2) (fadd (fadd _ _) _)) in *. clearbody fxl fxu fP.
  apply Rabs_le_inv in BL. apply Rabs_le_inv in BU. assert (BXl : Rabs xl <= 1099511627779 * W) by (apply Rabs_le; lra). assert (BXu : Rabs xu <= 1099511627779 * W) by (apply Rabs_le; lra). assert (BP : 199 / 100 * W <= P <= 41 / 10 * W) by lra.
  set (s1 := if flt x fxl then _ else _).
  assert (H1 : (forall y, s1 = Ok y -> exists v1, is y v1 /\ xl - W / 64 <= v1 /\ (v1 <= v \/ v1 <= xu + W / 32)) /\ (Rabs (v - l) <= 1073741824 * W -> exists y, s1 = Ok y)).
  { unfold s1. destruct (flt x fxl) eqn:E1.
    - apply (is_lt _ _ _ _ Ix Il) in E1. split.
      + intros y Hy. apply obind_Ok in Hy as (k & Hk & Hy). assert (y = fadd x (fmul fP (fofZ k))) by congruence. subst y. destruct (stage_up L W xl P x v fxl fP k ltac:(lra) HQ2 BXl BP Ix Il IP E1 Hk) as (y & Iy & Hy1). exists y. split; [exact Iy|]. split; [lra|right; lra].
      + intros Hv. apply Rabs_le_inv in Hv. destruct (stage_count L W P fxl xl x v fP ltac:(lra) HQ2 BP Il Ix IP ltac:(lra)) as (k & Hk). rewrite Hk. cbn [obind]. eauto.
    - apply (is_lt_false _ _ _ _ Ix Il) in E1. split; [|eauto]. intros y Hy. assert (y = x) by congruence. subst y. exists v. split; [exact Ix|]. split; [lra|left; lra]. }
  clearbody s1. destruct H1 as [H1 H1']. split.
  - intros y Hy. apply obind_Ok in Hy as (y1 & Hs1 & Hy). destruct (H1 y1 Hs1) as (v1 & I1 & B1 & _). apply obind_Ok in Hy as (y2 & Hs2 & Hy).
    assert (H2 : exists v2, is y2 v2 /\ l - 2 * a - W / 2 - W / 16 <= v2 <= u + 2 * c + W / 2 + W / 16).
    { destruct (flt fxu y1) eqn:E2.
      - apply (is_lt _ _ _ _ Iu I1) in E2. apply obind_Ok in Hs2 as (k & Hk & Hs2). assert (y2 = fsub y1 (fmul fP (fofZ k))) by congruence. subst y2. destruct (stage_down L W xu P y1 v1 fxu fP k ltac:(lra) HQ2 BXu BP I1 Iu IP E2 Hk) as (z & Iz & Hz). exists z. split; [exact Iz|lra].
      - apply (is_lt_false _ _ _ _ Iu I1) in E2. assert (y2 = y1) by congruence. subst y2. exists v1. split; [exact I1|lra]. }
    destruct H2 as (v2 & I2 & B2). specialize (M y2 v2 T B I2 HT ltac:(lra)). destruct M as (z & Iz & Hz). exists z. split; [|exact Hz]. match type of Hy with Ok ?e = Ok y => assert (E : e = y) by congruence end. rewrite <- E. exact Iz.
  - intros Hv. destruct (H1' Hv) as (y1 & Hs1). rewrite Hs1. cbn [obind]. destruct (H1 y1 Hs1) as (v1 & I1 & B1 & B1'). apply Rabs_le_inv in Hv. destruct (flt fxu y1) eqn:E2; [|eexists; reflexivity].
    apply (is_lt _ _ _ _ Iu I1) in E2. destruct (stage_count L W P y1 v1 fxu xu fP ltac:(lra) HQ2 BP I1 Iu IP ltac:(lra)) as (k & Hk). rewrite Hk. cbn [obind]. eexists; reflexivity.
Qed.
(** The transformation of one component. *)
Definition trans_F (L : libm) (bug : string) (lb ub x : f64) : outcome f64 :=
  let* y := @shift_or_throw (numF L) to_int_F bug (@make_bnd (numF L) lb ub) x in Ok (@squash (numF L) (@make_bnd (numF L) lb ub) y).
Lemma not_bug_F L (b : bnd (numF L)) l u a c y z : bounds_are b l u a c -> is y z -> (forall T, 99 / 100000000000000000 <= T -> rnd (l - a) <= z <= rnd (rnd (u + c) + T)) -> @is_bug (numF L) b y = false.
Proof.
  intros B Iy Hz. destruct (gap_facts L b l u a c B) as (HW & BL & BU & Pa & Pc & HQ2). destruct (ba_half _ _ _ _ _ B) as [Ha Hc]. destruct (ba_edges _ _ _ _ _ B) as [Ea Ec]. destruct B as [Il Iu Ia Ic _ _ _ _ _]. pose proof Q_big as HQ.
  apply Rabs_le_inv in BL. apply Rabs_le_inv in BU. destruct is_tolerance as (T & IT & HT). specialize (Hz T ltac:(lra)). unfold is_bug. cbn [nlt nsub nadd ndec numF]. pose proof (edge_minus l a Ea) as RA. pose proof (edge_plus u c Ec) as RU.
  pose proof (is_sub _ _ _ _ Il Ia ltac:(apply under_top, Rabs_le; lra)) as IA. pose proof (is_add _ _ _ _ Iu Ic ltac:(apply under_top, Rabs_le; lra)) as IU.
  pose proof (is_sub _ _ _ _ IA IT ltac:(apply under_top, Rabs_le; lra)) as IAT. pose proof (is_add _ _ _ _ IU IT ltac:(apply under_top, Rabs_le; lra)) as IUT. apply orb_false_iff. split.
  - apply (is_lt_false _ _ _ _ Iy IAT). apply Rle_trans with (rnd (l - a)); [|lra]. rewrite <- (rnd_id _ (is_fmt _ _ IA)) at 2. apply rnd_mono. lra.
  - apply (is_lt_false _ _ _ _ IUT Iy). lra.
Qed.
Lemma infinite_undef L (b : bnd (numF L)) l u a c s : bounds_are b l u a c -> @fold_into (numF L) to_int_F b (B754_infinity s) = Undef.
Proof.
  intros B. rewrite fold_unfold. destruct (fold_constants L b l u a c B) as ((xl & Il & Al) & (xu & Iu & Au) & (P & IP & AP)). destruct (gap_facts L b l u a c B) as (HW & _ & _ & Pa & Pc & _). unfold about in *. cbv zeta in *.
  set (fxl := fsub (fsub (b_lb b : f64) _) _) in *. set (fxu := fadd (fadd (b_ub b : f64) _) _) in *. set (fP := fmul (fofZ 2) (fadd (fadd _ _) _)) in *. clearbody fxl fxu fP.
  assert (HP : 0 < P) by lra. destruct Il as [Fl _], Iu as [Fu _], IP as [FP EP]. clear - Fl Fu FP EP HP.
  assert (HD : forall s', to_int_F (fdiv (B754_infinity s') fP) = Undef) by (intros s'; destruct fP as [s0|s0| |s0 m e H]; try discriminate FP; reflexivity).
  destruct s.
  - assert (E1 : flt (B754_infinity true) fxl = true) by (destruct fxl; try discriminate Fl; reflexivity). rewrite E1.
    assert (E2 : fsub fxl (B754_infinity true) = B754_infinity false) by (destruct fxl; try discriminate Fl; reflexivity). rewrite E2. unfold one_plus_int. rewrite HD. reflexivity.
  - assert (E1 : flt (B754_infinity false) fxl = false) by (destruct fxl; try discriminate Fl; reflexivity). rewrite E1. cbn [obind].
    assert (E3 : flt fxu (B754_infinity false) = true) by (destruct fxu; try discriminate Fu; reflexivity). rewrite E3.
    assert (E2 : fsub (B754_infinity false) fxu = B754_infinity false) by (destruct fxu; try discriminate Fu; reflexivity). rewrite E2. unfold one_plus_int. rewrite HD. reflexivity.
Qed.
Lemma fold_ok L (b : bnd (numF L)) l u a c x y : bounds_are b l u a c -> is_finite x = true -> @fold_into (numF L) to_int_F b x = Ok y ->
  exists z, is y z /\ forall T, 99 / 100000000000000000 <= T -> rnd (l - a) <= z <= rnd (rnd (u + c) + T).
Proof.
  intros B Fx H. assert (I : is y (B2R y)). { destruct (fold_in L b l u a c x _ 1 B (is_self x Fx) ltac:(lra)) as [G _]. destruct (G y H) as (z & [F _] & _). split; auto. }
  exists (B2R y). split; [exact I|]. intros T HT. destruct (fold_in L b l u a c x _ T B (is_self x Fx) HT) as [G _]. destruct (G y H) as (z & [_ <-] & Hz). exact Hz.
Qed.
Lemma fold_never_throws L (b : bnd (numF L)) x e : @fold_into (numF L) to_int_F b x <> Throw e.
Proof.
  rewrite fold_unfold. cbv zeta. unfold one_plus_int, to_int_F.
  repeat (match goal with |- context [if flt ?p ?q then _ else _] => destruct (flt p q) | |- context [match f_trunc ?t with _ => _ end] => destruct (f_trunc t) | |- context [if fits_int ?t then _ else _] => destruct (fits_int t) end; cbn [obind]); discriminate.
Qed.
Theorem C34_doubles_in_bounds : forall L bug lb ub x, ordinary lb ub -> fisnan x = false ->
  (* the internal error is never reported, the result is within the bounds *)
  (forall e, trans_F L bug lb ub x <> Throw e) /\
  (forall y, trans_F L bug lb ub x = Ok y -> fle lb y = true /\ fle y ub = true) /\
  (* there is a result for every point up to 2^30 widths away *)
  (is_finite x = true -> Rabs (B2R x - B2R lb) <= bpow radix2 30 * (B2R ub - B2R lb) -> exists y, trans_F L bug lb ub x = Ok y).
Proof.
  intros L bug lb ub x HO HN. destruct (make_bnd_is L lb ub HO) as (a & c & B). pose proof B as B'. destruct B' as [Il Iu _ _ _ _ [Ea Ec] [Ha Hc] _]. cbn [make_bnd b_lb b_ub] in Il, Iu. unfold trans_F, shift_or_throw. set (b := @make_bnd (numF L) lb ub) in *. clearbody b.
  set (l := B2R lb) in *. set (u := B2R ub) in *. clearbody l u.
  assert (HOK : forall y, @fold_into (numF L) to_int_F b x = Ok y -> @is_bug (numF L) b y = false /\ exists z, is (@squash (numF L) b y) z /\ l <= z <= u).
  { intros y Hy. destruct (is_finite x) eqn:Fx; [|exfalso; destruct x as [s|s| |s m e H]; try discriminate; rewrite (infinite_undef L b l u a c s B) in Hy; discriminate].
    destruct (fold_ok L b l u a c x y B Fx Hy) as (z & Iz & Hz). split; [exact (not_bug_F L b l u a c y z B Iz Hz)|]. apply (squash_in L b l u a c y z B Iz). specialize (Hz (1 / 1000000000000000) ltac:(lra)).
    pose proof (edge_minus l a Ea) as RA. pose proof (edge_plus u c Ec) as RU. destruct Ea as [_ Pa]. destruct Ec as [EU Pc]. set (U := rnd (u + c)) in *. pose proof eta_small. apply Rabs_le_inv in EU.
    assert (BT : Rabs (U + 1 / 1000000000000000) <= 8796093022212 * c) by (apply Rabs_le; lra). pose proof (rnd_pm _ _ BT) as RT. unfold u53 in RT. lra. }
  split; [|split].
  - intros e He. pose proof (fold_never_throws L b x) as NT. destruct (@fold_into (numF L) to_int_F b x) as [y|e'|]; cbn [obind] in He; [|now apply (NT e')|discriminate]. destruct (HOK y eq_refl) as [E _]. rewrite E in He. discriminate He.
  - intros y Hy. apply obind_Ok in Hy as (z & Hz & Hy). apply obind_Ok in Hz as (z' & Hz' & Hz). destruct (HOK z' Hz') as [E (w & Iw & Hw)]. rewrite E in Hz. assert (z = z') by congruence. subst z'. assert (y = @squash (numF L) b z) by congruence. subst y.
    destruct Il as [Fl El], Iu as [Fu Eu], Iw as [Fw Ew]. split; (apply fle_B2R; [assumption..|]; rewrite Ew, ?El, ?Eu; lra).
  - intros Fx Hx. change (bpow radix2 30) with 1073741824 in Hx. destruct (fold_in L b l u a c x _ 1 B (is_self x Fx) ltac:(lra)) as [_ G]. destruct (G Hx) as (y & Hy). destruct (HOK y Hy) as [E _]. rewrite Hy. cbn [obind]. rewrite E. cbn [obind]. eauto.
Qed.
(** Points at least 5.2% of 1+|bound| inside both bounds are not changed at all. *)
Theorem C34_doubles_identity : forall L bug lb ub x, ordinary lb ub -> is_finite x = true ->
  B2R lb + 52 / 1000 * (1 + Rabs (B2R lb)) <= B2R x <= B2R ub - 52 / 1000 * (1 + Rabs (B2R ub)) -> trans_F L bug lb ub x = Ok x.
Proof.
  intros L bug lb ub x HO Fx Hx. destruct (make_bnd_is L lb ub HO) as (a & c & B). unfold trans_F, shift_or_throw. set (b := @make_bnd (numF L) lb ub) in *. clearbody b. set (l := B2R lb) in *. set (u := B2R ub) in *. clearbody l u.
  pose proof (is_self x Fx) as Ix. set (v := B2R x) in *. clearbody v.
  rewrite fold_unfold. destruct (fold_constants L b l u a c B) as ((xl & Il & Al) & (xu & Iu & Au) & (P & IP & AP)). destruct (gap_facts L b l u a c B) as (HW & BL & BU & Pa & Pc & HQ2). unfold about in *. cbv zeta in *.
  set (fxl := fsub (fsub (b_lb b : f64) _) _) in *. set (fxu := fadd (fadd (b_ub b : f64) _) _) in *. set (fP := fmul (fofZ 2) (fadd (fadd _ _) _)) in *. clearbody fxl fxu fP.
  pose proof B as B'. destruct B' as [Ib Ju Ia Ic _ _ [Ea Ec] [Ha Hc] [Ta Tc]]. pose proof Q_big as HQ. apply Rabs_le_inv in BL. apply Rabs_le_inv in BU. pose proof (Rabs_pos l). pose proof (Rabs_pos u).
  assert (E1 : flt x fxl = false) by (apply (is_lt_false _ _ _ _ Ix Il); lra). assert (E2 : flt fxu x = false) by (apply (is_lt_false _ _ _ _ Iu Ix); lra). rewrite E1. cbn [obind]. rewrite E2. cbn [obind].
  pose proof (is_sub _ _ _ _ Ib Ia ltac:(apply under_top, Rabs_le; lra)) as IA. pose proof (is_add _ _ _ _ Ju Ic ltac:(apply under_top, Rabs_le; lra)) as IU. pose proof (is_add _ _ _ _ Ib Ia ltac:(apply under_top, Rabs_le; lra)) as IA'. pose proof (is_sub _ _ _ _ Ju Ic ltac:(apply under_top, Rabs_le; lra)) as IU'.
  pose proof (edge_minus l a Ea). pose proof (edge_plus u c Ec). pose proof (edge_plus l a Ea). pose proof (edge_minus u c Ec).
  assert (E3 : flt x (fsub (b_lb b : f64) (b_al b : f64)) = false) by (apply (is_lt_false _ _ _ _ Ix IA); lra). rewrite E3. assert (E4 : flt (fadd (b_ub b : f64) (b_au b : f64)) x = false) by (apply (is_lt_false _ _ _ _ IU Ix); lra). rewrite E4.
  assert (EB : @is_bug (numF L) b x = false).
  { apply (not_bug_F L b l u a c x v B Ix). intros T HT. split; [lra|]. apply Rle_trans with (rnd (u + c)); [lra|]. rewrite <- (rnd_id _ (rnd_fmt (u + c))) at 1. apply rnd_mono. lra. }
  rewrite EB. cbn [obind]. unfold squash. cbv zeta. cbn [nlt nadd nsub numF].
  assert (E5 : flt x (fadd (b_lb b : f64) (b_al b : f64)) = false) by (apply (is_lt_false _ _ _ _ Ix IA'); lra). assert (E6 : flt (fsub (b_ub b : f64) (b_au b : f64)) x = false) by (apply (is_lt_false _ _ _ _ IU' Ix); lra).
  change (nT (numF L)) with f64 in *. rewrite E5, E6. reflexivity.
Qed.
(** Whole vectors. *)
Lemma cma_trans_each {K : Num} ti bug (bs : list (bnd K)) x : length x = length bs ->
  @cma_trans K ti bug bs x = map_out (fun bx => let* z := @shift_or_throw K ti bug (fst bx) (snd bx) in Ok (@squash K (fst bx) z)) (combine bs x).
Proof.
  intros HL. unfold cma_trans, on_components. rewrite HL, Nat.ltb_irrefl. rewrite skipn_all2 by lia. revert x HL. induction bs as [|b bs IH]; intros [|x0 x] HL; try discriminate HL; [reflexivity|].
  cbn [combine map_out fst snd]. destruct (@shift_or_throw K ti bug b x0) as [z| |]; cbn [obind]; [|reflexivity|reflexivity]. specialize (IH x (eq_add_S _ _ HL)). rewrite <- IH. clear IH.
  destruct (map_out _ (combine bs x)) as [r| |] eqn:Er; cbn [obind]; [|reflexivity|reflexivity]. rewrite !app_nil_r. cbn [combine map_out fst snd].
  assert (HR : length r = length bs) by (apply map_out_ok, Forall2_len in Er; rewrite combine_length in Er; cbn [length] in HL; lia). cbn [length]. rewrite HR, !Nat.ltb_irrefl. rewrite !skipn_all2 by (cbn [length]; lia). cbn [obind].
  destruct (map_out _ (combine bs r)) as [w| |]; cbn [obind]; rewrite ?app_nil_r; reflexivity.
Qed.
Theorem C34_doubles_vector : forall L bug (bounds : list (f64 * f64)) (x : list f64), length x = length bounds ->
  (forall lb ub, In (lb, ub) bounds -> ordinary lb ub) -> (forall v, In v x -> fisnan v = false) ->
  let bs := map (fun p => @make_bnd (numF L) (fst p) (snd p)) bounds in
  (forall e, @cma_trans (numF L) to_int_F bug bs x <> Throw e) /\
  (forall y : list f64, @cma_trans (numF L) to_int_F bug bs x = Ok y -> length y = length x /\
     forall i lb ub v w, nth_error bounds i = Some (lb, ub) -> nth_error x i = Some v -> nth_error y i = Some w -> trans_F L bug lb ub v = Ok w /\ fle lb w = true /\ fle w ub = true) /\
  ((forall i lb ub v, nth_error bounds i = Some (lb, ub) -> nth_error x i = Some v -> is_finite v = true /\ Rabs (B2R v - B2R lb) <= bpow radix2 30 * (B2R ub - B2R lb)) ->
     exists y, @cma_trans (numF L) to_int_F bug bs x = Ok y) /\
  (* the transformer class computes the same *)
  @cmaes_apply (numF L) to_int_F bs x = @cma_trans (numF L) to_int_F bug bs x.
Proof.
  intros L bug bounds x HL HO HN bs.
  assert (HE : @cma_trans (numF L) to_int_F bug bs x = map_out (fun p : (f64 * f64) * f64 => trans_F L bug (fst (fst p)) (snd (fst p)) (snd p)) (combine bounds x)).
  { rewrite cma_trans_each by (unfold bs; rewrite map_length; exact HL). unfold bs. clear. revert x. induction bounds as [|p bounds IH]; intros [|v x]; try reflexivity. cbn [map combine map_out fst snd]. rewrite IH. reflexivity. }
  rewrite HE. split; [|split; [|split]].
  - intros e. clear HE bs. revert x HL HN. induction bounds as [|[lb ub] bounds IH]; intros [|v x] HL HN; try discriminate HL; [discriminate|]. cbn [combine map_out fst snd].
    destruct (C34_doubles_in_bounds L bug lb ub v (HO lb ub ltac:(now left)) (HN v ltac:(now left))) as (N & _ & _). destruct (trans_F L bug lb ub v) as [w|e'|]; cbn [obind]; [|now specialize (N e')|discriminate].
    specialize (IH ltac:(intros; apply HO; now right) x (eq_add_S _ _ HL) ltac:(intros; apply HN; now right)). match goal with |- obind ?m _ <> _ => destruct m end; cbn [obind]; [discriminate|congruence|discriminate].
  - intros y Hy. apply map_out_ok in Hy. pose proof (Forall2_len _ _ _ Hy) as HY. rewrite combine_length in HY. split; [rewrite HL; rewrite HL, Nat.min_id in HY; exact (eq_sym HY)|]. intros i lb ub v w Hb Hv Hw.
    assert (HT : trans_F L bug lb ub v = Ok w).
    { clear HE bs HL HO HN HY. revert i x y Hy Hb Hv Hw. induction bounds as [|p bounds IH]; intros i x y Hy Hb Hv Hw; [destruct i; discriminate Hb|]. destruct x as [|v0 x]; [destruct i; discriminate Hv|]. cbn [combine] in Hy. inversion Hy as [|? w0 ? y0 H0 H1 E1 E2]; subst. destruct i as [|i]; cbn [nth_error] in Hb, Hv, Hw.
      - assert (p = (lb, ub)) by congruence. assert (v0 = v) by congruence. assert (w0 = w) by congruence. subst. exact H0.
      - exact (IH i x y0 H1 Hb Hv Hw). }
    split; [exact HT|]. apply (C34_doubles_in_bounds L bug lb ub v (HO lb ub (nth_error_In _ _ Hb)) (HN v (nth_error_In _ _ Hv))). exact HT.
  - intros HF. clear HE bs. revert x HL HN HF. induction bounds as [|[lb ub] bounds IH]; intros [|v x] HL HN HF; try discriminate HL; [exists []; reflexivity|]. cbn [combine map_out fst snd].
    destruct (HF 0%nat lb ub v eq_refl eq_refl) as [Fv Bv]. destruct (C34_doubles_in_bounds L bug lb ub v (HO lb ub ltac:(now left)) (HN v ltac:(now left))) as (_ & _ & G). destruct (G Fv Bv) as (w & Hw). rewrite Hw. cbn [obind].
    destruct (IH ltac:(intros; apply HO; now right) x (eq_add_S _ _ HL) ltac:(intros; apply HN; now right) ltac:(intros i; apply (HF (S i)))) as (y & Hy). rewrite Hy. cbn [obind]. eauto.
  - rewrite <- HE. unfold cmaes_apply, cma_trans. f_equal. unfold on_components, bs. rewrite map_length. assert (HL' : @length (nT (numF L)) x = length bounds) by exact HL. rewrite HL', Nat.ltb_irrefl. f_equal. clear HE bs HL'.
    revert x HL HN. induction bounds as [|[lb ub] bounds IH]; intros [|v x] HL HN; try discriminate HL; [reflexivity|]. cbn [map combine map_out fst snd].
    assert (HB : @shift_or_keep (numF L) to_int_F (@make_bnd (numF L) lb ub) v = @shift_or_throw (numF L) to_int_F bug (@make_bnd (numF L) lb ub) v).
    { destruct (C34_doubles_in_bounds L bug lb ub v (HO lb ub ltac:(now left)) (HN v ltac:(now left))) as (N & _ & _). unfold trans_F in N. unfold shift_or_keep. unfold shift_or_throw in *. destruct (@fold_into (numF L) to_int_F _ v) as [y|e|]; cbn [obind] in *; [|reflexivity|reflexivity].
      destruct (@is_bug (numF L) _ y); [exfalso; apply (N bug); reflexivity|reflexivity]. }
    rewrite HB. rewrite (IH ltac:(intros; apply HO; now right) x (eq_add_S _ _ HL) ltac:(intros; apply HN; now right)). reflexivity.
Qed.
(** Outside these hypotheses: not-a-number passes through, and with astronomically large bounds the squared
    distance overflows, so the "transformed" value is infinite although the point lies on the bound itself. *)
Definition some_libm : libm := {| lm_log := fun v => v; lm_exp := fun v => v; lm_sin := fun v => v; lm_cos := fun v => v |}.
Theorem C34_doubles_nan_refuted : exists y, trans_F some_libm "bug" fzero (fofZ 1) fnan = Ok y /\ fisnan y = true.
Proof.
  set (o := trans_F some_libm "bug" fzero (fofZ 1) fnan). assert (H : (match o with Ok y => fisnan y | _ => false end) = true) by (vm_compute; reflexivity). clearbody o.
  destruct o as [y| |]; try discriminate H. exists y. split; [reflexivity|exact H].
Qed.
Theorem C34_doubles_huge_bounds_refuted : exists lb ub y, is_finite lb = true /\ is_finite ub = true /\ flt lb ub = true /\ trans_F some_libm "bug" lb ub lb = Ok y /\ flt ub y = true.
Proof.
  exists (fopp (flit 1 200)), (flit 1 200). set (o := trans_F some_libm "bug" (fopp (flit 1 200)) (flit 1 200) (fopp (flit 1 200))).
  assert (H : (match o with Ok y => flt (flit 1 200) y | _ => false end) = true) by (vm_compute; reflexivity). clearbody o. destruct o as [y|e|]; [|discriminate H|discriminate H]. exists y.
  split; [vm_compute; reflexivity|]. split; [vm_compute; reflexivity|]. split; [vm_compute; reflexivity|]. split; [reflexivity|exact H].
Qed.
Example C34_doubles_nonvacuous : ordinary fzero (fofZ 1) /\ ordinary (fofZ (-1000)) (fofZ 2000) /\ exists y, trans_F some_libm "bug" (fofZ (-1000)) (fofZ 2000) (fofZ 1000000) = Ok y.
Proof.
  assert (HB : 4000 <= Q) by (apply Rle_trans with (bpow radix2 12); [cbn; lra|apply bpow_le; lia]).
  assert (H : forall a b, (Z.abs a <= 2000)%Z -> (Z.abs b <= 2000)%Z -> (a < b)%Z -> ordinary (fofZ a) (fofZ b)).
  { intros a b Ha Hb Hab. destruct (is_ofZ a ltac:(lia)) as [Fa Ea]. destruct (is_ofZ b ltac:(lia)) as [Fb Eb]. unfold ordinary. rewrite Ea, Eb, <- !abs_IZR. change (bpow radix2 (-40)) with (/ 1099511627776).
    apply IZR_le in Ha. apply IZR_le in Hb. assert (IZR a + 1 <= IZR b) by (rewrite <- plus_IZR; apply IZR_le; lia). split; [exact Fa|]. split; [exact Fb|]. split; [lra|]. split; [lra|lra]. }
  assert (H2 := H (-1000)%Z 2000%Z ltac:(lia) ltac:(lia) ltac:(lia)). split; [exact (H 0%Z 1%Z ltac:(lia) ltac:(lia) ltac:(lia))|]. split; [exact H2|].
  apply C34_doubles_in_bounds; [exact H2|vm_compute; reflexivity|vm_compute; reflexivity|]. destruct (is_ofZ (-1000) ltac:(lia)) as [_ ->]. destruct (is_ofZ 2000 ltac:(lia)) as [_ ->]. destruct (is_ofZ 1000000 ltac:(lia)) as [_ ->].
  change (bpow radix2 30) with 1073741824. rewrite Rabs_pos_eq; lra.
Qed.
