(** * C35 for the doubles the code computes with: every result is the exact one up to rounding. *)
From Coq Require Import ZArith Bool Reals Lra Psatz Lia.
From Flocq Require Import Core BinarySingleNaN Plus_error Relative Sterbenz.
From Verif Require Import Prelude Flt FltFacts Num Round8 Boundary Properties_Boundary Properties_Boundary2.
#[local] Open Scope R_scope.

(** ** Folding in exact arithmetic *)
Lemma folded_exists A B v : A < B -> exists y, folded A B v y.
Proof.
  intros H. set (r := 2 * (B - A)). assert (Hr : 0 < r) by (unfold r; lra). set (q := (v - A) / r). assert (Hq : v - A = q * r) by (unfold q; field; lra). set (n := Zfloor (q + / 2)).
  pose proof (Zfloor_lb (q + / 2)) as H1. pose proof (Zfloor_ub (q + / 2)) as H2. fold n in H1, H2. set (d := v - A - IZR n * r).
  assert (Hd : d = (q - IZR n) * r) by (unfold d; rewrite Hq; ring). assert (D1 : d <= / 2 * r) by (rewrite Hd; apply Rmult_le_compat_r; lra). assert (D2 : - / 2 * r <= d) by (rewrite Hd; apply Rmult_le_compat_r; lra).
  exists (A + Rabs d). assert (HA : Rabs d <= B - A) by (apply Rabs_le; unfold r in *; lra). split; [pose proof (Rabs_pos d); lra|]. exists n. fold r. unfold Rabs. destruct (Rcase_abs d); [right|left]; unfold d; lra.
Qed.
Lemma fold_near A B v y e : A < B -> 0 <= e -> A - e <= v <= B + e -> folded A B v y -> Rabs (y - v) <= 2 * e.
Proof.
  intros H He Hv HF. set (m := Rmax A (Rmin v B)). assert (Hm : A <= m <= B /\ Rabs (v - m) <= e).
  { unfold m. destruct (Rle_or_lt v B) as [C|C]; [rewrite Rmin_left by lra|rewrite Rmin_right by lra]; [destruct (Rle_or_lt A v) as [C'|C']; [rewrite Rmax_right by lra|rewrite Rmax_left by lra]|rewrite Rmax_right by lra]; (split; [lra|apply Rabs_le; lra]). }
  destruct Hm as [Hm Hd]. pose proof (folded_lipschitz A B v m y m H HF (folded_id A B m Hm)) as HL. replace (y - v) with ((y - m) - (v - m)) by ring. unfold Rminus at 1. eapply Rle_trans; [apply Rabs_triang|]. rewrite Rabs_Ropp. lra.
Qed.
(** slightly different ends *)
Lemma fold_ends A B A' B' v y y' d e : A < B -> A' < B' -> 0 <= e -> Rabs (A - A') <= d -> Rabs (B - B') <= d -> d <= e * (B - A) -> folded A B v y -> folded A' B' v y' ->
  Rabs (y - y') <= 6 * d + 2 * e * (Rabs (v - A) + (B - A)).
Proof.
  intros H H' He HA HB Hd [Hy (n & Hn)] HF'. set (t := y - A). set (t' := Rmin t (B' - A')). apply Rabs_le_inv in HA as HA'. apply Rabs_le_inv in HB as HB'.
  assert (Ht : 0 <= t' <= B' - A' /\ Rabs (t - t') <= 2 * d). { unfold t', t. destruct (Rle_or_lt (y - A) (B' - A')) as [C|C]; [rewrite Rmin_left by lra|rewrite Rmin_right by lra]; (split; [lra|apply Rabs_le; lra]). }
  destruct Ht as [Ht Htt]. assert (HN : Rabs (IZR n) * (2 * (B - A)) <= Rabs (v - A) + (B - A)).
  { rewrite <- (Rabs_pos_eq (2 * (B - A))) by lra. rewrite <- Rabs_mult. destruct Hn as [Hn|Hn]; [replace (IZR n * (2 * (B - A))) with ((v - A) - t) by (unfold t; lra)|replace (IZR n * (2 * (B - A))) with ((v - A) + t) by (unfold t; lra)]; [unfold Rminus at 1|]; (eapply Rle_trans; [apply Rabs_triang|]); rewrite ?Rabs_Ropp; rewrite (Rabs_pos_eq t) by (unfold t; lra); unfold t; lra. }
  assert (HR : Rabs (IZR n * (2 * (B - A) - 2 * (B' - A'))) <= 2 * e * (Rabs (v - A) + (B - A))).
  { rewrite Rabs_mult. apply Rle_trans with (Rabs (IZR n) * (4 * (e * (B - A)))); [apply Rmult_le_compat_l; [apply Rabs_pos|apply Rabs_le; lra]|]. pose proof (Rmult_le_compat_l (2 * e) _ _ ltac:(lra) HN). lra. }
  assert (HV : exists v', folded A' B' v' (A' + t') /\ Rabs (v - v') <= 3 * d + 2 * e * (Rabs (v - A) + (B - A))).
  { apply Rabs_le_inv in HR. apply Rabs_le_inv in Htt. destruct Hn as [Hn|Hn].
    - exists (A' + IZR n * (2 * (B' - A')) + t'). split; [split; [lra|exists n; left; ring]|]. apply Rabs_le. unfold t in *. lra.
    - exists (A' + IZR n * (2 * (B' - A')) - t'). split; [split; [lra|exists n; right; ring]|]. apply Rabs_le. unfold t in *. lra. }
  destruct HV as (v' & HF & HV). pose proof (folded_lipschitz A' B' v v' y' (A' + t') H' HF' HF) as HL.
  replace (y - y') with ((A - A') + (t - t') - (y' - (A' + t'))) by (unfold t; ring). unfold Rminus at 1. eapply Rle_trans; [apply Rabs_triang|]. rewrite Rabs_Ropp. pose proof (Rabs_triang (A - A') (t - t')). lra.
Qed.

(** ** Squashing in exact arithmetic, near the joins *)
Section Joins.
Context (lb ub al au : R) (Hb : lb < ub) (Hal : 0 < al <= (ub - lb) / 2) (Hau : 0 < au <= (ub - lb) / 2).
Notation sq := (squash_R lb ub al au).
Lemma low_form y d : lb - al <= y <= ub + au -> y <= lb + al + d -> 0 <= d <= al -> Rabs (sq y - (lb + (y - (lb - al)) * (y - (lb - al)) / 4 / al)) <= 5 / 4 * d.
Proof using Hb Hal Hau.
  intros Hy Hd Hd'. destruct (Rlt_or_le y (lb + al)) as [C|C].
  - rewrite squash_R_unfold, Rlt_bool_true by exact C. apply Rabs_le. lra.
  - pose proof (squash_lipschitz lb ub al au Hb Hal Hau (lb + al) y ltac:(lra) C ltac:(lra)) as HL. rewrite (squash_id lb ub al au Hb Hal Hau (lb + al)) in HL by lra.
    set (e := y - (lb + al)) in *. assert (E : lb + (y - (lb - al)) * (y - (lb - al)) / 4 / al = y + e * e / (4 * al)) by (unfold e; field; lra). rewrite E.
    assert (HE : 0 <= e * e / (4 * al) <= / 4 * e). { split; [apply Rmult_le_pos; [unfold e; nra|]; apply Rlt_le, Rinv_0_lt_compat; lra|]. apply (Rmult_le_reg_r (4 * al)); [lra|]. unfold Rdiv. rewrite Rmult_assoc, Rinv_l by lra. rewrite Rmult_1_r. replace (/ 4 * e * (4 * al)) with (e * al) by field. apply Rmult_le_compat_l; unfold e; lra. }
    apply Rabs_le. unfold e in *. lra.
Qed.
Lemma high_form y d : lb - al <= y <= ub + au -> ub - au - d <= y -> 0 <= d <= au -> Rabs (sq y - (ub - (y - (ub + au)) * (y - (ub + au)) / 4 / au)) <= 5 / 4 * d.
Proof using Hb Hal Hau.
  intros Hy Hd Hd'. destruct (Rlt_or_le (ub - au) y) as [C|C].
  - rewrite squash_R_unfold, Rlt_bool_false by lra. rewrite Rlt_bool_true by exact C. apply Rabs_le. lra.
  - pose proof (squash_lipschitz lb ub al au Hb Hal Hau y (ub - au) ltac:(lra) C ltac:(lra)) as HL. rewrite (squash_id lb ub al au Hb Hal Hau (ub - au)) in HL by lra.
    set (e := ub - au - y) in *. assert (E : ub - (y - (ub + au)) * (y - (ub + au)) / 4 / au = y - e * e / (4 * au)) by (unfold e; field; lra). rewrite E.
    assert (HE : 0 <= e * e / (4 * au) <= / 4 * e). { split; [apply Rmult_le_pos; [unfold e; nra|]; apply Rlt_le, Rinv_0_lt_compat; lra|]. apply (Rmult_le_reg_r (4 * au)); [lra|]. unfold Rdiv. rewrite Rmult_assoc, Rinv_l by lra. rewrite Rmult_1_r. replace (/ 4 * e * (4 * au)) with (e * au) by field. apply Rmult_le_compat_l; unfold e; lra. }
    apply Rabs_le. unfold e in *. lra.
Qed.
Lemma mid_form y d : lb - al <= y <= ub + au -> lb + al - d <= y <= ub - au + d -> 0 <= d -> Rabs (sq y - y) <= d.
Proof using Hb Hal Hau.
  intros Hy Hd Hd'. destruct (Rlt_or_le y (lb + al)) as [C|C]; [|destruct (Rlt_or_le (ub - au) y) as [C'|C']].
  - pose proof (squash_lipschitz lb ub al au Hb Hal Hau y (lb + al) ltac:(lra) ltac:(lra) ltac:(lra)) as HL. rewrite (squash_id lb ub al au Hb Hal Hau (lb + al)) in HL by lra. apply Rabs_le. lra.
  - pose proof (squash_lipschitz lb ub al au Hb Hal Hau (ub - au) y ltac:(lra) ltac:(lra) ltac:(lra)) as HL. rewrite (squash_id lb ub al au Hb Hal Hau (ub - au)) in HL by lra. apply Rabs_le. lra.
  - rewrite squash_id by (auto; lra). apply Rabs_le. lra.
Qed.
Lemma squash_abs y y' : lb - al <= y <= ub + au -> lb - al <= y' <= ub + au -> Rabs (sq y - sq y') <= Rabs (y - y').
Proof using Hb Hal Hau.
  intros H H'. destruct (Rle_or_lt y y') as [C|C].
  - pose proof (squash_lipschitz lb ub al au Hb Hal Hau y y' ltac:(lra) C ltac:(lra)). rewrite (Rabs_minus_sym y y'), (Rabs_pos_eq (y' - y)) by lra. apply Rabs_le. lra.
  - pose proof (squash_lipschitz lb ub al au Hb Hal Hau y' y ltac:(lra) ltac:(lra) ltac:(lra)). rewrite (Rabs_pos_eq (y - y')) by lra. apply Rabs_le. lra.
Qed.
End Joins.

(** ** Rounding errors *)
Lemma rnd2 v b : Rabs v <= b -> / 1267650600228229401496703205376 <= b -> v - 2 * u53 * b <= rnd v <= v + 2 * u53 * b.
Proof. intros H Hb. pose proof (rnd_pm v b H) as R. pose proof eta_small as E. unfold u53 in *. lra. Qed.
Lemma fin_add a b v w : is a v -> is b w -> is_finite (fadd a b) = true -> is (fadd a b) (rnd (v + w)).
Proof.
  intros [Fa <-] [Fb <-] H. pose proof (Bplus_correct prec64 emax64 _ _ mode_NE a b Fa Fb) as E. fold (fadd a b) in E. destruct (Rlt_bool _ _) in E.
  - split; [exact H|exact (proj1 E)].
  - destruct E as [E _]. destruct (fadd a b); try discriminate H; discriminate E.
Qed.
Lemma fin_mul a b v w : is a v -> is b w -> is_finite (fmul a b) = true -> is (fmul a b) (rnd (v * w)).
Proof.
  intros [Fa <-] [Fb <-] H. pose proof (Bmult_correct prec64 emax64 _ _ mode_NE a b) as E. fold (fmul a b) in E. destruct (Rlt_bool _ _) in E.
  - split; [exact H|exact (proj1 E)].
  - destruct (fmul a b); try discriminate H; discriminate E.
Qed.
(** the edge formula: [y] is within [d] of the exact point, [al] the exact width *)
Lemma smooth_acc l a al y y' d : edge l a -> 0 < al -> al - 4 * u53 * al <= a <= al + 4 * u53 * al -> a <= 51 / 1000 * (1 + Rabs l) ->
  l - a - a / 8 <= y <= l + a + a / 8 -> Rabs (y - y') <= d -> d <= a / 4 ->
  Rabs (smooth l a y - (l + (y' - (l - al)) * (y' - (l - al)) / 4 / al)) <= 3 / 2 * d + 10 * u53 * (1 + Rabs l).
Proof.
  intros HE Pal Ha H20 Hy Hd Hd4. destruct (smooth_facts l a y HE Hy) as (S1 & S2 & S3 & S4 & S4' & S5 & S6). destruct HE as [HE1 HE2]. pose proof (Rabs_pos l) as Pl. pose proof (Rle_abs l) as L1. pose proof (Rle_abs (- l)) as L2. rewrite Rabs_Ropp in L2. set (s := 1 + Rabs l) in *. assert (SE : s = 1 + Rabs l) by reflexivity. clearbody s.
  assert (BA : Rabs (l - a) <= 11 / 10 * s) by (apply Rabs_le; lra). pose proof (rnd2 _ _ BA ltac:(lra)) as RA. set (A := rnd (l - a)) in *. cbv zeta in *. pose proof (rnd2 _ _ S1 ltac:(lra)) as Rd. unfold smooth. fold A. cbv zeta. set (dd := rnd (y - A)) in *.
  set (t := y' - (l - al)). assert (HT : Rabs (dd - t) <= d + 4 * u53 * s). { apply Rabs_le_inv in Hd. apply Rabs_le. unfold t, u53 in *. lra. }
  assert (AA : / 8796093022208 * / 8796093022208 <= a * a) by (apply Rmult_le_compat; lra).
  assert (B2 : 0 <= dd * dd <= 9 * (a * a)) by (apply Rabs_le_inv in S2; split; [nra|]; clear - S2 HE2; nra).
  pose proof (rnd2 (dd * dd) (9 * (a * a)) ltac:(rewrite Rabs_pos_eq; lra) ltac:(lra)) as R1. set (q1 := rnd (dd * dd)) in *.
  pose proof (rnd2 (q1 / 4) (3 / 2 * (a * a)) ltac:(rewrite Rabs_pos_eq; lra) ltac:(lra)) as R2. set (q2 := rnd (q1 / 4)) in *.
  pose proof (rnd2 (q2 / a) (3 / 2 * a) ltac:(rewrite Rabs_pos_eq; lra) ltac:(lra)) as R3. set (q3 := rnd (q2 / a)) in *.
  assert (B4 : Rabs (l + q3) <= 11 / 10 * s) by (apply Rabs_le; lra). pose proof (rnd2 _ _ B4 ltac:(lra)) as R4. set (r := rnd (l + q3)) in *.
  (* the quotients *)
  set (q := q2 / a) in *. assert (Eq : q * a = q2) by (unfold q; field; lra). clearbody q. set (q' := t * t / 4 / al). assert (Eq' : q' * (4 * al) = t * t) by (unfold q'; field; lra).
  change (t * t / 4 / al) with q'. assert (T3 : - (5 / 2 * a) <= t <= 5 / 2 * a). { apply Rabs_le_inv in Hd. unfold t, u53 in *. lra. }
  assert (Q' : 0 <= q' <= 2 * al). { split; [unfold q'; apply Rmult_le_pos; [nra|]; apply Rlt_le, Rinv_0_lt_compat; lra|]. apply (Rmult_le_reg_r (4 * al)); [lra|]. rewrite Eq'. assert (-(51/20*al) <= t <= 51/20 * al) by (unfold u53 in *; lra). clear - H Pal. nra. }
  assert (HD : Rabs (dd * dd - t * t) <= 6 * (a * (d + 4 * u53 * s))).
  { replace (dd * dd - t * t) with ((dd + t) * (dd - t)) by ring. rewrite Rabs_mult. replace (6 * (a * (d + 4 * u53 * s))) with (6 * a * (d + 4 * u53 * s)) by ring. apply Rmult_le_compat; [apply Rabs_pos|apply Rabs_pos| |exact HT]. apply Rabs_le_inv in S2. apply Rabs_le. lra. }
  assert (HQ : Rabs (q - q') <= 3 / 2 * (d + 4 * u53 * s) + 20 * u53 * a).
  { apply (Rmult_le_reg_r (4 * a)); [lra|]. rewrite <- (Rabs_pos_eq (4 * a)) at 1 by lra. rewrite <- Rabs_mult.
    replace ((q - q') * (4 * a)) with (4 * (q2 - q1 / 4) + (q1 - dd * dd) + (dd * dd - t * t) + 4 * (q' * (al - a))) by (rewrite <- Eq; replace (dd * dd - t * t) with (dd * dd - q' * (4 * al)) by (rewrite Eq'; ring); field).
    replace ((3 / 2 * (d + 4 * u53 * s) + 20 * u53 * a) * (4 * a)) with (6 * (a * (d + 4 * u53 * s)) + 80 * u53 * (a * a)) by field.
    assert (HW : Rabs (q' * (al - a)) <= 9 * u53 * (a * a)). { rewrite Rabs_mult, (Rabs_pos_eq q') by lra. apply Rle_trans with (2 * al * (4 * u53 * al)); [apply Rmult_le_compat; [lra|apply Rabs_pos|lra|apply Rabs_le; lra]|]. replace (2 * al * (4 * u53 * al)) with (8 * u53 * (al * al)) by ring. assert (al <= 1001 / 1000 * a) by (unfold u53 in *; lra). assert (al * al <= 1003 / 1000 * (a * a)) by (clear - H Pal; nra). unfold u53 in *. lra. }
    apply Rabs_le_inv in HD. apply Rabs_le_inv in HW. apply Rabs_le. set (X := a * (d + 4 * u53 * s)) in *. set (Y := q' * (al - a)) in *. set (Z0 := dd * dd - t * t) in *. clearbody X Y Z0. unfold u53 in *. lra. }
  apply Rabs_le_inv in HQ. apply Rabs_le. assert (a <= 51 / 1000 * s) by exact H20. clearbody q'. clear - HQ R3 R4 H Pal Ha. unfold u53 in *. lra.
Qed.

(** ** The widths of the smoothed edges *)
Lemma rel_min e h g h0 g0 : 0 <= e < 1 -> 0 <= h0 -> 0 <= g0 -> h0 - e * h0 <= h <= h0 + e * h0 -> g0 - e * g0 <= g <= g0 + e * g0 ->
  Rmin h0 g0 - e * Rmin h0 g0 <= Rmin h g <= Rmin h0 g0 + e * Rmin h0 g0.
Proof.
  intros He H0 G0 Hh Hg. assert (M1 : forall p q, p <= q -> p - e * p <= q - e * q) by (intros p q H; nra). assert (M2 : forall p q, p <= q -> p + e * p <= q + e * q) by (intros p q H; nra). split.
  - apply Rmin_glb; [eapply Rle_trans; [apply M1, Rmin_l|]; lra|eapply Rle_trans; [apply M1, Rmin_r|]; lra].
  - destruct (Rle_or_lt h0 g0) as [C|C]; [rewrite (Rmin_left h0) by lra; eapply Rle_trans; [apply Rmin_l|]; lra|rewrite (Rmin_right h0) by lra; eapply Rle_trans; [apply Rmin_r|]; lra].
Qed.
Lemma is_unique x v w : is x v -> is x w -> v = w.
Proof. intros [_ <-] [_ <-]. reflexivity. Qed.
Definition widths_ok (l u a c : R) : Prop :=
  al_of l u - 4 * u53 * al_of l u <= a <= al_of l u + 4 * u53 * al_of l u /\ au_of l u - 4 * u53 * au_of l u <= c <= au_of l u + 4 * u53 * au_of l u.
Lemma make_bnd_acc L lb ub a c : ordinary lb ub -> bounds_are (@make_bnd (numF L) lb ub) (B2R lb) (B2R ub) a c -> widths_ok (B2R lb) (B2R ub) a c.
Proof.
  intros (Fl & Fu & Ql & Qu & G) [_ _ Ia Ic _ _ _ _ _]. cbn [make_bnd b_al b_au] in Ia, Ic. pose proof (is_self lb Fl) as Il. pose proof (is_self ub Fu) as Iu. set (l := B2R lb) in *. set (u := B2R ub) in *. clearbody l u.
  change (bpow radix2 (-40)) with (/ 1099511627776) in G. pose proof Q_big as HQ. pose proof (Rabs_pos l) as Pl. pose proof (Rabs_pos u) as Pu. pose proof eta_small as E. pose proof (Rle_abs u) as Au. pose proof (Rle_abs (- l)) as Al. rewrite Rabs_Ropp in Al.
  pose proof (is_sub ub lb u l Iu Il) as Iw. assert (Bw : Rabs (u - l) <= u - l) by (rewrite Rabs_pos_eq; lra). specialize (Iw ltac:(apply under_top; lra)). pose proof (rnd_pm _ _ Bw) as Rw. set (w := rnd (u - l)) in *.
  pose proof (is_ofZ 2 ltac:(lia)) as I2. pose proof (is_ofZ 1 ltac:(lia)) as I1. pose proof (is_ofZ 20 ltac:(lia)) as I20. unfold u53 in Rw.
  assert (Bh : Rabs (w / 2) <= 6 / 10 * (u - l)) by (rewrite Rabs_pos_eq; lra).
  pose proof (is_div _ _ w 2 Iw I2 ltac:(lra) ltac:(apply under_top; lra)) as Ih. pose proof (rnd_pm _ _ Bh) as Rh. set (h := rnd (w / 2)) in *. unfold u53 in Rh.
  assert (G20 : forall x v, is x v -> Rabs v <= Q -> exists g, is (fdiv (fadd (fofZ 1) (fabs x)) (fofZ 20)) g /\ (1 + Rabs v) / 20 - 4 * u53 * ((1 + Rabs v) / 20) <= g <= (1 + Rabs v) / 20 + 4 * u53 * ((1 + Rabs v) / 20)).
  { intros x v Ix Bx. pose proof (Rabs_pos v) as Pv. pose proof (is_abs x v Ix) as Ib. assert (Bs : Rabs (1 + Rabs v) <= 1 + Rabs v) by (rewrite Rabs_pos_eq; lra).
    pose proof (is_add _ _ 1 (Rabs v) I1 Ib ltac:(apply under_top; lra)) as Is. pose proof (rnd_pm _ _ Bs) as Rs. set (s := rnd (1 + Rabs v)) in *. unfold u53 in *.
    assert (Bg : Rabs (s / 20) <= 6 / 100 * (1 + Rabs v)) by (rewrite Rabs_pos_eq; lra). pose proof (is_div _ _ s 20 Is I20 ltac:(lra) ltac:(apply under_top; lra)) as Ig. pose proof (rnd_pm _ _ Bg) as Rg. unfold u53 in *. exists (rnd (s / 20)). split; [exact Ig|lra]. }
  destruct (G20 lb l Il Ql) as (g & Ig & Hg). destruct (G20 ub u Iu Qu) as (g' & Ig' & Hg').
  pose proof (is_unique _ _ _ Ia (c_fmin_is L _ _ _ _ Ih Ig)) as ->. pose proof (is_unique _ _ _ Ic (c_fmin_is L _ _ _ _ Ih Ig')) as ->.
  assert (Hh : (u - l) / 2 - 4 * u53 * ((u - l) / 2) <= h <= (u - l) / 2 + 4 * u53 * ((u - l) / 2)) by (unfold u53; lra).
  unfold widths_ok, al_of, au_of. split; apply (rel_min (4 * u53)); try assumption; unfold u53; lra.
Qed.
(** what is used of the bounds from here on: [S] is the size of the bounds *)
Record sized (l u a c al au S : R) : Prop := {
  sz_S : S = 1 + Rabs l + Rabs u;
  sz_W : / 1099511627776 * S <= u - l <= S;
  sz_al : 0 < al <= (u - l) / 2 /\ al <= (1 + Rabs l) / 20 /\ 1 + Rabs l <= 4398046511104 * al;
  sz_au : 0 < au <= (u - l) / 2 /\ au <= (1 + Rabs u) / 20 /\ 1 + Rabs u <= 4398046511104 * au;
  sz_a : al - 4 * u53 * al <= a <= al + 4 * u53 * al;
  sz_c : au - 4 * u53 * au <= c <= au + 4 * u53 * au }.
Lemma sized_of L (b : bnd (numF L)) l u a c : bounds_are b l u a c -> widths_ok l u a c -> sized l u a c (al_of l u) (au_of l u) (1 + Rabs l + Rabs u).
Proof.
  intros B [Wa Wc]. pose proof (ba_gap _ _ _ _ _ B) as G. pose proof (Rabs_pos l) as Pl. pose proof (Rabs_pos u) as Pu. pose proof (Rle_abs u) as Au. pose proof (Rle_abs (- l)) as Al. rewrite Rabs_Ropp in Al. assert (H : l < u) by lra.
  constructor; try assumption; [reflexivity|lra| |]; [pose proof (al_pos l u H); unfold al_of in *|pose proof (au_pos l u H); unfold au_of in *]; (split; [assumption|]); (split; [apply Rmin_r|apply Rmin_case; lra]).
Qed.

(** ** Squashing *)
Lemma squash_value L (b : bnd (numF L)) l u a c y v : bounds_are b l u a c -> is y v -> l - a - a / 8 <= v <= u + c + c / 8 ->
  exists z, is (@squash (numF L) b y) z /\
  ((v < rnd (l + a) /\ z = smooth l a v) \/ (rnd (l + a) <= v /\ rnd (u - c) < v /\ z = - smooth (- u) c (- v)) \/ (rnd (l + a) <= v <= rnd (u - c) /\ z = v)).
Proof.
  intros B Iy Hv. destruct B as [Il Iu Ia Ic [Ql Qu] G [Ea Ec] [Ha Hc] _]. pose proof (is_fmt _ _ Il) as Fl. pose proof (is_fmt _ _ Iu) as Fu. pose proof Q_big as HQ. pose proof (Rabs_pos l) as Pl. pose proof (Rabs_pos u) as Pu.
  pose proof (proj2 Ea) as Pa. pose proof (proj2 Ec) as Pc. apply Rabs_le_inv in Ql as Ql'. apply Rabs_le_inv in Qu as Qu'.
  assert (Qa : 0 < a <= 2 * Q) by lra. assert (Qc : 0 < c <= 2 * Q) by lra. assert (QQa : 0 < a * a <= 4 * (Q * Q)) by (clear - Qa HQ; nra). assert (QQc : 0 < c * c <= 4 * (Q * Q)) by (clear - Qc HQ; nra).
  pose proof (is_ofZ 4 ltac:(lia)) as I4.
  unfold squash. cbv zeta. cbn [nlt nadd nsub nmul ndiv nofZ numF].
  set (lb := b_lb b : f64) in *. set (ub := b_ub b : f64) in *. set (al := b_al b : f64) in *. set (au := b_au b : f64) in *. change (nT (numF L)) with f64 in *.
  pose proof (is_add lb al l a Il Ia ltac:(apply under_top, Rabs_le; lra)) as Ip. pose proof (is_sub ub au u c Iu Ic ltac:(apply under_top, Rabs_le; lra)) as Im.
  pose proof (edge_plus l a Ea) as Ep. pose proof (edge_minus u c Ec) as Em.
  destruct (flt y (fadd lb al)) eqn:E1; [|destruct (flt (fsub ub au) y) eqn:E2].
  - apply (is_lt _ _ _ _ Iy Ip) in E1. exists (smooth l a v). split; [|left; split; [exact E1|reflexivity]].
    destruct (smooth_facts l a v Ea ltac:(lra)) as (S1 & S2 & S3 & S4 & S4' & S5 & S6). pose proof (edge_minus l a Ea) as Em'.
    pose proof (is_sub lb al l a Il Ia ltac:(apply under_top, Rabs_le; lra)) as IA. pose proof (is_sub _ _ _ _ Iy IA ltac:(apply under_top; lra)) as Id. unfold smooth. cbv zeta.
    set (d := rnd (v - rnd (l - a))) in *. set (fd := fsub y (fsub lb al)) in *.
    assert (B2 : 0 <= d * d <= 9 * (a * a)) by (apply Rabs_le_inv in S2; split; [|clear - S2 Pa]; nra).
    pose proof (is_mul _ _ _ _ Id Id ltac:(apply under_top2; rewrite Rabs_pos_eq; lra)) as Ipp. pose proof (is_div _ _ _ _ Ipp I4 ltac:(lra) ltac:(apply under_top2; rewrite Rabs_pos_eq; lra)) as Iq.
    pose proof (is_div _ _ _ _ Iq Ia ltac:(lra) ltac:(apply under_top; rewrite Rabs_pos_eq; lra)) as Ir. apply (is_add _ _ _ _ Il Ir). apply under_top, Rabs_le. lra.
  - apply (is_lt _ _ _ _ Im Iy) in E2. exists (- smooth (- u) c (- v)). pose proof (edge_opp u c Ec) as Eo. split; [|right; left; split; [apply (is_lt_false _ _ _ _ Iy Ip); exact E1|split; [exact E2|reflexivity]]].
    destruct (smooth_facts (- u) c (- v) Eo ltac:(lra)) as (S1 & S2 & S3 & S4 & S4' & S5 & S6). rewrite smooth_opp. revert S1 S2 S3 S4 S4' S5 S6. replace (- u - c) with (- (u + c)) by ring. rewrite (rnd_opp (u + c)).
    replace (- v - - rnd (u + c)) with (- (v - rnd (u + c))) by ring. rewrite (rnd_opp (v - rnd (u + c))), !Rabs_Ropp. set (d := rnd (v - rnd (u + c))) in *. replace (- d * - d) with (d * d) by ring. intros S1 S2 S3 S4 S4' S5 S6.
    pose proof (is_add ub au u c Iu Ic ltac:(apply under_top, Rabs_le; lra)) as IA. pose proof (is_sub _ _ _ _ Iy IA ltac:(apply under_top; lra)) as Id. fold d in Id.
    set (fd := fsub y (fadd ub au)) in *.
    assert (B2 : 0 <= d * d <= 9 * (c * c)) by (apply Rabs_le_inv in S2; split; [|clear - S2 Pc]; nra).
    pose proof (is_mul _ _ _ _ Id Id ltac:(apply under_top2; rewrite Rabs_pos_eq; lra)) as Ipp. pose proof (is_div _ _ _ _ Ipp I4 ltac:(lra) ltac:(apply under_top2; rewrite Rabs_pos_eq; lra)) as Iq.
    pose proof (is_div _ _ _ _ Iq Ic ltac:(lra) ltac:(apply under_top; rewrite Rabs_pos_eq; lra)) as Ir. apply (is_sub _ _ _ _ Iu Ir). apply under_top, Rabs_le. lra.
  - apply (is_lt_false _ _ _ _ Iy Ip) in E1. apply (is_lt_false _ _ _ _ Im Iy) in E2. exists v. split; [exact Iy|right; right; split; [lra|reflexivity]].
Qed.
(** the point is within the feasible pre-image up to rounding *)
Definition nearly (l u a c z : R) : Prop := rnd (l - a) <= z <= rnd (rnd (u + c) + 99 / 100000000000000000).
Lemma nearly_close l u a c al au S z : sized l u a c al au S -> nearly l u a c z -> l - al - 6 * u53 * (1 + Rabs l) <= z <= u + au + 20 * u53 * (1 + Rabs u).
Proof.
  intros [SE SW SA SU Sa Sc] Hz. unfold nearly in Hz. pose proof (Rabs_pos l) as Pl. pose proof (Rabs_pos u) as Pu. pose proof (Rle_abs u) as Au. pose proof (Rle_abs (- u)) as Au'. pose proof (Rle_abs l) as Al'. pose proof (Rle_abs (- l)) as Al. rewrite Rabs_Ropp in Al, Au'. unfold u53 in *.
  assert (BA : Rabs (l - a) <= 11 / 10 * (1 + Rabs l)) by (apply Rabs_le; lra). pose proof (rnd2 _ _ BA ltac:(lra)) as RA.
  assert (BU : Rabs (u + c) <= 11 / 10 * (1 + Rabs u)) by (apply Rabs_le; lra). pose proof (rnd2 _ _ BU ltac:(lra)) as RU. unfold u53 in *.
  assert (BT : Rabs (rnd (u + c) + 99 / 100000000000000000) <= 12 / 10 * (1 + Rabs u)) by (apply Rabs_le; lra). pose proof (rnd2 _ _ BT ltac:(lra)) as RT. unfold u53 in *. lra.
Qed.
Lemma squash_acc L (b : bnd (numF L)) l u a c al au S y z : bounds_are b l u a c -> sized l u a c al au S -> is y z -> nearly l u a c z ->
  exists s z', is (@squash (numF L) b y) s /\ l - al <= z' <= u + au /\ Rabs (z - z') <= 20 * u53 * S /\ Rabs (s - squash_R l u al au z') <= 100 * u53 * S.
Proof.
  intros B SZ Iy Hz. pose proof (nearly_close l u a c al au S z SZ Hz) as NZ. clear Hz. destruct SZ as [SE SW SA SU Sa Sc]. destruct (ba_edges _ _ _ _ _ B) as [Ea Ec].
  pose proof (Rabs_pos l) as Pl. pose proof (Rabs_pos u) as Pu. pose proof (Rle_abs u) as Au. pose proof (Rle_abs (- u)) as Au'. pose proof (Rle_abs l) as Al'. pose proof (Rle_abs (- l)) as Al. rewrite Rabs_Ropp in Al, Au'.
  assert (Hb : l < u) by lra.
  set (z' := Rmax (l - al) (Rmin z (u + au))). 
  assert (HZ : l - al <= z' <= u + au /\ z - z' <= 20 * u53 * (1 + Rabs u) /\ z' - z <= 6 * u53 * (1 + Rabs l) /\ (z' = z \/ (z < z' /\ z' = l - al) \/ (z' < z /\ z' = u + au))).
  { unfold z'. destruct (Rle_or_lt z (u + au)) as [C|C]; [rewrite Rmin_left by lra|rewrite Rmin_right by lra]; [destruct (Rle_or_lt (l - al) z) as [C'|C']; [rewrite Rmax_right by lra|rewrite Rmax_left by lra]|rewrite Rmax_right by lra]; unfold u53 in *; (split; [lra|]); (split; [lra|]); (split; [lra|]); lra. }
  clearbody z'. destruct HZ as (HZ1 & HZ2 & HZ3 & HZ4).
  destruct (squash_value L b l u a c y z B Iy) as (s & Is & Hs); [unfold u53 in *; lra|]. exists s, z'. split; [exact Is|]. split; [exact HZ1|]. split; [apply Rabs_le; unfold u53 in *; lra|].
  assert (BA : Rabs (l + a) <= 11 / 10 * (1 + Rabs l)) by (apply Rabs_le; unfold u53 in *; lra). pose proof (rnd2 _ _ BA ltac:(lra)) as RA.
  assert (BU : Rabs (u - c) <= 11 / 10 * (1 + Rabs u)) by (apply Rabs_le; unfold u53 in *; lra). pose proof (rnd2 _ _ BU ltac:(lra)) as RU.
  destruct Hs as [[H ->]|[(H & H' & ->)|[H ->]]].
  - set (d := 10 * u53 * (1 + Rabs l)) in *. assert (DE : d = 10 * u53 * (1 + Rabs l)) by reflexivity. clearbody d. assert (D1 : Rabs (z - z') <= d) by (apply Rabs_le; unfold u53 in *; lra).
    pose proof (smooth_acc l a al z z' d Ea ltac:(lra) Sa ltac:(unfold u53 in *; lra) ltac:(unfold u53 in *; lra) D1 ltac:(unfold u53 in *; lra)) as X1.
    pose proof (low_form l u al au Hb (proj1 SA) (proj1 SU) z' d HZ1 ltac:(unfold u53 in *; lra) ltac:(unfold u53 in *; lra)) as X2.
    set (f := l + _ / al) in *. clearbody f. apply Rabs_le_inv in X1. apply Rabs_le_inv in X2. apply Rabs_le. unfold u53 in *. lra.
  - set (d := 20 * u53 * (1 + Rabs u)) in *. assert (DE : d = 20 * u53 * (1 + Rabs u)) by reflexivity. clearbody d. assert (D1 : Rabs (- z - - z') <= d) by (apply Rabs_le; unfold u53 in *; lra).
    pose proof (smooth_acc (- u) c au (- z) (- z') d (edge_opp u c Ec) ltac:(lra) Sc ltac:(rewrite Rabs_Ropp; unfold u53 in *; lra) ltac:(unfold u53 in *; lra) D1 ltac:(unfold u53 in *; lra)) as X1. rewrite Rabs_Ropp in X1.
    pose proof (high_form l u al au Hb (proj1 SA) (proj1 SU) z' d HZ1 ltac:(unfold u53 in *; lra) ltac:(unfold u53 in *; lra)) as X2.
    replace (- z' - (- u - au)) with (- (z' - (u + au))) in X1 by ring. replace (- (z' - (u + au)) * - (z' - (u + au))) with ((z' - (u + au)) * (z' - (u + au))) in X1 by ring.
    set (f := (z' - (u + au)) * (z' - (u + au)) / 4 / au) in *. clearbody f. apply Rabs_le_inv in X1. apply Rabs_le_inv in X2. apply Rabs_le. unfold u53 in *. lra.
  - pose proof (mid_form l u al au Hb (proj1 SA) (proj1 SU) z' (30 * u53 * S) HZ1 ltac:(unfold u53 in *; lra) ltac:(unfold u53 in *; lra)) as X2. apply Rabs_le_inv in X2. apply Rabs_le. unfold u53 in *. lra.
Qed.

(** ** Folding *)
Lemma period_acc L (b : bnd (numF L)) l u a c P : bounds_are b l u a c -> is (fmul (fofZ 2) (fadd (fadd (fsub (b_ub b : f64) (b_lb b : f64)) (b_al b : f64)) (b_au b : f64))) P -> Rabs (P - 2 * (u - l + a + c)) <= 20 * u53 * (u - l).
Proof.
  intros B IP. destruct (gap_facts L b l u a c B) as (HW & BL & BU & Pa & Pc & HQ2). destruct B as [Il Iu Ia Ic _ _ _ [Ha Hc] _]. set (W := u - l) in *. assert (WE : W = u - l) by reflexivity. clearbody W. pose proof Q_big as HQ.
  assert (Tp : forall v, Rabs v <= 1099511627781 * W -> Rabs v <= top) by (intros v Hv; apply under_top; lra). pose proof (is_ofZ 2 ltac:(lia)) as I2. clear HQ HQ2.
  assert (B1 : Rabs (u - l) <= W) by (rewrite <- WE; apply Rabs_le; lra). pose proof (is_sub _ _ _ _ Iu Il ltac:(apply Tp; lra)) as Iw. pose proof (rnd2 _ _ B1 ltac:(lra)) as Rw. set (w := rnd (u - l)) in *. unfold u53 in *.
  assert (B9 : Rabs (w + a) <= 16 / 10 * W) by (apply Rabs_le; lra). pose proof (is_add _ _ _ _ Iw Ia ltac:(apply Tp; lra)) as Iwa. pose proof (rnd2 _ _ B9 ltac:(lra)) as Rwa. set (wa := rnd (w + a)) in *. unfold u53 in *.
  assert (B10 : Rabs (wa + c) <= 22 / 10 * W) by (apply Rabs_le; lra). pose proof (is_add _ _ _ _ Iwa Ic ltac:(apply Tp; lra)) as Iwc. pose proof (rnd2 _ _ B10 ltac:(lra)) as Rwc. set (wc := rnd (wa + c)) in *.
  assert (B11 : Rabs (2 * wc) <= 5 * W) by (apply Rabs_le; unfold u53 in *; lra). pose proof (is_mul _ _ _ _ I2 Iwc ltac:(apply Tp; lra)) as IP'. rewrite (rnd_id _ (fmt_double wc (rnd_fmt _))) in IP'. pose proof (is_unique _ _ _ IP IP') as ->.
  apply Rabs_le. unfold u53 in *. lra.
Qed.
Lemma shift_acc W S P G n v s k : / 1099511627776 <= W <= S -> 1 <= S -> 199 / 100 * W <= P <= 41 / 10 * W -> Rabs (P - G) <= 20 * u53 * W -> 1 <= k -> (k - 1) * P - P / 100000 <= n -> n <= Rabs v + 3 * S -> s = rnd (P * k) ->
  Rabs (s - k * G) <= 14 * u53 * Rabs v + 120 * u53 * S /\ 0 <= s <= 11 / 10 * Rabs v + 9 * S.
Proof.
  intros HW HS HP HG Hk HN Hn ->. pose proof (Rabs_pos v) as Pv. set (t := P * k). assert (Ht : 0 <= t <= Rabs v + 8 * S) by (unfold t; split; [apply Rmult_le_pos; lra|lra]).
  assert (Bt : Rabs t <= Rabs v + 8 * S) by (rewrite Rabs_pos_eq; lra). pose proof (rnd2 t _ Bt ltac:(lra)) as Rt.
  assert (KW : k * W <= 6 / 10 * (Rabs v + 8 * S)) by (assert (k * (199 / 100 * W) <= k * P) by (apply Rmult_le_compat_l; lra); unfold t in *; lra).
  assert (KG : Rabs (k * (P - G)) <= 20 * u53 * (k * W)). { rewrite Rabs_mult, (Rabs_pos_eq k) by lra. replace (20 * u53 * (k * W)) with (k * (20 * u53 * W)) by ring. apply Rmult_le_compat_l; lra. }
  assert (E : t - k * G = k * (P - G)) by (unfold t; ring). rewrite <- E in KG. apply Rabs_le_inv in KG. pose proof (rnd_nn t ltac:(lra)). set (kW := k * W) in *. set (kG := k * G) in *. clearbody t kW kG. clear E HN HG. unfold u53 in *. split; [apply Rabs_le; lra|lra].
Qed.
Lemma up_acc L W S P G xl fx v fxl fP k y : / 1099511627776 <= W <= S -> 1 <= S -> W <= 2 * Q -> Rabs xl <= 1099511627779 * W -> Rabs xl <= 3 * S -> 199 / 100 * W <= P <= 41 / 10 * W -> Rabs (P - G) <= 20 * u53 * W ->
  is fx v -> is fxl xl -> is fP P -> v < xl -> @one_plus_int (numF L) to_int_F (fdiv (fsub fxl fx) fP) = Ok k -> is (fadd fx (fmul fP (fofZ k))) y ->
  Rabs (y - (v + IZR k * G)) <= 20 * u53 * Rabs v + 140 * u53 * S.
Proof.
  intros HW HS HQ Hl Hl' HP HG Ix Il IP Hv Hk Iy. destruct (one_plus_int_is L _ _ Hk) as (F & _ & _). destruct (fin_div _ _ P IP ltac:(lra) F) as [Fn _].
  assert (HN : forall z, is (fsub fxl fx) z -> z = rnd (xl - v)) by (intros z Hz; destruct (fin_sub _ _ _ _ Il Ix Fn) as [_ <-]; symmetry; apply Hz).
  destruct (shift_facts L W xl P (xl - v) k _ fP ltac:(lra) HQ Hl HP Fn HN ltac:(lra) IP Hk) as (s & Is & _ & _). destruct (count_of L _ fP (xl - v) P k Fn HN ltac:(lra) IP ltac:(lra) Hk) as [K N]. pose proof (is_ofZ k ltac:(lia)) as Ik.
  assert (K1 : 1 <= IZR k) by (apply IZR_le; lia). pose proof (is_unique _ _ _ Is (fin_mul _ _ _ _ IP Ik (proj1 Is))) as Es. pose proof (Rle_abs (- v)) as V. rewrite Rabs_Ropp in V. pose proof (Rle_abs v) as V'. apply Rabs_le_inv in Hl'.
  destruct (shift_acc W S P G (xl - v) v s (IZR k) HW HS HP HG K1 ltac:(lra) ltac:(lra) Es) as [S1 S2]. pose proof (is_unique _ _ _ Iy (fin_add _ _ _ _ Ix Is (proj1 Iy))) as ->.
  assert (BY : Rabs (v + s) <= 22 / 10 * Rabs v + 9 * S) by (apply Rabs_le; lra). pose proof (Rabs_pos v) as Pv. pose proof (rnd2 _ _ BY ltac:(lra)) as RY. apply Rabs_le_inv in S1. apply Rabs_le. set (kG := IZR k * G) in *. clearbody kG. clear N. unfold u53 in *. lra.
Qed.
Lemma down_acc L W S P G xu fx v fxu fP k y : / 1099511627776 <= W <= S -> 1 <= S -> W <= 2 * Q -> Rabs xu <= 1099511627779 * W -> Rabs xu <= 3 * S -> 199 / 100 * W <= P <= 41 / 10 * W -> Rabs (P - G) <= 20 * u53 * W ->
  is fx v -> is fxu xu -> is fP P -> xu < v -> @one_plus_int (numF L) to_int_F (fdiv (fsub fx fxu) fP) = Ok k -> is (fsub fx (fmul fP (fofZ k))) y ->
  Rabs (y - (v - IZR k * G)) <= 20 * u53 * Rabs v + 140 * u53 * S.
Proof.
  intros HW HS HQ Hl Hl' HP HG Ix Il IP Hv Hk Iy. destruct (one_plus_int_is L _ _ Hk) as (F & _ & _). destruct (fin_div _ _ P IP ltac:(lra) F) as [Fn _].
  assert (HN : forall z, is (fsub fx fxu) z -> z = rnd (v - xu)) by (intros z Hz; destruct (fin_sub _ _ _ _ Ix Il Fn) as [_ <-]; symmetry; apply Hz).
  destruct (shift_facts L W xu P (v - xu) k _ fP ltac:(lra) HQ Hl HP Fn HN ltac:(lra) IP Hk) as (s & Is & _ & _). destruct (count_of L _ fP (v - xu) P k Fn HN ltac:(lra) IP ltac:(lra) Hk) as [K N]. pose proof (is_ofZ k ltac:(lia)) as Ik.
  assert (K1 : 1 <= IZR k) by (apply IZR_le; lia). pose proof (is_unique _ _ _ Is (fin_mul _ _ _ _ IP Ik (proj1 Is))) as Es. pose proof (Rle_abs (- v)) as V. rewrite Rabs_Ropp in V. pose proof (Rle_abs v) as V'. apply Rabs_le_inv in Hl'.
  destruct (shift_acc W S P G (v - xu) v s (IZR k) HW HS HP HG K1 ltac:(lra) ltac:(lra) Es) as [S1 S2]. pose proof (is_unique _ _ _ Iy (fin_sub _ _ _ _ Ix Is (proj1 Iy))) as ->.
  assert (BY : Rabs (v - s) <= 22 / 10 * Rabs v + 9 * S) by (apply Rabs_le; lra). pose proof (Rabs_pos v) as Pv. pose proof (rnd2 _ _ BY ltac:(lra)) as RY. apply Rabs_le_inv in S1. apply Rabs_le. set (kG := IZR k * G) in *. clearbody kG. clear N. unfold u53 in *. lra.
Qed.
(** a mirror step moves the folded value by rounding errors only *)
Lemma mirror_acc L (b : bnd (numF L)) l u a c S fy v : bounds_are b l u a c -> is fy v -> S = 1 + Rabs l + Rabs u -> u - l <= S -> 
  let W := u - l in let lb := b_lb b : f64 in let ub := b_ub b : f64 in let al := b_al b : f64 in let au := b_au b : f64 in
  l - 2 * a - W / 2 - W / 16 <= v <= u + 2 * c + W / 2 + W / 16 ->
  let y1 := if flt fy (fsub lb al) then fadd fy (fmul (fofZ 2) (fsub (fsub lb al) fy)) else fy in
  let y2 := if flt (fadd ub au) y1 then fsub y1 (fmul (fofZ 2) (fsub (fsub y1 ub) au)) else y1 in
  forall z p q, is y2 z -> folded (l - a) (u + c) v p -> folded (l - a) (u + c) z q -> Rabs (p - q) <= 200 * u53 * S.
Proof.
  intros B Iy SE SW W lb ub al au Hv. destruct (gap_facts L b l u a c B) as (HW & BL & BU & Pa & Pc & HQ2). fold W in HW, BL, BU, HQ2. pose proof B as B'. destruct B' as [Il Iu Ia Ic _ _ [Ea Ec] [Ha Hc] [H20' H20]]. fold lb in Il. fold ub in Iu. fold al in Ia. fold au in Ic. fold W in Ha, Hc. clearbody lb ub al au. pose proof Q_big as HQ.
  apply Rabs_le_inv in BL. apply Rabs_le_inv in BU. assert (Tp : forall x, Rabs x <= 1099511627781 * W -> Rabs x <= top) by (intros x Hx; apply under_top; lra). pose proof (is_ofZ 2 ltac:(lia)) as I2. clear HQ HQ2. assert (WE : W = u - l) by reflexivity. clearbody W. rewrite <- WE in SW.
  pose proof (Rabs_pos l) as Pl. pose proof (Rabs_pos u) as Pu. pose proof (Rle_abs u) as Au. pose proof (Rle_abs (- u)) as Au'. pose proof (Rle_abs l) as Al'. pose proof (Rle_abs (- l)) as Al. rewrite Rabs_Ropp in Al, Au'.
  pose proof (is_sub _ _ _ _ Il Ia ltac:(apply Tp, Rabs_le; lra)) as IA. pose proof (is_add _ _ _ _ Iu Ic ltac:(apply Tp, Rabs_le; lra)) as IU. pose proof (edge_minus l a Ea) as RA. pose proof (edge_plus u c Ec) as RU.
  assert (HAB : l - a < u + c) by lra. intros y1.
  assert (H1 : exists v1, is y1 v1 /\ l - a - W / 4 <= v1 <= u + 2 * c + W / 2 + W / 15 /\ forall p q, folded (l - a) (u + c) v p -> folded (l - a) (u + c) v1 q -> Rabs (p - q) <= 70 * u53 * S).
  { unfold y1. destruct (flt fy (fsub lb al)) eqn:E1.
    - apply (is_lt _ _ _ _ Iy IA) in E1. assert (BA : Rabs (l - a) <= 11 / 10 * S) by (apply Rabs_le; lra). pose proof (rnd2 _ _ BA ltac:(lra)) as RA2. set (A := rnd (l - a)) in *. assert (B1 : Rabs (A - v) <= 1099511627781 * W) by (apply Rabs_le; lra). pose proof (is_sub _ _ _ _ IA Iy (Tp _ B1)) as Is. pose proof (near_rnd W _ ltac:(lra) B1) as Rs.
      assert (B1' : Rabs (A - v) <= 2 * S) by (apply Rabs_le; unfold u53 in *; lra). pose proof (rnd2 _ _ B1' ltac:(lra)) as Rs2. set (s := rnd (A - v)) in *.
      assert (Fs : fmt s) by apply rnd_fmt. assert (B2 : Rabs (2 * s) <= 1099511627781 * W) by (apply Rabs_le; lra). pose proof (is_mul _ _ _ _ I2 Is (Tp _ B2)) as I2s. rewrite (rnd_id _ (fmt_double s Fs)) in I2s.
      assert (B3 : Rabs (v + 2 * s) <= 1099511627781 * W) by (apply Rabs_le; lra). pose proof (is_add _ _ _ _ Iy I2s (Tp _ B3)) as Iz. pose proof (near_rnd W _ ltac:(lra) B3) as Rz. assert (B3' : Rabs (v + 2 * s) <= 8 * S) by (apply Rabs_le; unfold u53 in *; lra). pose proof (rnd2 _ _ B3' ltac:(lra)) as Rz2.
      exists (rnd (v + 2 * s)). split; [exact Iz|]. split; [lra|]. intros p q Hp Hq. apply folded_mirror_low in Hp. eapply Rle_trans; [exact (folded_lipschitz _ _ _ _ _ _ HAB Hp Hq)|]. apply Rabs_le. unfold u53 in *. lra.
    - apply (is_lt_false _ _ _ _ Iy IA) in E1. exists v. split; [exact Iy|]. split; [lra|]. intros p q Hp Hq. rewrite (folded_unique _ _ _ _ _ HAB Hp Hq). unfold Rminus. rewrite Rplus_opp_r, Rabs_R0. unfold u53. lra. }
  destruct H1 as (v1 & I1 & R1 & H1). clearbody y1. intros y2 z p q Iz Hp Hq. destruct (folded_exists (l - a) (u + c) v1 HAB) as (p1 & Hp1). specialize (H1 p p1 Hp Hp1).
  assert (H2 : Rabs (p1 - q) <= 120 * u53 * S).
  { unfold y2 in Iz. destruct (flt (fadd ub au) y1) eqn:E2.
    - apply (is_lt _ _ _ _ IU I1) in E2.
      assert (B1 : Rabs (v1 - u) <= 1099511627781 * W) by (apply Rabs_le; lra). pose proof (is_sub _ _ _ _ I1 Iu (Tp _ B1)) as It. pose proof (near_rnd W _ ltac:(lra) B1) as Rt. assert (B1' : Rabs (v1 - u) <= 4 * S) by (apply Rabs_le; lra). pose proof (rnd2 _ _ B1' ltac:(lra)) as Rt2. set (t := rnd (v1 - u)) in *.
      assert (B2 : Rabs (t - c) <= 1099511627781 * W) by (apply Rabs_le; lra). pose proof (is_sub _ _ _ _ It Ic (Tp _ B2)) as Is. pose proof (near_rnd W _ ltac:(lra) B2) as Rs. assert (B2' : Rabs (t - c) <= 5 * S) by (apply Rabs_le; lra). pose proof (rnd2 _ _ B2' ltac:(lra)) as Rs2. set (s := rnd (t - c)) in *. assert (Fs : fmt s) by apply rnd_fmt.
      assert (B3 : Rabs (2 * s) <= 1099511627781 * W) by (apply Rabs_le; lra). pose proof (is_mul _ _ _ _ I2 Is (Tp _ B3)) as I2s. rewrite (rnd_id _ (fmt_double s Fs)) in I2s.
      assert (B4 : Rabs (v1 - 2 * s) <= 1099511627781 * W) by (apply Rabs_le; lra). pose proof (is_sub _ _ _ _ I1 I2s (Tp _ B4)) as Iz'. assert (B4' : Rabs (v1 - 2 * s) <= 15 * S) by (apply Rabs_le; lra). pose proof (rnd2 _ _ B4' ltac:(lra)) as Rz2.
      pose proof (is_unique _ _ _ Iz Iz') as ->. apply folded_mirror_high in Hp1. eapply Rle_trans; [exact (folded_lipschitz _ _ _ _ _ _ HAB Hp1 Hq)|]. apply Rabs_le. unfold u53 in *. lra.
    - pose proof (is_unique _ _ _ Iz I1) as ->. rewrite (folded_unique _ _ _ _ _ HAB Hp1 Hq). unfold Rminus. rewrite Rplus_opp_r, Rabs_R0. unfold u53. lra. }
  apply Rabs_le_inv in H1. apply Rabs_le_inv in H2. apply Rabs_le. unfold u53 in *. lra.
Qed.
Lemma fold_acc L (b : bnd (numF L)) l u a c al au S x v y z p : bounds_are b l u a c -> sized l u a c al au S -> is x v -> @fold_into (numF L) to_int_F b x = Ok y -> is y z -> nearly l u a c z ->
  folded (l - a) (u + c) v p -> Rabs (z - p) <= 40 * u53 * Rabs v + 700 * u53 * S.
Proof.
  intros B SZ Ix Hy Iz NZ Hp. pose proof (nearly_close l u a c al au S z SZ NZ) as NC. destruct SZ as [SE SW SA SU Sa Sc]. revert Hy. rewrite fold_unfold. destruct (fold_constants L b l u a c B) as ((xl & Il & Al) & (xu & Iu & Au) & (P & IP & AP)). destruct (gap_facts L b l u a c B) as (HW & BL & BU & Pa & Pc & HQ2). destruct (ba_half _ _ _ _ _ B) as [Ha Hc].
  pose proof (mirror_acc L b l u a c S) as M. pose proof (period_acc L b l u a c P B IP) as PA. cbv zeta in M |- *. set (W := u - l) in *. assert (WE : W = u - l) by reflexivity. clearbody W. unfold about in *.
  set (fxl := fsub (fsub (b_lb b : f64) _) _) in *. set (fxu := fadd (fadd (b_ub b : f64) _) _) in *. set (fP := fmul (fofZ 2) (fadd (fadd _ _) _)) in *. clearbody fxl fxu fP.
  pose proof (Rabs_pos l) as Pl. pose proof (Rabs_pos u) as Pu. pose proof (Rle_abs u) as Au1. pose proof (Rle_abs (- u)) as Au2. pose proof (Rle_abs l) as Al1. pose proof (Rle_abs (- l)) as Al2. rewrite Rabs_Ropp in Al2, Au2. pose proof (Rabs_pos v) as Pv.
  apply Rabs_le_inv in BL. apply Rabs_le_inv in BU. assert (BXl : Rabs xl <= 1099511627779 * W) by (apply Rabs_le; lra). assert (BXu : Rabs xu <= 1099511627779 * W) by (apply Rabs_le; lra). assert (BP : 199 / 100 * W <= P <= 41 / 10 * W) by lra.
  assert (CXl : Rabs xl <= 3 * S) by (apply Rabs_le; unfold u53 in *; lra). assert (CXu : Rabs xu <= 3 * S) by (apply Rabs_le; unfold u53 in *; lra). set (G := 2 * (W + a + c)) in *. assert (GE : G = 2 * ((u + c) - (l - a))) by (unfold G; lra). assert (GE' : G = 2 * (W + a + c)) by reflexivity. clearbody G.
  assert (HAB : l - a < u + c) by lra. set (A := l - a) in *. set (Bq := u + c) in *.
  intros Hy. apply obind_Ok in Hy as (y1 & Hs1 & Hy). apply obind_Ok in Hy as (y2 & Hs2 & Hy).
  assert (H1 : exists v1, is y1 v1 /\ xl - W / 64 <= v1 /\ Rabs v1 <= Rabs v + 8 * S /\ forall p1, folded A Bq v1 p1 -> Rabs (p - p1) <= 20 * u53 * Rabs v + 140 * u53 * S).
  { destruct (flt x fxl) eqn:E1.
    - apply (is_lt _ _ _ _ Ix Il) in E1. apply obind_Ok in Hs1 as (k & Hk & Hs1). assert (y1 = fadd x (fmul fP (fofZ k))) by congruence. subst y1. destruct (stage_up L W xl P x v fxl fP k ltac:(lra) HQ2 BXl BP Ix Il IP E1 Hk) as (v1 & I1 & Hv1). exists v1. split; [exact I1|]. split; [lra|]. apply Rabs_le_inv in CXl as CX. split; [apply Rabs_le; lra|].
      intros p1 Hp1. pose proof (up_acc L W S P G xl x v fxl fP k v1 ltac:(lra) ltac:(lra) HQ2 BXl CXl BP PA Ix Il IP E1 Hk I1) as ER. apply (folded_period _ _ _ _ k) in Hp. rewrite <- GE in Hp. pose proof (folded_lipschitz _ _ _ _ _ _ HAB Hp1 Hp) as HL. rewrite (Rabs_minus_sym p p1). lra.
    - assert (y1 = x) by congruence. subst y1. apply (is_lt_false _ _ _ _ Ix Il) in E1. exists v. split; [exact Ix|]. split; [lra|]. split; [lra|]. intros p1 Hp1. rewrite (folded_unique _ _ _ _ _ HAB Hp Hp1). unfold Rminus. rewrite Rplus_opp_r, Rabs_R0. unfold u53. lra. }
  destruct H1 as (v1 & I1 & R1 & C1 & F1). destruct (folded_exists A Bq v1 HAB) as (p1 & Hp1). specialize (F1 p1 Hp1).
  assert (H2 : exists v2, is y2 v2 /\ l - 2 * a - W / 2 - W / 16 <= v2 <= u + 2 * c + W / 2 + W / 16 /\ forall p2, folded A Bq v2 p2 -> Rabs (p1 - p2) <= 20 * u53 * Rabs v1 + 140 * u53 * S).
  { destruct (flt fxu y1) eqn:E2.
    - apply (is_lt _ _ _ _ Iu I1) in E2. apply obind_Ok in Hs2 as (k & Hk & Hs2). assert (y2 = fsub y1 (fmul fP (fofZ k))) by congruence. subst y2. destruct (stage_down L W xu P y1 v1 fxu fP k ltac:(lra) HQ2 BXu BP I1 Iu IP E2 Hk) as (v2 & I2 & Hv2). exists v2. split; [exact I2|]. split; [lra|].
      intros p2 Hp2. pose proof (down_acc L W S P G xu y1 v1 fxu fP k v2 ltac:(lra) ltac:(lra) HQ2 BXu CXu BP PA I1 Iu IP E2 Hk I2) as ER. apply (folded_period _ _ _ _ (- k)) in Hp1. rewrite <- GE, opp_IZR in Hp1. replace (v1 + - IZR k * G) with (v1 - IZR k * G) in Hp1 by ring. pose proof (folded_lipschitz _ _ _ _ _ _ HAB Hp2 Hp1) as HL. rewrite (Rabs_minus_sym p1 p2). lra.
    - apply (is_lt_false _ _ _ _ Iu I1) in E2. assert (y2 = y1) by congruence. subst y2. exists v1. split; [exact I1|]. split; [lra|]. intros p2 Hp2. rewrite (folded_unique _ _ _ _ _ HAB Hp1 Hp2). unfold Rminus. rewrite Rplus_opp_r, Rabs_R0. pose proof (Rabs_pos v1). unfold u53. lra. }
  destruct H2 as (v2 & I2 & R2 & F2). destruct (folded_exists A Bq v2 HAB) as (p2 & Hp2). specialize (F2 p2 Hp2). destruct (folded_exists A Bq z HAB) as (q & Hq).
  match type of Hy with Ok ?e = Ok y => assert (E : e = y) by congruence end. rewrite <- E in Iz. specialize (M y2 v2 B I2 SE ltac:(lra) ltac:(lra) z p2 q Iz Hp2 Hq).
  assert (NE : A - 30 * u53 * S <= z <= Bq + 30 * u53 * S) by (unfold A, Bq, u53 in *; lra). pose proof (fold_near A Bq z q (30 * u53 * S) HAB ltac:(unfold u53; lra) NE Hq) as F3.
  apply Rabs_le_inv in F1. apply Rabs_le_inv in F2. apply Rabs_le_inv in F3. apply Rabs_le_inv in M. apply Rabs_le. unfold u53 in *. lra.
Qed.
(** one component *)
Lemma trans_acc L bug lb ub x y p : ordinary lb ub -> is_finite x = true -> trans_F L bug lb ub x = Ok y -> folded (B2R lb - al_of (B2R lb) (B2R ub)) (B2R ub + au_of (B2R lb) (B2R ub)) (B2R x) p ->
  is_finite y = true /\ Rabs (B2R y - squash_R (B2R lb) (B2R ub) (al_of (B2R lb) (B2R ub)) (au_of (B2R lb) (B2R ub)) p) <= / 8796093022208 * (1 + Rabs (B2R lb) + Rabs (B2R ub) + Rabs (B2R x)).
Proof.
  intros HO Fx Hy Hp. destruct (make_bnd_is L lb ub HO) as (a & c & B). pose proof (make_bnd_acc L lb ub a c HO B) as WO. pose proof (sized_of L _ _ _ a c B WO) as SZ. unfold trans_F, shift_or_throw in Hy. set (b := @make_bnd (numF L) lb ub) in *. clearbody b. set (l := B2R lb) in *. set (u := B2R ub) in *. clearbody l u.
  set (al := al_of l u) in *. set (au := au_of l u) in *. clearbody al au. set (S := 1 + Rabs l + Rabs u) in *. clearbody S.
  apply obind_Ok in Hy as (w & Hw & Hy). apply obind_Ok in Hw as (w' & Hw' & Hw). destruct (is_bug b w'); [discriminate|]. assert (w' = w) by congruence. subst w'. assert (y = @squash (numF L) b w) by congruence. subst y.
  destruct (fold_ok L b l u a c x w B Fx Hw') as (z & Iz & Hz). specialize (Hz _ (Rle_refl _)). destruct (squash_acc L b l u a c al au S w z B SZ Iz Hz) as (s & z' & [Fs Es] & Z1 & Z2 & Z3). split; [exact Fs|]. change (nT (numF L)) with f64 in *. rewrite Es.
  pose proof SZ as SZ'. destruct SZ' as [SE SW SA SU Sa Sc]. pose proof (Rabs_pos l) as Pl. pose proof (Rabs_pos u) as Pu. assert (Hb : l < u) by lra. assert (HAB : l - a < u + c) by (unfold u53 in *; lra).
  destruct (folded_exists (l - a) (u + c) (B2R x) HAB) as (q & Hq). pose proof (fold_acc L b l u a c al au S x (B2R x) w z q B SZ (is_self x Fx) Hw' Iz Hz Hq) as F1.
  pose proof (fold_ends (l - a) (u + c) (l - al) (u + au) (B2R x) q p (2 * u53 * (u - l)) (2 * u53) HAB ltac:(lra) ltac:(unfold u53; lra) ltac:(apply Rabs_le; unfold u53 in *; lra) ltac:(apply Rabs_le; unfold u53 in *; lra) ltac:(unfold u53 in *; lra) Hq Hp) as F2.
  pose proof (squash_abs l u al au Hb (proj1 SA) (proj1 SU) z' p Z1 (proj1 Hp)) as F3.
  assert (HV : Rabs (B2R x - (l - a)) <= Rabs (B2R x) + 2 * S). { pose proof (Rle_abs l). pose proof (Rle_abs (- l)) as Al. rewrite Rabs_Ropp in Al. pose proof (Rle_abs (B2R x)). pose proof (Rle_abs (- B2R x)) as Ax. rewrite Rabs_Ropp in Ax. apply Rabs_le. unfold u53 in *. lra. }
  set (X := Rabs (B2R x)) in *. assert (0 <= X) by apply Rabs_pos. set (V := Rabs (B2R x - (l - a))) in *. clearbody X V.
  assert (F4 : Rabs (z' - p) <= 44 * u53 * X + 770 * u53 * S). { apply Rabs_le_inv in F1. apply Rabs_le_inv in F2. apply Rabs_le_inv in Z2. apply Rabs_le. unfold u53 in *. lra. }
  assert (F5 : Rabs (squash_R l u al au z' - squash_R l u al au p) <= 44 * u53 * X + 770 * u53 * S) by lra. apply Rabs_le_inv in F5. apply Rabs_le_inv in Z3. rewrite SE in *. apply Rabs_le. unfold u53 in *. lra.
Qed.

(** ** The inverse *)
Lemma is_sqrt a v : is a v -> 0 <= v -> is (fsqrt a) (rnd (sqrt v)).
Proof.
  intros [Fa <-] Hv. destruct (Bsqrt_correct prec64 emax64 _ _ mode_NE a) as (E1 & E2 & _). split; [|exact E1].
  change (Bsqrt mode_NE a) with (fsqrt a) in E2. rewrite E2. destruct a as [s|s| |s m e H]; try discriminate Fa; [reflexivity|]. destruct s; [|reflexivity]. exfalso. revert Hv. cbn [B2R cond_Zopp]. pose proof (F2R_lt_0 radix2 (Float radix2 (Z.neg m) e) ltac:(cbn; lia)). cbn [cond_Zopp Z.opp]. lra.
Qed.
Lemma sqrt_close p q e n : 0 <= e < 1 -> 0 <= n -> 0 <= p -> 0 <= q -> q - e * q - n * n <= p <= q + e * q + n * n -> sqrt q - e * sqrt q - n <= sqrt p <= sqrt q + e * sqrt q + n.
Proof.
  intros He Hn Hp Hq [H1 H2]. pose proof (sqrt_pos q) as Sq. pose proof (sqrt_sqrt q Hq) as Eq. pose proof (sqrt_pos p) as Sp. pose proof (sqrt_sqrt p Hp) as Ep. set (r := sqrt q) in *. set (s := sqrt p) in *. clearbody r s. subst p q. clear Hp Hq. split.
  - destruct (Rle_or_lt (r - e * r - n) 0) as [C|C]; [lra|]. destruct (Rle_or_lt (r - e * r - n) s) as [D|D]; [exact D|exfalso].
    assert (K : s * s < (r - e * r - n) * (r - e * r - n)) by nra. assert (K2 : (r - e * r - n) * (r - e * r - n) <= r * r - e * (r * r) - n * n); [|lra].
    set (w := r - e * r) in *. assert (W1 : w * w <= r * r - e * (r * r)) by (unfold w; replace ((r - e * r) * (r - e * r)) with ((1 - e) * ((1 - e) * (r * r))) by ring; assert (0 <= (1 - e) * (r * r)) by nra; nra). clearbody w. nra.
  - destruct (Rle_or_lt s (r + e * r + n)) as [D|D]; [exact D|exfalso]. assert (0 <= e * r) by nra. assert (K : (r + e * r + n) * (r + e * r + n) < s * s) by nra. assert (0 <= r * n) by nra. assert (0 <= e * r * n) by nra. nra.
Qed.
Definition root (l a v : R) : R := rnd (rnd (l - a) + 2 * rnd (sqrt (rnd (a * rnd (v - l))))).
Lemma root_facts l a v : edge l a -> fmt l -> fmt v -> l <= v <= l + a + a / 8 -> 
  let t := rnd (v - l) in let p := rnd (a * t) in 0 <= t <= 12 / 10 * a /\ 0 <= a * t <= 12 / 10 * (a * a) /\ 0 <= p <= 13 / 10 * (a * a) /\ 0 <= rnd (sqrt p) <= 12 / 10 * a /\ 0 <= sqrt p <= 118 / 100 * a.
Proof.
  intros [H1 H2] Fl Fv Hv t p. pose proof (rnd_minus_rel v l Fv Fl ltac:(lra)) as Rt. fold t in Rt. assert (T : 0 <= t <= 12 / 10 * a) by (split; [apply rnd_nn; lra|unfold u53 in *; lra]). clearbody t.
  assert (AA : / 8796093022208 * / 8796093022208 <= a * a) by (apply Rmult_le_compat; lra). assert (T2 : 0 <= a * t <= 12 / 10 * (a * a)) by (split; [apply Rmult_le_pos; lra|nra]).
  pose proof (rnd2 (a * t) (12 / 10 * (a * a)) ltac:(rewrite Rabs_pos_eq; lra) ltac:(lra)) as Rp. fold p in Rp. assert (P : 0 <= p <= 13 / 10 * (a * a)) by (split; [apply rnd_nn; lra|unfold u53 in *; lra]). clearbody p.
  assert (SQ : 0 <= sqrt p <= 118 / 100 * a). { split; [apply sqrt_pos|]. rewrite <- (sqrt_square (118 / 100 * a)) by lra. apply sqrt_le_1_alt. lra. }
  pose proof (rnd2 (sqrt p) (118 / 100 * a) ltac:(rewrite Rabs_pos_eq; lra) ltac:(lra)) as Rs. assert (0 <= rnd (sqrt p)) by (apply rnd_nn; lra). unfold u53 in *. repeat match goal with |- _ /\ _ => split end; lra.
Qed.
Lemma root_acc l a al v : edge l a -> fmt l -> fmt v -> 0 < al -> al - 4 * u53 * al <= a <= al + 4 * u53 * al -> a <= 51 / 1000 * (1 + Rabs l) -> l <= v <= l + a + a / 8 ->
  Rabs (root l a v - (l - al + 2 * sqrt (al * (v - l)))) <= 10 * u53 * (1 + Rabs l).
Proof.
  intros HE Fl Fv Pal Ha H20 Hv. destruct (root_facts l a v HE Fl Fv Hv) as (T & T2 & P & S1 & S2). destruct HE as [HE1 HE2]. unfold root. pose proof (rnd_minus_rel v l Fv Fl ltac:(lra)) as Rt. set (t := rnd (v - l)) in *. clearbody t.
  pose proof (rnd_pm (a * t) (a * t) ltac:(rewrite Rabs_pos_eq; lra)) as Rp. set (p := rnd (a * t)) in *. clearbody p. cbv zeta in *.
  set (e := v - l) in *. assert (He : 0 <= e <= 113 / 100 * a) by (unfold e; lra). set (q := al * e). assert (Hq : 0 <= q <= 12 / 10 * (al * al)) by (unfold q, u53 in *; split; [nra|]; assert (e <= 12 / 10 * al) by lra; nra).
  assert (A1 : a * e - u53 * (a * e) <= a * t <= a * e + u53 * (a * e)) by (split; [apply Rle_trans with (a * (e - u53 * e)); [lra|]|apply Rle_trans with (a * (e + u53 * e)); [|lra]]; apply Rmult_le_compat_l; lra).
  assert (A2 : q - 4 * u53 * q <= a * e <= q + 4 * u53 * q) by (unfold q; split; [apply Rle_trans with ((al - 4 * u53 * al) * e); [lra|]|apply Rle_trans with ((al + 4 * u53 * al) * e); [|lra]]; apply Rmult_le_compat_r; lra).
  set (n := bpow radix2 (-100)). assert (En : n * n = eta) by (unfold n, eta; rewrite <- bpow_plus; reflexivity). assert (Hn : 0 <= n <= / 1000000000000000000000000000000). { unfold n. split; [apply bpow_ge_0|]. cbn. lra. } clearbody n.
  assert (C : q - 8 * u53 * q - n * n <= p <= q + 8 * u53 * q + n * n) by (rewrite En; clearbody q; set (x := a * e) in *; set (y := a * t) in *; clearbody x y; unfold u53 in *; lra).
  pose proof (sqrt_close p q (8 * u53) n ltac:(unfold u53; lra) ltac:(lra) ltac:(lra) ltac:(lra) C) as Cs. assert (SQ : 0 <= sqrt q <= 11 / 10 * al). { split; [apply sqrt_pos|]. rewrite <- (sqrt_square (11 / 10 * al)) by lra. apply sqrt_le_1_alt. nra. }
  pose proof (rnd2 (sqrt p) (12 / 10 * a) ltac:(rewrite Rabs_pos_eq; lra) ltac:(lra)) as Rs. set (s := rnd (sqrt p)) in *. clearbody s. fold q. set (r := sqrt q) in *. set (r' := sqrt p) in *. clearbody r r' q.
  pose proof (Rabs_pos l) as Pl. pose proof (Rle_abs l) as Al'. pose proof (Rle_abs (- l)) as Al. rewrite Rabs_Ropp in Al.
  assert (BA : Rabs (l - a) <= 11 / 10 * (1 + Rabs l)) by (apply Rabs_le; lra). pose proof (rnd2 _ _ BA ltac:(lra)) as RA. set (A := rnd (l - a)) in *. clearbody A.
  assert (BS : Rabs (A + 2 * s) <= 13 / 10 * (1 + Rabs l)) by (apply Rabs_le; unfold u53 in *; lra). pose proof (rnd2 _ _ BS ltac:(lra)) as RS. clear - H20 Pal Ha RA RS Rs Cs SQ Hn Pl HE2. apply Rabs_le. unfold u53 in *. lra.
Qed.
Lemma root_opp u c v : - root (- u) c (- v) = rnd (rnd (u + c) - 2 * rnd (sqrt (rnd (c * rnd (u - v))))).
Proof.
  unfold root. replace (- u - c) with (- (u + c)) by ring. rewrite (rnd_opp (u + c)). replace (- v - - u) with (u - v) by ring. rewrite <- rnd_opp. f_equal. ring.
Qed.
Lemma unsquash_value L (b : bnd (numF L)) l u a c y v : bounds_are b l u a c -> is y v -> l <= v <= u ->
  exists z, is (@unsquash (numF L) b y) z /\
  ((v < rnd (l + a) /\ z = root l a v) \/ (rnd (l + a) <= v /\ rnd (u - c) < v /\ z = - root (- u) c (- v)) \/ (rnd (l + a) <= v <= rnd (u - c) /\ z = v)).
Proof.
  intros B Iy Hv. destruct B as [Il Iu Ia Ic [Ql Qu] G [Ea Ec] [Ha Hc] _]. pose proof (is_fmt _ _ Il) as Fl. pose proof (is_fmt _ _ Iu) as Fu. pose proof (is_fmt _ _ Iy) as Fy. pose proof Q_big as HQ. pose proof (Rabs_pos l) as Pl. pose proof (Rabs_pos u) as Pu.
  pose proof (proj2 Ea) as Pa. pose proof (proj2 Ec) as Pc. apply Rabs_le_inv in Ql as Ql'. apply Rabs_le_inv in Qu as Qu'.
  assert (Qa : 0 < a <= 2 * Q) by lra. assert (Qc : 0 < c <= 2 * Q) by lra. assert (QQa : 0 < a * a <= 4 * (Q * Q)) by (clear - Qa HQ; nra). assert (QQc : 0 < c * c <= 4 * (Q * Q)) by (clear - Qc HQ; nra).
  pose proof (is_ofZ 2 ltac:(lia)) as I2. unfold unsquash. cbv zeta. cbn [nlt nadd nsub nmul ndiv nofZ nsqrt numF].
  set (lb := b_lb b : f64) in *. set (ub := b_ub b : f64) in *. set (al := b_al b : f64) in *. set (au := b_au b : f64) in *. change (nT (numF L)) with f64 in *.
  pose proof (is_add lb al l a Il Ia ltac:(apply under_top, Rabs_le; lra)) as Ip. pose proof (is_sub ub au u c Iu Ic ltac:(apply under_top, Rabs_le; lra)) as Im.
  pose proof (edge_plus l a Ea) as Ep. pose proof (edge_minus u c Ec) as Em.
  destruct (flt y (fadd lb al)) eqn:E1; [|destruct (flt (fsub ub au) y) eqn:E2].
  - apply (is_lt _ _ _ _ Iy Ip) in E1. exists (root l a v). split; [|left; split; [exact E1|reflexivity]].
    destruct (root_facts l a v Ea Fl Fy ltac:(lra)) as (T & T2 & P & S1 & S2). pose proof (edge_minus l a Ea) as Em'. pose proof (is_sub lb al l a Il Ia ltac:(apply under_top, Rabs_le; lra)) as IA.
    pose proof (is_sub _ _ _ _ Iy Il ltac:(apply under_top, Rabs_le; lra)) as It. pose proof (is_mul _ _ _ _ Ia It ltac:(apply under_top2; rewrite Rabs_pos_eq; lra)) as IP. pose proof (is_sqrt _ _ IP ltac:(lra)) as Is.
    pose proof (is_mul _ _ _ _ I2 Is ltac:(apply under_top, Rabs_le; lra)) as I2s. rewrite (rnd_id _ (fmt_double _ (rnd_fmt _))) in I2s. apply (is_add _ _ _ _ IA I2s). apply under_top, Rabs_le. lra.
  - apply (is_lt _ _ _ _ Im Iy) in E2. exists (- root (- u) c (- v)). pose proof (edge_opp u c Ec) as Eo. split; [|right; left; split; [apply (is_lt_false _ _ _ _ Iy Ip); exact E1|split; [exact E2|reflexivity]]].
    destruct (root_facts (- u) c (- v) Eo (fmt_opp _ Fu) (fmt_opp _ Fy) ltac:(lra)) as (T & T2 & P & S1 & S2). rewrite root_opp. revert T T2 P S1 S2. replace (- v - - u) with (u - v) by ring. intros T T2 P S1 S2.
    pose proof (edge_plus u c Ec) as Ep'. pose proof (is_add ub au u c Iu Ic ltac:(apply under_top, Rabs_le; lra)) as IA.
    pose proof (is_sub _ _ _ _ Iu Iy ltac:(apply under_top, Rabs_le; lra)) as It. pose proof (is_mul _ _ _ _ Ic It ltac:(apply under_top2; rewrite Rabs_pos_eq; lra)) as IP. pose proof (is_sqrt _ _ IP ltac:(lra)) as Is.
    pose proof (is_mul _ _ _ _ I2 Is ltac:(apply under_top, Rabs_le; lra)) as I2s. rewrite (rnd_id _ (fmt_double _ (rnd_fmt _))) in I2s. apply (is_sub _ _ _ _ IA I2s). apply under_top, Rabs_le. lra.
  - apply (is_lt_false _ _ _ _ Iy Ip) in E1. apply (is_lt_false _ _ _ _ Im Iy) in E2. exists v. split; [exact Iy|right; right; split; [lra|reflexivity]].
Qed.

(** ** C35 *)
(** The size of the rounding errors: 2^-43 of the magnitudes involved. *)
Definition slack (lb ub x : f64) : R := bpow radix2 (-43) * (1 + Rabs (B2R lb) + Rabs (B2R ub) + Rabs (B2R x)).
Lemma slack_nn lb ub x : 0 <= slack lb ub x.
Proof. unfold slack. apply Rmult_le_pos; [apply bpow_ge_0|]. pose proof (Rabs_pos (B2R lb)). pose proof (Rabs_pos (B2R ub)). pose proof (Rabs_pos (B2R x)). lra. Qed.
Lemma ordinary_lt lb ub : ordinary lb ub -> B2R lb < B2R ub.
Proof. intros (_ & _ & _ & _ & H). change (bpow radix2 (-40)) with (/ 1099511627776) in H. pose proof (Rabs_pos (B2R lb)). pose proof (Rabs_pos (B2R ub)). lra. Qed.
Lemma pre_image lb ub : lb < ub -> lb - al_of lb ub < ub + au_of lb ub.
Proof. intros H. pose proof (al_pos lb ub H). pose proof (au_pos lb ub H). lra. Qed.
(** What the doubles say is what exact arithmetic says, up to [slack]. *)
Theorem C35_doubles_accurate : forall L bug lb ub x, ordinary lb ub -> is_finite x = true ->
  (forall y r, trans_F L bug lb ub x = Ok y -> trans_R bug (B2R lb) (B2R ub) (B2R x) = Ok r -> is_finite y = true /\ Rabs (B2R y - r) <= slack lb ub x) /\
  (* both give a result for every point up to 2^30 widths away *)
  (Rabs (B2R x - B2R lb) <= bpow radix2 30 * (B2R ub - B2R lb) -> exists y r, trans_F L bug lb ub x = Ok y /\ trans_R bug (B2R lb) (B2R ub) (B2R x) = Ok r).
Proof.
  intros L bug lb ub x HO Fx. pose proof (ordinary_lt lb ub HO) as Hb. split.
  - intros y r Hy Hr. apply (trans_spec _ _ _ _ _ Hb) in Hr as (p & _ & Hp & ->). exact (trans_acc L bug lb ub x y p HO Fx Hy Hp).
  - intros Hx. destruct (C34_doubles_in_bounds L bug lb ub x HO) as (_ & _ & H); [destruct x; [reflexivity..|discriminate Fx|reflexivity]|]. destruct (H Fx Hx) as (y & Hy). change (bpow radix2 30) with 1073741824 in Hx. apply Rabs_le_inv in Hx.
    destruct (C34_component_in_bounds bug (B2R lb) (B2R ub) (B2R x) Hb) as (_ & H' & _). destruct H' as (r & Hr); [unfold count_fits; lra|]. exists y, r. split; assumption.
Qed.
Lemma trans_pair L bug lb ub x y p x' y' p' : ordinary lb ub -> is_finite x = true -> trans_F L bug lb ub x = Ok y -> is_finite x' = true -> trans_F L bug lb ub x' = Ok y' ->
  let l := B2R lb in let u := B2R ub in let al := al_of l u in let au := au_of l u in
  folded (l - al) (u + au) (B2R x) p -> folded (l - al) (u + au) (B2R x') p' ->
  Rabs ((B2R y - B2R y') - (squash_R l u al au p - squash_R l u al au p')) <= slack lb ub x + slack lb ub x'.
Proof.
  intros HO Fx Hy Fx' Hy'. cbv zeta. intros Hp Hp'. pose proof (proj2 (trans_acc L bug lb ub x y p HO Fx Hy Hp)) as E. pose proof (proj2 (trans_acc L bug lb ub x' y' p' HO Fx' Hy' Hp')) as E'. unfold slack. change (bpow radix2 (-43)) with (/ 8796093022208).
  apply Rabs_le_inv in E. apply Rabs_le_inv in E'. apply Rabs_le. lra.
Qed.
(** Continuous up to rounding, and monotone up to rounding on the feasible pre-image. *)
Theorem C35_doubles_continuous_monotone : forall L bug lb ub x x' y y', ordinary lb ub -> is_finite x = true -> is_finite x' = true ->
  trans_F L bug lb ub x = Ok y -> trans_F L bug lb ub x' = Ok y' ->
  Rabs (B2R y - B2R y') <= Rabs (B2R x - B2R x') + slack lb ub x + slack lb ub x' /\
  (B2R lb - al_of (B2R lb) (B2R ub) <= B2R x -> B2R x <= B2R x' -> B2R x' <= B2R ub + au_of (B2R lb) (B2R ub) -> B2R y <= B2R y' + slack lb ub x + slack lb ub x').
Proof.
  intros L bug lb ub x x' y y' HO Fx Fx' Hy Hy'. pose proof (ordinary_lt lb ub HO) as Hb. pose proof (al_pos _ _ Hb) as Ha. pose proof (au_pos _ _ Hb) as Hc. pose proof (pre_image _ _ Hb) as HAB. destruct (folded_exists _ _ (B2R x) HAB) as (p & Hp). destruct (folded_exists _ _ (B2R x') HAB) as (p' & Hp').
  pose proof (trans_pair L bug lb ub x y p x' y' p' HO Fx Hy Fx' Hy' Hp Hp') as E. pose proof (squash_abs _ _ _ _ Hb Ha Hc p p' (proj1 Hp) (proj1 Hp')) as E1. pose proof (folded_lipschitz _ _ _ _ _ _ HAB Hp Hp') as E2. apply Rabs_le_inv in E. split.
  - apply Rabs_le_inv in E1. apply Rabs_le. lra.
  - intros H1 H2 H3. set (l := B2R lb) in *. set (u := B2R ub) in *. assert (D1 : folded (l - al_of l u) (u + au_of l u) (B2R x) (B2R x)) by (apply folded_id; lra). assert (D2 : folded (l - al_of l u) (u + au_of l u) (B2R x') (B2R x')) by (apply folded_id; lra).
    pose proof (folded_unique _ _ _ _ _ HAB Hp D1) as ->. pose proof (folded_unique _ _ _ _ _ HAB Hp' D2) as ->.
    pose proof (squash_lipschitz _ _ _ _ Hb Ha Hc (B2R x) (B2R x') H1 H2 H3). lra.
Qed.
(** Periodic and symmetric up to rounding; [d] is how far [x'] is from the exact image of [x]. *)
Theorem C35_doubles_periodic_even : forall L bug lb ub x x' y y', ordinary lb ub -> is_finite x = true -> is_finite x' = true ->
  trans_F L bug lb ub x = Ok y -> trans_F L bug lb ub x' = Ok y' ->
  let l := B2R lb in let u := B2R ub in
  (forall (n : Z) d, Rabs (B2R x' - (B2R x + IZR n * (2 * (u - l + al_of l u + au_of l u)))) <= d -> Rabs (B2R y - B2R y') <= d + slack lb ub x + slack lb ub x') /\
  (forall d, Rabs (B2R x' - (2 * (l - al_of l u) - B2R x)) <= d -> Rabs (B2R y - B2R y') <= d + slack lb ub x + slack lb ub x') /\
  (forall d, Rabs (B2R x' - (2 * (u + au_of l u) - B2R x)) <= d -> Rabs (B2R y - B2R y') <= d + slack lb ub x + slack lb ub x').
Proof.
  intros L bug lb ub x x' y y' HO Fx Fx' Hy Hy' l u. pose proof (ordinary_lt lb ub HO) as Hb. pose proof (al_pos _ _ Hb) as Ha. pose proof (au_pos _ _ Hb) as Hc. pose proof (pre_image _ _ Hb) as HAB. destruct (folded_exists _ _ (B2R x) HAB) as (p & Hp). destruct (folded_exists _ _ (B2R x') HAB) as (p' & Hp').
  pose proof (trans_pair L bug lb ub x y p x' y' p' HO Fx Hy Fx' Hy' Hp Hp') as E. pose proof (squash_abs _ _ _ _ Hb Ha Hc p p' (proj1 Hp) (proj1 Hp')) as E1. apply Rabs_le_inv in E.
  assert (K : forall w d, folded (B2R lb - al_of (B2R lb) (B2R ub)) (B2R ub + au_of (B2R lb) (B2R ub)) w p -> Rabs (B2R x' - w) <= d -> Rabs (B2R y - B2R y') <= d + slack lb ub x + slack lb ub x').
  { intros w d Hw Hd. pose proof (folded_lipschitz _ _ _ _ _ _ HAB Hp' Hw) as E2. rewrite (Rabs_minus_sym p' p) in E2. assert (E3 := Rle_trans _ _ _ E1 (Rle_trans _ _ _ E2 Hd)). apply Rabs_le_inv in E3. apply Rabs_le. lra. }
  split; [|split].
  - intros n d Hd. refine (K _ d _ Hd). subst l u. replace (B2R ub - B2R lb + al_of (B2R lb) (B2R ub) + au_of (B2R lb) (B2R ub)) with ((B2R ub + au_of (B2R lb) (B2R ub)) - (B2R lb - al_of (B2R lb) (B2R ub))) by ring. apply folded_period. exact Hp.
  - intros d Hd. refine (K _ d _ Hd). apply folded_mirror_low. exact Hp.
  - intros d Hd. refine (K _ d _ Hd). apply folded_mirror_high. exact Hp.
Qed.
Lemma root_below k w : 0 < k -> 0 <= w -> 0 <= sqrt (k * w) /\ 2 * sqrt (k * w) <= k + w /\ sqrt (k * w) * sqrt (k * w) = k * w.
Proof.
  intros Hk Hw. assert (Hkw : 0 <= k * w) by (apply Rmult_le_pos; lra). pose proof (sqrt_pos (k * w)) as R1. pose proof (sqrt_sqrt _ Hkw) as R2. split; [exact R1|]. split; [|exact R2].
  set (r := sqrt (k * w)) in *. clearbody r. assert (E : (2 * r) * (2 * r) <= (k + w) * (k + w)). { replace ((2 * r) * (2 * r)) with (4 * (k * w)) by (rewrite <- R2; ring). assert (0 <= (k - w) * (k - w)) by apply Rle_0_sqr. lra. }
  destruct (Rle_or_lt (2 * r) (k + w)) as [D|D]; [exact D|exfalso]. assert ((k + w) * (k + w) < (2 * r) * (2 * r)) by (apply Rmult_le_0_lt_compat; lra). lra.
Qed.
Definition unsquash_F (L : libm) (lb ub y : f64) : f64 := @unsquash (numF L) (@make_bnd (numF L) lb ub) y.
(** the inverse gives a point whose image is the value asked for, up to rounding *)
Lemma unsquash_near L lb ub y : ordinary lb ub -> is_finite y = true -> B2R lb <= B2R y <= B2R ub ->
  let l := B2R lb in let u := B2R ub in let S := 1 + Rabs l + Rabs u in let x := unsquash_F L lb ub y in
  is_finite x = true /\ exists x', l - al_of l u <= x' <= u + au_of l u /\ Rabs (B2R x - x') <= 10 * u53 * S /\ Rabs (squash_R l u (al_of l u) (au_of l u) x' - B2R y) <= 20 * u53 * S.
Proof.
  intros HO Fy Hy. destruct (make_bnd_is L lb ub HO) as (a & c & B). pose proof (make_bnd_acc L lb ub a c HO B) as WO. pose proof (sized_of L _ _ _ a c B WO) as SZ. intros l u S x. pose proof (ordinary_lt lb ub HO) as Hb. fold l u in B, SZ, Hb, Hy.
  destruct (unsquash_value L _ l u a c y (B2R y) B (is_self y Fy) Hy) as (z & Iz & Hz). fold (unsquash_F L lb ub y) in Iz. fold x in Iz. destruct Iz as [Fz Ez]. split; [exact Fz|]. change (nT (numF L)) with f64 in *. rewrite Ez. clear Fz Ez x.
  pose proof B as B'. destruct B' as [Il Iu _ _ _ _ [Ea Ec] [Ha Hc] [Ta Tc]]. pose proof (is_fmt _ _ Il) as Fl. pose proof (is_fmt _ _ Iu) as Fu. pose proof (is_fmt _ _ (is_self y Fy)) as Fv. set (v := B2R y) in *. clearbody v. clear B Il Iu Fy.
  fold S in SZ. destruct SZ as [SE SW SA SU Sa Sc]. set (al := al_of l u) in *. set (au := au_of l u) in *. clearbody al au S l u.
  pose proof (Rabs_pos l) as Pl. pose proof (Rabs_pos u) as Pu. pose proof (Rle_abs u) as Au1. pose proof (Rle_abs (- u)) as Au2. pose proof (Rle_abs l) as Al1. pose proof (Rle_abs (- l)) as Al2. rewrite Rabs_Ropp in Al2, Au2.
  assert (BA : Rabs (l + a) <= 11 / 10 * (1 + Rabs l)) by (apply Rabs_le; unfold u53 in *; lra). pose proof (rnd2 _ _ BA ltac:(lra)) as RA.
  assert (BU : Rabs (u - c) <= 11 / 10 * (1 + Rabs u)) by (apply Rabs_le; unfold u53 in *; lra). pose proof (rnd2 _ _ BU ltac:(lra)) as RU.
  pose proof root_below as ROOT.
  destruct Hz as [[H ->]|[(H & H' & ->)|[H ->]]].
  - destruct (ROOT al (v - l) ltac:(lra) ltac:(lra)) as (R1 & R2 & R3). set (d := 4 * u53 * (1 + Rabs l)) in *. assert (DE : d = 4 * u53 * (1 + Rabs l)) by reflexivity. clearbody d.
    exists (l - al + 2 * sqrt (al * (v - l))). assert (X : l - al <= l - al + 2 * sqrt (al * (v - l)) <= u + au) by (unfold u53 in *; lra). split; [exact X|]. split.
    + eapply Rle_trans; [apply (root_acc l a al v Ea Fl Fv ltac:(lra) Sa Ta ltac:(unfold u53 in *; lra))|]. unfold u53. lra.
    + pose proof (low_form l u al au Hb (proj1 SA) (proj1 SU) _ d X ltac:(unfold u53 in *; lra) ltac:(unfold u53 in *; lra)) as E. set (r := sqrt (al * (v - l))) in *. replace (l - al + 2 * r - (l - al)) with (2 * r) in E by ring.
      replace (2 * r * (2 * r) / 4 / al) with (r * r / al) in E by (field; lra). rewrite R3 in E. replace (l + al * (v - l) / al) with v in E by (field; lra). eapply Rle_trans; [exact E|]. unfold u53 in *. lra.
  - destruct (ROOT au (u - v) ltac:(lra) ltac:(lra)) as (R1 & R2 & R3). set (d := 4 * u53 * (1 + Rabs u)) in *. assert (DE : d = 4 * u53 * (1 + Rabs u)) by reflexivity. clearbody d.
    exists (u + au - 2 * sqrt (au * (u - v))). assert (X : l - al <= u + au - 2 * sqrt (au * (u - v)) <= u + au) by (unfold u53 in *; lra). split; [exact X|]. split.
    + pose proof (root_acc (- u) c au (- v) (edge_opp u c Ec) (fmt_opp _ Fu) (fmt_opp _ Fv) ltac:(lra) Sc ltac:(rewrite Rabs_Ropp; exact Tc) ltac:(unfold u53 in *; lra)) as E. rewrite Rabs_Ropp in E. replace (- v - - u) with (u - v) in E by ring. set (r := sqrt (au * (u - v))) in *. clearbody r. apply Rabs_le_inv in E. apply Rabs_le. unfold u53 in *. lra.
    + pose proof (high_form l u al au Hb (proj1 SA) (proj1 SU) _ d X ltac:(unfold u53 in *; lra) ltac:(unfold u53 in *; lra)) as E. set (r := sqrt (au * (u - v))) in *. replace (u + au - 2 * r - (u + au)) with (- (2 * r)) in E by ring.
      replace (- (2 * r) * - (2 * r) / 4 / au) with (r * r / au) in E by (field; lra). rewrite R3 in E. replace (u - au * (u - v) / au) with v in E by (field; lra). eapply Rle_trans; [exact E|]. unfold u53 in *. lra.
  - exists v. split; [lra|]. split; [unfold Rminus; rewrite Rplus_opp_r, Rabs_R0; unfold u53; lra|]. eapply Rle_trans; [apply (mid_form l u al au Hb (proj1 SA) (proj1 SU) v (4 * u53 * S)); unfold u53 in *; lra|]. unfold u53. lra.
Qed.
Theorem C35_doubles_inverse : forall L bug lb ub y, ordinary lb ub -> is_finite y = true -> fle lb y = true -> fle y ub = true ->
  is_finite (unsquash_F L lb ub y) = true /\
  exists y', trans_F L bug lb ub (unsquash_F L lb ub y) = Ok y' /\ Rabs (B2R y' - B2R y) <= bpow radix2 (-41) * (1 + Rabs (B2R lb) + Rabs (B2R ub)).
Proof.
  intros L bug lb ub y HO Fy Hl Hu. pose proof HO as (Fl & Fu & _). apply (fle_B2R lb y Fl Fy) in Hl. apply (fle_B2R y ub Fy Fu) in Hu.
  destruct (unsquash_near L lb ub y HO Fy (conj Hl Hu)) as (Fx & x' & X1 & X2 & X3). split; [exact Fx|]. set (x := unsquash_F L lb ub y) in *. pose proof (ordinary_lt lb ub HO) as Hb. pose proof (al_pos _ _ Hb) as Ha. pose proof (au_pos _ _ Hb) as Hc. pose proof (pre_image _ _ Hb) as HAB.
  pose proof HO as (_ & _ & _ & _ & G). change (bpow radix2 (-40)) with (/ 1099511627776) in G. apply Rabs_le_inv in X2 as X2'.
  destruct (C34_doubles_in_bounds L bug lb ub x HO) as (_ & _ & H); [destruct x; [reflexivity..|discriminate Fx|reflexivity]|]. destruct H as (y' & Hy'); [exact Fx|change (bpow radix2 30) with 1073741824; apply Rabs_le; unfold u53 in *; lra|].
  exists y'. split; [exact Hy'|]. destruct (folded_exists _ _ (B2R x) HAB) as (p & Hp). pose proof (proj2 (trans_acc L bug lb ub x y' p HO Fx Hy' Hp)) as E. pose proof (folded_lipschitz _ _ _ _ _ _ HAB Hp (folded_id _ _ x' X1)) as E2. pose proof (squash_abs _ _ _ _ Hb Ha Hc p x' (proj1 Hp) X1) as E3.
  assert (E4 := Rle_trans _ _ _ E3 (Rle_trans _ _ _ E2 X2)). change (bpow radix2 (-41)) with (/ 2199023255552).
  assert (BX : Rabs (B2R x) <= 2 * (1 + Rabs (B2R lb) + Rabs (B2R ub))).
  { pose proof (Rle_abs (B2R ub)). pose proof (Rle_abs (- B2R ub)) as U. pose proof (Rle_abs (B2R lb)). pose proof (Rle_abs (- B2R lb)) as V. rewrite Rabs_Ropp in U, V. apply Rabs_le. unfold u53 in *. lra. }
  set (X := Rabs (B2R x)) in *. clearbody X. set (q := squash_R _ _ _ _ p) in *. set (q' := squash_R _ _ _ _ x') in *. clearbody q q'. apply Rabs_le_inv in E. apply Rabs_le_inv in E4. apply Rabs_le_inv in X3. apply Rabs_le. unfold u53 in *. lra.
Qed.
(** Whole vectors, as the sampler uses them for the initial mean. *)
Theorem C35_doubles_inverse_vector : forall L bug (bounds : list (f64 * f64)) (y : list f64), length y = length bounds ->
  (forall i lb ub v, nth_error bounds i = Some (lb, ub) -> nth_error y i = Some v -> ordinary lb ub /\ is_finite v = true /\ fle lb v = true /\ fle v ub = true) ->
  let bs := map (fun p => @make_bnd (numF L) (fst p) (snd p)) bounds in
  exists x y' : list f64, @cma_trans_inverse (numF L) bs y = Ok x /\ @cma_trans (numF L) to_int_F bug bs x = Ok y' /\ length x = length y /\ length y' = length y /\
  forall i lb ub v w, nth_error bounds i = Some (lb, ub) -> nth_error y i = Some v -> nth_error y' i = Some w -> Rabs (B2R w - B2R v) <= bpow radix2 (-41) * (1 + Rabs (B2R lb) + Rabs (B2R ub)).
Proof.
  intros L bug bounds y HL H bs. set (x := map (fun p : (f64 * f64) * f64 => unsquash_F L (fst (fst p)) (snd (fst p)) (snd p)) (combine bounds y)).
  assert (HX : length x = length y) by (unfold x; rewrite map_length, combine_length, HL; apply Nat.min_id).
  assert (E1 : @cma_trans_inverse (numF L) bs y = Ok x).
  { unfold cma_trans_inverse, on_components. assert (E0 : @length (nT (numF L)) y = length bs) by (unfold bs; rewrite map_length; exact HL). rewrite E0, Nat.ltb_irrefl. rewrite skipn_all2 by (rewrite E0; apply le_n).
    assert (E : map_out (fun bx : bnd (numF L) * numF L => Ok (@unsquash (numF L) (fst bx) (snd bx))) (combine bs y) = Ok x); [|refine (eq_trans (f_equal (fun o => let* r := o in Ok (r ++ [])) E) _); cbn [obind]; rewrite app_nil_r; reflexivity].
    unfold bs, x. clear. revert y. induction bounds as [|p bounds IH]; intros [|v y]; try reflexivity. cbn [map combine map_out fst snd obind]. rewrite IH. reflexivity. }
  assert (E2 : exists y' : list f64, map_out (fun p : (f64 * f64) * f64 => trans_F L bug (fst (fst p)) (snd (fst p)) (snd p)) (combine bounds x) = Ok y' /\
     forall i lb ub v w, nth_error bounds i = Some (lb, ub) -> nth_error y i = Some v -> nth_error y' i = Some w -> Rabs (B2R w - B2R v) <= bpow radix2 (-41) * (1 + Rabs (B2R lb) + Rabs (B2R ub))).
  { unfold x. clear E1 HX bs. revert y x HL H. induction bounds as [|[lb ub] bounds IH]; intros [|v y] x HL H; try discriminate HL; [exists []; split; [reflexivity|intros [|i]; discriminate]|].
    destruct (H 0%nat lb ub v eq_refl eq_refl) as (HO & Fv & H1 & H2). destruct (C35_doubles_inverse L bug lb ub v HO Fv H1 H2) as (_ & w & Hw & HE). destruct (IH y (eq_add_S _ _ HL)) as (y' & Hy' & HI); [intros i; apply (H (S i))|].
    exists (w :: y'). cbn [combine map map_out fst snd]. rewrite Hw. cbn [obind]. rewrite Hy'. split; [reflexivity|]. intros [|i] lb0 ub0 v0 w0; cbn [nth_error]; intros Eb Ev Ew; [|exact (HI i lb0 ub0 v0 w0 Eb Ev Ew)].
    assert (lb0 = lb /\ ub0 = ub) as [-> ->] by (split; congruence). assert (v0 = v) as -> by congruence. assert (w0 = w) as -> by congruence. exact HE. }
  destruct E2 as (y' & E2 & E3). exists x, y'. split; [exact E1|].
  assert (HY : length y' = length y) by (apply map_out_ok, Forall2_len in E2; rewrite combine_length, HX, <- HL, Nat.min_id in E2; symmetry; exact E2).
  split; [|split; [exact HX|split; [exact HY|exact E3]]]. rewrite cma_trans_each by (unfold bs; rewrite map_length; exact (eq_trans HX HL)). rewrite <- E2. unfold bs. clear. generalize x. clear x. induction bounds as [|p bounds IH]; intros [|v x]; try reflexivity. cbn [map combine map_out fst snd]. rewrite IH. reflexivity.
Qed.
(** The rounding errors are real: for the bounds 0 and 1, the image of the inverse of 0.001 is not 0.001. *)
Theorem C35_doubles_exact_inverse_refuted : exists lb ub y y', ordinary lb ub /\ fle lb y = true /\ fle y ub = true /\ trans_F some_libm "bug" lb ub (unsquash_F some_libm lb ub y) = Ok y' /\ flt y' y = true.
Proof.
  exists fzero, (fofZ 1), (flit 1 (-3)). set (o := trans_F some_libm "bug" fzero (fofZ 1) (unsquash_F some_libm fzero (fofZ 1) (flit 1 (-3)))).
  assert (H : (match o with Ok y => flt y (flit 1 (-3)) | _ => false end) = true) by (vm_compute; reflexivity). clearbody o. destruct o as [y|e|]; [|discriminate H|discriminate H]. exists y.
  split; [exact (proj1 C34_doubles_nonvacuous)|]. split; [vm_compute; reflexivity|]. split; [vm_compute; reflexivity|]. split; [reflexivity|exact H].
Qed.
(** A point a million widths away, and one in the smoothed edge. *)
Example C35_doubles_nonvacuous : exists y r, trans_F some_libm "bug" fzero (fofZ 1) (fofZ 1000000) = Ok y /\ trans_R "bug" (B2R fzero) (B2R (fofZ 1)) (B2R (fofZ 1000000)) = Ok r /\ is_finite y = true /\ Rabs (B2R y - r) <= / 1000000.
Proof.
  pose proof (proj1 C34_doubles_nonvacuous) as HO. destruct (C35_doubles_accurate some_libm "bug" fzero (fofZ 1) (fofZ 1000000) HO (proj1 (is_ofZ 1000000 ltac:(lia)))) as [H1 H2]. 
  destruct H2 as (y & r & Hy & Hr).
  - change (B2R fzero) with 0. destruct (is_ofZ 1000000 ltac:(lia)) as [_ ->]. destruct (is_ofZ 1 ltac:(lia)) as [_ ->]. change (bpow radix2 30) with 1073741824. rewrite Rabs_pos_eq; lra.
  - exists y, r. split; [exact Hy|]. split; [exact Hr|]. destruct (H1 y r Hy Hr) as [Fy HE]. split; [exact Fy|]. eapply Rle_trans; [exact HE|]. unfold slack. change (B2R fzero) with 0. destruct (is_ofZ 1000000 ltac:(lia)) as [_ ->]. destruct (is_ofZ 1 ltac:(lia)) as [_ ->].
    change (bpow radix2 (-43)) with (/ 8796093022208). rewrite !Rabs_pos_eq by lra. lra.
Qed.
