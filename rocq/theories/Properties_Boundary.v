(** * C34-C36: boundary transformers. *)
From Coq Require Import ZArith Bool Reals Lra Lia.
From Flocq Require Import Core BinarySingleNaN.
From Verif Require Import Prelude Flt FltFacts Num Round8 Boundary.
#[local] Open Scope R_scope.

(** ** Specification *)
(** [y] is [x] folded into [a,b]: reached from x by reflections at a and at b
    (their products are the translations by multiples of 2(b-a)). *)
Definition folded (a b x y : R) : Prop :=
  a <= y <= b /\ exists n : Z, x = a + IZR n * (2 * (b - a)) + (y - a) \/ x = a + IZR n * (2 * (b - a)) - (y - a).

Lemma folded_dist a b x y : a < b -> folded a b x y -> (forall m, y - a <= Rabs (x - a - IZR m * (2 * (b - a)))) /\ exists n, y - a = Rabs (x - a - IZR n * (2 * (b - a))).
Proof.
  intros Hab [Hy (n & Hn)]. set (r := 2 * (b - a)) in *. assert (Hr : 0 < r) by (unfold r; lra).
  assert (Hd : y - a = Rabs (x - a - IZR n * r)).
  { destruct Hn as [-> | ->]; [rewrite Rabs_pos_eq by lra; lra|]. replace (a + IZR n * r - (y - a) - a - IZR n * r) with (- (y - a)) by lra. rewrite Rabs_Ropp, Rabs_pos_eq by lra. lra. }
  split; [|eauto]. intros m. destruct (Z.eq_dec m n) as [->|Hne]; [lra|].
  assert (H1 : r <= Rabs ((IZR n - IZR m) * r)).
  { rewrite Rabs_mult, (Rabs_pos_eq r) by lra. rewrite <- minus_IZR. assert (1 <= Rabs (IZR (n - m))) by (rewrite <- abs_IZR; apply IZR_le; lia).
    rewrite <- (Rmult_1_l r) at 1. apply Rmult_le_compat_r; lra. }
  assert (H2 : Rabs ((IZR n - IZR m) * r) <= Rabs (x - a - IZR m * r) + Rabs (x - a - IZR n * r)).
  { replace ((IZR n - IZR m) * r) with ((x - a - IZR m * r) - (x - a - IZR n * r)) by ring. unfold Rminus at 1. eapply Rle_trans; [apply Rabs_triang|]. rewrite Rabs_Ropp. lra. }
  unfold r in *. lra.
Qed.
Lemma folded_lipschitz a b x x' y y' : a < b -> folded a b x y -> folded a b x' y' -> Rabs (y - y') <= Rabs (x - x').
Proof.
  intros Hab H H'. destruct (folded_dist a b x y Hab H) as [H1 (n & H2)]. destruct (folded_dist a b x' y' Hab H') as [H3 (n' & H4)].
  specialize (H1 n'). specialize (H3 n).
  assert (T1 : Rabs (x - a - IZR n' * (2 * (b - a))) <= Rabs (x - x') + Rabs (x' - a - IZR n' * (2 * (b - a)))).
  { replace (x - a - IZR n' * (2 * (b - a))) with ((x - x') + (x' - a - IZR n' * (2 * (b - a)))) by ring. apply Rabs_triang. }
  assert (T2 : Rabs (x' - a - IZR n * (2 * (b - a))) <= Rabs (x - x') + Rabs (x - a - IZR n * (2 * (b - a)))).
  { replace (x' - a - IZR n * (2 * (b - a))) with (- (x - x') + (x - a - IZR n * (2 * (b - a)))) by ring. eapply Rle_trans; [apply Rabs_triang|]. rewrite Rabs_Ropp. lra. }
  apply Rabs_le. lra.
Qed.
Lemma folded_unique a b x y y' : a < b -> folded a b x y -> folded a b x y' -> y = y'.
Proof.
  intros Hab H H'. pose proof (folded_lipschitz a b x x y y' Hab H H') as HL. replace (x - x) with 0 in HL by ring. rewrite Rabs_R0 in HL.
  pose proof (Rabs_pos (y - y')). assert (y - y' = 0); [|lra]. destruct (Req_dec (y - y') 0) as [E|E]; [exact E|]. pose proof (Rabs_pos_lt _ E). lra.
Qed.
Lemma folded_period a b x y m : folded a b x y -> folded a b (x + IZR m * (2 * (b - a))) y.
Proof. intros [H1 (n & H2)]. split; [exact H1|]. exists (n + m)%Z. rewrite plus_IZR. destruct H2 as [->| ->]; [left|right]; ring. Qed.
Lemma folded_mirror_low a b x y : folded a b x y -> folded a b (2 * a - x) y.
Proof. intros [H1 (n & H2)]. split; [exact H1|]. exists (- n)%Z. rewrite opp_IZR. destruct H2 as [->| ->]; [right|left]; ring. Qed.
Lemma folded_mirror_high a b x y : folded a b x y -> folded a b (2 * b - x) y.
Proof. intros H. apply folded_mirror_low in H. apply (folded_period a b _ _ 1) in H. replace (2 * b - x) with (2 * a - x + 1 * (2 * (b - a))) by ring. exact H. Qed.
Lemma folded_id a b x : a <= x <= b -> folded a b x x.
Proof. intros H. split; [exact H|]. exists 0%Z. left. ring. Qed.

(** ** The code in exact arithmetic *)
Definition al_of (lb ub : R) : R := Rmin ((ub - lb) / 2) ((1 + Rabs lb) / 20).
Definition au_of (lb ub : R) : R := Rmin ((ub - lb) / 2) ((1 + Rabs ub) / 20).
Lemma c_fmin_R (a b : R) : @c_fmin numR a b = Rmin a b.
Proof.
  unfold c_fmin. cbn [neq nlt numR]. rewrite Req_bool_true by reflexivity. cbn [negb]. destruct (Rlt_bool_spec b a); [rewrite Rmin_right|rewrite Rmin_left]; lra.
Qed.
Lemma make_bnd_R lb ub : @make_bnd numR lb ub = @Build_bnd numR lb ub (al_of lb ub) (au_of lb ub).
Proof. unfold make_bnd. rewrite !c_fmin_R. reflexivity. Qed.
Lemma al_pos lb ub : lb < ub -> 0 < al_of lb ub <= (ub - lb) / 2.
Proof. intros H. unfold al_of. pose proof (Rabs_pos lb). split; [apply Rmin_glb_lt; lra|apply Rmin_l]. Qed.
Lemma au_pos lb ub : lb < ub -> 0 < au_of lb ub <= (ub - lb) / 2.
Proof. intros H. unfold au_of. pose proof (Rabs_pos ub). split; [apply Rmin_glb_lt; lra|apply Rmin_l]. Qed.

Definition fold_R (b : bnd numR) (x : R) : outcome R := @fold_into numR to_int_R b x.
Definition xlow lb ub al : R := lb - 2 * al - (ub - lb) / 2.
Definition xup lb ub au : R := ub + 2 * au + (ub - lb) / 2.
Definition period lb ub al au : R := 2 * (ub - lb + al + au).
Definition shift_up lb ub al au (x : R) : outcome R :=
  if Rlt_bool x (xlow lb ub al) then let* k := @one_plus_int numR to_int_R ((xlow lb ub al - x) / period lb ub al au) in Ok (x + period lb ub al au * IZR k) else Ok x.
Definition shift_down lb ub al au (y : R) : outcome R :=
  if Rlt_bool (xup lb ub au) y then let* k := @one_plus_int numR to_int_R ((y - xup lb ub au) / period lb ub al au) in Ok (y - period lb ub al au * IZR k) else Ok y.
Definition mirror lb ub al au (y : R) : R :=
  let y := if Rlt_bool y (lb - al) then y + 2 * (lb - al - y) else y in
  if Rlt_bool (ub + au) y then y - 2 * (y - ub - au) else y.
Lemma fold_R_unfold lb ub al au x :
  fold_R (@Build_bnd numR lb ub al au) x =
  obind (shift_up lb ub al au x) (fun y => obind (shift_down lb ub al au y) (fun y => Ok (mirror lb ub al au y))).
Proof. reflexivity. Qed.
Lemma one_plus_int_spec (v : R) k : 0 <= v -> @one_plus_int numR to_int_R v = Ok k -> IZR k - 1 <= v < IZR k.
Proof.
  intros Hv. unfold one_plus_int, to_int_R. destruct (fits_int (Ztrunc v)); [|discriminate]. cbn [obind]. destruct (fits_int (1 + Ztrunc v)); [|discriminate].
  intros E. assert (k = 1 + Ztrunc v)%Z as -> by congruence. clear E. rewrite plus_IZR. rewrite Ztrunc_floor by exact Hv. pose proof (Zfloor_lb v). pose proof (Zfloor_ub v). lra.
Qed.
Lemma one_plus_int_defined (v : R) : 0 <= v < 2147483647 -> exists k, @one_plus_int numR to_int_R v = Ok k.
Proof.
  intros Hv. unfold one_plus_int, to_int_R. rewrite Ztrunc_floor by lra. pose proof (Zfloor_lb v). pose proof (Zfloor_ub v).
  assert (0 <= Zfloor v)%Z by (apply Zfloor_lub; lra). assert (Zfloor v < 2147483647)%Z by (apply lt_IZR; lra).
  assert (fits_int (Zfloor v) = true) as -> by (unfold fits_int; lia). cbn [obind]. assert (fits_int (1 + Zfloor v) = true) as -> by (unfold fits_int; lia). eauto.
Qed.
Section Fold.
Context (lb ub al au : R) (Hb : lb < ub) (Hal : 0 < al <= (ub - lb) / 2) (Hau : 0 < au <= (ub - lb) / 2).
Notation r := (period lb ub al au).
Lemma period_pos : 0 < r. Proof using Hb Hal Hau. unfold period. lra. Qed.
Lemma period_ends : r = xup lb ub au - xlow lb ub al. Proof using Hb Hal Hau. unfold period, xup, xlow. lra. Qed.
Lemma period_width : r = 2 * ((ub + au) - (lb - al)). Proof using Hb Hal Hau. unfold period. lra. Qed.
Lemma shift_up_spec x y : shift_up lb ub al au x = Ok y -> (exists n, y = x + IZR n * r) /\ xlow lb ub al <= y /\ (y <= xup lb ub au \/ y = x).
Proof using Hb Hal Hau.
  pose proof period_pos as Hr. unfold shift_up. destruct (Rlt_bool_spec x (xlow lb ub al)) as [Hx|Hx]; [|intros [= <-]; split; [exists 0%Z; lra|lra]].
  destruct (one_plus_int _) as [k| |] eqn:Ek; cbn [obind]; try discriminate. intros [= <-].
  set (v := (xlow lb ub al - x) / r) in *. assert (Hv0 : 0 <= v) by (unfold v; apply Rle_mult_inv_pos; lra). apply (one_plus_int_spec v k Hv0) in Ek.
  assert (Ev : v * r = xlow lb ub al - x) by (unfold v; field; lra). split; [exists k; ring|]. pose proof period_ends.
  assert ((IZR k - 1) * r <= v * r) by (apply Rmult_le_compat_r; lra). assert (v * r < IZR k * r) by (apply Rmult_lt_compat_r; lra). lra.
Qed.
Lemma shift_down_spec x y : xlow lb ub al <= x -> shift_down lb ub al au x = Ok y -> (exists n, y = x + IZR n * r) /\ xlow lb ub al <= y <= xup lb ub au.
Proof using Hb Hal Hau.
  intros Hlow. pose proof period_pos as Hr. unfold shift_down. destruct (Rlt_bool_spec (xup lb ub au) x) as [Hx|Hx]; [|intros [= <-]; split; [exists 0%Z; lra|lra]].
  destruct (one_plus_int _) as [k| |] eqn:Ek; cbn [obind]; try discriminate. intros [= <-].
  set (v := (x - xup lb ub au) / r) in *. assert (Hv0 : 0 <= v) by (unfold v; apply Rle_mult_inv_pos; lra). apply (one_plus_int_spec v k Hv0) in Ek.
  assert (Ev : v * r = x - xup lb ub au) by (unfold v; field; lra). split; [exists (- k)%Z; rewrite opp_IZR; ring|]. pose proof period_ends.
  assert ((IZR k - 1) * r <= v * r) by (apply Rmult_le_compat_r; lra). assert (v * r < IZR k * r) by (apply Rmult_lt_compat_r; lra). lra.
Qed.
Lemma mirror_folded y : xlow lb ub al <= y <= xup lb ub au -> folded (lb - al) (ub + au) y (mirror lb ub al au y).
Proof using Hb Hal Hau.
  unfold xlow, xup. intros Hy. unfold mirror. destruct (Rlt_bool_spec y (lb - al)) as [H1|H1].
  - rewrite Rlt_bool_false by lra. split; [lra|]. exists 0%Z. right. lra.
  - destruct (Rlt_bool_spec (ub + au) y) as [H2|H2]; [|apply folded_id; lra]. split; [lra|]. exists 1%Z. right. lra.
Qed.
Lemma fold_folded x y : fold_R (@Build_bnd numR lb ub al au) x = Ok y -> folded (lb - al) (ub + au) x y.
Proof using Hb Hal Hau.
  rewrite fold_R_unfold. destruct (shift_up lb ub al au x) as [y1| |] eqn:E1; cbn [obind]; try discriminate.
  destruct (shift_down lb ub al au y1) as [y2| |] eqn:E2; cbn [obind]; try discriminate. intros [= <-].
  apply shift_up_spec in E1 as ((n1 & ->) & L1 & _). apply shift_down_spec in E2 as ((n2 & ->) & L2); [|exact L1].
  apply mirror_folded in L2. apply (folded_period _ _ _ _ (- n1 - n2)) in L2. rewrite minus_IZR, opp_IZR, <- period_width in L2.
  match type of L2 with folded _ _ ?u _ => replace u with x in L2 by ring end. exact L2.
Qed.
Lemma fold_defined x : (xlow lb ub al - x) / r < 2147483647 -> (x - xup lb ub au) / r < 2147483647 -> exists y, fold_R (@Build_bnd numR lb ub al au) x = Ok y.
Proof using Hb Hal Hau.
  pose proof period_pos as Hr. intros H1 H2. rewrite fold_R_unfold.
  destruct (Rlt_le_dec x (xlow lb ub al)) as [Hx|Hx].
  - assert (E : exists y, shift_up lb ub al au x = Ok y /\ y <= xup lb ub au).
    { destruct (one_plus_int_defined ((xlow lb ub al - x) / r)) as (k & Hk); [split; [apply Rle_mult_inv_pos; lra|exact H1]|].
      assert (E : shift_up lb ub al au x = Ok (x + r * IZR k)) by (unfold shift_up; rewrite Rlt_bool_true by exact Hx; rewrite Hk; reflexivity).
      exists (x + r * IZR k). split; [exact E|]. apply shift_up_spec in E as (_ & L1 & [L2|L2]); [exact L2|]. exfalso. lra. }
    destruct E as (y & -> & Hy). cbn [obind]. unfold shift_down. rewrite Rlt_bool_false by exact Hy. cbn [obind]. eauto.
  - unfold shift_up. rewrite Rlt_bool_false by exact Hx. cbn [obind]. unfold shift_down. destruct (Rlt_bool_spec (xup lb ub au) x) as [Hu|Hu]; [|cbn [obind]; eauto].
    destruct (one_plus_int_defined ((x - xup lb ub au) / r)) as (k & ->); [split; [apply Rle_mult_inv_pos; lra|exact H2]|]. cbn [obind]. eauto.
Qed.
(** the part after folding *)
Definition squash_R (y : R) : R := @squash numR (@Build_bnd numR lb ub al au) y.
Lemma squash_R_unfold y : squash_R y =
  if Rlt_bool y (lb + al) then lb + (y - (lb - al)) * (y - (lb - al)) / 4 / al
  else if Rlt_bool (ub - au) y then ub - (y - (ub + au)) * (y - (ub + au)) / 4 / au else y.
Proof. reflexivity. Qed.
Lemma div4 u v : 0 < v -> u * u / 4 / v = (u * u) * / (4 * v). Proof. intros H. field. lra. Qed.
Lemma squash_lipschitz y y' : lb - al <= y -> y <= y' -> y' <= ub + au -> 0 <= squash_R y' - squash_R y <= y' - y.
Proof using Hb Hal Hau.
  assert (LOW : forall u, lb - al <= u <= lb + al -> exists q, squash_R u = lb + q /\ q * (4 * al) = (u - (lb - al)) * (u - (lb - al))).
  { intros u Hu. rewrite squash_R_unfold. destruct (Rlt_bool_spec u (lb + al)) as [H1|H1].
    - eexists. split; [reflexivity|]. field. lra.
    - assert (u = lb + al) as -> by lra. exists al. split; [destruct (Rlt_bool_spec (ub - au) (lb + al)); [|lra]|ring].
      assert (lb + al = ub - au) by lra. lra. }
  assert (HIGH : forall u, ub - au <= u <= ub + au -> exists q, squash_R u = ub - q /\ q * (4 * au) = (ub + au - u) * (ub + au - u)).
  { intros u Hu. rewrite squash_R_unfold. destruct (Rlt_bool_spec u (lb + al)) as [H1|H1]; [lra|]. destruct (Rlt_bool_spec (ub - au) u) as [H2|H2].
    - eexists. split; [reflexivity|]. field. lra.
    - assert (u = ub - au) as -> by lra. exists au. split; [ring|ring]. }
  assert (MID : forall u, lb + al <= u <= ub - au -> squash_R u = u).
  { intros u Hu. rewrite squash_R_unfold, Rlt_bool_false by lra. rewrite Rlt_bool_false by lra. reflexivity. }
  assert (QL : forall q q' u u' c, 0 < c -> 0 <= u -> u <= u' -> u' <= 2 * c -> q * (4 * c) = u * u -> q' * (4 * c) = u' * u' -> 0 <= q' - q <= u' - u).
  { intros q q' u u' c Hc H0 H1 H2 E E'. assert (E2 : (q' - q) * (4 * c) = (u' - u) * (u' + u)) by lra. split.
    - apply Rmult_le_reg_r with (4 * c); [lra|]. rewrite E2, Rmult_0_l. apply Rmult_le_pos; lra.
    - apply Rmult_le_reg_r with (4 * c); [lra|]. rewrite E2. apply Rmult_le_compat_l; lra. }
  assert (L1 : forall u u', lb - al <= u -> u <= u' -> u' <= lb + al -> 0 <= squash_R u' - squash_R u <= u' - u).
  { intros u u' H1 H2 H3. destruct (LOW u) as (q & -> & E); [lra|]. destruct (LOW u') as (q' & -> & E'); [lra|].
    pose proof (QL q q' (u - (lb - al)) (u' - (lb - al)) al) as HQ. lra. }
  assert (H1 : forall u u', ub - au <= u -> u <= u' -> u' <= ub + au -> 0 <= squash_R u' - squash_R u <= u' - u).
  { intros u u' H1 H2 H3. destruct (HIGH u) as (q & -> & E); [lra|]. destruct (HIGH u') as (q' & -> & E'); [lra|].
    pose proof (QL q' q (ub + au - u') (ub + au - u) au) as HQ. lra. }
  assert (M1 : forall u u', lb + al <= u -> u <= u' -> u' <= ub - au -> 0 <= squash_R u' - squash_R u <= u' - u).
  { intros u u' A B C. rewrite !MID by lra. lra. }
  intros A B C. destruct (Rle_lt_dec y' (lb + al)); [apply L1; lra|]. destruct (Rle_lt_dec (ub - au) y); [apply H1; lra|].
  destruct (Rle_lt_dec y (lb + al)).
  - pose proof (L1 y (lb + al)). destruct (Rle_lt_dec y' (ub - au)).
    + pose proof (M1 (lb + al) y'). lra.
    + pose proof (M1 (lb + al) (ub - au)). pose proof (H1 (ub - au) y'). lra.
  - destruct (Rle_lt_dec y' (ub - au)).
    + pose proof (M1 y y'). lra.
    + pose proof (M1 y (ub - au)). pose proof (H1 (ub - au) y'). lra.
Qed.
Lemma squash_ends : squash_R (lb - al) = lb /\ squash_R (ub + au) = ub.
Proof using Hb Hal Hau.
  rewrite !squash_R_unfold. split; [rewrite Rlt_bool_true by lra; field; lra|]. rewrite Rlt_bool_false by lra. rewrite Rlt_bool_true by lra. field. lra.
Qed.
Lemma squash_range y : lb - al <= y <= ub + au -> lb <= squash_R y <= ub.
Proof using Hb Hal Hau. intros H. destruct squash_ends as [E1 E2]. pose proof (squash_lipschitz (lb - al) y). pose proof (squash_lipschitz y (ub + au)). lra. Qed.
Lemma squash_id y : lb + al <= y <= ub - au -> squash_R y = y.
Proof using Hb Hal Hau. intros Hu. rewrite squash_R_unfold, Rlt_bool_false by lra. rewrite Rlt_bool_false by lra. reflexivity. Qed.
Definition unsquash_R (y : R) : R := @unsquash numR (@Build_bnd numR lb ub al au) y.
Lemma unsquash_R_unfold y : unsquash_R y =
  if Rlt_bool y (lb + al) then (lb - al) + 2 * R_sqrt.sqrt (al * (y - lb)) else if Rlt_bool (ub - au) y then (ub + au) - 2 * R_sqrt.sqrt (au * (ub - y)) else y.
Proof. reflexivity. Qed.
Lemma sqrt_lt c d : 0 < c -> 0 <= d < c -> 0 <= R_sqrt.sqrt (c * d) < c /\ R_sqrt.sqrt (c * d) * R_sqrt.sqrt (c * d) = c * d.
Proof.
  intros Hc Hd. assert (0 <= c * d) by (apply Rmult_le_pos; lra). split; [|now apply sqrt_sqrt]. split; [apply sqrt_pos|].
  rewrite <- (sqrt_square c) at 2 by lra. apply sqrt_lt_1; [assumption|apply Rmult_le_pos; lra|]. apply Rmult_lt_compat_l; lra.
Qed.
Lemma unsquash_spec y : lb <= y <= ub -> lb - al <= unsquash_R y <= ub + au /\ squash_R (unsquash_R y) = y.
Proof using Hb Hal Hau.
  intros Hy. rewrite unsquash_R_unfold. destruct (Rlt_bool_spec y (lb + al)) as [H1|H1].
  - destruct (sqrt_lt al (y - lb)) as [Hs Hq]; [lra|lra|]. set (q := R_sqrt.sqrt (al * (y - lb))) in *. split; [lra|]. rewrite squash_R_unfold, Rlt_bool_true by lra.
    replace (lb - al + 2 * q - (lb - al)) with (2 * q) by ring. replace (2 * q * (2 * q) / 4 / al) with (q * q / al) by (field; lra). rewrite Hq. field. lra.
  - destruct (Rlt_bool_spec (ub - au) y) as [H2|H2]; [|split; [lra|apply squash_id; lra]].
    destruct (sqrt_lt au (ub - y)) as [Hs Hq]; [lra|lra|]. set (q := R_sqrt.sqrt (au * (ub - y))) in *. split; [lra|]. rewrite squash_R_unfold, Rlt_bool_false by lra. rewrite Rlt_bool_true by lra.
    replace (ub + au - 2 * q - (ub + au)) with (- (2 * q)) by ring. replace (- (2 * q) * - (2 * q) / 4 / au) with (q * q / au) by (field; lra). rewrite Hq. field. lra.
Qed.
Lemma not_bug y : lb - al <= y <= ub + au -> @is_bug numR (@Build_bnd numR lb ub al au) y = false.
Proof using Hb Hal Hau.
  intros Hy. unfold is_bug. cbn [b_lb b_ub b_al b_au nlt nsub nadd ndec numR]. assert (0 < 1 * bpow radix10 (-15)) by (rewrite Rmult_1_l; apply bpow_gt_0).
  rewrite !Rlt_bool_false by lra. reflexivity.
Qed.
End Fold.

(** ** C34 *)
(** One component: what the code computes for the bounds (lb,ub) of a parameter. *)
Definition trans_R (bug : string) (lb ub x : R) : outcome R :=
  let* y := @shift_or_throw numR to_int_R bug (@make_bnd numR lb ub) x in Ok (@squash numR (@make_bnd numR lb ub) y).
(** the number of periods x lies outside the feasible pre-image fits an int *)
Definition count_fits (lb ub x : R) : Prop := - 2147483647 * (2 * (ub - lb)) < x - lb < 2147483647 * (2 * (ub - lb)).
Lemma count_fits_defined lb ub x : lb < ub -> count_fits lb ub x -> exists y, fold_R (@make_bnd numR lb ub) x = Ok y.
Proof.
  intros Hb [H1 H2]. rewrite make_bnd_R. pose proof (al_pos lb ub Hb). pose proof (au_pos lb ub Hb). pose proof (period_pos lb ub _ _ Hb H H0) as Hr.
  apply fold_defined; auto.
  - apply Rmult_lt_reg_r with (period lb ub (al_of lb ub) (au_of lb ub)); [exact Hr|]. unfold Rdiv. rewrite Rmult_assoc, Rinv_l by lra. rewrite Rmult_1_r. unfold xlow, period. lra.
  - apply Rmult_lt_reg_r with (period lb ub (al_of lb ub) (au_of lb ub)); [exact Hr|]. unfold Rdiv. rewrite Rmult_assoc, Rinv_l by lra. rewrite Rmult_1_r. unfold xup, period. lra.
Qed.
Lemma trans_spec bug lb ub x y : lb < ub -> trans_R bug lb ub x = Ok y <->
  exists z, fold_R (@make_bnd numR lb ub) x = Ok z /\ folded (lb - al_of lb ub) (ub + au_of lb ub) x z /\ y = squash_R lb ub (al_of lb ub) (au_of lb ub) z.
Proof.
  intros Hb. pose proof (al_pos lb ub Hb) as Ha. pose proof (au_pos lb ub Hb) as Hu. unfold trans_R, shift_or_throw. rewrite make_bnd_R.
  change (@fold_into numR to_int_R ?b x) with (fold_R b x).
  match goal with |- context [fold_R ?b x] => destruct (fold_R b x) as [z| |] eqn:Ez end; cbn [obind]; [|split; [discriminate|intros (z & Hz & _); discriminate]..].
  pose proof (fold_folded lb ub _ _ Hb Ha Hu x z Ez) as HF. rewrite not_bug by (auto; apply HF). cbn [obind]. split.
  - intros [= <-]. exists z. auto.
  - intros (z' & [= <-] & _ & ->). reflexivity.
Qed.
Theorem C34_component_in_bounds : forall bug lb ub x, lb < ub ->
  (* never the internal error; undefined only if the number of periods does not fit an int *)
  (forall e, trans_R bug lb ub x <> Throw e) /\
  (count_fits lb ub x -> exists y, trans_R bug lb ub x = Ok y) /\
  (* always within the bounds; the identity away from the edges *)
  (forall y, trans_R bug lb ub x = Ok y -> lb <= y <= ub) /\
  (lb + al_of lb ub <= x <= ub - au_of lb ub -> trans_R bug lb ub x = Ok x).
Proof.
  intros bug lb ub x Hb. pose proof (al_pos lb ub Hb) as Ha. pose proof (au_pos lb ub Hb) as Hu. split; [|split; [|split]].
  - intros e. unfold trans_R, shift_or_throw. rewrite make_bnd_R. change (@fold_into numR to_int_R ?b x) with (fold_R b x).
    match goal with |- context [fold_R ?b x] => destruct (fold_R b x) as [z|e'|] eqn:Ez end; cbn [obind]; [|exfalso|discriminate].
    + rewrite not_bug; auto; [discriminate|]. apply (fold_folded lb ub _ _ Hb Ha Hu x z Ez).
    + rewrite fold_R_unfold in Ez. unfold shift_up, shift_down, one_plus_int, to_int_R in Ez.
      repeat (match type of Ez with context [if ?c then _ else _] => destruct c end; cbn [obind] in Ez); discriminate.
  - intros Hc. destruct (count_fits_defined lb ub x Hb Hc) as (z & Hz). eexists. apply trans_spec; [exact Hb|]. exists z. split; [exact Hz|]. split; [|reflexivity].
    rewrite make_bnd_R in Hz. exact (fold_folded lb ub _ _ Hb Ha Hu x z Hz).
  - intros y Hy. apply trans_spec in Hy as (z & _ & HF & ->); [|exact Hb]. apply squash_range; auto. apply HF.
  - intros Hx. destruct (count_fits_defined lb ub x Hb) as (z & Hz); [split; lra|]. apply trans_spec; [exact Hb|]. exists z. split; [exact Hz|]. rewrite make_bnd_R in Hz.
    pose proof (fold_folded lb ub _ _ Hb Ha Hu x z Hz) as HF. split; [exact HF|].
    assert (z = x) as -> by (eapply folded_unique; [|exact HF|apply folded_id; lra]; lra). symmetry. apply squash_id; auto.
Qed.
(** Whole vectors: each component on its own, in both the CMA code and the transformer class. *)
Lemma map_out_ok {A B} (f : A -> outcome B) l r : map_out f l = Ok r <-> Forall2 (fun a b => f a = Ok b) l r.
Proof.
  revert r. induction l as [|a l IH]; intros r; cbn [map_out].
  - split; [intros [= <-]; constructor|]. intros H. inversion H. reflexivity.
  - split.
    + intros H. apply obind_Ok in H as (b & Hb & H). apply obind_Ok in H as (r' & Hr & [= <-]). constructor; [exact Hb|]. now apply IH.
    + intros H. inversion H as [|? b ? r' Hb Hr]; subst. rewrite Hb. cbn [obind]. apply IH in Hr. rewrite Hr. reflexivity.
Qed.
Lemma Forall2_len {A B} (P : A -> B -> Prop) l m : Forall2 P l m -> length l = length m.
Proof. induction 1; cbn; auto. Qed.
Lemma on_components_ok {K : Num} (f : bnd K -> K -> outcome K) bs x y : length x = length bs ->
  (on_components f bs x = Ok y <-> length y = length bs /\ forall i b xi yi, nth_error bs i = Some b -> nth_error x i = Some xi -> nth_error y i = Some yi -> f b xi = Ok yi).
Proof.
  intros HL. unfold on_components. rewrite HL, Nat.ltb_irrefl. rewrite skipn_all2 by lia. split.
  - intros H. apply obind_Ok in H as (y' & H & [= <-]). rewrite app_nil_r. apply map_out_ok in H. pose proof (Forall2_len _ _ _ H) as HF. rewrite combine_length in HF. split; [lia|].
    intros i b xi yi Hb Hx Hy. clear HF HL. revert i x y' H Hb Hx Hy. induction bs as [|b0 bs IH]; intros i x y' H Hb Hx Hy; [destruct i; discriminate|].
    destruct x as [|x0 x]; [destruct i; discriminate|]. cbn [combine] in H. inversion H as [|? y0 ? y1 H0 H1]; subst. destruct i as [|i]; cbn in Hb, Hx, Hy.
    + injection Hb as <-. injection Hx as <-. injection Hy as <-. exact H0.
    + eapply IH; eauto.
  - intros [Hy H]. apply obind_Ok. exists y. split; [|now rewrite app_nil_r]. apply map_out_ok.
    revert x y HL Hy H. induction bs as [|b0 bs IH]; intros [|x0 x] [|y0 y] HL Hy H; cbn in *; try lia; [constructor|]. constructor.
    + apply (H 0%nat b0 x0 y0); reflexivity.
    + apply IH; try lia. intros i b xi yi Hb Hx Hyi. apply (H (S i) b xi yi); assumption.
Qed.
Lemma on_components_length {K : Num} (f : bnd K -> K -> outcome K) bs x y : length x = length bs -> on_components f bs x = Ok y -> length y = length bs.
Proof. intros HL H. now apply (on_components_ok f bs x y HL) in H. Qed.
Lemma cma_trans_ok bug (bs : list (bnd numR)) x y : length x = length bs -> (@cma_trans numR to_int_R bug bs x = Ok y <->
  length y = length bs /\ forall i b xi yi, nth_error bs i = Some b -> nth_error x i = Some xi -> nth_error y i = Some yi ->
    (let* z := @shift_or_throw numR to_int_R bug b xi in Ok (squash b z)) = Ok yi).
Proof.
  intros HL. unfold cma_trans. split.
  - intros H. apply obind_Ok in H as (z & Hz & Hy). pose proof (on_components_length _ _ _ _ HL Hz) as Hlz. apply (on_components_ok _ _ _ _ HL) in Hz as [_ Hz].
    apply (on_components_ok _ _ _ _ Hlz) in Hy as [Hly Hy]. split; [exact Hly|]. intros i b xi yi Hb Hx Hyi.
    destruct (nth_error z i) as [zi|] eqn:Ezi; [|apply nth_error_None in Ezi; assert (i < length bs)%nat by (apply nth_error_Some; congruence); exfalso; change (length z) with (@length R z) in *; lia].
    rewrite (Hz i b xi zi Hb Hx Ezi). cbn [obind]. exact (Hy i b zi yi Hb Ezi Hyi).
  - intros [Hly H]. apply obind_Ok.
    assert (HZ : exists z : list R, length z = length bs /\ (forall i b xi zi, nth_error bs i = Some b -> nth_error x i = Some xi -> nth_error z i = Some zi -> @shift_or_throw numR to_int_R bug b xi = Ok zi) /\
       (forall i b zi yi, nth_error bs i = Some b -> nth_error z i = Some zi -> nth_error y i = Some yi -> @squash numR b zi = yi)).
    { revert x y HL Hly H. induction bs as [|b0 bs IH]; intros [|x0 x] [|y0 y] HL Hly H; try discriminate HL; try discriminate Hly.
      - exists []. split; [reflexivity|]. split; intros [|i]; discriminate.
      - pose proof (H 0%nat b0 x0 y0 eq_refl eq_refl eq_refl) as H0. apply obind_Ok in H0 as (z0 & Hz0 & [= Hy0]).
        destruct (IH x y (eq_add_S _ _ HL) (eq_add_S _ _ Hly)) as (z & Hlz & Hz1 & Hz2); [intros i b xi yi Hb Hx Hyi; apply (H (S i) b xi yi); assumption|].
        exists (z0 :: z). split; [exact (f_equal S Hlz)|]. split; intros [|i] b u v; cbn [nth_error]; intros Hb Hu Hv.
        + injection Hb as <-. injection Hu as <-. injection Hv as <-. exact Hz0.
        + eapply Hz1; eauto.
        + injection Hb as <-. injection Hu as <-. injection Hv as <-. exact Hy0.
        + eapply Hz2; eauto. }
    destruct HZ as (z & Hlz & Hz1 & Hz2). exists z. split; [apply on_components_ok; auto|]. apply on_components_ok; [exact Hlz|]. split; [exact Hly|]. intros i b zi yi Hb Hzi Hyi. f_equal. eapply Hz2; eauto.
Qed.
Theorem C34_vector_componentwise : forall bug (bounds : list (R * R)) x y, length x = length bounds ->
  (@cma_trans numR to_int_R bug (map (fun p => @make_bnd numR (fst p) (snd p)) bounds) x = Ok y <->
   length y = length x /\ forall i lb ub xi yi, nth_error bounds i = Some (lb, ub) -> nth_error x i = Some xi -> nth_error y i = Some yi -> trans_R bug lb ub xi = Ok yi).
Proof.
  intros bug bounds x y HL. rewrite cma_trans_ok by (rewrite map_length; exact HL). rewrite map_length. split.
  - intros [H1 H2]. split; [exact (eq_trans H1 (eq_sym HL))|]. intros i lb ub xi yi Hb Hx Hy. apply (H2 i (@make_bnd numR lb ub) xi yi); auto. rewrite nth_error_map. apply (f_equal (option_map (fun p => @make_bnd numR (fst p) (snd p)))) in Hb. exact Hb.
  - intros [H1 H2]. split; [exact (eq_trans H1 HL)|]. intros i b xi yi Hb Hx Hy. rewrite nth_error_map in Hb. match type of Hb with option_map _ ?o = _ => destruct o as [[lb ub]|] eqn:Eb; [|discriminate Hb] end. injection Hb as <-. exact (H2 i lb ub xi yi Eb Hx Hy).
Qed.
(** The transformer class computes the same. *)
Theorem C34_class_agrees : forall bug (bounds : list (R * R)) x, (forall p, In p bounds -> fst p < snd p) -> length x = length bounds ->
  @cmaes_apply numR to_int_R (map (fun p => @make_bnd numR (fst p) (snd p)) bounds) x = @cma_trans numR to_int_R bug (map (fun p => @make_bnd numR (fst p) (snd p)) bounds) x.
Proof.
  intros bug bounds x HB HL. unfold cmaes_apply, cma_trans. f_equal. unfold on_components. rewrite map_length, HL, Nat.ltb_irrefl. f_equal.
  revert x HL. induction bounds as [|[lb ub] bounds IH]; intros [|x0 x] HL; cbn in HL; try discriminate; [reflexivity|]. cbn [map combine map_out fst snd].
  assert (HE : @shift_or_keep numR to_int_R (@make_bnd numR lb ub) x0 = @shift_or_throw numR to_int_R bug (@make_bnd numR lb ub) x0).
  { assert (Hb : lb < ub) by (apply (HB (lb, ub)); now left). pose proof (al_pos lb ub Hb) as Ha. pose proof (au_pos lb ub Hb) as Hu.
    unfold shift_or_keep, shift_or_throw. rewrite make_bnd_R. change (@fold_into numR to_int_R ?b x0) with (fold_R b x0).
    match goal with |- context [fold_R ?b x0] => destruct (fold_R b x0) as [z| |] eqn:Ez end; cbn [obind]; auto.
    rewrite not_bug; auto. apply (fold_folded lb ub _ _ Hb Ha Hu x0 z Ez). }
  rewrite HE, IH; auto. intros p Hp. apply HB. now right.
Qed.
(** The shift count: converting a large quotient to int is undefined in the C++ code. *)
Theorem C34_int_overflow_refuted : exists x, @fold_into (numF {| lm_log := fun v => v; lm_exp := fun v => v; lm_sin := fun v => v; lm_cos := fun v => v |}) to_int_F
   (make_bnd (K := numF {| lm_log := fun v => v; lm_exp := fun v => v; lm_sin := fun v => v; lm_cos := fun v => v |}) fzero (fofZ 1)) x = Undef /\ is_finite x = true.
Proof. exists (fofZ (10 ^ 11)). split; vm_compute; reflexivity. Qed.

(** ** C35 *)
Theorem C35_periodic_even : forall bug lb ub x y, lb < ub -> trans_R bug lb ub x = Ok y ->
  (* period 2(ub-lb+al+au), and symmetric about both ends of the feasible pre-image *)
  (forall (n : Z) y', trans_R bug lb ub (x + IZR n * (2 * (ub - lb + al_of lb ub + au_of lb ub))) = Ok y' -> y' = y) /\
  (forall y', trans_R bug lb ub (2 * (lb - al_of lb ub) - x) = Ok y' -> y' = y) /\
  (forall y', trans_R bug lb ub (2 * (ub + au_of lb ub) - x) = Ok y' -> y' = y).
Proof.
  intros bug lb ub x y Hb H. pose proof (al_pos lb ub Hb) as Ha. pose proof (au_pos lb ub Hb) as Hu. apply trans_spec in H as (z & _ & HF & ->); [|exact Hb].
  split; [|split].
  - intros n y' H'. apply trans_spec in H' as (z' & _ & HF' & ->); [|exact Hb]. f_equal. eapply folded_unique; [|exact HF'|]; [lra|].
    replace (2 * (ub - lb + al_of lb ub + au_of lb ub)) with (2 * ((ub + au_of lb ub) - (lb - al_of lb ub))) by ring. now apply folded_period.
  - intros y' H'. apply trans_spec in H' as (z' & _ & HF' & ->); [|exact Hb]. f_equal. eapply folded_unique; [|exact HF'|]; [lra|]. now apply folded_mirror_low.
  - intros y' H'. apply trans_spec in H' as (z' & _ & HF' & ->); [|exact Hb]. f_equal. eapply folded_unique; [|exact HF'|]; [lra|]. now apply folded_mirror_high.
Qed.
Theorem C35_continuous_monotone : forall bug lb ub x x' y y', lb < ub -> trans_R bug lb ub x = Ok y -> trans_R bug lb ub x' = Ok y' ->
  (* 1-Lipschitz everywhere, in particular continuous *)
  Rabs (y - y') <= Rabs (x - x') /\
  (* non-decreasing on the feasible pre-image *)
  (lb - al_of lb ub <= x -> x <= x' -> x' <= ub + au_of lb ub -> y <= y').
Proof.
  intros bug lb ub x x' y y' Hb H H'. pose proof (al_pos lb ub Hb) as Ha. pose proof (au_pos lb ub Hb) as Hu.
  apply trans_spec in H as (z & _ & HF & ->); [|exact Hb]. apply trans_spec in H' as (z' & _ & HF' & ->); [|exact Hb]. split.
  - assert (HL : Rabs (z - z') <= Rabs (x - x')) by (eapply folded_lipschitz; [|exact HF|exact HF']; lra). eapply Rle_trans; [|exact HL].
    destruct HF as [HF _], HF' as [HF' _]. destruct (Rle_lt_dec z z') as [Hz|Hz].
    + pose proof (squash_lipschitz lb ub _ _ Hb Ha Hu z z' (proj1 HF) Hz (proj2 HF')). rewrite (Rabs_left1 (z - z')) by lra. apply Rabs_le. lra.
    + pose proof (squash_lipschitz lb ub _ _ Hb Ha Hu z' z (proj1 HF') (Rlt_le _ _ Hz) (proj2 HF)). rewrite (Rabs_pos_eq (z - z')) by lra. apply Rabs_le. lra.
  - intros H1 H2 H3. assert (z = x) as -> by (eapply folded_unique; [|exact HF|apply folded_id]; lra). assert (z' = x') as -> by (eapply folded_unique; [|exact HF'|apply folded_id]; lra).
    pose proof (squash_lipschitz lb ub _ _ Hb Ha Hu x x' H1 H2 H3). lra.
Qed.
(** The inverse: for every y within the bounds it gives a point of the feasible pre-image that is transformed to y. *)
Theorem C35_inverse : forall bug lb ub y, lb < ub -> lb <= y <= ub ->
  let x := @unsquash numR (@make_bnd numR lb ub) y in lb - al_of lb ub <= x <= ub + au_of lb ub /\ trans_R bug lb ub x = Ok y.
Proof.
  intros bug lb ub y Hb Hy x. pose proof (al_pos lb ub Hb) as Ha. pose proof (au_pos lb ub Hb) as Hu. unfold x. rewrite make_bnd_R. fold (unsquash_R lb ub (al_of lb ub) (au_of lb ub) y).
  destruct (unsquash_spec lb ub _ _ Hb Ha Hu y Hy) as [H1 H2]. split; [exact H1|].
  destruct (count_fits_defined lb ub (unsquash_R lb ub (al_of lb ub) (au_of lb ub) y) Hb) as (z & Hz); [split; lra|]. apply trans_spec; [exact Hb|]. exists z. split; [exact Hz|].
  rewrite make_bnd_R in Hz. pose proof (fold_folded lb ub _ _ Hb Ha Hu _ z Hz) as HF. split; [exact HF|].
  assert (z = unsquash_R lb ub (al_of lb ub) (au_of lb ub) y) as -> by (eapply folded_unique; [|exact HF|apply folded_id; lra]; lra). now symmetry.
Qed.
(** The same for whole vectors. *)
Theorem C35_inverse_vector : forall bug (bounds : list (R * R)) (y : list R), length y = length bounds ->
  (forall i lb ub yi, nth_error bounds i = Some (lb, ub) -> nth_error y i = Some yi -> lb < ub /\ lb <= yi <= ub) ->
  let bs := map (fun p => @make_bnd numR (fst p) (snd p)) bounds in
  exists x : list R, @cma_trans_inverse numR bs y = Ok x /\ @cma_trans numR to_int_R bug bs x = Ok y /\
  forall i lb ub xi, nth_error bounds i = Some (lb, ub) -> nth_error x i = Some xi -> lb - al_of lb ub <= xi <= ub + au_of lb ub.
Proof.
  intros bug bounds y HL HB bs.
  set (x := map (fun py => @unsquash numR (@make_bnd numR (fst (fst py)) (snd (fst py))) (snd py)) (combine bounds y) : list R).
  assert (Hlx : length x = length bounds) by (unfold x; rewrite map_length, combine_length, HL; apply Nat.min_id).
  assert (Hx : forall i lb ub xi, nth_error bounds i = Some (lb, ub) -> nth_error x i = Some xi -> exists yi, nth_error y i = Some yi /\ xi = @unsquash numR (@make_bnd numR lb ub) yi).
  { intros i lb ub xi Hb Hxi. unfold x in Hxi. rewrite nth_error_map in Hxi. match type of Hxi with option_map _ ?o = _ => destruct o as [[[l u] yi]|] eqn:Ec; [|discriminate Hxi] end.
    assert (Hc : forall (A B : Type) (a : list A) (b : list B) i v w, nth_error (combine a b) i = Some (v, w) -> nth_error a i = Some v /\ nth_error b i = Some w).
    { induction a as [|a0 a IH]; intros [|b0 b] [|k] v w Hk; cbn [combine nth_error] in *; try discriminate Hk; [injection Hk as <- <-; auto|now apply IH]. }
    apply Hc in Ec as [E1 E2]. pose proof (eq_trans (eq_sym E1) Hb) as E3. injection E3 as -> ->. exists yi. split; [exact E2|]. injection Hxi as <-. reflexivity. }
  exists x. split; [|split].
  - unfold cma_trans_inverse. apply (proj2 (@on_components_ok numR (fun b yv => Ok (@unsquash numR b yv)) bs y x (eq_trans HL (eq_sym (map_length _ _))))). split; [exact (eq_trans Hlx (eq_sym (map_length _ _)))|].
    intros i b yi xi Hb Hy Hxi. unfold bs in Hb. rewrite nth_error_map in Hb. match type of Hb with option_map _ ?o = _ => destruct o as [[lb ub]|] eqn:Eb; [|discriminate Hb] end. cbn [option_map fst snd] in Hb.
    destruct (Hx i lb ub xi Eb Hxi) as (yi' & Hy' & ->). pose proof (eq_trans (eq_sym Hy') Hy) as E3. injection E3 as ->. injection Hb as <-. reflexivity.
  - apply C34_vector_componentwise; [exact Hlx|]. split; [exact (eq_trans HL (eq_sym Hlx))|]. intros i lb ub xi yi Hb Hxi Hy.
    destruct (Hx i lb ub xi Hb Hxi) as (yi' & Hy' & ->). pose proof (eq_trans (eq_sym Hy') Hy) as E3. injection E3 as ->. destruct (HB i lb ub yi Hb Hy) as [H1 H2]. apply (C35_inverse bug lb ub yi H1 H2).
  - intros i lb ub xi Hb Hxi. destruct (Hx i lb ub xi Hb Hxi) as (yi & Hy & ->). destruct (HB i lb ub yi Hb Hy) as [H1 H2]. apply (C35_inverse bug lb ub yi H1 H2).
Qed.
Example C34_nonvacuous : trans_R "bug" 0 1 (1/2) = Ok (1/2) /\ count_fits 0 1 1000.
Proof.
  split; [|unfold count_fits; lra]. apply C34_component_in_bounds; [lra|]. unfold al_of, au_of. rewrite Rabs_R0, (Rabs_pos_eq 1) by lra.
  pose proof (Rmin_r ((1 - 0) / 2) ((1 + 0) / 20)). pose proof (Rmin_r ((1 - 0) / 2) ((1 + 1) / 20)). lra.
Qed.
Example C35_nonvacuous : exists y, trans_R "bug" 0 1 1000 = Ok y /\ exists y', trans_R "bug" 0 1 (1000 + 3 * (2 * (1 - 0 + al_of 0 1 + au_of 0 1))) = Ok y'.
Proof.
  pose proof (al_pos 0 1 ltac:(lra)). pose proof (au_pos 0 1 ltac:(lra)).
  destruct (proj1 (proj2 (C34_component_in_bounds "bug" 0 1 1000 ltac:(lra)))) as (y & Hy); [unfold count_fits; lra|].
  destruct (proj1 (proj2 (C34_component_in_bounds "bug" 0 1 (1000 + 3 * (2 * (1 - 0 + al_of 0 1 + au_of 0 1))) ltac:(lra)))) as (y' & Hy'); [unfold count_fits; lra|]. eauto.
Qed.
(** The constructors reject equal bounds (and the class also reversed ones), on doubles. *)
Theorem C34_init_rejects : forall L (pars : list (string * (f64 * f64))),
  (exists name lb ub, In (name, (lb, ub)) pars /\ (feq lb ub = true \/ flt ub lb = true)) <-> exists e, @transformer_init (numF L) pars = Throw e.
Proof.
  intros L pars. unfold transformer_init. induction pars as [|[name [lb ub]] pars IH]; cbn [map_out].
  - split; [intros (? & ? & ? & [] & _)|intros (e & H); discriminate].
  - destruct (feq lb ub || flt ub lb) eqn:E.
    + split; [intros _|intros _; exists name, lb, ub; split; [now left|now apply orb_true_iff]]. eexists.
      change (@neq (numF L) lb ub) with (feq lb ub). change (@nlt (numF L) ub lb) with (flt ub lb). rewrite E. reflexivity.
    + change (@neq (numF L) lb ub) with (feq lb ub). change (@nlt (numF L) ub lb) with (flt ub lb). rewrite E. cbn [obind]. split.
      * intros (n & l & u & Hin & Hbad). destruct Hin as [He|Hin]; [injection He as E1 E2 E3; subst; apply orb_true_iff in Hbad; congruence|]. destruct (proj1 IH) as (e & ->); [eauto 6|]. exists e. reflexivity.
      * intros (e & H). match type of H with obind ?m _ = _ => destruct m as [r|e'|] eqn:Er end; cbn [obind] in H; try discriminate. destruct (proj2 IH) as (n & l & u & Hin & Hn); [eauto|]. exists n, l, u. split; [now right|exact Hn].
Qed.

(** ** C36 *)
(** On doubles: bound and value of each component. *)
Theorem C36_reflective : forall L tw (bounds : list (f64 * f64)) v,
  (length v <> length bounds -> @reflective_apply (numF L) tw bounds v = Undef) /\
  (length v = length bounds -> exists w, @reflective_apply (numF L) tw bounds v = Ok w /\ length w = length v /\
     forall i l u x, nth_error bounds i = Some (l, u) -> nth_error v i = Some x ->
       (* inside (or NaN): unchanged; outside: the triangle wave of this component *)
       nth_error w i = Some (if flt x l || flt u x then tw x l u else x) /\
       (fle l x = true -> fle x u = true -> nth_error w i = Some x)).
Proof.
  intros L tw bounds v. unfold reflective_apply, assert_. split.
  - intros H. apply Nat.eqb_neq in H. match goal with |- context [Nat.eqb ?a ?b] => change (Nat.eqb a b) with (Nat.eqb (length v) (length bounds)) end. rewrite H. reflexivity.
  - intros HL. pose proof HL as HE. apply Nat.eqb_eq in HE. match goal with |- context [Nat.eqb ?a ?b] => change (Nat.eqb a b) with (Nat.eqb (length v) (length bounds)) end. rewrite HE. cbn [obind]. eexists. split; [reflexivity|].
    split; [rewrite map_length, combine_length; change (@length (numF L) v) with (length v); change (@length (numF L * numF L) bounds) with (length bounds); lia|]. clear HE.
    revert v HL. induction bounds as [|[l0 u0] bounds IH]; intros [|x0 v] HL [|i] l u x; cbn [nth_error]; try discriminate.
    + intros [= <- <-] [= <-]. cbn [combine map nth_error]. split; [reflexivity|]. intros H1 H2. f_equal.
      change (@nlt (numF L) x0 l0) with (flt x0 l0). change (@nlt (numF L) u0 x0) with (flt u0 x0).
      assert (flt x0 l0 = false) as ->. { rewrite flt_key. rewrite fle_key in H1. apply andb_true_iff in H1 as [H1 H1']. apply andb_true_iff in H1 as [-> ->]. cbn. apply Z.leb_le in H1'. now apply Z.ltb_ge. }
      assert (flt u0 x0 = false) as ->. { rewrite flt_key. rewrite fle_key in H2. apply andb_true_iff in H2 as [H2 H2']. apply andb_true_iff in H2 as [-> ->]. cbn. apply Z.leb_le in H2'. now apply Z.ltb_ge. }
      reflexivity.
    + intros Hb Hx. apply (IH v (eq_add_S _ _ HL) i l u x Hb Hx).
Qed.
Theorem C36_soft_limit : forall L sc th (bounds : list (f64 * f64)) v, length v = length bounds ->
  exists w, @soft_limit_apply (numF L) sc th bounds v = Ok w /\ length w = length v /\
    forall i l u x, nth_error bounds i = Some (l, u) -> nth_error v i = Some x -> nth_error w i = Some (sc x l u th).
Proof.
  intros L sc th bounds v HL. unfold soft_limit_apply, assert_. pose proof HL as HE. apply Nat.eqb_eq in HE. match goal with |- context [Nat.eqb ?a ?b] => change (Nat.eqb a b) with (Nat.eqb (length v) (length bounds)) end. rewrite HE. cbn [obind]. eexists. split; [reflexivity|].
  split; [rewrite map_length, combine_length; change (@length (numF L) v) with (length v); change (@length (numF L * numF L) bounds) with (length bounds); lia|]. clear HE.
  revert v HL. induction bounds as [|[l0 u0] bounds IH]; intros [|x0 v] HL [|i] l u x; cbn [nth_error]; try discriminate.
  - intros [= <- <-] [= <-]. reflexivity.
  - intros Hb Hx. apply (IH v (eq_add_S _ _ HL) i l u x Hb Hx).
Qed.
(** Hence no component depends on another: changing component k changes only component k of the result. *)
Theorem C36_independent : forall L tw (bounds : list (f64 * f64)) v k y w w', length v = length bounds ->
  @reflective_apply (numF L) tw bounds v = Ok w -> @reflective_apply (numF L) tw bounds (list_set v k y) = Ok w' ->
  forall i, i <> k -> nth_error w' i = nth_error w i.
Proof.
  intros L tw bounds v k y w w' HL Hw Hw' i Hi.
  destruct (proj2 (C36_reflective L tw bounds v) HL) as (w1 & E1 & L1 & P1). rewrite Hw in E1. injection E1 as <-.
  assert (HL' : length (list_set v k y) = length bounds) by (rewrite list_set_length; exact HL).
  destruct (proj2 (C36_reflective L tw bounds (list_set v k y)) HL') as (w2 & E2 & L2 & P2). rewrite Hw' in E2. injection E2 as <-.
  destruct (nth_error bounds i) as [[l u]|] eqn:Eb.
  - destruct (nth_error v i) as [x|] eqn:Ex; [|apply nth_error_None in Ex; assert (i < length bounds)%nat by (apply nth_error_Some; congruence); lia].
    rewrite (proj1 (P1 i l u x Eb Ex)). apply (P2 i l u x Eb). rewrite nth_error_list_set_neq by auto. exact Ex.
  - apply nth_error_None in Eb. rewrite !(proj2 (nth_error_None _ _)); auto; rewrite ?L1, ?L2, ?list_set_length; lia.
Qed.
Example C36_nonvacuous : @reflective_apply (numF {| lm_log := fun v => v; lm_exp := fun v => v; lm_sin := fun v => v; lm_cos := fun v => v |}) (fun x l u => l) [(fzero, fmaxval); (fzero, fmaxval)] [flowest; fmaxval]
  = Ok [fzero; fmaxval].
Proof. reflexivity. Qed.
