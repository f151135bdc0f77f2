(** * C42 in double precision: the strategy parameters that are computed. *)
From Coq Require Import ZArith Bool Lia Reals Lra Psatz.
From Flocq Require Import Core BinarySingleNaN.
From Verif Require Import Prelude Flt FltFacts ParInfo ObjInfo Num Round8 MathTools Boundary CmaRandom Properties_Boundary MesF Cma CmaFacts CmaF Properties_Cma Properties_Boundary2 Properties_Boundary3 Properties_Cma3 Properties_CmaDescription2 Properties_CmaWeights2.
#[local] Open Scope R_scope.

(** ceil is exact where it matters. *)
Definition exact_ceil (c : f64 -> f64) : Prop := forall x : f64, is_finite x = true -> 0 <= B2R x <= 9007199254740992 -> is_finite (c x) = true /\ B2R (c x) = IZR (Zceil (B2R x)).

Lemma in_top v : - 1000000000000000000000000000000 <= v <= 1000000000000000000000000000000 -> Rabs v <= bpow radix2 1000.
Proof. intros H. apply Rle_trans with 1000000000000000000000000000000; [apply Rabs_le; lra|]. apply Rle_trans with (bpow radix2 100); [cbn; lra|apply bpow_le; lia]. Qed.
Lemma rel v : / 1000000000000000000000000000000 <= v -> (1 - / 1000000000000000) * v <= rnd v <= (1 + / 1000000000000000) * v.
Proof. intros H. pose proof (rnd_err v) as E. pose proof eta_small as ES. rewrite (Rabs_pos_eq v) in E by lra. apply Rabs_le_inv in E. unfold u53 in E. split; lra. Qed.
Lemma quotient a b lo hi : 0 < b -> lo * b <= a <= hi * b -> lo <= a / b <= hi.
Proof. intros Hb H. split; apply (Rmult_le_reg_r b); try exact Hb; unfold Rdiv; rewrite Rmult_assoc, Rinv_l by lra; lra. Qed.
Lemma product a b x1 x2 y1 y2 : 0 <= x1 -> 0 <= y1 -> x1 <= a <= x2 -> y1 <= b <= y2 -> x1 * y1 <= a * b <= x2 * y2.
Proof. intros. split; apply Rmult_le_compat; lra. Qed.
Lemma is_one : is (fofZ 1) 1. Proof. apply is_ofZ. cbn. lia. Qed.
Lemma is_two : is (fofZ 2) 2. Proof. apply is_ofZ. cbn. lia. Qed.
Lemma rnd_one : rnd 1 = 1. Proof. apply rnd_id, (is_fmt _ _ is_one). Qed.
Lemma is_zero : is (fofZ 0) 0. Proof. apply is_ofZ. cbn. lia. Qed.
Lemma rnd_zero : rnd 0 = 0. Proof. apply rnd_id, (is_fmt _ _ is_zero). Qed.
Lemma rnd_le_one v : v <= 1 -> rnd v <= 1. Proof. intros H. rewrite <- rnd_one. now apply rnd_mono. Qed.
(** A literal between two fractions. *)
Lemma is_literal c (p q d : Z) : is_finite c = true -> (0 < d)%Z -> (p * 2 ^ 1074 <=? fkey c * d)%Z = true -> (fkey c * d <=? q * 2 ^ 1074)%Z = true -> exists v, is c v /\ IZR p / IZR d <= v <= IZR q / IZR d.
Proof.
  intros HF Hd H1 H2. apply Z.leb_le in H1, H2. exists (B2R c). split; [apply is_self, HF|]. pose proof (fkey_real c HF) as HK. apply IZR_le in H1. apply IZR_le in H2. rewrite !mult_IZR, HK in H1, H2.
  change (2 ^ 1074)%Z with (Zpower radix2 1074) in H1, H2. rewrite IZR_Zpower in H1, H2 by lia. clear HK. pose proof (bpow_gt_0 radix2 1074) as HP. generalize dependent (bpow radix2 1074). intros b H1 H2 HP. apply IZR_lt in Hd.
  assert (K1 : IZR p <= B2R c * IZR d) by (apply (Rmult_le_reg_r b); lra). assert (K2 : B2R c * IZR d <= IZR q) by (apply (Rmult_le_reg_r b); lra).
  split; apply (Rmult_le_reg_r (IZR d)); try exact Hd; unfold Rdiv; rewrite Rmult_assoc, Rinv_l by lra; lra.
Qed.
Lemma lit_14142 : exists v, is (flit 14142 (-4)) v /\ 14 / 10 <= v <= 15 / 10.
Proof. apply (is_literal _ 14 15 10); [vm_compute; reflexivity|lia|vm_compute; reflexivity|vm_compute; reflexivity]. Qed.
Lemma lit_3 : exists v, is (flit 3 (-1)) v /\ 29 / 100 <= v <= 31 / 100.
Proof. apply (is_literal _ 29 31 100); [vm_compute; reflexivity|lia|vm_compute; reflexivity|vm_compute; reflexivity]. Qed.
Lemma lit_6 : exists v, is (flit 1 (-6)) v /\ 0 / 1000000 <= v <= 2 / 1000000.
Proof. apply (is_literal _ 0 2 1000000); [vm_compute; reflexivity|lia|vm_compute; reflexivity|vm_compute; reflexivity]. Qed.

Section Pars.
Context (fn me : f64) (n M : R).
Hypothesis Hn : is fn n.
Hypothesis Rn : 1 <= n <= 1048576.
Hypothesis Hme : is me M.
Hypothesis RM : 1 <= M <= 2097152.
(** ** cs *)
Lemma cs_range : exists v, is (fdiv (fadd me (fofZ 2)) (fadd (fadd fn me) (fofZ 3))) v /\ / 10000000 <= v <= 1 - / 10000000.
Proof.
  pose proof (is_add _ _ _ _ Hme is_two ltac:(apply in_top; lra)) as H1. pose proof (rel (M + 2) ltac:(lra)) as B1. set (a := rnd (M + 2)) in *. clearbody a.
  pose proof (is_add _ _ _ _ Hn Hme ltac:(apply in_top; lra)) as H2. pose proof (rel (n + M) ltac:(lra)) as B2. set (b := rnd (n + M)) in *. clearbody b.
  assert (H3 : is (fofZ 3) 3) by (apply is_ofZ; cbn; lia). pose proof (is_add _ _ _ _ H2 H3 ltac:(apply in_top; lra)) as H4. pose proof (rel (b + 3) ltac:(lra)) as B4. set (c := rnd (b + 3)) in *. clearbody c.
  assert (Q : / 9000000 <= a / c <= 1 - / 9000000) by (apply quotient; lra).
  pose proof (is_div _ _ _ _ H1 H4 ltac:(lra) ltac:(apply in_top; lra)) as H5. eexists. split; [exact H5|]. pose proof (rel (a / c) ltac:(lra)). lra.
Qed.
(** ** ccumcov *)
Lemma ccumcov_range fn4 : is fn4 (n + 4) -> exists v, is (fdiv (fofZ 4) fn4) v /\ / 10000000 <= v <= 9 / 10.
Proof.
  intros H1. assert (H4 : is (fofZ 4) 4) by (apply is_ofZ; cbn; lia). assert (Q : / 1000000 <= 4 / (n + 4) <= 8 / 10) by (apply quotient; lra).
  pose proof (is_div _ _ _ _ H4 H1 ltac:(lra) ltac:(apply in_top; lra)) as H5. eexists. split; [exact H5|]. pose proof (rel (4 / (n + 4)) ltac:(lra)). lra.
Qed.
(** ** ccov *)
Definition inv_m := fdiv (fofZ 1) me.
Definition one_minus := fsub (fofZ 1) inv_m.
Lemma inv_m_range : exists i o, is inv_m i /\ is one_minus o /\ / 2200000 <= i <= 1 /\ 0 <= o <= 1 /\ Rabs (o - (1 - i)) <= / 1000000000000000.
Proof.
  assert (Q : / 2097152 <= 1 / M <= 1) by (apply quotient; lra). pose proof (is_div _ _ _ _ is_one Hme ltac:(lra) ltac:(apply in_top; lra)) as H1. pose proof (rel (1 / M) ltac:(lra)) as B1. pose proof (rnd_le_one (1 / M) ltac:(lra)) as B2.
  set (i := rnd (1 / M)) in *. clearbody i. pose proof (is_sub _ _ _ _ is_one H1 ltac:(apply in_top; lra)) as H2. exists i, (rnd (1 - i)). split; [exact H1|]. split; [exact H2|]. split; [lra|].
  split; [split; [apply rnd_nn; lra|apply rnd_le_one; lra]|]. eapply Rle_trans; [apply rnd_err|]. rewrite Rabs_pos_eq by lra. pose proof eta_small. unfold u53. lra.
Qed.
Definition t1 := fdiv (fofZ 2) (fmul (fadd fn (flit 14142 (-4))) (fadd fn (flit 14142 (-4)))).
Lemma t1_range : exists v, is t1 v /\ / 10000000000000 <= v <= 4 / 10.
Proof.
  destruct lit_14142 as (l & Hl & Rl). unfold t1. generalize dependent (flit 14142 (-4)). intros f Hl. pose proof (is_add _ _ _ _ Hn Hl ltac:(apply in_top; lra)) as H1. pose proof (rel (n + l) ltac:(lra)) as B1. set (a := rnd (n + l)) in *. clearbody a.
  pose proof (product a a (239 / 100) 1048579 (239 / 100) 1048579 ltac:(lra) ltac:(lra) ltac:(lra) ltac:(lra)) as P. pose proof (is_mul _ _ _ _ H1 H1 ltac:(apply in_top; lra)) as H2. pose proof (rel (a * a) ltac:(lra)) as B2. set (p := rnd (a * a)) in *. clearbody p.
  assert (Q : / 1000000000000 <= 2 / p <= 36 / 100) by (apply quotient; lra). pose proof (is_div _ _ _ _ is_two H2 ltac:(lra) ltac:(apply in_top; lra)) as H5. eexists. split; [exact H5|]. pose proof (rel (2 / p) ltac:(lra)). lra.
Qed.
Definition t2 := fdiv (fsub (fmul (fofZ 2) me) (fofZ 1)) (fadd (fmul (fadd fn (fofZ 2)) (fadd fn (fofZ 2))) me).
Lemma t2_range : exists v, is (if flt (fofZ 1) t2 then fofZ 1 else t2) v /\ / 10000000000000 <= v <= 1.
Proof.
  assert (T : exists v, is t2 v /\ / 10000000000000 <= v).
  { unfold t2. pose proof (is_mul _ _ _ _ is_two Hme ltac:(apply in_top; lra)) as H1. pose proof (rel (2 * M) ltac:(lra)) as B1. set (a := rnd (2 * M)) in *. clearbody a. pose proof (is_sub _ _ _ _ H1 is_one ltac:(apply in_top; lra)) as H2. pose proof (rel (a - 1) ltac:(lra)) as B2. set (b := rnd (a - 1)) in *. clearbody b.
    pose proof (is_add _ _ _ _ Hn is_two ltac:(apply in_top; lra)) as H3. pose proof (rel (n + 2) ltac:(lra)) as B3. set (c := rnd (n + 2)) in *. clearbody c.
    pose proof (product c c 2 1048579 2 1048579 ltac:(lra) ltac:(lra) ltac:(lra) ltac:(lra)) as P. pose proof (is_mul _ _ _ _ H3 H3 ltac:(apply in_top; lra)) as H4. pose proof (rel (c * c) ltac:(lra)) as B4. set (p := rnd (c * c)) in *. clearbody p.
    pose proof (is_add _ _ _ _ H4 Hme ltac:(apply in_top; lra)) as H5. pose proof (rel (p + M) ltac:(lra)) as B5. set (d := rnd (p + M)) in *. clearbody d.
    assert (Q : / 5000000000000 <= b / d <= 10000000) by (apply quotient; lra). pose proof (is_div _ _ _ _ H2 H5 ltac:(lra) ltac:(apply in_top; lra)) as H6. eexists. split; [exact H6|]. pose proof (rel (b / d) ltac:(lra)). lra. }
  destruct T as (v & Hv & Rv). destruct (flt (fofZ 1) t2) eqn:E; [exists 1; split; [exact is_one|lra]|]. exists v. split; [exact Hv|]. apply (is_lt_false _ _ _ _ is_one Hv) in E. lra.
Qed.
Definition ccov_of t := fadd (fmul inv_m t1) (fmul one_minus t).
Lemma ccov_range t T : is t T -> / 10000000000000 <= T <= 1 -> exists v, is (ccov_of t) v /\ / 100000000000000000000000 <= v <= 1 - / 10000000.
Proof.
  intros Ht RT. destruct inv_m_range as (i & o & Hi & Ho & Ri & Ro & D). destruct t1_range as (t' & Ht' & Rt'). unfold ccov_of. apply Rabs_le_inv in D.
  pose proof (is_mul _ _ _ _ Hi Ht') as H1. assert (P1 : / 2200000 * / 10000000000000 <= i * t' <= i * (4 / 10)). { split; [apply Rmult_le_compat; lra|apply Rmult_le_compat_l; lra]. } specialize (H1 ltac:(apply in_top; lra)). pose proof (rel (i * t') ltac:(lra)) as B1. set (p := rnd (i * t')) in *. clearbody p.
  pose proof (is_mul _ _ _ _ Ho Ht) as H2. assert (P2 : 0 <= o * T <= o). { split; [apply Rmult_le_pos; lra|]. rewrite <- (Rmult_1_r o) at 2. apply Rmult_le_compat_l; lra. } specialize (H2 ltac:(apply in_top; lra)).
  assert (B2 : 0 <= rnd (o * T) <= o). { split; [apply rnd_nn; lra|]. rewrite <- (rnd_id o (is_fmt _ _ Ho)) at 2. apply rnd_mono. lra. } set (q := rnd (o * T)) in *. clearbody q.
  pose proof (is_add _ _ _ _ H1 H2 ltac:(apply in_top; lra)) as H3. eexists. split; [exact H3|]. pose proof (rel (p + q) ltac:(lra)). lra.
Qed.
(** ** The learning rates *)
Lemma rates cc c : is cc c -> / 100000000000000000000000 <= c <= 1 - / 10000000 ->
  let a := fmul (fmul cc inv_m) (fofZ 1) in let c1 := if flt (fofZ 1) a then fofZ 1 else a in
  let b := fmul (fmul cc one_minus) (fofZ 1) in let c2 := if flt (fsub (fofZ 1) c1) b then fsub (fofZ 1) c1 else b in
  exists v w, is c1 v /\ is c2 w /\ 0 < v < 1 /\ 0 <= w < 1 /\ v + w < 1 /\ Rabs (v + w - c) <= / 100000000000000.
Proof.
  intros Hc Rc a c1 b c2. destruct inv_m_range as (i & o & Hi & Ho & Ri & Ro & D). apply Rabs_le_inv in D.
  assert (P1 : / 100000000000000000000000 * / 2200000 <= c * i <= c). { split; [apply Rmult_le_compat; lra|]. rewrite <- (Rmult_1_r c) at 2. apply Rmult_le_compat_l; lra. }
  pose proof (is_mul _ _ _ _ Hc Hi ltac:(apply in_top; lra)) as H1. pose proof (rel (c * i) ltac:(lra)) as B1. pose proof (rnd_fmt (c * i)) as F1.
  assert (P2 : 0 <= c * o <= c). { split; [apply Rmult_le_pos; lra|]. rewrite <- (Rmult_1_r c) at 2. apply Rmult_le_compat_l; lra. }
  pose proof (is_mul _ _ _ _ Hc Ho ltac:(apply in_top; lra)) as H2. pose proof (rnd_err (c * o)) as B2. pose proof (rnd_nn (c * o) (proj1 P2)) as N2. pose proof (rnd_fmt (c * o)) as F2. rewrite (Rabs_pos_eq (c * o)) in B2 by lra. pose proof eta_small as ES. apply Rabs_le_inv in B2.
  assert (CO : c - c * i - / 1000000000000000 <= c * o <= c - c * i + / 1000000000000000). { assert (X1 : c * o <= c * (1 - i + / 1000000000000000)) by (apply Rmult_le_compat_l; lra). assert (X2 : c * (1 - i - / 1000000000000000) <= c * o) by (apply Rmult_le_compat_l; lra). lra. }
  set (v := rnd (c * i)) in *. assert (HA : is a v). { unfold a. pose proof (is_mul _ _ _ _ H1 is_one) as H. rewrite Rmult_1_r, (rnd_id v F1) in H. apply H. apply in_top. lra. }
  assert (HC1 : is c1 v). { unfold c1. replace (flt (fofZ 1) a) with false; [exact HA|]. symmetry. apply (is_lt_false _ _ _ _ is_one HA). lra. }
  assert (HB : is b (rnd (c * o))). { unfold b. pose proof (is_mul _ _ _ _ H2 is_one) as H. rewrite Rmult_1_r, (rnd_id _ F2) in H. apply H. apply in_top. unfold u53 in *. lra. }
  assert (HC2 : is c2 (rnd (c * o))). { unfold c2. pose proof (is_sub _ _ _ _ is_one HC1 ltac:(apply in_top; lra)) as H. replace (flt (fsub (fofZ 1) c1) b) with false; [exact HB|]. symmetry. apply (is_lt_false _ _ _ _ H HB). apply rnd_mono. lra. }
  exists v, (rnd (c * o)). split; [exact HC1|]. split; [exact HC2|]. unfold u53 in *. split; [lra|]. split; [lra|]. split; [lra|]. apply Rabs_le. lra.
Qed.
(** ** The step size damping *)
Definition max_evals fn3 := fmul (fmul (fofZ 900) fn3) fn3.
Definition iterations (cceil : f64 -> f64) fn3 fl := let q := fdiv (max_evals fn3) fl in let m := cceil q in if flt q m then q else m.
Lemma iterations_range cceil fn3 fl l : exact_ceil cceil -> is fn3 (n + 3) -> is fl l -> 2 <= l <= 2097152 -> exists v, is (iterations cceil fn3 fl) v /\ / 1000 <= v <= 1000000000000000.
Proof.
  intros HC H3 Hl Rl. unfold iterations, max_evals. assert (H9 : is (fofZ 900) 900) by (apply is_ofZ; cbn; lia). pose proof (is_mul _ _ _ _ H9 H3 ltac:(apply in_top; lra)) as H1. pose proof (rel (900 * (n + 3)) ltac:(lra)) as B1. set (a := rnd (900 * (n + 3))) in *. clearbody a.
  pose proof (product a (n + 3) 3500 944000000 4 1048579 ltac:(lra) ltac:(lra) ltac:(lra) ltac:(lra)) as P. pose proof (is_mul _ _ _ _ H1 H3 ltac:(apply in_top; lra)) as H2. pose proof (rel (a * (n + 3)) ltac:(lra)) as B2. set (b := rnd (a * (n + 3))) in *. clearbody b.
  assert (Q : / 300 <= b / l <= 900000000000000) by (apply quotient; lra). pose proof (is_div _ _ _ _ H2 Hl ltac:(lra) ltac:(apply in_top; lra)) as H4. pose proof (rel (b / l) ltac:(lra)) as B4. set (q := rnd (b / l)) in *. clearbody q.
  set (fq := fdiv (fmul (fmul (fofZ 900) fn3) fn3) fl) in *. clearbody fq. exists q. split; [|lra]. destruct H4 as [F4 E4]. destruct (HC fq F4 ltac:(lra)) as [FC EC]. rewrite E4 in EC. pose proof (Zceil_ub q) as U. destruct (flt fq (cceil fq)) eqn:E; [split; assumption|].
  apply (is_lt_false _ _ q (IZR (Zceil q)) (conj F4 E4) (conj FC EC)) in E. split; [exact FC|]. rewrite EC. lra.
Qed.
Lemma shrink_range fi v : is fi v -> / 1000 <= v <= 1000000000000000 ->
  let x := fsub (fofZ 1) (fdiv fn (fadd (flit 1 (-6)) fi)) in exists w, is (if flt (flit 3 (-1)) x then x else flit 3 (-1)) w /\ 29 / 100 <= w <= 1.
Proof.
  intros Hi Ri x. destruct lit_6 as (l & Hl & Rl). destruct lit_3 as (l3 & Hl3 & Rl3). unfold x. clear x. generalize dependent (flit 1 (-6)). intros f6 Hl. generalize dependent (flit 3 (-1)). intros f3 Hl3.
  pose proof (is_add _ _ _ _ Hl Hi ltac:(apply in_top; lra)) as H1. pose proof (rel (l + v) ltac:(lra)) as B1. set (a := rnd (l + v)) in *. clearbody a.
  assert (Q : / 1100000000000000 <= n / a <= 2000000000) by (apply quotient; lra). pose proof (is_div _ _ _ _ Hn H1 ltac:(lra) ltac:(apply in_top; lra)) as H2. pose proof (rel (n / a) ltac:(lra)) as B2. set (b := rnd (n / a)) in *. clearbody b.
  pose proof (is_sub _ _ _ _ is_one H2 ltac:(apply in_top; lra)) as H3. pose proof (rnd_le_one (1 - b) ltac:(lra)) as B3. match goal with |- context [flt f3 ?y] => set (x := y) in * end. clearbody x.
  destruct (flt f3 x) eqn:E; [|exists l3; split; [exact Hl3|lra]]. apply (is_lt _ _ _ _ Hl3 H3) in E. eexists. split; [exact H3|]. lra.
Qed.
Lemma growth_range : let x := fsub (fsqrt (fdiv (fsub me (fofZ 1)) (fadd fn (fofZ 1)))) (fofZ 1) in
  exists v, is (fadd (fofZ 1) (fmul (fofZ 2) (if flt (fofZ 0) x then x else fofZ 0))) v /\ 1 <= v <= 5000.
Proof.
  intros x. pose proof (is_sub _ _ _ _ Hme is_one ltac:(apply in_top; lra)) as H1. pose proof (rnd_nn (M - 1) ltac:(lra)) as N1. assert (B1 : rnd (M - 1) <= M) by (rewrite <- (rnd_id M (is_fmt _ _ Hme)) at 2; apply rnd_mono; lra). set (a := rnd (M - 1)) in *. clearbody a.
  pose proof (is_add _ _ _ _ Hn is_one ltac:(apply in_top; lra)) as H2. pose proof (rel (n + 1) ltac:(lra)) as B2. set (b := rnd (n + 1)) in *. clearbody b.
  assert (Q : 0 <= a / b <= 2097152) by (apply quotient; lra). pose proof (is_div _ _ _ _ H1 H2 ltac:(lra) ltac:(apply in_top; lra)) as H3. pose proof (rnd_nn (a / b) ltac:(lra)) as N3.
  assert (B3 : rnd (a / b) <= 4194304). { rewrite <- (rnd_id 4194304 (is_fmt (fofZ 4194304) _ ltac:(apply is_ofZ; cbn; lia))). apply rnd_mono. lra. } set (c := rnd (a / b)) in *. clearbody c.
  pose proof (is_sqrt _ _ H3 N3) as H4. assert (S : 0 <= sqrt c <= 2048). { split; [apply sqrt_pos|]. rewrite <- (sqrt_square 2048) by lra. apply sqrt_le_1_alt. lra. }
  pose proof (rnd_nn (sqrt c) ltac:(lra)) as N4. assert (B4 : rnd (sqrt c) <= 2048). { rewrite <- (rnd_id 2048 (is_fmt (fofZ 2048) _ ltac:(apply is_ofZ; cbn; lia))). apply rnd_mono. lra. } set (d := rnd (sqrt c)) in *. clearbody d.
  pose proof (is_sub _ _ _ _ H4 is_one ltac:(apply in_top; lra)) as H5. fold x in H5. assert (B5 : rnd (d - 1) <= 2048). { rewrite <- (rnd_id 2048 (is_fmt (fofZ 2048) _ ltac:(apply is_ofZ; cbn; lia))). apply rnd_mono. lra. } set (e := rnd (d - 1)) in *. clearbody x e.
  assert (G : exists w, is (if flt (fofZ 0) x then x else fofZ 0) w /\ 0 <= w <= 2048). { destruct (flt (fofZ 0) x) eqn:E; [apply (is_lt _ _ _ _ is_zero H5) in E; exists e; split; [exact H5|lra]|exists 0; split; [exact is_zero|lra]]. }
  destruct G as (w & Hw & Rw). pose proof (is_mul _ _ _ _ is_two Hw ltac:(apply in_top; lra)) as H6. pose proof (rnd_nn (2 * w) ltac:(lra)) as N6. rewrite (rnd_id (2 * w)) in * by (apply fmt_double, (is_fmt _ _ Hw)).
  pose proof (is_add _ _ _ _ is_one H6 ltac:(apply in_top; lra)) as H7. eexists. split; [exact H7|]. split; [rewrite <- rnd_one at 1; apply rnd_mono; lra|]. pose proof (rel (1 + 2 * w) ltac:(lra)). lra.
Qed.
Lemma damps_range fg g fs s fc c : is fg g -> 1 <= g <= 5000 -> is fs s -> 29 / 100 <= s <= 1 -> is fc c -> / 10000000 <= c <= 1 - / 10000000 ->
  exists v, is (fadd (fmul fg fs) fc) v /\ / 4 <= v <= 5002 /\ c < v.
Proof.
  intros Hg Rg Hs Rs Hc Rc. pose proof (product g s 1 5000 (29 / 100) 1 ltac:(lra) ltac:(lra) Rg Rs) as P. pose proof (is_mul _ _ _ _ Hg Hs ltac:(apply in_top; lra)) as H1. pose proof (rel (g * s) ltac:(lra)) as B1. set (p := rnd (g * s)) in *. clearbody p.
  pose proof (is_add _ _ _ _ H1 Hc ltac:(apply in_top; lra)) as H2. eexists. split; [exact H2|]. pose proof (rel (p + c) ltac:(lra)). lra.
Qed.
(** ** The number of generations between eigenvalue computations *)
Lemma modulo_range cc c : is cc c -> / 100000000000000000000000 <= c <= 1 - / 10000000 -> exists v, is (fdiv (fdiv (fdiv (fofZ 1) cc) fn) (fofZ 10)) v /\ 0 < v.
Proof.
  intros Hc Rc. assert (Q1 : 1 <= 1 / c <= 100000000000000000000000) by (apply quotient; lra). pose proof (is_div _ _ _ _ is_one Hc ltac:(lra) ltac:(apply in_top; lra)) as H1. pose proof (rel (1 / c) ltac:(lra)) as B1. set (a := rnd (1 / c)) in *. clearbody a.
  assert (Q2 : / 2000000 <= a / n <= 200000000000000000000000) by (apply quotient; lra). pose proof (is_div _ _ _ _ H1 Hn ltac:(lra) ltac:(apply in_top; lra)) as H2. pose proof (rel (a / n) ltac:(lra)) as B2. set (b := rnd (a / n)) in *. clearbody b.
  assert (H10 : is (fofZ 10) 10) by (apply is_ofZ; cbn; lia). assert (Q3 : / 200000000 <= b / 10 <= 200000000000000000000000) by (apply quotient; lra). pose proof (is_div _ _ _ _ H2 H10 ltac:(lra) ltac:(apply in_top; lra)) as H3. eexists. split; [exact H3|]. pose proof (rel (b / 10) ltac:(lra)). lra.
Qed.
End Pars.
(** ** The population size *)
Lemma population L N ol : accurate_log L -> (1 <= N)%nat -> (Z.of_nat N <= 1048576)%Z ->
  exists lambda, (if (ol <? 2)%Z then let* k := to_int_F (fmul (fofZ 3) (lm_log L (fofZ (Z.of_nat N)))) in Ok (4 + k)%Z else Ok ol) = Ok lambda /\
    ((2 <= ol)%Z -> lambda = ol) /\ ((ol < 2)%Z -> (4 <= lambda <= 100)%Z /\ IZR lambda - / 1000000000 <= 4 + 3 * ln (INR N) < IZR lambda + 1 + / 1000000000).
Proof.
  intros HA H1 HN. destruct (Z.ltb_spec ol 2) as [Ho|Ho]; [|exists ol; split; [reflexivity|]; split; [auto|lia]].
  destruct (is_ofZ (Z.of_nat N) ltac:(lia)) as [FN EN]. destruct (HA _ (Z.of_nat N) ltac:(lia) FN EN) as [FL EL]. rewrite <- INR_IZR_INZ in EL.
  pose proof (is_self _ FL) as HL. set (v := B2R (lm_log L (fofZ (Z.of_nat N)))) in *. clearbody v. assert (RN : 1 <= INR N <= 1048576). { split; [apply (le_INR 1); exact H1|]. rewrite INR_IZR_INZ. apply IZR_le. exact HN. }
  pose proof (ln_up (INR N) ltac:(lra)) as LU. apply Rabs_le_inv in EL. assert (H3 : is (fofZ 3) 3) by (apply is_ofZ; cbn; lia). pose proof (is_mul _ _ _ _ H3 HL ltac:(apply in_top; lra)) as HM.
  pose proof (rnd_err (3 * v)) as RE. assert (A3 : Rabs (3 * v) <= 70) by (apply Rabs_le; lra). assert (A4 : u53 * Rabs (3 * v) <= u53 * 70) by (apply Rmult_le_compat_l; [unfold u53; lra|exact A3]). pose proof eta_small as ES. unfold u53 in *. apply Rabs_le_inv in RE. set (w := rnd (3 * v)) in *. clearbody w.
  assert (W : exists k, Ztrunc w = k /\ (0 <= k <= 90)%Z /\ IZR k - / 10000000000 <= w < IZR k + 1).
  { destruct (Rle_or_lt 0 w) as [P|P].
    - exists (Zfloor w). rewrite Ztrunc_floor by exact P. split; [reflexivity|]. pose proof (Zfloor_lb w) as Q1. pose proof (Zfloor_ub w) as Q2. split; [|lra]. split; [apply Zfloor_lub; exact P|]. apply le_IZR. apply Rle_trans with w; [exact Q1|]. lra.
    - exists 0%Z. rewrite Ztrunc_ceil by lra. split; [apply Zceil_imp; cbn; lra|]. split; [lia|]. lra. }
  destruct W as (k & EK & RK & WK). exists (4 + k)%Z. split; [|split; [lia|]].
  - unfold to_int_F. rewrite (f_trunc_value _ w HM), EK. replace (fits_int k) with true; [reflexivity|]. unfold fits_int. symmetry. apply andb_true_intro. split; apply Z.leb_le; lia.
  - intros _. split; [lia|]. rewrite plus_IZR. lra.
Qed.

(** ** Theorem *)
(** [double x] : [x] is a number, of value [B2R x]. *)
Notation double x := (is_finite (x : f64) = true).
Theorem C42_parameters_doubles : forall L cceil N option_lambda (option_modulo : f64), accurate_log L -> exact_ceil cceil ->
  (1 <= N)%nat -> (Z.of_nat N <= 1048576)%Z -> (option_lambda <= 2097152)%Z ->
  exists P, @supplement_defaults (numF L) cceil to_int_F N option_lambda option_modulo = Ok P /\
  p_N P = N /\ (2 <= p_lambda P)%nat /\ (1 <= p_mu P < p_lambda P)%nat /\ p_mu P = Nat.div (p_lambda P) 2 /\
  ((2 <= option_lambda)%Z -> Z.of_nat (p_lambda P) = option_lambda) /\
  ((option_lambda < 2)%Z -> (4 <= p_lambda P)%nat /\ INR (p_lambda P) - / 1000000000 <= 4 + 3 * ln (INR N) < INR (p_lambda P) + 1 + / 1000000000) /\
  (p_weights P, p_mueff P) = @set_weights (numF L) (p_mu P) /\ p_mucov P = p_mueff P /\
  (double (p_cs P) /\ 0 < B2R (p_cs P) < 1) /\ (double (p_ccumcov P) /\ 0 < B2R (p_ccumcov P) < 1) /\ (double (p_ccov P) /\ 0 < B2R (p_ccov P) < 1) /\
  (double (p_damps P) /\ / 4 <= B2R (p_damps P) <= 5002 /\ B2R (p_cs P) < B2R (p_damps P)) /\
  (let c1 : f64 := @ccov1 (numF L) P false in let cmu : f64 := @ccovmu (numF L) P false in
     double c1 /\ double cmu /\ 0 < B2R c1 /\ 0 <= B2R cmu /\ B2R c1 + B2R cmu < 1 /\ Rabs (B2R c1 + B2R cmu - B2R (p_ccov P)) <= / 100000000000000) /\
  (flt option_modulo (fofZ 0) = true -> double (p_modulo P) /\ 0 < B2R (p_modulo P)) /\
  (flt option_modulo (fofZ 0) = false -> p_modulo P = option_modulo).
Proof.
  intros L cceil N ol om HA HC H1 HN Hol. destruct (population L N ol HA H1 HN) as (lambda & EL & L3 & L4).
  assert (RL : (2 <= lambda <= 2097152)%Z). { destruct (Z.ltb_spec ol 2) as [Ho|Ho]; [destruct (L4 Ho) as [? _]; lia|rewrite L3 by exact Ho; lia]. }
  unfold supplement_defaults. change (@nmul (numF L) (nofZ 3) (nlog (of_nat N))) with (fmul (fofZ 3) (lm_log L (fofZ (Z.of_nat N)))). rewrite EL. cbn [obind]. clear EL.
  rewrite Z.quot_div_nonneg by lia. assert (HM : (1 <= lambda / 2 < lambda)%Z) by (split; [apply Z.div_le_lower_bound; lia|apply Z.div_lt_upper_bound; lia]). assert (HM2 : (lambda / 2 <= 1048576)%Z) by (apply Z.div_le_upper_bound; lia).
  destruct (Z.ltb_spec (lambda / 2) 0); [lia|]. set (mu := Z.to_nat (lambda / 2)). assert (Hmu : (1 <= mu)%nat) by lia.
  assert (EMu : Z.of_nat mu = (lambda / 2)%Z) by (unfold mu; lia). pose proof (C41_weights_doubles L mu HA Hmu ltac:(lia)) as HW. cbv zeta in HW.
  destruct (@set_weights (numF L) mu) as [w me] eqn:EW. cbn [fst snd] in HW. destruct HW as (_ & _ & _ & _ & FM & RM & _). change (nT (numF L)) with f64 in me.
  rewrite EMu. destruct (Nat.ltb_spec mu 1); [lia|]. destruct (Z.ltb_spec lambda (lambda / 2)); [lia|]. destruct (Z.eqb_spec (lambda / 2) lambda) as [?|NE]; [lia|]. cbn [orb andb].
  eexists. split; [reflexivity|]. cbn [p_N p_lambda p_mu p_weights p_mueff p_mucov p_cs p_ccumcov p_ccov p_damps p_modulo].
  split; [reflexivity|]. split; [lia|]. split; [unfold mu; lia|]. split; [unfold mu; rewrite Z2Nat.inj_div by lia; reflexivity|].
  split; [intros Ho; specialize (L3 Ho); lia|]. split.
  { intros Ho. destruct (L4 Ho) as [A B]. split; [lia|]. rewrite (INR_IZR_INZ (Z.to_nat lambda)), Z2Nat.id by lia. exact B. }
  split; [symmetry; exact EW|]. split; [reflexivity|]. clear EW L3 L4.
  unfold ccov1, ccovmu. cbn [p_N p_lambda p_mu p_weights p_mueff p_mucov p_cs p_ccumcov p_ccov p_damps p_modulo].
  unfold std_min, std_max, of_nat. change (@nadd (numF L)) with fadd. change (@nsub (numF L)) with fsub. change (@nmul (numF L)) with fmul. change (@ndiv (numF L)) with fdiv. change (@nofZ (numF L)) with fofZ.
  change (@nsqrt (numF L)) with fsqrt. change (@nlt (numF L)) with flt. change (@ndec (numF L)) with flit.
  assert (RN : 1 <= INR N <= 1048576). { split; [apply (le_INR 1); exact H1|]. rewrite INR_IZR_INZ. apply IZR_le. exact HN. }
  pose proof (is_ofZ (Z.of_nat N) ltac:(lia)) as IN. rewrite <- INR_IZR_INZ in IN. set (n := INR N) in *.
  assert (I4 : is (fofZ (Z.of_nat N + 4)) (n + 4)). { unfold n. rewrite INR_IZR_INZ, <- plus_IZR. apply is_ofZ. lia. }
  assert (I3 : is (fofZ (Z.of_nat N + 3)) (n + 3)). { unfold n. rewrite INR_IZR_INZ, <- plus_IZR. apply is_ofZ. lia. }
  assert (IL : is (fofZ lambda) (IZR lambda)) by (apply is_ofZ; lia). assert (RL' : 2 <= IZR lambda <= 2097152) by (split; apply IZR_le; lia).
  clearbody n. clear H1 HN. set (fn := fofZ (Z.of_nat N)) in *. clearbody fn. set (fn4 := fofZ (Z.of_nat N + 4)) in *. clearbody fn4. set (fn3 := fofZ (Z.of_nat N + 3)) in *. clearbody fn3. set (fl := fofZ lambda) in *. clearbody fl.
  assert (RM' : 1 <= B2R me <= 2097152).
  { split; [exact (proj1 RM)|]. eapply Rle_trans; [exact (proj2 RM)|]. assert (MU : INR mu <= 1048576) by (rewrite INR_IZR_INZ; apply IZR_le; lia). pose proof (pos_INR mu).
    assert (B48 : bpow radix2 (-48) <= / 281474976710656) by (cbn; lra). pose proof (bpow_gt_0 radix2 (-48)). assert (INR mu * bpow radix2 (-48) <= 1). { apply Rle_trans with (1048576 * / 281474976710656); [apply Rmult_le_compat; lra|lra]. }
    assert (0 <= INR mu * bpow radix2 (-48)) by (apply Rmult_le_pos; lra). apply Rle_trans with (1048576 * 2); [apply Rmult_le_compat; lra|lra]. }
  pose proof (is_self me FM) as HMe. set (M := B2R me) in *. clearbody M. clear RM.
  destruct (cs_range fn me n M IN RN HMe RM') as (cs & Hcs & Rcs). destruct (ccumcov_range n RN fn4 I4) as (cum & Hcum & Rcum).
  destruct (t2_range fn me n M IN RN HMe RM') as (T & HT & RT). destruct (ccov_range fn me n M IN RN HMe RM' _ T HT RT) as (cc & Hcc & Rcc).
  pose proof (rates me M HMe RM' _ cc Hcc Rcc) as RR. cbv zeta in RR. destruct RR as (v & w' & Hv & Hw & R1 & R2 & R3 & R4).
  destruct (iterations_range n RN cceil fn3 fl (IZR lambda) HC I3 IL RL') as (it & Hit & Rit).
  pose proof (shrink_range fn n IN RN _ it Hit Rit) as SH. cbv zeta in SH. destruct SH as (s & Hs & Rs). pose proof (growth_range fn me n M IN RN HMe RM') as GR. cbv zeta in GR. destruct GR as (g & Hg & Rg).
  destruct (damps_range _ g _ s _ cs Hg Rg Hs Rs Hcs Rcs) as (d & Hd & Rd & Rd2). destruct (modulo_range fn n IN RN _ cc Hcc Rcc) as (mo & Hmo & Rmo).
  assert (is_in : forall (x : f64) v (Q : R -> Prop), is x v -> Q v -> double x /\ Q (B2R x)) by (clear; intros x v Q [F E] H; rewrite E; auto).
  split; [apply (is_in _ cs (fun v => 0 < v < 1) Hcs); lra|]. split; [apply (is_in _ cum (fun v => 0 < v < 1) Hcum); lra|]. split; [apply (is_in _ cc (fun v => 0 < v < 1) Hcc); lra|].
  split; [apply (is_in _ d (fun v => / 4 <= v <= 5002 /\ B2R (fdiv (fadd me (fofZ 2)) (fadd (fadd fn me) (fofZ 3))) < v) Hd); split; [exact Rd|]; destruct Hcs as [_ E]; rewrite E; exact Rd2|].
  split.
  { cut (forall (c1 cmu ct : f64), is c1 v -> is cmu w' -> is ct cc -> double c1 /\ double cmu /\ 0 < B2R c1 /\ 0 <= B2R cmu /\ B2R c1 + B2R cmu < 1 /\ Rabs (B2R c1 + B2R cmu - B2R ct) <= / 100000000000000).
    - intros C. exact (C _ _ _ Hv Hw Hcc).
    - intros c1 cmu ct [F1 E1] [F2 E2] [_ E3]. rewrite E1, E2, E3. split; [exact F1|]. split; [exact F2|]. split; [lra|]. split; [lra|]. split; [exact R3|exact R4]. }
  split.
  - intros Ho. rewrite Ho. exact (is_in _ mo (fun v => 0 < v) Hmo Rmo).
  - intros Ho. rewrite Ho. reflexivity.
Qed.
(** Construction therefore never fails for any other reason than equal bounds. *)
Theorem C42_creation_doubles : forall L info label opt device clock, accurate_log (cl_libm L) -> exact_ceil (cl_ceil L) ->
  (1 <= oi_dim info)%nat -> (Z.of_nat (oi_dim info) <= 1048576)%Z -> (co_lambda opt <= 2097152)%Z ->
  ((exists P st, cma_create L info label opt device clock = Ok (P, st)) <-> Forall (fun p => feq (pi_min p) (pi_max p) = false) (oi_free info)).
Proof.
  intros L info label opt device clock HA HC H1 H2 H3. destruct (C42_parameters_doubles _ _ _ _ (co_modulo opt) HA HC H1 H2 H3) as (P & HP & _).
  pose proof (C42_equal_bounds_rejected L info label opt device clock P HP) as E. split.
  - intros (P' & st & H). apply E. assert (EP : P' = P); [|subst P'; exists st; exact H]. unfold cma_create in H. rewrite HP in H. cbn [obind] in H. destruct (cma_bounds_init _ _ _); cbn [obind] in H; try discriminate H. injection H as EP _. symmetry. exact EP.
  - intros H. apply E in H as [st H]. exists P, st. exact H.
Qed.
(** There are such functions. *)
Lemma C42_doubles_nonvacuous : accurate_log rounded_log /\ exact_ceil (fun x => fofZ (Zceil (B2R x))).
Proof.
  split; [exact C41_doubles_nonvacuous|]. intros x _ Hx. apply is_ofZ.
  assert (H0 : (0 <= Zceil (B2R x))%Z). { apply le_IZR. apply Rle_trans with (B2R x); [cbn; lra|apply Zceil_ub]. }
  assert (H1 : (Zceil (B2R x) <= 9007199254740992)%Z) by (apply Zceil_glb; lra). change (2 ^ 53)%Z with 9007199254740992%Z. lia.
Qed.
