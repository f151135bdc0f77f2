(** * CMA: weights (C41), strategy parameters (C42), ranking (C43), protocol (C45). *)
From Coq Require Import ZArith Bool Lia Reals Lra Permutation Sorted.
From Flocq Require Import Core.
From Verif Require Import Prelude Flt FltFacts Round8 Num MathTools Cma CmaFacts.
#[local] Open Scope R_scope.

(** ** Sums over the reals *)
(** sum_ at the type of real numbers *)
Definition rsum (n : nat) (f : nat -> R) : R := @sum_ numR n f.
Definition rat (l : list R) (i : nat) : R := nth i l 0.
Lemma sum_S (n : nat) (f : nat -> R) : rsum (S n) f = rsum n f + f n.
Proof. unfold rsum, sum_. rewrite seq_S, fold_left_app. reflexivity. Qed.
Lemma sum_0 (f : nat -> R) : rsum 0 f = 0. Proof. reflexivity. Qed.
Lemma sum_pos n (f : nat -> R) : (1 <= n)%nat -> (forall i, (i < n)%nat -> 0 < f i) -> 0 < rsum n f.
Proof.
  induction n as [|n IH]; intros Hn H; [lia|]. rewrite sum_S. destruct n as [|n]; [rewrite sum_0; specialize (H 0%nat ltac:(lia)); lra|].
  specialize (IH ltac:(lia) ltac:(intros; apply H; lia)). specialize (H (S n) ltac:(lia)). lra.
Qed.
Lemma sum_nonneg n (f : nat -> R) : (forall i, (i < n)%nat -> 0 <= f i) -> 0 <= rsum n f.
Proof. induction n as [|n IH]; intros H; [rewrite sum_0; lra|]. rewrite sum_S. specialize (IH ltac:(intros; apply H; lia)). specialize (H n ltac:(lia)). lra. Qed.
Lemma sum_scal n (c : R) (f : nat -> R) : rsum n (fun i => c * f i) = c * rsum n f.
Proof. induction n as [|n IH]; [rewrite !sum_0; ring|]. rewrite !sum_S, IH. ring. Qed.
Lemma sum_plus n (f g : nat -> R) : rsum n (fun i => f i + g i) = rsum n f + rsum n g.
Proof. induction n as [|n IH]; [rewrite !sum_0; ring|]. rewrite !sum_S, IH. ring. Qed.
Lemma sum_ext_R n (f g : nat -> R) : (forall i, (i < n)%nat -> f i = g i) -> rsum n f = rsum n g.
Proof. apply (@sum_ext numR). Qed.
Lemma sum_le n (f g : nat -> R) : (forall i, (i < n)%nat -> f i <= g i) -> rsum n f <= rsum n g.
Proof. induction n as [|n IH]; intros H; [rewrite !sum_0; lra|]. rewrite !sum_S. specialize (IH ltac:(intros; apply H; lia)). specialize (H n ltac:(lia)). lra. Qed.
Lemma sum_const n (c : R) : rsum n (fun _ => c) = INR n * c.
Proof. induction n as [|n IH]; [rewrite sum_0; cbn; ring|]. rewrite sum_S, IH, S_INR. ring. Qed.
(** Cauchy-Schwarz with ones, and its counterpart for non-negative terms. *)
Lemma sum_square_le n (f : nat -> R) : rsum n f * rsum n f <= INR n * rsum n (fun i => f i * f i).
Proof.
  set (S1 := rsum n f). set (S2 := rsum n (fun i => f i * f i)).
  destruct n as [|n]; [unfold S1, S2; rewrite !sum_0; cbn; lra|]. assert (HN : 0 < INR (S n)) by (apply lt_0_INR; lia).
  set (m := S1 / INR (S n)). assert (H : 0 <= rsum (S n) (fun i => (f i - m) * (f i - m))) by (apply sum_nonneg; intros; apply Rle_0_sqr).
  assert (E : rsum (S n) (fun i => (f i - m) * (f i - m)) = S2 - 2 * m * S1 + INR (S n) * (m * m)).
  { unfold S2, S1. rewrite <- sum_scal, <- (sum_const (S n) (m * m)). replace (rsum (S n) (fun i => f i * f i) - rsum (S n) (fun i => 2 * m * f i)) with (rsum (S n) (fun i => f i * f i) + -1 * rsum (S n) (fun i => 2 * m * f i)) by ring.
    rewrite <- sum_scal, <- !sum_plus. apply sum_ext_R. intros. ring. }
  rewrite E in H. assert (Em : INR (S n) * m = S1) by (unfold m; field; lra). assert (H2 : 0 <= INR (S n) * (S2 - 2 * m * S1 + INR (S n) * (m * m))) by (apply Rmult_le_pos; lra).
  replace (INR (S n) * (S2 - 2 * m * S1 + INR (S n) * (m * m))) with (INR (S n) * S2 - 2 * (INR (S n) * m) * S1 + (INR (S n) * m) * (INR (S n) * m)) in H2 by ring. rewrite Em in H2. lra.
Qed.
Lemma sum_square_ge n (f : nat -> R) : (forall i, (i < n)%nat -> 0 <= f i) -> rsum n (fun i => f i * f i) <= rsum n f * rsum n f.
Proof.
  induction n as [|n IH]; intros H; [rewrite !sum_0; lra|]. rewrite !sum_S. specialize (IH ltac:(intros; apply H; lia)). pose proof (H n ltac:(lia)) as Hn.
  pose proof (sum_nonneg n f ltac:(intros; apply H; lia)) as HS. nra.
Qed.
Lemma sum_as_fold n (l : list R) : length l = n -> rsum n (fun i => rat l i) = fold_right Rplus 0 l.
Proof.
  revert l. induction n as [|n IH]; intros l Hl; [destruct l; [reflexivity|discriminate]|]. destruct (exists_last (l := l)) as (l' & x & ->); [destruct l; discriminate|].
  rewrite app_length in Hl. cbn in Hl. rewrite sum_S. rewrite (sum_ext_R n _ (fun i => rat l' i)).
  - rewrite IH by lia. rewrite fold_right_app. cbn [fold_right]. unfold rat. rewrite app_nth2 by lia. replace (n - length l')%nat with 0%nat by lia. cbn [nth].
    rewrite Rplus_0_r. clear. induction l' as [|y l IH]; cbn [fold_right]; [ring|]. rewrite <- IH. ring.
  - intros i Hi. unfold rat. apply app_nth1. lia.
Qed.

(** ** C41 *)
Lemma raw_weight_R mu i : (i < mu)%nat -> rat (@raw_weights numR mu) i = ln (INR mu + 1) - ln (INR i + 1).
Proof. intros H. change rat with (@at_ numR). unfold raw_weights. rewrite (@at_build numR) by exact H. rewrite !INR_IZR_INZ. reflexivity. Qed.
Lemma raw_weight_pos mu i : (i < mu)%nat -> 0 < ln (INR mu + 1) - ln (INR i + 1).
Proof. intros H. apply lt_INR in H. pose proof (pos_INR i). assert (ln (INR i + 1) < ln (INR mu + 1)) by (apply ln_increasing; lra). lra. Qed.
(** The weights used are ln(mu+1) - ln(i+1), divided by their sum. *)
Theorem C41_weights : forall mu, (1 <= mu)%nat -> let '(w, mueff) := @set_weights numR mu in
  length w = mu /\
  (forall i x, nth_error w i = Some x -> 0 < x) /\
  (forall i j x y, (i < j)%nat -> nth_error w i = Some x -> nth_error w j = Some y -> y < x) /\
  fold_right Rplus 0 w = 1 /\
  (exists c, 0 < c /\ forall i x, nth_error w i = Some x -> x = c * ln ((INR mu + 1) / (INR i + 1))) /\
  1 <= mueff <= INR mu /\ mueff * fold_right Rplus 0 (map (fun x => x * x) w) = 1.
Proof.
  intros mu Hmu. pose (w := @raw_weights numR mu : list R). pose (s1 := rsum mu (fun i => rat w i)). pose (s2 := rsum mu (fun i => rat w i * rat w i)).
  change (@set_weights numR mu) with (map (fun x : R => x / s1) w, s1 * s1 / s2). cbv beta iota.
  assert (Lw : length w = mu) by apply build_length.
  assert (HW : forall i, (i < mu)%nat -> rat w i = ln (INR mu + 1) - ln (INR i + 1)) by (intros; now apply raw_weight_R).
  assert (PW : forall i, (i < mu)%nat -> 0 < rat w i) by (intros i Hi; rewrite HW by exact Hi; now apply raw_weight_pos).
  assert (E1 : s1 = rsum mu (fun i => rat w i)) by reflexivity. assert (E2 : s2 = rsum mu (fun i => rat w i * rat w i)) by reflexivity. clearbody s1 s2. clearbody w.
  assert (P1 : 0 < s1) by (rewrite E1; apply sum_pos; auto). assert (P2 : 0 < s2) by (rewrite E2; apply sum_pos; auto; intros i Hi; apply Rmult_lt_0_compat; auto).
  assert (HI : forall i x, nth_error (map (fun x => x / s1) w) i = Some x -> (i < mu)%nat /\ x = rat w i / s1).
  { intros i x H. rewrite nth_error_map in H. destruct (nth_error w i) as [y|] eqn:E; [|discriminate]. injection H as <-. split; [rewrite <- Lw; apply nth_error_Some; congruence|].
    unfold rat. rewrite (nth_error_nth _ _ _ E). reflexivity. }
  split; [rewrite map_length; exact Lw|]. split; [|split; [|split; [|split; [|split]]]].
  - intros i x H. apply HI in H as [Hi ->]. apply Rmult_lt_0_compat; [auto|apply Rinv_0_lt_compat; lra].
  - intros i j x y Hij Hx Hy. apply HI in Hx as [Hi ->]. apply HI in Hy as [Hj ->]. apply Rmult_lt_compat_r; [apply Rinv_0_lt_compat; lra|]. rewrite !HW by assumption.
    assert (ln (INR i + 1) < ln (INR j + 1)); [|lra]. apply ln_increasing; [pose proof (pos_INR i); lra|]. apply lt_INR in Hij. lra.
  - assert (E : fold_right Rplus 0 (map (fun x => x / s1) w) = fold_right Rplus 0 w / s1) by (clear - P1; induction (w : list R) as [|x l IH]; cbn [map fold_right]; [field; lra|rewrite IH; field; lra]).
    rewrite E. assert (fold_right Rplus 0 w = s1) as -> by (rewrite E1; symmetry; apply (sum_as_fold mu w Lw)). field. lra.
  - exists (/ s1). split; [apply Rinv_0_lt_compat; lra|]. intros i x H. apply HI in H as [Hi ->]. rewrite HW by exact Hi. pose proof (pos_INR mu). pose proof (pos_INR i). unfold Rdiv. rewrite ln_mult by (try apply Rinv_0_lt_compat; lra). rewrite ln_Rinv by lra. unfold Rminus. apply Rmult_comm.
  - split.
    + apply Rmult_le_reg_r with s2; [lra|]. replace (s1 * s1 / s2 * s2) with (s1 * s1) by (field; lra). rewrite Rmult_1_l, E1, E2. apply sum_square_ge. intros i Hi. left. auto.
    + apply Rmult_le_reg_r with s2; [lra|]. replace (s1 * s1 / s2 * s2) with (s1 * s1) by (field; lra). rewrite E1, E2. apply sum_square_le.
  - assert (E : fold_right Rplus 0 (map (fun x => x * x) (map (fun x => x / s1) w)) = fold_right Rplus 0 (map (fun x => x * x) w) / (s1 * s1)).
    { clear - P1. induction (w : list R) as [|x l IH]; cbn [map fold_right]; [field; lra|]. rewrite IH. field. lra. }
    rewrite E. assert (fold_right Rplus 0 (map (fun x => x * x) w) = s2) as ->.
    { rewrite E2. rewrite <- (sum_as_fold mu (map (fun x => x * x) w)) by (rewrite map_length; exact Lw). apply sum_ext_R. intros i Hi. unfold rat. rewrite <- Lw in Hi. destruct (nth_error w i) as [y|] eqn:EE; [|apply nth_error_None in EE; lia].
      rewrite (nth_error_nth _ _ _ EE). apply nth_error_nth. rewrite nth_error_map, EE. reflexivity. }
    field. lra.
Qed.

(** ** C42 *)
(** Conversion to int of a number that fits: truncation. *)
Definition trunc (x : R) : outcome Z := Ok (Ztrunc x).
Theorem C42_parameters : forall cceil N option_lambda option_modulo, (1 <= N)%nat ->
  exists P, @supplement_defaults numR cceil trunc N option_lambda option_modulo = Ok P /\
  p_N P = N /\ (2 <= p_lambda P)%nat /\ (1 <= p_mu P < p_lambda P)%nat /\ p_mu P = Nat.div (p_lambda P) 2 /\
  ((2 <= option_lambda)%Z -> Z.of_nat (p_lambda P) = option_lambda) /\
  ((option_lambda < 2)%Z -> (4 <= p_lambda P)%nat /\ INR (p_lambda P) <= 4 + 3 * ln (INR N) < INR (p_lambda P) + 1) /\
  (p_weights P, p_mueff P) = @set_weights numR (p_mu P) /\ p_mucov P = p_mueff P /\
  0 < p_cs P < 1 /\ 0 < p_ccumcov P <= 1 /\ 0 < p_ccov P < 1 /\ 0 < p_damps P /\
  p_cs P < p_damps P /\
  0 < @ccov1 numR P false /\ 0 <= @ccovmu numR P false /\ @ccov1 numR P false + @ccovmu numR P false = p_ccov P /\
  (option_modulo < 0 -> p_modulo P = / (p_ccov P * INR N * 10)) /\ (0 <= option_modulo -> p_modulo P = option_modulo).
Proof.
  intros cceil N ol om HN.
  assert (HL : exists lambda, (if (ol <? 2)%Z then let* k := trunc (3 * ln (IZR (Z.of_nat N))) in Ok (4 + k)%Z else Ok ol) = Ok lambda /\ (2 <= lambda)%Z /\
    ((2 <= ol)%Z -> lambda = ol) /\ ((ol < 2)%Z -> (4 <= lambda)%Z /\ IZR lambda <= 4 + 3 * ln (INR N) < IZR lambda + 1)).
  { destruct (Z.ltb_spec ol 2).
    - unfold trunc. cbn [obind]. assert (H0 : 0 <= ln (INR N)). { rewrite <- ln_1. destruct (Nat.eq_dec N 1) as [->|N1]; [right; reflexivity|]. left. apply ln_increasing; [lra|]. apply (lt_INR 1). lia. }
      rewrite <- INR_IZR_INZ. rewrite Ztrunc_floor by lra. assert (HF : (0 <= Zfloor (3 * ln (INR N)))%Z) by (apply Zfloor_lub; cbn; lra).
      eexists. split; [reflexivity|]. split; [lia|]. split; [lia|]. intros _. split; [lia|]. rewrite plus_IZR. pose proof (Zfloor_lb (3 * ln (INR N))). pose proof (Zfloor_ub (3 * ln (INR N))). lra.
    - exists ol. split; [reflexivity|]. split; [lia|]. split; [auto|lia]. }
  destruct HL as (lambda & EL & L2 & L3 & L4). unfold supplement_defaults.
  change (@nmul numR (nofZ 3) (nlog (of_nat N))) with (3 * ln (IZR (Z.of_nat N))). rewrite EL. cbn [obind]. clear EL.
  rewrite Z.quot_div_nonneg by lia. assert (HM : (1 <= lambda / 2 < lambda)%Z) by (split; [apply Z.div_le_lower_bound; lia|apply Z.div_lt_upper_bound; lia]).
  destruct (Z.ltb_spec (lambda / 2) 0); [lia|]. set (mu := Z.to_nat (lambda / 2)). assert (Hmu : (1 <= mu)%nat) by lia.
  pose proof (C41_weights mu Hmu) as HW. destruct (@set_weights numR mu) as [w mueff] eqn:EW. destruct HW as (_ & _ & _ & _ & _ & [M1 M2] & _).
  assert (EMu : Z.of_nat mu = (lambda / 2)%Z) by (unfold mu; lia). rewrite EMu. change (nT numR) with R in mueff. destruct (Nat.ltb_spec mu 1); [lia|]. destruct (Z.ltb_spec lambda (lambda / 2)); [lia|]. destruct (Z.eqb_spec (lambda / 2) lambda); [lia|]. cbn [orb andb].
  eexists. split; [reflexivity|]. cbn [p_N p_lambda p_mu p_weights p_mueff p_mucov p_cs p_ccumcov p_ccov p_damps p_modulo].
  split; [reflexivity|]. split; [lia|]. split; [unfold mu; lia|]. split; [unfold mu; rewrite Z2Nat.inj_div by lia; reflexivity|].
  split; [intros Ho; specialize (L3 Ho); lia|]. split.
  { intros Ho. destruct (L4 Ho) as [A B]. split; [lia|]. rewrite INR_IZR_INZ, Z2Nat.id by lia. exact B. }
  split; [auto|]. split; [reflexivity|].
  change (@nadd numR) with Rplus. change (@nsub numR) with Rminus. change (@nmul numR) with Rmult. change (@ndiv numR) with Rdiv. change (@nofZ numR) with IZR. change (@nsqrt numR) with R_sqrt.sqrt.
  change (@nlt numR) with Rlt_bool. assert (EN : @of_nat numR N = INR N) by (symmetry; apply INR_IZR_INZ). rewrite !EN.
  assert (E4 : IZR (Z.of_nat N + 4) = INR N + 4) by (rewrite plus_IZR, <- INR_IZR_INZ; reflexivity). rewrite E4.
  assert (Ed1 : @ndec numR 14142 (-4) = 14142 / 10000) by (cbn; lra). assert (Ed2 : @ndec numR 3 (-1) = 3 / 10) by (cbn; lra). rewrite Ed1, Ed2.
  assert (HN' : 1 <= INR N) by (apply (le_INR 1); exact HN). set (nn := INR N) in *. set (t1 := 2 / ((nn + 14142 / 10000) * (nn + 14142 / 10000))).
  set (t2 := (2 * mueff - 1) / ((nn + 2) * (nn + 2) + mueff)). set (t2' := if Rlt_bool 1 t2 then 1 else t2). set (ccov := 1 / mueff * t1 + (1 - 1 / mueff) * t2').
  set (cs := (mueff + 2) / (nn + mueff + 3)).
  assert (T1 : 0 < t1 < 1). { unfold t1. assert (D : 5 < (nn + 14142 / 10000) * (nn + 14142 / 10000)) by nra. split; [apply Rmult_lt_0_compat; [lra|apply Rinv_0_lt_compat; lra]|]. apply Rmult_lt_reg_r with ((nn + 14142 / 10000) * (nn + 14142 / 10000)); [lra|]. unfold Rdiv. rewrite Rmult_assoc, Rinv_l by lra. lra. }
  assert (T2 : 0 < t2' <= 1). { unfold t2'. destruct (Rlt_bool_spec 1 t2); [lra|]. split; [|assumption]. unfold t2. apply Rmult_lt_0_compat; [lra|]. apply Rinv_0_lt_compat. nra. }
  assert (IM : 0 < 1 / mueff <= 1). { split; [apply Rmult_lt_0_compat; [lra|apply Rinv_0_lt_compat; lra]|]. apply Rmult_le_reg_r with mueff; [lra|]. unfold Rdiv. rewrite Rmult_assoc, Rinv_l by lra. lra. }
  assert (CC : 0 < ccov < 1) by (unfold ccov; nra).
  assert (CS : 0 < cs < 1). { unfold cs. split; [apply Rmult_lt_0_compat; [lra|apply Rinv_0_lt_compat; lra]|]. apply Rmult_lt_reg_r with (nn + mueff + 3); [lra|]. unfold Rdiv. rewrite Rmult_assoc, Rinv_l by lra. lra. }
  split; [exact CS|]. split.
  { split; [apply Rmult_lt_0_compat; [lra|apply Rinv_0_lt_compat; lra]|]. apply Rmult_le_reg_r with (nn + 4); [lra|]. unfold Rdiv. rewrite Rmult_assoc, Rinv_l by lra. lra. }
  split; [exact CC|].
  match goal with |- 0 < ?a * ?b + cs /\ _ => assert (DA : 1 <= a) end.
  { match goal with |- 1 <= 1 + 2 * ?m => assert (0 <= m); [|lra] end. unfold std_max. change (@nlt numR) with Rlt_bool. match goal with |- context [Rlt_bool ?x ?y] => destruct (Rlt_bool_spec x y) end; lra. }
  match goal with |- 0 < ?a * ?b + cs /\ _ => assert (DB : 3 / 10 <= b) end.
  { unfold std_max. change (@nlt numR) with Rlt_bool. match goal with |- context [Rlt_bool ?x ?y] => destruct (Rlt_bool_spec x y) end; lra. }
  assert (DD : forall a b, 1 <= a -> 3 / 10 <= b -> 0 < a * b) by (intros; apply Rmult_lt_0_compat; lra).
  specialize (DD _ _ DA DB). split; [lra|]. split; [lra|].
  assert (E1 : forall P : cma_par numR, p_ccov P = ccov -> p_mucov P = mueff -> @ccov1 numR P false = ccov * (1 / mueff) /\ @ccovmu numR P false = ccov * (1 - 1 / mueff)).
  { intros P A B. assert (C1 : @ccov1 numR P false = ccov * (1 / mueff)).
    { unfold ccov1, std_min. rewrite A, B. change (@nlt numR) with Rlt_bool. change (@nmul numR) with Rmult. change (@ndiv numR) with Rdiv. change (@nofZ numR) with IZR.
      destruct (Rlt_bool_spec 1 (ccov * (1 / mueff) * 1)) as [HH|HH]; [nra|exact (Rmult_1_r _)]. }
    split; [exact C1|]. unfold ccovmu, std_min. rewrite C1, A, B. change (@nlt numR) with Rlt_bool. change (@nmul numR) with Rmult. change (@ndiv numR) with Rdiv. change (@nofZ numR) with IZR. change (@nsub numR) with Rminus.
    destruct (Rlt_bool_spec (1 - ccov * (1 / mueff)) (ccov * (1 - 1 / mueff) * 1)) as [HH|HH]; [nra|exact (Rmult_1_r _)]. }
  match goal with |- context [@ccov1 numR ?PP false] => destruct (E1 PP eq_refl eq_refl) as [-> ->] end.
  split; [apply Rmult_lt_0_compat; lra|]. split; [apply Rmult_le_pos; lra|]. split; [match goal with |- ?a = ?b => change (@eq R a b) end; change (Rplus (ccov * (1 / mueff)) (ccov * (1 - 1 / mueff)) = ccov); ring|]. split.
  - intros Ho. rewrite Rlt_bool_true by exact Ho. match goal with |- ?a = ?b => change (@eq R a b) end. change (1 / ccov / nn / 10 = / (ccov * nn * 10)). field. lra.
  - intros Ho. rewrite Rlt_bool_false by exact Ho. reflexivity.
Qed.

(** ** C43 *)
#[local] Open Scope nat_scope.
Definition not_nan (v : list f64) : Prop := Forall (fun x => fisnan x = false) v.
Lemma total_on_f64 (L : libm) (v : list f64) : not_nan v -> total_on (K := numF L) (at_ (K := numF L) v) (length v).
Proof.
  intros HV. assert (H : forall i, i < length v -> fisnan (at_ (K := numF L) v i) = false).
  { intros i Hi. unfold not_nan in HV. rewrite Forall_forall in HV. apply HV. apply nth_In. exact Hi. }
  split; [|split]; cbn [nlt numF].
  - intros a _. apply flt_irrefl.
  - intros a b c _ _ _. apply flt_trans.
  - intros a b c Ha Hb Hc. apply H in Ha, Hb, Hc. rewrite !flt_key, Ha, Hb, Hc. cbn [negb andb]. intros H1 H2. apply Z.ltb_ge in H1, H2. apply Z.ltb_ge. exact (Z.le_trans _ _ _ H1 H2).
Qed.
Lemma total_on_R (v : list R) : total_on (K := numR) (at_ (K := numR) v) (length v).
Proof.
  split; [|split]; cbn [nlt numR].
  - intros a _. apply Rlt_bool_false. apply Rle_refl.
  - intros a b c _ _ _ H1 H2. apply Rlt_bool_true. revert H1 H2. do 2 (match goal with |- context [Rlt_bool ?x ?y] => destruct (Rlt_bool_spec x y); try discriminate end). intros _ _. eapply Rlt_trans; eassumption.
  - intros a b c _ _ _ H1 H2. apply Rlt_bool_false. revert H1 H2. do 2 (match goal with |- context [Rlt_bool ?x ?y] => destruct (Rlt_bool_spec x y); try discriminate end). intros _ _. eapply Rle_trans; eassumption.
Qed.
Lemma StronglySorted_nth {A} (R : A -> A -> Prop) l : StronglySorted R l -> forall i j a b, i < j -> nth_error l i = Some a -> nth_error l j = Some b -> R a b.
Proof.
  induction 1 as [|x l S IH F]; intros i j a b Hij Ha Hb; [destruct i; discriminate|]. destruct j as [|j]; [lia|]. cbn in Hb. destruct i as [|i]; [|cbn in Ha; apply (IH i j); auto; lia].
  cbn in Ha. injection Ha as <-. rewrite Forall_forall in F. apply F. eapply nth_error_In; eauto.
Qed.
(** The ranking of non-NaN fitnesses: a permutation along which they do not decrease;
    equal ones are ranked latest first. *)
Theorem C43_ranking_sorts : forall (L : libm) (fits : list f64), not_nan fits ->
  let order := sorted_index (K := numF L) fits (length fits) in
  Permutation order (seq 0 (length fits)) /\
  (forall p q i j x y, p < q -> nth_error order p = Some i -> nth_error order q = Some j -> nth_error fits i = Some x -> nth_error fits j = Some y ->
     fle x y = true /\ (feq x y = true -> j < i)).
Proof.
  intros L fits HN order. split; [apply sorted_index_perm|]. intros p q i j x y Hpq Hi Hj Hx Hy.
  pose proof (StronglySorted_nth _ _ (sorted_index_sorted (K := numF L) fits (length fits) (total_on_f64 L fits HN)) p q i j Hpq Hi Hj) as H.
  unfold ranked, at_ in H. cbn [nT numF nlt] in H. rewrite (nth_error_nth _ _ _ Hx), (nth_error_nth _ _ _ Hy) in H.
  assert (Nx : fisnan x = false /\ fisnan y = false) by (unfold not_nan in HN; rewrite Forall_forall in HN; split; apply HN; eapply nth_error_In; eauto).
  destruct Nx as [Nx Ny]. rewrite !flt_key, fle_key, feq_key, Nx, Ny in *. cbn [negb andb] in *. rewrite Z.leb_le, Z.eqb_eq. rewrite !Z.ltb_lt, !Z.ltb_ge in H. lia.
Qed.
(** Whatever the fitnesses, NaN included, every index occurs exactly once. *)
Theorem C43_ranking_is_permutation : forall (K : Num) (fits : list K) n, Permutation (sorted_index fits n) (seq 0 n).
Proof. intros. apply sorted_index_perm. Qed.
Theorem C43_ranking_sorts_reals : forall (fits : list R), let order := sorted_index (K := numR) fits (length fits) in
  Permutation order (seq 0 (length fits)) /\
  (forall p q i j x y, p < q -> nth_error order p = Some i -> nth_error order q = Some j -> nth_error fits i = Some x -> nth_error fits j = Some y ->
     (x <= y)%R /\ (x = y -> j < i)).
Proof.
  intros fits order. split; [apply sorted_index_perm|]. intros p q i j x y Hpq Hi Hj Hx Hy.
  pose proof (StronglySorted_nth _ _ (sorted_index_sorted (K := numR) fits (length fits) (total_on_R fits)) p q i j Hpq Hi Hj) as H.
  unfold ranked, at_ in H. cbn [nT numR nlt] in H. rewrite (nth_error_nth _ _ _ Hx), (nth_error_nth _ _ _ Hy) in H. destruct H as [H|(H1 & H2 & H3)].
  - destruct (Rlt_bool_spec x y); [|discriminate]. split; [lra|]. intros ->. exfalso. lra.
  - destruct (Rlt_bool_spec x y); [discriminate|]. destruct (Rlt_bool_spec y x); [discriminate|]. split; [lra|auto].
Qed.
(** A NaN is ranked before everything it is compared with: here it becomes the best of two. *)
Theorem C43_nan_ranks_first_refuted : forall L, ~ (forall (fits : list f64) i j, sorted_index (K := numF L) fits 2 = [i; j] -> length fits = 2 -> fisnan (nth i fits fzero) = true -> fisnan (nth j fits fzero) = true).
Proof.
  intros L H. specialize (H [flit 1 0; fnan] 1 0 eq_refl eq_refl eq_refl). discriminate H.
Qed.
(** The update looks at fitnesses only through comparisons: any increasing change of
    scale of the objective leaves the search unchanged. *)
Lemma rank_insert_ext {K : Num} (f g : nat -> K) n i l : (forall a b, a < n -> b < n -> nlt (f a) (f b) = nlt (g a) (g b)) -> i < n -> Forall (fun a => a < n) l -> rank_insert f i l = rank_insert g i l.
Proof. intros H Hi. induction 1 as [|a l Ha F IH]; cbn [rank_insert]; [reflexivity|]. rewrite H by assumption. rewrite IH. reflexivity. Qed.
Lemma sorted_index_ext {K : Num} (v w : list K) n : (forall a b, a < n -> b < n -> nlt (at_ v a) (at_ v b) = nlt (at_ w a) (at_ w b)) -> sorted_index v n = sorted_index w n.
Proof.
  intros H. unfold sorted_index. f_equal. assert (A : forall l acc, Forall (fun a => a < n) l -> Forall (fun a => a < n) acc ->
    fold_left (fun ord i => rank_insert (at_ v) i ord) l acc = fold_left (fun ord i => rank_insert (at_ w) i ord) l acc).
  { induction l as [|i l IH]; intros acc F1 F2; cbn [fold_left]; [reflexivity|]. inversion F1 as [|? ? Hi F1']; subst. rewrite (rank_insert_ext (at_ v) (at_ w) n i acc) by assumption. apply IH; [assumption|].
    apply (Permutation_Forall (Permutation_sym (rank_insert_perm (at_ w) i acc))). constructor; assumption. }
  apply A; [|constructor]. apply Forall_forall. intros x Hx. apply in_seq in Hx. lia.
Qed.
Lemma update_ext {K : Num} {G} (cpow : K -> K -> K) P (st : cma_state K G) v w : length v = length w -> 0 < p_lambda P ->
  (forall a b, a < p_lambda P -> b < p_lambda P -> nlt (at_ v a) (at_ v b) = nlt (at_ w a) (at_ w b) /\ neq (at_ v a) (at_ v b) = neq (at_ w a) (at_ w b)) ->
  cma_update cpow P st v = cma_update cpow P st w.
Proof.
  intros HL Hp H. unfold cma_update. rewrite HL. rewrite (sorted_index_ext v w) by (intros; now apply H).
  assert (HO : forall k, k < p_lambda P -> nth k (sorted_index w (p_lambda P)) 0 < p_lambda P).
  { intros k Hk. assert (In (nth k (sorted_index w (p_lambda P)) 0) (seq 0 (p_lambda P))) as Hin.
    { apply (Permutation_in _ (sorted_index_perm w (p_lambda P))). apply nth_In. rewrite sorted_index_length. exact Hk. }
    apply in_seq in Hin. lia. }
  assert (E : neq (at_ v (nth 0 (sorted_index w (p_lambda P)) 0)) (at_ v (nth (Nat.div (p_lambda P) 2) (sorted_index w (p_lambda P)) 0)) = neq (at_ w (nth 0 (sorted_index w (p_lambda P)) 0)) (at_ w (nth (Nat.div (p_lambda P) 2) (sorted_index w (p_lambda P)) 0))).
  { apply H; apply HO; [exact Hp|]. apply Nat.div_lt; lia. }
  rewrite E. reflexivity.
Qed.
Theorem C43_update_depends_only_on_comparisons : forall (L : libm) (G : Type) cpow P (st : cma_state (numF L) G) (v w : list f64),
  length v = length w -> 0 < p_lambda P -> not_nan v -> not_nan w ->
  (forall i j a b c d, nth_error v i = Some a -> nth_error v j = Some b -> nth_error w i = Some c -> nth_error w j = Some d -> flt a b = flt c d) ->
  cma_update cpow P st v = cma_update cpow P st w.
Proof.
  intros L G cpow P st v w HL Hp Nv Nw H. destruct (Nat.eq_dec (length v) (p_lambda P)) as [EL|NL].
  2:{ apply Nat.eqb_neq in NL. assert (NW : Nat.eqb (length w) (p_lambda P) = false) by congruence.
      assert (T : forall u : list (numF L), Nat.eqb (length u) (p_lambda P) = false -> cma_update cpow P st u = match s_phase st with Updated => cma_update cpow P st [] | _ => Throw "cmaes_UpdateDistribution(): Fitness function value array input is missing."%string end) by (intros u Hu; unfold cma_update; rewrite Hu; destruct (s_phase st); reflexivity).
      exact (eq_trans (T v NL) (eq_sym (T w NW))). }
  apply update_ext; [exact HL|exact Hp|]. intros a b Ha Hb.
  assert (N : forall u : list f64, length u = p_lambda P -> forall k, k < p_lambda P -> exists x, nth_error u k = Some x /\ @at_ (numF L) u k = x).
  { intros u Hu k Hk. destruct (nth_error u k) as [x|] eqn:E; [|apply nth_error_None in E; lia]. exists x. split; [reflexivity|]. exact (nth_error_nth _ _ _ E). }
  destruct (N v EL a Ha) as (va & Ea & ->), (N v EL b Hb) as (vb & Eb & ->), (N w ltac:(congruence) a Ha) as (wa & Fa & ->), (N w ltac:(congruence) b Hb) as (wb & Fb & ->).
  cbn [nlt neq numF]. pose proof (H a b va vb wa wb Ea Eb Fa Fb) as H1. pose proof (H b a vb va wb wa Eb Ea Fb Fa) as H2. split; [exact H1|].
  unfold not_nan in *. rewrite Forall_forall in *. pose proof (Nv _ (nth_error_In _ _ Ea)) as A1. pose proof (Nv _ (nth_error_In _ _ Eb)) as A2. pose proof (Nw _ (nth_error_In _ _ Fa)) as A3. pose proof (Nw _ (nth_error_In _ _ Fb)) as A4.
  rewrite !flt_key, !feq_key, A1, A2, A3, A4 in *. cbn [negb andb] in *. destruct (Z.ltb_spec (fkey va) (fkey vb)), (Z.ltb_spec (fkey wa) (fkey wb)), (Z.ltb_spec (fkey vb) (fkey va)), (Z.ltb_spec (fkey wb) (fkey wa)), (Z.eqb_spec (fkey va) (fkey vb)), (Z.eqb_spec (fkey wa) (fkey wb)); try reflexivity; try discriminate; lia.
Qed.
Example C43_nonvacuous : forall L, not_nan [flit 3 0; flit 1 0; flit 2 0; flit 1 0] /\ sorted_index (K := numF L) [flit 3 0; flit 1 0; flit 2 0; flit 1 0] 4 = [3; 1; 2; 0].
Proof. intros L. split; [unfold not_nan; repeat constructor|]. vm_compute. reflexivity. Qed.

(** ** C45 *)
(** The two calls of the sampling protocol, as a client sees them: a call succeeds or throws. *)
Inductive cma_op (K : Num) := Op_sample | Op_update (fits : list K).
Arguments Op_sample {K}. Arguments Op_update {K}.
(** What the protocol says: the number of completed updates and whether a sampled
    population is waiting for its results. *)
Definition protocol_step {K : Num} (lambda : nat) (s : nat * bool) (op : cma_op K) : (nat * bool) * bool :=
  match op with
  | Op_sample => ((fst s, true), true)
  | Op_update fits => if snd s && Nat.eqb (length fits) lambda then ((S (fst s), false), true) else (s, false)
  end.
Fixpoint protocol {K : Num} (lambda : nat) (s : nat * bool) (ops : list (cma_op K)) : list bool * (nat * bool) :=
  match ops with [] => ([], s) | op :: t => let '(s1, ok) := protocol_step lambda s op in let '(oks, s2) := protocol lambda s1 t in (ok :: oks, s2) end.
Section Protocol.
Context {K : Num} {G : Type}.
Variables (gauss : G -> outcome (K * G)) (eigen : list (list K) -> outcome (list K * list (list K))) (cpow : K -> K -> K) (round : K -> K) (bounds : list (K * K)) (transform : list K -> outcome (list K)) (P : cma_par K).
(** A history of calls: which ones succeeded, and the state they leave. *)
Fixpoint calls (st : cma_state K G) (ops : list (cma_op K)) : outcome (list bool * cma_state K G) :=
  match ops with
  | [] => Ok ([], st)
  | op :: t =>
    match (match op with Op_sample => cma_sample gauss eigen round bounds transform P st | Op_update fits => cma_update cpow P st fits end) with
    | Ok st1 => let* r := calls st1 t in Ok (true :: fst r, snd r)
    | Throw _ => let* r := calls st t in Ok (false :: fst r, snd r)
    | Undef => Undef
    end
  end.
Hypothesis HN : 0 < p_N P.
Hypothesis HG : forall g, exists z g', gauss g = Ok (z, g').
Hypothesis HE : forall C, triangular P C -> exists d Q, eigen C = Ok (d, Q).
Hypothesis HES : eigen_sized eigen P.
Hypothesis HTr : forall v, length v = p_N P -> exists w, transform v = Ok w.
Hypothesis HTS : transform_sized transform P.
Definition agrees (st : cma_state K G) (s : nat * bool) : Prop :=
  s_gen st = fst s + (if snd s then 1 else 0) /\
  match s_phase st with Fresh => s = (0, false) | Sampled => snd s = true | Updated => snd s = false /\ 0 < fst s end.
Lemma calls_protocol ops : forall st s, cma_sized P st -> agrees st s -> exists st', calls st ops = Ok (fst (protocol (p_lambda P) s ops), st') /\ agrees st' (snd (protocol (p_lambda P) s ops)) /\ cma_sized P st'.
Proof using HN HG HE HES HTr HTS.
  induction ops as [|op ops IH]; intros st s HS HA; cbn [calls protocol]; [exists st; auto|].
  destruct op as [|fits]; cbn [protocol_step].
  - destruct (sample_defined gauss eigen round bounds transform P st HN HG HE HTr HS) as (st1 & E). rewrite E.
    pose proof (sample_sized _ _ _ _ _ _ _ _ HES HTS HS E) as HS1. apply sample_spec in E as (st0 & rows & _ & _ & _ & _ & _ & _ & _ & _ & Eg & Ep & _).
    assert (HA1 : agrees st1 (fst s, true)).
    { destruct HA as [Hg Hp]. unfold agrees. rewrite Eg, Ep. cbn [fst snd]. destruct (s_phase st); [subst s; cbn in Hg |-*; rewrite Hg; auto| |].
      - rewrite Hp in Hg. rewrite Hg. destruct (Nat.eqb_spec (fst s + 1) 0); [lia|]. auto.
      - destruct Hp as [Hp _]. rewrite Hp in Hg. split; [lia|reflexivity]. }
    destruct (IH st1 (fst s, true) HS1 HA1) as (st' & -> & HA' & HS'). destruct (protocol (p_lambda P) (fst s, true) ops) as [oks s2]. cbn [obind fst snd]. eauto.
  - destruct (snd s && Nat.eqb (length fits) (p_lambda P)) eqn:EB.
    + apply andb_prop in EB as [EB1 EB2]. assert (EP : s_phase st = Sampled). { destruct HA as [_ Hp]. destruct (s_phase st); [subst s; discriminate|reflexivity|destruct Hp; congruence]. }
      assert (EU : exists st1, cma_update cpow P st fits = Ok st1) by (unfold cma_update; rewrite EP, EB2; cbn [negb]; eauto). destruct EU as (st1 & E). rewrite E.
      pose proof (update_sized _ _ _ _ _ HS E) as HS1. apply update_spec_phase in E as (_ & _ & Ep & Eg & _).
      assert (HA1 : agrees st1 (S (fst s), false)). { destruct HA as [Hg _]. rewrite EB1 in Hg. unfold agrees. rewrite Ep, Eg. cbn [fst snd]. split; [lia|split; [reflexivity|lia]]. }
      destruct (IH st1 _ HS1 HA1) as (st' & -> & HA' & HS'). destruct (protocol (p_lambda P) (S (fst s), false) ops) as [oks s2]. cbn [obind fst snd]. eauto.
    + assert (EU : exists m, cma_update cpow P st fits = Throw m).
      { unfold cma_update. destruct HA as [_ Hp]. destruct (s_phase st); [destruct (negb _); eauto| |eauto]. rewrite Hp in EB. cbn [andb] in EB. rewrite EB. cbn [negb]. eauto. }
      destruct EU as (m & ->). destruct (IH st s HS HA) as (st' & -> & HA' & HS'). destruct (protocol (p_lambda P) s ops) as [oks s2]. cbn [obind fst snd]. eauto.
Qed.
End Protocol.
(** For every history of calls on a new optimizer, exactly the calls the protocol allows
    succeed, and the generation counter is the number of updates, plus one while a
    population waits: sampling again does not advance it. *)
Theorem C45_protocol : forall (K : Num) (G : Type) gauss eigen cpow round bounds transform (P : cma_par K) pars (g : G) ops,
  0 < p_N P -> length pars = p_N P ->
  (forall g, exists z g', gauss g = Ok (z, g')) ->
  (forall C, triangular P C -> exists d Q, eigen C = Ok (d, Q)) -> eigen_sized eigen P ->
  (forall v, length v = p_N P -> exists w, transform v = Ok w) -> transform_sized transform P ->
  let '(oks, (updates, pending)) := protocol (p_lambda P) (0, false) ops in
  exists st, calls gauss eigen cpow round bounds transform P (cma_init round P pars g) ops = Ok (oks, st) /\
    s_gen st = updates + (if pending then 1 else 0).
Proof.
  intros K G gauss eigen cpow round bounds transform P pars g ops HN HP HG HE HES HTr HTS.
  destruct (calls_protocol gauss eigen cpow round bounds transform P HN HG HE HES HTr HTS ops (cma_init round P pars g) (0, false)) as (st & E & [A _] & _).
  - apply init_sized. exact HP.
  - unfold agrees, cma_init. cbn [s_gen s_phase fst snd]. auto.
  - destruct (protocol (p_lambda P) (0, false) ops) as [oks [u p]]. exists st. cbn [fst snd] in *. auto.
Qed.
(** Alternating sample and update with complete results never throws. *)
Fixpoint alternate {K : Num} (results : list (list K)) : list (cma_op K) := match results with [] => [] | r :: t => Op_sample :: Op_update r :: alternate t end.
Theorem C45_alternating_never_throws : forall (K : Num) (results : list (list K)) lambda, Forall (fun r => length r = lambda) results ->
  forall n b, protocol lambda (n, b) (alternate results) = (repeat true (2 * length results), (n + length results, if results then b else false)).
Proof.
  intros K results lambda. induction 1 as [|r t Hr F IH]; intros n b; cbn [alternate protocol protocol_step]; [cbn; rewrite Nat.add_0_r; reflexivity|].
  cbn [snd fst andb]. rewrite Hr, Nat.eqb_refl. rewrite IH. cbn [length]. replace (2 * S (length t)) with (S (S (2 * length t))) by lia. cbn [repeat]. replace (S n + length t) with (n + S (length t)) by lia. destruct t; reflexivity.
Qed.
(** The hypotheses are met, and the protocol separates good from bad calls. *)
Definition ex_P (K : Num) (N lambda mu : nat) (w : list K) : cma_par K :=
  {| p_N := N; p_lambda := lambda; p_mu := mu; p_weights := w; p_mueff := nofZ 1; p_mucov := nofZ 1; p_cs := nofZ 1; p_ccumcov := nofZ 1; p_ccov := nofZ 0; p_damps := nofZ 1; p_modulo := nofZ 0 |}.
Example C45_nonvacuous : forall (K : Num) (cpow : K -> K -> K), let P := ex_P K 2 4 2 [nofZ 1; nofZ 0] in let o := nofZ 0 : K in exists st,
  calls (fun g : unit => Ok (o, g)) (fun _ => Ok ([o; o], [[o; o]; [o; o]])) cpow (fun x => x) [] (fun v => Ok v) P (cma_init (fun x => x) P [(o, o); (o, o)] tt)
    [Op_update [o; o; o; o]; Op_sample; Op_sample; Op_update [o; o; o]; Op_update [o; o; o; o]; Op_update [o; o; o; o]; Op_sample] = Ok ([false; true; true; false; true; false; true], st) /\ s_gen st = 2.
Proof.
  intros K cpow P o.
  pose proof (C45_protocol K unit (fun g => Ok (o, g)) (fun _ => Ok ([o; o], [[o; o]; [o; o]])) cpow (fun x => x) [] (fun v => Ok v) P [(o, o); (o, o)] tt
    [Op_update [o; o; o; o]; Op_sample; Op_sample; Op_update [o; o; o]; Op_update [o; o; o; o]; Op_update [o; o; o; o]; Op_sample]) as H.
  cbn [protocol protocol_step fst snd length p_lambda P ex_P Nat.eqb andb Nat.add p_N] in H. apply H; try (cbn; lia); try reflexivity; eauto.
  - intros C d Q _ [= <- <-]. split; [reflexivity|]. split; [reflexivity|]. repeat constructor.
  - intros v w Hv [= <-]. exact Hv.
Qed.
