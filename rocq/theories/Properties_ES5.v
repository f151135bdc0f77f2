(** * MES and EVA: the update of mean, variance and momentum in closed form (C47), over the reals. *)
From Coq Require Import ZArith Bool Lia Reals Lra List.
From Flocq Require Import Core.
From Verif Require Import Prelude Num MathTools Mes MesFacts Properties_ES Properties_Stats.
Import ListNotations.
#[local] Open Scope R_scope.

(** ** Specification *)
Definition coord (v : list R) (i : nat) : R := nth i v 0.
Definition average (l : list R) : R := Rsum l / INR (length l).
(** Where [x] is projected to: the point of the line mean + t * mom nearest to [x]
    (C54_projected_is_nearest), or the mean when the momentum is negligible. *)
Definition along (eps : R) (mean mom x : list R) : R :=
  if Rlt_bool eps (inner mom mom) then inner (map (fun xy => fst xy - snd xy) (combine x mean)) mom / inner mom mom else 0.
Definition foot (eps : R) (mean mom x : list R) (i : nat) : R := coord mean i + along eps mean mom x * coord mom i.
(** The average of coordinate i of the best individuals, and their average squared distance to the line. *)
Definition best_average (best : list (list R)) (i : nat) : R := average (map (fun x => coord x i) best).
Definition best_spread (eps : R) (mean mom : list R) (best : list (list R)) (i : nat) : R :=
  average (map (fun x => (coord x i - foot eps mean mom x i) ^ 2) best).
(** Old and new value mixed: [rate] of the new one. *)
Definition mixed (rate old new : R) : R := (1 - rate) * old + rate * new.
(** The individuals at the first mu places of the order. *)
Definition first_of (mu : Z) (order : list nat) (pop : list (list R)) : list (list R) :=
  map (fun k => nth k pop []) (firstn (Z.to_nat mu) order).

(** ** Proofs *)
Lemma projected_coord : forall eps (mean mom x y : list R) i, length mom = length mean -> length x = length mean ->
  @projected numR eps mean mom x = Ok y -> (i < length mean)%nat -> coord y i = foot eps mean mom x i.
Proof.
  intros eps a ab p y i Ha Hp H Hi. unfold projected in H.
  set (ap := map (fun xy => fst xy - snd xy) (combine p a)).
  assert (Hap : length ap = length ab) by (unfold ap; rewrite map_length, combine_length; lia).
  pose proof (vec_sub_R p a Hp) as E1. pose proof (dot_product_R ab ab eq_refl) as E2. pose proof (dot_product_R ap ab Hap) as E3.
  assert (H' : (if Rlt_bool eps (inner ab ab) then @vec_add numR a (@vec_mul numR (inner ap ab / inner ab ab) ab) else Ok a) = Ok y).
  { rewrite <- H. refine (eq_sym (eq_trans (f_equal (fun o => obind o _) E1) _)). cbn [obind].
    refine (eq_trans (f_equal (fun o => obind o _) E2) _). cbn [obind nlt numR]. destruct (Rlt_bool eps (inner ab ab)); [|reflexivity].
    refine (eq_trans (f_equal (fun o => obind o _) E3) _). reflexivity. }
  unfold foot, along. fold ap. destruct (Rlt_bool eps (inner ab ab)).
  - pose proof (vec_add_R a (@vec_mul numR (inner ap ab / inner ab ab) ab)) as E4. rewrite E4 in H' by (unfold vec_mul; rewrite map_length; symmetry; exact Ha).
    injection H' as <-. rewrite on_line_shift. generalize (inner ap ab / inner ab ab). intros t. clear - Ha Hi. unfold coord.
    revert ab i Ha Hi. induction a as [|x a IH]; intros [|d ab] i; cbn [length]; try discriminate; intros H Hi; [lia|].
    injection H as H. destruct i as [|i]; [cbn; lra|]. exact (IH ab i H ltac:(lia)).
  - injection H' as <-. lra.
Qed.
Lemma selected_R : forall mu order (pop proj : list (list R)) i sel, @selected numR mu order pop proj i = Ok sel ->
  sel = map (fun k => (coord (nth k pop []) i, coord (nth k proj []) i)) (firstn (Z.to_nat mu) order)
  /\ length sel = Z.to_nat mu /\ Forall (fun k => (k < length pop)%nat /\ (k < length proj)%nat) (firstn (Z.to_nat mu) order).
Proof.
  intros mu order pop proj i sel H. unfold selected in H. destruct (Z.ltb mu 0); [discriminate|].
  pose proof (for_each_length _ _ _ H) as HL. rewrite seq_length in HL. apply for_each_Forall2 in H. revert sel H HL. generalize (Z.to_nat mu). intros n. 
  assert (X : forall n s sel, Forall2 (fun ui b => (let* k := get order ui in let* ind := get pop k in let* pr := get proj k in let* x := get ind i in let* y := get pr i in Ok (x, y)) = Ok b) (seq s n) sel ->
    sel = map (fun k => (coord (nth k pop []) i, coord (nth k proj []) i)) (firstn n (skipn s order)) /\ Forall (fun k => (k < length pop)%nat /\ (k < length proj)%nat) (firstn n (skipn s order))).
  { clear n. induction n as [|n IH]; intros s sel H; cbn [seq] in H; inversion H as [|a b l r Hab Hl]; subst; [split; [reflexivity|constructor]|].
    destruct (get order s) as [k| |] eqn:Ek; cbn [obind] in Hab; try discriminate. destruct (get pop k) as [p| |] eqn:Ep; cbn [obind] in Hab; try discriminate.
    destruct (get proj k) as [q| |] eqn:Eq; cbn [obind] in Hab; try discriminate. destruct (get p i) as [x| |] eqn:Ex; cbn [obind] in Hab; try discriminate.
    destruct (get q i) as [y| |] eqn:Ey; cbn [obind] in Hab; try discriminate. injection Hab as <-. apply get_Ok in Ek, Ep, Eq, Ex, Ey.
    assert (ES : skipn s order = k :: skipn (S s) order).
    { clear - Ek. revert s Ek. induction order as [|o t IH]; intros [|s] H; cbn in *; try discriminate; [now injection H as ->|now apply IH]. }
    rewrite ES. cbn [firstn map]. destruct (IH (S s) r Hl) as [IH1 IH2]. split.
    - apply (f_equal2 (@cons (R * R))); [|exact IH1]. unfold coord. rewrite (nth_error_nth _ _ _ Ep), (nth_error_nth _ _ _ Eq), (nth_error_nth _ _ _ Ex), (nth_error_nth _ _ _ Ey). reflexivity.
    - constructor; [|exact IH2]. split; apply nth_error_Some; congruence. }
  intros sel H HL. destruct (X n O sel H) as [X1 X2]. rewrite skipn_O in X1, X2. split; [exact X1|split; [exact HL|exact X2]].
Qed.
Lemma Rsum_ext : forall A (f g : A -> R) l, Forall (fun x => f x = g x) l -> Rsum (map f l) = Rsum (map g l).
Proof. intros A f g l F. f_equal. induction F as [|x l H _ IH]; cbn; [reflexivity|]. now rewrite H, IH. Qed.
Section Update.
Context {rng : Type} (eps : R) (bounds : list (R * R)) (mu : Z) (component : comp numR -> R -> R -> comp numR).
Lemma update_closed_form : forall (st st' : es_state numR rng) order, (1 <= mu)%Z ->
  @dims numR rng bounds st -> Forall (fun p : list R => length p = length bounds) (es_pop st) ->
  @es_update numR rng eps bounds mu component st order = Ok st' ->
  let best := first_of mu order (es_pop st) in
  forall i, (i < length bounds)%nat ->
    let c := component (@Build_comp numR (coord (es_mean st) i) (coord (es_var st) i) (coord (es_mom st) i)) (best_average best i) (best_spread eps (es_mean st) (es_mom st) best i) in
    length best = Z.to_nat mu /\ coord (es_mean st') i = k_mean c /\ coord (es_var st') i = k_var c /\ coord (es_mom st') i = k_mom c.
Proof.
  intros st st' order Hmu (D1 & D2 & D3) F H best i Hi. apply es_update_components in H as (proj & Hproj & _ & _ & H).
  destruct (H i Hi) as (sel & m & v & mo & Hs & Em & Ev & Eo & H'). cbn zeta in H'. destruct H' as (H1 & H2 & H3).
  apply selected_R in Hs as (Es & HL & FK).
  assert (LB : length (firstn (Z.to_nat mu) order) = Z.to_nat mu) by (refine (eq_trans _ HL); rewrite Es; symmetry; apply map_length).
  unfold coord. rewrite (nth_error_nth _ _ _ Em), (nth_error_nth _ _ _ Ev), (nth_error_nth _ _ _ Eo), (nth_error_nth _ _ _ H1), (nth_error_nth _ _ _ H2), (nth_error_nth _ _ _ H3).
  assert (IM : INR (Z.to_nat mu) = IZR mu) by (rewrite INR_IZR_INZ, Z2Nat.id by lia; reflexivity).
  assert (EA : @mean_of numR mu sel = best_average best i).
  { unfold best_average, average, best, first_of. rewrite !map_length, LB, IM. unfold mean_of. change (@ndiv numR) with Rdiv. change (@nofZ numR) with IZR. f_equal.
    refine (eq_trans (fold_plus_R fst sel 0) _). rewrite Rplus_0_l, Es, !map_map. reflexivity. }
  assert (EV : @var_of numR mu sel = best_spread eps (es_mean st) (es_mom st) best i).
  { unfold best_spread, average, best, first_of. rewrite !map_length, LB, IM. unfold var_of. change (@ndiv numR) with Rdiv. change (@nofZ numR) with IZR. f_equal.
    refine (eq_trans (fold_plus_R (fun xy : R * R => (fst xy - snd xy) * (fst xy - snd xy)) sel 0) _). rewrite Rplus_0_l, Es, !map_map. apply Rsum_ext.
    eapply Forall_impl; [|exact FK]. intros k (K1 & K2). cbn [fst snd].
    assert (EP : @projected numR eps (es_mean st) (es_mom st) (nth k (es_pop st) []) = Ok (nth k proj [])).
    { apply for_each_Forall2 in Hproj. clear - Hproj K1. revert k K1. induction Hproj as [|a b l r Hab _ IH]; intros [|k] K1; cbn [length] in K1; try lia; [exact Hab|]. apply (IH k). lia. }
    assert (LP : length (nth k (es_pop st) []) = length bounds) by (rewrite Forall_forall in F; apply F, nth_In; exact K1).
    assert (E : coord (nth k proj []) i = foot eps (es_mean st) (es_mom st) (nth k (es_pop st) []) i).
    { apply (projected_coord eps (es_mean st) (es_mom st) (nth k (es_pop st) []) (nth k proj []) i); [exact (eq_trans D3 (eq_sym D1))|exact (eq_trans LP (eq_sym D1))|exact EP|]. exact (eq_ind_r (fun n => (i < n)%nat) Hi D1). }
    change ((coord (nth k (es_pop st) []) i - coord (nth k proj []) i) * (coord (nth k (es_pop st) []) i - coord (nth k proj []) i) = (coord (nth k (es_pop st) []) i - foot eps (es_mean st) (es_mom st) (nth k (es_pop st) []) i) ^ 2). rewrite E. ring. }
  rewrite EA, EV. split; [unfold best, first_of; rewrite map_length; exact LB|]. auto.
Qed.
End Update.

(** ** Theorems *)
(** An update of MES: every parameter's variance moves towards the spread of the mu best; with
    momentum, the momentum moves towards their average step and the mean follows the
    momentum; without, the mean moves towards their average. *)
Theorem C47_mes_update : forall rng dist nd_new nd_draw round eps bounds lambda mu offset offset_stdev mean_sigma var_sigma mom_sigma pars g (st st' : es_state numR rng) order,
  length pars = length bounds -> (1 <= mu)%Z ->
  @es_reach rng dist nd_new nd_draw round eps bounds lambda mu offset offset_stdev (@mes_component numR mean_sigma var_sigma mom_sigma) pars g st ->
  @es_update numR rng eps bounds mu (@mes_component numR mean_sigma var_sigma mom_sigma) st order = Ok st' ->
  let best := first_of mu order (es_pop st) in
  forall i, (i < length bounds)%nat ->
    length best = Z.to_nat mu /\
    coord (es_var st') i = mixed var_sigma (coord (es_var st) i) (best_spread eps (es_mean st) (es_mom st) best i) /\
    if Rlt_bool 0 mom_sigma
    then coord (es_mom st') i = mixed mom_sigma (coord (es_mom st) i) (best_average best i - coord (es_mean st) i) /\
         coord (es_mean st') i = coord (es_mean st) i + mean_sigma * coord (es_mom st') i
    else coord (es_mom st') i = coord (es_mom st) i /\
         coord (es_mean st') i = mixed mean_sigma (coord (es_mean st) i) (best_average best i).
Proof.
  intros * HP Hmu HR H best i Hi. apply reach_dims in HR as (D & _ & F); [|exact HP].
  destruct (update_closed_form eps bounds mu _ st st' order Hmu D F H i Hi) as (L & E1 & E2 & E3). fold best in L, E1, E2, E3.
  split; [exact L|]. unfold mes_component in E1, E2, E3. change (@nlt numR (nofZ 0) mom_sigma) with (Rlt_bool 0 mom_sigma) in E1, E2, E3.
  destruct (Rlt_bool 0 mom_sigma); cbn [k_mean k_var k_mom] in E1, E2, E3.
  - split; [exact E2|]. split; [exact E3|]. rewrite E1, E3. reflexivity.
  - split; [exact E2|]. split; [exact E3|exact E1].
Qed.
(** An update of EVA: the mean moves [step_size] of the average step of the mu best, the evolution vector towards that step. *)
Theorem C47_eva_update : forall rng dist nd_new nd_draw round eps bounds lambda mu offset offset_stdev step_size var_update ev_update pars g (st st' : es_state numR rng) order,
  length pars = length bounds -> (1 <= mu)%Z ->
  @es_reach rng dist nd_new nd_draw round eps bounds lambda mu offset offset_stdev (@eva_component numR step_size var_update ev_update) pars g st ->
  @es_update numR rng eps bounds mu (@eva_component numR step_size var_update ev_update) st order = Ok st' ->
  let best := first_of mu order (es_pop st) in
  forall i, (i < length bounds)%nat ->
    length best = Z.to_nat mu /\
    coord (es_var st') i = mixed var_update (coord (es_var st) i) (best_spread eps (es_mean st) (es_mom st) best i) /\
    coord (es_mom st') i = mixed ev_update (coord (es_mom st) i) (best_average best i - coord (es_mean st) i) /\
    coord (es_mean st') i = coord (es_mean st) i + step_size * (best_average best i - coord (es_mean st) i).
Proof.
  intros * HP Hmu HR H best i Hi. apply reach_dims in HR as (D & _ & F); [|exact HP].
  destruct (update_closed_form eps bounds mu _ st st' order Hmu D F H i Hi) as (L & E1 & E2 & E3). fold best in L, E1, E2, E3.
  split; [exact L|]. split; [exact E2|]. split; [exact E3|exact E1].
Qed.
(** Construction: the given means, the squares of the given standard deviations, no momentum. *)
Theorem C47_start : forall rng round lambda (pars : list (R * R)) (g : rng) i, (i < length pars)%nat ->
  let st := @es_init numR rng round lambda pars g in
  coord (es_mean st) i = fst (nth i pars (0, 0)) /\ coord (es_var st) i = snd (nth i pars (0, 0)) ^ 2 /\ coord (es_mom st) i = 0.
Proof.
  intros rng round lambda pars g i Hi st. unfold st, es_init, coord. cbn [es_mean es_var es_mom].
  assert (X : forall f : R * R -> R, nth i (map f pars) 0 = f (nth i pars (0, 0))).
  { intros f. rewrite (nth_indep _ 0 (f (0, 0))) by (rewrite map_length; exact Hi). apply map_nth. }
  split; [apply X|]. split; [|apply X]. refine (eq_trans (X (fun p => snd p * snd p)) _). cbn beta. ring.
Qed.
(** The hypotheses are met: two parameters, three individuals, the best two selected. *)
Definition ex_bounds : list (R * R) := [(-10, 10); (-10, 10)].
Definition ex_pars : list (R * R) := [(1, 2); (3, 4)].
Definition ex_nd (m s : R) (d : unit) (g : unit) : R * unit * unit := (m + s, d, g).
Example C47_update_nonvacuous : exists st st', 
  @es_reach unit unit tt ex_nd (fun x => x) (1 / 10) ex_bounds 3 2 0 0 (@mes_component numR (1 / 2) (1 / 3) (1 / 4)) ex_pars tt st /\
  @es_update numR unit (1 / 10) ex_bounds 2 (@mes_component numR (1 / 2) (1 / 3) (1 / 4)) st [2; 0; 1]%nat = Ok st'.
Proof.
  set (c := @mes_component numR (1 / 2) (1 / 3) (1 / 4)).
  assert (R0 : @es_reach unit unit tt ex_nd (fun x => x) (1 / 10) ex_bounds 3 2 0 0 c ex_pars tt (@es_init numR unit (fun x => x) 3 ex_pars tt)) by constructor.
  destruct (@es_sample_defined numR unit unit tt ex_nd (fun x => x) ex_bounds 3 0 0 (@es_init numR unit (fun x => x) 3 ex_pars tt)) as (st & E & D); [repeat split; reflexivity|].
  pose proof (esr_sample _ _ _ _ _ _ _ _ _ _ _ _ _ _ R0 E) as R1. destruct (reach_dims tt ex_nd (fun x => x) (1 / 10) ex_bounds 3 2 0 0 c ex_pars tt eq_refl st R1) as (_ & HL & F).
  destruct (@es_update_defined numR unit (1 / 10) ex_bounds 2 c st [2; 0; 1]%nat) as (st' & E' & _).
  - exact D.
  - exact F.
  - lia.
  - cbn. lia.
  - refine (eq_ind_r (fun n => Forall (fun k => (k < n)%nat) _) _ HL). repeat constructor.
  - exists st, st'. auto.
Qed.
