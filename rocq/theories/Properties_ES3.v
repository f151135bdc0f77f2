(** * MES and EVA: C47 (selection, dimensions), C48 (snapshots). *)
From Coq Require Import ZArith Bool Lia Permutation Sorted.
From Verif Require Import Prelude Flt FltFacts Round8 Round8Facts FlatMap ParInfo ParInfoFacts ObjInfo Num MathTools Boundary Mes MesFacts MesF Optimizer OptimizerFacts Driver DriverFacts
  Properties_SearchPoint Properties_Optimizer Properties_ES2.

(** ** What a sort is *)
Definition strict_weak (cmp : nat -> nat -> bool) (n : nat) : Prop :=
  (forall a, a < n -> cmp a a = false) /\
  (forall a b c, a < n -> b < n -> c < n -> cmp a b = true -> cmp b c = true -> cmp a c = true) /\
  (forall a b c, a < n -> b < n -> c < n -> cmp a c = true -> cmp a b = true \/ cmp b c = true).
(** The guarantee of std::sort: for a strict weak order, a permutation in which no
    element is less than an earlier one.  (For other comparisons: nothing.) *)
Definition sorts (sort : sorter) : Prop := forall cmp n, strict_weak cmp n ->
  Permutation (sort cmp n) (seq 0 n) /\
  forall i j a b, i < j -> nth_error (sort cmp n) i = Some a -> nth_error (sort cmp n) j = Some b -> cmp b a = false.

(** Insertion sort is one. *)
Fixpoint insert (cmp : nat -> nat -> bool) (x : nat) (l : list nat) : list nat :=
  match l with [] => [x] | y :: t => if cmp y x then y :: insert cmp x t else x :: l end.
Definition isort : sorter := fun cmp n => fold_right (insert cmp) [] (seq 0 n).
Lemma insert_perm cmp x l : Permutation (insert cmp x l) (x :: l).
Proof. induction l as [|y t IH]; cbn; [reflexivity|]. destruct (cmp y x); [|reflexivity]. rewrite IH. apply perm_swap. Qed.
Lemma isort_sorts : sorts isort.
Proof.
  intros cmp n (Irr & Tr & Neg). unfold isort.
  assert (HA : forall l, Forall (fun a => a < n) l -> Permutation (fold_right (insert cmp) [] l) l /\ StronglySorted (fun a b => cmp b a = false) (fold_right (insert cmp) [] l)).
  { induction 1 as [|x l Hx Hl [IP IS]]; cbn [fold_right]; [split; constructor|]. split; [rewrite insert_perm; now constructor|].
    assert (Hn : Forall (fun a => a < n) (fold_right (insert cmp) [] l)) by (eapply Permutation_Forall; [symmetry; exact IP|exact Hl]).
    revert IS Hn. generalize (fold_right (insert cmp) [] l). clear - Irr Tr Neg Hx. induction l as [|y t IH]; intros IS Hn; cbn [insert]; [repeat constructor|].
    inversion IS as [|? ? IS' HF]; subst. inversion Hn as [|? ? Hy Hn']; subst. destruct (cmp y x) eqn:C.
    - constructor; [apply IH; auto|]. apply Forall_forall. intros b Hb. apply (Permutation_in b (insert_perm cmp x t)) in Hb as [->|Hb].
      + destruct (cmp b y) eqn:C2; [|reflexivity]. pose proof (Tr b y b Hx Hy Hx C2 C) as T. rewrite (Irr b Hx) in T. discriminate.
      + rewrite Forall_forall in HF. auto.
    - constructor; [constructor; auto|]. constructor; [exact C|]. apply Forall_forall. intros b Hb. rewrite Forall_forall in HF, Hn'. destruct (cmp b x) eqn:C2; [|reflexivity].
      destruct (Neg b y x) as [H|H]; auto; [rewrite (HF b Hb) in H; discriminate|congruence]. }
  assert (HS : Forall (fun a => a < n) (seq 0 n)) by (apply Forall_forall; intros a Ha; apply in_seq in Ha; lia).
  destruct (HA _ HS) as [HP HSS]. split; [exact HP|]. clear - HSS. intros i j a b Hij Ha Hb. revert i j Hij Ha Hb. induction HSS as [|x l _ IH HF]; intros [|i] [|j] Hij; cbn [nth_error]; try discriminate; try lia.
  - intros [= ->] Hb. rewrite Forall_forall in HF. apply HF. eapply nth_error_In; eauto.
  - intros Ha Hb. apply (IH i j); auto. lia.
Qed.

(** Comparing fitness values that are not NaN is a strict weak order. *)
Lemma is_better_strict_weak info fits : Forall (fun f => fisnan f = false) fits ->
  strict_weak (fun a b => match nth_error fits a, nth_error fits b with Some x, Some y => is_better info x y | _, _ => false end) (length fits).
Proof.
  intros HN. assert (A : forall a, a < length fits -> exists x, nth_error fits a = Some x /\ fisnan x = false).
  { intros a Ha. destruct (nth_error fits a) as [x|] eqn:E; [|apply nth_error_None in E; lia]. exists x. split; [reflexivity|]. rewrite Forall_forall in HN. apply HN. eapply nth_error_In; eauto. }
  assert (B : forall x y, fisnan x = false -> fisnan y = false -> is_better info x y = (bkey info x <? bkey info y)%Z) by (intros x y Hx Hy; rewrite is_better_key, Hx, Hy; reflexivity).
  split; [|split].
  - intros a Ha. destruct (A a Ha) as (x & -> & Hx). rewrite B by auto. apply Z.ltb_irrefl.
  - intros a b c Ha Hb Hc. destruct (A a Ha) as (x & -> & Hx), (A b Hb) as (y & -> & Hy), (A c Hc) as (z & -> & Hz). rewrite !B by auto. rewrite !Z.ltb_lt. lia.
  - intros a b c Ha Hb Hc. destruct (A a Ha) as (x & -> & Hx), (A b Hb) as (y & -> & Hy), (A c Hc) as (z & -> & Hz). rewrite !B by auto. rewrite !Z.ltb_lt. lia.
Qed.

(** ** C47: selection *)
(** The indices are ordered from best to worst: whatever comes later is not better. *)
Theorem C47_order_is_best_first : forall sort info fits, sorts sort -> Forall (fun f => fisnan f = false) fits ->
  let order := sorted_indices sort (is_better info) fits in
  Permutation order (seq 0 (length fits)) /\
  forall i j a b x y, i < j -> nth_error order i = Some a -> nth_error order j = Some b -> nth_error fits a = Some x -> nth_error fits b = Some y ->
    is_better info y x = false.
Proof.
  intros sort info fits HS HN order. destruct (HS _ _ (is_better_strict_weak info fits HN)) as [HP HO]. split; [exact HP|].
  intros i j a b x y Hij Ha Hb Hx Hy. specialize (HO i j a b Hij Ha Hb). cbn beta in HO. rewrite Hy, Hx in HO. exact HO.
Qed.
(** Only the first mu individuals of the order influence the new mean, variance and
    momentum: two populations (and orders) that select the same individuals give the same update. *)
Theorem C47_only_the_mu_best : forall (K : Num) rng (eps : K) bounds mu component (st1 st2 : es_state K rng) order1 order2 r1 r2,
  es_mean st1 = es_mean st2 -> es_var st1 = es_var st2 -> es_mom st1 = es_mom st2 ->
  map (nth_error (es_pop st1)) (firstn (Z.to_nat mu) order1) = map (nth_error (es_pop st2)) (firstn (Z.to_nat mu) order2) ->
  es_update eps bounds mu component st1 order1 = Ok r1 -> es_update eps bounds mu component st2 order2 = Ok r2 ->
  es_mean r1 = es_mean r2 /\ es_var r1 = es_var r2 /\ es_mom r1 = es_mom r2.
Proof.
  intros * Em Ev Eo ES H1 H2. pose proof (es_update_dims _ _ _ _ _ _ _ H1) as (D1 & D2 & D3). pose proof (es_update_dims _ _ _ _ _ _ _ H2) as (D1' & D2' & D3').
  apply es_update_components in H1 as (pj1 & P1 & _ & _ & H1). apply es_update_components in H2 as (pj2 & P2 & _ & _ & H2). rewrite <- Em, <- Eo in P2.
  assert (HP : forall k k' : nat, nth_error (es_pop st1) k = nth_error (es_pop st2) k' -> nth_error pj1 k = nth_error pj2 k').
  { assert (A : forall pop proj k, for_each (fun p => projected eps (es_mean st1) (es_mom st1) p) pop = Ok proj ->
       nth_error proj k = match nth_error pop k with Some p => match projected eps (es_mean st1) (es_mom st1) p with Ok q => Some q | _ => None end | None => None end).
    { intros pop proj k HF. apply for_each_Forall2 in HF. revert k. induction HF as [|p q pop proj Hp _ IH]; intros [|k]; cbn [nth_error]; auto. now rewrite Hp. }
    intros k k' Hk. rewrite (A _ _ k P1), (A _ _ k' P2), Hk. reflexivity. }
  assert (HSel : forall i, selected mu order1 (es_pop st1) pj1 i = selected mu order2 (es_pop st2) pj2 i \/ Z.to_nat mu > length order1 \/ Z.to_nat mu > length order2).
  { intros i. destruct (Nat.le_gt_cases (Z.to_nat mu) (length order1)) as [G1|G1]; [|auto]. destruct (Nat.le_gt_cases (Z.to_nat mu) (length order2)) as [G2|G2]; [|auto]. left.
    unfold selected. destruct (mu <? 0)%Z; [reflexivity|]. apply for_each_ext. intros ui Hui. apply in_seq in Hui.
    assert (HE : nth_error (map (nth_error (es_pop st1)) (firstn (Z.to_nat mu) order1)) ui = nth_error (map (nth_error (es_pop st2)) (firstn (Z.to_nat mu) order2)) ui) by now rewrite ES.
    rewrite !nth_error_map in HE. rewrite !(nth_error_nth' (firstn _ _) 0) in HE by (rewrite firstn_length; lia). cbn [option_map] in HE. injection HE as HE.
    assert (G : forall (l : list nat), ui < length l -> get l ui = Ok (nth ui (firstn (Z.to_nat mu) l) 0)).
    { intros l Hl. apply get_Ok. rewrite (nth_error_nth' l 0) by exact Hl. f_equal. rewrite <- (firstn_skipn (Z.to_nat mu) l) at 1. apply app_nth1. rewrite firstn_length. lia. }
    rewrite (G order1), (G order2) by lia. cbn [obind]. set (k := nth ui (firstn _ order1) 0) in *. set (k' := nth ui (firstn _ order2) 0) in *.
    pose proof (HP k k' HE) as HPk. unfold get at 1 5. rewrite HE. destruct (nth_error (es_pop st2) k'); cbn [obind]; [|reflexivity]. unfold get at 1 4. rewrite HPk. reflexivity. }
  assert (HC : forall i, i < length bounds -> nth_error (es_mean r1) i = nth_error (es_mean r2) i /\ nth_error (es_var r1) i = nth_error (es_var r2) i /\ nth_error (es_mom r1) i = nth_error (es_mom r2) i).
  { intros i Hi. destruct (H1 i Hi) as (s1 & m1 & v1 & o1 & S1 & M1 & V1 & O1 & R1 & R2 & R3). destruct (H2 i Hi) as (s2 & m2 & v2 & o2 & S2 & M2 & V2 & O2 & R1' & R2' & R3').
    rewrite <- Em in M2. rewrite <- Ev in V2. rewrite <- Eo in O2. assert (m1 = m2) as <- by congruence. assert (v1 = v2) as <- by congruence. assert (o1 = o2) as <- by congruence.
    assert (A : forall order (pop proj : list (list K)) sel, selected mu order pop proj i = Ok sel -> Z.to_nat mu <= length order).
    { intros order pop proj sel HS. unfold selected in HS. destruct (mu <? 0)%Z; [discriminate|]. apply for_each_Forall2 in HS. destruct (Nat.le_gt_cases (Z.to_nat mu) (length order)) as [G|G]; [exact G|exfalso].
      assert (HI : In (length order) (seq 0 (Z.to_nat mu))) by (apply in_seq; lia). clear - HS HI. induction HS as [|a b l r Hab _ IH]; [destruct HI|]. destruct HI as [->|HI]; [|auto].
      unfold get in Hab at 1. rewrite (proj2 (nth_error_None order (length order))) in Hab by lia. discriminate. }
    destruct (HSel i) as [HS|[HS|HS]]; [|apply A in S1; lia|apply A in S2; lia]. assert (s1 = s2) as <- by congruence. rewrite R1, R2, R3, R1', R2', R3'. auto. }
  split; [|split]; apply nth_error_ext'; try congruence; intros i Hi; apply HC; congruence.
Qed.

(** ** C47: dimensions *)
Section Dimensions.
Variables (L : stdlib) (E : env) (lambda mu : Z) (offset offset_stdev : f64) (component : comp (numF (sl_libm L)) -> f64 -> f64 -> comp (numF (sl_libm L))).
Notation smp := (es_sampler L (e_info E) lambda mu offset offset_stdev component).
Notation dim := (oi_dim (e_info E)).
Definition es_sized (s : es_f64 L) : Prop :=
  length (es_mean s) = dim /\ length (es_var s) = dim /\ length (es_mom s) = dim /\
  length (es_pop s) = Z.to_nat lambda /\ Forall (fun p : point => length p = dim) (es_pop s).

Lemma es_sized_start g : es_sized (es_start L (e_info E) lambda g).
Proof.
  unfold es_sized, es_start, es_init, pars_of, oi_dim. cbn [es_mean es_var es_mom es_pop]. rewrite !map_length, repeat_length. split; [reflexivity|]. split; [reflexivity|]. split; [reflexivity|]. split; [reflexivity|].
  apply Forall_forall. intros p Hp. apply repeat_spec in Hp as ->. rewrite !map_length. reflexivity.
Qed.
Lemma bounds_of_length : length (bounds_of (e_info E)) = dim.
Proof. unfold bounds_of, oi_dim. apply map_length. Qed.
Lemma es_sized_sample s : es_sized s -> es_sized (fst (s_sample smp s)).
Proof.
  intros H. unfold es_sampler. cbn [s_sample]. match goal with |- context [match ?m with Ok _ => _ | _ => _ end] => destruct m as [s'|w|] eqn:Es end; cbn [fst]; try exact H.
  apply es_sample_spec in Es as (E1 & E2 & E3 & HL & HF). unfold es_sized in *. destruct H as (H1 & H2 & H3 & _). split; [exact (eq_trans (f_equal (@length _) E1) H1)|]. split; [exact (eq_trans (f_equal (@length _) E2) H2)|]. split; [exact (eq_trans (f_equal (@length _) E3) H3)|].
  split; [exact HL|]. eapply Forall_impl; [|exact HF]. intros p (y & -> & Hy). rewrite map_length. rewrite <- bounds_of_length. clear - Hy. induction Hy as [|? ? ? ? ? ? IH]; [reflexivity|exact (f_equal S IH)].
Qed.
Lemma es_sized_update s fits : es_sized s -> es_sized (fst (s_update smp s fits)).
Proof.
  intros H. unfold es_sampler. cbn [s_update]. match goal with |- context [match ?m with Ok _ => _ | _ => _ end] => destruct m as [s'|w|] eqn:Es end; cbn [fst]; try exact H.
  pose proof (es_update_dims _ _ _ _ _ _ _ Es) as (D1 & D2 & D3). apply es_update_components in Es as (pj & _ & _ & EP & _). unfold es_sized in *.
  pose proof bounds_of_length as BL. split; [exact (eq_trans D1 BL)|]. split; [exact (eq_trans D2 BL)|]. split; [exact (eq_trans D3 BL)|].
  replace (es_pop s') with (es_pop s) by exact (eq_sym EP). apply H.
Qed.
Theorem C47_dimensions : forall o g evals, es_sized (snd (fst (full_steps smp E o (es_start L (e_info E) lambda g) evals))).
Proof.
  intros o g evals. apply full_steps_inv; [apply es_sized_sample|intros; now apply es_sized_update|apply es_sized_start].
Qed.
(** Sampling and updating are always possible when 1 <= mu <= lambda. *)
Theorem C47_always_defined : forall s, es_sized s -> (1 <= mu <= lambda)%Z -> sorts (sl_sort L) ->
  exists s1 pop, s_sample smp s = (s1, Ok pop) /\ length pop = Z.to_nat lambda /\
  forall fits, length fits = length pop -> Forall (fun f => fisnan f = false) fits -> exists s2, s_update smp s1 fits = (s2, Ok tt) /\ es_sized s2.
Proof.
  intros s HS Hmu Hsort. assert (HD : dims (K := numF (sl_libm L)) (bounds_of (e_info E)) s).
  { unfold dims. destruct HS as (H1 & H2 & H3 & _). pose proof bounds_of_length as BL. split; [exact (eq_trans H1 (eq_sym BL))|]. split; [exact (eq_trans H2 (eq_sym BL))|exact (eq_trans H3 (eq_sym BL))]. }
  destruct (es_sample_defined (K := numF (sl_libm L)) (sl_new L) (sl_draw L) rounded (bounds_of (e_info E)) (Z.to_nat lambda) offset offset_stdev s HD) as (s1 & Hs1 & D1).
  pose proof (es_sized_sample s HS) as HS1. exists s1, (es_pop s1).
  assert (HE : s_sample smp s = (s1, Ok (es_pop s1))).
  { unfold es_sampler. cbn [s_sample]. match goal with |- context [match ?m with Ok _ => _ | _ => _ end] => replace m with (Ok s1) by (symmetry; exact Hs1) end. reflexivity. }
  rewrite HE in HS1. cbn [fst] in HS1. split; [exact HE|]. split; [apply HS1|]. intros fits HL HN.
  destruct (C47_order_is_best_first (sl_sort L) (e_info E) fits Hsort HN) as [HP _]. destruct HS1 as (_ & _ & _ & P1 & P2).
  destruct (es_update_defined (K := numF (sl_libm L)) (sl_eps L) (bounds_of (e_info E)) mu component s1 (sorted_indices (sl_sort L) (is_better (e_info E)) fits)) as (s2 & Hs2 & _).
  - exact D1.
  - eapply Forall_impl; [|exact P2]. intros p Hp. exact (eq_trans Hp (eq_sym bounds_of_length)).
  - lia.
  - assert (HLf : length fits = Z.to_nat lambda) by exact (eq_trans HL P1). rewrite (Permutation_length HP), seq_length, HLf. clear - Hmu. lia.
  - eapply Permutation_Forall; [symmetry; exact HP|]. apply Forall_forall. intros k Hk. apply in_seq in Hk. rewrite HL in Hk. exact (proj2 Hk).
  - exists s2. assert (HU : s_update smp s1 fits = (s2, Ok tt)).
    { unfold es_sampler. cbn [s_update]. match goal with |- context [match ?m with Ok _ => _ | _ => _ end] => replace m with (Ok s2) by (symmetry; exact Hs2) end. reflexivity. }
    split; [exact HU|]. pose proof (es_sized_update s1 fits) as HZ. rewrite HU in HZ. apply HZ. pose proof (es_sized_sample s HS) as HS1. rewrite HE in HS1. exact HS1.
Qed.
End Dimensions.
(** The option mu is not checked: an update is only defined when 0 <= mu <= lambda. *)
Theorem C47_mu_is_not_checked : forall (K : Num) rng (eps : K) bounds mu component (st : es_state K rng) order r,
  bounds <> [] -> es_update eps bounds mu component st order = Ok r -> (0 <= mu <= Z.of_nat (length order))%Z.
Proof.
  intros * Hb H. apply es_update_components in H as (pj & _ & _ & _ & H). destruct (H 0) as (sel & _ & _ & _ & HS & _); [destruct bounds; [congruence|cbn; lia]|].
  unfold selected in HS. destruct (Z.ltb_spec mu 0); [discriminate|]. apply for_each_Forall2 in HS. split; [lia|]. destruct (Z.le_gt_cases mu (Z.of_nat (length order))) as [G|G]; [exact G|exfalso].
  assert (HI : In (length order) (seq 0 (Z.to_nat mu))) by (apply in_seq; lia). clear - HS HI. induction HS as [|a b l r Hab _ IH]; [destruct HI|]. destruct HI as [->|HI]; [|auto].
  unfold get in Hab at 1. rewrite (proj2 (nth_error_None order (length order))) in Hab by lia. discriminate.
Qed.

(** ** C48 *)
(** [info'] is [info] with other means and standard deviations. *)
Definition only_mean_std_changed (info info' : obj_info) (mean std : list f64) : Prop :=
  map pi_name (oi_free info') = map pi_name (oi_free info) /\
  map pi_min (oi_free info') = map pi_min (oi_free info) /\ map pi_max (oi_free info') = map pi_max (oi_free info) /\
  oi_locked info' = oi_locked info /\ oi_minimize info' = oi_minimize info /\ oi_target info' = oi_target info /\ oi_name info' = oi_name info /\
  map pi_mean (oi_free info') = mean /\ map pi_std (oi_free info') = std.
Lemma set_mean_std_changes info mean std : length mean = oi_dim info -> length std = oi_dim info ->
  exists info', set_mean_std info mean std = Ok info' /\ only_mean_std_changed info info' mean std.
Proof.
  intros H1 H2. unfold set_mean_std, assert_. rewrite H1, H2, Nat.eqb_refl. cbn [andb obind]. eexists. split; [reflexivity|]. unfold only_mean_std_changed, with_free. cbn [oi_free oi_locked oi_minimize oi_target oi_name].
  assert (A : forall l m s, length m = length l -> length s = length l -> map pi_name (set_mean_std_list l m s) = map pi_name l /\ map pi_min (set_mean_std_list l m s) = map pi_min l /\
    map pi_max (set_mean_std_list l m s) = map pi_max l /\ map pi_mean (set_mean_std_list l m s) = m /\ map pi_std (set_mean_std_list l m s) = s).
  { induction l as [|p l IH]; intros [|a m] [|b s]; cbn [length]; try discriminate; [auto|]. intros [= G1] [= G2]. destruct (IH m s G1 G2) as (A1 & A2 & A3 & A4 & A5).
    cbn [set_mean_std_list map with_mean_std pi_name pi_mean pi_std pi_min pi_max]. rewrite A1, A2, A3, A4, A5. auto. }
  destruct (A (oi_free info) mean std H1 H2) as (A1 & A2 & A3 & A4 & A5). auto 12.
Qed.
(** At any time of any run of MES or EVA. *)
Theorem C48_es : forall L E lambda mu offset offset_stdev component o g evals,
  let s := snd (fst (full_steps (es_sampler L (e_info E) lambda mu offset offset_stdev component) E o (es_start L (e_info E) lambda g) evals)) in
  exists info', es_updated_info L (e_info E) s = Ok info' /\ only_mean_std_changed (e_info E) info' (es_mean s) (map fsqrt (es_var s)).
Proof.
  intros L E lambda mu offset offset_stdev component o g evals s. destruct (C47_dimensions L E lambda mu offset offset_stdev component o g evals) as (H1 & H2 & _). fold s in H1, H2.
  unfold es_updated_info. apply set_mean_std_changes; [exact H1|]. unfold es_std. rewrite map_length. exact H2.
Qed.
(** The labels and values reported for the state: three per parameter, in the order of the parameters. *)
Theorem C48_es_state_report : forall L E lambda mu offset offset_stdev component o g evals suffix,
  let s := snd (fst (full_steps (es_sampler L (e_info E) lambda mu offset offset_stdev component) E o (es_start L (e_info E) lambda g) evals)) in
  let labels := es_state_labels suffix (map pi_name (oi_free (e_info E))) in
  exists values, @es_state_values (numF (sl_libm L)) _ (bounds_of (e_info E)) s = Ok values /\ length values = length labels /\
  forall i p, nth_error (oi_free (e_info E)) i = Some p -> exists m v mo, nth_error (es_mean s) i = Some m /\ nth_error (es_var s) i = Some v /\ nth_error (es_mom s) i = Some mo /\
    nth_error labels (3 * i) = Some (pi_name p ++ ".mean")%string /\ nth_error values (3 * i) = Some m /\
    nth_error labels (3 * i + 1) = Some (pi_name p ++ ".std")%string /\ nth_error values (3 * i + 1) = Some (fsqrt v) /\
    nth_error labels (3 * i + 2) = Some (pi_name p ++ suffix)%string /\ nth_error values (3 * i + 2) = Some mo.
Proof.
  intros L E lambda mu offset offset_stdev component o g evals suffix s labels. destruct (C47_dimensions L E lambda mu offset offset_stdev component o g evals) as (H1 & H2 & H3 & _). fold s in H1, H2, H3.
  unfold es_state_values. rewrite bounds_of_length.
  set (f := fun i : nat => _). destruct (for_each_defined f (seq 0 (oi_dim (e_info E)))) as (l & Hl).
  { intros i Hi. apply in_seq in Hi. unfold f. destruct (get_defined (es_mean s) i) as (m & ->); [change (i < length (es_mean s)); rewrite H1; lia|].
    destruct (get_defined (es_var s) i) as (v & ->); [change (i < length (es_var s)); rewrite H2; lia|]. destruct (get_defined (es_mom s) i) as (mo & ->); [change (i < length (es_mom s)); rewrite H3; lia|]. cbn. eauto. }
  rewrite Hl. cbn [obind]. exists (concat l). split; [reflexivity|].
  assert (HC : forall (A : Type) (ll : list (list A)), Forall (fun x => length x = 3) ll -> length (concat ll) = 3 * length ll /\ forall i x, nth_error ll i = Some x -> forall j, j < 3 -> nth_error (concat ll) (3 * i + j) = nth_error x j).
  { clear. intros A ll F. induction F as [|x ll Hx _ [IL IN]]; [split; [reflexivity|intros [|i] x; discriminate]|]. cbn [concat length]. rewrite app_length, IL, Hx. split; [lia|].
    intros [|i] y Hy j Hj; cbn [nth_error] in Hy.
    - injection Hy as <-. rewrite nth_error_app1 by lia. reflexivity.
    - rewrite nth_error_app2 by lia. rewrite Hx. replace (3 * S i + j - 3) with (3 * i + j) by lia. now apply IN. }
  apply for_each_Forall2 in Hl.
  assert (F3 : Forall (fun x => length x = 3) l).
  { clear - Hl. induction Hl as [|i x ll l Hx _ IH]; constructor; auto. unfold f in Hx. destruct (get (es_mean s) i); cbn [obind] in Hx; try discriminate. destruct (get (es_var s) i); cbn [obind] in Hx; try discriminate. destruct (get (es_mom s) i); cbn [obind] in Hx; try discriminate. injection Hx as <-. reflexivity. }
  assert (F3' : Forall (fun x => length x = 3) (map (fun n => [n ++ ".mean"; n ++ ".std"; n ++ suffix]%string) (map pi_name (oi_free (e_info E))))) by (apply Forall_forall; intros x Hx; apply in_map_iff in Hx as (n & <- & _); reflexivity).
  destruct (HC _ l F3) as [L1 N1]. destruct (HC _ _ F3') as [L2 N2]. fold labels in L2, N2. split.
  - unfold labels, es_state_labels. rewrite L1, L2, !map_length. f_equal. clear - Hl. assert (length l = length (seq 0 (oi_dim (e_info E)))) as -> by (induction Hl as [|? ? ? ? ? ? IH]; [reflexivity|exact (f_equal S IH)]). apply seq_length.
  - intros i p Hp. assert (Hi : i < oi_dim (e_info E)) by (apply nth_error_Some; congruence).
    assert (HX : exists x, nth_error l i = Some x /\ f i = Ok x).
    { assert (Hs : nth_error (seq 0 (oi_dim (e_info E))) i = Some i) by (rewrite (nth_error_nth' _ 0) by (rewrite seq_length; exact Hi); rewrite seq_nth by exact Hi; reflexivity).
      clear - Hl Hs. revert Hs. generalize i at 1 3 as j. induction Hl as [|a c ll r Hc _ IH]; intros [|j] H; cbn [nth_error] in *; try discriminate; [injection H as ->; eauto|apply IH; exact H]. }
    destruct HX as (x & Hx & Hf). unfold f in Hf. destruct (get (es_mean s) i) as [m| |] eqn:Em; cbn [obind] in Hf; try discriminate. destruct (get (es_var s) i) as [v| |] eqn:Ev; cbn [obind] in Hf; try discriminate. destruct (get (es_mom s) i) as [mo| |] eqn:Eo; cbn [obind] in Hf; try discriminate.
    injection Hf as <-. apply get_Ok in Em, Ev, Eo. exists m, v, mo. split; [exact Em|]. split; [exact Ev|]. split; [exact Eo|].
    assert (HLab : nth_error (map (fun n => [n ++ ".mean"; n ++ ".std"; n ++ suffix]%string) (map pi_name (oi_free (e_info E)))) i = Some [pi_name p ++ ".mean"; pi_name p ++ ".std"; pi_name p ++ suffix]%string) by (rewrite !nth_error_map, Hp; reflexivity).
    assert (LB : forall k, k < 3 -> nth_error labels (3 * i + k) = nth_error [pi_name p ++ ".mean"; pi_name p ++ ".std"; pi_name p ++ suffix]%string k) by (intros k Hk; unfold labels, es_state_labels; apply (N2 i _ HLab k Hk)).
    pose proof (N1 i _ Hx) as NV. split; [rewrite <- (Nat.add_0_r (3 * i)); apply (LB 0); lia|]. split; [rewrite <- (Nat.add_0_r (3 * i)); apply (NV 0); lia|].
    split; [apply (LB 1); lia|]. split; [apply (NV 1); lia|]. split; [apply (LB 2); lia|apply (NV 2); lia].
Qed.
