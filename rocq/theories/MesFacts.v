(** * Facts about the MES/EVA model that hold over every number type. *)
From Coq Require Import ZArith Bool Lia.
From Verif Require Import Prelude Num MathTools Mes.

Lemma get_Ok {A} (l : list A) i x : get l i = Ok x <-> nth_error l i = Some x.
Proof. unfold get. destruct (nth_error l i); split; intros H; congruence. Qed.
Lemma get_defined {A} (l : list A) i : i < length l -> exists x, get l i = Ok x.
Proof. intros H. unfold get. destruct (nth_error l i) eqn:E; [eauto|]. apply nth_error_None in E. lia. Qed.

Lemma for_each_length {A B} (f : A -> outcome B) l r : for_each f l = Ok r -> length r = length l.
Proof.
  revert r. induction l as [|a l IH]; cbn [for_each]; intros r H; [injection H as <-; reflexivity|].
  destruct (f a); cbn [obind] in H; try discriminate. destruct (for_each f l) as [r'| |]; cbn [obind] in H; try discriminate.
  injection H as <-. cbn. f_equal. auto.
Qed.
Lemma for_each_defined {A B} (f : A -> outcome B) l : (forall a, In a l -> exists b, f a = Ok b) -> exists r, for_each f l = Ok r.
Proof.
  induction l as [|a l IH]; cbn [for_each]; intros H; [eauto|].
  destruct (H a) as (b & ->); [now left|]. destruct IH as (r & ->); [intros; apply H; now right|]. cbn. eauto.
Qed.
Lemma for_each_Forall2 {A B} (f : A -> outcome B) l r : for_each f l = Ok r -> Forall2 (fun a b => f a = Ok b) l r.
Proof.
  revert r. induction l as [|a l IH]; cbn [for_each]; intros r H; [injection H as <-; constructor|].
  destruct (f a) eqn:Ea; cbn [obind] in H; try discriminate. destruct (for_each f l) as [r'| |]; cbn [obind] in H; try discriminate.
  injection H as <-. constructor; auto.
Qed.
Lemma for_each_ext {A B} (f g : A -> outcome B) l : (forall a, In a l -> f a = g a) -> for_each f l = for_each g l.
Proof.
  induction l as [|a l IH]; cbn [for_each]; intros H; [reflexivity|]. rewrite (H a) by now left. rewrite IH by (intros; apply H; now right). reflexivity.
Qed.

Section ES.
Context {K : Num} {rng dist : Type} (nd_new : dist) (nd_draw : K -> K -> dist -> rng -> K * dist * rng).
Context (round : K -> K) (eps : K) (bounds : list (K * K)) (lambda : nat) (mu : Z).
Notation state := (es_state K rng).
Notation n := (length bounds).

(** A value as sample_parameter returns it: drawn within the range, or a draw clamped to it. *)
Definition sampled_value (lo hi x : K) : Prop :=
  exists mean stdev d g, let v := fst (fst (nd_draw mean stdev d g)) in
    (x = v /\ nle lo v = true /\ nle v hi = true) \/ x = clamped v lo hi.

Lemma try_sample_value k mean stdev lo hi d g : sampled_value lo hi (fst (try_sample nd_draw k mean stdev lo hi d g)).
Proof.
  revert d g. induction k as [|k IH]; intros d g; cbn [try_sample].
  - destruct (nd_draw mean stdev d g) as [[v d'] g'] eqn:E. cbn [fst]. exists mean, stdev, d, g. cbv zeta. rewrite E. cbn. now right.
  - destruct (nd_draw mean stdev d g) as [[v d'] g'] eqn:E. destruct (nle lo v && nle v hi) eqn:R; [|apply IH].
    cbn [fst]. apply andb_true_iff in R as [R1 R2]. exists mean, stdev, d, g. cbv zeta. rewrite E. cbn. left. auto.
Qed.
Lemma sample_components_values (st : state) ofs bs : forall i g x g',
  sample_components nd_new nd_draw st ofs i bs g = Ok (x, g') -> Forall2 (fun b v => sampled_value (fst b) (snd b) v) bs x.
Proof.
  induction bs as [|b bs IH]; intros i g x g'; cbn [sample_components]; [intros [= <- <-]; constructor|].
  destruct (get (es_mean st) i); cbn [obind]; try discriminate. destruct (get (es_var st) i); cbn [obind]; try discriminate. destruct (get (es_mom st) i); cbn [obind]; try discriminate.
  unfold sample_parameter. match goal with |- context [try_sample ?a ?b ?c ?d ?e ?f ?h ?i] => pose proof (try_sample_value b c d e f h i) as V; destruct (try_sample a b c d e f h i) as [v g1] end. cbn [fst] in V.
  destruct (sample_components nd_new nd_draw st ofs (S i) bs g1) as [[xs g2]| |] eqn:E; cbn [obind]; try discriminate.
  intros [= <- <-]. constructor; [exact V|]. eapply IH; eauto.
Qed.
(** Every sampled individual: component by component, a rounded sampled value. *)
Lemma sample_individuals_values (st : state) o os k : forall d g pop g',
  sample_individuals nd_new nd_draw round bounds st o os k d g = Ok (pop, g') ->
  length pop = k /\ Forall (fun p => exists y, p = map round y /\ Forall2 (fun b v => sampled_value (fst b) (snd b) v) bounds y) pop.
Proof.
  induction k as [|k IH]; intros d g pop g'; cbn [sample_individuals]; [intros [= <- <-]; auto|].
  destruct (nd_draw o os d g) as [[ofs d'] g1]. destruct (sample_components nd_new nd_draw st ofs 0 bounds g1) as [[x g2]| |] eqn:E; cbn [obind]; try discriminate.
  destruct (sample_individuals _ _ _ _ _ _ _ k d' g2) as [[xs g3]| |] eqn:E2; cbn [obind]; try discriminate.
  intros [= <- <-]. apply IH in E2 as [L F]. split; [cbn; congruence|]. constructor; [|exact F]. exists x. split; [reflexivity|]. eapply sample_components_values; eauto.
Qed.
Lemma es_sample_spec o os st st' : es_sample nd_new nd_draw round bounds lambda o os st = Ok st' ->
  es_mean st' = es_mean st /\ es_var st' = es_var st /\ es_mom st' = es_mom st /\ length (es_pop st') = lambda /\
  Forall (fun p => exists y, p = map round y /\ Forall2 (fun b v => sampled_value (fst b) (snd b) v) bounds y) (es_pop st').
Proof.
  unfold es_sample. destruct (sample_individuals _ _ _ _ _ _ _ _ _ _) as [[pop g]| |] eqn:E; cbn [obind]; try discriminate.
  intros [= <-]. cbn. apply sample_individuals_values in E. tauto.
Qed.

Definition dims (st : state) : Prop := length (es_mean st) = n /\ length (es_var st) = n /\ length (es_mom st) = n.

Lemma sample_components_defined (st : state) ofs bs : forall i g, i + length bs <= length (es_mean st) -> i + length bs <= length (es_var st) -> i + length bs <= length (es_mom st) ->
  exists x g', sample_components nd_new nd_draw st ofs i bs g = Ok (x, g').
Proof.
  induction bs as [|b bs IH]; intros i g H1 H2 H3; cbn [sample_components]; [eauto|]. cbn [length] in *.
  destruct (get_defined (es_mean st) i) as (m & ->); [lia|]. destruct (get_defined (es_var st) i) as (v & ->); [lia|]. destruct (get_defined (es_mom st) i) as (mo & ->); [lia|]. cbn [obind].
  destruct (sample_parameter _ _ _ _ _ _) as [x g1]. destruct (IH (S i) g1) as (xs & g2 & ->); try lia. cbn. eauto.
Qed.
Lemma sample_individuals_defined (st : state) o os k : dims st -> forall d g, exists pop g', sample_individuals nd_new nd_draw round bounds st o os k d g = Ok (pop, g').
Proof.
  intros (D1 & D2 & D3). induction k as [|k IH]; intros d g; cbn [sample_individuals]; [eauto|]. destruct (nd_draw o os d g) as [[ofs d'] g1].
  destruct (sample_components_defined st ofs bounds 0 g1) as (x & g2 & ->); try (rewrite ?D1, ?D2, ?D3; lia). cbn [obind].
  destruct (IH d' g2) as (xs & g3 & ->). cbn. eauto.
Qed.
(** Sampling always succeeds on a state of the right dimension. *)
Lemma es_sample_defined o os st : dims st -> exists st', es_sample nd_new nd_draw round bounds lambda o os st = Ok st' /\ dims st'.
Proof.
  intros D. unfold es_sample. destruct (sample_individuals_defined st o os lambda D nd_new (es_rng st)) as (pop & g & ->). cbn. eexists. split; [reflexivity|]. exact D.
Qed.

Definition pop_dims (st : state) : Prop := length (es_pop st) = lambda /\ Forall (fun p => length p = n) (es_pop st).

Lemma vec_sub_length (a b r : list K) : vec_sub a b = Ok r -> length a = length b /\ length r = length a.
Proof.
  unfold vec_sub, assert_. destruct (Nat.eqb (length a) (length b)) eqn:E; cbn [obind]; [|discriminate]. intros [= <-]. apply Nat.eqb_eq in E. split; [exact E|].
  unfold map2. rewrite map_length, combine_length, <- E. lia.
Qed.
Lemma vec_add_length (a b r : list K) : vec_add a b = Ok r -> length a = length b /\ length r = length a.
Proof.
  unfold vec_add, assert_. destruct (Nat.eqb (length a) (length b)) eqn:E; cbn [obind]; [|discriminate]. intros [= <-]. apply Nat.eqb_eq in E. split; [exact E|].
  unfold map2. rewrite map_length, combine_length, <- E. lia.
Qed.
Lemma projected_defined (a ab p : list K) : length a = length ab -> length p = length a -> exists r, projected eps a ab p = Ok r /\ length r = length a.
Proof.
  intros H1 H2. unfold projected, vec_sub, dot_product, vec_add, assert_. rewrite H2, !Nat.eqb_refl. cbn [obind].
  destruct (nlt _ _); [|eauto].
  assert (length (map2 (fun x y : K => nsub x y) p a) = length ab) as -> by (unfold map2; rewrite map_length, combine_length; lia). rewrite Nat.eqb_refl. cbn [obind].
  unfold vec_mul. rewrite map_length. rewrite <- H1, Nat.eqb_refl. cbn [obind]. eexists. split; [reflexivity|]. unfold map2. rewrite map_length, combine_length, map_length. lia.
Qed.

Lemma selected_defined order (pop proj : list (list K)) i :
  (0 <= mu)%Z -> (Z.to_nat mu <= length order) -> Forall (fun k => k < length pop) order -> length proj = length pop ->
  Forall (fun p => length p = n) pop -> Forall (fun p => length p = n) proj -> i < n ->
  exists sel, selected mu order pop proj i = Ok sel /\ length sel = Z.to_nat mu.
Proof.
  intros Hmu Hl Ho Hp F1 F2 Hi. unfold selected. destruct (Z.ltb_spec mu 0); [lia|].
  match goal with |- context [for_each ?f ?l] => destruct (for_each_defined f l) as (r & Hr) end.
  - intros ui Hui. apply in_seq in Hui. destruct (get_defined order ui) as (k & Hk); [lia|]. rewrite Hk. cbn [obind].
    apply get_Ok, nth_error_In in Hk. rewrite Forall_forall in Ho. specialize (Ho k Hk).
    destruct (get_defined pop k Ho) as (ind & Hind). rewrite Hind. cbn [obind]. destruct (get_defined proj k) as (pr & Hpr); [lia|]. rewrite Hpr. cbn [obind].
    rewrite Forall_forall in F1, F2. apply get_Ok, nth_error_In in Hind. apply get_Ok, nth_error_In in Hpr.
    destruct (get_defined ind i) as (x & ->); [rewrite F1; auto|]. destruct (get_defined pr i) as (y & ->); [rewrite F2; auto|]. cbn. eauto.
  - rewrite Hr. exists r. split; [reflexivity|]. apply for_each_length in Hr. rewrite seq_length in Hr. exact Hr.
Qed.

Lemma selected_in order (pop proj : list (list K)) i sel : selected mu order pop proj i = Ok sel ->
  length sel = Z.to_nat mu /\ Forall (fun xy => exists p, In p pop /\ nth_error p i = Some (fst xy)) sel.
Proof.
  unfold selected. destruct (Z.ltb mu 0); [discriminate|]. intros H. pose proof (for_each_length _ _ _ H) as L. rewrite seq_length in L. split; [exact L|]. clear L.
  apply for_each_Forall2 in H. induction H as [|ui xy l r Hx _ IH]; constructor; auto.
  destruct (get order ui) as [k| |]; cbn [obind] in Hx; try discriminate. destruct (get pop k) as [p| |] eqn:Ep; cbn [obind] in Hx; try discriminate. destruct (get proj k) as [q| |]; cbn [obind] in Hx; try discriminate.
  destruct (get p i) as [x| |] eqn:Ex; cbn [obind] in Hx; try discriminate. destruct (get q i) as [y| |]; cbn [obind] in Hx; try discriminate. injection Hx as <-.
  apply get_Ok in Ep, Ex. exists p. split; [eapply nth_error_In; eauto|exact Ex].
Qed.

(** The update succeeds and keeps the dimensions. *)
Lemma es_update_defined component (st : state) order :
  dims st -> Forall (fun p => length p = n) (es_pop st) -> (0 <= mu)%Z -> (Z.to_nat mu <= length order) -> Forall (fun k => k < length (es_pop st)) order ->
  exists st', es_update eps bounds mu component st order = Ok st' /\ dims st' /\ es_pop st' = es_pop st.
Proof.
  intros (D1 & D2 & D3) F Hmu Hl Ho. unfold es_update.
  destruct (for_each_defined (fun p => projected eps (es_mean st) (es_mom st) p) (es_pop st)) as (proj & Hproj).
  { intros p Hp. rewrite Forall_forall in F. destruct (projected_defined (es_mean st) (es_mom st) p) as (r & H & _); [congruence|rewrite F by auto; congruence|eauto]. }
  rewrite Hproj. cbn [obind].
  assert (F2 : Forall (fun p => length p = n) proj).
  { apply for_each_Forall2 in Hproj. clear - Hproj F D1 D3. induction Hproj as [|p r pop proj Hp _ IH]; constructor.
    - inversion F as [|? ? F1 F2]; subst. destruct (projected_defined (es_mean st) (es_mom st) p) as (r' & H & L); [congruence|congruence|]. rewrite H in Hp. injection Hp as <-. congruence.
    - inversion F; subst; auto. }
  match goal with |- context [for_each ?f ?l] => destruct (for_each_defined f l) as (cs & Hcs) end.
  - intros i Hi. apply in_seq in Hi. destruct (selected_defined order (es_pop st) proj i) as (sel & -> & _); auto; [apply for_each_length in Hproj; congruence|lia|]. cbn [obind].
    destruct (get_defined (es_mean st) i) as (m & ->); [lia|]. destruct (get_defined (es_var st) i) as (v & ->); [lia|]. destruct (get_defined (es_mom st) i) as (mo & ->); [lia|]. cbn. eauto.
  - rewrite Hcs. cbn [obind]. eexists. split; [reflexivity|]. apply for_each_length in Hcs. rewrite seq_length in Hcs. unfold dims. cbn. rewrite !map_length. auto.
Qed.
Lemma es_update_dims component (st : state) order st' : es_update eps bounds mu component st order = Ok st' -> dims st'.
Proof.
  unfold es_update. destruct (for_each _ (es_pop st)) as [proj| |]; cbn [obind]; try discriminate. destruct (for_each _ (seq 0 n)) as [cs| |] eqn:E; cbn [obind]; try discriminate.
  intros [= <-]. apply for_each_length in E. rewrite seq_length in E. unfold dims. cbn. rewrite !map_length. auto.
Qed.

(** The new components: of each parameter, from its old components and the average
    over the selected individuals. *)
Lemma es_update_components component (st : state) order st' : es_update eps bounds mu component st order = Ok st' ->
  exists proj, for_each (fun p => projected eps (es_mean st) (es_mom st) p) (es_pop st) = Ok proj /\
  es_rng st' = es_rng st /\ es_pop st' = es_pop st /\
  forall i, i < n -> exists sel m v mo, selected mu order (es_pop st) proj i = Ok sel /\
    nth_error (es_mean st) i = Some m /\ nth_error (es_var st) i = Some v /\ nth_error (es_mom st) i = Some mo /\
    let c := component {| k_mean := m; k_var := v; k_mom := mo |} (mean_of mu sel) (var_of mu sel) in
    nth_error (es_mean st') i = Some (k_mean c) /\ nth_error (es_var st') i = Some (k_var c) /\ nth_error (es_mom st') i = Some (k_mom c).
Proof.
  unfold es_update. destruct (for_each _ (es_pop st)) as [proj| |]; cbn [obind]; try discriminate. destruct (for_each _ (seq 0 n)) as [cs| |] eqn:E; cbn [obind]; try discriminate.
  intros [= <-]. exists proj. split; [reflexivity|]. split; [reflexivity|]. split; [reflexivity|]. intros i Hi. cbn [es_mean es_var es_mom].
  apply for_each_Forall2 in E.
  assert (HN : exists c, nth_error cs i = Some c /\ (let* sel := selected mu order (es_pop st) proj i in
      let* m := get (es_mean st) i in let* v := get (es_var st) i in let* mo := get (es_mom st) i in
      Ok (component {| k_mean := m; k_var := v; k_mom := mo |} (mean_of mu sel) (var_of mu sel))) = Ok c).
  { assert (nth_error (seq 0 n) i = Some i) as Hs by (rewrite (nth_error_nth' _ 0) by (rewrite seq_length; exact Hi); rewrite seq_nth by exact Hi; reflexivity).
    clear - E Hs. revert Hs. generalize i at 1 3 as j. induction E as [|a c l r Hc _ IH]; intros [|j] H; cbn [nth_error] in *; try discriminate; [injection H as ->; eauto|apply IH; exact H]. }
  destruct HN as (c & Hc & H).
  destruct (selected mu order (es_pop st) proj i) as [sel| |] eqn:Es; cbn [obind] in H; try discriminate.
  destruct (get (es_mean st) i) as [m| |] eqn:Em; cbn [obind] in H; try discriminate. destruct (get (es_var st) i) as [v| |] eqn:Ev; cbn [obind] in H; try discriminate. destruct (get (es_mom st) i) as [mo| |] eqn:Eo; cbn [obind] in H; try discriminate.
  apply get_Ok in Em, Ev, Eo. exists sel, m, v, mo. injection H as <-. cbv zeta. rewrite !nth_error_map, Hc. cbn. auto 10.
Qed.
End ES.
