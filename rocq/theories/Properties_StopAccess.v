(** * C83: finding and changing the stop conditions of an optimizer. *)
From Coq Require Import ZArith Bool Lia.
From Verif Require Import Prelude Flt Flt32 FltFacts Round8 FlatMap ParInfo ObjInfo Num MathTools Optimizer OptimizerFacts StopAccess
  Properties_Optimizer Properties_Optimizer2 Properties_Optimizer4.
#[local] Open Scope nat_scope.

(** ** Specification *)
(** What a client does: the calls of the other claims, and changing the members of a condition. *)
Inductive action := Do (a : op) | Change (i : nat) (sc : stop_cond).
Definition act (E : env) (o : opt) (x : action) : opt := match x with Do a => exec E o a | Change i sc => change i sc o end.
Definition acts (E : env) (extra : list stop_cond) (l : list action) : opt := fold_left (act E) l (created E extra).
(** A change keeps the type of the condition (and there is such a condition). *)
Fixpoint wf_acts (E : env) (o : opt) (l : list action) : Prop :=
  match l with
  | [] => True
  | x :: t => match x with Do a => wf_op E a | Change i sc => exists old, nth_error (o_scs o) i = Some old /\ kind_of sc = kind_of old end /\ wf_acts E (act E o x) t
  end.
(** The calls alone, without the changes. *)
Definition calls (l : list action) : list op := flat_map (fun x => match x with Do a => [a] | Change _ _ => [] end) l.
Definition kinds (o : opt) : list kind := map kind_of (o_scs o).
Definition added (l : list op) : list kind := flat_map (fun a => match a with OpAdd sc => [kind_of sc] | _ => [] end) l.

(** ** Facts *)
Lemma kind_eqb_eq a b : kind_eqb a b = true <-> a = b.
Proof. split; [destruct a, b; (reflexivity || discriminate)|intros ->; destruct b; reflexivity]. Qed.
Lemma find_kind_spec k l : forall i,
  match find_kind k i l with
  | Ok j => exists n, j = i + n /\ nth_error (map kind_of l) n = Some k /\ forall m, m < n -> nth_error (map kind_of l) m <> Some k
  | Throw _ => ~ In k (map kind_of l)
  | Undef => False
  end.
Proof.
  induction l as [|sc t IH]; intros i; cbn [find_kind map]; [intros []|]. destruct (kind_eqb (kind_of sc) k) eqn:Ek.
  - apply kind_eqb_eq in Ek. exists 0. split; [lia|]. split; [now rewrite <- Ek|]. intros m Hm; lia.
  - assert (N : kind_of sc <> k) by (intros X; apply kind_eqb_eq in X; congruence). specialize (IH (S i)). destruct (find_kind k (S i) t) as [j|w|].
    + destruct IH as (n & -> & H1 & H2). exists (S n). split; [lia|]. split; [exact H1|]. intros [|m] Hm; [cbn; congruence|]. cbn. apply H2. lia.
    + intros [X|X]; [contradiction|exact (IH X)].
    + exact IH.
Qed.
Lemma kind_after E c sc : kind_of (sc_after E c sc) = kind_of sc.
Proof.
  unfold sc_after. destruct sc; try reflexivity; cbn [sc_test].
  - destruct (Nat.leb _ _); [|reflexivity]. now destruct (progress E c).
  - destruct (Nat.leb _ _); [|reflexivity]. now destruct (predicted_fitness E c look_ahead) as [c' [x|w|]].
  - destruct (_ && _); [|reflexivity]. destruct (negb _); [reflexivity|]. now destruct (similarity_loop _ _ _ _ _ _) as [s [[j|]|w|]].
Qed.
Lemma kinds_test_stop E o : cache_ok E (o_core o) -> kinds (fst (test_stop E o)) = kinds o.
Proof.
  intros H. pose proof (test_stop_scs E o H) as HF. unfold kinds. induction HF as [|a b l m Hab _ IH]; [reflexivity|]. cbn [map]. rewrite IH. f_equal. destruct Hab as [->| ->]; [reflexivity|apply kind_after].
Qed.
Lemma list_set_length {A} (l : list A) i x : length (list_set l i x) = length l.
Proof. revert i. induction l as [|y t IH]; intros [|i]; cbn; auto. Qed.
Lemma list_set_same {A} (l : list A) i x : i < length l -> nth_error (list_set l i x) i = Some x.
Proof. revert i. induction l as [|y t IH]; intros [|i] H; cbn in *; try lia; [reflexivity|]. apply IH. lia. Qed.
Lemma list_set_other {A} (l : list A) i j x : i <> j -> nth_error (list_set l i x) j = nth_error l j.
Proof. revert i j. induction l as [|y t IH]; intros [|i] [|j] H; cbn; try reflexivity; [congruence|]. apply IH. congruence. Qed.
Lemma kinds_exec E o a : opt_inv E o -> oi_dim (e_info E) <> 0 -> wf_op E a -> kinds (exec E o a) = kinds o ++ added [a].
Proof.
  intros [I1 I2 I3] Hd Hw. destruct a as [i| | | | |n|sc]; cbn [exec added flat_map app]; rewrite ?app_nil_r; try reflexivity.
  - destruct (step_shape E o i Hd Hw I2) as (scs & tr & -> & S1 & S2). rewrite kinds_test_stop by (cbn [o_core]; now apply step_core_cache).
    unfold kinds. cbn [o_scs]. destruct (too_many_errors E (si_results i)).
    + destruct (S1 eq_refl) as ((p & e & q & -> & _ & ->) & _). rewrite !map_app. reflexivity.
    + destruct (S2 eq_refl) as (-> & _). reflexivity.
  - now apply kinds_test_stop.
  - unfold kinds. cbn [add_stop_condition o_scs]. now rewrite map_app.
Qed.
Lemma kinds_change i sc o old : nth_error (o_scs o) i = Some old -> kind_of sc = kind_of old -> kinds (change i sc o) = kinds o.
Proof.
  unfold kinds, change. cbn [o_scs]. revert i. induction (o_scs o) as [|y t IH]; intros [|i] H Hk; cbn in *; try discriminate.
  - injection H as ->. now rewrite Hk.
  - f_equal. eapply IH; eassumption.
Qed.
Lemma change_inv E i sc o old : opt_inv E o -> nth_error (o_scs o) i = Some old -> kind_of sc = kind_of old -> opt_inv E (change i sc o).
Proof.
  intros [I1 (e & I2) (t & I3)] H Hk. assert (KE : kinds (change i sc o) = kinds o) by (eapply kinds_change; eassumption). split; [exact I1| |].
  - assert (Hin : In KError (kinds (change i sc o))) by (rewrite KE; unfold kinds; apply in_map_iff; exists (ScError e); split; [reflexivity|exact I2]).
    unfold kinds in Hin. apply in_map_iff in Hin as (x & Hx & Hi). destruct x as [ |e'| | | | | | | ]; try discriminate Hx. exists e'. exact Hi.
  - unfold change. cbn [o_scs]. rewrite I3 in *. destruct i as [|i]; cbn [list_set].
    + cbn in H. injection H as <-. destruct sc; try discriminate Hk. eauto.
    + eauto.
Qed.
Lemma act_inv E o x : opt_inv E o -> oi_dim (e_info E) <> 0 -> match x with Do a => wf_op E a | Change i sc => exists old, nth_error (o_scs o) i = Some old /\ kind_of sc = kind_of old end -> opt_inv E (act E o x).
Proof. intros I Hd H. destruct x as [a|i sc]; cbn [act]; [now apply exec_inv|]. destruct H as (old & H1 & H2). eapply change_inv; eassumption. Qed.
Lemma acts_from E l : forall o, opt_inv E o -> oi_dim (e_info E) <> 0 -> wf_acts E o l ->
  opt_inv E (fold_left (act E) l o) /\ kinds (fold_left (act E) l o) = kinds o ++ added (calls l).
Proof.
  induction l as [|x t IH]; intros o I Hd Hw; cbn [fold_left]; [split; [exact I|unfold calls; cbn; now rewrite app_nil_r]|].
  destruct Hw as (Hx & Ht). destruct (IH (act E o x) (act_inv E o x I Hd Hx) Hd Ht) as (J1 & J2). split; [exact J1|]. rewrite J2.
  destruct x as [a|i sc]; cbn [act] in *.
  - rewrite (kinds_exec E o a I Hd Hx). unfold calls. cbn [flat_map]. fold (calls t). unfold added. cbn [flat_map app]. rewrite app_nil_r, app_assoc. reflexivity.
  - destruct Hx as (old & H1 & H2). rewrite (kinds_change i sc o old H1 H2). reflexivity.
Qed.
Lemma kinds_created E extra : kinds (created E extra) = KAbort :: KError :: map kind_of extra.
Proof.
  unfold created. assert (H : forall o, kinds (fold_left add_stop_condition extra o) = kinds o ++ map kind_of extra).
  { induction extra as [|sc t IH]; intros o; cbn [fold_left map]; [now rewrite app_nil_r|]. rewrite IH. unfold kinds. cbn [add_stop_condition o_scs]. rewrite map_app, <- app_assoc. reflexivity. }
  rewrite H. reflexivity.
Qed.
Lemma wf_acts_app E l m : forall o, wf_acts E o (l ++ m) <-> wf_acts E o l /\ wf_acts E (fold_left (act E) l o) m.
Proof. induction l as [|x t IH]; intros o; cbn [app wf_acts fold_left]; [tauto|]. rewrite IH. tauto. Qed.

(** ** Theorems *)
(** The conditions of an optimizer are those of the constructor, those it was given, and those that
    were added later, in this order; find_stop_condition< T > gives the first of type T and
    throws exactly if there is none. *)
Theorem C83_find : forall E extra l, oi_dim (e_info E) <> 0 -> wf_acts E (created E extra) l ->
  let o := acts E extra l in
  let types := KAbort :: KError :: map kind_of extra ++ added (calls l) in
  map kind_of (o_scs o) = types /\
  (forall T i, find_stop_condition T o = Ok i <-> nth_error types i = Some T /\ forall j, j < i -> nth_error types j <> Some T) /\
  (forall T, (exists w, find_stop_condition T o = Throw w) <-> ~ In T types) /\
  find_stop_condition KAbort o = Ok 0 /\ find_stop_condition KError o = Ok 1.
Proof.
  intros E extra l Hd Hw o types. destruct (acts_from E l (created E extra) (created_inv E extra) Hd Hw) as (I & K).
  assert (KT : map kind_of (o_scs o) = types) by (change (kinds o = types); unfold o, acts; rewrite K, kinds_created; reflexivity).
  assert (F : forall T, match find_stop_condition T o with Ok j => nth_error types j = Some T /\ (forall m, m < j -> nth_error types m <> Some T) | Throw _ => ~ In T types | Undef => False end).
  { intros T. unfold find_stop_condition. pose proof (find_kind_spec T (o_scs o) 0) as S. rewrite KT in S. destruct (find_kind T 0 (o_scs o)) as [j|w|]; [|exact S|exact S]. destruct S as (n & -> & S). exact S. }
  assert (G : forall T i, find_stop_condition T o = Ok i <-> nth_error types i = Some T /\ forall j, j < i -> nth_error types j <> Some T).
  { intros T i. specialize (F T). destruct (find_stop_condition T o) as [j|w|]; [|split; [discriminate|]|destruct F].
    - destruct F as (F1 & F2). split; [intros X; assert (j = i) by congruence; subst j; split; assumption|]. intros (G1 & G2). f_equal.
      destruct (Nat.lt_trichotomy i j) as [L|[L|L]]; [destruct (F2 i L G1)|congruence|destruct (G2 j L F1)].
    - intros (G1 & _). apply nth_error_In in G1. contradiction. }
  split; [exact KT|]. split; [exact G|]. split; [|split; apply G; (split; [reflexivity|])].
  - intros T. specialize (F T). specialize (G T). destruct (find_stop_condition T o) as [j|w|].
    + split; [intros (w & X); discriminate|]. intros N. destruct F as (F & _). apply nth_error_In in F. contradiction.
    + split; [intros _; exact F|eauto].
    + destruct F.
  - intros j Hj. lia.
  - intros [|j] Hj; [discriminate|lia].
Qed.
(** So what was found stays what is found, whatever is called and changed afterwards. *)
Theorem C83_found_for_ever : forall E extra l m T i, oi_dim (e_info E) <> 0 -> wf_acts E (created E extra) (l ++ m) ->
  find_stop_condition T (acts E extra l) = Ok i -> find_stop_condition T (acts E extra (l ++ m)) = Ok i.
Proof.
  intros E extra l m T i Hd Hw H. pose proof Hw as Hw'. apply wf_acts_app in Hw' as (Hl & _).
  destruct (C83_find E extra l Hd Hl) as (_ & F1 & _). destruct (C83_find E extra (l ++ m) Hd Hw) as (_ & F2 & _).
  apply F1 in H as (H1 & H2). apply F2. unfold calls. rewrite flat_map_app. fold (calls l) (calls m). unfold added. rewrite flat_map_app. fold (added (calls l)) (added (calls m)).
  set (t := KAbort :: KError :: map kind_of extra ++ added (calls l)) in *.
  change (KAbort :: KError :: map kind_of extra ++ added (calls l) ++ added (calls m)) with (([KAbort; KError] ++ map kind_of extra ++ added (calls l) ++ added (calls m))).
  assert (E1 : [KAbort; KError] ++ map kind_of extra ++ added (calls l) ++ added (calls m) = t ++ added (calls m)) by (unfold t; cbn [app]; rewrite <- app_assoc; reflexivity).
  rewrite E1. assert (L : i < length t) by (apply nth_error_Some; congruence).
  split; [rewrite nth_error_app1 by exact L; exact H1|]. intros j Hj. rewrite nth_error_app1 by lia. now apply H2.
Qed.

(** A change has its effect the next time the stop conditions are tested: then the first condition
    that tests true, with the members it has now, is the answer and latches.  It has none once
    a condition has latched. *)
Theorem C83_change_takes_effect : forall E extra l i sc, oi_dim (e_info E) <> 0 -> wf_acts E (created E extra) (l ++ [Change i sc]) ->
  let o := acts E extra l in let o' := change i sc o in
  match o_stopped o with
  | Some k => snd (test_stop E o') = Ok (Some k)
  | None =>
    match snd (test_stop E o') with
    | Ok (Some k) => (if Nat.eqb k i then answer E (o_core o) sc = Ok true else exists s, nth_error (o_scs o) k = Some s /\ answer E (o_core o) s = Ok true) /\
        (forall j s, j < k -> j <> i -> nth_error (o_scs o) j = Some s -> answer E (o_core o) s = Ok false) /\ (i < k -> answer E (o_core o) sc = Ok false)
    | Ok None => answer E (o_core o) sc = Ok false /\ forall j s, j <> i -> nth_error (o_scs o) j = Some s -> answer E (o_core o) s = Ok false
    | _ => o_stopped (fst (test_stop E o')) = None
    end
  end.
Proof.
  intros E extra l i sc Hd Hw o o'. pose proof Hw as Hw'. apply wf_acts_app in Hw' as (Hl & (old & H1 & H2) & _). fold (acts E extra l) in H1. fold o in H1.
  destruct (acts_from E l (created E extra) (created_inv E extra) Hd Hl) as ([I1 _ _] & _). fold (acts E extra l) in I1. fold o in I1.
  assert (Hi : i < length (o_scs o)) by (apply nth_error_Some; congruence).
  unfold o', test_stop, change. cbn [o_stopped o_core o_scs o_trace]. destruct (o_stopped o) as [k|]; [reflexivity|].
  pose proof (test_list_spec E (list_set (o_scs o) i sc) (o_core o) 0 I1) as HT. destruct (test_list E (o_core o) 0 (list_set (o_scs o) i sc)) as [[c scs] r].
  destruct HT as (_ & _ & _ & H4). destruct r as [[k|]|w|]; cbn [fst snd o_stopped]; try reflexivity.
  - destruct H4 as (_ & H3 & H5 & (s & H6 & H7) & _). rewrite Nat.sub_0_r in *. rewrite list_set_length in H3.
    assert (HF : forall j s', j < k -> nth_error (list_set (o_scs o) i sc) j = Some s' -> answer E (o_core o) s' = Ok false).
    { intros j s' Hj Hn. rewrite Forall_forall in H5. apply H5. apply nth_error_In with j. rewrite <- (firstn_skipn k (list_set (o_scs o) i sc)) in Hn.
      rewrite nth_error_app1 in Hn; [exact Hn|]. rewrite firstn_length, list_set_length. lia. }
    split; [|split].
    + destruct (Nat.eqb_spec k i) as [->|N]; [rewrite list_set_same in H6 by exact Hi; injection H6 as <-; exact H7|]. rewrite list_set_other in H6 by congruence. eauto.
    + intros j s' Hj Hn Hs. apply (HF j s' Hj). now rewrite list_set_other by congruence.
    + intros L. apply (HF i sc L). now apply list_set_same.
  - destruct H4 as [H4 _]. rewrite Forall_forall in H4. split; [apply H4, nth_error_In with i; now apply list_set_same|].
    intros j s Hj Hs. apply H4, nth_error_In with j. now rewrite list_set_other by congruence.
Qed.
(** It has no other effect, ever: steps, bests, current fitnesses and points, history, window and
    interruption are those of the same calls without the changes. *)
Lemma strip_op_core E c c' a : strip c = strip c' -> strip (op_core E c a) = strip (op_core E c' a).
Proof.
  intros H. destruct a; cbn [op_core]; auto.
  - now rewrite step_core_strip, H, <- step_core_strip.
  - transitivity (strip (with_interrupt (strip c) true)); [reflexivity|]. rewrite H. reflexivity.
  - assert (Hcap : c_cap c = c_cap c') by (change (c_cap (strip c) = c_cap (strip c')); now rewrite H). rewrite Hcap.
    destruct (Nat.ltb _ _); [|exact H]. transitivity (strip (with_cap (strip c) (min_window sc))); [reflexivity|]. rewrite H. reflexivity.
Qed.
Theorem C83_search_unaffected : forall E extra l, oi_dim (e_info E) <> 0 -> wf_acts E (created E extra) l ->
  let c := o_core (acts E extra l) in let c' := o_core (after E extra (calls l)) in
  c_steps c = c_steps c' /\ c_best_fit c = c_best_fit c' /\ c_best_pt c = c_best_pt c' /\ c_cur_fit c = c_cur_fit c' /\ c_cur_fits c = c_cur_fits c' /\
  c_cur_pt c = c_cur_pt c' /\ c_samples c = c_samples c' /\ c_hist c = c_hist c' /\ c_cap c = c_cap c' /\ c_interrupted c = c_interrupted c'.
Proof.
  intros E extra l Hd Hw c c'. assert (H : strip c = strip c').
  { unfold c, c', acts, after. assert (G : forall l o o', opt_inv E o -> opt_inv E o' -> strip (o_core o) = strip (o_core o') -> wf_acts E o l ->
      strip (o_core (fold_left (act E) l o)) = strip (o_core (fold_left (exec E) (calls l) o'))).
    { clear - Hd. induction l as [|x t IH]; intros o o' I I' H Hw; cbn [fold_left]; [exact H|]. destruct Hw as (Hx & Ht).
      destruct x as [a|i sc]; cbn [act] in *.
      - change (calls (Do a :: t)) with (a :: calls t). cbn [fold_left]. apply IH; [now apply exec_inv|now apply exec_inv| |exact Ht].
        rewrite !exec_core by assumption. apply strip_op_core, H.
      - change (calls (Change i sc :: t)) with (calls t). destruct Hx as (old & H1 & H2). apply IH; [eapply change_inv; eassumption|exact I'|exact H|exact Ht]. }
    apply G; [apply created_inv|apply created_inv|reflexivity|exact Hw]. }
  apply strip_fields in H. tauto.
Qed.
(** A client can stop an optimizer with a message of his own: an error put into the
    error_condition is the answer of the next test unless the optimizer has stopped already or was interrupted. *)
Theorem C83_stop_with_an_error : forall E extra l e, oi_dim (e_info E) <> 0 -> wf_acts E (created E extra) l ->
  let o := acts E extra l in
  find_stop_condition KError o = Ok 1 /\
  snd (test_stop E (change 1 (ScError (Some e)) o)) =
    Ok (Some (match o_stopped o with Some k => k | None => if c_interrupted (o_core o) then 0 else 1 end)).
Proof.
  intros E extra l e Hd Hw o. destruct (C83_find E extra l Hd Hw) as (K & _ & _ & _ & F). fold o in K, F. split; [exact F|].
  unfold test_stop, change. cbn [o_stopped o_core o_scs o_trace]. destruct (o_stopped o) as [k|]; [reflexivity|].
  destruct (o_scs o) as [|s0 [|s1 t]]; try discriminate K. cbn [map] in K. injection K as K0 K1 _. destruct s0; try discriminate K0.
  cbn [list_set test_list sc_test]. destruct (c_interrupted (o_core o)); reflexivity.
Qed.

Lemma has_kind o i sc : nth_error (map kind_of (o_scs o)) i = Some (kind_of sc) -> exists old, nth_error (o_scs o) i = Some old /\ kind_of sc = kind_of old.
Proof. rewrite nth_error_map. destruct (nth_error (o_scs o) i) as [x|]; cbn; [|discriminate]. intros H. exists x. split; [reflexivity|congruence]. Qed.
(** Raising max_steps_ before the limit is reached gives as many steps more; raising the number of
    samples of a min_progress_condition does not enlarge the window in which fitnesses are tracked. *)
Example C83_nonvacuous : let E := ex_env [quiet] in let g := Do (OpStep (good_step 2 1)) in
  wf_acts E (created E [ScMaxSteps 2; ScMinProgress (fofZ (-1)) 5]) [g; Change 2 (ScMaxSteps 3); g; Change 3 (ScMinProgress (fofZ (-1)) 50); g] /\
  let o k := acts E [ScMaxSteps 2; ScMinProgress (fofZ (-1)) 5] (firstn k [g; Change 2 (ScMaxSteps 3); g; Change 3 (ScMinProgress (fofZ (-1)) 50); g]) in
  o_stopped (o 3) = None /\ o_stopped (o 5) = Some 2 /\ c_cap (o_core (o 5)) = 5 /\ o_stopped (after E [ScMaxSteps 2; ScMinProgress (fofZ (-1)) 5] [OpStep (good_step 2 1); OpStep (good_step 2 1)]) = Some 2 /\
  find_stop_condition KMinProgress (o 5) = Ok 3 /\ (exists w, find_stop_condition KTarget (o 5) = Throw w).
Proof.
  cbv zeta. split.
  - cbn [wf_acts]. split; [apply ex_wf|]. split; [apply has_kind; vm_compute; reflexivity|]. split; [apply ex_wf|].
    split; [|split; [apply ex_wf|exact I]]. apply has_kind. vm_compute. reflexivity.
  - split; [vm_compute; reflexivity|]. split; [vm_compute; reflexivity|]. split; [vm_compute; reflexivity|]. split; [vm_compute; reflexivity|]. split; [vm_compute; reflexivity|].
    eexists. vm_compute. reflexivity.
Qed.
