(** * C78: what a fitness that is not a number does. *)
From Coq Require Import ZArith Bool.
From Flocq Require Import BinarySingleNaN.
From Verif Require Import Prelude Flt FltFacts Flt32 Round8 Round8Facts FlatMap ParInfo ObjInfo ObjInfoFacts Num MathTools Optimizer OptimizerFacts
  Properties_Optimizer Properties_Optimizer2 Properties_Optimizer3 Properties_Optimizer4.

(** ** The best of a list *)
Lemma find_best_is o l : find_best_fitness o l = min_element (is_better o) l.
Proof. unfold find_best_fitness, is_better, fgt. destruct (oi_minimize o); reflexivity. Qed.
Lemma better_numbers o a b : is_better o a b = true -> fisnan a = false /\ fisnan b = false.
Proof. rewrite is_better_key. intros H. apply andb_prop in H as [H _]. apply andb_prop in H as [H1 H2]. split; now apply negb_true_iff. Qed.
Lemma is_better_nan_l o a b : fisnan a = true -> is_better o a b = false.
Proof. intros H. now rewrite is_better_key, H. Qed.
Lemma is_better_nan_r o a b : fisnan b = true -> is_better o a b = false.
Proof. intros H. rewrite is_better_key, H. cbn. now rewrite andb_false_r. Qed.
Lemma not_better_trans o x b y : is_better o x b = false -> is_better o y b = true -> is_better o x y = false.
Proof.
  intros H1 H2. destruct (better_numbers o y b H2) as [N1 N2]. destruct (is_better o x y) eqn:H3; [|reflexivity]. destruct (better_numbers o x y H3) as [N3 _].
  rewrite is_better_key, N1, N2 in H2. rewrite is_better_key, N3, N2 in H1. rewrite is_better_key, N3, N1 in H3. cbn [negb andb] in *.
  apply Z.ltb_lt in H2, H3. apply Z.ltb_ge in H1. lia.
Qed.
Lemma not_better_beaten o x b y : is_better o x b = false -> is_better o y b = true -> fisnan x = true \/ is_better o y x = true.
Proof.
  intros H1 H2. destruct (fisnan x) eqn:N3; [now left|right]. destruct (better_numbers o y b H2) as [N1 N2].
  rewrite is_better_key, N1, N2 in H2. rewrite is_better_key, N2, N3 in H1. rewrite is_better_key, N3, N1. cbn [negb andb] in *.
  apply Z.ltb_lt in H2. apply Z.ltb_ge in H1. apply Z.ltb_lt. lia.
Qed.
Lemma min_from_nan o b : fisnan b = true -> forall l bi i, min_element_from (is_better o) b bi i l = bi.
Proof. intros Hb l. induction l as [|x l IH]; intros bi i; [reflexivity|]. cbn [min_element_from]. now rewrite (is_better_nan_r o x b Hb). Qed.
Lemma min_from_number o l : forall pre b bi, fisnan b = false -> nth_error pre bi = Some b ->
  (forall x, In x pre -> is_better o x b = false) -> (forall j x, j < bi -> nth_error pre j = Some x -> fisnan x = true \/ is_better o b x = true) ->
  exists r, nth_error (pre ++ l) (min_element_from (is_better o) b bi (length pre) l) = Some r /\ fisnan r = false /\
    (forall x, In x (pre ++ l) -> is_better o x r = false) /\
    (forall j x, j < min_element_from (is_better o) b bi (length pre) l -> nth_error (pre ++ l) j = Some x -> fisnan x = true \/ is_better o r x = true).
Proof.
  induction l as [|y l IH]; intros pre b bi Hb Hbi H1 H2; cbn [min_element_from].
  - rewrite app_nil_r. exists b. auto.
  - replace (pre ++ y :: l) with ((pre ++ [y]) ++ l) by (rewrite <- app_assoc; reflexivity).
    assert (HL : S (length pre) = length (pre ++ [y])) by (rewrite app_length; cbn; lia). rewrite HL.
    assert (Hlt : bi < length pre) by (apply nth_error_Some; congruence).
    destruct (is_better o y b) eqn:Ey.
    + apply IH.
      * now destruct (better_numbers o y b Ey).
      * rewrite nth_error_app2 by lia. now rewrite Nat.sub_diag.
      * intros x Hx. apply in_app_iff in Hx as [Hx|[<-|[]]]; [exact (not_better_trans o x b y (H1 x Hx) Ey)|].
        rewrite is_better_key, Z.ltb_irrefl. apply andb_false_r.
      * intros j x Hj Hx. rewrite nth_error_app1 in Hx by lia. exact (not_better_beaten o x b y (H1 x (nth_error_In _ _ Hx)) Ey).
    + apply IH; [exact Hb| | |].
      * rewrite nth_error_app1 by lia. exact Hbi.
      * intros x Hx. apply in_app_iff in Hx as [Hx|[<-|[]]]; [now apply H1|exact Ey].
      * intros j x Hj Hx. rewrite nth_error_app1 in Hx by lia. now apply (H2 j).
Qed.
(** find_best_fitness: if the first fitness is not a number, it is the one returned; otherwise the first
    of the best ones among the numbers, whatever the others are. *)
Theorem C78_choice : forall o f l,
  (fisnan f = true -> find_best_fitness o (f :: l) = 0) /\
  (fisnan f = false -> exists r, nth_error (f :: l) (find_best_fitness o (f :: l)) = Some r /\ fisnan r = false /\
     (forall x, In x (f :: l) -> is_better o x r = false) /\
     (forall j x, j < find_best_fitness o (f :: l) -> nth_error (f :: l) j = Some x -> fisnan x = true \/ is_better o r x = true)).
Proof.
  intros o f l. rewrite find_best_is. cbn [min_element]. split.
  - intros Hf. now apply min_from_nan.
  - intros Hf. apply (min_from_number o l [f] f 0 Hf); [reflexivity| |lia].
    intros x [<-|[]]. rewrite is_better_key, Z.ltb_irrefl. apply andb_false_r.
Qed.

(** ** Steps *)
(** The first point of the step was evaluated to something that is not a number. *)
Definition nan_first (i : step_input) : bool := match si_results i with ROk f :: _ => fisnan f | _ => false end.
Lemma nan_first_fits E i : si_results i <> [] -> exists f l, fits_of E (si_results i) = f :: l /\ fisnan f = nan_first i.
Proof.
  unfold nan_first, fits_of. intros H. destruct (si_results i) as [|[f|e] t]; [congruence| |]; cbn [map]; eexists; eexists; (split; [reflexivity|]); [reflexivity|apply worst_not_nan].
Qed.
Lemma wf_results E i : wf_input E i -> si_results i <> [].
Proof. intros (W1 & W2 & _) H. rewrite H in W1. destruct (si_pop i); [now apply W2|discriminate]. Qed.
Lemma step_best_nan E i : wf_input E i -> nan_first i = true -> fisnan (step_best E (si_results i)) = true /\ step_best_point E i = nth 0 (si_pop i) [].
Proof.
  intros W H. destruct (nan_first_fits E i (wf_results E i W)) as (f & l & Hf & Hn). rewrite H in Hn.
  unfold step_best, step_best_point. rewrite Hf. destruct (C78_choice (e_info E) f l) as [HC _]. rewrite (HC Hn). split; [exact Hn|reflexivity].
Qed.
Lemma step_best_number E i : wf_input E i -> nan_first i = false -> fisnan (step_best E (si_results i)) = false /\
  forall x, In x (fits_of E (si_results i)) -> is_better (e_info E) x (step_best E (si_results i)) = false.
Proof.
  intros W H. destruct (nan_first_fits E i (wf_results E i W)) as (f & l & Hf & Hn). rewrite H in Hn.
  unfold step_best. rewrite Hf. destruct (C78_choice (e_info E) f l) as [_ HC]. destruct (HC Hn) as (r & R1 & R2 & R3 & _).
  rewrite (nth_error_nth _ _ fnan R1). auto.
Qed.

(** best_fitness() is always a number, and best_point() is the initial mean or a point that was evaluated to a number. *)
Theorem C78_best_is_a_number : forall E extra h, oi_dim (e_info E) <> 0 -> Forall (wf_op E) h ->
  let c := o_core (after E extra h) in
  fisnan (c_best_fit c) = false /\
  (c_best_pt c = map rounded (map pi_mean (oi_free (e_info E))) \/
   exists p f, evaluated E h p f /\ fisnan f = false /\ c_best_fit c = f /\ c_best_pt c = map rounded p).
Proof.
  intros E extra h Hd Hw c. destruct (C19_best_is_best_ever E extra h Hd Hw) as [[[H1 H2]|(p & f & K1 & K2 & K3 & _ & K4)] _].
  - fold c in H1, H2. rewrite H1. split; [apply worst_not_nan|now left].
  - fold c in K2, K3. destruct (better_numbers _ _ _ K4) as [N _]. rewrite K2. split; [exact N|]. right. exists p, f. auto.
Qed.

(** A completed step that begins with such a point is wasted: it counts as a step, current_step_best_fitness() is not a number
    and its point is the first one, and best_fitness() and best_point() stay as they were, whatever the other points of the step are. *)
Theorem C78_wasted_step : forall E extra h i, oi_dim (e_info E) <> 0 -> Forall (wf_op E) h -> wf_input E i ->
  too_many_errors E (si_results i) = false -> nan_first i = true ->
  let c := o_core (after E extra h) in let c' := o_core (after E extra (h ++ [OpStep i])) in
  c_steps c' = S (c_steps c) /\ fisnan (c_cur_fit c') = true /\ c_cur_pt c' = nth 0 (si_pop i) [] /\
  c_best_fit c' = c_best_fit c /\ c_best_pt c' = c_best_pt c.
Proof.
  intros E extra h i Hd Hw Hi Ht Hn c c'. subst c'. rewrite after_snoc.
  destruct (strip_fields _ _ (exec_core E (after E extra h) (OpStep i) (after_inv E extra h Hd Hw) Hd Hi)) as (-> & -> & -> & -> & _ & -> & _).
  fold c. cbn [op_core]. pose proof (step_core_fields E c i) as HF. cbv zeta in HF. rewrite Ht in HF.
  destruct (step_best_nan E i Hi Hn) as [S1 S2]. rewrite (is_better_nan_l _ _ _ S1) in HF. destruct HF as (F1 & _ & F2 & F3 & (F4 & F5) & _).
  rewrite F1, F2, F3, F4, F5. auto.
Qed.
(** In any other completed step current_step_best_fitness() is a number, and nothing evaluated in it is better. *)
Theorem C78_other_step : forall E extra h i, oi_dim (e_info E) <> 0 -> Forall (wf_op E) h -> wf_input E i ->
  too_many_errors E (si_results i) = false -> nan_first i = false ->
  let c' := o_core (after E extra (h ++ [OpStep i])) in
  fisnan (c_cur_fit c') = false /\ (forall f, In (ROk f) (si_results i) -> is_better (e_info E) f (c_cur_fit c') = false) /\
  is_better (e_info E) (c_cur_fit c') (c_best_fit c') = false.
Proof.
  intros E extra h i Hd Hw Hi Ht Hn c'. subst c'. rewrite after_snoc.
  destruct (strip_fields _ _ (exec_core E (after E extra h) (OpStep i) (after_inv E extra h Hd Hw) Hd Hi)) as (_ & -> & _ & -> & _).
  set (c := o_core (after E extra h)). cbn [op_core]. pose proof (step_core_fields E c i) as HF. cbv zeta in HF. rewrite Ht in HF.
  destruct (step_best_number E i Hi Hn) as [S1 S2]. destruct HF as (_ & _ & F2 & _ & F4 & _). rewrite F2. split; [exact S1|]. split.
  - intros f Hf. apply S2. unfold fits_of. apply (in_map (fun r => match r with ROk f => f | RErr _ => worst_fitness (e_info E) end)) in Hf. exact Hf.
  - destruct (is_better (e_info E) (step_best E (si_results i)) (c_best_fit c)) eqn:Eb; destruct F4 as [F4 _]; rewrite F4; [|exact Eb].
    rewrite is_better_key, Z.ltb_irrefl. apply andb_false_r.
Qed.

(** So best_fitness() is at least as good as every fitness evaluated in a completed step that did not begin with such a point. *)
Theorem C78_best_of_the_others : forall E extra h i k f, oi_dim (e_info E) <> 0 -> Forall (wf_op E) h ->
  In (OpStep i) h -> too_many_errors E (si_results i) = false -> nan_first i = false -> nth_error (si_results i) k = Some (ROk f) ->
  is_better (e_info E) f (c_best_fit (o_core (after E extra h))) = false.
Proof.
  intros E extra h i k f Hd Hw Hin Ht Hn Hk. induction h as [|a h IH] using rev_ind; [destruct Hin|].
  pose proof Hw as Hw'. apply Forall_app in Hw' as [Hw1 Hw2].
  apply in_app_iff in Hin as [Hin|[->|[]]].
  - specialize (IH Hw1 Hin). destruct (C19_monotone E extra h a Hd Hw) as [[H1 _]|H1]; [now rewrite H1|]. exact (not_better_trans _ _ _ _ IH H1).
  - inversion_clear Hw2 as [|? ? Hi _]. destruct (C78_other_step E extra h i Hd Hw1 Hi Ht Hn) as (S1 & S2 & S3).
    apply nth_error_In in Hk. specialize (S2 f Hk). clear IH. destruct (is_better (e_info E) f (c_best_fit (o_core (after E extra (h ++ [OpStep i]))))) eqn:E1; [|reflexivity]. exfalso.
    set (x := c_cur_fit _) in *. set (b := c_best_fit _) in *. destruct (better_numbers _ _ _ E1) as [N1 N2].
    rewrite is_better_key, S1, N2 in S3. rewrite is_better_key, N1, S1 in S2. rewrite is_better_key, N1, N2 in E1. cbn [negb andb] in *.
    apply Z.ltb_lt in E1. apply Z.ltb_ge in S2, S3. lia.
Qed.

(** ** Stop conditions *)
(** A completed step that begins with such a point is never flat. *)
Theorem C78_never_flat : forall E extra h i eps, oi_dim (e_info E) <> 0 -> Forall (wf_op E) h -> wf_input E i ->
  too_many_errors E (si_results i) = false -> nan_first i = true ->
  answer E (o_core (after E extra (h ++ [OpStep i]))) (ScFlat eps) = Ok false.
Proof.
  intros E extra h i eps Hd Hw Hi Ht Hn. unfold answer. cbn [sc_test snd]. rewrite after_snoc.
  destruct (strip_fields _ _ (exec_core E (after E extra h) (OpStep i) (after_inv E extra h Hd Hw) Hd Hi)) as (-> & _ & _ & _ & -> & _).
  set (c := o_core (after E extra h)). cbn [op_core]. pose proof (step_core_fields E c i) as HF. cbv zeta in HF. rewrite Ht in HF.
  destruct HF as (-> & -> & _). cbn [Nat.ltb Nat.leb]. destruct (nan_first_fits E i (wf_results E i Hi)) as (f & l & -> & Hf). rewrite Hn in Hf.
  cbn [min_element].
  assert (H1 : min_element_from flt f 0 1 l = 0).
  { generalize 1 as q. induction l as [|x l IH]; intros q; cbn [min_element_from]; [reflexivity|].
    rewrite flt_key, Hf. cbn [negb]. rewrite andb_false_r. apply IH. }
  assert (H2 : min_element_from (fun x b => flt b x) f 0 1 l = 0).
  { generalize 1 as q. clear H1. induction l as [|x l IH]; intros q; cbn [min_element_from]; [reflexivity|].
    rewrite flt_key, Hf. cbn [negb andb]. apply IH. }
  rewrite H1, H2. cbn [nth_error]. apply fisnan_spec in Hf. subst f. reflexivity.
Qed.

(** The target condition is not affected: after a step that begins with such a point it answers as before. *)
Theorem C78_target_unaffected : forall E extra h i t, oi_dim (e_info E) <> 0 -> Forall (wf_op E) h -> wf_input E i ->
  too_many_errors E (si_results i) = false -> nan_first i = true ->
  answer E (o_core (after E extra (h ++ [OpStep i]))) (ScTarget t) = answer E (o_core (after E extra h)) (ScTarget t).
Proof.
  intros E extra h i t Hd Hw Hi Ht Hn. destruct (C78_wasted_step E extra h i Hd Hw Hi Ht Hn) as (_ & _ & _ & H & _).
  unfold answer. cbn [sc_test snd]. now rewrite H.
Qed.

(** A straight line through values one of which is not a number has no slope: true of xo's least squares, which adds up all the values. *)
Definition no_slope (E : env) : Prop := forall xs ys, In B754_nan ys -> lf_slope (e_regression E xs ys) = B754_nan.
(** As long as one of the steps of the tracking window is such a step, progress() and predicted_fitness() are not numbers: a minimum
    progress condition does not stop the optimization, and a predicted fitness condition does, whatever its limit. *)
Theorem C78_window : forall E extra h x, oi_dim (e_info E) <> 0 -> Forall (wf_op E) h -> no_slope E ->
  window (extra ++ adds h) = window extra -> 2 <= window extra -> 2 <= completed E h ->
  In x (last_n (window extra) (step_bests E h)) -> fisnan x = true ->
  let c := o_core (after E extra h) in
  snd (progress E c) = Ok B754_nan /\ (forall n, snd (predicted_fitness E c n) = Ok B754_nan) /\
  (forall p n, answer E c (ScMinProgress p n) = Ok false) /\
  (forall pr f look n, answer E c (ScPredicted pr f look n) = Ok (n <=? completed E h)).
Proof.
  intros E extra h x Hd Hw Hs Hwin H2 H3 Hin Hx c.
  destruct (C25_history_is_the_window E extra h Hd Hw Hwin) as (A1 & A2 & A3 & A4 & A5). fold c in A1, A2, A3, A4, A5.
  destruct (C26_trend_is_never_stale E extra h Hd Hw) as (_ & B2 & B3). fold c in B2, B3.
  assert (HS : lf_slope (regression_of E c) = B754_nan).
  { unfold regression_of. destruct (Nat.ltb_spec (length (c_hist c)) 2); [lia|]. apply Hs. rewrite A2. apply fisnan_spec in Hx. subst x.
    apply (in_map f32_of_f64) in Hin. exact Hin. }
  assert (HE : forall z, lin_eval (regression_of E c) z = B754_nan).
  { intros z. unfold lin_eval. rewrite HS. unfold f32add, f32mul. cbn [Bmult]. destruct (lf_intercept (regression_of E c)) as [[]|[]| |[]]; reflexivity. }
  assert (HP : snd (progress E c) = Ok B754_nan).
  { rewrite B2. destruct (Nat.eqb_spec (c_cap c) 0); [lia|]. destruct (Nat.ltb_spec (length (c_hist c)) 2); [lia|]. cbv zeta. rewrite HS.
    unfold f32div. cbn [Bdiv]. destruct (oi_minimize (e_info E)); reflexivity. }
  assert (HQ : forall n, snd (predicted_fitness E c n) = Ok B754_nan).
  { intros n. rewrite B3. destruct (Nat.eqb_spec (c_cap c) 0); [lia|]. destruct (Nat.ltb_spec (length (c_hist c)) 2); [lia|]. now rewrite HE. }
  split; [exact HP|]. split; [exact HQ|]. split.
  - intros p n. unfold answer. cbn [sc_test]. destruct (Nat.leb n (c_steps c)); [|reflexivity].
    destruct (progress E c) as [c' r]. cbn [snd] in *. rewrite HP. reflexivity.
  - intros pr f look n. unfold answer. cbn [sc_test]. rewrite <- A5. destruct (Nat.leb n (c_steps c)); [|reflexivity].
    specialize (HQ look). destruct (predicted_fitness E c look) as [c' r]. cbn [snd] in *. rewrite HQ. cbn [snd f64_of_f32].
    rewrite (is_better_nan_l (e_info E) B754_nan f) by reflexivity. reflexivity.
Qed.

(** ** Concrete runs *)
Definition nan_env : env :=
  {| e_info := ex_info; e_cma := false;
     e_regression := fun _ ys => if existsb is_nan ys then {| lf_intercept := B754_nan; lf_slope := B754_nan |} else lin_zero;
     e_unsigned_errors := true; e_max_errors := 0; e_reporters := []; e_libm := e_libm (ex_env []) |}.
Definition nan_step (front : bool) (a : Z) : step_input :=
  {| si_pop := [[fofZ 0]; [fofZ a]]; si_results := if front then [ROk fnan; ROk (fofZ a)] else [ROk (fofZ a); ROk fnan]; si_interrupt := false |}.
Lemma nan_wf f a : wf_input nan_env (nan_step f a).
Proof. destruct f; (split; [reflexivity|]); (split; [discriminate|]); repeat constructor. Qed.
Lemma good_wf a b : wf_input nan_env (good_step a b).
Proof. split; [reflexivity|]. split; [discriminate|]. repeat constructor. Qed.

(** Without the hypothesis of C19 that no evaluation returns something that is not a number, best_fitness() may be worse than
    a fitness that was evaluated: one at the front of the step hides all the others. *)
Theorem C78_best_ever_refuted : exists E h p f, oi_dim (e_info E) <> 0 /\ Forall (wf_op E) h /\ evaluated E h p f /\ fisnan f = false /\
  is_better (e_info E) f (c_best_fit (o_core (after E [] h))) = true.
Proof.
  exists nan_env, [OpStep (good_step 4 3); OpStep (nan_step true 1)], [fofZ 1], (fofZ 1).
  split; [discriminate|]. split; [constructor; [apply good_wf|]; constructor; [apply nan_wf|constructor]|].
  split; [exists (nan_step true 1), 1; split; [cbn; auto|]; split; [vm_compute; reflexivity|]; split; reflexivity|].
  split; vm_compute; reflexivity.
Qed.
Example C78_nonvacuous :
  no_slope nan_env /\
  (let h := [OpStep (good_step 4 3); OpStep (nan_step false 2); OpStep (nan_step true 1)] in
   let extra := [ScPredicted fzero fzero 5 3] in
   oi_dim (e_info nan_env) <> 0 /\ Forall (wf_op nan_env) h /\ window (extra ++ adds h) = window extra /\ 2 <= window extra /\ completed nan_env h = 3 /\
   nan_first (nan_step false 2) = false /\ nan_first (nan_step true 1) = true /\
   existsb fisnan (last_n (window extra) (step_bests nan_env h)) = true /\
   f64_same (c_best_fit (o_core (after nan_env extra h))) (fofZ 2) = true /\
   (* the predicted fitness condition is the one that stops this run *)
   o_stopped (after nan_env extra h) = Some 2).
Proof.
  split.
  - intros xs ys H. cbn [e_regression nan_env]. assert (E : existsb (is_nan (prec := prec32) (emax := emax32)) ys = true) by (apply existsb_exists; exists B754_nan; auto).
    rewrite E. reflexivity.
  - cbv zeta. split; [discriminate|]. split; [constructor; [apply good_wf|]; constructor; [apply nan_wf|]; constructor; [apply nan_wf|constructor]|].
    split; [reflexivity|]. split; [cbn; lia|]. split; [vm_compute; reflexivity|]. split; [reflexivity|]. split; [reflexivity|].
    split; [vm_compute; reflexivity|]. split; vm_compute; reflexivity.
Qed.
