(** * C52, C53, C58: file_reporter, attached to an optimizer. *)
From Coq Require Import ZArith Bool Lia.
From Flocq Require Import Core BinarySingleNaN.
From Verif Require Import Prelude Flt FltFacts Flt32 Round8 Round8Facts ShowNum ShowNumFacts ParInfo ObjInfo SearchPoint Num MathTools Optimizer OptimizerFacts
  Properties_Optimizer Properties_Optimizer2 FileReporter FileReporterFacts.

Lemma absorb_fields E c i : let v := absorb E c (si_pop i) (si_results i) in
  c_cur_fits v = fits_of E (si_results i) /\ c_cur_fit v = step_best E (si_results i) /\ c_cur_pt v = step_best_point E i /\ c_steps v = c_steps c.
Proof.
  intros v. unfold v, absorb, update_fitness_tracking. fold (step_best E (si_results i)) (step_best_point E i).
  destruct (is_better _ _ _); cbn [with_best with_current c_cap]; destruct (Nat.ltb 0 (c_cap c)); cbn; auto.
Qed.
Lemma step_best_point_dim E i : wf_input E i -> length (step_best_point E i) = oi_dim (e_info E).
Proof.
  intros (W1 & W2 & W3). unfold step_best_point. rewrite Forall_forall in W3. apply W3. apply nth_In.
  rewrite <- W1. replace (length (si_results i)) with (length (fits_of E (si_results i))) by (unfold fits_of; apply map_length).
  apply find_best_lt. intros H. assert (length (fits_of E (si_results i)) = 0) as H0 by now rewrite H. unfold fits_of in H0. rewrite map_length, W1 in H0. destruct (si_pop i); [congruence|discriminate].
Qed.
Lemma completed_step E h i : completed E (h ++ [OpStep i]) = if too_many_errors E (si_results i) then completed E h else S (completed E h).
Proof. unfold completed. rewrite filter_app, app_length. cbn [filter]. destruct (too_many_errors E (si_results i)); cbn; lia. Qed.
Lemma orderly_quiet E l x : match fst x with EPreStep | EPreEval _ | EStop _ => True | _ => False end -> orderly E l -> orderly E (l ++ [x]).
Proof. intros Hx H. apply orderly_snoc. split; [exact H|]. unfold next_ok. destruct (fst x); try contradiction; exact I. Qed.
Lemma post_step_app a b : length (filter is_post_step (a ++ b)) = length (filter is_post_step a) + length (filter is_post_step b).
Proof. now rewrite filter_app, app_length. Qed.

Definition in_step (E : env) (o : opt) (l : list (event * core)) : Prop :=
  orderly E l /\ (forall y, In y l -> is_new_best y = true \/ is_post_eval y = true -> c_steps (snd y) < c_steps (o_core o)) /\
  length (filter is_post_step l) = c_steps (o_core o) /\ (0 < c_steps (o_core o) -> exists w, In (EStart, w) l) /\
  (forall y, In y l -> c_steps (snd y) <= c_steps (o_core o)).
Lemma after_orderly E extra h r : oi_dim (e_info E) <> 0 -> Forall (wf_op E) h -> heard E r ->
  in_step E (after E extra h) (received r (o_trace (after E extra h))).
Proof.
  intros Hd Hw Hh. induction h as [|a h IH] using rev_ind.
  { unfold after. cbn [fold_left].
    assert (T : o_trace (created E extra) = [] /\ c_steps (o_core (created E extra)) = 0).
    { unfold created. rewrite <- (rev_involutive extra). induction (rev extra) as [|x l IHl]; [split; reflexivity|]. cbn [rev]. rewrite fold_left_app. cbn [fold_left]. unfold add_stop_condition at 1 3. cbn [o_trace o_core]. destruct IHl as [-> <-]. split; [reflexivity|]. destruct (Nat.ltb _ _); reflexivity. }
    destruct T as [-> T]. split; [|split; [|split; [now rewrite T|split; [lia|]]]].
    - intros p x q H. now destruct p.
    - intros y [].
    - intros y []. }
  apply Forall_app in Hw as [Hw Ha]. specialize (IH Hw). inversion Ha as [|? ? Hwa _]; subst. clear Ha.
  pose proof (C21_current_step E extra h Hd Hw) as HS. assert (Hw2 : Forall (wf_op E) (h ++ [a])) by (apply Forall_app; auto).
  pose proof (C21_current_step E extra (h ++ [a]) Hd Hw2) as HS2. 
  rewrite after_snoc. rewrite after_snoc in HS2. set (o := after E extra h) in *. set (o' := exec E o a) in *.
  destruct IH as (I1 & I2 & I3 & I4 & I5). set (L := received r (o_trace o)) in *.
  assert (Hstop : forall k v l, orderly E l -> orderly E (l ++ [(EStop k, v)])) by (intros k v l; apply orderly_quiet; exact I).
  destruct (match a with OpStep i => true | _ => false end) eqn:Eop.
  2:{ pose proof (C24_other_calls E extra h a r Hd Hw Hh) as H. assert (Hn : forall i, a <> OpStep i) by (intros i ->; discriminate). specialize (H Hn).
      cbv zeta in H. fold o o' L in H. assert (Hc : c_steps (o_core o') = c_steps (o_core o)) by (rewrite HS2, HS; unfold completed; rewrite filter_app, app_length; destruct a; cbn; lia).
      assert (X : received r (o_trace o') = L \/ exists k v, c_steps v = c_steps (o_core o') /\ received r (o_trace o') = L ++ [(EStop k, v)]).
      { destruct (o_stopped o); [now left|]. destruct (o_stopped o') as [k|]; [|now left]. destruct H as (_ & v & Hv & H). apply strip_fields in Hv as (Hv & _). right. eauto. }
      unfold in_step. rewrite Hc in *. destruct X as [->|(k & v & Xv & ->)]; [auto|]. split; [now apply Hstop|]. split; [|split; [rewrite post_step_app; cbn [filter is_post_step fst length]; lia|]].
      - intros y Hy. apply in_app_or in Hy as [Hy|[<-|[]]]; [now apply I2|]. intros [?|?]; discriminate.
      - split; [intros H0; destruct (I4 H0) as (w & Hw'); exists w; apply in_or_app; now left|]. intros y Hy. apply in_app_or in Hy as [Hy|[<-|[]]]; [now apply I5|]. cbn [snd]. lia. }
  destruct a as [i| | | | | |]; try discriminate. cbn [wf_op] in Hwa.
  destruct (C24_step_events E extra h i r Hd Hw Hwa Hh) as (seen & S1 & S2 & S3). fold o L in S1, S2, S3. change (fst (step E o i)) with o' in S3.
  rewrite completed_step in HS2. rewrite <- HS in HS2.
  assert (X : in_step E o' (L ++ seen)).
  2:{ destruct (o_stopped o); [now rewrite S3|]. destruct (o_stopped o') as [k|] eqn:Eo'; [|now rewrite S3]. destruct S3 as (v & Sv & S3). rewrite S3, app_assoc. apply strip_fields in Sv as (Sv & _).
      destruct X as (X1 & X2 & X3 & X4 & X5). split; [now apply Hstop|]. split; [|split; [rewrite post_step_app; cbn [filter is_post_step fst length]; lia|]].
      - intros y Hy. apply in_app_or in Hy as [Hy|[<-|[]]]; [now apply X2|]. intros [?|?]; discriminate.
      - split; [intros H0; destruct (X4 H0) as (w & Hw'); exists w; apply in_or_app; now left|]. intros y Hy. apply in_app_or in Hy as [Hy|[<-|[]]]; [now apply X5|]. cbn [snd]. rewrite Sv. lia. }
  clear S3. unfold step_events in S1.
  (* the events before the evaluation *)
  assert (Y : exists pre rest, seen = pre ++ rest /\ orderly E (L ++ pre) /\ (exists w, In (EStart, w) (L ++ pre)) /\ (forall y, In y (L ++ pre) -> c_steps (snd y) <= c_steps (o_core o)) /\ (forall y, In y (L ++ pre) -> is_new_best y = true \/ is_post_eval y = true -> c_steps (snd y) < c_steps (o_core o)) /\
     length (filter is_post_step (L ++ pre)) = c_steps (o_core o) /\
     map fst rest = (if too_many_errors E (si_results i) then [] else (if is_better (e_info E) (step_best E (si_results i)) (c_best_fit (o_core o))
       then [ENewBest (map rounded (step_best_point E i)) (step_best E (si_results i))] else []) ++ [EPostEval (si_pop i) (fits_of E (si_results i)) (is_better (e_info E) (step_best E (si_results i)) (c_best_fit (o_core o))); EPostStep])).
  { assert (Z : exists pre2 rest, seen = pre2 ++ rest /\ map fst pre2 = (if Nat.eqb (c_steps (o_core o)) 0 then [EStart] else []) ++ [EPreStep; EPreEval (si_pop i)] /\
       map fst rest = (if too_many_errors E (si_results i) then [] else (if is_better (e_info E) (step_best E (si_results i)) (c_best_fit (o_core o))
       then [ENewBest (map rounded (step_best_point E i)) (step_best E (si_results i))] else []) ++ [EPostEval (si_pop i) (fits_of E (si_results i)) (is_better (e_info E) (step_best E (si_results i)) (c_best_fit (o_core o))); EPostStep])).
    { rewrite app_assoc in S1. apply map_eq_app in S1 as (p & q & -> & P1 & P2). exists p, q. auto. }
    destruct Z as (pre & rest & -> & Z1 & Z2). exists pre, rest. split; [reflexivity|].
    assert (W0 : forall y, In y pre -> c_steps (snd y) <= c_steps (o_core o)).
    { intros [ev v] Hy. assert (Hv : sees E (o_core o) i ev v) by (apply S2, in_or_app; now left). assert (Hev : In ev (map fst pre)) by (apply in_map_iff; exists (ev, v); auto).
      rewrite Z1 in Hev. assert (Hev2 : ev = EStart \/ ev = EPreStep \/ ev = EPreEval (si_pop i)) by (destruct (Nat.eqb _ _); cbn in Hev; intuition).
      destruct Hev2 as [->|[->| ->]]; cbn [sees] in Hv; subst v; cbn [snd]; lia. }
    assert (W : (exists w, In (EStart, w) (L ++ pre)) /\ orderly E (L ++ pre) /\ (forall y, In y pre -> is_new_best y = false /\ is_post_eval y = false /\ is_post_step y = false)).
    { destruct (Nat.eqb_spec (c_steps (o_core o)) 0) as [H0|H0]; cbn [app] in Z1.
      - destruct pre as [|[e1 v1] [|[e2 v2] [|[e3 v3] [|? ?]]]]; try discriminate Z1. cbn [map fst] in Z1. injection Z1 as -> -> ->.
        split; [exists v1; apply in_or_app; right; now left|]. split; [|intros y [<-|[<-|[<-|[]]]]; auto].
        replace (L ++ [(EStart, v1); (EPreStep, v2); (EPreEval (si_pop i), v3)]) with (((L ++ [(EStart, v1)]) ++ [(EPreStep, v2)]) ++ [(EPreEval (si_pop i), v3)]) by now rewrite <- !app_assoc.
        apply orderly_quiet; [exact I|]. apply orderly_quiet; [exact I|]. apply orderly_snoc. split; [exact I1|]. cbn [next_ok fst snd].
        pose proof (S2 EStart v1 ltac:(now left)) as Hv. cbn [sees] in Hv. subst v1. split; [exact H0|]. intros y Hy. rewrite H0 in I3.
        destruct (is_post_step y) eqn:Ey; [|reflexivity]. assert (In y (filter is_post_step L)) by (apply filter_In; auto). destruct (filter is_post_step L); [contradiction|discriminate].
      - destruct pre as [|[e2 v2] [|[e3 v3] [|? ?]]]; try discriminate Z1. cbn [map fst] in Z1. injection Z1 as -> ->.
        split; [destruct (I4 ltac:(lia)) as (w & Hw'); exists w; apply in_or_app; now left|]. split; [|intros y [<-|[<-|[]]]; auto].
        replace (L ++ [(EPreStep, v2); (EPreEval (si_pop i), v3)]) with ((L ++ [(EPreStep, v2)]) ++ [(EPreEval (si_pop i), v3)]) by now rewrite <- !app_assoc.
        apply orderly_quiet; [exact I|]. apply orderly_quiet; [exact I|]. exact I1. }
    destruct W as (W3 & W1 & W2). split; [exact W1|]. split; [exact W3|]. split; [intros y Hy; apply in_app_or in Hy as [Hy|Hy]; auto|]. split; [|split; [|exact Z2]].
    - intros y Hy. apply in_app_or in Hy as [Hy|Hy]; [now apply I2|]. destruct (W2 y Hy) as (-> & -> & _). intros [?|?]; discriminate.
    - rewrite post_step_app, I3. replace (filter is_post_step pre) with (@nil (event * core)); [cbn; lia|].
      symmetry. clear - W2. induction pre as [|y p IHp]; [reflexivity|]. cbn [filter]. destruct (W2 y ltac:(now left)) as (_ & _ & ->). apply IHp. intros z Hz. apply W2. now right. }
  destruct Y as (pre & rest & -> & Y1 & Y5 & Y6 & Y2 & Y3 & Y4). rewrite app_assoc. set (M := L ++ pre) in *.
  assert (S4 : forall ev v, In (ev, v) rest -> sees E (o_core o) i ev v) by (intros; apply S2, in_or_app; now right). clearbody M. clear S1 S2 I1 I2 I3 I4 I5 L.
  pose proof (step_best_point_dim E i Hwa) as Hdim. pose proof (absorb_fields E (o_core o) i) as (A1 & A2 & A3 & A4).
  destruct (too_many_errors E (si_results i)) eqn:Etm.
  { destruct rest; [|discriminate]. rewrite app_nil_r. unfold in_step. rewrite HS2. auto 10. }
  assert (Fin : forall N nb v1 v2, orderly E N -> (forall y, In y N -> is_post_eval y = true -> c_steps (snd y) < c_steps (o_core o)) ->
    (forall y, In y N -> is_new_best y = true -> c_steps (snd y) < c_steps (o_core o) \/
         (c_steps (snd y) = c_steps (o_core o) /\ c_cur_fits (snd y) = fits_of E (si_results i) /\ c_cur_fit (snd y) = step_best E (si_results i) /\ c_cur_pt (snd y) = step_best_point E i)) ->
    length (filter is_post_step N) = c_steps (o_core o) ->
    (exists w, In (EStart, w) N) -> (forall y, In y N -> c_steps (snd y) <= c_steps (o_core o)) ->
    v1 = absorb E (o_core o) (si_pop i) (si_results i) -> v2 = absorb E (o_core o) (si_pop i) (si_results i) ->
    in_step E o' (N ++ [(EPostEval (si_pop i) (fits_of E (si_results i)) nb, v1); (EPostStep, v2)])).
  { intros N nb v1 v2 N1 N2 N3 N4 (w & N5) N6 -> ->.
    replace (N ++ [(EPostEval (si_pop i) (fits_of E (si_results i)) nb, absorb E (o_core o) (si_pop i) (si_results i)); (EPostStep, absorb E (o_core o) (si_pop i) (si_results i))])
      with ((N ++ [(EPostEval (si_pop i) (fits_of E (si_results i)) nb, absorb E (o_core o) (si_pop i) (si_results i))]) ++ [(EPostStep, absorb E (o_core o) (si_pop i) (si_results i))]) by now rewrite <- app_assoc.
    split; [|split; [|split; [|split]]].
    - apply orderly_snoc. split; [apply orderly_snoc; split; [exact N1|]|].
      + cbn [next_ok fst snd]. rewrite A1, A2, A3, A4. split; [exact Hdim|]. split; [exact N2|]. intros y Hy1 Hy2. destruct (N3 y Hy1 Hy2) as [H|(H1 & H2 & H3 & H4)]; [lia|]. split; [lia|]. intros _. auto.
      + cbn [next_ok fst snd]. rewrite A4, post_step_app. cbn [filter is_post_step fst length]. split; [lia|]. exists w. apply in_or_app. now left.
    - rewrite HS2. intros y Hy. apply in_app_or in Hy as [Hy|[<-|[]]].
      + apply in_app_or in Hy as [Hy|[<-|[]]].
        * intros [H|H]; [destruct (N3 y Hy H) as [?|(? & _)]; lia|specialize (N2 y Hy H); lia].
        * cbn [snd]. rewrite A4. lia.
      + cbn [snd]. rewrite A4. lia.
    - rewrite HS2, !post_step_app. cbn [filter is_post_step fst length]. lia.
    - intros _. exists w. apply in_or_app. left. apply in_or_app. now left.
    - intros y Hy. rewrite HS2. apply in_app_or in Hy as [Hy|[<-|[]]]; [apply in_app_or in Hy as [Hy|[<-|[]]]; [specialize (N6 y Hy)|cbn [snd]; rewrite A4]|cbn [snd]; rewrite A4]; lia. }
  destruct (is_better (e_info E) (step_best E (si_results i)) (c_best_fit (o_core o))) eqn:Enb; cbn [app] in Y4.
  - destruct rest as [|[e1 v1] [|[e2 v2] [|[e3 v3] [|? ?]]]]; try discriminate Y4. cbn [map fst] in Y4. injection Y4 as -> -> ->.
    pose proof (S4 _ v1 ltac:(now left)) as V1. pose proof (S4 _ v2 ltac:(right; now left)) as V2. pose proof (S4 _ v3 ltac:(right; right; now left)) as V3.
    cbn [sees] in V1, V2, V3. destruct V1 as (B1 & B2 & B3 & B4 & B5 & B6).
    replace (M ++ (ENewBest (map rounded (step_best_point E i)) (step_best E (si_results i)), v1) :: [(EPostEval (si_pop i) (fits_of E (si_results i)) true, v2); (EPostStep, v3)])
      with ((M ++ [(ENewBest (map rounded (step_best_point E i)) (step_best E (si_results i)), v1)]) ++ [(EPostEval (si_pop i) (fits_of E (si_results i)) true, v2); (EPostStep, v3)]) by now rewrite <- app_assoc.
    apply Fin; [| | | | | |exact V2|exact V3].
    + apply orderly_snoc. split; [exact Y1|]. cbn [next_ok fst snd]. rewrite B4, B5, B6. split; [reflexivity|]. split; [reflexivity|]. split; [exact Hdim|exact Y2].
    + intros y Hy H. apply in_app_or in Hy as [Hy|[<-|[]]]; [apply Y2; auto|discriminate].
    + intros y Hy H. apply in_app_or in Hy as [Hy|[<-|[]]]; [left; apply Y2; auto|right]. cbn [snd]. auto.
    + rewrite post_step_app. cbn [filter is_post_step fst length]. lia.
    + destruct Y5 as (w & Y5). exists w. apply in_or_app. now left.
    + intros y Hy. apply in_app_or in Hy as [Hy|[<-|[]]]; [now apply Y6|]. cbn [snd]. lia.
  - destruct rest as [|[e2 v2] [|[e3 v3] [|? ?]]]; try discriminate Y4. cbn [map fst] in Y4. injection Y4 as -> ->.
    pose proof (S4 _ v2 ltac:(now left)) as V2. pose proof (S4 _ v3 ltac:(right; now left)) as V3. cbn [sees] in V2, V3.
    apply Fin; [exact Y1| | |exact Y3|exact Y5|exact Y6|exact V2|exact V3].
    + intros y Hy H. apply Y2; auto.
    + intros y Hy H. left. apply Y2; auto.
Qed.
