(** * Facts about the optimizer base class. *)
From Coq Require Import ZArith Bool.
From Flocq Require Import BinarySingleNaN.
From Verif Require Import Prelude Flt FltFacts Flt32 Round8 Round8Facts FlatMap ParInfo ObjInfo ObjInfoFacts Num MathTools Optimizer.

(** ** The cache *)
Definition cache_ok (E : env) (c : core) : Prop :=
  match c_trend_step c with
  | None => True
  | Some s => s <= c_samples c /\ (s = c_samples c -> c_trend c = compute_trend E c)
  end.
Lemma compute_trend_strip E c c' : strip c = strip c' -> compute_trend E c = compute_trend E c'.
Proof. destruct c, c'; intros [=]; subst. reflexivity. Qed.
Lemma fitness_trend_spec E c : cache_ok E c ->
  snd (fitness_trend E c) = compute_trend E c /\ strip (fst (fitness_trend E c)) = strip c /\ cache_ok E (fst (fitness_trend E c)).
Proof.
  intros H. unfold fitness_trend. unfold cache_ok in H.
  destruct (c_trend_step c) as [s|] eqn:Es.
  - destruct (Nat.eqb_spec s (c_samples c)) as [->|Hn].
    + destruct H as [_ H]. cbn [fst snd]. rewrite (H eq_refl). split; [reflexivity|]. split; [reflexivity|].
      unfold cache_ok. rewrite Es. auto.
    + cbn [fst snd]. split; [reflexivity|]. split; [reflexivity|]. unfold cache_ok. cbn. split; [lia|]. intros _. reflexivity.
  - cbn [fst snd]. split; [reflexivity|]. split; [reflexivity|]. unfold cache_ok. cbn. split; [lia|]. intros _. reflexivity.
Qed.
Lemma progress_spec E c : cache_ok E c ->
  strip (fst (progress E c)) = strip c /\ cache_ok E (fst (progress E c)) /\
  snd (progress E c) =
    if Nat.eqb (c_cap c) 0 then Throw "fitness tracking must be enabled for this method"
    else if Nat.leb 2 (length (c_hist c)) then
      let reg := compute_trend E c in
      let imp := f32div (lf_slope reg) (f32abs (lin_eval reg (f32sub (f32ofZ (Z.of_nat (c_samples c))) (f32mul f32half (f32ofZ (Z.of_nat (length (c_hist c)))))))) in
      Ok (if oi_minimize (e_info E) then f32opp imp else imp)
    else Ok f32zero.
Proof.
  intros H. unfold progress. destruct (Nat.eqb (c_cap c) 0); [cbn; auto|].
  destruct (Nat.leb 2 (length (c_hist c))); [|cbn; auto].
  pose proof (fitness_trend_spec E c H) as (H1 & H2 & H3). destruct (fitness_trend E c) as [c' t]. cbn [fst snd] in *. subst t. auto.
Qed.
Lemma predicted_spec E c n : cache_ok E c ->
  strip (fst (predicted_fitness E c n)) = strip c /\ cache_ok E (fst (predicted_fitness E c n)) /\
  snd (predicted_fitness E c n) =
    if Nat.eqb (c_cap c) 0 then Throw "fitness tracking must be enabled for this method"
    else if Nat.leb 2 (length (c_hist c)) then Ok (lin_eval (compute_trend E c) (f32ofZ (Z.of_nat (c_steps c + n))))
    else Ok f32zero.
Proof.
  intros H. unfold predicted_fitness. destruct (Nat.eqb (c_cap c) 0); [cbn; auto|].
  destruct (Nat.leb 2 (length (c_hist c))); [|cbn; auto].
  pose proof (fitness_trend_spec E c H) as (H1 & H2 & H3). destruct (fitness_trend E c) as [c' t]. cbn [fst snd] in *. subst t. auto.
Qed.

(** ** test() *)
Definition answer (E : env) (c : core) (sc : stop_cond) : outcome bool := snd (sc_test E c sc).
Definition sc_after (E : env) (c : core) (sc : stop_cond) : stop_cond := snd (fst (sc_test E c sc)).
Lemma sc_test_core E c sc : cache_ok E c -> strip (fst (fst (sc_test E c sc))) = strip c /\ cache_ok E (fst (fst (sc_test E c sc))).
Proof.
  intros H. destruct sc; cbn [sc_test fst]; auto.
  - destruct (Nat.leb _ _); [|cbn; auto]. pose proof (progress_spec E c H) as (H1 & H2 & _). destruct (progress E c). auto.
  - destruct (Nat.leb _ _); [|cbn; auto]. pose proof (predicted_spec E c look_ahead H) as (H1 & H2 & _).
    destruct (predicted_fitness E c look_ahead) as [c' [x|w|]]; auto.
  - destruct (_ && _); [|cbn; auto]. destruct (negb (e_cma E)); [cbn; auto|]. destruct (similarity_loop _ _ _ _ _ _) as [s [[i|]|w|]]; auto.
Qed.
Lemma similarity_loop_strip E c c' pts : strip c = strip c' -> forall i sims d,
  similarity_loop E c i pts sims d = similarity_loop E c' i pts sims d.
Proof.
  intros H. assert (Hp : c_cur_pt c = c_cur_pt c') by (apply (f_equal c_cur_pt) in H; exact H).
  induction pts as [|p t IH]; intros i sims d; cbn [similarity_loop]; [reflexivity|].
  rewrite Hp. destruct (normalized_distance _ _ _); try reflexivity. destruct (flt a d); [reflexivity|apply IH].
Qed.
(** The answer and the new condition state do not depend on the cache. *)
Lemma sc_test_strip E c c' sc : cache_ok E c -> cache_ok E c' -> strip c = strip c' ->
  answer E c sc = answer E c' sc /\ sc_after E c sc = sc_after E c' sc.
Proof.
  intros H H' Hs.
  assert (Hf : c_steps c = c_steps c' /\ c_best_fit c = c_best_fit c' /\ c_cur_fits c = c_cur_fits c' /\ c_interrupted c = c_interrupted c' /\ c_cap c = c_cap c' /\ c_hist c = c_hist c' /\ c_samples c = c_samples c').
  { destruct c, c'; cbn in *. injection Hs. intros. subst. tauto. }
  destruct Hf as (F1 & F2 & F3 & F4 & F5 & F6 & F7). unfold answer, sc_after.
  destruct sc; cbn [sc_test fst snd]; rewrite <- ?F1, <- ?F2, <- ?F3, <- ?F4; auto.
  - destruct (Nat.leb _ _); [|cbn; auto]. pose proof (progress_spec E c H) as (_ & _ & P). pose proof (progress_spec E c' H') as (_ & _ & P').
    destruct (progress E c) as [c1 r1], (progress E c') as [c2 r2]. cbn [fst snd] in *. rewrite P, P'.
    rewrite (compute_trend_strip E c c' Hs), F5, F6, F7. auto.
  - destruct (Nat.leb _ _); [|cbn; auto]. pose proof (predicted_spec E c look_ahead H) as (_ & _ & P). pose proof (predicted_spec E c' look_ahead H') as (_ & _ & P').
    destruct (predicted_fitness E c look_ahead) as [c1 r1], (predicted_fitness E c' look_ahead) as [c2 r2]. cbn [fst snd] in *.
    assert (r1 = r2) as -> by (rewrite P, P', (compute_trend_strip E c c' Hs), F1, F5, F6; reflexivity). destruct r2; auto.
  - destruct (_ && _); [|cbn; auto]. destruct (negb (e_cma E)); [cbn; auto|]. rewrite (similarity_loop_strip E c c' points Hs).
    destruct (similarity_loop _ _ _ _ _ _) as [s [[i|]|w|]]; auto.
  - now rewrite Hs.
Qed.

(** test_list in terms of the individual answers on the same state *)
Lemma test_list_spec E l : forall c i, cache_ok E c ->
  let '(c', l', r) := test_list E c i l in
  strip c' = strip c /\ cache_ok E c' /\ length l' = length l /\
  match r with
  | Ok None => Forall (fun sc => answer E c sc = Ok false) l /\ l' = map (sc_after E c) l
  | Ok (Some k) => i <= k /\ k < i + length l /\ Forall (fun sc => answer E c sc = Ok false) (firstn (k - i) l) /\
       (exists sc, nth_error l (k - i) = Some sc /\ answer E c sc = Ok true) /\
       l' = map (sc_after E c) (firstn (S (k - i)) l) ++ skipn (S (k - i)) l
  | Throw w => exists pre sc post, l = pre ++ sc :: post /\ Forall (fun sc => answer E c sc = Ok false) pre /\ answer E c sc = Throw w /\
       l' = map (sc_after E c) (pre ++ [sc]) ++ post
  | Undef => exists pre sc post, l = pre ++ sc :: post /\ Forall (fun sc => answer E c sc = Ok false) pre /\ answer E c sc = Undef /\
       l' = map (sc_after E c) (pre ++ [sc]) ++ post
  end.
Proof.
  induction l as [|sc t IH]; intros c i Hc; cbn [test_list].
  - split; [reflexivity|]. split; [exact Hc|]. split; [reflexivity|]. split; [constructor|reflexivity].
  - pose proof (sc_test_core E c sc Hc) as [S1 S2].
    assert (Ha : answer E c sc = snd (sc_test E c sc)) by reflexivity.
    assert (Hsa : sc_after E c sc = snd (fst (sc_test E c sc))) by reflexivity.
    destruct (sc_test E c sc) as [[c1 sc1] r1]. cbn [fst snd] in *.
    destruct r1 as [[|]|w|].
    + split; [exact S1|]. split; [exact S2|]. split; [reflexivity|]. rewrite Nat.sub_diag. cbn [firstn nth_error map app skipn].
      split; [lia|]. split; [cbn [length]; lia|]. split; [constructor|]. split; [eauto|]. now rewrite Hsa.
    + specialize (IH c1 (S i) S2). destruct (test_list E c1 (S i) t) as [[c2 t2] r2].
      destruct IH as (I1 & I2 & I3 & I4).
      assert (Hans : forall sc', answer E c1 sc' = answer E c sc') by (intros; apply sc_test_strip; auto).
      assert (Haft : forall sc', sc_after E c1 sc' = sc_after E c sc') by (intros; apply sc_test_strip; auto).
      assert (HF : forall q, Forall (fun sc => answer E c1 sc = Ok false) q -> Forall (fun sc => answer E c sc = Ok false) q).
      { intros q. apply Forall_impl. intros a. now rewrite Hans. }
      assert (HM : forall q, map (sc_after E c1) q = map (sc_after E c) q) by (intros q; apply map_ext; intros; apply Haft).
      split; [congruence|]. split; [exact I2|]. split; [cbn [length]; now rewrite I3|].
      destruct r2 as [[k|]|w|].
      * destruct I4 as (L1 & L2 & L3 & (sk & L4 & L5) & L6). replace (k - i) with (S (k - S i)) by lia.
        cbn [firstn nth_error skipn map app length]. split; [lia|]. split; [lia|]. split; [constructor; auto|].
        split; [exists sk; split; [exact L4|now rewrite <- Hans]|]. rewrite Hsa, L6, HM. cbn [skipn map app firstn]. reflexivity.
      * destruct I4 as [L1 ->]. split; [constructor; auto|]. cbn [map]. now rewrite Hsa, HM.
      * destruct I4 as (pre & s0 & post & -> & L1 & L2 & ->). exists (sc :: pre), s0, post. split; [reflexivity|]. split; [constructor; auto|]. split; [now rewrite <- Hans|].
        cbn [app map]. now rewrite Hsa, HM.
      * destruct I4 as (pre & s0 & post & -> & L1 & L2 & ->). exists (sc :: pre), s0, post. split; [reflexivity|]. split; [constructor; auto|]. split; [now rewrite <- Hans|].
        cbn [app map]. now rewrite Hsa, HM.
    + split; [exact S1|]. split; [exact S2|]. split; [reflexivity|]. exists [], sc, t. split; [reflexivity|]. split; [constructor|]. split; [exact Ha|]. cbn [app map]. now rewrite Hsa.
    + split; [exact S1|]. split; [exact S2|]. split; [reflexivity|]. exists [], sc, t. split; [reflexivity|]. split; [constructor|]. split; [exact Ha|]. cbn [app map]. now rewrite Hsa.
Qed.

(** ** Reporters *)
Lemma deliver_spec rs ev c : forall i tr, exists k, k <= length rs /\ (rs <> [] -> 1 <= k) /\
  deliver i rs ev c tr = tr ++ map (fun j => {| d_rep := j; d_event := ev; d_view := c |}) (seq i k) /\
  (forall j r, j < k -> nth_error rs j = Some r -> j <> k - 1 -> exists tr', r tr' ev = false) /\
  (k < length rs -> exists r tr', nth_error rs (k - 1) = Some r /\ r tr' ev = true).
Proof.
  induction rs as [|r t IH]; intros i tr; cbn [deliver].
  - exists 0. split; [lia|]. split; [congruence|]. split; [cbn; now rewrite app_nil_r|]. split; [intros; lia|]. cbn. lia.
  - destruct (r tr ev) eqn:Er.
    + exists 1. cbn [length]. split; [lia|]. split; [lia|]. split; [reflexivity|]. split; [intros; lia|]. intros _. exists r, tr. auto.
    + destruct (IH (S i) (tr ++ [{| d_rep := i; d_event := ev; d_view := c |}])) as (k & K1 & K2 & K3 & K4 & K5).
      exists (S k). cbn [length]. split; [lia|]. split; [lia|]. split; [rewrite K3, <- app_assoc; reflexivity|]. split.
      * intros [|j] q Hj Hq Hne; cbn [nth_error] in Hq.
        -- injection Hq as <-. eauto.
        -- apply (K4 j q); auto; lia.
      * intros Hl. replace (S k - 1) with k by lia. destruct K5 as (q & tr' & Q1 & Q2); [lia|]. destruct k as [|k]; [destruct t; [cbn in Hl; lia|exfalso; assert (1 <= 0) by (apply K2; discriminate); lia]|].
        exists q, tr'. cbn [nth_error]. replace (S k - 1) with k in Q1 by lia. auto.
Qed.

(** What reporter [r] received: events with the state it could see. *)
Definition received (r : nat) (tr : list delivery) : list (event * core) :=
  map (fun d => (d_event d, d_view d)) (filter (fun d => Nat.eqb (d_rep d) r) tr).
Lemma received_app r a b : received r (a ++ b) = received r a ++ received r b.
Proof. unfold received. now rewrite filter_app, map_app. Qed.
Lemma received_seq r ev c i k : received r (map (fun j => {| d_rep := j; d_event := ev; d_view := c |}) (seq i k)) =
  if Nat.leb i r && Nat.ltb r (i + k) then [(ev, c)] else [].
Proof.
  revert i. induction k as [|k IH]; intros i; cbn [seq map].
  - destruct (Nat.leb_spec i r), (Nat.ltb_spec r (i + 0)); cbn [andb]; try reflexivity; lia.
  - change (?x :: ?l) with ([x] ++ l). rewrite received_app, IH. unfold received. cbn [filter d_rep map d_event d_view].
    destruct (Nat.eqb_spec i r), (Nat.leb_spec i r), (Nat.ltb_spec r (i + S k)), (Nat.leb_spec (S i) r), (Nat.ltb_spec r (S i + k)); cbn [andb app map]; try reflexivity; lia.
Qed.
(** Reporter [r] exists and no reporter before it ever throws. *)
Definition heard (E : env) (r : nat) : Prop :=
  r < length (e_reporters E) /\ forall j f, j < r -> nth_error (e_reporters E) j = Some f -> forall tr ev, f tr ev = false.
Lemma signal_heard E r ev c tr : heard E r -> received r (signal E ev c tr) = received r tr ++ [(ev, c)].
Proof.
  intros [H1 H2]. unfold signal. destruct (deliver_spec (e_reporters E) ev c 0 tr) as (k & K1 & K2 & K3 & _ & K5).
  rewrite K3, received_app, received_seq. cbn [Nat.leb Nat.add andb].
  destruct (Nat.ltb_spec r k) as [Hr|Hr]; [reflexivity|exfalso].
  assert (k < length (e_reporters E)) as Hk by lia. destruct (K5 Hk) as (q & tr' & Q1 & Q2).
  assert (1 <= k) by (apply K2; intros E0; rewrite E0 in H1; cbn in H1; lia).
  rewrite (H2 (k - 1) q) in Q2 by (auto; lia). discriminate.
Qed.
Lemma signal_any E r ev c tr : received r (signal E ev c tr) = received r tr \/ received r (signal E ev c tr) = received r tr ++ [(ev, c)].
Proof.
  unfold signal. destruct (deliver_spec (e_reporters E) ev c 0 tr) as (k & _ & _ & K3 & _). rewrite K3, received_app, received_seq.
  destruct (_ && _); [now right|left; now rewrite app_nil_r].
Qed.

(** ** Steps on the core *)
Definition fits_of (E : env) (rs : list result) : list f64 :=
  map (fun r => match r with ROk f => f | RErr _ => worst_fitness (e_info E) end) rs.
Definition absorb (E : env) (c : core) (pop : list point) (rs : list result) : core :=
  let fits := fits_of E rs in let bi := find_best_fitness (e_info E) fits in
  let f := nth bi fits fnan in let p := nth bi pop [] in
  let c1 := with_current c fits f p in
  update_fitness_tracking (if is_better (e_info E) f (c_best_fit c) then with_best c1 f (map rounded p) else c1).
Definition step_core (E : env) (c : core) (i : step_input) : core :=
  let c1 := if too_many_errors E (si_results i) then c else let a := absorb E c (si_pop i) (si_results i) in with_steps a (S (c_steps a)) in
  if si_interrupt i then with_interrupt c1 true else c1.

(** A step as subclasses and evaluators make it: one result per point, at least one point, points of the right dimension. *)
Definition wf_input (E : env) (i : step_input) : Prop :=
  length (si_results i) = length (si_pop i) /\ si_pop i <> [] /\ Forall (fun p => length p = oi_dim (e_info E)) (si_pop i).
Definition has_error (l : list stop_cond) : Prop := exists e, In (ScError e) l.

Lemma min_element_from_lt lt b bi i l : bi < i -> min_element_from lt b bi i l < i + length l.
Proof.
  revert b bi i. induction l as [|x t IH]; intros b bi i H; cbn [min_element_from length]; [lia|].
  destruct (lt x b); (eapply Nat.lt_le_trans; [apply IH; lia|lia]).
Qed.
Lemma min_element_lt lt l : l <> [] -> min_element lt l < length l.
Proof. destruct l as [|x t]; [congruence|]. intros _. cbn [min_element length]. pose proof (min_element_from_lt lt x 0 1 t). lia. Qed.
Lemma find_best_lt o l : l <> [] -> find_best_fitness o l < length l.
Proof. intros H. unfold find_best_fitness. destruct (oi_minimize o); now apply min_element_lt. Qed.

Lemma set_error_spec l e : has_error l -> exists pre e0 post, l = pre ++ ScError e0 :: post /\
  (forall x, ~ In (ScError x) pre) /\ set_error l e = Some (pre ++ ScError (Some e) :: post).
Proof.
  intros (e0 & H). induction l as [|sc t IH]; [destruct H|].
  destruct sc; try (destruct H as [H|H]; [discriminate|]; destruct (IH H) as (pre & e1 & post & -> & H1 & H2);
    match goal with |- context [set_error (?s :: _)] => exists (s :: pre) end; exists e1, post; split; [reflexivity|]; split; [intros x [Hx|Hx]; [discriminate|exact (H1 x Hx)]|]; cbn [set_error]; rewrite H2; reflexivity).
  exists [], e1, t. split; [reflexivity|]. split; [intros ? []|reflexivity].
Qed.

Definition tr_start (E : env) (o : opt) : list delivery :=
  signal E EPreStep (o_core o) (if Nat.eqb (c_steps (o_core o)) 0 then signal E EStart (o_core o) (o_trace o) else o_trace o).

(** evaluate_step and the rest of step() before the stop conditions are tested *)
Lemma step_shape E o i : oi_dim (e_info E) <> 0 -> wf_input E i -> has_error (o_scs o) ->
  exists scs tr, step E o i = test_stop E {| o_core := step_core E (o_core o) i; o_scs := scs; o_stopped := o_stopped o; o_trace := tr |} /\
  (too_many_errors E (si_results i) = true ->
     (exists pre e0 post, o_scs o = pre ++ ScError e0 :: post /\ (forall x, ~ In (ScError x) pre) /\
        scs = pre ++ ScError (Some {| ei_errors := count_errors (si_results i); ei_total := length (si_results i);
                                 ei_allowed := allowed_errors E (si_results i); ei_messages := messages_of (si_results i) |}) :: post) /\
     tr = signal E (EPreEval (si_pop i)) (o_core o) (tr_start E o)) /\
  (too_many_errors E (si_results i) = false ->
     scs = o_scs o /\
     let fits := fits_of E (si_results i) in let f := nth (find_best_fitness (e_info E) fits) fits fnan in
     let p := nth (find_best_fitness (e_info E) fits) (si_pop i) [] in
     let nb := is_better (e_info E) f (c_best_fit (o_core o)) in
     let a := absorb E (o_core o) (si_pop i) (si_results i) in
     let c2 := with_best (with_current (o_core o) fits f p) f (map rounded p) in
     tr = signal E EPostStep a (signal E (EPostEval (si_pop i) fits nb) a
            ((if nb then signal E (ENewBest (map rounded p) f) c2 else fun t => t) (signal E (EPreEval (si_pop i)) (o_core o) (tr_start E o))))).
Proof.
  intros Hd (W1 & W2 & W3) He. unfold step. destruct (Nat.eqb_spec (oi_dim (e_info E)) 0) as [|_]; [congruence|].
  unfold evaluate_step. cbn [o_core o_scs o_stopped o_trace]. fold (tr_start E o). unfold step_core.
  destruct (too_many_errors E (si_results i)) eqn:Et.
  - destruct (set_error_spec (o_scs o) {| ei_errors := count_errors (si_results i); ei_total := length (si_results i);
                                 ei_allowed := allowed_errors E (si_results i); ei_messages := messages_of (si_results i) |} He) as (pre & e0 & post & H1 & H2 & H3).
    rewrite H3. cbn [o_core o_scs o_stopped o_trace]. eexists. eexists. split; [reflexivity|]. split; [|discriminate].
    intros _. split; [|reflexivity]. exists pre, e0, post. auto.
  - fold (fits_of E (si_results i)). set (fits := fits_of E (si_results i)).
    assert (Hfl : length fits = length (si_pop i)) by (unfold fits, fits_of; now rewrite map_length).
    assert (Hne : fits <> []) by (destruct fits; [destruct (si_pop i); [congruence|discriminate]|discriminate]).
    pose proof (find_best_lt (e_info E) fits Hne) as Hbi. set (bi := find_best_fitness (e_info E) fits) in *.
    rewrite (nth_error_nth' fits fnan Hbi). rewrite (nth_error_nth' (si_pop i) [] (eq_ind _ (fun n => bi < n) Hbi _ Hfl)).
    set (p := nth bi (si_pop i) []). set (f := nth bi fits fnan).
    assert (Hp : length p = oi_dim (e_info E)).
    { rewrite Forall_forall in W3. apply W3. unfold p. apply nth_In. lia. }
    rewrite Hp, Nat.eqb_refl. cbn [negb].
    cbn [with_current c_best_fit]. set (nb := is_better (e_info E) f (c_best_fit (o_core o))).
    cbn [o_core o_scs o_stopped o_trace].
    eexists. eexists. split; [unfold absorb; fold fits bi f p nb; reflexivity|]. split; [discriminate|]. intros _. split; [reflexivity|]. cbv zeta.
    unfold absorb. fold fits bi f p nb. destruct nb; reflexivity.
Qed.

Lemma test_stop_core E o : cache_ok E (o_core o) ->
  strip (o_core (fst (test_stop E o))) = strip (o_core o) /\ cache_ok E (o_core (fst (test_stop E o))).
Proof.
  intros H. unfold test_stop. destruct (o_stopped o); [cbn; auto|].
  pose proof (test_list_spec E (o_scs o) (o_core o) 0 H) as HT. destruct (test_list E (o_core o) 0 (o_scs o)) as [[c scs] r].
  destruct HT as (H1 & H2 & _). destruct r as [[k|]|w|]; cbn [fst o_core]; auto.
Qed.
Lemma sc_after_error E c sc e : sc_after E c sc = ScError e <-> sc = ScError e.
Proof.
  unfold sc_after. destruct sc; cbn [sc_test fst snd]; split; try discriminate; auto.
  - destruct (Nat.leb _ _); [|discriminate]. destruct (progress E c); discriminate.
  - destruct (Nat.leb _ _); [|discriminate]. destruct (predicted_fitness E c look_ahead) as [c' [x|w|]]; discriminate.
  - destruct (_ && _); [|discriminate]. destruct (negb _); [discriminate|]. destruct (similarity_loop _ _ _ _ _ _) as [s [[j|]|w|]]; discriminate.
Qed.
(** The conditions after testing: each either untouched or the state after its own test. *)
Lemma test_stop_scs E o : cache_ok E (o_core o) ->
  Forall2 (fun a b => b = a \/ b = sc_after E (o_core o) a) (o_scs o) (o_scs (fst (test_stop E o))).
Proof.
  assert (Hrefl : forall l, Forall2 (fun a b => b = a \/ b = sc_after E (o_core o) a) l l) by (induction l; constructor; auto).
  assert (Hmap : forall l, Forall2 (fun a b => b = a \/ b = sc_after E (o_core o) a) l (map (sc_after E (o_core o)) l)) by (induction l; constructor; auto).
  intros H. unfold test_stop. destruct (o_stopped o); [apply Hrefl|].
  pose proof (test_list_spec E (o_scs o) (o_core o) 0 H) as HT. destruct (test_list E (o_core o) 0 (o_scs o)) as [[c scs] r].
  destruct HT as (H1 & H2 & _ & H4). destruct r as [[k|]|w|]; cbn [fst o_scs].
  - destruct H4 as (_ & _ & _ & _ & ->). rewrite <- (firstn_skipn (S (k - 0)) (o_scs o)) at 1. apply Forall2_app; auto.
  - destruct H4 as [_ ->]. apply Hmap.
  - destruct H4 as (pre & sc & post & -> & _ & _ & ->). change (sc :: post) with ([sc] ++ post). rewrite app_assoc. apply Forall2_app; auto.
  - destruct H4 as (pre & sc & post & -> & _ & _ & ->). change (sc :: post) with ([sc] ++ post). rewrite app_assoc. apply Forall2_app; auto.
Qed.
Lemma has_error_test E o : cache_ok E (o_core o) -> has_error (o_scs o) -> has_error (o_scs (fst (test_stop E o))).
Proof.
  intros Hc (e & He). pose proof (test_stop_scs E o Hc) as HF. exists e.
  induction HF as [|a b l m Hab _ IH]; [destruct He|]. destruct He as [->|He]; [left|right; auto].
  destruct Hab as [->| ->]; [reflexivity|]. now apply sc_after_error.
Qed.

(** ** Lists of calls *)
Definition wf_op (E : env) (a : op) : Prop := match a with OpStep i => wf_input E i | _ => True end.
Record opt_inv (E : env) (o : opt) : Prop := {
  inv_cache : cache_ok E (o_core o);
  inv_error : has_error (o_scs o);
  inv_abort : exists t, o_scs o = ScAbort :: t }.
Lemma cache_ok_hist E c h : cache_ok E c -> cache_ok E (with_hist c h).
Proof. unfold cache_ok. cbn. destruct (c_trend_step c) as [s|]; [|auto]. intros [H1 H2]. split; lia. Qed.
Lemma absorb_cache E c pop rs : cache_ok E c -> cache_ok E (absorb E c pop rs).
Proof.
  intros H. unfold absorb, update_fitness_tracking.
  set (x := if is_better _ _ _ then _ else _). assert (Hx : cache_ok E x) by (unfold x; destruct (is_better _ _ _); exact H).
  destruct (Nat.ltb _ _); [now apply cache_ok_hist|exact Hx].
Qed.
Lemma step_core_cache E c i : cache_ok E c -> cache_ok E (step_core E c i).
Proof.
  intros H. unfold step_core. pose proof (absorb_cache E c (si_pop i) (si_results i) H) as Ha.
  destruct (too_many_errors _ _), (si_interrupt i); auto.
Qed.
Lemma test_stop_inv E o : opt_inv E o -> opt_inv E (fst (test_stop E o)).
Proof.
  intros [H1 H2 (t & H3)]. split.
  - now apply test_stop_core.
  - now apply has_error_test.
  - pose proof (test_stop_scs E o H1) as HF. rewrite H3 in HF. inversion_clear HF as [|? b ? m Hab HF']. destruct Hab as [->| ->]; eauto.
Qed.
Lemma add_sc_inv E o sc : opt_inv E o -> opt_inv E (add_stop_condition o sc).
Proof.
  intros [H1 (e & H2) (t & H3)]. split; cbn [add_stop_condition o_core o_scs].
  - destruct (Nat.ltb (c_cap (o_core o)) (min_window sc)); [|exact H1]. revert H1. unfold cache_ok. cbn. destruct (c_trend_step (o_core o)); auto.
  - exists e. apply in_app_iff. now left.
  - rewrite H3. cbn. eauto.
Qed.
Lemma exec_inv E o a : opt_inv E o -> oi_dim (e_info E) <> 0 -> wf_op E a -> opt_inv E (exec E o a).
Proof.
  intros H Hd Hw. destruct H as [H1 H2 (t & H3)]. destruct a as [i| | | | |n|sc]; cbn [exec].
  - destruct (step_shape E o i Hd Hw H2) as (scs & tr & -> & S1 & S2). apply test_stop_inv.
    assert (Hscs : has_error scs /\ exists t', scs = ScAbort :: t').
    { destruct (too_many_errors E (si_results i)) eqn:Et.
      - destruct (S1 eq_refl) as ((pre & e0 & post & E1 & E2 & ->) & _). split; [eexists; apply in_app_iff; right; left; reflexivity|].
        rewrite H3 in E1. destruct pre as [|x pre]; [discriminate|]. injection E1 as <- _. cbn. eauto.
      - destruct (S2 eq_refl) as (-> & _). eauto. }
    destruct Hscs. split; cbn; auto. now apply step_core_cache.
  - split; cbn; eauto.
  - apply test_stop_inv. split; eauto.
  - split; cbn; eauto. now apply fitness_trend_spec.
  - split; cbn; eauto. now apply progress_spec.
  - split; cbn; eauto. now apply predicted_spec.
  - apply add_sc_inv. split; eauto.
Qed.
Lemma init_inv E : opt_inv E (init E).
Proof. split; cbn; [exact I|exists None; cbn; auto|eauto]. Qed.
Lemma created_inv E extra : opt_inv E (created E extra).
Proof.
  unfold created. assert (H : forall o, opt_inv E o -> opt_inv E (fold_left add_stop_condition extra o)); [|apply H, init_inv].
  induction extra as [|sc t IH]; intros o Ho; cbn [fold_left]; [exact Ho|]. apply IH. now apply add_sc_inv.
Qed.
Lemma after_snoc E extra h a : after E extra (h ++ [a]) = exec E (after E extra h) a.
Proof. unfold after. now rewrite fold_left_app. Qed.
Lemma after_app E extra h k : after E extra (h ++ k) = fold_left (exec E) k (after E extra h).
Proof. unfold after. apply fold_left_app. Qed.
Lemma after_inv E extra h : oi_dim (e_info E) <> 0 -> Forall (wf_op E) h -> opt_inv E (after E extra h).
Proof.
  intros Hd. induction h as [|a h IH] using rev_ind; intros Hw; [apply created_inv|].
  apply Forall_app in Hw as [Hw Ha]. inversion_clear Ha. rewrite after_snoc. apply exec_inv; auto.
Qed.

(** The state, cache aside, after a list of calls. *)
Definition op_core (E : env) (c : core) (a : op) : core :=
  match a with
  | OpStep i => step_core E c i
  | OpInterrupt => with_interrupt c true
  | OpAdd sc => if Nat.ltb (c_cap c) (min_window sc) then with_cap c (min_window sc) else c
  | _ => c
  end.
Lemma step_core_strip E c i : strip (step_core E c i) = strip (step_core E (strip c) i).
Proof.
  unfold step_core, absorb, update_fitness_tracking. destruct (too_many_errors E (si_results i)).
  - destruct (si_interrupt i); reflexivity.
  - cbn [strip c_best_fit]. destruct (is_better _ _ _); cbn [with_best with_current c_cap strip c_hist c_cur_fit];
      destruct (Nat.ltb 0 (c_cap c)); cbn [c_hist with_best with_current strip]; destruct (si_interrupt i); reflexivity.
Qed.
Lemma exec_core E o a : opt_inv E o -> oi_dim (e_info E) <> 0 -> wf_op E a -> strip (o_core (exec E o a)) = strip (op_core E (o_core o) a).
Proof.
  intros [H1 H2 H3] Hd Hw. destruct a as [i| | | | |n|sc]; cbn [exec op_core].
  - destruct (step_shape E o i Hd Hw H2) as (scs & tr & -> & _).
    pose proof (test_stop_core E {| o_core := step_core E (o_core o) i; o_scs := scs; o_stopped := o_stopped o; o_trace := tr |} (step_core_cache E _ i H1)) as [-> _]. reflexivity.
  - reflexivity.
  - now apply test_stop_core.
  - now apply fitness_trend_spec.
  - now apply progress_spec.
  - now apply predicted_spec.
  - reflexivity.
Qed.
Lemma after_core E extra h : oi_dim (e_info E) <> 0 -> Forall (wf_op E) h ->
  strip (o_core (after E extra h)) = strip (fold_left (op_core E) h (o_core (created E extra))).
Proof.
  intros Hd. induction h as [|a h IH] using rev_ind; intros Hw; [reflexivity|].
  apply Forall_app in Hw as [Hw Ha]. inversion_clear Ha. rewrite after_snoc, fold_left_app. cbn [fold_left].
  rewrite exec_core by (auto using after_inv). specialize (IH Hw).
  destruct a; cbn [op_core]; auto.
  - rewrite step_core_strip, IH, <- step_core_strip. reflexivity.
  - transitivity (strip (with_interrupt (strip (o_core (after E extra h))) true)); [reflexivity|]. rewrite IH. reflexivity.
  - set (c := o_core (after E extra h)) in *. set (c' := fold_left _ h _) in *.
    assert (Hcap : c_cap c = c_cap c') by (change (c_cap (strip c) = c_cap (strip c')); now rewrite IH). rewrite Hcap.
    destruct (Nat.ltb _ _); [|exact IH]. transitivity (strip (with_cap (strip c) (min_window sc))); [reflexivity|]. rewrite IH. reflexivity.
Qed.
