(** * C19-C21, C25-C27: the optimizer base class. *)
From Coq Require Import ZArith Bool.
From Flocq Require Import BinarySingleNaN.
From Verif Require Import Prelude Flt FltFacts Flt32 Round8 Round8Facts FlatMap ParInfo ObjInfo ObjInfoFacts Num MathTools Optimizer OptimizerFacts.

(** ** The order of fitness values *)
Definition bkey (o : obj_info) (a : f64) : Z := if oi_minimize o then fkey a else (- fkey a)%Z.
Lemma is_better_key o a b : is_better o a b = negb (fisnan a) && negb (fisnan b) && (bkey o a <? bkey o b)%Z.
Proof.
  unfold is_better, bkey, fgt. destruct (oi_minimize o); rewrite flt_key; [reflexivity|].
  rewrite (andb_comm (negb (fisnan b))). f_equal. destruct (Z.ltb_spec (fkey b) (fkey a)), (Z.ltb_spec (- fkey a) (- fkey b)); auto; lia.
Qed.
Lemma find_best_best o l : l <> [] -> (forall x, In x l -> fisnan x = false) ->
  forall x, In x l -> (bkey o (nth (find_best_fitness o l) l fnan) <= bkey o x)%Z.
Proof.
  intros Hne Hn x Hx. unfold find_best_fitness, bkey. destruct (oi_minimize o).
  - destruct (min_element_spec flt fkey l Hne) as (b & Hb & H).
    { intros a c Ha Hc. rewrite flt_key, (Hn a Ha), (Hn c Hc). reflexivity. }
    rewrite (nth_error_nth l _ _ Hb). apply In_nth_error in Hx as (j & Hj). now destruct (H j x Hj).
  - destruct (min_element_spec (fun x b => flt b x) (fun a => - fkey a)%Z l Hne) as (b & Hb & H).
    { intros a c Ha Hc. rewrite flt_key, (Hn a Ha), (Hn c Hc). cbn. destruct (Z.ltb_spec (fkey c) (fkey a)), (Z.ltb_spec (- fkey a) (- fkey c)); auto; lia. }
    rewrite (nth_error_nth l _ _ Hb). apply In_nth_error in Hx as (j & Hj). now destruct (H j x Hj).
Qed.
Lemma worst_not_nan o : fisnan (worst_fitness o) = false.
Proof. unfold worst_fitness. destruct (oi_minimize o); reflexivity. Qed.

(** ** C19 *)

(** In the history [h], point [p] was evaluated to the fitness [f] in a completed step. *)
Definition evaluated (E : env) (h : list op) (p : point) (f : f64) : Prop :=
  exists i k, In (OpStep i) h /\ too_many_errors E (si_results i) = false /\
    nth_error (si_pop i) k = Some p /\ nth_error (si_results i) k = Some (ROk f).

Lemma tracking_best c : c_best_fit (update_fitness_tracking c) = c_best_fit c /\ c_best_pt (update_fitness_tracking c) = c_best_pt c /\
  c_cur_fit (update_fitness_tracking c) = c_cur_fit c /\ c_cur_fits (update_fitness_tracking c) = c_cur_fits c /\ c_cur_pt (update_fitness_tracking c) = c_cur_pt c /\
  c_steps (update_fitness_tracking c) = c_steps c /\ c_interrupted (update_fitness_tracking c) = c_interrupted c /\ c_cap (update_fitness_tracking c) = c_cap c.
Proof. unfold update_fitness_tracking. destruct (Nat.ltb 0 (c_cap c)); cbn; auto 10. Qed.
Definition step_best (E : env) (rs : list result) : f64 := nth (find_best_fitness (e_info E) (fits_of E rs)) (fits_of E rs) fnan.
Definition step_best_point (E : env) (i : step_input) : point := nth (find_best_fitness (e_info E) (fits_of E (si_results i))) (si_pop i) [].
Lemma step_core_fields E c i : let c' := step_core E c i in
  if too_many_errors E (si_results i) then
    c_steps c' = c_steps c /\ c_best_fit c' = c_best_fit c /\ c_best_pt c' = c_best_pt c /\ c_cur_fit c' = c_cur_fit c /\
    c_cur_fits c' = c_cur_fits c /\ c_cur_pt c' = c_cur_pt c /\ c_hist c' = c_hist c /\ c_samples c' = c_samples c /\ c_cap c' = c_cap c
  else
    c_steps c' = S (c_steps c) /\ c_cur_fits c' = fits_of E (si_results i) /\ c_cur_fit c' = step_best E (si_results i) /\
    c_cur_pt c' = step_best_point E i /\
    (if is_better (e_info E) (step_best E (si_results i)) (c_best_fit c)
     then c_best_fit c' = step_best E (si_results i) /\ c_best_pt c' = map rounded (step_best_point E i)
     else c_best_fit c' = c_best_fit c /\ c_best_pt c' = c_best_pt c) /\
    c_cap c' = c_cap c /\
    (if Nat.ltb 0 (c_cap c)
     then c_samples c' = S (c_samples c) /\ c_hist c' = (if Nat.leb (c_cap c) (length (c_hist c)) then tl (c_hist c) else c_hist c) ++ [f32_of_f64 (step_best E (si_results i))]
     else c_samples c' = c_samples c /\ c_hist c' = c_hist c).
Proof.
  unfold step_core. destruct (too_many_errors E (si_results i)).
  - destruct (si_interrupt i); cbn; auto 10.
  - unfold absorb, update_fitness_tracking. fold (step_best E (si_results i)) (step_best_point E i).
    destruct (is_better _ _ _); cbn [with_best with_current c_cap];
      destruct (Nat.ltb 0 (c_cap c)); cbn [c_hist with_best with_current c_cur_fit]; destruct (si_interrupt i); cbn; auto 20.
Qed.
Lemma created_core E extra : exists n, o_core (created E extra) = with_cap (init_core E) n.
Proof.
  unfold created. assert (H : forall o, (exists n, o_core o = with_cap (init_core E) n) -> exists n, o_core (fold_left add_stop_condition extra o) = with_cap (init_core E) n).
  { induction extra as [|sc t IH]; intros o Ho; cbn [fold_left]; [exact Ho|]. apply IH. cbn [add_stop_condition o_core]. destruct Ho as (n & ->).
    destruct (Nat.ltb _ _); eauto. }
  apply H. exists 0. reflexivity.
Qed.
Lemma strip_fields c c' : strip c = strip c' -> c_steps c = c_steps c' /\ c_best_fit c = c_best_fit c' /\ c_best_pt c = c_best_pt c' /\ c_cur_fit c = c_cur_fit c' /\
  c_cur_fits c = c_cur_fits c' /\ c_cur_pt c = c_cur_pt c' /\ c_samples c = c_samples c' /\ c_hist c = c_hist c' /\ c_cap c = c_cap c' /\ c_interrupted c = c_interrupted c'.
Proof. destruct c, c'; cbn. intros [=]. subst. auto 12. Qed.

Lemma fits_of_nth E i k f : nth_error (fits_of E (si_results i)) k = Some f ->
  (exists p, length (si_results i) = length (si_pop i) -> nth_error (si_pop i) k = Some p) /\
  (nth_error (si_results i) k = Some (ROk f) \/ f = worst_fitness (e_info E)).
Proof.
  unfold fits_of. intros H.
  assert (Hk : k < length (si_results i)) by (rewrite <- (map_length (fun r => match r with ROk f => f | RErr _ => worst_fitness (e_info E) end)); apply nth_error_Some; congruence).
  split.
  - exists (nth k (si_pop i) []). intros Hl. apply nth_error_nth'. lia.
  - destruct (nth_error (si_results i) k) as [r|] eqn:Er; [|apply nth_error_None in Er; lia].
    rewrite (map_nth_error _ _ _ Er) in H. injection H as <-. destruct r; auto.
Qed.

Definition best_spec (E : env) (h : list op) (c : core) : Prop :=
  (c_best_fit c = worst_fitness (e_info E) /\ c_best_pt c = map rounded (map pi_mean (oi_free (e_info E)))) \/
  (exists p f, evaluated E h p f /\ c_best_fit c = f /\ c_best_pt c = map rounded p /\ is_better (e_info E) f (worst_fitness (e_info E)) = true).

Lemma best_core E extra h : Forall (wf_op E) h ->
  let c := fold_left (op_core E) h (o_core (created E extra)) in
  best_spec E h c /\
  ((forall p f, evaluated E h p f -> fisnan f = false) -> forall p f, evaluated E h p f -> is_better (e_info E) f (c_best_fit c) = false).
Proof.
  induction h as [|a h IH] using rev_ind; intros Hw; cbv zeta.
  - cbn [fold_left]. destruct (created_core E extra) as (n & ->). split; [left; split; reflexivity|].
    intros _ p f (i & k & [] & _).
  - apply Forall_app in Hw as [Hw Ha]. inversion_clear Ha as [|? ? Hwa _]. destruct (IH Hw) as [IH1 IH2]. clear IH.
    rewrite fold_left_app. cbn [fold_left]. set (c := fold_left (op_core E) h (o_core (created E extra))) in *.
    assert (Hmono : forall p f, evaluated E h p f -> evaluated E (h ++ [a]) p f).
    { intros p f (i & k & H1 & H2). exists i, k. split; [apply in_app_iff; now left|exact H2]. }
    assert (Hold : best_spec E h c -> best_spec E (h ++ [a]) c).
    { intros [H|(p & f & H1 & H2)]; [now left|right]. exists p, f. split; [now apply Hmono|exact H2]. }
    destruct a as [i| | | | |n|sc]; cbn [op_core];
      try (split; [now apply Hold|]; intros Hn p f (i & k & H1 & H2); apply in_app_iff in H1 as [H1|[H1|[]]]; [|discriminate];
           apply (IH2 (fun p f H => Hn p f (Hmono p f H)) p f); exists i, k; auto).
    2:{ assert (Hf : c_best_fit (if Nat.ltb (c_cap c) (min_window sc) then with_cap c (min_window sc) else c) = c_best_fit c /\
                     c_best_pt (if Nat.ltb (c_cap c) (min_window sc) then with_cap c (min_window sc) else c) = c_best_pt c) by (destruct (Nat.ltb _ _); auto).
        destruct Hf as [Hf1 Hf2]. split.
        - specialize (Hold IH1). unfold best_spec in *. rewrite Hf1, Hf2. exact Hold.
        - rewrite Hf1. intros Hn p f (i & k & H1 & H2). apply in_app_iff in H1 as [H1|[H1|[]]]; [|discriminate].
          apply (IH2 (fun p f H => Hn p f (Hmono p f H)) p f). exists i, k; auto. }
    cbn [wf_op] in Hwa. destruct Hwa as (W1 & W2 & W3).
    pose proof (step_core_fields E c i) as HF. cbv zeta in HF. destruct (too_many_errors E (si_results i)) eqn:Et.
    + destruct HF as (_ & F1 & F2 & _). split.
      * specialize (Hold IH1). unfold best_spec in *. rewrite F1, F2. exact Hold.
      * intros Hn p f (j & k & H1 & H2 & H3). rewrite F1. apply in_app_iff in H1 as [H1|[[= <-]|[]]]; [|congruence].
        apply (IH2 (fun p f H => Hn p f (Hmono p f H)) p f). exists j, k; auto.
    + destruct HF as (_ & _ & _ & _ & F & _).
      set (f0 := step_best E (si_results i)) in *.
      assert (Hfl : length (fits_of E (si_results i)) = length (si_pop i)) by (unfold fits_of; now rewrite map_length).
      assert (Hne : fits_of E (si_results i) <> []) by (intros E0; rewrite E0 in Hfl; destruct (si_pop i); [congruence|discriminate]).
      pose proof (find_best_lt (e_info E) _ Hne) as Hbi.
      assert (Hf0 : nth_error (fits_of E (si_results i)) (find_best_fitness (e_info E) (fits_of E (si_results i))) = Some f0) by (apply nth_error_nth'; exact Hbi).
      assert (Hbw : c_best_fit c = worst_fitness (e_info E) \/ is_better (e_info E) (c_best_fit c) (worst_fitness (e_info E)) = true).
      { destruct IH1 as [[H _]|(p & f & _ & H1 & _ & H2)]; [now left|right]. now rewrite H1. }
      assert (Hattain : is_better (e_info E) f0 (c_best_fit c) = true -> evaluated E (h ++ [OpStep i]) (step_best_point E i) f0 /\ is_better (e_info E) f0 (worst_fitness (e_info E)) = true).
      { intros Hb. destruct (fits_of_nth E i _ f0 Hf0) as [_ [Hr|Hr]].
        - split.
          + exists i, (find_best_fitness (e_info E) (fits_of E (si_results i))). split; [apply in_app_iff; right; now left|]. split; [exact Et|]. split; [|exact Hr].
            unfold step_best_point. apply nth_error_nth'. lia.
          + destruct Hbw as [<-|Hbw]; [exact Hb|]. revert Hb Hbw. rewrite !is_better_key.
            intros Hb Hbw. apply andb_prop in Hb as [Hb1 Hb2]. apply andb_prop in Hb1 as [Hb0 Hb1]. apply andb_prop in Hbw as [Hc1 Hc2]. apply andb_prop in Hc1 as [_ Hc1].
            rewrite Hb0, Hc1. cbn [andb]. apply Z.ltb_lt in Hb2, Hc2. apply Z.ltb_lt. lia.
        - exfalso. rewrite Hr in Hb. destruct Hbw as [Hbw|Hbw].
          + rewrite Hbw in Hb. rewrite is_better_key, Z.ltb_irrefl, andb_false_r in Hb. discriminate.
          + revert Hb Hbw. rewrite !is_better_key. intros Hb Hbw. apply andb_prop in Hb as [_ Hb], Hbw as [_ Hbw]. apply Z.ltb_lt in Hb, Hbw. lia. }
      destruct (is_better (e_info E) f0 (c_best_fit c)) eqn:Eb.
      * destruct F as [F1 F2]. destruct (Hattain eq_refl) as [He Hw0]. split.
        -- right. exists (step_best_point E i), f0. auto.
        -- intros Hn p f Hev. rewrite F1.
           assert (Hnf : forall x, In x (fits_of E (si_results i)) -> fisnan x = false).
           { intros x Hx. apply In_nth_error in Hx as (k & Hk). destruct (fits_of_nth E i k x Hk) as [(q & Hq) [Hr| ->]]; [|apply worst_not_nan].
             apply (Hn q). exists i, k. split; [apply in_app_iff; right; now left|]. split; [exact Et|]. split; [now apply Hq|exact Hr]. }
           destruct Hev as (j & k & H1 & H2 & H3 & H4). apply in_app_iff in H1 as [H1|[[= <-]|[]]].
           ++ assert (Hold2 : is_better (e_info E) f (c_best_fit c) = false).
              { apply (IH2 (fun p f H => Hn p f (Hmono p f H)) p f). exists j, k; auto. }
              revert Eb Hold2. rewrite !is_better_key. intros Eb Hold2. apply andb_prop in Eb as [Eb1 Eb2]. apply andb_prop in Eb1 as [_ Eb1].
              assert (Hnn : fisnan f = false) by (apply (Hn p); apply Hmono; exists j, k; auto).
              rewrite Hnn, Eb1 in Hold2. cbn [negb andb] in Hold2. apply Z.ltb_lt in Eb2. apply Z.ltb_ge in Hold2.
              apply andb_false_iff. right. apply Z.ltb_ge. lia.
           ++ rewrite is_better_key. apply andb_false_iff. right. apply Z.ltb_ge.
              apply (find_best_best (e_info E) _ Hne Hnf). apply nth_error_In with k. unfold fits_of. now rewrite (map_nth_error _ _ _ H4).
      * destruct F as [F1 F2]. split.
        -- specialize (Hold IH1). unfold best_spec in *. rewrite F1, F2. exact Hold.
        -- intros Hn p f Hev. rewrite F1.
           assert (Hnf : forall x, In x (fits_of E (si_results i)) -> fisnan x = false).
           { intros x Hx. apply In_nth_error in Hx as (k & Hk). destruct (fits_of_nth E i k x Hk) as [(q & Hq) [Hr| ->]]; [|apply worst_not_nan].
             apply (Hn q). exists i, k. split; [apply in_app_iff; right; now left|]. split; [exact Et|]. split; [now apply Hq|exact Hr]. }
           destruct Hev as (j & k & H1 & H2 & H3 & H4). apply in_app_iff in H1 as [H1|[[= <-]|[]]].
           ++ apply (IH2 (fun p f H => Hn p f (Hmono p f H)) p f). exists j, k; auto.
           ++ assert (Hx : In f (fits_of E (si_results i))) by (apply nth_error_In with k; unfold fits_of; now rewrite (map_nth_error _ _ _ H4)).
              pose proof (find_best_best (e_info E) _ Hne Hnf f Hx) as Hle. fold f0 in Hle.
              assert (Hnb : fisnan (c_best_fit c) = false).
              { destruct IH1 as [[-> _]|(q & g & Hq & -> & _)]; [apply worst_not_nan|]. apply (Hn q), Hmono, Hq. }
              assert (Hn0 : fisnan f0 = false) by (apply Hnf; eapply nth_error_In; eauto).
              rewrite is_better_key, Hnb, Hn0 in Eb. cbn [negb andb] in Eb. apply Z.ltb_ge in Eb.
              rewrite is_better_key. apply andb_false_iff. right. apply Z.ltb_ge. unfold step_best in f0. fold f0 in Hle. lia.
Qed.

Theorem C19_best_is_best_ever : forall E extra h, oi_dim (e_info E) <> 0 -> Forall (wf_op E) h ->
  let c := o_core (after E extra h) in
  (* initial values, or attained by a point evaluated in a completed step *)
  ((c_best_fit c = worst_fitness (e_info E) /\ c_best_pt c = map rounded (map pi_mean (oi_free (e_info E)))) \/
   (exists p f, evaluated E h p f /\ c_best_fit c = f /\ c_best_pt c = map rounded p /\
      (map rounded p = p -> c_best_pt c = p) /\
      is_better (e_info E) f (worst_fitness (e_info E)) = true)) /\
  (* nothing evaluated in a completed step is better *)
  ((forall p f, evaluated E h p f -> fisnan f = false) -> forall p f, evaluated E h p f -> is_better (e_info E) f (c_best_fit c) = false).
Proof.
  intros E extra h Hd Hw c. destruct (best_core E extra h Hw) as [H1 H2].
  destruct (strip_fields _ _ (after_core E extra h Hd Hw)) as (_ & F1 & F2 & _). fold c in F1, F2.
  split.
  - unfold best_spec in H1. rewrite F1, F2. destruct H1 as [H1|(p & f & K1 & K2 & K3 & K4)]; [now left|right].
    exists p, f. split; [exact K1|]. split; [exact K2|]. split; [exact K3|]. split; [intros <-; exact K3|exact K4].
  - rewrite F1. exact H2.
Qed.
(** best_fitness() never gets worse, and best_point() changes only when it strictly improves. *)
Theorem C19_monotone : forall E extra h a, oi_dim (e_info E) <> 0 -> Forall (wf_op E) (h ++ [a]) ->
  let c := o_core (after E extra h) in let c' := o_core (after E extra (h ++ [a])) in
  (c_best_fit c' = c_best_fit c /\ c_best_pt c' = c_best_pt c) \/ is_better (e_info E) (c_best_fit c') (c_best_fit c) = true.
Proof.
  intros E extra h a Hd Hw c c'. unfold c'. rewrite after_snoc. apply Forall_app in Hw as [Hw Ha]. inversion_clear Ha as [|? ? Hwa _].
  destruct (strip_fields _ _ (exec_core E (after E extra h) a (after_inv E extra h Hd Hw) Hd Hwa)) as (_ & F1 & F2 & _).
  rewrite F1, F2. fold c. destruct a as [i| | | | |n|sc]; cbn [op_core]; auto.
  2:{ destruct (Nat.ltb _ _); auto. }
  pose proof (step_core_fields E c i) as HF. cbv zeta in HF. destruct (too_many_errors E (si_results i)).
  - destruct HF as (_ & -> & -> & _). auto.
  - destruct HF as (_ & _ & _ & _ & HF & _). destruct (is_better _ _ _) eqn:Eb; destruct HF as [-> ->]; auto.
Qed.

(** ** C20 *)

(** More failed evaluations than allowed, with the default allowance 0: at least one. *)
Theorem C20_error_threshold : forall E rs,
  (e_max_errors E = 0%Z -> (too_many_errors E rs = true <-> exists s, In (RErr s) rs)) /\
  ((0 <= e_max_errors E)%Z -> (too_many_errors E rs = true <-> (e_max_errors E < Z.of_nat (count_errors rs))%Z)) /\
  ((e_max_errors E < 0)%Z -> (- e_max_errors E <= Z.of_nat (length rs))%Z ->
     (too_many_errors E rs = true <-> (Z.of_nat (length rs) + e_max_errors E < Z.of_nat (count_errors rs))%Z)).
Proof.
  intros E rs. unfold too_many_errors, allowed_errors.
  assert (H0 : (0 <= e_max_errors E)%Z -> ((if e_unsigned_errors E && ((if (0 <=? e_max_errors E)%Z then e_max_errors E else (Z.of_nat (length rs) + e_max_errors E)%Z) <? 0)%Z
     then false else ((if (0 <=? e_max_errors E)%Z then e_max_errors E else (Z.of_nat (length rs) + e_max_errors E)%Z) <? Z.of_nat (count_errors rs))%Z) = true
     <-> (e_max_errors E < Z.of_nat (count_errors rs))%Z)).
  { intros H. destruct (Z.leb_spec 0 (e_max_errors E)); [|lia]. destruct (Z.ltb_spec (e_max_errors E) 0); [lia|]. rewrite andb_false_r. apply Z.ltb_lt. }
  split; [|split].
  - intros Hz. rewrite H0 by lia. rewrite Hz. unfold count_errors. split.
    + intros H. destruct (filter is_err rs) as [|r l] eqn:Ef; [cbn in H; lia|].
      assert (Hin : In r (filter is_err rs)) by (rewrite Ef; now left). apply filter_In in Hin as [Hin Hr]. destruct r as [|s]; [discriminate|]. eauto.
    + intros (s & Hs). assert (Hin : In (RErr s) (filter is_err rs)) by (apply filter_In; auto). destruct (filter is_err rs); [destruct Hin|cbn [length]; lia].
  - exact H0.
  - intros H1 H2. destruct (Z.leb_spec 0 (e_max_errors E)); [lia|]. destruct (Z.ltb_spec (Z.of_nat (length rs) + e_max_errors E) 0); [lia|].
    rewrite andb_false_r. apply Z.ltb_lt.
Qed.
Lemma after_conditions E extra h : oi_dim (e_info E) <> 0 -> Forall (wf_op E) h ->
  exists e t, o_scs (after E extra h) = ScAbort :: ScError e :: t /\ (o_stopped (after E extra h) = None -> e = None).
Proof.
  intros Hd. induction h as [|a h IH] using rev_ind; intros Hw.
  - unfold after. cbn [fold_left]. exists None, extra. unfold created.
    assert (H : forall o t, o_scs o = ScAbort :: ScError None :: t -> o_scs (fold_left add_stop_condition extra o) = ScAbort :: ScError None :: t ++ extra).
    { clear. induction extra as [|sc q IH]; intros o t Ho; cbn [fold_left]; [now rewrite app_nil_r|]. rewrite (IH _ (t ++ [sc])); [now rewrite <- app_assoc|]. cbn. now rewrite Ho. }
    rewrite (H (init E) [] eq_refl). auto.
  - apply Forall_app in Hw as [Hw Ha]. inversion_clear Ha as [|? ? Hwa _]. rewrite after_snoc.
    destruct (IH Hw) as (e & t & H1 & H2). pose proof (after_inv E extra h Hd Hw) as HI. set (o := after E extra h) in *. clear IH.
    assert (HT : forall o e t, cache_ok E (o_core o) -> o_scs o = ScAbort :: ScError e :: t -> (o_stopped o = None -> o_stopped (fst (test_stop E o)) = None -> e = None) /\
       exists t', o_scs (fst (test_stop E o)) = ScAbort :: ScError e :: t').
    { clear. intros o e t Hc Hs. split.
      - intros Hn. unfold test_stop. rewrite Hn, Hs. cbn [test_list sc_test]. destruct (c_interrupted (o_core o)); [cbn; discriminate|].
        destruct e; [cbn; discriminate|reflexivity].
      - pose proof (test_stop_scs E o Hc) as HF. rewrite Hs in HF. inversion_clear HF as [|? b ? m Hab HF']. inversion_clear HF' as [|? b' ? m' Hab' HF''].
        destruct Hab as [->| ->], Hab' as [->| ->]; cbn; eauto. }
    destruct a as [i| | | | |n|sc]; cbn [exec]; try (exists e, t; auto; fail).
    + destruct HI as [I1 I2 _]. destruct (step_shape E o i Hd Hwa I2) as (scs & tr & -> & S1 & S2).
      set (o1 := {| o_core := step_core E (o_core o) i; o_scs := scs; o_stopped := o_stopped o; o_trace := tr |}).
      assert (Hscs : exists e', scs = ScAbort :: ScError e' :: t /\ (o_stopped o = None -> too_many_errors E (si_results i) = false -> e' = None)).
      { destruct (too_many_errors E (si_results i)) eqn:Et.
        - destruct (S1 eq_refl) as ((pre & e0 & post & E1 & E2 & ->) & _). rewrite H1 in E1. destruct pre as [|x [|y pre]]; [discriminate| |].
          + injection E1 as <- <- <-. eexists. split; [reflexivity|discriminate].
          + exfalso. injection E1 as <- <- _. apply (E2 e). right. now left.
        - destruct (S2 eq_refl) as (-> & _). exists e. split; [exact H1|]. auto. }
      destruct Hscs as (e' & Hs & He'). destruct (HT o1 e' t (step_core_cache E _ i I1) Hs) as [T1 (t' & T2)].
      exists e', t'. split; [exact T2|]. intros Hn. apply T1; [|exact Hn]. cbn [o1 o_stopped]. destruct (o_stopped o) eqn:Eo; [|reflexivity].
      exfalso. unfold test_stop in Hn. cbn [o1 o_stopped fst] in Hn. congruence.
    + destruct HI as [I1 I2 _]. destruct (HT o e t I1 H1) as [T1 (t' & T2)]. exists e, t'. split; [exact T2|]. intros Hn. destruct (o_stopped o) eqn:Eo.
      * exfalso. unfold test_stop in Hn. rewrite Eo in Hn. cbn in Hn. congruence.
      * auto.
    + exists e, (t ++ [sc]). cbn [add_stop_condition o_scs o_stopped]. rewrite H1. auto.
Qed.

Theorem C20_failed_step_has_no_effect : forall E extra h i, oi_dim (e_info E) <> 0 -> Forall (wf_op E) h -> wf_input E i ->
  too_many_errors E (si_results i) = true ->
  let o := after E extra h in let o' := fst (step E o i) in let c := o_core o in let c' := o_core o' in
  (* nothing changes *)
  c_steps c' = c_steps c /\ c_best_fit c' = c_best_fit c /\ c_best_pt c' = c_best_pt c /\ c_cur_fit c' = c_cur_fit c /\
  c_cur_fits c' = c_cur_fits c /\ c_cur_pt c' = c_cur_pt c /\ c_hist c' = c_hist c /\ c_samples c' = c_samples c /\
  (* the error condition (number 1) is set *)
  nth_error (o_scs o') 1 = Some (ScError (Some {| ei_errors := count_errors (si_results i); ei_total := length (si_results i);
                                 ei_allowed := allowed_errors E (si_results i); ei_messages := messages_of (si_results i) |})) /\
  (* and step() returns a stop condition: the one already latched, the abort condition, or the error condition *)
  snd (step E o i) = Ok (Some (match o_stopped o with Some k => k | None => if c_interrupted c || si_interrupt i then 0 else 1 end)).
Proof.
  intros E extra h i Hd Hw Hi Ht o o' c c'.
  pose proof (after_inv E extra h Hd Hw) as [I1 I2 _]. fold o in I1, I2.
  destruct (after_conditions E extra h Hd Hw) as (e & t & H1 & H2). fold o in H1, H2.
  destruct (strip_fields _ _ (exec_core E o (OpStep i) (after_inv E extra h Hd Hw) Hd Hi)) as (F1 & F2 & F3 & F4 & F5 & F6 & F7 & F8 & _).
  cbn [exec op_core] in *. fold o' in F1, F2, F3, F4, F5, F6, F7, F8. fold c' in F1, F2, F3, F4, F5, F6, F7, F8.
  pose proof (step_core_fields E c i) as HF. cbv zeta in HF. rewrite Ht in HF. destruct HF as (G1 & G2 & G3 & G4 & G5 & G6 & G7 & G8 & _). fold c in F1, F2, F3, F4, F5, F6, F7, F8.
  rewrite F1, F2, F3, F4, F5, F6, F7, F8, G1, G2, G3, G4, G5, G6, G7, G8.
  do 8 (split; [reflexivity|]).
  unfold o'. destruct (step_shape E o i Hd Hi I2) as (scs & tr & -> & S1 & _). destruct (S1 Ht) as ((pre & e0 & post & E1 & E2 & ->) & _).
  rewrite H1 in E1. destruct pre as [|x [|y pre]]; [discriminate| |exfalso; injection E1 as <- <- _; apply (E2 e); right; now left].
  injection E1 as <- <- <-. cbn [app].
  set (ei := {| ei_errors := _ |}). set (o1 := {| o_core := _ |}).
  assert (Hint : c_interrupted (step_core E c i) = c_interrupted c || si_interrupt i).
  { unfold step_core. rewrite Ht. destruct (si_interrupt i); cbn; [now rewrite orb_true_r|now rewrite orb_false_r]. }
  split.
  - pose proof (test_stop_scs E o1 (step_core_cache E c i I1)) as HF. cbn [o1 o_scs] in HF. inversion_clear HF as [|? b ? m Hab HF']. inversion_clear HF' as [|? b' ? m' Hab' HF''].
    cbn [nth_error]. destruct Hab' as [->| ->]; reflexivity.
  - unfold test_stop. cbn [o1 o_stopped]. destruct (o_stopped o) as [k|]; [reflexivity|]. cbn [o1 o_core o_scs test_list sc_test]. fold c. rewrite Hint.
    destruct (c_interrupted c || si_interrupt i); reflexivity.
Qed.
(** The messages: exactly the distinct messages of the failed evaluations. *)
Theorem C20_error_messages : forall rs, (exists s, In (RErr s) rs) ->
  NoDup (messages_of rs) /\ forall s, In s (messages_of rs) <-> In (RErr s) rs.
Proof.
  intros rs (s0 & H0). unfold messages_of.
  set (F := fun m r => match r with RErr s => fm_set s tt m | ROk _ => m end).
  assert (H : forall m, fm_sorted m -> fm_sorted (fold_left F rs m) /\ forall s, In s (keys (fold_left F rs m)) <-> In s (keys m) \/ In (RErr s) rs).
  { clear. induction rs as [|r t IH]; intros m Hm; cbn [fold_left In]; [split; [exact Hm|tauto]|].
    destruct r as [f|s]; cbn [F].
    - destruct (IH m Hm) as [I1 I2]. split; [exact I1|]. intros s. rewrite I2. split; [tauto|]. intros [H|[H|H]]; [tauto|discriminate|tauto].
    - destruct (IH (fm_set s tt m) (fm_set_sorted s tt m Hm)) as [I1 I2]. split; [exact I1|]. intros s'. rewrite I2, keys_fm_set. split.
      + intros [[->|H]|H]; tauto.
      + intros [H|[[= ->]|H]]; tauto. }
  destruct (H [] fms_nil) as [H1 H2]. fold F. destruct (keys (fold_left F rs [])) as [|k l] eqn:Ek.
  - exfalso. assert (In s0 []) as [] by (apply H2; now right).
  - rewrite <- Ek in *. split; [now apply fm_sorted_NoDup|]. intros s. rewrite H2. cbn. tauto.
Qed.
Theorem C20_tolerated_errors_count_as_worst : forall E extra h i, oi_dim (e_info E) <> 0 -> Forall (wf_op E) h -> wf_input E i ->
  too_many_errors E (si_results i) = false ->
  let o := after E extra h in let c := o_core o in let c' := o_core (fst (step E o i)) in
  c_steps c' = S (c_steps c) /\
  Forall2 (fun r f => match r with ROk x => f = x | RErr _ => f = worst_fitness (e_info E) end) (si_results i) (c_cur_fits c').
Proof.
  intros E extra h i Hd Hw Hi Ht o c c'.
  destruct (strip_fields _ _ (exec_core E o (OpStep i) (after_inv E extra h Hd Hw) Hd Hi)) as (F1 & _ & _ & _ & F5 & _).
  cbn [exec op_core] in *. fold c' in F1, F5. pose proof (step_core_fields E c i) as HF. cbv zeta in HF. rewrite Ht in HF. destruct HF as (G1 & G2 & _).
  fold c in F1, F5. rewrite F1, F5, G1, G2. split; [reflexivity|]. unfold fits_of. generalize (si_results i) as rs. clear. induction rs as [|r l IH]; cbn [map]; constructor; [destruct r; reflexivity|exact IH].
Qed.
(** Sharpness: when the allowance is negative beyond the population size, the comparison with an
    unsigned error count never fails, with a signed one it fails even without any error. *)
Theorem C20_negative_allowance : forall E rs, (Z.of_nat (length rs) + e_max_errors E < 0)%Z ->
  too_many_errors E rs = negb (e_unsigned_errors E).
Proof.
  intros E rs H. unfold too_many_errors, allowed_errors. destruct (Z.leb_spec 0 (e_max_errors E)); [lia|].
  destruct (Z.ltb_spec (Z.of_nat (length rs) + e_max_errors E) 0); [|lia]. rewrite andb_true_r.
  destruct (e_unsigned_errors E); [reflexivity|]. apply Z.ltb_lt. lia.
Qed.

(** ** C21 *)
Definition run_limit (n : N) : nat := N.to_nat (if N.eqb n 0 then 18446744073709551615 else n).
Definition states (E : env) (o : opt) (inputs : nat -> step_input) (j : nat) : opt :=
  fold_left (exec E) (map (fun j => OpStep (inputs j)) (seq 0 j)) o.
Lemma run_loop_spec E inputs : forall fuel k0 o0, let st j := fold_left (exec E) (map (fun j => OpStep (inputs j)) (seq k0 j)) o0 in
     let '(o', r, k) := run_loop E fuel o0 inputs k0 in
     exists q, k = k0 + q /\ q <= fuel /\ o' = st q /\ (forall j, S j < q -> snd (step E (st j) (inputs (k0 + j))) = Ok None) /\
       (q < fuel -> r <> Ok None) /\ (q = 0 -> r = Ok None /\ fuel = 0) /\
       (forall j, q = S j -> snd (step E (st j) (inputs (k0 + j))) = r).
Proof.
  induction fuel as [|f IH]; intros k0 o0 st; cbn [run_loop].
  - exists 0. split; [lia|]. split; [lia|]. split; [reflexivity|]. split; [intros; lia|]. split; [lia|]. split; [auto|]. intros j Hj. discriminate.
  - destruct (step E o0 (inputs k0)) as [o1 r1] eqn:Es.
    assert (Hs0 : snd (step E (st 0) (inputs (k0 + 0))) = r1) by (unfold st; cbn [seq map fold_left]; rewrite Nat.add_0_r, Es; reflexivity).
    assert (Hlast : r1 <> Ok None -> exists q, S k0 = k0 + q /\ q <= S f /\ o1 = st q /\ (forall j, S j < q -> snd (step E (st j) (inputs (k0 + j))) = Ok None) /\
       (q < S f -> r1 <> Ok None) /\ (q = 0 -> r1 = Ok None /\ S f = 0) /\ (forall j, q = S j -> snd (step E (st j) (inputs (k0 + j))) = r1)).
    { intros Hr. exists 1. split; [lia|]. split; [lia|]. split; [unfold st; cbn [seq map fold_left exec]; now rewrite Es|]. split; [intros; lia|].
      split; [auto|]. split; [lia|]. intros j Hj. injection Hj as <-. exact Hs0. }
    destruct r1 as [[c|]|w|]; [apply Hlast; discriminate| |apply Hlast; discriminate|apply Hlast; discriminate].
    specialize (IH (S k0) o1). destruct (run_loop E f o1 inputs (S k0)) as [[o' r] k]. destruct IH as (q & Q1 & Q2 & Q3 & Q4 & Q5 & Q6 & Q7).
    assert (Hst : forall j, st (S j) = fold_left (exec E) (map (fun j => OpStep (inputs j)) (seq (S k0) j)) o1).
    { intros j. unfold st. cbn [seq map fold_left exec]. now rewrite Es. }
    exists (S q). split; [lia|]. split; [lia|]. split; [now rewrite Hst|]. split; [|split; [|split]].
    + intros [|j] Hj; [exact Hs0|]. rewrite Hst. replace (k0 + S j) with (S k0 + j) by lia. apply Q4. lia.
    + intros Hq. apply Q5. lia.
    + discriminate.
    + intros j Hj. injection Hj as <-. destruct q as [|q].
      * destruct (Q6 eq_refl) as [-> _]. exact Hs0.
      * rewrite Hst. replace (k0 + S q) with (S k0 + q) by lia. now apply Q7.
Qed.
Theorem C21_run : forall E o n inputs, oi_dim (e_info E) <> 0 ->
  let '(o', r, k) := run E o n inputs in   (* k is the number of calls of step() *)
  let st := states E o inputs in           (* the states after that many steps *)
  1 <= k <= run_limit n /\ o' = st k /\
  (* every step but the last returned null *)
  (forall j, S j < k -> snd (step E (st j) (inputs j)) = Ok None) /\
  (* run returns what the last step returned *)
  snd (step E (st (k - 1)) (inputs (k - 1))) = r /\
  (* it made fewer than n steps only if that is not null *)
  (k < run_limit n -> r <> Ok None).
Proof.
  intros E o n inputs Hd. unfold run. destruct (Nat.eqb_spec (oi_dim (e_info E)) 0) as [|_]; [congruence|]. fold (run_limit n).
  assert (HL : 1 <= run_limit n).
  { unfold run_limit. destruct (N.eqb_spec n 0); [|lia]. change 1 with (N.to_nat 1). apply Nat.compare_le_iff. rewrite <- N2Nat.inj_compare. discriminate. }
  pose proof (run_loop_spec E inputs (run_limit n) 0 o) as H. cbv zeta in H. destruct (run_loop E (run_limit n) o inputs 0) as [[o' r] k].
  destruct H as (q & -> & H1 & H2 & H3 & H4 & H5 & H6). cbn [Nat.add] in *. unfold states.
  assert (q <> 0) by (intros ->; destruct H5; auto; lia).
  split; [lia|]. split; [exact H2|]. split; [exact H3|]. split; [|exact H4]. apply H6. lia.
Qed.
(** current_step() counts exactly the steps that were not rejected for errors. *)
Definition completed (E : env) (h : list op) : nat :=
  length (filter (fun a => match a with OpStep i => negb (too_many_errors E (si_results i)) | _ => false end) h).
Theorem C21_current_step : forall E extra h, oi_dim (e_info E) <> 0 -> Forall (wf_op E) h ->
  c_steps (o_core (after E extra h)) = completed E h.
Proof.
  intros E extra h Hd. induction h as [|a h IH] using rev_ind; intros Hw.
  - unfold after. cbn [fold_left]. destruct (created_core E extra) as (n & ->). reflexivity.
  - apply Forall_app in Hw as [Hw Ha]. inversion_clear Ha as [|? ? Hwa _]. rewrite after_snoc.
    destruct (strip_fields _ _ (exec_core E (after E extra h) a (after_inv E extra h Hd Hw) Hd Hwa)) as (-> & _).
    unfold completed. rewrite filter_app, app_length. fold (completed E h). rewrite <- (IH Hw).
    destruct a as [i| | | | |n|sc]; cbn [op_core filter length with_interrupt c_steps]; try lia.
    2:{ destruct (Nat.ltb _ _); cbn [with_cap c_steps]; lia. }
    pose proof (step_core_fields E (o_core (after E extra h)) i) as HF. cbv zeta in HF. destruct (too_many_errors E (si_results i)); cbn [negb length]; destruct HF as (-> & _); lia.
Qed.
Theorem C21_run_current_step : forall E extra h n inputs, oi_dim (e_info E) <> 0 -> Forall (wf_op E) h -> (forall j, wf_input E (inputs j)) ->
  let '(o', _, k) := run E (after E extra h) n inputs in
  c_steps (o_core o') = c_steps (o_core (after E extra h)) + length (filter (fun j => negb (too_many_errors E (si_results (inputs j)))) (seq 0 k)).
Proof.
  intros E extra h n inputs Hd Hw Hi. pose proof (C21_run E (after E extra h) n inputs Hd) as H. destruct (run E (after E extra h) n inputs) as [[o' r] k].
  destruct H as (_ & -> & _). unfold states. rewrite <- after_app.
  assert (Hw' : Forall (wf_op E) (h ++ map (fun j => OpStep (inputs j)) (seq 0 k))).
  { apply Forall_app. split; [exact Hw|]. apply Forall_map, Forall_forall. intros j _. apply Hi. }
  rewrite !C21_current_step by auto. unfold completed. rewrite filter_app, app_length. f_equal.
  generalize (seq 0 k) as l. induction l as [|j l IH]; cbn [map filter]; [reflexivity|]. destruct (negb _); cbn [length]; now rewrite IH.
Qed.
