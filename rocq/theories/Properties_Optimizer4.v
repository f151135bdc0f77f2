(** * C23: what each stop condition tests, and concrete runs for C19-C27. *)
From Coq Require Import ZArith Bool.
From Flocq Require Import BinarySingleNaN.
From Verif Require Import Prelude Flt FltFacts Flt32 Round8 Round8Facts FlatMap ParInfo ObjInfo ObjInfoFacts Num MathTools Optimizer OptimizerFacts Properties_Optimizer Properties_Optimizer2 Properties_Optimizer3.

(** ** C23 *)
Section After.
Context (E : env) (extra : list stop_cond) (h : list op) (Hd : oi_dim (e_info E) <> 0) (Hw : Forall (wf_op E) h).
Let c := o_core (after E extra h).

Theorem C23_abort : answer E c ScAbort = Ok (existsb interrupts h).
Proof. unfold answer. cbn. unfold c. now rewrite stop_requested_iff. Qed.

Theorem C23_max_steps n : answer E c (ScMaxSteps n) = Ok (n <=? completed E h).
Proof. unfold answer. cbn [sc_test snd]. unfold c. now rewrite C21_current_step. Qed.

Theorem C23_target t : answer E c (ScTarget t) = Ok true <->
  (if oi_minimize (e_info E) then flt (c_best_fit c) t else flt t (c_best_fit c)) = true.
Proof. unfold answer. cbn [sc_test snd]. unfold is_better, fgt. split; [intros [= H]|intros H]; destruct (oi_minimize _); congruence. Qed.
End After.

(** The error condition (condition number 1) fires iff some step was rejected for errors. *)
Definition rejects (E : env) (a : op) : bool := match a with OpStep i => too_many_errors E (si_results i) | _ => false end.
Theorem C23_error : forall E extra h, oi_dim (e_info E) <> 0 -> Forall (wf_op E) h ->
  let o := after E extra h in
  exists e, nth_error (o_scs o) 1 = Some (ScError e) /\ answer E (o_core o) (ScError e) = Ok (existsb (rejects E) h).
Proof.
  intros E extra h Hd Hw o. subst o.
  assert (H : exists e t, o_scs (after E extra h) = ScAbort :: ScError e :: t /\ (match e with Some _ => true | None => false end) = existsb (rejects E) h).
  { revert Hw. induction h as [|a h' IH] using rev_ind; intros Hw.
    - destruct (after_conditions E extra [] Hd Hw) as (e & t & H1 & H2). exists e, t. split; [exact H1|]. rewrite H2; [reflexivity|].
      unfold after, created. cbn [fold_left]. assert (HH : forall l o, o_stopped o = None -> o_stopped (fold_left add_stop_condition l o) = None).
      { induction l as [|sc l IHl]; intros o Ho; cbn [fold_left]; [exact Ho|]. apply IHl. exact Ho. } apply HH. reflexivity.
    - apply Forall_app in Hw as [Hw Ha]. inversion_clear Ha as [|? ? Hwa _]. rewrite after_snoc, existsb_app. cbn [existsb]. rewrite orb_false_r.
      destruct (IH Hw) as (e & t & H1 & H2). rewrite <- H2. pose proof (after_inv E extra h' Hd Hw) as [I1 I2 _]. set (o := after E extra h') in *. clear IH.
      assert (HT : forall o e t, cache_ok E (o_core o) -> o_scs o = ScAbort :: ScError e :: t -> exists t', o_scs (fst (test_stop E o)) = ScAbort :: ScError e :: t').
      { clear. intros o e t Hc Hs. pose proof (test_stop_scs E o Hc) as HF. rewrite Hs in HF. inversion_clear HF as [|? b ? m Hab HF']. inversion_clear HF' as [|? b' ? m' Hab' HF''].
        destruct Hab as [->| ->], Hab' as [->| ->]; cbn; eauto. }
      destruct a as [i| | | | |n|sc]; cbn [exec rejects]; rewrite ?orb_false_r; try (exists e, t; auto; fail).
      + destruct (step_shape E o i Hd Hwa I2) as (scs & tr & -> & S1 & S2).
        destruct (too_many_errors E (si_results i)).
        * destruct (S1 eq_refl) as ((pre & e0 & post & E1 & E2 & ->) & _). rewrite H1 in E1. destruct pre as [|x [|y pre]]; [discriminate| |exfalso; injection E1 as <- <- _; apply (E2 e); right; now left].
          injection E1 as <- <- <-. edestruct HT as (t' & Ht'); [| |eexists; eexists; split; [exact Ht'|]].
          -- cbn [o_core]. now apply step_core_cache.
          -- cbn [o_scs app]. reflexivity.
          -- now rewrite orb_true_r.
        * destruct (S2 eq_refl) as (-> & _). rewrite orb_false_r. edestruct HT as (t' & Ht'); [| |eexists; eexists; split; [exact Ht'|reflexivity]].
          -- cbn [o_core]. now apply step_core_cache.
          -- exact H1.
      + destruct (HT o e t I1 H1) as (t' & Ht'). eauto.
      + exists e, (t ++ [sc]). cbn [add_stop_condition o_scs]. rewrite H1. auto. }
  destruct H as (e & t & H1 & H2). exists e. rewrite H1. split; [reflexivity|]. unfold answer. cbn. now rewrite <- H2.
Qed.

Lemma cur_fields E extra h : oi_dim (e_info E) <> 0 -> Forall (wf_op E) h ->
  let c := o_core (after E extra h) in (0 < completed E h -> c_cur_fits c <> []) /\ length (c_cur_pt c) = oi_dim (e_info E).
Proof.
  intros Hd. induction h as [|a h IH] using rev_ind; intros Hw; cbv zeta.
  - unfold after. cbn [fold_left]. rewrite created_cap. cbn. split; [lia|]. unfold oi_dim. now rewrite !map_length.
  - apply Forall_app in Hw as [Hw Ha]. inversion_clear Ha as [|? ? Hwa _]. rewrite after_snoc. destruct (IH Hw) as (J1 & J2). clear IH.
    destruct (strip_fields _ _ (exec_core E (after E extra h) a (after_inv E extra h Hd Hw) Hd Hwa)) as (_ & _ & _ & _ & -> & -> & _).
    set (c := o_core (after E extra h)) in *.
    assert (HC : completed E (h ++ [a]) = completed E h + completed E [a]) by (unfold completed; rewrite filter_app, app_length; reflexivity).
    rewrite HC. destruct a as [i| | | | |n|sc]; cbn [op_core with_interrupt c_cur_fits c_cur_pt]; cbn [completed filter length]; rewrite ?Nat.add_0_r; auto.
    2:{ destruct (Nat.ltb _ _); auto. }
    pose proof (step_core_fields E c i) as HF. cbv zeta in HF. destruct (too_many_errors E (si_results i)) eqn:Et.
    + destruct HF as (_ & _ & _ & _ & -> & -> & _). cbn [negb length]. rewrite ?Nat.add_0_r. auto.
    + destruct HF as (_ & -> & _ & -> & _). destruct Hwa as (W1 & W2 & W3).
      assert (Hfl : length (fits_of E (si_results i)) = length (si_pop i)) by (unfold fits_of; now rewrite map_length).
      assert (Hne : fits_of E (si_results i) <> []) by (intros E0; rewrite E0 in Hfl; destruct (si_pop i); [congruence|discriminate]).
      split; [intros _; exact Hne|]. rewrite Forall_forall in W3. apply W3. unfold step_best_point. apply nth_In. rewrite <- Hfl. now apply find_best_lt.
Qed.

(** Flat fitness: never before a completed step; then iff the spread of the last completed
    step's fitnesses is below epsilon. *)
Theorem C23_flat_fitness : forall E extra h eps, oi_dim (e_info E) <> 0 -> Forall (wf_op E) h ->
  let c := o_core (after E extra h) in
  (completed E h = 0 -> answer E c (ScFlat eps) = Ok false) /\
  (0 < completed E h -> (forall x, In x (c_cur_fits c) -> fisnan x = false) ->
     exists hi lo, In hi (c_cur_fits c) /\ In lo (c_cur_fits c) /\
       (forall x, In x (c_cur_fits c) -> fle x hi = true /\ fle lo x = true) /\
       answer E c (ScFlat eps) = Ok (flt (fsub hi lo) eps)).
Proof.
  intros E extra h eps Hd Hw c. pose proof (C21_current_step E extra h Hd Hw) as HS. fold c in HS. pose proof (cur_fields E extra h Hd Hw) as [HC _]. fold c in HC.
  unfold answer. cbn [sc_test snd]. rewrite HS. split.
  - intros ->. reflexivity.
  - intros Hp Hn. specialize (HC Hp). destruct (Nat.ltb_spec 0 (completed E h)); [|lia].
    destruct (min_element_spec flt fkey _ HC) as (lo & Hlo & L).
    { intros a b Ha Hb. rewrite flt_key, (Hn a Ha), (Hn b Hb). reflexivity. }
    destruct (min_element_spec (fun x b => flt b x) (fun a => - fkey a)%Z _ HC) as (hi & Hhi & L').
    { intros a b Ha Hb. rewrite flt_key, (Hn a Ha), (Hn b Hb). cbn. destruct (Z.ltb_spec (fkey b) (fkey a)), (Z.ltb_spec (- fkey a) (- fkey b)); auto; lia. }
    exists hi, lo. split; [eapply nth_error_In; eauto|]. split; [eapply nth_error_In; eauto|]. split; [|now rewrite Hhi, Hlo].
    intros x Hx. rewrite !fle_key, (Hn x Hx), (Hn hi (nth_error_In _ _ Hhi)), (Hn lo (nth_error_In _ _ Hlo)). cbn [negb andb].
    apply In_nth_error in Hx as (j & Hj). pose proof (L j x Hj). pose proof (L' j x Hj). rewrite !Z.leb_le. lia.
Qed.

Lemma window_ge extra sc : In sc extra -> min_window sc <= window extra.
Proof.
  unfold window. assert (H : forall l n, n <= fold_left (fun n sc => Nat.max n (min_window sc)) l n /\ forall sc, In sc l -> min_window sc <= fold_left (fun n sc => Nat.max n (min_window sc)) l n).
  { induction l as [|s t IH]; intros n; cbn [fold_left]; [split; [lia|intros ? []]|]. destruct (IH (Nat.max n (min_window s))) as [H1 H2]. split; [lia|].
    intros sc' [<-|Hin]; [lia|now apply H2]. }
  apply H.
Qed.
(** Minimum progress: never before min_samples completed steps; from then on iff progress() is below the limit
    (and progress() is then available). *)
Theorem C23_min_progress : forall E extra h p n, oi_dim (e_info E) <> 0 -> Forall (wf_op E) h -> In (ScMinProgress p n) (extra ++ adds h) -> 0 < n ->
  let c := o_core (after E extra h) in
  (completed E h < n -> answer E c (ScMinProgress p n) = Ok false) /\
  (n <= completed E h -> exists x, snd (progress E c) = Ok x /\ answer E c (ScMinProgress p n) = Ok (flt (f64_of_f32 x) p)).
Proof.
  intros E extra h p n Hd Hw Hin Hn c. pose proof (C21_current_step E extra h Hd Hw) as HS. fold c in HS.
  destruct (C25_history_is_recent E extra h Hd Hw) as (HC & _). fold c in HC. pose proof (window_ge (extra ++ adds h) _ Hin) as HG. cbn in HG.
  pose proof (C26_trend_is_never_stale E extra h Hd Hw) as (_ & HP & _). fold c in HP.
  unfold answer. cbn [sc_test]. rewrite HS. destruct (Nat.leb_spec n (completed E h)); split; try lia; try reflexivity. intros _.
  destruct (progress E c) as [c' r]. cbn [snd] in *. rewrite HC in HP. destruct (Nat.eqb_spec (window (extra ++ adds h)) 0); [lia|].
  destruct (length (c_hist c) <? 2); subst r; eexists; split; reflexivity.
Qed.
Theorem C23_predicted_fitness : forall E extra h pr0 pr f look n, oi_dim (e_info E) <> 0 -> Forall (wf_op E) h -> In (ScPredicted pr0 f look n) (extra ++ adds h) -> 0 < n ->
  let c := o_core (after E extra h) in
  (completed E h < n -> answer E c (ScPredicted pr f look n) = Ok false /\ sc_after E c (ScPredicted pr f look n) = ScPredicted pr f look n) /\
  (n <= completed E h -> exists x, snd (predicted_fitness E c look) = Ok x /\
     answer E c (ScPredicted pr f look n) = Ok (negb (is_better (e_info E) (f64_of_f32 x) f)) /\
     (* and the prediction shown by what() is that value *)
     sc_after E c (ScPredicted pr f look n) = ScPredicted (f64_of_f32 x) f look n).
Proof.
  intros E extra h pr0 pr f look n Hd Hw Hin Hn c. pose proof (C21_current_step E extra h Hd Hw) as HS. fold c in HS.
  destruct (C25_history_is_recent E extra h Hd Hw) as (HC & _). fold c in HC. pose proof (window_ge (extra ++ adds h) _ Hin) as HG. cbn in HG.
  pose proof (C26_trend_is_never_stale E extra h Hd Hw) as (_ & _ & HP). fold c in HP. specialize (HP look).
  unfold answer, sc_after. cbn [sc_test]. rewrite HS. destruct (Nat.leb_spec n (completed E h)); split; try lia; try (split; reflexivity). intros _.
  destruct (predicted_fitness E c look) as [c' r]. cbn [snd] in HP. rewrite HC in HP. destruct (Nat.eqb_spec (window (extra ++ adds h)) 0); [lia|].
  destruct (length (c_hist c) <? 2); subst r; eexists; (split; [reflexivity|]); split; reflexivity.
Qed.
(** With min_samples 0 and no other condition asking for a window, testing throws. *)
Theorem C23_min_progress_without_window : forall E extra h p, oi_dim (e_info E) <> 0 -> Forall (wf_op E) h -> window (extra ++ adds h) = 0 ->
  answer E (o_core (after E extra h)) (ScMinProgress p 0) = Throw "fitness tracking must be enabled for this method".
Proof.
  intros E extra h p Hd Hw H0. destruct (C25_history_is_recent E extra h Hd Hw) as (HC & _). rewrite H0 in HC.
  unfold answer. cbn [sc_test Nat.leb]. unfold progress. rewrite HC. reflexivity.
Qed.

Lemma normalized_distance_ok (K : Num) (a b v : list K) : length a = length b -> length b = length v -> exists d, normalized_distance a b v = Ok d.
Proof. intros H1 H2. unfold normalized_distance. rewrite H1, H2, !Nat.eqb_refl. cbn. eauto. Qed.
(** Similarity: the first listed point closer than min_distance. *)
Definition distances (E : env) (c : core) (pts : list point) (ds : list f64) : Prop :=
  Forall2 (fun p d => normalized_distance (K := numF (e_libm E)) (c_cur_pt c) p (map pi_std (oi_free (e_info E))) = Ok d) pts ds.
Lemma nth_error_firstn' {A} (l : list A) n j : j < n -> nth_error (firstn n l) j = nth_error l j.
Proof. revert n j. induction l as [|x t IH]; intros [|n] [|j] H; cbn; try reflexivity; try lia. apply IH. lia. Qed.
Lemma similarity_loop_spec E c pts ds md : distances E c pts ds -> forall i sims, length sims = i + length pts ->
  match similarity_loop E c i pts sims md with
  | (s, Ok (Some k)) => i <= k /\ length s = length sims /\ (forall j, nth_error s j = if Nat.leb i j && Nat.leb j k then nth_error ds (j - i) else nth_error sims j) /\
      exists d, nth_error ds (k - i) = Some d /\ flt d md = true /\ forall j d', j < k - i -> nth_error ds j = Some d' -> flt d' md = false
  | (s, Ok None) => length s = length sims /\ (forall j, nth_error s j = if Nat.leb i j then nth_error ds (j - i) else nth_error sims j) /\ forall d, In d ds -> flt d md = false
  | _ => False
  end.
Proof.
  induction 1 as [|p d pts ds Hpd _ IH]; intros i sims HL; cbn [similarity_loop].
  { cbn [length] in HL. split; [reflexivity|]. split; [|intros ? []]. intros j. destruct (Nat.leb_spec i j); [|reflexivity]. rewrite (proj2 (nth_error_None sims j)) by lia. destruct (j - i); reflexivity. }
  cbn [length] in HL. assert (HS : forall j, nth_error (list_set sims i d) j = if Nat.eqb i j then Some d else nth_error sims j).
  { intros j. destruct (Nat.eqb_spec i j) as [<-|Hne]; [apply nth_error_list_set_eq; lia|now apply nth_error_list_set_neq]. }
  rewrite Hpd. destruct (flt d md) eqn:Ef.
  - split; [lia|]. split; [apply list_set_length|]. split.
    + intros j. rewrite HS. destruct (Nat.eqb_spec i j) as [<-|Hne]; [rewrite Nat.leb_refl, Nat.sub_diag; reflexivity|].
      destruct (Nat.leb_spec i j); destruct (Nat.leb_spec j i); cbn [andb]; try reflexivity; lia.
    + rewrite Nat.sub_diag. exists d. split; [reflexivity|]. split; [exact Ef|]. lia.
  - specialize (IH (S i) (list_set sims i d)). rewrite list_set_length in IH. specialize (IH ltac:(lia)).
    destruct (similarity_loop E c (S i) pts (list_set sims i d) md) as [s [[k|]|w|]]; try contradiction.
    + destruct IH as (H1 & H0 & HJ & d0 & H2 & H3 & H4). split; [lia|]. split; [exact H0|]. split.
      * intros j. rewrite HJ, HS. destruct (Nat.eqb_spec i j) as [<-|Hne].
        -- destruct (Nat.leb_spec (S i) i); [lia|]. cbn [andb]. rewrite Nat.leb_refl. destruct (Nat.leb_spec i k); [|lia]. rewrite Nat.sub_diag. reflexivity.
        -- destruct (Nat.leb_spec (S i) j); destruct (Nat.leb_spec i j); try lia; cbn [andb]; [|reflexivity]. destruct (Nat.leb j k); [|reflexivity]. replace (j - i) with (S (j - S i)) by lia. reflexivity.
      * exists d0. replace (k - i) with (S (k - S i)) by lia. split; [exact H2|]. split; [exact H3|].
        intros [|j] d' Hj Hn; cbn [nth_error] in Hn; [congruence|]. apply (H4 j d'); auto. lia.
    + destruct IH as (H0 & HJ & H1). split; [exact H0|]. split.
      * intros j. rewrite HJ, HS. destruct (Nat.eqb_spec i j) as [<-|Hne].
        -- destruct (Nat.leb_spec (S i) i); [lia|]. rewrite Nat.leb_refl, Nat.sub_diag. reflexivity.
        -- destruct (Nat.leb_spec (S i) j); destruct (Nat.leb_spec i j); try lia; [|reflexivity]. replace (j - i) with (S (j - S i)) by lia. reflexivity.
      * intros d' [<-|Hin]; auto.
Qed.
Lemma resize_length {A} (x : A) n l : length (resize x n l) = n.
Proof. unfold resize. rewrite app_length, firstn_length, repeat_length. lia. Qed.
Theorem C23_similarity : forall E extra h pts sims idx ms md, oi_dim (e_info E) <> 0 -> Forall (wf_op E) h -> e_cma E = true -> (0 <= ms)%Z ->
  Forall (fun p => length p = oi_dim (e_info E)) pts ->
  let c := o_core (after E extra h) in let sc := ScSimilarity pts sims idx ms md in
  ((Z.of_nat (completed E h) < ms)%Z -> answer E c sc = Ok false /\ sc_after E c sc = sc) /\
  ((ms <= Z.of_nat (completed E h))%Z -> exists ds, distances E c pts ds /\
     ((answer E c sc = Ok false /\ sc_after E c sc = ScSimilarity pts ds idx ms md /\ forall d, In d ds -> flt d md = false) \/
      (exists k d sims', answer E c sc = Ok true /\ sc_after E c sc = ScSimilarity pts sims' (Some k) ms md /\
         (* one entry per point: the distances up to point k, then what was there before (0 if nothing was) *)
         length sims' = length pts /\ firstn (S k) sims' = firstn (S k) ds /\
         (forall j, k < j < length pts -> nth_error sims' j = Some (nth j sims fzero)) /\
         nth_error ds k = Some d /\ flt d md = true /\ forall j d', j < k -> nth_error ds j = Some d' -> flt d' md = false))).
Proof.
  intros E extra h pts sims idx ms md Hd Hw Hcma Hms Hp c sc. pose proof (C21_current_step E extra h Hd Hw) as HS. fold c in HS. pose proof (cur_fields E extra h Hd Hw) as [_ HL]. fold c in HL.
  unfold answer, sc_after, sc. cbn [sc_test]. rewrite HS, Hcma. destruct (Z.leb_spec 0 ms); [|lia]. cbn [andb].
  destruct (Z.leb_spec ms (Z.of_nat (completed E h))); split; try lia; [|split; reflexivity]. intros _.
  assert (HD : exists ds, distances E c pts ds).
  { clear - Hp HL. induction pts as [|p t IH]; [exists []; constructor|]. inversion_clear Hp as [|? ? Hp1 Hp2]. destruct (IH Hp2) as (ds & Hds).
    destruct (normalized_distance_ok (numF (e_libm E)) (c_cur_pt c) p (map pi_std (oi_free (e_info E)))) as (d & Hd1); [exact (eq_trans HL (eq_sym Hp1))|exact (eq_trans Hp1 (eq_sym (map_length _ _)))|].
    exists (d :: ds). constructor; [exact Hd1|exact Hds]. }
  destruct HD as (ds & HD). cbn [negb].
  assert (HN : length ds = length pts) by (clear - HD; induction HD; cbn [length]; congruence).
  pose proof (similarity_loop_spec E c pts ds md HD 0 (resize fzero (length pts) sims) (resize_length _ _ _)) as HSL.
  match goal with |- context [similarity_loop ?a ?b ?x ?y ?z ?t] => change (similarity_loop E c 0 pts (resize fzero (length pts) sims) md) with (similarity_loop a b x y z t) in HSL; destruct (similarity_loop a b x y z t) as [s [[k|]|w|]] end;
  try contradiction; exists ds; (split; [exact HD|]); rewrite (resize_length fzero (length pts) sims) in HSL.
  - right. rewrite Nat.sub_0_r in HSL. destruct HSL as (_ & HLs & HJ & d & H1 & H2 & H3). exists k, d, s.
    assert (Hk : k < length ds) by (apply nth_error_Some; congruence).
    split; [reflexivity|]. split; [reflexivity|]. split; [exact HLs|]. split.
    { apply nth_error_ext'; [rewrite !firstn_length; f_equal; congruence|]. intros j _. destruct (Nat.lt_ge_cases j (S k)) as [Hj|Hj].
      - rewrite !nth_error_firstn' by exact Hj. rewrite HJ. cbn [Nat.leb andb]. destruct (Nat.leb_spec j k); [|lia]. now rewrite Nat.sub_0_r.
      - rewrite !(proj2 (nth_error_None _ j)); [reflexivity| |]; rewrite firstn_length; lia. }
    split.
    { intros j Hj. rewrite HJ. cbn [Nat.leb andb]. destruct (Nat.leb_spec j k); [lia|]. unfold resize. destruct (Nat.lt_ge_cases j (length sims)) as [Hs|Hs].
      - rewrite nth_error_app1 by (rewrite firstn_length; lia). rewrite nth_error_firstn' by lia. apply nth_error_nth'. exact Hs.
      - rewrite nth_error_app2 by (rewrite firstn_length; lia). rewrite (nth_overflow sims) by exact Hs. rewrite firstn_length. replace (Nat.min (length pts) (length sims)) with (length sims) by lia.
        rewrite (nth_error_nth' _ fzero) by (rewrite repeat_length; lia). now rewrite nth_repeat. }
    auto.
  - left. destruct HSL as (HLs & HJ & H1). assert (s = ds) as ->.
    { apply nth_error_ext'; [congruence|]. intros j _. rewrite HJ. cbn [Nat.leb]. now rewrite Nat.sub_0_r. }
    auto.
Qed.
(** On any other optimizer, testing throws as soon as min_steps is reached. *)
Theorem C23_similarity_needs_cma : forall E extra h pts sims idx ms md, oi_dim (e_info E) <> 0 -> Forall (wf_op E) h -> e_cma E = false ->
  (0 <= ms <= Z.of_nat (completed E h))%Z ->
  answer E (o_core (after E extra h)) (ScSimilarity pts sims idx ms md) = Throw "std::bad_cast".
Proof.
  intros E extra h pts sims idx ms md Hd Hw Hc Hms. pose proof (C21_current_step E extra h Hd Hw) as HS.
  unfold answer. cbn [sc_test]. rewrite HS, Hc. destruct (Z.leb_spec 0 ms); [|lia]. destruct (Z.leb_spec ms (Z.of_nat (completed E h))); [|lia]. reflexivity.
Qed.

(** ** Concrete runs *)
Definition ex_par : par_info := {| pi_name := "x"; pi_mean := fofZ 1; pi_std := fofZ 1; pi_min := fofZ (-5); pi_max := fofZ 5 |}.
Definition ex_info : obj_info := {| oi_free := [ex_par]; oi_locked := []; oi_minimize := true; oi_target := fzero; oi_name := "" |}.
Definition quiet : reporter := fun _ _ => false.
Definition noisy : reporter := fun _ _ => true.
Definition ex_env (rs : list reporter) : env :=
  {| e_info := ex_info; e_cma := false; e_regression := fun _ _ => lin_zero; e_unsigned_errors := true; e_max_errors := 0; e_reporters := rs;
     e_libm := {| lm_log := fun x => x; lm_exp := fun x => x; lm_sin := fun x => x; lm_cos := fun x => x |} |}.
Definition good_step (a b : Z) : step_input := {| si_pop := [[fofZ a]; [fofZ b]]; si_results := [ROk (fofZ a); ROk (fofZ b)]; si_interrupt := false |}.
Definition bad_step : step_input := {| si_pop := [[fofZ 0]; [fofZ 1]]; si_results := [ROk (fofZ 0); RErr "boom"]; si_interrupt := false |}.
Lemma ex_wf rs a b : wf_input (ex_env rs) (good_step a b).
Proof. split; [reflexivity|]. split; [discriminate|]. repeat constructor. Qed.
Lemma ex_wf_bad rs : wf_input (ex_env rs) bad_step.
Proof. split; [reflexivity|]. split; [discriminate|]. repeat constructor. Qed.

Example C19_nonvacuous : let h := [OpStep (good_step 4 3); OpStep (good_step 5 2); OpStep (good_step 9 8)] in
  oi_dim (e_info (ex_env [])) <> 0 /\ Forall (wf_op (ex_env [])) h /\ evaluated (ex_env []) h [fofZ 2] (fofZ 2) /\
  f64_same (c_best_fit (o_core (after (ex_env []) [ScMaxSteps 3] h))) (fofZ 2) = true /\
  o_stopped (after (ex_env []) [ScMaxSteps 3] h) = Some 2 /\ o_stopped (after (ex_env []) [ScMaxSteps 3] (firstn 2 h)) = None /\
  completed (ex_env []) h = 3.
Proof.
  cbv zeta. split; [discriminate|]. split; [repeat (constructor; [apply ex_wf|]); constructor|]. split; [exists (good_step 5 2), 1; split; [cbn; auto|]; split; [vm_compute; reflexivity|]; split; reflexivity|].
  split; [vm_compute; reflexivity|]. split; [vm_compute; reflexivity|]. split; vm_compute; reflexivity.
Qed.
Example C20_nonvacuous : wf_input (ex_env []) bad_step /\ too_many_errors (ex_env []) (si_results bad_step) = true /\
  snd (step (ex_env []) (after (ex_env []) [] [OpStep (good_step 4 3)]) bad_step) = Ok (Some 1).
Proof. split; [apply ex_wf_bad|]. split; vm_compute; reflexivity. Qed.
(** on_start is sent again as long as no step has completed. *)
Theorem C24_on_start_once_refuted : exists E h, oi_dim (e_info E) <> 0 /\ Forall (wf_op E) h /\ heard E 0 /\
  length (filter (fun e => match fst e with EStart => true | _ => false end) (received 0 (o_trace (after E [] h)))) = 2.
Proof.
  exists (ex_env [quiet]), [OpStep bad_step; OpStep (good_step 1 2)]. split; [discriminate|]. split; [constructor; [apply ex_wf_bad|]; constructor; [apply ex_wf|constructor]|].
  split; [split; [cbn; lia|]; intros j f Hj; lia|]. vm_compute. reflexivity.
Qed.
(** A reporter behind one that throws misses the event. *)
Theorem C24_every_reporter_is_called_refuted : exists E h, oi_dim (e_info E) <> 0 /\ Forall (wf_op E) h /\
  length (e_reporters E) = 2 /\ nth_error (e_reporters E) 1 = Some quiet /\
  length (received 0 (o_trace (after E [] h))) = 6 /\ received 1 (o_trace (after E [] h)) = [].
Proof.
  exists (ex_env [noisy; quiet]), [OpStep (good_step 1 2)]. split; [discriminate|]. split; [constructor; [apply ex_wf|constructor]|].
  split; [reflexivity|]. split; [reflexivity|]. split; vm_compute; reflexivity.
Qed.
Example C25_nonvacuous : let h := [OpStep (good_step 4 3); OpStep (good_step 5 2); OpStep (good_step 9 8)] in
  window [ScMinProgress fzero 2] = 2 /\ length (c_hist (o_core (after (ex_env []) [ScMinProgress fzero 2] h))) = 2 /\ completed (ex_env []) h = 3.
Proof. cbv zeta. split; [reflexivity|]. split; vm_compute; reflexivity. Qed.
Example C27_nonvacuous : let h := [OpStep (good_step 4 3)] in let h' := [OpStep (good_step 5 2)] in
  Forall (wf_op (ex_env [])) (h ++ OpInterrupt :: h') /\ o_stopped (after (ex_env []) [] (h ++ [OpInterrupt])) = None /\
  o_stopped (after (ex_env []) [] (h ++ OpInterrupt :: h')) = Some 0.
Proof. cbv zeta. split; [repeat (constructor; [first [apply ex_wf|exact I]|]); constructor|]. split; vm_compute; reflexivity. Qed.
