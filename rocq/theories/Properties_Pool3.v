(** * C50: how the pool chooses its members *)
From Coq Require Import ZArith Bool Lia Permutation.
From Verif Require Import Prelude Flt FltFacts Flt32 Round8 FlatMap ParInfo ObjInfo Num MathTools Mes Optimizer OptimizerFacts Properties_Optimizer Properties_ES3 Pool PoolFacts Properties_Pool Properties_Pool2.
#[local] Open Scope nat_scope.

Lemma predicted_strip E c c' n : cache_ok E c -> cache_ok E c' -> strip c = strip c' -> snd (predicted_fitness E c n) = snd (predicted_fitness E c' n).
Proof.
  intros K K' HS. pose proof (predicted_spec E c n K) as (_ & _ & ->). pose proof (predicted_spec E c' n K') as (_ & _ & ->). rewrite (compute_trend_strip E c c' HS).
  assert (F : c_steps c = c_steps c' /\ c_cap c = c_cap c' /\ c_hist c = c_hist c') by (destruct c, c'; cbn in *; injection HS; intros; subst; auto). destruct F as (-> & -> & ->). reflexivity.
Qed.
Definition count_true (l : list bool) : nat := length (filter (fun b => b) l).
(** The predictions used for choosing: [active] marks the members counted as active. *)
Lemma predictions_spec PE ms : forall a ms' preds, Forall member_ok ms -> a <= pe_active PE -> predictions PE a ms = (ms', Ok preds) ->
  exists active, length active = length ms /\ length preds = length ms /\ a + count_true active <= pe_active PE /\
  forall i m, nth_error ms i = Some m -> exists m' x b, nth_error ms' i = Some m' /\ nth_error preds i = Some x /\ nth_error active i = Some b /\
    if b then m_stopped m' = false /\
      (if Nat.leb (pe_start PE) (c_steps (o_core (m_opt m))) then exists p, snd (predicted_fitness (m_env m) (o_core (m_opt m)) (pe_look PE)) = Ok p /\ x = f64_of_f32 p
       else x = best_fitness_value (e_info (pe_env PE)))
    else x = worst_fitness (e_info (pe_env PE)) /\ (m_stopped m' = true \/ a + count_true (firstn i active) = pe_active PE).
Proof.
  induction ms as [|m t IH]; intros a ms' preds HK HA E; cbn [predictions] in E.
  - injection E as <- <-. exists []. split; [reflexivity|]. split; [reflexivity|]. split; [cbn; lia|]. intros [|i] m; discriminate.
  - inversion HK as [|? ? KK1 K2]; subst. pose proof KK1 as [K1 _]. destruct (Nat.ltb a (pe_active PE)) eqn:EA.
    + apply Nat.ltb_lt in EA. pose proof (m_test_touched m KK1) as (T1 & T2 & [T3 _] & T4). pose proof (m_test_latch m) as HL. destruct (m_test m) as [m' [[k|]|w|]]; try discriminate E; cbn [fst] in *.
      * destruct (predictions PE a t) as [t' [l|w|]] eqn:EP; try discriminate E. injection E as <- <-. destruct (IH a t' l K2 HA EP) as (act & A1 & A2 & A3 & A4). exists (false :: act). split; [cbn; congruence|]. split; [cbn; congruence|]. split; [exact A3|].
        intros [|i] m0 Em; cbn [nth_error] in Em |- *; [|exact (A4 i m0 Em)]. injection Em as <-. eexists _, _, false. split; [reflexivity|]. split; [reflexivity|]. split; [reflexivity|]. split; [reflexivity|]. left. specialize (HL m' (Some k) eq_refl). destruct (m_stopped m'); [reflexivity|]. assert (Some k = None) by (apply HL; reflexivity). discriminate.
      * specialize (HL m' None eq_refl). assert (HS : m_stopped m' = false) by (apply HL; reflexivity).
        assert (EST : c_steps (o_core (m_opt m')) = c_steps (o_core (m_opt m))) by (apply (f_equal c_steps) in T2; exact T2). rewrite EST in E.
        set (pr := if Nat.leb (pe_start PE) (c_steps (o_core (m_opt m))) then m_predict m' (pe_look PE) else (m', Ok (best_fitness_value (e_info (pe_env PE))))) in E.
        assert (HP : m_stopped (fst pr) = false /\ forall x, snd pr = Ok x -> if Nat.leb (pe_start PE) (c_steps (o_core (m_opt m))) then exists p, snd (predicted_fitness (m_env m) (o_core (m_opt m)) (pe_look PE)) = Ok p /\ x = f64_of_f32 p else x = best_fitness_value (e_info (pe_env PE))).
        { unfold pr. destruct (Nat.leb _ _); [|split; [exact HS|cbn; now intros x [= <-]]]. unfold m_predict. assert (EC : snd (predicted_fitness (m_env m') (o_core (m_opt m')) (pe_look PE)) = snd (predicted_fitness (m_env m) (o_core (m_opt m)) (pe_look PE))).
          { rewrite T1. transitivity (snd (predicted_fitness (m_env m) (with_interrupt (o_core (m_opt m')) false) (pe_look PE))); [|transitivity (snd (predicted_fitness (m_env m) (with_interrupt (o_core (m_opt m)) false) (pe_look PE)))].
            - pose proof (predicted_spec (m_env m) (o_core (m_opt m')) (pe_look PE)) as X. pose proof (predicted_spec (m_env m) (with_interrupt (o_core (m_opt m')) false) (pe_look PE)) as Y. rewrite T1 in T3. destruct (X T3) as (_ & _ & ->). destruct (Y T3) as (_ & _ & ->). reflexivity.
            - apply predicted_strip; [rewrite T1 in T3; exact T3|exact K1|exact T2].
            - pose proof (predicted_spec (m_env m) (o_core (m_opt m)) (pe_look PE)) as X. pose proof (predicted_spec (m_env m) (with_interrupt (o_core (m_opt m)) false) (pe_look PE)) as Y. destruct (X K1) as (_ & _ & ->). destruct (Y K1) as (_ & _ & ->). reflexivity. }
          rewrite <- EC. destruct (predicted_fitness (m_env m') (o_core (m_opt m')) (pe_look PE)) as [c r]. cbn [fst snd]. split; [exact HS|]. destruct r as [p|w|]; try discriminate. cbn. intros x [= <-]. eauto. }
        destruct pr as [m'' [x|w|]]; try discriminate E. cbn [fst snd] in HP. destruct HP as [HP1 HP2]. specialize (HP2 x eq_refl).
        destruct (predictions PE (S a) t) as [t' [l|w|]] eqn:EP; try discriminate E. injection E as <- <-. destruct (IH (S a) t' l K2 EA EP) as (act & A1 & A2 & A3 & A4). exists (true :: act). split; [cbn; congruence|]. split; [cbn; congruence|]. split; [cbn; cbn in A3; unfold count_true in *; lia|].
        intros [|i] m0 Em; cbn [nth_error] in Em |- *; [injection Em as <-; eexists _, _, true; split; [reflexivity|]; split; [reflexivity|]; split; [reflexivity|]; split; assumption|]. destruct (A4 i m0 Em) as (mi & xi & b & B1 & B2 & B3 & B4). exists mi, xi, b. split; [exact B1|]. split; [exact B2|]. split; [exact B3|]. destruct b; [exact B4|]. destruct B4 as [B4 [B5|B5]]; (split; [exact B4|]); [left; exact B5|right]. cbn [firstn]. unfold count_true in *. cbn. lia.
    + apply Nat.ltb_ge in EA. assert (a = pe_active PE) by lia. destruct (predictions PE a t) as [t' [l|w|]] eqn:EP; try discriminate E. injection E as <- <-. destruct (IH a t' l K2 HA EP) as (act & A1 & A2 & A3 & A4). exists (false :: act). split; [cbn; congruence|]. split; [cbn; congruence|]. split; [exact A3|].
      intros [|i] m0 Em; cbn [nth_error] in Em |- *; [|exact (A4 i m0 Em)]. injection Em as <-. eexists _, _, false. split; [reflexivity|]. split; [reflexivity|]. split; [reflexivity|]. split; [reflexivity|]. right. cbn. lia.
Qed.
Lemma fill_spec PE preds order : forall ms q ms' q', NoDup order -> fill PE preds ms order q = (ms', q', Ok tt) ->
  exists pre post, order = pre ++ post /\ q' = q ++ pre /\
  (forall i, In i pre -> exists m, nth_error ms' i = Some m /\ m_stopped m = false) /\
  (forall i, ~ In i order -> nth_error ms' i = nth_error ms i) /\
  match post with
  | [] => True
  | j :: _ => (exists m, nth_error ms' j = Some m /\ m_stopped m = true) \/
      (pe_concurrent PE <= length q' /\ exists pre' i, pre = pre' ++ [i] /\ match nth_error preds i, nth_error preds j with Some a, Some b => fne a b = true | _, _ => True end)
  end.
Proof.
  induction order as [|i t IH]; intros ms q ms' q' HN E; cbn [fill] in E.
  - injection E as <- <-. exists [], []. split; [reflexivity|]. split; [now rewrite app_nil_r|]. split; [intros i []|]. split; [reflexivity|exact I].
  - inversion HN as [|? ? N1 N2]; subst. destruct (nth_error ms i) as [m|] eqn:Em; [|discriminate E]. assert (LI : i < length ms) by (apply nth_error_Some; congruence). pose proof (m_test_latch m) as HL. destruct (m_test m) as [m' [[k|]|w|]]; try discriminate E.
    + injection E as <- <-. exists [], (i :: t). split; [reflexivity|]. split; [now rewrite app_nil_r|]. split; [intros j []|]. split; [intros j Hj; apply nth_error_list_set_neq; intros ->; apply Hj; now left|]. left. exists m'. split; [apply nth_error_list_set_eq, LI|]. specialize (HL m' (Some k) eq_refl). destruct (m_stopped m'); [reflexivity|]. assert (Some k = None) by (apply HL; reflexivity). discriminate.
    + assert (HS : m_stopped m' = false) by (apply (HL m' None eq_refl); reflexivity).
      match type of E with (if ?b then _ else _) = _ => destruct b eqn:EB end.
      * injection E as <- <-. exists [i], t. split; [reflexivity|]. split; [reflexivity|]. split; [intros j [<-|[]]; exists m'; split; [apply nth_error_list_set_eq, LI|exact HS]|]. split; [intros j Hj; apply nth_error_list_set_neq; intros ->; apply Hj; now left|].
        destruct t as [|j t]; [exact I|]. right. apply andb_true_iff in EB as [E1 E2]. split; [now apply Nat.leb_le|]. exists [], i. split; [reflexivity|]. destruct (nth_error preds i), (nth_error preds j); auto.
      * destruct (IH _ _ _ _ N2 E) as (pre & post & -> & -> & H1 & H2 & H3). exists (i :: pre), post. split; [reflexivity|]. split; [now rewrite <- app_assoc|]. split; [|split].
        -- intros j [<-|Hj]; [|apply H1, Hj]. exists m'. rewrite (H2 i N1). split; [apply nth_error_list_set_eq, LI|exact HS].
        -- intros j Hj. rewrite H2 by (intros X; apply Hj; now right). apply nth_error_list_set_neq. intros ->. apply Hj. now left.
        -- destruct post as [|j post]; [exact I|]. destruct H3 as [H3|(H3 & pre' & i' & -> & H4)]; [now left|right]. split; [rewrite !app_length in *; cbn [length] in *; lia|]. exists (i :: pre'), i'. split; [reflexivity|exact H4].
Qed.
(** A newly filled queue: no member twice, none whose stop condition has fired, best
    predictions first, nobody left out who is predicted to do better than one in the queue.
    If it has fewer than concurrent_optimizations members, then it has everybody, or the next best has
    stopped; and nobody is left out merely because of a tie. *)
Theorem C50_new_queue : forall PE P P1, sorts (pe_sort PE) -> Forall member_ok (po_members P) -> po_queue P = [] -> refill PE P = (P1, Ok tt) ->
  exists preds, snd (predictions PE 0 (po_members P)) = Ok preds /\ length preds = length (po_members P) /\
  NoDup (po_queue P1) /\
  (forall i, In i (po_queue P1) -> exists m, nth_error (po_members P1) i = Some m /\ m_stopped m = false) /\
  (forall k l i j x y, k < l -> nth_error (po_queue P1) k = Some i -> nth_error (po_queue P1) l = Some j -> nth_error preds i = Some x -> nth_error preds j = Some y -> is_better (e_info (pe_env PE)) y x = false) /\
  (forall i j x y, In i (po_queue P1) -> ~ In j (po_queue P1) -> nth_error preds i = Some x -> nth_error preds j = Some y -> is_better (e_info (pe_env PE)) y x = false) /\
  ((forall i, i < length (po_members P) -> In i (po_queue P1)) \/
   exists j x, nth_error preds j = Some x /\ ~ In j (po_queue P1) /\
     (forall k y, ~ In k (po_queue P1) -> nth_error preds k = Some y -> is_better (e_info (pe_env PE)) y x = false) /\
     ((exists m, nth_error (po_members P1) j = Some m /\ m_stopped m = true) \/
      (pe_concurrent PE <= length (po_queue P1) /\ forall i y, In i (po_queue P1) -> nth_error preds i = Some y -> is_better (e_info (pe_env PE)) y x = true))).
Proof.
  intros PE P P1 HS HK EQ E. unfold refill in E. rewrite EQ in E. pose proof (predictions_length PE (po_members P) 0) as HP. destruct (predictions PE 0 (po_members P)) as [ms [preds|w|]]; try discriminate E. cbn [snd] in HP. specialize (HP preds eq_refl).
  destruct (existsb fisnan preds) eqn:EN; [discriminate E|]. pose proof (nan_free _ EN) as NF. pose proof (C47_order_is_best_first (pe_sort PE) (e_info (pe_env PE)) preds HS NF) as [PM PO]. cbn zeta in PM, PO. set (order := sorted_indices (pe_sort PE) (is_better (e_info (pe_env PE))) preds) in *.
  assert (HN : NoDup order) by (eapply Permutation_NoDup; [apply Permutation_sym, PM|apply seq_NoDup]). assert (HI : forall i, In i order <-> i < length preds) by (intros i; split; intros X; [eapply Permutation_in in X; [|exact PM]; apply in_seq in X; lia|eapply Permutation_in; [apply Permutation_sym, PM|apply in_seq; lia]]).
  destruct (fill PE preds ms order []) as [[ms' q] r] eqn:EF. destruct r as [[]|w|]; try discriminate E. cbn [obind] in E. destruct (_ && _); [discriminate E|]. injection E as <-. cbn [with_queue with_members po_queue po_members].
  destruct (fill_spec PE preds order ms [] ms' q HN EF) as (pre & post & EO & -> & H1 & _ & H3). cbn [app] in *. exists preds. split; [reflexivity|]. split; [exact HP|]. rewrite EO in HN. split; [eapply NoDup_prefix, HN|]. split; [exact H1|].
  assert (NI : forall l i, nth_error pre l = Some i -> nth_error order l = Some i) by (intros l i X; rewrite EO, nth_error_app1; [exact X|apply nth_error_Some; congruence]).
  assert (NP : forall l j, nth_error post l = Some j -> nth_error order (length pre + l) = Some j) by (intros l j X; rewrite EO, nth_error_app2 by lia; replace (length pre + l - length pre) with l by lia; exact X).
  assert (PP : forall i, In i pre \/ In i post <-> i < length preds) by (intros i; rewrite <- HI, EO, in_app_iff; tauto).
  assert (OUT : forall j y, ~ In j pre -> nth_error preds j = Some y -> In j post) by (intros j y Nj Ej; assert (LJ : j < length preds) by (apply nth_error_Some; congruence); apply PP in LJ as [LJ|LJ]; [contradiction|exact LJ]).
  split; [|split].
  - intros k l i j x y Hkl Hi Hj Hx Hy. apply (PO k l i j x y Hkl (NI _ _ Hi) (NI _ _ Hj) Hx Hy).
  - intros i j x y Hi Hj Hx Hy. pose proof (OUT j y Hj Hy) as Hp. apply In_nth_error in Hi as (k & Hk). apply In_nth_error in Hp as (l & Hl). apply (PO k (length pre + l) i j x y); auto. assert (k < length pre) by (apply nth_error_Some; congruence). lia.
  - destruct post as [|j post]; [left; intros i Hi; rewrite <- HP in Hi; apply PP in Hi as [Hi|[]]; exact Hi|right].
    assert (LJ : j < length preds) by (apply PP; right; now left). destruct (nth_error preds j) as [x|] eqn:Ex; [|apply nth_error_None in Ex; lia]. exists j, x. split; [exact Ex|]. split; [intros X; apply NoDup_remove_2 in HN; apply HN, in_app_iff; now left|]. split.
    + intros k y Nk Ek. pose proof (OUT k y Nk Ek) as [->|Hk]; [rewrite Ex in Ek; injection Ek as <-; apply is_better_irrefl|]. apply In_nth_error in Hk as (l & Hl). apply (PO (length pre + 0) (length pre + S l) j k x y); auto; lia.
    + destruct H3 as [H3|(H3 & pre' & i & -> & H4)]; [now left|right]. split; [exact H3|]. intros i0 y Hi0 Hy.
      assert (LI : i < length preds) by (apply PP; left; apply in_app_iff; right; now left). destruct (nth_error preds i) as [z|] eqn:Ez; [|apply nth_error_None in Ez; lia].
      rewrite Forall_forall in NF. assert (Nx : fisnan x = false) by (apply NF; eapply nth_error_In, Ex). assert (Nz : fisnan z = false) by (apply NF; eapply nth_error_In, Ez). assert (Ny : fisnan y = false) by (apply NF; eapply nth_error_In, Hy).
      assert (XZ : is_better (e_info (pe_env PE)) x z = false) by (apply (PO (length pre') (length (pre' ++ [i]) + 0) i j z x); auto; [rewrite app_length; cbn; lia|apply NI; rewrite nth_error_app2, Nat.sub_diag by lia; reflexivity]).
      assert (ZY : is_better (e_info (pe_env PE)) z y = false). { apply In_nth_error in Hi0 as (k & Hk). assert (LK : k < length (pre' ++ [i])) by (apply nth_error_Some; congruence). rewrite app_length in LK. cbn in LK. destruct (Nat.eq_dec k (length pre')) as [->|NK].
        - rewrite nth_error_app2, Nat.sub_diag in Hk by lia. injection Hk as <-. rewrite Ez in Hy. injection Hy as <-. apply is_better_irrefl.
        - apply (PO k (length pre') i0 i y z); auto; [lia|apply NI; rewrite nth_error_app2, Nat.sub_diag by lia; reflexivity]. }
      rewrite is_better_key, Nx, Nz in XZ. rewrite is_better_key, Nz, Ny in ZY. rewrite is_better_key, Nx, Ny. cbn [negb andb] in *. apply Z.ltb_ge in XZ, ZY. apply Z.ltb_lt.
      assert (KE : bkey (e_info (pe_env PE)) z <> bkey (e_info (pe_env PE)) x). { unfold fne in H4. rewrite feq_key, Nz, Nx in H4. cbn [negb andb] in H4. apply negb_true_iff, Z.eqb_neq in H4. intros X. apply H4. unfold bkey in X. destruct (oi_minimize _); lia. } lia.
Qed.
(** The predictions: worst_fitness() for members that have stopped or that come after the
    first active_optimizations ones, best_fitness() for members in their first
    prediction_start steps, the member's own prediction for the rest. *)
Theorem C50_predictions : forall PE ms ms' preds, Forall member_ok ms -> predictions PE 0 ms = (ms', Ok preds) ->
  exists active, length active = length ms /\ count_true active <= pe_active PE /\
  forall i m, nth_error ms i = Some m -> exists m' x b, nth_error ms' i = Some m' /\ nth_error preds i = Some x /\ nth_error active i = Some b /\
    if b then m_stopped m' = false /\
      (if Nat.leb (pe_start PE) (c_steps (o_core (m_opt m))) then exists p, snd (predicted_fitness (m_env m) (o_core (m_opt m)) (pe_look PE)) = Ok p /\ x = f64_of_f32 p
       else x = best_fitness_value (e_info (pe_env PE)))
    else x = worst_fitness (e_info (pe_env PE)) /\ (m_stopped m' = true \/ count_true (firstn i active) = pe_active PE).
Proof. intros PE ms ms' preds HK E. destruct (predictions_spec PE ms 0 ms' preds HK (Nat.le_0_l _) E) as (act & A1 & _ & A3 & A4). exists act. auto. Qed.

(** ** Progress *)
Definition library (sc : stop_cond) : Prop := match sc with ScCustom _ _ => False | _ => True end.
Lemma similarity_answer E c pts : forall i s s' d, snd (similarity_loop E c i pts s d) = snd (similarity_loop E c i pts s' d).
Proof. induction pts as [|p t IH]; intros i s s' d; cbn [similarity_loop]; [reflexivity|]. destruct (normalized_distance _ _ _); try reflexivity. destruct (flt a d); [reflexivity|apply IH]. Qed.
Lemma answer_again E c sc : library sc -> cache_ok E c -> answer E c (sc_after E c sc) = answer E c sc.
Proof.
  unfold answer, sc_after. intros HL K. destruct sc; cbn [sc_test fst snd]; try reflexivity; try destruct HL.
  - destruct (Nat.leb min_samples (c_steps c)) eqn:EL; cbn [fst snd sc_test]; [|now rewrite EL]. destruct (progress E c) as [c' r] eqn:EP. cbn [fst snd sc_test]. now rewrite EL, EP.
  - destruct (Nat.leb min_samples (c_steps c)) eqn:EL; cbn [fst snd sc_test]; [|now rewrite EL]. destruct (predicted_fitness E c look_ahead) as [c' [x|w|]] eqn:EP; cbn [fst snd sc_test]; rewrite EL, EP; reflexivity.
  - destruct (_ && _) eqn:EL; cbn [fst snd sc_test]; [|now rewrite EL]. destruct (negb (e_cma E)) eqn:EC; [cbn [fst snd sc_test]; now rewrite EL, EC|].
    pose proof (fun s => similarity_answer E c points 0 s (resize fzero (length points) similarities) min_distance) as HA. destruct (similarity_loop E c 0 points (resize fzero (length points) similarities) min_distance) as [s0 r0].
    assert (H : forall s idx, snd (sc_test E c (ScSimilarity points s idx min_steps min_distance)) = match r0 with Ok (Some _) => Ok true | Ok None => Ok false | Throw w => Throw w | Undef => Undef end).
    { intros s idx. cbn [sc_test]. rewrite EL, EC. specialize (HA (resize fzero (length points) s)). destruct (similarity_loop _ _ _ _ _ _) as [s1 r1]. cbn [snd] in HA. subst r1. destruct r0 as [[k|]|w|]; reflexivity. }
    destruct r0 as [[k|]|w|]; cbn [fst snd]; apply H.
Qed.
Lemma m_test_none m m' : m_test m = (m', Ok None) -> member_ok m -> m_env m' = m_env m /\ o_stopped (m_opt m) = None /\ o_stopped (m_opt m') = None /\ strip (o_core (m_opt m')) = strip (o_core (m_opt m)) /\ cache_ok (m_env m) (o_core (m_opt m')) /\
  Forall (fun sc => answer (m_env m) (o_core (m_opt m)) sc = Ok false) (o_scs (m_opt m)) /\ o_scs (m_opt m') = map (sc_after (m_env m) (o_core (m_opt m))) (o_scs (m_opt m)).
Proof.
  unfold m_test, test_stop. destruct (o_stopped (m_opt m)) eqn:ES; [discriminate|]. intros E [K _]. pose proof (test_list_spec (m_env m) (o_scs (m_opt m)) (o_core (m_opt m)) 0 K) as HT. destruct (test_list _ _ _ _) as [[c l] [[k|]|w|]]; try discriminate E. injection E as <-. destruct HT as (A & B & _ & C & D). cbn. auto 8.
Qed.
Lemma test_again m m1 c : member_ok m -> Forall library (o_scs (m_opt m)) -> m_test m = (m1, Ok None) ->
  strip c = strip (o_core (m_opt m1)) -> cache_ok (m_env m) c -> exists m2, m_test (m_with m1 (with_core (m_opt m1) c)) = (m2, Ok None).
Proof.
  intros K HLib E Hc KC. destruct (m_test_none m m1 E K) as (A1 & A2 & A3 & A4 & A5 & A6 & A7). unfold m_test, test_stop. cbn [m_with m_opt m_env with_core o_stopped o_core o_scs]. rewrite A1, A3, A7.
  pose proof (test_list_spec (m_env m) (map (sc_after (m_env m) (o_core (m_opt m))) (o_scs (m_opt m))) c 0 KC) as HT.
  assert (ALL : Forall (fun sc => answer (m_env m) c sc = Ok false) (map (sc_after (m_env m) (o_core (m_opt m))) (o_scs (m_opt m)))).
  { apply Forall_forall. intros sc Hsc. apply in_map_iff in Hsc as (sc0 & <- & Hsc). destruct K as [K _]. rewrite (proj1 (sc_test_strip (m_env m) c (o_core (m_opt m)) _ KC K (eq_trans Hc A4))). rewrite Forall_forall in HLib, A6. rewrite (answer_again _ _ _ (HLib _ Hsc) K). exact (A6 _ Hsc). }
  destruct (test_list _ _ _ _) as [[c' l'] [[k|]|w|]]; destruct HT as (_ & _ & _ & HT).
  - exfalso. destruct HT as (_ & _ & _ & (sc & Hs1 & Hs2) & _). rewrite Forall_forall in ALL. rewrite (ALL sc (nth_error_In _ _ Hs1)) in Hs2. discriminate Hs2.
  - eexists. reflexivity.
  - exfalso. destruct HT as (pre & sc & post & EL & _ & Hs2 & _). rewrite Forall_forall in ALL. rewrite (ALL sc) in Hs2; [discriminate Hs2|]. rewrite EL. apply in_app_iff. right. now left.
  - exfalso. destruct HT as (pre & sc & post & EL & _ & Hs2 & _). rewrite Forall_forall in ALL. rewrite (ALL sc) in Hs2; [discriminate Hs2|]. rewrite EL. apply in_app_iff. right. now left.
Qed.
Lemma m_with_same m : m_with m (with_core (m_opt m) (o_core (m_opt m))) = m.
Proof. destruct m as [E [c l s t]]. reflexivity. Qed.
Lemma predictions_again PE ms : forall a ms' preds, Forall member_ok ms -> Forall (fun m => Forall library (o_scs (m_opt m))) ms -> predictions PE a ms = (ms', Ok preds) ->
  forall i m' x, nth_error ms' i = Some m' -> nth_error preds i = Some x -> x <> worst_fitness (e_info (pe_env PE)) -> exists m2, m_test m' = (m2, Ok None).
Proof.
  induction ms as [|m t IH]; intros a ms' preds HK HLib E i m' x Ei Ex NW; cbn [predictions] in E.
  - injection E as <- <-. destruct i; discriminate Ei.
  - inversion HK as [|? ? KK1 K2]; subst. inversion HLib as [|? ? LL1 L2]; subst. pose proof KK1 as [K1 _]. destruct (Nat.ltb a (pe_active PE)).
    + destruct (m_test m) as [m1 [[k|]|w|]] eqn:ET; try discriminate E.
      * destruct (predictions PE a t) as [t' [l|w|]] eqn:EP; try discriminate E. injection E as <- <-. destruct i as [|i]; cbn [nth_error] in Ei, Ex; [congruence|]. exact (IH a t' l K2 L2 EP i m' x Ei Ex NW).
      * pose proof (m_test_none m m1 ET KK1) as (A1 & _ & _ & A4 & A5 & _).
        set (pr := if Nat.leb (pe_start PE) (c_steps (o_core (m_opt m1))) then m_predict m1 (pe_look PE) else (m1, Ok (best_fitness_value (e_info (pe_env PE))))) in E.
        assert (HP : exists m2, m_test (fst pr) = (m2, Ok None)).
        { unfold pr. destruct (Nat.leb _ _).
          - unfold m_predict. rewrite A1. pose proof (predicted_spec (m_env m) (o_core (m_opt m1)) (pe_look PE) A5) as (P1 & P2 & _). destruct (predicted_fitness _ _ _) as [c r]. cbn [fst] in *. apply (test_again m m1 c KK1 LL1 ET P1 P2).
          - cbn [fst]. rewrite <- (m_with_same m1). apply (test_again m m1 _ KK1 LL1 ET eq_refl A5). }
        destruct pr as [m'' [y|w|]]; try discriminate E. destruct (predictions PE (S a) t) as [t' [l|w|]] eqn:EP; try discriminate E. injection E as <- <-. destruct i as [|i]; cbn [nth_error] in Ei, Ex; [injection Ei as <-; exact HP|]. exact (IH (S a) t' l K2 L2 EP i m' x Ei Ex NW).
    + destruct (predictions PE a t) as [t' [l|w|]] eqn:EP; try discriminate E. injection E as <- <-. destruct i as [|i]; cbn [nth_error] in Ei, Ex; [congruence|]. exact (IH a t' l K2 L2 EP i m' x Ei Ex NW).
Qed.
(** With the library's own stop conditions, a pool whose queue is empty chooses somebody
    as soon as the prediction for one member is better than worst_fitness(). *)
Theorem C50_progress : forall PE P ms preds j x, sorts (pe_sort PE) -> Forall member_ok (po_members P) -> Forall (fun m => Forall library (o_scs (m_opt m))) (po_members P) ->
  0 < pe_concurrent PE -> po_queue P = [] -> predictions PE 0 (po_members P) = (ms, Ok preds) -> nth_error preds j = Some x -> is_better (e_info (pe_env PE)) x (worst_fitness (e_info (pe_env PE))) = true ->
  snd (refill PE P) = Ok tt -> launches PE P <> [].
Proof.
  intros PE P ms preds j x HS HK HLib HC EQ EP Ex HB ER. unfold launches. unfold refill in *. rewrite EQ, EP in *. pose proof (predictions_length PE (po_members P) 0 preds) as HL. rewrite EP in HL. specialize (HL eq_refl). pose proof (looked_length _ _ (predictions_looked PE (po_members P) 0)) as HM. rewrite EP in HM. cbn [fst] in HM.
  destruct (existsb fisnan preds) eqn:EN; [discriminate ER|]. pose proof (C47_order_is_best_first (pe_sort PE) (e_info (pe_env PE)) preds HS (nan_free _ EN)) as [PM PO]. cbn zeta in PM, PO. set (order := sorted_indices (pe_sort PE) (is_better (e_info (pe_env PE))) preds) in *.
  assert (LJ : j < length preds) by (apply nth_error_Some; congruence). assert (IJ : In j order) by (eapply Permutation_in; [apply Permutation_sym, PM|apply in_seq; lia]).
  destruct order as [|h t] eqn:EO; [destruct IJ|]. cbn [fill] in *. assert (LH : h < length preds). { assert (X : In h (seq 0 (length preds))) by (eapply Permutation_in; [exact PM|now left]). apply in_seq in X. lia. }
  destruct (nth_error ms h) as [m|] eqn:Em; [|apply nth_error_None in Em; lia]. destruct (nth_error preds h) as [y|] eqn:Ey; [|apply nth_error_None in Ey; lia].
  assert (NW : y <> worst_fitness (e_info (pe_env PE))). { intros ->. apply In_nth_error in IJ as ([|l] & Hl); [injection Hl as <-; rewrite Ex in Ey; injection Ey as ->; rewrite is_better_irrefl in HB; discriminate HB|]. rewrite (PO 0 (S l) h j _ x (Nat.lt_0_succ l) eq_refl Hl Ey Ex) in HB. discriminate HB. }
  destruct (predictions_again PE (po_members P) 0 ms preds HK HLib EP h m y Em Ey NW) as (m2 & E2). rewrite E2 in *.
  assert (NE : forall o ms0 q, q <> [] -> snd (fst (fill PE preds ms0 o q)) <> []) by (intros o ms0 q Hq; destruct (fill_prefix PE preds o ms0 q) as (pre & post & _ & ->); destruct q; [congruence|discriminate]).
  assert (FN : forall q : list nat, q <> [] -> firstn (pe_concurrent PE) q <> []) by (intros [|z q]; [congruence|]; destruct (pe_concurrent PE); [lia|discriminate]).
  match type of ER with context [if ?b then _ else _] => destruct b end.
  - destruct (_ && _); [discriminate ER|]. cbn [fst snd obind with_queue po_queue app]. apply FN. discriminate.
  - specialize (NE t (list_set ms h m2) ([] ++ [h]) ltac:(discriminate)). destruct (fill PE preds (list_set ms h m2) t ([] ++ [h])) as [[ms' q] r]. cbn [fst snd] in *. destruct r as [[]|w|]; try discriminate ER. cbn [obind] in *. destruct (_ && _); [discriminate ER|]. cbn [with_queue po_queue]. apply FN, NE.
Qed.
