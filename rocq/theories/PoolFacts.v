(** * Facts about optimizer pools. *)
From Coq Require Import ZArith Bool Lia Permutation.
From Verif Require Import Prelude Flt FltFacts Flt32 Round8 FlatMap ParInfo ObjInfo Num MathTools Mes Optimizer OptimizerFacts Pool.
#[local] Open Scope nat_scope.

(** Everything of an optimizer's data but the cache and the interruption flag. *)
Definition quiet_core (c : core) : core := with_interrupt (strip c) false.
(** The cache is right and the first stop condition is the abort condition. *)
Definition abort_first (l : list stop_cond) : Prop := exists t, l = ScAbort :: t.
Definition member_ok (m : member) : Prop := cache_ok (m_env m) (o_core (m_opt m)) /\ abort_first (o_scs (m_opt m)).
Lemma abort_first_test E o : cache_ok E (o_core o) -> abort_first (o_scs o) -> abort_first (o_scs (fst (test_stop E o))).
Proof. intros K (t & Ht). pose proof (test_stop_scs E o K) as H. rewrite Ht in H. inversion H as [|a b l l' HA HF]; subst. exists l'. f_equal. destruct HA as [->| ->]; reflexivity. Qed.
(** [m'] is [m] after being looked at: stop conditions tested (possibly latched), predictions
    made, targets moved, interrupted - but not stepped. *)
Definition touched (m m' : member) : Prop :=
  member_ok m -> m_env m' = m_env m /\ quiet_core (o_core (m_opt m')) = quiet_core (o_core (m_opt m)) /\ member_ok m' /\ (m_stopped m = true -> m_stopped m' = true).
Lemma touched_refl m : touched m m.
Proof. intros H. auto. Qed.
Lemma touched_trans a b c : touched a b -> touched b c -> touched a c.
Proof. intros H1 H2 K. destruct (H1 K) as (A1 & A2 & A3 & A4). destruct (H2 A3) as (B1 & B2 & B3 & B4). split; [congruence|]. split; [congruence|]. auto. Qed.
Lemma touched_best m m' : member_ok m -> touched m m' -> m_best m' = m_best m.
Proof. intros K H. destruct (H K) as (_ & H2 & _). apply (f_equal c_best_fit) in H2. exact H2. Qed.
Lemma m_test_touched m : touched m (fst (m_test m)).
Proof.
  intros [K KA]. unfold m_test. pose proof (test_stop_core (m_env m) (m_opt m) K) as (H1 & H2). pose proof (abort_first_test (m_env m) (m_opt m) K KA) as H3. destruct (test_stop (m_env m) (m_opt m)) as [o r] eqn:E. cbn [fst m_with m_env m_opt] in *.
  split; [reflexivity|]. split; [unfold quiet_core; now rewrite H1|]. split; [split; [exact H2|exact H3]|]. unfold m_stopped. cbn [m_opt m_with]. unfold test_stop in E. destruct (o_stopped (m_opt m)) as [k|] eqn:ES; [|discriminate]. injection E as <- _. now rewrite ES.
Qed.
Lemma m_test_latch m m' r : m_test m = (m', Ok r) -> (r = None <-> m_stopped m' = false).
Proof.
  unfold m_test, test_stop, m_stopped. destruct (o_stopped (m_opt m)) as [k|] eqn:ES.
  - intros [= <- <-]. cbn [m_with m_opt]. rewrite ES. split; discriminate.
  - destruct (test_list _ _ _ _) as [[c l] [[i|]|w|]]; intros [= <- <-]; cbn; split; congruence.
Qed.
Lemma m_predict_touched m n : touched m (fst (m_predict m n)).
Proof.
  intros [K KA]. unfold m_predict. pose proof (predicted_spec (m_env m) (o_core (m_opt m)) n K) as (H1 & H2 & _). destruct (predicted_fitness _ _ _) as [c r]. cbn [fst m_with m_env m_opt with_core o_core o_stopped m_stopped] in *.
  split; [reflexivity|]. split; [unfold quiet_core; now rewrite H1|]. split; [split; [exact H2|exact KA]|auto].
Qed.
Lemma m_interrupt_touched m : touched m (m_interrupt m).
Proof. intros K. split; [reflexivity|]. split; [reflexivity|]. split; [exact K|auto]. Qed.
Lemma set_predicted_abort l f l' : set_predicted l f = Some l' -> abort_first l -> abort_first l'.
Proof. intros E (t & ->). cbn [set_predicted] in E. destruct (set_predicted t f); [|discriminate E]. injection E as <-. eexists. reflexivity. Qed.
Lemma m_scs_touched m l : (abort_first (o_scs (m_opt m)) -> abort_first l) -> touched m (m_with m {| o_core := o_core (m_opt m); o_scs := l; o_stopped := o_stopped (m_opt m); o_trace := o_trace (m_opt m) |}).
Proof. intros HA [K KA]. split; [reflexivity|]. split; [reflexivity|]. split; [split; [exact K|exact (HA KA)]|auto]. Qed.

Notation looked := (Forall2 touched).
Lemma looked_refl ms : looked ms ms.
Proof. induction ms; constructor; auto using touched_refl. Qed.
Lemma looked_trans a b c : looked a b -> looked b c -> looked a c.
Proof. intros H. revert c. induction H as [|x y a b Hx H IH]; intros c H2; inversion H2; subst; constructor; eauto using touched_trans. Qed.
Lemma looked_length a b : looked a b -> length b = length a.
Proof. intros H. induction H; cbn; congruence. Qed.
Lemma looked_nth a b i m : looked a b -> nth_error a i = Some m -> exists m', nth_error b i = Some m' /\ touched m m'.
Proof. intros H. revert i. induction H as [|x y a b Hx H IH]; intros [|i] E; try discriminate E; cbn in *; [injection E as <-; eauto|eauto]. Qed.
Lemma looked_set ms i m m' : nth_error ms i = Some m -> touched m m' -> looked ms (list_set ms i m').
Proof.
  revert i. induction ms as [|x ms IH]; intros [|i] E T; try discriminate E; cbn [list_set]; constructor; try apply looked_refl; try apply touched_refl; [|eauto]. injection E as ->. exact T.
Qed.
Lemma looked_interrupt ms : looked ms (map m_interrupt ms).
Proof. induction ms; constructor; auto using m_interrupt_touched. Qed.
Lemma all_stopped_looked ms : looked ms (fst (all_stopped ms)).
Proof.
  induction ms as [|m t IH]; cbn [all_stopped]; [constructor|]. pose proof (m_test_touched m) as HT. destruct (m_test m) as [m' [r|w|]]; cbn [fst] in *; try (constructor; [exact HT|apply looked_refl]).
  destruct (all_stopped t) as [t' r']. cbn [fst] in *. constructor; assumption.
Qed.
Lemma predictions_looked PE ms : forall a, looked ms (fst (predictions PE a ms)).
Proof.
  induction ms as [|m t IH]; intros a; cbn [predictions]; [constructor|]. destruct (Nat.ltb a (pe_active PE)).
  - pose proof (m_test_touched m) as HT. destruct (m_test m) as [m' [[k|]|w|]]; cbn [fst] in *; try (constructor; [exact HT|apply looked_refl]).
    + specialize (IH a). destruct (predictions PE a t) as [t' r]. constructor; assumption.
    + assert (HP : touched m (fst (if Nat.leb (pe_start PE) (c_steps (o_core (m_opt m'))) then m_predict m' (pe_look PE) else (m', Ok (best_fitness_value (e_info (pe_env PE))))))).
      { destruct (Nat.leb _ _); [|exact HT]. eapply touched_trans; [exact HT|apply m_predict_touched]. }
      destruct (if Nat.leb _ _ then _ else _) as [m'' [x|w|]]; cbn [fst] in *; try (constructor; [exact HP|apply looked_refl]). specialize (IH (S a)). destruct (predictions PE (S a) t) as [t' r]. constructor; assumption.
  - specialize (IH a). destruct (predictions PE a t) as [t' r]. constructor; [apply touched_refl|assumption].
Qed.
Lemma fill_looked PE preds order : forall ms q, looked ms (fst (fst (fill PE preds ms order q))).
Proof.
  induction order as [|i t IH]; intros ms q; cbn [fill]; [apply looked_refl|]. destruct (nth_error ms i) as [m|] eqn:E; [|apply looked_refl].
  pose proof (m_test_touched m) as HT. destruct (m_test m) as [m' [[k|]|w|]]; cbn [fst] in *; try (eapply looked_set; eassumption).
  destruct (_ && _); cbn [fst]; [eapply looked_set; eassumption|]. eapply looked_trans; [eapply looked_set; eassumption|apply IH].
Qed.
Lemma set_targets_looked f ms : looked ms (fst (set_targets ms f)).
Proof.
  induction ms as [|m t IH]; cbn [set_targets]; [constructor|]. destruct (set_predicted _ f) as [l|] eqn:ESP; [|apply looked_refl]. destruct (set_targets t f) as [t' ok]. cbn [fst] in *. constructor; [apply m_scs_touched; intros; eapply set_predicted_abort; eassumption|exact IH].
Qed.
Lemma refill_looked PE P : looked (po_members P) (po_members (fst (refill PE P))).
Proof.
  unfold refill. destruct (po_queue P); [|apply looked_refl]. pose proof (predictions_looked PE (po_members P) 0) as H1. destruct (predictions PE 0 (po_members P)) as [ms [preds|w|]]; cbn [fst] in *; try exact H1. destruct (existsb fisnan preds); [exact H1|].
  pose proof (fill_looked PE preds (sorted_indices (pe_sort PE) (is_better (e_info (pe_env PE))) preds) ms []) as H2. destruct (fill _ _ _ _ _) as [[ms' q] r]. cbn [fst po_members with_queue with_members] in *. eapply looked_trans; eassumption.
Qed.
Lemma absorb_looked PE P i : looked (po_members P) (po_members (fst (absorb_member PE P i))).
Proof.
  unfold absorb_member. destruct (nth_error (po_members P) i) as [m|]; [|apply looked_refl]. destruct (match po_best P with None => true | Some _ => _ end); [|cbn; apply looked_refl].
  destruct (pe_use_predicted PE); [|cbn; apply looked_refl]. pose proof (set_targets_looked (m_best m) (po_members (with_pbest P (Some i) (m_best m)))) as H. destruct (set_targets _ _) as [ms [|]]; cbn in *; exact H.
Qed.
Lemma pc_list_looked PE l : forall P i, looked (po_members P) (po_members (fst (fst (pc_list PE P i l)))).
Proof.
  induction l as [|pc t IH]; intros P i; cbn [pc_list]; [apply looked_refl|].
  assert (H : looked (po_members P) (po_members (fst (fst (pc_test PE P pc))))).
  { destruct pc as [|sc]; cbn [pc_test].
    - pose proof (all_stopped_looked (po_members P)) as H. destruct (all_stopped (po_members P)) as [ms r]. exact H.
    - destruct (_ && _); [apply looked_refl|]. destruct (sc_test _ _ _) as [[c s] r]. apply looked_refl. }
  destruct (pc_test PE P pc) as [[P' pc'] [[|]|w|]]; cbn [fst] in *; try exact H. specialize (IH P' (S i)). destruct (pc_list PE P' (S i) t) as [[P'' t'] r]. cbn [fst] in *. eapply looked_trans; eassumption.
Qed.
Lemma pool_test_looked PE P : looked (po_members P) (po_members (fst (pool_test PE P))).
Proof.
  unfold pool_test. destruct (po_stopped P); [apply looked_refl|]. pose proof (pc_list_looked PE (po_conds P) P 0) as H. destruct (pc_list PE P 0 (po_conds P)) as [[P1 l] [[i|]|w|]]; cbn in *; exact H.
Qed.

(** ** One step of a member *)
(** [b] is [a] or better. *)
Definition at_least (o : obj_info) (a b : f64) : Prop := b = a \/ is_better o b a = true.
Lemma is_better_trans o a b c : is_better o a b = true -> is_better o b c = true -> is_better o a c = true.
Proof. unfold is_better, fgt. destruct (oi_minimize o); intros H1 H2; rewrite flt_key in *; apply andb_true_iff in H1 as [A1 A2], H2 as [B1 B2]; apply andb_true_iff in A1 as [A1 A3], B1 as [B1 B3]; apply Z.ltb_lt in A2, B2; apply andb_true_iff; (split; [apply andb_true_iff; auto|]); apply Z.ltb_lt; lia. Qed.
Lemma is_better_asym o a b : is_better o a b = true -> is_better o b a = false.
Proof. unfold is_better, fgt. destruct (oi_minimize o); intros H; rewrite flt_key in *; apply andb_true_iff in H as [_ H]; apply Z.ltb_lt in H; apply andb_false_iff; right; apply Z.ltb_ge; lia. Qed.
Lemma is_better_irrefl o a : is_better o a a = false.
Proof. unfold is_better, fgt. destruct (oi_minimize o); rewrite flt_key, Z.ltb_irrefl; apply andb_false_r. Qed.
Lemma at_least_trans o a b c : at_least o a b -> at_least o b c -> at_least o a c.
Proof. intros [->|H1] [->|H2]; [now left|now right|now right|right]. eapply is_better_trans; eassumption. Qed.
Lemma at_least_not_better o a b : at_least o a b -> is_better o a b = false.
Proof. intros [->|H]; [apply is_better_irrefl|now apply is_better_asym]. Qed.
Lemma evaluate_step_facts E o pop rs : cache_ok E (o_core o) ->
  cache_ok E (o_core (fst (evaluate_step E o pop rs))) /\ at_least (e_info E) (c_best_fit (o_core o)) (c_best_fit (o_core (fst (evaluate_step E o pop rs)))).
Proof.
  intros K. unfold evaluate_step. destruct (too_many_errors E rs); [destruct (set_error _ _); split; [exact K|now left|exact K|now left]|]. cbv zeta.
  destruct (nth_error _ (find_best_fitness _ _)) as [f|]; [|split; [exact K|now left]]. destruct (nth_error pop _) as [p|]; [|split; [exact K|now left]]. destruct (negb _); [split; [exact K|now left]|]. cbn [fst o_core].
  set (c2 := if is_better (e_info E) f _ then _ else _). assert (K2 : cache_ok E c2) by (unfold c2; destruct (is_better _ _ _); exact K).
  assert (B : at_least (e_info E) (c_best_fit (o_core o)) (c_best_fit c2)). { unfold c2. cbn [c_best_fit with_current]. destruct (is_better (e_info E) f (c_best_fit (o_core o))) eqn:EB; [right; exact EB|now left]. }
  unfold update_fitness_tracking. destruct (Nat.ltb 0 (c_cap c2)); [|auto]. split; [now apply cache_ok_hist|exact B].
Qed.
Lemma m_step_facts m i : member_ok m -> m_env (fst (m_step m i)) = m_env m /\ member_ok (fst (m_step m i)) /\ at_least (e_info (m_env m)) (m_best m) (m_best (fst (m_step m i))) /\ (m_stopped m = true -> m_stopped (fst (m_step m i)) = true).
Proof.
  intros KK. pose proof KK as [K KA]. unfold m_step, step. destruct (Nat.eqb _ 0); [cbn; split; [reflexivity|]; split; [exact KK|]; split; [now left|auto]|].
  set (o2 := {| o_core := o_core (m_opt m); o_scs := _; o_stopped := _; o_trace := _ |}). pose proof (evaluate_step_facts (m_env m) o2 (si_pop i) (si_results i) K) as (H1 & H2).
  assert (HS : o_stopped (fst (evaluate_step (m_env m) o2 (si_pop i) (si_results i))) = o_stopped (m_opt m)).
  { unfold evaluate_step. destruct (too_many_errors _ _); [destruct (set_error _ _); reflexivity|]. cbv zeta. destruct (nth_error _ (find_best_fitness _ _)); [|reflexivity]. destruct (nth_error (si_pop i) _); [|reflexivity]. destruct (negb _); reflexivity. }
  assert (HA : abort_first (o_scs (fst (evaluate_step (m_env m) o2 (si_pop i) (si_results i))))).
  { unfold evaluate_step. destruct (too_many_errors _ _).
    - destruct KA as (t & Ht). unfold o2. cbn [o_scs]. rewrite Ht. cbn [set_error]. destruct (set_error t _); cbn [option_map fst o_scs]; eexists; reflexivity.
    - cbv zeta. destruct (nth_error _ (find_best_fitness _ _)); [|exact KA]. destruct (nth_error (si_pop i) _); [|exact KA]. destruct (negb _); exact KA. }
  destruct (evaluate_step (m_env m) o2 (si_pop i) (si_results i)) as [o3 [ok|w|]]; cbn [fst] in *.
  - set (o5 := {| o_core := (if si_interrupt i then _ else _); o_scs := _; o_stopped := _; o_trace := _ |}). assert (K5 : cache_ok (m_env m) (o_core o5)) by (unfold o5; cbn [o_core]; destruct ok, (si_interrupt i); exact H1).
    assert (B5 : c_best_fit (o_core o5) = c_best_fit (o_core o3)) by (unfold o5; cbn [o_core]; destruct ok, (si_interrupt i); reflexivity).
    pose proof (m_test_touched {| m_env := m_env m; m_opt := o5 |} (conj K5 HA)) as (_ & T2 & T3 & T4). unfold m_test in T2, T3, T4. cbn [m_env m_opt] in T2, T3, T4. destruct (test_stop (m_env m) o5) as [o r]. cbn [fst m_with m_env m_opt] in *. split; [reflexivity|]. split; [exact T3|]. split.
    + unfold m_best. cbn [m_with m_opt]. apply (f_equal c_best_fit) in T2. change (c_best_fit (o_core o) = c_best_fit (o_core o5)) in T2. rewrite T2, B5. exact H2.
    + unfold m_stopped in *. cbn [m_opt m_with] in *. change (o_stopped o5) with (o_stopped o3) in T4. rewrite HS in T4. exact T4.
  - split; [reflexivity|]. split; [split; [exact H1|exact HA]|]. split; [exact H2|]. unfold m_stopped. cbn [m_with m_opt]. now rewrite HS.
  - split; [reflexivity|]. split; [split; [exact H1|exact HA]|]. split; [exact H2|]. unfold m_stopped. cbn [m_with m_opt]. now rewrite HS.
Qed.

(** ** Concurrent steps *)
(** A member before and after a pool step: if [b], it was stepped exactly once (and looked
    at before and after), otherwise only looked at. *)
Definition moved (b : bool) (i : step_input) (m m' : member) : Prop :=
  if b then exists m1, touched m m1 /\ touched (fst (m_step m1 i)) m' else touched m m'.
Definition is_done (i : nat) (done : list (nat * outcome (option nat))) : bool := existsb (Nat.eqb i) (map fst done).
Definition flight_ok (inp : nat -> step_input) (ms0 : list member) (fl : flight) : Prop :=
  length (fst fl) = length ms0 /\
  forall i m0, nth_error ms0 i = Some m0 -> exists m, nth_error (fst fl) i = Some m /\ moved (is_done i (snd fl)) (inp i) m0 m.
Lemma moved_touched b i m m1 m2 : moved b i m m1 -> touched m1 m2 -> moved b i m m2.
Proof. destruct b; cbn [moved]; [intros (x & A & B) T; exists x; split; [exact A|eapply touched_trans; eassumption]|intros A T; eapply touched_trans; eassumption]. Qed.
Lemma flight_looked inp ms0 ms ms' done : flight_ok inp ms0 (ms, done) -> looked ms ms' -> flight_ok inp ms0 (ms', done).
Proof.
  intros [HL H] HK. split; cbn [fst snd] in *; [now rewrite (looked_length _ _ HK)|]. intros i m0 E. destruct (H i m0 E) as (m & E1 & M). destruct (looked_nth _ _ _ _ HK E1) as (m' & E2 & T). exists m'. split; [exact E2|]. eapply moved_touched; eassumption.
Qed.
Lemma existsb_eqb i l : existsb (Nat.eqb i) l = true <-> In i l.
Proof. rewrite existsb_exists. split; [intros (x & Hx & E); apply Nat.eqb_eq in E; now subst|intros H; exists i; split; [exact H|apply Nat.eqb_refl]]. Qed.
Lemma complete_ok inp ms0 fl i : flight_ok inp ms0 fl -> flight_ok inp ms0 (complete inp fl i).
Proof.
  destruct fl as [ms done]. intros [HL H]. unfold complete. destruct (existsb (Nat.eqb i) (map fst done)) eqn:ED; [split; assumption|]. destruct (nth_error ms i) as [m|] eqn:Em; [|split; assumption].
  destruct (m_step m (inp i)) as [m' r] eqn:Es. split; cbn [fst snd] in *; [now rewrite list_set_length|]. intros j m0 E. destruct (Nat.eq_dec j i) as [->|NE].
  - rewrite nth_error_list_set_eq by (apply nth_error_Some; congruence). exists m'. split; [reflexivity|]. unfold is_done. cbn [map fst existsb]. rewrite Nat.eqb_refl. cbn [orb moved].
    destruct (H i m0 E) as (m1 & E1 & M). rewrite Em in E1. injection E1 as <-. unfold is_done in M. rewrite ED in M. exists m. split; [exact M|]. rewrite Es. apply touched_refl.
  - rewrite nth_error_list_set_neq by congruence. destruct (H j m0 E) as (m1 & E1 & M). exists m1. split; [exact E1|]. unfold is_done in *. cbn [map fst existsb]. apply Nat.eqb_neq in NE. rewrite NE. exact M.
Qed.
Lemma completes_ok inp ms0 l : forall fl, flight_ok inp ms0 fl -> flight_ok inp ms0 (fold_left (complete inp) l fl).
Proof. induction l as [|i l IH]; intros fl H; cbn [fold_left]; [exact H|]. apply IH, complete_ok, H. Qed.
Lemma complete_done inp fl i j : In j (map fst (snd (complete inp fl i))) -> j = i \/ In j (map fst (snd fl)).
Proof. destruct fl as [ms done]. unfold complete. destruct (existsb _ _); [auto|]. destruct (nth_error ms i); [|auto]. destruct (m_step _ _) as [m' r]. cbn [snd map fst]. intros [H|H]; auto. Qed.
Lemma completes_done inp l : forall fl j, In j (map fst (snd (fold_left (complete inp) l fl))) -> In j l \/ In j (map fst (snd fl)).
Proof. induction l as [|i l IH]; intros fl j H; cbn [fold_left] in H; [auto|]. apply IH in H as [H|H]; [left; now right|]. apply complete_done in H as [->|H]; [left; now left|auto]. Qed.
Lemma complete_keeps inp fl i j : In j (map fst (snd fl)) -> In j (map fst (snd (complete inp fl i))).
Proof. destruct fl as [ms done]. unfold complete. destruct (existsb _ _); [auto|]. destruct (nth_error ms i); [|auto]. destruct (m_step _ _) as [m' r]. cbn [snd map fst]. now right. Qed.
Lemma completes_keep inp l : forall fl j, In j (map fst (snd fl)) -> In j (map fst (snd (fold_left (complete inp) l fl))).
Proof. induction l as [|i l IH]; intros fl j H; cbn [fold_left]; [exact H|]. apply IH, complete_keeps, H. Qed.
Lemma complete_length inp fl i : length (fst (complete inp fl i)) = length (fst fl).
Proof. destruct fl as [ms done]. unfold complete. destruct (existsb _ _); [reflexivity|]. destruct (nth_error ms i); [|reflexivity]. destruct (m_step _ _) as [m' r]. cbn [fst]. apply list_set_length. Qed.
Lemma completes_length inp l : forall fl, length (fst (fold_left (complete inp) l fl)) = length (fst fl).
Proof. induction l as [|i l IH]; intros fl; cbn [fold_left]; [reflexivity|]. rewrite IH. apply complete_length. Qed.
Lemma completes_does inp l : forall fl j, In j l -> j < length (fst fl) -> In j (map fst (snd (fold_left (complete inp) l fl))).
Proof.
  induction l as [|i l IH]; intros fl j HI HL; [destruct HI|]. destruct HI as [->|H]; cbn [fold_left].
  - apply completes_keep. destruct fl as [ms done]. unfold complete. destruct (existsb (Nat.eqb j) (map fst done)) eqn:E; [now apply existsb_eqb in E|]. cbn [fst] in HL. apply nth_error_Some in HL. destruct (nth_error ms j); [|congruence]. destruct (m_step _ _). now left.
  - apply IH; [exact H|]. now rewrite complete_length.
Qed.
Lemma result_of_done i done : In i (map fst done) -> result_of i done <> None.
Proof. induction done as [|[j r] t IH]; cbn; [tauto|]. destruct (Nat.eqb_spec i j); [discriminate|]. intros [->|H]; [congruence|auto]. Qed.

(** ** The loop over the futures *)
Definition good (o : obj_info) (m : member) : Prop := member_ok m /\ oi_minimize (e_info (m_env m)) = oi_minimize o.
Lemma at_least_dir o o' a b : oi_minimize o = oi_minimize o' -> at_least o a b -> at_least o' a b.
Proof. unfold at_least, is_better. intros ->. auto. Qed.
Lemma looked_good o a b : looked a b -> Forall (good o) a -> Forall (good o) b.
Proof. intros H. induction H as [|x y a b Hx H IH]; intros HG; [constructor|]. inversion HG as [|? ? [G1 G2] G3]; subst. constructor; [|auto]. destruct (Hx G1) as (E & _ & K & _). split; [exact K|now rewrite E]. Qed.
Lemma Forall_nth {A} (Q : A -> Prop) l i x : Forall Q l -> nth_error l i = Some x -> Q x.
Proof. intros H E. rewrite Forall_forall in H. apply H. eapply nth_error_In, E. Qed.
Lemma Forall_list_set {A} (Q : A -> Prop) l i x : Forall Q l -> Q x -> Forall Q (list_set l i x).
Proof. intros H Hx. revert i. induction H as [|y l Hy H IH]; intros [|i]; cbn [list_set]; constructor; auto. Qed.
(** [ever]: the members launched so far; [todo]: those whose result is still to be looked at. *)
Definition best_inv (o : obj_info) (ever todo : list nat) (P : pool) : Prop :=
  Forall (good o) (po_members P) /\
  (po_best P = None -> forall j, In j ever -> In j todo) /\
  (forall b, po_best P = Some b -> In b ever /\ exists mb, nth_error (po_members P) b = Some mb /\ at_least o (po_best_fit P) (m_best mb) /\ (~ In b todo -> m_best mb = po_best_fit P)) /\
  (forall j m, In j ever -> ~ In j todo -> nth_error (po_members P) j = Some m -> is_better o (m_best m) (po_best_fit P) = false).
Lemma looked_nth_back a b i m' : looked a b -> nth_error b i = Some m' -> exists m, nth_error a i = Some m /\ touched m m'.
Proof. intros H. revert i. induction H as [|x y a b Hx H IH]; intros [|i] E; try discriminate E; cbn in *; [injection E as <-; eauto|eauto]. Qed.
Lemma best_inv_looked o ever todo P P' : best_inv o ever todo P -> looked (po_members P) (po_members P') -> po_best P' = po_best P -> po_best_fit P' = po_best_fit P -> best_inv o ever todo P'.
Proof.
  intros (H1 & H2 & H3 & H4) HL EB EF. split; [eapply looked_good; eassumption|]. rewrite EB, EF. split; [exact H2|]. split.
  - intros b Eb. destruct (H3 b Eb) as (A & mb & B & C & D). split; [exact A|]. destruct (looked_nth _ _ _ _ HL B) as (mb' & B' & T). exists mb'. split; [exact B'|]. rewrite (touched_best mb mb' (proj1 (Forall_nth _ _ _ _ H1 B)) T). auto.
  - intros j m Hj Ht E. destruct (looked_nth_back _ _ _ _ HL E) as (m0 & E0 & T). rewrite (touched_best m0 m (proj1 (Forall_nth _ _ _ _ H1 E0)) T). eauto.
Qed.
Lemma best_inv_complete o ever todo P done inp i : best_inv o ever todo P -> In i todo \/ In i (map fst done) ->
  best_inv o ever todo (with_members P (fst (complete inp (po_members P, done) i))).
Proof.
  intros (H1 & H2 & H3 & H4) HI. unfold complete. destruct (existsb (Nat.eqb i) (map fst done)) eqn:ED; [split; auto|]. destruct (nth_error (po_members P) i) as [m|] eqn:Em; [|split; auto].
  assert (HT : In i todo). { destruct HI as [HI|HI]; [exact HI|]. apply existsb_eqb in HI. congruence. }
  pose proof (Forall_nth _ _ _ _ H1 Em) as [K D]. pose proof (m_step_facts m (inp i) K) as (F1 & F2 & F3 & _). destruct (m_step m (inp i)) as [m' r]. cbn [fst] in *. assert (HL : i < length (po_members P)) by (apply nth_error_Some; congruence).
  split; cbn [with_members po_members po_best po_best_fit]; [apply Forall_list_set; [exact H1|]; split; [exact F2|now rewrite F1]|]. split; [exact H2|]. split.
  - intros b Eb. destruct (H3 b Eb) as (A & mb & B & C & Dd). split; [exact A|]. destruct (Nat.eq_dec b i) as [->|NE].
    + exists m'. rewrite nth_error_list_set_eq by exact HL. split; [reflexivity|]. rewrite Em in B. injection B as <-. split; [|tauto]. eapply at_least_trans; [exact C|]. eapply at_least_dir; [exact D|exact F3].
    + exists mb. rewrite nth_error_list_set_neq by congruence. auto.
  - intros j mj Hj Ht E. assert (j <> i) by congruence. rewrite nth_error_list_set_neq in E by congruence. eauto.
Qed.
Lemma best_inv_completes o ever todo inp l : forall P done, best_inv o ever todo P -> (forall i, In i l -> In i todo \/ In i (map fst done)) ->
  best_inv o ever todo (with_members P (fst (fold_left (complete inp) l (po_members P, done)))).
Proof.
  induction l as [|i l IH]; intros P done H HI; cbn [fold_left]; [exact H|]. pose proof (best_inv_complete o ever todo P done inp i H (HI i (or_introl eq_refl))) as H1.
  destruct (complete inp (po_members P, done) i) as [ms d] eqn:EC. cbn [fst] in H1. specialize (IH (with_members P ms) d H1). cbn [with_members po_members] in IH. unfold with_members in IH |- *. cbn [po_base po_members po_queue po_best po_best_fit po_conds po_stopped po_trace] in IH. apply IH.
  intros j Hj. destruct (HI j (or_intror Hj)) as [A|A]; [now left|right]. pose proof (complete_keeps inp (po_members P, done) i j A) as X. rewrite EC in X. exact X.
Qed.
Lemma psignal_members PE ev P : po_members (psignal PE ev P) = po_members P /\ po_best (psignal PE ev P) = po_best P /\ po_best_fit (psignal PE ev P) = po_best_fit P /\ po_queue (psignal PE ev P) = po_queue P.
Proof. auto. Qed.
Lemma absorb_best PE P i P' r : absorb_member PE P i = (P', r) -> r <> Undef ->
  exists m, nth_error (po_members P) i = Some m /\ po_queue P' = po_queue P /\ po_base P' = po_base P /\
  if match po_best P with None => true | Some _ => is_better (e_info (pe_env PE)) (m_best m) (po_best_fit P) end then po_best P' = Some i /\ po_best_fit P' = m_best m else po_best P' = po_best P /\ po_best_fit P' = po_best_fit P.
Proof.
  unfold absorb_member. destruct (nth_error (po_members P) i) as [m|]; [|intros [= <- <-]; congruence]. intros H HU. exists m. split; [reflexivity|].
  destruct (match po_best P with None => true | Some _ => is_better (e_info (pe_env PE)) (m_best m) (po_best_fit P) end).
  - destruct (pe_use_predicted PE); [destruct (set_targets _ _) as [ms [|]]|]; injection H as <- <-; cbn; auto.
  - injection H as <- <-; cbn; auto.
Qed.
Lemma absorb_inv PE ever i t P P' r : best_inv (e_info (pe_env PE)) ever (i :: t) P -> NoDup (i :: t) -> In i ever -> absorb_member PE P i = (P', r) -> r <> Undef -> best_inv (e_info (pe_env PE)) ever t P'.
Proof.
  set (o := e_info (pe_env PE)). intros H HN Hi E HU. pose proof (absorb_looked PE P i) as HL. pose proof (absorb_best PE P i P' r E HU) as (m & Em & _ & _ & HB). fold o in HB. rewrite E in HL. cbn [fst] in HL.
  destruct H as (H1 & H2 & H3 & H4). inversion HN as [|? ? HN1 HN2]; subst. destruct (looked_nth _ _ _ _ HL Em) as (m' & Em' & Tm). pose proof (touched_best m m' (proj1 (Forall_nth _ _ _ _ H1 Em)) Tm) as Bm.
  split; [eapply looked_good; eassumption|]. destruct (match po_best P with None => true | Some _ => is_better o (m_best m) (po_best_fit P) end) eqn:ENB; destruct HB as [-> ->].
  - split; [discriminate|]. split.
    + intros b [= <-]. split; [exact Hi|]. exists m'. split; [exact Em'|]. rewrite Bm. split; [now left|auto].
    + intros j mj Hj Ht E0. destruct (looked_nth_back _ _ _ _ HL E0) as (m0 & E1 & T). rewrite (touched_best m0 mj (proj1 (Forall_nth _ _ _ _ H1 E1)) T).
      destruct (Nat.eq_dec j i) as [->|NE]; [rewrite Em in E1; injection E1 as <-; apply is_better_irrefl|].
      assert (HJ : ~ In j (i :: t)) by (intros [->|X]; [congruence|tauto]). destruct (po_best P) as [b|]; [|exfalso; apply HJ, H2; [reflexivity|exact Hj]].
      specialize (H4 j m0 Hj HJ E1). destruct (is_better o (m_best m0) (m_best m)) eqn:EX; [|reflexivity]. rewrite (is_better_trans o _ _ _ EX ENB) in H4. discriminate.
  - destruct (po_best P) as [b|] eqn:EB; [|discriminate ENB]. split; [discriminate|]. split.
    + intros b' [= <-]. destruct (H3 b eq_refl) as (A & mb & B & C & D). split; [exact A|]. destruct (looked_nth _ _ _ _ HL B) as (mb' & B' & T). exists mb'. split; [exact B'|]. rewrite (touched_best mb mb' (proj1 (Forall_nth _ _ _ _ H1 B)) T). split; [exact C|]. intros Ht.
      destruct (Nat.eq_dec b i) as [->|NE]; [|apply D; intros [->|X]; [congruence|tauto]]. rewrite Em in B. injection B as <-. destruct C as [C|C]; [exact C|congruence].
    + intros j mj Hj Ht E0. destruct (looked_nth_back _ _ _ _ HL E0) as (m0 & E1 & T). rewrite (touched_best m0 mj (proj1 (Forall_nth _ _ _ _ H1 E1)) T).
      destruct (Nat.eq_dec j i) as [->|NE]; [rewrite Em in E1; injection E1 as <-; exact ENB|]. apply (H4 j m0 Hj); [intros [->|X]; [congruence|tauto]|exact E1].
Qed.
Lemma collect_spec PE launched inp sched ever ms0 todo : forall k P done P' r,
  collect PE launched inp sched k P done todo = (P', r) -> r <> Undef ->
  NoDup todo -> incl todo launched -> incl launched ever -> (forall i, In i launched -> i < length ms0) ->
  (forall i, In i launched -> In i todo \/ In i (map fst done)) -> incl (map fst done) launched ->
  flight_ok inp ms0 (po_members P, done) -> best_inv (e_info (pe_env PE)) ever todo P ->
  (length (po_members P') = length ms0 /\ forall i m0, nth_error ms0 i = Some m0 -> exists m, nth_error (po_members P') i = Some m /\ moved (existsb (Nat.eqb i) launched) (inp i) m0 m) /\
  po_queue P' = po_queue P /\ po_base P' = po_base P /\
  (forall b, po_best P = Some b -> (exists b', po_best P' = Some b') /\ at_least (e_info (pe_env PE)) (po_best_fit P) (po_best_fit P')) /\
  (r = Ok tt -> best_inv (e_info (pe_env PE)) ever [] P').
Proof.
  set (o := e_info (pe_env PE)).
  assert (FIN : forall Q d, flight_ok inp ms0 (po_members Q, d) -> (forall i, In i launched -> i < length ms0) -> incl (map fst d) launched ->
    let fl := fold_left (complete inp) launched (po_members Q, d) in
    length (fst fl) = length ms0 /\ forall i m0, nth_error ms0 i = Some m0 -> exists m, nth_error (fst fl) i = Some m /\ moved (existsb (Nat.eqb i) launched) (inp i) m0 m).
  { intros Q d HF HR HI fl. pose proof (completes_ok inp ms0 launched _ HF) as [A B]. fold fl in A, B. split; [exact A|]. intros i m0 E. destruct (B i m0 E) as (m & E1 & M). exists m. split; [exact E1|].
    replace (existsb (Nat.eqb i) launched) with (is_done i (snd fl)); [exact M|]. apply eq_true_iff_eq. unfold is_done. rewrite !existsb_eqb. split; intros X.
    - apply completes_done in X as [X|X]; [exact X|apply HI, X].
    - apply completes_does; [exact X|]. rewrite (proj1 HF). apply HR, X. }
  induction todo as [|i t IH]; intros k P done P' r E HU HN HT HE HR HD HS HF HB; cbn [collect] in E.
  - injection E as <- <-. split; [|split; [reflexivity|split; [reflexivity|split; [intros b Hb; split; [eauto|now left]|intros _; exact HB]]]].
    destruct HF as [A B]. cbn [fst snd] in *. split; [exact A|]. intros j m0 Ej. destruct (B j m0 Ej) as (m & E1 & M). exists m. split; [exact E1|]. replace (existsb (Nat.eqb j) launched) with (is_done j done); [exact M|].
    apply eq_true_iff_eq. unfold is_done. rewrite !existsb_eqb. split; intros X; [apply HS, X|]. destruct (HD j X) as [[]|Y]; exact Y.
  - set (early := filter (fun j => existsb (Nat.eqb j) launched) (sched k) ++ [i]) in *.
    assert (HX : forall j, In j early -> In j launched). { intros j Hj. apply in_app_iff in Hj as [Hj|[<-|[]]]; [|apply HT; now left]. apply filter_In in Hj as [_ Hj]. now apply existsb_eqb in Hj. }
    pose proof (completes_ok inp ms0 early _ HF) as HF1. pose proof (best_inv_completes o ever (i :: t) inp early P done HB (fun j Hj => HD j (HX j Hj))) as HB1.
    assert (HD1 : forall j, In j (map fst (snd (fold_left (complete inp) early (po_members P, done)))) -> In j launched). { intros j Hj. apply completes_done in Hj as [Hj|Hj]; [apply HX, Hj|apply HS, Hj]. }
    assert (HK1 : forall j, In j (map fst done) \/ j = i -> In j (map fst (snd (fold_left (complete inp) early (po_members P, done))))).
    { intros j [Hj| ->]; [apply completes_keep; exact Hj|]. apply completes_does; [apply in_app_iff; right; now left|]. rewrite (proj1 HF). apply HR, HT. now left. }
    destruct (fold_left (complete inp) early (po_members P, done)) as [ms done'] eqn:EF. cbn [fst snd] in *.
    pose proof (result_of_done i done' (HK1 i (or_intror eq_refl))) as HRN. destruct (result_of i done') as [[x|w|]|] eqn:ER; [| |injection E as <- <-; congruence|congruence].
    + destruct (absorb_member PE (with_members P ms) i) as [P2 r2] eqn:EA. inversion HN as [|? ? HN1 HN2]; subst.
      assert (HU2 : r2 <> Undef) by (intros ->; injection E as <- <-; congruence).
      pose proof (absorb_inv PE ever i t _ P2 r2 HB1 HN (HE i (HT i (or_introl eq_refl))) EA HU2) as HB2. pose proof (absorb_looked PE (with_members P ms) i) as HL2. rewrite EA in HL2. cbn [fst with_members po_members] in HL2.
      pose proof (flight_looked inp ms0 ms (po_members P2) done' HF1 HL2) as HF2. pose proof (absorb_best PE _ i P2 r2 EA HU2) as (m & Em & Q2 & Q3 & HBB). cbn [with_members po_queue po_base po_best po_best_fit] in Q2, Q3, HBB. fold o in HBB.
      assert (MON : forall b, po_best P = Some b -> (exists b', po_best P2 = Some b') /\ at_least o (po_best_fit P) (po_best_fit P2)).
      { intros b Hb. rewrite Hb in HBB. destruct (is_better o (m_best m) (po_best_fit P)) eqn:EX; destruct HBB as [-> ->]; split; eauto; [now right|now left]. }
      destruct r2 as [u|w|]; [|clear HU2|congruence].
      * specialize (IH (S k) P2 done' P' r E HU HN2 (fun j Hj => HT j (or_intror Hj)) HE HR). destruct IH as (A & B & C & D & F).
        { intros j Hj. destruct (HD j Hj) as [[->|X]|X]; [right; apply HK1; now right|now left|right; apply HK1; now left]. }
        { exact HD1. } { exact HF2. } { exact HB2. }
        split; [exact A|]. split; [congruence|]. split; [congruence|]. split; [|exact F]. intros b Hb. destruct (MON b Hb) as ((b' & Hb') & M1). destruct (D b' Hb') as (M2 & M3). split; [exact M2|]. eapply at_least_trans; eassumption.
      * injection E as <- <-. cbn [with_members po_members po_queue po_base po_best po_best_fit]. split; [apply FIN; assumption|]. split; [exact Q2|]. split; [exact Q3|]. split; [exact MON|discriminate].
    + injection E as <- <-. cbn [with_members po_members po_queue po_base po_best po_best_fit]. split; [apply (FIN (with_members P ms)); assumption|]. split; [reflexivity|]. split; [reflexivity|]. split; [intros b Hb; split; [eauto|now left]|discriminate].
Qed.
