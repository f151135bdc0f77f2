(** * C79: a pool respects the step limits and the errors of its members, and comes to an end *)
From Coq Require Import ZArith Bool Lia Permutation.
From Verif Require Import Prelude Flt FltFacts Flt32 Round8 FlatMap ParInfo ObjInfo Num MathTools Mes Optimizer OptimizerFacts Properties_Optimizer Properties_ES3 Properties_Optimizer4 Pool PoolFacts Properties_Pool Properties_Pool2 Properties_Pool3 Properties_Pool4 Properties_Pool5.
#[local] Open Scope nat_scope.

(** ** What can be said about a member from outside *)
(** The number of steps it has completed; whether it has a max_steps_condition with this
    limit; whether its error condition holds an error. *)
Definition steps_of (m : member) : nat := c_steps (o_core (m_opt m)).
Definition limited (s : nat) (m : member) : Prop := In (ScMaxSteps s) (o_scs (m_opt m)).
Definition is_reported (sc : stop_cond) : bool := match sc with ScError (Some _) => true | _ => false end.
Definition errored (m : member) : bool := existsb is_reported (o_scs (m_opt m)).

(** ** Members that are only looked at *)
Definition like (a b : stop_cond) : Prop :=
  match a with
  | ScError e => b = ScError e
  | ScMaxSteps n => b = ScMaxSteps n
  | ScCustom _ _ => match b with ScError _ | ScMaxSteps _ => False | _ => True end
  | _ => match b with ScError _ | ScCustom _ _ | ScMaxSteps _ => False | _ => True end
  end.
Lemma like_refl a : like a a.
Proof. destruct a; cbn; auto. Qed.
Lemma like_after E c a : like a (sc_after E c a).
Proof.
  unfold sc_after. destruct a; cbn; auto.
  - destruct (Nat.leb _ _); [|exact I]. destruct (progress E c) as [c' r]. exact I.
  - destruct (Nat.leb _ _); [|exact I]. destruct (predicted_fitness E c look_ahead) as [c' [x|w|]]; exact I.
  - destruct (_ && _); [|exact I]. destruct (negb (e_cma E)); [exact I|]. destruct (similarity_loop _ _ _ _ _ _) as [s [[i|]|w|]]; exact I.
Qed.
Lemma like_all l l' : Forall2 like l l' ->
  (forall s, In (ScMaxSteps s) l <-> In (ScMaxSteps s) l') /\ existsb is_reported l' = existsb is_reported l /\ (has_error l -> has_error l') /\ (Forall library l -> Forall library l').
Proof.
  intros H. induction H as [|a b l l' Hab H (IH1 & IH2 & IH3 & IH4)]; [split; [tauto|auto]|]. split; [|split; [|split]].
  - intros s. split; (intros [X|Hs]; [left|right; now apply IH1]); [subst a; exact Hab|subst b; destruct a; cbn in Hab; try discriminate Hab; try contradiction Hab; congruence].
  - cbn [existsb]. rewrite IH2. f_equal. destruct a; cbn in Hab; try (subst b; reflexivity); destruct b; try reflexivity; destruct Hab.
  - intros (e & [->|He]); [exists e; left; exact Hab|]. destruct IH3 as (e' & He'); [eexists; exact He|]. exists e'. now right.
  - intros HL. inversion HL as [|? ? L1 L2]; subst. constructor; [|auto]. destruct a; cbn in Hab, L1; try (subst b; exact I); try destruct L1; destruct b; try exact I; destruct Hab.
Qed.
Definition sound (m : member) : Prop := member_ok m /\ has_error (o_scs (m_opt m)).
Definition same_account (m m' : member) : Prop :=
  sound m -> sound m' /\ (forall s, limited s m <-> limited s m') /\ steps_of m' = steps_of m /\ errored m' = errored m /\ (Forall library (o_scs (m_opt m)) -> Forall library (o_scs (m_opt m'))).
Lemma account_refl m : same_account m m.
Proof. intros H. split; [exact H|]. split; [tauto|auto]. Qed.
Lemma account_trans a b c : same_account a b -> same_account b c -> same_account a c.
Proof. intros H1 H2 K. destruct (H1 K) as (A1 & A2 & A3 & A4 & A5). destruct (H2 A1) as (B1 & B2 & B3 & B4 & B5). split; [exact B1|]. split; [intros s; rewrite A2; apply B2|]. split; [congruence|]. split; [congruence|auto]. Qed.
Lemma account_like m m' : touched m m' -> (sound m -> Forall2 like (o_scs (m_opt m)) (o_scs (m_opt m'))) -> same_account m m'.
Proof.
  intros T L K. destruct (like_all _ _ (L K)) as (A & B & C & D). destruct K as [K KE]. destruct (T K) as (_ & T2 & T3 & _). split; [split; [exact T3|exact (C KE)]|]. split; [exact A|]. split; [apply (f_equal c_steps) in T2; exact T2|]. split; [exact B|exact D].
Qed.
Lemma like_same l : Forall2 like l l.
Proof. induction l; constructor; auto using like_refl. Qed.
Lemma m_test_account m : same_account m (fst (m_test m)).
Proof.
  apply account_like; [apply m_test_touched|]. intros [[K _] _]. pose proof (test_stop_scs (m_env m) (m_opt m) K) as H. unfold m_test. destruct (test_stop (m_env m) (m_opt m)) as [o r]. cbn [fst m_with m_opt] in *.
  eapply Forall2_impl'; [|exact H]. intros a b [->| ->]; [apply like_refl|apply like_after].
Qed.
Lemma m_predict_account m n : same_account m (fst (m_predict m n)).
Proof. apply account_like; [apply m_predict_touched|]. intros _. unfold m_predict. destruct (predicted_fitness _ _ _) as [c r]. apply like_same. Qed.
Lemma m_interrupt_account m : same_account m (m_interrupt m).
Proof. apply account_like; [apply m_interrupt_touched|]. intros _. apply like_same. Qed.
Lemma set_predicted_like l f l' : set_predicted l f = Some l' -> Forall2 like l l'.
Proof.
  revert l'. induction l as [|sc l IH]; intros l' E; [discriminate E|]. destruct sc; cbn [set_predicted] in E;
    try (destruct (set_predicted l f) as [l1|]; [|discriminate E]; injection E as <-; constructor; [apply like_refl|apply IH; reflexivity]).
  injection E as <-. constructor; [exact I|apply like_same].
Qed.
Notation accounts := (Forall2 same_account).
Lemma accounts_refl ms : accounts ms ms.
Proof. induction ms; constructor; auto using account_refl. Qed.
Lemma accounts_trans a b c : accounts a b -> accounts b c -> accounts a c.
Proof. intros H. revert c. induction H as [|x y a b Hx H IH]; intros c H2; inversion H2; subst; constructor; eauto using account_trans. Qed.
Lemma accounts_nth a b i m : accounts a b -> nth_error a i = Some m -> exists m', nth_error b i = Some m' /\ same_account m m'.
Proof. intros H. revert i. induction H as [|x y a b Hx H IH]; intros [|i] E; try discriminate E; cbn in *; [injection E as <-; eauto|eauto]. Qed.
Lemma accounts_nth_back a b i m' : accounts a b -> nth_error b i = Some m' -> exists m, nth_error a i = Some m /\ same_account m m'.
Proof. intros H. revert i. induction H as [|x y a b Hx H IH]; intros [|i] E; try discriminate E; cbn in *; [injection E as <-; eauto|eauto]. Qed.
Lemma accounts_sound a b : accounts a b -> Forall sound a -> Forall sound b.
Proof. intros H. induction H as [|x y a b Hx H IH]; intros F; [constructor|]. inversion F; subst. constructor; [now apply Hx|auto]. Qed.
Lemma accounts_set ms i m m' : nth_error ms i = Some m -> same_account m m' -> accounts ms (list_set ms i m').
Proof.
  revert i. induction ms as [|x ms IH]; intros [|i] E T; try discriminate E; cbn [list_set]; constructor; try apply accounts_refl; try apply account_refl; [|eauto]. injection E as ->. exact T.
Qed.
Lemma accounts_interrupt ms : accounts ms (map m_interrupt ms).
Proof. induction ms; constructor; auto using m_interrupt_account. Qed.
Lemma all_stopped_accounts ms : accounts ms (fst (all_stopped ms)).
Proof.
  induction ms as [|m t IH]; cbn [all_stopped]; [constructor|]. pose proof (m_test_account m) as HT. destruct (m_test m) as [m' [r|w|]]; cbn [fst] in *; try (constructor; [exact HT|apply accounts_refl]).
  destruct (all_stopped t) as [t' r']. cbn [fst] in *. constructor; assumption.
Qed.
Lemma predictions_accounts PE ms : forall a, accounts ms (fst (predictions PE a ms)).
Proof.
  induction ms as [|m t IH]; intros a; cbn [predictions]; [constructor|]. destruct (Nat.ltb a (pe_active PE)).
  - pose proof (m_test_account m) as HT. destruct (m_test m) as [m' [[k|]|w|]]; cbn [fst] in *; try (constructor; [exact HT|apply accounts_refl]).
    + specialize (IH a). destruct (predictions PE a t) as [t' r]. constructor; assumption.
    + assert (HP : same_account m (fst (if Nat.leb (pe_start PE) (c_steps (o_core (m_opt m'))) then m_predict m' (pe_look PE) else (m', Ok (best_fitness_value (e_info (pe_env PE))))))).
      { destruct (Nat.leb _ _); [|exact HT]. eapply account_trans; [exact HT|apply m_predict_account]. }
      destruct (if Nat.leb _ _ then _ else _) as [m'' [x|w|]]; cbn [fst] in *; try (constructor; [exact HP|apply accounts_refl]). specialize (IH (S a)). destruct (predictions PE (S a) t) as [t' r]. constructor; assumption.
  - specialize (IH a). destruct (predictions PE a t) as [t' r]. constructor; [apply account_refl|assumption].
Qed.
Lemma fill_accounts PE preds order : forall ms q, accounts ms (fst (fst (fill PE preds ms order q))).
Proof.
  induction order as [|i t IH]; intros ms q; cbn [fill]; [apply accounts_refl|]. destruct (nth_error ms i) as [m|] eqn:E; [|apply accounts_refl].
  pose proof (m_test_account m) as HT. destruct (m_test m) as [m' [[k|]|w|]]; cbn [fst] in *; try (eapply accounts_set; eassumption).
  destruct (_ && _); cbn [fst]; [eapply accounts_set; eassumption|]. eapply accounts_trans; [eapply accounts_set; eassumption|apply IH].
Qed.
Lemma set_targets_accounts f ms : accounts ms (fst (set_targets ms f)).
Proof.
  induction ms as [|m t IH]; cbn [set_targets]; [constructor|]. destruct (set_predicted _ f) as [l|] eqn:ESP; [|apply accounts_refl]. destruct (set_targets t f) as [t' ok]. cbn [fst] in *. constructor; [|exact IH].
  apply account_like; [apply m_scs_touched; intros; eapply set_predicted_abort; eassumption|]. intros _. cbn. eapply set_predicted_like, ESP.
Qed.
Lemma refill_accounts PE P : accounts (po_members P) (po_members (fst (refill PE P))).
Proof.
  unfold refill. destruct (po_queue P); [|apply accounts_refl]. pose proof (predictions_accounts PE (po_members P) 0) as H1. destruct (predictions PE 0 (po_members P)) as [ms [preds|w|]]; cbn [fst] in *; try exact H1. destruct (existsb fisnan preds); [exact H1|].
  pose proof (fill_accounts PE preds (sorted_indices (pe_sort PE) (is_better (e_info (pe_env PE))) preds) ms []) as H2. destruct (fill _ _ _ _ _) as [[ms' q] r]. cbn [fst po_members with_queue with_members] in *. eapply accounts_trans; eassumption.
Qed.
Lemma absorb_accounts PE P i : accounts (po_members P) (po_members (fst (absorb_member PE P i))).
Proof.
  unfold absorb_member. destruct (nth_error (po_members P) i) as [m|]; [|apply accounts_refl]. destruct (match po_best P with None => true | Some _ => _ end); [|cbn; apply accounts_refl].
  destruct (pe_use_predicted PE); [|cbn; apply accounts_refl]. pose proof (set_targets_accounts (m_best m) (po_members (with_pbest P (Some i) (m_best m)))) as H. destruct (set_targets _ _) as [ms [|]]; cbn in *; exact H.
Qed.
Lemma pc_list_accounts PE l : forall P i, accounts (po_members P) (po_members (fst (fst (pc_list PE P i l)))).
Proof.
  induction l as [|pc t IH]; intros P i; cbn [pc_list]; [apply accounts_refl|].
  assert (H : accounts (po_members P) (po_members (fst (fst (pc_test PE P pc))))).
  { destruct pc as [|sc]; cbn [pc_test].
    - pose proof (all_stopped_accounts (po_members P)) as H. destruct (all_stopped (po_members P)) as [ms r]. exact H.
    - destruct (_ && _); [apply accounts_refl|]. destruct (sc_test _ _ _) as [[c s] r]. apply accounts_refl. }
  destruct (pc_test PE P pc) as [[P' pc'] [[|]|w|]]; cbn [fst] in *; try exact H. specialize (IH P' (S i)). destruct (pc_list PE P' (S i) t) as [[P'' t'] r]. cbn [fst] in *. eapply accounts_trans; eassumption.
Qed.
Lemma pool_test_accounts PE P : accounts (po_members P) (po_members (fst (pool_test PE P))).
Proof.
  unfold pool_test. destruct (po_stopped P); [apply accounts_refl|]. pose proof (pc_list_accounts PE (po_conds P) P 0) as H. destruct (pc_list PE P 0 (po_conds P)) as [[P1 l] [[i|]|w|]]; cbn in *; exact H.
Qed.

(** ** One step of a member *)
Lemma set_error_account l e : has_error l -> exists l', set_error l e = Some l' /\ (forall s, In (ScMaxSteps s) l <-> In (ScMaxSteps s) l') /\ existsb is_reported l' = true /\ has_error l' /\ (Forall library l -> Forall library l').
Proof.
  induction l as [|sc l IH]; intros (e0 & H); [destruct H|]. destruct sc; cbn [set_error].
  2: { eexists. split; [reflexivity|]. split; [intros s; split; (intros [X|X]; [discriminate X|right; exact X])|]. split; [reflexivity|]. split; [eexists; left; reflexivity|]. intros HL. inversion HL as [|? ? L1 L2]; subst. constructor; [exact I|exact L2]. }
  all: destruct H as [X|H]; [discriminate X|]; destruct (IH (ex_intro _ e0 H)) as (l' & -> & A & B & (e' & C) & D); eexists; (split; [reflexivity|]); (split; [intros s; split; (intros [X|X]; [left; exact X|right; now apply A])|]); (split; [cbn [existsb is_reported orb]; exact B|]); (split; [exists e'; right; exact C|]); intros HL; inversion HL as [|? ? L1 L2]; subst; constructor; auto.
Qed.
(** A step that does not throw is either counted, or reports an error. *)
Lemma m_step_account m i : sound m -> let m' := fst (m_step m i) in
  sound m' /\ (forall s, limited s m <-> limited s m') /\ (errored m = true -> errored m' = true) /\ (Forall library (o_scs (m_opt m)) -> Forall library (o_scs (m_opt m'))) /\
  ((steps_of m' = S (steps_of m) /\ errored m' = errored m) \/ (steps_of m' = steps_of m /\ errored m' = true) \/ (steps_of m' = steps_of m /\ errored m' = errored m /\ forall x, snd (m_step m i) <> Ok x)).
Proof.
  intros [KK KE]. pose proof (m_step_facts m i KK) as (_ & KK' & _). pose proof KK as [K _]. cbv zeta. unfold sound. unfold m_step, step in *. destruct (Nat.eqb _ 0).
  { cbn [fst snd m_with m_opt]. split; [split; [exact KK|exact KE]|]. split; [tauto|]. split; [auto|]. split; [auto|]. right. right. split; [reflexivity|]. split; [reflexivity|discriminate]. }
  set (o2 := {| o_core := o_core (m_opt m); o_scs := _; o_stopped := _; o_trace := _ |}) in *.
  pose proof (evaluate_step_facts (m_env m) o2 (si_pop i) (si_results i) K) as (K3 & _).
  assert (HE : let o3 := fst (evaluate_step (m_env m) o2 (si_pop i) (si_results i)) in
    c_steps (o_core o3) = c_steps (o_core (m_opt m)) /\ has_error (o_scs o3) /\ (forall s, limited s m <-> In (ScMaxSteps s) (o_scs o3)) /\ (Forall library (o_scs (m_opt m)) -> Forall library (o_scs o3)) /\
    match snd (evaluate_step (m_env m) o2 (si_pop i) (si_results i)) with Ok false => existsb is_reported (o_scs o3) = true | _ => o_scs o3 = o_scs (m_opt m) end).
  { unfold evaluate_step. destruct (too_many_errors _ _).
    - match goal with |- context [set_error (o_scs o2) ?e] => destruct (set_error_account (o_scs (m_opt m)) e KE) as (l' & EL & A & B & C & D); change (o_scs o2) with (o_scs (m_opt m)); rewrite EL end. cbn [fst snd o_core o_scs]. split; [reflexivity|]. split; [exact C|]. split; [exact A|]. split; [exact D|exact B].
    - cbv zeta. destruct (nth_error _ (find_best_fitness _ _)); [|cbn; split; [reflexivity|]; split; [exact KE|]; split; [intros s; reflexivity|]; auto]. destruct (nth_error (si_pop i) _); [|cbn; split; [reflexivity|]; split; [exact KE|]; split; [intros s; reflexivity|]; auto]. destruct (negb _); [cbn; split; [reflexivity|]; split; [exact KE|]; split; [intros s; reflexivity|]; auto|]. cbn [fst snd o_core o_scs].
      split; [|split; [exact KE|]; split; [intros s; reflexivity|]; auto]. unfold update_fitness_tracking. destruct (Nat.ltb 0 _); destruct (is_better _ _ _); reflexivity. }
  cbv zeta in HE. destruct (evaluate_step (m_env m) o2 (si_pop i) (si_results i)) as [o3 [ok|w|]]; cbn [fst snd] in *.
  - destruct HE as (E1 & E2 & E3 & E4 & E5). set (o5 := {| o_core := (if si_interrupt i then _ else _); o_scs := _; o_stopped := _; o_trace := _ |}) in *.
    assert (K5 : cache_ok (m_env m) (o_core o5)) by (unfold o5; cbn [o_core]; destruct ok, (si_interrupt i); exact K3).
    assert (S5 : c_steps (o_core o5) = if ok then S (steps_of m) else steps_of m) by (unfold o5, steps_of; cbn [o_core]; destruct ok, (si_interrupt i); cbn [c_steps with_steps with_interrupt]; rewrite E1; reflexivity).
    pose proof (test_stop_scs (m_env m) o5 K5) as HS. pose proof (test_stop_core (m_env m) o5 K5) as (HC & _). destruct (test_stop (m_env m) o5) as [o r]. cbn [fst snd m_with m_env m_opt] in *.
    assert (HL : Forall2 like (o_scs o3) (o_scs o)) by (eapply Forall2_impl'; [|exact HS]; intros a b [->| ->]; [apply like_refl|apply like_after]).
    destruct (like_all _ _ HL) as (A & B & C & D). apply (f_equal c_steps) in HC. change (c_steps (o_core o) = c_steps (o_core o5)) in HC. rewrite S5 in HC.
    unfold limited, errored, steps_of in *. cbn [m_opt m_with] in *.
    split; [split; [exact KK'|exact (C E2)]|]. split; [intros s; rewrite E3; apply A|]. destruct ok; cbn [negb] in *.
    + rewrite E5 in B, D. split; [intros X; now rewrite B|]. split; [exact D|]. left. split; [exact HC|exact B].
    + split; [intros _; now rewrite B|]. split; [auto|]. right. left. split; [exact HC|congruence].
  - destruct HE as (E1 & E2 & E3 & E4 & E5). unfold limited, errored, steps_of. cbn [m_opt m_with]. rewrite E5. split; [split; [exact KK'|exact KE]|]. split; [tauto|]. split; [auto|]. split; [auto|]. right. right. split; [exact E1|]. split; [reflexivity|discriminate].
  - destruct HE as (E1 & E2 & E3 & E4 & E5). unfold limited, errored, steps_of. cbn [m_opt m_with]. rewrite E5. split; [split; [exact KK'|exact KE]|]. split; [tauto|]. split; [auto|]. split; [auto|]. right. right. split; [exact E1|]. split; [reflexivity|discriminate].
Qed.

(** ** The account of a member: what it may still be stepped *)
(** With the step limit [s]: as often as there are steps left, but not at all after an error. *)
Definition budget (s : nat) (m : member) : nat := if errored m then 0 else s - steps_of m.
Lemma account_budget s m m' : sound m -> same_account m m' -> budget s m' = budget s m.
Proof. intros K H. destruct (H K) as (_ & _ & A & B & _). unfold budget. now rewrite A, B. Qed.
Lemma step_budget s m i : sound m -> budget s (fst (m_step m i)) <= budget s m /\ (forall x, snd (m_step m i) = Ok x -> 0 < budget s m -> budget s (fst (m_step m i)) < budget s m).
Proof.
  intros K. destruct (m_step_account m i K) as (_ & _ & A & _ & B). unfold budget. destruct B as [[B1 B2]|[[B1 B2]|(B1 & B2 & B3)]]; rewrite B1, B2.
  - destruct (errored m); split; [lia|intros; lia|lia|intros; lia].
  - split; [lia|]. intros x _ H. exact H.
  - split; [lia|]. intros x X. destruct (B3 x X).
Qed.
(** A member that is found not to have stopped can be stepped. *)
Lemma running_budget m m' s : sound m -> m_test m = (m', Ok None) -> errored m' = false /\ (limited s m -> 0 < budget s m').
Proof.
  intros K E. pose proof (m_test_account m K) as (_ & _ & A & B & _). rewrite E in A, B. cbn [fst] in A, B. destruct (m_test_none m m' E (proj1 K)) as (_ & _ & _ & _ & _ & F & _). rewrite Forall_forall in F.
  assert (NE : errored m = false).
  { unfold errored. apply not_true_is_false. intros X. apply existsb_exists in X as (sc & Hs & X). specialize (F sc Hs). destruct sc; cbn in X; try discriminate X. destruct e; [|discriminate X]. discriminate F. }
  split; [congruence|]. intros HL. unfold budget. rewrite A, B, NE. specialize (F _ HL). cbn in F. assert (X : Nat.leb s (steps_of m) = false) by (unfold steps_of; congruence). apply Nat.leb_gt in X. lia.
Qed.
Definition done_ok (r : option (outcome (option nat))) : bool := match r with Some (Ok _) => true | _ => false end.
(** The accounts while the members of the step are running *)
Definition paid (ms0 : list member) (fl : flight) : Prop :=
  forall i m0, nth_error ms0 i = Some m0 -> sound m0 -> exists m, nth_error (fst fl) i = Some m /\ sound m /\ (forall s, limited s m0 <-> limited s m) /\ (errored m0 = true -> errored m = true) /\
    (Forall library (o_scs (m_opt m0)) -> Forall library (o_scs (m_opt m))) /\ steps_of m0 <= steps_of m /\ steps_of m <= steps_of m0 + (if is_done i (snd fl) then 1 else 0) /\
    (is_done i (snd fl) = false -> errored m = errored m0) /\
    (forall s, budget s m <= budget s m0 /\ (done_ok (result_of i (snd fl)) = true -> 0 < budget s m0 -> budget s m < budget s m0)).
Lemma paid_accounts ms0 ms ms' d : paid ms0 (ms, d) -> accounts ms ms' -> paid ms0 (ms', d).
Proof.
  intros H HA i m0 E K0. destruct (H i m0 E K0) as (m & E1 & K & A & B & C & D & D' & Q & F). cbn [fst snd] in *. destruct (accounts_nth _ _ _ _ HA E1) as (m' & E2 & S). destruct (S K) as (K' & A' & S' & B' & C'). exists m'.
  split; [exact E2|]. split; [exact K'|]. split; [intros s; rewrite A; apply A'|]. split; [intros X; rewrite B'; auto|]. split; [auto|]. split; [lia|]. split; [lia|]. split; [intros X; rewrite B'; auto|]. intros s. rewrite (account_budget s m m' K S). apply F.
Qed.
Lemma result_not_done i d : is_done i d = false -> result_of i d = None.
Proof. unfold is_done. induction d as [|[j r] t IH]; cbn; [reflexivity|]. intros H. apply orb_false_iff in H as [H1 H2]. rewrite H1. auto. Qed.
Lemma paid_complete inp ms0 fl i : paid ms0 fl -> paid ms0 (complete inp fl i).
Proof.
  destruct fl as [ms d]. intros H. unfold complete. destruct (existsb (Nat.eqb i) (map fst d)) eqn:ED; [exact H|]. destruct (nth_error ms i) as [m|] eqn:Em; [|exact H].
  destruct (m_step m (inp i)) as [m' r] eqn:Es. intros j m0 E K0. destruct (H j m0 E K0) as (m1 & E1 & K & A & B & C & D & D' & Q & F). cbn [fst snd] in *. destruct (Nat.eq_dec j i) as [->|NE].
  - rewrite Em in E1. injection E1 as <-. unfold is_done in *. rewrite ED in D', Q. specialize (Q eq_refl). cbn [map fst existsb]. rewrite Nat.eqb_refl. cbn [orb result_of]. rewrite Nat.eqb_refl.
    pose proof (m_step_account m (inp i) K) as (K' & A' & B' & C' & CASES). pose proof (fun s => step_budget s m (inp i) K) as SB. rewrite Es in *. cbn [fst snd] in *. exists m'. split; [apply nth_error_list_set_eq; apply nth_error_Some; congruence|].
    split; [exact K'|]. split; [intros s; rewrite A; apply A'|]. split; [auto|]. split; [auto|]. split; [lia|]. split; [lia|]. split; [discriminate|]. intros s. destruct (SB s) as [S1 S2]. destruct (F s) as [F1 _]. split; [lia|]. intros X Hpos. destruct r as [x|w|]; try discriminate X.
    destruct (Nat.eq_dec (budget s m) 0) as [Z|Z]; [lia|]. specialize (S2 x eq_refl). lia.
  - rewrite nth_error_list_set_neq by congruence. exists m1. unfold is_done in *. cbn [map fst existsb result_of]. apply Nat.eqb_neq in NE. rewrite NE. cbn [orb]. auto 11.
Qed.
Lemma paid_completes inp ms0 l : forall fl, paid ms0 fl -> paid ms0 (fold_left (complete inp) l fl).
Proof. induction l as [|i l IH]; intros fl H; cbn [fold_left]; [exact H|]. apply IH, paid_complete, H. Qed.
Lemma complete_result inp fl i j x : result_of j (snd fl) = Some x -> result_of j (snd (complete inp fl i)) = Some x.
Proof.
  destruct fl as [ms d]. unfold complete. cbn [snd]. intros H. destruct (existsb (Nat.eqb i) (map fst d)) eqn:ED; [exact H|]. destruct (nth_error ms i); [|exact H]. destruct (m_step _ _) as [m' r]. cbn [snd result_of]. destruct (Nat.eqb_spec j i) as [->|NE]; [|exact H].
  rewrite (result_not_done i d ED) in H. discriminate H.
Qed.
Lemma completes_result inp l : forall fl j x, result_of j (snd fl) = Some x -> result_of j (snd (fold_left (complete inp) l fl)) = Some x.
Proof. induction l as [|i l IH]; intros fl j x H; cbn [fold_left]; [exact H|]. apply IH, complete_result, H. Qed.
Lemma collect_paid PE launched inp sched ms0 todo : incl todo launched -> forall k P d P' r,
  collect PE launched inp sched k P d todo = (P', Ok r) -> paid ms0 (po_members P, d) -> incl (map fst d) launched ->
  exists d', paid ms0 (po_members P', d') /\ (forall j x, result_of j d = Some x -> result_of j d' = Some x) /\ (forall j, In j todo -> done_ok (result_of j d') = true) /\ incl (map fst d') launched.
Proof.
  induction todo as [|i t IH]; intros HI k P d P' r E HP HD; cbn [collect] in E.
  - injection E as <- _. exists d. split; [exact HP|]. split; [auto|]. split; [intros j []|exact HD].
  - set (early := filter (fun j => existsb (Nat.eqb j) launched) (sched k) ++ [i]) in *.
    assert (HX : forall j, In j early -> In j launched). { intros j Hj. apply in_app_iff in Hj as [Hj|[<-|[]]]; [|apply HI; now left]. apply filter_In in Hj as [_ Hj]. now apply existsb_eqb in Hj. }
    pose proof (paid_completes inp ms0 early _ HP) as HP1. pose proof (completes_result inp early (po_members P, d)) as HR. pose proof (completes_done inp early (po_members P, d)) as HD1.
    destruct (fold_left (complete inp) early (po_members P, d)) as [ms d1] eqn:EF. cbn [fst snd] in *.
    destruct (result_of i d1) as [[x|w|]|] eqn:ER; try discriminate E. pose proof (absorb_accounts PE (with_members P ms) i) as HA. destruct (absorb_member PE (with_members P ms) i) as [P2 [u|w|]] eqn:EA; try discriminate E. cbn [fst with_members po_members] in HA.
    assert (HP2 := paid_accounts _ _ _ _ HP1 HA). assert (HD2 : incl (map fst d1) launched) by (intros j Hj; apply HD1 in Hj as [Hj|Hj]; [apply HX, Hj|apply HD, Hj]).
    destruct (IH (fun j Hj => HI j (or_intror Hj)) (S k) P2 d1 P' r E HP2 HD2) as (d' & A & B & C & D). exists d'. split; [exact A|]. split; [auto|]. split; [|exact D]. intros j [<-|Hj]; [rewrite (B _ _ ER); reflexivity|auto].
Qed.

(** ** One step of the pool *)
(** Who is in the queue can be stepped. *)
Definition queued_ok (P : pool) : Prop :=
  forall i m, In i (po_queue P) -> nth_error (po_members P) i = Some m -> errored m = false /\ forall s, limited s m -> 0 < budget s m.
Lemma fill_queued PE preds order : forall ms q ms' q', NoDup order -> Forall sound ms -> fill PE preds ms order q = (ms', q', Ok tt) ->
  (forall i, ~ In i order -> nth_error ms' i = nth_error ms i) /\
  forall i m, In i q' -> ~ In i q -> nth_error ms' i = Some m -> errored m = false /\ forall s, limited s m -> 0 < budget s m.
Proof.
  induction order as [|i t IH]; intros ms q ms' q' HN HK E; cbn [fill] in E; [injection E as <- <-; split; [reflexivity|intros i m A B; contradiction]|].
  inversion HN as [|? ? N1 N2]; subst. destruct (nth_error ms i) as [m|] eqn:Em; [|discriminate E]. assert (LI : i < length ms) by (apply nth_error_Some; congruence). pose proof (Forall_nth _ _ _ _ HK Em) as K.
  pose proof (m_test_account m) as HA. pose proof (fun m' s => running_budget m m' s K) as HR. destruct (m_test m) as [m' [[k|]|w|]] eqn:ET; try discriminate E.
  - injection E as <- <-. split; [intros j Hj; apply nth_error_list_set_neq; intros ->; apply Hj; now left|]. intros j mj A B; contradiction.
  - cbn [fst] in HA. destruct (HA K) as (K' & L' & S' & B' & _).
    assert (GOOD : errored m' = false /\ forall s, limited s m' -> 0 < budget s m').
    { split; [apply (HR m' 0 eq_refl)|]. intros s Hs. destruct (HR m' s eq_refl) as [_ X]. apply X. now apply L'. }
    match type of E with (if ?b then _ else _) = _ => destruct b end.
    + injection E as <- <-. split; [intros j Hj; apply nth_error_list_set_neq; intros ->; apply Hj; now left|]. intros j mj A B C. apply in_app_iff in A as [A|[<-|[]]]; [contradiction|]. rewrite nth_error_list_set_eq in C by exact LI. injection C as <-. exact GOOD.
    + assert (HK1 : Forall sound (list_set ms i m')) by (apply Forall_list_set; [exact HK|exact K']). destruct (IH _ _ _ _ N2 HK1 E) as [H1 H2]. split.
      * intros j Hj. rewrite H1 by (intros X; apply Hj; now right). apply nth_error_list_set_neq. intros ->. apply Hj. now left.
      * intros j mj A B C. destruct (Nat.eq_dec j i) as [->|NE].
        -- rewrite (H1 i N1), nth_error_list_set_eq in C by exact LI. injection C as <-. exact GOOD.
        -- apply (H2 j mj A); [|exact C]. intros X. apply in_app_iff in X as [X|[X|[]]]; [contradiction|]. congruence.
Qed.
Lemma refill_queued PE P P1 : sorts (pe_sort PE) -> Forall sound (po_members P) -> queued_ok P -> refill PE P = (P1, Ok tt) -> queued_ok P1.
Proof.
  intros HS HK HQ E. unfold refill in E. destruct (po_queue P) as [|h q0] eqn:EQ; [|injection E as <-; exact HQ].
  pose proof (predictions_length PE (po_members P) 0) as HP. pose proof (predictions_accounts PE (po_members P) 0) as HA. destruct (predictions PE 0 (po_members P)) as [ms [preds|w|]]; try discriminate E. cbn [fst snd] in *. specialize (HP preds eq_refl).
  destruct (existsb fisnan preds) eqn:EN; [discriminate E|]. pose proof (C47_order_is_best_first (pe_sort PE) (e_info (pe_env PE)) preds HS (nan_free _ EN)) as [PM _]. cbn zeta in PM. set (order := sorted_indices (pe_sort PE) (is_better (e_info (pe_env PE))) preds) in *.
  assert (HN : NoDup order) by (eapply Permutation_NoDup; [apply Permutation_sym, PM|apply seq_NoDup]).
  destruct (fill PE preds ms order []) as [[ms' q] r] eqn:EF. destruct r as [[]|w|]; try discriminate E. cbn [obind] in E. destruct (_ && _); [discriminate E|]. injection E as <-.
  destruct (fill_queued PE preds order ms [] ms' q HN (accounts_sound _ _ HA HK) EF) as [_ H]. intros i m Hi Em. cbn [with_queue with_members po_queue po_members] in *. apply (H i m Hi); [intros []|exact Em].
Qed.
(** All there is to say about a step of the pool that returns normally *)
Lemma step_accounts PE ever P inp P' x : sorts (pe_sort PE) -> pool_inv PE ever P -> Forall sound (po_members P) -> queued_ok P -> pool_step PE P inp = (P', Ok x) ->
  Forall sound (po_members P') /\ queued_ok P' /\ length (po_members P') = length (po_members P) /\
  forall i m, nth_error (po_members P) i = Some m -> exists m', nth_error (po_members P') i = Some m' /\
    (forall s, limited s m <-> limited s m') /\ (errored m = true -> errored m' = true) /\ (Forall library (o_scs (m_opt m)) -> Forall library (o_scs (m_opt m'))) /\
    steps_of m <= steps_of m' /\ steps_of m' <= steps_of m + times i (launches PE P) /\ (errored m = true -> ~ In i (launches PE P)) /\
    (forall s, limited s m -> budget s m' + times i (launches PE P) <= budget s m).
Proof.
  intros HS HI HK HQ E. pose proof E as E0. unfold pool_step in E. destruct (Nat.eqb (oi_dim (e_info (pe_env PE))) 0) eqn:ED; [discriminate E|]. apply Nat.eqb_neq in ED.
  pose proof (pool_step_inv PE ever P inp P' (Ok x) HS HI ED E0 ltac:(discriminate)) as (HNL & _ & _ & _ & _ & _ & HQ'). destruct (HQ' x eq_refl) as (HI' & EQ' & _). clear HQ'.
  set (P2 := psignal PE EPreStep (if Nat.eqb (c_steps (po_base P)) 0 then psignal PE EStart P else P)) in *.
  assert (ER : exists tr, refill PE P2 = (with_trace (fst (refill PE P)) tr, snd (refill PE P))).
  { unfold P2, psignal. destruct (Nat.eqb _ 0); rewrite !refill_trace; eexists; reflexivity. }
  assert (EM : po_members P2 = po_members P) by (unfold P2; destruct (Nat.eqb _ 0); reflexivity).
  clearbody P2. destruct ER as (tr & ER). destruct (pool_internal_step PE P2 (pi_inputs inp) (pi_sched inp)) as [P3 [ok|w|]] eqn:EI; try discriminate E.
  unfold pool_internal_step in EI. rewrite EM in EI. destruct (po_members P) as [|m00 mt] eqn:EMP; [discriminate EI|]. rewrite <- EMP in *. clear EMP m00 mt. rewrite ER in EI.
  pose proof (refill_accounts PE P) as HA1. pose proof (refill_queued PE P (fst (refill PE P)) HS HK HQ) as HQ1. unfold launches in *. destruct (refill PE P) as [P1 [[]|w|]] eqn:RE; cbn [fst snd] in *; try discriminate EI. specialize (HQ1 eq_refl). assert (RQ : po_queue (fst (refill PE P)) = po_queue P1) by (rewrite RE; reflexivity).
  cbn [with_trace po_queue] in EI. set (L := firstn (pe_concurrent PE) (po_queue P1)) in *.
  match type of EI with context [collect PE L _ _ 0 ?Q [] L] => set (PQ := Q) in * end. destruct (collect PE L (pi_inputs inp) (pi_sched inp) 0 PQ [] L) as [P3' [u|w|]] eqn:EC; try discriminate EI. cbn [obind] in EI. injection EI as -> _.
  assert (HP0 : paid (po_members P1) (po_members PQ, [])). { intros i m0 E1 K0. exists m0. cbn [fst snd]. split; [exact E1|]. split; [exact K0|]. split; [tauto|]. split; [auto|]. split; [auto|]. split; [lia|]. split; [lia|]. split; [auto|]. intros s. split; [lia|discriminate]. }
  destruct (collect_paid PE L (pi_inputs inp) (pi_sched inp) (po_members P1) L (incl_refl L) 0 PQ [] P3 u EC HP0 (incl_nil_l L)) as (d & HP & _ & HD & HDL).
  set (P6 := if pi_interrupt inp then _ else _) in E.
  assert (HA6 : accounts (po_members P3) (po_members P6)) by (unfold P6; destruct ok, (pi_interrupt inp); try apply accounts_interrupt; apply accounts_refl).
  pose proof (pool_test_accounts PE P6) as HA7. rewrite E in HA7. cbn [fst] in HA7. pose proof (accounts_trans _ _ _ HA6 HA7) as HA. clear HA6 HA7. clearbody P6.
  assert (HK1 := accounts_sound _ _ HA1 HK).
  assert (ISD : forall i, is_done i d = existsb (Nat.eqb i) L).
  { intros i. apply eq_true_iff_eq. unfold is_done. rewrite !existsb_eqb. split; [apply HDL|]. intros X. specialize (HD i X). destruct (result_of i d) eqn:EX; [|discriminate HD]. destruct (is_done i d) eqn:EY; [now apply existsb_eqb in EY|]. rewrite (result_not_done i d EY) in EX. discriminate EX. }
  assert (MAIN : forall i m, nth_error (po_members P) i = Some m -> exists m', nth_error (po_members P') i = Some m' /\ sound m' /\
    (forall s, limited s m <-> limited s m') /\ (errored m = true -> errored m' = true) /\ (Forall library (o_scs (m_opt m)) -> Forall library (o_scs (m_opt m'))) /\
    steps_of m <= steps_of m' /\ steps_of m' <= steps_of m + times i L /\ (errored m = true -> ~ In i L) /\ (~ In i L -> errored m' = errored m) /\
    (forall s, limited s m -> budget s m' + times i L <= budget s m)).
  { intros i m Em. pose proof (Forall_nth _ _ _ _ HK Em) as K. destruct (accounts_nth _ _ _ _ HA1 Em) as (m1 & E1 & S1). destruct (S1 K) as (K1 & L1 & ST1 & ER1 & LB1).
    destruct (HP i m1 E1 K1) as (m2 & E2 & K2 & L2 & ER2 & LB2 & ST2 & ST2' & NE2 & BU2). cbn [fst snd] in *. rewrite ISD in ST2', NE2. destruct (accounts_nth _ _ _ _ HA E2) as (m3 & E3 & S3). destruct (S3 K2) as (K3 & L3 & ST3 & ER3 & LB3).
    exists m3. split; [exact E3|]. split; [exact K3|]. split; [intros s; rewrite L1, L2; apply L3|]. split; [intros X; rewrite ER3; apply ER2; congruence|]. split; [auto|]. split; [lia|].
    assert (TI : times i L = if existsb (Nat.eqb i) L then 1 else 0).
    { destruct (existsb (Nat.eqb i) L) eqn:EX; [apply existsb_eqb in EX; now apply times_one|]. unfold times. apply count_occ_not_In. intros X. apply existsb_eqb in X. congruence. }
    split; [rewrite TI; lia|].
    assert (QI : In i L -> errored m1 = false /\ forall s, limited s m1 -> 0 < budget s m1) by (intros X; apply (HQ1 i m1); [apply (firstn_incl _ _ _ X)|exact E1]).
    split; [intros X Y; destruct (QI Y) as [Z _]; congruence|]. split.
    { intros X. assert (EX : existsb (Nat.eqb i) L = false) by (apply not_true_is_false; intros Y; apply existsb_eqb in Y; contradiction). rewrite ER3, (NE2 EX). exact ER1. }
    intros s HLs. rewrite TI, (account_budget s m2 m3 K2 S3), <- (account_budget s m m1 K S1). destruct (BU2 s) as [B1 B2]. destruct (existsb (Nat.eqb i) L) eqn:EX; [|lia]. apply existsb_eqb in EX. destruct (QI EX) as [_ QB]. specialize (B2 (HD i EX) (QB s (proj1 (L1 s) HLs))). lia. }
  assert (LEN : length (po_members P') = length (po_members P)).
  { pose proof (exec_queue PE ever P (PoStep inp) P' HS HI) as X. cbn [pool_exec] in X. rewrite E0 in X. apply X. reflexivity. }
  split; [|split; [|split; [exact LEN|]]].
  - apply Forall_forall. intros m' Hm. apply In_nth_error in Hm as (i & Ei). destruct (nth_error (po_members P) i) as [m|] eqn:Em; [|apply nth_error_None in Em; assert (i < length (po_members P')) by (apply nth_error_Some; congruence); lia].
    destruct (MAIN i m Em) as (m2 & E2 & K2 & _). rewrite Ei in E2. injection E2 as <-. exact K2.
  - intros i m' Hi Em'. rewrite EQ' in Hi.
    assert (NI : ~ In i L).
    { intros X. pose proof (refill_queue PE P HS (proj1 HI)) as [ND _]. rewrite RQ in ND. rewrite <- (firstn_skipn (pe_concurrent PE)) in ND. fold L in ND. clear - ND X Hi. induction L as [|a L IH]; [destruct X|]. cbn [app] in ND. inversion ND as [|? ? N1 N2]; subst. destruct X as [->|X]; [apply N1, in_app_iff; now right|auto]. }
    destruct (nth_error (po_members P) i) as [m|] eqn:Em; [|apply nth_error_None in Em; assert (i < length (po_members P')) by (apply nth_error_Some; congruence); lia].
    destruct (accounts_nth _ _ _ _ HA1 Em) as (m1 & E1 & S1). pose proof (Forall_nth _ _ _ _ HK Em) as K. destruct (S1 K) as (K1 & L1 & ST1 & ER1 & LB1). destruct (HQ1 i m1 (skipn_incl _ _ _ Hi) E1) as [Q1 Q2].
    destruct (MAIN i m Em) as (m2 & E2 & _ & A1 & _ & _ & A4 & A5 & _ & A6 & _). rewrite Em' in E2. injection E2 as <-. split; [rewrite (A6 NI); congruence|].
    intros s Hs. assert (T0 : times i L = 0) by (now apply count_occ_not_In). rewrite T0 in A5. apply A1, L1 in Hs. specialize (Q2 s Hs). unfold budget in *. rewrite (A6 NI). rewrite ER1 in Q2. destruct (errored m); lia.
  - intros i m Em. destruct (MAIN i m Em) as (m' & A0 & _ & A1 & A2 & A3 & A4 & A5 & A6 & _ & A7). exists m'. auto 11.
Qed.

(** ** Any number of calls *)
Definition joined (PE : pool_env) (m : member) : member :=
  let m1 := m_window m (pe_window PE) in
  if pe_use_predicted PE then m_with m1 (add_stop_condition (m_opt m1) (ScPredicted fzero (worst_fitness (e_info (pe_env PE))) (pe_look PE) (pe_start PE))) else m1.
Lemma pool_of_joined PE ms conds : po_members (pool_of PE ms conds) = map (joined PE) ms.
Proof.
  unfold pool_of. destruct (conds_frame conds (fold_left (push_back PE) ms (new_pool PE))) as (-> & _).
  assert (H : forall P, po_members (fold_left (push_back PE) ms P) = po_members P ++ map (joined PE) ms); [|apply (H (new_pool PE))].
  induction ms as [|m ms IH]; intros P; cbn [fold_left map]; [now rewrite app_nil_r|]. rewrite IH. unfold push_back at 1. cbn [with_members po_members]. now rewrite <- app_assoc.
Qed.
Lemma joined_account PE m : joinable PE m -> let m' := joined PE m in sound m' /\ (forall s, limited s m <-> limited s m') /\ steps_of m' = steps_of m /\ errored m' = errored m /\ (Forall library (o_scs (m_opt m)) -> Forall library (o_scs (m_opt m'))).
Proof.
  intros HJ. cbv zeta. assert (KM : member_ok (joined PE m)).
  { destruct (push_all PE [m] (new_pool PE) (Forall_nil _) (Forall_cons _ HJ (Forall_nil _))) as (A & _). cbn [fold_left] in A. unfold push_back in A. cbn [with_members po_members new_pool app] in A. inversion A as [|? ? [B _] _]; subst. exact B. }
  destruct HJ as (D & _ & extra & h & W & EO). pose proof (after_inv (m_env m) extra h D W) as [_ HE _]. rewrite <- EO in HE.
  unfold sound. split; [split; [exact KM|]|]; unfold joined, m_window, limited, steps_of, errored; destruct (pe_use_predicted PE); cbn [m_with m_opt with_core o_scs add_stop_condition].
  - destruct HE as (e & He). exists e. apply in_app_iff. now left.
  - exact HE.
  - split; [|split; [|split]].
    + intros s. rewrite in_app_iff. split; [auto|]. intros [X|[X|[]]]; [exact X|discriminate X].
    + unfold add_stop_condition. cbn [m_with m_opt o_core with_core]. match goal with |- context [if ?b then _ else _] => destruct b end; reflexivity.
    + rewrite existsb_app. cbn. now rewrite orb_false_r.
    + intros HL. apply Forall_app. split; [exact HL|]. constructor; [exact I|constructor].
  - split; [tauto|]. auto.
Qed.
(** What a pool keeps, besides [pool_inv] *)
Definition orderly_pool (P : pool) : Prop := Forall sound (po_members P) /\ queued_ok P.
Lemma pool_of_orderly PE ms conds : Forall (joinable PE) ms -> orderly_pool (pool_of PE ms conds).
Proof.
  intros HJ. split; [rewrite pool_of_joined; apply Forall_forall; intros m' Hm; apply in_map_iff in Hm as (m & <- & Hm); rewrite Forall_forall in HJ; apply (joined_account PE m (HJ m Hm))|].
  intros i m Hi. rewrite new_queue in Hi. destruct Hi.
Qed.
Lemma looked_orderly P P' : orderly_pool P -> accounts (po_members P) (po_members P') -> po_queue P' = po_queue P -> orderly_pool P'.
Proof.
  intros [HK HQ] HA EQ. split; [eapply accounts_sound; eassumption|]. intros i m' Hi Em'. rewrite EQ in Hi. destruct (accounts_nth_back _ _ _ _ HA Em') as (m & Em & S). pose proof (Forall_nth _ _ _ _ HK Em) as K. destruct (S K) as (_ & L & _ & ER & _). destruct (HQ i m Hi Em) as [A B].
  split; [congruence|]. intros s Hs. rewrite (account_budget s m m' K S). now apply B, L.
Qed.
Lemma exec_accounts PE ever P a P' : sorts (pe_sort PE) -> pool_inv PE ever P -> orderly_pool P -> pool_exec PE P a = (P', Ok tt) ->
  let L := match a with PoStep _ => launches PE P | _ => [] end in
  orderly_pool P' /\ length (po_members P') = length (po_members P) /\
  forall i m, nth_error (po_members P) i = Some m -> exists m', nth_error (po_members P') i = Some m' /\
    (forall s, limited s m <-> limited s m') /\ (errored m = true -> errored m' = true) /\ (Forall library (o_scs (m_opt m)) -> Forall library (o_scs (m_opt m'))) /\
    steps_of m <= steps_of m' /\ steps_of m' <= steps_of m + times i L /\ (errored m = true -> ~ In i L) /\
    (forall s, limited s m -> budget s m' + times i L <= budget s m).
Proof.
  intros HS HI HO E. cbv zeta. pose proof (exec_queue PE ever P a P' HS HI E) as [EQ EL].
  assert (QUIET : accounts (po_members P) (po_members P') -> po_queue P' = po_queue P -> orderly_pool P' /\ length (po_members P') = length (po_members P) /\
    forall i m, nth_error (po_members P) i = Some m -> exists m', nth_error (po_members P') i = Some m' /\
    (forall s, limited s m <-> limited s m') /\ (errored m = true -> errored m' = true) /\ (Forall library (o_scs (m_opt m)) -> Forall library (o_scs (m_opt m'))) /\
    steps_of m <= steps_of m' /\ steps_of m' <= steps_of m + times i [] /\ (errored m = true -> ~ In i []) /\ (forall s, limited s m -> budget s m' + times i [] <= budget s m)).
  { intros HA HQ. split; [eapply looked_orderly; eassumption|]. split; [exact EL|]. intros i m Em. destruct (accounts_nth _ _ _ _ HA Em) as (m' & Em' & S). pose proof (Forall_nth _ _ _ _ (proj1 HO) Em) as K. destruct (S K) as (_ & A & B & C & D).
    exists m'. split; [exact Em'|]. split; [exact A|]. split; [congruence|]. split; [exact D|]. split; [lia|]. split; [lia|]. split; [intros _ []|]. intros s _. rewrite (account_budget s m m' K S). cbn. lia. }
  destruct a as [inp| |]; cbn [pool_exec] in E.
  - destruct (pool_step PE P inp) as [Q r] eqn:ES. destruct r as [x|w|]; cbn [obind] in E; try discriminate E. injection E as ->. destruct (step_accounts PE ever P inp P' x HS HI (proj1 HO) (proj2 HO) ES) as (A & B & C & D). split; [split; assumption|]. split; assumption.
  - injection E as <-. apply QUIET; [apply accounts_interrupt|reflexivity].
  - pose proof (pool_test_accounts PE P) as HA. destruct (pool_test PE P) as [Q r]. destruct r as [x|w|]; cbn [obind] in E; try discriminate E. injection E as ->. apply QUIET; assumption.
Qed.
Lemma history_accounts PE P ops L P' : sorts (pe_sort PE) -> history PE P ops L P' -> forall ever, pool_inv PE ever P -> orderly_pool P ->
  orderly_pool P' /\ length (po_members P') = length (po_members P) /\
  forall i m, nth_error (po_members P) i = Some m -> exists m', nth_error (po_members P') i = Some m' /\
    (forall s, limited s m <-> limited s m') /\ (errored m = true -> errored m' = true /\ ~ In i L) /\ (Forall library (o_scs (m_opt m)) -> Forall library (o_scs (m_opt m'))) /\
    steps_of m <= steps_of m' /\ steps_of m' <= steps_of m + times i L /\
    (forall s, limited s m -> budget s m' + times i L <= budget s m).
Proof.
  intros HS H. induction H as [P|P a P1 ops L P2 E H IH]; intros ever HI HO.
  - split; [exact HO|]. split; [reflexivity|]. intros i m Em. exists m. split; [exact Em|]. split; [tauto|]. split; [intros X; split; [exact X|intros []]|]. split; [auto|]. split; [lia|]. split; [lia|]. intros s _. cbn. lia.
  - destruct (exec_accounts PE ever P a P1 HS HI HO E) as (O1 & E1 & M1). destruct (exec_inv PE ever P a P1 HS HI E) as [I1 _]. destruct (IH _ I1 O1) as (O2 & E2 & M2). split; [exact O2|]. split; [congruence|]. intros i m Em.
    destruct (M1 i m Em) as (m1 & Em1 & A1 & A2 & A3 & A4 & A5 & A6 & A7). destruct (M2 i m1 Em1) as (m2 & Em2 & B1 & B2 & B3 & B4 & B5 & B6). exists m2. split; [exact Em2|]. rewrite times_app. split; [intros s; rewrite A1; apply B1|].
    split; [intros X; split; [now apply B2, A2|]; rewrite in_app_iff; intros [Y|Y]; [now apply (proj2 (B2 (A2 X)))|now apply (A6 X)]|]. split; [auto|]. split; [lia|]. split; [lia|]. intros s Hs. specialize (A7 s Hs). apply A1 in Hs. specialize (B6 s Hs). lia.
Qed.

(** ** C79: limits *)
(** A member that joins a pool with a step limit is, in every history of the pool, stepped at
    most as often as it had steps left (not at all if it had none), keeps its limit, and never goes past it. *)
Theorem C79_step_limit : forall PE ms conds ops L P i m s, sorts (pe_sort PE) -> Forall (joinable PE) ms -> history PE (pool_of PE ms conds) ops L P ->
  nth_error ms i = Some m -> In (ScMaxSteps s) (o_scs (m_opt m)) ->
  times i L <= s - c_steps (o_core (m_opt m)) /\
  exists m', nth_error (po_members P) i = Some m' /\ In (ScMaxSteps s) (o_scs (m_opt m')) /\ c_steps (o_core (m_opt m')) <= Nat.max s (c_steps (o_core (m_opt m))).
Proof.
  intros PE ms conds ops L P i m s HS HJ H Em HL. pose proof (Forall_nth _ _ _ _ HJ Em) as J. destruct (joined_account PE m J) as (_ & JL & JS & _).
  assert (E0 : nth_error (po_members (pool_of PE ms conds)) i = Some (joined PE m)) by (rewrite pool_of_joined; now apply map_nth_error).
  destruct (history_accounts PE _ _ _ _ HS H [] (proj1 (pool_of_inv PE ms conds HJ)) (pool_of_orderly PE ms conds HJ)) as (_ & _ & M). destruct (M i _ E0) as (m' & Em' & A1 & _ & _ & A4 & A5 & A6). unfold limited, steps_of in *.
  specialize (A6 s (proj1 (JL s) HL)). assert (TB : times i L <= s - c_steps (o_core (m_opt m))). { rewrite <- JS. unfold budget, steps_of in A6. destruct (errored (joined PE m)); lia. }
  split; [exact TB|]. exists m'. split; [exact Em'|]. split; [now apply A1, JL|]. rewrite JS in A5. lia.
Qed.
(** A member whose error condition holds an error is never stepped again. *)
Theorem C79_after_error : forall PE ms conds ops L P ops2 L2 P2 i m e, sorts (pe_sort PE) -> Forall (joinable PE) ms -> history PE (pool_of PE ms conds) ops L P ->
  nth_error (po_members P) i = Some m -> In (ScError (Some e)) (o_scs (m_opt m)) -> history PE P ops2 L2 P2 ->
  ~ In i L2 /\ exists m', nth_error (po_members P2) i = Some m' /\ c_steps (o_core (m_opt m')) = c_steps (o_core (m_opt m)).
Proof.
  intros PE ms conds ops L P ops2 L2 P2 i m e HS HJ H Em HE H2. pose proof (proj1 (pool_of_inv PE ms conds HJ)) as HI. destruct (history_accounts PE _ _ _ _ HS H [] HI (pool_of_orderly PE ms conds HJ)) as (HO & _). destruct (history_inv _ _ _ _ _ HS H [] HI) as [I1 _].
  destruct (history_accounts PE _ _ _ _ HS H2 _ I1 HO) as (_ & _ & M). destruct (M i m Em) as (m' & Em' & _ & A2 & _ & A4 & A5 & _). assert (ER : errored m = true) by (apply existsb_exists; exists (ScError (Some e)); split; [exact HE|reflexivity]). destruct (A2 ER) as [_ NI].
  split; [exact NI|]. exists m'. split; [exact Em'|]. assert (times i L2 = 0) by (now apply count_occ_not_In). unfold steps_of in *. lia.
Qed.

(** ** C79: the end *)
Fixpoint budgets (lims : list nat) (ms : list member) : nat :=
  match lims, ms with s :: l, m :: t => budget s m + budgets l t | _, _ => 0 end.
Lemma budgets_le lims : forall ms ms', length ms' = length ms ->
  (forall i s m, nth_error lims i = Some s -> nth_error ms i = Some m -> exists m', nth_error ms' i = Some m' /\ budget s m' <= budget s m) -> budgets lims ms' <= budgets lims ms.
Proof.
  induction lims as [|s l IH]; intros ms ms' EL H; [cbn; lia|]. destruct ms as [|m t], ms' as [|m' t']; try discriminate EL; [cbn; lia|]. cbn [budgets].
  destruct (H 0 s m eq_refl eq_refl) as (x & Ex & B). injection Ex as <-. specialize (IH t t' (f_equal pred EL) (fun i => H (S i))). lia.
Qed.
Lemma budgets_lt lims : forall ms ms' j s0 m0 m0', length ms' = length ms ->
  (forall i s m, nth_error lims i = Some s -> nth_error ms i = Some m -> exists m', nth_error ms' i = Some m' /\ budget s m' <= budget s m) ->
  nth_error lims j = Some s0 -> nth_error ms j = Some m0 -> nth_error ms' j = Some m0' -> budget s0 m0' < budget s0 m0 -> budgets lims ms' < budgets lims ms.
Proof.
  induction lims as [|s l IH]; intros ms ms' j s0 m0 m0' EL H E1 E2 E3 LT; [destruct j; discriminate E1|]. destruct ms as [|m t], ms' as [|m' t']; try discriminate EL; [destruct j; discriminate E2|]. cbn [budgets].
  destruct (H 0 s m eq_refl eq_refl) as (x & Ex & B). injection Ex as <-. destruct j as [|j]; cbn [nth_error] in E1, E2, E3.
  - injection E1 as <-. injection E2 as <-. injection E3 as <-. pose proof (budgets_le l t t' (f_equal pred EL) (fun i => H (S i))). lia.
  - specialize (IH t t' j s0 m0 m0' (f_equal pred EL) (fun i => H (S i)) E1 E2 E3 LT). lia.
Qed.
Definition limits (lims : list nat) (ms : list member) : Prop := Forall2 (fun s m => limited s m) lims ms.
Lemma limits_nth lims ms i m : limits lims ms -> nth_error ms i = Some m -> exists s, nth_error lims i = Some s /\ limited s m.
Proof. intros H. revert i. induction H as [|s x l t Hx H IH]; intros [|i] E; try discriminate E; cbn in *; [injection E as <-; eauto|eauto]. Qed.
Lemma limits_nth' lims ms i s : limits lims ms -> nth_error lims i = Some s -> exists m, nth_error ms i = Some m /\ limited s m.
Proof. intros H. revert i. induction H as [|x m l t Hx H IH]; intros [|i] E; try discriminate E; cbn in *; [injection E as <-; eauto|eauto]. Qed.
Lemma limits_intro lims ms : length lims = length ms -> (forall i s m, nth_error lims i = Some s -> nth_error ms i = Some m -> limited s m) -> limits lims ms.
Proof. revert ms. induction lims as [|s l IH]; intros [|m t] EL H; try discriminate EL; constructor; [exact (H 0 s m eq_refl eq_refl)|]. apply IH; [now injection EL|]. intros i. exact (H (S i)). Qed.
(** As long as there is room, the first member that is found not to have stopped is a candidate. *)
Lemma predictions_running PE ms a ms' preds : Forall sound ms -> a < pe_active PE -> predictions PE a ms = (ms', Ok preds) ->
  Forall (fun m => m_stopped m = true) ms' \/
  exists i m, nth_error ms i = Some m /\ (forall s, limited s m -> steps_of m < s) /\ (steps_of m < pe_start PE -> nth_error preds i = Some (best_fitness_value (e_info (pe_env PE)))).
Proof.
  revert ms' preds. induction ms as [|m t IH]; intros ms' preds HK HA E; cbn [predictions] in E; [injection E as <- <-; left; constructor|]. inversion HK as [|? ? K1 K2]; subst.
  destruct (Nat.ltb_spec a (pe_active PE)) as [_|X]; [|lia]. pose proof (m_test_account m K1) as (_ & _ & A & B & _). pose proof (fun m1 s => running_budget m m1 s K1) as HR. pose proof (m_test_latch m) as HL. destruct (m_test m) as [m1 [[k|]|w|]]; try discriminate E; cbn [fst] in *.
  - destruct (predictions PE a t) as [t' [l|w|]] eqn:EP; try discriminate E. injection E as <- <-. destruct (IH t' l K2 HA eq_refl) as [F|(i & m0 & E0 & R)]; [left|right; exists (S i), m0; split; [exact E0|exact R]].
    constructor; [|exact F]. specialize (HL m1 (Some k) eq_refl). destruct (m_stopped m1); [reflexivity|]. assert (Some k = None) by (apply HL; reflexivity). discriminate.
  - right. exists 0, m. split; [reflexivity|].
    set (pr := if Nat.leb (pe_start PE) (c_steps (o_core (m_opt m1))) then m_predict m1 (pe_look PE) else (m1, Ok (best_fitness_value (e_info (pe_env PE))))) in E.
    assert (HP : steps_of m < pe_start PE -> snd pr = Ok (best_fitness_value (e_info (pe_env PE)))). { intros X. unfold pr. rewrite <- A in X. unfold steps_of in X. destruct (Nat.leb_spec (pe_start PE) (c_steps (o_core (m_opt m1)))); [lia|reflexivity]. }
    destruct pr as [m2 [y|w|]]; try discriminate E. destruct (predictions PE (S a) t) as [t' [l|w|]] eqn:EP; try discriminate E. injection E as <- <-. split.
    + intros s Hs. destruct (HR m1 s eq_refl) as [NE X]. specialize (X Hs). unfold budget in X. rewrite NE, A in X. lia.
    + intros X. specialize (HP X). cbn [snd nth_error] in *. congruence.
Qed.
(** If a step of the pool starts nobody, although no member is predicted, then everybody has stopped. *)
Lemma nobody_left PE ever P inp P' x lims : sorts (pe_sort PE) -> pool_inv PE ever P -> orderly_pool P -> Forall (fun m => Forall library (o_scs (m_opt m))) (po_members P) ->
  limits lims (po_members P) -> Forall (fun s => s <= pe_start PE) lims -> 0 < pe_active PE -> 0 < pe_concurrent PE ->
  pool_step PE P inp = (P', Ok x) -> launches PE P = [] -> Forall (fun m => m_stopped m = true) (po_members (fst (refill PE P))).
Proof.
  intros HS HI HO HLib HL HST HA HC E EL. destruct (pool_step_from_refill PE ever P inp P' x HS HI E) as [ER _].
  assert (EQ : po_queue P = []). { destruct (po_queue P) as [|h q] eqn:EQ; [reflexivity|]. unfold launches, refill in EL. rewrite EQ in EL. rewrite EQ in EL. destruct (pe_concurrent PE); [lia|discriminate EL]. }
  assert (HK := inv_ok _ _ _ HI).
  destruct (predictions PE 0 (po_members P)) as [ms [preds|w|]] eqn:EP.
  2: { unfold refill in ER. rewrite EQ, EP in ER. discriminate ER. }
  2: { unfold refill in ER. rewrite EQ, EP in ER. discriminate ER. }
  pose proof (predictions_running PE (po_members P) 0 ms preds (proj1 HO) HA EP) as RUN. pose proof (predictions_looked PE (po_members P) 0) as HPL. rewrite EP in HPL. cbn [fst] in HPL.
  assert (ALL : Forall (fun m => m_stopped m = true) ms).
  { destruct RUN as [X|(i & m & Em & R1 & R2)]; [exact X|exfalso].
    destruct (limits_nth _ _ _ _ HL Em) as (s & Es & Hs). pose proof (Forall_nth _ _ _ _ HST Es) as LE. cbn beta in LE. specialize (R1 s Hs). specialize (R2 ltac:(lia)).
    exact (C50_progress PE P ms preds i _ HS HK HLib HC EQ EP R2 (best_not_worst _) ER EL). }
  assert (HF : looked ms (po_members (fst (refill PE P)))).
  { unfold refill. rewrite EQ, EP. destruct (existsb fisnan preds); [apply looked_refl|]. pose proof (fill_looked PE preds (sorted_indices (pe_sort PE) (is_better (e_info (pe_env PE))) preds) ms []) as HF. destruct (fill _ _ _ _ _) as [[ms' q] r]. exact HF. }
  apply Forall_forall. intros m' Hm. apply In_nth_error in Hm as (i & Ei). destruct (looked_nth_back _ _ _ _ HF Ei) as (m & Em & T). destruct (looked_nth_back _ _ _ _ HPL Em) as (m0 & Em0 & T0). destruct (T0 (Forall_nth _ _ _ _ HK Em0)) as (_ & _ & K & _). destruct (T K) as (_ & _ & _ & L). apply L. exact (Forall_nth _ _ _ _ ALL Em).
Qed.
(** Then the pool has stopped after that step. *)
Lemma pool_over PE ever P inp P' x lims : sorts (pe_sort PE) -> pool_inv PE ever P -> orderly_pool P -> standard P -> Forall (fun m => Forall library (o_scs (m_opt m))) (po_members P) ->
  limits lims (po_members P) -> Forall (fun s => s <= pe_start PE) lims -> 0 < pe_active PE -> 0 < pe_concurrent PE ->
  pool_step PE P inp = (P', Ok x) -> launches PE P = [] -> po_stopped P' <> None.
Proof.
  intros HS HI HO HStd HLib HL HST HA HC E EL. pose proof (nobody_left PE ever P inp P' x lims HS HI HO HLib HL HST HA HC E EL) as HN.
  destruct (pool_step_from_refill PE ever P inp P' x HS HI E) as [_ [SL SM]]. rewrite EL in SM.
  assert (HK1 : Forall member_ok (po_members (fst (refill PE P)))).
  { apply Forall_forall. intros m' Hm. apply In_nth_error in Hm as (i & Ei). destruct (looked_nth_back _ _ _ _ (refill_looked PE P) Ei) as (m & Em & T). destruct (T (Forall_nth _ _ _ _ (inv_ok _ _ _ HI) Em)) as (_ & _ & X & _). exact X. }
  destruct HStd as (t & EC). intros NS. pose proof (proj2 (pool_step_keeps PE P inp (ex_intro _ t EC))) as KEEP. rewrite E in KEEP. cbn [fst] in KEEP.
  assert (PS : po_stopped P = None) by (destruct (po_stopped P) as [k|]; [rewrite (KEEP k eq_refl) in NS; discriminate NS|reflexivity]).
  unfold pool_step in E. destruct (Nat.eqb (oi_dim (e_info (pe_env PE))) 0); [discriminate E|].
  set (P2 := psignal PE EPreStep (if Nat.eqb (c_steps (po_base P)) 0 then psignal PE EStart P else P)) in *.
  assert (E2 : po_conds P2 = po_conds P /\ po_stopped P2 = po_stopped P) by (unfold P2; destruct (Nat.eqb _ 0); auto).
  assert (ER : exists tr, refill PE P2 = (with_trace (fst (refill PE P)) tr, snd (refill PE P))).
  { unfold P2, psignal. destruct (Nat.eqb _ 0); rewrite !refill_trace; eexists; reflexivity. }
  clearbody P2. destruct E2 as [E2 E3]. destruct ER as (tr & ER).
  pose proof (internal_conds PE P2 (pi_inputs inp) (pi_sched inp)) as [A B]. unfold pool_internal_step in *. destruct (po_members P2) as [|mz mzs]; [discriminate E|]. rewrite ER in *. unfold launches in EL. destruct (refill PE P) as [P1 [u|w|]]; cbn [fst snd] in *; try discriminate E.
  cbn [with_trace po_queue] in *. rewrite EL in *. cbn [collect obind] in *. cbn [fst] in A, B. rewrite E2 in A. rewrite E3 in B.
  set (P3 := with_queue _ _) in *. assert (M3 : po_members P3 = po_members P1) by reflexivity. clearbody P3. cbv iota in E.
  set (P6 := if pi_interrupt inp then _ else _) in E. assert (F6 : po_conds P6 = po_conds P3 /\ po_stopped P6 = po_stopped P3 /\ looked (po_members P3) (po_members P6)) by (unfold P6; destruct (pi_interrupt inp); (split; [reflexivity|split; [reflexivity|]]); [apply looked_interrupt|apply looked_refl]). clearbody P6. destruct F6 as (C1 & C2 & C3).
  assert (HF6 : Forall (fun m => m_stopped m = true) (po_members P6)).
  { rewrite M3 in C3. apply Forall_forall. intros m' Hm. apply In_nth_error in Hm as (i & Ei). destruct (looked_nth_back _ _ _ _ C3 Ei) as (m & Em & T). destruct (T (Forall_nth _ _ _ _ HK1 Em)) as (_ & _ & _ & L). apply L. exact (Forall_nth _ _ _ _ HN Em). }
  pose proof (pool_test_standard PE P6 t (eq_trans C1 (eq_trans A EC)) (eq_trans C2 (eq_trans B PS))) as HT. rewrite E, (stopped_all _ HF6) in HT. destruct HT as [_ HT].
  assert (exists k, x = Some k) as (k & ->) by (destruct (c_interrupted (po_base P6)); [injection HT as ->; eauto|destruct HT as [_ HT]; injection HT as ->; eauto]).
  revert E. unfold pool_test. rewrite C2, B, PS. destruct (pc_list PE P6 0 (po_conds P6)) as [[Q l] [[j|]|w|]]; try discriminate. intros [= <- _]. discriminate NS.
Qed.
Lemma history_ends PE P ops L P' : sorts (pe_sort PE) -> 0 < pe_concurrent PE -> history PE P ops L P' -> forall ever lims, pool_inv PE ever P -> orderly_pool P -> standard P ->
  Forall (fun m => Forall library (o_scs (m_opt m))) (po_members P) -> limits lims (po_members P) -> Forall (fun s => s <= pe_start PE) lims -> 0 < pe_active PE ->
  po_stopped P' = None -> steps_in ops <= budgets lims (po_members P).
Proof.
  intros HS HC H. induction H as [P|P a P1 ops L P2 E H IH]; intros ever lims HI HO HStd HLib HL HST HA NS; [cbn; lia|].
  destruct (exec_accounts PE ever P a P1 HS HI HO E) as (O1 & L1 & M1). destruct (exec_inv PE ever P a P1 HS HI E) as [I1 _]. assert (H1 : history PE P [a] ([] ++ match a with PoStep _ => launches PE P | _ => [] end) P1) by (econstructor; [exact E|constructor]).
  destruct (history_keeps PE _ _ _ _ H1 HStd) as [St1 _]. pose proof (proj2 (history_keeps PE _ _ _ _ H St1)) as KEEP.
  assert (Lib1 : Forall (fun m => Forall library (o_scs (m_opt m))) (po_members P1)).
  { apply Forall_forall. intros m' Hm. apply In_nth_error in Hm as (i & Ei). destruct (nth_error (po_members P) i) as [m|] eqn:Em; [|apply nth_error_None in Em; assert (i < length (po_members P1)) by (apply nth_error_Some; congruence); lia]. destruct (M1 i m Em) as (m2 & E2 & _ & _ & X & _). rewrite Ei in E2. injection E2 as <-. apply X. exact (Forall_nth _ _ _ _ HLib Em). }
  assert (HL1 : limits lims (po_members P1)).
  { apply limits_intro; [rewrite L1; clear - HL; induction HL; cbn; congruence|]. intros i s m' Es Em'. destruct (limits_nth' _ _ _ _ HL Es) as (m & Em & Hs). destruct (M1 i m Em) as (m2 & E2 & X & _). rewrite Em' in E2. injection E2 as <-. now apply X. }
  specialize (IH _ lims I1 O1 St1 Lib1 HL1 HST HA NS).
  assert (LE : forall i s m, nth_error lims i = Some s -> nth_error (po_members P) i = Some m -> exists m', nth_error (po_members P1) i = Some m' /\ budget s m' <= budget s m).
  { intros i s m Es Em. destruct (limits_nth' _ _ _ _ HL Es) as (m0 & Em0 & Hs). rewrite Em in Em0. injection Em0 as <-. destruct (M1 i m Em) as (m2 & E2 & _ & _ & _ & _ & _ & _ & X). exists m2. split; [exact E2|]. specialize (X s Hs). lia. }
  pose proof (budgets_le lims _ _ L1 LE) as BL. destruct a as [inp| |]; cbn [steps_in]; [|lia|lia].
  cbn [pool_exec] in E. destruct (pool_step PE P inp) as [Q r] eqn:ES. destruct r as [x|w|]; cbn [obind] in E; try discriminate E. injection E as ->.
  destruct (launches PE P) as [|j l] eqn:EL.
  - exfalso. pose proof (pool_over PE ever P inp P1 x lims HS HI HO HStd HLib HL HST HA HC ES EL) as X. destruct (po_stopped P1) as [k|] eqn:EK; [|congruence]. rewrite (KEEP k eq_refl) in NS. discriminate NS.
  - destruct (Nat.eq_dec (oi_dim (e_info (pe_env PE))) 0) as [D|D]; [unfold pool_step in ES; rewrite D in ES; discriminate ES|].
    pose proof (pool_step_inv PE ever P inp P1 (Ok x) HS HI D ES ltac:(discriminate)) as (_ & _ & RG & _). cbv zeta in RG. rewrite EL in RG. specialize (RG j (or_introl eq_refl)).
    destruct (nth_error (po_members P) j) as [m|] eqn:Em; [|apply nth_error_None in Em; lia]. destruct (limits_nth _ _ _ _ HL Em) as (s & Es & Hs). destruct (M1 j m Em) as (m2 & E2 & _ & _ & _ & _ & _ & _ & X). specialize (X s Hs).
    assert (0 < times j (j :: l)) by (apply count_occ_In; now left). pose proof (budgets_lt lims _ _ j s m m2 L1 LE Es Em E2 ltac:(lia)). lia.
Qed.
(** If every member has a step limit not above prediction_start, the members have only the
    library's stop conditions, and neither active_optimizations nor concurrent_optimizations is
    0, then the pool stops: as long as it has not, it has been stepped at most as often as the
    limits add up to. *)
Theorem C79_pool_ends : forall PE ms conds ops L P lims, sorts (pe_sort PE) -> Forall (joinable PE) ms -> history PE (pool_of PE ms conds) ops L P ->
  Forall2 (fun s m => In (ScMaxSteps s) (o_scs (m_opt m))) lims ms -> Forall (fun s => s <= pe_start PE) lims ->
  Forall (fun m => Forall library (o_scs (m_opt m))) ms -> 0 < pe_active PE -> 0 < pe_concurrent PE ->
  list_sum lims < steps_in ops -> exists k, po_stopped P = Some k.
Proof.
  intros PE ms conds ops L P lims HS HJ H HL HST HLib HA HC LT. destruct (po_stopped P) as [k|] eqn:NS; [eauto|exfalso].
  assert (HL0 : limits lims (po_members (pool_of PE ms conds)) /\ budgets lims (po_members (pool_of PE ms conds)) <= list_sum lims /\ Forall (fun m => Forall library (o_scs (m_opt m))) (po_members (pool_of PE ms conds)) /\ length (po_members (pool_of PE ms conds)) = length ms).
  { rewrite pool_of_joined. clear H LT NS HA. induction HL as [|s m l t Hs HL IH]; [split; [constructor|]; split; [cbn; lia|]; split; [constructor|reflexivity]|]. inversion HJ as [|? ? J1 J2]; subst. inversion HST as [|? ? S1 S2]; subst. inversion HLib as [|? ? B1 B2]; subst.
    destruct (IH J2 S2 B2) as (A & B & C & D). destruct (joined_account PE m J1) as (_ & JL & _ & _ & JB). cbn [map budgets list_sum fold_right length]. split; [constructor; [now apply JL|exact A]|]. split; [unfold list_sum in B; unfold budget at 1; destruct (errored (joined PE m)); lia|]. split; [constructor; auto|congruence]. }
  destruct HL0 as (A & B & C & D). pose proof (history_ends PE _ _ _ _ HS HC H [] lims (proj1 (pool_of_inv PE ms conds HJ)) (pool_of_orderly PE ms conds HJ) (proj1 (pool_of_standard PE ms conds HJ)) C A HST HA NS). lia.
Qed.

(** Each of the conditions is needed.  A limit above prediction_start, with a prediction that is
    no better than worst_fitness(): *)
Definition never_over (PE : pool_env) (ms : list member) (lims : list nat) (n : nat) : Prop :=
  sorts (pe_sort PE) /\ Forall (joinable PE) ms /\ Forall2 (fun s m => In (ScMaxSteps s) (o_scs (m_opt m))) lims ms /\ Forall (fun m => Forall library (o_scs (m_opt m))) ms /\ list_sum lims < n /\
  exists P L, history PE (pool_of PE ms []) (repeat (same_inputs 3 3) n) L P /\ po_stopped P = None /\ steps_in (repeat (same_inputs 3 3) n) = n.
Lemma never_over_check PE ms lims n : sorts (pe_sort PE) -> Forall (joinable PE) ms -> Forall2 (fun s m => In (ScMaxSteps s) (o_scs (m_opt m))) lims ms -> Forall (fun m => Forall library (o_scs (m_opt m))) ms -> list_sum lims < n ->
  match run_ops PE (pool_of PE ms []) (repeat (same_inputs 3 3) n) with Some (P, _) => match po_stopped P with None => true | _ => false end | None => false end = true -> never_over PE ms lims n.
Proof.
  intros A B C D F G. unfold never_over. split; [exact A|]. split; [exact B|]. split; [exact C|]. split; [exact D|]. split; [exact F|].
  destruct (run_ops_check PE (pool_of PE ms []) (repeat (same_inputs 3 3) n) (fun P _ => match po_stopped P with None => true | _ => false end) G) as (P & L & H & X). exists P, L. split; [exact H|]. split; [destruct (po_stopped P); [discriminate X|reflexivity]|]. clear. induction n; cbn; congruence.
Qed.
Theorem C79_limit_above_start_refuted : exists PE ms, never_over PE ms [0; 5] 40 /\ 0 < pe_active PE /\ 0 < pe_concurrent PE /\ pe_start PE = 1.
Proof.
  exists (ex_pool_env 6 1 1 false), [new_member (ex_env []) [ScMaxSteps 0]; new_member hopeless [ScMaxSteps 5]]. split; [|split; [cbn; lia|split; [cbn; lia|reflexivity]]].
  apply never_over_check; [exact isort_sorts|constructor; [|constructor; [|constructor]]; apply new_joinable; [discriminate|reflexivity|discriminate|reflexivity]| | |cbn; lia|vm_compute; reflexivity].
  - constructor; [cbn; auto|constructor; [cbn; auto|constructor]].
  - constructor; [|constructor; [|constructor]]; cbn; repeat (constructor; [exact I|]); constructor.
Qed.
(** concurrent_optimizations = 0: nobody is ever stepped. *)
Theorem C79_no_concurrent_refuted : exists PE ms, never_over PE ms [2] 40 /\ 0 < pe_active PE /\ pe_concurrent PE = 0 /\ 2 <= pe_start PE.
Proof.
  exists (ex_pool_env 6 0 100 false), [new_member (ex_env []) [ScMaxSteps 2]]. split; [|split; [cbn; lia|split; [reflexivity|cbn; lia]]].
  apply never_over_check; [exact isort_sorts|constructor; [|constructor]; apply new_joinable; [discriminate|reflexivity]| | |cbn; lia|vm_compute; reflexivity].
  - constructor; [cbn; auto|constructor].
  - constructor; [|constructor]; cbn; repeat (constructor; [exact I|]); constructor.
Qed.
(** active_optimizations = 0: once the first member has stopped, the other is not stepped any more. *)
Theorem C79_no_active_refuted : exists PE ms, never_over PE ms [1; 5] 40 /\ pe_active PE = 0 /\ 0 < pe_concurrent PE /\ 5 <= pe_start PE.
Proof.
  exists (ex_pool_env 0 1 100 false), [new_member (ex_env []) [ScMaxSteps 1]; new_member (ex_env []) [ScMaxSteps 5]]. split; [|split; [reflexivity|split; [cbn; lia|cbn; lia]]].
  apply never_over_check; [exact isort_sorts|constructor; [|constructor; [|constructor]]; apply new_joinable; [discriminate|reflexivity|discriminate|reflexivity]| | |cbn; lia|vm_compute; reflexivity].
  - constructor; [cbn; auto|constructor; [cbn; auto|constructor]].
  - constructor; [|constructor; [|constructor]]; cbn; repeat (constructor; [exact I|]); constructor.
Qed.
(** Three members with limits 1, 2 and 3 (the second fails in its first step and is not stepped
    again), two at a time: the pool stops, after the members were stepped 1, 1 and 3 times. *)
Definition one_fails (a b : Z) : pool_op := PoStep {| pi_inputs := fun i => if Nat.eqb i 1 then bad_step else good_step a b; pi_sched := fun _ => []; pi_interrupt := false |}.
Example C79_nonvacuous : let PE := ex_pool_env 6 2 100 false in
  let ms := [new_member (ex_env []) [ScMaxSteps 1]; new_member (ex_env []) [ScMaxSteps 2]; new_member (ex_env []) [ScMaxSteps 3]] in
  sorts (pe_sort PE) /\ Forall (joinable PE) ms /\ Forall2 (fun s m => In (ScMaxSteps s) (o_scs (m_opt m))) [1; 2; 3] ms /\ Forall (fun s => s <= pe_start PE) [1; 2; 3] /\ Forall (fun m => Forall library (o_scs (m_opt m))) ms /\ 0 < pe_active PE /\ 0 < pe_concurrent PE /\
  exists P L, history PE (pool_of PE ms []) (repeat (one_fails 4 3) 7) L P /\ list_sum [1; 2; 3] < steps_in (repeat (one_fails 4 3) 7) /\
    (Nat.eqb (times 0 L) 1 && Nat.eqb (times 1 L) 1 && Nat.eqb (times 2 L) 3 && nat_list_eqb (map (fun m => c_steps (o_core (m_opt m))) (po_members P)) [1; 0; 3] && match po_stopped P with Some 2 => true | _ => false end) = true.
Proof.
  cbv zeta. split; [exact isort_sorts|]. split; [constructor; [|constructor; [|constructor; [|constructor]]]; apply new_joinable; first [discriminate|reflexivity]|].
  split; [constructor; [cbn; auto|constructor; [cbn; auto|constructor; [cbn; auto|constructor]]]|]. split; [constructor; [cbn; lia|constructor; [cbn; lia|constructor; [cbn; lia|constructor]]]|].
  split; [constructor; [|constructor; [|constructor; [|constructor]]]; cbn; repeat (constructor; [exact I|]); constructor|]. split; [cbn; lia|]. split; [cbn; lia|].
  destruct (run_ops_check (ex_pool_env 6 2 100 false) (pool_of (ex_pool_env 6 2 100 false) [new_member (ex_env []) [ScMaxSteps 1]; new_member (ex_env []) [ScMaxSteps 2]; new_member (ex_env []) [ScMaxSteps 3]] []) (repeat (one_fails 4 3) 7)
    (fun P L => Nat.eqb (times 0 L) 1 && Nat.eqb (times 1 L) 1 && Nat.eqb (times 2 L) 3 && nat_list_eqb (map (fun m => c_steps (o_core (m_opt m))) (po_members P)) [1; 0; 3] && match po_stopped P with Some 2 => true | _ => false end)) as (P & L & H & C); [vm_compute; reflexivity|].
  exists P, L. split; [exact H|]. split; [cbn; lia|exact C].
Qed.
