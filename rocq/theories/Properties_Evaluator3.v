(** * C31: a running pooled evaluator with at least one worker always completes. *)
From Coq Require Import ZArith Bool Permutation.
From Verif Require Import Prelude Flt Optimizer Evaluator EvaluatorFacts Properties_Evaluator Properties_Evaluator2.

(** ** Invariants when nobody shuts the evaluator down *)
Definition w_active (w : wstate) : bool := match w with WSleep | WGoWait | WExit => false | _ => true end.
Definition c_waking (c : cstate) : bool := match c with CUnlock _ | CNotify _ => true | _ => false end.
Record live_ok (w : nat) (s : pstate) : Prop := {
  l_idle : p_control s = DIdle; l_todo : p_todo s = []; l_stop : p_stop s = false; l_len : length (p_workers s) = w;
  l_exit : forall i, nth_error (p_workers s) i <> Some WExit;
  l_gowait : forall i, nth_error (p_workers s) i = Some WGoWait -> p_queue s = [];
  l_served : p_queue s <> [] -> (exists j c, nth_error (p_calls s) j = Some c /\ c_waking c = true) \/ (exists i x, nth_error (p_workers s) i = Some x /\ w_active x = true) }.
Lemma live_init w calls : live_ok w (p_init w calls []).
Proof.
  split; cbn [p_init p_control p_todo p_stop p_workers p_queue p_calls]; auto.
  - apply repeat_length.
  - intros i H. apply nth_error_In, repeat_spec in H. discriminate.
  - congruence.
Qed.
(** a worker moves from [w0] to [x] *)
Lemma live_keep_w w s s' i x w0 : nth_error (p_workers s) i = Some w0 -> x <> WExit -> (x = WGoWait -> p_queue s' = []) -> (w_active x = true \/ p_queue s' = []) ->
  (p_queue s = [] -> p_queue s' = []) ->
  p_workers s' = list_set (p_workers s) i x -> p_calls s' = p_calls s -> p_control s' = p_control s -> p_todo s' = p_todo s -> p_stop s' = p_stop s ->
  live_ok w s -> live_ok w s'.
Proof.
  intros H1 H2 H3 H4 Hq E2 E3 E4 E5 E6 [A1 A2 A3 A4 A5 A6 A7]. split; rewrite ?E2, ?E3, ?E4, ?E5, ?E6; auto.
  - now rewrite list_set_length.
  - intros k. rewrite (nth_error_list_set _ _ _ _ _ H1). destruct (Nat.eqb i k); [congruence|auto].
  - intros k. rewrite (nth_error_list_set _ _ _ _ _ H1). destruct (Nat.eqb i k); [intros [= Hx]; auto|eauto].
  - intros Hne. destruct H4 as [H4|H4]; [|contradiction]. right. exists i, x. rewrite (nth_error_list_set _ _ _ _ _ H1), Nat.eqb_refl. auto.
Qed.
Lemma live_keep_c w s s' j c c0 : nth_error (p_calls s) j = Some c0 -> (c_waking c0 = true -> c_waking c = true) ->
  p_queue s' = p_queue s -> p_workers s' = p_workers s -> p_calls s' = list_set (p_calls s) j c -> p_control s' = p_control s -> p_todo s' = p_todo s -> p_stop s' = p_stop s ->
  live_ok w s -> live_ok w s'.
Proof.
  intros H1 H2 E1 E2 E3 E4 E5 E6 [A1 A2 A3 A4 A5 A6 A7]. split; rewrite ?E1, ?E2, ?E3, ?E4, ?E5, ?E6; auto.
  intros Hq. destruct (A7 Hq) as [(k & c' & Hc & Hk)|HH]; [|now right]. left. destruct (Nat.eqb_spec j k) as [<-|Hn].
  - exists j, c. rewrite (nth_error_list_set _ _ _ _ _ H1), Nat.eqb_refl. split; [reflexivity|]. apply H2. congruence.
  - exists k, c'. rewrite (nth_error_list_set _ _ _ _ _ H1). apply Nat.eqb_neq in Hn. rewrite Hn. auto.
Qed.
Lemma live_step w s l s' : 1 <= w -> pstep s l s' -> mutex_ok s -> live_ok w s -> live_ok w s'.
Proof.
  intros Hw Hs HM HL. pose proof HL as [A1 A2 A3 A4 A5 A6 A7].
  destruct Hs; try congruence;
    try (match goal with HN : nth_error (p_workers ?s) ?i = Some ?w0 |- live_ok _ ?s' => match s' with context [set_w s i ?x] => apply (live_keep_w w s s' i x w0 HN); solve [reflexivity | discriminate | exact HL | auto | (intros; assumption)] end end);
    try (match goal with HN : nth_error (p_calls ?s) ?j = Some ?c0 |- live_ok _ ?s' => match s' with context [set_c s j ?c] => apply (live_keep_c w s s' j c c0 HN); solve [reflexivity | discriminate | exact HL | auto] end end).
  - (* pop *) apply (live_keep_w w s _ i (WGot t) WTest H); try reflexivity; try discriminate; try exact HL; [now left|]. rewrite H0. discriminate.
  - (* wait *) apply (live_keep_w w s _ i WSleep WGoWait H); try reflexivity; try discriminate; try exact HL; [|auto]. right. exact (A6 i H).
  - (* push *) split; cbn [set_push set_c p_control p_todo p_stop p_workers p_queue p_calls]; auto.
    + intros i Hi. exfalso. assert (HX : p_mutex s = Some (TW i)) by (apply HM; cbn; eauto). assert (HY : p_mutex s = Some (TC j)) by (apply HM; cbn; eauto). congruence.
    + intros _. left. exists j, (CUnlock n). rewrite (nth_error_list_set _ _ _ _ _ H), Nat.eqb_refl. auto.
  - (* notify *) split; cbn [notify_all set_ws set_c p_control p_todo p_stop p_workers p_queue p_calls]; auto.
    + now rewrite map_length.
    + intros i. rewrite nth_error_map. destruct (nth_error (p_workers s) i) as [x|] eqn:Ex; [|discriminate]. cbn. intros [= Hx]. apply (A5 i). rewrite Ex. f_equal. destruct x; cbn in Hx; congruence.
    + intros i. rewrite nth_error_map. destruct (nth_error (p_workers s) i) as [x|] eqn:Ex; [|discriminate]. cbn. intros [= Hx]. apply (A6 i). rewrite Ex. f_equal. destruct x; cbn in Hx; congruence.
    + intros Hq. right. destruct (nth_error (p_workers s) 0) as [x|] eqn:Ex; [|apply nth_error_None in Ex; lia].
      exists 0, (wake x). rewrite nth_error_map, Ex. split; [reflexivity|]. destruct x; try reflexivity; [exfalso; apply Hq; eapply A6; eauto|exfalso; eapply A5; eauto].
Qed.
Lemma p_reach_live w calls s : 1 <= w -> p_reach w calls [] s -> live_ok w s.
Proof.
  intros Hw H. induction H as [|s l s' H IH Hs]; [apply live_init|]. eapply live_step; eauto. eapply p_reach_mutex; eauto.
Qed.

(** ** Progress *)
Definition started (c : cstate) : Prop := (forall n, c <> CIdle n) /\ (forall rs, c <> CDone rs).
Definition real (l : plabel) : Prop := l = PWork \/ exists j, l = PCall j.
Lemma worker_step w s i x : live_ok w s -> nth_error (p_workers s) i = Some x -> w_active x = true -> (w_holds x = true \/ p_mutex s = None) -> exists l s', pstep s l s' /\ real l.
Proof.
  intros HL Hi Ha Hm. pose proof (l_stop w s HL) as Hs.
  assert (Hnone : w_holds x = false -> p_mutex s = None) by (destruct Hm; [congruence|auto]).
  exists PWork. destruct x; try discriminate Ha.
  - eexists; split; [apply WS_continue; eauto|now left].
  - eexists; split; [apply WS_lock; eauto|now left].
  - destruct (p_queue s) as [|t q] eqn:Eq; eexists; (split; [|now left]); [apply WS_empty; eauto|eapply WS_pop; eauto].
  - eexists; split; [apply WS_relock; eauto|now left].
  - eexists; split; [apply WS_again; eauto|now left].
  - eexists; split; [eapply WS_unlock; eauto|now left].
  - eexists; split; [eapply (WS_run s i t (ROk fzero)); eauto|now left].
  - eexists; split; [eapply WS_ready; eauto|now left].
Qed.
Lemma progress w calls s j c : 1 <= w -> p_reach w calls [] s -> nth_error (p_calls s) j = Some c -> started c -> exists l s', pstep s l s' /\ real l.
Proof.
  intros Hw H Hj [Hc1 Hc2]. pose proof (p_reach_live w calls s Hw H) as HL. pose proof (p_reach_mutex _ _ _ _ H) as HM. pose proof (p_reach_tasks _ _ _ _ H) as HT.
  destruct (p_mutex s) as [[i|k|]|] eqn:Em.
  - destruct (proj1 (HM (TW i)) Em) as (x & Hx & Hh). destruct (w_active x) eqn:Ea; [eapply worker_step; eauto|].
    destruct x; try discriminate. exists PWork. eexists; split; [eapply WS_wait; eauto|now left].
  - destruct (proj1 (HM (TC k)) Em) as (x & Hx & Hh). exists (PCall k). destruct x; try discriminate; eexists; (split; [|right; eauto]); [eapply CS_push; eauto|eapply CS_unlock; eauto].
  - assert (HX := proj1 (HM TD) Em). cbn in HX. rewrite (l_idle w s HL) in HX. discriminate.
  - assert (HC : forall k x, nth_error (p_calls s) k = Some x -> c_waking x = true -> exists l s', pstep s l s' /\ real l).
    { intros k x Hx Hk. exists (PCall k). destruct x; try discriminate; eexists; (split; [|right; eauto]); [eapply CS_unlock; eauto|eapply CS_notify; eauto]. }
    destruct c as [n|n|n|n|n|n rs|rs]; try (eapply HC; [exact Hj|reflexivity]).
    + now destruct (Hc1 n).
    + exists (PCall j); eexists; split; [eapply CS_lock; eauto|right; eauto].
    + exists (PCall j); eexists; split; [eapply CS_push; eauto|right; eauto].
    + destruct (Nat.lt_ge_cases (length rs) n) as [Hl|Hl]; [|exists (PCall j); eexists; split; [eapply CS_done; eauto|right; eauto]].
      assert (Hin : In (j, length rs) (p_submitted s)) by (apply (t_sub s HT); exists (CGet n rs), n; auto).
      rewrite (t_fifo s HT) in Hin. apply in_app_iff in Hin as [Hin|Hin].
      * rewrite (t_perm s HT) in Hin. apply in_app_iff in Hin as [Hin|Hin].
        -- apply in_flat_map in Hin as (x & Hx & Hin). apply In_nth_error in Hx as (i & Hi).
           eapply worker_step; eauto; destruct x; try (destruct Hin; fail); reflexivity.
        -- apply in_map_iff in Hin as ([t r] & Ht & Hin). cbn in Ht. subst t. destruct (t_logged s HT _ _ Hin) as [Hr|(i & Hi)].
           ++ exists (PCall j). eexists. split; [eapply CS_get; eauto|right; eauto].
           ++ eapply worker_step; eauto.
      * destruct (l_served w s HL) as [(k & x & Hx & Hk)|(i & x & Hx & Hk)]; [intros E; rewrite E in Hin; destruct Hin|eapply HC; eauto|eapply worker_step; eauto].
    + now destruct (Hc2 rs).
Qed.

(** ** Termination *)
Definition w_rank (x : wstate) : nat :=
  match x with WSleep => 0 | WGoWait => 1 | WTest => 2 | WAwake => 3 | WWoken => 4 | WLock => 3 | WCheck => 4 | WGot _ => 7 | WRun _ => 6 | WSet _ _ => 5 | WExit => 0 end.
Definition c_rank (w : nat) (c : cstate) : nat :=
  match c with CDone _ => 0 | CGet n rs => (n - length rs) + 1 | CNotify n => n + 2 + 4 * w | CUnlock n => n + 3 + 4 * w | CPush n => 7 * n + 4 + 4 * w | CLock n => 7 * n + 5 + 4 * w | CIdle n => 7 * n + 6 + 4 * w end.
Definition total (l : list nat) : nat := list_sum l.
Definition p_measure (w : nat) (s : pstate) : nat := total (map w_rank (p_workers s)) + total (map (c_rank w) (p_calls s)) + 6 * length (p_queue s).
Lemma total_cons a l : total (a :: l) = a + total l.
Proof. reflexivity. Qed.
Lemma total_set {A} (f : A -> nat) l i x y : nth_error l i = Some y -> total (map f (list_set l i x)) + f y = total (map f l) + f x.
Proof.
  revert i. induction l as [|a l IH]; intros [|i]; cbn [nth_error list_set map]; try discriminate; rewrite !total_cons.
  - intros [= ->]. lia.
  - intros H. specialize (IH i H). lia.
Qed.
Lemma total_wake l : total (map w_rank (map wake l)) <= total (map w_rank l) + 4 * length l.
Proof. induction l as [|x l IH]; [reflexivity|]. cbn [map length]. rewrite !total_cons. destruct x; cbn [wake w_rank]; lia. Qed.
Definition is_spurious (l : plabel) : bool := match l with PSpurious => true | _ => false end.
Lemma p_measure_step w s l s' : pstep s l s' -> live_ok w s -> p_measure w s' + (if negb (is_spurious l) then 1 else 0) <= p_measure w s + (if is_spurious l then 4 else 0).
Proof.
  intros Hs HL. pose proof HL as [A1 A2 A3 A4 A5 A6 A7]. unfold p_measure.
  destruct Hs; try congruence;
    cbn [set_w set_c set_d set_m set_stop set_pop set_push set_log set_ready set_threads set_ws notify_all p_workers p_calls p_queue is_spurious negb];
    try (match goal with HN : nth_error (p_workers s) ?i = Some ?w0 |- context [list_set _ ?i ?x] => pose proof (total_set w_rank _ i x w0 HN) end);
    try (match goal with HN : nth_error (p_calls s) ?i = Some ?w0 |- context [list_set _ ?i ?x] => pose proof (total_set (c_rank w) _ i x w0 HN) end);
    repeat match goal with H : p_queue s = _ |- _ => rewrite H; clear H end; cbn [w_rank c_rank length] in *; try lia.
  - rewrite app_length. unfold tasks_of. rewrite map_length, seq_length. lia.
  - pose proof (total_wake (p_workers s)). rewrite A4 in *. lia.
  - rewrite app_length in *. cbn in *. lia.
Qed.

(** With at least one worker and no shutdown:
    - the number of steps is bounded, except that each spurious wake-up allows four more;
    - as long as a call that was made has not returned, a worker or a call can proceed, without
      relying on a spurious wake-up or on further calls.
    So every execution without spurious wake-ups is finite and ends only when all calls have returned. *)
Theorem C31_completes : forall workers calls, 1 <= workers ->
  (forall ls s, exec pstep (p_init workers calls []) ls s ->
     count (fun l => negb (is_spurious l)) ls <= 4 * workers + total (map (fun n => 7 * n + 6 + 4 * workers) calls) + 4 * count is_spurious ls) /\
  (forall s, p_reach workers calls [] s -> (exists j c, nth_error (p_calls s) j = Some c /\ started c) ->
     exists l s', pstep s l s' /\ (l = PWork \/ exists j, l = PCall j)).
Proof.
  intros w calls Hw. split.
  - intros ls s H.
    destruct (exec_bound pstep (fun _ => True) (fun l => negb (is_spurious l)) is_spurious 4 (fun s => live_ok w s /\ mutex_ok s) (p_measure w) (p_init w calls []) ls s) as [_ HB]; auto.
    + split; [apply live_init|apply mutex_init].
    + intros a l b Hab _ [Ha1 Ha2]. split; [eapply live_step; eauto|eapply mutex_step; eauto].
    + intros a l b Hab _ [Ha1 Ha2]. now apply p_measure_step.
    + clear; induction ls; auto.
    + assert (HE : p_measure w (p_init w calls []) = 4 * w + total (map (fun n => 7 * n + 6 + 4 * w) calls)).
      { unfold p_measure, p_init; cbn [p_workers p_calls p_queue length]. rewrite map_map. cbn [c_rank].
        assert (HW : total (map w_rank (repeat WCheck w)) = 4 * w) by (clear; induction w; [reflexivity|]; cbn [repeat map w_rank]; rewrite total_cons; lia). lia. }
      lia.
  - intros s H (j & c & Hj & Hc). eapply progress; eauto.
Qed.
(** In particular a state in which nothing but a spurious wake-up is possible has all calls returned. *)
Theorem C31_end_state : forall workers calls s, 1 <= workers -> p_reach workers calls [] s ->
  (forall l s', pstep s l s' -> l = PSpurious) -> forall j c, nth_error (p_calls s) j = Some c -> exists rs, c = CDone rs.
Proof.
  intros w calls s Hw H Hn j c Hj. destruct c as [n| | | | | |rs]; [|exfalso; destruct (progress w calls s j _ Hw H Hj) as (l & s' & Hs & Hl); [split; discriminate|]; apply Hn in Hs; destruct Hl as [Hl|(k & Hl)]; congruence..|eauto].
  exfalso. specialize (Hn _ _ (CS_start s j n Hj)). discriminate.
Qed.
(** Without workers no call with at least one point ever returns. *)
Theorem C31_no_workers_refuted : forall calls s j n, nth_error calls j = Some n -> 1 <= n -> p_reach 0 calls [] s ->
  forall rs, nth_error (p_calls s) j <> Some (CDone rs).
Proof.
  intros calls s j n Hn Hl H rs Hj.
  assert (HI : p_workers s = [] /\ p_control s = DIdle /\ p_todo s = [] /\ p_ready s = []).
  { clear Hj. induction H as [|s l s' H IH Hs]; [cbn; auto|]. destruct IH as (I1 & I2 & I3 & I4).
    destruct Hs; cbn [set_w set_c set_d set_m set_stop set_pop set_push set_log set_ready set_threads set_ws notify_all p_workers p_control p_todo p_ready]; try congruence;
      try (match goal with HN : nth_error (p_workers s) ?i = Some _ |- _ => rewrite I1 in HN; destruct i; discriminate end); rewrite ?I1; auto. }
  destruct HI as (I1 & _ & _ & I4). pose proof (p_reach_tasks _ _ _ _ H) as HT.
  destruct (C29_pooled 0 calls [] s j n rs H Hn Hj) as (A1 & A2 & _).
  destruct rs as [|r rs]; [cbn in A1; lia|]. assert (Hin := A2 0 r eq_refl). apply in_log_of in Hin.
  destruct (t_logged s HT _ _ Hin) as [HR|(i & HR)]; [rewrite I4 in HR; destruct HR|rewrite I1 in HR; destruct i; discriminate].
Qed.
