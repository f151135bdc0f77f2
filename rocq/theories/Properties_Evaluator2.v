(** * C29, C30: the pooled evaluator returns the results in order and runs every task once. *)
From Coq Require Import ZArith Bool Permutation.
From Verif Require Import Prelude Flt Optimizer Evaluator EvaluatorFacts Properties_Evaluator.

Lemma NoDup_app_left {A} (a b : list A) : NoDup (a ++ b) -> NoDup a.
Proof. induction a as [|x a IH]; cbn; [constructor|]. intros H. inversion_clear H as [|? ? H1 H2]. constructor; [|auto]. intros Hx. apply H1, in_app_iff. now left. Qed.
Lemma NoDup_app_right {A} (a b : list A) : NoDup (a ++ b) -> NoDup b.
Proof. induction a as [|x a IH]; cbn; [auto|]. intros H. inversion_clear H. auto. Qed.
(** number of points of a call *)
Definition size (c : cstate) : nat :=
  match c with CIdle n | CLock n | CPush n | CUnlock n | CNotify n | CGet n _ => n | CDone rs => length rs end.
Lemma size_step s l s' : pstep s l s' -> tasks_ok s -> map size (p_calls s') = map size (p_calls s).
Proof.
  intros Hs H. destruct Hs; cbn [set_w set_c set_d set_m set_stop set_pop set_push set_log set_ready set_threads set_ws notify_all p_calls]; try reflexivity;
    rewrite map_list_set; apply list_set_same; rewrite nth_error_map, H0; cbn [option_map size]; try reflexivity.
  f_equal. pose proof (t_len s H j n rs H0). lia.
Qed.
Lemma p_reach_size w calls todo s : p_reach w calls todo s -> map size (p_calls s) = calls.
Proof.
  intros H. induction H as [|s l s' H IH Hs]; [cbn; rewrite map_map; apply map_id|]. rewrite <- IH. eapply size_step; eauto. eapply p_reach_tasks; eauto.
Qed.
(** What the objective returned for the points of call [j]. *)
Definition log_of (j : nat) (log : list (task * result)) : list (nat * result) :=
  map (fun e => (snd (fst e), snd e)) (filter (fun e => fst (fst e) =? j) log).
Lemma in_log_of j log i r : In (i, r) (log_of j log) <-> In ((j, i), r) log.
Proof.
  unfold log_of. rewrite in_map_iff. split.
  - intros ([[k x] y] & [= <- <-] & H). apply filter_In in H as [H1 H2]. cbn in H2. apply Nat.eqb_eq in H2. now subst.
  - intros H. exists ((j, i), r). split; [reflexivity|]. apply filter_In. split; [exact H|]. cbn. apply Nat.eqb_refl.
Qed.
Lemma nodup_log_of j log : NoDup (map fst log) -> NoDup (map fst (log_of j log)).
Proof.
  induction log as [|[[k x] y] log IH]; cbn; [constructor|]. intros H. inversion_clear H as [|? ? H1 H2]. unfold log_of in *. cbn [filter fst].
  destruct (Nat.eqb_spec k j) as [->|]; [|auto]. cbn. constructor; [|auto]. intros Hin. apply in_map_iff in Hin as ([i r] & Hi & Hin). cbn in Hi. subst i.
  apply (in_log_of j log x r) in Hin. apply H1. apply in_map_iff. exists ((j, x), r). auto.
Qed.
Lemma log_nodup s : tasks_ok s -> NoDup (map fst (p_log s)).
Proof.
  intros H. pose proof (t_nodup s H) as HN. rewrite (t_fifo s H) in HN.
  assert (HP : NoDup (p_popped s)) by (apply NoDup_app_left in HN; exact HN).
  rewrite (t_perm s H) in HP. apply NoDup_app_right in HP. exact HP.
Qed.

Theorem C29_pooled : forall workers calls todo s j n rs,
  p_reach workers calls todo s -> nth_error calls j = Some n -> nth_error (p_calls s) j = Some (CDone rs) ->
  answered n (log_of j (p_log s)) rs.
Proof.
  intros w calls todo s j n rs H Hn Hj. pose proof (p_reach_tasks _ _ _ _ H) as HT. pose proof (p_reach_size _ _ _ _ H) as HS.
  rewrite <- HS, nth_error_map, Hj in Hn. injection Hn as Hn. cbn in Hn. split; [exact Hn|]. split.
  - intros i r Hi. apply in_log_of. eapply (t_got s HT j (CDone rs)); eauto.
  - apply nodup_log_of, log_nodup, HT.
Qed.

(** ** C30 *)
Lemma t_popped_in s x : tasks_ok s -> In x (map fst (p_log s)) -> In x (p_submitted s).
Proof. intros H Hx. rewrite (t_fifo s H). apply in_app_iff. left. rewrite (t_perm s H). apply in_app_iff. now right. Qed.
(** Tasks are submitted call by call, those of one call in point order. *)
Lemma submitted_blocks w calls todo s : p_reach w calls todo s -> exists order : list nat, NoDup order /\ p_submitted s = flat_map (fun j => tasks_of j (nth j calls 0)) order /\
  forall j, In j order <-> exists c, nth_error (p_calls s) j = Some c /\ pushed c <> None.
Proof.
  intros H. assert (HS : forall s, p_reach w calls todo s -> forall j c, nth_error (p_calls s) j = Some c -> nth j calls 0 = size c).
  { intros s0 H0 j c Hj. rewrite <- (p_reach_size _ _ _ _ H0). rewrite nth_indep with (d' := size (CIdle 0)) by (rewrite map_length; apply nth_error_Some; congruence).
    rewrite map_nth. rewrite (nth_error_nth _ _ _ Hj). reflexivity. }
  induction H as [|s l s' H IH Hs].
  - exists []. split; [constructor|]. split; [reflexivity|]. intros j. split; [intros []|]. intros (c & Hc & Hp). apply Hp. cbn in Hc. apply nth_error_In in Hc. apply in_map_iff in Hc as (n & <- & _). reflexivity.
  - destruct IH as (order & I1 & I2 & I3).
    assert (HC : forall j c c0, nth_error (p_calls s) j = Some c0 -> (pushed c = None <-> pushed c0 = None) ->
      forall k, In k order <-> exists c', nth_error (list_set (p_calls s) j c) k = Some c' /\ pushed c' <> None).
    { intros j c c0 Hj Hp k. rewrite I3, (nth_error_list_set _ _ _ _ _ Hj). destruct (Nat.eqb_spec j k) as [<-|]; [|tauto]. split.
      - intros (c' & Hc & Hc'). rewrite Hj in Hc. injection Hc as <-. exists c. tauto.
      - intros (c' & [= <-] & Hc'). exists c0. tauto. }
    destruct Hs; cbn [set_w set_c set_d set_m set_stop set_pop set_push set_log set_ready set_threads set_ws notify_all p_calls p_submitted];
      try (exists order; split; [exact I1|]; split; [exact I2|]; (exact I3 || (eapply HC; [eassumption|]; cbn; split; congruence))).
    exists (order ++ [j]). split; [|split].
    + apply NoDup_app_intro; [exact I1|constructor; [intros []|constructor]|]. intros x Hx [<-|[]]. apply I3 in Hx as (c & Hc & Hp). rewrite H0 in Hc. injection Hc as <-. now apply Hp.
    + rewrite I2, flat_map_app. cbn [flat_map]. rewrite app_nil_r. rewrite (HS s H j _ H0). reflexivity.
    + intros k. rewrite in_app_iff, I3, (nth_error_list_set _ _ _ _ _ H0). cbn [In]. destruct (Nat.eqb_spec j k) as [<-|]; split.
      * intros _. exists (CUnlock n). split; [reflexivity|discriminate].
      * auto.
      * intros [HH|[HH|[]]]; [exact HH|congruence].
      * auto.
Qed.

Theorem C30_exactly_once : forall workers calls todo s, p_reach workers calls todo s ->
  (* no point is taken from the queue or evaluated twice, and only points of calls that were made *)
  NoDup (p_popped s) /\ NoDup (map fst (p_log s)) /\
  (forall j i r, In ((j, i), r) (p_log s) -> exists n, nth_error calls j = Some n /\ i < n) /\
  (* when a call has returned all its points have been evaluated *)
  (forall j n rs i, nth_error calls j = Some n -> nth_error (p_calls s) j = Some (CDone rs) -> i < n -> exists r, In ((j, i), r) (p_log s)) /\
  (* first in, first out: what has left the queue is a prefix of what entered it;
     each call enters it at once, its points in order *)
  (exists waiting, p_submitted s = p_popped s ++ waiting) /\
  (exists order, NoDup order /\ p_submitted s = flat_map (fun j => map (fun i => (j, i)) (seq 0 (nth j calls 0))) order).
Proof.
  intros w calls todo s H. pose proof (p_reach_tasks _ _ _ _ H) as HT. pose proof (p_reach_size _ _ _ _ H) as HS.
  assert (HN : NoDup (p_popped s)) by (pose proof (t_nodup s HT) as HN; rewrite (t_fifo s HT) in HN; apply NoDup_app_left in HN; exact HN).
  split; [exact HN|]. split; [now apply log_nodup|]. split; [|split; [|split]].
  - intros j i r Hin. assert (Hs : In (j, i) (p_submitted s)) by (apply t_popped_in; [exact HT|]; apply in_map_iff; exists ((j, i), r); auto).
    apply (t_sub s HT) in Hs as (c & n & Hc & Hp & Hi). exists n. split; [|exact Hi]. rewrite <- HS, nth_error_map, Hc. cbn. f_equal. destruct c; cbn in *; congruence.
  - intros j n rs i Hn Hj Hi. destruct (C29_pooled w calls todo s j n rs H Hn Hj) as (A1 & A2 & _).
    destruct (nth_error rs i) as [r|] eqn:Er; [|apply nth_error_None in Er; lia]. exists r. apply in_log_of. auto.
  - exists (p_queue s). apply (t_fifo s HT).
  - destruct (submitted_blocks _ _ _ _ H) as (order & O1 & O2 & _). exists order. auto.
Qed.

(** Non-vacuity: two workers, two calls with two points and one point, both returned, with the points
    of the first call finishing in reverse order. *)
Example C29_C30_nonvacuous : exists s, p_reach 2 [2; 1] [] s /\
  p_log s = [((0, 1), ROk fmaxval); ((0, 0), ROk fzero); ((1, 0), RErr "bad")] /\
  p_calls s = [CDone [ROk fzero; ROk fmaxval]; CDone [RErr "bad"]].
Proof.
  set (r0 := ROk fzero). set (r1 := ROk fmaxval). set (r2 := RErr "bad").
  assert (R0 : p_reach 2 [2; 1] [] (p_init 2 [2; 1] [])) by constructor.
  Ltac step_ R c := let H := fresh "R" in eassert (H : p_reach _ _ _ _) by (eapply reach_step; [exact R|c]);
    cbn [set_w set_c set_d set_m set_stop set_pop set_push set_log set_ready set_threads set_ws notify_all list_set map wake p_init repeat seq app tasks_of
       p_queue p_mutex p_stop p_workers p_calls p_control p_todo p_threads p_ready p_log p_submitted p_popped] in H; clear R; rename H into R.
  step_ R0 ltac:(apply (CS_start _ 0 2); reflexivity).
  step_ R0 ltac:(apply (CS_lock _ 0 2); reflexivity).
  step_ R0 ltac:(apply (CS_push _ 0 2); reflexivity).
  step_ R0 ltac:(apply (CS_unlock _ 0 2); reflexivity).
  step_ R0 ltac:(apply (CS_notify _ 0 2); reflexivity).
  step_ R0 ltac:(apply (WS_continue _ 0); reflexivity).
  step_ R0 ltac:(apply (WS_continue _ 1); reflexivity).
  step_ R0 ltac:(apply (WS_lock _ 0); reflexivity).
  step_ R0 ltac:(eapply (WS_pop _ 0); reflexivity).
  step_ R0 ltac:(eapply (WS_unlock _ 0); reflexivity).
  step_ R0 ltac:(apply (WS_lock _ 1); reflexivity).
  step_ R0 ltac:(eapply (WS_pop _ 1); reflexivity).
  step_ R0 ltac:(eapply (WS_unlock _ 1); reflexivity).
  step_ R0 ltac:(eapply (WS_run _ 1 _ r1); reflexivity).
  step_ R0 ltac:(eapply (WS_ready _ 1); reflexivity).
  step_ R0 ltac:(eapply (WS_run _ 0 _ r0); reflexivity).
  step_ R0 ltac:(eapply (WS_ready _ 0); reflexivity).
  step_ R0 ltac:(apply (WS_continue _ 0); reflexivity).
  step_ R0 ltac:(apply (WS_lock _ 0); reflexivity).
  step_ R0 ltac:(apply (WS_empty _ 0); reflexivity).
  step_ R0 ltac:(apply (WS_wait _ 0); reflexivity).
  step_ R0 ltac:(apply (CS_start _ 1 1); reflexivity).
  step_ R0 ltac:(apply (CS_lock _ 1 1); reflexivity).
  step_ R0 ltac:(apply (CS_push _ 1 1); reflexivity).
  step_ R0 ltac:(apply (CS_unlock _ 1 1); reflexivity).
  step_ R0 ltac:(apply (CS_notify _ 1 1); reflexivity).
  step_ R0 ltac:(apply (WS_relock _ 0); reflexivity).
  step_ R0 ltac:(apply (WS_again _ 0); reflexivity).
  step_ R0 ltac:(eapply (WS_pop _ 0); reflexivity).
  step_ R0 ltac:(eapply (WS_unlock _ 0); reflexivity).
  step_ R0 ltac:(eapply (WS_run _ 0 _ r2); reflexivity).
  step_ R0 ltac:(eapply (WS_ready _ 0); reflexivity).
  step_ R0 ltac:(eapply (CS_get _ 0 2 [] r0); [reflexivity|cbn; lia|cbn; tauto]).
  step_ R0 ltac:(eapply (CS_get _ 0 2 [r0] r1); [reflexivity|cbn; lia|cbn; tauto]).
  step_ R0 ltac:(eapply (CS_done _ 0); [reflexivity|cbn; lia]).
  step_ R0 ltac:(eapply (CS_get _ 1 1 [] r2); [reflexivity|cbn; lia|cbn; tauto]).
  step_ R0 ltac:(eapply (CS_done _ 1); [reflexivity|cbn; lia]).
  eexists. split; [exact R0|]. split; reflexivity.
Qed.
