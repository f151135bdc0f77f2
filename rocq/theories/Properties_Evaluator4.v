(** * C32: shutting a pooled evaluator down: when it terminates and when it hangs. *)
From Coq Require Import ZArith Bool Permutation.
From Verif Require Import Prelude Flt Optimizer Evaluator EvaluatorFacts Properties_Evaluator Properties_Evaluator2 Properties_Evaluator3.

Ltac p_cbn := cbn [set_w set_c set_d set_m set_stop set_pop set_push set_log set_ready set_threads set_ws notify_all
  p_queue p_mutex p_stop p_workers p_calls p_control p_todo p_threads p_ready p_log p_submitted p_popped].
Lemma wake_exit x : wake x = WExit <-> x = WExit.
Proof. destruct x; cbn; split; congruence. Qed.

(** ** What the destructor guarantees if it returns *)
Record join_ok (s : pstate) : Prop := {
  j_join : forall i x, nth_error (p_workers s) i = Some x -> In i (p_threads s) \/ x = WExit;
  j_valid : forall i, In i (p_threads s) -> i < length (p_workers s);
  j_gone : p_control s = DGone -> p_threads s = [];
  j_stop : match p_control s with DIdle | DWant | DStop _ | DStart _ => p_stop s = false | DNotify _ | DJoin _ => p_stop s = true | DGone => True end }.
Lemma join_keep_w s s' i x w0 : nth_error (p_workers s) i = Some w0 -> w0 <> WExit ->
  p_workers s' = list_set (p_workers s) i x -> p_threads s' = p_threads s -> p_control s' = p_control s -> p_stop s' = p_stop s -> join_ok s -> join_ok s'.
Proof.
  intros H1 H2 E1 E2 E3 E4 [A1 A2 A3 A4]. split; rewrite ?E1, ?E2, ?E3, ?E4, ?list_set_length; auto.
  intros k y. rewrite (nth_error_list_set _ _ _ _ _ H1). destruct (Nat.eqb_spec i k) as [<-|]; [|auto]. intros _. left. destruct (A1 i w0 H1); [auto|contradiction].
Qed.
Lemma join_same s s' : p_workers s' = p_workers s -> p_threads s' = p_threads s -> p_control s' = p_control s -> p_stop s' = p_stop s -> join_ok s -> join_ok s'.
Proof. intros E1 E2 E3 E4 [A1 A2 A3 A4]. split; rewrite ?E1, ?E2, ?E3, ?E4; auto. Qed.
Lemma join_wake s : join_ok s -> join_ok (notify_all s).
Proof.
  intros [A1 A2 A3 A4]. split; p_cbn; auto.
  - intros i x. rewrite nth_error_map. destruct (nth_error (p_workers s) i) as [y|] eqn:Ey; [|discriminate]. intros [= <-]. rewrite wake_exit. eauto.
  - rewrite map_length. auto.
Qed.
Lemma join_step s l s' : pstep s l s' -> join_ok s -> join_ok s'.
Proof.
  intros Hs HJ. pose proof HJ as [A1 A2 A3 A4].
  destruct Hs;
    try (match goal with HN : nth_error (p_workers ?s) ?i = Some ?w0 |- join_ok ?s' => match s' with context [set_w s i ?x] => apply (join_keep_w s s' i x w0 HN); solve [reflexivity | discriminate | exact HJ] end end);
    try (apply (join_same s); solve [reflexivity | exact HJ]);
    try (apply join_wake; apply (join_same s); solve [reflexivity | exact HJ]);
    try (rewrite H in A4; split; p_cbn; rewrite ?H; auto; congruence).
  - (* DS_notify *) apply join_wake. rewrite H in A4. split; p_cbn; auto; congruence.
  - (* DS_join *) rewrite H in A4. split; p_cbn; rewrite ?H; auto; [| |congruence].
    + intros k x Hk. destruct (A1 k x Hk) as [HH| ->]; [|now right]. rewrite H0 in HH. apply in_app_iff in HH as [HH|[<-|[]]]; [now left|]. right. congruence.
    + intros k Hk. apply A2. rewrite H0. apply in_app_iff. now left.
  - (* DS_spawn *) rewrite H in A4. split; p_cbn; [| |discriminate|exact A4].
    + intros k x Hk. destruct (Nat.lt_ge_cases k (length (p_workers s))) as [Hl|Hl].
      * rewrite nth_error_app1 in Hk by exact Hl. destruct (A1 k x Hk); [left; apply in_app_iff; now left|now right].
      * left. apply in_app_iff. right. left. assert (k < length (p_workers s ++ [WCheck])) by (apply nth_error_Some; congruence). rewrite app_length in *. cbn in *. lia.
    + intros k Hk. rewrite app_length. cbn. apply in_app_iff in Hk as [Hk|[<-|[]]]; [apply A2 in Hk|]; lia.
Qed.
Lemma join_init w calls todo : join_ok (p_init w calls todo).
Proof.
  split; cbn [p_init p_workers p_threads p_control p_stop]; try discriminate; auto.
  - intros i x Hi. left. apply in_seq. assert (i < length (repeat WCheck w)) by (apply nth_error_Some; congruence). rewrite repeat_length in *. lia.
  - intros i Hi. apply in_seq in Hi. rewrite repeat_length. lia.
Qed.
Lemma p_reach_join w calls todo s : p_reach w calls todo s -> join_ok s.
Proof. apply reach_inv; [apply join_init|]. intros; eapply join_step; eauto. Qed.
Theorem C32_returns_after_workers_exit : forall workers calls todo s, p_reach workers calls todo s -> p_control s = DGone ->
  forall i x, nth_error (p_workers s) i = Some x -> x = WExit.
Proof.
  intros w calls todo s H Hg i x Hi. pose proof (p_reach_join _ _ _ _ H) as [A1 A2 A3 A4]. destruct (A1 i x Hi) as [HH|HH]; [|exact HH]. rewrite (A3 Hg) in HH. destruct HH.
Qed.
(** Likewise set_max_threads starts the new workers only after all previous ones have exited. *)
Theorem C32_restart_after_workers_exit : forall workers calls todo s n l s', p_reach workers calls todo s -> p_control s = DJoin (SetMax n) ->
  pstep s l s' -> p_control s' = DStart n -> forall i x, nth_error (p_workers s') i = Some x -> x = WExit.
Proof.
  intros w calls todo s n l s' H Hc Hs Hc' i x Hi. pose proof (p_reach_join _ _ _ _ H) as [A1 A2 A3 A4].
  destruct Hs; cbn [set_w set_c set_d set_m set_stop set_pop set_push set_log set_ready set_threads set_ws notify_all p_control p_workers] in *; try congruence.
  destruct (A1 i x Hi) as [HH|HH]; [|exact HH]. match goal with HT : p_threads s = [] |- _ => rewrite HT in HH end. destruct HH.
Qed.

(** ** The destructor holds the mutex while it joins: a worker waiting for it is never joined *)
Definition stuck (x : wstate) : bool := match x with WLock | WSleep | WWoken => true | _ => false end.
Definition hung (i : nat) (s : pstate) : Prop := d_holds (p_control s) = true /\ exists x, nth_error (p_workers s) i = Some x /\ stuck x = true.
Lemma hung_step i s l s' : pstep s l s' -> mutex_ok s -> join_ok s -> hung i s -> hung i s'.
Proof.
  intros Hs HM [A1 A2 A3 A4] [Hd (x & Hi & Hx)]. assert (Hm : p_mutex s = Some TD) by (apply HM; exact Hd).
  assert (HK : forall k y y0 (ws : list wstate), ws = list_set (p_workers s) k y -> nth_error (p_workers s) k = Some y0 -> (stuck y0 = true -> stuck y = true) ->
     exists x, nth_error ws i = Some x /\ stuck x = true).
  { intros k y y0 ws -> Hk Hy. rewrite (nth_error_list_set _ _ _ _ _ Hk). destruct (Nat.eqb_spec k i) as [->|]; [|eauto]. exists y. split; [reflexivity|]. apply Hy. congruence. }
  assert (HW : exists x, nth_error (map wake (p_workers s)) i = Some x /\ stuck x = true) by (exists (wake x); rewrite nth_error_map, Hi; split; [reflexivity|destruct x; auto]).
  destruct Hs; try congruence; split; p_cbn; auto;
    try (eapply HK; [reflexivity|eassumption|]; cbn; auto; discriminate); try (rewrite H in Hd; exact Hd); try (rewrite H in Hd; discriminate Hd); eauto.
  all: (* DS_gone *) exfalso. destruct (A1 i x Hi) as [HH|HH]; [rewrite H0 in HH; destruct HH|subst x; discriminate].
Qed.
Lemma hung_forever w calls todo s s' i : p_reach w calls todo s -> hung i s -> reach pstep s s' -> hung i s' /\ p_reach w calls todo s'.
Proof.
  intros H Hh HR. induction HR as [|s1 l s2 HR IH Hs]; [auto|]. destruct IH as [I1 I2]. split; [|econstructor; eauto].
  eapply hung_step; eauto; [eapply p_reach_mutex|eapply p_reach_join]; eauto.
Qed.
(** Once the destructor has locked the queue, a worker that waits for work or for the lock makes it hang forever. *)
Theorem C32_destructor_hangs : forall workers calls todo s s' i x,
  p_reach workers calls todo s -> (p_control s = DStop Destroy \/ p_control s = DNotify Destroy \/ p_control s = DJoin Destroy) ->
  nth_error (p_workers s) i = Some x -> (x = WLock \/ x = WSleep \/ x = WWoken) -> reach pstep s s' -> p_control s' <> DGone.
Proof.
  intros w calls todo s s' i x H Hc Hi Hx HR. assert (Hh : hung i s).
  { split; [destruct Hc as [->|[->| ->]]; reflexivity|]. exists x. split; [exact Hi|]. now destruct Hx as [->|[->| ->]]. }
  destruct (hung_forever _ _ _ _ _ _ H Hh HR) as [[Hd _] _]. intros E. rewrite E in Hd. discriminate.
Qed.

(** ** An idle evaluator can never be destroyed: C32 as one would like it is false *)
Lemma all_done_queue s : tasks_ok s -> (forall j c, nth_error (p_calls s) j = Some c -> exists rs, c = CDone rs) -> p_queue s = [].
Proof.
  intros HT Hd. destruct (p_queue s) as [|[j i] q] eqn:Eq; [reflexivity|exfalso].
  assert (Hin : In (j, i) (p_submitted s)) by (rewrite (t_fifo s HT), Eq; apply in_app_iff; right; now left).
  apply (t_sub s HT) in Hin as (c & n & Hc & Hp & Hi). destruct (Hd j c Hc) as (rs & ->). cbn in Hp. injection Hp as <-.
  destruct (nth_error rs i) as [r|] eqn:Er; [|apply nth_error_None in Er; lia].
  assert (HL := t_got s HT j (CDone rs) i r Hc Er). assert (HP : In (j, i) (p_popped s)) by (rewrite (t_perm s HT); apply in_app_iff; right; apply in_map_iff; exists ((j, i), r); auto).
  pose proof (t_nodup s HT) as HN. rewrite (t_fifo s HT), Eq in HN. apply NoDup_remove_2 in HN. apply HN, in_app_iff. now left.
Qed.
Definition in_wait_loop (x : wstate) : bool := match x with WLock | WTest | WGoWait | WSleep | WWoken | WAwake => true | _ => false end.
Theorem C32_destroy_idle_refuted : forall workers calls s s' i x,
  p_reach workers calls [Destroy] s -> p_control s = DIdle ->
  (* every call has returned, and worker i is waiting for work *)
  (forall j c, nth_error (p_calls s) j = Some c -> exists rs, c = CDone rs) ->
  nth_error (p_workers s) i = Some x -> in_wait_loop x = true ->
  reach pstep s s' -> p_control s' <> DGone.
Proof.
  intros w calls s s' i x H Hc Hd Hi Hx HR.
  enough (HE : p_reach w calls [Destroy] s' /\ (forall j c, nth_error (p_calls s') j = Some c -> exists rs, c = CDone rs) /\
     (hung i s' \/ ((p_control s' = DIdle \/ p_control s' = DWant) /\ (forall n, ~ In (SetMax n) (p_todo s')) /\ exists x, nth_error (p_workers s') i = Some x /\ in_wait_loop x = true))).
  { destruct HE as (_ & _ & [[Hh _]|[[->| ->] _]]); [|discriminate|discriminate]. intros E. rewrite E in Hh. discriminate. }
  induction HR as [|s1 l s2 HR IH Hs].
  - split; [exact H|]. split; [exact Hd|]. right. split; [auto|]. split; [|eauto]. intros n Hin.
    assert (HT : forall s, p_reach w calls [Destroy] s -> forall o, In o (p_todo s) -> o = Destroy).
    { clear. intros s H. induction H as [|s l s' H IH Hs]; [cbn; intros o [<-|[]]; reflexivity|]. destruct Hs; p_cbn; auto; intros o Ho; apply IH; rewrite H1; now right. }
    apply (HT s H) in Hin. discriminate.
  - destruct IH as (I1 & I2 & I3). assert (HR2 : p_reach w calls [Destroy] s2) by (econstructor; eauto). split; [exact HR2|].
    pose proof (p_reach_mutex _ _ _ _ I1) as HM. pose proof (p_reach_join _ _ _ _ I1) as HJ. pose proof (p_reach_tasks _ _ _ _ I1) as HT. pose proof (all_done_queue _ HT I2) as HQ.
    split.
    { destruct Hs; p_cbn; auto; exfalso; match goal with HN : nth_error (p_calls ?s0) ?j = Some ?c |- _ => destruct (I2 j _ HN) as (? & ?); discriminate end. }
    destruct I3 as [I3|(I3 & I4 & y & I5 & I6)]; [left; eapply hung_step; eauto|].
    assert (Hstop : p_stop s1 = false) by (pose proof (j_stop s1 HJ) as A4; destruct I3 as [E|E]; rewrite E in A4; exact A4).
    assert (HK : forall k z z0 (ws : list wstate), ws = list_set (p_workers s1) k z -> nth_error (p_workers s1) k = Some z0 -> (in_wait_loop z0 = true -> in_wait_loop z = true) ->
       exists x, nth_error ws i = Some x /\ in_wait_loop x = true).
    { intros k z z0 ws -> Hk Hy. rewrite (nth_error_list_set _ _ _ _ _ Hk). destruct (Nat.eqb_spec k i) as [->|]; [|eauto]. exists z. split; [reflexivity|]. apply Hy. congruence. }
    assert (HCD : forall j c, nth_error (p_calls s1) j = Some c -> (exists rs, c = CDone rs)) by exact I2.
    destruct Hs; try congruence;
      try (exfalso; match goal with HN : nth_error (p_calls ?s0) ?j = Some ?c |- _ => destruct (HCD j _ HN) as (? & ?); discriminate end);
      try (exfalso; match goal with HN : p_control ?s0 = _ |- _ => destruct I3; congruence end);
      try (right; split; [exact I3|]; split; [exact I4|]; p_cbn; eapply HK; [reflexivity|eassumption|]; cbn; auto; discriminate).
    + exfalso. apply (I4 n). rewrite H1. now left.
    + right. p_cbn. split; [now right|]. split; [intros n Hn; apply (I4 n); rewrite H1; now right|eauto].
    + left. split; [reflexivity|]. p_cbn. exists y. split; [exact I5|].
      assert (Hnh : w_holds y = false) by (destruct (w_holds y) eqn:Ey; [|reflexivity]; exfalso; assert (p_mutex s0 = Some (TW i)) by (apply HM; cbn; eauto); congruence).
      destruct y; try discriminate; reflexivity.
Qed.

(** ** When shutting down does terminate *)
(** During [DNotify]/[DJoin] the flag is set.  Workers from which it terminates: *)
Definition ends (d : dstate) (x : wstate) : bool :=
  match d with
  | DNotify (SetMax _) => match x with WLock | WTest | WGoWait => false | _ => true end
  | DJoin (SetMax _) => match x with WLock | WTest | WGoWait | WSleep => false | _ => true end
  | DNotify Destroy | DJoin Destroy => match x with WCheck | WRun _ | WSet _ _ | WExit => true | _ => false end
  | _ => true
  end.
Definition stopping (d : dstate) : bool := match d with DNotify _ | DJoin _ => true | _ => false end.
Record ends_ok (s : pstate) : Prop := {
  e_m : mutex_ok s; e_j : join_ok s; e_t : tasks_ok s;
  e_w : stopping (p_control s) = true -> forall i x, nth_error (p_workers s) i = Some x -> ends (p_control s) x = true }.
Lemma ends_step s l s' : pstep s l s' -> stopping (p_control s) = true -> ends_ok s -> ends_ok s'.
Proof.
  intros Hs Hst [A1 A2 A3 A4]. specialize (A4 Hst). split; [eapply mutex_step; eauto|eapply join_step; eauto|eapply tasks_step; eauto|].
  assert (Hstop : p_stop s = true) by (pose proof (j_stop s A2) as HH; destruct (p_control s); try discriminate; exact HH).
  assert (HK : forall k z z0 (ws : list wstate), ws = list_set (p_workers s) k z -> nth_error (p_workers s) k = Some z0 -> (ends (p_control s) z0 = true -> ends (p_control s) z = true) ->
       forall i x, nth_error ws i = Some x -> ends (p_control s) x = true).
  { intros k z z0 ws -> Hk Hy i x. rewrite (nth_error_list_set _ _ _ _ _ Hk). destruct (Nat.eqb_spec k i) as [->|]; [|eauto]. intros [= <-]. eauto. }
  assert (HN : forall i x, nth_error (map wake (p_workers s)) i = Some x -> ends (p_control s) x = true).
  { intros i x. rewrite nth_error_map. destruct (nth_error (p_workers s) i) as [y|] eqn:Ey; [|discriminate]. intros [= <-]. specialize (A4 i y Ey). destruct y; cbn [wake]; auto. destruct (p_control s) as [| | |[|]|[|]| |]; auto. }
  destruct Hs; p_cbn; try congruence; intros Hst';
    try (eapply HK; [reflexivity|eassumption|]; destruct (p_control s) as [| | |[|]|[|]| |]; cbn; auto; discriminate); auto;
    try (rewrite H in *; try discriminate Hst; try discriminate Hst').
  intros i x. rewrite nth_error_map. destruct (nth_error (p_workers s) i) as [y|] eqn:Ey; [|discriminate]. intros [= <-]. specialize (A4 i y Ey). destruct o; destruct y; cbn in *; auto.
Qed.
Definition e_wrank (x : wstate) : nat := match x with WExit => 0 | WAwake => 1 | WWoken => 2 | WSleep => 3 | WCheck => 1 | WSet _ _ => 2 | WRun _ => 3 | WGot _ => 4 | _ => 0 end.
Definition e_crank (c : cstate) : nat :=
  match c with CDone _ => 0 | CGet n rs => (n - length rs) + 1 | CNotify n => n + 2 | CUnlock n => n + 3 | CPush n => n + 4 | CLock n => n + 5 | CIdle n => n + 6 end.
Definition e_measure (s : pstate) : nat :=
  total (map e_wrank (p_workers s)) + total (map e_crank (p_calls s)) + match p_control s with DNotify _ => length (p_threads s) + 2 | DJoin _ => length (p_threads s) + 1 | _ => 0 end.
Lemma e_total_wake l : total (map e_wrank (map wake l)) <= total (map e_wrank l).
Proof. induction l as [|x l IH]; [reflexivity|]. cbn [map]. rewrite !total_cons. destruct x; cbn [wake e_wrank]; lia. Qed.
Lemma e_measure_step s l s' : pstep s l s' -> stopping (p_control s) = true -> ends_ok s -> e_measure s' < e_measure s.
Proof.
  intros Hs Hst [A1 A2 A3 A4]. specialize (A4 Hst).
  assert (Hstop : p_stop s = true) by (pose proof (j_stop s A2) as HH; destruct (p_control s); try discriminate; exact HH).
  unfold e_measure.
  destruct Hs; try congruence;
    try (exfalso; match goal with HN : nth_error (p_workers s) ?i = Some ?x |- _ => specialize (A4 i x HN); destruct (p_control s) as [| | |[|]|[|]| |]; discriminate end);
    p_cbn; rewrite ?H; try (rewrite H in Hst; discriminate Hst);
    try (match goal with HN : nth_error (p_workers s) ?i = Some ?w0 |- context [list_set _ ?i ?x] => pose proof (total_set e_wrank _ i x w0 HN) end);
    try (match goal with HN : nth_error (p_calls s) ?i = Some ?w0 |- context [list_set _ ?i ?x] => pose proof (total_set e_crank _ i x w0 HN) end);
    cbn [e_wrank e_crank] in *; try (destruct (p_control s); try discriminate; lia).
  - pose proof (e_total_wake (p_workers s)). cbn [length] in *. destruct (p_control s); lia.
  - rewrite app_length in *. cbn [length] in *. destruct (p_control s); lia.
  - pose proof (e_total_wake (p_workers s)). lia.
  - rewrite H0, app_length. cbn. lia.
Qed.
Lemma ends_progress s : ends_ok s -> stopping (p_control s) = true -> exists l s', pstep s l s' /\ (l = PWork \/ l = PControl \/ exists j, l = PCall j).
Proof.
  intros [A1 A2 A3 A4] Hst. specialize (A4 Hst).
  assert (Hstop : p_stop s = true) by (pose proof (j_stop s A2) as HH; destruct (p_control s); try discriminate; exact HH).
  destruct (p_control s) as [| | |o|o| |] eqn:Ec; try discriminate.
  { exists PControl. eexists. split; [eapply DS_notify; eauto|auto]. }
  destruct (p_threads s) as [|i0 l0] eqn:Et.
  { exists PControl. destruct o; eexists; (split; [|now right; left]); [eapply DS_restart; eauto|eapply DS_gone; eauto]. }
  destruct (exists_last (l := p_threads s)) as (l & i & El); [rewrite Et; discriminate|]. clear Et i0 l0.
  assert (Hi : i < length (p_workers s)) by (apply (j_valid s A2); rewrite El; apply in_app_iff; right; now left).
  destruct (nth_error (p_workers s) i) as [x|] eqn:Ex; [|apply nth_error_None in Ex; lia].
  assert (HX := A4 i x Ex).
  assert (HG : forall k y, nth_error (p_workers s) k = Some y -> ends (DJoin o) y = true -> y <> WExit -> y <> WWoken -> exists l s', pstep s l s' /\ (l = PWork \/ l = PControl \/ exists j, l = PCall j)).
  { intros k y Hk Hy Hne Hnw. exists PWork. destruct o, y; try discriminate; try congruence; eexists; (split; [|now left]);
      first [eapply WS_leave; eauto; fail | eapply WS_return; eauto; fail | eapply WS_unlock; eauto; fail | eapply (WS_run s k t (ROk fzero)); eauto; fail | eapply WS_ready; eauto]. }
  destruct (match x with WExit => true | _ => false end) eqn:Hxe.
  { destruct x; try discriminate. exists PControl. eexists. split; [eapply DS_join; eauto|auto]. }
  destruct (match x with WWoken => true | _ => false end) eqn:Hxw; [|eapply (HG i x); eauto; intros ->; discriminate].
  destruct x; try discriminate. destruct o as [n|]; [|discriminate].
  destruct (p_mutex s) as [[k|k|]|] eqn:Em.
  - destruct (proj1 (A1 (TW k)) Em) as (y & Hy & Hh). apply (HG k y Hy (A4 k y Hy)); intros ->; discriminate.
  - destruct (proj1 (A1 (TC k)) Em) as (y & Hy & Hh). exists (PCall k). destruct y; try discriminate; eexists; (split; [|right; right; eauto]); [eapply CS_push; eauto|eapply CS_unlock; eauto].
  - assert (HY := proj1 (A1 TD) Em). cbn in HY. rewrite Ec in HY. discriminate.
  - exists PWork. eexists. split; [eapply WS_relock; eauto|auto].
Qed.
(** If, when stop_threads notifies, no worker is between testing the flag and sleeping (for the destructor: if every
    worker is evaluating or has yet to test the flag again), stopping takes a bounded number of steps under every schedule and
    never blocks, whatever other calls of evaluate() do at the same time. *)
Theorem C32_stop_terminates : forall workers calls todo s o, p_reach workers calls todo s -> p_control s = DNotify o ->
  (forall i x, nth_error (p_workers s) i = Some x ->
     match o with SetMax _ => x <> WLock /\ x <> WTest /\ x <> WGoWait | Destroy => x = WCheck \/ (exists t, x = WRun t) \/ (exists t r, x = WSet t r) \/ x = WExit end) ->
  exists bound, forall ls s', exec (fun a l b => pstep a l b /\ stopping (p_control a) = true) s ls s' ->
    length ls <= bound /\
    (stopping (p_control s') = true -> exists l s'', pstep s' l s'' /\ (l = PWork \/ l = PControl \/ exists j, l = PCall j)).
Proof.
  intros w calls todo s o H Hc Hw. exists (e_measure s). intros ls s' HX.
  assert (H0 : ends_ok s).
  { split; [eapply p_reach_mutex|eapply p_reach_join|eapply p_reach_tasks|]; eauto. intros _ i x Hi. specialize (Hw i x Hi). rewrite Hc. destruct o as [n|].
    - destruct Hw as (W1 & W2 & W3). destruct x; try reflexivity; congruence.
    - destruct Hw as [->|[(t & ->)|[(t & r & ->)| ->]]]; reflexivity. }
  destruct (exec_bound (fun a l b => pstep a l b /\ stopping (p_control a) = true) (fun _ => True) (fun _ => true) (fun _ => false) 0 ends_ok e_measure s ls s') as [HP HB]; auto.
  - intros a l b [Hab Hst] _ Ha. eapply ends_step; eauto.
  - intros a l b [Hab Hst] _ Ha. pose proof (e_measure_step a l b Hab Hst Ha). lia.
  - clear; induction ls; auto.
  - rewrite count_all in HB. split; [lia|]. intros Hst. now apply ends_progress.
Qed.

(** ** The lost wake-up: set_max_threads can hang, although nothing holds the mutex *)
(** The worker has tested the flag and found the queue empty; the flag is then set and the notification sent
    before the worker goes to sleep.  Afterwards only a spurious wake-up can happen. *)
Ltac r_step R c := let H := fresh "R" in eassert (H : p_reach _ _ _ _) by (eapply reach_step; [exact R|c]);
    cbn [set_w set_c set_d set_m set_stop set_pop set_push set_log set_ready set_threads set_ws notify_all list_set map wake p_init repeat seq app tasks_of
       p_queue p_mutex p_stop p_workers p_calls p_control p_todo p_threads p_ready p_log p_submitted p_popped] in H; clear R; rename H into R.
Theorem C32_lost_wakeup_refuted : exists s, p_reach 1 [] [SetMax 2] s /\ p_control s = DJoin (SetMax 2) /\ p_mutex s = None /\
  (forall l s', pstep s l s' -> l = PSpurious).
Proof.
  assert (R0 : p_reach 1 [] [SetMax 2] (p_init 1 [] [SetMax 2])) by constructor.
  r_step R0 ltac:(apply (WS_continue _ 0); reflexivity).
  r_step R0 ltac:(apply (WS_lock _ 0); reflexivity).
  r_step R0 ltac:(apply (WS_empty _ 0); reflexivity).
  r_step R0 ltac:(eapply (DS_set _ 2); reflexivity).
  r_step R0 ltac:(eapply DS_stop; reflexivity).
  r_step R0 ltac:(eapply DS_notify; reflexivity).
  r_step R0 ltac:(apply (WS_wait _ 0); reflexivity).
  eexists. split; [exact R0|]. split; [reflexivity|]. split; [reflexivity|].
  intros l s' Hs. clear R0. inversion Hs; subst; try reflexivity; clear Hs; exfalso; cbn in *;
    try (match goal with HN : nth_error [_] ?i = Some _ |- _ => destruct i as [|[|i]]; discriminate HN end);
    try (match goal with HN : nth_error [] ?i = Some _ |- _ => destruct i; discriminate HN end); try discriminate.
Qed.
(** Non-vacuity of C32_stop_terminates: an evaluator whose only worker sleeps; the thread count is changed. *)
Example C32_stop_terminates_nonvacuous : exists s, p_reach 1 [] [SetMax 2] s /\ p_control s = DNotify (SetMax 2) /\ p_workers s = [WSleep].
Proof.
  assert (R0 : p_reach 1 [] [SetMax 2] (p_init 1 [] [SetMax 2])) by constructor.
  r_step R0 ltac:(apply (WS_continue _ 0); reflexivity).
  r_step R0 ltac:(apply (WS_lock _ 0); reflexivity).
  r_step R0 ltac:(apply (WS_empty _ 0); reflexivity).
  r_step R0 ltac:(apply (WS_wait _ 0); reflexivity).
  r_step R0 ltac:(eapply (DS_set _ 2); reflexivity).
  r_step R0 ltac:(eapply DS_stop; reflexivity).
  eexists. split; [exact R0|]. split; reflexivity.
Qed.
(** Non-vacuity of the two destructor theorems: one call has returned, its worker sleeps, then the evaluator is destroyed. *)
Example C32_destroy_nonvacuous : exists s s', p_reach 1 [1] [Destroy] s /\ p_control s = DIdle /\ p_calls s = [CDone [ROk fzero]] /\ p_workers s = [WSleep] /\
  reach pstep s s' /\ p_control s' = DJoin Destroy.
Proof.
  assert (R0 : p_reach 1 [1] [Destroy] (p_init 1 [1] [Destroy])) by constructor.
  r_step R0 ltac:(apply (CS_start _ 0 1); reflexivity).
  r_step R0 ltac:(apply (CS_lock _ 0 1); reflexivity).
  r_step R0 ltac:(apply (CS_push _ 0 1); reflexivity).
  r_step R0 ltac:(apply (CS_unlock _ 0 1); reflexivity).
  r_step R0 ltac:(apply (CS_notify _ 0 1); reflexivity).
  r_step R0 ltac:(apply (WS_continue _ 0); reflexivity).
  r_step R0 ltac:(apply (WS_lock _ 0); reflexivity).
  r_step R0 ltac:(eapply (WS_pop _ 0); reflexivity).
  r_step R0 ltac:(eapply (WS_unlock _ 0); reflexivity).
  r_step R0 ltac:(eapply (WS_run _ 0 _ (ROk fzero)); reflexivity).
  r_step R0 ltac:(eapply (WS_ready _ 0); reflexivity).
  r_step R0 ltac:(eapply (CS_get _ 0 1 [] (ROk fzero)); [reflexivity|cbn; lia|cbn; tauto]).
  r_step R0 ltac:(eapply (CS_done _ 0); [reflexivity|cbn; lia]).
  r_step R0 ltac:(apply (WS_continue _ 0); reflexivity).
  r_step R0 ltac:(apply (WS_lock _ 0); reflexivity).
  r_step R0 ltac:(apply (WS_empty _ 0); reflexivity).
  r_step R0 ltac:(apply (WS_wait _ 0); reflexivity).
  match type of R0 with p_reach _ _ _ ?s => exists s end. eexists.
  split; [exact R0|]. split; [reflexivity|]. split; [reflexivity|]. split; [reflexivity|]. split.
  - eapply reach_step; [eapply reach_step; [eapply reach_step; [eapply reach_step; [apply reach_refl|]|]|]|].
    + eapply DS_destroy; reflexivity.
    + eapply DS_lock; reflexivity.
    + eapply DS_stop; reflexivity.
    + eapply DS_notify; reflexivity.
  - reflexivity.
Qed.
