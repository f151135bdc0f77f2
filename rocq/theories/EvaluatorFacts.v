(** * Invariants of the evaluators. *)
From Coq Require Import ZArith Bool Permutation.
From Verif Require Import Prelude Flt Optimizer Evaluator.

Lemma nth_error_list_set {A} (l : list A) i x k y : nth_error l i = Some y ->
  nth_error (list_set l i x) k = if Nat.eqb i k then Some x else nth_error l k.
Proof.
  intros H. destruct (Nat.eqb_spec i k) as [<-|Hn].
  - apply nth_error_list_set_eq. apply nth_error_Some. congruence.
  - now apply nth_error_list_set_neq.
Qed.
Lemma flat_map_set {A B} (f : A -> list B) l i w w' : nth_error l i = Some w ->
  Permutation (f w ++ flat_map f (list_set l i w')) (f w' ++ flat_map f l).
Proof.
  revert i. induction l as [|a l IH]; intros [|i]; cbn [nth_error list_set flat_map]; try discriminate.
  - intros [= ->]. rewrite !app_assoc. apply Permutation_app_tail, Permutation_app_comm.
  - intros H. specialize (IH i H). rewrite (app_assoc (f w)), (Permutation_app_comm (f w) (f a)), <- app_assoc, IH.
    rewrite !app_assoc. apply Permutation_app_tail, Permutation_app_comm.
Qed.

(** ** The mutex *)
Definition w_holds (w : wstate) : bool := match w with WTest | WGoWait | WAwake | WGot _ => true | _ => false end.
Definition c_holds (c : cstate) : bool := match c with CPush _ | CUnlock _ => true | _ => false end.
Definition d_holds (d : dstate) : bool := match d with DStop Destroy | DNotify Destroy | DJoin Destroy => true | _ => false end.
Definition holds (s : pstate) (x : tid) : Prop :=
  match x with
  | TW i => exists w, nth_error (p_workers s) i = Some w /\ w_holds w = true
  | TC j => exists c, nth_error (p_calls s) j = Some c /\ c_holds c = true
  | TD => d_holds (p_control s) = true
  end.
Definition mutex_ok (s : pstate) : Prop := forall x, p_mutex s = Some x <-> holds s x.

Lemma holds_set_w s i w w0 x : nth_error (p_workers s) i = Some w0 ->
  (holds (set_w s i w) x <-> (if match x with TW k => Nat.eqb i k | _ => false end then w_holds w = true else holds s x)).
Proof.
  intros H. destruct x as [k|j|]; cbn [holds set_w p_workers p_calls p_control]; try tauto.
  destruct (Nat.eqb_spec i k) as [<-|Hn].
  - rewrite (nth_error_list_set _ _ _ _ _ H), Nat.eqb_refl. split; [intros (w' & [= <-] & Hw); exact Hw|eauto].
  - rewrite nth_error_list_set_neq by auto. tauto.
Qed.
Lemma holds_set_c s j c c0 x : nth_error (p_calls s) j = Some c0 ->
  (holds (set_c s j c) x <-> (if match x with TC k => Nat.eqb j k | _ => false end then c_holds c = true else holds s x)).
Proof.
  intros H. destruct x as [k|k|]; cbn [holds set_c p_workers p_calls p_control]; try tauto.
  destruct (Nat.eqb_spec j k) as [<-|Hn].
  - rewrite (nth_error_list_set _ _ _ _ _ H), Nat.eqb_refl. split; [intros (w' & [= <-] & Hw); exact Hw|eauto].
  - rewrite nth_error_list_set_neq by auto. tauto.
Qed.
Lemma holds_notify s x : holds (notify_all s) x <-> holds s x.
Proof.
  destruct x as [k|k|]; cbn [holds notify_all set_ws p_workers p_calls p_control]; try tauto.
  rewrite nth_error_map. split.
  - intros (w & H1 & H2). destruct (nth_error (p_workers s) k) as [w0|]; [|discriminate]. exists w0. split; [reflexivity|]. injection H1 as <-. destruct w0; auto.
  - intros (w & -> & H2). exists (wake w). split; [reflexivity|]. destruct w; auto.
Qed.

Lemma mutex_keep_w s i w w0 : nth_error (p_workers s) i = Some w0 -> w_holds w = w_holds w0 -> mutex_ok s -> mutex_ok (set_w s i w).
Proof.
  intros H1 H2 H x. rewrite (holds_set_w s i w w0 x H1). change (p_mutex (set_w s i w)) with (p_mutex s). rewrite (H x).
  destruct x as [k|j|]; try tauto. destruct (Nat.eqb_spec i k) as [<-|]; [|tauto]. cbn. rewrite H2. split; [intros (w' & Hw & Hh); congruence|eauto].
Qed.
Lemma mutex_keep_c s i w w0 : nth_error (p_calls s) i = Some w0 -> c_holds w = c_holds w0 -> mutex_ok s -> mutex_ok (set_c s i w).
Proof.
  intros H1 H2 H x. rewrite (holds_set_c s i w w0 x H1). change (p_mutex (set_c s i w)) with (p_mutex s). rewrite (H x).
  destruct x as [k|j|]; try tauto. destruct (Nat.eqb_spec i j) as [<-|]; [|tauto]. cbn. rewrite H2. split; [intros (w' & Hw & Hh); congruence|eauto].
Qed.
Lemma mutex_take_w s i w w0 : nth_error (p_workers s) i = Some w0 -> w_holds w = true -> p_mutex s = None -> mutex_ok s -> mutex_ok (set_m (set_w s i w) (Some (TW i))).
Proof.
  intros H1 H2 H3 H x. change (holds (set_m (set_w s i w) (Some (TW i))) x) with (holds (set_w s i w) x). rewrite (holds_set_w s i w w0 x H1). cbn [p_mutex set_m].
  destruct x as [k|j|]; try (rewrite <- (H _), H3; split; discriminate). destruct (Nat.eqb_spec i k) as [<-|]; [tauto|]. rewrite <- (H _), H3. split; congruence.
Qed.
Lemma mutex_take_c s i w w0 : nth_error (p_calls s) i = Some w0 -> c_holds w = true -> p_mutex s = None -> mutex_ok s -> mutex_ok (set_m (set_c s i w) (Some (TC i))).
Proof.
  intros H1 H2 H3 H x. change (holds (set_m (set_c s i w) (Some (TC i))) x) with (holds (set_c s i w) x). rewrite (holds_set_c s i w w0 x H1). cbn [p_mutex set_m].
  destruct x as [k|j|]; try (rewrite <- (H _), H3; split; discriminate). destruct (Nat.eqb_spec i j) as [<-|]; [tauto|]. rewrite <- (H _), H3. split; congruence.
Qed.
Lemma mutex_drop_w s i w w0 : nth_error (p_workers s) i = Some w0 -> w_holds w0 = true -> w_holds w = false -> mutex_ok s -> mutex_ok (set_m (set_w s i w) None).
Proof.
  intros H1 H2 H3 H x. change (holds (set_m (set_w s i w) None) x) with (holds (set_w s i w) x). rewrite (holds_set_w s i w w0 x H1). cbn [p_mutex set_m].
  assert (Hm : p_mutex s = Some (TW i)) by (apply H; cbn; eauto).
  split; [discriminate|]. destruct x as [k|j|]; try (rewrite <- (H _), Hm; discriminate). destruct (Nat.eqb_spec i k) as [<-|]; [congruence|]. rewrite <- (H _), Hm. congruence.
Qed.
Lemma mutex_drop_c s i w w0 : nth_error (p_calls s) i = Some w0 -> c_holds w0 = true -> c_holds w = false -> mutex_ok s -> mutex_ok (set_m (set_c s i w) None).
Proof.
  intros H1 H2 H3 H x. change (holds (set_m (set_c s i w) None) x) with (holds (set_c s i w) x). rewrite (holds_set_c s i w w0 x H1). cbn [p_mutex set_m].
  assert (Hm : p_mutex s = Some (TC i)) by (apply H; cbn; eauto).
  split; [discriminate|]. destruct x as [k|j|]; try (rewrite <- (H _), Hm; discriminate). destruct (Nat.eqb_spec i j) as [<-|]; [congruence|]. rewrite <- (H _), Hm. congruence.
Qed.
Lemma mutex_keep_d s d l : d_holds d = d_holds (p_control s) -> mutex_ok s -> mutex_ok (set_d s d l).
Proof. intros Hd H x. change (p_mutex (set_d s d l)) with (p_mutex s). rewrite (H x). destruct x; cbn [holds set_d p_workers p_calls p_control]; try tauto. now rewrite Hd. Qed.

Lemma mutex_init w calls todo : mutex_ok (p_init w calls todo).
Proof.
  intros x. cbn [p_mutex p_init]. split; [discriminate|]. destruct x as [i|j|]; cbn [holds p_init p_workers p_calls p_control].
  - intros (w0 & H & Hh). apply nth_error_In, repeat_spec in H. subst. discriminate.
  - intros (c & H & Hh). apply nth_error_In in H. apply in_map_iff in H as (n & <- & _). discriminate.
  - discriminate.
Qed.
Lemma mutex_step s l s' : pstep s l s' -> mutex_ok s -> mutex_ok s'.
Proof.
  intros Hs H. destruct Hs;
    repeat match goal with |- mutex_ok (set_pop ?s _ _) => change (mutex_ok s) | |- mutex_ok (set_log ?s _ _) => change (mutex_ok s) | |- mutex_ok (set_ready ?s _ _) => change (mutex_ok s)
      | |- mutex_ok (set_push ?s _) => change (mutex_ok s) | |- mutex_ok (set_stop ?s _) => change (mutex_ok s) | |- mutex_ok (set_threads ?s _) => change (mutex_ok s) end;
    try (eapply mutex_keep_w; eauto; reflexivity); try (eapply mutex_keep_c; eauto; reflexivity);
    try (eapply mutex_take_w; eauto; reflexivity); try (eapply mutex_take_c; eauto; reflexivity);
    try (eapply mutex_drop_w; eauto; reflexivity); try (eapply mutex_drop_c; eauto; reflexivity).
  - intros x. rewrite holds_notify. change (p_mutex (notify_all ?z)) with (p_mutex z). apply (mutex_keep_c s j (CGet n []) (CNotify n)); auto.
  - apply mutex_keep_d; [|exact H]. now rewrite H0.
  - apply mutex_keep_d; [|exact H]. now rewrite H0.
  - intros x. cbn [set_m p_mutex]. destruct x as [i|j|]; cbn [holds set_m set_d p_workers p_calls p_control d_holds].
    + split; [discriminate|]. intros HH. assert (p_mutex s = Some (TW i)) by (apply H; exact HH). congruence.
    + split; [discriminate|]. intros HH. assert (p_mutex s = Some (TC j)) by (apply H; exact HH). congruence.
    + tauto.
  - apply mutex_keep_d; [|exact H]. now rewrite H0.
  - intros x. rewrite holds_notify. change (p_mutex (notify_all ?z)) with (p_mutex z). revert x. apply mutex_keep_d; [|exact H]. now rewrite H0.
  - exact H.
  - assert (Hm : p_mutex s = Some TD) by (apply H; cbn; now rewrite H0).
    intros x. cbn [set_m p_mutex]. split; [discriminate|]. destruct x as [i|j|]; cbn [holds set_m set_d p_workers p_calls p_control d_holds]; [| |discriminate]; intros HH.
    + assert (p_mutex s = Some (TW i)) by (apply H; exact HH). congruence.
    + assert (p_mutex s = Some (TC j)) by (apply H; exact HH). congruence.
  - apply mutex_keep_d; [|exact H]. now rewrite H0.
  - intros x. cbn [set_ws set_d p_mutex]. rewrite (H x). destruct x as [i|j|]; cbn [holds set_ws set_d p_workers p_calls p_control].
    + split.
      * intros (w & H1 & H2). exists w. split; [|exact H2]. rewrite nth_error_app1; [exact H1|]. apply nth_error_Some. congruence.
      * intros (w & H1 & H2). exists w. split; [|exact H2]. destruct (Nat.lt_ge_cases i (length (p_workers s))) as [Hi|Hi]; [now rewrite nth_error_app1 in H1|].
        rewrite nth_error_app2 in H1 by exact Hi. destruct (i - length (p_workers s)) as [|[|k]]; cbn in H1; try discriminate. injection H1 as <-. discriminate.
    + tauto.
    + rewrite H0. tauto.
  - apply mutex_keep_d; [|exact H]. now rewrite H0.
Qed.

(** ** Tasks *)
Definition hand (w : wstate) : list task := match w with WGot t | WRun t => [t] | _ => [] end.
(** number of points of a call that has filled the queue *)
Definition pushed (c : cstate) : option nat :=
  match c with CUnlock n | CNotify n | CGet n _ => Some n | CDone rs => Some (length rs) | _ => None end.
Definition got (c : cstate) : list result := match c with CGet _ rs | CDone rs => rs | _ => [] end.
Record tasks_ok (s : pstate) : Prop := {
  t_fifo : p_submitted s = p_popped s ++ p_queue s;
  t_nodup : NoDup (p_submitted s);
  t_sub : forall j i, In (j, i) (p_submitted s) <-> exists c n, nth_error (p_calls s) j = Some c /\ pushed c = Some n /\ i < n;
  t_perm : Permutation (p_popped s) (flat_map hand (p_workers s) ++ map fst (p_log s));
  t_set : forall i t r, nth_error (p_workers s) i = Some (WSet t r) -> In (t, r) (p_log s);
  t_ready : forall t r, In (t, r) (p_ready s) -> In (t, r) (p_log s);
  t_logged : forall t r, In (t, r) (p_log s) -> In (t, r) (p_ready s) \/ exists i, nth_error (p_workers s) i = Some (WSet t r);
  t_len : forall j n rs, nth_error (p_calls s) j = Some (CGet n rs) -> length rs <= n;
  t_got : forall j c i r, nth_error (p_calls s) j = Some c -> nth_error (got c) i = Some r -> In ((j, i), r) (p_log s) }.

Lemma tasks_init w calls todo : tasks_ok (p_init w calls todo).
Proof.
  assert (HW : forall i x, nth_error (repeat WCheck w) i = Some x -> x = WCheck) by (intros i x H; apply nth_error_In, repeat_spec in H; auto).
  assert (HC : forall j c, nth_error (map CIdle calls) j = Some c -> exists n, c = CIdle n) by (intros j c H; apply nth_error_In in H; apply in_map_iff in H as (n & <- & _); eauto).
  split; cbn [p_init p_submitted p_popped p_queue p_calls p_workers p_log p_ready].
  - reflexivity.
  - constructor.
  - intros j i. split; [intros []|]. intros (c & n & H & Hp & _). apply HC in H as (m & ->). discriminate.
  - replace (flat_map hand (repeat WCheck w)) with (@nil task); [constructor|]. induction w; cbn; auto. apply IHw. intros i x H. apply (HW (S i)). exact H.
  - intros i t r H. apply HW in H. discriminate.
  - intros ? ? [].
  - intros ? ? [].
  - intros j n rs H. apply HC in H as (m & H). discriminate.
  - intros j c i r H. apply HC in H as (m & ->). destruct i; discriminate.
Qed.
Lemma perm_set s i w w0 : nth_error (p_workers s) i = Some w0 -> hand w = hand w0 ->
  Permutation (flat_map hand (list_set (p_workers s) i w)) (flat_map hand (p_workers s)).
Proof. intros H1 H2. pose proof (flat_map_set hand _ i w0 w H1) as H. rewrite H2 in H. now apply Permutation_app_inv_l in H. Qed.

(** a worker moves without touching tasks *)
Lemma tasks_keep_w s s' i w w0 : nth_error (p_workers s) i = Some w0 -> hand w = hand w0 -> (forall t r, w <> WSet t r) -> (forall t r, w0 <> WSet t r) ->
  p_submitted s' = p_submitted s -> p_popped s' = p_popped s -> p_queue s' = p_queue s -> p_calls s' = p_calls s -> p_log s' = p_log s -> p_ready s' = p_ready s ->
  p_workers s' = list_set (p_workers s) i w -> tasks_ok s -> tasks_ok s'.
Proof.
  intros H1 H2 H3 H4 E1 E2 E3 E4 E5 E6 E7 [A1 A2 A3 A4 A5 A6 A7 A8 A9]. split; rewrite ?E1, ?E2, ?E3, ?E4, ?E5, ?E6, ?E7; auto.
  - rewrite (perm_set s i w w0 H1 H2). exact A4.
  - intros k t r. rewrite (nth_error_list_set _ _ _ _ _ H1). destruct (Nat.eqb i k); [intros [= Hk]; now destruct (H3 t r)|apply A5].
  - intros t r Hin. destruct (A7 t r Hin) as [HH|(k & HH)]; [now left|right]. exists k. rewrite (nth_error_list_set _ _ _ _ _ H1).
    destruct (Nat.eqb_spec i k) as [<-|]; [|exact HH]. rewrite H1 in HH. injection HH as HH. now destruct (H4 t r).
Qed.
(** a call moves without touching tasks *)
Lemma tasks_keep_c s s' j c c0 : nth_error (p_calls s) j = Some c0 -> pushed c = pushed c0 -> (got c = [] \/ got c = got c0) -> (forall n rs, c = CGet n rs -> rs = [] \/ c0 = CGet n rs) ->
  p_submitted s' = p_submitted s -> p_popped s' = p_popped s -> p_queue s' = p_queue s -> p_workers s' = p_workers s -> p_log s' = p_log s -> p_ready s' = p_ready s ->
  p_calls s' = list_set (p_calls s) j c -> tasks_ok s -> tasks_ok s'.
Proof.
  intros H1 H2 H3 H4 E1 E2 E3 E4 E5 E6 E7 [A1 A2 A3 A4 A5 A6 A7 A8 A9]. split; rewrite ?E1, ?E2, ?E3, ?E4, ?E5, ?E6, ?E7; auto.
  - intros k i. rewrite A3, (nth_error_list_set _ _ _ _ _ H1). destruct (Nat.eqb_spec j k) as [<-|]; [|tauto]. split.
    + intros (c' & n & Hc & Hp & Hi). rewrite H1 in Hc. injection Hc as <-. exists c, n. rewrite H2. auto.
    + intros (c' & n & Hc & Hp & Hi). injection Hc as <-. exists c0, n. rewrite <- H2. auto.
  - intros k n rs. rewrite (nth_error_list_set _ _ _ _ _ H1). destruct (Nat.eqb j k); [|apply A8]. intros [= Hk]. destruct (H4 n rs Hk) as [->| ->]; [cbn; lia|]. eapply A8; eauto.
  - intros k c' i r. rewrite (nth_error_list_set _ _ _ _ _ H1). destruct (Nat.eqb_spec j k) as [<-|]; [|apply A9]. intros [= <-]. destruct H3 as [H3|H3]; rewrite H3; [destruct i; discriminate|]. apply A9. exact H1.
Qed.
Lemma tasks_same s s' : p_submitted s' = p_submitted s -> p_popped s' = p_popped s -> p_queue s' = p_queue s -> p_workers s' = p_workers s -> p_log s' = p_log s -> p_ready s' = p_ready s -> p_calls s' = p_calls s -> tasks_ok s -> tasks_ok s'.
Proof. intros E1 E2 E3 E4 E5 E6 E7 [A1 A2 A3 A4 A5 A6 A7 A8 A9]. split; rewrite ?E1, ?E2, ?E3, ?E4, ?E5, ?E6, ?E7; auto. Qed.
Lemma tasks_notify s : tasks_ok s -> tasks_ok (notify_all s).
Proof.
  assert (HW : forall i t r, nth_error (map wake (p_workers s)) i = Some (WSet t r) <-> nth_error (p_workers s) i = Some (WSet t r)).
  { intros i t r. rewrite nth_error_map. destruct (nth_error (p_workers s) i) as [x|]; cbn; [|tauto]. destruct x; cbn; split; congruence. }
  intros [A1 A2 A3 A4 A5 A6 A7 A8 A9]. split; cbn [notify_all set_ws p_submitted p_popped p_queue p_calls p_workers p_log p_ready]; auto.
  - replace (flat_map hand (map wake (p_workers s))) with (flat_map hand (p_workers s)); [exact A4|].
    clear. induction (p_workers s) as [|w l IH]; cbn; [reflexivity|]. rewrite IH. now destruct w.
  - intros i t r Hi. apply HW in Hi. eauto.
  - intros t r Hin. destruct (A7 t r Hin) as [HH|(k & HH)]; [now left|right]. exists k. now apply HW.
Qed.
Lemma in_tasks_of j i j' n : In (j, i) (tasks_of j' n) <-> j = j' /\ i < n.
Proof.
  unfold tasks_of. rewrite in_map_iff. split.
  - intros (k & [= -> ->] & Hk). apply in_seq in Hk. lia.
  - intros [-> Hi]. exists i. split; [reflexivity|]. apply in_seq. lia.
Qed.
Lemma NoDup_app_intro {A} (a b : list A) : NoDup a -> NoDup b -> (forall x, In x a -> ~ In x b) -> NoDup (a ++ b).
Proof.
  induction a as [|x a IH]; cbn; [auto|]. intros Ha Hb H. inversion_clear Ha as [|? ? Hx Ha']. constructor.
  - intros Hin. apply in_app_iff in Hin as [Hin|Hin]; [auto|]. apply (H x); auto.
  - apply IH; auto.
Qed.
Lemma nodup_tasks_of j n : NoDup (tasks_of j n).
Proof. unfold tasks_of. apply FinFun.Injective_map_NoDup; [intros a b [= ->]; reflexivity|apply seq_NoDup]. Qed.

Lemma tasks_step s l s' : pstep s l s' -> tasks_ok s -> tasks_ok s'.
Proof.
  intros Hs H. destruct Hs;
    try (match goal with HN : nth_error (p_workers ?s) ?i = Some ?w0 |- context [set_w ?s ?i ?w] => apply (tasks_keep_w s _ i w w0 HN); solve [reflexivity | discriminate | exact H] end);
    try (match goal with HN : nth_error (p_calls ?s) ?i = Some ?w0 |- context [set_c ?s ?i ?w] => apply (tasks_keep_c s _ i w w0 HN); solve [reflexivity | discriminate | exact H | left; reflexivity] end);
    try (apply tasks_same with s; auto; fail).
  - (* pop *) destruct H as [A1 A2 A3 A4 A5 A6 A7 A8 A9]. split; cbn [set_pop set_w p_submitted p_popped p_queue p_calls p_workers p_log p_ready]; auto.
    + rewrite A1, H1, <- app_assoc. reflexivity.
    + pose proof (flat_map_set hand _ i WTest (WGot t) H0) as HP. cbn [hand app] in HP. rewrite HP, A4. cbn [app]. rewrite (Permutation_app_comm _ [t]). reflexivity.
    + intros k u r. rewrite (nth_error_list_set _ _ _ _ _ H0). destruct (Nat.eqb i k); [discriminate|apply A5].
    + intros u r Hin. destruct (A7 u r Hin) as [HH|(k & HH)]; [now left|right]. exists k. rewrite (nth_error_list_set _ _ _ _ _ H0). destruct (Nat.eqb_spec i k) as [<-|]; [congruence|exact HH].
  - (* run *) destruct H as [A1 A2 A3 A4 A5 A6 A7 A8 A9]. split; cbn [set_log set_w p_submitted p_popped p_queue p_calls p_workers p_log p_ready]; auto.
    + pose proof (flat_map_set hand _ i (WRun t) (WSet t r) H0) as HP. cbn [hand app] in HP. rewrite A4, <- HP, map_app. cbn [map fst].
      cbn [app]. rewrite Permutation_middle. apply Permutation_app_head. rewrite (Permutation_app_comm _ [t]). reflexivity.
    + intros k u x. rewrite (nth_error_list_set _ _ _ _ _ H0). destruct (Nat.eqb i k); [intros [= -> ->]; apply in_app_iff; right; now left|]. intros Hk. apply in_app_iff. left. eauto.
    + intros u x Hin. apply in_app_iff. left. auto.
    + intros u x Hin. apply in_app_iff in Hin as [Hin|[[= -> ->]|[]]].
      * destruct (A7 u x Hin) as [HH|(k & HH)]; [now left|right]. exists k. rewrite (nth_error_list_set _ _ _ _ _ H0). destruct (Nat.eqb_spec i k) as [<-|]; [congruence|exact HH].
      * right. exists i. rewrite (nth_error_list_set _ _ _ _ _ H0), Nat.eqb_refl. reflexivity.
    + intros j c k x Hj Hx. apply in_app_iff. left. eauto.
  - (* ready *) destruct H as [A1 A2 A3 A4 A5 A6 A7 A8 A9]. split; cbn [set_ready set_w p_submitted p_popped p_queue p_calls p_workers p_log p_ready]; auto.
    + rewrite (perm_set s i WCheck (WSet t r) H0 eq_refl). exact A4.
    + intros k u x. rewrite (nth_error_list_set _ _ _ _ _ H0). destruct (Nat.eqb i k); [discriminate|apply A5].
    + intros u x Hin. apply in_app_iff in Hin as [Hin|[[= <- <-]|[]]]; eauto.
    + intros u x Hin. destruct (A7 u x Hin) as [HH|(k & HH)]; [left; apply in_app_iff; now left|]. destruct (Nat.eqb_spec i k) as [<-|Hn].
      * rewrite H0 in HH. injection HH as -> ->. left. apply in_app_iff. right. now left.
      * right. exists k. rewrite (nth_error_list_set _ _ _ _ _ H0). destruct (Nat.eqb_spec i k); [congruence|exact HH].
  - (* push *) destruct H as [A1 A2 A3 A4 A5 A6 A7 A8 A9]. split; cbn [set_push set_c p_submitted p_popped p_queue p_calls p_workers p_log p_ready]; auto.
    + now rewrite A1, app_assoc.
    + apply NoDup_app_intro; [exact A2|apply nodup_tasks_of|]. intros [k i] Hk Hin. apply in_tasks_of in Hin as [-> Hi]. apply A3 in Hk as (c & m & Hc & Hp & _). rewrite H0 in Hc. injection Hc as <-. discriminate.
    + intros k i. rewrite in_app_iff, A3, in_tasks_of, (nth_error_list_set _ _ _ _ _ H0). destruct (Nat.eqb_spec j k) as [<-|Hn]; split.
      * intros [(c & m & Hc & Hp & _)|[_ Hi]]; [rewrite H0 in Hc; injection Hc as <-; discriminate|]. exists (CUnlock n), n. auto.
      * intros (c & m & [= <-] & [= <-] & Hi). right. auto.
      * intros [Hl|[Hl _]]; [exact Hl|congruence].
      * auto.
    + intros k m rs. rewrite (nth_error_list_set _ _ _ _ _ H0). destruct (Nat.eqb j k); [discriminate|apply A8].
    + intros k c i r. rewrite (nth_error_list_set _ _ _ _ _ H0). destruct (Nat.eqb j k); [intros [= <-]; destruct i; discriminate|apply A9].
  - (* notify *) apply tasks_notify. apply (tasks_keep_c s _ j (CGet n []) (CNotify n) H0); try reflexivity; [left; reflexivity|intros ? ? [= _ <-]; now left|exact H].
  - (* get *) destruct H as [A1 A2 A3 A4 A5 A6 A7 A8 A9]. split; cbn [set_c p_submitted p_popped p_queue p_calls p_workers p_log p_ready]; auto.
    + intros k i. rewrite A3, (nth_error_list_set _ _ _ _ _ H0). destruct (Nat.eqb_spec j k) as [<-|Hn]; [|tauto]. split.
      * intros (c & m & Hc & Hp & Hi). rewrite H0 in Hc. injection Hc as <-. injection Hp as <-. exists (CGet n (rs ++ [r])), n. auto.
      * intros (c & m & [= <-] & [= <-] & Hi). exists (CGet n rs), n. auto.
    + intros k m rs'. rewrite (nth_error_list_set _ _ _ _ _ H0). destruct (Nat.eqb j k); [|apply A8]. intros [= <- <-]. rewrite app_length. cbn. lia.
    + intros k c i x. rewrite (nth_error_list_set _ _ _ _ _ H0). destruct (Nat.eqb_spec j k) as [<-|Hn]; [|apply A9]. intros [= <-]. cbn [got]. intros Hx.
      destruct (Nat.lt_ge_cases i (length rs)) as [Hi|Hi].
      * rewrite nth_error_app1 in Hx by exact Hi. apply (A9 j (CGet n rs)); auto.
      * rewrite nth_error_app2 in Hx by exact Hi. destruct (i - length rs) as [|[|q]] eqn:Eq; cbn in Hx; try discriminate. injection Hx as <-.
        replace i with (length rs) by lia. auto.
  - (* done *) destruct H as [A1 A2 A3 A4 A5 A6 A7 A8 A9]. pose proof (A8 j n rs H0) as Hl. assert (Hrs : length rs = n) by lia.
    split; cbn [set_c p_submitted p_popped p_queue p_calls p_workers p_log p_ready]; auto.
    + intros k i. rewrite A3, (nth_error_list_set _ _ _ _ _ H0). destruct (Nat.eqb_spec j k) as [<-|Hn]; [|tauto]. split.
      * intros (c & m & Hc & Hp & Hi). rewrite H0 in Hc. injection Hc as <-. injection Hp as <-. exists (CDone rs), n. cbn [pushed]. split; [reflexivity|]. split; [now rewrite Hrs|exact Hi].
      * intros (c & m & [= <-] & [= <-] & Hi). exists (CGet n rs), n. split; [exact H0|]. split; [reflexivity|lia].
    + intros k m rs'. rewrite (nth_error_list_set _ _ _ _ _ H0). destruct (Nat.eqb j k); [discriminate|apply A8].
    + intros k c i x. rewrite (nth_error_list_set _ _ _ _ _ H0). destruct (Nat.eqb_spec j k) as [<-|Hn]; [|apply A9]. intros [= <-]. cbn [got]. apply (A9 j (CGet n rs)). exact H0.
  - (* DS_notify *) apply tasks_notify. apply tasks_same with s; auto.
  - (* spawn *) destruct H as [A1 A2 A3 A4 A5 A6 A7 A8 A9]. split; cbn [set_threads set_ws set_d p_submitted p_popped p_queue p_calls p_workers p_log p_ready]; auto.
    + rewrite flat_map_app. cbn. now rewrite app_nil_r.
    + intros i t r Hi. destruct (Nat.lt_ge_cases i (length (p_workers s))) as [Hl|Hl]; [rewrite nth_error_app1 in Hi by exact Hl; eauto|].
      rewrite nth_error_app2 in Hi by exact Hl. destruct (i - length (p_workers s)) as [|[|q]]; discriminate.
    + intros t r Hin. destruct (A7 t r Hin) as [HH|(k & HH)]; [now left|right]. exists k. rewrite nth_error_app1; [exact HH|]. apply nth_error_Some. congruence.
Qed.
Lemma reach_inv {S L} (R : S -> L -> S -> Prop) (P : S -> Prop) s0 s : P s0 -> (forall a l b, R a l b -> P a -> P b) -> reach R s0 s -> P s.
Proof. intros H0 HS. induction 1; eauto. Qed.
Lemma p_reach_mutex w calls todo s : p_reach w calls todo s -> mutex_ok s.
Proof. apply reach_inv; [apply mutex_init|]. intros; eapply mutex_step; eauto. Qed.
Lemma p_reach_tasks w calls todo s : p_reach w calls todo s -> tasks_ok s.
Proof. apply reach_inv; [apply tasks_init|]. intros; eapply tasks_step; eauto. Qed.
