(** * C28-C30, C33: evaluators return the results in order, each point evaluated once. *)
From Coq Require Import ZArith Bool Permutation.
From Verif Require Import Prelude Flt Optimizer Evaluator EvaluatorFacts.

(** Specification: [rs] answers [n] points according to what the evaluations returned,
    and no point was evaluated twice. *)
Definition answered (n : nat) (log : list (nat * result)) (rs : list result) : Prop :=
  length rs = n /\ (forall i r, nth_error rs i = Some r -> In (i, r) log) /\ NoDup (map fst log).
(** Then each position is the only result its evaluation returned. *)
Lemma nodup_fst_unique {A B} (l : list (A * B)) a x y : NoDup (map fst l) -> In (a, x) l -> In (a, y) l -> x = y.
Proof.
  induction l as [|[b z] l IH]; cbn; [intros _ []|]. intros Hn. inversion_clear Hn as [|? ? H1 H2].
  intros [[= <- <-]|H] [[= <-]|H']; auto; exfalso; apply H1; apply in_map_iff; eexists; split; [|eassumption| |eassumption]; reflexivity.
Qed.
Lemma answered_unique n log rs : answered n log rs -> forall i r r', nth_error rs i = Some r -> In (i, r') log -> r' = r.
Proof. intros (_ & H1 & H2) i r r' Hi Hr. eapply nodup_fst_unique; eauto. Qed.
(** For an objective that is a function, the results are that function of the points, in order. *)
Lemma answered_function n log rs (f : nat -> result) : answered n log rs -> (forall i r, In (i, r) log -> r = f i) -> rs = map f (seq 0 n).
Proof.
  intros (H1 & H2 & _) H. apply nth_error_ext'; [rewrite map_length, seq_length; exact H1|]. intros i Hi.
  destruct (nth_error rs i) as [r|] eqn:Er; [|apply nth_error_None in Er; lia].
  rewrite (H i r (H2 i r Er)). symmetry. rewrite nth_error_map. rewrite (nth_error_nth' _ 0) by (rewrite seq_length; lia). rewrite seq_nth by lia. reflexivity.
Qed.

(** ** C28 *)
Theorem C28_evaluate_noexcept : forall b : behaviour,
  (forall f, b = Returns (ROk f) -> evaluate_noexcept b = ROk f) /\
  (forall e, b = Returns (RErr e) -> evaluate_noexcept b = RErr e) /\
  (forall w, b = ThrowsStd w -> evaluate_noexcept b = RErr w) /\
  (b = ThrowsOther -> evaluate_noexcept b = RErr "Unknown exception while evaluating objective").
Proof. intros b. split; [intros ? ->; reflexivity|]. split; [intros ? ->; reflexivity|]. split; [intros ? ->; reflexivity|]. intros ->. reflexivity. Qed.
Lemma sequential_loop_spec {P} (obj : P -> behaviour) pts rs : sequential_loop obj pts rs = rs ++ map (fun p => evaluate_noexcept (obj p)) pts.
Proof. revert rs. induction pts as [|p t IH]; intros rs; cbn [sequential_loop map]; [now rewrite app_nil_r|]. rewrite IH, <- app_assoc. reflexivity. Qed.
Theorem C28_sequential : forall (P : Type) (obj : P -> behaviour) pts,
  length (sequential_evaluate obj pts) = length pts /\
  forall i p, nth_error pts i = Some p -> nth_error (sequential_evaluate obj pts) i = Some (evaluate_noexcept (obj p)).
Proof.
  intros P obj pts. unfold sequential_evaluate. rewrite sequential_loop_spec. cbn [app]. split; [apply map_length|].
  intros i p Hi. rewrite nth_error_map, Hi. reflexivity.
Qed.

(** ** C29: batch *)
Record binv (s : bstate) : Prop := {
  bi_len : length (b_threads s) <= b_n s;
  bi_late : b_results s <> [] \/ b_returned s = true -> length (b_threads s) = b_n s;
  bi_rlen : length (b_results s) <= b_n s;
  bi_ret : b_returned s = true -> length (b_results s) = b_n s;
  bi_log : forall i r, In (i, r) (b_log s) <-> nth_error (b_threads s) i = Some (AFinished r);
  bi_nodup : NoDup (map fst (b_log s));
  bi_res : forall i r, nth_error (b_results s) i = Some r -> nth_error (b_threads s) i = Some (AFinished r) }.
Lemma binv_step s s' : bstep s s' -> binv s -> binv s'.
Proof.
  intros Hs [A1 A2 A3 A4 A5 A6 A7]. destruct Hs; cbn [b_n b_threads b_results b_log b_returned] in *; split; cbn [b_n b_threads b_results b_log b_returned]; auto.
  - rewrite app_length. cbn. lia.
  - intros [Hn|Hn]; congruence.
  - intros i r. rewrite A5. split.
    + intros Hi. rewrite nth_error_app1; [exact Hi|]. apply nth_error_Some. congruence.
    + intros Hi. destruct (Nat.lt_ge_cases i (length ts)) as [Hl|Hl]; [now rewrite nth_error_app1 in Hi|]. rewrite nth_error_app2 in Hi by exact Hl. destruct (i - length ts) as [|[|q]]; discriminate.
  - intros i r. destruct i; discriminate.
  - now rewrite list_set_length.
  - now rewrite list_set_length.
  - intros k x. rewrite in_app_iff, A5, (nth_error_list_set _ _ _ _ _ H). cbn [In]. destruct (Nat.eqb_spec i k) as [<-|Hn]; split.
    + intros [Hk|[[= <-]|[]]]; [congruence|reflexivity].
    + intros [= <-]. right. now left.
    + intros [Hk|[[= <- <-]|[]]]; [exact Hk|congruence].
    + auto.
  - rewrite map_app. cbn [map fst]. apply NoDup_app_intro; [exact A6|constructor; [intros []|constructor]|].
    intros k Hk [<-|[]]. apply in_map_iff in Hk as ([k x] & Hkx & Hk). cbn in Hkx. subst k. apply A5 in Hk. congruence.
  - intros k x Hk. rewrite (nth_error_list_set _ _ _ _ _ H). specialize (A7 k x Hk). destruct (Nat.eqb_spec i k) as [<-|]; [congruence|exact A7].
  - rewrite app_length. cbn. assert (length rs < length ts) by (apply nth_error_Some; congruence). lia.
  - discriminate.
  - intros i x Hi. destruct (Nat.lt_ge_cases i (length rs)) as [Hl|Hl]; [rewrite nth_error_app1 in Hi by exact Hl; auto|].
    rewrite nth_error_app2 in Hi by exact Hl. destruct (i - length rs) as [|[|q]] eqn:Eq; cbn in Hi; try discriminate. injection Hi as <-. replace i with (length rs) by lia. exact H0.
Qed.
Lemma b_reach_inv n s : b_reach n s -> binv s /\ b_n s = n.
Proof.
  intros H. split.
  - revert H. apply reach_inv; [|intros; eapply binv_step; eauto].
    split; cbn [b_init b_n b_threads b_results b_log b_returned length map In nth_error].
    + lia.
    + intros [H|H]; congruence.
    + lia.
    + discriminate.
    + intros i r. split; [intros []|]. destruct i; discriminate.
    + constructor.
    + intros i r. destruct i; discriminate.
  - induction H as [|s0 l s1 _ IH Hs]; [reflexivity|]. rewrite <- IH. now destruct Hs.
Qed.
Theorem C29_batch : forall n s, b_reach n s -> b_returned s = true -> answered n (b_log s) (b_results s).
Proof.
  intros n s H Hr. destruct (b_reach_inv n s H) as [HI <-]. destruct HI as [A1 A2 A3 A4 A5 A6 A7]. split; [auto|]. split; [|exact A6].
  intros i r Hi. apply A5. now apply A7.
Qed.

(** Executions with their labels. *)
Inductive exec {S L} (R : S -> L -> S -> Prop) (s0 : S) : list L -> S -> Prop :=
| exec_nil : exec R s0 [] s0
| exec_step ls s l s' : exec R s0 ls s -> R s l s' -> exec R s0 (ls ++ [l]) s'.
Lemma exec_reach {S L} (R : S -> L -> S -> Prop) s0 ls s : exec R s0 ls s -> reach R s0 s.
Proof. induction 1; [constructor|econstructor; eauto]. Qed.
Lemma reach_exec {S L} (R : S -> L -> S -> Prop) s0 s : reach R s0 s -> exists ls, exec R s0 ls s.
Proof. induction 1 as [|s l s' _ (ls & H) Hs]; [exists []; constructor|]. exists (ls ++ [l]). econstructor; eauto. Qed.
(** number of labels satisfying a test *)
Definition count {L} (p : L -> bool) (ls : list L) : nat := length (filter p ls).
Lemma count_app {L} (p : L -> bool) a b : count p (a ++ b) = count p a + count p b.
Proof. unfold count. now rewrite filter_app, app_length. Qed.
Lemma count_all {L} (ls : list L) : count (fun _ => true) ls = length ls.
Proof. unfold count. induction ls; cbn; auto. Qed.
(** Steps with [cost] decrease a measure, steps with [gain] increase it by at most g. *)
Lemma exec_bound {S L} (R : S -> L -> S -> Prop) (ok : L -> Prop) (cost gain : L -> bool) (g : nat) (P : S -> Prop) (m : S -> nat) s0 ls s :
  P s0 -> (forall a l b, R a l b -> ok l -> P a -> P b) ->
  (forall a l b, R a l b -> ok l -> P a -> m b + (if cost l then 1 else 0) <= m a + (if gain l then g else 0)) ->
  Forall ok ls -> exec R s0 ls s -> P s /\ count cost ls + m s <= m s0 + g * count gain ls.
Proof.
  intros H0 HP HM Hok HX. induction HX as [|ls s l s' HX IH Hs]; [split; [exact H0|unfold count; cbn; lia]|].
  apply Forall_app in Hok as [Hok1 Hok2]. inversion_clear Hok2 as [|? ? Hl _]. destruct (IH Hok1) as [I1 I2]. split; [eauto|].
  specialize (HM s l s' Hs Hl I1). rewrite !count_app. unfold count at 2 4. cbn [filter]. destruct (cost l), (gain l); cbn [length]; lia.
Qed.

(** It always returns: every execution has at most 3n+1 steps, and until it has returned some step is possible. *)
Definition running_count (l : list athread) : nat := length (filter (fun t => match t with ARunning => true | _ => false end) l).
Lemma running_app a b : running_count (a ++ b) = running_count a + running_count b.
Proof. unfold running_count. now rewrite filter_app, app_length. Qed.
Lemma running_set l i r : nth_error l i = Some ARunning -> S (running_count (list_set l i (AFinished r))) = running_count l.
Proof.
  revert i. induction l as [|t l IH]; intros [|i]; cbn [nth_error]; try discriminate.
  - intros [= ->]. reflexivity.
  - intros H. specialize (IH i H). unfold running_count in *. cbn [list_set filter]. destruct t; cbn [length]; auto.
Qed.
Theorem C29_batch_returns : forall n,
  (forall ls s, exec (fun a (_ : unit) b => bstep a b) (b_init n) ls s -> length ls <= 3 * n + 1) /\
  (forall s, b_reach n s -> b_returned s = false -> exists s', bstep s s').
Proof.
  intros n. split.
  - intros ls s H.
    pose proof (exec_bound (fun a (_ : unit) b => bstep a b) (fun _ => True) (fun _ => true) (fun _ => false) 0 (fun s => binv s)
       (fun s => 2 * (b_n s - length (b_threads s)) + running_count (b_threads s) + (b_n s - length (b_results s)) + (if b_returned s then 0 else 1)) (b_init n) ls s) as HB.
    cbn [b_init b_n b_threads b_results b_returned length running_count filter] in HB. rewrite count_all in HB.
    assert (HF : Forall (fun _ : unit => True) ls) by (clear; induction ls; auto).
    enough (HE : binv s /\ length ls + (2 * (b_n s - length (b_threads s)) + running_count (b_threads s) + (b_n s - length (b_results s)) + (if b_returned s then 0 else 1)) <= 2 * (n - 0) + 0 + (n - 0) + 1 + 0) by lia.
    apply HB; auto.
    + apply (b_reach_inv n). constructor.
    + intros a _ b Hab _. now apply binv_step.
    + intros a _ b Hab _ [A1 A2 A3 A4 A5 A6 A7]. destruct Hab; cbn [b_n b_threads b_results b_log b_returned] in *.
      * rewrite running_app, app_length. cbn. lia.
      * rewrite list_set_length. pose proof (running_set ts i r H0). destruct b; lia.
      * rewrite app_length. cbn. assert (length rs < length ts) by (apply nth_error_Some; congruence). lia.
      * lia.
  - intros s H Hr. destruct (b_reach_inv n s H) as [[A1 A2 A3 A4 A5 A6 A7] Hn]. destruct s as [m ts rs lg b]. cbn in *. subst b m.
    destruct (Nat.eq_dec (length ts) n) as [He|He].
    + destruct (Nat.eq_dec (length rs) n) as [He'|He']; [eexists; apply BReturn; auto|].
      destruct (nth_error ts (length rs)) as [[|r]|] eqn:Et.
      * eexists. eapply (BEval n ts rs lg false _ (ROk fzero)). exact Et.
      * eexists. eapply BGet; eauto.
      * apply nth_error_None in Et. lia.
    + destruct rs as [|r rs]; [|exfalso; apply He, A2; left; discriminate]. eexists. apply BLaunch. lia.
Qed.

(** ** C29, C33: async *)
Definition collected (s : astate) (k : nat) : Prop := match a_phase s with ACollecting q => k < q | AReturned => True | _ => False end.
Record ainv (s : astate) : Prop := {
  ai_next : a_next s <= a_n s;
  ai_rlen : length (a_results s) = a_n s;
  ai_limit : (N.of_nat (length (a_threads s)) <= a_limit s)%N;
  ai_idx : forall k i t, nth_error (a_threads s) k = Some (i, t) -> i < a_next s;
  ai_inj : NoDup (map fst (a_threads s));
  ai_fin : forall k i r, nth_error (a_threads s) k = Some (i, AFinished r) -> In (i, r) (a_log s);
  ai_run : forall k i, nth_error (a_threads s) k = Some (i, ARunning) -> ~ In i (map fst (a_log s));
  ai_lognext : forall i, In i (map fst (a_log s)) -> i < a_next s;
  ai_nodup : NoDup (map fst (a_log s));
  ai_res : forall i r, nth_error (a_results s) i = Some (Some r) -> In (i, r) (a_log s);
  ai_all : forall i, i < a_next s -> (exists r, nth_error (a_results s) i = Some (Some r)) \/ (exists k t, nth_error (a_threads s) k = Some (i, t) /\ ~ collected s k);
  ai_free : forall k i t, nth_error (a_threads s) k = Some (i, t) -> ~ collected s k -> nth_error (a_results s) i = Some None;
  ai_coll : match a_phase s with ACollecting k => k <= length (a_threads s) /\ a_next s = a_n s | AReturned => a_next s = a_n s | _ => True end }.
Lemma nth_error_erase {A} k (l : list A) j : k < length l -> nth_error (erase k l) j = nth_error l (if j <? k then j else S j).
Proof.
  intros Hk. unfold erase. destruct (Nat.ltb_spec j k).
  - rewrite nth_error_app1 by (rewrite firstn_length; lia). rewrite <- (firstn_skipn k l) at 2. rewrite nth_error_app1 by (rewrite firstn_length; lia). reflexivity.
  - rewrite nth_error_app2 by (rewrite firstn_length; lia). rewrite firstn_length, Nat.min_l by lia.
    rewrite <- (firstn_skipn (S k) l) at 2. rewrite nth_error_app2 by (rewrite firstn_length; lia). rewrite firstn_length, Nat.min_l by lia. f_equal; lia.
Qed.
Lemma erase_length {A} k (l : list A) : k < length l -> S (length (erase k l)) = length l.
Proof. intros H. unfold erase. rewrite app_length, firstn_length, skipn_length. lia. Qed.
Lemma map_list_set {A B} (f : A -> B) l i x : map f (list_set l i x) = list_set (map f l) i (f x).
Proof. revert i. induction l as [|a l IH]; intros [|i]; cbn; auto. now rewrite IH. Qed.
Lemma list_set_same {A} (l : list A) i x : nth_error l i = Some x -> list_set l i x = l.
Proof. revert i. induction l as [|a l IH]; intros [|i]; cbn; try discriminate; [intros [= ->]; reflexivity|]. intros H. now rewrite IH. Qed.
Lemma map_erase {A B} (f : A -> B) k l : map f (erase k l) = erase k (map f l).
Proof. unfold erase. rewrite map_app. f_equal; [symmetry; apply firstn_map|symmetry; apply skipn_map]. Qed.
Lemma erase_NoDup {A} k (l : list A) : NoDup l -> NoDup (erase k l).
Proof.
  unfold erase. destruct (nth_error l k) as [x|] eqn:E.
  - intros H. apply nth_error_split in E as (a & b & -> & <-).
    rewrite firstn_app, firstn_all, Nat.sub_diag. cbn [firstn]. rewrite app_nil_r.
    replace (S (length a)) with (length (a ++ [x])) by (rewrite app_length; cbn; lia). change (x :: b) with ([x] ++ b). rewrite app_assoc, skipn_app, skipn_all, Nat.sub_diag. cbn [skipn app].
    apply NoDup_remove_1 in H. exact H.
  - intros H. apply nth_error_None in E. rewrite firstn_all2 by exact E. rewrite skipn_all2 by lia. now rewrite app_nil_r.
Qed.
Lemma nodup_fst_index {B} (l : list (nat * B)) j k i t u : NoDup (map fst l) -> nth_error l j = Some (i, t) -> nth_error l k = Some (i, u) -> j = k.
Proof.
  intros Hn Hj Hk. rewrite NoDup_nth_error in Hn. apply Hn.
  - rewrite map_length. apply nth_error_Some. congruence.
  - now rewrite !nth_error_map, Hj, Hk.
Qed.
Lemma ainv_step s l s' : astep s l s' -> ainv s -> ainv s'.
Proof.
  intros Hs [A1 A2 A3 A4 A5 A6 A7 A8 A9 A10 A11 A12 A13]. destruct Hs; split; unfold collected in *; cbn [a_with a_n a_limit a_phase a_next a_threads a_results a_log] in *; auto.
  (* AEval *)
  - now rewrite list_set_length.
  - intros j x t. rewrite (nth_error_list_set _ _ _ _ _ H). destruct (Nat.eqb k j); [intros [= <- <-]; eauto|eauto].
  - rewrite map_list_set. cbn [fst]. rewrite list_set_same; [exact A5|]. rewrite nth_error_map, H. reflexivity.
  - intros j x t. rewrite (nth_error_list_set _ _ _ _ _ H), in_app_iff. destruct (Nat.eqb k j); [intros [= <- <-]; right; now left|eauto].
  - intros j x. rewrite (nth_error_list_set _ _ _ _ _ H), map_app, in_app_iff. destruct (Nat.eqb_spec k j) as [<-|Hn]; [discriminate|]. intros Hj [Hin|[<-|[]]]; [eapply A7; eauto|].
    apply Hn. exact (nodup_fst_index _ _ _ _ _ _ A5 H Hj).
  - intros x. rewrite map_app, in_app_iff. intros [Hin|[<-|[]]]; eauto.
  - rewrite map_app. apply NoDup_app_intro; [exact A9|constructor; [intros []|constructor]|]. intros x Hx [<-|[]]. eapply A7; eauto.
  - intros x y Hx. apply in_app_iff. left. eauto.
  - intros x Hx. destruct (A11 x Hx) as [HH|(j & t & HH & Hc)]; [now left|right]. exists j. rewrite (nth_error_list_set _ _ _ _ _ H). destruct (Nat.eqb_spec k j) as [<-|]; [|eauto].
    rewrite H in HH. injection HH as <- <-. eauto.
  - intros j x t. rewrite (nth_error_list_set _ _ _ _ _ H). destruct (Nat.eqb_spec k j) as [<-|]; [intros [= <- <-]; eauto|eauto].
  - rewrite list_set_length. exact A13.
  (* ALaunch *)
  - rewrite app_length. cbn. lia.
  - intros j x t Hj. destruct (Nat.lt_ge_cases j (length (a_threads s))) as [Hl|Hl]; [rewrite nth_error_app1 in Hj by exact Hl; specialize (A4 j x t Hj); lia|].
    rewrite nth_error_app2 in Hj by exact Hl. destruct (j - length (a_threads s)) as [|[|q]]; cbn in Hj; try discriminate. injection Hj as <- <-. lia.
  - rewrite map_app. apply NoDup_app_intro; [exact A5|constructor; [intros []|constructor]|]. intros x Hx [<-|[]]. apply in_map_iff in Hx as ([y t] & Hy & Hx). cbn in Hy. subst y.
    apply In_nth_error in Hx as (j & Hj). specialize (A4 j _ _ Hj). lia.
  - intros j x t Hj. destruct (Nat.lt_ge_cases j (length (a_threads s))) as [Hl|Hl]; [rewrite nth_error_app1 in Hj by exact Hl; eauto|].
    rewrite nth_error_app2 in Hj by exact Hl. destruct (j - length (a_threads s)) as [|[|q]]; cbn in Hj; discriminate.
  - intros j x Hj. destruct (Nat.lt_ge_cases j (length (a_threads s))) as [Hl|Hl]; [rewrite nth_error_app1 in Hj by exact Hl; eauto|].
    rewrite nth_error_app2 in Hj by exact Hl. destruct (j - length (a_threads s)) as [|[|q]]; cbn in Hj; try discriminate. injection Hj as <-. intros Hin. apply A8 in Hin. lia.
  - intros x Hx. apply A8 in Hx. lia.
  - intros x Hx. assert (x < a_next s \/ x = a_next s) as [Hl| ->] by lia.
    + destruct (A11 x Hl) as [HH|(j & t & HH & Hc)]; [now left|right]. exists j, t. split; [|tauto]. rewrite nth_error_app1; [exact HH|]. apply nth_error_Some. congruence.
    + right. exists (length (a_threads s)), ARunning. split; [|tauto]. rewrite nth_error_app2, Nat.sub_diag by lia. reflexivity.
  - intros j x t Hj _. destruct (Nat.lt_ge_cases j (length (a_threads s))) as [Hl|Hl]; [rewrite nth_error_app1 in Hj by exact Hl; eapply A12; eauto; rewrite H; tauto|].
    rewrite nth_error_app2 in Hj by exact Hl. destruct (j - length (a_threads s)) as [|[|q]]; cbn in Hj; try discriminate. injection Hj as <- <-.
    destruct (nth_error (a_results s) (a_next s)) as [[r|]|] eqn:Er; [|reflexivity|].
    + apply A10 in Er. assert (a_next s < a_next s); [|lia]. apply A8. apply in_map_iff. exists (a_next s, r). auto.
    + apply nth_error_None in Er. lia.
  (* AScan *)
  - intros x Hx. destruct (A11 x Hx) as [HH|(j & t & HH & Hc)]; [now left|right]. exists j, t. split; [exact HH|tauto].
  - intros j x t Hj _. eapply A12; eauto. rewrite H. tauto.
  (* APollReady *)
  - now rewrite list_set_length.
  - assert (Hk : k < length (a_threads s)) by (apply nth_error_Some; congruence). pose proof (erase_length k (a_threads s) Hk). lia.
  - assert (Hk : k < length (a_threads s)) by (apply nth_error_Some; congruence). intros j x t. rewrite nth_error_erase by exact Hk. eauto.
  - rewrite map_erase. now apply erase_NoDup.
  - assert (Hk : k < length (a_threads s)) by (apply nth_error_Some; congruence). intros j x t. rewrite nth_error_erase by exact Hk. eauto.
  - assert (Hk : k < length (a_threads s)) by (apply nth_error_Some; congruence). intros j x. rewrite nth_error_erase by exact Hk. eauto.
  - assert (Hfree : nth_error (a_results s) i = Some None) by (eapply A12; eauto; rewrite H; tauto).
    intros x y. rewrite (nth_error_list_set _ _ _ _ _ Hfree). destruct (Nat.eqb_spec i x) as [<-|]; [intros [= <-]; eauto|eauto].
  - assert (Hk : k < length (a_threads s)) by (apply nth_error_Some; congruence).
    assert (Hfree : nth_error (a_results s) i = Some None) by (eapply A12; eauto; rewrite H; tauto).
    intros x Hx. rewrite (nth_error_list_set _ _ _ _ _ Hfree). destruct (Nat.eqb_spec i x) as [<-|Hn]; [left; eauto|].
    destruct (A11 x Hx) as [HH|(j & t & HH & Hc)]; [now left|right]. assert (Hjk : j <> k) by (intros ->; congruence).
    exists (if j <? k then j else j - 1), t. split; [|tauto]. rewrite nth_error_erase by exact Hk. destruct (Nat.ltb_spec j k).
    + destruct (Nat.ltb_spec j k); [exact HH|lia].
    + destruct (Nat.ltb_spec (j - 1) k); [lia|]. replace (S (j - 1)) with j by lia. exact HH.
  - assert (Hk : k < length (a_threads s)) by (apply nth_error_Some; congruence).
    assert (Hfree : nth_error (a_results s) i = Some None) by (eapply A12; eauto; rewrite H; tauto).
    intros j x t. rewrite nth_error_erase by exact Hk. intros Hj _. rewrite (nth_error_list_set _ _ _ _ _ Hfree). destruct (Nat.eqb_spec i x) as [<-|Hn].
    + exfalso. assert (HH := nodup_fst_index _ _ _ _ _ _ A5 Hj H0). destruct (Nat.ltb_spec j k); lia.
    + eapply A12; eauto. rewrite H. tauto.
  (* APollTimeout *)
  - intros x Hx. destruct (A11 x Hx) as [HH|(j & t & HH & Hc)]; [now left|right]. exists j, t. split; [exact HH|tauto].
  - intros j x t Hj _. eapply A12; eauto. rewrite H. tauto.
  (* AScanEnd *)
  - intros x Hx. destruct (A11 x Hx) as [HH|(j & t & HH & Hc)]; [now left|right]. exists j, t. split; [exact HH|tauto].
  - intros j x t Hj _. eapply A12; eauto. rewrite H. tauto.
  (* ACollect *)
  - intros x Hx. destruct (A11 x Hx) as [HH|(j & t & HH & Hc)]; [now left|right]. exists j, t. split; [exact HH|lia].
  - intros j x t Hj _. eapply A12; eauto. rewrite H. tauto.
  - lia.
  (* ACollectGet *)
  - now rewrite list_set_length.
  - assert (Hfree : nth_error (a_results s) i = Some None) by (eapply A12; eauto; rewrite H; lia).
    intros x y. rewrite (nth_error_list_set _ _ _ _ _ Hfree). destruct (Nat.eqb_spec i x) as [<-|]; [intros [= <-]; eauto|eauto].
  - assert (Hfree : nth_error (a_results s) i = Some None) by (eapply A12; eauto; rewrite H; lia).
    intros x Hx. rewrite (nth_error_list_set _ _ _ _ _ Hfree). destruct (Nat.eqb_spec i x) as [<-|Hn]; [left; eauto|].
    destruct (A11 x Hx) as [HH|(j & t & HH & Hc)]; [now left|right]. exists j, t. split; [exact HH|]. rewrite H in Hc. assert (j <> k) by congruence. lia.
  - assert (Hfree : nth_error (a_results s) i = Some None) by (eapply A12; eauto; rewrite H; lia).
    intros j x t Hj Hc. rewrite (nth_error_list_set _ _ _ _ _ Hfree). destruct (Nat.eqb_spec i x) as [<-|Hn].
    + exfalso. assert (HH := nodup_fst_index _ _ _ _ _ _ A5 Hj H0). lia.
    + eapply A12; eauto. rewrite H. lia.
  - rewrite H in A13. destruct A13 as [A13 A14]. split; [|exact A14]. assert (k < length (a_threads s)) by (apply nth_error_Some; congruence). lia.
  (* ACollectEnd *)
  - intros x Hx. destruct (A11 x Hx) as [HH|(j & t & HH & Hc)]; [now left|]. exfalso. rewrite H in Hc. assert (j < length (a_threads s)) by (apply nth_error_Some; congruence). lia.
  - intros j x t Hj Hc. tauto.
  - rewrite H in A13. tauto.
Qed.
Lemma a_reach_inv n limit s : a_reach n limit s -> ainv s /\ a_n s = n /\ a_limit s = limit.
Proof.
  intros H. split; [|split].
  - revert H. apply reach_inv; [|intros; eapply ainv_step; eauto].
    split; unfold collected; cbn [a_init a_n a_limit a_phase a_next a_threads a_results a_log length map In].
    + lia.
    + apply repeat_length.
    + lia.
    + intros k i t H. destruct k; discriminate.
    + constructor.
    + intros k i r H. destruct k; discriminate.
    + intros k i H. destruct k; discriminate.
    + intros i [].
    + constructor.
    + intros i r H. apply nth_error_In, repeat_spec in H. discriminate.
    + intros i H. lia.
    + intros k i t H. destruct k; discriminate.
    + exact I.
  - induction H as [|s0 l s1 _ IH Hs]; [reflexivity|]. rewrite <- IH. now destruct Hs.
  - induction H as [|s0 l s1 _ IH Hs]; [reflexivity|]. rewrite <- IH. now destruct Hs.
Qed.
Theorem C29_async : forall n limit s, a_reach n limit s -> a_phase s = AReturned ->
  exists rs, a_results s = map Some rs /\ answered n (a_log s) rs.
Proof.
  intros n limit s H Hp. destruct (a_reach_inv n limit s H) as ([A1 A2 A3 A4 A5 A6 A7 A8 A9 A10 A11 A12 A13] & <- & _). rewrite Hp in A13.
  assert (Hall : forall i, i < a_n s -> exists r, nth_error (a_results s) i = Some (Some r)).
  { intros i Hi. rewrite <- A13 in Hi. destruct (A11 i Hi) as [HH|(k & t & HH & Hc)]; [exact HH|]. exfalso. apply Hc. unfold collected. rewrite Hp. exact I. }
  exists (map (fun o => match o with Some r => r | None => RErr "" end) (a_results s)).
  assert (HE : a_results s = map Some (map (fun o => match o with Some r => r | None => RErr "" end) (a_results s))).
  { rewrite map_map. rewrite <- (map_id (a_results s)) at 1. apply map_ext_in. intros o Ho. apply In_nth_error in Ho as (i & Hi).
    destruct (Hall i) as (r & Hr); [rewrite <- A2; apply nth_error_Some; congruence|]. rewrite Hi in Hr. injection Hr as ->. reflexivity. }
  split; [exact HE|]. split; [rewrite map_length; exact A2|]. split; [|exact A9].
  intros i r Hi. rewrite nth_error_map in Hi. destruct (nth_error (a_results s) i) as [o|] eqn:Eo; [|discriminate]. injection Hi as <-.
  destruct (Hall i) as (r & Hr); [rewrite <- A2; apply nth_error_Some; congruence|]. rewrite Eo in Hr. injection Hr as ->. now apply A10.
Qed.

(** ** C33 *)
(** Never more than [limit] evaluations are in flight. *)
Lemma filter_length_le {A} (f : A -> bool) l : length (filter f l) <= length l.
Proof. induction l as [|a l IH]; cbn; [lia|]. destruct (f a); cbn; lia. Qed.
Definition in_flight (s : astate) : nat := length (filter (fun t => match snd t with ARunning => true | _ => false end) (a_threads s)).
Theorem C33_thread_limit : forall n limit s, a_reach n limit s -> (N.of_nat (in_flight s) <= limit)%N.
Proof.
  intros n limit s H. destruct (a_reach_inv n limit s H) as ([A1 A2 A3 A4 A5 A6 A7 A8 A9 A10 A11 A12 A13] & _ & <-).
  unfold in_flight. pose proof (filter_length_le (fun t : nat * athread => match snd t with ARunning => true | _ => false end) (a_threads s)). lia.
Qed.
Theorem C33_thread_count : forall hardware max_threads, (Z.of_N hardware < 4294967296)%Z -> (- 2147483648 <= max_threads < 2147483648)%Z ->
  let c := thread_count hardware max_threads in
  ((0 < max_threads)%Z -> Z.of_N c = max_threads) /\
  ((- Z.of_N hardware <= max_threads <= 0)%Z -> Z.of_N c = (Z.of_N hardware + max_threads)%Z) /\
  (* beyond that the unsigned sum wraps round: practically no limit *)
  ((max_threads < - Z.of_N hardware)%Z -> (2147483648 <= Z.of_N c)%Z) /\
  (c = 0%N <-> max_threads = (- Z.of_N hardware)%Z).
Proof.
  intros hardware mt Hh Hm c. unfold c, thread_count. destruct (Z.ltb_spec 0 mt) as [Hp|Hp].
  - split; [intros _; apply Z2N.id; lia|]. split; [lia|]. split; [lia|]. split; [|lia]. intros E. apply (f_equal Z.of_N) in E. rewrite Z2N.id in E by lia. cbn in E. lia.
  - assert (Hmod : (0 <= (Z.of_N hardware + mt) mod 4294967296)%Z) by (apply Z.mod_pos_bound; lia).
    split; [lia|]. destruct (Z.lt_ge_cases (Z.of_N hardware + mt) 0) as [Hl|Hl].
    + assert (HE : ((Z.of_N hardware + mt) mod 4294967296 = Z.of_N hardware + mt + 4294967296)%Z) by (symmetry; apply Z.mod_unique with (-1)%Z; lia).
      rewrite HE. split; [lia|]. split; [intros _; rewrite Z2N.id; lia|]. split; [|lia]. intros E. apply (f_equal Z.of_N) in E. rewrite Z2N.id in E by lia. cbn in E. lia.
    + rewrite Z.mod_small by lia. split; [intros _; apply Z2N.id; lia|]. split; [lia|]. split; [|intros ->; rewrite Z.add_opp_diag_r; reflexivity].
      intros E. apply (f_equal Z.of_N) in E. rewrite Z2N.id in E by lia. cbn in E. lia.
Qed.
(** With a limit of zero the call never returns. *)
Theorem C33_zero_threads_never_returns : forall n s, n <> 0 -> a_reach n 0 s -> a_phase s <> AReturned /\ a_log s = [].
Proof.
  intros n s Hn H. enough (a_threads s = [] /\ a_log s = [] /\ a_next s = 0 /\ a_n s = n /\ a_limit s = 0%N /\ (a_phase s = ALaunching \/ exists k, a_phase s = APolling k)) as (_ & H1 & _ & _ & _ & [->|(k & ->)]) by (split; [congruence|exact H1]).
  induction H as [|s0 l s1 _ IH Hs]; [cbn; auto 10|]. destruct IH as (I1 & I2 & I3 & I4 & I5 & I6).
  destruct Hs; cbn [a_with a_threads a_log a_next a_n a_limit a_phase] in *; rewrite ?I1, ?I2, ?I3, ?I4, ?I5 in *;
    try (destruct k; discriminate); try (rewrite H in I6; destruct I6 as [I6|(q & I6)]; discriminate); try (cbn in *; lia); split; auto; split; auto; split; auto; split; auto; split; auto; eauto.
Qed.
(** With at least one thread it returns if the evaluations do: until it has returned some step is possible;
    apart from polling an execution has at most 3n+2 steps; and when no evaluation is running at
    most two consecutive polling steps are possible. *)
Definition none_count (l : list (option result)) : nat := length (filter (fun o => match o with None => true | _ => false end) l).
Lemma none_set l i r : nth_error l i = Some None -> S (none_count (list_set l i (Some r))) = none_count l.
Proof.
  revert i. induction l as [|t l IH]; intros [|i]; cbn [nth_error]; try discriminate.
  - intros [= ->]. reflexivity.
  - intros H. specialize (IH i H). unfold none_count in *. cbn [list_set filter]. destruct t; cbn [length]; auto.
Qed.
Definition a_measure (s : astate) : nat :=
  2 * (a_n s - a_next s) + running_count (map snd (a_threads s)) + none_count (a_results s) + match a_phase s with ACollecting _ => 1 | AReturned => 0 | _ => 2 end.
Lemma running_erase_finished k l r : nth_error l k = Some (AFinished r) -> running_count (erase k l) = running_count l.
Proof.
  intros H. apply nth_error_split in H as (a & b & -> & <-). unfold erase. rewrite firstn_app, firstn_all, Nat.sub_diag. cbn [firstn]. rewrite app_nil_r.
  replace (S (length a)) with (length (a ++ [AFinished r])) by (rewrite app_length; cbn; lia). change (AFinished r :: b) with ([AFinished r] ++ b). rewrite app_assoc, skipn_app, skipn_all, Nat.sub_diag. cbn [skipn app].
  rewrite !running_app. cbn. lia.
Qed.
Lemma a_measure_step s l s' : astep s l s' -> ainv s -> a_measure s' <= a_measure s /\ (l <> LPoll -> a_measure s' < a_measure s).
Proof.
  intros Hs [A1 A2 A3 A4 A5 A6 A7 A8 A9 A10 A11 A12 A13]. unfold collected in *.
  destruct Hs; unfold a_measure; cbn [a_with a_n a_limit a_phase a_next a_threads a_results a_log] in *.
  - rewrite map_list_set. cbn [snd]. pose proof (running_set (map snd (a_threads s)) k r) as HR. rewrite nth_error_map, H in HR. specialize (HR eq_refl). split; [lia|]. lia.
  - rewrite map_app, running_app, H. cbn. split; lia.
  - rewrite H. split; [lia|congruence].
  - assert (Hfree : nth_error (a_results s) i = Some None) by (eapply A12; eauto; rewrite H; tauto). pose proof (none_set _ i r Hfree).
    rewrite map_erase, (running_erase_finished k _ r) by (rewrite nth_error_map, H0; reflexivity). rewrite H. split; lia.
  - rewrite H. split; [lia|congruence].
  - rewrite H. split; [lia|congruence].
  - rewrite H. split; lia.
  - assert (Hfree : nth_error (a_results s) i = Some None) by (eapply A12; eauto; rewrite H; lia). pose proof (none_set _ i r Hfree). rewrite H. split; lia.
  - rewrite H. split; lia.
Qed.
Definition poll_measure (s : astate) : nat :=
  let t := length (a_threads s) in
  match a_phase s with
  | APolling k => if k <? t then 0 else 2
  | ALaunching => if (a_limit s <=? N.of_nat t)%N then 1 else 0
  | _ => 0
  end.
Definition is_poll (l : alabel) : bool := match l with LPoll => true | _ => false end.
Lemma in_flight_none s k i : in_flight s = 0 -> nth_error (a_threads s) k = Some (i, ARunning) -> False.
Proof.
  unfold in_flight. intros H Hk. apply nth_error_In in Hk. apply length_zero_iff_nil in H.
  assert (HI : In (i, ARunning) (filter (fun t : nat * athread => match snd t with ARunning => true | _ => false end) (a_threads s))) by (apply filter_In; auto).
  rewrite H in HI. destruct HI.
Qed.
Theorem C29_async_returns : forall n limit, (0 < limit)%N ->
  (forall s, a_reach n limit s -> a_phase s <> AReturned -> exists l s', astep s l s') /\
  (forall ls s, exec astep (a_init n limit) ls s -> count (fun l => negb (is_poll l)) ls <= 3 * n + 2) /\
  (forall s ls s', a_reach n limit s -> in_flight s = 0 -> exec astep s ls s' -> Forall (fun l => l = LPoll) ls -> length ls <= 2).
Proof.
  intros n limit Hl. split; [|split].
  - intros s H Hp. destruct (a_reach_inv n limit s H) as ([A1 A2 A3 A4 A5 A6 A7 A8 A9 A10 A11 A12 A13] & _).
    destruct (a_phase s) as [|k|k|] eqn:Ep; [| | |congruence].
    + destruct (Nat.lt_ge_cases (a_next s) (a_n s)).
      * destruct (N.lt_ge_cases (N.of_nat (length (a_threads s))) (a_limit s)); eexists; eexists; [apply ALaunch; auto|apply AScan; auto].
      * eexists; eexists; apply ACollect; auto.
    + destruct (nth_error (a_threads s) k) as [[i [|r]]|] eqn:Et; eexists; eexists; [eapply APollTimeout; eauto|eapply APollReady; eauto|eapply AScanEnd; eauto; now apply nth_error_None].
    + destruct (nth_error (a_threads s) k) as [[i [|r]]|] eqn:Et; eexists; eexists; [eapply (AEval s k i (ROk fzero)); eauto|eapply ACollectGet; eauto|eapply ACollectEnd; eauto; now apply nth_error_None].
  - intros ls s H.
    destruct (exec_bound astep (fun _ => True) (fun l => negb (is_poll l)) (fun _ => false) 0 ainv a_measure (a_init n limit) ls s) as [_ HB]; auto.
    + apply (a_reach_inv n limit). constructor.
    + intros a l b Hab _ Ha. eapply ainv_step; eauto.
    + intros a l b Hab _ Ha. destruct (a_measure_step a l b Hab Ha) as [M1 M2]. destruct l; cbn [is_poll negb]; [specialize (M2 ltac:(discriminate))|specialize (M2 ltac:(discriminate))|]; lia.
    + clear; induction ls; auto.
    + enough (HE : a_measure (a_init n limit) = 3 * n + 2) by lia.
      unfold a_measure. cbn [a_init a_n a_next a_threads a_results a_phase map]. unfold running_count, none_count. cbn [filter length].
      enough (length (filter (fun o : option result => match o with Some _ => false | None => true end) (repeat None n)) = n) by lia. clear. induction n; cbn; auto.
  - intros s ls s' H H0 HX HF.
    destruct (exec_bound astep (fun l => l = LPoll) (fun _ => true) (fun _ => false) 0 (fun s => (0 < a_limit s)%N /\ in_flight s = 0) poll_measure s ls s') as [_ HB]; auto.
    + destruct (a_reach_inv n limit s H) as (_ & _ & ->). auto.
    + intros a l b Hab -> [Ha1 Ha2]. inversion Hab; subst; auto.
    + intros a l b Hab -> [Ha1 Ha2]. unfold poll_measure. inversion Hab; subst; cbn [a_with a_n a_limit a_phase a_next a_threads a_results a_log];
        match goal with HP : a_phase a = _ |- _ => rewrite HP end.
      * destruct (Nat.ltb_spec 0 (length (a_threads a))); [|lia]. destruct (N.leb_spec (a_limit a) (N.of_nat (length (a_threads a)))); lia.
      * exfalso. eapply in_flight_none; eauto.
      * destruct (Nat.ltb_spec k (length (a_threads a))); [lia|]. destruct (N.leb (a_limit a) (N.of_nat (length (a_threads a)))); lia.
    + rewrite count_all in HB. assert (poll_measure s <= 2); [|lia]. unfold poll_measure. destruct (a_phase s); try lia; [destruct (_ <=? _)%N|destruct (_ <? _)]; lia.
Qed.

(** ** Non-vacuity: executions that return, with the points finishing in reverse order *)
Example C29_batch_nonvacuous : exists s, b_reach 2 s /\ b_returned s = true /\ b_results s = [ROk fzero; RErr "bad"] /\ b_log s = [(1, RErr "bad"); (0, ROk fzero)].
Proof.
  assert (R : b_reach 2 (b_init 2)) by constructor. unfold b_init in R. unfold b_reach in R.
  Ltac bgo R c := let H := fresh "R" in eassert (H : reach _ _ _) by (eapply (@reach_step bstate unit) with (l := tt); [exact R|c]); cbn in H; clear R; rename H into R.
  bgo R ltac:(apply BLaunch; cbn; lia).
  bgo R ltac:(apply BLaunch; cbn; lia).
  bgo R ltac:(eapply (BEval _ _ _ _ _ 1 (RErr "bad")); reflexivity).
  bgo R ltac:(eapply (BEval _ _ _ _ _ 0 (ROk fzero)); reflexivity).
  bgo R ltac:(eapply BGet; reflexivity).
  bgo R ltac:(eapply BGet; reflexivity).
  bgo R ltac:(eapply BReturn; reflexivity).
  eexists. split; [exact R|]. split; [reflexivity|]. split; reflexivity.
Qed.
Example C29_async_nonvacuous : exists s, a_reach 3 2 s /\ a_phase s = AReturned /\ a_results s = map Some [ROk fzero; RErr "bad"; ROk fmaxval] /\
  a_log s = [(1, RErr "bad"); (0, ROk fzero); (2, ROk fmaxval)].
Proof.
  assert (R : a_reach 3 2 (a_init 3 2)) by constructor. unfold a_init, a_reach in R.
  Ltac ago R c := let H := fresh "R" in eassert (H : reach _ _ _) by (eapply (@reach_step astate alabel); [exact R|c]);
     cbn [a_with a_n a_limit a_phase a_next a_threads a_results a_log app list_set erase firstn skipn] in H; clear R; rename H into R.
  ago R ltac:(apply ALaunch; cbn; [reflexivity|lia|lia]).
  ago R ltac:(apply ALaunch; cbn; [reflexivity|lia|lia]).
  ago R ltac:(apply AScan; cbn; [reflexivity|lia|lia]).
  ago R ltac:(eapply APollTimeout; reflexivity).
  ago R ltac:(eapply (AEval _ 1 1 (RErr "bad")); reflexivity).
  ago R ltac:(eapply APollReady; reflexivity).
  ago R ltac:(eapply AScanEnd; [reflexivity|cbn; lia]).
  ago R ltac:(apply ALaunch; cbn; [reflexivity|lia|lia]).
  ago R ltac:(eapply (AEval _ 0 0 (ROk fzero)); reflexivity).
  ago R ltac:(eapply (AEval _ 1 2 (ROk fmaxval)); reflexivity).
  ago R ltac:(eapply ACollect; cbn; [reflexivity|lia]).
  ago R ltac:(eapply ACollectGet; reflexivity).
  ago R ltac:(eapply ACollectGet; reflexivity).
  ago R ltac:(eapply ACollectEnd; [reflexivity|cbn; lia]).
  eexists. split; [exact R|]. split; [reflexivity|]. split; reflexivity.
Qed.
Example C28_nonvacuous : sequential_evaluate (fun b : bool => if b then ThrowsStd "what" else Returns (ROk fzero)) [true; false; true] = [RErr "what"; ROk fzero; RErr "what"].
Proof. reflexivity. Qed.
Example C33_nonvacuous : thread_count 8 4 = 4%N /\ thread_count 8 (-2) = 6%N /\ thread_count 8 (-8) = 0%N /\ thread_count 8 (-9) = 4294967295%N.
Proof. split; [reflexivity|]. split; [reflexivity|]. split; reflexivity. Qed.
