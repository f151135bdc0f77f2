(** * C49, C50, C51: the optimizer pool *)
From Coq Require Import ZArith Bool Lia Permutation.
From Verif Require Import Prelude Flt FltFacts Flt32 Round8 FlatMap ParInfo ObjInfo Num MathTools Mes Optimizer OptimizerFacts Properties_Optimizer Properties_ES3 Pool PoolFacts.
#[local] Open Scope nat_scope.

(** ** Pools and their histories *)
(** A member as the client hands it over: an optimizer with any conditions and any past of
    its own, for an objective of the same direction. *)
Definition joinable (PE : pool_env) (m : member) : Prop :=
  oi_dim (e_info (m_env m)) <> 0 /\ oi_minimize (e_info (m_env m)) = oi_minimize (e_info (pe_env PE)) /\
  exists extra h, Forall (wf_op (m_env m)) h /\ m_opt m = after (m_env m) extra h.
Definition pool_of (PE : pool_env) (ms : list member) (conds : list stop_cond) : pool :=
  fold_left add_pool_condition conds (fold_left (push_back PE) ms (new_pool PE)).
(** The members a pool step starts: the first concurrent_optimizations_ of the queue
    (which is filled first, if empty). *)
Definition launches (PE : pool_env) (P : pool) : list nat :=
  match refill PE P with (P1, Ok _) => firstn (pe_concurrent PE) (po_queue P1) | _ => [] end.
Inductive pool_op : Type := PoStep (i : pool_input) | PoInterrupt | PoTest.
Definition pool_exec (PE : pool_env) (P : pool) (a : pool_op) : pool * outcome unit :=
  match a with
  | PoStep i => let '(P', r) := pool_step PE P i in (P', let* _ := r in Ok tt)
  | PoInterrupt => (pool_interrupt P, Ok tt)
  | PoTest => let '(P', r) := pool_test PE P in (P', let* _ := r in Ok tt)
  end.
(** [history PE P ops L P']: the calls [ops] lead from [P] to [P'], all returning normally,
    and start the members [L] (latest first). *)
Inductive history (PE : pool_env) : pool -> list pool_op -> list nat -> pool -> Prop :=
| h_nil P : history PE P [] [] P
| h_op P a P1 ops L P2 : pool_exec PE P a = (P1, Ok tt) -> history PE P1 ops L P2 ->
    history PE P (a :: ops) (L ++ match a with PoStep _ => launches PE P | _ => [] end) P2.

(** ** What is kept *)
Definition queue_ok (P : pool) : Prop := NoDup (po_queue P) /\ forall i, In i (po_queue P) -> i < length (po_members P).
Lemma predictions_length PE ms : forall a l, snd (predictions PE a ms) = Ok l -> length l = length ms.
Proof.
  induction ms as [|m t IH]; intros a l; cbn [predictions]; [cbn; intros [= <-]; reflexivity|]. destruct (Nat.ltb a (pe_active PE)).
  - destruct (m_test m) as [m' [[k|]|w|]]; try discriminate.
    + specialize (IH a). destruct (predictions PE a t) as [t' [l'|w|]]; try discriminate. cbn [snd]; intros X; injection X as <-; cbn [length]; now rewrite (IH l' eq_refl).
    + destruct (if Nat.leb _ _ then _ else _) as [m'' [x|w|]]; try discriminate. specialize (IH (S a)). destruct (predictions PE (S a) t) as [t' [l'|w|]]; try discriminate. cbn [snd]; intros X; injection X as <-; cbn [length]; now rewrite (IH l' eq_refl).
  - specialize (IH a). destruct (predictions PE a t) as [t' [l'|w|]]; try discriminate. cbn [snd]; intros X; injection X as <-; cbn [length]; now rewrite (IH l' eq_refl).
Qed.
Lemma fill_prefix PE preds order : forall ms q, exists pre post, order = pre ++ post /\ snd (fst (fill PE preds ms order q)) = q ++ pre.
Proof.
  induction order as [|i t IH]; intros ms q; cbn [fill]; [exists [], []; split; [reflexivity|cbn; now rewrite app_nil_r]|].
  assert (NIL : forall (x : list member) r, exists pre post, i :: t = pre ++ post /\ snd (fst (x, q, r : outcome unit)) = q ++ pre) by (intros; exists [], (i :: t); split; [reflexivity|cbn; now rewrite app_nil_r]).
  destruct (nth_error ms i) as [m|]; [|apply NIL]. destruct (m_test m) as [m' [[k|]|w|]]; try apply NIL.
  destruct (_ && _); [exists [i], t; auto|]. destruct (IH (list_set ms i m') (q ++ [i])) as (pre & post & -> & ->). exists (i :: pre), post. split; [reflexivity|]. now rewrite <- app_assoc.
Qed.
Lemma nan_free l : existsb fisnan l = false -> Forall (fun f => fisnan f = false) l.
Proof. induction l as [|x l IH]; cbn; [constructor|]. intros H. apply orb_false_iff in H as [H1 H2]. constructor; auto. Qed.
Lemma NoDup_prefix {A} (l m : list A) : NoDup (l ++ m) -> NoDup l.
Proof. induction l as [|x l IH]; cbn; intros H; [constructor|]. inversion H; subst. constructor; [|auto]. intros X. apply H2, in_app_iff. now left. Qed.
Lemma NoDup_suffix {A} (l m : list A) : NoDup (l ++ m) -> NoDup m.
Proof. induction l as [|x l IH]; cbn; intros H; [exact H|]. inversion H; auto. Qed.
Lemma refill_frame PE P : po_best (fst (refill PE P)) = po_best P /\ po_best_fit (fst (refill PE P)) = po_best_fit P /\ po_base (fst (refill PE P)) = po_base P /\ po_conds (fst (refill PE P)) = po_conds P.
Proof.
  unfold refill. destruct (po_queue P); [|auto]. destruct (predictions PE 0 (po_members P)) as [ms [preds|w|]]; auto. destruct (existsb fisnan preds); [auto|]. destruct (fill _ _ _ _ _) as [[ms' q] r]. auto.
Qed.
Lemma refill_queue PE P : sorts (pe_sort PE) -> queue_ok P -> queue_ok (fst (refill PE P)).
Proof.
  intros HS HQ. pose proof (refill_looked PE P) as HL. apply looked_length in HL. revert HL. unfold refill. destruct (po_queue P) eqn:EQ; [|auto]. pose proof (predictions_length PE (po_members P) 0) as HP. pose proof (looked_length _ _ (predictions_looked PE (po_members P) 0)) as HM.
  assert (NIL : forall ms, queue_ok (with_members P ms)) by (intros ms; split; cbn [with_members po_queue]; rewrite EQ; [constructor|intros i []]).
  destruct (predictions PE 0 (po_members P)) as [ms [preds|w|]]; try (intros _; apply NIL). cbn [fst snd] in *. specialize (HP preds eq_refl). destruct (existsb fisnan preds) eqn:EN; [intros _; apply NIL|].
  pose proof (fill_prefix PE preds (sorted_indices (pe_sort PE) (is_better (e_info (pe_env PE))) preds) ms []) as (pre & post & EO & EF). destruct (fill _ _ _ _ _) as [[ms' q] r]. cbn [fst snd with_queue with_members po_members po_queue app] in *. intros HL. subst q.
  pose proof (C47_order_is_best_first (pe_sort PE) (e_info (pe_env PE)) preds HS (nan_free _ EN)) as [PM _]. rewrite EO in PM. split; cbn [po_queue with_queue].
  - apply (NoDup_prefix pre post). eapply Permutation_NoDup; [apply Permutation_sym, PM|apply seq_NoDup].
  - intros i Hi. cbn [po_members with_queue with_members]. rewrite HL. assert (HI : In i (seq 0 (length preds))) by (eapply Permutation_in; [exact PM|apply in_app_iff; now left]). apply in_seq in HI. lia.
Qed.
Lemma firstn_incl {A} n (l : list A) x : In x (firstn n l) -> In x l.
Proof. intros H. rewrite <- (firstn_skipn n l). apply in_app_iff. now left. Qed.
Lemma skipn_incl {A} n (l : list A) x : In x (skipn n l) -> In x l.
Proof. intros H. rewrite <- (firstn_skipn n l). apply in_app_iff. now right. Qed.

Definition pool_inv (PE : pool_env) (ever : list nat) (P : pool) : Prop := queue_ok P /\ best_inv (e_info (pe_env PE)) ever [] P.
(** Every member was stepped exactly once if in [L], and otherwise only looked at. *)
Definition stepped_once (inp : nat -> step_input) (L : list nat) (ms ms' : list member) : Prop :=
  length ms' = length ms /\ forall i m, nth_error ms i = Some m -> exists m', nth_error ms' i = Some m' /\ moved (existsb (Nat.eqb i) L) (inp i) m m'.
Lemma touched_moved b i m m1 m2 : touched m m1 -> moved b i m1 m2 -> moved b i m m2.
Proof. destruct b; cbn [moved]; [intros T (x & A & B); exists x; split; [eapply touched_trans; eassumption|exact B]|intros A T; eapply touched_trans; eassumption]. Qed.
Lemma looked_stepped inp ms ms' : looked ms ms' -> stepped_once inp [] ms ms'.
Proof. intros H. split; [now apply looked_length|]. intros i m E. destruct (looked_nth _ _ _ _ H E) as (m' & E' & T). eauto. Qed.
Lemma stepped_looked inp L a b c d : looked a b -> stepped_once inp L b c -> looked c d -> stepped_once inp L a d.
Proof.
  intros H1 [H2 H3] H4. split; [rewrite (looked_length _ _ H4), H2; now apply looked_length|]. intros i m E. destruct (looked_nth _ _ _ _ H1 E) as (m1 & E1 & T1). destruct (H3 i m1 E1) as (m2 & E2 & M). destruct (looked_nth _ _ _ _ H4 E2) as (m3 & E3 & T3).
  exists m3. split; [exact E3|]. eapply moved_touched; [|exact T3]. eapply touched_moved; eassumption.
Qed.
Lemma best_inv_start o ever L P : best_inv o ever [] P -> best_inv o (ever ++ L) L P.
Proof.
  intros (H1 & H2 & H3 & H4). split; [exact H1|]. split; [|split].
  - intros E j Hj. apply in_app_iff in Hj as [Hj|Hj]; [|exact Hj]. destruct (H2 E j Hj).
  - intros b Eb. destruct (H3 b Eb) as (A & mb & B & C & D). split; [apply in_app_iff; now left|]. exists mb. split; [exact B|]. split; [exact C|]. intros _. apply D. intros [].
  - intros j m Hj Ht E. apply in_app_iff in Hj as [Hj|Hj]; [|contradiction]. apply (H4 j m Hj); [intros []|exact E].
Qed.
Lemma internal_step_inv PE ever P inp sched P' r : sorts (pe_sort PE) -> pool_inv PE ever P -> pool_internal_step PE P inp sched = (P', r) -> r <> Undef ->
  let L := launches PE P in
  NoDup L /\ length L <= pe_concurrent PE /\ (forall i, In i L -> i < length (po_members P)) /\
  stepped_once inp L (po_members P) (po_members P') /\ queue_ok P' /\ po_base P' = po_base P /\
  (forall b, po_best P = Some b -> (exists b', po_best P' = Some b') /\ at_least (e_info (pe_env PE)) (po_best_fit P) (po_best_fit P')) /\
  (r = Ok true -> pool_inv PE (ever ++ L) P' /\ po_queue P' = skipn (pe_concurrent PE) (po_queue (fst (refill PE P)))) /\ (forall b, r = Ok b -> b = true).
Proof.
  intros HS [HQ HB] E HU. unfold pool_internal_step in E. destruct (po_members P) as [|m0 mt] eqn:EM; [injection E as <- <-; congruence|]. rewrite <- EM in *. clear EM m0 mt.
  unfold launches. pose proof (refill_looked PE P) as HL. pose proof (refill_frame PE P) as (F1 & F2 & F3 & F4). pose proof (refill_queue PE P HS HQ) as [Q1 Q2]. destruct (refill PE P) as [P1 [u|w|]]; cbn [fst] in *.
  2: { injection E as <- <-. cbn zeta. split; [constructor|]. split; [apply Nat.le_0_l|]. split; [intros i []|]. split; [now apply looked_stepped|]. split; [split; assumption|]. split; [exact F3|]. split; [|split; [discriminate|discriminate]]. intros b Hb. rewrite F1, F2. split; [eauto|now left]. }
  2: { injection E as <- <-. congruence. }
  set (L := firstn (pe_concurrent PE) (po_queue P1)) in *. set (PQ := with_queue P1 (skipn (pe_concurrent PE) (po_queue P1))) in *.
  destruct (collect PE L inp sched 0 PQ [] L) as [P2 r2] eqn:EC. injection E as <- <-. assert (HU2 : r2 <> Undef) by (intros ->; cbn in HU; congruence).
  assert (HNL : NoDup L). { apply (NoDup_prefix _ (skipn (pe_concurrent PE) (po_queue P1))). unfold L. now rewrite firstn_skipn. }
  assert (HRL : forall i, In i L -> i < length (po_members PQ)) by (intros i Hi; apply Q2; eapply firstn_incl, Hi).
  assert (HF : flight_ok inp (po_members PQ) (po_members PQ, [])) by (split; [reflexivity|]; intros i m Em; exists m; split; [exact Em|apply touched_refl]).
  assert (HB1 : best_inv (e_info (pe_env PE)) (ever ++ L) L PQ). { apply best_inv_start. apply (best_inv_looked _ _ _ P); [exact HB|exact HL|exact F1|exact F2]. }
  pose proof (collect_spec PE L inp sched (ever ++ L) (po_members PQ) L 0 PQ [] P2 r2 EC HU2 HNL (incl_refl L) (incl_appr ever (incl_refl L)) HRL (fun i Hi => or_introl Hi) (incl_nil_l L) HF HB1) as (C1 & C2 & C3 & C4 & C5).
  assert (QOK : queue_ok P2). { split; rewrite C2; cbn [PQ with_queue po_queue]; [apply (NoDup_suffix (firstn (pe_concurrent PE) (po_queue P1))); now rewrite firstn_skipn|]. intros i Hi. destruct C1 as [C1 _]. rewrite C1. apply Q2. eapply skipn_incl, Hi. }
  split; [exact HNL|]. split; [apply firstn_le_length|]. split; [intros i Hi; rewrite <- (looked_length _ _ HL); apply HRL, Hi|].
  split; [eapply stepped_looked; [exact HL|exact C1|apply looked_refl]|]. split; [exact QOK|]. split; [rewrite C3; exact F3|].
  split; [intros b Hb; rewrite <- F2; apply (C4 b); exact (eq_trans F1 Hb)|]. split.
  - destruct r2 as [[]|w|]; try discriminate. intros _. split; [split; [exact QOK|apply C5; reflexivity]|exact C2].
  - destruct r2 as [[]|w|]; try discriminate. now intros b [= <-].
Qed.
Lemma refill_trace PE P t : refill PE (with_trace P t) = (with_trace (fst (refill PE P)) t, snd (refill PE P)).
Proof.
  unfold refill. cbn [with_trace po_queue po_members po_base po_best]. destruct (po_queue P); [|reflexivity]. destruct (predictions PE 0 (po_members P)) as [ms [preds|w|]]; try reflexivity. destruct (existsb fisnan preds); [reflexivity|]. destruct (fill _ _ _ _ _) as [[ms' q] r]. reflexivity.
Qed.
Lemma launches_signal PE ev P : launches PE (psignal PE ev P) = launches PE P.
Proof. unfold launches, psignal. rewrite refill_trace. destruct (refill PE P) as [P1 [u|w|]]; reflexivity. Qed.
Lemma refill_signal_queue PE ev P : po_queue (fst (refill PE (psignal PE ev P))) = po_queue (fst (refill PE P)).
Proof. unfold psignal. rewrite refill_trace. reflexivity. Qed.
Lemma pc_list_frame PE l : forall P i, let P' := fst (fst (pc_list PE P i l)) in po_best P' = po_best P /\ po_best_fit P' = po_best_fit P /\ po_base P' = po_base P /\ po_queue P' = po_queue P.
Proof.
  induction l as [|pc t IH]; intros P i; cbn [pc_list]; [cbn; auto|].
  assert (H : let P' := fst (fst (pc_test PE P pc)) in po_best P' = po_best P /\ po_best_fit P' = po_best_fit P /\ po_base P' = po_base P /\ po_queue P' = po_queue P).
  { destruct pc as [|sc]; cbn [pc_test]; [destruct (all_stopped _); cbn; auto|]. destruct (_ && _); [cbn; auto|]. destruct (sc_test _ _ _) as [[c s] r]. cbn; auto. }
  cbn zeta in *. destruct (pc_test PE P pc) as [[P' pc'] [[|]|w|]]; cbn [fst] in *; try exact H. specialize (IH P' (S i)). destruct (pc_list PE P' (S i) t) as [[P'' t'] r]. cbn [fst] in *. destruct H as (A & B & C & D), IH as (A' & B' & C' & D'). rewrite A', B', C', D'. auto.
Qed.
Lemma pool_test_frame PE P : let P' := fst (pool_test PE P) in po_best P' = po_best P /\ po_best_fit P' = po_best_fit P /\ po_base P' = po_base P /\ po_queue P' = po_queue P.
Proof.
  unfold pool_test. destruct (po_stopped P); [cbn; auto|]. pose proof (pc_list_frame PE (po_conds P) P 0) as H. destruct (pc_list PE P 0 (po_conds P)) as [[P1 l] [[i|]|w|]]; cbn in *; exact H.
Qed.
Lemma inv_looked PE ever P P' : pool_inv PE ever P -> looked (po_members P) (po_members P') -> po_best P' = po_best P -> po_best_fit P' = po_best_fit P -> po_queue P' = po_queue P -> pool_inv PE ever P'.
Proof. intros [[A B] C] HL E1 E2 E3. split; [|eapply best_inv_looked; eassumption]. split; rewrite E3; [exact A|]. now rewrite (looked_length _ _ HL). Qed.
Lemma pool_step_inv PE ever P inp P' r : sorts (pe_sort PE) -> pool_inv PE ever P -> oi_dim (e_info (pe_env PE)) <> 0 -> pool_step PE P inp = (P', r) -> r <> Undef ->
  let L := launches PE P in
  NoDup L /\ length L <= pe_concurrent PE /\ (forall i, In i L -> i < length (po_members P)) /\
  stepped_once (pi_inputs inp) L (po_members P) (po_members P') /\ queue_ok P' /\
  (forall b, po_best P = Some b -> (exists b', po_best P' = Some b') /\ at_least (e_info (pe_env PE)) (po_best_fit P) (po_best_fit P')) /\
  (forall x, r = Ok x -> pool_inv PE (ever ++ L) P' /\ po_queue P' = skipn (pe_concurrent PE) (po_queue (fst (refill PE P))) /\ c_steps (po_base P') = S (c_steps (po_base P))).
Proof.
  intros HS HI HD E HU. unfold pool_step in E. apply Nat.eqb_neq in HD. rewrite HD in E. clear HD.
  set (P2 := psignal PE EPreStep (if Nat.eqb (c_steps (po_base P)) 0 then psignal PE EStart P else P)) in *.
  assert (EL : launches PE P2 = launches PE P) by (unfold P2; destruct (Nat.eqb _ 0); now rewrite ?launches_signal).
  assert (EQ : po_queue (fst (refill PE P2)) = po_queue (fst (refill PE P))) by (unfold P2; destruct (Nat.eqb _ 0); now rewrite ?refill_signal_queue).
  assert (HI2 : pool_inv PE ever P2). { apply (inv_looked PE ever P); [exact HI|..]; unfold P2; destruct (Nat.eqb _ 0); try reflexivity; apply looked_refl. }
  assert (EM : po_members P2 = po_members P) by (unfold P2; destruct (Nat.eqb _ 0); reflexivity). assert (EB : po_best P2 = po_best P /\ po_best_fit P2 = po_best_fit P /\ po_base P2 = po_base P) by (unfold P2; destruct (Nat.eqb _ 0); repeat split; reflexivity). clearbody P2.
  destruct (pool_internal_step PE P2 (pi_inputs inp) (pi_sched inp)) as [P3 r3] eqn:EI. assert (HU3 : r3 <> Undef) by (intros ->; injection E as <- <-; congruence).
  pose proof (internal_step_inv PE ever P2 _ _ P3 r3 HS HI2 EI HU3) as (A1 & A2 & A3 & A4 & A5 & A6 & A7 & A8 & A9). rewrite EL, EM in *. destruct EB as (B1 & B2 & B3). rewrite B1, B2 in A7. rewrite EQ in A8.
  split; [exact A1|]. split; [exact A2|]. split; [exact A3|].
  destruct r3 as [ok|w|]; [|injection E as <- <-; split; [exact A4|split; [exact A5|split; [exact A7|discriminate]]]|congruence]. pose proof (A9 ok eq_refl) as ->. clear A9.
  set (P5 := with_base (psignal PE EPostStep P3) _) in E. set (P6 := if pi_interrupt inp then pool_interrupt P5 else P5) in E.
  assert (HL6 : looked (po_members P3) (po_members P6)) by (unfold P6; destruct (pi_interrupt inp); [apply looked_interrupt|apply looked_refl]).
  assert (F6 : po_best P6 = po_best P3 /\ po_best_fit P6 = po_best_fit P3 /\ po_queue P6 = po_queue P3 /\ c_steps (po_base P6) = S (c_steps (po_base P3))) by (unfold P6; destruct (pi_interrupt inp); repeat split; reflexivity). clearbody P6. clear P5.
  pose proof (pool_test_looked PE P6) as HL7. pose proof (pool_test_frame PE P6) as (T1 & T2 & T3 & T4). rewrite E in *. cbn [fst] in *. destruct F6 as (F1 & F2 & F3 & F4).
  pose proof (looked_trans _ _ _ HL6 HL7) as HL. split; [eapply stepped_looked; [apply looked_refl|exact A4|exact HL]|].
  split; [destruct A5 as [X Y]; split; rewrite T4, F3; [exact X|]; now rewrite (looked_length _ _ HL)|]. split; [rewrite T1, F1, T2, F2; exact A7|]. intros x ->. destruct (A8 eq_refl) as [I3 Q3]. split; [|split].
  - apply (inv_looked PE _ P3); [exact I3|exact HL|congruence|congruence|congruence].
  - congruence.
  - rewrite T3, F4, A6, B3. reflexivity.
Qed.
Lemma exec_inv PE ever P a P' : sorts (pe_sort PE) -> pool_inv PE ever P -> pool_exec PE P a = (P', Ok tt) ->
  pool_inv PE (ever ++ match a with PoStep _ => launches PE P | _ => [] end) P' /\
  (forall b, po_best P = Some b -> (exists b', po_best P' = Some b') /\ at_least (e_info (pe_env PE)) (po_best_fit P) (po_best_fit P')).
Proof.
  intros HS HI. destruct a as [i| |]; cbn [pool_exec].
  - destruct (pool_step PE P i) as [P1 r] eqn:E. destruct r as [x|w|]; cbn; intros [= <-]. destruct (Nat.eq_dec (oi_dim (e_info (pe_env PE))) 0) as [D|D].
    + unfold pool_step in E. rewrite D in E. discriminate E.
    + pose proof (pool_step_inv PE ever P i P1 (Ok x) HS HI D E ltac:(discriminate)) as (_ & _ & _ & _ & _ & A & B). split; [exact (proj1 (B x eq_refl))|exact A].
  - intros [= <-]. rewrite app_nil_r. split; [|intros b Hb; split; [eauto|now left]]. apply (inv_looked PE ever P); try reflexivity; [exact HI|apply looked_interrupt].
  - pose proof (pool_test_looked PE P) as HL. pose proof (pool_test_frame PE P) as (T1 & T2 & T3 & T4). destruct (pool_test PE P) as [P1 r]. destruct r as [x|w|]; cbn; intros [= <-]. cbn [fst] in *. rewrite app_nil_r. split; [apply (inv_looked PE ever P); assumption|]. intros b Hb. rewrite T1, T2. split; [eauto|now left].
Qed.
Lemma best_inv_ever o ever ever' P : (forall i, In i ever <-> In i ever') -> best_inv o ever [] P -> best_inv o ever' [] P.
Proof.
  intros HE (H1 & H2 & H3 & H4). split; [exact H1|]. split; [intros E j Hj; apply (H2 E), HE, Hj|]. split.
  - intros b Eb. destruct (H3 b Eb) as (A & B). split; [apply HE, A|exact B].
  - intros j m Hj. apply H4. apply HE, Hj.
Qed.
Lemma history_inv PE P ops L P' : sorts (pe_sort PE) -> history PE P ops L P' -> forall ever, pool_inv PE ever P ->
  pool_inv PE (ever ++ L) P' /\ (forall b, po_best P = Some b -> (exists b', po_best P' = Some b') /\ at_least (e_info (pe_env PE)) (po_best_fit P) (po_best_fit P')).
Proof.
  intros HS H. induction H as [P|P a P1 ops L P2 E H IH]; intros ever HI; [rewrite app_nil_r; split; [exact HI|intros b Hb; split; [eauto|now left]]|].
  pose proof (exec_inv PE ever P a P1 HS HI E) as [I1 M1]. pose proof (IH _ I1) as [I2 M2]. split.
  - destruct I2 as [Q2 B2]. split; [exact Q2|]. eapply best_inv_ever; [|exact B2]. intros i. rewrite !in_app_iff. tauto.
  - intros b Hb. destruct (M1 b Hb) as ((b1 & Hb1) & A1). destruct (M2 b1 Hb1) as (Hb2 & A2). split; [exact Hb2|]. eapply at_least_trans; eassumption.
Qed.
Lemma add_sc_abort extra : forall o, abort_first (o_scs o) -> abort_first (o_scs (fold_left add_stop_condition extra o)).
Proof. induction extra as [|sc l IH]; intros o H; [exact H|]. cbn [fold_left]. apply IH. destruct H as (t & Ht). unfold add_stop_condition. cbn [o_scs]. rewrite Ht. eexists. reflexivity. Qed.
Lemma after_abort E extra h : oi_dim (e_info E) <> 0 -> Forall (wf_op E) h -> abort_first (o_scs (after E extra h)).
Proof.
  intros D. revert h. apply (rev_ind (fun h => Forall (wf_op E) h -> abort_first (o_scs (after E extra h)))).
  - intros _. unfold after, created. cbn [fold_left]. apply add_sc_abort. eexists. reflexivity.
  - intros a h IH W. apply Forall_app in W as [W1 W2]. rewrite after_snoc. pose proof (after_inv E extra h D W1) as HI. specialize (IH W1). set (o := after E extra h) in *. clearbody o. assert (KK : member_ok {| m_env := E; m_opt := o |}) by (split; [apply HI|exact IH]).
    destruct a as [i| | | | |n|sc]; cbn [exec]; try exact IH.
    + pose proof (m_step_facts _ i KK) as (_ & [_ X] & _). unfold m_step in X. cbn [m_env m_opt] in X. destruct (step E o i) as [o' r]. exact X.
    + pose proof (m_test_touched _ KK) as (_ & _ & [_ X] & _). unfold m_test in X. cbn [m_env m_opt] in X. destruct (test_stop E o) as [o' r]. exact X.
    + destruct IH as (t & Ht). cbn [add_stop_condition o_scs]. rewrite Ht. eexists. reflexivity.
Qed.
Lemma push_all PE ms : forall P, Forall (good (e_info (pe_env PE))) (po_members P) -> Forall (joinable PE) ms ->
  let P' := fold_left (push_back PE) ms P in
  Forall (good (e_info (pe_env PE))) (po_members P') /\ po_best P' = po_best P /\ po_queue P' = po_queue P /\ po_best_fit P' = po_best_fit P /\ po_conds P' = po_conds P /\
  map m_best (po_members P') = map m_best (po_members P) ++ map m_best ms /\ c_steps (po_base P') = c_steps (po_base P) /\ po_stopped P' = po_stopped P.
Proof.
  induction ms as [|m ms IH]; intros P HG HJ; cbn [fold_left]; [rewrite app_nil_r; cbn zeta; auto 8|]. inversion HJ as [|? ? J1 J2]; subst.
  assert (HG1 : Forall (good (e_info (pe_env PE))) (po_members (push_back PE P m))).
  { unfold push_back. cbn [with_members po_members]. apply Forall_app. split; [exact HG|]. constructor; [|constructor]. destruct J1 as (D & M & extra & h & W & EO).
    assert (K : cache_ok (m_env m) (o_core (m_opt m))) by (rewrite EO; apply (after_inv (m_env m) extra h D W)).
    assert (K1 : forall n, cache_ok (m_env m) (with_cap (o_core (m_opt m)) n)) by (intros n; exact K).
    assert (KA : abort_first (o_scs (m_opt m))) by (rewrite EO; apply after_abort; [exact D|exact W]).
    split; [|destruct (pe_use_predicted PE); exact M]. unfold member_ok, m_window, add_stop_condition. destruct (pe_use_predicted PE); [|split; [exact (K1 0)|exact KA]]. cbn [m_with m_opt m_env with_core o_core o_scs]. split; [|destruct KA as (t & ->); eexists; reflexivity]. match goal with |- context [if ?b then _ else _] => destruct b end; exact (K1 0). }
  specialize (IH _ HG1 J2). cbn zeta in IH |- *. destruct IH as (A & B & C & D & E & F & G & H). split; [exact A|]. split; [exact B|]. split; [exact C|]. split; [exact D|]. split; [exact E|]. split; [|split; [exact G|exact H]].
  rewrite F. unfold push_back. cbn [with_members po_members]. rewrite map_app, <- app_assoc. cbn [map app]. f_equal. f_equal. unfold m_best, m_window, add_stop_condition. destruct (pe_use_predicted PE); [|reflexivity]. cbn [m_with m_opt o_core with_core]. match goal with |- context [if ?b then _ else _] => destruct b end; reflexivity.
Qed.
Lemma conds_frame conds : forall P, let P' := fold_left add_pool_condition conds P in po_members P' = po_members P /\ po_best P' = po_best P /\ po_queue P' = po_queue P /\ po_best_fit P' = po_best_fit P /\ po_base P' = po_base P /\ po_stopped P' = po_stopped P /\ po_conds P' = po_conds P ++ map PcBase conds.
Proof. induction conds as [|sc l IH]; intros P; cbn [fold_left]; cbn zeta; [rewrite app_nil_r; auto 9|]. destruct (IH (add_pool_condition P sc)) as (A & B & C & D & E & F & G). rewrite A, B, C, D, E, F, G. unfold add_pool_condition. cbn. rewrite <- app_assoc. auto 9. Qed.
Lemma pool_of_inv PE ms conds : Forall (joinable PE) ms -> pool_inv PE [] (pool_of PE ms conds) /\ po_best (pool_of PE ms conds) = None.
Proof.
  intros HJ. unfold pool_of. destruct (conds_frame conds (fold_left (push_back PE) ms (new_pool PE))) as (A & B & C & D & _). destruct (push_all PE ms (new_pool PE) (Forall_nil _) HJ) as (A1 & A2 & A3 & A4 & _). cbn zeta in *.
  split; [|now rewrite B, A2]. split.
  - split; rewrite C, A3; [constructor|intros i []].
  - split; [now rewrite A|]. split; [intros _ j []|]. split; [intros b Eb; rewrite B, A2 in Eb; discriminate Eb|intros j m []].
Qed.
