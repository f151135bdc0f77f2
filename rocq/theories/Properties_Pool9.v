(** * C72: a pool only decides how often each of its members is stepped *)
From Coq Require Import ZArith Bool Lia Permutation.
From Verif Require Import Prelude Flt FltFacts Flt32 Round8 FlatMap ParInfo ObjInfo Num MathTools Mes Optimizer OptimizerFacts Driver DriverFacts Properties_Optimizer Properties_Optimizer4 Properties_ES3 Pool PoolFacts Properties_Pool Properties_Pool2 Properties_Pool3 Properties_Pool4 Properties_Pool5 MesF Properties_ES4.
#[local] Open Scope nat_scope.

(** ** Specification *)
(** What makes an optimizer (MES, EVA, CMA) out of the base class: how it samples and updates its state, the initial
    state, what the evaluator answers in the n-th call of step(), and the snapshot it makes of its state. *)
Record worker := { w_state : Type; w_sampler : sampler w_state; w_init : w_state; w_eval : nat -> list point -> list result; w_info : w_state -> outcome obj_info }.
(** Its state after n calls of step(), *)
Fixpoint state_after (E : env) (w : worker) (n : nat) : w_state w :=
  match n with
  | O => w_init w
  | S k => match s_sample (w_sampler w) (state_after E w k) with
    | (s, Ok pop) => if too_many_errors E (w_eval w k pop) then s else fst (s_update (w_sampler w) s (fits_of E (w_eval w k pop)))
    | (s, _) => s
    end
  end.
(** and what it passes to the base class in the n-th (counting from 0). *)
Definition call (E : env) (w : worker) (n : nat) : step_input :=
  match snd (s_sample (w_sampler w) (state_after E w n)) with
  | Ok pop => {| si_pop := pop; si_results := w_eval w n pop; si_interrupt := false |}
  | _ => {| si_pop := []; si_results := []; si_interrupt := false |}
  end.
(** Sampling and updating work, and the evaluator gives one result per point. *)
Definition works (E : env) (w : worker) : Prop := forall n, exists s1 pop s2,
  s_sample (w_sampler w) (state_after E w n) = (s1, Ok pop) /\ wf_input E {| si_pop := pop; si_results := w_eval w n pop; si_interrupt := false |} /\
  s_update (w_sampler w) s1 (fits_of E (w_eval w n pop)) = (s2, Ok tt).
(** n calls of step() of the optimizer [m] on its own *)
Definition alone (m : member) (w : worker) (n : nat) : opt * w_state w * outcome unit :=
  full_steps (w_sampler w) (m_env m) (m_opt m) (w_init w) (map (fun k => (w_eval w k, false)) (seq 0 n)).
(** The members of a pool are such optimizers: in each pool step the i-th one, if it is started, makes its next call
    of step().  [done]: the members started so far, latest first. *)
Inductive driven (PE : pool_env) (ms : list member) (ws : list worker) : list nat -> pool -> list pool_op -> list nat -> pool -> Prop :=
| d_nil done P : driven PE ms ws done P [] done P
| d_op done P a P1 ops done' P2 : pool_exec PE P a = (P1, Ok tt) ->
    (forall inp i m w, a = PoStep inp -> nth_error ms i = Some m -> nth_error ws i = Some w -> pi_inputs inp i = call (m_env m) w (count_occ Nat.eq_dec done i)) ->
    driven PE ms ws (match a with PoStep _ => launches PE P | _ => [] end ++ done) P1 ops done' P2 ->
    driven PE ms ws done P (a :: ops) done' P2.
(** What an optimizer shows: best fitness and point, current step, and what the last step gave. *)
Definition shows_same (c c' : core) : Prop :=
  c_steps c = c_steps c' /\ c_best_fit c = c_best_fit c' /\ c_best_pt c = c_best_pt c' /\ c_cur_fit c = c_cur_fit c' /\ c_cur_fits c = c_cur_fits c' /\ c_cur_pt c = c_cur_pt c'.

(** ** Steps *)
Lemma shows_same_refl c : shows_same c c.
Proof. unfold shows_same. auto 6. Qed.
Lemma shows_same_sym c c' : shows_same c c' -> shows_same c' c.
Proof. unfold shows_same. intros (A & B & C & D & E & F). auto 6. Qed.
Lemma shows_same_trans a b c : shows_same a b -> shows_same b c -> shows_same a c.
Proof. unfold shows_same. intros (A & B & C & D & E & F) (A' & B' & C' & D' & E' & F'). repeat match goal with |- _ /\ _ => split end; etransitivity; eassumption. Qed.
Lemma strip_shows c c' : strip c = strip c' -> shows_same c c'.
Proof. intros H. apply strip_fields in H. unfold shows_same. tauto. Qed.
Lemma quiet_shows c c' : quiet_core c = quiet_core c' -> shows_same c c'.
Proof. unfold quiet_core. destruct c, c'. cbn. intros [=]. subst. unfold shows_same. auto 6. Qed.
Lemma step_core_shows E c c' i : shows_same c c' -> shows_same (step_core E c i) (step_core E c' i).
Proof.
  intros (A & B & C & D & F & G). pose proof (step_core_fields E c i) as X. pose proof (step_core_fields E c' i) as Y. cbv zeta in X, Y. unfold shows_same. destruct (too_many_errors E (si_results i)).
  - destruct X as (X1 & X2 & X3 & X4 & X5 & X6 & _). destruct Y as (Y1 & Y2 & Y3 & Y4 & Y5 & Y6 & _). rewrite X1, X2, X3, X4, X5, X6, Y1, Y2, Y3, Y4, Y5, Y6. auto 6.
  - destruct X as (X1 & X2 & X3 & X4 & X5 & _). destruct Y as (Y1 & Y2 & Y3 & Y4 & Y5 & _). rewrite X1, X2, X3, X4, Y1, Y2, Y3, Y4. rewrite <- B in Y5. destruct (is_better _ _ _); destruct X5 as [X5 X6]; destruct Y5 as [Y5 Y6]; rewrite X5, X6, Y5, Y6, A; auto 6.
Qed.
Lemma step_shows E o i : oi_dim (e_info E) <> 0 -> wf_input E i -> cache_ok E (o_core o) -> shows_same (o_core (fst (step E o i))) (step_core E (o_core o) i).
Proof.
  intros D W K. pose proof W as (W1 & W2 & W3).
  destruct (too_many_errors E (si_results i)) eqn:ET.
  - pose proof (step_core_fields E (o_core o) i) as X. cbv zeta in X. rewrite ET in X. destruct X as (X1 & X2 & X3 & X4 & X5 & X6 & _).
    assert (Y : shows_same (o_core (fst (step E o i))) (o_core o)).
    { unfold step. destruct (Nat.eqb_spec (oi_dim (e_info E)) 0) as [|_]; [congruence|]. unfold evaluate_step. rewrite ET. cbn [o_core o_scs o_stopped o_trace]. destruct (set_error (o_scs o) _) as [scs|]; [|apply shows_same_refl]. cbn [o_core o_scs o_stopped o_trace].
      match goal with |- context [test_stop E ?Q] => assert (KQ : cache_ok E (o_core Q)) by (destruct (si_interrupt i); exact K); pose proof (test_stop_core E Q KQ) as [T _] end.
      eapply shows_same_trans; [apply strip_shows; exact T|]. unfold shows_same; destruct (si_interrupt i); auto 6. }
    eapply shows_same_trans; [exact Y|]. unfold shows_same. rewrite X1, X2, X3, X4, X5, X6. auto 6.
  - assert (Y : exists scs tr, step E o i = test_stop E {| o_core := step_core E (o_core o) i; o_scs := scs; o_stopped := o_stopped o; o_trace := tr |}).
    { unfold step. destruct (Nat.eqb_spec (oi_dim (e_info E)) 0) as [|_]; [congruence|]. unfold evaluate_step, step_core. cbn [o_core o_scs o_stopped o_trace]. rewrite ET. fold (fits_of E (si_results i)). set (fits := fits_of E (si_results i)).
      assert (Hfl : length fits = length (si_pop i)) by (unfold fits, fits_of; now rewrite map_length).
      assert (Hne : fits <> []) by (destruct fits; [destruct (si_pop i); [congruence|discriminate]|discriminate]).
      pose proof (find_best_lt (e_info E) fits Hne) as Hbi. set (bi := find_best_fitness (e_info E) fits) in *.
      rewrite (nth_error_nth' fits fnan Hbi). rewrite (nth_error_nth' (si_pop i) [] (eq_ind _ (fun n => bi < n) Hbi _ Hfl)).
      set (p := nth bi (si_pop i) []). set (f := nth bi fits fnan).
      assert (Hp : length p = oi_dim (e_info E)) by (rewrite Forall_forall in W3; apply W3; unfold p; apply nth_In; lia).
      rewrite Hp, Nat.eqb_refl. cbn [negb]. cbn [with_current c_best_fit]. cbn [o_core o_scs o_stopped o_trace]. eexists. eexists. unfold absorb. fold fits bi f p. reflexivity. }
    destruct Y as (scs & tr & ->). pose proof (test_stop_core E {| o_core := step_core E (o_core o) i; o_scs := scs; o_stopped := o_stopped o; o_trace := tr |} (step_core_cache E _ i K)) as [T _]. apply strip_shows. exact T.
Qed.
Lemma call_wf E w n : works E w -> wf_input E (call E w n).
Proof. intros H. destruct (H n) as (s1 & pop & s2 & H1 & H2 & _). unfold call. rewrite H1. exact H2. Qed.
(** The complete step of such an optimizer, in any state [o] of the base class, is the base class step with that call;
    its own state is the next one. *)
Lemma full_step_call E w o n : works E w -> oi_dim (e_info E) <> 0 ->
  let '(o', s', r) := full_step (w_sampler w) E o (state_after E w n) (w_eval w n) false in
  step E o (call E w n) = (o', r) /\ s' = state_after E w (S n).
Proof.
  intros HW D. destruct (HW n) as (s1 & pop & s2 & ES & H2 & HU).
  assert (EC : call E w n = {| si_pop := pop; si_results := w_eval w n pop; si_interrupt := false |}) by (unfold call; rewrite ES; reflexivity). rewrite EC.
  assert (EN : state_after E w (S n) = if too_many_errors E (w_eval w n pop) then s1 else s2) by (cbn [state_after]; rewrite ES, HU; reflexivity). rewrite EN.
  unfold full_step, step. destruct (Nat.eqb_spec (oi_dim (e_info E)) 0) as [|_]; [congruence|]. unfold internal_step. rewrite ES. cbn [si_pop si_results si_interrupt]. unfold evaluate_step. cbn [o_core o_scs o_stopped o_trace]. destruct H2 as (W1 & W2 & W3). cbn [si_results si_pop] in *. destruct (too_many_errors E (w_eval w n pop)).
  - destruct (set_error (o_scs o) _) as [scs|]; [|split; reflexivity]. destruct (test_stop E _) as [o' r]. split; reflexivity.
  - fold (fits_of E (w_eval w n pop)). set (fits := fits_of E (w_eval w n pop)) in *.
    assert (Hfl : length fits = length pop) by (unfold fits, fits_of; now rewrite map_length).
    assert (Hne : fits <> []) by (destruct fits; [destruct pop; [congruence|discriminate]|discriminate]).
    pose proof (find_best_lt (e_info E) fits Hne) as Hbi. set (bi := find_best_fitness (e_info E) fits) in *.
    rewrite (nth_error_nth' fits fnan Hbi). rewrite (nth_error_nth' pop [] (eq_ind _ (fun n => bi < n) Hbi _ Hfl)).
    set (p := nth bi pop []). set (f := nth bi fits fnan).
    assert (Hp : length p = oi_dim (e_info E)) by (rewrite Forall_forall in W3; apply W3; unfold p; apply nth_In; lia).
    rewrite Hp, Nat.eqb_refl. cbn [negb]. cbn [with_current c_best_fit o_core].
    match goal with |- context [s_update (w_sampler w) s1 ?X] => assert (EF : X = fits) by (unfold update_fitness_tracking; destruct (is_better _ _ _); cbn [with_best with_current c_cap]; destruct (Nat.ltb 0 _); reflexivity); rewrite EF end.
    rewrite HU. destruct (test_stop E _) as [o' r]. split; reflexivity.
Qed.
(** what the base class shows after n calls *)
Definition core_after (E : env) (w : worker) (c : core) (n : nat) : core := fold_left (fun c k => step_core E c (call E w k)) (seq 0 n) c.
Lemma core_after_S E w c n : core_after E w c (S n) = step_core E (core_after E w c n) (call E w n).
Proof. unfold core_after. rewrite seq_S, fold_left_app. reflexivity. Qed.
Lemma full_steps_snoc {S : Type} (smp : sampler S) E l : forall o s e i o1 s1, full_steps smp E o s (l ++ [(e, i)]) = (o1, s1, Ok tt) ->
  exists o0 s0 x, full_steps smp E o s l = (o0, s0, Ok tt) /\ full_step smp E o0 s0 e i = (o1, s1, Ok x).
Proof.
  induction l as [|[e0 i0] l IH]; intros o s e i o1 s1; cbn [app full_steps].
  - destruct (full_step smp E o s e i) as [[o' s'] [x|w|]] eqn:EF; intros X; try discriminate X. exists o, s, x. split; [reflexivity|]. rewrite EF. congruence.
  - destruct (full_step smp E o s e0 i0) as [[o' s'] [x|w|]]; intros X; try discriminate X. exact (IH _ _ _ _ _ _ X).
Qed.
Lemma alone_spec m w n o s : works (m_env m) w -> oi_dim (e_info (m_env m)) <> 0 -> member_ok m -> alone m w n = (o, s, Ok tt) ->
  s = state_after (m_env m) w n /\ shows_same (o_core o) (core_after (m_env m) w (o_core (m_opt m)) n) /\ member_ok {| m_env := m_env m; m_opt := o |}.
Proof.
  intros HW D K. revert o s. induction n as [|n IH]; intros o s; unfold alone; cbn [seq map full_steps]; [intros X; assert (E1 : m_opt m = o) by congruence; assert (E2 : w_init w = s) by congruence; rewrite <- E1, <- E2; split; [reflexivity|]; split; [apply shows_same_refl|exact K]|].
  change (full_steps (w_sampler w) (m_env m) (m_opt m) (w_init w) (map (fun k => (w_eval w k, false)) (seq 0 (S n))) = (o, s, Ok tt) -> s = state_after (m_env m) w (S n) /\ shows_same (o_core o) (core_after (m_env m) w (o_core (m_opt m)) (S n)) /\ member_ok {| m_env := m_env m; m_opt := o |}).
  rewrite seq_S, map_app. cbn [map Nat.add]. intros X. apply full_steps_snoc in X as (o0 & s0 & x & X1 & X2). destruct (IH o0 s0 X1) as (-> & B & C).
  pose proof (full_step_call (m_env m) w o0 n HW D) as Y. rewrite X2 in Y. destruct Y as [Y1 Y2]. split; [exact Y2|].
  pose proof (m_step_facts _ (call (m_env m) w n) C) as (_ & Z & _). unfold m_step in Z. cbn [m_env m_opt] in Z. pose proof (step_shows (m_env m) o0 (call (m_env m) w n) D (call_wf _ _ n HW) (proj1 C)) as V. rewrite Y1 in Z, V. cbn [fst m_with] in Z, V. split; [|exact Z].
  rewrite core_after_S. eapply shows_same_trans; [exact V|]. apply step_core_shows. exact B.
Qed.

(** ** The invariant *)
Definition follows (E : env) (w : worker) (c0 : core) (n : nat) (m : member) : Prop :=
  m_env m = E /\ member_ok m /\ shows_same (o_core (m_opt m)) (core_after E w c0 n).
Lemma follows_touched E w c0 n m m' : follows E w c0 n m -> touched m m' -> follows E w c0 n m'.
Proof.
  intros (A & B & C) T. destruct (T B) as (T1 & T2 & T3 & _). split; [congruence|]. split; [exact T3|]. eapply shows_same_trans; [apply quiet_shows; exact T2|exact C].
Qed.
Lemma follows_step E w c0 n m : works E w -> oi_dim (e_info E) <> 0 -> follows E w c0 n m -> follows E w c0 (S n) (fst (m_step m (call E w n))).
Proof.
  intros HW D (A & B & C). subst E. pose proof (m_step_facts m (call (m_env m) w n) B) as (F1 & F2 & _). split; [exact F1|]. split; [exact F2|]. rewrite core_after_S. unfold m_step. pose proof (step_shows (m_env m) (m_opt m) (call (m_env m) w n) D (call_wf _ w n HW) (proj1 B)) as V. destruct (step (m_env m) (m_opt m) (call (m_env m) w n)) as [o r]. cbn [fst m_with m_opt] in *. eapply shows_same_trans; [exact V|]. apply step_core_shows. exact C.
Qed.
Lemma driven_history PE ms ws done P ops done' P' : driven PE ms ws done P ops done' P' -> exists L, history PE P ops L P' /\ done' = L ++ done.
Proof.
  induction 1 as [done P|done P a P1 ops done' P2 E HC H IH]; [exists []; split; [constructor|reflexivity]|]. destruct IH as (L & IH & ->). exists (L ++ match a with PoStep _ => launches PE P | _ => [] end). split; [econstructor; [exact E|exact IH]|]. apply app_assoc.
Qed.
Lemma count_nodup L i : NoDup L -> count_occ Nat.eq_dec L i = if existsb (Nat.eqb i) L then 1 else 0.
Proof.
  intros H. destruct (existsb (Nat.eqb i) L) eqn:EX.
  - apply existsb_exists in EX as (j & Hj & Ej). apply Nat.eqb_eq in Ej as <-. apply (proj1 (NoDup_count_occ' Nat.eq_dec L) H i Hj).
  - apply count_occ_not_In. intros X. assert (existsb (Nat.eqb i) L = true) by (apply existsb_exists; exists i; split; [exact X|apply Nat.eqb_refl]). congruence.
Qed.
Lemma driven_follows PE ms ws done P ops done' P' i m0 w : sorts (pe_sort PE) -> driven PE ms ws done P ops done' P' ->
  nth_error ms i = Some m0 -> nth_error ws i = Some w -> works (m_env m0) w -> oi_dim (e_info (m_env m0)) <> 0 ->
  forall c0, pool_inv PE done P -> (exists m, nth_error (po_members P) i = Some m /\ follows (m_env m0) w c0 (count_occ Nat.eq_dec done i) m) ->
  exists m, nth_error (po_members P') i = Some m /\ follows (m_env m0) w c0 (count_occ Nat.eq_dec done' i) m.
Proof.
  intros HS H E0 EW HW D c0. induction H as [done P|done P a P1 ops done' P2 E HC H IH]; intros HI (m & Em & F); [exists m; auto|]. apply IH; clear IH H.
  - destruct (exec_inv PE done P a P1 HS HI E) as [I1 _]. destruct I1 as [Q1 B1]. split; [exact Q1|]. eapply best_inv_ever; [|exact B1]. intros j. rewrite !in_app_iff. tauto.
  - destruct a as [inp| |]; cbn [pool_exec] in E; cbn [app].
    + destruct (pool_step PE P inp) as [Q [x|v|]] eqn:EP; try discriminate E. assert (EQ : Q = P1) by congruence. subst Q. destruct (Nat.eq_dec (oi_dim (e_info (pe_env PE))) 0) as [D0|D0]; [unfold pool_step in EP; rewrite D0 in EP; discriminate EP|].
      destruct (pool_step_inv PE done P inp P1 (Ok x) HS HI D0 EP ltac:(discriminate)) as (ND & _ & _ & [SL SM] & _). destruct (SM i m Em) as (m' & Em' & M). exists m'. split; [exact Em'|]. rewrite count_occ_app, (count_nodup _ _ ND). specialize (HC inp i m0 w eq_refl E0 EW).
      destruct (existsb (Nat.eqb i) (launches PE P)); cbn [moved] in M; [|exact (follows_touched _ _ _ _ _ _ F M)]. destruct M as (m1 & T1 & T2). rewrite HC in T2. eapply follows_touched; [|exact T2]. apply follows_step; [exact HW|exact D|]. exact (follows_touched _ _ _ _ _ _ F T1).
    + assert (EQ : pool_interrupt P = P1) by congruence. subst P1. destruct (looked_nth _ _ _ _ (looked_interrupt (po_members P)) Em) as (m' & Em' & T). exists m'. split; [exact Em'|exact (follows_touched _ _ _ _ _ _ F T)].
    + pose proof (pool_test_looked PE P) as HL. destruct (pool_test PE P) as [Q [x|v|]] eqn:EP; try discriminate E. assert (EQ : Q = P1) by congruence. subst Q. destruct (looked_nth _ _ _ _ HL Em) as (m' & Em' & T). exists m'. split; [exact Em'|exact (follows_touched _ _ _ _ _ _ F T)].
Qed.

(** ** C72 *)
Lemma push_members PE ms : forall P, po_members (fold_left (push_back PE) ms P) = po_members P ++ map (fun m => let m1 := m_window m (pe_window PE) in
  if pe_use_predicted PE then m_with m1 (add_stop_condition (m_opt m1) (ScPredicted fzero (worst_fitness (e_info (pe_env PE))) (pe_look PE) (pe_start PE))) else m1) ms.
Proof.
  induction ms as [|m l IH]; intros P; cbn [fold_left map]; [now rewrite app_nil_r|]. rewrite IH. unfold push_back. cbn [with_members po_members]. rewrite <- app_assoc. reflexivity.
Qed.
Lemma pool_of_members PE ms conds i m : Forall (joinable PE) ms -> nth_error ms i = Some m ->
  exists m', nth_error (po_members (pool_of PE ms conds)) i = Some m' /\ m_env m' = m_env m /\ member_ok m' /\ shows_same (o_core (m_opt m')) (o_core (m_opt m)).
Proof.
  intros HJ Em. destruct (pool_of_inv PE ms conds HJ) as [[_ (HG & _)] _]. unfold pool_of in *. destruct (conds_frame conds (fold_left (push_back PE) ms (new_pool PE))) as (A & _). rewrite A in *. rewrite push_members in *. cbn [new_pool po_members app] in *.
  match type of HG with Forall _ (map ?g ms) => pose proof (map_nth_error g i ms Em) as Em'; set (f := g) in *; exists (f m) end. split; [exact Em'|]. pose proof (proj1 (Forall_nth _ _ _ _ HG Em')) as K.
  assert (X : m_env (f m) = m_env m /\ shows_same (o_core (m_opt (f m))) (o_core (m_opt m))).
  { unfold f. destruct (pe_use_predicted PE); [|split; [reflexivity|unfold shows_same; auto 6]]. split; [reflexivity|]. cbn [m_with m_opt add_stop_condition m_window with_core o_core]. unfold shows_same. match goal with |- context [if ?b then _ else _] => destruct b end; auto 6. }
  destruct X as [X1 X2]. split; [exact X1|]. split; [exact K|exact X2].
Qed.
Lemma joinable_ok PE m : joinable PE m -> oi_dim (e_info (m_env m)) <> 0 /\ member_ok m.
Proof.
  intros (D & _ & extra & h & W & EO). split; [exact D|]. split; [rewrite EO; apply (after_inv (m_env m) extra h D W)|rewrite EO; apply after_abort; [exact D|exact W]].
Qed.
(** Whatever the pool does - however it chooses, waits, tests and interrupts - each of its members is at any time where
    the same optimizer would be on its own after as many calls of step(). *)
Theorem C72_members_as_if_alone : forall PE ms ws conds ops done P, sorts (pe_sort PE) -> Forall (joinable PE) ms ->
  driven PE ms ws [] (pool_of PE ms conds) ops done P ->
  forall i m0 w o s, nth_error ms i = Some m0 -> nth_error ws i = Some w -> works (m_env m0) w -> alone m0 w (count_occ Nat.eq_dec done i) = (o, s, Ok tt) ->
  exists m, nth_error (po_members P) i = Some m /\ shows_same (o_core (m_opt m)) (o_core o).
Proof.
  intros PE ms ws conds ops done P HS HJ HD i m0 w o s E0 EW HW EA. destruct (joinable_ok PE m0 (Forall_nth _ _ _ _ HJ E0)) as [D K].
  destruct (pool_of_members PE ms conds i m0 HJ E0) as (m' & Em' & V1 & V2 & V3). destruct (pool_of_inv PE ms conds HJ) as [HI _].
  assert (F0 : follows (m_env m0) w (o_core (m_opt m')) (count_occ Nat.eq_dec [] i) m') by (split; [exact V1|]; split; [exact V2|apply shows_same_refl]).
  destruct (driven_follows PE ms ws [] _ ops done P i m0 w HS HD E0 EW HW D (o_core (m_opt m')) HI (ex_intro _ m' (conj Em' F0))) as (m & Em & _ & _ & F). exists m. split; [exact Em|].
  destruct (alone_spec m0 w _ o s HW D K EA) as (_ & B & _). eapply shows_same_trans; [exact F|]. eapply shows_same_trans; [|apply shows_same_sym; exact B].
  unfold core_after. generalize (seq 0 (count_occ Nat.eq_dec done i)) as l. clear - V3. intros l. revert V3. generalize (o_core (m_opt m')) (o_core (m_opt m0)). induction l as [|k l IH]; intros c c' V; [exact V|]. cbn [fold_left]. apply IH, step_core_shows, V.
Qed.
(** What a snapshot of the pool shows: that of its best member. *)
Definition pool_info (PE : pool_env) (ms : list member) (ws : list worker) (done : list nat) (P : pool) : outcome obj_info :=
  pool_updated_info P (fun b => match nth_error ms b, nth_error ws b with Some m, Some w => w_info w (state_after (m_env m) w (count_occ Nat.eq_dec done b)) | _, _ => Undef end).
(** As soon as a member was stepped: the pool's best fitness, best point and snapshot are those of one of the members
    after that many steps on its own, and none of the others would on its own have found anything better. *)
Theorem C72_best_of_separate_runs : forall PE ms ws conds ops done P, sorts (pe_sort PE) -> Forall (joinable PE) ms -> length ws = length ms ->
  driven PE ms ws [] (pool_of PE ms conds) ops done P -> done <> [] ->
  (forall i m w, nth_error ms i = Some m -> nth_error ws i = Some w -> works (m_env m) w /\ exists o s, alone m w (count_occ Nat.eq_dec done i) = (o, s, Ok tt)) ->
  exists b mb wb ob sb, In b done /\ nth_error ms b = Some mb /\ nth_error ws b = Some wb /\ alone mb wb (count_occ Nat.eq_dec done b) = (ob, sb, Ok tt) /\
    pool_best_fitness P = Ok (c_best_fit (o_core ob)) /\ pool_best_point P = Ok (c_best_pt (o_core ob)) /\ pool_info PE ms ws done P = w_info wb sb /\
    forall j mj wj oj sj, In j done -> nth_error ms j = Some mj -> nth_error ws j = Some wj -> alone mj wj (count_occ Nat.eq_dec done j) = (oj, sj, Ok tt) ->
      is_better (e_info (pe_env PE)) (c_best_fit (o_core oj)) (c_best_fit (o_core ob)) = false.
Proof.
  intros PE ms ws conds ops done P HS HJ HLen HD HN HA. destruct (driven_history _ _ _ _ _ _ _ _ HD) as (L & HH & EL). rewrite app_nil_r in EL. subst L.
  destruct (pool_of_inv PE ms conds HJ) as [HI _]. destruct (history_inv _ _ _ _ _ HS HH [] HI) as [[_ (HG & HB0 & HB1 & HB2)] _]. cbn [app] in *.
  destruct (po_best P) as [b|] eqn:EB; [|exfalso; destruct done as [|x t]; [congruence|]; exact (HB0 eq_refl x (or_introl eq_refl))]. destruct (HB1 b eq_refl) as (Ib & m & Em & AL & BF). specialize (BF (fun x => x)).
  assert (LB : b < length ms).
  { assert (X : length (po_members P) = length ms).
    { assert (Y : forall Q ops0 L0 Q', history PE Q ops0 L0 Q' -> forall ever, pool_inv PE ever Q -> length (po_members Q') = length (po_members Q)).
      { clear - HS. induction 1 as [Q|Q a Q1 ops L Q2 E H IH]; intros ever HI; [reflexivity|]. destruct (exec_inv PE ever Q a Q1 HS HI E) as [I1 _]. rewrite (IH _ I1). clear IH H. destruct a as [inp| |]; cbn [pool_exec] in E.
        - destruct (pool_step PE Q inp) as [Q' [x|v|]] eqn:EP; try discriminate E. assert (EQ : Q' = Q1) by congruence. subst Q'. destruct (Nat.eq_dec (oi_dim (e_info (pe_env PE))) 0) as [D0|D0]; [unfold pool_step in EP; rewrite D0 in EP; discriminate EP|]. destruct (pool_step_inv PE ever Q inp Q1 (Ok x) HS HI D0 EP ltac:(discriminate)) as (_ & _ & _ & [SL _] & _). exact SL.
        - assert (EQ : pool_interrupt Q = Q1) by congruence. subst Q1. apply map_length.
        - pose proof (pool_test_looked PE Q) as HL. destruct (pool_test PE Q) as [Q' [x|v|]]; try discriminate E. assert (EQ : Q' = Q1) by congruence. subst Q'. exact (looked_length _ _ HL). }
      rewrite (Y _ _ _ _ HH [] HI). unfold pool_of. destruct (conds_frame conds (fold_left (push_back PE) ms (new_pool PE))) as (A & _). rewrite A, push_members. cbn [new_pool po_members app]. apply map_length. }
    rewrite <- X. apply nth_error_Some. congruence. }
  destruct (nth_error ms b) as [mb|] eqn:Emb; [|apply nth_error_None in Emb; lia]. destruct (nth_error ws b) as [wb|] eqn:Ewb; [|apply nth_error_None in Ewb; lia].
  destruct (HA b mb wb Emb Ewb) as (HWb & ob & sb & EA). destruct (joinable_ok PE mb (Forall_nth _ _ _ _ HJ Emb)) as [D K]. destruct (alone_spec mb wb _ ob sb HWb D K EA) as (ES & _ & _).
  destruct (C72_members_as_if_alone PE ms ws conds ops done P HS HJ HD b mb wb ob sb Emb Ewb HWb EA) as (m2 & Em2 & SH). rewrite Em in Em2. injection Em2 as <-. destruct SH as (_ & S2 & S3 & _).
  exists b, mb, wb, ob, sb. split; [exact Ib|]. split; [exact Emb|]. split; [exact Ewb|]. split; [exact EA|]. unfold pool_best_fitness, pool_best_point, pool_info, pool_updated_info, best_member. rewrite EB, Em, Emb, Ewb. split; [f_equal; exact S2|]. split; [f_equal; exact S3|]. split; [rewrite ES; reflexivity|].
  intros j mj wj oj sj Ij Emj Ewj EAj. destruct (HA j mj wj Emj Ewj) as (HWj & _). destruct (C72_members_as_if_alone PE ms ws conds ops done P HS HJ HD j mj wj oj sj Emj Ewj HWj EAj) as (m3 & Em3 & (_ & S4 & _)). rewrite <- S4, <- S2. change (is_better (e_info (pe_env PE)) (m_best m3) (m_best m) = false). rewrite BF. exact (HB2 j m3 Ij (fun x => x) Em3).
Qed.

(** ** One member *)
Lemma before_test PE ever P inp P' x : sorts (pe_sort PE) -> pool_inv PE ever P -> pool_step PE P inp = (P', Ok x) ->
  exists P6, pool_test PE P6 = (P', Ok x) /\ Forall member_ok (po_members P6) /\ length (po_members P6) = length (po_members P) /\ po_conds P6 = po_conds P /\ po_stopped P6 = po_stopped P.
Proof.
  intros HS HI E. unfold pool_step in E. destruct (Nat.eqb _ 0); [discriminate E|].
  set (P2 := psignal PE EPreStep (if Nat.eqb (c_steps (po_base P)) 0 then psignal PE EStart P else P)) in *.
  assert (HI2 : pool_inv PE ever P2). { apply (inv_looked PE ever P); [exact HI|..]; unfold P2; destruct (Nat.eqb _ 0); try reflexivity; apply looked_refl. }
  assert (EM : po_members P2 = po_members P /\ po_conds P2 = po_conds P /\ po_stopped P2 = po_stopped P) by (unfold P2; destruct (Nat.eqb _ 0); split; [reflexivity|split; reflexivity|reflexivity|split; reflexivity]). clearbody P2. destruct EM as (EM & EC & ES).
  destruct (pool_internal_step PE P2 (pi_inputs inp) (pi_sched inp)) as [P3 [ok|w|]] eqn:EI; try discriminate E.
  pose proof (internal_step_inv PE ever P2 _ _ P3 (Ok ok) HS HI2 EI ltac:(discriminate)) as (_ & _ & _ & A4 & _ & _ & _ & A8 & A9). pose proof (A9 ok eq_refl) as ->. destruct (A8 eq_refl) as [[_ (I3 & _)] _].
  pose proof (internal_conds PE P2 (pi_inputs inp) (pi_sched inp)) as [C1 C2]. rewrite EI in C1, C2. cbn [fst] in C1, C2.
  match type of E with pool_test PE ?Q = _ => exists Q; set (P6 := Q) in * end. split; [exact E|].
  assert (HL6 : looked (po_members P3) (po_members P6)) by (unfold P6; destruct (pi_interrupt inp); [apply looked_interrupt|apply looked_refl]).
  split; [apply Forall_forall; intros m Hm; apply In_nth_error in Hm as (i & Ei); destruct (looked_nth_back _ _ _ _ HL6 Ei) as (m1 & Em & T); apply (T (proj1 (Forall_nth _ _ _ _ I3 Em)))|].
  split; [rewrite (looked_length _ _ HL6); destruct A4 as [A4 _]; congruence|]. split; [transitivity (po_conds P3); [unfold P6; destruct (pi_interrupt inp); reflexivity|congruence]|transitivity (po_stopped P3); [unfold P6; destruct (pi_interrupt inp); reflexivity|congruence]].
Qed.
Lemma library_after E c sc : library (sc_after E c sc) -> library sc.
Proof. unfold sc_after. destruct sc; cbn [sc_test fst snd library]; auto. Qed.
(** one member that was just tested *)
Definition just_tested (ms : list member) : Prop := exists m m', ms = [m'] /\ member_ok m /\ m_test m = (m', Ok None).
Lemma m_test_ok m m' r : member_ok m -> m_test m = (m', Ok r) -> member_ok m'.
Proof. intros K E. assert (L : all_stopped [m] = ([m'], Ok (match r with Some _ => true | None => false end && true))) by (cbn [all_stopped]; rewrite E; reflexivity). pose proof (all_stopped_looked [m]) as H. rewrite L in H. cbn [fst] in H. destruct (looked_nth _ _ 0 m H eq_refl) as (m2 & E2 & T). injection E2 as <-. apply (T K). Qed.
Lemma conds_tested PE l : forall P i P' l', pc_list PE P i l = (P', l', Ok None) -> (exists m, po_members P = [m] /\ member_ok m) ->
  (In PcAll l \/ just_tested (po_members P)) -> just_tested (po_members P').
Proof.
  induction l as [|pc t IH]; intros P i P' l' E HM [HI|HT]; cbn [pc_list] in E; [destruct HI|assert (P = P') by congruence; subst; exact HT|..].
  - destruct HM as (m & EM & K). destruct pc as [|sc]; [revert E|revert E]; [intros E|intros E]; cycle 1.
    + destruct HI as [HI|HI]; [discriminate HI|]. cbn [pc_test] in E. destruct (_ && _); [discriminate E|]. destruct (sc_test _ _ sc) as [[cc sc'] [[|]|w|]]; try discriminate E. destruct (pc_list PE P (S i) t) as [[P2 t'] r] eqn:EP. assert (r = Ok None) by congruence. assert (P2 = P') by congruence. subst. apply (IH P (S i) P' t' EP); [exists m; auto|left; exact HI].
    + cbn [pc_test] in E. rewrite EM in E. cbn [all_stopped] in E. destruct (m_test m) as [m' [r0|w|]] eqn:ET; [|discriminate E|discriminate E]. cbn [obind] in E. destruct r0 as [k|]; cbn [andb] in E; [discriminate E|].
      destruct (pc_list PE (with_members P [m']) (S i) t) as [[P2 t'] r] eqn:EP. assert (r = Ok None) by congruence. assert (P2 = P') by congruence. subst. apply (IH _ (S i) P' t' EP); [exists m'; split; [reflexivity|exact (m_test_ok m m' None K ET)]|right; exists m, m'; split; [reflexivity|split; [exact K|exact ET]]].
  - destruct HM as (m & EM & K). destruct pc as [|sc]; [revert E|revert E]; [intros E|intros E]; cycle 1.
    + cbn [pc_test] in E. destruct (_ && _); [discriminate E|]. destruct (sc_test _ _ sc) as [[cc sc'] [[|]|w|]]; try discriminate E. destruct (pc_list PE P (S i) t) as [[P2 t'] r] eqn:EP. assert (r = Ok None) by congruence. assert (P2 = P') by congruence. subst. apply (IH P (S i) P' t' EP); [exists m; auto|right; exact HT].
    + cbn [pc_test] in E. rewrite EM in E. cbn [all_stopped] in E. destruct (m_test m) as [m' [r0|w|]] eqn:ET; [|discriminate E|discriminate E]. cbn [obind] in E. destruct r0 as [k|]; cbn [andb] in E; [discriminate E|].
      destruct (pc_list PE (with_members P [m']) (S i) t) as [[P2 t'] r] eqn:EP. assert (r = Ok None) by congruence. assert (P2 = P') by congruence. subst. apply (IH _ (S i) P' t' EP); [exists m'; split; [reflexivity|exact (m_test_ok m m' None K ET)]|right; exists m, m'; split; [reflexivity|split; [exact K|exact ET]]].
Qed.
Lemma pool_tested PE P P' : standard P -> pool_test PE P = (P', Ok None) -> (exists m, po_members P = [m] /\ member_ok m) -> just_tested (po_members P').
Proof.
  intros (t & EC) E HM. unfold pool_test in E. destruct (po_stopped P); [discriminate E|]. destruct (pc_list PE P 0 (po_conds P)) as [[P1 l] r] eqn:EP. destruct r as [[k|]|w|]; try discriminate E. assert (EQ : with_conds P1 l None = P') by congruence. subst P'. cbn [with_conds po_members]. apply (conds_tested PE _ _ _ _ _ EP HM). left. rewrite EC. right. right. now left.
Qed.

(** A pool of one optimizer that stops only because of the library's own conditions: as long as it is not stopped,
    every step of the pool is exactly one step of the optimizer. *)
Theorem C72_one_member : forall PE m0 conds ops a L P inp P' x, sorts (pe_sort PE) -> joinable PE m0 -> 1 <= pe_active PE -> 1 <= pe_concurrent PE ->
  history PE (pool_of PE [m0] conds) (ops ++ [a]) L P -> a <> PoInterrupt -> po_stopped P = None ->
  Forall (fun m => Forall library (o_scs (m_opt m))) (po_members P) ->
  pool_step PE P inp = (P', Ok x) -> launches PE P = [0].
Proof.
  intros PE m0 conds ops a L P inp P' x HS HJ HA HC HH NI ES HLib EP.
  assert (HJ' : Forall (joinable PE) [m0]) by (constructor; [exact HJ|constructor]). destruct (pool_of_inv PE [m0] conds HJ') as [HI _]. destruct (pool_of_standard PE [m0] conds HJ') as [HSt _].
  assert (X : exists P0 L0, history PE (pool_of PE [m0] conds) ops L0 P0 /\ pool_exec PE P0 a = (P, Ok tt)).
  { clear - HH. revert HH. generalize (pool_of PE [m0] conds) as Q. intros Q H. remember (ops ++ [a]) as l eqn:El. revert ops El. induction H as [Q|Q b Q1 l L Q2 E H IH]; intros ops El; [destruct ops; discriminate El|]. destruct ops as [|c ops]; cbn [app] in El; injection El as -> ->.
    - inversion H; subst. exists Q, []. split; [constructor|exact E].
    - destruct (IH ops eq_refl) as (P0 & L0 & H0 & E0). eexists P0, _. split; [econstructor; [exact E|exact H0]|exact E0]. }
  destruct X as (P0 & L0 & HH0 & EA). destruct (history_inv _ _ _ _ _ HS HH0 [] HI) as [I0 _]. cbn [app] in I0. destruct (history_keeps PE _ _ _ _ HH0 HSt) as [HSt0 _].
  assert (LEN : forall Q ops0 L0 Q', history PE Q ops0 L0 Q' -> forall ever, pool_inv PE ever Q -> length (po_members Q') = length (po_members Q)).
  { clear - HS. induction 1 as [Q|Q a Q1 ops L Q2 E H IH]; intros ever HI; [reflexivity|]. destruct (exec_inv PE ever Q a Q1 HS HI E) as [I1 _]. rewrite (IH _ I1). clear IH H. destruct a as [inp| |]; cbn [pool_exec] in E.
    - destruct (pool_step PE Q inp) as [Q' [y|v|]] eqn:EP; try discriminate E. assert (EQ : Q' = Q1) by congruence. subst Q'. destruct (Nat.eq_dec (oi_dim (e_info (pe_env PE))) 0) as [D0|D0]; [unfold pool_step in EP; rewrite D0 in EP; discriminate EP|]. destruct (pool_step_inv PE ever Q inp Q1 (Ok y) HS HI D0 EP ltac:(discriminate)) as (_ & _ & _ & [SL _] & _). exact SL.
    - assert (EQ : pool_interrupt Q = Q1) by congruence. subst Q1. apply map_length.
    - pose proof (pool_test_looked PE Q) as HL. destruct (pool_test PE Q) as [Q' [y|v|]]; try discriminate E. assert (EQ : Q' = Q1) by congruence. subst Q'. exact (looked_length _ _ HL). }
  assert (L1 : length (po_members (pool_of PE [m0] conds)) = 1) by (unfold pool_of; destruct (conds_frame conds (fold_left (push_back PE) [m0] (new_pool PE))) as (A & _); rewrite A, push_members; reflexivity).
  pose proof (LEN _ _ _ _ HH0 [] HI) as L2. rewrite L1 in L2. pose proof (LEN _ _ _ _ HH [] HI) as L3. rewrite L1 in L3.
  assert (JT : just_tested (po_members P)).
  { assert (ONE : forall Q, length (po_members Q) = 1 -> Forall member_ok (po_members Q) -> exists m, po_members Q = [m] /\ member_ok m) by (intros Q LQ FQ; destruct (po_members Q) as [|m [|m' t]]; try discriminate LQ; exists m; split; [reflexivity|inversion FQ; assumption]).
    destruct a as [inp0| |]; [|congruence|]; cbn [pool_exec] in EA.
    - destruct (pool_step PE P0 inp0) as [Q [y|v|]] eqn:EQ; try discriminate EA. assert (E1 : Q = P) by congruence. subst Q. destruct (before_test PE L0 P0 inp0 P y HS I0 EQ) as (P6 & T1 & T2 & T3 & T4 & T5). rewrite L2 in T3.
      assert (y = None) as ->. { destruct y as [k|]; [exfalso|reflexivity]. revert T1. unfold pool_test. destruct (po_stopped P6) as [j|] eqn:E6; [intros X; assert (P6 = P) by congruence; subst; congruence|]. destruct (pc_list PE P6 0 (po_conds P6)) as [[P1 l] [[i|]|w|]]; try discriminate. intros X. assert (XX : po_stopped (psignal PE (EStop i) (with_conds P1 l (Some i))) = po_stopped P) by congruence. cbn in XX. congruence. }
      apply (pool_tested PE P6); [unfold standard; rewrite T4; exact HSt0|exact T1|apply ONE; assumption].
    - destruct (pool_test PE P0) as [Q [y|v|]] eqn:EQ; try discriminate EA. assert (E1 : Q = P) by congruence. subst Q.
      assert (y = None) as ->. { destruct y as [k|]; [exfalso|reflexivity]. revert EQ. unfold pool_test. destruct (po_stopped P0) as [j|] eqn:E6; [intros X; assert (P0 = P) by congruence; subst; congruence|]. destruct (pc_list PE P0 0 (po_conds P0)) as [[P1 l] [[i|]|w|]]; try discriminate. intros X. assert (XX : po_stopped (psignal PE (EStop i) (with_conds P1 l (Some i))) = po_stopped P) by congruence. cbn in XX. congruence. }
      apply (pool_tested PE P0); [exact HSt0|exact EQ|]. apply ONE; [exact L2|]. destruct I0 as [_ (HG & _)]. eapply Forall_impl; [|exact HG]. intros m [K _]. exact K. }
  destruct (history_inv _ _ _ _ _ HS HH [] HI) as [I1 _]. cbn [app] in I1. destruct (pool_step_from_refill PE L P inp P' x HS I1 EP) as [ER _].
  destruct I1 as [[QN QR] (HG & _)]. destruct JT as (m & m6 & EM & K & ET). rewrite EM in HLib, L3, QR. assert (HL6 : Forall library (o_scs (m_opt m6))) by (inversion HLib; assumption).
  assert (K6 : member_ok m6) by exact (m_test_ok m m6 None K ET).
  pose proof (m_test_none m m6 ET K) as (A1 & _ & _ & A4 & A5 & _ & A7).
  assert (HL5 : Forall library (o_scs (m_opt m))) by (rewrite A7 in HL6; clear - HL6; induction (o_scs (m_opt m)) as [|sc t IH]; cbn [map] in HL6; inversion HL6; subst; constructor; [eapply library_after; eassumption|auto]).
  assert (T6 : exists m7, m_test m6 = (m7, Ok None)) by (rewrite <- (m_with_same m6); apply (test_again m m6 _ K HL5 ET eq_refl A5)). destruct T6 as (m7 & T6).
  unfold launches. destruct (po_queue P) as [|q t] eqn:EQ.
  - revert ER. unfold refill. rewrite EQ, EM. cbn [predictions]. assert (LT : Nat.ltb 0 (pe_active PE) = true) by (apply Nat.ltb_lt; lia). rewrite LT, T6.
    pose proof (m_test_none m6 m7 T6 K6) as (B1 & _ & _ & B4 & B5 & _).
    set (pr := if Nat.leb (pe_start PE) (c_steps (o_core (m_opt m7))) then m_predict m7 (pe_look PE) else (m7, Ok (best_fitness_value (e_info (pe_env PE))))).
    assert (HP : exists m2, m_test (fst pr) = (m2, Ok None)).
    { unfold pr. destruct (Nat.leb _ _).
      - unfold m_predict. rewrite B1. pose proof (predicted_spec (m_env m6) (o_core (m_opt m7)) (pe_look PE) B5) as (P1 & P2 & _). destruct (predicted_fitness _ _ _) as [c r]. cbn [fst] in *. apply (test_again m6 m7 c K6 HL6 T6 P1 P2).
      - cbn [fst]. rewrite <- (m_with_same m7). apply (test_again m6 m7 _ K6 HL6 T6 eq_refl B5). }
    destruct HP as (m9 & HP). destruct pr as [m8 [y|w|]]; cbn [snd]; [|discriminate|discriminate]. cbn [fst] in HP. cbn [obind]. destruct (existsb fisnan [y]) eqn:EN; [discriminate|].
    pose proof (C47_order_is_best_first (pe_sort PE) (e_info (pe_env PE)) [y] HS (nan_free _ EN)) as [PM _]. cbn zeta in PM. apply Permutation_sym, Permutation_length_1_inv in PM. rewrite PM. cbn [fill nth_error]. rewrite HP. cbn [andb app list_set obind]. destruct (_ && _); cbn [snd]; [discriminate|]. intros _. cbn [with_queue po_queue]. destruct (pe_concurrent PE); [lia|]. cbn [firstn]. now rewrite firstn_nil.
  - unfold refill. rewrite EQ. assert (q = 0) as -> by (specialize (QR q (or_introl eq_refl)); cbn in QR; lia). destruct t as [|q t]; [|exfalso; assert (q = 0) as -> by (specialize (QR q (or_intror (or_introl eq_refl))); cbn in QR; lia); inversion QN; subst; auto using in_eq]. rewrite EQ. destruct (pe_concurrent PE); [lia|]. cbn [firstn]. now rewrite firstn_nil.
Qed.

(** ** MES and EVA are such optimizers *)
Definition es_worker (L : stdlib) (E : env) (lambda mu : Z) (offset offset_stdev : f64) component (g : sl_rng L) (eval : nat -> list point -> list result) : worker :=
  {| w_state := es_f64 L; w_sampler := es_sampler L (e_info E) lambda mu offset offset_stdev component; w_init := es_start L (e_info E) lambda g; w_eval := eval; w_info := es_updated_info L (e_info E) |}.
Lemma state_after_S E w n s1 pop : s_sample (w_sampler w) (state_after E w n) = (s1, Ok pop) ->
  state_after E w (S n) = if too_many_errors E (w_eval w n pop) then s1 else fst (s_update (w_sampler w) s1 (fits_of E (w_eval w n pop))).
Proof. intros H. cbn [state_after]. rewrite H. reflexivity. Qed.
Theorem C72_es_works : forall L E lambda mu offset offset_stdev component g eval, (1 <= mu <= lambda)%Z -> sorts (sl_sort L) ->
  (forall n pop, length (eval n pop) = length pop /\ forall f, In (ROk f) (eval n pop) -> fisnan f = false) ->
  works E (es_worker L E lambda mu offset offset_stdev component g eval).
Proof.
  intros L E lambda mu off dev comp g eval HM HS HE.
  assert (NN : forall n pop, Forall (fun f => fisnan f = false) (fits_of E (eval n pop))).
  { intros n pop. apply Forall_forall. intros f Hf. unfold fits_of in Hf. apply in_map_iff in Hf as ([x|w] & <- & Hx); [exact (proj2 (HE n pop) x Hx)|]. unfold worst_fitness. destruct (oi_minimize (e_info E)); vm_compute; reflexivity. }
  assert (HL : forall n pop, length (fits_of E (eval n pop)) = length pop) by (intros n pop; unfold fits_of; rewrite map_length; apply HE).
  set (w := es_worker L E lambda mu off dev comp g eval).
  assert (SZ : forall n, es_sized L E lambda (state_after E w n)).
  { induction n as [|n IH]; [apply es_sized_start|].
    destruct (C47_always_defined L E lambda mu off dev comp _ IH HM HS) as (s1 & pop & E1 & E2 & _). pose proof (es_sized_sample L E lambda mu off dev comp _ IH) as S1. rewrite E1 in S1. cbn [fst] in S1.
    rewrite (state_after_S E w n s1 pop E1). destruct (too_many_errors E (w_eval w n pop)); [exact S1|]. apply (es_sized_update L E lambda mu off dev comp s1 _ S1). }
  intros n. destruct (C47_always_defined L E lambda mu off dev comp _ (SZ n) HM HS) as (s1 & pop & E1 & E2 & E3). destruct (E3 (fits_of E (eval n pop)) (HL n pop) (NN n pop)) as (s2 & E4 & _).
  pose proof (es_sized_sample L E lambda mu off dev comp _ (SZ n)) as S1. rewrite E1 in S1. cbn [fst] in S1.
  exists s1, pop, s2. split; [exact E1|]. split; [|exact E4]. split; [apply HE|]. cbn [si_pop]. split; [destruct pop; [cbn in E2; lia|discriminate]|].
  destruct S1 as (_ & _ & _ & _ & S1). unfold es_sampler in E1. cbn [s_sample] in E1. match type of E1 with context [match ?m with Ok _ => _ | _ => _ end] => destruct m as [s'|v|] end; try discriminate E1. assert (A : s' = s1) by congruence. assert (B : es_pop s' = pop) by congruence. rewrite <- B, A. exact S1.
Qed.

(** ** A concrete pool *)
(** two MES members that start in different places, one of which may make three steps only *)
Fixpoint run_driven (PE : pool_env) (ms : list member) (ws : list worker) (sched : nat -> list nat) (n : nat) (done : list nat) (P : pool) : option (list nat * pool) :=
  match n with
  | O => Some (done, P)
  | S k =>
    let inp := {| pi_inputs := fun i => match nth_error ms i, nth_error ws i with Some m, Some w => call (m_env m) w (count_occ Nat.eq_dec done i) | _, _ => {| si_pop := []; si_results := []; si_interrupt := false |} end;
                  pi_sched := sched; pi_interrupt := false |} in
    match pool_exec PE P (PoStep inp) with (P1, Ok _) => run_driven PE ms ws sched k (launches PE P ++ done) P1 | _ => None end
  end.
Lemma run_driven_driven PE ms ws sched n : forall done P done' P', run_driven PE ms ws sched n done P = Some (done', P') -> exists ops, length ops = n /\ driven PE ms ws done P ops done' P'.
Proof.
  induction n as [|n IH]; intros done P done' P'; cbn [run_driven]; [intros X; assert (done = done') by congruence; assert (P = P') by congruence; subst; exists []; split; [reflexivity|constructor]|].
  match goal with |- context [PoStep ?i] => set (inp := i) end. destruct (pool_exec PE P (PoStep inp)) as [P1 [[]|w|]] eqn:E; try discriminate. intros X. destruct (IH _ _ _ _ X) as (ops & L & D). exists (PoStep inp :: ops). split; [cbn; now rewrite L|]. econstructor; [exact E| |exact D].
  intros inp0 i m w0 EI Em Ew. injection EI as <-. unfold inp. cbn [pi_inputs]. rewrite Em, Ew. reflexivity.
Qed.
Definition safe_square (n : nat) : list point -> list result := map (fun p => match p with x :: _ => let y := fmul x x in if fisnan y then RErr "not a number" else ROk y | [] => RErr "no point" end).
Definition ex_worker (seed : nat) : worker := es_worker ex_lib (ex_env []) 4 2 fzero fzero (@mes_component (numF (sl_libm ex_lib)) (flit 5 (-1)) (flit 5 (-1)) fzero) seed safe_square.
Lemma ex_worker_works seed : works (ex_env []) (ex_worker seed).
Proof.
  apply C72_es_works; [lia|exact isort_sorts|]. intros n pop. unfold safe_square. split; [apply map_length|]. intros f Hf. apply in_map_iff in Hf as ([|x p] & E & _); [discriminate E|]. cbn zeta in E. destruct (fisnan (fmul x x)) eqn:EN; [discriminate E|]. injection E as <-. exact EN.
Qed.
Definition run_ok {A B C} (r : A * B * outcome C) : bool := match snd r with Ok _ => true | _ => false end.
Example C72_nonvacuous : let PE := ex_pool_env 6 2 2 false in let ms := [new_member (ex_env []) [flat_default; ScMaxSteps 2]; new_member (ex_env []) [flat_default]] in let ws := [ex_worker 1; ex_worker 3] in
  sorts (pe_sort PE) /\ Forall (joinable PE) ms /\ length ws = length ms /\
  exists ops done P, length ops = 4 /\ driven PE ms ws [] (pool_of PE ms []) ops done P /\ done <> [] /\ count_occ Nat.eq_dec done 0 = 2 /\ count_occ Nat.eq_dec done 1 = 4 /\
  forall i m w, nth_error ms i = Some m -> nth_error ws i = Some w -> works (m_env m) w /\ exists o s, alone m w (count_occ Nat.eq_dec done i) = (o, s, Ok tt).
Proof.
  set (PE := ex_pool_env 6 2 2 false). set (ms := [new_member (ex_env []) [flat_default; ScMaxSteps 2]; new_member (ex_env []) [flat_default]]). set (ws := [ex_worker 1; ex_worker 3]).
  cbv zeta. split; [exact isort_sorts|]. split; [constructor; [|constructor; [|constructor]]; apply new_joinable; [discriminate|reflexivity|discriminate|reflexivity]|]. split; [reflexivity|].
  assert (C : match run_driven PE ms ws (fun _ => [1]) 4 [] (pool_of PE ms []) with Some (done, P) => Nat.eqb (count_occ Nat.eq_dec done 0) 2 && Nat.eqb (count_occ Nat.eq_dec done 1) 4 | None => false end = true) by (vm_compute; reflexivity).
  destruct (run_driven PE ms ws (fun _ => [1]) 4 [] (pool_of PE ms [])) as [[done P]|] eqn:E; [|discriminate C]. apply andb_true_iff in C as [C1 C2]. apply Nat.eqb_eq in C1, C2. destruct (run_driven_driven _ _ _ _ _ _ _ _ _ E) as (ops & L & D).
  exists ops, done, P. split; [exact L|]. split; [exact D|]. split; [intros ->; discriminate C1|]. split; [exact C1|]. split; [exact C2|]. clear E D L.
  assert (A : forall m w n, run_ok (alone m w n) = true -> exists o s, alone m w n = (o, s, Ok tt)) by (intros m w n X; destruct (alone m w n) as [[o s] [[]|v|]]; try discriminate X; eauto).
  intros i m w Em Ew. destruct i as [|[|i]]; cbn [nth_error ms ws] in Em, Ew; [| |destruct i; discriminate Em]; injection Em as <-; injection Ew as <-.
  - split; [apply ex_worker_works|]. apply A. rewrite C1. vm_compute. reflexivity.
  - split; [apply ex_worker_works|]. apply A. rewrite C2. vm_compute. reflexivity.
Qed.
