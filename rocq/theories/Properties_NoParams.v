(** * C82: an objective without free parameters. *)
From Coq Require Import ZArith Bool Lia.
From Verif Require Import Prelude Flt Flt32 FltFacts FlatMap ParInfo ObjInfo ObjInfoFacts SearchPoint Num Mes MesF Boundary Optimizer OptimizerFacts Driver Pool CmaRandom CmaF NoParams
  Properties_Optimizer Properties_Optimizer4 Properties_ES4 Properties_Pool.
#[local] Open Scope nat_scope.
Definition refusal : string := "Objective has no free parameters".

(** ** An optimizer *)
(** Nothing of a search can be seen in [c]: no step, no best, no current point, no history. *)
Definition untouched (E : env) (c : core) : Prop :=
  c_steps c = 0 /\ c_best_fit c = worst_fitness (e_info E) /\ c_best_pt c = [] /\ c_cur_fit c = worst_fitness (e_info E) /\
  c_cur_pt c = [] /\ c_cur_fits c = [] /\ c_samples c = 0 /\ c_hist c = [].
Definition only_stops (tr : list delivery) : Prop := forall d, In d tr -> exists k, d_event d = EStop k.
Lemma untouched_trend E c : untouched E c -> untouched E (fst (fitness_trend E c)).
Proof. intros (H1 & H2 & H3 & H4 & H5 & H6 & H7 & H8). unfold fitness_trend. destruct (match c_trend_step c with Some s => _ | None => _ end); cbn [fst]; unfold untouched; cbn; auto 10. Qed.
Lemma untouched_progress E c : untouched E c -> untouched E (fst (progress E c)).
Proof.
  intros H. unfold progress. destruct (Nat.eqb (c_cap c) 0); [exact H|]. destruct (Nat.leb 2 (length (c_hist c))); [|exact H].
  pose proof (untouched_trend E c H) as T. destruct (fitness_trend E c); exact T.
Qed.
Lemma untouched_predicted E c k : untouched E c -> untouched E (fst (predicted_fitness E c k)).
Proof.
  intros H. unfold predicted_fitness. destruct (Nat.eqb (c_cap c) 0); [exact H|]. destruct (Nat.leb 2 (length (c_hist c))); [|exact H].
  pose proof (untouched_trend E c H) as T. destruct (fitness_trend E c); exact T.
Qed.
Lemma untouched_sc_test E c sc : untouched E c -> untouched E (fst (fst (sc_test E c sc))).
Proof.
  intros H. destruct sc; cbn [sc_test]; try exact H.
  - destruct (Nat.leb _ _); [|exact H]. pose proof (untouched_progress E c H) as T. destruct (progress E c). exact T.
  - destruct (Nat.leb _ _); [|exact H]. pose proof (untouched_predicted E c look_ahead H) as T. destruct (predicted_fitness E c look_ahead) as [c' [x|w|]]; exact T.
  - destruct (_ && _); [|exact H]. destruct (negb _); [exact H|]. destruct (similarity_loop _ _ _ _ _ _) as [sims' [[k|]|w|]]; exact H.
Qed.
Lemma untouched_test_list E : forall l c i, untouched E c -> untouched E (fst (fst (test_list E c i l))).
Proof.
  induction l as [|sc t IH]; intros c i H; cbn [test_list]; [exact H|].
  pose proof (untouched_sc_test E c sc H) as T. destruct (sc_test E c sc) as [[c' sc'] [[]|w|]]; cbn [fst] in *; try exact T.
  specialize (IH c' (S i) T). destruct (test_list E c' (S i) t) as [[c'' t'] r]. exact IH.
Qed.
Lemma only_stops_signal E k c tr : only_stops tr -> only_stops (signal E (EStop k) c tr).
Proof.
  unfold signal. generalize 0. revert tr. induction (e_reporters E) as [|r t IH]; intros tr i H; [exact H|]. cbn [deliver].
  assert (H' : only_stops (tr ++ [{| d_rep := i; d_event := EStop k; d_view := c |}])).
  { intros d Hd. apply in_app_iff in Hd as [Hd|[<-|[]]]; [exact (H d Hd)|]. exists k. reflexivity. }
  destruct (r tr (EStop k)); [exact H'|]. apply IH, H'.
Qed.
Definition idle (E : env) (o : opt) : Prop := untouched E (o_core o) /\ only_stops (o_trace o).
Lemma idle_test_stop E o : idle E o -> idle E (fst (test_stop E o)).
Proof.
  intros (H & T). unfold test_stop. destruct (o_stopped o); [split; assumption|].
  pose proof (untouched_test_list E (o_scs o) (o_core o) 0 H) as U. destruct (test_list E (o_core o) 0 (o_scs o)) as [[c scs] r]. cbn [fst] in U.
  destruct r as [[k|]|w|]; split; cbn [fst o_core o_trace]; try assumption. apply only_stops_signal, T.
Qed.
Lemma idle_add E o sc : idle E o -> idle E (add_stop_condition o sc).
Proof. intros (H & T). split; [|exact T]. unfold add_stop_condition. cbn [o_core]. destruct (Nat.ltb _ _); [|exact H]. exact H. Qed.
Lemma idle_created E extra : oi_dim (e_info E) = 0 -> idle E (created E extra).
Proof.
  intros Hd. unfold created. assert (H : idle E (init E)).
  { unfold init. apply idle_add, idle_add. split; [|intros d []]. unfold oi_dim in Hd. apply length_zero_iff_nil in Hd. unfold untouched, init_core. cbn. rewrite Hd. auto 10. }
  revert H. generalize (init E). induction extra as [|sc t IH]; intros o H; [exact H|]. cbn [fold_left]. apply IH, idle_add, H.
Qed.
Lemma refused_step E o i : oi_dim (e_info E) = 0 -> step E o i = (o, Throw refusal).
Proof. intros Hd. unfold step. rewrite Hd. reflexivity. Qed.
Lemma idle_exec E o a : oi_dim (e_info E) = 0 -> idle E o -> idle E (exec E o a).
Proof.
  intros Hd I. pose proof I as (H & T). destruct a; cbn [exec].
  - rewrite (refused_step E o i Hd). exact I.
  - split; [exact H|exact T].
  - apply idle_test_stop, I.
  - split; [apply untouched_trend, H|exact T].
  - split; [apply untouched_progress, H|exact T].
  - split; [apply untouched_predicted, H|exact T].
  - apply idle_add, I.
Qed.

(** Whatever was called before, on an objective without free parameters step() and run() throw,
    and leave the optimizer exactly as it was; nothing was ever evaluated, no best was ever
    found, and no reporter heard anything but (when the client tests the stop conditions himself) on_stop. *)
Theorem C82_refused : forall E extra h, oi_dim (e_info E) = 0 ->
  let o := after E extra h in
  untouched E (o_core o) /\ only_stops (o_trace o) /\
  (forall inp, step E o inp = (o, Throw refusal)) /\
  (forall n inputs, run E o n inputs = (o, Throw refusal, 0)).
Proof.
  intros E extra h Hd o. assert (I : idle E o).
  { unfold o, after. pose proof (idle_created E extra Hd) as I. revert I. generalize (created E extra). induction h as [|a t IH]; intros o' I; [exact I|]. cbn [fold_left]. apply IH, idle_exec; assumption. }
  split; [apply I|]. split; [apply I|]. split; [intros; apply refused_step, Hd|]. intros. unfold run. rewrite Hd. reflexivity.
Qed.
(** The same for the complete step of MES, EVA and CMA (and of any optimizer with such a step):
    not even the random generator moves, and the evaluator is not asked. *)
Theorem C82_refused_steps : forall S (smp : sampler S) E o s evals, oi_dim (e_info E) = 0 -> evals <> [] ->
  full_steps smp E o s evals = (o, s, Throw refusal).
Proof. intros S smp E o s [|[eval i] t] Hd H; [contradiction|]. cbn [full_steps]. unfold full_step. rewrite Hd. reflexivity. Qed.
(** A pool: its step() throws and changes neither the pool nor a member; in a history of calls
    that all return normally there is no step, and no member is ever started. *)
Theorem C82_pool : forall PE, oi_dim (e_info (pe_env PE)) = 0 ->
  (forall P inp, pool_step PE P inp = (P, Throw refusal)) /\
  (forall P ops L P', history PE P ops L P' -> L = [] /\ forall i, ~ In (PoStep i) ops).
Proof.
  intros PE Hd. assert (R : forall P inp, pool_step PE P inp = (P, Throw refusal)) by (intros; unfold pool_step; rewrite Hd; reflexivity).
  split; [exact R|]. intros P ops L P' H. induction H as [P|P a P1 ops L P2 H1 H2 (-> & IH)]; [split; [reflexivity|intros i []]|].
  destruct a as [inp| |].
  - cbn [pool_exec] in H1. rewrite R in H1. cbn in H1. discriminate.
  - split; [reflexivity|]. intros i [X|X]; [discriminate|exact (IH i X)].
  - split; [reflexivity|]. intros i [X|X]; [discriminate|exact (IH i X)].
Qed.

(** ** Construction *)
(** std::log( 0 ) is minus infinity, which has no value as an int: MES and EVA can be constructed only with a
    population size that is given.  A CMA optimizer can be constructed with every population size
    that is not negative (also 0 and 1, and the default), and has points without values. *)
Theorem C82_construction : forall L info, oi_dim info = 0 -> lm_log (sl_libm L) fzero = finf true ->
  (forall opt, (1 < mo_lambda opt)%Z -> mes_lambda L info opt = Ok (mo_lambda opt)) /\
  (forall opt, (mo_lambda opt <= 1)%Z -> mes_lambda L info opt = Undef) /\
  (forall opt, (1 < eo_lambda opt)%Z -> eva_lambda L info opt = Ok (eo_lambda opt)) /\
  (forall opt, (eo_lambda opt <= 1)%Z -> eva_lambda L info opt = Undef).
Proof.
  intros L info Hd HL.
  assert (A : forall l, (1 < l)%Z -> @es_lambda (numF (sl_libm L)) to_int_F l (oi_dim info) = Ok l).
  { intros l Hl. unfold es_lambda. destruct (Z.ltb_spec 1 l); [reflexivity|lia]. }
  assert (B : forall l, (l <= 1)%Z -> @es_lambda (numF (sl_libm L)) to_int_F l (oi_dim info) = Undef).
  { intros l Hl. unfold es_lambda. destruct (Z.ltb_spec 1 l); [lia|]. rewrite Hd. unfold nlog, numF. cbn [nofZ].
    change (fofZ (Z.of_nat 0)) with fzero. rewrite HL. reflexivity. }
  split; [|split; [|split]]; intros opt; [apply A|apply B|apply A|apply B].
Qed.
Theorem C82_construction_cma : forall info opt device, oi_dim info = 0 ->
  ((0 <= co_lambda opt)%Z -> exists pop seed, cma_create_no_params info opt device = Ok (pop, seed) /\ Z.of_nat (length pop) = co_lambda opt /\
     (forall p, In p pop -> sp_info p = info /\ sp_values p = []) /\
     (0 <= seed < 2 ^ 32)%Z /\ ((0 < co_seed opt < 2 ^ 32)%Z -> seed = co_seed opt)) /\
  ((co_lambda opt < 0)%Z -> exists w, cma_create_no_params info opt device = Throw w).
Proof.
  intros info opt device Hd. unfold cma_create_no_params. split; intros Hl.
  - destruct (Z.ltb_spec (co_lambda opt) 0); [lia|]. eexists. eexists. split; [reflexivity|]. split; [rewrite repeat_length; lia|]. split.
    + intros p Hp. apply repeat_spec in Hp. subst p. unfold sp_of_means, round_values. cbn [sp_info sp_values]. unfold oi_dim in Hd. apply length_zero_iff_nil in Hd. rewrite Hd. split; reflexivity.
    + unfold seed_of. split; [apply Z.mod_pos_bound; lia|]. intros Hs. destruct (Z.eqb_spec (co_seed opt) 0); [lia|]. apply Z.mod_small. lia.
  - destruct (Z.ltb_spec (co_lambda opt) 0); [|lia]. eauto.
Qed.

(** ** How an objective comes to have none *)
(** Locking every free parameter, in any order and with any values, leaves none. *)
Theorem C82_all_locked : forall o l, oi_inv o -> (forall p, In p (oi_free o) -> In (pi_name p) (map fst l)) ->
  oi_dim (fold_left (fun o nv => fst (lock_parameter o (fst nv) (snd nv))) l o) = 0.
Proof.
  intros o l I H. unfold oi_dim. assert (X : forall l o, oi_inv o -> oi_free (fold_left (fun o nv => fst (lock_parameter o (fst nv) (snd nv))) l o)
      = filter (fun p => negb (existsb (fun nv => String.eqb (pi_name p) (fst nv)) l)) (oi_free o)).
  { clear. induction l as [|[n v] t IH]; intros o I; cbn [fold_left existsb fst snd]; [induction (oi_free o) as [|a f IHf]; [reflexivity|cbn; f_equal; exact IHf]|].
    pose proof (lock_parameter_spec o n v I) as S. destruct (lock_parameter o n v) as [o' b]. destruct S as (I' & _ & _ & F & _). cbn [fst].
    rewrite (IH o' I'), F. clear. induction (oi_free o) as [|a f IHf]; [reflexivity|]. cbn [filter]. destruct (String.eqb (pi_name a) n); cbn [negb orb]; [exact IHf|]. cbn [filter]. now rewrite IHf. }
  rewrite (X l o I). clear X. assert (Y : forall f : list par_info, (forall p, In p f -> In (pi_name p) (map fst l)) -> filter (fun p => negb (existsb (fun nv => String.eqb (pi_name p) (fst nv)) l)) f = []).
  { clear. induction f as [|a f IH]; intros H; [reflexivity|]. cbn [filter].
    assert (E : existsb (fun nv => String.eqb (pi_name a) (fst nv)) l = true).
    { apply existsb_exists. specialize (H a (or_introl eq_refl)). apply in_map_iff in H as (nv & H1 & H2). exists nv. split; [exact H2|]. rewrite H1. apply String.eqb_refl. }
    rewrite E. cbn [negb]. apply IH. intros p Hp. apply H. now right. }
  rewrite (Y _ H). reflexivity.
Qed.
(** Its search points are written as an empty file, which import_values refuses. *)
Theorem C82_empty_file : forall eager_eof p q, oi_dim (sp_info p) = 0 -> write_point p = [] /\ exists w, import_values eager_eof q (Some (write_point p)) = (q, Throw w).
Proof.
  intros eager_eof p q Hd. assert (W : write_point p = []).
  { unfold oi_dim in Hd. apply length_zero_iff_nil in Hd. unfold write_point. rewrite Hd. reflexivity. }
  split; [exact W|]. rewrite W. eexists. reflexivity.
Qed.

Definition ex_locked : obj_info := fst (lock_parameter ex_info "x" (fofZ 2)).
Definition ex_none (rs : list reporter) : env :=
  {| e_info := ex_locked; e_cma := false; e_regression := fun _ _ => lin_zero; e_unsigned_errors := true; e_max_errors := 0; e_reporters := rs; e_libm := e_libm (ex_env []) |}.
Example C82_nonvacuous : oi_dim ex_info = 1 /\ oi_dim ex_locked = 0 /\
  (let o := after (ex_none [quiet]) [ScMaxSteps 3] [OpStep (good_step 2 1); OpInterrupt; OpTest; OpStep (good_step 2 1)] in
   length (o_trace o) = 1 /\ o_stopped o = Some 0 /\ snd (run (ex_none [quiet]) o 0 (fun _ => good_step 2 1)) = 0) /\
  (exists pop seed, cma_create_no_params ex_locked {| co_lambda := 3; co_seed := 7; co_modulo := fofZ 0 |} 5 = Ok (pop, seed) /\ length pop = 3 /\ seed = 7%Z).
Proof.
  split; [reflexivity|]. split; [reflexivity|]. split; [split; [vm_compute; reflexivity|]; split; [vm_compute; reflexivity|reflexivity]|].
  eexists. eexists. split; [reflexivity|]. split; reflexivity.
Qed.
