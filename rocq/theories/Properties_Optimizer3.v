(** * C23, C25-C27: stop conditions, fitness history, trend, interrupts. *)
From Coq Require Import ZArith Bool.
From Flocq Require Import BinarySingleNaN.
From Verif Require Import Prelude Flt FltFacts Flt32 Round8 Round8Facts FlatMap ParInfo ObjInfo ObjInfoFacts Num MathTools Optimizer OptimizerFacts Properties_Optimizer Properties_Optimizer2.

(** ** C25 *)

(** The best fitness of each completed step, in order. *)
Definition step_bests (E : env) (h : list op) : list f64 :=
  flat_map (fun a => match a with OpStep i => if too_many_errors E (si_results i) then [] else [step_best E (si_results i)] | _ => [] end) h.
(** The last [n] elements. *)
Definition last_n {A} (n : nat) (l : list A) : list A := skipn (length l - n) l.
(** The window: the largest one any of the added conditions asks for. *)
Definition window (extra : list stop_cond) : nat := fold_left (fun n sc => Nat.max n (min_window sc)) extra 0.
Lemma created_cap E extra : o_core (created E extra) = with_cap (init_core E) (window extra).
Proof.
  unfold created, window. assert (H : forall o n, o_core o = with_cap (init_core E) n ->
    o_core (fold_left add_stop_condition extra o) = with_cap (init_core E) (fold_left (fun n sc => Nat.max n (min_window sc)) extra n)).
  { induction extra as [|sc t IH]; intros o n Ho; cbn [fold_left]; [exact Ho|]. apply IH. cbn [add_stop_condition o_core]. rewrite Ho. cbn [with_cap c_cap].
    destruct (Nat.ltb_spec n (min_window sc)); [rewrite Nat.max_r by lia; reflexivity|]. rewrite Nat.max_l by lia. reflexivity. }
  apply H. reflexivity.
Qed.
Lemma last_n_snoc {A} n (l : list A) x : 0 < n ->
  last_n n (l ++ [x]) = (if Nat.leb n (length (last_n n l)) then tl (last_n n l) else last_n n l) ++ [x].
Proof.
  intros Hn. unfold last_n. rewrite app_length, skipn_length. cbn [length].
  destruct (Nat.leb_spec n (length l - (length l - n))).
  - replace (length l + 1 - n) with (S (length l - n)) by lia. rewrite skipn_app. replace (S (length l - n) - length l) with 0 by lia. cbn [skipn]. f_equal.
    generalize (length l - n) as k. clear. intros k. revert l. induction k as [|k IH]; intros [|a l]; cbn [skipn tl]; auto; apply (IH l).
  - replace (length l + 1 - n) with 0 by lia. replace (length l - n) with 0 by lia. reflexivity.
Qed.
Lemma map_last_n {A B} (f : A -> B) n l : map f (last_n n l) = last_n n (map f l).
Proof. unfold last_n. rewrite map_length. generalize (length l - n) as k. clear. induction l as [|a l IH]; intros [|k]; cbn; auto. Qed.
Lemma completed_bests E h : completed E h = length (step_bests E h).
Proof.
  unfold completed, step_bests. induction h as [|a h IH]; [reflexivity|]. cbn [filter flat_map]. rewrite app_length, <- IH.
  destruct a as [i| | | | |n|sc]; cbn [length]; auto. destruct (too_many_errors E (si_results i)); reflexivity.
Qed.

(** The conditions added by the calls of [h]. *)
Definition adds (h : list op) : list stop_cond := flat_map (fun a => match a with OpAdd sc => [sc] | _ => [] end) h.
(** The bests of the steps that completed while the window was not 0, for a window that is [W] at first. *)
Fixpoint tracked (E : env) (W : nat) (h : list op) : list f64 :=
  match h with
  | [] => []
  | OpAdd sc :: t => tracked E (Nat.max W (min_window sc)) t
  | OpStep i :: t => (if too_many_errors E (si_results i) then [] else if Nat.eqb W 0 then [] else [step_best E (si_results i)]) ++ tracked E W t
  | _ :: t => tracked E W t
  end.
Definition grown (W : nat) (h : list op) : nat := fold_left (fun n sc => Nat.max n (min_window sc)) (adds h) W.
Lemma grown_app W h1 h2 : grown W (h1 ++ h2) = grown (grown W h1) h2.
Proof. unfold grown, adds. now rewrite flat_map_app, fold_left_app. Qed.
Lemma grown_window extra h : grown (window extra) h = window (extra ++ adds h).
Proof. unfold grown, window. now rewrite fold_left_app. Qed.
Lemma grown_le W h : W <= grown W h.
Proof. unfold grown. generalize (adds h) as l. intros l. revert W. induction l as [|s t IH]; intros W; cbn [fold_left]; [lia|]. specialize (IH (Nat.max W (min_window s))). lia. Qed.
Lemma tracked_app E h1 : forall W h2, tracked E W (h1 ++ h2) = tracked E W h1 ++ tracked E (grown W h1) h2.
Proof.
  induction h1 as [|a h1 IH]; intros W h2; cbn [tracked app]; [reflexivity|].
  destruct a as [i| | | | |n|sc]; cbn [tracked]; rewrite IH; try reflexivity. now rewrite app_assoc.
Qed.
Lemma tracked_all E h : forall W, 0 < W -> tracked E W h = step_bests E h.
Proof.
  induction h as [|a h IH]; intros W HW; [reflexivity|]. unfold step_bests. cbn [tracked flat_map]. fold (step_bests E h).
  destruct a as [i| | | | |n|sc]; cbn [app]; rewrite ?IH by lia; try reflexivity. destruct (too_many_errors E (si_results i)); [reflexivity|]. destruct (Nat.eqb_spec W 0); [lia|reflexivity].
Qed.
Lemma tracked_none E h : forall W, grown W h = 0 -> tracked E W h = [].
Proof.
  induction h as [|a h IH]; intros W HW; [reflexivity|]. cbn [tracked].
  destruct a as [i| | | | |n|sc]; try (apply IH; exact HW). pose proof (grown_le W (OpStep i :: h)) as HL. rewrite HW in HL.
  destruct (Nat.eqb_spec W 0); [|lia]. destruct (too_many_errors E (si_results i)); cbn [app]; apply IH, HW.
Qed.
Lemma last_n_length {A} n (l : list A) : length (last_n n l) = Nat.min n (length l).
Proof. unfold last_n. rewrite skipn_length. lia. Qed.

(** One call, from any reachable state. *)
Lemma hist_snoc E extra h a : oi_dim (e_info E) <> 0 -> Forall (wf_op E) (h ++ [a]) ->
  let c := o_core (after E extra h) in let c' := o_core (after E extra (h ++ [a])) in
  c_cap c' = grown (c_cap c) [a] /\ c_samples c' = c_samples c + length (tracked E (c_cap c) [a]) /\
  (c_hist c = c_hist c' /\ tracked E (c_cap c) [a] = [] \/
   exists f, tracked E (c_cap c) [a] = [f] /\ 0 < c_cap c /\
  c_hist c' = (if Nat.leb (c_cap c) (length (c_hist c)) then tl (c_hist c) else c_hist c) ++ [f32_of_f64 f]).
Proof.
  intros Hd Hw c c'. apply Forall_app in Hw as [Hw Ha]. inversion_clear Ha as [|? ? Hwa _]. unfold c'. rewrite after_snoc.
  destruct (strip_fields _ _ (exec_core E (after E extra h) a (after_inv E extra h Hd Hw) Hd Hwa)) as (_ & _ & _ & _ & _ & _ & -> & -> & -> & _).
  fold c. unfold grown, adds. destruct a as [i| | | | |n|sc]; cbn [op_core tracked flat_map app fold_left length with_interrupt c_cap c_hist c_samples]; rewrite ?Nat.add_0_r; auto 6.
  - pose proof (step_core_fields E c i) as HF. cbv zeta in HF. destruct (too_many_errors E (si_results i)).
    + destruct HF as (_ & _ & _ & _ & _ & _ & -> & -> & ->). cbn [app length]. rewrite Nat.add_0_r. auto.
    + destruct HF as (_ & _ & _ & _ & _ & -> & HF). rewrite app_nil_r. split; [reflexivity|].
      destruct (Nat.ltb_spec 0 (c_cap c)); destruct (Nat.eqb_spec (c_cap c) 0); try lia; destruct HF as [-> ->]; cbn [length].
      * split; [lia|]. right. eauto.
      * split; [lia|]. auto.
  - destruct (Nat.ltb_spec (c_cap c) (min_window sc)); cbn [with_cap c_cap c_samples c_hist]; rewrite ?Nat.add_0_r; (split; [lia|auto]).
Qed.

(** In general: conditions may be added at any time. *)
Theorem C25_history_is_recent : forall E extra h, oi_dim (e_info E) <> 0 -> Forall (wf_op E) h ->
  let c := o_core (after E extra h) in
  (* the window is the largest one asked for so far *)
  c_cap c = window (extra ++ adds h) /\
  (* the history holds the latest of the bests of the steps completed since tracking began, oldest first, at most as many as the window *)
  (exists n, n <= c_cap c /\ c_hist c = map f32_of_f64 (last_n n (tracked E (window extra) h)) /\ length (c_hist c) = n) /\
  c_samples c = length (tracked E (window extra) h) /\ c_steps c = completed E h.
Proof.
  intros E extra h Hd Hw c. rewrite <- grown_window.
  assert (H : c_cap c = grown (window extra) h /\ (length (c_hist c) <= c_cap c /\ length (c_hist c) <= c_samples c /\ c_hist c = map f32_of_f64 (last_n (length (c_hist c)) (tracked E (window extra) h))) /\
  c_samples c = length (tracked E (window extra) h)).
  { subst c. revert Hw. induction h as [|a h IH] using rev_ind; intros Hw.
    - unfold after. cbn [fold_left]. rewrite created_cap. cbn. split; [reflexivity|]. split; [|reflexivity]. split; [lia|]. split; [lia|reflexivity].
    - pose proof (hist_snoc E extra h a Hd Hw) as HS. cbv zeta in HS. apply Forall_app in Hw as [Hw _]. destruct (IH Hw) as (J1 & (J2 & J3 & J4) & J5). clear IH.
      destruct HS as (S1 & S2 & S3). set (c := o_core (after E extra h)) in *. set (c' := o_core (after E extra (h ++ [a]))) in *.
      rewrite grown_app, tracked_app, app_length, <- J1, S1, S2, J5. split; [reflexivity|]. split; [|reflexivity].
      pose proof (grown_le (c_cap c) [a]) as HL. destruct S3 as [(S3 & S4)|(f & S3 & S4 & S5)].
      + rewrite <- S3, S4, app_nil_r. cbn [length]. split; [lia|]. split; [lia|exact J4].
      + rewrite S3. set (l := tracked E (window extra) h) in *. set (n := length (c_hist c)) in *. cbn [length].
        assert (HN : length (c_hist c') = if Nat.leb (c_cap c) n then n else S n).
        { rewrite S5, app_length. cbn [length]. destruct (Nat.leb_spec (c_cap c) n); [|fold n; lia]. destruct (c_hist c) as [|x q]; cbn [tl length] in *; unfold n in *; lia. }
        destruct (Nat.leb_spec (c_cap c) n).
        * split; [lia|]. split; [lia|]. rewrite HN, S5, last_n_snoc by lia. rewrite last_n_length. destruct (Nat.leb_spec n (Nat.min n (length l))); [|lia].
          rewrite map_app. cbn [map]. f_equal. rewrite J4. generalize (last_n n l). intros [|x q]; reflexivity.
        * split; [lia|]. split; [lia|]. rewrite HN, S5, last_n_snoc by lia. rewrite last_n_length. destruct (Nat.leb_spec (S n) (Nat.min (S n) (length l))).
          -- rewrite map_app. cbn [map]. f_equal. rewrite J4. f_equal. unfold last_n. replace (length l - n) with (S (length l - S n)) by lia.
             generalize (length l - S n) as k. generalize l. clear. intros l k. revert l. induction k as [|k IH]; intros [|x l]; cbn [skipn tl]; auto. exact (IH l).
          -- rewrite map_app. cbn [map]. f_equal. rewrite J4. f_equal. unfold last_n. replace (length l - n) with (length l - S n) by lia. reflexivity. }
  destruct H as (H1 & (H2 & H3 & H4) & H5). split; [exact H1|]. split; [exists (length (c_hist c)); auto|]. split; [exact H5|apply C21_current_step; auto].
Qed.
(** While the window does not grow, the history fills up to it. *)
Theorem C25_history_fills_up : forall E extra h1 h2, oi_dim (e_info E) <> 0 -> Forall (wf_op E) (h1 ++ h2) ->
  window (extra ++ adds (h1 ++ h2)) = window (extra ++ adds h1) ->
  let W := window (extra ++ adds h1) in let c1 := o_core (after E extra h1) in let c := o_core (after E extra (h1 ++ h2)) in
  length (c_hist c) = if Nat.eqb W 0 then 0 else Nat.min W (length (c_hist c1) + completed E h2).
Proof.
  intros E extra h1 h2 Hd Hw HG W c1 c. subst c.
  assert (HC1 : c_cap c1 = W) by (apply (C25_history_is_recent E extra h1 Hd); apply Forall_app in Hw; tauto).
  assert (HL1 : length (c_hist c1) <= W).
  { destruct (C25_history_is_recent E extra h1 Hd) as (_ & (n & K1 & _ & K2) & _); [apply Forall_app in Hw; tauto|]. fold c1 in K1, K2. lia. }
  rewrite <- !grown_window in HG. rewrite grown_app in HG. unfold W in *. rewrite <- !grown_window in *. set (w := grown (window extra) h1) in *. clear W.
  revert Hw HG. induction h2 as [|a h2 IH] using rev_ind; intros Hw HG.
  - rewrite app_nil_r. fold c1. cbn. destruct (Nat.eqb_spec w 0); lia.
  - rewrite app_assoc in Hw. pose proof (hist_snoc E extra (h1 ++ h2) a Hd Hw) as HS. cbv zeta in HS. apply Forall_app in Hw as [Hw Ha].
    rewrite grown_app in HG. pose proof (grown_le w h2) as L1. pose proof (grown_le (grown w h2) [a]) as L2. specialize (IH Hw ltac:(lia)).
    assert (HC : c_cap (o_core (after E extra (h1 ++ h2))) = w).
    { destruct (C25_history_is_recent E extra (h1 ++ h2) Hd Hw) as (-> & _). rewrite <- grown_window, grown_app. fold w. lia. }
    rewrite HC in HS. rewrite <- app_assoc in HS. set (c := o_core (after E extra (h1 ++ h2))) in *. set (c' := o_core (after E extra (h1 ++ h2 ++ [a]))) in *. destruct HS as (_ & _ & S3).
    assert (HK : completed E (h2 ++ [a]) = completed E h2 + completed E [a]) by (unfold completed; rewrite filter_app, app_length; reflexivity). rewrite HK.
    destruct (Nat.eqb_spec w 0) as [Hz|Hz].
    + destruct S3 as [(<- & _)|(f & _ & S4 & _)]; [exact IH|lia].
    + assert (HT : tracked E w [a] = step_bests E [a]) by (apply tracked_all; lia). assert (HB : completed E [a] = length (tracked E w [a])) by (rewrite HT; apply completed_bests).
      destruct S3 as [(<- & S4)|(f & S4 & _ & S5)]; rewrite HB, S4; cbn [length]; [lia|].
      rewrite S5, app_length. cbn [length]. destruct (Nat.leb_spec w (length (c_hist c))); [destruct (c_hist c); cbn [tl length] in *; lia|lia].
Qed.
(** With the conditions in place from the start (none added later asks for more): the window is
    exactly the last W step bests. *)
Theorem C25_history_is_the_window : forall E extra h, oi_dim (e_info E) <> 0 -> Forall (wf_op E) h ->
  let c := o_core (after E extra h) in let W := window extra in
  window (extra ++ adds h) = W ->
  c_cap c = W /\
  c_hist c = map f32_of_f64 (last_n W (step_bests E h)) /\
  length (c_hist c) = Nat.min W (completed E h) /\
  (0 < W -> c_samples c = completed E h) /\ c_steps c = completed E h.
Proof.
  intros E extra h Hd Hw c W HG. destruct (C25_history_is_recent E extra h Hd Hw) as (H1 & (n & H2 & H3 & H4) & H5 & H6). fold c in H1, H2, H3, H4, H5, H6.
  pose proof (C25_history_fills_up E extra [] h Hd Hw) as HF. cbn [app adds flat_map] in HF. rewrite app_nil_r in HF. specialize (HF HG). fold c in HF. fold W in HF.
  assert (H0 : length (c_hist (o_core (after E extra []))) = 0) by (unfold after; cbn [fold_left]; rewrite created_cap; reflexivity). rewrite H0 in HF. cbn [Nat.add] in HF.
  assert (HL : length (c_hist c) = Nat.min W (completed E h)) by (destruct (Nat.eqb_spec W 0); lia).
  split; [now rewrite H1|]. split; [|split; [exact HL|split; [|exact H6]]].
  - rewrite H3. f_equal. destruct (Nat.eq_dec W 0) as [Hz|Hz].
    + rewrite <- H4, HL, Hz. cbn [Nat.min]. unfold last_n. rewrite !Nat.sub_0_r, !skipn_all. reflexivity.
    + fold W. rewrite tracked_all by lia. rewrite <- H4, HL, completed_bests. unfold last_n. destruct (Nat.min_spec W (length (step_bests E h))) as [(L & ->)|(L & ->)]; [reflexivity|].
      replace (length (step_bests E h) - W) with 0 by lia. now rewrite Nat.sub_diag.
  - intros HW. rewrite H5. fold W. rewrite tracked_all by lia. symmetry. apply completed_bests.
Qed.
(** Tracking that is switched on late misses the steps before: the history and the sample numbers
    of the trend start at the first step completed with a window. *)
Theorem C25_late_tracking : forall E h1 h2, oi_dim (e_info E) <> 0 -> Forall (wf_op E) (h1 ++ h2) ->
  window (adds h1) = 0 -> forall sc h2', h2 = OpAdd sc :: h2' -> 0 < min_window sc ->
  let c := o_core (after E [] (h1 ++ h2)) in
  c_samples c = completed E h2' /\ c_steps c = completed E h1 + completed E h2' /\
  exists n, n <= c_cap c /\ c_hist c = map f32_of_f64 (last_n n (step_bests E h2')) /\ length (c_hist c) = n.
Proof.
  intros E h1 h2 Hd Hw H0 sc h2' -> Hsc c. destruct (C25_history_is_recent E [] (h1 ++ OpAdd sc :: h2') Hd Hw) as (H1 & (n & H2 & H3 & H4) & H5 & H6). fold c in H1, H2, H3, H4, H5, H6.
  assert (HG : grown 0 h1 = 0) by exact H0.
  assert (HT : tracked E (window []) (h1 ++ OpAdd sc :: h2') = step_bests E h2').
  { change (window []) with 0. rewrite tracked_app, tracked_none by exact HG. cbn [app tracked]. rewrite HG. apply tracked_all. lia. }
  rewrite HT in H3, H5. split; [rewrite H5; symmetry; apply completed_bests|]. split; [|eauto].
  rewrite H6. unfold completed. rewrite filter_app, app_length. reflexivity.
Qed.

(** ** C26 *)

(** The regression of the current history over its sample numbers. *)
Definition regression_of (E : env) (c : core) : linfun :=
  let n := length (c_hist c) in
  if n <? 2 then lin_zero else e_regression E (map Z.of_nat (seq (c_samples c - n) n)) (c_hist c).
Theorem C26_trend_is_never_stale : forall E extra h, oi_dim (e_info E) <> 0 -> Forall (wf_op E) h ->
  let c := o_core (after E extra h) in
  snd (fitness_trend E c) = regression_of E c /\
  snd (progress E c) =
    (if Nat.eqb (c_cap c) 0 then Throw "fitness tracking must be enabled for this method"
     else if length (c_hist c) <? 2 then Ok f32zero
     else let f := regression_of E c in
          let middle := f32sub (f32ofZ (Z.of_nat (c_samples c))) (f32mul f32half (f32ofZ (Z.of_nat (length (c_hist c))))) in
          let imp := f32div (lf_slope f) (f32abs (lin_eval f middle)) in
          Ok (if oi_minimize (e_info E) then f32opp imp else imp)) /\
  (forall n, snd (predicted_fitness E c n) =
    if Nat.eqb (c_cap c) 0 then Throw "fitness tracking must be enabled for this method"
    else if length (c_hist c) <? 2 then Ok f32zero
    else Ok (lin_eval (regression_of E c) (f32ofZ (Z.of_nat (completed E h + n))))).
Proof.
  intros E extra h Hd Hw c. pose proof (after_inv E extra h Hd Hw) as [I1 _ _]. fold c in I1.
  assert (HR : compute_trend E c = regression_of E c).
  { unfold compute_trend, regression_of. cbv zeta. destruct (Nat.leb_spec 2 (length (c_hist c))), (Nat.ltb_spec (length (c_hist c)) 2); auto; lia. }
  split; [rewrite <- HR; now apply fitness_trend_spec|]. split.
  - destruct (progress_spec E c I1) as (_ & _ & ->). rewrite HR. destruct (Nat.eqb (c_cap c) 0); [reflexivity|].
    destruct (Nat.leb_spec 2 (length (c_hist c))), (Nat.ltb_spec (length (c_hist c)) 2); auto; lia.
  - intros n. destruct (predicted_spec E c n I1) as (_ & _ & ->). rewrite HR. rewrite <- (C21_current_step E extra h Hd Hw). fold c.
    destruct (Nat.eqb (c_cap c) 0); [reflexivity|].
    destruct (Nat.leb_spec 2 (length (c_hist c))), (Nat.ltb_spec (length (c_hist c)) 2); auto; lia.
Qed.

(** ** C27 *)
Definition interrupts (a : op) : bool := match a with OpInterrupt => true | OpStep i => si_interrupt i | _ => false end.
Lemma stop_requested_iff E extra h : oi_dim (e_info E) <> 0 -> Forall (wf_op E) h ->
  c_interrupted (o_core (after E extra h)) = existsb interrupts h.
Proof.
  intros Hd. induction h as [|a h IH] using rev_ind; intros Hw.
  - unfold after. cbn [fold_left]. rewrite created_cap. reflexivity.
  - apply Forall_app in Hw as [Hw Ha]. inversion_clear Ha as [|? ? Hwa _]. rewrite after_snoc, existsb_app. cbn [existsb]. rewrite orb_false_r, <- (IH Hw).
    destruct (strip_fields _ _ (exec_core E (after E extra h) a (after_inv E extra h Hd Hw) Hd Hwa)) as (_ & _ & _ & _ & _ & _ & _ & _ & _ & ->).
    destruct a as [i| | | | |n|sc]; cbn [op_core interrupts with_interrupt c_interrupted]; rewrite ?orb_false_r, ?orb_true_r; auto.
    2:{ destruct (Nat.ltb _ _); reflexivity. }
    unfold step_core. destruct (si_interrupt i); cbn [with_interrupt c_interrupted]; [now rewrite orb_true_r|]. rewrite orb_false_r.
    destruct (too_many_errors E (si_results i)); [reflexivity|]. unfold absorb, update_fitness_tracking. cbn [with_steps c_interrupted].
    destruct (is_better _ _ _); cbn [with_best with_current c_cap]; destruct (Nat.ltb 0 _); reflexivity.
Qed.
Lemma test_stop_interrupted E o : opt_inv E o -> c_interrupted (o_core o) = true ->
  snd (test_stop E o) = Ok (Some (match o_stopped o with Some k => k | None => 0 end)).
Proof.
  intros [_ _ (t & Ht)] Hi. unfold test_stop. destruct (o_stopped o); [reflexivity|]. rewrite Ht. cbn [test_list sc_test]. rewrite Hi. reflexivity.
Qed.
Theorem C27_interrupt_is_sticky : forall E extra h h', oi_dim (e_info E) <> 0 -> Forall (wf_op E) (h ++ OpInterrupt :: h') ->
  let o := after E extra (h ++ OpInterrupt :: h') in
  let expected := match o_stopped (after E extra h) with Some k => k | None => 0 (* the abort condition *) end in
  (* stop_requested() stays true *)
  c_interrupted (o_core o) = true /\
  (* every later step and every later test returns the condition latched before, or else the abort condition *)
  snd (test_stop E o) = Ok (Some expected) /\
  (forall i, wf_input E i -> snd (step E o i) = Ok (Some expected)) /\
  (* run makes exactly one further step and returns that condition *)
  (forall n inputs, (forall j, wf_input E (inputs j)) -> exists o', run E o n inputs = (o', Ok (Some expected), 1)).
Proof.
  intros E extra h h' Hd Hw o expected.
  pose proof (after_inv E extra _ Hd Hw) as HI. fold o in HI.
  assert (Hc : c_interrupted (o_core o) = true).
  { unfold o. rewrite stop_requested_iff by auto. rewrite existsb_app. cbn [existsb interrupts orb]. apply orb_true_r. }
  assert (Hs : o_stopped o = None \/ o_stopped o = Some expected).
  { unfold o, expected. rewrite Forall_app in Hw. destruct Hw as [Hw Hw'].
    assert (HH : forall l, Forall (wf_op E) l -> o_stopped (after E extra (h ++ OpInterrupt :: l)) = None \/
      o_stopped (after E extra (h ++ OpInterrupt :: l)) = Some (match o_stopped (after E extra h) with Some k => k | None => 0 end)).
    { induction l as [|a l IH] using rev_ind; intros Hl.
      - rewrite after_snoc. cbn [exec with_core o_stopped]. destruct (o_stopped (after E extra h)); auto.
      - apply Forall_app in Hl as [Hl Ha]. inversion_clear Ha as [|? ? Hwa _].
        replace (h ++ OpInterrupt :: l ++ [a]) with ((h ++ OpInterrupt :: l) ++ [a]) by (rewrite <- app_assoc; reflexivity). rewrite after_snoc.
        assert (Hwl : Forall (wf_op E) (h ++ OpInterrupt :: l)) by (apply Forall_app; split; [exact Hw|]; constructor; [exact I|exact Hl]).
        pose proof (after_inv E extra _ Hd Hwl) as HIl.
        assert (Hcl : c_interrupted (o_core (after E extra (h ++ OpInterrupt :: l))) = true).
        { rewrite stop_requested_iff by auto. rewrite existsb_app. cbn [existsb interrupts orb]. apply orb_true_r. }
        set (ol := after E extra (h ++ OpInterrupt :: l)) in *. set (ex := match o_stopped (after E extra h) with Some k => k | None => 0 end) in *.
        destruct (IH Hl) as [Hn|Hn].
        + destruct (o_stopped (exec E ol a)) as [k|] eqn:Ek; [|now left]. right. f_equal.
          assert (Hex : ex = 0). 
          { unfold ex. destruct (o_stopped (after E extra h)) as [k'|] eqn:Ek'; [|reflexivity]. exfalso.
            destruct (C22_latched_for_ever E extra h (OpInterrupt :: l) k' Hd Hwl Ek') as [HL _]. fold ol in HL. congruence. }
          rewrite Hex. destruct a as [i| | | | |n|sc]; cbn [exec with_core add_stop_condition o_stopped] in Ek; try congruence.
          * destruct HIl as [I1 I2 (t & I3)]. destruct (step_shape E ol i Hd Hwa I2) as (scs & tr & Es & S1 & S2). rewrite Es in Ek.
            assert (Hscs : exists t', scs = ScAbort :: t').
            { destruct (too_many_errors E (si_results i)).
              - destruct (S1 eq_refl) as ((pre & e0 & post & E1 & E2 & ->) & _). rewrite I3 in E1. destruct pre as [|x pre]; [discriminate|]. injection E1 as <- _. cbn. eauto.
              - destruct (S2 eq_refl) as (-> & _). eauto. }
            destruct Hscs as (t' & ->). unfold test_stop in Ek. cbn [o_stopped o_core o_scs] in Ek. rewrite Hn in Ek. cbn [test_list sc_test] in Ek.
            assert (Hci : c_interrupted (step_core E (o_core ol) i) = true).
            { unfold step_core. destruct (si_interrupt i); [reflexivity|]. destruct (too_many_errors E (si_results i)); [exact Hcl|].
              unfold absorb, update_fitness_tracking. cbn [with_steps c_interrupted]. destruct (is_better _ _ _); cbn [with_best with_current c_cap]; destruct (Nat.ltb 0 _); exact Hcl. }
            rewrite Hci in Ek. cbn in Ek. congruence.
          * destruct HIl as [_ _ (t & I3)]. unfold test_stop in Ek. rewrite Hn, I3 in Ek. cbn [test_list sc_test] in Ek. rewrite Hcl in Ek. cbn in Ek. congruence.
        + right. apply exec_stopped; auto. }
    apply HH. now inversion Hw'. }
  assert (Ht : snd (test_stop E o) = Ok (Some expected)).
  { rewrite test_stop_interrupted by auto. destruct Hs as [Hs|Hs]; rewrite Hs; [|reflexivity]. do 2 f_equal. unfold expected.
    destruct (o_stopped (after E extra h)) as [k|] eqn:Ek; [|reflexivity]. exfalso.
    destruct (C22_latched_for_ever E extra h (OpInterrupt :: h') k Hd Hw Ek) as [HL _]. fold o in HL. congruence. }
  assert (Hstep : forall i, wf_input E i -> snd (step E o i) = Ok (Some expected)).
  { intros i Hi. destruct HI as [I1 I2 (t & I3)]. destruct (step_shape E o i Hd Hi I2) as (scs & tr & -> & S1 & S2).
    assert (Hscs : exists t', scs = ScAbort :: t').
    { destruct (too_many_errors E (si_results i)).
      - destruct (S1 eq_refl) as ((pre & e0 & post & E1 & E2 & ->) & _). rewrite I3 in E1. destruct pre as [|x pre]; [discriminate|]. injection E1 as <- _. cbn. eauto.
      - destruct (S2 eq_refl) as (-> & _). eauto. }
    destruct Hscs as (t' & ->). unfold test_stop in *. cbn [o_stopped o_core o_scs]. destruct (o_stopped o) as [k|] eqn:Ek; [exact Ht|].
    rewrite I3 in Ht. cbn [test_list sc_test] in Ht |- *. rewrite Hc in Ht. cbn [fst snd] in Ht.
    assert (Hci : c_interrupted (step_core E (o_core o) i) = true).
    { unfold step_core. destruct (si_interrupt i); [reflexivity|]. destruct (too_many_errors E (si_results i)); [exact Hc|].
      unfold absorb, update_fitness_tracking. cbn [with_steps c_interrupted]. destruct (is_better _ _ _); cbn [with_best with_current c_cap]; destruct (Nat.ltb 0 _); exact Hc. }
    rewrite Hci. exact Ht. }
  split; [exact Hc|]. split; [exact Ht|]. split; [exact Hstep|].
  intros n inputs Hin. pose proof (C21_run E o n inputs Hd) as HR. destruct (run E o n inputs) as [[o' r] k]. destruct HR as (K1 & K2 & K3 & K4 & K5).
  exists o'. assert (k = 1).
  { destruct (Nat.eq_dec k 1) as [|Hk]; [assumption|exfalso]. assert (H0 := K3 0 ltac:(lia)). cbn in H0. rewrite Hstep in H0 by apply Hin. discriminate. }
  subst k. cbn in K4. rewrite Hstep in K4 by apply Hin. subst r. reflexivity.
Qed.
(** In general, run() on an optimizer that has already stopped makes one more step. *)
Theorem C21_run_after_stop_makes_one_step : forall E extra h k n inputs, oi_dim (e_info E) <> 0 -> Forall (wf_op E) h -> (forall j, wf_input E (inputs j)) ->
  o_stopped (after E extra h) = Some k ->
  exists o', run E (after E extra h) n inputs = (o', Ok (Some k), 1) /\
    c_steps (o_core o') = c_steps (o_core (after E extra h)) + if too_many_errors E (si_results (inputs 0)) then 0 else 1.
Proof.
  intros E extra h k n inputs Hd Hw Hin Hk. pose proof (C21_run E (after E extra h) n inputs Hd) as HR.
  pose proof (C21_run_current_step E extra h n inputs Hd Hw Hin) as HC. destruct (run E (after E extra h) n inputs) as [[o' r] q]. destruct HR as (K1 & K2 & K3 & K4 & K5).
  destruct (C22_latched_for_ever E extra h [] k Hd) as (_ & _ & HL); [now rewrite app_nil_r|exact Hk|]. rewrite app_nil_r in HL.
  assert (q = 1).
  { destruct (Nat.eq_dec q 1) as [|Hq]; [assumption|exfalso]. assert (H0 := K3 0 ltac:(lia)). cbn in H0. rewrite HL in H0 by apply Hin. discriminate. }
  subst q. cbn in K4. rewrite HL in K4 by apply Hin. subst r. exists o'. split; [reflexivity|]. rewrite HC. f_equal. cbn [seq filter].
  destruct (too_many_errors E (si_results (inputs 0))); reflexivity.
Qed.
