(** * C52, C53: theorems about an optimizer with a file_reporter. *)
From Coq Require Import ZArith Bool Lia Sorted Permutation.
From Flocq Require Import Core BinarySingleNaN.
From Verif Require Import Prelude Flt FltFacts Flt32 Round8 Round8Facts ShowNum ShowNumFacts ParInfo ObjInfo SearchPoint Properties_SearchPoint Num MathTools Optimizer OptimizerFacts
  Properties_Optimizer Properties_Optimizer2 Properties_Optimizer4 FileReporter FileReporterFacts Properties_FileReporter Properties_FileReporter2.

(** All calls reporter number [r] of the optimizer has received. *)
Definition calls_of (E : env) (extra : list stop_cond) (h : list op) (r : nat) : list (event * core) := received r (o_trace (after E extra h)).
(** [reporting E extra h r infos]: an optimizer of which reporter [r] receives all events (no reporter in
    front of it throws), whose make_updated_objective_info() returns a description of the right
    dimension (C48), and which has made fewer than 2^31 steps (so that the step numbers in file names are right). *)
Definition reporting (E : env) (extra : list stop_cond) (h : list op) (r : nat) (infos : nat -> outcome obj_info) : Prop :=
  oi_dim (e_info E) <> 0 /\ Forall (wf_op E) h /\ heard E r /\ good_infos E infos /\ (Z.of_nat (completed E h) < 2147483648)%Z.

Lemma reporting_inv F E extra h r infos fs0 pre post : reporting E extra h r infos -> calls_of E extra h r = pre ++ post ->
  exists st, reported F E fs0 infos pre = Ok st /\ fr_inv F E infos fs0 pre st.
Proof.
  intros (Hd & Hw & Hh & Hi & Hs) HL. destruct (after_orderly E extra h r Hd Hw Hh) as (A1 & _ & _ & _ & A5). fold (calls_of E extra h r) in A1, A5.
  apply reported_inv; [exact Hi| |].
  - apply Forall_forall. intros y Hy. unfold small_step. assert (c_steps (snd y) <= completed E h).
    { rewrite <- (C21_current_step E extra h Hd Hw). apply A5. rewrite HL. apply in_or_app. now left. } lia.
  - rewrite HL in A1. now apply orderly_prefix in A1.
Qed.
Lemma reporting_orderly E extra h r infos pre post : reporting E extra h r infos -> calls_of E extra h r = pre ++ post -> orderly E pre.
Proof.
  intros (Hd & Hw & Hh & Hi & Hs) HL. destruct (after_orderly E extra h r Hd Hw Hh) as (A1 & _). fold (calls_of E extra h r) in A1. rewrite HL in A1. now apply orderly_prefix in A1.
Qed.

(** ** C52 *)
(** At any time - between any two calls of the reporter - no assertion has failed, and at most two files are remembered. *)
Theorem C52_bookkeeping_is_bounded : forall F E extra h r infos fs0 pre post, reporting E extra h r infos -> calls_of E extra h r = pre ++ post ->
  exists st, reported F E fs0 infos pre = Ok st /\ length (fr_recent st) <= 2 /\ forall e, In e (fr_recent st) -> fr_files st (fst e) <> None.
Proof.
  intros F E extra h r infos fs0 pre post HR HL. destruct (reporting_inv F E extra h r infos fs0 pre post HR HL) as (st & E1 & [A1 _ _ A4 _ _ _ _]).
  exists st. split; [exact E1|]. rewrite A1. split; [rewrite map_length, rev_length; apply firstn_le_length|].
  intros e He. apply in_map_iff in He as (v & <- & Hv). rewrite <- in_rev in Hv. assert (Hk : In v (kept_bests F E pre)) by (rewrite <- (firstn_skipn 2 (kept_bests F E pre)); apply in_or_app; now left).
  destruct (A4 v Hk) as (k & info & _ & _ & H). cbn [entry fst]. rewrite H. discriminate.
Qed.
Lemma kept_last F E l x : is_new_best x = true -> exists rest, kept_bests F E (l ++ [x]) = snd x :: rest.
Proof. intros H. rewrite kept_snoc, H. destruct (keep_head F E (kept_bests F E l) (snd x)) as (rest & -> & _). eauto. Qed.
Lemma kept_quiet F E l m : (forall y, In y m -> is_new_best y = false) -> kept_bests F E (l ++ m) = kept_bests F E l.
Proof.
  induction m as [|x m IH] using rev_ind; intros H; [now rewrite app_nil_r|]. rewrite app_assoc, kept_snoc. rewrite (H x) by (apply in_or_app; right; now left).
  apply IH. intros y Hy. apply H. apply in_or_app. now left.
Qed.
(** From the moment on_new_best( p, f ) has returned until the next new best is reported, the file named after that
    step exists and contains exactly the reported point. *)
Theorem C52_newest_best_is_on_disk : forall F E extra h r infos fs0 pre p f v mid post, reporting E extra h r infos ->
  calls_of E extra h r = pre ++ (ENewBest p f, v) :: mid ++ post -> (forall y, In y mid -> is_new_best y = false) ->
  exists st k info, reported F E fs0 infos (pre ++ (ENewBest p f, v) :: mid) = Ok st /\
    infos k = Ok info /\ oi_dim info = oi_dim (e_info E) /\ c_cur_fit v = f /\
    fr_files st (par_path F v) = Some (write_point {| sp_info := info; sp_values := p |}).
Proof.
  intros F E extra h r infos fs0 pre p f v mid post HR HL Hmid.
  assert (HL2 : calls_of E extra h r = (pre ++ (ENewBest p f, v) :: mid) ++ post) by (rewrite HL, <- app_assoc; reflexivity).
  pose proof (reporting_orderly E extra h r infos _ _ HR HL2 pre (ENewBest p f, v) mid eq_refl) as (N1 & N2 & _). cbn [snd] in N1, N2.
  destruct (reporting_inv F E extra h r infos fs0 _ post HR HL2) as (st & E1 & [_ _ _ A4 _ _ _ _]).
  assert (Hk : In v (kept_bests F E (pre ++ (ENewBest p f, v) :: mid))).
  { replace (pre ++ (ENewBest p f, v) :: mid) with ((pre ++ [(ENewBest p f, v)]) ++ mid) by now rewrite <- app_assoc.
    rewrite kept_quiet by exact Hmid. destruct (kept_last F E pre (ENewBest p f, v) eq_refl) as (rest & ->). now left. }
  destruct (A4 v Hk) as (k & info & H1 & H2 & H3). exists st, k, info. split; [exact E1|]. split; [exact H1|]. split; [exact H2|]. split; [now symmetry|]. now rewrite H3, N2.
Qed.

Lemma created_trace E extra : o_trace (created E extra) = [].
Proof.
  unfold created. rewrite <- (rev_involutive extra). induction (rev extra) as [|x l IHl]; [reflexivity|]. cbn [rev]. rewrite fold_left_app. cbn [fold_left]. unfold add_stop_condition at 1. cbn [o_trace]. exact IHl.
Qed.
Lemma new_best_views_app a b : new_best_views (a ++ b) = new_best_views a ++ new_best_views b.
Proof. unfold new_best_views. now rewrite filter_app, map_app. Qed.
(** best_point() is the point of the last new best *)
Lemma last_new_best_point E extra h r : oi_dim (e_info E) <> 0 -> Forall (wf_op E) h -> heard E r ->
  match rev (new_best_views (calls_of E extra h r)) with
  | [] => c_best_fit (o_core (after E extra h)) = worst_fitness (e_info E)
  | v :: _ => map rounded (c_cur_pt v) = c_best_pt (o_core (after E extra h)) /\ c_cur_fit v = c_best_fit (o_core (after E extra h))
  end.
Proof.
  intros Hd Hw Hh. unfold calls_of. induction h as [|a h IH] using rev_ind.
  { unfold after. cbn [fold_left]. destruct (created_core E extra) as (n & Hc). rewrite Hc, created_trace. reflexivity. }
  apply Forall_app in Hw as [Hw Ha]. specialize (IH Hw). inversion Ha as [|? ? Hwa _]; subst. clear Ha.
  pose proof (after_inv E extra h Hd Hw) as HI. destruct (strip_fields _ _ (exec_core E (after E extra h) a HI Hd Hwa)) as (_ & X1 & X2 & _).
  rewrite after_snoc. set (o := after E extra h) in *. set (o' := exec E o a) in *. rewrite X1, X2. clear X1 X2.
  destruct (match a with OpStep i => true | _ => false end) eqn:Eop.
  2:{ pose proof (C24_other_calls E extra h a r Hd Hw Hh) as H. assert (Hn : forall i, a <> OpStep i) by (intros i ->; discriminate). specialize (H Hn). cbv zeta in H. fold o o' in H.
      assert (Y : new_best_views (received r (o_trace o')) = new_best_views (received r (o_trace o))).
      { destruct (o_stopped o); [now rewrite H|]. destruct (o_stopped o') as [k|]; [|now rewrite H]. destruct H as (_ & v & _ & ->). rewrite new_best_views_app. cbn. apply app_nil_r. }
      rewrite Y. destruct a; try discriminate; try exact IH. cbn [op_core]. destruct (Nat.ltb _ _); exact IH. }
  destruct a as [i| | | | | |]; try discriminate. cbn [wf_op] in Hwa. cbn [op_core].
  destruct (C24_step_events E extra h i r Hd Hw Hwa Hh) as (seen & S1 & S2 & S3). fold o in S1, S2, S3. change (fst (step E o i)) with o' in S3.
  assert (Y : new_best_views (received r (o_trace o')) = new_best_views (received r (o_trace o)) ++ new_best_views seen).
  { destruct (o_stopped o); [now rewrite S3, new_best_views_app|]. destruct (o_stopped o') as [k|]; [|now rewrite S3, new_best_views_app]. destruct S3 as (v & _ & ->). rewrite !new_best_views_app. cbn. now rewrite app_nil_r. }
  rewrite Y. clear S3 Y. pose proof (step_core_fields E (o_core o) i) as SF. cbv zeta in SF.
  assert (Z : forall l evs, map fst l = evs -> (forall ev, In ev evs -> match ev with ENewBest _ _ => False | _ => True end) -> new_best_views l = []).
  { clear. intros l evs <- H. unfold new_best_views. replace (filter is_new_best l) with (@nil (event * core)); [reflexivity|]. symmetry.
    induction l as [|[ev v] l IH]; [reflexivity|]. cbn [filter is_new_best fst]. pose proof (H ev ltac:(now left)) as H0. destruct ev; try contradiction; apply IH; intros e He; apply H; now right. }
  unfold step_events in S1. destruct (too_many_errors E (si_results i)).
  { rewrite app_nil_r in S1. rewrite (Z seen _ S1), app_nil_r; [|intros ev; destruct (Nat.eqb _ _); cbn; intuition; subst; exact I]. destruct SF as (_ & -> & -> & _). exact IH. }
  destruct SF as (_ & _ & _ & _ & SF & _). destruct (is_better (e_info E) (step_best E (si_results i)) (c_best_fit (o_core o))).
  - rewrite app_assoc in S1. apply map_eq_app in S1 as (p & q & -> & P1 & P2). rewrite new_best_views_app, (Z p _ P1) by (intros ev; destruct (Nat.eqb _ _); cbn; intuition; subst; exact I).
    destruct q as [|[e1 v1] q]; [discriminate|]. cbn [app map fst] in P2. injection P2 as -> P2. change ((ENewBest (map rounded (step_best_point E i)) (step_best E (si_results i)), v1) :: q) with ([(ENewBest (map rounded (step_best_point E i)) (step_best E (si_results i)), v1)] ++ q).
    rewrite new_best_views_app, (Z q _ P2) by (intros ev; cbn; intuition; subst; exact I). cbn [app]. rewrite rev_app_distr. cbn.
    pose proof (S2 (ENewBest (map rounded (step_best_point E i)) (step_best E (si_results i))) v1 ltac:(apply in_or_app; right; now left)) as (_ & _ & _ & B4 & B5 & _).
    destruct SF as (SF1 & SF2). rewrite SF1, SF2, B5, B4. auto.
  - rewrite (Z seen _ S1), app_nil_r; [|intros ev; destruct (Nat.eqb _ _); cbn; intuition; subst; exact I]. destruct SF as (-> & ->). exact IH.
Qed.
Lemma new_best_last l : match rev (new_best_views l) with
  | [] => forall y, In y l -> is_new_best y = false
  | v :: _ => exists pre p f mid, l = pre ++ (ENewBest p f, v) :: mid /\ forall y, In y mid -> is_new_best y = false
  end.
Proof.
  induction l as [|x l IH] using rev_ind; [intros y []|]. rewrite new_best_views_snoc. destruct (is_new_best x) eqn:Ex.
  - rewrite rev_app_distr. cbn. destruct x as [[] v]; try discriminate. exists l, p, f, []. split; [reflexivity|intros y []].
  - rewrite app_nil_r. destruct (rev (new_best_views l)) as [|v t].
    + intros y Hy. apply in_app_or in Hy as [Hy|[<-|[]]]; auto.
    + destruct IH as (pre & p & f & mid & -> & H). exists pre, p, f, (mid ++ [x]). split; [now rewrite <- app_assoc|]. intros y Hy. apply in_app_or in Hy as [Hy|[<-|[]]]; auto.
Qed.
(** After any number of steps the folder contains a file from which best_point() can be read back - unless no
    evaluated fitness has ever been better than the worst one. *)
Theorem C52_best_point_is_on_disk : forall F E extra h r infos fs0, reporting E extra h r infos ->
  let c := o_core (after E extra h) in
  c_best_fit c = worst_fitness (e_info E) \/
  exists st file k info, reported F E fs0 infos (calls_of E extra h r) = Ok st /\ infos k = Ok info /\ oi_dim info = oi_dim (e_info E) /\
    fr_files st file = Some (write_point {| sp_info := info; sp_values := c_best_pt c |}).
Proof.
  intros F E extra h r infos fs0 HR c. pose proof HR as (Hd & Hw & Hh & _). pose proof (last_new_best_point E extra h r Hd Hw Hh) as H1.
  pose proof (new_best_last (calls_of E extra h r)) as H2. destruct (rev (new_best_views (calls_of E extra h r))) as [|v t]; [left; exact H1|]. right.
  destruct H1 as [H1 _]. destruct H2 as (pre & p & f & mid & H2 & H3).
  assert (H4 : calls_of E extra h r = pre ++ (ENewBest p f, v) :: mid ++ []) by now rewrite app_nil_r.
  destruct (C52_newest_best_is_on_disk F E extra h r infos fs0 pre p f v mid [] HR H4 H3) as (st & k & info & E1 & E2 & E3 & E4 & E5).
  pose proof (reporting_orderly E extra h r infos (pre ++ (ENewBest p f, v) :: mid) [] HR) as HO. rewrite app_nil_r in HO. specialize (HO H2 pre _ mid eq_refl). destruct HO as (_ & Hp & _). cbn [snd] in Hp.
  exists st, (par_path F v), k, info. rewrite H2. split; [exact E1|]. split; [exact E2|]. split; [exact E3|]. rewrite E5, Hp, H1. reflexivity.
Qed.
(** ... and reading it (search_point::import_values, C15) restores best_point(). *)
Theorem C52_best_point_can_be_reloaded : forall F E extra h r infos fs0 eager_eof (q : search_point), reporting E extra h r infos ->
  let c := o_core (after E extra h) in
  c_best_fit c <> worst_fitness (e_info E) ->
  (* the descriptions have the parameters of the objective, with distinct white-space-free names and finite means and stds *)
  (forall k info, infos k = Ok info -> map pi_name (oi_free info) = map pi_name (oi_free (e_info E)) /\
     forall pi, In pi (oi_free info) -> file_name (pi_name pi) /\ is_finite (pi_mean pi) = true /\ is_finite (pi_std pi) = true) ->
  NoDup (map pi_name (oi_free (e_info E))) ->
  (* into a search point of the objective *)
  sp_info q = e_info E -> length (sp_values q) = oi_dim (e_info E) ->
  exists st file q', reported F E fs0 infos (calls_of E extra h r) = Ok st /\
    import_values eager_eof q (fr_files st file) = (q', Ok (oi_dim (e_info E), 0)) /\ sp_info q' = e_info E /\ sp_values q' = c_best_pt c.
Proof.
  intros F E extra h r infos fs0 ee q HR c Hb Hinfo Hnd Hq Hlq.
  destruct (C52_best_point_is_on_disk F E extra h r infos fs0 HR) as [H|(st & file & k & info & E1 & E2 & E3 & E4)]; [contradiction|]. fold c in E4.
  destruct (Hinfo k info E2) as [Hn Hp]. pose proof HR as (Hd & Hw & _).
  assert (Hr : forall v, In v (c_best_pt c) -> is_finite v = true /\ rounded v = v).
  { intros v Hv. destruct (C19_best_is_best_ever E extra h Hd Hw) as [[(_ & HB)|(p & f & _ & _ & HB & _)] _]; fold c in HB; rewrite HB in Hv; apply in_map_iff in Hv as (x & <- & _); (split; [apply rounded_finite|apply rounded_idem]). }
  assert (Hlen : length (c_best_pt c) = oi_dim (e_info E)).
  { pose proof (last_new_best_point E extra h r Hd Hw ltac:(apply HR)) as H1. pose proof (new_best_last (calls_of E extra h r)) as H2.
    destruct (rev (new_best_views (calls_of E extra h r))) as [|v t]; [contradiction|]. destruct H1 as [H1 _], H2 as (pre & p & f & mid & H2 & _).
    assert (HL : calls_of E extra h r = (pre ++ (ENewBest p f, v) :: mid) ++ []) by now rewrite app_nil_r.
    pose proof (reporting_orderly E extra h r infos _ [] HR HL pre _ mid eq_refl) as (_ & _ & Hd2 & _). cbn [snd] in Hd2. fold c in H1. rewrite <- H1, map_length. exact Hd2. }
  assert (W : writable {| sp_info := info; sp_values := c_best_pt c |}).
  { split; [cbn; congruence|]. split; [cbn; congruence|]. split; [cbn; now rewrite Hn|]. split; [exact Hp|]. intros v Hv. now apply Hr. }
  destruct (C15_write_import_round_trip _ q ee W) as (q' & I1 & I2 & I3 & _ & I5); [cbn; rewrite Hn, Hq; apply Permutation_refl|rewrite Hq; exact Hlq|].
  destruct I5 as [_ I5]; [intros v Hv; now apply Hr|]. cbn [sp_info sp_values] in *. exists st, file, q'. split; [exact E1|]. rewrite E4. split; [now rewrite I1, E3|]. split; [congruence|].
  apply I5. now rewrite Hq, Hn.
Qed.

(** Exactly the files of the bests in [kept_bests] exist. *)
Theorem C52_kept_files : forall F E extra h r infos fs0 pre post v, reporting E extra h r infos -> calls_of E extra h r = pre ++ post ->
  In v (new_best_views pre) ->
  exists st, reported F E fs0 infos pre = Ok st /\
    (In v (kept_bests F E pre) -> file_holds F E infos (fr_files st) v) /\ (~ In v (kept_bests F E pre) -> fr_files st (par_path F v) = None).
Proof.
  intros F E extra h r infos fs0 pre post v HR HL Hv. destruct (reporting_inv F E extra h r infos fs0 pre post HR HL) as (st & E1 & [_ _ _ A4 A5 _ _ _]).
  exists st. split; [exact E1|]. split; [apply A4|]. intros H. now apply A5.
Qed.
Lemma keep_tail F E kept v u : In u (tl kept) -> In u (tl (keep F E kept v)).
Proof. unfold keep. destruct kept as [|m [|a rest]]; cbn [tl In]; [intros []|intros []|]. destruct (_ && _); cbn [tl In]; auto. Qed.
Lemma keep_tail_fold F E vs : forall kept u, In u (tl kept) -> In u (fold_left (keep F E) vs kept).
Proof.
  induction vs as [|v vs IH]; intros kept u H; cbn [fold_left]; [destruct kept; [destruct H|now right]|]. apply IH. now apply keep_tail.
Qed.
(** The file of the first new best is never removed. *)
Theorem C52_first_best_is_kept : forall F E calls v vs, new_best_views calls = v :: vs -> In v (kept_bests F E calls).
Proof.
  intros F E calls v vs H. unfold kept_bests. rewrite H. cbn [fold_left keep]. destruct vs as [|w vs]; [now left|]. cbn [fold_left keep]. apply keep_tail_fold. cbn [tl]. now left.
Qed.
(** A best from which the next one is a significant improvement is never removed, and neither is one that
    is itself a significant improvement over every earlier one. *)
Theorem C52_significant_bests_are_kept : forall F E calls a v b, new_best_views calls = a ++ v :: b ->
  (match b with w :: _ => insignificant F E (c_cur_fit v) (c_cur_fit w) = false | [] => True end \/
   (forall u, In u a -> insignificant F E (c_cur_fit u) (c_cur_fit v) = false)) -> In v (kept_bests F E calls).
Proof.
  intros F E calls a v b H Hs. unfold kept_bests. rewrite H, fold_left_app. cbn [fold_left].
  assert (Hin : forall u, In u (fold_left (keep F E) a []) -> In u a).
  { clear. assert (G : forall l kept u, In u (fold_left (keep F E) l kept) -> In u l \/ In u kept).
    { intros l. induction l as [|x l IH]; intros kept u Hu; cbn [fold_left] in Hu; [right; exact Hu|]. destruct (IH _ _ Hu) as [Hi|Hi]; [left; now right|]. apply keep_in in Hi as [->|Hi]; [left; now left|now right]. }
    intros u Hu. destruct (G _ _ _ Hu) as [?|[]]; auto. }
  set (K := fold_left (keep F E) a []) in *. destruct (keep_head F E K v) as (rest & KH & Hr & _). rewrite KH. destruct b as [|w b]; [now left|]. cbn [fold_left]. apply keep_tail_fold.
  unfold keep. destruct rest as [|x rest]; [cbn; now left|].
  assert (Hc : insignificant F E (c_cur_fit x) (c_cur_fit v) && insignificant F E (c_cur_fit v) (c_cur_fit w) = false).
  { destruct Hs as [->|Hs]; [apply andb_false_r|]. rewrite Hs; [reflexivity|]. apply Hin, Hr. now left. }
  rewrite Hc. cbn. now left.
Qed.
(** What counts as insignificant: a relative improvement below the threshold, in the direction of the optimization. *)
Theorem C52_insignificant : forall F E a b, insignificant F E a b =
  flt (if oi_minimize (e_info E) then fopp (fdiv (fsub b a) (fc_abs F a)) else fdiv (fsub b a) (fc_abs F a)) (fc_min_improvement F).
Proof. reflexivity. Qed.
(** Only files of this reporter are created, changed or removed: a path at which something has changed is the
    path of a par file of one of the steps reported so far, or of an individual of one, or history.txt. *)
Theorem C52_other_files_are_untouched : forall F E extra h r infos fs0 pre post, reporting E extra h r infos -> calls_of E extra h r = pre ++ post ->
  exists st, reported F E fs0 infos pre = Ok st /\
    forall q, fr_files st q <> fs0 q ->
      (fc_history F = true /\ q = history_path F) \/
      (exists y, In y pre /\ (is_new_best y = true \/ is_post_eval y = true) /\ q = par_path F (snd y)) \/
      (fc_individuals F = true /\ exists y i, In y pre /\ q = individual_path F (snd y) i).
Proof.
  intros F E extra h r infos fs0 pre post HR HL. destruct (reporting_inv F E extra h r infos fs0 pre post HR HL) as (st & E1 & [_ _ _ _ _ _ A7 _]).
  exists st. split; [exact E1|]. intros q Hq. destruct (A7 q Hq) as ([ev v] & Y1 & Y2). destruct ev; cbn [touches fst snd] in Y2.
  - now left.
  - contradiction.
  - right. right. destruct Y2 as (Y2 & i & _ & ->). split; [exact Y2|]. exists (EPreEval pop, v), i. auto.
  - right. left. exists (ENewBest p f, v). cbn. auto.
  - right. left. exists (EPostEval pop fits new_best, v). cbn. auto.
  - now left.
  - now left.
Qed.

(** ** C53 *)
(** After on_post_evaluate_population of step [s]: there is a par file of a step that is fewer than max_steps old
    - or no best has been found, and fewer than max_steps - 1 steps have been made. *)
Theorem C53_file_at_least_every_max_steps : forall F E extra h r infos fs0 pre pop fits nb v post, reporting E extra h r infos ->
  calls_of E extra h r = pre ++ (EPostEval pop fits nb, v) :: post -> (1 <= fc_max_steps F < size_max)%Z ->
  exists st, reported F E fs0 infos (pre ++ [(EPostEval pop fits nb, v)]) = Ok st /\
    ((exists y, In y (pre ++ [(EPostEval pop fits nb, v)]) /\ (is_new_best y = true \/ is_post_eval y = true) /\
        c_steps (snd y) <= c_steps v /\ (Z.of_nat (c_steps v) - Z.of_nat (c_steps (snd y)) < fc_max_steps F)%Z /\ fr_files st (par_path F (snd y)) <> None) \/
     (new_best_views pre = [] /\ (Z.of_nat (c_steps v) + 1 < fc_max_steps F)%Z)).
Proof.
  intros F E extra h r infos fs0 pre pop fits nb v post HR HL Hm. set (x := (EPostEval pop fits nb, v)) in *.
  assert (HL2 : calls_of E extra h r = (pre ++ [x]) ++ post) by (rewrite HL, <- app_assoc; reflexivity).
  destruct (reporting_inv F E extra h r infos fs0 _ _ HR HL2) as (st' & E2 & I2). destruct (reporting_inv F E extra h r infos fs0 _ _ HR HL) as (st & E1 & I1).
  exists st'. split; [exact E2|]. pose proof (reporting_orderly E extra h r infos _ _ HR HL2) as HO. apply orderly_snoc in HO as [_ HN]. cbn [x next_ok fst snd] in HN. destruct HN as (N1 & N2 & N3).
  assert (Hsm : (Z.of_nat (c_steps v) < 2147483648)%Z).
  { destruct HR as (Hd & Hw & Hh & _ & Hs). destruct (after_orderly E extra h r Hd Hw Hh) as (_ & _ & _ & _ & A5). fold (calls_of E extra h r) in A5.
    specialize (A5 x). rewrite HL2 in A5. specialize (A5 ltac:(apply in_or_app; left; apply in_or_app; right; now left)). rewrite (C21_current_step E extra h Hd Hw) in A5. cbn [x snd] in A5. lia. }
  rewrite reported_snoc, E1 in E2. cbn [report_any report x fst snd] in E2. unfold on_post_eval in E2.
  destruct (Z.leb_spec (fc_max_steps F) ((Z.of_nat (c_steps v) - fr_last st) mod size_max)) as [Hle|Hgt].
  - left. exists x. split; [apply in_or_app; right; now left|]. split; [now right|]. cbn [x snd]. split; [lia|]. split; [lia|].
    destruct HR as (_ & _ & _ & Hi & _). destruct (Hi (length pre)) as (info & Hk & Hdim). unfold write_par_file, sp_of_values, assert_ in E2. rewrite Hk in E2. cbn [obind] in E2. rewrite Hdim, N1, Nat.eqb_refl in E2. cbn [obind fst snd] in E2.
    injection E2 as <-. cbn [fr_files]. rewrite write_same. discriminate.
  - injection E2 as <-. destruct I1 as [_ _ _ _ _ [(L1 & L2)|(y & L1 & L2 & L3 & L4 & L5)] _ _].
    + right. split; [exact L2|]. rewrite L1 in Hgt. replace (Z.of_nat (c_steps v) - (size_max - 1))%Z with (Z.of_nat (c_steps v) + 1 + (-1) * size_max)%Z in Hgt by lia. rewrite Z_mod_plus_full in Hgt. rewrite Z.mod_small in Hgt by (unfold size_max; lia). exact Hgt.
    + left. exists y. split; [apply in_or_app; now left|]. unfold writes_par in L2. apply orb_prop in L2. split; [exact L2|].
      assert (Hy : c_steps (snd y) <= c_steps v) by (destruct L2 as [L2|L2]; [now apply N3|specialize (N2 y L1 L2); lia]).
      split; [exact Hy|]. split; [|exact L4]. rewrite L3 in Hgt. rewrite Z.mod_small in Hgt by (unfold size_max; lia). exact Hgt.
Qed.
