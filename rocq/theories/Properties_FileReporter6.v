(** * C58: the columns of history.txt. *)
From Coq Require Import ZArith Bool Lia.
From Flocq Require Import Core BinarySingleNaN.
From Verif Require Import Prelude Flt FltFacts Flt32 Round8 Round8Facts ShowNum ShowNumFacts ParInfo ObjInfo SearchPoint Properties_SearchPoint Num MathTools Optimizer OptimizerFacts
  Properties_Optimizer Properties_Optimizer2 Properties_Optimizer3 Properties_Optimizer4 FileReporter FileReporterFacts Properties_FileReporter Properties_FileReporter2 Properties_FileReporter3 Properties_FileReporter4 Properties_FileReporter5.

(** The number of columns of a line of a table with tabs between the columns. *)
Definition tabs (t : text) : nat := count_occ Ascii.ascii_dec t tab.
Definition columns (t : text) : nat := S (tabs t).
Lemma tabs_app a b : tabs (a ++ b) = tabs a + tabs b.
Proof. apply count_occ_app. Qed.
Lemma tabs_tab t : tabs (tab :: t) = S (tabs t).
Proof. unfold tabs. cbn [count_occ]. destruct (Ascii.ascii_dec tab tab); [reflexivity|congruence]. Qed.
Lemma tabs_cells {A} (f : A -> text) l : (forall x, In x l -> tabs (f x) = 0) -> tabs (concat (map (fun x => tab :: f x) l)) = length l.
Proof.
  induction l as [|x l IH]; intros H; cbn [map concat length]; [reflexivity|]. rewrite tabs_app, tabs_tab, H by now left. rewrite IH; [reflexivity|]. intros y Hy. apply H. now right.
Qed.
Lemma show_digits_tabs ds : Forall digit ds -> tabs (show_digits ds) = 0.
Proof.
  induction 1 as [|d ds Hd _ IH]; [reflexivity|]. cbn [show_digits map]. unfold tabs in *. cbn [count_occ]. destruct (Ascii.ascii_dec (digit_char d) tab) as [HE|_]; [|exact IH].
  destruct (digit_char_ok d Hd) as [H _]. rewrite HE in H. discriminate H.
Qed.
Lemma show_nat_tabs n : tabs (chars (show_nat n)) = 0.
Proof.
  unfold show_nat. destruct (Nat.eqb_spec n 0); [reflexivity|]. unfold chars. rewrite list_ascii_of_string_of_list_ascii. apply show_digits_tabs.
  apply zdigits_spec. split; [lia|]. clear. induction n as [|n IH]; [reflexivity|]. rewrite (Nat2Z.inj_succ (S n)), Z.pow_succ_r by lia. lia.
Qed.
(** What is printed as a cell contains no tab: numbers (as the library prints them), names and labels. *)
Definition plain_cells (F : fr_config) (E : env) : Prop :=
  (forall v, tabs (fc_show F v) = 0) /\ (forall v, tabs (fc_show32 F v) = 0) /\
  (forall p, In p (oi_free (e_info E)) -> tabs (chars (pi_name p)) = 0) /\ (forall k l, In l (fc_state F k) -> tabs (chars (fst l)) = 0).

(** What a reporter can see in its calls: the window is one of those of the run; after the evaluation
    the current point has the right dimension. *)
Lemma strip_cap c c' : strip c = strip c' -> c_cap c = c_cap c'.
Proof. intros H. apply strip_fields in H. tauto. Qed.
Lemma absorb_cap E c pop rs : c_cap (absorb E c pop rs) = c_cap c.
Proof. unfold absorb, update_fitness_tracking. destruct (is_better _ _ _); cbn [with_best with_current c_cap]; destruct (Nat.ltb 0 _); reflexivity. Qed.
Lemma absorb_point E c i : wf_input E i -> length (c_cur_pt (absorb E c (si_pop i) (si_results i))) = oi_dim (e_info E).
Proof.
  intros (W1 & W2 & W3).
  assert (H : c_cur_pt (absorb E c (si_pop i) (si_results i)) = step_best_point E i).
  { unfold absorb, update_fitness_tracking. fold (step_best E (si_results i)) (step_best_point E i). destruct (is_better _ _ _); cbn [with_best with_current c_cap]; destruct (Nat.ltb 0 _); reflexivity. }
  rewrite H. assert (Hfl : length (fits_of E (si_results i)) = length (si_pop i)) by (unfold fits_of; now rewrite map_length).
  assert (Hne : fits_of E (si_results i) <> []) by (intros E0; rewrite E0 in Hfl; destruct (si_pop i); [congruence|discriminate]).
  rewrite Forall_forall in W3. apply W3. unfold step_best_point. apply nth_In. rewrite <- Hfl. now apply find_best_lt.
Qed.
Lemma seen_window E extra h r : oi_dim (e_info E) <> 0 -> Forall (wf_op E) h -> heard E r -> forall ev v, In (ev, v) (calls_of E extra h r) -> ev = EStart \/ ev = EPostStep ->
  window extra <= c_cap v <= window (extra ++ adds h) /\ (ev = EPostStep -> length (c_cur_pt v) = oi_dim (e_info E)).
Proof.
  intros Hd Hw Hh. induction h as [|a h IH] using rev_ind.
  - assert (H : o_trace (after E extra []) = []).
    { unfold after, created. cbn [fold_left]. assert (H : forall o, o_trace o = [] -> o_trace (fold_left add_stop_condition extra o) = []).
      { clear. induction extra as [|sc t IH]; intros o Ho; cbn [fold_left]; [exact Ho|]. apply IH. exact Ho. } apply H. reflexivity. }
    unfold calls_of. rewrite H. intros ev v [].
  - apply Forall_app in Hw as [Hw Ha]. inversion_clear Ha as [|? ? Hwa _]. specialize (IH Hw). intros ev v Hin Hev. unfold calls_of in Hin. rewrite after_snoc in Hin.
    pose proof (C25_history_is_recent E extra h Hd Hw) as (HC & _).
    assert (HG : window (extra ++ adds h) <= window (extra ++ adds (h ++ [a]))) by (rewrite <- !grown_window, grown_app; apply grown_le).
    assert (H0 : window extra <= window (extra ++ adds h)) by (rewrite <- grown_window; apply grown_le).
    assert (Hold : In (ev, v) (received r (o_trace (after E extra h))) -> window extra <= c_cap v <= window (extra ++ adds (h ++ [a])) /\ (ev = EPostStep -> length (c_cur_pt v) = oi_dim (e_info E))).
    { intros H. destruct (IH ev v H Hev) as [K1 K2]. split; [lia|exact K2]. }
    destruct (match a with OpStep i => true | _ => false end) eqn:Eop.
    + destruct a as [i| | | | | |]; try discriminate. cbn [exec wf_op] in *.
      destruct (C24_step_events E extra h i r Hd Hw Hwa Hh) as (seen & S1 & S2 & S3).
      assert (X : In (ev, v) (received r (o_trace (after E extra h)) ++ seen)).
      { destruct (o_stopped (after E extra h)); [now rewrite S3 in Hin|]. destruct (o_stopped (fst (step E (after E extra h) i))) as [k|]; [|now rewrite S3 in Hin].
        destruct S3 as (v' & _ & S3). rewrite S3, app_assoc in Hin. apply in_app_or in Hin as [Hin|[[= <- _]|[]]]; [exact Hin|]. destruct Hev; discriminate. }
      apply in_app_or in X as [X|X]; [now apply Hold|]. specialize (S2 ev v X). destruct Hev as [-> | ->]; cbn [sees] in S2; subst v; [split; [lia|discriminate]|].
      rewrite absorb_cap. split; [lia|]. intros _. now apply absorb_point.
    + pose proof (C24_other_calls E extra h a r Hd Hw Hh) as H. assert (Hn : forall i, a <> OpStep i) by (intros i ->; discriminate). specialize (H Hn). cbv zeta in H.
      apply Hold. destruct (o_stopped (after E extra h)); [now rewrite H in Hin|]. destruct (o_stopped (exec E (after E extra h) a)) as [k|]; [|now rewrite H in Hin].
      destruct H as (_ & v' & _ & H). rewrite H in Hin. apply in_app_or in Hin as [Hin|[[= <- _]|[]]]; [exact Hin|]. destruct Hev; discriminate.
Qed.

Lemma tabs_if (b : bool) x y : tabs (if b then x else y) = if b then tabs x else tabs y.
Proof. now destruct b. Qed.
Lemma header_columns F E c : plain_cells F E ->
  columns (header F E c) = 3 + (if Nat.ltb 0 (c_cap c) then 2 else 0) + (if fc_par_history F then oi_dim (e_info E) + length (fc_state F (c_steps c)) else 0).
Proof.
  intros (P1 & P2 & P4 & P5). unfold columns, header. rewrite !tabs_app, tabs_tab, !tabs_app, tabs_tab, !tabs_app.
  assert (H1 : tabs (chars "generation") = 0) by reflexivity. assert (H2 : tabs (chars "best_fitness") = 0) by reflexivity. assert (H3 : tabs (chars "median_fitness") = 0) by reflexivity. rewrite H1, H2, H3.
  rewrite !tabs_if. change (tabs [newline]) with 0. change (tabs []) with 0. rewrite tabs_app, tabs_tab, tabs_app, tabs_tab.
  assert (H6 : tabs (chars "predicted_fitness") = 0) by reflexivity. assert (H7 : tabs (chars "fitness_progress") = 0) by reflexivity. rewrite H6, H7.
  rewrite (tabs_cells (fun p => chars (pi_name p))) by exact P4. rewrite (tabs_cells (fun l => chars (fst l))) by apply P5. fold (oi_dim (e_info E)).
  destruct (Nat.ltb 0 (c_cap c)), (fc_par_history F); lia.
Qed.
Lemma row_columns F E c : plain_cells F E -> length (c_cur_pt c) = oi_dim (e_info E) ->
  columns (row F E c) = 3 + (if Nat.ltb 0 (c_cap c) then 2 else 0) + (if fc_par_history F then oi_dim (e_info E) + length (fc_state F (c_steps c)) else 0).
Proof.
  intros (P1 & P2 & P4 & P5) HL. unfold columns, row. rewrite !tabs_app, tabs_tab, !tabs_app, tabs_tab, !tabs_app, show_nat_tabs, !P1. change (tabs [newline]) with 0.
  rewrite !tabs_if. change (tabs []) with 0. rewrite tabs_app, (tabs_cells (fc_show F)) by auto. rewrite (tabs_cells (fun l => fc_show F (snd l))) by auto. rewrite HL.
  destruct (Nat.ltb_spec 0 (c_cap c)); [|destruct (fc_par_history F); lia].
  assert (Q1 : exists p, snd (predicted_fitness E c (c_cap c)) = Ok p).
  { unfold predicted_fitness. destruct (Nat.eqb_spec (c_cap c) 0); [lia|]. destruct (Nat.leb _ _); [|eexists; reflexivity]. destruct (fitness_trend E c). eexists. reflexivity. }
  assert (Q2 : exists g, snd (progress E c) = Ok g).
  { unfold progress. destruct (Nat.eqb_spec (c_cap c) 0); [lia|]. destruct (Nat.leb _ _); [|eexists; reflexivity]. destruct (fitness_trend E c). eexists. reflexivity. }
  destruct Q1 as (p & ->), Q2 as (g & ->). rewrite tabs_tab, tabs_app, tabs_tab, !P2. destruct (fc_par_history F); lia.
Qed.

(** If nobody adds a condition that switches fitness tracking on after on_start, every row of history.txt
    has the columns of the header. *)
Theorem C58_rows_match_the_header : forall F E extra h r infos w v, plain_cells F E -> reporting E extra h r infos ->
  (forall k, length (fc_state F k) = length (fc_state F 0)) ->   (* the state values of the subclass do not change in number *)
  (window extra = 0 -> window (extra ++ adds h) = 0) ->
  In (EStart, w) (calls_of E extra h r) -> In (EPostStep, v) (calls_of E extra h r) ->
  columns (row F E v) = columns (header F E w) /\
  columns (row F E v) = 3 + (if Nat.ltb 0 (window extra) then 2 else 0) + (if fc_par_history F then oi_dim (e_info E) + length (fc_state F 0) else 0).
Proof.
  intros F E extra h r infos w v HP (Hd & Hw & Hh & _) HS HW H1 H2.
  destruct (seen_window E extra h r Hd Hw Hh _ _ H1 ltac:(auto)) as [K1 _]. destruct (seen_window E extra h r Hd Hw Hh _ _ H2 ltac:(auto)) as [K2 K3].
  rewrite (row_columns F E v HP (K3 eq_refl)), (header_columns F E w HP), (HS (c_steps v)), (HS (c_steps w)).
  destruct (Nat.eq_dec (window extra) 0) as [Hz|Hz].
  - specialize (HW Hz). replace (c_cap v) with 0 by lia. replace (c_cap w) with 0 by lia. rewrite Hz. auto.
  - destruct (Nat.ltb_spec 0 (c_cap v)), (Nat.ltb_spec 0 (c_cap w)), (Nat.ltb_spec 0 (window extra)); try lia; auto.
Qed.

Definition plain_config : fr_config :=
  {| fc_root := chars "out"; fc_min_improvement := fzero; fc_max_steps := 1000; fc_history := true; fc_par_history := true; fc_individuals := false;
     fc_median := fun l => hd fnan l; fc_abs := fabs; fc_show := fun _ => chars "1"; fc_show32 := fun _ => chars "1"; fc_state := fun _ => [("sigma"%string, fzero)] |}.
Lemma plain_ex : plain_cells plain_config (ex_env [quiet]).
Proof. split; [reflexivity|]. split; [reflexivity|]. split; [intros p [<-|[]]; reflexivity|]. intros k l [<-|[]]. reflexivity. Qed.
Definition has_call (f : event -> bool) (chk : core -> bool) (l : list (event * core)) : bool := existsb (fun y => f (fst y) && chk (snd y)) l.
Lemma has_call_in f chk l : has_call f chk l = true -> exists ev v, In (ev, v) l /\ f ev = true /\ chk v = true.
Proof. unfold has_call. intros H. apply existsb_exists in H as ([ev v] & H1 & H2). apply andb_prop in H2 as [H2 H3]. eauto. Qed.
Definition is_start (e : event) : bool := match e with EStart => true | _ => false end.
Definition is_done (e : event) : bool := match e with EPostStep => true | _ => false end.
Example C58_columns_nonvacuous : exists w v, plain_cells plain_config (ex_env [quiet]) /\ reporting (ex_env [quiet]) [ScMinProgress fzero 2] ex_steps 0 ex_infos /\
  (window [ScMinProgress fzero 2] = 0 -> window ([ScMinProgress fzero 2] ++ adds ex_steps) = 0) /\
  In (EStart, w) (calls_of (ex_env [quiet]) [ScMinProgress fzero 2] ex_steps 0) /\ In (EPostStep, v) (calls_of (ex_env [quiet]) [ScMinProgress fzero 2] ex_steps 0) /\
  columns (header plain_config (ex_env [quiet]) w) = 7.
Proof.
  set (L := calls_of _ _ _ _).
  assert (H1 : has_call is_start (fun w => Nat.eqb (columns (header plain_config (ex_env [quiet]) w)) 7) L = true) by (vm_compute; reflexivity).
  assert (H2 : has_call is_done (fun _ => true) L = true) by (vm_compute; reflexivity).
  apply has_call_in in H1 as ([] & w & W1 & W2 & W3); try discriminate W2. apply has_call_in in H2 as ([] & v & V1 & V2 & _); try discriminate V2.
  apply Nat.eqb_eq in W3. clearbody L. exists w, v. split; [exact plain_ex|]. split; [|split; [discriminate|split; [exact W1|split; [exact V1|exact W3]]]].
  destruct ex_reporting as (R1 & R2 & R3 & R4 & R5). split; [exact R1|]. split; [exact R2|]. split; [exact R3|]. split; [exact R4|exact R5].
Qed.
(** A condition that switches tracking on during the run breaks the table: the header, written before the
    first step, lacks two columns that later rows have. *)
Theorem C58_rows_match_the_header_refuted : exists F E h r infos w v, plain_cells F E /\ reporting E [] h r infos /\ (forall k, length (fc_state F k) = length (fc_state F 0)) /\
  In (EStart, w) (calls_of E [] h r) /\ In (EPostStep, v) (calls_of E [] h r) /\ columns (row F E v) = columns (header F E w) + 2.
Proof.
  set (h := [OpStep (good_step 4 3); OpAdd (ScMinProgress fzero 2); OpStep (good_step 5 2)]). set (L := calls_of (ex_env [quiet]) [] h 0).
  assert (H1 : has_call is_start (fun w => Nat.eqb (columns (header plain_config (ex_env [quiet]) w)) 5) L = true) by (vm_compute; reflexivity).
  assert (H2 : has_call is_done (fun v => Nat.eqb (columns (row plain_config (ex_env [quiet]) v)) 7) L = true) by (vm_compute; reflexivity).
  apply has_call_in in H1 as ([] & w & W1 & W2 & W3); try discriminate W2. apply has_call_in in H2 as ([] & v & V1 & V2 & V3); try discriminate V2.
  exists plain_config, (ex_env [quiet]), h, 0, ex_infos, w, v. split; [exact plain_ex|]. split.
  - split; [discriminate|]. split; [constructor; [apply ex_wf|]; constructor; [exact I|]; constructor; [apply ex_wf|constructor]|]. split; [split; [cbn; lia|]; intros j f Hj; lia|].
    split; [intros k; exists ex_info; split; reflexivity|]. vm_compute. reflexivity.
  - split; [reflexivity|]. split; [exact W1|]. split; [exact V1|]. apply Nat.eqb_eq in W3, V3. lia.
Qed.
