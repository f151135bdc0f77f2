(** * C58: the contents of history.txt; C52: the names of the files. *)
From Coq Require Import ZArith Bool Lia Reals Lra.
From Flocq Require Import Core BinarySingleNaN.
From Verif Require Import Prelude Flt FltFacts Flt32 Round8 Round8Facts ShowNum ShowNumFacts ParInfo ObjInfo SearchPoint Properties_SearchPoint Num MathTools Optimizer OptimizerFacts
  Properties_Optimizer Properties_Optimizer2 Properties_Optimizer3 Properties_Optimizer4 FileReporter FileReporterFacts Properties_FileReporter Properties_FileReporter2 Properties_FileReporter3 Properties_FileReporter4 Properties_FileReporter5 Properties_FileReporter6.

(** ** Specification: a line of a table *)
(** The cells with a tab between every two, and a newline after the last. *)
Fixpoint line (cells : list text) : text :=
  match cells with
  | [] => [newline]
  | [t] => t ++ [newline]
  | t :: rest => t ++ tab :: line rest
  end.
Lemma line_cons t cells : cells <> [] -> line (t :: cells) = t ++ tab :: line cells.
Proof. now destruct cells. Qed.
Lemma line_app t cells rest : line (t :: cells ++ rest) = t ++ concat (map (cons tab) cells) ++ match rest with [] => [newline] | _ => tab :: line rest end.
Proof.
  revert t. induction cells as [|c cells IH]; intros t; cbn [app map concat]; [destruct rest; reflexivity|]. change (line (t :: c :: cells ++ rest)) with (t ++ tab :: line (c :: cells ++ rest)). now rewrite IH, <- app_assoc.
Qed.
Lemma line_all t cells : line (t :: cells) = t ++ concat (map (cons tab) cells) ++ [newline].
Proof. rewrite <- (app_nil_r cells) at 1. apply line_app. Qed.

(** [t] consists of digits and is the decimal notation of [n]. *)
Definition numeral_of (t : text) (n : Z) : Prop := t <> [] /\ forallb is_digit t = true /\ fold_left (fun a c => (10 * a + digit_val c)%Z) t 0%Z = n.
Lemma numeral_digits ds acc : Forall digit ds -> forallb is_digit (show_digits ds) = true /\ fold_left (fun a c => (10 * a + digit_val c)%Z) (show_digits ds) acc = dval acc ds.
Proof.
  intros H. revert acc. induction H as [|d ds Hd _ IH]; intros acc; [split; reflexivity|]. destruct (digit_char_ok d Hd) as [H1 H2]. cbn [show_digits map forallb fold_left dval]. rewrite H1, H2. apply (IH (10 * acc + d)%Z).
Qed.
Lemma numeral_show ds : Forall digit ds -> ds <> [] -> numeral_of (show_digits ds) (dval 0 ds).
Proof. intros H Hn. destruct (numeral_digits ds 0%Z H) as [A B]. split; [|split; [exact A|exact B]]. intros H0. destruct ds; [congruence|discriminate H0]. Qed.
Lemma show_nat_numeral n : numeral_of (chars (show_nat n)) (Z.of_nat n).
Proof.
  unfold show_nat. destruct (Nat.eqb_spec n 0) as [->|Hn]; [split; [discriminate|split; reflexivity]|]. unfold chars. rewrite list_ascii_of_string_of_list_ascii.
  match goal with |- numeral_of (show_digits (zdigits ?f _)) _ => destruct (zdigits_spec f (Z.of_nat n)) as (D1 & D2 & _ & D3) end.
  { split; [lia|]. clear. induction n as [|n IH]; [reflexivity|]. rewrite (Nat2Z.inj_succ (S n)), Z.pow_succ_r by lia. lia. }
  rewrite <- D1 at 2. apply numeral_show; [exact D2|apply D3; lia].
Qed.

(** ** The rows *)
(** The completed steps of a history with the calls before them: (calls before, input of the step). *)
Fixpoint completed_steps (E : env) (before : list op) (h : list op) : list (list op * step_input) :=
  match h with
  | [] => []
  | a :: t => match a with OpStep i => if too_many_errors E (si_results i) then [] else [(before, i)] | _ => [] end ++ completed_steps E (before ++ [a]) t
  end.
Lemma completed_steps_snoc E b h a : completed_steps E b (h ++ [a]) = completed_steps E b h ++ match a with OpStep i => if too_many_errors E (si_results i) then [] else [(b ++ h, i)] | _ => [] end.
Proof.
  revert b. induction h as [|x h IH]; intros b; cbn [app completed_steps]; [rewrite !app_nil_r; reflexivity|]. rewrite IH, <- !app_assoc. reflexivity.
Qed.
Lemma post_steps_app a b : post_steps (a ++ b) = post_steps a ++ post_steps b.
Proof. unfold post_steps. now rewrite filter_app, map_app. Qed.
(** What the reporter sees at the end of the steps: the state after the evaluation of that step. *)
Lemma post_steps_views E extra h r : oi_dim (e_info E) <> 0 -> Forall (wf_op E) h -> heard E r ->
  post_steps (calls_of E extra h r) = map (fun s => absorb E (o_core (after E extra (fst s))) (si_pop (snd s)) (si_results (snd s))) (completed_steps E [] h).
Proof.
  intros Hd Hw Hh. induction h as [|a h IH] using rev_ind.
  - assert (H : o_trace (after E extra []) = []).
    { unfold after, created. cbn [fold_left]. assert (H : forall o, o_trace o = [] -> o_trace (fold_left add_stop_condition extra o) = []).
      { clear. induction extra as [|sc t IH]; intros o Ho; cbn [fold_left]; [exact Ho|]. apply IH. exact Ho. } apply H. reflexivity. }
    unfold calls_of. now rewrite H.
  - apply Forall_app in Hw as [Hw Ha]. inversion_clear Ha as [|? ? Hwa _]. specialize (IH Hw). rewrite completed_steps_snoc, map_app, <- IH. unfold calls_of. rewrite after_snoc.
    destruct (match a with OpStep i => true | _ => false end) eqn:Eop.
    + destruct a as [i| | | | | |]; try discriminate. cbn [exec wf_op] in *.
      destruct (C24_step_events E extra h i r Hd Hw Hwa Hh) as (seen & S1 & S2 & S3). cbn [app].
      assert (X : post_steps (received r (o_trace (fst (step E (after E extra h) i)))) = post_steps (received r (o_trace (after E extra h))) ++ post_steps seen).
      { destruct (o_stopped (after E extra h)); [now rewrite S3, post_steps_app|]. destruct (o_stopped (fst (step E (after E extra h) i))) as [k|]; [|now rewrite S3, post_steps_app].
        destruct S3 as (v' & _ & S3). rewrite S3, !post_steps_app. unfold post_steps at 3. cbn [filter is_post_step fst map]. now rewrite app_nil_r. }
      rewrite X. f_equal.
      assert (Y : length (post_steps seen) = if too_many_errors E (si_results i) then 0 else 1).
      { unfold post_steps. rewrite map_length. assert (Z : forall l : list (event * core), length (filter is_post_step l) = length (filter (fun e => match e with EPostStep => true | _ => false end) (map fst l))).
        { induction l as [|[e w] l IHl]; [reflexivity|]. cbn [map fst filter]. unfold is_post_step at 1. cbn [fst]. destruct e; cbn [length]; rewrite ?IHl; reflexivity. }
        rewrite Z, S1. unfold step_events. rewrite !filter_app, !app_length. destruct (Nat.eqb _ 0); (destruct (too_many_errors E (si_results i)); [reflexivity|]); rewrite filter_app, app_length; destruct (is_better _ _ _); reflexivity. }
      assert (V : forall v, In v (post_steps seen) -> v = absorb E (o_core (after E extra h)) (si_pop i) (si_results i)).
      { intros v Hv. unfold post_steps in Hv. apply in_map_iff in Hv as ([e w] & <- & Hv). apply filter_In in Hv as [Hv He]. destruct e; try discriminate He. exact (S2 EPostStep w Hv). }
      clear - Y V. destruct (too_many_errors E (si_results i)); [now destruct (post_steps seen)|]. destruct (post_steps seen) as [|v [|]]; try discriminate Y. cbn [map fst snd]. now rewrite (V v (or_introl eq_refl)).
    + pose proof (C24_other_calls E extra h a r Hd Hw Hh) as H. assert (Hn : forall i, a <> OpStep i) by (intros i ->; discriminate). specialize (H Hn). cbv zeta in H.
      assert (X : post_steps (received r (o_trace (exec E (after E extra h) a))) = post_steps (received r (o_trace (after E extra h)))).
      { destruct (o_stopped (after E extra h)); [now rewrite H|]. destruct (o_stopped (exec E (after E extra h) a)) as [k|]; [|now rewrite H].
        destruct H as (_ & v' & _ & H). rewrite H, post_steps_app. unfold post_steps at 2. cbn [filter is_post_step fst map]. now rewrite app_nil_r. }
      rewrite X. destruct a as [i| | | | | |]; try discriminate; cbn [map]; now rewrite app_nil_r.
Qed.

Lemma chars_line cells : concat (map (cons tab) cells) ++ [newline] = match cells with [] => [newline] | _ => tab :: line cells end.
Proof. destruct cells as [|t cells]; [reflexivity|]. rewrite line_all. cbn [map concat]. now rewrite <- app_assoc. Qed.
(** The row of the step number k of a history: in its columns are the number of the step, the best fitness
    evaluated in that step, the median of its fitnesses, with a window also the predicted fitness (as many
    steps ahead as the window is long) and the progress, and if so configured the point with the best fitness
    of the step and the values of the subclass. *)
Theorem C58_row_contents : forall F E extra h r infos k before i v, reporting E extra h r infos ->
  nth_error (completed_steps E [] h) k = Some (before, i) -> nth_error (post_steps (calls_of E extra h r)) k = Some v ->
  let fits := fits_of E (si_results i) in
  exists number best point trend,
    row F E v = line ([number; fc_show F best; fc_show F (fc_median F fits)] ++ trend ++
                      (if fc_par_history F then map (fc_show F) point ++ map (fun l => fc_show F (snd l)) (fc_state F k) else [])) /\
    numeral_of number (Z.of_nat k) /\
    (exists j, nth_error fits j = Some best /\ nth_error (si_pop i) j = Some point /\
       ((forall x, In x fits -> fisnan x = false) -> forall x, In x fits -> is_better (e_info E) x best = false)) /\
    (if Nat.eqb (window (extra ++ adds before)) 0 then trend = []
     else exists p g, snd (predicted_fitness E v (window (extra ++ adds before))) = Ok p /\ snd (progress E v) = Ok g /\ trend = [fc_show32 F p; fc_show32 F g]).
Proof.
  intros F E extra h r infos k before i v HR Hk Hv fits. pose proof HR as (Hd & Hw & Hh & _). pose proof (C58_rows_are_the_steps E extra h r infos HR) as [_ HS]. specialize (HS k v Hv).
  rewrite (post_steps_views E extra h r Hd Hw Hh) in Hv. rewrite nth_error_map, Hk in Hv. cbn [option_map fst snd] in Hv. injection Hv as Hv.
  assert (Hi : exists t, h = before ++ OpStep i :: t /\ too_many_errors E (si_results i) = false).
  { clear - Hk. assert (G : forall b, nth_error (completed_steps E b h) k = Some (before, i) -> exists m t, before = b ++ m /\ h = m ++ OpStep i :: t /\ too_many_errors E (si_results i) = false).
    { clear. revert k. induction h as [|a h IH]; intros k b H; [now destruct k|]. cbn [completed_steps] in H.
      assert (G : forall k', nth_error (completed_steps E (b ++ [a]) h) k' = Some (before, i) -> exists m t, before = b ++ m /\ a :: h = m ++ OpStep i :: t /\ too_many_errors E (si_results i) = false).
      { intros k' H'. destruct (IH k' _ H') as (m & t & -> & -> & T). exists (a :: m), t. split; [now rewrite <- app_assoc|]. split; [reflexivity|exact T]. }
      destruct a as [j| | | | | |]; try exact (G k H). destruct (too_many_errors E (si_results j)) eqn:T; [exact (G k H)|]. destruct k as [|k]; [|exact (G k H)].
      cbn [app nth_error] in H. injection H as <- <-. exists [], h. rewrite app_nil_r. auto. }
    destruct (G [] Hk) as (m & t & -> & -> & T). exists t. auto. }
  destruct Hi as (t & -> & HT). pose proof Hw as Hw2. apply Forall_app in Hw2 as [Hw1 Hw2]. inversion_clear Hw2 as [|? ? Hwi _]. cbn [wf_op] in Hwi.
  pose proof (C25_history_is_recent E extra before Hd Hw1) as (HC & _).
  assert (HA : c_cur_fit v = step_best E (si_results i) /\ c_cur_fits v = fits /\ c_cur_pt v = step_best_point E i /\ c_cap v = window (extra ++ adds before)).
  { rewrite <- HC, <- Hv. unfold absorb, update_fitness_tracking. fold (step_best E (si_results i)) (step_best_point E i). destruct (is_better _ _ _); cbn [with_best with_current c_cap]; destruct (Nat.ltb 0 _); auto. }
  destruct HA as (A1 & A2 & A3 & A4). clear Hv HC.
  destruct Hwi as (W1 & W2 & W3). assert (Hfl : length fits = length (si_pop i)) by (unfold fits, fits_of; now rewrite map_length).
  assert (Hne : fits <> []) by (intros E0; rewrite E0 in Hfl; destruct (si_pop i); [congruence|discriminate]).
  pose proof (find_best_lt (e_info E) fits Hne) as Hlt.
  set (trend := if Nat.eqb (window (extra ++ adds before)) 0 then [] else match snd (predicted_fitness E v (c_cap v)), snd (progress E v) with Ok p, Ok g => [fc_show32 F p; fc_show32 F g] | _, _ => [] end).
  exists (chars (show_nat k)), (step_best E (si_results i)), (step_best_point E i), trend. split; [|split; [apply show_nat_numeral|split]].
  - change ([?a; ?b; ?c] ++ ?l) with (a :: [b; c] ++ l). cbn [app]. rewrite line_all. cbn [map concat]. unfold row. rewrite HS, A1, A2, A3. rewrite <- !app_comm_cons, <- !app_assoc. do 2 (f_equal; cbn [app]; f_equal). rewrite map_app, concat_app, <- !app_assoc. apply (f_equal2 (@app ascii)); [reflexivity|]. apply (f_equal2 (@app ascii)).
    + unfold trend. rewrite A4. destruct (Nat.eqb_spec (window (extra ++ adds before)) 0) as [Hz|Hz]; [rewrite Hz; reflexivity|]. destruct (Nat.ltb_spec 0 (window (extra ++ adds before))); [|lia].
      destruct (snd (predicted_fitness E v (window (extra ++ adds before)))) as [a| |]; [|reflexivity|reflexivity]. destruct (snd (progress E v)) as [g| |]; [|reflexivity|reflexivity]. cbn [map concat app]. apply (f_equal (cons tab)), (f_equal (app (fc_show32 F a))), (f_equal (cons tab)). symmetry. apply app_nil_r.
    + apply (f_equal (fun x => x ++ [newline])). destruct (fc_par_history F); [|reflexivity]. rewrite map_app, !map_map, concat_app. reflexivity.
  - exists (find_best_fitness (e_info E) fits). split; [unfold step_best; fold fits; now apply nth_error_nth'|]. split; [unfold step_best_point; fold fits; apply nth_error_nth'; lia|].
    intros Hnan x Hx. pose proof (find_best_best (e_info E) fits Hne Hnan x Hx) as HB. unfold step_best. fold fits. rewrite is_better_key. destruct (Z.ltb_spec (bkey (e_info E) x) (bkey (e_info E) (nth (find_best_fitness (e_info E) fits) fits fnan))); [lia|]. apply andb_false_r.
  - unfold trend. rewrite A4. destruct (Nat.eqb_spec (window (extra ++ adds before)) 0) as [Hz|Hz]; [reflexivity|].
    assert (Q1 : exists p, snd (predicted_fitness E v (window (extra ++ adds before))) = Ok p).
    { unfold predicted_fitness. destruct (Nat.eqb_spec (c_cap v) 0); [lia|]. destruct (Nat.leb _ _); [|eexists; reflexivity]. destruct (fitness_trend E v). eexists. reflexivity. }
    assert (Q2 : exists g, snd (progress E v) = Ok g).
    { unfold progress. destruct (Nat.eqb_spec (c_cap v) 0); [lia|]. destruct (Nat.leb _ _); [|eexists; reflexivity]. destruct (fitness_trend E v). eexists. reflexivity. }
    destruct Q1 as (p & Q1), Q2 as (g & Q2). exists p, g. rewrite Q1, Q2. auto.
Qed.
(** The header: the names of the columns. *)
Theorem C58_header_contents : forall F E c,
  header F E c = line ([chars "generation"; chars "best_fitness"; chars "median_fitness"] ++
                       (if Nat.eqb (c_cap c) 0 then [] else [chars "predicted_fitness"; chars "fitness_progress"]) ++
                       (if fc_par_history F then map (fun p => chars (pi_name p)) (oi_free (e_info E)) ++ map (fun l => chars (fst l)) (fc_state F (c_steps c)) else [])).
Proof.
  intros F E c. change ([?a; ?b; ?c] ++ ?l) with (a :: [b; c] ++ l). cbn [app]. rewrite line_all. cbn [map concat]. unfold header. rewrite <- !app_comm_cons, <- !app_assoc. apply (f_equal2 (@app ascii)); [reflexivity|]. apply (f_equal (cons tab)).
  apply (f_equal2 (@app ascii)); [reflexivity|]. apply (f_equal (cons tab)). refine (eq_trans _ (app_assoc (chars "median_fitness") _ [newline])). apply (f_equal2 (@app ascii)); [reflexivity|]. rewrite map_app, concat_app, <- !app_assoc. apply (f_equal2 (@app ascii)).
  - destruct (Nat.ltb_spec 0 (c_cap c)), (Nat.eqb_spec (c_cap c) 0); try lia; reflexivity.
  - apply (f_equal (fun x => x ++ [newline])). destruct (fc_par_history F); [|reflexivity]. rewrite map_app, !map_map, concat_app. reflexivity.
Qed.

(** ** The names of the files *)
(** [t] shows [x] with three decimals, limited to +-999999.999, in at most 11 characters. *)
Definition shows (t : text) (x : f64) : Prop :=
  (x = B754_nan /\ t = chars "nan") \/
  (fisnan x = false /\ exists (s : bool) int frac n,
    t = (if s then ["-"%char] else []) ++ int ++ "."%char :: frac /\ numeral_of (int ++ frac) n /\ length frac = 3 /\ 1 <= length int <= 6 /\
    (is_finite x = true -> (Rabs (B2R x) <= 999999999 / 1000)%R -> (Rabs ((if s then - IZR n else IZR n) / 1000 - B2R x) <= 1 / 2000)%R) /\
    (x = B754_infinity false \/ (is_finite x = true /\ (999999999 / 1000 <= B2R x)%R) -> s = false /\ n = 999999999%Z) /\
    (x = B754_infinity true \/ (is_finite x = true /\ (B2R x <= - (999999999 / 1000))%R) -> s = true /\ n = 999999999%Z)).
Lemma shows_length t x : shows t x -> length t <= 11.
Proof.
  intros [[_ ->]|(_ & s & int & frac & n & -> & _ & H1 & H2 & _)]; [cbn; lia|]. rewrite !app_length. cbn [length]. destruct s; cbn [length]; lia.
Qed.
Lemma zdigits_short fuel : forall n k, (n < 10 ^ Z.of_nat k)%Z -> length (zdigits fuel n) <= k.
Proof.
  induction fuel as [|f IH]; intros n k H; [cbn; lia|]. cbn [zdigits]. destruct (Z.leb_spec n 0); [cbn; lia|]. rewrite app_length. cbn [length].
  destruct k as [|k]; [cbn in H; lia|]. specialize (IH (n / 10)%Z k). rewrite Nat2Z.inj_succ, Z.pow_succ_r in H by lia. assert (n / 10 < 10 ^ Z.of_nat k)%Z by (apply Z.div_lt_upper_bound; lia). specialize (IH H1). lia.
Qed.
Lemma nonneg_short z k : (z < 10 ^ Z.of_nat k)%Z -> 1 <= k -> length (nonneg_digits z) <= k.
Proof.
  intros H Hk. unfold nonneg_digits. destruct (Z.eqb_spec z 0); [cbn; lia|]. unfold show_digits. rewrite map_length. now apply zdigits_short.
Qed.
Lemma pad_exact w z : (0 <= z < 10 ^ Z.of_nat w)%Z -> 1 <= w -> length (pad_int w z) = w.
Proof.
  intros H Hw. unfold pad_int. destruct (Z.ltb_spec z 0); [lia|]. rewrite app_length, repeat_length. pose proof (nonneg_short z w ltac:(lia) Hw). lia.
Qed.
Lemma thousandths_near m e : (0 <= thousandths m e)%Z /\ (Rabs (IZR (thousandths m e) - 1000 * (IZR (Z.pos m) * bpow radix2 e)) <= 1 / 2)%R.
Proof.
  unfold thousandths. destruct (Z.leb_spec 0 e) as [He|He].
  - split; [pose proof (Z.pow_nonneg 2 e); nia|]. rewrite <- (IZR_Zpower radix2) by lia. change (radix2 ^ e)%Z with (2 ^ e)%Z. rewrite !mult_IZR.
    replace (_ - _)%R with 0%R by ring. rewrite Rabs_R0. lra.
  - set (d := (2 ^ (- e))%Z). assert (Hd : (0 < d)%Z) by (apply Z.pow_pos_nonneg; lia). set (q := (Z.pos m * 1000 / d)%Z). set (r := (Z.pos m * 1000 mod d)%Z). cbv zeta.
    pose proof (Z.div_mod (Z.pos m * 1000) d ltac:(lia)) as DM. fold q r in DM. pose proof (Z.mod_pos_bound (Z.pos m * 1000) d Hd) as RB. fold r in RB. assert (Hq : (0 <= q)%Z) by (apply Z.div_pos; lia).
    assert (Eb : bpow radix2 e = (/ IZR d)%R). { unfold d. replace e with (- - e)%Z at 1 by lia. rewrite bpow_opp, <- (IZR_Zpower radix2) by lia. reflexivity. }
    assert (Hdr : (0 < IZR d)%R) by now apply IZR_lt.
    assert (EV : (1000 * (IZR (Z.pos m) * bpow radix2 e) = IZR q + IZR r / IZR d)%R).
    { rewrite Eb. apply (f_equal IZR) in DM. rewrite plus_IZR, !mult_IZR in DM. apply (Rmult_eq_reg_r (IZR d)); [|lra]. field_simplify; lra. }
    assert (Hr0 : (0 <= IZR r)%R) by (apply IZR_le; lia). assert (Hr1 : (IZR r < IZR d)%R) by (apply IZR_lt; lia).
    assert (HL : (2 * r <= d)%Z -> (0 <= IZR r / IZR d <= 1 / 2)%R).
    { intros H. apply IZR_le in H. rewrite mult_IZR in H. split; [apply Rmult_le_pos; [lra|left; now apply Rinv_0_lt_compat]|]. apply (Rmult_le_reg_r (IZR d)); [lra|]. unfold Rdiv. rewrite Rmult_assoc, Rinv_l by lra. lra. }
    assert (HU : (d <= 2 * r)%Z -> (1 / 2 <= IZR r / IZR d <= 1)%R).
    { intros H. apply IZR_le in H. rewrite mult_IZR in H. split; (apply (Rmult_le_reg_r (IZR d)); [lra|]; unfold Rdiv; rewrite ?Rmult_assoc, Rinv_l by lra; lra). }
    rewrite EV. destruct (Z.ltb_spec (2 * r) d); [split; [lia|specialize (HL ltac:(lia)); apply Rabs_le; lra]|].
    destruct (Z.ltb_spec d (2 * r)); [split; [lia|specialize (HU ltac:(lia)); rewrite plus_IZR; apply Rabs_le; lra]|].
    specialize (HL ltac:(lia)). specialize (HU ltac:(lia)). destruct (Z.even q); (split; [lia|]); rewrite ?plus_IZR; apply Rabs_le; lra.
Qed.
Lemma replim_value : is_finite replim = true /\ (999999998 / 1000 + 6 / 10000 < B2R replim < 999999999 / 1000 + 4 / 10000)%R.
Proof.
  split; [vm_compute; reflexivity|].
  assert (H1 : (fkey replim * 10000 > 9999999986 * 2 ^ 1074)%Z) by (vm_compute; reflexivity). assert (H2 : (fkey replim * 10000 < 9999999994 * 2 ^ 1074)%Z) by (vm_compute; reflexivity).
  pose proof (fkey_real replim ltac:(vm_compute; reflexivity)) as HK. apply Z.gt_lt, IZR_lt in H1. apply IZR_lt in H2. rewrite !mult_IZR, HK in H1, H2.
  change (2 ^ 1074)%Z with (Zpower radix2 1074) in H1, H2. rewrite IZR_Zpower in H1, H2 by lia. clear HK. pose proof (bpow_gt_0 radix2 1074) as HP. generalize dependent (bpow radix2 1074). intros b HK HB HP. clear - HK HB HP.
  split; [apply (Rmult_lt_reg_r b); lra|apply (Rmult_lt_reg_r b); lra].
Qed.
Lemma shows_within y : is_finite y = true -> (Rabs (B2R y) <= B2R replim)%R ->
  exists (s : bool) int frac n, fixed3 y = (if s then ["-"%char] else []) ++ int ++ "."%char :: frac /\ numeral_of (int ++ frac) n /\ length frac = 3 /\ 1 <= length int <= 6 /\
    (Rabs ((if s then - IZR n else IZR n) / 1000 - B2R y) <= 1 / 2000)%R /\ (0 <= n <= 999999999)%Z /\
    ((B2R y < 0)%R -> s = true) /\ ((0 < B2R y)%R -> s = false).
Proof.
  intros HF HB. destruct replim_value as [_ [_ HR]].
  assert (G : forall (s : bool) z, (0 <= z <= 999999999)%Z -> exists int frac,
     (if s then ["-"%char] else []) ++ nonneg_digits (z / 1000) ++ "."%char :: pad_int 3 (z mod 1000) = (if s then ["-"%char] else []) ++ int ++ "."%char :: frac /\ numeral_of (int ++ frac) z /\ length frac = 3 /\ 1 <= length int <= 6).
  { intros s z Hz. exists (nonneg_digits (z / 1000)), (pad_int 3 (z mod 1000)). pose proof (Z.mod_pos_bound z 1000 ltac:(lia)) as HM. pose proof (Z.div_mod z 1000 ltac:(lia)) as HD. assert (HQ : (0 <= z / 1000 < 1000000)%Z) by (split; [apply Z.div_pos; lia|apply Z.div_lt_upper_bound; lia]).
    split; [reflexivity|]. pose proof (pad_exact 3 (z mod 1000) ltac:(cbn; lia) ltac:(lia)) as HL. destruct (digits_show (z / 1000) ltac:(lia)) as (d1 & A1 & A2 & A3 & A4). destruct (pad_show 3 (z mod 1000) ltac:(lia)) as (d2 & B1 & B2 & B3 & B4).
    split; [|split; [exact HL|split; [|apply nonneg_short; [cbn; lia|lia]]]].
    - rewrite A1, B1. rewrite B1 in HL. unfold show_digits in *. rewrite map_length in HL. rewrite <- map_app. replace z with (dval 0 (d1 ++ d2)) at 1.
      + apply numeral_show; [now apply Forall_app|]. intros H0. apply app_eq_nil in H0. tauto.
      + rewrite dval_app, dval_shift, A3, B3, HL. change (10 ^ Z.of_nat 3)%Z with 1000%Z. lia.
    - rewrite A1. unfold show_digits. rewrite map_length. destruct d1; [congruence|cbn [length]; lia]. }
  destruct y as [s|s| |s m e B]; try discriminate HF; cbn [fixed3 B2R] in *.
  - destruct (G s 0%Z ltac:(lia)) as (int & frac & G1 & G2 & G3 & G4). exists s, int, frac, 0%Z. split; [exact G1|]. split; [exact G2|]. split; [exact G3|]. split; [exact G4|]. split; [|split; [lia|split; intros; lra]].
    replace ((if s then - 0 else 0) / 1000 - 0)%R with 0%R by (destruct s; field). rewrite Rabs_R0. lra.
  - destruct (thousandths_near m e) as [T1 T2]. unfold F2R in *. cbn [Fnum Fexp] in *. pose proof (bpow_gt_0 radix2 e) as HP. set (u := (IZR (Z.pos m) * bpow radix2 e)%R) in *.
    assert (Hu : (0 < u)%R) by (apply Rmult_lt_0_compat; [now apply IZR_lt|exact HP]).
    assert (EV : (IZR (cond_Zopp s (Z.pos m)) * bpow radix2 e = if s then - u else u)%R) by (unfold u; destruct s; cbn [cond_Zopp]; [change (- Z.pos m)%Z with (Z.neg m); change (Z.neg m) with (- Z.pos m)%Z; rewrite opp_IZR; ring|reflexivity]).
    rewrite EV in *. assert (HUB : (u < 999999999 / 1000 + 4 / 10000)%R). { clear - HB HR Hu. destruct s; [rewrite Rabs_Ropp in HB|]; rewrite Rabs_pos_eq in HB by lra; lra. }
    assert (HN : (0 <= thousandths m e <= 999999999)%Z). { split; [exact T1|]. apply Z.lt_succ_r, lt_IZR. change (Z.succ 999999999) with 1000000000%Z. apply Rabs_le_inv in T2. lra. }
    destruct (G s _ HN) as (int & frac & G1 & G2 & G3 & G4). exists s, int, frac, (thousandths m e). split; [exact G1|]. split; [exact G2|]. split; [exact G3|]. split; [exact G4|].
    split; [|split; [exact HN|split; intros; destruct s; try reflexivity; lra]]. apply Rabs_le_inv in T2. apply Rabs_le. destruct s; lra.
Qed.
Lemma fixed3_shows x : shows (fixed3 (fclamped x (fopp replim) replim)) x.
Proof.
  destruct (fisnan x) eqn:HN; [left; destruct x; try discriminate HN; split; vm_compute; reflexivity|]. right. split; [exact HN|].
  destruct replim_value as [RF RV]. assert (HO : is_finite (fopp replim) = true) by (vm_compute; reflexivity). assert (EO : B2R (fopp replim) = (- B2R replim)%R) by apply B2R_Bopp. pose proof shows_within as SW. set (L := replim) in *. clearbody L.
  set (y := fclamped x (fopp L) L).
  assert (HY : is_finite y = true /\ (Rabs (B2R y) <= B2R L)%R /\
    ((is_finite x = true /\ B2R y = B2R x) \/ (B2R y = B2R L /\ (x = B754_infinity false \/ (is_finite x = true /\ B2R L < B2R x)%R)) \/ (B2R y = (- B2R L)%R /\ (x = B754_infinity true \/ (is_finite x = true /\ B2R x < - B2R L)%R)))).
  { unfold y, fclamped, fgt. destruct x as [s|s| |s m e B] eqn:Ex; try discriminate HN.
    2:{ destruct s.
        - assert (E1 : flt L (B754_infinity true) = false) by (destruct L; try discriminate RF; reflexivity). assert (E2 : flt (B754_infinity true) (fopp L) = true) by (destruct L; try discriminate RF; reflexivity). rewrite E1, E2.
          split; [exact HO|]. rewrite EO. split; [rewrite Rabs_Ropp, Rabs_pos_eq; lra|]. right. right. auto.
        - assert (E1 : flt L (B754_infinity false) = true) by (destruct L; try discriminate RF; reflexivity). rewrite E1. split; [exact RF|]. split; [rewrite Rabs_pos_eq; lra|]. right. left. auto. }
    all: rewrite <- Ex; assert (XF : is_finite x = true) by (rewrite Ex; reflexivity); clear Ex HN y; (destruct (flt L x) eqn:E1;
      [apply (flt_B2R L x RF XF) in E1; split; [exact RF|]; split; [rewrite Rabs_pos_eq; lra|right; left; auto]|]);
      assert (N1 : ~ (B2R L < B2R x)%R) by (intros C; apply (flt_B2R L x RF XF) in C; congruence);
      (destruct (flt x (fopp L)) eqn:E2; [apply (flt_B2R x (fopp L) XF HO) in E2; rewrite EO in *; split; [exact HO|]; split; [rewrite Rabs_Ropp, Rabs_pos_eq; lra|right; right; auto]|]);
      assert (N2 : ~ (B2R x < B2R (fopp L))%R) by (intros C; apply (flt_B2R x (fopp L) XF HO) in C; congruence); rewrite EO in N2;
      (split; [exact XF|split; [apply Rabs_le; lra|left; auto]]). }
  destruct HY as (Y1 & Y2 & Y3). clearbody y. destruct (SW y Y1 Y2) as (s & int & frac & n & S1 & S2 & S3 & S4 & S5 & S6 & S7 & S8). clear SW HO EO.
  exists s, int, frac, n. split; [exact S1|]. split; [exact S2|]. split; [exact S3|]. split; [exact S4|]. apply Rabs_le_inv in S5.
  assert (Big : (B2R L <= B2R y \/ 999999999 / 1000 <= B2R y)%R -> s = false /\ n = 999999999%Z).
  { intros H. rewrite S8 in * by lra. split; [reflexivity|]. enough (999999998 < n)%Z by lia. apply lt_IZR. lra. }
  assert (Low : (B2R y <= - B2R L \/ B2R y <= - (999999999 / 1000))%R -> s = true /\ n = 999999999%Z).
  { intros H. rewrite S7 in * by lra. split; [reflexivity|]. enough (999999998 < n)%Z by lia. apply lt_IZR. lra. }
  split; [|split].
  - intros XF HX. apply Rabs_le_inv in HX. destruct Y3 as [[_ Y3]|[[Y3 Y4]|[Y3 Y4]]].
    + rewrite <- Y3. apply Rabs_le. exact S5.
    + destruct Y4 as [->|[_ Y4]]; [discriminate XF|]. destruct (Big ltac:(lra)) as [-> ->]. apply Rabs_le. lra.
    + destruct Y4 as [->|[_ Y4]]; [discriminate XF|]. destruct (Low ltac:(lra)) as [-> ->]. apply Rabs_le. lra.
  - intros HX. apply Big. destruct Y3 as [[YF Y3]|[[Y3 Y4]|[Y3 Y4]]]; [destruct HX as [->|[_ HX]]; [discriminate YF|lra]|lra|].
    destruct HX as [->|[XF HX]]; destruct Y4 as [Y4|[XF2 Y4]]; try discriminate; try (exfalso; lra). subst x. discriminate XF.
  - intros HX. apply Low. destruct Y3 as [[YF Y3]|[[Y3 Y4]|[Y3 Y4]]]; [destruct HX as [->|[_ HX]]; [discriminate YF|lra]| |lra].
    destruct HX as [->|[XF HX]]; destruct Y4 as [Y4|[XF2 Y4]]; try discriminate; try (exfalso; lra). subst x. discriminate XF.
Qed.
(** A par file is named after its step: the number of the step with at least four digits, the median and the
    best fitness of the step with three decimals (limited), separated by underscores; so the name is short,
    and names of different steps differ. *)
Theorem C52_file_names : forall F v, (Z.of_nat (c_steps v) < 2147483648)%Z ->
  (exists number median best,
    par_path F v = fc_root F ++ "/"%char :: number ++ "_"%char :: median ++ "_"%char :: best ++ chars ".par" /\
    numeral_of number (Z.of_nat (c_steps v)) /\ 4 <= length number <= 10 /\ ((Z.of_nat (c_steps v) < 10000)%Z -> length number = 4) /\
    shows median (fc_median F (c_cur_fits v)) /\ shows best (c_cur_fit v) /\
    length (par_path F v) <= length (fc_root F) + 39) /\
  (forall w, (Z.of_nat (c_steps w) < 2147483648)%Z -> par_path F v = par_path F w -> c_steps v = c_steps w).
Proof.
  intros F v Hv. split; [|intros w Hw; now apply par_path_step]. unfold par_path, par_name, in_root. rewrite int_of_small by exact Hv.
  set (z := Z.of_nat (c_steps v)). assert (Hz : (0 <= z < 10 ^ Z.of_nat 10)%Z) by (unfold z; change (10 ^ Z.of_nat 10)%Z with 10000000000%Z; lia).
  pose proof (fixed3_shows (fc_median F (c_cur_fits v))) as S1. pose proof (fixed3_shows (c_cur_fit v)) as S2.
  set (a := fixed3 (fclamped (fc_median F (c_cur_fits v)) (fopp replim) replim)) in *. set (b := fixed3 (fclamped (c_cur_fit v) (fopp replim) replim)) in *. clearbody a b.
  assert (HL : 4 <= length (pad_int 4 z) <= 10).
  { unfold pad_int. destruct (Z.ltb_spec z 0); [lia|]. rewrite app_length, repeat_length. pose proof (nonneg_short z 10 ltac:(lia) ltac:(lia)). lia. }
  exists (pad_int 4 z), a, b. split; [reflexivity|]. split.
  { destruct (pad_show 4 z ltac:(lia)) as (ds & A1 & A2 & A3 & A4). rewrite A1, <- A3. now apply numeral_show. }
  split; [exact HL|]. split; [intros H4; apply pad_exact; [change (10 ^ Z.of_nat 4)%Z with 10000%Z; unfold z; lia|lia]|]. split; [exact S1|]. split; [exact S2|].
  apply shows_length in S1, S2. rewrite !app_length. cbn [length]. rewrite app_length. cbn [length]. rewrite app_length. cbn [length]. rewrite app_length. change (length (chars ".par")) with 4. lia.
Qed.
Example C58_contents_nonvacuous : exists before i v, reporting (ex_env [quiet]) [ScMinProgress fzero 2] ex_steps 0 ex_infos /\
  nth_error (completed_steps (ex_env [quiet]) [] ex_steps) 2 = Some (before, i) /\ nth_error (post_steps (calls_of (ex_env [quiet]) [ScMinProgress fzero 2] ex_steps 0)) 2 = Some v /\
  window ([ScMinProgress fzero 2] ++ adds before) = 2.
Proof.
  assert (R : reporting (ex_env [quiet]) [ScMinProgress fzero 2] ex_steps 0 ex_infos) by (destruct ex_reporting as (R1 & R2 & R3 & R4 & R5); split; [exact R1|]; split; [exact R2|]; split; [exact R3|]; split; [exact R4|exact R5]).
  pose proof R as (R1 & R2 & R3 & _). rewrite (post_steps_views _ _ _ _ R1 R2 R3).
  assert (L : match nth_error (completed_steps (ex_env [quiet]) [] ex_steps) 2 with Some (b, _) => Nat.eqb (window ([ScMinProgress fzero 2] ++ adds b)) 2 | None => false end = true) by (vm_compute; reflexivity).
  rewrite nth_error_map. destruct (nth_error (completed_steps (ex_env [quiet]) [] ex_steps) 2) as [[b i]|]; [|discriminate L]. apply Nat.eqb_eq in L.
  eexists b, i, _. split; [exact R|]. split; [reflexivity|]. split; [reflexivity|exact L].
Qed.
(** For example the names of a step with a moderate and one with a huge fitness. *)
Example C52_file_names_example :
  path_eqb (chars "0042_" ++ fixed3 (fclamped (flit 15 (-1)) (fopp replim) replim) ++ "_"%char :: fixed3 (fclamped (flit (-1) 20) (fopp replim) replim) ++ chars ".par") (chars "0042_1.500_-999999.999.par") = true.
Proof. vm_compute. reflexivity. Qed.
