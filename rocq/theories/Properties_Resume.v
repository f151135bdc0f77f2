(** C73: a search can be resumed from a par file. *)
From Coq Require Import ZArith Bool Lia Permutation Reals Lra.
From Flocq Require Import Core BinarySingleNaN.
From Verif Require Import Prelude Flt FltFacts Flt32 Round8 Round8Facts ShowNum ShowNumFacts FlatMap ParInfo ObjInfo ObjInfoFacts SearchPoint Properties_SearchPoint
  Properties_Params Properties_Params2 Num MathTools Boundary Mes MesFacts MesF Optimizer OptimizerFacts Driver DriverFacts Properties_ES3 Properties_ES6
  Cma CmaRandom CmaF Properties_Optimizer FileReporter Properties_FileReporter3 FltSqrt FileReporterFacts Properties_Cma3 Properties_Optimizer4 Properties_ES4 CmaFacts Properties_Cma.
Open Scope nat_scope.

(** par_options.h:24-34: the default import settings ([none]: a pattern matcher without patterns), with the choice
    whether the means of the file or the point of the file become the new means (use_best_as_mean, default false). *)
Definition resume_settings (none : pattern) (best : bool) : import_settings :=
  {| is_import_std := true; is_use_best_as_mean := best; is_std_factor := fofZ 1; is_std_offset := fofZ 0;
     is_value_factor := fofZ 1; is_value_offset := fofZ 0; is_include := none; is_exclude := none |}.
(** The same number (minus zero is zero). *)
Definition same_number (a b : f64) : Prop := feq a b = true.
(** Neither the direction nor the target nor the name is touched. *)
Definition same_objective (o o' : obj_info) : Prop := oi_minimize o' = oi_minimize o /\ oi_target o' = oi_target o /\ oi_name o' = oi_name o.

(** ** 0 + 1 * x is x *)
Lemma filter_length_le' {A} (f : A -> bool) l : length (filter f l) <= length l.
Proof. induction l as [|x l IH]; cbn; [lia|]. destruct (f x); cbn; lia. Qed.
Lemma filter_none {A} (f : A -> bool) l : (forall x, In x l -> f x = false) -> filter f l = [].
Proof. induction l as [|x l IH]; intros H; [reflexivity|]. cbn. rewrite (H x (or_introl eq_refl)). apply IH. intros y Hy. apply H. now right. Qed.
Lemma small_ints z : (Z.abs z <= 2 ^ 53)%Z -> B2R (fofZ z) = IZR z /\ is_finite (fofZ z) = true.
Proof. apply Properties_CmaRandom.fofZ_exact. Qed.
Lemma zero_plus_once x : is_finite x = true -> is_finite (fadd (fofZ 0) (fmul (fofZ 1) x)) = true /\ B2R (fadd (fofZ 0) (fmul (fofZ 1) x)) = B2R x.
Proof.
  intros F. destruct (small_ints 0 ltac:(lia)) as [Z0 F0]. destruct (small_ints 1 ltac:(lia)) as [Z1 F1].
  assert (RX : round radix2 (SpecFloat.fexp prec64 emax64) (round_mode mode_NE) (B2R x) = B2R x) by (apply round_generic; [apply valid_rnd_round_mode|apply generic_format_B2R]).
  assert (HM : is_finite (fmul (fofZ 1) x) = true /\ B2R (fmul (fofZ 1) x) = B2R x).
  { pose proof (Bmult_correct prec64 emax64 _ _ mode_NE (fofZ 1) x) as H. rewrite Z1, Rmult_1_l, RX in H. rewrite Rlt_bool_true in H by apply abs_B2R_lt_emax.
    destruct H as (H1 & H2 & _). rewrite F1, F in H2. split; assumption. }
  destruct HM as [FM RM]. pose proof (Bplus_correct prec64 emax64 _ _ mode_NE (fofZ 0) (fmul (fofZ 1) x) F0 FM) as H.
  rewrite Z0, RM, Rplus_0_l, RX in H. rewrite Rlt_bool_true in H by apply abs_B2R_lt_emax. destruct H as (H1 & H2 & _). split; assumption.
Qed.
Lemma zero_plus_once_same x : is_finite x = true -> same_number (fadd (fofZ 0) (fmul (fofZ 1) x)) x.
Proof. intros F. destruct (zero_plus_once x F) as [F1 R1]. apply feq_B2R; assumption. Qed.
Lemma rounded_is_zero x : is_finite x = true -> (feq (rounded x) fzero = true <-> B2R x = 0%R).
Proof.
  intros F. rewrite feq_B2R by (first [apply rounded_finite|reflexivity]). change (B2R fzero) with 0%R. split; intros H.
  - destruct (Req_dec (B2R x) 0) as [E|E]; [exact E|]. now apply rounded_nonzero in E.
  - destruct (C14_projection x x) as (_ & _ & _ & Z & _). auto.
Qed.

(** ** The records of a written file *)
Definition lines (p : search_point) : list (par_info * f64) := combine (oi_free (sp_info p)) (sp_values p).
Lemma written_records p : writable p ->
  file_records (write_point p) = (map (fun pv => (line_rec (fst pv) (snd pv), false)) (lines p), ""%string).
Proof.
  intros (Hl & Hd & Hnd & Hok & Hfin).
  assert (HLok : Forall line_ok (lines p)).
  { apply Forall_forall. intros [pi v] Hin. unfold line_ok; cbn [fst snd]. destruct (Hok pi (in_combine_l _ _ _ _ Hin)) as (? & ? & ?).
    pose proof (Hfin v (in_combine_r _ _ _ _ Hin)). auto. }
  unfold file_records, write_point. fold (lines p).
  apply (read_lines (max_width (oi_free (sp_info p))) (lines p) HLok _ [] eq_refl).
  pose proof (write_lines_length (max_width (oi_free (sp_info p))) (lines p)). lia.
Qed.
Lemma lines_names p : length (sp_values p) = oi_dim (sp_info p) -> map (fun pv => pi_name (fst pv)) (lines p) = map pi_name (oi_free (sp_info p)).
Proof. intros H. rewrite <- (map_map fst pi_name). unfold lines. now rewrite combine_map_fst by (symmetry; exact H). Qed.

Lemma named_once (l : list (par_info * f64)) : NoDup (map (fun pv => pi_name (fst pv)) l) -> forall pv, In pv l ->
  filter (fun r => String.eqb (r_name r) (pi_name (fst pv))) (map (fun pv => line_rec (fst pv) (snd pv)) l) = [line_rec (fst pv) (snd pv)].
Proof.
  induction l as [|x l IH]; intros N pv H; [destruct H|]. cbn [map filter]. apply NoDup_cons_iff in N as [N1 N2]. cbn [line_rec r_name].
  destruct H as [->|H].
  - rewrite String.eqb_refl. f_equal. clear IH N2. induction l as [|y l IH]; [reflexivity|]. cbn [map filter line_rec r_name].
    destruct (String.eqb_spec (pi_name (fst y)) (pi_name (fst pv))) as [E|E]; [exfalso; apply N1; left; exact E|].
    apply IH. intros H. apply N1. right. exact H.
  - destruct (String.eqb_spec (pi_name (fst x)) (pi_name (fst pv))) as [E|E]; [|now apply IH].
    exfalso. apply N1. rewrite E. now apply (in_map (fun pv => pi_name (fst pv))).
Qed.
Lemma wanted_all none n : pat_empty none = true -> wanted none none n = true.
Proof. intros H. unfold wanted. now rewrite H. Qed.

Lemma set_count_all pis l : (forall n, wanted (is_include pis) (is_exclude pis) n = true) -> NoDup (map r_name l) ->
  forall st, (forall r, In r l -> exists q, st (r_name r) = Free q) -> set_count pis st l = length l.
Proof.
  intros W. induction l as [|r l IH]; intros N st H; [reflexivity|]. apply NoDup_cons_iff in N as [N1 N2]. cbn [set_count length]. rewrite W.
  destruct (H r (or_introl eq_refl)) as (q & ->). rewrite IH; [reflexivity|exact N2|].
  intros r' H'. destruct (String.eqb_spec (r_name r) (r_name r')) as [E|E]; [|apply H; now right].
  exfalso. apply N1. rewrite E. now apply in_map.
Qed.

(** Importing a written file, parameter by parameter. *)
Lemma import_written none best p o : pat_empty none = true -> writable p -> names_unique o -> fm_sorted (oi_locked o) ->
  Permutation (map pi_name (oi_free (sp_info p))) (map pi_name (oi_free o)) ->
  exists o', import_mean_std o (Some (write_point p)) (resume_settings none best) = (o', Ok (oi_dim o, 0)) /\ same_objective o o' /\
    (forall pi v, In (pi, v) (lines p) -> exists q, find_par (pi_name pi) (oi_free o) = Some q /\
       status o' (pi_name pi) = record_effect (resume_settings none best) (line_rec pi v) (Free q)) /\
    map pi_name (oi_free o') = filter (fun n => match status o' n with Free _ => true | _ => false end) (map pi_name (oi_free o)) /\
    (forall n, ~ In n (map pi_name (oi_free o)) -> status o' n = status o n).
Proof.
  intros HN W U S PM. set (pis := resume_settings none best). pose proof (written_records p W) as HR.
  destruct (C11_import_mean_std o (write_point p) pis _ _ U S HR) as (H1 & _ & H3 & H4 & _ & H6).
  destruct (C11_counts o (write_point p) pis _ U S HR) as (b & HC). pose proof W as (Hl & Hd & Hnd & Hok & Hfin).
  destruct (H4 eq_refl) as (a & b' & HE & HS). clear H4. rewrite HC in HE. injection HE as <- <-.
  assert (ER : map fst (map (fun pv => (line_rec (fst pv) (snd pv), false)) (lines p)) = map (fun pv => line_rec (fst pv) (snd pv)) (lines p)) by (rewrite map_map; reflexivity).
  assert (NL : NoDup (map (fun pv => pi_name (fst pv)) (lines p))) by (rewrite lines_names; assumption).
  assert (Wt : forall n, wanted (is_include pis) (is_exclude pis) n = true) by (intros n; apply wanted_all; exact HN).
  assert (FQ : forall n, In n (map pi_name (oi_free (sp_info p))) -> exists q, find_par n (oi_free o) = Some q).
  { intros n Hn. destruct (find_par n (oi_free o)) as [q|] eqn:E; [eauto|]. apply find_par_None in E. exfalso. apply E. now apply (Permutation_in _ PM). }
  rewrite ER in HC, HS, H1.
  assert (NR : NoDup (map r_name (map (fun pv => line_rec (fst pv) (snd pv)) (lines p)))) by (rewrite map_map; exact NL).
  assert (IL : forall pi v, In (pi, v) (lines p) -> In (pi_name pi) (map pi_name (oi_free (sp_info p)))).
  { intros pi v H. rewrite <- lines_names by assumption. exact (in_map (fun pv => pi_name (fst pv)) _ _ H). }
  rewrite (set_count_all pis _ Wt NR) in HC.
  2:{ intros r Hr. apply in_map_iff in Hr as ([pi v] & <- & Hr). cbn [fst snd line_rec r_name]. destruct (FQ _ (IL _ _ Hr)) as (q & Eq). exists q. unfold status. now rewrite Eq. }
  rewrite (set_count_all pis _ Wt NR) in HS.
  2:{ intros r Hr. apply in_map_iff in Hr as ([pi v] & <- & Hr). cbn [fst snd line_rec r_name]. destruct (FQ _ (IL _ _ Hr)) as (q & Eq). exists q. unfold status. now rewrite Eq. }
  assert (LL : length (map (fun pv => line_rec (fst pv) (snd pv)) (lines p)) = oi_dim o).
  { rewrite map_length. apply Permutation_length in PM. rewrite !map_length in PM. unfold lines. rewrite combine_length, Hl. unfold oi_dim in *. lia. }
  assert (b = 0). { match type of HS with _ = length (filter ?f ?l) => pose proof (filter_length_le' f l) as X end. lia. } subst b.
  exists (fst (import_mean_std o (Some (write_point p)) pis)). split; [rewrite <- LL, <- HC; apply surjective_pairing|]. split; [exact H6|]. split; [|split; [exact H3|]].
  - intros pi v Hin. destruct (FQ _ (IL _ _ Hin)) as (q & Eq). exists q. split; [exact Eq|]. rewrite H1.
    replace (filter _ _) with [line_rec pi v].
    + cbn [fold_left]. f_equal. unfold status. now rewrite Eq.
    + pose proof (named_once (lines p) NL (pi, v) Hin) as X. cbn [fst snd] in X. rewrite <- X. apply filter_ext. intros r. now rewrite Wt.
  - intros n Hn. rewrite H1. replace (filter _ _) with (@nil rec); [reflexivity|]. symmetry. apply filter_none. intros r Hr. apply in_map_iff in Hr as ([pi v] & <- & Hr).
    cbn [fst snd line_rec r_name]. rewrite Wt. destruct (String.eqb_spec (pi_name pi) n) as [E|E]; [|reflexivity]. exfalso. apply Hn. rewrite <- E. apply (Permutation_in _ PM). exact (IL _ _ Hr).
Qed.

(** ** C73 *)
(** Importing the par file of a search point into any objective_info with the same parameters (in any order): the means become
    the means (or the point) of the file and the standard deviations those of the file, both to 8 digits; a parameter whose
    standard deviation is zero is locked at its value.  Bounds, order, other parameters and settings stay. *)
Theorem C73_import : forall none best p o, pat_empty none = true -> writable p -> names_unique o -> fm_sorted (oi_locked o) ->
  Permutation (map pi_name (oi_free (sp_info p))) (map pi_name (oi_free o)) ->
  exists o', import_mean_std o (Some (write_point p)) (resume_settings none best) = (o', Ok (oi_dim o, 0)) /\ same_objective o o' /\
    (forall i pi v, nth_error (oi_free (sp_info p)) i = Some pi -> nth_error (sp_values p) i = Some v ->
       exists q, find_par (pi_name pi) (oi_free o) = Some q /\
       (B2R (pi_std pi) <> 0%R -> exists m s,
          find_par (pi_name pi) (oi_free o') = Some {| pi_name := pi_name q; pi_mean := m; pi_std := s; pi_min := pi_min q; pi_max := pi_max q |} /\
          same_number m (rounded (if best then v else pi_mean pi)) /\ same_number s (rounded (pi_std pi))) /\
       (B2R (pi_std pi) = 0%R -> find_par (pi_name pi) (oi_free o') = None /\ try_get_locked o' (pi_name pi) = Some (rounded v))) /\
    (forall n, ~ In n (map pi_name (oi_free o)) -> try_get_locked o' n = try_get_locked o n) /\
    exists keep, map pi_name (oi_free o') = filter keep (map pi_name (oi_free o)) /\
      forall pi, In pi (oi_free (sp_info p)) -> (keep (pi_name pi) = true <-> B2R (pi_std pi) <> 0%R).
Proof.
  intros none best p o HN W U S PM. destruct (import_written none best p o HN W U S PM) as (o' & E & H1 & H2 & H3 & H4). pose proof W as (Hl & Hd & Hnd & Hok & Hfin).
  assert (LN : forall i pi v, nth_error (oi_free (sp_info p)) i = Some pi -> nth_error (sp_values p) i = Some v -> In (pi, v) (lines p)).
  { intros i pi v A B. apply (nth_error_In _ i). unfold lines. now apply combine_nth_error. }
  exists o'. split; [exact E|]. split; [exact H1|]. split; [|split].
  - intros i pi v A B. destruct (H2 pi v (LN i pi v A B)) as (q & Eq & Es). exists q. split; [exact Eq|].
    destruct (Hok pi (nth_error_In _ _ A)) as (_ & Fm & Fs). pose proof (Hfin v (nth_error_In _ _ B)) as Fv.
    pose proof (rounded_is_zero (pi_std pi) Fs) as Z. unfold record_effect in Es. cbn [line_rec r_std r_value] in Es. split; intros Hz.
    + destruct (feq (rounded (pi_std pi)) fzero); [exfalso; apply Hz; now apply Z|].
      unfold status in Es. destruct (find_par (pi_name pi) (oi_free o')) as [q'|]; [|destruct (try_get_locked o' (pi_name pi)); discriminate].
      injection Es as ->. do 2 eexists. split; [reflexivity|]. unfold mean_rule, std_rule. cbn [resume_settings is_value_offset is_value_factor is_use_best_as_mean is_import_std is_std_offset is_std_factor line_rec r_value r_mean r_std].
      split; [destruct best|]; apply zero_plus_once_same, rounded_finite.
    + rewrite (proj2 Z Hz) in Es. unfold status in Es. destruct (find_par (pi_name pi) (oi_free o')) as [q'|]; [discriminate|]. split; [reflexivity|].
      destruct (try_get_locked o' (pi_name pi)); [|discriminate]. now injection Es as ->.
  - intros n Hn. pose proof (H4 n Hn) as X. assert (Hn' : ~ In n (map pi_name (oi_free o'))).
    { rewrite H3. intros Y. apply filter_In in Y as [Y _]. contradiction. }
    unfold status in X. apply find_par_None in Hn, Hn'. rewrite Hn, Hn' in X. destruct (try_get_locked o' n), (try_get_locked o n); congruence.
  - eexists. split; [exact H3|]. intros pi Hin. apply In_nth_error in Hin as (i & A).
    assert (LV : i < length (sp_values p)) by (rewrite Hl; apply nth_error_Some; congruence).
    destruct (nth_error (sp_values p) i) as [v|] eqn:B; [|apply nth_error_None in B; lia].
    destruct (H2 pi v (LN i pi v A B)) as (q & Eq & Es). rewrite Es. unfold record_effect. cbn [line_rec r_std].
    destruct (Hok pi (nth_error_In _ _ A)) as (_ & Fm & Fs). pose proof (rounded_is_zero (pi_std pi) Fs) as Z.
    destruct (feq (rounded (pi_std pi)) fzero); split; intros X; try discriminate; try reflexivity.
    + exfalso. apply X. now apply Z.
    + intros Y. apply Z in Y. discriminate.
Qed.

(** To 8 digits: the same number as the other one rounded to 8 significant digits (C14). *)
Definition eight_digits (a b : f64) : Prop := same_number a (rounded b).

Lemma find_par_nth l : NoDup (map pi_name l) -> forall i q, nth_error l i = Some q -> find_par (pi_name q) l = Some q.
Proof.
  induction l as [|p l IH]; intros N [|i] q H; cbn [nth_error] in H; try discriminate; cbn [find_par].
  - injection H as ->. now rewrite String.eqb_refl.
  - cbn [map] in N. apply NoDup_cons_iff in N as [N1 N2]. destruct (String.eqb_spec (pi_name p) (pi_name q)) as [E|E]; [|now apply (IH N2 i)].
    exfalso. apply N1. rewrite E. apply in_map. exact (nth_error_In _ _ H).
Qed.
Lemma filter_all {A} (f : A -> bool) l : (forall x, In x l -> f x = true) -> filter f l = l.
Proof. induction l as [|x l IH]; intros H; [reflexivity|]. cbn. rewrite (H x (or_introl eq_refl)). f_equal. apply IH. intros y Hy. apply H. now right. Qed.

(** With the parameters in the same order and no standard deviation zero: every parameter stays at its place, with its
    bounds, and takes mean and standard deviation of the file. *)
Theorem C73_same_parameters : forall none best p o, pat_empty none = true -> writable p -> names_unique o -> fm_sorted (oi_locked o) ->
  map pi_name (oi_free (sp_info p)) = map pi_name (oi_free o) -> Forall (fun pi => B2R (pi_std pi) <> 0%R) (oi_free (sp_info p)) ->
  exists o', import_mean_std o (Some (write_point p)) (resume_settings none best) = (o', Ok (oi_dim o, 0)) /\ same_objective o o' /\
    map pi_name (oi_free o') = map pi_name (oi_free o) /\ map pi_min (oi_free o') = map pi_min (oi_free o) /\ map pi_max (oi_free o') = map pi_max (oi_free o) /\
    Forall2 eight_digits (map pi_mean (oi_free o')) (if best then sp_values p else map pi_mean (oi_free (sp_info p))) /\
    Forall2 eight_digits (map pi_std (oi_free o')) (map pi_std (oi_free (sp_info p))).
Proof.
  intros none best p o HN W U S EN HS. destruct (C73_import none best p o HN W U S) as (o' & E & H1 & H2 & _ & keep & H3 & H4); [rewrite EN; apply Permutation_refl|].
  pose proof W as (Hl & Hd & Hnd & _).
  assert (H5 : map pi_name (oi_free o') = map pi_name (oi_free o)).
  { rewrite H3. apply filter_all. intros n Hn. rewrite <- EN in Hn. apply in_map_iff in Hn as (pi & <- & Hn). apply H4; [exact Hn|]. rewrite Forall_forall in HS. now apply HS. }
  assert (L1 : length (oi_free o') = length (oi_free o)) by (apply (f_equal (@length _)) in H5; now rewrite !map_length in H5).
  assert (L2 : length (oi_free (sp_info p)) = length (oi_free o)) by (apply (f_equal (@length _)) in EN; now rewrite !map_length in EN).
  assert (ND : NoDup (map pi_name (oi_free o))) by (rewrite <- EN; exact Hnd).
  assert (K : forall i, i < length (oi_free o) -> exists q pi v q', nth_error (oi_free o) i = Some q /\ nth_error (oi_free (sp_info p)) i = Some pi /\ nth_error (sp_values p) i = Some v /\
    nth_error (oi_free o') i = Some q' /\ pi_min q' = pi_min q /\ pi_max q' = pi_max q /\ eight_digits (pi_mean q') (if best then v else pi_mean pi) /\ eight_digits (pi_std q') (pi_std pi)).
  { intros i Hi. destruct (nth_error (oi_free o) i) as [q|] eqn:Eq; [|apply nth_error_None in Eq; lia].
    destruct (nth_error (oi_free (sp_info p)) i) as [pi|] eqn:Ep; [|apply nth_error_None in Ep; lia].
    destruct (nth_error (sp_values p) i) as [v|] eqn:Ev; [|apply nth_error_None in Ev; unfold oi_dim in Hl; lia].
    destruct (nth_error (oi_free o') i) as [q'|] eqn:Eq'; [|apply nth_error_None in Eq'; lia].
    assert (NE : forall l l' a b, map pi_name l = map pi_name l' -> nth_error l i = Some a -> nth_error l' i = Some b -> pi_name a = pi_name b).
    { intros l l' a b X A B. apply (map_nth_error pi_name) in A, B. rewrite X in A. congruence. }
    pose proof (NE _ _ _ _ EN Ep Eq) as N1. pose proof (NE _ _ _ _ H5 Eq' Eq) as N2.
    destruct (H2 i pi v Ep Ev) as (q0 & F0 & F1 & _). rewrite N1, (find_par_nth _ ND i q Eq) in F0. injection F0 as <-.
    destruct F1 as (m & s & F2 & F3 & F4). { rewrite Forall_forall in HS. apply HS. exact (nth_error_In _ _ Ep). }
    rewrite N1, <- N2 in F2. rewrite (find_par_nth _ ltac:(rewrite H5; exact ND) i q' Eq') in F2. injection F2 as ->.
    exists q, pi, v. eexists. repeat (split; [first [reflexivity|assumption]|]). exact F4. }
  assert (ML : forall {B} (f : par_info -> B) l i x, nth_error l i = Some x -> nth_error (map f l) i = Some (f x)) by (intros; now apply map_nth_error).
  assert (F2 : forall (l l' : list f64), length l = length l' -> (forall i a b, nth_error l i = Some a -> nth_error l' i = Some b -> eight_digits a b) -> Forall2 eight_digits l l').
  { induction l as [|a l IH]; intros [|b l'] HL HI; try discriminate; constructor; [exact (HI 0 a b eq_refl eq_refl)|]. apply IH; [now injection HL|]. intros i. exact (HI (Datatypes.S i)). }
  exists o'. split; [exact E|]. split; [exact H1|]. split; [exact H5|]. split; [|split; [|split]].
  - apply nth_error_ext'; [now rewrite !map_length|]. intros i _. destruct (Nat.lt_ge_cases i (length (oi_free o))) as [Hi|Hi].
    + destruct (K i Hi) as (q & pi & v & q' & A & B & C & D & M1 & M2 & _). rewrite (ML _ pi_min _ _ _ A), (ML _ pi_min _ _ _ D). now rewrite M1.
    + rewrite (proj2 (nth_error_None _ _)), (proj2 (nth_error_None _ _)); [reflexivity|rewrite map_length; lia|rewrite map_length; lia].
  - apply nth_error_ext'; [now rewrite !map_length|]. intros i _. destruct (Nat.lt_ge_cases i (length (oi_free o))) as [Hi|Hi].
    + destruct (K i Hi) as (q & pi & v & q' & A & B & C & D & M1 & M2 & _). rewrite (ML _ pi_max _ _ _ A), (ML _ pi_max _ _ _ D). now rewrite M2.
    + rewrite (proj2 (nth_error_None _ _)), (proj2 (nth_error_None _ _)); [reflexivity|rewrite map_length; lia|rewrite map_length; lia].
  - apply F2; [destruct best; rewrite !map_length; unfold oi_dim in Hl; lia|]. intros i a b A B.
    assert (Hi : i < length (oi_free o)) by (rewrite <- L1, <- (map_length pi_mean); apply nth_error_Some; congruence).
    destruct (K i Hi) as (q & pi & v & q' & _ & A2 & A3 & A4 & _ & _ & M & _). rewrite (ML _ pi_mean _ _ _ A4) in A. injection A as <-.
    destruct best; [congruence|]. rewrite (ML _ pi_mean _ _ _ A2) in B. congruence.
  - apply F2; [rewrite !map_length; lia|]. intros i a b A B.
    assert (Hi : i < length (oi_free o)) by (rewrite <- L1, <- (map_length pi_std); apply nth_error_Some; congruence).
    destruct (K i Hi) as (q & pi & v & q' & _ & A2 & A3 & A4 & _ & _ & _ & M). rewrite (ML _ pi_std _ _ _ A4) in A. injection A as <-.
    rewrite (ML _ pi_std _ _ _ A2) in B. congruence.
Qed.

Lemma same_le_r l a b : feq a b = true -> fle l b = true -> fle l a = true.
Proof. fsolve. Qed.
Lemma same_le_l l a b : feq a b = true -> fle b l = true -> fle a l = true.
Proof. fsolve. Qed.
Lemma same_self a b : feq a b = true -> feq a a = true.
Proof. fsolve. Qed.
(** ** Valid parameters stay valid *)
(** If the bounds are numbers of 8 digits, the new means are within them whenever the means (the point) of the file were, and
    the parameters that come out are valid. *)
Theorem C73_valid : forall none (best : bool) p o o', pat_empty none = true -> writable p -> names_unique o -> fm_sorted (oi_locked o) ->
  map pi_name (oi_free (sp_info p)) = map pi_name (oi_free o) ->
  Forall (fun pi => (0 < B2R (pi_std pi))%R) (oi_free (sp_info p)) ->
  Forall2 (fun q m => rounded (pi_min q) = pi_min q /\ rounded (pi_max q) = pi_max q /\ is_within_range q m = true) (oi_free o) (if best then sp_values p else map pi_mean (oi_free (sp_info p))) ->
  fst (import_mean_std o (Some (write_point p)) (resume_settings none best)) = o' ->
  Forall (fun q => is_valid q = true) (oi_free o').
Proof.
  intros none best p o o' HN W U S EN HS HB EO. destruct (C73_same_parameters none best p o HN W U S EN) as (o2 & E & _ & E1 & E2 & E3 & E4 & E5).
  { apply Forall_forall. intros pi H. rewrite Forall_forall in HS. apply Rgt_not_eq, HS, H. }
  rewrite E in EO. cbn [fst] in EO. subst o2. pose proof W as (_ & _ & _ & Hok & _).
  apply Forall_forall. intros q' Hq. apply In_nth_error in Hq as (i & Eq').
  assert (N : forall {A B} (f : A -> B) l j x, nth_error l j = Some x -> nth_error (map f l) j = Some (f x)) by (intros; now apply map_nth_error).
  assert (L : length (oi_free o') = length (oi_free o)) by (apply (f_equal (@length _)) in E1; now rewrite !map_length in E1).
  assert (Hi : i < length (oi_free o)) by (rewrite <- L; apply nth_error_Some; congruence).
  destruct (nth_error (oi_free o) i) as [q|] eqn:Eq; [|apply nth_error_None in Eq; lia].
  pose proof (N _ _ pi_min _ _ _ Eq') as M1. rewrite E2, (N _ _ pi_min _ _ _ Eq) in M1. injection M1 as M1.
  pose proof (N _ _ pi_max _ _ _ Eq') as M2. rewrite E3, (N _ _ pi_max _ _ _ Eq) in M2. injection M2 as M2.
  assert (F2 : forall {A B} (R : A -> B -> Prop) l l', Forall2 R l l' -> forall j a, nth_error l j = Some a -> exists b, nth_error l' j = Some b /\ R a b).
  { clear. intros A B R l l'. induction 1 as [|x y l l' H _ IH]; intros [|j] a E; try discriminate; [injection E as ->; eexists; split; [reflexivity|exact H]|exact (IH j a E)]. }
  destruct (F2 _ _ _ _ _ E4 i _ (N _ _ pi_mean _ _ _ Eq')) as (m & A1 & A2).
  destruct (F2 _ _ _ _ _ HB i q Eq) as (m' & A3 & B1 & B2 & A4). assert (m' = m) by congruence. subst m'.
  destruct (F2 _ _ _ _ _ E5 i _ (N _ _ pi_std _ _ _ Eq')) as (sd & A5 & A6).
  rewrite nth_error_map in A5. destruct (nth_error (oi_free (sp_info p)) i) as [pi|] eqn:Ep; [|discriminate]. cbn [option_map] in A5. injection A5 as <-.
  pose proof (C14_rounded_stays_within_8_digit_range q m B1 B2 A4) as RW. unfold is_within_range in RW. rewrite M1, M2 in *.
  apply andb_prop in RW as [R1 R2]. unfold eight_digits, same_number in A2, A6.
  destruct (Hok pi (nth_error_In _ _ Ep)) as (_ & _ & Fs).
  assert (SP : fle fzero (rounded (pi_std pi)) = true).
  { destruct (C14_projection fzero (pi_std pi)) as (_ & Mo & _). assert (HP : fle fzero (pi_std pi) = true).
    { apply fle_B2R; [reflexivity|exact Fs|]. change (B2R fzero) with 0%R. rewrite Forall_forall in HS. apply Rlt_le, HS. exact (nth_error_In _ _ Ep). }
    specialize (Mo eq_refl Fs HP). exact Mo. }
  unfold fge in *. unfold is_valid, fge.
  rewrite (same_le_r _ _ _ A2 R1), (same_le_l _ _ _ A2 R2), (same_le_r _ _ _ A6 SP), (same_self _ _ A2), (fle_trans _ _ _ R1 R2). reflexivity.
Qed.

(** ** Resuming MES and EVA *)
Lemma es_std_var L (s : es_state (numF (sl_libm L)) (sl_rng L)) : (es_std s : list f64) = map fsqrt (es_var s : list f64).
Proof. reflexivity. Qed.
Lemma changed_fields info info' mean std : only_mean_std_changed info info' mean std ->
  map pi_name (oi_free info') = map pi_name (oi_free info) /\ map pi_mean (oi_free info') = mean /\ map pi_std (oi_free info') = std /\ oi_dim info' = oi_dim info.
Proof.
  intros (H1 & _ & _ & _ & _ & _ & _ & H2 & H3). split; [exact H1|]. split; [exact H2|]. split; [exact H3|].
  apply (f_equal (@length _)) in H1. now rewrite !map_length in H1.
Qed.
Lemma written_snapshot info info' mean std point : only_mean_std_changed info info' mean std -> oi_dim info <> 0 ->
  NoDup (map pi_name (oi_free info)) -> Forall (fun p => file_name (pi_name p)) (oi_free info) ->
  Forall (fun x => is_finite x = true) mean -> Forall (fun x => is_finite x = true) std ->
  length point = oi_dim info -> Forall (fun x => is_finite x = true) point ->
  writable {| sp_info := info'; sp_values := point |}.
Proof.
  intros H D N FN FM FS LP FP. destruct (changed_fields _ _ _ _ H) as (H1 & H2 & H3 & H4). unfold writable. cbn [sp_info sp_values].
  split; [rewrite H4; exact LP|]. split; [rewrite H4; exact D|]. split; [now rewrite H1|]. split.
  - intros pi Hp. split; [|split].
    + assert (X : In (pi_name pi) (map pi_name (oi_free info))) by (rewrite <- H1; now apply in_map). apply in_map_iff in X as (q & <- & X). rewrite Forall_forall in FN. now apply FN.
    + rewrite Forall_forall in FM. apply FM. rewrite <- H2. now apply in_map.
    + rewrite Forall_forall in FS. apply FS. rewrite <- H3. now apply in_map.
  - now apply Forall_forall.
Qed.
(** A standard deviation that is neither extremely small nor extremely large. *)
Definition moderate (x : f64) : Prop := is_finite x = true /\ (bpow radix2 (-499) <= B2R x <= bpow radix2 499)%R.
Lemma moderate_sqrt t x : moderate x -> eight_digits t x -> fsqrt (fmul t t) = t.
Proof.
  intros [F [L H]] E. assert (P : (0 < B2R x)%R) by (pose proof (bpow_gt_0 radix2 (-499)); lra).
  pose proof (rounded_rel_error x F) as RE. rewrite Rabs_pos_eq in RE by lra.
  assert (B : (bpow radix2 (-1022) <= bpow radix2 (-499))%R) by (apply bpow_le; lia). specialize (RE ltac:(lra)). apply Rabs_le_inv in RE.
  unfold eight_digits, same_number in E. assert (FT : is_finite t = true).
  { pose proof (rounded_finite x) as FR. destruct t as [s|s| |s m e Hb]; try reflexivity; exfalso; [|cbn in E; discriminate].
    unfold feq in E. destruct (rounded x); try discriminate; destruct s; cbn in E; discriminate. }
  apply (feq_B2R t (rounded x) FT (rounded_finite x)) in E.
  assert (B5 : bpow radix2 (-499) = (2 * bpow radix2 (-500))%R) by (change (-499)%Z with (1 + -500)%Z; rewrite bpow_plus; reflexivity).
  assert (B6 : bpow radix2 500 = (2 * bpow radix2 499)%R) by (change 500%Z with (1 + 499)%Z; rewrite bpow_plus; reflexivity).
  pose proof (bpow_gt_0 radix2 (-500)) as Q. pose proof (bpow_gt_0 radix2 499) as Q'.
  apply fsqrt_square; [exact FT| |]; rewrite E; lra.
Qed.
Lemma moderate_nonzero x : moderate x -> B2R x <> 0%R.
Proof. intros [_ [L _]]. pose proof (bpow_gt_0 radix2 (-499)). lra. Qed.

(** At any time of any run of MES or EVA: if the snapshot is written to a par file, the file is imported into the original
    objective_info and a new optimizer is constructed, then its means and standard deviations - those it reports and samples with -
    are the current ones of the interrupted run, to 8 digits; and it searches within the same bounds. *)
Theorem C73_es : forall none L E lambda mu offset offset_stdev component o g evals point lambda' g',
  let s := snd (fst (full_steps (es_sampler L (e_info E) lambda mu offset offset_stdev component) E o (es_start L (e_info E) lambda g) evals)) in
  pat_empty none = true -> names_unique (e_info E) -> fm_sorted (oi_locked (e_info E)) -> oi_dim (e_info E) <> 0 -> Forall (fun p => file_name (pi_name p)) (oi_free (e_info E)) ->
  length point = oi_dim (e_info E) -> Forall (fun x => is_finite x = true) point ->
  Forall (fun x => is_finite x = true) (es_mean s : list f64) -> Forall moderate (es_std s : list f64) ->
  exists info o', es_updated_info L (e_info E) s = Ok info /\
    import_mean_std (e_info E) (Some (write_point {| sp_info := info; sp_values := point |})) (resume_settings none false) = (o', Ok (oi_dim (e_info E), 0)) /\
    let s' := es_start L o' lambda' g' in
    Forall2 eight_digits (es_mean s' : list f64) (es_mean s : list f64) /\ Forall2 eight_digits (es_std s' : list f64) (es_std s : list f64) /\
    bounds_of o' = bounds_of (e_info E).
Proof.
  intros none L E lambda mu offset offset_stdev component o g evals point lambda' g' s HN U S D FN LP FP FM FS.
  destruct (C48_es L E lambda mu offset offset_stdev component o g evals) as (info & E1 & HC). fold s in E1, HC. 
  assert (FS' : Forall (fun x => is_finite x = true) (map fsqrt (es_var s : list f64))) by (apply Forall_forall; intros x Hx; rewrite Forall_forall in FS; now apply FS).
  pose proof (written_snapshot _ _ _ _ point HC D (proj1 U) FN FM FS' LP FP) as W. destruct (changed_fields _ _ _ _ HC) as (H1 & H2 & H3 & H4).
  destruct (C73_same_parameters none false _ (e_info E) HN W U S) as (o' & I1 & _ & I2 & I3 & I4 & I5 & I6); cbn [sp_info sp_values] in *.
  { exact H1. }
  { apply Forall_forall. intros pi Hp. apply moderate_nonzero. rewrite Forall_forall in FS. apply FS. rewrite es_std_var. rewrite <- H3. now apply in_map. }
  exists info, o'. split; [exact E1|]. split; [exact I1|]. destruct (C47_start_doubles L o' lambda' g') as (S1 & S2 & _).
  cbn zeta. rewrite S1. rewrite es_std_var, S2, map_map. rewrite H2 in I5. rewrite H3 in I6. split; [exact I5|]. split.
  - assert (X : map (fun p => fsqrt (fmul (pi_std p) (pi_std p))) (oi_free o') = map pi_std (oi_free o')).
    { apply map_ext_in. intros q Hq. apply (in_map pi_std) in Hq. apply In_nth_error in Hq as (i & Hq).
      assert (F2 : forall l l', Forall2 eight_digits l l' -> forall j a, nth_error l j = Some a -> exists b, nth_error l' j = Some b /\ eight_digits a b).
      { clear. intros l l'. induction 1 as [|x y l l' H _ IH]; intros [|j] a E; try discriminate; [injection E as ->; eexists; split; [reflexivity|exact H]|exact (IH j a E)]. }
      destruct (F2 _ _ I6 i _ Hq) as (b & Hb & Eb). apply (moderate_sqrt _ b); [|exact Eb]. rewrite Forall_forall in FS. apply FS. exact (nth_error_In _ _ Hb). }
    rewrite X. exact I6.
  - unfold bounds_of. assert (G : forall l l' : list par_info, map pi_min l = map pi_min l' -> map pi_max l = map pi_max l' -> map (fun p => (pi_min p, pi_max p)) l = map (fun p => (pi_min p, pi_max p)) l').
    { clear. induction l as [|x l IH]; intros [|y l'] A B; try discriminate; [reflexivity|]. cbn [map] in *. injection A as A1 A2. injection B as B1 B2. rewrite A1, B1. f_equal. now apply IH. }
    now apply G.
Qed.

(** A new MES or EVA optimizer reports exactly the means and standard deviations it was given (cf. C48). *)
Theorem C73_new_es : forall L info lambda g, Forall (fun p => moderate (pi_std p) \/ pi_std p = fzero) (oi_free info) ->
  exists info', es_updated_info L info (es_start L info lambda g) = Ok info' /\
    only_mean_std_changed info info' (map pi_mean (oi_free info)) (map pi_std (oi_free info)).
Proof.
  intros L info lambda g H. destruct (C47_start_doubles L info lambda g) as (S1 & S2 & _). unfold es_updated_info. rewrite es_std_var, S1, S2, map_map.
  replace (map (fun x => fsqrt (fmul (pi_std x) (pi_std x))) (oi_free info)) with (map pi_std (oi_free info)).
  - apply set_mean_std_changes; now rewrite map_length.
  - apply map_ext_in. intros p Hp. rewrite Forall_forall in H. destruct (H p Hp) as [[F [A B]]| ->]; [|f64_compute]. symmetry.
    assert (X : bpow radix2 500 = (2 * bpow radix2 499)%R) by (change 500%Z with (1 + 499)%Z; rewrite bpow_plus; reflexivity).
    assert (Y : bpow radix2 (-499) = (2 * bpow radix2 (-500))%R) by (change (-499)%Z with (1 + -500)%Z; rewrite bpow_plus; reflexivity).
    pose proof (bpow_gt_0 radix2 499). pose proof (bpow_gt_0 radix2 (-500)). apply fsqrt_square; [exact F|lra|lra].
Qed.

(** ** Resuming CMA *)
(** At any time of any run of CMA: the par file of its snapshot, imported into the original objective_info, gives a
    description whose standard deviations are the current ones of the interrupted run (C48) and whose means are the current ones;
    a CMA optimizer constructed from it starts at these means.  (The correlations are not in the file.) *)
Theorem C73_cma : forall none L E label opt device clock P st0 o evals point, @eigen_sized (numF (cl_libm L)) (cl_eigen L) P ->
  cma_create L (e_info E) label opt device clock = Ok (P, st0) ->
  let s := snd (fst (full_steps (cma_sampler L (e_info E) None P) E o st0 evals)) in
  let std := @current_std (numF (cl_libm L)) _ P s in
  pat_empty none = true -> names_unique (e_info E) -> fm_sorted (oi_locked (e_info E)) -> oi_dim (e_info E) <> 0 -> Forall (fun p => file_name (pi_name p)) (oi_free (e_info E)) ->
  length point = oi_dim (e_info E) -> Forall (fun x => is_finite x = true) point ->
  Forall (fun x => is_finite x = true) (s_mean s : list f64) -> Forall (fun x => is_finite x = true /\ B2R x <> 0%R) (std : list f64) ->
  exists info o', cma_updated_info L (e_info E) None P s = Ok info /\
    import_mean_std (e_info E) (Some (write_point {| sp_info := info; sp_values := point |})) (resume_settings none false) = (o', Ok (oi_dim (e_info E), 0)) /\
    Forall2 eight_digits (map pi_mean (oi_free o')) (s_mean s : list f64) /\ Forall2 eight_digits (map pi_std (oi_free o')) (std : list f64) /\
    bounds_of o' = bounds_of (e_info E) /\
    forall label' opt' device' clock' P' st', cma_create L o' label' opt' device' clock' = Ok (P', st') ->
      p_N P' = oi_dim (e_info E) /\ Forall2 eight_digits (s_mean st' : list f64) (s_mean s : list f64).
Proof.
  intros none L E label opt device clock P st0 o evals point HE HC s std HN U S D FN LP FP FM FS.
  destruct (C48_cma_without_transformer L E label opt device clock P st0 o evals HE HC) as (info & E1 & HO). fold s in E1, HO. fold std in HO.
  assert (FS' : Forall (fun x => is_finite x = true) (std : list f64)) by (apply Forall_forall; intros x Hx; rewrite Forall_forall in FS; now apply FS).
  pose proof (written_snapshot _ _ _ _ point HO D (proj1 U) FN FM FS' LP FP) as W. destruct (changed_fields _ _ _ _ HO) as (H1 & H2 & H3 & H4).
  destruct (C73_same_parameters none false _ (e_info E) HN W U S) as (o' & I1 & _ & I2 & I3 & I4 & I5 & I6); cbn [sp_info sp_values] in *.
  { exact H1. }
  { apply Forall_forall. intros pi Hp. rewrite Forall_forall in FS. apply FS. change (In (pi_std pi) std). rewrite <- H3. now apply in_map. }
  rewrite H2 in I5. rewrite H3 in I6. exists info, o'. split; [exact E1|]. split; [exact I1|]. split; [exact I5|]. split; [exact I6|].
  assert (HB : bounds_of o' = bounds_of (e_info E)).
  { unfold bounds_of. assert (G : forall l l' : list par_info, map pi_min l = map pi_min l' -> map pi_max l = map pi_max l' -> map (fun p => (pi_min p, pi_max p)) l = map (fun p => (pi_min p, pi_max p)) l').
    { clear. induction l as [|x l IH]; intros [|y l'] A B; try discriminate; [reflexivity|]. cbn [map] in *. injection A as A1 A2. injection B as B1 B2. rewrite A1, B1. f_equal. now apply IH. }
    now apply G. }
  split; [exact HB|]. intros label' opt' device' clock' P' st' HC'. apply cma_create_par in HC' as (N' & _ & _ & ->). split.
  - rewrite N'. unfold oi_dim. apply (f_equal (@length _)) in I2. now rewrite !map_length in I2.
  - unfold cma_init, pars_of. cbn [s_mean]. rewrite map_map. exact I5.
Qed.

(** ** From the file on disk *)
(** With the file reporter: the last par file it wrote holds best_point(); imported with use_best_as_mean, the new means are
    exactly best_point(). *)
Theorem C73_best_file : forall none F E extra h r infos fs0, pat_empty none = true -> reporting E extra h r infos ->
  let c := o_core (after E extra h) in
  c_best_fit c <> worst_fitness (e_info E) ->
  (forall k info, infos k = Ok info -> map pi_name (oi_free info) = map pi_name (oi_free (e_info E)) /\
     forall pi, In pi (oi_free info) -> file_name (pi_name pi) /\ is_finite (pi_mean pi) = true /\ is_finite (pi_std pi) = true /\ B2R (pi_std pi) <> 0%R) ->
  names_unique (e_info E) -> fm_sorted (oi_locked (e_info E)) ->
  exists st file o', reported F E fs0 infos (calls_of E extra h r) = Ok st /\
    import_mean_std (e_info E) (fr_files st file) (resume_settings none true) = (o', Ok (oi_dim (e_info E), 0)) /\
    map pi_name (oi_free o') = map pi_name (oi_free (e_info E)) /\ bounds_of o' = bounds_of (e_info E) /\
    Forall2 same_number (map pi_mean (oi_free o')) (c_best_pt c).
Proof.
  intros none F E extra h r infos fs0 HN HR c Hb Hinfo U S.
  destruct (C52_best_point_is_on_disk F E extra h r infos fs0 HR) as [H|(st & file & k & info & E1 & E2 & E3 & E4)]; [contradiction|]. fold c in E4.
  destruct (Hinfo k info E2) as [Hn Hp]. pose proof HR as (Hd & Hw & _).
  assert (Hr : forall v, In v (c_best_pt c) -> is_finite v = true /\ rounded v = v).
  { intros v Hv. destruct (C19_best_is_best_ever E extra h Hd Hw) as [[(_ & HB)|(p & f & _ & _ & HB & _)] _]; fold c in HB; rewrite HB in Hv; apply in_map_iff in Hv as (x & <- & _); (split; [apply rounded_finite|apply rounded_idem]). }
  assert (Hlen : length (c_best_pt c) = oi_dim (e_info E)).
  { pose proof (last_new_best_point E extra h r Hd Hw ltac:(apply HR)) as H1. pose proof (new_best_last (calls_of E extra h r)) as H2.
    destruct (rev (new_best_views (calls_of E extra h r))) as [|v t]; [contradiction|]. destruct H1 as [H1 _], H2 as (pre & p & f & mid & H2 & _).
    assert (HL : calls_of E extra h r = (pre ++ (ENewBest p f, v) :: mid) ++ []) by now rewrite app_nil_r.
    pose proof (reporting_orderly E extra h r infos _ [] HR HL pre _ mid eq_refl) as (_ & _ & Hd2 & _). cbn [snd] in Hd2. fold c in H1. rewrite <- H1, map_length. exact Hd2. }
  assert (W : writable {| sp_info := info; sp_values := c_best_pt c |}).
  { split; [cbn; congruence|]. split; [cbn; congruence|]. split; [cbn; rewrite Hn; apply U|]. split; [intros pi Hi; destruct (Hp pi Hi) as (A & B & C & _); auto|]. intros v Hv. now apply Hr. }
  destruct (C73_same_parameters none true _ (e_info E) HN W U S Hn) as (o' & I1 & _ & I2 & I3 & I4 & I5 & _).
  { apply Forall_forall. intros pi Hi. now apply (Hp pi Hi). }
  cbn [sp_info sp_values] in *. exists st, file, o'. split; [exact E1|]. rewrite E4. split; [exact I1|]. split; [exact I2|]. split.
  { unfold bounds_of. assert (G : forall l l' : list par_info, map pi_min l = map pi_min l' -> map pi_max l = map pi_max l' -> map (fun p => (pi_min p, pi_max p)) l = map (fun p => (pi_min p, pi_max p)) l').
    { clear. induction l as [|x l IH]; intros [|y l'] A B; try discriminate; [reflexivity|]. cbn [map] in *. injection A as A1 A2. injection B as B1 B2. rewrite A1, B1. f_equal. now apply IH. }
    now apply G. }
  assert (X : forall l l', Forall2 eight_digits l l' -> (forall v, In v l' -> rounded v = v) -> Forall2 same_number l l').
  { clear. induction 1 as [|a b l l' H _ IH]; intros R; constructor; [|apply IH; intros v Hv; apply R; now right]. unfold eight_digits in H. rewrite (R b (or_introl eq_refl)) in H. exact H. }
  apply X; [exact I5|]. intros v Hv. now apply Hr.
Qed.

(** ** Concrete cases *)
(** A file with parameters x and y (standard deviation zero), imported into a description with the parameters in the other order. *)
Definition between_powers (x : f64) : bool := match x with B754_finite false m e _ => ((-499 <=? e) && (e + 53 <=? 499) && (Zpos m <=? 2 ^ 53))%Z | _ => false end.
Lemma moderate_by x : between_powers x = true -> moderate x.
Proof.
  destruct x as [s|s| |[] m e Hb]; try discriminate. cbn [between_powers]. intros H. apply andb_prop in H as [H H3]. apply andb_prop in H as [H1 H2].
  apply Z.leb_le in H1, H2, H3. split; [reflexivity|]. cbn [B2R]. unfold F2R. cbn [Fnum Fexp cond_Zopp].
  pose proof (bpow_gt_0 radix2 e) as P. pose proof (bpow_le radix2 _ _ H1) as B1. pose proof (bpow_le radix2 _ _ H2) as B2. rewrite bpow_plus in B2.
  assert (M1 : (1 <= IZR (Zpos m))%R) by (apply IZR_le; lia). assert (M2 : (IZR (Zpos m) <= bpow radix2 53)%R) by (rewrite <- (IZR_Zpower radix2) by lia; apply IZR_le; exact H3).
  split; [|nra]. apply Rle_trans with (1 * bpow radix2 e)%R; [lra|]. apply Rmult_le_compat_r; lra.
Qed.
Definition ex_y m s : par_info := {| pi_name := "y"; pi_mean := m; pi_std := s; pi_min := fofZ (-9); pi_max := fofZ 9 |}.
Definition ex_file : search_point :=
  {| sp_info := {| oi_free := [ {| pi_name := "x"; pi_mean := flit 75 (-2); pi_std := flit 5 (-1); pi_min := fofZ 0; pi_max := fofZ 1 |}; ex_y (fofZ 2) (fofZ 0) ];
                   oi_locked := []; oi_minimize := true; oi_target := fzero; oi_name := "" |}; sp_values := [flit 7 (-1); flit 25 (-1)] |}.
Definition ex_fresh : obj_info := {| oi_free := [ex_y (fofZ 1) (fofZ 3); ex_par]; oi_locked := []; oi_minimize := false; oi_target := fofZ 4; oi_name := "f" |}.
Definition ex_resumed (best : bool) : obj_info := fst (import_mean_std ex_fresh (Some (write_point ex_file)) (resume_settings P0 best)).
Example C73_nonvacuous : writable ex_file /\ names_unique ex_fresh /\
  Permutation (map pi_name (oi_free (sp_info ex_file))) (map pi_name (oi_free ex_fresh)) /\
  map pi_name (oi_free (ex_resumed false)) = ["x"%string] /\
  f64s_same (map pi_mean (oi_free (ex_resumed false))) [flit 75 (-2)] = true /\ f64s_same (map pi_mean (oi_free (ex_resumed true))) [flit 7 (-1)] = true /\
  f64s_same (map pi_std (oi_free (ex_resumed false))) [flit 5 (-1)] = true /\ f64s_same (map pi_min (oi_free (ex_resumed false))) [fofZ (-5)] = true /\
  match try_get_locked (ex_resumed false) "y" with Some v => f64_same v (flit 25 (-1)) | None => false end = true /\
  (* a run of MES that has moved *)
  names_unique ex_info /\ Forall (fun p => file_name (pi_name p)) (oi_free ex_info) /\
  Forall (fun x => is_finite x = true) (es_mean (snd (fst (ex_run 1))) : list f64) /\ Forall moderate (es_std (snd (fst (ex_run 1))) : list f64).
Proof.
  assert (NX : file_name "x") by (split; [discriminate|reflexivity]).
  assert (NY : file_name "y") by (split; [discriminate|reflexivity]).
  assert (NDX : NoDup ["x"%string]) by (constructor; [intros []|constructor]).
  split.
  { split; [reflexivity|]. split; [discriminate|]. split.
    - constructor; [intros [H|[]]; discriminate H|constructor; [intros []|constructor]].
    - split.
      + intros pi [<-|[<-|[]]]; (split; [assumption|]; split; vm_compute; reflexivity).
      + intros v [<-|[<-|[]]]; vm_compute; reflexivity. }
  split.
  { split; [constructor; [intros [H|[]]; discriminate H|exact NDX]|]. split; [reflexivity|constructor]. }
  split; [apply perm_swap|]. split; [vm_compute; reflexivity|]. split; [vm_compute; reflexivity|]. split; [vm_compute; reflexivity|]. split; [vm_compute; reflexivity|].
  split; [vm_compute; reflexivity|]. split; [vm_compute; reflexivity|].
  split; [split; [exact NDX|split; [reflexivity|constructor]]|]. split; [constructor; [exact NX|constructor]|].
  split.
  - apply Forall_forall. apply forallb_forall. vm_compute. reflexivity.
  - apply Forall_forall. intros x Hx. apply moderate_by. revert x Hx. apply forallb_forall. vm_compute. reflexivity.
Qed.
