(** * C01-C03: single parameters. *)
From Coq Require Import ZArith Bool Lia.
From Flocq Require Import BinarySingleNaN.
From Verif Require Import Prelude Flt FltFacts Round8 Round8Facts ShowNum ShowNumFacts PropNode ParInfo ParInfoFacts.

(** C01.  [fle] is the IEEE comparison [<=], false as soon as one side is NaN. *)
Theorem C01_par_info_admits_exactly_valid : forall name mean std min max,
  (make_par_info name mean std min max
     = Ok {| pi_name := name; pi_mean := mean; pi_std := std; pi_min := min; pi_max := max |}
   <-> fle fzero std = true /\ fle min mean = true /\ fle mean max = true) /\
  ((exists what, make_par_info name mean std min max = Throw what)
   <-> ~ (fle fzero std = true /\ fle min mean = true /\ fle mean max = true)) /\
  (forall p, make_par_info name mean std min max = Ok p ->
     p = {| pi_name := name; pi_mean := mean; pi_std := std; pi_min := min; pi_max := max |} /\
     fisnan mean = false /\ fisnan std = false /\ fisnan min = false /\ fisnan max = false).
Proof.
  intros. destruct (make_par_info_iff name mean std min max) as [H1 H2]. split; [exact H1|]. split; [exact H2|].
  intros p Hp. apply make_par_info_Ok in Hp as [-> Hv]. apply is_valid_iff in Hv as (V1 & V2 & V3).
  cbn [pi_std pi_min pi_mean pi_max] in *.
  apply fle_not_nan in V1, V2, V3. tauto.
Qed.

Example C01_nonvacuous :
  make_par_info "a" (fofZ 1) (flit 5 (-1)) (fofZ 0) (fofZ 1)
  = Ok {| pi_name := "a"; pi_mean := fofZ 1; pi_std := flit 5 (-1); pi_min := fofZ 0; pi_max := fofZ 1 |} /\
  (exists w, make_par_info "a" (fofZ 2) (flit 5 (-1)) (fofZ 0) (fofZ 1) = Throw w) /\
  (exists w, make_par_info "a" fnan (flit 5 (-1)) (fofZ 0) (fofZ 1) = Throw w).
Proof.
  split; [apply ok_par_info_same_eq; vm_compute; reflexivity|].
  split; apply throws_eq; vm_compute; reflexivity.
Qed.

(** C02.  For every reader of numbers, every node (text or children), every options. *)
Theorem C02_parsed_parameter_is_valid : forall rd name pn opt p,
  parse_par_info rd name pn opt = Ok p ->
  pi_name p = name /\
  flt (pi_min p) (pi_max p) = true /\ fle (pi_min p) (pi_mean p) = true /\
  fle (pi_mean p) (pi_max p) = true /\ fle fzero (pi_std p) = true /\
  fisnan (pi_mean p) = false /\ fisnan (pi_std p) = false /\
  fisnan (pi_min p) = false /\ fisnan (pi_max p) = false.
Proof.
  intros rd n pn o p H. apply parse_valid in H as (H0 & H1 & H2 & H3 & H4).
  pose proof (fle_not_nan _ _ H2). pose proof (fle_not_nan _ _ H3). pose proof (fle_not_nan _ _ H4). tauto.
Qed.

(** Reading always ends: a value or an exception, for every text. *)
Theorem C02_parsing_terminates : forall name pn opt, par_info_of_node name pn opt <> Undef.
Proof. exact par_info_of_node_total. Qed.

Definition text_node (t : text) : prop_node := PN (string_of_list_ascii t) [].
Definition mk n m s lo hi := {| pi_name := n; pi_mean := m; pi_std := s; pi_min := lo; pi_max := hi |}.

Lemma val_not_nan u : fisnan (numeral_val u) = false.
Proof. apply dec_to_f64_not_nan. Qed.

Lemma flt_feq_false x y : flt x y = true -> feq y x = false.
Proof. intros H. fsolve. Qed.

(** The three pairs of brackets of a range. *)
Definition brackets (o c : ascii) : Prop :=
  (o = "["%char /\ c = "]"%char) \/ (o = "<"%char /\ c = ">"%char) \/ (o = "("%char /\ c = ")"%char).
Lemma brackets_closing o c : brackets o c -> opening o /\ c = closing o.
Proof. unfold brackets, opening. intros [[-> ->]|[[-> ->]|[-> ->]]]; (split; [tauto|reflexivity]). Qed.
Lemma opening_brackets o : opening o -> brackets o (closing o).
Proof. unfold brackets, opening. intros [->|[-> | ->]]; (cbn; tauto). Qed.

(** C03.  Numerals ([show_numeral u], value [numeral_val u]) range over all texts
    [-]digits[.digits][e(+|-)digits]. *)
Theorem C03_full_form : forall name opt o c m s lo hi,
  brackets o c -> numeral_ok m -> numeral_ok s -> numeral_ok lo -> numeral_ok hi ->
  flt fzero (numeral_val s) = true -> flt (numeral_val lo) (numeral_val hi) = true ->
  fle (numeral_val lo) (numeral_val m) = true -> fle (numeral_val m) (numeral_val hi) = true ->
  par_info_of_node name (text_node
    (show_numeral m ++ "~"%char :: show_numeral s ++ o :: show_numeral lo ++ ","%char :: show_numeral hi ++ [c])) opt
  = Ok (mk name (numeral_val m) (numeral_val s) (numeral_val lo) (numeral_val hi)).
Proof.
  intros n opt o c m s lo hi Ho Hm Hs Hlo Hhi Vs Vr V1 V2. apply brackets_closing in Ho as [Ho ->].
  unfold text_node. rewrite node_text.
  erewrite parse_mean; [|exact Hm| |reflexivity|cbn [ps_rest st_init]; reflexivity]; [|reflexivity].
  cbn [st_init ps_mean fisnan fnan is_nan ps_std ps_min ps_max ps_set].
  erewrite parse_std; [|exact Hs| |reflexivity|cbn [ps_rest]; reflexivity]; [|destruct Ho as [->|[->| ->]]; reflexivity].
  cbn [ps_mean ps_std ps_min ps_max ps_set].
  change (feq fzero fzero) with true. cbn iota.
  erewrite (parse_range n _ o lo hi (closing o) []); [|exact Ho|exact Hlo|exact Hhi|reflexivity| |reflexivity];
    [|destruct Ho as [->|[->| ->]]; reflexivity].
  rewrite Ascii.eqb_refl, parse_end by reflexivity.
  cbn [obind ps_mean ps_std ps_min ps_max ps_set].
  unfold finish_par_info.
  assert (flt (numeral_val m) (numeral_val lo) = false) as -> by (clear - V1; fsolve).
  assert (fgt (numeral_val m) (numeral_val hi) = false) as -> by (clear - V2; fsolve).
  assert (fge (numeral_val lo) (numeral_val hi) = false) as -> by (clear - Vr; fsolve).
  rewrite val_not_nan. cbn [orb andb error_if obind].
  rewrite ?val_not_nan, ?(flt_feq_false _ _ Vs). cbn [orb andb error_if obind]. rewrite ?val_not_nan, ?(flt_feq_false _ _ Vs).
  match goal with |- context [if ?b then _ else _] => destruct b end;
  (apply make_par_info_Ok; split; [reflexivity|]; apply is_valid_iff; cbn [mk pi_std pi_mean pi_min pi_max];
   repeat split; auto; clear - Vs; fsolve).
Qed.

Theorem C03_constant : forall name opt m, numeral_ok m ->
  flt (opt_lower opt) (opt_upper opt) = true ->
  fle (opt_lower opt) (numeral_val m) = true -> fle (numeral_val m) (opt_upper opt) = true ->
  par_info_of_node name (text_node (show_numeral m)) opt
  = Ok (mk name (numeral_val m) fzero (opt_lower opt) (opt_upper opt)).
Proof.
  intros n opt m Hm Vr V1 V2. unfold text_node. rewrite node_text.
  erewrite (parse_mean n _ m []); [|exact Hm|reflexivity|reflexivity|cbn [ps_rest st_init]; now rewrite app_nil_r].
  cbn [st_init ps_mean fisnan fnan is_nan ps_std ps_min ps_max ps_set].
  rewrite parse_end by reflexivity. cbn [obind ps_mean ps_std ps_min ps_max ps_set].
  unfold finish_par_info.
  assert (flt (numeral_val m) (opt_lower opt) = false) as -> by (clear - V1; fsolve).
  assert (fgt (numeral_val m) (opt_upper opt) = false) as -> by (clear - V2; fsolve).
  assert (fge (opt_lower opt) (opt_upper opt) = false) as -> by (clear - Vr; fsolve).
  rewrite val_not_nan. cbn [orb andb error_if obind].
  assert (fne (opt_lower opt) (opt_lower opt) = false) as -> by (clear - V1; unfold fne; fsolve).
  cbn [andb]. apply make_par_info_Ok; split; [reflexivity|]; apply is_valid_iff; cbn [mk pi_std pi_mean pi_min pi_max];
   repeat split; auto.
Qed.

Theorem C03_mean_std : forall name opt m s, numeral_ok m -> numeral_ok s ->
  flt (opt_lower opt) (opt_upper opt) = true -> fle fzero (numeral_val s) = true ->
  fle (opt_lower opt) (numeral_val m) = true -> fle (numeral_val m) (opt_upper opt) = true ->
  par_info_of_node name (text_node (show_numeral m ++ "~"%char :: show_numeral s)) opt
  = Ok (mk name (numeral_val m) (numeral_val s) (opt_lower opt) (opt_upper opt)).
Proof.
  intros n opt m s Hm Hs Vr Vs V1 V2. unfold text_node. rewrite node_text.
  erewrite parse_mean; [|exact Hm| |reflexivity|cbn [ps_rest st_init]; reflexivity]; [|reflexivity].
  cbn [st_init ps_mean fisnan fnan is_nan ps_std ps_min ps_max ps_set].
  erewrite (parse_std n _ s []); [|exact Hs|reflexivity|reflexivity|cbn [ps_rest]; now rewrite app_nil_r].
  cbn [ps_mean ps_std ps_min ps_max ps_set].
  change (feq fzero fzero) with true. cbn iota.
  rewrite parse_end by reflexivity. cbn [obind ps_mean ps_std ps_min ps_max ps_set].
  unfold finish_par_info.
  assert (flt (numeral_val m) (opt_lower opt) = false) as -> by (clear - V1; fsolve).
  assert (fgt (numeral_val m) (opt_upper opt) = false) as -> by (clear - V2; fsolve).
  assert (fge (opt_lower opt) (opt_upper opt) = false) as -> by (clear - Vr; fsolve).
  rewrite val_not_nan. cbn [orb andb error_if obind].
  assert (fne (opt_lower opt) (opt_lower opt) = false) as -> by (clear - V1; unfold fne; fsolve).
  cbn [andb]. apply make_par_info_Ok; split; [reflexivity|]; apply is_valid_iff; cbn [mk pi_std pi_mean pi_min pi_max];
   repeat split; auto.
Qed.

(** A bare range: midpoint and a quarter of the range, as doubles (then checked). *)
Theorem C03_range_only : forall name opt o c lo hi, brackets o c -> numeral_ok lo -> numeral_ok hi ->
  flt (numeral_val lo) (numeral_val hi) = true ->
  feq (numeral_val lo) (opt_lower opt) = false -> feq (numeral_val hi) (opt_upper opt) = false ->
  par_info_of_node name (text_node (o :: show_numeral lo ++ ","%char :: show_numeral hi ++ [c])) opt
  = make_par_info name
      (fadd (numeral_val lo) (fdiv (fsub (numeral_val hi) (numeral_val lo)) (fofZ 2)))
      (fdiv (fsub (numeral_val hi) (numeral_val lo)) (fofZ 4))
      (numeral_val lo) (numeral_val hi).
Proof.
  intros n opt o c lo hi Ho Hlo Hhi Vr Vl Vh. apply brackets_closing in Ho as [Ho ->]. unfold text_node. rewrite node_text.
  erewrite (parse_range n _ o lo hi (closing o) []); [|exact Ho|exact Hlo|exact Hhi|reflexivity| |reflexivity];
    [|destruct Ho as [->|[->| ->]]; reflexivity].
  rewrite Ascii.eqb_refl, parse_end by reflexivity.
  cbn [obind ps_mean ps_std ps_min ps_max ps_set st_init].
  unfold finish_par_info.
  assert (flt fnan (numeral_val lo) = false) as -> by reflexivity.
  assert (fgt fnan (numeral_val hi) = false) as -> by (unfold fgt; fsolve).
  assert (fge (numeral_val lo) (numeral_val hi) = false) as -> by (clear - Vr; fsolve).
  rewrite Vl, Vh. rewrite !andb_false_r. cbn [orb error_if obind]. unfold fne. rewrite Vl, Vh. cbn [negb andb].
  change (fisnan fnan) with true. change (feq fzero fzero) with true. reflexivity.
Qed.

(** The [~v] notation: mean [v], automatic standard deviation. *)
Theorem C03_tilde_only : forall name opt v, numeral_ok v ->
  flt (opt_lower opt) (opt_upper opt) = true -> feq (numeral_val v) fzero = false ->
  par_info_of_node name (text_node ("~"%char :: show_numeral v)) opt
  = make_par_info name (numeral_val v)
      (fmax2 (fadd (fmul (auto_std_factor opt) (fabs (numeral_val v))) (auto_std_offset opt)) (auto_std_minimum opt))
      (opt_lower opt) (opt_upper opt).
Proof.
  intros n opt v Hv Vr V0. unfold text_node. rewrite node_text.
  erewrite (parse_std n _ v []); [|exact Hv|reflexivity|reflexivity|cbn [ps_rest st_init]; now rewrite app_nil_r].
  cbn [ps_mean ps_std ps_min ps_max ps_set st_init].
  change (feq fzero fzero) with true. cbn iota.
  rewrite parse_end by reflexivity. cbn [obind ps_mean ps_std ps_min ps_max ps_set].
  unfold finish_par_info.
  assert (flt fnan (opt_lower opt) = false) as -> by reflexivity.
  assert (fgt fnan (opt_upper opt) = false) as -> by (unfold fgt; fsolve).
  assert (fge (opt_lower opt) (opt_upper opt) = false) as -> by (clear - Vr; fsolve).
  rewrite V0. change (fisnan fnan) with true. cbn [orb andb error_if obind].
  assert (fne (opt_lower opt) (opt_lower opt) = false) as -> by (clear - Vr; unfold fne; fsolve).
  reflexivity.
Qed.

(** With the default options the bounds are -10^12 and 10^12, and the automatic standard deviation of [~v] is a
    tenth of |v|, at least 0.01. *)
Theorem C03_default_options : forall name,
  (forall m s, numeral_ok m -> numeral_ok s -> fle fzero (numeral_val s) = true ->
    fle (flit (-1) 12) (numeral_val m) = true -> fle (numeral_val m) (flit 1 12) = true ->
    par_info_of_node name (text_node (show_numeral m ++ "~"%char :: show_numeral s)) default_options
    = Ok (mk name (numeral_val m) (numeral_val s) (flit (-1) 12) (flit 1 12))) /\
  (forall m, numeral_ok m -> fle (flit (-1) 12) (numeral_val m) = true -> fle (numeral_val m) (flit 1 12) = true ->
    par_info_of_node name (text_node (show_numeral m)) default_options
    = Ok (mk name (numeral_val m) fzero (flit (-1) 12) (flit 1 12))) /\
  (forall v, numeral_ok v -> feq (numeral_val v) fzero = false ->
    par_info_of_node name (text_node ("~"%char :: show_numeral v)) default_options
    = make_par_info name (numeral_val v)
        (fmax2 (fadd (fmul (flit 1 (-1)) (fabs (numeral_val v))) fzero) (flit 1 (-2))) (flit (-1) 12) (flit 1 12)).
Proof.
  intros n. assert (Vr : flt (opt_lower default_options) (opt_upper default_options) = true) by (vm_compute; reflexivity).
  split; [|split].
  - intros m s Hm Hs H0 H1 H2. exact (C03_mean_std n default_options m s Hm Hs Vr H0 H1 H2).
  - intros m Hm H1 H2. exact (C03_constant n default_options m Hm Vr H1 H2).
  - intros v Hv H0. exact (C03_tilde_only n default_options v Hv Vr H0).
Qed.

(** Rejections. *)
Theorem C03_mismatched_bracket_rejected : forall name opt o m s lo hi c2 rest,
  In o ["["%char; "<"%char; "("%char] -> numeral_ok m -> numeral_ok s -> numeral_ok lo -> numeral_ok hi ->
  num_cont c2 = false -> ~ brackets o c2 ->
  exists w, par_info_of_node name (text_node
    (show_numeral m ++ "~"%char :: show_numeral s ++ o :: show_numeral lo ++ ","%char :: show_numeral hi ++ c2 :: rest)) opt
  = Throw w.
Proof.
  intros n opt o m s lo hi c2 rest Ho' Hm Hs Hlo Hhi Hc Hne'.
  assert (Ho : opening o) by (destruct Ho' as [<-|[<-|[<-|[]]]]; unfold opening; tauto).
  assert (Hne : c2 <> closing o) by (intros ->; exact (Hne' (opening_brackets o Ho))). unfold text_node. rewrite node_text.
  erewrite parse_mean; [|exact Hm| |reflexivity|cbn [ps_rest st_init]; reflexivity]; [|reflexivity].
  cbn [st_init ps_mean fisnan fnan is_nan ps_std ps_min ps_max ps_set].
  erewrite parse_std; [|exact Hs| |reflexivity|cbn [ps_rest]; reflexivity]; [|destruct Ho as [->|[->| ->]]; reflexivity].
  cbn [ps_mean ps_std ps_min ps_max ps_set]. change (feq fzero fzero) with true. cbn iota.
  erewrite (parse_range n _ o lo hi c2 rest); [|exact Ho|exact Hlo|exact Hhi|reflexivity|exact Hc|reflexivity].
  apply Ascii.eqb_neq in Hne. rewrite Hne. cbn. eauto.
Qed.

Theorem C03_missing_comma_rejected : forall name opt o m lo c rest,
  In o ["["%char; "<"%char; "("%char] -> numeral_ok m -> numeral_ok lo -> num_cont c = false -> c <> ","%char ->
  exists w, par_info_of_node name (text_node (show_numeral m ++ o :: show_numeral lo ++ c :: rest)) opt = Throw w.
Proof.
  intros n opt o m lo c rest Ho' Hm Hlo Hc Hne.
  assert (Ho : opening o) by (destruct Ho' as [<-|[<-|[<-|[]]]]; unfold opening; tauto). unfold text_node. rewrite node_text.
  erewrite parse_mean; [|exact Hm| |reflexivity|cbn [ps_rest st_init]; reflexivity]; [|destruct Ho as [->|[->| ->]]; reflexivity].
  cbn [st_init ps_mean fisnan fnan is_nan ps_std ps_min ps_max ps_set].
  erewrite (parse_range_nocomma n _ o lo c rest); [|exact Ho|exact Hlo|reflexivity|exact Hc|exact Hne|reflexivity].
  cbn. eauto.
Qed.

Theorem C03_second_mean_rejected : forall name opt o c m lo hi m2 rest,
  brackets o c -> numeral_ok m -> numeral_ok lo -> numeral_ok hi -> numeral_ok m2 -> ends_num rest ->
  exists w, par_info_of_node name (text_node
   (show_numeral m ++ o :: show_numeral lo ++ ","%char :: show_numeral hi ++ c :: show_numeral m2 ++ rest)) opt
  = Throw w.
Proof.
  intros n opt o c m lo hi m2 rest Ho Hm Hlo Hhi Hm2 Hr. apply brackets_closing in Ho as [Ho ->]. unfold text_node. rewrite node_text.
  erewrite parse_mean; [|exact Hm| |reflexivity|cbn [ps_rest st_init]; reflexivity]; [|destruct Ho as [->|[->| ->]]; reflexivity].
  cbn [st_init ps_mean fisnan fnan is_nan ps_std ps_min ps_max ps_set].
  erewrite (parse_range n _ o lo hi (closing o)); [|exact Ho|exact Hlo|exact Hhi|reflexivity| |reflexivity];
    [|destruct Ho as [->|[->| ->]]; reflexivity].
  rewrite Ascii.eqb_refl.
  erewrite parse_mean; [|exact Hm2|exact Hr|reflexivity|reflexivity].
  cbn [ps_mean]. rewrite val_not_nan. cbn. eauto.
Qed.

Theorem C03_second_std_rejected : forall name opt m s s2 rest,
  numeral_ok m -> numeral_ok s -> numeral_ok s2 -> ends_num rest -> feq (numeral_val s) fzero = false ->
  exists w, par_info_of_node name (text_node
   (show_numeral m ++ "~"%char :: show_numeral s ++ "~"%char :: show_numeral s2 ++ rest)) opt = Throw w.
Proof.
  intros n opt m s s2 rest Hm Hs Hs2 Hr H0. unfold text_node. rewrite node_text.
  erewrite parse_mean; [|exact Hm| |reflexivity|cbn [ps_rest st_init]; reflexivity]; [|reflexivity].
  cbn [st_init ps_mean fisnan fnan is_nan ps_std ps_min ps_max ps_set].
  erewrite parse_std; [|exact Hs| |reflexivity|cbn [ps_rest]; reflexivity]; [|reflexivity].
  cbn [ps_mean ps_std ps_min ps_max ps_set]. change (feq fzero fzero) with true. cbn iota.
  erewrite parse_std; [|exact Hs2|exact Hr|reflexivity|reflexivity].
  cbn [ps_std]. rewrite H0. cbn. eauto.
Qed.

(** The texts a user writes are such numerals; the theorems apply to them. *)
Definition num (i f : list Z) : numeral := {| nm_neg := false; nm_int := i; nm_frac := f; nm_dot := match f with [] => false | _ => true end; nm_exp := None |}.
Example C03_nonvacuous :
  numeral_ok (num [1%Z] [5%Z]) /\ string_of_list_ascii (show_numeral (num [1%Z] [5%Z])) = "1.5"%string /\
  numeral_val (num [1%Z] [5%Z]) = flit 15 (-1) /\
  par_info_of_node "k" (PN "1.5~0.2[-10,10]" []) default_options
  = Ok (mk "k" (flit 15 (-1)) (flit 2 (-1)) (fofZ (-10)) (fofZ 10)) /\
  par_info_of_node "k" (PN "<0,4>" []) default_options = Ok (mk "k" (fofZ 2) (fofZ 1) (fofZ 0) (fofZ 4)) /\
  par_info_of_node "k" (PN "~2" []) default_options = Ok (mk "k" (fofZ 2) (flit 2 (-1)) default_lower default_upper) /\
  (exists w, par_info_of_node "k" (PN "1~2[0,3)" []) default_options = Throw w).
Proof.
  split. { repeat split; cbn; try congruence; repeat constructor; unfold digit; lia. }
  split; [reflexivity|]. split; [f64_compute|].
  repeat (split; [apply ok_par_info_same_eq; vm_compute; reflexivity|]).
  apply throws_eq. vm_compute. reflexivity.
Qed.

(** Sharpness (what the parser accepts although a user may not expect it):
    an unreadable standard deviation is silently taken as 0, and [~0] is rejected. *)
Theorem C03_unreadable_std_rejected_refuted :
  par_info_of_node "k" (PN "3~abc" []) default_options = Ok (mk "k" (fofZ 3) fzero default_lower default_upper).
Proof. apply ok_par_info_same_eq. vm_compute. reflexivity. Qed.
Theorem C03_tilde_zero_accepted_refuted :
  exists w, par_info_of_node "k" (PN "~0" []) default_options = Throw w.
Proof. apply throws_eq. vm_compute. reflexivity. Qed.

Print Assumptions C01_par_info_admits_exactly_valid.
Print Assumptions C02_parsed_parameter_is_valid.
Print Assumptions C02_parsing_terminates.
Print Assumptions C03_full_form.
Print Assumptions C03_constant.
Print Assumptions C03_mean_std.
Print Assumptions C03_range_only.
Print Assumptions C03_tilde_only.
Print Assumptions C03_mismatched_bracket_rejected.
Print Assumptions C03_missing_comma_rejected.
Print Assumptions C03_second_mean_rejected.
Print Assumptions C03_second_std_rejected.
Print Assumptions C03_default_options.
