(** * C62: what the console_reporter prints. *)
From Coq Require Import ZArith Bool Lia Reals Lra.
From Flocq Require Import Core BinarySingleNaN.
From Verif Require Import Prelude FlatMap Flt FltFacts Flt32 Round8 Round8Facts ShowNum ShowNumFacts ParInfo ObjInfo SearchPoint Properties_SearchPoint Num MathTools Optimizer OptimizerFacts
  Properties_Optimizer Properties_Optimizer2 Properties_Optimizer3 Properties_Optimizer4 FileReporter FileReporterFacts Properties_FileReporter Properties_FileReporter7 Properties_Pool3 Console.

(** ** Specification: a number in decimal notation *)
(** [t] shows [x] with [p] decimals: the nearest such number. *)
Definition decimal (p : nat) (t : text) (x : f64) : Prop :=
  match x with
  | B754_nan => t = chars "nan"
  | B754_infinity s => t = if s then chars "-inf" else chars "inf"
  | _ => exists (s : bool) int frac n,
      t = (if s then ["-"%char] else []) ++ int ++ (if Nat.eqb p 0 then [] else "."%char :: frac) /\ int <> [] /\ length frac = p /\ numeral_of (int ++ frac) n /\
      (Rabs ((if s then - IZR n else IZR n) / IZR (10 ^ Z.of_nat p) - B2R x) <= 1 / 2 / IZR (10 ^ Z.of_nat p))%R /\
      ((B2R x < 0)%R -> s = true) /\ ((0 < B2R x)%R -> s = false)
  end.

(** The configured precision; a negative one means six places (printf). *)
Definition places (precision : Z) : nat := if (0 <=? precision)%Z then Z.to_nat precision else 6.

Lemma decimals_places precision : decimals precision = places precision.
Proof. unfold decimals, places. destruct (Z.ltb_spec precision 0), (Z.leb_spec 0 precision); try lia; reflexivity. Qed.
Lemma scaled_near k m e : (0 < k)%Z -> (0 <= scaled k m e)%Z /\ (Rabs (IZR (scaled k m e) - IZR k * (IZR (Z.pos m) * bpow radix2 e)) <= 1 / 2)%R.
Proof.
  intros Hk. unfold scaled. destruct (Z.leb_spec 0 e) as [He|He].
  - split; [pose proof (Z.pow_nonneg 2 e); nia|]. rewrite <- (IZR_Zpower radix2) by lia. change (radix2 ^ e)%Z with (2 ^ e)%Z. rewrite !mult_IZR.
    replace (_ - _)%R with 0%R by ring. rewrite Rabs_R0. lra.
  - set (d := (2 ^ (- e))%Z). assert (Hd : (0 < d)%Z) by (apply Z.pow_pos_nonneg; lia). set (q := (Z.pos m * k / d)%Z). set (r := (Z.pos m * k mod d)%Z). cbv zeta.
    pose proof (Z.div_mod (Z.pos m * k) d ltac:(lia)) as DM. fold q r in DM. pose proof (Z.mod_pos_bound (Z.pos m * k) d Hd) as RB. fold r in RB. assert (Hq : (0 <= q)%Z) by (apply Z.div_pos; lia).
    assert (Eb : bpow radix2 e = (/ IZR d)%R). { unfold d. replace e with (- - e)%Z at 1 by lia. rewrite bpow_opp, <- (IZR_Zpower radix2) by lia. reflexivity. }
    assert (Hdr : (0 < IZR d)%R) by now apply IZR_lt.
    assert (EV : (IZR k * (IZR (Z.pos m) * bpow radix2 e) = IZR q + IZR r / IZR d)%R).
    { rewrite Eb. apply (f_equal IZR) in DM. rewrite plus_IZR, !mult_IZR in DM. apply (Rmult_eq_reg_r (IZR d)); [|lra]. field_simplify; lra. }
    assert (Hr0 : (0 <= IZR r)%R) by (apply IZR_le; lia). assert (Hr1 : (IZR r < IZR d)%R) by (apply IZR_lt; lia).
    assert (HL : (2 * r <= d)%Z -> (0 <= IZR r / IZR d <= 1 / 2)%R).
    { intros H. apply IZR_le in H. rewrite mult_IZR in H. split; [apply Rmult_le_pos; [lra|left; now apply Rinv_0_lt_compat]|]. apply (Rmult_le_reg_r (IZR d)); [lra|]. unfold Rdiv. rewrite Rmult_assoc, Rinv_l by lra. lra. }
    assert (HU : (d <= 2 * r)%Z -> (1 / 2 <= IZR r / IZR d <= 1)%R).
    { intros H. apply IZR_le in H. rewrite mult_IZR in H. split; (apply (Rmult_le_reg_r (IZR d)); [lra|]; unfold Rdiv; rewrite ?Rmult_assoc, Rinv_l by lra; lra). }
    rewrite EV. destruct (Z.ltb_spec (2 * r) d); [split; [lia|specialize (HL ltac:(lia)); apply Rabs_le; lra]|].
    destruct (Z.ltb_spec d (2 * r)); [split; [lia|specialize (HU ltac:(lia)); rewrite plus_IZR; apply Rabs_le; lra]|].
    specialize (HL ltac:(lia)). specialize (HU ltac:(lia)). destruct (Z.even q); (split; [lia|]); rewrite ?plus_IZR; apply Rabs_le; lra.
Qed.
Lemma put_digits p z : (0 <= z)%Z -> let k := (10 ^ Z.of_nat p)%Z in
  exists int frac, nonneg_digits (z / k) ++ (if Nat.eqb p 0 then [] else "."%char :: pad_int p (z mod k)) = int ++ (if Nat.eqb p 0 then [] else "."%char :: frac) /\
    int <> [] /\ length frac = p /\ numeral_of (int ++ frac) z.
Proof.
  intros Hz k. assert (Hk : (0 < k)%Z) by (apply Z.pow_pos_nonneg; lia). pose proof (Z.mod_pos_bound z k Hk) as HM. pose proof (Z.div_mod z k ltac:(lia)) as HD. assert (HQ : (0 <= z / k)%Z) by (apply Z.div_pos; lia).
  destruct (digits_show (z / k) HQ) as (d1 & A1 & A2 & A3 & A4). assert (Hne : nonneg_digits (z / k) <> []) by (rewrite A1; destruct d1; [congruence|discriminate]).
  destruct p as [|p].
  - exists (nonneg_digits (z / k)), []. split; [reflexivity|]. split; [exact Hne|]. split; [reflexivity|]. rewrite app_nil_r, A1. assert (Ez : z = dval 0 d1) by (rewrite A3; unfold k; cbn; now rewrite Z.div_1_r). rewrite Ez. now apply numeral_show.
  - exists (nonneg_digits (z / k)), (pad_int (S p) (z mod k)). split; [reflexivity|]. split; [exact Hne|]. assert (HL : length (pad_int (S p) (z mod k)) = S p) by (apply pad_exact; [exact HM|lia]). split; [exact HL|].
    destruct (pad_show (S p) (z mod k) ltac:(lia)) as (d2 & B1 & B2 & B3 & B4). rewrite B1 in HL. unfold show_digits in HL. rewrite map_length in HL.
    rewrite A1, B1. unfold show_digits. rewrite <- map_app. assert (Ez : z = dval 0 (d1 ++ d2)). { rewrite dval_app, dval_shift, A3, B3, HL. fold k. lia. }
    rewrite Ez. apply numeral_show; [now apply Forall_app|]. intros H0. apply app_eq_nil in H0. tauto.
Qed.
Lemma fixed_decimal precision x : decimal (places precision) (fixed precision x) x.
Proof.
  rewrite <- decimals_places.
  unfold decimal, fixed. set (p := decimals precision). clearbody p. set (k := (10 ^ Z.of_nat p)%Z). assert (Hk : (0 < k)%Z) by (apply Z.pow_pos_nonneg; lia). assert (HkR : (0 < IZR k)%R) by now apply IZR_lt.
  assert (Hpos : (0 <= 1 / 2 / IZR k)%R) by (apply Rmult_le_pos; [lra|left; now apply Rinv_0_lt_compat]).
  destruct x as [s|s| |s m e B].
  - destruct (put_digits p 0 ltac:(lia)) as (int & frac & P1 & P2 & P3 & P4). fold k in P1. exists s, int, frac, 0%Z. split; [apply (f_equal (app _)); exact P1|]. split; [exact P2|]. split; [exact P3|]. split; [exact P4|].
    cbn [B2R]. split; [|split; intros H; lra]. replace (if s then _ else _) with 0%R by (destruct s; ring). unfold Rdiv at 1. rewrite Rmult_0_l, Rminus_0_r, Rabs_R0. exact Hpos.
  - destruct s; reflexivity.
  - reflexivity.
  - destruct (scaled_near k m e Hk) as [T1 T2]. destruct (put_digits p _ T1) as (int & frac & P1 & P2 & P3 & P4). fold k in P1. exists s, int, frac, (scaled k m e). split; [apply (f_equal (app _)); exact P1|]. split; [exact P2|]. split; [exact P3|]. split; [exact P4|].
    cbn [B2R]. unfold F2R in *. cbn [Fnum Fexp] in *. pose proof (bpow_gt_0 radix2 e) as HP. set (u := (IZR (Z.pos m) * bpow radix2 e)%R) in *.
    assert (Hu : (0 < u)%R) by (apply Rmult_lt_0_compat; [now apply IZR_lt|exact HP]).
    assert (EV : (IZR (cond_Zopp s (Z.pos m)) * bpow radix2 e = if s then - u else u)%R) by (unfold u; destruct s; cbn [cond_Zopp]; [change (- Z.pos m)%Z with (Z.neg m); change (Z.neg m) with (- Z.pos m)%Z; rewrite opp_IZR; ring|reflexivity]).
    rewrite EV. split; [|split; intros; destruct s; try reflexivity; lra].
    assert (ES : ((if s then - IZR (scaled k m e) else IZR (scaled k m e)) / IZR k - (if s then - u else u) = (if s then -1 else 1) * (IZR (scaled k m e) - IZR k * u) / IZR k)%R) by (destruct s; field; lra).
    rewrite ES. unfold Rdiv. rewrite Rabs_mult, Rabs_mult. rewrite (Rabs_pos_eq (/ IZR k)) by (left; now apply Rinv_0_lt_compat). apply Rmult_le_compat_r; [left; now apply Rinv_0_lt_compat|].
    assert (E1 : Rabs (if s then -1 else 1) = 1%R) by (unfold Rabs; destruct s; destruct (Rcase_abs _); lra). rewrite E1. lra.
Qed.

(** ** The output of a step *)
Lemma printed_snoc C E r clock h a : forall k o, printed C E r clock k o (h ++ [a]) =
  printed C E r clock k o h ++ printed_by C E r (clock (k + length h)) (fold_left (exec E) h o) (exec E (fold_left (exec E) h o) a).
Proof.
  induction h as [|x h IH]; intros k o; cbn [app printed fold_left length]; [rewrite Nat.add_0_r; apply app_nil_r|].
  rewrite IH, <- app_assoc. now replace (S k + length h) with (k + S (length h)) by lia.
Qed.
Lemma output_snoc C E extra r clock h a : console_output C E extra r clock (h ++ [a]) =
  console_output C E extra r clock h ++ printed_by C E r (clock (length h)) (after E extra h) (exec E (after E extra h) a).
Proof. unfold console_output. rewrite printed_snoc. reflexivity. Qed.
Lemma skipn_received r (o o' : opt) new : received r (o_trace o') = received r (o_trace o) ++ new -> skipn (length (received r (o_trace o))) (received r (o_trace o')) = new.
Proof. intros ->. rewrite skipn_app, skipn_all, Nat.sub_diag. reflexivity. Qed.

(** The line that is printed when a condition stops the optimizer. *)
Definition stop_line (C : console) (scs : list stop_cond) (k : nat) (seconds : f64) (t : text) : Prop :=
  exists sc time, nth_error scs k = Some sc /\ decimal 2 time seconds /\
    t = newline :: chars "Optimization finished in " ++ time ++ chars "s: " ++ what C sc ++ [newline].
Lemma nth_error_firstn_lt {A} (l : list A) n k : k < n -> nth_error (firstn n l) k = nth_error l k.
Proof. revert n k. induction l as [|x l IH]; intros n k H; [now rewrite firstn_nil|]. destruct n; [lia|]. destruct k; [reflexivity|]. cbn. apply IH. lia. Qed.
Lemma latched_condition E o a k : opt_inv E o -> oi_dim (e_info E) <> 0 -> wf_op E a -> o_stopped o = None -> o_stopped (exec E o a) = Some k ->
  exists c sc, cache_ok E c /\ strip c = strip (o_core (exec E o a)) /\ answer E c sc = Ok true /\ nth_error (o_scs (exec E o a)) k = Some (sc_after E c sc).
Proof.
  intros [H1 H2 H3] Hd Hw Hn Hk.
  assert (G : forall o1, cache_ok E (o_core o1) -> o_stopped o1 = None -> o_stopped (fst (test_stop E o1)) = Some k ->
    exists c sc, cache_ok E c /\ strip c = strip (o_core (fst (test_stop E o1))) /\ answer E c sc = Ok true /\ nth_error (o_scs (fst (test_stop E o1))) k = Some (sc_after E c sc)).
  { intros o1 Hc Hs HK. unfold test_stop in *. rewrite Hs in *. pose proof (test_list_spec E (o_scs o1) (o_core o1) 0 Hc) as HT. destruct (test_list E (o_core o1) 0 (o_scs o1)) as [[c scs] x]. destruct HT as (T1 & _ & _ & T2).
    destruct x as [[j|]|w|]; cbn [fst o_stopped o_core o_scs] in *; try discriminate HK. injection HK as ->. destruct T2 as (_ & T3 & _ & (sc & T4 & T5) & ->). rewrite Nat.sub_0_r in *.
    exists (o_core o1), sc. split; [exact Hc|]. split; [now symmetry|]. split; [exact T5|]. rewrite nth_error_app1.
    - rewrite nth_error_map, (nth_error_firstn_lt (o_scs o1)) by lia. now rewrite T4.
    - rewrite map_length, firstn_length. cbn [Nat.add] in T3. lia. }
  destruct a as [i| | | | |n|sc]; cbn [exec] in *; try (cbn [with_core o_stopped] in Hk; congruence).
  - destruct (step_shape E o i Hd Hw H2) as (scs & tr & ES & _). rewrite ES in *. apply G; [exact (step_core_cache E _ i H1)|exact Hn|exact Hk].
  - now apply G.
  - cbn [add_stop_condition o_stopped] in Hk. congruence.
Qed.
Lemma stop_line_printed C E extra h a k seconds : oi_dim (e_info E) <> 0 -> Forall (wf_op E) h -> wf_op E a ->
  let o := after E extra h in let o' := exec E o a in o_stopped o = None -> o_stopped o' = Some k ->
  forall v, stop_line C (o_scs o') k seconds (console_call C E (o_scs o') seconds (EStop k, v)).
Proof.
  intros Hd Hw Ha o o' Hn Hk v. destruct (latched_condition E o a k (after_inv E extra h Hd Hw) Hd Ha Hn Hk) as (c & sc & _ & _ & _ & HN). fold o' in HN.
  exists (sc_after E c sc), (fixed 2 seconds). split; [exact HN|]. split; [apply (fixed_decimal 2)|]. unfold console_call. cbn [fst snd]. now rewrite HN.
Qed.

(** A step prints, in this order: in the first step, one line with the dimension; the number of the step; if
    the step does not fail, the average and the median of all its fitnesses, and the best fitness so far exactly
    if this step improved it; then a line feed if there was an improvement and the reporter is so configured, otherwise
    only a carriage return; and if this step stops the optimizer, a line with the time and the reason. *)
Theorem C62_step_output : forall C E extra r clock h i, oi_dim (e_info E) <> 0 -> Forall (wf_op E) h -> wf_input E i -> heard E r ->
  (Z.of_nat (oi_dim (e_info E)) < 2147483648)%Z -> (Z.of_nat (completed E h) < 2147483648)%Z ->
  let o := after E extra h in let o' := after E extra (h ++ [OpStep i]) in
  let fits := fits_of E (si_results i) in let p := places (co_precision C) in
  exists start number body stop,
    console_output C E extra r clock (h ++ [OpStep i]) = console_output C E extra r clock h ++ start ++ number ++ chars ": " ++ body ++ stop /\
    (if Nat.eqb (completed E h) 0 then exists dim, start = chars "Starting optimization, dim=" ++ dim ++ [newline] /\ numeral_of dim (Z.of_nat (oi_dim (e_info E))) else start = []) /\
    numeral_of number (Z.of_nat (completed E h)) /\ 4 <= length number /\
    (if too_many_errors E (si_results i) then body = []
     else exists average median,
       decimal p average (co_average C fits) /\ decimal p median (co_median C fits) /\
       if is_better (e_info E) (step_best E (si_results i)) (c_best_fit (o_core o)) then
         exists best, decimal p best (step_best E (si_results i)) /\
           body = chars " A=" ++ average ++ chars " M=" ++ median ++ chars " B=" ++ best ++ [if co_newline_best C then newline else carriage_return]
       else body = chars " A=" ++ average ++ chars " M=" ++ median ++ [carriage_return]) /\
    match o_stopped o, o_stopped o' with
    | None, Some k => stop_line C (o_scs o') k (clock (length h)) stop
    | _, _ => stop = []
    end.
Proof.
  intros C E extra r clock h i Hd Hw Hi Hh HD HS o o' fits p. rewrite output_snoc. fold o.
  pose proof (C21_current_step E extra h Hd Hw) as HC. fold o in HC.
  assert (Eo : o' = exec E o (OpStep i)) by (unfold o'; now rewrite after_snoc). rewrite Eo. clear o' Eo. set (o' := exec E o (OpStep i)).
  destruct (C24_step_events E extra h i r Hd Hw Hi Hh) as (seen & S1 & S2 & S3). fold o in S1, S2, S3. change (fst (step E o i)) with o' in S3.
  set (sec := clock (length h)). set (call := console_call C E (o_scs o') sec).
  assert (HX : exists stop, printed_by C E r sec o o' = concat (map call seen) ++ stop /\
     match o_stopped o, o_stopped o' with None, Some k => stop_line C (o_scs o') k sec stop | _, _ => stop = [] end).
  { unfold printed_by. fold call. destruct (o_stopped o) as [k0|] eqn:Eo.
    - exists []. split; [|reflexivity]. rewrite (skipn_received r o o' seen S3), app_nil_r. reflexivity.
    - destruct (o_stopped o') as [k|] eqn:Eo'.
      + destruct S3 as (v & _ & S3). exists (call (EStop k, v)). split; [|exact (stop_line_printed C E extra h (OpStep i) k sec Hd Hw Hi Eo Eo' v)].
        rewrite (skipn_received r o o' _ S3), map_app, concat_app. cbn [map concat]. now rewrite app_nil_r.
      + exists []. split; [|reflexivity]. rewrite (skipn_received r o o' seen S3), app_nil_r. reflexivity. }
  destruct HX as (stop & -> & HStop).
  assert (HN : numeral_of (pad_int 4 (int_of_size (c_steps (o_core o)))) (Z.of_nat (completed E h)) /\ 4 <= length (pad_int 4 (int_of_size (c_steps (o_core o))))).
  { rewrite HC, int_of_small by exact HS. set (z := Z.of_nat (completed E h)). assert (Hz : (0 <= z)%Z) by (unfold z; lia). clearbody z. split.
    - destruct (pad_show 4 z Hz) as (ds & A1 & A2 & A3 & A4). rewrite A1, <- A3. now apply numeral_show.
    - unfold pad_int. destruct (Z.ltb_spec z 0); [lia|]. rewrite app_length, repeat_length. lia. }
  destruct HN as [HN1 HN2].
  assert (HDim : exists dim, numeral_of dim (Z.of_nat (oi_dim (e_info E))) /\ forall c, call (EStart, c) = chars "Starting optimization, dim=" ++ dim ++ [newline]).
  { exists (pad_int 1 (int_of_size (oi_dim (e_info E)))). split; [|reflexivity]. rewrite int_of_small by exact HD. destruct (pad_show 1 (Z.of_nat (oi_dim (e_info E))) ltac:(lia)) as (ds & A1 & A2 & A3 & A4). rewrite A1, <- A3. now apply numeral_show. }
  destruct HDim as (dim & HD1 & HD2).
  assert (HPost : too_many_errors E (si_results i) = false -> c_best_fit (absorb E (o_core o) (si_pop i) (si_results i)) =
      (if is_better (e_info E) (step_best E (si_results i)) (c_best_fit (o_core o)) then step_best E (si_results i) else c_best_fit (o_core o))).
  { intros HT. now destruct (C24_updated_best_is_visible E (o_core o) i Hi HT) as (_ & _ & _ & ->). }
  (* the three parts of the events *)
  assert (HY : exists start body, concat (map call seen) = start ++ pad_int 4 (int_of_size (c_steps (o_core o))) ++ chars ": " ++ body /\
    (if Nat.eqb (completed E h) 0 then exists dim, start = chars "Starting optimization, dim=" ++ dim ++ [newline] /\ numeral_of dim (Z.of_nat (oi_dim (e_info E))) else start = []) /\
    (if too_many_errors E (si_results i) then body = []
     else exists average median,
       decimal p average (co_average C fits) /\ decimal p median (co_median C fits) /\
       if is_better (e_info E) (step_best E (si_results i)) (c_best_fit (o_core o)) then
         exists best, decimal p best (step_best E (si_results i)) /\
           body = chars " A=" ++ average ++ chars " M=" ++ median ++ chars " B=" ++ best ++ [if co_newline_best C then newline else carriage_return]
       else body = chars " A=" ++ average ++ chars " M=" ++ median ++ [carriage_return])).
  2:{ destruct HY as (start & body & Y1 & Y2 & Y3). exists start, (pad_int 4 (int_of_size (c_steps (o_core o)))), body, stop. split; [|split; [exact Y2|split; [exact HN1|split; [exact HN2|split; [exact Y3|exact HStop]]]]].
      rewrite Y1. rewrite <- !app_assoc. reflexivity. }
  clear HStop stop S3 HN1 HN2. unfold step_events in S1. rewrite HC in S1. fold fits in S1.
  destruct (map_eq_app _ _ _ _ S1) as (s1 & rest & -> & M1 & M2). clear S1. destruct (map_eq_app _ _ _ _ M2) as (s2 & s3 & -> & M3 & M4). clear M2.
  assert (E2 : concat (map call s2) = pad_int 4 (int_of_size (c_steps (o_core o))) ++ chars ": ").
  { destruct s2 as [|[e1 v1] [|[e2 v2] [|]]]; try discriminate M3. cbn [map fst] in M3. injection M3 as -> ->. assert (V1 : v1 = o_core o) by (apply (S2 EPreStep); apply in_or_app; right; now left). rewrite V1. apply app_nil_r. }
  assert (E1 : if Nat.eqb (completed E h) 0 then exists dim, concat (map call s1) = chars "Starting optimization, dim=" ++ dim ++ [newline] /\ numeral_of dim (Z.of_nat (oi_dim (e_info E))) else concat (map call s1) = []).
  { destruct (Nat.eqb (completed E h) 0).
    - destruct s1 as [|[e1 v1] [|]]; try discriminate M1. cbn [map fst] in M1. injection M1 as ->. exists dim. split; [cbn [map concat]; rewrite app_nil_r; apply HD2|exact HD1].
    - now destruct s1. }
  exists (concat (map call s1)), (concat (map call s3)). split; [|split; [exact E1|]].
  { rewrite !map_app, !concat_app, E2, <- !app_assoc. reflexivity. }
  assert (S3 : forall ev v, In (ev, v) s3 -> sees E (o_core o) i ev v) by (intros ev v Hin; apply S2; apply in_or_app; right; apply in_or_app; now right). clear S2 E1 E2 M1 M3 HD1 HD2.
  destruct (too_many_errors E (si_results i)) eqn:HT; [now destruct s3|]. specialize (HPost eq_refl).
  exists (fixed (co_precision C) (co_average C fits)), (fixed (co_precision C) (co_median C fits)). split; [apply fixed_decimal|]. split; [apply fixed_decimal|].
  destruct (is_better (e_info E) (step_best E (si_results i)) (c_best_fit (o_core o))).
  - destruct s3 as [|[e1 v1] [|[e2 v2] [|[e3 v3] [|]]]]; try discriminate M4. cbn [map fst app] in M4. injection M4 as -> -> ->.
    assert (V2 : v2 = absorb E (o_core o) (si_pop i) (si_results i)) by (apply (S3 (EPostEval (si_pop i) fits true)); right; now left).
    exists (fixed (co_precision C) (step_best E (si_results i))). split; [apply fixed_decimal|]. unfold call, console_call. cbn [map concat fst snd app]. unfold on_post_evaluate_population. rewrite V2, HPost, app_nil_r. rewrite andb_true_r.
    rewrite <- !app_assoc. destruct (co_newline_best C); reflexivity.
  - destruct s3 as [|[e1 v1] [|[e2 v2] [|]]]; try discriminate M4. cbn [map fst app] in M4. injection M4 as -> ->.
    unfold call, console_call. cbn [map concat fst snd app]. unfold on_post_evaluate_population. rewrite !app_nil_r, andb_false_r. reflexivity.
Qed.
(** Every other call prints nothing, unless it finds that the optimizer is to stop. *)
Theorem C62_other_calls_output : forall C E extra r clock h a, oi_dim (e_info E) <> 0 -> Forall (wf_op E) h -> heard E r -> (forall i, a <> OpStep i) ->
  let o := after E extra h in let o' := after E extra (h ++ [a]) in
  exists stop, console_output C E extra r clock (h ++ [a]) = console_output C E extra r clock h ++ stop /\
    match o_stopped o, o_stopped o' with
    | None, Some k => a = OpTest /\ stop_line C (o_scs o') k (clock (length h)) stop
    | _, _ => stop = []
    end.
Proof.
  intros C E extra r clock h a Hd Hw Hh Ha o o'. rewrite output_snoc. assert (Eo : o' = exec E o a) by (unfold o', o; now rewrite after_snoc). rewrite Eo. clear o' Eo. fold o. set (o' := exec E o a).
  pose proof (C24_other_calls E extra h a r Hd Hw Hh Ha) as H. cbv zeta in H. fold o o' in H. set (sec := clock (length h)). eexists. split; [reflexivity|]. unfold printed_by.
  assert (Hz : received r (o_trace o') = received r (o_trace o) -> concat (map (console_call C E (o_scs o') sec) (skipn (length (received r (o_trace o))) (received r (o_trace o')))) = []).
  { intros H0. rewrite (skipn_received r o o' []); [reflexivity|]. now rewrite app_nil_r. }
  destruct (o_stopped o) as [k0|] eqn:Eo; [now apply Hz|]. destruct (o_stopped o') as [k|] eqn:Eo'; [|now apply Hz]. destruct H as (HA & v & _ & H). split; [exact HA|].
  rewrite (skipn_received r o o' _ H). cbn [map concat]. rewrite app_nil_r. apply (stop_line_printed C E extra h a k sec Hd Hw); [rewrite HA; exact I|exact Eo|exact Eo'].
Qed.

(** ** The reason for stopping *)
(** A step that fails because of evaluation errors, in an optimizer that neither has stopped nor is interrupted,
    ends with a line that says how many of the evaluations failed, how many were allowed to, and the messages. *)
Theorem C62_error_message : forall C E extra r clock h i, oi_dim (e_info E) <> 0 -> Forall (wf_op E) h -> wf_input E i -> heard E r ->
  too_many_errors E (si_results i) = true -> let o := after E extra h in o_stopped o = None -> c_interrupted (o_core o) = false -> si_interrupt i = false ->
  exists text time failed total allowed messages,
    console_output C E extra r clock (h ++ [OpStep i]) = text ++ newline :: chars "Optimization finished in " ++ time ++ chars "s: Errors found in " ++ failed ++ chars " of " ++ total ++
      chars " evaluations (" ++ allowed ++ chars " allowed):" ++ newline :: co_set C messages ++ [newline] /\
    decimal 2 time (clock (length h)) /\
    numeral_of failed (Z.of_nat (length (filter is_err (si_results i)))) /\ numeral_of total (Z.of_nat (length (si_pop i))) /\
    ((0 <= e_max_errors E)%Z -> numeral_of allowed (e_max_errors E)) /\
    NoDup messages /\ ((exists s, In (RErr s) (si_results i)) -> forall s, In s messages <-> In (RErr s) (si_results i)).
Proof.
  intros C E extra r clock h i Hd Hw Hi Hh HT o Hn Hc Hint.
  destruct (C20_failed_step_has_no_effect E extra h i Hd Hw Hi HT) as (_ & _ & _ & _ & _ & _ & _ & _ & H1 & H2). fold o in H1, H2. rewrite Hn, Hc, Hint in H2. cbn [orb] in H2.
  set (o' := exec E o (OpStep i)). change (fst (step E o i)) with o' in H1.
  assert (Hs : o_stopped o' = Some 1).
  { assert (I2 : has_error (o_scs o)) by (now apply (inv_error E o), after_inv). unfold o'. cbn [exec]. destruct (step_shape E o i Hd Hi I2) as (scs & tr & ES & _). rewrite ES in H2 |- *. unfold test_stop in *. cbn [o_stopped] in *. rewrite Hn in *. cbn [o_core o_scs o_trace] in *.
    destruct (test_list E (step_core E (o_core o) i) 0 scs) as [[c2 scs2] [[k|]|w|]]; cbn [fst snd o_stopped] in *; congruence. }
  destruct (C24_step_events E extra h i r Hd Hw Hi Hh) as (seen & _ & _ & S3). fold o in S3. change (fst (step E o i)) with o' in S3. rewrite Hn, Hs in S3. destruct S3 as (v & _ & S3).
  rewrite output_snoc. fold o. fold o'. unfold printed_by. rewrite (skipn_received r o o' _ S3), map_app, concat_app. cbn [map concat]. rewrite app_nil_r.
  set (pre := concat (map (console_call C E (o_scs o') (clock (length h))) seen)). set (sec := clock (length h)).
  exists (console_output C E extra r clock h ++ pre), (fixed 2 sec), (chars (show_nat (count_errors (si_results i)))), (chars (show_nat (length (si_results i)))), (pad_int 1 (allowed_errors E (si_results i))), (messages_of (si_results i)).
  split; [|split; [apply (fixed_decimal 2)|split; [apply show_nat_numeral|split]]].
  - unfold console_call. cbn [fst snd]. rewrite H1. cbn [what ei_errors ei_total ei_allowed ei_messages]. rewrite <- !app_assoc. apply (f_equal (app _)), (f_equal (app pre)). cbn [app]. apply (f_equal (cons newline)), (f_equal (app (chars "Optimization finished in "))), (f_equal (app (fixed 2 sec))).
    change (chars "s: Errors found in ") with (chars "s: " ++ chars "Errors found in "). rewrite <- app_assoc. cbn [app]. reflexivity.
  - destruct Hi as (Hl & _). rewrite <- Hl. apply show_nat_numeral.
  - split; [|split].
    + intros H0. unfold allowed_errors. destruct (Z.leb_spec 0 (e_max_errors E)); [|lia]. destruct (pad_show 1 (e_max_errors E) H0) as (ds & A1 & A2 & A3 & A4). rewrite A1, <- A3. now apply numeral_show.
    + unfold messages_of. destruct (filter is_err (si_results i)) as [|x l] eqn:EF.
      * assert (Z : forall (rs : list result) (m : list (string * unit)), filter is_err rs = [] -> fold_left (fun m r => match r with RErr s => fm_set s tt m | ROk _ => m end) rs m = m).
        { induction rs as [|y rs IHr]; intros m Hf; [reflexivity|]. cbn [filter] in Hf. destruct y as [f|s]; cbn [is_err] in Hf; [cbn [fold_left]; now apply IHr|discriminate]. }
        rewrite Z by exact EF. cbn. constructor; [intros []|constructor].
      * assert (Hin : In x (filter is_err (si_results i))) by (rewrite EF; now left). apply filter_In in Hin as [Hin Hx]. destruct x as [f|s]; [discriminate Hx|].
        exact (proj1 (C20_error_messages (si_results i) (ex_intro _ s Hin))).
    + intros HE. exact (proj2 (C20_error_messages (si_results i) HE)).
Qed.
(** If a predicted_fitness_condition stops the optimizer, the message shows the prediction at that time, which
    is not better than the fitness asked for, and that fitness. *)
Theorem C62_prediction_message : forall C E extra h a k y fitness ahead n, oi_dim (e_info E) <> 0 -> Forall (wf_op E) (h ++ [a]) ->
  let o := after E extra h in let o' := after E extra (h ++ [a]) in o_stopped o = None -> o_stopped o' = Some k -> nth_error (o_scs o') k = Some (ScPredicted y fitness ahead n) ->
  (exists t1 t2, what C (ScPredicted y fitness ahead n) = chars "Predicted fitness " ++ t1 ++ chars " is worse than " ++ t2 /\ decimal 6 t1 y /\ decimal 6 t2 fitness) /\
  (exists x, snd (predicted_fitness E (o_core o') ahead) = Ok x /\ y = f64_of_f32 x) /\ is_better (e_info E) y fitness = false /\ n <= completed E (h ++ [a]).
Proof.
  intros C E extra h a k y fitness ahead n Hd Hw o o' Hn Hk HN. pose proof (C21_current_step E extra (h ++ [a]) Hd Hw) as HC. fold o' in HC. pose proof (after_inv E extra (h ++ [a]) Hd Hw) as HI. fold o' in HI. destruct HI as [I1 _ _].
  split; [exists (fixed 6 y), (fixed 6 fitness); split; [reflexivity|split; apply (fixed_decimal 6)]|].
  apply Forall_app in Hw as [Hw Ha]. inversion_clear Ha as [|? ? Hwa _]. assert (Eo : o' = exec E o a) by (unfold o', o; now rewrite after_snoc). rewrite Eo in Hk, HN.
  destruct (latched_condition E o a k (after_inv E extra h Hd Hw) Hd Hwa Hn Hk) as (c & sc & L0 & L1 & L2 & L3). rewrite L3 in HN. injection HN as HN. rewrite <- Eo in L1. clear L3.
  unfold answer, sc_after in *. destruct sc as [| | | | | |p f l m| |]; cbn [sc_test] in *; try discriminate HN.
  - destruct (Nat.leb _ _); [|discriminate HN]. destruct (progress E c); discriminate HN.
  - destruct (Nat.leb_spec m (c_steps c)) as [Hm|Hm]; [|discriminate L2]. destruct (predicted_fitness E c l) as [c' [x|w|]] eqn:EP; cbn [fst snd] in *; try discriminate L2. injection HN as <- <- <- <-. injection L2 as L2.
    split; [|split; [now destruct (is_better _ _ _)|apply strip_fields in L1 as (L1 & _); lia]].
    exists x. split; [|reflexivity].
    rewrite <- (predicted_strip E c (o_core o') l L0 I1 L1), EP. reflexivity.
  - destruct (_ && _); [|discriminate HN]. destruct (negb _); [discriminate HN|]. destruct (similarity_loop _ _ _ _ _ _) as [? [[|]| |]]; discriminate HN.
Qed.

(** ** Examples *)
Definition ex_console : console :=
  {| co_precision := 2; co_newline_best := true; co_average := fun l => hd fnan l; co_median := fun l => hd fnan l; co_set := fun l => concat (map chars l); co_custom := [] |}.
Definition same_text (a b : text) : bool := path_eqb a b.
Definition still_clock : nat -> f64 := fun _ => fofZ 1.
(** The messages of the conditions: each kind has its own. *)
Theorem C62_messages : forall C,
  Console.what C ScAbort = chars "Optimization canceled" /\
  (forall eps, Console.what C (ScFlat eps) = chars "Flat fitness") /\
  (forall t, Console.what C (ScTarget t) = chars "Target fitness reached") /\
  (forall n, Console.what C (ScMaxSteps n) = chars "Maximum number of steps reached") /\
  (forall p n, Console.what C (ScMinProgress p n) = chars "Minimum progress reached") /\
  (forall p s i m d, Console.what C (ScSimilarity p s i m d) = chars "Similar search point").
Proof. intros C. split; [reflexivity|]. split; [reflexivity|]. split; [reflexivity|]. split; [reflexivity|]. split; reflexivity. Qed.
Example C62_nonvacuous : let E := ex_env [quiet] in let h := [OpStep (good_step 4 3); OpStep (good_step 5 6)] in
  oi_dim (e_info E) <> 0 /\ Forall (wf_op E) (h ++ [OpStep (good_step 2 1)]) /\ heard E 0 /\
  same_text (console_output ex_console E [ScMaxSteps 3] 0 still_clock (h ++ [OpStep (good_step 2 1)]))
    (chars "Starting optimization, dim=1" ++ newline ::
     chars "0000:  A=4.00 M=4.00 B=3.00" ++ newline ::
     chars "0001:  A=5.00 M=5.00" ++ carriage_return ::
     chars "0002:  A=2.00 M=2.00 B=1.00" ++ newline ::
     newline :: chars "Optimization finished in 1.00s: Maximum number of steps reached" ++ [newline]) = true /\
  same_text (console_output ex_console E [] 0 still_clock (h ++ [OpStep bad_step; OpStep (good_step 2 1)]))
    (chars "Starting optimization, dim=1" ++ newline ::
     chars "0000:  A=4.00 M=4.00 B=3.00" ++ newline ::
     chars "0001:  A=5.00 M=5.00" ++ carriage_return ::
     chars "0002: " ++
     newline :: chars "Optimization finished in 1.00s: Errors found in 1 of 2 evaluations (0 allowed):" ++ newline :: chars "boom" ++ newline ::
     chars "0002:  A=2.00 M=2.00 B=1.00" ++ [newline]) = true.
Proof.
  intros E h. split; [discriminate|]. split; [repeat (constructor; [apply ex_wf|]); constructor|]. split; [split; [cbn; lia|]; intros j f Hj; lia|].
  split; vm_compute; reflexivity.
Qed.

(** On a terminal a carriage return puts the cursor at the start of the line, and what is printed then replaces
    the old characters one by one.  The lines that are finished, and the current line with the cursor: *)
Fixpoint put_at (pos : nat) (c : ascii) (l : text) : text :=
  match pos, l with
  | O, _ :: t => c :: t
  | O, [] => [c]
  | S k, x :: t => x :: put_at k c t
  | S k, [] => " "%char :: put_at k c []
  end.
Fixpoint screen (line : text) (pos : nat) (t : text) : list text :=
  match t with
  | [] => [line]
  | c :: t' => if Ascii.eqb c newline then line :: screen [] 0 t'
               else if Ascii.eqb c carriage_return then screen line 0 t' else screen (put_at pos c line) (S pos) t'
  end.
(** A step with a shorter text than the one before leaves a part of the old text: after an improvement to 4 the
    terminal can show a best fitness of 4.0000.00. *)
Theorem C62_screen_shows_the_last_step_refuted : exists C E h, Forall (wf_op E) h /\ heard E 0 /\
  c_best_fit (o_core (after E [] h)) = fofZ 4 /\
  map string_of_list_ascii (screen [] 0 (console_output C E [] 0 still_clock h)) =
    ["Starting optimization, dim=1"; "0000:  A=5.00 M=5.00 B=5.00"; "0002:  A=4.00 M=4.00 B=4.0000.00"; ""]%string.
Proof.
  exists ex_console, (ex_env [quiet]), [OpStep (good_step 5 5); OpStep (good_step 1000000 1000000); OpStep (good_step 4 4)].
  split; [repeat (constructor; [apply ex_wf|]); constructor|]. split; [split; [cbn; lia|]; intros j f Hj; lia|]. split; [apply f64_same_eq; vm_compute; reflexivity|vm_compute; reflexivity].
Qed.
Example C62_prediction_nonvacuous : let E := ex_env [quiet] in let extra := [ScPredicted fzero (fofZ (-1)) 5 2] in let h := [OpStep (good_step 4 3)] in let a := OpStep (good_step 5 6) in
  o_stopped (after E extra h) = None /\ o_stopped (after E extra (h ++ [a])) = Some 2 /\
  (exists y, nth_error (o_scs (after E extra (h ++ [a]))) 2 = Some (ScPredicted y (fofZ (-1)) 5 2)) /\
  same_text (console_output ex_console E extra 0 still_clock (h ++ [a]))
    (chars "Starting optimization, dim=1" ++ newline :: chars "0000:  A=4.00 M=4.00 B=3.00" ++ newline :: chars "0001:  A=5.00 M=5.00" ++ carriage_return ::
     newline :: chars "Optimization finished in 1.00s: Predicted fitness 0.000000 is worse than -1.000000" ++ [newline]) = true.
Proof.
  intros E extra h a. split; [vm_compute; reflexivity|]. split; [vm_compute; reflexivity|]. split; [|vm_compute; reflexivity].
  set (o := after E extra (h ++ [a])).
  assert (T : match nth_error (o_scs o) 2 with Some (ScPredicted y f 5 2) => f64_same f (fofZ (-1)) | _ => false end = true) by (vm_compute; reflexivity). clearbody o.
  destruct (nth_error (o_scs o) 2) as [[| | | | | |y f l n| |]|]; try discriminate T. exists y.
  destruct l as [|[|[|[|[|[|]]]]]]; try discriminate T. destruct n as [|[|[|]]]; try discriminate T. now rewrite (f64_same_eq _ _ T).
Qed.
