(** * C80: the files of the individuals. *)
From Coq Require Import ZArith Bool Lia Sorted Permutation.
From Flocq Require Import Core BinarySingleNaN.
From Verif Require Import Prelude Flt FltFacts Flt32 Round8 Round8Facts ShowNum ShowNumFacts ParInfo ObjInfo SearchPoint Properties_SearchPoint Num MathTools Optimizer OptimizerFacts
  Properties_Optimizer Properties_Optimizer2 Properties_Optimizer4 FileReporter FileReporterFacts Properties_FileReporter Properties_FileReporter2 Properties_FileReporter3 Properties_FileReporter4
  Properties_FileReporter5 Properties_FileReporter7 FileCrash Properties_Crash Properties_Faults.

(** ** Names *)
(** The file of individual [i] of a step is ROOT/SSSS_individualII.par, with the number of the step in at least four digits and
    the number of the individual in at least two; different individuals, and individuals of different steps, have different files. *)
Theorem C80_file_names : forall F v i, (Z.of_nat (c_steps v) < 2147483648)%Z -> (Z.of_nat i < 2147483648)%Z ->
  (exists step number,
    individual_path F v i = fc_root F ++ "/"%char :: step ++ chars "_individual" ++ number ++ chars ".par" /\
    numeral_of step (Z.of_nat (c_steps v)) /\ 4 <= length step /\ ((Z.of_nat (c_steps v) < 10000)%Z -> length step = 4) /\
    numeral_of number (Z.of_nat i) /\ 2 <= length number /\ (i < 100 -> length number = 2)) /\
  (forall w j, (Z.of_nat (c_steps w) < 2147483648)%Z -> (Z.of_nat j < 2147483648)%Z -> individual_path F v i = individual_path F w j -> c_steps v = c_steps w /\ i = j).
Proof.
  intros F v i Hv Hi. split.
  - exists (pad_int 4 (Z.of_nat (c_steps v))), (pad_int 2 (Z.of_nat i)).
    assert (P : forall w z, (0 <= z)%Z -> 1 <= w -> numeral_of (pad_int w z) z /\ w <= length (pad_int w z) /\ ((z < 10 ^ Z.of_nat w)%Z -> length (pad_int w z) = w)).
    { intros w z Hz Hw. split; [|split; [|intros H; apply pad_exact; lia]].
      - destruct (pad_show w z Hz) as (ds & E1 & E2 & E3 & E4). rewrite E1. pose proof (numeral_show ds E2 E4) as HN. rewrite E3 in HN. exact HN.
      - unfold pad_int. destruct (Z.ltb_spec z 0); [lia|]. rewrite app_length, repeat_length. lia. }
    destruct (P 4 (Z.of_nat (c_steps v)) ltac:(lia) ltac:(lia)) as (P1 & P2 & P3), (P 2 (Z.of_nat i) ltac:(lia) ltac:(lia)) as (Q1 & Q2 & Q3).
    split; [unfold individual_path, in_root; now rewrite !int_of_small by assumption|].
    split; [exact P1|]. split; [exact P2|]. split; [intros H; apply P3; exact H|]. split; [exact Q1|]. split; [exact Q2|]. intros H. apply Q3. change (10 ^ Z.of_nat 2)%Z with 100%Z. lia.
  - intros w j Hw Hj H. apply in_root_inj in H. rewrite !int_of_small in H by assumption.
    apply pad_inj in H as [H1 H]; [|lia|lia|reflexivity|reflexivity]. apply app_inv_head in H.
    apply pad_inj in H as [H2 _]; [|lia|lia|reflexivity|reflexivity]. lia.
Qed.

(** ** Contents *)
Lemma write_individuals F E v (ips : list (nat * point)) : forall fs i p, In (i, p) ips -> NoDup (map fst ips) -> small_step v -> (forall ip, In ip ips -> (Z.of_nat (fst ip) < 2147483648)%Z) ->
  fold_left (fun fs ip => write fs (individual_path F v (fst ip)) (write_point {| sp_info := e_info E; sp_values := snd ip |})) ips fs (individual_path F v i)
  = Some (write_point {| sp_info := e_info E; sp_values := p |}).
Proof.
  induction ips as [|[j q] ips IH]; intros fs i p Hin Hn Hs Hb; [destruct Hin|]. cbn [fold_left fst snd map] in *. inversion Hn as [|? ? N1 N2]; subst.
  destruct Hin as [He|Hin].
  - injection He as -> ->. rewrite (individuals_files F E v []).
    + apply write_same.
    + intros [k r] Hk. cbn [fst]. intros He. apply (C80_file_names F v i) in He as [_ ->]; [|exact Hs|exact (Hb (i, p) (or_introl eq_refl))|exact Hs|exact (Hb (k, r) (or_intror Hk))].
      apply N1. apply in_map_iff. exists (k, r). auto.
  - apply IH; [exact Hin|exact N2|exact Hs|intros ip H; apply Hb; now right].
Qed.
Lemma seq_combine (pop : list point) : forall s, map fst (combine (seq s (length pop)) pop) = seq s (length pop).
Proof. induction pop as [|p pop IH]; intros s; [reflexivity|]. cbn. now rewrite IH. Qed.
Lemma in_combine_seq (pop : list point) : forall s i p, nth_error pop i = Some p -> In (s + i, p) (combine (seq s (length pop)) pop).
Proof.
  induction pop as [|q pop IH]; intros s [|i] p H; try discriminate H; cbn [length seq combine].
  - injection H as ->. rewrite Nat.add_0_r. now left.
  - right. rewrite <- Nat.add_succ_comm. now apply IH.
Qed.

(** With output_individual_search_points, from the moment on_pre_evaluate_population( pop ) has returned, the file of individual
    [i] holds exactly the point pop[ i ] - until a population with the same step number is reported (which happens only if the
    step has failed and is tried again).  No call of the reporter, and no clean-up, removes or changes it. *)
Theorem C80_individuals_are_on_disk : forall F E extra h r infos fs0 pre pop v mid post i p, fc_individuals F = true -> reporting E extra h r infos ->
  calls_of E extra h r = pre ++ (EPreEval pop, v) :: mid ++ post ->
  (forall pop' w, In (EPreEval pop', w) mid -> c_steps w <> c_steps v) ->
  (Z.of_nat (length pop) <= 2147483648)%Z -> (forall pop' w, In (EPreEval pop', w) mid -> (Z.of_nat (length pop') <= 2147483648)%Z) ->
  nth_error pop i = Some p ->
  exists st, reported F E fs0 infos (pre ++ (EPreEval pop, v) :: mid) = Ok st /\
    fr_files st (individual_path F v i) = Some (write_point {| sp_info := e_info E; sp_values := p |}).
Proof.
  intros F E extra h r infos fs0 pre pop v mid post i p HF HR. revert post. induction mid as [|x mid IH] using rev_ind; intros post HL Hm Hlen Hlens Hp.
  - destruct (reporting_inv F E extra h r infos fs0 pre _ HR HL) as (st & E1 & HI).
    assert (HL2 : calls_of E extra h r = (pre ++ [(EPreEval pop, v)]) ++ post) by (rewrite HL, <- app_assoc; reflexivity).
    pose proof (reporting_small _ _ _ _ _ _ _ HR HL2) as Hs. apply Forall_app in Hs as [_ Hs]. inversion Hs as [|? ? Hsv _]; subst. cbn [snd] in Hsv.
    exists (on_pre_eval F E st v pop). split; [rewrite reported_snoc, E1; reflexivity|]. unfold on_pre_eval. rewrite HF. cbn [fr_files].
    apply write_individuals; [exact (in_combine_seq pop 0 i p Hp)|rewrite seq_combine; apply seq_NoDup|exact Hsv|].
    intros [j q] Hj. apply in_combine_l in Hj. apply in_seq in Hj. cbn [fst]. lia.
  - assert (HL1 : calls_of E extra h r = pre ++ (EPreEval pop, v) :: mid ++ (x :: post)) by (rewrite HL, <- app_assoc; reflexivity).
    destruct (IH (x :: post) HL1) as (st & E1 & E2); [intros q w H; apply (Hm q), in_or_app; now left|exact Hlen|intros q w H; apply (Hlens q w), in_or_app; now left|exact Hp|].
    set (l := pre ++ (EPreEval pop, v) :: mid) in *.
    assert (HL2 : calls_of E extra h r = l ++ x :: post) by (unfold l; rewrite HL1, <- app_assoc; reflexivity).
    assert (HL3 : calls_of E extra h r = (l ++ [x]) ++ post) by (rewrite HL2, <- app_assoc; reflexivity).
    destruct (C75_changes_of_a_call F E extra h r infos fs0 l x post 0 HR HL2) as (st1 & st' & E3 & E4 & HP). assert (st1 = st) by congruence. subst st1.
    exists st'. split; [unfold l in E4; rewrite <- app_assoc in E4; exact E4|]. rewrite <- E2, <- HP. apply performs_other. intros o Ho.
    destruct (reporting_inv F E extra h r infos fs0 l _ HR HL2) as (st1 & E5 & HI). assert (st1 = st) by congruence. subst st1.
    pose proof (reporting_small _ _ _ _ _ _ _ HR HL3) as Hs. rewrite Forall_forall in Hs.
    assert (Hsv : small_step v) by (apply (Hs (EPreEval pop, v)); unfold l; apply in_or_app; left; apply in_or_app; right; now left).
    assert (Hsx : small_step (snd x)) by (apply (Hs x), in_or_app; right; now left).
    assert (Hi : i < length pop) by (apply nth_error_Some; congruence).
    destruct x as [ev w]. cbn [snd] in Hsx. 
    assert (Hx : In (ev, w) (mid ++ [(ev, w)])) by (apply in_or_app; right; now left).
    destruct ev as [| |pop'|q f|pop' fits nb| |kc].
    3: { unfold disk_ops in Ho. cbn [fst snd] in Ho. rewrite HF in Ho. apply in_concat in Ho as (a & Ha & Ho). apply in_map_iff in Ha as ([j q] & <- & Hj). rewrite (save_paths _ _ _ Ho). cbn [fst].
         intros He. apply (C80_file_names F v i) in He as [He _]; [|exact Hsv|lia|exact Hsx|].
         - exact (Hm pop' w Hx (eq_sym He)).
         - apply in_combine_l in Hj. apply in_seq in Hj. specialize (Hlens pop' w Hx). lia. }
    all: pose proof (ops_paths F E infos fs0 l st 0 _ _ o HI Ho) as K; unfold disk_ops in Ho; cbn [fst snd] in Ho, K.
    1,2,5,6: destruct K as [->|[(j & K)|[(K & _)|(K & _)]]]; [now apply individual_not_history| |discriminate K|discriminate K].
    + destruct (fc_history F); [|destruct Ho]. rewrite (save_paths _ _ _ Ho). now apply individual_not_history.
    + destruct Ho.
    + destruct (_ && _); [|destruct Ho]. unfold flush_ops in Ho. destruct (fr_open st); [|destruct Ho]. rewrite (puts_paths _ _ _ Ho). now apply individual_not_history.
    + destruct (fc_history F); [|destruct Ho]. unfold flush_ops in Ho. destruct (fr_open st); [|destruct Ho]. rewrite (puts_paths _ _ _ Ho). now apply individual_not_history.
    + clear K. destruct (new_best_ops F E infos fs0 l st _ w _ o HI Ho) as [->|(m & a & rest & K1 & _ & _ & ->)].
      * intros He. symmetry in He. revert He. now apply par_not_individual.
      * cbn [op_path]. intros He. symmetry in He. revert He. apply par_not_individual; [|exact Hsv].
        apply (new_view_small E extra h r infos l _ m HR HL2). apply (fi_new _ _ _ _ _ _ HI). rewrite K1. now left.
    + destruct (Z.leb _ _); [|destruct Ho]. unfold par_ops in Ho. destruct (let* updated := infos (length l) in sp_of_values updated (c_cur_pt w)) as [sp| |]; [|destruct Ho..]. cbn [app] in Ho.
      assert (Hpp : op_path o = par_path F w) by (destruct Ho as [<-|Ho]; [reflexivity|]; apply in_app_or in Ho as [Ho|Ho]; exact (puts_paths _ _ _ Ho)).
      rewrite Hpp. intros He. symmetry in He. revert He. now apply par_not_individual.
Qed.

(** ... and reading it (search_point::import_values, C15) restores the point. *)
Theorem C80_individuals_can_be_reloaded : forall F E extra h r infos fs0 pre pop v mid post i p eager_eof (q : search_point), fc_individuals F = true -> reporting E extra h r infos ->
  calls_of E extra h r = pre ++ (EPreEval pop, v) :: mid ++ post ->
  (forall pop' w, In (EPreEval pop', w) mid -> c_steps w <> c_steps v) ->
  (Z.of_nat (length pop) <= 2147483648)%Z -> (forall pop' w, In (EPreEval pop', w) mid -> (Z.of_nat (length pop') <= 2147483648)%Z) ->
  nth_error pop i = Some p ->
  (* a point of the objective, with rounded values, as in every search_point (C14) *)
  length p = oi_dim (e_info E) -> (forall x, In x p -> is_finite x = true /\ rounded x = x) ->
  (forall pi, In pi (oi_free (e_info E)) -> file_name (pi_name pi) /\ is_finite (pi_mean pi) = true /\ is_finite (pi_std pi) = true) ->
  NoDup (map pi_name (oi_free (e_info E))) ->
  sp_info q = e_info E -> length (sp_values q) = oi_dim (e_info E) ->
  exists st q', reported F E fs0 infos (pre ++ (EPreEval pop, v) :: mid) = Ok st /\
    import_values eager_eof q (fr_files st (individual_path F v i)) = (q', Ok (oi_dim (e_info E), 0)) /\ sp_info q' = e_info E /\ sp_values q' = p.
Proof.
  intros F E extra h r infos fs0 pre pop v mid post i p ee q HF HR HL Hm Hl Hls Hp Hd Hr Hpar Hnd Hq Hlq.
  destruct (C80_individuals_are_on_disk F E extra h r infos fs0 pre pop v mid post i p HF HR HL Hm Hl Hls Hp) as (st & E1 & E2).
  assert (W : writable {| sp_info := e_info E; sp_values := p |}).
  { destruct HR as (H0 & _). split; [cbn; congruence|]. split; [cbn; congruence|]. split; [exact Hnd|]. split; [exact Hpar|]. intros x Hx. now apply Hr. }
  destruct (C15_write_import_round_trip _ q ee W) as (q' & I1 & I2 & I3 & _ & I5); [cbn; rewrite Hq; apply Permutation_refl|rewrite Hq; exact Hlq|].
  destruct I5 as [_ I5]; [intros x Hx; now apply Hr|]. cbn [sp_info sp_values] in *. exists st, q'. split; [exact E1|]. rewrite E2. split; [exact I1|]. split; [congruence|].
  apply I5. now rewrite Hq.
Qed.

(** Without the option no such file is made, changed or removed. *)
Theorem C80_no_individuals : forall F E extra h r infos fs0 pre post, fc_individuals F = false -> reporting E extra h r infos -> calls_of E extra h r = pre ++ post ->
  exists st, reported F E fs0 infos pre = Ok st /\ forall w i, small_step w -> fr_files st (individual_path F w i) = fs0 (individual_path F w i).
Proof.
  intros F E extra h r infos fs0 pre post HF HR HL. destruct (C52_other_files_are_untouched F E extra h r infos fs0 pre post HR HL) as (st & E1 & H). exists st. split; [exact E1|].
  intros w i Hw. destruct (option_eq_dec' (fr_files st (individual_path F w i)) (fs0 (individual_path F w i))) as [He|Hn]; [exact He|]. exfalso.
  pose proof (reporting_small _ _ _ _ _ _ _ HR HL) as Hs. rewrite Forall_forall in Hs.
  destruct (H _ Hn) as [(_ & He)|[(y & Hy & _ & He)|(Hc & _)]]; [|symmetry in He|congruence].
  - revert He. now apply individual_not_history.
  - revert He. apply par_not_individual; [now apply Hs|exact Hw].
Qed.

(** ** A failing description *)
(** If make_updated_objective_info() throws when a file of a best is to be written, the optimizer catches the exception: the
    reporter and the disk are as before the call, and the calls that follow work as if it had not been made. *)
Theorem C77_failed_description : forall F E fs0 infos pre x post st w, reported F E fs0 infos pre = Ok st -> is_new_best x = true -> infos (length pre) = Throw w ->
  reported F E fs0 infos (pre ++ [x]) = Ok st /\
  reported F E fs0 infos (pre ++ x :: post) = reported F E fs0 (fun k => if Nat.ltb k (length pre) then infos k else infos (S k)) (pre ++ post).
Proof.
  intros F E fs0 infos pre [ev c] post st w HS Hx Hw. destruct ev; try discriminate Hx.
  assert (HA : reported F E fs0 infos (pre ++ [(ENewBest p f, c)]) = Ok st) by (rewrite reported_snoc, HS; cbn [report_any report fst snd]; unfold write_par_file; now rewrite Hw).
  split; [exact HA|]. replace (pre ++ (ENewBest p f, c) :: post) with ((pre ++ [(ENewBest p f, c)]) ++ post) by (rewrite <- app_assoc; reflexivity).
  set (infos' := fun k => if Nat.ltb k (length pre) then infos k else infos (S k)).
  assert (A : forall a b st k i1, report_all F E st k (a ++ b) i1 = report_all F E (report_all F E st k a i1) (k + length a) b i1).
  { induction a as [|y a IH]; intros b s k i1; cbn [app report_all length]; [now rewrite Nat.add_0_r|]. rewrite IH. f_equal. lia. }
  assert (B : forall l s k i1 i2, (forall j, j < length l -> i1 (k + j) = i2 (k + j)) -> report_all F E s k l i1 = report_all F E s k l i2).
  { induction l as [|y l IH]; intros s k i1 i2 He; [reflexivity|]. cbn [report_all]. assert (H0 : report_any F E s k y i1 = report_any F E s k y i2) by (pose proof (He 0 ltac:(cbn; lia)) as H0; rewrite Nat.add_0_r in H0; unfold report_any; now rewrite H0). rewrite H0.
    apply IH. intros j Hj. cbn [Nat.add]. rewrite <- Nat.add_succ_r. apply He. cbn [length]. lia. }
  assert (C : forall l s k, length pre <= k -> report_all F E s (S k) l infos = report_all F E s k l infos').
  { induction l as [|y l IH]; intros s k Hk; [reflexivity|]. cbn [report_all]. rewrite IH by lia. f_equal. unfold report_any, infos'. destruct (Nat.ltb_spec k (length pre)); [lia|reflexivity]. }
  unfold reported in *. rewrite (A (pre ++ [(ENewBest p f, c)]) post), (A pre post), HA. rewrite (B pre (Ok (fr_init fs0)) 0 infos' infos), HS.
  - rewrite app_length, Nat.add_0_l. cbn [length]. rewrite Nat.add_1_r. apply C. lia.
  - intros j Hj. unfold infos'. cbn [Nat.add]. destruct (Nat.ltb_spec j (length pre)); [reflexivity|lia].
Qed.

(** ** Concrete runs *)
Definition xline (v : string) : string := ("x" ++ string_of_list_ascii [tab] ++ v ++ string_of_list_ascii [tab] ++ "1" ++ string_of_list_ascii [tab] ++ "1" ++ string_of_list_ascii [tab; newline])%string.
Example C80_nonvacuous :
  fc_individuals (ex_config (flit 5 (-1)) 2) = true /\ reporting (ex_env [quiet]) [] ex_steps 0 ex_infos /\
  (exists pre pop v mid p, calls_of (ex_env [quiet]) [] ex_steps 0 = pre ++ (EPreEval pop, v) :: mid ++ [] /\ c_steps v = 1 /\ nth_error pop 1 = Some p /\ length mid = 16 /\
    (forall pop' w, In (EPreEval pop', w) mid -> c_steps w <> c_steps v)) /\
  on_disk (reported (ex_config (flit 5 (-1)) 2) (ex_env [quiet]) empty_disk ex_infos (calls_of (ex_env [quiet]) [] ex_steps 0))
    (fun fs => text_is (fs (chars "out/0001_individual00.par")) (xline "5") && text_is (fs (chars "out/0001_individual01.par")) (xline "2") &&
       match fs (chars "out/0001_individual02.par") with None => true | _ => false end) = true.
Proof.
  split; [reflexivity|]. split; [apply ex_reporting|]. split; [|vm_compute; reflexivity].
  set (L := calls_of (ex_env [quiet]) [] ex_steps 0).
  assert (H : match nth_error L 7 with Some (EPreEval pop, v) => Nat.eqb (c_steps v) 1 && Nat.eqb (length pop) 2 && forallb (fun x => match fst x with EPreEval _ => negb (Nat.eqb (c_steps (snd x)) 1) | _ => true end) (skipn 8 L) && Nat.eqb (length L) 24 | _ => false end = true) by (vm_compute; reflexivity).
  clearbody L. destruct (nth_error L 7) as [[[] v]|] eqn:EN; try discriminate H.
  apply andb_prop in H as [H H4]. apply andb_prop in H as [H H3]. apply andb_prop in H as [H1 H2]. apply Nat.eqb_eq in H1, H2, H4.
  apply nth_error_split in EN as (pre & post & -> & Hp). destruct pop as [|a [|b pop]]; try discriminate H2.
  exists pre, (a :: b :: pop), v, post, b. split; [now rewrite app_nil_r|]. split; [exact H1|]. split; [reflexivity|].
  rewrite app_length in H4. cbn [length] in H4. split; [lia|].
  replace (skipn 8 (pre ++ (EPreEval (a :: b :: pop), v) :: post)) with post in H3.
  2: { replace 8 with (length pre + 1) by lia. rewrite skipn_app, skipn_all2 by lia. replace (length pre + 1 - length pre) with 1 by lia. reflexivity. }
  rewrite forallb_forall in H3. intros pop' w Hin. specialize (H3 _ Hin). cbn [fst snd] in H3. rewrite H1. intros He. rewrite He in H3. discriminate H3.
Qed.
(** A step that failed and is tried again with a smaller population: the files of the individuals the second attempt
    does not have stay, under the number of the step that has been completed without them. *)
Theorem C80_only_evaluated_individuals_refuted : exists F E h r infos v w pop0 pop1 mid pre post st, fc_individuals F = true /\ reporting E [] h r infos /\
  calls_of E [] h r = pre ++ (EPreEval pop0, v) :: mid ++ (EPreEval pop1, w) :: post /\ c_steps w = c_steps v /\ In EPostStep (map fst post) /\ length pop1 = 1 /\
  reported F E empty_disk infos (calls_of E [] h r) = Ok st /\ fr_files st (individual_path F w 1) <> None.
Proof.
  set (F := ex_config (flit 5 (-1)) 2). set (E := ex_env [quiet]). set (h := [OpStep bad_step; OpStep (one_value (fofZ 7))]).
  assert (HR : reporting E [] h 0 ex_infos).
  { split; [discriminate|]. split; [constructor; [apply ex_wf_bad|constructor; [|constructor]]|].
    - split; [reflexivity|]. split; [discriminate|]. repeat constructor.
    - split; [split; [cbn; lia|]; intros j f Hj; lia|]. split; [intros k; exists ex_info; split; reflexivity|]. vm_compute. reflexivity. }
  assert (H : match find (fun k => match nth_error (calls_of E [] h 0) k with Some (EPreEval _, _) => true | _ => false end) (seq 0 10) with
    | Some k => match nth_error (calls_of E [] h 0) k with Some (EPreEval pop0, v) =>
        match find (fun m => match nth_error (skipn (S k) (calls_of E [] h 0)) m with Some (EPreEval _, _) => true | _ => false end) (seq 0 10) with
        | Some m => match nth_error (skipn (S k) (calls_of E [] h 0)) m with Some (EPreEval pop1, w) =>
            Nat.eqb (c_steps w) (c_steps v) && existsb (fun x => match fst x with EPostStep => true | _ => false end) (skipn (S m) (skipn (S k) (calls_of E [] h 0))) && Nat.eqb (length pop1) 1 &&
            match reported F E empty_disk ex_infos (calls_of E [] h 0) with Ok st => match fr_files st (individual_path F w 1) with Some _ => true | None => false end | _ => false end
          | _ => false end
        | None => false end
      | _ => false end
    | None => false end = true) by (vm_compute; reflexivity).
  set (o := reported F E empty_disk ex_infos (calls_of E [] h 0)) in *. set (L := calls_of E [] h 0) in *.
  assert (HO : reported F E empty_disk ex_infos L = o) by reflexivity. assert (HC : calls_of E [] h 0 = L) by reflexivity. clearbody o L.
  destruct (find _ (seq 0 10)) as [k|]; [|discriminate H]. destruct (nth_error L k) as [[[] v]|] eqn:EN; try discriminate H.
  destruct (find _ (seq 0 10)) as [m|]; [|discriminate H]. destruct (nth_error (skipn (S k) L) m) as [[[] w]|] eqn:EM; try discriminate H.
  apply andb_prop in H as [H H4]. apply andb_prop in H as [H H3]. apply andb_prop in H as [H1 H2]. apply Nat.eqb_eq in H1, H3.
  destruct o as [st|e|]; [|discriminate H4..].
  apply nth_error_split in EN as (pre & tl & HL & Hp). apply nth_error_split in EM as (mid & post & HM & Hm).
  assert (HT : skipn (S k) L = tl).
  { rewrite HL. replace (S k) with (length pre + 1) by lia. rewrite skipn_app, skipn_all2 by lia. replace (length pre + 1 - length pre) with 1 by lia. reflexivity. }
  rewrite HT in HM, H2. assert (HP : skipn (S m) tl = post).
  { rewrite HM. replace (S m) with (length mid + 1) by lia. rewrite skipn_app, skipn_all2 by lia. replace (length mid + 1 - length mid) with 1 by lia. reflexivity. }
  rewrite HP in H2. apply existsb_exists in H2 as (x & Hx & Hx2).
  exists F, E, h, 0, ex_infos, v, w, pop, pop0, mid, pre, post, st. split; [reflexivity|]. split; [exact HR|]. split; [rewrite HC, HL, HM; reflexivity|]. split; [exact H1|].
  split; [apply in_map_iff; exists x; split; [destruct (fst x); (discriminate Hx2 || reflexivity)|exact Hx]|]. split; [exact H3|]. split; [rewrite HC; exact HO|].
  intros HN. rewrite HN in H4. discriminate H4.
Qed.

Print Assumptions C80_file_names.
Print Assumptions C80_individuals_are_on_disk.
Print Assumptions C80_individuals_can_be_reloaded.
Print Assumptions C80_no_individuals.
Print Assumptions C80_only_evaluated_individuals_refuted.
Print Assumptions C77_failed_description.
