(** * C77: failing file operations of file_reporter. *)
From Coq Require Import ZArith Bool Lia Sorted Permutation.
From Flocq Require Import Core BinarySingleNaN.
From Verif Require Import Prelude Flt FltFacts Flt32 Round8 Round8Facts ShowNum ShowNumFacts ParInfo ObjInfo SearchPoint Properties_SearchPoint Num MathTools Optimizer OptimizerFacts
  Properties_Optimizer Properties_Optimizer2 Properties_Optimizer4 FileReporter FileReporterFacts Properties_FileReporter Properties_FileReporter2 Properties_FileReporter3 Properties_FileReporter4
  Properties_FileReporter5 FileCrash Properties_Crash.

(** ** Specification *)
(** None of the changes of file [q] that the calls [pre] make has failed. *)
Definition spared (F : fr_config) (E : env) (early : nat -> nat) (fails : nat -> nat -> bool) (fs0 : files) (infos : nat -> outcome obj_info) (pre : list (event * core)) (q : path) : Prop :=
  forall a x b st j o, pre = a ++ x :: b -> reported F E fs0 infos a = Ok st ->
    nth_error (disk_ops F E (early (length a)) st x (infos (length a))) j = Some o -> op_path o = q -> fails (length a) j = false.
(** What the reporter remembers. *)
Definition same_books (a b : fr) : Prop := fr_recent a = fr_recent b /\ fr_last a = fr_last b /\ fr_open a = fr_open b /\ fr_buffer a = fr_buffer b.

(** ** Lemmas *)
Lemma perform_at fs fs' o q : fs q = fs' q -> perform fs o q = perform fs' o q.
Proof.
  intros H. destruct o as [p|p c|p]; cbn [perform].
  - unfold write. now destruct (path_eqb q p).
  - destruct (list_eq_dec Ascii.ascii_dec q p) as [->|N].
    + rewrite H. destruct (fs' p) as [t|] eqn:Ep; [now rewrite !write_same|congruence].
    + destruct (fs p), (fs' p); rewrite ?write_other by exact N; exact H.
  - unfold erase. now destruct (path_eqb q p).
Qed.
Lemma performs_surviving q ops : forall bad fs fs', (forall j o, nth_error ops j = Some o -> op_path o = q -> bad j = false) -> fs q = fs' q ->
  performs fs (surviving bad ops) q = performs fs' ops q.
Proof.
  induction ops as [|o ops IH]; intros bad fs fs' Hb H; [exact H|]. cbn [surviving]. rewrite performs_app. change (performs fs' (o :: ops)) with (performs (perform fs' o) ops).
  apply IH; [intros j; apply (Hb (S j))|]. destruct (bad 0) eqn:E0; cbn [performs fold_left]; [|now apply perform_at].
  rewrite perform_other; [exact H|]. intros He. rewrite (Hb 0 o eq_refl (eq_sym He)) in E0. discriminate E0.
Qed.
Lemma same_ops F E early a b x info : same_books a b -> disk_ops F E early a x info = disk_ops F E early b x info.
Proof. intros (H1 & H2 & H3 & H4). unfold disk_ops, par_ops, flush_ops. now rewrite H1, H2, H3, H4. Qed.
Lemma write_par_same F E a b c info tc : same_books a b ->
  match write_par_file F E a c info tc, write_par_file F E b c info tc with Ok a', Ok b' => same_books a' b' | Throw _, Throw _ => True | Undef, Undef => True | _, _ => False end.
Proof.
  intros (H1 & H2 & H3 & H4). unfold write_par_file. destruct info as [u| |]; cbn [obind]; try exact I. destruct (sp_of_values u (c_cur_pt c)) as [sp| |]; cbn [obind]; try exact I.
  destruct tc; cbn [obind fst snd]; [|unfold same_books; cbn; auto]. rewrite H1. set (rec := fr_recent b ++ [(par_path F c, c_cur_fit c)]). clearbody rec.
  destruct rec as [|e1 [|e2 [|e3 [|e4 l]]]]; cbn [cleanup obind fst snd]; unfold same_books; cbn; auto. destruct (_ && _); cbn; auto.
Qed.
Lemma report_same F E a b x info : same_books a b ->
  match report F E a x info, report F E b x info with Ok a', Ok b' => same_books a' b' | Throw _, Throw _ => True | Undef, Undef => True | _, _ => False end.
Proof.
  intros H. pose proof H as (H1 & H2 & H3 & H4). unfold report. destruct (fst x) as [| |pop|p f|pop fits nb| |k]; cbv zeta.
  - unfold on_start. destruct (fc_history F); unfold same_books in *; cbn; auto.
  - exact H.
  - unfold on_pre_eval. destruct (fc_individuals F); unfold same_books in *; cbn; auto.
  - now apply write_par_same.
  - unfold on_post_eval. rewrite H2. destruct (Z.leb _ _); [now apply write_par_same|exact H].
  - unfold on_post_step. destruct (fc_history F); [|exact H]. unfold flush. cbn [fr_open fr_files fr_recent fr_last fr_buffer]. rewrite H3, H4. destruct (Nat.eqb _ _); [destruct (fr_open b)|]; unfold same_books; cbn; auto.
  - unfold on_stop, flush. rewrite H3. destruct (fc_history F); [|exact H]. destruct (fr_open b); [|exact H]. unfold same_books; cbn; auto.
Qed.
Lemma faulty_all_snoc F E early fails infos l x : forall st k, faulty_all F E early fails st k (l ++ [x]) infos = faulty_any F E early fails (faulty_all F E early fails st k l infos) (k + length l) x infos.
Proof.
  induction l as [|y l IH]; intros st k; cbn [app faulty_all length]; [now rewrite Nat.add_0_r|]. rewrite IH. f_equal. lia.
Qed.
Lemma faulty_snoc F E early fails fs infos l x : faulty_reported F E early fails fs infos (l ++ [x]) = faulty_any F E early fails (faulty_reported F E early fails fs infos l) (length l) x infos.
Proof. apply faulty_all_snoc. Qed.
Lemma spared_prefix F E early fails fs0 infos l x q : spared F E early fails fs0 infos (l ++ [x]) q -> spared F E early fails fs0 infos l q.
Proof. intros H a y b st j o -> . apply (H a y (b ++ [x])). now rewrite <- app_assoc. Qed.

(** ** Only the file itself *)
(** Whatever file operations fail: the reporter goes on as if none had, and every file of which no change has failed is exactly
    as it would be without any failures. *)
Theorem C77_only_own_file : forall F E extra h r infos fs0 pre post early fails, reporting E extra h r infos -> calls_of E extra h r = pre ++ post ->
  exists st ft, reported F E fs0 infos pre = Ok st /\ faulty_reported F E early fails fs0 infos pre = Ok ft /\ same_books ft st /\
    forall q, spared F E early fails fs0 infos pre q -> fr_files ft q = fr_files st q.
Proof.
  intros F E extra h r infos fs0 pre. induction pre as [|x pre IH] using rev_ind; intros post early fails HR HL.
  - exists (fr_init fs0), (fr_init fs0). split; [reflexivity|]. split; [reflexivity|]. split; [unfold same_books; auto|]. reflexivity.
  - assert (HL1 : calls_of E extra h r = pre ++ x :: post) by (rewrite HL, <- app_assoc; reflexivity).
    destruct (IH (x :: post) early fails HR HL1) as (st & ft & E1 & E2 & HB & HQ).
    destruct (C75_changes_of_a_call F E extra h r infos fs0 pre x post (early (length pre)) HR HL1) as (st2 & st' & E3 & E4 & HP). assert (st2 = st) by congruence. subst st2.
    pose proof (report_same F E ft st x (infos (length pre)) HB) as HS. pose proof E4 as E5. rewrite reported_snoc, E1 in E5. cbn [report_any] in E5.
    destruct (report F E st x (infos (length pre))) as [sr|w|] eqn:ER; [|exfalso|discriminate E5].
    + assert (sr = st') by congruence. subst sr. destruct (report F E ft x (infos (length pre))) as [fr1|w|] eqn:EF; [|destruct HS..].
      eexists st', _. split; [exact E4|]. split; [rewrite faulty_snoc, E2; cbn [faulty_any]; unfold faulty_report; rewrite EF; cbn [obind]; reflexivity|]. split; [exact HS|].
      cbn [fr_files]. intros q Hq. rewrite <- HP. rewrite (same_ops F E _ ft st x _ HB). apply performs_surviving; [|apply HQ; exact (spared_prefix _ _ _ _ _ _ _ _ _ Hq)].
      intros j o Hj Ho. exact (Hq pre x [] st j o eq_refl E1 Hj Ho).
    + pose proof HR as (_ & _ & _ & Hi & _). destruct (reporting_inv F E extra h r infos fs0 pre _ HR HL1) as (st2 & E6 & HI). assert (st2 = st) by congruence. subst st2.
      destruct (report_step F E infos fs0 pre st x (length pre) Hi (reporting_small _ _ _ _ _ _ _ HR HL) (reporting_orderly _ _ _ _ _ _ _ HR HL) HI) as (s3 & E7 & _). congruence.
Qed.

(** ** Best files *)
(** the files a call changes *)
Lemma ops_paths F E infos fs0 pre st early x info o : fr_inv F E infos fs0 pre st -> In o (disk_ops F E early st x info) ->
  op_path o = history_path F \/ (exists i, op_path o = individual_path F (snd x) i) \/ (writes_par x = true /\ op_path o = par_path F (snd x)) \/
  (is_new_best x = true /\ exists m a rest, kept_bests F E pre = m :: a :: rest /\ insignificant F E (c_cur_fit a) (c_cur_fit m) = true /\ insignificant F E (c_cur_fit m) (c_cur_fit (snd x)) = true /\ o = DRemove (par_path F m)).
Proof.
  intros HI Ho. unfold disk_ops in Ho. destruct x as [ev c]. cbn [fst snd] in *. destruct ev as [| |pop|p f|pop fits nb| |k].
  - destruct (fc_history F); [|destruct Ho]. left. exact (save_paths _ _ _ Ho).
  - destruct Ho.
  - destruct (fc_individuals F); [|destruct Ho]. right. left. apply in_concat in Ho as (l & Hl & Ho). apply in_map_iff in Hl as (ip & <- & _). exists (fst ip). exact (save_paths _ _ _ Ho).
  - right. right. destruct (new_best_ops F E infos fs0 pre st early c _ o HI Ho) as [->|K]; [left; auto|right; auto].
  - destruct (Z.leb _ _); [|destruct Ho]. right. right. left. split; [reflexivity|]. unfold par_ops in Ho. destruct (let* updated := info in sp_of_values updated (c_cur_pt c)) as [sp| |]; [|destruct Ho..]. cbn [app] in Ho.
    destruct Ho as [<-|Ho]; [reflexivity|]. apply in_app_or in Ho as [Ho|Ho]; exact (puts_paths _ _ _ Ho).
  - destruct (_ && _); [|destruct Ho]. unfold flush_ops in Ho. destruct (fr_open st); [|destruct Ho]. left. exact (puts_paths _ _ _ Ho).
  - destruct (fc_history F); [|destruct Ho]. unfold flush_ops in Ho. destruct (fr_open st); [|destruct Ho]. left. exact (puts_paths _ _ _ Ho).
Qed.
(** A best that is kept was kept all the time since it was reported. *)
Lemma kept_since F E u vs : forall kept, ~ In u vs -> In u (fold_left (keep F E) vs kept) -> In u kept.
Proof.
  induction vs as [|v vs IH]; intros kept Hn H; [exact H|]. cbn [fold_left] in H. apply IH in H; [|intros Hi; apply Hn; now right]. apply keep_in in H as [->|H]; [destruct Hn; now left|exact H].
Qed.
Lemma new_best_views_in l y : In y l -> is_new_best y = true -> In (snd y) (new_best_views l).
Proof. intros H1 H2. unfold new_best_views. apply in_map. apply filter_In. auto. Qed.
(** no call but the one that reports it changes the file of a best that is kept *)
Lemma only_own_call F E extra h r infos fs0 pre p f u more post early fails :
  reporting E extra h r infos -> calls_of E extra h r = (pre ++ (ENewBest p f, u) :: more) ++ post -> (1 <= fc_max_steps F)%Z ->
  In u (kept_bests F E (pre ++ (ENewBest p f, u) :: more)) ->
  (forall st j o, reported F E fs0 infos pre = Ok st -> nth_error (disk_ops F E (early (length pre)) st (ENewBest p f, u) (infos (length pre))) j = Some o -> op_path o = par_path F u -> fails (length pre) j = false) ->
  spared F E early fails fs0 infos (pre ++ (ENewBest p f, u) :: more) (par_path F u).
Proof.
  intros HR HL Hm Hu Hown a y b st j o Hsplit HS Hj Ho.
  set (x := (ENewBest p f, u)) in *.
  assert (HO : orderly E (pre ++ x :: more)) by exact (reporting_orderly _ _ _ _ _ _ _ HR HL).
  pose proof (reporting_small _ _ _ _ _ _ _ HR HL) as Hsm. rewrite Forall_forall in Hsm.
  assert (Hsu : small_step u) by (apply (Hsm x), in_or_app; right; now left).
  assert (HLa : calls_of E extra h r = a ++ y :: b ++ post) by (rewrite HL, Hsplit, <- app_assoc; reflexivity).
  destruct (reporting_inv F E extra h r infos fs0 a _ HR HLa) as (st2 & E1 & HI). assert (st2 = st) by congruence. subst st2.
  assert (Hsy : small_step (snd y)) by (apply Hsm; rewrite Hsplit; apply in_or_app; right; now left).
  apply nth_error_In in Hj as Hin.
  destruct (app_eq_app _ _ _ _ Hsplit) as (l & [(Hl1 & Hl2)|(Hl1 & Hl2)]).
  - destruct l as [|z l].
    + cbn [app] in Hl2. injection Hl2 as -> ->. rewrite app_nil_r in Hl1. subst a. exact (Hown st j o HS Hj Ho).
    + cbn [app] in Hl2. injection Hl2 as <- ->. (* y is earlier *)
      exfalso. pose proof (HO pre x more eq_refl) as HN. cbn [next_ok x fst snd] in HN. destruct HN as (_ & _ & _ & N4).
      assert (Hya : In y pre) by (rewrite Hl1; apply in_or_app; right; now left).
      destruct (ops_paths F E infos fs0 a st _ y _ o HI Hin) as [H|[(i & H)|[(H1 & H2)|(H1 & m & d & rest & K & _ & _ & ->)]]].
      * apply (par_not_history F u Hsu). congruence.
      * apply (par_not_individual F u (snd y) i Hsu Hsy). congruence.
      * apply orb_prop in H1. specialize (N4 y Hya H1). rewrite Ho in H2. apply par_path_step in H2; [|exact Hsu|exact Hsy]. lia.
      * cbn [op_path] in Ho. assert (Hmn : In m (new_best_views a)) by (apply (fi_new _ _ _ _ _ _ HI); rewrite K; now left).
        apply new_best_view_in in Hmn as (w & W1 & W2 & <-). assert (Hw : In w pre) by (rewrite Hl1; apply in_or_app; now left). specialize (N4 w Hw (or_introl W2)).
        apply par_path_step in Ho; [lia|apply Hsm; apply in_or_app; now left|exact Hsu].
  - destruct l as [|z l].
    + cbn [app] in Hl2. injection Hl2 as <- <-. rewrite app_nil_r in Hl1. subst a. exact (Hown st j o HS Hj Ho).
    + cbn [app] in Hl2. injection Hl2 as <- Hmore. (* y is later *)
      exfalso.
      assert (Hlater : forall w2, In w2 (new_best_views (l ++ y :: b)) -> c_steps u < c_steps w2).
      { intros w2 Hw2. rewrite <- Hmore in Hw2. apply new_best_view_in in Hw2 as (w & W1 & W2 & <-). apply in_split in W1 as (c1 & c2 & ->).
        pose proof (HO (pre ++ x :: c1) w c2) as HN. rewrite <- app_assoc in HN. cbn [app] in HN. specialize (HN eq_refl). destruct w as [ev cw]. destruct ev; try discriminate W2. cbn [next_ok fst snd] in HN. destruct HN as (_ & _ & _ & N4).
        apply (N4 x); [apply in_or_app; right; now left|now left]. }
      assert (Hkept : forall l1 l2, l ++ y :: b = l1 ++ l2 -> In u (kept_bests F E (pre ++ x :: l1))).
      { intros l1 l2 El. rewrite Hmore, El in Hu. replace (pre ++ x :: l1 ++ l2) with ((pre ++ x :: l1) ++ l2) in Hu by (rewrite <- app_assoc; reflexivity).
        unfold kept_bests in Hu. unfold new_best_views at 1 in Hu. rewrite filter_app, map_app, fold_left_app in Hu. apply kept_since in Hu; [exact Hu|].
        intros Hin2. change (In u (new_best_views l2)) in Hin2. assert (Hl : In u (new_best_views (l ++ y :: b))) by (rewrite El; unfold new_best_views in *; rewrite filter_app, map_app; apply in_or_app; now right).
        specialize (Hlater u Hl). lia. }
      assert (Hka : In u (kept_bests F E a)) by (rewrite Hl1; apply (Hkept l (y :: b)); reflexivity).
      pose proof (fi_new _ _ _ _ _ _ HI u Hka) as Hun. destruct (is_new_best y) eqn:Ey.
      * destruct (ops_paths F E infos fs0 a st _ y _ o HI Hin) as [H|[(i & H)|[(H1 & H2)|(_ & m & d & rest & K & K1 & K2 & ->)]]].
        -- apply (par_not_history F u Hsu). congruence.
        -- apply (par_not_individual F u (snd y) i Hsu Hsy). congruence.
        -- rewrite Ho in H2. apply par_path_step in H2; [|exact Hsu|exact Hsy]. assert (c_steps u < c_steps (snd y)); [|lia]. apply Hlater, new_best_views_in; [apply in_or_app; right; now left|exact Ey].
        -- cbn [op_path] in Ho. assert (Hm2 : small_step m). { assert (Hmn : In m (new_best_views a)) by (apply (fi_new _ _ _ _ _ _ HI); rewrite K; now left). apply (new_view_small _ _ _ _ _ _ _ _ HR HLa Hmn). }
           apply par_path_step in Ho; [|exact Hm2|exact Hsu].
           assert (Hk2 : In u (kept_bests F E (a ++ [y]))). { rewrite Hl1, <- app_assoc. cbn [app]. apply (Hkept (l ++ [y]) b). now rewrite <- app_assoc. }
           rewrite kept_snoc, Ey, K in Hk2. cbn [keep] in Hk2. rewrite K1, K2 in Hk2. cbn [andb] in Hk2.
           pose proof (fi_sorted _ _ _ _ _ _ HI) as HSo. rewrite K in HSo. apply StronglySorted_inv in HSo as [_ HSo]. rewrite Forall_forall in HSo.
           destruct Hk2 as [Hk2|Hk2]; [assert (c_steps u < c_steps (snd y)) by (apply Hlater, new_best_views_in; [apply in_or_app; right; now left|exact Ey]); rewrite Hk2 in *; lia|].
           specialize (HSo u Hk2). lia.
      * exact (quiet_ops F E extra h r infos fs0 a y (b ++ post) st _ (length a) u HR HLa Hm HI Ey Hun o Hin (eq_sym Ho)).
Qed.
(** A best whose own file was written without failures, and whose file would be there if nothing else had failed, is on the
    disk: whatever other file operations failed, before or after. *)
Theorem C77_kept_bests : forall F E extra h r infos fs0 pre p f u more post early fails,
  reporting E extra h r infos -> calls_of E extra h r = (pre ++ (ENewBest p f, u) :: more) ++ post -> (1 <= fc_max_steps F)%Z ->
  (forall st j o, reported F E fs0 infos pre = Ok st -> nth_error (disk_ops F E (early (length pre)) st (ENewBest p f, u) (infos (length pre))) j = Some o -> op_path o = par_path F u -> fails (length pre) j = false) ->
  In u (kept_bests F E (pre ++ (ENewBest p f, u) :: more)) ->
  exists ft, faulty_reported F E early fails fs0 infos (pre ++ (ENewBest p f, u) :: more) = Ok ft /\ file_holds F E infos (fr_files ft) u.
Proof.
  intros F E extra h r infos fs0 pre p f u more post early fails HR HL Hm Hown Hu.
  destruct (C77_only_own_file F E extra h r infos fs0 _ _ early fails HR HL) as (st & ft & E1 & E2 & _ & HQ). exists ft. split; [exact E2|].
  destruct (reporting_inv F E extra h r infos fs0 _ _ HR HL) as (st2 & E3 & HI). assert (st2 = st) by congruence. subst st2.
  pose proof (fi_kept _ _ _ _ _ _ HI u Hu) as Hh. unfold file_holds in *. rewrite HQ; [exact Hh|]. exact (only_own_call F E extra h r infos fs0 pre p f u more post early fails HR HL Hm Hu Hown).
Qed.
(** In particular, when the disk is full from some time on: every best whose file was there at that time, except possibly the one reported
    last, stays there for ever. *)
Theorem C77_full_disk : forall F E extra h r infos fs0 pre more post early fails vs v u,
  reporting E extra h r infos -> calls_of E extra h r = (pre ++ more) ++ post -> (1 <= fc_max_steps F)%Z ->
  (forall k j, k < length pre -> fails k j = false) -> new_best_views pre = vs ++ [v] -> In u (kept_bests F E pre) ->
  (u <> v \/ forall y, In y more -> is_new_best y = false) ->
  exists ft, faulty_reported F E early fails fs0 infos (pre ++ more) = Ok ft /\ file_holds F E infos (fr_files ft) u.
Proof.
  intros F E extra h r infos fs0 pre more post early fails vs v u HR HL Hm Hf Hv Hu Huv.
  assert (HL1 : calls_of E extra h r = pre ++ more ++ post) by (rewrite HL, <- app_assoc; reflexivity).
  destruct (reporting_inv F E extra h r infos fs0 pre _ HR HL1) as (st & _ & HI). pose proof (fi_new _ _ _ _ _ _ HI u Hu) as Hun.
  apply new_best_view_in in Hun as ([ev c] & Y1 & Y2 & Y3). cbn [snd] in Y3. subst c. destruct ev as [| | |p f| | |]; try discriminate Y2. apply in_split in Y1 as (a & b & ->).
  assert (Hk : In u (kept_bests F E ((a ++ (ENewBest p f, u) :: b) ++ more))).
  { destruct Huv as [Huv|Huv]; [|rewrite kept_quiet; [exact Hu|exact Huv]]. destruct (last_kept F E _ vs v Hv) as (rest & K). rewrite K in Hu. destruct Hu as [Hu|Hu]; [now destruct Huv|].
    unfold kept_bests. unfold new_best_views. rewrite filter_app, map_app, fold_left_app. apply keep_tail_fold. fold (new_best_views (a ++ (ENewBest p f, u) :: b)). fold (kept_bests F E (a ++ (ENewBest p f, u) :: b)). rewrite K. exact Hu. }
  rewrite <- app_assoc in *. cbn [app] in *. apply (C77_kept_bests F E extra h r infos fs0 a p f u (b ++ more) post early fails HR); auto.
  - rewrite HL1, !app_assoc. cbn [app]. rewrite <- !app_assoc. cbn [app]. rewrite <- app_assoc. reflexivity.
  - intros s j o _ _ _. apply Hf. rewrite app_length. cbn [length]. lia.
Qed.
(** So there is always a best on the disk, if the first one could be written. *)
Theorem C77_first_best : forall F E extra h r infos fs0 pre p f u more post early fails,
  reporting E extra h r infos -> calls_of E extra h r = (pre ++ (ENewBest p f, u) :: more) ++ post -> (1 <= fc_max_steps F)%Z ->
  new_best_views pre = [] -> (forall j, fails (length pre) j = false) ->
  exists ft, faulty_reported F E early fails fs0 infos (pre ++ (ENewBest p f, u) :: more) = Ok ft /\ file_holds F E infos (fr_files ft) u.
Proof.
  intros F E extra h r infos fs0 pre p f u more post early fails HR HL Hm Hn Hf. apply (C77_kept_bests F E extra h r infos fs0 pre p f u more post early fails HR HL Hm).
  - intros st j o _ _ _. apply Hf.
  - apply (C52_first_best_is_kept F E _ u (new_best_views more)). unfold new_best_views in *. rewrite filter_app, map_app, Hn. reflexivity.
Qed.

(** ** Concrete failures *)
(** A single file that cannot be written can cost two bests: the file of the best before is removed nevertheless. *)
Definition gone (o : outcome fr) (a b : path) : bool := match o with Ok st => match fr_files st a, fr_files st b with None, None => true | _, _ => false end | _ => false end.
Definition there (o : outcome fr) (a : path) : bool := match o with Ok st => match fr_files st a with Some _ => true | None => false end | _ => false end.
Theorem C77_one_failure_costs_two_bests_refuted : exists F E h r infos pre p f c post early fails vs v ft,
  reporting E [] h r infos /\ calls_of E [] h r = (pre ++ [(ENewBest p f, c)]) ++ post /\ (1 <= fc_max_steps F)%Z /\ new_best_views pre = vs ++ [v] /\
  (forall k j, k <> length pre -> fails k j = false) /\
  (forall st, reported F E empty_disk infos pre = Ok st -> exists t, fr_files st (par_path F v) = Some t) /\
  faulty_reported F E early fails empty_disk infos (pre ++ [(ENewBest p f, c)]) = Ok ft /\ fr_files ft (par_path F v) = None /\ fr_files ft (par_path F c) = None.
Proof.
  set (F := ex_config (flit 6 (-1)) 2). set (E := ex_env [quiet]). set (fails := fun k j : nat => Nat.eqb k 13 && negb (Nat.eqb j 1)).
  set (L := calls_of E [] ex_steps 0).
  assert (B : (match nth_error L 13, rev (new_best_views (firstn 13 L)) with
    | Some x, v :: _ => is_new_best x && there (reported F E empty_disk ex_infos (firstn 13 L)) (par_path F v) && gone (faulty_reported F E (fun _ => 0) fails empty_disk ex_infos (firstn 13 L ++ [x])) (par_path F v) (par_path F (snd x)) | _, _ => false end) = true) by (vm_compute; reflexivity).
  assert (HL : calls_of E [] ex_steps 0 = L) by reflexivity. clearbody L.
  destruct (nth_error L 13) as [[ev c]|] eqn:EN; [|discriminate B]. destruct (rev (new_best_views (firstn 13 L))) as [|v vs] eqn:EV; [discriminate B|].
  apply andb_prop in B as [B B3]. apply andb_prop in B as [B1 B2]. destruct ev as [| | |p f| | |]; try discriminate B1. cbn [snd] in *.
  apply nth_error_split in EN as (pre & post & -> & EL).
  assert (Hpre : firstn 13 (pre ++ (ENewBest p f, c) :: post) = pre) by (rewrite <- EL, firstn_app, Nat.sub_diag, firstn_all, firstn_O, app_nil_r; reflexivity). rewrite Hpre in *.
  set (o := faulty_reported F E (fun _ => 0) fails empty_disk ex_infos (pre ++ [(ENewBest p f, c)])) in *. destruct o as [ft|w|] eqn:EO; [|discriminate B3|discriminate B3]. cbn [gone] in B3.
  exists F, E, ex_steps, 0, ex_infos, pre, p, f, c, post, (fun _ => 0), fails, (rev vs), v, ft. split; [apply ex_reporting|]. split; [rewrite HL, <- app_assoc; reflexivity|]. split; [cbn; lia|].
  split; [rewrite <- (rev_involutive (new_best_views pre)), EV; reflexivity|]. split; [intros k j Hk; unfold fails; rewrite EL in Hk; apply Nat.eqb_neq in Hk; now rewrite Hk|].
  split; [|split; [exact EO|]].
  - intros st Hst. rewrite Hst in B2. cbn [there] in B2. destruct (fr_files st (par_path F v)) as [t|]; [eauto|discriminate B2].
  - destruct (fr_files ft (par_path F v)); [discriminate B3|]. destruct (fr_files ft (par_path F c)); [discriminate B3|]. split; reflexivity.
Qed.
(** In the same run the first best stays, as [C77_full_disk] and [C77_first_best] say. *)
Example C77_nonvacuous : exists pre p f u more post, reporting (ex_env [quiet]) [] ex_steps 0 ex_infos /\ calls_of (ex_env [quiet]) [] ex_steps 0 = (pre ++ (ENewBest p f, u) :: more) ++ post /\
  (1 <= fc_max_steps (ex_config (flit 6 (-1)) 2))%Z /\ new_best_views pre = [] /\ length (new_best_views more) = 2 /\ par_path (ex_config (flit 6 (-1)) 2) u = chars "out/0000_4.000_3.000.par".
Proof.
  set (F := ex_config (flit 6 (-1)) 2). set (E := ex_env [quiet]). set (L := calls_of E [] ex_steps 0).
  assert (B : (match nth_error L 3, new_best_views (firstn 3 L) with
    | Some x, [] => is_new_best x && Nat.eqb (length (new_best_views (skipn 4 L))) 2 && path_eqb (par_path F (snd x)) (chars "out/0000_4.000_3.000.par") | _, _ => false end) = true) by (vm_compute; reflexivity).
  assert (HL : calls_of E [] ex_steps 0 = L) by reflexivity. clearbody L.
  destruct (nth_error L 3) as [[ev c]|] eqn:EN; [|discriminate B]. destruct (new_best_views (firstn 3 L)) as [|] eqn:EV; [|discriminate B].
  apply andb_prop in B as [B B3]. apply andb_prop in B as [B1 B2]. destruct ev as [| | |p f| | |]; try discriminate B1. cbn [snd] in *.
  apply nth_error_split in EN as (pre & post & -> & EL).
  assert (Hpre : firstn 3 (pre ++ (ENewBest p f, c) :: post) = pre) by (rewrite <- EL, firstn_app, Nat.sub_diag, firstn_all, firstn_O, app_nil_r; reflexivity). rewrite Hpre in *.
  assert (Hpost : skipn 4 (pre ++ (ENewBest p f, c) :: post) = post) by (replace 4 with (length pre + 1) by lia; rewrite skipn_app, skipn_all2, app_nil_l by lia; replace (length pre + 1 - length pre) with 1 by lia; reflexivity). rewrite Hpost in *.
  exists pre, p, f, c, post, []. split; [apply ex_reporting|]. split; [rewrite app_nil_r; reflexivity|]. split; [cbn; lia|]. split; [exact EV|]. split; [now apply Nat.eqb_eq|].
  unfold path_eqb in B3. destruct (list_eq_dec _ _ _) as [H|]; [exact H|discriminate B3].
Qed.
