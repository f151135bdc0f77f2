(** * C52, C53: what file_reporter leaves on the disk. *)
From Coq Require Import ZArith Bool Lia Sorted Classical_Prop.
From Flocq Require Import Core BinarySingleNaN.
From Verif Require Import Prelude Flt FltFacts Flt32 Round8 Round8Facts ShowNum ShowNumFacts ParInfo ObjInfo SearchPoint Num MathTools Optimizer OptimizerFacts
  Properties_Optimizer Properties_Optimizer2 FileReporter FileReporterFacts Properties_FileReporter.

(** ** Specification *)
(** Of the new bests so far (newest first), those whose files are kept: when a new one arrives, the
    one before it is dropped if it improved insignificantly on the last one kept before it, and the new
    one improves insignificantly on it. *)
Definition keep (F : fr_config) (E : env) (kept : list core) (v : core) : list core :=
  match kept with
  | m :: a :: rest => if insignificant F E (c_cur_fit a) (c_cur_fit m) && insignificant F E (c_cur_fit m) (c_cur_fit v) then v :: a :: rest else v :: kept
  | _ => v :: kept
  end.
Definition kept_bests (F : fr_config) (E : env) (calls : list (event * core)) : list core := fold_left (keep F E) (new_best_views calls) [].
(** the file of [v] holds the best point of that step, with a description of the parameters that the
    optimizer returned at some call *)
Definition file_holds (F : fr_config) (E : env) (infos : nat -> outcome obj_info) (fs : files) (v : core) : Prop :=
  exists k info, infos k = Ok info /\ oi_dim info = oi_dim (e_info E) /\
    fs (par_path F v) = Some (write_point {| sp_info := info; sp_values := map rounded (c_cur_pt v) |}).
(** the calls that can change the file [q] *)
Definition touches (F : fr_config) (x : event * core) (q : path) : Prop :=
  match fst x with
  | ENewBest _ _ | EPostEval _ _ _ => q = par_path F (snd x)
  | EPreEval pop => fc_individuals F = true /\ exists i, i < length pop /\ q = individual_path F (snd x) i
  | EStart | EPostStep | EStop _ => fc_history F = true /\ q = history_path F
  | EPreStep => False
  end.
Definition writes_par (x : event * core) : bool := is_new_best x || is_post_eval x.

(** ** Invariant *)
Definition good_infos (E : env) (infos : nat -> outcome obj_info) : Prop := forall k, exists info, infos k = Ok info /\ oi_dim info = oi_dim (e_info E).
Definition entry (F : fr_config) (v : core) : path * f64 := (par_path F v, c_cur_fit v).
Record fr_inv (F : fr_config) (E : env) (infos : nat -> outcome obj_info) (fs0 : files) (l : list (event * core)) (st : fr) : Prop := {
  fi_recent : fr_recent st = map (entry F) (rev (firstn 2 (kept_bests F E l)));
  fi_sorted : StronglySorted (fun a b => c_steps b < c_steps a) (kept_bests F E l);
  fi_new : forall v, In v (kept_bests F E l) -> In v (new_best_views l);
  fi_kept : forall v, In v (kept_bests F E l) -> file_holds F E infos (fr_files st) v;
  fi_gone : forall v, In v (new_best_views l) -> ~ In v (kept_bests F E l) -> fr_files st (par_path F v) = None /\ exists u, In u (kept_bests F E l) /\ c_steps v < c_steps u;
  fi_last : (fr_last st = (size_max - 1)%Z /\ new_best_views l = []) \/
            (exists y, In y l /\ writes_par y = true /\ fr_last st = Z.of_nat (c_steps (snd y)) /\ fr_files st (par_path F (snd y)) <> None /\
               forall v, In v (new_best_views l) -> c_steps v <= c_steps (snd y));
  fi_frame : forall q, fr_files st q <> fs0 q -> exists y, In y l /\ touches F y q;
  fi_open : fr_open st = true -> fc_history F = true }.

Lemma new_best_views_snoc l x : new_best_views (l ++ [x]) = new_best_views l ++ (if is_new_best x then [snd x] else []).
Proof. unfold new_best_views. rewrite filter_app, map_app. cbn [filter]. now destruct (is_new_best x). Qed.
Lemma kept_snoc F E l x : kept_bests F E (l ++ [x]) = if is_new_best x then keep F E (kept_bests F E l) (snd x) else kept_bests F E l.
Proof. unfold kept_bests. rewrite new_best_views_snoc. destruct (is_new_best x); [now rewrite fold_left_app|now rewrite app_nil_r]. Qed.
Lemma new_best_view_in l v : In v (new_best_views l) -> exists y, In y l /\ is_new_best y = true /\ snd y = v.
Proof. unfold new_best_views. rewrite in_map_iff. intros (y & <- & H). apply filter_In in H as [H1 H2]. eauto. Qed.
Lemma option_eq_dec' (a b : option text) : {a = b} + {a <> b}.
Proof. decide equality. apply (list_eq_dec Ascii.ascii_dec). Qed.
(** a call that leaves all par files as they are *)
Lemma fr_inv_quiet F E infos fs0 l st x st' :
  fr_inv F E infos fs0 l st -> is_new_best x = false -> (forall v, In v (map snd l) -> fr_files st' (par_path F v) = fr_files st (par_path F v)) ->
  fr_recent st' = fr_recent st -> fr_last st' = fr_last st -> (fr_open st' = true -> fc_history F = true) ->
  (forall q, fr_files st' q <> fr_files st q -> touches F x q) -> fr_inv F E infos fs0 (l ++ [x]) st'.
Proof.
  intros [A1 A2 A3 A4 A5 A6 A7 A8] Hx Hf Hr Hl Ho Ht.
  assert (Hv : forall v, In v (new_best_views l) -> fr_files st' (par_path F v) = fr_files st (par_path F v)).
  { intros v H. apply Hf. apply new_best_view_in in H as (y & H1 & _ & <-). apply in_map_iff. eauto. }
  constructor; rewrite ?kept_snoc, ?new_best_views_snoc, ?Hx, ?app_nil_r.
  - now rewrite Hr.
  - exact A2.
  - exact A3.
  - intros v H. specialize (A4 v H). unfold file_holds in *. now rewrite (Hv v (A3 v H)).
  - intros v H1 H2. rewrite (Hv v H1). now apply A5.
  - rewrite Hl. destruct A6 as [A6|(y & B1 & B2 & B3 & B4 & B5)]; [now left|]. right. exists y. split; [apply in_or_app; now left|]. split; [exact B2|]. split; [exact B3|]. split; [|exact B5].
    rewrite Hf by (apply in_map_iff; eauto). exact B4.
  - intros q Hq. destruct (option_eq_dec' (fr_files st' q) (fr_files st q)) as [H|H].
    + rewrite H in Hq. destruct (A7 q Hq) as (y & H1 & H2). exists y. split; [apply in_or_app; now left|exact H2].
    + exists x. split; [apply in_or_app; right; now left|now apply Ht].
  - exact Ho.
Qed.
Lemma classic_in (l : list core) (v : core) : In v l \/ ~ In v l.
Proof. apply Classical_Prop.classic. Qed.
Lemma individuals_files F E c (pop : list point) : forall fs ips q, 
  (forall ip, In ip ips -> q <> individual_path F c (fst ip)) ->
  fold_left (fun fs ip => write fs (individual_path F c (fst ip)) (write_point {| sp_info := e_info E; sp_values := snd ip |})) ips fs q = fs q.
Proof.
  intros fs ips. revert fs. clear pop. induction ips as [|ip ips IH]; intros fs q H; [reflexivity|]. cbn [fold_left]. rewrite IH by (intros; apply H; now right).
  apply write_other. apply H. now left.
Qed.
Lemma flush_quiet F st q : q <> history_path F -> fr_files (flush F st) q = fr_files st q.
Proof. intros H. unfold flush. destruct (fr_open st); [|reflexivity]. cbn [fr_files]. now apply append_other. Qed.
Lemma keep_in F E kept v u : In u (keep F E kept v) -> u = v \/ In u kept.
Proof.
  unfold keep. destruct kept as [|m [|a rest]]; cbn [In]; try (intros [H|H]; auto; now intuition).
  destruct (_ && _); cbn [In]; intuition.
Qed.
Lemma keep_out F E kept v u : In u kept -> ~ In u (keep F E kept v) -> exists rest, kept = u :: rest /\ exists a rest', rest = a :: rest' /\
  keep F E kept v = v :: rest /\ insignificant F E (c_cur_fit a) (c_cur_fit u) = true /\ insignificant F E (c_cur_fit u) (c_cur_fit v) = true.
Proof.
  unfold keep. destruct kept as [|m [|a rest]]; cbn [In]; [intros []|intuition|].
  destruct (_ && _) eqn:Ei; cbn [In]; [|intuition]. intros [<-|[<-|H]] Hn; [|exfalso; intuition..].
  apply andb_prop in Ei as [E1 E2]. exists (a :: rest). split; [reflexivity|]. exists a, rest. auto.
Qed.
Lemma keep_head F E kept v : exists rest, keep F E kept v = v :: rest /\ (forall u, In u rest -> In u kept) /\ (forall R, StronglySorted R kept -> StronglySorted R rest).
Proof.
  unfold keep. destruct kept as [|m [|a rest]].
  - exists []. split; [reflexivity|]. split; auto.
  - exists [m]. auto.
  - destruct (_ && _); [exists (a :: rest)|exists (m :: a :: rest)]; (split; [reflexivity|]).
    + split; [intros u H; now right|]. intros R H. now apply StronglySorted_inv in H as [H _].
    + auto.
Qed.
Lemma report_step F E infos fs0 l st x k : good_infos E infos -> Forall (fun y => small_step (snd y)) (l ++ [x]) -> orderly E (l ++ [x]) ->
  fr_inv F E infos fs0 l st -> exists st', report F E st x (infos k) = Ok st' /\ fr_inv F E infos fs0 (l ++ [x]) st'.
Proof.
  intros Hinfo Hs Ho HI. apply orderly_snoc in Ho as [Ho Hn]. apply Forall_app in Hs as [Hs Hx]. inversion Hx as [|? ? Hsx _]; subst. clear Hx.
  rewrite Forall_forall in Hs.
  assert (Hsv : forall v, In v (map snd l) -> small_step v) by (intros v H; apply in_map_iff in H as (y & <- & H); now apply Hs).
  destruct x as [ev v]. cbn [snd] in Hsx. unfold report. cbn [fst snd]. pose proof (fi_open _ _ _ _ _ _ HI) as HO.
  destruct ev as [| |pop|p f|pop fits nb| |kc].
  - (* on_start *) eexists. split; [reflexivity|]. unfold on_start. destruct (fc_history F) eqn:EH.
    + apply fr_inv_quiet with (st := st); auto; cbn [fr_files fr_recent fr_last fr_open].
      * intros w Hw. apply write_other. now apply par_not_history, Hsv.
      * intros q Hq. cbn [touches fst snd]. split; [exact EH|]. destruct (list_eq_dec Ascii.ascii_dec q (history_path F)) as [->|Hne]; [reflexivity|]. now rewrite write_other in Hq.
    + apply fr_inv_quiet with (st := st); auto; try (intros HH; specialize (HO HH); congruence); congruence.
  - eexists. split; [reflexivity|]. apply fr_inv_quiet with (st := st); auto; try (intros HH; specialize (HO HH); congruence); congruence.
  - (* on_pre_evaluate_population *) eexists. split; [reflexivity|]. unfold on_pre_eval. destruct (fc_individuals F) eqn:EI.
    + apply fr_inv_quiet with (st := st); auto; cbn [fr_files fr_recent fr_last fr_open].
      * intros w Hw. apply individuals_files; [exact pop|]. intros ip _. apply par_not_individual; auto.
      * intros q Hq. cbn [touches fst snd]. split; [exact EI|].
        assert (D : (exists i, i < length pop /\ q = individual_path F v i) \/ forall i, i < length pop -> q <> individual_path F v i).
        { generalize (length pop). intros n. induction n as [|n [IH|IH]]; [right; lia| |].
          - left. destruct IH as (i & H1 & H2). exists i. split; [lia|exact H2].
          - destruct (list_eq_dec Ascii.ascii_dec q (individual_path F v n)) as [->|Hne]; [left; exists n; split; [lia|reflexivity]|].
            right. intros i Hi. destruct (Nat.eq_dec i n) as [->|]; [exact Hne|apply IH; lia]. }
        destruct D as [D|D]; [exact D|]. exfalso. apply Hq. apply individuals_files; [exact pop|]. intros [j w] Hin. apply in_combine_l in Hin. apply in_seq in Hin. cbn [fst]. apply D. lia.
    + apply fr_inv_quiet with (st := st); auto; try (intros HH; specialize (HO HH); congruence); congruence.
  - (* on_new_best *)
    destruct Hn as (N1 & N2 & N3 & N4). cbn [snd] in *.
    destruct (Hinfo k) as (info & Hk & Hdim). unfold write_par_file. rewrite Hk. cbn [obind]. unfold sp_of_values, assert_. rewrite Hdim, N3, Nat.eqb_refl. cbn [obind].
    set (sp := {| sp_info := info; sp_values := round_values (c_cur_pt v) |}). set (fs1 := write (fr_files st) (par_path F v) (write_point sp)).
    destruct HI as [A1 A2 A3 A4 A5 A6 A7 A8].
    assert (Hlt : forall u, In u (new_best_views l) -> c_steps u < c_steps v).
    { intros u Hu. apply new_best_view_in in Hu as (y & Y1 & Y2 & <-). apply N4; auto. }
    assert (Hsm : forall u, In u (new_best_views l) -> small_step u).
    { intros u Hu. apply new_best_view_in in Hu as (y & Y1 & Y2 & <-). now apply Hs. }
    assert (Hpv : forall u, In u (new_best_views l) -> par_path F u <> par_path F v).
    { intros u Hu Hp. apply par_path_step in Hp; auto. specialize (Hlt u Hu). lia. }
    set (K := kept_bests F E l) in *.
    assert (HX : exists fs2, cleanup F E fs1 (fr_recent st ++ [(par_path F v, c_cur_fit v)]) = Ok (fs2, map (entry F) (rev (firstn 2 (keep F E K v)))) /\
       fs2 (par_path F v) = Some (write_point sp) /\
       (forall u, In u K -> In u (keep F E K v) -> fs2 (par_path F u) = fr_files st (par_path F u)) /\
       (forall u, In u K -> ~ In u (keep F E K v) -> fs2 (par_path F u) = None) /\
       (forall u, In u (new_best_views l) -> ~ In u K -> fs2 (par_path F u) = None) /\
       (forall q, fs2 q <> fr_files st q -> q = par_path F v \/ exists u, In u K /\ q = par_path F u)).
    { assert (F1 : fs1 (par_path F v) = Some (write_point sp)) by apply write_same.
      assert (F2 : forall u, In u (new_best_views l) -> fs1 (par_path F u) = fr_files st (par_path F u)) by (intros u Hu; apply write_other; auto).
      assert (F3 : forall u, In u (new_best_views l) -> ~ In u K -> fs1 (par_path F u) = None) by (intros u H1 H2; rewrite F2 by auto; now destruct (A5 u H1 H2)).
      assert (F4 : forall q, fs1 q <> fr_files st q -> q = par_path F v).
      { intros q Hq. destruct (list_eq_dec Ascii.ascii_dec q (par_path F v)) as [->|Hne]; [reflexivity|]. unfold fs1 in Hq. now rewrite write_other in Hq. }
      rewrite A1. unfold keep. destruct K as [|m [|a rest]] eqn:EK.
      - exists fs1. split; [reflexivity|]. split; [exact F1|]. split; [intros u []|]. split; [intros u []|]. split; [exact F3|]. intros q Hq. left. now apply F4.
      - exists fs1. split; [reflexivity|]. split; [exact F1|]. split; [intros u Hu _; apply F2; auto|]. split; [intros u Hu Hn; exfalso; apply Hn; now right|]. split; [exact F3|]. intros q Hq. left. now apply F4.
      - cbn [firstn rev app map cleanup entry fst snd]. destruct (insignificant F E (c_cur_fit a) (c_cur_fit m) && insignificant F E (c_cur_fit m) (c_cur_fit v)) eqn:Ei.
        + exists (erase fs1 (par_path F m)). split; [reflexivity|].
          assert (Hm : In m (new_best_views l)) by (apply A3; now left).
          assert (Hne : forall u, In u (new_best_views l) -> u <> m -> In u (m :: a :: rest) -> par_path F u <> par_path F m).
          { intros u Hu Hum Hin Hp. apply par_path_step in Hp; auto. destruct Hin as [->|Hin]; [congruence|]. apply StronglySorted_inv in A2 as [_ A2]. rewrite Forall_forall in A2. specialize (A2 u Hin). lia. }
          split; [rewrite erase_other; [exact F1|]; intros HE; symmetry in HE; now apply Hpv in HE|]. split; [|split; [|split]].
          * intros u Hu Hin. assert (u <> m).
            { intros ->. destruct Hin as [->|Hin]; [specialize (Hlt m Hm); lia|]. apply StronglySorted_inv in A2 as [_ A2]. rewrite Forall_forall in A2. specialize (A2 m Hin). lia. }
            rewrite erase_other by (apply Hne; auto). apply F2. now apply A3.
          * intros u Hu Hn. destruct Hu as [->|Hu]; [apply erase_same|]. exfalso. apply Hn. now right.
          * intros u Hu Hn. unfold erase. destruct (path_eqb _ _); [reflexivity|]. now apply F3.
          * intros q Hq. destruct (list_eq_dec Ascii.ascii_dec q (par_path F m)) as [->|Hqm]; [right; exists m; split; [now left|reflexivity]|]. rewrite erase_other in Hq by exact Hqm. left. now apply F4.
        + exists fs1. split; [reflexivity|]. split; [exact F1|]. split; [intros u Hu _; apply F2; auto|]. split; [intros u Hu Hn; exfalso; apply Hn; now right|]. split; [exact F3|]. intros q Hq. left. now apply F4. }
    destruct HX as (fs2 & X1 & X2 & X3 & X4 & X5 & X6). rewrite X1. cbn [obind fst snd].
    eexists. split; [reflexivity|].
    destruct (keep_head F E K v) as (rest & KH1 & KH2 & KH3).
    constructor; rewrite ?kept_snoc, ?new_best_views_snoc; cbn [is_new_best fst snd fr_recent fr_files fr_last fr_open]; fold K.
    + reflexivity.
    + rewrite KH1. constructor; [now apply KH3|]. apply Forall_forall. intros u Hu. apply Hlt, A3. now apply KH2.
    + intros u Hu. apply in_or_app. apply keep_in in Hu as [->|Hu]; [right; now left|left; now apply A3].
    + intros u Hu. destruct (keep_in _ _ _ _ _ Hu) as [->|HuK].
      * exists k, info. auto.
      * specialize (A4 u HuK). unfold file_holds in *. now rewrite (X3 u HuK Hu).
    + intros u Hu Hnu. assert (Hvin : In v (keep F E K v)) by (rewrite KH1; now left). assert (Hul : In u (new_best_views l)).
      { apply in_app_or in Hu as [Hu|[<-|[]]]; [exact Hu|contradiction]. }
      split; [|exists v; split; [exact Hvin|now apply Hlt]].
      destruct (classic_in K u) as [HK|HK]; [now apply X4|now apply X5].
    + right. exists (ENewBest p f, v). split; [apply in_or_app; right; now left|]. split; [reflexivity|]. cbn [snd]. split; [apply Z.mod_small; unfold small_step, size_max in *; lia|]. split; [rewrite X2; discriminate|].
      intros u Hu. apply in_app_or in Hu as [Hu|[<-|[]]]; [specialize (Hlt u Hu)|]; lia.
    + intros q Hq. destruct (option_eq_dec' (fs2 q) (fr_files st q)) as [H|H].
      * rewrite H in Hq. destruct (A7 q Hq) as (y & Y1 & Y2). exists y. split; [apply in_or_app; now left|exact Y2].
      * apply X6 in H as [->|(u & U1 & ->)]; [exists (ENewBest p f, v); split; [apply in_or_app; right; now left|reflexivity]|].
        apply A3 in U1. apply new_best_view_in in U1 as ([ev w] & Y1 & Y2 & <-). exists (ev, w). split; [apply in_or_app; now left|]. destruct ev; try discriminate. reflexivity.
    + exact A8.
  - (* on_post_evaluate_population *)
    destruct Hn as (N1 & N2 & N3). cbn [snd] in *. unfold on_post_eval. destruct (Z.leb _ _).
    2:{ eexists. split; [reflexivity|]. apply fr_inv_quiet with (st := st); auto; try (intros HH; specialize (HO HH); congruence); congruence. }
    destruct (Hinfo k) as (info & Hk & Hdim). unfold write_par_file. rewrite Hk. cbn [obind]. unfold sp_of_values, assert_. rewrite Hdim, N1, Nat.eqb_refl. cbn [obind fst snd].
    eexists. split; [reflexivity|]. destruct HI as [A1 A2 A3 A4 A5 A6 A7 A8]. set (K := kept_bests F E l) in *.
    assert (Hcase : forall u, In u (new_best_views l) -> (c_steps u = c_steps v /\ par_path F u = par_path F v /\ c_cur_pt u = c_cur_pt v) \/ (c_steps u < c_steps v /\ par_path F u <> par_path F v)).
    { intros u Hu. apply new_best_view_in in Hu as (y & Y1 & Y2 & <-). destruct (N3 y Y1 Y2) as [M1 M2]. destruct (Nat.eq_dec (c_steps (snd y)) (c_steps v)) as [He|Hne].
      - left. destruct (M2 He) as (? & ? & ?). split; [exact He|]. split; [now apply par_path_same|assumption].
      - right. split; [lia|]. intros Hp. apply par_path_step in Hp; auto. }
    constructor; rewrite ?kept_snoc, ?new_best_views_snoc; cbn [is_new_best fst snd fr_recent fr_files fr_last fr_open]; rewrite ?app_nil_r; fold K; auto.
    + intros u Hu. destruct (Hcase u (A3 u Hu)) as [(C1 & C2 & C3)|(C1 & C2)].
      * exists k, info. split; [exact Hk|]. split; [exact Hdim|]. rewrite C2, write_same, C3. reflexivity.
      * specialize (A4 u Hu). unfold file_holds in *. now rewrite write_other.
    + intros u Hu HnK. destruct (A5 u Hu HnK) as (G1 & w & G2 & G3). split; [|eauto]. destruct (Hcase u Hu) as [(C1 & C2 & C3)|(C1 & C2)].
      * exfalso. destruct (Hcase w (A3 w G2)) as [(C4 & _)|(C4 & _)]; lia.
      * now rewrite write_other.
    + right. exists (EPostEval pop fits nb, v). split; [apply in_or_app; right; now left|]. split; [reflexivity|]. cbn [snd]. split; [apply Z.mod_small; unfold small_step, size_max in *; lia|]. split; [rewrite write_same; discriminate|].
      intros u Hu. destruct (Hcase u Hu) as [(C1 & _)|(C1 & _)]; lia.
    + intros q Hq. destruct (list_eq_dec Ascii.ascii_dec q (par_path F v)) as [->|Hne].
      * exists (EPostEval pop fits nb, v). split; [apply in_or_app; right; now left|reflexivity].
      * rewrite write_other in Hq by exact Hne. destruct (A7 q Hq) as (y & Y1 & Y2). exists y. split; [apply in_or_app; now left|exact Y2].
  - (* on_post_step *) eexists. split; [reflexivity|]. unfold on_post_step. destruct (fc_history F) eqn:EH.
    + set (st1 := {| fr_files := fr_files st; fr_recent := fr_recent st; fr_last := fr_last st; fr_open := fr_open st; fr_buffer := if fr_open st then fr_buffer st ++ row F E v else fr_buffer st |}).
      assert (forall q, q <> history_path F -> fr_files (if Nat.eqb (c_steps v mod 10) 9 then flush F st1 else st1) q = fr_files st q).
      { intros q Hq. destruct (Nat.eqb _ _); [now rewrite flush_quiet|reflexivity]. }
      apply fr_inv_quiet with (st := st); auto.
      * intros w Hw. apply H. now apply par_not_history, Hsv.
      * destruct (Nat.eqb _ _); [|reflexivity]. unfold flush. now destruct (fr_open st1).
      * destruct (Nat.eqb _ _); [|reflexivity]. unfold flush. now destruct (fr_open st1).
      * intros q Hq. cbn [touches fst snd]. split; [exact EH|]. destruct (list_eq_dec Ascii.ascii_dec q (history_path F)) as [->|Hne]; [reflexivity|]. now rewrite H in Hq.
    + apply fr_inv_quiet with (st := st); auto; try (intros HH; specialize (HO HH); congruence); congruence.
  - (* on_stop *) eexists. split; [reflexivity|]. unfold on_stop. destruct (fc_history F) eqn:EH.
    + apply fr_inv_quiet with (st := st); auto.
      * intros w Hw. apply flush_quiet. now apply par_not_history, Hsv.
      * unfold flush. now destruct (fr_open st).
      * unfold flush. now destruct (fr_open st).
      * intros q Hq. cbn [touches fst snd]. split; [exact EH|]. destruct (list_eq_dec Ascii.ascii_dec q (history_path F)) as [->|Hne]; [reflexivity|]. now rewrite flush_quiet in Hq.
    + apply fr_inv_quiet with (st := st); auto; try (intros HH; specialize (HO HH); congruence); congruence.
Qed.
Lemma reported_inv F E infos fs0 l : good_infos E infos -> Forall (fun y => small_step (snd y)) l -> orderly E l ->
  exists st, reported F E fs0 infos l = Ok st /\ fr_inv F E infos fs0 l st.
Proof.
  intros Hinfo. induction l as [|x l IH] using rev_ind; intros Hs Ho.
  - exists (fr_init fs0). split; [reflexivity|]. constructor; cbn.
    + reflexivity.
    + constructor.
    + intros v [].
    + intros v [].
    + intros v [].
    + now left.
    + intros q Hq. congruence.
    + discriminate.
  - destruct IH as (st & E1 & E2); [now apply Forall_app in Hs as [Hs _]|now apply orderly_prefix in Ho|].
    destruct (report_step F E infos fs0 l st x (length l) Hinfo Hs Ho E2) as (st' & E3 & E4). exists st'. split; [|exact E4].
    rewrite reported_snoc, E1. cbn [report_any]. now rewrite E3.
Qed.
