(** * C58: history.txt. *)
From Coq Require Import ZArith Bool Lia Sorted Permutation.
From Flocq Require Import Core BinarySingleNaN.
From Verif Require Import Prelude Flt FltFacts Flt32 Round8 Round8Facts ShowNum ShowNumFacts ParInfo ObjInfo SearchPoint Properties_SearchPoint Num MathTools Optimizer OptimizerFacts
  Properties_Optimizer Properties_Optimizer2 Properties_Optimizer4 FileReporter FileReporterFacts Properties_FileReporter Properties_FileReporter2 Properties_FileReporter3.

Definition post_steps (l : list (event * core)) : list core := map snd (filter is_post_step l).
Definition rows (F : fr_config) (E : env) (l : list core) : text := concat (map (row F E) l).
Lemma post_steps_snoc l x : post_steps (l ++ [x]) = post_steps l ++ (if is_post_step x then [snd x] else []).
Proof. unfold post_steps. rewrite filter_app, map_app. cbn [filter]. now destruct (is_post_step x). Qed.
Lemma rows_app F E a b : rows F E (a ++ b) = rows F E a ++ rows F E b.
Proof. unfold rows. now rewrite map_app, concat_app. Qed.

Definition hist_inv (F : fr_config) (E : env) (l : list (event * core)) (st : fr) : Prop :=
  (fr_open st = false /\ fr_buffer st = [] /\ (forall w, ~ In (EStart, w) l)) \/
  (exists c0 n, In (EStart, c0) l /\ c_steps c0 = 0 /\ fr_open st = true /\
     fr_files st (history_path F) = Some (header F E c0 ++ rows F E (firstn n (post_steps l))) /\
     fr_buffer st = rows F E (skipn n (post_steps l)) /\ 10 * (length (post_steps l) / 10) <= n <= length (post_steps l)).
Lemma flush_hist F E l st : hist_inv F E l st -> hist_inv F E l (flush F st) /\ (fr_open st = true -> fr_buffer (flush F st) = [] /\
  exists c0, In (EStart, c0) l /\ c_steps c0 = 0 /\ fr_files (flush F st) (history_path F) = Some (header F E c0 ++ rows F E (post_steps l))).
Proof.
  intros [(H1 & H2 & H3)|(c0 & n & H1 & H2 & H3 & H4 & H5 & H6)]; unfold flush.
  - rewrite H1. split; [left; auto|discriminate].
  - rewrite H3. cbn [fr_files fr_open fr_buffer].
    assert (X : append (fr_files st) (history_path F) (fr_buffer st) (history_path F) = Some (header F E c0 ++ rows F E (post_steps l))).
    { rewrite append_same, H4, H5, <- app_assoc, <- rows_app, firstn_skipn. reflexivity. }
    split; [|intros _; split; [reflexivity|eauto]]. right. exists c0, (length (post_steps l)). cbn [fr_files fr_open fr_buffer]. rewrite X, firstn_all, skipn_all.
    split; [exact H1|]. split; [exact H2|]. split; [reflexivity|]. split; [reflexivity|]. split; [reflexivity|]. lia.
Qed.
Lemma hist_same F E l st x st' : hist_inv F E l st -> is_post_step x = false -> (forall w, x <> (EStart, w)) ->
  fr_files st' (history_path F) = fr_files st (history_path F) -> fr_open st' = fr_open st -> fr_buffer st' = fr_buffer st -> hist_inv F E (l ++ [x]) st'.
Proof.
  intros H Hx Hs Hf Ho Hb. unfold hist_inv in *. rewrite post_steps_snoc, Hx, app_nil_r, Hf, Ho, Hb. destruct H as [(H1 & H2 & H3)|(c0 & n & H1 & H2)].
  - left. split; [exact H1|]. split; [exact H2|]. intros w Hw. apply in_app_or in Hw as [Hw|[Hw|[]]]; [now apply (H3 w)|now apply (Hs w)].
  - right. exists c0, n. split; [apply in_or_app; now left|exact H2].
Qed.
Lemma hist_step F E infos fs0 l st x k st' : fc_history F = true -> Forall (fun y => small_step (snd y)) (l ++ [x]) -> orderly E (l ++ [x]) ->
  fr_inv F E infos fs0 l st -> report F E st x (infos k) = Ok st' -> hist_inv F E l st ->
  hist_inv F E (l ++ [x]) st' /\ (forall c, fst x = EStop c -> fr_buffer st' = []).
Proof.
  intros HF Hs Ho HI HR HH. apply orderly_snoc in Ho as [Ho Hn]. apply Forall_app in Hs as [Hs Hx]. inversion Hx as [|? ? Hsx _]; subst. clear Hx. rewrite Forall_forall in Hs.
  assert (W : forall tc, (forall w, x <> (EStart, w)) -> is_post_step x = false -> write_par_file F E st (snd x) (infos k) tc = Ok st' -> hist_inv F E (l ++ [x]) st').
  { intros tc Hst Hps Hw. unfold write_par_file in Hw. destruct (infos k) as [info| |]; try discriminate Hw. cbn [obind] in Hw. destruct (sp_of_values info (c_cur_pt (snd x))) as [sp| |]; try discriminate Hw. cbn [obind] in Hw.
    set (fs1 := write (fr_files st) (par_path F (snd x)) (write_point sp)) in Hw.
    assert (F1 : fs1 (history_path F) = fr_files st (history_path F)) by (apply write_other; intros HE; symmetry in HE; now apply par_not_history in HE).
    destruct tc; cbn [obind fst snd] in Hw.
    - destruct (cleanup F E fs1 (fr_recent st ++ [(par_path F (snd x), c_cur_fit (snd x))])) as [[fs2 rec]| |] eqn:Ec; try discriminate Hw. cbn [obind fst snd] in Hw. injection Hw as <-.
      apply hist_same with (st := st); auto. cbn [fr_files].
      assert (F2 : forall e, In e (fr_recent st ++ [(par_path F (snd x), c_cur_fit (snd x))]) -> fst e <> history_path F).
      { intros e He. apply in_app_or in He as [He|[<-|[]]]; [|cbn [fst]; now apply par_not_history].
        rewrite (fi_recent _ _ _ _ _ _ HI) in He. apply in_map_iff in He as (v & <- & Hv). rewrite <- in_rev in Hv. cbn [entry fst].
        assert (Hk : In v (kept_bests F E l)) by (rewrite <- (firstn_skipn 2 (kept_bests F E l)); apply in_or_app; now left). apply (fi_new _ _ _ _ _ _ HI) in Hk.
        apply new_best_view_in in Hk as (y & Y1 & _ & <-). now apply par_not_history, Hs. }
      destruct (fr_recent st ++ [(par_path F (snd x), c_cur_fit (snd x))]) as [|a [|b [|c [|d t]]]]; cbn [cleanup] in Ec; try discriminate Ec.
      + injection Ec as <- <-. exact F1.
      + injection Ec as <- <-. exact F1.
      + injection Ec as <- <-. exact F1.
      + destruct (_ && _); injection Ec as <- <-; [|exact F1]. rewrite erase_other; [exact F1|]. intros HE. symmetry in HE. revert HE. apply F2. right. now left.
    - injection Hw as <-. apply hist_same with (st := st); auto. }
  destruct x as [ev v]. cbn [snd] in *. unfold report in HR. cbn [fst snd] in HR. destruct ev as [| |pop|p f|pop fits nb| |c].
  - (* on_start *) split; [|intros; discriminate]. injection HR as <-. unfold on_start. rewrite HF. right. exists v, 0. cbn [fr_files fr_open fr_buffer].
    destruct Hn as [N1 N2]. assert (P : post_steps l = []).
    { unfold post_steps. replace (filter is_post_step l) with (@nil (event * core)); [reflexivity|]. clear - N2. induction l as [|y l IH]; [reflexivity|]. cbn [filter]. rewrite (N2 y) by now left. apply IH. intros z Hz. apply N2. now right. }
    rewrite post_steps_snoc, P. cbn [is_post_step fst app firstn skipn length rows map concat]. split; [apply in_or_app; right; now left|]. split; [exact N1|]. split; [reflexivity|]. split; [rewrite write_same, app_nil_r; reflexivity|]. split; [reflexivity|]. cbn. lia.
  - split; [|intros; discriminate]. injection HR as <-. apply hist_same with (st := st); auto. discriminate.
  - split; [|intros; discriminate]. injection HR as <-. apply hist_same with (st := st); auto; [discriminate| | |]; unfold on_pre_eval; destruct (fc_individuals F); try reflexivity.
    cbn [fr_files]. apply individuals_files; [exact pop|]. intros ip _ HE. symmetry in HE. now apply individual_not_history in HE.
  - split; [|intros; discriminate]. apply (W true); [discriminate|reflexivity|exact HR].
  - split; [|intros; discriminate]. unfold on_post_eval in HR. destruct (Z.leb _ _); [apply (W false); [discriminate|reflexivity|exact HR]|]. injection HR as <-. apply hist_same with (st := st); auto. discriminate.
  - (* on_post_step *) split; [|intros; discriminate]. injection HR as <-. unfold on_post_step. rewrite HF. destruct Hn as (N1 & w & N2). cbn [snd] in N1.
    destruct HH as [(H1 & H2 & H3)|(c0 & n & H1 & H2 & H3 & H4 & H5 & H6)]; [now destruct (H3 w)|]. rewrite H3.
    assert (Hlen : length (post_steps l) = c_steps v) by (unfold post_steps; now rewrite map_length).
    set (st1 := {| fr_files := fr_files st; fr_recent := fr_recent st; fr_last := fr_last st; fr_open := true; fr_buffer := fr_buffer st ++ row F E v |}).
    assert (B : fr_buffer st1 = rows F E (skipn n (post_steps (l ++ [(EPostStep, v)])))).
    { cbn [fr_buffer st1]. rewrite post_steps_snoc. cbn [is_post_step fst snd]. rewrite skipn_app, rows_app, H5. f_equal. replace (n - length (post_steps l)) with 0 by lia. cbn. now rewrite app_nil_r. }
    assert (C : fr_files st1 (history_path F) = Some (header F E c0 ++ rows F E (firstn n (post_steps (l ++ [(EPostStep, v)]))))).
    { cbn [fr_files st1]. rewrite H4, post_steps_snoc. cbn [is_post_step fst snd]. rewrite firstn_app. replace (n - length (post_steps l)) with 0 by lia. cbn [firstn]. now rewrite app_nil_r. }
    assert (D : length (post_steps (l ++ [(EPostStep, v)])) = S (c_steps v)) by (rewrite post_steps_snoc, app_length; cbn; lia).
    destruct (Nat.eqb_spec (c_steps v mod 10) 9) as [Hm|Hm].
    + unfold flush. cbn [st1 fr_open]. right. exists c0, (S (c_steps v)). cbn [fr_open fr_files fr_buffer]. split; [apply in_or_app; now left|]. split; [exact H2|]. split; [reflexivity|].
      rewrite D. rewrite firstn_all2 by lia. rewrite skipn_all2 by lia. split; [|split; [reflexivity|pose proof (Nat.mul_div_le (S (c_steps v)) 10); lia]].
      change (fr_buffer st ++ row F E v) with (fr_buffer st1). change (fr_files st) with (fr_files st1). rewrite append_same, C, B, <- app_assoc, <- rows_app, firstn_skipn. reflexivity.
    + right. exists c0, n. split; [apply in_or_app; now left|]. split; [exact H2|]. split; [reflexivity|]. split; [exact C|]. split; [exact B|]. rewrite D. rewrite Hlen in H6. split; [|lia].
      assert (S (c_steps v) / 10 = c_steps v / 10); [|lia]. pose proof (Nat.div_mod (c_steps v) 10 ltac:(lia)). pose proof (Nat.mod_upper_bound (c_steps v) 10 ltac:(lia)).
      symmetry. apply (Nat.div_unique (S (c_steps v)) 10 (c_steps v / 10) (S (c_steps v mod 10))); lia.
  - (* on_stop *) injection HR as <-. unfold on_stop. rewrite HF. destruct (flush_hist F E l st HH) as [G1 G2]. split.
    + apply hist_same with (st := flush F st); auto. discriminate.
    + intros _ _. destruct (fr_open st) eqn:Eo; [now apply G2|]. unfold flush. rewrite Eo. destruct HH as [(_ & -> & _)|(? & ? & _ & _ & H & _)]; [reflexivity|congruence].
Qed.
Lemma hist_reported F E infos fs0 l : fc_history F = true -> good_infos E infos -> Forall (fun y => small_step (snd y)) l -> orderly E l ->
  exists st, reported F E fs0 infos l = Ok st /\ hist_inv F E l st /\ (forall l' c w, l = l' ++ [(EStop c, w)] -> fr_buffer st = []).
Proof.
  intros HF Hinfo. induction l as [|x l IH] using rev_ind; intros Hs Ho.
  - exists (fr_init fs0). split; [reflexivity|]. split; [left; cbn; auto|]. intros [|? ?]; discriminate.
  - pose proof Hs as Hs2. pose proof Ho as Ho2. apply Forall_app in Hs2 as [Hs2 _]. apply orderly_prefix in Ho2. destruct (IH Hs2 Ho2) as (st & E1 & H1 & _).
    destruct (reported_inv F E infos fs0 l Hinfo Hs2 Ho2) as (st1 & E2 & H2). assert (st1 = st) by congruence. subst st1.
    destruct (report_step F E infos fs0 l st x (length l) Hinfo Hs Ho H2) as (st' & E3 & _). destruct (hist_step F E infos fs0 l st x (length l) st' HF Hs Ho H2 E3 H1) as [H3 H4].
    exists st'. split; [rewrite reported_snoc, E1; cbn [report_any]; now rewrite E3|]. split; [exact H3|]. intros l' c w HE. apply app_inj_tail in HE as [_ ->]. now apply (H4 c).
Qed.

(** At any time after on_start, history.txt consists of the header and of the rows of the completed steps in
    order, except possibly the last nine (those are in the stream's buffer: a crash can lose them, or cut
    them off at any point); on_stop writes all of them. *)
Theorem C58_history_has_one_row_per_step : forall F E extra h r infos fs0 pre post w, fc_history F = true -> reporting E extra h r infos -> calls_of E extra h r = pre ++ post -> In (EStart, w) pre ->
  exists st c0 n, reported F E fs0 infos pre = Ok st /\ In (EStart, c0) pre /\ c_steps c0 = 0 /\
    fr_files st (history_path F) = Some (header F E c0 ++ rows F E (firstn n (post_steps pre))) /\
    fr_buffer st = rows F E (skipn n (post_steps pre)) /\
    length (post_steps pre) <= n + 9 /\
    (forall pre' c v, pre = pre' ++ [(EStop c, v)] -> fr_buffer st = [] /\ fr_files st (history_path F) = Some (header F E c0 ++ rows F E (post_steps pre))).
Proof.
  intros F E extra h r infos fs0 pre post w HF HR HL Hw. pose proof (reporting_orderly E extra h r infos pre post HR HL) as HO.
  assert (Hs : Forall (fun y => small_step (snd y)) pre).
  { destruct HR as (Hd & Hw' & Hh & _ & Hs). destruct (after_orderly E extra h r Hd Hw' Hh) as (_ & _ & _ & _ & A5). fold (calls_of E extra h r) in A5.
    apply Forall_forall. intros y Hy. unfold small_step. assert (c_steps (snd y) <= completed E h); [|lia]. rewrite <- (C21_current_step E extra h Hd Hw'). apply A5. rewrite HL. apply in_or_app. now left. }
  destruct (hist_reported F E infos fs0 pre HF ltac:(apply HR) Hs HO) as (st & E1 & [(_ & _ & H)|(c0 & n & H1 & H2 & H3 & H4 & H5 & H6)] & H7); [now destruct (H w)|].
  exists st, c0, n. split; [exact E1|]. split; [exact H1|]. split; [exact H2|]. split; [exact H4|]. split; [exact H5|]. split.
  - pose proof (Nat.div_mod (length (post_steps pre)) 10 ltac:(lia)). pose proof (Nat.mod_upper_bound (length (post_steps pre)) 10 ltac:(lia)). lia.
  - intros pre' c v HE. specialize (H7 pre' c v HE). split; [exact H7|]. rewrite H4. rewrite H7 in H5. rewrite <- (firstn_skipn n (post_steps pre)) at 2. rewrite rows_app, <- H5, app_nil_r. reflexivity.
Qed.
(** Row number k (from 0) is the one of step k; and there are as many as current_step() says once the reporter
    has received everything. *)
Theorem C58_rows_are_the_steps : forall E extra h r infos, reporting E extra h r infos ->
  let l := post_steps (calls_of E extra h r) in
  length l = completed E h /\ forall k v, nth_error l k = Some v -> c_steps v = k.
Proof.
  intros E extra h r infos HR l. pose proof HR as (Hd & Hw & Hh & _). destruct (after_orderly E extra h r Hd Hw Hh) as (A1 & _ & A3 & _). fold (calls_of E extra h r) in A1, A3. split.
  - unfold l, post_steps. rewrite map_length, A3. now apply C21_current_step.
  - unfold l. clear l A3. generalize dependent (calls_of E extra h r). intros L. induction L as [|x L IH] using rev_ind; intros A k v Hk; [now destruct k|]. apply orderly_snoc in A as [A B]. rewrite post_steps_snoc in Hk. specialize (IH A).
    destruct (is_post_step x) eqn:Ex; [|rewrite app_nil_r in Hk; now apply IH]. destruct (Nat.lt_ge_cases k (length (post_steps L))) as [H|H]; [rewrite nth_error_app1 in Hk by exact H; now apply IH|].
    rewrite nth_error_app2 in Hk by exact H. destruct (k - length (post_steps L)) as [|m] eqn:Em; [|now destruct m]. cbn in Hk. injection Hk as <-.
    destruct x as [[] u]; try discriminate. cbn [next_ok fst snd] in B. destruct B as (B & _). cbn [snd]. unfold post_steps in H, Em. rewrite map_length in H, Em. lia.
Qed.
