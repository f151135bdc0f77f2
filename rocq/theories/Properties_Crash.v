(** * C75: a crash at any point of a call of file_reporter. *)
From Coq Require Import ZArith Bool Lia Sorted Permutation.
From Flocq Require Import Core BinarySingleNaN.
From Verif Require Import Prelude Flt FltFacts Flt32 Round8 Round8Facts ShowNum ShowNumFacts ParInfo ObjInfo SearchPoint Properties_SearchPoint Num MathTools Optimizer OptimizerFacts
  Properties_Optimizer Properties_Optimizer2 Properties_Optimizer4 FileReporter FileReporterFacts Properties_FileReporter Properties_FileReporter2 Properties_FileReporter3 Properties_FileReporter4
  Properties_FileReporter5 FileCrash.

(** ** Changes of the disk *)
Definition op_path (o : disk_op) : path := match o with DTruncate p | DPut p _ | DRemove p => p end.
Lemma perform_other fs o q : q <> op_path o -> perform fs o q = fs q.
Proof. destruct o as [p|p c|p]; cbn [op_path perform]; intros H; [now apply write_other| |now apply erase_other]. destruct (fs p); [now apply write_other|reflexivity]. Qed.
Lemma performs_app fs a b : performs fs (a ++ b) = performs (performs fs a) b.
Proof. apply fold_left_app. Qed.
Lemma performs_other ops : forall fs q, (forall o, In o ops -> q <> op_path o) -> performs fs ops q = fs q.
Proof.
  induction ops as [|o ops IH]; intros fs q H; [reflexivity|]. cbn [performs fold_left]. fold (performs (perform fs o) ops).
  rewrite IH by (intros; apply H; now right). apply perform_other, H. now left.
Qed.
Lemma performs_puts p t : forall fs s, fs p = Some s -> forall q, performs fs (map (DPut p) t) q = if path_eqb q p then Some (s ++ t) else fs q.
Proof.
  induction t as [|c t IH]; intros fs s Hs q; cbn [map performs fold_left].
  - unfold path_eqb. destruct (list_eq_dec _ q p) as [->|]; [now rewrite app_nil_r|reflexivity].
  - fold (performs (perform fs (DPut p c)) (map (DPut p) t)). cbn [perform]. rewrite Hs. rewrite (IH _ (s ++ [c])) by apply write_same.
    unfold write, path_eqb. destruct (list_eq_dec _ q p); [now rewrite <- app_assoc|reflexivity].
Qed.
Lemma performs_lost p t : forall fs, fs p = None -> forall q, performs fs (map (DPut p) t) q = fs q.
Proof. induction t as [|c t IH]; intros fs Hs q; [reflexivity|]. cbn [map performs fold_left]. fold (performs (perform fs (DPut p c)) (map (DPut p) t)). cbn [perform]. rewrite Hs. now apply IH. Qed.
Lemma performs_ext ops : forall fs fs', (forall q, fs q = fs' q) -> forall q, performs fs ops q = performs fs' ops q.
Proof.
  induction ops as [|o ops IH]; intros fs fs' H q; [apply H|]. cbn [performs fold_left]. apply IH. intros q'.
  destruct o as [p|p c|p]; cbn [perform].
  - unfold write. now rewrite H.
  - rewrite H. destruct (fs' p); [unfold write|]; now rewrite H.
  - unfold erase. now rewrite H.
Qed.
Lemma performs_save fs p t q : performs fs (save p t) q = write fs p t q.
Proof.
  unfold save. cbn [performs fold_left perform]. fold (performs (write fs p []) (map (DPut p) t)). rewrite (performs_puts p t _ []) by apply write_same.
  unfold write. now destruct (path_eqb q p).
Qed.
Lemma save_paths p t o : In o (save p t) -> op_path o = p.
Proof. intros [<-|H]; [reflexivity|]. apply in_map_iff in H as (c & <- & _). reflexivity. Qed.
Lemma puts_paths p t o : In o (map (DPut p) t) -> op_path o = p.
Proof. intros H. apply in_map_iff in H as (c & <- & _). reflexivity. Qed.

Lemma par_ops_spec F E early st c info tc st' : write_par_file F E st c info tc = Ok st' ->
  forall q, performs (fr_files st) (par_ops F E early st c info tc) q = fr_files st' q.
Proof.
  unfold write_par_file, par_ops. intros H q. destruct info as [updated| |]; try discriminate H. cbn [obind] in *. destruct (sp_of_values updated (c_cur_pt c)) as [sp| |]; try discriminate H. cbn [obind] in H.
  set (p := par_path F c) in *. set (t := write_point sp) in *. cbn [performs fold_left perform]. rewrite fold_left_app. fold (performs (write (fr_files st) p []) (map (DPut p) (firstn early t))).
  set (fs1 := performs (write (fr_files st) p []) (map (DPut p) (firstn early t))).
  assert (F1 : forall q, fs1 q = write (fr_files st) p (firstn early t) q).
  { intros q'. unfold fs1. rewrite (performs_puts p _ _ []) by apply write_same. unfold write. now destruct (path_eqb q' p). }
  assert (F2 : forall q, performs fs1 (map (DPut p) (skipn early t)) q = write (fr_files st) p t q).
  { intros q'. rewrite (performs_puts p _ _ (firstn early t)) by (rewrite F1; apply write_same). rewrite firstn_skipn, F1. unfold write. now destruct (path_eqb q' p). }
  destruct tc; cbn [obind fst snd app] in *.
  - set (recent := fr_recent st ++ [(p, c_cur_fit c)]) in *. destruct (cleanup F E (write (fr_files st) p t) recent) as [[fs2 rec]| |] eqn:Ec; try discriminate H. cbn [obind fst snd] in H. injection H as <-. cbn [fr_files].
    assert (N : removal F E recent = [] -> fs2 = write (fr_files st) p t -> fold_left perform (removal F E recent ++ map (DPut p) (skipn early t)) fs1 q = fs2 q).
    { intros -> ->. cbn [app]. apply F2. }
    destruct recent as [|a [|b [|d [|e l]]]]; cbn [cleanup removal] in *; try discriminate Ec; try (apply N; [reflexivity|congruence]).
    destruct (insignificant F E (snd a) (snd b) && insignificant F E (snd b) (snd d)); [|apply N; [reflexivity|congruence]].
    assert (fs2 = erase (write (fr_files st) p t) (fst b)) by congruence. subst fs2. clear Ec N. cbn [app fold_left perform]. fold (performs (erase fs1 (fst b)) (map (DPut p) (skipn early t))).
    destruct (list_eq_dec Ascii.ascii_dec p (fst b)) as [Hb|Hb].
    + rewrite performs_lost by (rewrite Hb; apply erase_same). unfold erase. destruct (path_eqb q (fst b)) eqn:Eq; [reflexivity|]. rewrite F1. unfold write. now rewrite Hb, Eq.
    + rewrite (performs_puts p _ _ (firstn early t)) by (rewrite erase_other, F1 by exact Hb; apply write_same). rewrite firstn_skipn. unfold erase. rewrite F1. unfold write, path_eqb.
      destruct (list_eq_dec Ascii.ascii_dec q p) as [->|]; destruct (list_eq_dec Ascii.ascii_dec _ (fst b)); first [reflexivity|contradiction].
  - injection H as <-. cbn [fr_files]. apply F2.
Qed.
Lemma flush_ops_spec F st more : (fr_open st = true -> fr_files st (history_path F) <> None) ->
  forall q, performs (fr_files st) (flush_ops F st more) q = if fr_open st then append (fr_files st) (history_path F) (fr_buffer st ++ more) q else fr_files st q.
Proof.
  intros H q. unfold flush_ops. destruct (fr_open st); [|reflexivity]. destruct (fr_files st (history_path F)) as [s|] eqn:Es; [|now destruct (H eq_refl)].
  rewrite (performs_puts _ _ _ s Es). unfold append. destruct (path_eqb q (history_path F)) eqn:Eq; [|reflexivity].
  unfold path_eqb in Eq. destruct (list_eq_dec _ q (history_path F)) as [->|]; [|discriminate]. now rewrite Es.
Qed.
Lemma disk_ops_spec F E early st x info st' : (fr_open st = true -> fr_files st (history_path F) <> None) -> report F E st x info = Ok st' ->
  forall q, performs (fr_files st) (disk_ops F E early st x info) q = fr_files st' q.
Proof.
  intros Hh H q. unfold report, disk_ops in *. destruct x as [ev c]. cbn [fst snd] in *. destruct ev as [| |pop|p f|pop fits nb| |k].
  - injection H as <-. unfold on_start. destruct (fc_history F); [|reflexivity]. cbn [fr_files]. apply performs_save.
  - injection H as <-. reflexivity.
  - injection H as <-. unfold on_pre_eval. destruct (fc_individuals F); [|reflexivity]. cbn [fr_files].
    assert (G : forall l fs fs', (forall q, fs q = fs' q) -> forall q,
      performs fs (concat (map (fun ip => save (individual_path F c (fst ip)) (write_point {| sp_info := e_info E; sp_values := snd ip |})) l)) q =
      fold_left (fun fs (ip : nat * point) => write fs (individual_path F c (fst ip)) (write_point {| sp_info := e_info E; sp_values := snd ip |})) l fs' q).
    { induction l as [|ip l IH]; intros fs fs' He q'; [apply He|]. cbn [map concat fold_left]. rewrite performs_app. apply IH.
      intros q2. rewrite performs_save. unfold write. now rewrite He. }
    now apply G.
  - now apply par_ops_spec.
  - unfold on_post_eval in H. destruct (Z.leb _ _); [now apply par_ops_spec|]. injection H as <-. reflexivity.
  - injection H as <-. unfold on_post_step. destruct (fc_history F); [|reflexivity]. cbn [andb]. destruct (Nat.eqb _ _); [|reflexivity].
    rewrite flush_ops_spec by exact Hh. unfold flush. cbn [fr_open]. destruct (fr_open st); reflexivity.
  - injection H as <-. unfold on_stop. destruct (fc_history F); [|reflexivity]. rewrite flush_ops_spec by exact Hh. unfold flush. destruct (fr_open st); [|reflexivity]. cbn [fr_files]. now rewrite app_nil_r.
Qed.

(** ** The disk in the middle of a call *)
Lemma reporting_small E extra h r infos pre post : reporting E extra h r infos -> calls_of E extra h r = pre ++ post -> Forall (fun y => small_step (snd y)) pre.
Proof.
  intros (Hd & Hw & Hh & _ & Hs) HL. destruct (after_orderly E extra h r Hd Hw Hh) as (_ & _ & _ & _ & A5). fold (calls_of E extra h r) in A5.
  apply Forall_forall. intros y Hy. unfold small_step. assert (c_steps (snd y) <= completed E h); [|lia]. rewrite <- (C21_current_step E extra h Hd Hw). apply A5. rewrite HL. apply in_or_app. now left.
Qed.
Lemma open_history F E extra h r infos fs0 pre post st : reporting E extra h r infos -> calls_of E extra h r = pre ++ post -> reported F E fs0 infos pre = Ok st ->
  fr_open st = true -> fr_files st (history_path F) <> None.
Proof.
  intros HR HL HS Ho. destruct (reporting_inv F E extra h r infos fs0 pre post HR HL) as (st2 & E1 & HI). assert (st2 = st) by congruence. subst st2.
  pose proof (fi_open _ _ _ _ _ _ HI Ho) as HF. pose proof HR as (_ & _ & _ & Hi & _).
  destruct (hist_reported F E infos fs0 pre HF Hi (reporting_small _ _ _ _ _ _ _ HR HL) (reporting_orderly _ _ _ _ _ _ _ HR HL)) as (st2 & E2 & HH & _). assert (st2 = st) by congruence. subst st2.
  destruct HH as [(H & _)|(c0 & n & _ & _ & _ & H & _)]; congruence.
Qed.
(** The changes of a call, all made, give the disk after the call: whatever part of the file has left the
    stream's buffer when the clean-up begins. *)
Theorem C75_changes_of_a_call : forall F E extra h r infos fs0 pre x post early, reporting E extra h r infos -> calls_of E extra h r = pre ++ x :: post ->
  exists st st', reported F E fs0 infos pre = Ok st /\ reported F E fs0 infos (pre ++ [x]) = Ok st' /\
    forall q, performs (fr_files st) (disk_ops F E early st x (infos (length pre))) q = fr_files st' q.
Proof.
  intros F E extra h r infos fs0 pre x post early HR HL. destruct (reporting_inv F E extra h r infos fs0 pre _ HR HL) as (st & E1 & HI).
  assert (HL2 : calls_of E extra h r = (pre ++ [x]) ++ post) by (rewrite HL, <- app_assoc; reflexivity).
  pose proof HR as (_ & _ & _ & Hi & _).
  destruct (report_step F E infos fs0 pre st x (length pre) Hi (reporting_small _ _ _ _ _ _ _ HR HL2) (reporting_orderly _ _ _ _ _ _ _ HR HL2) HI) as (st' & E3 & _).
  exists st, st'. split; [exact E1|]. split; [rewrite reported_snoc, E1; cbn [report_any]; now rewrite E3|].
  apply disk_ops_spec; [|exact E3]. exact (open_history F E extra h r infos fs0 pre _ st HR HL E1).
Qed.
Lemma done_paths {A} (l done rest : list A) (P : A -> Prop) : l = done ++ rest -> (forall o, In o l -> P o) -> forall o, In o done -> P o.
Proof. intros -> H o Ho. apply H, in_or_app. now left. Qed.
Lemma new_view_small E extra h r infos pre post v : reporting E extra h r infos -> calls_of E extra h r = pre ++ post -> In v (new_best_views pre) -> small_step v.
Proof.
  intros HR HL Hv. pose proof (reporting_small _ _ _ _ _ _ _ HR HL) as H. rewrite Forall_forall in H. apply new_best_view_in in Hv as (y & Y & _ & <-). now apply H.
Qed.
(** no other call changes the file of a reported best *)
Lemma quiet_ops F E extra h r infos fs0 pre x post st early k v : reporting E extra h r infos -> calls_of E extra h r = pre ++ x :: post -> (1 <= fc_max_steps F)%Z ->
  fr_inv F E infos fs0 pre st -> is_new_best x = false -> In v (new_best_views pre) -> forall o, In o (disk_ops F E early st x (infos k)) -> par_path F v <> op_path o.
Proof.
  intros HR HL Hm HI Hx Hv o Ho. pose proof (new_view_small _ _ _ _ _ _ _ _ HR HL Hv) as Hsv.
  assert (HL2 : calls_of E extra h r = (pre ++ [x]) ++ post) by (rewrite HL, <- app_assoc; reflexivity).
  pose proof (reporting_small _ _ _ _ _ _ _ HR HL2) as Hs. apply Forall_app in Hs as [_ Hsx]. inversion Hsx as [|? ? Hsx' _]; subst. clear Hsx.
  pose proof (reporting_orderly _ _ _ _ _ _ _ HR HL2) as HO. apply orderly_snoc in HO as [_ HN].
  destruct x as [ev c]. unfold disk_ops in Ho. cbn [fst snd] in *. destruct ev as [| |pop|p f|pop fits nb| |kc].
  - destruct (fc_history F); [|destruct Ho]. rewrite (save_paths _ _ _ Ho). now apply par_not_history.
  - destruct Ho.
  - destruct (fc_individuals F); [|destruct Ho]. apply in_concat in Ho as (l & Hl & Ho). apply in_map_iff in Hl as (ip & <- & _). rewrite (save_paths _ _ _ Ho). now apply par_not_individual.
  - discriminate Hx.
  - destruct (Z.leb_spec (fc_max_steps F) ((Z.of_nat (c_steps c) - fr_last st) mod size_max)) as [Hle|]; [|destruct Ho].
    assert (Hp : op_path o = par_path F c).
    { unfold par_ops in Ho. destruct (let* updated := infos k in sp_of_values updated (c_cur_pt c)) as [sp| |]; [|destruct Ho..]. cbn [app] in Ho.
      destruct Ho as [<-|Ho]; [reflexivity|]. apply in_app_or in Ho as [Ho|Ho]; exact (puts_paths _ _ _ Ho). }
    rewrite Hp. intros He. apply par_path_step in He; [|exact Hsv|exact Hsx']. cbn [next_ok fst snd] in HN. destruct HN as (_ & N2 & N3).
    destruct (fi_last _ _ _ _ _ _ HI) as [(_ & L)|(y & L1 & L2 & L3 & _ & L5)]; [rewrite L in Hv; destruct Hv|].
    assert (c_steps (snd y) = c_steps c).
    { specialize (L5 v Hv). unfold writes_par in L2. apply orb_prop in L2 as [L2|L2]; [destruct (N3 y L1 L2)|specialize (N2 y L1 L2)]; lia. }
    rewrite L3, H, Z.sub_diag in Hle. cbn in Hle. lia.
  - destruct (_ && _); [|destruct Ho]. unfold flush_ops in Ho. destruct (fr_open st); [|destruct Ho]. rewrite (puts_paths _ _ _ Ho). now apply par_not_history.
  - destruct (fc_history F); [|destruct Ho]. unfold flush_ops in Ho. destruct (fr_open st); [|destruct Ho]. rewrite (puts_paths _ _ _ Ho). now apply par_not_history.
Qed.
Lemma new_best_ops F E infos fs0 pre st early c info o : fr_inv F E infos fs0 pre st -> In o (par_ops F E early st c info true) ->
  op_path o = par_path F c \/ exists m a rest, kept_bests F E pre = m :: a :: rest /\
    insignificant F E (c_cur_fit a) (c_cur_fit m) = true /\ insignificant F E (c_cur_fit m) (c_cur_fit c) = true /\ o = DRemove (par_path F m).
Proof.
  intros HI Ho. unfold par_ops in Ho. destruct (let* updated := info in sp_of_values updated (c_cur_pt c)) as [sp| |]; [|destruct Ho..].
  destruct Ho as [<-|Ho]; [now left|]. apply in_app_or in Ho as [Ho|Ho]; [left; exact (puts_paths _ _ _ Ho)|]. apply in_app_or in Ho as [Ho|Ho]; [|left; exact (puts_paths _ _ _ Ho)].
  right. rewrite (fi_recent _ _ _ _ _ _ HI) in Ho. destruct (kept_bests F E pre) as [|m [|a rest]]; [destruct Ho..|]. cbn [firstn rev app map removal entry fst snd] in Ho.
  destruct (insignificant F E (c_cur_fit a) (c_cur_fit m) && insignificant F E (c_cur_fit m) (c_cur_fit c)) eqn:Ei; [|destruct Ho]. apply andb_prop in Ei as [E1 E2]. destruct Ho as [<-|[]].
  exists m, a, rest. auto.
Qed.
Lemma last_kept F E pre vs v : new_best_views pre = vs ++ [v] -> exists rest, kept_bests F E pre = v :: rest.
Proof.
  intros H. unfold kept_bests. rewrite H, fold_left_app. cbn [fold_left]. destruct (keep_head F E (fold_left (keep F E) vs []) v) as (rest & -> & _). eauto.
Qed.
(** The process dies when the changes [done] of a call have reached the disk, and the changes [rest] have not.
    Files of bests that were kept before this call, other than the newest one, are intact; *)
Theorem C75_older_files_survive : forall F E extra h r infos fs0 pre x post early vs v u st done rest, reporting E extra h r infos -> calls_of E extra h r = pre ++ x :: post ->
  (1 <= fc_max_steps F)%Z -> new_best_views pre = vs ++ [v] -> reported F E fs0 infos pre = Ok st ->
  disk_ops F E early st x (infos (length pre)) = done ++ rest -> In u (kept_bests F E pre) -> u <> v ->
  file_holds F E infos (performs (fr_files st) done) u.
Proof.
  intros F E extra h r infos fs0 pre x post early vs v u st done rest HR HL Hm Hv HS HD Hu Huv.
  destruct (reporting_inv F E extra h r infos fs0 pre _ HR HL) as (st2 & E1 & HI). assert (st2 = st) by congruence. subst st2.
  pose proof (fi_new _ _ _ _ _ _ HI u Hu) as Hun. pose proof (fi_kept _ _ _ _ _ _ HI u Hu) as Hh. unfold file_holds in *.
  rewrite performs_other; [exact Hh|]. apply (done_paths _ done rest _ HD). destruct (is_new_best x) eqn:Ex.
  - destruct x as [ev c]. destruct ev; try discriminate Ex. unfold disk_ops. cbn [fst snd]. intros o Ho.
    assert (HL2 : calls_of E extra h r = (pre ++ [(ENewBest p f, c)]) ++ post) by (rewrite HL, <- app_assoc; reflexivity).
    pose proof (reporting_orderly _ _ _ _ _ _ _ HR HL2) as HO. apply orderly_snoc in HO as [_ HN]. cbn [next_ok fst snd] in HN. destruct HN as (_ & _ & _ & N4).
    pose proof (reporting_small _ _ _ _ _ _ _ HR HL2) as Hs. apply Forall_app in Hs as [_ Hsx]. inversion Hsx as [|? ? Hsx' _]; subst. clear Hsx. cbn [snd] in Hsx'.
    destruct (new_best_ops F E infos fs0 pre st early c _ o HI Ho) as [Hp|(m & a & rest' & K1 & _ & _ & ->)].
    + rewrite Hp. intros He. apply par_path_step in He; [|exact (new_view_small _ _ _ _ _ _ _ _ HR HL Hun)|exact Hsx'].
      apply new_best_view_in in Hun as (y & Y1 & Y2 & <-). specialize (N4 y Y1 (or_introl Y2)). lia.
    + cbn [op_path]. destruct (last_kept F E pre vs v Hv) as (rest2 & K2). assert (m = v) by congruence. subst m.
      pose proof (fi_sorted _ _ _ _ _ _ HI) as A2. rewrite K1 in A2, Hu. destruct Hu as [Hu|Hu]; [now destruct Huv|]. apply StronglySorted_inv in A2 as [_ A2]. rewrite Forall_forall in A2. specialize (A2 u Hu).
      intros He. apply par_path_step in He; [lia|exact (new_view_small _ _ _ _ _ _ _ _ HR HL Hun)|]. apply (new_view_small _ _ _ _ _ _ _ _ HR HL). rewrite Hv. apply in_or_app. right. now left.
  - exact (quiet_ops F E extra h r infos fs0 pre x post st early (length pre) u HR HL Hm HI Ex Hun).
Qed.
(** ... and so is the file of the best reported last - unless the process dies while it reports a new best, and
    both are insignificant improvements; then the file of the best it improved on is intact. *)
Theorem C75_crash_point : forall F E extra h r infos fs0 pre x post early vs v st done rest, reporting E extra h r infos -> calls_of E extra h r = pre ++ x :: post ->
  (1 <= fc_max_steps F)%Z -> new_best_views pre = vs ++ [v] -> reported F E fs0 infos pre = Ok st ->
  disk_ops F E early st x (infos (length pre)) = done ++ rest ->
  file_holds F E infos (performs (fr_files st) done) v \/
  exists p f u, fst x = ENewBest p f /\ In u vs /\ In u (kept_bests F E pre) /\ file_holds F E infos (performs (fr_files st) done) u /\
    insignificant F E (c_cur_fit u) (c_cur_fit v) = true /\ insignificant F E (c_cur_fit v) f = true.
Proof.
  intros F E extra h r infos fs0 pre x post early vs v st done rest HR HL Hm Hv HS HD.
  destruct (reporting_inv F E extra h r infos fs0 pre _ HR HL) as (st2 & E1 & HI). assert (st2 = st) by congruence. subst st2.
  destruct (last_kept F E pre vs v Hv) as (rest2 & K2).
  assert (Hvk : In v (kept_bests F E pre)) by (rewrite K2; now left). assert (Hvn : In v (new_best_views pre)) by (rewrite Hv; apply in_or_app; right; now left).
  pose proof (fi_kept _ _ _ _ _ _ HI v Hvk) as Hh.
  assert (Q : (forall o, In o done -> par_path F v <> op_path o) -> file_holds F E infos (performs (fr_files st) done) v).
  { intros H. unfold file_holds in *. now rewrite performs_other. }
  destruct (is_new_best x) eqn:Ex.
  2:{ left. apply Q. apply (done_paths _ done rest _ HD). exact (quiet_ops F E extra h r infos fs0 pre x post st early (length pre) v HR HL Hm HI Ex Hvn). }
  destruct x as [ev c]. destruct ev; try discriminate Ex.
  assert (HL2 : calls_of E extra h r = (pre ++ [(ENewBest p f, c)]) ++ post) by (rewrite HL, <- app_assoc; reflexivity).
  pose proof (reporting_orderly _ _ _ _ _ _ _ HR HL2) as HO. apply orderly_snoc in HO as [_ HN]. cbn [next_ok fst snd] in HN. destruct HN as (N1 & _ & _ & N4).
  pose proof (reporting_small _ _ _ _ _ _ _ HR HL2) as Hs. apply Forall_app in Hs as [_ Hsx]. inversion Hsx as [|? ? Hsx' _]; subst. clear Hsx. cbn [snd] in Hsx'.
  assert (Hne : par_path F v <> par_path F c).
  { intros He. apply par_path_step in He; [|exact (new_view_small _ _ _ _ _ _ _ _ HR HL Hvn)|exact Hsx']. apply new_best_view_in in Hvn as (y & Y1 & Y2 & <-). specialize (N4 y Y1 (or_introl Y2)). lia. }
  assert (Hops : forall o, In o done -> op_path o = par_path F c \/ exists m a rest, kept_bests F E pre = m :: a :: rest /\
    insignificant F E (c_cur_fit a) (c_cur_fit m) = true /\ insignificant F E (c_cur_fit m) (c_cur_fit c) = true /\ o = DRemove (par_path F m)).
  { apply (done_paths _ done rest _ HD). intros o Ho. exact (new_best_ops F E infos fs0 pre st early c _ o HI Ho). }
  destruct (Classical_Prop.classic (exists a rest', kept_bests F E pre = v :: a :: rest' /\ insignificant F E (c_cur_fit a) (c_cur_fit v) = true /\ insignificant F E (c_cur_fit v) (c_cur_fit c) = true)) as [(a & rest' & K & I1 & I2)|HNo].
  - right. assert (Hak : In a (kept_bests F E pre)) by (rewrite K; right; now left). pose proof (fi_new _ _ _ _ _ _ HI a Hak) as Han.
    assert (Hav : a <> v). { intros ->. pose proof (fi_sorted _ _ _ _ _ _ HI) as A2. rewrite K in A2. apply StronglySorted_inv in A2 as [_ A2]. rewrite Forall_forall in A2. specialize (A2 v (or_introl eq_refl)). lia. }
    exists p, (c_cur_fit c), a. split; [reflexivity|]. split; [rewrite Hv in Han; apply in_app_or in Han as [Han|[Han|[]]]; [exact Han|congruence]|]. split; [exact Hak|]. split; [|split; [exact I1|exact I2]].
    exact (C75_older_files_survive F E extra h r infos fs0 pre _ post early vs v a st done rest HR HL Hm Hv HS HD Hak Hav).
  - left. apply Q. intros o Ho. destruct (Hops o Ho) as [Hp|(m & a & rest' & K & I1 & I2 & _)]; [now rewrite Hp|]. exfalso. apply HNo. assert (m = v) by congruence. subst m. exists a, rest'. auto.
Qed.
(** If the whole file has left the stream's buffer before the clean-up begins - as when the stream is closed
    first - the newest best is never lost: at any point of reporting a new best, its file or that of the best before it is complete. *)
Theorem C75_safe_if_closed_first : forall F E extra h r infos fs0 pre p f c post early vs v st done rest, reporting E extra h r infos -> calls_of E extra h r = pre ++ (ENewBest p f, c) :: post ->
  (1 <= fc_max_steps F)%Z -> new_best_views pre = vs ++ [v] -> reported F E fs0 infos pre = Ok st ->
  (forall info, infos (length pre) = Ok info -> length (write_point {| sp_info := info; sp_values := p |}) <= early) ->
  disk_ops F E early st (ENewBest p f, c) (infos (length pre)) = done ++ rest ->
  file_holds F E infos (performs (fr_files st) done) v \/ file_holds F E infos (performs (fr_files st) done) c.
Proof.
  intros F E extra h r infos fs0 pre p f c post early vs v st done rest HR HL Hm Hv HS Hearly HD.
  destruct (reporting_inv F E extra h r infos fs0 pre _ HR HL) as (st2 & E1 & HI). assert (st2 = st) by congruence. subst st2.
  destruct (last_kept F E pre vs v Hv) as (rest2 & K2).
  assert (Hvk : In v (kept_bests F E pre)) by (rewrite K2; now left). assert (Hvn : In v (new_best_views pre)) by (rewrite Hv; apply in_or_app; right; now left).
  pose proof (fi_kept _ _ _ _ _ _ HI v Hvk) as Hh.
  assert (Q : (forall o, In o done -> par_path F v <> op_path o) -> file_holds F E infos (performs (fr_files st) done) v).
  { intros H. unfold file_holds in *. now rewrite performs_other. }
  assert (HL2 : calls_of E extra h r = (pre ++ [(ENewBest p f, c)]) ++ post) by (rewrite HL, <- app_assoc; reflexivity).
  pose proof (reporting_orderly _ _ _ _ _ _ _ HR HL2) as HO. apply orderly_snoc in HO as [_ HN]. cbn [next_ok fst snd] in HN. destruct HN as (N1 & N2 & N3 & N4).
  pose proof (reporting_small _ _ _ _ _ _ _ HR HL2) as Hs. apply Forall_app in Hs as [_ Hsx]. inversion Hsx as [|? ? Hsx' _]; subst. clear Hsx. cbn [snd] in Hsx'.
  assert (Hne : par_path F v <> par_path F c).
  { intros He. apply par_path_step in He; [|exact (new_view_small _ _ _ _ _ _ _ _ HR HL Hvn)|exact Hsx']. apply new_best_view_in in Hvn as (y & Y1 & Y2 & <-). specialize (N4 y Y1 (or_introl Y2)). lia. }
  pose proof HR as (_ & _ & _ & Hi & _). destruct (Hi (length pre)) as (info & Hk & Hdim). specialize (Hearly info Hk).
  unfold disk_ops, par_ops in HD. cbn [fst snd] in HD. rewrite Hk in HD. cbn [obind] in HD. unfold sp_of_values, assert_ in HD. rewrite Hdim, N3, Nat.eqb_refl in HD. cbn [obind] in HD. unfold round_values in HD.
  set (t := write_point {| sp_info := info; sp_values := map rounded (c_cur_pt c) |}) in *. rewrite firstn_all2, skipn_all2 in HD by exact Hearly. cbn [map] in HD. rewrite app_nil_r in HD.
  change (save (par_path F c) t ++ removal F E (fr_recent st ++ [(par_path F c, c_cur_fit c)]) = done ++ rest) in HD.
  destruct (removal F E (fr_recent st ++ [(par_path F c, c_cur_fit c)])) as [|o [|o' l]] eqn:ER.
  - left. apply Q. rewrite app_nil_r in HD. apply (done_paths _ done rest _ HD). intros o Ho. now rewrite (save_paths _ _ _ Ho).
  - destruct rest as [|z rest0 _] using rev_ind.
    + right. rewrite app_nil_r in HD. subst done. exists (length pre), info. split; [exact Hk|]. split; [exact Hdim|]. rewrite performs_app. cbn [performs fold_left]. fold (performs (fr_files st) (save (par_path F c) t)).
      rewrite perform_other; [rewrite performs_save; apply write_same|].
      rewrite (fi_recent _ _ _ _ _ _ HI), K2 in ER. destruct rest2 as [|a rest2]; [discriminate ER|]. cbn [firstn rev app map removal entry fst snd] in ER. destruct (_ && _); [|discriminate ER].
      injection ER as <-. cbn [op_path]. congruence.
    + left. apply Q. rewrite app_assoc in HD. apply app_inj_tail in HD as [HD _]. apply (done_paths _ done rest0 _ HD). intros o' Ho. now rewrite (save_paths _ _ _ Ho).
  - exfalso. clear -ER. unfold removal in ER. destruct (_ ++ _) as [|a [|b [|d [|? ?]]]]; try discriminate ER. destruct (_ && _); discriminate ER.
Qed.
(** ** history.txt *)
(** When the process dies in any call after on_start (other than another on_start, after a first step that failed),
    history.txt is the beginning of the table of all steps, and lacks at most the last ten rows. *)
Theorem C75_history_prefix : forall F E extra h r infos fs0 pre x post early w st done rest, fc_history F = true -> reporting E extra h r infos -> calls_of E extra h r = pre ++ x :: post ->
  In (EStart, w) pre -> fst x <> EStart -> reported F E fs0 infos pre = Ok st -> disk_ops F E early st x (infos (length pre)) = done ++ rest ->
  exists c0 n t missing, In (EStart, c0) pre /\ c_steps c0 = 0 /\
    performs (fr_files st) done (history_path F) = Some (header F E c0 ++ t) /\
    t ++ missing = rows F E (post_steps (pre ++ [x])) /\
    (exists more, t = rows F E (firstn n (post_steps (pre ++ [x]))) ++ more) /\ length (post_steps (pre ++ [x])) <= n + 10.
Proof.
  intros F E extra h r infos fs0 pre x post early w st done rest HF HR HL Hw Hx HS HD.
  pose proof HR as (_ & _ & _ & Hi & _).
  destruct (hist_reported F E infos fs0 pre HF Hi (reporting_small _ _ _ _ _ _ _ HR HL) (reporting_orderly _ _ _ _ _ _ _ HR HL)) as (st2 & E2 & HH & _). assert (st2 = st) by congruence. subst st2.
  destruct HH as [(_ & _ & H)|(c0 & n & H1 & H2 & H3 & H4 & H5 & H6)]; [now destruct (H w)|].
  destruct (reporting_inv F E extra h r infos fs0 pre _ HR HL) as (st2 & E1 & HI). assert (st2 = st) by congruence. subst st2.
  assert (HL2 : calls_of E extra h r = (pre ++ [x]) ++ post) by (rewrite HL, <- app_assoc; reflexivity).
  pose proof (reporting_small _ _ _ _ _ _ _ HR HL2) as Hs. apply Forall_app in Hs as [_ Hsx]. inversion Hsx as [|? ? Hsx' _]; subst. clear Hsx.
  assert (Hn : length (post_steps pre) <= n + 9).
  { pose proof (Nat.div_mod (length (post_steps pre)) 10 ltac:(lia)). pose proof (Nat.mod_upper_bound (length (post_steps pre)) 10 ltac:(lia)). lia. }
  assert (Hfirst : firstn n (post_steps (pre ++ [x])) = firstn n (post_steps pre)).
  { rewrite post_steps_snoc, firstn_app. replace (n - length (post_steps pre)) with 0 by lia. cbn [firstn]. now rewrite app_nil_r. }
  assert (Hrows : exists tail, rows F E (post_steps (pre ++ [x])) = rows F E (firstn n (post_steps pre)) ++ fr_buffer st ++ tail /\ tail = rows F E (if is_post_step x then [snd x] else [])).
  { eexists. split; [|reflexivity]. rewrite post_steps_snoc, rows_app. rewrite <- (firstn_skipn n (post_steps pre)) at 1. rewrite rows_app, <- H5, <- app_assoc. reflexivity. }
  destruct Hrows as (tail & Hrows & Htail).
  assert (Hlen : length (post_steps (pre ++ [x])) <= n + 10) by (rewrite post_steps_snoc, app_length; destruct (is_post_step x); cbn [length]; lia).
  (* what is written to history.txt *)
  assert (G : forall s s', performs (fr_files st) done (history_path F) = Some (header F E c0 ++ rows F E (firstn n (post_steps pre)) ++ s) -> s ++ s' = fr_buffer st ++ tail -> 
    exists c0 n t missing, In (EStart, c0) pre /\ c_steps c0 = 0 /\ performs (fr_files st) done (history_path F) = Some (header F E c0 ++ t) /\ t ++ missing = rows F E (post_steps (pre ++ [x])) /\
    (exists more, t = rows F E (firstn n (post_steps (pre ++ [x]))) ++ more) /\ length (post_steps (pre ++ [x])) <= n + 10).
  { intros s s' Hp Hss. exists c0, n, (rows F E (firstn n (post_steps pre)) ++ s), s'. split; [exact H1|]. split; [exact H2|]. split; [exact Hp|]. split; [rewrite Hrows, <- Hss, app_assoc; reflexivity|]. split; [exists s; now rewrite Hfirst|exact Hlen]. }
  assert (Q : (forall o, In o (disk_ops F E early st x (infos (length pre))) -> op_path o <> history_path F) -> exists c0 n t missing, In (EStart, c0) pre /\ c_steps c0 = 0 /\ performs (fr_files st) done (history_path F) = Some (header F E c0 ++ t) /\ t ++ missing = rows F E (post_steps (pre ++ [x])) /\
    (exists more, t = rows F E (firstn n (post_steps (pre ++ [x]))) ++ more) /\ length (post_steps (pre ++ [x])) <= n + 10).
  { intros H. apply (G [] (fr_buffer st ++ tail)); [|reflexivity]. rewrite app_nil_r, <- H4. apply performs_other. intros o Ho He. symmetry in He. revert He. apply H. rewrite HD. apply in_or_app. now left. }
  assert (P : forall more tl, tail = more ++ tl -> disk_ops F E early st x (infos (length pre)) = map (DPut (history_path F)) (fr_buffer st ++ more) -> exists c0 n t missing, In (EStart, c0) pre /\ c_steps c0 = 0 /\ performs (fr_files st) done (history_path F) = Some (header F E c0 ++ t) /\ t ++ missing = rows F E (post_steps (pre ++ [x])) /\
    (exists more, t = rows F E (firstn n (post_steps (pre ++ [x]))) ++ more) /\ length (post_steps (pre ++ [x])) <= n + 10).
  { intros more tl Hmore HE. rewrite HE in HD. apply map_eq_app in HD as (a & b & D1 & <- & _).
    assert (Hab : exists b', a ++ b' = fr_buffer st ++ tail) by (exists (b ++ tl); rewrite Hmore, !app_assoc, <- D1; reflexivity).
    destruct Hab as (b' & Hab). apply (G a b'); [|exact Hab]. rewrite (performs_puts _ _ _ _ H4), path_eqb_refl, <- app_assoc. reflexivity. }
  destruct x as [ev c]. cbn [fst snd] in *. unfold disk_ops in Q, P. cbn [fst snd] in Q, P. destruct ev as [| |pop|p f|pop fits nb| |kc].
  - now destruct Hx.
  - apply Q. intros o [].
  - apply Q. destruct (fc_individuals F); [|intros o []]. intros o Ho. apply in_concat in Ho as (l & Hl & Ho). apply in_map_iff in Hl as (ip & <- & _). rewrite (save_paths _ _ _ Ho). now apply individual_not_history.
  - apply Q. intros o Ho. destruct (new_best_ops F E infos fs0 pre st early c _ o HI Ho) as [->|(m & a & rest' & K1 & _ & _ & ->)]; [now apply par_not_history|]. cbn [op_path].
    apply par_not_history. apply (new_view_small _ _ _ _ _ _ _ _ HR HL). apply (fi_new _ _ _ _ _ _ HI). rewrite K1. now left.
  - apply Q. destruct (Z.leb _ _); [|intros o []]. intros o Ho. unfold par_ops in Ho. destruct (let* updated := infos (length pre) in sp_of_values updated (c_cur_pt c)) as [sp| |]; [|destruct Ho..]. cbn [app] in Ho.
    destruct Ho as [<-|Ho]; [now apply par_not_history|]. apply in_app_or in Ho as [Ho|Ho]; rewrite (puts_paths _ _ _ Ho); now apply par_not_history.
  - rewrite HF in P, Q. cbn [andb] in P, Q. destruct (Nat.eqb (c_steps c mod 10) 9); [|apply Q; intros o []]. unfold flush_ops in P. rewrite H3 in P. apply (P (row F E c) []); [|reflexivity]. rewrite Htail. reflexivity.
  - rewrite HF in P, Q. unfold flush_ops in P. rewrite H3 in P. apply (P [] tail); reflexivity.
Qed.
(** ** Concrete crashes *)
(** The newest best can be lost: it is removed from the disk while all of the file that replaces it is still
    in the stream's buffer. *)
Definition lost (fs : files) (v c : path) : bool := match fs v, fs c with None, Some [] => true | _, _ => false end.
Lemma crash_check F E fs0 h infos i early (chk : fr -> core -> event * core -> list disk_op -> bool) :
  (match nth_error (calls_of E [] h 0) i, reported F E fs0 infos (firstn i (calls_of E [] h 0)), rev (new_best_views (firstn i (calls_of E [] h 0))) with
   | Some x, Ok st, v :: _ => chk st v x (disk_ops F E early st x (infos i)) | _, _, _ => false end) = true ->
  exists pre x post vs v st, calls_of E [] h 0 = pre ++ x :: post /\ length pre = i /\ new_best_views pre = vs ++ [v] /\ reported F E fs0 infos pre = Ok st /\
    chk st v x (disk_ops F E early st x (infos (length pre))) = true.
Proof.
  set (L := calls_of E [] h 0). clearbody L. intros H. destruct (nth_error L i) as [x|] eqn:EN; [|discriminate H].
  apply nth_error_split in EN as (pre & post & -> & EL). rewrite <- EL in H. rewrite firstn_app, Nat.sub_diag, firstn_all, firstn_O, app_nil_r in H.
  destruct (reported F E fs0 infos pre) as [st| |] eqn:ER; [|discriminate H..]. destruct (rev (new_best_views pre)) as [|v vs] eqn:EV; [discriminate H|].
  exists pre, x, post, (rev vs), v, st. split; [reflexivity|]. split; [exact EL|]. split; [rewrite <- (rev_involutive (new_best_views pre)), EV; reflexivity|]. split; [exact ER|exact H].
Qed.
Theorem C75_newest_best_survives_refuted : exists F E h r infos pre p f c post early vs v st done rest, reporting E [] h r infos /\ calls_of E [] h r = pre ++ (ENewBest p f, c) :: post /\
  (1 <= fc_max_steps F)%Z /\ new_best_views pre = vs ++ [v] /\ reported F E empty_disk infos pre = Ok st /\
  disk_ops F E early st (ENewBest p f, c) (infos (length pre)) = done ++ rest /\
  performs (fr_files st) done (par_path F v) = None /\ performs (fr_files st) done (par_path F c) = Some [].
Proof.
  set (F := ex_config (flit 6 (-1)) 2). set (E := ex_env [quiet]).
  destruct (crash_check F E empty_disk ex_steps ex_infos 13 0 (fun st v x ops => is_new_best x && lost (performs (fr_files st) (firstn 2 ops)) (par_path F v) (par_path F (snd x)))) as (pre & x & post & vs & v & st & H1 & _ & H2 & H3 & H4); [vm_compute; reflexivity|].
  apply andb_prop in H4 as [H4 H5]. destruct x as [ev c]. destruct ev; try discriminate H4. cbn [snd] in H5.
  exists F, E, ex_steps, 0, ex_infos, pre, p, f, c, post, 0, vs, v, st, (firstn 2 (disk_ops F E 0 st (ENewBest p f, c) (ex_infos (length pre)))), (skipn 2 (disk_ops F E 0 st (ENewBest p f, c) (ex_infos (length pre)))).
  split; [apply ex_reporting|]. split; [exact H1|]. split; [cbn; lia|]. split; [exact H2|]. split; [exact H3|]. split; [symmetry; apply firstn_skipn|].
  unfold lost in H5. destruct (performs _ _ (par_path F v)); [discriminate H5|]. destruct (performs _ _ (par_path F c)) as [[|]|]; [|discriminate H5..]. split; reflexivity.
Qed.
(** With max_steps = 0 the file of a new best is written a second time at the end of its step, and a crash then
    loses it as well. *)
Theorem C75_max_steps_zero_refuted : exists F E h r infos pre x post early vs v st done rest, reporting E [] h r infos /\ calls_of E [] h r = pre ++ x :: post /\
  fc_max_steps F = 0%Z /\ is_new_best x = false /\ new_best_views pre = vs ++ [v] /\ vs = [] /\ reported F E empty_disk infos pre = Ok st /\
  disk_ops F E early st x (infos (length pre)) = done ++ rest /\
  performs (fr_files st) done (par_path F v) = Some [].
Proof.
  set (F := ex_config (flit 6 (-1)) 0). set (E := ex_env [quiet]).
  destruct (crash_check F E empty_disk ex_steps ex_infos 4 0 (fun st v x ops => negb (is_new_best x) && match performs (fr_files st) (firstn 1 ops) (par_path F v) with Some [] => true | _ => false end)) as (pre & x & post & vs & v & st & H1 & HL & H2 & H3 & H4); [vm_compute; reflexivity|].
  apply andb_prop in H4 as [H4 H5].
  exists F, E, ex_steps, 0, ex_infos, pre, x, post, 0, vs, v, st, (firstn 1 (disk_ops F E 0 st x (ex_infos (length pre)))), (skipn 1 (disk_ops F E 0 st x (ex_infos (length pre)))).
  split; [apply ex_reporting|]. split; [exact H1|]. split; [reflexivity|]. split; [now destruct (is_new_best x)|]. split; [exact H2|]. split; [|split; [exact H3|split; [symmetry; apply firstn_skipn|]]].
  - assert (HN : length (new_best_views (firstn 4 (calls_of E [] ex_steps 0))) = 1) by (vm_compute; reflexivity). rewrite H1, <- HL, firstn_app, Nat.sub_diag, firstn_all, firstn_O, app_nil_r, H2, app_length in HN. cbn [length] in HN. destruct vs; [reflexivity|cbn [length] in HN; lia].
  - destruct (performs _ _ (par_path F v)) as [[|]|]; [reflexivity|discriminate H5..].
Qed.
(** A crash in the middle of the report of the third best, whose first 3 characters had been written before the second
    best was removed: both clauses of [C75_crash_point] occur in this run, for crashes after 3 and after 5 changes. *)
Example C75_nonvacuous : exists pre x post vs v st, reporting (ex_env [quiet]) [] ex_steps 0 ex_infos /\ calls_of (ex_env [quiet]) [] ex_steps 0 = pre ++ x :: post /\ (1 <= fc_max_steps (ex_config (flit 6 (-1)) 2))%Z /\
  new_best_views pre = vs ++ [v] /\ length vs = 1 /\ reported (ex_config (flit 6 (-1)) 2) (ex_env [quiet]) empty_disk ex_infos pre = Ok st /\
  (let ops := disk_ops (ex_config (flit 6 (-1)) 2) (ex_env [quiet]) 3 st x (ex_infos (length pre)) in
   performs (fr_files st) (firstn 3 ops) (chars "out/0001_5.000_2.000.par") <> None /\ performs (fr_files st) (firstn 3 ops) (chars "out/0002_2.000_1.000.par") = Some (chars "x" ++ [tab]) /\
   performs (fr_files st) (firstn 5 ops) (chars "out/0001_5.000_2.000.par") = None /\ performs (fr_files st) (firstn 5 ops) (chars "out/0000_4.000_3.000.par") <> None /\
   performs (fr_files st) (firstn 5 ops) (chars "out/0002_2.000_1.000.par") = Some (chars "x" ++ [tab] ++ chars "1")).
Proof.
  set (F := ex_config (flit 6 (-1)) 2). set (E := ex_env [quiet]).
  destruct (crash_check F E empty_disk ex_steps ex_infos 13 3 (fun st v x ops =>
    match performs (fr_files st) (firstn 3 ops) (chars "out/0001_5.000_2.000.par"), performs (fr_files st) (firstn 5 ops) (chars "out/0001_5.000_2.000.par"), performs (fr_files st) (firstn 5 ops) (chars "out/0000_4.000_3.000.par"),
          performs (fr_files st) (firstn 3 ops) (chars "out/0002_2.000_1.000.par"), performs (fr_files st) (firstn 5 ops) (chars "out/0002_2.000_1.000.par") with
    | Some _, None, Some _, Some s, Some t => path_eqb s (chars "x" ++ [tab]) && path_eqb t (chars "x" ++ [tab] ++ chars "1") | _, _, _, _, _ => false end)) as (pre & x & post & vs & v & st & H1 & HL & H2 & H3 & H4); [vm_compute; reflexivity|].
  exists pre, x, post, vs, v, st. split; [apply ex_reporting|]. split; [exact H1|]. split; [cbn; lia|]. split; [exact H2|]. split; [|split; [exact H3|]].
  - assert (HN : length (new_best_views (firstn 13 (calls_of E [] ex_steps 0))) = 2) by (vm_compute; reflexivity). rewrite H1, <- HL, firstn_app, Nat.sub_diag, firstn_all, firstn_O, app_nil_r, H2, app_length in HN. cbn [length] in HN. lia.
  - cbv zeta. set (ops := disk_ops F E 3 st x (ex_infos (length pre))) in *. clearbody ops. clear H1 H2 H3 HL.
    destruct (performs (fr_files st) (firstn 3 ops) (chars "out/0001_5.000_2.000.par")); [|discriminate H4]. destruct (performs (fr_files st) (firstn 5 ops) (chars "out/0001_5.000_2.000.par")); [discriminate H4|].
    destruct (performs (fr_files st) (firstn 5 ops) (chars "out/0000_4.000_3.000.par")); [|discriminate H4]. destruct (performs (fr_files st) (firstn 3 ops) (chars "out/0002_2.000_1.000.par")) as [s|]; [|discriminate H4].
    destruct (performs (fr_files st) (firstn 5 ops) (chars "out/0002_2.000_1.000.par")) as [u|]; [|discriminate H4]. apply andb_prop in H4 as [H4 H5]. unfold path_eqb in H4, H5.
    destruct (list_eq_dec Ascii.ascii_dec s (chars "x" ++ [tab])) as [->|]; [|discriminate H4]. destruct (list_eq_dec Ascii.ascii_dec u (chars "x" ++ [tab] ++ chars "1")) as [->|]; [|discriminate H5].
    split; [discriminate|]. split; [reflexivity|]. split; [reflexivity|]. split; [discriminate|reflexivity].
Qed.
