(** * C07 - C13, C17, C18, C56, C57: objective_info and par_io (continued). *)
From Coq Require Import ZArith Bool.
From Verif Require Import Prelude Flt FltFacts Round8 ShowNum ShowNumFacts PropNode ParInfo ParInfoFacts FlatMap
  ObjInfo ObjInfoFacts ParIO ParIOFacts SearchPoint Properties_Params.

(** ** C07.  Events are pairs (full name asked for, value returned). *)
Theorem C07_replay_on_search_point : forall X prog io io' vs p,
  exec_list X oi_store prog io = (io', Ok vs) ->
  sp_info p = io_st io' -> length (sp_values p) = oi_dim (sp_info p) ->
  exists ws,
    exec_list X sp_store prog (Build_pario (io_prefix io) (io_opts io) p)
    = (Build_pario (io_prefix io') (io_opts io') p, Ok ws) /\
    Forall2 (fun v w => fst w = fst v /\
      forall n i, fst v = Some n -> find_index (sp_info p) n = Some i -> nth_error (sp_values p) i = Some (snd w)) vs ws.
Proof.
  intros X prog io io' vs p H Hi Hl.
  assert (Hc : covers p (io_st io')) by (rewrite <- Hi; apply covers_self; exact Hl).
  destruct (replay_program X p prog io io' vs H Hc) as (ws & H1 & H2). exists ws. split; [exact H1|].
  eapply Forall2_impl'; [|exact H2]. intros [n v] [n' w] [Hn Hv]. cbn [fst snd] in *. split; [exact Hn|].
  intros m i -> Hm. specialize (Hv m). unfold sp_try_get in Hv. rewrite Hm in Hv.
  destruct (nth_error (sp_values p) i) as [u|] eqn:E.
  - now rewrite (Hv u eq_refl eq_refl).
  - exfalso. apply nth_error_None in E. apply find_pos_Some in Hm as (q & _ & _ & _ & Hlt). unfold oi_dim in Hl. lia.
Qed.

(** The same against any later, larger objective_info. *)
Theorem C07_replay_on_larger_info : forall X prog io io' vs p,
  exec_list X oi_store prog io = (io', Ok vs) ->
  (forall n, oi_try_get (io_st io') n <> None -> oi_try_get (sp_info p) n <> None) ->
  length (sp_values p) = oi_dim (sp_info p) ->
  exists ws, exec_list X sp_store prog (Build_pario (io_prefix io) (io_opts io) p)
    = (Build_pario (io_prefix io') (io_opts io') p, Ok ws).
Proof.
  intros X prog io io' vs p H Hi Hl.
  assert (Hc : covers p (io_st io')) by (intros n Hn; apply sp_try_get_known; auto).
  destruct (replay_program X p prog io io' vs H Hc) as (ws & H1 & _). eauto.
Qed.

(** A plain get names a parameter that stays registered with that value, and building
    never moves or changes a parameter. *)
Theorem C07_building_only_extends : forall X prog io io' r,
  exec_list X oi_store prog io = (io', r) ->
  (forall i q, nth_error (oi_free (io_st io)) i = Some q -> nth_error (oi_free (io_st io')) i = Some q) /\
  (forall n v, oi_try_get (io_st io) n = Some v -> oi_try_get (io_st io') n = Some v) /\
  (forall n m s lo hi t vs, prog = CGet n m s lo hi :: t -> r = Ok vs ->
     exists v vs', vs = (Some (prefix_str (io_prefix io) ++ n)%string, v) :: vs' /\
       oi_try_get (io_st io') (prefix_str (io_prefix io) ++ n) = Some v).
Proof.
  intros X prog io io' r H. pose proof (exec_list_ext X prog io) as He. rewrite H in He. cbn [fst] in He.
  destruct He as ((ps & Hps) & Hk & _). split; [|split; [exact Hk|]].
  - intros i q Hq. rewrite Hps, nth_error_app1; [exact Hq|]. apply nth_error_Some. congruence.
  - intros n m s lo hi t vs -> ->. cbn [exec_list exec] in H.
    destruct (io_get oi_store io n m s lo hi) as [io1 r1] eqn:E1. destruct r1 as [v|w|]; try discriminate. cbn [obind] in H.
    destruct (exec_list X oi_store t io1) as [io2 r2] eqn:E2. destruct r2 as [v2|w|]; try discriminate. injection H as <- <-.
    exists v, v2. split; [reflexivity|].
    pose proof (exec_list_ext X t io1) as He. rewrite E2 in He. destruct He as (_ & He & _). cbn [fst] in He. apply He.
    pose proof (get_again oi_store oi_add_Ok _ _ _ _ _ _ _ _ E1) as Hg.
    pose proof (io_get_frame oi_store io n m s lo hi) as [F _]. rewrite E1 in F. cbn [fst] in F. rewrite F in Hg. exact Hg.
Qed.

Definition prog1 : list cmd :=
  [CGet "k" (fofZ 1) (fofZ 1) (fofZ 0) (fofZ 9);
   CScope "a" true [CGetNode "r" (PN "k" []); CGet "k" (fofZ 2) (fofZ 1) (fofZ 0) (fofZ 9)]].
Definition io1 : pario obj_info := fst (exec_list X0 oi_store prog1 (new_pario (empty_info true))).
Definition values_of (r : outcome (list (option string * f64))) : list f64 := match r with Ok l => map snd l | _ => [] end.

Example C07_nonvacuous :
  (match exec_list X0 oi_store prog1 (new_pario (empty_info true)) with (_, Ok [_; _; _]) => True | _ => False end) /\
  map pi_name (oi_free (io_st io1)) = ["k"; "a.k"]%string.
Proof. split; vm_compute; [exact I|reflexivity]. Qed.

(** Sharpness: a reference (value starting with a letter) may resolve to a different
    parameter when the model is rebuilt: here [a.r = k] reads the global [k] (value 1)
    while building and [a.k] (value 2) on the search point of the initial means. *)
Theorem C07_reference_resolves_same_refuted : exists prog io' vs ws,
  exec_list X0 oi_store prog (new_pario (empty_info true)) = (io', Ok vs) /\
  exec_list X0 sp_store prog (new_pario (sp_of_means (io_st io'))) = (new_pario (sp_of_means (io_st io')), Ok ws) /\
  nth 1 (map snd vs) fnan = fofZ 1 /\ nth 1 (map snd ws) fnan = fofZ 2.
Proof.
  destruct (exec_list X0 oi_store prog1 (new_pario (empty_info true))) as [io' r] eqn:E.
  assert (Hr : match r with Ok _ => true | _ => false end = true).
  { change r with (snd (io', r)). rewrite <- E. vm_compute. reflexivity. }
  destruct r as [vs|w|]; try discriminate.
  assert (Hio : io' = io1) by (unfold io1; now rewrite E).
  assert (Hw : sp_wf (sp_of_means (io_st io'))).
  { unfold sp_wf, sp_of_means, round_values. cbn [sp_values sp_info]. now rewrite !map_length. }
  destruct (C07_replay_on_search_point _ _ _ _ _ (sp_of_means (io_st io')) E eq_refl Hw) as (ws & Hws & _).
  assert (Hp : io_prefix io' = []) by (rewrite Hio; reflexivity).
  assert (Ho : io_opts io' = [default_options]) by (rewrite Hio; reflexivity).
  exists prog1, io', vs, ws. split; [exact E|]. split.
  - rewrite Hp, Ho in Hws. exact Hws.
  - assert (V : map snd vs = values_of (snd (exec_list X0 oi_store prog1 (new_pario (empty_info true))))) by now rewrite E.
    assert (W : map snd ws = values_of (snd (exec_list X0 sp_store prog1 (new_pario (sp_of_means (io_st io1)))))).
    { rewrite Hio in Hws. unfold new_pario. cbn [io_prefix io_opts new_pario] in Hws. rewrite Hws. reflexivity. }
    rewrite V, W. split; f64_compute.
Qed.

(** ** C08 *)
Theorem C08_scopes_restore : forall S X (T : store S) c io io' r,
  exec X T c io = (io', r) ->
  (* options: for any program whose option nodes hold numbers, even if it throws *)
  (opts_readable c = true -> io_opts io' = io_opts io) /\
  (* the prefix stack: for any program without scoped_prefix_setter, even if it throws *)
  (no_setter c = true -> io_prefix io' = io_prefix io).
Proof.
  intros S X T c io io' r H. pose proof (exec_frame X T c io) as [H1 H2]. rewrite H in H1, H2. split; auto.
Qed.
(** scoped_prefix_setter around a program restores the prefix string (and the options). *)
Theorem C08_setter_restores_string : forall S X (T : store S) p body io io' r,
  exec X T (CSetScope p body) io = (io', r) ->
  prefix_str (io_prefix io') = prefix_str (io_prefix io) /\
  (forallb opts_readable body = true -> io_opts io' = io_opts io).
Proof.
  intros S X T p body io io' r H. pose proof (exec_frame X T (CSetScope p body) io) as [H1 _]. rewrite H in H1.
  split; [|exact H1]. rewrite exec_setscope in H. destruct (exec_list X T body _) as [io2 r2]. injection H as <- <-.
  unfold set_prefix. cbn [with_prefix io_prefix]. reflexivity.
Qed.
(** It does not restore the stack: used inside a scoped_prefix, the outer prefix is lost
    when the scoped_prefix is left (set replaces the stack by one segment, which the pop
    removes). *)
Theorem C08_setter_inside_scope_restores_refuted : exists c (io : pario obj_info),
  prefix_str (io_prefix io) = "leg."%string /\
  prefix_str (io_prefix (fst (exec X0 oi_store c io))) = ""%string.
Proof.
  exists (CScope "knee" true [CSetScope "other." []]), (Build_pario ["leg."%string] [default_options] (empty_info true)).
  split; reflexivity.
Qed.
(** scoped_par_options: if the constructor throws (a value that is not a number), the
    options it pushed are never popped. *)
Theorem C08_throwing_options_restored_refuted : exists c (io : pario obj_info) w,
  snd (exec X0 oi_store c io) = Throw w /\ length (io_opts (fst (exec X0 oi_store c io))) = S (length (io_opts io)).
Proof.
  exists (COptScope (PN "" [("auto_std_factor"%string, PN "abc" [])]) []), (new_pario (empty_info true)), "Could not convert value"%string.
  split; vm_compute; reflexivity.
Qed.
Example C08_nonvacuous :
  let c := CScope "a" true [COptScope (PN "" [("auto_std_factor"%string, PN "0.5" [])]) [CScope "b" true [CGetNode "x" (PN "~2" [])]; CGetNode "y" (PN "zzz" [])]] in
  opts_readable c = true /\ no_setter c = true /\
  (match snd (exec X0 oi_store c (new_pario (empty_info true))) with Throw _ => True | _ => False end) /\
  map pi_name (oi_free (io_st (fst (exec X0 oi_store c (new_pario (empty_info true)))))) = ["a.b.x"%string].
Proof. cbv zeta. split; [vm_compute; reflexivity|]. split; [reflexivity|]. split; vm_compute; [exact I|reflexivity]. Qed.

(** ** C09 *)
Theorem C09_reference_innermost_scope : forall S X (T : store S) io name pn opt,
  io_options io = Some opt ->
  st_try_get T (io_st io) (full_name_of X io opt name) = None ->
  starts_alpha (pn_str pn) = true ->
  let depth := length (io_prefix io) in
  let in_scope k := st_try_get T (io_st io) (prefix_str (firstn k (io_prefix io)) ++ pn_str pn) in
  (forall v, io_get_node X T io name pn = (io, Ok v) <->
     exists k, k <= depth /\ in_scope k = Some v /\ forall j, k < j <= depth -> in_scope j = None) /\
  ((exists w, io_get_node X T io name pn = (io, Throw w)) <-> forall k, k <= depth -> in_scope k = None) /\
  fst (io_get_node X T io name pn) = io.
Proof.
  intros S X T io n pn opt Ho Hn Ha depth in_scope.
  assert (E : io_get_node X T io n pn = match lookup_ref T (io_st io) (rev (io_prefix io)) (pn_str pn) with
        | Some v => (io, Ok v) | None => (io, Throw ("Could not find parameter " ++ pn_str pn)%string) end).
  { unfold io_get_node. now rewrite Ho, Hn, Ha. }
  rewrite E. pose proof (lookup_ref_spec T (io_st io) (rev (io_prefix io)) (pn_str pn)) as H.
  rewrite rev_involutive, rev_length in H. fold depth in H.
  destruct (lookup_ref T (io_st io) (rev (io_prefix io)) (pn_str pn)) as [v|].
  - destruct H as (k & H1 & H2 & H3). split; [|split; [|reflexivity]].
    + intros w. split.
      * intros [= <-]. exists k. auto.
      * intros (k' & K1 & K2 & K3). assert (k = k') as <-.
        { destruct (Nat.lt_trichotomy k k') as [H|[H|H]]; [|exact H|].
          - unfold in_scope in K2. rewrite H3 in K2 by lia. discriminate.
          - pose proof (K3 k (conj H H1)) as K. unfold in_scope in K. congruence. }
        f_equal. unfold in_scope in K2. congruence.
    + split; [intros (w & Hw); discriminate|]. intros H. exfalso. specialize (H k H1). unfold in_scope in H. congruence.
  - split; [|split; [|reflexivity]].
    + intros w. split; [discriminate|]. intros (k & K1 & K2 & _). unfold in_scope in K2. specialize (H k K1). congruence.
    + split; [intros _; exact H|eauto].
Qed.
Example C09_nonvacuous :
  let io := Build_pario ["leg."; "knee."]%string [default_options]
      (fst (oi_add (fst (oi_add (empty_info true) (const_par "leg.k" (fofZ 5)))) (const_par "k" (fofZ 7)))) in
  match io_get_node X0 oi_store io "m" (PN "k" []) with (_, Ok v) => f64_same v (fofZ 5) = true | _ => False end.
Proof. vm_compute. reflexivity. Qed.

(** ** C10.  The status of a name: free (with its par_info), locked (with its value) or unknown. *)
(** A record is taken when its name matches the include pattern (if there is one) and does
    not match the exclude pattern (if there is one). *)
Definition wanted (inc exc : pattern) (n : string) : bool :=
  (if pat_empty inc then true else pat_match inc n) && (if pat_empty exc then true else negb (pat_match exc n)).
Lemma selected_wanted inc exc n : selected inc exc n = wanted inc exc n.
Proof. unfold selected, wanted. destruct (pat_empty inc), (pat_match inc n), (pat_empty exc), (pat_match exc n); reflexivity. Qed.
Theorem C10_import_locked : forall o t inc exc recs bad,
  names_unique o -> fm_sorted (oi_locked o) -> file_records t = (recs, bad) ->
  let l := map fst recs in
  let hits n := filter (fun r => wanted inc exc (r_name r) && String.eqb (r_name r) n) l in
  let o' := fst (import_locked o (Some t) inc exc) in
  (* the set of known names never changes *)
  (forall n, oi_try_get o' n = None <-> oi_try_get o n = None) /\
  (* a known name with selected records is locked to the last one's value *)
  (forall n r, oi_try_get o n <> None -> last (map Some (hits n)) None = Some r ->
     try_get_locked o' n = Some (r_value r) /\ find_par n (oi_free o') = None) /\
  (* every other name keeps its status *)
  (forall n, hits n = [] -> find_par n (oi_free o') = find_par n (oi_free o) /\ try_get_locked o' n = try_get_locked o n) /\
  (* exactly the locked ones leave the free list; the order of the others is kept *)
  oi_free o' = filter (fun p => match hits (pi_name p) with [] => true | _ => false end) (oi_free o) /\
  (* result *)
  (bad = ""%string -> snd (import_locked o (Some t) inc exc) =
     Ok (length (filter (fun r => wanted inc exc (r_name r) && match oi_try_get o (r_name r) with Some _ => true | None => false end) l),
         length (filter (fun r => wanted inc exc (r_name r) && match oi_try_get o (r_name r) with Some _ => false | None => true end) l))) /\
  (bad <> ""%string -> exists w, snd (import_locked o (Some t) inc exc) = Throw w) /\
  oi_minimize o' = oi_minimize o /\ oi_target o' = oi_target o /\ oi_name o' = oi_name o.
Proof.
  intros o t inc exc recs bad (U1 & U2 & U3) Hs Hf l hits o'.
  assert (I : oi_inv o). { split; [exact U1|]. split; [|exact Hs]. intros n Hn. apply fm_get_None. now apply U2. }
  pose proof (lock_records_spec inc exc l o I) as H. unfold o', import_locked. rewrite Hf. fold l.
  destruct (lock_records inc exc o l) as [o1 [a b]]. destruct H as (I1 & H1 & H2 & H3 & H4 & H5).
  assert (Hres : fst (if String.eqb bad "" then (o1, Ok (a, b)) else (o1, Throw ("Error reading parameter " ++ bad)%string)) = o1)
    by (destruct (String.eqb bad ""); reflexivity).
  rewrite Hres.
  assert (Hfn : forall n, for_name inc exc n l = hits n).
  { intros n. unfold for_name, hits, sel. apply filter_ext. intros r. now rewrite selected_wanted. }
  assert (H1' : forall n, status o1 n = fold_left (fun s r => lock_status (r_value r) s) (hits n) (status o n))
    by (intros n; rewrite <- Hfn; apply H1).
  assert (H2' : oi_free o1 = filter (fun p => match hits (pi_name p) with [] => true | _ => false end) (oi_free o))
    by (rewrite H2; apply filter_ext; intros p; now rewrite Hfn).
  assert (Hlk : forall q s, s <> Unknown -> fold_left (fun s r => lock_status (r_value r) s) q s
      = match last (map Some q) None with Some r => Locked (r_value r) | None => s end).
  { induction q as [|r q IH] using rev_ind; intros s Hsn; [reflexivity|].
    rewrite fold_left_app, map_app. cbn [map fold_left]. rewrite last_last, IH by auto.
    destruct (last (map Some q) None); [reflexivity|]. destruct s; [congruence|reflexivity|reflexivity]. }
  assert (Hunk : forall q, fold_left (fun s r => lock_status (r_value r) s) q Unknown = Unknown).
  { induction q as [|r q IH]; [reflexivity|]. exact IH. }
  assert (Hkn : forall o n, oi_try_get o n = None <-> status o n = Unknown).
  { intros o2 n. rewrite status_try_get. destruct (status o2 n); split; congruence. }
  split; [|split; [|split; [|split; [exact H2'|split; [|split; [|exact H5]]]]]].
  - intros n. rewrite !Hkn, H1'. destruct (status o n) eqn:E.
    + now rewrite Hunk.
    + rewrite Hlk by discriminate. destruct (last (map Some (hits n)) None); split; congruence.
    + rewrite Hlk by discriminate. destruct (last (map Some (hits n)) None); split; congruence.
  - intros n r Hn Hl. rewrite Hkn in Hn. pose proof (H1' n) as Hst. rewrite Hlk, Hl in Hst by exact Hn.
    unfold status in Hst. destruct (find_par n (oi_free o1)); [discriminate|].
    destruct (try_get_locked o1 n); [|discriminate]. injection Hst as ->. auto.
  - intros n Hh. pose proof (H1' n) as Hst. rewrite Hh in Hst. cbn [fold_left] in Hst. unfold status in Hst.
    destruct (find_par n (oi_free o1)) as [p|] eqn:E1, (find_par n (oi_free o)) as [q|] eqn:E2.
    + split; [congruence|]. destruct I as (_ & J & _), I1 as (_ & J1 & _).
      assert (In n (names o1)) by (apply find_par_Some in E1 as [K <-]; now apply in_map).
      assert (In n (names o)) by (apply find_par_Some in E2 as [K <-]; now apply in_map).
      transitivity (@None f64); [|symmetry]; apply fm_get_None; auto.
    + destruct (try_get_locked o n); discriminate.
    + destruct (try_get_locked o1 n); discriminate.
    + split; [reflexivity|]. destruct (try_get_locked o1 n), (try_get_locked o n); congruence.
  - intros ->. cbn [String.eqb snd]. rewrite H3, H4. f_equal. f_equal; f_equal; apply filter_ext; intros r; unfold sel; rewrite selected_wanted; f_equal;
      unfold known; rewrite status_try_get; destruct (status o (r_name r)); reflexivity.
  - intros Hb. destruct (String.eqb_spec bad ""); [congruence|]. cbn [snd]. eauto.
Qed.
(** A file that cannot be opened changes nothing. *)
Theorem C10_missing_file : forall o inc exc pis,
  (exists w, import_locked o None inc exc = (o, Throw w)) /\ (exists w, import_mean_std o None pis = (o, Throw w)).
Proof. intros. split; eauto. eexists. reflexivity. eexists. reflexivity. Qed.

(** ** C11 *)
Definition std_rule (pis : import_settings) (r : rec) (new_mean old : f64) : f64 :=
  if is_import_std pis then fadd (is_std_offset pis) (fmul (is_std_factor pis) (r_std r))
  else if feq (is_std_factor pis) (fofZ 1) then old
  else fadd (is_std_offset pis) (fmul (is_std_factor pis) (fabs new_mean)).
Definition mean_rule (pis : import_settings) (r : rec) : f64 :=
  fadd (is_value_offset pis) (fmul (is_value_factor pis) (if is_use_best_as_mean pis then r_value r else r_mean r)).
(** What one record does to the parameter it names. *)
Definition record_effect (pis : import_settings) (r : rec) (s : pstatus) : pstatus :=
  match s with
  | Unknown => Unknown
  | Locked v => if feq (r_std r) fzero then Locked (r_value r) else Locked v
  | Free p =>
    if feq (r_std r) fzero then Locked (r_value r)
    else Free {| pi_name := pi_name p; pi_mean := mean_rule pis r; pi_std := std_rule pis r (mean_rule pis r) (pi_std p);
                 pi_min := pi_min p; pi_max := pi_max p |}
  end.
Theorem C11_import_mean_std : forall o t pis recs bad,
  names_unique o -> fm_sorted (oi_locked o) -> file_records t = (recs, bad) ->
  let l := map fst recs in
  let included r := wanted (is_include pis) (is_exclude pis) (r_name r) in
  let o' := fst (import_mean_std o (Some t) pis) in
  (* every name evolves by its own included records, in file order, and by nothing else *)
  (forall n, status o' n = fold_left (fun s r => record_effect pis r s)
                             (filter (fun r => included r && String.eqb (r_name r) n) l) (status o n)) /\
  (* names are never invented or forgotten, the order of the free ones is kept *)
  (forall n, oi_try_get o' n = None <-> oi_try_get o n = None) /\
  map pi_name (oi_free o') = filter (fun n => match status o' n with Free _ => true | _ => false end) (map pi_name (oi_free o)) /\
  (* the counts add up to the number of included records *)
  (bad = ""%string -> exists a b, snd (import_mean_std o (Some t) pis) = Ok (a, b) /\ a + b = length (filter included l)) /\
  (bad <> ""%string -> exists w, snd (import_mean_std o (Some t) pis) = Throw w) /\
  oi_minimize o' = oi_minimize o /\ oi_target o' = oi_target o /\ oi_name o' = oi_name o.
Proof.
  intros o t pis recs bad (U1 & U2 & U3) Hs Hf l included o'.
  assert (I : oi_inv o). { split; [exact U1|]. split; [|exact Hs]. intros n Hn. apply fm_get_None. now apply U2. }
  pose proof (import_records_spec pis l o I) as H. unfold o', import_mean_std. rewrite Hf. fold l.
  destruct (import_records pis o l) as [o1 [a b]]. destruct H as (I1 & H1 & H2 & H3 & H4).
  assert (Hres : fst (if String.eqb bad "" then (o1, Ok (a, b)) else (o1, Throw ("Error reading parameter " ++ bad)%string)) = o1)
    by (destruct (String.eqb bad ""); reflexivity).
  rewrite Hres.
  assert (Heff : forall r s, import_status pis r s = record_effect pis r s).
  { intros r s. unfold import_status, record_effect, lock_status, import_par, imported_mean, imported_std, mean_rule, std_rule, fne.
    destruct (feq (r_std r) fzero), s; try reflexivity. f_equal. f_equal. destruct (is_import_std pis); [reflexivity|].
    destruct (feq (is_std_factor pis) (fofZ 1)); reflexivity. }
  assert (H1' : forall n, status o1 n = fold_left (fun s r => record_effect pis r s) (filter (fun r => included r && String.eqb (r_name r) n) l) (status o n)).
  { intros n. rewrite H1. replace (for_name (is_include pis) (is_exclude pis) n l) with (filter (fun r => included r && String.eqb (r_name r) n) l)
      by (unfold for_name, included, sel; apply filter_ext; intros r; now rewrite selected_wanted).
    generalize (status o n) (filter (fun r => included r && String.eqb (r_name r) n) l). intros s q. revert s.
    induction q as [|r q IH]; intros s; [reflexivity|]. cbn [fold_left]. now rewrite IH, Heff. }
  split; [exact H1'|]. split; [|split; [exact H2|split; [|split; [|exact H4]]]].
  - intros n. rewrite !status_try_get, H1'.
    induction (filter (fun r => included r && String.eqb (r_name r) n) l) as [|r q IH] using rev_ind; [reflexivity|].
    rewrite fold_left_app. cbn [fold_left]. rewrite <- IH.
    destruct (fold_left _ q (status o n)); unfold record_effect; destruct (feq (r_std r) fzero); split; congruence.
  - intros ->. exists a, b. split; [reflexivity|]. rewrite H3. f_equal. apply filter_ext. intros r. unfold sel. apply selected_wanted.
  - intros Hb. destruct (String.eqb_spec bad ""); [congruence|]. cbn [snd]. eauto.
Qed.
(** The first count: the taken records that set something, i.e. those that name a free parameter
    at that point of the file, or a locked one when their std is 0.  [st] is the status of every name. *)
Fixpoint set_count (pis : import_settings) (st : string -> pstatus) (l : list rec) : nat :=
  match l with
  | [] => 0
  | r :: t =>
    if wanted (is_include pis) (is_exclude pis) (r_name r) then
      (match st (r_name r) with Free _ => 1 | Locked _ => if feq (r_std r) fzero then 1 else 0 | Unknown => 0 end)
      + set_count pis (fun n => if String.eqb (r_name r) n then record_effect pis r (st n) else st n) t
    else set_count pis st t
  end.
Theorem C11_counts : forall o t pis recs,
  names_unique o -> fm_sorted (oi_locked o) -> file_records t = (recs, ""%string) ->
  exists b, snd (import_mean_std o (Some t) pis) = Ok (set_count pis (status o) (map fst recs), b).
Proof.
  intros o t pis recs (U1 & U2 & U3) Hs Hf.
  assert (I : oi_inv o). { split; [exact U1|]. split; [|exact Hs]. intros n Hn. apply fm_get_None. now apply U2. }
  unfold import_mean_std. rewrite Hf. generalize (map fst recs). clear Hf recs U1 U2 U3 Hs t. intros l.
  assert (G : forall l o st, oi_inv o -> (forall n, st n = status o n) -> fst (snd (import_records pis o l)) = set_count pis st l).
  { clear. induction l as [|r t IH]; intros o st I Hst; cbn [import_records set_count]; [reflexivity|].
    pose proof (import_record_spec pis o r I) as H1. destruct (import_record pis o r) as [o1 [a1 b1]].
    destruct H1 as (I1 & Hs1 & _ & Hc1 & Ha & _).
    unfold sel in *. rewrite selected_wanted in Hc1, Ha.
    assert (HX : forall n, status o1 n = if wanted (is_include pis) (is_exclude pis) (r_name r) && String.eqb (r_name r) n
                             then record_effect pis r (status o n) else status o n).
    { intros n. rewrite Hs1, selected_wanted. destruct (_ && _); [|reflexivity].
      unfold import_status, record_effect, lock_status, import_par, imported_mean, imported_std, mean_rule, std_rule, fne.
      destruct (feq (r_std r) fzero), (status o n); try reflexivity. f_equal. f_equal. destruct (is_import_std pis); [reflexivity|].
      destruct (feq (is_std_factor pis) (fofZ 1)); reflexivity. }
    destruct (wanted (is_include pis) (is_exclude pis) (r_name r)) eqn:Ew; cbn [andb] in HX.
    - specialize (IH o1 (fun n => if String.eqb (r_name r) n then record_effect pis r (st n) else st n) I1).
      destruct (import_records pis o1 t) as [o2 [a2 b2]]. cbn [fst snd] in *. rewrite IH.
      + f_equal. rewrite Hst. unfold known, is_free in Ha.
        destruct (status o (r_name r)), (feq (r_std r) fzero), a1 as [|[|]]; try lia; try reflexivity; exfalso;
          try (destruct Ha as [Ha _]; specialize (Ha eq_refl); destruct Ha; discriminate);
          destruct Ha as [_ Ha]; specialize (Ha (conj eq_refl eq_refl)); discriminate.
      + intros n. rewrite HX, Hst. reflexivity.
    - assert (a1 = 0) by lia. subst a1. specialize (IH o1 st I1). destruct (import_records pis o1 t) as [o2 [a2 b2]]. cbn [fst snd] in *.
      apply IH. intros n. now rewrite HX. }
  specialize (G l o (status o) I (fun n => eq_refl)). destruct (import_records pis o l) as [o1 [a b]]. cbn [fst snd String.eqb] in *.
  exists b. now rewrite G.
Qed.
Definition file2 : text := chars "x 1 2 0.5  y 3 4 0  z 1 1 1".
Definition pis0 : import_settings := {| is_import_std := true; is_use_best_as_mean := false; is_std_factor := fofZ 1; is_std_offset := fzero;
  is_value_factor := fofZ 1; is_value_offset := fzero; is_include := P0; is_exclude := P0 |}.
Definition oi2 : obj_info := info_of_pars
  [{| pi_name := "x"; pi_mean := fofZ 0; pi_std := fofZ 1; pi_min := fofZ 0; pi_max := fofZ 1 |};
   {| pi_name := "y"; pi_mean := fofZ 0; pi_std := fofZ 1; pi_min := fofZ 0; pi_max := fofZ 1 |}] true.
Example C11_nonvacuous : names_unique oi2 /\ snd (file_records file2) = ""%string /\
  map (fun r => r_name (fst r)) (fst (file_records file2)) = ["x"; "y"; "z"]%string /\
  (match import_mean_std oi2 (Some file2) pis0 with (o', Ok (2, 1)) => map pi_name (oi_free o') = ["x"%string] /\ map fst (oi_locked o') = ["y"%string] | _ => False end).
Proof.
  split; [split; [|split; [|constructor]]|].
  - cbn. constructor; [intros [H|[]]; discriminate|]. constructor; [intros []|constructor].
  - intros n _. reflexivity.
  - split; [vm_compute; reflexivity|]. split; [vm_compute; reflexivity|]. vm_compute. split; reflexivity.
Qed.
(** Sharpness: the imported mean is not checked against the bounds (above, [x] is imported
    with mean 2 although its maximum is 1). *)
Theorem C11_imported_parameters_valid_refuted : exists p,
  (forall q, In q (oi_free oi2) -> is_valid q = true) /\
  In p (oi_free (fst (import_mean_std oi2 (Some file2) pis0))) /\ is_valid p = false.
Proof.
  destruct (oi_free (fst (import_mean_std oi2 (Some file2) pis0))) as [|p l] eqn:E.
  - exfalso. assert (length (oi_free (fst (import_mean_std oi2 (Some file2) pis0))) = 1) as H by (vm_compute; reflexivity).
    rewrite E in H. discriminate.
  - exists p. split; [|split; [now left|]].
    + intros q [<-|[<-|[]]]; vm_compute; reflexivity.
    + assert (match oi_free (fst (import_mean_std oi2 (Some file2) pis0)) with p :: _ => is_valid p | [] => true end = false) as H
        by (vm_compute; reflexivity). rewrite E in H. exact H.
Qed.
