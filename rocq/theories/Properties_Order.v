(** * C63: the order in which parameters are asked for does not matter.

    C++ does not fix the order of the three gets of a 3-vector parameter (par_tools.h:43-46),
    and the order in which a model asks for its parameters is an accident of its code.
    Specification: two [par_io] objects are [alike] if no question about them by name can tell
    them apart; they may list the free parameters in a different order. *)
From Coq Require Import ZArith Bool Permutation.
From Verif Require Import Prelude Flt Round8 ShowNum PropNode ParInfo ParInfoFacts FlatMap ObjInfo ObjInfoFacts ParIO SearchPoint ParIOFacts
  Properties_Params.

(** Same scope, same options, the same free parameters (each with its name, mean, std and
    bounds) in some order, the same locked parameters, the same direction, target and name. *)
Record alike (a b : pario obj_info) : Prop := {
  alike_prefix : io_prefix b = io_prefix a;
  alike_opts : io_opts b = io_opts a;
  alike_free : Permutation (oi_free (io_st a)) (oi_free (io_st b));
  alike_names : forall n, find_par n (oi_free (io_st b)) = find_par n (oi_free (io_st a));
  alike_locked : forall n, fm_get n (oi_locked (io_st b)) = fm_get n (oi_locked (io_st a));
  alike_minimize : oi_minimize (io_st b) = oi_minimize (io_st a);
  alike_target : oi_target (io_st b) = oi_target (io_st a);
  alike_name : oi_name (io_st b) = oi_name (io_st a) }.

(** The full name a get asks for, and whether the get is self-contained: its node is not a
    reference to another parameter. *)
Definition asks (X : xo_env) (prefix : list string) (opt : par_options) (c : cmd) : string :=
  match c with
  | CGet n _ _ _ _ => prefix_str prefix ++ n
  | CGetNode n _ => apply_aliases X (opt_aliases opt) (prefix_str prefix ++ n)
  | _ => ""
  end.
Definition self_contained (c : cmd) : Prop :=
  match c with
  | CGet _ _ _ _ _ => True
  | CGetNode _ pn => starts_alpha (pn_str pn) = false
  | _ => False
  end.

Lemma alike_refl a : alike a a.
Proof. constructor; auto. Qed.
Lemma alike_trans a b c : alike a b -> alike b c -> alike a c.
Proof.
  intros H K. constructor.
  - rewrite (alike_prefix _ _ K). apply (alike_prefix _ _ H).
  - rewrite (alike_opts _ _ K). apply (alike_opts _ _ H).
  - eapply Permutation_trans; [apply (alike_free _ _ H)|apply (alike_free _ _ K)].
  - intros n. rewrite (alike_names _ _ K). apply (alike_names _ _ H).
  - intros n. rewrite (alike_locked _ _ K). apply (alike_locked _ _ H).
  - rewrite (alike_minimize _ _ K). apply (alike_minimize _ _ H).
  - rewrite (alike_target _ _ K). apply (alike_target _ _ H).
  - rewrite (alike_name _ _ K). apply (alike_name _ _ H).
Qed.
Lemma alike_get a b n : alike a b -> oi_try_get (io_st b) n = oi_try_get (io_st a) n.
Proof.
  intros H. unfold oi_try_get, try_get_locked. now rewrite (alike_names _ _ H), (alike_locked _ _ H).
Qed.

(** What a self-contained get does: known names are answered; otherwise the answer is fixed by
    the get alone, and at most one parameter of the asked name is added. *)
Definition reg (o : obj_info) (p : par_info) : obj_info :=
  if is_constant p then with_locked o (fm_set (pi_name p) (pi_mean p) (oi_locked o))
  else with_free o (oi_free o ++ [p]).
Definition effect (full : string) (e : option par_info) (o : obj_info) : obj_info :=
  match oi_try_get o full, e with
  | None, Some p => reg o p
  | _, _ => o
  end.
Definition value_for (full : string) (v : f64) (o : obj_info) : f64 :=
  match oi_try_get o full with Some w => w | None => v end.

(** [response]: None if the get of an unknown name fails *)
Definition response (X : xo_env) (prefix : list string) (opt : par_options) (c : cmd) : option (f64 * option par_info) :=
  match c with
  | CGet n m s lo hi =>
    match make_par_info (prefix_str prefix ++ n) m s lo hi with
    | Ok p => if bad_name (pi_name p) then None else Some (pi_mean p, Some p)
    | _ => None
    end
  | CGetNode n pn =>
    let full := apply_aliases X (opt_aliases opt) (prefix_str prefix ++ n)%string in
    if xo_needs_quotes X full then None else
    match par_info_of_node full pn opt with
    | Ok p => if is_constant p then Some (pi_mean p, None) else if bad_name (pi_name p) then None else Some (pi_mean p, Some p)
    | _ => None
    end
  | _ => None
  end.

Lemma make_par_info_name n m s lo hi p : make_par_info n m s lo hi = Ok p -> pi_name p = n.
Proof. intros H. apply make_par_info_Ok in H as [-> _]. reflexivity. Qed.

Lemma response_name X prefix opt c v p : response X prefix opt c = Some (v, Some p) -> pi_name p = asks X prefix opt c.
Proof.
  destruct c as [n m s lo hi|n pn| | | |]; cbn [response asks]; try discriminate.
  - destruct (make_par_info _ _ _ _ _) as [q| |] eqn:E; try discriminate. destruct (bad_name _); [discriminate|].
    intros [= <- <-]. eapply make_par_info_name; eauto.
  - destruct (xo_needs_quotes _ _); [discriminate|]. destruct (par_info_of_node _ _ _) as [q| |] eqn:E; try discriminate.
    destruct (is_constant q); [discriminate|]. destruct (bad_name _); [discriminate|]. intros [= <- <-].
    eapply par_info_of_node_name; eauto.
Qed.

Lemma add_reg o p : oi_try_get o (pi_name p) = None ->
  oi_add o p = if bad_name (pi_name p) then (o, Throw ("Invalid parameter name: " ++ pi_name p)%string) else (reg o p, Ok (pi_mean p)).
Proof.
  unfold oi_try_get, try_get_locked, oi_add, reg. destruct (find_par _ _); [discriminate|]. intros ->.
  destruct (bad_name _); [reflexivity|]. destruct (is_constant p); reflexivity.
Qed.

Lemma with_st_same {A} (io : pario A) : with_st io (io_st io) = io.
Proof. now destruct io. Qed.

Lemma exec_self X opt c io : io_options io = Some opt -> self_contained c ->
  let full := asks X (io_prefix io) opt c in
  match oi_try_get (io_st io) full, response X (io_prefix io) opt c with
  | Some v, _ => exec X oi_store c io = (io, Ok [(Some full, v)])
  | None, Some (v, e) => exec X oi_store c io = (with_st io (effect full e (io_st io)), Ok [(Some full, v)])
  | None, None => forall io' vs, exec X oi_store c io <> (io', Ok vs)
  end.
Proof.
  intros Ho Hc. destruct c as [n m s lo hi|n pn| | | |]; cbn [self_contained] in Hc; try contradiction; cbn [asks response].
  - cbn [exec]. unfold io_get. cbn [oi_store st_try_get st_add].
    destruct (oi_try_get (io_st io) (prefix_str (io_prefix io) ++ n)) as [v|] eqn:E; [reflexivity|].
    destruct (make_par_info _ m s lo hi) as [p|w|] eqn:Ep; cbn [obind]; [|intros io' vs; discriminate|intros io' vs; discriminate].
    pose proof (make_par_info_name _ _ _ _ _ _ Ep) as Hn. rewrite (add_reg (io_st io) p) by now rewrite Hn.
    destruct (bad_name (pi_name p)); cbn [obind]; [intros io' vs; discriminate|]. unfold effect. now rewrite E.
  - cbn [exec]. unfold io_get_node, node_name. rewrite Ho. unfold full_name_of. cbn [oi_store st_try_get st_add].
    set (full := apply_aliases X (opt_aliases opt) (prefix_str (io_prefix io) ++ n)) in *. cbv zeta.
    destruct (oi_try_get (io_st io) full) as [v|] eqn:E; [reflexivity|]. rewrite Hc.
    destruct (xo_needs_quotes X full); [intros io' vs; discriminate|].
    destruct (par_info_of_node full pn opt) as [p|w|] eqn:Ep; cbn [obind]; [|intros io' vs; discriminate|intros io' vs; discriminate].
    pose proof (par_info_of_node_name _ _ _ _ Ep) as Hn.
    destruct (is_constant p); cbn [obind].
    + unfold effect. rewrite E, with_st_same. reflexivity.
    + rewrite (add_reg (io_st io) p) by now rewrite Hn.
      destruct (bad_name (pi_name p)); cbn [obind]; [intros io' vs; discriminate|]. unfold effect. now rewrite E.
Qed.

Lemma reg_get o p n : n <> pi_name p -> oi_try_get (reg o p) n = oi_try_get o n.
Proof.
  intros Hn. unfold reg. destruct (is_constant p); unfold oi_try_get, try_get_locked; cbn [with_locked with_free oi_free oi_locked].
  - rewrite fm_get_set_neq by auto. reflexivity.
  - rewrite find_par_app. destruct (find_par n (oi_free o)); [reflexivity|]. cbn [find_par].
    destruct (String.eqb_spec (pi_name p) n); [congruence|reflexivity].
Qed.
Lemma effect_get X prefix opt c v e o n : response X prefix opt c = Some (v, e) -> n <> asks X prefix opt c ->
  oi_try_get (effect (asks X prefix opt c) e o) n = oi_try_get o n.
Proof.
  intros Hr Hn. unfold effect. destruct (oi_try_get o (asks X prefix opt c)); [reflexivity|]. destruct e as [p|]; [|reflexivity].
  apply reg_get. now rewrite (response_name _ _ _ _ _ _ Hr).
Qed.

Lemma alike_reg a b p : alike a b -> alike (with_st a (reg (io_st a) p)) (with_st b (reg (io_st b) p)).
Proof.
  intros H. unfold reg. destruct (is_constant p); constructor; cbn [with_st io_st io_prefix io_opts with_locked with_free oi_free oi_locked oi_minimize oi_target oi_name];
    try apply H.
  - intros n. destruct (string_dec n (pi_name p)) as [->|Hn]; [now rewrite !fm_get_set_eq|].
    rewrite !fm_get_set_neq by auto. apply (alike_locked _ _ H).
  - apply Permutation_app_tail. apply (alike_free _ _ H).
  - intros n. rewrite !find_par_app. now rewrite (alike_names _ _ H).
Qed.
Lemma alike_effect a b full e : alike a b -> alike (with_st a (effect full e (io_st a))) (with_st b (effect full e (io_st b))).
Proof.
  intros H. unfold effect. rewrite (alike_get _ _ full H). destruct (oi_try_get (io_st a) full); [now rewrite !with_st_same|].
  destruct e as [p|]; [now apply alike_reg|now rewrite !with_st_same].
Qed.
Lemma reg_commute (io : pario obj_info) p q : pi_name p <> pi_name q ->
  alike (with_st io (reg (reg (io_st io) p) q)) (with_st io (reg (reg (io_st io) q) p)).
Proof.
  intros Hn. unfold reg. destruct (is_constant p), (is_constant q); constructor;
    cbn [with_st io_st io_prefix io_opts with_locked with_free oi_free oi_locked oi_minimize oi_target oi_name]; auto.
  - intros n. destruct (string_dec n (pi_name p)) as [->|H1].
    + rewrite fm_get_set_eq, fm_get_set_neq, fm_get_set_eq by auto. reflexivity.
    + rewrite (fm_get_set_neq (pi_name p)) by auto. destruct (string_dec n (pi_name q)) as [->|H2].
      * now rewrite !fm_get_set_eq.
      * now rewrite !fm_get_set_neq by auto.
  - rewrite <- !app_assoc. apply Permutation_app_head. apply perm_swap.
  - intros n. rewrite <- !app_assoc, !find_par_app. destruct (find_par n (oi_free (io_st io))); [reflexivity|]. cbn [app find_par].
    destruct (String.eqb_spec (pi_name q) n), (String.eqb_spec (pi_name p) n); congruence.
Qed.

Section answers.
Context (X : xo_env) (prefix : list string) (opt : par_options).
Notation asks := (asks X prefix opt).
Notation response := (response X prefix opt).
(** the answer of a get in a state, and its effect *)
Definition ans (o : obj_info) (c : cmd) : option f64 :=
  match oi_try_get o (asks c) with Some v => Some v | None => option_map fst (response c) end.
Definition eff (o : obj_info) (c : cmd) : obj_info :=
  match response c with Some (_, e) => effect (asks c) e o | None => o end.

Lemma eff_get o c n : n <> asks c -> oi_try_get (eff o c) n = oi_try_get o n.
Proof. unfold eff. destruct (response c) as [[v e]|] eqn:E; [|reflexivity]. intros Hn. eapply effect_get; eauto. Qed.
Lemma ans_eff o c d : asks d <> asks c -> ans (eff o c) d = ans o d.
Proof. intros H. unfold ans. now rewrite eff_get. Qed.

Lemma exec_self_Some c io v : io_prefix io = prefix -> io_options io = Some opt -> self_contained c -> ans (io_st io) c = Some v ->
  exec X oi_store c io = (with_st io (eff (io_st io) c), Ok [(Some (asks c), v)]).
Proof.
  intros Hp Ho Hc. pose proof (exec_self X opt c io Ho Hc) as H. rewrite Hp in H. cbv zeta in H. unfold ans, eff.
  destruct (oi_try_get (io_st io) (asks c)) as [w|] eqn:E.
  - intros [= <-]. rewrite H. f_equal. destruct (response c) as [[u e]|]; [|now rewrite with_st_same].
    unfold effect. rewrite E. now rewrite with_st_same.
  - destruct (response c) as [[u e]|]; cbn [option_map fst]; [|discriminate]. intros [= <-]. exact H.
Qed.
Lemma exec_self_None c io : io_prefix io = prefix -> io_options io = Some opt -> self_contained c -> ans (io_st io) c = None ->
  forall io' vs, exec X oi_store c io <> (io', Ok vs).
Proof.
  intros Hp Ho Hc. pose proof (exec_self X opt c io Ho Hc) as H. rewrite Hp in H. cbv zeta in H. unfold ans.
  destruct (oi_try_get (io_st io) (asks c)) as [w|] eqn:E; [discriminate|].
  destruct (response c) as [[u e]|]; cbn [option_map fst]; [discriminate|]. intros _. exact H.
Qed.
Definition the (o : option f64) : f64 := match o with Some v => v | None => fzero end.

Lemma exec_all l : forall io, io_prefix io = prefix -> io_options io = Some opt -> Forall self_contained l -> NoDup (map asks l) ->
  Forall (fun c => ans (io_st io) c <> None) l ->
  exec_list X oi_store l io = (with_st io (fold_left eff l (io_st io)), Ok (map (fun c => (Some (asks c), the (ans (io_st io) c))) l)).
Proof.
  induction l as [|c t IH]; intros io Hp Ho Hs Hn Ha; cbn [exec_list fold_left map].
  - now rewrite with_st_same.
  - inversion_clear Hs as [|? ? Hc Ht]. inversion_clear Ha as [|? ? Ac At].
    cbn [map] in Hn. apply NoDup_cons_iff in Hn as [Hnc Hnt].
    destruct (ans (io_st io) c) as [v|] eqn:Ea; [|congruence].
    rewrite (exec_self_Some c io v Hp Ho Hc Ea).
    assert (Hd : forall d, In d t -> ans (eff (io_st io) c) d = ans (io_st io) d).
    { intros d Hd. apply ans_eff. intros E. apply Hnc. rewrite <- E. now apply in_map. }
    rewrite IH; [|exact Hp|exact Ho|exact Ht|exact Hnt|].
    + cbn [with_st io_st io_prefix io_opts obind app]. f_equal. f_equal. f_equal.
      apply map_ext_in. intros d Hin. now rewrite Hd.
    + cbn [with_st io_st]. rewrite Forall_forall in At |- *. intros d Hin. rewrite Hd by auto. now apply At.
Qed.
Lemma exec_all_inv l : forall io io' vs, io_prefix io = prefix -> io_options io = Some opt -> Forall self_contained l -> NoDup (map asks l) ->
  exec_list X oi_store l io = (io', Ok vs) -> Forall (fun c => ans (io_st io) c <> None) l.
Proof.
  induction l as [|c t IH]; intros io io' vs Hp Ho Hs Hn; cbn [exec_list]; [constructor|].
  inversion_clear Hs as [|? ? Hc Ht]. cbn [map] in Hn. apply NoDup_cons_iff in Hn as [Hnc Hnt].
  destruct (ans (io_st io) c) as [v|] eqn:Ea.
  - rewrite (exec_self_Some c io v Hp Ho Hc Ea).
    destruct (exec_list X oi_store t (with_st io (eff (io_st io) c))) as [io2 [v2|w|]] eqn:E; cbn [obind]; try discriminate.
    intros _. constructor; [congruence|]. assert (A := IH (with_st io (eff (io_st io) c)) io2 v2 Hp Ho Ht Hnt E). cbn [with_st io_st] in A.
    rewrite Forall_forall in A |- *. intros d Hin. rewrite <- (ans_eff (io_st io) c d).
    + now apply A.
    + intros Ee. apply Hnc. rewrite <- Ee. now apply in_map.
  - destruct (exec X oi_store c io) as [io1 [v1|w|]] eqn:E; try discriminate.
    exfalso. exact (exec_self_None c io Hp Ho Hc Ea _ _ E).
Qed.

Lemma alike_eff a b c : alike a b -> alike (with_st a (eff (io_st a) c)) (with_st b (eff (io_st b) c)).
Proof.
  intros H. unfold eff. destruct (response c) as [[v e]|]; [now apply alike_effect|now rewrite !with_st_same].
Qed.
Lemma eff_commute (io : pario obj_info) c d : asks c <> asks d ->
  alike (with_st io (eff (eff (io_st io) c) d)) (with_st io (eff (eff (io_st io) d) c)).
Proof.
  intros Hn. unfold eff at 1 3. destruct (response c) as [[v e]|] eqn:Ec; [|unfold eff; rewrite Ec; destruct (response d) as [[w f]|]; apply alike_refl].
  unfold eff. rewrite Ec. destruct (response d) as [[w f]|] eqn:Ed; [|apply alike_refl].
  assert (H1 : oi_try_get (effect (asks c) e (io_st io)) (asks d) = oi_try_get (io_st io) (asks d)) by (eapply effect_get; eauto).
  assert (H2 : oi_try_get (effect (asks d) f (io_st io)) (asks c) = oi_try_get (io_st io) (asks c)) by (eapply effect_get; eauto).
  unfold effect at 1 3. rewrite H1, H2. unfold effect.
  destruct (oi_try_get (io_st io) (asks d)) eqn:E1, (oi_try_get (io_st io) (asks c)) eqn:E2; try apply alike_refl.
  destruct e as [p|], f as [q|]; try apply alike_refl.
  apply reg_commute. rewrite (response_name _ _ _ _ _ _ Ec), (response_name _ _ _ _ _ _ Ed). exact Hn.
Qed.

Lemma fold_alike l : forall a b, alike a b ->
  alike (with_st a (fold_left eff l (io_st a))) (with_st b (fold_left eff l (io_st b))).
Proof.
  induction l as [|c t IH]; intros a b H; cbn [fold_left]; [now rewrite !with_st_same|].
  exact (IH _ _ (alike_eff a b c H)).
Qed.
Lemma fold_perm l l' : Permutation l l' -> NoDup (map asks l) -> forall io,
  alike (with_st io (fold_left eff l (io_st io))) (with_st io (fold_left eff l' (io_st io))).
Proof.
  induction 1 as [|c t t' _ IH|c d t|l l1 l2 H1 IH1 H2 IH2]; intros Hn io; cbn [fold_left].
  - apply alike_refl.
  - cbn [map] in Hn. apply NoDup_cons_iff in Hn as [_ Hn]. exact (IH Hn (with_st io (eff (io_st io) c))).
  - cbn [map] in Hn. apply NoDup_cons_iff in Hn as [Hn _].
    assert (Hcd : asks d <> asks c) by (intros E; apply Hn; rewrite E; left; reflexivity).
    exact (fold_alike t _ _ (eff_commute io d c Hcd)).
  - eapply alike_trans; [apply IH1, Hn|]. apply IH2. eapply Permutation_NoDup; [apply Permutation_map, H1|exact Hn].
Qed.
End answers.

(** ** The theorems *)

(** Self-contained gets of distinct names may be executed in any order: they succeed in one
    order exactly if they succeed in every other, each returns the same value (namely the one
    it would return if it were asked first), and the results are alike. *)
Theorem C63_order_of_gets_does_not_matter : forall X l l' io opt io1 vs,
  io_options io = Some opt -> Forall self_contained l -> NoDup (map (asks X (io_prefix io) opt) l) ->
  Permutation l l' ->
  exec_list X oi_store l io = (io1, Ok vs) ->
  exists io2 ws, exec_list X oi_store l' io = (io2, Ok ws) /\
    alike io1 io2 /\ Permutation vs ws /\
    map fst vs = map (fun c => Some (asks X (io_prefix io) opt c)) l /\
    map fst ws = map (fun c => Some (asks X (io_prefix io) opt c)) l' /\
    forall c, In c l -> exists v ioc, In (Some (asks X (io_prefix io) opt c), v) vs /\
      exec X oi_store c io = (ioc, Ok [(Some (asks X (io_prefix io) opt c), v)]).
Proof.
  intros X l l' io opt io1 vs Ho Hs Hn Hp E.
  assert (Ha := exec_all_inv X _ _ l io io1 vs eq_refl Ho Hs Hn E).
  rewrite (exec_all X _ _ l io eq_refl Ho Hs Hn Ha) in E. injection E as <- <-.
  assert (Hs' : Forall self_contained l') by (eapply Permutation_Forall; eauto).
  assert (Hn' : NoDup (map (asks X (io_prefix io) opt) l')) by (eapply Permutation_NoDup; [apply Permutation_map, Hp|exact Hn]).
  assert (Ha' : Forall (fun c => ans X (io_prefix io) opt (io_st io) c <> None) l') by (eapply Permutation_Forall; eauto).
  eexists _, _. split; [exact (exec_all X _ _ l' io eq_refl Ho Hs' Hn' Ha')|].
  split; [now apply fold_perm|]. split; [now apply Permutation_map|].
  split; [rewrite map_map; reflexivity|]. split; [rewrite map_map; reflexivity|].
  intros c Hc. rewrite Forall_forall in Ha, Hs. destruct (ans X (io_prefix io) opt (io_st io) c) as [v|] eqn:Ea; [|exfalso; exact (Ha c Hc Ea)].
  exists v, (with_st io (eff X (io_prefix io) opt (io_st io) c)). split.
  - apply in_map_iff. exists c. split; [now rewrite Ea|exact Hc].
  - apply exec_self_Some; auto.
Qed.

(** Objects that are alike stay alike and answer alike: every program of gets, scopes and
    options returns the same values, or fails with the same message, on both. *)
Lemma alike_io_get a b n m s lo hi : alike a b ->
  snd (io_get oi_store b n m s lo hi) = snd (io_get oi_store a n m s lo hi) /\
  alike (fst (io_get oi_store a n m s lo hi)) (fst (io_get oi_store b n m s lo hi)).
Proof.
  intros H. unfold io_get. cbn [oi_store st_try_get st_add]. rewrite (alike_prefix _ _ H), (alike_get _ _ _ H).
  destruct (oi_try_get (io_st a) _) eqn:E; [split; [reflexivity|exact H]|].
  destruct (make_par_info _ m s lo hi) as [p|w|] eqn:Ep; try (split; [reflexivity|exact H]).
  assert (Hn := make_par_info_name _ _ _ _ _ _ Ep).
  rewrite (add_reg (io_st a) p) by now rewrite Hn. rewrite (add_reg (io_st b) p) by (rewrite (alike_get _ _ _ H); now rewrite Hn).
  destruct (bad_name (pi_name p)); cbn [fst snd]; (split; [reflexivity|]); [now rewrite !with_st_same|now apply alike_reg].
Qed.
Lemma alike_lookup a b rsegs ref : alike a b -> lookup_ref oi_store (io_st b) rsegs ref = lookup_ref oi_store (io_st a) rsegs ref.
Proof.
  intros H. induction rsegs as [|x t IH]; cbn [lookup_ref oi_store st_try_get]; rewrite (alike_get _ _ _ H); [reflexivity|].
  destruct (oi_try_get (io_st a) _); [reflexivity|exact IH].
Qed.
Lemma alike_io_get_node X a b n pn : alike a b ->
  snd (io_get_node X oi_store b n pn) = snd (io_get_node X oi_store a n pn) /\
  alike (fst (io_get_node X oi_store a n pn)) (fst (io_get_node X oi_store b n pn)).
Proof.
  intros H. unfold io_get_node, io_options. rewrite (alike_opts _ _ H). destruct (hd_error (io_opts a)) as [opt|]; [|split; [reflexivity|exact H]].
  unfold full_name_of. rewrite (alike_prefix _ _ H), (alike_lookup a b _ _ H).
  set (full := apply_aliases X (opt_aliases opt) (prefix_str (io_prefix a) ++ n)). cbv zeta. cbn [oi_store st_try_get st_add].
  rewrite (alike_get _ _ _ H). destruct (oi_try_get (io_st a) full) eqn:E; [split; [reflexivity|exact H]|].
  destruct (starts_alpha (pn_str pn)).
  { destruct (lookup_ref _ _ _ _); (split; [reflexivity|exact H]). }
  destruct (xo_needs_quotes X full); [split; [reflexivity|exact H]|].
  destruct (par_info_of_node full pn opt) as [p|w|] eqn:Ep; try (split; [reflexivity|exact H]).
  assert (Hn := par_info_of_node_name _ _ _ _ Ep).
  destruct (is_constant p); [split; [reflexivity|exact H]|].
  rewrite (add_reg (io_st a) p) by now rewrite Hn. rewrite (add_reg (io_st b) p) by (rewrite (alike_get _ _ _ H); now rewrite Hn).
  destruct (bad_name (pi_name p)); cbn [fst snd]; (split; [reflexivity|]); [now rewrite !with_st_same|now apply alike_reg].
Qed.
Lemma alike_with_prefix a b p : alike a b -> alike (with_prefix a p) (with_prefix b p).
Proof. intros []. constructor; auto. Qed.
Lemma alike_with_opts a b p : alike a b -> alike (with_opts a p) (with_opts b p).
Proof. intros []. constructor; auto. Qed.

Definition same_run X (c : cmd) : Prop := forall a b, alike a b ->
  snd (exec X oi_store c b) = snd (exec X oi_store c a) /\ alike (fst (exec X oi_store c a)) (fst (exec X oi_store c b)).
Lemma same_run_list X l : Forall (same_run X) l -> forall a b, alike a b ->
  snd (exec_list X oi_store l b) = snd (exec_list X oi_store l a) /\
  alike (fst (exec_list X oi_store l a)) (fst (exec_list X oi_store l b)).
Proof.
  induction 1 as [|c t Hc _ IH]; intros a b H; cbn [exec_list]; [split; [reflexivity|exact H]|].
  destruct (Hc a b H) as [H1 H2].
  destruct (exec X oi_store c a) as [a1 r1], (exec X oi_store c b) as [b1 s1]. cbn [fst snd] in H1, H2. subst s1.
  destruct r1 as [v|w|]; try (split; [reflexivity|exact H2]).
  destruct (IH a1 b1 H2) as [K1 K2]. destruct (exec_list X oi_store t a1) as [a2 r2], (exec_list X oi_store t b1) as [b2 s2].
  cbn [fst snd] in *. subst s2. split; [reflexivity|exact K2].
Qed.
Lemma same_run_all X c : same_run X c.
Proof.
  induction c as [n m s lo hi|n pn|n pn k d|p dot body HB|p body HB|pn body HB] using cmd_ind'; intros a b H.
  - cbn [exec]. destruct (alike_io_get a b n m s lo hi H) as [H1 H2]. rewrite (alike_prefix _ _ H).
    destruct (io_get oi_store a n m s lo hi), (io_get oi_store b n m s lo hi). cbn [fst snd] in *. subst. split; [reflexivity|exact H2].
  - cbn [exec]. destruct (alike_io_get_node X a b n pn H) as [H1 H2].
    replace (node_name X b n) with (node_name X a n)
      by (unfold node_name, io_options, full_name_of; now rewrite (alike_opts _ _ H), (alike_prefix _ _ H)).
    destruct (io_get_node X oi_store a n pn), (io_get_node X oi_store b n pn). cbn [fst snd] in *. subst. split; [reflexivity|exact H2].
  - cbn [exec]. unfold io_try_get_node. destruct (pn_child k pn) as [c|]; [|cbn [fst snd]; split; [reflexivity|exact H]].
    destruct (alike_io_get_node X a b n c H) as [H1 H2].
    replace (node_name X b n) with (node_name X a n)
      by (unfold node_name, io_options, full_name_of; now rewrite (alike_opts _ _ H), (alike_prefix _ _ H)).
    destruct (io_get_node X oi_store a n c), (io_get_node X oi_store b n c). cbn [fst snd] in *. subst. split; [reflexivity|exact H2].
  - rewrite !exec_scope. rewrite (alike_prefix _ _ H).
    destruct (same_run_list X body HB _ _ (alike_with_prefix a b (io_prefix a ++ [scope_segment p dot]) H)) as [H1 H2].
    destruct (exec_list X oi_store body _) as [a1 r1], (exec_list X oi_store body _) as [b1 s1]. cbn [fst snd] in *. subst.
    split; [reflexivity|]. rewrite (alike_prefix _ _ H2). now apply alike_with_prefix.
  - rewrite !exec_setscope. rewrite (alike_prefix _ _ H).
    destruct (same_run_list X body HB _ _ (alike_with_prefix a b [p] H)) as [H1 H2]. fold (set_prefix a p) (set_prefix b p) in H1, H2.
    destruct (exec_list X oi_store body _) as [a1 r1], (exec_list X oi_store body _) as [b1 s1]. cbn [fst snd] in *. subst.
    split; [reflexivity|]. now apply alike_with_prefix.
  - rewrite !exec_optscope. rewrite (alike_opts _ _ H). destruct (io_opts a) as [|o os] eqn:Eo; [split; [reflexivity|exact H]|].
    destruct (scoped_options pn o) as [o' r0]. cbv zeta.
    assert (K := alike_with_opts a b (o' :: o :: os) H).
    destruct r0 as [u|w|]; try (split; [reflexivity|exact K]).
    destruct (same_run_list X body HB _ _ K) as [H1 H2].
    destruct (exec_list X oi_store body _) as [a1 r1], (exec_list X oi_store body _) as [b1 s1]. cbn [fst snd] in *. subst.
    split; [reflexivity|]. rewrite (alike_opts _ _ H2). now apply alike_with_opts.
Qed.
Theorem C63_alike_is_indistinguishable : forall X prog a b a' r, alike a b ->
  exec_list X oi_store prog a = (a', r) ->
  exists b', exec_list X oi_store prog b = (b', r) /\ alike a' b'.
Proof.
  intros X prog a b a' r H E. destruct (same_run_list X prog) with (a := a) (b := b) as [H1 H2]; auto.
  { apply Forall_forall. intros c _. apply same_run_all. }
  rewrite E in H1, H2. cbn [fst snd] in *. destruct (exec_list X oi_store prog b) as [b' r']. cbn [fst snd] in *. subst r'. eauto.
Qed.

(** *** 3-vectors *)
Definition axis_get (name : string) (nodes : prop_node * prop_node * prop_node) (a : axis) : cmd :=
  CGetNode (axis_name name a) (axis_of nodes a).
Lemma axis_eqb_spec a b : Bool.reflect (a = b) (axis_eqb a b).
Proof. destruct a, b; constructor; congruence. Qed.

Lemma get_axes_exec {S} X (T : store S) name nodes order : NoDup order -> forall io,
  match exec_list X T (map (axis_get name nodes) order) io with
  | (io', Ok vs) => exists f, get_axes X T io name nodes order = (io', Ok f) /\ map f order = map snd vs
  | (io', Throw w) => get_axes X T io name nodes order = (io', Throw w)
  | (io', Undef) => get_axes X T io name nodes order = (io', Undef)
  end.
Proof.
  induction 1 as [|a t Ha _ IH]; intros io; cbn [map exec_list get_axes]; [eauto|].
  unfold axis_get at 1. cbn [exec]. destruct (io_get_node X T io (axis_name name a) (axis_of nodes a)) as [io1 [v|w|]]; cbn [obind]; auto.
  specialize (IH io1). destruct (exec_list X T (map (axis_get name nodes) t) io1) as [io2 [vs|w|]]; cbn [obind].
  - destruct IH as (f & -> & Hf). cbn [obind]. eexists. split; [reflexivity|]. cbn [app map snd].
    destruct (axis_eqb_spec a a); [|congruence]. f_equal. rewrite <- Hf. apply map_ext_in. intros b Hb.
    destruct (axis_eqb_spec b a); [congruence|reflexivity].
  - rewrite IH. reflexivity.
  - rewrite IH. reflexivity.
Qed.

Lemma axes_complete order : Permutation order [AxisX; AxisY; AxisZ] -> NoDup order /\ forall a, In a order.
Proof.
  intros H. split.
  - eapply Permutation_NoDup; [apply Permutation_sym, H|]. constructor; [cbn; intuition discriminate|].
    constructor; [cbn; intuition discriminate|]. constructor; [intros []|constructor].
  - intros a. apply (Permutation_in _ (Permutation_sym H)). destruct a; cbn; auto.
Qed.

(** A 3-vector parameter is the three parameters [name.x], [name.y] and [name.z]: whatever
    order the compiler chooses, the vector is the same, each component is what [get] returns
    for it, and the resulting objects are alike. *)
Theorem C63_vec3_any_order : forall X order order' io opt name pn c nodes def io1 v,
  io_options io = Some opt ->
  pn_child name pn = Some c -> xo_vec3 X c = Ok nodes ->
  (* no component is a reference *)
  (forall a, starts_alpha (pn_str (axis_of nodes a)) = false) ->
  (* the aliases keep the three names apart *)
  (forall a b, apply_aliases X (opt_aliases opt) (prefix_str (io_prefix io) ++ axis_name name a) =
     apply_aliases X (opt_aliases opt) (prefix_str (io_prefix io) ++ axis_name name b) -> a = b) ->
  Permutation order [AxisX; AxisY; AxisZ] -> Permutation order' [AxisX; AxisY; AxisZ] ->
  try_get_par_vec3 X oi_store order io name pn def = (io1, Ok v) ->
  exists io2, try_get_par_vec3 X oi_store order' io name pn def = (io2, Ok v) /\ alike io1 io2 /\
    forall a, exists ioa, io_get_node X oi_store io (axis_name name a) (axis_of nodes a) = (ioa, Ok (axis_of v a)).
Proof.
  intros X order order' io opt name pn c nodes def io1 v Ho Hc Hn Hs Hd P1 P2. unfold try_get_par_vec3. rewrite Hc, Hn.
  destruct (axes_complete _ P1) as [N1 I1], (axes_complete _ P2) as [N2 I2].
  pose proof (get_axes_exec X oi_store name nodes order N1 io) as G1.
  destruct (exec_list X oi_store (map (axis_get name nodes) order) io) as [ioe [vs|w|]] eqn:E; [|rewrite G1; discriminate|rewrite G1; discriminate].
  destruct G1 as (f & -> & Hf). cbn [obind]. intros [= <- <-].
  destruct (C63_order_of_gets_does_not_matter X (map (axis_get name nodes) order) (map (axis_get name nodes) order') io opt ioe vs) as
    (io2 & ws & E2 & Hal & Hp & T1 & T2 & Hone); auto.
  { apply Forall_forall. intros d Hin. apply in_map_iff in Hin as (a & <- & _). apply Hs. }
  { rewrite map_map. apply FinFun.Injective_map_NoDup; [|exact N1]. intros a b. apply Hd. }
  { apply Permutation_map. eapply Permutation_trans; [exact P1|apply Permutation_sym, P2]. }
  pose proof (get_axes_exec X oi_store name nodes order' N2 io) as G2. rewrite E2 in G2. destruct G2 as (g & -> & Hg). cbn [obind].
  set (nm := fun a => Some (apply_aliases X (opt_aliases opt) (prefix_str (io_prefix io) ++ axis_name name a))) in *.
  assert (Hinj : forall a b, nm a = nm b -> a = b) by (intros a b H; injection H; apply Hd).
  assert (Zip : forall (h : axis -> f64) l (us : list (option string * f64)), map fst us = map nm l -> map h l = map snd us ->
    us = map (fun a => (nm a, h a)) l).
  { intros h l. induction l as [|a t IH]; intros [|[n u] us]; cbn [map fst snd]; try discriminate; [reflexivity|].
    intros H1 H2. injection H1 as H1 H1'. injection H2 as H2 H2'. subst n u. f_equal. now apply IH. }
  assert (V1 : vs = map (fun a => (nm a, f a)) order) by (apply Zip; [rewrite T1, map_map; reflexivity|exact Hf]).
  assert (V2 : ws = map (fun a => (nm a, g a)) order') by (apply Zip; [rewrite T2, map_map; reflexivity|exact Hg]).
  assert (Hfg : forall a, f a = g a).
  { intros a. assert (Hin : In (nm a, f a) ws).
    { apply (Permutation_in _ Hp). rewrite V1. apply in_map_iff. exists a. auto. }
    rewrite V2 in Hin. apply in_map_iff in Hin as (b & Hb & _).
    assert (Hba : b = a) by (apply Hinj; exact (f_equal fst Hb)). subst b. symmetry. exact (f_equal snd Hb). }
  exists io2. split; [now rewrite !Hfg|]. split; [exact Hal|].
  intros a. destruct (Hone (axis_get name nodes a)) as (u & ioa & Hu & He); [now apply in_map|].
  rewrite V1 in Hu. apply in_map_iff in Hu as (b & Hb & _).
  assert (Hba : b = a) by (apply Hinj; exact (f_equal fst Hb)). subst b. assert (Hu : f a = u) by exact (f_equal snd Hb).
  unfold axis_get in He. cbn [exec] in He. exists ioa.
  destruct (io_get_node X oi_store io (axis_name name a) (axis_of nodes a)) as [ioz [z|w|]]; cbn [obind] in He; try discriminate.
  assert (fst (ioz, Ok [(node_name X io (axis_name name a), z)]) = ioa) as Hz by (rewrite He; reflexivity). cbn [fst] in Hz.
  assert (Hz2 : [(node_name X io (axis_name name a), z)] = [(Some (asks X (io_prefix io) opt (CGetNode (axis_name name a) (axis_of nodes a))), u)]) by congruence.
  assert (z = u) by congruence. destruct a; cbn [axis_of]; congruence.
Qed.

(** In terms of the three coordinates: x is what the parameter [name.x] gives with the first of the three nodes, y what [name.y]
    gives with the second, z what [name.z] gives with the third. *)
Theorem C63_vec3_components : forall X order io opt name pn c nx ny nz def io1 x y z,
  io_options io = Some opt -> pn_child name pn = Some c -> xo_vec3 X c = Ok (nx, ny, nz) ->
  starts_alpha (pn_str nx) = false -> starts_alpha (pn_str ny) = false -> starts_alpha (pn_str nz) = false ->
  let full s := apply_aliases X (opt_aliases opt) (prefix_str (io_prefix io) ++ (name ++ s))%string in
  full ".x"%string <> full ".y"%string -> full ".y"%string <> full ".z"%string -> full ".x"%string <> full ".z"%string ->
  Permutation order [AxisX; AxisY; AxisZ] ->
  try_get_par_vec3 X oi_store order io name pn def = (io1, Ok (x, y, z)) ->
  (exists iox, io_get_node X oi_store io (name ++ ".x") nx = (iox, Ok x)) /\
  (exists ioy, io_get_node X oi_store io (name ++ ".y") ny = (ioy, Ok y)) /\
  (exists ioz, io_get_node X oi_store io (name ++ ".z") nz = (ioz, Ok z)).
Proof.
  intros X order io opt name pn c nx ny nz def io1 x y z Ho Hc Hn Sx Sy Sz full D1 D2 D3 HP HT.
  destruct (C63_vec3_any_order X order order io opt name pn c (nx, ny, nz) def io1 (x, y, z)) as (io2 & _ & _ & H); auto.
  - intros []; assumption.
  - intros [] [] E; try reflexivity; exfalso; first [exact (D1 E)|exact (D1 (eq_sym E))|exact (D2 E)|exact (D2 (eq_sym E))|exact (D3 E)|exact (D3 (eq_sym E))].
  - split; [exact (H AxisX)|]. split; [exact (H AxisY)|exact (H AxisZ)].
Qed.

(** An absent vector is the default, a node that is no vector is an error; neither has any
    effect, on any kind of [par_io]. *)
Theorem C63_vec3_absent : forall S X (T : store S) order io name pn def,
  (pn_child name pn = None -> try_get_par_vec3 X T order io name pn def = (io, Ok def)) /\
  (forall c w, pn_child name pn = Some c -> xo_vec3 X c = Throw w -> try_get_par_vec3 X T order io name pn def = (io, Throw w)).
Proof.
  intros S X T order io name pn def. unfold try_get_par_vec3. split; [intros ->; reflexivity|]. intros c w -> ->. reflexivity.
Qed.

Definition xyz : list axis := [AxisX; AxisY; AxisZ].
Definition zyx : list axis := [AxisZ; AxisY; AxisX].
Definition vec_node (x y z : string) : prop_node := PN "" [("p", PN "" [("x", PN x []); ("y", PN y []); ("z", PN z [])])]%string.
Definition ex_vec (order : list axis) x y z :=
  try_get_par_vec3 X0 oi_store order (new_pario (empty_info true)) "p" (vec_node x y z) (fzero, fzero, fzero).

Fixpoint names_are (a b : list string) : bool :=
  match a, b with [], [] => true | x :: s, y :: t => String.eqb x y && names_are s t | _, _ => false end.
(** A vector of two free components and a constant satisfies the hypotheses, and the two
    orders list the parameters differently. *)
Example C63_nonvacuous :
  (forall a, starts_alpha (pn_str (axis_of (PN "1~0.5" [], PN "2" [], PN "3~1" []) a)) = false) /\
  (match ex_vec xyz "1~0.5" "2" "3~1" with
   | (io, Ok (x, y, z)) => names_are (map pi_name (oi_free (io_st io))) ["p.x"; "p.z"]%string && feq x (fofZ 1) && feq y (fofZ 2) && feq z (fofZ 3)
   | _ => false end) = true /\
  (match ex_vec zyx "1~0.5" "2" "3~1" with
   | (io, Ok (x, y, z)) => names_are (map pi_name (oi_free (io_st io))) ["p.z"; "p.x"]%string && feq x (fofZ 1) && feq y (fofZ 2) && feq z (fofZ 3)
   | _ => false end) = true.
Proof. split; [intros []; reflexivity|]. split; vm_compute; reflexivity. Qed.

(** Sharpness: the order of the free parameters (hence of the values in a search point) is up
    to the compiler. *)
Theorem C63_same_parameter_order_refuted : exists name pn def io1 v1 io2 v2,
  try_get_par_vec3 X0 oi_store xyz (new_pario (empty_info true)) name pn def = (io1, Ok v1) /\
  try_get_par_vec3 X0 oi_store zyx (new_pario (empty_info true)) name pn def = (io2, Ok v2) /\
  map pi_name (oi_free (io_st io1)) <> map pi_name (oi_free (io_st io2)).
Proof.
  destruct (ex_vec xyz "1~0.5" "2" "3~1") as [io1 r1] eqn:E1. destruct (ex_vec zyx "1~0.5" "2" "3~1") as [io2 r2] eqn:E2.
  destruct C63_nonvacuous as (_ & H1 & H2). rewrite E1 in H1. rewrite E2 in H2.
  destruct r1 as [v1|w|]; [|discriminate H1|discriminate H1]. destruct r2 as [v2|w|]; [|discriminate H2|discriminate H2].
  exists "p"%string, (vec_node "1~0.5" "2" "3~1"), (fzero, fzero, fzero), io1, v1, io2, v2.
  split; [exact E1|]. split; [exact E2|].
  destruct v1 as [[x1 y1] z1], v2 as [[x2 y2] z2].
  apply andb_prop in H1 as [H1 _]. apply andb_prop in H1 as [H1 _]. apply andb_prop in H1 as [H1 _].
  apply andb_prop in H2 as [H2 _]. apply andb_prop in H2 as [H2 _]. apply andb_prop in H2 as [H2 _].
  intros E. rewrite E in H1. clear - H1 H2. set (l := map pi_name (oi_free (io_st io2))) in *. clearbody l.
  destruct l as [|a [|b [|? ?]]]; cbn [names_are] in *; rewrite ?andb_false_r in *; try discriminate.
  apply andb_prop in H1 as [H1 _]. apply andb_prop in H2 as [H2 _].
  apply String.eqb_eq in H1, H2. rewrite H1 in H2. discriminate.
Qed.
(** Sharpness: with a component that refers to another one, one order works and another
    fails. *)
Theorem C63_vec3_with_references_refuted : exists name pn def io1 v1 w,
  try_get_par_vec3 X0 oi_store xyz (new_pario (empty_info true)) name pn def = (io1, Ok v1) /\
  snd (try_get_par_vec3 X0 oi_store zyx (new_pario (empty_info true)) name pn def) = Throw w.
Proof.
  destruct (ex_vec xyz "1~0.5" "p.x" "3~1") as [io1 r1] eqn:E1.
  assert (H1 : match snd (ex_vec xyz "1~0.5" "p.x" "3~1") with Ok _ => true | _ => false end = true) by (vm_compute; reflexivity).
  assert (H2 : match snd (ex_vec zyx "1~0.5" "p.x" "3~1") with Throw _ => true | _ => false end = true) by (vm_compute; reflexivity).
  rewrite E1 in H1. cbn [snd] in H1. destruct r1 as [v1|w|]; [|discriminate H1|discriminate H1].
  destruct (snd (ex_vec zyx "1~0.5" "p.x" "3~1")) as [v2|w|] eqn:E2; [discriminate H2| |discriminate H2].
  exists "p"%string, (vec_node "1~0.5" "p.x" "3~1"), (fzero, fzero, fzero), io1, v1, w. split; [exact E1|exact E2].
Qed.
Print Assumptions C63_vec3_components.
