(** * C04 - C13, C17, C18, C56, C57: objective_info and par_io. *)
From Coq Require Import ZArith Bool.
From Verif Require Import Prelude Flt FltFacts Round8 ShowNum ShowNumFacts PropNode ParInfo ParInfoFacts FlatMap
  ObjInfo ObjInfoFacts ParIO ParIOFacts SearchPoint.

(** ** C04.  All public operations of an objective_info; exceptions are caught by the
    caller, who may go on with the object. *)
Inductive info_op : Type :=
| OProg (c : cmd)                          (* get, try_get, scopes of any depth *)
| OAdd (p : par_info)
| OImport (file : option text) (pis : import_settings)
| OLock (file : option text) (inc exc : pattern)
| OSetStdMinimum (value factor : f64)
| OSetMeanStd (mean std : list f64)
| OSetMinimize (b : bool)
| OSetTarget (f : f64)
| OSetName (s : string)
| OSetPrefix (s : string)
| OPushPrefix (s : string)
| OPopPrefix.

Definition apply_op (X : xo_env) (io : pario obj_info) (op : info_op) : pario obj_info :=
  let o := io_st io in
  match op with
  | OProg c => fst (exec X oi_store c io)
  | OAdd p => with_st io (fst (oi_add o p))
  | OImport f pis => with_st io (fst (import_mean_std o f pis))
  | OLock f inc exc => with_st io (fst (import_locked o f inc exc))
  | OSetStdMinimum v f => with_st io (set_std_minimum o v f)
  | OSetMeanStd m s => match set_mean_std o m s with Ok o' => with_st io o' | _ => io end
  | OSetMinimize b => with_st io {| oi_free := oi_free o; oi_locked := oi_locked o; oi_minimize := b; oi_target := oi_target o; oi_name := oi_name o |}
  | OSetTarget f => with_st io {| oi_free := oi_free o; oi_locked := oi_locked o; oi_minimize := oi_minimize o; oi_target := f; oi_name := oi_name o |}
  | OSetName s => with_st io {| oi_free := oi_free o; oi_locked := oi_locked o; oi_minimize := oi_minimize o; oi_target := oi_target o; oi_name := s |}
  | OSetPrefix s => set_prefix io s
  | OPushPrefix s => with_prefix io (io_prefix io ++ [s])
  | OPopPrefix => with_prefix io (removelast (io_prefix io))
  end.

Definition names_unique (o : obj_info) : Prop :=
  NoDup (map pi_name (oi_free o)) /\
  (forall n, In n (map pi_name (oi_free o)) -> try_get_locked o n = None) /\
  NoDup (map fst (oi_locked o)).

Lemma set_mean_std_names l : forall m s, map pi_name (set_mean_std_list l m s) = map pi_name l.
Proof. induction l as [|p t IH]; intros [|m mt] [|s st]; cbn; auto. now rewrite IH. Qed.

Lemma apply_op_inv X io op : oi_inv (io_st io) -> oi_inv (io_st (apply_op X io op)).
Proof.
  intros I. destruct op; cbn [apply_op].
  - now apply exec_inv.
  - cbn [with_st io_st]. now apply oi_add_inv.
  - cbn [with_st io_st]. unfold import_mean_std. destruct file as [t|]; [|exact I].
    destruct (file_records t) as [recs bad]. pose proof (import_records_spec pis (map fst recs) (io_st io) I) as H.
    destruct (import_records pis (io_st io) (map fst recs)) as [o' [a b]].
    destruct (String.eqb bad ""); cbn [fst]; apply H.
  - cbn [with_st io_st]. unfold import_locked. destruct file as [t|]; [|exact I].
    destruct (file_records t) as [recs bad]. pose proof (lock_records_spec inc exc (map fst recs) (io_st io) I) as H.
    destruct (lock_records inc exc (io_st io) (map fst recs)) as [o' [a b]].
    destruct (String.eqb bad ""); cbn [fst]; apply H.
  - destruct I as (I1 & I2 & I3). unfold oi_inv, names. cbn [with_st io_st set_std_minimum with_free oi_free oi_locked].
    rewrite map_map. cbn [pi_name with_mean_std]. split; [exact I1|split; [exact I2|exact I3]].
  - unfold set_mean_std, assert_. destruct (_ && _); [|exact I]. cbn [obind with_st io_st].
    destruct I as (I1 & I2 & I3). unfold oi_inv, names. cbn [with_free oi_free oi_locked].
    rewrite set_mean_std_names. split; [exact I1|split; [exact I2|exact I3]].
  - exact I.
  - exact I.
  - exact I.
  - exact I.
  - exact I.
  - exact I.
Qed.
Lemma apply_ops_inv X ops : forall io, oi_inv (io_st io) -> oi_inv (io_st (fold_left (apply_op X) ops io)).
Proof. induction ops as [|op t IH]; intros io I; cbn [fold_left]; [auto|]. apply IH. now apply apply_op_inv. Qed.
Lemma oi_inv_unique o : oi_inv o -> names_unique o.
Proof.
  intros (I1 & I2 & I3). split; [exact I1|]. split; [|now apply fm_sorted_NoDup].
  intros n Hn. apply fm_get_None. now apply I2.
Qed.

Theorem C04_names_stay_unique : forall X minimize ops,
  names_unique (io_st (fold_left (apply_op X) ops (new_pario (empty_info minimize)))).
Proof.
  intros X mn ops. apply oi_inv_unique, apply_ops_inv. cbn. split; [constructor|]. split; [intros ? []|constructor].
Qed.

(** From any starting point that is itself unique (e.g. make_objective_info, C57). *)
Theorem C04_names_stay_unique_from : forall X io ops,
  NoDup (map pi_name (oi_free (io_st io))) -> oi_locked (io_st io) = [] ->
  names_unique (io_st (fold_left (apply_op X) ops io)).
Proof.
  intros X io ops Hn Hl. apply oi_inv_unique, apply_ops_inv. split; [exact Hn|]. rewrite Hl. split; [intros ? _ []|constructor].
Qed.

(** The constructor from a vector does not check its argument. *)
Theorem C04_constructor_checks_names_refuted : exists l,
  (forall p, In p l -> is_valid p = true) /\ ~ names_unique (info_of_pars l true).
Proof.
  exists [{| pi_name := "a"; pi_mean := fzero; pi_std := fzero; pi_min := fzero; pi_max := fzero |};
          {| pi_name := "a"; pi_mean := fzero; pi_std := fzero; pi_min := fzero; pi_max := fzero |}].
  split.
  - intros p [<-|[<-|[]]]; reflexivity.
  - intros (H & _). cbn in H. inversion_clear H as [|? ? H1 _]. apply H1. now left.
Qed.

Definition X0 : xo_env := {|
  xo_replace_str := fun s a b => if String.eqb s a then b else s; xo_needs_quotes := fun s => bad_name s;
  xo_query := fun _ _ => None;
  xo_vec3 := fun c => match pn_children c with [(_, x); (_, y); (_, z)] => Ok (x, y, z) | _ => Throw "not a vec3" end |}.
Definition P0 : pattern := {| pat_empty := true; pat_match := fun _ => false |}.
Definition file1 : text := chars "a.y 3 3 0".
Example C04_nonvacuous :
  let o := io_st (fold_left (apply_op X0)
     [OProg (CScope "a" true [CGetNode "x" (PN "1~0.5<0,2>" []); CGetNode "y" (PN "~2" [])]);
      OProg (CGet "a.x" (fofZ 1) (fofZ 1) (fofZ 0) (fofZ 2)); OLock (Some file1) P0 P0;
      OAdd {| pi_name := "a.y"; pi_mean := fzero; pi_std := fzero; pi_min := fzero; pi_max := fzero |}]
     (new_pario (empty_info true))) in
  map pi_name (oi_free o) = ["a.x"%string] /\ map fst (oi_locked o) = ["a.y"%string] /\
  match try_get_locked o "a.y" with Some v => f64_same v (fofZ 3) = true | None => False end.
Proof. cbv zeta. split; [vm_compute; reflexivity|]. split; vm_compute; reflexivity. Qed.

(** ** C05 *)
Theorem C05_add : forall o p o' r, oi_add o p = (o', r) ->
  let taken := oi_try_get o (pi_name p) <> None in
  let invalid := exists c, In c (chars (pi_name p)) /\ (c = " " \/ c = "009" \/ c = "034")%char in
  ((exists w, r = Throw w) <-> taken \/ invalid) /\
  (r = Throw ("Parameter already exists: " ++ pi_name p)%string <-> taken) /\
  ((exists w, r = Throw w) -> o' = o) /\
  ((~ exists w, r = Throw w) ->
     r = Ok (pi_mean p) /\ oi_try_get o' (pi_name p) = Some (pi_mean p) /\
     (if feq (pi_std p) fzero
      then oi_free o' = oi_free o /\ try_get_locked o' (pi_name p) = Some (pi_mean p)
      else oi_free o' = oi_free o ++ [p] /\ oi_locked o' = oi_locked o)) /\
  (* nothing that was there changes *)
  (forall i q, nth_error (oi_free o) i = Some q -> nth_error (oi_free o') i = Some q) /\
  (forall n v, oi_try_get o n = Some v -> oi_try_get o' n = Some v) /\
  (forall n, n <> pi_name p -> oi_try_get o' n = oi_try_get o n /\ try_get_locked o' n = try_get_locked o n) /\
  oi_minimize o' = oi_minimize o /\ oi_target o' = oi_target o /\ oi_name o' = oi_name o.
Proof.
  intros o p o' r E taken invalid.
  assert (Hinv : bad_name (pi_name p) = true <-> invalid).
  { unfold bad_name, invalid. rewrite existsb_exists. unfold bad_char. split; intros (c & H & H2); exists c; (split; [exact H|]).
    - apply orb_prop in H2 as [H2|H2]; [apply orb_prop in H2 as [H2|H2]|]; apply Ascii.eqb_eq in H2; auto.
    - destruct H2 as [->|[->| ->]]; reflexivity. }
  assert (Hval : r = Throw ("Parameter already exists: " ++ pi_name p)%string <-> taken).
  { unfold taken, oi_try_get, try_get_locked. unfold oi_add in E.
    destruct (find_par (pi_name p) (oi_free o)); [injection E as <- <-; split; [discriminate|reflexivity]|].
    destruct (fm_get (pi_name p) (oi_locked o)); [injection E as <- <-; split; [discriminate|reflexivity]|].
    split; [|congruence]. destruct (bad_name (pi_name p)); [injection E as <- <-; discriminate|].
    destruct (is_constant p); injection E as <- <-; discriminate. }
  pose proof (oi_add_ext o p) as Hext. rewrite E in Hext. cbn [fst] in Hext.
  destruct Hext as ((ps & Hps) & Hk & _ & Hm & Ht & Hn).
  assert (Hpos : forall i q, nth_error (oi_free o) i = Some q -> nth_error (oi_free o') i = Some q).
  { intros i q Hq. rewrite Hps, nth_error_app1; [exact Hq|]. apply nth_error_Some. congruence. }
  destruct (oi_add_cases o p) as [(w & Ea)|(Hnone & Hgood & Hc)].
  - rewrite E in Ea. injection Ea as -> ->.
    assert (taken \/ invalid) as Hti.
    { rewrite <- Hinv. unfold taken. destruct (oi_add_spec o p) as (_ & H2 & H3).
      destruct (oi_try_get o (pi_name p)) as [v|] eqn:Eg; [left; discriminate|].
      destruct (bad_name (pi_name p)) eqn:Eb; [now right|].
      destruct (is_constant p) eqn:Ec; [rewrite H2 in E|rewrite H3 in E]; auto; discriminate. }
    split; [split; [auto|eauto]|]. split; [exact Hval|]. split; [auto|].
    split; [intros H; exfalso; eauto|]. split; [exact Hpos|]. split; [exact Hk|]. split; [auto|]. auto.
  - assert (Hnt : ~ (exists w, r = Throw w)).
    { destruct Hc as [[_ Hc]|[_ Hc]]; rewrite E in Hc; injection Hc as _ ->; intros (w & Hw); discriminate. }
    split; [split; [intros H; exfalso; auto|]|].
    { intros [H|H]; [unfold taken in H; congruence|]. apply Hinv in H. congruence. }
    split; [exact Hval|]. split; [intros H; exfalso; auto|]. split; [|split; [exact Hpos|split; [exact Hk|split; [|auto]]]].
    + intros _. destruct Hc as [[Hcon Hc]|[Hcon Hc]]; rewrite E in Hc; injection Hc as -> ->;
        pose proof (oi_add_Ok _ _ _ _ E) as [_ Hg]; (split; [reflexivity|]; split; [exact Hg|]);
        unfold is_constant in Hcon; rewrite Hcon.
      * split; [reflexivity|]. now rewrite fm_get_locked_set, String.eqb_refl.
      * split; reflexivity.
    + intros n Hne. destruct Hc as [[_ Hc]|[_ Hc]]; rewrite E in Hc; injection Hc as -> ->.
      * unfold oi_try_get. rewrite fm_get_locked_set. cbn [with_locked oi_free].
        destruct (String.eqb_spec (pi_name p) n); [congruence|]. auto.
      * unfold oi_try_get. cbn [with_free oi_free]. rewrite find_par_app. cbn [find_par].
        destruct (String.eqb_spec (pi_name p) n); [congruence|]. split; [|reflexivity].
        destruct (find_par n (oi_free o)); reflexivity.
Qed.
Example C05_nonvacuous : let p s := {| pi_name := "k"; pi_mean := fofZ 2; pi_std := s; pi_min := fzero; pi_max := fofZ 3 |} in
  oi_dim (fst (oi_add (empty_info true) (p (fofZ 1)))) = 1 /\ oi_dim (fst (oi_add (empty_info true) (p fzero))) = 0.
Proof. split; reflexivity. Qed.

(** ** C06 *)
Lemma ps_add_Ok m p m' v : ps_add m p = (m', Ok v) -> v = pi_mean p /\ ps_try_get m' (pi_name p) = Some v.
Proof. intros [= <- <-]. split; [reflexivity|]. apply fm_get_set_eq. Qed.

Section C06.
Context {S : Type} (X : xo_env) (T : store S).
Hypothesis lawful : forall s p s' v, st_add T s p = (s', Ok v) -> v = pi_mean p /\ st_try_get T s' (pi_name p) = Some v.
Lemma get_existing io n m s lo hi v : st_try_get T (io_st io) (prefix_str (io_prefix io) ++ n) = Some v ->
  io_get T io n m s lo hi = (io, Ok v).
Proof. intros H. unfold io_get. now rewrite H. Qed.
Lemma get_again io n m s lo hi io' v : io_get T io n m s lo hi = (io', Ok v) ->
  st_try_get T (io_st io') (prefix_str (io_prefix io') ++ n) = Some v.
Proof.
  intros H. pose proof (io_get_frame T io n m s lo hi) as [F _]. rewrite H in F. cbn [fst] in F. rewrite F.
  unfold io_get in H. destruct (st_try_get T (io_st io) _) eqn:E; [injection H as <- <-; exact E|].
  destruct (make_par_info _ _ _ _ _) as [q|w|] eqn:Eq; try discriminate.
  destruct (st_add T (io_st io) q) as [s' r] eqn:Ea. injection H as <- ->. apply lawful in Ea as [_ Ea].
  apply make_par_info_Ok in Eq. destruct Eq as [-> _]. exact Ea.
Qed.
Lemma get_node_again io n pn io' v : io_get_node X T io n pn = (io', Ok v) -> io_get_node X T io' n pn = (io', Ok v).
Proof.
  intros H. pose proof (io_get_node_frame X T io n pn) as [F1 F2]. rewrite H in F1, F2. cbn [fst] in F1, F2.
  assert (Ho : io_options io' = io_options io) by (unfold io_options; now rewrite F2).
  assert (Hf : forall opt, full_name_of X io' opt n = full_name_of X io opt n) by (intros; unfold full_name_of; now rewrite F1).
  unfold io_get_node in *. rewrite Ho. destruct (io_options io) as [opt|]; [|discriminate]. rewrite Hf.
  set (full := full_name_of X io opt n) in *.
  destruct (st_try_get T (io_st io) full) eqn:E; [injection H as <- <-; now rewrite E|].
  destruct (starts_alpha (pn_str pn)).
  - destruct (lookup_ref T (io_st io) _ _) eqn:El; [|discriminate]. injection H as <- <-. now rewrite E, El.
  - destruct (xo_needs_quotes X full) eqn:Eq; [discriminate|].
    destruct (par_info_of_node full pn opt) as [q|w|] eqn:Ep; try discriminate.
    destruct (is_constant q) eqn:Ec; [injection H as <- <-; now rewrite E, ?Eq, ?Ep, ?Ec|].
    destruct (st_add T (io_st io) q) as [s' r] eqn:Ea. injection H as <- ->. apply lawful in Ea as [_ Ea].
    rewrite (par_info_of_node_name _ _ _ _ Ep) in Ea. cbn [with_st io_st]. now rewrite Ea.
Qed.
End C06.

Theorem C06_get_existing_and_idempotent : forall X,
  (* objective_info *)
  (forall io name v m s lo hi, oi_try_get (io_st io) (prefix_str (io_prefix io) ++ name) = Some v ->
     io_get oi_store io name m s lo hi = (io, Ok v)) /\
  (forall io name m s lo hi io' v, io_get oi_store io name m s lo hi = (io', Ok v) ->
     forall m2 s2 lo2 hi2, io_get oi_store io' name m2 s2 lo2 hi2 = (io', Ok v)) /\
  (forall io name pn io' v, io_get_node X oi_store io name pn = (io', Ok v) ->
     io_get_node X oi_store io' name pn = (io', Ok v)) /\
  (forall io name opt v pn, io_options io = Some opt ->
     oi_try_get (io_st io) (apply_aliases X (opt_aliases opt) (prefix_str (io_prefix io) ++ name)) = Some v ->
     io_get_node X oi_store io name pn = (io, Ok v)) /\
  (* static_par_set *)
  (forall io name v m s lo hi, ps_try_get (io_st io) (prefix_str (io_prefix io) ++ name) = Some v ->
     io_get ps_store io name m s lo hi = (io, Ok v)) /\
  (forall io name m s lo hi io' v, io_get ps_store io name m s lo hi = (io', Ok v) ->
     forall m2 s2 lo2 hi2, io_get ps_store io' name m2 s2 lo2 hi2 = (io', Ok v)) /\
  (forall io name pn io' v, io_get_node X ps_store io name pn = (io', Ok v) ->
     io_get_node X ps_store io' name pn = (io', Ok v)).
Proof.
  intros X. split; [|split; [|split; [|split; [|split; [|split]]]]].
  - intros. now apply get_existing.
  - intros io n m s lo hi io' v H m2 s2 lo2 hi2. apply get_existing. exact (get_again oi_store oi_add_Ok _ _ _ _ _ _ _ _ H).
  - intros io n pn io' v H. exact (get_node_again X oi_store oi_add_Ok _ _ _ _ _ H).
  - intros io n opt v pn Ho H. unfold io_get_node. rewrite Ho. unfold full_name_of. cbn [oi_store st_try_get]. now rewrite H.
  - intros. now apply get_existing.
  - intros io n m s lo hi io' v H m2 s2 lo2 hi2. apply get_existing. exact (get_again ps_store ps_add_Ok _ _ _ _ _ _ _ _ H).
  - intros io n pn io' v H. exact (get_node_again X ps_store ps_add_Ok _ _ _ _ _ H).
Qed.

(** A get that throws registers nothing and changes nothing. *)
Theorem C06_failed_get_changes_nothing : forall X io name io' w,
  (forall m s lo hi, io_get oi_store io name m s lo hi = (io', Throw w) -> io' = io) /\
  (forall pn, io_get_node X oi_store io name pn = (io', Throw w) -> io' = io).
Proof.
  assert (Ha : forall o p, match oi_add o p with (o', Throw _) => o' = o | _ => True end).
  { intros o p. destruct (oi_add_cases o p) as [(w & ->)|(_ & _ & [(_ & ->)|(_ & ->)])]; auto. }
  assert (Hw : forall io : pario obj_info, with_st io (io_st io) = io) by (intros []; reflexivity).
  intros X io n io' w. split.
  - intros m s lo hi. unfold io_get. cbn [oi_store st_try_get st_add]. destruct (oi_try_get _ _); [discriminate|].
    destruct (make_par_info _ _ _ _ _) as [p| |]; [|congruence|discriminate].
    specialize (Ha (io_st io) p). destruct (oi_add (io_st io) p) as [o' [v|w'|]]; try discriminate. intros [= <- ->]. subst. apply Hw.
  - intros pn. unfold io_get_node. destruct (io_options io); [|discriminate]. cbn [oi_store st_try_get st_add].
    destruct (oi_try_get _ _); [discriminate|].
    destruct (starts_alpha _); [destruct (lookup_ref _ _ _ _); [discriminate|congruence]|].
    destruct (xo_needs_quotes _ _); [congruence|].
    destruct (par_info_of_node _ _ _) as [q| |]; [|congruence|discriminate].
    destruct (is_constant q); [discriminate|].
    specialize (Ha (io_st io) q). destruct (oi_add (io_st io) q) as [o' [v|w'|]]; try discriminate. intros [= <- ->]. subst. apply Hw.
Qed.

Lemma get_node_constant X io n pn opt q : io_options io = Some opt ->
  oi_try_get (io_st io) (full_name_of X io opt n) = None -> starts_alpha (pn_str pn) = false ->
  xo_needs_quotes X (full_name_of X io opt n) = false ->
  par_info_of_node (full_name_of X io opt n) pn opt = Ok q -> is_constant q = true ->
  io_get_node X oi_store io n pn = (io, Ok (pi_mean q)).
Proof. intros H1 H2 H3 H4 H5 H6. unfold io_get_node. cbn [oi_store st_try_get]. now rewrite H1, H2, H3, H4, H5, H6. Qed.
Definition const_par n v := {| pi_name := n; pi_mean := v; pi_std := fzero; pi_min := default_lower; pi_max := default_upper |}.

(** Sharpness: a constant node is not registered, so the same name with another constant
    node gives another value. *)
Theorem C06_constant_nodes_not_registered_refuted :
  exists io io1 io2 v w, io_get_node X0 oi_store io "k" (PN "1" []) = (io1, Ok v) /\
   io_get_node X0 oi_store io1 "k" (PN "2" []) = (io2, Ok w) /\ v <> w.
Proof.
  set (io := new_pario (empty_info true)). exists io, io, io, (pi_mean (const_par "k" (fofZ 1))), (pi_mean (const_par "k" (fofZ 2))).
  split; [|split].
  - apply get_node_constant with default_options; try reflexivity. apply ok_par_info_same_eq. vm_compute. reflexivity.
  - apply get_node_constant with default_options; try reflexivity. apply ok_par_info_same_eq. vm_compute. reflexivity.
  - intros E. assert (fkey (fofZ 1) = fkey (fofZ 2)) as H by exact (f_equal fkey E). vm_compute in H. discriminate.
Qed.
