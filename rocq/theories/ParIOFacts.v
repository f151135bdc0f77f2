(** * Facts about par_io programs. *)
From Coq Require Import ZArith Bool.
From Verif Require Import Prelude Flt FltFacts Round8 ShowNum PropNode ParInfo ParInfoFacts FlatMap ObjInfo ObjInfoFacts ParIO SearchPoint.

Section cmd_ind.
  Variable P : cmd -> Prop.
  Hypothesis HGet : forall n m s lo hi, P (CGet n m s lo hi).
  Hypothesis HNode : forall n pn, P (CGetNode n pn).
  Hypothesis HTry : forall n pn k d, P (CTryGet n pn k d).
  Hypothesis HScope : forall p dot b, Forall P b -> P (CScope p dot b).
  Hypothesis HSet : forall p b, Forall P b -> P (CSetScope p b).
  Hypothesis HOpt : forall pn b, Forall P b -> P (COptScope pn b).
  Fixpoint cmd_ind' (c : cmd) : P c :=
    let go := fix go (l : list cmd) : Forall P l :=
      match l with [] => Forall_nil P | c :: t => Forall_cons c (cmd_ind' c) (go t) end in
    match c with
    | CGet n m s lo hi => HGet n m s lo hi
    | CGetNode n pn => HNode n pn
    | CTryGet n pn k d => HTry n pn k d
    | CScope p dot b => HScope p dot b (go b)
    | CSetScope p b => HSet p b (go b)
    | COptScope pn b => HOpt pn b (go b)
    end.
End cmd_ind.

Section exec.
Context {S : Type} (X : xo_env) (T : store S).
Notation exec := (exec X T).
Notation exec_list := (exec_list X T).

Lemma exec_run body : forall io,
  (fix run (l : list cmd) (io : pario S) {struct l} : pario S * outcome (list (option string * f64)) :=
    match l with
    | [] => (io, Ok [])
    | c :: t =>
      let '(io1, r1) := exec c io in
      match r1 with
      | Ok v1 => let '(io2, r2) := run t io1 in (io2, let* v2 := r2 in Ok (v1 ++ v2))
      | Throw w => (io1, Throw w)
      | Undef => (io1, Undef)
      end
    end) body io = exec_list body io.
Proof. induction body as [|c t IH]; intros io; cbn [ParIO.exec_list]; [reflexivity|]. destruct (exec c io) as [io1 [v1|w|]]; try reflexivity. Qed.

Lemma exec_scope p dot body io : exec (CScope p dot body) io =
  let '(io1, r) := exec_list body (with_prefix io (io_prefix io ++ [scope_segment p dot])) in
  (with_prefix io1 (removelast (io_prefix io1)), r).
Proof. cbn [ParIO.exec]. now rewrite exec_run. Qed.
Lemma exec_setscope p body io : exec (CSetScope p body) io =
  let '(io1, r) := exec_list body (set_prefix io p) in
  (set_prefix io1 (prefix_str (io_prefix io)), r).
Proof. cbn [ParIO.exec]. now rewrite exec_run. Qed.
Lemma exec_optscope pn body io : exec (COptScope pn body) io =
  match io_opts io with
  | [] => (io, Undef)
  | o :: _ =>
    let '(o', r0) := scoped_options pn o in
    let io0 := with_opts io (o' :: io_opts io) in
    match r0 with
    | Ok _ => let '(io1, r) := exec_list body io0 in (with_opts io1 (tl (io_opts io1)), r)
    | Throw w => (io0, Throw w)
    | Undef => (io0, Undef)
    end
  end.
Proof.
  cbn [ParIO.exec]. destruct (io_opts io); [reflexivity|]. destruct (scoped_options pn p) as [o' [u|w|]]; try reflexivity.
Qed.

(** A relation that every [add] respects is respected by every program. *)
Section rel.
Variable R : S -> S -> Prop.
Hypothesis Rrefl : forall s, R s s.
Hypothesis Rtrans : forall a b c, R a b -> R b c -> R a c.
Hypothesis Radd : forall s p, R s (fst (st_add T s p)).

Lemma io_get_rel io n m s lo hi : R (io_st io) (io_st (fst (io_get T io n m s lo hi))).
Proof.
  unfold io_get. destruct (st_try_get _ _ _); [apply Rrefl|].
  destruct (make_par_info _ _ _ _ _) as [p|w|]; try apply Rrefl.
  pose proof (Radd (io_st io) p) as H. destruct (st_add T (io_st io) p). exact H.
Qed.
Lemma io_get_node_rel io n pn : R (io_st io) (io_st (fst (io_get_node X T io n pn))).
Proof.
  unfold io_get_node. destruct (io_options io) as [opt|]; [|apply Rrefl].
  destruct (st_try_get _ _ _); [apply Rrefl|].
  destruct (starts_alpha _); [destruct (lookup_ref _ _ _ _); apply Rrefl|].
  destruct (xo_needs_quotes _ _); [apply Rrefl|].
  destruct (par_info_of_node _ _ _) as [p|w|]; try apply Rrefl.
  destruct (is_constant p); [apply Rrefl|].
  pose proof (Radd (io_st io) p) as H. destruct (st_add T (io_st io) p). exact H.
Qed.
Lemma exec_rel c : forall io, R (io_st io) (io_st (fst (exec c io))).
Proof.
  induction c using cmd_ind'; intros io.
  - cbn [ParIO.exec]. pose proof (io_get_rel io n m s lo hi) as H. destruct (io_get T io n m s lo hi). exact H.
  - cbn [ParIO.exec]. pose proof (io_get_node_rel io n pn) as H. destruct (io_get_node X T io n pn). exact H.
  - cbn [ParIO.exec]. unfold io_try_get_node. destruct (pn_child k pn); [|apply Rrefl].
    pose proof (io_get_node_rel io n p) as H. destruct (io_get_node X T io n p). exact H.
  - rewrite exec_scope. assert (HL : forall io, R (io_st io) (io_st (fst (exec_list b io)))).
    { clear io. induction H as [|c t Hc Ht IH]; intros io; cbn [ParIO.exec_list]; [apply Rrefl|].
      specialize (Hc io). destruct (exec c io) as [io1 [v1|w|]]; try exact Hc.
      specialize (IH io1). destruct (exec_list t io1) as [io2 r2]. eapply Rtrans; eauto. }
    specialize (HL (with_prefix io (io_prefix io ++ [scope_segment p dot]))). destruct (exec_list _ _). exact HL.
  - rewrite exec_setscope. assert (HL : forall io, R (io_st io) (io_st (fst (exec_list b io)))).
    { clear io. induction H as [|c t Hc Ht IH]; intros io; cbn [ParIO.exec_list]; [apply Rrefl|].
      specialize (Hc io). destruct (exec c io) as [io1 [v1|w|]]; try exact Hc.
      specialize (IH io1). destruct (exec_list t io1) as [io2 r2]. eapply Rtrans; eauto. }
    specialize (HL (set_prefix io p)). destruct (exec_list _ _). exact HL.
  - rewrite exec_optscope. assert (HL : forall io, R (io_st io) (io_st (fst (exec_list b io)))).
    { clear io. induction H as [|c t Hc Ht IH]; intros io; cbn [ParIO.exec_list]; [apply Rrefl|].
      specialize (Hc io). destruct (exec c io) as [io1 [v1|w|]]; try exact Hc.
      specialize (IH io1). destruct (exec_list t io1) as [io2 r2]. eapply Rtrans; eauto. }
    destruct (io_opts io); [apply Rrefl|]. destruct (scoped_options pn p) as [o' [u|w|]]; try apply Rrefl.
    cbv zeta. specialize (HL (with_opts io (o' :: p :: l))). destruct (exec_list _ _). exact HL.
Qed.
Lemma exec_list_rel l : forall io, R (io_st io) (io_st (fst (exec_list l io))).
Proof.
  induction l as [|c t IH]; intros io; cbn [ParIO.exec_list]; [apply Rrefl|].
  pose proof (exec_rel c io) as Hc. destruct (exec c io) as [io1 [v1|w|]]; try exact Hc.
  specialize (IH io1). destruct (exec_list t io1) as [io2 r2]. eapply Rtrans; eauto.
Qed.
End rel.

(** ** Scopes restore what they found. *)
(** no scoped_prefix_setter in the program *)
Fixpoint no_setter (c : cmd) : bool :=
  match c with
  | CScope _ _ b | COptScope _ b => forallb no_setter b
  | CSetScope _ _ => false
  | _ => true
  end.
(** every options node holds readable numbers *)
Definition opt_node_ok (pn : prop_node) : bool :=
  forallb (fun k => match pn_child k pn with Some c => match pn_num read_number c with Ok _ => true | _ => false end | None => true end)
    ["auto_std_factor"; "auto_std_offset"; "auto_std_minimum"]%string.
Fixpoint opts_readable (c : cmd) : bool :=
  match c with
  | CScope _ _ b | CSetScope _ b => forallb opts_readable b
  | COptScope pn b => opt_node_ok pn && forallb opts_readable b
  | _ => true
  end.

Lemma read_opt_ok pn k d : match pn_child k pn with Some c => match pn_num read_number c with Ok _ => true | _ => false end | None => true end = true ->
  exists v, read_opt pn k d = Ok v.
Proof.
  unfold read_opt. destruct (pn_child k pn) as [c|]; [|eauto].
  destruct (pn_num read_number c); try discriminate. eauto.
Qed.
Lemma opt_node_ok_spec pn o : opt_node_ok pn = true -> snd (scoped_options pn o) = Ok tt.
Proof.
  unfold opt_node_ok. cbn [forallb]. intros H. apply andb_prop in H as [H1 H]. apply andb_prop in H as [H2 H]. apply andb_prop in H as [H3 _].
  unfold scoped_options.
  destruct (read_opt_ok pn _ (auto_std_factor o) H1) as (v1 & ->).
  destruct (read_opt_ok pn _ (auto_std_offset (with_factor o v1)) H2) as (v2 & ->).
  destruct (read_opt_ok pn _ (auto_std_minimum (with_offset (with_factor o v1) v2)) H3) as (v3 & ->).
  reflexivity.
Qed.

Lemma io_get_frame io n m s lo hi : let io' := fst (io_get T io n m s lo hi) in
  io_prefix io' = io_prefix io /\ io_opts io' = io_opts io.
Proof.
  unfold io_get. destruct (st_try_get _ _ _); [auto|].
  destruct (make_par_info _ _ _ _ _) as [p|w|]; auto. destruct (st_add T (io_st io) p). auto.
Qed.
Lemma io_get_node_frame io n pn : let io' := fst (io_get_node X T io n pn) in
  io_prefix io' = io_prefix io /\ io_opts io' = io_opts io.
Proof.
  unfold io_get_node. destruct (io_options io) as [opt|]; [|auto].
  destruct (st_try_get _ _ _); [auto|].
  destruct (starts_alpha _); [destruct (lookup_ref _ _ _ _); auto|].
  destruct (xo_needs_quotes _ _); [auto|].
  destruct (par_info_of_node _ _ _) as [p|w|]; auto.
  destruct (is_constant p); [auto|]. destruct (st_add T (io_st io) p). auto.
Qed.

Definition frame_ok (c : cmd) : Prop := forall io,
  (opts_readable c = true -> io_opts (fst (exec c io)) = io_opts io) /\
  (no_setter c = true -> io_prefix (fst (exec c io)) = io_prefix io).

Lemma exec_list_frame l : Forall frame_ok l -> forall io,
  (forallb opts_readable l = true -> io_opts (fst (exec_list l io)) = io_opts io) /\
  (forallb no_setter l = true -> io_prefix (fst (exec_list l io)) = io_prefix io).
Proof.
  induction 1 as [|c t Hc Ht IH]; intros io; cbn [ParIO.exec_list forallb]; [auto|].
  destruct (Hc io) as [Ho Hp]. destruct (exec c io) as [io1 [v1|w|]] eqn:E; cbn [fst] in *.
  - destruct (IH io1) as [IHo IHp]. destruct (exec_list t io1) as [io2 r2]; cbn [fst] in *.
    split; intros H; apply andb_prop in H as [H1 H2]; [rewrite IHo, Ho|rewrite IHp, Hp]; auto.
  - split; intros H; apply andb_prop in H as [H1 H2]; auto.
  - split; intros H; apply andb_prop in H as [H1 H2]; auto.
Qed.

Lemma exec_frame c : frame_ok c.
Proof.
  induction c using cmd_ind'; intros io.
  - cbn [ParIO.exec]. destruct (io_get_frame io n m s lo hi) as [H1 H2]. destruct (io_get T io n m s lo hi). auto.
  - cbn [ParIO.exec]. destruct (io_get_node_frame io n pn) as [H1 H2]. destruct (io_get_node X T io n pn). auto.
  - cbn [ParIO.exec]. unfold io_try_get_node. destruct (pn_child k pn); [|auto].
    destruct (io_get_node_frame io n p) as [H1 H2]. destruct (io_get_node X T io n p). auto.
  - rewrite exec_scope.
    destruct (exec_list_frame b H (with_prefix io (io_prefix io ++ [scope_segment p dot]))) as [Ho Hp].
    destruct (exec_list _ _) as [io1 r]; cbn [fst opts_readable no_setter with_prefix io_opts io_prefix] in *.
    split; intros Hb; [auto|]. rewrite (Hp Hb). now rewrite removelast_last.
  - rewrite exec_setscope. destruct (exec_list_frame b H (set_prefix io p)) as [Ho Hp].
    destruct (exec_list _ _) as [io1 r]; cbn [fst opts_readable no_setter set_prefix with_prefix io_opts io_prefix] in *.
    split; [auto|discriminate].
  - rewrite exec_optscope. destruct (io_opts io) as [|o os] eqn:Eo; [auto|].
    pose proof (opt_node_ok_spec pn o) as Hopt. destruct (scoped_options pn o) as [o' r0]; cbn [snd] in Hopt. cbv zeta.
    destruct (exec_list_frame b H (with_opts io (o' :: o :: os))) as [Ho Hp].
    cbn [opts_readable no_setter].
    split; intros Hb.
    + apply andb_prop in Hb as [Hb1 Hb2]. rewrite (Hopt Hb1).
      destruct (exec_list _ _) as [io1 r]; cbn [fst with_opts io_opts] in *. now rewrite (Ho Hb2).
    + destruct r0 as [u|w|]; [|reflexivity|reflexivity].
      destruct (exec_list _ _) as [io1 r]; cbn [fst with_opts io_prefix] in *. now rewrite (Hp Hb).
Qed.

(** ** References *)
Lemma lookup_ref_spec s rsegs ref :
  match lookup_ref T s rsegs ref with
  | Some v => exists k, k <= length rsegs /\
      st_try_get T s (prefix_str (firstn k (rev rsegs)) ++ ref)%string = Some v /\
      forall j, k < j <= length rsegs -> st_try_get T s (prefix_str (firstn j (rev rsegs)) ++ ref)%string = None
  | None => forall j, j <= length rsegs -> st_try_get T s (prefix_str (firstn j (rev rsegs)) ++ ref)%string = None
  end.
Proof.
  induction rsegs as [|x t IH]; cbn [lookup_ref].
  - destruct (st_try_get T s ref) as [v|] eqn:E.
    + exists 0. split; [auto|]. split; [exact E|]. cbn [length]. intros; lia.
    + cbn [length]. intros j Hj. assert (j = 0) as -> by lia. exact E.
  - assert (Hfull : firstn (length (x :: t)) (rev (x :: t)) = rev (x :: t)).
    { rewrite <- (rev_length (x :: t)). apply firstn_all. }
    assert (Hpre : forall j, j <= length t -> firstn j (rev (x :: t)) = firstn j (rev t)).
    { intros j Hj. cbn [rev]. rewrite firstn_app, rev_length.
      replace (j - length t) with 0 by lia. cbn. now rewrite app_nil_r. }
    destruct (st_try_get T s (prefix_str (rev (x :: t)) ++ ref)) as [v|] eqn:E.
    + exists (length (x :: t)). split; [auto|]. split; [now rewrite Hfull|]. intros; lia.
    + destruct (lookup_ref T s t ref) as [v|].
      * destruct IH as (k & Hk & H1 & H2). exists k. cbn [length]. split; [lia|]. split; [now rewrite Hpre|].
        intros j Hj. assert (j <= length t \/ j = length (x :: t)) as [H| ->] by (cbn [length]; lia).
        -- rewrite Hpre by auto. apply H2. lia.
        -- now rewrite Hfull.
      * cbn [length]. intros j Hj. assert (j <= length t \/ j = length (x :: t)) as [H| ->] by (cbn [length]; lia).
        -- rewrite Hpre by auto. apply IH. lia.
        -- now rewrite Hfull.
Qed.
End exec.

(** ** objective_info programs *)
Section oi.
Variable X : xo_env.
Lemma exec_list_ext l io : oi_ext (io_st io) (io_st (fst (exec_list X oi_store l io))).
Proof. apply (exec_list_rel X oi_store oi_ext oi_ext_refl oi_ext_trans oi_add_ext). Qed.
Lemma exec_ext c io : oi_ext (io_st io) (io_st (fst (exec X oi_store c io))).
Proof. apply (exec_rel X oi_store oi_ext oi_ext_refl oi_ext_trans oi_add_ext). Qed.
Lemma exec_inv c io : oi_inv (io_st io) -> oi_inv (io_st (fst (exec X oi_store c io))).
Proof.
  apply (exec_rel X oi_store (fun a b => oi_inv a -> oi_inv b)); auto. intros s p. apply oi_add_inv.
Qed.

(** ** Replaying a program on a search point *)
Definition sp_wf (p : search_point) : Prop := length (sp_values p) = oi_dim (sp_info p).
Definition covers (p : search_point) (o : obj_info) : Prop := forall n, oi_try_get o n <> None -> sp_try_get p n <> None.

Lemma sp_try_get_known p n : sp_wf p -> (sp_try_get p n <> None <-> oi_try_get (sp_info p) n <> None).
Proof.
  intros W. unfold sp_try_get, oi_try_get, find_index.
  destruct (find_pos n (oi_free (sp_info p))) as [i|] eqn:E.
  - apply find_pos_Some in E as (q & H1 & H2 & _ & H4). rewrite H2. unfold sp_wf, oi_dim in W. rewrite <- W in H4.
    apply nth_error_Some in H4. split; intros; [discriminate|exact H4].
  - apply find_pos_None in E. rewrite E. reflexivity.
Qed.
Lemma covers_self p : sp_wf p -> covers p (sp_info p).
Proof. intros W n H. now apply sp_try_get_known. Qed.
Lemma covers_mono p a b : oi_ext a b -> covers p b -> covers p a.
Proof.
  intros (_ & He & _) Hc n Hn. apply Hc. destruct (oi_try_get a n) as [v|] eqn:E; [|congruence].
  rewrite (He n v E). discriminate.
Qed.


Lemma covers_try_get p o n v : covers p o -> oi_try_get o n = Some v -> exists w, sp_try_get p n = Some w.
Proof. intros Hc H. specialize (Hc n). rewrite H in Hc. destruct (sp_try_get p n); [eauto|]. exfalso. apply Hc; congruence. Qed.

Definition on_point (io : pario obj_info) (p : search_point) : pario search_point :=
  Build_pario (io_prefix io) (io_opts io) p.
(** the search point's answer to each named request *)
Definition answers (p : search_point) (r r' : option string * f64) : Prop :=
  fst r' = fst r /\ forall n w, fst r = Some n -> sp_try_get p n = Some w -> snd r' = w.

Lemma covers_lookup_ref p o rsegs ref v : covers p o -> lookup_ref oi_store o rsegs ref = Some v ->
  exists w, lookup_ref sp_store p rsegs ref = Some w.
Proof.
  intros Hc. induction rsegs as [|x t IH]; cbn [lookup_ref]; cbn [oi_store sp_store st_try_get].
  - intros H. eapply covers_try_get; eauto.
  - destruct (oi_try_get o _) eqn:E.
    + intros [= <-]. destruct (covers_try_get _ _ _ _ Hc E) as (w & ->). eauto.
    + intros H. destruct (sp_try_get p _); [eauto|]. exact (IH H).
Qed.

Lemma replay_get p io n m s lo hi io' v : io_get oi_store io n m s lo hi = (io', Ok v) -> covers p (io_st io') ->
  io_prefix io' = io_prefix io /\ io_opts io' = io_opts io /\
  exists w, io_get sp_store (on_point io p) n m s lo hi = (on_point io p, Ok w) /\
   sp_try_get p (prefix_str (io_prefix io) ++ n) = Some w.
Proof.
  intros H Hc. pose proof (io_get_frame oi_store io n m s lo hi) as [F1 F2]. rewrite H in F1, F2. cbn [fst] in F1, F2.
  split; [exact F1|]. split; [exact F2|].
  unfold io_get in H |- *. cbn [on_point io_prefix io_st sp_store st_try_get] in *. cbn [oi_store st_try_get st_add] in H.
  destruct (oi_try_get (io_st io) _) as [u|] eqn:E.
  - injection H as <- <-. destruct (covers_try_get _ _ _ _ Hc E) as (w & Ew). rewrite Ew. eauto.
  - destruct (make_par_info _ _ _ _ _) as [q| |] eqn:Eq; try discriminate.
    destruct (oi_add (io_st io) q) as [s' r] eqn:Ea. injection H as <- ->.
    apply oi_add_Ok in Ea as [_ Ea]. apply make_par_info_Ok in Eq.
    assert (Hn : pi_name q = (prefix_str (io_prefix io) ++ n)%string).
    { destruct Eq as [-> _]. reflexivity. }
    rewrite Hn in Ea. cbn [with_st io_st] in Hc. destruct (covers_try_get _ _ _ _ Hc Ea) as (w & Ew). rewrite Ew. eauto.
Qed.

Lemma par_info_of_node_name n pn opt q : par_info_of_node n pn opt = Ok q -> pi_name q = n.
Proof. intros H. now apply parse_valid in H. Qed.

Lemma replay_node p io n pn io' v : io_get_node X oi_store io n pn = (io', Ok v) -> covers p (io_st io') ->
  io_prefix io' = io_prefix io /\ io_opts io' = io_opts io /\
  exists w, io_get_node X sp_store (on_point io p) n pn = (on_point io p, Ok w) /\
   forall full u, node_name X io n = Some full -> sp_try_get p full = Some u -> w = u.
Proof.
  intros H Hc. pose proof (io_get_node_frame X oi_store io n pn) as [F1 F2]. rewrite H in F1, F2. cbn [fst] in F1, F2.
  split; [exact F1|]. split; [exact F2|].
  unfold node_name, io_get_node in *. change (io_options (on_point io p)) with (io_options io).
  destruct (io_options io) as [opt|]; [|discriminate].
  change (full_name_of X (on_point io p) opt n) with (full_name_of X io opt n).
  cbn [on_point io_prefix io_st sp_store st_try_get] in *. cbn [oi_store st_try_get st_add] in H.
  set (full := full_name_of X io opt n) in *.
  destruct (sp_try_get p full) as [w|] eqn:Ew.
  { exists w. split; [reflexivity|]. intros f u [= <-]. congruence. }
  destruct (oi_try_get (io_st io) full) as [u|] eqn:E.
  { injection H as <- <-. exfalso. apply (Hc full); congruence. }
  destruct (starts_alpha (pn_str pn)).
  - destruct (lookup_ref oi_store (io_st io) _ _) as [u|] eqn:El; [|discriminate]. injection H as <- <-.
    destruct (covers_lookup_ref _ _ _ _ _ Hc El) as (w & Ew2). fold sp_store. rewrite Ew2.
    exists w. split; [reflexivity|]. intros f u' [= <-]. congruence.
  - destruct (xo_needs_quotes X full); [discriminate|].
    destruct (par_info_of_node full pn opt) as [q| |] eqn:Eq; try discriminate.
    destruct (is_constant q).
    + injection H as <- <-. exists (pi_mean q). split; [reflexivity|]. intros f u' [= <-]. congruence.
    + destruct (oi_add (io_st io) q) as [s' r] eqn:Ea. injection H as <- ->.
      apply oi_add_Ok in Ea as [_ Ea]. rewrite (par_info_of_node_name _ _ _ _ Eq) in Ea.
      exfalso. apply (Hc full); cbn [with_st io_st]; congruence.
Qed.

Definition replays (p : search_point) (c : cmd) : Prop := forall io io' vs,
  exec X oi_store c io = (io', Ok vs) -> covers p (io_st io') ->
  exists ws, exec X sp_store c (on_point io p) = (on_point io' p, Ok ws) /\ Forall2 (answers p) vs ws.

Lemma replay_list p l : Forall (replays p) l -> forall io io' vs,
  exec_list X oi_store l io = (io', Ok vs) -> covers p (io_st io') ->
  exists ws, exec_list X sp_store l (on_point io p) = (on_point io' p, Ok ws) /\ Forall2 (answers p) vs ws.
Proof.
  induction 1 as [|c t Hc Ht IH]; intros io io' vs; cbn [exec_list].
  - intros [= <- <-] _. exists []. auto.
  - destruct (exec X oi_store c io) as [io1 r1] eqn:E1. destruct r1 as [v1|w|]; [|discriminate|discriminate].
    destruct (exec_list X oi_store t io1) as [io2 r2] eqn:E2. destruct r2 as [v2|w|]; try discriminate.
    intros [= <- <-] Hcov.
    assert (Hcov1 : covers p (io_st io1)).
    { eapply covers_mono; [|exact Hcov]. pose proof (exec_list_ext t io1) as He. rewrite E2 in He. exact He. }
    destruct (Hc _ _ _ E1 Hcov1) as (w1 & -> & A1).
    destruct (IH _ _ _ E2 Hcov) as (w2 & -> & A2).
    exists (w1 ++ w2). split; [reflexivity|]. now apply Forall2_app.
Qed.

Lemma replay_cmd p c : replays p c.
Proof.
  induction c using cmd_ind'; intros io io' vs.
  - cbn [exec]. destruct (io_get oi_store io n m s lo hi) as [io1 r] eqn:E. destruct r as [v|w|]; try discriminate.
    intros [= <- <-] Hc. destruct (replay_get _ _ _ _ _ _ _ _ _ E Hc) as (F1 & F2 & w & -> & Hw).
    exists [(Some (prefix_str (io_prefix io) ++ n)%string, w)]. unfold on_point. rewrite F1, F2. split; [reflexivity|].
    constructor; [|constructor]. split; [reflexivity|]. cbn [fst snd]. intros n0 u [= <-] Hu. congruence.
  - cbn [exec]. destruct (io_get_node X oi_store io n pn) as [io1 r] eqn:E. destruct r as [v|w|]; try discriminate.
    intros [= <- <-] Hc. destruct (replay_node _ _ _ _ _ _ E Hc) as (F1 & F2 & w & -> & Hw).
    exists [(node_name X io n, w)]. unfold on_point. rewrite F1, F2. split; [reflexivity|].
    constructor; [|constructor]. split; [reflexivity|]. cbn [fst snd]. intros n0 u Hn Hu. eapply Hw; eauto.
  - cbn [exec]. unfold io_try_get_node. destruct (pn_child k pn) as [q|].
    + destruct (io_get_node X oi_store io n q) as [io1 r] eqn:E. destruct r as [v|w|]; try discriminate.
      intros [= <- <-] Hc. destruct (replay_node _ _ _ _ _ _ E Hc) as (F1 & F2 & w & -> & Hw).
      exists [(node_name X io n, w)]. unfold on_point. rewrite F1, F2. split; [reflexivity|].
      constructor; [|constructor]. split; [reflexivity|]. cbn [fst snd]. intros n0 u Hn Hu. eapply Hw; eauto.
    + intros [= <- <-] Hc. exists [(None, d)]. split; [reflexivity|].
      constructor; [|constructor]. split; [reflexivity|]. cbn [fst snd]. discriminate.
  - rewrite !exec_scope. change (with_prefix (on_point io p) (io_prefix (on_point io p) ++ [scope_segment p0 dot]))
      with (on_point (with_prefix io (io_prefix io ++ [scope_segment p0 dot])) p).
    destruct (exec_list X oi_store b _) as [io1 r] eqn:E. destruct r as [v|w|]; try discriminate.
    intros [= <- <-] Hc. destruct (replay_list p b H _ _ _ E Hc) as (ws & -> & A). exists ws. auto.
  - rewrite !exec_setscope. change (set_prefix (on_point io p) p0) with (on_point (set_prefix io p0) p).
    destruct (exec_list X oi_store b _) as [io1 r] eqn:E. destruct r as [v|w|]; try discriminate.
    intros [= <- <-] Hc. destruct (replay_list p b H _ _ _ E Hc) as (ws & -> & A). exists ws. auto.
  - rewrite !exec_optscope. cbn [on_point io_opts]. destruct (io_opts io) as [|o os] eqn:Eo; [discriminate|].
    destruct (scoped_options pn o) as [o' r0]. cbv zeta. destruct r0 as [u|w|]; try discriminate.
    change (with_opts (on_point io p) (o' :: o :: os)) with (on_point (with_opts io (o' :: o :: os)) p).
    destruct (exec_list X oi_store b _) as [io1 r] eqn:E. destruct r as [v|w|]; try discriminate.
    intros [= <- <-] Hc. destruct (replay_list p b H _ _ _ E Hc) as (ws & E2 & A).
    unfold on_point in E2 |- *. rewrite E2. exists ws. auto.
Qed.
Lemma replay_program p l io io' vs : exec_list X oi_store l io = (io', Ok vs) -> covers p (io_st io') ->
  exists ws, exec_list X sp_store l (on_point io p) = (on_point io' p, Ok ws) /\ Forall2 (answers p) vs ws.
Proof. apply replay_list. apply Forall_forall. intros c _. apply replay_cmd. Qed.
End oi.
