(** * C12, C13, C17, C18, C56, C57. *)
From Coq Require Import ZArith Bool.
From Flocq Require Import BinarySingleNaN.
From Verif Require Import Prelude Flt FltFacts Round8 ShowNum ShowNumFacts PropNode ParInfo ParInfoFacts FlatMap
  ObjInfo ObjInfoFacts ParIO ParIOFacts SearchPoint Properties_Params.

(** ** C12 *)
Theorem C12_is_feasible : forall o vec, length vec = oi_dim o ->
  (forall v, In v vec -> fisnan v = false) ->
  (forall p, In p (oi_free o) -> fisnan (pi_min p) = false /\ fisnan (pi_max p) = false) ->
  exists b, is_feasible o vec = Ok b /\
    (b = true <-> Forall2 (fun p v => is_within_range p v = true) (oi_free o) vec) /\
    (b = true <-> Forall2 (fun p v => fle (pi_min p) v = true /\ fle v (pi_max p) = true) (oi_free o) vec).
Proof.
  intros o vec Hl Hv Hb. destruct (feasible_list_spec (oi_free o) vec Hl) as (b & H1 & H2).
  exists b. split; [exact H1|].
  assert (Hgen : forall l vs, (forall v, In v vs -> fisnan v = false) ->
     (forall p, In p l -> fisnan (pi_min p) = false /\ fisnan (pi_max p) = false) ->
     (Forall2 (fun p v => fgt v (pi_max p) = false /\ flt v (pi_min p) = false) l vs <->
      Forall2 (fun p v => fle (pi_min p) v = true /\ fle v (pi_max p) = true) l vs)).
  { clear. intros l. induction l as [|p t IH]; intros vs Hv Hb.
    - split; intros H; inversion_clear H; constructor.
    - destruct vs as [|v vs]; [split; intros H; inversion_clear H|].
      assert (Hnv := Hv v (or_introl eq_refl)). destruct (Hb p (or_introl eq_refl)) as [Hn1 Hn2].
      assert (Hp : (fgt v (pi_max p) = false /\ flt v (pi_min p) = false) <-> (fle (pi_min p) v = true /\ fle v (pi_max p) = true)).
      { unfold fgt. rewrite !flt_key, !fle_key, Hnv, Hn1, Hn2. cbn [negb andb].
        rewrite !Z.ltb_ge, !Z.leb_le. lia. }
      assert (Ht := IH vs (fun v h => Hv v (or_intror h)) (fun p h => Hb p (or_intror h))).
      split; intros H; inversion_clear H; constructor; try (now apply Hp); now apply Ht. }
  assert (Hw : Forall2 (fun p v => is_within_range p v = true) (oi_free o) vec <->
               Forall2 (fun p v => fle (pi_min p) v = true /\ fle v (pi_max p) = true) (oi_free o) vec).
  { split; apply Forall2_impl'; intros p v; unfold is_within_range, fge; [apply andb_prop|]. intros [-> ->]. reflexivity. }
  rewrite Hw, H2. split; apply (Hgen _ _ Hv Hb).
Qed.

(** What clamp does to one component. *)
Definition clamp_one (lo hi v v' : f64) : Prop :=
  (fle lo v = true -> fle v hi = true -> v' = v) /\
  (fgt v hi = true -> v' = hi) /\
  (flt v lo = true -> fle lo hi = true -> v' = lo) /\
  (fle lo hi = true -> fisnan v = false -> fle lo v' = true /\ fle v' hi = true).
Theorem C12_clamp : forall o vec, length vec = oi_dim o ->
  exists vec', clamp o vec = Ok vec' /\ length vec' = length vec /\
   (forall i p v v', nth_error (oi_free o) i = Some p -> nth_error vec i = Some v -> nth_error vec' i = Some v' ->
      clamp_one (pi_min p) (pi_max p) v v') /\
   (* a feasible vector is unchanged, and the result is feasible when min <= max everywhere and no component is NaN *)
   (Forall2 (fun p v => is_within_range p v = true) (oi_free o) vec -> vec' = vec) /\
   ((forall p, In p (oi_free o) -> fle (pi_min p) (pi_max p) = true) -> (forall v, In v vec -> fisnan v = false) ->
      is_feasible o vec' = Ok true /\ Forall2 (fun p v => is_within_range p v = true) (oi_free o) vec').
Proof.
  intros o vec. unfold oi_dim, clamp, is_feasible. generalize (oi_free o) as l. clear o. intros l. revert vec.
  induction l as [|p t IH]; intros [|v vs] Hl; try discriminate; cbn [clamp_list].
  - exists []. split; [reflexivity|]. split; [reflexivity|]. split; [intros [|i]; discriminate|].
    split; [reflexivity|]. intros _ _. split; [reflexivity|constructor].
  - injection Hl as Hl. destruct (IH vs Hl) as (r & H1 & H2 & H3 & H4 & H5). rewrite H1. cbn [obind].
    set (v' := if negb (fis_between v (pi_min p) (pi_max p)) then fclamped v (pi_min p) (pi_max p) else v).
    assert (Hone : clamp_one (pi_min p) (pi_max p) v v').
    { unfold clamp_one, v', fis_between, fclamped, fge, fgt.
      rewrite !flt_key, !fle_key.
      destruct (fisnan v) eqn:Nv, (fisnan (pi_min p)) eqn:Nl, (fisnan (pi_max p)) eqn:Nh; cbn [negb andb];
        destruct (Z.leb_spec (fkey v) (fkey (pi_max p))); destruct (Z.leb_spec (fkey (pi_min p)) (fkey v));
        destruct (Z.leb_spec (fkey (pi_min p)) (fkey (pi_max p))); destruct (Z.ltb_spec (fkey (pi_max p)) (fkey v));
        destruct (Z.ltb_spec (fkey v) (fkey (pi_min p))); cbn [negb andb]; try lia;
        (split; [intros; first [reflexivity|discriminate|lia]|]; split; [intros; first [reflexivity|discriminate|lia]|];
         split; [intros; first [reflexivity|discriminate|lia]|]); intros; try discriminate;
        rewrite ?Nv, ?Nl, ?Nh; cbn [negb andb]; split; first [reflexivity|discriminate|apply Z.leb_le; lia]. }
    exists (v' :: r). split; [reflexivity|]. split; [cbn [length]; now rewrite H2|]. split; [|split].
    + intros [|i] q w w'; cbn [nth_error].
      * intros [= <-] [= <-] [= <-]. exact Hone.
      * apply H3.
    + intros H. inversion_clear H as [|? ? ? ? Hw Ht]. f_equal; [|auto]. unfold is_within_range, fge in Hw.
      apply andb_prop in Hw as [Hw1 Hw2]. now apply Hone.
    + intros Hb Hn. destruct H5 as [H5 H6]; [intros; apply Hb; now right|intros; apply Hn; now right|].
      destruct Hone as (_ & _ & _ & Hr). specialize (Hr (Hb p (or_introl eq_refl)) (Hn v (or_introl eq_refl))) as [Hr1 Hr2].
      split.
      * cbn [feasible_list]. assert (fgt v' (pi_max p) || flt v' (pi_min p) = false) as ->; [|exact H5].
        clear - Hr1 Hr2. generalize dependent v'. intros v' H1 H2. unfold fgt. apply orb_false_iff. split; fsolve.
      * constructor; [|exact H6]. unfold is_within_range, fge. now rewrite Hr1, Hr2.
Qed.
(** Shorter vectors are read out of bounds; NaN counts as feasible although not within range. *)
Theorem C12_short_vector_undefined : forall o vec, length vec < oi_dim o -> clamp o vec = Undef.
Proof.
  intros o vec. unfold oi_dim, clamp. generalize (oi_free o) as l. intros l. revert vec.
  induction l as [|p t IH]; intros [|v vs] Hl; cbn [length] in *; try lia; cbn [clamp_list]; [reflexivity|].
  rewrite IH by lia. reflexivity.
Qed.
Theorem C12_nan_infeasible_refuted : forall o, (forall p, In p (oi_free o) -> is_within_range p fnan = false) /\
  is_feasible o (map (fun _ => fnan) (oi_free o)) = Ok true.
Proof.
  intros o. split.
  - intros p _. unfold is_within_range, fge. rewrite fle_key. cbn. now rewrite andb_false_r.
  - unfold is_feasible. induction (oi_free o) as [|p t IH]; [reflexivity|]. cbn [map feasible_list].
    unfold fgt. rewrite !flt_key. cbn. rewrite andb_false_r. cbn. exact IH.
Qed.
Example C12_nonvacuous : let p := {| pi_name := "x"; pi_mean := fofZ 0; pi_std := fofZ 1; pi_min := fofZ (-1); pi_max := fofZ 1 |} in
  is_feasible (info_of_pars [p; p] true) [fofZ 0; fofZ 1] = Ok true /\ is_feasible (info_of_pars [p; p] true) [fofZ 0; fofZ 2] = Ok false /\
  match clamp (info_of_pars [p; p] true) [fofZ 0; fofZ 2] with Ok [a; b] => f64_same a (fofZ 0) && f64_same b (fofZ 1) = true | _ => False end.
Proof. cbv zeta. split; [vm_compute; reflexivity|]. split; vm_compute; reflexivity. Qed.

(** ** C13 *)
Theorem C13_set_mean_std : forall o mean std, length mean = oi_dim o -> length std = oi_dim o ->
  exists o', set_mean_std o mean std = Ok o' /\
   oi_locked o' = oi_locked o /\ oi_minimize o' = oi_minimize o /\ oi_target o' = oi_target o /\ oi_name o' = oi_name o /\
   oi_dim o' = oi_dim o /\
   forall i p m s, nth_error (oi_free o) i = Some p -> nth_error mean i = Some m -> nth_error std i = Some s ->
     nth_error (oi_free o') i = Some {| pi_name := pi_name p; pi_mean := m; pi_std := s; pi_min := pi_min p; pi_max := pi_max p |}.
Proof.
  intros o mean std Hm Hs. unfold set_mean_std. rewrite Hm, Hs, Nat.eqb_refl. cbn [andb assert_ obind].
  eexists. split; [reflexivity|]. cbn [with_free oi_locked oi_minimize oi_target oi_name oi_free].
  split; [reflexivity|]. split; [reflexivity|]. split; [reflexivity|]. split; [reflexivity|].
  unfold oi_dim in *. cbn [oi_free with_free]. revert mean std Hm Hs. induction (oi_free o) as [|q t IH]; intros [|m0 mt] [|s0 st] Hm Hs; try discriminate.
  - split; [reflexivity|]. intros [|i]; discriminate.
  - injection Hm as Hm. injection Hs as Hs. destruct (IH mt st Hm Hs) as [IH1 IH2].
    split; [cbn [set_mean_std_list length]; now rewrite IH1|].
    intros [|i] p m s; cbn [nth_error set_mean_std_list]; [|apply IH2]. intros [= <-] [= <-] [= <-]. reflexivity.
Qed.
Theorem C13_set_std_minimum : forall o value factor, let o' := set_std_minimum o value factor in
  oi_locked o' = oi_locked o /\ oi_minimize o' = oi_minimize o /\ oi_target o' = oi_target o /\ oi_name o' = oi_name o /\
  oi_dim o' = oi_dim o /\
  forall i p, nth_error (oi_free o) i = Some p ->
   exists p', nth_error (oi_free o') i = Some p' /\
     pi_name p' = pi_name p /\ pi_mean p' = pi_mean p /\ pi_min p' = pi_min p /\ pi_max p' = pi_max p /\
     let floor := fadd (fmul factor (fabs (pi_mean p))) value in
     (flt (pi_std p) floor = true -> pi_std p' = floor) /\
     (flt (pi_std p) floor = false -> pi_std p' = pi_std p) /\
     (fisnan (pi_std p) = false -> fisnan floor = false -> fle floor (pi_std p') = true /\ fle (pi_std p) (pi_std p') = true).
Proof.
  intros o v f o'. split; [reflexivity|]. split; [reflexivity|]. split; [reflexivity|]. split; [reflexivity|].
  split; [unfold oi_dim, o'; cbn; now rewrite map_length|].
  intros i p Hp. unfold o', set_std_minimum. cbn [with_free oi_free].
  eexists. split; [erewrite map_nth_error by exact Hp; reflexivity|]. cbn [with_mean_std pi_name pi_mean pi_min pi_max pi_std].
  split; [reflexivity|]. split; [reflexivity|]. split; [reflexivity|]. split; [reflexivity|]. cbv zeta.
  generalize (fadd (fmul f (fabs (pi_mean p))) v). intros x. unfold fmax2.
  split; [now intros ->|]. split; [now intros ->|]. intros H1 H2. rewrite !fle_key. rewrite flt_key. rewrite H1, H2. cbn [negb andb].
  destruct (Z.ltb_spec (fkey (pi_std p)) (fkey x)); rewrite ?H1, ?H2; cbn [negb andb]; rewrite !Z.leb_le; lia.
Qed.

(** ** C17 *)
Theorem C17_is_better_strict_order : forall o,
  (forall a, is_better o a a = false) /\
  (forall a b, is_better o a b = true -> is_better o b a = false) /\
  (forall a b c, is_better o a b = true -> is_better o b c = true -> is_better o a c = true) /\
  (forall a b, fisnan a = false -> fisnan b = false -> feq a b = false -> is_better o a b = true \/ is_better o b a = true) /\
  (forall a, is_better o a fnan = false /\ is_better o fnan a = false) /\
  (forall a, is_finite a = true -> is_better o (worst_fitness o) a = false /\ is_better o a (best_fitness_value o) = false).
Proof.
  intros o. unfold is_better, worst_fitness, best_fitness_value, fgt.
  destruct (oi_minimize o).
  - split; [apply flt_irrefl|]. split; [apply flt_asym|]. split; [apply flt_trans|]. split; [apply flt_total|]. split.
    + intros a. rewrite !flt_key. cbn. now rewrite andb_false_r.
    + intros a Ha. pose proof (fkey_le_max a Ha) as H1. pose proof (fkey_ge_lowest a Ha) as H2. rewrite !flt_key. split.
      * destruct (Z.ltb_spec (fkey fmaxval) (fkey a)); [lia|apply andb_false_r].
      * destruct (Z.ltb_spec (fkey a) (fkey flowest)); [lia|apply andb_false_r].
  - split; [apply flt_irrefl|]. split; [intros a b; apply flt_asym|]. split; [intros a b c H1 H2; eapply flt_trans; eauto|].
    split; [intros a b H1 H2 H3; destruct (flt_total a b H1 H2 H3); auto|]. split.
    + intros a. rewrite !flt_key. cbn. now rewrite andb_false_r.
    + intros a Ha. pose proof (fkey_le_max a Ha) as H1. pose proof (fkey_ge_lowest a Ha) as H2. rewrite !flt_key. split.
      * destruct (Z.ltb_spec (fkey a) (fkey flowest)); [lia|apply andb_false_r].
      * destruct (Z.ltb_spec (fkey fmaxval) (fkey a)); [lia|apply andb_false_r].
Qed.
(** Sharpness: an infinite fitness is worse than worst_fitness(); and because of NaN,
    incomparability is not transitive (not a strict weak order). *)
Theorem C17_infinity_not_worse_than_worst_refuted : forall o, is_better o (worst_fitness o) (finf (negb (oi_minimize o))) = true.
Proof. intros o. unfold is_better, worst_fitness. destruct (oi_minimize o); vm_compute; reflexivity. Qed.
Theorem C17_strict_weak_order_refuted : forall o, exists a b c,
  is_better o a b = false /\ is_better o b a = false /\ is_better o b c = false /\ is_better o c b = false /\
  (is_better o a c = true \/ is_better o c a = true).
Proof.
  intros o. exists (fofZ 1), fnan, (fofZ 2). unfold is_better. destruct (oi_minimize o); vm_compute; auto 10.
Qed.

(** ** C18 *)
Theorem C18_find_best_fitness : forall o f, f <> [] -> (forall x, In x f -> fisnan x = false) ->
  exists best, nth_error f (find_best_fitness o f) = Some best /\
   (forall j x, nth_error f j = Some x -> is_better o x best = false) /\
   (forall j x, nth_error f j = Some x -> j < find_best_fitness o f -> is_better o best x = true).
Proof.
  intros o f Hne Hn. unfold find_best_fitness, is_better, fgt. destruct (oi_minimize o).
  - destruct (min_element_spec flt fkey f Hne) as (b & Hb & H).
    { intros a c Ha Hc. rewrite flt_key, (Hn a Ha), (Hn c Hc). reflexivity. }
    assert (Nb : fisnan b = false) by (apply Hn; eapply nth_error_In; eauto).
    exists b. split; [exact Hb|]. split.
    + intros j x Hx. destruct (H j x Hx) as [H1 _]. rewrite flt_key. destruct (Z.ltb_spec (fkey x) (fkey b)); [lia|apply andb_false_r].
    + intros j x Hx Hj. destruct (H j x Hx) as [_ H2]. rewrite flt_key, Nb, (Hn x) by (eapply nth_error_In; eauto).
      cbn [negb andb]. apply Z.ltb_lt. auto.
  - destruct (min_element_spec (fun x b => flt b x) (fun x => (- fkey x)%Z) f Hne) as (b & Hb & H).
    { intros a c Ha Hc. rewrite flt_key, (Hn a Ha), (Hn c Hc). cbn [negb andb].
      destruct (Z.ltb_spec (fkey c) (fkey a)), (Z.ltb_spec (- fkey a) (- fkey c)); lia. }
    assert (Nb : fisnan b = false) by (apply Hn; eapply nth_error_In; eauto).
    exists b. split; [exact Hb|]. split.
    + intros j x Hx. destruct (H j x Hx) as [H1 _]. rewrite flt_key. destruct (Z.ltb_spec (fkey b) (fkey x)); [lia|apply andb_false_r].
    + intros j x Hx Hj. destruct (H j x Hx) as [_ H2]. rewrite flt_key, Nb, (Hn x) by (eapply nth_error_In; eauto).
      cbn [negb andb]. apply Z.ltb_lt. specialize (H2 Hj). lia.
Qed.
(** Sharpness: a NaN in front hides every better value. *)
Theorem C18_nan_ignored_refuted : forall o, find_best_fitness o [fnan; fofZ 1] = 0.
Proof. intros o. unfold find_best_fitness. destruct (oi_minimize o); vm_compute; reflexivity. Qed.
Example C18_nonvacuous : find_best_fitness (empty_info true) [fofZ 3; fofZ 1; fofZ 1; fofZ 2] = 1 /\
  find_best_fitness (empty_info false) [fofZ 1; fofZ 3; fofZ 3] = 1.
Proof. split; vm_compute; reflexivity. Qed.

(** ** C56 *)
Theorem C56_optional_parameters : forall S X (T : store S) (io : pario S) name pn,
  (* par_io::try_get *)
  (forall key d, pn_child key pn = None -> io_try_get_node X T io name pn key d = (io, Ok d)) /\
  (forall key d c, pn_child key pn = Some c -> io_try_get_node X T io name pn key d = io_get_node X T io name c) /\
  (* try_get_par: the child, else what the query finds, else the default *)
  (forall d, pn_child name pn = None -> xo_query X name pn = None -> try_get_par X T io name pn d = (io, Ok d)) /\
  (forall d c, pn_child name pn = Some c -> try_get_par X T io name pn d = io_get_node X T io name c) /\
  (forall d c, pn_child name pn = None -> xo_query X name pn = Some c -> try_get_par X T io name pn d = io_get_node X T io name c) /\
  (forall m s lo hi, pn_child name pn = None -> xo_query X name pn = None ->
     try_get_par_full X T io name pn m s lo hi = io_get T io name m s lo hi) /\
  (forall m s lo hi c, pn_child name pn = Some c -> try_get_par_full X T io name pn m s lo hi = io_get_node X T io name c) /\
  (forall m s lo hi c, pn_child name pn = None -> xo_query X name pn = Some c ->
     try_get_par_full X T io name pn m s lo hi = io_get_node X T io name c) /\
  (* pairs *)
  (forall d, pn_child name pn = None -> try_get_par_pair X T io name pn d = (io, Ok d)) /\
  (forall d c, pn_child name pn = Some c -> pn_size c < 2 -> exists w, try_get_par_pair X T io name pn d = (io, Throw w)) /\
  (forall d c k0 c0 k1 c1 rest io1 v0 io2 v1, pn_child name pn = Some c -> pn_children c = (k0, c0) :: (k1, c1) :: rest ->
     io_get_node X T io (name ++ ".0") c0 = (io1, Ok v0) -> io_get_node X T io1 (name ++ ".1") c1 = (io2, Ok v1) ->
     try_get_par_pair X T io name pn d = (io2, Ok (v0, v1))) /\
  (* arrays: element j is the optional parameter [name.j] with default [ds[j]], asked for in
     order; [at j] is the store before element j *)
  (forall show ds io' vs, try_get_par_array_from X T 0 io name show pn ds = (io', Ok vs) ->
     length vs = length ds /\
     exists at_ : nat -> pario S, at_ 0 = io /\ at_ (length ds) = io' /\
       forall j d, nth_error ds j = Some d ->
         exists v, nth_error vs j = Some v /\ try_get_par X T (at_ j) (name ++ "." ++ show j) pn d = (at_ (Datatypes.S j), Ok v)) /\
  (forall show ds, (forall j, j < length ds -> pn_child (name ++ "." ++ show j) pn = None /\ xo_query X (name ++ "." ++ show j) pn = None) ->
     try_get_par_array_from X T 0 io name show pn ds = (io, Ok ds)).
Proof.
  intros S X T io name pn. unfold io_try_get_node, try_get_par, try_get_par_full, try_get_par_pair, par_node.
  split; [intros key d ->; reflexivity|]. split; [intros key d c ->; reflexivity|].
  split; [intros d -> ->; reflexivity|]. split; [intros d c ->; reflexivity|]. split; [intros d c -> ->; reflexivity|].
  split; [intros m s lo hi -> ->; reflexivity|]. split; [intros m s lo hi c ->; reflexivity|]. split; [intros m s lo hi c -> ->; reflexivity|].
  split; [intros d ->; reflexivity|]. split; [|split; [|split]].
  - intros d c -> Hs. apply Nat.ltb_lt in Hs. rewrite Hs. eauto.
  - intros d c k0 c0 k1 c1 rest ioa v0 iob v1 -> Hc H0 H1. unfold pn_size, pn_child_at. rewrite Hc. cbn [length Nat.ltb Nat.leb nth_error].
    now rewrite H0, H1.
  - intros show ds io' vs H. fold (par_node X) in *.
    assert (G : forall ds i io io' vs, try_get_par_array_from X T i io name show pn ds = (io', Ok vs) ->
      length vs = length ds /\ exists at_ : nat -> pario S, at_ 0 = io /\ at_ (length ds) = io' /\
       forall j d, nth_error ds j = Some d ->
         exists v, nth_error vs j = Some v /\ try_get_par X T (at_ j) (name ++ "." ++ show (i + j)) pn d = (at_ (Datatypes.S j), Ok v)).
    { clear. induction ds as [|d t IH]; intros i io io' vs; cbn [try_get_par_array_from].
      - intros [= <- <-]. split; [reflexivity|]. exists (fun _ => io). split; [reflexivity|]. split; [reflexivity|].
        intros [|j] d; discriminate.
      - destruct (try_get_par X T io (name ++ "." ++ show i) pn d) as [ioa [v|w|]] eqn:E0; try discriminate.
        destruct (try_get_par_array_from X T (Datatypes.S i) ioa name show pn t) as [iob [l|w|]] eqn:E; try discriminate.
        intros [= <- <-]. destruct (IH _ _ _ _ E) as (HL & f & F0 & F1 & F2). cbn [length]. split; [congruence|].
        exists (fun j => match j with O => io | Datatypes.S j' => f j' end). split; [reflexivity|]. split; [exact F1|].
        intros [|j] d'; cbn [nth_error].
        + intros [= <-]. exists v. split; [reflexivity|]. rewrite Nat.add_0_r, F0. exact E0.
        + intros Hj. destruct (F2 j d' Hj) as (v' & V1 & V2). exists v'. split; [exact V1|].
          replace (i + Datatypes.S j) with (Datatypes.S i + j) by lia. exact V2. }
    destruct (G ds 0 io io' vs H) as (HL & at_ & A0 & A1 & A2). split; [exact HL|]. exists at_.
    split; [exact A0|]. split; [exact A1|]. exact A2.
  - intros show ds H.
    assert (G : forall ds i io, (forall j, i <= j < i + length ds -> pn_child (name ++ "." ++ show j) pn = None /\ xo_query X (name ++ "." ++ show j) pn = None) ->
      try_get_par_array_from X T i io name show pn ds = (io, Ok ds)).
    { clear. induction ds as [|d t IH]; intros i io H; cbn [try_get_par_array_from]; [reflexivity|].
      destruct (H i) as [H1 H2]; [cbn [length]; lia|]. unfold try_get_par, par_node. rewrite H1, H2.
      rewrite IH; [reflexivity|]. intros j Hj. apply H. cbn [length]. lia. }
    apply G. intros j Hj. apply H. lia.
Qed.

(** ** C57 *)
Lemma digit_char_inj a b : digit a -> digit b -> digit_char a = digit_char b -> a = b.
Proof. intros Ha Hb E. destruct (digit_char_ok a Ha) as [_ H1], (digit_char_ok b Hb) as [_ H2]. congruence. Qed.
Lemma cons_inv {A} (a b : A) l m : a :: l = b :: m -> a = b /\ l = m.
Proof. now intros [= -> ->]. Qed.
Lemma show_digits_inj a b : Forall digit a -> Forall digit b -> show_digits a = show_digits b -> a = b.
Proof.
  intros Ha. revert b. induction Ha as [|x a Hx Ha IH]; intros b Hb; destruct Hb as [|y b Hy Hb]; intros E; try (cbn [show_digits map] in E; discriminate); auto.
  apply cons_inv in E. destruct E as [E1 E2]. f_equal; [now apply digit_char_inj|now apply IH].
Qed.
Lemma pow10_gt n : (Z.of_nat n < 10 ^ Z.of_nat (S n))%Z.
Proof.
  induction n as [|n IH]; [reflexivity|]. rewrite (Nat2Z.inj_succ (S n)), Z.pow_succ_r by lia. lia.
Qed.
Definition nat_digits (n : nat) : list Z := if Nat.eqb n 0 then [0%Z] else zdigits (S n) (Z.of_nat n).
Lemma show_nat_digits n : show_nat n = string_of_list_ascii (show_digits (nat_digits n)).
Proof. unfold show_nat, nat_digits. destruct (Nat.eqb n 0); reflexivity. Qed.
Lemma nat_digits_spec n : dval 0 (nat_digits n) = Z.of_nat n /\ Forall digit (nat_digits n).
Proof.
  unfold nat_digits. destruct (Nat.eqb_spec n 0) as [->|Hn].
  - split; [reflexivity|]. constructor; [unfold digit; lia|constructor].
  - pose proof (pow10_gt n). destruct (zdigits_spec (S n) (Z.of_nat n)) as (H1 & H2 & _); [lia|]. auto.
Qed.
Lemma show_nat_inj a b : show_nat a = show_nat b -> a = b.
Proof.
  rewrite !show_nat_digits. intros H. apply (f_equal list_ascii_of_string) in H. rewrite !list_ascii_of_string_of_list_ascii in H.
  destruct (nat_digits_spec a) as [A1 A2], (nat_digits_spec b) as [B1 B2].
  apply show_digits_inj in H; auto. rewrite H in A1. lia.
Qed.
Lemma omap_Ok {A B} (f : A -> outcome B) l r : omap f l = Ok r <-> Forall2 (fun x y => f x = Ok y) l r.
Proof.
  revert r. induction l as [|x t IH]; intros r; cbn [omap].
  - split; [intros [= <-]; constructor|]. intros H. now inversion_clear H.
  - split.
    + destruct (f x) eqn:E; try discriminate. cbn [obind]. destruct (omap f t) as [q| |] eqn:E2; try discriminate.
      intros [= <-]. constructor; [exact E|]. now apply IH.
    + intros H. inversion_clear H as [|? y ? q H1 H2]. rewrite H1. cbn [obind]. apply IH in H2. now rewrite H2.
Qed.
Lemma Forall2_length' {A B} (P : A -> B -> Prop) l r : Forall2 P l r -> length l = length r.
Proof. induction 1; cbn [length]; congruence. Qed.
Lemma Forall2_nth_error {A B} (P : A -> B -> Prop) l r : Forall2 P l r -> forall i x y,
  nth_error l i = Some x -> nth_error r i = Some y -> P x y.
Proof.
  induction 1 as [|x0 y0 l r H _ IH]; intros [|i] x y; cbn [nth_error]; try discriminate.
  - intros [= <-] [= <-]. exact H.
  - apply IH.
Qed.

(** The generated parameters: named by the decimal index. *)
Definition generated (o : obj_info) (d : nat) (par : nat -> f64 * f64 * f64 * f64) : Prop :=
  oi_dim o = d /\ oi_locked o = [] /\ oi_minimize o = true /\ oi_target o = fzero /\ NoDup (map pi_name (oi_free o)) /\
  forall i, i < d -> let '(m, s, lo, hi) := par i in
    nth_error (oi_free o) i = Some {| pi_name := show_nat i; pi_mean := m; pi_std := s; pi_min := lo; pi_max := hi |} /\
    fle fzero s = true /\ fle lo m = true /\ fle m hi = true.
Lemma make_generated d par o :
  (let* l := omap (fun i => let '(m, s, lo, hi) := par i in make_par_info (show_nat i) m s lo hi) (seq 0 d) in Ok (info_of_pars l true)) = Ok o ->
  generated o d par.
Proof.
  intros H. apply obind_Ok in H as (l & H1 & [= <-]). apply omap_Ok in H1.
  assert (Hn : forall i y, i < d -> nth_error l i = Some y -> (let '(m, s, lo, hi) := par i in make_par_info (show_nat i) m s lo hi) = Ok y).
  { intros i y Hi Hy. apply (Forall2_nth_error _ _ _ H1 i i y); [|exact Hy].
    rewrite (nth_error_nth' _ 0) by (rewrite seq_length; lia). now rewrite seq_nth. }
  assert (Hl : length l = d) by (rewrite <- (Forall2_length' _ _ _ H1); apply seq_length).
  assert (Hpar : forall i, i < d -> exists y, nth_error l i = Some y).
  { intros i Hi. destruct (nth_error l i) eqn:E; [eauto|]. apply nth_error_None in E. lia. }
  assert (Hname : forall i y, nth_error l i = Some y -> pi_name y = show_nat i).
  { intros i y Hy. assert (i < d) by (rewrite <- Hl; apply nth_error_Some; congruence). specialize (Hn i y H Hy).
    destruct (par i) as [[[m s] lo] hi]. apply make_par_info_Ok in Hn. destruct Hn as [-> _]. reflexivity. }
  split; [exact Hl|]. split; [reflexivity|]. split; [reflexivity|]. split; [reflexivity|]. split.
  - cbn [info_of_pars oi_free]. apply NoDup_nth_error. intros i j Hi E. rewrite map_length in Hi.
    destruct (nth_error l i) as [y|] eqn:Ei; [|apply nth_error_None in Ei; lia].
    rewrite (map_nth_error _ _ _ Ei) in E. destruct (nth_error l j) as [z|] eqn:Ej.
    + rewrite (map_nth_error _ _ _ Ej) in E. injection E as E. rewrite (Hname _ _ Ei), (Hname _ _ Ej) in E. now apply show_nat_inj.
    + exfalso. assert (nth_error (map pi_name l) j = None) as E2 by (apply nth_error_None; rewrite map_length; now apply nth_error_None).
      congruence.
  - intros i Hi. destruct (Hpar i Hi) as (y & Hy). specialize (Hn i y Hi Hy). destruct (par i) as [[[m s] lo] hi].
    apply make_par_info_Ok in Hn. cbn [info_of_pars oi_free]. rewrite Hy. destruct Hn as (-> & Hn). split; [reflexivity|now apply is_valid_iff in Hn].
Qed.
Lemma make_generated_conv d par :
  (forall i, i < d -> let '(m, s, lo, hi) := par i in fle fzero s = true /\ fle lo m = true /\ fle m hi = true) ->
  exists o, (let* l := omap (fun i => let '(m, s, lo, hi) := par i in make_par_info (show_nat i) m s lo hi) (seq 0 d) in Ok (info_of_pars l true)) = Ok o.
Proof.
  intros H. assert (Hq : forall i, In i (seq 0 d) -> i < d) by (intros i Hi; apply in_seq in Hi; lia).
  assert (exists l, omap (fun i => let '(m, s, lo, hi) := par i in make_par_info (show_nat i) m s lo hi) (seq 0 d) = Ok l) as (l & ->).
  { induction (seq 0 d) as [|i t IH]; cbn [omap]; [eauto|].
    destruct IH as (l & ->); [intros; apply Hq; now right|]. specialize (H i (Hq i (or_introl eq_refl))).
    destruct (par i) as [[[m s] lo] hi]. assert (E : make_par_info (show_nat i) m s lo hi = Ok {| pi_name := show_nat i; pi_mean := m; pi_std := s; pi_min := lo; pi_max := hi |}) by (apply make_par_info_Ok; split; [reflexivity|now apply is_valid_iff]).
    rewrite E. cbn [obind]. eauto. }
  cbn [obind]. eauto.
Qed.
Lemma make_generated_total d par :
  (let* l := omap (fun i => let '(m, s, lo, hi) := par i in make_par_info (show_nat i) m s lo hi) (seq 0 d) in Ok (info_of_pars l true)) <> Undef.
Proof.
  assert (omap (fun i => let '(m, s, lo, hi) := par i in make_par_info (show_nat i) m s lo hi) (seq 0 d) <> Undef) as H.
  { induction (seq 0 d) as [|i t IH]; cbn [omap]; [discriminate|]. destruct (par i) as [[[m s] lo] hi].
    destruct (make_par_info (show_nat i) m s lo hi) eqn:E; cbn [obind]; [|discriminate|now apply make_par_info_total in E].
    destruct (omap _ t); cbn [obind]; congruence. }
  destruct (omap _ _); cbn [obind]; congruence.
Qed.

Theorem C57_make_objective_info : forall d mean stdev lower upper,
  (forall o, make_objective_info d mean stdev lower upper = Ok o -> generated o d (fun _ => (mean, stdev, lower, upper))) /\
  ((exists o, make_objective_info d mean stdev lower upper = Ok o) <->
     d = 0 \/ (fle fzero stdev = true /\ fle lower mean = true /\ fle mean upper = true)) /\
  ((exists w, make_objective_info d mean stdev lower upper = Throw w) <->
     ~ (d = 0 \/ (fle fzero stdev = true /\ fle lower mean = true /\ fle mean upper = true))).
Proof.
  intros d m s lo hi.
  pose proof (make_generated d (fun _ => (m, s, lo, hi))) as G.
  assert (Hok : (exists o, make_objective_info d m s lo hi = Ok o) <-> d = 0 \/ (fle fzero s = true /\ fle lo m = true /\ fle m hi = true)).
  { split.
    - intros (o & Ho). apply G in Ho. destruct Ho as (_ & _ & _ & _ & _ & Ho). destruct d as [|d]; [now left|right].
      now destruct (Ho 0 (Nat.lt_0_succ d)).
    - intros H. apply (make_generated_conv d (fun _ => (m, s, lo, hi))). intros i Hi. destruct H as [->|H]; [lia|exact H]. }
  split; [exact G|]. split; [exact Hok|]. rewrite <- Hok.
  pose proof (make_generated_total d (fun _ => (m, s, lo, hi))) as Ht. unfold make_objective_info in *.
  destruct (let* l := _ in Ok (info_of_pars l true)) as [o|w|]; [|split; eauto; intros _ (? & ?); discriminate|congruence].
  split; [intros (w & Hw); discriminate|]. intros H. exfalso. eauto.
Qed.
Theorem C57_make_objective_info_vec : forall mean stdev lower upper,
  length stdev = length mean -> length lower = length mean -> length upper = length mean ->
  let par i := (nth i mean fnan, nth i stdev fnan, nth i lower fnan, nth i upper fnan) in
  (forall o, make_objective_info_vec mean stdev lower upper = Ok o -> generated o (length mean) par) /\
  ((exists o, make_objective_info_vec mean stdev lower upper = Ok o) <->
     forall i, i < length mean -> fle fzero (nth i stdev fnan) = true /\ fle (nth i lower fnan) (nth i mean fnan) = true /\
                                  fle (nth i mean fnan) (nth i upper fnan) = true) /\
  make_objective_info_vec mean stdev lower upper <> Undef.
Proof.
  intros mean stdev lower upper H1 H2 H3 par.
  pose proof (make_generated (length mean) par) as G. pose proof (make_generated_conv (length mean) par) as GC.
  pose proof (make_generated_total (length mean) par) as GT.
  unfold make_objective_info_vec. rewrite H1, H2, H3, Nat.eqb_refl. cbn [andb assert_ obind].
  split; [exact G|]. split; [|exact GT]. split; [|exact GC].
  intros (o & Ho). apply G in Ho. destruct Ho as (_ & _ & _ & _ & _ & Ho). intros i Hi. now destruct (Ho i Hi).
Qed.
Example C57_nonvacuous : map show_nat [0; 7; 10; 1234] = ["0"; "7"; "10"; "1234"]%string /\
  (exists o, make_objective_info 12 (fofZ 0) (fofZ 1) (fofZ (-1)) (fofZ 1) = Ok o) /\ (exists w, make_objective_info 12 (fofZ 3) (fofZ 1) (fofZ (-1)) (fofZ 1) = Throw w).
Proof.
  split; [vm_compute; reflexivity|]. split.
  - apply C57_make_objective_info. right. split; [|split]; vm_compute; reflexivity.
  - apply C57_make_objective_info. intros [H|(_ & _ & H)]; [discriminate|vm_compute in H; discriminate].
Qed.
