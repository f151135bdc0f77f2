(** * C65: data races in a pool step, and independence of the thread schedule.

    Pool.v takes the step() of a member as atomic.  Here the accesses of the pool's own thread
    to its members are made explicit: the thread of a launched member reads and writes the data
    of that member until its step has returned, so any access of the pool's thread to it before
    is a data race, which C++ leaves undefined.  A schedule ([pi_sched]) says which launched
    members have finished when the k-th wait returns; the others may still be running. *)
From Coq Require Import ZArith Bool Lia.
From Verif Require Import Prelude Flt FltFacts Flt32 Round8 FlatMap ParInfo ObjInfo Num MathTools Mes Optimizer OptimizerFacts Properties_Optimizer Properties_Optimizer4 Properties_ES3 Pool PoolFacts Properties_Pool Properties_Pool2 Properties_Pool4 Properties_Pool5.
#[local] Open Scope nat_scope.

(** ** The accesses *)
(** optimizer_pool.cpp:118-133: the members the pool's thread reads or writes after the step of
    member [i] has returned: [i] itself (118); if it is a new best, all of them if
    use_predicted_fitness_stop_condition is set (125-127), and the new best (122-129); for
    current_step_fitnesses() (132, optimizer_pool.h:18) the best one. *)
Definition touches (PE : pool_env) (P : pool) (i : nat) : list nat :=
  match nth_error (po_members P) i with
  | None => [i]
  | Some m =>
    if match po_best P with None => true | Some _ => is_better (e_info (pe_env PE)) (m_best m) (po_best_fit P) end
    then (if pe_use_predicted PE then seq 0 (length (po_members P)) else []) ++ [i]
    else i :: match po_best P with Some b => [b] | None => [] end
  end.
Definition running (launched : list nat) (done : list (nat * outcome (option nat))) (j : nat) : Prop := In j launched /\ ~ In j (map fst done).
(** optimizer_pool.cpp:115-135 ([collect] of Pool.v, keeping only the question whether a running
    member is accessed) *)
Fixpoint collect_safe (PE : pool_env) (launched : list nat) (inp : nat -> step_input) (sched : nat -> list nat) (k : nat)
    (P : pool) (done : list (nat * outcome (option nat))) (todo : list nat) : Prop :=
  match todo with
  | [] => True
  | i :: t =>
    let '(ms, done') := fold_left (complete inp) (filter (fun j => existsb (Nat.eqb j) launched) (sched k) ++ [i]) (po_members P, done) in
    let P1 := with_members P ms in
    match result_of i done' with
    | Some (Ok _) =>
      (forall j, In j (touches PE P1 i) -> ~ running launched done' j) /\
      match absorb_member PE P1 i with (P2, Ok _) => collect_safe PE launched inp sched (S k) P2 done' t | _ => True end
    | _ => True
    end
  end.
(** optimizer_pool.cpp:79-138 *)
Definition internal_safe (PE : pool_env) (P : pool) (inp : nat -> step_input) (sched : nat -> list nat) : Prop :=
  match refill PE P with
  | (P1, Ok _) => let launched := firstn (pe_concurrent PE) (po_queue P1) in
    collect_safe PE launched inp sched 0 (with_queue P1 (skipn (pe_concurrent PE) (po_queue P1))) [] launched
  | _ => True
  end.
(** optimizer.cpp:44-65: the pool step [pool_step PE P inp] has no data race *)
Definition race_free (PE : pool_env) (P : pool) (inp : pool_input) : Prop :=
  internal_safe PE (psignal PE EPreStep (if Nat.eqb (c_steps (po_base P)) 0 then psignal PE EStart P else P)) (pi_inputs inp) (pi_sched inp).
(** the same call with another schedule *)
Definition with_sched (inp : pool_input) (s : nat -> list nat) : pool_input := {| pi_inputs := pi_inputs inp; pi_sched := s; pi_interrupt := pi_interrupt inp |}.
(** every member finishes only when it is waited for *)
Definition late : nat -> list nat := fun _ => [].

(** ** Completing members, pointwise *)
Definition mem (j : nat) (l : list nat) : bool := existsb (Nat.eqb j) l.
Lemma mem_In j l : mem j l = true <-> In j l.
Proof. apply existsb_eqb. Qed.
Lemma completes_nth inp l : forall ms done j m, nth_error ms j = Some m ->
  let fl := fold_left (complete inp) l (ms, done) in
  nth_error (fst fl) j = Some (if negb (is_done j done) && mem j l then fst (m_step m (inp j)) else m) /\
  result_of j (snd fl) = (if negb (is_done j done) && mem j l then Some (snd (m_step m (inp j))) else result_of j done) /\
  is_done j (snd fl) = is_done j done || mem j l.
Proof.
  induction l as [|i l IH]; intros ms done j m Em; cbn [fold_left].
  - cbn [fst snd mem existsb]. rewrite andb_false_r, orb_false_r. auto.
  - cbv zeta. destruct (complete inp (ms, done) i) as [ms1 done1] eqn:EC.
    assert (X : exists m1, nth_error ms1 j = Some m1 /\ m1 = (if negb (is_done j done) && Nat.eqb j i then fst (m_step m (inp j)) else m) /\
      result_of j done1 = (if negb (is_done j done) && Nat.eqb j i then Some (snd (m_step m (inp j))) else result_of j done) /\ is_done j done1 = is_done j done || Nat.eqb j i).
    { unfold complete in EC. destruct (existsb (Nat.eqb i) (map fst done)) eqn:ED.
      - injection EC as <- <-. exists m. split; [exact Em|]. destruct (Nat.eqb_spec j i) as [->|NE]; [|rewrite andb_false_r, orb_false_r; auto]. unfold is_done. rewrite ED. auto.
      - destruct (Nat.eqb_spec j i) as [->|NE].
        + rewrite Em in EC. destruct (m_step m (inp i)) as [m' r]. injection EC as <- <-. exists m'. rewrite nth_error_list_set_eq by (apply nth_error_Some; congruence).
          split; [reflexivity|]. unfold is_done. rewrite ED. cbn [negb andb fst snd result_of map existsb]. rewrite Nat.eqb_refl. auto.
        + exists m. rewrite andb_false_r, orb_false_r. destruct (nth_error ms i) as [mi|] eqn:Ei; [|injection EC as <- <-; auto].
          destruct (m_step mi (inp i)) as [m' r]. injection EC as <- <-. rewrite nth_error_list_set_neq by congruence. split; [exact Em|]. split; [reflexivity|].
          unfold is_done. cbn [result_of map fst existsb]. apply Nat.eqb_neq in NE. rewrite NE. auto. }
    destruct X as (m1 & E1 & X1 & X2 & X3). destruct (IH ms1 done1 j m1 E1) as (Y1 & Y2 & Y3). rewrite Y1, Y2, Y3, X2, X3, X1.
    unfold mem. cbn [existsb]. destruct (is_done j done), (Nat.eqb j i), (existsb (Nat.eqb j) l); cbn [orb andb negb]; auto.
Qed.
Lemma completes_is_done inp l ms done j : (forall i, In i l -> i < length ms) -> is_done j (snd (fold_left (complete inp) l (ms, done))) = is_done j done || mem j l.
Proof.
  intros HR. apply eq_true_iff_eq. unfold is_done. rewrite existsb_eqb, orb_true_iff, existsb_eqb, mem_In. split.
  - intros H. apply completes_done in H. cbn [snd] in H. tauto.
  - intros [H|H]; [now apply completes_keep|]. apply completes_does; [exact H|]. now apply HR.
Qed.
Lemma completes_none inp l : forall ms done j, nth_error ms j = None -> nth_error (fst (fold_left (complete inp) l (ms, done))) j = None.
Proof. intros ms done j E. apply nth_error_None. rewrite completes_length. cbn [fst]. now apply nth_error_None. Qed.

(** ** Two schedules *)
(** [ms] are the members in a run in which some of those in [todo] (per [done]) have finished
    already, [ml] those in the late run *)
Definition ahead (inp : nat -> step_input) (todo : list nat) (done : list (nat * outcome (option nat))) (ml ms : list member) : Prop :=
  length ms = length ml /\ forall j m, nth_error ml j = Some m ->
    if mem j todo && is_done j done then nth_error ms j = Some (fst (m_step m (inp j))) /\ result_of j done = Some (snd (m_step m (inp j)))
    else nth_error ms j = Some m.
Lemma ahead_same inp todo done ml ms j : ahead inp todo done ml ms -> ~ In j todo -> nth_error ms j = nth_error ml j.
Proof.
  intros [HL H] HN. destruct (nth_error ml j) as [m|] eqn:E.
  - specialize (H j m E). destruct (mem j todo) eqn:EM; [apply mem_In in EM; contradiction|]. exact H.
  - apply nth_error_None. rewrite HL. now apply nth_error_None.
Qed.
Lemma ahead_nil inp done ml ms : ahead inp [] done ml ms -> ms = ml.
Proof. intros H. apply nth_error_ext'; [apply H|]. intros j _. eapply ahead_same; [exact H|intros []]. Qed.
Lemma with_members_same P : with_members P (po_members P) = P.
Proof. now destruct P. Qed.

(** what the pool does after a step of a member only depends on the members it touches *)
Lemma view_agree P ms : (forall b, po_best P = Some b -> nth_error ms b = nth_error (po_members P) b) -> view (with_members P ms) = view P.
Proof. intros H. unfold view, best_member. cbn [with_members po_best po_members po_base]. destruct (po_best P) as [b|]; [now rewrite (H b eq_refl)|reflexivity]. Qed.
Lemma signal_agree PE ev P ms : (forall b, po_best P = Some b -> nth_error ms b = nth_error (po_members P) b) -> psignal PE ev (with_members P ms) = with_members (psignal PE ev P) ms.
Proof. intros H. unfold psignal. rewrite (view_agree P ms H). reflexivity. Qed.
Lemma touches_agree PE P ms i : length ms = length (po_members P) -> nth_error ms i = nth_error (po_members P) i -> touches PE (with_members P ms) i = touches PE P i.
Proof. intros HL H. unfold touches. cbn [with_members po_members po_best po_best_fit]. rewrite H, HL. reflexivity. Qed.
Lemma absorb_agree PE inp t done P ms i : i < length (po_members P) -> ~ In i t -> (forall j, In j t -> j < length (po_members P)) -> (forall j, In j (touches PE P i) -> ~ In j t) ->
  ahead inp t done (po_members P) ms ->
  exists P2 r, absorb_member PE P i = (P2, r) /\ r <> Undef /\ (forall w, r = Throw w -> t = []) /\
    exists ms2, absorb_member PE (with_members P ms) i = (with_members P2 ms2, r) /\ ahead inp t done (po_members P2) ms2 /\ length (po_members P2) = length (po_members P).
Proof.
  intros HI HNi HT HTo HA. pose proof (ahead_same _ _ _ _ _ i HA HNi) as Ei. destruct HA as [HL HA0]. assert (HA : ahead inp t done (po_members P) ms) by (split; assumption).
  unfold touches in HTo. unfold absorb_member. cbn [with_members po_members po_best po_best_fit]. rewrite Ei.
  destruct (nth_error (po_members P) i) as [m|] eqn:Em; [|apply nth_error_None in Em; lia].
  destruct (match po_best P with None => true | Some _ => is_better (e_info (pe_env PE)) (m_best m) (po_best_fit P) end) eqn:EN.
  - destruct (pe_use_predicted PE) eqn:EU.
    + assert (t = []). { destruct t as [|j t]; [reflexivity|]. exfalso. apply (HTo j); [|now left]. apply in_app_iff. left. apply in_seq. split; [lia|]. apply HT. now left. } subst t.
      apply ahead_nil in HA. subst ms. rewrite with_members_same.
      destruct (set_targets (po_members (with_pbest P (Some i) (m_best m))) (m_best m)) as [ms' ok] eqn:ES. cbn [with_pbest with_members po_members po_best po_best_fit] in *.
      assert (LS : length ms' = length (po_members P)) by (pose proof (set_targets_looked (m_best m) (po_members P)) as X; rewrite ES in X; exact (looked_length _ _ X)).
      destruct ok; eexists _, _; (split; [reflexivity|]); (split; [discriminate|]); (split; [intros w _; reflexivity|]); eexists;
        (split; [rewrite with_members_same; reflexivity|]); cbn [psignal with_trace with_members po_members]; (split; [|exact LS]); (split; [reflexivity|intros j mj Ej; cbn; exact Ej]).
    + eexists _, _. split; [reflexivity|]. split; [discriminate|]. split; [discriminate|].
      exists ms. split; [|split; [exact HA|reflexivity]].
      change (with_pbest (with_members P ms) (Some i) (m_best m)) with (with_members (with_pbest P (Some i) (m_best m)) ms).
      assert (HB : forall b, po_best (with_pbest P (Some i) (m_best m)) = Some b -> nth_error ms b = nth_error (po_members (with_pbest P (Some i) (m_best m))) b).
      { intros b [= <-]. cbn [with_pbest po_members]. rewrite Em. exact Ei. }
      rewrite (signal_agree PE _ _ ms HB). cbv beta iota.
      assert (HB2 : forall b, po_best (psignal PE (ENewBest (c_best_pt (o_core (m_opt m))) (m_best m)) (with_pbest P (Some i) (m_best m))) = Some b ->
        nth_error ms b = nth_error (po_members (psignal PE (ENewBest (c_best_pt (o_core (m_opt m))) (m_best m)) (with_pbest P (Some i) (m_best m)))) b) by exact HB.
      rewrite (view_agree _ ms HB2), (signal_agree PE _ _ ms HB2). reflexivity.
  - assert (HB : forall b, po_best P = Some b -> nth_error ms b = nth_error (po_members P) b).
    { intros b Eb. apply (ahead_same inp t done); [exact HA|]. apply HTo. rewrite Eb. right. now left. }
    eexists _, _. split; [reflexivity|]. split; [discriminate|]. split; [discriminate|].
    exists ms. split; [|split; [exact HA|reflexivity]].
    rewrite (view_agree _ ms HB), (signal_agree PE _ _ ms HB). reflexivity.
Qed.

Lemma collect_agree PE launched inp sched : NoDup launched -> forall todo k pre P dl ms ds, launched = pre ++ todo ->
  (forall j, In j launched -> j < length (po_members P)) -> (forall j, is_done j dl = mem j pre) -> (forall j, In j pre -> is_done j ds = true) ->
  (forall j, is_done j ds = true -> In j launched) ->
  ahead inp todo ds (po_members P) ms ->
  collect_safe PE launched inp late k P dl todo ->
  collect_safe PE launched inp sched k (with_members P ms) ds todo /\
  exists r ml', snd (collect PE launched inp late k P dl todo) = r /\ snd (collect PE launched inp sched k (with_members P ms) ds todo) = r /\ fst (collect PE launched inp late k P dl todo) = ml' /\
    (r <> Undef -> fst (collect PE launched inp sched k (with_members P ms) ds todo) = ml').
Proof.
  intros HND. induction todo as [|i t IH]; intros k pre P dl ms ds HLa HR HDl HDs HDs' HA HSafe.
  - cbn [collect collect_safe] in *. split; [exact I|]. exists (Ok tt), P. split; [reflexivity|]. split; [reflexivity|]. split; [reflexivity|]. intros _. cbn [fst]. apply ahead_nil in HA. subst ms. apply with_members_same.
  - assert (HIl : In i launched) by (rewrite HLa; apply in_app_iff; right; now left).
    assert (HNi : ~ In i t). { rewrite HLa in HND. apply NoDup_remove_2 in HND. rewrite in_app_iff in HND. tauto. }
    assert (HNp : ~ In i pre). { rewrite HLa in HND. apply NoDup_remove_2 in HND. rewrite in_app_iff in HND. tauto. }
    assert (HTp : forall j, In j t -> ~ In j pre). { intros j Hj Hp. rewrite HLa in HND. apply in_split in Hp as (x & y & ->). rewrite <- app_assoc in HND. apply NoDup_remove_2 in HND. apply HND. rewrite !in_app_iff. right. right. right. exact Hj. }
    assert (HTl : forall j, In j t -> In j launched) by (intros j Hj; rewrite HLa; apply in_app_iff; right; now right).
    set (ls := filter (fun j => existsb (Nat.eqb j) launched) (sched k) ++ [i]).
    assert (HLs : forall j, In j ls -> In j launched). { intros j Hj. unfold ls in Hj. apply in_app_iff in Hj as [Hj|[<-|[]]]; [|exact HIl]. apply filter_In in Hj as [_ Hj]. now apply existsb_eqb in Hj. }
    assert (Hils : mem i ls = true) by (apply mem_In; unfold ls; apply in_app_iff; right; now left).
    cbn [collect_safe collect] in *. cbn [late filter app] in HSafe. change (filter (fun j => existsb (Nat.eqb j) launched) (late k) ++ [i]) with [i]. fold ls.
    cbn [with_members po_members].
    destruct (nth_error (po_members P) i) as [mi|] eqn:Emi; [|exfalso; apply nth_error_None in Emi; specialize (HR i HIl); lia].
    pose proof (completes_nth inp [i] (po_members P) dl) as FL. pose proof (completes_nth inp ls ms ds) as FS. cbv zeta in FL, FS.
    pose proof (completes_length inp [i] (po_members P, dl)) as LL. pose proof (completes_length inp ls (ms, ds)) as LS.
    pose proof (fun j => completes_is_done inp [i] (po_members P) dl j) as DL. pose proof (fun j => completes_is_done inp ls ms ds j) as DS.
    destruct (fold_left (complete inp) [i] (po_members P, dl)) as [ml1 dl1]. destruct (fold_left (complete inp) ls (ms, ds)) as [ms1 ds1]. cbn [fst snd] in *.
    destruct HA as [HAl HA].
    (* the step of i itself *)
    assert (Edl : is_done i dl = false) by (rewrite HDl; destruct (mem i pre) eqn:X; [apply mem_In in X; contradiction|reflexivity]).
    destruct (FL i mi Emi) as (FL1 & FL2 & FL3). rewrite Edl in FL1, FL2, FL3. unfold mem in FL1, FL2, FL3. cbn [existsb] in FL1, FL2, FL3. rewrite Nat.eqb_refl in FL1, FL2, FL3. cbn [negb andb orb] in FL1, FL2, FL3.
    assert (FSi : nth_error ms1 i = Some (fst (m_step mi (inp i))) /\ result_of i ds1 = Some (snd (m_step mi (inp i))) /\ is_done i ds1 = true).
    { specialize (HA i mi Emi). unfold mem at 1 in HA. cbn [existsb] in HA. rewrite Nat.eqb_refl in HA. cbn [orb andb] in HA. destruct (is_done i ds) eqn:ED.
      - destruct HA as [A1 A2]. destruct (FS i _ A1) as (B1 & B2 & B3). rewrite ED in B1, B2, B3. cbn [negb andb orb] in B1, B2, B3. rewrite B1, B2, B3. auto.
      - destruct (FS i _ HA) as (B1 & B2 & B3). rewrite ED, Hils in B1, B2, B3. cbn [negb andb orb] in B1, B2, B3. rewrite B1, B2, B3. auto. }
    destruct FSi as (FS1 & FS2 & FS3).
    assert (HD1 : forall j, is_done j dl1 = mem j (pre ++ [i])).
    { intros j. rewrite DL, HDl by (intros x [<-|[]]; now apply HR). unfold mem. now rewrite existsb_app. }
    assert (DS1 : forall j, is_done j ds1 = is_done j ds || mem j ls) by (intros j; apply DS; intros x Hx; rewrite HAl; now apply HR, HLs).
    assert (HA1 : ahead inp t ds1 ml1 ms1).
    { split; [lia|]. intros j m1 E1. destruct (Nat.eq_dec j i) as [->|NE].
      - assert (mem i t = false) as -> by (destruct (mem i t) eqn:X; [apply mem_In in X; contradiction|reflexivity]). cbn [andb]. congruence.
      - destruct (nth_error (po_members P) j) as [m0|] eqn:E0; [|exfalso; apply nth_error_None in E0; assert (nth_error ml1 j <> None) as X by congruence; apply nth_error_Some in X; lia].
        destruct (FL j m0 E0) as (G1 & _ & _). assert (mem j [i] = false) as XI by (unfold mem; cbn [existsb]; apply Nat.eqb_neq in NE; now rewrite NE).
        rewrite XI, andb_false_r in G1. rewrite E1 in G1. injection G1 as ->.
        specialize (HA j m0 E0). unfold mem at 1 in HA. cbn [existsb] in HA. pose proof NE as NE'. apply Nat.eqb_neq in NE'. rewrite NE' in HA. cbn [orb] in HA. fold (mem j t) in HA.
        destruct (mem j t) eqn:EM; cbn [andb] in *.
        + rewrite DS1. destruct (is_done j ds) eqn:ED; cbn [orb].
          * destruct HA as [A1 A2]. destruct (FS j _ A1) as (B1 & B2 & _). rewrite ED in B1, B2. cbn [negb andb] in B1, B2. rewrite B1, B2. auto.
          * destruct (FS j _ HA) as (B1 & B2 & _). rewrite ED in B1, B2. cbn [negb andb] in B1, B2. destruct (mem j ls); auto.
        + destruct (FS j _ HA) as (B1 & _ & _). rewrite B1. destruct (negb (is_done j ds) && mem j ls) eqn:X; [|reflexivity]. exfalso. apply andb_true_iff in X as [X1 X2].
          apply mem_In, HLs in X2. rewrite HLa in X2. apply in_app_iff in X2 as [X2|[X2|X2]]; [rewrite (HDs j X2) in X1; discriminate X1|congruence|apply mem_In in X2; congruence]. }
    rewrite FL2 in HSafe |- *. rewrite FS2.
    assert (FIN : forall Pl Ps, (exists ms', Ps = with_members Pl ms' /\ ahead inp t ds1 (po_members Pl) ms') -> length (po_members Pl) = length (po_members P) ->
      with_members Ps (fst (fold_left (complete inp) launched (po_members Ps, ds1))) = with_members Pl (fst (fold_left (complete inp) launched (po_members Pl, dl1)))).
    { intros Pl Ps (ms' & -> & [HAl' HA']) HLl. change (with_members (with_members Pl ms')) with (with_members Pl). f_equal. cbn [with_members po_members]. clear FL FS.
      apply nth_error_ext'; [rewrite !completes_length; exact HAl'|]. intros j _.
      destruct (nth_error (po_members Pl) j) as [m|] eqn:Ej.
      - destruct (completes_nth inp launched (po_members Pl) dl1 j m Ej) as (B1 & _). rewrite B1. specialize (HA' j m Ej). rewrite HD1.
        destruct (mem j t) eqn:EM; cbn [andb] in HA'.
        + assert (mem j (pre ++ [i]) = false) as ->. { destruct (mem j (pre ++ [i])) eqn:X; [|reflexivity]. apply mem_In in X, EM. apply in_app_iff in X as [X|[<-|[]]]; [elim (HTp j EM X)|contradiction]. }
          assert (mem j launched = true) as -> by (apply mem_In, HTl, mem_In, EM). cbn [negb andb]. destruct (is_done j ds1) eqn:ED; [destruct HA' as [HA' _]|];
          destruct (completes_nth inp launched ms' ds1 j _ HA') as (B2 & _); rewrite B2, ED; cbn [negb andb]; [reflexivity|]. assert (mem j launched = true) as -> by (apply mem_In, HTl, mem_In, EM). reflexivity.
        + destruct (completes_nth inp launched ms' ds1 j _ HA') as (B2 & _). rewrite B2. destruct (mem j launched) eqn:EL; [|now rewrite !andb_false_r]. apply mem_In in EL.
          assert (In j (pre ++ [i])) as X. { rewrite HLa in EL. apply in_app_iff in EL as [X|[X|X]]; [apply in_app_iff; now left|apply in_app_iff; right; now left|apply mem_In in X; congruence]. }
          assert (is_done j ds1 = true) as ->. { apply in_app_iff in X as [X|[<-|[]]]; [rewrite DS1, (HDs j X); reflexivity|exact FS3]. }
          apply mem_In in X. rewrite X. reflexivity.
      - rewrite !completes_none; [reflexivity|exact Ej|]. apply nth_error_None. rewrite HAl'. now apply nth_error_None. }
    destruct (snd (m_step mi (inp i))) as [x|w|] eqn:ER.
    + destruct HSafe as [HS1 HS2].
      assert (HTo : forall j, In j (touches PE (with_members P ml1) i) -> ~ In j t).
      { intros j Hj Ht. apply (HS1 j Hj). split; [now apply HTl|]. intros X. apply existsb_eqb in X. fold (is_done j dl1) in X. rewrite HD1 in X. apply mem_In in X. apply in_app_iff in X as [X|[<-|[]]]; [elim (HTp j Ht X)|contradiction]. }
      assert (HR1 : forall j, In j launched -> j < length ml1) by (intros j Hj; rewrite LL; now apply HR).
      destruct (absorb_agree PE inp t ds1 (with_members P ml1) ms1 i (HR1 i HIl) HNi (fun j Hj => HR1 j (HTl j Hj)) HTo HA1) as (P2 & r & EAl & HrU & HrT & ms2 & EAs & HA2 & HL2).
      change (with_members (with_members P ml1) ms1) with (with_members P ms1) in EAs. change (with_members (with_members P ms) ms1) with (with_members P ms1).
      assert (ETo : touches PE (with_members P ms1) i = touches PE (with_members P ml1) i) by (apply (touches_agree PE (with_members P ml1) ms1 i); [cbn; lia|cbn; congruence]).
      assert (SAFE1 : forall j, In j (touches PE (with_members P ms1) i) -> ~ running launched ds1 j).
      { intros j Hj [Hl Hd]. rewrite ETo in Hj. apply Hd. apply existsb_eqb. fold (is_done j ds1). rewrite HLa in Hl. apply in_app_iff in Hl as [X|[<-|X]]; [rewrite DS1, (HDs j X); reflexivity|exact FS3|elim (HTo j Hj X)]. }
      rewrite EAl in HS2 |- *. rewrite EAs. destruct r as [u|w|]; [|specialize (HrT w eq_refl)|congruence].
      * destruct (IH (S k) (pre ++ [i]) P2 dl1 ms2 ds1) as (J1 & J2); [rewrite <- app_assoc; exact HLa|intros j Hj; rewrite HL2; now apply HR1|exact HD1| | |exact HA2|exact HS2|].
        -- intros j Hj. apply in_app_iff in Hj as [X|[<-|[]]]; [rewrite DS1, (HDs j X); reflexivity|exact FS3].
        -- intros j Hj. rewrite DS1 in Hj. apply orb_true_iff in Hj as [X|X]; [now apply HDs'|apply HLs; now apply mem_In].
        -- split; [split; [exact SAFE1|exact J1]|exact J2].
      * split; [split; [exact SAFE1|exact I]|]. exists (Throw w), (with_members P2 (fst (fold_left (complete inp) launched (po_members P2, dl1)))). cbn [fst snd]. split; [reflexivity|]. split; [reflexivity|]. split; [reflexivity|]. intros _.
        apply FIN; [exists ms2; split; [reflexivity|exact HA2]|rewrite HL2; exact LL].
    + split; [exact I|]. eexists (Throw w), _. cbn [fst snd]. split; [reflexivity|]. split; [reflexivity|]. split; [reflexivity|]. intros _.
      apply FIN; [exists ms1; split; [reflexivity|exact HA1]|exact LL].
    + split; [exact I|]. eexists Undef, _. cbn [fst snd]. split; [reflexivity|]. split; [reflexivity|]. split; [reflexivity|]. congruence.
Qed.

Lemma collect_safe_done PE launched inp sched : forall todo k P done, (forall j, In j launched -> In j (map fst done) \/ In j todo) -> (forall j, In j launched -> j < length (po_members P)) ->
  length todo <= 1 -> collect_safe PE launched inp sched k P done todo.
Proof.
  intros [|i [|i2 t]] k P done HD HR HL; cbn [collect_safe]; [exact I| |cbn in HL; lia].
  set (ls := filter _ _ ++ [i]). pose proof (fun j => completes_keep inp ls (po_members P, done) j) as K. pose proof (fun j => completes_does inp ls (po_members P, done) j) as D.
  destruct (fold_left (complete inp) ls (po_members P, done)) as [ms done']. cbn [fst snd] in *. destruct (result_of i done') as [[x|w|]|]; auto. split.
  - intros j _ [Hl Hn]. apply Hn. destruct (HD j Hl) as [X|[->|[]]]; [now apply K|]. apply D; [unfold ls; apply in_app_iff; right; now left|now apply HR].
  - destruct (absorb_member PE (with_members P ms) i) as [P2 [u|w|]]; exact I.
Qed.
Lemma queue_after PE P : sorts (pe_sort PE) -> queue_ok P -> snd (refill PE P) = Ok tt ->
  NoDup (firstn (pe_concurrent PE) (po_queue (fst (refill PE P)))) /\ forall j, In j (firstn (pe_concurrent PE) (po_queue (fst (refill PE P)))) -> j < length (po_members (fst (refill PE P))).
Proof.
  intros HS HQ E. pose proof (refill_queue PE P HS HQ) as [Q1 Q2]. split; [|intros j Hj; apply Q2; eapply firstn_incl, Hj].
  apply (NoDup_prefix _ (skipn (pe_concurrent PE) (po_queue (fst (refill PE P))))). now rewrite firstn_skipn.
Qed.
Lemma signal_queue_ok PE ev P : queue_ok P -> queue_ok (psignal PE ev P).
Proof. intros H. exact H. Qed.
Lemma start_queue_ok PE P : queue_ok P -> queue_ok (psignal PE EPreStep (if Nat.eqb (c_steps (po_base P)) 0 then psignal PE EStart P else P)).
Proof. intros H. destruct (Nat.eqb _ 0); exact H. Qed.

(** ** The theorems *)

(** If a pool step has no data race in the run in which every member finishes as late as
    possible, then it has none in any run, and every run gives the same result: the same
    return value or exception and (unless the behaviour is undefined anyway) the same pool,
    members and reports to the reporters. *)
Theorem C65_race_free_is_deterministic : forall PE ms conds ops L P inp sched, sorts (pe_sort PE) -> Forall (joinable PE) ms ->
  history PE (pool_of PE ms conds) ops L P ->
  race_free PE P (with_sched inp late) ->
  race_free PE P (with_sched inp sched) /\
  snd (pool_step PE P (with_sched inp sched)) = snd (pool_step PE P (with_sched inp late)) /\
  (snd (pool_step PE P (with_sched inp late)) <> Undef -> fst (pool_step PE P (with_sched inp sched)) = fst (pool_step PE P (with_sched inp late))).
Proof.
  intros PE ms conds ops L P inp sched HS HJ H. destruct (pool_of_inv PE ms conds HJ) as [HI _]. destruct (history_inv _ _ _ _ _ HS H [] HI) as [[HQ _] _]. clear H HI HJ.
  unfold race_free, internal_safe, pool_step, pool_internal_step. cbn [with_sched pi_inputs pi_sched pi_interrupt].
  pose proof (start_queue_ok PE P HQ) as HQ2. set (P2 := psignal PE EPreStep _) in *. clearbody P2.
  pose proof (queue_after PE P2 HS HQ2) as QA.
  destruct (refill PE P2) as [P1 [[]|w|]]; cbn [fst snd] in QA.
  2:{ intros _. split; [exact I|]. destruct (Nat.eqb (oi_dim _) 0), (po_members P2); auto. }
  2:{ intros _. split; [exact I|]. destruct (Nat.eqb (oi_dim _) 0), (po_members P2); auto. }
  destruct (QA eq_refl) as [Q1 Q2]. clear QA. cbv zeta. set (LA := firstn (pe_concurrent PE) (po_queue P1)) in *. set (PQ := with_queue P1 (skipn (pe_concurrent PE) (po_queue P1))).
  intros HSafe.
  destruct (collect_agree PE LA (pi_inputs inp) sched Q1 LA 0 [] PQ [] (po_members PQ) []) as (J1 & r & Pl & R1 & R2 & R3 & R4).
  { reflexivity. } { exact Q2. } { reflexivity. } { intros j []. } { discriminate. }
  { split; [reflexivity|]. intros j m Em. unfold is_done. cbn [map existsb]. now rewrite andb_false_r. }
  { exact HSafe. }
  rewrite (with_members_same PQ) in J1, R2, R4. split; [exact J1|].
  destruct (Nat.eqb (oi_dim (e_info (pe_env PE))) 0); [auto|]. destruct (po_members P2) as [|m0 mt]; [auto|].
  destruct (collect PE LA (pi_inputs inp) late 0 PQ [] LA) as [Pl' rl]. destruct (collect PE LA (pi_inputs inp) sched 0 PQ [] LA) as [Ps rs]. cbn [fst snd] in *. subst rl rs Pl'.
  destruct r as [u|w|]; cbn [obind]; [rewrite (R4 ltac:(discriminate)); auto|rewrite (R4 ltac:(discriminate)); auto|split; [reflexivity|intros X; now elim X]].
Qed.

(** With concurrent_optimizations at most 1 no pool step has a data race. *)
Theorem C65_one_at_a_time : forall PE ms conds ops L P inp, sorts (pe_sort PE) -> Forall (joinable PE) ms ->
  history PE (pool_of PE ms conds) ops L P -> pe_concurrent PE <= 1 ->
  race_free PE P inp.
Proof.
  intros PE ms conds ops L P inp HS HJ H HC. destruct (pool_of_inv PE ms conds HJ) as [HI _]. destruct (history_inv _ _ _ _ _ HS H [] HI) as [[HQ _] _]. clear H HI HJ.
  unfold race_free, internal_safe. pose proof (start_queue_ok PE P HQ) as HQ2. set (P2 := psignal PE EPreStep _) in *. clearbody P2.
  pose proof (queue_after PE P2 HS HQ2) as QA. destruct (refill PE P2) as [P1 [[]|w|]]; cbn [fst snd] in QA; try exact I. destruct (QA eq_refl) as [_ Q2]. cbv zeta.
  apply collect_safe_done; [auto|exact Q2|]. rewrite firstn_length. lia.
Qed.

Lemma best_first_safe PE launched inp sched : pe_use_predicted PE = false -> NoDup launched -> forall todo k P done pre, launched = pre ++ todo ->
  (forall j, In j launched -> j < length (po_members P)) -> (forall j, In j pre -> In j (map fst done)) ->
  (forall b, po_best P = Some b -> In b todo -> hd_error todo = Some b) ->
  collect_safe PE launched inp sched k P done todo.
Proof.
  intros HU HND. induction todo as [|i t IH]; intros k P done pre HLa HR HD HB; cbn [collect_safe]; [exact I|].
  set (ls := filter _ _ ++ [i]). pose proof (fun j => completes_keep inp ls (po_members P, done) j) as K. pose proof (fun j => completes_does inp ls (po_members P, done) j) as D. pose proof (completes_length inp ls (po_members P, done)) as LL.
  destruct (fold_left (complete inp) ls (po_members P, done)) as [ms done']. cbn [fst snd] in *.
  assert (HIl : In i launched) by (rewrite HLa; apply in_app_iff; right; now left).
  assert (Hi : In i (map fst done')) by (apply D; [unfold ls; apply in_app_iff; right; now left|now apply HR]).
  assert (HNi : ~ In i t) by (rewrite HLa in HND; apply NoDup_remove_2 in HND; rewrite in_app_iff in HND; tauto).
  assert (HDn : forall j, In j launched -> ~ In j t -> In j (map fst done')) by (intros j Hj Hn; rewrite HLa in Hj; apply in_app_iff in Hj as [X|[<-|X]]; [now apply K, HD|exact Hi|contradiction]).
  assert (HBt : forall b, po_best P = Some b -> ~ In b t). { intros b Eb X. pose proof (HB b Eb (or_intror X)) as Y. injection Y as ->. contradiction. }
  destruct (result_of i done') as [[x|w|]|]; auto. split.
  - intros j Hj [Hl Hn]. apply Hn, HDn; [exact Hl|]. unfold touches in Hj. cbn [with_members po_members po_best po_best_fit] in Hj. destruct (nth_error ms i) as [m|].
    + destruct (match po_best P with None => _ | Some _ => _ end); rewrite ?HU in Hj; [destruct Hj as [<-|[]]; exact HNi|]. destruct Hj as [<-|Hj]; [exact HNi|]. destruct (po_best P) as [b|] eqn:Eb; [destruct Hj as [<-|[]]; auto|destruct Hj].
    + destruct Hj as [<-|[]]. exact HNi.
  - destruct (absorb_member PE (with_members P ms) i) as [P2 r2] eqn:EA. destruct r2 as [u|w|]; auto.
    assert (X : length (po_members P2) = length (po_members P) /\ (po_best P2 = Some i \/ po_best P2 = po_best P)).
    { revert EA. unfold absorb_member. cbn [with_members po_members po_best po_best_fit]. destruct (nth_error ms i) as [m|]; [|discriminate]. rewrite HU.
      destruct (match po_best P with None => _ | Some _ => _ end); intros [= <-]; cbn; auto. }
    destruct X as [X1 X2]. apply (IH (S k) P2 done' (pre ++ [i])); [rewrite <- app_assoc; exact HLa|intros j Hj; rewrite X1; now apply HR| |].
    + intros j Hj. apply in_app_iff in Hj as [Hj|[<-|[]]]; [now apply K, HD|exact Hi].
    + intros b Eb Hb. exfalso. destruct X2 as [X2|X2]; [rewrite X2 in Eb; injection Eb as <-; contradiction|]. rewrite X2 in Eb. exact (HBt b Eb Hb).
Qed.
(** Without the predicted-fitness stop condition (the default) a pool step has no data race if
    the pool has no best member yet, or its best member is not among those it now steps, or is
    the first of them. *)
Theorem C65_best_not_overtaken : forall PE ms conds ops L P inp, sorts (pe_sort PE) -> Forall (joinable PE) ms ->
  history PE (pool_of PE ms conds) ops L P -> pe_use_predicted PE = false ->
  (forall b, po_best P = Some b -> In b (launches PE P) -> hd_error (launches PE P) = Some b) ->
  race_free PE P inp.
Proof.
  intros PE ms conds ops L P inp HS HJ H HU HB. destruct (pool_of_inv PE ms conds HJ) as [HI _]. destruct (history_inv _ _ _ _ _ HS H [] HI) as [[HQ _] _]. clear H HI HJ.
  unfold race_free, internal_safe. pose proof (start_queue_ok PE P HQ) as HQ2.
  assert (EL : launches PE (psignal PE EPreStep (if Nat.eqb (c_steps (po_base P)) 0 then psignal PE EStart P else P)) = launches PE P) by (destruct (Nat.eqb _ 0); now rewrite ?launches_signal).
  assert (EB : po_best (psignal PE EPreStep (if Nat.eqb (c_steps (po_base P)) 0 then psignal PE EStart P else P)) = po_best P) by (destruct (Nat.eqb _ 0); reflexivity).
  set (P2 := psignal PE EPreStep _) in *. clearbody P2. rewrite <- EL, <- EB in HB. clear EL EB.
  pose proof (queue_after PE P2 HS HQ2) as QA. pose proof (refill_frame PE P2) as (F1 & _). unfold launches in HB. destruct (refill PE P2) as [P1 [[]|w|]]; cbn [fst snd] in *; try exact I. destruct (QA eq_refl) as [Q1 Q2]. cbv zeta.
  apply (best_first_safe PE _ _ _ HU Q1) with (pre := []); [reflexivity|exact Q2|intros j []|]. cbn [with_queue po_best]. rewrite F1. exact HB.
Qed.

(** With it (use_predicted_fitness_stop_condition), the first step that launches two members
    always has a data race in the late run, whatever the members do, unless stepping the first
    one throws: its result is the first best, so the pool writes to all members. *)
Theorem C65_predicted_stop_races : forall PE ms conds ops L P inp i j t m x, sorts (pe_sort PE) -> Forall (joinable PE) ms ->
  history PE (pool_of PE ms conds) ops L P -> pe_use_predicted PE = true -> po_best P = None ->
  launches PE P = i :: j :: t -> nth_error (po_members (fst (refill PE P))) i = Some m -> snd (m_step m (pi_inputs inp i)) = Ok x ->
  ~ race_free PE P (with_sched inp late).
Proof.
  intros PE ms conds ops L P inp i j t m x HS HJ H HU HB HL Em Ex HR. destruct (pool_of_inv PE ms conds HJ) as [HI _]. destruct (history_inv _ _ _ _ _ HS H [] HI) as [[HQ _] _]. clear H HI HJ.
  unfold race_free, internal_safe in HR. cbn [with_sched pi_inputs pi_sched] in HR.
  assert (ER : exists tr, psignal PE EPreStep (if Nat.eqb (c_steps (po_base P)) 0 then psignal PE EStart P else P) = with_trace P tr) by (destruct (Nat.eqb _ 0); eexists; reflexivity).
  destruct ER as (tr & ER). rewrite ER, refill_trace in HR. clear ER.
  pose proof (queue_after PE P HS HQ) as QA. pose proof (refill_frame PE P) as (F1 & _). unfold launches in HL.
  destruct (refill PE P) as [P1 [[]|w|]]; cbn [fst snd] in *; try discriminate HL. destruct (QA eq_refl) as [Q1 Q2]. cbv zeta in HR.
  change (po_queue (with_trace P1 tr)) with (po_queue P1) in HR. rewrite HL in *. cbn [collect_safe late filter app] in HR.
  pose proof (completes_nth inp.(pi_inputs) [i] (po_members P1) [] i m Em) as C. cbv zeta in C. pose proof (completes_is_done (pi_inputs inp) [i] (po_members P1) [] j) as D. pose proof (completes_length (pi_inputs inp) [i] (po_members P1, [])) as LL.
  change (po_members (with_queue (with_trace P1 tr) (skipn (pe_concurrent PE) (po_queue P1)))) with (po_members P1) in HR.
  destruct (fold_left (complete (pi_inputs inp)) [i] (po_members P1, [])) as [ms1 d1]. cbn [fst snd] in *. unfold mem, is_done in C. cbn [map existsb] in C. rewrite Nat.eqb_refl in C. cbn [negb andb orb] in C. destruct C as (C1 & C2 & _).
  rewrite C2, Ex in HR. destruct HR as [HR _]. apply (HR j).
  - unfold touches. cbn [with_members po_members]. rewrite C1. cbn [with_members with_queue with_trace po_best]. rewrite F1, HB, HU. apply in_app_iff. left. apply in_seq. split; [lia|]. cbn [Nat.add]. rewrite LL. apply Q2. right. now left.
  - split; [right; now left|]. intros X. apply existsb_eqb in X. fold (is_done j d1) in X. rewrite D in X by (intros y [<-|[]]; apply Q2; now left). unfold mem, is_done in X. cbn [map existsb orb] in X. rewrite orb_false_r in X. apply Nat.eqb_eq in X. subst j. inversion Q1 as [|? ? X1 X2]. apply X1. now left.
Qed.

(** Conversely (with or without that stop condition): if the first member that is stepped does
    not improve on the best, and the best member is stepped as well, later in the queue, then
    the late run has a data race: the pool reads the fitnesses of the running best member. *)
Theorem C65_overtaken_best_races : forall PE ms conds ops L P inp i b t m x, sorts (pe_sort PE) -> Forall (joinable PE) ms ->
  history PE (pool_of PE ms conds) ops L P -> po_best P = Some b ->
  launches PE P = i :: t -> In b t -> nth_error (po_members (fst (refill PE P))) i = Some m ->
  snd (m_step m (pi_inputs inp i)) = Ok x -> is_better (e_info (pe_env PE)) (m_best (fst (m_step m (pi_inputs inp i)))) (po_best_fit P) = false ->
  ~ race_free PE P (with_sched inp late).
Proof.
  intros PE ms conds ops L P inp i b t m x HS HJ H HB HL Hbt Em Ex EB HR. destruct (pool_of_inv PE ms conds HJ) as [HI _]. destruct (history_inv _ _ _ _ _ HS H [] HI) as [[HQ _] _]. clear H HI HJ.
  unfold race_free, internal_safe in HR. cbn [with_sched pi_inputs pi_sched] in HR.
  assert (ER : exists tr, psignal PE EPreStep (if Nat.eqb (c_steps (po_base P)) 0 then psignal PE EStart P else P) = with_trace P tr) by (destruct (Nat.eqb _ 0); eexists; reflexivity).
  destruct ER as (tr & ER). rewrite ER, refill_trace in HR. clear ER.
  pose proof (queue_after PE P HS HQ) as QA. pose proof (refill_frame PE P) as (F1 & F2 & _). unfold launches in HL.
  destruct (refill PE P) as [P1 [[]|w|]]; cbn [fst snd] in *; try discriminate HL. destruct (QA eq_refl) as [Q1 Q2]. cbv zeta in HR.
  change (po_queue (with_trace P1 tr)) with (po_queue P1) in HR. rewrite HL in *. cbn [collect_safe late filter app] in HR.
  pose proof (completes_nth inp.(pi_inputs) [i] (po_members P1) [] i m Em) as C. cbv zeta in C. pose proof (completes_is_done (pi_inputs inp) [i] (po_members P1) [] b) as D.
  change (po_members (with_queue (with_trace P1 tr) (skipn (pe_concurrent PE) (po_queue P1)))) with (po_members P1) in HR.
  destruct (fold_left (complete (pi_inputs inp)) [i] (po_members P1, [])) as [ms1 d1]. cbn [fst snd] in *. unfold mem, is_done in C. cbn [map existsb] in C. rewrite Nat.eqb_refl in C. cbn [negb andb orb] in C. destruct C as (C1 & C2 & _).
  rewrite C2, Ex in HR. destruct HR as [HR _]. apply (HR b).
  - unfold touches. cbn [with_members po_members]. rewrite C1. cbn [with_members with_queue with_trace po_best po_best_fit]. rewrite F1, F2, HB, EB. right. now left.
  - split; [now right|]. intros X. apply existsb_eqb in X. fold (is_done b d1) in X. rewrite D in X by (intros y [<-|[]]; apply Q2; now left). unfold mem, is_done in X. cbn [map existsb orb] in X. rewrite orb_false_r in X. apply Nat.eqb_eq in X. subst b. inversion Q1 as [|? ? X1 X2]. exact (X1 Hbt).
Qed.

(** ** Examples *)
(** Two members, two at a time, member 0 the best: it is in front of the queue again in the
    second step, where both are stepped without a race. *)
Definition ex_two : list member := [new_member (ex_env []) []; new_member (ex_env []) []].
Example C65_nonvacuous : let PE := ex_pool_env 6 2 100 false in
  sorts (pe_sort PE) /\ Forall (joinable PE) ex_two /\ pe_use_predicted PE = false /\
  exists P L, history PE (pool_of PE ex_two []) [inputs_of [(4, 3); (8, 7)]]%Z L P /\ po_best P = Some 0 /\ launches PE P = [0; 1].
Proof.
  cbv zeta. split; [exact isort_sorts|]. split; [constructor; [|constructor; [|constructor]]; apply new_joinable; first [discriminate|reflexivity]|]. split; [reflexivity|].
  destruct (run_ops_check (ex_pool_env 6 2 100 false) (pool_of (ex_pool_env 6 2 100 false) ex_two []) [inputs_of [(4, 3); (8, 7)]]%Z
    (fun P L => match po_best P with Some 0 => true | _ => false end && nat_list_eqb (launches (ex_pool_env 6 2 100 false) P) [0; 1])) as (P & L & H & C); [vm_compute; reflexivity|].
  apply andb_true_iff in C as [C1 C2]. exists P, L. split; [exact H|]. split; [destruct (po_best P) as [[|]|]; [reflexivity|discriminate C1|discriminate C1]|now apply nat_list_eqb_eq].
Qed.

(** With the default configuration (active_optimizations 6, concurrent_optimizations 3,
    prediction_start 100, no predicted-fitness stop condition) two ordinary members are enough
    for a data race in the second step, and what the reporters are told depends on the
    schedule: if member 1 is late, the fitnesses of its previous step are reported twice. *)
Definition reports (P : pool) : list f64 := flat_map (fun d => match d_event d with EPostEval _ fs _ => fs | _ => [] end) (po_trace P).
Lemma f64_same_refl a : f64_same a a = true.
Proof. destruct a as [s|s| |s m e H]; cbn [f64_same]; [apply Bool.eqb_reflx|apply Bool.eqb_reflx|reflexivity|]. rewrite Bool.eqb_reflx, Pos.eqb_refl, Z.eqb_refl. reflexivity. Qed.
Definition early : nat -> list nat := fun _ => [0; 1].
Definition ex_second : pool_input := {| pi_inputs := fun i => match i with 0 => good_step 9 8 | _ => good_step 2 1 end; pi_sched := late; pi_interrupt := false |}.
Theorem C65_default_configuration_refuted : exists PE ms ops inp, sorts (pe_sort PE) /\ Forall (joinable PE) ms /\
  pe_active PE = 6 /\ pe_concurrent PE = 3 /\ pe_start PE = 100 /\ pe_use_predicted PE = false /\
  exists P L, history PE (pool_of PE ms []) ops L P /\ ~ race_free PE P (with_sched inp late) /\
    exists P1 x1 P2 x2, pool_step PE P (with_sched inp late) = (P1, Ok x1) /\ pool_step PE P (with_sched inp early) = (P2, Ok x2) /\ reports P1 <> reports P2.
Proof.
  set (PE := ex_pool_env 6 3 100 false). exists PE, ex_two, [inputs_of [(8, 7); (4, 3)]]%Z, ex_second.
  assert (HJ : Forall (joinable PE) ex_two) by (constructor; [|constructor; [|constructor]]; apply new_joinable; first [discriminate|reflexivity]).
  assert (HS : sorts (pe_sort PE)) by exact isort_sorts. split; [exact HS|]. split; [exact HJ|]. do 4 (split; [reflexivity|]).
  destruct (run_ops_check PE (pool_of PE ex_two []) [inputs_of [(8, 7); (4, 3)]]%Z
    (fun P L => match po_best P with Some 1 => true | _ => false end && nat_list_eqb (launches PE P) [0; 1] &&
      match nth_error (po_members (fst (refill PE P))) 0 with Some m => match snd (m_step m (pi_inputs ex_second 0)) with Ok _ => negb (is_better (e_info (pe_env PE)) (m_best (fst (m_step m (pi_inputs ex_second 0)))) (po_best_fit P)) | _ => false end | None => false end &&
      match pool_step PE P (with_sched ex_second late), pool_step PE P (with_sched ex_second early) with (P1, Ok _), (P2, Ok _) => negb (f64s_same (reports P1) (reports P2)) | _, _ => false end)) as (P & L & H & C); [vm_compute; reflexivity|].
  clearbody PE. apply andb_true_iff in C as [C C4]. apply andb_true_iff in C as [C C3]. apply andb_true_iff in C as [C1 C2].
  exists P, L. split; [exact H|]. split.
  - assert (HB : po_best P = Some 1) by (destruct (po_best P) as [[|[|]]|]; [discriminate C1|reflexivity|discriminate C1|discriminate C1]). apply nat_list_eqb_eq in C2.
    destruct (nth_error (po_members (fst (refill PE P))) 0) as [m|] eqn:Em; [|discriminate C3]. destruct (snd (m_step m (pi_inputs ex_second 0))) as [x|w|] eqn:Ex; [|discriminate C3|discriminate C3]. apply negb_true_iff in C3.
    apply (C65_overtaken_best_races PE ex_two [] _ L P ex_second 0 1 [1] m x HS HJ H HB C2 (or_introl eq_refl) Em Ex C3).
  - destruct (pool_step PE P (with_sched ex_second late)) as [P1 [x1|w|]]; [|discriminate C4|discriminate C4]. destruct (pool_step PE P (with_sched ex_second early)) as [P2 [x2|w|]]; [|discriminate C4|discriminate C4].
    exists P1, x1, P2, x2. split; [reflexivity|]. split; [reflexivity|]. intros X. rewrite X in C4. apply negb_true_iff in C4. assert (f64s_same (reports P2) (reports P2) = true) as Y by (generalize (reports P2); induction l as [|f l IH]; [reflexivity|cbn [f64s_same]; rewrite IH, andb_true_r; apply f64_same_refl]). congruence.
Qed.
