(** * Facts about objective_info. *)
From Coq Require Import ZArith Bool Permutation.
From Verif Require Import Prelude Flt FltFacts Round8 ShowNum ShowNumFacts PropNode ParInfo ParInfoFacts FlatMap ObjInfo.

Definition names (o : obj_info) : list string := map pi_name (oi_free o).

(** No name twice among the free parameters, none both free and locked, locked keys sorted. *)
Definition oi_inv (o : obj_info) : Prop :=
  NoDup (names o) /\ (forall n, In n (names o) -> ~ In n (keys (oi_locked o))) /\ fm_sorted (oi_locked o).

Lemma forallb_filter_id {A} (f : A -> bool) l : forallb f l = true -> filter f l = l.
Proof. induction l as [|x l IH]; cbn [forallb filter]; [auto|]. destruct (f x); [|discriminate]. intros H. now rewrite IH. Qed.

Lemma find_par_Some n l p : find_par n l = Some p -> In p l /\ pi_name p = n.
Proof.
  induction l as [|q t IH]; cbn [find_par In]; [discriminate|].
  destruct (String.eqb_spec (pi_name q) n) as [E|E]; [intros [= <-]; auto|].
  intros H. destruct (IH H). auto.
Qed.
Lemma find_par_None n l : find_par n l = None <-> ~ In n (map pi_name l).
Proof.
  induction l as [|q t IH]; cbn [find_par map In]; [intuition|].
  destruct (String.eqb_spec (pi_name q) n) as [E|E].
  - split; [discriminate|intros H; exfalso; auto].
  - rewrite IH. intuition.
Qed.
Lemma find_par_app n l l' : find_par n (l ++ l') = match find_par n l with Some p => Some p | None => find_par n l' end.
Proof. induction l as [|q t IH]; cbn [find_par app]; [reflexivity|]. destruct (String.eqb _ _); auto. Qed.

Lemma find_pos_None n l : find_pos n l = None <-> find_par n l = None.
Proof.
  induction l as [|q t IH]; cbn [find_pos find_par]; [intuition|].
  destruct (String.eqb _ _); [split; discriminate|].
  destruct (find_pos n t); [|intuition]. rewrite <- IH. split; discriminate.
Qed.
Lemma find_pos_Some n l i : find_pos n l = Some i ->
  exists p, nth_error l i = Some p /\ find_par n l = Some p /\ pi_name p = n /\ i < length l.
Proof.
  revert i. induction l as [|q t IH]; intros i; cbn [find_pos find_par]; [discriminate|].
  destruct (String.eqb_spec (pi_name q) n) as [E|E].
  - intros [= <-]. exists q. cbn. split; [|split; [|split]]; auto. lia.
  - destruct (find_pos n t) as [j|]; [|discriminate]. intros [= <-].
    destruct (IH j eq_refl) as (p & H1 & H2 & H3 & H4). exists p. cbn. split; [|split; [|split]]; auto. lia.
Qed.
Lemma find_pos_nth l : NoDup (map pi_name l) -> forall i p, nth_error l i = Some p -> find_pos (pi_name p) l = Some i.
Proof.
  induction l as [|q t IH]; cbn [map]; intros Hn i p; [destruct i; discriminate|].
  inversion_clear Hn as [|? ? H1 H2]. destruct i as [|i]; cbn [nth_error find_pos].
  - intros [= ->]. now rewrite String.eqb_refl.
  - intros H. destruct (String.eqb_spec (pi_name q) (pi_name p)) as [E|E].
    + exfalso. apply H1. rewrite E. apply in_map. eapply nth_error_In; eauto.
    + now rewrite (IH H2 i p H).
Qed.

Lemma oi_try_get_None o n : oi_try_get o n = None <-> ~ In n (names o) /\ ~ In n (keys (oi_locked o)).
Proof.
  unfold oi_try_get, try_get_locked, names. rewrite <- fm_get_None.
  destruct (find_par n (oi_free o)) eqn:E.
  - apply find_par_Some in E as [H <-]. split; [discriminate|]. intros [H1 _]. exfalso. apply H1, in_map, H.
  - apply find_par_None in E. intuition.
Qed.

Lemma erase_par_names n l : map pi_name (erase_par n l) = remove string_dec n (map pi_name l) \/ ~ NoDup (map pi_name l).
Proof.
  induction l as [|q t IH]; cbn [erase_par map remove]; [auto|].
  destruct (String.eqb_spec (pi_name q) n) as [E|E]; destruct (string_dec n (pi_name q)) as [E'|E']; try congruence.
  - destruct (in_dec string_dec n (map pi_name t)) as [H|H].
    + right. intros Hn. inversion Hn. subst. auto.
    + left. subst. rewrite notin_remove; auto.
  - cbn [map]. destruct IH as [->|H]; [auto|]. right. intros Hn. inversion Hn. auto.
Qed.
Lemma erase_par_In p n l : In p (erase_par n l) -> In p l.
Proof.
  induction l as [|q t IH]; cbn [erase_par In]; [auto|].
  destruct (String.eqb _ _); cbn [In]; intuition.
Qed.
Lemma erase_par_filter n l : NoDup (map pi_name l) ->
  erase_par n l = filter (fun p => negb (String.eqb (pi_name p) n)) l.
Proof.
  induction l as [|q t IH]; cbn [erase_par map filter]; [auto|]. intros Hn. inversion_clear Hn as [|? ? H1 H2].
  destruct (String.eqb_spec (pi_name q) n) as [E|E]; cbn [negb].
  - symmetry. apply forallb_filter_id. apply forallb_forall. intros p Hp.
    destruct (String.eqb_spec (pi_name p) n) as [E2|]; [|reflexivity].
    exfalso. apply H1. rewrite E, <- E2. now apply in_map.
  - now rewrite IH.
Qed.
Lemma find_par_erase_neq n m l : n <> m -> find_par m (erase_par n l) = find_par m l.
Proof.
  intros Hn. induction l as [|q t IH]; cbn [erase_par find_par]; [auto|].
  destruct (String.eqb_spec (pi_name q) n) as [E|E].
  - destruct (String.eqb_spec (pi_name q) m) as [E2|E2]; [congruence|reflexivity].
  - cbn [find_par]. now rewrite IH.
Qed.
Lemma find_par_erase_eq n l : NoDup (map pi_name l) -> find_par n (erase_par n l) = None.
Proof.
  intros Hn. rewrite erase_par_filter by auto. apply find_par_None. rewrite in_map_iff.
  intros (p & E & H). apply filter_In in H as [_ H]. rewrite E, String.eqb_refl in H. discriminate.
Qed.
Lemma map_filter_name n l : map pi_name (filter (fun p => negb (String.eqb (pi_name p) n)) l)
  = filter (fun m => negb (String.eqb m n)) (map pi_name l).
Proof. induction l as [|q t IH]; cbn [filter map]; [auto|]. destruct (negb _); cbn [map]; now rewrite IH. Qed.

(** ** add *)
Lemma oi_add_spec o p :
  let known := oi_try_get o (pi_name p) <> None in
  (known \/ bad_name (pi_name p) = true -> exists w, oi_add o p = (o, Throw w)) /\
  (~ known -> bad_name (pi_name p) = false -> is_constant p = true ->
     oi_add o p = (with_locked o (fm_set (pi_name p) (pi_mean p) (oi_locked o)), Ok (pi_mean p))) /\
  (~ known -> bad_name (pi_name p) = false -> is_constant p = false ->
     oi_add o p = (with_free o (oi_free o ++ [p]), Ok (pi_mean p))).
Proof.
  unfold oi_add, oi_try_get, try_get_locked.
  destruct (find_par (pi_name p) (oi_free o)) as [q|]; [|destruct (fm_get (pi_name p) (oi_locked o)) as [v|]].
  - split; [eauto|]. split; intros H; exfalso; apply H; discriminate.
  - split; [eauto|]. split; intros H; exfalso; apply H; discriminate.
  - split.
    + intros [H| ->]; [congruence|eauto].
    + split; intros _ -> ->; reflexivity.
Qed.

Lemma oi_add_cases o p :
  (exists w, oi_add o p = (o, Throw w)) \/
  (oi_try_get o (pi_name p) = None /\ bad_name (pi_name p) = false /\
   ((is_constant p = true /\ oi_add o p = (with_locked o (fm_set (pi_name p) (pi_mean p) (oi_locked o)), Ok (pi_mean p))) \/
    (is_constant p = false /\ oi_add o p = (with_free o (oi_free o ++ [p]), Ok (pi_mean p))))).
Proof.
  destruct (oi_add_spec o p) as (H1 & H2 & H3).
  destruct (oi_try_get o (pi_name p)) eqn:E; [left; apply H1; left; discriminate|].
  destruct (bad_name (pi_name p)) eqn:B; [left; apply H1; auto|].
  right. split; [auto|]. split; [auto|].
  assert (~ (@None f64 <> None)) as Hn by (intros H; apply H; reflexivity).
  destruct (is_constant p) eqn:C; [left|right]; auto.
Qed.

Lemma oi_add_inv o p : oi_inv o -> oi_inv (fst (oi_add o p)).
Proof.
  intros (I1 & I2 & I3). destruct (oi_add_cases o p) as [(w & ->)|(Hn & _ & [(_ & ->)|(_ & ->)])]; cbn [fst].
  - split; [|split]; auto.
  - apply oi_try_get_None in Hn as [Hn1 Hn2].
    unfold oi_inv, names; cbn [with_locked oi_free oi_locked]. split; [auto|]. split.
    + intros n H. rewrite keys_fm_set. intros [->|H2]; [auto|eapply I2; eauto].
    + now apply fm_set_sorted.
  - apply oi_try_get_None in Hn as [Hn1 Hn2].
    unfold oi_inv, names; cbn [with_free oi_free oi_locked]. rewrite map_app. cbn [map]. split; [|split; auto].
    + rewrite <- rev_involutive. apply NoDup_rev. rewrite rev_app_distr. cbn. constructor; [|now apply NoDup_rev].
      rewrite <- in_rev. exact Hn1.
    + intros n H. apply in_app_iff in H as [H|[<-|[]]]; auto.
Qed.

(** The value and position of existing parameters never change through [add]. *)
Definition oi_ext (o o' : obj_info) : Prop :=
  (exists ps, oi_free o' = oi_free o ++ ps) /\
  (forall n v, oi_try_get o n = Some v -> oi_try_get o' n = Some v) /\
  (forall n v, try_get_locked o n = Some v -> try_get_locked o' n = Some v) /\
  oi_minimize o' = oi_minimize o /\ oi_target o' = oi_target o /\ oi_name o' = oi_name o.
Lemma oi_ext_refl o : oi_ext o o.
Proof. split; [exists []; now rewrite app_nil_r|]. split; [auto|]. split; [auto|]. split; [auto|]. split; auto. Qed.
Lemma oi_ext_trans a b c : oi_ext a b -> oi_ext b c -> oi_ext a c.
Proof.
  intros ((p & Hp) & H1 & H2 & H3 & H4 & H5) ((q & Hq) & K1 & K2 & K3 & K4 & K5).
  split; [exists (p ++ q); rewrite Hq, Hp; now rewrite app_assoc|].
  split; [auto|]. split; [auto|]. split; [congruence|]. split; congruence.
Qed.
Lemma fm_get_locked_set o k v n : try_get_locked (with_locked o (fm_set k v (oi_locked o))) n
  = if String.eqb k n then Some v else try_get_locked o n.
Proof.
  unfold try_get_locked. cbn [with_locked oi_locked]. destruct (String.eqb_spec k n) as [->|H].
  - apply fm_get_set_eq.
  - now apply fm_get_set_neq.
Qed.
Lemma oi_add_ext o p : oi_ext o (fst (oi_add o p)).
Proof.
  destruct (oi_add_cases o p) as [(w & ->)|(Hn & _ & [(_ & ->)|(_ & ->)])]; cbn [fst].
  - apply oi_ext_refl.
  - assert (Hl : try_get_locked o (pi_name p) = None).
    { unfold oi_try_get in Hn. destruct (find_par _ _); congruence. }
    split; [exists []; cbn; now rewrite app_nil_r|]. split; [|split].
    + intros n v. unfold oi_try_get. rewrite fm_get_locked_set. cbn [with_locked oi_free].
      destruct (find_par n (oi_free o)); auto.
      destruct (String.eqb_spec (pi_name p) n) as [<-|]; [congruence|auto].
    + intros n v. rewrite fm_get_locked_set. destruct (String.eqb_spec (pi_name p) n) as [<-|]; [congruence|auto].
    + split; [reflexivity|split; reflexivity].
  - split; [exists [p]; reflexivity|]. split; [|split; [auto|split; [reflexivity|split; reflexivity]]].
    intros n v. unfold oi_try_get. cbn [with_free oi_free oi_locked]. rewrite find_par_app.
    destruct (find_par n (oi_free o)) eqn:E; auto. intros H. cbn [find_par].
    destruct (String.eqb_spec (pi_name p) n) as [<-|]; [|exact H].
    unfold oi_try_get in Hn. rewrite E in Hn. unfold try_get_locked in *. congruence.
Qed.
(** After a successful add the parameter is known with its mean. *)
Lemma oi_add_Ok o p o' v : oi_add o p = (o', Ok v) -> v = pi_mean p /\ oi_try_get o' (pi_name p) = Some v.
Proof.
  destruct (oi_add_cases o p) as [(w & ->)|(Hn & _ & [(_ & ->)|(_ & ->)])]; [discriminate| |]; intros [= <- <-]; (split; [reflexivity|]).
  - unfold oi_try_get. rewrite fm_get_locked_set, String.eqb_refl. cbn [with_locked oi_free].
    unfold oi_try_get in Hn. destruct (find_par _ _); [discriminate|reflexivity].
  - unfold oi_try_get. cbn [with_free oi_free]. rewrite find_par_app.
    unfold oi_try_get in Hn. destruct (find_par _ _); [discriminate|]. cbn [find_par]. now rewrite String.eqb_refl.
Qed.

(** ** Per-name view *)
Inductive pstatus := Unknown | Free (p : par_info) | Locked (v : f64).
Definition status (o : obj_info) (n : string) : pstatus :=
  match find_par n (oi_free o) with
  | Some p => Free p
  | None => match try_get_locked o n with Some v => Locked v | None => Unknown end
  end.
Lemma status_try_get o n : oi_try_get o n = match status o n with Unknown => None | Free p => Some (pi_mean p) | Locked v => Some v end.
Proof. unfold oi_try_get, status. destruct (find_par _ _); [reflexivity|]. destruct (try_get_locked _ _); reflexivity. Qed.

Definition lock_status (v : f64) (s : pstatus) : pstatus := match s with Unknown => Unknown | _ => Locked v end.

Lemma lock_parameter_spec o n v : oi_inv o ->
  let '(o', b) := lock_parameter o n v in
  oi_inv o' /\ (b = true <-> status o n <> Unknown) /\
  (forall m, status o' m = if String.eqb m n then lock_status v (status o m) else status o m) /\
  oi_free o' = filter (fun p => negb (String.eqb (pi_name p) n)) (oi_free o) /\
  oi_minimize o' = oi_minimize o /\ oi_target o' = oi_target o /\ oi_name o' = oi_name o.
Proof.
  intros (I1 & I2 & I3). unfold lock_parameter.
  destruct (find_par n (oi_free o)) as [p|] eqn:Ep.
  - pose proof (find_par_Some _ _ _ Ep) as [Hin Hnm].
    assert (Hf : erase_par n (oi_free o) = filter (fun p => negb (String.eqb (pi_name p) n)) (oi_free o)) by now apply erase_par_filter.
    split; [|split; [|split; [|split; [exact Hf|split; [reflexivity|split; reflexivity]]]]].
    + unfold oi_inv, names. cbn [with_free with_locked oi_free oi_locked]. rewrite Hf, map_filter_name.
      split; [now apply NoDup_filter|]. split; [|now apply fm_set_sorted].
      intros m Hm. apply filter_In in Hm as [Hm1 Hm2]. rewrite keys_fm_set. intros [E|H]; [|eapply I2; eauto].
      rewrite Hnm in E. subst m. rewrite String.eqb_refl in Hm2. discriminate.
    + split; [|auto]. intros _. unfold status. rewrite Ep. discriminate.
    + intros m. unfold status, try_get_locked. cbn [with_free with_locked oi_free oi_locked].
      destruct (String.eqb_spec m n) as [->|Hne].
      * rewrite find_par_erase_eq by auto. rewrite Hnm, fm_get_set_eq, Ep. reflexivity.
      * rewrite find_par_erase_neq by auto. rewrite Hnm, fm_get_set_neq by auto. reflexivity.
  - assert (Hfil : filter (fun p => negb (String.eqb (pi_name p) n)) (oi_free o) = oi_free o).
    { apply forallb_filter_id. apply forallb_forall. intros p Hp. apply find_par_None in Ep.
      destruct (String.eqb_spec (pi_name p) n) as [E|]; [|reflexivity]. exfalso. apply Ep. rewrite <- E. now apply in_map. }
    destruct (fm_get n (oi_locked o)) as [w|] eqn:El.
    + split; [|split; [|split; [|split; [now symmetry|split; [reflexivity|split; reflexivity]]]]].
      * unfold oi_inv, names. cbn [with_locked oi_free oi_locked]. split; [auto|]. split; [|now apply fm_set_sorted].
        intros m Hm. rewrite keys_fm_set. intros [E|H]; [|eapply I2; eauto]. subst m. apply find_par_None in Ep. auto.
      * split; [|auto]. intros _. unfold status, try_get_locked. rewrite Ep, El. discriminate.
      * intros m. unfold status. rewrite fm_get_locked_set. cbn [with_locked oi_free].
        rewrite (String.eqb_sym m n). destruct (String.eqb_spec n m) as [<-|Hne].
        -- rewrite Ep. unfold try_get_locked. now rewrite El.
        -- reflexivity.
    + split; [split; [|split]; auto|]. split; [|split; [|split; [now symmetry|split; [reflexivity|split; reflexivity]]]].
      * split; [discriminate|]. intros H. exfalso. apply H. unfold status, try_get_locked. now rewrite Ep, El.
      * intros m. destruct (String.eqb_spec m n) as [->|Hne]; [|reflexivity].
        unfold status, try_get_locked. now rewrite Ep, El.
Qed.

(** ** import_locked *)
Definition sel (inc exc : pattern) (r : rec) : bool := selected inc exc (r_name r).
(** all selected records for name [n], in order *)
Definition for_name (inc exc : pattern) (n : string) (l : list rec) : list rec :=
  filter (fun r => sel inc exc r && String.eqb (r_name r) n) l.

Definition known (o : obj_info) (n : string) : bool := match status o n with Unknown => false | _ => true end.

Lemma known_lock o n v : oi_inv o -> forall m, known (fst (lock_parameter o n v)) m = known o m.
Proof.
  intros I m. pose proof (lock_parameter_spec o n v I) as H. destruct (lock_parameter o n v) as [o' b].
  destruct H as (_ & _ & H & _). unfold known. cbn [fst]. rewrite H.
  destruct (String.eqb m n); [|reflexivity]. destruct (status o m); reflexivity.
Qed.

Lemma filter_filter {A} (f g : A -> bool) l : filter f (filter g l) = filter (fun x => g x && f x) l.
Proof. induction l as [|x l IH]; cbn [filter]; [auto|]. destruct (g x); cbn [filter andb]; rewrite IH; reflexivity. Qed.

Lemma lock_records_spec inc exc l : forall o, oi_inv o ->
  let '(o', (a, b)) := lock_records inc exc o l in
  oi_inv o' /\
  (forall n, status o' n = fold_left (fun s r => lock_status (r_value r) s) (for_name inc exc n l) (status o n)) /\
  oi_free o' = filter (fun p => match for_name inc exc (pi_name p) l with [] => true | _ => false end) (oi_free o) /\
  a = length (filter (fun r => sel inc exc r && known o (r_name r)) l) /\
  b = length (filter (fun r => sel inc exc r && negb (known o (r_name r))) l) /\
  oi_minimize o' = oi_minimize o /\ oi_target o' = oi_target o /\ oi_name o' = oi_name o.
Proof.
  induction l as [|r t IH]; intros o I; cbn [lock_records].
  - split; [auto|]. split; [reflexivity|]. split; [|split; [reflexivity|split; [reflexivity|split; [reflexivity|split; reflexivity]]]].
    symmetry. apply forallb_filter_id. now apply forallb_forall.
  - unfold lock_record. unfold for_name, sel. cbn [filter]. fold (sel inc exc r).
    change (selected inc exc (r_name r)) with (sel inc exc r).
    destruct (sel inc exc r) eqn:Es; cbn [negb andb].
    + pose proof (lock_parameter_spec o (r_name r) (r_value r) I) as Hl.
      pose proof (known_lock o (r_name r) (r_value r) I) as Hk.
      destruct (lock_parameter o (r_name r) (r_value r)) as [o1 b1]. cbn [fst] in Hk.
      destruct Hl as (I1 & Hb & Hs & Hf & Hm & Ht & Hn).
      specialize (IH o1 I1).
      assert (Hb' : b1 = known o (r_name r)).
      { unfold known. destruct (status o (r_name r)) eqn:Est; destruct b1; auto.
        - exfalso. apply Hb; reflexivity.
        - apply Hb; discriminate.
        - apply Hb; discriminate. }
      assert (Hcnt : forall (o2 : obj_info) (a2 b2 : nat) (x : nat * nat), x = (if b1 then (1, 0) else (0, 1)) ->
                 (let '(a1, b1) := x in let '(o3, (a3, b3)) := (o2, (a2, b2)) in (o3, (a1 + a3, b1 + b3)))
                 = (o2, if b1 then (S a2, b2) else (a2, S b2))).
      { intros o2 a2 b2 x ->. destruct b1; reflexivity. }
      destruct (lock_records inc exc o1 t) as [o2 [a2 b2]].
      destruct IH as (I2 & Hs2 & Hf2 & Ha & Hb2 & Hm2 & Ht2 & Hn2).
      assert (Ea : a2 = length (filter (fun r0 => sel inc exc r0 && known o (r_name r0)) t)).
      { rewrite Ha. f_equal. apply filter_ext. intros r0. now rewrite Hk. }
      assert (Eb : b2 = length (filter (fun r0 => sel inc exc r0 && negb (known o (r_name r0))) t)).
      { rewrite Hb2. f_equal. apply filter_ext. intros r0. now rewrite Hk. }
      assert (HS : forall n, status o2 n = fold_left (fun s r0 => lock_status (r_value r0) s)
                (if String.eqb (r_name r) n then r :: for_name inc exc n t else for_name inc exc n t) (status o n)).
      { intros n. rewrite Hs2, Hs. rewrite String.eqb_sym. destruct (String.eqb (r_name r) n); reflexivity. }
      assert (HF : oi_free o2 = filter (fun p => match (if String.eqb (r_name r) (pi_name p) then r :: for_name inc exc (pi_name p) t else for_name inc exc (pi_name p) t) with [] => true | _ => false end) (oi_free o)).
      { rewrite Hf2, Hf, filter_filter. apply filter_ext. intros p. rewrite (String.eqb_sym (pi_name p)).
        destruct (String.eqb (r_name r) (pi_name p)); reflexivity. }
      subst b1. destruct (known o (r_name r)); cbn [length negb];
        (split; [exact I2|split; [exact HS|split; [exact HF|split; [|split; [|split; [congruence|split; congruence]]]]]]);
        unfold sel in *; rewrite ?Ea, ?Eb; lia.
    + specialize (IH o I). destruct (lock_records inc exc o t) as [o2 [a2 b2]]. exact IH.
Qed.

(** ** import_mean_std *)
Definition import_status (pis : import_settings) (r : rec) (s : pstatus) : pstatus :=
  if feq (r_std r) fzero then lock_status (r_value r) s
  else match s with Free p => Free (import_par pis r p) | _ => s end.

Lemma update_par_names n f l : (forall p, pi_name (f p) = pi_name p) -> map pi_name (update_par n f l) = map pi_name l.
Proof.
  intros Hf. induction l as [|q t IH]; cbn [update_par map]; [auto|].
  destruct (String.eqb _ _); cbn [map]; [now rewrite Hf|now rewrite IH].
Qed.
Lemma find_par_update n f l m : (forall p, pi_name (f p) = pi_name p) ->
  find_par m (update_par n f l) = if String.eqb m n then option_map f (find_par m l) else find_par m l.
Proof.
  intros Hf. induction l as [|q t IH]; cbn [update_par find_par].
  - destruct (String.eqb m n); reflexivity.
  - destruct (String.eqb_spec (pi_name q) n) as [E|E]; cbn [find_par].
    + rewrite Hf. destruct (String.eqb_spec (pi_name q) m) as [E2|E2].
      * replace (String.eqb m n) with true by (symmetry; apply String.eqb_eq; congruence). reflexivity.
      * destruct (String.eqb_spec m n); [congruence|reflexivity].
    + destruct (String.eqb_spec (pi_name q) m) as [E2|E2].
      * destruct (String.eqb_spec m n); [congruence|reflexivity].
      * exact IH.
Qed.

Definition is_free (o : obj_info) (n : string) : bool := match status o n with Free _ => true | _ => false end.

Lemma import_record_spec pis o r : oi_inv o ->
  let '(o', (a, b)) := import_record pis o r in
  oi_inv o' /\
  (forall n, status o' n = if sel (is_include pis) (is_exclude pis) r && String.eqb (r_name r) n
                           then import_status pis r (status o n) else status o n) /\
  names o' = filter (is_free o') (names o) /\
  a + b = (if sel (is_include pis) (is_exclude pis) r then 1 else 0) /\
  (a = 1 <-> sel (is_include pis) (is_exclude pis) r = true /\
             (if feq (r_std r) fzero then known o (r_name r) else is_free o (r_name r)) = true) /\
  oi_minimize o' = oi_minimize o /\ oi_target o' = oi_target o /\ oi_name o' = oi_name o.
Proof.
  intros I. unfold import_record. fold (sel (is_include pis) (is_exclude pis) r).
  assert (Hall : forall o2 : obj_info, oi_inv o2 -> names o2 = filter (is_free o2) (names o2)).
  { intros o2 I2. symmetry. apply forallb_filter_id. apply forallb_forall. intros n Hn.
    unfold is_free, status. destruct (find_par n (oi_free o2)) eqn:E; [reflexivity|].
    apply find_par_None in E. contradiction. }
  destruct (sel (is_include pis) (is_exclude pis) r) eqn:Es; cbn [negb andb].
  - destruct (feq (r_std r) fzero) eqn:E0.
    + pose proof (lock_parameter_spec o (r_name r) (r_value r) I) as Hl.
      destruct (lock_parameter o (r_name r) (r_value r)) as [o1 b1].
      destruct Hl as (I1 & Hb & Hs & Hf & Hm & Ht & Hn).
      assert (Hst : forall n, status o1 n = if String.eqb (r_name r) n then import_status pis r (status o n) else status o n).
      { intros n. rewrite Hs, String.eqb_sym. unfold import_status. rewrite E0. reflexivity. }
      assert (Hnm : names o1 = filter (is_free o1) (names o)).
      { unfold names. rewrite Hf, map_filter_name. apply filter_ext_in. intros n Hin.
        unfold is_free. rewrite Hst. rewrite String.eqb_sym. destruct (String.eqb_spec (r_name r) n) as [E|E]; cbn [negb].
        - unfold import_status. rewrite E0. destruct (status o n); reflexivity.
        - unfold status. destruct (find_par n (oi_free o)) eqn:Ef; [reflexivity|]. apply find_par_None in Ef. contradiction. }
      assert (Hk : b1 = true <-> known o (r_name r) = true).
      { rewrite Hb. unfold known. destruct (status o (r_name r)); split; intros H; try discriminate; auto. }
      destruct b1; (split; [exact I1|split; [exact Hst|split; [exact Hnm|split; [reflexivity|split; [|split; [auto|split; auto]]]]]]).
      * split; [intros _; split; [reflexivity|now apply Hk]|auto].
      * split; [discriminate|]. intros [_ H]. apply Hk in H. discriminate.
    + destruct (find_par (r_name r) (oi_free o)) as [p|] eqn:Ep.
      * set (o1 := with_free o _).
        assert (Hf : forall p, pi_name (import_par pis r p) = pi_name p) by reflexivity.
        assert (N1 : names o1 = names o) by (unfold names, o1; cbn [with_free oi_free]; now apply update_par_names).
        assert (I1 : oi_inv o1).
        { destruct I as (A1 & A2 & A3). unfold oi_inv. rewrite N1. split; [auto|split; auto]. }
        split; [exact I1|]. split; [|split; [|split; [reflexivity|split; [|split; [reflexivity|split; reflexivity]]]]].
        -- intros n. unfold status, o1, try_get_locked. cbn [with_free oi_free oi_locked]. rewrite find_par_update by auto.
           rewrite String.eqb_sym. destruct (String.eqb_spec (r_name r) n) as [<-|E]; [|reflexivity].
           rewrite Ep. cbn [option_map]. unfold import_status. now rewrite E0.
        -- rewrite <- N1. now apply Hall.
        -- split; [|auto]. intros _. split; [reflexivity|]. unfold is_free, status. now rewrite Ep.
      * split; [exact I|]. split; [|split; [now apply Hall|split; [reflexivity|split; [|split; [reflexivity|split; reflexivity]]]]].
        -- intros n. destruct (String.eqb_spec (r_name r) n) as [<-|E]; [|reflexivity].
           unfold import_status, status. rewrite E0, Ep. destruct (try_get_locked o (r_name r)); reflexivity.
        -- split; [discriminate|]. intros [_ H]. unfold is_free, status in H. rewrite Ep in H.
           destruct (try_get_locked o (r_name r)); discriminate.
  - split; [exact I|]. split; [reflexivity|]. split; [now apply Hall|]. split; [reflexivity|].
    split; [split; [discriminate|intros [H _]; discriminate]|]. split; [reflexivity|split; reflexivity].
Qed.

Lemma import_records_spec pis l : forall o, oi_inv o ->
  let '(o', (a, b)) := import_records pis o l in
  oi_inv o' /\
  (forall n, status o' n = fold_left (fun s r => import_status pis r s) (for_name (is_include pis) (is_exclude pis) n l) (status o n)) /\
  names o' = filter (is_free o') (names o) /\
  a + b = length (filter (sel (is_include pis) (is_exclude pis)) l) /\
  oi_minimize o' = oi_minimize o /\ oi_target o' = oi_target o /\ oi_name o' = oi_name o.
Proof.
  induction l as [|r t IH]; intros o I; cbn [import_records].
  - split; [auto|]. split; [reflexivity|]. split; [|split; [reflexivity|split; [reflexivity|split; reflexivity]]].
    symmetry. apply forallb_filter_id. apply forallb_forall. intros n Hn.
    unfold is_free, status. destruct (find_par n (oi_free o)) eqn:E; [reflexivity|].
    apply find_par_None in E. contradiction.
  - pose proof (import_record_spec pis o r I) as H1. destruct (import_record pis o r) as [o1 [a1 b1]].
    destruct H1 as (I1 & Hs1 & Hn1 & Hc1 & _ & Hm1 & Ht1 & Hna1).
    specialize (IH o1 I1). destruct (import_records pis o1 t) as [o2 [a2 b2]].
    destruct IH as (I2 & Hs2 & Hn2 & Hc2 & Hm2 & Ht2 & Hna2).
    assert (HS : forall n, status o2 n = fold_left (fun s r0 => import_status pis r0 s) (for_name (is_include pis) (is_exclude pis) n (r :: t)) (status o n)).
    { intros n. rewrite Hs2, Hs1. unfold for_name at 2. cbn [filter].
      destruct (sel (is_include pis) (is_exclude pis) r && String.eqb (r_name r) n); reflexivity. }
    split; [exact I2|]. split; [exact HS|]. split; [|split].
    + rewrite Hn2, Hn1, filter_filter. apply filter_ext. intros n.
      (* once not free, never free again *)
      unfold is_free. rewrite Hs2. destruct (status o1 n) eqn:E; [| |]; cbn [andb].
      * induction (for_name (is_include pis) (is_exclude pis) n t) as [|r0 q IHq]; [reflexivity|]. cbn [fold_left].
        replace (import_status pis r0 Unknown) with Unknown by (unfold import_status; destruct (feq _ _); reflexivity). exact IHq.
      * reflexivity.
      * clear. revert v. induction (for_name (is_include pis) (is_exclude pis) n t) as [|r0 q IHq]; intros v; [reflexivity|].
        cbn [fold_left]. unfold import_status at 2. destruct (feq _ _); apply IHq.
    + cbn [filter]. destruct (sel (is_include pis) (is_exclude pis) r); cbn [length]; lia.
    + split; [congruence|split; congruence].
Qed.

(** ** feasibility *)
Lemma feasible_list_spec l : forall vec, length vec = length l ->
  exists b, feasible_list l vec = Ok b /\
  (b = true <-> Forall2 (fun p v => fgt v (pi_max p) = false /\ flt v (pi_min p) = false) l vec).
Proof.
  induction l as [|p t IH]; intros [|v vt] Hl; try discriminate; cbn [feasible_list].
  - exists true. split; [reflexivity|]. split; auto.
  - destruct (fgt v (pi_max p) || flt v (pi_min p)) eqn:E.
    + exists false. split; [reflexivity|]. split; [discriminate|]. intros H. inversion_clear H as [|? ? ? ? [H1 H2] H3].
      rewrite H1, H2 in E. discriminate.
    + injection Hl as Hl. destruct (IH vt Hl) as (b & -> & Hb). exists b. split; [reflexivity|].
      apply orb_false_iff in E as [E1 E2]. rewrite Hb. split; [constructor; auto|]. intros H. now inversion_clear H.
Qed.

(** ** fitness *)
Lemma min_element_from_spec (lt : f64 -> f64 -> bool) (key : f64 -> Z) full :
  (forall a b, In a full -> In b full -> lt a b = (key a <? key b)%Z) ->
  forall l pre best bi, full = pre ++ l -> nth_error full bi = Some best -> bi < length pre ->
  (forall j x, j < length pre -> nth_error full j = Some x -> (key best <= key x)%Z /\ (j < bi -> (key best < key x)%Z)) ->
  let k := min_element_from lt best bi (length pre) l in
  exists bk, nth_error full k = Some bk /\
   forall j x, nth_error full j = Some x -> (key bk <= key x)%Z /\ (j < k -> (key bk < key x)%Z).
Proof.
  intros Hlt l. induction l as [|x t IH]; intros pre best bi Hfull Hb Hbi Hinv; cbn [min_element_from].
  - exists best. split; [exact Hb|]. intros j y Hj. apply Hinv; auto.
    rewrite app_nil_r in Hfull. rewrite <- Hfull. apply nth_error_Some. congruence.
  - assert (Hlen : length (pre ++ [x]) = S (length pre)) by (rewrite app_length; cbn; lia).
    assert (Hx : nth_error full (length pre) = Some x) by (subst; rewrite nth_error_app2, Nat.sub_diag by lia; reflexivity).
    assert (Hf' : full = (pre ++ [x]) ++ t) by (rewrite <- app_assoc; exact Hfull).
    rewrite (Hlt x best) by (eapply nth_error_In; eauto).
    rewrite <- Hlen. destruct (Z.ltb_spec (key x) (key best)) as [E|E]; apply IH; auto; try lia;
      intros j y Hj Hy; (assert (j < length pre \/ j = length pre) as [Hj'| ->] by lia;
      [destruct (Hinv j y Hj' Hy); lia|assert (y = x) by congruence; subst y; lia]).
Qed.
Lemma min_element_spec (lt : f64 -> f64 -> bool) (key : f64 -> Z) l : l <> [] ->
  (forall a b, In a l -> In b l -> lt a b = (key a <? key b)%Z) ->
  exists bk, nth_error l (min_element lt l) = Some bk /\
   forall j x, nth_error l j = Some x -> (key bk <= key x)%Z /\ (j < min_element lt l -> (key bk < key x)%Z).
Proof.
  intros Hne Hlt. destruct l as [|x t]; [congruence|]. cbn [min_element].
  apply (min_element_from_spec lt key (x :: t) Hlt t [x] x 0); auto.
  intros [|j] y Hj; cbn [length] in Hj; [|lia]. cbn. intros [= <-]. lia.
Qed.
