(** * C67: how old the eigensystem is that CMA samples with, and how often it is computed *)
From Coq Require Import Reals Lra Lia Arith Bool List ZArith.
From Flocq Require Import Core.
From Verif Require Import Prelude Num Cma CmaFacts Properties_Cma CmaEigen MatR Properties_Eigen.
From Verif Require Properties_Cma2.
Import ListNotations.
#[local] Open Scope R_scope.

(** ** Specification *)
(** The generation a history of calls ends in: one for each completed update, plus one while a
    population waits for its results. *)
Definition generation (lambda : nat) (ops : list (cma_op numR)) : nat :=
  let '(updates, pending) := snd (protocol lambda (0%nat, false) ops) in (updates + if pending then 1 else 0)%nat.
(** The covariance matrix is positive definite by more than the tolerance of the eigendecomposition. *)
Definition well_conditioned (n : nat) (C : list (list R)) : Prop :=
  exists c, tolerance C < c /\
    forall x, total n (fun i => x i * x i) = 1 -> c <= total n (fun i => total n (fun j => x i * covariance C i j * x j)).
(** The rows are drawn as mean + sigma M z, and possibly clamped to the bounds. *)
Definition drawn_with {G : Type} (gauss : G -> outcome (R * G)) (bounds : list (R * R)) (n : nat) (mean : list R) (sigma : R) (M : nat -> nat -> R) (r : list R) : Prop :=
  exists z g g' v, @draws numR G gauss n g = Ok (z, g')
    /\ length v = n /\ (forall i, (i < n)%nat -> value v i = value mean i + sigma * total n (fun k => M i k * value z k))
    /\ (r = v \/ r = @clamp_all numR bounds v).

Lemma total_0 m : total m (fun _ => 0) = 0.
Proof. induction m as [|m IH]; [reflexivity|]. rewrite total_snoc, IH. ring. Qed.
Lemma total_delta m (f : nat -> R) i : (i < m)%nat -> total m (fun k => (if Nat.eqb i k then 1 else 0) * f k) = f i.
Proof.
  induction m as [|m IH]; intros Hi; [lia|]. rewrite total_snoc. destruct (Nat.eqb_spec i m) as [->|NE].
  - assert (X : total m (fun k => (if Nat.eqb m k then 1 else 0) * f k) = 0); [|lra].
    transitivity (total m (fun _ => 0)); [apply total_ext; intros k Hk; destruct (Nat.eqb_spec m k); [lia|ring]|]. clear. induction m as [|m IH]; [reflexivity|]. rewrite total_snoc, IH. ring.
  - rewrite IH by lia. ring.
Qed.

Section History.
Context {G : Type}.
Variables (gauss : G -> outcome (R * G)) (E : list (list R) -> outcome (list R * list (list R))) (cpow : R -> R -> R) (round : R -> R) (bounds : list (R * R)) (transform : list R -> outcome (list R)) (P : cma_par numR) (pars : list (R * R)) (g0 : G).
Notation state := (cma_state numR G).
Notation n := (p_N P).
Notation sample := (@cma_sample numR G gauss E round bounds transform P).
Notation init := (@cma_init numR G round P pars g0).
(** The history [ops] of calls on a new optimizer leads to [st]. *)
Definition leads_to (ops : list (cma_op numR)) (st : state) : Prop :=
  exists oks, @calls numR G gauss E cpow round bounds transform P init ops = Ok (oks, st).
(** Sampling needs the eigendecomposition: if that throws, so does sampling. *)
Definition decomposes (st : state) : bool :=
  match @cma_sample numR G gauss (fun _ => Throw "eigen") round bounds transform P st with Throw _ => true | _ => false end.
(** How many calls in a history need the eigendecomposition. *)
Fixpoint decompositions (st : state) (ops : list (cma_op numR)) : nat :=
  match ops with
  | [] => 0
  | op :: t =>
    let next := match op with Op_sample => sample st | Op_update fits => @cma_update numR G cpow P st fits end in
    ((match op with Op_sample => if decomposes st then 1 else 0 | _ => 0 end) + decompositions (match next with Ok st1 => st1 | _ => st end) t)%nat
  end.


(** ** Proofs *)
Lemma protocol_snoc (ops : list (cma_op numR)) op : forall s, snd (protocol (p_lambda P) s (ops ++ [op])) = fst (protocol_step (p_lambda P) (snd (protocol (p_lambda P) s ops)) op).
Proof.
  induction ops as [|o ops IH]; intros s; cbn [app protocol].
  - cbn [snd]. destruct (protocol_step _ s op) as [s1 ok]. reflexivity.
  - destruct (protocol_step _ s o) as [s1 ok]. specialize (IH s1). destruct (protocol _ s1 (ops ++ [op])) as [a b]. destruct (protocol _ s1 ops) as [c d]. exact IH.
Qed.
Lemma calls_snoc (ops : list (cma_op numR)) op : forall st oks st', @calls numR G gauss E cpow round bounds transform P st (ops ++ [op]) = Ok (oks, st') ->
  exists oks1 st1, @calls numR G gauss E cpow round bounds transform P st ops = Ok (oks1, st1) /\
    match (match op with Op_sample => sample st1 | Op_update fits => @cma_update numR G cpow P st1 fits end) with Ok st2 => st' = st2 | Throw _ => st' = st1 | Undef => False end.
Proof.
  induction ops as [|o ops IH]; intros st oks st' H.
  - cbn [app] in H. exists [], st. split; [reflexivity|]. cbn [calls] in H.
    destruct (match op with Op_sample => _ | Op_update fits => _ end) as [st1|m|]; cbn [obind fst snd] in H; [injection H as _ <-; reflexivity|injection H as _ <-; reflexivity|discriminate].
  - cbn [app calls] in H |- *.
    destruct (match o with Op_sample => _ | Op_update fits => _ end) as [st1|m|]; [| |discriminate];
    (match type of H with obind (calls _ _ _ _ _ _ _ ?s _) _ = _ => destruct (@calls numR G gauss E cpow round bounds transform P s (ops ++ [op])) as [[oks1 st2]| |] eqn:E1 end; cbn [obind fst snd] in H; try discriminate;
     injection H as _ <-; apply IH in E1 as (oks2 & st3 & -> & E2); cbn [obind fst snd]; eauto).
Qed.
(** What is known of a state that a history leads to *)
Definition made (pre : list (cma_op numR)) (st0 : state) (B : list (list R)) (D : list R) : Prop :=
  (pre = [] /\ st0 = init /\ B = s_B init /\ D = s_D init) \/ (exists d, E (s_C st0) = Ok (d, B) /\ D = map (fun x => sqrt x) d).
Lemma update_eigen_cases (st st1 : state) : @update_eigensystem numR G E P st = Ok st1 ->
  (s_uptodate st = true /\ st1 = st) \/
  (s_uptodate st = false /\ s_gen st = 0%nat) \/
  (s_uptodate st = false /\ s_gen st <> 0%nat /\ st1 = st /\ INR (s_gen st) < INR (s_gen_eigen st) + p_modulo P) \/
  (s_uptodate st = false /\ s_gen st <> 0%nat /\ INR (s_gen_eigen st) + p_modulo P <= INR (s_gen st) /\ exists d Q, E (s_C st) = Ok (d, Q) /\ st1 = @with_eigen numR G st (map (fun x => sqrt x) d) Q (s_gen st)).
Proof.
  unfold update_eigensystem. destruct (s_uptodate st); [intros [= <-]; auto|]. unfold flgdiag. destruct (Nat.eqb_spec (s_gen st) 0) as [E0|E0]; [auto|].
  intros H. right. right.
  destruct (nlt (of_nat (K := numR) (s_gen st)) (nadd (of_nat (K := numR) (s_gen_eigen st)) (p_modulo P))) eqn:E1.
  - left. injection H as <-. split; [reflexivity|]. split; [exact E0|]. split; [reflexivity|]. revert E1. unfold of_nat. cbn [numR nofZ nadd nlt]. rewrite <- !INR_IZR_INZ.
    match goal with |- Rlt_bool ?a ?b = true -> _ => destruct (Rlt_bool_spec a b) as [X|X]; [intros _; exact X|discriminate] end.
  - right. split; [reflexivity|]. split; [exact E0|].
    change (obind (E (s_C st)) (fun r => let '(d, Q) := r in Ok (@with_eigen numR G st (map (fun x : R => sqrt x) d) Q (s_gen st))) = Ok st1) in H.
    destruct (E (s_C st)) as [[d Q]| |]; cbn [obind] in H; try discriminate. injection H as <-. split; [|eauto].
    revert E1. unfold of_nat. cbn [numR nofZ nadd nlt]. rewrite <- !INR_IZR_INZ.
    match goal with |- Rlt_bool ?a ?b = false -> _ => destruct (Rlt_bool_spec a b) as [X|X]; [discriminate|intros _; exact X] end.
Qed.
Definition aged (ops : list (cma_op numR)) (st : state) (pre rest : list (cma_op numR)) (st0 : state) : Prop :=
  ops = pre ++ rest /\ leads_to pre st0 /\ made pre st0 (s_B st) (s_D st) /\ s_gen_eigen st = s_gen st0 /\ (s_uptodate st = true -> s_C st = s_C st0).
Definition early (st : state) : Prop := s_gen st = 0%nat -> s_uptodate st = true /\ s_B st = s_B init.
Lemma sample_fields (st st' : state) : sample st = Ok st' -> exists st1, @update_eigensystem numR G E P st = Ok st1 /\
  s_B st' = s_B st1 /\ s_D st' = s_D st1 /\ s_C st' = s_C st1 /\ s_uptodate st' = s_uptodate st1 /\ s_gen_eigen st' = s_gen_eigen st1 /\ (s_gen st <= s_gen st')%nat /\ s_gen st' <> 0%nat.
Proof.
  intros H. pose proof (@sample_spec numR G gauss E round bounds transform P st st' H) as (_ & _ & _ & _ & _ & _ & _ & _ & _ & _ & Eg & _).
  assert (Hg : (s_gen st <= s_gen st')%nat /\ s_gen st' <> 0%nat) by (rewrite Eg; destruct (s_phase st); [| |lia]; destruct (Nat.eqb_spec (s_gen st) 0); lia).
  unfold cma_sample, assert_ in H. destruct (Nat.ltb 0 (p_N P)); cbn [obind] in H; [|discriminate].
  destruct (@update_eigensystem numR G E P st) as [st1| |] eqn:E1; cbn [obind] in H; try discriminate. exists st1. split; [reflexivity|].
  destruct (mutants _ _ _ _ _ _) as [[rows g1]| |]; cbn [obind] in H; try discriminate.
  destruct (individuals _ _ _ _ _ _ _ _) as [[[rows' inds] g2]| |]; cbn [obind] in H; try discriminate. injection H as H. rewrite <- H in Hg |- *.
  cbn [s_B s_D s_C s_uptodate s_gen_eigen s_gen] in Hg |- *. auto 10.
Qed.
Lemma update_fields (st st' : state) fits : @cma_update numR G cpow P st fits = Ok st' ->
  s_phase st = Sampled /\ s_B st' = s_B st /\ s_D st' = s_D st /\ s_gen_eigen st' = s_gen_eigen st /\ s_gen st' = s_gen st /\ (s_uptodate st' = true -> s_uptodate st = true /\ s_C st' = s_C st).
Proof.
  unfold cma_update. destruct (s_phase st); try discriminate; destruct (Nat.eqb (length fits) (p_lambda P)); cbn [negb]; try discriminate.
  intros H. split; [reflexivity|]. injection H as H. rewrite <- H. cbn [s_B s_D s_gen_eigen s_gen s_uptodate s_C].
  do 4 (split; [reflexivity|]). destruct (negb _); [discriminate|auto].
Qed.
Definition starts_sampling (pre rest : list (cma_op numR)) : Prop := pre = [] \/ exists t, rest = Op_sample :: t.
(** Sampling from such a state *)
Lemma sampled_aged ops st st' : leads_to ops st -> early st -> (exists pre rest st0, aged ops st pre rest st0 /\ starts_sampling pre rest) -> sample st = Ok st' ->
  exists pre rest st0, aged ops st' pre rest st0 /\ starts_sampling pre (rest ++ [Op_sample]) /\ s_C st' = s_C st /\ s_gen st' <> 0%nat /\ (s_C st0 = s_C st \/ INR (s_gen st) < INR (s_gen st0) + p_modulo P).
Proof.
  intros HL HB (pre & rest & st0 & (A1 & A2 & A4 & A5 & A6) & A3) H. apply sample_fields in H as (st1 & E1 & B1 & B2 & B3 & B4 & B5 & _ & B6).
  assert (A3' : starts_sampling pre (rest ++ [Op_sample])) by (destruct A3 as [->|(t & ->)]; [left; reflexivity|right; exists (t ++ [Op_sample]); reflexivity]).
  apply update_eigen_cases in E1 as [[U ->]|[[U Z]|[(U & _ & -> & I)|(U & _ & I & d & Q & EE & ->)]]].
  - exists pre, rest, st0. unfold aged. rewrite B1, B2, B3, B4, B5. split; [|split; [exact A3'|split; [reflexivity|split; [exact B6|left; symmetry; exact (A6 U)]]]]. do 4 (split; [assumption|]). exact A6.
  - destruct (HB Z) as [X _]. congruence.
  - exists pre, rest, st0. unfold aged. rewrite B1, B2, B3, B4, B5. split; [|split; [exact A3'|split; [reflexivity|split; [exact B6|right; rewrite <- A5; exact I]]]]. do 4 (split; [assumption|]). exact A6.
  - exists ops, [], st. unfold aged. rewrite B1, B2, B3, B4, B5. cbn [with_eigen s_B s_D s_C s_uptodate s_gen_eigen].
    split; [|split; [right; exists []; reflexivity|split; [reflexivity|split; [exact B6|left; reflexivity]]]].
    split; [symmetry; apply app_nil_r|]. split; [exact HL|]. split; [right; eauto|]. split; reflexivity.
Qed.
(** ** The rows *)
Lemma init_B i j : (i < n)%nat -> (j < n)%nat -> entry (s_B init) i j = if Nat.eqb i j then 1 else 0.
Proof.
  intros Hi Hj. unfold entry. cbn [cma_init s_B]. rewrite (nth_build (list R) n) by exact Hi. rewrite (nth_build R n) by exact Hj. destruct (Nat.eqb i j); reflexivity.
Qed.
Lemma init_C i j : (i < n)%nat -> (j < n)%nat -> covariance (s_C init) i j = if Nat.eqb i j then value (s_D init) i * value (s_D init) i else 0.
Proof.
  intros Hi Hj. unfold covariance, entry. cbn [cma_init s_C]. rewrite (nth_build (list R) n) by lia. rewrite (nth_build R (S (Nat.max i j))) by lia.
  destruct (Nat.eqb_spec i j) as [->|NE]; [rewrite Nat.max_id, Nat.min_id, Nat.eqb_refl; reflexivity|].
  destruct (Nat.eqb_spec (Nat.max i j) (Nat.min i j)); [lia|reflexivity].
Qed.
Lemma mutant_value (st : state) z i : (i < n)%nat ->
  value (@mutant numR G P st false z) i = value (s_mean st) i + s_sigma st * total n (fun k => entry (s_B st) i k * value (s_D st) k * value z k).
Proof.
  intros Hi. unfold mutant. unfold value at 1. rewrite (nth_build R n) by exact Hi.
  change (value (s_mean st) i + s_sigma st * sum_ (K := numR) n (fun j => entry (s_B st) i j * at_ (K := numR) (build n (fun i0 => at_ (K := numR) (s_D st) i0 * at_ (K := numR) z i0)) j)
    = value (s_mean st) i + s_sigma st * total n (fun k => entry (s_B st) i k * value (s_D st) k * value z k)).
  rewrite sum__total. do 2 f_equal. apply total_ext. intros k Hk. rewrite Rmult_assoc. f_equal. unfold at_ at 1. rewrite (nth_build R n) by exact Hk. reflexivity.
Qed.
Lemma mutant_diag (st : state) z : s_B st = s_B init -> @mutant numR G P st true z = @mutant numR G P st false z.
Proof.
  intros HB. apply (nth_ext _ _ 0 0); [rewrite !(mutant_length (K := numR)); reflexivity|]. intros i Hi. rewrite (mutant_length (K := numR)) in Hi.
  refine (eq_trans _ (eq_sym (mutant_value st z i Hi))). unfold mutant. rewrite (nth_build R n) by exact Hi.
  change (value (s_mean st) i + s_sigma st * value (s_D st) i * value z i = value (s_mean st) i + s_sigma st * total n (fun k => entry (s_B st) i k * value (s_D st) k * value z k)).
  rewrite HB. rewrite (total_ext n _ (fun k => (if Nat.eqb i k then 1 else 0) * (value (s_D st) k * value z k))) by (intros k Hk; rewrite init_B by assumption; ring).
  rewrite total_delta by exact Hi. ring.
Qed.
Lemma mutants_diag (st : state) : s_B st = s_B init -> forall m g, @mutants numR G gauss P st true m g = @mutants numR G gauss P st false m g.
Proof.
  intros HB. induction m as [|m IH]; intros g; cbn [mutants]; [reflexivity|]. destruct (@draws numR G gauss n g) as [[z g1]| |]; cbn [obind]; [|reflexivity..]. rewrite IH, mutant_diag by exact HB. reflexivity.
Qed.
Lemma sample_rows_drawn (st st' : state) : early st -> sample st = Ok st' ->
  length (s_rows st') = p_lambda P /\
  Forall (drawn_with gauss bounds n (s_mean st) (s_sigma st) (fun i k => entry (s_B st') i k * value (s_D st') k)) (s_rows st').
Proof.
  intros HB H. pose proof (@sample_spec numR G gauss E round bounds transform P st st' H) as (_ & _ & _ & _ & _ & _ & _ & _ & _ & _ & _ & _ & _ & _ & _ & _ & HL & _). split; [exact HL|].
  pose proof (sample_fields st st' H) as (st1 & E1 & B1 & B2 & _). rewrite B1, B2.
  unfold cma_sample, assert_ in H. destruct (Nat.ltb 0 (p_N P)); cbn [obind] in H; [|discriminate]. rewrite E1 in H. cbn [obind] in H.
  assert (X : s_mean st1 = s_mean st /\ s_sigma st1 = s_sigma st /\ (flgdiag st = true -> s_B st1 = s_B init)).
  { unfold flgdiag. apply update_eigen_cases in E1 as [[U ->]|[[U Z]|[(U & _ & -> & I)|(U & Z & I & d & Q & EE & ->)]]].
    - split; [reflexivity|]. split; [reflexivity|]. intros Z. apply Nat.eqb_eq in Z. apply (HB Z).
    - destruct (HB Z). congruence.
    - split; [reflexivity|]. split; [reflexivity|]. intros Z. apply Nat.eqb_eq in Z. apply (HB Z).
    - split; [reflexivity|]. split; [reflexivity|]. intros Y. apply Nat.eqb_eq in Y. congruence. }
  destruct X as (X1 & X2 & X3). rewrite <- X1, <- X2.
  assert (Y : @mutants numR G gauss P st1 (flgdiag st) (p_lambda P) (s_rng st1) = @mutants numR G gauss P st1 false (p_lambda P) (s_rng st1)) by (destruct (flgdiag st); [apply mutants_diag; auto|reflexivity]).
  rewrite Y in H. clear Y X3.
  destruct (@mutants numR G gauss P st1 false (p_lambda P) (s_rng st1)) as [[rows g1]| |] eqn:E2; cbn [obind] in H; try discriminate.
  destruct (@individuals numR G gauss round bounds transform P st1 rows g1) as [[[rows' inds] g2]| |] eqn:E3; cbn [obind] in H; try discriminate. injection H as <-. cbn [s_rows] in *.
  apply mutants_rows in E2. apply individuals_rows in E3; [|exact E2]. eapply Forall_impl; [|exact E3]. cbn beta. clear.
  intros r [(z & g & g' & Hd & ->)|(v & (z & g & g' & Hd & ->) & ->)]; exists z, g, g', (@mutant numR G P st1 false z); (split; [exact Hd|]); (split; [exact (mutant_length (K := numR) P st1 false z)|]); (split; [intros i Hi; exact (mutant_value st1 z i Hi)|]); auto.
Qed.
(** ** What the matrix stands for *)
(** ** How often *)
Lemma decomposes_due (st st' : state) : early st -> sample st = Ok st' -> decomposes st = true ->
  INR (s_gen_eigen st) + p_modulo P <= INR (s_gen st) /\ s_gen_eigen st' = s_gen st /\ s_gen st <> 0%nat.
Proof.
  intros HB HS. pose proof (sample_fields st st' HS) as (st1 & E1 & _ & _ & _ & _ & GE & _). rewrite GE.
  assert (X : (exists m, @update_eigensystem numR G (fun _ => Throw "eigen") P st = Ok m /\ @update_eigensystem numR G E P st = Ok m) -> decomposes st = false).
  { intros (m & M1 & M2). unfold decomposes. replace (@cma_sample numR G gauss (fun _ => Throw "eigen") round bounds transform P st) with (sample st); [rewrite HS; reflexivity|].
    unfold cma_sample. rewrite M1, M2. reflexivity. }
  intros D. pose proof E1 as E2. apply update_eigen_cases in E1 as [[U ->]|[[U Z]|[(U & Z & -> & I)|(U & Z & I & d & Q & EE & ->)]]].
  - rewrite X in D; [discriminate|]. exists st. split; [|exact E2]. unfold update_eigensystem. rewrite U. reflexivity.
  - destruct (HB Z). congruence.
  - rewrite X in D; [discriminate|]. exists st. split; [|exact E2]. unfold update_eigensystem in *. rewrite U in *. unfold flgdiag in *. destruct (Nat.eqb_spec (s_gen st) 0); [contradiction|].
    destruct (nlt _ _) eqn:EL; [reflexivity|]. exfalso. revert EL. unfold of_nat. cbn [numR nofZ nadd nlt]. rewrite <- !INR_IZR_INZ. intros EL.
    match type of EL with Rlt_bool ?a ?b = _ => destruct (Rlt_bool_spec a b) as [Y|Y]; [discriminate|] end. apply (Rlt_not_le _ _ I). exact Y.
  - split; [exact I|]. split; [reflexivity|exact Z].
Qed.
Lemma sample_eigen_mono (st st' : state) : early st -> (s_gen_eigen st <= s_gen st)%nat -> sample st = Ok st' ->
  (s_gen_eigen st <= s_gen_eigen st')%nat /\ (s_gen_eigen st' <= s_gen st')%nat.
Proof.
  intros HB HL H. apply sample_fields in H as (st1 & E1 & _ & _ & _ & _ & -> & G1 & _).
  apply update_eigen_cases in E1 as [[U ->]|[[U Z]|[(U & Z & -> & I)|(U & Z & I & d & Q & EE & ->)]]]; cbn [with_eigen s_gen_eigen]; try lia. destruct (HB Z). congruence.
Qed.
Lemma early_step op (st st1 : state) : early st ->
  match op with Op_sample => sample st | Op_update fits => @cma_update numR G cpow P st fits end = Ok st1 -> (s_phase st = Sampled -> s_gen st <> 0%nat) ->
  early st1 /\ (s_phase st1 = Sampled -> s_gen st1 <> 0%nat).
Proof.
  intros HB H HS. destruct op as [|fits].
  - apply sample_fields in H as (_ & _ & _ & _ & _ & _ & _ & _ & Z). split; [intros X; contradiction|auto].
  - apply update_fields in H as (U1 & _ & _ & _ & U5 & _). specialize (HS U1). rewrite <- U5 in HS. split; [intros X; contradiction|auto].
Qed.
Hypothesis HN : (0 < n)%nat.
Hypothesis HP : length pars = n.
Hypothesis HG : forall g, exists z g', gauss g = Ok (z, g').
Hypothesis HE : runs_to E.
Hypothesis HTr : forall v, length v = n -> exists w, transform v = Ok w.
Hypothesis HTS : @transform_sized numR transform P.

Lemma E_ok C : @triangular numR P C -> exists d Q, E C = Ok (d, Q).
Proof using HN HE HP.
  intros (HC & _). assert (HC' : C <> []) by (intros ->; cbn in HC; lia). destruct (HE C HC') as (N1 & H1). destruct (C61_terminates C HC') as (N2 & d & B & H2).
  exists d, B. rewrite <- (H1 (Nat.max N1 N2)) by lia. apply H2. lia.
Qed.
Lemma E_sized : @eigen_sized numR E P.
Proof using HN HE HP.
  intros C d Q HC H. assert (HC' : C <> []) by (intros ->; destruct HC as [HC _]; cbn in HC; lia). destruct (HE C HC') as (N1 & H1).
  apply (C61_sizes numR N1 P C d Q HC). rewrite H1 by lia. exact H.
Qed.
Lemma leads ops st : leads_to ops st -> agrees st (snd (protocol (p_lambda P) (0%nat, false) ops)) /\ @cma_sized numR G P st.
Proof using HN HP HG HE HTr HTS.
  intros (oks & H).
  destruct (@calls_protocol numR G gauss E cpow round bounds transform P HN HG E_ok E_sized HTr HTS ops init (0%nat, false)) as (st' & E1 & A & S).
  - apply init_sized. exact HP.
  - unfold agrees, cma_init. cbn [s_gen s_phase fst snd]. auto.
  - rewrite E1 in H. injection H as _ <-. auto.
Qed.
Lemma leads_gen ops st : leads_to ops st -> s_gen st = generation (p_lambda P) ops.
Proof using HN HP HG HE HTr HTS.
  intros H. apply leads in H as [[A _] _]. unfold generation. destruct (snd (protocol _ _ ops)) as [u p]. exact A.
Qed.
Lemma history_aged ops : forall st, leads_to ops st -> early st /\ exists pre rest st0, aged ops st pre rest st0 /\ starts_sampling pre rest.
Proof using HN HP HG HE HTr HTS.
  induction ops as [|op ops IH] using rev_ind; intros st HL.
  - assert (st = init) as -> by (destruct HL as (oks & H); cbn [calls] in H; injection H as _ <-; reflexivity).
    split; [intros _; split; reflexivity|]. exists [], [], init. split; [|left; reflexivity]. split; [reflexivity|]. split; [exact HL|]. split; [left; auto|]. split; reflexivity.
  - destruct HL as (oks & H). apply calls_snoc in H as (oks1 & st1 & E1 & H). assert (HL1 : leads_to ops st1) by (exists oks1; exact E1).
    destruct (IH st1 HL1) as (HB & HA). pose proof HL1 as HS. apply leads in HS as [[Ag Ap] HS]. destruct op as [|fits].
    + destruct (sample st1) as [st2|m|] eqn:E2; [|exfalso|contradiction].
      * subst st2. destruct (sampled_aged ops st1 st HL1 HB HA E2) as (pre & rest & st0 & (A1 & A2 & A4 & A5 & A6) & A3 & _ & G1 & _).
        split; [intros Z; congruence|]. exists pre, (rest ++ [Op_sample]), st0. split; [|exact A3]. split; [rewrite A1, app_assoc; reflexivity|]. auto.
      * destruct (@sample_defined numR G gauss E round bounds transform P st1 HN HG E_ok HTr HS) as (x & X). congruence.
    + destruct HA as (pre & rest & st0 & (A1 & A2 & A4 & A5 & A6) & A3).
      assert (A3' : starts_sampling pre (rest ++ [Op_update fits])) by (destruct A3 as [->|(t & ->)]; [left; reflexivity|right; exists (t ++ [Op_update fits]); reflexivity]).
      destruct (@cma_update numR G cpow P st1 fits) as [st2|m|] eqn:E2; [| |contradiction].
      * subst st2. apply update_fields in E2 as (U1 & U2 & U3 & U4 & U5 & U6). rewrite U1 in Ap. rewrite Ap in Ag.
        split; [intros Z; lia|]. exists pre, (rest ++ [Op_update fits]), st0. split; [|exact A3']. split; [rewrite A1, app_assoc; reflexivity|]. split; [exact A2|].
        rewrite U2, U3, U4. split; [exact A4|]. split; [exact A5|]. intros U. destruct (U6 U) as [V ->]. exact (A6 V).
      * subst st. split; [exact HB|]. exists pre, (rest ++ [Op_update fits]), st0. split; [|exact A3']. split; [rewrite A1, app_assoc; reflexivity|]. auto.
Qed.

Lemma made_recomposes pre st0 B D : @cma_sized numR G P st0 -> well_conditioned n (s_C st0) -> made pre st0 B D ->
  norm n (fun i j => covariance (s_C st0) i j - total n (fun k => (entry B i k * value D k) * (entry B j k * value D k))) <= tolerance (s_C st0).
Proof using HN HE HP.
  intros HS (c & Hc & HPD) [(-> & -> & -> & ->)|(d & EE & ->)].
  - assert (Z : forall i j, (i < n)%nat -> (j < n)%nat -> covariance (s_C init) i j - total n (fun k => (entry (s_B init) i k * value (s_D init) k) * (entry (s_B init) j k * value (s_D init) k)) = 0).
    { intros i j Hi Hj.
      rewrite (total_ext n _ (fun k => (if Nat.eqb i k then 1 else 0) * ((if Nat.eqb j k then 1 else 0) * (value (s_D init) k * value (s_D init) k)))) by (intros k Hk; rewrite !init_B by assumption; ring).
      rewrite total_delta by exact Hi. rewrite init_C by assumption. rewrite (Nat.eqb_sym j i). destruct (Nat.eqb i j); ring. }
    apply Rle_trans with 0.
    + right. unfold norm. rewrite <- sqrt_0. f_equal. rewrite (total_ext n _ (fun _ => 0)); [apply total_0|]. intros i Hi. rewrite (total_ext n _ (fun _ => 0)); [apply total_0|]. intros j Hj. rewrite Z by assumption. ring.
    + unfold tolerance. pose proof (pos_INR (length (s_C init))). assert (0 <= norm (length (s_C init)) (covariance (s_C init))) by apply sqrt_pos. 
      apply Rmult_le_pos; [|assumption]. apply Rmult_le_pos; [|lra]. apply Rmult_le_pos; [lra|apply pos_INR].
  - destruct HS as (_ & (HC & _) & _).
    assert (HC' : s_C st0 <> []) by (intros X; rewrite X in HC; cbn in HC; lia). destruct (HE (s_C st0) HC') as (N1 & H1). rewrite <- (H1 N1 (Nat.le_refl N1)) in EE.
    destruct (C61_eigendecomposition N1 (s_C st0) d B HC' EE) as (L & (LB & FB) & O1 & O2 & _ & F).
    pose proof (C61_eigenvalues_positive N1 (s_C st0) d B c HC' EE) as POS. cbn zeta in POS, L, LB, FB, O1, O2, F.
    assert (HN' : @length (list R) (s_C st0) = n) by exact HC. rewrite HN' in POS, L, LB, FB, O1, O2, F. specialize (POS HPD Hc).
    assert (SQ : forall k, (k < n)%nat -> value (map (fun x => sqrt x) d) k = sqrt (value d k)).
    { intros k Hk. unfold value. rewrite (nth_indep _ 0 (sqrt 0)) by (rewrite map_length; rewrite <- L in Hk; exact Hk). exact (map_nth (fun x => sqrt x) d 0 k). }
    refine (Rle_trans _ _ _ (Req_le _ _ _) F). rewrite !norm_frob. apply frob_proper. intros i j Hi Hj. f_equal. unfold recomposed. apply total_ext. intros k Hk. rewrite SQ by exact Hk.
    specialize (POS k Hk). assert (S : sqrt (value d k) * sqrt (value d k) = value d k) by (apply sqrt_sqrt; lra). rewrite <- S at 3. ring.
Qed.
Lemma decompositions_bound ops : 0 <= p_modulo P -> forall (st : state) oks st', early st -> @cma_sized numR G P st -> (s_phase st = Sampled -> s_gen st <> 0%nat) -> (s_gen_eigen st <= s_gen st)%nat ->
  @calls numR G gauss E cpow round bounds transform P st ops = Ok (oks, st') ->
  INR (decompositions st ops) * p_modulo P <= INR (s_gen st') - INR (s_gen_eigen st).
Proof using HN HP HG HE HTr HTS.
  intros HM. change (nT numR) with R in *. induction ops as [|op ops IH]; intros st oks st' HB HS HF HL H.
  - cbn [calls] in H. injection H as _ <-. cbn [decompositions INR]. apply le_INR in HL. lra.
  - cbn [calls decompositions] in *. destruct op as [|fits].
    + destruct (@sample_defined numR G gauss E round bounds transform P st HN HG E_ok HTr HS) as (st1 & E1). rewrite E1 in H |- *.
      destruct (@calls numR G gauss E cpow round bounds transform P st1 ops) as [[oks1 st2]| |] eqn:E2; cbn [obind fst snd] in H; try discriminate. injection H as _ <-.
      pose proof (early_step Op_sample st st1 HB E1 HF) as [HB1 HF1]. pose proof (@sample_sized numR G gauss E round bounds transform P st st1 E_sized HTS HS E1) as HS1.
      pose proof (sample_eigen_mono st st1 HB HL E1) as [M1 M2]. specialize (IH st1 oks1 st2 HB1 HS1 HF1 M2 E2). rewrite plus_INR.
      destruct (decomposes st) eqn:ED.
      * apply (decomposes_due st st1 HB E1) in ED as (D1 & D2 & _). rewrite D2 in IH. change (INR 1) with 1. rewrite Rmult_plus_distr_r.
        change (INR (s_gen_eigen st) + p_modulo P <= INR (s_gen st)) in D1. lra.
      * change (INR 0) with 0. apply le_INR in M1. lra.
    + destruct (@cma_update numR G cpow P st fits) as [st1|m|] eqn:E1; [| |discriminate].
      * destruct (@calls numR G gauss E cpow round bounds transform P st1 ops) as [[oks1 st2]| |] eqn:E2; cbn [obind fst snd] in H; try discriminate. injection H as _ <-.
        pose proof (early_step (Op_update fits) st st1 HB E1 HF) as [HB1 HF1]. pose proof (@update_sized numR G cpow P st fits st1 HS E1) as HS1.
        pose proof (update_fields st st1 fits E1) as (_ & _ & _ & U4 & U5 & _). rewrite <- U4. cbn [Nat.add]. apply (IH st1 oks1 st2 HB1 HS1 HF1); [lia|exact E2].
      * destruct (@calls numR G gauss E cpow round bounds transform P st ops) as [[oks1 st2]| |] eqn:E2; cbn [obind fst snd] in H; try discriminate. injection H as _ <-. cbn [Nat.add]. exact (IH st oks1 st2 HB HS HF HL E2).
Qed.
Definition stale (st : state) : nat := if s_uptodate st then 0 else 1.
Lemma decomposes_stale (st st' : state) : sample st = Ok st' -> early st -> (stale st' + (if decomposes st then 1 else 0) <= stale st)%nat.
Proof.
  intros HS HB. pose proof (sample_fields st st' HS) as (st1 & E1 & _ & _ & _ & EU & _). unfold stale. rewrite EU.
  assert (X : (exists m, @update_eigensystem numR G (fun _ => Throw "eigen") P st = Ok m /\ @update_eigensystem numR G E P st = Ok m) -> decomposes st = false).
  { intros (m & M1 & M2). unfold decomposes. replace (@cma_sample numR G gauss (fun _ => Throw "eigen") round bounds transform P st) with (sample st); [rewrite HS; reflexivity|].
    unfold cma_sample. rewrite M1, M2. reflexivity. }
  pose proof E1 as E2. apply update_eigen_cases in E1 as [[U ->]|[[U Z]|[(U & Z & -> & I)|(U & Z & I & d & Q & EE & ->)]]].
  - rewrite X; [rewrite U; lia|]. exists st. split; [|exact E2]. unfold update_eigensystem. rewrite U. reflexivity.
  - destruct (HB Z). congruence.
  - rewrite X; [rewrite U; lia|]. exists st. split; [|exact E2]. unfold update_eigensystem in *. rewrite U in *. unfold flgdiag in *. destruct (Nat.eqb_spec (s_gen st) 0); [contradiction|].
    destruct (nlt _ _) eqn:EL; [reflexivity|]. exfalso. revert EL. unfold of_nat. cbn [numR nofZ nadd nlt]. rewrite <- !INR_IZR_INZ. intros EL.
    match type of EL with Rlt_bool ?a ?b = _ => destruct (Rlt_bool_spec a b) as [Y|Y]; [discriminate|] end. apply (Rlt_not_le _ _ I). exact Y.
  - rewrite U. unfold with_eigen. cbn [s_uptodate]. destruct (decomposes st); lia.
Qed.
(** how many updates a history has *)
Fixpoint updates (ops : list (cma_op numR)) : nat := match ops with [] => 0 | Op_update _ :: t => S (updates t) | Op_sample :: t => updates t end.
Lemma decompositions_updates ops : forall (st : state) oks st', early st -> @cma_sized numR G P st -> (s_phase st = Sampled -> s_gen st <> 0%nat) ->
  @calls numR G gauss E cpow round bounds transform P st ops = Ok (oks, st') ->
  (decompositions st ops <= stale st + updates ops)%nat.
Proof using HN HP HG HE HTr HTS.
  change (nT numR) with R in *. induction ops as [|op ops IH]; intros st oks st' HB HS HF H; [cbn [decompositions]; lia|].
  cbn [calls decompositions updates] in *. destruct op as [|fits].
  - destruct (@sample_defined numR G gauss E round bounds transform P st HN HG E_ok HTr HS) as (st1 & E1). rewrite E1 in H |- *.
    destruct (@calls numR G gauss E cpow round bounds transform P st1 ops) as [[oks1 st2]| |] eqn:E2; cbn [obind fst snd] in H; try discriminate.
    pose proof (early_step Op_sample st st1 HB E1 HF) as [HB1 HF1]. pose proof (@sample_sized numR G gauss E round bounds transform P st st1 E_sized HTS HS E1) as HS1.
    specialize (IH st1 oks1 st2 HB1 HS1 HF1 E2). pose proof (decomposes_stale st st1 E1 HB). lia.
  - destruct (@cma_update numR G cpow P st fits) as [st1|m|] eqn:E1; [| |discriminate].
    + destruct (@calls numR G gauss E cpow round bounds transform P st1 ops) as [[oks1 st2]| |] eqn:E2; cbn [obind fst snd] in H; try discriminate.
      pose proof (early_step (Op_update fits) st st1 HB E1 HF) as [HB1 HF1]. pose proof (@update_sized numR G cpow P st fits st1 HS E1) as HS1.
      specialize (IH st1 oks1 st2 HB1 HS1 HF1 E2). assert (stale st1 <= 1)%nat by (unfold stale; destruct (s_uptodate st1); lia). lia.
    + destruct (@calls numR G gauss E cpow round bounds transform P st ops) as [[oks1 st2]| |] eqn:E2; cbn [obind fst snd] in H; try discriminate. specialize (IH st oks1 st2 HB HS HF E2). lia.
Qed.
End History.

(** ** C67 *)
(** Whatever calls are made on a new optimizer, each population it samples is, before it is moved into the
    bounds, mean + sigma M z with the current mean and step size and one matrix M for all points, where M M^T is,
    up to the tolerance, the covariance matrix of some point of the history: the current covariance matrix,
    or one that is less than update_eigen_modulo generations old. *)
Theorem C67_age : forall (G : Type) gauss E cpow round bounds transform (P : cma_par numR) (pars : list (R * R)) (g : G) ops st st',
  (0 < p_N P)%nat -> length pars = p_N P -> runs_to E ->
  (forall g, exists z g', gauss g = Ok (z, g')) ->
  (forall v, length v = p_N P -> exists w, transform v = Ok w) -> @transform_sized numR transform P ->
  let after := leads_to gauss E cpow round bounds transform P pars g in
  (forall pre rest s, ops = pre ++ rest -> after pre s -> well_conditioned (p_N P) (s_C s)) ->
  after ops st -> @cma_sample numR G gauss E round bounds transform P st = Ok st' ->
  exists pre rest st0 M, ops = pre ++ rest /\ after pre st0
    /\ norm (p_N P) (fun i j => covariance (s_C st0) i j - total (p_N P) (fun k => M i k * M j k)) <= tolerance (s_C st0)
    /\ length (s_rows st') = p_lambda P
    /\ Forall (drawn_with gauss bounds (p_N P) (s_mean st) (s_sigma st) M) (s_rows st')
    /\ (s_C st0 = s_C st \/ INR (generation (p_lambda P) ops) < INR (generation (p_lambda P) pre) + p_modulo P)
    /\ (pre = [] \/ exists t, rest ++ [Op_sample] = Op_sample :: t).
Proof.
  intros G gauss E cpow round bounds transform P pars g ops st st' HN HP HE HG HTr HTS after HW HL HS.
  destruct (history_aged gauss E cpow round bounds transform P pars g HN HP HG HE HTr HTS ops st HL) as (HB & HA).
  destruct (sampled_aged gauss E cpow round bounds transform P pars g ops st st' HL HB HA HS) as (pre & rest & st0 & (A1 & A2 & A4 & A5 & A6) & A3 & _ & _ & I).
  destruct (sample_rows_drawn gauss E round bounds transform P pars g st st' HB HS) as (R1 & R2).
  exists pre, rest, st0, (fun i k => entry (s_B st') i k * value (s_D st') k).
  split; [exact A1|]. split; [exact A2|]. split.
  - apply (made_recomposes E round P pars g HN HP HE pre st0 (s_B st') (s_D st')); [|eapply HW; eauto|exact A4].
    exact (proj2 (leads gauss E cpow round bounds transform P pars g HN HP HG HE HTr HTS pre st0 A2)).
  - split; [exact R1|]. split; [exact R2|]. split; [|exact A3]. destruct I as [I|I]; [left; exact I|right].
    rewrite <- (leads_gen gauss E cpow round bounds transform P pars g HN HP HG HE HTr HTS ops st HL), <- (leads_gen gauss E cpow round bounds transform P pars g HN HP HG HE HTr HTS pre st0 A2). exact I.
Qed.
Lemma alternate_prefix : forall (results : list (list R)) pre rest,
  alternate (K := numR) results = pre ++ rest -> pre = [] \/ (exists t, rest ++ [Op_sample] = Op_sample :: t) -> exists past more, results = past ++ more /\ pre = alternate (K := numR) past.
Proof.
  induction results as [|r t IH]; intros pre rest H S.
  - cbn [alternate] in H. symmetry in H. apply app_eq_nil in H as [-> _]. exists [], []. split; reflexivity.
  - destruct pre as [|p1 pre]; [exists [], (r :: t); split; reflexivity|]. destruct S as [S|S]; [discriminate|].
    cbn [alternate app] in H. injection H as <- H. destruct pre as [|p2 pre]; cbn [app] in H; [subst rest; destruct S as (u & S); discriminate|]. injection H as <- H.
    destruct (IH pre rest H (or_intror S)) as (past & more & -> & ->). exists (r :: past), more. split; reflexivity.
Qed.
Lemma alternate_generation : forall lambda (results : list (list R)), Forall (fun r => length r = lambda) results -> generation lambda (alternate (K := numR) results) = length results.
Proof.
  intros lambda results F. unfold generation. pose proof (@C45_alternating_never_throws numR results lambda F 0%nat false) as H. rewrite H. cbn [snd]. destruct results; [reflexivity|]. apply Nat.add_0_r.
Qed.
(** When every population is evaluated before the next one is sampled, the covariance matrix that M stands for is the current
    one, or was current fewer than update_eigen_modulo updates ago: with update_eigen_modulo at most 1 it always is the current one. *)
Theorem C67_alternating : forall (G : Type) gauss E cpow round bounds transform (P : cma_par numR) (pars : list (R * R)) (g : G) (results : list (list R)) st st',
  (0 < p_N P)%nat -> length pars = p_N P -> runs_to E ->
  (forall g, exists z g', gauss g = Ok (z, g')) ->
  (forall v, length v = p_N P -> exists w, transform v = Ok w) -> @transform_sized numR transform P ->
  Forall (fun r => length r = p_lambda P) results ->
  let after_updates rs := leads_to gauss E cpow round bounds transform P pars g (alternate (K := numR) rs) in
  (forall pre rest s, alternate (K := numR) results = pre ++ rest -> leads_to gauss E cpow round bounds transform P pars g pre s -> well_conditioned (p_N P) (s_C s)) ->
  after_updates results st -> @cma_sample numR G gauss E round bounds transform P st = Ok st' ->
  exists past more st0 M, results = past ++ more /\ after_updates past st0
    /\ norm (p_N P) (fun i j => covariance (s_C st0) i j - total (p_N P) (fun k => M i k * M j k)) <= tolerance (s_C st0)
    /\ length (s_rows st') = p_lambda P
    /\ Forall (drawn_with gauss bounds (p_N P) (s_mean st) (s_sigma st) M) (s_rows st')
    /\ (s_C st0 = s_C st \/ INR (length more) < p_modulo P)
    /\ (p_modulo P <= 1 -> s_C st0 = s_C st).
Proof.
  intros G gauss E cpow round bounds transform P pars g results st st' HN HP HE HG HTr HTS HR after HW HL HS.
  destruct (C67_age G gauss E cpow round bounds transform P pars g (alternate (K := numR) results) st st' HN HP HE HG HTr HTS HW HL HS) as (pre & rest & st0 & M & A1 & A2 & A3 & A4 & A5 & A6 & A7).
  destruct (alternate_prefix results pre rest A1 A7) as (past & more & Er & Ep). subst pre.
  assert (X : s_C st0 = s_C st \/ INR (length more) < p_modulo P).
  { destruct A6 as [A6|A6]; [left; exact A6|right]. rewrite Er in HR. pose proof (proj1 (proj1 (Forall_app _ _ _) HR)) as HR1. rewrite <- Er in HR.
    rewrite (alternate_generation _ _ HR), (alternate_generation _ _ HR1) in A6. rewrite Er, app_length, plus_INR in A6. change (INR (length past) + INR (length more) < INR (length past) + p_modulo P) in A6. lra. }
  exists past, more, st0, M. split; [exact Er|]. split; [exact A2|]. split; [exact A3|]. split; [exact A4|]. split; [exact A5|]. split; [exact X|].
  intros H1. destruct X as [X|X]; [exact X|]. assert (more = []) as ->. { destruct more as [|m more]; [reflexivity|]. exfalso. cbn [length] in X. rewrite S_INR in X. pose proof (pos_INR (length more)). change (INR (length more) + 1 < p_modulo P) in X. change (p_modulo P <= 1) in H1. lra. }
  rewrite app_nil_r in Er. subst past. destruct HL as (o1 & L1). destruct A2 as (o2 & L2). rewrite L1 in L2. injection L2 as _ <-. reflexivity.
Qed.
(** The eigendecomposition is computed at most once every update_eigen_modulo generations. *)
Theorem C67_frequency : forall (G : Type) gauss E cpow round bounds transform (P : cma_par numR) (pars : list (R * R)) (g : G) ops,
  (0 < p_N P)%nat -> length pars = p_N P -> runs_to E ->
  (forall g, exists z g', gauss g = Ok (z, g')) ->
  (forall v, length v = p_N P -> exists w, transform v = Ok w) -> @transform_sized numR transform P ->
  0 <= p_modulo P ->
  INR (decompositions gauss E cpow round bounds transform P (@cma_init numR G round P pars g) ops) * p_modulo P <= INR (generation (p_lambda P) ops).
Proof.
  intros G gauss E cpow round bounds transform P pars g ops HN HP HE HG HTr HTS HM.
  destruct (@calls_protocol numR G gauss E cpow round bounds transform P HN HG (E_ok E P pars HN HP HE) (E_sized E P pars HN HP HE) HTr HTS ops (@cma_init numR G round P pars g) (0%nat, false)) as (st & E1 & _).
  - apply init_sized. exact HP.
  - unfold agrees, cma_init. cbn [s_gen s_phase fst snd]. auto.
  - assert (HL : leads_to gauss E cpow round bounds transform P pars g ops st) by (eexists; exact E1).
    rewrite <- (leads_gen gauss E cpow round bounds transform P pars g HN HP HG HE HTr HTS ops st HL).
    pose proof (decompositions_bound gauss E cpow round bounds transform P pars g HN HP HG HE HTr HTS ops HM (@cma_init numR G round P pars g) _ _ (fun _ => conj eq_refl eq_refl) (@init_sized numR G round P pars g HP) ltac:(cbn; discriminate) (Nat.le_refl _) E1) as X.
    change (INR (s_gen_eigen (@cma_init numR G round P pars g))) with 0 in X. change (nT numR) with R in *. lra.
Qed.
(** Whatever the option, it is computed again only after the distribution was updated: sampling again (as after a
    failed step) costs no second decomposition. *)
Theorem C67_only_after_updates : forall (G : Type) gauss E cpow round bounds transform (P : cma_par numR) (pars : list (R * R)) (g : G) ops,
  (0 < p_N P)%nat -> length pars = p_N P -> runs_to E ->
  (forall g, exists z g', gauss g = Ok (z, g')) ->
  (forall v, length v = p_N P -> exists w, transform v = Ok w) -> @transform_sized numR transform P ->
  (decompositions gauss E cpow round bounds transform P (@cma_init numR G round P pars g) ops <= updates ops)%nat.
Proof.
  intros G gauss E cpow round bounds transform P pars g ops HN HP HE HG HTr HTS.
  destruct (@calls_protocol numR G gauss E cpow round bounds transform P HN HG (E_ok E P pars HN HP HE) (E_sized E P pars HN HP HE) HTr HTS ops (@cma_init numR G round P pars g) (0%nat, false)) as (st & E1 & _).
  - apply init_sized. exact HP.
  - unfold agrees, cma_init. cbn [s_gen s_phase fst snd]. auto.
  - exact (decompositions_updates gauss E cpow round bounds transform P pars g HN HP HG HE HTr HTS ops (@cma_init numR G round P pars g) _ _ (fun _ => conj eq_refl eq_refl) (@init_sized numR G round P pars g HP) ltac:(cbn; discriminate) E1).
Qed.
(** With the default options (update_eigen_modulo = -1) that is at most 10 n ccov times per generation, where ccov < 1 is the learning rate of the covariance matrix. *)
Theorem C67_default_frequency : forall (G : Type) gauss E cpow round bounds transform cceil option_lambda option_modulo (P : cma_par numR) (pars : list (R * R)) (g : G) ops,
  Properties_Cma2.default_par cceil option_lambda option_modulo P -> option_modulo < 0 -> length pars = p_N P -> runs_to E ->
  (forall g, exists z g', gauss g = Ok (z, g')) ->
  (forall v, length v = p_N P -> exists w, transform v = Ok w) -> @transform_sized numR transform P ->
  INR (decompositions gauss E cpow round bounds transform P (@cma_init numR G round P pars g) ops) <= 10 * INR (p_N P) * p_ccov P * INR (generation (p_lambda P) ops) /\ p_ccov P < 1.
Proof.
  intros G gauss E cpow round bounds transform cceil ol om P pars g ops HD Hom HP HE HG HTr HTS.
  pose proof (Properties_Cma2.default_par_facts _ _ _ _ HD) as (_ & _ & _ & Hc & _). destruct HD as [HN HD].
  assert (HM : (p_modulo P : R) = / (p_ccov P * INR (p_N P) * 10)).
  { destruct (C42_parameters cceil (p_N P) ol om HN) as (P' & E' & A). assert (P' = P) as -> by (injection (eq_trans (eq_sym E') HD); auto).
    decompose [and] A. auto. }
  assert (Hn : 0 < INR (p_N P)) by (apply lt_0_INR; lia).
  assert (Hp : 0 < p_ccov P * INR (p_N P) * 10) by (apply Rmult_lt_0_compat; [apply Rmult_lt_0_compat; [apply Hc|exact Hn]|lra]).
  assert (Hm : 0 < p_modulo P) by (rewrite HM; apply Rinv_0_lt_compat; exact Hp).
  split; [|apply Hc].
  pose proof (C67_frequency G gauss E cpow round bounds transform P pars g ops ltac:(lia) HP HE HG HTr HTS (Rlt_le _ _ Hm)) as F. rewrite HM in F.
  set (k := INR (decompositions _ _ _ _ _ _ _ _ _)) in *. set (t := INR (generation _ _)) in *. set (q := p_ccov P * INR (p_N P) * 10 : R) in *.
  assert (X : k <= t * q). { apply (Rmult_le_reg_r (/ q)); [apply Rinv_0_lt_compat; exact Hp|]. rewrite Rmult_assoc, Rinv_r, Rmult_1_r; [exact F|]. apply Rgt_not_eq. exact Hp. }
  replace (10 * INR (p_N P) * p_ccov P * t) with (t * q) by (unfold q; ring). exact X.
Qed.

(** ** The hypotheses are met: for one parameter the covariance matrix is well conditioned in every history. *)
Lemma well_conditioned_one (C : list (list R)) : length C = 1%nat -> Properties_Cma2.positive_definite 1 C -> well_conditioned 1 C.
Proof.
  intros HL HPD.
  assert (H : 0 < entry C 0 0).
  { specialize (HPD (fun _ => 1) (ex_intro _ 0%nat (conj Nat.lt_0_1 R1_neq_R0))). unfold Properties_Cma2.qf, Properties_Cma2.entry in HPD. cbn in HPD. unfold entry. lra. }
  exists (entry C 0 0). split.
  - unfold tolerance. rewrite HL. unfold norm, total, covariance. cbn [seq map fold_right Nat.max Nat.min INR]. 
    replace (entry C 0 0 * entry C 0 0 + 0 + 0) with (entry C 0 0 * entry C 0 0) by ring. rewrite sqrt_square by lra. lra.
  - intros x. unfold total, covariance. cbn [seq map fold_right Nat.max Nat.min]. intros Hx. replace (x 0%nat * entry C 0 0 * x 0%nat + 0 + 0) with (entry C 0 0 * (x 0%nat * x 0%nat + 0)) by ring. rewrite Hx. lra.
Qed.
Example C67_nonvacuous : exists P : cma_par numR, Properties_Cma2.default_par (fun x => x) 4 (-1) P /\ p_N P = 1%nat /\ p_lambda P = 4%nat /\
  forall results : list (list R), Forall (fun r => length r = p_lambda P) results ->
  let after := leads_to (fun g : unit => Ok (1, g)) unlimited (fun x _ => x) (fun x => x) [(-100, 100)] (fun v => Ok v) P [(5, 1)] tt in
  runs_to unlimited /\
  (forall pre rest s, alternate (K := numR) results = pre ++ rest -> after pre s -> well_conditioned (p_N P) (s_C s)) /\
  exists st st', after (alternate (K := numR) results) st /\ @cma_sample numR unit (fun g => Ok (1, g)) unlimited (fun x => x) [(-100, 100)] (fun v => Ok v) P st = Ok st'.
Proof.
  destruct (C42_parameters (fun x => x) 1 4 (-1) (Nat.le_refl _)) as (P & E & HN & _ & _ & _ & HL & _).
  assert (HD : Properties_Cma2.default_par (fun x => x) 4 (-1) P) by (split; [lia|rewrite HN; exact E]).
  exists P. split; [exact HD|]. split; [exact HN|]. specialize (HL ltac:(lia)). split; [lia|]. intros results F after. split; [exact (proj1 C61_unlimited)|].
  assert (H0 : (0 < p_N P)%nat) by lia. assert (HP : length [(5, 1)] = p_N P) by (rewrite HN; reflexivity).
  assert (HG : forall g : unit, exists z g', (fun g : unit => @Ok (R * unit) (1, g)) g = Ok (z, g')) by (intros g; eauto).
  assert (HTr : forall v : list R, length v = p_N P -> exists w, (fun v : list R => Ok v) v = Ok w) by (intros v _; eauto).
  assert (HTS : @transform_sized numR (fun v => Ok v) P) by (intros v w Hv [= <-]; exact Hv).
  split.
  - intros pre rest s _ Hs. pose proof Hs as (oks & Hc).
    pose proof (proj2 (leads (fun g : unit => Ok (1, g)) unlimited (fun x _ => x) (fun x => x) [(-100, 100)] (fun v => Ok v) P [(5, 1)] tt H0 HP HG (proj1 C61_unlimited) HTr HTS pre s Hs)) as (_ & (HC & _) & _).
    apply (Properties_Cma2.C44_covariance_positive unit _ _ _ _ _ _ _ _ _ P [(5, 1)] tt pre oks s HD HP) in Hc as (_ & Hc & _); [|constructor; [cbn; lra|constructor]].
    rewrite HN in *. apply well_conditioned_one; assumption.
  - destruct (@calls_protocol numR unit (fun g => Ok (1, g)) unlimited (fun x _ => x) (fun x => x) [(-100, 100)] (fun v => Ok v) P H0 HG (E_ok unlimited P [(5, 1)] H0 HP (proj1 C61_unlimited)) (E_sized unlimited P [(5, 1)] H0 HP (proj1 C61_unlimited)) HTr HTS (alternate (K := numR) results) (@cma_init numR unit (fun x => x) P [(5, 1)] tt) (0%nat, false)) as (st & E1 & _ & HS).
    + apply init_sized. exact HP.
    + unfold agrees, cma_init. cbn [s_gen s_phase fst snd]. auto.
    + destruct (@sample_defined numR unit (fun g => Ok (1, g)) unlimited (fun x => x) [(-100, 100)] (fun v => Ok v) P st H0 HG (E_ok unlimited P [(5, 1)] H0 HP (proj1 C61_unlimited)) HTr HS) as (st' & ES).
      exists st, st'. split; [eexists; exact E1|exact ES].
Qed.
