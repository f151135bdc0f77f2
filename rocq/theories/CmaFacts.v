(** * Facts about the CMA model over every number type. *)
From Coq Require Import ZArith Bool Lia Permutation Sorted.
From Verif Require Import Prelude Num MathTools Cma.

Section Basics.
Context {K : Num}.
Lemma build_length {A} n (f : nat -> A) : length (build n f) = n.
Proof. unfold build. rewrite map_length, seq_length. reflexivity. Qed.
Lemma nth_error_build {A} n (f : nat -> A) i : i < n -> nth_error (build n f) i = Some (f i).
Proof.
  intros H. unfold build. rewrite nth_error_map. rewrite (nth_error_nth' _ 0) by (rewrite seq_length; exact H). rewrite seq_nth by exact H. reflexivity.
Qed.
Lemma at_build n (f : nat -> K) i : i < n -> at_ (build n f) i = f i.
Proof. intros H. unfold at_. apply nth_error_nth. now apply nth_error_build. Qed.
Lemma row_build n (f : nat -> list K) i : i < n -> row_ (build n f) i = f i.
Proof. intros H. unfold row_. apply nth_error_nth. now apply nth_error_build. Qed.
Lemma Forall_build {A} (P : A -> Prop) n (f : nat -> A) : (forall i, i < n -> P (f i)) -> Forall P (build n f).
Proof. intros H. apply Forall_forall. intros x Hx. unfold build in Hx. apply in_map_iff in Hx as (i & <- & Hi). apply H. apply in_seq in Hi. lia. Qed.
Lemma build_at n (l : list K) : length l = n -> build n (at_ l) = l.
Proof.
  intros H. apply nth_error_ext'; [rewrite build_length; auto|]. rewrite build_length. intros i Hi. rewrite nth_error_build by exact Hi. symmetry. apply nth_error_nth'. lia.
Qed.
Lemma sum_ext n (f g : nat -> K) : (forall i, i < n -> f i = g i) -> sum_ n f = sum_ n g.
Proof.
  intros H. unfold sum_. assert (A : forall l s, (forall i, In i l -> i < n) -> fold_left (fun s j => nadd s (f j)) l s = fold_left (fun s j => nadd s (g j)) l s).
  { induction l as [|i l IH]; intros s Hl; cbn [fold_left]; [reflexivity|]. rewrite H by (apply Hl; now left). apply IH. intros j Hj. apply Hl. now right. }
  apply A. intros i Hi. apply in_seq in Hi. lia.
Qed.
End Basics.

(** ** The ranking *)
Section Rank.
Context {K : Num}.
Variable f : nat -> K.
Lemma rank_insert_perm i l : Permutation (rank_insert f i l) (i :: l).
Proof.
  induction l as [|a t IH]; cbn [rank_insert]; [apply Permutation_refl|]. destruct (nlt (f a) (f i)); [apply Permutation_refl|]. rewrite IH. apply perm_swap.
Qed.
Lemma sorted_index_perm_gen l : forall acc, Permutation (fold_left (fun ord i => rank_insert f i ord) l acc) (l ++ acc).
Proof.
  induction l as [|i l IH]; intros acc; cbn [fold_left app]; [apply Permutation_refl|]. rewrite IH, rank_insert_perm. symmetry. apply Permutation_middle.
Qed.
(** [a] is ranked before [b]: smaller value, or the same and a later index. *)
Definition ranked (a b : nat) : Prop := nlt (f a) (f b) = true \/ (nlt (f a) (f b) = false /\ nlt (f b) (f a) = false /\ b < a).
(** The values compared form a total order. *)
Definition total_on (n : nat) : Prop :=
  (forall a, a < n -> nlt (f a) (f a) = false) /\
  (forall a b c, a < n -> b < n -> c < n -> nlt (f a) (f b) = true -> nlt (f b) (f c) = true -> nlt (f a) (f c) = true) /\
  (forall a b c, a < n -> b < n -> c < n -> nlt (f b) (f a) = false -> nlt (f c) (f b) = false -> nlt (f c) (f a) = false).
Variable n : nat.
Hypothesis HT : total_on n.
Lemma ranked_trans a b c : a < n -> b < n -> c < n -> ranked a b -> ranked b c -> ranked a c.
Proof using HT.
  destruct HT as (Hi & Ht & Hw). intros Ha Hb Hc H1 H2. unfold ranked in *.
  assert (AS : forall x y, x < n -> y < n -> nlt (f x) (f y) = true -> nlt (f y) (f x) = false).
  { intros x y Hx Hy H. destruct (nlt (f y) (f x)) eqn:E; [|reflexivity]. pose proof (Ht x y x Hx Hy Hx H E) as HH. rewrite (Hi x Hx) in HH. discriminate. }
  destruct H1 as [H1|(H1 & H1' & L1)], H2 as [H2|(H2 & H2' & L2)].
  - left. exact (Ht a b c Ha Hb Hc H1 H2).
  - left. destruct (nlt (f a) (f c)) eqn:E; [reflexivity|]. pose proof (Hw b c a Hb Hc Ha H2' E). congruence.
  - left. destruct (nlt (f a) (f c)) eqn:E; [reflexivity|]. pose proof (Hw c a b Hc Ha Hb E H1'). congruence.
  - right. split; [apply (Hw c b a); auto|]. split; [apply (Hw a b c); auto|lia].
Qed.
Lemma rank_insert_sorted i l : i < n -> Forall (fun a => a < i) l -> StronglySorted (fun a b => ranked b a) l -> StronglySorted (fun a b => ranked b a) (rank_insert f i l).
Proof using HT.
  intros Hi F S. induction S as [|a t S IH HA]; cbn [rank_insert]; [repeat constructor|]. inversion F as [|? ? Fa Ft]; subst. specialize (IH Ft).
  destruct (nlt (f a) (f i)) eqn:E.
  - constructor; [constructor; assumption|]. constructor; [left; exact E|]. rewrite Forall_forall in *. intros b Hb. apply (ranked_trans b a i); auto; [specialize (Ft b Hb); lia|lia|left; exact E].
  - constructor; [exact IH|]. rewrite Forall_forall in *. intros b Hb. apply (Permutation_in _ (rank_insert_perm i t)) in Hb as [<-|Hb]; [|auto].
    destruct (nlt (f i) (f a)) eqn:E2; [left; exact E2|]. right. auto.
Qed.
Lemma sorted_index_gen k : forall s acc, s + k <= n -> Forall (fun a => a < s) acc -> StronglySorted (fun a b => ranked b a) acc ->
  StronglySorted (fun a b => ranked b a) (fold_left (fun ord i => rank_insert f i ord) (seq s k) acc).
Proof using HT.
  induction k as [|k IH]; intros s acc Hn F S; cbn [seq fold_left]; [exact S|]. apply IH; [lia| |apply rank_insert_sorted; auto; lia].
  apply (Permutation_Forall (Permutation_sym (rank_insert_perm s acc))). constructor; [lia|]. eapply Forall_impl; [|exact F]. cbn. lia.
Qed.
Lemma StronglySorted_rev {A} (R : A -> A -> Prop) l : StronglySorted R l -> StronglySorted (fun a b => R b a) (rev l).
Proof.
  induction 1 as [|a l S IH F]; cbn [rev]; [constructor|]. clear S. revert IH. assert (F' : Forall (R a) (rev l)) by (apply Forall_rev; exact F). clear F.
  induction (rev l) as [|b t IHt]; cbn [app]; intros S; [repeat constructor|]. inversion S as [|? ? S' Fb]; subst. inversion F' as [|? ? Fa Fb']; subst. constructor; [auto|].
  apply Forall_app. split; [exact Fb|]. constructor; [exact Fa|constructor].
Qed.
End Rank.
Lemma sorted_index_perm {K : Num} (v : list K) n : Permutation (sorted_index v n) (seq 0 n).
Proof. unfold sorted_index. rewrite <- Permutation_rev. rewrite sorted_index_perm_gen. rewrite app_nil_r. apply Permutation_refl. Qed.
Lemma sorted_index_length {K : Num} (v : list K) n : length (sorted_index v n) = n.
Proof. rewrite (Permutation_length (sorted_index_perm v n)). apply seq_length. Qed.
Lemma sorted_index_sorted {K : Num} (v : list K) n : total_on (at_ v) n -> StronglySorted (ranked (at_ v)) (sorted_index v n).
Proof. intros H. unfold sorted_index. apply (StronglySorted_rev (fun a b => ranked (at_ v) b a)). apply (sorted_index_gen (at_ v) n H); [lia|constructor|constructor]. Qed.

(** ** Dimensions *)
Section Dims.
Context {K : Num} {G : Type}.
Variables (gauss : G -> outcome (K * G)) (eigen : list (list K) -> outcome (list K * list (list K))) (cpow : K -> K -> K) (cceil : K -> K) (to_int : K -> outcome Z) (round : K -> K) (bounds : list (K * K)).
Variable transform : list K -> outcome (list K).
Variable P : cma_par K.
Notation N := (p_N P).
Notation state := (cma_state K G).
Notation sample := (cma_sample gauss eigen round bounds transform P).
Notation update := (cma_update cpow P).
(** Every array has the size the constructor gave it. *)
Definition square (m : list (list K)) : Prop := length m = N /\ Forall (fun r => length r = N) m.
Definition triangular (m : list (list K)) : Prop := length m = N /\ forall i, i < N -> length (row_ m i) = S i.
Definition cma_sized (st : state) : Prop :=
  length (s_mean st) = N /\ triangular (s_C st) /\ square (s_B st) /\ length (s_D st) = N /\ length (s_pc st) = N /\ length (s_ps st) = N /\
  length (s_rows st) = p_lambda P /\ Forall (fun r => length r = N) (s_rows st) /\
  length (s_bounded st) = p_lambda P /\ Forall (fun r => length r = N) (s_bounded st).
(** The eigendecomposition writes N eigenvalues and an N x N matrix; transformers keep the length. *)
Definition eigen_sized : Prop := forall C d Q, triangular C -> eigen C = Ok (d, Q) -> length d = N /\ square Q.
Definition transform_sized : Prop := forall v w, length v = N -> transform v = Ok w -> length w = N.

Lemma init_sized pars g : length pars = N -> cma_sized (cma_init round P pars g).
Proof.
  intros HP. unfold cma_sized, cma_init. cbn [s_mean s_C s_B s_D s_pc s_ps s_rows s_bounded]. rewrite !map_length, !build_length, !repeat_length.
  split; [exact HP|]. split; [split; [apply build_length|intros i Hi; rewrite row_build by exact Hi; apply build_length]|].
  split; [split; [apply build_length|apply Forall_build; intros; apply build_length]|]. repeat (split; [reflexivity|]).
  split; [apply Forall_forall; intros x Hx; apply repeat_spec in Hx as ->; apply build_length|]. split; [reflexivity|]. apply Forall_forall. intros x Hx. apply repeat_spec in Hx as ->. rewrite !map_length. exact HP.
Qed.
Lemma update_eigensystem_sized st st' : eigen_sized -> cma_sized st -> update_eigensystem eigen P st = Ok st' -> cma_sized st'.
Proof.
  intros HE (H1 & H2 & H3 & H4 & H5) H. unfold update_eigensystem in H. destruct (s_uptodate st); [injection H as <-; unfold cma_sized; auto|].
  destruct (flgdiag st); [injection H as <-; unfold cma_sized, with_eigen; cbn [s_mean s_C s_B s_D s_pc s_ps s_rows s_bounded]; rewrite build_length; auto|].
  destruct (nlt _ _); [injection H as <-; unfold cma_sized; auto|]. destruct (eigen (s_C st)) as [[d Q]| |] eqn:E; cbn [obind] in H; try discriminate. injection H as <-.
  destruct (HE _ _ _ H2 E) as [Hd HQ]. unfold cma_sized, with_eigen. cbn [s_mean s_C s_B s_D s_pc s_ps s_rows s_bounded]. rewrite map_length. auto.
Qed.
Lemma mutant_length (st : state) diag z : length (mutant P st diag z) = N.
Proof. unfold mutant. destruct diag; apply build_length. Qed.
Lemma mutants_spec (st : state) diag n : forall g rows g', mutants gauss P st diag n g = Ok (rows, g') -> length rows = n /\ Forall (fun r => exists z, r = mutant P st diag z) rows.
Proof.
  induction n as [|n IH]; intros g rows g'; cbn [mutants]; [intros [= <- <-]; auto|]. destruct (draws gauss N g) as [[z g1]| |]; cbn [obind]; try discriminate.
  destruct (mutants gauss P st diag n g1) as [[rows' g2]| |] eqn:E; cbn [obind]; try discriminate. intros [= <- <-]. apply IH in E as [L F]. split; [cbn; congruence|]. constructor; [eauto|exact F].
Qed.
(** What the attempts for one individual end with. *)
Lemma attempts_spec (st : state) n : forall row individual g row' ind' found g', attempts gauss bounds transform P st n row individual g = Ok (row', ind', found, g') ->
  individual = row ->
  (found = true /\ feasible bounds ind' = true /\ transform row' = Ok ind' \/ found = false /\ ind' = row') /\ (row' = row \/ exists z, row' = mutant P st false z).
Proof.
  induction n as [|n IH]; intros row individual g row' ind' found g'; cbn [attempts]; [intros [= <- <- <- <-] ->; auto|].
  destruct (transform individual) as [ind| |] eqn:Et; cbn [obind]; try discriminate. destruct (feasible bounds ind) eqn:Ef; [intros [= <- <- <- <-] ->; auto 6|].
  destruct (draws gauss N g) as [[z g1]| |]; cbn [obind]; try discriminate. intros H _. apply IH in H; [|reflexivity]. destruct H as [H1 H2]. split; [exact H1|]. right. destruct H2 as [->|H2]; eauto.
Qed.
Definition individual_of (row ind : list K) : Prop := exists v,
  ind = map round v /\ ((feasible bounds v = true /\ transform row = Ok v) \/ (exists r, v = clamp_all bounds r /\ row = v /\ length r = N)).
Lemma individuals_spec (st : state) rows : forall g rows' inds g', individuals gauss round bounds transform P st rows g = Ok (rows', inds, g') -> Forall (fun r => length r = N) rows ->
  length rows' = length rows /\ Forall2 individual_of rows' inds /\
  Forall (fun r => (exists d z, r = mutant P st d z) \/ In r rows \/ exists v, length v = N /\ r = clamp_all bounds v) rows'.
Proof.
  induction rows as [|row t IH]; intros g rows' inds g'; cbn [individuals]; [intros [= <- <- <-] _; auto|]. destruct (attempts _ _ _ _ _ _ _ _ _) as [[[[row1 ind] found] g1]| |] eqn:E; cbn [obind]; try discriminate.
  apply attempts_spec in E as [E1 E2]; [|reflexivity]. destruct (if found then (row1, ind) else (clamp_all bounds ind, clamp_all bounds ind)) as [row2 ind2] eqn:E3.
  destruct (individuals _ _ _ _ _ _ t g1) as [[[rows'' inds''] g2]| |] eqn:E4; cbn [obind]; try discriminate. intros [= <- <- <-] F. inversion F as [|? ? F1 F2]; subst. apply IH in E4 as (L & F4 & M4); [|exact F2].
  assert (L1 : length row1 = N) by (destruct E2 as [->|(z & ->)]; [exact F1|apply mutant_length]).
  split; [cbn; congruence|]. split.
  - constructor; [|exact F4]. destruct found; injection E3 as <- <-; destruct E1 as [(Hf & A & B)|(Hf & A)]; try discriminate.
    + exists ind. auto.
    + subst ind. exists (clamp_all bounds row1). split; [reflexivity|]. right. exists row1. auto.
  - constructor.
    + destruct found; injection E3 as <- <-.
      * destruct E2 as [->|(z & ->)]; [right; left; now left|left; eauto].
      * destruct E1 as [(Hf & _)|(_ & ->)]; [discriminate|]. right. right. eauto.
    + eapply Forall_impl; [|exact M4]. cbn. intros r [H|[H|H]]; auto.

Qed.
Lemma clamp_all_length bs : forall v : list K, length (clamp_all bs v) = length v.
Proof. induction bs as [|b bs IH]; intros [|x v]; cbn; auto. Qed.

Lemma sample_spec st st' : sample st = Ok st' -> exists st1 rows,
  update_eigensystem eigen P st = Ok st1 /\
  s_sigma st' = s_sigma st1 /\ s_mean st' = s_mean st1 /\ s_C st' = s_C st1 /\ s_B st' = s_B st1 /\ s_D st' = s_D st1 /\ s_pc st' = s_pc st1 /\ s_ps st' = s_ps st1 /\
  s_gen st' = (match s_phase st with Updated => S (s_gen st) | _ => if Nat.eqb (s_gen st) 0 then S (s_gen st) else s_gen st end) /\
  s_phase st' = Sampled /\ s_uptodate st' = s_uptodate st1 /\
  length rows = p_lambda P /\ Forall (fun r => length r = N) rows /\ Forall (fun r => exists z, r = mutant P st1 (flgdiag st) z) rows /\
  length (s_rows st') = p_lambda P /\ Forall2 individual_of (s_rows st') (s_bounded st') /\
  Forall (fun r => (exists d z, r = mutant P st1 d z) \/ In r rows \/ exists v, length v = N /\ r = clamp_all bounds v) (s_rows st').
Proof.
  intros H. unfold cma_sample, assert_ in H. destruct (Nat.ltb 0 N); cbn [obind] in H; [|discriminate]. destruct (update_eigensystem eigen P st) as [st1| |] eqn:E1; cbn [obind] in H; try discriminate.
  destruct (mutants gauss P st1 (flgdiag st) (p_lambda P) (s_rng st1)) as [[rows g1]| |] eqn:E2; cbn [obind] in H; try discriminate.
  destruct (individuals gauss round bounds transform P st1 rows g1) as [[[rows' inds] g2]| |] eqn:E3; cbn [obind] in H; try discriminate. injection H as <-. cbn [s_sigma s_mean s_C s_B s_D s_pc s_ps s_gen s_phase s_uptodate s_rows s_bounded].
  apply mutants_spec in E2 as [L F]. assert (F' : Forall (fun r => length r = N) rows) by (eapply Forall_impl; [|exact F]; intros r (z & ->); apply mutant_length).
  apply individuals_spec in E3 as (L' & F2 & F3); [|exact F'].
  assert (HG : s_phase st1 = s_phase st /\ s_gen st1 = s_gen st).
  { clear - E1. unfold update_eigensystem in E1. destruct (s_uptodate st); [injection E1 as <-; auto|]. destruct (flgdiag st); [injection E1 as <-; auto|]. destruct (nlt _ _); [injection E1 as <-; auto|].
    destruct (eigen (s_C st)) as [[d Q]| |]; cbn [obind] in E1; try discriminate. injection E1 as <-. auto. }
  destruct HG as [-> ->]. exists st1, rows. repeat (split; [reflexivity || assumption|]). split; [congruence|]. split; assumption.
Qed.
Lemma sample_sized st st' : eigen_sized -> transform_sized -> cma_sized st -> sample st = Ok st' -> cma_sized st'.
Proof.
  intros HE HTr HS H. apply sample_spec in H as (st1 & rows & E1 & A1 & A2 & A3 & A4 & A5 & A6 & A7 & _ & _ & _ & L & F & _ & L' & F2 & F3).
  apply update_eigensystem_sized in E1; auto. destruct E1 as (B1 & B2 & B3 & B4 & B5 & B6 & _). unfold cma_sized. rewrite A2, A3, A4, A5, A6, A7.
  assert (FR : Forall (fun r => length r = N) (s_rows st')).
  { eapply Forall_impl; [|exact F3]. cbn. intros r [(d & z & ->)|[Hr|(v & Hv & ->)]]; [apply mutant_length|rewrite Forall_forall in F; auto|rewrite clamp_all_length; exact Hv]. }
  assert (FB : length (s_bounded st') = p_lambda P /\ Forall (fun r => length r = N) (s_bounded st')).
  { clear - F2 L' FR HTr. rewrite <- L'. clear L'. induction F2 as [|row ind rows inds (v & -> & Hv) F2 IH]; [auto|]. inversion FR as [|? ? FR1 FR2]; subst. destruct (IH FR2) as [IL IF]. split; [cbn; congruence|]. constructor; [|exact IF].
    rewrite map_length. destruct Hv as [[_ Hv]|(r & -> & _ & Hr)]; [eapply HTr; eauto|rewrite clamp_all_length; exact Hr]. }
  tauto.
Qed.
Lemma sample_rows st st' : sample st = Ok st' ->
  s_mean st' = s_mean st /\ s_sigma st' = s_sigma st /\ s_C st' = s_C st /\ s_phase st' = Sampled /\ length (s_rows st') = p_lambda P /\
  Forall (fun r => length r = N /\ exists ind, individual_of r ind /\ In ind (s_bounded st')) (s_rows st').
Proof.
  intros H. apply sample_spec in H as (st1 & rows & E1 & A1 & A2 & A3 & A4 & A5 & A6 & A7 & _ & A8 & _ & L & F & _ & L' & F2 & F3).
  assert (EK : s_mean st1 = s_mean st /\ s_sigma st1 = s_sigma st /\ s_C st1 = s_C st).
  { clear - E1. unfold update_eigensystem in E1. destruct (s_uptodate st); [injection E1 as <-; auto|]. destruct (flgdiag st); [injection E1 as <-; auto|]. destruct (nlt _ _); [injection E1 as <-; auto|].
    destruct (eigen (s_C st)) as [[d Q]| |]; cbn [obind] in E1; try discriminate. injection E1 as <-. auto. }
  destruct EK as (K1 & K2 & K3). rewrite A1, A2, A3. repeat (split; [assumption|]). clear - F F2 F3.
  assert (FR : Forall (fun r => length r = N) (s_rows st')).
  { eapply Forall_impl; [|exact F3]. cbn. intros r [(d & z & ->)|[Hr|(v & Hv & ->)]]; [apply mutant_length|rewrite Forall_forall in F; auto|rewrite clamp_all_length; exact Hv]. }
  assert (FI : Forall (fun r => exists ind, individual_of r ind /\ In ind (s_bounded st')) (s_rows st')).
  { clear - F2. induction F2 as [|r ind rs inds Hr F2 IH]; [constructor|]. constructor; [exists ind; split; [exact Hr|now left]|]. eapply Forall_impl; [|exact IH]. cbn. intros r0 (i0 & A & B). eauto. }
  rewrite Forall_forall in *. auto.
Qed.
Lemma update_spec_phase (st : state) fits (st' : state) : update st fits = Ok st' ->
  s_phase st = Sampled /\ length fits = p_lambda P /\ s_phase st' = Updated /\ s_gen st' = s_gen st /\ s_rows st' = s_rows st /\ s_bounded st' = s_bounded st /\ s_B st' = s_B st /\ s_D st' = s_D st /\ s_rng st' = s_rng st.
Proof.
  unfold cma_update. destruct (s_phase st); try discriminate; destruct (Nat.eqb_spec (length fits) (p_lambda P)); cbn [negb]; try discriminate.
  intros [= <-]. cbn [s_phase s_gen s_rows s_bounded s_B s_D s_rng]. auto 10.
Qed.
Lemma update_sized (st : state) fits (st' : state) : cma_sized st -> update st fits = Ok st' -> cma_sized st'.
Proof.
  intros HS H. pose proof (update_spec_phase _ _ _ H) as (_ & _ & _ & _ & E1 & E2 & E3 & E4 & _). unfold cma_update in H. destruct (s_phase st); try discriminate; destruct (negb _); try discriminate.
  injection H as H. unfold cma_sized in *. rewrite E1, E2, E3, E4. destruct HS as (B1 & B2 & B3 & B4 & B5 & B6 & B7).
  rewrite <- H. cbn [s_mean s_C s_pc s_ps]. rewrite !build_length. split; [reflexivity|]. split; [|auto 10].
  destruct (negb _); [|exact B2]. unfold adapt_C. split; [apply build_length|]. intros i Hi. rewrite row_build by exact Hi. apply build_length.
Qed.
(** Sampling and updating are always defined when the sources are. *)
Lemma draws_defined n : (forall g, exists z g', gauss g = Ok (z, g')) -> forall g, exists z g', draws gauss n g = Ok (z, g') /\ length z = n.
Proof.
  intros HG. induction n as [|n IH]; intros g; cbn [draws]; [eauto|]. destruct (HG g) as (z & g1 & ->). cbn [obind]. destruct (IH g1) as (zs & g2 & -> & HL). cbn [obind]. eexists _, _. split; [reflexivity|]. cbn. congruence.
Qed.
Lemma sample_defined st : 0 < N -> (forall g, exists z g', gauss g = Ok (z, g')) -> (forall C, triangular C -> exists d Q, eigen C = Ok (d, Q)) -> (forall v, length v = N -> exists w, transform v = Ok w) ->
  cma_sized st -> exists st', sample st = Ok st'.
Proof.
  intros HN HG HE HTr HS. unfold cma_sample, assert_. destruct (Nat.ltb_spec 0 N); [|lia]. cbn [obind].
  assert (E1 : exists st1, update_eigensystem eigen P st = Ok st1).
  { unfold update_eigensystem. destruct (s_uptodate st); [eauto|]. destruct (flgdiag st); [eauto|]. destruct (nlt _ _); [eauto|]. destruct (HE (s_C st)) as (d & Q & ->); [apply HS|]. cbn. eauto. }
  destruct E1 as (st1 & ->). cbn [obind].
  assert (E2 : forall n g, exists rows g', mutants gauss P st1 (flgdiag st) n g = Ok (rows, g')).
  { induction n as [|n IH]; intros g; cbn [mutants]; [eauto|]. destruct (draws_defined N HG g) as (z & g1 & -> & _). cbn [obind]. destruct (IH g1) as (rows & g2 & ->). cbn. eauto. }
  destruct (E2 (p_lambda P) (s_rng st1)) as (rows & g1 & Er). rewrite Er. cbn [obind]. apply mutants_spec in Er as [_ F].
  assert (F' : Forall (fun r => length r = N) rows) by (eapply Forall_impl; [|exact F]; intros r (z & ->); apply mutant_length).
  assert (E3 : forall n row g, length row = N -> exists r, attempts gauss bounds transform P st1 n row row g = Ok r).
  { induction n as [|n IH]; intros row g HL; cbn [attempts]; [eauto|]. destruct (HTr row HL) as (w & ->). cbn [obind]. destruct (feasible bounds w); [eauto|]. destruct (draws_defined N HG g) as (z & g2 & -> & _). cbn [obind]. apply IH. apply mutant_length. }
  assert (E4 : forall g, exists r, individuals gauss round bounds transform P st1 rows g = Ok r).
  { clear - E3 F'. induction F' as [|row t Hr _ IH]; intros g; cbn [individuals]; [eauto|]. destruct (E3 100 row g Hr) as ([[[row1 ind] found] g1] & ->). cbn [obind]. destruct (if found then _ else _) as [row2 ind2]. destruct (IH g1) as ([[rows' inds'] g2] & ->). cbn. eauto. }
  destruct (E4 g1) as ([[rows' inds] g2] & ->). cbn [obind]. eauto.
Qed.
End Dims.

(** Outside the first generation every entry of the triangle is adapted. *)
Lemma adapt_C_at {K : Num} (P : cma_par K) hsig sigma xold pc best C i j : i < p_N P -> j <= i ->
  at_ (row_ (adapt_C P false hsig sigma xold pc best C) i) j = adapt_entry P false hsig sigma xold pc best i j (at_ (row_ C i) j).
Proof. intros Hi Hj. unfold adapt_C. rewrite row_build by exact Hi. rewrite at_build by lia. reflexivity. Qed.
Lemma update_mean {K : Num} {G} cpow (P : cma_par K) (st : cma_state K G) fits st' : cma_update cpow P st fits = Ok st' ->
  s_phase st = Sampled /\ s_phase st' = Updated /\ exists best, best = map (fun k => row_ (s_rows st) k) (firstn (p_mu P) (sorted_index fits (p_lambda P))) /\
  s_mean st' = build (p_N P) (fun i => fold_left (fun s kx => nadd s (nmul (at_ (p_weights P) (fst kx)) (at_ (snd kx) i))) (combine (seq 0 (p_mu P)) best) (nofZ 0)).
Proof.
  unfold cma_update. destruct (s_phase st); try discriminate; destruct (negb _); try discriminate. intros [= <-]. split; [reflexivity|]. split; [reflexivity|]. eexists. split; reflexivity.
Qed.
Lemma best_rows {K : Num} (rows : list (list K)) (fits : list K) (lambda mu : nat) (Q : list K -> Prop) : length rows = lambda -> mu <= lambda -> Forall Q rows ->
  let best := map (fun k => row_ rows k) (firstn mu (sorted_index fits lambda)) in length best = mu /\ Forall Q best.
Proof.
  intros HL Hm HQ best. unfold best. rewrite map_length, firstn_length, sorted_index_length. split; [lia|]. apply Forall_forall. intros r Hr. apply in_map_iff in Hr as (k & <- & Hk).
  assert (In k (seq 0 lambda)). { apply (Permutation_in _ (sorted_index_perm fits lambda)). rewrite <- (firstn_skipn mu). apply in_or_app. now left. }
  apply in_seq in H. rewrite Forall_forall in HQ. apply HQ. apply nth_In. lia.
Qed.
