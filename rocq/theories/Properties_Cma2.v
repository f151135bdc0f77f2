(** * CMA in exact arithmetic: the covariance stays positive definite (C44), the mean stays within the bounds (C46). *)
From Coq Require Import ZArith Bool Lia Reals Lra Permutation.
From Flocq Require Import Core.
From Verif Require Import Prelude Num MathTools Cma CmaFacts Properties_Cma.
#[local] Open Scope R_scope.

(** ** Quadratic forms *)
Definition lsum {A} (l : list A) (g : A -> R) : R := fold_right (fun a s => g a + s) 0 l.
Definition qf (N : nat) (M : nat -> nat -> R) (x : nat -> R) : R := rsum N (fun i => rsum N (fun j => x i * M i j * x j)).
Lemma qf_ext N M M' x : (forall i j, (i < N)%nat -> (j < N)%nat -> M i j = M' i j) -> qf N M x = qf N M' x.
Proof. intros H. apply sum_ext_R. intros i Hi. apply sum_ext_R. intros j Hj. rewrite H by assumption. reflexivity. Qed.
Lemma qf_plus N M M' x : qf N (fun i j => M i j + M' i j) x = qf N M x + qf N M' x.
Proof. unfold qf. rewrite <- sum_plus. apply sum_ext_R. intros i Hi. rewrite <- sum_plus. apply sum_ext_R. intros. ring. Qed.
Lemma qf_scal N c M x : qf N (fun i j => c * M i j) x = c * qf N M x.
Proof. unfold qf. rewrite <- sum_scal. apply sum_ext_R. intros i Hi. rewrite <- sum_scal. apply sum_ext_R. intros. ring. Qed.
Lemma qf_rank1 N v x : qf N (fun i j => v i * v j) x = rsum N (fun i => x i * v i) * rsum N (fun i => x i * v i).
Proof.
  unfold qf. rewrite <- sum_scal. apply sum_ext_R. intros i Hi. rewrite Rmult_comm, <- sum_scal. apply sum_ext_R. intros. ring.
Qed.
Lemma qf_zero N x : qf N (fun _ _ => 0) x = 0.
Proof. unfold qf. rewrite (sum_ext_R N _ (fun _ => 0)); [rewrite sum_const; ring|]. intros i Hi. rewrite (sum_ext_R N _ (fun _ => 0)); [rewrite sum_const; ring|]. intros. ring. Qed.
Lemma qf_lsum {A} N (l : list A) (g : A -> nat -> nat -> R) x : qf N (fun i j => lsum l (fun k => g k i j)) x = lsum l (fun k => qf N (g k) x).
Proof. induction l as [|k l IH]; cbn [lsum fold_right]; [apply qf_zero|]. rewrite qf_plus. f_equal. exact IH. Qed.
Lemma lsum_nonneg {A} (l : list A) g : (forall a, In a l -> 0 <= g a) -> 0 <= lsum l g.
Proof. induction l as [|a l IH]; cbn [lsum fold_right]; intros H; [lra|]. pose proof (H a (or_introl eq_refl)). specialize (IH (fun b Hb => H b (or_intror Hb))). unfold lsum in IH. lra. Qed.
Lemma qf_rank1_nonneg N v x : 0 <= qf N (fun i j => v i * v j) x.
Proof. rewrite qf_rank1. apply Rle_0_sqr. Qed.

(** The symmetric matrix a lower triangle stands for. *)
Definition entry (C : list (list R)) (i j : nat) : R := nth (Nat.min i j) (nth (Nat.max i j) C []) 0.
Definition positive_definite (N : nat) (C : list (list R)) : Prop := forall x, (exists i, (i < N)%nat /\ x i <> 0) -> 0 < qf N (entry C) x.
(** Positive definite matrices have a positive diagonal. *)
Lemma qf_unit N M k : (k < N)%nat -> qf N M (fun i => if Nat.eqb i k then 1 else 0) = M k k.
Proof.
  intros Hk. assert (A : forall (f : nat -> R) n, rsum n (fun i => (if Nat.eqb i k then 1 else 0) * f i) = if Nat.ltb k n then f k else 0).
  { intros f n. induction n as [|n IH]; [reflexivity|]. rewrite sum_S, IH. destruct (Nat.eqb_spec n k) as [->|NE].
    - destruct (Nat.ltb_spec k k); [lia|]. destruct (Nat.ltb_spec k (S k)); [|lia]. ring.
    - destruct (Nat.ltb_spec k n), (Nat.ltb_spec k (S n)); try lia; ring. }
  unfold qf. rewrite (sum_ext_R N _ (fun i => (if Nat.eqb i k then 1 else 0) * M i k)).
  - rewrite A. destruct (Nat.ltb_spec k N); [reflexivity|lia].
  - intros i Hi. rewrite (sum_ext_R N _ (fun j => (if Nat.eqb j k then 1 else 0) * ((if Nat.eqb i k then 1 else 0) * M i j))) by (intros; ring). rewrite A. destruct (Nat.ltb_spec k N); [reflexivity|lia].
Qed.
Lemma positive_diagonal N C k : positive_definite N C -> (k < N)%nat -> 0 < entry C k k.
Proof.
  intros H Hk. specialize (H (fun i => if Nat.eqb i k then 1 else 0)). rewrite qf_unit in H by exact Hk. apply H. exists k. split; [exact Hk|]. rewrite Nat.eqb_refl. lra.
Qed.

(** ** The covariance update *)
Lemma fold_left_lsum {A} (l : list A) (g : A -> R) c : fold_left (fun c a => c + g a) l c = c + lsum l g.
Proof. revert c. induction l as [|a l IH]; intros c; cbn [fold_left lsum fold_right]; [ring|]. rewrite IH. unfold lsum. ring. Qed.
Definition shrink (P : cma_par numR) (hsig : bool) : R :=
  1 - @ccov1 numR P false - @ccovmu numR P false + @ccov1 numR P false * (IZR (if hsig then 0 else 1) * p_ccumcov P * (2 - p_ccumcov P)).
Lemma adapt_entry_R (P : cma_par numR) hsig (sigma : R) (xold pc : list R) (best : list (list R)) i j (c : R) :
  @adapt_entry numR P false hsig sigma xold pc best i j c =
  shrink P hsig * c + @ccov1 numR P false * (rat pc i * rat pc j) +
  lsum (combine (seq 0 (p_mu P)) best) (fun kx => @ccovmu numR P false * rat (p_weights P) (fst kx) / (sigma * sigma) * ((rat (snd kx) i - rat xold i) * (rat (snd kx) j - rat xold j))).
Proof.
  unfold adapt_entry. set (c1 := @ccov1 numR P false). set (cmu := @ccovmu numR P false).
  match goal with |- _ = ?r => change (fold_left (fun (c : R) (kx : nat * list R) => c + cmu * rat (p_weights P) (fst kx) * (rat (snd kx) i - rat xold i) * (rat (snd kx) j - rat xold j) / (sigma * sigma)) (combine (seq 0 (p_mu P)) best)
     ((1 - c1 - cmu) * c + c1 * (rat pc i * rat pc j + IZR (if hsig then 0 else 1) * p_ccumcov P * (2 - p_ccumcov P) * c)) = r :> R) end.
  rewrite fold_left_lsum. f_equal.
  - unfold shrink. fold c1 cmu. ring.
  - induction (combine (seq 0 (p_mu P)) best) as [|kx l IH]; cbn [lsum fold_right]; [reflexivity|]. f_equal; [|exact IH]. unfold Rdiv. ring.
Qed.
Lemma entry_adapt (P : cma_par numR) hsig (sigma : R) (xold pc : list R) (best C : list (list R)) i j : (i < p_N P)%nat -> (j < p_N P)%nat ->
  entry (@adapt_C numR P false hsig sigma xold pc best C) i j =
  shrink P hsig * entry C i j + @ccov1 numR P false * (rat pc i * rat pc j) +
  lsum (combine (seq 0 (p_mu P)) best) (fun kx => @ccovmu numR P false * rat (p_weights P) (fst kx) / (sigma * sigma) * ((rat (snd kx) i - rat xold i) * (rat (snd kx) j - rat xold j))).
Proof.
  intros Hi Hj. unfold entry at 1. set (a := Nat.max i j). set (b := Nat.min i j).
  assert (E : nth b (nth a (@adapt_C numR P false hsig sigma xold pc best C) []) 0 = @adapt_entry numR P false hsig sigma xold pc best a b (entry C i j)).
  { refine (@adapt_C_at numR P hsig sigma xold pc best C a b _ _); unfold a, b; lia. }
  refine (eq_trans E _). rewrite adapt_entry_R.
  assert (SW : (a = i /\ b = j) \/ (a = j /\ b = i)) by (unfold a, b; lia). destruct SW as [[-> ->]|[-> ->]]; [reflexivity|].
  f_equal; [f_equal; f_equal; apply Rmult_comm|]. induction (combine (seq 0 (p_mu P)) best) as [|kx l IH]; cbn [lsum fold_right]; [reflexivity|]. f_equal; [f_equal; apply Rmult_comm|exact IH].
Qed.
Lemma adapt_positive (P : cma_par numR) hsig (sigma : R) (xold pc : list R) (best C : list (list R)) :
  0 < shrink P hsig -> 0 <= @ccov1 numR P false -> 0 <= @ccovmu numR P false -> (forall k, 0 <= rat (p_weights P) k) -> sigma <> 0 ->
  positive_definite (p_N P) C -> positive_definite (p_N P) (@adapt_C numR P false hsig sigma xold pc best C).
Proof.
  intros Hs H1 Hm Hw Hsig HC x Hx. specialize (HC x Hx). rewrite (qf_ext _ _ _ x (fun i j Hi Hj => entry_adapt P hsig sigma xold pc best C i j Hi Hj)).
  rewrite qf_plus, qf_plus, !qf_scal, qf_lsum. set (q := qf (p_N P) (entry C) x) in *.
  assert (A : 0 < shrink P hsig * q) by (apply Rmult_lt_0_compat; assumption).
  assert (B : 0 <= @ccov1 numR P false * qf (p_N P) (fun i j => rat pc i * rat pc j) x) by (apply Rmult_le_pos; [assumption|apply qf_rank1_nonneg]).
  match goal with |- 0 < _ + _ + ?s => assert (D : 0 <= s) end.
  { apply lsum_nonneg. intros kx _. rewrite qf_scal. apply Rmult_le_pos; [|exact (qf_rank1_nonneg _ (fun i => rat (snd kx) i - rat xold i) x)].
    unfold Rdiv. apply Rmult_le_pos; [apply Rmult_le_pos; auto|]. left. apply Rinv_0_lt_compat. nra. }
  lra.
Qed.

(** ** The strategy parameters the constructor computes *)
Definition default_par (cceil : R -> R) (option_lambda : Z) (option_modulo : R) (P : cma_par numR) : Prop :=
  (1 <= p_N P)%nat /\ @supplement_defaults numR cceil trunc (p_N P) option_lambda option_modulo = Ok P.
Lemma default_par_facts cceil ol om P : default_par cceil ol om P ->
  (1 <= p_mu P < p_lambda P)%nat /\ (p_weights P, p_mueff P) = @set_weights numR (p_mu P) /\ 0 < p_ccumcov P <= 1 /\ 0 < p_ccov P < 1 /\
  0 < @ccov1 numR P false /\ 0 <= @ccovmu numR P false /\ @ccov1 numR P false + @ccovmu numR P false = p_ccov P /\ 0 < p_cs P < 1 /\ 0 < p_damps P.
Proof.
  intros [HN H]. destruct (C42_parameters cceil (p_N P) ol om HN) as (P' & E & _ & _ & A1 & _ & _ & _ & A2 & _ & A3 & A4 & A5 & A6 & _ & A7 & A8 & A9 & _).
  assert (P' = P) as -> by (injection (eq_trans (eq_sym E) H); auto). auto 12.
Qed.
Lemma default_weights cceil ol om P : default_par cceil ol om P -> length (p_weights P) = p_mu P /\ (forall k, 0 <= rat (p_weights P) k) /\ fold_right Rplus 0 (p_weights P) = 1.
Proof.
  intros H. apply default_par_facts in H as (H1 & H2 & _). pose proof (C41_weights (p_mu P) ltac:(lia)) as H3. rewrite <- H2 in H3. destruct H3 as (A & B & _ & C & _). split; [exact A|]. split; [|exact C].
  intros k. unfold rat. destruct (nth_error (p_weights P) k) as [x|] eqn:E; [rewrite (nth_error_nth _ _ _ E); left; eapply B; eauto|]. apply nth_error_None in E. right. symmetry. apply nth_overflow. exact E.
Qed.
Lemma shrink_pos cceil ol om P hsig : default_par cceil ol om P -> 0 < shrink P hsig.
Proof.
  intros H. apply default_par_facts in H as (_ & _ & Hc & Ho & H1 & H2 & H3 & _). unfold shrink. change (nT numR) with R in *. set (c1 := @ccov1 numR P false : R) in *. set (cm := @ccovmu numR P false : R) in *. set (cc := p_ccumcov P : R) in *. set (co := p_ccov P : R) in *.
  assert (E : c1 + cm = co) by exact H3. assert (0 <= c1 * (IZR (if hsig then 0 else 1) * cc * (2 - cc))); [|lra].
  apply Rmult_le_pos; [lra|]. apply Rmult_le_pos; [|lra]. apply Rmult_le_pos; [destruct hsig; lra|lra].
Qed.

(** ** C44 *)
(** No assumption is made about the eigendecomposition, the random numbers, the rounding,
    the boundary transformer or pow. *)
Section Healthy.
Variables (G : Type) (gauss : G -> outcome (R * G)) (eigen : list (list R) -> outcome (list R * list (list R))) (cpow : R -> R -> R) (round : R -> R) (bounds : list (R * R)) (transform : list R -> outcome (list R)).
Variables (cceil : R -> R) (ol : Z) (om : R) (P : cma_par numR).
Hypothesis HP : default_par cceil ol om P.
Notation state := (cma_state numR G).
Definition healthy (st : state) : Prop :=
  0 < s_sigma st /\ positive_definite (p_N P) (s_C st) /\ (s_phase st = Sampled -> (1 <= s_gen st)%nat).
Lemma sum_pos_ex n (f : nat -> R) k : (k < n)%nat -> 0 < f k -> (forall i, (i < n)%nat -> 0 <= f i) -> 0 < rsum n f.
Proof.
  induction n as [|n IH]; intros Hk Hp H; [lia|]. rewrite sum_S. destruct (Nat.eq_dec k n) as [->|NE].
  - pose proof (sum_nonneg n f (fun i Hi => H i ltac:(lia))). lra.
  - specialize (IH ltac:(lia) Hp (fun i Hi => H i ltac:(lia))). specialize (H n ltac:(lia)). lra.
Qed.
Lemma qf_diag N (d x : nat -> R) : qf N (fun i j => if Nat.eqb i j then d i else 0) x = rsum N (fun i => x i * x i * d i).
Proof.
  unfold qf. apply sum_ext_R. intros i Hi. assert (A : forall n, rsum n (fun j => x i * (if Nat.eqb i j then d i else 0) * x j) = if Nat.ltb i n then x i * x i * d i else 0).
  { induction n as [|n IH]; [reflexivity|]. rewrite sum_S, IH. destruct (Nat.eqb_spec i n) as [->|NE].
    - destruct (Nat.ltb_spec n n); [lia|]. destruct (Nat.ltb_spec n (S n)); [|lia]. ring.
    - destruct (Nat.ltb_spec i n), (Nat.ltb_spec i (S n)); try lia; ring. }
  rewrite A. destruct (Nat.ltb_spec i N); [reflexivity|lia].
Qed.
Definition init_trace (pars : list (R * R)) : R := rsum (p_N P) (fun i => rat (map snd pars) i * rat (map snd pars) i).
Lemma init_trace_pos (pars : list (R * R)) : length pars = p_N P -> Forall (fun p => 0 < snd p) pars -> 0 < init_trace pars.
Proof using HP.
  intros HL HF. destruct HP as [HN _]. apply sum_pos; [exact HN|]. intros i Hi. rewrite <- HL in Hi. unfold rat.
  assert (0 < nth i (map snd pars) 0); [|apply Rmult_lt_0_compat; assumption]. destruct (nth_error pars i) as [p|] eqn:E; [|apply nth_error_None in E; lia].
  rewrite (nth_error_nth (map snd pars) i 0 (x := snd p)) by (rewrite nth_error_map, E; reflexivity). rewrite Forall_forall in HF. apply HF. eapply nth_error_In; eauto.
Qed.
Lemma entry_init (pars : list (R * R)) g i j : (i < p_N P)%nat -> (j < p_N P)%nat ->
  entry (s_C (@cma_init numR G round P pars g)) i j = if Nat.eqb i j then (rat (map snd pars) i * sqrt (INR (p_N P) / init_trace pars)) * (rat (map snd pars) i * sqrt (INR (p_N P) / init_trace pars)) else 0.
Proof.
  intros Hi Hj. unfold cma_init. cbn [s_C]. unfold entry. set (a := Nat.max i j). set (b := Nat.min i j).
  match goal with |- nth b (nth a (build _ ?F) []) 0 = _ => assert (E : nth b (nth a (build (p_N P) F) []) 0 = @at_ numR (F a) b) by (refine (f_equal (fun r => @at_ numR r b) (@row_build numR (p_N P) F a _)); unfold a; lia) end.
  refine (eq_trans E _). clear E. cbv beta. refine (eq_trans (@at_build numR (S a) _ b ltac:(unfold a, b; lia)) _). cbv beta.
  destruct (Nat.eqb_spec a b) as [Eab|Nab].
  - assert (a = i /\ j = i) as [-> ->] by (unfold a, b in *; lia). rewrite Nat.eqb_refl. rewrite (@at_build numR) by exact Hi. rewrite INR_IZR_INZ. reflexivity.
  - destruct (Nat.eqb_spec i j); [unfold a, b in *; lia|]. reflexivity.
Qed.
Lemma healthy_init (pars : list (R * R)) g : length pars = p_N P -> Forall (fun p => 0 < snd p) pars -> healthy (@cma_init numR G round P pars g).
Proof using HP.
  intros HL HF. pose proof (init_trace_pos pars HL HF) as HT. assert (HN : 0 < INR (p_N P)) by (apply lt_0_INR; destruct HP; lia). split; [|split].
  - cbn [s_sigma cma_init]. change (0 < sqrt (init_trace pars / IZR (Z.of_nat (p_N P)))). rewrite <- INR_IZR_INZ. apply sqrt_lt_R0. apply Rmult_lt_0_compat; [exact HT|apply Rinv_0_lt_compat; exact HN].
  - intros x (k & Hk & Hx). rewrite (qf_ext _ _ _ x (fun i j Hi Hj => entry_init pars g i j Hi Hj)). rewrite (qf_diag (p_N P) (fun i => (rat (map snd pars) i * sqrt (INR (p_N P) / init_trace pars)) * (rat (map snd pars) i * sqrt (INR (p_N P) / init_trace pars)))).
    assert (HD : 0 < sqrt (INR (p_N P) / init_trace pars)) by (apply sqrt_lt_R0; apply Rmult_lt_0_compat; [exact HN|apply Rinv_0_lt_compat; exact HT]).
    apply sum_pos_ex with k; [exact Hk| |intros i _; apply Rmult_le_pos; apply Rle_0_sqr].
    assert (0 < rat (map snd pars) k). { rewrite <- HL in Hk. unfold rat. destruct (nth_error pars k) as [p|] eqn:E; [|apply nth_error_None in E; lia].
      rewrite (nth_error_nth (map snd pars) k 0 (x := snd p)) by (rewrite nth_error_map, E; reflexivity). rewrite Forall_forall in HF. apply HF. eapply nth_error_In; eauto. }
    apply Rmult_lt_0_compat; [nra|]. apply Rmult_lt_0_compat; apply Rmult_lt_0_compat; assumption.
  - discriminate.
Qed.
Lemma update_eigensystem_keeps (st st' : state) : @update_eigensystem numR G eigen P st = Ok st' -> s_sigma st' = s_sigma st /\ s_C st' = s_C st /\ s_mean st' = s_mean st.
Proof.
  unfold update_eigensystem. destruct (s_uptodate st); [intros [= <-]; auto|]. destruct (flgdiag st); [intros [= <-]; auto|]. destruct (nlt _ _); [intros [= <-]; auto|].
  destruct (eigen (s_C st)) as [[d Q]| |]; cbn [obind]; try discriminate. intros [= <-]. auto.
Qed.
Lemma healthy_sample (st st' : state) : healthy st -> @cma_sample numR G gauss eigen round bounds transform P st = Ok st' -> healthy st'.
Proof.
  intros (H1 & H2 & H3) H. apply (@sample_spec numR) in H as (st1 & rows & E & A1 & _ & A3 & _ & _ & _ & _ & A8 & A9 & _). apply update_eigensystem_keeps in E as (B1 & B2 & _).
  unfold healthy. rewrite A1, B1, A3, B2, A8. split; [exact H1|]. split; [exact H2|]. intros _. destruct (s_phase st) eqn:Ep; [| |lia]; destruct (Nat.eqb_spec (s_gen st) 0); lia.
Qed.
Lemma healthy_update (st : state) fits (st' : state) : healthy st -> @cma_update numR G cpow P st fits = Ok st' -> healthy st'.
Proof using HP.
  intros (H1 & H2 & H3) H. pose proof (@update_spec_phase numR G cpow P _ _ _ H) as (Ep & _ & Ep' & _). specialize (H3 Ep).
  unfold cma_update in H. rewrite Ep in H. destruct (negb _) in H; [discriminate|]. injection H as <-. unfold healthy. cbn [s_sigma s_C s_phase].
  assert (ED : flgdiag st = false) by (unfold flgdiag; apply Nat.eqb_neq; lia). rewrite ED.
  match goal with |- context [@adapt_C numR P false ?h ?sg ?xo ?pc ?b ?C] => set (hs := h); set (sg0 := sg); set (pc0 := pc); set (best := b) end.
  assert (HS : 0 < sg0). { unfold sg0. match goal with |- context [if ?c then _ else _] => destruct c end; [|exact H1]. apply Rmult_lt_0_compat; [exact H1|apply exp_pos]. }
  split; [|split; [|discriminate]].
  - apply Rmult_lt_0_compat; [exact HS|apply exp_pos].
  - match goal with |- context [if ?c then _ else _] => destruct c end; [|exact H2]. apply adapt_positive; [exact (shrink_pos _ _ _ _ hs HP)| | |exact (proj1 (proj2 (default_weights _ _ _ _ HP)))| |exact H2].
    + apply default_par_facts in HP as (_ & _ & _ & _ & A & _). left. exact A.
    + apply default_par_facts in HP as (_ & _ & _ & _ & _ & A & _). exact A.
    + lra.
Qed.
Lemma healthy_calls ops : forall (st st' : state) oks, healthy st -> @calls numR G gauss eigen cpow round bounds transform P st ops = Ok (oks, st') -> healthy st'.
Proof using HP.
  induction ops as [|op ops IH]; intros st st' oks HS H; cbn [calls] in H; [injection H as _ <-; exact HS|].
  match type of H with context [match ?m with Ok _ => _ | _ => _ end] => destruct m as [st1|m1|] eqn:E end; [| |discriminate].
  - destruct (@calls numR G gauss eigen cpow round bounds transform P st1 ops) as [[r s]| |] eqn:E2; cbn [obind fst snd] in H; try discriminate. injection H as _ <-. apply (IH st1 s r); [|exact E2].
    destruct op as [|fits]; [exact (healthy_sample _ _ HS E)|exact (healthy_update _ _ _ HS E)].
  - destruct (@calls numR G gauss eigen cpow round bounds transform P st ops) as [[r s]| |] eqn:E2; cbn [obind fst snd] in H; try discriminate. injection H as _ <-. exact (IH st s r HS E2).
Qed.
End Healthy.
(** Whatever calls are made on an optimizer constructed with positive standard
    deviations: the step size is positive, the covariance positive definite and its
    diagonal positive, and current_std() reports a positive number for every parameter. *)
Theorem C44_covariance_positive : forall (G : Type) gauss eigen cpow round bounds transform cceil option_lambda option_modulo (P : cma_par numR) (pars : list (R * R)) (g : G) ops oks st,
  default_par cceil option_lambda option_modulo P -> length pars = p_N P -> Forall (fun p => 0 < snd p) pars ->
  @calls numR G gauss eigen cpow round bounds transform P (@cma_init numR G round P pars g) ops = Ok (oks, st) ->
  0 < s_sigma st /\ positive_definite (p_N P) (s_C st) /\ (forall i, (i < p_N P)%nat -> 0 < entry (s_C st) i i) /\
  length (current_std P st) = p_N P /\ Forall (fun x => 0 < x) (current_std P st).
Proof.
  intros G gauss eigen cpow round bounds transform cceil ol om P pars g ops oks st HP HL HF H.
  apply (healthy_calls G gauss eigen cpow round bounds transform cceil ol om P HP) in H as (H1 & H2 & _); [|apply (healthy_init G round cceil ol om P HP pars g HL HF)].
  assert (H3 : forall i, (i < p_N P)%nat -> 0 < entry (s_C st) i i) by (intros i Hi; eapply positive_diagonal; eauto).
  split; [exact H1|]. split; [exact H2|]. split; [exact H3|]. unfold current_std. rewrite build_length. split; [reflexivity|]. apply Forall_build. intros i Hi. apply Rmult_lt_0_compat; [exact H1|]. apply sqrt_lt_R0.
  specialize (H3 i Hi). unfold entry in H3. rewrite Nat.max_id, Nat.min_id in H3. exact H3.
Qed.
(** A new optimizer reports exactly the standard deviations it was given. *)
Theorem C44_initial_std : forall (G : Type) round cceil option_lambda option_modulo (P : cma_par numR) (pars : list (R * R)) (g : G),
  default_par cceil option_lambda option_modulo P -> length pars = p_N P -> Forall (fun p => 0 < snd p) pars ->
  current_std P (@cma_init numR G round P pars g) = map snd pars.
Proof.
  intros G round cceil ol om P pars g HP HL HF. pose proof (init_trace_pos cceil ol om P HP pars HL HF) as HT. assert (HN : 0 < INR (p_N P)) by (apply lt_0_INR; destruct HP; lia).
  apply nth_error_ext'; [unfold current_std; rewrite build_length, map_length; auto|]. intros i Hi. unfold current_std in Hi. rewrite build_length in Hi.
  unfold current_std. rewrite nth_error_build by exact Hi.
  assert (E : exists p, nth_error pars i = Some p /\ rat (map snd pars) i = snd p).
  { destruct (nth_error pars i) as [p|] eqn:E; [|apply nth_error_None in E; lia]. exists p. split; [reflexivity|]. unfold rat. apply nth_error_nth. rewrite nth_error_map, E. reflexivity. }
  destruct E as (p & E1 & E2). rewrite nth_error_map, E1. cbn [option_map]. f_equal.
  assert (Hp : 0 < snd p) by (rewrite Forall_forall in HF; apply HF; eapply nth_error_In; eauto).
  pose proof (entry_init G round P pars g i i Hi Hi) as EI. rewrite Nat.eqb_refl, E2 in EI. unfold entry in EI. rewrite Nat.max_id, Nat.min_id in EI.
  refine (eq_trans (f_equal (fun y : R => sqrt (init_trace P pars / IZR (Z.of_nat (p_N P))) * sqrt y) EI) _).
  cbv beta. rewrite <- INR_IZR_INZ. set (t := init_trace P pars) in *. set (n := INR (p_N P)) in *. rewrite sqrt_square by (apply Rmult_le_pos; [lra|apply sqrt_pos]).
  replace (sqrt (t / n) * (snd p * sqrt (n / t))) with (snd p * (sqrt (t / n) * sqrt (n / t))) by ring. rewrite <- sqrt_mult_alt by (left; apply Rmult_lt_0_compat; [lra|apply Rinv_0_lt_compat; lra]).
  replace (t / n * (n / t)) with 1 by (field; lra). rewrite sqrt_1. ring.
Qed.
(** With an exact eigendecomposition every search axis keeps a positive length, so the
    update never divides by zero. *)
Definition exact_eigen (N : nat) (eigen : list (list R) -> outcome (list R * list (list R))) : Prop := forall C d Q, eigen C = Ok (d, Q) ->
  length d = N /\ forall k, (k < N)%nat -> (exists i, (i < N)%nat /\ rat (nth i Q []) k <> 0) /\ forall i, (i < N)%nat -> rsum N (fun j => entry C i j * rat (nth j Q []) k) = rat d k * rat (nth i Q []) k.
Lemma exact_eigen_positive N C (d : list R) Q : (forall k, (k < N)%nat -> (exists i, (i < N)%nat /\ rat (nth i Q []) k <> 0) /\ forall i, (i < N)%nat -> rsum N (fun j => entry C i j * rat (nth j Q []) k) = rat d k * rat (nth i Q []) k) ->
  positive_definite N C -> forall k, (k < N)%nat -> 0 < rat d k.
Proof.
  intros H HC k Hk. destruct (H k Hk) as [(i & Hi & Hq) He]. specialize (HC (fun i => rat (nth i Q []) k) (ex_intro _ i (conj Hi Hq))).
  assert (E : qf N (entry C) (fun i => rat (nth i Q []) k) = rat d k * rsum N (fun i => rat (nth i Q []) k * rat (nth i Q []) k)).
  { unfold qf. rewrite <- sum_scal. apply sum_ext_R. intros a Ha. rewrite (sum_ext_R N _ (fun j => rat (nth a Q []) k * (entry C a j * rat (nth j Q []) k))) by (intros; ring). rewrite sum_scal, He by exact Ha. ring. }
  rewrite E in HC. assert (HQ : 0 < rsum N (fun i => rat (nth i Q []) k * rat (nth i Q []) k)) by (apply sum_pos_ex with i; [exact Hi|nra|intros; apply Rle_0_sqr]).
  nra.
Qed.
Theorem C44_axes_positive : forall (G : Type) gauss eigen cpow round bounds transform cceil option_lambda option_modulo (P : cma_par numR) (pars : list (R * R)) (g : G) ops oks st,
  default_par cceil option_lambda option_modulo P -> length pars = p_N P -> Forall (fun p => 0 < snd p) pars -> exact_eigen (p_N P) eigen ->
  @calls numR G gauss eigen cpow round bounds transform P (@cma_init numR G round P pars g) ops = Ok (oks, st) ->
  length (s_D st) = p_N P /\ Forall (fun x => 0 < x) (s_D st).
Proof.
  intros G gauss eigen cpow round bounds transform cceil ol om P pars g ops oks st HP HL HF HE H.
  set (ok := fun st : cma_state numR G => healthy G P st /\ length (s_D st) = p_N P /\ Forall (fun x : R => 0 < x) (s_D st)).
  assert (EV : forall st0 st1 : cma_state numR G, ok st0 -> @update_eigensystem numR G eigen P st0 = Ok st1 -> length (s_D st1) = p_N P /\ Forall (fun x : R => 0 < x) (s_D st1)).
  { intros st0 st1 ((_ & HC & _) & HD) E. unfold update_eigensystem in E. destruct (s_uptodate st0); [injection E as <-; exact HD|]. destruct (flgdiag st0).
    - injection E as <-. cbn [with_eigen s_D]. rewrite build_length. split; [reflexivity|]. apply Forall_build. intros i Hi. apply sqrt_lt_R0. pose proof (positive_diagonal _ _ i HC Hi) as HH. unfold entry in HH. rewrite Nat.max_id, Nat.min_id in HH. exact HH.
    - destruct (nlt _ _); [injection E as <-; exact HD|]. destruct (eigen (s_C st0)) as [[d Q]| |] eqn:EE; cbn [obind] in E; try discriminate. injection E as <-. cbn [with_eigen s_D]. destruct (HE _ _ _ EE) as [Ld Hd]. rewrite map_length. split; [exact Ld|].
      apply Forall_forall. intros x Hx. apply in_map_iff in Hx as (y & <- & Hy). apply In_nth_error in Hy as (k & Hk). assert (Hkn : (k < p_N P)%nat) by (rewrite <- Ld; apply nth_error_Some; congruence).
      pose proof (exact_eigen_positive _ _ _ _ Hd HC k Hkn) as HH. unfold rat in HH. rewrite (nth_error_nth _ _ _ Hk) in HH. apply sqrt_lt_R0. exact HH. }
  assert (ALL : forall ops (st0 st1 : cma_state numR G) oks, ok st0 -> @calls numR G gauss eigen cpow round bounds transform P st0 ops = Ok (oks, st1) -> ok st1).
  { clear ops oks st H. induction ops as [|op ops IH]; intros st0 st1 oks HS H; cbn [calls] in H; [injection H as _ <-; exact HS|].
    match type of H with context [match ?m with Ok _ => _ | _ => _ end] => destruct m as [st2|m1|] eqn:E end; [| |discriminate].
    - destruct (@calls numR G gauss eigen cpow round bounds transform P st2 ops) as [[r s]| |] eqn:E2; cbn [obind fst snd] in H; try discriminate. injection H as _ <-. apply (IH st2 s r); [|exact E2].
      destruct op as [|fits].
      + split; [exact (healthy_sample G gauss eigen round bounds transform P _ _ (proj1 HS) E)|]. apply (@sample_spec numR) in E as (st' & rows & E & _ & _ & _ & _ & A5 & _). rewrite A5. exact (EV _ _ HS E).
      + split; [exact (healthy_update G cpow cceil ol om P HP _ _ _ (proj1 HS) E)|]. apply (@update_spec_phase numR) in E as (_ & _ & _ & _ & _ & _ & _ & A & _). rewrite A. exact (proj2 HS).
    - destruct (@calls numR G gauss eigen cpow round bounds transform P st0 ops) as [[r s]| |] eqn:E2; cbn [obind fst snd] in H; try discriminate. injection H as _ <-. exact (IH st0 s r HS E2). }
  assert (H0 : ok (@cma_init numR G round P pars g)).
  { split; [exact (healthy_init G round cceil ol om P HP pars g HL HF)|]. cbn [cma_init s_D]. rewrite build_length. split; [reflexivity|]. apply Forall_build. intros i Hi.
    apply Rmult_lt_0_compat.
    - rewrite <- HL in Hi. destruct (nth_error pars i) as [p|] eqn:E; [|apply nth_error_None in E; lia]. unfold at_. rewrite (nth_error_nth (map snd pars) i _ (x := snd p)) by (rewrite nth_error_map, E; reflexivity). rewrite Forall_forall in HF. apply HF. eapply nth_error_In; eauto.
    - apply sqrt_lt_R0. change (0 < IZR (Z.of_nat (p_N P)) / init_trace P pars). rewrite <- INR_IZR_INZ. apply Rmult_lt_0_compat; [apply lt_0_INR; destruct HP; lia|apply Rinv_0_lt_compat; exact (init_trace_pos cceil ol om P HP pars HL HF)]. }
  exact (proj2 (ALL ops _ _ _ H0 H)).
Qed.
(** A parameter with standard deviation 0 is frozen from the start: it has no variance. *)
Theorem C44_zero_std_refuted : ~ (forall (P : cma_par numR) pars (g : unit), default_par (fun x => x) 4 0 P -> length pars = p_N P -> Forall (fun p => 0 <= snd p) pars ->
  Exists (fun p => 0 < snd p) pars -> Forall (fun x => 0 < x) (current_std P (@cma_init numR unit (fun x => x) P pars g))).
Proof.
  intros H. destruct (C42_parameters (fun x => x) 2 4 0 ltac:(lia)) as (P & E & EN & _). specialize (H P [(0, 1); (0, 0)] tt).
  assert (HH : Forall (fun x => 0 < x) (current_std P (@cma_init numR unit (fun x => x) P [(0, 1); (0, 0)] tt))).
  { apply H; [|rewrite EN; reflexivity|repeat constructor; cbn; lra|left; cbn; lra]. split; [lia|rewrite EN; exact E]. }
  pose proof (entry_init unit (fun x => x) P [(0, 1); (0, 0)] tt 1 1 ltac:(lia) ltac:(lia)) as EI. cbn [Nat.eqb map snd rat nth] in EI. unfold entry in EI. cbn [Nat.max Nat.min] in EI.
  unfold current_std in HH. rewrite EN in HH. cbn [build seq map] in HH. inversion HH as [|? ? _ H2]; subst. inversion H2 as [|? ? H3 _]; subst. clear HH H2.
  match type of H3 with 0 < ?a => change (0 < s_sigma (@cma_init numR unit (fun x => x) P [(0, 1); (0, 0)] tt) * sqrt (nth 1 (nth 1 (s_C (@cma_init numR unit (fun x => x) P [(0, 1); (0, 0)] tt)) []) 0)) in H3 end.
  apply (fun h => Rlt_le_trans _ _ _ h (Req_le _ _ (f_equal (fun y : R => s_sigma (@cma_init numR unit (fun x => x) P [(0, 1); (0, 0)] tt) * sqrt y) EI))) in H3. cbv beta in H3. rewrite !Rmult_0_l, sqrt_0, Rmult_0_r in H3. lra.
Qed.

(** ** C46 *)
Definition within (bounds : list (R * R)) (x : list R) : Prop := Forall2 (fun b v => fst b <= v <= snd b) bounds x.
Lemma feasible_within (bounds : list (R * R)) : forall v, length v = length bounds -> @feasible numR bounds v = true -> within bounds v.
Proof.
  induction bounds as [|b bs IH]; intros [|x v] HL H; try discriminate; [constructor|]. cbn [feasible] in H. change (@nlt numR) with Rlt_bool in H. change (nT numR) with R in *.
  destruct (Rlt_bool_spec (snd b) x), (Rlt_bool_spec x (fst b)); cbn [orb] in H; try discriminate H. constructor; [split; assumption|]. apply IH; [cbn in HL; lia|exact H].
Qed.
Lemma clamp_within (bounds : list (R * R)) : Forall (fun b => fst b <= snd b) bounds -> forall v, length v = length bounds -> within bounds (@clamp_all numR bounds v).
Proof.
  induction 1 as [|b bs Hb F IH]; intros [|x v] HL; try discriminate; [constructor|]. cbn [clamp_all]. constructor; [|apply IH; exact (eq_add_S _ _ HL)].
  change (@nlt numR) with Rlt_bool. change (@nle numR) with Rle_bool. change (nT numR) with R in *. destruct (Rle_bool_spec (fst b) x), (Rle_bool_spec x (snd b)); cbn [andb negb];
  destruct (Rlt_bool_spec (snd b) x), (Rlt_bool_spec x (fst b)); lra.
Qed.
Lemma lsum_seq n (f : nat -> R) : lsum (seq 0 n) f = rsum n f.
Proof. symmetry. refine (eq_trans (fold_left_lsum (seq 0 n) f 0) _). ring. Qed.
Lemma lsum_combine {A B} (l : list A) (m : list B) (f : A -> R) : length l = length m -> lsum (combine l m) (fun kx => f (fst kx)) = lsum l f.
Proof. revert m. induction l as [|a l IH]; intros [|b m] H; try discriminate; [reflexivity|]. cbn [combine lsum fold_right fst]. f_equal. apply IH. cbn in H. lia. Qed.
Lemma lsum_scal {A} (l : list A) (f : A -> R) c : lsum l (fun a => f a * c) = lsum l f * c.
Proof. induction l as [|a l IH]; cbn [lsum fold_right]; [ring|]. unfold lsum in IH. rewrite IH. ring. Qed.
Lemma lsum_le {A} (l : list A) (f g : A -> R) : (forall a, In a l -> f a <= g a) -> lsum l f <= lsum l g.
Proof. induction l as [|a l IH]; cbn [lsum fold_right]; intros H; [lra|]. pose proof (H a (or_introl eq_refl)). specialize (IH (fun b Hb => H b (or_intror Hb))). unfold lsum in IH. lra. Qed.
(** A weighted mean of points within the bounds is within the bounds. *)
Lemma weighted_within (w : list R) (best : list (list R)) (bounds : list (R * R)) i b : length w = length best -> (forall k, 0 <= rat w k) -> fold_right Rplus 0 w = 1 ->
  Forall (within bounds) best -> nth_error bounds i = Some b ->
  fst b <= fold_left (fun s kx => s + rat w (fst kx) * rat (snd kx) i) (combine (seq 0 (length w)) best) 0 <= snd b.
Proof.
  intros HL Hw H1 HB Hb. rewrite (fold_left_lsum (combine (seq 0 (length w)) best) (fun kx => rat w (fst kx) * rat (snd kx) i) 0).
  assert (EW : lsum (combine (seq 0 (length w)) best) (fun kx => rat w (fst kx)) = 1).
  { rewrite lsum_combine by (rewrite seq_length; exact HL). rewrite lsum_seq. exact (eq_trans (sum_as_fold (length w) w eq_refl) H1). }
  assert (IN : forall kx, In kx (combine (seq 0 (length w)) best) -> fst b <= rat (snd kx) i <= snd b).
  { intros [k x] Hin. apply in_combine_r in Hin. rewrite Forall_forall in HB. specialize (HB x Hin). cbn [snd]. clear - HB Hb. revert i Hb. induction HB as [|b' v bs vs Hv F IH]; intros [|i] Hb; try discriminate; cbn in Hb |-*; [injection Hb as <-; exact Hv|]. apply IH. exact Hb. }
  split.
  - rewrite Rplus_0_l. replace (fst b) with (lsum (combine (seq 0 (length w)) best) (fun kx => rat w (fst kx)) * fst b) by (rewrite EW; ring). rewrite <- lsum_scal. apply lsum_le. intros kx Hk. specialize (IN kx Hk). apply Rmult_le_compat_l; [apply Hw|apply IN].
  - rewrite Rplus_0_l. replace (snd b) with (lsum (combine (seq 0 (length w)) best) (fun kx => rat w (fst kx)) * snd b) by (rewrite EW; ring). rewrite <- lsum_scal. apply lsum_le. intros kx Hk. specialize (IN kx Hk). apply Rmult_le_compat_l; [apply Hw|apply IN].
Qed.
Section Mean.
Variables (G : Type) (gauss : G -> outcome (R * G)) (eigen : list (list R) -> outcome (list R * list (list R))) (cpow : R -> R -> R) (round : R -> R) (bounds : list (R * R)).
Variables (cceil : R -> R) (ol : Z) (om : R) (P : cma_par numR).
Hypothesis HP : default_par cceil ol om P.
Hypothesis HBL : length bounds = p_N P.
Hypothesis HB : Forall (fun b => fst b <= snd b) bounds.
Notation state := (cma_state numR G).
Notation keep := (fun v : list R => Ok v).
(** The mean started at [m0]; the rows waiting for results are within the bounds. *)
Definition inside (m0 : list R) (updates : nat) (st : state) : Prop :=
  (updates = 0%nat /\ s_mean st = m0 \/ within bounds (s_mean st)) /\
  (s_phase st = Sampled -> length (s_rows st) = p_lambda P /\ Forall (within bounds) (s_rows st)).
Lemma inside_sample m0 n (st st' : state) : inside m0 n st -> @cma_sample numR G gauss eigen round bounds keep P st = Ok st' -> inside m0 n st'.
Proof using HBL HB.
  intros [H1 H2] H. apply (@sample_rows numR) in H as (A1 & _ & _ & A2 & L & F).
  assert (EM : (s_mean st' : list R) = s_mean st) by exact A1. unfold inside. rewrite EM. split; [exact H1|]. intros _. split; [exact L|]. eapply Forall_impl; [|exact F].
  cbv beta. intros r (Hr & ind & (v & _ & Hv) & _). destruct Hv as [[Hf He]|(r0 & -> & -> & Hr0)].
  - assert (r = v) by (injection He; auto). subst v. apply feasible_within; [exact (eq_trans Hr (eq_sym HBL))|exact Hf].
  - apply clamp_within; [exact HB|exact (eq_trans Hr0 (eq_sym HBL))].
Qed.
Lemma inside_update m0 n (st : state) fits (st' : state) : inside m0 n st -> @cma_update numR G cpow P st fits = Ok st' -> inside m0 (S n) st'.
Proof using HP HBL.
  intros [_ H2] H. apply (@update_mean numR G cpow P) in H as (Ep & Ep' & best & EB & EM). destruct (H2 Ep) as [HL HF]. split; [|intros E; congruence]. right.
  destruct (@best_rows numR (s_rows st) fits (p_lambda P) (p_mu P) (within bounds) HL) as [BL BF]; [apply default_par_facts in HP as (A & _); lia|exact HF|]. rewrite <- EB in BL, BF. clear EB.
  destruct (default_weights _ _ _ _ HP) as (WL & WP & WS).
  assert (EM' : (s_mean st' : list R) = build (p_N P) (fun i => fold_left (fun (s : R) (kx : nat * list R) => s + rat (p_weights P) (fst kx) * rat (snd kx) i) (combine (seq 0 (p_mu P)) best) 0)) by exact EM.
  rewrite EM'. clear EM EM'. set (F := fun i => fold_left (fun (s : R) (kx : nat * list R) => s + rat (p_weights P) (fst kx) * rat (snd kx) i) (combine (seq 0 (p_mu P)) best) 0).
  assert (HFi : forall i b, nth_error bounds i = Some b -> fst b <= F i <= snd b).
  { intros i b Hb. unfold F. rewrite <- WL. apply (weighted_within (p_weights P) best bounds i b); auto. exact (eq_trans WL (eq_sym BL)). }
  unfold within, build. rewrite <- HBL. clearbody F. clear - HFi. change (fun b v => fst b <= v <= snd b) with (fun (b : R * R) v => fst b <= v <= snd b).
  assert (A : forall bs s, (forall i b, nth_error bs i = Some b -> fst b <= F (s + i)%nat <= snd b) -> Forall2 (fun (b : R * R) v => fst b <= v <= snd b) bs (map F (seq s (length bs)))).
  { induction bs as [|b bs IH]; intros s H; cbn [length seq map]; [constructor|]. constructor.
    - specialize (H 0%nat b eq_refl). rewrite Nat.add_0_r in H. exact H.
    - apply IH. intros i b' Hb'. specialize (H (S i) b' Hb'). rewrite Nat.add_succ_r in H. exact H. }
  apply A. exact HFi.
Qed.
(** The number of successful updates in a history. *)
Fixpoint updates_done (ops : list (cma_op numR)) (oks : list bool) : nat :=
  match ops, oks with Op_update _ :: t, true :: s => S (updates_done t s) | _ :: t, _ :: s => updates_done t s | _, _ => 0%nat end.
Lemma inside_calls m0 ops : forall n (st st' : state) oks, inside m0 n st -> @calls numR G gauss eigen cpow round bounds keep P st ops = Ok (oks, st') -> inside m0 (n + updates_done ops oks)%nat st'.
Proof using HP HBL HB.
  induction ops as [|op ops IH]; intros n st st' oks HS H; cbn [calls] in H; [injection H as <- <-; rewrite Nat.add_0_r; exact HS|].
  match type of H with context [match ?m with Ok _ => _ | _ => _ end] => destruct m as [st1|m1|] eqn:E end; [| |discriminate].
  - destruct (@calls numR G gauss eigen cpow round bounds keep P st1 ops) as [[r s]| |] eqn:E2; cbn [obind fst snd] in H; try discriminate. injection H as <- <-.
    destruct op as [|fits]; cbn [updates_done].
    + exact (IH n st1 s r (inside_sample _ _ _ _ HS E) E2).
    + rewrite Nat.add_succ_r. exact (IH (S n) st1 s r (inside_update _ _ _ _ _ HS E) E2).
  - destruct (@calls numR G gauss eigen cpow round bounds keep P st ops) as [[r s]| |] eqn:E2; cbn [obind fst snd] in H; try discriminate. injection H as <- <-.
    pose proof (IH n st s r HS E2) as HI. destruct op; exact HI.
Qed.
End Mean.
(** Without a boundary transformer and with well-formed bounds: the mean is the initial
    one until the first update, and within the bounds ever after; current_mean()
    returns it, and every row that is ranked lies within the bounds as well. *)
Theorem C46_mean_within_bounds : forall (G : Type) gauss eigen cpow round (bounds : list (R * R)) cceil option_lambda option_modulo (P : cma_par numR) (pars : list (R * R)) (g : G) ops oks st,
  default_par cceil option_lambda option_modulo P -> length bounds = p_N P -> Forall (fun b => fst b <= snd b) bounds ->
  @calls numR G gauss eigen cpow round bounds (fun v => Ok v) P (@cma_init numR G round P pars g) ops = Ok (oks, st) ->
  (if Nat.eqb (updates_done ops oks) 0 then s_mean st = map fst pars \/ within bounds (s_mean st) else within bounds (s_mean st)) /\
  (within bounds (map fst pars) -> within bounds (s_mean st)) /\
  @current_mean numR G (fun v => Ok v) st = Ok (s_mean st).
Proof.
  intros G gauss eigen cpow round bounds cceil ol om P pars g ops oks st HP HBL HB H.
  pose proof (inside_calls G gauss eigen cpow round bounds cceil ol om P HP HBL HB (map fst pars) ops 0 (@cma_init numR G round P pars g) st oks) as HI.
  destruct HI as [HI _]; [|exact H|].
  - split; [left; split; reflexivity|discriminate].
  - cbn [Nat.add] in HI. split; [|split; [|reflexivity]].
    + destruct (Nat.eqb_spec (updates_done ops oks) 0) as [E|NE]; destruct HI as [[A B]|C]; auto. contradiction.
    + intros HM. destruct HI as [[_ B]|C]; [|exact C]. rewrite <- B in HM. exact HM.
Qed.
(** The hypotheses of C44 and C46 are met by runs of any length: one parameter, four
    samples, the exact eigendecomposition of a 1x1 matrix. *)
Definition eigen1 (C : list (list R)) : outcome (list R * list (list R)) := Ok ([entry C 0 0], [[1]]).
Example C44_C46_nonvacuous : forall n, exists P st, default_par (fun x => x) 4 0 P /\ p_N P = 1%nat /\ exact_eigen 1 eigen1 /\
  @calls numR R (fun g => Ok (g, g + 1)) eigen1 (fun _ _ => 0) (fun x => x) [(-5, 5)] (fun v => Ok v) P (@cma_init numR R (fun x => x) P [(0, 2)] 1)
    (@alternate numR (repeat [4; 3; 2; 1] n)) = Ok (repeat true (2 * n), st).
Proof.
  intros n. destruct (C42_parameters (fun x => x) 1 4 0 ltac:(lia)) as (P & E & EN & EL). exists P. destruct EL as (_ & _ & _ & EL & _). specialize (EL ltac:(lia)).
  assert (HL : p_lambda P = 4%nat) by lia.
  pose proof (C45_protocol numR R (fun g => Ok (g, g + 1)) eigen1 (fun _ _ => 0) (fun x => x) [(-5, 5)] (fun v => Ok v) P [(0, 2)] 1 (@alternate numR (repeat [4; 3; 2; 1] n))) as H.
  rewrite (C45_alternating_never_throws numR (repeat [4; 3; 2; 1] n) (p_lambda P)) in H.
  2:{ apply Forall_forall. intros x Hx. apply repeat_spec in Hx as ->. rewrite HL. reflexivity. }
  destruct H as (st & H & _).
  - rewrite EN. lia.
  - rewrite EN. reflexivity.
  - eauto.
  - intros. unfold eigen1. eauto.
  - intros C d Q _ [= <- <-]. rewrite EN. split; [reflexivity|]. split; [rewrite EN; reflexivity|]. rewrite EN. repeat constructor.
  - eauto.
  - intros v w Hv [= <-]. exact Hv.
  - exists st. split; [split; [lia|rewrite EN; exact E]|]. split; [exact EN|]. split.
    + intros C d Q [= <- <-]. split; [reflexivity|]. intros k Hk. assert (k = 0%nat) as -> by lia. split; [exists 0%nat; split; [lia|cbn; lra]|]. intros i Hi. assert (i = 0%nat) as -> by lia. unfold rsum, sum_. cbn. lra.
    + rewrite repeat_length in H. exact H.
Qed.
