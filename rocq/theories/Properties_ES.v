(** * MES and EVA: C47 (exact arithmetic), C48 (snapshots). *)
From Coq Require Import ZArith Bool Lia Reals Lra Permutation.
From Flocq Require Import Core.
From Verif Require Import Prelude Num MathTools Mes MesFacts.
#[local] Open Scope R_scope.

(** ** Runs over the reals *)
(** Any normal distribution, any engine, any rounding; [order] is any list of indices. *)
Section Runs.
Context {rng dist : Type} (nd_new : dist) (nd_draw : R -> R -> dist -> rng -> R * dist * rng) (round : R -> R) (eps : R).
Context (bounds : list (R * R)) (lambda : nat) (mu : Z) (offset offset_stdev : R) (component : comp numR -> R -> R -> comp numR).
Context (pars : list (R * R)) (g : rng).
(** The states of an optimizer: after construction, sampling and updating in any order. *)
Inductive es_reach : es_state numR rng -> Prop :=
| esr_init : es_reach (@es_init numR rng round lambda pars g)
| esr_sample st st' : es_reach st -> @es_sample numR rng dist nd_new nd_draw round bounds lambda offset offset_stdev st = Ok st' -> es_reach st'
| esr_update st st' order : es_reach st -> @es_update numR rng eps bounds mu component st order = Ok st' -> es_reach st'.

Definition within (b : R * R) (x : R) : Prop := fst b <= x <= snd b.

(** *** Averages *)
Lemma sum_within lo hi (l : list (R * R)) : Forall (fun xy => lo <= fst xy <= hi) l -> forall s,
  s + INR (length l) * lo <= fold_left (fun s xy => s + fst xy) l s <= s + INR (length l) * hi.
Proof using.
  induction 1 as [|xy l H _ IH]; intros s; cbn [fold_left length]; [cbn; lra|]. specialize (IH (s + fst xy)). rewrite S_INR. lra.
Qed.
Lemma mean_within lo hi (l : list (R * R)) : (0 < mu)%Z -> length l = Z.to_nat mu -> Forall (fun xy => lo <= fst xy <= hi) l -> lo <= @mean_of numR mu l <= hi.
Proof using.
  intros Hmu HL F. unfold mean_of. change (@ndiv numR) with Rdiv. change (@nadd numR) with Rplus. change (@nofZ numR) with IZR.
  pose proof (sum_within lo hi l F 0) as H. rewrite HL in H. rewrite INR_IZR_INZ, Z2Nat.id in H by lia.
  assert (0 < IZR mu) by now apply IZR_lt. match goal with |- _ <= ?x / _ <= _ => set (s := x) end. change (0 + IZR mu * lo <= s <= 0 + IZR mu * hi) in H. split.
  - apply Rmult_le_reg_r with (IZR mu); [lra|]. unfold Rdiv. rewrite Rmult_assoc, Rinv_l by lra. lra.
  - apply Rmult_le_reg_r with (IZR mu); [lra|]. unfold Rdiv. rewrite Rmult_assoc, Rinv_l by lra. lra.
Qed.
Lemma var_nonneg (l : list (R * R)) : (0 < mu)%Z -> 0 <= @var_of numR mu l.
Proof using.
  intros Hmu. unfold var_of. change (@ndiv numR) with Rdiv. change (@nofZ numR) with IZR. apply Rmult_le_pos; [|left; apply Rinv_0_lt_compat, IZR_lt; lia].
  assert (H : forall s, 0 <= s -> 0 <= fold_left (fun (s : numR) xy => nadd s (@sq numR (nsub (fst xy) (snd xy)))) l s); [|apply H; lra].
  induction l as [|xy l IH]; intros s Hs; cbn [fold_left]; [exact Hs|]. apply IH. apply Rplus_le_le_0_compat; [exact Hs|]. exact (Rle_0_sqr (fst xy - snd xy)).
Qed.

Hypothesis pars_dim : length pars = length bounds.
(** *** State vectors keep the dimension of the problem *)
Lemma reach_dims st : es_reach st -> @dims numR rng bounds st /\ length (es_pop st) = lambda /\ Forall (fun p : list R => length p = length bounds) (es_pop st).
Proof using pars_dim.
  induction 1 as [|st st' _ (D & L & F) H|st st' order _ (D & L & F) H].
  - unfold dims, es_init. cbn. rewrite !map_length, repeat_length. split; [auto|]. split; [auto|]. apply Forall_forall. intros p Hp. apply repeat_spec in Hp as ->. rewrite map_length. exact pars_dim.
  - apply es_sample_spec in H as (E1 & E2 & E3 & L' & F'). split; [|split; [exact L'|]].
    + unfold dims in *. rewrite E1, E2, E3. exact D.
    + eapply Forall_impl; [|exact F']. intros p (y & -> & Hy). rewrite map_length. clear - Hy. induction Hy as [|? ? ? ? ? ? IH]; cbn; [reflexivity|exact (f_equal S IH)].
  - pose proof H as H'. apply es_update_dims in H. apply es_update_components in H' as (proj & _ & _ & E & _). rewrite E. auto.
Qed.

(** *** Variances stay non-negative *)
Definition keeps_variance : Prop := forall (c : comp numR) (mean var : R), 0 <= k_var c -> 0 <= var -> 0 <= k_var (component c mean var).
Hypothesis mu_pos : (0 < mu)%Z.
Lemma reach_variance st : keeps_variance -> es_reach st -> Forall (fun v : R => 0 <= v) (es_var st).
Proof using pars_dim mu_pos.
  intros HK. induction 1 as [|st st' _ IH H|st st' order _ IH H].
  - cbn. apply Forall_forall. intros v Hv. apply in_map_iff in Hv as (p & <- & _). exact (Rle_0_sqr (snd p)).
  - apply es_sample_spec in H as (_ & -> & _). exact IH.
  - pose proof (es_update_dims _ _ _ _ _ _ _ H) as (_ & D & _). apply es_update_components in H as (proj & _ & _ & _ & H).
    apply Forall_forall. intros v Hv. apply In_nth_error in Hv as (i & Hi). assert (Hlt : (i < length bounds)%nat) by (apply (eq_ind _ (fun k => (i < k)%nat)) with (2 := D); apply nth_error_Some; intros HN; discriminate (eq_trans (eq_sym Hi) HN)).
    destruct (H i Hlt) as (sel & m & v0 & mo & _ & _ & Ev & _ & _ & Hv' & _). injection (eq_trans (eq_sym Hi) Hv') as ->. apply HK; [|apply var_nonneg, mu_pos].
    cbn. rewrite Forall_forall in IH. apply IH. eapply nth_error_In; eauto.
Qed.

(** *** The mean stays within the bounds *)
Definition keeps_range : Prop := forall (c : comp numR) (mean var lo hi : R), lo <= k_mean c <= hi -> lo <= mean <= hi -> lo <= k_mean (component c mean var) <= hi.
Hypothesis bounds_ordered : Forall (fun b => fst b <= snd b) bounds.
Hypothesis round_within : Forall (fun b => forall x, within b x -> within b (round x)) bounds.
Hypothesis pars_within : Forall2 (fun b p => within b (fst p)) bounds pars.

Lemma sampled_within lo hi x : lo <= hi -> @sampled_value numR rng dist nd_draw lo hi x -> lo <= x <= hi.
Proof using.
  intros Hb (mean & sd & d & g0 & H). revert x H.
  assert (A : forall x v : R, (x = v /\ Rle_bool lo v = true /\ Rle_bool v hi = true) \/ x = @clamped numR v lo hi -> lo <= x <= hi); [|intros x; apply A].
  intros x v [(-> & H1 & H2)| ->].
  - destruct (Rle_bool_spec lo v); [|discriminate]. destruct (Rle_bool_spec v hi); [|discriminate]. lra.
  - unfold clamped. change (@nlt numR) with Rlt_bool. destruct (Rlt_bool_spec hi v); [lra|]. destruct (Rlt_bool_spec v lo); lra.
Qed.
Lemma reach_pop st : es_reach st -> Forall (fun p : list R => Forall2 within bounds p) (es_pop st).
Proof using bounds_ordered round_within pars_within.
  induction 1 as [|st st' _ IH H|st st' order _ IH H].
  - cbn. apply Forall_forall. intros p Hp. apply repeat_spec in Hp as ->. clear - pars_within round_within.
    revert pars_within round_within. intros PW. induction PW as [|b p bs ps Hp _ IH]; intros RW; cbn [map]; constructor; inversion RW; subst; auto.
  - apply es_sample_spec in H as (_ & _ & _ & _ & F). eapply Forall_impl; [|exact F]. intros p (y & -> & Hy). clear - Hy bounds_ordered round_within.
    revert bounds_ordered round_within. induction Hy as [|b v bs y Hv _ IH]; intros BO RW; cbn [map]; constructor; inversion RW; inversion BO; subst; auto.
    match goal with H : forall x, within b x -> _ |- _ => apply H end. now apply sampled_within.
  - apply es_update_components in H as (proj & _ & _ & -> & _). exact IH.
Qed.
Lemma reach_mean st : keeps_range -> es_reach st -> Forall2 within bounds (es_mean st).
Proof using pars_dim mu_pos bounds_ordered round_within pars_within.
  intros HK. induction 1 as [|st st' _ IH H|st st' order Hr IH H].
  - cbn. clear - pars_within. revert pars_within. intros PW. induction PW; cbn; constructor; auto.
  - apply es_sample_spec in H as (-> & _). exact IH.
  - pose proof (es_update_dims _ _ _ _ _ _ _ H) as (D & _). apply reach_pop in Hr. apply es_update_components in H as (proj & _ & _ & _ & H).
    assert (A : forall i b x, nth_error bounds i = Some b -> nth_error (es_mean st') i = Some x -> within b x).
    { intros i b x Hb Hx. assert (Hlt : (i < length bounds)%nat) by (apply nth_error_Some; congruence).
      destruct (H i Hlt) as (sel & m & v0 & mo & Hsel & Em & _ & _ & Hm & _). injection (eq_trans (eq_sym Hx) Hm) as ->. apply selected_in in Hsel as [L F]. apply HK.
      - cbn. clear - IH Hb Em. revert i Hb Em. induction IH as [|b' x' bs xs Hx' _ IH]; intros [|i]; cbn; try discriminate; [intros [= ->] [= ->]; exact Hx'|intros; eapply IH; eauto].
      - apply mean_within; [exact mu_pos|exact L|]. eapply Forall_impl; [|exact F]. intros xy (p & Hp & Hi). rewrite Forall_forall in Hr. specialize (Hr p Hp).
        clear - Hr Hb Hi. revert i Hb Hi. induction Hr as [|b' x' bs xs Hx' _ IH]; intros [|i]; cbn; try discriminate; [intros [= ->] [= ->]; exact Hx'|intros; eapply IH; eauto]. }
    clear - A D. revert A D. generalize (es_mean st') as l. induction bounds as [|b bs IH]; intros [|x l] A D; try discriminate; constructor.
    + apply (A 0%nat); reflexivity.
    + apply IH; [|exact (eq_add_S _ _ D)]. intros i. apply (A (S i)).
Qed.
End Runs.

(** ** C47 *)
Lemma upd_R (v nv r : R) : @upd numR v nv r = (1 - r) * v + r * nv.
Proof. reflexivity. Qed.
Lemma convex lo hi a b r : 0 <= r <= 1 -> lo <= a <= hi -> lo <= b <= hi -> lo <= (1 - r) * a + r * b <= hi.
Proof. intros. nra. Qed.

Theorem C47_mes_variance_nonnegative : forall rng dist nd_new nd_draw round eps bounds lambda mu offset offset_stdev mean_sigma var_sigma mom_sigma pars g st,
  length pars = length bounds -> (1 <= mu)%Z -> 0 <= var_sigma <= 1 ->
  @es_reach rng dist nd_new nd_draw round eps bounds lambda mu offset offset_stdev (@mes_component numR mean_sigma var_sigma mom_sigma) pars g st ->
  Forall (fun v : R => 0 <= v) (es_var st).
Proof.
  intros * HL Hmu Hv H. eapply reach_variance; [exact HL| |intros c mean var H1 H2|exact H]; [lia|]. unfold mes_component.
  destruct (nlt _ _); cbn [k_var]; rewrite upd_R; nra.
Qed.
Theorem C47_eva_variance_nonnegative : forall rng dist nd_new nd_draw round eps bounds lambda mu offset offset_stdev step_size var_update ev_update pars g st,
  length pars = length bounds -> (1 <= mu)%Z -> 0 <= var_update <= 1 ->
  @es_reach rng dist nd_new nd_draw round eps bounds lambda mu offset offset_stdev (@eva_component numR step_size var_update ev_update) pars g st ->
  Forall (fun v : R => 0 <= v) (es_var st).
Proof.
  intros * HL Hmu Hv H. eapply reach_variance; [exact HL| |intros c mean var H1 H2|exact H]; [lia|]. unfold eva_component. cbn [k_var]; rewrite upd_R; nra.
Qed.
(** Without momentum (mom_sigma <= 0) the MES mean stays within the bounds; the EVA
    mean always does.  The rounding of sampled points must respect the bounds. *)
Definition valid_problem (round : R -> R) (bounds pars : list (R * R)) : Prop :=
  Forall (fun b => fst b <= snd b) bounds /\
  Forall (fun b => forall x, within b x -> within b (round x)) bounds /\
  Forall2 (fun b p => within b (fst p)) bounds pars.
Theorem C47_mes_mean_within_bounds : forall rng dist nd_new nd_draw round eps bounds lambda mu offset offset_stdev mean_sigma var_sigma mom_sigma pars g st,
  valid_problem round bounds pars -> (1 <= mu)%Z -> 0 <= mean_sigma <= 1 -> mom_sigma <= 0 ->
  @es_reach rng dist nd_new nd_draw round eps bounds lambda mu offset offset_stdev (@mes_component numR mean_sigma var_sigma mom_sigma) pars g st ->
  Forall2 within bounds (es_mean st).
Proof.
  intros * (V1 & V2 & V3) Hmu Hm Hmom H. eapply reach_mean; [| | | |exact V3| |exact H]; auto; [clear - V3; induction V3; cbn; congruence|lia|].
  intros c mean var lo hi H1 H2. unfold mes_component. change (@nlt numR (nofZ 0) mom_sigma) with (Rlt_bool 0 mom_sigma). rewrite Rlt_bool_false by exact Hmom. cbn [k_mean]. rewrite upd_R. now apply convex.
Qed.
Theorem C47_eva_mean_within_bounds : forall rng dist nd_new nd_draw round eps bounds lambda mu offset offset_stdev step_size var_update ev_update pars g st,
  valid_problem round bounds pars -> (1 <= mu)%Z -> 0 <= step_size <= 1 ->
  @es_reach rng dist nd_new nd_draw round eps bounds lambda mu offset offset_stdev (@eva_component numR step_size var_update ev_update) pars g st ->
  Forall2 within bounds (es_mean st).
Proof.
  intros * (V1 & V2 & V3) Hmu Hm H. eapply reach_mean; [| | | |exact V3| |exact H]; auto; [clear - V3; induction V3; cbn; congruence|lia|].
  intros c mean var lo hi H1 H2. unfold eva_component. cbn [k_mean]. change (lo <= k_mean c + step_size * (mean - k_mean c) <= hi).
  replace (k_mean c + step_size * (mean - k_mean c)) with ((1 - step_size) * k_mean c + step_size * mean) by ring. now apply convex.
Qed.
