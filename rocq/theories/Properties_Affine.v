(** * C70: the origin and the unit of the parameters do not matter (exact arithmetic) *)
From Coq Require Import Reals Lra Lia Arith Bool List ZArith.
From Flocq Require Import Core.
From Verif Require Import Prelude Round8 Num MathTools Boundary Mes MesFacts Cma CmaFacts Properties_Cma CmaEigen.
From Verif Require Properties_Cma2 Properties_Eigen.
Import ListNotations.
#[local] Open Scope R_scope.

(** ** Specification *)
(** The same point when coordinates are measured from another origin and in another unit: [a + t x]. *)
Definition moved (a : list R) (t : R) (x : list R) : list R := map (fun ax => fst ax + t * snd ax) (combine a x).
(** The same problem in the new coordinates: means and bounds are moved, standard deviations are scaled. *)
Definition moved_pars (a : list R) (t : R) (pars : list (R * R)) : list (R * R) := combine (moved a t (map fst pars)) (map (Rmult t) (map snd pars)).
Definition moved_bounds (a : list R) (t : R) (bounds : list (R * R)) : list (R * R) := combine (moved a t (map fst bounds)) (moved a t (map snd bounds)).
(** A boundary transformer that does the same in the new coordinates. *)
Definition moved_transform (n : nat) (a : list R) (t : R) (f f' : list R -> outcome (list R)) : Prop :=
  forall x, length x = n -> f' (moved a t x) = match f x with Ok y => Ok (moved a t y) | Throw m => Throw m | Undef => Undef end.

(** [k] rounds of sampling, evaluating the objective [f] and updating: the populations evaluated, and the final state. *)
Fixpoint searched {S : Type} (sample : S -> outcome S) (population : S -> list (list R)) (update : S -> list R -> outcome S) (f : list R -> R) (k : nat) (st : S)
    : outcome (list (list (list R)) * S) :=
  match k with
  | O => Ok ([], st)
  | S k' => let* st1 := sample st in let* st2 := update st1 (map f (population st1)) in
            let* r := searched sample population update f k' st2 in Ok (population st1 :: fst r, snd r)
  end.

(** ** Proofs *)
Notation at_R := (@at_ numR).
Lemma moved_length a t x : length a = length x -> length (moved a t x) = length x.
Proof. intros H. unfold moved. rewrite map_length, combine_length, H. apply Nat.min_id. Qed.
Lemma at_moved a t x i : length a = length x -> (i < length x)%nat -> at_R (moved a t x) i = at_R a i + t * at_R x i.
Proof.
  unfold at_. change (nT numR) with R. cbn [numR nofZ]. unfold moved. revert x i. induction a as [|y a IH]; intros [|z x] [|i] HL Hi; cbn [length] in *; try lia; [reflexivity|]. cbn [combine map nth]. apply IH; lia.
Qed.
Lemma list_at (x y : list R) : length x = length y -> (forall i, (i < length x)%nat -> at_R x i = at_R y i) -> x = y.
Proof. intros HL H. apply (nth_ext x y 0 0 HL). exact H. Qed.
Lemma moved_build a t n (f : nat -> R) : length a = n -> moved a t (@build R n f) = @build R n (fun i => at_R a i + t * f i).
Proof.
  intros Ha. assert (L : length (@build R n f) = n) by apply (@build_length R). assert (L' : length (moved a t (@build R n f)) = n) by (rewrite moved_length; lia). apply list_at; [rewrite L', (@build_length R); reflexivity|].
  intros i Hi. rewrite L' in Hi. rewrite at_moved by lia. rewrite !(@at_build numR) by exact Hi. reflexivity.
Qed.
Lemma build_eq {A} n (f g : nat -> A) : (forall i, (i < n)%nat -> f i = g i) -> build n f = build n g.
Proof. intros H. unfold build. apply map_ext_in. intros i Hi. apply H. apply in_seq in Hi. lia. Qed.

Section Parts.
Context {K : Num} {G : Type}.
Variables (cpow : K -> K -> K) (P : cma_par K).
#[local] Open Scope num_scope.
Definition flat_sigma (fits : list K) (sigma : K) : K :=
  let order := sorted_index fits (p_lambda P) in
  if at_ fits (nth 0 order 0%nat) =? at_ fits (nth (Nat.div (p_lambda P) 2) order 0%nat) then sigma * nexp (ndec 2 (-1) + p_cs P / p_damps P) else sigma.
Definition best_rows (fits : list K) (rows : list (list K)) : list (list K) := map (fun k => row_ rows k) (firstn (p_mu P) (sorted_index fits (p_lambda P))).
Definition new_mean (best : list (list K)) : list K :=
  build (p_N P) (fun i => fold_left (fun s kx => s + at_ (p_weights P) (fst kx) * at_ (snd kx) i) (combine (seq 0 (p_mu P)) best) (nofZ 0)).
Definition new_step (sigma : K) (xold mean : list K) : list K := build (p_N P) (fun i => nsqrt (p_mueff P) * (at_ mean i - at_ xold i) / sigma).
Definition assembled (st : cma_state K G) (sigma : K) (best : list (list K)) (mean BDz : list K) : cma_state K G :=
  let N := p_N P in
  let diag := flgdiag st in
  let xold := s_mean st in
  let tmp := build N (fun i => (if diag then at_ BDz i else sum_ N (fun j => at_ (row_ (s_B st) j) i * at_ BDz j)) / at_ (s_D st) i) in
  let ps := build N (fun i => (nofZ 1 - p_cs P) * at_ (s_ps st) i
              + nsqrt (p_cs P * (nofZ 2 - p_cs P)) * (if diag then at_ tmp i else sum_ N (fun j => at_ (row_ (s_B st) i) j * at_ tmp j))) in
  let psxps := sum_ N (fun i => at_ ps i * at_ ps i) in
  let hsig := nsqrt psxps / nsqrt (nofZ 1 - cpow (nofZ 1 - p_cs P) (nofZ 2 * of_nat (s_gen st))) / chiN N <? ndec 14 (-1) + nofZ 2 / nofZ (Z.of_nat N + 1) in
  let pc := build N (fun i => (nofZ 1 - p_ccumcov P) * at_ (s_pc st) i
              + nofZ (if hsig then 1 else 0) * nsqrt (p_ccumcov P * (nofZ 2 - p_ccumcov P)) * at_ BDz i) in
  let adapt := negb (p_ccov P =? nofZ 0) in
  {| s_sigma := sigma * nexp ((nsqrt psxps / chiN N - nofZ 1) * p_cs P / p_damps P);
        s_mean := mean;
        s_C := if adapt then adapt_C P diag hsig sigma xold pc best (s_C st) else s_C st;
        s_B := s_B st; s_D := s_D st; s_pc := pc; s_ps := ps;
        s_gen := s_gen st; s_phase := Updated; s_uptodate := if adapt then false else s_uptodate st; s_gen_eigen := s_gen_eigen st;
        s_rows := s_rows st; s_bounded := s_bounded st; s_rng := s_rng st |}.
Lemma update_assembled (st : cma_state K G) fits :
  cma_update cpow P st fits =
  match s_phase st with
  | Updated => Throw "cmaes_UpdateDistribution(): You need to call SamplePopulation() before update can take place."
  | ph =>
    if negb (Nat.eqb (length fits) (p_lambda P)) then Throw "cmaes_UpdateDistribution(): Fitness function value array input is missing."
    else match ph with
    | Sampled => let sigma := flat_sigma fits (s_sigma st) in let best := best_rows fits (s_rows st) in let mean := new_mean best in
        Ok (assembled st sigma best mean (new_step sigma (s_mean st) mean))
    | _ => Throw "cmaes_UpdateDistribution(): unexpected state"
    end
  end.
Proof. reflexivity. Qed.
End Parts.

Lemma moved_ltb' t x y c : 0 < t -> Rlt_bool (c + t * x) (c + t * y) = Rlt_bool x y.
Proof. intros Ht. destruct (Rlt_bool_spec x y), (Rlt_bool_spec (c + t * x) (c + t * y)); try reflexivity; exfalso; nra. Qed.
Lemma moved_leb' t x y c : 0 < t -> Rle_bool (c + t * x) (c + t * y) = Rle_bool x y.
Proof. intros Ht. destruct (Rle_bool_spec x y), (Rle_bool_spec (c + t * x) (c + t * y)); try reflexivity; exfalso; nra. Qed.

Lemma map_fst_combine {A B} (l : list A) (m : list B) : length l = length m -> map fst (combine l m) = l.
Proof. revert m. induction l as [|x l IH]; intros [|y m] H; cbn in *; try lia; [reflexivity|]. f_equal. apply IH. lia. Qed.
Lemma map_snd_combine {A B} (l : list A) (m : list B) : length l = length m -> map snd (combine l m) = m.
Proof. revert m. induction l as [|x l IH]; intros [|y m] H; cbn in *; try lia; [reflexivity|]. f_equal. apply IH. lia. Qed.

Section CmaMoved.
Context {G : Type}.
Variables (gauss : G -> outcome (R * G)) (E : list (list R) -> outcome (list R * list (list R))) (cpow : R -> R -> R) (bounds : list (R * R)) (transform transform' : list R -> outcome (list R))
  (P : cma_par numR) (a : list R) (t : R) (cceil : R -> R) (ol : Z) (om : R).
Notation state := (cma_state numR G).
Notation N := (p_N P).
Notation mv := (moved a t).
Hypothesis HD : Properties_Cma2.default_par cceil ol om P.
Hypothesis Ha : length a = N.
Hypothesis Ht : 0 < t.
Hypothesis Hb : length bounds = N.
Hypothesis HT : moved_transform N a t transform transform'.
Hypothesis HTS : @transform_sized numR transform P.
Hypothesis HES : @eigen_sized numR E P.
Notation bounds' := (moved_bounds a t bounds).
Notation keep := (fun x : R => x).
Definition carry (rows' : list (list R)) (st : state) : state :=
  @Build_cma_state numR G (t * s_sigma st) (mv (s_mean st)) (s_C st) (s_B st) (s_D st) (s_pc st) (s_ps st) (s_gen st) (s_phase st) (s_uptodate st) (s_gen_eigen st)
    rows' (map mv (s_bounded st)) (s_rng st).
Lemma eigensystem_moved rows' st : @update_eigensystem numR G E P (carry rows' st) = match @update_eigensystem numR G E P st with Ok st1 => Ok (carry rows' st1) | Throw m => Throw m | Undef => Undef end.
Proof.
  unfold update_eigensystem. cbn [carry s_uptodate s_gen s_gen_eigen s_C s_B]. destruct (s_uptodate st); [reflexivity|]. unfold flgdiag. cbn [carry s_gen]. destruct (Nat.eqb (s_gen st) 0); [reflexivity|].
  destruct (nlt _ _); [reflexivity|]. destruct (E (s_C st)) as [[d Q]| |]; reflexivity.
Qed.
Lemma mutant_moved rows' (st : state) diag z : length (s_mean st) = N -> @mutant numR G P (carry rows' st) diag z = mv (@mutant numR G P st diag z).
Proof using Ha Hb.
  intros HL. change (nT numR) with R in *. unfold mutant. cbn [carry s_mean s_sigma s_D s_B].
  destruct diag; rewrite moved_build by exact Ha; apply build_eq; intros i Hi; cbn [numR nadd nmul]; rewrite at_moved by (change (nT numR) with R; lia); ring.
Qed.
Lemma mutants_moved rows' (st : state) diag n : length (s_mean st) = N -> forall g, @mutants numR G gauss P (carry rows' st) diag n g =
  match @mutants numR G gauss P st diag n g with Ok (rows, g') => Ok (map mv rows, g') | Throw m => Throw m | Undef => Undef end.
Proof using Ha Hb.
  intros HL. induction n as [|n IH]; intros g; cbn [mutants]; [reflexivity|]. destruct (@draws numR G gauss N g) as [[z g1]| |]; cbn [obind]; [|reflexivity..].
  rewrite IH. destruct (@mutants numR G gauss P st diag n g1) as [[rows g2]| |]; cbn [obind map]; [|reflexivity..]. rewrite mutant_moved by exact HL. reflexivity.
Qed.
Lemma moved_ltb x y c : Rlt_bool (c + t * x) (c + t * y) = Rlt_bool x y.
Proof using Ht Ha Hb. destruct (Rlt_bool_spec x y), (Rlt_bool_spec (c + t * x) (c + t * y)); try reflexivity; exfalso; nra. Qed.
Lemma moved_leb x y c : Rle_bool (c + t * x) (c + t * y) = Rle_bool x y.
Proof using Ht Ha Hb. destruct (Rle_bool_spec x y), (Rle_bool_spec (c + t * x) (c + t * y)); try reflexivity; exfalso; nra. Qed.
Lemma feasible_moved : forall al (bs : list (R * R)) (v : list R), length al = length bs -> length v = length bs -> @feasible numR (moved_bounds al t bs) (moved al t v) = @feasible numR bs v.
Proof using Ht Ha Hb.
  induction al as [|c al IH]; intros [|[l u] bs] [|x v] H1 H2; cbn [length] in *; try lia; [reflexivity|].
  unfold moved_bounds, moved in *. cbn [map combine fst snd feasible numR nlt]. rewrite !moved_ltb. destruct (_ || _); [reflexivity|]. apply (IH bs v); lia.
Qed.
Lemma clamp_moved : forall al (bs : list (R * R)) (v : list R), length al = length bs -> length v = length bs -> @clamp_all numR (moved_bounds al t bs) (moved al t v) = moved al t (@clamp_all numR bs v).
Proof using Ht Ha Hb.
  induction al as [|c al IH]; intros [|[l u] bs] [|x v] H1 H2; cbn [length] in *; try lia; [reflexivity|].
  unfold moved_bounds, moved in *. cbn [map combine fst snd clamp_all numR nlt nle]. rewrite !moved_ltb, !moved_leb. f_equal; [|apply (IH bs v); lia].
  destruct (negb _); [|reflexivity]. destruct (Rlt_bool u x); [reflexivity|]. destruct (Rlt_bool x l); reflexivity.
Qed.
Lemma attempts_moved rows' (st : state) k : length (s_mean st) = N -> forall row ind g, length ind = N -> @attempts numR G gauss bounds' transform' P (carry rows' st) k (mv row) (mv ind) g =
  match @attempts numR G gauss bounds transform P st k row ind g with Ok (r, i, b, g') => Ok (mv r, mv i, b, g') | Throw m => Throw m | Undef => Undef end.
Proof using Ha Ht Hb HT HTS.
  intros HL. induction k as [|k IH]; intros row ind g Hi; cbn [attempts]; [reflexivity|]. rewrite (HT ind Hi). destruct (transform ind) as [y| |] eqn:EY; cbn [obind]; [|reflexivity..].
  pose proof (HTS ind y Hi EY) as Hy. change (nT numR) with R in *. rewrite feasible_moved by lia. destruct (@feasible numR bounds y); [reflexivity|].
  destruct (@draws numR G gauss N g) as [[z g1]| |]; cbn [obind]; [|reflexivity..]. rewrite mutant_moved by exact HL. apply IH. apply (@mutant_length numR).
Qed.
Lemma individuals_moved rows' (st : state) : length (s_mean st) = N -> forall rows g, Forall (fun r => length r = N) rows -> @individuals numR G gauss keep bounds' transform' P (carry rows' st) (map mv rows) g =
  match @individuals numR G gauss keep bounds transform P st rows g with Ok (rs, is_, g') => Ok (map mv rs, map mv is_, g') | Throw m => Throw m | Undef => Undef end.
Proof using Ha Ht Hb HT HTS.
  intros HL. induction rows as [|r rows IH]; intros g HF; cbn [individuals map]; [reflexivity|]. inversion_clear HF as [|? ? Hr HF'].
  rewrite attempts_moved by assumption. destruct (@attempts numR G gauss bounds transform P st 100 r r g) as [[[[r1 i1] found] g1]| |] eqn:EA; cbn [obind]; [|reflexivity..].
  assert (HI : found = false -> length i1 = N).
  { intros ->. apply (@attempts_spec numR) in EA as [[[? _]|[_ ->]] HR]; [discriminate| |reflexivity]. destruct HR as [->|[z ->]]; [exact Hr|apply (@mutant_length numR)]. }
  rewrite IH by exact HF'. clear IH. destruct found.
  - destruct (@individuals numR G gauss keep bounds transform P st rows g1) as [[[rs is_] g2]| |]; cbn [obind map]; [|reflexivity..]. rewrite !map_id. reflexivity.
  - specialize (HI eq_refl). change (nT numR) with R in *. rewrite clamp_moved by lia.
    destruct (@individuals numR G gauss keep bounds transform P st rows g1) as [[[rs is_] g2]| |]; cbn [obind map]; [|reflexivity..]. rewrite !map_id. reflexivity.
Qed.
Lemma sample_moved rows' (st st1 : state) : @cma_sized numR G P st -> @cma_sample numR G gauss E keep bounds transform P st = Ok st1 ->
  @cma_sample numR G gauss E keep bounds' transform' P (carry rows' st) = Ok (carry (map mv (s_rows st1)) st1).
Proof using Ha Ht Hb HT HTS.
  intros HS H. unfold cma_sample in *. destruct (assert_ (Nat.ltb 0 N)) as [u| |]; cbn [obind] in *; try discriminate.
  rewrite eigensystem_moved. destruct (@update_eigensystem numR G E P st) as [st0| |] eqn:E0; cbn [obind] in *; try discriminate.
  assert (HL : length (s_mean st0) = N) by (apply Properties_Cma2.update_eigensystem_keeps in E0 as (_ & _ & ->); apply HS).
  cbn [carry s_rng s_gen s_phase s_sigma s_mean s_C s_B s_D s_pc s_ps s_uptodate s_gen_eigen]. unfold flgdiag in *. cbn [carry s_gen].
  rewrite mutants_moved by exact HL.
  destruct (@mutants numR G gauss P st0 (Nat.eqb (s_gen st) 0) (p_lambda P) (s_rng st0)) as [[rows g1]| |] eqn:EM; cbn [obind] in *; try discriminate.
  assert (HF : Forall (fun r => length r = N) rows).
  { apply (@mutants_spec numR) in EM as [_ EM]. eapply Forall_impl; [|exact EM]. intros r [z ->]. apply (@mutant_length numR). }
  rewrite individuals_moved by assumption.
  destruct (@individuals numR G gauss keep bounds transform P st0 rows g1) as [[[rs is_] g2]| |]; cbn [obind] in *; try discriminate. injection H as <-. reflexivity.
Qed.
(** The update *)
Lemma lsum_moved (w : nat -> R) i : (i < N)%nat -> forall (best : list (list R)) (ks : list nat), Forall (fun x => length x = N) best ->
  Properties_Cma2.lsum (combine ks (map mv best)) (fun kx => w (fst kx) * at_R (snd kx) i)
  = at_R a i * Properties_Cma2.lsum (combine ks best) (fun kx => w (fst kx)) + t * Properties_Cma2.lsum (combine ks best) (fun kx => w (fst kx) * at_R (snd kx) i).
Proof using Ha Hb.
  intros Hi best. induction best as [|x best IH]; intros [|k ks] HF; cbn [map combine Properties_Cma2.lsum fold_right]; try ring. inversion_clear HF as [|? ? Hx HF']. fold (Properties_Cma2.lsum (combine ks (map mv best)) (fun kx => w (fst kx) * at_R (snd kx) i)).
  rewrite IH by exact HF'. cbn [fst snd]. rewrite at_moved by lia. unfold Properties_Cma2.lsum. ring.
Qed.
Lemma weights_sum (best : list (list R)) : length best = p_mu P -> Properties_Cma2.lsum (combine (seq 0 (p_mu P)) best) (fun kx => at_R (p_weights P) (fst kx)) = 1.
Proof using HD Ha Hb.
  intros HL. pose proof (Properties_Cma2.default_weights _ _ _ _ HD) as (Hw & _ & H1).
  rewrite (Properties_Cma2.lsum_combine (seq 0 (p_mu P)) best (fun k => at_R (p_weights P) k)) by (rewrite seq_length; lia).
  rewrite <- H1. change (nT numR) with R in *. rewrite <- Hw. clear. unfold at_. change (nT numR) with R. cbn [numR nofZ].
  assert (X : forall (l : list R) s (f : nat -> R), (forall k, f (s + k)%nat = nth k l 0) -> Properties_Cma2.lsum (seq s (length l)) f = fold_right Rplus 0 l).
  { induction l as [|x l IH]; intros s f Hf; [reflexivity|]. cbn [length seq Properties_Cma2.lsum fold_right]. f_equal; [specialize (Hf 0%nat); rewrite Nat.add_0_r in Hf; exact Hf|].
    apply IH. intros k. replace (S s + k)%nat with (s + S k)%nat by lia. apply (Hf (S k)). }
  apply (X _ 0%nat). reflexivity.
Qed.
Lemma new_mean_moved (best : list (list R)) : length best = p_mu P -> Forall (fun x => length x = N) best -> @new_mean numR P (map mv best) = mv (@new_mean numR P best).
Proof using Ha Hb HD.
  intros HL HF. unfold new_mean. change (nT numR) with R in *. rewrite moved_build by exact Ha. apply build_eq. intros i Hi. cbn [numR nadd nmul nofZ]. change (nT numR) with R in *.
  rewrite !(Properties_Cma2.fold_left_lsum _ (fun kx : nat * list R => at_R (p_weights P) (fst kx) * at_R (snd kx) i)).
  rewrite (lsum_moved (at_R (p_weights P)) i Hi) by exact HF. rewrite weights_sum by exact HL. ring.
Qed.
Lemma new_step_moved sigma (xold mean : list R) : 0 < sigma -> length xold = N -> length mean = N -> @new_step numR P (t * sigma) (mv xold) (mv mean) = @new_step numR P sigma xold mean.
Proof using Ha Ht Hb.
  intros Hs H1 H2. unfold new_step. apply build_eq. intros i Hi. cbn [numR nadd nsub nmul ndiv nsqrt]. change (nT numR) with R in *. rewrite !at_moved by lia. set (me := p_mueff P : R). field. split; lra.
Qed.
Lemma adapt_entry_moved diag hsig sigma (xold pc : list R) i j : (i < N)%nat -> (j < N)%nat -> 0 < sigma -> length xold = N -> forall (best : list (list R)) c, Forall (fun x => length x = N) best ->
  @adapt_entry numR P diag hsig (t * sigma) (mv xold) pc (map mv best) i j c = @adapt_entry numR P diag hsig sigma xold pc best i j c.
Proof using Ha Ht Hb.
  intros Hi Hj Hs Hx best c HF. unfold adapt_entry. cbn [numR nadd nsub nmul ndiv nofZ]. change (nT numR) with R in *.
  match goal with |- fold_left _ _ ?c0 = fold_left _ _ _ => generalize c0 end. generalize (seq 0 (p_mu P)). set (cm := @ccovmu numR P diag : R). clear c.
  induction HF as [|x best Hl HF IH]; intros [|k ks] c; cbn [map combine fold_left]; [reflexivity..|]. cbn [fst snd].
  match goal with |- fold_left _ _ ?c1 = fold_left _ _ ?c2 => replace c1 with c2; [apply IH|] end. rewrite !at_moved by lia.
  set (w := at_R (p_weights P) k : R). field. split; lra.
Qed.
Lemma adapt_C_moved diag hsig sigma (xold pc : list R) (best C : list (list R)) : 0 < sigma -> length xold = N -> Forall (fun x => length x = N) best ->
  @adapt_C numR P diag hsig (t * sigma) (mv xold) pc (map mv best) C = @adapt_C numR P diag hsig sigma xold pc best C.
Proof using Ha Ht Hb.
  intros Hs Hx HF. unfold adapt_C. apply build_eq. intros i Hi. apply build_eq. intros j Hj. destruct (_ && _); [reflexivity|]. apply adapt_entry_moved; auto. lia.
Qed.
Lemma assembled_moved rows' (st : state) sigma (best : list (list R)) (mean BDz : list R) : 0 < sigma -> length (s_mean st) = N -> Forall (fun x => length x = N) best ->
  @assembled numR G cpow P (carry rows' st) (t * sigma) (map mv best) (mv mean) BDz = carry rows' (@assembled numR G cpow P st sigma best mean BDz).
Proof using Ha Ht Hb.
  intros Hs HL HF. unfold assembled. cbn [carry s_sigma s_mean s_C s_B s_D s_pc s_ps s_gen s_phase s_uptodate s_gen_eigen s_rows s_bounded s_rng]. change (flgdiag (carry rows' st)) with (flgdiag st).
  change (nT numR) with R in *. rewrite adapt_C_moved by assumption. unfold carry. cbn [s_sigma s_mean s_C s_B s_D s_pc s_ps s_gen s_phase s_uptodate s_gen_eigen s_rows s_bounded s_rng].
  cbn [numR nmul]. rewrite Rmult_assoc. reflexivity.
Qed.
Lemma best_rows_facts (fits : list R) (rows : list (list R)) : length rows = p_lambda P -> Forall (fun r => length r = N) rows ->
  @best_rows numR P fits (map mv rows) = map mv (@best_rows numR P fits rows) /\ length (@best_rows numR P fits rows) = p_mu P /\ Forall (fun x => length x = N) (@best_rows numR P fits rows).
Proof using HD Ha Hb.
  intros HL HF. pose proof (Properties_Cma2.default_par_facts _ _ _ _ HD) as (Hmu & _). unfold best_rows.
  assert (HO : forall k, In k (firstn (p_mu P) (@sorted_index numR fits (p_lambda P))) -> (k < length rows)%nat).
  { intros k Hk. assert (Hk2 : In k (@sorted_index numR fits (p_lambda P))) by (rewrite <- (firstn_skipn (p_mu P)); apply in_or_app; left; exact Hk). apply (Permutation.Permutation_in _ (@sorted_index_perm numR fits (p_lambda P))) in Hk2. apply in_seq in Hk2. change (nT numR) with R in *. lia. }
  split; [|split].
  - rewrite map_map. apply map_ext_in. intros k Hk. specialize (HO k Hk). unfold row_. change (nT numR) with R. rewrite (nth_indep (map mv rows) [] (mv [])) by (rewrite map_length; exact HO). apply map_nth.
  - rewrite map_length, firstn_length, (@sorted_index_length numR). lia.
  - apply Forall_forall. intros x Hx. apply in_map_iff in Hx as (k & <- & Hk). specialize (HO k Hk). unfold row_. rewrite Forall_forall in HF. apply HF. apply nth_In. exact HO.
Qed.
Lemma update_moved rows' (st st1 : state) fits : @cma_sized numR G P st -> 0 < s_sigma st -> (s_phase st = Sampled -> rows' = map mv (s_rows st)) -> @cma_update numR G cpow P st fits = Ok st1 ->
  @cma_update numR G cpow P (carry rows' st) fits = Ok (carry rows' st1).
Proof using Ha Ht Hb HD.
  intros HS Hs HR H. rewrite update_assembled in H |- *. cbn [carry s_phase s_sigma s_rows s_mean].
  destruct (s_phase st) eqn:EP; [destruct (negb _); discriminate| |discriminate]. destruct (negb _); [discriminate|]. rewrite (HR eq_refl).
  destruct HS as (L1 & _ & _ & _ & _ & _ & L2 & L3 & _). destruct (best_rows_facts fits (s_rows st) L2 L3) as (F1 & F2 & F3).
  assert (HF : @flat_sigma numR P fits (t * s_sigma st) = t * @flat_sigma numR P fits (s_sigma st)) by (unfold flat_sigma; destruct (neq _ _); [apply Rmult_assoc|reflexivity]).
  assert (HF' : 0 < @flat_sigma numR P fits (s_sigma st)) by (unfold flat_sigma; destruct (neq _ _); [apply Rmult_lt_0_compat; [exact Hs|apply exp_pos]|exact Hs]).
  injection H as <-. cbv zeta. rewrite HF. f_equal.
  transitivity (@assembled numR G cpow P (carry (map mv (s_rows st)) st) (t * @flat_sigma numR P fits (s_sigma st)) (map mv (@best_rows numR P fits (s_rows st))) (mv (@new_mean numR P (@best_rows numR P fits (s_rows st))))
     (@new_step numR P (@flat_sigma numR P fits (s_sigma st)) (s_mean st) (@new_mean numR P (@best_rows numR P fits (s_rows st))))).
  - pose proof (new_mean_moved _ F2 F3) as HM. pose proof (new_step_moved _ (s_mean st) (@new_mean numR P (@best_rows numR P fits (s_rows st))) HF' L1 (build_length _ _)) as HN.
    f_equal; [exact F1|rewrite F1; exact HM|]. rewrite F1, HM. exact HN.
  - apply assembled_moved; assumption.
Qed.

Definition sound (rows' : list (list R)) (st : state) : Prop := @cma_sized numR G P st /\ 0 < s_sigma st /\ (s_phase st = Sampled -> rows' = map mv (s_rows st)).
Notation sample := (@cma_sample numR G gauss E keep bounds transform P).
Notation sample' := (@cma_sample numR G gauss E keep bounds' transform' P).
Notation update := (@cma_update numR G cpow P).
Lemma update_sigma (st st1 : state) fits : 0 < s_sigma st -> update st fits = Ok st1 -> 0 < s_sigma st1 /\ s_phase st1 = Updated.
Proof.
  intros Hs H. rewrite update_assembled in H. destruct (s_phase st); [destruct (negb _); discriminate| |discriminate]. destruct (negb _); [discriminate|]. injection H as <-. split; [|reflexivity].
  unfold assembled. cbn [s_sigma]. apply Rmult_lt_0_compat; [|apply exp_pos]. unfold flat_sigma. destruct (neq _ _); [apply Rmult_lt_0_compat; [exact Hs|apply exp_pos]|exact Hs].
Qed.
Lemma searched_moved f f' : (forall x, length x = N -> f' (mv x) = f x) -> forall k rows' st pops st', sound rows' st ->
  searched sample s_bounded update f k st = Ok (pops, st') ->
  exists rows2, searched sample' s_bounded update f' k (carry rows' st) = Ok (map (map mv) pops, carry rows2 st') /\ length (s_mean st') = N.
Proof using Ha Ht Hb HT HTS HES HD.
  intros Hf. induction k as [|k IH]; intros rows' st pops st' HS H; cbn [searched] in *; [injection H as <- <-; exists rows'; split; [reflexivity|]; apply HS|].
  destruct HS as (S1 & S2 & S3).
  destruct (sample st) as [st1| |] eqn:E1; cbn [obind] in H; try discriminate. rewrite (sample_moved rows' st st1 S1 E1). cbn [obind].
  pose proof (@sample_sized numR G gauss E keep bounds transform P st st1 HES HTS S1 E1) as T1.
  assert (T2 : 0 < s_sigma st1). { apply (@sample_spec numR) in E1 as (st0 & rows & E0 & -> & _). apply Properties_Cma2.update_eigensystem_keeps in E0 as (-> & _). exact S2. }
  destruct (update st1 (map f (s_bounded st1))) as [st2| |] eqn:E2; cbn [obind] in H; try discriminate.
  assert (EF : map f' (s_bounded (carry (map mv (s_rows st1)) st1)) = map f (s_bounded st1)).
  { cbn [carry s_bounded]. rewrite map_map. apply map_ext_in. intros x Hx. apply Hf. destruct T1 as (_ & _ & _ & _ & _ & _ & _ & _ & _ & T1). rewrite Forall_forall in T1. exact (T1 x Hx). }
  rewrite EF. rewrite (update_moved (map mv (s_rows st1)) st1 st2 _ T1 T2 (fun _ => eq_refl) E2). cbn [obind].
  destruct (searched sample s_bounded update f k st2) as [[pops2 st3]| |] eqn:E3; cbn [obind fst snd] in H; try discriminate. injection H as <- <-.
  destruct (update_sigma _ _ _ T2 E2) as [U1 U2].
  destruct (IH (map mv (s_rows st1)) st2 pops2 st3) as (rows2 & -> & HL); [|exact E3|].
  - split; [exact (@update_sized numR G cpow P st1 _ st2 T1 E2)|]. split; [exact U1|]. rewrite U2. discriminate.
  - exists rows2. split; [reflexivity|exact HL].
Qed.
Lemma std_moved rows' (st : state) : @current_std numR G P (carry rows' st) = map (Rmult t) (@current_std numR G P st).
Proof. unfold current_std, build. rewrite map_map. apply map_ext. intros i. cbn [carry s_sigma s_C numR nmul nsqrt]. rewrite Rmult_assoc. reflexivity. Qed.
Lemma at_scaled (l : list R) i : (i < length l)%nat -> at_R (map (Rmult t) l) i = t * at_R l i.
Proof. intros Hi. unfold at_. change (nT numR) with R. cbn [numR nofZ]. rewrite (nth_indep _ 0 (t * 0)) by (rewrite map_length; exact Hi). apply map_nth. Qed.
Definition start_of (means stds : list R) (trace : R) (g : G) : state :=
  let D := @build R N (fun i => at_R stds i * sqrt (IZR (Z.of_nat N) / trace)) in
  @Build_cma_state numR G (sqrt (trace / IZR (Z.of_nat N))) means
    (build N (fun i => build (S i) (fun j => if Nat.eqb i j then at_R D i * at_R D i else 0))) (build N (fun i => build N (fun j => if Nat.eqb i j then 1 else 0)))
    D (build N (fun _ => 0)) (build N (fun _ => 0)) 0 Fresh true 0 (repeat (build N (fun _ => 0)) (p_lambda P)) (repeat (map keep means) (p_lambda P)) g.
Definition trace_of (stds : list R) : R := rsum N (fun i => at_R stds i * at_R stds i).
Lemma init_start (pars : list (R * R)) (g : G) : @cma_init numR G keep P pars g = start_of (map fst pars) (map snd pars) (trace_of (map snd pars)) g.
Proof. reflexivity. Qed.
Lemma init_moved (pars : list (R * R)) (g : G) : length pars = N -> Exists (fun p => snd p <> 0) pars ->
  @cma_init numR G keep P (moved_pars a t pars) g = carry (s_rows (@cma_init numR G keep P pars g)) (@cma_init numR G keep P pars g) /\ 0 < s_sigma (@cma_init numR G keep P pars g).
Proof using Ha Ht Hb HD.
  intros HL HX. destruct HD as [HN _].
  assert (L1 : length (moved a t (map fst pars)) = N) by (rewrite moved_length; rewrite map_length; lia).
  assert (L2 : length (map (Rmult t) (map snd pars)) = N) by (rewrite !map_length; lia).
  assert (M1 : map fst (moved_pars a t pars) = mv (map fst pars)) by (apply map_fst_combine; lia).
  assert (M2 : map snd (moved_pars a t pars) = map (Rmult t) (map snd pars)) by (apply map_snd_combine; lia).
  rewrite !init_start, M1, M2. set (stds := map snd pars) in *. set (means := map fst pars) in *.
  assert (Ls : length stds = N) by (unfold stds; rewrite map_length; exact HL).
  assert (HT1 : trace_of (map (Rmult t) stds) = t * t * trace_of stds).
  { unfold trace_of. rewrite <- sum_scal. apply sum_ext_R. intros i Hi. rewrite at_scaled by lia. set (y := at_R stds i : R). change (t * y * (t * y) = t * t * (y * y)). ring. }
  assert (HT0 : 0 < trace_of stds).
  { apply Exists_exists in HX as (p & Hp & H0). apply In_nth with (d := (0, 0)) in Hp as (k & Hk & E').
    apply (Properties_Cma2.sum_pos_ex N _ k); [lia| |intros; apply Rle_0_sqr]. assert (Es : at_R stds k = snd p).
    { unfold at_, stds. change (nT numR) with R. cbn [numR nofZ]. change 0 with (snd (0, 0)). rewrite map_nth, E'. reflexivity. }
    rewrite Es. exact (Rsqr_pos_lt _ H0). }
  rewrite HT1. set (trace := trace_of stds) in *. clearbody trace.
  assert (HNr : 0 < IZR (Z.of_nat N)) by (rewrite <- INR_IZR_INZ; apply lt_0_INR; lia).
  split.
  - assert (HDe : @build R N (fun i => at_R (map (Rmult t) stds) i * sqrt (IZR (Z.of_nat N) / (t * t * trace))) = @build R N (fun i => at_R stds i * sqrt (IZR (Z.of_nat N) / trace))).
    { apply build_eq. intros i Hi. rewrite at_scaled by lia. set (y := at_R stds i : R).
      replace (IZR (Z.of_nat N) / (t * t * trace)) with ((/ t) * (/ t) * (IZR (Z.of_nat N) / trace)) by (field; split; lra).
      rewrite sqrt_mult_alt by (assert (0 < / t) by (apply Rinv_0_lt_compat; exact Ht); nra). rewrite sqrt_square by (left; apply Rinv_0_lt_compat; exact Ht). field. lra. }
    assert (HSi : sqrt (t * t * trace / IZR (Z.of_nat N)) = t * sqrt (trace / IZR (Z.of_nat N))).
    { replace (t * t * trace / IZR (Z.of_nat N)) with (t * t * (trace / IZR (Z.of_nat N))) by (field; lra). rewrite sqrt_mult_alt by nra. rewrite sqrt_square by lra. reflexivity. }
    unfold start_of. rewrite HDe, HSi. unfold carry. cbn [s_sigma s_mean s_C s_B s_D s_pc s_ps s_gen s_phase s_uptodate s_gen_eigen s_rows s_bounded s_rng].
    f_equal. rewrite !map_id. clear. induction (p_lambda P) as [|k IH]; [reflexivity|]. cbn [repeat map]. f_equal. exact IH.
  - unfold start_of. cbn [s_sigma]. apply sqrt_lt_R0. apply Rdiv_lt_0_compat; assumption.
Qed.
End CmaMoved.

(** ** CMA *)
(** In exact arithmetic, with the same random numbers: if the parameters, their bounds and the objective are
    expressed in coordinates with another origin and another unit, then after any number of steps the points
    evaluated are the same points in the new coordinates; so is the distribution.  [transform] and [transform']
    are the boundary transformers of the two optimizers. *)
Theorem C70_cma_origin_and_unit : forall (G : Type) gauss E cpow bounds transform transform' (P : cma_par numR) cceil ol om a t pars (g : G) f f' k pops st,
  Properties_Cma2.default_par cceil ol om P -> length a = p_N P -> 0 < t -> length bounds = p_N P -> length pars = p_N P -> Exists (fun p => snd p <> 0) pars ->
  @eigen_sized numR E P -> @transform_sized numR transform P -> moved_transform (p_N P) a t transform transform' ->
  (forall x, length x = p_N P -> f' (moved a t x) = f x) ->
  searched (@cma_sample numR G gauss E (fun x : R => x) bounds transform P) s_bounded (@cma_update numR G cpow P) f k (@cma_init numR G (fun x : R => x) P pars g) = Ok (pops, st) ->
  exists st',
    searched (@cma_sample numR G gauss E (fun x : R => x) (moved_bounds a t bounds) transform' P) s_bounded (@cma_update numR G cpow P) f' k (@cma_init numR G (fun x : R => x) P (moved_pars a t pars) g)
      = Ok (map (map (moved a t)) pops, st') /\
    s_mean st' = moved a t (s_mean st) /\ s_sigma st' = t * s_sigma st /\ s_C st' = s_C st /\
    @current_std numR G P st' = map (Rmult t) (@current_std numR G P st) /\
    @current_mean numR G transform' st' = match @current_mean numR G transform st with Ok m => Ok (moved a t m) | Throw w => Throw w | Undef => Undef end.
Proof.
  intros G gauss E cpow bounds transform transform' P cceil ol om a t pars g f f' k pops st HD Ha Ht Hb HL HX HES HTS HT Hf H.
  destruct (@init_moved G bounds P a t cceil ol om HD Ha Ht Hb pars g HL HX) as [HI HS]. rewrite HI.
  destruct (@searched_moved G gauss E cpow bounds transform transform' P a t cceil ol om HD Ha Ht Hb HT HTS HES f f' Hf k (s_rows (@cma_init numR G (fun x : R => x) P pars g)) (@cma_init numR G (fun x : R => x) P pars g) pops st) as (rows2 & HR & HL2).
  - split; [apply (@init_sized numR); exact HL|]. split; [exact HS|]. discriminate.
  - exact H.
  - exists (carry a t rows2 st). split; [exact HR|]. split; [reflexivity|]. split; [reflexivity|]. split; [reflexivity|]. split; [apply std_moved|]. unfold current_mean. cbn [carry s_mean]. apply HT. exact HL2.
Qed.
(** No transformer and the reflective one do the same in all coordinates. *)
Theorem C70_transformers_move : forall n a t, length a = n -> 0 < t ->
  moved_transform n a t (@try_apply_transform numR None) (@try_apply_transform numR None) /\
  (forall (wave : R -> R -> R -> R) (bounds : list (R * R)), length bounds = n -> (forall c x l u, wave (c + t * x) (c + t * l) (c + t * u) = c + t * wave x l u) ->
    moved_transform n a t (@reflective_apply numR wave bounds) (@reflective_apply numR wave (moved_bounds a t bounds))).
Proof.
  intros n a t Ha Ht. split; [intros x _; reflexivity|]. intros wave bounds Hb Hw x Hx. unfold reflective_apply.
  assert (L1 : length (moved a t x) = n) by (rewrite moved_length; lia). assert (L2 : length (moved_bounds a t bounds) = n) by (unfold moved_bounds; rewrite combine_length, !moved_length by (rewrite map_length; lia); rewrite !map_length; lia).
  change (nT numR) with R in *. unfold assert_. rewrite L1, L2, Hx, Hb, Nat.eqb_refl. cbn [obind]. f_equal. clear L1 L2. subst n. revert bounds x Hb Hx.
  induction a as [|c a IH]; intros [|[l u] bounds] [|x v] H1 H2; cbn [length] in *; try lia; [reflexivity|]. unfold moved_bounds, moved in *. cbn [map combine fst snd numR nlt]. rewrite !moved_ltb' by exact Ht. f_equal; [destruct (_ || _); [apply Hw|reflexivity]|].
  apply (IH bounds v); lia.
Qed.
(** The boundary transformer of cma_optimizer is not: how far it bends depends on the distance from the origin. *)
Theorem C70_cmaes_transformer_moves_refuted :
  ~ moved_transform 1 [19] 1 (@cmaes_apply numR to_int_R [@make_bnd numR 0 1]) (@cmaes_apply numR to_int_R [@make_bnd numR 19 20]).
Proof.
  intros H. specialize (H [0] eq_refl).
  assert (B0 : @make_bnd numR 0 1 = @Build_bnd numR 0 1 (1/20) (2/20)).
  { unfold make_bnd, c_fmin. cbn [numR nabs nofZ nadd nsub ndiv neq nlt negb]. rewrite Rabs_R0, Rabs_R1, !Req_bool_true, !Rlt_bool_true by lra. cbn [negb]. f_equal; lra. }
  assert (B1 : @make_bnd numR 19 20 = @Build_bnd numR 19 20 (1/2) (1/2)).
  { unfold make_bnd, c_fmin. cbn [numR nabs nofZ nadd nsub ndiv neq nlt negb]. rewrite !Rabs_pos_eq, !Req_bool_true, !Rlt_bool_false by lra. cbn [negb]. f_equal; lra. }
  rewrite B0, B1 in H. unfold cmaes_apply, on_components, shift_or_keep, fold_into, is_bug, squash, moved in H.
  cbn [length combine map map_out obind fst snd b_lb b_ub b_al b_au numR nofZ nadd nsub nmul ndiv nlt ndec Nat.ltb Nat.leb skipn app] in H.
  assert (E15 : 0 < IZR 1 * bpow radix10 (-15)) by (apply Rmult_lt_0_compat; [lra|apply bpow_gt_0]). set (e := IZR 1 * bpow radix10 (-15)) in *. clearbody e.
  repeat (match type of H with context [Rlt_bool ?x ?y] => first [rewrite (Rlt_bool_true x y) in H by lra|rewrite (Rlt_bool_false x y) in H by lra] end; cbn [obind orb map_out app map combine fst snd length Nat.ltb Nat.leb skipn] in H).
  injection H as H. rewrite (Rlt_bool_true (19 + 1 * 0)) in H by lra. rewrite (Rlt_bool_true 0) in H by lra. lra.
Qed.

(** ** MES and EVA *)
Lemma get_moved (a : list R) t x i y c : length a = length x -> nth_error a i = Some c -> nth_error x i = Some y -> nth_error (moved a t x) i = Some (c + t * y).
Proof. unfold moved. revert x i. induction a as [|b a IH]; intros [|z x] [|i] HL H1 H2; cbn [length nth_error combine map] in *; try discriminate; [injection H1 as ->; injection H2 as ->; reflexivity|]. apply IH; auto. Qed.
Lemma sum_moved t (c : R) (l : list (R * R)) : forall s, fold_left (fun s xy => s + fst xy) (map (fun xy => (c + t * fst xy, c + t * snd xy)) l) (t * s) = t * fold_left (fun s xy => s + fst xy) l s + INR (length l) * c.
Proof.
  assert (X : forall l s, fold_left (fun s (xy : R * R) => s + fst xy) l s = s + fold_right (fun xy s => fst xy + s) 0 l) by (induction l0 as [|p l0 IH]; intros s; cbn [fold_left fold_right]; [ring|rewrite IH; ring]).
  intros s. rewrite !X. replace (t * (s + fold_right (fun (xy : R * R) s => fst xy + s) 0 l)) with (t * s + t * fold_right (fun (xy : R * R) s => fst xy + s) 0 l) by ring.
  rewrite Rplus_assoc. f_equal. clear s. induction l as [|p l IH]; [cbn; ring|]. cbn [map fold_right fst]. rewrite IH. cbn [length]. rewrite S_INR. ring.
Qed.
Lemma squares_moved t (c : R) (l : list (R * R)) : forall s, fold_left (fun s xy => s + (fst xy - snd xy) * (fst xy - snd xy)) (map (fun xy => (c + t * fst xy, c + t * snd xy)) l) (t * t * s) = t * t * fold_left (fun s xy => s + (fst xy - snd xy) * (fst xy - snd xy)) l s.
Proof.
  induction l as [|p l IH]; intros s; cbn [map fold_left fst snd]; [reflexivity|]. rewrite <- IH. f_equal. ring.
Qed.
Lemma skipn_S {A} (l : list A) : forall i c al, skipn i l = c :: al -> skipn (S i) l = al.
Proof. induction l as [|x l IH]; intros [|i] c al H; cbn in *; try discriminate; [injection H as _ <-; destruct l; reflexivity|]. apply (IH i c al H). Qed.
Section EsMoved.
Context {rng dist : Type}.
Variables (nd_new : dist) (nd_draw : R -> R -> dist -> rng -> R * dist * rng) (eps : R) (bounds : list (R * R)) (lambda : nat) (mu : Z) (a : list R) (t : R) (sort : sorter) (better : R -> R -> bool) (offset offset_stdev : R)
  (component : comp numR -> R -> R -> comp numR) (z : dist -> rng -> R) (next : dist -> rng -> dist * rng).
Notation N := (length bounds).
Notation mv := (moved a t).
Notation bounds' := (moved_bounds a t bounds).
Notation keep := (fun x : R => x).
Notation state := (es_state numR rng).
(** The distribution draws mean + stdev * z. *)
Hypothesis HZ : forall m s d g, nd_draw m s d g = (m + s * z d g, fst (next d g), snd (next d g)).
Hypothesis Ha : length a = N.
Hypothesis Ht : 0 < t.
Definition es_carry (st : state) : state := @Build_es_state numR rng (mv (es_mean st)) (map (Rmult (t * t)) (es_var st)) (map (Rmult t) (es_mom st)) (es_rng st) (map mv (es_pop st)).
Definition es_dims (st : state) : Prop := length (es_mean st) = N /\ length (es_var st) = N /\ length (es_mom st) = N.

Lemma try_sample_moved c k m s lo hi : forall d g, @try_sample numR rng dist nd_draw k (c + t * m) (t * s) (c + t * lo) (c + t * hi) d g =
  (c + t * fst (@try_sample numR rng dist nd_draw k m s lo hi d g), snd (@try_sample numR rng dist nd_draw k m s lo hi d g)).
Proof using HZ Ht.
  induction k as [|k IH]; intros d g; cbn [try_sample]; rewrite !HZ.
  - cbn [fst snd]. f_equal. unfold clamped. cbn [numR nlt]. replace (c + t * m + t * s * z d g) with (c + t * (m + s * z d g)) by ring. rewrite !moved_ltb' by exact Ht.
    destruct (Rlt_bool hi _); [reflexivity|]. destruct (Rlt_bool _ lo); reflexivity.
  - cbn [numR nle]. replace (c + t * m + t * s * z d g) with (c + t * (m + s * z d g)) by ring. rewrite !moved_leb' by exact Ht. destruct (Rle_bool lo _ && Rle_bool _ hi); [reflexivity|]. apply IH.
Qed.
Lemma es_sqrt_moved v mo : sqrt (t * t * v + t * mo * (t * mo)) = t * sqrt (v + mo * mo).
Proof using Ht. replace (t * t * v + t * mo * (t * mo)) with (t * t * (v + mo * mo)) by ring. rewrite sqrt_mult_alt by nra. rewrite sqrt_square by lra. reflexivity. Qed.
Lemma components_moved (st : state) ofs : es_dims st -> forall (bs : list (R * R)) i g (x : list R) g', (i + length bs = N)%nat ->
  @sample_components numR rng dist nd_new nd_draw st ofs i bs g = Ok (x, g') ->
  @sample_components numR rng dist nd_new nd_draw (es_carry st) ofs i (moved_bounds (skipn i a) t bs) g = Ok (moved (skipn i a) t x, g') /\ length x = length bs.
Proof using HZ Ht Ha.
  intros (D1 & D2 & D3). induction bs as [|[lo hi] bs IH]; intros i g x g' Hi H; cbn [length] in Hi.
  - cbn [sample_components] in H. injection H as <- <-. assert (E : moved_bounds (skipn i a) t [] = []) by (unfold moved_bounds, moved; destruct (skipn i a); reflexivity). rewrite E. split; [|reflexivity]. cbn [sample_components]. f_equal. f_equal. unfold moved. destruct (skipn i a); reflexivity.
  - destruct (skipn i a) as [|c al] eqn:Es; [apply (f_equal (@length R)) in Es; rewrite skipn_length in Es; cbn in Es; lia|].
    assert (Hc : nth_error a i = Some c) by (rewrite <- (firstn_skipn i a), Es; rewrite nth_error_app2 by (rewrite firstn_length; lia); rewrite firstn_length; replace (i - Nat.min i (length a))%nat with 0%nat by lia; reflexivity).
    assert (Es' : skipn (S i) a = al) by (apply (skipn_S a i c al Es)).
    assert (EB : moved_bounds (c :: al) t ((lo, hi) :: bs) = (c + t * lo, c + t * hi) :: moved_bounds al t bs) by reflexivity. rewrite EB. clear EB.
    cbn [sample_components] in H |- *. cbn [es_carry es_mean es_var es_mom]. unfold get in *.
    destruct (nth_error (es_mean st) i) as [m|] eqn:E1; cbn [obind] in H; try discriminate. destruct (nth_error (es_var st) i) as [v|] eqn:E2; cbn [obind] in H; try discriminate. destruct (nth_error (es_mom st) i) as [mo|] eqn:E3; cbn [obind] in H; try discriminate.
    change (nT numR) with R in *.
    rewrite (get_moved a t (es_mean st) i m c) by (try assumption; lia). rewrite !nth_error_map, E2, E3. cbn [option_map obind fst snd].
    unfold sample_parameter in *. cbn [fst snd] in *. unfold sq in *. cbn [numR nadd nmul nsqrt] in *.
    rewrite es_sqrt_moved. replace (c + t * m + ofs * (t * mo)) with (c + t * (m + ofs * mo)) by ring. rewrite try_sample_moved.
    destruct (@try_sample numR rng dist nd_draw 100 (m + ofs * mo) (sqrt (v + mo * mo)) lo hi nd_new g) as [y g1]. cbn [fst snd].
    destruct (@sample_components numR rng dist nd_new nd_draw st ofs (S i) bs g1) as [[xs g2]| |] eqn:EX; cbn [obind] in H; try discriminate. injection H as <- <-.
    apply IH in EX as [EX1 EX2]; [|lia]. rewrite Es' in EX1. rewrite EX1. cbn [obind]. split; [reflexivity|]. cbn [length]. f_equal. exact EX2.
Qed.
Lemma es_individuals_moved (st : state) : es_dims st -> forall k d g pop g', @sample_individuals numR rng dist nd_new nd_draw keep bounds st offset offset_stdev k d g = Ok (pop, g') ->
  @sample_individuals numR rng dist nd_new nd_draw keep bounds' (es_carry st) offset offset_stdev k d g = Ok (map mv pop, g') /\ Forall (fun x => length x = N) pop /\ length pop = k.
Proof using HZ Ht Ha.
  intros HD. induction k as [|k IH]; intros d g pop g' H; cbn [sample_individuals] in *; [injection H as <- <-; auto|].
  destruct (nd_draw offset offset_stdev d g) as [[ofs d'] g1].
  destruct (@sample_components numR rng dist nd_new nd_draw st ofs 0 bounds g1) as [[x g2]| |] eqn:EX; cbn [obind] in H; try discriminate.
  apply (components_moved st ofs HD bounds 0) in EX as [EX1 EX2]; [|reflexivity]. cbn [skipn] in EX1. change (nT numR) with R in *. rewrite EX1. cbn [obind].
  destruct (@sample_individuals numR rng dist nd_new nd_draw keep bounds st offset offset_stdev k d' g2) as [[xs g3]| |] eqn:EI; cbn [obind] in H; try discriminate. injection H as <- <-.
  apply IH in EI as (EI1 & EI2 & EI3). rewrite EI1. cbn [obind map]. rewrite !map_id. split; [reflexivity|]. split; [constructor; [exact EX2|exact EI2]|cbn [length]; f_equal; exact EI3].
Qed.
Notation es_smp := (@es_sample numR rng dist nd_new nd_draw keep bounds lambda offset offset_stdev).
Notation es_smp' := (@es_sample numR rng dist nd_new nd_draw keep bounds' lambda offset offset_stdev).
Lemma es_sample_moved (st st1 : state) : es_dims st -> es_smp st = Ok st1 -> es_smp' (es_carry st) = Ok (es_carry st1) /\ es_dims st1 /\ Forall (fun x => length x = N) (es_pop st1) /\ length (es_pop st1) = lambda.
Proof using HZ Ht Ha.
  intros HD H. unfold es_sample in *. cbn [es_carry es_rng].
  destruct (@sample_individuals numR rng dist nd_new nd_draw keep bounds st offset offset_stdev lambda nd_new (es_rng st)) as [[pop g]| |] eqn:EI; cbn [obind] in H; try discriminate. injection H as <-.
  apply es_individuals_moved in EI as (EI1 & EI2 & EI3); [|exact HD]. fold (es_carry st). rewrite EI1. cbn [obind]. split; [reflexivity|]. split; [exact HD|]. auto.
Qed.
Hypothesis He : 0 <= eps.
Hypothesis Hmu : (0 < mu)%Z.
Hypothesis Hml : (Z.to_nat mu <= lambda)%nat.
Hypothesis HS : forall cmp n, Permutation.Permutation (sort cmp n) (seq 0 n).
Hypothesis HC : forall c m v mo mean var, component (@Build_comp numR (c + t * m) (t * t * v) (t * mo)) (c + t * mean) (t * t * var) =
  @Build_comp numR (c + t * k_mean (component (@Build_comp numR m v mo) mean var)) (t * t * k_var (component (@Build_comp numR m v mo) mean var)) (t * k_mom (component (@Build_comp numR m v mo) mean var)).

Lemma map2_moved (p m : list R) : length p = N -> length m = N -> map2 (fun x y => x - y) (mv p) (mv m) = map (Rmult t) (map2 (fun x y => x - y) p m).
Proof using Ha Hmu Hml.
  intros H1 H2. unfold map2, moved. rewrite <- Ha in H1, H2. clear Ha. revert p m H1 H2. induction a as [|c al IH]; intros [|x p] [|y m] H1 H2; cbn [length] in *; try lia; [reflexivity|]. cbn [combine map fst snd]. f_equal; [ring|]. apply IH; lia.
Qed.
Lemma nsum_scaled c (l : list R) : @nsum numR (map (Rmult c) l) = c * @nsum numR l.
Proof.
  unfold nsum. cbn [numR nadd nofZ]. assert (X : forall s, fold_left Rplus (map (Rmult c) l) (c * s) = c * fold_left Rplus l s); [|specialize (X 0); rewrite Rmult_0_r in X; exact X].
  induction l as [|x l IH]; intros s; cbn [map fold_left]; [reflexivity|]. rewrite <- Rmult_plus_distr_l. apply IH.
Qed.
Lemma products_scaled (x y : list R) : map2 (fun x y => x * y) (map (Rmult t) x) (map (Rmult t) y) = map (Rmult (t * t)) (map2 (fun x y => x * y) x y).
Proof. unfold map2. revert y. induction x as [|u x IH]; intros [|v y]; cbn [map combine fst snd]; [reflexivity..|]. f_equal; [ring|]. apply IH. Qed.
Lemma projected_moved (m mo p : list R) : length m = N -> length mo = N -> length p = N ->
  exists q, @projected numR eps m mo p = Ok q /\ @projected numR (t * t * eps) (mv m) (map (Rmult t) mo) (mv p) = Ok (mv q) /\ length q = N.
Proof using Ha Ht He Hmu Hml.
  intros H1 H2 H3. unfold projected, vec_sub, dot_product, vec_add, assert_, vec_mul. change (nT numR) with R in *. rewrite !moved_length by lia. rewrite !map_length. rewrite H1, H2, H3, !Nat.eqb_refl. cbn [obind].
  cbn [numR nsub nmul nadd nlt ndiv]. rewrite map2_moved by assumption.
  assert (L : length (map2 (fun x y : R => x - y) p m) = N) by (unfold map2; rewrite map_length, combine_length; lia).
  rewrite !map_length, L, Nat.eqb_refl. cbn [obind]. rewrite !products_scaled. rewrite !nsum_scaled.
  set (dot := @nsum numR (map2 (fun x y => x * y) mo mo) : R). set (d := @nsum numR (map2 (fun x y => x * y) (map2 (fun x y => x - y) p m) mo) : R). change (nT numR) with R in *.
  assert (EL : Rlt_bool (t * t * eps) (t * t * dot) = Rlt_bool eps dot) by (destruct (Rlt_bool_spec eps dot), (Rlt_bool_spec (t * t * eps) (t * t * dot)); try reflexivity; exfalso; assert (0 < t * t) by nra; nra).
  rewrite EL. destruct (Rlt_bool_spec eps dot) as [X|X]; [|exists m; auto]. rewrite !map_length, H2, Nat.eqb_refl. cbn [obind].
  eexists. split; [reflexivity|]. split; [|unfold map2; rewrite map_length, combine_length, map_length; lia]. f_equal.
  replace (t * t * d / (t * t * dot)) with (d / dot) by (field; split; lra). set (q := d / dot). clearbody q. clear - Ha H1 H2. unfold map2, moved. rewrite <- Ha in H1, H2. clear Ha. revert m mo H1 H2.
  induction a as [|c al IH]; intros [|x m] [|y mo] H1 H2; cbn [length] in *; try lia; [reflexivity|]. cbn [combine map fst snd]. f_equal; [ring|]. apply IH; lia.
Qed.
Lemma projections_moved (m mo : list R) (pop : list (list R)) : length m = N -> length mo = N -> Forall (fun x => length x = N) pop ->
  exists proj, for_each (fun p => @projected numR eps m mo p) pop = Ok proj /\ for_each (fun p => @projected numR (t * t * eps) (mv m) (map (Rmult t) mo) p) (map mv pop) = Ok (map mv proj) /\ Forall (fun x => length x = N) proj /\ length proj = length pop.
Proof using Ha Ht He Hmu Hml.
  intros H1 H2. induction pop as [|p pop IH]; intros HF; [exists []; cbn; auto|]. inversion_clear HF as [|? ? Hp HF']. destruct (IH HF') as (proj & A & B & C & D). destruct (projected_moved m mo p H1 H2 Hp) as (q & Q1 & Q2 & Q3).
  exists (q :: proj). cbn [for_each map]. change (nT numR) with R in *. rewrite Q1, Q2. cbn [obind]. rewrite A, B. cbn [obind]. split; [reflexivity|]. split; [reflexivity|]. split; [constructor; assumption|]. cbn [length]. f_equal. exact D.
Qed.
Lemma selected_moved order (pop proj : list (list R)) i c sel : nth_error a i = Some c -> Forall (fun x => length x = N) pop -> Forall (fun x => length x = N) proj ->
  @selected numR mu order pop proj i = Ok sel -> @selected numR mu order (map mv pop) (map mv proj) i = Ok (map (fun xy => (c + t * fst xy, c + t * snd xy)) sel).
Proof using Ha Hmu Hml.
  intros Hc H1 H2. unfold selected. destruct (mu <? 0)%Z; [discriminate|]. generalize (seq 0 (Z.to_nat mu)). intros l. revert sel. induction l as [|u l IH]; intros sel H; cbn [for_each] in *; [injection H as <-; reflexivity|].
  unfold get in *. destruct (nth_error order u) as [k|]; cbn [obind] in *; try discriminate. rewrite !nth_error_map. change (nT numR) with R in *.
  destruct (nth_error pop k) as [p|] eqn:Ep; cbn [obind option_map] in *; try discriminate. destruct (nth_error proj k) as [q|] eqn:Eq; cbn [obind option_map] in *; try discriminate.
  destruct (nth_error p i) as [x|] eqn:Ex; cbn [obind] in *; try discriminate. destruct (nth_error q i) as [y|] eqn:Ey; cbn [obind] in *; try discriminate.
  rewrite Forall_forall in H1, H2. apply nth_error_In in Ep, Eq. specialize (H1 p Ep). specialize (H2 q Eq).
  rewrite (get_moved a t p i x c) by (try assumption; lia). cbn [obind]. rewrite (get_moved a t q i y c) by (try assumption; lia). cbn [obind].
  match type of H with obind ?f _ = _ => destruct f as [r| |] eqn:ER end; cbn [obind] in H; try discriminate. injection H as <-. rewrite (IH r eq_refl). reflexivity.
Qed.
Lemma averages_moved c (sel : list (R * R)) : length sel = Z.to_nat mu ->
  @mean_of numR mu (map (fun xy => (c + t * fst xy, c + t * snd xy)) sel) = c + t * @mean_of numR mu sel /\
  @var_of numR mu (map (fun xy => (c + t * fst xy, c + t * snd xy)) sel) = t * t * @var_of numR mu sel.
Proof using Hmu Hml Ha.
  intros HL. unfold mean_of, var_of, sq. cbn [numR nadd nsub nmul ndiv nofZ]. change (nT numR) with R in *. assert (Hm : 0 < IZR mu) by (apply IZR_lt; lia).
  pose proof (sum_moved t c sel 0) as S1. pose proof (squares_moved t c sel 0) as S2. rewrite !Rmult_0_r in S1, S2. split.
  - rewrite S1, HL, INR_IZR_INZ, Z2Nat.id by lia. field. lra.
  - rewrite S2. field. lra.
Qed.
Notation es_upd := (@es_update numR rng eps bounds mu component).
Notation es_upd' := (@es_update numR rng (t * t * eps) bounds' mu component).
Lemma es_bounds_length : length bounds' = N.
Proof using Ha Hmu Hml. unfold moved_bounds. rewrite combine_length, !moved_length by (rewrite map_length; lia). rewrite !map_length. apply Nat.min_id. Qed.
Lemma nth_error_some_lt {A} (l : list A) i : (i < length l)%nat -> exists x, nth_error l i = Some x.
Proof. intros H. destruct (nth_error l i) eqn:E; [eauto|]. apply nth_error_None in E. lia. Qed.
Lemma es_update_moved (st st1 : state) order : es_dims st -> Forall (fun x => length x = N) (es_pop st) -> length (es_pop st) = lambda -> Permutation.Permutation order (seq 0 lambda) ->
  es_upd st order = Ok st1 -> es_upd' (es_carry st) order = Ok (es_carry st1) /\ es_dims st1.
Proof using Ha Ht He Hmu Hml HC.
  intros HD HP HL HO H. destruct HD as (D1 & D2 & D3). change (nT numR) with R in *.
  destruct (projections_moved (es_mean st) (es_mom st) (es_pop st) D1 D3 HP) as (proj & P1 & P2 & P3 & P4).
  assert (HB : length bounds' = N) by exact es_bounds_length.
  destruct (@es_update_defined numR rng (t * t * eps) bounds' mu component (es_carry st) order) as (st2 & U1 & (U2 & U3 & U4) & U5).
  { unfold dims. cbn [es_carry es_mean es_var es_mom]. change (nT numR) with R in *. rewrite moved_length, !map_length, HB by lia. auto. }
  { cbn [es_carry es_pop]. apply Forall_forall. intros x Hx. apply in_map_iff in Hx as (y & <- & Hy). rewrite Forall_forall in HP. specialize (HP y Hy). change (nT numR) with R in *. rewrite moved_length by lia. rewrite HB. exact HP. }
  { lia. }
  { apply Permutation.Permutation_length in HO. rewrite seq_length in HO. lia. }
  { cbn [es_carry es_pop]. apply Forall_forall. intros k Hk. apply (Permutation.Permutation_in _ HO) in Hk. apply in_seq in Hk. rewrite map_length. change (nT numR) with R in *. lia. }
  pose proof (@es_update_dims numR rng eps bounds mu component st order st1 H) as (V2 & V3 & V4). change (nT numR) with R in *.
  split; [|unfold es_dims; auto]. transitivity (@Ok state st2); [exact U1|]. f_equal.
  apply (@es_update_components numR) in U1 as (proj2 & A1 & A2 & A3 & A4). apply (@es_update_components numR) in H as (proj1 & B1 & B2 & B3 & B4).
  assert (proj1 = proj) as -> by (injection (eq_trans (eq_sym B1) P1); auto). assert (proj2 = map mv proj) as -> by (injection (eq_trans (eq_sym A1) P2); auto).
  assert (HI : forall i, (i < N)%nat -> exists c m v mo, nth_error a i = Some c /\ nth_error (es_mean st1) i = Some m /\ nth_error (es_var st1) i = Some v /\ nth_error (es_mom st1) i = Some mo /\
     nth_error (es_mean st2) i = Some (c + t * m) /\ nth_error (es_var st2) i = Some (t * t * v) /\ nth_error (es_mom st2) i = Some (t * mo)).
  { intros i Hi. destruct (A4 i) as (sel2 & m2 & v2 & mo2 & S2 & E1 & E2 & E3 & E4 & E5 & E6); [change (nT numR) with R in *; lia|]. destruct (B4 i Hi) as (sel & m & v & mo & S1 & F1 & F2 & F3 & F4 & F5 & F6). change (nT numR) with R in *.
    destruct (nth_error_some_lt a i ltac:(lia)) as (c & Hc). cbn [es_carry es_mean es_var es_mom] in E1, E2, E3. change (nT numR) with R in *.
    rewrite (get_moved a t (es_mean st) i m c) in E1 by (try assumption; lia). rewrite nth_error_map, F2 in E2. rewrite nth_error_map, F3 in E3. cbn [option_map] in E2, E3. injection E1 as <-. injection E2 as <-. injection E3 as <-.
    pose proof (selected_moved order (es_pop st) proj i c sel Hc HP P3 S1) as S1'. cbn [es_carry es_pop] in S2. assert (sel2 = map (fun xy => (c + t * fst xy, c + t * snd xy)) sel) as -> by (injection (eq_trans (eq_sym S2) S1'); auto).
    apply (@selected_in numR) in S1 as [LS _]. destruct (averages_moved c sel LS) as [M1 M2].
    set (mean := @mean_of numR mu sel : R) in *. set (var := @var_of numR mu sel : R) in *.
    assert (EQ : component (@Build_comp numR (c + t * m) (t * t * v) (t * mo)) (@mean_of numR mu (map (fun xy => (c + t * fst xy, c + t * snd xy)) sel)) (@var_of numR mu (map (fun xy => (c + t * fst xy, c + t * snd xy)) sel)) =
       @Build_comp numR (c + t * k_mean (component (@Build_comp numR m v mo) mean var)) (t * t * k_var (component (@Build_comp numR m v mo) mean var)) (t * k_mom (component (@Build_comp numR m v mo) mean var))).
    { transitivity (component (@Build_comp numR (c + t * m) (t * t * v) (t * mo)) (c + t * mean) (t * t * var)); [f_equal; [exact M1|exact M2]|apply HC]. }
    exists c, (k_mean (component (@Build_comp numR m v mo) mean var)), (k_var (component (@Build_comp numR m v mo) mean var)), (k_mom (component (@Build_comp numR m v mo) mean var)).
    split; [exact Hc|]. split; [exact F4|]. split; [exact F5|]. split; [exact F6|].
    split; [exact (eq_trans E4 (f_equal (fun q => Some (k_mean q)) EQ))|]. split; [exact (eq_trans E5 (f_equal (fun q => Some (k_var q)) EQ))|exact (eq_trans E6 (f_equal (fun q => Some (k_mom q)) EQ))]. }
  destruct st2 as [mean2 var2 mom2 rng2 pop2]. unfold es_carry. cbn [es_mean es_var es_mom es_rng es_pop] in *. change (nT numR) with R in *.
  rewrite A2, A3, B2, B3. f_equal.
  - apply nth_error_ext'; [rewrite moved_length by lia; lia|]. intros i Hi. destruct (HI i ltac:(lia)) as (c & m & v & mo & I0 & I1 & I2 & I3 & I4 & I5 & I6). transitivity (Some (c + t * m)); [exact I4|]. symmetry. apply get_moved; try assumption. lia.
  - apply nth_error_ext'; [rewrite map_length; lia|]. intros i Hi. destruct (HI i ltac:(lia)) as (c & m & v & mo & I0 & I1 & I2 & I3 & I4 & I5 & I6). transitivity (Some (t * t * v)); [exact I5|]. rewrite nth_error_map, I2. reflexivity.
  - apply nth_error_ext'; [rewrite map_length; lia|]. intros i Hi. destruct (HI i ltac:(lia)) as (c & m & v & mo & I0 & I1 & I2 & I3 & I4 & I5 & I6). transitivity (Some (t * mo)); [exact I6|]. rewrite nth_error_map, I3. reflexivity.
Qed.
End EsMoved.
Section EsSearched.
Context {rng dist : Type}.
Variables (nd_new : dist) (nd_draw : R -> R -> dist -> rng -> R * dist * rng) (sort : sorter) (better : R -> R -> bool) (offset offset_stdev : R) (lambda : nat) (mu : Z) (component : comp numR -> R -> R -> comp numR).
(** [k] steps of an optimizer of this kind: sampling, evaluating, and updating with the points sorted by fitness. *)
Definition es_searched (eps : R) (bounds pars : list (R * R)) (g : rng) (f : list R -> R) (k : nat) : outcome (list (list (list R)) * es_state numR rng) :=
  searched (@es_sample numR rng dist nd_new nd_draw (fun x : R => x) bounds lambda offset offset_stdev) es_pop
    (fun st fits => @es_update numR rng eps bounds mu component st (sorted_indices sort better fits)) f k (@es_init numR rng (fun x : R => x) lambda pars g).
End EsSearched.
Lemma es_searched_moved rng dist (nd_new : dist) (nd_draw : R -> R -> dist -> rng -> R * dist * rng) sort better (offset offset_stdev : R) lambda mu (component : comp numR -> R -> R -> comp numR) z next (eps : R) (bounds : list (R * R)) (a : list R) (t : R) (pars : list (R * R)) g f f' k pops st :
  (forall m s d g, nd_draw m s d g = (m + s * z d g, fst (next d g), snd (next d g))) -> length a = length bounds -> 0 < t -> 0 <= eps -> (0 < mu)%Z -> (Z.to_nat mu <= lambda)%nat ->
  (forall cmp n, Permutation.Permutation (sort cmp n) (seq 0 n)) ->
  (forall c m v mo mean var, component (@Build_comp numR (c + t * m) (t * t * v) (t * mo)) (c + t * mean) (t * t * var) =
    @Build_comp numR (c + t * k_mean (component (@Build_comp numR m v mo) mean var)) (t * t * k_var (component (@Build_comp numR m v mo) mean var)) (t * k_mom (component (@Build_comp numR m v mo) mean var))) ->
  length pars = length bounds -> (forall x, length x = length bounds -> f' (moved a t x) = f x) ->
  es_searched nd_new nd_draw sort better offset offset_stdev lambda mu component eps bounds pars g f k = Ok (pops, st) ->
  es_searched nd_new nd_draw sort better offset offset_stdev lambda mu component (t * t * eps) (moved_bounds a t bounds) (moved_pars a t pars) g f' k = Ok (map (map (moved a t)) pops, es_carry a t st).
Proof.
  intros HZ Ha Ht He Hmu Hml HS HC HL Hf. unfold es_searched.
  assert (HI : @es_init numR rng (fun x : R => x) lambda (moved_pars a t pars) g = es_carry a t (@es_init numR rng (fun x : R => x) lambda pars g)).
  { unfold es_init, es_carry. cbn [es_mean es_var es_mom es_rng es_pop]. change (nT numR) with R in *.
    assert (M1 : map fst (moved_pars a t pars) = moved a t (map fst pars)) by (apply map_fst_combine; rewrite moved_length by (rewrite map_length; lia); rewrite !map_length; lia).
    assert (M2 : map snd (moved_pars a t pars) = map (Rmult t) (map snd pars)) by (apply map_snd_combine; rewrite moved_length by (rewrite map_length; lia); rewrite !map_length; lia).
    f_equal.
    - exact M1.
    - transitivity (map (@sq numR) (map snd (moved_pars a t pars))); [rewrite map_map; reflexivity|]. rewrite M2, !map_map. apply map_ext. intros p. unfold sq. cbn [numR nmul]. ring.
    - transitivity (map (fun _ : R => 0) (map snd (moved_pars a t pars))); [rewrite map_map; reflexivity|]. rewrite M2, !map_map. apply map_ext. intros p. cbn [numR nofZ]. ring.
    - assert (E1 : forall l : list (R * R), map (fun p => fst p) l = map fst l) by reflexivity. etransitivity; [apply (f_equal (fun l => repeat l lambda)); exact (eq_trans (E1 (moved_pars a t pars)) M1)|].
      clear. induction lambda as [|k IH]; [reflexivity|]. cbn [repeat map]. f_equal. exact IH. }
  rewrite HI. assert (HD : es_dims (rng := rng) bounds (@es_init numR rng (fun x : R => x) lambda pars g)) by (unfold es_dims, es_init; cbn [es_mean es_var es_mom]; rewrite !map_length; auto).
  revert pops st HD. generalize (@es_init numR rng (fun x : R => x) lambda pars g). clear HI. induction k as [|k IH]; intros st0 pops st HD H; cbn [searched] in *; [injection H as <- <-; reflexivity|].
  destruct (@es_sample numR rng dist nd_new nd_draw (fun x : R => x) bounds lambda offset offset_stdev st0) as [st1| |] eqn:E1; cbn [obind] in H; try discriminate.
  destruct (es_sample_moved nd_new nd_draw bounds lambda a t offset offset_stdev z next HZ Ha Ht st0 st1 HD E1) as (S1 & S2 & S3 & S4). rewrite S1. cbn [obind].
  assert (EF : map f' (es_pop (es_carry a t st1)) = map f (es_pop st1)).
  { cbn [es_carry es_pop]. rewrite map_map. apply map_ext_in. intros x Hx. apply Hf. rewrite Forall_forall in S3. exact (S3 x Hx). }
  rewrite EF. destruct (@es_update numR rng eps bounds mu component st1 (sorted_indices sort better (map f (es_pop st1)))) as [st2| |] eqn:E2; cbn [obind] in H; try discriminate.
  destruct (es_update_moved eps bounds lambda mu a t component Ha Ht He Hmu Hml HC st1 st2 (sorted_indices sort better (map f (es_pop st1))) S2 S3 S4) as [U1 U2]; [|exact E2|].
  { unfold sorted_indices. rewrite map_length. assert (S5 : length (es_pop st1) = lambda) by exact S4. clear S4. refine (eq_ind (length (es_pop st1)) (fun n => Permutation.Permutation _ (seq 0 n)) _ lambda S5). apply HS. }
  rewrite U1. cbn [obind].
  match type of H with obind ?r _ = _ => destruct r as [[pops2 st3]| |] eqn:E3 end; cbn [obind fst snd] in H; try discriminate. injection H as <- <-.
  apply IH in E3; [|exact U2]. rewrite E3. reflexivity.
Qed.
(** What is random in std::normal_distribution does not depend on its parameters. *)
Definition location_scale {rng dist : Type} (nd_draw : R -> R -> dist -> rng -> R * dist * rng) : Prop :=
  exists z next, forall m s d g, nd_draw m s d g = (m + s * z d g, fst (next d g), snd (next d g)).
(** The statement for an optimizer with sampling and update as in mes_optimizer and eva_optimizer.  The threshold
    below which the momentum counts as zero is a squared length: for another unit (t <> 1) it has to be scaled,
    for another origin (t = 1) it is the same. *)
Definition origin_and_unit (component : comp numR -> R -> R -> comp numR) : Prop :=
  forall rng dist (nd_new : dist) (nd_draw : R -> R -> dist -> rng -> R * dist * rng) sort better (offset offset_stdev : R) lambda mu (eps eps' : R) (bounds : list (R * R)) (a : list R) (t : R) (pars : list (R * R)) g f f' k pops st,
  location_scale nd_draw -> (forall cmp n, Permutation.Permutation (sort cmp n) (seq 0 n)) -> (0 < mu)%Z -> (Z.to_nat mu <= lambda)%nat -> 0 <= eps ->
  length a = length bounds -> length pars = length bounds -> 0 < t -> eps' = t * t * eps ->
  (forall x, length x = length bounds -> f' (moved a t x) = f x) ->
  es_searched nd_new nd_draw sort better offset offset_stdev lambda mu component eps bounds pars g f k = Ok (pops, st) ->
  exists st', es_searched nd_new nd_draw sort better offset offset_stdev lambda mu component eps' (moved_bounds a t bounds) (moved_pars a t pars) g f' k = Ok (map (map (moved a t)) pops, st') /\
    es_mean st' = moved a t (es_mean st) /\ es_std st' = map (Rmult t) (es_std st) /\ es_mom st' = map (Rmult t) (es_mom st).
Lemma std_scaled t (l : list R) : 0 < t -> map (fun v => sqrt v) (map (Rmult (t * t)) l) = map (Rmult t) (map (fun v => sqrt v) l).
Proof. intros Ht. rewrite !map_map. apply map_ext. intros v. rewrite sqrt_mult_alt by nra. rewrite sqrt_square by lra. reflexivity. Qed.
Lemma upd_moved (v nv rate c t : R) : @upd numR (c + t * v) (c + t * nv) rate = c + t * @upd numR v nv rate.
Proof. unfold upd. cbn [numR nadd nsub nmul nofZ]. change (nT numR) with R. ring. Qed.
Lemma upd_scaled (v nv rate t : R) : @upd numR (t * v) (t * nv) rate = t * @upd numR v nv rate.
Proof. unfold upd. cbn [numR nadd nsub nmul nofZ]. change (nT numR) with R. ring. Qed.
Theorem C70_mes_origin_and_unit : forall mean_sigma var_sigma mom_sigma, origin_and_unit (@mes_component numR mean_sigma var_sigma mom_sigma).
Proof.
  intros ms vs os rng dist nd_new nd_draw sort better offset offset_stdev lambda mu eps eps' bounds a t pars g f f' k pops st (z & next & HZ) HS Hmu Hml He Ha HL Ht -> Hf H.
  exists (es_carry a t st). split; [|split; [reflexivity|split; [apply std_scaled; exact Ht|reflexivity]]]. apply (es_searched_moved rng dist nd_new nd_draw sort better offset offset_stdev lambda mu _ z next eps bounds a t pars g f f' k pops st); try assumption.
  intros c m v mo mean var. unfold mes_component. cbn [k_mean k_var k_mom]. cbn [numR nlt nofZ nsub nadd nmul]. change (nT numR) with R in *. destruct (Rlt_bool 0 os); cbn [k_mean k_var k_mom].
  - replace (c + t * mean - (c + t * m)) with (t * (mean - m)) by ring. rewrite !upd_scaled. f_equal. ring.
  - rewrite upd_moved, upd_scaled. reflexivity.
Qed.
Theorem C70_eva_origin_and_unit : forall step_size var_update ev_update, origin_and_unit (@eva_component numR step_size var_update ev_update).
Proof.
  intros ss vs os rng dist nd_new nd_draw sort better offset offset_stdev lambda mu eps eps' bounds a t pars g f f' k pops st (z & next & HZ) HS Hmu Hml He Ha HL Ht -> Hf H.
  exists (es_carry a t st). split; [|split; [reflexivity|split; [apply std_scaled; exact Ht|reflexivity]]]. apply (es_searched_moved rng dist nd_new nd_draw sort better offset offset_stdev lambda mu _ z next eps bounds a t pars g f f' k pops st); try assumption.
  intros c m v mo mean var. unfold eva_component. cbn [k_mean k_var k_mom]. cbn [numR nlt nofZ nsub nadd nmul]. change (nT numR) with R in *.
  replace (c + t * mean - (c + t * m)) with (t * (mean - m)) by ring. rewrite !upd_scaled. f_equal. ring.
Qed.

(** ** The hypotheses are met: searches of any length exist. *)
Theorem C70_cma_nonvacuous : forall (f : list R -> R) k, exists P pops st, Properties_Cma2.default_par (fun x => x) 4 0 P /\ p_N P = 1%nat /\
  @eigen_sized numR Properties_Cma2.eigen1 P /\ @transform_sized numR (fun v => Ok v) P /\
  searched (@cma_sample numR R (fun g => Ok (g, g + 1)) Properties_Cma2.eigen1 (fun x : R => x) [(-5, 5)] (fun v => Ok v) P) s_bounded (@cma_update numR R (fun _ _ => 0) P) f k
    (@cma_init numR R (fun x : R => x) P [(0, 2)] 1) = Ok (pops, st) /\ length pops = k.
Proof.
  intros f k. destruct (C42_parameters (fun x => x) 1 4 0 ltac:(lia)) as (P & E & EN & EL). exists P. destruct EL as (_ & _ & _ & EL & _). specialize (EL ltac:(lia)). assert (HL : p_lambda P = 4%nat) by lia.
  assert (HES : @eigen_sized numR Properties_Cma2.eigen1 P). { intros C d Q _ [= <- <-]. rewrite EN. split; [reflexivity|]. split; [rewrite EN; reflexivity|]. rewrite EN. repeat constructor. }
  assert (HTS : @transform_sized numR (fun v => Ok v) P) by (intros v w Hv [= <-]; exact Hv).
  assert (X : forall st, @cma_sized numR R P st -> exists pops st', searched (@cma_sample numR R (fun g => Ok (g, g + 1)) Properties_Cma2.eigen1 (fun x : R => x) [(-5, 5)] (fun v => Ok v) P) s_bounded (@cma_update numR R (fun _ _ => 0) P) f k st = Ok (pops, st') /\ length pops = k).
  { induction k as [|k IH]; intros st HS; cbn [searched]; [exists [], st; auto|].
    destruct (@sample_defined numR R (fun g => Ok (g, g + 1)) Properties_Cma2.eigen1 (fun x : R => x) [(-5, 5)] (fun v => Ok v) P st) as (st1 & E1); try assumption; [rewrite EN; lia|eauto|intros; unfold Properties_Cma2.eigen1; eauto|eauto|].
    rewrite E1. cbn [obind]. pose proof (@sample_sized numR R _ _ _ _ _ P st st1 HES HTS HS E1) as S1. apply (@sample_spec numR) in E1 as (st0 & rows & _ & _ & _ & _ & _ & _ & _ & _ & _ & Ep & _).
    assert (E2 : exists st2, @cma_update numR R (fun _ _ => 0) P st1 (map f (s_bounded st1)) = Ok st2).
    { unfold cma_update. rewrite Ep. assert (Nat.eqb (length (A := nT numR) (map f (s_bounded st1))) (p_lambda P) = true) as ->; [|cbn [negb]; eauto]. apply Nat.eqb_eq. rewrite map_length. apply S1. }
    destruct E2 as (st2 & E2). rewrite E2. cbn [obind]. destruct (IH st2 (@update_sized numR R _ P st1 _ st2 S1 E2)) as (pops & st' & -> & HP). cbn [obind fst snd]. exists (s_bounded st1 :: pops), st'. split; [reflexivity|]. cbn [length]. f_equal. exact HP. }
  destruct (X (@cma_init numR R (fun x : R => x) P [(0, 2)] 1)) as (pops & st & HR & HP); [apply (@init_sized numR); rewrite EN; reflexivity|].
  exists pops, st. split; [split; [lia|rewrite EN; exact E]|]. auto.
Qed.
Theorem C70_es_nonvacuous : forall component (f : list R -> R) k, let draw := fun (m s : R) (d : unit) (g : R) => (m + s * g, d, g + 1) in
  location_scale draw /\ exists pops st,
  es_searched tt draw (fun _ n => seq 0 n) (fun _ _ => true) 1 1 4 2 component 0 [(-5, 5)] [(0, 2)] 1 f k = Ok (pops, st) /\ length pops = k.
Proof.
  intros component f k draw. split; [exists (fun _ g => g), (fun d g => (d, g + 1)); reflexivity|]. unfold es_searched.
  assert (HD : @dims numR R [(-5, 5)] (@es_init numR R (fun x : R => x) 4 [(0, 2)] 1)) by (unfold dims, es_init; cbn; auto).
  revert HD. generalize (@es_init numR R (fun x : R => x) 4 [(0, 2)] 1). induction k as [|k IH]; intros st HD; cbn [searched]; [exists [], st; auto|].
  destruct (@es_sample_defined numR R unit tt draw (fun x : R => x) [(-5, 5)] 4 1 1 st HD) as (st1 & E1 & D1). rewrite E1. cbn [obind].
  apply (@es_sample_spec numR) in E1 as (_ & _ & _ & L & F).
  destruct (@es_update_defined numR R 0 [(-5, 5)] 2 component st1 (sorted_indices (fun _ n => seq 0 n) (fun _ _ : R => true) (map f (es_pop st1)))) as (st2 & E2 & D2 & _); try assumption.
  - eapply Forall_impl; [|exact F]. intros p (y & -> & Hy). rewrite map_length. clear - Hy. induction Hy as [|b v bs y _ _ IH]; [reflexivity|]. cbn [length]. f_equal. exact IH.
  - lia.
  - unfold sorted_indices. rewrite seq_length, map_length. change (nT numR) with R in *. rewrite L. change (Z.to_nat 2) with 2%nat. lia.
  - unfold sorted_indices. rewrite map_length. apply Forall_forall. intros i Hi. apply in_seq in Hi. exact (proj2 Hi).
  - rewrite E2. cbn [obind]. destruct (IH st2 D2) as (pops & st' & -> & HP). cbn [obind fst snd]. exists (es_pop st1 :: pops), st'. split; [reflexivity|]. cbn [length]. f_equal. exact HP.
Qed.
Print Assumptions C70_cma_origin_and_unit.
Print Assumptions C70_transformers_move.
Print Assumptions C70_cmaes_transformer_moves_refuted.
Print Assumptions C70_mes_origin_and_unit.
Print Assumptions C70_eva_origin_and_unit.
Print Assumptions C70_cma_nonvacuous.
Print Assumptions C70_es_nonvacuous.
