(** C74: how the random numbers are used: rejection sampling, every number once, in order. *)
From Coq Require Import ZArith Bool Lia.
From Verif Require Import Prelude Flt FltFacts Round8 FlatMap ParInfo ObjInfo Num MathTools Cma CmaFacts Properties_Cma Mes MesF CmaRandom CmaF Optimizer Driver Duality Boundary Properties_ES4 Properties_Cma3 Properties_Optimizer4 Properties_Optimizer.
Open Scope nat_scope.

(** ** Specification *)
(** [zs] are the next numbers of a source in state [g], which [g'] is the state after. *)
Inductive takes {K : Num} {G : Type} (gauss : G -> outcome (K * G)) : G -> list K -> G -> Prop :=
| takes_none g : takes gauss g [] g
| takes_next g z g1 zs g' : gauss g = Ok (z, g1) -> takes gauss g1 zs g' -> takes gauss g (z :: zs) g'.
(** No component lies above its upper or below its lower bound. *)
Definition inside {K : Num} (bounds : list (K * K)) (v : list K) : Prop :=
  forall i b x, nth_error bounds i = Some b -> nth_error v i = Some x -> nlt (snd b) x = false /\ nlt x (fst b) = false.
(** Moved to the nearest bound, component by component, where it lies outside. *)
Definition clamped_to {K : Num} (b : K * K) (x y : K) : Prop :=
  (nle (fst b) x = true /\ nle x (snd b) = true /\ y = x) \/
  (~ (nle (fst b) x = true /\ nle x (snd b) = true) /\
    ((nlt (snd b) x = true /\ y = snd b) \/ (nlt (snd b) x = false /\ nlt x (fst b) = true /\ y = fst b) \/ (nlt (snd b) x = false /\ nlt x (fst b) = false /\ y = x))).
Definition moved_inside {K : Num} (bounds : list (K * K)) (v w : list K) : Prop :=
  length w = length v /\
  forall i b x, nth_error bounds i = Some b -> nth_error v i = Some x -> exists y, nth_error w i = Some y /\ clamped_to b x y.
(** One candidate: mean + sigma * B (D z), from [n] numbers z. *)
Definition candidate {K : Num} (n : nat) (mean : list K) (sigma : K) (B : list (list K)) (D z v : list K) : Prop :=
  length v = n /\ forall i, i < n ->
    nth i v (nofZ 0) = nadd (nth i mean (nofZ 0))
      (nmul sigma (fold_left (fun s j => nadd s (nmul (nth j (nth i B []) (nofZ 0)) (nmul (nth j D (nofZ 0)) (nth j z (nofZ 0))))) (seq 0 n) (nofZ 0))).
(** The same for B = 1, as computed in the first generation: mean + (sigma * D) z. *)
Definition first_candidate {K : Num} (n : nat) (mean : list K) (sigma : K) (D z v : list K) : Prop :=
  length v = n /\ forall i, i < n ->
    nth i v (nofZ 0) = nadd (nth i mean (nofZ 0)) (nmul (nmul sigma (nth i D (nofZ 0))) (nth i z (nofZ 0))).
(** The candidates are looked at one after the other, at most 100 of them: the first one whose transformed point is inside is
    taken ([row] is the candidate, [x] the transformed point, rounded); if none is, candidate number 101 is moved inside. *)
Definition chosen {K : Num} (bounds : list (K * K)) (transform : list K -> outcome (list K)) (round : K -> K) (cands : list (list K)) (row x : list K) : Prop :=
  exists rejected last, cands = rejected ++ [last] /\
    Forall (fun c => exists y, transform c = Ok y /\ ~ inside bounds y) rejected /\
    ((length rejected < 100 /\ row = last /\ exists y, transform last = Ok y /\ inside bounds y /\ x = map round y) \/
     (length rejected = 100 /\ moved_inside bounds last row /\ x = map round row)).

(** ** Proofs *)
Section Cma.
Context {K : Num} {G : Type}.
Variables (gauss : G -> outcome (K * G)) (eigen : list (list K) -> outcome (list K * list (list K))) (cpow : K -> K -> K) (round : K -> K) (bounds : list (K * K)) (transform : list K -> outcome (list K)) (P : cma_par K).

Lemma takes_app g a g1 b g2 : takes gauss g a g1 -> takes gauss g1 b g2 -> takes gauss g (a ++ b) g2.
Proof. induction 1 as [|g z g1 zs g' H _ IH]; intros H2; cbn [app]; [exact H2|]. econstructor; [exact H|auto]. Qed.
Lemma draws_takes n : forall g z g', draws gauss n g = Ok (z, g') -> takes gauss g z g' /\ length z = n.
Proof.
  induction n as [|n IH]; intros g z g'; cbn [draws]; [intros [= <- <-]; split; [constructor|reflexivity]|].
  destruct (gauss g) as [[x g1]| |] eqn:E; cbn [obind]; try discriminate. destruct (draws gauss n g1) as [[zs g2]| |] eqn:E2; cbn [obind]; try discriminate.
  intros [= <- <-]. destruct (IH _ _ _ E2) as [H L]. split; [econstructor; eassumption|cbn; congruence].
Qed.
Lemma feasible_inside : forall (v : list K) (bs : list (K * K)), feasible bs v = true <-> @inside K bs v.
Proof.
  induction v as [|x v IH]; intros [|b bs]; cbn [feasible].
  - split; [intros _ [|i] ? ? H; discriminate H|reflexivity].
  - split; [intros _ [|i] ? ? _ H; discriminate H|reflexivity].
  - split; [intros _ [|i] ? ? H; discriminate H|reflexivity].
  - split.
    + intros H. destruct (nlt (snd b) x) eqn:E1; [discriminate H|]. destruct (nlt x (fst b)) eqn:E2; [discriminate H|]. cbn [orb] in H. apply IH in H.
      intros [|i] b' x' A B; [injection A as <-; injection B as <-; auto|exact (H i b' x' A B)].
    + intros H. destruct (H 0 b x eq_refl eq_refl) as [-> ->]. cbn [orb]. apply IH. intros i. exact (H (S i)).
Qed.
Lemma clamp_moved : forall (v : list K) (bs : list (K * K)), @moved_inside K bs v (clamp_all bs v).
Proof.
  induction v as [|x v IH]; intros [|b bs]; cbn [clamp_all]; try (split; [reflexivity|intros [|i] ? ? A B; discriminate]).
  destruct (IH bs) as [L H]. split; [cbn; congruence|]. intros [|i] b' x' A B; cbn [nth_error] in *; [|exact (H i b' x' A B)].
  injection A as <-. injection B as <-. eexists. split; [reflexivity|]. unfold clamped_to.
  destruct (nle (fst b) x), (nle x (snd b)); cbn [andb negb]; [left; auto| | |]; right; (split; [intros [? ?]; discriminate|]); destruct (nlt (snd b) x); auto; destruct (nlt x (fst b)); auto.
Qed.
Lemma mutant_candidate (st : cma_state K G) z : candidate (p_N P) (s_mean st) (s_sigma st) (s_B st) (s_D st) z (mutant P st false z).
Proof.
  unfold mutant. split; [apply build_length|]. intros i Hi. 

  match goal with |- ?a = _ => change a with (at_ (build (p_N P) (fun i => nadd (at_ (s_mean st) i) (nmul (s_sigma st) (sum_ (p_N P) (fun j => nmul (at_ (row_ (s_B st) i) j) (at_ (build (p_N P) (fun i => nmul (at_ (s_D st) i) (at_ z i))) j)))))) i) end.
  rewrite at_build by exact Hi. f_equal. f_equal.
  transitivity (sum_ (p_N P) (fun j => nmul (at_ (row_ (s_B st) i) j) (nmul (at_ (s_D st) j) (at_ z j)))); [|reflexivity].
  apply sum_ext. intros j Hj. now rewrite at_build by exact Hj.
Qed.
Lemma mutant_first (st : cma_state K G) z : first_candidate (p_N P) (s_mean st) (s_sigma st) (s_D st) z (mutant P st true z).
Proof.
  unfold mutant. split; [apply build_length|]. intros i Hi.
  match goal with |- nth i ?l _ = _ => change (nth i l (nofZ 0)) with (at_ l i) end. now rewrite at_build by exact Hi.
Qed.
Lemma mutants_takes (st : cma_state K G) diag n : forall g rows g', mutants gauss P st diag n g = Ok (rows, g') ->
  exists firsts, takes gauss g (concat firsts) g' /\ length firsts = n /\ Forall (fun z => length z = p_N P) firsts /\ rows = map (mutant P st diag) firsts.
Proof.
  induction n as [|n IH]; intros g rows g'; cbn [mutants]; [intros [= <- <-]; exists []; split; [constructor|]; split; [reflexivity|split; [constructor|reflexivity]]|].
  destruct (draws gauss (p_N P) g) as [[z g1]| |] eqn:E; cbn [obind]; try discriminate. destruct (mutants gauss P st diag n g1) as [[rs g2]| |] eqn:E2; cbn [obind]; try discriminate.
  intros [= <- <-]. destruct (IH _ _ _ E2) as (firsts & H1 & H2 & H3 & ->). apply draws_takes in E as [T L]. exists (z :: firsts). split; [cbn [concat]; eapply takes_app; eassumption|].
  split; [cbn; congruence|]. split; [constructor; assumption|reflexivity].
Qed.
Lemma attempts_takes (st : cma_state K G) n : forall row g row' ind found g', attempts gauss bounds transform P st n row row g = Ok (row', ind, found, g') ->
  exists zs rejected last, takes gauss g (concat zs) g' /\ Forall (fun z => length z = p_N P) zs /\
    row :: map (mutant P st false) zs = rejected ++ [last] /\ Forall (fun c => exists y, transform c = Ok y /\ ~ inside bounds y) rejected /\ row' = last /\
    (if found then length rejected < n /\ transform last = Ok ind /\ inside bounds ind else length rejected = n /\ ind = last).
Proof.
  induction n as [|n IH]; intros row g row' ind found g'; cbn [attempts].
  { intros [= <- <- <- <-]. exists [], [], row. split; [constructor|]. split; [constructor|]. split; [reflexivity|]. split; [constructor|]. split; [reflexivity|]. split; reflexivity. }
  destruct (transform row) as [y| |] eqn:ET; cbn [obind]; try discriminate. destruct (feasible bounds y) eqn:EF.
  { intros [= <- <- <- <-]. exists [], [], row. split; [constructor|]. split; [constructor|]. split; [reflexivity|]. split; [constructor|]. split; [reflexivity|].
    split; [cbn; lia|]. split; [exact ET|]. now apply feasible_inside. }
  destruct (draws gauss (p_N P) g) as [[z g1]| |] eqn:ED; cbn [obind]; try discriminate. intros H.
  apply IH in H as (zs & rejected & last & T & L & E & R & E' & F). apply draws_takes in ED as [T0 L0].
  exists (z :: zs), (row :: rejected), last. split; [cbn [concat]; eapply takes_app; eassumption|]. split; [constructor; assumption|]. split; [cbn [map app]; now rewrite E|].
  split; [constructor; [|exact R]; exists y; split; [exact ET|]; intros X; apply feasible_inside in X; congruence|]. split; [exact E'|].
  destruct found; destruct F as (F1 & F2); (split; [cbn [length]; lia|exact F2]).
Qed.
Lemma individuals_takes (st : cma_state K G) : forall rows g rows' inds g', individuals gauss round bounds transform P st rows g = Ok (rows', inds, g') ->
  exists retries, takes gauss g (concat (concat retries)) g' /\ length retries = length rows /\ length rows' = length rows /\ length inds = length rows /\
    Forall (Forall (fun z => length z = p_N P)) retries /\
    forall i row zs, nth_error rows i = Some row -> nth_error retries i = Some zs -> exists row' x, nth_error rows' i = Some row' /\ nth_error inds i = Some x /\
      chosen bounds transform round (row :: map (mutant P st false) zs) row' x.
Proof.
  induction rows as [|row rows IH]; intros g rows' inds g'; cbn [individuals].
  { intros [= <- <- <-]. exists []. split; [constructor|]. split; [reflexivity|]. split; [reflexivity|]. split; [reflexivity|]. split; [constructor|]. intros [|i] ? ? H; discriminate H. }
  destruct (attempts gauss bounds transform P st 100 row row g) as [[[[row1 ind] found] g1]| |] eqn:EA; cbn [obind]; try discriminate.
  apply attempts_takes in EA as (zs & rejected & last & T & L & E & R & -> & F).
  destruct (if found then (last, ind) else (clamp_all bounds ind, clamp_all bounds ind)) as [row2 ind2] eqn:E2.
  destruct (individuals gauss round bounds transform P st rows g1) as [[[rs is] g2]| |] eqn:EI; cbn [obind]; try discriminate. intros [= <- <- <-].
  apply IH in EI as (retries & T' & L1 & L2 & L3 & L4 & H). exists (zs :: retries). cbn [concat]. rewrite concat_app. split; [eapply takes_app; eassumption|].
  split; [cbn; congruence|]. split; [cbn; congruence|]. split; [cbn; congruence|]. split; [constructor; assumption|].
  intros [|i] row' zs' A B; cbn [nth_error] in *; [|exact (H i row' zs' A B)]. injection A as <-. injection B as <-. do 2 eexists. split; [reflexivity|]. split; [reflexivity|].
  exists rejected, last. split; [exact E|]. split; [exact R|]. destruct found.
  - injection E2 as <- <-. destruct F as (F1 & F2 & F3). left. split; [exact F1|]. split; [reflexivity|]. eauto.
  - injection E2 as <- <-. destruct F as (F1 & ->). right. split; [exact F1|]. split; [apply clamp_moved|reflexivity].
Qed.

(** ** C74 for CMA *)
(** One sampling call, from any state, over any number type.  The numbers are taken from the source one after the other:
    first one block of dim() numbers for every point, then, point by point, the blocks for its retries. *)
Theorem C74_cma_sample : forall st st' : cma_state K G, cma_sample gauss eigen round bounds transform P st = Ok st' ->
  exists firsts retries, takes gauss (s_rng st) (concat firsts ++ concat (concat retries)) (s_rng st') /\
    length firsts = p_lambda P /\ length retries = p_lambda P /\ length (s_rows st') = p_lambda P /\ length (s_bounded st') = p_lambda P /\
    Forall (fun z => length z = p_N P) firsts /\ Forall (Forall (fun z => length z = p_N P)) retries /\
    forall i z zs, nth_error firsts i = Some z -> nth_error retries i = Some zs ->
      exists first others row x, nth_error (s_rows st') i = Some row /\ nth_error (s_bounded st') i = Some x /\
        (if Nat.eqb (s_gen st) 0 then first_candidate (p_N P) (s_mean st') (s_sigma st') (s_D st') z first
         else candidate (p_N P) (s_mean st') (s_sigma st') (s_B st') (s_D st') z first) /\
        Forall2 (fun z v => candidate (p_N P) (s_mean st') (s_sigma st') (s_B st') (s_D st') z v) zs others /\
        chosen bounds transform round (first :: others) row x.
Proof.
  intros st st' H. unfold cma_sample in H. destruct (assert_ _) as [[]| |]; cbn [obind] in H; try discriminate H.
  destruct (update_eigensystem eigen P st) as [st1| |] eqn:E1; cbn [obind] in H; try discriminate H.
  assert (RG : s_rng st1 = s_rng st).
  { unfold update_eigensystem in E1. destruct (s_uptodate st); [now injection E1 as <-|]. destruct (flgdiag st); [now injection E1 as <-|].
    destruct (nlt _ _); [now injection E1 as <-|]. destruct (eigen (s_C st)) as [[d Q]| |]; cbn [obind] in E1; try discriminate E1. now injection E1 as <-. }
  destruct (mutants gauss P st1 (flgdiag st) (p_lambda P) (s_rng st1)) as [[rows g1]| |] eqn:E2; cbn [obind] in H; try discriminate H.
  destruct (individuals gauss round bounds transform P st1 rows g1) as [[[rows' inds] g2]| |] eqn:E3; cbn [obind] in H; try discriminate H.
  injection H as <-. cbn [s_rng s_rows s_bounded s_mean s_sigma s_B s_D]. apply mutants_takes in E2 as (firsts & T1 & L1 & F1 & ->). rewrite RG in T1.
  apply individuals_takes in E3 as (retries & T2 & L2 & L3 & L4 & F2 & HC). rewrite map_length in L2, L3, L4. exists firsts, retries.
  split; [eapply takes_app; eassumption|]. split; [exact L1|]. split; [congruence|]. split; [congruence|]. split; [congruence|]. split; [exact F1|]. split; [exact F2|].
  intros i z zs A B. destruct (HC i (mutant P st1 (flgdiag st) z) zs (map_nth_error _ _ _ A) B) as (row & x & R1 & R2 & C). exists (mutant P st1 (flgdiag st) z), (map (mutant P st1 false) zs), row, x.
  split; [exact R1|]. split; [exact R2|]. split; [|split; [|exact C]].
  - unfold flgdiag. destruct (Nat.eqb (s_gen st) 0); [apply mutant_first|apply mutant_candidate].
  - clear. induction zs as [|z zs IH]; constructor; [apply mutant_candidate|exact IH].
Qed.

Lemma Forall2_size {A B} (R : A -> B -> Prop) l l' : Forall2 R l l' -> length l = length l'.
Proof. induction 1; cbn; congruence. Qed.
Lemma concat_blocks {A} n (l : list (list A)) : Forall (fun z => length z = n) l -> length (concat l) = n * length l.
Proof. induction 1 as [|z l H _ IH]; cbn [concat length]; [lia|]. rewrite app_length, IH, H. lia. Qed.
Lemma sample_count (st st' : cma_state K G) : cma_sample gauss eigen round bounds transform P st = Ok st' ->
  exists zs k, takes gauss (s_rng st) zs (s_rng st') /\ length zs = p_N P * (p_lambda P + k) /\ k <= 100 * p_lambda P.
Proof.
  intros H. apply C74_cma_sample in H as (firsts & retries & T & L1 & L2 & _ & _ & F1 & F2 & HC). eexists. exists (length (concat retries)). split; [exact T|]. split.
  - rewrite app_length, (concat_blocks (p_N P)) by exact F1. rewrite (concat_blocks (p_N P)), L1; [lia|]. apply Forall_concat. exact F2.
  - rewrite <- L2. assert (B : forall i zs, nth_error retries i = Some zs -> length zs <= 100).
    { intros i zs Hi. assert (Li : i < length firsts) by (rewrite L1, <- L2; apply nth_error_Some; congruence). destruct (nth_error firsts i) as [z|] eqn:Ez; [|apply nth_error_None in Ez; lia].
      destruct (HC i z zs Ez Hi) as (first & others & row & x & _ & _ & _ & F & rejected & last & E & _ & D). apply Forall2_size in F. apply (f_equal (@length _)) in E.
      rewrite app_length in E. cbn [length] in E. destruct D as [(D & _)|(D & _)]; lia. }
    clear - B. induction retries as [|zs r IH]; cbn [concat length]; [lia|]. rewrite app_length. pose proof (B 0 zs eq_refl). specialize (IH (fun i => B (S i))). lia.
Qed.
(** Whatever sequence of sampling and update calls is made, all the numbers used form one uninterrupted run of the source, in
    one block per sampling call that succeeds (updates use none), of at least one and at most 101 vectors of dim() numbers per point. *)
Theorem C74_cma_history : forall ops (st : cma_state K G) oks st', calls gauss eigen cpow round bounds transform P st ops = Ok (oks, st') ->
  exists blocks, takes gauss (s_rng st) (concat blocks) (s_rng st') /\
    length blocks = length (filter (fun o => match o with (Op_sample, true) => true | _ => false end) (combine ops oks)) /\
    Forall (fun b => exists k, length b = p_N P * (p_lambda P + k) /\ k <= 100 * p_lambda P) blocks.
Proof.
  induction ops as [|op ops IH]; intros st oks st'; cbn [calls]; [intros [= <- <-]; exists []; split; [constructor|split; [reflexivity|constructor]]|].
  destruct op as [|fits].
  - destruct (cma_sample gauss eigen round bounds transform P st) as [st1| |] eqn:E; [| |discriminate].
    + destruct (calls gauss eigen cpow round bounds transform P st1 ops) as [[oks' st2]| |] eqn:E2; cbn [obind fst snd]; try discriminate. intros [= <- <-].
      apply IH in E2 as (blocks & T & L & F). apply sample_count in E as (zs & k & T0 & L0 & K0). exists (zs :: blocks). cbn [concat]. split; [eapply takes_app; eassumption|].
      split; [cbn; congruence|]. constructor; [exists k; auto|exact F].
    + destruct (calls gauss eigen cpow round bounds transform P st ops) as [[oks' st2]| |] eqn:E2; cbn [obind fst snd]; try discriminate. intros [= <- <-].
      apply IH in E2 as (blocks & T & L & F). exists blocks. split; [exact T|]. split; [exact L|exact F].
  - destruct (cma_update cpow P st fits) as [st1| |] eqn:E; [| |discriminate].
    + destruct (calls gauss eigen cpow round bounds transform P st1 ops) as [[oks' st2]| |] eqn:E2; cbn [obind fst snd]; try discriminate. intros [= <- <-].
      apply IH in E2 as (blocks & T & L & F). exists blocks.
      assert (RG : s_rng st1 = s_rng st).
      { unfold cma_update in E. destruct (s_phase st); try discriminate E; destruct (negb _); try discriminate E. apply (f_equal (fun o => match o with Ok s => s_rng s | _ => s_rng st end)) in E. now symmetry. }
      rewrite RG in T. split; [exact T|]. split; [exact L|exact F].
    + destruct (calls gauss eigen cpow round bounds transform P st ops) as [[oks' st2]| |] eqn:E2; cbn [obind fst snd]; try discriminate. intros [= <- <-].
      apply IH in E2 as (blocks & T & L & F). exists blocks. split; [exact T|]. split; [exact L|exact F].
Qed.
End Cma.

(** ** MES and EVA *)
(** The numbers [vs] drawn one after the other from one normal distribution object. *)
Inductive drawn {K : Num} {rng dist : Type} (draw : K -> K -> dist -> rng -> K * dist * rng) (mean std : K) : dist -> rng -> list K -> dist -> rng -> Prop :=
| drawn_none d g : drawn draw mean std d g [] d g
| drawn_next d g v d1 g1 vs d' g' : draw mean std d g = (v, d1, g1) -> drawn draw mean std d1 g1 vs d' g' -> drawn draw mean std d g (v :: vs) d' g'.
Definition in_range {K : Num} (b : K * K) (v : K) : Prop := nle (fst b) v = true /\ nle v (snd b) = true.
(** A component: numbers are drawn with this mean and standard deviation from a new distribution object until one is in range,
    but at most 100; if none is, number 101 is moved to the bound it exceeds. *)
Definition component {K : Num} {rng dist : Type} (new : dist) (draw : K -> K -> dist -> rng -> K * dist * rng) (mean std : K) (b : K * K) (g : rng) (x : K) (g' : rng) : Prop :=
  exists rejected v d, drawn draw mean std new g (rejected ++ [v]) d g' /\ Forall (fun u => ~ in_range b u) rejected /\
    ((length rejected < 100 /\ in_range b v /\ x = v) \/
     (length rejected = 100 /\ ((nlt (snd b) v = true /\ x = snd b) \/ (nlt (snd b) v = false /\ nlt v (fst b) = true /\ x = fst b) \/ (nlt (snd b) v = false /\ nlt v (fst b) = false /\ x = v)))).
(** A point: its components one after the other, around mean + ofs * momentum, with variance var + momentum^2. *)
Inductive components {K : Num} {rng dist : Type} (new : dist) (draw : K -> K -> dist -> rng -> K * dist * rng) (ofs : K) :
  list K -> list K -> list K -> list (K * K) -> rng -> list K -> rng -> Prop :=
| components_none mean var mom g : components new draw ofs mean var mom [] g [] g
| components_next m mean v var p mom b bounds g x g1 xs g' :
    component new draw (nadd m (nmul ofs p)) (nsqrt (nadd v (nmul p p))) b g x g1 -> components new draw ofs mean var mom bounds g1 xs g' ->
    components new draw ofs (m :: mean) (v :: var) (p :: mom) (b :: bounds) g (x :: xs) g'.
(** A population: for every point one number for the momentum offset, all of these from one distribution object, then the point, which is rounded. *)
Inductive population {K : Num} {rng dist : Type} (new : dist) (draw : K -> K -> dist -> rng -> K * dist * rng) (round : K -> K) (offset offset_std : K) (mean var mom : list K) (bounds : list (K * K)) :
  dist -> rng -> list (list K) -> rng -> Prop :=
| population_none d g : population new draw round offset offset_std mean var mom bounds d g [] g
| population_next d g ofs d1 g1 x g2 xs g' : draw offset offset_std d g = (ofs, d1, g1) -> components new draw ofs mean var mom bounds g1 x g2 ->
    population new draw round offset offset_std mean var mom bounds d1 g2 xs g' ->
    population new draw round offset offset_std mean var mom bounds d g (map round x :: xs) g'.

Section ES.
Context {K : Num} {rng dist : Type}.
Variables (nd_new : dist) (nd_draw : K -> K -> dist -> rng -> K * dist * rng) (round : K -> K) (bounds : list (K * K)) (lambda : nat).

Lemma try_sample_drawn n mean std lo hi : forall d g x g', try_sample nd_draw n mean std lo hi d g = (x, g') ->
  exists rejected v d', drawn nd_draw mean std d g (rejected ++ [v]) d' g' /\ Forall (fun u => ~ in_range (lo, hi) u) rejected /\
    ((length rejected < n /\ in_range (lo, hi) v /\ x = v) \/
     (length rejected = n /\ ((nlt hi v = true /\ x = hi) \/ (nlt hi v = false /\ nlt v lo = true /\ x = lo) \/ (nlt hi v = false /\ nlt v lo = false /\ x = v)))).
Proof.
  induction n as [|n IH]; intros d g x g'; cbn [try_sample]; destruct (nd_draw mean std d g) as [[v d1] g1] eqn:E.
  - intros [= <- <-]. exists [], v, d1. split; [econstructor; [exact E|constructor]|]. split; [constructor|]. right. split; [reflexivity|]. unfold clamped. destruct (nlt hi v); [auto|]. destruct (nlt v lo); auto.
  - destruct (nle lo v && nle v hi) eqn:EB.
    + intros [= <- <-]. exists [], v, d1. split; [econstructor; [exact E|constructor]|]. split; [constructor|]. left. apply andb_prop in EB. split; [cbn; lia|]. split; [exact EB|reflexivity].
    + intros H. apply IH in H as (r & u & d' & D & R & C). exists (v :: r), u, d'. split; [cbn [app]; econstructor; eassumption|]. split.
      * constructor; [|exact R]. intros [A B]. cbn [fst snd] in *. rewrite A, B in EB. discriminate.
      * destruct C as [(C1 & C2)|(C1 & C2)]; [left|right]; (split; [cbn [length]; lia|exact C2]).
Qed.
Lemma sample_components_spec (st : es_state K rng) ofs bs : forall i g xs g', sample_components nd_new nd_draw st ofs i bs g = Ok (xs, g') ->
  components nd_new nd_draw ofs (skipn i (es_mean st)) (skipn i (es_var st)) (skipn i (es_mom st)) bs g xs g'.
Proof.
  induction bs as [|b bs IH]; intros i g xs g'; cbn [sample_components]; [intros [= <- <-]; constructor|].
  assert (SK : forall (l : list K) x, get l i = Ok x -> skipn i l = x :: skipn (S i) l).
  { intros l x H. unfold get in H. destruct (nth_error l i) as [y|] eqn:E; [|discriminate H]. injection H as <-. clear - E. revert i E. induction l as [|a l IH]; intros [|i] E; try discriminate E; [now injection E as ->|]. exact (IH i E). }
  destruct (get (es_mean st) i) as [m| |] eqn:E1; cbn [obind]; try discriminate. destruct (get (es_var st) i) as [v| |] eqn:E2; cbn [obind]; try discriminate.
  destruct (get (es_mom st) i) as [p| |] eqn:E3; cbn [obind]; try discriminate.
  destruct (sample_parameter nd_new nd_draw (nadd m (nmul ofs p)) (nsqrt (nadd v (sq p))) b g) as [x g1] eqn:ES.
  destruct (sample_components nd_new nd_draw st ofs (S i) bs g1) as [[ys g2]| |] eqn:E; cbn [obind]; try discriminate. intros [= <- <-].
  rewrite (SK _ _ E1), (SK _ _ E2), (SK _ _ E3). econstructor; [|exact (IH _ _ _ _ E)].
  unfold sample_parameter in ES. apply try_sample_drawn in ES as (r & u & d' & H). rewrite <- surjective_pairing in H. exists r, u, d'. exact H.
Qed.
(** One sampling call of MES or EVA, from any state, over any number type: the population is drawn as described, and mean,
    variance and momentum stay. *)
Theorem C74_es_sample : forall offset offset_std (st st' : es_state K rng), es_sample nd_new nd_draw round bounds lambda offset offset_std st = Ok st' ->
  population nd_new nd_draw round offset offset_std (es_mean st) (es_var st) (es_mom st) bounds nd_new (es_rng st) (es_pop st') (es_rng st') /\
  length (es_pop st') = lambda /\ es_mean st' = es_mean st /\ es_var st' = es_var st /\ es_mom st' = es_mom st.
Proof.
  intros o os st st' H. unfold es_sample in H. destruct (sample_individuals _ _ _ _ _ _ _ _ _ _) as [[pop g]| |] eqn:E; cbn [obind] in H; try discriminate H. injection H as <-. cbn.
  assert (X : population nd_new nd_draw round o os (es_mean st) (es_var st) (es_mom st) bounds nd_new (es_rng st) pop g /\ length pop = lambda); [|destruct X as [X Y]; auto].
  revert E. generalize (es_rng st) as g0. generalize nd_new at 2 4 as d. revert pop. induction lambda as [|n IH]; intros pop d g0; cbn [sample_individuals]; [intros [= <- <-]; split; [constructor|reflexivity]|].
  destruct (nd_draw o os d g0) as [[ofs d'] g1] eqn:E1. destruct (sample_components nd_new nd_draw st ofs 0 bounds g1) as [[x g2]| |] eqn:E2; cbn [obind]; try discriminate.
  destruct (sample_individuals nd_new nd_draw round bounds st o os n d' g2) as [[xs g3]| |] eqn:E3; cbn [obind]; try discriminate. intros [= <- <-].
  apply sample_components_spec in E2. cbn [skipn] in E2. apply IH in E3 as [E3 L]. split; [econstructor; eassumption|cbn; congruence].
Qed.
End ES.

(** ** Whole runs, in double precision *)
(** The populations that were sampled, in order. *)
Definition sampled_populations (l : list (outcome (list point))) : list (list point) := flat_map (fun o => match o with Ok pop => [pop] | _ => [] end) l.
(** The state of the random source is only changed by drawing populations, one after the other. *)
Inductive path {G : Type} (one : G -> list point -> G -> Prop) : G -> list (list point) -> G -> Prop :=
| path_none g : path one g [] g
| path_next g pop g1 pops g' : one g pop g1 -> path one g1 pops g' -> path one g (pop :: pops) g'.
Lemma run_path {S G : Type} (smp : sampler S) (E : env) (source : S -> G) (one : G -> list point -> G -> Prop) :
  (forall s s' pop, s_sample smp s = (s', Ok pop) -> one (source s) pop (source s')) ->
  (forall s s' r, s_sample smp s = (s', r) -> (forall pop, r <> Ok pop) -> source s' = source s) ->
  (forall s fits, source (fst (s_update smp s fits)) = source s) -> oi_dim (e_info E) <> 0 ->
  forall evals o s, path one (source s) (sampled_populations (asked smp E o s evals)) (source (snd (fst (full_steps smp E o s evals)))).
Proof.
  intros H1 H2 H3 D. induction evals as [|[eval i] evals IH]; intros o s; [constructor|]. cbn [asked full_steps].
  assert (ST : path one (source s) (sampled_populations [snd (s_sample smp s)]) (source (snd (fst (full_step smp E o s eval i))))).
  { unfold full_step. destruct (Nat.eqb_spec (oi_dim (e_info E)) 0) as [X|_]; [contradiction|].
    set (o0 := {| o_core := _; o_scs := _; o_stopped := _; o_trace := _ |}). clearbody o0. unfold internal_step.
    destruct (s_sample smp s) as [s1 [pop|w|]] eqn:ES; cbn [snd sampled_populations flat_map app].
    - assert (Y : forall g, g = source s1 -> path one (source s) [pop] g) by (intros g ->; econstructor; [exact (H1 _ _ _ ES)|constructor]).
      destruct (evaluate_step E o0 pop (eval pop)) as [o1 [[]|w|]]; cbn [fst snd].
      + pose proof (H3 s1 (c_cur_fits (o_core o1))) as U. destruct (s_update smp s1 (c_cur_fits (o_core o1))) as [s2 [u|w|]]; cbn [fst snd] in *; try (apply Y; exact U).
        destruct (test_stop E _) as [o' r]. cbn [fst snd]. apply Y. exact U.
      + destruct (test_stop E _) as [o' r]. cbn [fst snd]. now apply Y.
      + now apply Y.
      + now apply Y.
    - cbn [fst snd]. rewrite (H2 _ _ _ ES) by discriminate. constructor.
    - cbn [fst snd]. rewrite (H2 _ _ _ ES) by discriminate. constructor. }
  assert (PA : forall g a g1 b g2, path one g a g1 -> path one g1 b g2 -> path one g (a ++ b) g2).
  { clear. intros g a g1 b g2 H. revert b g2. induction H as [|g pop g1 pops g' H _ IH]; intros b g2 H2; [exact H2|]. cbn [app]. econstructor; [exact H|]. now apply IH. }
  destruct (full_step smp E o s eval i) as [[o' s'] [r|w|]]; cbn [fst snd] in *; try exact ST.
  cbn [sampled_populations flat_map] in *. rewrite app_nil_r in ST. eapply PA; [exact ST|apply IH].
Qed.
(** MES and EVA: in every run, each population is drawn from the engine state that the previous one left. *)
Theorem C74_es_run : forall L E lambda mu offset offset_std component o s evals, oi_dim (e_info E) <> 0 ->
  let smp := es_sampler L (e_info E) lambda mu offset offset_std component in
  path (fun g pop g' => length pop = Z.to_nat lambda /\ exists mean var mom,
          @population (numF (sl_libm L)) _ _ (sl_new L) (sl_draw L) rounded offset offset_std mean var mom (bounds_of (e_info E)) (sl_new L) g pop g')
    (es_rng s) (sampled_populations (asked smp E o s evals)) (es_rng (snd (fst (full_steps smp E o s evals)))).
Proof.
  intros L E lambda mu offset offset_std component o s evals D smp.
  apply (run_path smp E (fun s => es_rng s)); [| | |exact D].
  - intros s0 s' pop H. unfold smp, es_sampler in H. cbn [s_sample] in H. destruct (es_sample _ _ _ _ _ _ _ s0) as [s1| |] eqn:E1; try discriminate H. injection H as <- <-.
    apply C74_es_sample in E1 as (H1 & H2 & _). split; [exact H2|]. eauto.
  - intros s0 s' r H N. unfold smp, es_sampler in H. cbn [s_sample] in H. destruct (es_sample _ _ _ _ _ _ _ s0) as [s1| |]; injection H as <- <-; try reflexivity. exfalso. eapply N. reflexivity.
  - intros s0 fits. unfold smp, es_sampler. cbn [s_update]. destruct (es_update _ _ _ _ s0 _) as [s1| |] eqn:E1; cbn [fst]; try reflexivity.
    unfold es_update in E1. destruct (for_each _ _) as [pj| |]; cbn [obind] in E1; try discriminate E1. destruct (for_each _ _) as [cs| |]; cbn [obind] in E1; try discriminate E1. injection E1 as <-. reflexivity.
Qed.
(** CMA: in every run, the numbers used by the populations form one uninterrupted run of the generator. *)
Theorem C74_cma_run : forall L E transformer P o s evals, oi_dim (e_info E) <> 0 ->
  let smp := cma_sampler L (e_info E) transformer P in
  path (fun g pop g' => length pop = p_lambda P /\ exists zs k, @takes (numF (cl_libm L)) _ (gauss (cl_tries L)) g zs g' /\ length zs = p_N P * (p_lambda P + k) /\ k <= 100 * p_lambda P)
    (s_rng s) (sampled_populations (asked smp E o s evals)) (s_rng (snd (fst (full_steps smp E o s evals)))).
Proof.
  intros L E transformer P o s evals D smp. apply (run_path smp E (fun s => s_rng s)); [| | |exact D].
  - intros s0 s' pop H. unfold smp, cma_sampler in H. cbn [s_sample] in H. destruct (cma_sample _ _ _ _ _ P s0) as [s1| |] eqn:E1; try discriminate H. injection H as <- <-. split.
    + apply C74_cma_sample in E1 as (_ & _ & _ & _ & _ & _ & L1 & _). exact L1.
    + apply sample_count in E1 as (zs & k & H1 & H2 & H3). exists zs, k. auto.
  - intros s0 s' r H N. unfold smp, cma_sampler in H. cbn [s_sample] in H. destruct (cma_sample _ _ _ _ _ P s0) as [s1| |]; injection H as <- <-; try reflexivity. exfalso. eapply N. reflexivity.
  - intros s0 fits. unfold smp, cma_sampler. cbn [s_update]. destruct (cma_update _ P s0 _) as [s1| |] eqn:E1; cbn [fst]; try reflexivity.
    unfold cma_update in E1. destruct (s_phase s0); try discriminate E1; destruct (negb _); try discriminate E1.
    apply (f_equal (fun o => match o with Ok s => s_rng s | _ => s_rng s0 end)) in E1. now symmetry.
Qed.

(** ** Concrete runs: two steps of MES (one parameter, no retries: 2 * 4 * 2 numbers), one sampling call with retries, three steps of CMA. *)
Definition ex_wide : obj_info := {| oi_free := [{| pi_name := "x"; pi_mean := fofZ 1; pi_std := fofZ 10; pi_min := fofZ (-5); pi_max := fofZ 5 |}]; oi_locked := []; oi_minimize := true; oi_target := fzero; oi_name := "" |}.
Example C74_nonvacuous :
  length (sampled_populations (asked (mes_sampler ex_lib ex_info 4 ex_mes) (ex_env []) (created (ex_env []) [flat_default]) (es_start ex_lib ex_info 4 1) (repeat (ex_square, false) 2))) = 2 /\
  es_rng (snd (fst (ex_run 2))) = 17 /\
  (match s_sample (mes_sampler ex_lib ex_wide 4 ex_mes) (es_start ex_lib ex_wide 4 1) with (s, Ok pop) => Nat.eqb (es_rng s) 14 && f64s_same (concat pop) [fofZ 1; fofZ 1; fofZ 1; fofZ 1] | _ => false end = true) /\
  match ex_created with
  | Ok (P, st) => length (sampled_populations (asked (cma_sampler ex_cl ex_info None P) (ex_env []) (created (ex_env []) []) st (repeat (ex_square, false) 3)))
  | _ => 0 end = 3.
Proof. split; [vm_compute; reflexivity|]. split; [vm_compute; reflexivity|]. split; [vm_compute; reflexivity|]. vm_compute; reflexivity. Qed.
