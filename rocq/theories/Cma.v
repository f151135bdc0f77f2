(** * cma_optimizer (cma_optimizer.h, cma_optimizer.cpp) over an abstract number type.

    Modelled: parameter defaults, initial state, sampling, resampling, update of mean,
    evolution paths, covariance and step size, as the code computes them.
    Parameters of the model: the source of normally distributed numbers (the concrete
    generator is in CmaRandom.v), the eigendecomposition (lines 429-729; concrete in
    CmaEigen.v), pow and ceil of the C library.
    Not modelled: log messages, the profiler, and members that never influence the
    public interface (current_best, arFuncValueHist, rgFuncValue, publicFitness,
    countevals, maxdiagC, mindiagC, minEW, maxEW, dMaxSignifKond, rgout; rgdTmp,
    rgBDz and rgxold are written before they are read in every call and are local
    here; the extra element of each population row only holds its fitness).
    gen and state are doubles holding small integers; here a nat and an enumeration. *)
From Coq Require Import ZArith Bool.
From Verif Require Import Prelude Num MathTools.
#[local] Open Scope num_scope.

Section Basics.
Context {K : Num}.
(** v[ i ]; every index is in range (CmaFacts.v), so the default is never used *)
Definition at_ (v : list K) (i : nat) : K := nth i v (nofZ 0).
Definition row_ (m : list (list K)) (i : nat) : list K := nth i m [].
(** a vector of length [n], element by element *)
Definition build {A} (n : nat) (f : nat -> A) : list A := map f (seq 0 n).
(** for ( j = 0, sum = 0.; j < n; ++j ) sum += f( j ) *)
Definition sum_ (n : nat) (f : nat -> K) : K := fold_left (fun s j => s + f j) (seq 0 n) (nofZ 0).
Definition of_nat (n : nat) : K := nofZ (Z.of_nat n).
(** std::min, std::max *)
Definition std_min (a b : K) : K := if b <? a then b else a.
Definition std_max (a b : K) : K := if a <? b then b else a.
End Basics.

(** t->state: 0, 1 or 3 (cma_optimizer.cpp:98) *)
Inductive phase := Fresh | Sampled | Updated.

(** The part of cmaes_readpara_t that is used (cma_optimizer.cpp:32-62) *)
Record cma_par (K : Num) := {
  p_N : nat; p_lambda : nat; p_mu : nat; p_weights : list K; p_mueff : K; p_mucov : K;
  p_cs : K; p_ccumcov : K; p_ccov : K; p_damps : K; p_modulo : K }.
Arguments p_N {K}. Arguments p_lambda {K}. Arguments p_mu {K}. Arguments p_weights {K}. Arguments p_mueff {K}. Arguments p_mucov {K}.
Arguments p_cs {K}. Arguments p_ccumcov {K}. Arguments p_ccov {K}. Arguments p_damps {K}. Arguments p_modulo {K}.

(** The part of cmaes_t that is used (cma_optimizer.cpp:64-111) and the last population
    given out (pimpl_t::bounded_pop) *)
Record cma_state (K : Num) (G : Type) := {
  s_sigma : K; s_mean : list K; s_C : list (list K); s_B : list (list K); s_D : list K; s_pc : list K; s_ps : list K;
  s_gen : nat; s_phase : phase; s_uptodate : bool; s_gen_eigen : nat;
  s_rows : list (list K);     (* current_pop, without the fitness element *)
  s_bounded : list (list K);  (* bounded_pop *)
  s_rng : G }.
Arguments s_sigma {K G}. Arguments s_mean {K G}. Arguments s_C {K G}. Arguments s_B {K G}. Arguments s_D {K G}. Arguments s_pc {K G}. Arguments s_ps {K G}.
Arguments s_gen {K G}. Arguments s_phase {K G}. Arguments s_uptodate {K G}. Arguments s_gen_eigen {K G}. Arguments s_rows {K G}. Arguments s_bounded {K G}. Arguments s_rng {K G}.

Section Cma.
Context {K : Num} {G : Type}.
Variable gauss : G -> outcome (K * G).  (* cmaes_random_Gauss *)
Variable eigen : list (list K) -> outcome (list K * list (list K)). (* Eigen: eigenvalues and matrix of eigenvectors of the lower triangle *)
Variable cpow : K -> K -> K.
Variable cceil : K -> K.
Variable to_int : K -> outcome Z.
Variable round : K -> K.              (* search_point::set_values *)
Variable bounds : list (K * K).       (* min and max of every parameter *)
Variable transform : list K -> outcome (list K). (* try_apply_boundary_transform *)
Notation par := (cma_par K).
Notation state := (cma_state K G).

(** ** Parameters *)
(** cma_optimizer.cpp:163-170: log weights (the other modes are never selected, line 247) *)
Definition raw_weights (mu : nat) : list K := build mu (fun i => nlog (of_nat mu + nofZ 1) - nlog (of_nat i + nofZ 1)).
(** cma_optimizer.cpp:172-179; the result is (weights, mueff) *)
Definition set_weights (mu : nat) : list K * K :=
  let w := raw_weights mu in
  let s1 := sum_ mu (fun i => at_ w i) in
  let s2 := sum_ mu (fun i => at_ w i * at_ w i) in
  (map (fun x => x / s1) w, s1 * s1 / s2).
(** cma_optimizer.cpp:278-338 after cmaes_init (lines 236-259), for n > 0;
    [option_modulo] is written to updateCmode.modulo in between (line 1183).
    mu < 1 and mu > lambda are impossible here (lambda >= 2); mu == lambda as well. *)
Definition supplement_defaults (N : nat) (option_lambda : Z) (option_modulo : K) : outcome par :=
  let* lambda := if (option_lambda <? 2)%Z then let* k := to_int (nofZ 3 * nlog (of_nat N)) in Ok (4 + k)%Z else Ok option_lambda in
  let mu := Z.quot lambda 2 in
  if (mu <? 0)%Z then Throw "vector::resize" else
  let mu := Z.to_nat mu in
  let '(weights, mueff) := set_weights mu in
  if (Nat.ltb mu 1) || (lambda <? Z.of_nat mu)%Z || ((Z.of_nat mu =? lambda)%Z && (at_ weights 0 =? at_ weights (mu - 1))) then
    Throw "cmaes_readpara_SetWeights(): invalid setting of mu or lambda" else
  let cs := (mueff + nofZ 2) / (of_nat N + mueff + nofZ 3) in
  let ccumcov := nofZ 4 / nofZ (Z.of_nat N + 4) in
  let mucov := mueff in
  let t1 := nofZ 2 / ((of_nat N + ndec 14142 (-4)) * (of_nat N + ndec 14142 (-4))) in
  let t2 := (nofZ 2 * mueff - nofZ 1) / ((of_nat N + nofZ 2) * (of_nat N + nofZ 2) + mueff) in
  let t2 := if nofZ 1 <? t2 then nofZ 1 else t2 in
  let ccov := (nofZ 1 / mucov) * t1 + (nofZ 1 - nofZ 1 / mucov) * t2 in
  let max_evals := nofZ 900 * nofZ (Z.of_nat N + 3) * nofZ (Z.of_nat N + 3) in
  let max_iter := cceil (max_evals / nofZ lambda) in
  let damps := (nofZ 1 + nofZ 2 * std_max (nofZ 0) (nsqrt ((mueff - nofZ 1) / (of_nat N + nofZ 1)) - nofZ 1))
               * std_max (ndec 3 (-1)) (nofZ 1 - of_nat N / (ndec 1 (-6) + std_min max_iter (max_evals / nofZ lambda))) + cs in
  let modulo := if option_modulo <? nofZ 0 then nofZ 1 / ccov / of_nat N / nofZ 10 else option_modulo in
  Ok {| p_N := N; p_lambda := Z.to_nat lambda; p_mu := mu; p_weights := weights; p_mueff := mueff; p_mucov := mucov;
        p_cs := cs; p_ccumcov := ccumcov; p_ccov := ccov; p_damps := damps; p_modulo := modulo |}.

(** cma_optimizer.cpp:355 *)
Definition chiN (N : nat) : K := nsqrt (of_nat N) * (nofZ 1 - nofZ 1 / (nofZ 4 * of_nat N) + nofZ 1 / (nofZ 21 * of_nat N * of_nat N)).

(** ** Initial state: cma_optimizer.cpp:340-425, 1189; [pars] are mean and std *)
Definition cma_init (P : par) (pars : list (K * K)) (g : G) : state :=
  let N := p_N P in
  let stds := map snd pars in
  let trace := sum_ N (fun i => at_ stds i * at_ stds i) in
  let D := build N (fun i => at_ stds i * nsqrt (of_nat N / trace)) in
  {| s_sigma := nsqrt (trace / of_nat N);
     s_mean := map fst pars;
     s_C := build N (fun i => build (S i) (fun j => if Nat.eqb i j then at_ D i * at_ D i else nofZ 0));
     s_B := build N (fun i => build N (fun j => if Nat.eqb i j then nofZ 1 else nofZ 0));
     s_D := D; s_pc := build N (fun _ => nofZ 0); s_ps := build N (fun _ => nofZ 0);
     s_gen := 0; s_phase := Fresh; s_uptodate := true; s_gen_eigen := 0;
     s_rows := repeat (build N (fun _ => nofZ 0)) (p_lambda P);
     s_bounded := repeat (map round (map fst pars)) (p_lambda P);
     s_rng := g |}.

(** ** Sampling *)
(** diagonalCov is 0 (line 254): flgdiag holds exactly for gen = 0 (lines 815, 904, 943) *)
Definition flgdiag (st : state) : bool := Nat.eqb (s_gen st) 0.
Definition with_eigen (st : state) (D : list K) (B : list (list K)) (gen_eigen : nat) : state :=
  {| s_sigma := s_sigma st; s_mean := s_mean st; s_C := s_C st; s_B := B; s_D := D; s_pc := s_pc st; s_ps := s_ps st;
     s_gen := s_gen st; s_phase := s_phase st; s_uptodate := true; s_gen_eigen := gen_eigen;
     s_rows := s_rows st; s_bounded := s_bounded st; s_rng := s_rng st |}.
(** cma_optimizer.cpp:767-797, 821-832 *)
Definition update_eigensystem (P : par) (st : state) : outcome state :=
  if s_uptodate st then Ok st
  else if flgdiag st then Ok (with_eigen st (build (p_N P) (fun i => nsqrt (at_ (row_ (s_C st) i) i))) (s_B st) (s_gen_eigen st))
  else if of_nat (s_gen st) <? of_nat (s_gen_eigen st) + p_modulo P then Ok st
  else let* r := eigen (s_C st) in
       let '(d, Q) := r in Ok (with_eigen st (map (fun x => nsqrt x) d) Q (s_gen st)).

Fixpoint draws (n : nat) (g : G) : outcome (list K * G) :=
  match n with
  | O => Ok ([], g)
  | S k => let* r := gauss g in let '(z, g1) := r in let* r' := draws k g1 in let '(zs, g2) := r' in Ok (z :: zs, g2)
  end.
(** cma_optimizer.cpp:839-850 and 863-873: one row from N numbers *)
Definition mutant (P : par) (st : state) (diag : bool) (z : list K) : list K :=
  let N := p_N P in
  if diag then build N (fun i => at_ (s_mean st) i + s_sigma st * at_ (s_D st) i * at_ z i)
  else let tmp := build N (fun i => at_ (s_D st) i * at_ z i) in
       build N (fun i => at_ (s_mean st) i + s_sigma st * sum_ N (fun j => at_ (row_ (s_B st) i) j * at_ tmp j)).
Fixpoint mutants (P : par) (st : state) (diag : bool) (n : nat) (g : G) : outcome (list (list K) * G) :=
  match n with
  | O => Ok ([], g)
  | S k => let* r := draws (p_N P) g in let '(z, g1) := r in
           let* r' := mutants P st diag k g1 in let '(rows, g2) := r' in Ok (mutant P st diag z :: rows, g2)
  end.
(** objective_info.cpp:151-157, 159-171 over K *)
Fixpoint feasible (bs : list (K * K)) (v : list K) : bool :=
  match bs, v with b :: bt, x :: vt => if (snd b <? x) || (x <? fst b) then false else feasible bt vt | _, _ => true end.
Fixpoint clamp_all (bs : list (K * K)) (v : list K) : list K :=
  match bs, v with
  | b :: bt, x :: vt =>
    (if negb ((fst b <=? x) && (x <=? snd b)) then (if snd b <? x then snd b else if x <? fst b then fst b else x) else x) :: clamp_all bt vt
  | _, _ => v
  end.
(** cma_optimizer.cpp:1213-1223: row, individual, whether one was found *)
Fixpoint attempts (P : par) (st : state) (n : nat) (row individual : list K) (g : G) : outcome (list K * list K * bool * G) :=
  match n with
  | O => Ok (row, individual, false, g)
  | S k =>
    let* ind := transform individual in
    if feasible bounds ind then Ok (row, ind, true, g)
    else let* r := draws (p_N P) g in let '(z, g1) := r in
         let row' := mutant P st false z in attempts P st k row' row' g1
  end.
(** cma_optimizer.cpp:1208-1233: max_resample_count is 100; rows and individuals *)
Fixpoint individuals (P : par) (st : state) (rows : list (list K)) (g : G) : outcome (list (list K) * list (list K) * G) :=
  match rows with
  | [] => Ok ([], [], g)
  | row :: t =>
    let* r := attempts P st 100 row row g in
    let '(row1, ind, found, g1) := r in
    let '(row2, ind2) := if found then (row1, ind) else (clamp_all bounds ind, clamp_all bounds ind) in
    let* r' := individuals P st t g1 in
    let '(rows', inds', g2) := r' in Ok (row2 :: rows', map round ind2 :: inds', g2)
  end.
(** cma_optimizer.cpp:812-857, 1202-1236 *)
Definition cma_sample (P : par) (st : state) : outcome state :=
  let* _ := assert_ (Nat.ltb 0 (p_N P)) in
  let diag := flgdiag st in
  let* st1 := update_eigensystem P st in
  let* r := mutants P st1 diag (p_lambda P) (s_rng st1) in
  let '(rows, g1) := r in
  let gen := match s_phase st1 with Updated => S (s_gen st1) | _ => if Nat.eqb (s_gen st1) 0 then S (s_gen st1) else s_gen st1 end in
  let* r' := individuals P st1 rows g1 in
  let '(rows', inds, g2) := r' in
  Ok {| s_sigma := s_sigma st1; s_mean := s_mean st1; s_C := s_C st1; s_B := s_B st1; s_D := s_D st1; s_pc := s_pc st1; s_ps := s_ps st1;
        s_gen := gen; s_phase := Sampled; s_uptodate := s_uptodate st1; s_gen_eigen := s_gen_eigen st1;
        s_rows := rows'; s_bounded := inds; s_rng := g2 |}.

(** ** Update *)
(** cma_optimizer.cpp:888-899.  The ranking so far is kept in reverse (best last):
    the new index is shifted down from the end until an entry is smaller. *)
Fixpoint rank_insert (f : nat -> K) (i : nat) (rev_order : list nat) : list nat :=
  match rev_order with
  | [] => [i]
  | a :: t => if f a <? f i then i :: a :: t else a :: rank_insert f i t
  end.
Definition sorted_index (v : list K) (n : nat) : list nat :=
  rev (fold_left (fun ord i => rank_insert (at_ v) i ord) (seq 0 n) []).

(** cma_optimizer.cpp:901-938 *)
Definition ccov1 (P : par) (diag : bool) : K :=
  std_min (p_ccov P * (nofZ 1 / p_mucov P) * (if diag then (of_nat (p_N P) + ndec 15 (-1)) / nofZ 3 else nofZ 1)) (nofZ 1).
Definition ccovmu (P : par) (diag : bool) : K :=
  std_min (p_ccov P * (nofZ 1 - nofZ 1 / p_mucov P) * (if diag then (of_nat (p_N P) + ndec 15 (-1)) / nofZ 3 else nofZ 1)) (nofZ 1 - ccov1 P diag).
Definition adapt_entry (P : par) (diag hsig : bool) (sigma : K) (xold pc : list K) (best : list (list K)) (i j : nat) (c : K) : K :=
  let c1 := ccov1 P diag in let cmu := ccovmu P diag in
  fold_left (fun c kx => c + cmu * at_ (p_weights P) (fst kx) * (at_ (snd kx) i - at_ xold i) * (at_ (snd kx) j - at_ xold j) / (sigma * sigma))
    (combine (seq 0 (p_mu P)) best)
    ((nofZ 1 - c1 - cmu) * c + c1 * (at_ pc i * at_ pc j + nofZ (if hsig then 0 else 1) * p_ccumcov P * (nofZ 2 - p_ccumcov P) * c)).
Definition adapt_C (P : par) (diag hsig : bool) (sigma : K) (xold pc : list K) (best : list (list K)) (C : list (list K)) : list (list K) :=
  build (p_N P) (fun i => build (S i) (fun j =>
    let c := at_ (row_ C i) j in
    if diag && Nat.ltb j i then c else adapt_entry P diag hsig sigma xold pc best i j c)).

(** cma_optimizer.cpp:940-1045 *)
Definition cma_update (P : par) (st : state) (fits : list K) : outcome state :=
  match s_phase st with
  | Updated => Throw "cmaes_UpdateDistribution(): You need to call SamplePopulation() before update can take place."
  | ph =>
    if negb (Nat.eqb (length fits) (p_lambda P)) then Throw "cmaes_UpdateDistribution(): Fitness function value array input is missing."
    else match ph with
    | Sampled =>
      let N := p_N P in
      let diag := flgdiag st in
      let order := sorted_index fits (p_lambda P) in
      let sigma := if at_ fits (nth 0 order 0%nat) =? at_ fits (nth (Nat.div (p_lambda P) 2) order 0%nat)
                   then s_sigma st * nexp (ndec 2 (-1) + p_cs P / p_damps P) else s_sigma st in
      let best := map (fun k => row_ (s_rows st) k) (firstn (p_mu P) order) in
      let xold := s_mean st in
      let mean := build N (fun i => fold_left (fun s kx => s + at_ (p_weights P) (fst kx) * at_ (snd kx) i) (combine (seq 0 (p_mu P)) best) (nofZ 0)) in
      let BDz := build N (fun i => nsqrt (p_mueff P) * (at_ mean i - at_ xold i) / sigma) in
      let tmp := build N (fun i => (if diag then at_ BDz i else sum_ N (fun j => at_ (row_ (s_B st) j) i * at_ BDz j)) / at_ (s_D st) i) in
      let ps := build N (fun i => (nofZ 1 - p_cs P) * at_ (s_ps st) i
                  + nsqrt (p_cs P * (nofZ 2 - p_cs P)) * (if diag then at_ tmp i else sum_ N (fun j => at_ (row_ (s_B st) i) j * at_ tmp j))) in
      let psxps := sum_ N (fun i => at_ ps i * at_ ps i) in
      let hsig := nsqrt psxps / nsqrt (nofZ 1 - cpow (nofZ 1 - p_cs P) (nofZ 2 * of_nat (s_gen st))) / chiN N <? ndec 14 (-1) + nofZ 2 / nofZ (Z.of_nat N + 1) in
      let pc := build N (fun i => (nofZ 1 - p_ccumcov P) * at_ (s_pc st) i
                  + nofZ (if hsig then 1 else 0) * nsqrt (p_ccumcov P * (nofZ 2 - p_ccumcov P)) * at_ BDz i) in
      let adapt := negb (p_ccov P =? nofZ 0) in
      Ok {| s_sigma := sigma * nexp ((nsqrt psxps / chiN N - nofZ 1) * p_cs P / p_damps P);
            s_mean := mean;
            s_C := if adapt then adapt_C P diag hsig sigma xold pc best (s_C st) else s_C st;
            s_B := s_B st; s_D := s_D st; s_pc := pc; s_ps := ps;
            s_gen := s_gen st; s_phase := Updated; s_uptodate := if adapt then false else s_uptodate st; s_gen_eigen := s_gen_eigen st;
            s_rows := s_rows st; s_bounded := s_bounded st; s_rng := s_rng st |}
    | _ => Throw "cmaes_UpdateDistribution(): unexpected state"
    end
  end.

(** ** Public accessors *)
(** cma_optimizer.cpp:1253-1257 *)
Definition current_mean (st : state) : outcome (list K) := transform (s_mean st).
(** cma_optimizer.cpp:1259-1267 *)
Definition current_std (P : par) (st : state) : list K := build (p_N P) (fun i => s_sigma st * nsqrt (at_ (row_ (s_C st) i) i)).
End Cma.
