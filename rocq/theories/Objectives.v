(** * Population statistics, benchmark objectives, data objectives
    (search_point.cpp:125-146, test_objectives.cpp, function_objective.h, data_objective.h). *)
From Coq Require Import ZArith Bool.
From Verif Require Import Prelude Flt Round8 ParInfo ObjInfo Num MathTools.
#[local] Open Scope num_scope.

Section Objectives.
Context {K : Num}.

(** [size_t] converted to double *)
Definition nsize (n : nat) : K := nofZ (Z.of_nat n).

(** search_point.cpp:133-134 and 140-141, one individual: [acc[i] += g( ind[i] )] for
    [i < dim]; reading past the end of [ind] is undefined. *)
Fixpoint accumulate (g : nat -> K -> K) (i : nat) (acc ind : list K) : outcome (list K) :=
  match acc, ind with
  | [], _ => Ok []
  | a :: at_, x :: it => let* r := accumulate g (S i) at_ it in Ok ((a + g i x) :: r)
  | _ :: _, [] => Undef
  end.
Fixpoint accumulate_all (g : nat -> K -> K) (acc : list K) (pop : list (list K)) : outcome (list K) :=
  match pop with
  | [] => Ok acc
  | ind :: t => let* acc' := accumulate g 0 acc ind in accumulate_all g acc' t
  end.
(** search_point.cpp:125-146.  A search point is its values; [info.dim()] is the
    number of values of the first one (SearchPoint.v: every search point has one value
    per free parameter); [pop.front()] of an empty population is undefined. *)
Definition compute_mean_std (pop : list (list K)) : outcome (list K * list K) :=
  match pop with
  | [] => Undef
  | front :: _ =>
    let dim := length front in
    let n := nsize (length pop) in
    let* mean := accumulate_all (fun _ x => x / n) (repeat (nofZ 0) dim) pop in
    let* var := accumulate_all (fun i x => sq (x - nth i mean (nofZ 0)) / n) (repeat (nofZ 0) dim) pop in
    Ok (mean, map nsqrt var)
  end.

(** ** test_objectives.cpp: the functions *)
(** test_objectives.cpp:5-11 *)
Definition sphere (v : list K) : K := fold_left (fun sum x => sum + sq x) v (nofZ 0).
(** test_objectives.cpp:13-19 *)
Fixpoint ellipsoid_from (i : nat) (sum : K) (v : list K) : K :=
  match v with
  | [] => sum
  | x :: t => ellipsoid_from (S i) (sum + nsize (i + 1) * sq x) t
  end.
Definition ellipsoid (v : list K) : K := ellipsoid_from 0 (nofZ 0) v.
(** test_objectives.cpp:21-24; [v[0]], [v[1]] of a shorter vector is undefined *)
Definition himmelblau (v : list K) : outcome K :=
  match v with
  | x :: y :: _ => Ok (sq (sq x + y - nofZ 11) + sq (x + sq y - nofZ 7))
  | _ => Undef
  end.
(** test_objectives.cpp:26-32; for an empty vector [v.size() - 1] wraps around and
    the loop reads past the end *)
Fixpoint rosenbrock_from (sum x : K) (t : list K) : K :=
  match t with
  | [] => sum
  | y :: t' => rosenbrock_from (sum + (nofZ 100 * sq (y - sq x) + sq (nofZ 1 - x))) y t'
  end.
Definition rosenbrock (v : list K) : outcome K :=
  match v with
  | [] => Undef
  | x :: t => Ok (rosenbrock_from (nofZ 0) x t)
  end.
(** test_objectives.cpp:34-40; 418.9829 *)
Definition schwefel (v : list K) : K :=
  ndec 4189829 (-4) * nsize (length v) - fold_left (fun sum x => sum + x * nsin (nsqrt (nabs x))) v (nofZ 0).
(** test_objectives.cpp:42-48; [pi] is xo::constantsd::pi() *)
Definition rastrigin (pi : K) (v : list K) : K :=
  fold_left (fun sum x => sum + (sq x - nofZ 10 * ncos (nofZ 2 * pi * x))) v (nofZ 10 * nsize (length v)).

(** ** data_objective.h *)
Section Data.
Variable input : Type.
(** data_objective.h:18-21, 38-45: [model p x] is [ModelT( point )( x )] for a point with
    values [p]; constructing the model throws for another dimension *)
Definition data_evaluate (dim : nat) (model : list K -> input -> K) (data : list (input * K)) (p : list K) : outcome K :=
  let* _ := error_if (negb (Nat.eqb dim (length p)))
              ("Model dimension mismatch: " ++ show_nat dim ++ " != " ++ show_nat (length p))%string in
  Ok (fold_left (fun result xy => result + sq (model p (fst xy) - snd xy)) data (nofZ 0) / nsize (length data)).
End Data.
End Objectives.

(** ** test_objectives.cpp: the objectives, over doubles *)
(** function_objective.h:11-37: the objective info and the function of the point's values *)
Record function_objective := { fo_info : obj_info; fo_func : list f64 -> outcome f64 }.
Definition with_name (o : obj_info) (name : string) : obj_info :=
  {| oi_free := oi_free o; oi_locked := oi_locked o; oi_minimize := oi_minimize o; oi_target := oi_target o; oi_name := name |}.
(** function_objective.h:22-27 *)
Definition make_function_objective (f : list f64 -> outcome f64) (d : nat) (mean stdev lower upper : f64) (name : string) : outcome function_objective :=
  let* o := make_objective_info d mean stdev lower upper in
  Ok {| fo_info := with_name o name; fo_func := f |}.

Section Make.
Variable L : libm.
Variable pi : f64.    (* xo::constantsd::pi() *)
Let KF := numF L.
(** test_objectives.cpp:50-53 *)
Definition make_sphere_objective (d : nat) (mean stdev : f64) :=
  make_function_objective (fun v => Ok (@sphere KF v)) d mean stdev (flit (-1) 9) (flit 1 9) ("sphere-" ++ show_nat d).
(** test_objectives.cpp:55-58 *)
Definition make_ellipsoid_objective (d : nat) (mean stdev : f64) :=
  make_function_objective (fun v => Ok (@ellipsoid KF v)) d mean stdev (flit (-1) 9) (flit 1 9) ("ellipsoid-" ++ show_nat d).
(** test_objectives.cpp:60-63 *)
Definition make_himmelblau_objective :=
  make_function_objective (@himmelblau KF) 2 (fofZ 0) (flit 25 (-1)) (fofZ (-5)) (fofZ 5) "himmelblau".
(** test_objectives.cpp:65-68 *)
Definition make_rosenbrock_objective (d : nat) :=
  make_function_objective (@rosenbrock KF) d (flit 25 (-1)) (fofZ 1) (fofZ (-5)) (fofZ 10) ("rosenbrock-" ++ show_nat d).
(** test_objectives.cpp:70-73 *)
Definition make_schwefel_objective (d : nat) :=
  make_function_objective (fun v => Ok (@schwefel KF v)) d (fofZ 0) (fofZ 100) (fofZ (-500)) (fofZ 500) ("schwefel-" ++ show_nat d).
(** test_objectives.cpp:75-78 *)
Definition make_rastrigin_objective (d : nat) :=
  make_function_objective (fun v => Ok (@rastrigin KF pi v)) d (fofZ 0) (fofZ 1) (flit (-512) (-2)) (flit 512 (-2)) ("rastrigin-" ++ show_nat d).
(** test_objectives.cpp:80-91; 0.0 and 1.0 are the default mean and stdev (test_objectives.h:34) *)
Definition make_objectives (dims : list nat) : outcome (list function_objective) :=
  let* ll := omap (fun d =>
    let* a := make_sphere_objective d (fofZ 0) (fofZ 1) in
    let* b := make_rosenbrock_objective d in
    let* c := make_rastrigin_objective d in
    let* e := make_schwefel_objective d in
    Ok [a; b; c; e]) dims in
  Ok (concat ll).
End Make.
