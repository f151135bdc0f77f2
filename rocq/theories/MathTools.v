(** * math_tools.h, math_tools.cpp *)
From Coq Require Import ZArith Bool.
From Verif Require Import Prelude Num.
#[local] Open Scope num_scope.

Section MathTools.
Context {K : Num}.
Implicit Types a b v p : list K.

Definition nsum (l : list K) : K := fold_left (fun s x => s + x) l (nofZ 0).
(** xo::squared *)
Definition sq (x : K) : K := x * x.

(** math_tools.h:13-15 *)
Definition upd (v nv rate : K) : K := (nofZ 1 - rate) * v + rate * nv.
(** math_tools.h:16-21 *)
Definition vlength v : K := nsqrt (nsum (map (fun x => x * x) v)).
Definition map2 {A B C} (f : A -> B -> C) (l : list A) (m : list B) : list C := map (fun xy => f (fst xy) (snd xy)) (combine l m).
(** math_tools.h:23-29 *)
Definition dot_product a b : outcome K :=
  let* _ := assert_ (Nat.eqb (length a) (length b)) in Ok (nsum (map2 (fun x y => x * y) a b)).
(** math_tools.h:31-36 *)
Definition vec_sub a b : outcome (list K) :=
  let* _ := assert_ (Nat.eqb (length a) (length b)) in Ok (map2 (fun x y => x - y) a b).
(** math_tools.h:38-43 *)
Definition vec_add a b : outcome (list K) :=
  let* _ := assert_ (Nat.eqb (length a) (length b)) in Ok (map2 (fun x y => x + y) a b).
(** math_tools.h:45-49 *)
Definition vec_mul (s : K) a : list K := map (fun x => x * s) a.
(** math_tools.h:51-59; [eps] is xo::num<par_t>::ample_epsilon (xo, value not in /repo) *)
Definition projected (eps : K) a ab p : outcome (list K) :=
  let* ap := vec_sub p a in
  let* dot_ab := dot_product ab ab in
  if eps <? dot_ab then
    let* d := dot_product ap ab in
    let t := d / dot_ab in
    vec_add a (vec_mul t ab)
  else Ok a.
(** math_tools.cpp:16-23 *)
Definition normalized_distance a b v : outcome K :=
  let* _ := assert_ (Nat.eqb (length a) (length b) && Nat.eqb (length b) (length v)) in
  Ok (nsqrt (nsum (map2 (fun d w => sq d / w) (map2 (fun x y => x - y) a b) v))).
(** the diagonal covariance[i][i]: undefined when a row is too short *)
Fixpoint diagonal (i : nat) (m : list (list K)) : outcome (list K) :=
  match m with
  | [] => Ok []
  | row :: t => match nth_error row i with
                | None => Undef
                | Some x => let* r := diagonal (S i) t in Ok (x :: r)
                end
  end.
(** math_tools.cpp:7-14 *)
Definition mahalanobis_distance a b (cov : list (list K)) : outcome K :=
  let* _ := assert_ (Nat.eqb (length a) (length b) && Nat.eqb (length b) (length cov)) in
  let* d := diagonal 0 cov in
  normalized_distance a b d.
End MathTools.
