(** * Boundary transformers: boundary_transformer.cpp, cma_optimizer.cpp:1051-1149, optimizer.cpp:150-155. *)
From Coq Require Import ZArith Bool Reals.
From Flocq Require Import Core BinarySingleNaN.
From Verif Require Import Prelude Flt Num Round8.
#[local] Open Scope num_scope.

(** (int) of a floating-point value: truncation, undefined when the result does not fit. *)
Definition fits_int (z : Z) : bool := ((-2147483648 <=? z) && (z <=? 2147483647))%Z.
Definition to_int_R (x : R) : outcome Z := if fits_int (Ztrunc x) then Ok (Ztrunc x) else Undef.
Definition f_trunc (x : f64) : option Z :=
  match x with
  | B754_zero _ => Some 0%Z
  | B754_finite s m e _ => let a := if (0 <=? e)%Z then (Z.pos m * 2 ^ e)%Z else (Z.pos m / 2 ^ (- e))%Z in Some (if s then (- a)%Z else a)
  | _ => None
  end.
Definition to_int_F (x : f64) : outcome Z := match f_trunc x with Some z => if fits_int z then Ok z else Undef | None => Undef end.

Fixpoint map_out {A B} (f : A -> outcome B) (l : list A) : outcome (list B) :=
  match l with [] => Ok [] | a :: t => let* b := f a in let* r := map_out f t in Ok (b :: r) end.

Section Boundary.
Context {K : Num} (to_int : K -> outcome Z).

(** C fmin: ignores a NaN argument *)
Definition c_fmin (a b : K) : K := if negb (a =? a) then b else if b <? a then b else a.
Record bnd := { b_lb : K; b_ub : K; b_al : K; b_au : K }.
(** boundary_transformer.cpp:52-53, cma_optimizer.cpp:1077-1078 *)
Definition make_bnd (lb ub : K) : bnd :=
  {| b_lb := lb; b_ub := ub;
     b_al := c_fmin ((ub - lb) / nofZ 2) ((nofZ 1 + nabs lb) / nofZ 20);
     b_au := c_fmin ((ub - lb) / nofZ 2) ((nofZ 1 + nabs ub) / nofZ 20) |}.
(** boundary_transformer.cpp:34-55; parameters as (name, (min, max)) *)
Definition transformer_init (pars : list (string * (K * K))) : outcome (list bnd) :=
  map_out (fun p => let '(name, (lb, ub)) := p in
    if (lb =? ub) || (ub <? lb) then Throw ("Invalid upper and lower bounds for parameter " ++ name)%string else Ok (make_bnd lb ub)) pars.
(** cma_optimizer.cpp:1058-1080; [label i] is xo::to_str( i ) *)
Definition cma_bounds_init (label : nat -> string) (lb ub : list K) : outcome (list bnd) :=
  let* _ := assert_ (Nat.eqb (length ub) (length lb)) in
  map_out (fun p => let '(i, (l, u)) := p in
    if l =? u then Throw ("Invalid upper and lower bounds for parameter " ++ label i)%string else Ok (make_bnd l u)) (combine (seq 0 (length lb)) (combine lb ub)).

(** [1 + (int)( v )]: the sum of ints must not overflow *)
Definition one_plus_int (v : K) : outcome Z := let* k := to_int v in if fits_int (1 + k) then Ok (1 + k)%Z else Undef.
(** boundary_transformer.cpp:68-84, cma_optimizer.cpp:1091-1107: shift by periods, then mirror *)
Definition fold_into (b : bnd) (x : K) : outcome K :=
  let lb := b_lb b in let ub := b_ub b in let al := b_al b in let au := b_au b in
  let xlow := lb - nofZ 2 * al - (ub - lb) / nofZ 2 in
  let xup := ub + nofZ 2 * au + (ub - lb) / nofZ 2 in
  let r := nofZ 2 * (ub - lb + al + au) in
  let* y := if x <? xlow then let* k := one_plus_int ((xlow - x) / r) in Ok (x + r * nofZ k) else Ok x in
  let* y := if xup <? y then let* k := one_plus_int ((y - xup) / r) in Ok (y - r * nofZ k) else Ok y in
  let y := if y <? lb - al then y + nofZ 2 * (lb - al - y) else y in
  let y := if ub + au <? y then y - nofZ 2 * (y - ub - au) else y in
  Ok y.
(** boundary_transformer.cpp:86, cma_optimizer.cpp:1109 *)
Definition is_bug (b : bnd) (y : K) : bool :=
  (y <? b_lb b - b_al b - ndec 1 (-15)) || (b_ub b + b_au b + ndec 1 (-15) <? y).
(** boundary_transformer.cpp:99-102, cma_optimizer.cpp:1125-1128 *)
Definition squash (b : bnd) (y : K) : K :=
  let lb := b_lb b in let ub := b_ub b in let al := b_al b in let au := b_au b in
  if y <? lb + al then lb + (y - (lb - al)) * (y - (lb - al)) / nofZ 4 / al
  else if ub - au <? y then ub - (y - (ub + au)) * (y - (ub + au)) / nofZ 4 / au
  else y.

(** boundary_transformer.cpp:72-89: on a BUG the component is left as it was (and the error logged) *)
Definition shift_or_keep (b : bnd) (x : K) : outcome K :=
  let* y := fold_into b x in Ok (if is_bug b y then x else y).
(** apply a per-component function to the first [length bs] components *)
Definition on_components (f : bnd -> K -> outcome K) (bs : list bnd) (x : list K) : outcome (list K) :=
  if Nat.ltb (length x) (length bs) then Undef
  else let* y := map_out (fun bx => f (fst bx) (snd bx)) (combine bs x) in Ok (y ++ skipn (length bs) x).
(** boundary_transformer.cpp:57-105 *)
Definition cmaes_apply (bs : list bnd) (x : list K) : outcome (list K) :=
  let* x1 := on_components shift_or_keep bs x in
  on_components (fun b y => Ok (squash b y)) bs x1.

(** cma_optimizer.cpp:1082-1113; [bug] is the text of the error *)
Definition shift_or_throw (bug : string) (b : bnd) (x : K) : outcome K :=
  let* y := fold_into b x in if is_bug b y then Throw bug else Ok y.
(** cma_optimizer.cpp:1115-1130 *)
Definition cma_trans (bug : string) (bs : list bnd) (x : list K) : outcome (list K) :=
  let* y := on_components (shift_or_throw bug) bs x in
  on_components (fun b y => Ok (squash b y)) bs y.
(** cma_optimizer.cpp:1132-1149 *)
Definition unsquash (b : bnd) (y : K) : K :=
  let lb := b_lb b in let ub := b_ub b in let al := b_al b in let au := b_au b in
  if y <? lb + al then (lb - al) + nofZ 2 * nsqrt (al * (y - lb))
  else if ub - au <? y then (ub + au) - nofZ 2 * nsqrt (au * (ub - y))
  else y.
Definition cma_trans_inverse (bs : list bnd) (x : list K) : outcome (list K) := on_components (fun b y => Ok (unsquash b y)) bs x.

(** boundary_transformer.cpp:24-32; [triangle_wave] is xo's.  Bounds as (min, max). *)
Definition reflective_apply (triangle_wave : K -> K -> K -> K) (bs : list (K * K)) (v : list K) : outcome (list K) :=
  let* _ := assert_ (Nat.eqb (length v) (length bs)) in
  Ok (map (fun bv => let '((l, u), x) := bv in if (x <? l) || (u <? x) then triangle_wave x l u else x) (combine bs v)).
(** boundary_transformer.cpp:17-22; [soft_clamp] is xo's (value after the call) *)
Definition soft_limit_apply (soft_clamp : K -> K -> K -> K -> K) (threshold : K) (bs : list (K * K)) (v : list K) : outcome (list K) :=
  let* _ := assert_ (Nat.eqb (length v) (length bs)) in
  Ok (map (fun bv => let '((l, u), x) := bv in soft_clamp x l u threshold) (combine bs v)).
(** optimizer.cpp:150-155: [t] is the transformer, if one was set *)
Definition try_apply_transform (t : option (list K -> outcome (list K))) (v : list K) : outcome (list K) :=
  match t with Some f => f v | None => Ok v end.
End Boundary.
Arguments bnd : clear implicits.
