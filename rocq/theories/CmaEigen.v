(** * The eigendecomposition of cma_optimizer.cpp:429-729 (myhypot, QLalgo2, Householder2, Eigen)
    over an abstract number type.

    The arrays d, e and V are functions of their indices.  All indices of the code are
    between 0 and n-1 except possibly those that involve m (line 485: the comment there says that the
    case m == n should be rejected): d[ m ] is read in line 510, and m == n is an access out of
    bounds.  The model returns [Undef] in that case.
    The number of iterations of the do loop (lines 487-544) is not limited in the code; the model has a
    limit [fuel] for each of these loops, and returns [Throw] when it is exceeded, which means that
    nothing is claimed about such a run.
    Not modelled: Check_Eigen (lines 731-765, only logs, and is switched off). *)
From Coq Require Import ZArith Bool.
From Verif Require Import Prelude Num Cma.
#[local] Open Scope num_scope.

(** for ( i = lo; i < lo + cnt; ++i ) *)
Fixpoint for_up {S} (lo cnt : nat) (body : nat -> S -> S) (s : S) : S :=
  match cnt with O => s | Datatypes.S c => for_up (Datatypes.S lo) c body (body lo s) end.
(** for ( i = lo + cnt - 1; i >= lo; --i ) *)
Fixpoint for_down {S} (lo cnt : nat) (body : nat -> S -> S) (s : S) : S :=
  match cnt with O => s | Datatypes.S c => for_down lo c body (body (lo + c)%nat s) end.

Section Eigen.
Context {K : Num}.
Definition vec : Type := nat -> K.
Definition mat : Type := nat -> nat -> K.
Definition vset (v : vec) (i : nat) (x : K) : vec := fun j => if Nat.eqb j i then x else v j.
Definition mset (m : mat) (i j : nat) (x : K) : mat := fun a b => if Nat.eqb a i && Nat.eqb b j then x else m a b.
Notation "0" := (nofZ 0%Z) : num_scope.
Notation "1" := (nofZ 1%Z) : num_scope.

(** cma_optimizer.cpp:429-442 *)
Definition hypot (a b : K) : K :=
  if nabs b <? nabs a then let r := b / a in nabs a * nsqrt (1 + r * r)
  else if negb (b =? 0) then let r := a / b in nabs b * nsqrt (1 + r * r)
  else 0.

Record arrays := { aV : mat; ad : vec; ae : vec }.

(** ** Householder2 (cma_optimizer.cpp:583-703) *)
(** lines 609-614 *)
Definition row_scale (d : vec) (i : nat) : K := for_up O i (fun k s => s + nabs (d k)) 0.
(** lines 615-622 *)
Definition reduce_trivial (i : nat) (s : arrays) : arrays :=
  for_up O i (fun j s => {| aV := mset (mset (aV s) i j 0) j i 0; ad := vset (ad s) j (aV s (i - 1)%nat j); ae := ae s |})
    {| aV := aV s; ad := ad s; ae := vset (ae s) i (ad s (i - 1)%nat) |}.
(** lines 628-631 *)
Definition scale_row (scale : K) (i : nat) (d : vec) : vec * K :=
  for_up O i (fun k s => let x := fst s k / scale in (vset (fst s) k x, snd s + x * x)) (d, 0).
(** lines 644-653: columns j *)
Definition apply_column (i j : nat) (s : arrays) : arrays :=
  let f := ad s j in
  let V := mset (aV s) j i f in
  let g0 := ae s j + V j j * f in
  let r := for_up (S j) (i - S j)%nat (fun k r => (fst r + V k j * ad s k, vset (snd r) k (snd r k + V k j * f))) (g0, ae s) in
  {| aV := V; ad := ad s; ae := vset (snd r) j (fst r) |}.
(** lines 654-658 *)
Definition divide_e (h : K) (i : nat) (d e : vec) : vec * K :=
  for_up O i (fun j s => let x := fst s j / h in (vset (fst s) j x, snd s + x * d j)) (e, 0).
(** lines 663-671 *)
Definition update_column (i j : nat) (s : arrays) : arrays :=
  let f := ad s j in
  let g := ae s j in
  let V := for_up j (i - j)%nat (fun k V => mset V k j (V k j - (f * ae s k + g * ad s k))) (aV s) in
  {| aV := mset V i j 0; ad := vset (ad s) j (V (i - 1)%nat j); ae := ae s |}.
(** lines 606-674, one iteration *)
Definition reduce (i : nat) (s : arrays) : arrays :=
  let scale := row_scale (ad s) i in
  if scale =? 0 then
    let s1 := reduce_trivial i s in {| aV := aV s1; ad := vset (ad s1) i 0; ae := ae s1 |}
  else
    let '(d1, h1) := scale_row scale i (ad s) in
    let f := d1 (i - 1)%nat in
    let g := if 0 <? f then - nsqrt h1 else nsqrt h1 in
    let h := h1 - f * g in
    let d2 := vset d1 (i - 1)%nat (f - g) in
    let e1 := for_up O i (fun j e => vset e j 0) (vset (ae s) i (scale * g)) in
    let s2 := for_up O i (fun j s => apply_column i j s) {| aV := aV s; ad := d2; ae := e1 |} in
    let '(e2, f2) := divide_e h i (ad s2) (ae s2) in
    let hh := f2 / (h + h) in
    let e3 := for_up O i (fun j e => vset e j (e j - hh * ad s2 j)) e2 in
    let s3 := for_up O i (fun j s => update_column i j s) {| aV := aV s2; ad := ad s2; ae := e3 |} in
    {| aV := aV s3; ad := vset (ad s3) i h; ae := ae s3 |}.
(** lines 684-695 *)
Definition apply_reflection (i : nat) (h : K) (s : mat * vec) : mat * vec :=
  let d1 := for_up O (S i) (fun k d => vset d k (fst s k (S i) / h)) (snd s) in
  (for_up O (S i) (fun j V =>
     let g := for_up O (S i) (fun k g => g + V k (S i) * V k j) 0 in
     for_up O (S i) (fun k V => mset V k j (V k j - g * d1 k)) V) (fst s), d1).
(** lines 677-699, one iteration *)
Definition accumulate (n i : nat) (s : arrays) : arrays :=
  let V1 := mset (aV s) (n - 1)%nat i (aV s i i) in
  let V2 := mset V1 i i 1 in
  let h := ad s (S i) in
  let '(V3, d3) := if negb (h =? 0) then apply_reflection i h (V2, ad s) else (V2, ad s) in
  {| aV := for_up O (S i) (fun k V => mset V k (S i) 0) V3; ad := d3; ae := ae s |}.
(** lines 600-703 *)
Definition householder (n : nat) (s : arrays) : arrays :=
  let s1 := {| aV := aV s; ad := for_up O n (fun j d => vset d j (aV s (n - 1)%nat j)) (ad s); ae := ae s |} in
  let s2 := for_down 1%nat (n - 1)%nat reduce s1 in
  let s3 := for_up O (n - 1)%nat (accumulate n) s2 in
  let s4 := for_up O n (fun j s => {| aV := mset (aV s) (n - 1)%nat j 0; ad := vset (ad s) j (aV s (n - 1)%nat j); ae := ae s |}) s3 in
  {| aV := mset (aV s4) (n - 1)%nat (n - 1)%nat 1; ad := ad s4; ae := vset (ae s4) O 0 |}.

(** ** QLalgo2 (cma_optimizer.cpp:445-581) *)
Record ql := { qV : mat; qd : vec; qe : vec; qf : K; qtst : K }.
Definition eps : K := ndec 222 (-18).
(** lines 477-482 *)
Fixpoint find_small (e : vec) (tol : K) (m cnt : nat) : nat :=
  match cnt with O => m | S c => if nabs (e m) <=? tol then m else find_small e tol (S m) c end.
(** lines 533-537 *)
Definition rotate (n i : nat) (c s : K) (V : mat) : mat :=
  for_up O n (fun k V => let h := V k (S i) in
                         let V1 := mset V k (S i) (s * V k i + c * h) in
                         mset V1 k i (c * V1 k i - s * h)) V.
(** the local variables of lines 510-517 *)
Record sweep := { wV : mat; wd : vec; we : vec; wp : K; wc : K; wc2 : K; wc3 : K; ws : K; ws2 : K }.
(** lines 518-538 *)
Definition sweep_step (n i : nat) (w : sweep) : sweep :=
  let c3 := wc2 w in
  let c2 := wc w in
  let s2 := ws w in
  let g := wc w * we w i in
  let h := wc w * wp w in
  let r := hypot (wp w) (we w i) in
  let e1 := vset (we w) (S i) (ws w * r) in
  let s := e1 i / r in
  let c := wp w / r in
  let p := c * wd w i - s * g in
  {| wV := rotate n i c s (wV w); wd := vset (wd w) (S i) (h + s * (c * g + s * wd w i)); we := e1;
     wp := p; wc := c; wc2 := c2; wc3 := c3; ws := s; ws2 := s2 |}.
(** lines 488-542, one iteration of the do loop *)
Definition ql_iteration (n l m : nat) (q : ql) : ql :=
  let g := qd q l in
  let p := (qd q (S l) - g) / (nofZ 2 * qe q l) in
  let r0 := hypot p 1 in
  let r := if p <? 0 then - r0 else r0 in
  let d1 := vset (qd q) l (qe q l / (p + r)) in
  let d2 := vset d1 (S l) (qe q l * (p + r)) in
  let dl1 := d2 (S l) in
  let h := g - d2 l in
  let d3 := for_up (l + 2)%nat (n - (l + 2))%nat (fun i d => vset d i (d i - h)) d2 in
  let el1 := qe q (S l) in
  let w := for_down l (m - l)%nat (sweep_step n)
             {| wV := qV q; wd := d3; we := qe q; wp := d3 m; wc := 1; wc2 := 1; wc3 := 1; ws := 0; ws2 := 0 |} in
  let p := - ws w * ws2 w * wc3 w * el1 * we w l / dl1 in
  {| qV := wV w; qd := vset (wd w) l (wc w * p); qe := vset (we w) l (ws w * p); qf := qf q + h; qtst := qtst q |}.
(** lines 487-544: do ... while *)
Fixpoint ql_loop (fuel n l m : nat) (q : ql) : outcome ql :=
  match fuel with
  | O => Throw "no convergence"
  | S fu =>
    if Nat.leb n m then Undef   (* d[ m ] *)
    else
      let q1 := ql_iteration n l m q in
      if eps * qtst q1 <? nabs (qe q1 l) then ql_loop fu n l m q1 else Ok q1
  end.
(** lines 472-548, one iteration *)
Definition ql_row (fuel n l : nat) (q : ql) : outcome ql :=
  let t := nabs (qd q l) + nabs (qe q l) in
  let tst := if qtst q <? t then t else qtst q in
  let m := find_small (qe q) (eps * tst) l (n - l)%nat in
  let q1 := {| qV := qV q; qd := qd q; qe := qe q; qf := qf q; qtst := tst |} in
  let* q2 := if Nat.ltb l m then ql_loop fuel n l m q1 else Ok q1 in
  Ok {| qV := qV q2; qd := vset (qd q2) l (qd q2 l + qf q2); qe := vset (qe q2) l 0; qf := qf q2; qtst := qtst q2 |}.
Fixpoint ql_rows (fuel n l cnt : nat) (q : ql) : outcome ql :=
  match cnt with O => Ok q | S c => let* q1 := ql_row fuel n l q in ql_rows fuel n (S l) c q1 end.
(** lines 550-578: selection sort *)
Definition smallest (n i : nat) (d : vec) : nat * K :=
  for_up (S i) (n - S i)%nat (fun j s => if d j <? snd s then (j, d j) else s) (i, d i).
Definition swap_columns (n i k : nat) (V : mat) : mat :=
  for_up O n (fun j V => let p := V j i in mset (mset V j i (V j k)) j k p) V.
Definition sort_step (n i : nat) (s : mat * vec) : mat * vec :=
  let '(V, d) := s in
  let '(k, p) := smallest n i d in
  if Nat.eqb k i then (V, d) else (swap_columns n i k V, vset (vset d k (d i)) i p).
Definition sort_eigen (n : nat) (s : mat * vec) : mat * vec := for_up O (n - 1)%nat (sort_step n) s.
(** lines 445-581 *)
Definition ql_algorithm (fuel n : nat) (a : arrays) : outcome (mat * vec) :=
  let e := vset (for_up 1%nat (n - 1)%nat (fun i e => vset e (i - 1)%nat (e i)) (ae a)) (n - 1)%nat 0 in
  let* q := ql_rows fuel n O n {| qV := aV a; qd := ad a; qe := e; qf := 0; qtst := 0 |} in
  Ok (sort_eigen n (qV q, qd q)).

(** ** Eigen (cma_optimizer.cpp:705-729)
    [C] has rows of lengths 1, 2, ..., n.  The old contents of diag and rgtmp are never used
    (every element is written before it is read); they are 0 here.  For n = 1 the comparison
    C != Q may be false, but then there is nothing to copy. *)
Definition symmetric_of (C : list (list K)) : mat := fun i j => at_ (row_ C (Nat.max i j)) (Nat.min i j).
Definition eigen (fuel : nat) (C : list (list K)) : outcome (list K * list (list K)) :=
  let n := length C in
  if Nat.eqb n O then Undef
  else
    let* r := ql_algorithm fuel n (householder n {| aV := symmetric_of C; ad := fun _ => 0; ae := fun _ => 0 |}) in
    let '(V, d) := r in
    Ok (build n d, build n (fun i => build n (V i))).
End Eigen.
