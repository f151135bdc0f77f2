(** * The complete step of a population-based optimizer: base class (Optimizer.v) plus
    the subclass' own sampling and update.

    mes_optimizer.cpp:139-151, eva_optimizer.cpp:133-145 and cma_optimizer.cpp:1311-1322
    all have the same internal_step:
    [sample; if ( evaluate_step( population ) ) { update; return true; } else return false;] *)
From Coq Require Import ZArith Bool.
From Verif Require Import Prelude Flt Round8 FlatMap ParInfo ObjInfo Optimizer.

(** A subclass: its state, how it samples (new state, population) and how it updates
    itself from current_step_fitnesses_. *)
Record sampler (S : Type) := {
  s_sample : S -> S * outcome (list point);
  s_update : S -> list f64 -> S * outcome unit }.
Arguments s_sample {S}. Arguments s_update {S}.

Section Driver.
Context {S : Type} (smp : sampler S) (E : env).

(** internal_step; [eval] is what the evaluator returns for the population *)
Definition internal_step (o : opt) (s : S) (eval : list point -> list result) : opt * S * outcome bool :=
  match s_sample smp s with
  | (s1, Ok pop) =>
    match evaluate_step E o pop (eval pop) with
    | (o1, Ok true) =>
      match s_update smp s1 (c_cur_fits (o_core o1)) with
      | (s2, Ok _) => (o1, s2, Ok true)
      | (s2, Throw w) => (o1, s2, Throw w)
      | (s2, Undef) => (o1, s2, Undef)
      end
    | (o1, r) => (o1, s1, r)
    end
  | (s1, Throw w) => (o, s1, Throw w)
  | (s1, Undef) => (o, s1, Undef)
  end.

(** optimizer.cpp:44-65 with this internal_step; [interrupted]: interrupt() is called
    before the stop conditions are tested *)
Definition full_step (o : opt) (s : S) (eval : list point -> list result) (interrupted : bool) : opt * S * outcome (option nat) :=
  if Nat.eqb (oi_dim (e_info E)) 0 then (o, s, Throw "Objective has no free parameters")
  else
    let tr1 := if Nat.eqb (c_steps (o_core o)) 0 then signal E EStart (o_core o) (o_trace o) else o_trace o in
    let tr2 := signal E EPreStep (o_core o) tr1 in
    match internal_step {| o_core := o_core o; o_scs := o_scs o; o_stopped := o_stopped o; o_trace := tr2 |} s eval with
    | (o3, s3, Ok ok) =>
      let c3 := o_core o3 in
      let tr4 := if ok then signal E EPostStep c3 (o_trace o3) else o_trace o3 in
      let c4 := if ok then with_steps c3 (Datatypes.S (c_steps c3)) else c3 in
      let c5 := if interrupted then with_interrupt c4 true else c4 in
      let '(o', r) := test_stop E {| o_core := c5; o_scs := o_scs o3; o_stopped := o_stopped o3; o_trace := tr4 |} in
      (o', s3, r)
    | (o3, s3, Throw w) => (o3, s3, Throw w)
    | (o3, s3, Undef) => (o3, s3, Undef)
    end.

(** Several calls of step() (the loop of run() stops at the first that does not return
    null): the evaluator may answer differently each time.  A throwing step ends it. *)
Fixpoint full_steps (o : opt) (s : S) (evals : list ((list point -> list result) * bool)) : opt * S * outcome unit :=
  match evals with
  | [] => (o, s, Ok tt)
  | (eval, i) :: t =>
    match full_step o s eval i with
    | (o', s', Ok _) => full_steps o' s' t
    | (o', s', Throw w) => (o', s', Throw w)
    | (o', s', Undef) => (o', s', Undef)
    end
  end.
End Driver.
