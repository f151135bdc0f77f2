(** * optimizer_pool (optimizer_pool.h, optimizer_pool.cpp).

    The members are optimizers as in Optimizer.v, each driven by arbitrary populations
    and results.  Pools inside pools are not modelled.  Concurrency: the step() of one
    member is taken as atomic (members share no data with each other), but the order in
    which concurrently running members finish, relative to the pool's own loop that
    waits for them, is arbitrary (a schedule). *)
From Coq Require Import ZArith Bool.
From Verif Require Import Prelude Flt Flt32 Round8 FlatMap ParInfo ObjInfo Num MathTools Mes Optimizer.

Record member := { m_env : env; m_opt : opt }.
Definition m_with (m : member) (o : opt) : member := {| m_env := m_env m; m_opt := o |}.
Definition m_best (m : member) : f64 := c_best_fit (o_core (m_opt m)).
Definition m_stopped (m : member) : bool := match o_stopped (m_opt m) with Some _ => true | None => false end.

(** optimizer_pool.h:31-47 and the base-class environment of the pool itself *)
Record pool_env := {
  pe_env : env; pe_window : nat; pe_start : nat; pe_look : nat; pe_use_predicted : bool; pe_active : nat; pe_concurrent : nat;
  pe_sort : sorter }.
(** The pool's stop conditions: its own (optimizer_pool.cpp:10-20) and those of Optimizer.v *)
Inductive pcond : Type := PcAll | PcBase (sc : stop_cond).
Record pool := {
  po_base : core;                (* the base-class data of the pool; only the step count and interruption change *)
  po_members : list member;      (* optimizers_ *)
  po_queue : list nat;           (* step_queue_ *)
  po_best : option nat;          (* best_optimizer_idx_; None is no_index *)
  po_best_fit : f64;             (* optimizer_pool::best_fitness_ *)
  po_conds : list pcond; po_stopped : option nat; po_trace : list delivery }.
Definition with_members (P : pool) ms : pool :=
  {| po_base := po_base P; po_members := ms; po_queue := po_queue P; po_best := po_best P; po_best_fit := po_best_fit P; po_conds := po_conds P; po_stopped := po_stopped P; po_trace := po_trace P |}.
Definition with_queue (P : pool) q : pool :=
  {| po_base := po_base P; po_members := po_members P; po_queue := q; po_best := po_best P; po_best_fit := po_best_fit P; po_conds := po_conds P; po_stopped := po_stopped P; po_trace := po_trace P |}.
Definition with_pbest (P : pool) b f : pool :=
  {| po_base := po_base P; po_members := po_members P; po_queue := po_queue P; po_best := b; po_best_fit := f; po_conds := po_conds P; po_stopped := po_stopped P; po_trace := po_trace P |}.
Definition with_trace (P : pool) tr : pool :=
  {| po_base := po_base P; po_members := po_members P; po_queue := po_queue P; po_best := po_best P; po_best_fit := po_best_fit P; po_conds := po_conds P; po_stopped := po_stopped P; po_trace := tr |}.
Definition with_base (P : pool) c : pool :=
  {| po_base := c; po_members := po_members P; po_queue := po_queue P; po_best := po_best P; po_best_fit := po_best_fit P; po_conds := po_conds P; po_stopped := po_stopped P; po_trace := po_trace P |}.
Definition with_conds (P : pool) l s : pool :=
  {| po_base := po_base P; po_members := po_members P; po_queue := po_queue P; po_best := po_best P; po_best_fit := po_best_fit P; po_conds := l; po_stopped := s; po_trace := po_trace P |}.

(** optimizer_pool.h:18-22, 58: the overridden getters answer for the best member; [view]
    is what a reporter or condition can see.  Without a best member they violate an
    xo_assert; then [view] shows the base-class data, and uses of the getters are Undef below. *)
Definition best_member (P : pool) : option member := match po_best P with Some i => nth_error (po_members P) i | None => None end.
Definition view (P : pool) : core :=
  match best_member P with
  | None => po_base P
  | Some m => let c := o_core (m_opt m) in let b := po_base P in
    {| c_steps := c_steps b; c_best_fit := c_best_fit c; c_best_pt := c_best_pt c; c_cur_fit := c_cur_fit c; c_cur_fits := c_cur_fits c; c_cur_pt := c_cur_pt c;
       c_samples := c_samples b; c_hist := c_hist b; c_cap := c_cap b; c_trend := c_trend b; c_trend_step := c_trend_step b; c_interrupted := c_interrupted b |}
  end.
Definition psignal (PE : pool_env) (ev : event) (P : pool) : pool := with_trace P (signal (pe_env PE) ev (view P) (po_trace P)).

(** optimizer_pool.h:21-22 *)
Definition pool_best_fitness (P : pool) : outcome f64 := match best_member P with Some m => Ok (m_best m) | None => Undef end.
Definition pool_best_point (P : pool) : outcome point := match best_member P with Some m => Ok (c_best_pt (o_core (m_opt m))) | None => Undef end.

(** ** Members *)
Definition m_test (m : member) : member * outcome (option nat) := let '(o, r) := test_stop (m_env m) (m_opt m) in (m_with m o, r).
Definition m_predict (m : member) (n : nat) : member * outcome f64 :=
  let '(c, r) := predicted_fitness (m_env m) (o_core (m_opt m)) n in (m_with m (with_core (m_opt m) c), let* x := r in Ok (f64_of_f32 x)).
Definition m_step (m : member) (i : step_input) : member * outcome (option nat) := let '(o, r) := step (m_env m) (m_opt m) i in (m_with m o, r).
Definition m_interrupt (m : member) : member := m_with m (with_core (m_opt m) (with_interrupt (o_core (m_opt m)) true)).
(** optimizer.h:60: set_fitness_tracking_window_size *)
Definition m_window (m : member) (n : nat) : member := m_with m (with_core (m_opt m) (with_cap (o_core (m_opt m)) n)).

(** optimizer_pool.cpp:36-44 *)
Definition push_back (PE : pool_env) (P : pool) (m : member) : pool :=
  let m1 := m_window m (pe_window PE) in
  let m2 := if pe_use_predicted PE then m_with m1 (add_stop_condition (m_opt m1) (ScPredicted fzero (worst_fitness (e_info (pe_env PE))) (pe_look PE) (pe_start PE))) else m1 in
  with_members P (po_members P ++ [m2]).
(** optimizer_pool.cpp:22-34 *)
Definition new_pool (PE : pool_env) : pool :=
  {| po_base := init_core (pe_env PE); po_members := []; po_queue := []; po_best := None; po_best_fit := worst_fitness (e_info (pe_env PE));
     po_conds := [PcBase ScAbort; PcBase (ScError None); PcAll]; po_stopped := None; po_trace := [] |}.
(** optimizer.cpp:99-104 for the pool (window sizes of the pool's own, always empty history do not matter) *)
Definition add_pool_condition (P : pool) (sc : stop_cond) : pool := with_conds P (po_conds P ++ [PcBase sc]) (po_stopped P).
(** optimizer_pool.cpp:46-51 *)
Definition pool_interrupt (P : pool) : pool := with_base (with_members P (map m_interrupt (po_members P))) (with_interrupt (po_base P) true).

(** ** Stop conditions of the pool *)
(** optimizer_pool.cpp:15-18: every member is tested ([&=] does not short-circuit) *)
Fixpoint all_stopped (ms : list member) : list member * outcome bool :=
  match ms with
  | [] => ([], Ok true)
  | m :: t =>
    match m_test m with
    | (m', Ok r) => let '(t', r') := all_stopped t in (m' :: t', let* b := r' in Ok ((match r with Some _ => true | None => false end) && b))
    | (m', Throw w) => (m' :: t, Throw w)
    | (m', Undef) => (m' :: t, Undef)
    end
  end.
(** best_fitness(), current_step_fitnesses() need a best member *)
Definition needs_best (sc : stop_cond) (steps : nat) : bool :=
  match sc with ScTarget _ => true | ScFlat _ => Nat.ltb 0 steps | _ => false end.
Definition pc_test (PE : pool_env) (P : pool) (pc : pcond) : pool * pcond * outcome bool :=
  match pc with
  | PcAll => let '(ms, r) := all_stopped (po_members P) in (with_members P ms, PcAll, r)
  | PcBase sc =>
    if needs_best sc (c_steps (po_base P)) && match po_best P with None => true | Some _ => false end then (P, pc, Undef)
    else let '(_, sc', r) := sc_test (pe_env PE) (view P) sc in (P, PcBase sc', r)
  end.
Fixpoint pc_list (PE : pool_env) (P : pool) (i : nat) (l : list pcond) : pool * list pcond * outcome (option nat) :=
  match l with
  | [] => (P, [], Ok None)
  | pc :: t =>
    match pc_test PE P pc with
    | (P', pc', Ok true) => (P', pc' :: t, Ok (Some i))
    | (P', pc', Ok false) => let '(P'', t', r) := pc_list PE P' (S i) t in (P'', pc' :: t', r)
    | (P', pc', Throw w) => (P', pc' :: t, Throw w)
    | (P', pc', Undef) => (P', pc' :: t, Undef)
    end
  end.
(** optimizer.cpp:82-97 *)
Definition pool_test (PE : pool_env) (P : pool) : pool * outcome (option nat) :=
  match po_stopped P with
  | Some i => (P, Ok (Some i))
  | None =>
    let '(P1, l, r) := pc_list PE P 0 (po_conds P) in
    match r with
    | Ok (Some i) => (psignal PE (EStop i) (with_conds P1 l (Some i)), Ok (Some i))
    | _ => (with_conds P1 l None, r)
    end
  end.

(** ** Choosing members *)
(** optimizer_pool.cpp:59-77 *)
Fixpoint predictions (PE : pool_env) (active : nat) (ms : list member) : list member * outcome (list f64) :=
  match ms with
  | [] => ([], Ok [])
  | m :: t =>
    if Nat.ltb active (pe_active PE) then
      match m_test m with
      | (m', Ok None) =>
        let '(m'', p) := if Nat.leb (pe_start PE) (c_steps (o_core (m_opt m'))) then m_predict m' (pe_look PE)
                         else (m', Ok (best_fitness_value (e_info (pe_env PE)))) in
        match p with
        | Ok x => let '(t', r) := predictions PE (S active) t in (m'' :: t', let* l := r in Ok (x :: l))
        | Throw w => (m'' :: t, Throw w)
        | Undef => (m'' :: t, Undef)
        end
      | (m', Ok (Some _)) => let '(t', r) := predictions PE active t in (m' :: t', let* l := r in Ok (worst_fitness (e_info (pe_env PE)) :: l))
      | (m', Throw w) => (m' :: t, Throw w)
      | (m', Undef) => (m' :: t, Undef)
      end
    else let '(t', r) := predictions PE active t in (m :: t', let* l := r in Ok (worst_fitness (e_info (pe_env PE)) :: l))
  end.
(** optimizer_pool.cpp:89-96 *)
Fixpoint fill (PE : pool_env) (preds : list f64) (ms : list member) (order : list nat) (q : list nat) : list member * list nat * outcome unit :=
  match order with
  | [] => (ms, q, Ok tt)
  | i :: t =>
    match nth_error ms i with
    | None => (ms, q, Undef)
    | Some m =>
      match m_test m with
      | (m', Ok None) =>
        let q' := q ++ [i] in
        let worse := match t with j :: _ => match nth_error preds i, nth_error preds j with Some a, Some b => fne a b | _, _ => true end | [] => false end in
        if worse && Nat.leb (pe_concurrent PE) (length q') then (list_set ms i m', q', Ok tt)
        else fill PE preds (list_set ms i m') t q'
      | (m', Ok (Some _)) => (list_set ms i m', q, Ok tt)
      | (m', Throw w) => (list_set ms i m', q, Throw w)
      | (m', Undef) => (list_set ms i m', q, Undef)
      end
    end
  end.
(** optimizer_pool.cpp:83-106; the log line reads best_fitness() after the first step.
    A NaN among the predictions makes the comparison no strict weak order, for which
    std::sort has undefined behaviour (simplification: also when it is the only one). *)
Definition refill (PE : pool_env) (P : pool) : pool * outcome unit :=
  match po_queue P with
  | _ :: _ => (P, Ok tt)
  | [] =>
    match predictions PE 0 (po_members P) with
    | (ms, Ok preds) =>
      if existsb fisnan preds then (with_members P ms, Undef) else
      let order := sorted_indices (pe_sort PE) (is_better (e_info (pe_env PE))) preds in
      let '(ms', q, r) := fill PE preds ms order [] in
      (with_queue (with_members P ms') q,
       let* _ := r in
       if Nat.ltb 0 (c_steps (po_base P)) && match po_best P with None => true | Some _ => false end then Undef else Ok tt)
    | (ms, Throw w) => (with_members P ms, Throw w)
    | (ms, Undef) => (with_members P ms, Undef)
    end
  end.

(** ** Stepping members *)
(** the asynchronous call of optimizer_pool.cpp:111 runs to completion, unless it has already *)
Definition flight : Type := list member * list (nat * outcome (option nat)).
Definition complete (inp : nat -> step_input) (fl : flight) (i : nat) : flight :=
  let '(ms, done) := fl in
  if existsb (Nat.eqb i) (map fst done) then fl
  else match nth_error ms i with
       | Some m => let '(m', r) := m_step m (inp i) in (list_set ms i m', (i, r) :: done)
       | None => fl
       end.
Fixpoint result_of (i : nat) (done : list (nat * outcome (option nat))) : option (outcome (option nat)) :=
  match done with [] => None | (j, r) :: t => if Nat.eqb i j then Some r else result_of i t end.
(** find_stop_condition<predicted_fitness_condition>().fitness_ = f *)
Fixpoint set_predicted (l : list stop_cond) (f : f64) : option (list stop_cond) :=
  match l with
  | [] => None
  | ScPredicted p _ k n :: t => Some (ScPredicted p f k n :: t)
  | sc :: t => option_map (cons sc) (set_predicted t f)
  end.
Fixpoint set_targets (ms : list member) (f : f64) : list member * bool :=
  match ms with
  | [] => ([], true)
  | m :: t =>
    match set_predicted (o_scs (m_opt m)) f with
    | None => (m :: t, false)
    | Some l => let o := m_opt m in
      let '(t', ok) := set_targets t f in
      (m_with m {| o_core := o_core o; o_scs := l; o_stopped := o_stopped o; o_trace := o_trace o |} :: t', ok)
    end
  end.
(** optimizer_pool.cpp:117-134 for the member [i], whose step has returned *)
Definition absorb_member (PE : pool_env) (P : pool) (i : nat) : pool * outcome unit :=
  match nth_error (po_members P) i with
  | None => (P, Undef)
  | Some m =>
    let new_best := match po_best P with None => true | Some _ => is_better (e_info (pe_env PE)) (m_best m) (po_best_fit P) end in
    let '(P2, r) :=
      if new_best then
        let P1 := with_pbest P (Some i) (m_best m) in
        if pe_use_predicted PE then
          let '(ms, ok) := set_targets (po_members P1) (m_best m) in
          if ok then (psignal PE (ENewBest (c_best_pt (o_core (m_opt m))) (m_best m)) (with_members P1 ms), Ok tt)
          else (with_members P1 ms, Throw "Could not find stop condition")
        else (psignal PE (ENewBest (c_best_pt (o_core (m_opt m))) (m_best m)) P1, Ok tt)
      else (P, Ok tt) in
    match r with
    | Ok _ => (psignal PE (EPostEval [] (c_cur_fits (view P2)) new_best) P2, Ok tt)
    | _ => (P2, r)
    end
  end.
(** optimizer_pool.cpp:115-135.  Before the k-th get() returns, the launched members
    in [sched k] have finished (in that order).  When get() throws, the destructors of the
    other futures wait for them to finish. *)
Fixpoint collect (PE : pool_env) (launched : list nat) (inp : nat -> step_input) (sched : nat -> list nat) (k : nat)
    (P : pool) (done : list (nat * outcome (option nat))) (todo : list nat) : pool * outcome unit :=
  match todo with
  | [] => (P, Ok tt)
  | i :: t =>
    let '(ms, done') := fold_left (complete inp) (filter (fun j => existsb (Nat.eqb j) launched) (sched k) ++ [i]) (po_members P, done) in
    let P1 := with_members P ms in
    match result_of i done' with
    | Some (Ok _) =>
      match absorb_member PE P1 i with
      | (P2, Ok _) => collect PE launched inp sched (S k) P2 done' t
      | (P2, r) => (with_members P2 (fst (fold_left (complete inp) launched (po_members P2, done'))), r)
      end
    | Some (Throw w) => (with_members P1 (fst (fold_left (complete inp) launched (po_members P1, done'))), Throw w)
    | _ => (P1, Undef)
    end
  end.

(** optimizer_pool.cpp:79-138 *)
Definition pool_internal_step (PE : pool_env) (P : pool) (inp : nat -> step_input) (sched : nat -> list nat) : pool * outcome bool :=
  match po_members P with
  | [] => (P, Undef)
  | _ =>
    match refill PE P with
    | (P1, Ok _) =>
      let launched := firstn (pe_concurrent PE) (po_queue P1) in
      let '(P2, r) := collect PE launched inp sched 0 (with_queue P1 (skipn (pe_concurrent PE) (po_queue P1))) [] launched in
      (P2, let* _ := r in Ok true)
    | (P1, Throw w) => (P1, Throw w)
    | (P1, Undef) => (P1, Undef)
    end
  end.
(** optimizer.cpp:44-65 for the pool; [pi_interrupt]: interrupt() of the pool is called
    before its stop conditions are tested *)
Record pool_input := { pi_inputs : nat -> step_input; pi_sched : nat -> list nat; pi_interrupt : bool }.
Definition pool_step (PE : pool_env) (P : pool) (inp : pool_input) : pool * outcome (option nat) :=
  if Nat.eqb (oi_dim (e_info (pe_env PE))) 0 then (P, Throw "Objective has no free parameters")
  else
    let P1 := if Nat.eqb (c_steps (po_base P)) 0 then psignal PE EStart P else P in
    let P2 := psignal PE EPreStep P1 in
    match pool_internal_step PE P2 (pi_inputs inp) (pi_sched inp) with
    | (P3, Ok ok) =>
      let P4 := if ok then psignal PE EPostStep P3 else P3 in
      let P5 := if ok then with_base P4 (with_steps (po_base P4) (S (c_steps (po_base P4)))) else P4 in
      let P6 := if pi_interrupt inp then pool_interrupt P5 else P5 in
      pool_test PE P6
    | (P3, Throw w) => (P3, Throw w)
    | (P3, Undef) => (P3, Undef)
    end.
(** optimizer_pool.cpp:53-57: the snapshot is that of the best member; [info_of i] is what
    make_updated_objective_info() of the i-th member gives *)
Definition pool_updated_info {A} (P : pool) (info_of : nat -> outcome A) : outcome A :=
  match best_member P, po_best P with Some _, Some i => info_of i | _, _ => Undef end.
