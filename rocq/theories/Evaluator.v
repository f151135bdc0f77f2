(** * Evaluators: evaluator.cpp, batch_evaluator.cpp, async_evaluator.cpp, pooled_evaluator.cpp,
      and objective::evaluate_noexcept (objective.cpp).

    Threads are modelled by interleaving: a state and a relation with one rule per
    indivisible action of one thread.  Mutex, condition variable, futures and the
    sequentially consistent atomic flag are the only communication, so interleaving
    semantics is adequate (no data races in the modelled calls). *)
From Coq Require Import ZArith Bool.
From Verif Require Import Prelude Flt Optimizer.

(** ** objective.cpp:10-24 *)
(** What the user's virtual evaluate( point, token ) does. *)
Inductive behaviour : Type :=
| Returns (r : result)
| ThrowsStd (what : string)   (* something derived from std::exception *)
| ThrowsOther.                (* anything else *)
Definition evaluate_noexcept (b : behaviour) : result :=
  match b with
  | Returns r => r
  | ThrowsStd w => RErr w
  | ThrowsOther => RErr "Unknown exception while evaluating objective"
  end.

(** evaluator.cpp:17-26: the loop with push_back *)
Fixpoint sequential_loop {P : Type} (obj : P -> behaviour) (pts : list P) (results : list result) : list result :=
  match pts with
  | [] => results
  | p :: t => sequential_loop obj t (results ++ [evaluate_noexcept (obj p)])
  end.
Definition sequential_evaluate {P : Type} (obj : P -> behaviour) (pts : list P) : list result := sequential_loop obj pts [].

(** ** batch_evaluator.cpp:12-33 *)
(** One std::async thread per point. *)
Inductive athread : Type := ARunning | AFinished (r : result).
Record bstate := {
  b_n : nat;                        (* point_vec.size() *)
  b_threads : list athread;         (* futures: thread i evaluates point i *)
  b_results : list result;
  b_log : list (nat * result);      (* evaluations that returned: point, result *)
  b_returned : bool }.
Definition b_init (n : nat) : bstate := {| b_n := n; b_threads := []; b_results := []; b_log := []; b_returned := false |}.
Inductive bstep : bstate -> bstate -> Prop :=
| BLaunch n ts lg : length ts < n ->     (* lines 16-24 *)
    bstep {| b_n := n; b_threads := ts; b_results := []; b_log := lg; b_returned := false |}
          {| b_n := n; b_threads := ts ++ [ARunning]; b_results := []; b_log := lg; b_returned := false |}
| BEval n ts rs lg b i r : nth_error ts i = Some ARunning ->   (* line 21, in thread i *)
    bstep {| b_n := n; b_threads := ts; b_results := rs; b_log := lg; b_returned := b |}
          {| b_n := n; b_threads := list_set ts i (AFinished r); b_results := rs; b_log := lg ++ [(i, r)]; b_returned := b |}
| BGet n ts rs lg r : length ts = n -> nth_error ts (length rs) = Some (AFinished r) ->   (* lines 29-30 *)
    bstep {| b_n := n; b_threads := ts; b_results := rs; b_log := lg; b_returned := false |}
          {| b_n := n; b_threads := ts; b_results := rs ++ [r]; b_log := lg; b_returned := false |}
| BReturn n ts rs lg : length ts = n -> length rs = n ->   (* line 32 *)
    bstep {| b_n := n; b_threads := ts; b_results := rs; b_log := lg; b_returned := false |}
          {| b_n := n; b_threads := ts; b_results := rs; b_log := lg; b_returned := true |}.

(** ** async_evaluator.cpp *)
(** Lines 34: int if positive, else unsigned + int, i.e. modulo 2^32 (also pooled_evaluator.cpp:69). *)
Definition thread_count (hardware : N) (max_threads : Z) : N :=
  if (0 <? max_threads)%Z then Z.to_N max_threads else Z.to_N ((Z.of_N hardware + max_threads) mod 4294967296).
(** Where the calling thread is. *)
Inductive aphase : Type :=
| ALaunching            (* line 38/55: top of the while loop *)
| APolling (k : nat)    (* line 42: [it] points to threads[k] *)
| ACollecting (k : nat) (* line 59: [it] points to threads[k] *)
| AReturned.
Record astate := {
  a_n : nat; a_limit : N;
  a_phase : aphase;
  a_next : nat;                            (* eval_idx *)
  a_threads : list (nat * athread);        (* point index and thread; the future is valid *)
  a_results : list (option result);        (* None: default constructed *)
  a_log : list (nat * result) }.
Definition a_init (n : nat) (limit : N) : astate :=
  {| a_n := n; a_limit := limit; a_phase := ALaunching; a_next := 0; a_threads := []; a_results := repeat None n; a_log := [] |}.
Definition a_with (s : astate) ph nx ts rs lg : astate :=
  {| a_n := a_n s; a_limit := a_limit s; a_phase := ph; a_next := nx; a_threads := ts; a_results := rs; a_log := lg |}.
(** remove the k-th element (vector::erase) *)
Definition erase {A} (k : nat) (l : list A) : list A := firstn k l ++ skipn (S k) l.
(** LPoll: the busy-waiting of lines 38-52. *)
Inductive alabel : Type := LCaller | LEvaluation | LPoll.
Inductive astep : astate -> alabel -> astate -> Prop :=
| AEval s k i r : nth_error (a_threads s) k = Some (i, ARunning) ->        (* line 18, in that thread *)
    astep s LEvaluation (a_with s (a_phase s) (a_next s) (list_set (a_threads s) k (i, AFinished r)) (a_results s) (a_log s ++ [(i, r)]))
| ALaunch s : a_phase s = ALaunching -> a_next s < a_n s -> (N.of_nat (length (a_threads s)) < a_limit s)%N ->   (* lines 38, 55 *)
    astep s LCaller (a_with s ALaunching (S (a_next s)) (a_threads s ++ [(a_next s, ARunning)]) (a_results s) (a_log s))
| AScan s : a_phase s = ALaunching -> a_next s < a_n s -> (a_limit s <= N.of_nat (length (a_threads s)))%N ->    (* lines 38, 40 *)
    astep s LPoll (a_with s (APolling 0) (a_next s) (a_threads s) (a_results s) (a_log s))
| APollReady s k i r : a_phase s = APolling k -> nth_error (a_threads s) k = Some (i, AFinished r) ->            (* lines 42-48 *)
    astep s LCaller (a_with s (APolling k) (a_next s) (erase k (a_threads s)) (list_set (a_results s) i (Some r)) (a_log s))
| APollTimeout s k i : a_phase s = APolling k -> nth_error (a_threads s) k = Some (i, ARunning) ->               (* lines 42, 50 *)
    astep s LPoll (a_with s (APolling (S k)) (a_next s) (a_threads s) (a_results s) (a_log s))
| AScanEnd s k : a_phase s = APolling k -> length (a_threads s) <= k ->                                          (* line 40: it == end *)
    astep s LPoll (a_with s ALaunching (a_next s) (a_threads s) (a_results s) (a_log s))
| ACollect s : a_phase s = ALaunching -> a_n s <= a_next s ->                                                    (* lines 35, 59 *)
    astep s LCaller (a_with s (ACollecting 0) (a_next s) (a_threads s) (a_results s) (a_log s))
| ACollectGet s k i r : a_phase s = ACollecting k -> nth_error (a_threads s) k = Some (i, AFinished r) ->        (* lines 59-60 *)
    astep s LCaller (a_with s (ACollecting (S k)) (a_next s) (a_threads s) (list_set (a_results s) i (Some r)) (a_log s))
| ACollectEnd s k : a_phase s = ACollecting k -> length (a_threads s) <= k ->                                    (* line 62 *)
    astep s LCaller (a_with s AReturned (a_next s) (a_threads s) (a_results s) (a_log s)).

(** ** pooled_evaluator.cpp *)
(** A task: call number and point index. *)
Definition task : Type := nat * nat.
(** Where a worker thread is in thread_func (lines 86-105). *)
Inductive wstate : Type :=
| WCheck            (* line 89: about to read stop_signal_ *)
| WLock             (* line 93: waiting for the mutex *)
| WTest             (* line 94: holds the mutex, about to test queue_.empty() *)
| WGoWait           (* line 96: holds the mutex, about to release it and sleep in wait() *)
| WSleep            (* line 96: in the wait set *)
| WWoken            (* line 96: notified, waiting for the mutex *)
| WAwake            (* line 97: holds the mutex, about to read stop_signal_ *)
| WGot (t : task)   (* line 101: popped, still holds the mutex *)
| WRun (t : task)   (* line 103: evaluating *)
| WSet (t : task) (r : result)  (* line 103: about to make the future ready *)
| WExit.
(** Where a call of evaluate() is (lines 23-51); it has [n] points. *)
Inductive cstate : Type :=
| CIdle (n : nat)                        (* not called yet *)
| CLock (n : nat)                        (* line 38: waiting for the mutex *)
| CPush (n : nat)                        (* line 39: holds the mutex *)
| CUnlock (n : nat)                      (* line 40: queue filled, still holds the mutex *)
| CNotify (n : nat)                      (* line 43 *)
| CGet (n : nat) (rs : list result)      (* lines 48-49: waiting for future number [length rs] *)
| CDone (rs : list result).              (* returned *)
(** The thread that calls set_max_threads and finally the destructor. *)
Inductive control : Type := SetMax (n : nat) | Destroy.
Inductive dstate : Type :=
| DIdle
| DWant                  (* line 17: destructor, waiting for the mutex *)
| DStop (o : control)    (* line 77 *)
| DNotify (o : control)  (* line 78 *)
| DJoin (o : control)    (* lines 79-83 *)
| DStart (n : nat)       (* lines 70-71: threads still to start *)
| DGone.
Inductive tid : Type := TW (i : nat) | TC (j : nat) | TD.
Record pstate := {
  p_queue : list task; p_mutex : option tid; p_stop : bool;
  p_workers : list wstate; p_calls : list cstate;
  p_control : dstate; p_todo : list control; p_threads : list nat;  (* threads_: the workers to be joined *)
  p_ready : list (task * result);     (* futures that are ready *)
  p_log : list (task * result);       (* evaluations that have returned *)
  p_submitted : list task; p_popped : list task }.   (* history: order of insertion and removal *)
Definition set_w s i w := {| p_queue := p_queue s; p_mutex := p_mutex s; p_stop := p_stop s; p_workers := list_set (p_workers s) i w; p_calls := p_calls s;
  p_control := p_control s; p_todo := p_todo s; p_threads := p_threads s; p_ready := p_ready s; p_log := p_log s; p_submitted := p_submitted s; p_popped := p_popped s |}.
Definition set_c s j c := {| p_queue := p_queue s; p_mutex := p_mutex s; p_stop := p_stop s; p_workers := p_workers s; p_calls := list_set (p_calls s) j c;
  p_control := p_control s; p_todo := p_todo s; p_threads := p_threads s; p_ready := p_ready s; p_log := p_log s; p_submitted := p_submitted s; p_popped := p_popped s |}.
Definition set_d s d todo := {| p_queue := p_queue s; p_mutex := p_mutex s; p_stop := p_stop s; p_workers := p_workers s; p_calls := p_calls s;
  p_control := d; p_todo := todo; p_threads := p_threads s; p_ready := p_ready s; p_log := p_log s; p_submitted := p_submitted s; p_popped := p_popped s |}.
Definition set_m s m := {| p_queue := p_queue s; p_mutex := m; p_stop := p_stop s; p_workers := p_workers s; p_calls := p_calls s;
  p_control := p_control s; p_todo := p_todo s; p_threads := p_threads s; p_ready := p_ready s; p_log := p_log s; p_submitted := p_submitted s; p_popped := p_popped s |}.
Definition set_stop s b := {| p_queue := p_queue s; p_mutex := p_mutex s; p_stop := b; p_workers := p_workers s; p_calls := p_calls s;
  p_control := p_control s; p_todo := p_todo s; p_threads := p_threads s; p_ready := p_ready s; p_log := p_log s; p_submitted := p_submitted s; p_popped := p_popped s |}.
Definition set_pop s q t := {| p_queue := q; p_mutex := p_mutex s; p_stop := p_stop s; p_workers := p_workers s; p_calls := p_calls s;
  p_control := p_control s; p_todo := p_todo s; p_threads := p_threads s; p_ready := p_ready s; p_log := p_log s; p_submitted := p_submitted s; p_popped := p_popped s ++ [t] |}.
Definition set_push s l := {| p_queue := p_queue s ++ l; p_mutex := p_mutex s; p_stop := p_stop s; p_workers := p_workers s; p_calls := p_calls s;
  p_control := p_control s; p_todo := p_todo s; p_threads := p_threads s; p_ready := p_ready s; p_log := p_log s; p_submitted := p_submitted s ++ l; p_popped := p_popped s |}.
Definition set_log s t r := {| p_queue := p_queue s; p_mutex := p_mutex s; p_stop := p_stop s; p_workers := p_workers s; p_calls := p_calls s;
  p_control := p_control s; p_todo := p_todo s; p_threads := p_threads s; p_ready := p_ready s; p_log := p_log s ++ [(t, r)]; p_submitted := p_submitted s; p_popped := p_popped s |}.
Definition set_ready s t r := {| p_queue := p_queue s; p_mutex := p_mutex s; p_stop := p_stop s; p_workers := p_workers s; p_calls := p_calls s;
  p_control := p_control s; p_todo := p_todo s; p_threads := p_threads s; p_ready := p_ready s ++ [(t, r)]; p_log := p_log s; p_submitted := p_submitted s; p_popped := p_popped s |}.
Definition set_threads s l := {| p_queue := p_queue s; p_mutex := p_mutex s; p_stop := p_stop s; p_workers := p_workers s; p_calls := p_calls s;
  p_control := p_control s; p_todo := p_todo s; p_threads := l; p_ready := p_ready s; p_log := p_log s; p_submitted := p_submitted s; p_popped := p_popped s |}.
Definition set_ws s l := {| p_queue := p_queue s; p_mutex := p_mutex s; p_stop := p_stop s; p_workers := l; p_calls := p_calls s;
  p_control := p_control s; p_todo := p_todo s; p_threads := p_threads s; p_ready := p_ready s; p_log := p_log s; p_submitted := p_submitted s; p_popped := p_popped s |}.
(** condition_variable::notify_all *)
Definition wake (w : wstate) : wstate := match w with WSleep => WWoken | _ => w end.
Definition notify_all s := set_ws s (map wake (p_workers s)).
Definition tasks_of (j n : nat) : list task := map (fun i => (j, i)) (seq 0 n).

Inductive plabel : Type := PWork | PSpurious | PStart (j : nat) | PCall (j : nat) | PControl.
Inductive pstep : pstate -> plabel -> pstate -> Prop :=
(* workers, lines 86-105 *)
| WS_continue s i : nth_error (p_workers s) i = Some WCheck -> p_stop s = false -> pstep s PWork (set_w s i WLock)
| WS_leave s i : nth_error (p_workers s) i = Some WCheck -> p_stop s = true -> pstep s PWork (set_w s i WExit)
| WS_lock s i : nth_error (p_workers s) i = Some WLock -> p_mutex s = None -> pstep s PWork (set_m (set_w s i WTest) (Some (TW i)))
| WS_empty s i : nth_error (p_workers s) i = Some WTest -> p_queue s = [] -> pstep s PWork (set_w s i WGoWait)
| WS_pop s i t q : nth_error (p_workers s) i = Some WTest -> p_queue s = t :: q -> pstep s PWork (set_pop (set_w s i (WGot t)) q t)
| WS_wait s i : nth_error (p_workers s) i = Some WGoWait -> pstep s PWork (set_m (set_w s i WSleep) None)
| WS_spurious s i : nth_error (p_workers s) i = Some WSleep -> pstep s PSpurious (set_w s i WWoken)
| WS_relock s i : nth_error (p_workers s) i = Some WWoken -> p_mutex s = None -> pstep s PWork (set_m (set_w s i WAwake) (Some (TW i)))
| WS_return s i : nth_error (p_workers s) i = Some WAwake -> p_stop s = true -> pstep s PWork (set_m (set_w s i WExit) None)
| WS_again s i : nth_error (p_workers s) i = Some WAwake -> p_stop s = false -> pstep s PWork (set_w s i WTest)
| WS_unlock s i t : nth_error (p_workers s) i = Some (WGot t) -> pstep s PWork (set_m (set_w s i (WRun t)) None)
| WS_run s i t r : nth_error (p_workers s) i = Some (WRun t) -> pstep s PWork (set_log (set_w s i (WSet t r)) t r)
| WS_ready s i t r : nth_error (p_workers s) i = Some (WSet t r) -> pstep s PWork (set_ready (set_w s i WCheck) t r)
(* calls of evaluate(), lines 23-51 *)
| CS_start s j n : nth_error (p_calls s) j = Some (CIdle n) -> pstep s (PStart j) (set_c s j (CLock n))
| CS_lock s j n : nth_error (p_calls s) j = Some (CLock n) -> p_mutex s = None -> pstep s (PCall j) (set_m (set_c s j (CPush n)) (Some (TC j)))
| CS_push s j n : nth_error (p_calls s) j = Some (CPush n) -> pstep s (PCall j) (set_push (set_c s j (CUnlock n)) (tasks_of j n))
| CS_unlock s j n : nth_error (p_calls s) j = Some (CUnlock n) -> pstep s (PCall j) (set_m (set_c s j (CNotify n)) None)
| CS_notify s j n : nth_error (p_calls s) j = Some (CNotify n) -> pstep s (PCall j) (notify_all (set_c s j (CGet n [])))
| CS_get s j n rs r : nth_error (p_calls s) j = Some (CGet n rs) -> length rs < n -> In ((j, length rs), r) (p_ready s) ->
    pstep s (PCall j) (set_c s j (CGet n (rs ++ [r])))
| CS_done s j n rs : nth_error (p_calls s) j = Some (CGet n rs) -> n <= length rs -> pstep s (PCall j) (set_c s j (CDone rs))
(* set_max_threads (lines 53-62), destructor (15-21), stop_threads (75-84), start_threads (64-73) *)
| DS_set s n l : p_control s = DIdle -> p_todo s = SetMax n :: l -> pstep s PControl (set_d s (DStop (SetMax n)) l)
| DS_destroy s l : p_control s = DIdle -> p_todo s = Destroy :: l -> pstep s PControl (set_d s DWant l)
| DS_lock s : p_control s = DWant -> p_mutex s = None -> pstep s PControl (set_m (set_d s (DStop Destroy) (p_todo s)) (Some TD))
| DS_stop s o : p_control s = DStop o -> pstep s PControl (set_stop (set_d s (DNotify o) (p_todo s)) true)
| DS_notify s o : p_control s = DNotify o -> pstep s PControl (notify_all (set_d s (DJoin o) (p_todo s)))
| DS_join s o l i : p_control s = DJoin o -> p_threads s = l ++ [i] -> nth_error (p_workers s) i = Some WExit -> pstep s PControl (set_threads s l)
| DS_gone s : p_control s = DJoin Destroy -> p_threads s = [] -> pstep s PControl (set_m (set_d s DGone (p_todo s)) None)
| DS_restart s n : p_control s = DJoin (SetMax n) -> p_threads s = [] -> pstep s PControl (set_stop (set_d s (DStart n) (p_todo s)) false)
| DS_spawn s n : p_control s = DStart (S n) ->
    pstep s PControl (set_threads (set_ws (set_d s (DStart n) (p_todo s)) (p_workers s ++ [WCheck])) (p_threads s ++ [length (p_workers s)]))
| DS_started s : p_control s = DStart 0 -> pstep s PControl (set_d s DIdle (p_todo s)).

(** A pooled evaluator with [workers] threads (lines 8-13, 64-73), the calls that will be made
    (number of points each) and what the controlling thread will do. *)
Definition p_init (workers : nat) (calls : list nat) (todo : list control) : pstate :=
  {| p_queue := []; p_mutex := None; p_stop := false; p_workers := repeat WCheck workers; p_calls := map CIdle calls;
     p_control := DIdle; p_todo := todo; p_threads := seq 0 workers; p_ready := []; p_log := []; p_submitted := []; p_popped := [] |}.
Inductive reach {S L} (R : S -> L -> S -> Prop) (s0 : S) : S -> Prop :=
| reach_refl : reach R s0 s0
| reach_step s l s' : reach R s0 s -> R s l s' -> reach R s0 s'.
Definition b_reach n s := reach (fun a (_ : unit) b => bstep a b) (b_init n) s.
Definition a_reach n limit s := reach astep (a_init n limit) s.
Definition p_reach w calls todo s := reach pstep (p_init w calls todo) s.
