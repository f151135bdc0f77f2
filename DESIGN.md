# Formal model of tgeijten/spot in Rocq (Coq 8.16.1)

The model is in `rocq/theories/`. `properties.jsonl` lists the properties,
`MANIFEST.json` maps each to theorems, `seeded/LOG.jsonl` records the
wrong-program experiments.

## 1. Approach

* **Numbers.** `par_t`, `fitness_t`, `priority_t` are C++ `double`
  (`spot_config.h:8`). They are modelled as IEEE-754 binary64
  (`Flocq.IEEE754.BinarySingleNaN.binary_float 53 1024`), round-to-nearest-even,
  with NaN, infinities and signed zeros. Anything that is decided by comparisons
  (validity, feasibility, best tracking, stop conditions, sorting, rounding) is
  proved about those doubles.
* **Numeric formulas** (boundary transformation, MES/EVA/CMA updates, objective
  functions, statistics) are written *once* over an abstract record of
  operations (`Num`) and instantiated twice: with doubles (to run, and to
  exhibit counterexamples) and with the real numbers `R` (to prove the
  mathematical claim). Theorems about the `R` instance are claims about the
  algorithm in exact arithmetic, and say so.
* **Errors and UB.** `outcome A := Ok a | Throw msg | Undef`. `Throw` is a C++
  exception (`xo_error`, `xo_error_if`, `throw`); `Undef` is undefined behaviour
  or a violated `xo_assert`.
* **Virtual calls and user code** (objective, reporter, custom stop condition,
  random numbers, regression) are universally quantified functions or streams.
* **Threads** are labelled transition systems; theorems range over all
  reachable states / all interleavings.
* **Property theorems** are in `Properties_*.v`, named `C##_...` after the
  property, next to the small specification they use and an `Example
  C##_..._nonvacuous` (or a `..._refuted` theorem) that shows a concrete,
  non-trivial case meeting the hypotheses. Model files contain definitions only;
  longer proofs are in `*Facts.v`.
* **`_refuted` theorems.** Where a natural stronger reading of a property is
  false of the code, the counterexample is proved as a theorem whose name ends
  in `_refuted`; the property in `properties.jsonl` is the version that holds.

## 2. What is modelled per property, and how it is proved

| id | model | proof |
|----|-------|-------|
| C01-C03 | `par_info` constructors incl. the text parser (par_info.cpp) over doubles and a character stream | case analysis; order lemmas on doubles through an order embedding into Z; round trip by induction on the text |
| C04-C06,C10,C11,C13,C57 | `objective_info` as free list + sorted locked map, all mutators | invariant by induction over operation lists; exact effect lemmas |
| C07-C09,C56 | `par_io` (prefix stack, option stack, aliases, references) over any store | simulation between two executions |
| C12 | `is_feasible`, `clamp` | induction over the vector |
| C14 | `rounded` computed by exact integer arithmetic | equality with Flocq's `round` in radix 10 then radix 2; idempotence and monotonicity from there |
| C15,C16 | text writer/reader (%.8g) and record readers | round trip on characters; refinement to a finite map |
| C17-C27 | `optimizer` base class as a state machine with event trace | invariants over all histories |
| C28-C33,C39 | evaluators as transition systems | inductive invariants, termination measure, stuck-state witnesses |
| C34-C36 | boundary transformers over `Num` | real analysis by lra/nra; C34 also on doubles (`Properties_Boundary2.v`): every operation is the rounded exact one (Flocq), error bounds by lra, Sterbenz for the mirror at the upper end; double counterexamples by vm_compute. C35 on doubles (`Properties_Boundary3.v`): each of shift, mirror, squash and inverse is an exact symmetry or formula plus bounded rounding (periods as multiples of the rounded period, errors linear in the distance), and the exact map is 1-Lipschitz, so errors add up |
| C37,C38,C47 | MES/EVA over `Num`, doubles for bounds | induction over generations; C47 also on doubles: variances are never negative (`Properties_ES6.v`), the mean stays near the bounds (`Properties_ES8.v`); simulation for mirror symmetry |
| C40-C46,C48 | `cma_optimizer.cpp` | integer arithmetic (generator), real arithmetic (weights, parameters, covariance), list sorting; C41, C42, C44 and C46 also on doubles (`Properties_CmaWeights2.v`, `Properties_CmaPars2.v`, `Properties_CmaStd.v`, `Properties_CmaDescription2.v`): forward error analysis of the weights (sum, division) and of the weighted sum, each operation the rounded exact one |
| C49-C51 | `optimizer_pool` over arbitrary members | invariants over all histories |
| C52,C53,C58 | `file_reporter` over a map of paths to texts, fed with the calls of the optimizer model (FileReporter.v) | invariants over event histories, at every prefix (crash point) |
| C63 | gets of `par_io` over `objective_info`; `try_get_par` of a vec3 with the evaluation order as a parameter | answers depend only on the asked name; effects commute up to the order of the free list; induction on permutations |
| C64 | `optimizer_pool` queue over all histories | a new queue holds everybody while all are warming up (stable under later states: being warmed up is never undone); the balance times-started + times-queued is equal for all members and counts the rounds; induction on histories |
| C65 | accesses of the pool's thread to running members, over all schedules | simulation between the late run and any other (members ahead of the late run by their own step only); a step only depends on the members it touches |
| C66 | the deliveries to the pool's reporters (trace of the pool model) | induction over the loop that collects the members; each collected member is frozen until the next step; the announced fitness is what the pool has recorded; induction over histories |
| C67 | cmaes_UpdateEigensystem within the histories of cma_sample/cma_update calls, with the code's eigendecomposition (C61) | invariant over histories: the kept eigensystem belongs to the covariance matrix of a prefix of the history, genOfEigensysUpdate is the generation of that prefix; the number of decompositions times modulo is bounded by the generation |
| C68 | two runs of full_steps (optimizer + sampler) with objectives f and g o f, other reporters, conditions and interrupts | simulation: equal search states, fitness fields related by g; sorting and comparisons commute with an increasing map |
| C69 | cmaes_UpdateDistribution, Adapt_C2, SupplementDefaults within the histories of C67, over the reals | the loops as sums; B D^-1 B^T is the inverse square root of (B D)(B D)^T because B is orthogonal and D positive (C61); invariant that a waiting population was drawn with the kept B and D |
| C70 | two runs of cma_sample/cma_update resp. es_sample/es_update over the reals, in coordinates x and a + t x | simulation: mean moved, step size (resp. variances, momentum) scaled, everything else equal; each loop commutes with the affine map |
| C71 | `scoped_prefix`, `scoped_par_options`, `par_io::get` on an arbitrary store (ParIO.v); Properties_Names.v | induction over the nesting: a scope around a get is a get with a longer name; options by induction from the outermost scope; a sorted map is determined by its lookups |
| C72 | the pool of Pool.v with members driven by samplers (Driver.v); Properties_Pool9.v | induction over the history: a member's base-class state is that of the separate run after count(launches) calls, up to windows, caches and interrupt flags; the one-member case from the pool's own stop condition |
| C73 | import_mean_std of ObjInfo.v applied to write_point of SearchPoint.v, with the snapshots of MesF.v/CmaF.v and the files of FileReporter.v; Properties_Resume.v, FltSqrt.v | C11/C15 read back each record once; 0 + 1 * x is x in doubles; sqrt(t*t) = t in doubles for moderate t (Flocq); C48 and C52 for the snapshot and the file |
| C74 | cma_sample of Cma.v and es_sample of Mes.v over any number type, their samplers in doubles; Properties_Sampling.v | relational specification of rejection sampling (inductive relations over the state of the source), proved by induction over points, components and tries; whole runs by induction over the steps |
| C75 | the single changes of the disk made by each call of file_reporter (truncate, put one character, remove), FileCrash.v; refines FileReporter.v (C75_changes_of_a_call) | every prefix of the changes of every call of every history, from the invariant of C52; refutation by a concrete run |
| C76 | histories of calls with queries, late reporters and late conditions (Optimizer.v) | simulation between the two runs over all histories (Properties_Later.v); refutation for predictions by a concrete run |
| C77 | the changes of the disk of C75, any subset of which may fail (faulty_report in FileCrash.v) | what the reporter remembers does not depend on the disk; each file depends only on its own operations; invariant of C52 (Properties_Faults.v) |
| C78 | the optimizer of C19-C27, fitnesses including NaN | min_element/max_element over lists with NaN; core of a step; invariant over histories (Properties_NaN.v) |
| C79 | the pool of C49-C51, members with step limits and errors | per-member account (steps left, 0 after an error) that every start decreases, invariant of the queue, sum as a termination measure (Properties_Pool10.v) |
| C80 | on_pre_evaluate_population of file_reporter on a file system, search_point output and input (C15) | injectivity of the printed names, frame argument per call from the file operations of C75 (Properties_FileReporter8.v) |
| C81 | the constructor of optimizer_pool as a function of a prop_node, push_back (PoolOptions.v) | case analysis on the six look-ups; the concurrency limit from C50 (Properties_PoolOptions.v) |
| C82 | the optimizers, pools and search points of the other claims with an empty list of free parameters; the CMA constructor for n = 0 (NoParams.v) | invariant over histories of calls; locking filters the free parameters (Properties_NoParams.v) |
| C83 | find_stop_condition and assignments to the public members of a condition between the calls of the other claims (StopAccess.v) | invariant over histories of calls and changes: the types of the conditions; the search does not read them (Properties_StopAccess.v) |
| C62 | `console_reporter` as a function from reporter calls to text (Console.v) | from the event theorems of C24; %.*f by exact integer arithmetic |
| C61 | `Householder2`, `QLalgo2`, `Eigen` over `Num` (CmaEigen.v) | over the reals: products of reflections and Givens rotations keep V T V^T; each dropped entry costs at most 12 epsilon of the norm; termination because e1^2 e2 shrinks by 9/10 per iteration (Wilkinson's shift) |
| C54,C55,C59,C60 | `math_tools`, `compute_mean_std`, `test_objectives`, `data_objective` over `Num` | real analysis (C54,C55,C60); C54's mean and standard deviation also on doubles, by error bounds for the two loops (`Properties_Stats2.v`), and the length of a vector and C55's data objective, sphere and ellipsoid (`Properties_Objectives3.v`); order and sign reasoning about doubles (C59; Rastrigin in `Properties_Objectives4.v`); error bounds for Schwefel in doubles (`Properties_Schwefel2.v`) |

Nothing in the list is considered inexpressible. What a model cannot show
(actual OS scheduling, timing, memory safety of the compiled code, the xo
library itself) is listed in the trusted base.

## 3. Trusted base

* **Coq 8.16.1's kernel**, including `vm_compute` (used for concrete doubles,
  non-vacuity examples and counterexamples).
* **Axioms.** `ASSUMPTIONS.md` lists the output of `Print Assumptions` for every
  theorem of `MANIFEST.json`. Only four axioms occur, all of the standard
  library: `ClassicalDedekindReals.sig_not_dec`,
  `ClassicalDedekindReals.sig_forall_dec` (the construction of `R`),
  `FunctionalExtensionality.functional_extensionality_dep` and
  `Classical_Prop.classic`. They enter through `R`, on which Flocq's floats are
  built. `vcheck` also lists the fields of `Rdefinitions.RbaseSymbolsImpl`,
  `RinvImpl` and `ssrunder.Under_rel`: sealed modules of loaded standard
  libraries, which have implementations. No axiom, parameter, functor or module
  type of our own; no kernel check is switched off.
* **Libraries**: Coq's standard library, Flocq (definitions of IEEE arithmetic
  and its correctness theorems). Nothing else.
* **The translation** from C++ to the model, done by hand; every definition
  cites the lines it models. The model is what the theorems are about.

## 4. What is modelled and what is not

| file in /repo/spot | model | not modelled |
|---|---|---|
| par_info.h/.cpp | ParInfo.v, PropNode.v | the logging in `operator<<` |
| par_io.h/.cpp, par_tools.h, par_options.h | ParIO.v | names in quotes inside prop_node text |
| objective_info.h/.cpp, flat_map | ObjInfo.v, FlatMap.v | log messages |
| search_point.h/.cpp, static_par_set | SearchPoint.v, Round8.v, ShowNum.v | - |
| objective.h/.cpp, function_objective.h, data_objective.h, test_objectives.cpp | Evaluator.v, Objectives.v | stop tokens inside an evaluation |
| optimizer.h/.cpp, stop_condition.h/.cpp, reporter.h | Optimizer.v, StopAccess.v | log messages, the profiler; exceptions of reporters that are not `std::exception` |
| evaluator.cpp, batch_evaluator.cpp, async_evaluator.cpp, pooled_evaluator.cpp | Evaluator.v | thread creation failures; thread priority; spinning cost |
| boundary_transformer.h/.cpp | Boundary.v | - |
| mes_optimizer, eva_optimizer | Mes.v, MesF.v, Driver.v | - |
| cma_optimizer | Cma.v, CmaEigen.v, CmaF.v, CmaRandom.v, NoParams.v, Driver.v | the eigendecomposition is a parameter of Cma.v and CmaF.v and is modelled in CmaEigen.v; Check_Eigen (only logs, switched off) |
| optimizer_pool | Pool.v, PoolOptions.v | pools as members of pools |
| file_reporter | FileReporter.v, FileCrash.v | exceptions thrown by file operations |
| math_tools.h/.cpp | MathTools.v | - |
| console_reporter, `what()` of the stop conditions | Console.v | `on_post_evaluate_point` (never called) |
| prop_node conversions, spot_test | - | all |

## 5. Assumed behaviour of code outside /repo

The xo library is not in /repo. The model assumes, or leaves open as universally
quantified parameters:

* *parameters* (theorems hold for every choice): the pattern matcher, `try_get_query`,
  the conversion of a node to `vec3_<prop_node>`, the hash
  and format functions of ostreams, `triangle_wave`, `soft_clamp`, `median`,
  `abs`, `repeated_median_regression` (C38 additionally assumes that it is odd
  in y), `ample_epsilon`, `pi()`, libm (`log`, `exp`, `sin`, `cos`, `pow`,
  `ceil`), `std::sort` (as a function of comparison and length; where sortedness
  matters it is assumed to sort for strict weak orders), `std::minstd_rand` and
  `std::normal_distribution`, the eigendecomposition, the dynamic results of
  objectives and reporters, the hardware thread count;
* *fixed by assumption*: `INIT_MEMBER( pn, x_, d )` is `x_( pn.get< decltype( x_ ) >( "x", d ) )`; `char_stream` skips white space and reads numbers as
  `strtod`; `good()` of a stream after the last token (both behaviours, eager and
  lazy end of file, are covered by a parameter); `stack_string::set` truncates;
  `prop_node` conversions throw on failure; `clamped`, `is_between`, `max`,
  `squared`, `linear_function` have their obvious meaning; `circular_deque`:
  `reserve` keeps the contents and sets the capacity, `push_back` grows beyond
  it; the sign of `count_if`'s result type is a parameter; a result counts as an
  error whenever it holds an error message, also an empty one; `xo_assert`
  violations are undefined;
* sample and step counters are naturals (no overflow); `%04d` prints the low 32
  bits of a size_t as an int; file names theorems assume fewer than 2^31 steps;
* a `std::sort` with a comparison that is not a strict weak order (NaN fitness)
  is undefined behaviour; the pool model makes that explicit as `Undef`;
* **threads**: sequentially consistent interleaving of the actions listed in
  Evaluator.v (mutex, condition variable with spurious wake-ups, futures, one
  atomic flag are the only communication). For the pool a member's step is
  atomic; the data race of optimizer_pool.cpp (the pool loop reads
  `best_optimizer()` and writes `fitness_` of members that may still be running
  in another thread) is the subject of C65; in all other pool theorems such an access
  sees the member before or after its step. `set_max_threads` with the current
  value is a no-op. `std::launch::async` is assumed honoured;
* an `interrupt()` that arrives during a step is modelled as arriving before the
  stop conditions of that step are tested (or, equivalently, before the next
  step);
* **cma_optimizer**: the double counters `gen` and `state` are a natural and an
  enumeration; the rejection loop of the normal generator has fuel (a loop that
  never ends has no result); after an exception the object is not used again;
  the boundary transformer does not change during a run;
* **file_reporter**: every file operation succeeds; what is in the stream buffer
  is lost in a crash, what was flushed is not; the sign of a printed NaN is not
  modelled;
* **objectives**: vectors have fewer than 2^53 elements in C59 (ellipsoid).
