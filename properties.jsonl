{"id": "C01", "title": "par_info admits exactly the valid parameters", "statement": "Constructing par_info(name,mean,std,min,max) succeeds if and only if mean is not NaN, std >= 0, and min <= mean <= max (so no field is NaN); it throws on every other combination, and on success every field is stored unchanged.", "quantifier": "all IEEE doubles (including NaN, infinities, signed zeros) for the four numbers, all names", "why_tests_cant": "2^256 combinations of doubles; NaN makes naive negations of the comparisons disagree", "anchors": ["spot/par_info.cpp:par_info::par_info", "spot/par_info.h:is_valid"]}
{"id": "C02", "title": "A parameter parsed from text or a prop_node is always valid", "statement": "Whatever text or prop_node is supplied, if par_info(name, pn, options) returns then min < max, min <= mean <= max, std >= 0 and no field is NaN.", "quantifier": "all prop_nodes, all strings, all option values (including NaN options)", "why_tests_cant": "arbitrary input text and arbitrary option doubles", "anchors": ["spot/par_info.cpp:par_info::par_info(string,const prop_node&,const par_options&)"]}
{"id": "C03", "title": "The textual parameter format is read back faithfully", "statement": "The text mean~std[min,max] (with any of the three matching bracket pairs) yields exactly those four numbers; mean alone yields a constant; mean~std uses the default bounds; [min,max] alone yields the midpoint and a quarter of the range; ~v yields mean v with the automatic standard deviation; mismatched brackets, a missing comma, a second mean or a second non-zero std are rejected. A node with children is read from mean (else init_mean), std (else init_std), min and max (else the bounds of the options); a missing mean or std, or a text that is not a number, is an error.", "quantifier": "all number texts the number reader accepts, all valid numbers, all bracket styles", "why_tests_cant": "unbounded number of texts and numbers", "anchors": ["spot/par_info.cpp:par_info::par_info(string,const prop_node&,const par_options&)"]}
{"id": "C04", "title": "Parameter names stay unique", "statement": "Starting from an empty objective_info, after any sequence of get/add/lock/import/set operations no name occurs twice among the free parameters and no name is both free and locked.", "quantifier": "all finite sequences of public operations with arbitrary arguments, including operations that throw", "why_tests_cant": "unbounded histories", "anchors": ["spot/objective_info.cpp:objective_info::add", "spot/objective_info.cpp:lock_parameter", "spot/par_io.cpp:par_io::get"]}
{"id": "C05", "title": "add appends, locks or rejects, and never disturbs existing parameters", "statement": "objective_info::add throws exactly when the name is already free or locked or contains a space, tab or double quote; otherwise a parameter with std == 0 becomes a locked value and any other is appended as the last free parameter; in every case earlier parameters keep their index, value and metadata, and add returns the mean.", "quantifier": "all objective_info states and all par_info values", "why_tests_cant": "unbounded states", "anchors": ["spot/objective_info.cpp:objective_info::add"]}
{"id": "C06", "title": "get returns the registered value and is idempotent", "statement": "If get(name, ...) returns a value then asking for the same name again in the same scope returns the same value and changes nothing; if a parameter of that full name already exists get returns its current value without creating anything, no matter what default mean/std/min/max or prop_node is given.", "quantifier": "all objective_info / static_par_set states, names, defaults and prop_nodes", "why_tests_cant": "unbounded states and histories", "anchors": ["spot/par_io.cpp:par_io::get"]}
{"id": "C07", "title": "A model that builds against an objective_info rebuilds against any search_point of it", "statement": "Any straight-line sequence of get/prefix/options calls that succeeds on an objective_info also succeeds on every search_point over the resulting objective_info (it never reports 'Previously undefined parameter'), leaves the same prefix and options behind, and each get that resolved by its full name to a free parameter returns the search point's value at that parameter's index. A get for a name the search point does not know is an error unless the parameter is constant (its standard deviation is 0), in which case the mean is returned.", "quantifier": "all sequences of calls, all initial objective_info states, all value vectors", "why_tests_cant": "unbounded programs and states; it is a relation between two whole executions", "anchors": ["spot/par_io.cpp", "spot/search_point.cpp:search_point::try_get", "spot/search_point.cpp:search_point::add", "spot/objective_info.cpp:objective_info::add"]}
{"id": "C08", "title": "Scoped prefixes and options are restored exactly", "statement": "Leaving a scoped_prefix or scoped_par_options scope restores the prefix stack and the options to exactly what they were on entry, for arbitrarily deep and mixed nesting and whatever happens inside (as long as the inside is itself balanced).", "quantifier": "all balanced nestings of scopes of any depth", "why_tests_cant": "unbounded nesting", "anchors": ["spot/par_io.h:scoped_prefix", "spot/par_io.h:scoped_par_options", "spot/par_io.h:scoped_prefix_setter"]}
{"id": "C09", "title": "Reference parameters resolve to the innermost enclosing scope", "statement": "When the value of a parameter node starts with a letter, get returns the value of the parameter named by the longest prefix of the current scope stack for which prefix+reference exists, falling back to the bare reference, and throws if none exists; it never creates a parameter.", "quantifier": "all prefix stacks, reference names and stores", "why_tests_cant": "unbounded stacks", "anchors": ["spot/par_io.cpp:par_io::get(const string&,const prop_node&)"]}
{"id": "C10", "title": "Locking moves a parameter and nothing else", "statement": "Locking name to value (directly through import_locked, or through import_mean_std with std 0) succeeds exactly when name is already free or locked; it then removes it from the free parameters (order of the others kept, dim reduced by one if it was free) and makes try_get(name) return value, and every other name keeps its value; the set of known names never changes.", "quantifier": "all objective_info states, names, values, and all sequences of import records", "why_tests_cant": "unbounded states and record lists", "anchors": ["spot/objective_info.cpp:lock_parameter", "spot/objective_info.cpp:import_locked"]}
{"id": "C11", "title": "import_mean_std updates exactly the listed, included parameters", "statement": "For every list of records, import_mean_std changes only mean and std of free parameters that are named by an included, non-excluded record with non-zero std (as value_offset + value_factor*(value or mean) and, for std, the documented rule), locks those whose std is 0, never touches names or bounds, and returns counts that add up to the number of included records. The file is a sequence of records name, value, mean, std separated by any white space; a file that ends in the middle of a record is an error that names that record.", "quantifier": "all objective_info states, import settings and record lists", "why_tests_cant": "unbounded record lists and settings", "anchors": ["spot/objective_info.cpp:import_mean_std", "spot/par_options.h:par_import_settings"]}
{"id": "C12", "title": "is_feasible, clamp and is_within_range agree", "statement": "For every vector with no NaN, is_feasible(v) holds iff every component is within [min,max]; clamp leaves a feasible vector unchanged, always produces a feasible vector when min <= max, and changes only the components that were out of range, each to its nearest bound.", "quantifier": "all objective_infos of any dimension and all vectors of doubles", "why_tests_cant": "unbounded dimension, all doubles", "anchors": ["spot/objective_info.cpp:is_feasible", "spot/objective_info.cpp:clamp", "spot/par_info.h:is_within_range"]}
{"id": "C13", "title": "set_mean_std and set_std_minimum touch only what they say", "statement": "set_mean_std(mean,std) with vectors of the right size sets the mean and std of the i-th parameter to mean[i], std[i] and leaves names, bounds, locked values, direction and target untouched; set_std_minimum(value,factor) makes every std at least factor*|mean|+value, never lowers one, and leaves means untouched.", "quantifier": "all objective_infos and vectors", "why_tests_cant": "unbounded dimension, all doubles", "anchors": ["spot/objective_info.cpp:set_mean_std", "spot/objective_info.cpp:set_std_minimum"]}
{"id": "C14", "title": "Search-point rounding is an idempotent, monotone projection on 8 significant digits", "statement": "Every value stored by a search_point constructor or set_values is the double nearest to the 8-significant-digit decimal nearest to the given value; rounding is idempotent, monotone, sign- and zero-preserving and has relative error below 1e-7 for normal values; NaN and infinities are stored as 0.", "quantifier": "all doubles", "why_tests_cant": "2^64 values, and ties/subnormals/decade boundaries are exactly where sampling misses", "anchors": ["spot/search_point.cpp:rounded", "spot/search_point.cpp:set_values", "spot/search_point.cpp:round_values"]}
{"id": "C15", "title": "Writing a search_point and importing it back is lossless", "statement": "Writing a search_point with operator<< and reading the text with import_values into a search_point over an objective_info with the same names (in any order) sets every parameter, skips none, and reproduces every value bit for bit (zero keeps its sign). Importing any file sets every free parameter to the value of the last record that names it, keeps the others, and returns how many records named a free parameter and how many did not; the written file is a table whose first column is as wide as the longest name.", "quantifier": "all objective_infos with whitespace-free distinct names, all stored value vectors, all means and stds that print as numbers", "why_tests_cant": "all doubles and all names; a text round trip through decimal", "anchors": ["spot/search_point.cpp:operator<<", "spot/search_point.cpp:import_values"]}
{"id": "C16", "title": "A static_par_set is a map with last-wins load and first-wins merge", "statement": "After any sequence of load/merge/add calls, try_get(name) returns the value of the last record for name that was allowed to write it: load and merge(overwrite) let later records win, merge without overwrite never changes an existing value; merge returns the number of records it stored.", "quantifier": "all histories of loads and merges over arbitrary record lists", "why_tests_cant": "unbounded histories", "anchors": ["spot/static_par_set.cpp"]}
{"id": "C17", "title": "is_better is a strict order and worst/best fitness are its extremes", "statement": "For both optimisation directions is_better is irreflexive, asymmetric and transitive on all doubles, total on distinct non-NaN numbers, no NaN is better or worse than anything, no finite value is worse than worst_fitness() or better than best_fitness().", "quantifier": "all doubles, both directions", "why_tests_cant": "2^128 pairs and 2^192 triples", "anchors": ["spot/objective_info.h:is_better", "spot/objective_info.h:worst", "spot/objective_info.h:best"]}
{"id": "C18", "title": "find_best_fitness returns the first best index", "statement": "For every non-empty vector without NaN, find_best_fitness returns a valid index whose value no other value is better than and which is the first such index.", "quantifier": "all vectors of any length, both directions", "why_tests_cant": "unbounded length", "anchors": ["spot/objective_info.cpp:find_best_fitness"]}
{"id": "C19", "title": "best_fitness/best_point are the best ever evaluated", "statement": "After any sequence of steps, best_fitness() never gets worse, is at least as good as every fitness successfully evaluated in any completed step (when no evaluation returned NaN), is attained by best_point(), which is a point that was actually evaluated to that fitness, and both keep their initial values until some step beats worst_fitness().", "quantifier": "all histories of populations and evaluation results, both directions", "why_tests_cant": "unbounded histories", "anchors": ["spot/optimizer.cpp:evaluate_step"]}
{"id": "C20", "title": "A step with evaluation errors has no effect except the error stop", "statement": "If more evaluations fail than allowed (none by default), the step leaves best, current-step data, history, step count and the search distribution of the MES, EVA and CMA optimizers (mean, variance or covariance, step size, generation count) unchanged, the error condition is set, and step() returns a stop condition; otherwise failed evaluations count as worst_fitness() and the step proceeds.", "quantifier": "all populations, result vectors and error patterns, all error allowances", "why_tests_cant": "all subsets of failing evaluations", "anchors": ["spot/optimizer.cpp:verify_results", "spot/optimizer.cpp:evaluate_step", "spot/optimizer.cpp:step"]}
{"id": "C21", "title": "run(n) performs at most n steps and stops at the first stop condition", "statement": "run(n) calls step until it has made n steps or a step returned a stop condition, whichever is first; it returns that condition or null; current_step() grows by exactly the number of successful steps.", "quantifier": "all step counts, all step behaviours", "why_tests_cant": "unbounded executions", "anchors": ["spot/optimizer.cpp:run", "spot/optimizer.cpp:step"]}
{"id": "C22", "title": "The first satisfied stop condition latches for ever and is reported once", "statement": "test_stop_conditions returns the first condition (in insertion order) that tests true, and from then on always the same one; on_stop is signalled exactly once in the life of the optimizer, for that condition, and never if none fires.", "quantifier": "all condition lists and all histories of states", "why_tests_cant": "unbounded histories and condition lists", "anchors": ["spot/optimizer.cpp:test_stop_conditions", "spot/optimizer.cpp:add_stop_condition"]}
{"id": "C23", "title": "Each stop condition fires exactly on its documented predicate", "statement": "abort fires iff interrupt was requested; error iff an error message was set; flat fitness iff at least one step completed and max-min of the step's fitnesses is below epsilon; target iff best_fitness is strictly better than the target; max_steps iff current_step >= max; min_progress and predicted_fitness never before min_samples steps; similarity iff after min_steps some listed point is closer than min_distance, reporting the first such point and keeping the distances to the points up to it (to all points if there is none) in its list of similarities.", "quantifier": "all optimizer states and condition parameters", "why_tests_cant": "all states, all doubles", "anchors": ["spot/stop_condition.cpp", "spot/stop_condition.h"]}
{"id": "C24", "title": "Reporters see a well-formed event sequence", "statement": "For every execution each reporter that never throws (and behind no throwing reporter) receives per step: on_start (while no step has completed), on_pre_step, on_pre_evaluate_population, then for a successful step on_new_best exactly if best improved, on_post_evaluate_population with the updated best, on_post_step; on_stop at most once and after everything of its step; a reporter's std::exception never escapes step().", "quantifier": "all executions, all reporter lists, all exception patterns", "why_tests_cant": "unbounded executions and exception patterns", "anchors": ["spot/optimizer.h:signal_reporters", "spot/optimizer.cpp:step", "spot/optimizer.cpp:evaluate_step"]}
{"id": "C25", "title": "The fitness history is the sliding window of the last step bests", "statement": "With tracking window W > 0 fixed from the start the history after n successful steps is exactly the float-converted best fitness of the last min(n,W) steps in order, and the number of samples equals the number of successful steps; it never exceeds W. When a condition added during the run raises the window, the history still is a most recent run of step bests of the steps since tracking began.", "quantifier": "all W, all histories of steps", "why_tests_cant": "unbounded histories and window sizes", "anchors": ["spot/optimizer.cpp:update_fitness_tracking", "spot/optimizer.h:set_fitness_tracking_window_size"]}
{"id": "C26", "title": "fitness_trend is never stale", "statement": "However calls to step, fitness_trend, progress and predicted_fitness are interleaved, fitness_trend() returns the regression of the current history (or the zero function for fewer than two samples): the cache is never observable.", "quantifier": "all interleavings of calls and steps, any regression function", "why_tests_cant": "unbounded interleavings", "anchors": ["spot/optimizer.cpp:fitness_trend"]}
{"id": "C27", "title": "interrupt is sticky and ends the run", "statement": "After interrupt(), every later step returns a stop condition (the abort condition unless another had already latched), run() makes at most one further step, and stop_requested() stays true.", "quantifier": "all states, all later histories", "why_tests_cant": "unbounded histories", "anchors": ["spot/optimizer.h:interrupt", "spot/stop_condition.cpp:abort_condition::test", "spot/optimizer_pool.cpp:interrupt"]}
{"id": "C28", "title": "evaluate_noexcept turns every outcome into a result", "statement": "evaluate_noexcept returns exactly the value or error the objective returned, converts a std::exception to its message and anything else to the fixed unknown-exception message, and never throws; the sequential evaluator returns one result per point in order.", "quantifier": "all objectives, points and stop tokens", "why_tests_cant": "arbitrary user objectives", "anchors": ["spot/objective.cpp:evaluate_noexcept", "spot/evaluator.cpp:sequential_evaluator::evaluate"]}
{"id": "C29", "title": "Every evaluator returns the results in point order under every schedule", "statement": "batch, async and pooled evaluate() return one result per point, and the i-th is what the objective returned for the i-th point, for every interleaving of worker and caller threads, every completion order, every number of threads and any number of concurrent callers.", "quantifier": "all schedules, all numbers of points, threads and callers", "why_tests_cant": "interleavings are unbounded and tests sample a handful", "anchors": ["spot/batch_evaluator.cpp", "spot/async_evaluator.cpp", "spot/pooled_evaluator.cpp:evaluate", "spot/pooled_evaluator.cpp:thread_func"]}
{"id": "C30", "title": "The pooled evaluator runs every task exactly once", "statement": "Under every interleaving each submitted point is evaluated at most once, and exactly once by the time its evaluate() call returns; tasks leave the queue in the order they were submitted; at most one thread is ever between locking and releasing the mutex of the queue, and the queue only changes in such a section.", "quantifier": "all schedules, callers and thread counts", "why_tests_cant": "unbounded interleavings", "anchors": ["spot/pooled_evaluator.cpp:thread_func", "spot/pooled_evaluator.cpp:evaluate"]}
{"id": "C31", "title": "A running pooled evaluator with at least one worker always completes", "statement": "With at least one worker and no shutdown in progress there is no deadlock and no lost wake-up: every execution without spurious wake-ups is finite, and it can only end with all evaluate() calls returned.", "quantifier": "all schedules, callers and thread counts >= 1", "why_tests_cant": "liveness over all schedules", "anchors": ["spot/pooled_evaluator.cpp:thread_func", "spot/pooled_evaluator.cpp:evaluate"]}
{"id": "C32", "title": "Shutting a pooled evaluator down: sound, and exactly when it terminates", "statement": "If the destructor of pooled_evaluator returns, all workers have exited, and set_max_threads starts new workers only after all old ones have exited. set_max_threads terminates under every schedule when, at the notification, no worker is between reading the stop flag and sleeping; the destructor terminates when every worker is evaluating or about to read the flag. Otherwise it can hang: the destructor holds the queue mutex while joining, so destroying an evaluator with a worker waiting for work never returns, and set_max_threads can lose its only wake-up.", "quantifier": "all schedules", "why_tests_cant": "a race window of a few instructions", "anchors": ["spot/pooled_evaluator.cpp:~pooled_evaluator", "spot/pooled_evaluator.cpp:stop_threads", "spot/pooled_evaluator.cpp:thread_func"]}
{"id": "C33", "title": "The async evaluator never exceeds its thread limit", "statement": "While async_evaluator::evaluate runs, at most thread_count evaluations are in flight at any time; thread_count is max_threads if positive and otherwise the hardware concurrency plus max_threads, and is zero exactly when max_threads = -hardware_concurrency, in which case evaluate never returns; below that the unsigned sum wraps round to at least 2^31.", "quantifier": "all schedules, all point counts, all int settings", "why_tests_cant": "unbounded schedules; unsigned wrap-around", "anchors": ["spot/async_evaluator.cpp:evaluate", "spot/pooled_evaluator.cpp:start_threads"]}
{"id": "C34", "title": "The CMA boundary transformation maps every real vector into the bounds", "statement": "In exact arithmetic, for lb < ub and any x whose shift count fits an int, the transformation returns a value in [lb,ub], never reports the internal BUG, and is the identity on [lb+al, ub-au]; applying it to a vector transforms each component independently. In double precision the same holds for all bounds of magnitude at most 2^400 that differ by at least 2^-40 (1+|lb|+|ub|), and every x that is not NaN: the BUG error is never reported, every result is between the bounds, there is a result for every x up to 2^30 widths away, and a point at least 5.2% of 1+|bound| inside both bounds is returned bit for bit.", "quantifier": "all reals x, lb < ub, all dimensions; all doubles x and all such bounds", "why_tests_cant": "uncountable domain", "anchors": ["spot/boundary_transformer.cpp:cmaes_boundary_transformer", "spot/cma_optimizer.cpp:cmaes_boundary_trans"]}
{"id": "C35", "title": "The CMA boundary transformation is periodic, continuous and onto", "statement": "In exact arithmetic the transformation is periodic with period 2(ub-lb+al+au) outside the principal interval, non-decreasing on the feasible pre-image, and every value of [lb,ub] is attained: transforming the inverse of y gives back y. The doubles the code computes with agree with exact arithmetic to within 2^-43 of the magnitudes involved, so all of this holds for them up to that error: periodic, symmetric, continuous, non-decreasing, and the image of the inverse of y is within 2^-41(1+|lb|+|ub|) of y (but not always y itself).", "quantifier": "all reals, all bounds; all finite doubles, all bounds that are finite, at most 2^400 and not within rounding of each other", "why_tests_cant": "uncountable domain", "anchors": ["spot/cma_optimizer.cpp:cmaes_boundary_trans_inverse", "spot/cma_optimizer.cpp:cmaes_boundary_trans", "spot/boundary_transformer.cpp"]}
{"id": "C36", "title": "Reflective and soft-limit transformers act per component and leave feasible components alone", "statement": "reflective_boundary_transformer leaves every component inside [min,max] bit-for-bit unchanged and replaces the others by the triangle wave of that component; no component depends on another.", "quantifier": "all vectors and objective_infos", "why_tests_cant": "unbounded dimension, all doubles", "anchors": ["spot/boundary_transformer.cpp:reflective_boundary_transformer::apply"]}
{"id": "C37", "title": "Every point the MES, EVA and CMA optimizers evaluate respects the bounds", "statement": "If every bound is itself an 8-significant-digit number (a fixed point of the rounding) then every component of every evaluated point lies within [min,max], whatever the random numbers (not NaN) and after any number of generations; before rounding the bound holds for all bounds.", "quantifier": "all random sequences, generations, objectives and bounds", "why_tests_cant": "all random streams", "anchors": ["spot/mes_optimizer.cpp:sample_parameter", "spot/eva_optimizer.cpp:sample_parameter", "spot/cma_optimizer.cpp:sample_population", "spot/search_point.cpp:rounded"]}
{"id": "C38", "title": "Maximising f is minimising -f", "statement": "Running any of the optimizers to maximise f evaluates exactly the same points as minimising -f with the same seed, with negated best fitness and the same best point, step by step for any number of steps.", "quantifier": "all objectives, seeds and step counts", "why_tests_cant": "a relation between two unbounded executions", "anchors": ["spot/cma_optimizer.cpp:update_distribution", "spot/objective_info.h:is_better", "spot/objective_info.cpp:find_best_fitness", "spot/mes_optimizer.cpp:update_distribution"]}
{"id": "C39", "title": "Results are reproducible and independent of the evaluator", "statement": "For a deterministic objective, the whole trajectory (populations, fitnesses, best) is a function of objective, options and seed: it is the same with the sequential, batch, async and pooled evaluator and for every thread schedule. A new cma_optimizer does not depend on the random device or the clock if random_seed is not a multiple of 2^32.", "quantifier": "all schedules and all numbers of steps", "why_tests_cant": "schedules and unbounded executions", "anchors": ["spot/optimizer.cpp:evaluate", "spot/evaluator.cpp", "spot/pooled_evaluator.cpp", "spot/cma_optimizer.cpp:cmaes_random_init"]}
{"id": "C40", "title": "The CMA random generator stays in range", "statement": "For every seed the Park-Miller generator with shuffle table computes 16807*s mod (2^31-1) without any intermediate exceeding 32-bit signed range, never reaches 0, always indexes the 32-entry table in range, and returns uniforms strictly between 0 and 1.", "quantifier": "all seeds and any number of draws", "why_tests_cant": "2^32 seeds, unbounded draws", "anchors": ["spot/cma_optimizer.cpp:cmaes_random_init", "spot/cma_optimizer.cpp:cmaes_random_Uniform", "spot/cma_optimizer.cpp:cmaes_random_Gauss"]}
{"id": "C41", "title": "CMA recombination weights are a proper decreasing distribution", "statement": "In exact arithmetic the weights are positive, strictly decreasing, sum to 1, and the variance-effective selection mass lies between 1 and mu, for every mu >= 1. In double precision, with a logarithm accurate to 2^-40, the same holds for every mu up to 2^20: the computed weights are positive, strictly decreasing, each within 1 part in 32768 of the exact one, sum to 1 up to mu 2^-50, and the computed selection mass is at least 1 (at least 6/5 for mu >= 2) and exceeds mu by at most a relative error of mu 2^-48.", "quantifier": "all mu and lambda", "why_tests_cant": "unbounded sizes", "anchors": ["spot/cma_optimizer.cpp:cmaes_readpara_SetWeights"]}
{"id": "C42", "title": "CMA strategy parameters are in their admissible ranges", "statement": "In exact arithmetic, for every dimension N >= 1 and every lambda option, lambda >= 2 and 1 <= mu < lambda hold, 0 < cs < 1, 0 < ccumcov <= 1, 0 < ccov <= 1, damps > 0, and ccov1, ccovmu are non-negative with sum at most 1. A lambda of at least 2 and an update_eigen_modulo that is not negative are used as given. In double precision the same holds for every dimension up to 2^20 and lambda up to 2^21, given a logarithm accurate to 2^-40 and an exact ceil: every parameter is finite and in its range (the damping between 1/4 and 5002), the two learning rates add up to less than 1, and construction fails only for a parameter with equal bounds.", "quantifier": "all dimensions and lambda options", "why_tests_cant": "unbounded sizes", "anchors": ["spot/cma_optimizer.cpp:cmaes_readpara_SupplementDefaults", "spot/cma_optimizer.cpp:Adapt_C2"]}
{"id": "C43", "title": "The CMA ranking is a sorting permutation", "statement": "For every vector of non-NaN fitness values the ranking computed before an update is a permutation of 0..lambda-1 along which the values are non-decreasing.", "quantifier": "all fitness vectors of any length", "why_tests_cant": "unbounded length", "anchors": ["spot/cma_optimizer.cpp:Sorted_index"]}
{"id": "C44", "title": "CMA keeps a positive covariance diagonal, positive semidefinite covariance and positive step size", "statement": "In exact arithmetic, along every run the step size stays > 0, the covariance matrix stays positive semidefinite with positive diagonal, so current_std() is positive for every parameter. In double precision, too, neither the step size nor any variance nor any entry of current_std() is ever negative (short of NaN after an overflow), given a logarithm accurate to 2^-40, an exact ceil and an exponential that is never negative, for every dimension up to 2^20 and lambda up to 2^21.", "quantifier": "all runs, fitness sequences and random streams", "why_tests_cant": "unbounded runs, uncountable state", "anchors": ["spot/cma_optimizer.cpp:Adapt_C2", "spot/cma_optimizer.cpp:cmaes_UpdateDistribution", "spot/cma_optimizer.cpp:current_std"]}
{"id": "C45", "title": "The CMA sample/update protocol is enforced", "statement": "update_distribution throws unless a population has been sampled since the last update and the number of results equals lambda; alternating sample/update never throws; the generation counter counts updates, and re-sampling after a failed step does not advance it.", "quantifier": "all call sequences", "why_tests_cant": "unbounded call sequences", "anchors": ["spot/cma_optimizer.cpp:cmaes_UpdateDistribution", "spot/cma_optimizer.cpp:cmaes_SamplePopulation"]}
{"id": "C46", "title": "The CMA mean is a convex combination of feasible points", "statement": "Without a boundary transformer, in exact arithmetic the distribution mean after every update lies within [min,max] in every coordinate, so make_updated_objective_info() describes valid parameters; with the CMA boundary transformation it describes valid parameters wherever the distribution is. In double precision the mean can leave the bounds by a rounding error even if all points were within them, and the description is then invalid; but it is never off by more than mu 2^-49 (1 + the larger of |min| and |max|), where mu is half the population size, as long as no sampled value is NaN, mu is at most 2^20 and the bounds at most 2^400.", "quantifier": "all runs, random streams and objectives", "why_tests_cant": "unbounded runs", "anchors": ["spot/cma_optimizer.cpp:cmaes_UpdateDistribution", "spot/cma_optimizer.cpp:sample_population", "spot/cma_optimizer.cpp:make_updated_objective_info"]}
{"id": "C47", "title": "MES and EVA updates use exactly the mu best and keep variances non-negative", "statement": "In exact arithmetic with update rates in [0,1] every variance stays >= 0; without momentum the MES mean stays within the bounds; only the mu best individuals influence the update; state vectors always keep the dimension of the problem. The new mean, momentum and variance are the blends, at the update rates, of the old ones with the average, the displacement and the spread of the mu best individuals. In double precision, too, no variance is ever negative (short of NaN after an overflow). In double precision and without momentum the mean stays within mu 2^-49 / rate (times the magnitude of the bounds plus 1) of the bounds, in any run in which the random numbers are numbers (bounds with at most 8 digits and of size at most 2^400). With the default options all rates lie in [0,1], at least 4 points are sampled and at least 2 of them used; each rate and the option mu (half of lambda if 0) is used for what its name says; the population size is the option lambda if more than 1, else 4 + int( 3 log n ).", "quantifier": "all populations, fitness vectors, rates and numbers of generations", "why_tests_cant": "unbounded runs", "anchors": ["spot/mes_optimizer.cpp:update_distribution", "spot/eva_optimizer.cpp:update_distribution"]}
{"id": "C48", "title": "make_updated_objective_info changes only mean and std", "statement": "The objective_info produced for a snapshot has the same parameter names in the same order, the same bounds, locked values, direction and name as the original; only mean and std are replaced by the optimizer's current ones.", "quantifier": "all optimizer states", "why_tests_cant": "unbounded states", "anchors": ["spot/mes_optimizer.cpp:make_updated_objective_info", "spot/eva_optimizer.cpp:make_updated_objective_info", "spot/cma_optimizer.cpp:make_updated_objective_info"]}
{"id": "C49", "title": "The pool's best is the best of its members", "statement": "After every pool step the pool's best_fitness() is that of a member, is at least as good as the best of every member that was ever stepped, and never gets worse; best_point() belongs to the same member.", "quantifier": "all member behaviours and all pool histories", "why_tests_cant": "unbounded histories, arbitrary member optimizers", "anchors": ["spot/optimizer_pool.cpp:internal_step", "spot/optimizer_pool.h"]}
{"id": "C50", "title": "The pool schedules each chosen member once and honours concurrency", "statement": "A pool step steps at most concurrent_optimizations members, each at most once; a new queue contains no member twice and no member whose stop condition had fired when the queue was filled; members are queued in order of predicted fitness.", "quantifier": "all member behaviours, all queue states, any valid sort", "why_tests_cant": "unbounded histories, unspecified sort order of ties", "anchors": ["spot/optimizer_pool.cpp:internal_step", "spot/optimizer_pool.cpp:compute_predicted_fitnesses"]}
{"id": "C51", "title": "The pool stops exactly when all members have stopped", "statement": "The pool's own stop condition fires if and only if every member has a latched stop condition; testing it tests every member; interrupting the pool interrupts every member. If the pool was not interrupted and a member is still running, a step limit or target fitness added to the pool stops it exactly when the pool has made that many steps or its best fitness is better than the target, the first added one that is reached being the reason; a target cannot be tested before the pool has a best.", "quantifier": "all member states, any number of members", "why_tests_cant": "unbounded numbers of members", "anchors": ["spot/optimizer_pool.cpp:pool_stop_condition", "spot/optimizer_pool.cpp:interrupt"]}
{"id": "C52", "title": "file_reporter keeps the newest best and bounds its bookkeeping", "statement": "For a single optimizer, after every new best a file for that step exists and is never removed before a newer best has been written; at most three files are remembered at any time (two between calls); the first best written is kept while it anchors the window; only files this reporter wrote are removed. A file is named after its step number, and the median and best fitness of the step in at most 11 characters each, so names of different steps differ.", "quantifier": "all histories of new-best events and fitness values, all improvement thresholds", "why_tests_cant": "unbounded histories", "anchors": ["spot/file_reporter.cpp:write_par_file", "spot/file_reporter.cpp:on_new_best"]}
{"id": "C53", "title": "file_reporter writes at least every max_steps steps", "statement": "With max_steps >= 1, at every on_post_evaluate_population after step s the last written file is fewer than max_steps steps old (counting in wrap-around size_t arithmetic from the initial -1).", "quantifier": "all histories and max_steps values", "why_tests_cant": "unbounded histories, wrap-around arithmetic", "anchors": ["spot/file_reporter.cpp:on_post_evaluate_population"]}
{"id": "C54", "title": "Statistics and geometry helpers are correct", "statement": "In exact arithmetic compute_mean_std returns the population mean and standard deviation; projected(a,ab,p) returns the point of the line a+t*ab nearest to p (or a for a degenerate direction); normalized_distance and length are the (weighted) Euclidean norms; update is linear interpolation. In double precision compute_mean_std of n points (n up to 2^20) with coordinates of size at most B (at most 2^400) returns numbers within n 2^-50 B + 2^-70 of the population mean and within n 2^-48 B + 2^-70 of the standard deviation, and no standard deviation is negative; the length of a vector (2^20 coordinates of size at most 2^300) is within a relative n 2^-49 plus 2^-70 of the exact one, and update with a rate in [0,1] of values of size at most B is within 2^-50 (B + 1) of the exact interpolation.", "quantifier": "all vectors of any dimension", "why_tests_cant": "uncountable domain, unbounded dimension", "anchors": ["spot/search_point.cpp:compute_mean_std", "spot/math_tools.h", "spot/math_tools.cpp"]}
{"id": "C55", "title": "Benchmark objectives have the documented optima", "statement": "In exact arithmetic sphere, ellipsoid, rosenbrock, rastrigin and himmelblau are non-negative everywhere and zero at the documented optimum (sphere, ellipsoid, rosenbrock and rastrigin for every dimension and only there on the stated range where unique); the data objective is the mean squared error, zero exactly for a perfect fit. In double precision too (up to 2^20 data, values of at most 2^300 in size) the data objective is a number, not negative, and within a relative n*2^-49 (plus 2^-190) of the exact mean squared error; sphere and ellipsoid are within a relative n*2^-50 (plus 2^-150) of their exact values, and the sphere is zero at some non-zero points as well (underflow).", "quantifier": "all points, all dimensions", "why_tests_cant": "uncountable domain", "anchors": ["spot/test_objectives.cpp", "spot/test_objectives.h", "spot/data_objective.h"]}
{"id": "C56", "title": "Optional parameters fall back to their default without side effects", "statement": "try_get_par and par_io::try_get return the default and register nothing when the node is absent; otherwise they behave exactly as get on the child node; a node that is found only by the query of that name counts as present; array and pair variants treat each element as its own parameter and pairs with fewer than two elements are rejected.", "quantifier": "all prop_nodes, names, defaults and stores", "why_tests_cant": "unbounded inputs", "anchors": ["spot/par_tools.h:try_get_par", "spot/par_io.cpp:par_io::try_get"]}
{"id": "C57", "title": "Generated objectives have distinct, valid parameters", "statement": "make_objective_info(d,...) and make_objective_info(vectors) produce exactly d free parameters named 0..d-1 in order with distinct names and the given mean/std/bounds, no locked parameters, minimized, with target fitness 0, or throw if some parameter is invalid.", "quantifier": "all d and all vectors", "why_tests_cant": "unbounded dimension", "anchors": ["spot/objective_info.cpp:make_objective_info"]}
{"id": "C58", "title": "history.txt has one row per completed step and loses at most nine on a crash", "statement": "With fitness history output enabled, at any time after on_start history.txt is a header followed by the rows of steps 0,1,2,... in order; at most the last nine completed steps are not yet handed to the file, and after on_stop none is missing. The header names the columns; a row holds the number of its step, the best and the median fitness evaluated in that step, with a window the predicted fitness and progress, and if configured the best point of the step and the state values of the optimizer. Every row has the columns of the header as long as no condition added after the first step switches fitness tracking on.", "quantifier": "all histories of an optimizer, all crash points between reporter calls", "why_tests_cant": "unbounded histories and arbitrary crash points", "anchors": ["spot/file_reporter.cpp:on_start", "spot/file_reporter.cpp:on_post_step", "spot/file_reporter.cpp:on_stop"]}
{"id": "C59", "title": "Benchmark objectives are never negative and exact at their optimum in double arithmetic", "statement": "Evaluated in IEEE doubles (with any C math library) sphere, ellipsoid, rosenbrock and himmelblau never return a negative value, sphere and ellipsoid of NaN-free points are not NaN, and at the documented optimum they return exactly zero for every dimension; the same holds for rastrigin (up to 2^49 coordinates) if the cosine of the library never exceeds 1, resp. is 1 at zero; make_*_objective returns a minimization objective of the requested dimension with the documented name, start values and range, whose documented optimum is feasible; make_objectives returns four of them per dimension in order.", "quantifier": "all points, all dimensions, all math libraries", "why_tests_cant": "unbounded dimension and all double inputs", "anchors": ["spot/test_objectives.cpp", "spot/test_objectives.h", "spot/function_objective.h"]}
{"id": "C60", "title": "Schwefel is positive on its range and near zero only at the documented optimum", "statement": "In exact arithmetic, on the documented range [-500,500] the Schwefel benchmark is positive in every dimension >= 1, at most 2e-5 per dimension at the documented optimum, and at most 0.01 only for points within 0.5 of it in every coordinate. In double precision, with a sine accurate to 2^-40, the value computed for a point of 1 to 2^20 coordinates in that range is positive as well, and within 2e-7 per coordinate of the exact one. Up to 5000 coordinates it is at most 0.009 only within 0.5 of the optimum.", "quantifier": "all points of the range, all dimensions", "why_tests_cant": "uncountable domain", "anchors": ["spot/test_objectives.cpp:schwefel", "spot/test_objectives.h"]}
{"id": "C61", "title": "The eigendecomposition in cma_optimizer is correct, safe and terminates", "statement": "In exact arithmetic, for every symmetric matrix of every size, the eigendecomposition that cma_optimizer samples with ends, never reads outside its arrays, and gives ascending eigenvalues d and an orthonormal basis B such that B diag(d) B^T differs from the matrix by at most 12 n 2.22e-16 of its Frobenius norm; so the sampled points are mean + sigma M z with M M^T equal to the covariance up to that tolerance (when the smallest variance exceeds the tolerance).", "quantifier": "all symmetric matrices of all sizes", "why_tests_cant": "unbounded dimension, uncountable domain, an iteration without a limit", "anchors": ["spot/cma_optimizer.cpp:Eigen", "spot/cma_optimizer.cpp:QLalgo2", "spot/cma_optimizer.cpp:Householder2", "spot/cma_optimizer.cpp:myhypot", "spot/cma_optimizer.cpp:cmaes_UpdateEigensystem", "spot/cma_optimizer.cpp:cmaes_SamplePopulation"]}
{"id": "C62", "title": "The console output tells what happened, step by step", "statement": "With a console_reporter, every step prints, in order: a line with the dimension if no step has completed yet; the step number with at least four digits; if the step did not fail, the average and the median of all fitnesses of the step and, exactly if the step improved the best fitness, that best fitness, each as the nearest decimal with the configured number of places; then a line feed if newline_best is set and the step improved, else only a carriage return; and, if the step stopped the optimizer, one line with the elapsed time and the message of the condition that stopped it. Other calls print nothing, unless they find that the optimizer is to stop. An error stop reports the number of failed and of all evaluations and exactly the distinct error messages; a prediction stop reports the prediction and the fitness it was compared with.", "quantifier": "all histories of calls, all populations, results, precisions and stop conditions", "why_tests_cant": "unbounded histories and all double values", "anchors": ["spot/console_reporter.cpp", "spot/console_reporter.h", "spot/stop_condition.h", "spot/stop_condition.cpp:what", "spot/optimizer.cpp:verify_results"]}
{"id": "C63", "title": "The order in which parameters are asked for does not matter", "statement": "Gets of distinct full names that are not references may be executed in any order: if they all succeed in one order they all succeed in every order, every get returns the same value in each order (the one it returns when asked first), and the resulting objective_infos have the same free parameters up to their order, the same locked parameters and the same settings, so that every later program of gets, scopes and options returns the same values or the same error on both. In particular try_get_par of a 3-vector, whose component gets C++ evaluates in an unspecified order, registers name.x, name.y and name.z and returns the same vector with every compiler; an absent vector yields the default and a node that is no vector an error, without effect. (The order of the free parameters does depend on it, and so does success when a component refers to another one.)", "quantifier": "all sets of gets, all their orders (evaluation orders of the compiler), all stores and later programs", "why_tests_cant": "unspecified evaluation order; all permutations and unbounded programs", "anchors": ["spot/par_tools.h:try_get_par", "spot/par_io.cpp:par_io::get", "spot/objective_info.cpp:objective_info::add"]}
{"id": "C64", "title": "A pool warms its members up evenly and serves its queue in order", "statement": "As long as an optimizer_pool has at most active_optimizations members and all of them are still warming up (not stopped, fewer than prediction_start completed steps), whatever was called, in whatever order the concurrent member steps ended and whatever the results were: the numbers of steps started for any two members differ by at most one, and if concurrent_optimizations is not zero every member has been stepped at least r times after r * ceil(members / concurrent_optimizations) pool steps. At any time a member waiting at position p of the queue is stepped within the next p / concurrent_optimizations + 1 pool steps. (With more members than active_optimizations, or after the warm-up, members can starve.)", "quantifier": "all pools, histories of calls, thread schedules, results", "why_tests_cant": "unbounded histories and all schedules", "anchors": ["spot/optimizer_pool.cpp:internal_step", "spot/optimizer_pool.cpp:compute_predicted_fitnesses", "spot/optimizer_pool.h"]}
{"id": "C65", "title": "When a pool step is free of data races, and then independent of the schedule", "statement": "While the member steps a pool step has launched are running in other threads, the pool's own thread also accesses members. If no running member is accessed in the run in which every member step ends as late as possible, then none is accessed in any run, and all runs (all orders in which the member steps end) give the same return value or exception, the same pool and members, and the same calls of the reporters. This is always the case if concurrent_optimizations is at most 1, and, without use_predicted_fitness_stop_condition, if the pool has no best member yet, or the best member is not stepped now or is the first one. Otherwise there is a data race: with that condition in the first step that starts two members; without it whenever the first member does not improve on the best and the best one is stepped after it, also with the default settings.", "quantifier": "all pools, histories, results, all thread schedules", "why_tests_cant": "data races and schedules; unbounded histories and numbers of members", "anchors": ["spot/optimizer_pool.cpp:internal_step", "spot/optimizer_pool.h:best_optimizer"]}
{"id": "C66", "title": "What the reporters of a pool see", "statement": "Every reporter of an optimizer_pool that no throwing reporter precedes sees, in each pool step that returns: on_start while no step has completed yet; on_pre_step; then for every member that was stepped, in the order in which they were started and in whatever order they ended, on_new_best exactly if it is the first one or its best fitness is better than the one announced last - called with that member's best point and fitness, which the pool shows at that time - followed by on_post_evaluate_population telling the same; on_post_step, when the pool's best fitness is the one announced last; and on_stop if the step latched a stop condition. Other calls show at most that on_stop. Over any history the announced fitnesses are strictly improving, the last one is the pool's best fitness, and on_stop is seen exactly once if the pool has stopped and otherwise never.", "quantifier": "all pools, histories of calls, thread schedules, results, sets of (possibly throwing) reporters", "why_tests_cant": "unbounded histories and all schedules", "anchors": ["spot/optimizer_pool.cpp:internal_step", "spot/optimizer.cpp:step", "spot/optimizer.cpp:test_stop_conditions", "spot/optimizer.h:signal_reporters"]}
{"id": "C67", "title": "How old the distribution is that CMA samples from, and how often it is decomposed", "statement": "Whatever sequence of sampling and update calls is made on a new cma_optimizer, each sampled population is, before it is moved into the bounds, mean + sigma M z with the current mean and step size and one matrix M for all points, and M M^T is, up to the tolerance of the eigendecomposition, the covariance matrix of some moment of the history: the current covariance matrix, or one that is less than update_eigen_modulo generations old. If every population is evaluated before the next is sampled, less than update_eigen_modulo updates were made since, so with a value of at most 1 it is the current covariance matrix. The O(n^3) eigendecomposition is computed at most once every update_eigen_modulo generations: with the default options at most 10 n ccov times per generation; and never more often than updates were made, so sampling again costs no second decomposition.", "quantifier": "all histories of calls, dimensions, results, random numbers, options (exact arithmetic)", "why_tests_cant": "unbounded histories and dimensions, uncountable domain", "anchors": ["spot/cma_optimizer.cpp:cmaes_UpdateEigensystem", "spot/cma_optimizer.cpp:cmaes_SamplePopulation", "spot/cma_optimizer.h:update_eigen_modulo"]}
{"id": "C68", "title": "Only the ranking of the fitness values matters", "statement": "If the objective f is replaced by g o f, where g is strictly increasing on the values that occur and keeps the worst fitness that stands for failed evaluations, then mes_optimizer, eva_optimizer and cma_optimizer - every optimizer whose update depends on the fitnesses only through comparisons - evaluate exactly the same points in every step; after every number of steps the best point is the same and the best fitness is g of the original one, and the same holds for the current point and fitnesses. Which reporters and stop conditions the two optimizers have, and whether interrupt() was called, makes no difference to the search, as long as no call of step() throws.", "quantifier": "all objectives, all increasing g, all numbers of steps, all seeds, stop conditions, reporters, interrupt schedules", "why_tests_cant": "all pairs of objectives, unbounded histories", "anchors": ["spot/mes_optimizer.cpp:update", "spot/eva_optimizer.cpp:update", "spot/cma_optimizer.cpp:cmaes_UpdateDistribution", "spot/optimizer.cpp:evaluate_step", "spot/optimizer.cpp:step", "spot/objective_info.h:find_best_fitness"]}
{"id": "C69", "title": "The search distribution of CMA is updated by the published equations", "statement": "In exact arithmetic, after any sequence of sampling and update calls on a new cma_optimizer, an update with the fitnesses of a generation makes exactly the changes of CMA-ES: the points are ranked by fitness (of equally good ones the later first), the mean becomes the weighted mean of the better half, the conjugate evolution path is fed with the step of the mean whitened by the inverse square root of the covariance the generation was drawn with, the other path with the step itself unless the first one is long, the covariance matrix with the rank-one and the rank-mu update, the step size with the length of the path relative to that of a random path; if the best and the middle fitness are equal the step size is increased first. All strategy parameters (learning rates, damping, number of parents) are the published functions of dimension and population size.", "quantifier": "all histories of calls, dimensions, fitnesses, random numbers, options (exact arithmetic)", "why_tests_cant": "unbounded histories and dimensions, uncountable domain", "anchors": ["spot/cma_optimizer.cpp:cmaes_UpdateDistribution", "spot/cma_optimizer.cpp:Adapt_C2", "spot/cma_optimizer.cpp:Sorted_index", "spot/cma_optimizer.cpp:cmaes_readpara_SupplementDefaults", "spot/cma_optimizer.cpp:cmaes_readpara_SetWeights"]}
{"id": "C70", "title": "The origin and the unit of the parameters do not matter", "statement": "In exact arithmetic, measuring all parameters from other origins and in another unit (means and bounds moved to a + t x, standard deviations multiplied by t > 0, the objective returning the same fitness for the same point) moves the whole search of mes_optimizer, eva_optimizer and cma_optimizer along: with the same random numbers every population evaluated, for any number of steps, is the moved population of the original search, the mean is the moved mean and the standard deviations are those of the original times t. With a boundary transformer this needs a transformer that does the same in the new coordinates: none and the reflective one do, that of cma_optimizer does not.", "quantifier": "all origins, all units, all objectives, random numbers, numbers of steps, dimensions, options (exact arithmetic)", "why_tests_cant": "pairs of unbounded runs, uncountable domain", "anchors": ["spot/cma_optimizer.cpp:sample_population", "spot/cma_optimizer.cpp:cmaes_UpdateDistribution", "spot/cma_optimizer.cpp:cmaes_init", "spot/mes_optimizer.cpp:update", "spot/eva_optimizer.cpp:update", "spot/boundary_transformer.h:reflective_boundary_transformer", "spot/boundary_transformer.cpp:cmaes_boundary_transformer"]}
{"id": "C71", "title": "What a name means: scopes, dots, aliases and options", "statement": "Asking for parameter n inside scoped_prefix scopes p1, ..., pk is asking for the parameter p1.p2. ... .pk.n: a dot is added to a scope name only on request and only if it is not empty and does not end with one. Inside scoped_par_options scopes each of auto_std_factor, auto_std_offset and auto_std_minimum has the value of the innermost scope that sets it, and a parameter given as ~v gets the standard deviation max(factor |v| + offset, minimum); the parameter aliases are those of the innermost scope that has any, and the name asked for is the full name with the aliases replaced one after the other in the order of their keys.", "quantifier": "all nestings of scopes of any depth, all names, nodes, alias tables, kinds of parameter sets", "why_tests_cant": "unbounded nesting, all strings", "anchors": ["spot/par_io.h:scoped_prefix", "spot/par_io.h:scoped_par_options", "spot/par_io.cpp:get", "spot/par_info.cpp:par_info"]}
{"id": "C72", "title": "A pool only decides how often each of its members is stepped", "statement": "Whatever an optimizer_pool does - however it chooses, waits, tests and interrupts its members, in whatever order their steps finish - at any time each member has the best fitness, best point, current fitnesses and step count that the same optimizer, with the same random numbers and the same evaluator, would have on its own after as many calls of step(). So the pool's best fitness, best point and make_updated_objective_info() are those of one of these separate runs, and none of the other runs has found anything better. A pool of one optimizer, with the library's stop conditions, makes exactly one step of it in each of its own steps until it stops.", "quantifier": "all pools, members, evaluators, random numbers, schedules, histories of step/test/interrupt calls", "why_tests_cant": "unbounded histories, all schedules", "anchors": ["spot/optimizer_pool.cpp:internal_step", "spot/optimizer_pool.cpp:make_updated_objective_info", "spot/optimizer.cpp:step", "spot/mes_optimizer.cpp:internal_step", "spot/eva_optimizer.cpp:internal_step"]}
{"id": "C73", "title": "A search can be resumed from a par file", "statement": "Importing the par file of a search point with the default import options into any objective_info with the same free parameters, in any order, sets all of them and skips none: the means become those of the file (the point of the file with use_best_as_mean) and the standard deviations those of the file, rounded to 8 digits, a parameter whose standard deviation is zero becomes locked at the file's value, and bounds, order, other parameters, direction, target and name stay. If the bounds have at most 8 digits and the means (the point) were within them, the imported parameters are valid. So for mes_optimizer, eva_optimizer and cma_optimizer, interrupted at any time: when the snapshot (make_updated_objective_info) is written with any point and imported into the original objective_info, an optimizer constructed from the result has the same bounds, starts at the mean and with the standard deviations of the interrupted one, to 8 digits (MES and EVA report and sample with exactly the standard deviations they are given); and with the file reporter there is always a file from which use_best_as_mean resumes exactly at best_point().", "quantifier": "all objective_infos, histories of runs, points, parameter orders, numbers", "why_tests_cant": "all numbers and names, unbounded histories", "anchors": ["spot/objective_info.cpp:import_mean_std", "spot/search_point.cpp:operator<<", "spot/par_options.h:par_import_settings", "spot/file_reporter.cpp:on_new_best", "spot/mes_optimizer.cpp:make_updated_objective_info", "spot/cma_optimizer.cpp:make_updated_objective_info"]}
{"id": "C74", "title": "Sampling is rejection sampling and uses every random number once, in order", "statement": "In every sampling call of cma_optimizer each point has its own candidates: one candidate per point is drawn first, for all points in order, and then, point by point, retries. Each candidate is mean + sigma B D z for dim() random numbers z of its own. The first candidate whose (transformed) point is within the bounds is taken, all earlier ones were not; after 100 rejected candidates number 101 is moved to the bounds. In mes_optimizer and eva_optimizer each point takes one number for the momentum offset and then, component by component, numbers from the normal distribution with mean mean + offset * momentum and variance var + momentum^2 until one is within the bounds of that component; after 100 rejected ones number 101 is clamped. Whatever the sequence of steps, updates and failed steps, the random numbers used form one uninterrupted run of the generator: none is skipped, none is used twice, updating uses none, and a sampling call uses at most 101 vectors per point.", "quantifier": "all states, histories of calls and steps, random sources, bounds, transformers, number types", "why_tests_cant": "unbounded histories, all random sequences, up to 100 retries per point", "anchors": ["spot/cma_optimizer.cpp:sample_population", "spot/cma_optimizer.cpp:cmaes_SamplePopulation", "spot/cma_optimizer.cpp:cmaes_ReSampleSingle", "spot/mes_optimizer.cpp:sample_parameter", "spot/mes_optimizer.cpp:sample_population", "spot/eva_optimizer.cpp:sample_population"]}
{"id": "C75", "title": "A crash at any point of writing leaves a best on the disk", "statement": "If the process dies in the middle of any call of file_reporter - at any point between, or within, its file operations - then afterwards: every best file that existed before the call, except possibly that of the best reported last, is complete and unchanged; the file of the best reported last is complete and unchanged too, unless the process died while reporting a new best and both bests are insignificant improvements, in which case the file of the best before it is complete (a crash can lose both newest bests, because the old file is removed before the new one has been closed; it could not if the stream were closed first); history.txt is the beginning of the table of all steps and lacks at most its last ten rows. (max_steps at least 1.)", "quantifier": "all configurations, histories of optimizer calls, crash points, amounts of stream buffering", "why_tests_cant": "every crash point of every history", "anchors": ["spot/file_reporter.cpp:write_par_file", "spot/file_reporter.cpp:on_new_best", "spot/file_reporter.cpp:on_post_evaluate_population", "spot/file_reporter.cpp:on_post_step", "spot/file_reporter.cpp:on_start"]}
{"id": "C76", "title": "Asking an optimizer, and adding reporters or stop conditions later", "statement": "Calls of fitness_trend(), progress() and predicted_fitness() can be left out of (or added to) any history of calls without changing the state of the optimizer, its stop conditions, what any reporter is told and sees, or the result of any other call. A reporter added with add_reporter() in the middle of a run does not influence the run or the other reporters, and is told exactly what it would have been told from then on, had it been there from the start (so no start if a step has completed before). A stop condition without state of its own (all but error_condition, predicted_fitness_condition and similarity_condition) added in the middle makes no difference to adding it at the start, if it did not hold in between and the fitness tracking window is large enough for it already; if the window must grow, predicted_fitness() can differ for ever although the same fitnesses are tracked, because samples are numbered from the start of tracking and the prediction is for a number of steps.", "quantifier": "all histories of calls, points of addition, reporters, stop conditions, regressions", "why_tests_cant": "unbounded histories", "anchors": ["spot/optimizer.h:add_reporter", "spot/optimizer.cpp:add_stop_condition", "spot/optimizer.cpp:fitness_trend", "spot/optimizer.cpp:progress", "spot/optimizer.cpp:predicted_fitness", "spot/optimizer.cpp:test_stop_conditions", "spot/optimizer.h:signal_reporters"]}
{"id": "C77", "title": "A failed file operation harms only its own file", "statement": "Whatever file operations of file_reporter fail (opening, writing any character, removing), at any times of any run: file_reporter goes on exactly as if they had succeeded, and every file of which no operation failed is exactly as it would be without failures. So a best whose own file was written completely is on the disk whenever it would be there without failures. If nothing can be written any more from some time on, every best file that was there, except possibly that of the best reported last, stays for ever; and a best is always there if the first one could be written. But one file that cannot be written can cost two bests, because the file of the best before is removed nevertheless.", "quantifier": "all configurations, histories of optimizer calls, sets of failing operations", "why_tests_cant": "all subsets of failing operations of unbounded histories", "anchors": ["spot/file_reporter.cpp:write_par_file", "spot/file_reporter.cpp:on_new_best", "spot/file_reporter.cpp:on_post_evaluate_population", "spot/file_reporter.cpp:on_start"]}
{"id": "C78", "title": "What a fitness that is not a number does", "statement": "Whatever the objective returns, best_fitness() is a number and best_point() is the initial mean or a point evaluated to a number. find_best_fitness() returns 0 if the first fitness is not a number and otherwise the first of the best among the numbers. So a completed step counts and is at least as good as each of its points, and best_fitness() at least as good as the step, unless the first point of the step was evaluated to NaN: such a step leaves best_fitness() and best_point() as they were however good its other points are (so the best evaluated point can be missed), has current_step_best_fitness() NaN, is never flat, and as long as it is in the tracking window progress() and predicted_fitness() are NaN: min_progress_condition never stops the run and predicted_fitness_condition always does.", "quantifier": "all histories of populations and evaluation results including NaN at any places, both directions", "why_tests_cant": "all placements of NaN in unbounded histories", "anchors": ["spot/objective_info.cpp:find_best_fitness", "spot/objective_info.h:is_better", "spot/optimizer.cpp:evaluate_step", "spot/optimizer.cpp:progress", "spot/optimizer.cpp:predicted_fitness", "spot/stop_condition.cpp:test"]}
{"id": "C79", "title": "A pool respects the step limits and errors of its members, and ends", "statement": "In every history of calls of an optimizer_pool that return normally, under every schedule, a member that joined with a max_steps_condition is started at most as often as it had steps left then (a failed step counts; not at all if it had none left), keeps the condition and never goes past the limit; a member whose error_condition holds an error is never started again and its step count stays. If every member has such a limit not above prediction_start, the members have no user-defined stop conditions, and active_optimizations and concurrent_optimizations are at least 1, then the pool stops: it has stopped after more steps than the limits add up to. Each of these conditions is needed: with a limit above prediction_start, or with one of the two options 0, a pool can be stepped for ever without stopping and without starting anybody.", "quantifier": "all member lists, pasts of members, pool options, histories, schedules, evaluation results", "why_tests_cant": "unbounded histories and all schedules; termination is a liveness property", "anchors": ["spot/optimizer_pool.cpp:internal_step", "spot/optimizer_pool.cpp:push_back", "spot/optimizer_pool.cpp:pool_stop_condition", "spot/optimizer.cpp:step", "spot/stop_condition.h:max_steps_condition", "spot/stop_condition.h:error_condition"]}
{"id": "C80", "title": "The files of the individuals", "statement": "With output_individual_search_points, from the moment on_pre_evaluate_population has returned, the file SSSS_individualII.par of every individual (step number in at least four digits, number of the individual in at least two) holds exactly its point, and import_values reads that point back; no later call of the reporter and no clean-up changes or removes it, except that a step that failed and is tried again overwrites the files of the individuals it has (with fewer individuals, files of the failed attempt remain under the same step number). Different individuals and steps have different files. Without the option no such file is touched.", "quantifier": "all configurations, histories of optimizer calls, populations of any size", "why_tests_cant": "unbounded histories and populations", "anchors": ["spot/file_reporter.cpp:on_pre_evaluate_population", "spot/file_reporter.h:output_individual_search_points", "spot/search_point.cpp:operator<<"]}
{"id": "C81", "title": "The settings a pool is constructed with", "statement": "An optimizer_pool takes each setting from the entry of its prop_node with that name (the first, if there are several): prediction_window (default 100), prediction_start and prediction_look_ahead (default: the window that was set), use_predicted_fitness_stop_condition (default false), active_optimizations (6) and concurrent_optimizations (3). Construction throws exactly if one of these entries is there with a value that cannot be converted; other entries and the order of the entries do not matter. A member that joins gets the prediction window as its fitness tracking window (or prediction_start, if that is larger and the condition is used) and, exactly if asked for, a predicted fitness condition with the pool's worst fitness, look-ahead and start; nothing else of it changes. A step of the pool never starts more members than concurrent_optimizations says.", "quantifier": "all prop_nodes, conversions, members and histories", "why_tests_cant": "unbounded prop_nodes and histories", "anchors": ["spot/optimizer_pool.cpp:optimizer_pool::optimizer_pool", "spot/optimizer_pool.cpp:push_back", "spot/optimizer_pool.h:prediction_window_"]}
{"id": "C82", "title": "An objective without free parameters is refused, without effect", "statement": "If the objective has no free parameters (locking all of them, in any order and with any values, leads to that), then run() and step() of every optimizer, and step() of a pool, throw 'Objective has no free parameters' whatever was called before, and leave everything as it was: no reporter is called (only on_stop, when the client tests the stop conditions himself), nothing is sampled or evaluated, no best is found, no member of the pool is started. An mes_optimizer or eva_optimizer can be constructed on it only with an explicit population size (the default, from log( 0 ), is undefined); a cma_optimizer with any population size that is not negative. Its search_points are written as an empty file, which import_values refuses.", "quantifier": "all optimizers, options, histories of calls, pools, orders and values of locking", "why_tests_cant": "unbounded histories of calls and parameter lists", "anchors": ["spot/optimizer.cpp:step", "spot/optimizer.cpp:run", "spot/cma_optimizer.cpp:cma_optimizer::cma_optimizer", "spot/mes_optimizer.cpp:mes_optimizer::mes_optimizer", "spot/eva_optimizer.cpp:eva_optimizer::eva_optimizer", "spot/objective_info.cpp:lock_parameter", "spot/search_point.cpp:import_values"]}
{"id": "C83", "title": "Stop conditions can be found and changed while an optimizer is used", "statement": "find_stop_condition< T >() gives the first condition of type T among the abort and error conditions, those the constructor was given and those added later, in this order, and throws exactly if there is none; what it gives stays the same whatever is called and added afterwards. Changing the public members of a condition (or setting an error) takes effect the next time the conditions are tested: the first that tests true with the members it has then is the answer and latches; once a condition has latched a change has no effect. A change has no other effect, ever: steps, best and current values, the fitness history and its window are those of the same calls without the changes (so raising the number of samples of a condition does not enlarge the window). An error that a client puts into the error_condition stops the optimizer at the next test, unless it had stopped or was interrupted.", "quantifier": "all objectives, stop conditions, members and histories of calls and changes", "why_tests_cant": "unbounded histories of calls and changes", "anchors": ["spot/optimizer.h:find_stop_condition", "spot/stop_condition.h:error_condition", "spot/stop_condition.cpp:test", "spot/optimizer.cpp:test_stop_conditions"]}
