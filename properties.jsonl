{"id": "C01", "title": "Bit set iteration yields exactly the set bits, in order", "statement": "Iterating a bit set with BitSetIter yields every index whose bit is one, exactly once, in strictly increasing order, nothing else, and then stops for good.", "quantifier": "every sequence of 64-bit words, including empty ones, all-zero and all-one words, and words separated by arbitrarily many zero words", "why_tests_cant": "There are 2^(64k) inputs for every k; the cursor crosses word boundaries and masks in a way that tests only sample.", "anchors": ["src/utils.rs: BitSetIter::new, Iterator for BitSetIter::next"]}
{"id": "C02", "title": "LexBitSet ordering is a total order agreeing with equality", "statement": "For bit sets over the same number of words, LexBitSet comparison is reflexive, antisymmetric, transitive and total, returns Equal exactly when the sets hold the same elements, and otherwise is decided by the smallest element on which they differ.", "quantifier": "all pairs/triples of bit sets with any number of words", "why_tests_cant": "Order laws are statements about all triples of values; an ordering that is wrong on one bit position silently corrupts a sort or a heap.", "anchors": ["src/utils.rs: LexBitSet Ord::cmp, PartialOrd, PartialEq"]}
{"id": "C03", "title": "Matrix cells never alias", "statement": "A value written at an in-range cell is what is read back at that cell, and no other in-range cell changes; every in-range cell lies inside the backing storage; this holds for the library's Matrix as it is used.", "quantifier": "every number of rows and columns, every pair of in-range cells, every stored value", "why_tests_cant": "Aliasing shows only on non-square shapes and particular index pairs; tests of square matrices cannot see it.", "anchors": ["src/utils.rs: Matrix::new, Matrix::pos, Index, IndexMut", "examples/psp/utils.rs: Matrix"]}
{"id": "C04", "title": "Node flags behave as independent booleans", "statement": "Setting or clearing one node flag changes the answer of its own query only, every other query keeps its answer; a fresh exact (relaxed) flag set reports exact (relaxed); is_exact is true exactly when the exact flag is up and relaxed is down; add/remove/test on masks are set union, difference and inclusion.", "quantifier": "every flag state and every sequence of flag operations", "why_tests_cant": "The flag tests check chosen sequences; independence is a statement about all states and all sequences.", "anchors": ["src/mdd/node_flags.rs: NodeFlags"]}
{"id": "C05", "title": "Names of solver options survive printing and parsing", "statement": "Printing a compilation type, a cutset type or a solver type and parsing the text gives back the same value; parsing accepts no other text; distinct values print differently.", "quantifier": "every value of each option type and every input string", "why_tests_cant": "Rejecting every other string is a statement about an infinite set of inputs.", "anchors": ["src/prelude.rs: FromStr/Display for CompilationType, CutsetType", "src/xputils.rs: FromStr/Display for SolverType"]}
{"id": "C06", "title": "NoDupFrontier pops a maximal node", "statement": "After any history of push, pop and clear, pop returns a pending subproblem such that no other pending one is greater under the configured ranking, and returns None exactly when nothing is pending.", "quantifier": "every history of operations, every total preorder used as ranking, every sub-problem content", "why_tests_cant": "The heap invariant depends on the whole operation history; a broken sift shows only on specific shapes.", "anchors": ["src/frontier/no_dup.rs: push, pop, bubble_up, bubble_down, max_child_of"]}
{"id": "C07", "title": "NoDupFrontier keeps one entry per state and the best path to it", "statement": "At no time do two pending subproblems have the same state; when a state is pushed again while pending, the pending entry keeps the larger value with the path that belongs to it, and its upper bound becomes the larger of the two; pushing any other state leaves it untouched.", "quantifier": "every history of push, pop and clear and every pair of equal-state subproblems", "why_tests_cant": "Needs all interleavings of duplicates with pops and slot recycling.", "anchors": ["src/frontier/no_dup.rs: push (Occupied and Vacant branches)"]}
{"id": "C08", "title": "NoDupFrontier neither loses nor invents subproblems", "statement": "After any history the pending subproblems, in whatever order they are popped, are exactly those of a simple map from state to merged subproblem maintained by the same history; len reports their number; pop removes exactly the returned one; clear removes all; no operation panics or indexes out of range.", "quantifier": "every history of push, pop and clear of any length", "why_tests_cant": "Internal slot recycling and position tables make loss possible only after particular histories.", "anchors": ["src/frontier/no_dup.rs: push, pop, clear, len, recycle_bin, pos, states"]}
{"id": "C09", "title": "SimpleFrontier is a priority queue over the MaxUB order", "statement": "After any history of push, pop and clear, SimpleFrontier holds exactly the multiset pushed and not popped, and pop returns an element that is maximal for the given ranking, provided the underlying BinaryHeap pops a maximum for the ordering its wrapper supplies.", "quantifier": "every history of operations and every ranking", "why_tests_cant": "The comparator wrapper must agree with the heap's notion of order for every pair of nodes.", "anchors": ["src/frontier/simple.rs", "src/frontier/mod.rs: MaxUB"]}
{"id": "C10", "title": "MaxUB orders by upper bound first", "statement": "MaxUB never ranks a subproblem with a strictly smaller upper bound above one with a larger bound, falls back on the user's state ranking on equal bounds, and is a total preorder whenever the user's ranking is.", "quantifier": "all pairs and triples of subproblems and all user rankings", "why_tests_cant": "Order laws over all triples.", "anchors": ["src/frontier/mod.rs: MaxUB::compare"]}
{"id": "C11", "title": "A relaxed diagram never under-estimates", "statement": "After compiling a relaxed diagram for a subproblem, every completion of the subproblem whose value exceeds the given best_lb is at most best_value(); in particular when best_value() is None no completion improves best_lb.", "quantifier": "every problem, every valid relaxation, estimate, ranking, width, cutset type, hash iteration order and sub-problem", "why_tests_cant": "Quantifies over all problems and over all merges the width forces.", "anchors": ["src/mdd/with_all.rs: compile, branch_on, relax", "src/mdd/with_barrier.rs"]}
{"id": "C12", "title": "A restricted diagram only reports feasible solutions", "statement": "After compiling a restricted diagram, best_solution() assigns a domain value to every variable, replaying it from the initial state follows the problem's transitions, and its replayed value is best_value().", "quantifier": "every problem, ranking, width, iteration order, sub-problem whose own path replays to its state and value", "why_tests_cant": "A restriction can drop any nodes; soundness must hold whichever survive.", "anchors": ["src/mdd/with_all.rs: compile, branch_on, restrict, best_path"]}
{"id": "C13", "title": "is_exact means the subproblem is solved", "statement": "If is_exact() holds after compiling a restricted or relaxed diagram, then best_value() is the value of the best completion of the subproblem whenever that value exceeds best_lb, best_solution() is a completion having that value, and when best_value() is None no completion improves best_lb.", "quantifier": "every problem, compilation type, width, iteration order and sub-problem", "why_tests_cant": "A premature exactness claim loses solutions only on particular widths and bounds.", "anchors": ["src/mdd/with_all.rs: _is_exact, has_exact_best_path, compile", "src/mdd/with_barrier.rs"]}
{"id": "C14", "title": "An exact compilation solves the subproblem", "statement": "Compiling with CompilationType::Exact reports is_exact(), and best_value() equals the best completion value (None when none improves best_lb).", "quantifier": "every problem, ranking, iteration order and sub-problem", "why_tests_cant": "Universal over problems.", "anchors": ["src/mdd/with_all.rs: _compile with CompilationType::Exact"]}
{"id": "C15", "title": "The last-exact-layer cutset covers every improving solution", "statement": "When a relaxed diagram with the LEL cutset is not exact, every completion of the subproblem that improves best_lb passes through a sub-problem handed out by drain_cutset() whose value plus the remaining completion is at least as good, so solving the cutset solves the subproblem.", "quantifier": "every problem, valid relaxation, width, iteration order and completion", "why_tests_cant": "Coverage is a statement about all solutions, not about those tests enumerate.", "anchors": ["src/mdd/with_all.rs: drain_cutset, relax, compute_local_bounds", "src/mdd/with_barrier.rs: drain_cutset"]}
{"id": "C16", "title": "Cutset upper bounds are valid", "statement": "The ub carried by every sub-problem produced by drain_cutset() is at least the value of each of its completions that improves best_lb.", "quantifier": "every problem, valid relaxation and estimate, cutset type, width and iteration order", "why_tests_cant": "An under-estimating bound prunes the optimum only on special instances.", "anchors": ["src/mdd/with_all.rs: drain_cutset, compute_local_bounds", "src/mdd/with_barrier.rs: drain_cutset, compute_local_bounds_and_theta"]}
{"id": "C17", "title": "Cutset sub-problems are genuine and strictly deeper", "statement": "Each sub-problem returned by drain_cutset() has a path that, replayed from the initial state, leads to its state with its value, extends the path of the compiled subproblem, and assigns strictly more variables.", "quantifier": "every problem, relaxation, width, cutset type and sub-problem", "why_tests_cant": "Universal over diagrams; termination of the search rests on it.", "anchors": ["src/mdd/with_all.rs: drain_cutset, best_partial_path", "src/mdd/with_barrier.rs"]}
{"id": "C18", "title": "The width limit is respected", "statement": "Restricted diagrams never expand a layer with more than max_width nodes beyond the root layer; relaxed diagrams never expand one with more than max_width nodes beyond the first layer below the root.", "quantifier": "every problem, ranking, width at least one and iteration order", "why_tests_cant": "Off-by-one errors appear only when the merged node coincides with a kept node.", "anchors": ["src/mdd/with_all.rs: restrict, relax", "src/mdd/with_barrier.rs: restrict, relax"]}
{"id": "C19", "title": "The frontier cutset covers every improving solution", "statement": "When a relaxed diagram with the Frontier cutset is not exact, every completion improving best_lb is covered by a sub-problem of drain_cutset() or is reported as the diagram's own exact best solution.", "quantifier": "every problem, valid relaxation, width, iteration order and completion", "why_tests_cant": "Coverage is over all solutions; counterexamples need several terminal states.", "anchors": ["src/mdd/with_all.rs: compute_local_bounds", "src/solver/parallel.rs: process_one_node"]}
{"id": "C20", "title": "Compilation terminates without panicking", "statement": "Compiling any sub-problem with a width of at least one terminates without any index-out-of-range, underflow or missing-entry panic, whatever the compilation type.", "quantifier": "every problem, relaxation, width, iteration order and sub-problem", "why_tests_cant": "Panic freedom is over all inputs.", "anchors": ["src/mdd/with_all.rs: _compile", "src/mdd/with_barrier.rs: _compile"]}
{"id": "C21", "title": "A diagram object can be reused", "statement": "Compiling with a diagram that was already used for other compilations gives the same best value, solution, exactness and cutset as compiling with a fresh one.", "quantifier": "every pair of compilations and every state left behind by an earlier one", "why_tests_cant": "Stale state leaks only after particular histories.", "anchors": ["src/mdd/with_all.rs: clear", "src/mdd/with_barrier.rs: clear"]}
{"id": "C22", "title": "Parallel solver: a proved answer is the optimum", "statement": "When ParallelSolver with the LEL cutset reports Proved, best_value() is the optimum of the problem (None iff infeasible) and best_lower_bound = best_upper_bound, whatever the number of threads and schedule.", "quantifier": "every problem, valid relaxation, width, number of threads at least one and interleaving", "why_tests_cant": "Interleavings are unbounded and tests exercise a handful.", "anchors": ["src/solver/parallel.rs: maximize, process_one_node, get_workload, enqueue_cutset"]}
{"id": "C23", "title": "Reported solutions are always real", "statement": "At every moment, even when interrupted, best_solution() of either solver is absent or a complete feasible assignment whose value is best_value() = best_lower_bound().", "quantifier": "every problem, relaxation, schedule, interruption time and cutset type", "why_tests_cant": "Interruption can occur at any point of any interleaving.", "anchors": ["src/solver/parallel.rs: maybe_update_best, best_value, best_solution", "src/solver/barrier.rs"]}
{"id": "C24", "title": "The lower bound only improves and never exceeds the optimum", "statement": "best_lower_bound() is non-decreasing during the search and never exceeds the optimum.", "quantifier": "every execution of either solver with any number of threads", "why_tests_cant": "Statement over every step of all executions.", "anchors": ["src/solver/parallel.rs: maybe_update_best, maximize", "src/solver/barrier.rs"]}
{"id": "C25", "title": "The upper bound reported on interruption is valid", "statement": "When the search is interrupted, best_upper_bound() is at least the optimum.", "quantifier": "every problem, thread count, schedule and interruption point", "why_tests_cant": "Depends on which nodes other threads hold at the instant of the interruption.", "anchors": ["src/solver/parallel.rs: get_workload, maximize_with_interrupt", "src/solver/barrier.rs: get_workload"]}
{"id": "C26", "title": "The search terminates", "statement": "Each solver processes finitely many sub-problems: there is no infinite execution, whatever the schedule.", "quantifier": "every problem with finite domains, width, number of threads and schedule", "why_tests_cant": "Non-termination cannot be observed by a test.", "anchors": ["src/solver/parallel.rs: maximize, get_workload", "src/solver/barrier.rs"]}
{"id": "C27", "title": "No deadlock and no lost wake-up", "statement": "While work remains some thread can make progress: a waiting thread is always accompanied by a working one that will wake it, and when the search is over every thread leaves.", "quantifier": "every schedule of any number of threads", "why_tests_cant": "Lost wake-ups are schedule dependent.", "anchors": ["src/solver/parallel.rs: get_workload, notify_node_finished, wait_for_node_finished", "src/solver/barrier.rs"]}
{"id": "C28", "title": "Barrier solver: a proved answer is the optimum", "statement": "When BarrierSolver with the LEL cutset reports Proved, best_value() is the optimum, whatever the number of threads and schedule, although sub-problems are discarded because of thresholds recorded by other threads.", "quantifier": "every problem, valid relaxation, width, number of threads and interleaving, including of threshold reads and writes", "why_tests_cant": "Threshold pruning is unsound only for particular orders of exploration.", "anchors": ["src/solver/barrier.rs: get_workload, process_one_node, enqueue_cutset", "src/mdd/with_barrier.rs: compile"]}
{"id": "C29", "title": "Threshold pruning never discards an improving solution", "statement": "A partial assignment discarded since its value does not exceed the recorded threshold of its state has no completion that improves on the incumbent or on what the pending sub-problems can still deliver.", "quantifier": "every sequence of compilations sharing the same thresholds", "why_tests_cant": "Depends on the complete history of compilations.", "anchors": ["src/mdd/with_barrier.rs: _compile, compute_local_bounds_and_theta, try_update_barrier"]}
{"id": "C30", "title": "Barrier solver with frontier cutset", "statement": "When BarrierSolver or ParallelSolver with the Frontier cutset reports Proved, best_value() is the optimum.", "quantifier": "every problem, valid relaxation, width and schedule", "why_tests_cant": "Counterexamples need several terminal states and particular widths.", "anchors": ["src/solver/barrier.rs: process_one_node", "src/solver/parallel.rs: process_one_node", "src/mdd/with_all.rs: compute_local_bounds"]}
{"id": "C31", "title": "Layer bookkeeping of the barrier solver is conservative", "statement": "Thresholds of a layer are dropped only when no pending and no running sub-problem lies at or above that layer, and the bookkeeping counters never underflow.", "quantifier": "every schedule and history", "why_tests_cant": "Depends on the history of pushes, duplicate merges and pops.", "anchors": ["src/solver/barrier.rs: open_by_layer, ongoing_by_layer, lowest_active_layer, get_workload"]}
{"id": "C32", "title": "Changing the number of threads keeps the solver usable", "statement": "A solver whose number of threads is set with with_nb_threads solves the problem like one created with that number of threads.", "quantifier": "every pair of thread counts", "why_tests_cant": "Out-of-range access occurs only for particular pairs.", "anchors": ["src/solver/parallel.rs: with_nb_threads, custom, get_workload", "src/solver/barrier.rs"]}
{"id": "C33", "title": "The reported gap is meaningful", "statement": "gap(lb, ub) is zero for lb = ub, lies between zero and one for bounds of the same sign with lb <= ub, and is computed without overflow for every pair of reported bounds.", "quantifier": "all pairs of bounds a solver can report", "why_tests_cant": "Extreme values of machine integers are not sampled by tests.", "anchors": ["src/xputils.rs: gap"]}
{"id": "C34", "title": "PSP example: solutions are production plans and values are their cost", "statement": "A complete assignment of the PSP model reachable from the initial state is exactly a feasible production plan (each item produced in time for each demand, at most one item per period), and the value is minus the sum of stocking and changeover costs.", "quantifier": "every PSP instance and every assignment", "why_tests_cant": "Universal over instances and plans.", "anchors": ["examples/psp/psp.rs: Problem for Psp"]}
{"id": "C35", "title": "PSP example: merging and bounding are valid", "statement": "For the PSP relaxation, every completion of a merged-away state is a completion of the merged state with at least the same value, and estimate never under-estimates.", "quantifier": "every instance, every set of states merged, every completion", "why_tests_cant": "Universal over sets of states and completions.", "anchors": ["examples/psp/psp.rs: PspRelax, estimate"]}
{"id": "C36", "title": "SRFLP example: values equal layout cost", "statement": "The value of a complete SRFLP assignment is minus the (offset) weighted sum of centre-to-centre distances of the layout it encodes, and complete assignments are exactly the permutations of departments.", "quantifier": "every instance and every permutation", "why_tests_cant": "Universal over instances and permutations.", "anchors": ["examples/srflp/model.rs: Problem for Srflp"]}
{"id": "C37", "title": "SRFLP example: merging is valid", "statement": "For the SRFLP relaxation each completion of a merged-away state is a completion of the merged state with at least the same value.", "quantifier": "every instance, set of states and completion", "why_tests_cant": "Universal over sets of states and completions.", "anchors": ["examples/srflp/relax.rs", "examples/srflp/model.rs"]}
{"id": "C38", "title": "TSPTW example: solutions are feasible tours and values are their makespan", "statement": "Complete assignments of the TSPTW model reachable from the initial state are exactly the tours visiting every customer once, respecting time windows and returning to the depot in time; the value is minus the makespan.", "quantifier": "every instance and every tour", "why_tests_cant": "Universal over instances and tours.", "anchors": ["examples/tsptw/model.rs: Problem for Tsptw"]}
{"id": "C39", "title": "TSPTW example: merging is valid", "statement": "For the TSPTW relaxation each completion of a merged-away state is a completion of the merged state with at least the same value.", "quantifier": "every instance, set of states of the same depth and completion", "why_tests_cant": "Universal over sets of states and completions.", "anchors": ["examples/tsptw/relax.rs", "examples/tsptw/model.rs"]}
{"id": "C40", "title": "TSPTW example: the estimate never under-estimates", "statement": "TSPTW estimate is an upper bound of the value of each completion, for exact and for merged states.", "quantifier": "every instance, every reachable or merged state and every completion", "why_tests_cant": "Off-by-one errors appear on merged states only.", "anchors": ["examples/tsptw/model.rs: estimate"]}
{"id": "C41", "title": "TSPTW example: the model does not panic", "statement": "On every state that exploration can produce, exact or merged, for_each_in_domain, transition, transition_cost and estimate of the TSPTW model return normally, in debug and in release builds.", "quantifier": "every instance within range, every state of every layer, both build profiles", "why_tests_cant": "The states that break usize arithmetic are produced by particular sequences of merges and decisions.", "anchors": ["examples/tsptw/model.rs: Problem for Tsptw", "examples/tsptw/model.rs:192-257 estimate"]}
{"id": "C42", "title": "TSPTW example: solving an instance gives the best tour", "statement": "When either solver, set up as the example sets it up, announces a proof for a TSPTW instance, the value is minus the least makespan of a feasible tour, or there is no value and no tour is feasible; the reported solution is a feasible tour of the reported makespan.", "quantifier": "every instance, width factor, cutset type and number of threads", "why_tests_cant": "Needs the optimum of every instance; wrong answers appear on particular combinations of time windows and widths.", "anchors": ["examples/tsptw/main.rs", "examples/tsptw/relax.rs", "examples/tsptw/model.rs", "src/solver/parallel.rs"]}
{"id": "C43", "title": "PSP example: the model does not panic", "statement": "On every state that exploration can produce, exact or merged, initial_state, for_each_in_domain, transition, transition_cost and estimate of the PSP model return normally, in debug and in release builds.", "quantifier": "every instance within range, every state of every layer, both build profiles", "why_tests_cant": "The states that break usize arithmetic depend on how many periods are left idle.", "anchors": ["examples/psp/psp.rs: Problem for Psp", "examples/psp/psp.rs:239-277 compute_ideal_stocking"]}
{"id": "C44", "title": "PSP example: solving an instance gives the cheapest plan", "statement": "When either solver, set up as the example sets it up, announces a proof for a PSP instance, the value is minus the least cost of a feasible plan, or there is no value and no plan is feasible; the reported solution is a feasible plan of the reported cost.", "quantifier": "every instance, width factor, cutset type and number of threads", "why_tests_cant": "Needs the optimum of every instance; wrong answers appear on particular combinations of costs, demands and widths.", "anchors": ["examples/psp/main.rs", "examples/psp/psp.rs: PspRelax, PspWidth", "src/solver/parallel.rs", "src/solver/barrier.rs"]}
{"id": "C45", "title": "SRFLP example: the estimate never under-estimates", "statement": "The SRFLP estimate is an upper bound of the value of each completion, for exact and for merged states.", "quantifier": "every instance, every reachable or merged state and every completion", "why_tests_cant": "Needs a bound over all orders of the departments; floating-point ties depend on particular lengths and flows.", "anchors": ["examples/srflp/model.rs:176-268 estimate"]}
{"id": "C46", "title": "SRFLP example: the model does not panic", "statement": "On every state that exploration can produce, exact or merged, for_each_in_domain, transition, transition_cost, estimate and merge of the SRFLP example return normally, in debug and in release builds.", "quantifier": "every instance within range, every state of every layer, both build profiles", "why_tests_cant": "usize underflow depends on the state and is silent in release builds, in which examples are run.", "anchors": ["examples/srflp/model.rs: Problem for Srflp", "examples/srflp/model.rs:176-203 estimate"]}
{"id": "C47", "title": "SRFLP example: solving an instance gives the best layout", "statement": "When either solver, set up as the example sets it up, announces a proof for an SRFLP instance, the reported decisions encode a layout of least cost and the value is minus its cost (less the offset).", "quantifier": "every instance, width factor, cutset type and number of threads", "why_tests_cant": "Needs the optimum of every instance; wrong answers appear on particular lengths and flows.", "anchors": ["examples/srflp/main.rs", "examples/srflp/relax.rs", "examples/srflp/model.rs", "src/solver/parallel.rs", "src/solver/barrier.rs"]}
{"id": "C48", "title": "SRFLP example: flows read from a file become symmetric", "statement": "Whatever matrix of flows a file holds, the instance holds a symmetric matrix: the flow between two departments is the sum of the two entries if they differ, and either of them otherwise.", "quantifier": "every number of departments and every matrix whose sums fit in an isize, in debug and release builds", "why_tests_cant": "Universal over matrices; the update in place reads entries that it may already have overwritten.", "anchors": ["examples/srflp/instance.rs:89-97"]}
{"id": "C49", "title": "TSPTW example: the instance read is the one in the file", "statement": "Reading a TSPTW file yields the instance written in it, times being counted in units of 1/10000; a file that does not hold an instance is rejected.", "quantifier": "every file, every number of nodes, every number with up to four decimals", "why_tests_cant": "Whether a decimal number survives the conversion to f32 and the multiplication depends on its digits; about two in a hundred numbers of the shipped instances do not.", "anchors": ["examples/tsptw/instance.rs:63-111"]}
{"id": "C50", "title": "Diagram with thresholds: compiling never panics and always ends", "statement": "Compiling a diagram of src/mdd/with_barrier.rs for a subproblem of a well-formed problem returns normally, whatever the thresholds hold and whatever the other threads write to them between two of its accesses.", "quantifier": "every problem, subproblem, compilation type, width, cutset type, content of the thresholds, and every interleaving with other threads", "why_tests_cant": "The writes of other threads can fall between any two accesses; a test sees a handful of interleavings.", "anchors": ["src/mdd/with_barrier.rs:226-353 _compile", "src/mdd/with_barrier.rs:537-631"]}
{"id": "C51", "title": "Diagram with thresholds: what it reports is real, whatever other threads do", "statement": "What a restricted, exact, or relaxed but exact diagram with thresholds reports is a real solution with its real value; each subproblem of its cutset is a real partial assignment that extends the compiled one by at least one decision; whatever the other threads write to the thresholds meanwhile.", "quantifier": "every problem, subproblem, compilation type, cutset type, content of the thresholds, and every interleaving with other threads", "why_tests_cant": "Universal over problems and interleavings.", "anchors": ["src/mdd/with_barrier.rs:226-353 _compile", "src/mdd/with_barrier.rs:169-215 best_solution, drain_cutset"]}
{"id": "C52", "title": "Diagram with thresholds: nothing is lost but what a threshold promises", "statement": "Compile a relaxed diagram with thresholds and a last exact layer cutset: each completion of the subproblem that improves the lower bound is at most the value of the diagram if it is exact; if not, some subproblem of the cutset can be completed to a value as good and its bound allows it; unless a threshold present at the start, below the subproblem, promises that value.", "quantifier": "every problem with an admissible estimate and a sound relaxation, every subproblem, width and content of the thresholds, no other thread changing them meanwhile", "why_tests_cant": "A completion can be lost at any node of any layer; finding out needs all completions of all problems.", "anchors": ["src/mdd/with_barrier.rs:226-353 _compile", "src/mdd/with_barrier.rs:537-611 compute_local_bounds_and_theta"]}
{"id": "C53", "title": "Diagram with thresholds: the thresholds recorded are sound", "statement": "A relaxed diagram with a last exact layer cutset only records thresholds that are justified: a partial assignment that reaches the state of an entry with a value that does not exceed it can only be completed to values that the diagram answers (its value if exact, its cutset if not), that an older threshold promises, or, for an entry not marked as explored, that the subproblem of the cutset with this state is allowed to give. Other compilations record nothing, and entries of earlier layers are left alone.", "quantifier": "every problem with an admissible estimate and a sound relaxation, every subproblem, width, and content of the thresholds, every entry recorded, every partial assignment of its state, no other thread changing the thresholds meanwhile", "why_tests_cant": "Quantifies over all the partial assignments that may later reach a state; a wrong threshold shows only if such an assignment leads to the optimum.", "anchors": ["src/mdd/with_barrier.rs:311-337", "src/mdd/with_barrier.rs:537-631 compute_local_bounds_and_theta, try_update_barrier"]}
{"id": "C54", "title": "Solver with thresholds: a threshold never becomes weaker", "statement": "As long as the threshold of a state is not erased with its layer, it is only replaced by a larger one, or by the same value marked as explored.", "quantifier": "every problem, every execution of the solver with thresholds, any number of threads", "why_tests_cant": "A lost update needs a precise interleaving of two threads.", "anchors": ["src/mdd/with_barrier.rs:613-631 try_update_barrier", "src/solver/barrier.rs:374-400"]}
{"id": "C55", "title": "SRFLP example: the instance read is the one in the file", "statement": "Reading an SRFLP file yields the instance written in it (number of departments, lengths, and the flows of both directions put together), in debug and release builds, and the solvers then find the best layout of what the file says; a file that does not hold an instance is rejected.", "quantifier": "every file (any mix of the accepted separators, empty lines and trailing content), every number of departments, every numbers whose sums fit", "why_tests_cant": "Universal over texts; which of the fallible steps reject a malformed file and which silently substitute a default is visible only on inputs nobody ships.", "anchors": ["examples/srflp/instance.rs:38-101"]}
{"id": "C56", "title": "PSP example: the instance read is the one in the file", "statement": "Reading a PSP file yields the instance written in it (periods, items, orders, changeover and stocking costs, demands, known optimum), in debug and release builds, and the solvers then find a cheapest plan for what the file says; a file that does not hold an instance is rejected with an error.", "quantifier": "every file (any blanks between words, any content of the lines that are skipped, with or without a known optimum), every number of items and periods", "why_tests_cant": "Universal over texts; the two tables derived from the demands are filled in place while reading, so that a missing word leaves a default that means something else.", "anchors": ["examples/psp/psp.rs:368-479"]}
{"id": "C57", "title": "A width that no layer exceeds makes every diagram exact and both solvers right, whatever merging does", "statement": "If no layer of the problem holds more states than the maximum width, every decision diagram is exact and gives the best completion of its subproblem, and both solvers, when they answer that they are done, answer the optimum (or that there is no solution), with either cutset and any number of threads. The relaxation plays no part: only the estimate of the states of the problem itself has to be an upper bound.", "quantifier": "every problem, every relaxation that keeps the layers apart, every width heuristic, every number of threads and interleaving, either cutset", "why_tests_cant": "Tests run with one width; that no merge happens in any diagram of any subproblem, and that no threshold cuts the optimum, has to hold for all problems and interleavings.", "anchors": ["src/mdd/with_all.rs:211-330 _compile", "src/mdd/with_barrier.rs:226-340 _compile", "src/solver/parallel.rs:201-249 process_one_node", "src/solver/barrier.rs:220-268 process_one_node", "examples/tsptw/heuristics.rs:25-29", "examples/psp/main.rs", "examples/srflp/main.rs"]}
{"id": "C58", "title": "The line printed by solve_timeout tells the truth", "statement": "solve_timeout prints a line whose numbers read back as the values held by the solver, each under its title. When the status is Proved, the best value, both bounds and the returned number are the optimum and the gap is 0, or the line says 'not found' and there is no solution. When it is Timeout, the best value is that of a real solution or 'not found', and the bounds enclose the optimum. It does not panic.", "quantifier": "every problem and relaxation, both solvers and cutsets, every number of threads, every interleaving, every moment of interruption, debug and release builds", "why_tests_cant": "The line depends on when the threads stop and on bounds kept by several threads; the interesting interruptions last a few instructions.", "anchors": ["src/xputils.rs:66-169 solve_timeout", "src/xputils.rs:171-178 gap", "src/prelude.rs:73-101 Solver, ResolutionStatus, InterruptibleSolver"]}
{"id": "C59", "title": "The example programs: from the file to the line printed", "statement": "Given a well-formed instance file, the tsptw, psp and srflp programs end without panic and print a line with the name of the file and the solver; a best value printed is that of a tour, plan or layout of the instance written in the file; a line that says Proved shows the best one there is, or 'not found' only if the file has no solution.", "quantifier": "every well-formed file, every width, solver, cutset and number of threads given as options, every interleaving and moment of interruption (release build)", "why_tests_cant": "Combines reading, modelling, diagrams, solvers and printing; a wrong 'Proved' can only be told from a right one by knowing all solutions of the instance.", "anchors": ["examples/tsptw/main.rs:34-61 run_resolution_xp", "examples/psp/main.rs:28-54 run_resolution_xp", "examples/srflp/main.rs:34-63 run_resolution_xp", "src/xputils.rs:66-169 solve_timeout"]}
{"id": "C60", "title": "timeout: the exit code says what happened, and the process ends", "statement": "timeout(duration, action, at_exit) ends the process with 0 only after action has returned, without calling at_exit; with 1 only after the duration has elapsed and at_exit has been called and has returned; with 101 only if one of the two panicked. at_exit is called at most once, never before the deadline. The threads never deadlock, and the process ends whenever at_exit returns, even if action does not, or when both functions end in any manner.", "quantifier": "every duration, every behaviour of both functions (each returns, panics or goes on forever), every interleaving of the two threads; termination in every fair execution", "why_tests_cant": "The two threads race for the lock at the deadline; the exit ends the process, so that no test in the process can observe it, and the claim is about all interleavings.", "anchors": ["src/xputils.rs:187-209 timeout"]}
{"id": "C61", "title": "timeout: an action that returns before the deadline ends the process with 0, and the deadline ends it in any case", "statement": "If action returns before the deadline, the process ends with 0, and at_exit is not called; once the deadline has passed, the process ends whatever the functions do.", "quantifier": "every duration, every behaviour of both functions, every interleaving", "why_tests_cant": "The window between the return of action and the taking of the lock is a few instructions wide.", "anchors": ["src/xputils.rs:187-209 timeout"]}
{"id": "C62", "title": "The counters reported by the solvers count what they say", "statement": "get_explored is the number of subproblems taken from the fringe and handed to a thread; get_explored_dd, once solve has returned, is the total number of nodes expanded by all the diagrams compiled by all the threads, and at any earlier moment at most that; get_explored of a diagram is the number of its nodes that were expanded: every node with an outgoing edge, and only nodes that might improve on the lower bound and whose whole domain was tried.", "quantifier": "every problem, both solvers and both kinds of diagrams, every number of threads, every interleaving and moment of interruption, whatever other threads write to the thresholds meanwhile", "why_tests_cant": "The counters are accumulated by several threads at different moments; a lost or doubled update shows in few interleavings and nothing in the answer depends on it.", "anchors": ["src/solver/parallel.rs:203-249 process_one_node", "src/solver/parallel.rs:280-290 notify_node_finished", "src/solver/parallel.rs:350-362", "src/solver/barrier.rs:226-268", "src/solver/barrier.rs:301-310", "src/solver/barrier.rs:405-421", "src/mdd/with_all.rs:207-282", "src/mdd/with_barrier.rs:222-337"]}
{"id": "C63", "title": "A solver can be used again", "statement": "After maximize or maximize_with_interrupt has returned, either can be called again on the same solver, on any number of threads up to that it was made with. No call panics or runs forever; the best solution is kept or replaced by a better one, and is always one of the problem. A call of maximize ends with the optimum whatever happened in the calls before it; an answer proved once is not changed by later calls.", "quantifier": "every problem, both solvers and cutsets, every number of calls, of threads of each call, every interleaving and moment of interruption of each", "why_tests_cant": "Tests call a solver once; what a call leaves in the fringe, the thresholds, the bounds and the interrupted flag depends on the interleaving at its end.", "anchors": ["src/solver/parallel.rs:378-402", "src/solver/parallel.rs:423-455 maximize_with_interrupt", "src/solver/parallel.rs:263-330", "src/solver/barrier.rs:436-460", "src/solver/barrier.rs:481-513 maximize_with_interrupt"]}
{"id": "C64", "title": "A panic in a worker thread reaches the caller", "statement": "If a callback of the user (or anything else) panics in one of the threads, the call of maximize or maximize_with_interrupt ends, and ends with a panic: the caller never waits for ever, and an interrupted call still stops at its deadline.", "quantifier": "every problem, both solvers, every number of threads, every thread and place where a panic may occur, every interleaving", "why_tests_cant": "The outcome depends on what the other threads do after the panic, and a call that never returns cannot be told from a slow one by a test.", "anchors": ["src/solver/parallel.rs:280-286 notify_node_finished", "src/solver/parallel.rs:297-354 get_workload", "src/solver/parallel.rs:378-400 maximize", "src/solver/parallel.rs:423-447 maximize_with_interrupt", "src/solver/barrier.rs:301-309 notify_node_finished", "src/solver/barrier.rs:320-413 get_workload", "src/solver/barrier.rs:436-459 maximize", "src/solver/barrier.rs:481-506 maximize_with_interrupt"]}
{"id": "C65", "title": "An interruption is obeyed", "statement": "A thread that asks interrupt() before taking a subproblem and is told yes stops without taking one. From then on no thread takes a subproblem: get_explored does not change any more, each thread finishes at most the subproblem in hand (at most two more diagrams), and then the call ends. If interrupt() says yes from the start, nothing is explored and no value is reported.", "quantifier": "every problem, heuristic and frontier, both solvers, every number of threads, every interleaving, every moment of the interruption and every later answer of interrupt()", "why_tests_cant": "The deadline may fall between any two steps of any threads; tests see a few of the moments, and cannot tell a thread that goes on taking work from a slow one.", "anchors": ["src/solver/parallel.rs:201-249 process_one_node", "src/solver/parallel.rs:297-354 get_workload", "src/solver/parallel.rs:423-447 maximize_with_interrupt", "src/solver/barrier.rs:220-268 process_one_node", "src/solver/barrier.rs:320-413 get_workload", "src/solver/barrier.rs:481-506 maximize_with_interrupt"]}
{"id": "C66", "title": "Draining the cutset", "statement": "After a compilation, drain_cutset hands out nothing if the diagram is exact or was not compiled in relaxed mode; no two subproblems it hands out are in the same state at the same depth; none has an upper bound above the best value of the diagram; draining a second time hands out nothing and the answers of the diagram are as before. A diagram that was never compiled hands out nothing and has no value.", "quantifier": "every problem and relaxation, both kinds of diagrams and of cutsets, every width and lower bound, whatever other threads write to the thresholds meanwhile", "why_tests_cant": "Which nodes are in the cutset depends on the merges and on the bounds computed backwards through the diagram; a node listed twice or left over is only seen on particular instances, and does not change the optimum.", "anchors": ["src/prelude.rs:196-201", "src/mdd/with_all.rs:178-205 drain_cutset", "src/mdd/with_all.rs:207-282 compile", "src/mdd/with_barrier.rs:193-220 drain_cutset", "src/mdd/with_barrier.rs:222-353 compile"]}
{"id": "C67", "title": "The width bounds the work and the nodes", "statement": "A restricted diagram expands at most max_width nodes per unassigned variable; a relaxed one expands the root, the nodes right below it, which are at most as many as the values of the variable, and at most max_width nodes in each later layer; the nodes a diagram holds are at most the root, one per value of each expanded node and one merged node per reduced layer. The edges of a restricted diagram are at most one per value of each expanded node, those of a relaxed one at most twice as many. At every moment of a search the nodes reported as expanded are at most the number of subproblems taken times the sum of those two bounds.", "quantifier": "every well formed problem with bounded domains, every width, lower bound and subproblem, both kinds of diagrams and cutsets, any number of threads, whatever the other threads write to the thresholds", "why_tests_cant": "A test measures one diagram of one instance; a layer that escapes the reduction shows only on instances with more states than the width in that very layer.", "anchors": ["src/mdd/with_all.rs:207-282 compile", "src/mdd/with_all.rs:331-472", "src/mdd/with_barrier.rs:222-353 compile", "src/mdd/with_barrier.rs:386-535", "src/solver/parallel.rs", "src/solver/barrier.rs"]}
{"id": "C68", "title": "A cutset of a last exact layer is small, and so is the frontier of the search", "statement": "A diagram created with LastExactLayer hands out, when drained, at most as many subproblems as max_width or as a variable has values, whichever is more. Hence at every moment of a search with such diagrams the subproblems waiting in the fringe and those taken so far are together at most one plus the number of subproblems taken times that bound. With either kind of cutset no node is handed out twice, so that the same holds with the number of nodes of a relaxed diagram as bound.", "quantifier": "every well formed problem with bounded domains, every width, lower bound and subproblem, both kinds of diagrams, both fringes and solvers, any number of threads and interleaving, every moment of interruption, whatever the other threads write to the thresholds", "why_tests_cant": "Memory is what ends long searches; a test looks at the fringe of one search, and one layer too many in the cutset does not change the answer.", "anchors": ["src/mdd/with_all.rs:178-205 drain_cutset", "src/mdd/with_all.rs:207-282 compile", "src/mdd/with_all.rs:386-472", "src/mdd/with_barrier.rs:193-220 drain_cutset", "src/mdd/with_barrier.rs:222-353 compile", "src/solver/parallel.rs:268-278 enqueue_cutset", "src/solver/barrier.rs:287-299 enqueue_cutset"]}
{"id": "C69", "title": "A search takes at most as many subproblems as a complete tree has nodes", "statement": "With diagrams created with LastExactLayer, both solvers take, from the start to any moment and in any interleaving, at most as many subproblems as a tree has nodes in which each node has max(max_width, largest domain) children and which has one level more than there are variables; those waiting in the fringe are counted along. With either kind of cutset the same holds with as many children as a relaxed diagram may have nodes. The nodes expanded in all diagrams together are then bounded by the number of variables, the width and the largest domain alone.", "quantifier": "every well formed problem with bounded domains, every width, both fringes and solvers, any number of threads and interleaving, every moment of interruption", "why_tests_cant": "A subproblem that comes back at the depth of its parent, or a cutset enqueued twice, still gives the right answer on any search that a test can afford to wait for.", "anchors": ["src/solver/parallel.rs:268-278 enqueue_cutset", "src/solver/parallel.rs:290-336", "src/solver/barrier.rs:287-299 enqueue_cutset", "src/mdd/with_all.rs:178-205 drain_cutset", "src/mdd/with_barrier.rs:193-220 drain_cutset"]}
