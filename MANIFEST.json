{
 "claims": [
  {
   "property": "C01",
   "status": "proved",
   "theorems": [
    "C01_bitset_iteration",
    "C01_bitset_iteration_stops"
   ],
   "note": ""
  },
  {
   "property": "C02",
   "status": "proved",
   "theorems": [
    "C02_lex_decided_by_first_difference",
    "C02_lex_antisymmetric",
    "C02_lex_transitive",
    "C02_lex_equality"
   ],
   "note": ""
  },
  {
   "property": "C03",
   "status": "proved",
   "theorems": [
    "C03_matrix_read_write",
    "C03_matrix_new",
    "C03_psp_matrix",
    "C03_matrix_rows_columns"
   ],
   "note": ""
  },
  {
   "property": "C04",
   "status": "proved",
   "theorems": [
    "C04_flags_independent",
    "C04_flags_add_remove",
    "C04_flags_test"
   ],
   "note": ""
  },
  {
   "property": "C05",
   "status": "proved",
   "theorems": [
    "C05_compilation_type_names",
    "C05_cutset_type_names",
    "C05_solver_type_names"
   ],
   "note": ""
  },
  {
   "property": "C06",
   "status": "proved",
   "theorems": [
    "C06_nodup_pops_maximal",
    "C06_nodup_pop_none_iff_empty"
   ],
   "note": ""
  },
  {
   "property": "C07",
   "status": "proved",
   "theorems": [
    "C07_nodup_one_entry_per_state"
   ],
   "note": ""
  },
  {
   "property": "C08",
   "status": "proved",
   "theorems": [
    "C08_nodup_never_panics",
    "C08_nodup_len"
   ],
   "note": ""
  },
  {
   "property": "C09",
   "status": "proved",
   "theorems": [
    "C09_simple_frontier"
   ],
   "note": ""
  },
  {
   "property": "C10",
   "status": "proved",
   "theorems": [
    "C10_bound_first",
    "C10_ties_by_ranking",
    "C10_total_preorder"
   ],
   "note": ""
  },
  {
   "property": "C11",
   "status": "proved",
   "theorems": [
    "C11_relaxed_upper_bound"
   ],
   "note": ""
  },
  {
   "property": "C12",
   "status": "proved",
   "theorems": [
    "C12_restricted_feasible"
   ],
   "note": ""
  },
  {
   "property": "C13",
   "status": "proved",
   "theorems": [
    "C13_exact_feasible",
    "C13_exact_best",
    "C13_next_variable_on_empty_layer_refuted",
    "C13_barrier_next_variable_on_empty_layer_refuted"
   ],
   "note": "For problems whose next_variable answers None on an empty layer; without that condition the claim is refuted (C13_next_variable_on_empty_layer_refuted)."
  },
  {
   "property": "C14",
   "status": "proved",
   "theorems": [
    "C14_exact_compilation"
   ],
   "note": ""
  },
  {
   "property": "C15",
   "status": "proved",
   "theorems": [
    "C15_lel_cutset_covers"
   ],
   "note": ""
  },
  {
   "property": "C16",
   "status": "proved",
   "theorems": [
    "C16_cutset_bounds_valid"
   ],
   "note": ""
  },
  {
   "property": "C17",
   "status": "proved",
   "theorems": [
    "C17_cutset_genuine"
   ],
   "note": ""
  },
  {
   "property": "C18",
   "status": "proved",
   "theorems": [
    "C18_layer_width",
    "C18_restricted_explored"
   ],
   "note": ""
  },
  {
   "property": "C19",
   "status": "partial",
   "theorems": [
    "C19_frontier_cutset_covers_refuted",
    "C19_frontier_cutset_covers_partial"
   ],
   "note": "The claim is false of the code: C19_frontier_cutset_covers_refuted. The partial theorem says what does hold."
  },
  {
   "property": "C20",
   "status": "proved",
   "theorems": [
    "C20_compile_total",
    "C20_debug_negative_value_refuted"
   ],
   "note": "For legitimate calls (good_call). In a debug build the root created by the solvers panics when the initial value is negative: C20_debug_negative_value_refuted."
  },
  {
   "property": "C21",
   "status": "proved",
   "theorems": [
    "C21_reuse"
   ],
   "note": ""
  },
  {
   "property": "C22",
   "status": "proved",
   "theorems": [
    "C22_proved_is_optimum",
    "C22_maximize",
    "C22_nodup_solver",
    "C22_simple_solver"
   ],
   "note": "Condition: no variable is decided twice (decided_once)."
  },
  {
   "property": "C23",
   "status": "proved",
   "theorems": [
    "C23_barrier_solutions_real",
    "C23_parallel_solutions_real"
   ],
   "note": "Proved for ParallelSolver and BarrierSolver, any number of threads not above the number the solver was created with."
  },
  {
   "property": "C24",
   "status": "proved",
   "theorems": [
    "C24_barrier_lower_bound_monotone",
    "C24_barrier_lower_bound_valid",
    "C24_parallel_lower_bound_monotone",
    "C24_parallel_lower_bound_valid"
   ],
   "note": "Proved for ParallelSolver and BarrierSolver, any number of threads not above the number the solver was created with."
  },
  {
   "property": "C25",
   "status": "partial",
   "theorems": [
    "C25_barrier_bound_below_incumbent_refuted",
    "C25_barrier_frontier_ignored_refuted",
    "C25_barrier_bounds_closed_after_interruption_refuted",
    "C25_barrier_single_thread_partial",
    "C25_bound_below_incumbent_refuted",
    "C25_frontier_ignored_refuted",
    "C25_bounds_closed_after_interruption_refuted",
    "C25_single_thread_partial",
    "C25_nothing_waiting_partial",
    "C25_forgotten_partial"
   ],
   "note": "The claim is false of both solvers: three refutations each. Partial, with last exact layers or a single final state, for the max of both bounds: one thread (both solvers); any number of threads of the parallel solver when no subproblem was waiting at the interruption; otherwise the optimum may also be below the bound of a subproblem that was waiting."
  },
  {
   "property": "C26",
   "status": "proved",
   "theorems": [
    "C26_barrier_no_infinite_execution",
    "C26_barrier_can_finish",
    "C26_no_infinite_execution",
    "C26_can_finish"
   ],
   "note": "Proved for ParallelSolver and BarrierSolver, any number of threads not above the number the solver was created with."
  },
  {
   "property": "C27",
   "status": "proved",
   "theorems": [
    "C27_barrier_no_deadlock",
    "C27_barrier_waiting_is_accompanied",
    "C27_barrier_no_panic",
    "C27_no_deadlock",
    "C27_waiting_is_accompanied",
    "C27_no_panic"
   ],
   "note": "Proved for ParallelSolver and BarrierSolver, any number of threads not above the number the solver was created with."
  },
  {
   "property": "C28",
   "status": "partial",
   "theorems": [
    "C28_single_thread_partial",
    "C28_single_thread_maximize_partial",
    "C28_three_threads_refuted",
    "C28_two_threads_refuted",
    "C28_one_at_a_time_refuted"
   ],
   "note": "Proved for one thread; false for two threads (C28_two_threads_refuted) and for three (C28_three_threads_refuted): try_update_barrier is not atomic. False as well when subproblems are processed one at a time and no threshold is ever lowered (C28_one_at_a_time_refuted): bounds depend on thresholds of subproblems that are still to be processed."
  },
  {
   "property": "C29",
   "status": "partial",
   "theorems": [
    "C29_popped_partial",
    "C29_compiling_partial",
    "C29_three_threads_refuted",
    "C29_two_threads_refuted",
    "C29_one_at_a_time_refuted"
   ],
   "note": "Proved for one thread, for popped subproblems and for thresholds present when a compilation starts; false for two threads (C29_two_threads_refuted) and for three (C29_three_threads_refuted), and even when subproblems are processed one at a time and no threshold is ever lowered (C29_one_at_a_time_refuted)."
  },
  {
   "property": "C30",
   "status": "partial",
   "theorems": [
    "C30_barrier_frontier_cutset_refuted",
    "C30_barrier_one_end_partial",
    "C30_parallel_frontier_cutset_refuted",
    "C30_parallel_one_end_partial"
   ],
   "note": "The claim is false of both solvers (two refutations). It is proved when the last layer has a single state: for the parallel solver (C30_parallel_one_end_partial), and for the solver with thresholds and one thread (C30_barrier_one_end_partial)."
  },
  {
   "property": "C31",
   "status": "proved",
   "theorems": [
    "C31_layers_dropped_safely",
    "C31_counters",
    "C31_no_underflow"
   ],
   "note": "Any number of threads not above the number the solver was created with."
  },
  {
   "property": "C32",
   "status": "partial",
   "theorems": [
    "C32_barrier_more_threads_refuted",
    "C32_barrier_zero_threads_refuted",
    "C32_barrier_one_thread_partial",
    "C32_more_threads_refuted",
    "C32_zero_threads_refuted",
    "C32_fewer_threads_partial"
   ],
   "note": "The claim is false for more threads than at creation and for zero threads; the partial theorems cover the rest, with last exact layers or a single final state (any smaller number for ParallelSolver, one thread for BarrierSolver)."
  },
  {
   "property": "C33",
   "status": "partial",
   "theorems": [
    "C33_gap_partial",
    "C33_gap_refuted",
    "C33_every_pair"
   ],
   "note": "Proved of the f32 result (IEEE single precision from the standard library's SpecFloat) for bounds of equal sign, not both zero, lb > isize::MIN: between 0 and 1, zero only for equal bounds, relative error at most 2^-22. The full claim is false: C33_gap_refuted. C33_every_pair describes the value returned for every pair of bounds: signs are ignored, and it is negative as soon as one bound is isize::MIN."
  },
  {
   "property": "C34",
   "status": "proved",
   "theorems": [
    "C34_solutions_are_plans",
    "C34_asked_in_order"
   ],
   "note": "Both directions, for every instance within range (at most 32 items, costs small enough for isize) and any order of ties in the sorting of edges."
  },
  {
   "property": "C35",
   "status": "partial",
   "theorems": [
    "C35_merge_loses_refuted",
    "C35_merge_covers_partial",
    "C35_well_formed_partial",
    "C35_estimate_partial"
   ],
   "note": "Refuted without the triangle inequality on changeover costs (merging drops orders, and skipping an item may be dearer). Proved under the triangle inequality, with another completion than the one merged away. The estimate is admissible for every instance (it is never negative: a sign is missing in the code)."
  },
  {
   "property": "C36",
   "status": "proved",
   "theorems": [
    "C36_solutions_are_layouts",
    "C36_asked_in_order"
   ],
   "note": "Both directions, for every instance within range (positive lengths, non-negative symmetric flows, sums that fit isize)."
  },
  {
   "property": "C37",
   "status": "proved",
   "theorems": [
    "C37_merge_covers",
    "C37_well_formed"
   ],
   "note": "With the same decisions; merging stays inside the layers and all costs are bounded."
  },
  {
   "property": "C38",
   "status": "partial",
   "theorems": [
    "C38_solutions_are_tours_partial",
    "C38_solutions_are_tours_sound",
    "C38_tour_missed_refuted",
    "C38_asked_in_order"
   ],
   "note": "Proved both ways under the triangle inequality; without it only that solutions are feasible tours. Refuted in general: for_each_in_domain gives up as soon as a city that must be visited cannot be reached directly, so without the triangle inequality a feasible instance may have no solution."
  },
  {
   "property": "C39",
   "status": "partial",
   "theorems": [
    "C39_merge_loses_refuted",
    "C39_merged_finishes_no_later_partial",
    "C39_no_waiting_partial",
    "C39_well_formed_partial"
   ],
   "note": "Refuted as stated: relax keeps the arc cost although the merged state is reached earlier and then waits longer, so the path may be worth less. Proved: the same decisions complete the merged state and finish no later; the claim itself for instances where nobody waits; well-formedness of problem and relaxation."
  },
  {
   "property": "C40",
   "status": "partial",
   "theorems": [
    "C40_estimate_of_merged_refuted",
    "C40_called_hopeless_refuted",
    "C40_estimate_of_reached_partial",
    "C40_merged_covers",
    "C40_step_covers",
    "C40_estimate_of_covering_partial"
   ],
   "note": "Refuted on merged states (the depot is counted among the cities still to visit). Proved for every state reached from the initial state, in both build profiles. Proved for merged states and their successors, measured against the reached states they stand for: an upper bound when no city may be skipped, otherwise too low by at most the way to one more city that there is the time to visit; no panic on such states in a debug build."
  },
  {
   "property": "C41",
   "status": "partial",
   "theorems": [
    "C41_no_panic_partial",
    "C41_debug_estimate_panics_refuted",
    "C41_debug_estimate_exactly",
    "C41_release_gives_up"
   ],
   "note": "Proved for the release profile on every state of every layer, and for all but estimate in the debug profile; refuted for estimate in a debug build (usize underflow of complete_tour); when exactly it panics is proved (C41_debug_estimate_exactly)."
  },
  {
   "property": "C42",
   "status": "partial",
   "theorems": [
    "C42_feasible_called_infeasible_refuted",
    "C42_worse_tour_called_optimal_refuted",
    "C42_without_windows_refuted",
    "C42_reported_is_a_tour_partial",
    "C42_barrier_reported_is_a_tour_partial",
    "C42_wide_parallel_partial",
    "C42_wide_barrier_partial",
    "C42_orders_partial"
   ],
   "note": "Refuted with the example's own width heuristic and one thread, for both solvers and both cutsets: a feasible instance is declared infeasible, and a tour of 75 is proved optimal although 70 is possible; even without any time window a tour of 44 is proved optimal although 42 is possible. Proved: whatever is reported is a feasible tour of the reported makespan, at any time and with any number of threads. Proved when no layer exceeds the width (for instance (n-1)!): both solvers, either cutset and any number of threads, answer the best tour."
  },
  {
   "property": "C43",
   "status": "partial",
   "theorems": [
    "C43_no_panic_partial",
    "C43_debug_estimate_refuted",
    "C43_debug_estimate_panics"
   ],
   "note": "Proved for both profiles on every state of every layer, except for estimate: proved in a release build, refuted in a debug build, which panics on every state leaving two or more idle periods (usize underflow in compute_ideal_stocking)."
  },
  {
   "property": "C44",
   "status": "partial",
   "theorems": [
    "C44_parallel_cheapest_partial",
    "C44_barrier_cheapest_partial",
    "C44_no_triangle_refuted",
    "C44_frontier_refuted",
    "C44_frontier_parallel_refuted",
    "C44_parallel_plan_partial",
    "C44_barrier_plan_partial",
    "C44_wide_parallel_partial",
    "C44_wide_barrier_partial"
   ],
   "note": "Proved with the last exact layer as cutset and the triangle inequality, for the parallel solver with any number of threads and the barrier solver with one. Refuted without the triangle inequality for both solvers and cutsets, and with the frontier cutset for both solvers. Whatever is reported is a feasible plan of the reported cost. When no layer exceeds the width, proved for both solvers without the triangle inequality, with either cutset and any number of threads."
  },
  {
   "property": "C45",
   "status": "partial",
   "theorems": [
    "C45_estimate_partial",
    "C45_wide_refuted"
   ],
   "note": "Proved for release builds, and in debug builds where it does not panic, when (number of departments) * (largest flow) * (largest length) < 2^23. Refuted beyond: the f32 ratios are rounded and the order they give is not the cheapest."
  },
  {
   "property": "C46",
   "status": "partial",
   "theorems": [
    "C46_no_panic_partial",
    "C46_debug_estimate_panics",
    "C46_debug_merged_partial"
   ],
   "note": "Proved in release builds; in debug builds the estimate panics on every exact state (so on the initial state of every instance), and only there or on merged states without a choice."
  },
  {
   "property": "C47",
   "status": "partial",
   "theorems": [
    "C47_parallel_best_partial",
    "C47_barrier_best_partial",
    "C47_wide_refuted",
    "C47_parallel_layout_partial",
    "C47_barrier_layout_partial",
    "C47_wide_parallel_partial",
    "C47_wide_barrier_partial"
   ],
   "note": "Proved with the last exact layer as cutset and numbers within the range of C45, for the parallel solver with any number of threads and the barrier solver with one. Refuted for larger numbers for both solvers and cutsets. Whatever is reported is a layout and its cost. Frontier cutset with small numbers: open. When no layer exceeds the width, proved for both solvers with either cutset and any number of threads."
  },
  {
   "property": "C48",
   "status": "proved",
   "theorems": [
    "C48_flows_symmetric"
   ],
   "note": "For matrices whose sums of two entries are representable (otherwise a debug build panics and a release build wraps); reading the text is C55."
  },
  {
   "property": "C49",
   "status": "partial",
   "theorems": [
    "C49_sixteenths_partial",
    "C49_near_partial",
    "C49_refuted",
    "C49_malformed_refuted",
    "C49_negative_refuted",
    "C49_words_refuted",
    "C49_empty_refuted"
   ],
   "note": "Proved: multiples of 1/16 (integers up to 26843 among them) are read exactly; every time with four decimals below 1677.7216 within 1/10000, in order. Refuted beyond: 40.3113 is read as 403112, a file whose only tour is on time is read as an instance without tour; rows with a missing word and negative times are read as 0. 'NaN' is read as 0 and 'inf' as the largest number; an empty file and one that stops after the number of nodes are accepted. Exponents and signs are covered."
  },
  {
   "property": "C50",
   "status": "proved",
   "theorems": [
    "C50_never_panics",
    "C50_no_infinite_execution",
    "C50_returns"
   ],
   "note": "The other threads may replace the thresholds by anything between two accesses."
  },
  {
   "property": "C51",
   "status": "proved",
   "theorems": [
    "C51_solutions_real",
    "C51_cutset_genuine"
   ],
   "note": "The other threads may replace the thresholds by anything between two accesses."
  },
  {
   "property": "C52",
   "status": "proved",
   "theorems": [
    "C52_answered_or_promised",
    "C52_answered"
   ],
   "note": "Also for restricted and exact diagrams that are exact, with either cutset. Frontier cutsets lose solutions (C19). Also holds with the frontier cutset when there is a single final state."
  },
  {
   "property": "C53",
   "status": "proved",
   "theorems": [
    "C53_recorded_thresholds_sound",
    "C53_recorded_where",
    "C53_kept"
   ],
   "note": "C53_recorded_thresholds_sound is the claim; C53_recorded_where and C53_kept tell which entries change. Also holds with the frontier cutset when there is a single final state."
  },
  {
   "property": "C54",
   "status": "partial",
   "theorems": [
    "C54_two_threads_refuted",
    "C54_single_thread_partial",
    "C54_compilation_partial"
   ],
   "note": "Proved with one thread; false with two (C54_two_threads_refuted): reading and writing a threshold are two accesses."
  },
  {
   "property": "C55",
   "status": "partial",
   "theorems": [
    "C55_read_partial",
    "C55_solved_partial",
    "C55_malformed_refuted",
    "C55_empty_refuted",
    "C55_overflow_refuted"
   ],
   "note": "Proved: a file that says an instance is read as that instance, and solved to the best layout when the numbers are within the bounds of C47. Refuted: files without their last row, with a short row, or without the last length are accepted, and so is an empty file; flows whose sum does not fit are a panic or become negative. Text is ASCII."
  },
  {
   "property": "C56",
   "status": "partial",
   "theorems": [
    "C56_read_partial",
    "C56_solved_partial",
    "C56_malformed_refuted",
    "C56_two_units_refuted"
   ],
   "note": "Proved: a file that says an instance is read as that instance, and solved to a cheapest plan when changeovers satisfy the triangle inequality (all 540 files in resources/psp do). Refuted: files without their last row of demands, with a short row or without the last stocking cost are accepted, too many rows panic, and a demand of two units is read as one. Text is ASCII."
  },
  {
   "property": "C57",
   "status": "proved",
   "theorems": [
    "C57_diagram",
    "C57_barrier_diagram_exact",
    "C57_barrier_diagram",
    "C57_parallel",
    "C57_barrier",
    "C57_few_values"
   ],
   "note": "C57_barrier_diagram (the best completion) is for a diagram compiled alone and without thresholds below its root, as it is in the solver; exactness and the solver are proved for any interleaving. C57_few_values gives a width that is always enough."
  },
  {
   "property": "C58",
   "status": "partial",
   "theorems": [
    "C58_numbers",
    "C58_line",
    "C58_parallel_partial",
    "C58_barrier_partial",
    "C58_wide_partial",
    "C58_ends",
    "C58_timeout_bound_refuted",
    "C58_timeout_gap_refuted",
    "C58_unknown_gap_refuted",
    "C58_debug_panics_refuted",
    "C58_zero_threads_refuted",
    "C58_zero_width_refuted",
    "C58_frontier_cutset_refuted",
    "C58_columns_refuted"
   ],
   "note": "Proved for last exact layers or problems with a single final state (the parallel solver with any number of threads, the solver with a barrier with one) and, with a width that no layer exceeds, for both solvers and cutsets: what a Proved line says is right, a Timeout line shows a real value. False, with witnesses: the bounds and gap of a Timeout line, debug builds, zero threads, zero width, frontier cutsets, padding of two columns. The text of the gap (a float) is given as its f32 value."
  },
  {
   "property": "C59",
   "status": "partial",
   "theorems": [
    "C59_psp_found",
    "C59_srflp_found",
    "C59_tsptw_found",
    "C59_psp_partial",
    "C59_srflp_partial",
    "C59_psp_default",
    "C59_srflp_default",
    "C59_default_texts",
    "C59_psp_wide_partial",
    "C59_srflp_wide_partial",
    "C59_tsptw_wide_partial",
    "C59_tsptw_refuted",
    "C59_rounding_refuted",
    "C59_psp_refuted",
    "C59_no_thread_refuted"
   ],
   "note": "Proved for release builds: never a panic and only real solutions, for all three programs, any options with a width of at least 1; Proved is right for PSP (triangle inequality) and SRFLP with last exact layers (one thread with the barrier), and for all three when no layer exceeds the width. In particular without options on any machine. Refuted for TSPTW in general, for PSP without the triangle inequality and for -T 0. Command line parsing is not modelled."
  },
  {
   "property": "C60",
   "status": "proved",
   "theorems": [
    "C60_codes",
    "C60_zero",
    "C60_one",
    "C60_panic",
    "C60_called",
    "C60_once",
    "C60_no_deadlock",
    "C60_ends",
    "C60_ends_both",
    "C60_fair"
   ],
   "note": "For all interleavings, with time as a number of ticks; termination under fairness (no thread that can move forever is left aside, time goes by). Failure of thread::spawn is not modelled."
  },
  {
   "property": "C61",
   "status": "partial",
   "theorems": [
    "C61_in_time_refuted",
    "C61_hang_refuted",
    "C61_deadline_refuted",
    "C61_locked_partial",
    "C61_locked_ends_partial"
   ],
   "note": "False, with witnesses: the deadline may pass between the return of action and the lock (exit 1), at_exit may go on forever while action has returned, and a panic of at_exit leaves an endless action alone. Proved: once the main thread has the lock the process ends, with 0."
  },
  {
   "property": "C62",
   "status": "proved",
   "theorems": [
    "C62_parallel_counters",
    "C62_parallel_all",
    "C62_barrier_counters",
    "C62_barrier_all",
    "C62_diagram_counter",
    "C62_barrier_diagram_counter"
   ],
   "note": "Counted from outside along every execution (CountersSpec.v). The counters are unbounded naturals in the model: their overflow is not modelled."
  },
  {
   "property": "C63",
   "status": "partial",
   "theorems": [
    "C63_parallel_runs",
    "C63_parallel_sound",
    "C63_parallel_refuted",
    "C63_parallel_interrupted_for_good",
    "C63_parallel_answer_partial",
    "C63_parallel_kept_partial",
    "C63_barrier_runs",
    "C63_barrier_sound",
    "C63_barrier_refuted",
    "C63_barrier_interrupted_for_good",
    "C63_barrier_answer_partial",
    "C63_barrier_kept_partial"
   ],
   "note": "Refuted: `interrupted` is never cleared, so that after an interrupted call even `maximize` ends at once with the old answer (both solvers). Proved in full: no panic, termination, soundness, and that an interrupted solver stays so. Partial: a last call that reports an exact answer has the optimum and proved answers are kept (for the solver with thresholds, first call on one thread)."
  },
  {
   "property": "C64",
   "status": "partial",
   "theorems": [
    "C64_one_thread_partial",
    "C64_barrier_one_thread_partial",
    "C64_ends_only_if_all_panic",
    "C64_barrier_ends_only_if_all_panic",
    "C64_barrier_ends_only_if_all_panic_too",
    "C64_left_waiting",
    "C64_barrier_left_waiting",
    "C64_solution_real",
    "C64_barrier_solution_real",
    "C64_panic_keeps",
    "C64_barrier_panic_keeps",
    "C64_callback_refuted",
    "C64_barrier_callback_refuted",
    "C64_zero_width_refuted",
    "C64_barrier_zero_width_refuted",
    "C64_more_threads_refuted",
    "C64_barrier_more_threads_refuted",
    "C64_root_panics",
    "C64_barrier_root_panics",
    "C64_srflp_debug_never_ends",
    "C64_psp_debug_never_ends"
   ],
   "note": "Proved for one thread (both solvers, any problem): the call ends. Refuted for several: nothing counts a panicking thread out or wakes the others, so that maximize ends only if every thread panics (any problem and number of threads; with thresholds, if the thread panicked while in charge of a subproblem, as it does if the problem is well formed); the others come to a standstill and wait for ever. Witnesses for a callback, for a width of 0 and for more threads than the solver was created with. Proved: if the callbacks panic on the initial state, on two threads or more every execution comes to the point where one thread is dead and all others wait for ever; so it is for a debug build of the SRFLP program (every instance) and of the PSP program (two idle periods or more). Proved: what is stored when threads have panicked in callbacks is a real solution. Proved: a panic leaves the upper bound and the solution as they were and never lowers the lower bound. Not modelled: panics of Eq, Hash or Ord inside an operation of the fringe or of the thresholds."
  },
  {
   "property": "C65",
   "status": "proved",
   "theorems": [
    "C65_asked",
    "C65_barrier_asked",
    "C65_no_more_work",
    "C65_barrier_no_more_work",
    "C65_stopped_at_once",
    "C65_barrier_stopped_at_once"
   ],
   "note": "For both solvers, any problem and any number of threads. Once the search is marked as interrupted no subproblem is taken, at most two diagrams are compiled for each one in hand, and (parallel solver) each thread ends within six critical sections; that the call ends is C26 and C27. Also: interrupt() saying yes from the start (the upper bound is then isize::MIN on two threads or more, a case of C25)."
  },
  {
   "property": "C66",
   "status": "partial",
   "theorems": [
    "C66_nothing_when_solved",
    "C66_each_once",
    "C66_barrier_each_once",
    "C66_barrier_exact_refuted",
    "C66_barrier_exact_partial",
    "C66_below_best",
    "C66_drained_twice",
    "C66_new_diagram"
   ],
   "note": "Proved for the diagrams of with_all.rs, and for those of with_barrier.rs whatever other threads write, except one point: an exact relaxed diagram of with_barrier.rs may hand out subproblems (refuted with a witness; its cutset is computed even when it is exact). Their bounds are then at most the value of the real solution the diagram reports (partial). The solver never drains such a diagram."
  },
  {
   "property": "C67",
   "status": "proved",
   "theorems": [
    "C67_restricted_size",
    "C67_relaxed_size",
    "C67_relaxed_within_width_refuted",
    "C67_barrier_restricted_size",
    "C67_barrier_relaxed_size",
    "C67_edges",
    "C67_edges_not_copied_refuted",
    "C67_barrier_edges",
    "C67_parallel_work",
    "C67_barrier_work"
   ],
   "note": "Nodes, expanded nodes and edges. Two claims one might expect are refuted: that a relaxed diagram expands at most max_width nodes per layer too (the layer below the root is never reduced), and that it has at most one edge per value of an expanded node (the edges into merged nodes are copied)."
  },
  {
   "property": "C68",
   "status": "proved",
   "theorems": [
    "C68_cutset_size",
    "C68_cutset_within_width_refuted",
    "C68_frontier_cutset_size_refuted",
    "C68_barrier_cutset_size",
    "C68_parallel_frontier_size",
    "C68_barrier_frontier_size",
    "C68_any_cutset_size",
    "C68_barrier_any_cutset_size",
    "C68_parallel_frontier_size_any_cutset",
    "C68_barrier_frontier_size_any_cutset"
   ],
   "note": "For LastExactLayer, and with the number of nodes as bound for both cutsets. Refuted beside it: that max_width alone bounds the cutset (the layer below the root is never reduced), and that the bound of LastExactLayer holds of a Frontier cutset."
  },
  {
   "property": "C69",
   "status": "proved",
   "theorems": [
    "C69_parallel_subproblems",
    "C69_barrier_subproblems",
    "C69_parallel_nodes",
    "C69_barrier_nodes",
    "C69_parallel_subproblems_any_cutset",
    "C69_parallel_nodes_any_cutset",
    "C69_barrier_subproblems_any_cutset",
    "C69_barrier_nodes_any_cutset"
   ],
   "note": "For both cutsets; with LastExactLayer the bound is smaller. The bounds are not claimed to be tight."
  }
 ]
}