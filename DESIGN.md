# Formal model of ddo-barrier: design and trusted base

Prover: Coq 8.16.1, standard library only (no other library is imported). Sources in `rocq/theories`,
logical prefix `Verif`. The Rust code in `/repo` was read as text; it was never built or run.

## 1. Trusted base

* Coq's kernel (including `vm_compute`, used only for closed witnesses and examples).
* `Print Assumptions` is printed under each property theorem. Expected answer everywhere:
  `Closed under the global context`. Any standard library axiom that shows up is listed in section 5.
  `coqchk -o -bytecode-compiler yes` on the 26 `Prop*` modules and all they depend on (run at commit 3a5de16) lists no axiom, no
  type-in-type, no unsafe fixpoint and no assumed positivity.
* The reading of the Rust text: each definition cites the file and lines it models.
* The external pieces named in section 3 (hash maps, `sort_unstable_by`, `BinaryHeap`, locks, condvars).

## 2. Conventions of the model

* `isize` is `Z`; every operation the code writes as `saturating_add/sub` is modelled with explicit
  clamping to `[-2^63, 2^63-1]`. The single plain subtraction on values (`residual.ub - root_v`) is modelled
  with explicit two's-complement wrap-around (release profile), and its overflow is a separate property.
  `usize` counters and indices are `nat`; decrements that could underflow return an explicit error.
* `Vec` is `list`, `NodeId`/`EdgeId` are `nat` positions; reading or writing out of range is the explicit
  error value `None` (a panic). All theorems about results are about runs that return a value, and
  a separate theorem says that the error value is never returned.
* `FxHashMap` is an association list without duplicate keys; its iteration order is an arbitrary oracle
  (any permutation, chosen anew at every call). `sort_unstable_by` is an arbitrary oracle returning a
  permutation, which is sorted whenever the comparison is a total preorder.
* Loops over a chain of edges or over layers take fuel and return the error value when fuel runs out;
  the no-panic theorem excludes it.
* A user problem / relaxation is a record of functions. What the documentation asks of users (merging and
  relaxing keep every completion, estimates are admissible, the variable is a function of the depth) is
  an explicit predicate in a small specification file, and instances are shown to satisfy it.
* `BarrierSolver`: a compilation is a program tree (`prog`) whose nodes are the single reads and writes of one entry of
  the shared thresholds (each under the `RwLock` of its layer, hence atomic); other threads may act between any two of them. `pop`'s
  loop over blocked subproblems is one step per subproblem while the lock is held.
* A parallel run is a labelled transition system: one atomic step per critical section, threads interleave
  arbitrarily. Waiting on the condition variable is an explicit thread state; spurious wake-ups allowed.

## 3. Not modelled

Memory safety, real hashing, real time (`Instant`: an interruption may come at any moment; `timeout` counts ticks), the duration and
memory printed, opening files and parsing the command line (the options and the lines of the file are given),
`_root_value` of the SRFLP model, which nothing calls; non-ASCII text in files, `bitset_fixed`, `smallbitset`, `binary_heap_plus`,
`parking_lot` internals: represented by their documented behaviour.

## 4. Properties: how each one is modelled and proved

| Id | Model | Proof idea |
|----|-------|-----------|
| C01 | cursor machine over `list N` words, u64 ops explicit | induction over the words and the distance to the next bit |
| C02 | loop over words and 64 masks | lexicographic order on bit streams |
| C03 | `pos`, `new`, index, index_mut on list data | arithmetic; refuted for `new(rows, cols)` of non-square shapes, partial for square |
| C04 | flags as `N`, masks as in the file | bit-level lemmas |
| C05 | strings | case analysis |
| C06 C07 C08 | arena heap of `no_dup.rs` with position table and recycle bin | heap invariant by induction over operation histories; refinement to a finite map |
| C09 | wrapper around an abstract max-heap | simulation |
| C10 | `MaxUB::compare` | order laws |
| C11 C13 C15 C16 | arena model of `with_all.rs` | layered-graph invariant: every improving completion is simulated by a path of the diagram |
| C12 C17 | same | best-parent chain replays to state and value |
| C14 | same, Exact | corollary of C13 |
| C18 | same | list lengths |
| C19 | same | refuted by a concrete problem; partial: unique terminal state |
| C20 | error values | invariant on indices |
| C21 | `clear` | equality of results |
| C22 C23 C24 C26 C27 | transition system of `parallel.rs` | coverage invariant, measure, waiting implies working |
| C25 | same | refuted; partial statements for what holds: one thread, or several when nothing was waiting (ParInt.v: every thread has written the bound of the subproblem it holds, and only the root has an infinite bound) |
| C23-C27 for `barrier.rs` | arena model of `with_barrier.rs` as a program whose every access to a shared threshold is one step, transition system of `barrier.rs` | weakest preconditions robust to interference, counters invariant, well-founded measure |
| C28 C29 | same | one thread: every recorded threshold is justified by the incumbent or by a pending subproblem; two threads, three threads: refuted, a read-then-write is not atomic, so a threshold can be lowered; also refuted for executions in which subproblems are processed one at a time and no threshold is ever lowered (`RaceSpec.v`) |
| C30 | same | refuted; when the last layer has a single state: proved for the parallel solver and for the solver with thresholds and one thread; if the last layer has an exact node it is then the best one and the diagram is exact |
| C31 | same | counters invariant |
| C32 | `upper_bounds` length | refuted for growing thread counts, partial otherwise |
| C33 | `gap`, with `f32` as `SpecFloat` (`F32.v`) | partial: bounds of equal sign, rounding error bounded (`F32Facts.v`); refuted for the other bounds; what is returned for every pair of bounds (`C33_every_pair`) |
| C34 | `psp.rs`: tables from the demand rows, state, domain, transition, cost | states of a layer describe what is left to produce; induction over periods both ways |
| C35 | same, with `merge`, `relax`, `estimate` and the tables of `precompute_all_mst` | orders dropped by a merge are thinned out of the completion (triangle inequality); refuted without it |
| C36 C37 | `srflp/model.rs` and `relax.rs`, bit sets, cut vectors | induction over positions; a completion of a state is one of any state with fewer obligations, more candidates and smaller cuts |
| C38 | `tsptw/model.rs` with its bit sets | induction over the tour; refuted without the triangle inequality |
| C39 C40 | same, with `relax.rs` and `estimate` | refuted for merged states; partial: finishing times, exact states, no waiting, merged states up to one city (`TsptwEstimate.v`) |
| C41 | error values of every index and, in a debug build, subtraction | invariant of the layers; refuted for `estimate` in a debug build; exactly the states on which it panics (`TsptwDebug.v`) |
| C42 | both solvers on the TSPTW model, width and ranking of the example | runs evaluated by `vm_compute`; C12/C27 for the partial part; C57 with C38/C40 when no layer exceeds the width |
| C43 | `psp.rs`, error values | invariant of the layers; refuted for `estimate` in a debug build |
| C44 | both solvers on the PSP model, width and ranking of the example | C22/C28 applied to C34/C35; refutations by `vm_compute`; C57 when no layer exceeds the width |
| C45 | `estimate`, with `f32` as `SpecFloat` | completions are orders; the sum splits into a part fixed by the cuts (exchange argument on ratios, exact below 2^23) and a part fixed by the flows (rearrangement); refuted beyond |
| C46 | error values of every index and, in a debug build, subtraction | invariant of the layers; `estimate` panics on all exact states in a debug build |
| C47 | both solvers on the SRFLP model, width and ranking of the example | C22/C28 applied to C36/C37/C45; refutation by `vm_compute`; C57 when no layer exceeds the width |
| C48 | end of `instance.rs` | induction over the pairs |
| C49 | `From<Lines>` of `tsptw/instance.rs` on lists of strings (ASCII), `f32` as `SpecFloat` | words and digits by induction; errors of the two roundings bounded; refuted by a file |
| C50 C51 | model of `with_barrier.rs`; executions where the thresholds change arbitrarily between two accesses (`MddBarrierSpec.v`) | the weakest preconditions used for C23-C27, read as executions |
| C52 C53 | same, nobody else changing the thresholds | the invariants behind C28/C29/C30 with one thread; with the frontier cutset when the last layer has a single state |
| C54 | `barrier.rs` and `with_barrier.rs` | one thread: each write follows the read that justifies it; two threads: refuted |
| C55 | `From<Lines>` of `srflp/instance.rs` on lists of strings (ASCII) | words and digits by induction, C48 for the flows, C47 for the solvers; malformed files: refuted by `vm_compute` |
| C56 | `TryFrom<Lines>` of `psp/psp.rs` on lists of strings (ASCII), `Err` and panic told apart | words and digits by induction; the tables filled in place against the rows of C34; C44 for the solvers; malformed files: refuted by `vm_compute` |
| C57 | the models of C11-C31, with a predicate on the layers of the problem itself (`WideSpec.v`) | a compilation in which no layer is too long is the exact compilation; the parallel solver closes every subproblem it takes; the solver with a barrier only ever processes the root (invariant in three stages, any interleaving) |
| C58 | `solve_timeout` of `xputils.rs`: texts of `isize`, padding, `f32` gap, all executions of both solvers (`Report.v`, `ReportSpec.v`) | decimal texts by induction; C22-C28, C57 for what the solver holds when it stops; runs evaluated by `vm_compute` for the refutations |
| C59 | `run_resolution_xp` of the three `main.rs`, release build (`Program.v`) | reading (C49, C55, C56), then C58 on the instances of C42, C44, C47 |
| C62 | the counters of `parallel.rs`, `barrier.rs`, `with_all.rs`, `with_barrier.rs` | executions annotated with two counts kept from outside (`CountersSpec.v`); what a thread has not reported yet is added in the invariant; the set of expanded nodes of a diagram is carried through the compilation (`DdCount.v`), for the barrier over all answers of the thresholds |
| C63 | a second call of `maximize` / `maximize_with_interrupt` (`Again.v`: what it puts on the fringe and what it keeps) | executions with any number of calls (`AgainSpec.v`); the invariant of one call, without its two facts about the first call, is kept by a further one; an interrupted solver is shown to do nothing any more |
| C64 | what a panicking thread leaves behind, at every place where one may panic (`Crash.v`); executions in which threads die (`CrashSpec.v`) | an invariant: some dead thread is still counted in `ongoing`, which is never 0 again, so that nobody is told to stop; with a well-formed problem a dead thread is one that is never scheduled again, hence C23, C26 and C27 apply; states without any successor evaluated by `vm_compute` for the refutations. Executions in which compiling certain subproblems always panics (`SureSpec.v`): two phases (the root waits; one thread has it) and a measure that every step lowers |
| C65 | `get_workload`, `process_one_node` of both solvers (`ParSolver.v`, `BarSolver.v`); executions with counters of steps and diagrams (`ObeySpec.v`) | once `interrupted` is set, every step lowers what the threads still have to do; with thresholds, whoever has popped a subproblem holds the lock, so that nobody has when the flag is set; invariant of executions in which `interrupt()` always says yes |
| C66 | `drain_cutset` and `compile` of both diagrams (`Dd.v`, `MddAll.v`, `MddBarrier.v`) | invariant of a diagram being built (`DrainInv.v`): the expanded nodes of a layer have different states, the cutset lists expanded nodes only and each once; path lengths from the invariants of C11-C20 and C50-C53; refuted for exact diagrams with thresholds |
| C67 | `compile` of both diagrams, the counters of both solvers | after each turn of the loop: the states of the next layer are in their layer, the nodes and the expanded nodes are within the bound of that many layers (`SizeProofs.v`); each thread owes at most what its subproblem may still cost (`SizeSolvers.v`); the lists of inbound edges of the next layer have as many elements as edges were made since the layer was started, and a merged node copies its list once (`EdgeProofs.v`) |
| C68 | `compile` and `drain_cutset` of both diagrams, `enqueue_cutset` and `get_workload` of both solvers, any fringe | the cutset is empty until the first reduction below the second layer and is then the previous layer, which is either the one below the root or a reduced one (`CutProofs.v`); each thread owes at most one cutset for the subproblem it holds (`CutSolvers.v`) |
| C69 | as C68 | each subproblem has the weight of the tree below its depth; what a thread hands out for a subproblem weighs less than the subproblem, because it is deeper and there are at most max(width, domain) of it; a cutset of either kind has no node twice (`DrainInv.v`), hence at most as many as the diagram (`CutSolvers.v`, `TreeSolvers.v`, specification in `TreeSpec.v`) |
| C60, C61 | `timeout` of `xputils.rs`: two threads, a mutex that may be poisoned, a clock, functions that return, panic or go on (`Timeout.v`, `TimeoutSpec.v`) | invariant of reachable states; ranks of the two threads for termination in fair executions; a round robin execution shows that fair ones exist; traces for the refutations |

## 5. Assumptions reported

Every property theorem prints `Closed under the global context`. A checker that lists the axioms of the whole
environment (rather than of a theorem) may show `Coq.ssr.ssrunder.Under_rel.*`: they belong to the standard
library, are loaded with `Coq.ssr`, which the tactic `lia`'s dependencies import, and no theorem uses them.

## 6. What turned out false

The following claims were refuted on the model by a concrete witness; each refutation is a theorem.

* C03, C33: see the refuted theorems.
* C13: `is_exact()` answers true when `next_variable` answers `None` before every variable is assigned.
* C19/C30: the frontier cutset loses the solutions found by exact nodes of the last layer; the solver then answers
  `Proved` with a value that is not the optimum.
* C20: in a debug build `root_node` plus a negative initial value overflows (`residual.ub - root_v`).
* C25: three ways in which the upper bound after an interruption is below the optimum.
* C28/C29: `try_update_barrier` reads the threshold, releases the lock, and writes later; with two threads a threshold
  can be lowered in between, and the solver answers `Proved` with 14 where the optimum is 15 (PropRace.v).
  Making these updates atomic, or even processing subproblems one at a time, would not be enough: a bound computed while
  another thread has a subproblem in hand relies on the thresholds of that subproblem; subproblems that inherit the bound record
  thresholds of their own, because of which the one in hand is pruned. The solver answers `Proved` with 16 where the optimum is 17.
* C32: `with_nb_threads` does not resize `upper_bounds`, so more threads panic; with zero threads the answer is `Proved`.
* C35: merging PSP states is a relaxation only if changeover costs satisfy the triangle inequality. `estimate` returns a
  cost where a value is asked for (no minus sign): it is an upper bound, but never below zero, so it prunes nothing.
* C38: `for_each_in_domain` of TSPTW gives up when a city that must be visited cannot be reached directly, which loses
  tours when the triangle inequality fails.
* C39: waiting is paid twice after a TSPTW merge. C40: the depot is counted among the cities to visit.
* C41, C43: `estimate` underflows in a debug build, for TSPTW on particular merged states, for PSP on every state with two
  or more idle periods.
* C42: with the width of the example, one thread, either solver and either cutset a feasible TSPTW instance is declared
  infeasible and another one gets 75 as optimum where 70 is possible. Without any time window the answer may be wrong too (44 where 42 is
  possible).
* C44: the same happens with PSP without the triangle inequality (50 where 4 is possible), and with the frontier cutset for both solvers even with it (13 instead of 11 with the parallel solver).
* C45, C47: the SRFLP estimate orders departments by ratios rounded to `f32`; with lengths and flows around 2^27 the order
  is wrong, the estimate too low, and both solvers answer `Proved` with a layout that is not the best.
* C46: the SRFLP estimate computes `n_from_maybe_place - 1` on `usize`, which underflows on every exact state: a debug
  build panics on the first one, whatever the instance.
* C49: reading `40.3113` from a TSPTW file gives 403112 ten-thousandths (`f32`, truncated): a feasible instance becomes
  infeasible. Missing entries, negative times and `NaN` are read as 0, `inf` as the largest number;
  an empty file is accepted.
* C55: an SRFLP file without its last row, with a short row or without the last length, or an empty one, is accepted; two flows
  whose sum does not fit become negative in a release build.
* C56: a PSP file with a short or missing row of demands is accepted, and makes a unit due at period 0; too many rows panic
  instead of giving an error; a demand of two units counts as one.
* C58: a line "Timeout" may show a gap of 0, or an upper bound below the optimum; an early timeout in a release build shows a gap
  close to -0 with "not found", and a debug build panics in `gap`; `-T 0` prints "Proved" and "not found"; `-w 0` panics (or hangs, C64); with the
  frontier cutset "Proved" 7 is printed where the optimum is 8; solver and status are not padded to the columns of their header.
* C59: "Proved" and "not found" for TSPTW files that have a tour, "Proved" and -50 for a PSP file that has a plan of cost 4.
* C62: the comment on `explored` (src/solver/parallel.rs:32-34) says that a restricted and a relaxed diagram were developed for each
  subproblem counted; the code counts every subproblem popped, also when its bound lets it be dropped or the restricted diagram is exact.
* C66: an exact relaxed diagram of `with_barrier.rs` still hands out subproblems when drained (`compute_local_bounds_and_theta` runs whether or not
  the diagram is exact). The solver does not drain it; a user of the diagram would explore them for nothing.
* C13: with a `next_variable` that names a variable on an empty layer the diagrams with thresholds too claim to be exact.
* C67: a relaxed diagram may expand more than `max_width` nodes per layer: the layer right below the root of the diagram is never reduced
  (src/mdd/with_all.rs:264, src/mdd/with_barrier.rs:305), so with a large domain the width does not bound it.
* C68: for the same reason a last exact layer may hand out more than `max_width` subproblems; a frontier cutset is not bounded by the width nor by
  the domains (witness: four subproblems with width 2 and domains of two values).
* C25, C65: if `interrupt()` says yes from the start, a call on two threads or more always reports `isize::MIN` as upper bound, whatever the
  problem: the first thread empties the fringe, the second one takes that for a finished search and closes the bounds.
* C63: `interrupted` is set by a call that is told to stop (src/solver/parallel.rs:317, src/solver/barrier.rs:347) and never cleared:
  every later call on the same solver, `maximize` included, returns at once with the old answer and bounds.
* C64: a thread that panics is not counted out of `ongoing` and wakes nobody; with two threads or more, the others wait on the
  condition variable for ever, the scope waits for them, and the panic never reaches the caller. So `-w 0` and a solver used with
  more threads than it was created with do not panic on several threads: they hang, also past the deadline.
  The same for a debug build of the SRFLP program on any instance, and of the PSP program on any instance with two idle periods or
  more: `estimate` panics on the initial state (C46, C43), so that on two threads or more `maximize` never ends.
* C61: `timeout` may exit with 1 although the action returned in time; it hangs if `at_exit` does, and a panic of `at_exit` disarms
  the deadline.
* C03: `row` of `examples/psp/utils.rs` computes a position one past the row; in a debug build its own assertion fails, on
  every matrix (nothing calls it).

## 7. Wrong programs tried

`seeded/LOG.jsonl` has one line per attempt, with `outcome`: `caught` (a theorem about the claim fails), `missed` (none does; the `note` says what
was done about it, `theorems_tightened` what was added) or `invalid` (the attempt could not be judged and was repeated). Up to commit 20cee13 the file
listed only the attempts that were caught; since then it lists all of them, and the edits that were made at random. For a random edit the outcome is
`proof fails` or `missed`: a proof that fails says less than `caught`, because only the place where the build stops is known, not which theorems fail.
The value to which a `usize` subtraction wraps in a release build (`Bits.v`) matters for C41 only: the edits that make it small or negative are
caught, and an edit to another enormous value would probably change no claim. Three others change nothing that can be observed.
