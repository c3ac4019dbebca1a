(** Property theorems C22-C27, C30 and C32 (src/solver/parallel.rs). *)
From Verif Require Import Spec Dd DdSpec MddAll FrontierSpec FringeSpec ParSpec ParProofs Table TableFacts MddCases ParCases EndCases.
Open Scope Z_scope.

(* ------------------------------------------------------------------ *)
(** C22. When the solver with the last exact layer cutset answers Proved, it answers the optimum (no value: there is no
    solution) and both bounds agree; for any number [m >= 1] of threads not above the number [n] it was created with, and any
    schedule (including spurious wake-ups of waiting threads). [good_solver] holds for both frontiers of the library: see
    [C22_nodup_solver] and [C22_simple_solver]. *)
Theorem C22_proved_is_optimum : forall S eqb (cfg : config S) at_depth nv C n m st,
  good_solver S eqb cfg at_depth nv C -> well_behaved S eqb (cf_pb cfg) (cf_rx cfg) at_depth nv C ->
  cf_ctype cfg = LastExactLayer -> decided_once S cfg nv -> (1 <= m <= n)%nat ->
  reachable S eqb cfg n m st -> proved cfg st ->
  upper_bound_of cfg st = lower_bound_of cfg st /\
  match best_value_of cfg st with
  | Some v => optimum S (cf_pb cfg) nv v /\ lower_bound_of cfg st = v /\
              exists l, best_solution_of cfg st = Some l /\ reported_solution S (cf_pb cfg) nv l v
  | None => infeasible S (cf_pb cfg) nv /\ best_solution_of cfg st = None
  end.
Proof. exact par_optimum. Qed.
Print Assumptions C22_proved_is_optimum.

(** [maximize] never interrupts: once every thread has left, its answer is the optimum. *)
Theorem C22_maximize : forall S eqb (cfg : config S) at_depth nv C n m st,
  good_solver S eqb cfg at_depth nv C -> well_behaved S eqb (cf_pb cfg) (cf_rx cfg) at_depth nv C ->
  cf_ctype cfg = LastExactLayer -> decided_once S cfg nv -> (1 <= m <= n)%nat ->
  maximize_reaches S eqb cfg n m st -> all_done cfg st ->
  match best_value_of cfg st with
  | Some v => optimum S (cf_pb cfg) nv v /\ exists l, best_solution_of cfg st = Some l /\ reported_solution S (cf_pb cfg) nv l v
  | None => infeasible S (cf_pb cfg) nv /\ best_solution_of cfg st = None
  end.
Proof. exact par_maximize. Qed.
Print Assumptions C22_maximize.

Theorem C22_nodup_solver : forall S eqb P R rank frank width ct at_depth nv C,
  well_formed S eqb P R at_depth nv C -> (forall s, (1 <= width s)%nat) -> total_preorder frank ->
  good_solver S eqb (mk_cfg P R rank width ct (nodup_frontier eqb frank)) at_depth nv C.
Proof. exact nodup_solver. Qed.
Print Assumptions C22_nodup_solver.
Theorem C22_simple_solver : forall S eqb P R rank frank choose width ct at_depth nv C,
  well_formed S eqb P R at_depth nv C -> (forall s, (1 <= width s)%nat) -> total_preorder frank -> heap_oracle choose ->
  good_solver S eqb (mk_cfg P R rank width ct (simple_frontier frank choose)) at_depth nv C.
Proof. exact simple_solver. Qed.
Print Assumptions C22_simple_solver.

(** Two threads taking turns on the second table find the optimum 10; one thread on the first finds 8. *)
Example C22_case :
  good_solver tstate ts_eqb cfgI t_at t_nv 1000 /\ well_behaved tstate ts_eqb (t_problem tabI) (t_relax tabI) t_at t_nv 1000 /\
  decided_once tstate cfgI t_nv /\ optimum tstate (t_problem tabI) t_nv 10 /\
  look (run_from cfgI 2 2 (turns 20)) = Some (mk_view true false 10 10 (Some 10) (Some sol10)) /\
  look (run_from (cfgF LastExactLayer) 1 1 (go 19 0)) = Some (mk_view true false 8 8 (Some 8) (Some solF8)).
Proof.
  exact (conj (t_cfg_solver tabI 1 LastExactLayer 1000 tabI_ok ltac:(lia)) (conj (table_well_behaved tabI 1000 tabI_ok)
    (conj (t_decided_once tabI 1 LastExactLayer) (conj tabI_opt (conj turns_run lel_run))))).
Qed.

(* ------------------------------------------------------------------ *)
(** C23. At every moment of every execution, whatever the cutset type, and without any assumption on the estimate and the
    relaxation beyond well-formedness: either no solution is known, or the solution reported is a real one and its value is
    the value and the lower bound reported. *)
Theorem C23_parallel_solutions_real : forall S eqb (cfg : config S) at_depth nv C n m st,
  good_solver S eqb cfg at_depth nv C -> (m <= n)%nat -> reachable S eqb cfg n m st ->
  (best_solution_of cfg st = None /\ best_value_of cfg st = None /\ lower_bound_of cfg st = IMIN) \/
  (exists l v, best_solution_of cfg st = Some l /\ best_value_of cfg st = Some v /\ lower_bound_of cfg st = v /\
     reported_solution S (cf_pb cfg) nv l v).
Proof. exact par_solution. Qed.
Print Assumptions C23_parallel_solutions_real.

(** Interrupted when 4 is the best value known. *)
Example C23_case :
  good_solver tstate ts_eqb cfgI t_at t_nv 1000 /\
  look (run_from cfgI 1 1 (go 12 0 ++ [(0%nat, true)])) = Some (mk_view true true 4 10 (Some 4) (Some sol4)).
Proof. exact (conj (t_cfg_solver tabI 1 LastExactLayer 1000 tabI_ok ltac:(lia)) early_run). Qed.

(* ------------------------------------------------------------------ *)
(** C24. The lower bound never decreases and never exceeds the optimum. *)
Theorem C24_parallel_lower_bound_monotone : forall S eqb (cfg : config S) at_depth nv C n m st st',
  good_solver S eqb cfg at_depth nv C -> (m <= n)%nat -> reachable S eqb cfg n m st -> reaches S eqb cfg st st' ->
  lower_bound_of cfg st <= lower_bound_of cfg st'.
Proof. exact par_monotone. Qed.
Print Assumptions C24_parallel_lower_bound_monotone.
Theorem C24_parallel_lower_bound_valid : forall S eqb (cfg : config S) at_depth nv C n m st v,
  good_solver S eqb cfg at_depth nv C -> (m <= n)%nat -> reachable S eqb cfg n m st -> optimum S (cf_pb cfg) nv v ->
  lower_bound_of cfg st <= v.
Proof. exact par_below. Qed.
Print Assumptions C24_parallel_lower_bound_valid.

(** From 3, to 4, to the optimum 10. *)
Example C24_case :
  good_solver tstate ts_eqb cfgI t_at t_nv 1000 /\ optimum tstate (t_problem tabI) t_nv 10 /\
  option_map v_lb (look (run_from cfgI 1 1 (go 6 0))) = Some 3 /\ option_map v_lb (look (run_from cfgI 1 1 (go 12 0))) = Some 4 /\
  option_map v_lb (look (run_from cfgI 1 1 (go 18 0))) = Some 10.
Proof. split; [exact (t_cfg_solver tabI 1 LastExactLayer 1000 tabI_ok ltac:(lia))|]. split; [exact tabI_opt|]. vm_compute. auto. Qed.

(* ------------------------------------------------------------------ *)
(** C25 is false. (1) One thread: the upper bound reported on interruption can be below the best value found. *)
Theorem C25_bound_below_incumbent_refuted : exists (cfg : config tstate) st v,
  good_solver tstate ts_eqb cfg t_at t_nv 1000 /\ well_behaved tstate ts_eqb (cf_pb cfg) (cf_rx cfg) t_at t_nv 1000 /\
  cf_ctype cfg = LastExactLayer /\ reachable tstate ts_eqb cfg 1 1 st /\ interrupted cfg st /\
  optimum tstate (cf_pb cfg) t_nv v /\ upper_bound_of cfg st < v /\ lower_bound_of cfg st = v.
Proof.
  destruct (run_look _ _ _ _ _ below_run) as (st & _ & H1 & H2 & H3 & H4 & H5 & _). exists cfgI, st, 10. cbn in *.
  split; [exact (t_cfg_solver tabI 1 LastExactLayer 1000 tabI_ok ltac:(lia))|]. split; [exact (table_well_behaved tabI 1000 tabI_ok)|].
  split; [reflexivity|]. split; [exact H1|]. split; [exact (conj (H2 eq_refl) H3)|]. split; [exact tabI_opt|]. rewrite H5. split; [lia|exact H4].
Qed.
Print Assumptions C25_bound_below_incumbent_refuted.

(** (2) Two threads: the optimum can be above both bounds, because the subproblems of the frontier are ignored while a
    thread is working. *)
Theorem C25_frontier_ignored_refuted : exists (cfg : config tstate) st v,
  good_solver tstate ts_eqb cfg t_at t_nv 1000 /\ well_behaved tstate ts_eqb (cf_pb cfg) (cf_rx cfg) t_at t_nv 1000 /\
  cf_ctype cfg = LastExactLayer /\ reachable tstate ts_eqb cfg 2 2 st /\ interrupted cfg st /\
  optimum tstate (cf_pb cfg) t_nv v /\ lower_bound_of cfg st < upper_bound_of cfg st < v.
Proof.
  destruct (run_look _ _ _ _ _ two_run) as (st & _ & H1 & H2 & H3 & H4 & H5 & _). exists cfgI, st, 10. cbn in *.
  split; [exact (t_cfg_solver tabI 1 LastExactLayer 1000 tabI_ok ltac:(lia))|]. split; [exact (table_well_behaved tabI 1000 tabI_ok)|].
  split; [reflexivity|]. split; [exact H1|]. split; [exact (conj (H2 eq_refl) H3)|]. split; [exact tabI_opt|]. rewrite H4, H5. lia.
Qed.
Print Assumptions C25_frontier_ignored_refuted.

(** (3) Two threads: after an interruption the last thread to leave may declare the lower bound to be the upper bound. *)
Theorem C25_bounds_closed_after_interruption_refuted : exists (cfg : config tstate) st v,
  good_solver tstate ts_eqb cfg t_at t_nv 1000 /\ well_behaved tstate ts_eqb (cf_pb cfg) (cf_rx cfg) t_at t_nv 1000 /\
  cf_ctype cfg = LastExactLayer /\ reachable tstate ts_eqb cfg 2 2 st /\ interrupted cfg st /\
  optimum tstate (cf_pb cfg) t_nv v /\ lower_bound_of cfg st = upper_bound_of cfg st /\ upper_bound_of cfg st < v.
Proof.
  destruct (run_look _ _ _ _ _ reset_run) as (st & _ & H1 & H2 & H3 & H4 & H5 & _). exists cfgJ, st, 10. cbn in *.
  split; [exact (t_cfg_solver tabJ 1 LastExactLayer 1000 tabJ_ok ltac:(lia))|]. split; [exact (table_well_behaved tabJ 1000 tabJ_ok)|].
  split; [reflexivity|]. split; [exact H1|]. split; [exact (conj (H2 eq_refl) H3)|]. split; [exact tabJ_opt|]. rewrite H4, H5. lia.
Qed.
Print Assumptions C25_bounds_closed_after_interruption_refuted.

(** What holds (missing: several threads, and a bound that is not below the incumbent): with one thread, the optimum is at
    most the larger of the two bounds reported. *)
Theorem C25_single_thread_partial : forall S eqb (cfg : config S) at_depth nv C n st v,
  good_solver S eqb cfg at_depth nv C -> well_behaved S eqb (cf_pb cfg) (cf_rx cfg) at_depth nv C ->
  (cf_ctype cfg = LastExactLayer \/ one_end S cfg at_depth) -> decided_once S cfg nv -> (1 <= n)%nat ->
  reachable S eqb cfg n 1 st -> interrupted cfg st -> optimum S (cf_pb cfg) nv v ->
  v <= Z.max (lower_bound_of cfg st) (upper_bound_of cfg st).
Proof. exact par_interrupted. Qed.
Print Assumptions C25_single_thread_partial.
Example C25_case :
  good_solver tstate ts_eqb cfgI t_at t_nv 1000 /\ optimum tstate (t_problem tabI) t_nv 10 /\
  look (run_from cfgI 1 1 (go 12 0 ++ [(0%nat, true)])) = Some (mk_view true true 4 10 (Some 4) (Some sol4)).
Proof. exact (conj (t_cfg_solver tabI 1 LastExactLayer 1000 tabI_ok ltac:(lia)) (conj tabI_opt early_run)). Qed.

(** With any number of threads (missing: subproblems that were waiting): if no subproblem was waiting when a thread noticed
    the interruption, then from then on the optimum is at most the larger of the two bounds reported. *)
Theorem C25_nothing_waiting_partial : forall S eqb (cfg : config S) at_depth nv C n m st st' st'' v,
  good_solver S eqb cfg at_depth nv C -> well_behaved S eqb (cf_pb cfg) (cf_rx cfg) at_depth nv C ->
  (cf_ctype cfg = LastExactLayer \/ one_end S cfg at_depth) -> decided_once S cfg nv -> (m <= n)%nat ->
  reachable S eqb cfg n m st -> step S eqb cfg st st' ->
  c_interrupted (s_crit st) = false -> c_interrupted (s_crit st') = true ->
  fr_empty (cf_fr cfg) (c_fringe (s_crit st)) = true ->
  reaches S eqb cfg st' st'' -> optimum S (cf_pb cfg) nv v ->
  v <= Z.max (lower_bound_of cfg st'') (upper_bound_of cfg st'').
Proof. exact par_nothing_waiting. Qed.
Print Assumptions C25_nothing_waiting_partial.
(** And in any case the bound set at that moment errs only by the subproblems that were waiting, which are thrown away: the
    optimum is at most the larger of that bound and the final lower bound, or at most the bound of one of those subproblems. *)
Theorem C25_forgotten_partial : forall S eqb (cfg : config S) at_depth nv C inv content n m st st' st'' v,
  good_config S eqb cfg at_depth nv C True inv content -> well_behaved S eqb (cf_pb cfg) (cf_rx cfg) at_depth nv C ->
  (cf_ctype cfg = LastExactLayer \/ one_end S cfg at_depth) -> decided_once S cfg nv -> (m <= n)%nat ->
  reachable S eqb cfg n m st -> step S eqb cfg st st' ->
  c_interrupted (s_crit st) = false -> c_interrupted (s_crit st') = true ->
  reaches S eqb cfg st' st'' -> optimum S (cf_pb cfg) nv v ->
  v <= Z.max (lower_bound_of cfg st'') (upper_bound_of cfg st') \/
  exists q, In q (content (c_fringe (s_crit st))) /\ v <= sp_ub q.
Proof. exact par_forgotten. Qed.
Print Assumptions C25_forgotten_partial.
(** Two threads hold the subproblems with bounds 10 and 9 when the third one notices the interruption: the bounds reported in
    the end are 4 and 10. With two threads and two subproblems waiting, they are 4 and 9. The optimum is 10. *)
Example C25_threads_case :
  good_solver tstate ts_eqb cfgI t_at t_nv 1000 /\ optimum tstate (t_problem tabI) t_nv 10 /\
  waiting (run_from cfgI 3 3 sched_three) = Some (true, [PStart subI1; PStart subI2; PIdle], false) /\
  look (run_from cfgI 3 3 (sched_three ++ [(2, true)]%nat ++ go 6 0 ++ go 8 1)) = Some (mk_view true true 4 10 (Some 4) (Some sol4)) /\
  look (run_from cfgI 2 2 sched_two) = Some (mk_view true true 4 9 (Some 4) (Some sol4)).
Proof. exact (conj (t_cfg_solver tabI 1 LastExactLayer 1000 tabI_ok ltac:(lia)) (conj tabI_opt (conj three_before (conj three_run two_run)))). Qed.

(* ------------------------------------------------------------------ *)
(** C26. There is no infinite execution (apart from waiting threads that would wake up for no reason forever), and from
    every state the execution can be continued until every thread has left. *)
Theorem C26_no_infinite_execution : forall S eqb (cfg : config S) at_depth nv C n m st,
  good_solver S eqb cfg at_depth nv C -> (m <= n)%nat -> reachable S eqb cfg n m st ->
  ~ exists f : nat -> state S cfg, f 0%nat = st /\ forall k, step S eqb cfg (f k) (f (Datatypes.S k)).
Proof. exact par_no_infinite. Qed.
Print Assumptions C26_no_infinite_execution.
Theorem C26_can_finish : forall S eqb (cfg : config S) at_depth nv C n m st,
  good_solver S eqb cfg at_depth nv C -> (m <= n)%nat -> reachable S eqb cfg n m st ->
  exists st', reaches S eqb cfg st st' /\ all_done cfg st'.
Proof. exact par_ends. Qed.
Print Assumptions C26_can_finish.
(** The same problem finishes with either cutset. *)
Example C26_case :
  good_solver tstate ts_eqb (cfgF Frontier) t_at t_nv 1000 /\ good_solver tstate ts_eqb (cfgF LastExactLayer) t_at t_nv 1000 /\
  option_map v_done (look (run_from (cfgF Frontier) 1 1 (go 15 0))) = Some true /\
  option_map v_done (look (run_from (cfgF LastExactLayer) 1 1 (go 18 0))) = Some false /\
  option_map v_done (look (run_from (cfgF LastExactLayer) 1 1 (go 19 0))) = Some true.
Proof.
  split; [exact (t_cfg_solver tabF 2 Frontier 1000 tabF_ok ltac:(lia))|]. split; [exact (t_cfg_solver tabF 2 LastExactLayer 1000 tabF_ok ltac:(lia))|].
  vm_compute. auto.
Qed.

(* ------------------------------------------------------------------ *)
(** C27. As long as some thread has not left, some thread can move whatever the libraries do; a waiting thread is always
    accompanied by a busy one, whose report will wake it; and no step panics. *)
Theorem C27_no_deadlock : forall S eqb (cfg : config S) at_depth nv C n m st,
  good_solver S eqb cfg at_depth nv C -> (m <= n)%nat -> reachable S eqb cfg n m st ->
  all_done cfg st \/ can_move S eqb cfg st.
Proof. exact par_no_deadlock. Qed.
Print Assumptions C27_no_deadlock.
Theorem C27_waiting_is_accompanied : forall S eqb (cfg : config S) at_depth nv C n m st t,
  good_solver S eqb cfg at_depth nv C -> (m <= n)%nat -> reachable S eqb cfg n m st ->
  In t (s_threads st) -> t_pc t = PWait -> exists t', In t' (s_threads st) /\ busy S t'.
Proof. exact par_waiting. Qed.
Print Assumptions C27_waiting_is_accompanied.
Theorem C27_no_panic : forall S eqb (cfg : config S) at_depth nv C n m st orc intr i,
  good_solver S eqb cfg at_depth nv C -> (m <= n)%nat -> reachable S eqb cfg n m st -> library_ok S orc ->
  thread_step eqb cfg orc intr i st <> Panic.
Proof. exact par_no_panic. Qed.
Print Assumptions C27_no_panic.
(** The second thread waits while the first one starts with the root, and is woken when the root has been processed. *)
Example C27_case :
  good_solver tstate ts_eqb cfgI t_at t_nv 1000 /\
  where_are (run_from cfgI 2 2 (go 1 0 ++ go 1 1)) = Some [PStart (t_root tabI); PWait] /\
  where_are (run_from cfgI 2 2 (go 1 0 ++ go 1 1 ++ go 5 0)) = Some [PIdle; PIdle].
Proof. split; [exact (t_cfg_solver tabI 1 LastExactLayer 1000 tabI_ok ltac:(lia))|]. vm_compute. auto. Qed.

(* ------------------------------------------------------------------ *)
(** C30 is false of the parallel solver: with the frontier cutset, a run answers Proved with 7 although the optimum is 8. *)
Theorem C30_parallel_frontier_cutset_refuted : exists (cfg : config tstate) st,
  good_solver tstate ts_eqb cfg t_at t_nv 1000 /\ well_behaved tstate ts_eqb (cf_pb cfg) (cf_rx cfg) t_at t_nv 1000 /\
  decided_once tstate cfg t_nv /\ cf_ctype cfg = Frontier /\ reachable tstate ts_eqb cfg 1 1 st /\ proved cfg st /\
  best_value_of cfg st = Some 7 /\ optimum tstate (cf_pb cfg) t_nv 8.
Proof.
  destruct (run_look _ _ _ _ _ frontier_run) as (st & _ & H1 & H2 & H3 & H4 & H5 & H6 & _). exists (cfgF Frontier), st. cbn in *.
  split; [exact (t_cfg_solver tabF 2 Frontier 1000 tabF_ok ltac:(lia))|]. split; [exact (table_well_behaved tabF 1000 tabF_ok)|].
  split; [exact (t_decided_once tabF 2 Frontier)|]. split; [reflexivity|]. split; [exact H1|]. split; [exact (conj (H2 eq_refl) H3)|]. split; [exact H6|exact tabF_opt].
Qed.
Print Assumptions C30_parallel_frontier_cutset_refuted.

(** What holds with either cutset: when all full assignments lead to the same state, a proved answer is the optimum.
    Missing: problems with several final states, such as the one above. *)
Theorem C30_parallel_one_end_partial : forall S eqb (cfg : config S) at_depth nv C n m st,
  good_solver S eqb cfg at_depth nv C -> well_behaved S eqb (cf_pb cfg) (cf_rx cfg) at_depth nv C ->
  one_end S cfg at_depth -> decided_once S cfg nv -> (1 <= m <= n)%nat -> reachable S eqb cfg n m st -> proved cfg st ->
  upper_bound_of cfg st = lower_bound_of cfg st /\
  match best_value_of cfg st with
  | Some v => optimum S (cf_pb cfg) nv v /\ lower_bound_of cfg st = v /\
              exists l, best_solution_of cfg st = Some l /\ reported_solution S (cf_pb cfg) nv l v
  | None => infeasible S (cf_pb cfg) nv /\ best_solution_of cfg st = None
  end.
Proof. exact par_one_end. Qed.
Print Assumptions C30_parallel_one_end_partial.
(** The problem of the refutation with its two final states made one: the frontier cutset finds 8. *)
Example C30_parallel_one_end_case :
  good_solver tstate ts_eqb (cfgG Frontier) (t_at1 tabG) t_nv 1000 /\
  well_behaved tstate ts_eqb (t_problem tabG) (t_relax tabG) (t_at1 tabG) t_nv 1000 /\ one_end tstate (cfgG Frontier) (t_at1 tabG) /\
  optimum tstate (t_problem tabG) t_nv 8 /\
  look (run_from (cfgG Frontier) 1 1 (go 25 0)) = Some (mk_view true false 8 8 (Some 8) (Some solG8)).
Proof.
  exact (conj (end_solver tabG 1000 tabG_ok tabG_end 2 Frontier ltac:(lia)) (conj (end_well_behaved tabG 1000 tabG_ok tabG_end)
    (conj (end_one tabG 2 Frontier) (conj tabG_opt end_run)))).
Qed.

(* ------------------------------------------------------------------ *)
(** C32 is false. (1) More threads than the solver was created with: a thread panics. *)
Theorem C32_more_threads_refuted : exists (cfg : config tstate) st orc i,
  good_solver tstate ts_eqb cfg t_at t_nv 1000 /\ well_behaved tstate ts_eqb (cf_pb cfg) (cf_rx cfg) t_at t_nv 1000 /\
  cf_ctype cfg = LastExactLayer /\ library_ok tstate orc /\ reachable tstate ts_eqb cfg 1 2 st /\
  thread_step ts_eqb cfg orc false i st = Panic.
Proof.
  destruct too_many_panics as (st & H1 & H2). exists cfgI, st, orc_fwd, 1%nat.
  split; [exact (t_cfg_solver tabI 1 LastExactLayer 1000 tabI_ok ltac:(lia))|].
  split; [exact (table_well_behaved tabI 1000 tabI_ok)|]. split; [reflexivity|]. split; [apply orc_fwd_ok|]. split; [exact H1|exact H2].
Qed.
Print Assumptions C32_more_threads_refuted.

(** (2) No thread at all: Proved, without any solution, although there is one. *)
Theorem C32_zero_threads_refuted : exists (cfg : config tstate) st,
  good_solver tstate ts_eqb cfg t_at t_nv 1000 /\ well_behaved tstate ts_eqb (cf_pb cfg) (cf_rx cfg) t_at t_nv 1000 /\
  cf_ctype cfg = LastExactLayer /\ reachable tstate ts_eqb cfg 1 0 st /\ proved cfg st /\
  best_value_of cfg st = None /\ optimum tstate (cf_pb cfg) t_nv 10.
Proof.
  destruct (run_look _ _ _ _ _ none_run) as (st & _ & H1 & H2 & H3 & H4 & H5 & H6 & _). exists cfgI, st. cbn in *.
  split; [exact (t_cfg_solver tabI 1 LastExactLayer 1000 tabI_ok ltac:(lia))|]. split; [exact (table_well_behaved tabI 1000 tabI_ok)|].
  split; [reflexivity|]. split; [exact H1|]. split; [exact (conj (H2 eq_refl) H3)|]. split; [exact H6|exact tabI_opt].
Qed.
Print Assumptions C32_zero_threads_refuted.

(** What holds (missing: the two cases above): with at least one thread and at most as many as the solver was created with,
    no step panics and a proved answer is the optimum. *)
Theorem C32_fewer_threads_partial : forall S eqb (cfg : config S) at_depth nv C n m st,
  good_solver S eqb cfg at_depth nv C -> well_behaved S eqb (cf_pb cfg) (cf_rx cfg) at_depth nv C ->
  (cf_ctype cfg = LastExactLayer \/ one_end S cfg at_depth) -> decided_once S cfg nv -> (1 <= m <= n)%nat -> reachable S eqb cfg n m st ->
  (forall orc intr i, library_ok S orc -> thread_step eqb cfg orc intr i st <> Panic) /\
  (proved cfg st -> forall v, optimum S (cf_pb cfg) nv v -> best_value_of cfg st = Some v).
Proof. exact par_threads. Qed.
Print Assumptions C32_fewer_threads_partial.
Example C32_case :
  good_solver tstate ts_eqb cfgI t_at t_nv 1000 /\
  look (run_from cfgI 3 2 (turns 20)) = Some (mk_view true false 10 10 (Some 10) (Some sol10)).
Proof. split; [exact (t_cfg_solver tabI 1 LastExactLayer 1000 tabI_ok ltac:(lia))|]. vm_compute. reflexivity. Qed.
