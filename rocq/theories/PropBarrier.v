(** Property theorems C23-C32 for the solver with thresholds (src/solver/barrier.rs, src/mdd/with_barrier.rs). *)
From Verif Require Import Spec Dd DdSpec MddAll FringeSpec FrontierSpec NoDupFacts FrontierFacts FringeFacts ParSpec MddBarrier BarSpec BarProofs Table TableFacts MddCases ParCases BarCases EndCases.
Open Scope Z_scope.

(* ------------------------------------------------------------------ *)
(** C23. At every moment of every execution, for any number of threads, whatever the cutset type, and without any assumption
    on the estimate and the relaxation beyond well-formedness: either no solution is known, or the solution reported is a
    real one and its value is the value and the lower bound reported. *)
Theorem C23_barrier_solutions_real : forall S eqb (cfg : config S) at_depth nv C n m st,
  good_solver S eqb cfg at_depth nv C -> (m <= n)%nat -> breachable S eqb cfg n m st ->
  (bbest_solution cfg st = None /\ bbest_value cfg st = None /\ blower_bound cfg st = IMIN) \/
  (exists l v, bbest_solution cfg st = Some l /\ bbest_value cfg st = Some v /\ blower_bound cfg st = v /\
     reported_solution S (cf_pb cfg) nv l v).
Proof. exact bar_solution. Qed.
Print Assumptions C23_barrier_solutions_real.
Example C23_barrier_case :
  good_solver tstate ts_eqb cfgI t_at t_nv 1000 /\
  blook (brun cfgI 1 1 (go 43 0 ++ [(0%nat, true)])) = Some (mk_view true true 4 10 (Some 4) (Some sol4)).
Proof. exact (conj (t_cfg_solver tabI 1 LastExactLayer 1000 tabI_ok ltac:(lia)) bar_early_run). Qed.

(* ------------------------------------------------------------------ *)
(** C24. The lower bound never decreases and never exceeds the optimum. *)
Theorem C24_barrier_lower_bound_monotone : forall S eqb (cfg : config S) at_depth nv C n m st st',
  good_solver S eqb cfg at_depth nv C -> (m <= n)%nat -> breachable S eqb cfg n m st -> breaches S eqb cfg st st' ->
  blower_bound cfg st <= blower_bound cfg st'.
Proof. exact bar_monotone. Qed.
Print Assumptions C24_barrier_lower_bound_monotone.
Theorem C24_barrier_lower_bound_valid : forall S eqb (cfg : config S) at_depth nv C n m st v,
  good_solver S eqb cfg at_depth nv C -> (m <= n)%nat -> breachable S eqb cfg n m st -> optimum S (cf_pb cfg) nv v ->
  blower_bound cfg st <= v.
Proof. exact bar_below. Qed.
Print Assumptions C24_barrier_lower_bound_valid.
(** From 3, to 4, to the optimum 10. *)
Example C24_barrier_case :
  good_solver tstate ts_eqb cfgI t_at t_nv 1000 /\ optimum tstate (t_problem tabI) t_nv 10 /\
  option_map v_lb (blook (brun cfgI 1 1 (go 9 0))) = Some 3 /\ option_map v_lb (blook (brun cfgI 1 1 (go 32 0))) = Some 4 /\
  option_map v_lb (blook (brun cfgI 1 1 (go 64 0))) = Some 10.
Proof. split; [exact (t_cfg_solver tabI 1 LastExactLayer 1000 tabI_ok ltac:(lia))|]. split; [exact tabI_opt|]. vm_compute. auto. Qed.

(* ------------------------------------------------------------------ *)
(** C25 is false of this solver too, in the same three ways as of the other one (see PropParallel.v). *)
Theorem C25_barrier_bound_below_incumbent_refuted : exists (cfg : config tstate) st v,
  good_solver tstate ts_eqb cfg t_at t_nv 1000 /\ well_behaved tstate ts_eqb (cf_pb cfg) (cf_rx cfg) t_at t_nv 1000 /\
  cf_ctype cfg = LastExactLayer /\ breachable tstate ts_eqb cfg 1 1 st /\ binterrupted cfg st /\
  optimum tstate (cf_pb cfg) t_nv v /\ bupper_bound cfg st < v /\ blower_bound cfg st = v.
Proof.
  destruct (brun_look _ _ _ _ _ bar_below_run) as (st & _ & H1 & H2 & H3 & H4 & H5 & _). exists cfgI, st, 10. cbn in *.
  split; [exact (t_cfg_solver tabI 1 LastExactLayer 1000 tabI_ok ltac:(lia))|]. split; [exact (table_well_behaved tabI 1000 tabI_ok)|].
  split; [reflexivity|]. split; [exact H1|]. split; [exact (conj (H2 eq_refl) H3)|]. split; [exact tabI_opt|]. rewrite H5. split; [lia|exact H4].
Qed.
Print Assumptions C25_barrier_bound_below_incumbent_refuted.
Theorem C25_barrier_frontier_ignored_refuted : exists (cfg : config tstate) st v,
  good_solver tstate ts_eqb cfg t_at t_nv 1000 /\ well_behaved tstate ts_eqb (cf_pb cfg) (cf_rx cfg) t_at t_nv 1000 /\
  cf_ctype cfg = LastExactLayer /\ breachable tstate ts_eqb cfg 2 2 st /\ binterrupted cfg st /\
  optimum tstate (cf_pb cfg) t_nv v /\ blower_bound cfg st < bupper_bound cfg st < v.
Proof.
  destruct (brun_look _ _ _ _ _ bar_two_run) as (st & _ & H1 & H2 & H3 & H4 & H5 & _). exists cfgI, st, 10. cbn in *.
  split; [exact (t_cfg_solver tabI 1 LastExactLayer 1000 tabI_ok ltac:(lia))|]. split; [exact (table_well_behaved tabI 1000 tabI_ok)|].
  split; [reflexivity|]. split; [exact H1|]. split; [exact (conj (H2 eq_refl) H3)|]. split; [exact tabI_opt|]. rewrite H4, H5. lia.
Qed.
Print Assumptions C25_barrier_frontier_ignored_refuted.
Theorem C25_barrier_bounds_closed_after_interruption_refuted : exists (cfg : config tstate) st v,
  good_solver tstate ts_eqb cfg t_at t_nv 1000 /\ well_behaved tstate ts_eqb (cf_pb cfg) (cf_rx cfg) t_at t_nv 1000 /\
  cf_ctype cfg = LastExactLayer /\ breachable tstate ts_eqb cfg 2 2 st /\ binterrupted cfg st /\
  optimum tstate (cf_pb cfg) t_nv v /\ blower_bound cfg st = bupper_bound cfg st /\ bupper_bound cfg st < v.
Proof.
  destruct (brun_look _ _ _ _ _ bar_reset_run) as (st & _ & H1 & H2 & H3 & H4 & H5 & _). exists cfgJ, st, 10. cbn in *.
  split; [exact (t_cfg_solver tabJ 1 LastExactLayer 1000 tabJ_ok ltac:(lia))|]. split; [exact (table_well_behaved tabJ 1000 tabJ_ok)|].
  split; [reflexivity|]. split; [exact H1|]. split; [exact (conj (H2 eq_refl) H3)|]. split; [exact tabJ_opt|]. rewrite H4, H5. lia.
Qed.
Print Assumptions C25_barrier_bounds_closed_after_interruption_refuted.
(** What holds (missing: several threads, and a bound that is not below the incumbent): with one thread, and the last exact
    layer cutset or a single final state, the optimum is at most the larger of the two bounds reported. *)
Theorem C25_barrier_single_thread_partial : forall S eqb (cfg : config S) at_depth nv C n st v,
  good_solver S eqb cfg at_depth nv C -> well_behaved S eqb (cf_pb cfg) (cf_rx cfg) at_depth nv C ->
  (cf_ctype cfg = LastExactLayer \/ one_end S cfg at_depth) -> decided_once S cfg nv -> (1 <= n)%nat ->
  breachable S eqb cfg n 1 st -> binterrupted cfg st -> optimum S (cf_pb cfg) nv v ->
  v <= Z.max (blower_bound cfg st) (bupper_bound cfg st).
Proof. exact bar_interrupted. Qed.
Print Assumptions C25_barrier_single_thread_partial.
Example C25_barrier_case :
  good_solver tstate ts_eqb cfgI t_at t_nv 1000 /\ optimum tstate (t_problem tabI) t_nv 10 /\
  blook (brun cfgI 1 1 (go 43 0 ++ [(0%nat, true)])) = Some (mk_view true true 4 10 (Some 4) (Some sol4)).
Proof. exact (conj (t_cfg_solver tabI 1 LastExactLayer 1000 tabI_ok ltac:(lia)) (conj tabI_opt bar_early_run)). Qed.

(* ------------------------------------------------------------------ *)
(** C26. There is no infinite execution (apart from waiting threads that would wake up for no reason forever), whatever the
    other threads write to the thresholds in the meantime; and from every state the execution can be continued until every
    thread has left. *)
Theorem C26_barrier_no_infinite_execution : forall S eqb (cfg : config S) at_depth nv C n m st,
  good_solver S eqb cfg at_depth nv C -> (m <= n)%nat -> breachable S eqb cfg n m st ->
  ~ exists f : nat -> bstate S cfg, f 0%nat = st /\ forall k, bstep S eqb cfg (f k) (f (Datatypes.S k)).
Proof. exact bar_no_infinite. Qed.
Print Assumptions C26_barrier_no_infinite_execution.
Theorem C26_barrier_can_finish : forall S eqb (cfg : config S) at_depth nv C n m st,
  good_solver S eqb cfg at_depth nv C -> (m <= n)%nat -> breachable S eqb cfg n m st ->
  exists st', breaches S eqb cfg st st' /\ ball_done cfg st'.
Proof. exact bar_ends. Qed.
Print Assumptions C26_barrier_can_finish.
(** The same problem finishes with either cutset; not before the last step. *)
Example C26_barrier_case :
  good_solver tstate ts_eqb (cfgF Frontier) t_at t_nv 1000 /\ good_solver tstate ts_eqb (cfgF LastExactLayer) t_at t_nv 1000 /\
  option_map v_done (blook (brun (cfgF Frontier) 1 1 (go 54 0))) = Some true /\
  option_map v_done (blook (brun (cfgF LastExactLayer) 1 1 (go 52 0))) = Some false /\
  option_map v_done (blook (brun (cfgF LastExactLayer) 1 1 (go 53 0))) = Some true.
Proof.
  split; [exact (t_cfg_solver tabF 2 Frontier 1000 tabF_ok ltac:(lia))|]. split; [exact (t_cfg_solver tabF 2 LastExactLayer 1000 tabF_ok ltac:(lia))|].
  vm_compute. auto.
Qed.

(* ------------------------------------------------------------------ *)
(** C27. As long as some thread has not left, some thread can move whatever the libraries do; a waiting thread is always
    accompanied by a busy one, whose report will wake it; and no step panics (so no counter underflows and no index is out
    of bounds). *)
Theorem C27_barrier_no_deadlock : forall S eqb (cfg : config S) at_depth nv C n m st,
  good_solver S eqb cfg at_depth nv C -> (m <= n)%nat -> breachable S eqb cfg n m st ->
  ball_done cfg st \/ bcan_move S eqb cfg st.
Proof. exact bar_no_deadlock. Qed.
Print Assumptions C27_barrier_no_deadlock.
Theorem C27_barrier_waiting_is_accompanied : forall S eqb (cfg : config S) at_depth nv C n m st t,
  good_solver S eqb cfg at_depth nv C -> (m <= n)%nat -> breachable S eqb cfg n m st ->
  In t (q_threads st) -> u_pc t = BWait -> exists t', In t' (q_threads st) /\ bbusy S t'.
Proof. exact bar_waiting. Qed.
Print Assumptions C27_barrier_waiting_is_accompanied.
Theorem C27_barrier_no_panic : forall S eqb (cfg : config S) at_depth nv C n m st orc intr i,
  good_solver S eqb cfg at_depth nv C -> (m <= n)%nat -> breachable S eqb cfg n m st -> library_ok S orc ->
  bthread_step eqb cfg orc intr i st <> BPanic.
Proof. exact bar_no_panic. Qed.
Print Assumptions C27_barrier_no_panic.
(** The second thread waits while the first one starts with the root, and is woken when the root has been processed. *)
Example C27_barrier_case :
  good_solver tstate ts_eqb cfgI t_at t_nv 1000 /\
  places (brun cfgI 2 2 (go 4 0 ++ go 2 1)) = Some [AtStart (t_root tabI); AtWait] /\
  places (brun cfgI 2 2 (go 4 0 ++ go 2 1 ++ go 19 0)) = Some [AtIdle; AtIdle].
Proof. split; [exact (t_cfg_solver tabI 1 LastExactLayer 1000 tabI_ok ltac:(lia))|]. vm_compute. auto. Qed.

(* ------------------------------------------------------------------ *)
(** C28 with one thread (missing: several threads, for which see [C28_three_threads_refuted] in PropRace.v). When the solver
    with thresholds and the last exact layer cutset answers Proved, it answers the optimum and both bounds agree. *)
Theorem C28_single_thread_partial : forall S eqb (cfg : config S) at_depth nv C n st,
  good_solver S eqb cfg at_depth nv C -> well_behaved S eqb (cf_pb cfg) (cf_rx cfg) at_depth nv C ->
  cf_ctype cfg = LastExactLayer -> decided_once S cfg nv -> (1 <= n)%nat ->
  breachable S eqb cfg n 1 st -> bproved cfg st ->
  bupper_bound cfg st = blower_bound cfg st /\
  match bbest_value cfg st with
  | Some v => optimum S (cf_pb cfg) nv v /\ blower_bound cfg st = v /\
              exists l, bbest_solution cfg st = Some l /\ reported_solution S (cf_pb cfg) nv l v
  | None => infeasible S (cf_pb cfg) nv /\ bbest_solution cfg st = None
  end.
Proof. exact bar_optimum. Qed.
Print Assumptions C28_single_thread_partial.
(** [maximize] never interrupts: once the thread has left, its answer is the optimum. *)
Theorem C28_single_thread_maximize_partial : forall S eqb (cfg : config S) at_depth nv C n st,
  good_solver S eqb cfg at_depth nv C -> well_behaved S eqb (cf_pb cfg) (cf_rx cfg) at_depth nv C ->
  cf_ctype cfg = LastExactLayer -> decided_once S cfg nv -> (1 <= n)%nat ->
  bmaximize_reaches S eqb cfg n 1 st -> ball_done cfg st ->
  match bbest_value cfg st with
  | Some v => optimum S (cf_pb cfg) nv v /\ exists l, bbest_solution cfg st = Some l /\ reported_solution S (cf_pb cfg) nv l v
  | None => infeasible S (cf_pb cfg) nv /\ bbest_solution cfg st = None
  end.
Proof. exact bar_maximize. Qed.
Print Assumptions C28_single_thread_maximize_partial.
(** On the table where a subproblem is discarded because of its threshold, and on two others. *)
Example C28_case :
  good_solver tstate ts_eqb cfgB t_at t_nv 1000 /\ well_behaved tstate ts_eqb (t_problem tabB) (t_relax tabB) t_at t_nv 1000 /\
  decided_once tstate cfgB t_nv /\ optimum tstate (t_problem tabB) t_nv 18 /\
  option_map v_val (blook (brun cfgB 1 1 (go 108 0))) = Some (Some 18) /\
  blook (brun cfgI 1 1 (go 73 0)) = Some (mk_view true false 10 10 (Some 10) (Some sol10)) /\
  blook (brun (cfgF LastExactLayer) 1 1 (go 53 0)) = Some (mk_view true false 8 8 (Some 8) (Some solF8)).
Proof.
  split; [exact (t_cfg_solver tabB 1 LastExactLayer 1000 tabB_ok ltac:(lia))|]. split; [exact (table_well_behaved tabB 1000 tabB_ok)|].
  split; [exact (t_decided_once tabB 1 LastExactLayer)|]. split; [exact tabB_opt|]. split; [vm_compute; reflexivity|]. split; [exact bar_one_run|exact bar_lel_run].
Qed.

(* ------------------------------------------------------------------ *)
(** C29 with one thread, and the last exact layer cutset or a single final state. (1) A subproblem that was popped and is going to be discarded because of the threshold of its state:
    each of its completions is still promised without it, by the incumbent or by a pending subproblem. *)
Theorem C29_popped_partial : forall S eqb (cfg : config S) at_depth nv C inv content n st t d i,
  good_config S eqb cfg at_depth nv C True inv content -> well_behaved S eqb (cf_pb cfg) (cf_rx cfg) at_depth nv C ->
  (cf_ctype cfg = LastExactLayer \/ one_end S cfg at_depth) -> decided_once S cfg nv -> (1 <= n)%nat -> breachable S eqb cfg n 1 st ->
  c_interrupted (k_c (q_crit st)) = false -> q_threads st = [mk_bth (BTry t) d] ->
  threshold_of S eqb cfg st (depth_of t) (sp_state t) = Some i ->
  sp_value t < b_theta i \/ (sp_value t = b_theta i /\ b_explored i = true) ->
  forall ds x, completes S (cf_pb cfg) nv t ds x ->
  still_promised S cfg nv (content (c_fringe (k_c (q_crit st)))) (blower_bound cfg st) x.
Proof. exact bar_popped. Qed.
Print Assumptions C29_popped_partial.
(** (2) A partial assignment below the subproblem being processed, met by one of its compilations and whose value does not
    exceed the threshold recorded for its state when the compilation starts: each of its completions is still promised by
    the incumbent or by a pending subproblem. (Missing in both: several threads, and the frontier cutset with several final states. A relaxed compilation also writes
    thresholds, but only for layers it has already gone through.) *)
Theorem C29_compiling_partial : forall S eqb (cfg : config S) at_depth nv C inv content n st t p d q i,
  good_config S eqb cfg at_depth nv C True inv content -> well_behaved S eqb (cf_pb cfg) (cf_rx cfg) at_depth nv C ->
  (cf_ctype cfg = LastExactLayer \/ one_end S cfg at_depth) -> decided_once S cfg nv -> (1 <= n)%nat -> breachable S eqb cfg n 1 st ->
  c_interrupted (k_c (q_crit st)) = false -> q_threads st = [mk_bth p d] ->
  p = BStart t \/ (exists y, p = BRelax t y) \/ (exists y, p = BRestrict t y) ->
  genuine S (cf_pb cfg) nv q -> (depth_of t < depth_of q)%nat ->
  threshold_of S eqb cfg st (depth_of q) (sp_state q) = Some i -> sp_value q <= b_theta i ->
  forall ds x, completes S (cf_pb cfg) nv q ds x ->
  still_promised S cfg nv (content (c_fringe (k_c (q_crit st)))) (blower_bound cfg st) x.
Proof. exact bar_compiling. Qed.
Print Assumptions C29_compiling_partial.
(** [subB] has a completion of value 14, no solution is known, and it is discarded since value 11 was recorded for its state;
    the threshold 7 of its state was recorded before its other parent is compiled. *)
Example C29_case :
  good_config tstate ts_eqb cfgB t_at t_nv 1000 True (NoDupFacts.Inv tstate t_rank) (nd_list tstate) /\
  genuine tstate (t_problem tabB) t_nv subB /\
  completes tstate (t_problem tabB) t_nv subB [mk_dec 2 1; mk_dec 3 0; mk_dec 4 1] 14 /\
  places (brun cfgB 1 1 (go 78 0)) = Some [AtTry subB] /\
  option_map v_lb (blook (brun cfgB 1 1 (go 78 0))) = Some IMIN /\
  option_map (fun T => tget ts_eqb (nth 2 T []) (2%nat, 2)) (table_at (brun cfgB 1 1 (go 78 0))) = Some (Some (mk_info 11 true)) /\
  places (brun cfgB 1 1 (go 53 0)) = Some [AtStart (mk_sub (1%nat, 2) 5 [mk_dec 0 0] 27)] /\
  option_map (fun T => tget ts_eqb (nth 2 T []) (2%nat, 2)) (table_at (brun cfgB 1 1 (go 53 0))) = Some (Some (mk_info 7 false)).
Proof.
  split; [exact (t_cfg_good tabB 1 LastExactLayer 1000 tabB_ok ltac:(lia))|]. split; [exact subB_genuine|]. split; [exact subB_completes|].
  vm_compute. auto 10.
Qed.

(* ------------------------------------------------------------------ *)
(** C30 is false of the solver with thresholds: with the frontier cutset, a run answers Proved with 7 although the optimum
    is 8. *)
Theorem C30_barrier_frontier_cutset_refuted : exists (cfg : config tstate) st,
  good_solver tstate ts_eqb cfg t_at t_nv 1000 /\ well_behaved tstate ts_eqb (cf_pb cfg) (cf_rx cfg) t_at t_nv 1000 /\
  decided_once tstate cfg t_nv /\ cf_ctype cfg = Frontier /\ breachable tstate ts_eqb cfg 1 1 st /\ bproved cfg st /\
  bbest_value cfg st = Some 7 /\ optimum tstate (cf_pb cfg) t_nv 8.
Proof.
  destruct (brun_look _ _ _ _ _ bar_frontier_run) as (st & _ & H1 & H2 & H3 & H4 & H5 & H6 & _). exists (cfgF Frontier), st. cbn in *.
  split; [exact (t_cfg_solver tabF 2 Frontier 1000 tabF_ok ltac:(lia))|]. split; [exact (table_well_behaved tabF 1000 tabF_ok)|].
  split; [exact (t_decided_once tabF 2 Frontier)|]. split; [reflexivity|]. split; [exact H1|]. split; [exact (conj (H2 eq_refl) H3)|]. split; [exact H6|exact tabF_opt].
Qed.
Print Assumptions C30_barrier_frontier_cutset_refuted.

(** What holds with either cutset and one thread: when all full assignments lead to the same state, a proved answer is the
    optimum. Missing: problems with several final states, such as the one above, and several threads, which are refuted with
    the last exact layer cutset already ([C28_three_threads_refuted]). *)
Theorem C30_barrier_one_end_partial : forall S eqb (cfg : config S) at_depth nv C n st,
  good_solver S eqb cfg at_depth nv C -> well_behaved S eqb (cf_pb cfg) (cf_rx cfg) at_depth nv C ->
  one_end S cfg at_depth -> decided_once S cfg nv -> (1 <= n)%nat -> breachable S eqb cfg n 1 st -> bproved cfg st ->
  bupper_bound cfg st = blower_bound cfg st /\
  match bbest_value cfg st with
  | Some v => optimum S (cf_pb cfg) nv v /\ blower_bound cfg st = v /\
              exists l, bbest_solution cfg st = Some l /\ reported_solution S (cf_pb cfg) nv l v
  | None => infeasible S (cf_pb cfg) nv /\ bbest_solution cfg st = None
  end.
Proof. exact bar_one_end. Qed.
Print Assumptions C30_barrier_one_end_partial.
(** The problem of the refutation with its two final states made one: the frontier cutset finds 8. *)
Example C30_barrier_one_end_case :
  good_solver tstate ts_eqb (cfgG Frontier) (t_at1 tabG) t_nv 1000 /\
  well_behaved tstate ts_eqb (t_problem tabG) (t_relax tabG) (t_at1 tabG) t_nv 1000 /\ one_end tstate (cfgG Frontier) (t_at1 tabG) /\
  optimum tstate (t_problem tabG) t_nv 8 /\
  blook (brun (cfgG Frontier) 1 1 (go 60 0)) = Some (mk_view true false 8 8 (Some 8) (Some solG8)).
Proof.
  split; [exact (end_solver tabG 1000 tabG_ok tabG_end 2 Frontier ltac:(lia))|]. split; [exact (end_well_behaved tabG 1000 tabG_ok tabG_end)|].
  split; [exact (end_one tabG 2 Frontier)|]. split; [exact tabG_opt|]. vm_compute. reflexivity.
Qed.

(* ------------------------------------------------------------------ *)
(** C31. When the entry of a state of layer [k] is dropped, every pending subproblem and every subproblem some thread has in
    hand lies in a deeper layer; for any number of threads and any schedule. *)
Theorem C31_layers_dropped_safely : forall S eqb (cfg : config S) at_depth nv C n m inv content st st' k s,
  good_config S eqb cfg at_depth nv C True inv content -> (m <= n)%nat -> breachable S eqb cfg n m st -> bstep S eqb cfg st st' ->
  threshold_of S eqb cfg st k s <> None -> threshold_of S eqb cfg st' k s = None ->
  (forall q, In q (content (c_fringe (k_c (q_crit st)))) -> (k < depth_of q)%nat) /\
  (forall t j, In t (q_threads st) -> in_hand S t j -> (k < j)%nat).
Proof. exact bar_dropped. Qed.
Print Assumptions C31_layers_dropped_safely.
(** The counters: one per layer, the running ones exact, the pending ones never too small, and no step makes one underflow
    (nor panics in any other way). *)
Theorem C31_counters : forall S eqb (cfg : config S) at_depth nv C n m inv content st k,
  good_config S eqb cfg at_depth nv C True inv content -> (m <= n)%nat -> breachable S eqb cfg n m st ->
  (k <= pb_nb_vars (cf_pb cfg))%nat ->
  (exists g, nth_error (k_ongoing (q_crit st)) k = Some g /\ g = length (filter (runs_in S k) (q_threads st))) /\
  (exists o, nth_error (k_open (q_crit st)) k = Some o /\
     (length (filter (fun q => Nat.eqb (depth_of q) k) (content (c_fringe (k_c (q_crit st))))) +
      length (filter (tries_in S k) (q_threads st)) <= o)%nat).
Proof. exact bar_counters. Qed.
Print Assumptions C31_counters.
Theorem C31_no_underflow : forall S eqb (cfg : config S) at_depth nv C n m st orc intr i,
  good_solver S eqb cfg at_depth nv C -> (m <= n)%nat -> breachable S eqb cfg n m st -> library_ok S orc ->
  bthread_step eqb cfg orc intr i st <> BPanic.
Proof. exact bar_no_panic. Qed.
Print Assumptions C31_no_underflow.
(** The root's layer is dropped once it has been processed, when two subproblems of the next layer are pending; then both
    are running. *)
Example C31_case :
  good_config tstate ts_eqb cfgI t_at t_nv 1000 True (NoDupFacts.Inv tstate t_rank) (nd_list tstate) /\
  option_map (fun T => nth 0 T []) (table_at (brun cfgI 2 2 (go 24 0))) = Some [(0%nat, 0, mk_info 0 true)] /\
  option_map (fun T => nth 0 T []) (table_at (brun cfgI 2 2 (go 25 0))) = Some [] /\
  counters (brun cfgI 2 2 (go 24 0)) = Some (0, [0; 2; 0; 0; 0], [0; 0; 0; 0; 0])%nat /\
  counters (brun cfgI 2 2 (go 28 0 ++ go 4 1)) = Some (1, [0; 0; 0; 0; 0], [0; 2; 0; 0; 0])%nat.
Proof.
  split; [exact (t_cfg_good tabI 1 LastExactLayer 1000 tabI_ok ltac:(lia))|]. vm_compute. auto 10.
Qed.

(* ------------------------------------------------------------------ *)
(** C32 is false of this solver as well. (1) More threads than the solver was created with: a thread panics. *)
Theorem C32_barrier_more_threads_refuted : exists (cfg : config tstate) st orc i,
  good_solver tstate ts_eqb cfg t_at t_nv 1000 /\ well_behaved tstate ts_eqb (cf_pb cfg) (cf_rx cfg) t_at t_nv 1000 /\
  cf_ctype cfg = LastExactLayer /\ library_ok tstate orc /\ breachable tstate ts_eqb cfg 1 2 st /\
  bthread_step ts_eqb cfg orc false i st = BPanic.
Proof.
  destruct bar_too_many_panics as (st & H1 & H2). exists cfgI, st, orc_fwd, 1%nat.
  split; [exact (t_cfg_solver tabI 1 LastExactLayer 1000 tabI_ok ltac:(lia))|].
  split; [exact (table_well_behaved tabI 1000 tabI_ok)|]. split; [reflexivity|]. split; [apply orc_fwd_ok|]. split; [exact H1|exact H2].
Qed.
Print Assumptions C32_barrier_more_threads_refuted.
(** (2) No thread at all: Proved, without any solution, although there is one. *)
Theorem C32_barrier_zero_threads_refuted : exists (cfg : config tstate) st,
  good_solver tstate ts_eqb cfg t_at t_nv 1000 /\ well_behaved tstate ts_eqb (cf_pb cfg) (cf_rx cfg) t_at t_nv 1000 /\
  cf_ctype cfg = LastExactLayer /\ breachable tstate ts_eqb cfg 1 0 st /\ bproved cfg st /\
  bbest_value cfg st = None /\ optimum tstate (cf_pb cfg) t_nv 10.
Proof.
  destruct (brun_look _ _ _ _ _ bar_none_run) as (st & _ & H1 & H2 & H3 & H4 & H5 & H6 & _). exists cfgI, st. cbn in *.
  split; [exact (t_cfg_solver tabI 1 LastExactLayer 1000 tabI_ok ltac:(lia))|]. split; [exact (table_well_behaved tabI 1000 tabI_ok)|].
  split; [reflexivity|]. split; [exact H1|]. split; [exact (conj (H2 eq_refl) H3)|]. split; [exact H6|exact tabI_opt].
Qed.
Print Assumptions C32_barrier_zero_threads_refuted.
(** What holds (missing: the two cases above, and several threads): a solver created for any number of threads and used with
    one of them never panics, and a proved answer is the optimum. *)
Theorem C32_barrier_one_thread_partial : forall S eqb (cfg : config S) at_depth nv C n st,
  good_solver S eqb cfg at_depth nv C -> well_behaved S eqb (cf_pb cfg) (cf_rx cfg) at_depth nv C ->
  (cf_ctype cfg = LastExactLayer \/ one_end S cfg at_depth) -> decided_once S cfg nv -> (1 <= n)%nat -> breachable S eqb cfg n 1 st ->
  (forall orc intr i, library_ok S orc -> bthread_step eqb cfg orc intr i st <> BPanic) /\
  (bproved cfg st -> forall v, optimum S (cf_pb cfg) nv v -> bbest_value cfg st = Some v).
Proof. exact bar_threads. Qed.
Print Assumptions C32_barrier_one_thread_partial.
Example C32_barrier_case :
  good_solver tstate ts_eqb cfgI t_at t_nv 1000 /\
  blook (brun cfgI 3 1 (go 73 0)) = Some (mk_view true false 10 10 (Some 10) (Some sol10)).
Proof. split; [exact (t_cfg_solver tabI 1 LastExactLayer 1000 tabI_ok ltac:(lia))|]. vm_compute. reflexivity. Qed.
