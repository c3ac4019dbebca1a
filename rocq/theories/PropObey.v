(** Property theorems C65: an interruption is obeyed (src/solver/parallel.rs, src/solver/barrier.rs). *)
From Verif Require Import Spec Dd DdSpec Fringe FringeSpec ParSpec BarSpec Table TableFacts MddCases ParCases BarCases ObeySpec ObeyProofs ObeyBarProofs ObeyCases.
Open Scope Z_scope.

(** C65: a thread to which [interrupt()] answers yes leaves, without taking a subproblem; from then on the search is marked as interrupted, unless it
    was over. *)
Theorem C65_asked : forall S eqb (cfg : config S) orc i st st' t,
  nth_error (s_threads st) i = Some t -> t_pc t = PIdle -> thread_step eqb cfg orc true i st = Next st' ->
  (exists t', nth_error (s_threads st') i = Some t' /\ t_pc t' = PDone) /\ c_explored (s_crit st') = c_explored (s_crit st) /\
  (c_interrupted (s_crit st') = true \/ c_ongoing (s_crit st) = 0%nat /\ fr_empty (cf_fr cfg) (c_fringe (s_crit st)) = true).
Proof. exact asked_stops. Qed.
Print Assumptions C65_asked.
Theorem C65_barrier_asked : forall S eqb (cfg : config S) orc i st st' t,
  nth_error (q_threads st) i = Some t -> u_pc t = BClean -> clean_turn cfg (q_crit st) (q_table st) = Some None -> bthread_step eqb cfg orc true i st = BNext st' ->
  (exists t', nth_error (q_threads st') i = Some t' /\ u_pc t' = BDone) /\ c_explored (k_c (q_crit st')) = c_explored (k_c (q_crit st)) /\
  (c_interrupted (k_c (q_crit st')) = true \/ c_ongoing (k_c (q_crit st)) = 0%nat /\ fr_empty (cf_fr cfg) (c_fringe (k_c (q_crit st))) = true).
Proof. exact basked_stops. Qed.
Print Assumptions C65_barrier_asked.

(** Once the search is marked as interrupted, no subproblem is taken any more, whatever happens: the threads end within six critical sections each,
    and compile at most two more diagrams for each subproblem that was in hand. *)
Theorem C65_no_more_work : forall S eqb (cfg : config S) st k d st',
  c_interrupted (s_crit st) = true -> pexec S eqb cfg k d st st' ->
  c_interrupted (s_crit st') = true /\ c_explored (s_crit st') = c_explored (s_crit st) /\ (k <= 6 * length (s_threads st))%nat /\
  (d <= 2 * length (filter (in_charge S) (s_threads st)))%nat.
Proof. exact exec_obeys. Qed.
Print Assumptions C65_no_more_work.
Theorem C65_barrier_no_more_work : forall S eqb (cfg : config S) n m st d st',
  breachable S eqb cfg n m st -> c_interrupted (k_c (q_crit st)) = true -> qexec S eqb cfg d st st' ->
  c_interrupted (k_c (q_crit st')) = true /\ c_explored (k_c (q_crit st')) = c_explored (k_c (q_crit st)) /\
  (d <= 2 * length (filter (bin_charge S) (q_threads st)))%nat.
Proof. exact qexec_obeys. Qed.
Print Assumptions C65_barrier_no_more_work.
(** Two threads hold a subproblem when the third one is told to stop: they finish in six steps and two diagrams each. *)
Example C65_case :
  (exists st st', reachable tstate ts_eqb cfgI 3 3 st /\ pexec tstate ts_eqb cfgI 12 4 st st' /\ c_interrupted (s_crit st) = true /\ c_explored (s_crit st) = 3%nat /\
    length (filter (in_charge tstate) (s_threads st)) = 2%nat /\ c_explored (s_crit st') = 3%nat /\ all_done cfgI st') /\
  (exists st st', breachable tstate ts_eqb cfgI 3 3 st /\ qexec tstate ts_eqb cfgI 3 st st' /\ c_interrupted (k_c (q_crit st)) = true /\ c_explored (k_c (q_crit st)) = 3%nat /\
    length (filter (bin_charge tstate) (q_threads st)) = 2%nat /\ c_explored (k_c (q_crit st')) = 3%nat /\ ball_done cfgI st').
Proof. exact (conj obeyed bobeyed). Qed.

(** If [interrupt()] answers yes from the start, nothing is explored and no value is reported. The upper bound then depends on the number of threads
    alone: with one it is [isize::MAX], with two or more always [isize::MIN], as if there were no solution (C25). *)
Theorem C65_stopped_at_once : forall S eqb (cfg : config S) merging inv content, frontier_ok merging (cf_fr cfg) inv content ->
  forall n m st, (1 <= m)%nat -> refused S eqb cfg n m st ->
  c_explored (s_crit st) = 0%nat /\ best_value_of cfg st = None /\
  (all_done cfg st -> interrupted cfg st /\ lower_bound_of cfg st = IMIN /\ upper_bound_of cfg st = if (m =? 1)%nat then IMAX else IMIN).
Proof. exact refused_end. Qed.
Print Assumptions C65_stopped_at_once.
Theorem C65_barrier_stopped_at_once : forall S eqb (cfg : config S) merging inv content, frontier_ok merging (cf_fr cfg) inv content ->
  forall n m st, (1 <= m)%nat -> brefused S eqb cfg n m st ->
  c_explored (k_c (q_crit st)) = 0%nat /\ bbest_value cfg st = None /\
  (ball_done cfg st -> binterrupted cfg st /\ blower_bound cfg st = IMIN /\ bupper_bound cfg st = if (m =? 1)%nat then IMAX else IMIN).
Proof. exact brefused_end. Qed.
Print Assumptions C65_barrier_stopped_at_once.
Example C65_stopped_case : optimum tstate (t_problem tabI) t_nv 10 /\
  (exists st, refused tstate ts_eqb cfgI 2 2 st /\ all_done cfgI st /\ upper_bound_of cfgI st = IMIN) /\
  (exists st, brefused tstate ts_eqb cfgI 2 2 st /\ ball_done cfgI st /\ bupper_bound cfgI st = IMIN).
Proof. exact (conj tabI_opt (conj (proj2 refused_case) (proj2 brefused_case))). Qed.
