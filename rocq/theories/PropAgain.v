(** C63: several calls of [maximize] or [maximize_with_interrupt] on the same solver. *)
From Verif Require Import Spec DdSpec AgainSpec AgainProofs AgainBar Table TableFacts MddCases ParCases BarCases AgainCases.
Open Scope Z_scope.

(* ------------------------------------------------------------------ *)
(** [ParallelSolver]. However many calls there have been, on between 1 and [n] threads each and stopped early or not: no thread panics,
    a thread can move unless all are done, every call ends, and once it has ended another can be made. *)
Theorem C63_parallel_runs : forall S eqb (cfg : config S) at_depth nv C n st, good_solver S eqb cfg at_depth nv C -> session S eqb cfg n st ->
  (forall orc intr i, library_ok S orc -> thread_step eqb cfg orc intr i st <> Panic) /\
  (all_done cfg st \/ can_move S eqb cfg st) /\
  (~ exists f : nat -> state S cfg, f 0%nat = st /\ forall k, step S eqb cfg (f k) (f (Datatypes.S k))) /\
  (forall m, all_done cfg st -> (m <= n)%nat -> exists st', again cfg m st = Some st').
Proof. exact par_again_runs. Qed.
Print Assumptions C63_parallel_runs.
(** Each call keeps the best solution of those before it, or replaces it by a better one; it is always a solution of the problem. *)
Theorem C63_parallel_sound : forall S eqb (cfg : config S) at_depth nv C n st st', good_solver S eqb cfg at_depth nv C ->
  session S eqb cfg n st -> later S eqb cfg n st st' ->
  lower_bound_of cfg st <= lower_bound_of cfg st' /\
  ((best_solution_of cfg st' = None /\ best_value_of cfg st' = None /\ lower_bound_of cfg st' = IMIN) \/
   (exists l v, best_solution_of cfg st' = Some l /\ best_value_of cfg st' = Some v /\ lower_bound_of cfg st' = v /\ reported_solution S (cf_pb cfg) nv l v)).
Proof. exact par_again_sound. Qed.
Print Assumptions C63_parallel_sound.

(** A second call, not told to stop, should find the optimum whatever the first did. It does not when the first was interrupted: the
    second, though it is [maximize], ends at once, with the answer of the first. *)
Theorem C63_parallel_refuted : exists (cfg : config tstate) st st' st'',
  good_solver tstate ts_eqb cfg t_at t_nv 1000 /\ well_behaved tstate ts_eqb (cf_pb cfg) (cf_rx cfg) t_at t_nv 1000 /\ cf_ctype cfg = LastExactLayer /\
  decided_once tstate cfg t_nv /\ reachable tstate ts_eqb cfg 1 1 st /\ interrupted cfg st /\ again cfg 1 st = Some st' /\ maximizes tstate ts_eqb cfg st' st'' /\
  all_done cfg st'' /\ best_value_of cfg st'' = Some 4 /\ optimum tstate (cf_pb cfg) t_nv 10.
Proof.
  destruct (two_look _ _ _ _ _ (go 50 0) _ _ early_run eq_refl (conj (le_n 1) (le_n 1)) eq_refl stopped_again eq_refl) as (a & b & c & H1 & H2 & H3 & _ & H5 & H6 & _ & H8 & _ & H10).
  exists cfgI, a, b, c. split; [exact (t_cfg_solver tabI 1 LastExactLayer 1000 tabI_ok ltac:(lia))|]. split; [exact (table_well_behaved tabI 1000 tabI_ok)|].
  split; [reflexivity|]. split; [apply t_decided_once|]. split; [exact H1|]. split; [exact (conj H2 H3)|]. split; [exact H5|]. split; [exact H6|]. split; [exact H8|].
  split; [exact H10|exact tabI_opt].
Qed.
Print Assumptions C63_parallel_refuted.
(** This is always so: once a call has been interrupted, no later call looks at any subproblem, and the answer, the bounds and the
    counters stay as they are. *)
Theorem C63_parallel_interrupted_for_good : forall S eqb (cfg : config S) at_depth nv C n st st', good_solver S eqb cfg at_depth nv C ->
  session S eqb cfg n st -> interrupted cfg st -> later S eqb cfg n st st' ->
  c_interrupted (s_crit st') = true /\ best_value_of cfg st' = best_value_of cfg st /\ best_solution_of cfg st' = best_solution_of cfg st /\
  lower_bound_of cfg st' = lower_bound_of cfg st /\ upper_bound_of cfg st' = upper_bound_of cfg st /\
  c_explored (s_crit st') = c_explored (s_crit st) /\ c_explored_dd (s_crit st') = c_explored_dd (s_crit st).
Proof. exact par_interrupted_for_good. Qed.
Print Assumptions C63_parallel_interrupted_for_good.
Example C63_parallel_interrupted_case : good_solver tstate ts_eqb cfgI t_at t_nv 1000 /\
  look (two_calls cfgI 1 1 (go 12 0 ++ [(0, true)]%nat) 1 (go 50 0)) = Some (mk_view true true 4 10 (Some 4) (Some sol4)).
Proof. split; [exact (t_cfg_solver tabI 1 LastExactLayer 1000 tabI_ok ltac:(lia))|exact stopped_again]. Qed.

(** What holds (missing: the call interrupted earlier of [C63_parallel_refuted]): after any number of calls, if the last one
    reports an exact answer it is the optimum, or there is no solution; and the two bounds agree. *)
Theorem C63_parallel_answer_partial : forall S eqb (cfg : config S) at_depth nv C n st, good_solver S eqb cfg at_depth nv C ->
  well_behaved S eqb (cf_pb cfg) (cf_rx cfg) at_depth nv C -> cf_ctype cfg = LastExactLayer \/ one_end S cfg at_depth -> decided_once S cfg nv ->
  session S eqb cfg n st -> proved cfg st ->
  upper_bound_of cfg st = lower_bound_of cfg st /\
  match best_value_of cfg st with
  | Some v => optimum S (cf_pb cfg) nv v /\ exists l, best_solution_of cfg st = Some l /\ reported_solution S (cf_pb cfg) nv l v
  | None => infeasible S (cf_pb cfg) nv /\ best_solution_of cfg st = None
  end.
Proof. exact par_session_answer. Qed.
Print Assumptions C63_parallel_answer_partial.
(** Once proved, the answer stays: a later call changes neither the solution nor its value, even if that call is interrupted. *)
Theorem C63_parallel_kept_partial : forall S eqb (cfg : config S) at_depth nv C n m st st', good_solver S eqb cfg at_depth nv C ->
  well_behaved S eqb (cf_pb cfg) (cf_rx cfg) at_depth nv C -> cf_ctype cfg = LastExactLayer \/ one_end S cfg at_depth -> decided_once S cfg nv ->
  (1 <= m <= n)%nat -> reachable S eqb cfg n m st -> proved cfg st -> later S eqb cfg n st st' ->
  best_value_of cfg st' = best_value_of cfg st /\ best_solution_of cfg st' = best_solution_of cfg st /\ lower_bound_of cfg st' = lower_bound_of cfg st /\
  (c_interrupted (s_crit st') = false -> upper_bound_of cfg st' = lower_bound_of cfg st') /\
  match best_value_of cfg st' with
  | Some v => optimum S (cf_pb cfg) nv v /\ exists l, best_solution_of cfg st' = Some l /\ reported_solution S (cf_pb cfg) nv l v
  | None => infeasible S (cf_pb cfg) nv /\ best_solution_of cfg st' = None
  end.
Proof. exact par_again_answer. Qed.
Print Assumptions C63_parallel_kept_partial.
Example C63_parallel_case : good_solver tstate ts_eqb cfgI t_at t_nv 1000 /\ well_behaved tstate ts_eqb (cf_pb cfgI) (cf_rx cfgI) t_at t_nv 1000 /\
  decided_once tstate cfgI t_nv /\
  look (two_calls cfgI 2 2 (turns 20) 2 (turns 20)) = Some (mk_view true false 10 10 (Some 10) (Some sol10)).
Proof.
  split; [exact (t_cfg_solver tabI 1 LastExactLayer 1000 tabI_ok ltac:(lia))|]. split; [exact (table_well_behaved tabI 1000 tabI_ok)|].
  split; [apply t_decided_once|exact solved_again].
Qed.

(* ------------------------------------------------------------------ *)
(** [ParBarrierSolver]. However many calls there have been, on between 1 and [n] threads each and stopped early or not: no thread panics,
    a thread can move unless all are done, every call ends, and once it has ended another can be made. *)
Theorem C63_barrier_runs : forall S eqb (cfg : config S) at_depth nv C n st, good_solver S eqb cfg at_depth nv C -> bsession S eqb cfg n st ->
  (forall orc intr i, library_ok S orc -> bthread_step eqb cfg orc intr i st <> BPanic) /\
  (ball_done cfg st \/ bcan_move S eqb cfg st) /\
  (~ exists f : nat -> bstate S cfg, f 0%nat = st /\ forall k, bstep S eqb cfg (f k) (f (Datatypes.S k))) /\
  (forall m, ball_done cfg st -> (m <= n)%nat -> exists st', bagain cfg m st = Some st').
Proof. exact bar_again_runs. Qed.
Print Assumptions C63_barrier_runs.
(** Each call keeps the best solution of those before it, or replaces it by a better one; it is always a solution of the problem. *)
Theorem C63_barrier_sound : forall S eqb (cfg : config S) at_depth nv C n st st', good_solver S eqb cfg at_depth nv C ->
  bsession S eqb cfg n st -> blater S eqb cfg n st st' ->
  blower_bound cfg st <= blower_bound cfg st' /\
  ((bbest_solution cfg st' = None /\ bbest_value cfg st' = None /\ blower_bound cfg st' = IMIN) \/
   (exists l v, bbest_solution cfg st' = Some l /\ bbest_value cfg st' = Some v /\ blower_bound cfg st' = v /\ reported_solution S (cf_pb cfg) nv l v)).
Proof. exact bar_again_sound. Qed.
Print Assumptions C63_barrier_sound.

(** A second call, not told to stop, should find the optimum whatever the first did. It does not when the first was interrupted: the
    second, though it is [maximize], ends at once, with the answer of the first. *)
Theorem C63_barrier_refuted : exists (cfg : config tstate) st st' st'',
  good_solver tstate ts_eqb cfg t_at t_nv 1000 /\ well_behaved tstate ts_eqb (cf_pb cfg) (cf_rx cfg) t_at t_nv 1000 /\ cf_ctype cfg = LastExactLayer /\
  decided_once tstate cfg t_nv /\ breachable tstate ts_eqb cfg 1 1 st /\ binterrupted cfg st /\ bagain cfg 1 st = Some st' /\ bmaximizes tstate ts_eqb cfg st' st'' /\
  ball_done cfg st'' /\ bbest_value cfg st'' = Some 4 /\ optimum tstate (cf_pb cfg) t_nv 10.
Proof.
  destruct (btwo_look _ _ _ _ _ (go 100 0) _ _ bar_early_run eq_refl (conj (le_n 1) (le_n 1)) eq_refl bstopped_again eq_refl) as (a & b & c & H1 & H2 & H3 & _ & H5 & H6 & _ & H8 & _ & H10).
  exists cfgI, a, b, c. split; [exact (t_cfg_solver tabI 1 LastExactLayer 1000 tabI_ok ltac:(lia))|]. split; [exact (table_well_behaved tabI 1000 tabI_ok)|].
  split; [reflexivity|]. split; [apply t_decided_once|]. split; [exact H1|]. split; [exact (conj H2 H3)|]. split; [exact H5|]. split; [exact H6|]. split; [exact H8|].
  split; [exact H10|exact tabI_opt].
Qed.
Print Assumptions C63_barrier_refuted.
(** This is always so: once a call has been interrupted, no later call looks at any subproblem, and the answer, the bounds and the
    counters stay as they are. *)
Theorem C63_barrier_interrupted_for_good : forall S eqb (cfg : config S) at_depth nv C n st st', good_solver S eqb cfg at_depth nv C ->
  bsession S eqb cfg n st -> binterrupted cfg st -> blater S eqb cfg n st st' ->
  c_interrupted (k_c (q_crit st')) = true /\ bbest_value cfg st' = bbest_value cfg st /\ bbest_solution cfg st' = bbest_solution cfg st /\
  blower_bound cfg st' = blower_bound cfg st /\ bupper_bound cfg st' = bupper_bound cfg st /\
  c_explored (k_c (q_crit st')) = c_explored (k_c (q_crit st)) /\ c_explored_dd (k_c (q_crit st')) = c_explored_dd (k_c (q_crit st)).
Proof. exact bar_interrupted_for_good. Qed.
Print Assumptions C63_barrier_interrupted_for_good.
Example C63_barrier_interrupted_case : good_solver tstate ts_eqb cfgI t_at t_nv 1000 /\
  blook (btwo_calls cfgI 1 1 (go 43 0 ++ [(0, true)]%nat) 1 (go 100 0)) = Some (mk_view true true 4 10 (Some 4) (Some sol4)).
Proof. split; [exact (t_cfg_solver tabI 1 LastExactLayer 1000 tabI_ok ltac:(lia))|exact bstopped_again]. Qed.

(** What holds (missing: the call interrupted earlier of [C63_barrier_refuted], and a first call on several threads): after any number of calls, the first of them on one thread, if the last one
    reports an exact answer it is the optimum, or there is no solution; and the two bounds agree. *)
Theorem C63_barrier_answer_partial : forall S eqb (cfg : config S) at_depth nv C n st0 st, good_solver S eqb cfg at_depth nv C ->
  well_behaved S eqb (cf_pb cfg) (cf_rx cfg) at_depth nv C -> cf_ctype cfg = LastExactLayer \/ one_end S cfg at_depth -> decided_once S cfg nv ->
  (1 <= n)%nat -> binitial cfg n 1 = Some st0 -> blater S eqb cfg n st0 st -> bproved cfg st ->
  bupper_bound cfg st = blower_bound cfg st /\
  match bbest_value cfg st with
  | Some v => optimum S (cf_pb cfg) nv v /\ exists l, bbest_solution cfg st = Some l /\ reported_solution S (cf_pb cfg) nv l v
  | None => infeasible S (cf_pb cfg) nv /\ bbest_solution cfg st = None
  end.
Proof. exact bar_session_answer. Qed.
Print Assumptions C63_barrier_answer_partial.
(** Once proved, the answer stays: a later call changes neither the solution nor its value, even if that call is interrupted. *)
Theorem C63_barrier_kept_partial : forall S eqb (cfg : config S) at_depth nv C n st st', good_solver S eqb cfg at_depth nv C ->
  well_behaved S eqb (cf_pb cfg) (cf_rx cfg) at_depth nv C -> cf_ctype cfg = LastExactLayer \/ one_end S cfg at_depth -> decided_once S cfg nv ->
  (1 <= n)%nat -> breachable S eqb cfg n 1 st -> bproved cfg st -> blater S eqb cfg n st st' ->
  bbest_value cfg st' = bbest_value cfg st /\ bbest_solution cfg st' = bbest_solution cfg st /\ blower_bound cfg st' = blower_bound cfg st /\
  (c_interrupted (k_c (q_crit st')) = false -> bupper_bound cfg st' = blower_bound cfg st') /\
  match bbest_value cfg st' with
  | Some v => optimum S (cf_pb cfg) nv v /\ exists l, bbest_solution cfg st' = Some l /\ reported_solution S (cf_pb cfg) nv l v
  | None => infeasible S (cf_pb cfg) nv /\ bbest_solution cfg st' = None
  end.
Proof. exact bar_again_answer. Qed.
Print Assumptions C63_barrier_kept_partial.
Example C63_barrier_case : good_solver tstate ts_eqb cfgI t_at t_nv 1000 /\ well_behaved tstate ts_eqb (cf_pb cfgI) (cf_rx cfgI) t_at t_nv 1000 /\
  decided_once tstate cfgI t_nv /\
  blook (btwo_calls cfgI 2 1 (go 73 0) 2 (turns 100)) = Some (mk_view true false 10 10 (Some 10) (Some sol10)).
Proof.
  split; [exact (t_cfg_solver tabI 1 LastExactLayer 1000 tabI_ok ltac:(lia))|]. split; [exact (table_well_behaved tabI 1000 tabI_ok)|].
  split; [apply t_decided_once|exact bsolved_again].
Qed.

