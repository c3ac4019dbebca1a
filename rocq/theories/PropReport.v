(** Property theorems C58: the line printed by [solve_timeout] and the number it returns. *)
From Verif Require Import Base Names F32 F32Spec Text TextSpec Spec Dd DdSpec WideSpec MddAll ParSpec BarSpec Table TableFacts MddCases ParCases BarCases.
From Verif Require Import Report ReportSpec ReportProofs ReportLine ReportCases.
Open Scope string_scope.
Open Scope Z_scope.

(** Every number printed can be read back: the text of a value of [isize] denotes it, and [parse] gives it back. *)
Theorem C58_numbers : forall z, in_isize z -> integer (show_isize z) z /\ parse_isize (show_isize z) = Some z.
Proof. exact show_isize_faithful. Qed.
Print Assumptions C58_numbers.
Example C58_numbers_case : show_isize (-40) = "-40" /\ show_isize 0 = "0" /\ show_isize IMIN = "-9223372036854775808" /\ in_isize IMIN.
Proof. exact numbers_case. Qed.

(** In the line, each value stands under its title: whoever cuts both lines at the vertical bars and drops the spaces around the
    parts reads these pairs (if the name, and the texts of the duration, of the memory and of the gap, have no bars inside and no
    spaces around them). *)
Theorem C58_line : forall S (eqb : S -> S -> bool) (cfg : config S) debug name threads cpus sv r u time ram g,
  solve_timeout_ends eqb cfg debug name threads cpus sv (Some (r, u)) -> plain name -> plain time -> plain ram -> plain g ->
  List.length (cells (report_line r time ram g)) = List.length (cells header_line) /\
  combine (cells header_line) (cells (report_line r time ram g)) =
    [("NAME", name); ("SOLVER", show_solver sv); ("STATUS", rp_status r); ("DURATION", time); ("RAM_(MB)", ram); ("BEST-VAL", rp_best r);
     ("LB", rp_lb r); ("UB", rp_ub r); ("GAP", g); ("NODES B&B", rp_explored r); ("NODES DD", rp_explored_dd r)].
Proof. exact line_read. Qed.
Print Assumptions C58_line.
Example C58_line_case :
  solve_timeout_ends ts_eqb cfgI false "tab" (Some 2%nat) 8 ParallelS (Some (repI, 9)) /\
  (plain "tab" /\ plain "0.00" /\ plain "1.05" /\ plain "0.5556") /\
  report_line repI "0.00" "1.05" "0.5556" =
  "                           tab | parallel | Timeout |     0.00 |     1.05 |               4 |               4 |               9 | 0.5556 |               3 |              21" /\
  cells (report_line repI "0.00" "1.05" "0.5556") = ["tab"; "parallel"; "Timeout"; "0.00"; "1.05"; "4"; "4"; "9"; "0.5556"; "3"; "21"].
Proof.
  split; [exact (run_report_ends _ _ _ _ _ 8 _ two_report)|]. split; [exact plain_case|]. split; vm_compute; reflexivity.
Qed.

(** With the parallel solver, at least one thread, and last exact layers or a single final state: the report is right, or says that the time was up and
    gives the value of a solution or none; only a debug build may panic, when there is no solution or the time is up. *)
Theorem C58_parallel_partial : forall S eqb (cfg : config S) at_depth nv C debug name threads cpus out,
  good_solver S eqb cfg at_depth nv C -> well_behaved S eqb (cf_pb cfg) (cf_rx cfg) at_depth nv C -> cf_ctype cfg = LastExactLayer \/ one_end S cfg at_depth ->
  decided_once S cfg nv -> (1 <= thread_count threads cpus)%nat ->
  solve_timeout_ends eqb cfg debug name threads cpus ParallelS out -> good_end eqb cfg nv debug name threads cpus ParallelS out.
Proof. exact (fun S eqb cfg at_depth nv C debug name threads cpus out G => report_parallel S eqb cfg at_depth nv C G debug name threads cpus out). Qed.
Print Assumptions C58_parallel_partial.
(** The same with the solver with a barrier and one thread. (Missing: more threads, see C28.) *)
Theorem C58_barrier_partial : forall S eqb (cfg : config S) at_depth nv C debug name cpus out,
  good_solver S eqb cfg at_depth nv C -> well_behaved S eqb (cf_pb cfg) (cf_rx cfg) at_depth nv C -> cf_ctype cfg = LastExactLayer \/ one_end S cfg at_depth ->
  decided_once S cfg nv ->
  solve_timeout_ends eqb cfg debug name (Some 1%nat) cpus BarrierS out -> good_end eqb cfg nv debug name (Some 1%nat) cpus BarrierS out.
Proof. exact (fun S eqb cfg at_depth nv C debug name cpus out G => report_barrier S eqb cfg at_depth nv C G debug name cpus out). Qed.
Print Assumptions C58_barrier_partial.
(** Either solver, either cutset, any relaxation and any number of threads, when no layer exceeds the maximum width. *)
Theorem C58_wide_partial : forall S eqb (cfg : config S) at_depth nv C debug name threads cpus sv out,
  good_solver S eqb cfg at_depth nv C -> admissible_reached S (cf_pb cfg) nv -> wide_enough S (cf_pb cfg) nv (cf_width cfg) ->
  decided_once S cfg nv -> (1 <= thread_count threads cpus)%nat ->
  solve_timeout_ends eqb cfg debug name threads cpus sv out -> good_end eqb cfg nv debug name threads cpus sv out.
Proof. exact (fun S eqb cfg at_depth nv C debug name threads cpus sv out G => report_wide S eqb cfg at_depth nv C G debug name threads cpus sv out). Qed.
Print Assumptions C58_wide_partial.
(** There always is an execution that ends, so that the three theorems speak of something. *)
Theorem C58_ends : forall S eqb (cfg : config S) at_depth nv C debug name threads cpus sv,
  good_solver S eqb cfg at_depth nv C -> exists out, solve_timeout_ends eqb cfg debug name threads cpus sv out.
Proof. exact some_end. Qed.
Print Assumptions C58_ends.
(** Two threads; one thread with the barrier; no solution. The first line as printed. *)
Example C58_case :
  good_solver tstate ts_eqb cfgI t_at t_nv 1000 /\ well_behaved tstate ts_eqb (cf_pb cfgI) (cf_rx cfgI) t_at t_nv 1000 /\
  decided_once tstate cfgI t_nv /\ optimum tstate (t_problem tabI) t_nv 10 /\ infeasible tstate (t_problem tabN) t_nv /\
  solve_timeout_ends ts_eqb cfgI false "tab" (Some 2%nat) 8 ParallelS
    (Some (mk_report "tab" "parallel" "Proved" "10" "10" "10" (S754_zero false) "5" "31", 10)) /\
  solve_timeout_ends ts_eqb cfgI false "tab" (Some 1%nat) 8 BarrierS
    (Some (mk_report "tab" "barrier" "Proved" "10" "10" "10" (S754_zero false) "3" "20", 10)) /\
  solve_timeout_ends ts_eqb cfgN false "tab" (Some 1%nat) 8 ParallelS
    (Some (mk_report "tab" "parallel" "Proved" "not found" "-9223372036854775808" "-9223372036854775808" (S754_zero true) "1" "2", IMIN)) /\
  report_line (mk_report "tab" "parallel" "Proved" "10" "10" "10" (S754_zero false) "5" "31") "0.00" "1.05" "0.0000" =
  "                           tab | parallel | Proved |     0.00 |     1.05 |              10 |              10 |              10 | 0.0000 |               5 |              31".
Proof.
  exact (conj (t_cfg_solver tabI 1 LastExactLayer 1000 tabI_ok ltac:(lia)) (conj (table_well_behaved tabI 1000 tabI_ok)
    (conj (t_decided_once tabI 1 LastExactLayer) (conj tabI_opt (conj tabN_infeasible (conj (run_report_ends _ _ _ _ _ 8 _ optimum_report)
    (conj (brun_report_ends _ _ _ _ _ 8 _ barrier_report) (conj (run_report_ends _ _ _ _ _ 8 _ nothing_report) line_report)))))))).
Qed.

(** Missing, because false. (1) The upper bound printed and returned when the time is up may be below the optimum. *)
Theorem C58_timeout_bound_refuted : exists (cfg : config tstate) sv r u v,
  good_solver tstate ts_eqb cfg t_at t_nv 1000 /\ well_behaved tstate ts_eqb (cf_pb cfg) (cf_rx cfg) t_at t_nv 1000 /\
  cf_ctype cfg = LastExactLayer /\ decided_once tstate cfg t_nv /\ solve_timeout_ends ts_eqb cfg false "tab" (Some 2%nat) 8 sv (Some (r, u)) /\
  rp_status r = "Timeout" /\ optimum tstate (cf_pb cfg) t_nv v /\ u < v.
Proof.
  exists cfgI, ParallelS, repI, 9, 10. split; [exact (t_cfg_solver tabI 1 LastExactLayer 1000 tabI_ok ltac:(lia))|]. split; [exact (table_well_behaved tabI 1000 tabI_ok)|].
  split; [reflexivity|]. split; [exact (t_decided_once tabI 1 LastExactLayer)|]. split; [exact (run_report_ends _ _ _ _ _ 8 _ two_report)|].
  split; [reflexivity|]. split; [exact tabI_opt|]. lia.
Qed.
Print Assumptions C58_timeout_bound_refuted.
(** (2) The line may show a gap of zero, the same bounds, and a value that is not optimal, when the time is up, with either solver. *)
Theorem C58_timeout_gap_refuted : forall sv, exists (cfg : config tstate) r u v w,
  good_solver tstate ts_eqb cfg t_at t_nv 1000 /\ well_behaved tstate ts_eqb (cf_pb cfg) (cf_rx cfg) t_at t_nv 1000 /\
  cf_ctype cfg = LastExactLayer /\ decided_once tstate cfg t_nv /\ solve_timeout_ends ts_eqb cfg false "tab" (Some 2%nat) 8 sv (Some (r, u)) /\
  f32_value (rp_gap r) = Some 0%Q /\ rp_lb r = rp_ub r /\ integer (rp_best r) w /\ optimum tstate (cf_pb cfg) t_nv v /\ w < v.
Proof.
  intros sv. exists cfgJ, (match sv with ParallelS => repJ | BarrierS => brepJ end), 4, 10, 4.
  split; [exact (t_cfg_solver tabJ 1 LastExactLayer 1000 tabJ_ok ltac:(lia))|]. split; [exact (table_well_behaved tabJ 1000 tabJ_ok)|].
  split; [reflexivity|]. split; [exact (t_decided_once tabJ 1 LastExactLayer)|].
  destruct sv; (split; [first [exact (run_report_ends _ _ _ _ _ 8 _ reset_report)|exact (brun_report_ends _ _ _ _ _ 8 _ bar_reset_report)]|]);
    (split; [reflexivity|]); (split; [reflexivity|]); (split; [exact four_denotes|]); (split; [exact tabJ_opt|]); lia.
Qed.
Print Assumptions C58_timeout_gap_refuted.
(** (3) In a release build the gap shown before any solution is known, on a problem that has some, is a negative number closer to
    zero than the four digits printed can tell. *)
Theorem C58_unknown_gap_refuted : exists (cfg : config tstate) r u v q,
  good_solver tstate ts_eqb cfg t_at t_nv 1000 /\ well_behaved tstate ts_eqb (cf_pb cfg) (cf_rx cfg) t_at t_nv 1000 /\
  cf_ctype cfg = LastExactLayer /\ decided_once tstate cfg t_nv /\ solve_timeout_ends ts_eqb cfg false "tab" (Some 1%nat) 8 ParallelS (Some (r, u)) /\
  rp_best r = "not found" /\ optimum tstate (cf_pb cfg) t_nv v /\ f32_value (rp_gap r) = Some q /\ (- (1 # 1000000000) < q < 0)%Q.
Proof.
  exists cfgI, repE, IMAX, 10, (Qmake (- 2 ^ 23) (2 ^ 86)). split; [exact (t_cfg_solver tabI 1 LastExactLayer 1000 tabI_ok ltac:(lia))|].
  split; [exact (table_well_behaved tabI 1000 tabI_ok)|]. split; [reflexivity|]. split; [exact (t_decided_once tabI 1 LastExactLayer)|].
  split; [exact (run_report_ends _ _ _ _ _ 8 _ early_report)|]. split; [reflexivity|]. split; [exact tabI_opt|]. exact gap_unknown.
Qed.
Print Assumptions C58_unknown_gap_refuted.
(** (4) A debug build panics instead of printing, when the time is up early and when there is no solution, with either solver. *)
Theorem C58_debug_panics_refuted : forall sv, exists cfg cfg' : config tstate,
  good_solver tstate ts_eqb cfg t_at t_nv 1000 /\ well_behaved tstate ts_eqb (cf_pb cfg) (cf_rx cfg) t_at t_nv 1000 /\
  (exists v, optimum tstate (cf_pb cfg) t_nv v) /\ ~ a_thread_panics ts_eqb cfg 1 sv /\
  solve_timeout_ends ts_eqb cfg true "tab" (Some 1%nat) 8 sv None /\
  good_solver tstate ts_eqb cfg' t_at t_nv 1000 /\ well_behaved tstate ts_eqb (cf_pb cfg') (cf_rx cfg') t_at t_nv 1000 /\
  infeasible tstate (cf_pb cfg') t_nv /\ ~ a_thread_panics ts_eqb cfg' 1 sv /\
  solve_timeout_ends ts_eqb cfg' true "tab" (Some 1%nat) 8 sv None.
Proof.
  intros sv. exists cfgI, cfgN. pose proof (t_cfg_solver tabI 1 LastExactLayer 1000 tabI_ok ltac:(lia)) as HI.
  pose proof (t_cfg_solver tabN 1 LastExactLayer 1000 tabN_ok ltac:(lia)) as HN.
  split; [exact HI|]. split; [exact (table_well_behaved tabI 1000 tabI_ok)|]. split; [exists 10; exact tabI_opt|].
  split; [exact (nobody_panics _ _ _ _ _ _ HI 1%nat sv)|].
  split; [destruct sv; [exact (run_report_ends _ _ _ _ _ 8 _ early_panics)|exact (brun_report_ends _ _ _ _ _ 8 _ bar_early_panics)]|].
  split; [exact HN|]. split; [exact (table_well_behaved tabN 1000 tabN_ok)|]. split; [exact tabN_infeasible|].
  split; [exact (nobody_panics _ _ _ _ _ _ HN 1%nat sv)|].
  destruct sv; [exact (run_report_ends _ _ _ _ _ 8 _ nothing_panics)|exact (brun_report_ends _ _ _ _ _ 8 _ bar_nothing_panics)].
Qed.
Print Assumptions C58_debug_panics_refuted.
(** (5) Zero threads: the line says that it is proved that nothing was found. *)
Theorem C58_zero_threads_refuted : exists (cfg : config tstate) r u v,
  good_solver tstate ts_eqb cfg t_at t_nv 1000 /\ well_behaved tstate ts_eqb (cf_pb cfg) (cf_rx cfg) t_at t_nv 1000 /\
  cf_ctype cfg = LastExactLayer /\ decided_once tstate cfg t_nv /\ solve_timeout_ends ts_eqb cfg false "tab" (Some 0%nat) 8 ParallelS (Some (r, u)) /\
  rp_status r = "Proved" /\ rp_best r = "not found" /\ optimum tstate (cf_pb cfg) t_nv v.
Proof.
  exists cfgI, repZ, IMAX, 10. split; [exact (t_cfg_solver tabI 1 LastExactLayer 1000 tabI_ok ltac:(lia))|].
  split; [exact (table_well_behaved tabI 1000 tabI_ok)|]. split; [reflexivity|]. split; [exact (t_decided_once tabI 1 LastExactLayer)|].
  split; [exact (run_report_ends _ _ _ _ _ 8 _ zero_threads_report)|]. split; [reflexivity|]. split; [reflexivity|exact tabI_opt].
Qed.
Print Assumptions C58_zero_threads_refuted.
(** (6) A width of zero, which the heuristics give for a factor of zero: either solver panics, also in a release build. *)
Theorem C58_zero_width_refuted : forall sv debug, exists cfg : config tstate,
  well_behaved tstate ts_eqb (cf_pb cfg) (cf_rx cfg) t_at t_nv 1000 /\ (forall s, cf_width cfg s = 0%nat) /\
  solve_timeout_ends ts_eqb cfg debug "tab" (Some 1%nat) 8 sv None.
Proof.
  intros sv debug. exists cfgZ. split; [exact (table_well_behaved tabI 1000 tabI_ok)|]. split; [reflexivity|]. apply ends_panic.
  destruct sv; [exact zero_width_panics|exact bar_zero_width_panics].
Qed.
Print Assumptions C58_zero_width_refuted.
(** (7) Frontier cutsets: the line says that it is proved that the best value is 7; it is 8. *)
Theorem C58_frontier_cutset_refuted : exists (cfg : config tstate) r u v w,
  good_solver tstate ts_eqb cfg t_at t_nv 1000 /\ well_behaved tstate ts_eqb (cf_pb cfg) (cf_rx cfg) t_at t_nv 1000 /\
  cf_ctype cfg = Frontier /\ decided_once tstate cfg t_nv /\ solve_timeout_ends ts_eqb cfg false "tab" (Some 1%nat) 8 ParallelS (Some (r, u)) /\
  rp_status r = "Proved" /\ integer (rp_best r) w /\ optimum tstate (cf_pb cfg) t_nv v /\ w < v.
Proof.
  exists (cfgF Frontier), (mk_report "tab" "parallel" "Proved" "7" "7" "7" (S754_zero false) "3" "15"), 7, 8, 7.
  split; [exact (t_cfg_solver tabF 2 Frontier 1000 tabF_ok ltac:(lia))|]. split; [exact (table_well_behaved tabF 1000 tabF_ok)|].
  split; [reflexivity|]. split; [exact (t_decided_once tabF 2 Frontier)|]. split; [exact (run_report_ends _ _ _ _ _ 8 _ frontier_report)|].
  split; [reflexivity|]. split; [exact seven_denotes|]. split; [exact tabF_opt|]. lia.
Qed.
Print Assumptions C58_frontier_cutset_refuted.
(** (8) The columns are not those of the header, even when every text fits in its column (the gap only does when it is NaN): the solver and the status are not padded. *)
Theorem C58_columns_refuted : exists r time ram g, fits r time ram g /\ String.length (report_line r time ram g) <> String.length header_line.
Proof. exact columns_differ. Qed.
Print Assumptions C58_columns_refuted.
