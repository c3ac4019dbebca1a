(** Property theorems C57, and what it says of the three examples (C42, C44, C47). *)
From Verif Require Import Spec Dd DdSpec WideSpec ParSpec BarSpec ParCases MddAll WideCount WideProofs BarWide TsptwSpec TsptwFacts TsptwTours TsptwCases TsptwWide.
From Verif Require Import Psp PspSpec PspProofs PspCases PspWide Srflp SrflpSpec SrflpLayouts SrflpProofs SrflpCases SrflpWide Table TableFacts MddCases BarCases.
From Verif Require Import MddBarrierSpec MddBarrierCases WideRuns WideCases.
From Verif Require MddBarrier.
From Coq Require Import Factorial.
Open Scope Z_scope.

(* ------------------------------------------------------------------ *)
(** C57. Where no layer of the problem exceeds the maximum width, every diagram is exact, whatever its type and whatever the
    relaxation does: it gives the best completion of its subproblem, unless that does not improve on the incumbent. *)
Theorem C57_diagram : forall S eqb P R at_depth nv C debug orc inp d,
  well_formed S eqb P R at_depth nv C -> admissible_reached S P nv -> good_call S P R nv debug orc inp ->
  no_layer_exceeds S P nv (i_width inp) ->
  exists dF, compile eqb debug orc inp d = Some dF /\ g_exact dF = true /\
  ((best_value dF = Some None /\ best_solution dF = Some None /\ forall ds v, completes S P nv (i_res inp) ds v -> v <= i_lb inp) \/
   (exists b l, best_value dF = Some (Some b) /\ best_solution dF = Some (Some l) /\ reported_solution S P nv l b /\
      (exists ds, completes S P nv (i_res inp) ds b) /\ forall ds v, completes S P nv (i_res inp) ds v -> v <= b \/ v <= i_lb inp)).
Proof. exact wide_full. Qed.
Print Assumptions C57_diagram.
(** The diagram with thresholds is exact too, whatever the other threads write to the thresholds. *)
Theorem C57_barrier_diagram_exact : forall S eqb P R at_depth nv C alone debug orc inp d T dF T',
  well_formed S eqb P R at_depth nv C -> good_call S P R nv debug orc inp -> no_layer_exceeds S P nv (i_width inp) ->
  length T = Datatypes.S (pb_nb_vars P) -> returns eqb alone (MddBarrier.compile eqb debug orc inp d) T dF T' -> g_exact dF = true.
Proof. exact barm_wide_exact. Qed.
Print Assumptions C57_barrier_diagram_exact.
(** Alone, and without thresholds below the root, it gives the best completion. *)
Theorem C57_barrier_diagram : forall S eqb P R at_depth nv C debug orc inp d T dF T',
  well_formed S eqb P R at_depth nv C -> admissible_reached S P nv -> good_call S P R nv debug orc inp -> no_layer_exceeds S P nv (i_width inp) ->
  length T = Datatypes.S (pb_nb_vars P) -> (forall k s i, (depth_of (i_res inp) < k)%nat -> ~ entry S eqb T k s i) ->
  returns eqb true (MddBarrier.compile eqb debug orc inp d) T dF T' ->
  g_exact dF = true /\
  ((best_value dF = Some None /\ best_solution dF = Some None /\ forall ds v, completes S P nv (i_res inp) ds v -> v <= i_lb inp) \/
   (exists b l, best_value dF = Some (Some b) /\ best_solution dF = Some (Some l) /\ reported_solution S P nv l b /\
      (exists ds, completes S P nv (i_res inp) ds b) /\ forall ds v, completes S P nv (i_res inp) ds v -> v <= b \/ v <= i_lb inp)).
Proof. exact barm_wide_best. Qed.
Print Assumptions C57_barrier_diagram.

(** The parallel solver, with either cutset and any number of threads. *)
Theorem C57_parallel : forall S eqb (cfg : config S) at_depth nv C n m st,
  good_solver S eqb cfg at_depth nv C -> admissible_reached S (cf_pb cfg) nv -> wide_enough S (cf_pb cfg) nv (cf_width cfg) ->
  decided_once S cfg nv -> (1 <= m <= n)%nat -> reachable S eqb cfg n m st -> proved cfg st ->
  upper_bound_of cfg st = lower_bound_of cfg st /\
  match best_value_of cfg st with
  | Some v => optimum S (cf_pb cfg) nv v /\ lower_bound_of cfg st = v /\
      exists l, best_solution_of cfg st = Some l /\ reported_solution S (cf_pb cfg) nv l v
  | None => infeasible S (cf_pb cfg) nv /\ best_solution_of cfg st = None
  end.
Proof. exact par_wide. Qed.
Print Assumptions C57_parallel.
(** The solver with a barrier, with either cutset and any number of threads too: only the width chosen for the initial state
    matters. *)
Theorem C57_barrier : forall S eqb (cfg : config S) at_depth nv C n m st,
  good_solver S eqb cfg at_depth nv C -> admissible_reached S (cf_pb cfg) nv ->
  no_layer_exceeds S (cf_pb cfg) nv (cf_width cfg (pb_init (cf_pb cfg))) ->
  (1 <= m <= n)%nat -> breachable S eqb cfg n m st -> bproved cfg st ->
  bupper_bound cfg st = blower_bound cfg st /\
  match bbest_value cfg st with
  | Some v => optimum S (cf_pb cfg) nv v /\ blower_bound cfg st = v /\
      exists l, bbest_solution cfg st = Some l /\ reported_solution S (cf_pb cfg) nv l v
  | None => infeasible S (cf_pb cfg) nv /\ bbest_solution cfg st = None
  end.
Proof. exact bar_wide. Qed.
Print Assumptions C57_barrier.
(** No layer has more states than there are ways to choose a value for each of the variables before it. *)
Theorem C57_few_values : forall S P nv D w,
  (forall k s, (k < pb_nb_vars P)%nat -> reached S P nv k s -> (length (pb_domain P (nv k) s) <= D k)%nat) ->
  (forall k, (k <= pb_nb_vars P)%nat -> (product D k <= w)%nat) -> no_layer_exceeds S P nv w.
Proof. exact few_wide. Qed.
Print Assumptions C57_few_values.
(** Two values for the first two variables and one for the last. *)
Example C57_few_case :
  (forall k s, (k < 3)%nat -> reached tstate (t_problem tabA) t_nv k s -> (length (pb_domain (t_problem tabA) (t_nv k) s) <= two_then_one k)%nat) /\
  forall k, (k <= 3)%nat -> (product two_then_one k <= 4)%nat.
Proof. exact (conj tabA_few tabA_product). Qed.

(** The relaxation of the travelling salesman with time windows is not valid (C39): with a width of 5 the relaxed diagram of
    the root claims to be exact and to have no solution. With a width of 10, which no layer exceeds, it finds the tour. *)
Example C57_case :
  good_solver tw_state tw_eqb (tw_cfg false lost 2 Frontier) (tw_layer lost 23) tw_nv 138 /\
  admissible_reached tw_state (tw_problem false lost) tw_nv /\
  wide_enough tw_state (tw_problem false lost) tw_nv (cf_width (tw_cfg false lost 2 Frontier)) /\
  decided_once tw_state (tw_cfg false lost 2 Frontier) tw_nv /\
  good_call tw_state (tw_problem false lost) (tw_relax lost) tw_nv false orc_fwd (lost_call 2 Relaxed) /\ i_width (lost_call 2 Relaxed) = 10%nat /\
  answer (compile tw_eqb false orc_fwd (lost_call 1 Relaxed) (dd_new LastExactLayer)) = Some (true, Some None) /\
  answer (compile tw_eqb false orc_fwd (lost_call 2 Relaxed) (dd_new LastExactLayer)) = Some (true, Some (Some (-46))).
Proof.
  exact (conj (tw_cfg_solver false lost 23 2 Frontier lost_ok ltac:(lia)) (conj (tw_reached_admissible false lost 23 lost_ok) (conj (lost_wide Frontier)
    (conj (tw_decided false lost 2 Frontier) (conj (lost_good 2 Relaxed ltac:(lia)) (conj eq_refl (conj lost_narrow lost_diagram))))))).
Qed.
(** Both solvers find it, with two threads, and with either cutset. *)
Example C57_solver_case : forall ct,
  (exists st, reachable tw_state tw_eqb (tw_cfg false lost 2 ct) 2 2 st /\ proved _ st /\ best_value_of _ st = Some (-46)) /\
  (exists st, breachable tw_state tw_eqb (tw_cfg false lost 2 ct) 2 2 st /\ bproved _ st /\ bbest_value _ st = Some (-46)).
Proof. exact lost_solved. Qed.
(** A diagram with thresholds, alone and with a thread that adds a threshold meanwhile. *)
Example C57_barrier_case :
  well_behaved tstate ts_eqb (t_problem tabA) (t_relax tabA) t_at t_nv 1000 /\ no_layer_exceeds tstate (t_problem tabA) t_nv 3 /\
  (exists dF, returns ts_eqb true (MddBarrier.compile ts_eqb true orc_fwd (t_call tabA Restricted 3 0 (t_root tabA)) (dd_new LastExactLayer)) none4 dF none4 /\
    g_exact dF = true /\ best_value dF = Some (Some 8)) /\
  (exists dF, returns ts_eqb false (MddBarrier.compile ts_eqb true orc_fwd (t_call tabA Restricted 3 0 (t_root tabA)) (dd_new LastExactLayer)) none4 dF some4 /\
    g_exact dF = true /\ best_value dF = Some (Some 7)) /\
  forall k s i, ~ entry tstate ts_eqb none4 k s i.
Proof. exact (conj tabA_ok (conj tabA_fits tabA_alone)). Qed.

(* ------------------------------------------------------------------ *)
(** C42 when no layer exceeds the width of the initial state: both solvers answer the best tour. *)
Theorem C42_wide_parallel_partial : forall debug I M, tw_inst_ok I M -> forall factor ct n m st, triangle I -> (1 <= factor)%nat ->
  no_layer_exceeds tw_state (tw_problem debug I) tw_nv (tw_n I * factor) -> (1 <= m <= n)%nat ->
  reachable tw_state tw_eqb (tw_cfg debug I factor ct) n m st -> proved _ st -> best_tour I (best_value_of _ st) (best_solution_of _ st).
Proof. exact par_best_tour. Qed.
Print Assumptions C42_wide_parallel_partial.
Theorem C42_wide_barrier_partial : forall debug I M, tw_inst_ok I M -> forall factor ct n m st, triangle I -> (1 <= factor)%nat ->
  no_layer_exceeds tw_state (tw_problem debug I) tw_nv (tw_n I * factor) -> (1 <= m <= n)%nat ->
  breachable tw_state tw_eqb (tw_cfg debug I factor ct) n m st -> bproved _ st -> best_tour I (bbest_value _ st) (bbest_solution _ st).
Proof. exact bar_best_tour. Qed.
Print Assumptions C42_wide_barrier_partial.
(** That is so as soon as the width is the number of orders in which the cities may be visited. *)
Theorem C42_orders_partial : forall debug I M, tw_inst_ok I M -> no_layer_exceeds tw_state (tw_problem debug I) tw_nv (fact (tw_n I - 1)).
Proof. exact tw_layers. Qed.
Print Assumptions C42_orders_partial.
Example C42_wide_case : tw_inst_ok lost 23 /\ triangle lost /\ no_layer_exceeds tw_state (tw_problem false lost) tw_nv (5 * 2) /\
  (fact (5 - 1) = 24)%nat /\ feasible_tour lost [1; 4; 3; 2]%nat 46.
Proof. exact (conj lost_ok (conj lost_triangle (conj lost_fits (conj eq_refl lost_tour)))). Qed.

(* ------------------------------------------------------------------ *)
(** C44 when no layer exceeds the width: neither the triangle inequality nor the last exact layer are needed, and the solver
    with a barrier may have any number of threads. *)
Theorem C44_wide_parallel_partial : forall D M, psp_ok D M -> forall J, loaded D J -> forall factor, (1 <= factor)%nat ->
  no_layer_exceeds psp_state (psp_pb J false) (psp_nv D) (pd_T D * factor) -> forall ct nt m st, (1 <= m <= nt)%nat ->
  reachable psp_state psp_eqb (psp_cfg J factor ct) nt m st -> proved _ st ->
  match best_value_of _ st with
  | Some v => exists l p, best_solution_of _ st = Some l /\ cheapest D p /\ Permutation l (plan_decisions p) /\ v = - plan_cost D p
  | None => best_solution_of _ st = None /\ forall q, ~ feasible_plan D q
  end.
Proof. exact par_psp_wide. Qed.
Print Assumptions C44_wide_parallel_partial.
Theorem C44_wide_barrier_partial : forall D M, psp_ok D M -> forall J, loaded D J -> forall factor, (1 <= factor)%nat ->
  no_layer_exceeds psp_state (psp_pb J false) (psp_nv D) (pd_T D * factor) -> forall ct nt m st, (1 <= m <= nt)%nat ->
  breachable psp_state psp_eqb (psp_cfg J factor ct) nt m st -> bproved _ st ->
  match bbest_value _ st with
  | Some v => exists l p, bbest_solution _ st = Some l /\ cheapest D p /\ Permutation l (plan_decisions p) /\ v = - plan_cost D p
  | None => bbest_solution _ st = None /\ forall q, ~ feasible_plan D q
  end.
Proof. exact bar_psp_wide. Qed.
Print Assumptions C44_wide_barrier_partial.
(** The instance of [C44_no_triangle_refuted], with a width of 21 instead of 7. *)
Example C44_wide_case : psp_ok cheap 50 /\ loaded cheap (psp_load cheap) /\ no_layer_exceeds psp_state (psp_pb (psp_load cheap) false) (psp_nv cheap) (7 * 3) /\ forall ct,
  (exists st, reachable psp_state psp_eqb (psp_cfg (psp_load cheap) 3 ct) 2 2 st /\ proved _ st /\ best_value_of _ st = Some (-4)) /\
  (exists st, breachable psp_state psp_eqb (psp_cfg (psp_load cheap) 3 ct) 2 2 st /\ bproved _ st /\ bbest_value _ st = Some (-4)).
Proof. exact (conj cheap_ok (conj cheap_loaded (conj cheap_fits cheap_solved))). Qed.

(* ------------------------------------------------------------------ *)
(** C47 when no layer exceeds the width: either cutset, and any number of threads for the solver with a barrier. *)
Theorem C47_wide_parallel_partial : forall I F L, sr_ok I F L -> forall factor, (1 <= factor)%nat -> Z.of_nat (sr_n I) * F * L < 2 ^ 23 ->
  no_layer_exceeds sr_state (sr_problem false I) sr_nv (sr_n I * factor) -> forall ct nt m st, (1 <= m <= nt)%nat ->
  reachable sr_state sr_eqb (sr_cfg false I factor ct) nt m st -> proved _ st ->
  exists v l p, best_value_of _ st = Some v /\ best_solution_of _ st = Some l /\ best_layout I p /\ Permutation l (layout_decisions p) /\
    2 * v = unavoidable2 I - layout_cost2 I p.
Proof. exact par_sr_wide. Qed.
Print Assumptions C47_wide_parallel_partial.
Theorem C47_wide_barrier_partial : forall I F L, sr_ok I F L -> forall factor, (1 <= factor)%nat -> Z.of_nat (sr_n I) * F * L < 2 ^ 23 ->
  no_layer_exceeds sr_state (sr_problem false I) sr_nv (sr_n I * factor) -> forall ct nt m st, (1 <= m <= nt)%nat ->
  breachable sr_state sr_eqb (sr_cfg false I factor ct) nt m st -> bproved _ st ->
  exists v l p, bbest_value _ st = Some v /\ bbest_solution _ st = Some l /\ best_layout I p /\ Permutation l (layout_decisions p) /\
    2 * v = unavoidable2 I - layout_cost2 I p.
Proof. exact bar_sr_wide. Qed.
Print Assumptions C47_wide_barrier_partial.
Example C47_wide_case : sr_ok row 6 5 /\ Z.of_nat (sr_n row) * 6 * 5 < 2 ^ 23 /\ no_layer_exceeds sr_state (sr_problem false row) sr_nv (5 * 2) /\ forall ct,
  (exists st, reachable sr_state sr_eqb (sr_cfg false row 2 ct) 2 2 st /\ proved _ st /\ best_value_of _ st = Some (-28)) /\
  (exists st, breachable sr_state sr_eqb (sr_cfg false row 2 ct) 2 2 st /\ bproved _ st /\ bbest_value _ st = Some (-28)).
Proof. exact (conj row_ok (conj row_float (conj row_fits row_wide_solved))). Qed.
