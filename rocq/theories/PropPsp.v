(** Property theorems C34, C35, C43, C44: the pigment sequencing example (examples/psp). *)
From Verif Require Import Spec DdSpec ParSpec BarSpec Psp PspSpec PspProofs PspCases AskedProofs.
Open Scope Z_scope.

(* ------------------------------------------------------------------ *)
(** C34. The solutions of the model are the feasible production plans, worth minus their cost. *)
Theorem C34_solutions_are_plans : forall D M, psp_ok D M -> forall J, loaded D J -> forall debug ds v,
  solution psp_state (psp_pb J debug) (psp_nv D) ds v <->
  exists p, feasible_plan D p /\ ds = plan_decisions p /\ v = - plan_cost D p.
Proof. exact psp_solutions. Qed.
Print Assumptions C34_solutions_are_plans.
(** The decisions of a solution are those that the diagrams ask for: one for each period, from the last to the first. *)
Theorem C34_asked_in_order : forall D M, psp_ok D M -> forall J, loaded D J -> forall debug k l, l <> [] ->
  (forall s, In s l -> exists ds c, run psp_state (psp_pb J debug) (psp_nv D) 0 (pb_init (psp_pb J debug)) ds k s c) ->
  pb_next_var (psp_pb J debug) l = if (k <? pd_T D)%nat then Some (pd_T D - 1 - k)%nat else None.
Proof. exact psp_asked. Qed.
Print Assumptions C34_asked_in_order.
Example C34_asked_case : pb_next_var (psp_pb (psp_load small) true) [pb_init (psp_pb (psp_load small) true)] = Some 4%nat /\
  exists s c ds, run psp_state (psp_pb (psp_load small) true) (psp_nv small) 0 (pb_init (psp_pb (psp_load small) true)) ds 5 s c /\
    pb_next_var (psp_pb (psp_load small) true) [s] = None.
Proof.
  split; [vm_compute; reflexivity|]. destruct small_case as (H1 & H2 & H3 & _).
  destruct (proj2 (psp_solutions small 4 H1 (psp_load small) H2 true _ _) (ex_intro _ small_plan (conj H3 (conj eq_refl eq_refl)))) as (c & (s & H) & _).
  exists s, c, (plan_decisions small_plan). split; [exact H|]. apply (psp_asked small 4 H1 (psp_load small) H2 true 5); [discriminate|]. intros x [<-|[]]. exists (plan_decisions small_plan), c. exact H.
Qed.
(** Two items in five periods: 0 and 0 and 1 in periods 1, 2 and 3 cost 5; the second plan makes one unit less than is due. *)
Example C34_case : psp_ok small 4 /\ loaded small (psp_load small) /\ feasible_plan small small_plan /\ plan_cost small small_plan = 5 /\
  ~ feasible_plan small [None; None; None; Some 1%nat; Some 0%nat].
Proof. exact small_case. Qed.

(* ------------------------------------------------------------------ *)
(** C35 is false as stated: if a change is cheaper by way of a third item, then dropping an order may make what remains dearer,
    so that every completion of the merged state is worth less than one of a state that was merged. *)
Theorem C35_merge_loses_refuted : exists D M J l src d ds c, psp_ok D M /\ loaded D J /\ forall debug,
  let P := psp_pb J debug in
  (forall s, In s l -> exists ds0 c0, run psp_state P (psp_nv D) 0 (pb_init P) ds0 1 s c0) /\
  src = pb_init P /\ In d (pb_domain P (psp_nv D 0) src) /\ In (pb_trans P src d) l /\ completion psp_state P (psp_nv D) 1 (pb_trans P src d) ds c /\
  forall ds' c', completion psp_state P (psp_nv D) 1 (rx_merge psp_rx l) ds' c' ->
    rx_relax psp_rx src (pb_trans P src d) (rx_merge psp_rx l) d (pb_cost P src d) + c' < pb_cost P src d + c.
Proof. exact detour_loses. Qed.
Print Assumptions C35_merge_loses_refuted.
(** It is true of instances in which no change is cheaper by way of a third item (of another completion than the one that was
    lost: the orders that were dropped are replaced by idle periods). *)
Theorem C35_merge_covers_partial : forall D M, psp_ok D M -> forall J, loaded D J -> forall debug, change_triangle D ->
  relaxation_cover psp_state (psp_pb J debug) (psp_layer D) (psp_nv D) psp_rx.
Proof. exact psp_cover. Qed.
Print Assumptions C35_merge_covers_partial.
(** Any instance: the states of a layer stay in that layer when merged, and all the costs are bounded. *)
Theorem C35_well_formed_partial : forall D M, psp_ok D M -> forall J, loaded D J -> forall debug,
  well_formed psp_state psp_eqb (psp_pb J debug) psp_rx (psp_layer D) (psp_nv D) ((Z.of_nat (pd_T D) + 1) * M).
Proof. exact psp_formed. Qed.
Print Assumptions C35_well_formed_partial.
(** Any instance: the estimate is an upper bound. It is in fact never negative, whereas no completion has a positive value:
    the code forgets to negate the cost it computes. *)
Theorem C35_estimate_partial : forall D M, psp_ok D M -> forall J, loaded D J -> forall k s, psp_layer D k s ->
  exists e, ps_estimate J false s = Some e /\ 0 <= e <= IMAX /\
  forall ds c, completion psp_state (psp_pb J false) (psp_nv D) k s ds c -> c <= e.
Proof. exact estimate_bounds. Qed.
Print Assumptions C35_estimate_partial.
(** Two states of the first layer and what they are merged into. *)
Example C35_case : psp_ok small 4 /\ change_triangle small /\ loaded small (psp_load small) /\ psp_layer small 1 (small_next (-1)) /\ psp_layer small 1 (small_next 0) /\
  rx_merge psp_rx [small_next (-1); small_next 0] = mk_pst 4 (-1) [2; 3] /\ small_next (-1) = mk_pst 4 (-1) [4; 3] /\ small_next 0 = mk_pst 4 0 [2; 3] /\
  ps_estimate (psp_load small) false (small_next (-1)) = Some 3.
Proof. exact small_merged. Qed.

(* ------------------------------------------------------------------ *)
(** C43. No function of the model panics on the states of the layers, exact or merged, except that the estimate may in a
    debug build. *)
Theorem C43_no_panic_partial : forall D M, psp_ok D M -> forall J, loaded D J -> forall debug k s, (k < pd_T D)%nat -> psp_layer D k s ->
  (exists l, ps_domain J debug (psp_nv D k) s = Some l /\
     forall d, In d l -> (exists s', ps_trans J debug s d = Some s') /\ (exists c, ps_cost J debug s d = Some c)) /\
  (exists s0, ps_init J debug = Some s0) /\ exists e, ps_estimate J false s = Some e.
Proof. exact panic_free. Qed.
Print Assumptions C43_no_panic_partial.
(** In a debug build the estimate may panic, already on the initial state, *)
Theorem C43_debug_estimate_refuted : exists D M J s0, psp_ok D M /\ change_triangle D /\ loaded D J /\ ps_init J true = Some s0 /\ ps_estimate J true s0 = None.
Proof. exact small_debug. Qed.
Print Assumptions C43_debug_estimate_refuted.
(** and it does on every state that leaves two or more periods idle. *)
Theorem C43_debug_estimate_panics : forall D M, psp_ok D M -> forall J, loaded D J -> forall k s, psp_layer D k s ->
  zsum (map (fun i => orders D i (deadline s i)) (seq 0 (pd_n D))) + 1 < Z.of_nat (pt_time s) -> ps_estimate J true s = None.
Proof. exact debug_panics. Qed.
Print Assumptions C43_debug_estimate_panics.
Example C43_case : psp_layer small 0 (pb_init (psp_pb (psp_load small) true)) /\
  zsum (map (fun i => orders small i (deadline (pb_init (psp_pb (psp_load small) true)) i)) (seq 0 (pd_n small))) + 1 < Z.of_nat (pt_time (pb_init (psp_pb (psp_load small) true))).
Proof. exact small_panics. Qed.

(* ------------------------------------------------------------------ *)
(** C44. With the width and the fringe of the example, the last exact layer as cutset, and changes that satisfy the triangle
    inequality: when the solver answers that it has proved the optimum it reports a cheapest plan, or there is no plan. *)
Theorem C44_parallel_cheapest_partial : forall D M, psp_ok D M -> forall J, loaded D J -> forall factor, (1 <= factor)%nat -> change_triangle D ->
  forall nt m st, (1 <= m <= nt)%nat ->
  reachable psp_state psp_eqb (psp_cfg J factor LastExactLayer) nt m st -> proved _ st ->
  match best_value_of _ st with
  | Some v => exists l p, best_solution_of _ st = Some l /\ cheapest D p /\ Permutation l (plan_decisions p) /\ v = - plan_cost D p
  | None => best_solution_of _ st = None /\ forall q, ~ feasible_plan D q
  end.
Proof. exact par_psp. Qed.
Print Assumptions C44_parallel_cheapest_partial.
(** The same of the solver with a barrier, run with one thread. *)
Theorem C44_barrier_cheapest_partial : forall D M, psp_ok D M -> forall J, loaded D J -> forall factor, (1 <= factor)%nat -> change_triangle D ->
  forall nt st, (1 <= nt)%nat ->
  breachable psp_state psp_eqb (psp_cfg J factor LastExactLayer) nt 1 st -> bproved _ st ->
  match bbest_value _ st with
  | Some v => exists l p, bbest_solution _ st = Some l /\ cheapest D p /\ Permutation l (plan_decisions p) /\ v = - plan_cost D p
  | None => bbest_solution _ st = None /\ forall q, ~ feasible_plan D q
  end.
Proof. exact bar_psp. Qed.
Print Assumptions C44_barrier_cheapest_partial.
(** What is missing: instances without the triangle inequality, for which either solver with either cutset may be wrong (it
    answers 50 here; there is a plan for 4), *)
Theorem C44_no_triangle_refuted : exists D M J p, psp_ok D M /\ loaded D J /\ feasible_plan D p /\ plan_cost D p = 4 /\ forall ct,
  (exists st, reachable psp_state psp_eqb (psp_cfg J 1 ct) 1 1 st /\ proved _ st /\ best_value_of _ st = Some (- 50)) /\
  (exists st, breachable psp_state psp_eqb (psp_cfg J 1 ct) 1 1 st /\ bproved _ st /\ bbest_value _ st = Some (- 50)).
Proof. exact cheap_refutes. Qed.
Print Assumptions C44_no_triangle_refuted.
(** and the frontier cutset, with which the solver with a barrier may be wrong on other instances too (29 instead of 28). *)
Theorem C44_frontier_refuted : exists D M J p, psp_ok D M /\ change_triangle D /\ loaded D J /\ feasible_plan D p /\ plan_cost D p = 28 /\
  exists st, breachable psp_state psp_eqb (psp_cfg J 1 Frontier) 1 1 st /\ bproved _ st /\ bbest_value _ st = Some (- 29).
Proof. exact missed_refutes. Qed.
Print Assumptions C44_frontier_refuted.
(** So may the parallel solver (13 instead of 11). *)
Theorem C44_frontier_parallel_refuted : exists D M J p, psp_ok D M /\ change_triangle D /\ loaded D J /\ feasible_plan D p /\ plan_cost D p = 11 /\
  exists st, reachable psp_state psp_eqb (psp_cfg J 1 Frontier) 1 1 st /\ proved _ st /\ best_value_of _ st = Some (- 13).
Proof. exact gone_refutes. Qed.
Print Assumptions C44_frontier_parallel_refuted.
(** In all cases, with any number of threads and at any time, what is reported is a feasible plan and its cost. *)
Theorem C44_parallel_plan_partial : forall D M, psp_ok D M -> forall J, loaded D J -> forall factor, (1 <= factor)%nat ->
  forall ct nt m st v, (m <= nt)%nat -> reachable psp_state psp_eqb (psp_cfg J factor ct) nt m st -> best_value_of _ st = Some v ->
  exists l p, best_solution_of _ st = Some l /\ feasible_plan D p /\ Permutation l (plan_decisions p) /\ v = - plan_cost D p.
Proof. exact par_plan. Qed.
Print Assumptions C44_parallel_plan_partial.
Theorem C44_barrier_plan_partial : forall D M, psp_ok D M -> forall J, loaded D J -> forall factor, (1 <= factor)%nat ->
  forall ct nt m st v, (m <= nt)%nat -> breachable psp_state psp_eqb (psp_cfg J factor ct) nt m st -> bbest_value _ st = Some v ->
  exists l p, bbest_solution _ st = Some l /\ feasible_plan D p /\ Permutation l (plan_decisions p) /\ v = - plan_cost D p.
Proof. exact bar_plan. Qed.
Print Assumptions C44_barrier_plan_partial.
Example C44_case : psp_ok small 4 /\ change_triangle small /\ loaded small (psp_load small) /\
  (exists st, reachable psp_state psp_eqb (psp_cfg (psp_load small) 1 LastExactLayer) 2 2 st /\ proved _ st /\ best_value_of _ st = Some (-5)) /\
  (exists st, breachable psp_state psp_eqb (psp_cfg (psp_load small) 1 LastExactLayer) 1 1 st /\ bproved _ st /\ bbest_value _ st = Some (-5)).
Proof. exact small_solved. Qed.
