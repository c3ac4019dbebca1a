(** Property theorems C38-C42: the example on the travelling salesman with time windows (examples/tsptw). *)
From Verif Require Import Spec DdSpec ParSpec BarSpec ParCases ExecAny TsptwSpec TsptwFacts TsptwMerge TsptwTours TsptwPanic TsptwEstimate TsptwCases TsptwDebug AskedProofs.
From Coq Require Import Sorting.Sorted.
Open Scope Z_scope.

(* ------------------------------------------------------------------ *)
(** C38. Under the triangle inequality the solutions of the model are the feasible tours, worth minus their makespan. *)
Theorem C38_solutions_are_tours_partial : forall debug I M, tw_inst_ok I M -> triangle I -> forall ds v,
  solution tw_state (tw_problem debug I) tw_nv ds v <->
  exists l T, feasible_tour I l T /\ ds = visits 0 (l ++ [0%nat]) /\ v = - T.
Proof.
  intros debug I M Hok Ht ds v. split; [exact (solutions_are_tours debug I M Hok ds v)|].
  intros (l & T & H1 & -> & ->). exact (tours_are_solutions debug I M Hok l T Ht H1).
Qed.
Print Assumptions C38_solutions_are_tours_partial.
(** What is missing above: instances that do not satisfy the triangle inequality. There every solution is a feasible tour, *)
Theorem C38_solutions_are_tours_sound : forall debug I M, tw_inst_ok I M -> forall ds v,
  solution tw_state (tw_problem debug I) tw_nv ds v ->
  exists l T, feasible_tour I l T /\ ds = visits 0 (l ++ [0%nat]) /\ v = - T.
Proof. exact solutions_are_tours. Qed.
Print Assumptions C38_solutions_are_tours_sound.
(** but a feasible instance may have no solution at all. *)
Theorem C38_tour_missed_refuted : exists I M l T, tw_inst_ok I M /\ feasible_tour I l T /\
  forall debug ds v, ~ solution tw_state (tw_problem debug I) tw_nv ds v.
Proof. exact (ex_intro _ no_triangle (ex_intro _ 10 (ex_intro _ _ (ex_intro _ _ (conj no_triangle_ok (conj no_triangle_tour no_triangle_none)))))). Qed.
Print Assumptions C38_tour_missed_refuted.

(** Five nodes, Manhattan distances: 0, 1, 4, 3, 2, 0 takes 46. *)
Example C38_case : tw_inst_ok lost 23 /\ triangle lost /\ feasible_tour lost [1; 4; 3; 2]%nat 46 /\
  ~ exists T, feasible_tour lost [4; 1; 2; 3]%nat T.
Proof. exact (conj lost_ok (conj lost_triangle (conj lost_tour lost_not_tour))). Qed.

(** The decisions of a solution are those that the diagrams ask for: [next_variable] on states reached by [k] decisions is [k],
    and there is none after the return to the depot. *)
Theorem C38_asked_in_order : forall debug I M, tw_inst_ok I M -> forall k l, l <> [] ->
  (forall s, In s l -> exists ds c, run tw_state (tw_problem debug I) tw_nv 0 (pb_init (tw_problem debug I)) ds k s c) ->
  pb_next_var (tw_problem debug I) l = if (k <? tw_n I)%nat then Some k else None.
Proof. exact tw_asked. Qed.
Print Assumptions C38_asked_in_order.
Example C38_asked_case : pb_next_var (tw_problem true lost) [pb_init (tw_problem true lost)] = Some 0%nat /\
  exists s c, run tw_state (tw_problem true lost) tw_nv 0 (pb_init (tw_problem true lost)) (visits 0 [1; 4; 3; 2; 0]%nat) 5 s c /\
    pb_next_var (tw_problem true lost) [s] = None.
Proof.
  split; [reflexivity|]. destruct (tours_are_solutions true lost 23 lost_ok [1; 4; 3; 2]%nat 46 lost_triangle lost_tour) as (c & (s & H) & _).
  exists s, c. split; [exact H|]. apply (tw_asked true lost 23 lost_ok 5); [discriminate|]. intros x [<-|[]]. exists (visits 0 [1; 4; 3; 2; 0]%nat), c. exact H.
Qed.

(* ------------------------------------------------------------------ *)
(** C39 is false as stated: keeping the cost of an arc while the target is replaced by a merged state that is reached earlier
    makes waiting count, so that the path through the merged state may be worth less than the real one. Node 1 then 2, 3, 4
    and the depot takes 12 from the first state; from the merged state every completion takes 20 or more. *)
Theorem C39_merge_loses_refuted : exists I M l src d ds c, forall debug,
  let P := tw_problem debug I in
  tw_inst_ok I M /\ triangle I /\
  (forall s, In s l -> exists ds0 c0, run tw_state P tw_nv 0 (pb_init P) ds0 1 s c0) /\
  In d (pb_domain P 0 src) /\ src = pb_init P /\ In (pb_trans P src d) l /\ completion tw_state P tw_nv 1 (pb_trans P src d) ds c /\
  forall ds' c', completion tw_state P tw_nv 1 (rx_merge (tw_relax I) l) ds' c' ->
    rx_relax (tw_relax I) src (pb_trans P src d) (rx_merge (tw_relax I) l) d (pb_cost P src d) + c' < pb_cost P src d + c.
Proof. exact waiting_loses. Qed.
Print Assumptions C39_merge_loses_refuted.

(** What does hold: whatever can be done from a state that was merged can be done from the merged state, and the tour is then
    over no later. Missing for the claim: the value of the path, which is not the finishing time. *)
Theorem C39_merged_finishes_no_later_partial : forall debug I M, tw_inst_ok I M -> forall k l s ds c,
  (k <= tw_n I)%nat -> Forall (tw_layer I M k) l -> In s l -> completion tw_state (tw_problem debug I) tw_nv k s ds c ->
  exists c', completion tw_state (tw_problem debug I) tw_nv k (rx_merge (tw_relax I) l) ds c' /\
    time_of (rx_merge (tw_relax I) l) - c' <= time_of s - c.
Proof. exact merge_finishes. Qed.
Print Assumptions C39_merged_finishes_no_later_partial.
(** And the claim is true of instances in which nobody ever waits. *)
Theorem C39_no_waiting_partial : forall debug I M, tw_inst_ok I M -> (forall j, (j < tw_n I)%nat -> opens I j = 0) ->
  relaxation_cover tw_state (tw_problem debug I) (tw_layer I M) tw_nv (tw_relax I).
Proof. exact cover_no_waiting. Qed.
Print Assumptions C39_no_waiting_partial.
(** Moreover the states of a layer stay in that layer when merged, and all the costs are bounded. *)
Theorem C39_well_formed_partial : forall debug I M, tw_inst_ok I M ->
  well_formed tw_state tw_eqb (tw_problem debug I) (tw_relax I) (tw_layer I M) tw_nv ((Z.of_nat (tw_n I) + 1) * M).
Proof. exact tsptw_formed. Qed.
Print Assumptions C39_well_formed_partial.

(** The two states merged above, and an instance without waiting. *)
Example C39_case : tw_inst_ok waiting 20 /\ Forall (tw_layer waiting 20 1) [first_visit waiting 1; first_visit waiting 2] /\
  completion tw_state (tw_problem true waiting) tw_nv 1 (first_visit waiting 1) (visits 1 [2; 3; 4; 0]%nat) (-12) /\
  tw_inst_ok (uniform 4) 1 /\ forall j, (j < 4)%nat -> opens (uniform 4) j = 0.
Proof. exact waiting_case. Qed.

(* ------------------------------------------------------------------ *)
(** C40 is false as stated: the estimate of a merged state may be below the value of a completion, of that state as well as
    of a state that was merged: the depot is counted among the cities still to be visited. *)
Theorem C40_estimate_of_merged_refuted : exists I M l s e ds c, forall debug,
  let P := tw_problem debug I in
  tw_inst_ok I M /\ triangle I /\
  (forall s', In s' l -> exists ds0 c0, run tw_state P tw_nv 0 (pb_init P) ds0 1 s' c0) /\
  In s l /\ completion tw_state P tw_nv 1 s ds c /\
  tw_estimate debug I (rx_merge (tw_relax I) l) = Some e /\ e < c /\
  exists c', completion tw_state P tw_nv 1 (rx_merge (tw_relax I) l) ds c' /\ e < c'.
Proof. exact estimate_too_low. Qed.
Print Assumptions C40_estimate_of_merged_refuted.

(** It may even say that a merged state has no completion at all, although a state that was merged has one: here two more
    cities are thought to be necessary where one is, and there is no time for two. *)
Theorem C40_called_hopeless_refuted : exists I M l s ds c, forall debug,
  let P := tw_problem debug I in
  tw_inst_ok I M /\ triangle I /\
  (forall s', In s' l -> exists ds0 c0, run tw_state P tw_nv 0 (pb_init P) ds0 1 s' c0) /\
  In s l /\ completion tw_state P tw_nv 1 s ds c /\ tw_estimate debug I (rx_merge (tw_relax I) l) = Some IMIN.
Proof. exact called_hopeless. Qed.
Print Assumptions C40_called_hopeless_refuted.

(** What does hold: it is an upper bound on the states that are really reached. Missing: merged states and their successors. *)
Theorem C40_estimate_of_reached_partial : forall debug I M, tw_inst_ok I M -> forall k s ds0 c0,
  run tw_state (tw_problem debug I) tw_nv 0 (pb_init (tw_problem debug I)) ds0 k s c0 -> (k < tw_n I)%nat ->
  exists e, tw_estimate debug I s = Some e /\
    forall ds c, completion tw_state (tw_problem debug I) tw_nv k s ds c -> c <= e.
Proof. exact estimate_reached. Qed.
Print Assumptions C40_estimate_of_reached_partial.

(** On merged states and their successors it can only be evaluated against the states they stand for: a merged state covers
    the states it was made of, and keeps covering them when the same decision is taken on both sides. *)
Theorem C40_merged_covers : forall I M, tw_inst_ok I M -> forall k l s, (k <= tw_n I)%nat -> Forall (tw_layer I M k) l -> In s l ->
  tw_layer I M k (rx_merge (tw_relax I) l) /\ covers I (rx_merge (tw_relax I) l) s.
Proof. exact merged_covers. Qed.
Print Assumptions C40_merged_covers.
Theorem C40_step_covers : forall debug I M, tw_inst_ok I M -> forall k m s j, tw_layer I M k m -> tw_layer I M k s -> covers I m s ->
  let P := tw_problem debug I in let d := mk_dec (tw_nv k) (Z.of_nat j) in
  In d (pb_domain P (tw_nv k) s) -> (k < tw_n I)%nat ->
  In d (pb_domain P (tw_nv k) m) /\ tw_layer I M (S k) (pb_trans P m d) /\ covers I (pb_trans P m d) (pb_trans P s d).
Proof. exact step_covers. Qed.
Print Assumptions C40_step_covers.
(** On a state [m] that covers a state [s] really reached, the estimate never panics, also in a debug build. It is an upper
    bound on the completions of [s] when [m] has no city that it may skip. Otherwise it is too low by at most the way to one
    more city [i] that [m] may visit and [s] need not, provided there is the time to visit it. Missing: the cases without that
    time, see above. *)
Theorem C40_estimate_of_covering_partial : forall debug I M, tw_inst_ok I M -> forall k m s ds0 c0,
  run tw_state (tw_problem debug I) tw_nv 0 (pb_init (tw_problem debug I)) ds0 k s c0 -> (k < tw_n I)%nat ->
  tw_layer I M k m -> covers I m s ->
  exists e, tw_estimate debug I m = Some e /\
    forall ds c, completion tw_state (tw_problem debug I) tw_nv k s ds c ->
      (tw_maybe m = None -> c <= e) /\
      (forall i j, (S k < tw_n I)%nat -> may_visit m i -> ~ must_visit s i -> (j < tw_n I)%nat -> j <> i ->
         time_of m + dist I j i <= closes I i -> time_of m - c + dist I j i <= closes I 0 -> c <= e + dist I j i).
Proof. exact estimate_covering_reached. Qed.
Print Assumptions C40_estimate_of_covering_partial.

(** The states that have visited node 1 and node 2, merged: the estimate is 4 although 3 are left; node 1 is 1 away. *)
Example C40_covering_case : tw_inst_ok (uniform 4) 1 /\ tw_layer (uniform 4) 1 1 merged4 /\ covers (uniform 4) merged4 (first_visit (uniform 4) 1) /\
  tw_estimate true (uniform 4) merged4 = Some (-4) /\
  completion tw_state (tw_problem true (uniform 4)) tw_nv 1 (first_visit (uniform 4) 1) (visits 1 [2; 3; 0]%nat) (-3) /\
  may_visit merged4 1 /\ ~ must_visit (first_visit (uniform 4) 1) 1 /\ dist (uniform 4) 2 1 = 1 /\
  time_of merged4 + 1 <= closes (uniform 4) 1 /\ time_of merged4 + 3 + 1 <= closes (uniform 4) 0.
Proof. exact merged4_case. Qed.

(** From the state that has visited node 1, the rest takes 3 and the estimate is 3. *)
Example C40_case : tw_inst_ok (uniform 4) 1 /\
  (exists c0, run tw_state (tw_problem true (uniform 4)) tw_nv 0 (pb_init (tw_problem true (uniform 4))) (visits 0 [1%nat]) 1 (first_visit (uniform 4) 1) c0) /\
  tw_estimate true (uniform 4) (first_visit (uniform 4) 1) = Some (-3) /\
  completion tw_state (tw_problem true (uniform 4)) tw_nv 1 (first_visit (uniform 4) 1) (visits 1 [2; 3; 0]%nat) (-3).
Proof. exact (conj uniform4_ok (conj (uniform4_reached true 1 ltac:(lia)) (conj eq_refl (merged4_one true)))). Qed.

(* ------------------------------------------------------------------ *)
(** C41. No function of the model panics on the states of the layers, exact or merged, in a release build; in a debug build
    this is proved of all of them but [estimate], described below. *)
Theorem C41_no_panic_partial : forall debug I M, tw_inst_ok I M -> forall k s, (k < tw_n I)%nat -> tw_layer I M k s ->
  (exists l, tw_domain debug I (tw_nv k) s = Some l /\
     forall d, In d l -> (exists s', tw_trans I s d = Some s') /\ (exists c, tw_cost I s d = Some c)) /\
  (exists e, tw_estimate false I s = Some e).
Proof. exact no_panic. Qed.
Print Assumptions C41_no_panic_partial.
(** In a debug build [estimate] panics: here a merged state has visited four of the cities it may visit, and none of the two
    it must. *)
Theorem C41_debug_estimate_panics_refuted : exists I M l ds s c,
  let P := tw_problem true I in
  tw_inst_ok I M /\ (forall s', In s' l -> exists ds0 c0, run tw_state P tw_nv 0 (pb_init P) ds0 2 s' c0) /\
  run tw_state P tw_nv 2 (rx_merge (tw_relax I) l) ds 6 s c /\ (6 < tw_n I)%nat /\ tw_estimate true I s = None.
Proof. exact debug_panics. Qed.
Print Assumptions C41_debug_estimate_panics_refuted.
(** That is the only reason: with [l] the cities that must be visited, in increasing order, a debug build panics in a layer state
    exactly when there are more of them than decisions left and each of the first ones, as many as decisions left, can be
    reached in time from some other city. *)
Theorem C41_debug_estimate_exactly : forall I M, tw_inst_ok I M -> forall k s l, (k < tw_n I)%nat -> tw_layer I M k s ->
  StronglySorted lt l -> (forall i, In i l <-> must_visit s i) ->
  (tw_estimate true I s = None <->
   (tw_n I - k < length l)%nat /\ forall i, In i (firstn (tw_n I - k) l) ->
     exists j, (j < tw_n I)%nat /\ j <> i /\ time_of s + dist I j i <= closes I i).
Proof. exact debug_exactly. Qed.
Print Assumptions C41_debug_estimate_exactly.
(** Where a debug build panics on a state with cities that may be skipped, a release build gives it up. *)
Theorem C41_release_gives_up : forall I M, tw_inst_ok I M -> forall k s, Z.of_nat (tw_n I) <= IMAX -> (k < tw_n I)%nat -> tw_layer I M k s ->
  tw_maybe s <> None -> tw_estimate true I s = None -> tw_estimate false I s = Some IMIN.
Proof. exact release_hopeless. Qed.
Print Assumptions C41_release_gives_up.
(** The state above: one decision is left and 5 and 6 must be visited, of which 5 is 1 away. *)
Example C41_debug_case :
  match late7 with
  | Some (s, _) => tw_depth s = 6%nat /\ (forall i, In i [5; 6]%nat -> must_visit s i) /\ time_of s + dist (uniform 7) 4 5 <= closes (uniform 7) 5 /\
      tw_estimate true (uniform 7) s = None /\ tw_estimate false (uniform 7) s = Some IMIN /\ tw_maybe s <> None
  | None => False
  end.
Proof. vm_compute. split; [reflexivity|]. split; [intros i [<-|[<-|[]]]; reflexivity|]. split; [discriminate|]. split; [reflexivity|]. split; [reflexivity|discriminate]. Qed.
Example C41_case : tw_inst_ok (uniform 7) 1 /\ tw_layer (uniform 7) 1 2 merged7 /\
  tw_estimate true (uniform 7) merged7 = Some (-6) /\ length (pb_domain (tw_problem true (uniform 7)) 2 merged7) = 6%nat.
Proof. exact merged7_case. Qed.

(* ------------------------------------------------------------------ *)
(** C42 is false: with the width of the example, its frontier and one thread, either solver with either cutset may answer that
    an instance is infeasible although it has a tour, *)
Theorem C42_feasible_called_infeasible_refuted : exists I M l T, tw_inst_ok I M /\ triangle I /\ feasible_tour I l T /\
  forall ct,
  (exists st, reachable tw_state tw_eqb (tw_cfg false I 1 ct) 1 1 st /\ proved _ st /\ best_value_of _ st = None) /\
  (exists st, breachable tw_state tw_eqb (tw_cfg false I 1 ct) 1 1 st /\ bproved _ st /\ bbest_value _ st = None).
Proof. exact lost_refutes. Qed.
Print Assumptions C42_feasible_called_infeasible_refuted.
(** or that a tour is the best one although another is shorter. *)
Theorem C42_worse_tour_called_optimal_refuted : exists I M l T T', tw_inst_ok I M /\ triangle I /\ feasible_tour I l T /\ T < T' /\
  forall ct,
  (exists st, reachable tw_state tw_eqb (tw_cfg false I 1 ct) 1 1 st /\ proved _ st /\ best_value_of _ st = Some (- T')) /\
  (exists st, breachable tw_state tw_eqb (tw_cfg false I 1 ct) 1 1 st /\ bproved _ st /\ bbest_value _ st = Some (- T')).
Proof. exact worse_refutes. Qed.
Print Assumptions C42_worse_tour_called_optimal_refuted.
(** This does not take any waiting or deadline: here every node is open from the start, and long enough for any tour. *)
Theorem C42_without_windows_refuted : exists I M l T T', tw_inst_ok I M /\ triangle I /\ (forall j, (j < tw_n I)%nat -> opens I j = 0 /\ Z.of_nat (tw_n I) * M <= closes I j) /\
  feasible_tour I l T /\ T < T' /\
  forall ct,
  (exists st, reachable tw_state tw_eqb (tw_cfg false I 1 ct) 1 1 st /\ proved _ st /\ best_value_of _ st = Some (- T')) /\
  (exists st, breachable tw_state tw_eqb (tw_cfg false I 1 ct) 1 1 st /\ bproved _ st /\ bbest_value _ st = Some (- T')).
Proof. exact open_refutes. Qed.
Print Assumptions C42_without_windows_refuted.
(** What does hold, with any number of threads and at any time: the solution reported is a feasible tour, of the makespan
    reported. Missing: that it is the best one. *)
Theorem C42_reported_is_a_tour_partial : forall debug I M factor ct n m st v,
  tw_inst_ok I M -> (1 <= factor)%nat -> (m <= n)%nat ->
  reachable tw_state tw_eqb (tw_cfg debug I factor ct) n m st -> best_value_of _ st = Some v ->
  exists l t T, best_solution_of _ st = Some l /\ feasible_tour I t T /\ Permutation l (visits 0 (t ++ [0%nat])) /\ v = - T.
Proof. exact par_tour. Qed.
Print Assumptions C42_reported_is_a_tour_partial.
Theorem C42_barrier_reported_is_a_tour_partial : forall debug I M factor ct n m st v,
  tw_inst_ok I M -> (1 <= factor)%nat -> (m <= n)%nat ->
  breachable tw_state tw_eqb (tw_cfg debug I factor ct) n m st -> bbest_value _ st = Some v ->
  exists l t T, bbest_solution _ st = Some l /\ feasible_tour I t T /\ Permutation l (visits 0 (t ++ [0%nat])) /\ v = - T.
Proof. exact bar_tour. Qed.
Print Assumptions C42_barrier_reported_is_a_tour_partial.
Example C42_case : tw_inst_ok worse 47 /\
  exists st, reachable tw_state tw_eqb (tw_cfg false worse 1 LastExactLayer) 1 1 st /\ best_value_of _ st = Some (-75) /\ best_solution_of _ st = Some sol75.
Proof. exact (conj worse_ok worse_case). Qed.
