(** Property theorems C36, C37, C45-C48: the single-row facility layout example (examples/srflp). *)
From Verif Require Import Spec DdSpec ParSpec BarSpec Srflp SrflpSpec SrflpLayouts SrflpMerge SrflpFlows SrflpAdmissible SrflpProofs SrflpCases AskedProofs.
Open Scope Z_scope.

(* ------------------------------------------------------------------ *)
(** C36. The solutions of the model are the layouts, worth minus what their distances cost beyond what no layout avoids. *)
Theorem C36_solutions_are_layouts : forall debug I F L, sr_ok I F L -> forall ds v,
  solution sr_state (sr_problem debug I) sr_nv ds v <->
  exists l, layout I l /\ ds = layout_decisions l /\ 2 * v = unavoidable2 I - layout_cost2 I l.
Proof. exact solutions_are_layouts. Qed.
Print Assumptions C36_solutions_are_layouts.
(** The decisions of a solution are those that the diagrams ask for: one for each place of the row, in order. *)
Theorem C36_asked_in_order : forall debug I F L, sr_ok I F L -> forall k l, l <> [] ->
  (forall s, In s l -> exists ds c, run sr_state (sr_problem debug I) sr_nv 0 (pb_init (sr_problem debug I)) ds k s c) ->
  pb_next_var (sr_problem debug I) l = if (k <? sr_n I)%nat then Some k else None.
Proof. exact sr_asked. Qed.
Print Assumptions C36_asked_in_order.
Example C36_asked_case : pb_next_var (sr_problem false row) [pb_init (sr_problem false row)] = Some 0%nat /\
  exists s c, run sr_state (sr_problem false row) sr_nv 0 (pb_init (sr_problem false row)) (layout_decisions row_best) 5 s c /\
    pb_next_var (sr_problem false row) [s] = None.
Proof.
  split; [vm_compute; reflexivity|]. destruct row_case as (H1 & H2 & _ & _ & (c & (s & H) & _)).
  exists s, c. split; [exact H|]. apply (sr_asked false row 6 5 H1 5); [discriminate|]. intros x [<-|[]]. exists (layout_decisions row_best), c. exact H.
Qed.
(** Five departments in the order 3, 2, 1, 0, 4: (184 - 128) / 2 = 28. *)
Example C36_case : sr_ok row 6 5 /\ layout row row_best /\ layout_cost2 row row_best = 184 /\ unavoidable2 row = 128 /\
  solution sr_state (sr_problem false row) sr_nv [mk_dec 0 3; mk_dec 1 2; mk_dec 2 1; mk_dec 3 0; mk_dec 4 4] (- 28).
Proof. exact row_case. Qed.

(* ------------------------------------------------------------------ *)
(** C37. The decisions that complete a state complete any state it is merged into, and are worth as much there at least. *)
Theorem C37_merge_covers : forall debug I F L, sr_ok I F L -> forall k l s ds c, (k <= sr_n I)%nat -> Forall (sr_layer I F k) l -> In s l ->
  completion sr_state (sr_problem debug I) sr_nv k s ds c ->
  exists m c', sr_merge I l = Some m /\ completion sr_state (sr_problem debug I) sr_nv k m ds c' /\ c <= c'.
Proof. exact merge_completion. Qed.
Print Assumptions C37_merge_covers.
(** The layers hold every state that exploration can produce: the initial one, the successors, and what is merged. *)
Theorem C37_well_formed : forall I F L, sr_ok I F L -> forall debug,
  well_formed sr_state sr_eqb (sr_problem debug I) (sr_relax I) (sr_layer I F) sr_nv (Z.of_nat (sr_n I) * Z.of_nat (sr_n I) * F * L).
Proof. exact sr_formed. Qed.
Print Assumptions C37_well_formed.
(** Departments 0 and 1 placed, and 0 and 2: the same three decisions are worth -59 before merging and -25 after. *)
Example C37_case : sr_ok row 6 5 /\ sr_layer row 6 2 (row_next 1) /\ sr_layer row 6 2 (row_next 2) /\
  row_next 1 = mk_srs 28 None [0; 0; 6; 1; 3] 2 /\ row_next 2 = mk_srs 26 None [0; 9; 0; 6; 5] 2 /\
  sr_merge row [row_next 1; row_next 2] = Some (mk_srs 24 (Some 6%N) [IMAX; 9; 6; 1; 3] 2) /\
  completion sr_state (sr_problem false row) sr_nv 2 (row_next 2) last_three (- 59) /\
  completion sr_state (sr_problem false row) sr_nv 2 (mk_srs 24 (Some 6%N) [IMAX; 9; 6; 1; 3] 2) last_three (- 25).
Proof. exact row_merge_case. Qed.

(* ------------------------------------------------------------------ *)
(** C45. The estimate is an upper bound, on the states of all the layers, exact or merged, as long as the product of a cut and
    a length has 23 bits at most. (In a debug build it panics on some states: C46.) *)
Theorem C45_estimate_partial : forall I F L, sr_ok I F L -> forall debug k s ds c, sr_layer I F k s -> (k < sr_n I)%nat ->
  debug = false \/ (size I (must s) < sr_n I - k)%nat -> Z.of_nat (sr_n I) * F * L < 2 ^ 23 ->
  completion sr_state (sr_problem debug I) sr_nv k s ds c -> exists e, sr_estimate debug I s = Some e /\ c <= e.
Proof. exact estimate_admissible. Qed.
Print Assumptions C45_estimate_partial.
(** What is missing is false: the ratios that decide on an order are rounded to 24 bits. *)
Theorem C45_wide_refuted : exists I F L k s ds0 c0 ds c e, sr_ok I F L /\ run sr_state (sr_problem false I) sr_nv 0 (sr_init I) ds0 k s c0 /\ (k < sr_n I)%nat /\
  completion sr_state (sr_problem false I) sr_nv k s ds c /\ sr_estimate false I s = Some e /\ e < c.
Proof. exact wide_refutes. Qed.
Print Assumptions C45_wide_refuted.
Example C45_case : sr_ok row 6 5 /\ Z.of_nat (sr_n row) * 6 * 5 < 2 ^ 23 /\ sr_layer row 6 2 row_mix /\ (size row (must row_mix) < sr_n row - 2)%nat /\
  sr_estimate false row row_mix = Some (- 9) /\ sr_estimate true row row_mix = Some (- 9) /\
  completion sr_state (sr_problem false row) sr_nv 2 row_mix [mk_dec 2 2; mk_dec 3 3; mk_dec 4 4] (- 19).
Proof. exact row_estimate_case. Qed.

(* ------------------------------------------------------------------ *)
(** C46. In a release build no function of the model panics on the states of the layers, exact or merged. *)
Theorem C46_no_panic_partial : forall I F L, sr_ok I F L -> forall k s, (k < sr_n I)%nat -> sr_layer I F k s ->
  (forall debug, exists l, sr_domain debug I (sr_nv k) s = Some l /\
     forall d, In d l -> (exists s', sr_trans I s d = Some s') /\ (exists c, sr_cost debug I s d = Some c)) /\
  (forall l, Forall (sr_layer I F k) l -> l <> [] -> exists m, sr_merge I l = Some m) /\
  exists e, sr_estimate false I s = Some e.
Proof. exact panic_free. Qed.
Print Assumptions C46_no_panic_partial.
(** In a debug build the estimate panics on every exact state, so on the very first one, whatever the instance; *)
Theorem C46_debug_estimate_panics : forall I F L, sr_ok I F L -> forall ds k s c,
  run sr_state (sr_problem true I) sr_nv 0 (sr_init I) ds k s c -> (k < sr_n I)%nat -> sr_estimate true I s = None.
Proof. exact exact_debug_panics. Qed.
Print Assumptions C46_debug_estimate_panics.
(** it does not on the merged states that leave a choice of the departments to place. *)
Theorem C46_debug_merged_partial : forall I F L, sr_ok I F L -> forall k s, sr_layer I F k s -> (k < sr_n I)%nat ->
  (size I (must s) < sr_n I - k)%nat -> exists e, sr_estimate true I s = Some e.
Proof. exact merged_debug. Qed.
Print Assumptions C46_debug_merged_partial.
Example C46_case : sr_ok row 6 5 /\ run sr_state (sr_problem true row) sr_nv 0 (sr_init row) [mk_dec 0 0; mk_dec 1 2] 2 (row_next 2) (- 8) /\
  sr_estimate false row (row_next 2) = Some (- 59) /\ sr_estimate true row (row_next 2) = None.
Proof. exact row_debug. Qed.

(* ------------------------------------------------------------------ *)
(** C47. With the width and the fringe of the example, the last exact layer as cutset, and numbers small enough for C45: when
    the solver answers that it has proved the optimum it reports a cheapest layout. *)
Theorem C47_parallel_best_partial : forall I F L, sr_ok I F L -> forall factor, (1 <= factor)%nat -> Z.of_nat (sr_n I) * F * L < 2 ^ 23 ->
  forall nt m st, (1 <= m <= nt)%nat ->
  reachable sr_state sr_eqb (sr_cfg false I factor LastExactLayer) nt m st -> proved _ st ->
  exists v l p, best_value_of _ st = Some v /\ best_solution_of _ st = Some l /\ best_layout I p /\ Permutation l (layout_decisions p) /\
    2 * v = unavoidable2 I - layout_cost2 I p.
Proof. exact par_sr. Qed.
Print Assumptions C47_parallel_best_partial.
(** The same of the solver with a barrier, run with one thread. *)
Theorem C47_barrier_best_partial : forall I F L, sr_ok I F L -> forall factor, (1 <= factor)%nat -> Z.of_nat (sr_n I) * F * L < 2 ^ 23 ->
  forall nt st, (1 <= nt)%nat ->
  breachable sr_state sr_eqb (sr_cfg false I factor LastExactLayer) nt 1 st -> bproved _ st ->
  exists v l p, bbest_value _ st = Some v /\ bbest_solution _ st = Some l /\ best_layout I p /\ Permutation l (layout_decisions p) /\
    2 * v = unavoidable2 I - layout_cost2 I p.
Proof. exact bar_sr. Qed.
Print Assumptions C47_barrier_best_partial.
(** What is missing: larger numbers, for which either solver with either cutset may be wrong, *)
Theorem C47_wide_refuted : exists I F L p v, sr_ok I F L /\ layout I p /\ 2 * v < unavoidable2 I - layout_cost2 I p /\ forall ct,
  (exists st, reachable sr_state sr_eqb (sr_cfg false I 1 ct) 1 1 st /\ proved _ st /\ best_value_of _ st = Some v) /\
  (exists st, breachable sr_state sr_eqb (sr_cfg false I 1 ct) 1 1 st /\ bproved _ st /\ bbest_value _ st = Some v).
Proof. exact star_refutes. Qed.
Print Assumptions C47_wide_refuted.
(** and the frontier cutset. In all cases, with any number of threads and at any time, what is reported is a layout and what
    it costs. *)
Theorem C47_parallel_layout_partial : forall I F L, sr_ok I F L -> forall factor, (1 <= factor)%nat ->
  forall ct nt m st v, (m <= nt)%nat -> reachable sr_state sr_eqb (sr_cfg false I factor ct) nt m st -> best_value_of _ st = Some v ->
  exists l p, best_solution_of _ st = Some l /\ layout I p /\ Permutation l (layout_decisions p) /\ 2 * v = unavoidable2 I - layout_cost2 I p.
Proof. exact par_layout. Qed.
Print Assumptions C47_parallel_layout_partial.
Theorem C47_barrier_layout_partial : forall I F L, sr_ok I F L -> forall factor, (1 <= factor)%nat ->
  forall ct nt m st v, (m <= nt)%nat -> breachable sr_state sr_eqb (sr_cfg false I factor ct) nt m st -> bbest_value _ st = Some v ->
  exists l p, bbest_solution _ st = Some l /\ layout I p /\ Permutation l (layout_decisions p) /\ 2 * v = unavoidable2 I - layout_cost2 I p.
Proof. exact bar_layout. Qed.
Print Assumptions C47_barrier_layout_partial.
Example C47_case : sr_ok row 6 5 /\ Z.of_nat (sr_n row) * 6 * 5 < 2 ^ 23 /\
  (exists st, reachable sr_state sr_eqb (sr_cfg false row 1 LastExactLayer) 2 2 st /\ proved _ st /\ best_value_of _ st = Some (-28)) /\
  (exists st, breachable sr_state sr_eqb (sr_cfg false row 1 LastExactLayer) 1 1 st /\ bproved _ st /\ bbest_value _ st = Some (-28)).
Proof. exact row_solved. Qed.

(* ------------------------------------------------------------------ *)
(** C48. Whatever matrix of flows is read, the instance has a symmetric one: two different flows between two departments are
    added up, two equal ones are taken once, provided that the sums can be represented. *)
Theorem C48_flows_symmetric : forall debug n m, square n m ->
  (forall i j, (i < n)%nat -> (j < n)%nat -> i <> j -> in_isize (total_flow (entry m i j) (entry m j i))) ->
  exists m', sr_fold_flows debug n m = Some m' /\ square n m' /\
  forall i j, (i < n)%nat -> (j < n)%nat -> entry m' i j = entry m' j i /\ entry m' i j = if Nat.eqb i j then entry m i j else total_flow (entry m i j) (entry m j i).
Proof. exact flows_folded. Qed.
Print Assumptions C48_flows_symmetric.
Example C48_case : square 3 uneven /\
  (forall i j, (i < 3)%nat -> (j < 3)%nat -> i <> j -> in_isize (total_flow (entry uneven i j) (entry uneven j i))) /\
  sr_fold_flows true 3 uneven = Some (mk_mat 3 3 [7; 3; 4; 3; 8; 5; 4; 5; 9]).
Proof. exact uneven_case. Qed.
