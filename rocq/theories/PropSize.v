(** Property theorems C67: the maximum width bounds the work and the number of nodes of a compilation, hence the work of a search. *)
From Verif Require Import Dd DdSpec MddAll MddBarrier MddBarrierSpec ParSpec BarSpec SizeSpec SizeSolvers EdgeProofs Table MddCases ParCases BarCases MddBarrierCases SizeCases.
From Coq Require Import Lia.
Open Scope nat_scope.

(** A restricted diagram expands at most [max_width] nodes per variable that is not assigned yet, and holds at most one node for each
    value of each of them, besides the root. Whatever was compiled with the object before. *)
Theorem C67_restricted_size : forall S eqb P R at_depth nv C D debug orc inp (d dF : dd S),
  well_formed S eqb P R at_depth nv C -> good_call S P R nv debug orc inp -> domains_within S P at_depth nv D ->
  MddAll.compile eqb debug orc inp d = Some dF -> i_type inp = Restricted ->
  g_explored dF <= most_restricted (i_width inp) (pb_nb_vars P - depth_of (i_res inp)) /\
  length (g_nodes dF) <= 1 + most_restricted (i_width inp) (pb_nb_vars P - depth_of (i_res inp)) * D.
Proof. exact all_restricted. Qed.
Print Assumptions C67_restricted_size.
Example C67_restricted_case : domains_within tstate (t_problem tabA) t_at t_nv 2 /\
  good_call tstate (t_problem tabA) (t_relax tabA) t_nv true orc_fwd (t_call tabA Restricted 1 0 (t_root tabA)) /\ most_restricted 1 3 = 3 /\
  exists d, MddAll.compile ts_eqb true orc_fwd (t_call tabA Restricted 1 0 (t_root tabA)) (dd_new LastExactLayer) = Some d /\ g_explored d = 3 /\ length (g_nodes d) = 5.
Proof. exact (conj tabA_domains (conj (tabA_call Restricted 1 0 ltac:(lia)) (conj eq_refl restricted_nodes))). Qed.

(** A relaxed diagram expands the root, the nodes right below it, however many, and at most [max_width] nodes in each of the next layers.
    It holds one node for each of their values, the root and at most one merged node per reduced layer. *)
Theorem C67_relaxed_size : forall S eqb P R at_depth nv C D debug orc inp (d dF : dd S),
  well_formed S eqb P R at_depth nv C -> good_call S P R nv debug orc inp -> domains_within S P at_depth nv D ->
  MddAll.compile eqb debug orc inp d = Some dF -> i_type inp = Relaxed ->
  g_explored dF <= most_relaxed (i_width inp) D (pb_nb_vars P - depth_of (i_res inp)) /\
  length (g_nodes dF) <= 1 + most_relaxed (i_width inp) D (pb_nb_vars P - depth_of (i_res inp)) * D + (pb_nb_vars P - depth_of (i_res inp) - 2).
Proof. exact all_relaxed. Qed.
Print Assumptions C67_relaxed_size.
(** The bound on the expanded nodes is reached. *)
Example C67_relaxed_case : domains_within tstate (t_problem tabA) t_at t_nv 2 /\
  good_call tstate (t_problem tabA) (t_relax tabA) t_nv true orc_fwd (t_call tabA Relaxed 1 0 (t_root tabA)) /\ most_relaxed 1 2 3 = 4 /\
  exists d, MddAll.compile ts_eqb true orc_fwd (t_call tabA Relaxed 1 0 (t_root tabA)) (dd_new LastExactLayer) = Some d /\ g_explored d = 4 /\ length (g_nodes d) = 8.
Proof. exact (conj tabA_domains (conj (tabA_call Relaxed 1 0 ltac:(lia)) (conj eq_refl narrow_nodes))). Qed.

(** So the width does not bound a relaxed diagram the way it bounds a restricted one: it may expand more than [max_width] nodes per
    variable. *)
Theorem C67_relaxed_within_width_refuted : exists (t : table) inp dF, well_behaved tstate ts_eqb (t_problem t) (t_relax t) t_at t_nv 1000 /\
  good_call tstate (t_problem t) (t_relax t) t_nv true orc_fwd inp /\ i_type inp = Relaxed /\
  MddAll.compile ts_eqb true orc_fwd inp (dd_new LastExactLayer) = Some dF /\ (pb_nb_vars (t_problem t) - depth_of (i_res inp)) * i_width inp < g_explored dF.
Proof. exact over_width. Qed.
Print Assumptions C67_relaxed_within_width_refuted.

(** The same for the diagrams with thresholds, whatever the other threads write in the meantime. *)
Theorem C67_barrier_restricted_size : forall S eqb P R at_depth nv C D alone debug orc inp (d dF : dd S) T T',
  well_formed S eqb P R at_depth nv C -> good_call S P R nv debug orc inp -> domains_within S P at_depth nv D ->
  returns eqb alone (MddBarrier.compile eqb debug orc inp d) T dF T' -> i_type inp = Restricted ->
  g_explored dF <= most_restricted (i_width inp) (pb_nb_vars P - depth_of (i_res inp)) /\
  length (g_nodes dF) <= 1 + most_restricted (i_width inp) (pb_nb_vars P - depth_of (i_res inp)) * D.
Proof. exact bar_restricted. Qed.
Print Assumptions C67_barrier_restricted_size.
Example C67_barrier_restricted_case : domains_within tstate (t_problem tabA) t_at t_nv 2 /\
  good_call tstate (t_problem tabA) (t_relax tabA) t_nv true orc_fwd (t_call tabA Restricted 1 0 (t_root tabA)) /\
  exists d T, returns ts_eqb false (MddBarrier.compile ts_eqb true orc_fwd (t_call tabA Restricted 1 0 (t_root tabA)) (dd_new LastExactLayer)) none4 d T /\
    g_explored d = 2 /\ length (g_nodes d) = 4.
Proof. exact (conj tabA_domains (conj (tabA_call Restricted 1 0 ltac:(lia)) bar_restricted_nodes)). Qed.
Theorem C67_barrier_relaxed_size : forall S eqb P R at_depth nv C D alone debug orc inp (d dF : dd S) T T',
  well_formed S eqb P R at_depth nv C -> good_call S P R nv debug orc inp -> domains_within S P at_depth nv D ->
  returns eqb alone (MddBarrier.compile eqb debug orc inp d) T dF T' -> i_type inp = Relaxed ->
  g_explored dF <= most_relaxed (i_width inp) D (pb_nb_vars P - depth_of (i_res inp)) /\
  length (g_nodes dF) <= 1 + most_relaxed (i_width inp) D (pb_nb_vars P - depth_of (i_res inp)) * D + (pb_nb_vars P - depth_of (i_res inp) - 2).
Proof. exact bar_relaxed. Qed.
Print Assumptions C67_barrier_relaxed_size.
Example C67_barrier_relaxed_case : domains_within tstate (t_problem tabA) t_at t_nv 2 /\
  good_call tstate (t_problem tabA) (t_relax tabA) t_nv true orc_fwd (t_call tabA Relaxed 3 0 (t_root tabA)) /\
  exists d T, returns ts_eqb false (MddBarrier.compile ts_eqb true orc_fwd (t_call tabA Relaxed 3 0 (t_root tabA)) (dd_new LastExactLayer)) none4 d T /\
    g_explored d = 5 /\ CountersCases.sources d = 5 /\ length (g_nodes d) = 7.
Proof. exact (conj tabA_domains (conj (tabA_call Relaxed 3 0 ltac:(lia)) CountersCases.added_nodes)). Qed.

(** There is at most one edge for each value of each expanded node of a restricted diagram, and at most twice as many in a relaxed one:
    each edge into a node that is merged is copied once at the most. With the theorems above the width bounds the number of edges. *)
Theorem C67_edges : forall S eqb P R at_depth nv C D debug orc inp (d dF : dd S),
  well_formed S eqb P R at_depth nv C -> good_call S P R nv debug orc inp -> domains_within S P at_depth nv D ->
  MddAll.compile eqb debug orc inp d = Some dF ->
  (i_type inp = Restricted -> length (g_edges dF) <= g_explored dF * D) /\ (i_type inp = Relaxed -> length (g_edges dF) <= 2 * (g_explored dF * D)).
Proof. exact all_edges. Qed.
Print Assumptions C67_edges.
Example C67_edges_case : domains_within tstate (t_problem tabA) t_at t_nv 2 /\
  good_call tstate (t_problem tabA) (t_relax tabA) t_nv true orc_fwd (t_call tabA Restricted 2 0 (t_root tabA)) /\
  exists d, MddAll.compile ts_eqb true orc_fwd (t_call tabA Restricted 2 0 (t_root tabA)) (dd_new LastExactLayer) = Some d /\ g_explored d = 5 /\ length (g_edges d) = 7.
Proof. exact (conj tabA_domains (conj (tabA_call Restricted 2 0 ltac:(lia)) restricted_edges)). Qed.
(** The copies are there: a relaxed diagram may have more edges than its expanded nodes have values. *)
Theorem C67_edges_not_copied_refuted : exists (t : table) inp dF, well_behaved tstate ts_eqb (t_problem t) (t_relax t) t_at t_nv 1000 /\ domains_within tstate (t_problem t) t_at t_nv 2 /\
  good_call tstate (t_problem t) (t_relax t) t_nv true orc_fwd inp /\ i_type inp = Relaxed /\
  MddAll.compile ts_eqb true orc_fwd inp (dd_new LastExactLayer) = Some dF /\ g_explored dF * 2 < length (g_edges dF).
Proof. exact edge_copied. Qed.
Print Assumptions C67_edges_not_copied_refuted.
Theorem C67_barrier_edges : forall S eqb P R at_depth nv C D alone debug orc inp (d dF : dd S) T T',
  well_formed S eqb P R at_depth nv C -> good_call S P R nv debug orc inp -> domains_within S P at_depth nv D ->
  returns eqb alone (MddBarrier.compile eqb debug orc inp d) T dF T' ->
  (i_type inp = Restricted -> length (g_edges dF) <= g_explored dF * D) /\ (i_type inp = Relaxed -> length (g_edges dF) <= 2 * (g_explored dF * D)).
Proof. exact bar_edges. Qed.
Print Assumptions C67_barrier_edges.
Example C67_barrier_edges_case : domains_within tstate (t_problem tabA) t_at t_nv 2 /\
  good_call tstate (t_problem tabA) (t_relax tabA) t_nv true orc_fwd (t_call tabA Relaxed 1 0 (t_root tabA)) /\
  exists d T, returns ts_eqb false (MddBarrier.compile ts_eqb true orc_fwd (t_call tabA Relaxed 1 0 (t_root tabA)) (dd_new LastExactLayer)) none4 d T /\
    g_explored d = 4 /\ length (g_edges d) = 8.
Proof. exact (conj tabA_domains (conj (tabA_call Relaxed 1 0 ltac:(lia)) bar_narrow_edges)). Qed.

(** At every moment of every execution of the parallel solver, with any number of threads: the nodes reported as expanded are at most
    those of one restricted and one relaxed diagram of the greatest width for each subproblem taken. *)
Theorem C67_parallel_work : forall S eqb (cfg : config S) at_depth nv C D W n m st,
  good_solver S eqb cfg at_depth nv C -> domains_within S (cf_pb cfg) at_depth nv D -> (forall s, cf_width cfg s <= W) -> m <= n ->
  reachable S eqb cfg n m st ->
  c_explored_dd (s_crit st) <= c_explored (s_crit st) * (most_restricted W (pb_nb_vars (cf_pb cfg)) + most_relaxed W D (pb_nb_vars (cf_pb cfg))).
Proof. exact par_work. Qed.
Print Assumptions C67_parallel_work.
Example C67_parallel_case : good_solver tstate ts_eqb cfgI t_at t_nv 1000 /\ domains_within tstate (t_problem tabI) t_at t_nv 2 /\
  most_restricted 1 4 + most_relaxed 1 2 4 = 9 /\ exists st, reachable tstate ts_eqb cfgI 2 2 st /\ c_explored (s_crit st) = 5 /\ c_explored_dd (s_crit st) = 31.
Proof. exact (conj (t_cfg_solver tabI 1 LastExactLayer 1000 tabI_ok ltac:(lia)) (conj tabI_domains (conj eq_refl par_two))). Qed.

(** The same for the solver with thresholds. *)
Theorem C67_barrier_work : forall S eqb (cfg : config S) at_depth nv C D W n m st,
  good_solver S eqb cfg at_depth nv C -> domains_within S (cf_pb cfg) at_depth nv D -> (forall s, cf_width cfg s <= W) -> m <= n ->
  breachable S eqb cfg n m st ->
  c_explored_dd (k_c (q_crit st)) <= c_explored (k_c (q_crit st)) * (most_restricted W (pb_nb_vars (cf_pb cfg)) + most_relaxed W D (pb_nb_vars (cf_pb cfg))).
Proof. exact bar_work. Qed.
Print Assumptions C67_barrier_work.
Example C67_barrier_case : good_solver tstate ts_eqb cfgI t_at t_nv 1000 /\ domains_within tstate (t_problem tabI) t_at t_nv 2 /\
  exists st, breachable tstate ts_eqb cfgI 2 2 st /\ c_explored (k_c (q_crit st)) = 5 /\ c_explored_dd (k_c (q_crit st)) = 31.
Proof. exact (conj (t_cfg_solver tabI 1 LastExactLayer 1000 tabI_ok ltac:(lia)) (conj tabI_domains bar_two)). Qed.
