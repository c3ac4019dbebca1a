(** Property theorems C68: how many subproblems a diagram hands out, hence how many the frontier of a solver holds. *)
From Verif Require Import Dd DdSpec MddAll MddBarrier MddBarrierSpec ParSolver ParSpec BarSolver BarSpec SizeSpec FringeFacts CutSolvers Table MddCases ParCases BarCases MddBarrierCases SizeCases CutCases.
From Verif Require Import TreeSpec TreeCases.
From Coq Require Import Lia List.
Import ListNotations.
Open Scope nat_scope.

(** Draining a diagram created with [LastExactLayer] hands out at most as many subproblems as the maximum width, or as a variable has values
    if that is more. *)
Theorem C68_cutset_size : forall S eqb P R at_depth nv C D debug orc inp (d dF : dd S) l d2,
  well_formed S eqb P R at_depth nv C -> good_call S P R nv debug orc inp -> domains_within S P at_depth nv D ->
  g_ctype d = LastExactLayer -> i_type inp <> Exact -> MddAll.compile eqb debug orc inp d = Some dF ->
  drain_cutset dF = Some (l, d2) -> length l <= Nat.max (i_width inp) D.
Proof. exact all_handed. Qed.
Print Assumptions C68_cutset_size.
(** The bound is reached. *)
Example C68_cutset_size_case : domains_within tstate (t_problem tabA) t_at t_nv 2 /\
  good_call tstate (t_problem tabA) (t_relax tabA) t_nv true orc_fwd (t_call tabA Relaxed 1 (-100) (t_root tabA)) /\
  exists d l d2, MddAll.compile ts_eqb true orc_fwd (t_call tabA Relaxed 1 (-100) (t_root tabA)) (dd_new LastExactLayer) = Some d /\ drain_cutset d = Some (l, d2) /\ length l = 2.
Proof. exact (conj tabA_domains (conj (tabA_call Relaxed 1 (-100) ltac:(lia)) narrow_out)). Qed.

(** The width alone is no bound. *)
Theorem C68_cutset_within_width_refuted : exists (t : table) inp dF l d2, well_behaved tstate ts_eqb (t_problem t) (t_relax t) t_at t_nv 1000 /\
  good_call tstate (t_problem t) (t_relax t) t_nv true orc_fwd inp /\ i_type inp = Relaxed /\
  MddAll.compile ts_eqb true orc_fwd inp (dd_new LastExactLayer) = Some dF /\ drain_cutset dF = Some (l, d2) /\ i_width inp < length l.
Proof. exact over_cut. Qed.
Print Assumptions C68_cutset_within_width_refuted.
(** With a frontier cutset there is no such bound. *)
Theorem C68_frontier_cutset_size_refuted : exists (t : table) inp dF l d2, well_behaved tstate ts_eqb (t_problem t) (t_relax t) t_at t_nv 1000 /\
  domains_within tstate (t_problem t) t_at t_nv 2 /\ good_call tstate (t_problem t) (t_relax t) t_nv true orc_fwd inp /\ i_type inp = Relaxed /\
  MddAll.compile ts_eqb true orc_fwd inp (dd_new Frontier) = Some dF /\ drain_cutset dF = Some (l, d2) /\ Nat.max (i_width inp) 2 < length l.
Proof. exact over_frontier. Qed.
Print Assumptions C68_frontier_cutset_size_refuted.

(** The same for the diagrams with thresholds, whatever the other threads write in the meantime. *)
Theorem C68_barrier_cutset_size : forall S eqb P R at_depth nv C D alone debug orc inp (d dF : dd S) T T' l d2,
  well_formed S eqb P R at_depth nv C -> good_call S P R nv debug orc inp -> domains_within S P at_depth nv D ->
  g_ctype d = LastExactLayer -> i_type inp <> Exact -> returns eqb alone (MddBarrier.compile eqb debug orc inp d) T dF T' ->
  drain_cutset dF = Some (l, d2) -> length l <= Nat.max (i_width inp) D.
Proof. exact bar_handed. Qed.
Print Assumptions C68_barrier_cutset_size.
Example C68_barrier_cutset_size_case : domains_within tstate (t_problem tabA) t_at t_nv 2 /\
  good_call tstate (t_problem tabA) (t_relax tabA) t_nv true orc_fwd (t_call tabA Relaxed 1 (-100) (t_root tabA)) /\
  exists d T l d2, returns ts_eqb false (MddBarrier.compile ts_eqb true orc_fwd (t_call tabA Relaxed 1 (-100) (t_root tabA)) (dd_new LastExactLayer)) none4 d T /\
    drain_cutset d = Some (l, d2) /\ length l = 1.
Proof. exact (conj tabA_domains (conj (tabA_call Relaxed 1 (-100) ltac:(lia)) bar_out)). Qed.

(** At every moment of every execution of the parallel solver with last exact layers, with any number of threads: the subproblems that wait
    in the frontier and those that were taken are at most the root and one cutset for each subproblem taken. *)
Theorem C68_parallel_frontier_size : forall S eqb (cfg : config S) at_depth nv C D W inv content, good_config S eqb cfg at_depth nv C True inv content ->
  domains_within S (cf_pb cfg) at_depth nv D -> (forall s, cf_width cfg s <= W) -> cf_ctype cfg = LastExactLayer ->
  forall n m st, m <= n -> reachable S eqb cfg n m st ->
  length (content (c_fringe (s_crit st))) + c_explored (s_crit st) <= 1 + c_explored (s_crit st) * Nat.max W D.
Proof. exact par_fringe. Qed.
Print Assumptions C68_parallel_frontier_size.
(** The bound is reached once the root has been processed. *)
Example C68_parallel_case : good_config tstate ts_eqb cfgI t_at t_nv 1000 True (NoDupFacts.Inv tstate t_rank) (nd_list tstate) /\ domains_within tstate (t_problem tabI) t_at t_nv 2 /\
  exists st, reachable tstate ts_eqb cfgI 1 1 st /\ length (nd_list tstate (c_fringe (s_crit st))) = 2 /\ c_explored (s_crit st) = 1.
Proof. exact (conj (t_cfg_good tabI 1 LastExactLayer 1000 tabI_ok ltac:(lia)) (conj tabI_domains one_stock)). Qed.
(** The same for the solver with thresholds. *)
Theorem C68_barrier_frontier_size : forall S eqb (cfg : config S) at_depth nv C D W inv content, good_config S eqb cfg at_depth nv C True inv content ->
  domains_within S (cf_pb cfg) at_depth nv D -> (forall s, cf_width cfg s <= W) -> cf_ctype cfg = LastExactLayer ->
  forall n m st, m <= n -> breachable S eqb cfg n m st ->
  length (content (c_fringe (k_c (q_crit st)))) + c_explored (k_c (q_crit st)) <= 1 + c_explored (k_c (q_crit st)) * Nat.max W D.
Proof. exact bar_fringe. Qed.
Print Assumptions C68_barrier_frontier_size.
Example C68_barrier_case : good_config tstate ts_eqb cfgI t_at t_nv 1000 True (NoDupFacts.Inv tstate t_rank) (nd_list tstate) /\ domains_within tstate (t_problem tabI) t_at t_nv 2 /\
  exists st, breachable tstate ts_eqb cfgI 2 2 st /\ length (nd_list tstate (c_fringe (k_c (q_crit st)))) = 2 /\ c_explored (k_c (q_crit st)) = 3.
Proof. exact (conj (t_cfg_good tabI 1 LastExactLayer 1000 tabI_ok ltac:(lia)) (conj tabI_domains two_bstock)). Qed.

(** With either kind of cutset no node is handed out twice: there are at most as many subproblems as nodes, of which C67 says how many there are. *)
Theorem C68_any_cutset_size : forall S eqb P R at_depth nv C debug orc inp (d dF : dd S) l d2,
  well_formed S eqb P R at_depth nv C -> good_call S P R nv debug orc inp ->
  MddAll.compile eqb debug orc inp d = Some dF -> drain_cutset dF = Some (l, d2) -> length l <= length (g_nodes dF).
Proof. exact all_handed_any. Qed.
Print Assumptions C68_any_cutset_size.
Theorem C68_barrier_any_cutset_size : forall S eqb P R at_depth nv C alone debug orc inp (d dF : dd S) T T' l d2,
  well_formed S eqb P R at_depth nv C -> good_call S P R nv debug orc inp ->
  returns eqb alone (MddBarrier.compile eqb debug orc inp d) T dF T' -> drain_cutset dF = Some (l, d2) -> length l <= length (g_nodes dF).
Proof. exact bar_handed_any. Qed.
Print Assumptions C68_barrier_any_cutset_size.
Example C68_any_cutset_case : well_behaved tstate ts_eqb (t_problem tabW) (t_relax tabW) t_at t_nv 1000 /\
  good_call tstate (t_problem tabW) (t_relax tabW) t_nv true orc_fwd (t_call tabW Relaxed 2 (-100) (t_root tabW)) /\
  (exists d l d2, MddAll.compile ts_eqb true orc_fwd (t_call tabW Relaxed 2 (-100) (t_root tabW)) (dd_new Frontier) = Some d /\ drain_cutset d = Some (l, d2) /\ length l = 4 /\ length (g_nodes d) = 14) /\
  exists d T l d2, returns ts_eqb false (MddBarrier.compile ts_eqb true orc_fwd (t_call tabW Relaxed 2 (-100) (t_root tabW)) (dd_new Frontier)) (repeat [] 5) d T /\
    drain_cutset d = Some (l, d2) /\ length l = 4 /\ length (g_nodes d) = 14.
Proof. exact (conj tabW_ok (conj (tabW_call Relaxed 2 (-100) ltac:(lia)) (conj front_beside bfront_beside))). Qed.
Theorem C68_parallel_frontier_size_any_cutset : forall S eqb (cfg : config S) at_depth nv C D W inv content, good_config S eqb cfg at_depth nv C True inv content ->
  domains_within S (cf_pb cfg) at_depth nv D -> (forall s, cf_width cfg s <= W) -> forall n m st, m <= n -> reachable S eqb cfg n m st ->
  length (content (c_fringe (s_crit st))) + c_explored (s_crit st) <= 1 + c_explored (s_crit st) * most_nodes W D (pb_nb_vars (cf_pb cfg)).
Proof. exact par_fringe_cut. Qed.
Print Assumptions C68_parallel_frontier_size_any_cutset.
Theorem C68_barrier_frontier_size_any_cutset : forall S eqb (cfg : config S) at_depth nv C D W inv content, good_config S eqb cfg at_depth nv C True inv content ->
  domains_within S (cf_pb cfg) at_depth nv D -> (forall s, cf_width cfg s <= W) -> forall n m st, m <= n -> breachable S eqb cfg n m st ->
  length (content (c_fringe (k_c (q_crit st)))) + c_explored (k_c (q_crit st)) <= 1 + c_explored (k_c (q_crit st)) * most_nodes W D (pb_nb_vars (cf_pb cfg)).
Proof. exact bar_fringe_cut. Qed.
Print Assumptions C68_barrier_frontier_size_any_cutset.
Example C68_frontier_any_case : good_config tstate ts_eqb cfgW t_at t_nv 1000 True (NoDupFacts.Inv tstate t_rank) (nd_list tstate) /\ domains_within tstate (t_problem tabW) t_at t_nv 2 /\
  cf_ctype cfgW = Frontier /\ most_nodes 2 2 4 = 17 /\
  (exists st, reachable tstate ts_eqb cfgW 1 1 st /\ length (nd_list tstate (c_fringe (s_crit st))) = 2 /\ c_explored (s_crit st) = 4) /\
  exists st, breachable tstate ts_eqb cfgW 2 2 st /\ length (nd_list tstate (c_fringe (k_c (q_crit st)))) = 1 /\ c_explored (k_c (q_crit st)) = 3.
Proof. exact (conj (t_cfg_good tabW 2 Frontier 1000 tabW_table ltac:(lia)) (conj tabW_domains (conj eq_refl (conj eq_refl (conj wide_stock wide_bstock))))). Qed.
