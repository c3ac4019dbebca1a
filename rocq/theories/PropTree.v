(** Property theorems C69: an explicit bound on the number of subproblems and of nodes of a whole search. *)
From Verif Require Import Dd DdSpec ParSolver ParSpec BarSolver BarSpec SizeSpec TreeSpec TreeSolvers FringeFacts Table MddCases ParCases BarCases SizeCases CutCases TreeCases.
From Coq Require Import Lia.
Open Scope nat_scope.

(** A search of the parallel solver with last exact layers, with any number of threads and whatever the interleaving: at no moment have more
    subproblems been taken, nor are there more in the fringe besides, than a tree has nodes of which each has max(width, domain) children and
    which has one level more than there are variables. *)
Theorem C69_parallel_subproblems : forall S eqb (cfg : config S) at_depth nv C D W inv content, good_config S eqb cfg at_depth nv C True inv content ->
  domains_within S (cf_pb cfg) at_depth nv D -> (forall s, cf_width cfg s <= W) -> cf_ctype cfg = LastExactLayer ->
  forall n m st, m <= n -> reachable S eqb cfg n m st ->
  length (content (c_fringe (s_crit st))) + c_explored (s_crit st) <= tree (Nat.max W D) (pb_nb_vars (cf_pb cfg)).
Proof. exact par_taken. Qed.
Print Assumptions C69_parallel_subproblems.
Theorem C69_barrier_subproblems : forall S eqb (cfg : config S) at_depth nv C D W inv content, good_config S eqb cfg at_depth nv C True inv content ->
  domains_within S (cf_pb cfg) at_depth nv D -> (forall s, cf_width cfg s <= W) -> cf_ctype cfg = LastExactLayer ->
  forall n m st, m <= n -> breachable S eqb cfg n m st ->
  length (content (c_fringe (k_c (q_crit st)))) + c_explored (k_c (q_crit st)) <= tree (Nat.max W D) (pb_nb_vars (cf_pb cfg)).
Proof. exact bar_taken. Qed.
Print Assumptions C69_barrier_subproblems.
(** So the nodes that are expanded in all are bounded by the number of variables, the width and the size of the domains alone. *)
Theorem C69_parallel_nodes : forall S eqb (cfg : config S) at_depth nv C D W, good_solver S eqb cfg at_depth nv C -> domains_within S (cf_pb cfg) at_depth nv D ->
  (forall s, cf_width cfg s <= W) -> cf_ctype cfg = LastExactLayer -> forall n m st, m <= n -> reachable S eqb cfg n m st ->
  c_explored (s_crit st) <= tree (Nat.max W D) (pb_nb_vars (cf_pb cfg)) /\
  c_explored_dd (s_crit st) <= tree (Nat.max W D) (pb_nb_vars (cf_pb cfg)) * (most_restricted W (pb_nb_vars (cf_pb cfg)) + most_relaxed W D (pb_nb_vars (cf_pb cfg))).
Proof. exact par_whole. Qed.
Print Assumptions C69_parallel_nodes.
Theorem C69_barrier_nodes : forall S eqb (cfg : config S) at_depth nv C D W, good_solver S eqb cfg at_depth nv C -> domains_within S (cf_pb cfg) at_depth nv D ->
  (forall s, cf_width cfg s <= W) -> cf_ctype cfg = LastExactLayer -> forall n m st, m <= n -> breachable S eqb cfg n m st ->
  c_explored (k_c (q_crit st)) <= tree (Nat.max W D) (pb_nb_vars (cf_pb cfg)) /\
  c_explored_dd (k_c (q_crit st)) <= tree (Nat.max W D) (pb_nb_vars (cf_pb cfg)) * (most_restricted W (pb_nb_vars (cf_pb cfg)) + most_relaxed W D (pb_nb_vars (cf_pb cfg))).
Proof. exact bar_whole. Qed.
Print Assumptions C69_barrier_nodes.
(** Four variables of two values, width 1, two threads: five subproblems and 31 nodes. *)
Example C69_parallel_case : good_config tstate ts_eqb cfgI t_at t_nv 1000 True (NoDupFacts.Inv tstate t_rank) (nd_list tstate) /\ good_solver tstate ts_eqb cfgI t_at t_nv 1000 /\
  domains_within tstate (t_problem tabI) t_at t_nv 2 /\ cf_ctype cfgI = LastExactLayer /\ tree (Nat.max 1 2) 4 = 31 /\
  exists st, reachable tstate ts_eqb cfgI 2 2 st /\ c_explored (s_crit st) = 5 /\ c_explored_dd (s_crit st) = 31.
Proof. exact (conj (t_cfg_good tabI 1 LastExactLayer 1000 tabI_ok ltac:(lia)) (conj (t_cfg_solver tabI 1 LastExactLayer 1000 tabI_ok ltac:(lia)) (conj tabI_domains (conj eq_refl (conj eq_refl par_two))))). Qed.
Example C69_barrier_case : good_config tstate ts_eqb cfgI t_at t_nv 1000 True (NoDupFacts.Inv tstate t_rank) (nd_list tstate) /\ good_solver tstate ts_eqb cfgI t_at t_nv 1000 /\
  domains_within tstate (t_problem tabI) t_at t_nv 2 /\ cf_ctype cfgI = LastExactLayer /\
  exists st, breachable tstate ts_eqb cfgI 2 2 st /\ c_explored (k_c (q_crit st)) = 5 /\ c_explored_dd (k_c (q_crit st)) = 31.
Proof. exact (conj (t_cfg_good tabI 1 LastExactLayer 1000 tabI_ok ltac:(lia)) (conj (t_cfg_solver tabI 1 LastExactLayer 1000 tabI_ok ltac:(lia)) (conj tabI_domains (conj eq_refl bar_two)))). Qed.

(** With either kind of cutset the same holds with as many children as a relaxed diagram has nodes at most: a cutset has no node twice. *)
Theorem C69_parallel_subproblems_any_cutset : forall S eqb (cfg : config S) at_depth nv C D W inv content, good_config S eqb cfg at_depth nv C True inv content ->
  domains_within S (cf_pb cfg) at_depth nv D -> (forall s, cf_width cfg s <= W) ->
  forall n m st, m <= n -> reachable S eqb cfg n m st ->
  length (content (c_fringe (s_crit st))) + c_explored (s_crit st) <= tree (most_nodes W D (pb_nb_vars (cf_pb cfg))) (pb_nb_vars (cf_pb cfg)).
Proof. exact par_taken_cut. Qed.
Print Assumptions C69_parallel_subproblems_any_cutset.
Theorem C69_parallel_nodes_any_cutset : forall S eqb (cfg : config S) at_depth nv C D W, good_solver S eqb cfg at_depth nv C -> domains_within S (cf_pb cfg) at_depth nv D ->
  (forall s, cf_width cfg s <= W) -> forall n m st, m <= n -> reachable S eqb cfg n m st ->
  c_explored (s_crit st) <= tree (most_nodes W D (pb_nb_vars (cf_pb cfg))) (pb_nb_vars (cf_pb cfg)) /\
  c_explored_dd (s_crit st) <= tree (most_nodes W D (pb_nb_vars (cf_pb cfg))) (pb_nb_vars (cf_pb cfg)) *
    (most_restricted W (pb_nb_vars (cf_pb cfg)) + most_relaxed W D (pb_nb_vars (cf_pb cfg))).
Proof. exact par_whole_cut. Qed.
Print Assumptions C69_parallel_nodes_any_cutset.
Theorem C69_barrier_subproblems_any_cutset : forall S eqb (cfg : config S) at_depth nv C D W inv content, good_config S eqb cfg at_depth nv C True inv content ->
  domains_within S (cf_pb cfg) at_depth nv D -> (forall s, cf_width cfg s <= W) ->
  forall n m st, m <= n -> breachable S eqb cfg n m st ->
  length (content (c_fringe (k_c (q_crit st)))) + c_explored (k_c (q_crit st)) <= tree (most_nodes W D (pb_nb_vars (cf_pb cfg))) (pb_nb_vars (cf_pb cfg)).
Proof. exact bar_taken_cut. Qed.
Print Assumptions C69_barrier_subproblems_any_cutset.
Theorem C69_barrier_nodes_any_cutset : forall S eqb (cfg : config S) at_depth nv C D W, good_solver S eqb cfg at_depth nv C -> domains_within S (cf_pb cfg) at_depth nv D ->
  (forall s, cf_width cfg s <= W) -> forall n m st, m <= n -> breachable S eqb cfg n m st ->
  c_explored (k_c (q_crit st)) <= tree (most_nodes W D (pb_nb_vars (cf_pb cfg))) (pb_nb_vars (cf_pb cfg)) /\
  c_explored_dd (k_c (q_crit st)) <= tree (most_nodes W D (pb_nb_vars (cf_pb cfg))) (pb_nb_vars (cf_pb cfg)) *
    (most_restricted W (pb_nb_vars (cf_pb cfg)) + most_relaxed W D (pb_nb_vars (cf_pb cfg))).
Proof. exact bar_whole_cut. Qed.
Print Assumptions C69_barrier_nodes_any_cutset.
(** Frontier cutsets of width 2: after four subproblems two are waiting; six are taken in all, with 36 nodes. With thresholds and two threads: one after three, four in all. *)
Example C69_parallel_any_case : good_config tstate ts_eqb cfgW t_at t_nv 1000 True (NoDupFacts.Inv tstate t_rank) (nd_list tstate) /\ good_solver tstate ts_eqb cfgW t_at t_nv 1000 /\
  domains_within tstate (t_problem tabW) t_at t_nv 2 /\ cf_ctype cfgW = Frontier /\ most_nodes 2 2 4 = 17 /\
  (exists st, reachable tstate ts_eqb cfgW 1 1 st /\ length (nd_list tstate (c_fringe (s_crit st))) = 2 /\ c_explored (s_crit st) = 4) /\
  exists st, reachable tstate ts_eqb cfgW 1 1 st /\ c_explored (s_crit st) = 6 /\ c_explored_dd (s_crit st) = 36.
Proof. exact (conj (t_cfg_good tabW 2 Frontier 1000 tabW_table ltac:(lia)) (conj (t_cfg_solver tabW 2 Frontier 1000 tabW_table ltac:(lia)) (conj tabW_domains (conj eq_refl (conj eq_refl (conj wide_stock wide_par)))))). Qed.
Example C69_barrier_any_case : good_config tstate ts_eqb cfgW t_at t_nv 1000 True (NoDupFacts.Inv tstate t_rank) (nd_list tstate) /\ good_solver tstate ts_eqb cfgW t_at t_nv 1000 /\
  domains_within tstate (t_problem tabW) t_at t_nv 2 /\ cf_ctype cfgW = Frontier /\ most_nodes 2 2 4 = 17 /\
  (exists st, breachable tstate ts_eqb cfgW 2 2 st /\ length (nd_list tstate (c_fringe (k_c (q_crit st)))) = 1 /\ c_explored (k_c (q_crit st)) = 3) /\
  exists st, breachable tstate ts_eqb cfgW 2 2 st /\ c_explored (k_c (q_crit st)) = 4 /\ c_explored_dd (k_c (q_crit st)) = 23.
Proof. exact (conj (t_cfg_good tabW 2 Frontier 1000 tabW_table ltac:(lia)) (conj (t_cfg_solver tabW 2 Frontier 1000 tabW_table ltac:(lia)) (conj tabW_domains (conj eq_refl (conj eq_refl (conj wide_bstock wide_bar)))))). Qed.
