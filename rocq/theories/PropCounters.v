(** Property theorems C62: the counters that the solvers report. *)
From Verif Require Import Dd DdSpec MddAll MddBarrier MddBarrierSpec CountersSpec CountersProofs DdCount DdCountMdd Table MddCases ParCases BarCases MddBarrierCases CountersCases.
Open Scope nat_scope.

(** [explored] is the number of subproblems taken so far, whatever the number of threads, the interleaving and the interruption.
    [explored_dd] is at most the number of nodes that the diagrams say they expanded, and exactly that once all threads are done. *)
Theorem C62_parallel_counters : forall S eqb (cfg : config S) n m a b st, counted S eqb cfg n m a b st ->
  c_explored (s_crit st) = a /\ c_explored_dd (s_crit st) <= b /\ (all_done cfg st -> c_explored_dd (s_crit st) = b).
Proof. exact par_counters. Qed.
Print Assumptions C62_parallel_counters.
(** Every execution can be counted. *)
Theorem C62_parallel_all : forall S eqb (cfg : config S) n m st, reachable S eqb cfg n m st -> exists a b, counted S eqb cfg n m a b st.
Proof. exact par_counted_all. Qed.
Print Assumptions C62_parallel_all.
Example C62_parallel_case : exists st, counted tstate ts_eqb cfgI 2 2 5 31 st /\ all_done cfgI st /\ c_explored (s_crit st) = 5 /\ c_explored_dd (s_crit st) = 31.
Proof. exact (tally_counted _ _ _ _ _ _ tally_two). Qed.
Example C62_parallel_interrupted_case : exists st, counted tstate ts_eqb cfgI 1 1 2 15 st /\ all_done cfgI st /\ c_explored (s_crit st) = 2 /\ c_explored_dd (s_crit st) = 15.
Proof. exact (tally_counted _ _ _ _ _ _ tally_cut). Qed.

(** The same for the solver with thresholds. *)
Theorem C62_barrier_counters : forall S eqb (cfg : config S) n m a b st, bcounted S eqb cfg n m a b st ->
  c_explored (k_c (q_crit st)) = a /\ c_explored_dd (k_c (q_crit st)) <= b /\ (ball_done cfg st -> c_explored_dd (k_c (q_crit st)) = b).
Proof. exact bar_counters. Qed.
Print Assumptions C62_barrier_counters.
Theorem C62_barrier_all : forall S eqb (cfg : config S) n m st, breachable S eqb cfg n m st -> exists a b, bcounted S eqb cfg n m a b st.
Proof. exact bar_counted_all. Qed.
Print Assumptions C62_barrier_all.
Example C62_barrier_case : exists st, bcounted tstate ts_eqb cfgI 2 2 5 31 st /\ ball_done cfgI st /\ c_explored (k_c (q_crit st)) = 5 /\ c_explored_dd (k_c (q_crit st)) = 31.
Proof. exact (btally_counted _ _ _ _ _ _ btally_two). Qed.

(** What a diagram says it expanded is what it expanded: [explored] is the number of nodes in a set that holds every node that has an
    outgoing edge, and only nodes that might improve on the lower bound and whose whole domain was tried. Any problem, even one that is
    not well formed, and any compilation that returns. *)
Theorem C62_diagram_counter : forall S eqb debug orc inp (d dF : dd S), library_ok S orc -> MddAll.compile eqb debug orc inp d = Some dF ->
  exists X, expanded_nodes inp dF X /\ length X = g_explored dF.
Proof. exact (fun S eqb debug orc inp d dF H => all_counts S eqb inp orc (proj1 H) (proj1 (proj2 H)) debug d dF). Qed.
Print Assumptions C62_diagram_counter.
Example C62_diagram_case : library_ok tstate orc_fwd /\
  exists d, MddAll.compile ts_eqb true orc_fwd (t_call tabA Relaxed 2 0 (t_root tabA)) (dd_new LastExactLayer) = Some d /\ g_explored d = 5 /\ sources d = 5 /\ length (g_nodes d) = 9.
Proof. exact (conj (orc_fwd_ok tstate) relaxed_nodes). Qed.

(** The same for the diagrams with thresholds, whatever the other threads write in the meantime. *)
Theorem C62_barrier_diagram_counter : forall S eqb alone debug orc inp (d dF : dd S) T T', library_ok S orc ->
  returns eqb alone (MddBarrier.compile eqb debug orc inp d) T dF T' -> exists X, expanded_nodes inp dF X /\ length X = g_explored dF.
Proof. exact (fun S eqb alone debug orc inp d dF T T' H => bar_counts S eqb inp orc (proj1 H) (proj1 (proj2 H)) alone debug d dF T T'). Qed.
Print Assumptions C62_barrier_diagram_counter.
Example C62_barrier_diagram_case : library_ok tstate orc_fwd /\
  exists d T, returns ts_eqb false (MddBarrier.compile ts_eqb true orc_fwd (t_call tabA Relaxed 3 0 (t_root tabA)) (dd_new LastExactLayer)) none4 d T /\
    g_explored d = 5 /\ sources d = 5 /\ length (g_nodes d) = 7.
Proof. exact (conj (orc_fwd_ok tstate) added_nodes). Qed.
