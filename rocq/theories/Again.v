(** Model of the second and later calls of [maximize] or [maximize_with_interrupt] on the same solver. *)
From Verif Require Export ParSolver BarSolver.
Open Scope Z_scope.

(** src/solver/parallel.rs:378-385 and 423-433: another call posts the root again ([initialize], 182-185) and starts [m] threads, each
    with a new diagram. Nothing else of [Critical] (12-45) is touched: not the bounds, not the best solution, not [interrupted]. *)
Definition again {S} (cfg : config S) (m : nat) (st : state S cfg) : option (state S cfg) :=
  do f <- fr_push (cf_fr cfg) (c_fringe (s_crit st)) (root_node cfg);
  Some (mk_st (set_fringe cfg (s_crit st) f) (repeat (mk_th PIdle (dd_new (cf_ctype cfg))) m)).

(** src/solver/barrier.rs:436-443 and 481-491, with [initialize] at 199-204, which also counts the root as open in layer 0. The
    thresholds, the other counters and [lowest_active_layer] stay as they are. *)
Definition bagain {S} (cfg : config S) (m : nat) (st : bstate S cfg) : option (bstate S cfg) :=
  do f <- fr_push (cf_fr cfg) (c_fringe (k_c (q_crit st))) (root_node cfg);
  do o <- incr (k_open (q_crit st)) 0;
  Some (mk_bst (mk_bc (set_fringe cfg (k_c (q_crit st)) f) o (k_ongoing (q_crit st)) (k_lowest (q_crit st))) (q_table st)
    (repeat (mk_bth BIdle (dd_new (cf_ctype cfg))) m)).
