(** What a thread of either solver leaves behind when it panics.
    The threads are spawned in [std::thread::scope] (src/solver/parallel.rs:381-399, 429-447, src/solver/barrier.rs:439-458, 487-506), which waits for
    all of them and then panics if one of them did. A thread that panics releases the locks it holds (those of [parking_lot] are not
    poisoned), and nothing else is done for it: in particular [notify_node_finished] is not called. The steps of the threads are those of
    ParSolver.v and BarSolver.v; the executions are in CrashSpec.v.
    Not modelled: panics of the user's comparison, [Eq] or [Hash] in the middle of an operation of the frontier or of the thresholds. *)
From Verif Require Export ParSpec BarSpec.
Open Scope Z_scope.

Section Parallel.
Variable S : Type.
Variable eqb : S -> S -> bool.
Variable cfg : config S.
Notation fr := (cf_fr cfg).

(** Functional update of fields of [Critical]. src/solver/parallel.rs:11-53, src/solver/barrier.rs:12-64. *)
Definition with_lb (c : critical S cfg) (v : Z) : critical S cfg :=
  mk_crit (c_fringe c) (c_ongoing c) (c_explored c) (c_explored_dd c) v (c_ub c) (c_sol c) (c_ubs c) (c_interrupted c).
(** src/solver/parallel.rs:282: functional update of the field [ongoing]. *)
Definition with_ongoing (c : critical S cfg) (o : nat) : critical S cfg :=
  mk_crit (c_fringe c) o (c_explored c) (c_explored_dd c) (c_lb c) (c_ub c) (c_sol c) (c_ubs c) (c_interrupted c).
(** src/solver/parallel.rs:317, src/solver/barrier.rs:347. *)
Definition with_interrupted (c : critical S cfg) : critical S cfg :=
  mk_crit (c_fringe c) (c_ongoing c) (c_explored c) (c_explored_dd c) (c_lb c) (c_ub c) (c_sol c) (c_ubs c) true.
(** A subproblem is taken, its bound is not recorded: src/solver/parallel.rs:349-350, src/solver/barrier.rs:404-405. *)
Definition counted (c : critical S cfg) (f : fr_t fr) : critical S cfg :=
  mk_crit f (Datatypes.S (c_ongoing c)) (Datatypes.S (c_explored c)) (c_explored_dd c) (c_lb c) (c_ub c) (c_sol c) (c_ubs c) (c_interrupted c).
(** Some of the pushes of [enqueue_cutset] are done. src/solver/parallel.rs:272-277. *)
Definition some_pushed (c : critical S cfg) (f : fr_t fr) : Prop := exists l, ofold (fun g q => fr_push fr g q) l (c_fringe c) = Some f.

(** Thread [i], at [t], panics; [intr] is the answer of [interrupt()]. What is left: the critical data, and the place where the thread died. *)
Inductive dies (c : critical S cfg) (i : nat) (intr : bool) (t : thread S) : critical S cfg -> thread S -> Prop :=
(* src/solver/parallel.rs:328: [pop().unwrap()], after line 317 *)
| dies_stopping : t_pc t = PIdle -> get_workload cfg c i intr = None -> intr = true -> dies c i intr t (with_interrupted c) t
(* line 342: [pop().unwrap()] *)
| dies_popping : t_pc t = PIdle -> get_workload cfg c i intr = None -> intr = false -> (forall n f, fr_pop fr (c_fringe c) <> Some (Some n, f)) ->
    dies c i intr t c t
(* line 351: the index is out of range; the subproblem is lost *)
| dies_recording n f : t_pc t = PIdle -> get_workload cfg c i intr = None -> intr = false -> fr_pop fr (c_fringe c) = Some (Some n, f) ->
    dies c i intr t (counted c f) (mk_th (PStart n) (t_dd t))
(* lines 217-229: a callback of the user or the compilation panics, in the restricted diagram; lines 239-240: in the relaxed one *)
| dies_restricting n : t_pc t = PStart n -> c_lb c < sp_ub n -> dies c i intr t c t
| dies_relaxing n k : t_pc t = PRelax n k -> dies c i intr t c t
(* lines 260-263: asking the diagram for its best value or solution panics *)
| dies_updating n v : (t_pc t = PRestricted n \/ exists k, t_pc t = PRelaxed n k /\ g_exact (t_dd t) = true) -> maybe_update_best cfg c (t_dd t) = None ->
    v = c_lb c \/ c_lb c < v -> dies c i intr t (with_lb c v) t
(* lines 268-278 *)
| dies_enqueuing n k f : t_pc t = PRelaxed n k -> g_exact (t_dd t) = false -> enqueue_cutset cfg c (t_dd t) (sp_ub n) = None -> some_pushed c f ->
    dies c i intr t (set_fringe cfg c f) t
(* lines 282-283: the counter is 0, or the index is out of range *)
| dies_notifying k : t_pc t = PNotify k -> finish_node cfg c i k = None -> dies c i intr t (with_ongoing c (pred (c_ongoing c))) (mk_th PIdle (t_dd t)).

End Parallel.
Arguments with_lb {S cfg}. Arguments with_ongoing {S cfg}. Arguments with_interrupted {S cfg}. Arguments counted {S cfg}. Arguments some_pushed {S cfg}.
Arguments dies {S cfg}.

Section Barrier.
Variable S : Type.
Variable eqb : S -> S -> bool.
Variable cfg : config S.
Notation fr := (cf_fr cfg).

(** What is left of a thread that panics while it holds the lock: the lock is released. The lock of src/solver/barrier.rs:328, which parking_lot does not poison. *)
Definition released (t : bthread S) : bthread S := mk_bth BIdle (u_dd t).
(** The thread is in one of the two compilations called from src/solver/barrier.rs:451, 499. *)
Definition in_diagram (t : bthread S) (n : subproblem S) : Prop := (exists p, u_pc t = BRestrict n p) \/ exists x p, u_pc t = BRelaxing n x p.

(** The same for src/solver/barrier.rs; the thresholds are also shared. *)
Inductive bdies (k : bcritical S cfg) (T : thresholds S) (i : nat) (intr free : bool) (t : bthread S) : bcritical S cfg -> thresholds S -> bthread S -> Prop :=
(* lines 331-335: an index is out of range; line 372: [pop().unwrap()] *)
| bdies_cleaning : u_pc t = BClean -> clean_turn cfg k T = None \/ clean_turn cfg k T = Some None /\ decide cfg k intr = None /\ intr = false ->
    bdies k T i intr free t k T (released t)
(* line 358: [pop().unwrap()], after line 347 *)
| bdies_stopping : u_pc t = BClean -> clean_turn cfg k T = Some None -> decide cfg k intr = None -> intr = true ->
    bdies k T i intr free t (with_c k (with_interrupted (k_c k))) T (released t)
(* lines 382-400: an index is out of range, a counter is 0, [pop().unwrap()]; the subproblem is lost *)
| bdies_trying n o : u_pc t = BTry n -> try_node eqb cfg k T n = None -> bdies k T i intr free t (mk_bc (k_c k) o (k_ongoing k) (k_lowest k)) T (released t)
(* line 392: an index is out of range *)
| bdies_inserting n : u_pc t = BInsert n -> take_node eqb cfg k T i n = None -> nth_error T (length (sp_path n)) = None -> bdies k T i intr free t k T (released t)
(* lines 406-410, after lines 392, 404, 405: an index is out of range, a counter is 0; the subproblem is lost *)
| bdies_recording n l T' ubs o : u_pc t = BInsert n -> take_node eqb cfg k T i n = None -> nth_error T (length (sp_path n)) = Some l ->
    upd T (length (sp_path n)) (tput eqb l (sp_state n) (mk_info (sp_value n) true)) = Some T' ->
    (upd (c_ubs (k_c k)) i (sp_ub n) = None /\ ubs = c_ubs (k_c k) /\ o = k_open k) \/
    (upd (c_ubs (k_c k)) i (sp_ub n) = Some ubs /\ (o = k_open k \/ decr (k_open k) (length (sp_path n)) = Some o)) ->
    bdies k T i intr free t
      (mk_bc (mk_crit (c_fringe (k_c k)) (Datatypes.S (c_ongoing (k_c k))) (Datatypes.S (c_explored (k_c k))) (c_explored_dd (k_c k)) (c_lb (k_c k)) (c_ub (k_c k))
                (c_sol (k_c k)) ubs (c_interrupted (k_c k))) o (k_ongoing k) (k_lowest k)) T' (mk_bth (BStart n) (u_dd t))
(* lines 236-248, 258-259: a callback of the user or the compilation panics *)
| bdies_compiling n : in_diagram t n -> bdies k T i intr free t k T t
(* lines 277-285, with the lock [critical], which must be free *)
| bdies_updating n d v : free = true -> (u_pc t = BRestrict n (Ret d) \/ exists x, u_pc t = BRelaxing n x (Ret d) /\ g_exact d = true) ->
    maybe_update_best cfg (k_c k) d = None -> v = c_lb (k_c k) \/ c_lb (k_c k) < v -> bdies k T i intr free t (with_c k (with_lb (k_c k) v)) T t
(* lines 287-299, with the lock *)
| bdies_enqueuing n x d f o : free = true -> u_pc t = BRelaxing n x (Ret d) -> g_exact d = false -> benqueue_cutset cfg k d (sp_ub n) = None -> some_pushed (k_c k) f ->
    bdies k T i intr free t (mk_bc (set_fringe cfg (k_c k) f) o (k_ongoing k) (k_lowest k)) T t
(* lines 303-305, with the lock *)
| bdies_notifying depth x : free = true -> u_pc t = BNotify depth x -> bfinish_node cfg k i depth x = None ->
    bdies k T i intr free t (with_c k (with_ongoing (k_c k) (pred (c_ongoing (k_c k))))) T (released t).

End Barrier.
Arguments released {S}. Arguments in_diagram {S}. Arguments bdies {S} eqb {cfg}.
