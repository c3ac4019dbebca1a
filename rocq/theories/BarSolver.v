(** Model of src/solver/barrier.rs.
    Threads interleave at the granularity of the accesses to the shared thresholds and of the critical sections. The mutex
    [critical] is held by a thread from the first to the last step of [get_workload]; the other critical sections make no
    access to the thresholds and are one step each. What a thread computes between two steps depends only on its own diagram
    and on immutable data. A panic is the outcome [Panic].
    The code always uses [NoDupFrontier]; here the frontier is a component of the configuration, as in the model of
    src/solver/parallel.rs. *)
From Verif Require Export ParSolver MddBarrier.
Open Scope Z_scope.

(** Where a thread is in its loop (src/solver/barrier.rs:443-455, 491-503), in [get_workload] (320-413) and in
    [process_one_node] (220-268). *)
Inductive bpc (S : Type) :=
| BIdle                                                       (* about to lock, line 328 *)
| BWait                                                       (* parked on the monitor, line 368 *)
| BClean                                                      (* holds the lock; about to test the condition of line 331 *)
| BTry (n : subproblem S)                                     (* holds the lock; popped [n]; line 374 *)
| BInsert (n : subproblem S)                                  (* holds the lock; about to write the threshold, line 392 *)
| BStart (n : subproblem S)                                   (* about to read [best_lb], line 230 *)
| BRestrict (n : subproblem S) (p : prog S (dd S))            (* compiling the restricted diagram, line 248; then 249-253 *)
| BRelax (n : subproblem S) (k : nat)                         (* about to read [best_lb], line 256; [k] is [explored_dd] *)
| BRelaxing (n : subproblem S) (k : nat) (p : prog S (dd S))  (* compiling the relaxed diagram, line 259; then 260-265 *)
| BNotify (depth k : nat)                                     (* about to call [notify_node_finished] *)
| BDone.                                                      (* left the loop *)
Arguments BIdle {S}. Arguments BWait {S}. Arguments BClean {S}. Arguments BTry {S}. Arguments BInsert {S}. Arguments BStart {S}.
Arguments BRestrict {S}. Arguments BRelax {S}. Arguments BRelaxing {S}. Arguments BNotify {S}. Arguments BDone {S}.

Section Model.
Variable S : Type.
Variable eqb : S -> S -> bool.
Variable cfg : config S.
Notation fr := (cf_fr cfg).
Notation N := (pb_nb_vars (cf_pb cfg)).

(** src/solver/barrier.rs:12-64 [Critical]: what it has in common with src/solver/parallel.rs, and the rest. *)
Record bcritical := mk_bc {
  k_c : critical S cfg; k_open : list nat; k_ongoing : list nat; k_lowest : nat }.

(** A thread: its position and its diagram (lines 443, 491). src/solver/barrier.rs:443, 491. *)
Record bthread := mk_bth { u_pc : bpc S; u_dd : dd S }.
(** src/solver/barrier.rs:68-91 [Shared], with the threads spawned at 439-443. *)
Record bstate := mk_bst { q_crit : bcritical; q_table : thresholds S; q_threads : list bthread }.
(** The outcome of one step of a thread (loop at src/solver/barrier.rs:444-455): a new state, a panic, or no step possible. *)
Inductive boutcome := BNext (s : bstate) | BPanic | BDisabled.

(** src/solver/barrier.rs:149-189 [custom] with [n] threads, 191-194 [with_nb_threads m], 199-204 [initialize], and the threads
    as they are spawned. *)
Definition binitial (n m : nat) : option bstate :=
  do f <- fr_push fr (fr_new fr) (root_node cfg);
  do o <- upd (repeat 0%nat (Datatypes.S N)) 0 1%nat;
  Some (mk_bst
    (mk_bc (mk_crit f 0 0 0 IMIN IMAX None (repeat IMAX n) false) o (repeat 0%nat (Datatypes.S N)) 0)
    (repeat [] (Datatypes.S N))
    (repeat (mk_bth BIdle (dd_new (cf_ctype cfg))) m)).

(** [v[i] += 1] and [v[i] -= 1] on counters; the subtraction on [usize] panics in a debug build when the counter is 0, here it
    always does. src/solver/barrier.rs:203, 296, 410. *)
Definition incr (v : list nat) (i : nat) : option (list nat) := do x <- nth_error v i; upd v i (Datatypes.S x).
(** src/solver/barrier.rs:305, 386, 409. *)
Definition decr (v : list nat) (i : nat) : option (list nat) :=
  do x <- nth_error v i; match x with O => None | Datatypes.S y => upd v i y end.

(** Functional update of fields of [Critical]. src/solver/barrier.rs:12-64. *)
Definition with_c (k : bcritical) (c : critical S cfg) : bcritical := mk_bc c (k_open k) (k_ongoing k) (k_lowest k).
(** src/solver/barrier.rs:339, 349: functional update of the field [best_ub]. *)
Definition with_ubound (c : critical S cfg) (u : Z) : critical S cfg :=
  mk_crit (c_fringe c) (c_ongoing c) (c_explored c) (c_explored_dd c) (c_lb c) u (c_sol c) (c_ubs c) (c_interrupted c).

(** src/solver/barrier.rs:331-335: one turn of the [while] loop that clears layers of thresholds; [None] inside when the
    condition does not hold. *)
Definition clean_turn (k : bcritical) (T : thresholds S) : option (option (bcritical * thresholds S)) :=
  if (k_lowest k <? N)%nat then
    do o <- nth_error (k_open k) (k_lowest k);
    do g <- nth_error (k_ongoing k) (k_lowest k);
    if (o + g =? 0)%nat then
      do T' <- upd T (k_lowest k) [];
      Some (Some (mk_bc (k_c k) (k_open k) (k_ongoing k) (Datatypes.S (k_lowest k)), T'))
    else Some None
  else Some None.

(** src/solver/barrier.rs:337-372: from the end of that loop to the first [pop] (the lock is held); [intr] is the answer of
    [interrupt()]. The result is the next position. *)
Definition decide (k : bcritical) (intr : bool) : option (bcritical * bpc S) :=
  let c := k_c k in
  if Nat.eqb (c_ongoing c) 0 && fr_empty fr (c_fringe c) then Some (with_c k (with_ubound c (c_lb c)), BDone)
  else if c_interrupted c then Some (k, BDone)
  else if intr then
    do '(ub, f) <-
      (if (0 <? c_ongoing c)%nat then Some (max_ongoing (c_ubs c), c_fringe c)
       else do '(r, f) <- fr_pop fr (c_fringe c); do nn <- r; Some (sp_ub nn, f));
    Some (with_c k (mk_crit (fr_clear fr f) (c_ongoing c) (c_explored c) (c_explored_dd c) (c_lb c) ub (c_sol c) (c_ubs c) true), BDone)
  else if fr_empty fr (c_fringe c) then Some (k, BWait)
  else
    do '(r, f) <- fr_pop fr (c_fringe c);
    do nn <- r;
    Some (with_c k (set_fringe cfg c f), BTry nn).

(** src/solver/barrier.rs:374-400: one turn of the [loop], up to the write of the threshold (which is another access), or to
    the next [pop]. *)
Definition try_node (k : bcritical) (T : thresholds S) (nn : subproblem S) : option (bcritical * bpc S) :=
  let c := k_c k in
  if sp_ub nn <=? c_lb c then
    Some (mk_bc (set_fringe cfg c (fr_clear fr (c_fringe c))) (map (fun _ => 0%nat) (k_open k)) (k_ongoing k) (k_lowest k), BIdle)
  else
    let depth := length (sp_path nn) in
    do l <- nth_error T depth;
    if match tget eqb l (sp_state nn) with
       | None => true
       | Some i => (b_theta i <? sp_value nn) || ((sp_value nn =? b_theta i) && negb (b_explored i))
       end
    then Some (k, BInsert nn)
    else
      do o <- decr (k_open k) depth;
      let k1 := mk_bc c o (k_ongoing k) (k_lowest k) in
      if fr_empty fr (c_fringe c) then Some (k1, BIdle)
      else
        do '(r, f) <- fr_pop fr (c_fringe c);
        do nn' <- r;
        Some (with_c k1 (set_fringe cfg c f), BTry nn').

(** src/solver/barrier.rs:392 and 403-413: the write of the threshold and the end of [get_workload]. *)
Definition take_node (k : bcritical) (T : thresholds S) (i : nat) (nn : subproblem S) : option (bcritical * thresholds S) :=
  let c := k_c k in
  let depth := length (sp_path nn) in
  do l <- nth_error T depth;
  do T' <- upd T depth (tput eqb l (sp_state nn) (mk_info (sp_value nn) true));
  do ubs <- upd (c_ubs c) i (sp_ub nn);
  do o <- decr (k_open k) depth;
  do g <- incr (k_ongoing k) depth;
  Some (mk_bc (mk_crit (c_fringe c) (Datatypes.S (c_ongoing c)) (Datatypes.S (c_explored c)) (c_explored_dd c) (c_lb c) (c_ub c)
                 (c_sol c) ubs (c_interrupted c)) o g (k_lowest k), T').

(** src/solver/barrier.rs:291-298: the callback of [enqueue_cutset] on one subproblem of the cutset. *)
Definition benqueue_node (best_lb ub : Z) (a : fr_t fr * list nat) (q : subproblem S) : option (fr_t fr * list nat) :=
  let '(f, o) := a in
  let q' := with_ub q (Z.min ub (sp_ub q)) in
  if best_lb <? sp_ub q' then
    let depth := length (sp_path q') in
    do f' <- fr_push fr f q';
    do o' <- incr o depth;
    Some (f', o')
  else Some (f, o).

(** src/solver/barrier.rs:287-299 [enqueue_cutset]; also returns the drained diagram. *)
Definition benqueue_cutset (k : bcritical) (d : dd S) (ub : Z) : option (bcritical * dd S) :=
  do '(l, d') <- drain_cutset d;
  do '(f, o) <- ofold (benqueue_node (c_lb (k_c k)) ub) l (c_fringe (k_c k), k_open k);
  Some (mk_bc (set_fringe cfg (k_c k) f) o (k_ongoing k) (k_lowest k), d').

(** src/solver/barrier.rs:301-306 [notify_node_finished], without line 308. *)
Definition bfinish_node (k : bcritical) (i depth explored : nat) : option bcritical :=
  do c <- finish_node cfg (k_c k) i explored;
  do g <- decr (k_ongoing k) depth;
  Some (mk_bc c (k_open k) g (k_lowest k)).

(** [monitor.notify_all()], line 308. src/solver/barrier.rs:308. *)
Definition bwake (t : bthread) : bthread := match u_pc t with BWait => mk_bth BIdle (u_dd t) | _ => t end.

(** Whether a thread holds the lock [critical] between two steps (src/solver/barrier.rs:328-413), and whether any does. *)
Definition holds (t : bthread) : bool := match u_pc t with BClean | BTry _ | BInsert _ => true | _ => false end.
(** src/solver/barrier.rs:328. *)
Definition locked (st : bstate) : bool := existsb holds (q_threads st).

(** The state after a step of thread [i] that does not wake the others (src/solver/barrier.rs:444-455). *)
Definition goto (st : bstate) (i : nat) (k : bcritical) (T : thresholds S) (t : bthread) : boutcome :=
  BNext (mk_bst k T (put i t (q_threads st))).
(** A step of a compilation of thread [i]; [f] rebuilds the position. Called from src/solver/barrier.rs:451, 499. *)
Definition compile_step (st : bstate) (i : nat) (p : prog S (dd S)) (f : prog S (dd S) -> bpc S) (d : dd S) : boutcome :=
  match access eqb p (q_table st) with
  | None => BPanic
  | Some (p', T') => goto st i (q_crit st) T' (mk_bth (f p') d)
  end.

(** One step of thread [i]; [orc] stands for the hash maps and sorts of a compilation, [intr] for the answer of [interrupt()].
    src/solver/barrier.rs:444-455 and 492-503. *)
Definition bthread_step (orc : oracle S) (intr : bool) (i : nat) (st : bstate) : boutcome :=
  let k := q_crit st in
  let c := k_c k in
  let T := q_table st in
  match nth_error (q_threads st) i with
  | None => BDisabled
  | Some t =>
      let d := u_dd t in
      (* a critical section of one step *)
      let critical_section (o : option (bcritical * bthread)) :=
        if locked st then BDisabled
        else match o with None => BPanic | Some (k', t') => goto st i k' T t' end in
      match u_pc t with
      | BDone | BWait => BDisabled
      | BIdle => critical_section (Some (k, mk_bth BClean d))
      | BClean =>
          match clean_turn k T with
          | None => BPanic
          | Some (Some (k', T')) => goto st i k' T' (mk_bth BClean d)
          | Some None => match decide k intr with None => BPanic | Some (k', p) => goto st i k' T (mk_bth p d) end
          end
      | BTry n => match try_node k T n with None => BPanic | Some (k', p) => goto st i k' T (mk_bth p d) end
      | BInsert n => match take_node k T i n with None => BPanic | Some (k', T') => goto st i k' T' (mk_bth (BStart n) d) end
      | BStart n =>
          critical_section
            (Some (k, mk_bth (if sp_ub n <=? c_lb c then BNotify (length (sp_path n)) 0
                              else BRestrict n (compile eqb false orc (call cfg Restricted n (c_lb c)) d)) d))
      | BRestrict n (Ret d') =>
          critical_section
            (do c' <- maybe_update_best cfg c d';
             Some (with_c k c', mk_bth (if g_exact d' then BNotify (length (sp_path n)) (g_explored d') else BRelax n (g_explored d')) d'))
      | BRestrict n p => compile_step st i p (BRestrict n) d
      | BRelax n x =>
          critical_section (Some (k, mk_bth (BRelaxing n x (compile eqb false orc (call cfg Relaxed n (c_lb c)) d)) d))
      | BRelaxing n x (Ret d') =>
          let x' := (x + g_explored d')%nat in
          critical_section
            (if g_exact d' then do c' <- maybe_update_best cfg c d'; Some (with_c k c', mk_bth (BNotify (length (sp_path n)) x') d')
             else do '(k', d'') <- benqueue_cutset k d' (sp_ub n); Some (k', mk_bth (BNotify (length (sp_path n)) x') d''))
      | BRelaxing n x p => compile_step st i p (BRelaxing n x) d
      | BNotify depth x =>
          if locked st then BDisabled
          else match bfinish_node k i depth x with
               | None => BPanic
               | Some k' => BNext (mk_bst k' T (map bwake (put i (mk_bth BIdle d) (q_threads st))))
               end
      end
  end.

(** What the methods of the solver answer, and the status, once every thread is done (src/solver/barrier.rs:461-470, 508-531). *)
Definition bbest_value (st : bstate) : option Z := option_map (fun _ => c_lb (k_c (q_crit st))) (c_sol (k_c (q_crit st))).
(** src/solver/barrier.rs:462-464, 520-522. *)
Definition bbest_solution (st : bstate) : option (list decision) := c_sol (k_c (q_crit st)).
(** src/solver/barrier.rs:524-526. *)
Definition blower_bound (st : bstate) : Z := c_lb (k_c (q_crit st)).
(** src/solver/barrier.rs:528-530. *)
Definition bupper_bound (st : bstate) : Z := c_ub (k_c (q_crit st)).
(** The scope has ended: src/solver/barrier.rs:458, 506. *)
Definition ball_done (st : bstate) : Prop := forall t, In t (q_threads st) -> u_pc t = BDone.
(** src/solver/barrier.rs:508-510. *)
Definition bproved (st : bstate) : Prop := ball_done st /\ c_interrupted (k_c (q_crit st)) = false.
(** src/solver/barrier.rs:511-513. *)
Definition binterrupted (st : bstate) : Prop := ball_done st /\ c_interrupted (k_c (q_crit st)) = true.

End Model.
Arguments mk_bc {S cfg}. Arguments k_c {S cfg}. Arguments k_open {S cfg}. Arguments k_ongoing {S cfg}. Arguments k_lowest {S cfg}.
Arguments mk_bth {S}. Arguments u_pc {S}. Arguments u_dd {S}. Arguments mk_bst {S cfg}. Arguments q_crit {S cfg}.
Arguments q_table {S cfg}. Arguments q_threads {S cfg}. Arguments BNext {S cfg}. Arguments BPanic {S cfg}. Arguments BDisabled {S cfg}.
Arguments binitial {S}. Arguments with_c {S cfg}. Arguments with_ubound {S cfg}. Arguments clean_turn {S}. Arguments decide {S}. Arguments try_node {S}.
Arguments take_node {S}. Arguments benqueue_node {S}. Arguments benqueue_cutset {S}. Arguments bfinish_node {S}. Arguments bwake {S}.
Arguments holds {S}. Arguments locked {S}. Arguments goto {S}. Arguments compile_step {S}. Arguments bthread_step {S}.
Arguments bbest_value {S}. Arguments bbest_solution {S}. Arguments blower_bound {S}. Arguments bupper_bound {S}.
Arguments ball_done {S}. Arguments bproved {S}. Arguments binterrupted {S}.
