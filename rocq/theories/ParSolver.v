(** Model of src/solver/parallel.rs.
    Threads interleave at the granularity of the critical sections (the mutex [critical] is held from the first to the last
    line of each of them); what a thread computes between two critical sections depends only on its own diagram and
    on immutable data, hence is attached to the critical section that precedes it. A panic is the outcome [Panic]. *)
From Verif Require Export Fringe MddAll.
Open Scope Z_scope.

(** src/solver/parallel.rs:57-79 [Shared], the immutable part. *)
Record config (S : Type) := mk_cfg {
  cf_pb : problem S; cf_rx : relaxation S; cf_rank : ranking S; cf_width : S -> nat;
  cf_ctype : cutset_type; cf_fr : frontier S }.
Arguments mk_cfg {S}. Arguments cf_pb {S}. Arguments cf_rx {S}. Arguments cf_rank {S}. Arguments cf_width {S}.
Arguments cf_ctype {S}. Arguments cf_fr {S}.

(** Where a thread is in its loop (src/solver/parallel.rs:386-396, 434-444) and in [process_one_node] (201-249). *)
Inductive pc (S : Type) :=
| PIdle                                   (* about to call [get_workload] *)
| PWait                                   (* parked on the monitor, line 338 *)
| PStart (n : subproblem S)               (* about to read [best_lb], line 211 *)
| PRestricted (n : subproblem S)          (* restricted diagram compiled; about to call [maybe_update_best], line 231 *)
| PRelax (n : subproblem S) (k : nat)     (* about to read [best_lb], line 237; [k] is the counter [explored_dd] *)
| PRelaxed (n : subproblem S) (k : nat)   (* relaxed diagram compiled; line 242 *)
| PNotify (k : nat)                       (* about to call [notify_node_finished], line 393 *)
| PDone.                                  (* left the loop *)
Arguments PIdle {S}. Arguments PWait {S}. Arguments PStart {S}. Arguments PRestricted {S}. Arguments PRelax {S}.
Arguments PRelaxed {S}. Arguments PNotify {S}. Arguments PDone {S}.

(** src/solver/parallel.rs:81-90 [WorkLoad]; [WPark] is the answer [Starvation] of line 339, given after having
    waited on the monitor. *)
Inductive workload (S : Type) := WComplete | WInterruption | WStarvation | WPark | WItem (n : subproblem S).
Arguments WComplete {S}. Arguments WInterruption {S}. Arguments WStarvation {S}. Arguments WPark {S}. Arguments WItem {S}.

Section Model.
Variable S : Type.
Variable eqb : S -> S -> bool.
Variable cfg : config S.
Notation fr := (cf_fr cfg).

(** src/solver/parallel.rs:14-53 [Critical]. *)
Record critical := mk_crit {
  c_fringe : fr_t fr; c_ongoing : nat; c_explored : nat; c_explored_dd : nat; c_lb : Z; c_ub : Z;
  c_sol : option (list decision); c_ubs : list Z; c_interrupted : bool }.

(** A thread: its position and its diagram (line 385). src/solver/parallel.rs:385. *)
Record thread := mk_th { t_pc : pc S; t_dd : dd S }.
(** src/solver/parallel.rs:57-79 [Shared], with the threads spawned at 381-385. *)
Record state := mk_st { s_crit : critical; s_threads : list thread }.
(** The outcome of one step of a thread (loop at src/solver/parallel.rs:386-396): a new state, a panic, or no step possible. *)
Inductive outcome := Next (s : state) | Panic | Disabled.

(** src/solver/parallel.rs:187-195 [root_node]. *)
Definition root_node : subproblem S := mk_sub (pb_init (cf_pb cfg)) (pb_init_val (cf_pb cfg)) [] IMAX.

(** src/solver/parallel.rs:140-172 [custom] with [n] threads, 174-177 [with_nb_threads m], 182-185 [initialize], and
    the threads as they are spawned (381-385). *)
Definition initial (n m : nat) : option state :=
  do f <- fr_push fr (fr_new fr) root_node;
  Some (mk_st (mk_crit f 0 0 0 IMIN IMAX None (repeat IMAX n) false) (repeat (mk_th PIdle (dd_new (cf_ctype cfg))) m)).

(** [iter().copied().filter(|x| *x != isize::MAX).max().unwrap_or(isize::MAX)], lines 320-326. src/solver/parallel.rs:320-326. *)
Definition max_ongoing (l : list Z) : Z :=
  match filter (fun x => negb (x =? IMAX)) l with
  | [] => IMAX
  | x :: t => fold_left Z.max t x
  end.

(** src/solver/parallel.rs:297-354 [get_workload]; [intr] is the answer of [interrupt()]. *)
Definition get_workload (c : critical) (i : nat) (intr : bool) : option (critical * workload S) :=
  if Nat.eqb (c_ongoing c) 0 && fr_empty fr (c_fringe c) then
    Some (mk_crit (c_fringe c) (c_ongoing c) (c_explored c) (c_explored_dd c) (c_lb c) (c_lb c) (c_sol c) (c_ubs c) (c_interrupted c),
          WComplete)
  else if c_interrupted c then Some (c, WInterruption)
  else if intr then
    do '(ub, f) <-
      (if (0 <? c_ongoing c)%nat then Some (max_ongoing (c_ubs c), c_fringe c)
       else do '(r, f) <- fr_pop fr (c_fringe c); do nn <- r; Some (sp_ub nn, f));
    Some (mk_crit (fr_clear fr f) (c_ongoing c) (c_explored c) (c_explored_dd c) (c_lb c) ub (c_sol c) (c_ubs c) true, WInterruption)
  else if fr_empty fr (c_fringe c) then Some (c, WPark)
  else
    do '(r, f) <- fr_pop fr (c_fringe c);
    do nn <- r;
    if sp_ub nn <=? c_lb c then
      Some (mk_crit (fr_clear fr f) (c_ongoing c) (c_explored c) (c_explored_dd c) (c_lb c) (c_ub c) (c_sol c) (c_ubs c) (c_interrupted c),
            WStarvation)
    else
      do ubs <- upd (c_ubs c) i (sp_ub nn);
      Some (mk_crit f (Datatypes.S (c_ongoing c)) (Datatypes.S (c_explored c)) (c_explored_dd c) (c_lb c) (c_ub c) (c_sol c) ubs
              (c_interrupted c), WItem nn).

(** src/solver/parallel.rs:218-227, 238-239: the input of the compilations. *)
Definition call (ty : comp_type) (n : subproblem S) (lb : Z) : input S :=
  mk_in ty (cf_width cfg (sp_state n)) (cf_pb cfg) (cf_rx cfg) (cf_rank cfg) n lb.

(** src/solver/parallel.rs:258-265 [maybe_update_best]. *)
Definition maybe_update_best (c : critical) (d : dd S) : option critical :=
  do bv <- best_value d;
  let dd_best := match bv with Some v => v | None => IMIN end in
  if c_lb c <? dd_best then
    do sol <- best_solution d;
    Some (mk_crit (c_fringe c) (c_ongoing c) (c_explored c) (c_explored_dd c) dd_best (c_ub c) sol (c_ubs c) (c_interrupted c))
  else Some c.

(** src/solver/parallel.rs:272-277: the callback of [enqueue_cutset] on one subproblem of the cutset. *)
Definition enqueue_node (best_lb ub : Z) (f : fr_t fr) (q : subproblem S) : option (fr_t fr) :=
  let q' := with_ub q (Z.min ub (sp_ub q)) in
  if best_lb <? sp_ub q' then fr_push fr f q' else Some f.
(** src/solver/parallel.rs:272-277: functional update of the field [fringe]. *)
Definition set_fringe (c : critical) (f : fr_t fr) : critical :=
  mk_crit f (c_ongoing c) (c_explored c) (c_explored_dd c) (c_lb c) (c_ub c) (c_sol c) (c_ubs c) (c_interrupted c).

(** src/solver/parallel.rs:268-278 [enqueue_cutset]; also returns the drained diagram. *)
Definition enqueue_cutset (c : critical) (d : dd S) (ub : Z) : option (critical * dd S) :=
  do '(l, d') <- drain_cutset d;
  do f <- ofold (enqueue_node (c_lb c) ub) l (c_fringe c);
  Some (set_fringe c f, d').

(** src/solver/parallel.rs:280-284 [notify_node_finished], without line 285. The subtraction on [usize] panics in a debug
    build when [ongoing] is 0; here it always does. *)
Definition finish_node (c : critical) (i : nat) (explored : nat) : option critical :=
  match c_ongoing c with
  | O => None
  | Datatypes.S o =>
      do ubs <- upd (c_ubs c) i IMAX;
      Some (mk_crit (c_fringe c) o (c_explored c) (c_explored_dd c + explored) (c_lb c) (c_ub c) (c_sol c) ubs (c_interrupted c))
  end.

(** Functional update of one thread among those of src/solver/parallel.rs:381-399. *)
Fixpoint put {A} (i : nat) (x : A) (l : list A) : list A :=
  match l, i with
  | [], _ => []
  | _ :: t, O => x :: t
  | h :: t, Datatypes.S j => h :: put j x t
  end.
(** [monitor.notify_all()], line 285: the waiting threads go back to the lock. src/solver/parallel.rs:285. *)
Definition wake (t : thread) : thread := match t_pc t with PWait => mk_th PIdle (t_dd t) | _ => t end.

(** The state after a step of thread [i] that does not wake the others (src/solver/parallel.rs:386-396). *)
Definition lift (o : option (critical * thread)) (i : nat) (st : state) : outcome :=
  match o with None => Panic | Some (c, t) => Next (mk_st c (put i t (s_threads st))) end.

(** One step of thread [i]; [orc] stands for the hash maps and sorts of a compilation, [intr] for the answer of [interrupt()].
    src/solver/parallel.rs:386-396 and 434-444. *)
Definition thread_step (orc : oracle S) (intr : bool) (i : nat) (st : state) : outcome :=
  let c := s_crit st in
  match nth_error (s_threads st) i with
  | None => Disabled
  | Some t =>
      let d := t_dd t in
      match t_pc t with
      | PDone | PWait => Disabled
      | PIdle =>
          lift (do '(c', w) <- get_workload c i intr;
                Some (c', mk_th (match w with
                                 | WComplete | WInterruption => PDone
                                 | WStarvation => PIdle
                                 | WPark => PWait
                                 | WItem n => PStart n
                                 end) d)) i st
      | PStart n =>
          lift (if sp_ub n <=? c_lb c then Some (c, mk_th (PNotify 0) d)
                else do d' <- compile eqb false orc (call Restricted n (c_lb c)) d; Some (c, mk_th (PRestricted n) d')) i st
      | PRestricted n =>
          lift (do c' <- maybe_update_best c d;
                Some (c', mk_th (if g_exact d then PNotify (g_explored d) else PRelax n (g_explored d)) d)) i st
      | PRelax n k =>
          lift (do d' <- compile eqb false orc (call Relaxed n (c_lb c)) d;
                Some (c, mk_th (PRelaxed n (k + g_explored d')) d')) i st
      | PRelaxed n k =>
          lift (if g_exact d then do c' <- maybe_update_best c d; Some (c', mk_th (PNotify k) d)
                else do '(c', d') <- enqueue_cutset c d (sp_ub n); Some (c', mk_th (PNotify k) d')) i st
      | PNotify k =>
          match finish_node c i k with
          | None => Panic
          | Some c' => Next (mk_st c' (map wake (put i (mk_th PIdle d) (s_threads st))))
          end
      end
  end.

(** What the methods of the solver answer (402-411, 457-471) and the status (449-454), once every thread is done. src/solver/parallel.rs:402-411, 457-459. *)
Definition best_value_of (st : state) : option Z := option_map (fun _ => c_lb (s_crit st)) (c_sol (s_crit st)).
(** src/solver/parallel.rs:402-404, 461-463. *)
Definition best_solution_of (st : state) : option (list decision) := c_sol (s_crit st).
(** src/solver/parallel.rs:465-467. *)
Definition lower_bound_of (st : state) : Z := c_lb (s_crit st).
(** src/solver/parallel.rs:469-471. *)
Definition upper_bound_of (st : state) : Z := c_ub (s_crit st).
(** The scope has ended: src/solver/parallel.rs:399, 447. *)
Definition all_done (st : state) : Prop := forall t, In t (s_threads st) -> t_pc t = PDone.
(** src/solver/parallel.rs:449-451. *)
Definition proved (st : state) : Prop := all_done st /\ c_interrupted (s_crit st) = false.
(** src/solver/parallel.rs:452-454. *)
Definition interrupted (st : state) : Prop := all_done st /\ c_interrupted (s_crit st) = true.

End Model.
Arguments mk_crit {S cfg}. Arguments c_fringe {S cfg}. Arguments c_ongoing {S cfg}. Arguments c_explored {S cfg}.
Arguments c_explored_dd {S cfg}. Arguments c_lb {S cfg}. Arguments c_ub {S cfg}. Arguments c_sol {S cfg}. Arguments c_ubs {S cfg}.
Arguments c_interrupted {S cfg}. Arguments mk_th {S}. Arguments t_pc {S}. Arguments t_dd {S}. Arguments mk_st {S cfg}.
Arguments s_crit {S cfg}. Arguments s_threads {S cfg}. Arguments Next {S cfg}. Arguments Panic {S cfg}. Arguments Disabled {S cfg}.
Arguments root_node {S}. Arguments initial {S}. Arguments get_workload {S}. Arguments call {S}. Arguments maybe_update_best {S}.
Arguments enqueue_node {S}. Arguments set_fringe {S}. Arguments enqueue_cutset {S}. Arguments finish_node {S}. Arguments wake {S}.
Arguments lift {S}. Arguments thread_step {S}. Arguments best_value_of {S}. Arguments best_solution_of {S}.
Arguments lower_bound_of {S}. Arguments upper_bound_of {S}. Arguments all_done {S}. Arguments proved {S}. Arguments interrupted {S}.
