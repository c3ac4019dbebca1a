(** Executions of the parallel solver, and what is assumed of its user. *)
From Verif Require Export FringeSpec DdSpec ParSolver.
Open Scope Z_scope.

Section Spec.
Variable S : Type.
Variable eqb : S -> S -> bool.
Variable cfg : config S.
Variable at_depth : nat -> S -> Prop.
Variable nv : nat -> nat.
Variable C : Z.

(** One critical section of one thread, whatever the hash maps, the sorts and [interrupt()] do. *)
Definition step (st st' : state S cfg) : Prop :=
  exists orc intr i, library_ok S orc /\ thread_step eqb cfg orc intr i st = Next st'.
(** The same when [interrupt()] always answers no (that is: [maximize]). *)
Definition step_no_interrupt (st st' : state S cfg) : Prop :=
  exists orc i, library_ok S orc /\ thread_step eqb cfg orc false i st = Next st'.
(** A waiting thread may also wake up for no reason. *)
Definition spurious (st st' : state S cfg) : Prop :=
  exists i d, nth_error (s_threads st) i = Some (mk_th PWait d) /\ st' = mk_st (s_crit st) (put i (mk_th PIdle d) (s_threads st)).

Inductive reaches : state S cfg -> state S cfg -> Prop :=
| reaches_refl st : reaches st st
| reaches_step st st' st'' : reaches st st' -> step st' st'' \/ spurious st' st'' -> reaches st st''.

(** [reachable n m st]: [st] occurs in an execution of [custom(.., n).with_nb_threads(m)]. *)
Definition reachable (n m : nat) (st : state S cfg) : Prop := exists st0, initial cfg n m = Some st0 /\ reaches st0 st.

(** Some thread can do something, and no library outcome makes it panic. *)
Definition can_move (st : state S cfg) : Prop :=
  exists i, forall orc intr, library_ok S orc -> exists st', thread_step eqb cfg orc intr i st = Next st'.

(** The thread is processing a subproblem or about to report that it finished. *)
Definition busy (t : thread S) : Prop :=
  match t_pc t with PStart _ | PRestricted _ | PRelax _ _ | PRelaxed _ _ | PNotify _ => True | PIdle | PWait | PDone => False end.

(** The user's side: problem and relaxation are well formed, the width is never 0, the frontier behaves. *)
Record good_config (merging : Prop) (inv : fr_t (cf_fr cfg) -> Prop) (content : fr_t (cf_fr cfg) -> list (subproblem S)) : Prop := {
  gs_formed : well_formed S eqb (cf_pb cfg) (cf_rx cfg) at_depth nv C;
  gs_width : forall s, (1 <= cf_width cfg s)%nat;
  gs_frontier : frontier_ok merging (cf_fr cfg) inv content }.

(** The same, for some description of the contents of the frontier. *)
Definition good_solver : Prop := exists inv content, good_config True inv content.

(** Executions of [maximize], which never interrupts. *)
Inductive maximize_reaches (n m : nat) : state S cfg -> Prop :=
| maximize_init st : initial cfg n m = Some st -> maximize_reaches n m st
| maximize_step st st' : maximize_reaches n m st -> step_no_interrupt st st' \/ spurious st st' -> maximize_reaches n m st'.

(** All full assignments lead to the same state. *)
Definition one_end : Prop := forall s s', at_depth (pb_nb_vars (cf_pb cfg)) s -> at_depth (pb_nb_vars (cf_pb cfg)) s' -> s = s'.

(** No variable is decided in two layers. *)
Definition decided_once : Prop := forall k k', (k < pb_nb_vars (cf_pb cfg))%nat -> (k' < pb_nb_vars (cf_pb cfg))%nat -> nv k = nv k' -> k = k'.
End Spec.
