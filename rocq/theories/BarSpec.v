(** Executions of the solver with thresholds, and what is assumed of its user. *)
From Verif Require Export FringeSpec DdSpec ParSpec BarSolver.
Open Scope Z_scope.

Section Spec.
Variable S : Type.
Variable eqb : S -> S -> bool.
Variable cfg : config S.

(** One step of one thread, whatever the hash maps, the sorts and [interrupt()] do. *)
Definition bstep (st st' : bstate S cfg) : Prop :=
  exists orc intr i, library_ok S orc /\ bthread_step eqb cfg orc intr i st = BNext st'.
(** The same when [interrupt()] always answers no (that is: [maximize]). *)
Definition bstep_no_interrupt (st st' : bstate S cfg) : Prop :=
  exists orc i, library_ok S orc /\ bthread_step eqb cfg orc false i st = BNext st'.
(** A waiting thread may also wake up for no reason. *)
Definition bspurious (st st' : bstate S cfg) : Prop :=
  exists i d, nth_error (q_threads st) i = Some (mk_bth BWait d) /\
    st' = mk_bst (q_crit st) (q_table st) (put i (mk_bth BIdle d) (q_threads st)).

Inductive breaches : bstate S cfg -> bstate S cfg -> Prop :=
| breaches_refl st : breaches st st
| breaches_step st st' st'' : breaches st st' -> bstep st' st'' \/ bspurious st' st'' -> breaches st st''.

(** [breachable n m st]: [st] occurs in an execution of [custom(.., n).with_nb_threads(m)]. *)
Definition breachable (n m : nat) (st : bstate S cfg) : Prop := exists st0, binitial cfg n m = Some st0 /\ breaches st0 st.

(** Executions of [maximize], which never interrupts. *)
Inductive bmaximize_reaches (n m : nat) : bstate S cfg -> Prop :=
| bmaximize_init st : binitial cfg n m = Some st -> bmaximize_reaches n m st
| bmaximize_step st st' : bmaximize_reaches n m st -> bstep_no_interrupt st st' \/ bspurious st st' -> bmaximize_reaches n m st'.

(** Some thread can do something, and no library outcome makes it panic. *)
Definition bcan_move (st : bstate S cfg) : Prop :=
  exists i, forall orc intr, library_ok S orc -> exists st', bthread_step eqb cfg orc intr i st = BNext st'.

(** The thread is processing a subproblem or about to report that it finished. *)
Definition bbusy (t : bthread S) : Prop :=
  match u_pc t with BStart _ | BRestrict _ _ | BRelax _ _ | BRelaxing _ _ _ | BNotify _ _ => True | _ => False end.

(** The layer of the subproblem a thread has in hand (from [pop] to the end of [notify_node_finished]). *)
Definition in_hand (t : bthread S) (k : nat) : Prop :=
  match u_pc t with
  | BTry n | BInsert n | BStart n | BRestrict n _ | BRelax n _ | BRelaxing n _ _ => depth_of n = k
  | BNotify d _ => d = k
  | BIdle | BWait | BClean | BDone => False
  end.

(** What the shared table holds for a state of a layer. *)
Definition threshold_of (st : bstate S cfg) (k : nat) (s : S) : option info :=
  match nth_error (q_table st) k with Some l => tget eqb l s | None => None end.

(** [x] is already achieved, or some pending subproblem has a completion at least as good and a bound that admits [x]. *)
Definition still_promised (nv : nat -> nat) (pending : list (subproblem S)) (lb x : Z) : Prop :=
  x <= lb \/ exists q ds w, In q pending /\ completes S (cf_pb cfg) nv q ds w /\ x <= w /\ x <= sp_ub q.

(** Which threads are processing a subproblem of layer [k], and which have popped one without having started. *)
Definition runs_in (k : nat) (t : bthread S) : bool :=
  match u_pc t with
  | BStart n | BRestrict n _ | BRelax n _ | BRelaxing n _ _ => Nat.eqb (depth_of n) k
  | BNotify d _ => Nat.eqb d k
  | BIdle | BWait | BClean | BTry _ | BInsert _ | BDone => false
  end.
Definition tries_in (k : nat) (t : bthread S) : bool :=
  match u_pc t with BTry n | BInsert n => Nat.eqb (depth_of n) k | _ => false end.

(** The subproblem a thread has in hand. *)
Definition held (t : bthread S) : list (subproblem S) :=
  match u_pc t with
  | BTry n | BInsert n | BStart n | BRestrict n _ | BRelax n _ | BRelaxing n _ _ => [n]
  | BIdle | BWait | BClean | BNotify _ _ | BDone => []
  end.
End Spec.
