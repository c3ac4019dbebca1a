(** Executions of both solvers in which threads panic, and how they end. *)
From Verif Require Export Crash.
Open Scope Z_scope.

Section Parallel.
Variable S : Type.
Variable eqb : S -> S -> bool.
Variable cfg : config S.

(** An execution: the state, and the threads that have panicked. *)
Record cstate := mk_cs { x_st : state S cfg; x_dead : list nat }.
(** One step; [interrupt()] may only answer yes if [stop] is true ([maximize] is [stop = false]). *)
Inductive cstep (stop : bool) : cstate -> cstate -> Prop :=
| cstep_moves orc intr i st st' dead : library_ok S orc -> (intr = true -> stop = true) -> ~ In i dead -> thread_step eqb cfg orc intr i st = Next st' ->
    cstep stop (mk_cs st dead) (mk_cs st' dead)
| cstep_dies intr i t c t' st dead : (intr = true -> stop = true) -> ~ In i dead -> nth_error (s_threads st) i = Some t -> dies (s_crit st) i intr t c t' ->
    cstep stop (mk_cs st dead) (mk_cs (mk_st c (put i t' (s_threads st))) (i :: dead)).
(** A thread that waits may wake up for no reason. *)
Definition cwakes (x y : cstate) : Prop := spurious S cfg (x_st x) (x_st y) /\ x_dead y = x_dead x.

Inductive cruns (stop : bool) : cstate -> cstate -> Prop :=
| cruns_refl x : cruns stop x x
| cruns_step x y z : cruns stop x y -> cstep stop y z \/ cwakes y z -> cruns stop x z.
(** An execution of [custom(.., n).with_nb_threads(m)]. *)
Definition creaches (stop : bool) (n m : nat) (x : cstate) : Prop := exists st, initial cfg n m = Some st /\ cruns stop (mk_cs st []) x.

(** The scope is over: every thread has left its loop or panicked. The call then returns, or panics if a thread did. *)
Definition ended (x : cstate) : Prop := forall i t, nth_error (s_threads (x_st x)) i = Some t -> t_pc t = PDone \/ In i (x_dead x).
(** A thread panicked while it was in charge of a subproblem. *)
Definition died_at_work (x : cstate) : Prop := exists i t, In i (x_dead x) /\ nth_error (s_threads (x_st x)) i = Some t /\ busy S t.
(** Nobody is left to do anything: there are threads, all of them panicked or wait, and not all panicked. *)
Definition deserted (x : cstate) : Prop :=
  (forall i t, nth_error (s_threads (x_st x)) i = Some t -> In i (x_dead x) \/ t_pc t = PWait) /\
  (exists i t, nth_error (s_threads (x_st x)) i = Some t /\ ~ In i (x_dead x)).
End Parallel.
Arguments mk_cs {S cfg}. Arguments x_st {S cfg}. Arguments x_dead {S cfg}. Arguments ended {S cfg}. Arguments died_at_work {S cfg}. Arguments deserted {S cfg}.

(** The same for the solver with thresholds. *)
Section Barrier.
Variable S : Type.
Variable eqb : S -> S -> bool.
Variable cfg : config S.

Record bcstate := mk_bcs { z_st : bstate S cfg; z_dead : list nat }.
Inductive bcstep (stop : bool) : bcstate -> bcstate -> Prop :=
| bcstep_moves orc intr i st st' dead : library_ok S orc -> (intr = true -> stop = true) -> ~ In i dead -> bthread_step eqb cfg orc intr i st = BNext st' ->
    bcstep stop (mk_bcs st dead) (mk_bcs st' dead)
| bcstep_dies intr i t k T t' st dead : (intr = true -> stop = true) -> ~ In i dead -> nth_error (q_threads st) i = Some t ->
    bdies eqb (q_crit st) (q_table st) i intr (negb (locked cfg st)) t k T t' ->
    bcstep stop (mk_bcs st dead) (mk_bcs (mk_bst k T (put i t' (q_threads st))) (i :: dead)).
Definition bcwakes (x y : bcstate) : Prop := bspurious S cfg (z_st x) (z_st y) /\ z_dead y = z_dead x.
Inductive bcruns (stop : bool) : bcstate -> bcstate -> Prop :=
| bcruns_refl x : bcruns stop x x
| bcruns_step x y z : bcruns stop x y -> bcstep stop y z \/ bcwakes y z -> bcruns stop x z.
Definition bcreaches (stop : bool) (n m : nat) (x : bcstate) : Prop := exists st, binitial cfg n m = Some st /\ bcruns stop (mk_bcs st []) x.

Definition bended (x : bcstate) : Prop := forall i t, nth_error (q_threads (z_st x)) i = Some t -> u_pc t = BDone \/ In i (z_dead x).
Definition bdied_at_work (x : bcstate) : Prop := exists i t, In i (z_dead x) /\ nth_error (q_threads (z_st x)) i = Some t /\ bbusy S t.
Definition bdeserted (x : bcstate) : Prop :=
  (forall i t, nth_error (q_threads (z_st x)) i = Some t -> In i (z_dead x) \/ u_pc t = BWait) /\
  (exists i t, nth_error (q_threads (z_st x)) i = Some t /\ ~ In i (z_dead x)).
End Barrier.
Arguments mk_bcs {S cfg}. Arguments z_st {S cfg}. Arguments z_dead {S cfg}. Arguments bended {S cfg}. Arguments bdied_at_work {S cfg}. Arguments bdeserted {S cfg}.
