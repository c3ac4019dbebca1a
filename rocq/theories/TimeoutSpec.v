(** Executions of [timeout]. *)
From Verif Require Export Timeout.
Open Scope nat_scope.

Section Spec.
Variable duration : nat.
Variables action at_exit : behaviour.

(** A function has returned, or panicked, after [k] steps. *)
Definition ends (r : progress) (b : behaviour) (k : nat) : Prop := b k = r /\ forall j, j < k -> b j = GoesOn.
Definition never_ends (b : behaviour) : Prop := forall k, b k = GoesOn.

(** One step of one of the threads, or time. *)
Inductive pstep (t0 : nat) : process -> process -> Prop :=
| by_main p p' : main_step action p = Some p' -> pstep t0 p p'
| by_timer p p' : timer_step duration at_exit t0 p = Some p' -> pstep t0 p p'
| by_clock p : pstep t0 p (tick p).
(** The states of the executions that start when the clock says [t0]. *)
Inductive preaches (t0 : nat) : process -> Prop :=
| pr_start : preaches t0 (started t0)
| pr_step p p' : preaches t0 p -> pstep t0 p p' -> preaches t0 p'.

Inductive pgoes (t0 : nat) : process -> process -> Prop :=
| pg_refl p : pgoes t0 p p
| pg_step p p' p'' : pgoes t0 p p' -> pstep t0 p' p'' -> pgoes t0 p p''.

(** [action] has returned: the main thread is past it. *)
Definition action_done (p : process) : Prop := p_main p = MLock \/ p_main p = MExit.
(** [at_exit] has been called. *)
Definition at_exit_called (p : process) : Prop := (exists k, p_timer p = TAtExit k) \/ p_timer p = TExit \/ p_timer p = TDead.
(** [at_exit] has been called and has returned. *)
Definition at_exit_done (p : process) : Prop := p_timer p = TExit.

(** An infinite execution in which time goes by, and no thread that can always move from some moment on is left aside forever. *)
Record fair_run (t0 : nat) (f : nat -> process) : Prop := {
  fr_start : f 0 = started t0;
  fr_step : forall n, pstep t0 (f n) (f (S n));
  fr_time : forall t, exists n, t <= p_clock (f n);
  fr_main : forall n, exists m, n <= m /\ (main_step action (f m) = Some (f (S m)) \/ main_step action (f m) = None);
  fr_timer : forall n, exists m, n <= m /\ (timer_step duration at_exit t0 (f m) = Some (f (S m)) \/ timer_step duration at_exit t0 (f m) = None) }.
End Spec.
